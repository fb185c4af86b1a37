(** * Examples for C92: data repeated twice. *)
From Coq Require Import Permutation.
From Verif Require Export Repeat_thms Relabel_ex.

(** The estimator [h] built with a tolerance multiplied by [m] (all examples
    have [tol = 0.01]) and emission parameters [p]. *)
Definition looser {P} (m : nat) (h : hmm P) (p : P) : hmm P :=
  Hmm (cfg_tol (Fin (INR m * / 100)) (h_cfg h)) (h_nfeat h) (h_start h) (h_trans h)
      (Monitor (Fin (INR m * / 100)) (m_n_iter (h_mon h)) (m_verbose (h_mon h)) (m_history (h_mon h)) (m_iter (h_mon h))) p.

Lemma looser_settings {P} m (h : hmm P) p : m_tol (h_mon h) = Fin (/ 100) -> scaled_settings m h (looser m h p).
Proof. intros H. constructor; try reflexivity. exists (/ 100). split; [exact H|reflexivity]. Qed.
Lemma looser_base {P} m (h : hmm P) p nc pi A : base_ok h nc pi A -> base_ok (looser m h p) nc pi A.
Proof. intros []. constructor; assumption. Qed.
Lemma looser_flat {P} m (h : hmm P) p nc : flat_base h ->
  priors (h_cfg (looser m h p)) nc (fun _ => 1 + INR m * (1 - 1)) (fun _ _ => 1 + INR m * (1 - 1)).
Proof.
  intros [H1 H2]. split; intros; cbn [looser h_cfg cfg_tol c_sprior c_tprior]; rewrite ?H1, ?H2;
    replace (1 + INR m * (1 - 1)) with 1 by ring; reflexivity.
Qed.

Lemma C92_categorical_applies_l :
  let h := ex_h "log" "map" in let h2 := looser 2 h (h_em h) in
  repeats_data 2 [3]%nat ex_x [3; 3]%nat (ex_x ++ ex_x)
  /\ exists h' h2' ev ev2, fit_from categorical exact h ex_x (as_lengths [3]%nat) = Ok (h', ev)
     /\ fit_from categorical exact h2 (ex_x ++ ex_x) (as_lengths [3; 3]%nat) = Ok (h2', ev2)
     /\ same_training 2 h' h2' /\ cat_prob (h_em h2') = cat_prob (h_em h').
Proof.
  intros h h2. assert (HR : repeats_data 2 [3]%nat ex_x [3; 3]%nat (ex_x ++ ex_x)) by (split; [lia|apply Permutation_refl]).
  split; [exact HR|]. pose proof (ex_model "log" "map") as CM. fold h in CM.
  assert (CM2 : cat_model h2 2 3 ex_pi ex_A ex_e) by (destruct CM; constructor; assumption).
  pose proof (flat_cat_priors h 2 3 ltac:(repeat split)) as CP.
  assert (CP2 : cat_priors h2 2 3 (fun _ => 1 + INR 2 * (1 - 1)) (fun _ _ => 1 + INR 2 * (1 - 1)) (fun _ _ => 1 + INR 2 * (1 - 1))).
  { replace (1 + INR 2 * (1 - 1)) with 1 by ring. apply (flat_cat_priors h2 2 3). repeat split. }
  assert (Hd : good_data (sym_ok 3) [3]%nat ex_x).
  { split; [exact ex_x_ok|]. split; [discriminate|]. split; [repeat constructor; lia|reflexivity]. }
  assert (Hd2 : good_data (sym_ok 3) [3; 3]%nat (ex_x ++ ex_x)).
  { split; [apply Forall_app; split; exact ex_x_ok|]. split; [discriminate|]. split; [repeat constructor; lia|reflexivity]. }
  assert (Hpos : possible 2 ex_pi ex_A (cat_b ex_e) [3]%nat ex_x).
  { intros c [<-|[]]. cbn [firstn ex_x]. fold ex_x. rewrite ex_lik. lra. }
  destruct (cat_fit_log_ok h 2 3 ex_pi ex_A ex_e _ _ _ [3]%nat ex_x CM CP Hd Hpos eq_refl) as ([h' ev] & H).
  destruct (C92_categorical_l h h2 2 3 ex_pi ex_A ex_e _ _ _ 2 [3]%nat ex_x [3; 3]%nat (ex_x ++ ex_x) h' ev
    (looser_settings 2 h _ eq_refl) HR CM CP CM2 CP2 Hd Hd2 Hpos H) as (h2' & ev2 & F & Q1 & Q2).
  exists h', h2', ev, ev2. auto.
Qed.

(** The fitted rates are (0, 4) both times. *)
Lemma C92_poisson_applies_l :
  let h := ex_po "stl" 0 0 in let h2 := looser 2 h (h_em h) in
  exists h' h2' ev ev2, fit_from poisson exact h ex_px (as_lengths [2]%nat) = Ok (h', ev)
     /\ fit_from poisson exact h2 (ex_px ++ ex_px) (as_lengths [2; 2]%nat) = Ok (h2', ev2) /\ same_training 2 h' h2'
     /\ po_lam (h_em h2') = Some (fmat 2 1 (fun i _ => match i with 0%nat => 0 | _ => 4 end)).
Proof.
  intros h h2. pose proof (ex_pois_model "stl" 0 0) as PM. fold h in PM.
  assert (PM2 : pois_model h2 2 1 sw_pi sw_A (fun _ _ => 1)) by (destruct PM; constructor; [apply looser_base|..]; assumption).
  destruct C41_applies_l as (h' & ev & H & _ & _ & E).
  assert (GP : gamma_prior 2 1 (h_em h) (fun _ _ => 0) (fun _ _ => 0)) by (intros i f _ _; split; reflexivity).
  assert (GP2 : gamma_prior 2 1 (h_em h2) (fun _ _ => INR 2 * 0) (fun _ _ => INR 2 * 0))
    by (rewrite Rmult_0_r; intros i f _ _; split; reflexivity).
  assert (FB : flat_base h) by (split; reflexivity).
  assert (Hd2 : good_data (counts_ok 1) [2; 2]%nat (ex_px ++ ex_px)).
  { destruct ex_px_good as [G _]. split; [apply Forall_app; split; exact G|]. split; [discriminate|]. split; [repeat constructor; lia|reflexivity]. }
  destruct (C92_poisson_l h h2 2 1 sw_pi sw_A (fun _ _ => 1) (fun _ _ => 0) (fun _ _ => 0) (fun _ => 1) (fun _ _ => 1)
    2 [2]%nat ex_px [2; 2]%nat (ex_px ++ ex_px) h' ev (looser_settings 2 h _ eq_refl) ltac:(split; [lia|apply Permutation_refl])
    PM GP (flat_base_priors h 2 FB) PM2 GP2 (looser_flat 2 h _ 2 FB)
    ltac:(intros i f _ _; lra) ltac:(intros i f _ _; lra) ltac:(intros; lra) ltac:(intros; lra)
    ex_px_good Hd2 ex_px_possible (fun _ => ex_px_used) H) as (h2' & ev2 & F & Q & L).
  exists h', h2', ev, ev2. rewrite L. auto.
Qed.

Lemma C92_multinomial_applies_l :
  let h := ex_mu "ste" in let h2 := looser 2 h (h_em h) in
  exists h' h2' ev ev2, fit_from multinomial exact h ex_mx (as_lengths [2]%nat) = Ok (h', ev)
     /\ fit_from multinomial exact h2 (ex_mx ++ ex_mx) (as_lengths [2; 2]%nat) = Ok (h2', ev2) /\ same_training 2 h' h2'
     /\ mu_prob (h_em h2') = Some (fmat 2 3 (fun i f => IZR (nth f (nth i ex_mx []) 0%Z) / 4)).
Proof.
  intros h h2. pose proof (ex_mult_model "ste") as MM. fold h in MM.
  assert (MM2 : mult_model h2 2 3 sw_pi sw_A ex_me) by (destruct MM; constructor; try assumption; apply looser_base; assumption).
  destruct C42_applies_l as (h' & ev & H & _ & E).
  assert (FB : flat_base h) by (split; reflexivity).
  assert (Hd2 : good_data (trials_ok 3) [2; 2]%nat (ex_mx ++ ex_mx)).
  { destruct ex_mx_good as [G _]. split; [apply Forall_app; split; exact G|]. split; [discriminate|]. split; [repeat constructor; lia|reflexivity]. }
  destruct (C92_multinomial_l h h2 2 3 sw_pi sw_A ex_me (fun _ => 1) (fun _ _ => 1)
    2 [2]%nat ex_mx [2; 2]%nat (ex_mx ++ ex_mx) h' ev (looser_settings 2 h _ eq_refl) ltac:(split; [lia|apply Permutation_refl])
    MM (flat_base_priors h 2 FB) MM2 (looser_flat 2 h _ 2 FB) ltac:(intros; lra) ltac:(intros; lra)
    ex_mx_good Hd2 ex_mx_possible (fun _ => ex_mx_used) H) as (h2' & ev2 & F & Q & L).
  exists h', h2', ev, ev2. rewrite L. auto.
Qed.

(** Variance prior 1 with weight 2, and prior 2 with weight 3. *)
Definition rp_p (cp cw : R) : gaussp :=
  Gaussp "diag" (Fin (/ 1000)) (Scal (Fin 0)) (Scal (Fin 0)) (Scal (Fin cp)) (Scal (Fin cw)) (Some (fmat 2 2 (fun _ _ => 1)))
    (Some (one_cov "diag")).
Definition rp_ga : hmm gaussp :=
  let h := ex_sw "diag" "mc" 1 in Hmm (h_cfg h) (h_nfeat h) (h_start h) (h_trans h) (h_mon h) (rp_p 1 2).
Lemma rp_model : gauss_model rp_ga 2 2 sw_pi sw_A (fun _ _ => 1) (fun _ _ => 1).
Proof.
  destruct (ex_sw_model "diag" "mc" 1 (or_introl eq_refl)) as [[B1 B2 B3 B4 B5 B6 B7 B8] G2 G3 G4].
  constructor; [constructor; assumption|exact G2|exact G3|exact G4].
Qed.
Lemma rp_hyper P2 cp cw : 1 <= cw -> h_em P2 = rp_p cp cw ->
  gauss_hyper P2 2 2 (fun _ _ => 0) (fun _ _ => 0) (fun _ _ => cp) (cw - 1).
Proof.
  intros Hc E. unfold gauss_hyper. rewrite E. constructor; try apply cast_scal.
  unfold cweight_excess, py_max, exact. cbn [rp_p ga_cweight xsub xopp xadd].
  destruct (xltb _ _) eqn:L; [|reflexivity]. apply Rltb_true in L. do 2 f_equal. lra.
Qed.
Lemma C92_gaussian_applies_l :
  let h2 := looser 2 rp_ga (rp_p 2 3) in
  exists h' h2' ev ev2, fit_from gaussian exact rp_ga sx (as_lengths [2; 2]%nat) = Ok (h', ev)
     /\ fit_from gaussian exact h2 (sx ++ sx) (as_lengths [2; 2; 2; 2]%nat) = Ok (h2', ev2) /\ same_training 2 h' h2'
     /\ ga_means (h_em h2') = ga_means (h_em h').
Proof.
  intros h2. pose proof rp_model as GM.
  assert (GM2 : gauss_model h2 2 2 sw_pi sw_A (fun _ _ => 1) (fun _ _ => 1)) by (destruct GM; constructor; [apply looser_base|..]; assumption).
  pose proof (rp_hyper rp_ga 1 2 ltac:(lra) eq_refl) as HH. replace (2 - 1) with 1 in HH by ring.
  assert (HH2 : gauss_hyper h2 2 2 (fun _ _ => 0) (fun _ _ => INR 2 * 0) (fun _ _ => INR 2 * 1) (INR 2 * 1)).
  { pose proof (rp_hyper h2 2 3 ltac:(lra) eq_refl) as Q. replace (INR 2 * 0) with 0 by ring.
    replace (INR 2 * 1) with 2 by (simpl; ring). replace (3 - 1) with 2 in Q by ring. exact Q. }
  assert (FB : flat_base rp_ga) by (split; reflexivity).
  assert (Hd2 : good_data (finite_row 2) [2; 2; 2; 2]%nat (sx ++ sx)).
  { destruct sx_good as [G _]. split; [apply Forall_app; split; exact G|]. split; [discriminate|]. split; [repeat constructor; lia|reflexivity]. }
  destruct (gauss_fit_log_ok rp_ga 2 2 sw_pi sw_A (fun _ _ => 1) (fun _ _ => 1) (fun _ _ => 0) (fun _ _ => 0) (fun _ _ => 1) 1 GM
      HH ltac:(intros i f _ _; lra) [2; 2]%nat sx sx_good sx_possible true
      ltac:(intros H; left; reflexivity) (fun _ => sx_used) (fun _ => 1) (fun _ _ => 1) ltac:(intros; lra) ltac:(intros; lra)
      (flat_base_priors rp_ga 2 FB) eq_refl) as (h' & ev & H).
  destruct (C92_gaussian_l rp_ga h2 2 2 sw_pi sw_A (fun _ _ => 1) (fun _ _ => 1) (fun _ _ => 0) (fun _ _ => 0) (fun _ _ => 1) 1
    (fun _ => 1) (fun _ _ => 1) 2 [2; 2]%nat sx [2; 2; 2; 2]%nat (sx ++ sx) h' ev
    (looser_settings 2 rp_ga _ eq_refl) ltac:(split; [lia|apply Permutation_refl]) eq_refl
    GM HH (flat_base_priors rp_ga 2 FB) GM2 HH2 (looser_flat 2 rp_ga _ 2 FB) ltac:(intros i f _ _; lra) ltac:(lra)
    ltac:(intros; lra) ltac:(intros; lra) sx_good Hd2 sx_possible (fun _ => or_introl sx_used) H)
    as (h2' & ev2 & v' & F & Q & L & _).
  exists h', h2', ev, ev2. auto.
Qed.

Definition dbl2 (k j : nat) : R := INR 2 * id2 k j.
Lemma C92_gaussian_full_applies_l : forall ty, ty = "tied"%string \/ ty = "full"%string ->
  let h := ex_fw ty (Arr2 (fmat 2 2 id2)) in
  let h2 := looser 2 h (h_em (ex_fw ty (Arr2 (fmat 2 2 dbl2)))) in
  exists h' h2' ev ev2, fit_from gaussian exact h sx (as_lengths [2; 2]%nat) = Ok (h', ev)
     /\ fit_from gaussian exact h2 (sx ++ sx) (as_lengths [2; 2; 2; 2]%nat) = Ok (h2', ev2) /\ same_training 2 h' h2'
     /\ ga_means (h_em h2') = Some (fmat 2 2 (fun i _ => match i with 0%nat => 1 | _ => 7 end)).
Proof.
  intros ty Hty h h2. pose proof (ex_fw_model ty (Arr2 (fmat 2 2 id2)) Hty) as FM. fold h in FM.
  assert (FM2 : full_model h2 2 2 sw_pi sw_A (fun _ _ => 1) (fun _ => id2)) by (destruct FM; constructor; [apply looser_base|..]; assumption).
  assert (Hps : pos_semidef 2 dbl2).
  { destruct id2_psd as [P1 P2]. unfold dbl2. split; [intros i j Hi Hj; f_equal; apply P1; assumption|].
    intros v. specialize (P2 v). unfold quad in *. cbn [sumn] in *. simpl INR. lra. }
  destruct (ex_fw_trained ty (Arr2 (fmat 2 2 id2)) id2 Hty (cast_fmat 2 2 id2) id2_psd)
    as (h' & ev & pis & As & mus & Ss & b & b0 & H & Hk & Hh & D & Hp & Hu & T & M & _).
  destruct (ex_fw_trained ty (Arr2 (fmat 2 2 dbl2)) dbl2 Hty (cast_fmat 2 2 dbl2) Hps)
    as (_ & _ & _ & _ & _ & _ & _ & _ & _ & _ & Hh2 & _).
  destruct T as (_ & _ & _ & _ & _ & _ & Tm & _). rewrite Hk in Tm.
  assert (E : ga_means (h_em h') = Some (fmat 2 2 (fun i _ => match i with 0%nat => 1 | _ => 7 end)))
    by (rewrite Tm; f_equal; apply fmat_ext; intros i f Hi Hf; apply M; assumption).
  assert (HH2 : full_hyper h2 2 2 (fun _ _ => 0) (fun k j => INR 2 * id2 k j) (INR 2 * 0) (INR 2 * 0)).
  { rewrite !Rmult_0_r. exact Hh2. }
  assert (FB : flat_base h) by (split; reflexivity).
  assert (Hd2 : good_data (finite_row 2) [2; 2; 2; 2]%nat (sx ++ sx)).
  { destruct sx_good as [G _]. split; [apply Forall_app; split; exact G|]. split; [discriminate|]. split; [repeat constructor; lia|reflexivity]. }
  destruct (C92_gaussian_full_l h h2 2 2 sw_pi sw_A (fun _ _ => 1) (fun _ => id2) (fun _ _ => 0) id2 0 0
    (fun _ => 1) (fun _ _ => 1) 2 [2; 2]%nat sx [2; 2; 2; 2]%nat (sx ++ sx) b0 h' ev
    (looser_settings 2 h _ eq_refl) ltac:(split; [lia|apply Permutation_refl]) eq_refl
    FM Hh (flat_base_priors h 2 FB) FM2 HH2 (looser_flat 2 h _ 2 FB)
    ltac:(intros; lra) ltac:(intros; lra) sx_good Hd2 D Hp
    ltac:(split; intros _; [left|right; split; [reflexivity|]]; exact Hu) H)
    as (h2' & ev2 & v' & F & Q & L & _).
  exists h', h2', ev, ev2. rewrite L. auto.
Qed.
