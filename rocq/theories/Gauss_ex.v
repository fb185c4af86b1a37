(** * GaussianHMM: concrete models and counterexamples. *)
From Verif Require Export Gauss_thms.

Definition ex_ga nc pi A ty params (cp : R) m cv : hmm gaussp :=
  Hmm (Cfg nc params "stmc" "map" "log" 1 (Fin (/ 100)) false (Scal (Fin 1)) (Scal (Fin 1))) None
      (Some (fvec nc pi)) (Some (fmat nc nc A)) (Monitor (Fin (/ 100)) 1 false [] 0)
      (Gaussp ty (Fin (/ 1000)) (Scal (Fin 0)) (Scal (Fin 0)) (Scal (Fin cp)) (Scal (Fin 1)) (Some m) (Some cv)).

Section ExFit.
  Variables (nc nf : nat) (pi : nat -> R) (A mu var : nat -> nat -> R) (ty params : string) (cp : R) (cv : covs).
  Let h := ex_ga nc pi A ty params cp (fmat nc nf mu) cv.
  Hypothesis Hb : base_ok h nc pi A.
  Hypothesis Hnf : (0 < nf)%nat.
  Hypothesis Hcv : vcov nc nf var ty cv.
  Lemma ex_ga_model : gauss_model h nc nf pi A mu var.
  Proof. constructor; [exact Hb|exact Hnf|reflexivity|]. exists cv. split; [reflexivity|exact Hcv]. Qed.
  Lemma ex_ga_default : gauss_default h cp.
  Proof. repeat split. Qed.
  Lemma ex_ga_flat : flat_base h.
  Proof. split; reflexivity. Qed.
  Variables (ls : list nat) (x : list vec).
  Hypothesis Hd : good_data (finite_row nf) ls x.
  Hypothesis Hpos : possible nc pi A (gauss_b nf mu (floored var)) ls x.
  Hypothesis Hu : has "m" params = true -> all_used nc pi A (gauss_b nf mu (floored var)) (chunks ls x).
  Lemma ex_ga_fit : exists h' ev, fit_from gaussian exact h x (as_lengths ls) = Ok (h', ev)
    /\ length (m_history (h_mon h')) = 1%nat.
  Proof.
    destruct (gauss_fit_log_ok h nc nf pi A mu var (fun _ _ => 0) (fun _ _ => 0) (fun _ _ => cp) 0 ex_ga_model
      (default_hyper h nc nf cp ex_ga_default) ltac:(intros i f _ _; lra) ls x Hd Hpos (has "m" params)
      ltac:(intros H; left; exact H) Hu (fun _ => 1) (fun _ _ => 1) ltac:(intros; lra) ltac:(intros; lra)
      (flat_base_priors h nc ex_ga_flat) eq_refl) as (h' & ev & H).
    exists h', ev. split; [exact H|].
    destruct (C23_stopping_and_history_l gaussian exact h x ls h' ev eq_refl eq_refl H) as (_ & H1 & H2 & _).
    cbn [h ex_ga h_cfg c_n_iter] in H1, H2. lia.
  Qed.
End ExFit.

Lemma gb_pos nf mu var o i : 0 < gauss_b nf mu (floored var) o i.
Proof. apply gauss_b_pos. intros; apply floored_pos. Qed.

(** ** A rare state: two sequences of one sample, both states with the same
    density, the second with prior probability 1e-6. *)
Definition rp_pi (i : nat) : R := match i with 0%nat => 1 - / 10 ^ 6 | _ => / 10 ^ 6 end.
Definition rx : list vec := [[Fin 0]; [Fin 1]].
Definition ex_rare : hmm gaussp :=
  ex_ga 2 rp_pi st_A "diag" "mc" 0 (fmat 2 1 (fun _ _ => / 2)) (CV2 (fmat 2 1 (fun _ _ => / 4))).

Lemma rp_pos i : 0 < rp_pi i.
Proof. destruct i; simpl; lra. Qed.
Lemma rare_base : base_ok ex_rare 2 rp_pi st_A.
Proof.
  constructor; try reflexivity; try lia.
  - intros i _. left. apply rp_pos.
  - replace (sumn 2 rp_pi) with 1 by (simpl; lra). exact near1_1.
  - intros i j Hi Hj. unfold st_A. destruct (Nat.eqb i j); lra.
  - intros i Hi. replace (sumn 2 (st_A i)) with 1; [exact near1_1|].
    destruct i as [|[|i]]; [| |lia]; unfold st_A; simpl; lra.
Qed.
Lemma rx_good : good_data (finite_row 1) [1; 1]%nat rx.
Proof. split; [|split; [discriminate|split; [repeat constructor; lia|reflexivity]]]. repeat constructor. Qed.

Lemma one_lik {X} pi A (b : X -> nat -> R) u : seq_lik 2 pi A b [u] = pi 0%nat * b u 0%nat + pi 1%nat * b u 1%nat.
Proof. unfold seq_lik, likelihood, joint, obsB. simpl. ring. Qed.
Lemma one_post {X} pi A (b : X -> nat -> R) u i : (i < 2)%nat -> 0 < b u 0%nat -> b u 1%nat = b u 0%nat -> pi 0%nat + pi 1%nat = 1 ->
  seq_post 2 pi A b [u] 0 i = pi i.
Proof.
  intros Hi Hb E Hs. unfold seq_post, posterior. fold (seq_lik 2 pi A b [u]). rewrite one_lik, E.
  replace (pi 0%nat * b u 0%nat + pi 1%nat * b u 0%nat) with (b u 0%nat) by (rewrite <- Rmult_plus_distr_r, Hs; ring).
  destruct i as [|[|i]]; [| |lia]; unfold marginal, joint, obsB; simpl; try rewrite E; field; lra.
Qed.
Lemma rare_b_same mu v o : (forall f, (f < 1)%nat -> mu 1%nat f = mu 0%nat f /\ v 1%nat f = v 0%nat f) ->
  gauss_b 1 mu (floored v) o 1 = gauss_b 1 mu (floored v) o 0.
Proof.
  intros H. unfold gauss_b, floored. apply prodn_ext. intros f Hf. destruct (H f Hf) as [-> ->]. reflexivity.
Qed.
Lemma rare_possible : possible 2 rp_pi st_A (gauss_b 1 (fun _ _ => / 2) (floored (fun _ _ => / 4))) [1; 1]%nat rx.
Proof.
  intros c [<-|[<-|[]]]; cbn [firstn skipn rx]; rewrite one_lik;
    (apply Rplus_lt_0_compat; apply Rmult_lt_0_compat; [apply rp_pos|apply gb_pos|apply rp_pos|apply gb_pos]).
Qed.
Lemma rare_used : all_used 2 rp_pi st_A (gauss_b 1 (fun _ _ => / 2) (floored (fun _ _ => / 4))) (chunks [1; 1]%nat rx).
Proof.
  intros i Hi. exists [[Fin 0]], 0%nat. split; [left; reflexivity|]. split; [simpl; lia|].
  rewrite one_post; [apply rp_pos|exact Hi|apply gb_pos|apply rare_b_same; intros; split; reflexivity|simpl; lra].
Qed.

(** Occupancy 2e-6, weighted mean 1/2, weighted scatter 5e-7: the "variance" is
    1/20 instead of 1/4. *)
Lemma rare_fit : exists h' ev pis As mus vs,
  fit_from gaussian exact ex_rare rx (as_lengths [1; 1]%nat) = Ok (h', ev)
  /\ length (m_history (h_mon h')) = 1%nat
  /\ gauss_traj ex_rare 2 1 rp_pi st_A (fun _ _ => / 2) (fun _ _ => / 4) h' pis As mus vs
  /\ (forall i, (i < 2)%nat -> mus 1%nat i 0%nat = / 2)
  /\ vs 1%nat 0%nat 0%nat = / 4 /\ vs 1%nat 1%nat 0%nat = / 20
  /\ (forall i, (i < 2)%nat -> pis 1%nat i = rp_pi i)
  /\ (let b := gauss_b 1 (mus 0%nat) (floored (vs 0%nat)) in
      occupancy 2 (pis 0%nat) (As 0%nat) b (chunks [1; 1]%nat rx) 1 = 2 / 10 ^ 6
      /\ weighted_total 2 (pis 0%nat) (As 0%nat) b (chunks [1; 1]%nat rx) (fun o => (xval o 0 - mus 1%nat 1%nat 0%nat) ^ 2) 1
         = / 2 / 10 ^ 6).
Proof.
  assert (Hcv : vcov 2 1 (fun _ _ => / 4) "diag" (CV2 (fmat 2 1 (fun _ _ => / 4)))) by constructor.
  destruct (ex_ga_fit 2 1 rp_pi st_A (fun _ _ => / 2) (fun _ _ => / 4) "diag" "mc" 0 _ rare_base ltac:(lia) Hcv
              [1; 1]%nat rx rx_good rare_possible (fun _ => rare_used)) as (h' & ev & H & Hk). fold ex_rare in H.
  exists h', ev.
  destruct (C34_run ex_rare 2 1 rp_pi st_A (fun _ _ => / 2) (fun _ _ => / 4) 0
     (ex_ga_model 2 1 rp_pi st_A (fun _ _ => / 2) (fun _ _ => / 4) "diag" "mc" 0 _ rare_base ltac:(lia) Hcv)
     ltac:(split; reflexivity) ltac:(repeat split) ltac:(lra) ltac:(simpl; lra)
     ltac:(intros i Hi; destruct i as [|[|i]]; [| |lia]; unfold st_A; simpl; lra)
     [1; 1]%nat rx rx_good rare_possible (fun _ => rare_used) h' ev H)
    as (pis & As & mus & vs & T & _ & _ & _ & _ & _ & U & _).
  exists pis, As, mus, vs. split; [exact H|]. split; [exact Hk|]. split; [exact T|].
  rewrite Hk in U. destruct T as (T0 & T1 & T2 & T3 & _).
  destruct (U 0%nat ltac:(lia)) as (_ & U2). cbv zeta in *.
  set (b := gauss_b 1 (mus 0%nat) (floored (vs 0%nat))) in *.
  assert (Hsame : forall o, b o 1%nat = b o 0%nat).
  { intros o. apply rare_b_same. intros f Hf. destruct (T2 1%nat f ltac:(lia) Hf) as [-> ->], (T2 0%nat f ltac:(lia) Hf) as [-> ->]. split; reflexivity. }
  assert (Hp : forall u i, (i < 2)%nat -> seq_post 2 rp_pi st_A b [u] 0 i = rp_pi i).
  { intros u i Hi. apply one_post; [exact Hi|apply gb_pos|apply Hsame|simpl; lra]. }
  assert (Hocc : forall i, (i < 2)%nat -> occupancy 2 rp_pi st_A b (chunks [1; 1]%nat rx) i = 2 * rp_pi i).
  { intros i Hi. unfold occupancy. cbn [chunks firstn skipn rx sumL length sumn]. rewrite !Hp by exact Hi. ring. }
  assert (Htot : forall phi i, (i < 2)%nat -> weighted_total 2 rp_pi st_A b (chunks [1; 1]%nat rx) phi i
            = rp_pi i * (phi [Fin 0] + phi [Fin 1])).
  { intros phi i Hi. unfold weighted_total. cbn [chunks firstn skipn rx sumL length sumn map nth]. rewrite !Hp by exact Hi. ring. }
  rewrite T0, T1 in *. change (has "m" (c_params (h_cfg ex_rare))) with true in U2.
  change (has "c" (c_params (h_cfg ex_rare))) with true in U2. cbv iota in U2.
  assert (Hmu : forall i, (i < 2)%nat -> mus 1%nat i 0%nat = / 2).
  { intros i Hi. destruct (U2 i 0%nat Hi ltac:(lia)) as (M & _ & _). destruct (M eq_refl) as [_ ->].
    rewrite Htot, Hocc by exact Hi. unfold xval, vget. simpl. pose proof (rp_pos i). field. lra. }
  split; [exact Hmu|].
  assert (Hv : forall i, (i < 2)%nat -> vs 1%nat i 0%nat = (rp_pi i / 2) / Rmax (2 * rp_pi i) (/ 10 ^ 5)).
  { intros i Hi. destruct (U2 i 0%nat Hi ltac:(lia)) as (_ & _ & M). destruct (M eq_refl) as [_ ->].
    change (String.eqb (ga_type (h_em ex_rare)) "spherical") with false. cbv iota.
    rewrite Htot, Hocc, Hmu by exact Hi. f_equal. unfold xval, vget. simpl. field. }
  split; [|split; [|split; [|split]]].
  - rewrite Hv by lia. rewrite Rmax_left by (simpl; lra). simpl. field.
  - rewrite Hv by lia. rewrite Rmax_right by (simpl; lra). simpl. field.
  - intros i Hi. destruct (C21_base_params_l gaussian exact ex_rare rx (as_lengths [1; 1]%nat) h' ev H) as (_ & Hs & _).
    specialize (Hs eq_refl). rewrite T3, Hk in Hs. cbn [ex_rare ex_ga h_start] in Hs.
    pose proof (f_equal (fun o => match o with Some v => vget v i | None => NaN end) Hs) as E. cbv beta iota in E.
    rewrite !vget_fvec in E by exact Hi. injection E as E. exact E.
  - rewrite Hocc by lia. simpl. field.
  - rewrite Htot, Hmu by lia. unfold xval, vget. simpl. field.
Qed.

Lemma C34_rare_state_refuted_l : exists h nc nf pi A mu var ls x h' ev m' v' i f,
  gauss_model h nc nf pi A mu var /\ flat_base h /\ gauss_default h 0 /\ ga_type (h_em h) = "diag"%string
  /\ has "m" (c_params (h_cfg h)) = true /\ has "c" (c_params (h_cfg h)) = true
  /\ sumn nc pi = 1 /\ (forall i, (i < nc)%nat -> sumn nc (A i) = 1)
  /\ good_data (finite_row nf) ls x /\ possible nc pi A (gauss_b nf mu (floored var)) ls x
  /\ all_used nc pi A (gauss_b nf mu (floored var)) (chunks ls x)
  /\ fit_from gaussian exact h x (as_lengths ls) = Ok (h', ev) /\ length (m_history (h_mon h')) = 1%nat
  /\ ga_means (h_em h') = Some (fmat nc nf m') /\ ga_covars (h_em h') = Some (CV2 (fmat nc nf v'))
  /\ (i < nc)%nat /\ (f < nf)%nat
  /\ v' i f <> weighted_total nc pi A (gauss_b nf mu (floored var)) (chunks ls x) (fun o => (xval o f - m' i f) ^ 2) i
               / occupancy nc pi A (gauss_b nf mu (floored var)) (chunks ls x) i.
Proof.
  destruct rare_fit as (h' & ev & pis & As & mus & vs & H & Hk & T & Hmu & Hv0 & Hv1 & Hpi & Hocc & Htot).
  cbv zeta in Hocc, Htot.
  exists ex_rare, 2%nat, 1%nat, rp_pi, st_A, (fun _ _ => / 2), (fun _ _ => / 4), [1; 1]%nat, rx, h', ev, (mus 1%nat), (vs 1%nat), 1%nat, 0%nat.
  split; [apply ex_ga_model; [exact rare_base|lia|constructor]|]. split; [split; reflexivity|]. split; [repeat split|].
  split; [reflexivity|]. split; [reflexivity|]. split; [reflexivity|]. split; [simpl; lra|].
  split; [intros i Hi; destruct i as [|[|i]]; [| |lia]; unfold st_A; simpl; lra|].
  split; [exact rx_good|]. split; [exact rare_possible|]. split; [exact rare_used|]. split; [exact H|]. split; [exact Hk|].
  destruct T as (T0 & T1 & T2 & _ & _ & T3 & cv & T4 & T5). rewrite Hk in *.
  split; [exact T3|].
  split; [inversion T5; subst; exact T4|]. split; [lia|]. split; [lia|].
  assert (Eb : forall o i, (i < 2)%nat -> gauss_b 1 (mus 0%nat) (floored (vs 0%nat)) o i = gauss_b 1 (fun _ _ => / 2) (floored (fun _ _ => / 4)) o i).
  { intros o i Hi. unfold gauss_b, floored. apply prodn_ext. intros f Hf. destruct (T2 i f Hi Hf) as [-> ->]. reflexivity. }
  rewrite T0, T1 in *.
  assert (E1 : forall i, (i < 2)%nat ->
     occupancy 2 rp_pi st_A (gauss_b 1 (fun _ _ => / 2) (floored (fun _ _ => / 4))) (chunks [1; 1]%nat rx) i
     = occupancy 2 rp_pi st_A (gauss_b 1 (mus 0%nat) (floored (vs 0%nat))) (chunks [1; 1]%nat rx) i).
  { intros i Hi. unfold occupancy. apply sumL_ext. intros c Hc. apply sumn_ext. intros t Ht.
    apply (seq_post_ext (finite_row 1)); [intros; symmetry; apply Eb; assumption| |];
      destruct Hc as [<-|[<-|[]]]; try discriminate; repeat constructor. }
  assert (E2 : weighted_total 2 rp_pi st_A (gauss_b 1 (fun _ _ => / 2) (floored (fun _ _ => / 4))) (chunks [1; 1]%nat rx) (fun o => (xval o 0 - mus 1%nat 1%nat 0%nat) ^ 2) 1
     = weighted_total 2 rp_pi st_A (gauss_b 1 (mus 0%nat) (floored (vs 0%nat))) (chunks [1; 1]%nat rx) (fun o => (xval o 0 - mus 1%nat 1%nat 0%nat) ^ 2) 1).
  { unfold weighted_total. apply sumL_ext. intros c Hc. apply sumn_ext. intros t Ht. f_equal.
    apply (seq_post_ext (finite_row 1)); [intros; symmetry; apply Eb; assumption| |];
      destruct Hc as [<-|[<-|[]]]; try discriminate; repeat constructor. }
  rewrite E1, E2, Hocc, Htot, Hv1 by lia. lra.
Qed.

Lemma exp_2_gt : 3 < exp 2.
Proof. pose proof (exp_ineq1 2 ltac:(lra)). lra. Qed.

(** The spurious variance lowers the likelihood, which is what training with
    [covars_prior = 0] claims to increase. *)
Lemma C35_rare_state_refuted_l : exists h nc nf pi A mu var ls x h' ev pi' A' mu' var',
  gauss_model h nc nf pi A mu var /\ flat_base h /\ gauss_default h 0 /\ ga_type (h_em h) = "diag"%string
  /\ has "m" (c_params (h_cfg h)) = true /\ has "c" (c_params (h_cfg h)) = true
  /\ sumn nc pi = 1 /\ (forall i, (i < nc)%nat -> sumn nc (A i) = 1)
  /\ good_data (finite_row nf) ls x /\ possible nc pi A (gauss_b nf mu (floored var)) ls x
  /\ all_used nc pi A (gauss_b nf mu (floored var)) (chunks ls x)
  /\ fit_from gaussian exact h x (as_lengths ls) = Ok (h', ev) /\ length (m_history (h_mon h')) = 1%nat
  /\ h_start h' = Some (fvec nc pi') /\ h_trans h' = Some (fmat nc nc A')
  /\ ga_means (h_em h') = Some (fmat nc nf mu') /\ ga_covars (h_em h') = Some (CV2 (fmat nc nf var'))
  /\ data_loglik nc pi' A' (gauss_b nf mu' (floored var')) ls x
     < data_loglik nc pi A (gauss_b nf mu (floored var)) ls x.
Proof.
  destruct rare_fit as (h' & ev & pis & As & mus & vs & H & Hk & T & Hmu & Hv0 & Hv1 & Hpi & _).
  exists ex_rare, 2%nat, 1%nat, rp_pi, st_A, (fun _ _ => / 2), (fun _ _ => / 4), [1; 1]%nat, rx, h', ev,
    (pis 1%nat), (As 1%nat), (mus 1%nat), (vs 1%nat).
  split; [apply ex_ga_model; [exact rare_base|lia|constructor]|]. split; [split; reflexivity|]. split; [repeat split|].
  split; [reflexivity|]. split; [reflexivity|]. split; [reflexivity|]. split; [simpl; lra|].
  split; [intros i Hi; destruct i as [|[|i]]; [| |lia]; unfold st_A; simpl; lra|].
  split; [exact rx_good|]. split; [exact rare_possible|]. split; [exact rare_used|]. split; [exact H|]. split; [exact Hk|].
  destruct T as (T0 & T1 & T2 & T6 & T7 & T3 & cv & T4 & T5). rewrite Hk in *.
  split; [exact T6|]. split; [exact T7|]. split; [exact T3|].
  split; [inversion T5; subst; exact T4|].
  unfold data_loglik. cbn [chunks firstn skipn rx sumL].
  rewrite !one_lik, !Hpi by lia.
  assert (Ht : tiny <= / 20).
  { unfold tiny. apply Rinv_le_contravar; [lra|]. replace 1022%nat with (5 + 1017)%nat by reflexivity. rewrite pow_add.
    pose proof (pow_R1_Rle 2 1017 ltac:(lra)). simpl (2 ^ 5). lra. }
  assert (G0 : forall y, (y - / 2) ^ 2 = / 4 ->
     gauss_b 1 (mus 1%nat) (floored (vs 1%nat)) [Fin y] 0 = gauss_b 1 (fun _ _ => / 2) (floored (fun _ _ => / 4)) [Fin y] 0).
  { intros y Hy. unfold gauss_b, floored. simpl. rewrite Hmu, Hv0 by lia. reflexivity. }
  assert (G1 : forall y, (y - / 2) ^ 2 = / 4 ->
     gauss_b 1 (mus 1%nat) (floored (vs 1%nat)) [Fin y] 1 < gauss_b 1 (fun _ _ => / 2) (floored (fun _ _ => / 4)) [Fin y] 1).
  { intros y Hy. unfold gauss_b, floored. simpl. rewrite Hmu, Hv1 by lia. rewrite !Rmult_1_l.
    unfold normal_pdf, xval, vget. simpl nth. cbn [rval].
    rewrite !Rmax_left by lra. rewrite Hy.
    replace (/ 4 / (2 * / 20)) with (5 / 2) by field. replace (/ 4 / (2 * / 4)) with (1 / 2) by field.
    assert (Hpi0 := PI_RGT_0).
    replace (2 * PI * / 4) with (2 * PI * / 20 * 5) by field.
    rewrite (sqrt_mult (2 * PI * / 20) 5) by lra. set (q := sqrt (2 * PI * / 20)).
    assert (Hq : 0 < q) by (apply sqrt_lt_R0; lra).
    assert (H5 : 0 < sqrt 5) by (apply sqrt_lt_R0; lra).
    assert (H53 : sqrt 5 < 3).
    { rewrite <- (sqrt_square 3) by lra. apply sqrt_lt_1; lra. }
    apply (Rmult_lt_reg_r (q * sqrt 5)); [apply Rmult_lt_0_compat; assumption|].
    replace (exp (- (5 / 2)) / q * (q * sqrt 5)) with (exp (- (5 / 2)) * sqrt 5) by (field; lra).
    replace (exp (- (1 / 2)) / (q * sqrt 5) * (q * sqrt 5)) with (exp (- (5 / 2)) * exp 2).
    - apply Rmult_lt_compat_l; [apply exp_pos|]. pose proof exp_2_gt. lra.
    - rewrite <- exp_plus. replace (- (5 / 2) + 2) with (- (1 / 2)) by lra. field. lra. }
  assert (L : forall y, (y - / 2) ^ 2 = / 4 ->
    ln (rp_pi 0%nat * gauss_b 1 (mus 1%nat) (floored (vs 1%nat)) [Fin y] 0 + rp_pi 1%nat * gauss_b 1 (mus 1%nat) (floored (vs 1%nat)) [Fin y] 1)
    < ln (rp_pi 0%nat * gauss_b 1 (fun _ _ => / 2) (floored (fun _ _ => / 4)) [Fin y] 0
          + rp_pi 1%nat * gauss_b 1 (fun _ _ => / 2) (floored (fun _ _ => / 4)) [Fin y] 1)).
  { intros y Hy. rewrite G0 by exact Hy. apply ln_increasing.
    - apply Rplus_lt_0_compat; apply Rmult_lt_0_compat; try apply rp_pos; apply gb_pos.
    - apply Rplus_lt_compat_l. apply Rmult_lt_compat_l; [apply rp_pos|apply G1; exact Hy]. }
  pose proof (L 0 ltac:(lra)). pose proof (L 1 ltac:(lra)). lra.
Qed.

(** ** Two sequences of two samples alternating between the states: state 0 sees
    (0,0) and (2,2), state 1 sees (5,5) and (9,9). *)
Definition sx : list vec := [[Fin 0; Fin 0]; [Fin 5; Fin 5]; [Fin 2; Fin 2]; [Fin 9; Fin 9]].
Definition one_cov (ty : string) : covs :=
  if String.eqb ty "spherical" then CV1 (fvec 2 (fun _ => 1)) else CV2 (fmat 2 2 (fun _ _ => 1)).
Definition ex_sw ty params cp : hmm gaussp :=
  ex_ga 2 sw_pi sw_A ty params cp (fmat 2 2 (fun _ _ => 1)) (one_cov ty).
Definition sw_b := gauss_b 2 (fun _ _ => 1) (floored (fun _ _ => 1)).

Lemma sx_good : good_data (finite_row 2) [2; 2]%nat sx.
Proof. split; [|split; [discriminate|split; [repeat constructor; lia|reflexivity]]]. repeat constructor. Qed.
Lemma sx_possible : possible 2 sw_pi sw_A sw_b [2; 2]%nat sx.
Proof. intros c [<-|[<-|[]]]; cbn [firstn skipn sx]; rewrite sw_lik; apply Rmult_lt_0_compat; apply gb_pos. Qed.
Lemma sx_used : all_used 2 sw_pi sw_A sw_b (chunks [2; 2]%nat sx).
Proof.
  intros i Hi. exists [[Fin 0; Fin 0]; [Fin 5; Fin 5]], i. split; [left; reflexivity|]. split; [exact Hi|].
  rewrite sw_post by (try apply gb_pos; assumption). rewrite Nat.eqb_refl. lra.
Qed.
Lemma sx_occ mu v i : (i < 2)%nat ->
  occupancy 2 sw_pi sw_A (gauss_b 2 mu (floored v)) (chunks [2; 2]%nat sx) i = 2.
Proof.
  intros Hi. unfold occupancy. cbn [chunks firstn skipn sx sumL length sumn].
  rewrite !sw_post by (try apply gb_pos; try assumption; lia). destruct i as [|[|i]]; [| |lia]; cbn [Nat.eqb]; lra.
Qed.
Lemma sx_tot mu v phi i : (i < 2)%nat ->
  weighted_total 2 sw_pi sw_A (gauss_b 2 mu (floored v)) (chunks [2; 2]%nat sx) phi i
  = match i with 0%nat => phi [Fin 0; Fin 0] + phi [Fin 2; Fin 2] | _ => phi [Fin 5; Fin 5] + phi [Fin 9; Fin 9] end.
Proof.
  intros Hi. unfold weighted_total. cbn [chunks firstn skipn sx sumL length sumn].
  rewrite !sw_post by (try apply gb_pos; try assumption; lia). destruct i as [|[|i]]; [| |lia]; cbn [Nat.eqb nth map]; ring.
Qed.
Lemma one_vcov ty : ty = "diag"%string \/ ty = "spherical"%string -> vcov 2 2 (fun _ _ => 1) ty (one_cov ty).
Proof. intros [->| ->]; [apply VDiag|apply (VSph1 2 2 (fun _ _ => 1) (fun _ => 1)); reflexivity]. Qed.
Lemma ex_sw_base ty params cp : base_ok (ex_sw ty params cp) 2 sw_pi sw_A.
Proof. apply sw_base; reflexivity. Qed.
Lemma ex_sw_model ty params cp : ty = "diag"%string \/ ty = "spherical"%string ->
  gauss_model (ex_sw ty params cp) 2 2 sw_pi sw_A (fun _ _ => 1) (fun _ _ => 1).
Proof. intros H. apply ex_ga_model; [apply ex_sw_base|lia|apply one_vcov; exact H]. Qed.
Lemma ex_sw_fit ty params cp : ty = "diag"%string \/ ty = "spherical"%string ->
  exists h' ev, fit_from gaussian exact (ex_sw ty params cp) sx (as_lengths [2; 2]%nat) = Ok (h', ev)
    /\ length (m_history (h_mon h')) = 1%nat.
Proof.
  intros H. exact (ex_ga_fit 2 2 sw_pi sw_A (fun _ _ => 1) (fun _ _ => 1) ty params cp _ (ex_sw_base _ _ _) ltac:(lia)
    (one_vcov ty H) [2; 2]%nat sx sx_good sx_possible (fun _ => sx_used)).
Qed.

Lemma ex_sw_stoch : sumn 2 sw_pi <= 1 /\ forall i, (i < 2)%nat -> sumn 2 (sw_A i) <= 1.
Proof. split; [simpl; lra|]. intros i Hi. destruct i as [|[|i]]; [| |lia]; simpl; lra. Qed.

(** One iteration: means 1 and 7, variances 1 and 4. *)
Lemma ex_sw_trained ty : ty = "diag"%string \/ ty = "spherical"%string ->
  exists h' ev pis As mus vs,
    fit_from gaussian exact (ex_sw ty "mc" 0) sx (as_lengths [2; 2]%nat) = Ok (h', ev)
    /\ length (m_history (h_mon h')) = 1%nat
    /\ gauss_traj (ex_sw ty "mc" 0) 2 2 sw_pi sw_A (fun _ _ => 1) (fun _ _ => 1) h' pis As mus vs
    /\ forall i f, (i < 2)%nat -> (f < 2)%nat ->
         mus 1%nat i f = match i with 0%nat => 1 | _ => 7 end /\ vs 1%nat i f = match i with 0%nat => 1 | _ => 4 end.
Proof.
  intros Hty. destruct (ex_sw_fit ty "mc" 0 Hty) as (h' & ev & H & Hk).
  destruct (C34_means_and_variances_l (ex_sw ty "mc" 0) 2 2 sw_pi sw_A (fun _ _ => 1) (fun _ _ => 1) 0 [2; 2]%nat sx h' ev
    (ex_sw_model _ _ _ Hty) ltac:(split; reflexivity) ltac:(repeat split) ltac:(lra) (proj1 ex_sw_stoch) (proj2 ex_sw_stoch)
    sx_good sx_possible (fun _ => sx_used) H) as (pis & As & mus & vs & T & U).
  exists h', ev, pis, As, mus, vs. split; [exact H|]. split; [exact Hk|]. split; [exact T|].
  rewrite Hk in U. specialize (U 0%nat ltac:(lia)). cbv zeta in U. destruct T as (T0 & T1 & _). rewrite T0, T1 in U.
  assert (M : forall i f, (i < 2)%nat -> (f < 2)%nat -> mus 1%nat i f = match i with 0%nat => 1 | _ => 7 end).
  { intros i f Hi Hf. destruct (U i f Hi Hf) as (M & _). destruct (M eq_refl) as [_ ->]. rewrite sx_tot, sx_occ by exact Hi.
    destruct i as [|[|i]]; [| |lia]; (destruct f as [|[|f]]; [| |lia]); unfold xval, vget; cbn [nth rval]; lra. }
  intros i f Hi Hf. split; [apply M; assumption|].
  destruct (U i f Hi Hf) as (_ & _ & V). rewrite (V eq_refl eq_refl eq_refl) by (rewrite sx_occ by exact Hi; simpl; lra).
  destruct Hty as [-> | ->]; cbn [ex_sw ex_ga h_em ga_type String.eqb Ascii.eqb Bool.eqb sumn];
    rewrite !sx_tot, !sx_occ, !M by (try assumption; lia).
  - destruct i as [|[|i]]; [| |lia]; (destruct f as [|[|f]]; [| |lia]); unfold xval, vget; cbn [nth rval]; lra.
  - destruct i as [|[|i]]; [| |lia]; unfold xval, vget; cbn [nth rval]; simpl INR; lra.
Qed.

Lemma C34_applies_l : exists h h' ev,
  gauss_model h 2 2 sw_pi sw_A (fun _ _ => 1) (fun _ _ => 1) /\ flat_base h /\ gauss_default h 0
  /\ fit_from gaussian exact h sx (as_lengths [2; 2]%nat) = Ok (h', ev)
  /\ ga_means (h_em h') = Some (fmat 2 2 (fun i _ => match i with 0%nat => 1 | _ => 7 end))
  /\ ga_covars (h_em h') = Some (CV2 (fmat 2 2 (fun i _ => match i with 0%nat => 1 | _ => 4 end))).
Proof.
  destruct (ex_sw_trained "diag" (or_introl eq_refl)) as (h' & ev & pis & As & mus & vs & H & Hk & T & U).
  exists (ex_sw "diag" "mc" 0), h', ev. split; [apply ex_sw_model; left; reflexivity|]. split; [split; reflexivity|].
  split; [repeat split|]. split; [exact H|].
  destruct T as (_ & _ & _ & _ & _ & Tm & cv & Tc & Tv). rewrite Hk in *.
  split; [rewrite Tm; f_equal; apply fmat_ext; intros i f Hi Hf; apply U; assumption|].
  inversion Tv; subst. rewrite Tc. do 2 f_equal. apply fmat_ext; intros i f Hi Hf; apply U; assumption.
Qed.

(** With "spherical" covariances the fitted [covars_] has four matrices for two
    states; the one at index 1 is the covariance of state 0, while scoring uses
    variance 4 for state 1. *)
Lemma C37_fitted_spherical_refuted_l : exists h nc nf pi A mu var ls x h' ev v' l,
  gauss_model h nc nf pi A mu var /\ flat_base h /\ gauss_default h 0 /\ ga_type (h_em h) = "spherical"%string
  /\ good_data (finite_row nf) ls x /\ possible nc pi A (gauss_b nf mu (floored var)) ls x
  /\ all_used nc pi A (gauss_b nf mu (floored var)) (chunks ls x)
  /\ fit_from gaussian exact h x (as_lengths ls) = Ok (h', ev)
  /\ ga_covars (h_em h') = Some (CV2 (fmat nc nf v')) /\ covars_get exact h' = Ok l
  /\ nc = 2%nat /\ length l = 4%nat
  /\ nth 1 l (Mat 0 []) = diag_mat nf (fun _ => 1) /\ (forall f, (f < nf)%nat -> v' 1%nat f = 4).
Proof.
  destruct (ex_sw_fit "spherical" "mc" 0 (or_intror eq_refl)) as (h' & ev & H & Hk).
  destruct (ex_sw_trained "spherical" (or_intror eq_refl)) as (h2 & ev2 & pis & As & mus & vs & H2 & _ & T & U).
  rewrite H in H2. injection H2 as <- <-.
  destruct (C37_fitted_spherical_l (ex_sw "spherical" "mc" 0) 2 2 sw_pi sw_A (fun _ _ => 1) (fun _ _ => 1) 0 [2; 2]%nat sx h' ev
    (ex_sw_model _ _ _ (or_intror eq_refl)) ltac:(split; reflexivity) ltac:(repeat split) ltac:(lra)
    (proj1 ex_sw_stoch) (proj2 ex_sw_stoch) sx_good sx_possible (fun _ => sx_used) eq_refl eq_refl H ltac:(rewrite Hk; lia))
    as (pis' & As' & mus' & vs' & _ & G1 & G2).
  destruct T as (_ & _ & _ & _ & _ & _ & cv & Tc & Tv). rewrite Hk in *.
  rewrite Tc in G1. injection G1 as ->.
  assert (Hv : forall i f, (i < 2)%nat -> (f < 2)%nat -> vs' 1%nat i f = match i with 0%nat => 1 | _ => 4 end).
  { intros i f Hi Hf. destruct (U i f Hi Hf) as [_ <-].
    assert (E : fmat 2 2 (vs' 1%nat) = fmat 2 2 (vs 1%nat)) by (inversion Tv; subst; symmetry; apply fmat_ext; intros [|[|a]] [|[|b]] Ha Hb; try lia; assumption).
    pose proof (f_equal (fun m => mget m i f) E) as E'. cbv beta in E'. rewrite !mget_fmat in E' by assumption.
    injection E' as E'. exact E'. }
  exists (ex_sw "spherical" "mc" 0), 2%nat, 2%nat, sw_pi, sw_A, (fun _ _ => 1), (fun _ _ => 1), [2; 2]%nat, sx, h', ev, (vs' 1%nat).
  eexists. split; [apply ex_sw_model; right; reflexivity|]. split; [split; reflexivity|]. split; [repeat split|].
  split; [reflexivity|]. split; [exact sx_good|]. split; [exact sx_possible|]. split; [exact sx_used|]. split; [exact H|].
  split; [exact Tc|]. split; [exact G2|]. split; [reflexivity|]. split; [apply tab_length|].
  split; [|intros f Hf; apply (Hv 1%nat f); lia].
  rewrite tab_nth by lia. change (1 / 2)%nat with 0%nat. rewrite (Hv 0%nat 0%nat) by lia. reflexivity.
Qed.

(** The hypotheses of C35 hold for "diag" and [covars_prior = 0]: both states
    are occupied twice, and the likelihood increases. *)
Lemma C35_applies_l : exists h h' ev,
  gauss_model h 2 2 sw_pi sw_A (fun _ _ => 1) (fun _ _ => 1) /\ flat_base h /\ gauss_default h 0
  /\ has "c" (c_params (h_cfg h)) = true /\ has "m" (c_params (h_cfg h)) = true
  /\ (forall i, (i < 2)%nat -> / 10 ^ 5 <= occupancy 2 sw_pi sw_A (gauss_b 2 (fun _ _ => 1) (floored (fun _ _ => 1))) (chunks [2; 2]%nat sx) i)
  /\ fit_from gaussian exact h sx (as_lengths [2; 2]%nat) = Ok (h', ev) /\ length (m_history (h_mon h')) = 1%nat.
Proof.
  destruct (ex_sw_fit "diag" "mc" 0 (or_introl eq_refl)) as (h' & ev & H & Hk).
  exists (ex_sw "diag" "mc" 0), h', ev. split; [apply ex_sw_model; left; reflexivity|]. split; [split; reflexivity|].
  split; [repeat split|]. split; [reflexivity|]. split; [reflexivity|].
  split; [intros i Hi; rewrite sx_occ by exact Hi; simpl; lra|]. split; assumption.
Qed.

Lemma C25_gaussian_applies_l : exists h' ev,
  fit_from gaussian exact (ex_sw "diag" "stmc" (/ 100)) sx (as_lengths [2; 2]%nat) = Ok (h', ev).
Proof. destruct (ex_sw_fit "diag" "stmc" (/ 100) (or_introl eq_refl)) as (h' & ev & H & _). exists h', ev. exact H. Qed.

Lemma C21_gaussian_applies_l : exists h' ev,
  fit_from gaussian exact (ex_sw "spherical" "c" (/ 100)) sx (as_lengths [2; 2]%nat) = Ok (h', ev)
  /\ ga_means (h_em h') = Some (fmat 2 2 (fun _ _ => 1)).
Proof.
  destruct (ex_sw_fit "spherical" "c" (/ 100) (or_intror eq_refl)) as (h' & ev & H & _). exists h', ev. split; [exact H|].
  exact (C21_gaussian_means_l exact _ _ _ _ _ H eq_refl).
Qed.

(** Means frozen: two samples equal to 1, mean 0; the scatter about the mean over
    the occupancy is 1 but the variance becomes 200000. *)
Definition ex_frozen : hmm gaussp :=
  ex_ga 1 (fun _ => 1) (fun _ _ => 1) "diag" "c" 0 (fmat 1 1 (fun _ _ => 0)) (CV2 (fmat 1 1 (fun _ _ => 1))).
Definition fx : list vec := [[Fin 1]; [Fin 1]].
Lemma frozen_base : base_ok ex_frozen 1 (fun _ => 1) (fun _ _ => 1).
Proof.
  constructor; try reflexivity; try lia.
  - intros i _. lra.
  - replace (sumn 1 (fun _ => 1)) with 1 by (simpl; lra). exact near1_1.
  - intros i j _ _. lra.
  - intros i Hi. replace (sumn 1 (fun _ => 1)) with 1 by (simpl; lra). exact near1_1.
Qed.
Lemma single_lik {X} (b : X -> nat -> R) u : seq_lik 1 (fun _ => 1) (fun _ _ => 1) b [u] = b u 0%nat.
Proof. unfold seq_lik, likelihood, joint, obsB. simpl. ring. Qed.
Lemma single_post {X} (b : X -> nat -> R) u : 0 < b u 0%nat -> seq_post 1 (fun _ => 1) (fun _ _ => 1) b [u] 0 0 = 1.
Proof.
  intros Hb. unfold seq_post, posterior. fold (seq_lik 1 (fun _ => 1) (fun _ _ => 1) b [u]). rewrite single_lik.
  unfold marginal, joint, obsB. simpl. field. lra.
Qed.
Lemma frozen_possible : possible 1 (fun _ => 1) (fun _ _ => 1) (gauss_b 1 (fun _ _ => 0) (floored (fun _ _ => 1))) [1; 1]%nat fx.
Proof. intros c [<-|[<-|[]]]; cbn [firstn skipn fx]; rewrite single_lik; apply gb_pos. Qed.
Lemma fx_good : good_data (finite_row 1) [1; 1]%nat fx.
Proof. split; [|split; [discriminate|split; [repeat constructor; lia|reflexivity]]]. repeat constructor. Qed.

Lemma C36_frozen_means_refuted_l : exists h nc nf pi A mu var ls x h' ev v' i f,
  gauss_model h nc nf pi A mu var /\ flat_base h /\ gauss_default h 0 /\ ga_type (h_em h) = "diag"%string
  /\ has "m" (c_params (h_cfg h)) = false /\ has "c" (c_params (h_cfg h)) = true
  /\ sumn nc pi = 1 /\ (forall i, (i < nc)%nat -> sumn nc (A i) = 1)
  /\ good_data (finite_row nf) ls x /\ possible nc pi A (gauss_b nf mu (floored var)) ls x
  /\ fit_from gaussian exact h x (as_lengths ls) = Ok (h', ev) /\ length (m_history (h_mon h')) = 1%nat
  /\ ga_covars (h_em h') = Some (CV2 (fmat nc nf v')) /\ (i < nc)%nat /\ (f < nf)%nat
  /\ v' i f = 2 * 10 ^ 5
  /\ occupancy nc pi A (gauss_b nf mu (floored var)) (chunks ls x) i = 2
  /\ weighted_total nc pi A (gauss_b nf mu (floored var)) (chunks ls x) (fun o => (xval o f - mu i f) ^ 2) i
      / occupancy nc pi A (gauss_b nf mu (floored var)) (chunks ls x) i = 1.
Proof.
  assert (Hcv : vcov 1 1 (fun _ _ => 1) "diag" (CV2 (fmat 1 1 (fun _ _ => 1)))) by constructor.
  assert (GM : gauss_model ex_frozen 1 1 (fun _ => 1) (fun _ _ => 1) (fun _ _ => 0) (fun _ _ => 1)).
  { apply ex_ga_model; [exact frozen_base|lia|exact Hcv]. }
  destruct (ex_ga_fit 1 1 (fun _ => 1) (fun _ _ => 1) (fun _ _ => 0) (fun _ _ => 1) "diag" "c" 0 _ frozen_base ltac:(lia) Hcv
              [1; 1]%nat fx fx_good frozen_possible ltac:(discriminate)) as (h' & ev & H & Hk). fold ex_frozen in H.
  destruct (C36_frozen_means_l ex_frozen 1 1 (fun _ => 1) (fun _ _ => 1) (fun _ _ => 0) (fun _ _ => 1) 0 [1; 1]%nat fx h' ev GM
    ltac:(split; reflexivity) ltac:(repeat split) ltac:(lra) ltac:(simpl; lra) ltac:(intros; simpl; lra)
    fx_good frozen_possible eq_refl eq_refl eq_refl H) as (pis & As & mus & vs & T & U).
  rewrite Hk in U. destruct (U 0%nat ltac:(lia) 0%nat 0%nat ltac:(lia) ltac:(lia)) as [_ V].
  destruct T as (T0 & T1 & _ & _ & _ & _ & cv & Tc & Tv). rewrite Hk in *. rewrite T0, T1 in V.
  assert (Ht : forall mu v phi, weighted_total 1 (fun _ => 1) (fun _ _ => 1) (gauss_b 1 mu (floored v)) (chunks [1; 1]%nat fx) phi 0
                 = 2 * phi [Fin 1]).
  { intros mu v phi. unfold weighted_total. cbn [chunks firstn skipn fx sumL length sumn map nth]. rewrite single_post by apply gb_pos. ring. }
  assert (Ho : forall mu v, occupancy 1 (fun _ => 1) (fun _ _ => 1) (gauss_b 1 mu (floored v)) (chunks [1; 1]%nat fx) 0 = 2).
  { intros mu v. unfold occupancy. cbn [chunks firstn skipn fx sumL length sumn]. rewrite single_post by apply gb_pos. lra. }
  rewrite Ht in V. unfold xval, vget in V. cbn [nth rval] in V.
  exists ex_frozen, 1%nat, 1%nat, (fun _ => 1), (fun _ _ => 1), (fun _ _ => 0), (fun _ _ => 1), [1; 1]%nat, fx, h', ev, (vs 1%nat), 0%nat, 0%nat.
  split; [exact GM|]. split; [split; reflexivity|]. split; [repeat split|]. split; [reflexivity|]. split; [reflexivity|].
  split; [reflexivity|]. split; [simpl; lra|]. split; [intros; simpl; lra|]. split; [exact fx_good|]. split; [exact frozen_possible|].
  split; [exact H|]. split; [exact Hk|].
  split; [inversion Tv; subst; exact Tc|]. split; [lia|]. split; [lia|]. split; [rewrite V; ring|].
  split; [apply Ho|]. rewrite Ho, Ht. unfold xval, vget. cbn [nth rval]. lra.
Qed.
