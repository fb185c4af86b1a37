(** * Property C94: concrete models. *)
From Verif Require Export Alike Relabel_ex Fresh_em Poisson_thms Total_thms.

(** Two states with the same parameters. *)
Definition even1 : nat -> R := fun _ => / 2.
Definition even2 : nat -> nat -> R := fun _ _ => / 2.
Lemma even_base {P} (h : hmm P) : c_nc (h_cfg h) = 2%nat -> h_start h = Some (fvec 2 even1) -> h_trans h = Some (fmat 2 2 even2) -> base_ok h 2 even1 even2.
Proof.
  intros H1 H2 H3. constructor; try assumption; try lia.
  - intros i Hi. unfold even1. lra.
  - replace (sumn 2 even1) with 1 by (unfold even1; cbn; lra). exact near1_1.
  - intros i j Hi Hj. unfold even2. lra.
  - intros i Hi. replace (sumn 2 (even2 i)) with 1 by (unfold even2; cbn; lra). exact near1_1.
Qed.
Definition al_e (i k : nat) : R := match k with 0%nat => / 4 | 1%nat => / 4 | _ => / 2 end.
Definition al_h : hmm catp :=
  Hmm (ex_cfg "log" "map") None (Some (fvec 2 even1)) (Some (fmat 2 2 even2)) (Monitor (Fin (/ 100)) 10 false [] 0)
      (Catp (Scal (Fin 1)) (Some (fmat 2 3 al_e))).
Lemma even_pos1 : pos1 2 even1. Proof. intros i Hi. unfold even1. lra. Qed.
Lemma even_pos2 : pos2 2 2 even2. Proof. intros i j Hi Hj. unfold even2. lra. Qed.
Lemma C94_categorical_applies_l : exists h' ev, fit_from categorical exact al_h ex_x (as_lengths [3]%nat) = Ok (h', ev)
  /\ alike 2 swap2 h' /\ alike_rows 2 3 swap2 (cat_prob (h_em h')).
Proof.
  assert (CM : cat_model al_h 2 3 even1 even2 al_e).
  { destruct (even_base al_h eq_refl eq_refl eq_refl). constructor; try assumption; try reflexivity.
    - left. reflexivity.
    - intros i k Hi Hk. destruct k as [|[|k]]; cbn; lra.
    - intros i Hi. replace (sumn 3 (al_e i)) with 1 by (cbn; lra). exact near1_1. }
  pose proof (flat_cat_priors al_h 2 3 ltac:(repeat split)) as CP.
  assert (Hd : good_data (sym_ok 3) [3]%nat ex_x).
  { split; [exact ex_x_ok|]. split; [discriminate|]. split; [repeat constructor; lia|reflexivity]. }
  assert (Hb0 : forall o i, sym_ok 3 o -> (i < 2)%nat -> 0 < cat_b al_e o i).
  { intros o i _ _. unfold cat_b, al_e. destruct (Z.to_nat o) as [|[|k]]; lra. }
  destruct (data_pos (sym_ok 3) 2 even1 even2 (cat_b al_e) ltac:(lia) even_pos1 even_pos2 [3]%nat ex_x Hd Hb0) as [Hp Hu].
  destruct (cat_fit_log_ok al_h 2 3 even1 even2 al_e _ _ _ [3]%nat ex_x CM CP Hd Hp eq_refl) as ([h' ev] & H).
  exists h', ev. split; [exact H|].
  exact (C94_categorical_l al_h 2 3 even1 even2 al_e _ _ _ swap2 [3]%nat ex_x h' ev swap2_permutes CM CP
    ltac:(reflexivity) ltac:(reflexivity) ltac:(reflexivity) ltac:(reflexivity) ltac:(reflexivity) ltac:(reflexivity) Hd Hp H).
Qed.

(** PoissonHMM. *)
Definition al_po : hmm poisp :=
  Hmm (Cfg 2 "stl" "stl" "map" "log" 1 (Fin (/ 100)) false (Scal (Fin 1)) (Scal (Fin 1))) None
      (Some (fvec 2 even1)) (Some (fmat 2 2 even2)) (Monitor (Fin (/ 100)) 1 false [] 0)
      (Poisp (Scal (Fin 0)) (Scal (Fin 0)) (Some (fmat 2 1 (fun _ _ => 1)))).
Lemma C94_poisson_applies_l : exists h' ev, fit_from poisson exact al_po ex_px (as_lengths [2]%nat) = Ok (h', ev)
  /\ alike 2 swap2 h' /\ alike_rows 2 1 swap2 (po_lam (h_em h')).
Proof.
  assert (PM : pois_model al_po 2 1 even1 even2 (fun _ _ => 1)).
  { constructor; [apply even_base; reflexivity|left; reflexivity|reflexivity|intros i f _ _; lra]. }
  assert (GP : gamma_prior 2 1 (h_em al_po) (fun _ _ => 0) (fun _ _ => 0)) by (intros i f _ _; split; reflexivity).
  assert (PR : priors (h_cfg al_po) 2 (fun _ => 1) (fun _ _ => 1)) by (apply (flat_base_priors al_po 2); split; reflexivity).
  assert (Hb0 : forall o i, counts_ok 1 o -> (i < 2)%nat -> 0 < pois_b 1 (fun _ _ => 1) o i).
  { intros o i _ Hi. unfold pois_b. apply prodn_pos. intros f Hf. apply pois_mass_pos. lra. }
  destruct (data_pos (counts_ok 1) 2 even1 even2 (pois_b 1 (fun _ _ => 1)) ltac:(lia) even_pos1 even_pos2 [2]%nat ex_px ex_px_good Hb0) as [Hp Hu].
  pose proof (pois_model_check al_po 2 1 even1 even2 _ PM) as Hc.
  destruct (C57_poisson_l exact al_po _ 1 ex_px (as_lengths [2]%nat) Hc eq_refl eq_refl ltac:(discriminate)) as ([h' ev] & H).
  { intros r [<-|[<-|[]]]; reflexivity. }
  { right. exists [2]%nat. split; [reflexivity|]. apply ex_px_good. }
  exists h', ev. split; [exact H|].
  exact (C94_poisson_l al_po 2 1 even1 even2 (fun _ _ => 1) (fun _ _ => 0) (fun _ _ => 0) (fun _ => 1) (fun _ _ => 1) swap2 [2]%nat ex_px h' ev
    swap2_permutes PM GP PR ltac:(reflexivity) ltac:(reflexivity) ltac:(reflexivity) ltac:(reflexivity) ltac:(reflexivity) ltac:(reflexivity) ltac:(reflexivity)
    ltac:(intros i f _ _; lra) ltac:(intros i f _ _; lra) ltac:(intros; lra) ltac:(intros; lra) ex_px_good Hp (fun _ => Hu) H).
Qed.

(** GaussianHMM with "diag" covariances. *)
Lemma C94_gaussian_applies_l : let h := ex_ga 2 even1 even2 "diag" "stmc" 0 (fmat 2 2 (fun _ _ => 1)) (CV2 (fmat 2 2 (fun _ _ => 1))) in
  exists h' ev, fit_from gaussian exact h sx (as_lengths [2; 2]%nat) = Ok (h', ev)
  /\ alike 2 swap2 h' /\ alike_rows 2 2 swap2 (ga_means (h_em h')).
Proof.
  intros h. assert (Hbo : base_ok h 2 even1 even2) by (apply even_base; reflexivity).
  assert (Hcv : vcov 2 2 (fun _ _ => 1) "diag" (CV2 (fmat 2 2 (fun _ _ => 1)))) by constructor.
  pose proof (ex_ga_model 2 2 even1 even2 (fun _ _ => 1) (fun _ _ => 1) "diag" "stmc" 0 _ Hbo ltac:(lia) Hcv) as GM.
  assert (Hb0 : forall o i, finite_row 2 o -> (i < 2)%nat -> 0 < gauss_b 2 (fun _ _ => 1) (floored (fun _ _ => 1)) o i).
  { intros o i _ Hi. apply gb_pos. }
  destruct (data_pos (finite_row 2) 2 even1 even2 _ ltac:(lia) even_pos1 even_pos2 [2; 2]%nat sx sx_good Hb0) as [Hp Hu].
  destruct (ex_ga_fit 2 2 even1 even2 (fun _ _ => 1) (fun _ _ => 1) "diag" "stmc" 0 _ Hbo ltac:(lia) Hcv [2; 2]%nat sx sx_good Hp (fun _ => Hu))
    as (h' & ev & H & _).
  exists h', ev. split; [exact H|].
  pose proof (default_hyper h 2 2 0 ltac:(repeat split)) as HH.
  assert (PR : priors (h_cfg h) 2 (fun _ => 1) (fun _ _ => 1)) by (apply (flat_base_priors h 2); split; reflexivity).
  destruct (C94_gaussian_l h 2 2 even1 even2 (fun _ _ => 1) (fun _ _ => 1) (fun _ _ => 0) (fun _ _ => 0) (fun _ _ => 0) 0
    (fun _ => 1) (fun _ _ => 1) swap2 [2; 2]%nat sx h' ev swap2_permutes GM HH PR
    ltac:(reflexivity) ltac:(reflexivity) ltac:(reflexivity) ltac:(reflexivity) ltac:(reflexivity) ltac:(reflexivity) ltac:(reflexivity)
    ltac:(reflexivity) ltac:(reflexivity)
    ltac:(intros i f _ _; lra) ltac:(intros; lra) ltac:(intros; lra) sx_good Hp (fun _ => or_introl (Hu)) H) as (Q1 & Q2 & _).
  split; assumption.
Qed.

(** MultinomialHMM. *)
Definition al_mu : hmm mulp :=
  Hmm (Cfg 2 "ste" "ste" "map" "log" 1 (Fin (/ 100)) false (Scal (Fin 1)) (Scal (Fin 1))) (Some 3%nat)
      (Some (fvec 2 even1)) (Some (fmat 2 2 even2)) (Monitor (Fin (/ 100)) 1 false [] 0)
      (Mulp (Some (TNum 4)) (Some (fmat 2 3 (fun _ => ex_me 0)))).
Lemma C94_multinomial_applies_l : exists h' ev, fit_from multinomial exact al_mu ex_mx (as_lengths [2]%nat) = Ok (h', ev)
  /\ alike 2 swap2 h' /\ alike_rows 2 3 swap2 (mu_prob (h_em h')).
Proof.
  assert (MM : mult_model al_mu 2 3 even1 even2 (fun _ => ex_me 0)).
  { constructor; [apply even_base; reflexivity|right; reflexivity|lia|reflexivity| |discriminate].
    intros i Hi. split; [intros f _; left; apply ex_me_pos|simpl; lra]. }
  assert (PR : priors (h_cfg al_mu) 2 (fun _ => 1) (fun _ _ => 1)) by (apply (flat_base_priors al_mu 2); split; reflexivity).
  assert (Hb0 : forall o i, trials_ok 3 o -> (i < 2)%nat -> 0 < mult_b 3 (fun _ => ex_me 0) o i).
  { intros o i Ho Hi. apply mult_mass_pos; [lia|intros; apply ex_me_pos|apply Ho]. }
  destruct (data_pos (trials_ok 3) 2 even1 even2 _ ltac:(lia) even_pos1 even_pos2 [2]%nat ex_mx ex_mx_good Hb0) as [Hp Hu].
  destruct (mult_fit_log_ok al_mu 2 3 even1 even2 _ MM [2]%nat ex_mx ex_mx_good Hp (fun _ => Hu) (fun _ => 1) (fun _ _ => 1)
    ltac:(intros; lra) ltac:(intros; lra) PR eq_refl) as (h' & ev & H).
  exists h', ev. split; [exact H|].
  exact (C94_multinomial_l al_mu 2 3 even1 even2 _ (fun _ => 1) (fun _ _ => 1) swap2 [2]%nat ex_mx h' ev swap2_permutes MM PR
    ltac:(reflexivity) ltac:(reflexivity) ltac:(reflexivity) ltac:(reflexivity) ltac:(reflexivity) ltac:(intros; lra) ltac:(intros; lra)
    ex_mx_good Hp (fun _ => Hu) H).
Qed.

(** GaussianHMM with "full" and "tied" covariances. *)
Lemma C94_gaussian_full_applies_l : forall ty, ty = "tied"%string \/ ty = "full"%string ->
  let h := ex_fu 2 even1 even2 ty "mc" (Arr2 (fmat 2 2 id2)) (fmat 2 2 (fun _ _ => 1)) (id_cov ty) in
  exists h' ev, fit_from gaussian exact h sx (as_lengths [2; 2]%nat) = Ok (h', ev)
  /\ alike 2 swap2 h' /\ alike_rows 2 2 swap2 (ga_means (h_em h')).
Proof.
  intros ty Hty h. assert (Hbo : base_ok h 2 even1 even2) by (apply even_base; reflexivity).
  pose proof (ex_fu_model 2 2 even1 even2 (fun _ _ => 1) (fun _ => id2) ty "mc" (Arr2 (fmat 2 2 id2)) (id_cov ty) Hbo ltac:(lia)
    (id_mcov ty Hty) ltac:(intros; exact id2_psd)) as FM. fold h in FM.
  destruct (C02_gaussian_full_ready_l _ _ _ _ _ _ _ FM) as ((b0 & D) & _).
  pose proof (nd_pos _ _ _ _ _ D) as B0.
  destruct (data_pos (finite_row 2) 2 even1 even2 b0 ltac:(lia) even_pos1 even_pos2 [2; 2]%nat sx sx_good (fun o i _ => B0 o i)) as [Hp Hu].
  pose proof (ex_fu_hyper 2 2 even1 even2 (fun _ _ => 1) ty "mc" (Arr2 (fmat 2 2 id2)) id2 (id_cov ty) ltac:(lia) (cast_fmat 2 2 id2) id2_psd) as Hh.
  destruct (ex_fu_fit 2 2 even1 even2 (fun _ _ => 1) (fun _ => id2) ty "mc" (Arr2 (fmat 2 2 id2)) id2 (id_cov ty) Hbo ltac:(lia)
    (id_mcov ty Hty) ltac:(intros; exact id2_psd) (cast_fmat 2 2 id2) id2_psd [2; 2]%nat sx b0 D sx_good Hp eq_refl Hu) as (h' & ev & H & _).
  exists h', ev. split; [exact H|].
  assert (PR : priors (h_cfg h) 2 (fun _ => 1) (fun _ _ => 1)) by (apply (flat_base_priors h 2); split; reflexivity).
  destruct (C94_gaussian_full_l h 2 2 even1 even2 (fun _ _ => 1) (fun _ => id2) (fun _ _ => 0) id2 0 0
    (fun _ => 1) (fun _ _ => 1) swap2 [2; 2]%nat sx b0 h' ev swap2_permutes FM Hh PR
    ltac:(reflexivity) ltac:(reflexivity) ltac:(reflexivity) ltac:(reflexivity) ltac:(reflexivity) ltac:(reflexivity) ltac:(reflexivity)
    ltac:(intros; lra) ltac:(intros; lra) sx_good D Hp
    ltac:(split; intros _; [left|right; split; [reflexivity|]]; exact Hu) H) as (Q1 & Q2 & _).
  split; assumption.
Qed.
