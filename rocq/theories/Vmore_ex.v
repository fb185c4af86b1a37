(** * Variational classes: the theorems about expectations, bounds and scale
    matrices at concrete models. *)
From Verif Require Export Vg_ex Vg_use.

(** C47: counts 1 and 1 give the weights exp(-1) and exp(-1), below the means
    1/2; and an E-step that succeeds. *)
Lemma C47_applies_l :
  sub1 2 (fun _ => 1) 0 = exp (- 1) /\ sub1 2 (fun _ => 1) 1 = exp (- 1) /\ mean1 2 (fun _ => 1) 0 = / 2
  /\ exists v nc nf p q v1 st lp, vcat_model v nc nf p q /\ h_nfeat (v_h v) = Some nf
     /\ vestep vcategorical exact [0; 1; 1; 0; 1]%Z (as_lengths [3; 2]%nat) v = Ok (v1, st, Fin lp)
     /\ st_nobs st = 2%nat.
Proof.
  assert (E : sumn 2 (fun _ => 1) = 1 + 1) by (cbn [sumn]; lra).
  assert (H : psi 1 - psi (1 + 1) = - 1).
  { destruct C63_special_functions_l as (_ & _ & H & _). rewrite (H 1) by lra. lra. }
  split; [unfold sub1; rewrite E, H; reflexivity|]. split; [unfold sub1; rewrite E, H; reflexivity|].
  split; [unfold mean1; rewrite E; lra|].
  destruct (vcat_check_at 2 2 _ _ _ (ex_v_model "ste" 3)) as (v1 & _ & HA & E1).
  pose proof (vcat_step_log 2 2 ltac:(lia) ltac:(lia) [3; 2]%nat _ ex_v_data v1 ex_pr ex_vpo HA) as Hs.
  assert (HM : vcat_model v1 2 2 ex_pr ex_vpo).
  { pose proof (ex_v_model "ste" 3) as [M1 M2 M3 M4 M5 M6 M7 M8]. destruct HA. constructor; try assumption. right; assumption. }
  assert (Hi : c_impl (v_cfg v1) = "log"%string) by (rewrite E1; reflexivity). specialize (Hs Hi).
  unfold vb_step in Hs. destruct (vestep vcategorical exact _ _ v1) as [[[v2 st] lp]|] eqn:Ee; [|discriminate].
  assert (Hn : h_nfeat (v_h v1) = Some 2%nat) by (rewrite E1; reflexivity).
  destruct (C47_estep_l v1 2 2 ex_pr ex_vpo [3; 2]%nat _ v2 st lp HM Hn ex_v_data Ee) as (-> & Hl & _).
  exists v1, 2%nat, 2%nat, ex_pr, ex_vpo, v2, st. eexists. split; [exact HM|]. split; [exact Hn|]. split; [exact Ee|exact Hl].
Qed.

(** C50: the bounds recorded by a run are real numbers and never fall. *)
Lemma C50_applies_l : exists v' ev b vs,
  vfit_from vcategorical exact (ex_v "ste" 3) [0; 1; 1; 0; 1]%Z (map Z.of_nat [3; 2]%nat) = Ok (v', ev)
  /\ v_history v' = Fin b :: map Fin vs /\ b = elbo 2 2 ex_pr (chunks [3; 2]%nat [0; 1; 1; 0; 1]%Z) ex_vpo
  /\ Forall (fun c => b <= c) vs.
Proof.
  destruct C46_applies_l as (v' & ev & Hf & Hh & _).
  destruct (C50_lower_bound_l _ 2 2 ex_pr ex_vpo [3; 2]%nat _ v' ev (ex_v_model _ _) ex_v_data Hf) as ((vs & E & Hm) & _).
  destruct (C50_bound_value_l _ 2 2 ex_pr ex_vpo [3; 2]%nat _ v' ev (ex_v_model _ _) ex_v_data Hf) as (qs & E0 & _ & Hq).
  destruct vs as [|b vs]; [contradiction|]. exists v', ev, b, vs. split; [exact Hf|]. split; [exact E|]. split.
  - specialize (Hq 0%nat). rewrite E, E0 in Hq. specialize (Hq ltac:(simpl; lia)). injection Hq as ->. reflexivity.
  - apply Forall_forall. intros c Hc. destruct (In_nth _ _ 0 Hc) as (j & Hj & <-).
    exact (Hm 0%nat (S j) ltac:(lia) ltac:(simpl; lia)).
Qed.

(** C48, C67, C69: one run of each covariance type. The covariances read after
    it are positive definite and the bounds never fall. *)
Lemma C67_applies_l : forall ty, (ty = "full" \/ ty = "tied" \/ ty = "diag" \/ ty = "spherical")%string ->
  exists v' ev b vs, vfit_from (vgaussian la_ref) exact (exg_v ty "stmc" 3) exg_x (map Z.of_nat [2; 1]%nat) = Ok (v', ev)
    /\ v_history v' = Fin b :: map Fin vs /\ Forall (fun c => b <= c) vs.
Proof.
  intros ty Hty. destruct (C66_applies_l ty Hty) as (v' & ev & Hf & Hh & _).
  destruct (C67_lower_bound_l la_ref ty 2 2 _ exg_pr exg_po [2; 1]%nat exg_x v' ev la_ref_right (exg_model ty "stmc" 3 Hty) exg_data)
    as ((vs & E & Hm) & _); [left; reflexivity|exact Hf|].
  destruct vs as [|b vs]; [contradiction|]. exists v', ev, b, vs. split; [exact Hf|]. split; [exact E|].
  apply Forall_forall. intros c Hc. destruct (In_nth _ _ 0 Hc) as (j & Hj & <-).
  exact (Hm 0%nat (S j) ltac:(lia) ltac:(simpl; lia)).
Qed.
Lemma C48_applies_l : forall ty, (ty = "full" \/ ty = "tied" \/ ty = "diag" \/ ty = "spherical")%string ->
  exists v' ev Sg, vfit_from (vgaussian la_ref) exact (exg_v ty "stmc" 3) exg_x (map Z.of_nat [2; 1]%nat) = Ok (v', ev)
    /\ vg_cov (h_em (v_h v')) = Some (mats_attr ty 2 2 Sg) /\ pos_def 2 (Sg 0%nat) /\ pos_def 2 (Sg 1%nat).
Proof.
  intros ty Hty. destruct (C66_applies_l ty Hty) as (v' & ev & Hf & Hh & _).
  destruct (C48_positive_partial_l la_ref ty 2 2 _ exg_pr exg_po [2; 1]%nat exg_x v' ev la_ref_right (exg_model ty "stmc" 3 Hty) exg_data)
    as (Sg & D & _ & _ & Hp & Hc); [left; reflexivity|exact Hf|].
  exists v', ev, (fun i k l => Sg i k l / D i). split; [exact Hf|]. split; [exact (Hc eq_refl Hh)|].
  split; apply Hp; lia.
Qed.
Lemma C69_applies_l : forall ty, (ty = "full" \/ ty = "tied" \/ ty = "diag" \/ ty = "spherical")%string ->
  exists v' ev s t mu Sg, vfit_from (vgaussian la_ref) exact (exg_v ty "stmc" 3) exg_x (map Z.of_nat [2; 1]%nat) = Ok (v', ev)
    /\ stochastic1 2 s
    /\ (if vec_type ty then gauss_model (vg_point v') 2 2 s t mu (fun i f => Sg i f f) else full_model (vg_point v') 2 2 s t mu Sg)
    /\ vscore_ (vgaussian la_ref) exact v' exg_x (as_lengths [2; 1]%nat) false
       = score_ gaussian exact (vg_point v') exg_x (as_lengths [2; 1]%nat) false.
Proof.
  intros ty Hty. destruct (C66_applies_l ty Hty) as (v' & ev & Hf & _).
  destruct (C69_after_fit_l la_ref ty 2 2 _ exg_pr exg_po [2; 1]%nat exg_x v' ev la_ref_right (exg_model ty "stmc" 3 Hty) exg_data)
    as (s & t & mu & Sg & Hs & _ & _ & HM & Hv & _); try reflexivity; try exact Hf; [cbn; lia|].
  exists v', ev, s, t, mu, Sg. split; [exact Hf|]. split; [exact Hs|]. split; [exact HM|apply Hv].
Qed.
