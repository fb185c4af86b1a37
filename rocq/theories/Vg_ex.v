(** * VariationalGaussianHMM: concrete models and counterexamples. *)
From Verif Require Export Vg_thms Kl_thms Vcat_ex.

Definition scaled_id (a : R) (k l : nat) : R := if Nat.eqb k l then a else 0.
Definition exg_pr : gdirs := Gdirs (fun _ => 1) (fun _ _ => 1) (fun _ => 1) (fun _ _ => 0) (fun _ => 2) (fun _ => scaled_id 1).
Definition exg_po : gdirs :=
  Gdirs (fun i => INR i + 1) (fun i j => INR i + INR j + 1) (fun i => INR i + 1) (fun i f => INR i + INR f) (fun _ => 3) (fun _ => scaled_id 2).
Definition exg_v (ty params : string) (n : nat) : vhmm vgp :=
  VHmm (Hmm (Cfg 2 params params "viterbi" "log" n (Fin (/ 100)) false (Scal (Fin 1)) (Scal (Fin 1))) (Some 2%nat) None None
          (Monitor (Fin (/ 100)) n false [] 0)
          (Vgp ty None None None None
             (Some (Arr2 (fmat 2 2 (g_m exg_pr)))) (Some (fmat 2 2 (g_m exg_po)))
             (Some (fvec 2 (g_b exg_pr))) (Some (fvec 2 (g_b exg_po)))
             (Some (dof_attr ty 2 (g_d exg_pr))) (Some (dof_attr ty 2 (g_d exg_po)))
             (Some (mats_attr ty 2 2 (g_S exg_pr))) (Some (mats_attr ty 2 2 (g_S exg_po))) None))
    None None (Some (fvec 2 (g_s exg_pr))) (Some (fvec 2 (g_s exg_po)))
    (Some (fmat 2 2 (g_t exg_pr))) (Some (fmat 2 2 (g_t exg_po))).
Lemma scaled_pd n a : 0 < a -> pos_def n (scaled_id a).
Proof. intros H. apply (diagm_pd n (fun _ => a)). intros _ _. exact H. Qed.
Lemma keep_scaled ty nf a k l : (0 < nf)%nat -> keep ty nf (scaled_id a) k l = scaled_id a k l.
Proof.
  intros Hn. unfold keep, scaled_id. destruct (String.eqb ty "diag"); [destruct (Nat.eqb_spec k l); [rewrite Nat.eqb_refl|]; reflexivity|].
  destruct (String.eqb ty "spherical"); [|reflexivity]. destruct (Nat.eqb k l); [|reflexivity].
  rewrite (sumn_ext nf _ (fun _ => a)) by (intros f _; rewrite Nat.eqb_refl; reflexivity). rewrite sumn_const.
  field. apply not_0_INR. lia.
Qed.
Lemma exg_pr_valid ty : gvalid ty 2 2 exg_pr.
Proof.
  constructor; cbn [exg_pr g_s g_t g_b g_d g_S].
  - intros i _. lra.
  - intros i j _ _. lra.
  - intros i _. lra.
  - intros i _. simpl. lra.
  - intros i _. apply scaled_pd. lra.
  - intros i k l _ _ _. apply keep_scaled. lia.
  - intros _ i _. split; reflexivity.
Qed.
Lemma exg_po_valid ty : gvalid ty 2 2 exg_po.
Proof.
  constructor; cbn [exg_po g_s g_t g_b g_d g_S].
  - intros i _. pose proof (pos_INR i). lra.
  - intros i j _ _. pose proof (pos_INR i). pose proof (pos_INR j). lra.
  - intros i _. pose proof (pos_INR i). lra.
  - intros i _. simpl. lra.
  - intros i _. apply scaled_pd. lra.
  - intros i k l _ _ _. apply keep_scaled. lia.
  - intros _ i _. split; reflexivity.
Qed.
Lemma exg_model ty params n : (ty = "full" \/ ty = "tied" \/ ty = "diag" \/ ty = "spherical")%string ->
  vg_model ty 2 2 (exg_v ty params n) exg_pr exg_po.
Proof.
  intros Hty. constructor; try lia; [|apply exg_pr_valid|apply exg_po_valid].
  constructor; try reflexivity; try exact Hty. constructor; try reflexivity; try apply (exg_pr_valid ty); apply (exg_po_valid ty).
Qed.
Definition exg_x : list vec := [[Fin 0; Fin 1]; [Fin 2; Fin (-1)]; [Fin 5; Fin 3]].
Lemma exg_data : good_data (finite_row 2) [2; 1]%nat exg_x.
Proof.
  split; [|split; [discriminate|split; [repeat constructor|reflexivity]]].
  repeat constructor; intros [|[|f]] Hf; try lia; eexists; reflexivity.
Qed.

Lemma C66_applies_l : forall ty, (ty = "full" \/ ty = "tied" \/ ty = "diag" \/ ty = "spherical")%string ->
  exists v' ev, vfit_from (vgaussian la_ref) exact (exg_v ty "stmc" 3) exg_x (map Z.of_nat [2; 1]%nat) = Ok (v', ev)
    /\ v_history v' <> [] /\ ~ In WNotConverging ev.
Proof.
  intros ty Hty.
  destruct (C68_fit_returns_l la_ref ty 2 2 (exg_v ty "stmc" 3) exg_pr exg_po [2; 1]%nat exg_x la_ref_right
              (exg_model ty "stmc" 3 Hty) exg_data) as ([v' ev] & H); [left; reflexivity|reflexivity|left; reflexivity|].
  exists v', ev. split; [exact H|]. split.
  - destruct (vfit_from_trace _ _ _ _ _ _ _ H) as (v1 & v2 & vs & Hc & _ & _ & _ & -> & _ & Hs).
    rewrite (vg_check_ok la_ref ty 2 2 _ _ _ (vgm_holds _ _ _ _ _ _ (exg_model ty "stmc" 3 Hty))) in Hc. injection Hc as <-.
    destruct Hs as [Hs|[_ Hs]]; [|exact Hs]. intros ->. discriminate Hs.
  - apply (C67_lower_bound_l la_ref ty 2 2 _ exg_pr exg_po [2; 1]%nat exg_x v' ev la_ref_right (exg_model ty "stmc" 3 Hty) exg_data);
      [left; reflexivity|exact H].
Qed.

(** ** C48 is false for [params] with "c" and without "m". *)
Definition neg_pr : gdirs := Gdirs (fun _ => 1) (fun _ _ => 1) (fun _ => 1) (fun _ _ => 0) (fun _ => 1) (fun _ => scaled_id 1).
Definition neg_po : gdirs := Gdirs (fun _ => 1) (fun _ _ => 1) (fun _ => 1) (fun _ _ => 10) (fun _ => 1) (fun _ => scaled_id 1).
Definition neg_v (ty : string) : vhmm vgp :=
  VHmm (Hmm (Cfg 1 "c" "" "viterbi" "log" 1 (Fin (/ 100)) false (Scal (Fin 1)) (Scal (Fin 1))) (Some 1%nat)
          (Some (fvec 1 (fun _ => 1))) (Some (fmat 1 1 (fun _ _ => 1)))
          (Monitor (Fin (/ 100)) 1 false [] 0)
          (Vgp ty None None None None
             (Some (Arr2 (fmat 1 1 (g_m neg_pr)))) (Some (fmat 1 1 (g_m neg_po)))
             (Some (fvec 1 (g_b neg_pr))) (Some (fvec 1 (g_b neg_po)))
             (Some (dof_attr ty 1 (g_d neg_pr))) (Some (dof_attr ty 1 (g_d neg_po)))
             (Some (mats_attr ty 1 1 (g_S neg_pr))) (Some (mats_attr ty 1 1 (g_S neg_po))) None))
    None None (Some (fvec 1 (g_s neg_pr))) (Some (fvec 1 (g_s neg_po)))
    (Some (fmat 1 1 (g_t neg_pr))) (Some (fmat 1 1 (g_t neg_po))).
Lemma neg_valid ty q : q = neg_pr \/ q = neg_po -> gvalid ty 1 1 q.
Proof.
  intros Hq. destruct Hq as [-> | ->]; constructor; cbn [neg_pr neg_po g_s g_t g_b g_d g_S]; try (intro; intros; lra);
    try (intros; simpl; lra); try (intros; apply scaled_pd; lra); try (intros; apply keep_scaled; lia); try (intros _ i _; split; reflexivity).
Qed.
Lemma neg_model ty : (ty = "full" \/ ty = "tied" \/ ty = "diag" \/ ty = "spherical")%string ->
  vg_model ty 1 1 (neg_v ty) neg_pr neg_po.
Proof.
  intros Hty. constructor; try lia; [|apply neg_valid; auto|apply neg_valid; auto].
  constructor; try reflexivity; try exact Hty.
  constructor; try reflexivity; try apply (neg_valid ty neg_pr); try apply (neg_valid ty neg_po); auto.
Qed.
Lemma neg_data : good_data (finite_row 1) [1]%nat [[Fin 0]].
Proof.
  split; [|split; [discriminate|split; [repeat constructor|reflexivity]]].
  repeat constructor; intros [|f] Hf; try lia; eexists; reflexivity.
Qed.
Lemma neg_post : seq_post 1 (gw_s 1 neg_po) (gw_t 1 neg_po) (vg_w 1 neg_po) [[Fin 0]] 0 0 = 1.
Proof.
  assert (H : stochastic1 1 (seq_post 1 (gw_s 1 neg_po) (gw_t 1 neg_po) (vg_w 1 neg_po) [[Fin 0]] 0)).
  { apply (vpost_stoch (finite_row 1) 1 [[[Fin 0]]]); [lia| |apply gw_s_pos|apply gw_t_pos|apply (vg_w_pos 1 1 neg_po)|left; reflexivity|simpl; lia].
    apply (vg_cs 1 [1]%nat _ neg_data). }
  destruct H as [_ H]. cbn [sumn] in H. lra.
Qed.

Lemma C48_params_c_refuted_l : exists la ty nc nf v p q ls x v' ev s c,
  la_right la /\ vg_model ty nc nf v p q /\ good_data (finite_row nf) ls x
  /\ ty = "diag"%string /\ c_params (v_cfg v) = "c"%string
  /\ vfit_from (vgaussian la) exact v x (map Z.of_nat ls) = Ok (v', ev)
  /\ vg_s (h_em (v_h v')) = Some (CV2 (Mat 1 [[Fin s]])) /\ s < 0
  /\ vg_cov (h_em (v_h v')) = Some (CV2 (Mat 1 [[Fin c]])) /\ c < 0.
Proof.
  assert (Hty : ("diag" = "full" \/ "diag" = "tied" \/ "diag" = "diag" \/ "diag" = "spherical")%string) by (right; right; left; reflexivity).
  pose proof (neg_model "diag" Hty) as HM. pose proof HM as [M1 M2 M3 M4 M5].
  pose proof (vg_step_log la_ref "diag" 1 1 la_ref_right M1 M2 Hty [1]%nat [[Fin 0]] neg_data "c" neg_pr M4 (neg_v "diag") neg_po M3 M5
                eq_refl eq_refl) as Hs.
  assert (Hf : exists v' ev, vfit_from (vgaussian la_ref) exact (neg_v "diag") [[Fin 0]] (map Z.of_nat [1]%nat) = Ok (v', ev)
               /\ h_em (v_h v') = h_em (v_h (vg_step_to "diag" 1 1 [1]%nat [[Fin 0]] "c" neg_pr (neg_v "diag") neg_po))).
  { unfold vfit_from. rewrite (vg_check_ok la_ref "diag" 1 1 _ _ _ M3). cbn [bind].
    change (c_n_iter (v_cfg (neg_v "diag"))) with 1%nat. cbn [vfit_loop].
    unfold as_lengths in Hs. rewrite Hs. cbn [bind].
    destruct (monitor_report exact _ _) as [m1 ev1]. destruct (converged exact m1).
    - eexists _, _. split; reflexivity.
    - eexists _, _. split; reflexivity. }
  destruct Hf as (v' & ev & Hf & E).
  exists la_ref, "diag"%string, 1%nat, 1%nat, (neg_v "diag"), neg_pr, neg_po, [1]%nat, [[Fin 0]], v', ev, (-99), (-99 / 2).
  split; [exact la_ref_right|]. split; [exact HM|]. split; [exact neg_data|]. split; [reflexivity|]. split; [reflexivity|].
  split; [exact Hf|]. rewrite E.
  assert (Hn : g_n 1 1 (chunks [1]%nat [[Fin 0]]) neg_po 0 = 1).
  { unfold g_n, occupancy. cbn [chunks firstn skipn sumL length sumn]. rewrite neg_post. lra. }
  assert (Hxx : g_xx 1 1 (chunks [1]%nat [[Fin 0]]) neg_po 0 0 0 = 0).
  { unfold g_xx, weighted_total. cbn [chunks firstn skipn sumL length sumn map nth]. rewrite neg_post. unfold xval, vget. cbn. lra. }
  assert (HS : g_S (vg_next "diag" 1 1 (chunks [1]%nat [[Fin 0]]) "c" neg_pr neg_po) 0 0 0 = -99).
  { unfold vg_next. cbn [g_S]. change (has "c" "c") with true. cbn iota. change (String.eqb "diag" "tied") with false. cbv beta iota.
    unfold keep, new_K, new_b, new_m. change (has "m" "c") with false. cbn [String.eqb Ascii.eqb Bool.eqb Nat.eqb].
    rewrite Hxx. cbn [neg_pr neg_po g_b g_m g_S scaled_id Nat.eqb]. lra. }
  assert (HD : g_d (vg_next "diag" 1 1 (chunks [1]%nat [[Fin 0]]) "c" neg_pr neg_po) 0 = 2).
  { unfold vg_next. cbn [g_d]. change (has "c" "c") with true. cbn iota. change (String.eqb "diag" "tied") with false. cbv beta iota.
    rewrite Hn. cbn [neg_pr g_d]. lra. }
  split; [|split; [lra|split; [|lra]]].
  - transitivity (Some (CV2 (Mat 1 [[Fin (g_S (vg_next "diag" 1 1 (chunks [1]%nat [[Fin 0]]) "c" neg_pr neg_po) 0%nat 0%nat 0%nat)]])));
      [reflexivity|rewrite HS; reflexivity].
  - transitivity (Some (CV2 (Mat 1 [[Fin (g_S (vg_next "diag" 1 1 (chunks [1]%nat [[Fin 0]]) "c" neg_pr neg_po) 0%nat 0%nat 0%nat
        / g_d (vg_next "diag" 1 1 (chunks [1]%nat [[Fin 0]]) "c" neg_pr neg_po) 0%nat)]])));
      [reflexivity|rewrite HS, HD; reflexivity].
Qed.
