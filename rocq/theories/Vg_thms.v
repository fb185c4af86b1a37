(** * Property lemmas C47, C48, C66-C68: VariationalGaussianHMM. *)
From Verif Require Export Vg_proofs.

Lemma vg_check_ok la ty nc nf v p q : vg_holds ty nc nf v p q -> vcheck (vgaussian la) exact v = Ok v.
Proof.
  intros [B1 B2 B3 B4 B5 B6 B7 B8 B9 B10 B11 B12]. unfold vcheck. cbn [vc_super_check vgaussian bind vc_em ec_check].
  unfold vg_check. rewrite B2, B3, B5, B6, B7, B8, B9, B10, B11, B12, (vb_nc _ _ _ _ _ _ B1).
  assert (Hty : is_type covariance_types ty = true) by (destruct B4 as [->|[->|[->| ->]]]; reflexivity).
  assert (Hd : forall d, dof_shape_ok ty nc (dof_attr ty nc d) = true).
  { intros d. unfold dof_shape_ok, dof_attr. destruct (String.eqb ty "tied"); [reflexivity|].
    unfold fvec. rewrite tab_length, Nat.eqb_refl. reflexivity. }
  assert (Hs : forall B, cov_shape_ok ty nc nf (mats_attr ty nc nf B) = true).
  { intros B. unfold cov_shape_ok, mats_attr. destruct B4 as [->|[->|[->| ->]]]; cbn [String.eqb Ascii.eqb Bool.eqb].
    - rewrite tab_length, Nat.eqb_refl. apply forallb_forall. intros m Hm. apply in_map_iff in Hm as (i & <- & _).
      rewrite nrow_fmat, ncol_fmat, !Nat.eqb_refl. reflexivity.
    - rewrite nrow_fmat, ncol_fmat, !Nat.eqb_refl. reflexivity.
    - rewrite nrow_fmat, ncol_fmat, !Nat.eqb_refl. reflexivity.
    - unfold fvec. rewrite tab_length, Nat.eqb_refl. reflexivity. }
  rewrite Hty. cbn [guard attr bind]. rewrite !nrow_fmat, !ncol_fmat, !Nat.eqb_refl. cbn [andb guard bind].
  unfold fvec at 1 2. rewrite !tab_length, !Nat.eqb_refl, !Hd, !Hs. cbn [andb guard bind].
  f_equal. destruct v as [[] ? ? ? ? ? ?]. cbn in *. rewrite <- B2. reflexivity.
Qed.

(** Recorded values that never decrease give no convergence warning. *)
Lemma recorded_nondec (L : nat -> R) (us : vec) (ev : list event) :
  (forall j, L j <= L (S j)) -> (forall j, (j < length us)%nat -> nth j us NaN = Fin (L j)) ->
  (In WNotConverging ev -> drops exact us) ->
  (exists vs : list R, us = map Fin vs /\ forall i j, (i <= j)%nat -> (j < length vs)%nat -> nth i vs 0 <= nth j vs 0)
  /\ ~ In WNotConverging ev.
Proof.
  intros HL I7 Hw.
  assert (Hv : us = map Fin (map L (seq 0 (length us)))).
  { apply (nth_ext _ _ NaN NaN); [rewrite !map_length, seq_length; reflexivity|].
    intros j Hj. rewrite I7 by exact Hj.
    rewrite map_map. rewrite (nth_indep _ NaN (Fin (L 0%nat))) by (rewrite map_length, seq_length; exact Hj).
    rewrite (map_nth (fun j => Fin (L j))), seq_nth by exact Hj. reflexivity. }
  assert (Hn : forall j, (j < length us)%nat -> nth j (map L (seq 0 (length us))) 0 = L j).
  { intros j Hj. rewrite (nth_indep _ 0 (L 0%nat)) by (rewrite map_length, seq_length; exact Hj).
    rewrite map_nth, seq_nth by exact Hj. reflexivity. }
  split.
  - exists (map L (seq 0 (length us))). split; [exact Hv|]. rewrite map_length, seq_length.
    intros i j Hij Hj. rewrite !Hn by lia. apply (nondec_chain L (S j) (fun j _ => HL j) i j Hij). lia.
  - intros Hin. destruct (Hw Hin) as (l & a & z & r & El & Hlt).
    assert (Hlen : (S (length l) < length us)%nat) by (rewrite El, app_length; simpl; lia).
    assert (Ha : a = Fin (L (length l))).
    { transitivity (nth (length l) us NaN); [rewrite El, nth_middle; reflexivity|]. apply I7. lia. }
    assert (Hzz : z = Fin (L (S (length l)))).
    { transitivity (nth (S (length l)) us NaN).
      - rewrite El. change (l ++ a :: z :: r) with (l ++ [a] ++ z :: r). rewrite app_assoc.
        replace (S (length l)) with (length (l ++ [a])) by (rewrite app_length; simpl; lia).
        rewrite nth_middle. reflexivity.
      - apply I7. exact Hlen. }
    subst a z. unfold xlt in Hlt. cbn [xsub xopp xadd exact xltb] in Hlt. unfold exact in Hlt. cbn [xltb] in Hlt.
    apply Rltb_true in Hlt. specialize (HL (length l)).
    assert (0 < / 2 ^ 26) by (apply Rinv_0_lt_compat, pow_lt; lra). lra.
Qed.

(** The facts about a finished call of [fit]. *)
Lemma vg_fit_run la ty nc nf v p q ls x v' ev : la_right la ->
  vg_model ty nc nf v p q -> good_data (finite_row nf) ls x ->
  has "m" (c_params (v_cfg v)) = true \/ has "c" (c_params (v_cfg v)) = false ->
  vfit_from (vgaussian la) exact v x (map Z.of_nat ls) = Ok (v', ev) ->
  let params := c_params (v_cfg v) in
  let K := length (v_history v') in
  let qs := vg_traj ty nc nf ls x params p q in
    (forall j, gvalid ty nc nf (qs j))
    /\ (K <= c_n_iter (v_cfg v))%nat
    /\ vg_holds ty nc nf v' p (qs K)
    /\ h_start (v_h v') = keeps_or (has "s" params) K (Some (fvec nc (mean1 nc (g_s (qs K))))) (h_start (v_h v))
    /\ h_trans (v_h v') = keeps_or (has "t" params) K (Some (fmat nc nc (fun i => mean1 nc (g_t (qs K) i)))) (h_trans (v_h v))
    /\ vg_cov (h_em (v_h v')) = keeps_or (has "c" params) K
         (Some (mats_attr ty nc nf (fun i k l => g_S (qs K) i k l / g_d (qs K) i))) (vg_cov (h_em (v_h v)))
    /\ (forall j, (j < K)%nat -> nth j (v_history v') NaN = Fin (vg_elbo ty nc nf (chunks ls x) p (qs j)))
    /\ (In WNotConverging ev -> drops exact (v_history v')).
Proof.
  intros Hla [M1 M2 M3 M4 M5] Hd Hmc Hf params K qs.
  destruct (vfit_from_trace _ _ _ _ _ _ _ Hf) as (v1 & v2 & vs & Hc & Hi & Hk & -> & Hh & Hw & _).
  rewrite (vg_check_ok la ty nc nf v p q M3) in Hc. injection Hc as <-.
  destruct (vg_iterate la ty nc nf Hla M1 M2 (vgh_known _ _ _ _ _ _ M3) ls x Hd params p M4 Hmc (length vs) v q v2 vs M3 M5 eq_refl Hi)
    as (I1 & I2 & I3 & I4 & I5 & I6 & I7).
  unfold K. rewrite Hh. split; [|split; [|split; [|split; [|split; [|split; [|split]]]]]].
  - intros j. apply (vg_traj_valid ty nc nf M1 M2 ls x Hd params p M4 Hmc q j M5).
  - exact Hk.
  - destruct I1 as [[? ? ? ? ? ? ? ? ?] ? ? ? ? ? ? ? ? ? ? ?]. constructor; try assumption. constructor; assumption.
  - exact I5.
  - exact I6.
  - exact I7.
  - exact I4.
  - exact Hw.
Qed.

(** ** C66: the posteriors. *)
Lemma C66_fit_l la ty nc nf v p q ls x v' ev : la_right la ->
  vg_model ty nc nf v p q -> good_data (finite_row nf) ls x ->
  has "m" (c_params (v_cfg v)) = true \/ has "c" (c_params (v_cfg v)) = false ->
  vfit_from (vgaussian la) exact v x (map Z.of_nat ls) = Ok (v', ev) ->
  let params := c_params (v_cfg v) in
  let K := length (v_history v') in
  exists qs : nat -> gdirs,
    qs 0%nat = q
    /\ (forall j, qs (S j) = vg_next ty nc nf (chunks ls x) params p (qs j))
    /\ (K <= c_n_iter (v_cfg v))%nat
    /\ vg_model ty nc nf v' p (qs K)
    /\ h_start (v_h v') = keeps_or (has "s" params) K (Some (fvec nc (mean1 nc (g_s (qs K))))) (h_start (v_h v))
    /\ h_trans (v_h v') = keeps_or (has "t" params) K (Some (fmat nc nc (fun i => mean1 nc (g_t (qs K) i)))) (h_trans (v_h v))
    /\ vg_cov (h_em (v_h v')) = keeps_or (has "c" params) K
         (Some (mats_attr ty nc nf (fun i k l => g_S (qs K) i k l / g_d (qs K) i))) (vg_cov (h_em (v_h v))).
Proof.
  intros Hla HM Hd Hmc Hf params K.
  destruct (vg_fit_run la ty nc nf v p q ls x v' ev Hla HM Hd Hmc Hf) as (I1 & I2 & I3 & I4 & I5 & I6 & I7 & I8).
  exists (vg_traj ty nc nf ls x params p q). split; [reflexivity|]. split; [reflexivity|]. split; [exact I2|].
  split; [|split; [exact I4|split; [exact I5|exact I6]]].
  destruct HM. constructor; try assumption. apply I1.
Qed.

(** Whatever [params] is, the posterior of one iteration is prior plus statistics. *)
Lemma C66_one_iteration_l la ty nc nf v p q ls x v' lb : la_right la ->
  vg_model ty nc nf v p q -> good_data (finite_row nf) ls x ->
  vb_step (vgaussian la) exact x (as_lengths ls) v = Ok (v', lb) ->
  let params := c_params (v_cfg v) in
  let q' := vg_next ty nc nf (chunks ls x) params p q in
  vg_holds ty nc nf v' p q'
  /\ lb = Fin (vg_elbo ty nc nf (chunks ls x) p q)
  /\ vg_cov (h_em (v_h v')) = (if has "c" params then Some (mats_attr ty nc nf (fun i k l => g_S q' i k l / g_d q' i))
                               else vg_cov (h_em (v_h v))).
Proof.
  intros Hla [M1 M2 M3 M4 M5] Hd Hs params q'.
  destruct (vg_step_inv la ty nc nf Hla M1 M2 (vgh_known _ _ _ _ _ _ M3) ls x Hd params p M4 v q M3 M5 eq_refl _ Hs) as [E _].
  injection E as -> ->. split; [|split; reflexivity].
  apply (vg_step_holds ty nc nf M1 ls x Hd params p v q M3 eq_refl).
Qed.

(** What an update does, in observable terms: total masses; every posterior mean
    is an average of the prior mean and the samples. *)
Lemma C66_update_l ty nc nf params p q ls x : (0 < nc)%nat -> (0 < nf)%nat -> good_data (finite_row nf) ls x ->
  gvalid ty nc nf p -> gvalid ty nc nf q -> has "m" params = true ->
  let q' := vg_next ty nc nf (chunks ls x) params p q in
  gvalid ty nc nf q'
  /\ stochastic1 nc (mean1 nc (g_s q')) /\ stochastic2 nc nc (fun i => mean1 nc (g_t q' i))
  /\ sumn nc (g_b q') = sumn nc (g_b p) + INR (length x)
  /\ (has "c" params = true -> if String.eqb ty "tied" then g_d q' 0%nat = g_d p 0%nat + INR (length x)
                              else sumn nc (g_d q') = sumn nc (g_d p) + INR (length x))
  /\ (forall i f a b, (i < nc)%nat -> (f < nf)%nat -> a <= g_m p i f <= b ->
        Forall (fun o => a <= xval o f <= b) x -> a <= g_m q' i f <= b).
Proof.
  intros Hnc Hnf Hd Hp Hq Hm q'.
  pose proof (vg_cs nf ls x Hd) as Hcs.
  pose proof (vg_next_valid ty nc nf (chunks ls x) Hnc Hnf Hcs params p Hp (or_introl Hm) q Hq) as HV. fold q' in HV.
  assert (Hocc : sumn nc (g_n nc nf (chunks ls x) q) = INR (length x)).
  { unfold g_n. apply (occupancy_total (finite_row nf)); try assumption.
    - intros i Hi. apply Rlt_le, (gw_s_pos nc q i Hi).
    - intros i j Hi Hj. apply Rlt_le, (gw_t_pos nc q i j Hi Hj).
    - intros o i Ho Hi. apply Rlt_le, (vg_w_pos nc nf q o i Ho Hi).
    - intros c0 Hc0. apply (lik_pos (finite_row nf) nc (chunks ls x) Hnc Hcs); try assumption;
        [apply gw_s_pos|apply gw_t_pos|apply (vg_w_pos nc nf q)]. }
  split; [exact HV|].
  split; [apply mean_stochastic; [assumption|apply HV]|].
  split; [intros i Hi; apply mean_stochastic; [assumption|intros j Hj; apply (gv_t _ _ _ _ HV); assumption]|].
  split; [unfold q', vg_next; cbn [g_b]; unfold new_b; rewrite Hm, sumn_plus, Hocc; reflexivity|].
  split.
  { intros Hc. unfold q', vg_next. cbn [g_d]. rewrite Hc. destruct (String.eqb ty "tied").
    - rewrite <- Hocc. reflexivity.
    - rewrite sumn_plus. f_equal. exact Hocc. }
  intros i f a b Hi Hf Hab Hx. unfold q', vg_next. cbn [g_m]. unfold new_m. rewrite Hm.
  pose proof (gv_b _ _ _ _ Hp i Hi) as Hb0. pose proof (g_n_nonneg nc nf (chunks ls x) Hnc Hcs q i Hi) as Hn0.
  assert (HF : forall c0, In c0 (chunks ls x) -> Forall (fun o => a <= xval o f <= b) c0).
  { intros c0 Hc0. rewrite Forall_forall in Hx |- *. intros o Ho. apply Hx.
    destruct Hd as [_ (_ & _ & Hs)]. rewrite <- (chunks_concat ls x Hs). apply in_concat. exists c0. split; assumption. }
  assert (HX : a * g_n nc nf (chunks ls x) q i <= g_x nc nf (chunks ls x) q i f <= b * g_n nc nf (chunks ls x) q i).
  { rewrite g_n_wsum, g_x_wsum. unfold wsum. rewrite <- !sumL_scal_l.
    assert (G : forall y g, In (y, g) (wl nc nf (chunks ls x) q) ->
      a * sumn (length y) (fun t => g t i * obsB (fun _ _ => 1) y t i) <= sumn (length y) (fun t => g t i * obsB (xf f) y t i)
      <= b * sumn (length y) (fun t => g t i * obsB (fun _ _ => 1) y t i)).
    { intros y g Hy. pose proof (wl_ok nc nf (chunks ls x) Hnc Hcs q i Hi y g Hy) as [_ Hg].
      unfold wl in Hy. apply in_map_iff in Hy as (c0 & E & Hc0). injection E as <- _. specialize (HF c0 Hc0).
      rewrite <- !sumn_scal_l. split; apply sumn_le; intros t Ht; specialize (Hg t Ht); destruct c0 as [|d c1]; try (simpl in Ht; lia);
        rewrite !(obsB_nth _ (d :: c1) d) by exact Ht; unfold xf;
        rewrite Forall_forall in HF; pose proof (HF (nth t (d :: c1) d) (nth_In _ _ Ht)) as [H1 H2]; nra. }
    split; apply sumL_le; intros [y g] Hy; cbn [fst snd]; apply (G y g Hy). }
  split.
  - apply (Rmult_le_reg_r (g_b p i + g_n nc nf (chunks ls x) q i)); [lra|]. unfold Rdiv. rewrite Rmult_assoc, Rinv_l by lra. nra.
  - apply (Rmult_le_reg_r (g_b p i + g_n nc nf (chunks ls x) q i)); [lra|]. unfold Rdiv. rewrite Rmult_assoc, Rinv_l by lra. nra.
Qed.

(** ** C48: definiteness. *)
Lemma C48_positive_partial_l la ty nc nf v p q ls x v' ev : la_right la ->
  vg_model ty nc nf v p q -> good_data (finite_row nf) ls x ->
  has "m" (c_params (v_cfg v)) = true \/ has "c" (c_params (v_cfg v)) = false ->
  vfit_from (vgaussian la) exact v x (map Z.of_nat ls) = Ok (v', ev) ->
  exists (S : nat -> nat -> nat -> R) (D : nat -> R),
    vg_s (h_em (v_h v')) = Some (mats_attr ty nc nf S)
    /\ vg_d (h_em (v_h v')) = Some (dof_attr ty nc D)
    /\ (forall i, (i < nc)%nat -> INR nf - 1 < D i /\ pos_def nf (S i) /\ (forall k, (k < nf)%nat -> 0 < S i k k)
          /\ pos_def nf (fun k l => S i k l / D i) /\ (forall k, (k < nf)%nat -> 0 < S i k k / D i))
    /\ (has "c" (c_params (v_cfg v)) = true -> v_history v' <> [] ->
        vg_cov (h_em (v_h v')) = Some (mats_attr ty nc nf (fun i k l => S i k l / D i))).
Proof.
  intros Hla HM Hd Hmc Hf.
  destruct (vg_fit_run la ty nc nf v p q ls x v' ev Hla HM Hd Hmc Hf) as (I1 & I2 & I3 & I4 & I5 & I6 & I7 & I8).
  set (params := c_params (v_cfg v)) in *. set (K := length (v_history v')) in *.
  set (qs := vg_traj ty nc nf ls x params p q) in *.
  exists (g_S (qs K)), (g_d (qs K)). split; [apply I3|]. split; [apply I3|]. destruct HM as [M1 M2 M3 M4 M5]. split.
  - intros i Hi. pose proof (gv_d _ _ _ _ (I1 K) i Hi) as HD. pose proof (gv_S _ _ _ _ (I1 K) i Hi) as HS.
    pose proof (dof_pos0 ty nc nf M1 M2 (qs K) i (I1 K) Hi) as HD0.
    assert (HC : pos_def nf (fun k l => g_S (qs K) i k l / g_d (qs K) i)).
    { apply (pos_def_ext nf (fun k l => / g_d (qs K) i * g_S (qs K) i k l)); [intros; unfold Rdiv; ring|].
      apply pd_scal; [apply Rinv_0_lt_compat; exact HD0|exact HS]. }
    split; [exact HD|]. split; [exact HS|]. split; [intros k Hk; apply (pd_diag_pos nf); assumption|].
    split; [exact HC|]. intros k Hk. apply (pd_diag_pos nf _ k HC Hk).
  - intros Hc Hne. rewrite I6, Hc. unfold keeps_or, K. destruct (v_history v'); [contradiction|reflexivity].
Qed.

(** ** C67: the lower bound. *)
Lemma C67_lower_bound_l la ty nc nf v p q ls x v' ev : la_right la ->
  vg_model ty nc nf v p q -> good_data (finite_row nf) ls x ->
  has "m" (c_params (v_cfg v)) = true \/ has "c" (c_params (v_cfg v)) = false ->
  vfit_from (vgaussian la) exact v x (map Z.of_nat ls) = Ok (v', ev) ->
  (exists vs : list R, v_history v' = map Fin vs
     /\ forall i j, (i <= j)%nat -> (j < length vs)%nat -> nth i vs 0 <= nth j vs 0)
  /\ ~ In WNotConverging ev.
Proof.
  intros Hla HM Hd Hmc Hf.
  destruct (vg_fit_run la ty nc nf v p q ls x v' ev Hla HM Hd Hmc Hf) as (I1 & _ & _ & _ & _ & _ & I7 & Hw).
  destruct HM as [M1 M2 M3 M4 M5].
  set (tr := vg_traj ty nc nf ls x (c_params (v_cfg v)) p q) in *.
  set (L := fun j => vg_elbo ty nc nf (chunks ls x) p (tr j)).
  assert (HL : forall j, L j <= L (S j)).
  { intros j. apply (vg_improve ty nc nf (chunks ls x) M1 M2 (vg_cs nf ls x Hd) (c_params (v_cfg v)) p M4 Hmc (tr j) (I1 j)). }
  apply (recorded_nondec L (v_history v') ev HL I7 Hw).
Qed.

Lemma C67_bound_value_l la ty nc nf v p q ls x v' ev : la_right la ->
  vg_model ty nc nf v p q -> good_data (finite_row nf) ls x ->
  has "m" (c_params (v_cfg v)) = true \/ has "c" (c_params (v_cfg v)) = false ->
  vfit_from (vgaussian la) exact v x (map Z.of_nat ls) = Ok (v', ev) ->
  exists qs : nat -> gdirs,
    qs 0%nat = q /\ (forall j, qs (S j) = vg_next ty nc nf (chunks ls x) (c_params (v_cfg v)) p (qs j))
    /\ forall j, (j < length (v_history v'))%nat ->
         nth j (v_history v') NaN = Fin (vg_elbo ty nc nf (chunks ls x) p (qs j)).
Proof.
  intros Hla HM Hd Hmc Hf.
  destruct (vg_fit_run la ty nc nf v p q ls x v' ev Hla HM Hd Hmc Hf) as (_ & _ & _ & _ & _ & _ & I7 & _).
  eexists. split; [|split; [|exact I7]]; reflexivity.
Qed.

(** ** C68: training in log space returns. *)
Lemma C68_fit_returns_l la ty nc nf v p q ls x : la_right la ->
  vg_model ty nc nf v p q -> good_data (finite_row nf) ls x ->
  has "m" (c_params (v_cfg v)) = true \/ has "c" (c_params (v_cfg v)) = false ->
  c_impl (v_cfg v) = "log"%string ->
  (has "t" (c_params (v_cfg v)) = true \/ h_trans (v_h v) <> None) ->
  exists r, vfit_from (vgaussian la) exact v x (map Z.of_nat ls) = Ok r.
Proof.
  intros Hla [M1 M2 M3 M4 M5] Hd Hmc Hi Ht. set (params := c_params (v_cfg v)) in *.
  unfold vfit_from. rewrite (vg_check_ok la ty nc nf v p q M3). cbn [bind].
  destruct (vfit_loop_ok exact (vb_step (vgaussian la) exact x (Some (map Z.of_nat ls))) (vzero_rows exact)
             (fun v => c_impl (v_cfg v) = "log"%string /\ c_params (v_cfg v) = params /\ (has "t" params = true \/ h_trans (v_h v) <> None)
                       /\ exists q, vg_holds ty nc nf v p q /\ gvalid ty nc nf q)
             (c_n_iter (v_cfg v))) with (o := v) (m := monitor_reset (h_mon (v_h v))) as [[[v2 m] ev] El].
  - intros u (U1 & U2 & U3 & q1 & U4 & U5).
    exists (vg_step_to ty nc nf ls x params p u q1), (Fin (vg_elbo ty nc nf (chunks ls x) p q1)).
    assert (Hz : exists z, vzero_rows exact (vg_step_to ty nc nf ls x params p u q1) = Ok z).
    { unfold vzero_rows, vg_step_to, vnext. cbn [v_h h_trans]. rewrite U2.
      destruct (has "t" params); [eexists; reflexivity|].
      destruct U3 as [U3|U3]; [discriminate|]. destruct (h_trans (v_h u)); [eexists; reflexivity|contradiction]. }
    destruct Hz as [z Hz]. exists z. split; [|split; [|exact Hz]].
    + apply (vg_step_log la ty nc nf Hla M1 M2 (vgh_known _ _ _ _ _ _ M3) ls x Hd params p M4 u q1 U4 U5 U2 U1).
    + split; [exact U1|]. split; [exact U2|]. split.
      * unfold vg_step_to, vnext. cbn [v_h h_trans]. rewrite U2.
        destruct U3 as [U3|U3]; [left; exact U3|right]. destruct (has "t" params); [discriminate|exact U3].
      * eexists. split; [apply (vg_step_holds ty nc nf M1 ls x Hd params p u q1 U4 U2)|].
        apply (vg_next_valid ty nc nf (chunks ls x) M1 M2 (vg_cs nf ls x Hd) params p M4 Hmc q1 U5).
  - split; [exact Hi|]. split; [reflexivity|]. split; [exact Ht|]. exists q. split; assumption.
  - rewrite El. cbn [bind]. eexists. reflexivity.
Qed.

(** ** C47: the E-step. *)
Lemma C47_gaussian_estep_l la ty nc nf v p q ls x v1 st lp : la_right la ->
  vg_model ty nc nf v p q -> good_data (finite_row nf) ls x ->
  vestep (vgaussian la) exact x (as_lengths ls) v = Ok (v1, st, lp) ->
  let cs := chunks ls x in
  let params := c_params (v_cfg v) in
  lp = Fin (sumL (fun c => ln (seq_lik nc (gw_s nc q) (gw_t nc q) (vg_w nf q) c)) cs)
  /\ st_nobs st = length ls
  /\ st_start st = fvec nc (fun i => if has "s" params then g_start nc nf cs q i else 0)
  /\ st_trans st = fmat nc nc (fun i j => if has "t" params then g_move nc nf cs q i j else 0)
  /\ gs_post (st_em st) = fvec nc (fun i => if has "m" params || has "c" params then g_n nc nf cs q i else 0)
  /\ gs_obs (st_em st) = fmat nc nf (fun i f => if has "m" params || has "c" params then g_x nc nf cs q i f else 0)
  /\ (forall c, In c cs ->
        (forall t, (t < length c)%nat -> stochastic1 nc (seq_post nc (gw_s nc q) (gw_t nc q) (vg_w nf q) c t))
        /\ nonneg2 nc nc (seq_trans nc (gw_s nc q) (gw_t nc q) (vg_w nf q) c)
        /\ sumn nc (fun i => sumn nc (seq_trans nc (gw_s nc q) (gw_t nc q) (vg_w nf q) c i)) = INR (length c - 1)).
Proof.
  intros Hla [M1 M2 M3 M4 M5] Hd He cs params.
  pose proof (vgh_base _ _ _ _ _ _ M3) as HB. pose proof (vgh_known _ _ _ _ _ _ M3) as Hty.
  pose proof (vg_cs nf ls x Hd) as Hcs.
  pose proof (vestep_scorable (vgaussian la) nc (finite_row nf) ls x M1 Hd v _ _ _ _ HB (h_em (v_h v)) (vg_w nf q)
                (vg_beg la v) (vg_em' la ty nc nf Hla M1 M2 Hty p v q M3 M5) (vg_w_pos nc nf q) _ He) as Hs.
  rewrite (vestep_spec (vgaussian la) nc (finite_row nf) ls x M1 Hd v _ _ _ _ HB (h_em (v_h v)) (vg_w nf q)
                (vg_beg la v) (vg_em' la ty nc nf Hla M1 M2 Hty p v q M3 M5) (vg_w_pos nc nf q) Hs) in He.
  pose proof (vg_acc_ok la ty nc nf M1 M2 Hty ls x Hd v p q M3) as Ha. unfold wl in Ha. unfold gw_s, gw_t in Ha.
  rewrite Ha in He. cbn [bind] in He. injection He as _ <- <-. cbn [st_nobs st_start st_trans st_em vg_stat gs_post gs_obs].
  split; [reflexivity|]. split.
  { clear. revert x. induction ls as [|n l IH]; intros x; [reflexivity|]. simpl. rewrite IH. reflexivity. }
  split; [reflexivity|]. split; [reflexivity|]. split; [reflexivity|]. split; [reflexivity|].
  intros c Hc.
  assert (Hc1 : forall c0, In c0 [c] -> c0 <> [] /\ Forall (finite_row nf) c0) by (intros c0 [<-|[]]; apply Hcs, Hc).
  pose proof (in_eq c []) as Hin. split; [|split].
  - intros t Ht. apply (vpost_stoch (finite_row nf) nc [c] M1 Hc1 _ _ _ (gw_s_pos nc q) (gw_t_pos nc q) (vg_w_pos nc nf q)); assumption.
  - intros i j Hi Hj. apply (vtrans_nonneg (finite_row nf) nc [c] M1 Hc1 _ _ _ (gw_s_pos nc q) (gw_t_pos nc q) (vg_w_pos nc nf q)); assumption.
  - pose proof (vtrans_sum (finite_row nf) nc [c] M1 Hc1 _ _ _ (gw_s_pos nc q) (gw_t_pos nc q) (vg_w_pos nc nf q)) as H.
    cbn [sumL] in H. rewrite Rplus_0_r in H. rewrite <- H. apply sumn_ext. intros i _. apply sumn_ext. intros j _. ring.
Qed.
