(** * VariationalGaussianHMM: one iteration and whole training runs. *)
From Verif Require Export Vg_ready Vg_math Kl_proofs Vcat_thms.

Section Vg.
  Variables (la : linalg) (ty : string) (nc nf : nat).
  Hypothesis Hla : la_right la.
  Hypothesis Hnc : (0 < nc)%nat.
  Hypothesis Hnf : (0 < nf)%nat.

  Hypothesis Hty : (ty = "full" \/ ty = "tied" \/ ty = "diag" \/ ty = "spherical")%string.

  (** ** Stored matrices. *)
  Lemma fill_holds B :
    (forall i k l, (i < nc)%nat -> (k < nf)%nat -> (l < nf)%nat -> keep ty nf (B i) k l = B i k l) ->
    (ty = "tied"%string -> forall i k l, (i < nc)%nat -> (k < nf)%nat -> (l < nf)%nat -> B i k l = B 0%nat k l) ->
    fill_covars exact (mats_attr ty nc nf B) ty nc nf = Ok (tab nc (fun i => fmat nf nf (B i))).
  Proof.
    intros Hk Ht. destruct Hty as [->|[->|[->| ->]]]; unfold fill_covars, mats_attr; cbn [String.eqb Ascii.eqb Bool.eqb].
    - reflexivity.
    - f_equal. apply tab_ext. intros i Hi. apply fmat_ext. intros k l H1 H2. symmetry. apply Ht; auto.
    - f_equal. unfold fmat, mtab. cbn [rows]. rewrite tab_map. apply tab_ext. intros i Hi.
      change (tab nf (fun j => Fin (B i j j))) with (fvec nf (fun f => B i f f)). unfold diag_of, fvec. rewrite tab_length.
      apply mtab_ext. intros k l Hk1 Hl1. rewrite vget_tab by exact Hk1. rewrite <- (Hk i k l Hi Hk1 Hl1). unfold keep.
      cbn [String.eqb Ascii.eqb Bool.eqb]. destruct (Nat.eqb k l); reflexivity.
    - f_equal. unfold fvec. rewrite tab_map. apply tab_ext. intros i Hi. apply mtab_ext. intros k l Hk1 Hl1.
      rewrite <- (Hk i k l Hi Hk1 Hl1), <- (Hk i 0%nat 0%nat Hi Hnf Hnf). unfold keep.
      cbn [String.eqb Ascii.eqb Bool.eqb Nat.eqb]. destruct (Nat.eqb k l); rewrite xmulE; f_equal; ring.
  Qed.
  Lemma fill_valid q : gvalid ty nc nf q ->
    fill_covars exact (mats_attr ty nc nf (g_S q)) ty nc nf = Ok (tab nc (fun i => fmat nf nf (g_S q i))).
  Proof.
    intros Hq. apply fill_holds; [apply Hq|]. intros Ht i k l Hi Hk Hl. apply (gv_tied _ _ _ _ Hq Ht i Hi); assumption.
  Qed.

  Lemma mapM_inv B : (forall i, (i < nc)%nat -> pos_def nf (B i)) ->
    mapM (la_inv la exact) (tab nc (fun i => fmat nf nf (B i))) = Ok (tab nc (fun i => fmat nf nf (minv nf (B i)))).
  Proof.
    intros H.
    assert (E : forall l, (forall i, In i l -> (i < nc)%nat) ->
      mapM (la_inv la exact) (map (fun i => fmat nf nf (B i)) l) = Ok (map (fun i => fmat nf nf (minv nf (B i))) l)).
    { induction l as [|i l IH]; intros Hl; [reflexivity|]. cbn [map mapM].
      pose proof (H i (Hl i (or_introl eq_refl))) as PD.
      rewrite (la_invE la nf (B i) (minv nf (B i)) Hla PD (minv_ok nf _ PD)). cbn [bind].
      rewrite IH by (intros j Hj; apply Hl; right; exact Hj). reflexivity. }
    apply E. intros i Hi. apply in_seq in Hi. lia.
  Qed.

  Lemma vg_W_ok q : gvalid ty nc nf q ->
    vg_W la exact ty nc nf (mats_attr ty nc nf (g_S q)) = Ok (tab nc (fun i => fmat nf nf (minv nf (g_S q i)))).
  Proof.
    intros Hq. unfold vg_W. destruct (String.eqb_spec ty "tied") as [Ht|Ht].
    - assert (E : mats_attr ty nc nf (g_S q) = CV2 (fmat nf nf (g_S q 0%nat))) by (rewrite Ht; reflexivity). rewrite E. cbn [cv2 bind].
      pose proof (gv_S _ _ _ _ Hq 0%nat Hnc) as PD.
      rewrite (la_invE la nf _ (minv nf (g_S q 0%nat)) Hla PD (minv_ok nf _ PD)). cbn [bind]. f_equal.
      apply tab_ext. intros i Hi. apply fmat_ext. intros k l Hk Hl. apply minv_ext; [|exact Hk].
      intros k' l' Hk' Hl'. symmetry. apply (gv_tied _ _ _ _ Hq Ht i Hi); assumption.
    - rewrite (fill_valid q Hq). cbn [bind]. apply mapM_inv. apply Hq.
  Qed.

  Lemma dof_at_ok q i : gvalid ty nc nf q -> (i < nc)%nat -> dof_at (dof_attr ty nc (g_d q)) i = Fin (g_d q i).
  Proof.
    intros Hq Hi. unfold dof_attr. destruct (String.eqb_spec ty "tied") as [Ht|Ht]; cbn [dof_at].
    - f_equal. symmetry. apply (gv_tied _ _ _ _ Hq Ht i Hi).
    - apply vget_fvec, Hi.
  Qed.

  (** ** The densities of the E-step. *)
  Lemma vg_subll_ok v p q x : vg_holds ty nc nf v p q -> gvalid ty nc nf q -> Forall (finite_row nf) x ->
    vg_subll la exact (v_cfg v) (h_nfeat (v_h v)) (h_em (v_h v)) x = Ok (lmat (length x) nc (obsB (vg_w nf q) x)).
  Proof.
    intros HV Hq Hx.
    unfold vg_subll. rewrite (vgh_nf _ _ _ _ _ _ HV), (vgh_d _ _ _ _ _ _ HV), (vgh_s _ _ _ _ _ _ HV). cbn [attr bind].
    rewrite (vgh_type _ _ _ _ _ _ HV), (vb_nc _ _ _ _ _ _ (vgh_base _ _ _ _ _ _ HV)), (vg_W_ok q Hq). cbn [bind].
    rewrite (vgh_b _ _ _ _ _ _ HV), (vgh_m _ _ _ _ _ _ HV). cbn [attr bind].
    destruct x as [|o0 x0]; [reflexivity|]. set (x := o0 :: x0) in *.
    assert (Hne : x <> []) by discriminate. rewrite (width_finite nf x Hne Hx), ncol_fmat. unfold bwidth. rewrite Nat.eqb_refl. cbn [bind].
    rewrite Nat.eqb_refl. cbn [negb]. f_equal.
    match goal with |- Mat nc (map (fun o => tab nc (@?g o)) x) = _ => apply (mat_of_rows x nc g) end.
    intros t d i Ht Hi. cbv beta. rewrite Forall_forall in Hx. pose proof (Hx _ (nth_In x d Ht)) as Ho.
    set (o := nth t x d) in *. rewrite vget_tab by exact Hi.
    rewrite (dof_at_ok q i Hq Hi), tab_nth by exact Hi.
    pose proof (gv_S _ _ _ _ Hq i Hi) as PD. pose proof (minv_ok nf _ PD) as IV.
    rewrite (logdetE la nf _ Hla (inverse_pd nf _ _ PD IV)), (lndet_inv nf _ _ PD IV).
    rewrite (tab_ext nf (fun j => xdigamma exact _) (fun j => Fin (psi ((g_d q i - INR j) / 2)))).
    2:{ intros j Hj. rewrite xsubE, xmulE.
        replace (1 / 2 * (g_d q i - INR j)) with ((g_d q i - INR j) / 2) by field.
        apply xdigammaE. apply (dof_pos nf); [apply (gv_d _ _ _ _ Hq i Hi)|exact Hj]. }
    change (tab nf (fun j => Fin (psi ((g_d q i - INR j) / 2)))) with (fvec nf (fun j => psi ((g_d q i - INR j) / 2))). rewrite xsum_fvec.
    assert (Hdl : forall j, (j < nf)%nat -> xsub exact (vget o (bidx nf j)) (mget (fmat nc nf (g_m q)) i (bidx nf j)) = Fin (xval o j - g_m q i j)).
    { intros j Hj. rewrite bidx_lt by exact Hj. rewrite (finite_row_get nf o j Ho Hj), mget_fmat by assumption. apply xsubE. }
    rewrite (tab_ext nf (fun j => xsum exact _)
      (fun j => Fin (sumn nf (fun k => (xval o j - g_m q i j) * minv nf (g_S q i) j k * (xval o k - g_m q i k) * g_d q i)))).
    2:{ intros j Hj.
        rewrite (tab_ext nf _ (fun k => Fin ((xval o j - g_m q i j) * minv nf (g_S q i) j k * (xval o k - g_m q i k) * g_d q i))).
        - apply xsum_fvec.
        - intros k Hk. rewrite !Hdl, mget_fmat by assumption. rewrite !xmulE. reflexivity. }
    change (tab nf (fun j => Fin (sumn nf (fun k => (xval o j - g_m q i j) * minv nf (g_S q i) j k * (xval o k - g_m q i k) * g_d q i))))
      with (fvec nf (fun j => sumn nf (fun k => (xval o j - g_m q i j) * minv nf (g_S q i) j k * (xval o k - g_m q i k) * g_d q i))).
    rewrite xsum_fvec, vget_fvec by exact Hi. pose proof (gv_b _ _ _ _ Hq i Hi) as Hb.
    rewrite xlog_fin by lra. rewrite (xln_pos 2) by lra. rewrite ?xmulE, ?xaddE. rewrite (xdivE (INR nf)) by lra. rewrite xdivE by lra. rewrite !xaddE, !xmulE, !xsubE.
    rewrite (obsB_nth _ x d) by exact Ht. fold o. unfold vg_w. rewrite xln_pos by apply exp_pos. rewrite ln_exp. f_equal.
    replace (quad nf (minv nf (g_S q i)) (fun k => xval o k - g_m q i k))
      with (sumn nf (fun j => sumn nf (fun k => (xval o j - g_m q i j) * minv nf (g_S q i) j k * (xval o k - g_m q i k)))).
    2:{ unfold quad. apply sumn_ext. intros j Hj. apply sumn_ext. intros k Hk. ring. }
    rewrite (sumn_ext nf (fun j => sumn nf (fun k => _ * g_d q i)) (fun j => sumn nf (fun k => (xval o j - g_m q i j) * minv nf (g_S q i) j k * (xval o k - g_m q i k)) * g_d q i))
      by (intros; apply sumn_scal_r).
    rewrite sumn_scal_r. field. lra.
  Qed.

  Lemma vg_emits v p q h : vg_holds ty nc nf v p q -> gvalid ty nc nf q ->
    h_cfg h = v_cfg v -> h_nfeat h = h_nfeat (v_h v) -> h_em h = h_em (v_h v) ->
    emits (sub_em (vgaussian la)) h nc (finite_row nf) (vg_w nf q).
  Proof.
    intros HV Hq E1 E2 E3. constructor.
    - intros x Hx. unfold loglik. cbn [ec_loglik sub_em vc_subll vgaussian]. rewrite E1, E2, E3. apply (vg_subll_ok v p); assumption.
    - intros x Hx. unfold lik. cbn [ec_lik sub_em vc_subll vgaussian]. unfold lik_of_loglik.
      rewrite E1, E2, E3, (vg_subll_ok v p q) by assumption. cbn [bind]. rewrite mexp_lmat; [reflexivity|].
      intros t i Ht Hi. apply Rlt_le, (obsB_pos (finite_row nf) nc); try assumption. intros; apply exp_pos.
    - intros o i Ho Hi. apply Rlt_le, exp_pos.
    - intros o Ho. apply Ho.
  Qed.

  (** ** Statistics. *)
  Lemma has_nil a : has a "" = false. Proof. reflexivity. Qed.
  Lemma stat_m ps : has "m" (stat_params ps) = has "m" ps || has "c" ps.
  Proof. unfold stat_params. destruct (has "m" ps), (has "c" ps); reflexivity. Qed.
  Lemma stat_c ps : has "c" (stat_params ps) = has "c" ps.
  Proof. unfold stat_params. destruct (has "m" ps), (has "c" ps); reflexivity. Qed.

  Lemma vg_acc_gauss c nfe e l : forall st,
    em_acc_all (vc_em (vgaussian la)) c nfe e nc st l = em_acc_all gaussian (stat_cfg c) nfe (vg_gauss e) nc st l.
  Proof.
    induction l as [|[y g] l IH]; intros st; [reflexivity|]. cbn [em_acc_all].
    change (ec_acc (vc_em (vgaussian la)) exact c nfe e st y) with (ec_acc gaussian exact (stat_cfg c) nfe (vg_gauss e) st y).
    destruct (ec_acc gaussian exact (stat_cfg c) nfe (vg_gauss e) st y _); [apply IH|reflexivity].
  Qed.

  Variables (ls : list nat) (x : list vec).
  Hypothesis Hd : good_data (finite_row nf) ls x.
  Notation cs := (chunks ls x).
  Lemma vg_cs c0 : In c0 cs -> c0 <> [] /\ Forall (finite_row nf) c0.
  Proof. apply (vchunk (finite_row nf) ls x Hd). Qed.

  (** The statistics of an E-step with posterior [q]. *)
  Definition vg_stat (ps : string) (q : gdirs) : gauss_stat :=
    let mc := has "m" ps || has "c" ps in
    GaussStat (fvec nc (fun i => if mc then g_n nc nf cs q i else 0))
      (fmat nc nf (fun i f => if mc then g_x nc nf cs q i f else 0))
      (fmat nc nf (fun i f => if has "c" ps && vec_type ty then g_xx nc nf cs q i f f else 0))
      (if mat_type ty then tab nc (fun i => fmat nf nf (fun k l => if has "c" ps then g_xx nc nf cs q i k l else 0)) else []).

  Lemma vg_acc_ok v p q : vg_holds ty nc nf v p q ->
    em_acc_all (vc_em (vgaussian la)) (v_cfg v) (h_nfeat (v_h v)) (h_em (v_h v)) nc
      (ec_stats0 (vc_em (vgaussian la)) exact (v_cfg v) (h_nfeat (v_h v)) (h_em (v_h v))) (wl nc nf cs q)
    = Ok (vg_stat (c_params (v_cfg v)) q).
  Proof.
    intros HV. rewrite vg_acc_gauss. cbn [vc_em vgaussian ec_stats0]. unfold vg_stats0, gauss_stats0.
    change (c_nc (stat_cfg (v_cfg v))) with (c_nc (v_cfg v)). rewrite (vb_nc _ _ _ _ _ _ (vgh_base _ _ _ _ _ _ HV)), (vgh_nf _ _ _ _ _ _ HV).
    assert (Et : ga_type (vg_gauss (h_em (v_h v))) = ty) by apply HV. rewrite Et.
    assert (Hl : forall y g, In (y, g) (wl nc nf cs q) -> y <> [] /\ Forall (finite_row nf) y).
    { intros y g Hy. apply in_map_iff in Hy. destruct Hy as (c0 & E & Hc0). injection E as <- <-. apply vg_cs, Hc0. }
    set (ps := c_params (v_cfg v)). assert (Eps : c_params (stat_cfg (v_cfg v)) = stat_params ps) by reflexivity.
    change (tab nc (fun _ => Fin 0)) with (fvec nc (fun _ => 0)).
    change (mtab nc nf (fun _ _ => Fin 0)) with (fmat nc nf (fun _ _ => 0)).
    change (mtab nf nf (fun _ _ => Fin 0)) with (fmat nf nf (fun _ _ => 0)).
    destruct (mat_type ty) eqn:Em.
    - assert (Ev : vec_type ty = false) by (destruct Hty as [->|[->|[->| ->]]]; first [reflexivity|discriminate]).
      rewrite (full_acc_all nc nf Hnc Hnf (stat_cfg (v_cfg v)) (Some nf) (vg_gauss (h_em (v_h v))) (wl nc nf cs q) _ _ (fun _ _ _ => 0))
        by (try exact Hl; rewrite Et; assumption).
      rewrite Eps, stat_m, stat_c. unfold vg_stat. rewrite Em, Ev, andb_false_r. f_equal. f_equal.
      + destruct (has "m" ps || has "c" ps); apply fvec_ext; intros; [rewrite g_n_wsum; ring|reflexivity].
      + destruct (has "m" ps || has "c" ps); apply fmat_ext; intros; [rewrite g_x_wsum; ring|reflexivity].
      + destruct (has "c" ps); apply tab_ext; intros; apply fmat_ext; intros; [rewrite g_xx_wsum; ring|reflexivity].
    - assert (Ev : vec_type ty = true) by (destruct Hty as [->|[->|[->| ->]]]; first [reflexivity|discriminate]).
      rewrite (gauss_acc_all nc nf (stat_cfg (v_cfg v)) (Some nf) (vg_gauss (h_em (v_h v))) (wl nc nf cs q))
        by (try exact Hl; rewrite Et; assumption).
      rewrite Eps, stat_m, stat_c. unfold vg_stat. rewrite Em, Ev, andb_true_r. f_equal. f_equal.
      + destruct (has "m" ps || has "c" ps); apply fvec_ext; intros; [rewrite g_n_wsum; ring|reflexivity].
      + destruct (has "m" ps || has "c" ps); apply fmat_ext; intros; [rewrite g_x_wsum; ring|reflexivity].
      + destruct (has "c" ps); apply fmat_ext; intros; [rewrite g_xx_wsum; rewrite Rplus_0_l; reflexivity|reflexivity].
  Qed.

  (** ** The update. *)
  Lemma mzip_fmat op h r c f g : (forall a b, op (Fin a) (Fin b) = Fin (h a b)) ->
    mzip op (fmat r c f) (fmat r c g) = fmat r c (fun i j => h (f i j) (g i j)).
  Proof.
    intros H. unfold mzip. rewrite nrow_fmat, ncol_fmat. apply mtab_ext. intros i j Hi Hj.
    rewrite !mget_fmat by assumption. apply H.
  Qed.
  Lemma zip3_ok op h (f g : nat -> nat -> nat -> R) : (forall a b, op (Fin a) (Fin b) = Fin (h a b)) ->
    zip3 op nc (tab nc (fun i => fmat nf nf (f i))) (tab nc (fun i => fmat nf nf (g i)))
    = tab nc (fun i => fmat nf nf (fun k l => h (f i k l) (g i k l))).
  Proof. intros H. unfold zip3. apply tab_ext. intros i Hi. rewrite !tab_nth by exact Hi. apply mzip_fmat, H. Qed.
  Lemma ein3_ok b m : ein3 exact nc (fvec nc b) (fmat nc nf m) = tab nc (fun i => fmat nf nf (fun k l => b i * m i k * m i l)).
  Proof.
    unfold ein3. rewrite ncol_fmat. apply tab_ext. intros i Hi. apply mtab_ext. intros k l Hk Hl.
    rewrite vget_fvec, !mget_fmat by assumption. rewrite !xmulE. reflexivity.
  Qed.
  Lemma ein2_ok b m : ein2 exact nc (fvec nc b) (fmat nc nf m) = fmat nc nf (fun i k => b i * m i k * m i k).
  Proof.
    unfold ein2. rewrite ncol_fmat. apply mtab_ext. intros i k Hi Hk.
    rewrite vget_fvec, !mget_fmat by assumption. rewrite !xmulE. reflexivity.
  Qed.
  Lemma sum_stack_ok (f : nat -> nat -> nat -> R) :
    sum_stack exact nf (tab nc (fun i => fmat nf nf (f i))) = fmat nf nf (fun k l => sumn nc (fun i => f i k l)).
  Proof.
    unfold sum_stack. apply mtab_ext. intros k l Hk Hl. rewrite tab_map.
    rewrite (tab_ext nc _ (fun i => Fin (f i k l))) by (intros; apply mget_fmat; assumption). apply xsum_fvec.
  Qed.

  Variable params : string.
  Variable p : gdirs.
  Hypothesis Hp : gvalid ty nc nf p.
  Notation next := (vg_next ty nc nf cs params p).

  Definition vg_em_next (e : vgp) (q : gdirs) : vgp :=
    let q' := next q in
    Vgp (vg_type e) (vg_marg e) (vg_barg e) (vg_darg e) (vg_sarg e) (vg_m0 e) (Some (fmat nc nf (g_m q')))
      (vg_b0 e) (Some (fvec nc (g_b q'))) (vg_d0 e) (Some (dof_attr ty nc (g_d q'))) (vg_s0 e) (Some (mats_attr ty nc nf (g_S q')))
      (if has "c" params then Some (mats_attr ty nc nf (fun i k l => g_S q' i k l / g_d q' i)) else vg_cov e).

  Lemma next_dof q i : has "c" params = true -> (i < nc)%nat -> 0 < g_d (next q) i.
  Proof.
    intros Hc Hi. unfold vg_next. cbn [g_d]. rewrite Hc.
    pose proof (gv_d _ _ _ _ Hp i Hi). assert (1 <= INR nf) by (apply (le_INR 1); lia).
    assert (0 <= g_n nc nf cs q i) by (apply (g_n_nonneg nc nf cs Hnc vg_cs); exact Hi).
    assert (0 <= sumn nc (g_n nc nf cs q)) by (apply sumn_nonneg; intros; apply (g_n_nonneg nc nf cs Hnc vg_cs); assumption).
    destruct (String.eqb ty "tied"); lra.
  Qed.

  Lemma vg_scale_ok q : has "c" params = true ->
    let q' := next q in
    vg_scale_upd exact ty nc nf (fvec nc (g_b p)) (fmat nc nf (g_m p)) (fvec nc (g_b q')) (fmat nc nf (g_m q'))
      (dof_attr ty nc (g_d p)) (mats_attr ty nc nf (g_S p)) (vg_stat params q)
    = Ok (dof_attr ty nc (g_d q'), mats_attr ty nc nf (g_S q'), mats_attr ty nc nf (fun i k l => g_S q' i k l / g_d q' i)).
  Proof.
    intros Hc q'. pose proof (fun i => next_dof q i Hc) as Hdp. fold q' in Hdp.
    assert (Emc : has "m" params || has "c" params = true) by (rewrite Hc; apply orb_true_r).
    unfold vg_scale_upd, vg_stat, dof_attr, mats_attr. rewrite Emc, Hc.
    destruct Hty as [Et|[Et|[Et|Et]]]; rewrite Et; cbn [String.eqb Ascii.eqb Bool.eqb vec_of num_of cv1 cv2 cv3 bind gs_post gs_obs2 gs_obsT andb];
      [change (mat_type "full") with true|change (mat_type "tied") with true
      |change (vec_type "diag") with true|change (vec_type "spherical") with true]; cbn [andb].
    - rewrite vadd_fvec, !ein3_ok, !(zip3_ok (xadd exact) Rplus) by reflexivity. rewrite (zip3_ok (xsub exact) Rminus) by reflexivity.
      assert (ED : fvec nc (fun i => g_d p i + g_n nc nf cs q i) = fvec nc (g_d q')).
      { apply fvec_ext. intros i Hi. unfold q', vg_next. cbn [g_d]. rewrite Hc, Et. reflexivity. }
      assert (ES : tab nc (fun i => fmat nf nf (fun k l => g_S p i k l + g_xx nc nf cs q i k l + g_b p i * g_m p i k * g_m p i l
                     - g_b q' i * g_m q' i k * g_m q' i l)) = tab nc (fun i => fmat nf nf (g_S q' i))).
      { apply tab_ext. intros i Hi. apply fmat_ext. intros k l Hk Hl. unfold q', vg_next. cbn [g_S g_b g_m]. rewrite Hc, Et.
        cbn [String.eqb Ascii.eqb Bool.eqb]. unfold keep. cbn [String.eqb Ascii.eqb Bool.eqb]. unfold new_K. ring. }
      rewrite ED, ES. f_equal. f_equal. f_equal. apply tab_ext. intros i Hi. rewrite tab_nth, vget_fvec by exact Hi.
      apply (mmap_fmat _ (fun r => r / g_d q' i)). intros k l Hk Hl. apply xdivE. specialize (Hdp i Hi). lra.
    - rewrite xsum_fvec, xaddE, !ein3_ok, !sum_stack_ok. rewrite !(mzip_fmat (xadd exact) Rplus), (mzip_fmat (xsub exact) Rminus) by reflexivity.
      assert (ED : g_d p 0%nat + sumn nc (fun i => g_n nc nf cs q i) = g_d q' 0%nat).
      { unfold q', vg_next. cbn [g_d]. rewrite Hc, Et. reflexivity. }
      rewrite ED.
      match goal with |- Ok (_, CV2 (fmat nf nf ?f), _) = _ => assert (ES : fmat nf nf f = fmat nf nf (g_S q' 0%nat)) end.
      { apply fmat_ext. intros k l Hk Hl. unfold q', vg_next. cbn [g_S g_b g_m]. rewrite Hc, Et.
        cbn [String.eqb Ascii.eqb Bool.eqb]. unfold new_K. rewrite sumn_minus, sumn_plus.
        rewrite (sumn_ext nc (fun i => g_b p i * g_m p i k * g_m p i l) (fun i => g_b p i * (g_m p i k * g_m p i l))) by (intros; ring).
        rewrite (sumn_ext nc (fun i => _ * _ * new_m nc nf cs params p q i l)
                   (fun i => new_b nc nf cs params p q i * (new_m nc nf cs params p q i k * new_m nc nf cs params p q i l))) by (intros; ring).
        ring. }
      rewrite ES. f_equal. f_equal. f_equal.
      apply (mmap_fmat _ (fun r => r / g_d q' 0%nat)). intros k l Hk Hl. apply xdivE. specialize (Hdp 0%nat Hnc). lra.
    - rewrite vadd_fvec, !ein2_ok, !(mzip_fmat (xadd exact) Rplus), (mzip_fmat (xsub exact) Rminus) by reflexivity.
      assert (ED : fvec nc (fun i => g_d p i + g_n nc nf cs q i) = fvec nc (g_d q')).
      { apply fvec_ext. intros i Hi. unfold q', vg_next. cbn [g_d]. rewrite Hc, Et. reflexivity. }
      rewrite ED.
      match goal with |- Ok (_, CV2 (fmat nc nf ?f), _) = _ => assert (ES : fmat nc nf f = fmat nc nf (fun i k => g_S q' i k k)) end.
      { apply fmat_ext. intros i k Hi Hk. unfold q', vg_next. cbn [g_S g_b g_m]. rewrite Hc, Et.
        cbn [String.eqb Ascii.eqb Bool.eqb]. unfold keep. cbn [String.eqb Ascii.eqb Bool.eqb]. rewrite Nat.eqb_refl. unfold new_K. ring. }
      rewrite ES. f_equal. f_equal. f_equal. apply mtab_ext. intros i k Hi Hk. rewrite mget_fmat, vget_fvec by assumption.
      apply xdivE. specialize (Hdp i Hi). lra.
    - rewrite vadd_fvec, !ein2_ok, !(mzip_fmat (xadd exact) Rplus), (mzip_fmat (xsub exact) Rminus) by reflexivity.
      assert (ED : fvec nc (fun i => g_d p i + g_n nc nf cs q i) = fvec nc (g_d q')).
      { apply fvec_ext. intros i Hi. unfold q', vg_next. cbn [g_d]. rewrite Hc, Et. reflexivity. }
      rewrite ED.
      match goal with |- Ok (_, CV1 ?f, _) = _ => assert (ES : f = fvec nc (fun i => g_S q' i 0%nat 0%nat)) end.
      { apply tab_ext. intros i Hi. rewrite rows_nth_fmat, vget_fvec, xsum_fvec by exact Hi.
        assert (0 < INR nf) by (apply lt_0_INR; exact Hnf). rewrite xdivE, xaddE by lra. f_equal.
        unfold q', vg_next. cbn [g_S g_b g_m]. rewrite Hc, Et.
        cbn [String.eqb Ascii.eqb Bool.eqb]. unfold keep. cbn [String.eqb Ascii.eqb Bool.eqb Nat.eqb]. f_equal. f_equal.
        apply sumn_ext. intros f Hf. unfold new_K. ring. }
      rewrite ES. f_equal. f_equal. f_equal. apply tab_ext. intros i Hi. rewrite !vget_fvec by assumption.
      apply xdivE. specialize (Hdp i Hi). lra.
  Qed.

  Lemma vg_mstep_ok v q : vg_holds ty nc nf v p q -> c_params (v_cfg v) = params ->
    vg_mstep exact (v_cfg v) (h_nfeat (v_h v)) (h_em (v_h v)) (vg_stat params q) = Ok (vg_em_next (h_em (v_h v)) q).
  Proof.
    intros HV Eps. unfold vg_mstep. rewrite Eps, (vgh_nf _ _ _ _ _ _ HV), (vb_nc _ _ _ _ _ _ (vgh_base _ _ _ _ _ _ HV)).
    rewrite (vgh_b0 _ _ _ _ _ _ HV), (vgh_m0 _ _ _ _ _ _ HV), (vgh_b _ _ _ _ _ _ HV), (vgh_m _ _ _ _ _ _ HV). cbn [attr bind as_mat].
    set (q' := next q).
    assert (E1 : (if has "m" params
                  then let '(b, m) := vg_means_upd exact (v_cfg v) (fvec nc (g_b p)) (fmat nc nf (g_m p)) (vg_stat params q) in Ok (Some b, Some m)
                  else Ok (Some (fvec nc (g_b q)), Some (fmat nc nf (g_m q)))) = Ok (Some (fvec nc (g_b q')), Some (fmat nc nf (g_m q')))).
    { unfold q', vg_next. cbn [g_b g_m]. unfold new_b, new_m. destruct (has "m" params) eqn:Hm.
      - unfold vg_means_upd, vg_stat. rewrite Hm. cbn [orb gs_post gs_obs]. rewrite vadd_fvec, ncol_fmat, (vb_nc _ _ _ _ _ _ (vgh_base _ _ _ _ _ _ HV)).
        f_equal. f_equal. f_equal. apply mtab_ext. intros i f Hi Hf. rewrite !vget_fvec, !mget_fmat by assumption.
        rewrite xmulE, xaddE, xdivE; [reflexivity|].
        pose proof (gv_b _ _ _ _ Hp i Hi). pose proof (g_n_nonneg nc nf cs Hnc vg_cs q i Hi). lra.
      - reflexivity. }
    rewrite E1. cbn [bind attr]. rewrite (vgh_type _ _ _ _ _ _ HV).
    assert (Tk : is_type covariance_types ty = true) by (destruct Hty as [->|[->|[->| ->]]]; reflexivity).
    rewrite Tk, andb_true_r, (vgh_d0 _ _ _ _ _ _ HV), (vgh_s0 _ _ _ _ _ _ HV), (vgh_d _ _ _ _ _ _ HV), (vgh_s _ _ _ _ _ _ HV). cbn [attr bind].
    unfold vg_em_next. rewrite (vgh_type _ _ _ _ _ _ HV), (vgh_d0 _ _ _ _ _ _ HV), (vgh_s0 _ _ _ _ _ _ HV), (vgh_b0 _ _ _ _ _ _ HV), (vgh_m0 _ _ _ _ _ _ HV).
    fold q'. destruct (has "c" params) eqn:Hc.
    - pose proof (vg_scale_ok q Hc) as E. cbv zeta in E. fold q' in E. rewrite E. reflexivity.
    - cbn [bind]. unfold q', vg_next. cbn [g_d g_S]. rewrite Hc. reflexivity.
  Qed.

  (** ** The lower bound. *)
  Lemma inv_scaled B c d : pos_def nf B -> 0 < c -> 0 < d ->
    la_inv la exact (mmap (xmul exact (Fin c)) (mmap (fun a => xmul exact a (Fin d)) (fmat nf nf (minv nf B))))
    = Ok (fmat nf nf (fun k l => B k l / (c * d))).
  Proof.
    intros PD Hc Hd0. pose proof (minv_ok nf B PD) as IV. pose proof (inverse_pd nf B _ PD IV) as PI.
    assert (Hcd : 0 < c * d) by (apply Rmult_lt_0_compat; assumption).
    rewrite (mmap_fmat _ (fun a => a * d)) by (intros; apply xmulE).
    rewrite (mmap_fmat _ (fun a => c * a)) by (intros; apply xmulE).
    rewrite (fmat_ext nf nf _ (fun k l => (c * d) * minv nf B k l)) by (intros; ring).
    rewrite (la_invE la nf _ (fun k l => / (c * d) * B k l) Hla).
    - f_equal. apply fmat_ext. intros; field. split; lra.
    - apply pd_scal; assumption.
    - apply inverse_scal; [lra|]. apply inverse_comm; assumption.
  Qed.

  Lemma kln_ok q i : gvalid ty nc nf q -> (i < nc)%nat ->
    vg_kln la exact nf (fmat nf nf (minv nf (g_S q i))) (Fin (g_d q i)) (Fin (g_b q i)) (Fin (g_b p i)) (fvec nf (g_m q i)) (fvec nf (g_m p i))
    = Ok (Fin (kl_mean nf p q i)).
  Proof.
    intros Hq Hi. pose proof (gv_S _ _ _ _ Hq i Hi) as PD. pose proof (gv_b _ _ _ _ Hq i Hi) as Hb. pose proof (gv_b _ _ _ _ Hp i Hi) as Hb0.
    pose proof (dof_pos0 ty nc nf Hnc Hnf q i Hq Hi) as Hd0.
    unfold vg_kln. rewrite !inv_scaled by assumption. cbn [bind]. unfold kl_mean.
    assert (S : forall c, 0 < c -> pos_def nf (fun k l => g_S q i k l / (c * g_d q i))).
    { intros c Hc. assert (Hcd : 0 < c * g_d q i) by (apply Rmult_lt_0_compat; assumption).
      apply (pos_def_ext nf (fun k l => / (c * g_d q i) * g_S q i k l)); [intros; field; lra|].
      apply pd_scal; [apply Rinv_0_lt_compat, Hcd|exact PD]. }
    apply kl_mvn_ok; try assumption; try (apply S; assumption).
    assert (Hcd : 0 < g_b p i * g_d q i) by (apply Rmult_lt_0_compat; assumption).
    apply (inverse_ext nf (fun k l => / (g_b p i * g_d q i) * g_S q i k l)); [intros; field; lra|].
    pose proof (inverse_scal nf (/ (g_b p i * g_d q i)) (g_S q i) (minv nf (g_S q i)) ltac:(apply Rinv_neq_0_compat; lra) (minv_ok nf _ PD)) as E.
    rewrite Rinv_inv in E. exact E.
  Qed.

  Lemma fold_pairs (f g : nat -> R) n :
    fold_left (fun a '(kln, klw) => xsub exact (xsub exact a kln) klw) (map (fun i => (Fin (f i), Fin (g i))) (seq 0 n)) (Fin 0)
    = Fin (- sumn n f - sumn n g).
  Proof.
    induction n as [|n IH]; [simpl; f_equal; ring|]. rewrite seq_S, map_app, fold_left_app, IH. cbn [map fold_left].
    rewrite !xsubE. f_equal. simpl. ring.
  Qed.

  Lemma vg_bound_ok v q lb : vg_holds ty nc nf v p q -> gvalid ty nc nf q ->
    vg_bound la exact (v_cfg v) (h_nfeat (v_h v)) (h_em (v_h v)) (Fin lb)
    = Ok (Fin (lb - sumn nc (kl_mean nf p q) - (if String.eqb ty "tied" then kl_prec nf p q 0 else sumn nc (kl_prec nf p q)))).
  Proof.
    intros HV Hq. unfold vg_bound.
    rewrite (vgh_nf _ _ _ _ _ _ HV), (vb_nc _ _ _ _ _ _ (vgh_base _ _ _ _ _ _ HV)), (vgh_b0 _ _ _ _ _ _ HV), (vgh_m0 _ _ _ _ _ _ HV),
      (vgh_b _ _ _ _ _ _ HV), (vgh_m _ _ _ _ _ _ HV), (vgh_d0 _ _ _ _ _ _ HV), (vgh_s0 _ _ _ _ _ _ HV), (vgh_d _ _ _ _ _ _ HV), (vgh_s _ _ _ _ _ _ HV),
      (vgh_type _ _ _ _ _ _ HV). cbn [attr bind as_mat].
    rewrite (fill_valid q Hq), (fill_valid p Hp). cbn [bind]. rewrite mapM_inv by apply Hq. cbn [bind].
    set (kp := fun i => if String.eqb ty "tied" && negb (Nat.eqb i 0) then 0 else kl_prec nf p q i).
    rewrite (mapM_ok _ (fun i => (Fin (kl_mean nf p q i), Fin (kp i)))).
    - cbn [bind]. rewrite fold_pairs, xaddE. f_equal. f_equal.
      assert (E : sumn nc kp = if String.eqb ty "tied" then kl_prec nf p q 0 else sumn nc (kl_prec nf p q)).
      { unfold kp. destruct (String.eqb ty "tied"); cbn [andb].
        - rewrite (sumn_ext nc _ (fun i => if Nat.eqb i 0 then kl_prec nf p q i else 0)) by (intros i _; destruct (Nat.eqb i 0); reflexivity).
          apply (sumn_if_eq nc (kl_prec nf p q) 0 Hnc).
        - reflexivity. }
      rewrite E. ring.
    - intros i Hi. apply in_seq in Hi. rewrite !tab_nth by lia. rewrite !dof_at_ok by (assumption || lia). rewrite !vget_fvec, !rows_nth_fmat by lia.
      rewrite kln_ok by (assumption || lia). cbn [bind]. unfold kp.
      destruct (String.eqb ty "tied" && negb (Nat.eqb i 0)); [reflexivity|].
      rewrite (kl_wishart_ok la nf (g_d q i) (g_S q i) (minv nf (g_S q i))); try assumption.
      + reflexivity.
      + apply Hq. lia.
      + apply minv_ok. apply Hq. lia.
      + apply Hp. lia.
      + apply Hq. lia.
      + apply Hp. lia.
  Qed.

  (** ** One iteration. *)
  Definition vg_step_to (v : vhmm vgp) (q : gdirs) : vhmm vgp :=
    vnext nc v (g_s (next q)) (g_t (next q)) (vg_em_next (h_em (v_h v)) q).

  Section One.
    Variables (v : vhmm vgp) (q : gdirs).
    Hypothesis HV : vg_holds ty nc nf v p q.
    Hypothesis Hq : gvalid ty nc nf q.
    Hypothesis Eps : c_params (v_cfg v) = params.
    Notation e := (h_em (v_h v)).
    Let HB := vgh_base _ _ _ _ _ _ HV.
    Notation h' := (Hmm (v_cfg v) (h_nfeat (v_h v)) (Some (fvec nc (sub1 nc (g_s q))))
                      (Some (fmat nc nc (fun i => sub1 nc (g_t q i)))) (h_mon (v_h v)) e).

    Lemma vg_em' : emits (sub_em (vgaussian la)) h' nc (finite_row nf) (vg_w nf q).
    Proof. apply (vg_emits v p q); try assumption; reflexivity. Qed.
    Lemma vg_beg : vc_begin (vgaussian la) exact (v_cfg v) (h_nfeat (v_h v)) e = Ok e.
    Proof. reflexivity. Qed.

    Lemma vg_step_holds : vg_holds ty nc nf (vg_step_to v q) p (next q).
    Proof.
      pose proof (vnext_base nc (finite_row nf) ls x Hnc Hd v _ _ _ _ HB (vg_w nf q) (vg_w_pos nc nf q) (vg_em_next e q)) as NB.
      unfold next_s, next_t in NB. rewrite Eps in NB.
      destruct HV as [B1 B2 B3 B4 B5 B6 B7 B8 B9 B10 B11 B12]. constructor; try assumption; try reflexivity.
    Qed.

    Notation weights c0 := (scorable nc (gw_s nc q) (gw_t nc q) (vg_w nf q) (c_impl (v_cfg v)) c0).
    Lemma vg_step_ok : (forall c0, In c0 cs -> weights c0) ->
      vb_step (vgaussian la) exact x (as_lengths ls) v = Ok (vg_step_to v q, Fin (vg_elbo ty nc nf cs p q)).
    Proof.
      intros Hs.
      rewrite (vb_step_gen (vgaussian la) nc (finite_row nf) ls x Hnc Hd v _ _ _ _ HB e (vg_w nf q) vg_beg vg_em'
               (vg_w_pos nc nf q) (vg_stat params q) (vg_em_next e q) (Fin (vg_elbo ty nc nf cs p q)) Hs).
      - unfold next_s, next_t. rewrite Eps. reflexivity.
      - rewrite <- Eps. apply (vg_acc_ok v p q HV).
      - apply vg_mstep_ok; assumption.
      - cbn [vc_bound vgaussian]. rewrite (vg_bound_ok v q _ HV Hq). reflexivity.
    Qed.

    Lemma vg_step_inv r : vb_step (vgaussian la) exact x (as_lengths ls) v = Ok r ->
      r = (vg_step_to v q, Fin (vg_elbo ty nc nf cs p q)) /\ (forall c0, In c0 cs -> weights c0).
    Proof.
      intros H.
      assert (Hs : forall c0, In c0 cs -> weights c0).
      { pose proof H as H1. unfold vb_step in H1.
        destruct (vestep (vgaussian la) exact x (as_lengths ls) v) as [r1|] eqn:E1; [|discriminate].
        apply (vestep_scorable (vgaussian la) nc (finite_row nf) ls x Hnc Hd v _ _ _ _ HB e (vg_w nf q) vg_beg vg_em'
                 (vg_w_pos nc nf q) r1 E1). }
      split; [|exact Hs]. rewrite (vg_step_ok Hs) in H. injection H as <-. reflexivity.
    Qed.

    Lemma vg_step_log : c_impl (v_cfg v) = "log"%string ->
      vb_step (vgaussian la) exact x (as_lengths ls) v = Ok (vg_step_to v q, Fin (vg_elbo ty nc nf cs p q)).
    Proof.
      intros Hi. apply vg_step_ok. intros c0 Hc0. left. split; [exact Hi|].
      apply (lik_pos (finite_row nf) nc cs Hnc vg_cs); try assumption;
        [apply gw_s_pos|apply gw_t_pos|apply (vg_w_pos nc nf q)].
    Qed.
  End One.

  (** ** Whole runs. *)
  Hypothesis Hmc : has "m" params = true \/ has "c" params = false.
  Definition vg_traj (q : gdirs) (j : nat) : gdirs := Nat.iter j next q.
  Lemma vg_traj_valid q j : gvalid ty nc nf q -> gvalid ty nc nf (vg_traj q j).
  Proof. intros Hq. induction j as [|j IH]; [exact Hq|]. apply (vg_next_valid ty nc nf cs Hnc Hnf vg_cs); assumption. Qed.

  Lemma vg_iterate n : forall v q v' vs, vg_holds ty nc nf v p q -> gvalid ty nc nf q -> c_params (v_cfg v) = params ->
    iterate (vb_step (vgaussian la) exact x (as_lengths ls)) n v = Ok (v', vs) ->
    vg_holds ty nc nf v' p (vg_traj q n)
    /\ v_cfg v' = v_cfg v
    /\ length vs = n
    /\ (forall j, (j < n)%nat -> nth j vs NaN = Fin (vg_elbo ty nc nf cs p (vg_traj q j)))
    /\ h_start (v_h v') = keeps_or (has "s" params) n (Some (fvec nc (mean1 nc (g_s (vg_traj q n))))) (h_start (v_h v))
    /\ h_trans (v_h v') = keeps_or (has "t" params) n (Some (fmat nc nc (fun i => mean1 nc (g_t (vg_traj q n) i)))) (h_trans (v_h v))
    /\ vg_cov (h_em (v_h v')) = keeps_or (has "c" params) n
         (Some (mats_attr ty nc nf (fun i k l => g_S (vg_traj q n) i k l / g_d (vg_traj q n) i))) (vg_cov (h_em (v_h v))).
  Proof.
    induction n as [|n IH]; intros v q v' vs HV Hq Eps H.
    - cbn [iterate] in H. injection H as <- <-. repeat split; try reflexivity; try apply HV. intros j Hj; lia.
    - rewrite iterate_S in H.
      destruct (vb_step (vgaussian la) exact x (as_lengths ls) v) as [[v1 u]|] eqn:Es; [|discriminate]. cbn [bind] in H.
      destruct (iterate _ n v1) as [[v2 us]|] eqn:Ei; [|discriminate]. injection H as <- <-.
      destruct (vg_step_inv v q HV Hq Eps _ Es) as [E _]. injection E as -> ->.
      pose proof (vg_step_holds v q HV Eps) as HV1.
      pose proof (vg_next_valid ty nc nf cs Hnc Hnf vg_cs params p Hp Hmc q Hq) as Hq1.
      destruct (IH _ _ _ _ HV1 Hq1 Eps Ei) as (I1 & I2 & I3 & I4 & I5 & I6 & I7).
      assert (Et : forall j, vg_traj (next q) j = vg_traj q (S j)).
      { intros j. unfold vg_traj. rewrite iter_comm. reflexivity. }
      rewrite Et in *.
      split; [exact I1|]. split; [exact I2|]. split; [simpl; lia|]. split.
      { intros [|j] Hj; [reflexivity|]. cbn [nth]. rewrite I4 by lia. rewrite Et. reflexivity. }
      split; [|split].
      + rewrite I5. unfold keeps_or. destruct n; [|destruct (has "s" params) eqn:E; [reflexivity|]];
          unfold vg_step_to, vnext; cbn [v_h h_start]; rewrite Eps; destruct (has "s" params); first [reflexivity|discriminate].
      + rewrite I6. unfold keeps_or. destruct n; [|destruct (has "t" params) eqn:E; [reflexivity|]];
          unfold vg_step_to, vnext; cbn [v_h h_trans]; rewrite Eps; destruct (has "t" params); first [reflexivity|discriminate].
      + rewrite I7. unfold keeps_or. destruct n; [|destruct (has "c" params) eqn:E; [reflexivity|]];
          unfold vg_step_to, vnext; cbn [v_h h_em vg_em_next vg_cov]; destruct (has "c" params); first [reflexivity|discriminate].
  Qed.
End Vg.
