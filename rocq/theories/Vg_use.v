(** * Property lemmas C69: using a trained VariationalGaussianHMM. *)
From Verif Require Export Vg_thms Vcat_use Full_fit Gauss_thms.

Lemma pd_psd n M : pos_def n M -> pos_semidef n M.
Proof.
  intros [Hs Hp]. split; [exact Hs|]. intros v.
  assert (D : (exists i, (i < n)%nat /\ v i <> 0) \/ forall i, (i < n)%nat -> v i = 0).
  { clear. induction n as [|n [(i & Hi & Hv)|IH]]; [right; intros; lia|left; exists i; split; [lia|exact Hv]|].
    destruct (Req_dec (v n) 0) as [E|E]; [right|left; exists n; split; [lia|exact E]].
    intros i Hi. destruct (Nat.eq_dec i n) as [->|]; [exact E|apply IH; lia]. }
  destruct D as [D|D]; [apply Rlt_le, Hp, D|]. right. symmetry. unfold quad. apply sumn_zero. intros i Hi. apply sumn_zero. intros j Hj.
  rewrite (D i Hi). ring.
Qed.

(** The GaussianHMM with the same initial distribution, transitions,
    [means_ = means_posterior_] and [covars_]. *)
Definition vg_point (v : vhmm vgp) : hmm gaussp :=
  let h := v_h v in Hmm (h_cfg h) (h_nfeat h) (h_start h) (h_trans h) (h_mon h) (vg_gauss (h_em h)).

Section Point.
  Variables (la : linalg) (ty : string) (v : vhmm vgp) (nc nf : nat) (p q : gdirs) (s : nat -> R) (t : nat -> nat -> R).
  Hypothesis Hnc : (0 < nc)%nat.
  Hypothesis HV : vg_holds ty nc nf v p q.
  Hypothesis Hs : h_start (v_h v) = Some (fvec nc s).
  Hypothesis Ht : h_trans (v_h v) = Some (fmat nc nc t).
  Hypothesis Ss : stochastic1 nc s.
  Hypothesis St : stochastic2 nc nc t.

  Lemma vgp_base : base_ok (vg_point v) nc s t.
  Proof.
    constructor; cbn [vg_point h_cfg h_start h_trans]; try assumption.
    - apply (vb_nc _ _ _ _ _ _ (vgh_base _ _ _ _ _ _ HV)).
    - apply Ss.
    - rewrite (proj2 Ss). apply near1_1.
    - intros i j Hi Hj. apply (St i Hi); exact Hj.
    - intros i Hi. rewrite (proj2 (St i Hi)). apply near1_1.
  Qed.
  Lemma vgp_check : fitted_check gaussian exact (vg_point v) = Ok (vg_point v, fvec nc s, fmat nc nc t).
  Proof.
    unfold fitted_check. change (h_start (vg_point v)) with (h_start (v_h v)). rewrite Hs.
    assert (E : check gaussian exact (vg_point v) = Ok (vg_point v)).
    { unfold check. change (h_start (vg_point v)) with (h_start (v_h v)). change (h_trans (vg_point v)) with (h_trans (v_h v)).
      rewrite Hs, Ht. pose proof vgp_base as [B1 B2 B3 B4 B5 B6 B7 B8].
      rewrite B1, base_check_ok by assumption. cbn [bind ec_check gaussian].
      change (h_em (vg_point v)) with (vg_gauss (h_em (v_h v))).
      rewrite (gauss_check_ok _ _ _ nc nf (g_m q)).
      - cbn [bind]. f_equal. unfold vg_point. rewrite <- Hs, <- Ht, <- (vgh_nf _ _ _ _ _ _ HV). reflexivity.
      - exact (vgh_m _ _ _ _ _ _ HV).
      - cbn [vg_gauss ga_type]. rewrite (vgh_type _ _ _ _ _ _ HV).
        destruct (vgh_known _ _ _ _ _ _ HV) as [->|[->|[->| ->]]]; reflexivity. }
    rewrite E. cbn [bind]. unfold vg_point. cbn [h_start h_trans]. rewrite Hs, Ht. reflexivity.
  Qed.
  Lemma vgp_loglik x : loglik (vc_em (vgaussian la)) exact (v_h v) x = loglik gaussian exact (vg_point v) x.
  Proof.
    unfold loglik. cbn [vc_em vgaussian ec_loglik gaussian]. unfold vg_loglik.
    rewrite (vgh_m _ _ _ _ _ _ HV). reflexivity.
  Qed.
  Lemma vgp_lik x : lik (vc_em (vgaussian la)) exact (v_h v) x = lik gaussian exact (vg_point v) x.
  Proof.
    unfold lik. cbn [vc_em vgaussian ec_lik gaussian]. unfold vg_loglik, gauss_lik.
    rewrite (vgh_m _ _ _ _ _ _ HV). reflexivity.
  Qed.
  Lemma vgp_vcheck : vcheck (vgaussian la) exact v = Ok v.
  Proof. apply (vg_check_ok la ty nc nf v p q HV). Qed.

  Lemma vgp_score x lengths post :
    vscore_ (vgaussian la) exact v x lengths post = score_ gaussian exact (vg_point v) x lengths post.
  Proof.
    unfold vscore_, score_, vfitted. rewrite Hs, vgp_vcheck, vgp_check. cbn [bind].
    change (ec_xok (vc_em (vgaussian la))) with (ec_xok gaussian).
    destruct (check_array (ec_xok gaussian) x) as [x'|]; [|reflexivity]. cbn [bind].
    change (h_cfg (vg_point v)) with (h_cfg (v_h v)).
    unfold vseq. rewrite Ht.
    assert (E1 : forall c, score_scaling_seq (vc_em (vgaussian la)) exact (v_h v) (fvec nc s) (fmat nc nc t) post c
                = score_scaling_seq gaussian exact (vg_point v) (fvec nc s) (fmat nc nc t) post c)
      by (intros c; unfold score_scaling_seq; rewrite vgp_lik; reflexivity).
    assert (E2 : forall c, score_log_seq (vc_em (vgaussian la)) exact (v_h v) (fvec nc s) (fmat nc nc t) post c
                = score_log_seq gaussian exact (vg_point v) (fvec nc s) (fmat nc nc t) post c)
      by (intros c; unfold score_log_seq; rewrite vgp_loglik; reflexivity).
    destruct (String.eqb _ "scaling"); [|destruct (String.eqb _ "log"); [|reflexivity]]; cbn [bind];
      destruct (split_X_lengths x' lengths) as [xs|]; [|reflexivity| |reflexivity]; cbn [bind].
    - rewrite (acc_seqs_ext exact _ _ xs E1). reflexivity.
    - rewrite (acc_seqs_ext exact _ _ xs E2). reflexivity.
  Qed.

  Lemma vgp_decode x lengths alg :
    vdecode (vgaussian la) exact v x lengths alg = decode gaussian exact (vg_point v) x lengths alg.
  Proof.
    unfold vdecode, decode, vfitted. rewrite Hs, vgp_vcheck, vgp_check. cbn [bind].
    change (ec_xok (vc_em (vgaussian la))) with (ec_xok gaussian).
    change (h_cfg (vg_point v)) with (h_cfg (v_h v)).
    set (a := match alg with Some a => if String.eqb a "" then c_algorithm (h_cfg (v_h v)) else a | None => c_algorithm (h_cfg (v_h v)) end).
    unfold vseq. rewrite Ht.
    assert (E1 : forall c, decode_viterbi (vc_em (vgaussian la)) exact (v_h v) (fvec nc s) (fmat nc nc t) c
                = decode_viterbi gaussian exact (vg_point v) (fvec nc s) (fmat nc nc t) c)
      by (intros c; unfold decode_viterbi; rewrite vgp_loglik; reflexivity).
    assert (E2 : forall c, (do (_, post) <- vscore_samples (vgaussian la) exact v c None;
                               Ok (xsum exact (map np_max (rows post)), map np_argmax (rows post)))
                = decode_map gaussian exact (vg_point v) c).
    { intros c. unfold decode_map, vscore_samples, score_samples. rewrite vgp_score. reflexivity. }
    destruct (String.eqb a "viterbi"); [|destruct (String.eqb a "map"); [|reflexivity]]; cbn [bind];
      (destruct (check_array (ec_xok gaussian) x) as [x'|]; [|reflexivity]); cbn [bind];
      (destruct (split_X_lengths x' lengths) as [xs|]; [|reflexivity]); cbn [bind].
    - apply acc_seqs_ext, E1.
    - apply acc_seqs_ext, E2.
  Qed.
End Point.

Lemma C69_after_fit_l la ty nc nf v p q ls x v' ev : la_right la ->
  vg_model ty nc nf v p q -> good_data (finite_row nf) ls x ->
  has "s" (c_params (v_cfg v)) = true -> has "t" (c_params (v_cfg v)) = true ->
  has "m" (c_params (v_cfg v)) = true -> has "c" (c_params (v_cfg v)) = true ->
  (0 < c_n_iter (v_cfg v))%nat ->
  vfit_from (vgaussian la) exact v x (map Z.of_nat ls) = Ok (v', ev) ->
  exists s t mu Sg, stochastic1 nc s /\ stochastic2 nc nc t /\ (forall i, (i < nc)%nat -> pos_def nf (Sg i))
    /\ (if vec_type ty then gauss_model (vg_point v') nc nf s t mu (fun i f => Sg i f f)
        else full_model (vg_point v') nc nf s t mu Sg)
    /\ (forall y lengths post, vscore_ (vgaussian la) exact v' y lengths post = score_ gaussian exact (vg_point v') y lengths post)
    /\ (forall y lengths alg, vdecode (vgaussian la) exact v' y lengths alg = decode gaussian exact (vg_point v') y lengths alg).
Proof.
  intros Hla HM Hd Ps Pt Pm Pc Hit Hf.
  assert (HK : length (v_history v') <> 0%nat).
  { destruct (vfit_from_trace _ _ _ _ _ _ _ Hf) as (v1 & v2 & vs & Hc & _ & _ & _ & Hh & _ & Hstop).
    rewrite (vg_check_ok la ty nc nf v p q (vgm_holds _ _ _ _ _ _ HM)) in Hc. injection Hc as <-.
    rewrite Hh. destruct Hstop as [H|H].
    - rewrite H. lia.
    - destruct H as [_ H]. destruct vs; [contradiction|discriminate]. }
  destruct (C66_fit_l la ty nc nf v p q ls x v' ev Hla HM Hd (or_introl Pm) Hf) as (qs & _ & _ & _ & HM' & Hs' & Ht' & Hc').
  destruct (length (v_history v')) as [|K]; [contradiction|]. unfold keeps_or in *. rewrite Ps in Hs'. rewrite Pt in Ht'. rewrite Pc in Hc'.
  pose proof HM' as [M1 M2 M3 M4 M5]. set (q' := qs (S K)) in *. destruct M5 as [Q1 Q2 Q3 Q4 Q5 Q6 Q7].
  set (s := mean1 nc (g_s q')) in *. set (t := fun i => mean1 nc (g_t q' i)) in *.
  assert (Ss : stochastic1 nc s) by (apply mean_stochastic; assumption).
  assert (St : stochastic2 nc nc t) by (intros i Hi; apply mean_stochastic; [assumption|intros j Hj; apply Q2; assumption]).
  assert (HD : forall i, (i < nc)%nat -> 0 < g_d q' i).
  { intros i Hi. specialize (Q4 i Hi). assert (1 <= INR nf) by (apply (le_INR 1); lia). lra. }
  assert (HC : forall i, (i < nc)%nat -> pos_def nf (fun k l => g_S q' i k l / g_d q' i)).
  { intros i Hi. apply (pos_def_ext nf (fun k l => / g_d q' i * g_S q' i k l)); [intros; unfold Rdiv; ring|].
    apply pd_scal; [apply Rinv_0_lt_compat, HD, Hi|apply Q5, Hi]. }
  exists s, t, (g_m q'), (fun i k l => g_S q' i k l / g_d q' i).
  split; [exact Ss|]. split; [exact St|]. split; [exact HC|].
  pose proof (vgp_base ty v' nc nf p q' s t M1 M3 Hs' Ht' Ss St) as HB.
  split; [|split; intros; [apply (vgp_score la ty v' nc nf p q' s t)|apply (vgp_decode la ty v' nc nf p q' s t)]; assumption].
  pose proof (vgh_type _ _ _ _ _ _ M3) as Et. pose proof (vgh_m _ _ _ _ _ _ M3) as Em.
  destruct (vgh_known _ _ _ _ _ _ M3) as [Ety|[Ety|[Ety|Ety]]].
  - replace (vec_type ty) with false by (rewrite Ety; reflexivity).
    constructor; try assumption; [|intros i Hi; apply pd_psd, HC, Hi].
    eexists. split; [exact Hc'|]. cbn [vg_point vg_gauss h_em ga_type]. rewrite Et, Ety. constructor.
  - replace (vec_type ty) with false by (rewrite Ety; reflexivity).
    constructor; try assumption; [|intros i Hi; apply pd_psd, HC, Hi].
    eexists. split; [exact Hc'|]. cbn [vg_point vg_gauss h_em ga_type]. rewrite Et, Ety.
    apply (MTied nc nf (fun i k l => g_S q' i k l / g_d q' i)). intros i k l Hi Hk Hl.
    destruct (Q7 Ety i Hi) as [-> E]. rewrite E by assumption. reflexivity.
  - replace (vec_type ty) with true by (rewrite Ety; reflexivity).
    constructor; try assumption. eexists. split; [exact Hc'|]. cbn [vg_point vg_gauss h_em ga_type]. rewrite Et, Ety.
    apply (VDiag nc nf (fun i f => g_S q' i f f / g_d q' i)).
  - replace (vec_type ty) with true by (rewrite Ety; reflexivity).
    constructor; try assumption. eexists. split; [exact Hc'|]. cbn [vg_point vg_gauss h_em ga_type]. rewrite Et, Ety.
    apply (VSph1 nc nf (fun i f => g_S q' i f f / g_d q' i) (fun i => g_S q' i 0%nat 0%nat / g_d q' i)).
    intros i f Hi Hf'. f_equal. rewrite <- (Q6 i f f), <- (Q6 i 0%nat 0%nat) by (assumption || lia).
    unfold keep. rewrite Ety. cbn [String.eqb Ascii.eqb Bool.eqb]. rewrite !Nat.eqb_refl. reflexivity.
Qed.
