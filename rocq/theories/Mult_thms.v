(** * MultinomialHMM: properties C02, C14, C21, C25, C42. *)
From Verif Require Export Mult_proofs Poisson_thms.

(** A MultinomialHMM whose parameters pass validation and whose emission rows are
    distributions. *)
Record mult_model (h : hmm mulp) (nc nf : nat) (pi : nat -> R) (A e : nat -> nat -> R) : Prop := MultModel {
  mm_base : base_ok h nc pi A;
  mm_nf : h_nfeat h = None \/ h_nfeat h = Some nf;
  mm_pos : (0 < nf)%nat;
  mm_e : mu_prob (h_em h) = Some (fmat nc nf e);
  mm_stoch : stochastic2 nc nf e;
  mm_trials : mu_trials (h_em h) <> None }.

Lemma mult_check_ok c nfe p nc nf e : c_nc c = nc -> mu_prob p = Some (fmat nc nf e) -> mu_trials p <> None ->
  nfe = None \/ nfe = Some nf -> mult_check exact c nfe p = Ok (Some nf, p).
Proof.
  intros Hc Hp Ht Hn. unfold mult_check. rewrite Hp, nrow_fmat, ncol_fmat, Hc.
  destruct (mu_trials p); [|contradiction].
  destruct Hn as [-> | ->]; rewrite !Nat.eqb_refl; reflexivity.
Qed.

Lemma mult_ready h nc nf pi A e : mult_model h nc nf pi A e ->
  ready multinomial h nc pi A (counts_ok nf) (mult_b nf e).
Proof.
  intros [Hb Hn Hp He Hs Ht]. apply (base_ok_ready multinomial h nc pi A (Some nf) (h_em h)); [exact Hb| | |].
  - apply (mult_check_ok _ _ _ nc nf e); [apply Hb|exact He|exact Ht|exact Hn].
  - apply (mult_check_ok _ _ _ nc nf e); [apply Hb|exact He|exact Ht|right; reflexivity].
  - unfold with_em. destruct (h_em h) as [tr m]. cbn [mu_prob] in He. subst m.
    apply mult_emits; [exact Hp|apply Hb|exact Hs].
Qed.

Lemma trials_counts nf ls x : good_data (trials_ok nf) ls x -> good_data (counts_ok nf) ls x.
Proof.
  intros [H1 H2]. split; [|exact H2]. eapply Forall_impl; [|exact H1]. intros r []. assumption.
Qed.

Section MultFit.
  Variables (h : hmm mulp) (nc nf : nat) (pi : nat -> R) (A e : nat -> nat -> R).
  Hypothesis MM : mult_model h nc nf pi A e.
  Variables (ls : list nat) (x : list (list Z)).
  Hypothesis Hd : good_data (trials_ok nf) ls x.
  Hypothesis Hpos : possible nc pi A (mult_b nf e) ls x.
  Let V := has "e" (c_params (h_cfg h)).
  Hypothesis Hu : V = true -> all_used nc pi A (mult_b nf e) (chunks ls x).
  Let h1 := with_em h (Some nf) (h_em h).

  Lemma mult_e_e i f : (i < nc)%nat -> (f < nf)%nat -> mult_e (h_em h) i f = e i f.
  Proof.
    intros Hi Hf. pose proof (mm_e _ _ _ _ _ _ MM) as Hl. unfold mult_e. rewrite Hl, mget_fmat by assumption. reflexivity.
  Qed.

  Lemma mult_model_check : check multinomial exact h = Ok h1.
  Proof.
    apply (base_ok_check multinomial h nc pi A); [apply MM|].
    apply (mult_check_ok _ _ _ nc nf e); apply MM.
  Qed.

  Lemma mult_bp_e o i : (i < nc)%nat -> mult_b nf e o i = mult_bp nf (h_em h) o i.
  Proof.
    intros Hi. unfold mult_bp, mult_b, mult_mass. f_equal. apply prodn_ext. intros f Hf. rewrite mult_e_e by assumption. reflexivity.
  Qed.

  Lemma mult_tstate : tstate nc (mult_good nc nf V) (mult_bp nf) V ls x h1 pi A.
  Proof.
    apply base_ok_tstate.
    - apply MM.
    - constructor.
      + reflexivity.
      + rewrite (mm_e _ _ _ _ _ _ MM). f_equal. apply fmat_ext. intros; symmetry; apply mult_e_e; assumption.
      + intros i Hi. destruct (mm_stoch _ _ _ _ _ _ MM i Hi) as [H1 H2]. split.
        * intros f Hf. rewrite mult_e_e by assumption. apply H1, Hf.
        * rewrite <- H2. apply sumn_ext. intros f Hf. apply mult_e_e; assumption.
      + intros H. exact H.
    - apply (possible_ext (trials_ok nf) nc pi A (mult_b nf e)); [|exact Hd|exact Hpos].
      intros; apply mult_bp_e; assumption.
    - intros HV. apply (all_used_ext (trials_ok nf) nc pi A (mult_b nf e)); [|exact Hd|apply Hu; exact HV].
      intros; apply mult_bp_e; assumption.
  Qed.

  Variables (sp : nat -> R) (tp : nat -> nat -> R).
  Hypothesis Hsp : forall i, (i < nc)%nat -> 1 <= sp i.
  Hypothesis Htp : forall i j, (i < nc)%nat -> (j < nc)%nat -> 1 <= tp i j.
  Hypothesis HP : priors (h_cfg h) nc sp tp.
  Let Tn := mult_trains nc nf (mm_pos _ _ _ _ _ _ MM) V.

  Lemma mult_fit_log_ok : c_impl (h_cfg h) = "log"%string ->
    exists h' ev, fit_from multinomial exact h x (as_lengths ls) = Ok (h', ev).
  Proof.
    exact (gen_fit_log_ok multinomial nc (trials_ok nf) (mult_good nc nf V) (mult_bp nf) V
             Tn ls x Hd sp tp Hsp Htp h h1 pi A mult_model_check mult_tstate HP).
  Qed.

  Lemma mult_same_training h' ev :
    fit_from multinomial exact h x (as_lengths ls) = Ok (h', ev) ->
    fit_from multinomial exact (with_cfg (cfg_impl "log") h) x (as_lengths ls) = Ok (with_cfg (cfg_impl "log") h', ev).
  Proof.
    apply (gen_same_training multinomial nc (trials_ok nf) (mult_good nc nf V) (mult_bp nf) V
             Tn ls x Hd sp tp Hsp Htp h h1 pi A mult_model_check mult_tstate HP);
      try reflexivity.
    intros i c nfe p []; constructor; assumption.
  Qed.

  Hypothesis Hp1 : sumn nc pi <= 1.
  Hypothesis HA1 : forall i, (i < nc)%nat -> sumn nc (A i) <= 1.

  Theorem mult_run h' ev : fit_from multinomial exact h x (as_lengths ls) = Ok (h', ev) ->
    exists (pis : nat -> nat -> R) (As es : nat -> nat -> nat -> R),
    let k := length (m_history (h_mon h')) in
    let b j := mult_b nf (es j) in
    pis 0%nat = pi /\ As 0%nat = A /\ (forall i f, (i < nc)%nat -> (f < nf)%nat -> es 0%nat i f = e i f)
    /\ h_start h' = Some (fvec nc (pis k)) /\ h_trans h' = Some (fmat nc nc (As k))
    /\ mu_prob (h_em h') = Some (fmat nc nf (es k))
    /\ (forall j, (j < k)%nat -> nth j (m_history (h_mon h')) NaN = Fin (data_loglik nc (pis j) (As j) (b j) ls x))
    /\ (forall j, (j <= k)%nat -> stochastic2 nc nf (es j))
    /\ (V = true -> forall j, (j < k)%nat -> forall i f, (i < nc)%nat -> (f < nf)%nat ->
          let tot f := weighted_total nc (pis j) (As j) (b j) (chunks ls x) (fun r => IZR (nth f r 0%Z)) i in
          0 < sumn nf tot /\ es (S j) i f = tot f / sumn nf tot)
    /\ (forall j, (j < k)%nat ->
           data_loglik nc (pis j) (As j) (b j) ls x + log_dirichlet nc sp (pis j)
                + sumn nc (fun i => log_dirichlet nc (tp i) (As j i))
              <= data_loglik nc (pis (S j)) (As (S j)) (b (S j)) ls x + log_dirichlet nc sp (pis (S j))
                + sumn nc (fun i => log_dirichlet nc (tp i) (As (S j) i))).
  Proof.
    intros Hf.
    destruct (gen_monotone multinomial nc (trials_ok nf) (mult_good nc nf V) (mult_bp nf) V
               Tn ls x Hd sp tp Hsp Htp h h1 pi A mult_model_check mult_tstate HP
               _ (fun _ => 0) h' ev (mult_improves nc nf V (mm_pos _ _ _ _ _ _ MM)) Hp1 HA1 Hf) as (pis & As & ps & TG).
    exists pis, As, (fun j => mult_e (ps j)). cbv zeta. set (k := length (m_history (h_mon h'))) in *.
    pose proof (fun j Hj => tg_st _ _ _ _ _ _ _ _ _ _ _ _ _ _ _ _ _ _ TG j Hj) as Hst. fold k in Hst.
    assert (Hgood : forall j, (j <= k)%nat -> mult_good nc nf V (h_cfg h) (Some nf) (ps j))
      by (intros j Hj; apply (Hst j Hj)).
    split; [apply TG|]. split; [apply TG|].
    split.
    { intros i f Hi Hf'. rewrite (tg_p _ _ _ _ _ _ _ _ _ _ _ _ _ _ _ _ _ _ TG). apply mult_e_e; assumption. }
    split; [apply TG|]. split; [apply TG|].
    split.
    { rewrite (tg_em _ _ _ _ _ _ _ _ _ _ _ _ _ _ _ _ _ _ TG). fold k. apply (Hgood k (le_n _)). }
    split; [intros j Hj; apply (tg_hist _ _ _ _ _ _ _ _ _ _ _ _ _ _ _ _ _ _ TG j Hj)|].
    split; [intros j Hj; apply (Hgood j Hj)|].
    assert (Hw : forall j, (j <= k)%nat -> good_weights nc (trials_ok nf) (mult_bp nf (ps j))
                   (map (fun c => (c, seq_post nc (pis j) (As j) (mult_bp nf (ps j)) c)) (chunks ls x))).
    { intros j Hj. exact (wpairs_good multinomial nc (trials_ok nf) (mult_good nc nf V) (mult_bp nf) V
               Tn ls x Hd _ (pis j) (As j) (Hst j Hj)). }
    split.
    - intros HV j Hj i f Hi Hf'.
      set (l := map (fun c => (c, seq_post nc (pis j) (As j) (mult_bp nf (ps j)) c)) (chunks ls x)) in *.
      assert (Hvis : V = true -> visited nc l) by (apply (Hst j ltac:(lia))).
      pose proof (ts_nc _ _ _ _ _ _ _ _ _ mult_tstate) as Hnc. cbn [h1 with_em h_cfg] in Hnc.
      destruct (mult_step nc nf (mm_pos _ _ _ _ _ _ MM) V (h_cfg h) (Some nf) (ps j) l Hnc
                 (Hgood j ltac:(lia)) (Hw j ltac:(lia)) Hvis) as (st' & S1 & S2).
      destruct (tg_step _ _ _ _ _ _ _ _ _ _ _ _ _ _ _ _ _ _ TG j Hj) as (st & T1 & T2).
      cbn [h1 with_em h_cfg h_nfeat] in T1, T2. fold l in T1. rewrite S1 in T1. injection T1 as <-.
      rewrite S2 in T2. injection T2 as T2. rewrite <- T2. unfold mult_new. fold V. rewrite HV.
      rewrite (mult_e_fmat nc nf) by assumption.
      pose proof (mult_tot nc nf (mm_pos _ _ _ _ _ _ MM) V (h_cfg h) (Some nf) (ps j) l Hnc
                 (Hgood j ltac:(lia)) (Hw j ltac:(lia)) Hvis i HV Hi) as Ht.
      assert (Ew : forall f, wsum l (cnt f) i
        = weighted_total nc (pis j) (As j) (mult_b nf (mult_e (ps j))) (chunks ls x) (fun r => IZR (nth f r 0%Z)) i).
      { intros g. unfold l. apply (wsum_posteriors nc (pis j) (As j) (mult_bp nf (ps j)) (chunks ls x) (fun r => IZR (nth g r 0%Z))). }
      rewrite (sumn_ext nf _ _ (fun g _ => Ew g)) in Ht. split; [exact Ht|].
      unfold mult_upd. rewrite (sumn_ext nf _ _ (fun g _ => Ew g)), Ew. reflexivity.
    - intros j Hj.
      pose proof (tg_gain _ _ _ _ _ _ _ _ _ _ _ _ _ _ _ _ _ _ TG j Hj) as G.
      cbn [h1 with_em h_cfg h_nfeat] in G. rewrite !Rplus_0_r in G. apply G.
      intros HV. apply (Hst j ltac:(lia)). exact HV.
  Qed.
End MultFit.

Lemma C02_multinomial_ready_l h nc nf pi A e : mult_model h nc nf pi A e ->
  ready multinomial h nc pi A (counts_ok nf) (fun r i =>
    INR (fact (Z.to_nat (fold_right Z.add 0%Z r)))
    * prodn nf (fun f => let k := Z.to_nat (nth f r 0%Z) in e i f ^ k / INR (fact k))).
Proof. exact (mult_ready h nc nf pi A e). Qed.

(** ** C42: one M-step, for all count data. *)
Lemma mult_trainable h nc nf pi A e : mult_model h nc nf pi A e ->
  trainable multinomial h nc pi A (counts_ok nf) (mult_b nf e).
Proof.
  intros MM. pose proof (mm_base _ _ _ _ _ _ MM) as []. constructor; try assumption.
  destruct h as [c nfe s t m [tr pr]]. pose proof (mm_e _ _ _ _ _ _ MM) as Hl. cbn [h_em mu_prob] in Hl. subst pr.
  apply mult_emits; [apply MM|assumption|apply MM].
Qed.

Lemma weighted_total_total {X} (ok : X -> Prop) nc pi A (b : X -> nat -> R) ls x (phi : X -> R) : (0 < nc)%nat ->
  nonneg1 nc pi -> nonneg2 nc nc A -> (forall o i, ok o -> (i < nc)%nat -> 0 <= b o i) ->
  good_data ok ls x -> possible nc pi A b ls x ->
  sumn nc (weighted_total nc pi A b (chunks ls x) phi) = sumL phi x.
Proof.
  intros Hn Hp HA Hb Hd Hpos. unfold weighted_total.
  rewrite <- (sumL_sumn_swap (chunks ls x) nc (fun c i => sumn (length c) (fun t => seq_post nc pi A b c t i * nth t (map phi c) 0))).
  destruct (good_data_chunks ok ls x Hd) as (_ & _ & Hch). rewrite Forall_forall in Hch.
  transitivity (sumL (fun c => sumL phi c) (chunks ls x)).
  - apply sumL_ext. intros c Hc. destruct (Hch c Hc) as [Hne Hok]. rewrite sumn_swap.
    rewrite (sumn_ext _ _ (fun t => nth t (map phi c) 0)).
    + clear. induction c as [|o c IH]; [reflexivity|]. cbn [length map sumL]. rewrite sumn_S_l. cbn [nth]. rewrite <- IH. reflexivity.
    + intros t Ht. rewrite sumn_scal_r. destruct (seq_post_dist ok nc pi A b c t) as [_ ->]; auto. ring.
  - rewrite <- (chunks_concat ls x) at 2 by apply Hd.
    generalize (chunks ls x). intros cs. induction cs as [|c cs IH]; [reflexivity|].
    cbn [sumL concat]. rewrite sumL_app, IH. reflexivity.
Qed.

Lemma C14_multinomial_l h nc nf pi A e ls x st lp :
  mult_model h nc nf pi A e -> good_data (counts_ok nf) ls x ->
  h_nfeat h = Some nf -> has "e" (c_params (h_cfg h)) = true ->
  (forall c, In c (chunks ls x) -> scorable nc pi A (mult_b nf e) (c_impl (h_cfg h)) c) ->
  do_estep multinomial exact h (fvec nc pi) (fmat nc nc A) x (as_lengths ls) = Ok (st, lp) ->
  st_em st = fmat nc nf (fun i f =>
       weighted_total nc pi A (mult_b nf e) (chunks ls x) (fun r => IZR (nth f r 0%Z)) i)
  /\ sumn nc (fun i => sumn nf (fun f =>
       weighted_total nc pi A (mult_b nf e) (chunks ls x) (fun r => IZR (nth f r 0%Z)) i))
     = IZR (fold_right Z.add 0%Z (map (fold_right Z.add 0%Z) x)).
Proof.
  intros MM Hd Hnf HV Hs H. pose proof (mult_trainable h nc nf pi A e MM) as Tr.
  rewrite (do_estep_spec multinomial h nc pi A _ _ Tr ls x Hd Hs) in H.
  rewrite em_fold_all in H. set (l := map (fun c => (c, seq_post nc pi A (mult_b nf e) c)) (chunks ls x)) in *.
  destruct (good_data_chunks _ ls x Hd) as (_ & Hcat & Hch). rewrite Forall_forall in Hch.
  assert (Hl : forall y w, In (y, w) l -> y <> [] /\ Forall (counts_ok nf) y).
  { intros y g Hy. apply in_map_iff in Hy as (c & Heq & Hc). injection Heq as -> _. apply Hch. exact Hc. }
  cbn [multinomial ec_stats0] in H. unfold mult_stats0 in H. rewrite (tr_nc _ _ _ _ _ _ _ Tr), Hnf in H.
  change (mtab nc nf (fun _ _ => Fin 0)) with (fmat nc nf (fun _ _ => 0)) in H.
  fold multinomial in H. rewrite (mult_acc_all nc nf) in H by assumption. cbn [bind] in H. injection H as <- <-.
  cbn [st_em].
  assert (Ew : forall f i, wsum l (cnt f) i = weighted_total nc pi A (mult_b nf e) (chunks ls x) (fun r => IZR (nth f r 0%Z)) i).
  { intros f i. unfold l, cnt. apply (wsum_posteriors nc pi A (mult_b nf e) (chunks ls x) (fun r => IZR (nth f r 0%Z)) i). }
  split; [apply fmat_ext; intros i f Hi Hf; rewrite Ew; ring|].
  rewrite (sumn_ext nc _ (fun i => wsum l (fun r _ => IZR (zsum r)) i)).
  2:{ intros i Hi. rewrite <- (wsum_trials nf l i Hl). apply sumn_ext. intros f Hf. symmetry. apply Ew. }
  rewrite (sumn_ext nc _ (weighted_total nc pi A (mult_b nf e) (chunks ls x) (fun r => IZR (zsum r))))
    by (intros i Hi; unfold l; apply (wsum_posteriors nc pi A (mult_b nf e) (chunks ls x) (fun r => IZR (zsum r)) i)).
  rewrite (weighted_total_total (counts_ok nf)); try apply Tr; try exact Hd.
  - rewrite (sumL_ext _ (fun r => IZR (fold_right Z.add 0%Z r))) by reflexivity.
    clear. induction x as [|r x IH]; [reflexivity|]. cbn [sumL map fold_right]. rewrite plus_IZR, IH. reflexivity.
  - intros c Hc. destruct (Hch c Hc) as [Hne Hok].
    apply (scorable_lik multinomial h nc pi A (counts_ok nf) (mult_b nf e) (c_impl (h_cfg h)) c Tr Hne (Hs c Hc)).
Qed.

Lemma C42_normalised_counts_l h nc nf pi A e ls x h' v :
  mult_model h nc nf pi A e -> h_nfeat h = Some nf -> good_data (counts_ok nf) ls x ->
  (forall c, In c (chunks ls x) -> scorable nc pi A (mult_b nf e) (c_impl (h_cfg h)) c) ->
  has "e" (c_params (h_cfg h)) = true ->
  em_step multinomial exact x (as_lengths ls) h = Ok (h', v) ->
  exists m, mu_prob (h_em h') = Some m /\ nrow m = nc /\ ncol m = nf
    /\ forall i, (i < nc)%nat ->
       let tot f := weighted_total nc pi A (mult_b nf e) (chunks ls x) (fun r => IZR (nth f r 0%Z)) i in
       (0 < sumn nf tot ->
          exists q, stochastic1 nf q /\ (forall f, (f < nf)%nat -> mget m i f = Fin (q f) /\ q f = tot f / sumn nf tot))
       /\ (sumn nf tot = 0 -> forall f, (f < nf)%nat -> mget m i f = NaN).
Proof.
  intros MM Hnf Hd Hs HV H. pose proof (mult_trainable h nc nf pi A e MM) as Tr.
  unfold em_step in H. rewrite (bo_start _ _ _ _ (mm_base _ _ _ _ _ _ MM)), (bo_trans _ _ _ _ (mm_base _ _ _ _ _ _ MM)) in H.
  destruct (do_estep multinomial exact h (fvec nc pi) (fmat nc nc A) x (as_lengths ls)) as [[st lp]|er] eqn:HE;
    [|discriminate].
  destruct (C14_multinomial_l h nc nf pi A e ls x st lp MM Hd Hnf HV Hs HE) as [Hst _].
  cbn [bind] in H. unfold do_mstep in H. cbn [multinomial ec_mstep] in H. unfold mult_mstep in H. rewrite HV, Hst in H.
  cbn [bind] in H. injection H as <- <-. cbn [h_em mu_prob]. rewrite nrow_fmat. change (ncol (fmat nc nf _)) with nf.
  set (W := fun i f => weighted_total nc pi A (mult_b nf e) (chunks ls x) (fun r => IZR (nth f r 0%Z)) i).
  assert (HW : forall i f, (i < nc)%nat -> (f < nf)%nat -> 0 <= W i f).
  { intros i f Hi Hf. destruct (good_data_chunks _ ls x Hd) as (_ & _ & Hch). rewrite Forall_forall in Hch.
    unfold W, weighted_total. apply sumL_nonneg. intros c Hc. destruct (Hch c Hc) as [Hne Hok].
    apply sumn_nonneg. intros t Ht. apply Rmult_le_pos.
    - pose proof (scorable_lik multinomial h nc pi A (counts_ok nf) (mult_b nf e) (c_impl (h_cfg h)) c Tr Hne (Hs c Hc)) as HL.
      apply (seq_post_dist (counts_ok nf) nc pi A (mult_b nf e) c t); try assumption; apply Tr.
    - destruct c as [|d c0]; [contradiction|].
      rewrite (nth_indep (map (fun r => IZR (nth f r 0%Z)) (d :: c0)) 0 (IZR (nth f d 0%Z))) by (rewrite map_length; exact Ht).
      rewrite (map_nth (fun r => IZR (nth f r 0%Z))). apply IZR_le, (counts_nth nf).
      rewrite Forall_forall in Hok. apply Hok, nth_In, Ht. }
  eexists. split; [reflexivity|]. split; [apply tab_length|]. split; [reflexivity|].
  intros i Hi. cbv zeta. fold W.
  assert (Hget : forall f, (f < nf)%nat -> mget (mtab nc nf (fun i f =>
     xdiv exact (mget (fmat nc nf W) i f) (xsum exact (nth i (rows (fmat nc nf W)) [])))) i f
     = xdiv exact (Fin (W i f)) (Fin (sumn nf (W i)))).
  { intros f Hf. rewrite mget_mtab, mget_fmat by assumption. f_equal.
    unfold fmat, mtab. cbn [rows]. rewrite tab_nth by exact Hi. apply (xsum_fvec nf (W i)). }
  split.
  - intros Hp. exists (fun f => W i f / sumn nf (W i)). split; [split|].
    + intros f Hf. unfold Rdiv. apply Rmult_le_pos; [apply HW; assumption|left; apply Rinv_0_lt_compat; exact Hp].
    + unfold Rdiv. rewrite sumn_scal_r. field. unfold W. lra.
    + intros f Hf. split; [|reflexivity]. rewrite Hget by exact Hf. apply xdivE. unfold W. lra.
  - intros H0 f Hf. rewrite Hget by exact Hf. fold (W i) in H0. rewrite H0.
    rewrite (sumn_eq0 nf (W i)); [|intros g Hg; apply HW; assumption|exact H0|exact Hf].
    cbn [xdiv]. destruct (Req_EM_T 0 0); [|contradiction]. destruct (Rlt_dec 0 0); [lra|reflexivity].
Qed.

(** The whole of training: normalised counts in every iteration, and a history
    that never decreases. *)
Lemma C42_training_l h nc nf pi A e ls x h' ev :
  mult_model h nc nf pi A e -> flat_base h ->
  sumn nc pi <= 1 -> (forall i, (i < nc)%nat -> sumn nc (A i) <= 1) ->
  good_data (trials_ok nf) ls x -> possible nc pi A (mult_b nf e) ls x ->
  (has "e" (c_params (h_cfg h)) = true -> all_used nc pi A (mult_b nf e) (chunks ls x)) ->
  fit_from multinomial exact h x (as_lengths ls) = Ok (h', ev) ->
  (exists (pis : nat -> nat -> R) (As es : nat -> nat -> nat -> R),
    let k := length (m_history (h_mon h')) in
    let b j := mult_b nf (es j) in
    pis 0%nat = pi /\ As 0%nat = A /\ (forall i f, (i < nc)%nat -> (f < nf)%nat -> es 0%nat i f = e i f)
    /\ h_start h' = Some (fvec nc (pis k)) /\ h_trans h' = Some (fmat nc nc (As k))
    /\ mu_prob (h_em h') = Some (fmat nc nf (es k))
    /\ (forall j, (j < k)%nat -> nth j (m_history (h_mon h')) NaN = Fin (data_loglik nc (pis j) (As j) (b j) ls x))
    /\ (forall j, (j <= k)%nat -> stochastic2 nc nf (es j))
    /\ (has "e" (c_params (h_cfg h)) = true -> forall j, (j < k)%nat -> forall i f, (i < nc)%nat -> (f < nf)%nat ->
          let tot f := weighted_total nc (pis j) (As j) (b j) (chunks ls x) (fun r => IZR (nth f r 0%Z)) i in
          0 < sumn nf tot /\ es (S j) i f = tot f / sumn nf tot)
    /\ forall j, (j < k)%nat ->
         data_loglik nc (pis j) (As j) (b j) ls x <= data_loglik nc (pis (S j)) (As (S j)) (b (S j)) ls x)
  /\ ~ In WNotConverging ev.
Proof.
  intros MM FB Hp1 HA1 Hd Hpos Hu Hf.
  assert (HP := flat_base_priors h nc FB).
  destruct (mult_run h nc nf pi A e MM ls x Hd Hpos Hu
              (fun _ => 1) (fun _ _ => 1) ltac:(intros; lra) ltac:(intros; lra) HP Hp1 HA1 h' ev Hf)
    as (pis & As & es & R0 & R1 & R2 & R3 & R4 & R5 & R6 & R7 & R8 & R9).
  assert (R10 : forall j, (j < length (m_history (h_mon h')))%nat ->
    data_loglik nc (pis j) (As j) (mult_b nf (es j)) ls x
    <= data_loglik nc (pis (S j)) (As (S j)) (mult_b nf (es (S j))) ls x).
  { intros j Hj. specialize (R9 j Hj).
    rewrite !log_dirichlet_flat in R9. rewrite !sumn_zero in R9 by (intros; apply log_dirichlet_flat). lra. }
  split.
  - exists pis, As, es. cbv zeta. repeat (split; [first [assumption|reflexivity]|]). exact R10.
  - apply (monotone_history multinomial h x (as_lengths ls) h' ev
             (fun j => data_loglik nc (pis j) (As j) (mult_b nf (es j)) ls x) Hf R6).
    intros j Hj. apply R10. lia.
Qed.

Lemma C21_multinomial_l fp h x lengths h' ev :
  fit_from multinomial fp h x lengths = Ok (h', ev) ->
  mu_trials (h_em h') = mu_trials (h_em h)
  /\ (has "e" (c_params (h_cfg h)) = false -> h_em h' = h_em h).
Proof.
  intros H.
  assert (Hck : forall nf p nf' p', ec_check multinomial fp (h_cfg h) nf p = Ok (nf', p') -> p' = p).
  { intros nf p nf' p' Hc. cbn [multinomial ec_check] in Hc. unfold mult_check in Hc.
    destruct (mu_prob p); [|discriminate]. destruct (negb _); [discriminate|].
    destruct (mu_trials p); [|discriminate]. injection Hc as _ <-. reflexivity. }
  split.
  - apply (fit_keeps multinomial fp h x lengths h' ev _ mu_trials H).
    + intros nf p nf' p' Hc. rewrite (Hck _ _ _ _ Hc). reflexivity.
    + intros nf p st p' Hm. cbn [multinomial ec_mstep] in Hm. unfold mult_mstep in Hm.
      destruct (has _ _); injection Hm as <-; reflexivity.
  - intros Hh. apply (fit_keeps multinomial fp h x lengths h' ev _ (fun p => p) H).
    + intros nf p nf' p' Hc. rewrite (Hck _ _ _ _ Hc). reflexivity.
    + intros nf p st p' Hm. cbn [multinomial ec_mstep] in Hm. unfold mult_mstep in Hm. rewrite Hh in Hm.
      injection Hm as <-. reflexivity.
Qed.

Lemma C25_multinomial_l h nc nf pi A e sp tp ls x h' ev :
  mult_model h nc nf pi A e ->
  priors (h_cfg h) nc sp tp -> (forall i, (i < nc)%nat -> 1 <= sp i) ->
  (forall i j, (i < nc)%nat -> (j < nc)%nat -> 1 <= tp i j) ->
  good_data (trials_ok nf) ls x -> possible nc pi A (mult_b nf e) ls x ->
  (has "e" (c_params (h_cfg h)) = true -> all_used nc pi A (mult_b nf e) (chunks ls x)) ->
  fit_from multinomial exact h x (as_lengths ls) = Ok (h', ev) ->
  fit_from multinomial exact (with_cfg (cfg_impl "log") h) x (as_lengths ls) = Ok (with_cfg (cfg_impl "log") h', ev).
Proof.
  intros MM HP Hsp Htp Hd Hpos Hu.
  exact (mult_same_training h nc nf pi A e MM ls x Hd Hpos Hu sp tp Hsp Htp HP h' ev).
Qed.

(** ** Concrete models: two states visited alternately, three symbols. *)
Definition ex_me (i f : nat) : R := match i, f with 0%nat, 0%nat => / 2 | 0%nat, _ => / 4 | _, 0%nat => / 4 | _, 1%nat => / 2 | _, _ => / 4 end.
Definition ex_mu (params : string) : hmm mulp :=
  Hmm (Cfg 2 params "ste" "map" "log" 1 (Fin (/ 100)) false (Scal (Fin 1)) (Scal (Fin 1))) (Some 3%nat)
      (Some (fvec 2 sw_pi)) (Some (fmat 2 2 sw_A)) (Monitor (Fin (/ 100)) 1 false [] 0)
      (Mulp (Some (TNum 4)) (Some (fmat 2 3 ex_me))).
Definition ex_mx : list (list Z) := [[3; 1; 0]; [0; 2; 2]]%Z.

Lemma ex_me_pos i f : 0 < ex_me i f.
Proof. destruct i as [|i]; destruct f as [|[|f]]; simpl; lra. Qed.
Lemma ex_mult_model params : mult_model (ex_mu params) 2 3 sw_pi sw_A ex_me.
Proof.
  constructor; [apply sw_base; reflexivity|right; reflexivity|lia|reflexivity| |discriminate].
  intros i Hi. split; [intros f _; left; apply ex_me_pos|]. destruct i as [|[|i]]; [| |lia]; simpl; lra.
Qed.
Lemma ex_mx_good : good_data (trials_ok 3) [2]%nat ex_mx.
Proof.
  split; [|split; [discriminate|split; [repeat constructor; lia|reflexivity]]].
  repeat constructor; cbn; lia.
Qed.
Lemma ex_mult_b_pos r i : counts_ok 3 r -> 0 < mult_b 3 ex_me r i.
Proof. intros Hr. apply mult_mass_pos; [lia|intros; apply ex_me_pos|exact Hr]. Qed.
Lemma ex_mx_pos i : 0 < mult_b 3 ex_me [3; 1; 0]%Z i /\ 0 < mult_b 3 ex_me [0; 2; 2]%Z i.
Proof. split; apply ex_mult_b_pos; repeat constructor; lia. Qed.
Lemma ex_mx_possible : possible 2 sw_pi sw_A (mult_b 3 ex_me) [2]%nat ex_mx.
Proof.
  intros c [<-|[]]. cbn [firstn ex_mx]. rewrite sw_lik. apply Rmult_lt_0_compat; apply ex_mx_pos.
Qed.
Lemma ex_mx_used : all_used 2 sw_pi sw_A (mult_b 3 ex_me) (chunks [2]%nat ex_mx).
Proof.
  intros i Hi. exists [[3; 1; 0]; [0; 2; 2]]%Z, i. split; [left; reflexivity|]. split; [exact Hi|].
  rewrite sw_post by (try apply ex_mx_pos; assumption). rewrite Nat.eqb_refl. lra.
Qed.
Lemma ex_mu_fit params :
  exists h' ev, fit_from multinomial exact (ex_mu params) ex_mx (as_lengths [2]%nat) = Ok (h', ev)
    /\ length (m_history (h_mon h')) = 1%nat.
Proof.
  destruct (mult_fit_log_ok (ex_mu params) 2 3 sw_pi sw_A ex_me (ex_mult_model params)
    [2]%nat ex_mx ex_mx_good ex_mx_possible (fun _ => ex_mx_used) (fun _ => 1) (fun _ _ => 1)
    ltac:(intros; lra) ltac:(intros; lra) ltac:(apply (flat_base_priors (ex_mu params) 2); split; reflexivity) eq_refl)
    as (h' & ev & H).
  exists h', ev. split; [exact H|].
  destruct (C23_stopping_and_history_l multinomial exact (ex_mu params) ex_mx [2]%nat h' ev eq_refl eq_refl H)
    as (_ & H1 & H2 & _). cbn [ex_mu h_cfg c_n_iter] in H1, H2. lia.
Qed.

(** State 0 emitted (3,1,0), state 1 emitted (0,2,2). *)
Lemma C42_applies_l : exists h' ev,
  fit_from multinomial exact (ex_mu "ste") ex_mx (as_lengths [2]%nat) = Ok (h', ev)
  /\ length (m_history (h_mon h')) = 1%nat
  /\ mu_prob (h_em h') = Some (fmat 2 3 (fun i f => IZR (nth f (nth i ex_mx []) 0%Z) / 4)).
Proof.
  destruct (ex_mu_fit "ste") as (h' & ev & H & Hk).
  exists h', ev. split; [exact H|]. split; [exact Hk|].
  destruct (C42_training_l (ex_mu "ste") 2 3 sw_pi sw_A ex_me [2]%nat ex_mx h' ev (ex_mult_model _)
    ltac:(split; reflexivity)) as [(pis & As & es & E0 & E1 & E2 & _ & _ & E3 & _ & _ & E4 & _) _];
    try exact ex_mx_good; try exact ex_mx_possible; try exact H.
  - simpl; lra.
  - intros i Hi. destruct i as [|[|i]]; [| |lia]; simpl; lra.
  - intros _. exact ex_mx_used.
  - rewrite Hk in E3, E4. cbv zeta in E4. rewrite E3. f_equal. apply fmat_ext. intros i f Hi Hf.
    destruct (E4 eq_refl 0%nat ltac:(lia) i f Hi Hf) as [_ ->]. rewrite E0, E1.
    assert (Hb : forall o i, (i < 2)%nat -> mult_b 3 (es 0%nat) o i = mult_b 3 ex_me o i).
    { intros o j Hj. unfold mult_b, mult_mass. f_equal. apply prodn_ext. intros g Hg. rewrite E2 by lia. reflexivity. }
    unfold weighted_total. cbn [chunks firstn skipn ex_mx sumL length sumn map].
    rewrite !sw_post by (try (rewrite Hb by lia; apply ex_mx_pos); lia).
    destruct i as [|[|i]]; [| |lia]; (destruct f as [|[|[|f]]]; [| | |lia]); simpl; field.
Qed.

Lemma C42_normalised_applies_l : exists h' v,
  em_step multinomial exact ex_mx (as_lengths [2]%nat) (ex_mu "e") = Ok (h', v)
  /\ mult_model (ex_mu "e") 2 3 sw_pi sw_A ex_me /\ good_data (counts_ok 3) [2]%nat ex_mx
  /\ (forall c, In c (chunks [2]%nat ex_mx) -> scorable 2 sw_pi sw_A (mult_b 3 ex_me) "log" c).
Proof.
  assert (Hs : forall c, In c (chunks [2]%nat ex_mx) -> scorable 2 sw_pi sw_A (mult_b 3 ex_me) "log" c)
    by (intros c Hc; left; split; [reflexivity|apply ex_mx_possible; exact Hc]).
  pose proof (trials_counts _ _ _ ex_mx_good) as Hd.
  pose proof (mult_trainable _ _ _ _ _ _ (ex_mult_model "e")) as Tr.
  unfold em_step. cbn [ex_mu h_start h_trans]. fold (ex_mu "e").
  rewrite (do_estep_spec multinomial (ex_mu "e") 2 sw_pi sw_A _ _ Tr [2]%nat ex_mx Hd Hs).
  rewrite em_fold_all. cbn [multinomial ec_stats0 ex_mu h_cfg h_nfeat]. unfold mult_stats0. cbn [c_nc].
  change (mtab 2 3 (fun _ _ => Fin 0)) with (fmat 2 3 (fun _ _ => 0)). fold multinomial.
  rewrite (mult_acc_all 2 3); [|intros y w [Heq|[]]; injection Heq as <- _; split; [discriminate|apply Hd]|reflexivity].
  cbn [bind]. do 2 eexists. split; [reflexivity|]. split; [apply ex_mult_model|]. split; [exact Hd|exact Hs].
Qed.

Lemma C21_multinomial_applies_l : exists h' ev,
  fit_from multinomial exact (ex_mu "st") ex_mx (as_lengths [2]%nat) = Ok (h', ev)
  /\ has "e" (c_params (h_cfg (ex_mu "st"))) = false.
Proof. destruct (ex_mu_fit "st") as (h' & ev & H & _). exists h', ev. split; [exact H|reflexivity]. Qed.

(** [_check] does not look at the sums of the emission rows; scipy then replaces
    the last probability: a row (1/2, 1/8) is scored as (1/2, 1/2). *)
Definition ex_mbad : hmm mulp :=
  Hmm (Cfg 1 "ste" "ste" "viterbi" "log" 1 (Fin (/ 100)) false (Scal (Fin 1)) (Scal (Fin 1))) (Some 2%nat)
      (Some (fvec 1 (fun _ => 1))) (Some (fmat 1 1 (fun _ _ => 1))) (Monitor (Fin (/ 100)) 1 false [] 0)
      (Mulp (Some (TNum 1)) (Some (fmat 1 2 (fun _ f => match f with 0%nat => / 2 | _ => / 8 end)))).

Lemma C42_row_sums_refuted_l : exists h m,
  mu_prob (h_em h) = Some m /\ xsum exact (nth 0 (rows m) []) = Fin (5 / 8) /\ mget m 0 1 = Fin (/ 8)
  /\ check multinomial exact h = Ok h
  /\ loglik multinomial exact h [[0; 1]]%Z = Ok (Mat 1 [[Fin (ln (/ 2))]]).
Proof.
  exists ex_mbad, (fmat 1 2 (fun _ f => match f with 0%nat => / 2 | _ => / 8 end)).
  split; [reflexivity|]. split.
  { change (nth 0 (rows (fmat 1 2 (fun _ f => match f with 0%nat => / 2 | _ => / 8 end))) [])
      with (fvec 2 (fun f => match f with 0%nat => / 2 | _ => / 8 end)). rewrite xsum_fvec. simpl. f_equal. lra. }
  split; [reflexivity|]. split.
  - assert (Hb : base_ok ex_mbad 1 (fun _ => 1) (fun _ _ => 1)).
    { constructor; try reflexivity; try lia.
      - intros i _; lra.
      - simpl. rewrite Rplus_0_l. exact near1_1.
      - intros i j _ _; lra.
      - intros i _. simpl. rewrite Rplus_0_l. exact near1_1. }
    rewrite (base_ok_check multinomial ex_mbad 1 _ _ (Some 2%nat) (h_em ex_mbad) Hb); [reflexivity|].
    apply (mult_check_ok _ _ _ 1 2 (fun _ f => match f with 0%nat => / 2 | _ => / 8 end)); try reflexivity; try discriminate.
    right; reflexivity.
  - unfold loglik. cbn [multinomial ec_loglik ex_mbad h_cfg h_nfeat h_em]. unfold mult_loglik. cbn [mu_prob].
    rewrite ncol_fmat. cbn [width length Nat.eqb c_nc map]. f_equal. f_equal. f_equal.
    unfold tab at 1. cbn [seq map]. f_equal.
    change (nth 0 (rows (fmat 1 2 (fun _ f => match f with 0%nat => / 2 | _ => / 8 end))) [])
      with (fvec 2 (fun f => match f with 0%nat => / 2 | _ => / 8 end)).
    assert (Ha : mult_adjust exact (fvec 2 (fun f => match f with 0%nat => / 2 | _ => / 8 end)) = fvec 2 (fun _ => / 2)).
    { unfold mult_adjust. change (removelast (fvec 2 (fun f => match f with 0%nat => / 2 | _ => / 8 end))) with (fvec 1 (fun _ => / 2)).
      rewrite xsum_fvec, xsubE. cbn [sumn xabs xltb].
      replace (1 - (0 + / 2)) with (/ 2) by lra. rewrite (Rabs_right (/ 2)) by lra.
      rewrite (proj2 (Rltb_true (/ 10 ^ 15) (/ 2))); [reflexivity|].
      apply Rinv_lt_contravar; [|simpl; lra]. simpl; lra. }
    assert (E : mult_logpmf exact [0; 1]%Z (fvec 2 (fun f => match f with 0%nat => / 2 | _ => / 8 end))
              = mult_logpmf exact [0; 1]%Z (fvec 2 (fun _ => / 2))).
    { unfold mult_logpmf. rewrite Ha.
      rewrite (adjust_stochastic 2 ltac:(lia) (fun _ => / 2)) by (split; [intros ? _; lra|simpl; lra]). reflexivity. }
    rewrite E, (mult_logpmf_ok 2 ltac:(lia)).
    + unfold mult_mass. replace (INR (fact (Z.to_nat (zsum [0; 1]%Z))) * _) with (/ 2) by (simpl; field).
      rewrite xln_pos by lra. reflexivity.
    + split; [intros ? _; lra|simpl; lra].
    + repeat constructor; lia.
Qed.
