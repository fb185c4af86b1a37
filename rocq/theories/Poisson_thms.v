(** * PoissonHMM: properties C14, C21, C25, C41. *)
From Verif Require Export Poisson_proofs Training_thms.

(** A PoissonHMM whose parameters pass validation. *)
Record pois_model (h : hmm poisp) (nc nf : nat) (pi : nat -> R) (A lam : nat -> nat -> R) : Prop := PoisModel {
  pm_base : base_ok h nc pi A;
  pm_nf : h_nfeat h = None \/ h_nfeat h = Some nf;
  pm_lam : po_lam (h_em h) = Some (fmat nc nf lam);
  pm_nonneg : nonneg2 nc nf lam }.

Lemma pois_check_ok c nfe p nc nf lam : c_nc c = nc -> po_lam p = Some (fmat nc nf lam) ->
  nfe = None \/ nfe = Some nf -> pois_check exact c nfe p = Ok (Some nf, p).
Proof.
  intros Hc Hp Hn. unfold pois_check. rewrite Hp, nrow_fmat, ncol_fmat, Hc.
  destruct Hn as [-> | ->]; rewrite !Nat.eqb_refl; reflexivity.
Qed.

Lemma pois_ready h nc nf pi A lam : pois_model h nc nf pi A lam ->
  ready poisson h nc pi A (counts_ok nf) (pois_b nf lam).
Proof.
  intros [Hb Hn Hl Hnn]. apply (base_ok_ready poisson h nc pi A (Some nf) (h_em h)); [exact Hb| | |].
  - apply (pois_check_ok _ _ _ nc nf lam); [apply Hb|exact Hl|exact Hn].
  - apply (pois_check_ok _ _ _ nc nf lam); [apply Hb|exact Hl|right; reflexivity].
  - unfold with_em. destruct (h_em h) as [al be l]. cbn [po_lam] in Hl. subst l.
    apply pois_emits; [apply Hb|exact Hnn].
Qed.

Section PoisFit.
  Variables (h : hmm poisp) (nc nf : nat) (pi : nat -> R) (A lam al be : nat -> nat -> R).
  Hypothesis PM : pois_model h nc nf pi A lam.
  Hypothesis Hg : gamma_prior nc nf (h_em h) al be.
  Hypothesis Hal : nonneg2 nc nf al.
  Hypothesis Hbe : nonneg2 nc nf be.
  Variables (ls : list nat) (x : list (list Z)).
  Hypothesis Hd : good_data (counts_ok nf) ls x.
  Hypothesis Hpos : possible nc pi A (pois_b nf lam) ls x.
  Let V := has "l" (c_params (h_cfg h)).
  Hypothesis Hu : V = true -> all_used nc pi A (pois_b nf lam) (chunks ls x).
  Let h1 := with_em h (Some nf) (h_em h).

  Lemma pois_l_lam i f : (i < nc)%nat -> (f < nf)%nat -> pois_l (h_em h) i f = lam i f.
  Proof.
    intros Hi Hf. pose proof (pm_lam _ _ _ _ _ _ PM) as Hl. unfold pois_l. rewrite Hl, mget_fmat by assumption. reflexivity.
  Qed.

  Lemma pois_model_check : check poisson exact h = Ok h1.
  Proof.
    apply (base_ok_check poisson h nc pi A); [apply PM|].
    apply (pois_check_ok _ _ _ nc nf lam); apply PM.
  Qed.

  Lemma pois_bp_lam o i : (i < nc)%nat -> pois_b nf lam o i = pois_bp nf (h_em h) o i.
  Proof.
    intros Hi. unfold pois_bp, pois_b. apply prodn_ext. intros f Hf. rewrite pois_l_lam by assumption. reflexivity.
  Qed.

  Lemma pois_tstate : tstate nc (pois_good nc nf al be V) (pois_bp nf) V ls x h1 pi A.
  Proof.
    apply base_ok_tstate.
    - apply PM.
    - constructor.
      + reflexivity.
      + rewrite (pm_lam _ _ _ _ _ _ PM). f_equal. apply fmat_ext. intros; symmetry; apply pois_l_lam; assumption.
      + intros i f Hi Hf. rewrite pois_l_lam by assumption. apply PM; assumption.
      + exact Hg.
      + intros H. exact H.
    - apply (possible_ext (counts_ok nf) nc pi A (pois_b nf lam)); [|exact Hd|exact Hpos].
      intros; apply pois_bp_lam; assumption.
    - intros HV. apply (all_used_ext (counts_ok nf) nc pi A (pois_b nf lam)); [|exact Hd|apply Hu; exact HV].
      intros; apply pois_bp_lam; assumption.
  Qed.

  Variables (sp : nat -> R) (tp : nat -> nat -> R).
  Hypothesis Hsp : forall i, (i < nc)%nat -> 1 <= sp i.
  Hypothesis Htp : forall i j, (i < nc)%nat -> (j < nc)%nat -> 1 <= tp i j.
  Hypothesis HP : priors (h_cfg h) nc sp tp.

  Lemma pois_fit_log_ok : c_impl (h_cfg h) = "log"%string ->
    exists h' ev, fit_from poisson exact h x (as_lengths ls) = Ok (h', ev).
  Proof.
    exact (gen_fit_log_ok poisson nc (counts_ok nf) (pois_good nc nf al be V) (pois_bp nf) V
             (pois_trains nc nf al be Hal Hbe V) ls x Hd sp tp Hsp Htp h h1 pi A pois_model_check pois_tstate HP).
  Qed.

  Lemma pois_same_training h' ev :
    fit_from poisson exact h x (as_lengths ls) = Ok (h', ev) ->
    fit_from poisson exact (with_cfg (cfg_impl "log") h) x (as_lengths ls) = Ok (with_cfg (cfg_impl "log") h', ev).
  Proof.
    apply (gen_same_training poisson nc (counts_ok nf) (pois_good nc nf al be V) (pois_bp nf) V
             (pois_trains nc nf al be Hal Hbe V) ls x Hd sp tp Hsp Htp h h1 pi A pois_model_check pois_tstate HP);
      try reflexivity.
    intros i c nfe p []; constructor; assumption.
  Qed.

  Hypothesis Hp1 : sumn nc pi <= 1.
  Hypothesis HA1 : forall i, (i < nc)%nat -> sumn nc (A i) <= 1.

  (** The run, with the update written out. *)
  Theorem pois_run h' ev : fit_from poisson exact h x (as_lengths ls) = Ok (h', ev) ->
    exists (pis : nat -> nat -> R) (As lams : nat -> nat -> nat -> R),
    let k := length (m_history (h_mon h')) in
    let b j := pois_b nf (lams j) in
    pis 0%nat = pi /\ As 0%nat = A /\ (forall i f, (i < nc)%nat -> (f < nf)%nat -> lams 0%nat i f = lam i f)
    /\ h_start h' = Some (fvec nc (pis k)) /\ h_trans h' = Some (fmat nc nc (As k))
    /\ po_lam (h_em h') = Some (fmat nc nf (lams k))
    /\ (forall j, (j < k)%nat -> nth j (m_history (h_mon h')) NaN = Fin (data_loglik nc (pis j) (As j) (b j) ls x))
    /\ (forall j, (j <= k)%nat -> nonneg2 nc nf (lams j))
    /\ (V = true -> forall j, (j < k)%nat -> forall i f, (i < nc)%nat -> (f < nf)%nat ->
          let occ := occupancy nc (pis j) (As j) (b j) (chunks ls x) i in
          let tot := weighted_total nc (pis j) (As j) (b j) (chunks ls x) (fun r => IZR (nth f r 0%Z)) i in
          0 < occ /\ lams (S j) i f = (al i f + INR (length x) * (tot / occ)) / (be i f + INR (length x)))
    /\ (forall j, (j < k)%nat ->
          (forall i f, (i < nc)%nat -> (f < nf)%nat -> al i f = 0 /\ be i f = 0) ->
           data_loglik nc (pis j) (As j) (b j) ls x + log_dirichlet nc sp (pis j)
                + sumn nc (fun i => log_dirichlet nc (tp i) (As j i))
              <= data_loglik nc (pis (S j)) (As (S j)) (b (S j)) ls x + log_dirichlet nc sp (pis (S j))
                + sumn nc (fun i => log_dirichlet nc (tp i) (As (S j) i))).
  Proof.
    intros Hf.
    destruct (gen_monotone poisson nc (counts_ok nf) (pois_good nc nf al be V) (pois_bp nf) V
               (pois_trains nc nf al be Hal Hbe V) ls x Hd sp tp Hsp Htp h h1 pi A pois_model_check pois_tstate HP
               (pois_W nc nf al be) (fun _ => 0) h' ev (pois_improves_W nc nf al be V) Hp1 HA1 Hf) as (pis & As & ps & TG).
    exists pis, As, (fun j => pois_l (ps j)). cbv zeta. set (k := length (m_history (h_mon h'))) in *.
    pose proof (fun j Hj => tg_st _ _ _ _ _ _ _ _ _ _ _ _ _ _ _ _ _ _ TG j Hj) as Hst. fold k in Hst.
    assert (Hgood : forall j, (j <= k)%nat -> pois_good nc nf al be V (h_cfg h) (Some nf) (ps j))
      by (intros j Hj; apply (Hst j Hj)).
    split; [apply TG|]. split; [apply TG|].
    split.
    { intros i f Hi Hf'. rewrite (tg_p _ _ _ _ _ _ _ _ _ _ _ _ _ _ _ _ _ _ TG). apply pois_l_lam; assumption. }
    split; [apply TG|]. split; [apply TG|].
    split.
    { rewrite (tg_em _ _ _ _ _ _ _ _ _ _ _ _ _ _ _ _ _ _ TG). fold k. apply (Hgood k (le_n _)). }
    split; [intros j Hj; apply (tg_hist _ _ _ _ _ _ _ _ _ _ _ _ _ _ _ _ _ _ TG j Hj)|].
    split; [intros j Hj; apply (Hgood j Hj)|].
    assert (Hw : forall j, (j <= k)%nat -> good_weights nc (counts_ok nf) (pois_bp nf (ps j))
                   (map (fun c => (c, seq_post nc (pis j) (As j) (pois_bp nf (ps j)) c)) (chunks ls x))).
    { intros j Hj. exact (wpairs_good poisson nc (counts_ok nf) (pois_good nc nf al be V) (pois_bp nf) V
               (pois_trains nc nf al be Hal Hbe V) ls x Hd _ (pis j) (As j) (Hst j Hj)). }
    split.
    - intros HV j Hj i f Hi Hf'.
      set (l := map (fun c => (c, seq_post nc (pis j) (As j) (pois_bp nf (ps j)) c)) (chunks ls x)) in *.
      assert (Hvis : V = true -> visited nc l) by (apply (Hst j ltac:(lia))).
      destruct (pois_step nc nf al be Hbe V (h_cfg h) (Some nf) (ps j) l (ts_nc _ _ _ _ _ _ _ _ _ pois_tstate)
                 (Hgood j ltac:(lia)) (Hw j ltac:(lia)) Hvis) as (st' & S1 & S2).
      destruct (tg_step _ _ _ _ _ _ _ _ _ _ _ _ _ _ _ _ _ _ TG j Hj) as (st & T1 & T2).
      cbn [h1 with_em h_cfg h_nfeat] in T1, T2. fold l in T1. rewrite S1 in T1. injection T1 as <-.
      rewrite S2 in T2. injection T2 as T2. rewrite <- T2. unfold pois_new. fold V. rewrite HV.
      rewrite (pois_l_fmat nc nf) by assumption.
      pose proof (visited_occ nc _ _ l i (Hw j ltac:(lia)) (Hvis HV) Hi) as Hocc.
      unfold l in Hocc. rewrite wsum_occupancy in Hocc. split; [exact Hocc|].
      unfold pois_upd. cbv zeta.
      assert (Hn : sumn nc (wsum l (fun _ _ => 1)) = INR (length x)).
      { rewrite (sumn_ext nc _ (occupancy nc (pis j) (As j) (pois_bp nf (ps j)) (chunks ls x)))
          by (intros; unfold l; apply wsum_occupancy).
        pose proof (Hst j ltac:(lia)) as TSj.
        apply (occupancy_total (counts_ok nf)); try apply TSj; [|exact Hd|intros c Hc; apply TSj; exact Hc].
        intros o i' Ho Hi'. apply (pois_b_nonneg nc); [apply (Hgood j ltac:(lia))|exact Hi']. }
      rewrite Hn. unfold l at 2. rewrite wsum_occupancy. f_equal. f_equal. f_equal. f_equal.
      unfold l. apply (wsum_posteriors nc (pis j) (As j) (pois_bp nf (ps j)) (chunks ls x) (fun r => IZR (nth f r 0%Z))).
    - intros j Hj Hz.
      pose proof (tg_gain _ _ _ _ _ _ _ _ _ _ _ _ _ _ _ _ _ _ TG j Hj) as G.
      cbn [h1 with_em h_cfg h_nfeat] in G. rewrite !Rplus_0_r in G. apply G. split; [exact Hz|].
      intros HV. apply (Hst j ltac:(lia)). exact HV.
  Qed.
End PoisFit.

(** ** Scoring and decoding: every PoissonHMM that passes validation meets the
    hypotheses of C01-C09, with the product of Poisson masses as emissions. *)
Lemma C02_poisson_ready_l h nc nf pi A lam : pois_model h nc nf pi A lam ->
  ready poisson h nc pi A (counts_ok nf) (fun r i =>
    prodn nf (fun f => let k := Z.to_nat (nth f r 0%Z) in lam i f ^ k * exp (- lam i f) / INR (fact k))).
Proof. exact (pois_ready h nc nf pi A lam). Qed.

(** ** C41: weighted means. *)
Definition pois_default (h : hmm poisp) : Prop :=
  po_alpha (h_em h) = Scal (Fin 0) /\ po_beta (h_em h) = Scal (Fin 0).

Lemma C41_weighted_means_l h nc nf pi A lam ls x h' ev :
  pois_model h nc nf pi A lam -> flat_base h -> pois_default h ->
  sumn nc pi <= 1 -> (forall i, (i < nc)%nat -> sumn nc (A i) <= 1) ->
  good_data (counts_ok nf) ls x -> possible nc pi A (pois_b nf lam) ls x ->
  (has "l" (c_params (h_cfg h)) = true -> all_used nc pi A (pois_b nf lam) (chunks ls x)) ->
  fit_from poisson exact h x (as_lengths ls) = Ok (h', ev) ->
  (exists (pis : nat -> nat -> R) (As lams : nat -> nat -> nat -> R),
    let k := length (m_history (h_mon h')) in
    let b j := pois_b nf (lams j) in
    pis 0%nat = pi /\ As 0%nat = A /\ (forall i f, (i < nc)%nat -> (f < nf)%nat -> lams 0%nat i f = lam i f)
    /\ h_start h' = Some (fvec nc (pis k)) /\ h_trans h' = Some (fmat nc nc (As k))
    /\ po_lam (h_em h') = Some (fmat nc nf (lams k))
    /\ (forall j, (j < k)%nat -> nth j (m_history (h_mon h')) NaN = Fin (data_loglik nc (pis j) (As j) (b j) ls x))
    /\ (forall j, (j <= k)%nat -> nonneg2 nc nf (lams j))
    /\ (has "l" (c_params (h_cfg h)) = true ->
        forall j, (j < k)%nat -> forall i f, (i < nc)%nat -> (f < nf)%nat ->
          let occ := occupancy nc (pis j) (As j) (b j) (chunks ls x) i in
          let tot := weighted_total nc (pis j) (As j) (b j) (chunks ls x) (fun r => IZR (nth f r 0%Z)) i in
          0 < occ /\ lams (S j) i f = tot / occ)
    /\ forall j, (j < k)%nat ->
         data_loglik nc (pis j) (As j) (b j) ls x <= data_loglik nc (pis (S j)) (As (S j)) (b (S j)) ls x)
  /\ ~ In WNotConverging ev.
Proof.
  intros PM FB [D1 D2] Hp1 HA1 Hd Hpos Hu Hf.
  assert (HP := flat_base_priors h nc FB).
  assert (Hg : gamma_prior nc nf (h_em h) (fun _ _ => 0) (fun _ _ => 0))
    by (intros i f _ _; rewrite D1, D2; split; reflexivity).
  assert (Hz : nonneg2 nc nf (fun _ _ => 0)) by (intros i f _ _; lra).
  destruct (pois_run h nc nf pi A lam (fun _ _ => 0) (fun _ _ => 0) PM Hg Hz Hz ls x Hd Hpos Hu
              (fun _ => 1) (fun _ _ => 1) ltac:(intros; lra) ltac:(intros; lra) HP Hp1 HA1 h' ev Hf)
    as (pis & As & lams & R0 & R1 & R2 & R3 & R4 & R5 & R6 & R7 & R8 & R9).
  assert (Hlen : (0 < length x)%nat).
  { destruct Hd as [_ (Hne & Hls & Hsum)]. destruct ls as [|n l]; [contradiction|].
    inversion Hls; subst. simpl in Hsum. lia. }
  assert (R10 : forall j, (j < length (m_history (h_mon h')))%nat ->
    data_loglik nc (pis j) (As j) (pois_b nf (lams j)) ls x
    <= data_loglik nc (pis (S j)) (As (S j)) (pois_b nf (lams (S j))) ls x).
  { intros j Hj. specialize (R9 j Hj ltac:(intros; split; reflexivity)).
    rewrite !log_dirichlet_flat in R9. rewrite !sumn_zero in R9 by (intros; apply log_dirichlet_flat). lra. }
  split.
  - exists pis, As, lams. cbv zeta. repeat (split; [first [assumption|reflexivity]|]). split; [|exact R10].
    intros HV j Hj i f Hi Hf'. destruct (R8 HV j Hj i f Hi Hf') as [Hocc Hupd]. split; [exact Hocc|].
    rewrite Hupd. apply lt_INR in Hlen. simpl in Hlen. field. lra.
  - apply (monotone_history poisson h x (as_lengths ls) h' ev
             (fun j => data_loglik nc (pis j) (As j) (pois_b nf (lams j)) ls x) Hf R6).
    intros j Hj. apply R10. lia.
Qed.

(** With a gamma prior the observations are weighted by the total number of
    samples, not by the occupancy of the state. *)
Lemma C41_gamma_prior_l h nc nf pi A lam al be sp tp ls x h' ev :
  pois_model h nc nf pi A lam -> gamma_prior nc nf (h_em h) al be -> nonneg2 nc nf al -> nonneg2 nc nf be ->
  priors (h_cfg h) nc sp tp -> (forall i, (i < nc)%nat -> 1 <= sp i) ->
  (forall i j, (i < nc)%nat -> (j < nc)%nat -> 1 <= tp i j) ->
  sumn nc pi <= 1 -> (forall i, (i < nc)%nat -> sumn nc (A i) <= 1) ->
  good_data (counts_ok nf) ls x -> possible nc pi A (pois_b nf lam) ls x ->
  all_used nc pi A (pois_b nf lam) (chunks ls x) -> has "l" (c_params (h_cfg h)) = true ->
  fit_from poisson exact h x (as_lengths ls) = Ok (h', ev) ->
  exists (pis : nat -> nat -> R) (As lams : nat -> nat -> nat -> R),
    let k := length (m_history (h_mon h')) in
    let b j := pois_b nf (lams j) in
    pis 0%nat = pi /\ As 0%nat = A /\ (forall i f, (i < nc)%nat -> (f < nf)%nat -> lams 0%nat i f = lam i f)
    /\ po_lam (h_em h') = Some (fmat nc nf (lams k)) /\ (forall j, (j <= k)%nat -> nonneg2 nc nf (lams j))
    /\ forall j, (j < k)%nat -> forall i f, (i < nc)%nat -> (f < nf)%nat ->
         let occ := occupancy nc (pis j) (As j) (b j) (chunks ls x) i in
         let tot := weighted_total nc (pis j) (As j) (b j) (chunks ls x) (fun r => IZR (nth f r 0%Z)) i in
         lams (S j) i f = (al i f + INR (length x) * (tot / occ)) / (be i f + INR (length x)).
Proof.
  intros PM Hg Hal Hbe HP Hsp Htp Hp1 HA1 Hd Hpos Hu HV Hf.
  destruct (pois_run h nc nf pi A lam al be PM Hg Hal Hbe ls x Hd Hpos (fun _ => Hu)
              sp tp Hsp Htp HP Hp1 HA1 h' ev Hf)
    as (pis & As & lams & R0 & R1 & R2 & R3 & R4 & R5 & R6 & R7 & R8 & R9).
  exists pis, As, lams. cbv zeta. repeat (split; [assumption|]).
  intros j Hj i f Hi Hf'. apply (R8 HV j Hj i f Hi Hf').
Qed.

(** A state with no posterior weight gets undefined rates. *)
Lemma C41_unused_state_nan_l h nc nf pi A lam ls x h' v i f :
  pois_model h nc nf pi A lam -> h_nfeat h = Some nf ->
  (exists al be, gamma_prior nc nf (h_em h) al be) ->
  good_data (counts_ok nf) ls x ->
  (forall c, In c (chunks ls x) -> scorable nc pi A (pois_b nf lam) (c_impl (h_cfg h)) c) ->
  has "l" (c_params (h_cfg h)) = true ->
  em_step poisson exact x (as_lengths ls) h = Ok (h', v) ->
  (i < nc)%nat -> (f < nf)%nat -> occupancy nc pi A (pois_b nf lam) (chunks ls x) i = 0 ->
  exists m, po_lam (h_em h') = Some m /\ mget m i f = NaN.
Proof.
  intros PM Hnf (al & be & Hg) Hd Hs HV H Hi Hf H0.
  assert (Tr : trainable poisson h nc pi A (counts_ok nf) (pois_b nf lam)).
  { pose proof (pm_base _ _ _ _ _ _ PM) as []. constructor; try assumption.
    destruct h as [c nfe s t m [a1 b1 l1]]. pose proof (pm_lam _ _ _ _ _ _ PM) as Hl. cbn [h_em po_lam] in Hl. subst l1.
    apply pois_emits; [assumption|apply PM]. }
  unfold em_step in H. rewrite (bo_start _ _ _ _ (pm_base _ _ _ _ _ _ PM)), (bo_trans _ _ _ _ (pm_base _ _ _ _ _ _ PM)) in H.
  rewrite (do_estep_spec poisson h nc pi A _ _ Tr ls x Hd Hs) in H.
  rewrite em_fold_all in H. set (l := map (fun c => (c, seq_post nc pi A (pois_b nf lam) c)) (chunks ls x)) in *.
  assert (Hl : forall y w, In (y, w) l -> y <> [] /\ Forall (counts_ok nf) y).
  { intros y g Hy. apply in_map_iff in Hy as (c & Heq & Hc). injection Heq as -> _.
    destruct (good_data_chunks _ ls x Hd) as (_ & _ & Hch). rewrite Forall_forall in Hch. apply Hch. exact Hc. }
  cbn [poisson ec_stats0] in H. unfold pois_stats0 in H. rewrite (tr_nc _ _ _ _ _ _ _ Tr), Hnf in H.
  change (tab nc (fun _ => Fin 0)) with (fvec nc (fun _ => 0)) in H.
  change (mtab nc nf (fun _ _ => Fin 0)) with (fmat nc nf (fun _ _ => 0)) in H.
  fold poisson in H. rewrite (pois_acc_all nc nf) in H by assumption. cbn [bind] in H.
  unfold do_mstep in H. cbn [poisson ec_mstep st_em] in H. unfold pois_mstep in H. rewrite HV in H.
  cbn [bind] in H. injection H as <- <-. cbn [h_em po_lam po_obs po_post]. eexists. split; [reflexivity|].
  rewrite nrow_fmat; try rewrite ncol_fmat; rewrite mget_mtab, mget_fmat, vget_fvec by assumption.
  unfold l. rewrite wsum_occupancy, H0, !Rplus_0_l. fold l.
  assert (Hw : wsum l (cnt f) i = 0).
  { unfold l, cnt. rewrite (wsum_posteriors nc pi A (pois_b nf lam) (chunks ls x) (fun r => IZR (nth f r 0%Z)) i).
    unfold weighted_total. unfold occupancy in H0.
    destruct (good_data_chunks _ ls x Hd) as (_ & _ & Hch). rewrite Forall_forall in Hch.
    assert (Hnn : forall c t, In c (chunks ls x) -> (t < length c)%nat -> 0 <= seq_post nc pi A (pois_b nf lam) c t i).
    { intros c t Hc Ht. destruct (Hch c Hc) as [Hne Hok].
      pose proof (scorable_lik poisson h nc pi A (counts_ok nf) (pois_b nf lam) (c_impl (h_cfg h)) c Tr Hne (Hs c Hc)) as HL.
      apply (seq_post_dist (counts_ok nf) nc pi A (pois_b nf lam) c t); try assumption; apply Tr. }
    apply sumL_zero. intros c Hc. apply sumn_zero. intros t Ht.
    assert (E0 : sumn (length c) (fun t => seq_post nc pi A (pois_b nf lam) c t i) = 0).
    { apply (sumL_eq0 (fun c => sumn (length c) (fun t => seq_post nc pi A (pois_b nf lam) c t i)) (chunks ls x));
        [|exact H0|exact Hc].
      intros c' Hc'. apply sumn_nonneg. intros t' Ht'. apply Hnn; assumption. }
    rewrite (sumn_eq0 (length c) (fun t => seq_post nc pi A (pois_b nf lam) c t i)); [ring| |exact E0|exact Ht].
    intros t' Ht'. apply Hnn; assumption. }
  rewrite Hw. destruct (Hg i f Hi Hf) as [-> ->].
  cbn [xdiv]. destruct (Req_EM_T 0 0); [|contradiction].
  destruct (Rlt_dec 0 0); [lra|]. rewrite !xsum_fvec. reflexivity.
Qed.

(** ** The other properties of training, for PoissonHMM. *)
Lemma C21_poisson_l fp h x lengths h' ev :
  fit_from poisson fp h x lengths = Ok (h', ev) ->
  has "l" (c_params (h_cfg h)) = false -> h_em h' = h_em h.
Proof.
  intros H Hh. apply (fit_keeps poisson fp h x lengths h' ev _ (fun p => p) H).
  - intros nf p nf' p' Hc. cbn [poisson ec_check] in Hc. unfold pois_check in Hc.
    destruct (po_lam p); [|discriminate]. destruct (negb _); [discriminate|]. injection Hc as <- <-. reflexivity.
  - intros nf p st p' Hm. cbn [poisson ec_mstep] in Hm. unfold pois_mstep in Hm. rewrite Hh in Hm.
    injection Hm as <-. reflexivity.
Qed.

Lemma C25_poisson_l h nc nf pi A lam al be sp tp ls x h' ev :
  pois_model h nc nf pi A lam -> gamma_prior nc nf (h_em h) al be -> nonneg2 nc nf al -> nonneg2 nc nf be ->
  priors (h_cfg h) nc sp tp -> (forall i, (i < nc)%nat -> 1 <= sp i) ->
  (forall i j, (i < nc)%nat -> (j < nc)%nat -> 1 <= tp i j) ->
  good_data (counts_ok nf) ls x -> possible nc pi A (pois_b nf lam) ls x ->
  (has "l" (c_params (h_cfg h)) = true -> all_used nc pi A (pois_b nf lam) (chunks ls x)) ->
  fit_from poisson exact h x (as_lengths ls) = Ok (h', ev) ->
  fit_from poisson exact (with_cfg (cfg_impl "log") h) x (as_lengths ls) = Ok (with_cfg (cfg_impl "log") h', ev).
Proof.
  intros PM Hg Hal Hbe HP Hsp Htp Hd Hpos Hu.
  exact (pois_same_training h nc nf pi A lam al be PM Hg Hal Hbe ls x Hd Hpos Hu sp tp Hsp Htp HP h' ev).
Qed.

Lemma C14_poisson_l h nc nf pi A lam ls x st lp :
  trainable poisson h nc pi A (counts_ok nf) (pois_b nf lam) -> good_data (counts_ok nf) ls x ->
  h_nfeat h = Some nf -> has "l" (c_params (h_cfg h)) = true -> nonneg2 nc nf lam ->
  (forall c, In c (chunks ls x) -> scorable nc pi A (pois_b nf lam) (c_impl (h_cfg h)) c) ->
  do_estep poisson exact h (fvec nc pi) (fmat nc nc A) x (as_lengths ls) = Ok (st, lp) ->
  po_post (st_em st) = fvec nc (occupancy nc pi A (pois_b nf lam) (chunks ls x))
  /\ po_obs (st_em st) = fmat nc nf (fun i f =>
       weighted_total nc pi A (pois_b nf lam) (chunks ls x) (fun r => IZR (nth f r 0%Z)) i)
  /\ sumn nc (occupancy nc pi A (pois_b nf lam) (chunks ls x)) = INR (length x).
Proof.
  intros Tr Hd Hnf HV Hnn Hs H.
  rewrite (do_estep_spec poisson h nc pi A _ _ Tr ls x Hd Hs) in H.
  rewrite em_fold_all in H. set (l := map (fun c => (c, seq_post nc pi A (pois_b nf lam) c)) (chunks ls x)) in *.
  destruct (good_data_chunks _ ls x Hd) as (_ & _ & Hch). rewrite Forall_forall in Hch.
  assert (Hl : forall y w, In (y, w) l -> y <> [] /\ Forall (counts_ok nf) y).
  { intros y g Hy. apply in_map_iff in Hy as (c & Heq & Hc). injection Heq as -> _. apply Hch. exact Hc. }
  cbn [poisson ec_stats0] in H. unfold pois_stats0 in H. rewrite (tr_nc _ _ _ _ _ _ _ Tr), Hnf in H.
  change (tab nc (fun _ => Fin 0)) with (fvec nc (fun _ => 0)) in H.
  change (mtab nc nf (fun _ _ => Fin 0)) with (fmat nc nf (fun _ _ => 0)) in H.
  fold poisson in H. rewrite (pois_acc_all nc nf) in H by assumption. cbn [bind] in H. injection H as <- <-.
  cbn [st_em po_post po_obs]. split; [|split].
  - apply fvec_ext. intros i Hi. unfold l. rewrite wsum_occupancy. ring.
  - apply fmat_ext. intros i f Hi Hf. unfold l, cnt.
    rewrite (wsum_posteriors nc pi A (pois_b nf lam) (chunks ls x) (fun r => IZR (nth f r 0%Z)) i). ring.
  - apply (occupancy_total (counts_ok nf)); try apply Tr; try exact Hd.
    intros c Hc. destruct (Hch c Hc) as [Hne Hok].
    apply (scorable_lik poisson h nc pi A (counts_ok nf) (pois_b nf lam) (c_impl (h_cfg h)) c Tr Hne (Hs c Hc)).
Qed.

(** ** Concrete models. *)
(** Two states visited alternately. *)
Definition sw_pi (i : nat) : R := match i with 0%nat => 1 | _ => 0 end.
Definition sw_A (i j : nat) : R := match i, j with 0%nat, 0%nat => 0 | 0%nat, _ => 1 | _, 0%nat => 1 | _, _ => 0 end.
Lemma sw_base {P} (h : hmm P) : c_nc (h_cfg h) = 2%nat -> h_start h = Some (fvec 2 sw_pi) ->
  h_trans h = Some (fmat 2 2 sw_A) -> base_ok h 2 sw_pi sw_A.
Proof.
  intros H1 H2 H3. constructor; try assumption.
  - lia.
  - intros i Hi. destruct i as [|[|i]]; [| |lia]; simpl; lra.
  - replace (sumn 2 sw_pi) with 1 by (simpl; lra). exact near1_1.
  - intros i j Hi Hj. destruct i as [|[|i]]; [| |lia]; destruct j as [|[|j]]; try lia; simpl; lra.
  - intros i Hi. replace (sumn 2 (sw_A i)) with 1; [exact near1_1|].
    destruct i as [|[|i]]; [| |lia]; simpl; lra.
Qed.

(** Two observations: the first comes from state 0, the second from state 1. *)
Lemma sw_lik {X} (b : X -> nat -> R) u v : seq_lik 2 sw_pi sw_A b [u; v] = b u 0%nat * b v 1%nat.
Proof. unfold seq_lik, likelihood, joint, obsB. simpl. ring. Qed.
Lemma sw_post {X} (b : X -> nat -> R) u v t i : 0 < b u 0%nat -> 0 < b v 1%nat -> (t < 2)%nat -> (i < 2)%nat ->
  seq_post 2 sw_pi sw_A b [u; v] t i = if Nat.eqb t i then 1 else 0.
Proof.
  intros Hu Hv Ht Hi. unfold seq_post, posterior. fold (seq_lik 2 sw_pi sw_A b [u; v]). rewrite sw_lik.
  destruct t as [|[|t]]; [| |lia]; (destruct i as [|[|i]]; [| |lia]); unfold marginal, joint, obsB; simpl; field; lra.
Qed.

Definition ex_po (params : string) (a b : R) : hmm poisp :=
  Hmm (Cfg 2 params "stl" "map" "log" 1 (Fin (/ 100)) false (Scal (Fin 1)) (Scal (Fin 1))) None
      (Some (fvec 2 sw_pi)) (Some (fmat 2 2 sw_A)) (Monitor (Fin (/ 100)) 1 false [] 0)
      (Poisp (Scal (Fin a)) (Scal (Fin b)) (Some (fmat 2 1 (fun _ _ => 1)))).
Definition ex_px : list (list Z) := [[0]; [4]]%Z.

Lemma ex_pois_model params a b : pois_model (ex_po params a b) 2 1 sw_pi sw_A (fun _ _ => 1).
Proof.
  constructor; [apply sw_base; reflexivity|left; reflexivity|reflexivity|intros i f _ _; lra].
Qed.
Lemma ex_px_good : good_data (counts_ok 1) [2]%nat ex_px.
Proof.
  split; [|split; [discriminate|split; [repeat constructor; lia|reflexivity]]].
  repeat constructor; lia.
Qed.
Lemma ex_pois_b_pos o i : 0 < pois_b 1 (fun _ _ => 1) o i.
Proof. apply prodn_pos. intros f _. apply pois_mass_pos. lra. Qed.
Lemma ex_px_possible : possible 2 sw_pi sw_A (pois_b 1 (fun _ _ => 1)) [2]%nat ex_px.
Proof.
  intros c [<-|[]]. cbn [firstn ex_px]. rewrite sw_lik. apply Rmult_lt_0_compat; apply ex_pois_b_pos.
Qed.
Lemma ex_px_used : all_used 2 sw_pi sw_A (pois_b 1 (fun _ _ => 1)) (chunks [2]%nat ex_px).
Proof.
  intros i Hi. exists [[0]; [4]]%Z, i. split; [left; reflexivity|]. split; [exact Hi|].
  rewrite sw_post by (try apply ex_pois_b_pos; assumption). rewrite Nat.eqb_refl. lra.
Qed.

Lemma ex_po_fit params a b : 0 <= a -> 0 <= b ->
  exists h' ev, fit_from poisson exact (ex_po params a b) ex_px (as_lengths [2]%nat) = Ok (h', ev)
    /\ length (m_history (h_mon h')) = 1%nat.
Proof.
  intros Ha Hb.
  destruct (pois_fit_log_ok (ex_po params a b) 2 1 sw_pi sw_A (fun _ _ => 1) (fun _ _ => a) (fun _ _ => b)
    (ex_pois_model params a b) ltac:(intros i f _ _; split; reflexivity) ltac:(intros i f _ _; exact Ha) ltac:(intros i f _ _; exact Hb)
    [2]%nat ex_px ex_px_good ex_px_possible (fun _ => ex_px_used) (fun _ => 1) (fun _ _ => 1)
    ltac:(intros; lra) ltac:(intros; lra) ltac:(apply (flat_base_priors (ex_po params a b) 2); split; reflexivity) eq_refl)
    as (h' & ev & H).
  exists h', ev. split; [exact H|].
  destruct (C23_stopping_and_history_l poisson exact (ex_po params a b) ex_px [2]%nat h' ev eq_refl eq_refl H)
    as (_ & H1 & H2 & _). cbn [ex_po h_cfg c_n_iter] in H1, H2. lia.
Qed.

(** The textbook posterior mean uses the occupancy of the state. *)
Lemma C41_gamma_prior_refuted_l : exists h nc nf pi A lam al be ls x h' ev m i f,
  pois_model h nc nf pi A lam /\ gamma_prior nc nf (h_em h) al be
  /\ 0 < al i f /\ 0 < be i f /\ (i < nc)%nat /\ (f < nf)%nat
  /\ good_data (counts_ok nf) ls x /\ possible nc pi A (pois_b nf lam) ls x
  /\ all_used nc pi A (pois_b nf lam) (chunks ls x)
  /\ fit_from poisson exact h x (as_lengths ls) = Ok (h', ev) /\ length (m_history (h_mon h')) = 1%nat
  /\ po_lam (h_em h') = Some m
  /\ mget m i f <> Fin ((al i f + weighted_total nc pi A (pois_b nf lam) (chunks ls x) (fun r => IZR (nth f r 0%Z)) i)
                        / (be i f + occupancy nc pi A (pois_b nf lam) (chunks ls x) i)).
Proof.
  destruct (ex_po_fit "l" 1 1 ltac:(lra) ltac:(lra)) as (h' & ev & H & Hk).
  destruct (C41_gamma_prior_l (ex_po "l" 1 1) 2 1 sw_pi sw_A (fun _ _ => 1) (fun _ _ => 1) (fun _ _ => 1)
    (fun _ => 1) (fun _ _ => 1) [2]%nat ex_px h' ev (ex_pois_model _ _ _)) as (pis & As & lams & E0 & E1 & E2 & E3 & _ & E4);
    try (intros; lra); try exact ex_px_good; try exact ex_px_possible; try exact ex_px_used; try exact H; try reflexivity.
  - intros i f _ _; split; reflexivity.
  - intros i f _ _; lra.
  - intros i f _ _; lra.
  - apply (flat_base_priors (ex_po "l" 1 1) 2); split; reflexivity.
  - simpl; lra.
  - intros i Hi. destruct i as [|[|i]]; [| |lia]; simpl; lra.
  - rewrite Hk in E3, E4. cbv zeta in E4.
    exists (ex_po "l" 1 1), 2%nat, 1%nat, sw_pi, sw_A, (fun _ _ => 1), (fun _ _ => 1), (fun _ _ => 1), [2]%nat, ex_px, h', ev,
      (fmat 2 1 (lams 1%nat)), 1%nat, 0%nat.
    split; [apply ex_pois_model|]. split; [intros i f _ _; split; reflexivity|].
    split; [lra|]. split; [lra|]. split; [lia|]. split; [lia|]. split; [exact ex_px_good|].
    split; [exact ex_px_possible|]. split; [exact ex_px_used|]. split; [exact H|]. split; [exact Hk|]. split; [exact E3|].
    rewrite mget_fmat by lia. rewrite (E4 0%nat) by lia. rewrite E0, E1.
    assert (Hb : forall o i, (i < 2)%nat -> pois_b 1 (lams 0%nat) o i = pois_b 1 (fun _ _ => 1) o i).
    { intros o i Hi. unfold pois_b. apply prodn_ext. intros f Hf. rewrite E2 by lia. reflexivity. }
    assert (Hocc : forall b, (forall o i, (i < 2)%nat -> b o i = pois_b 1 (fun _ _ => 1) o i) ->
       occupancy 2 sw_pi sw_A b (chunks [2]%nat ex_px) 1 = 1
       /\ weighted_total 2 sw_pi sw_A b (chunks [2]%nat ex_px) (fun r => IZR (nth 0 r 0%Z)) 1 = 4).
    { intros b Hb'. unfold occupancy, weighted_total. cbn [chunks firstn skipn ex_px sumL length sumn map].
      rewrite !sw_post by (try (rewrite Hb' by lia; apply ex_pois_b_pos); lia). simpl. lra. }
    destruct (Hocc (pois_b 1 (lams 0%nat)) Hb) as [-> ->].
    destruct (Hocc (pois_b 1 (fun _ _ => 1)) ltac:(reflexivity)) as [-> ->].
    cbn [length ex_px]. intros Hq. injection Hq. simpl. lra.
Qed.

Lemma C41_applies_l : exists h' ev,
  fit_from poisson exact (ex_po "stl" 0 0) ex_px (as_lengths [2]%nat) = Ok (h', ev)
  /\ length (m_history (h_mon h')) = 1%nat /\ pois_default (ex_po "stl" 0 0)
  /\ po_lam (h_em h') = Some (fmat 2 1 (fun i _ => match i with 0%nat => 0 | _ => 4 end)).
Proof.
  destruct (ex_po_fit "stl" 0 0 ltac:(lra) ltac:(lra)) as (h' & ev & H & Hk).
  exists h', ev. split; [exact H|]. split; [exact Hk|]. split; [split; reflexivity|].
  destruct (C41_weighted_means_l (ex_po "stl" 0 0) 2 1 sw_pi sw_A (fun _ _ => 1) [2]%nat ex_px h' ev
    (ex_pois_model _ _ _) ltac:(split; reflexivity) ltac:(split; reflexivity)) as [(pis & As & lams & E0 & E1 & E2 & _ & _ & E3 & _ & _ & E4 & _) _];
    try exact ex_px_good; try exact ex_px_possible; try exact H.
  - simpl; lra.
  - intros i Hi. destruct i as [|[|i]]; [| |lia]; simpl; lra.
  - intros _. exact ex_px_used.
  - rewrite Hk in E3, E4. cbv zeta in E4. rewrite E3. f_equal. apply fmat_ext. intros i f Hi Hf.
    assert (f = 0%nat) by lia. subst f.
    destruct (E4 eq_refl 0%nat ltac:(lia) i 0%nat Hi Hf) as [_ ->]. rewrite E0, E1.
    assert (Hb : forall o i, (i < 2)%nat -> pois_b 1 (lams 0%nat) o i = pois_b 1 (fun _ _ => 1) o i).
    { intros o j Hj. unfold pois_b. apply prodn_ext. intros f Hf'. rewrite E2 by lia. reflexivity. }
    unfold occupancy, weighted_total. cbn [chunks firstn skipn ex_px sumL length sumn map].
    rewrite !sw_post by (try (rewrite Hb by lia; apply ex_pois_b_pos); lia).
    destruct i as [|[|i]]; [| |lia]; simpl; field.
Qed.

(** The last component never visited: state 1 of a chain that stays in state 0. *)
Definition st_pi (i : nat) : R := match i with 0%nat => 1 | _ => 0 end.
Definition st_A (i j : nat) : R := if Nat.eqb i j then 1 else 0.
Definition ex_pu : hmm poisp :=
  Hmm (Cfg 2 "l" "stl" "map" "log" 1 (Fin (/ 100)) false (Scal (Fin 1)) (Scal (Fin 1))) (Some 1%nat)
      (Some (fvec 2 st_pi)) (Some (fmat 2 2 st_A)) (Monitor (Fin (/ 100)) 1 false [] 0)
      (Poisp (Scal (Fin 0)) (Scal (Fin 0)) (Some (fmat 2 1 (fun _ _ => 1)))).

Lemma C41_unused_applies_l : exists h' v,
  pois_model ex_pu 2 1 st_pi st_A (fun _ _ => 1)
  /\ (forall c, In c (chunks [2]%nat ex_px) -> scorable 2 st_pi st_A (pois_b 1 (fun _ _ => 1)) "log" c)
  /\ occupancy 2 st_pi st_A (pois_b 1 (fun _ _ => 1)) (chunks [2]%nat ex_px) 1 = 0
  /\ em_step poisson exact ex_px (as_lengths [2]%nat) ex_pu = Ok (h', v).
Proof.
  assert (PM : pois_model ex_pu 2 1 st_pi st_A (fun _ _ => 1)).
  { constructor; [|right; reflexivity|reflexivity|intros i f _ _; lra]. constructor; try reflexivity.
    - lia.
    - intros i Hi. destruct i as [|[|i]]; [| |lia]; simpl; lra.
    - replace (sumn 2 st_pi) with 1 by (simpl; lra). exact near1_1.
    - intros i j Hi Hj. unfold st_A. destruct (Nat.eqb i j); lra.
    - intros i Hi. replace (sumn 2 (st_A i)) with 1; [exact near1_1|].
      destruct i as [|[|i]]; [| |lia]; unfold st_A; simpl; lra. }
  assert (Hl : forall c, In c (chunks [2]%nat ex_px) -> 0 < seq_lik 2 st_pi st_A (pois_b 1 (fun _ _ => 1)) c).
  { intros c [<-|[]]. cbn [firstn ex_px]. unfold seq_lik, likelihood, joint, obsB, st_pi, st_A. simpl.
    pose proof (ex_pois_b_pos [0%Z] 0). pose proof (ex_pois_b_pos [4%Z] 0).
    assert (0 < pois_b 1 (fun _ _ => 1) [0%Z] 0 * pois_b 1 (fun _ _ => 1) [4%Z] 0) by (apply Rmult_lt_0_compat; assumption). nra. }
  assert (Hs : forall c, In c (chunks [2]%nat ex_px) -> scorable 2 st_pi st_A (pois_b 1 (fun _ _ => 1)) "log" c)
    by (intros c Hc; left; split; [reflexivity|apply Hl; exact Hc]).
  assert (Tr : trainable poisson ex_pu 2 st_pi st_A (counts_ok 1) (pois_b 1 (fun _ _ => 1))).
  { pose proof (pm_base _ _ _ _ _ _ PM) as []. constructor; try assumption.
    apply pois_emits; [reflexivity|apply PM]. }
  unfold em_step. cbn [ex_pu h_start h_trans]. fold ex_pu.
  rewrite (do_estep_spec poisson ex_pu 2 st_pi st_A _ _ Tr [2]%nat ex_px ex_px_good Hs).
  rewrite em_fold_all. cbn [poisson ec_stats0 ex_pu h_cfg h_nfeat]. unfold pois_stats0. cbn [c_nc].
  change (tab 2 (fun _ => Fin 0)) with (fvec 2 (fun _ => 0)).
  change (mtab 2 1 (fun _ _ => Fin 0)) with (fmat 2 1 (fun _ _ => 0)). fold poisson.
  rewrite (pois_acc_all 2 1); [|intros y w [Heq|[]]; injection Heq as <- _; split; [discriminate|repeat constructor; lia]|reflexivity].
  cbn [bind]. do 2 eexists. split; [exact PM|]. split; [exact Hs|]. split; [|reflexivity].
  unfold occupancy. cbn [chunks firstn skipn ex_px sumL length sumn].
  unfold seq_post, posterior, marginal, joint, obsB, st_pi, st_A. simpl. unfold Rdiv. ring.
Qed.

Lemma C25_poisson_applies_l : exists h' ev,
  fit_from poisson exact (ex_po "stl" 1 2) ex_px (as_lengths [2]%nat) = Ok (h', ev)
  /\ gamma_prior 2 1 (h_em (ex_po "stl" 1 2)) (fun _ _ => 1) (fun _ _ => 2)
  /\ all_used 2 sw_pi sw_A (pois_b 1 (fun _ _ => 1)) (chunks [2]%nat ex_px).
Proof.
  destruct (ex_po_fit "stl" 1 2 ltac:(lra) ltac:(lra)) as (h' & ev & H & _). exists h', ev. split; [exact H|].
  split; [intros i f _ _; split; reflexivity|exact ex_px_used].
Qed.

Lemma C21_poisson_applies_l : exists h' ev,
  fit_from poisson exact (ex_po "st" 0 0) ex_px (as_lengths [2]%nat) = Ok (h', ev)
  /\ has "l" (c_params (h_cfg (ex_po "st" 0 0))) = false.
Proof.
  destruct (ex_po_fit "st" 0 0 ltac:(lra) ltac:(lra)) as (h' & ev & H & _). exists h', ev. split; [exact H|reflexivity].
Qed.
