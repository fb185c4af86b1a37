(** * C89: with a positive tolerance, training settles. *)
From Verif Require Export Stop_thms Limit_thms.

(** The same model with [n_iter = n]. *)
Definition at_most {P} (n : nat) (h : hmm P) : hmm P :=
  Hmm (cfg_n_iter n (h_cfg h)) (h_nfeat h) (h_start h) (h_trans h) (lim n (h_mon h)) (h_em h).
Section From.
  Context {P X St G : Type} (E : emclass P X St) (I : initclass P X G) (rg : rng G) (fp : fpmode).
  Hypothesis HB : n_iter_blind E I rg fp.
  Lemma from_at_most n h x ls : fit_from E fp (at_most n h) x ls =
    do h1 <- check E fp h;
    do (h2, m, ev) <- fit_loop fp (em_step E fp x (fit_lengths x ls)) (zero_rows fp) n h1 (lim n (monitor_reset (h_mon h1)));
    Ok (ended n h2 m, ev).
  Proof.
    destruct HB as (B1 & B2 & B3 & B4 & B5 & B6 & _).
    change (at_most n h) with (with_cfg (cfg_n_iter n) (with_mon (lim n (h_mon h)) h)). unfold fit_from.
    rewrite check_n by auto. rewrite check_mon, rmap_bind, !bind_assoc. fold (fit_lengths x ls).
    destruct (check E fp h) as [h1|] eqn:Hc; [|reflexivity]. cbn [bind].
    destruct (check_keeps E fp _ _ Hc) as (_ & _ & _ & C4).
    change (c_n_iter (h_cfg (with_cfg (cfg_n_iter n) (with_mon (lim n (h_mon h)) h1)))) with n.
    rewrite fit_loop_n by auto. rewrite fit_loop_mon by reflexivity. rewrite rmap_bind, !bind_assoc.
    change (monitor_reset (h_mon (with_cfg (cfg_n_iter n) (with_mon (lim n (h_mon h)) h1)))) with (lim n (monitor_reset (h_mon h))). rewrite <- C4.
    apply bind_ext. intros [[h2 m] ev2]. reflexivity.
  Qed.
  Lemma from_limit n n' h x ls h' ev : fit_from E fp (at_most n h) x ls = Ok (h', ev) ->
    (length (m_history (h_mon h')) < n)%nat -> (length (m_history (h_mon h')) <= n')%nat ->
    fit_from E fp (at_most n' h) x ls = Ok (at_most n' h', ev).
  Proof.
    intros H Hlt Hle. rewrite from_at_most in H |- *. apply bind_inv in H as (h1 & Hc & H). rewrite Hc. cbn [bind].
    apply bind_inv in H as ([[h2 m] ev2] & Hl & H). injection H as <- <-.
    assert (Hm : m_iter m = length (m_history m)).
    { destruct (fit_loop_trace _ _ _ _ _ _ _ _ _ Hl) as (vs & _ & -> & _). reflexivity. }
    cbn [ended h_mon] in Hlt, Hle. rewrite <- Hm in Hlt, Hle.
    pose proof (loop_limit fp _ (zero_rows fp) n n n' h1 (monitor_reset (h_mon h1)) h2 m ev2 eq_refl Hle Hlt Hl) as H'.
    cbn [monitor_reset m_iter] in H'. rewrite Nat.sub_0_r in H'. fold (monitor_reset (h_mon h1)) in H'. rewrite H'. reflexivity.
  Qed.
End From.

(** From some [n_iter] on, [fit] trains one and the same model, and its last
    improvement is below the tolerance. *)
Definition settles {P X St} (E : emclass P X St) (h : hmm P) (x : list X) (ls : list nat) (tol : R) : Prop :=
  exists h' ev, (exists r a z, m_history (h_mon h') = r ++ [Fin a; Fin z] /\ z - a < tol)
  /\ forall n, (length (m_history (h_mon h')) <= n)%nat ->
       fit_from E exact (at_most n h) x (as_lengths ls) = Ok (at_most n h', ev).

Lemma nat_above (r : R) : exists N, r < INR N.
Proof.
  exists (Z.to_nat (up r)). destruct (archimed r) as [H _]. destruct (Z.le_gt_cases 0 (up r)) as [Hz|Hz].
  - rewrite INR_IZR_INZ, Z2Nat.id by exact Hz. lra.
  - assert (IZR (up r) <= 0) by (apply IZR_le; lia). pose proof (pos_INR (Z.to_nat (up r))). lra.
Qed.
Lemma settle {P X St G} (E : emclass P X St) (I : initclass P X G) (rg : rng G) h nc pi A ok b x ls tol U :
  n_iter_blind E I rg exact -> good_data ok ls x -> c_impl (h_cfg h) = "log"%string ->
  (forall n, ready E (at_most n h) nc pi A ok b) ->
  (forall n, exists h' ev, fit_from E exact (at_most n h) x (as_lengths ls) = Ok (h', ev)) ->
  (forall n h' ev, (0 < n)%nat -> fit_from E exact (at_most n h) x (as_lengths ls) = Ok (h', ev) ->
     exists L0, score E exact (at_most n h) x (as_lengths ls) = Ok (Fin L0)
       /\ stopped_by_tol n (m_history (h_mon h')) L0 tol U) ->
  settles E h x ls tol.
Proof.
  intros HB Hd Himp RD HF HS.
  assert (K : forall n, score E exact (at_most n h) x (as_lengths ls) = Ok (xln (prodL (seq_lik nc pi A b) (chunks ls x)))).
  { intros n. apply (C02_score_lengths_l E (at_most n h) nc pi A ok b ls x (RD n) Himp Hd). }
  destruct (HF 1%nat) as (h1 & ev1 & F1). destruct (HS 1%nat h1 ev1 ltac:(lia) F1) as (L0 & S1 & _). rewrite K in S1. injection S1 as S1.
  destruct (nat_above (2 + (U - L0) / tol)) as [N HN].
  assert (N0 : (0 < N)%nat).
  { destruct N; [|lia]. exfalso. destruct (HS 1%nat h1 ev1 ltac:(lia) F1) as (L1 & S2 & T & _). rewrite K, S1 in S2. injection S2 as <-.
    pose proof (pos_INR (length (m_history (h_mon h1)))). simpl in HN. lra. }
  destruct (HF N) as (h' & ev & F). destruct (HS N h' ev N0 F) as (L1 & S2 & T1 & T2). rewrite K, S1 in S2. injection S2 as <-.
  exists h', ev. split; [apply T2; exact HN|]. intros n Hn. apply (from_limit E I rg exact HB N n h x (as_lengths ls) h' ev F); [|exact Hn].
  apply INR_lt. lra.
Qed.

Lemma at_most_tol {P} n (h : hmm P) tol : (0 < n)%nat -> c_tol (h_cfg h) = Fin tol -> m_tol (h_mon h) = Fin tol -> 0 < tol -> tolerant (at_most n h) tol.
Proof. intros Hn H1 H2 H3. repeat split; assumption. Qed.

Lemma C89_categorical_settles_l h nc nf pi A e sp tp ep ls x tol :
  cat_model h nc nf pi A e -> cat_priors h nc nf sp tp ep ->
  sumn nc pi <= 1 -> (forall i, (i < nc)%nat -> sumn nc (A i) <= 1) -> (forall i, (i < nc)%nat -> sumn nf (e i) <= 1) ->
  good_data (sym_ok nf) ls x -> possible nc pi A (cat_b e) ls x -> c_impl (h_cfg h) = "log"%string ->
  c_tol (h_cfg h) = Fin tol -> m_tol (h_mon h) = Fin tol -> 0 < tol ->
  settles categorical h x ls tol.
Proof.
  intros CM CP S1 S2 S3 Hd Hpos Himp T1 T2 T3.
  assert (CMn : forall n, cat_model (at_most n h) nc nf pi A e) by (intros n; destruct CM; constructor; assumption).
  assert (CPn : forall n, cat_priors (at_most n h) nc nf sp tp ep) by (intros n; destruct CP; constructor; assumption).
  apply (settle categorical cat_initc flat_rng h nc pi A (sym_ok nf) (cat_b e) x ls tol 0 (cat_blind _ _) Hd Himp).
  - intros n. apply cat_ready, CMn.
  - intros n. destruct (cat_fit_log_ok (at_most n h) nc nf pi A e sp tp ep ls x (CMn n) (CPn n) Hd Hpos Himp) as [[h' ev] H]. exists h', ev. exact H.
  - intros n h' ev Hn F. exact (C88_categorical_l (at_most n h) nc nf pi A e sp tp ep ls x h' ev tol (CMn n) (CPn n) S1 S2 S3 Hd Hpos (at_most_tol n h tol Hn T1 T2 T3) F).
Qed.
Lemma C89_poisson_settles_l h nc nf pi A lam al be sp tp ls x tol :
  pois_model h nc nf pi A lam -> gamma_prior nc nf (h_em h) al be -> nonneg2 nc nf al -> nonneg2 nc nf be ->
  priors (h_cfg h) nc sp tp -> (forall i, (i < nc)%nat -> 1 <= sp i) -> (forall i j, (i < nc)%nat -> (j < nc)%nat -> 1 <= tp i j) ->
  sumn nc pi <= 1 -> (forall i, (i < nc)%nat -> sumn nc (A i) <= 1) ->
  good_data (counts_ok nf) ls x -> possible nc pi A (pois_b nf lam) ls x ->
  (has "l" (c_params (h_cfg h)) = true -> all_used nc pi A (pois_b nf lam) (chunks ls x)) -> c_impl (h_cfg h) = "log"%string ->
  c_tol (h_cfg h) = Fin tol -> m_tol (h_mon h) = Fin tol -> 0 < tol ->
  settles poisson h x ls tol.
Proof.
  intros PM Hg Ha Hb HP Hsp Htp S1 S2 Hd Hpos Hu Himp T1 T2 T3.
  assert (PMn : forall n, pois_model (at_most n h) nc nf pi A lam) by (intros n; destruct PM as [[] ? ? ?]; constructor; [constructor|..]; assumption).
  assert (HPn : forall n, priors (h_cfg (at_most n h)) nc sp tp) by (intros n; exact HP).
  apply (settle poisson pois_initc flat_rng h nc pi A (counts_ok nf) (pois_b nf lam) x ls tol 0 (pois_blind _ _) Hd Himp).
  - intros n. apply pois_ready, PMn.
  - intros n. exact (pois_fit_log_ok (at_most n h) nc nf pi A lam al be (PMn n) Hg Ha Hb ls x Hd Hpos Hu sp tp Hsp Htp (HPn n) Himp).
  - intros n h' ev Hn F. exact (C88_poisson_l (at_most n h) nc nf pi A lam al be sp tp ls x h' ev tol (PMn n) Hg Ha Hb (HPn n) Hsp Htp S1 S2 Hd Hpos Hu (at_most_tol n h tol Hn T1 T2 T3) F).
Qed.
Lemma C89_multinomial_settles_l h nc nf pi A e sp tp ls x tol :
  mult_model h nc nf pi A e ->
  priors (h_cfg h) nc sp tp -> (forall i, (i < nc)%nat -> 1 <= sp i) -> (forall i j, (i < nc)%nat -> (j < nc)%nat -> 1 <= tp i j) ->
  sumn nc pi <= 1 -> (forall i, (i < nc)%nat -> sumn nc (A i) <= 1) ->
  good_data (trials_ok nf) ls x -> possible nc pi A (mult_b nf e) ls x ->
  (has "e" (c_params (h_cfg h)) = true -> all_used nc pi A (mult_b nf e) (chunks ls x)) -> c_impl (h_cfg h) = "log"%string ->
  c_tol (h_cfg h) = Fin tol -> m_tol (h_mon h) = Fin tol -> 0 < tol ->
  settles multinomial h x ls tol.
Proof.
  intros MM HP Hsp Htp S1 S2 Hd Hpos Hu Himp T1 T2 T3.
  assert (MMn : forall n, mult_model (at_most n h) nc nf pi A e) by (intros n; destruct MM as [[] ? ? ? ? ?]; constructor; [constructor|..]; assumption).
  assert (HPn : forall n, priors (h_cfg (at_most n h)) nc sp tp) by (intros n; exact HP).
  apply (settle multinomial mult_initc flat_rng h nc pi A (trials_ok nf) (mult_b nf e) x ls tol 0 (mult_blind _ _) Hd Himp).
  - intros n. apply (ready_sub multinomial _ nc pi A (counts_ok nf)); [intros o Ho; apply Ho|]. apply mult_ready, MMn.
  - intros n. exact (mult_fit_log_ok (at_most n h) nc nf pi A e (MMn n) ls x Hd Hpos Hu sp tp Hsp Htp (HPn n) Himp).
  - intros n h' ev Hn F. exact (C88_multinomial_l (at_most n h) nc nf pi A e sp tp ls x h' ev tol (MMn n) (HPn n) Hsp Htp S1 S2 Hd Hpos Hu (at_most_tol n h tol Hn T1 T2 T3) F).
Qed.
Lemma C89_gaussian_settles_l h nc nf pi A mu var m0 w cp a sp tp ls x tol :
  gauss_model h nc nf pi A mu var -> gauss_hyper h nc nf m0 w cp a -> nonneg2 nc nf w ->
  priors (h_cfg h) nc sp tp -> (forall i, (i < nc)%nat -> 1 <= sp i) -> (forall i j, (i < nc)%nat -> (j < nc)%nat -> 1 <= tp i j) ->
  sumn nc pi <= 1 -> (forall i, (i < nc)%nat -> sumn nc (A i) <= 1) ->
  good_data (finite_row nf) ls x -> possible nc pi A (gauss_b nf mu (floored var)) ls x ->
  (has "m" (c_params (h_cfg h)) = true ->
     all_used nc pi A (gauss_b nf mu (floored var)) (chunks ls x) \/ forall i f, (i < nc)%nat -> (f < nf)%nat -> 0 < w i f) ->
  c_impl (h_cfg h) = "log"%string -> c_tol (h_cfg h) = Fin tol -> m_tol (h_mon h) = Fin tol -> 0 < tol ->
  settles gaussian h x ls tol.
Proof.
  intros GM Hh Hw HP Hsp Htp S1 S2 Hd Hpos Hu Himp T1 T2 T3.
  assert (GMn : forall n, gauss_model (at_most n h) nc nf pi A mu var) by (intros n; destruct GM as [[] ? ? ?]; constructor; [constructor|..]; assumption).
  assert (Hhn : forall n, gauss_hyper (at_most n h) nc nf m0 w cp a) by (intros n; exact Hh).
  assert (HPn : forall n, priors (h_cfg (at_most n h)) nc sp tp) by (intros n; exact HP).
  assert (HV : exists V : bool, (has "m" (c_params (h_cfg h)) = true -> V = true \/ forall i f, (i < nc)%nat -> (f < nf)%nat -> 0 < w i f)
    /\ (V = true -> all_used nc pi A (gauss_b nf mu (floored var)) (chunks ls x))).
  { destruct (has "m" (c_params (h_cfg h))) in Hu |- *; [|exists false; split; discriminate]. destruct (Hu eq_refl) as [U|U].
    - exists true. split; auto.
    - exists false. split; [auto|discriminate]. }
  destruct HV as (V & V1 & V2).
  apply (settle gaussian gauss_initc flat_rng h nc pi A (finite_row nf) (gauss_b nf mu (floored var)) x ls tol (INR (length x) * (INR (511 * nf) * ln 2)) (gauss_blind _ _) Hd Himp).
  - intros n. apply gauss_ready, GMn.
  - intros n. exact (gauss_fit_log_ok (at_most n h) nc nf pi A mu var m0 w cp a (GMn n) (Hhn n) Hw ls x Hd Hpos V V1 V2 sp tp Hsp Htp (HPn n) Himp).
  - intros n h' ev Hn F. exact (C88_gaussian_l (at_most n h) nc nf pi A mu var m0 w cp a sp tp ls x h' ev tol (GMn n) (Hhn n) Hw (HPn n) Hsp Htp S1 S2 Hd Hpos Hu (at_most_tol n h tol Hn T1 T2 T3) F).
Qed.
