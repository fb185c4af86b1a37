(** * Recoded observations: property C87. *)
From Coq Require Import Permutation.
From Verif Require Export Recode_em.

(** Everything the user reads off the two estimators, the emission parameters
    aside, is equal: start and transition probabilities, the convergence
    monitor with the history of log-likelihoods, the number of features. *)
Definition same_chain {P} (h h2 : hmm P) : Prop :=
  h_start h2 = h_start h /\ h_trans h2 = h_trans h /\ h_mon h2 = h_mon h /\ h_nfeat h2 = h_nfeat h.

(** ** C87: CategoricalHMM *)
Lemma C87_categorical_l h h2 nc nf pi A e e2 sp tp ep ep2 s ls x h' ev :
  permutes nf s -> same_settings h h2 ->
  cat_model h nc nf pi A e -> cat_priors h nc nf sp tp ep ->
  cat_model h2 nc nf pi A e2 -> cat_priors h2 nc nf sp tp ep2 ->
  (forall i k, (i < nc)%nat -> (k < nf)%nat -> e2 i (s k) = e i k) ->
  (forall i k, (i < nc)%nat -> (k < nf)%nat -> ep2 i (s k) = ep i k) ->
  good_data (sym_ok nf) ls x -> possible nc pi A (cat_b e) ls x ->
  fit_from categorical exact h x (as_lengths ls) = Ok (h', ev) ->
  exists h2' e' e2', fit_from categorical exact h2 (map (rename_symbol s) x) (as_lengths ls) = Ok (h2', ev) /\ same_chain h' h2'
    /\ cat_prob (h_em h') = Some (fmat nc nf e') /\ cat_prob (h_em h2') = Some (fmat nc nf e2')
    /\ (forall i k, (i < nc)%nat -> (k < nf)%nat -> e2' i (s k) = e' i k).
Proof.
  intros Hs SS CM CP CM2 CP2 He Hep Hd Hpos Hf.
  pose proof (fun o => rename_ok nf s o Hs) as Hg.
  pose proof (possible_recode (sym_ok nf) (rename_symbol s) nc pi A (cat_b e) (cat_b e2) ls x Hd (cat_b_recode nc nf s e e2 He) Hpos) as Hpos2.
  destruct (rc_fit categorical nc (sym_ok nf) (cat_good nc nf ep false) (cat_good nc nf ep2 false) cat_bp false
    (cat_trains nc nf ep (cp_e _ _ _ _ _ _ CP) false) (cat_trains nc nf ep2 (cp_e _ _ _ _ _ _ CP2) false)
    ls x (rename_symbol s) Hd Hg sp tp (cp_s _ _ _ _ _ _ CP) (cp_t _ _ _ _ _ _ CP) (rcat nc nf s)
    (fun p p2 o i Hr Ho Hi => cat_b_recode nc nf s (cat_e p) (cat_e p2) Hr o i Ho Hi))
    with (h := h) (h2 := h2) (h1 := checked h nf) (h21 := checked h2 nf) (pi := pi) (A := A) (h' := h') (ev := ev)
    as (h2' & F & S & T & M & N & Hr & G1 & G2).
  - intros c c2 nfe p p2 l l2 st st2 q q2 Hc Kc Gp Gp2 Hr W W2 _ _ Hl X1 X2 Y1 Y2.
    rewrite (step_unique _ _ _ _ _ _ _ _ _ X1 X2 (cat_step nc nf ep false c nfe p l Hc Gp (in_syms _ _ _ _ W))).
    rewrite (step_unique _ _ _ _ _ _ _ _ _ Y1 Y2 (cat_step nc nf ep2 false c2 nfe p2 l2 (eq_trans (proj1 Kc) Hc) Gp2 (in_syms _ _ _ _ W2))).
    apply rcat_new; auto. exact (in_syms _ _ _ _ W).
  - apply (cat_model_check h nc nf pi A e CM).
  - apply (cat_model_check h2 nc nf _ _ _ CM2).
  - constructor; auto.
    + apply (ss_cfg h h2 SS).
    + intros i k Hi Hk. cbn [checked h_em]. unfold cat_e. rewrite (cm_em _ _ _ _ _ _ CM), (cm_em _ _ _ _ _ _ CM2).
      rewrite !mget_fmat by (try assumption; apply Hs; exact Hk). cbn [rval]. apply He; assumption.
    + apply (cat_tstate false h nc nf pi A e sp tp ep ls x); auto; discriminate.
    + apply (cat_tstate false h2 nc nf pi A e2 sp tp ep2); auto; try discriminate. apply (rc_good_data (sym_ok nf) ls x _ Hd Hg).
    + apply CP.
    + apply CP2.
  - exact (ss_mon h h2 SS).
  - exact Hf.
  - exists h2', (cat_e (h_em h')), (cat_e (h_em h2')). split; [exact F|]. split; [repeat split; assumption|].
    split; [apply G1|]. split; [apply G2|exact Hr].
Qed.
Lemma C87_categorical_answers_l h h2 nc nf pi A e e2 s x ls :
  permutes nf s -> c_impl (h_cfg h2) = c_impl (h_cfg h) -> c_algorithm (h_cfg h2) = c_algorithm (h_cfg h) ->
  cat_model h nc nf pi A e -> cat_model h2 nc nf pi A e2 ->
  (forall i k, (i < nc)%nat -> (k < nf)%nat -> e2 i (s k) = e i k) ->
  Forall (sym_ok nf) x -> same_answers categorical (rename_symbol s) h h2 x ls.
Proof.
  intros Hs Ki Ka CM CM2 He Hx.
  apply (ri_answers categorical (rename_symbol s) (sym_ok nf) nc pi A (cat_b e) (cat_b e2) h h2 (cat_ready _ _ _ _ _ _ CM) (cat_ready _ _ _ _ _ _ CM2)
    (fun o => rename_ok nf s o Hs) (cat_b_recode nc nf s e e2 He) Ki Ka x ls Hx).
Qed.

(** ** C87: PoissonHMM *)
Lemma C87_poisson_l h h2 nc nf pi A lam lam2 al be al2 be2 sp tp s ls x h' ev :
  permutes nf s -> same_settings h h2 ->
  pois_model h nc nf pi A lam -> gamma_prior nc nf (h_em h) al be -> priors (h_cfg h) nc sp tp ->
  pois_model h2 nc nf pi A lam2 -> gamma_prior nc nf (h_em h2) al2 be2 -> priors (h_cfg h2) nc sp tp ->
  (forall i f, (i < nc)%nat -> (f < nf)%nat -> lam2 i f = lam i (s f) /\ al2 i f = al i (s f) /\ be2 i f = be i (s f)) ->
  nonneg2 nc nf al -> nonneg2 nc nf be -> (forall i, (i < nc)%nat -> 1 <= sp i) ->
  (forall i j, (i < nc)%nat -> (j < nc)%nat -> 1 <= tp i j) ->
  good_data (counts_ok nf) ls x -> possible nc pi A (pois_b nf lam) ls x ->
  (has "l" (c_params (h_cfg h)) = true -> all_used nc pi A (pois_b nf lam) (chunks ls x)) ->
  fit_from poisson exact h x (as_lengths ls) = Ok (h', ev) ->
  exists h2' l' l2', fit_from poisson exact h2 (map (move_counts nf s) x) (as_lengths ls) = Ok (h2', ev) /\ same_chain h' h2'
    /\ po_lam (h_em h') = Some (fmat nc nf l') /\ po_lam (h_em h2') = Some (fmat nc nf l2')
    /\ (forall i f, (i < nc)%nat -> (f < nf)%nat -> l2' i f = l' i (s f)).
Proof.
  intros Hs SS PM GP PR PM2 GP2 PR2 Hab Hal Hbe Hsp Htp Hd Hpos Hu Hf.
  pose proof (fun o => move_ok nf s o Hs) as Hg.
  assert (Hl : forall i f, (i < nc)%nat -> (f < nf)%nat -> lam2 i f = lam i (s f)) by (intros; apply Hab; assumption).
  assert (Hal2 : nonneg2 nc nf al2) by (intros i f Hi Hf'; rewrite (proj1 (proj2 (Hab i f Hi Hf'))); apply Hal; [|apply Hs]; assumption).
  assert (Hbe2 : nonneg2 nc nf be2) by (intros i f Hi Hf'; rewrite (proj2 (proj2 (Hab i f Hi Hf'))); apply Hbe; [|apply Hs]; assumption).
  assert (Hb : forall o i, counts_ok nf o -> (i < nc)%nat -> pois_b nf lam2 (move_counts nf s o) i = pois_b nf lam o i)
    by (intros o i _ Hi; apply (pois_b_recode nc nf s Hs lam lam2 Hl o i Hi)).
  pose proof (possible_recode (counts_ok nf) (move_counts nf s) nc pi A _ _ ls x Hd Hb Hpos) as Hpos2.
  assert (Hu2 : has "l" (c_params (h_cfg h2)) = true -> all_used nc pi A (pois_b nf lam2) (chunks ls (map (move_counts nf s) x))).
  { rewrite (ss_params _ _ SS). intros V. apply (used_recode (counts_ok nf) (move_counts nf s) nc pi A _ _ ls x Hd Hb (Hu V)). }
  pose proof (rc_good_data (counts_ok nf) ls x _ Hd Hg) as Hd2.
  pose proof (pois_tstate h nc nf pi A lam al be PM GP ls x Hd Hpos Hu) as TS.
  pose proof (pois_tstate h2 nc nf pi A lam2 al2 be2 PM2 GP2 ls _ Hd2 Hpos2 Hu2) as TS2.
  rewrite (ss_params _ _ SS) in TS2. set (V := has "l" (c_params (h_cfg h))) in *.
  destruct (rc_fit poisson nc (counts_ok nf) (pois_good nc nf al be V) (pois_good nc nf al2 be2 V) (pois_bp nf) V
    (pois_trains nc nf al be Hal Hbe V) (pois_trains nc nf al2 be2 Hal2 Hbe2 V)
    ls x (move_counts nf s) Hd Hg sp tp Hsp Htp (rpois nc nf s)
    (fun p p2 o i Hr _ Hi => pois_b_recode nc nf s Hs (pois_l p) (pois_l p2) Hr o i Hi))
    with (h := h) (h2 := h2) (h1 := with_em h (Some nf) (h_em h)) (h21 := with_em h2 (Some nf) (h_em h2)) (pi := pi) (A := A) (h' := h') (ev := ev)
    as (h2' & F & S & T & M & N & Hr & G1 & G2).
  - intros c c2 nfe p p2 l l2 st st2 q q2 Hc Kc Gp Gp2 Hr W W2 Vi Vi2 HL X1 X2 Y1 Y2.
    rewrite (step_unique _ _ _ _ _ _ _ _ _ X1 X2 (pois_step nc nf al be Hbe V c nfe p l Hc Gp W Vi)).
    rewrite (step_unique _ _ _ _ _ _ _ _ _ Y1 Y2 (pois_step nc nf al2 be2 Hbe2 V c2 nfe p2 l2 (eq_trans (proj1 Kc) Hc) Gp2 W2 Vi2)).
    apply rpois_new; auto; intros; apply Hab; assumption.
  - apply (pois_model_check h nc nf pi A lam PM).
  - apply (pois_model_check h2 nc nf _ _ _ PM2).
  - constructor; auto.
    + apply (ss_cfg h h2 SS).
    + intros i f Hi Hf'. cbn [with_em h_em].
      rewrite (pois_l_lam h nc nf pi A lam PM), (pois_l_lam h2 nc nf _ _ _ PM2) by (try assumption; apply Hs; exact Hf'). apply Hl; assumption.
  - exact (ss_mon h h2 SS).
  - exact Hf.
  - exists h2', (pois_l (h_em h')), (pois_l (h_em h2')). split; [exact F|]. split; [repeat split; assumption|].
    split; [apply G1|]. split; [destruct G2 as [_ G2 _ _ _]; exact G2|exact Hr].
Qed.
Lemma C87_poisson_answers_l h h2 nc nf pi A lam lam2 s x ls :
  permutes nf s -> c_impl (h_cfg h2) = c_impl (h_cfg h) -> c_algorithm (h_cfg h2) = c_algorithm (h_cfg h) ->
  pois_model h nc nf pi A lam -> pois_model h2 nc nf pi A lam2 ->
  (forall i f, (i < nc)%nat -> (f < nf)%nat -> lam2 i f = lam i (s f)) ->
  Forall (counts_ok nf) x -> same_answers poisson (move_counts nf s) h h2 x ls.
Proof.
  intros Hs Ki Ka PM PM2 Hl Hx.
  apply (ri_answers poisson (move_counts nf s) (counts_ok nf) nc pi A (pois_b nf lam) (pois_b nf lam2) h h2 (pois_ready _ _ _ _ _ _ PM) (pois_ready _ _ _ _ _ _ PM2)
    (fun o => move_ok nf s o Hs) (fun o i _ Hi => pois_b_recode nc nf s Hs lam lam2 Hl o i Hi) Ki Ka x ls Hx).
Qed.

(** ** C87: MultinomialHMM *)
Lemma C87_multinomial_l h h2 nc nf pi A e e2 sp tp s ls x h' ev :
  permutes nf s -> same_settings h h2 ->
  mult_model h nc nf pi A e -> priors (h_cfg h) nc sp tp ->
  mult_model h2 nc nf pi A e2 -> priors (h_cfg h2) nc sp tp ->
  (forall i f, (i < nc)%nat -> (f < nf)%nat -> e2 i f = e i (s f)) ->
  (forall i, (i < nc)%nat -> 1 <= sp i) -> (forall i j, (i < nc)%nat -> (j < nc)%nat -> 1 <= tp i j) ->
  good_data (trials_ok nf) ls x -> possible nc pi A (mult_b nf e) ls x ->
  (has "e" (c_params (h_cfg h)) = true -> all_used nc pi A (mult_b nf e) (chunks ls x)) ->
  fit_from multinomial exact h x (as_lengths ls) = Ok (h', ev) ->
  exists h2' e' e2', fit_from multinomial exact h2 (map (move_counts nf s) x) (as_lengths ls) = Ok (h2', ev) /\ same_chain h' h2'
    /\ mu_prob (h_em h') = Some (fmat nc nf e') /\ mu_prob (h_em h2') = Some (fmat nc nf e2')
    /\ (forall i f, (i < nc)%nat -> (f < nf)%nat -> e2' i f = e' i (s f)).
Proof.
  intros Hs SS MM PR MM2 PR2 He Hsp Htp Hd Hpos Hu Hf. pose proof (mm_pos _ _ _ _ _ _ MM) as Hnf.
  pose proof (fun o => move_trials nf s o Hs) as Hg.
  assert (Hb : forall o i, trials_ok nf o -> (i < nc)%nat -> mult_b nf e2 (move_counts nf s o) i = mult_b nf e o i)
    by (intros o i Ho Hi; apply (mult_b_recode nc nf s Hs e e2 He o i (proj1 Ho) Hi)).
  pose proof (possible_recode (trials_ok nf) (move_counts nf s) nc pi A _ _ ls x Hd Hb Hpos) as Hpos2.
  assert (Hu2 : has "e" (c_params (h_cfg h2)) = true -> all_used nc pi A (mult_b nf e2) (chunks ls (map (move_counts nf s) x))).
  { rewrite (ss_params _ _ SS). intros V. apply (used_recode (trials_ok nf) (move_counts nf s) nc pi A _ _ ls x Hd Hb (Hu V)). }
  pose proof (rc_good_data (trials_ok nf) ls x _ Hd Hg) as Hd2.
  pose proof (mult_tstate h nc nf pi A e MM ls x Hd Hpos Hu) as TS.
  pose proof (mult_tstate h2 nc nf pi A e2 MM2 ls _ Hd2 Hpos2 Hu2) as TS2.
  rewrite (ss_params _ _ SS) in TS2. set (V := has "e" (c_params (h_cfg h))) in *.
  destruct (rc_fit multinomial nc (trials_ok nf) (mult_good nc nf V) (mult_good nc nf V) (mult_bp nf) V
    (mult_trains nc nf Hnf V) (mult_trains nc nf Hnf V)
    ls x (move_counts nf s) Hd Hg sp tp Hsp Htp (rmult nc nf s)
    (fun p p2 o i Hr Ho Hi => mult_b_recode nc nf s Hs (mult_e p) (mult_e p2) Hr o i (proj1 Ho) Hi))
    with (h := h) (h2 := h2) (h1 := with_em h (Some nf) (h_em h)) (h21 := with_em h2 (Some nf) (h_em h2)) (pi := pi) (A := A) (h' := h') (ev := ev)
    as (h2' & F & S & T & M & N & Hr & G1 & G2).
  - intros c c2 nfe p p2 l l2 st st2 q q2 Hc Kc Gp Gp2 Hr W W2 Vi Vi2 HL X1 X2 Y1 Y2.
    rewrite (step_unique _ _ _ _ _ _ _ _ _ X1 X2 (mult_step nc nf Hnf V c nfe p l Hc Gp W Vi)).
    rewrite (step_unique _ _ _ _ _ _ _ _ _ Y1 Y2 (mult_step nc nf Hnf V c2 nfe p2 l2 (eq_trans (proj1 Kc) Hc) Gp2 W2 Vi2)).
    apply rmult_new; auto.
  - apply (mult_model_check h nc nf pi A e MM).
  - apply (mult_model_check h2 nc nf _ _ _ MM2).
  - constructor; auto.
    + apply (ss_cfg h h2 SS).
    + intros i f Hi Hf'. cbn [with_em h_em].
      rewrite (mult_e_e h nc nf pi A e MM), (mult_e_e h2 nc nf _ _ _ MM2) by (try assumption; apply Hs; exact Hf'). apply He; assumption.
  - exact (ss_mon h h2 SS).
  - exact Hf.
  - exists h2', (mult_e (h_em h')), (mult_e (h_em h2')). split; [exact F|]. split; [repeat split; assumption|].
    destruct G1 as [_ G1 _ _], G2 as [_ G2 _ _]. split; [exact G1|]. split; [exact G2|exact Hr].
Qed.
Lemma C87_multinomial_answers_l h h2 nc nf pi A e e2 s x ls :
  permutes nf s -> c_impl (h_cfg h2) = c_impl (h_cfg h) -> c_algorithm (h_cfg h2) = c_algorithm (h_cfg h) ->
  mult_model h nc nf pi A e -> mult_model h2 nc nf pi A e2 ->
  (forall i f, (i < nc)%nat -> (f < nf)%nat -> e2 i f = e i (s f)) ->
  Forall (counts_ok nf) x -> same_answers multinomial (move_counts nf s) h h2 x ls.
Proof.
  intros Hs Ki Ka MM MM2 He Hx.
  apply (ri_answers multinomial (move_counts nf s) (counts_ok nf) nc pi A (mult_b nf e) (mult_b nf e2) h h2 (mult_ready _ _ _ _ _ _ MM) (mult_ready _ _ _ _ _ _ MM2)
    (fun o => move_ok nf s o Hs) (mult_b_recode nc nf s Hs e e2 He) Ki Ka x ls Hx).
Qed.

(** ** C87: GaussianHMM, "diag" and "spherical" *)
(** The origin may be moved when the means are trained along with the variances. *)
Lemma C87_gaussian_l h h2 nc nf pi A mu var mu2 var2 m0 w cp m02 w2 cp2 a sp tp s g c ls x h' ev :
  permutes nf s -> unit_sign nf g -> same_settings h h2 -> ga_type (h_em h2) = ga_type (h_em h) ->
  gauss_model h nc nf pi A mu var -> gauss_hyper h nc nf m0 w cp a -> priors (h_cfg h) nc sp tp ->
  gauss_model h2 nc nf pi A mu2 var2 -> gauss_hyper h2 nc nf m02 w2 cp2 a -> priors (h_cfg h2) nc sp tp ->
  (forall i f, (i < nc)%nat -> (f < nf)%nat -> mu2 i f = g f * mu i (s f) + c f /\ var2 i f = var i (s f)) ->
  (forall i f, (i < nc)%nat -> (f < nf)%nat -> w2 i f = w i (s f) /\ cp2 i f = cp i (s f)
     /\ (w i (s f) = 0 \/ m02 i f = g f * m0 i (s f) + c f)) ->
  (has "c" (c_params (h_cfg h)) = true -> has "m" (c_params (h_cfg h)) = true \/ forall f, (f < nf)%nat -> c f = 0) ->
  nonneg2 nc nf w -> (forall i, (i < nc)%nat -> 1 <= sp i) ->
  (forall i j, (i < nc)%nat -> (j < nc)%nat -> 1 <= tp i j) ->
  good_data (finite_row nf) ls x -> possible nc pi A (gauss_b nf mu (floored var)) ls x ->
  (has "m" (c_params (h_cfg h)) = true ->
     all_used nc pi A (gauss_b nf mu (floored var)) (chunks ls x)
     \/ forall i f, (i < nc)%nat -> (f < nf)%nat -> 0 < w i f) ->
  fit_from gaussian exact h x (as_lengths ls) = Ok (h', ev) ->
  exists h2' m' m2' v' v2', fit_from gaussian exact h2 (map (move_row nf s g c) x) (as_lengths ls) = Ok (h2', ev) /\ same_chain h' h2'
    /\ ga_type (h_em h2') = ga_type (h_em h')
    /\ ga_means (h_em h') = Some (fmat nc nf m') /\ ga_means (h_em h2') = Some (fmat nc nf m2')
    /\ (exists cv, ga_covars (h_em h') = Some cv /\ vcov nc nf v' (ga_type (h_em h')) cv)
    /\ (exists cv, ga_covars (h_em h2') = Some cv /\ vcov nc nf v2' (ga_type (h_em h')) cv)
    /\ (forall i f, (i < nc)%nat -> (f < nf)%nat -> m2' i f = g f * m' i (s f) + c f /\ v2' i f = v' i (s f)).
Proof.
  intros Hs Hsg SS HT GM HH PR GM2 HH2 PR2 Hmv Hhy Ho Hw Hsp Htp Hd Hpos Hu Hf. pose proof (gam_nf _ _ _ _ _ _ _ GM) as Hnf.
  pose proof (bo_pos _ _ _ _ (gam_base _ _ _ _ _ _ _ GM)) as Hnc.
  assert (Hg : forall o, finite_row nf o -> finite_row nf (move_row nf s g c o)) by (intros; apply move_row_ok).
  assert (Hw2 : nonneg2 nc nf w2) by (intros i f Hi Hf'; rewrite (proj1 (Hhy i f Hi Hf')); apply Hw; [|apply Hs]; assumption).
  assert (Hb : forall o i, finite_row nf o -> (i < nc)%nat -> gauss_b nf mu2 (floored var2) (move_row nf s g c o) i = gauss_b nf mu (floored var) o i).
  { intros o i _ Hi. apply (gauss_b_recode nc nf s g c Hs Hsg mu (floored var) mu2 (floored var2)); [intros; apply Hmv; assumption| |exact Hi].
    intros j f Hj Hf'. unfold floored. rewrite (proj2 (Hmv j f Hj Hf')). reflexivity. }
  pose proof (possible_recode (finite_row nf) (move_row nf s g c) nc pi A _ _ ls x Hd Hb Hpos) as Hpos2.
  assert (HV : exists V, (has "m" (c_params (h_cfg h)) = true -> V = true \/ forall i f, (i < nc)%nat -> (f < nf)%nat -> 0 < w i f)
     /\ (V = true -> all_used nc pi A (gauss_b nf mu (floored var)) (chunks ls x))).
  { destruct (has "m" (c_params (h_cfg h))); [|exists false; split; discriminate].
    destruct (Hu eq_refl) as [U|U]; [exists true|exists false]; split; auto; discriminate. }
  destruct HV as (V & V1 & V2).
  pose proof (rc_good_data (finite_row nf) ls x _ Hd Hg) as Hd2.
  pose proof (gauss_tstate h nc nf pi A mu var m0 w cp a GM HH ls x Hd Hpos V V1 V2) as TS.
  assert (TS2 : tstate nc (gauss_good nc nf m02 w2 cp2 a V) (gauss_bp nf) V ls (map (move_row nf s g c) x)
     (with_em h2 (Some nf) (h_em h2)) pi A).
  { apply (gauss_tstate h2 nc nf pi A mu2 var2 m02 w2 cp2 a GM2 HH2 ls _ Hd2 Hpos2 V).
    - rewrite (ss_params _ _ SS). intros Hm. destruct (V1 Hm) as [U|U]; [left; exact U|right].
      intros i f Hi Hf'. rewrite (proj1 (Hhy i f Hi Hf')). apply U; [|apply Hs]; assumption.
    - intros E. apply (used_recode (finite_row nf) (move_row nf s g c) nc pi A _ _ ls x Hd Hb (V2 E)). }
  pose (Q := fun cf => origin_ok nf c cf). assert (HQ : Q (h_cfg (with_em h (Some nf) (h_em h)))) by exact Ho.
  destruct (rc_fit gaussian nc (finite_row nf) (fun cf nfe p => gauss_good nc nf m0 w cp a V cf nfe p /\ Q cf)
    (gauss_good nc nf m02 w2 cp2 a V) (gauss_bp nf) V
    (trains_cfg _ _ _ _ _ _ Q (gauss_trains nc nf Hnc Hnf m0 w cp a Hw V)) (gauss_trains nc nf Hnc Hnf m02 w2 cp2 a Hw2 V)
    ls x (move_row nf s g c) Hd Hg sp tp Hsp Htp (rgauss nc nf s g c)
    (fun p p2 o i Hr _ Hi => rgauss_b nc nf s g c Hs Hsg p p2 o i Hr Hi))
    with (h := h) (h2 := h2) (h1 := with_em h (Some nf) (h_em h)) (h21 := with_em h2 (Some nf) (h_em h2)) (pi := pi) (A := A) (h' := h') (ev := ev)
    as (h2' & F & S & T & M & N & Hr & [G1 _] & G2).
  - intros k k2 nfe p p2 l l2 st st2 q q2 Hc Kc [Gp Ok] Gp2 Hr W W2 Vi Vi2 HL X1 X2 Y1 Y2.
    rewrite (step_unique _ _ _ _ _ _ _ _ _ X1 X2 (gauss_step nc nf Hnc Hnf m0 w cp a Hw V k nfe p l Hc Gp W Vi)).
    rewrite (step_unique _ _ _ _ _ _ _ _ _ Y1 Y2 (gauss_step nc nf Hnc Hnf m02 w2 cp2 a Hw2 V k2 nfe p2 l2 (eq_trans (proj1 Kc) Hc) Gp2 W2 Vi2)).
    apply (rgauss_new nc nf s g c m0 w cp m02 w2 cp2 a) with (V := V) (nfe := nfe); auto; intros; apply Hhy; assumption.
  - apply (gauss_model_check h nc nf pi A mu var GM).
  - apply (gauss_model_check h2 nc nf _ _ _ _ GM2).
  - constructor; auto.
    + apply (ss_cfg h h2 SS).
    + cbn [with_em h_em]. constructor; [exact HT| |]; intros i f Hi Hf'.
      * rewrite (ga_mu_gm h nc nf pi A mu var GM), (ga_mu_gm h2 nc nf _ _ _ _ GM2) by (try assumption; apply Hs; exact Hf'). apply Hmv; assumption.
      * rewrite (ga_v_gm h nc nf pi A mu var GM), (ga_v_gm h2 nc nf _ _ _ _ GM2) by (try assumption; apply Hs; exact Hf'). apply Hmv; assumption.
    + apply tstate_cfg; [exact HQ|exact TS].
  - exact (ss_mon h h2 SS).
  - exact Hf.
  - exists h2', (ga_mu (h_em h')), (ga_mu (h_em h2')), (ga_v (h_em h')), (ga_v (h_em h2')). split; [exact F|]. split; [repeat split; assumption|].
    split; [apply Hr|]. split; [apply G1|]. split; [apply (gg_means _ _ _ _ _ _ _ _ _ _ G2)|]. split; [apply G1|]. split.
    + rewrite <- (rg_type _ _ _ _ _ _ _ Hr). apply (gg_covars _ _ _ _ _ _ _ _ _ _ G2).
    + intros i f Hi Hf'. split; [apply (rg_mu _ _ _ _ _ _ _ Hr)|apply (rg_v _ _ _ _ _ _ _ Hr)]; assumption.
Qed.
Lemma C87_gaussian_answers_l h h2 nc nf pi A mu var mu2 var2 s g c x ls :
  permutes nf s -> unit_sign nf g -> c_impl (h_cfg h2) = c_impl (h_cfg h) -> c_algorithm (h_cfg h2) = c_algorithm (h_cfg h) ->
  gauss_model h nc nf pi A mu var -> gauss_model h2 nc nf pi A mu2 var2 ->
  (forall i f, (i < nc)%nat -> (f < nf)%nat -> mu2 i f = g f * mu i (s f) + c f /\ var2 i f = var i (s f)) ->
  Forall (finite_row nf) x -> same_answers gaussian (move_row nf s g c) h h2 x ls.
Proof.
  intros Hs Hsg Ki Ka GM GM2 Hmv Hx.
  apply (ri_answers gaussian (move_row nf s g c) (finite_row nf) nc pi A (gauss_b nf mu (floored var)) (gauss_b nf mu2 (floored var2)) h h2
    (gauss_ready _ _ _ _ _ _ _ GM) (gauss_ready _ _ _ _ _ _ _ GM2)); auto.
  - intros. apply move_row_ok.
  - intros o i _ Hi. apply (gauss_b_recode nc nf s g c Hs Hsg mu (floored var) mu2 (floored var2)); [intros; apply Hmv; assumption| |exact Hi].
    intros j f Hj Hf'. unfold floored. rewrite (proj2 (Hmv j f Hj Hf')). reflexivity.
Qed.

(** ** C87: GaussianHMM, "full" and "tied" *)
(** Only the origin is moved. *)
Lemma C87_gaussian_full_l h h2 nc nf pi A mu mu2 Sg m0 m02 cp w a sp tp c ls x b h' ev :
  same_settings h h2 -> ga_type (h_em h2) = ga_type (h_em h) ->
  full_model h nc nf pi A mu Sg -> full_hyper h nc nf m0 cp w a -> priors (h_cfg h) nc sp tp ->
  full_model h2 nc nf pi A mu2 Sg -> full_hyper h2 nc nf m02 cp w a -> priors (h_cfg h2) nc sp tp ->
  (forall i f, (i < nc)%nat -> (f < nf)%nat -> mu2 i f = mu i f + c f) ->
  (forall i f, (i < nc)%nat -> (f < nf)%nat -> w = 0 \/ m02 i f = m0 i f + c f) ->
  (has "c" (c_params (h_cfg h)) = true -> has "m" (c_params (h_cfg h)) = true) ->
  (forall i, (i < nc)%nat -> 1 <= sp i) -> (forall i j, (i < nc)%nat -> (j < nc)%nat -> 1 <= tp i j) ->
  good_data (finite_row nf) ls x -> normal_densities nc nf mu Sg b -> possible nc pi A b ls x ->
  full_used h w a (all_used nc pi A b (chunks ls x)) ->
  fit_from gaussian exact h x (as_lengths ls) = Ok (h', ev) ->
  let move := move_row nf (fun f => f) (fun _ => 1) c in
  exists h2' m' m2' Sg', fit_from gaussian exact h2 (map move x) (as_lengths ls) = Ok (h2', ev) /\ same_chain h' h2'
    /\ ga_type (h_em h2') = ga_type (h_em h')
    /\ ga_means (h_em h') = Some (fmat nc nf m') /\ ga_means (h_em h2') = Some (fmat nc nf m2')
    /\ (exists cv, ga_covars (h_em h') = Some cv /\ mcov nc nf Sg' (ga_type (h_em h')) cv)
    /\ (exists cv, ga_covars (h_em h2') = Some cv /\ mcov nc nf Sg' (ga_type (h_em h')) cv)
    /\ (forall i f, (i < nc)%nat -> (f < nf)%nat -> m2' i f = m' i f + c f).
Proof.
  intros SS HT FM HH PR FM2 HH2 PR2 Hmu Hm0 Ho Hsp Htp Hd D Hpos0 Hu Hf move. pose proof (fum_nf _ _ _ _ _ _ _ FM) as Hnf.
  pose proof (bo_pos _ _ _ _ (fum_base _ _ _ _ _ _ _ FM)) as Hnc.
  destruct (full_used_V _ _ _ _ Hu) as (V & V1 & V2 & V3).
  pose proof (given_possible h nc nf pi A mu Sg ls x b FM Hd D Hpos0) as Hpos.
  pose proof (fun e => given_used h nc nf pi A mu Sg ls x b FM Hd D (V3 e)) as Hu1.
  assert (Hg : forall o, finite_row nf o -> finite_row nf (move o)) by (intros; apply move_row_ok).
  assert (Hb : forall o i, finite_row nf o -> (i < nc)%nat -> mvnf nf (mu2 i) (effm nf (Sg i)) (move o) = mvnf nf (mu i) (effm nf (Sg i)) o).
  { intros o i _ Hi. apply mvnf_move; [intros f Hf'; apply Hmu; assumption|reflexivity]. }
  pose proof (possible_recode (finite_row nf) move nc pi A _ (fun o i => mvnf nf (mu2 i) (effm nf (Sg i)) o) ls x Hd Hb Hpos) as Hpos2.
  pose proof (rc_good_data (finite_row nf) ls x _ Hd Hg) as Hd2.
  pose proof (full_tstate h nc nf pi A mu Sg m0 cp w a FM HH ls x Hd Hpos V V1 V2 Hu1) as TS.
  assert (TS2 : tstate nc (full_good nc nf m02 cp w a V) (gauss_fp nf) V ls (map move x) (with_em h2 (Some nf) (h_em h2)) pi A).
  { apply (full_tstate h2 nc nf pi A mu2 Sg m02 cp w a FM2 HH2 ls _ Hd2 Hpos2 V).
    - rewrite (ss_params _ _ SS). exact V1.
    - rewrite (ss_params _ _ SS). exact V2.
    - intros E. apply (used_recode (finite_row nf) move nc pi A _ (fun o i => mvnf nf (mu2 i) (effm nf (Sg i)) o) ls x Hd Hb (Hu1 E)). }
  destruct HH as (_ & Hw & Ha & Hcp).
  pose (Q := fun cf => has "c" (c_params cf) = true -> has "m" (c_params cf) = true).
  assert (HQ : Q (h_cfg (with_em h (Some nf) (h_em h)))) by exact Ho.
  destruct (rc_fit gaussian nc (finite_row nf) (fun cf nfe p => full_good nc nf m0 cp w a V cf nfe p /\ Q cf)
    (full_good nc nf m02 cp w a V) (gauss_fp nf) V
    (trains_cfg _ _ _ _ _ _ Q (full_trains nc nf Hnc Hnf m0 cp w a Hw Ha Hcp V)) (full_trains nc nf Hnc Hnf m02 cp w a Hw Ha Hcp V)
    ls x move Hd Hg sp tp Hsp Htp (rfull nc nf c)
    (fun p p2 o i Hr _ Hi => rfull_b nc nf c p p2 o i Hr Hi))
    with (h := h) (h2 := h2) (h1 := with_em h (Some nf) (h_em h)) (h21 := with_em h2 (Some nf) (h_em h2)) (pi := pi) (A := A) (h' := h') (ev := ev)
    as (h2' & F & S & T & M & N & Hr & [G1 _] & G2).
  - intros k k2 nfe p p2 l l2 st st2 q q2 Hc Kc [Gp Ok] Gp2 Hr W W2 Vi Vi2 HL X1 X2 Y1 Y2.
    rewrite (step_unique _ _ _ _ _ _ _ _ _ X1 X2 (full_step0 nc nf Hnc Hnf m0 cp w a V k nfe p l Hc Gp W
      (full_dm nc nf m0 cp w a Hw V k nfe p l Gp W Vi) (full_dc nc nf m0 cp w a Ha V k nfe p l Gp W Vi))).
    rewrite (step_unique _ _ _ _ _ _ _ _ _ Y1 Y2 (full_step0 nc nf Hnc Hnf m02 cp w a V k2 nfe p2 l2 (eq_trans (proj1 Kc) Hc) Gp2 W2
      (full_dm nc nf m02 cp w a Hw V k2 nfe p2 l2 Gp2 W2 Vi2) (full_dc nc nf m02 cp w a Ha V k2 nfe p2 l2 Gp2 W2 Vi2))).
    apply (rfull_new nc nf c m0 m02 cp w a) with (V := V) (nfe := nfe); auto.
    apply (full_dm nc nf m0 cp w a Hw V k nfe p l Gp W Vi).
  - apply (full_model_check h nc nf pi A mu Sg FM).
  - apply (full_model_check h2 nc nf _ _ _ _ FM2).
  - constructor; auto.
    + apply (ss_cfg h h2 SS).
    + cbn [with_em h_em]. constructor; [exact HT| |].
      * intros i f Hi Hf'. rewrite (ga_mu_fm h nc nf pi A mu Sg FM), (ga_mu_fm h2 nc nf _ _ _ _ FM2) by assumption. apply Hmu; assumption.
      * intros i k m Hi Hk Hm. rewrite (ga_S_fm h nc nf pi A mu Sg FM), (ga_S_fm h2 nc nf _ _ _ _ FM2) by assumption. reflexivity.
    + apply tstate_cfg; [exact HQ|exact TS].
  - exact (ss_mon h h2 SS).
  - exact Hf.
  - exists h2', (ga_mu (h_em h')), (ga_mu (h_em h2')), (ga_S (h_em h')). split; [exact F|]. split; [repeat split; assumption|].
    split; [apply Hr|]. split; [apply G1|]. split; [apply (fg_means _ _ _ _ _ _ _ _ _ _ G2)|]. split; [apply G1|]. split; [|apply Hr].
    destruct (fg_covars _ _ _ _ _ _ _ _ _ _ G2) as (cv & E & Hcv). exists cv. split; [exact E|].
    rewrite (rf_type _ _ _ _ _ Hr) in Hcv. apply (mcov_ext nc nf (ga_S (h_em h2'))); [exact Hnc|apply Hr|exact Hcv].
Qed.
Lemma C87_gaussian_full_answers_l h h2 nc nf pi A mu mu2 Sg c x ls :
  c_impl (h_cfg h2) = c_impl (h_cfg h) -> c_algorithm (h_cfg h2) = c_algorithm (h_cfg h) ->
  full_model h nc nf pi A mu Sg -> full_model h2 nc nf pi A mu2 Sg ->
  (forall i f, (i < nc)%nat -> (f < nf)%nat -> mu2 i f = mu i f + c f) ->
  Forall (finite_row nf) x -> same_answers gaussian (move_row nf (fun f => f) (fun _ => 1) c) h h2 x ls.
Proof.
  intros Ki Ka FM FM2 Hmu Hx.
  assert (ND : forall m, normal_densities nc nf m Sg (fun o i => mvnf nf (m i) (effm nf (Sg i)) o)).
  { intros m i Hi. exists (effm nf (Sg i)). pose proof (fum_psd _ _ _ _ _ _ _ FM i Hi) as Hp. split; [apply effm_scoring; exact Hp|].
    intros o. apply mvnf_ok, effm_pd, Hp. }
  apply (ri_answers gaussian (move_row nf (fun f => f) (fun _ => 1) c) (finite_row nf) nc pi A _ _ h h2
    (full_ready h nc nf pi A mu Sg FM _ (ND mu)) (full_ready h2 nc nf pi A mu2 Sg FM2 _ (ND mu2))); auto.
  - intros. apply move_row_ok.
  - intros o i _ Hi. apply mvnf_move; [intros f Hf'; apply Hmu; assumption|reflexivity].
Qed.
