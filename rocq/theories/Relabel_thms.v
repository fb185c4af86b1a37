(** * Training with renumbered states or reordered sequences: properties C77, C78. *)
From Coq Require Import Permutation.
From Verif Require Export Relabel_em.

(** Two estimators built with the same settings, hyper-parameters of the
    distributions aside. *)
Record same_settings {P} (h h2 : hmm P) : Prop := SameSettings {
  ss_nc : c_nc (h_cfg h2) = c_nc (h_cfg h);
  ss_params : c_params (h_cfg h2) = c_params (h_cfg h);
  ss_impl : c_impl (h_cfg h2) = c_impl (h_cfg h);
  ss_n_iter : c_n_iter (h_cfg h2) = c_n_iter (h_cfg h);
  ss_tol : m_tol (h_mon h2) = m_tol (h_mon h);
  ss_mon_iter : m_n_iter (h_mon h2) = m_n_iter (h_mon h);
  ss_verbose : m_verbose (h_mon h2) = m_verbose (h_mon h) }.

(** [h2] is [h] with its states renumbered: state [i] of [h2] is state [s i] of
    [h].  The convergence monitors, with the histories of log-likelihoods, are
    equal. *)
Definition renumbered {P} (nc : nat) (s : nat -> nat) (h h2 : hmm P) : Prop :=
  exists pi A,
    h_start h = Some (fvec nc pi) /\ h_start h2 = Some (fvec nc (fun i => pi (s i)))
    /\ h_trans h = Some (fmat nc nc A) /\ h_trans h2 = Some (fmat nc nc (fun i j => A (s i) (s j)))
    /\ h_mon h2 = h_mon h /\ h_nfeat h2 = h_nfeat h.

Lemma ss_cfg {P} (h h2 : hmm P) : same_settings h h2 -> same_cfg (h_cfg h) (h_cfg h2).
Proof. intros []. repeat split; assumption. Qed.
Lemma ss_mon {P} (h h2 : hmm P) : same_settings h h2 -> monitor_reset (h_mon h2) = monitor_reset (h_mon h).
Proof. intros []. unfold monitor_reset. congruence. Qed.


Lemma step_unique {P X St} (E : emclass P X St) c nf p nc l st q q0 :
  em_acc_all E c nf p nc (ec_stats0 E exact c nf p) l = Ok st -> ec_mstep E exact c nf p st = Ok q ->
  (exists st0, em_acc_all E c nf p nc (ec_stats0 E exact c nf p) l = Ok st0 /\ ec_mstep E exact c nf p st0 = Ok q0) ->
  q = q0.
Proof. intros H1 H2 (st0 & H3 & H4). rewrite H1 in H3. injection H3 as <-. rewrite H2 in H4. injection H4 as <-. reflexivity. Qed.

Lemma in_syms nc nf b (l : list (list Z * (nat -> nat -> R))) : good_weights nc (sym_ok nf) b l ->
  forall x g, In (x, g) l -> Forall (sym_ok nf) x.
Proof. intros [_ H] x g Hx. apply (H x g Hx). Qed.

(** ** C77: CategoricalHMM *)
Lemma C77_categorical_l h h2 nc nf pi A e sp tp ep s ls x h' ev :
  permutes nc s -> same_settings h h2 ->
  cat_model h nc nf pi A e -> cat_priors h nc nf sp tp ep ->
  cat_model h2 nc nf (fun i => pi (s i)) (fun i j => A (s i) (s j)) (fun i => e (s i)) ->
  cat_priors h2 nc nf (fun i => sp (s i)) (fun i j => tp (s i) (s j)) (fun i => ep (s i)) ->
  good_data (sym_ok nf) ls x -> possible nc pi A (cat_b e) ls x ->
  fit_from categorical exact h x (as_lengths ls) = Ok (h', ev) ->
  exists h2' e', fit_from categorical exact h2 x (as_lengths ls) = Ok (h2', ev) /\ renumbered nc s h' h2'
    /\ cat_prob (h_em h') = Some (fmat nc nf e') /\ cat_prob (h_em h2') = Some (fmat nc nf (fun i => e' (s i))).
Proof.
  intros Hs SS CM CP CM2 CP2 Hd Hpos Hf.
  assert (Hpos2 : possible nc (fun i => pi (s i)) (fun i j => A (s i) (s j)) (cat_b (fun i => e (s i))) ls x).
  { apply (possible_relabel (sym_ok nf) nc s ls ls x x Hs Hd (Permutation_refl _) pi _ A _ (cat_b e)); auto. }
  destruct (rl_fit categorical nc (sym_ok nf) (cat_good nc nf ep false) (cat_good nc nf (fun i => ep (s i)) false) cat_bp false
    (cat_trains nc nf ep (cp_e _ _ _ _ _ _ CP) false) (cat_trains nc nf (fun i => ep (s i)) (cp_e _ _ _ _ _ _ CP2) false)
    ls ls x x Hd Hd (Permutation_refl _) s Hs sp (fun i => sp (s i)) tp (fun i j => tp (s i) (s j))
    (cp_s _ _ _ _ _ _ CP) (cp_t _ _ _ _ _ _ CP) ltac:(reflexivity) ltac:(reflexivity) (cat_rel nc nf s)
    (fun p p2 o i => cat_rel_b nc nf s p p2 o i))
    with (h := h) (h2 := h2) (h1 := checked h nf) (h21 := checked h2 nf) (pi := pi) (A := A)
         (pi2 := fun i => pi (s i)) (A2 := fun i j => A (s i) (s j)) (h' := h') (ev := ev)
    as (h2' & pi' & A' & F & S1 & S2 & T1 & T2 & M & N & _ & _ & Hr & G1 & G2).
  - intros c c2 nfe p p2 l l2 st st2 q q2 Hc Kc Gp Gp2 Hr W W2 _ _ Hl X1 X2 Y1 Y2.
    rewrite (step_unique _ _ _ _ _ _ _ _ _ X1 X2 (cat_step nc nf ep false c nfe p l Hc Gp (in_syms _ _ _ _ W))).
    rewrite (step_unique _ _ _ _ _ _ _ _ _ Y1 Y2 (cat_step nc nf (fun i => ep (s i)) false c2 nfe p2 l2 (eq_trans (proj1 Kc) Hc) Gp2 (in_syms _ _ _ _ W2))).
    apply cat_rel_new; auto.
  - apply (cat_model_check h nc nf pi A e CM).
  - apply (cat_model_check h2 nc nf _ _ _ CM2).
  - constructor; auto.
    + apply (ss_cfg h h2 SS).
    + intros i k Hi Hk. cbn [checked h_em]. unfold cat_e. rewrite (cm_em _ _ _ _ _ _ CM), (cm_em _ _ _ _ _ _ CM2).
      rewrite !mget_fmat by (try assumption; apply Hs; exact Hi). reflexivity.
    + apply (cat_tstate false h nc nf pi A e sp tp ep ls x); auto; discriminate.
    + apply (cat_tstate false h2 nc nf _ _ (fun i => e (s i)) (fun i => sp (s i)) (fun i j => tp (s i) (s j)) _ ls x); auto; discriminate.
    + apply CP.
    + apply CP2.
  - exact (ss_mon h h2 SS).
  - exact Hf.
  - exists h2', (cat_e (h_em h')). split; [exact F|]. split; [exists pi', A'; auto 10|].
    split; [apply G1|]. rewrite (cg_prob _ _ _ _ _ _ _ G2). f_equal. apply fmat_ext. exact Hr.
Qed.

(** ** C77: PoissonHMM *)
Lemma C77_poisson_l h h2 nc nf pi A lam al be sp tp s ls x h' ev :
  permutes nc s -> same_settings h h2 ->
  pois_model h nc nf pi A lam -> gamma_prior nc nf (h_em h) al be -> priors (h_cfg h) nc sp tp ->
  pois_model h2 nc nf (fun i => pi (s i)) (fun i j => A (s i) (s j)) (fun i => lam (s i)) ->
  gamma_prior nc nf (h_em h2) (fun i => al (s i)) (fun i => be (s i)) ->
  priors (h_cfg h2) nc (fun i => sp (s i)) (fun i j => tp (s i) (s j)) ->
  nonneg2 nc nf al -> nonneg2 nc nf be -> (forall i, (i < nc)%nat -> 1 <= sp i) ->
  (forall i j, (i < nc)%nat -> (j < nc)%nat -> 1 <= tp i j) ->
  good_data (counts_ok nf) ls x -> possible nc pi A (pois_b nf lam) ls x ->
  (has "l" (c_params (h_cfg h)) = true -> all_used nc pi A (pois_b nf lam) (chunks ls x)) ->
  fit_from poisson exact h x (as_lengths ls) = Ok (h', ev) ->
  exists h2' l', fit_from poisson exact h2 x (as_lengths ls) = Ok (h2', ev) /\ renumbered nc s h' h2'
    /\ po_lam (h_em h') = Some (fmat nc nf l') /\ po_lam (h_em h2') = Some (fmat nc nf (fun i => l' (s i))).
Proof.
  intros Hs SS PM GP PR PM2 GP2 PR2 Hal Hbe Hsp Htp Hd Hpos Hu Hf.
  assert (Hal2 : nonneg2 nc nf (fun i => al (s i))) by (intros i f Hi Hf'; apply Hal; [apply Hs|]; assumption).
  assert (Hbe2 : nonneg2 nc nf (fun i => be (s i))) by (intros i f Hi Hf'; apply Hbe; [apply Hs|]; assumption).
  assert (Hpos2 : possible nc (fun i => pi (s i)) (fun i j => A (s i) (s j)) (pois_b nf (fun i => lam (s i))) ls x).
  { apply (possible_relabel (counts_ok nf) nc s ls ls x x Hs Hd (Permutation_refl _) pi _ A _ (pois_b nf lam)); auto. }
  assert (Hu2 : has "l" (c_params (h_cfg h2)) = true ->
     all_used nc (fun i => pi (s i)) (fun i j => A (s i) (s j)) (pois_b nf (fun i => lam (s i))) (chunks ls x)).
  { rewrite (ss_params _ _ SS). intros V.
    apply (used_relabel (counts_ok nf) nc s ls ls x x Hs Hd (Permutation_refl _) pi _ A _ (pois_b nf lam)); auto. }
  pose proof (pois_tstate h nc nf pi A lam al be PM GP ls x Hd Hpos Hu) as TS.
  pose proof (pois_tstate h2 nc nf _ _ _ _ _ PM2 GP2 ls x Hd Hpos2 Hu2) as TS2.
  rewrite (ss_params _ _ SS) in TS2. set (V := has "l" (c_params (h_cfg h))) in *.
  destruct (rl_fit poisson nc (counts_ok nf) (pois_good nc nf al be V) (pois_good nc nf (fun i => al (s i)) (fun i => be (s i)) V) (pois_bp nf) V
    (pois_trains nc nf al be Hal Hbe V) (pois_trains nc nf _ _ Hal2 Hbe2 V)
    ls ls x x Hd Hd (Permutation_refl _) s Hs sp (fun i => sp (s i)) tp (fun i j => tp (s i) (s j))
    Hsp Htp ltac:(reflexivity) ltac:(reflexivity) (pois_rel nc nf s)
    (fun p p2 o i Hr _ Hi => pois_rel_b nc nf s p p2 o i Hr Hi))
    with (h := h) (h2 := h2) (h1 := with_em h (Some nf) (h_em h)) (h21 := with_em h2 (Some nf) (h_em h2)) (pi := pi) (A := A)
         (pi2 := fun i => pi (s i)) (A2 := fun i j => A (s i) (s j)) (h' := h') (ev := ev)
    as (h2' & pi' & A' & F & S1 & S2 & T1 & T2 & M & N & _ & _ & Hr & G1 & G2).
  - intros c c2 nfe p p2 l l2 st st2 q q2 Hc Kc Gp Gp2 Hr W W2 Vi Vi2 Hl X1 X2 Y1 Y2.
    rewrite (step_unique _ _ _ _ _ _ _ _ _ X1 X2 (pois_step nc nf al be Hbe V c nfe p l Hc Gp W Vi)).
    rewrite (step_unique _ _ _ _ _ _ _ _ _ Y1 Y2 (pois_step nc nf _ _ Hbe2 V c2 nfe p2 l2 (eq_trans (proj1 Kc) Hc) Gp2 W2 Vi2)).
    apply pois_rel_new; auto.
  - apply (pois_model_check h nc nf pi A lam PM).
  - apply (pois_model_check h2 nc nf _ _ _ PM2).
  - constructor; auto.
    + apply (ss_cfg h h2 SS).
    + intros i f Hi Hf'. cbn [with_em h_em].
      rewrite (pois_l_lam h nc nf pi A lam PM), (pois_l_lam h2 nc nf _ _ _ PM2) by (try assumption; apply Hs; exact Hi). reflexivity.
  - exact (ss_mon h h2 SS).
  - exact Hf.
  - exists h2', (pois_l (h_em h')). split; [exact F|]. split; [exists pi', A'; auto 10|].
    split; [apply G1|]. destruct G2 as [_ G2 _ _ _]. rewrite G2. f_equal. apply fmat_ext. exact Hr.
Qed.

(** ** C77: MultinomialHMM *)
Lemma C77_multinomial_l h h2 nc nf pi A e sp tp s ls x h' ev :
  permutes nc s -> same_settings h h2 ->
  mult_model h nc nf pi A e -> priors (h_cfg h) nc sp tp ->
  mult_model h2 nc nf (fun i => pi (s i)) (fun i j => A (s i) (s j)) (fun i => e (s i)) ->
  priors (h_cfg h2) nc (fun i => sp (s i)) (fun i j => tp (s i) (s j)) ->
  (forall i, (i < nc)%nat -> 1 <= sp i) -> (forall i j, (i < nc)%nat -> (j < nc)%nat -> 1 <= tp i j) ->
  good_data (trials_ok nf) ls x -> possible nc pi A (mult_b nf e) ls x ->
  (has "e" (c_params (h_cfg h)) = true -> all_used nc pi A (mult_b nf e) (chunks ls x)) ->
  fit_from multinomial exact h x (as_lengths ls) = Ok (h', ev) ->
  exists h2' e', fit_from multinomial exact h2 x (as_lengths ls) = Ok (h2', ev) /\ renumbered nc s h' h2'
    /\ mu_prob (h_em h') = Some (fmat nc nf e') /\ mu_prob (h_em h2') = Some (fmat nc nf (fun i => e' (s i))).
Proof.
  intros Hs SS MM PR MM2 PR2 Hsp Htp Hd Hpos Hu Hf. pose proof (mm_pos _ _ _ _ _ _ MM) as Hnf.
  assert (Hpos2 : possible nc (fun i => pi (s i)) (fun i j => A (s i) (s j)) (mult_b nf (fun i => e (s i))) ls x).
  { apply (possible_relabel (trials_ok nf) nc s ls ls x x Hs Hd (Permutation_refl _) pi _ A _ (mult_b nf e)); auto. }
  assert (Hu2 : has "e" (c_params (h_cfg h2)) = true ->
     all_used nc (fun i => pi (s i)) (fun i j => A (s i) (s j)) (mult_b nf (fun i => e (s i))) (chunks ls x)).
  { rewrite (ss_params _ _ SS). intros V.
    apply (used_relabel (trials_ok nf) nc s ls ls x x Hs Hd (Permutation_refl _) pi _ A _ (mult_b nf e)); auto. }
  pose proof (mult_tstate h nc nf pi A e MM ls x Hd Hpos Hu) as TS.
  pose proof (mult_tstate h2 nc nf _ _ _ MM2 ls x Hd Hpos2 Hu2) as TS2.
  rewrite (ss_params _ _ SS) in TS2. set (V := has "e" (c_params (h_cfg h))) in *.
  destruct (rl_fit multinomial nc (trials_ok nf) (mult_good nc nf V) (mult_good nc nf V) (mult_bp nf) V
    (mult_trains nc nf Hnf V) (mult_trains nc nf Hnf V)
    ls ls x x Hd Hd (Permutation_refl _) s Hs sp (fun i => sp (s i)) tp (fun i j => tp (s i) (s j))
    Hsp Htp ltac:(reflexivity) ltac:(reflexivity) (mult_rel nc nf s)
    (fun p p2 o i Hr _ Hi => mult_rel_b nc nf s p p2 o i Hr Hi))
    with (h := h) (h2 := h2) (h1 := with_em h (Some nf) (h_em h)) (h21 := with_em h2 (Some nf) (h_em h2)) (pi := pi) (A := A)
         (pi2 := fun i => pi (s i)) (A2 := fun i j => A (s i) (s j)) (h' := h') (ev := ev)
    as (h2' & pi' & A' & F & S1 & S2 & T1 & T2 & M & N & _ & _ & Hr & G1 & G2).
  - intros c c2 nfe p p2 l l2 st st2 q q2 Hc Kc Gp Gp2 Hr W W2 Vi Vi2 Hl X1 X2 Y1 Y2.
    rewrite (step_unique _ _ _ _ _ _ _ _ _ X1 X2 (mult_step nc nf Hnf V c nfe p l Hc Gp W Vi)).
    rewrite (step_unique _ _ _ _ _ _ _ _ _ Y1 Y2 (mult_step nc nf Hnf V c2 nfe p2 l2 (eq_trans (proj1 Kc) Hc) Gp2 W2 Vi2)).
    apply mult_rel_new; auto.
  - apply (mult_model_check h nc nf pi A e MM).
  - apply (mult_model_check h2 nc nf _ _ _ MM2).
  - constructor; auto.
    + apply (ss_cfg h h2 SS).
    + intros i f Hi Hf'. cbn [with_em h_em].
      rewrite (mult_e_e h nc nf pi A e MM), (mult_e_e h2 nc nf _ _ _ MM2) by (try assumption; apply Hs; exact Hi). reflexivity.
  - exact (ss_mon h h2 SS).
  - exact Hf.
  - exists h2', (mult_e (h_em h')). split; [exact F|]. split; [exists pi', A'; auto 10|].
    destruct G1 as [_ G1 _ _], G2 as [_ G2 _ _]. split; [exact G1|]. rewrite G2. f_equal. apply fmat_ext. exact Hr.
Qed.

(** ** C77: GaussianHMM, "diag" and "spherical" *)
Lemma C77_gaussian_l h h2 nc nf pi A mu var m0 w cp a sp tp s ls x h' ev :
  permutes nc s -> same_settings h h2 -> ga_type (h_em h2) = ga_type (h_em h) ->
  gauss_model h nc nf pi A mu var -> gauss_hyper h nc nf m0 w cp a -> priors (h_cfg h) nc sp tp ->
  gauss_model h2 nc nf (fun i => pi (s i)) (fun i j => A (s i) (s j)) (fun i => mu (s i)) (fun i => var (s i)) ->
  gauss_hyper h2 nc nf (fun i => m0 (s i)) (fun i => w (s i)) (fun i => cp (s i)) a ->
  priors (h_cfg h2) nc (fun i => sp (s i)) (fun i j => tp (s i) (s j)) ->
  nonneg2 nc nf w -> (forall i, (i < nc)%nat -> 1 <= sp i) ->
  (forall i j, (i < nc)%nat -> (j < nc)%nat -> 1 <= tp i j) ->
  good_data (finite_row nf) ls x -> possible nc pi A (gauss_b nf mu (floored var)) ls x ->
  (has "m" (c_params (h_cfg h)) = true ->
     all_used nc pi A (gauss_b nf mu (floored var)) (chunks ls x)
     \/ forall i f, (i < nc)%nat -> (f < nf)%nat -> 0 < w i f) ->
  fit_from gaussian exact h x (as_lengths ls) = Ok (h', ev) ->
  exists h2' m' v', fit_from gaussian exact h2 x (as_lengths ls) = Ok (h2', ev) /\ renumbered nc s h' h2'
    /\ ga_means (h_em h') = Some (fmat nc nf m') /\ ga_means (h_em h2') = Some (fmat nc nf (fun i => m' (s i)))
    /\ ga_type (h_em h2') = ga_type (h_em h')
    /\ (exists cv, ga_covars (h_em h') = Some cv /\ vcov nc nf v' (ga_type (h_em h')) cv)
    /\ (exists cv, ga_covars (h_em h2') = Some cv /\ vcov nc nf (fun i => v' (s i)) (ga_type (h_em h')) cv).
Proof.
  intros Hs SS HT GM HH PR GM2 HH2 PR2 Hw Hsp Htp Hd Hpos Hu Hf. pose proof (gam_nf _ _ _ _ _ _ _ GM) as Hnf.
  pose proof (bo_pos _ _ _ _ (gam_base _ _ _ _ _ _ _ GM)) as Hnc.
  assert (Hw2 : nonneg2 nc nf (fun i => w (s i))) by (intros i f Hi Hf'; apply Hw; [apply Hs|]; assumption).
  assert (Hpos2 : possible nc (fun i => pi (s i)) (fun i j => A (s i) (s j)) (gauss_b nf (fun i => mu (s i)) (floored (fun i => var (s i)))) ls x).
  { apply (possible_relabel (finite_row nf) nc s ls ls x x Hs Hd (Permutation_refl _) pi _ A _ (gauss_b nf mu (floored var))); auto. }
  assert (HV : exists V, (has "m" (c_params (h_cfg h)) = true -> V = true \/ forall i f, (i < nc)%nat -> (f < nf)%nat -> 0 < w i f)
     /\ (V = true -> all_used nc pi A (gauss_b nf mu (floored var)) (chunks ls x))).
  { destruct (has "m" (c_params (h_cfg h))); [|exists false; split; discriminate].
    destruct (Hu eq_refl) as [U|U]; [exists true|exists false]; split; auto; discriminate. }
  destruct HV as (V & V1 & V2).
  pose proof (gauss_tstate h nc nf pi A mu var m0 w cp a GM HH ls x Hd Hpos V V1 V2) as TS.
  assert (TS2 : tstate nc (gauss_good nc nf (fun i => m0 (s i)) (fun i => w (s i)) (fun i => cp (s i)) a V) (gauss_bp nf) V ls x
     (with_em h2 (Some nf) (h_em h2)) (fun i => pi (s i)) (fun i j => A (s i) (s j))).
  { apply (gauss_tstate h2 nc nf _ _ _ _ _ _ _ a GM2 HH2 ls x Hd Hpos2 V).
    - rewrite (ss_params _ _ SS). intros Hm. destruct (V1 Hm) as [U|U]; [left; exact U|right].
      intros i f Hi Hf'. apply U; [apply Hs|]; assumption.
    - intros E. apply (used_relabel (finite_row nf) nc s ls ls x x Hs Hd (Permutation_refl _) pi _ A _ (gauss_b nf mu (floored var))); auto. }
  destruct (rl_fit gaussian nc (finite_row nf) (gauss_good nc nf m0 w cp a V)
    (gauss_good nc nf (fun i => m0 (s i)) (fun i => w (s i)) (fun i => cp (s i)) a V) (gauss_bp nf) V
    (gauss_trains nc nf Hnc Hnf m0 w cp a Hw V) (gauss_trains nc nf Hnc Hnf _ _ _ a Hw2 V)
    ls ls x x Hd Hd (Permutation_refl _) s Hs sp (fun i => sp (s i)) tp (fun i j => tp (s i) (s j))
    Hsp Htp ltac:(reflexivity) ltac:(reflexivity) (gauss_rel nc nf s)
    (fun p p2 o i Hr _ Hi => gauss_rel_b nc nf s p p2 o i Hr Hi))
    with (h := h) (h2 := h2) (h1 := with_em h (Some nf) (h_em h)) (h21 := with_em h2 (Some nf) (h_em h2)) (pi := pi) (A := A)
         (pi2 := fun i => pi (s i)) (A2 := fun i j => A (s i) (s j)) (h' := h') (ev := ev)
    as (h2' & pi' & A' & F & S1 & S2 & T1 & T2 & M & N & _ & _ & Hr & G1 & G2).
  - intros c c2 nfe p p2 l l2 st st2 q q2 Hc Kc Gp Gp2 Hr W W2 Vi Vi2 Hl X1 X2 Y1 Y2.
    rewrite (step_unique _ _ _ _ _ _ _ _ _ X1 X2 (gauss_step nc nf Hnc Hnf m0 w cp a Hw V c nfe p l Hc Gp W Vi)).
    rewrite (step_unique _ _ _ _ _ _ _ _ _ Y1 Y2 (gauss_step nc nf Hnc Hnf _ _ _ a Hw2 V c2 nfe p2 l2 (eq_trans (proj1 Kc) Hc) Gp2 W2 Vi2)).
    apply (gauss_rel_new nc nf s) with (V := V) (nfe := nfe); auto.
  - apply (gauss_model_check h nc nf pi A mu var GM).
  - apply (gauss_model_check h2 nc nf _ _ _ _ GM2).
  - constructor; auto.
    + apply (ss_cfg h h2 SS).
    + cbn [with_em h_em]. constructor; [exact HT| |]; intros i f Hi Hf'.
      * rewrite (ga_mu_gm h nc nf pi A mu var GM), (ga_mu_gm h2 nc nf _ _ _ _ GM2) by (try assumption; apply Hs; exact Hi). reflexivity.
      * rewrite (ga_v_gm h nc nf pi A mu var GM), (ga_v_gm h2 nc nf _ _ _ _ GM2) by (try assumption; apply Hs; exact Hi). reflexivity.
  - exact (ss_mon h h2 SS).
  - exact Hf.
  - exists h2', (ga_mu (h_em h')), (ga_v (h_em h')). split; [exact F|]. split; [exists pi', A'; auto 10|].
    split; [apply G1|]. split; [|split; [apply Hr|split; [apply G1|]]].
    + rewrite (gg_means _ _ _ _ _ _ _ _ _ _ G2). f_equal. apply fmat_ext. apply Hr.
    + destruct (gg_covars _ _ _ _ _ _ _ _ _ _ G2) as (cv & E & Hcv). exists cv. split; [exact E|].
      rewrite (gr_type _ _ _ _ _ Hr) in Hcv. apply (vcov_ext nc nf (ga_v (h_em h2'))); [exact Hnf|apply Hr|exact Hcv].
Qed.

(** ** C77: GaussianHMM, "full" and "tied" *)
Lemma C77_gaussian_full_l h h2 nc nf pi A mu Sg m0 cp w a sp tp s ls x b h' ev :
  permutes nc s -> same_settings h h2 -> ga_type (h_em h2) = ga_type (h_em h) ->
  full_model h nc nf pi A mu Sg -> full_hyper h nc nf m0 cp w a -> priors (h_cfg h) nc sp tp ->
  full_model h2 nc nf (fun i => pi (s i)) (fun i j => A (s i) (s j)) (fun i => mu (s i)) (fun i => Sg (s i)) ->
  full_hyper h2 nc nf (fun i => m0 (s i)) cp w a ->
  priors (h_cfg h2) nc (fun i => sp (s i)) (fun i j => tp (s i) (s j)) ->
  (forall i, (i < nc)%nat -> 1 <= sp i) -> (forall i j, (i < nc)%nat -> (j < nc)%nat -> 1 <= tp i j) ->
  good_data (finite_row nf) ls x -> normal_densities nc nf mu Sg b -> possible nc pi A b ls x ->
  full_used h w a (all_used nc pi A b (chunks ls x)) ->
  fit_from gaussian exact h x (as_lengths ls) = Ok (h', ev) ->
  exists h2' m' Sg', fit_from gaussian exact h2 x (as_lengths ls) = Ok (h2', ev) /\ renumbered nc s h' h2'
    /\ ga_means (h_em h') = Some (fmat nc nf m') /\ ga_means (h_em h2') = Some (fmat nc nf (fun i => m' (s i)))
    /\ ga_type (h_em h2') = ga_type (h_em h')
    /\ (exists cv, ga_covars (h_em h') = Some cv /\ mcov nc nf Sg' (ga_type (h_em h')) cv)
    /\ (exists cv, ga_covars (h_em h2') = Some cv /\ mcov nc nf (fun i => Sg' (s i)) (ga_type (h_em h')) cv).
Proof.
  intros Hs SS HT FM HH PR FM2 HH2 PR2 Hsp Htp Hd D Hpos0 Hu Hf. pose proof (fum_nf _ _ _ _ _ _ _ FM) as Hnf.
  pose proof (bo_pos _ _ _ _ (fum_base _ _ _ _ _ _ _ FM)) as Hnc.
  destruct (full_used_V _ _ _ _ Hu) as (V & V1 & V2 & V3).
  pose proof (given_possible h nc nf pi A mu Sg ls x b FM Hd D Hpos0) as Hpos.
  pose proof (fun e => given_used h nc nf pi A mu Sg ls x b FM Hd D (V3 e)) as Hu1.
  assert (Hpos2 : possible nc (fun i => pi (s i)) (fun i j => A (s i) (s j)) (fun o i => mvnf nf (mu (s i)) (effm nf (Sg (s i))) o) ls x).
  { apply (possible_relabel (finite_row nf) nc s ls ls x x Hs Hd (Permutation_refl _) pi _ A _ (fun o i => mvnf nf (mu i) (effm nf (Sg i)) o)); auto. }
  pose proof (full_tstate h nc nf pi A mu Sg m0 cp w a FM HH ls x Hd Hpos V V1 V2 Hu1) as TS.
  assert (TS2 : tstate nc (full_good nc nf (fun i => m0 (s i)) cp w a V) (gauss_fp nf) V ls x
     (with_em h2 (Some nf) (h_em h2)) (fun i => pi (s i)) (fun i j => A (s i) (s j))).
  { apply (full_tstate h2 nc nf _ _ _ _ _ cp w a FM2 HH2 ls x Hd Hpos2 V).
    - rewrite (ss_params _ _ SS). exact V1.
    - rewrite (ss_params _ _ SS). exact V2.
    - intros E. apply (used_relabel (finite_row nf) nc s ls ls x x Hs Hd (Permutation_refl _) pi _ A _ (fun o i => mvnf nf (mu i) (effm nf (Sg i)) o)); auto. }
  destruct HH as (_ & Hw & Ha & Hcp).
  destruct (rl_fit gaussian nc (finite_row nf) (full_good nc nf m0 cp w a V)
    (full_good nc nf (fun i => m0 (s i)) cp w a V) (gauss_fp nf) V
    (full_trains nc nf Hnc Hnf m0 cp w a Hw Ha Hcp V) (full_trains nc nf Hnc Hnf _ cp w a Hw Ha Hcp V)
    ls ls x x Hd Hd (Permutation_refl _) s Hs sp (fun i => sp (s i)) tp (fun i j => tp (s i) (s j))
    Hsp Htp ltac:(reflexivity) ltac:(reflexivity) (full_rel nc nf s)
    (fun p p2 o i Hr _ Hi => full_rel_b nc nf s p p2 o i Hr Hi))
    with (h := h) (h2 := h2) (h1 := with_em h (Some nf) (h_em h)) (h21 := with_em h2 (Some nf) (h_em h2)) (pi := pi) (A := A)
         (pi2 := fun i => pi (s i)) (A2 := fun i j => A (s i) (s j)) (h' := h') (ev := ev)
    as (h2' & pi' & A' & F & S1 & S2 & T1 & T2 & M & N & _ & _ & Hr & G1 & G2).
  - intros c c2 nfe p p2 l l2 st st2 q q2 Hc Kc Gp Gp2 Hr W W2 Vi Vi2 Hl X1 X2 Y1 Y2.
    rewrite (step_unique _ _ _ _ _ _ _ _ _ X1 X2 (full_step0 nc nf Hnc Hnf m0 cp w a V c nfe p l Hc Gp W
      (full_dm nc nf m0 cp w a Hw V c nfe p l Gp W Vi) (full_dc nc nf m0 cp w a Ha V c nfe p l Gp W Vi))).
    rewrite (step_unique _ _ _ _ _ _ _ _ _ Y1 Y2 (full_step0 nc nf Hnc Hnf _ cp w a V c2 nfe p2 l2 (eq_trans (proj1 Kc) Hc) Gp2 W2
      (full_dm nc nf _ cp w a Hw V c2 nfe p2 l2 Gp2 W2 Vi2) (full_dc nc nf _ cp w a Ha V c2 nfe p2 l2 Gp2 W2 Vi2))).
    apply (full_rel_new nc nf s) with (V := V) (nfe := nfe); auto.
  - apply (full_model_check h nc nf pi A mu Sg FM).
  - apply (full_model_check h2 nc nf _ _ _ _ FM2).
  - constructor; auto.
    + apply (ss_cfg h h2 SS).
    + cbn [with_em h_em]. constructor; [exact HT| |].
      * intros i f Hi Hf'. rewrite (ga_mu_fm h nc nf pi A mu Sg FM), (ga_mu_fm h2 nc nf _ _ _ _ FM2) by (try assumption; apply Hs; exact Hi). reflexivity.
      * intros i k m Hi Hk Hm. rewrite (ga_S_fm h nc nf pi A mu Sg FM), (ga_S_fm h2 nc nf _ _ _ _ FM2) by (try assumption; apply Hs; exact Hi). reflexivity.
  - exact (ss_mon h h2 SS).
  - exact Hf.
  - exists h2', (ga_mu (h_em h')), (ga_S (h_em h')). split; [exact F|]. split; [exists pi', A'; auto 10|].
    split; [apply G1|]. split; [|split; [apply Hr|split; [apply G1|]]].
    + rewrite (fg_means _ _ _ _ _ _ _ _ _ _ G2). f_equal. apply fmat_ext. apply Hr.
    + destruct (fg_covars _ _ _ _ _ _ _ _ _ _ G2) as (cv & E & Hcv). exists cv. split; [exact E|].
      rewrite (fr_type _ _ _ _ _ Hr) in Hcv. apply (mcov_ext nc nf (ga_S (h_em h2'))); [exact Hnc|apply Hr|exact Hcv].
Qed.

(** ** C78: the order of the sequences *)
Lemma C78_categorical_l h nc nf pi A e sp tp ep ls x ls2 x2 h' ev :
  cat_model h nc nf pi A e -> cat_priors h nc nf sp tp ep ->
  good_data (sym_ok nf) ls x -> good_data (sym_ok nf) ls2 x2 -> Permutation (chunks ls x) (chunks ls2 x2) ->
  possible nc pi A (cat_b e) ls x ->
  fit_from categorical exact h x (as_lengths ls) = Ok (h', ev) ->
  fit_from categorical exact h x2 (as_lengths ls2) = Ok (h', ev).
Proof.
  intros CM CP Hd Hd2 Hcs Hpos.
  apply (rl_reorder categorical nc (sym_ok nf) (cat_good nc nf ep false) cat_bp false
    (cat_trains nc nf ep (cp_e _ _ _ _ _ _ CP) false) ls ls2 x x2 Hd Hd2 Hcs sp tp (cp_s _ _ _ _ _ _ CP) (cp_t _ _ _ _ _ _ CP))
    with (h1 := checked h nf) (pi := pi) (A := A).
  - intros c c2 nfe p l l2 st st2 q q2 Hc Kc Gp Gp2 W W2 _ _ Hl X1 X2 Y1 Y2.
    rewrite (step_unique _ _ _ _ _ _ _ _ _ X1 X2 (cat_step nc nf ep false c nfe p l Hc Gp (in_syms _ _ _ _ W))).
    rewrite (step_unique _ _ _ _ _ _ _ _ _ Y1 Y2 (cat_step nc nf ep false c2 nfe p l2 (eq_trans (proj1 Kc) Hc) Gp2 (in_syms _ _ _ _ W2))).
    apply cat_new_same; assumption.
  - apply (cat_model_check h nc nf pi A e CM).
  - apply (cat_tstate false h nc nf pi A e sp tp ep ls x); auto; discriminate.
  - apply CP.
Qed.

Lemma C78_poisson_l h nc nf pi A lam al be sp tp ls x ls2 x2 h' ev :
  pois_model h nc nf pi A lam -> gamma_prior nc nf (h_em h) al be -> priors (h_cfg h) nc sp tp ->
  nonneg2 nc nf al -> nonneg2 nc nf be -> (forall i, (i < nc)%nat -> 1 <= sp i) ->
  (forall i j, (i < nc)%nat -> (j < nc)%nat -> 1 <= tp i j) ->
  good_data (counts_ok nf) ls x -> good_data (counts_ok nf) ls2 x2 -> Permutation (chunks ls x) (chunks ls2 x2) ->
  possible nc pi A (pois_b nf lam) ls x ->
  (has "l" (c_params (h_cfg h)) = true -> all_used nc pi A (pois_b nf lam) (chunks ls x)) ->
  fit_from poisson exact h x (as_lengths ls) = Ok (h', ev) ->
  fit_from poisson exact h x2 (as_lengths ls2) = Ok (h', ev).
Proof.
  intros PM GP PR Hal Hbe Hsp Htp Hd Hd2 Hcs Hpos Hu. set (V := has "l" (c_params (h_cfg h))) in *.
  apply (rl_reorder poisson nc (counts_ok nf) (pois_good nc nf al be V) (pois_bp nf) V
    (pois_trains nc nf al be Hal Hbe V) ls ls2 x x2 Hd Hd2 Hcs sp tp Hsp Htp)
    with (h1 := with_em h (Some nf) (h_em h)) (pi := pi) (A := A).
  - intros c c2 nfe p l l2 st st2 q q2 Hc Kc Gp Gp2 W W2 Vi Vi2 Hl X1 X2 Y1 Y2.
    rewrite (step_unique _ _ _ _ _ _ _ _ _ X1 X2 (pois_step nc nf al be Hbe V c nfe p l Hc Gp W Vi)).
    rewrite (step_unique _ _ _ _ _ _ _ _ _ Y1 Y2 (pois_step nc nf al be Hbe V c2 nfe p l2 (eq_trans (proj1 Kc) Hc) Gp2 W2 Vi2)).
    apply pois_new_same; assumption.
  - apply (pois_model_check h nc nf pi A lam PM).
  - apply (pois_tstate h nc nf pi A lam al be PM GP ls x Hd Hpos Hu).
  - exact PR.
Qed.

Lemma C78_multinomial_l h nc nf pi A e sp tp ls x ls2 x2 h' ev :
  mult_model h nc nf pi A e -> priors (h_cfg h) nc sp tp ->
  (forall i, (i < nc)%nat -> 1 <= sp i) -> (forall i j, (i < nc)%nat -> (j < nc)%nat -> 1 <= tp i j) ->
  good_data (trials_ok nf) ls x -> good_data (trials_ok nf) ls2 x2 -> Permutation (chunks ls x) (chunks ls2 x2) ->
  possible nc pi A (mult_b nf e) ls x ->
  (has "e" (c_params (h_cfg h)) = true -> all_used nc pi A (mult_b nf e) (chunks ls x)) ->
  fit_from multinomial exact h x (as_lengths ls) = Ok (h', ev) ->
  fit_from multinomial exact h x2 (as_lengths ls2) = Ok (h', ev).
Proof.
  intros MM PR Hsp Htp Hd Hd2 Hcs Hpos Hu. set (V := has "e" (c_params (h_cfg h))) in *. pose proof (mm_pos _ _ _ _ _ _ MM) as Hnf.
  apply (rl_reorder multinomial nc (trials_ok nf) (mult_good nc nf V) (mult_bp nf) V
    (mult_trains nc nf Hnf V) ls ls2 x x2 Hd Hd2 Hcs sp tp Hsp Htp)
    with (h1 := with_em h (Some nf) (h_em h)) (pi := pi) (A := A).
  - intros c c2 nfe p l l2 st st2 q q2 Hc Kc Gp Gp2 W W2 Vi Vi2 Hl X1 X2 Y1 Y2.
    rewrite (step_unique _ _ _ _ _ _ _ _ _ X1 X2 (mult_step nc nf Hnf V c nfe p l Hc Gp W Vi)).
    rewrite (step_unique _ _ _ _ _ _ _ _ _ Y1 Y2 (mult_step nc nf Hnf V c2 nfe p l2 (eq_trans (proj1 Kc) Hc) Gp2 W2 Vi2)).
    apply mult_new_same; assumption.
  - apply (mult_model_check h nc nf pi A e MM).
  - apply (mult_tstate h nc nf pi A e MM ls x Hd Hpos Hu).
  - exact PR.
Qed.

Lemma C78_gaussian_l h nc nf pi A mu var m0 w cp a sp tp ls x ls2 x2 h' ev :
  gauss_model h nc nf pi A mu var -> gauss_hyper h nc nf m0 w cp a -> priors (h_cfg h) nc sp tp ->
  nonneg2 nc nf w -> (forall i, (i < nc)%nat -> 1 <= sp i) ->
  (forall i j, (i < nc)%nat -> (j < nc)%nat -> 1 <= tp i j) ->
  good_data (finite_row nf) ls x -> good_data (finite_row nf) ls2 x2 -> Permutation (chunks ls x) (chunks ls2 x2) ->
  possible nc pi A (gauss_b nf mu (floored var)) ls x ->
  (has "m" (c_params (h_cfg h)) = true ->
     all_used nc pi A (gauss_b nf mu (floored var)) (chunks ls x)
     \/ forall i f, (i < nc)%nat -> (f < nf)%nat -> 0 < w i f) ->
  fit_from gaussian exact h x (as_lengths ls) = Ok (h', ev) ->
  fit_from gaussian exact h x2 (as_lengths ls2) = Ok (h', ev).
Proof.
  intros GM HH PR Hw Hsp Htp Hd Hd2 Hcs Hpos Hu. pose proof (gam_nf _ _ _ _ _ _ _ GM) as Hnf.
  pose proof (bo_pos _ _ _ _ (gam_base _ _ _ _ _ _ _ GM)) as Hnc.
  assert (HV : exists V, (has "m" (c_params (h_cfg h)) = true -> V = true \/ forall i f, (i < nc)%nat -> (f < nf)%nat -> 0 < w i f)
     /\ (V = true -> all_used nc pi A (gauss_b nf mu (floored var)) (chunks ls x))).
  { destruct (has "m" (c_params (h_cfg h))); [|exists false; split; discriminate].
    destruct (Hu eq_refl) as [U|U]; [exists true|exists false]; split; auto; discriminate. }
  destruct HV as (V & V1 & V2).
  apply (rl_reorder gaussian nc (finite_row nf) (gauss_good nc nf m0 w cp a V) (gauss_bp nf) V
    (gauss_trains nc nf Hnc Hnf m0 w cp a Hw V) ls ls2 x x2 Hd Hd2 Hcs sp tp Hsp Htp)
    with (h1 := with_em h (Some nf) (h_em h)) (pi := pi) (A := A).
  - intros c c2 nfe p l l2 st st2 q q2 Hc Kc Gp Gp2 W W2 Vi Vi2 Hl X1 X2 Y1 Y2.
    rewrite (step_unique _ _ _ _ _ _ _ _ _ X1 X2 (gauss_step nc nf Hnc Hnf m0 w cp a Hw V c nfe p l Hc Gp W Vi)).
    rewrite (step_unique _ _ _ _ _ _ _ _ _ Y1 Y2 (gauss_step nc nf Hnc Hnf m0 w cp a Hw V c2 nfe p l2 (eq_trans (proj1 Kc) Hc) Gp2 W2 Vi2)).
    apply gauss_new_same; assumption.
  - apply (gauss_model_check h nc nf pi A mu var GM).
  - apply (gauss_tstate h nc nf pi A mu var m0 w cp a GM HH ls x Hd Hpos V V1 V2).
  - exact PR.
Qed.

Lemma C78_gaussian_full_l h nc nf pi A mu Sg m0 cp w a sp tp ls x ls2 x2 b h' ev :
  full_model h nc nf pi A mu Sg -> full_hyper h nc nf m0 cp w a -> priors (h_cfg h) nc sp tp ->
  (forall i, (i < nc)%nat -> 1 <= sp i) -> (forall i j, (i < nc)%nat -> (j < nc)%nat -> 1 <= tp i j) ->
  good_data (finite_row nf) ls x -> good_data (finite_row nf) ls2 x2 -> Permutation (chunks ls x) (chunks ls2 x2) ->
  normal_densities nc nf mu Sg b -> possible nc pi A b ls x ->
  full_used h w a (all_used nc pi A b (chunks ls x)) ->
  fit_from gaussian exact h x (as_lengths ls) = Ok (h', ev) ->
  fit_from gaussian exact h x2 (as_lengths ls2) = Ok (h', ev).
Proof.
  intros FM HH PR Hsp Htp Hd Hd2 Hcs D Hpos0 Hu. pose proof (fum_nf _ _ _ _ _ _ _ FM) as Hnf.
  pose proof (bo_pos _ _ _ _ (fum_base _ _ _ _ _ _ _ FM)) as Hnc.
  destruct (full_used_V _ _ _ _ Hu) as (V & V1 & V2 & V3).
  pose proof (given_possible h nc nf pi A mu Sg ls x b FM Hd D Hpos0) as Hpos.
  pose proof (fun e => given_used h nc nf pi A mu Sg ls x b FM Hd D (V3 e)) as Hu1.
  pose proof (full_tstate h nc nf pi A mu Sg m0 cp w a FM HH ls x Hd Hpos V V1 V2 Hu1) as TS.
  destruct HH as (_ & Hw & Ha & Hcp).
  apply (rl_reorder gaussian nc (finite_row nf) (full_good nc nf m0 cp w a V) (gauss_fp nf) V
    (full_trains nc nf Hnc Hnf m0 cp w a Hw Ha Hcp V) ls ls2 x x2 Hd Hd2 Hcs sp tp Hsp Htp)
    with (h1 := with_em h (Some nf) (h_em h)) (pi := pi) (A := A).
  - intros c c2 nfe p l l2 st st2 q q2 Hc Kc Gp Gp2 W W2 Vi Vi2 Hl X1 X2 Y1 Y2.
    rewrite (step_unique _ _ _ _ _ _ _ _ _ X1 X2 (full_step0 nc nf Hnc Hnf m0 cp w a V c nfe p l Hc Gp W
      (full_dm nc nf m0 cp w a Hw V c nfe p l Gp W Vi) (full_dc nc nf m0 cp w a Ha V c nfe p l Gp W Vi))).
    rewrite (step_unique _ _ _ _ _ _ _ _ _ Y1 Y2 (full_step0 nc nf Hnc Hnf m0 cp w a V c2 nfe p l2 (eq_trans (proj1 Kc) Hc) Gp2 W2
      (full_dm nc nf m0 cp w a Hw V c2 nfe p l2 Gp2 W2 Vi2) (full_dc nc nf m0 cp w a Ha V c2 nfe p l2 Gp2 W2 Vi2))).
    apply full_new_same; assumption.
  - apply (full_model_check h nc nf pi A mu Sg FM).
  - exact TS.
  - exact PR.
Qed.
