(** * Training on repeated data: property C92. *)
From Coq Require Import Permutation.
From Verif Require Export Repeat.

(** [x2, ls2] holds every sequence of [x, ls] [m] times, in any order. *)
Definition repeats_data {X} (m : nat) (ls : list nat) (x : list X) (ls2 : list nat) (x2 : list X) : Prop :=
  (0 < m)%nat /\ Permutation (concat (repeat (chunks ls x) m)) (chunks ls2 x2).

(** Two estimators built with the same settings, the tolerance of the second
    being [m] times that of the first. *)
Record scaled_settings {P} (m : nat) (h h2 : hmm P) : Prop := ScaledSettings {
  sc_nc : c_nc (h_cfg h2) = c_nc (h_cfg h);
  sc_params : c_params (h_cfg h2) = c_params (h_cfg h);
  sc_impl : c_impl (h_cfg h2) = c_impl (h_cfg h);
  sc_n_iter : c_n_iter (h_cfg h2) = c_n_iter (h_cfg h);
  sc_tol : exists t, m_tol (h_mon h) = Fin t /\ m_tol (h_mon h2) = Fin (INR m * t);
  sc_mon_iter : m_n_iter (h_mon h2) = m_n_iter (h_mon h) }.

(** The same start and transition probabilities after the same number of
    iterations; every log-likelihood of the history is multiplied by [m]. *)
Definition same_training {P} (m : nat) (h h2 : hmm P) : Prop :=
  h_start h2 = h_start h /\ h_trans h2 = h_trans h /\ h_nfeat h2 = h_nfeat h
  /\ m_iter (h_mon h2) = m_iter (h_mon h)
  /\ exists L, m_history (h_mon h) = map Fin L /\ m_history (h_mon h2) = map (fun r => Fin (INR m * r)) L.

Lemma sc_cfg {P} m (h h2 : hmm P) : scaled_settings m h h2 -> same_cfg (h_cfg h) (h_cfg h2).
Proof. intros []. repeat split; assumption. Qed.
Lemma sc_mon {P} m (h h2 : hmm P) : scaled_settings m h h2 ->
  mon_scaled m (monitor_reset (h_mon h)) (monitor_reset (h_mon h2)).
Proof. intros [_ _ _ _ (t & H1 & H2) H3]. exists t, []. unfold monitor_reset. cbn. auto 10. Qed.

Lemma training_of {P} m (h h2 : hmm P) : h_start h2 = h_start h -> h_trans h2 = h_trans h -> h_nfeat h2 = h_nfeat h ->
  mon_scaled m (h_mon h) (h_mon h2) -> same_training m h h2.
Proof. intros H1 H2 H3 (t & L & _ & _ & _ & H4 & H5 & H6). repeat split; try assumption. exists L. auto. Qed.

(** The likelihoods on the repeated data. *)
Section Given.
  Context {X : Type}.
  Variables (nc m : nat) (ls ls2 : list nat) (x x2 : list X).
  Hypothesis HR : repeats_data m ls x ls2 x2.
  Variables (pi : nat -> R) (A : nat -> nat -> R) (b : X -> nat -> R).

  Lemma in_data c : In c (chunks ls x) <-> In c (chunks ls2 x2).
  Proof. destruct HR as [H1 H2]. exact (in_rp ls ls2 x x2 m H1 H2 c). Qed.
  Lemma possible_repeat : possible nc pi A b ls x -> possible nc pi A b ls2 x2.
  Proof. intros Hp c Hc. apply Hp, in_data, Hc. Qed.
  Lemma used_repeat : all_used nc pi A b (chunks ls x) -> all_used nc pi A b (chunks ls2 x2).
  Proof. intros Hu i Hi. destruct (Hu i Hi) as (c & t & Hc & H). exists c, t. split; [apply in_data; exact Hc|exact H]. Qed.
End Given.

Notation ppseudo m f := (fun i => pseudo (INR m) (f i)).
Notation ppseudo2 m f := (fun i j => pseudo (INR m) (f i j)).

Lemma cat_new_scale nc nf m ep c c2 p p2 l l2 : (0 < m)%nat -> same_cfg c c2 -> cat_rel nc nf (fun i => i) p p2 ->
  repeated m nc l l2 ->
  cat_rel nc nf (fun i => i) (cat_new nc nf ep c p l) (cat_new nc nf (ppseudo2 m ep) c2 p2 l2).
Proof.
  intros Hm (_ & Kp & _) Hr Hl i k Hi Hk. pose proof (lt_0_INR m Hm) as HM. destruct (has "e" (c_params c)) eqn:He.
  - rewrite !cat_e_new by (try assumption; rewrite Kp; exact He).
    apply (normalised_scale nf (INR m) _ _ HM); [intros; apply Rmax_r| |exact Hk].
    intros j Hj. unfold clip_weight. rewrite <- Rmax_scale by exact HM. f_equal.
    unfold sym_count. rewrite (repeated_sum m nc l l2 (fun x t g => if Z.eqb (nth t x 0%Z) (Z.of_nat j) then g else 0) i Hl Hi).
    unfold pseudo. ring.
  - unfold cat_new. rewrite Kp, He. apply Hr; assumption.
Qed.

(** ** C92: CategoricalHMM *)
Lemma C92_categorical_l h h2 nc nf pi A e sp tp ep m ls x ls2 x2 h' ev :
  scaled_settings m h h2 -> repeats_data m ls x ls2 x2 ->
  cat_model h nc nf pi A e -> cat_priors h nc nf sp tp ep ->
  cat_model h2 nc nf pi A e ->
  cat_priors h2 nc nf (fun i => 1 + INR m * (sp i - 1)) (fun i j => 1 + INR m * (tp i j - 1)) (fun i k => 1 + INR m * (ep i k - 1)) ->
  good_data (sym_ok nf) ls x -> good_data (sym_ok nf) ls2 x2 -> possible nc pi A (cat_b e) ls x ->
  fit_from categorical exact h x (as_lengths ls) = Ok (h', ev) ->
  exists h2' ev2, fit_from categorical exact h2 x2 (as_lengths ls2) = Ok (h2', ev2) /\ same_training m h' h2'
    /\ cat_prob (h_em h2') = cat_prob (h_em h').
Proof.
  intros SS HR CM CP CM2 CP2 Hd Hd2 Hpos Hf. pose proof HR as [Hm Hcs].
  pose proof (possible_repeat nc m ls ls2 x x2 HR pi A (cat_b e) Hpos) as Hpos2.
  destruct (rp_fit categorical nc (sym_ok nf) (cat_good nc nf ep false) (cat_good nc nf (ppseudo2 m ep) false) cat_bp false
    (cat_trains nc nf ep (cp_e _ _ _ _ _ _ CP) false) (cat_trains nc nf (ppseudo2 m ep) (cp_e _ _ _ _ _ _ CP2) false)
    ls ls2 x x2 m Hm Hd Hd2 Hcs sp (ppseudo m sp) tp (ppseudo2 m tp)
    (cp_s _ _ _ _ _ _ CP) (cp_t _ _ _ _ _ _ CP) ltac:(reflexivity) ltac:(reflexivity) (cat_rel nc nf (fun i => i))
    (fun p p2 o i => cat_rel_b nc nf (fun i => i) p p2 o i))
    with (h := h) (h2 := h2) (h1 := checked h nf) (h21 := checked h2 nf) (pi := pi) (A := A)
         (pi2 := pi) (A2 := A) (h' := h') (ev := ev)
    as (h2' & ev2 & F & S1 & T1 & Mo & N & Hr & G1 & G2).
  - intros c c2 nfe p p2 l l2 st st2 q q2 Hc Kc Gp Gp2 Hr W W2 _ _ Hl X1 X2 Y1 Y2.
    rewrite (step_unique _ _ _ _ _ _ _ _ _ X1 X2 (cat_step nc nf ep false c nfe p l Hc Gp (in_syms _ _ _ _ W))).
    rewrite (step_unique _ _ _ _ _ _ _ _ _ Y1 Y2 (cat_step nc nf (ppseudo2 m ep) false c2 nfe p2 l2 (eq_trans (proj1 Kc) Hc) Gp2 (in_syms _ _ _ _ W2))).
    apply cat_new_scale; auto.
  - apply (cat_model_check h nc nf pi A e CM).
  - apply (cat_model_check h2 nc nf _ _ _ CM2).
  - constructor; auto.
    + apply (sc_cfg m h h2 SS).
    + intros i k Hi Hk. cbn [checked h_em]. unfold cat_e. rewrite (cm_em _ _ _ _ _ _ CM), (cm_em _ _ _ _ _ _ CM2). reflexivity.
    + apply (cat_tstate false h nc nf pi A e sp tp ep ls x); auto; discriminate.
    + apply (cat_tstate false h2 nc nf _ _ e (ppseudo m sp) (ppseudo2 m tp) _ ls2 x2); auto; discriminate.
    + apply CP.
    + apply CP2.
  - exact (sc_mon m h h2 SS).
  - exact Hf.
  - exists h2', ev2. split; [exact F|]. split; [apply training_of; assumption|].
    rewrite (cg_prob _ _ _ _ _ _ _ G2), (cg_prob _ _ _ _ _ _ _ G1). f_equal. apply fmat_ext. exact Hr.
Qed.

Lemma pois_new_scale nc nf m al be c c2 p p2 l l2 : (0 < m)%nat -> same_cfg c c2 -> pois_rel nc nf (fun i => i) p p2 ->
  repeated m nc l l2 ->
  pois_rel nc nf (fun i => i) (pois_new nc nf al be c p l)
    (pois_new nc nf (fun i f => INR m * al i f) (fun i f => INR m * be i f) c2 p2 l2).
Proof.
  intros Hm (_ & Kp & _) Hr Hl i f Hi Hf. pose proof (lt_0_INR m Hm) as HM.
  unfold pois_new. rewrite Kp. destruct (has "l" (c_params c)); [|apply Hr; assumption].
  rewrite !pois_l_fmat by assumption. unfold pois_upd.
  rewrite (sumn_ext nc (wsum l2 (fun _ _ => 1)) (fun j => INR m * wsum l (fun _ _ => 1) j)) by (intros; apply (repeated_wsum m nc); assumption).
  rewrite sumn_scal_l, !(repeated_wsum m nc l l2) by assumption. rewrite (ratio_scale _ _ _ HM).
  set (n := sumn nc _). set (q := wsum l _ i / _). rewrite <- (ratio_scale (INR m) (al i f + n * q)) by exact HM. f_equal; ring.
Qed.

(** ** C92: PoissonHMM *)
Lemma C92_poisson_l h h2 nc nf pi A lam al be sp tp m ls x ls2 x2 h' ev :
  scaled_settings m h h2 -> repeats_data m ls x ls2 x2 ->
  pois_model h nc nf pi A lam -> gamma_prior nc nf (h_em h) al be -> priors (h_cfg h) nc sp tp ->
  pois_model h2 nc nf pi A lam ->
  gamma_prior nc nf (h_em h2) (fun i f => INR m * al i f) (fun i f => INR m * be i f) ->
  priors (h_cfg h2) nc (fun i => 1 + INR m * (sp i - 1)) (fun i j => 1 + INR m * (tp i j - 1)) ->
  nonneg2 nc nf al -> nonneg2 nc nf be -> (forall i, (i < nc)%nat -> 1 <= sp i) ->
  (forall i j, (i < nc)%nat -> (j < nc)%nat -> 1 <= tp i j) ->
  good_data (counts_ok nf) ls x -> good_data (counts_ok nf) ls2 x2 -> possible nc pi A (pois_b nf lam) ls x ->
  (has "l" (c_params (h_cfg h)) = true -> all_used nc pi A (pois_b nf lam) (chunks ls x)) ->
  fit_from poisson exact h x (as_lengths ls) = Ok (h', ev) ->
  exists h2' ev2, fit_from poisson exact h2 x2 (as_lengths ls2) = Ok (h2', ev2) /\ same_training m h' h2'
    /\ po_lam (h_em h2') = po_lam (h_em h').
Proof.
  intros SS HR PM GP PR PM2 GP2 PR2 Hal Hbe Hsp Htp Hd Hd2 Hpos Hu Hf. pose proof HR as [Hm Hcs].
  pose proof (lt_0_INR m Hm) as HM.
  assert (Hal2 : nonneg2 nc nf (fun i f => INR m * al i f)) by (intros i f Hi Hf'; apply Rmult_le_pos; [lra|apply Hal; assumption]).
  assert (Hbe2 : nonneg2 nc nf (fun i f => INR m * be i f)) by (intros i f Hi Hf'; apply Rmult_le_pos; [lra|apply Hbe; assumption]).
  pose proof (possible_repeat nc m ls ls2 x x2 HR pi A (pois_b nf lam) Hpos) as Hpos2.
  assert (Hu2 : has "l" (c_params (h_cfg h2)) = true -> all_used nc pi A (pois_b nf lam) (chunks ls2 x2)).
  { rewrite (sc_params _ _ _ SS). intros V. apply (used_repeat nc m ls ls2 x x2 HR). auto. }
  pose proof (pois_tstate h nc nf pi A lam al be PM GP ls x Hd Hpos Hu) as TS.
  pose proof (pois_tstate h2 nc nf _ _ _ _ _ PM2 GP2 ls2 x2 Hd2 Hpos2 Hu2) as TS2.
  rewrite (sc_params _ _ _ SS) in TS2. set (V := has "l" (c_params (h_cfg h))) in *.
  destruct (rp_fit poisson nc (counts_ok nf) (pois_good nc nf al be V)
    (pois_good nc nf (fun i f => INR m * al i f) (fun i f => INR m * be i f) V) (pois_bp nf) V
    (pois_trains nc nf al be Hal Hbe V) (pois_trains nc nf _ _ Hal2 Hbe2 V)
    ls ls2 x x2 m Hm Hd Hd2 Hcs sp (ppseudo m sp) tp (ppseudo2 m tp)
    Hsp Htp ltac:(reflexivity) ltac:(reflexivity) (pois_rel nc nf (fun i => i))
    (fun p p2 o i Hr _ Hi => pois_rel_b nc nf (fun i => i) p p2 o i Hr Hi))
    with (h := h) (h2 := h2) (h1 := with_em h (Some nf) (h_em h)) (h21 := with_em h2 (Some nf) (h_em h2)) (pi := pi) (A := A)
         (pi2 := pi) (A2 := A) (h' := h') (ev := ev)
    as (h2' & ev2 & F & S1 & T1 & Mo & N & Hr & G1 & G2).
  - intros c c2 nfe p p2 l l2 st st2 q q2 Hc Kc Gp Gp2 Hr W W2 Vi Vi2 Hl X1 X2 Y1 Y2.
    rewrite (step_unique _ _ _ _ _ _ _ _ _ X1 X2 (pois_step nc nf al be Hbe V c nfe p l Hc Gp W Vi)).
    rewrite (step_unique _ _ _ _ _ _ _ _ _ Y1 Y2 (pois_step nc nf _ _ Hbe2 V c2 nfe p2 l2 (eq_trans (proj1 Kc) Hc) Gp2 W2 Vi2)).
    apply pois_new_scale; auto.
  - apply (pois_model_check h nc nf pi A lam PM).
  - apply (pois_model_check h2 nc nf _ _ _ PM2).
  - constructor; auto.
    + apply (sc_cfg m h h2 SS).
    + intros i f Hi Hf'. cbn [with_em h_em].
      rewrite (pois_l_lam h nc nf pi A lam PM), (pois_l_lam h2 nc nf _ _ _ PM2) by assumption. reflexivity.
  - exact (sc_mon m h h2 SS).
  - exact Hf.
  - exists h2', ev2. split; [exact F|]. split; [apply training_of; assumption|].
    destruct G1 as [_ G1 _ _ _], G2 as [_ G2 _ _ _]. rewrite G2, G1. f_equal. apply fmat_ext. exact Hr.
Qed.

Lemma mult_new_scale nc nf m c c2 p p2 l l2 : (0 < m)%nat -> same_cfg c c2 -> mult_rel nc nf (fun i => i) p p2 ->
  repeated m nc l l2 -> mult_rel nc nf (fun i => i) (mult_new nc nf c p l) (mult_new nc nf c2 p2 l2).
Proof.
  intros Hm (_ & Kp & _) Hr Hl i f Hi Hf. pose proof (lt_0_INR m Hm) as HM.
  unfold mult_new. rewrite Kp. destruct (has "e" (c_params c)); [|apply Hr; assumption].
  rewrite !mult_e_fmat by assumption. unfold mult_upd.
  rewrite (sumn_ext nf (fun k => wsum l2 (cnt k) i) (fun k => INR m * wsum l (cnt k) i)) by (intros; apply (repeated_wsum m nc); assumption).
  rewrite sumn_scal_l, (repeated_wsum m nc l l2) by assumption. apply ratio_scale, HM.
Qed.

(** ** C92: MultinomialHMM *)
Lemma C92_multinomial_l h h2 nc nf pi A e sp tp m ls x ls2 x2 h' ev :
  scaled_settings m h h2 -> repeats_data m ls x ls2 x2 ->
  mult_model h nc nf pi A e -> priors (h_cfg h) nc sp tp -> mult_model h2 nc nf pi A e ->
  priors (h_cfg h2) nc (fun i => 1 + INR m * (sp i - 1)) (fun i j => 1 + INR m * (tp i j - 1)) ->
  (forall i, (i < nc)%nat -> 1 <= sp i) -> (forall i j, (i < nc)%nat -> (j < nc)%nat -> 1 <= tp i j) ->
  good_data (trials_ok nf) ls x -> good_data (trials_ok nf) ls2 x2 -> possible nc pi A (mult_b nf e) ls x ->
  (has "e" (c_params (h_cfg h)) = true -> all_used nc pi A (mult_b nf e) (chunks ls x)) ->
  fit_from multinomial exact h x (as_lengths ls) = Ok (h', ev) ->
  exists h2' ev2, fit_from multinomial exact h2 x2 (as_lengths ls2) = Ok (h2', ev2) /\ same_training m h' h2'
    /\ mu_prob (h_em h2') = mu_prob (h_em h').
Proof.
  intros SS HR MM PR MM2 PR2 Hsp Htp Hd Hd2 Hpos Hu Hf. pose proof HR as [Hm Hcs]. pose proof (mm_pos _ _ _ _ _ _ MM) as Hnf.
  pose proof (possible_repeat nc m ls ls2 x x2 HR pi A (mult_b nf e) Hpos) as Hpos2.
  assert (Hu2 : has "e" (c_params (h_cfg h2)) = true -> all_used nc pi A (mult_b nf e) (chunks ls2 x2)).
  { rewrite (sc_params _ _ _ SS). intros V. apply (used_repeat nc m ls ls2 x x2 HR). auto. }
  pose proof (mult_tstate h nc nf pi A e MM ls x Hd Hpos Hu) as TS.
  pose proof (mult_tstate h2 nc nf _ _ _ MM2 ls2 x2 Hd2 Hpos2 Hu2) as TS2.
  rewrite (sc_params _ _ _ SS) in TS2. set (V := has "e" (c_params (h_cfg h))) in *.
  destruct (rp_fit multinomial nc (trials_ok nf) (mult_good nc nf V) (mult_good nc nf V) (mult_bp nf) V
    (mult_trains nc nf Hnf V) (mult_trains nc nf Hnf V)
    ls ls2 x x2 m Hm Hd Hd2 Hcs sp (ppseudo m sp) tp (ppseudo2 m tp)
    Hsp Htp ltac:(reflexivity) ltac:(reflexivity) (mult_rel nc nf (fun i => i))
    (fun p p2 o i Hr _ Hi => mult_rel_b nc nf (fun i => i) p p2 o i Hr Hi))
    with (h := h) (h2 := h2) (h1 := with_em h (Some nf) (h_em h)) (h21 := with_em h2 (Some nf) (h_em h2)) (pi := pi) (A := A)
         (pi2 := pi) (A2 := A) (h' := h') (ev := ev)
    as (h2' & ev2 & F & S1 & T1 & Mo & N & Hr & G1 & G2).
  - intros c c2 nfe p p2 l l2 st st2 q q2 Hc Kc Gp Gp2 Hr W W2 Vi Vi2 Hl X1 X2 Y1 Y2.
    rewrite (step_unique _ _ _ _ _ _ _ _ _ X1 X2 (mult_step nc nf Hnf V c nfe p l Hc Gp W Vi)).
    rewrite (step_unique _ _ _ _ _ _ _ _ _ Y1 Y2 (mult_step nc nf Hnf V c2 nfe p2 l2 (eq_trans (proj1 Kc) Hc) Gp2 W2 Vi2)).
    apply (mult_new_scale nc nf m); auto.
  - apply (mult_model_check h nc nf pi A e MM).
  - apply (mult_model_check h2 nc nf _ _ _ MM2).
  - constructor; auto.
    + apply (sc_cfg m h h2 SS).
    + intros i f Hi Hf'. cbn [with_em h_em].
      rewrite (mult_e_e h nc nf pi A e MM), (mult_e_e h2 nc nf _ _ _ MM2) by assumption. reflexivity.
  - exact (sc_mon m h h2 SS).
  - exact Hf.
  - exists h2', ev2. split; [exact F|]. split; [apply training_of; assumption|].
    destruct G1 as [_ G1 _ _], G2 as [_ G2 _ _]. rewrite G2, G1. f_equal. apply fmat_ext. exact Hr.
Qed.

(** ** The updates of GaussianHMM *)
Section Gauss.
  Variables (nc nf m : nat) (m0 w cp : nat -> nat -> R) (a : R).
  Hypothesis Hm : (0 < m)%nat.
  Notation M := (INR m).
  Variables (c c2 : cfg) (l l2 : list (list vec * (nat -> nat -> R))).
  Hypothesis Kc : same_cfg c c2.
  Hypothesis Hl : repeated m nc l l2.

  Lemma gp_M : 0 < M. Proof. apply lt_0_INR, Hm. Qed.
  Lemma st_n_rep i : (i < nc)%nat -> st_n c2 l2 i = M * st_n c l i.
  Proof.
    intros Hi. unfold st_n. replace (c_params c2) with (c_params c) by (symmetry; apply Kc).
    destruct (has "m" _); [apply (repeated_wsum m nc l l2 _ i Hl Hi)|ring].
  Qed.
  Lemma st_s_rep i f : (i < nc)%nat -> st_s c2 l2 i f = M * st_s c l i f.
  Proof.
    intros Hi. unfold st_s. replace (c_params c2) with (c_params c) by (symmetry; apply Kc).
    destruct (has "m" _); [apply (repeated_wsum m nc l l2 _ i Hl Hi)|ring].
  Qed.
  Lemma st_q_rep i f : (i < nc)%nat -> st_q c2 l2 i f = M * st_q c l i f.
  Proof.
    intros Hi. unfold st_q. replace (c_params c2) with (c_params c) by (symmetry; apply Kc).
    destruct (has "c" _); [apply (repeated_wsum m nc l l2 _ i Hl Hi)|ring].
  Qed.
  Lemma st_qq_rep i k j : (i < nc)%nat -> st_qq c2 l2 i k j = M * st_qq c l i k j.
  Proof.
    intros Hi. unfold st_qq. replace (c_params c2) with (c_params c) by (symmetry; apply Kc).
    destruct (has "c" _); [apply (repeated_wsum m nc l l2 _ i Hl Hi)|ring].
  Qed.

  Notation w2 := (fun i f => M * w i f).
  Notation cp2 := (fun i f => M * cp i f).

  Lemma mu_new_rep p p2 i f : gauss_rel nc nf (fun i => i) p p2 -> (i < nc)%nat -> (f < nf)%nat ->
    mu_new m0 w2 c2 p2 l2 i f = mu_new m0 w c p l i f.
  Proof.
    intros Hr Hi Hf. unfold mu_new. replace (c_params c2) with (c_params c) by (symmetry; apply Kc).
    destruct (has "m" _); [|apply Hr; assumption]. unfold new_mean.
    rewrite st_n_rep, st_s_rep by exact Hi. rewrite <- (ratio_scale M (w i f * m0 i f + _)) by apply gp_M.
    f_equal; ring.
  Qed.

  Lemma scatter_rep p p2 i f : gauss_rel nc nf (fun i => i) p p2 -> (i < nc)%nat -> (f < nf)%nat ->
    scatter m0 w2 cp2 (st_n c2 l2) (st_s c2 l2) (st_q c2 l2) (mu_new m0 w2 c2 p2 l2) i f
    = M * scatter m0 w cp (st_n c l) (st_s c l) (st_q c l) (mu_new m0 w c p l) i f.
  Proof.
    intros Hr Hi Hf. unfold scatter. rewrite (mu_new_rep p p2 i f Hr Hi Hf), st_n_rep, st_s_rep, st_q_rep by exact Hi. ring.
  Qed.

  (** [a + n] is at least the floor 1e-5 of the denominator. *)
  Hypothesis Ha : / 10 ^ 5 <= a.
  Hypothesis Hn0 : forall i, (i < nc)%nat -> 0 <= st_n c l i.

  Lemma v_new_rep p p2 i f : gauss_rel nc nf (fun i => i) p p2 -> (i < nc)%nat -> (f < nf)%nat ->
    v_new nf m0 w2 cp2 (M * a) c2 p2 l2 i f = v_new nf m0 w cp a c p l i f.
  Proof.
    intros Hr Hi Hf. unfold v_new. replace (c_params c2) with (c_params c) by (symmetry; apply Kc).
    destruct (has "c" _); [|apply Hr; assumption]. unfold upd_var. rewrite (gr_type _ _ _ _ _ Hr). cbv zeta.
    assert (Hden : Rmax (M * a + st_n c2 l2 i) (/ 10 ^ 5) = M * Rmax (a + st_n c l i) (/ 10 ^ 5)).
    { rewrite st_n_rep by exact Hi. pose proof (Hn0 i Hi) as H0. assert (HM1 : 1 <= M) by (apply (le_INR 1 m); lia).
      rewrite (Rmax_left (a + _)) by lra. rewrite Rmax_left; [ring|].
      pose proof (Rmult_le_compat_r (a + st_n c l i) 1 M ltac:(assert (0 < / 10 ^ 5) by (apply Rinv_0_lt_compat, pow_lt; lra); lra) HM1). lra. }
    assert (Hv : forall k, (k < nf)%nat ->
      scatter m0 w2 cp2 (st_n c2 l2) (st_s c2 l2) (st_q c2 l2) (mu_new m0 w2 c2 p2 l2) i k / Rmax (M * a + st_n c2 l2 i) (/ 10 ^ 5)
      = scatter m0 w cp (st_n c l) (st_s c l) (st_q c l) (mu_new m0 w c p l) i k / Rmax (a + st_n c l i) (/ 10 ^ 5)).
    { intros k Hk. rewrite (scatter_rep p p2 i k Hr Hi Hk), Hden. apply ratio_scale, gp_M. }
    destruct (String.eqb _ _); [|apply Hv; exact Hf]. f_equal. apply sumn_ext. exact Hv.
  Qed.
End Gauss.

Section Full.
  Variables (nc nf m : nat) (m0 cp : nat -> nat -> R) (w a : R).
  Hypothesis Hm : (0 < m)%nat.
  Notation M := (INR m).
  Variables (c c2 : cfg) (l l2 : list (list vec * (nat -> nat -> R))).
  Hypothesis Kc : same_cfg c c2.
  Hypothesis Hl : repeated m nc l l2.

  Lemma fmu_new_rep p p2 i f : full_rel nc nf (fun i => i) p p2 -> (i < nc)%nat -> (f < nf)%nat ->
    fmu_new m0 (M * w) c2 p2 l2 i f = fmu_new m0 w c p l i f.
  Proof.
    intros Hr Hi Hf. unfold fmu_new. replace (c_params c2) with (c_params c) by (symmetry; apply Kc).
    destruct (has "m" _); [|apply Hr; assumption]. unfold fmean.
    rewrite (st_n_rep nc m c c2 l l2 Kc Hl), (st_s_rep nc m c c2 l l2 Kc Hl) by exact Hi.
    rewrite <- (ratio_scale M (w * m0 i f + _)) by apply (gp_M m Hm). f_equal; ring.
  Qed.

  Lemma scatm_rep p p2 i k j : full_rel nc nf (fun i => i) p p2 -> (i < nc)%nat -> (k < nf)%nat -> (j < nf)%nat ->
    scatm m0 (M * w) (st_n c2 l2) (st_s c2 l2) (st_qq c2 l2) (fmu_new m0 (M * w) c2 p2 l2) i k j
    = M * scatm m0 w (st_n c l) (st_s c l) (st_qq c l) (fmu_new m0 w c p l) i k j.
  Proof.
    intros Hr Hi Hk Hj. unfold scatm. rewrite !(fmu_new_rep p p2 i _ Hr Hi) by assumption.
    rewrite (st_n_rep nc m c c2 l l2 Kc Hl), !(st_s_rep nc m c c2 l l2 Kc Hl), (st_qq_rep nc m c c2 l l2 Kc Hl) by exact Hi. ring.
  Qed.

  Lemma S_new_rep p p2 i k j : full_rel nc nf (fun i => i) p p2 -> (i < nc)%nat -> (k < nf)%nat -> (j < nf)%nat ->
    S_new nc m0 (fun k j => M * cp k j) (M * w) (M * a) c2 p2 l2 i k j = S_new nc m0 cp w a c p l i k j.
  Proof.
    intros Hr Hi Hk Hj. unfold S_new. replace (c_params c2) with (c_params c) by (symmetry; apply Kc).
    destruct (has "c" _); [|apply Hr; assumption]. unfold upd_cov. rewrite (fr_type _ _ _ _ _ Hr).
    pose proof (gp_M m Hm) as HM. destruct (String.eqb _ _).
    - rewrite (sumn_ext nc (fun q => scatm m0 (M * w) (st_n c2 l2) (st_s c2 l2) (st_qq c2 l2) (fmu_new m0 (M * w) c2 p2 l2) q k j)
        (fun q => M * scatm m0 w (st_n c l) (st_s c l) (st_qq c l) (fmu_new m0 w c p l) q k j)) by (intros; apply (scatm_rep p p2); assumption).
      rewrite (sumn_ext nc (st_n c2 l2) (fun q => M * st_n c l q)) by (intros; apply (st_n_rep nc m c c2 l l2 Kc Hl); assumption).
      rewrite !sumn_scal_l, <- !Rmult_plus_distr_l. apply ratio_scale, HM.
    - rewrite (scatm_rep p p2), (st_n_rep nc m c c2 l l2 Kc Hl), <- !Rmult_plus_distr_l by assumption. apply ratio_scale, HM.
  Qed.
End Full.

(** ** C92: GaussianHMM, "diag" and "spherical" *)
Lemma C92_gaussian_l h h2 nc nf pi A mu var m0 w cp a sp tp m ls x ls2 x2 h' ev :
  scaled_settings m h h2 -> repeats_data m ls x ls2 x2 -> ga_type (h_em h2) = ga_type (h_em h) ->
  gauss_model h nc nf pi A mu var -> gauss_hyper h nc nf m0 w cp a -> priors (h_cfg h) nc sp tp ->
  gauss_model h2 nc nf pi A mu var ->
  gauss_hyper h2 nc nf m0 (fun i f => INR m * w i f) (fun i f => INR m * cp i f) (INR m * a) ->
  priors (h_cfg h2) nc (fun i => 1 + INR m * (sp i - 1)) (fun i j => 1 + INR m * (tp i j - 1)) ->
  nonneg2 nc nf w -> / 10 ^ 5 <= a -> (forall i, (i < nc)%nat -> 1 <= sp i) ->
  (forall i j, (i < nc)%nat -> (j < nc)%nat -> 1 <= tp i j) ->
  good_data (finite_row nf) ls x -> good_data (finite_row nf) ls2 x2 ->
  possible nc pi A (gauss_b nf mu (floored var)) ls x ->
  (has "m" (c_params (h_cfg h)) = true ->
     all_used nc pi A (gauss_b nf mu (floored var)) (chunks ls x)
     \/ forall i f, (i < nc)%nat -> (f < nf)%nat -> 0 < w i f) ->
  fit_from gaussian exact h x (as_lengths ls) = Ok (h', ev) ->
  exists h2' ev2 v', fit_from gaussian exact h2 x2 (as_lengths ls2) = Ok (h2', ev2) /\ same_training m h' h2'
    /\ ga_means (h_em h2') = ga_means (h_em h') /\ ga_type (h_em h2') = ga_type (h_em h')
    /\ (exists cv, ga_covars (h_em h') = Some cv /\ vcov nc nf v' (ga_type (h_em h')) cv)
    /\ (exists cv, ga_covars (h_em h2') = Some cv /\ vcov nc nf v' (ga_type (h_em h')) cv).
Proof.
  intros SS HR HT GM HH PR GM2 HH2 PR2 Hw Ha Hsp Htp Hd Hd2 Hpos Hu Hf. pose proof HR as [Hm Hcs].
  pose proof (lt_0_INR m Hm) as HM. pose proof (gam_nf _ _ _ _ _ _ _ GM) as Hnf.
  pose proof (bo_pos _ _ _ _ (gam_base _ _ _ _ _ _ _ GM)) as Hnc.
  assert (Hw2 : nonneg2 nc nf (fun i f => INR m * w i f)) by (intros i f Hi Hf'; apply Rmult_le_pos; [lra|apply Hw; assumption]).
  pose proof (possible_repeat nc m ls ls2 x x2 HR pi A (gauss_b nf mu (floored var)) Hpos) as Hpos2.
  assert (HV : exists V, (has "m" (c_params (h_cfg h)) = true -> V = true \/ forall i f, (i < nc)%nat -> (f < nf)%nat -> 0 < w i f)
     /\ (V = true -> all_used nc pi A (gauss_b nf mu (floored var)) (chunks ls x))).
  { destruct (has "m" (c_params (h_cfg h))); [|exists false; split; discriminate].
    destruct (Hu eq_refl) as [U|U]; [exists true|exists false]; split; auto; discriminate. }
  destruct HV as (V & V1 & V2).
  pose proof (gauss_tstate h nc nf pi A mu var m0 w cp a GM HH ls x Hd Hpos V V1 V2) as TS.
  assert (TS2 : tstate nc (gauss_good nc nf m0 (fun i f => INR m * w i f) (fun i f => INR m * cp i f) (INR m * a) V) (gauss_bp nf) V ls2 x2
     (with_em h2 (Some nf) (h_em h2)) pi A).
  { apply (gauss_tstate h2 nc nf _ _ _ _ _ _ _ (INR m * a) GM2 HH2 ls2 x2 Hd2 Hpos2 V).
    - rewrite (sc_params _ _ _ SS). intros Hp. destruct (V1 Hp) as [U|U]; [left; exact U|right].
      intros i f Hi Hf'. apply Rmult_lt_0_compat; [exact HM|apply U; assumption].
    - intros E. apply (used_repeat nc m ls ls2 x x2 HR). auto. }
  destruct (rp_fit gaussian nc (finite_row nf) (gauss_good nc nf m0 w cp a V)
    (gauss_good nc nf m0 (fun i f => INR m * w i f) (fun i f => INR m * cp i f) (INR m * a) V) (gauss_bp nf) V
    (gauss_trains nc nf Hnc Hnf m0 w cp a Hw V) (gauss_trains nc nf Hnc Hnf _ _ _ (INR m * a) Hw2 V)
    ls ls2 x x2 m Hm Hd Hd2 Hcs sp (ppseudo m sp) tp (ppseudo2 m tp)
    Hsp Htp ltac:(reflexivity) ltac:(reflexivity) (gauss_rel nc nf (fun i => i))
    (fun p p2 o i Hr _ Hi => gauss_rel_b nc nf (fun i => i) p p2 o i Hr Hi))
    with (h := h) (h2 := h2) (h1 := with_em h (Some nf) (h_em h)) (h21 := with_em h2 (Some nf) (h_em h2)) (pi := pi) (A := A)
         (pi2 := pi) (A2 := A) (h' := h') (ev := ev)
    as (h2' & ev2 & F & S1 & T1 & Mo & N & Hr & G1 & G2).
  - intros c c2 nfe p p2 l l2 st st2 q q2 Hc Kc Gp Gp2 Hr W W2 Vi Vi2 Hl X1 X2 Y1 Y2.
    rewrite (step_unique _ _ _ _ _ _ _ _ _ X1 X2 (gauss_step nc nf Hnc Hnf m0 w cp a Hw V c nfe p l Hc Gp W Vi)).
    rewrite (step_unique _ _ _ _ _ _ _ _ _ Y1 Y2 (gauss_step nc nf Hnc Hnf _ _ _ (INR m * a) Hw2 V c2 nfe p2 l2 (eq_trans (proj1 Kc) Hc) Gp2 W2 Vi2)).
    assert (Hn0 : forall i, (i < nc)%nat -> 0 <= st_n c l i).
    { intros i Hi. unfold st_n. destruct (has "m" (c_params c)); [|apply Rle_refl].
      apply (wsum_nonneg l _ i (finite_row nf)); [apply (good_weights_nn nc _ _ l i W Hi)|]. intros; lra. }
    constructor.
    + apply Hr.
    + intros i f Hi Hf'. rewrite !ga_mu_new by assumption. apply (mu_new_rep nc nf m m0 w Hm c c2 l l2 Kc Hl); assumption.
    + intros i f Hi Hf'.
      rewrite !ga_v_new by assumption.
      apply (v_new_rep nc nf m m0 w cp a Hm c c2 l l2 Kc Hl Ha Hn0); assumption.
  - apply (gauss_model_check h nc nf pi A mu var GM).
  - apply (gauss_model_check h2 nc nf _ _ _ _ GM2).
  - constructor; auto.
    + apply (sc_cfg m h h2 SS).
    + cbn [with_em h_em]. constructor; [exact HT| |]; intros i f Hi Hf'.
      * rewrite (ga_mu_gm h nc nf pi A mu var GM), (ga_mu_gm h2 nc nf _ _ _ _ GM2) by assumption. reflexivity.
      * rewrite (ga_v_gm h nc nf pi A mu var GM), (ga_v_gm h2 nc nf _ _ _ _ GM2) by assumption. reflexivity.
  - exact (sc_mon m h h2 SS).
  - exact Hf.
  - exists h2', ev2, (ga_v (h_em h')). split; [exact F|]. split; [apply training_of; assumption|].
    split; [|split; [apply Hr|split; [apply G1|]]].
    + rewrite (gg_means _ _ _ _ _ _ _ _ _ _ G2), (gg_means _ _ _ _ _ _ _ _ _ _ G1). f_equal. apply fmat_ext. apply Hr.
    + destruct (gg_covars _ _ _ _ _ _ _ _ _ _ G2) as (cv & E & Hcv). exists cv. split; [exact E|].
      rewrite (gr_type _ _ _ _ _ Hr) in Hcv. apply (vcov_ext nc nf (ga_v (h_em h2'))); [exact Hnf|apply Hr|exact Hcv].
Qed.

(** ** C92: GaussianHMM, "full" and "tied" *)
Lemma C92_gaussian_full_l h h2 nc nf pi A mu Sg m0 cp w a sp tp m ls x ls2 x2 b h' ev :
  scaled_settings m h h2 -> repeats_data m ls x ls2 x2 -> ga_type (h_em h2) = ga_type (h_em h) ->
  full_model h nc nf pi A mu Sg -> full_hyper h nc nf m0 cp w a -> priors (h_cfg h) nc sp tp ->
  full_model h2 nc nf pi A mu Sg ->
  full_hyper h2 nc nf m0 (fun k j => INR m * cp k j) (INR m * w) (INR m * a) ->
  priors (h_cfg h2) nc (fun i => 1 + INR m * (sp i - 1)) (fun i j => 1 + INR m * (tp i j - 1)) ->
  (forall i, (i < nc)%nat -> 1 <= sp i) -> (forall i j, (i < nc)%nat -> (j < nc)%nat -> 1 <= tp i j) ->
  good_data (finite_row nf) ls x -> good_data (finite_row nf) ls2 x2 ->
  normal_densities nc nf mu Sg b -> possible nc pi A b ls x ->
  full_used h w a (all_used nc pi A b (chunks ls x)) ->
  fit_from gaussian exact h x (as_lengths ls) = Ok (h', ev) ->
  exists h2' ev2 Sg', fit_from gaussian exact h2 x2 (as_lengths ls2) = Ok (h2', ev2) /\ same_training m h' h2'
    /\ ga_means (h_em h2') = ga_means (h_em h') /\ ga_type (h_em h2') = ga_type (h_em h')
    /\ (exists cv, ga_covars (h_em h') = Some cv /\ mcov nc nf Sg' (ga_type (h_em h')) cv)
    /\ (exists cv, ga_covars (h_em h2') = Some cv /\ mcov nc nf Sg' (ga_type (h_em h')) cv).
Proof.
  intros SS HR HT FM HH PR FM2 HH2 PR2 Hsp Htp Hd Hd2 D Hpos0 Hu Hf. pose proof HR as [Hm Hcs].
  pose proof (lt_0_INR m Hm) as HM. pose proof (fum_nf _ _ _ _ _ _ _ FM) as Hnf.
  pose proof (bo_pos _ _ _ _ (fum_base _ _ _ _ _ _ _ FM)) as Hnc.
  destruct (full_used_V _ _ _ _ Hu) as (V & V1 & V2 & V3).
  pose proof (given_possible h nc nf pi A mu Sg ls x b FM Hd D Hpos0) as Hpos.
  pose proof (fun e => given_used h nc nf pi A mu Sg ls x b FM Hd D (V3 e)) as Hu1.
  pose proof (possible_repeat nc m ls ls2 x x2 HR pi A _ Hpos) as Hpos2.
  pose proof (full_tstate h nc nf pi A mu Sg m0 cp w a FM HH ls x Hd Hpos V V1 V2 Hu1) as TS.
  assert (TS2 : tstate nc (full_good nc nf m0 (fun k j => INR m * cp k j) (INR m * w) (INR m * a) V) (gauss_fp nf) V ls2 x2
     (with_em h2 (Some nf) (h_em h2)) pi A).
  { apply (full_tstate h2 nc nf _ _ _ _ _ _ _ _ FM2 HH2 ls2 x2 Hd2 Hpos2 V).
    - rewrite (sc_params _ _ _ SS). intros Hp. destruct (V1 Hp) as [U|U]; [left; exact U|right; apply Rmult_lt_0_compat; assumption].
    - rewrite (sc_params _ _ _ SS). intros Hp. destruct (V2 Hp) as [U|U]; [left; apply Rmult_lt_0_compat; assumption|right; exact U].
    - intros E. apply (used_repeat nc m ls ls2 x x2 HR). auto. }
  destruct HH as (_ & Hw & Ha & Hcp). destruct HH2 as (_ & Hw2 & Ha2 & Hcp2).
  destruct (rp_fit gaussian nc (finite_row nf) (full_good nc nf m0 cp w a V)
    (full_good nc nf m0 (fun k j => INR m * cp k j) (INR m * w) (INR m * a) V) (gauss_fp nf) V
    (full_trains nc nf Hnc Hnf m0 cp w a Hw Ha Hcp V) (full_trains nc nf Hnc Hnf _ _ _ _ Hw2 Ha2 Hcp2 V)
    ls ls2 x x2 m Hm Hd Hd2 Hcs sp (ppseudo m sp) tp (ppseudo2 m tp)
    Hsp Htp ltac:(reflexivity) ltac:(reflexivity) (full_rel nc nf (fun i => i))
    (fun p p2 o i Hr _ Hi => full_rel_b nc nf (fun i => i) p p2 o i Hr Hi))
    with (h := h) (h2 := h2) (h1 := with_em h (Some nf) (h_em h)) (h21 := with_em h2 (Some nf) (h_em h2)) (pi := pi) (A := A)
         (pi2 := pi) (A2 := A) (h' := h') (ev := ev)
    as (h2' & ev2 & F & S1 & T1 & Mo & N & Hr & G1 & G2).
  - intros c c2 nfe p p2 l l2 st st2 q q2 Hc Kc Gp Gp2 Hr W W2 Vi Vi2 Hl X1 X2 Y1 Y2.
    rewrite (step_unique _ _ _ _ _ _ _ _ _ X1 X2 (full_step0 nc nf Hnc Hnf m0 cp w a V c nfe p l Hc Gp W
      (full_dm nc nf m0 cp w a Hw V c nfe p l Gp W Vi) (full_dc nc nf m0 cp w a Ha V c nfe p l Gp W Vi))).
    rewrite (step_unique _ _ _ _ _ _ _ _ _ Y1 Y2 (full_step0 nc nf Hnc Hnf _ _ _ _ V c2 nfe p2 l2 (eq_trans (proj1 Kc) Hc) Gp2 W2
      (full_dm nc nf _ _ _ _ Hw2 V c2 nfe p2 l2 Gp2 W2 Vi2) (full_dc nc nf _ _ _ _ Ha2 V c2 nfe p2 l2 Gp2 W2 Vi2))).
    constructor.
    + apply Hr.
    + intros i f Hi Hf'. rewrite !fga_mu_new by assumption. apply (fmu_new_rep nc nf m m0 w Hm c c2 l l2 Kc Hl); assumption.
    + intros i k j Hi Hk Hj.
      rewrite (ga_S_new nc nf m0 _ _ _ V c2 nfe p2 l2 Gp2), (ga_S_new nc nf m0 cp w a V c nfe p l Gp) by assumption.
      apply (S_new_rep nc nf m m0 cp w a Hm c c2 l l2 Kc Hl); assumption.
  - apply (full_model_check h nc nf pi A mu Sg FM).
  - apply (full_model_check h2 nc nf _ _ _ _ FM2).
  - constructor; auto.
    + apply (sc_cfg m h h2 SS).
    + cbn [with_em h_em]. constructor; [exact HT| |].
      * intros i f Hi Hf'. rewrite (ga_mu_fm h nc nf pi A mu Sg FM), (ga_mu_fm h2 nc nf _ _ _ _ FM2) by assumption. reflexivity.
      * intros i k j Hi Hk Hj. rewrite (ga_S_fm h nc nf pi A mu Sg FM), (ga_S_fm h2 nc nf _ _ _ _ FM2) by assumption. reflexivity.
  - exact (sc_mon m h h2 SS).
  - exact Hf.
  - exists h2', ev2, (ga_S (h_em h')). split; [exact F|]. split; [apply training_of; assumption|].
    split; [|split; [apply Hr|split; [apply G1|]]].
    + rewrite (fg_means _ _ _ _ _ _ _ _ _ _ G2), (fg_means _ _ _ _ _ _ _ _ _ _ G1). f_equal. apply fmat_ext. apply Hr.
    + destruct (fg_covars _ _ _ _ _ _ _ _ _ _ G2) as (cv & E & Hcv). exists cv. split; [exact E|].
      rewrite (fr_type _ _ _ _ _ Hr) in Hcv. apply (mcov_ext nc nf (ga_S (h_em h2'))); [exact Hnc|apply Hr|exact Hcv].
Qed.
