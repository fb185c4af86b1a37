(** * Property lemmas C94: states that start alike stay alike. *)
From Verif Require Export Relabel_thms.
From Coq Require Import FunctionalExtensionality.

(** Start and transition probabilities are unchanged by the renumbering [s]. *)
Definition alike {P} (nc : nat) (s : nat -> nat) (h : hmm P) : Prop :=
  exists pi A, h_start h = Some (fvec nc pi) /\ h_trans h = Some (fmat nc nc A)
    /\ (forall i, (i < nc)%nat -> pi (s i) = pi i)
    /\ (forall i j, (i < nc)%nat -> (j < nc)%nat -> A (s i) (s j) = A i j).
(** A row per state, the same for states that [s] exchanges. *)
Definition alike_rows (nc nf : nat) (s : nat -> nat) (m : option mat) : Prop :=
  exists e, m = Some (fmat nc nf e) /\ forall i f, (i < nc)%nat -> (f < nf)%nat -> e (s i) f = e i f.

Lemma fvec_inj n f g : fvec n f = fvec n g -> forall i, (i < n)%nat -> f i = g i.
Proof. intros H i Hi. assert (E : vget (fvec n f) i = vget (fvec n g) i) by (rewrite H; reflexivity). rewrite !vget_fvec in E by exact Hi. congruence. Qed.
Lemma fmat_inj r c f g : fmat r c f = fmat r c g -> forall i j, (i < r)%nat -> (j < c)%nat -> f i j = g i j.
Proof.
  intros H i j Hi Hj. assert (E : mget (fmat r c f) i j = mget (fmat r c g) i j) by (rewrite H; reflexivity).
  rewrite !mget_fmat in E by assumption. congruence.
Qed.
Lemma same_settings_refl {P} (h : hmm P) : same_settings h h.
Proof. constructor; reflexivity. Qed.
Lemma renumbered_alike {P} nc s (h : hmm P) : renumbered nc s h h -> alike nc s h.
Proof.
  intros (pi & A & H1 & H2 & H3 & H4 & _). exists pi, A. split; [exact H1|]. split; [exact H3|].
  assert (E1 : fvec nc pi = fvec nc (fun i => pi (s i))) by congruence.
  assert (E2 : fmat nc nc A = fmat nc nc (fun i j => A (s i) (s j))) by congruence. split.
  - intros i Hi. symmetry. apply (fvec_inj nc _ _ E1 i Hi).
  - intros i j Hi Hj. symmetry. apply (fmat_inj nc nc _ _ E2 i j Hi Hj).
Qed.
Lemma rows_alike nc nf s m e : m = Some (fmat nc nf e) -> m = Some (fmat nc nf (fun i => e (s i))) -> alike_rows nc nf s m.
Proof.
  intros H1 H2. exists e. split; [exact H1|]. assert (E : fmat nc nf e = fmat nc nf (fun i => e (s i))) by congruence.
  intros i f Hi Hf. symmetry. apply (fmat_inj nc nf _ _ E i f Hi Hf).
Qed.
Lemma inv1 {Y} (f : nat -> Y) s : (forall i, f (s i) = f i) -> (fun i => f (s i)) = f.
Proof. intros H. apply functional_extensionality. exact H. Qed.
Lemma inv2 {Y} (f : nat -> nat -> Y) s : (forall i j, f (s i) (s j) = f i j) -> (fun i j => f (s i) (s j)) = f.
Proof. intros H. apply functional_extensionality. intros i. apply functional_extensionality. apply H. Qed.
Lemma vcov_char nc nf v ty cv : vcov nc nf v ty cv ->
  cv = CV2 (fmat nc nf v) \/ exists u, cv = CV1 (fvec nc u) /\ forall i f, (i < nc)%nat -> (f < nf)%nat -> v i f = u i.
Proof. intros []; [left; reflexivity| |left; reflexivity]. right. eexists. split; [reflexivity|assumption]. Qed.
Lemma vcov_alike nc nf s v ty cv : vcov nc nf v ty cv -> vcov nc nf (fun i => v (s i)) ty cv ->
  forall i f, (i < nc)%nat -> (f < nf)%nat -> v (s i) f = v i f.
Proof.
  intros H1 H2 i f Hi Hf. apply vcov_char in H1 as [->|(u & -> & Hu)]; apply vcov_char in H2 as [E|(w & E & Hw)]; try discriminate.
  - assert (E' : fmat nc nf v = fmat nc nf (fun i => v (s i))) by congruence. symmetry. apply (fmat_inj nc nf _ _ E' i f Hi Hf).
  - assert (E' : fvec nc u = fvec nc w) by congruence. rewrite (Hu i f Hi Hf), (Hw i f Hi Hf). symmetry. apply (fvec_inj nc _ _ E' i Hi).
Qed.
Lemma mcov_char nc nf Sg ty cv : mcov nc nf Sg ty cv ->
  cv = CV3 (tab nc (fun i => fmat nf nf (Sg i)))
  \/ (cv = CV2 (fmat nf nf (Sg 0%nat)) /\ forall i k l, (i < nc)%nat -> (k < nf)%nat -> (l < nf)%nat -> Sg i k l = Sg 0%nat k l).
Proof. intros []; [left; reflexivity|right; split; [reflexivity|assumption]]. Qed.
Lemma mcov_alike nc nf s Sg ty cv : mcov nc nf Sg ty cv -> mcov nc nf (fun i => Sg (s i)) ty cv ->
  forall i k l, (i < nc)%nat -> (k < nf)%nat -> (l < nf)%nat -> Sg (s i) k l = Sg i k l.
Proof.
  intros H1 H2 i k l Hi Hk Hl. apply mcov_char in H1 as [->|(-> & Hu)]; apply mcov_char in H2 as [E|(E & Hw)]; try discriminate.
  - assert (E' : tab nc (fun i => fmat nf nf (Sg i)) = tab nc (fun i => fmat nf nf (Sg (s i)))) by congruence.
    assert (E2 : nth i (tab nc (fun i => fmat nf nf (Sg i))) (fmat 0 0 (Sg 0%nat)) = nth i (tab nc (fun i => fmat nf nf (Sg (s i)))) (fmat 0 0 (Sg 0%nat))) by (rewrite E'; reflexivity).
    rewrite !tab_nth in E2 by exact Hi. symmetry. apply (fmat_inj nf nf _ _ E2 k l Hk Hl).
  - assert (E' : fmat nf nf (Sg 0%nat) = fmat nf nf (Sg (s 0%nat))) by congruence.
    rewrite (Hw i k l Hi Hk Hl), (Hu i k l Hi Hk Hl). symmetry. apply (fmat_inj nf nf _ _ E' k l Hk Hl).
Qed.

(** ** C94: a renumbering [s] that changes none of the start values and priors
    changes none of the fitted parameters.  Parameters are functions of the number
    of the state, of which only numbers below n_components matter. *)
Lemma C94_categorical_l h nc nf pi A e sp tp ep s ls x h' ev :
  permutes nc s -> cat_model h nc nf pi A e -> cat_priors h nc nf sp tp ep ->
  (forall i, pi (s i) = pi i) -> (forall i j, A (s i) (s j) = A i j) -> (forall i, e (s i) = e i) ->
  (forall i, sp (s i) = sp i) -> (forall i j, tp (s i) (s j) = tp i j) -> (forall i, ep (s i) = ep i) ->
  good_data (sym_ok nf) ls x -> possible nc pi A (cat_b e) ls x ->
  fit_from categorical exact h x (as_lengths ls) = Ok (h', ev) ->
  alike nc s h' /\ alike_rows nc nf s (cat_prob (h_em h')).
Proof.
  intros Hs CM CP H1 H2 H3 H4 H5 H6 Hd Hp Hf.
  destruct (C77_categorical_l h h nc nf pi A e sp tp ep s ls x h' ev Hs (same_settings_refl h) CM CP) as (h2 & e' & F & Rn & E1 & E2);
    rewrite ?(inv1 pi s H1), ?(inv2 A s H2), ?(inv1 e s H3), ?(inv1 sp s H4), ?(inv2 tp s H5), ?(inv1 ep s H6); try assumption.
  assert (h2 = h') by congruence. subst h2. split; [apply renumbered_alike; exact Rn|apply (rows_alike nc nf s _ e' E1 E2)].
Qed.
Lemma C94_poisson_l h nc nf pi A lam al be sp tp s ls x h' ev :
  permutes nc s -> pois_model h nc nf pi A lam -> gamma_prior nc nf (h_em h) al be -> priors (h_cfg h) nc sp tp ->
  (forall i, pi (s i) = pi i) -> (forall i j, A (s i) (s j) = A i j) -> (forall i, lam (s i) = lam i) ->
  (forall i, al (s i) = al i) -> (forall i, be (s i) = be i) -> (forall i, sp (s i) = sp i) -> (forall i j, tp (s i) (s j) = tp i j) ->
  nonneg2 nc nf al -> nonneg2 nc nf be -> (forall i, (i < nc)%nat -> 1 <= sp i) ->
  (forall i j, (i < nc)%nat -> (j < nc)%nat -> 1 <= tp i j) ->
  good_data (counts_ok nf) ls x -> possible nc pi A (pois_b nf lam) ls x ->
  (has "l" (c_params (h_cfg h)) = true -> all_used nc pi A (pois_b nf lam) (chunks ls x)) ->
  fit_from poisson exact h x (as_lengths ls) = Ok (h', ev) ->
  alike nc s h' /\ alike_rows nc nf s (po_lam (h_em h')).
Proof.
  intros Hs M G Pr H1 H2 H3 H4 H5 H6 H7 Ha Hb Hsp Htp Hd Hp Hu Hf.
  destruct (C77_poisson_l h h nc nf pi A lam al be sp tp s ls x h' ev Hs (same_settings_refl h) M G Pr) as (h2 & e' & F & Rn & E1 & E2);
    rewrite ?(inv1 pi s H1), ?(inv2 A s H2), ?(inv1 lam s H3), ?(inv1 al s H4), ?(inv1 be s H5), ?(inv1 sp s H6), ?(inv2 tp s H7); try assumption.
  assert (h2 = h') by congruence. subst h2. split; [apply renumbered_alike; exact Rn|apply (rows_alike nc nf s _ e' E1 E2)].
Qed.
Lemma C94_multinomial_l h nc nf pi A e sp tp s ls x h' ev :
  permutes nc s -> mult_model h nc nf pi A e -> priors (h_cfg h) nc sp tp ->
  (forall i, pi (s i) = pi i) -> (forall i j, A (s i) (s j) = A i j) -> (forall i, e (s i) = e i) ->
  (forall i, sp (s i) = sp i) -> (forall i j, tp (s i) (s j) = tp i j) ->
  (forall i, (i < nc)%nat -> 1 <= sp i) -> (forall i j, (i < nc)%nat -> (j < nc)%nat -> 1 <= tp i j) ->
  good_data (trials_ok nf) ls x -> possible nc pi A (mult_b nf e) ls x ->
  (has "e" (c_params (h_cfg h)) = true -> all_used nc pi A (mult_b nf e) (chunks ls x)) ->
  fit_from multinomial exact h x (as_lengths ls) = Ok (h', ev) ->
  alike nc s h' /\ alike_rows nc nf s (mu_prob (h_em h')).
Proof.
  intros Hs M Pr H1 H2 H3 H6 H7 Hsp Htp Hd Hp Hu Hf.
  destruct (C77_multinomial_l h h nc nf pi A e sp tp s ls x h' ev Hs (same_settings_refl h) M Pr) as (h2 & e' & F & Rn & E1 & E2);
    rewrite ?(inv1 pi s H1), ?(inv2 A s H2), ?(inv1 e s H3), ?(inv1 sp s H6), ?(inv2 tp s H7); try assumption.
  assert (h2 = h') by congruence. subst h2. split; [apply renumbered_alike; exact Rn|apply (rows_alike nc nf s _ e' E1 E2)].
Qed.
Lemma C94_gaussian_l h nc nf pi A mu var m0 w cp a sp tp s ls x h' ev :
  permutes nc s -> gauss_model h nc nf pi A mu var -> gauss_hyper h nc nf m0 w cp a -> priors (h_cfg h) nc sp tp ->
  (forall i, pi (s i) = pi i) -> (forall i j, A (s i) (s j) = A i j) -> (forall i, mu (s i) = mu i) -> (forall i, var (s i) = var i) ->
  (forall i, m0 (s i) = m0 i) -> (forall i, w (s i) = w i) -> (forall i, cp (s i) = cp i) ->
  (forall i, sp (s i) = sp i) -> (forall i j, tp (s i) (s j) = tp i j) ->
  nonneg2 nc nf w -> (forall i, (i < nc)%nat -> 1 <= sp i) ->
  (forall i j, (i < nc)%nat -> (j < nc)%nat -> 1 <= tp i j) ->
  good_data (finite_row nf) ls x -> possible nc pi A (gauss_b nf mu (floored var)) ls x ->
  (has "m" (c_params (h_cfg h)) = true ->
     all_used nc pi A (gauss_b nf mu (floored var)) (chunks ls x)
     \/ forall i f, (i < nc)%nat -> (f < nf)%nat -> 0 < w i f) ->
  fit_from gaussian exact h x (as_lengths ls) = Ok (h', ev) ->
  alike nc s h' /\ alike_rows nc nf s (ga_means (h_em h'))
  /\ exists v cv, ga_covars (h_em h') = Some cv /\ vcov nc nf v (ga_type (h_em h')) cv
       /\ forall i f, (i < nc)%nat -> (f < nf)%nat -> v (s i) f = v i f.
Proof.
  intros Hs M Hh Pr H1 H2 H3 H4 H5 H6 H7 H8 H9 Hw Hsp Htp Hd Hp Hu Hf.
  destruct (C77_gaussian_l h h nc nf pi A mu var m0 w cp a sp tp s ls x h' ev Hs (same_settings_refl h) eq_refl M Hh Pr)
    as (h2 & m' & v' & F & Rn & E1 & E2 & _ & (cv & C1 & C2) & (cv2 & C3 & C4));
    rewrite ?(inv1 pi s H1), ?(inv2 A s H2), ?(inv1 mu s H3), ?(inv1 var s H4), ?(inv1 m0 s H5), ?(inv1 w s H6), ?(inv1 cp s H7), ?(inv1 sp s H8), ?(inv2 tp s H9); try assumption.
  assert (h2 = h') by congruence. subst h2. split; [apply renumbered_alike; exact Rn|]. split; [apply (rows_alike nc nf s _ m' E1 E2)|].
  assert (cv2 = cv) by congruence. subst cv2. exists v', cv. split; [exact C1|]. split; [exact C2|]. apply (vcov_alike nc nf s v' _ cv C2 C4).
Qed.
Lemma C94_gaussian_full_l h nc nf pi A mu Sg m0 cp w a sp tp s ls x b h' ev :
  permutes nc s -> full_model h nc nf pi A mu Sg -> full_hyper h nc nf m0 cp w a -> priors (h_cfg h) nc sp tp ->
  (forall i, pi (s i) = pi i) -> (forall i j, A (s i) (s j) = A i j) -> (forall i, mu (s i) = mu i) -> (forall i, Sg (s i) = Sg i) ->
  (forall i, m0 (s i) = m0 i) -> (forall i, sp (s i) = sp i) -> (forall i j, tp (s i) (s j) = tp i j) ->
  (forall i, (i < nc)%nat -> 1 <= sp i) -> (forall i j, (i < nc)%nat -> (j < nc)%nat -> 1 <= tp i j) ->
  good_data (finite_row nf) ls x -> normal_densities nc nf mu Sg b -> possible nc pi A b ls x ->
  full_used h w a (all_used nc pi A b (chunks ls x)) ->
  fit_from gaussian exact h x (as_lengths ls) = Ok (h', ev) ->
  alike nc s h' /\ alike_rows nc nf s (ga_means (h_em h'))
  /\ exists Sg' cv, ga_covars (h_em h') = Some cv /\ mcov nc nf Sg' (ga_type (h_em h')) cv
       /\ forall i k l, (i < nc)%nat -> (k < nf)%nat -> (l < nf)%nat -> Sg' (s i) k l = Sg' i k l.
Proof.
  intros Hs M Hh Pr H1 H2 H3 H4 H5 H8 H9 Hsp Htp Hd Hn Hp Hu Hf.
  destruct (C77_gaussian_full_l h h nc nf pi A mu Sg m0 cp w a sp tp s ls x b h' ev Hs (same_settings_refl h) eq_refl M Hh Pr)
    as (h2 & m' & v' & F & Rn & E1 & E2 & _ & (cv & C1 & C2) & (cv2 & C3 & C4));
    rewrite ?(inv1 pi s H1), ?(inv2 A s H2), ?(inv1 mu s H3), ?(inv1 Sg s H4), ?(inv1 m0 s H5), ?(inv1 sp s H8), ?(inv2 tp s H9); try assumption.
  assert (h2 = h') by congruence. subst h2. split; [apply renumbered_alike; exact Rn|]. split; [apply (rows_alike nc nf s _ m' E1 E2)|].
  assert (cv2 = cv) by congruence. subst cv2. exists v', cv. split; [exact C1|]. split; [exact C2|]. apply (mcov_alike nc nf s v' _ cv C2 C4).
Qed.
