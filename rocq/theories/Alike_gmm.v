(** * Property lemmas C94 for GMMHMM: states and components that start alike. *)
From Verif Require Export Alike Relabel_gmm.
From Coq Require Import FunctionalExtensionality.

Lemma inv3 {Y} (f : nat -> nat -> Y) s (t : nat -> nat -> nat) : (forall i k, f (s i) (t i k) = f i k) -> (fun i k => f (s i) (t i k)) = f.
Proof. intros H. apply functional_extensionality. intros i. apply functional_extensionality. apply H. Qed.
Lemma inv_idx (f : list nat -> R) ty s t : (forall idx, f (renum_idx ty s t idx) = f idx) -> (fun idx => f (renum_idx ty s t idx)) = f.
Proof. intros H. apply functional_extensionality. exact H. Qed.

(** State [i] becomes state [s i] and its component [k] becomes component [t i k];
    what training starts from does not change, so the result does not. *)
Lemma C94_gmm_l eig h nc nm nf ty pi A w mu cv wp mw mp cp cw sp tp s t ls x h' ev :
  permutes nc s -> (forall i, (i < nc)%nat -> permutes nm (t i)) ->
  gmm_model eig h nc nm nf ty pi A w mu cv -> gmm_hyper (h_em h) nc nm nf ty wp mw mp cp cw -> priors (h_cfg h) nc sp tp ->
  (forall i, pi (s i) = pi i) -> (forall i j, A (s i) (s j) = A i j) ->
  (forall i k, w (s i) (t i k) = w i k) -> (forall i k, mu (s i) (t i k) = mu i k) -> (forall idx, cv (renum_idx ty s t idx) = cv idx) ->
  (forall i k, wp (s i) (t i k) = wp i k) -> (forall i k, mw (s i) (t i k) = mw i k) -> (forall i k, mp (s i) (t i k) = mp i k) ->
  (forall idx, cp (renum_idx ty s t idx) = cp idx) -> (forall idx, cw (renum_idx ty s t idx) = cw idx) ->
  (forall i, sp (s i) = sp i) -> (forall i j, tp (s i) (s j) = tp i j) ->
  hyper_ok nc nm nf ty wp mw cp cw -> (forall i k, (i < nc)%nat -> (k < nm)%nat -> 0 < w i k) ->
  (forall i, (i < nc)%nat -> 1 <= sp i) -> (forall i j, (i < nc)%nat -> (j < nc)%nat -> 1 <= tp i j) ->
  good_data (finite_row nf) ls x -> possible nc pi A (mixb nm nf ty w mu cv) ls x ->
  all_used nc pi A (mixb nm nf ty w mu cv) (chunks ls x) ->
  fit_from (gmm eig) exact h x (as_lengths ls) = Ok (h', ev) ->
  alike nc s h'
  /\ exists w' mu' cv',
       gm_weights (h_em h') = Some (nd2 nc nm w') /\ gm_means (h_em h') = Some (nd3 nc nm nf mu')
       /\ gm_covars (h_em h') = Some (fnd (cshape nc nm nf ty) cv')
       /\ (forall i k, (i < nc)%nat -> (k < nm)%nat -> w' (s i) (t i k) = w' i k)
       /\ (forall i k f, (i < nc)%nat -> (k < nm)%nat -> (f < nf)%nat -> mu' (s i) (t i k) f = mu' i k f)
       /\ (forall idx, inb idx (cshape nc nm nf ty) -> cv' (renum_idx ty s t idx) = cv' idx).
Proof.
  intros Hs Ht GM HH PR H1 H2 H3 H4 H5 H6 H7 H8 H9 H10 H11 H12 HO Hw Hsp Htp Hd Hp Hu Hf.
  destruct (C77_gmm_l eig h h nc nm nf ty pi A w mu cv wp mw mp cp cw sp tp s t ls x h' ev Hs Ht (same_settings_refl h) GM HH PR)
    as (h2 & w' & mu' & cv' & F & Rn & W1 & W2 & M1 & M2 & C1 & C2);
    rewrite ?(inv1 pi s H1), ?(inv2 A s H2), ?(inv3 w s t H3), ?(inv3 mu s t H4), ?(inv_idx cv ty s t H5), ?(inv3 wp s t H6),
      ?(inv3 mw s t H7), ?(inv3 mp s t H8), ?(inv_idx cp ty s t H9), ?(inv_idx cw ty s t H10), ?(inv1 sp s H11), ?(inv2 tp s H12); try assumption.
  assert (h2 = h') by congruence. subst h2. split; [apply renumbered_alike; exact Rn|].
  exists w', mu', cv'. split; [exact W1|]. split; [exact M1|]. split; [exact C1|]. split; [|split].
  - intros i k Hi Hk. assert (E : nget (nd2 nc nm w') [i; k] = nget (nd2 nc nm (fun i k => w' (s i) (t i k))) [i; k]) by congruence.
    rewrite !nget_nd2 in E by assumption. congruence.
  - intros i k f Hi Hk Hff.
    assert (E : nget (nd3 nc nm nf mu') [i; k; f] = nget (nd3 nc nm nf (fun i k => mu' (s i) (t i k))) [i; k; f]) by congruence.
    rewrite !nget_nd3 in E by assumption. congruence.
  - intros idx Hi.
    assert (E : nget (fnd (cshape nc nm nf ty) cv') idx = nget (fnd (cshape nc nm nf ty) (fun idx => cv' (renum_idx ty s t idx))) idx) by congruence.
    rewrite !nget_fnd in E by assumption. congruence.
Qed.
