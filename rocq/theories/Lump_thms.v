(** * Property lemmas C93: redundant states. *)
From Verif Require Export Lump Inference_thms.

Lemma prodL_ext_in {X} (f g : X -> R) l : (forall a, In a l -> f a = g a) -> prodL f l = prodL g l.
Proof. induction l as [|a l IH]; intros H; cbn [prodL]; [reflexivity|]. rewrite (H a) by (left; reflexivity). rewrite IH; [reflexivity|]. intros c Hc. apply H. right. exact Hc. Qed.

Lemma C93_score_l {P P' X St St'} (E : emclass P X St) (E' : emclass P' X St') h h' nc nc' m pi pi' A A' ok b b' ls x :
  ready E h nc pi A ok b -> ready E' h' nc' pi' A' ok b' -> redundant nc nc' m pi pi' A A' ok b b' ->
  c_impl (h_cfg h) = c_impl (h_cfg h') -> c_impl (h_cfg h) = "log"%string \/ c_impl (h_cfg h) = "scaling"%string ->
  good_data ok ls x ->
  score E' exact h' x (as_lengths ls) = score E exact h x (as_lengths ls).
Proof.
  intros R1 R2 RD Hi Him Hd. pose proof (good_data_chunks ok ls x Hd) as (_ & _ & Hch). rewrite Forall_forall in Hch.
  assert (EL : prodL (seq_lik nc' pi' A' b') (chunks ls x) = prodL (seq_lik nc pi A b) (chunks ls x)).
  { apply prodL_ext_in. intros c Hc. destruct (Hch c Hc) as [H1 H2]. exact (seq_lik_copies nc nc' m pi pi' A A' ok b b' RD c H1 H2). }
  destruct Him as [Hl|Hs].
  - rewrite (score_log E h nc pi A ok b R1 ls x Hl Hd). rewrite Hi in Hl.
    rewrite (score_log E' h' nc' pi' A' ok b' R2 ls x Hl Hd), EL. reflexivity.
  - assert (Hs' : c_impl (h_cfg h') = "scaling"%string) by congruence.
    assert (EU : (forall c, In c (chunks ls x) -> seq_no_underflow nc' pi' A' b' c) <-> (forall c, In c (chunks ls x) -> seq_no_underflow nc pi A b c)).
    { split; intros H c Hc; apply (underflow_copies nc nc' m pi pi' A A' ok b b' RD c (proj2 (Hch c Hc))), H; exact Hc. }
    destruct (Classical_Prop.classic (forall c, In c (chunks ls x) -> seq_no_underflow nc pi A b c)) as [U|U].
    + rewrite (score_scaling E h nc pi A ok b R1 ls x Hs Hd U).
      rewrite (score_scaling E' h' nc' pi' A' ok b' R2 ls x Hs' Hd (proj2 EU U)), EL. reflexivity.
    + unfold score. rewrite (score_scaling_underflow E h nc pi A ok b R1 ls x _ Hs Hd U).
      rewrite (score_scaling_underflow E' h' nc' pi' A' ok b' R2 ls x _ Hs' Hd); [reflexivity|]. tauto.
Qed.

Lemma C93_posteriors_l {P P' X St St'} (E : emclass P X St) (E' : emclass P' X St') h h' nc nc' m pi pi' A A' ok b b' x :
  ready E h nc pi A ok b -> ready E' h' nc' pi' A' ok b' -> redundant nc nc' m pi pi' A A' ok b b' ->
  c_impl (h_cfg h) = c_impl (h_cfg h') -> x <> [] -> Forall ok x -> scorable nc pi A b (c_impl (h_cfg h)) x ->
  exists p p', predict_proba E exact h x None = Ok (fmat (length x) nc p) /\ predict_proba E' exact h' x None = Ok (fmat (length x) nc' p')
    /\ forall t, (t < length x)%nat ->
         (forall i, (i < nc)%nat -> copies nc' m i (p' t) = p t i)
         /\ forall k, (k < nc')%nat -> m k = None -> p' t k = 0.
Proof.
  intros R1 R2 RD Hi Hne Hx Hs.
  assert (Hs' : scorable nc' pi' A' b' (c_impl (h_cfg h')) x).
  { rewrite <- Hi. destruct Hs as [[H1 H2]|[H1 H2]]; [left|right]; (split; [exact H1|]).
    - rewrite (seq_lik_copies nc nc' m pi pi' A A' ok b b' RD x Hne Hx). exact H2.
    - apply (underflow_copies nc nc' m pi pi' A A' ok b b' RD x Hx). exact H2. }
  do 2 eexists. split; [exact (C04_posteriors_l E h nc pi A ok b x R1 Hne Hx Hs)|].
  split; [exact (C04_posteriors_l E' h' nc' pi' A' ok b' x R2 Hne Hx Hs')|].
  intros t Ht. split.
  - intros i Hi'. exact (seq_post_copies nc nc' m pi pi' A A' ok b b' RD x t i Hx Ht Hi').
  - intros k Hk Hm. exact (seq_post_dead nc nc' m pi pi' A A' ok b b' RD x t k Hx Ht Hk Hm).
Qed.

(** *** Unvisited states after the others. *)
Definition first_states (nc k : nat) : option nat := if (k <? nc)%nat then Some k else None.
Section Vit.
  Context {X : Type} (nc nc' : nat) (pi pi' : nat -> R) (A A' : nat -> nat -> R) (ok : X -> Prop) (b b' : X -> nat -> R).
  Hypothesis Hle : (nc <= nc')%nat.
  Hypothesis RD : redundant nc nc' (first_states nc) pi pi' A A' ok b b'.
  Lemma first_some k : (k < nc)%nat -> first_states nc k = Some k.
  Proof. intros H. unfold first_states. destruct (Nat.ltb_spec k nc); [reflexivity|lia]. Qed.
  Lemma first_none k : (nc <= k)%nat -> first_states nc k = None.
  Proof. intros H. unfold first_states. destruct (Nat.ltb_spec k nc); [lia|reflexivity]. Qed.
  Lemma copies_first i f : (i < nc)%nat -> copies nc' (first_states nc) i f = f i.
  Proof.
    intros Hi. unfold copies. rewrite (sumn_single nc' _ i ltac:(lia)).
    - rewrite (first_some i Hi), Nat.eqb_refl. reflexivity.
    - intros k Hk Hne. unfold first_states. destruct (k <? nc)%nat; [|reflexivity]. destruct (Nat.eqb_spec k i); [contradiction|reflexivity].
  Qed.
  Lemma vs_pi i : (i < nc)%nat -> pi' i = pi i.
  Proof. intros Hi. rewrite <- (rn_pi _ _ _ _ _ _ _ _ _ _ RD i Hi). symmetry. apply copies_first. exact Hi. Qed.
  Lemma vs_A i j : (i < nc)%nat -> (j < nc)%nat -> A' i j = A i j.
  Proof.
    intros Hi Hj. rewrite <- (rn_A _ _ _ _ _ _ _ _ _ _ RD i i j ltac:(lia) (first_some i Hi) Hj). symmetry. apply copies_first. exact Hj.
  Qed.
  Lemma vs_wsuf x : Forall ok x -> forall z t i, (i < nc)%nat -> (forall j, In j z -> (j < nc')%nat) ->
    wsuf A' (obsB b' x) t i z = 0 \/ (forall j, In j z -> (j < nc)%nat).
  Proof.
    intros Hx. induction z as [|j z IH]; intros t i Hi Hz; [right; intros j []|]. cbn [wsuf].
    destruct (Nat.lt_ge_cases j nc) as [Hj|Hj].
    - destruct (IH (S t) j Hj) as [H|H]; [intros l Hl; apply Hz; right; exact Hl| |].
      + left. rewrite H. ring.
      + right. intros l [<-|Hl]; [exact Hj|apply H; exact Hl].
    - left. rewrite (rn_A0 _ _ _ _ _ _ _ _ _ _ RD i j); [ring|lia|apply Hz; left; reflexivity| |apply first_none; exact Hj].
      rewrite (first_some i Hi). discriminate.
  Qed.
  Lemma vs_wsuf_eq x : Forall ok x -> forall z t i, (i < nc)%nat -> (forall j, In j z -> (j < nc)%nat) ->
    wsuf A' (obsB b' x) t i z = wsuf A (obsB b x) t i z.
  Proof.
    intros Hx. induction z as [|j z IH]; intros t i Hi Hz; [reflexivity|]. cbn [wsuf].
    assert (Hj : (j < nc)%nat) by (apply Hz; left; reflexivity).
    rewrite (vs_A i j Hi Hj), (obs_copy nc nc' (first_states nc) pi pi' A A' ok b b' RD x Hx (S t) j j ltac:(lia) (first_some j Hj)).
    rewrite (IH (S t) j Hj); [reflexivity|]. intros l Hl. apply Hz. right. exact Hl.
  Qed.
  Lemma vs_path n T z : is_path n T z -> forall j, In j z -> (j < n)%nat.
  Proof. intros [H1 H2] j Hj. apply (In_nth z j 0%nat) in Hj as (t & Ht & <-). apply H2. lia. Qed.
  Lemma vs_path' n z : (forall j, In j z -> (j < n)%nat) -> is_path n (length z) z.
  Proof. intros H. split; [reflexivity|]. intros t Ht. apply H. apply nth_In. exact Ht. Qed.
  Lemma vs_joint x z : Forall ok x -> x <> [] -> is_path nc' (length x) z ->
    seq_joint pi' A' b' x z = 0 \/ (is_path nc (length x) z).
  Proof.
    intros Hx Hne Hz. unfold seq_joint. destruct x as [|o x]; [contradiction|]. destruct Hz as [Hl Hb] eqn:Ez. clear Ez.
    cbn [length]. rewrite joint_wpath by exact Hl. destruct z as [|s z]; [discriminate|]. cbn [wpath].
    pose proof (vs_path _ _ _ (conj Hl Hb)) as Hin.
    destruct (Nat.lt_ge_cases s nc) as [Hs|Hs].
    - destruct (vs_wsuf (o :: x) Hx z 0%nat s Hs) as [H|H]; [intros l Hl'; apply Hin; right; exact Hl'| |].
      + left. rewrite H. ring.
      + right. change (S (length x)) with (length (o :: x)). rewrite <- Hl. apply vs_path'. intros j [<-|Hj]; [exact Hs|apply H; exact Hj].
    - left. rewrite (rn_pi0 _ _ _ _ _ _ _ _ _ _ RD s); [ring|apply Hin; left; reflexivity|apply first_none; exact Hs].
  Qed.
  Lemma vs_joint_eq x z : Forall ok x -> x <> [] -> is_path nc (length x) z -> seq_joint pi' A' b' x z = seq_joint pi A b x z.
  Proof.
    intros Hx Hne Hz. pose proof (vs_path _ _ _ Hz) as Hin. unfold seq_joint. destruct x as [|o x]; [contradiction|]. destruct Hz as [Hl Hb].
    cbn [length]. rewrite !joint_wpath by exact Hl. destruct z as [|s z]; [discriminate|]. cbn [wpath].
    assert (Hs : (s < nc)%nat) by (apply Hin; left; reflexivity).
    rewrite (vs_pi s Hs), (obs_copy nc nc' (first_states nc) pi pi' A A' ok b b' RD (o :: x) Hx 0%nat s s ltac:(lia) (first_some s Hs)).
    rewrite (vs_wsuf_eq (o :: x) Hx z 0%nat s Hs); [reflexivity|]. intros l Hl'. apply Hin. right. exact Hl'.
  Qed.
End Vit.

Lemma C93_viterbi_l {P P' X St St'} (E : emclass P X St) (E' : emclass P' X St') h h' nc nc' pi pi' A A' ok b b' x alg :
  ready E h nc pi A ok b -> ready E' h' nc' pi' A' ok b' -> (nc <= nc')%nat ->
  redundant nc nc' (first_states nc) pi pi' A A' ok b b' -> x <> [] -> Forall ok x -> alg = Some "viterbi"%string ->
  exists lp z z', decode E exact h x None alg = Ok (lp, z) /\ decode E' exact h' x None alg = Ok (lp, z')
    /\ (lp <> NInf -> best_path nc pi A b x z').
Proof.
  intros R1 R2 Hle RD Hne Hx ->.
  destruct (C01_viterbi_optimal_l E h nc pi A ok b x _ R1 Hne Hx (or_introl eq_refl)) as (z & E1 & Z1 & M1).
  destruct (C01_viterbi_optimal_l E' h' nc' pi' A' ok b' x _ R2 Hne Hx (or_introl eq_refl)) as (z' & E2 & Z2 & M2).
  assert (Zw : is_path nc' (length x) z). { split; [apply Z1|]. intros t Ht. pose proof (proj2 Z1 t Ht). lia. }
  assert (L1 : seq_joint pi A b x z <= seq_joint pi' A' b' x z').
  { rewrite <- (vs_joint_eq nc nc' pi pi' A A' ok b b' Hle RD x z Hx Hne Z1). apply M2. exact Zw. }
  assert (NN : 0 <= seq_joint pi A b x z).
  { destruct (rd_check E h nc pi A ok b R1) as (h1 & _ & _ & He). unfold seq_joint. apply (joint_nonneg nc); [apply R1|apply R1| | |exact Z1].
    - apply (obsB_nonneg ok); [apply He|exact Hx].
    - destruct x; [contradiction|cbn [length]; lia]. }
  destruct (vs_joint nc nc' pi pi' A A' ok b b' Hle RD x z' Hx Hne Z2) as [J|J].
  - assert (Z0 : seq_joint pi A b x z = 0) by lra. exists NInf, z, z'. rewrite E1, E2, J, Z0.
    rewrite xln_0. split; [reflexivity|]. split; [reflexivity|]. intros H. contradiction.
  - pose proof (vs_joint_eq nc nc' pi pi' A A' ok b b' Hle RD x z' Hx Hne J) as JE.
    assert (EQ : seq_joint pi A b x z' = seq_joint pi A b x z) by (apply Rle_antisym; [apply M1; exact J|lra]).
    exists (xln (seq_joint pi A b x z)), z, z'. split; [exact E1|]. split; [rewrite E2, JE, EQ; reflexivity|].
    intros _. split; [exact J|]. intros w Hw. rewrite EQ. apply M1. exact Hw.
Qed.
