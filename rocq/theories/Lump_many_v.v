(** * C93: Viterbi decoding of several sequences. *)
From Verif Require Export Lump_many.

Lemma best_copies {P X St} (E : emclass P X St) h nc nc' pi pi' A A' ok b b' (x : list X) z z' :
  ready E h nc pi A ok b -> (nc <= nc')%nat -> redundant nc nc' (first_states nc) pi pi' A A' ok b b' -> x <> [] -> Forall ok x ->
  best_path nc pi A b x z -> best_path nc' pi' A' b' x z' ->
  0 <= seq_joint pi A b x z /\ seq_joint pi' A' b' x z' = seq_joint pi A b x z
  /\ (seq_joint pi A b x z <> 0 -> best_path nc pi A b x z').
Proof.
  intros R1 Hle RD Hne Hx [Z1 M1] [Z2 M2].
  assert (Zw : is_path nc' (length x) z). { split; [apply Z1|]. intros t Ht. pose proof (proj2 Z1 t Ht). lia. }
  assert (L1 : seq_joint pi A b x z <= seq_joint pi' A' b' x z').
  { rewrite <- (vs_joint_eq nc nc' pi pi' A A' ok b b' Hle RD x z Hx Hne Z1). apply M2. exact Zw. }
  assert (NN : 0 <= seq_joint pi A b x z).
  { destruct (rd_check E h nc pi A ok b R1) as (h1 & _ & _ & He). unfold seq_joint. apply (joint_nonneg nc); [apply R1|apply R1| | |exact Z1].
    - apply (obsB_nonneg ok); [apply He|exact Hx].
    - destruct x; [contradiction|cbn [length]; lia]. }
  split; [exact NN|].
  destruct (vs_joint nc nc' pi pi' A A' ok b b' Hle RD x z' Hx Hne Z2) as [J|J].
  - split; [lra|]. intros H. exfalso. apply H. lra.
  - pose proof (vs_joint_eq nc nc' pi pi' A A' ok b b' Hle RD x z' Hx Hne J) as JE.
    assert (EQ : seq_joint pi A b x z' = seq_joint pi A b x z) by (apply Rle_antisym; [apply M1; exact J|lra]).
    split; [lra|]. intros _. split; [exact J|]. intros w Hw. rewrite EQ. apply M1. exact Hw.
Qed.

Lemma C93_viterbi_lengths_l {P P' X St St'} (E : emclass P X St) (E' : emclass P' X St') h h' nc nc' pi pi' A A' ok b b' ls x alg :
  ready E h nc pi A ok b -> ready E' h' nc' pi' A' ok b' -> (nc <= nc')%nat ->
  redundant nc nc' (first_states nc) pi pi' A A' ok b b' -> good_data ok ls x -> alg = Some "viterbi"%string ->
  exists lp z zs', decode E exact h x (as_lengths ls) alg = Ok (lp, z) /\ decode E' exact h' x (as_lengths ls) alg = Ok (lp, concat zs')
    /\ (lp <> NInf -> Forall2 (best_path nc pi A b) (chunks ls x) zs').
Proof.
  intros R1 R2 Hle RD Hd ->. pose proof (good_data_chunks ok ls x Hd) as (_ & _ & Hch).
  destruct (C01_viterbi_optimal_lengths_l E h nc pi A ok b ls x _ R1 Hd (or_introl eq_refl)) as (zs & D1 & B1).
  destruct (C01_viterbi_optimal_lengths_l E' h' nc' pi' A' ok b' ls x _ R2 Hd (or_introl eq_refl)) as (zs' & D2 & B2).
  assert (K : prodL2 (seq_joint pi' A' b') (chunks ls x) zs' = prodL2 (seq_joint pi A b) (chunks ls x) zs
    /\ (prodL2 (seq_joint pi A b) (chunks ls x) zs <> 0 -> Forall2 (best_path nc pi A b) (chunks ls x) zs')).
  { clear D1 D2. revert zs' B2. induction B1 as [|c z cs zs B0 B1 IH]; intros zs' B2.
    - inversion B2; subst. split; [reflexivity|]. intros _. constructor.
    - inversion B2 as [|c' z' cs' zs0 C0 C1]; subst. inversion Hch as [|? ? H0 H1]; subst.
      destruct (IH H1 zs0 C1) as (K1 & K2).
      destruct (best_copies E h nc nc' pi pi' A A' ok b b' c z z' R1 Hle RD (proj1 H0) (proj2 H0) B0 C0) as (_ & J1 & J2).
      cbn [prodL2]. rewrite K1, J1. split; [reflexivity|]. intros H. constructor; [apply J2|apply K2]; intros Q; apply H; rewrite Q; ring. }
  destruct K as [K1 K2].
  exists (xln (prodL2 (seq_joint pi A b) (chunks ls x) zs)), (concat zs), zs'. rewrite D1, D2, K1.
  split; [reflexivity|]. split; [reflexivity|]. intros H. apply K2. intros Q. apply H. rewrite Q. apply xln_0.
Qed.
