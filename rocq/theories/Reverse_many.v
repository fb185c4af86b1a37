(** * C95 for several sequences. *)
From Verif Require Export Reverse_thms.

Lemma rev_tab {A} n (f : nat -> A) : rev (tab n f) = tab n (fun t => f (n - S t)%nat).
Proof.
  induction n as [|n IH] in f |- *; [reflexivity|].
  unfold tab at 1. rewrite seq_S, map_app, rev_app_distr. cbn [map rev app Nat.add]. change (map f (seq 0 n)) with (tab n f). rewrite IH.
  unfold tab. cbn [seq map]. f_equal; [f_equal; lia|]. rewrite <- seq_shift, map_map. reflexivity.
Qed.

Lemma seqs_rev {X} (ok : X -> Prop) (xs : list (list X)) :
  Forall (fun x => x <> [] /\ Forall ok x) xs -> Forall (fun x => x <> [] /\ Forall ok x) (map (@rev X) xs).
Proof.
  intros Hx. rewrite Forall_map. eapply Forall_impl; [|exact Hx].
  intros x [H1 H2]. split; [apply rev_nonempty; exact H1|]. apply Forall_rev. exact H2.
Qed.

(** [ps] are the blocks of rows of the sequences. *)
Lemma C95_posteriors_lengths_l {P X St} (E : emclass P X St) h h2 nc pi A A2 ok b (xs : list (list X)) :
  ready E h nc pi A ok b -> ready E h2 nc pi A2 ok b -> reversal nc pi A A2 -> xs <> [] -> Forall (fun x => x <> [] /\ Forall ok x) xs ->
  (forall x, In x xs -> scorable nc pi A b (c_impl (h_cfg h)) x /\ scorable nc pi A2 b (c_impl (h_cfg h2)) (rev x)) ->
  exists ps, predict_proba E exact h (concat xs) (as_lengths (map (@length X) xs)) = Ok (Mat nc (concat ps))
    /\ predict_proba E exact h2 (concat (map (@rev X) xs)) (as_lengths (map (@length X) xs)) = Ok (Mat nc (concat (map (@rev vec) ps)))
    /\ map (@length vec) ps = map (@length X) xs.
Proof.
  intros R1 R2 HR Hne Hx Hs.
  pose proof (seqs_good ok xs Hne Hx) as Hd.
  assert (Hd2 : good_data ok (map (@length X) (map (@rev X) xs)) (concat (map (@rev X) xs))).
  { apply seqs_good; [destruct xs; [contradiction|discriminate]|]. apply seqs_rev. exact Hx. }
  assert (EL : map (@length X) (map (@rev X) xs) = map (@length X) xs) by (rewrite map_map; apply map_ext; apply rev_length).
  exists (map (fun c => rows (fmat (length c) nc (seq_post nc pi A b c))) xs).
  split; [|split].
  - rewrite (C04_posteriors_lengths_l E h nc pi A ok b _ _ R1 Hd); rewrite chunks_map_length.
    + rewrite flat_map_concat_map. reflexivity.
    + intros c Hc. apply Hs. exact Hc.
  - rewrite <- EL. rewrite (C04_posteriors_lengths_l E h2 nc pi A2 ok b _ _ R2 Hd2); rewrite chunks_map_length.
    + rewrite flat_map_concat_map, !map_map. do 3 f_equal. apply map_ext_in. intros c Hc.
      unfold fmat, mtab. cbn [rows]. rewrite rev_tab, rev_length. apply tab_ext. intros t Ht. apply tab_ext. intros i Hi. f_equal.
      etransitivity; [|exact (seq_post_rev nc pi A A2 b c t i HR Ht Hi)]. reflexivity.
    + intros c Hc. apply in_map_iff in Hc as (x & <- & Hin). apply Hs. exact Hin.
  - rewrite map_map. apply map_ext. intros c. unfold fmat, mtab, tab. cbn [rows]. rewrite map_length, seq_length. reflexivity.
Qed.

Lemma best_rev {X} nc pi A A2 (b : X -> nat -> R) x z z2 : reversal nc pi A A2 -> x <> [] ->
  best_path nc pi A b x z -> best_path nc pi A2 b (rev x) z2 ->
  seq_joint pi A2 b (rev x) z2 = seq_joint pi A b x z /\ best_path nc pi A b x (rev z2) /\ best_path nc pi A2 b (rev x) (rev z).
Proof.
  intros HR Hne [Z1 M1] [Z2 M2]. rewrite rev_length in Z2, M2.
  assert (J : forall w, is_path nc (length x) w -> seq_joint pi A2 b (rev x) w = seq_joint pi A b x (rev w)).
  { intros w Hw. rewrite <- (joint_rev nc pi A A2 b HR x (rev w) Hne (is_path_rev _ _ _ Hw)), rev_involutive. reflexivity. }
  assert (EQ : seq_joint pi A2 b (rev x) z2 = seq_joint pi A b x z).
  { apply Rle_antisym.
    - rewrite (J z2 Z2). apply M1, is_path_rev, Z2.
    - rewrite <- (joint_rev nc pi A A2 b HR x z Hne Z1). apply M2, is_path_rev, Z1. }
  split; [exact EQ|]. split.
  - split; [apply is_path_rev; exact Z2|]. intros w Hw. rewrite <- (J z2 Z2), EQ. apply M1. exact Hw.
  - split; [rewrite rev_length; apply is_path_rev; exact Z1|]. rewrite rev_length. intros w Hw.
    rewrite (joint_rev nc pi A A2 b HR x z Hne Z1), <- EQ. apply M2. exact Hw.
Qed.

Lemma C95_viterbi_lengths_l {P X St} (E : emclass P X St) h h2 nc pi A A2 ok b (xs : list (list X)) :
  ready E h nc pi A ok b -> ready E h2 nc pi A2 ok b -> reversal nc pi A A2 -> xs <> [] -> Forall (fun x => x <> [] /\ Forall ok x) xs ->
  exists lp zs zs2, decode E exact h (concat xs) (as_lengths (map (@length X) xs)) (Some "viterbi"%string) = Ok (lp, concat zs)
    /\ decode E exact h2 (concat (map (@rev X) xs)) (as_lengths (map (@length X) xs)) (Some "viterbi"%string) = Ok (lp, concat zs2)
    /\ Forall2 (fun x z2 => best_path nc pi A b x (rev z2)) xs zs2 /\ Forall2 (fun x z => best_path nc pi A2 b (rev x) (rev z)) xs zs.
Proof.
  intros R1 R2 HR Hne Hx.
  pose proof (seqs_good ok xs Hne Hx) as Hd.
  assert (Hd2 : good_data ok (map (@length X) (map (@rev X) xs)) (concat (map (@rev X) xs))).
  { apply seqs_good; [destruct xs; [contradiction|discriminate]|]. apply seqs_rev. exact Hx. }
  assert (EL : map (@length X) (map (@rev X) xs) = map (@length X) xs) by (rewrite map_map; apply map_ext; apply rev_length).
  destruct (C01_viterbi_optimal_lengths_l E h nc pi A ok b _ _ (Some "viterbi"%string) R1 Hd (or_introl eq_refl)) as (zs & D1 & B1).
  destruct (C01_viterbi_optimal_lengths_l E h2 nc pi A2 ok b _ _ (Some "viterbi"%string) R2 Hd2 (or_introl eq_refl)) as (zs2 & D2 & B2).
  rewrite chunks_map_length in D1, B1, D2, B2. rewrite EL in D2.
  assert (K : prodL2 (seq_joint pi A2 b) (map (@rev X) xs) zs2 = prodL2 (seq_joint pi A b) xs zs
    /\ Forall2 (fun x z2 => best_path nc pi A b x (rev z2)) xs zs2 /\ Forall2 (fun x z => best_path nc pi A2 b (rev x) (rev z)) xs zs).
  { clear - HR Hx B1 B2. revert zs2 B2. induction B1 as [|x z xs zs B0 B1 IH]; intros zs2 B2; cbn [map] in B2.
    - inversion B2; subst. cbn. repeat split; constructor.
    - inversion B2 as [|x' z2 xs' zs2' C0 C1]; subst. inversion Hx as [|? ? H0 H1]; subst.
      destruct (IH H1 zs2' C1) as (K1 & K2 & K3). destruct (best_rev nc pi A A2 b x z z2 HR (proj1 H0) B0 C0) as (J1 & J2 & J3).
      cbn [map prodL2]. rewrite K1, J1. split; [reflexivity|]. split; constructor; assumption. }
  destruct K as (K1 & K2 & K3).
  exists (xln (prodL2 (seq_joint pi A b) xs zs)), zs, zs2. rewrite D1, D2, K1. repeat split; assumption.
Qed.
