(** * Property lemmas C95: time reversal. *)
From Verif Require Export Reverse Inference_thms Stat_thms EStep_proofs.

Lemma seqs_good {X} (ok : X -> Prop) (xs : list (list X)) : xs <> [] -> Forall (fun x => x <> [] /\ Forall ok x) xs ->
  good_data ok (map (@length X) xs) (concat xs).
Proof.
  intros Hne Hx. split; [|split; [|split]].
  - induction Hx as [|x xs [_ H] _ IH]; cbn [concat]; [constructor|]. apply Forall_app. split; [exact H|]. destruct xs; [constructor|]. apply IH. discriminate.
  - destruct xs; [contradiction|discriminate].
  - rewrite Forall_map. eapply Forall_impl; [|exact Hx]. intros [|o x] [H _]; [contradiction|cbn [length]; lia].
  - clear. induction xs as [|x xs IH]; [reflexivity|]. cbn [map concat fold_right]. rewrite app_length, <- IH. reflexivity.
Qed.
Lemma rev_nonempty {X} (x : list X) : x <> [] -> rev x <> [].
Proof. intros H E. apply H. rewrite <- (rev_involutive x), E. reflexivity. Qed.
Lemma prodL_map {U V} (f : V -> R) (g : U -> V) l : prodL f (map g l) = prodL (fun a => f (g a)) l.
Proof. induction l as [|a l IH]; cbn [map prodL]; [reflexivity|]. rewrite IH. reflexivity. Qed.

(** Every sequence read backwards by the model that runs backwards. *)
Lemma C95_score_l {P X St} (E : emclass P X St) h h2 nc pi A A2 ok b (xs : list (list X)) :
  ready E h nc pi A ok b -> ready E h2 nc pi A2 ok b -> reversal nc pi A A2 ->
  c_impl (h_cfg h) = "log"%string \/ (c_impl (h_cfg h) = "scaling"%string /\ forall x, In x xs -> seq_no_underflow nc pi A b x) ->
  c_impl (h_cfg h2) = "log"%string \/ (c_impl (h_cfg h2) = "scaling"%string /\ forall x, In x xs -> seq_no_underflow nc pi A2 b (rev x)) ->
  xs <> [] -> Forall (fun x => x <> [] /\ Forall ok x) xs ->
  score E exact h2 (concat (map (@rev X) xs)) (as_lengths (map (@length X) xs)) = score E exact h (concat xs) (as_lengths (map (@length X) xs)).
Proof.
  intros R1 R2 HR I1 I2 Hne Hx.
  pose proof (seqs_good ok xs Hne Hx) as Hd.
  assert (Hd2 : good_data ok (map (@length X) (map (@rev X) xs)) (concat (map (@rev X) xs))).
  { apply seqs_good; [destruct xs; [contradiction|discriminate]|]. rewrite Forall_map. eapply Forall_impl; [|exact Hx].
    intros x [H1 H2]. split; [apply rev_nonempty; exact H1|]. apply Forall_rev. exact H2. }
  assert (EL : map (@length X) (map (@rev X) xs) = map (@length X) xs) by (rewrite map_map; apply map_ext; apply rev_length).
  assert (S1 : score E exact h (concat xs) (as_lengths (map (@length X) xs)) = Ok (xln (prodL (seq_lik nc pi A b) xs))).
  { destruct I1 as [I|[I U]].
    - rewrite (score_log E h nc pi A ok b R1 _ _ I Hd), chunks_map_length. reflexivity.
    - rewrite (score_scaling E h nc pi A ok b R1 _ _ I Hd); rewrite chunks_map_length; [reflexivity|exact U]. }
  assert (S2 : score E exact h2 (concat (map (@rev X) xs)) (as_lengths (map (@length X) (map (@rev X) xs)))
               = Ok (xln (prodL (seq_lik nc pi A2 b) (map (@rev X) xs)))).
  { destruct I2 as [I|[I U]].
    - rewrite (score_log E h2 nc pi A2 ok b R2 _ _ I Hd2), chunks_map_length. reflexivity.
    - rewrite (score_scaling E h2 nc pi A2 ok b R2 _ _ I Hd2); rewrite chunks_map_length; [reflexivity|].
      intros c Hc. apply in_map_iff in Hc as (x & <- & Hin). apply U. exact Hin. }
  rewrite EL in S2. rewrite S1, S2, prodL_map. do 2 f_equal. rewrite Forall_forall in Hx. clear - HR Hx.
  induction xs as [|x xs IH]; cbn [prodL]; [reflexivity|]. rewrite IH by (intros y Hy; apply Hx; right; exact Hy).
  rewrite (seq_lik_rev nc pi A A2 b x HR); [reflexivity|]. apply Hx. left. reflexivity.
Qed.

Lemma C95_posteriors_l {P X St} (E : emclass P X St) h h2 nc pi A A2 ok b x :
  ready E h nc pi A ok b -> ready E h2 nc pi A2 ok b -> reversal nc pi A A2 -> x <> [] -> Forall ok x ->
  scorable nc pi A b (c_impl (h_cfg h)) x -> scorable nc pi A2 b (c_impl (h_cfg h2)) (rev x) ->
  exists p, predict_proba E exact h x None = Ok (fmat (length x) nc p)
    /\ predict_proba E exact h2 (rev x) None = Ok (fmat (length x) nc (fun t => p (length x - S t)%nat)).
Proof.
  intros R1 R2 HR Hne Hx S1 S2. exists (seq_post nc pi A b x).
  split; [exact (C04_posteriors_l E h nc pi A ok b x R1 Hne Hx S1)|].
  etransitivity; [exact (C04_posteriors_l E h2 nc pi A2 ok b (rev x) R2 (rev_nonempty x Hne) (Forall_rev Hx) S2)|].
  rewrite rev_length. f_equal. apply fmat_ext. intros t i Ht Hi.
  etransitivity; [|exact (seq_post_rev nc pi A A2 b x t i HR Ht Hi)].
  unfold seq_post, posterior, marginal, likelihood, seq_joint. rewrite rev_length. reflexivity.
Qed.

Lemma is_path_rev nc T z : is_path nc T z -> is_path nc T (rev z).
Proof.
  intros [H1 H2]. split; [rewrite rev_length; exact H1|]. intros t Ht. rewrite rev_nth by lia. apply H2. lia.
Qed.
Lemma C95_viterbi_l {P X St} (E : emclass P X St) h h2 nc pi A A2 ok b x :
  ready E h nc pi A ok b -> ready E h2 nc pi A2 ok b -> reversal nc pi A A2 -> x <> [] -> Forall ok x ->
  exists lp z z2, decode E exact h x None (Some "viterbi"%string) = Ok (lp, z)
    /\ decode E exact h2 (rev x) None (Some "viterbi"%string) = Ok (lp, z2)
    /\ best_path nc pi A b x (rev z2) /\ best_path nc pi A2 b (rev x) (rev z).
Proof.
  intros R1 R2 HR Hne Hx.
  destruct (C01_viterbi_optimal_l E h nc pi A ok b x (Some "viterbi"%string) R1 Hne Hx (or_introl eq_refl)) as (z & E1 & Z1 & M1).
  destruct (C01_viterbi_optimal_l E h2 nc pi A2 ok b (rev x) (Some "viterbi"%string) R2 (rev_nonempty x Hne) (Forall_rev Hx) (or_introl eq_refl)) as (z2 & E2 & Z2 & M2).
  rewrite rev_length in Z2, M2.
  assert (J : forall w, is_path nc (length x) w -> seq_joint pi A2 b (rev x) w = seq_joint pi A b x (rev w)).
  { intros w Hw. rewrite <- (joint_rev nc pi A A2 b HR x (rev w) Hne (is_path_rev _ _ _ Hw)), rev_involutive. reflexivity. }
  assert (EQ : seq_joint pi A2 b (rev x) z2 = seq_joint pi A b x z).
  { apply Rle_antisym.
    - rewrite (J z2 Z2). apply M1, is_path_rev, Z2.
    - rewrite <- (joint_rev nc pi A A2 b HR x z Hne Z1). apply M2, is_path_rev, Z1. }
  exists (xln (seq_joint pi A b x z)), z, z2. split; [exact E1|]. split; [rewrite E2, EQ; reflexivity|]. split.
  - split; [apply is_path_rev; exact Z2|]. intros w Hw. rewrite <- (J z2 Z2), EQ. apply M1. exact Hw.
  - split; [rewrite rev_length; apply is_path_rev; exact Z1|]. rewrite rev_length. intros w Hw.
    rewrite (joint_rev nc pi A A2 b HR x z Hne Z1), <- EQ. apply M2. exact Hw.
Qed.

Lemma reversal_exists n A p :
  stochastic2 n n A -> stationary_of n A p -> (forall i, (i < n)%nat -> 0 < p i) ->
  exists A2, stochastic2 n n A2 /\ stationary_of n A2 p /\ reversal n p A A2
    /\ forall B, reversal n p A B -> forall i j, (i < n)%nat -> (j < n)%nat -> B i j = A2 i j.
Proof.
  intros HA [[Hp H1] Hs] Hpos. set (A2 := fun j i => p i * A i j / p j). exists A2.
  assert (HR : reversal n p A A2). { intros i j Hi Hj. unfold A2. field. apply Rgt_not_eq, Hpos, Hj. }
  split; [|split; [|split; [exact HR|]]].
  - intros j Hj. split.
    + intros i Hi. unfold A2. apply Rmult_le_pos; [|left; apply Rinv_0_lt_compat, Hpos, Hj].
      apply Rmult_le_pos; [left; apply Hpos, Hi|apply (HA i Hi); exact Hj].
    + unfold A2. rewrite sumn_div, (Hs j Hj). field. apply Rgt_not_eq, Hpos, Hj.
  - split; [split; assumption|]. intros j Hj. rewrite (sumn_ext n _ (fun i => p j * A j i)).
    + rewrite sumn_scal_l, (proj2 (HA j Hj)). ring.
    + intros i Hi. symmetry. apply HR; assumption.
  - intros B HB i j Hi Hj. apply (Rmult_eq_reg_l (p i)); [|apply Rgt_not_eq, Hpos, Hi].
    rewrite <- (HB j i Hj Hi), <- (HR j i Hj Hi). reflexivity.
Qed.

(** A model whose states communicate, started in what [get_stationary_distribution]
    returns, can be run backwards, and in one way only. *)
Lemma C95_stationary_l {P} eig (h : hmm P) n A :
  h_trans h = Some (mtab n n (fun i j => Fin (A i j))) -> (0 < n)%nat -> stochastic2 n n A -> eig_right eig n (fun i j => A j i) ->
  irreducible n A ->
  exists p A2, stationary eig exact h = Ok (inl (tab n (fun i => Fin (p i)))) /\ stochastic1 n p /\ stochastic2 n n A2 /\ reversal n p A A2
    /\ forall B, reversal n p A B -> forall i j, (i < n)%nat -> (j < n)%nat -> B i j = A2 i j.
Proof.
  intros Ht Hn HA He HI. destruct (C45_irreducible_l eig h n A Ht Hn HA He HI) as (p & H1 & H2 & H3 & _).
  destruct (reversal_exists n A p HA H2 H3) as (A2 & S1 & _ & HR & HU). exists p, A2.
  split; [exact H1|]. split; [apply H2|]. split; [exact S1|]. split; [exact HR|exact HU].
Qed.
