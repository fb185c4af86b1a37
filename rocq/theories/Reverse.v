(** * Time reversal: sums over paths. *)
From Verif Require Export Paths Inference_proofs.

(** [A2] is the chain with transition probabilities [A] and start probabilities
    [pi] run backwards: moving from [j] to [i] is as probable as moving from [i] to
    [j] forwards.  It follows that [pi] is a stationary distribution of both. *)
Definition reversal (nc : nat) (pi : nat -> R) (A A2 : nat -> nat -> R) : Prop :=
  forall i j, (i < nc)%nat -> (j < nc)%nat -> pi i * A i j = pi j * A2 j i.
Lemma reversal_sym nc pi A A2 : reversal nc pi A A2 -> reversal nc pi A2 A.
Proof. intros H i j Hi Hj. symmetry. apply H; assumption. Qed.

Lemma prodn_front n f : prodn (S n) f = f 0%nat * prodn n (fun t => f (S t)).
Proof. induction n as [|n IH]; [cbn; ring|]. cbn [prodn] in *. rewrite IH. ring. Qed.
Lemma prodn_back n : forall f, prodn n f = prodn n (fun t => f (n - S t)%nat).
Proof.
  induction n as [|n IH]; intros f; [reflexivity|]. rewrite prodn_front. cbn [prodn].
  replace (S n - S n)%nat with 0%nat by lia. rewrite (IH (fun t => f (S t))).
  rewrite (prodn_ext n (fun t => f (S (n - S t))) (fun t => f (S n - S t)%nat)); [ring|].
  intros t Ht. f_equal. lia.
Qed.
Lemma obsB_rev {X} (b : X -> nat -> R) x t i : (t < length x)%nat -> obsB b (rev x) t i = obsB b x (length x - S t) i.
Proof. intros Ht. unfold obsB. rewrite map_rev, rev_nth by (rewrite map_length; exact Ht). rewrite map_length. reflexivity. Qed.

Section Rev.
  Context {X : Type} (nc : nat) (pi : nat -> R) (A A2 : nat -> nat -> R) (b : X -> nat -> R).
  Hypothesis HR : reversal nc pi A A2.

  Lemma chain_rev (z : nat -> nat) n : (forall t, (t <= n)%nat -> (z t < nc)%nat) ->
    pi (z 0%nat) * prodn n (fun t => A (z t) (z (S t))) = pi (z n) * prodn n (fun t => A2 (z (S t)) (z t)).
  Proof.
    induction n as [|n IH]; intros Hz; cbn [prodn]; [ring|].
    rewrite <- Rmult_assoc, IH by (intros t Ht; apply Hz; lia).
    replace (pi (z n) * prodn n (fun t => A2 (z (S t)) (z t)) * A (z n) (z (S n)))
      with (pi (z n) * A (z n) (z (S n)) * prodn n (fun t => A2 (z (S t)) (z t))) by ring.
    rewrite (HR (z n) (z (S n))) by (apply Hz; lia). ring.
  Qed.
  Lemma joint_rev x z : x <> [] -> is_path nc (length x) z -> seq_joint pi A2 b (rev x) (rev z) = seq_joint pi A b x z.
  Proof.
    intros Hne [Hl Hz]. unfold seq_joint, joint. rewrite rev_length.
    destruct (length x) as [|n] eqn:El; [destruct x; [contradiction|discriminate]|].
    assert (Hr : forall t, (t < S n)%nat -> nth t (rev z) 0%nat = nth (n - t) z 0%nat).
    { intros t Ht. rewrite rev_nth by (rewrite Hl; exact Ht). rewrite Hl. replace (S n - S t)%nat with (n - t)%nat by lia. reflexivity. }
    replace (S n - 1)%nat with n by lia. rewrite (Hr 0%nat) by lia. rewrite Nat.sub_0_r. f_equal.
    - rewrite (chain_rev (fun t => nth t z 0%nat) n) by (intros t Ht; apply Hz; lia). f_equal.
      rewrite (prodn_back n (fun t => A2 _ _)). apply prodn_ext. intros t Ht. rewrite !Hr by lia. f_equal; f_equal; lia.
    - rewrite (prodn_back (S n) (fun t => obsB b x t _)). apply prodn_ext. intros t Ht.
      rewrite obsB_rev by lia. rewrite El, Hr by lia. reflexivity.
  Qed.

  Section Seq.
    Variables (x : list X) (T : nat).
    Hypothesis HT : length x = S T.
    Let B := obsB b x.
    Let B2 := obsB b (rev x).
    Lemma B_rev t i : (t <= T)%nat -> B2 t i = B (T - t) i.
    Proof. intros Ht. unfold B, B2. rewrite obsB_rev by lia. f_equal. lia. Qed.
    Lemma alpha_rev t : forall j, (t <= T)%nat -> (j < nc)%nat ->
      alpha nc pi A2 B2 t j = pi j * B (T - t) j * beta nc A B (T - t) t j.
    Proof.
      induction t as [|t IH]; intros j Ht Hj; cbn [alpha beta].
      - rewrite B_rev by lia. ring.
      - rewrite B_rev by lia. rewrite (Rmult_comm (pi j)), Rmult_assoc, (Rmult_comm (sumn nc _)). f_equal.
        rewrite <- sumn_scal_l. apply sumn_ext. intros i Hi. rewrite (IH i ltac:(lia) Hi).
        replace (S (T - S t)) with (T - t)%nat by lia.
        replace (pi i * B (T - t) i * beta nc A B (T - t) t i * A2 i j)
          with (pi i * A2 i j * (B (T - t) i * beta nc A B (T - t) t i)) by ring.
        rewrite <- (HR j i Hj Hi). ring.
    Qed.
    Lemma lik_rev : likelihood nc (S T) pi A2 B2 = likelihood nc (S T) pi A B.
    Proof.
      rewrite likelihood_alpha, (likelihood_alpha_beta nc pi A B T 0) by lia. apply sumn_ext. intros j Hj.
      rewrite alpha_rev by (exact Hj || lia). rewrite Nat.sub_diag, Nat.sub_0_r. reflexivity.
    Qed.
  End Seq.
End Rev.

Lemma seq_lik_rev {X} nc pi A A2 (b : X -> nat -> R) x : reversal nc pi A A2 -> x <> [] ->
  seq_lik nc pi A2 b (rev x) = seq_lik nc pi A b x.
Proof.
  intros HR Hne. unfold seq_lik. rewrite rev_length. destruct (length x) as [|T] eqn:El; [destruct x; [contradiction|discriminate]|].
  apply lik_rev; assumption.
Qed.
Lemma seq_post_rev {X} nc pi A A2 (b : X -> nat -> R) x t i : reversal nc pi A A2 -> (t < length x)%nat -> (i < nc)%nat ->
  seq_post nc pi A2 b (rev x) t i = seq_post nc pi A b x (length x - S t) i.
Proof.
  intros HR Ht Hi. unfold seq_post, posterior. rewrite rev_length. destruct (length x) as [|T] eqn:El; [lia|].
  rewrite (lik_rev nc pi A A2 b HR x T El). f_equal.
  replace (S T - S t)%nat with (T - t)%nat by lia. rewrite !marginal_alpha_beta by (exact Hi || lia).
  rewrite (alpha_rev nc pi A A2 b HR x T El t i) by (exact Hi || lia).
  pose proof (alpha_rev nc pi A2 A b (reversal_sym _ _ _ _ HR) (rev x) T ltac:(rewrite rev_length; exact El) (T - t) i ltac:(lia) Hi) as E.
  rewrite rev_involutive in E. rewrite E. replace (T - (T - t))%nat with t by lia.
  rewrite (B_rev b x T El t i) by lia. ring.
Qed.
