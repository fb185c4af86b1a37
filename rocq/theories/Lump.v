(** * Models with redundant states: sums over paths. *)
From Verif Require Export Paths Inference_proofs.

(** [m k] is the state of the small model that state [k] of the large model is a
    copy of; None means that state [k] is never visited.  [copies n m i f] is the
    sum of [f] over the copies of [i]. *)
Definition copies (n : nat) (m : nat -> option nat) (i : nat) (f : nat -> R) : R :=
  sumn n (fun k => match m k with Some j => if Nat.eqb j i then f k else 0 | None => 0 end).

(** The copies of a state share its start probability, the probabilities of moving
    to the copies of a state add up, all copies emit alike, and the remaining states
    have start probability 0 and are never entered. *)
Record redundant {X} (nc nc' : nat) (m : nat -> option nat) (pi pi' : nat -> R) (A A' : nat -> nat -> R)
    (ok : X -> Prop) (b b' : X -> nat -> R) : Prop := Redundant {
  rn_range : forall k i, (k < nc')%nat -> m k = Some i -> (i < nc)%nat;
  rn_pi : forall i, (i < nc)%nat -> copies nc' m i pi' = pi i;
  rn_pi0 : forall k, (k < nc')%nat -> m k = None -> pi' k = 0;
  rn_A : forall k i j, (k < nc')%nat -> m k = Some i -> (j < nc)%nat -> copies nc' m j (A' k) = A i j;
  rn_A0 : forall k l, (k < nc')%nat -> (l < nc')%nat -> m k <> None -> m l = None -> A' k l = 0;
  rn_b : forall o k i, ok o -> (k < nc')%nat -> m k = Some i -> b' o k = b o i }.

Lemma copies_ext n m i f g : (forall k, (k < n)%nat -> m k = Some i -> f k = g k) -> copies n m i f = copies n m i g.
Proof.
  intros H. unfold copies. apply sumn_ext. intros k Hk. destruct (m k) as [j|] eqn:E; [|reflexivity].
  destruct (Nat.eqb_spec j i) as [->|]; [|reflexivity]. apply H; assumption.
Qed.
Lemma copies_scal_r n m i f c : copies n m i (fun k => f k * c) = copies n m i f * c.
Proof.
  unfold copies. rewrite <- sumn_scal_r. apply sumn_ext. intros k _. destruct (m k) as [j|]; [destruct (Nat.eqb j i)|]; ring.
Qed.
Lemma copies_scal_l n m i f c : copies n m i (fun k => c * f k) = c * copies n m i f.
Proof.
  unfold copies. rewrite <- sumn_scal_l. apply sumn_ext. intros k _. destruct (m k) as [j|]; [destruct (Nat.eqb j i)|]; ring.
Qed.
Lemma copies_sumn n m i p (f : nat -> nat -> R) : copies n m i (fun k => sumn p (fun l => f l k)) = sumn p (fun l => copies n m i (f l)).
Proof.
  unfold copies. rewrite <- sumn_swap. apply sumn_ext. intros k _.
  destruct (m k) as [j|]; [destruct (Nat.eqb j i)|]; [reflexivity| |]; symmetry; apply sumn_zero; reflexivity.
Qed.
(** Summing over the copies of every state. *)
Lemma copies_total nc n m (f F : nat -> R) : (forall k i, (k < n)%nat -> m k = Some i -> (i < nc)%nat) ->
  (forall k, (k < n)%nat -> m k = None -> f k = 0) ->
  sumn n (fun k => f k * match m k with Some i => F i | None => 0 end) = sumn nc (fun i => copies n m i f * F i).
Proof.
  intros Hr H0. unfold copies. rewrite (sumn_ext nc _ (fun i => sumn n (fun k => match m k with Some j => if Nat.eqb j i then f k * F i else 0 | None => 0 end))).
  2:{ intros i _. rewrite <- sumn_scal_r. apply sumn_ext. intros k _. destruct (m k) as [j|]; [destruct (Nat.eqb j i)|]; ring. }
  rewrite sumn_swap. apply sumn_ext. intros k Hk. destruct (m k) as [j|] eqn:E.
  - rewrite (sumn_single nc _ j (Hr k j Hk E)), Nat.eqb_refl; [reflexivity|].
    intros i _ Hi. destruct (Nat.eqb_spec j i); [congruence|reflexivity].
  - rewrite (H0 k Hk E), sumn_zero; [ring|reflexivity].
Qed.

Section Lump.
  Context {X : Type} (nc nc' : nat) (m : nat -> option nat) (pi pi' : nat -> R) (A A' : nat -> nat -> R)
    (ok : X -> Prop) (b b' : X -> nat -> R).
  Hypothesis RD : redundant nc nc' m pi pi' A A' ok b b'.

  Lemma obs_copy x : Forall ok x -> forall t k i, (k < nc')%nat -> m k = Some i -> obsB b' x t k = obsB b x t i.
  Proof.
    intros Hx t k i Hk Hm. unfold obsB. f_equal. apply map_ext_in. intros o Ho. rewrite Forall_forall in Hx.
    apply (rn_b _ _ _ _ _ _ _ _ _ _ RD); auto.
  Qed.
  Section Seq.
    Variable x : list X.
    Hypothesis Hx : Forall ok x.
    Let B := obsB b x.
    Let B' := obsB b' x.
    Lemma alpha_dead t : forall k, (k < nc')%nat -> m k = None -> alpha nc' pi' A' B' t k = 0.
    Proof.
      induction t as [|t IH]; intros k Hk Hm; cbn [alpha].
      - rewrite (rn_pi0 _ _ _ _ _ _ _ _ _ _ RD k Hk Hm). ring.
      - rewrite sumn_zero; [ring|]. intros i Hi. destruct (m i) as [j|] eqn:E.
        + rewrite (rn_A0 _ _ _ _ _ _ _ _ _ _ RD i k Hi Hk); [ring|congruence|exact Hm].
        + rewrite (IH i Hi E). ring.
    Qed.
    Lemma alpha_copies t : forall i, (i < nc)%nat -> copies nc' m i (alpha nc' pi' A' B' t) = alpha nc pi A B t i.
    Proof.
      induction t as [|t IH]; intros i Hi; cbn [alpha].
      - rewrite (copies_ext _ _ _ _ (fun k => pi' k * B 0%nat i)).
        + rewrite copies_scal_r, (rn_pi _ _ _ _ _ _ _ _ _ _ RD i Hi). reflexivity.
        + intros k Hk Hm. unfold B'. rewrite (obs_copy x Hx 0%nat k i Hk Hm). reflexivity.
      - rewrite (copies_ext _ _ _ _ (fun k => sumn nc' (fun l => alpha nc' pi' A' B' t l * A' l k) * B (S t) i)).
        2:{ intros k Hk Hm. unfold B' at 2. rewrite (obs_copy x Hx (S t) k i Hk Hm). reflexivity. }
        rewrite copies_scal_r. f_equal.
        rewrite (copies_sumn nc' m i nc' (fun l k => alpha nc' pi' A' B' t l * A' l k)).
        rewrite (sumn_ext nc' _ (fun l => alpha nc' pi' A' B' t l * match m l with Some j => A j i | None => 0 end)).
        + rewrite (copies_total nc nc' m _ (fun j => A j i) (rn_range _ _ _ _ _ _ _ _ _ _ RD) (alpha_dead t)).
          apply sumn_ext. intros j Hj. rewrite (IH j Hj). reflexivity.
        + intros l Hl. rewrite copies_scal_l. destruct (m l) as [j|] eqn:E.
          * rewrite (rn_A _ _ _ _ _ _ _ _ _ _ RD l j i Hl E Hi). reflexivity.
          * rewrite (alpha_dead t l Hl E). ring.
    Qed.
    Lemma beta_copies n : forall t k i, (k < nc')%nat -> m k = Some i -> beta nc' A' B' t n k = beta nc A B t n i.
    Proof.
      induction n as [|n IH]; intros t k i Hk Hm; cbn [beta]; [reflexivity|].
      rewrite (sumn_ext nc' _ (fun l => A' k l * match m l with Some j => B (S t) j * beta nc A B (S t) n j | None => 0 end)).
      - rewrite (copies_total nc nc' m (A' k) (fun j => B (S t) j * beta nc A B (S t) n j) (rn_range _ _ _ _ _ _ _ _ _ _ RD)).
        + apply sumn_ext. intros j Hj. rewrite (rn_A _ _ _ _ _ _ _ _ _ _ RD k i j Hk Hm Hj). ring.
        + intros l Hl Hn. apply (rn_A0 _ _ _ _ _ _ _ _ _ _ RD k l Hk Hl); congruence.
      - intros l Hl. destruct (m l) as [j|] eqn:E.
        + rewrite (IH (S t) l j Hl E). unfold B' at 1. rewrite (obs_copy x Hx (S t) l j Hl E). fold B. ring.
        + rewrite (rn_A0 _ _ _ _ _ _ _ _ _ _ RD k l Hk Hl); [ring|congruence|exact E].
    Qed.
    Lemma lik_copies T : likelihood nc' (S T) pi' A' B' = likelihood nc (S T) pi A B.
    Proof.
      rewrite !likelihood_alpha.
      rewrite (sumn_ext nc' _ (fun k => alpha nc' pi' A' B' T k * match m k with Some i => (fun _ => 1) i | None => 0 end)).
      - rewrite (copies_total nc nc' m _ (fun _ => 1) (rn_range _ _ _ _ _ _ _ _ _ _ RD) (alpha_dead T)).
        apply sumn_ext. intros i Hi. rewrite (alpha_copies T i Hi). ring.
      - intros k Hk. destruct (m k) eqn:E; [ring|]. rewrite (alpha_dead T k Hk E). ring.
    Qed.
    Lemma post_copies T t i : (t <= T)%nat -> (i < nc)%nat ->
      copies nc' m i (posterior nc' (S T) pi' A' B' t) = posterior nc (S T) pi A B t i.
    Proof.
      intros Ht Hi. unfold posterior. rewrite lik_copies. unfold Rdiv. rewrite copies_scal_r. f_equal.
      rewrite marginal_alpha_beta by assumption.
      rewrite (copies_ext _ _ _ _ (fun k => alpha nc' pi' A' B' t k * beta nc A B t (T - t) i)).
      - rewrite copies_scal_r, (alpha_copies t i Hi). reflexivity.
      - intros k Hk Hm. rewrite marginal_alpha_beta by assumption. rewrite (beta_copies (T - t) t k i Hk Hm). reflexivity.
    Qed.
    Lemma post_dead T t k : (t <= T)%nat -> (k < nc')%nat -> m k = None -> posterior nc' (S T) pi' A' B' t k = 0.
    Proof.
      intros Ht Hk Hm. unfold posterior. rewrite marginal_alpha_beta by assumption. rewrite (alpha_dead t k Hk Hm).
      unfold Rdiv. ring.
    Qed.
  End Seq.

  Lemma seq_lik_copies x : x <> [] -> Forall ok x -> seq_lik nc' pi' A' b' x = seq_lik nc pi A b x.
  Proof. intros Hne Hx. unfold seq_lik. destruct x as [|o x]; [contradiction|]. apply lik_copies. exact Hx. Qed.
  Lemma seq_post_copies x t i : Forall ok x -> (t < length x)%nat -> (i < nc)%nat ->
    copies nc' m i (seq_post nc' pi' A' b' x t) = seq_post nc pi A b x t i.
  Proof. intros Hx Ht Hi. unfold seq_post. destruct x as [|o x]; [cbn [length] in Ht; lia|]. apply (post_copies (o :: x) Hx (length x)); [cbn [length] in Ht; lia|exact Hi]. Qed.
  Lemma seq_post_dead x t k : Forall ok x -> (t < length x)%nat -> (k < nc')%nat -> m k = None -> seq_post nc' pi' A' b' x t k = 0.
  Proof. intros Hx Ht Hk Hm. unfold seq_post. destruct x as [|o x]; [cbn [length] in Ht; lia|]. apply (post_dead (o :: x) (length x)); [cbn [length] in Ht; lia|exact Hk|exact Hm]. Qed.
  Lemma plik_copies x : Forall ok x -> seq_plik nc' pi' A' b' x = seq_plik nc pi A b x.
  Proof. intros Hx. destruct x as [|o x]; [reflexivity|]. cbn [seq_plik]. apply seq_lik_copies; [discriminate|exact Hx]. Qed.
  Lemma Forall_firstn_ok n (x : list X) : Forall ok x -> Forall ok (firstn n x).
  Proof. intros H. rewrite Forall_forall in *. intros o Ho. apply H. rewrite <- (firstn_skipn n x). apply in_or_app. left. exact Ho. Qed.
  Lemma underflow_copies x : Forall ok x -> seq_no_underflow nc' pi' A' b' x <-> seq_no_underflow nc pi A b x.
  Proof.
    intros Hx. unfold seq_no_underflow. split; intros H t Ht; specialize (H t Ht);
      rewrite !plik_copies in * by (apply Forall_firstn_ok; exact Hx); exact H.
  Qed.
End Lump.
