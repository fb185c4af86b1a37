(** * What the variational theorems say: Dirichlet posteriors, the
    sub-normalised path distribution, expected counts and the lower bound. *)
From Verif Require Export Special Categorical_proofs.

Definition pos1 (n : nat) (f : nat -> R) : Prop := forall i, (i < n)%nat -> 0 < f i.
Definition pos2 (n m : nat) (f : nat -> nat -> R) : Prop := forall i j, (i < n)%nat -> (j < m)%nat -> 0 < f i j.

(** The exponential of the expected logarithm of coordinate [i] of a
    Dirichlet(q) vector. *)
Definition sub1 (n : nat) (q : nat -> R) (i : nat) : R := exp (psi (q i) - psi (sumn n q)).
(** The Kullback-Leibler divergence of Dirichlet(q) from Dirichlet(p). *)
Definition dkl (n : nat) (q p : nat -> R) : R :=
  lgam (sumn n q) - lgam (sumn n p) - sumn n (fun i => lgam (q i) - lgam (p i))
  + sumn n (fun i => (q i - p i) * (psi (q i) - psi (sumn n q))).
(** The mean of Dirichlet(q). *)
Definition mean1 (n : nat) (q : nat -> R) (i : nat) : R := q i / sumn n q.

(** Dirichlet parameters for the initial state, every row of the transition
    matrix and every row of the emission matrix. *)
Record dirs := Dirs { d_s : nat -> R; d_t : nat -> nat -> R; d_e : nat -> nat -> R }.
Definition dpos (nc nf : nat) (q : dirs) : Prop := pos1 nc (d_s q) /\ pos2 nc nc (d_t q) /\ pos2 nc nf (d_e q).

Section Spec.
  Variables (nc nf : nat).
  (** The weights exp(E[ln parameter]). *)
  Definition w_s (q : dirs) : nat -> R := sub1 nc (d_s q).
  Definition w_t (q : dirs) (i : nat) : nat -> R := sub1 nc (d_t q i).
  Definition w_e (q : dirs) : Z -> nat -> R := cat_b (fun i => sub1 nf (d_e q i)).
  (** Expected counts, over the sequences [cs], under the path distribution
      proportional to the product of those weights: sequences that start in i,
      transitions from i to j, emissions of symbol k in state i. *)
  Definition n_start (q : dirs) (cs : list (list Z)) (i : nat) : R :=
    sumL (fun c => seq_post nc (w_s q) (w_t q) (w_e q) c 0 i) cs.
  Definition n_move (q : dirs) (cs : list (list Z)) (i j : nat) : R :=
    sumL (fun c => seq_trans nc (w_s q) (w_t q) (w_e q) c i j) cs.
  Definition n_emit (q : dirs) (cs : list (list Z)) (i k : nat) : R :=
    sumL (fun c => sumn (length c) (fun t =>
      if Z.eqb (nth t c 0%Z) (Z.of_nat k) then seq_post nc (w_s q) (w_t q) (w_e q) c t i else 0)) cs.
  (** One variational update: prior plus expected counts, for the parameters
      named in [params]. *)
  Definition vb_next (params : string) (p : dirs) (cs : list (list Z)) (q : dirs) : dirs :=
    Dirs (if has "s" params then fun i => d_s p i + n_start q cs i else d_s q)
         (if has "t" params then fun i j => d_t p i j + n_move q cs i j else d_t q)
         (if has "e" params then fun i k => d_e p i k + n_emit q cs i k else d_e q).
  (** The lower bound. *)
  Definition elbo (p : dirs) (cs : list (list Z)) (q : dirs) : R :=
    sumL (fun c => ln (seq_lik nc (w_s q) (w_t q) (w_e q) c)) cs
    - dkl nc (d_s q) (d_s p)
    - sumn nc (fun i => dkl nc (d_t q i) (d_t p i))
    - sumn nc (fun i => dkl nf (d_e q i) (d_e p i)).
End Spec.
