(** * What the theorems on [get_stationary_distribution] say. *)
From Verif Require Export Spec Stationary.

(** [p] is a stationary distribution of the transition matrix [A]. *)
Definition stationary_of (n : nat) (A : nat -> nat -> R) (p : nat -> R) : Prop :=
  stochastic1 n p /\ forall j, (j < n)%nat -> sumn n (fun i => p i * A i j) = p j.

(** Vector [v] (real and imaginary parts [a], [b]) is an eigenvector of [M] with
    eigenvalue [l + m i]. *)
Definition eigenvector (n : nat) (M : nat -> nat -> R) (l m : R) (a b : nat -> R) : Prop :=
  (exists i, (i < n)%nat /\ (a i <> 0 \/ b i <> 0))
  /\ forall i, (i < n)%nat ->
       sumn n (fun j => M i j * a j) = l * a i - m * b i /\ sumn n (fun j => M i j * b j) = l * b i + m * a i.

(** What is assumed of [scipy.linalg.eig] on the matrix [M], in exact
    arithmetic: [n] eigenvalues with eigenvectors, no eigenvalue missing, real
    eigenvectors for real eigenvalues (as LAPACK returns them). *)
Definition eig_right (eig : eigfun) (n : nat) (M : nat -> nat -> R) : Prop :=
  exists (l m : nat -> R) (a b : nat -> nat -> R),
    eig (mtab n n (fun i j => Fin (M i j))) = Ok (tab n (fun k => (Fin (l k), Fin (m k))), tab n (fun k => tab n (fun i => (Fin (a k i), Fin (b k i)))))
    /\ (forall k, (k < n)%nat -> eigenvector n M (l k) (m k) (a k) (b k))
    /\ (forall l' m' a' b', eigenvector n M l' m' a' b' -> exists k, (k < n)%nat /\ l k = l' /\ m k = m')
    /\ (forall k i, (k < n)%nat -> (i < n)%nat -> m k = 0 -> b k i = 0).

(** State [j] can be reached from state [i]. *)
Inductive reaches (n : nat) (A : nat -> nat -> R) (i : nat) : nat -> Prop :=
| ReachHere : reaches n A i i
| ReachStep j k : reaches n A i j -> (j < n)%nat -> (k < n)%nat -> 0 < A j k -> reaches n A i k.
Definition irreducible (n : nat) (A : nat -> nat -> R) : Prop :=
  forall i j, (i < n)%nat -> (j < n)%nat -> reaches n A i j.
