(** * Determinants, positive-definite matrices, normal densities (used in
    statements). *)
From Verif Require Export Spec.

(** Laplace expansion along the first column. *)
Definition minor (M : nat -> nat -> R) (i : nat) : nat -> nat -> R :=
  fun r c => M (if Nat.ltb r i then r else S r) (S c).
Fixpoint det (n : nat) (M : nat -> nat -> R) : R :=
  match n with
  | 0%nat => 1
  | S n' => sumn (S n') (fun i => (-1) ^ i * M i 0%nat * det n' (minor M i))
  end.

Definition sym (n : nat) (M : nat -> nat -> R) : Prop :=
  forall i j, (i < n)%nat -> (j < n)%nat -> M i j = M j i.
(** [v' M v]. *)
Definition quad (n : nat) (M : nat -> nat -> R) (v : nat -> R) : R :=
  sumn n (fun i => sumn n (fun j => v i * M i j * v j)).
Definition pos_def (n : nat) (M : nat -> nat -> R) : Prop :=
  sym n M /\ forall v, (exists i, (i < n)%nat /\ v i <> 0) -> 0 < quad n M v.

(** [p] is the density at [o] of the normal distribution with mean [mu] and
    covariance matrix [Sg]; [y] is the inverse of [Sg] applied to [o - mu]. *)
Definition mvn_density (n : nat) (mu : nat -> R) (Sg : nat -> nat -> R) (o : nat -> R) (p : R) : Prop :=
  exists y, (forall i, (i < n)%nat -> sumn n (fun j => Sg i j * y j) = o i - mu i)
    /\ p = exp (- (1 / 2) * sumn n (fun i => (o i - mu i) * y i)) / sqrt ((2 * PI) ^ n * det n Sg).

Definition pos_semidef (n : nat) (M : nat -> nat -> R) : Prop :=
  sym n M /\ forall v, 0 <= quad n M v.
(** [P] is the inverse of [M]. *)
Definition inverse (n : nat) (M P : nat -> nat -> R) : Prop :=
  forall i j, (i < n)%nat -> (j < n)%nat -> sumn n (fun k => M i k * P k j) = if Nat.eqb i j then 1 else 0.
(** Trace of the product of symmetric matrices. *)
Definition frob (n : nat) (P K : nat -> nat -> R) : R :=
  sumn n (fun i => sumn n (fun j => P i j * K i j)).
