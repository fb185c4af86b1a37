(** * Specification: rounding with bounded relative error. *)
From Verif Require Export Spec XR.

(** Every operation has relative error at most [u]; no underflow, no overflow. *)
Definition rel_err (u : R) (fp : fpmode) : Prop :=
  forall x, exists d, fp x = Fin (x * (1 + d)) /\ Rabs d <= u.

(** [y] is [x] up to [k] factors between [1 - u] and [1 / (1 - u)]. *)
Definition within (u : R) (k : nat) (x y : R) : Prop :=
  x * (1 - u) ^ k <= y /\ y * (1 - u) ^ k <= x.

(** Probability of the first [t] observations; of observation [t] given the
    earlier ones. *)
Definition lik_upto (nc : nat) pi A B (t : nat) : R :=
  match t with O => 1 | S _ => likelihood nc t pi A B end.
Definition cond_lik (nc : nat) pi A B (t : nat) : R :=
  lik_upto nc pi A B (S t) / lik_upto nc pi A B t.
