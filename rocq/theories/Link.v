(** * Reading model arrays as specification functions (used in statements). *)
From Verif Require Export Hmmc Spec.

(** Logarithm of a non-negative number, with log 0 = -inf. *)
Definition xln (r : R) : xnum := if Rlt_dec 0 r then Fin (ln r) else NInf.

(** Arrays holding given real numbers / logarithms of given numbers. *)
Definition fvec (n : nat) (f : nat -> R) : vec := tab n (fun i => Fin (f i)).
Definition fmat (r c : nat) (f : nat -> nat -> R) : mat := mtab r c (fun i j => Fin (f i j)).
Definition lmat (r c : nat) (f : nat -> nat -> R) : mat := mtab r c (fun i j => xln (f i j)).
