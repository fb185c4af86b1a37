(** * Arrays of any number of dimensions (used by the mixture model). *)
From Verif Require Export Gaussian.

(** Shape and entries in row-major order. *)
Record nd := Nd { nsh : list nat; ndat : vec }.
(** All index tuples of a shape, in row-major order. *)
Fixpoint nidx (sh : list nat) : list (list nat) :=
  match sh with
  | [] => [[]]
  | n :: r => flat_map (fun i => map (cons i) (nidx r)) (seq 0 n)
  end.
Definition ntab (sh : list nat) (f : list nat -> xnum) : nd := Nd sh (map f (nidx sh)).
Fixpoint nsize (sh : list nat) : nat := match sh with [] => 1%nat | n :: r => (n * nsize r)%nat end.
(** Position of an index tuple. *)
Fixpoint npos (sh idx : list nat) : nat :=
  match sh, idx with
  | _ :: r, i :: is => (i * nsize r + npos r is)%nat
  | _, _ => 0%nat
  end.
(** Unchecked indexing, as for [vget]. *)
Definition nget (a : nd) (idx : list nat) : xnum := nth (npos (nsh a) idx) (ndat a) NaN.

Definition same_shape (s t : list nat) : bool :=
  Nat.eqb (length s) (length t) && forallb (fun '(a, b) => Nat.eqb a b) (combine s t).

(** [np.broadcast_to(a, sh)]: dimensions are aligned at the end; each must agree
    or be 1. *)
Definition nbroadcast (a : nd) (sh : list nat) : res nd :=
  let k := (length sh - length (nsh a))%nat in
  if Nat.leb (length (nsh a)) (length sh)
     && forallb (fun '(n, m) => Nat.eqb n m || Nat.eqb n 1) (combine (nsh a) (skipn k sh))
  then Ok (ntab sh (fun idx => nget a (map (fun '(n, i) => bidx n i) (combine (nsh a) (skipn k idx)))))
  else Err (ValueError "operands could not be broadcast together").

(** A number. *)
Definition nscal (x : xnum) : nd := Nd [] [x].
(** [a[i]] of a 3-D array as a matrix, and of a 2-D array as a vector. *)
Definition nrow3 (a : nd) (i r c : nat) : mat := mtab r c (fun k f => nget a [i; k; f]).
Definition nrow2 (a : nd) (i n : nat) : vec := tab n (fun k => nget a [i; k]).
