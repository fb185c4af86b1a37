(** * Arrays: 1-D arrays are lists, 2-D arrays are lists of rows with an
    explicit column count (so that shape (0, k) is representable). *)
From Verif Require Export XR.

Definition vec := list xnum.
Record mat := Mat { ncol : nat; rows : list vec }.
Definition nrow (m : mat) : nat := length (rows m).
(** A [mat] is a genuine numpy array when all rows have [ncol] entries. *)
Definition wf_mat (m : mat) : Prop := Forall (fun r => length r = ncol m) (rows m).

(** Unchecked indexing; out-of-range reads give NaN (arbitrary value), callers
    guard the shapes. *)
Definition vget (v : vec) (i : nat) : xnum := nth i v NaN.
Definition mget (m : mat) (i j : nat) : xnum := nth j (nth i (rows m) []) NaN.

(** [tab n f] is the array [f 0, ..., f (n-1)] filled by a loop. *)
Definition tab {A} (n : nat) (f : nat -> A) : list A := map f (seq 0 n).
Definition mtab (r c : nat) (f : nat -> nat -> xnum) : mat :=
  Mat c (tab r (fun i => tab c (f i))).

Definition mmap (f : xnum -> xnum) (m : mat) : mat := Mat (ncol m) (map (map f) (rows m)).

(** Sequential summation ([std::accumulate], and [np.sum] up to summation
    order, which is irrelevant in exact arithmetic). *)
Definition xsum (fp : fpmode) (l : vec) : xnum := fold_left (xadd fp) l (Fin 0).

(** [std::max_element] value: first largest with [<]. [[]] dereferences [end]
    in C++; callers have n >= 1. *)
Definition max_element (v : vec) : xnum :=
  match v with
  | [] => NaN
  | x :: r => fold_left (fun m y => if xltb m y then y else m) r x
  end.

(** Index of [std::max_element]. *)
Fixpoint max_element_idx_from (best : xnum) (besti i : nat) (v : vec) : nat :=
  match v with
  | [] => besti
  | y :: r => if xltb best y then max_element_idx_from y i (S i) r
              else max_element_idx_from best besti (S i) r
  end.
Definition max_element_idx (v : vec) : nat :=
  match v with [] => 0%nat | x :: r => max_element_idx_from x 0 1 r end.

(** [np.max] on a row: NaN propagates. *)
Definition np_max (v : vec) : xnum :=
  match v with [] => NaN | x :: r => fold_left np_maximum r x end.

(** [np.argmax]: first position of the maximum; a NaN counts as maximal. *)
Fixpoint np_argmax_from (best : xnum) (besti i : nat) (v : vec) : nat :=
  match v with
  | [] => besti
  | y :: r => if xisnan best then besti
              else if negb (xleb y best) then np_argmax_from y i (S i) r
              else np_argmax_from best besti (S i) r
  end.
Definition np_argmax (v : vec) : nat :=
  match v with [] => 0%nat | x :: r => np_argmax_from x 0 1 r end.

(** [np.argmax] of a boolean array: index of the first True, 0 if none. *)
Fixpoint argmax_bool_from (i : nat) (v : list bool) : option nat :=
  match v with
  | [] => None
  | b :: r => if b then Some i else argmax_bool_from (S i) r
  end.
Definition argmax_bool (v : list bool) : nat :=
  match argmax_bool_from 0 v with Some i => i | None => 0%nat end.

(** [np.cumsum]. *)
Fixpoint cumsum_from (fp : fpmode) (acc : xnum) (v : vec) : vec :=
  match v with
  | [] => []
  | x :: r => let a := xadd fp acc x in a :: cumsum_from fp a r
  end.
Definition cumsum (fp : fpmode) (v : vec) : vec :=
  match v with [] => [] | x :: r => x :: cumsum_from fp x r end.
