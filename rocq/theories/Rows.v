(** * Feature rows with several columns (shared by the multi-feature classes). *)
From Verif Require Export Base.

(** A 2-D data array is the list of its rows; ragged lists do not denote
    arrays.  [width] is [X.shape[1]]. *)
Definition width {A} (x : list (list A)) : nat := match x with [] => 0%nat | r :: _ => length r end.

(** Integer rows as floats. *)
Definition zrow (r : list Z) : vec := map (fun z => Fin (IZR z)) r.

(** [posteriors.T @ X]; the summation order of the BLAS product is not
    modelled (irrelevant in exact arithmetic). *)
Definition matT_mul (fp : fpmode) (post : mat) (x : list vec) : mat :=
  mtab (ncol post) (width x) (fun i f =>
    xsum fp (tab (length x) (fun t => xmul fp (mget post t i) (vget (nth t x []) f)))).

(** [posteriors.sum(axis=0)]. *)
Definition col_sums (fp : fpmode) (post : mat) : vec :=
  tab (ncol post) (fun i => xsum fp (tab (nrow post) (fun t => mget post t i))).

(** [a += b] for 2-D arrays of equally many rows: numpy broadcasts a
    one-column [b] and raises ValueError on any other difference in width. *)
Definition iadd (fp : fpmode) (a b : mat) : res mat :=
  if Nat.eqb (ncol b) (ncol a) then Ok (mzip (xadd fp) a b)
  else if Nat.eqb (ncol b) 1
  then Ok (mtab (nrow a) (ncol a) (fun i f => xadd fp (mget a i f) (mget b i 0)))
  else Err (ValueError "operands could not be broadcast together").

(** Width of the broadcast of an array with [w] columns against a row of
    length [n]. *)
Definition bwidth (w n : nat) : res nat :=
  if Nat.eqb w n then Ok w else if Nat.eqb n 1 then Ok w else if Nat.eqb w 1 then Ok n
  else Err (ValueError "shape mismatch").
Definition bidx (n f : nat) : nat := if Nat.eqb n 1 then 0%nat else f.

(** [.prod(axis=1)] of one row. *)
Definition xprod (fp : fpmode) (l : vec) : xnum := fold_left (xmul fp) l (Fin 1).
(** [scipy.special.xlogy(k, m)] for an integer [k]. *)
Definition xlogy (fp : fpmode) (k : Z) (m : xnum) : xnum :=
  if Z.eqb k 0 && negb (xisnan m) then Fin 0 else xmul fp (Fin (IZR k)) (xlog fp m).
(** [scipy.special.gammaln(k + 1)] for a natural number [k]: the rounded
    logarithm of [k!]. *)
Definition gammaln_succ (fp : fpmode) (k : Z) : xnum := fp (ln (INR (fact (Z.to_nat k)))).
(** [np.clip(a, 0, 1)]. *)
Definition clip01 (a : xnum) : xnum :=
  match a with
  | NaN => NaN
  | _ => if xltb a (Fin 0) then Fin 0 else if xltb (Fin 1) a then Fin 1 else a
  end.
