(** * Model of src/hmmlearn/utils.py and src/hmmlearn/_utils.py (array helpers). *)
From Verif Require Export Hmmc.

(** numpy broadcasting of hyper-parameters: a scalar, a row vector or a full
    array.  Shape mismatches (numpy ValueError) are not modelled: the entry read
    outside the array is NaN. *)
Inductive parr := Scal (x : xnum) | Arr1 (v : vec) | Arr2 (m : mat).
Definition pget1 (p : parr) (i : nat) : xnum :=
  match p with Scal x => x | Arr1 v => vget v i | Arr2 m => mget m 0 i end.
Definition pget2 (p : parr) (i j : nat) : xnum :=
  match p with Scal x => x | Arr1 v => vget v j | Arr2 m => mget m i j end.

(** utils.py:5-29 [normalize(a)] on a 1-D array, axis=None: no zero guard. *)
Definition normalize1 (fp : fpmode) (v : vec) : vec :=
  let s := xsum fp v in map (fun x => xdiv fp x s) v.

(** utils.py:5-29 [normalize(a, axis=1)] on a 2-D array, one row: a zero sum is
    replaced by 1 (lines 21-24). *)
Definition normalize_row (fp : fpmode) (v : vec) : vec :=
  let s := xsum fp v in
  let s' := if xeqb s (Fin 0) then Fin 1 else s in
  map (fun x => xdiv fp x s') v.
Definition normalize_rows (fp : fpmode) (m : mat) : mat :=
  Mat (ncol m) (map (normalize_row fp) (rows m)).

(** [scipy.special.logsumexp] along an axis: the maximum is replaced by 0 when
    it is not finite, the result is log(sum(exp(a - max))) + max. *)
Definition sp_logsumexp (fp : fpmode) (v : vec) : xnum :=
  let m := np_max v in
  let m' := if xisfin m then m else Fin 0 in
  xadd fp (xlog fp (fold_left (fun acc x => xadd fp acc (xexp fp (xsub fp x m'))) v (Fin 0))) m'.

(** utils.py:32-55 [log_normalize(a, axis=1)] on a 2-D array: a single column
    is set to 0, otherwise the row log-sum-exp is subtracted. *)
Definition log_normalize_row (fp : fpmode) (v : vec) : vec :=
  let s := sp_logsumexp fp v in map (fun x => xsub fp x s) v.
Definition log_normalize_rows (fp : fpmode) (m : mat) : mat :=
  if Nat.eqb (ncol m) 1
  then Mat (ncol m) (map (map (fun _ => Fin 0)) (rows m))
  else Mat (ncol m) (map (log_normalize_row fp) (rows m)).

(** Python slicing [l[a:b]] with possibly negative bounds. *)
Definition py_bound (n : nat) (i : Z) : nat :=
  if Z.ltb i 0 then Z.to_nat (Z.max 0 (i + Z.of_nat n)) else Z.to_nat (Z.min i (Z.of_nat n)).
Definition py_slice {A} (l : list A) (a b : Z) : list A :=
  let n := length l in
  firstn (py_bound n b - py_bound n a) (skipn (py_bound n a) l).

(** [np.split(X, cs)[:-1]]: consecutive slices between cumulative sums. *)
Fixpoint split_from {A} (l : list A) (start : Z) (lengths : list Z) : list (list A) :=
  match lengths with
  | [] => []
  | n :: rest => py_slice l start (start + n)%Z :: split_from l (start + n)%Z rest
  end.

(** _utils.py:18-27 [split_X_lengths].  [cs[-1]] of an empty cumsum raises
    IndexError. *)
Definition split_X_lengths {A} (l : list A) (lengths : option (list Z))
  : res (list (list A)) :=
  match lengths with
  | None => Ok [l]
  | Some ls =>
      match ls with
      | [] => Err IndexError
      | _ => if Z.eqb (fold_left Z.add ls 0%Z) (Z.of_nat (length l))
             then Ok (split_from l 0%Z ls)
             else Err (ValueError "lengths")
      end
  end.

(** [code in s] for a one-character code. *)
Fixpoint has (c : ascii) (s : string) : bool :=
  match s with
  | EmptyString => false
  | String a r => Ascii.eqb a c || has c r
  end.
