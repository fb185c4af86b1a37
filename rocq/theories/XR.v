(** * Extended reals: the number type of the model.

    numpy/C++ [double]s are modelled by real numbers extended with [+inf],
    [-inf] and NaN.  Infinity and NaN rules follow IEEE-754; there is a single
    zero (the sign of zero is not modelled, so [x / 0] for [x > 0] is [+inf]).
    Every finite result goes through a rounding parameter [fp : R -> xnum]:
    [exact] is exact real arithmetic. *)
From Coq Require Export String Ascii.
From Coq Require Export Reals Lra Lia Arith Bool ZArith List.
Export ListNotations.
Open Scope R_scope.

Inductive xnum := Fin (r : R) | PInf | NInf | NaN.

Definition fpmode := R -> xnum.
Definition exact : fpmode := Fin.

Definition Rltb (x y : R) : bool := if Rlt_dec x y then true else false.
Definition Rleb (x y : R) : bool := if Rle_dec x y then true else false.
Definition Reqb (x y : R) : bool := if Req_EM_T x y then true else false.

(** IEEE addition. *)
Definition xadd (fp : fpmode) (a b : xnum) : xnum :=
  match a, b with
  | NaN, _ | _, NaN => NaN
  | PInf, NInf | NInf, PInf => NaN
  | PInf, _ | _, PInf => PInf
  | NInf, _ | _, NInf => NInf
  | Fin x, Fin y => fp (x + y)
  end.

Definition xopp (a : xnum) : xnum :=
  match a with Fin x => Fin (- x) | PInf => NInf | NInf => PInf | NaN => NaN end.

Definition xsub (fp : fpmode) (a b : xnum) : xnum := xadd fp a (xopp b).

(** [s] times an infinity, by the sign of the finite factor [x]. *)
Definition xscale_inf (x : R) (pos : xnum) (neg : xnum) : xnum :=
  if Rlt_dec 0 x then pos else if Rlt_dec x 0 then neg else NaN.

Definition xmul (fp : fpmode) (a b : xnum) : xnum :=
  match a, b with
  | NaN, _ | _, NaN => NaN
  | Fin x, Fin y => fp (x * y)
  | Fin x, PInf | PInf, Fin x => xscale_inf x PInf NInf
  | Fin x, NInf | NInf, Fin x => xscale_inf x NInf PInf
  | PInf, PInf | NInf, NInf => PInf
  | PInf, NInf | NInf, PInf => NInf
  end.

Definition xdiv (fp : fpmode) (a b : xnum) : xnum :=
  match a, b with
  | NaN, _ | _, NaN => NaN
  | Fin x, Fin y =>
      if Req_EM_T y 0
      then (if Rlt_dec 0 x then PInf else if Rlt_dec x 0 then NInf else NaN)
      else fp (x / y)
  | Fin _, PInf | Fin _, NInf => Fin 0
  | PInf, Fin y => if Rlt_dec y 0 then NInf else PInf
  | NInf, Fin y => if Rlt_dec y 0 then PInf else NInf
  | PInf, PInf | PInf, NInf | NInf, PInf | NInf, NInf => NaN
  end.

(** [std::log] / [np.log]. *)
Definition xlog (fp : fpmode) (a : xnum) : xnum :=
  match a with
  | NaN => NaN
  | PInf => PInf
  | NInf => NaN
  | Fin x => if Rlt_dec 0 x then fp (ln x) else if Rlt_dec x 0 then NaN else NInf
  end.

(** [std::exp] / [np.exp]. *)
Definition xexp (fp : fpmode) (a : xnum) : xnum :=
  match a with
  | NaN => NaN
  | PInf => PInf
  | NInf => Fin 0
  | Fin x => fp (exp x)
  end.

Definition xabs (a : xnum) : xnum :=
  match a with Fin x => Fin (Rabs x) | PInf | NInf => PInf | NaN => NaN end.

(** IEEE comparison [<] (false when an operand is NaN). *)
Definition xltb (a b : xnum) : bool :=
  match a, b with
  | Fin x, Fin y => Rltb x y
  | NInf, Fin _ | NInf, PInf | Fin _, PInf => true
  | _, _ => false
  end.

Definition xleb (a b : xnum) : bool :=
  match a, b with
  | Fin x, Fin y => Rleb x y
  | NInf, Fin _ | NInf, PInf | NInf, NInf | Fin _, PInf | PInf, PInf => true
  | _, _ => false
  end.

Definition xeqb (a b : xnum) : bool :=
  match a, b with
  | Fin x, Fin y => Reqb x y
  | NInf, NInf | PInf, PInf => true
  | _, _ => false
  end.

Definition xisinf (a : xnum) : bool :=
  match a with PInf | NInf => true | _ => false end.
Definition xisnan (a : xnum) : bool :=
  match a with NaN => true | _ => false end.
Definition xisfin (a : xnum) : bool :=
  match a with Fin _ => true | _ => false end.

(** [std::max(a, b)]: returns [a] unless [a < b]. *)
Definition std_max (a b : xnum) : xnum := if xltb a b then b else a.

(** [np.maximum(a, b)]: NaN propagates. *)
Definition np_maximum (a b : xnum) : xnum :=
  match a, b with
  | NaN, _ | _, NaN => NaN
  | _, _ => if xltb a b then b else a
  end.

(** Logical order used in statements (NaN is unrelated to everything). *)
Definition xle (a b : xnum) : Prop := xleb a b = true.
Definition xlt (a b : xnum) : Prop := xltb a b = true.

(** Results with exceptions as values. [UB] is an out-of-bounds access in the
    native code (undefined behaviour, no Python exception). *)
Inductive exn :=
| ValueError (why : string)
| KeyError
| IndexError
| AttributeError (attr : string)
| NotFittedError
| TypeError
| ZeroDivisionError
| AssertionError
| LinAlgError
| UB.

Inductive res (A : Type) := Ok (a : A) | Err (e : exn).
Arguments Ok {A} a.
Arguments Err {A} e.

Definition bind {A B} (x : res A) (f : A -> res B) : res B :=
  match x with Ok a => f a | Err e => Err e end.
Notation "'do' x <- e1 ; e2" := (bind e1 (fun x => e2))
  (at level 60, x pattern, e1 at level 60, e2 at level 60, right associativity).
