(** * Model of [get_stationary_distribution] (base.py:863-871). *)
From Verif Require Export Base.

(** A complex number: real and imaginary part. *)
Definition cnum : Type := (xnum * xnum)%type.
(** [np.argmax] of a complex array compares real parts first, then imaginary
    parts; NaN counts as largest. *)
Definition cisnan (a : cnum) : bool := xisnan (fst a) || xisnan (snd a).
Definition cgtb (a b : cnum) : bool :=
  if cisnan b then false else if cisnan a then true
  else xltb (fst b) (fst a) || (xeqb (fst a) (fst b) && xltb (snd b) (snd a)).
Fixpoint cargmax_from (i best : nat) (bv : cnum) (l : list cnum) : nat :=
  match l with
  | [] => best
  | a :: l' => if cgtb a bv then cargmax_from (S i) i a l' else cargmax_from (S i) best bv l'
  end.
Definition cargmax (l : list cnum) : nat :=
  match l with [] => 0%nat | a :: l' => cargmax_from 1 0 a l' end.

(** [np.real_if_close] (tolerance 100 machine epsilons): a real array, or the
    complex array unchanged. *)
Definition real_if_close (v : list cnum) : vec + list cnum :=
  if forallb (fun z => xltb (xabs (snd z)) (Fin (100 / 2 ^ 52))) v then inl (map fst v) else inr v.

(** [a / b] for complex numbers. *)
Definition cdiv (fp : fpmode) (a b : cnum) : cnum :=
  let n := xadd fp (xmul fp (fst b) (fst b)) (xmul fp (snd b) (snd b)) in
  (xdiv fp (xadd fp (xmul fp (fst a) (fst b)) (xmul fp (snd a) (snd b))) n,
   xdiv fp (xsub fp (xmul fp (snd a) (fst b)) (xmul fp (fst a) (snd b))) n).
Definition csum (fp : fpmode) (v : list cnum) : cnum := (xsum fp (map fst v), xsum fp (map snd v)).

(** [scipy.linalg.eig]: the eigenvalues (always a complex array) and the columns
    of the eigenvector matrix. *)
Definition eigfun : Type := mat -> res (list cnum * list (list cnum)).

(** [self.transmat_.T]. *)
Definition transpose (m : mat) : mat := mtab (ncol m) (nrow m) (fun i j => mget m j i).

(** base.py:863-871.  The result is a real or a complex array. *)
Definition stationary {P} (eig : eigfun) (fp : fpmode) (h : hmm P) : res (vec + list cnum) :=
  match h_trans h with
  | None => Err NotFittedError
  | Some t =>
      do (w, vs) <- eig (transpose t);
      if Nat.eqb (length w) 0 then Err (ValueError "attempt to get argmax of an empty sequence") else
      match real_if_close (nth (cargmax w) vs []) with
      | inl v => Ok (inl (map (fun a => xdiv fp a (xsum fp v)) v))
      | inr v => Ok (inr (map (fun a => cdiv fp a (csum fp v)) v))
      end
  end.
