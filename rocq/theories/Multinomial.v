(** * Model of MultinomialHMM (hmm.py:812-942, _emissions.py:310-369). *)
From Verif Require Export Rows.

(** The attribute [n_trials]: an integer or an array of integers. *)
Inductive trials := TNum (n : Z) | TArr (l : list Z).
(** [n_trials] ([None] as in Python) and [emissionprob_], taken to be
    two-dimensional already ([np.atleast_2d] at hmm.py:928 is the identity). *)
Record mulp := Mulp { mu_trials : option trials; mu_prob : option mat }.
Definition mul_stat := mat.

(** [X.sum(axis=1)], one row; int64 overflow is not modelled. *)
Definition zsum (r : list Z) : Z := fold_right Z.add 0%Z r.

(** [scipy.stats.multinomial] replaces the last probability by one minus the sum
    of the others when that difference exceeds 1e-15 in absolute value. *)
Definition mult_adjust (fp : fpmode) (p : vec) : vec :=
  let adj := xsub fp (Fin 1) (xsum fp (removelast p)) in
  if xltb (Fin (/ 10 ^ 15)) (xabs adj) then removelast p ++ [adj] else p.

(** [multinomial.logpmf(x, n=x.sum(), p)] for one row of equal length: NaN if
    some (adjusted) probability is outside [0, 1] or [n < 0]; -inf if some count
    is negative; else [gammaln(n+1) + sum(xlogy(x, p) - gammaln(x+1))]. *)
Definition mult_logpmf (fp : fpmode) (r : list Z) (p : vec) : xnum :=
  let q := mult_adjust fp p in
  if existsb (fun v => xltb v (Fin 0) || xltb (Fin 1) v) q || Z.ltb (zsum r) 0 then NaN
  else if existsb (fun k => Z.ltb k 0) r then NInf
  else xadd fp (gammaln_succ fp (zsum r))
         (xsum fp (tab (length r) (fun f =>
            xsub fp (xlogy fp (nth f r 0%Z) (vget q f)) (gammaln_succ fp (nth f r 0%Z))))).

(** _emissions.py:343-349 [_compute_log_likelihood]; rows of another length than
    [emissionprob_[c]] are rejected by scipy. *)
Definition mult_loglik (fp : fpmode) (c : cfg) (nf : option nat) (p : mulp) (x : list (list Z)) : res mat :=
  match mu_prob p with
  | None => Err (AttributeError "emissionprob_")
  | Some m =>
      match x with
      | [] => Ok (Mat (c_nc c) [])
      | _ =>
          if Nat.eqb (width x) (ncol m)
          then Ok (Mat (c_nc c) (map (fun r => tab (c_nc c) (fun i => mult_logpmf fp r (nth i (rows m) []))) x))
          else Err (ValueError "Size of each quantile should be size of p")
      end
  end.
(** _emissions.py:335-341 [_compute_likelihood]: [multinomial.pmf] is the
    exponential of [logpmf]. *)
Definition mult_lik (fp : fpmode) (c : cfg) (nf : option nat) (p : mulp) (x : list (list Z)) : res mat :=
  lik_of_loglik fp (mult_loglik fp c nf p x).

(** hmm.py:926-936 [_check], after [super()._check()]: sums are not checked. *)
Definition mult_check (fp : fpmode) (c : cfg) (nf : option nat) (p : mulp) : res (option nat * mulp) :=
  match mu_prob p with
  | None => Err (AttributeError "emissionprob_")
  | Some m =>
      let n := match nf with None => ncol m | Some n => n end in
      if negb (Nat.eqb (nrow m) (c_nc c) && Nat.eqb (ncol m) n)
      then Err (ValueError "emissionprob_ shape")
      else match mu_trials p with
           | None => Err (ValueError "n_trials must be set")
           | Some _ => Ok (Some n, p)
           end
  end.

(** _emissions.py:351-354. *)
Definition mult_stats0 (fp : fpmode) (c : cfg) (nf : option nat) (p : mulp) : mul_stat :=
  mtab (c_nc c) (match nf with Some n => n | None => 0%nat end) (fun _ _ => Fin 0).

(** _emissions.py:356-361. *)
Definition mult_acc (fp : fpmode) (c : cfg) (nf : option nat) (p : mulp) (st : mul_stat)
    (x : list (list Z)) (post : mat) : res mul_stat :=
  if has "e" (c_params c) then iadd fp st (matT_mul fp post (map zrow x)) else Ok st.

(** hmm.py:938-942 [_do_mstep]: no guard against rows without counts. *)
Definition mult_mstep (fp : fpmode) (c : cfg) (nf : option nat) (p : mulp) (st : mul_stat) : res mulp :=
  if has "e" (c_params c) then
    Ok (Mulp (mu_trials p) (Some (mtab (nrow st) (ncol st) (fun i f =>
          xdiv fp (mget st i f) (xsum fp (nth i (rows st) []))))))
  else Ok p.

Definition multinomial : emclass mulp (list Z) mul_stat :=
  EmClass (fun _ => true) mult_check mult_loglik mult_lik mult_stats0 mult_acc mult_mstep.
