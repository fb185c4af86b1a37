(** * Model of PoissonHMM (hmm.py:945-1075, _emissions.py:372-410). *)
From Verif Require Export Rows.

(** [lambdas_prior], [lambdas_weight] (alpha, beta of the gamma prior) and
    [lambdas_], taken to be two-dimensional already ([np.atleast_2d] at
    hmm.py:1054 is then the identity). *)
Record poisp := Poisp { po_alpha : parr; po_beta : parr; po_lam : option mat }.
(** [stats['post']], [stats['obs']]. *)
Record pois_stat := PoisStat { po_post : vec; po_obs : mat }.

(** [scipy.stats.poisson.logpmf(k, mu)]: NaN unless [mu >= 0], -inf for
    negative [k], else [xlogy(k, mu) - gammaln(k + 1) - mu]. *)
Definition pois_logpmf (fp : fpmode) (k : Z) (mu : xnum) : xnum :=
  if xleb (Fin 0) mu then
    if Z.leb 0 k then xsub fp (xsub fp (xlogy fp k mu) (gammaln_succ fp k)) mu else NInf
  else NaN.
(** [scipy.stats.poisson.pmf(k, mu)]: [exp(logpmf)], clipped to [0, 1]. *)
Definition pois_pmf (fp : fpmode) (k : Z) (mu : xnum) : xnum :=
  if xleb (Fin 0) mu then
    if Z.leb 0 k then clip01 (xexp fp (pois_logpmf fp k mu)) else Fin 0
  else NaN.

(** Row of [X] broadcast against [lambdas_[c]] (the width of an empty array
    is not represented: no error for it). *)
Definition pois_rows (f : Z -> xnum -> xnum) (red : vec -> xnum) (c : cfg) (p : poisp)
    (x : list (list Z)) : res mat :=
  match po_lam p with
  | None => Err (AttributeError "lambdas_")
  | Some m =>
      match x with
      | [] => Ok (Mat (c_nc c) [])
      | _ =>
      do w <- bwidth (width x) (ncol m);
      Ok (Mat (c_nc c) (map (fun r => tab (c_nc c) (fun i =>
            red (tab w (fun k => f (nth (bidx (width x) k) r 0%Z) (mget m i (bidx (ncol m) k)))))) x))
      end
  end.
(** _emissions.py:383-387 [_compute_likelihood]. *)
Definition pois_lik (fp : fpmode) (c : cfg) (nf : option nat) (p : poisp) (x : list (list Z)) : res mat :=
  pois_rows (pois_pmf fp) (xprod fp) c p x.
(** _emissions.py:389-393 [_compute_log_likelihood]. *)
Definition pois_loglik (fp : fpmode) (c : cfg) (nf : option nat) (p : poisp) (x : list (list Z)) : res mat :=
  pois_rows (pois_logpmf fp) (xsum fp) c p x.

(** hmm.py:1051-1059 [_check], after [super()._check()]. *)
Definition pois_check (fp : fpmode) (c : cfg) (nf : option nat) (p : poisp) : res (option nat * poisp) :=
  match po_lam p with
  | None => Err (AttributeError "lambdas_")
  | Some m =>
      let n := match nf with None => ncol m | Some n => n end in
      if negb (Nat.eqb (nrow m) (c_nc c) && Nat.eqb (ncol m) n)
      then Err (ValueError "lambdas_ shape") else Ok (Some n, p)
  end.

(** _emissions.py:395-399. *)
Definition pois_stats0 (fp : fpmode) (c : cfg) (nf : option nat) (p : poisp) : pois_stat :=
  PoisStat (tab (c_nc c) (fun _ => Fin 0))
           (mtab (c_nc c) (match nf with Some n => n | None => 0%nat end) (fun _ _ => Fin 0)).

(** _emissions.py:401-407. *)
Definition pois_acc (fp : fpmode) (c : cfg) (nf : option nat) (p : poisp) (st : pois_stat)
    (x : list (list Z)) (post : mat) : res pois_stat :=
  if has "l" (c_params c) then
    do obs <- iadd fp (po_obs st) (matT_mul fp post (map zrow x));
    Ok (PoisStat (vadd fp (po_post st) (col_sums fp post)) obs)
  else Ok st.

(** hmm.py:1061-1075 [_do_mstep]: [n] is the sum of [stats['post']] over all
    states. *)
Definition pois_mstep (fp : fpmode) (c : cfg) (nf : option nat) (p : poisp) (st : pois_stat) : res poisp :=
  if has "l" (c_params c) then
    let n := xsum fp (po_post st) in
    Ok (Poisp (po_alpha p) (po_beta p)
          (Some (mtab (nrow (po_obs st)) (ncol (po_obs st)) (fun i k =>
             let y_bar := xdiv fp (mget (po_obs st) i k) (vget (po_post st) i) in
             xdiv fp (xadd fp (pget2 (po_alpha p) i k) (xmul fp n y_bar))
                     (xadd fp (pget2 (po_beta p) i k) n)))))
  else Ok p.

Definition poisson : emclass poisp (list Z) pois_stat :=
  EmClass (fun _ => true) pois_check pois_loglik pois_lik pois_stats0 pois_acc pois_mstep.
