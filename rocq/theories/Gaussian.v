(** * Model of GaussianHMM (hmm.py:158-387, _emissions.py:112-192, stats.py,
    utils.py:58-71, _utils.py:30-84). *)
From Verif Require Export Rows.

(** ** Numpy helpers. *)
(** Size of a broadcast dimension. *)
Definition bdim (a b : nat) : res nat :=
  if Nat.eqb a b then Ok a else if Nat.eqb a 1 then Ok b else if Nat.eqb b 1 then Ok a
  else Err (ValueError "operands could not be broadcast together").
(** Element-wise operation on two 2-D arrays, with broadcasting. *)
Definition b2 (f : xnum -> xnum -> xnum) (a b : mat) : res mat :=
  do r <- bdim (nrow a) (nrow b);
  do c <- bdim (ncol a) (ncol b);
  Ok (mtab r c (fun i j => f (mget a (bidx (nrow a) i) (bidx (ncol a) j))
                             (mget b (bidx (nrow b) i) (bidx (ncol b) j)))).
(** A hyper-parameter as an operand: scalars and vectors are promoted to 2-D
    arrays. *)
Definition pmat (p : parr) : mat :=
  match p with Scal x => Mat 1 [[x]] | Arr1 v => Mat (length v) [v] | Arr2 m => m end.
(** [np.broadcast_to(m, (r, c))] for a 2-D array. *)
Definition broadcast_to (m : mat) (r c : nat) : res mat :=
  if (Nat.eqb (nrow m) r || Nat.eqb (nrow m) 1) && (Nat.eqb (ncol m) c || Nat.eqb (ncol m) 1)
  then Ok (mtab r c (fun i j => mget m (bidx (nrow m) i) (bidx (ncol m) j)))
  else Err (ValueError "operands could not be broadcast together").
(** [a ** 2]. *)
Definition xsq (fp : fpmode) (a : xnum) : xnum := xmul fp a a.
(** [np.sqrt]. *)
Definition xsqrt (fp : fpmode) (a : xnum) : xnum :=
  match a with
  | Fin x => if Rlt_dec x 0 then NaN else fp (sqrt x)
  | PInf => PInf
  | _ => NaN
  end.
(** Python's [max(a, b)]. *)
Definition py_max (a b : xnum) : xnum := if xltb a b then b else a.
(** [np.finfo(float).tiny] = 2^-1022. *)
Definition tiny : R := / 2 ^ 1022.
Fixpoint mapM {A B} (f : A -> res B) (l : list A) : res (list B) :=
  match l with
  | [] => Ok []
  | a :: r => do b <- f a; do bs <- mapM f r; Ok (b :: bs)
  end.

(** ** stats.py. *)
(** [nf * np.log(2 * np.pi)]. *)
Definition nf_log2pi (fp : fpmode) (nf : nat) : xnum :=
  xmul fp (Fin (INR nf)) (xlog fp (xmul fp (Fin 2) (fp PI))).

(** stats.py:47-56 [_log_multivariate_normal_density_diag], for a 2-D
    [covars].  Every operand is broadcast; the sum of the logarithms runs over
    the columns of [covars]. *)
Definition lmnd_diag (fp : fpmode) (x : list vec) (means covars : mat) : res mat :=
  let v := mmap (fun a => np_maximum a (Fin tiny)) covars in
  let ld := map (fun r => xsum fp (map (xlog fp) r)) (rows v) in
  do w <- bwidth (width x) (ncol means);
  do R <- bdim (nrow means) (nrow v);
  do W <- bdim w (ncol v);
  Ok (Mat R (map (fun o => tab R (fun i =>
    xmul fp (Fin (- (1 / 2)))
      (xadd fp (xadd fp (nf_log2pi fp (ncol means)) (vget ld (bidx (nrow v) i)))
        (xsum fp (tab W (fun f =>
           let k := bidx w f in
           xdiv fp (xsq fp (xsub fp (vget o (bidx (width x) k))
                                    (mget means (bidx (nrow means) i) (bidx (ncol means) k))))
                   (mget v (bidx (nrow v) i) (bidx (ncol v) f)))))))) x)).

(** The array stored in [_covars_]: 1, 2 or 3 dimensions. *)
Inductive covs := CV1 (v : vec) | CV2 (m : mat) | CV3 (l : list mat).

(** stats.py:59-65 [_log_multivariate_normal_density_spherical]. *)
Definition lmnd_spherical (fp : fpmode) (x : list vec) (means : mat) (cv : covs) : res mat :=
  match cv with
  | CV1 v => do c <- broadcast_to (Mat 1 (map (fun a => [a]) v)) (nrow means) (ncol means);
             lmnd_diag fp x means c
  | CV2 m => do c <- broadcast_to m (nrow means) (ncol means); lmnd_diag fp x means c
  | CV3 _ => Err (ValueError "input operand has more dimensions than allowed by the axis remapping")
  end.

(** [scipy.linalg.cholesky(a, lower=True)]: left-looking, one column at a time;
    only the lower triangle of [a] is read.  [None] is LinAlgError (a pivot that
    is not positive).  The operation order of LAPACK is not modelled. *)
Fixpoint chol_from (fp : fpmode) (n : nat) (a : mat) (k : nat) (cols : list vec) : option (list vec) :=
  match k with
  | 0%nat => Some cols
  | S k' =>
      let j := length cols in
      let dot i := xsum fp (map (fun c => xmul fp (vget c i) (vget c j)) cols) in
      let s := xsub fp (mget a j j) (dot j) in
      if xltb (Fin 0) s then
        let d := xsqrt fp s in
        chol_from fp n a k' (cols ++ [tab n (fun i =>
          if Nat.ltb i j then Fin 0 else if Nat.eqb i j then d
          else xdiv fp (xsub fp (mget a i j) (dot i)) d)])
      else None
  end.
(** The columns of the lower factor; ValueError for non-finite or non-square
    input. *)
Definition cholesky (fp : fpmode) (a : mat) : res (option (list vec)) :=
  if negb (Nat.eqb (nrow a) (ncol a)) then Err (ValueError "expected square matrix")
  else if negb (forallb (forallb xisfin) (rows a)) then Err (ValueError "array must not contain infs or NaNs")
  else Ok (chol_from fp (nrow a) a (nrow a) []).

(** [scipy.linalg.solve_triangular(L, b, lower=True)] for one right-hand side:
    forward substitution. *)
Fixpoint fsolve_from (fp : fpmode) (cols : list vec) (b : vec) (k : nat) (sol : vec) : vec :=
  match k with
  | 0%nat => sol
  | S k' =>
      let j := length sol in
      let s := xsum fp (tab j (fun q => xmul fp (vget (nth q cols []) j) (vget sol q))) in
      fsolve_from fp cols b k' (sol ++ [xdiv fp (xsub fp (vget b j) s) (vget (nth j cols []) j)])
  end.
Definition fsolve (fp : fpmode) (cols : list vec) (b : vec) : vec :=
  fsolve_from fp cols b (length cols) [].

(** stats.py:79-96, one component: the column of log densities. *)
Definition lmnd_full1 (fp : fpmode) (nf : nat) (x : list vec) (mu : vec) (cv : mat) : res vec :=
  do c0 <- cholesky fp cv;
  do cols <-
    match c0 with
    | Some cols => Ok cols
    | None =>
        do reg <- b2 (xadd fp) cv (mtab nf nf (fun i j => xmul fp (Fin (/ 10 ^ 7))
                    (if Nat.eqb i j then Fin 1 else Fin 0)));
        do c1 <- cholesky fp reg;
        match c1 with
        | Some cols => Ok cols
        | None => Err (ValueError "'covars' must be symmetric, positive-definite")
        end
    end;
  let n := length cols in
  let log_det := xmul fp (Fin 2) (xsum fp (tab n (fun j => xlog fp (vget (nth j cols []) j)))) in
  do w <- bwidth (width x) (length mu);
  if negb (Nat.eqb w n) then Err (ValueError "incompatible dimensions") else
  do ds <- mapM (fun o =>
      let d := tab w (fun f => xsub fp (vget o (bidx (width x) f)) (vget mu (bidx (length mu) f))) in
      if forallb xisfin d then Ok d else Err (ValueError "array must not contain infs or NaNs")) x;
  Ok (map (fun d =>
    xmul fp (Fin (- (1 / 2)))
      (xadd fp (xadd fp (nf_log2pi fp nf) (xsum fp (map (xsq fp) (fsolve fp cols d)))) log_det)) ds).

(** stats.py:75-98 [_log_multivariate_normal_density_full]: [zip] stops at the
    shorter array. *)
Definition lmnd_full (fp : fpmode) (x : list vec) (means : mat) (cv : covs) : res mat :=
  match cv with
  | CV3 l =>
      do cs <- mapM (fun '(mu, c) => lmnd_full1 fp (ncol means) x mu c) (combine (rows means) l);
      Ok (mtab (length x) (length cs) (fun t i => vget (nth i cs []) t))
  | _ => Err (ValueError "Input array needs to be 2D")
  end.

(** stats.py:68-72 [_log_multivariate_normal_density_tied], for a 2-D array. *)
Definition lmnd_tied (fp : fpmode) (x : list vec) (means : mat) (cv : covs) : res mat :=
  match cv with
  | CV2 m => do c <- broadcast_to m (ncol means) (ncol means);
             lmnd_full fp x means (CV3 (tab (nrow means) (fun _ => c)))
  | CV1 v => do c <- broadcast_to (Mat (length v) [v]) (ncol means) (ncol means);
             lmnd_full fp x means (CV3 (tab (nrow means) (fun _ => c)))
  | CV3 _ => Err (ValueError "3-D tied covariances are not modelled")
  end.

(** stats.py:5-44 [log_multivariate_normal_density]. *)
Definition log_mvn_density (fp : fpmode) (ty : string) (x : list vec) (means : mat) (cv : covs) : res mat :=
  if String.eqb ty "spherical" then lmnd_spherical fp x means cv
  else if String.eqb ty "tied" then lmnd_tied fp x means cv
  else if String.eqb ty "diag" then
    match cv with
    | CV1 v => lmnd_diag fp x means (Mat (length v) [v])
    | CV2 m => lmnd_diag fp x means m
    | CV3 _ => Err (ValueError "3-D diagonal covariances are not modelled")
    end
  else if String.eqb ty "full" then lmnd_full fp x means cv
  else Err KeyError.

(** ** The class. *)
(** Constructor arguments of the priors and the attributes [means_],
    [_covars_]; priors have at most two dimensions. *)
Record gaussp := Gaussp {
  ga_type : string; ga_min_covar : xnum;
  ga_mprior : parr; ga_mweight : parr; ga_cprior : parr; ga_cweight : parr;
  ga_means : option mat; ga_covars : option covs }.
Definition ga_set (p : gaussp) (m : option mat) (c : option covs) : gaussp :=
  Gaussp (ga_type p) (ga_min_covar p) (ga_mprior p) (ga_mweight p) (ga_cprior p) (ga_cweight p) m c.

(** [stats['post']], ['obs'], ['obs**2'], ['obs*obs.T']. *)
Record gauss_stat := GaussStat { gs_post : vec; gs_obs : mat; gs_obs2 : mat; gs_obsT : list mat }.

(** hmm.py:23. *)
Definition covariance_types : list string := ["spherical"; "diag"; "full"; "tied"]%string.
Definition is_type (l : list string) (t : string) : bool := existsb (String.eqb t) l.
Definition vec_type (t : string) : bool := is_type ["spherical"; "diag"]%string t.
Definition mat_type (t : string) : bool := is_type ["tied"; "full"]%string t.

(** _emissions.py:129-131 [_compute_log_likelihood] (an empty [X] does not
    reach this point). *)
Definition gauss_loglik (fp : fpmode) (c : cfg) (nf : option nat) (p : gaussp) (x : list vec) : res mat :=
  match ga_means p with
  | None => Err (AttributeError "means_")
  | Some m =>
      match ga_covars p with
      | None => Err (AttributeError "_covars_")
      | Some cv =>
          match x with
          | [] => Ok (Mat (c_nc c) [])
          | _ => log_mvn_density fp (ga_type p) x m cv
          end
      end
  end.
(** base.py:579-592, the default [_compute_likelihood]. *)
Definition gauss_lik (fp : fpmode) (c : cfg) (nf : option nat) (p : gaussp) (x : list vec) : res mat :=
  lik_of_loglik fp (gauss_loglik fp c nf p x).

(** hmm.py:324-332 [_check], after [super()._check()]: neither the number of
    rows of [means_] nor the covariances are looked at. *)
Definition gauss_check (fp : fpmode) (c : cfg) (nf : option nat) (p : gaussp) : res (option nat * gaussp) :=
  match ga_means p with
  | None => Err (AttributeError "means_")
  | Some m =>
      if is_type covariance_types (ga_type p) then Ok (Some (ncol m), p)
      else Err (ValueError "covariance_type")
  end.

(** _emissions.py:133-141. *)
Definition gauss_stats0 (fp : fpmode) (c : cfg) (nf : option nat) (p : gaussp) : gauss_stat :=
  let n := match nf with Some n => n | None => 0%nat end in
  GaussStat (tab (c_nc c) (fun _ => Fin 0)) (mtab (c_nc c) n (fun _ _ => Fin 0))
            (mtab (c_nc c) n (fun _ _ => Fin 0))
            (if mat_type (ga_type p) then tab (c_nc c) (fun _ => mtab n n (fun _ _ => Fin 0)) else []).

(** [np.einsum('ij,ik,il->jkl', posteriors, X, X)], component [i]. *)
Definition outer_sum (fp : fpmode) (post : mat) (x : list vec) (i : nat) : mat :=
  mtab (width x) (width x) (fun k l =>
    xsum fp (tab (length x) (fun t =>
      xmul fp (xmul fp (mget post t i) (vget (nth t x []) k)) (vget (nth t x []) l)))).

(** _emissions.py:143-164 with hmm.py:334-338. *)
Definition gauss_acc (fp : fpmode) (c : cfg) (nf : option nat) (p : gaussp) (st : gauss_stat)
    (x : list vec) (post : mat) : res gauss_stat :=
  do st1 <-
    (if has "m" (c_params c) then
       do obs <- iadd fp (gs_obs st) (matT_mul fp post x);
       Ok (GaussStat (vadd fp (gs_post st) (col_sums fp post)) obs (gs_obs2 st) (gs_obsT st))
     else Ok st);
  if has "c" (c_params c) then
    if vec_type (ga_type p) then
      do obs2 <- iadd fp (gs_obs2 st1) (matT_mul fp post (map (map (xsq fp)) x));
      Ok (GaussStat (gs_post st1) (gs_obs st1) obs2 (gs_obsT st1))
    else if mat_type (ga_type p) then
      do obsT <- mapM (fun i =>
          do m <- broadcast_to (outer_sum fp post x i) (nrow (nth i (gs_obsT st1) (Mat 0 [])))
                                                       (ncol (nth i (gs_obsT st1) (Mat 0 [])));
          Ok (mzip (xadd fp) (nth i (gs_obsT st1) (Mat 0 [])) m)) (seq 0 (length (gs_obsT st1)));
      Ok (GaussStat (gs_post st1) (gs_obs st1) (gs_obs2 st1) obsT)
    else Ok st1
  else Ok st1.

(** [stats['post'][:, None]]. *)
Definition col_of (v : vec) : mat := Mat 1 (map (fun a => [a]) v).
(** [np.outer(a, b)]. *)
Definition outer (fp : fpmode) (a b : vec) : mat :=
  mtab (length a) (length b) (fun i j => xmul fp (vget a i) (vget b j)).
Definition mtrans (m : mat) : mat := mtab (ncol m) (nrow m) (fun i j => mget m j i).

(** hmm.py:343-353: the new means. *)
Definition gauss_means (fp : fpmode) (p : gaussp) (st : gauss_stat) : res mat :=
  let mw := pmat (ga_mweight p) in
  let mp := pmat (ga_mprior p) in
  do a <- b2 (xmul fp) mw mp;
  do num <- b2 (xadd fp) a (gs_obs st);
  do den <- b2 (xadd fp) mw (col_of (gs_post st));
  b2 (xdiv fp) num den.

(** [max(covars_weight - k, 0)]: an array raises ValueError (ambiguous truth
    value) unless it has exactly one element. *)
Definition cweight_excess (fp : fpmode) (p : gaussp) (k : R) : res xnum :=
  match ga_cweight p with
  | Scal w => Ok (py_max (xsub fp w (Fin k)) (Fin 0))
  | Arr1 [w] => Ok (py_max (xsub fp w (Fin k)) (Fin 0))
  | _ => Err (ValueError "The truth value of an array with more than one element is ambiguous")
  end.

(** hmm.py:356-369, "spherical" and "diag"; [means] are those after the mean
    update. *)
Definition gauss_covars_vec (fp : fpmode) (p : gaussp) (means : mat) (st : gauss_stat) : res mat :=
  let mw := pmat (ga_mweight p) in
  let denom := col_of (gs_post st) in
  do meandiff <- b2 (xsub fp) means (pmat (ga_mprior p));
  do a <- b2 (xmul fp) mw (mmap (xsq fp) meandiff);
  do b <- b2 (xadd fp) a (gs_obs2 st);
  do cc <- b2 (xmul fp) (mmap (xmul fp (Fin 2)) means) (gs_obs st);
  do d <- b2 (xsub fp) b cc;
  do e <- b2 (xmul fp) (mmap (xsq fp) means) denom;
  do c_n <- b2 (xadd fp) d e;
  do w <- cweight_excess fp p 1;
  let c_d := mmap (xadd fp w) denom in
  do num <- b2 (xadd fp) (pmat (ga_cprior p)) c_n;
  do cov <- b2 (xdiv fp) num (mmap (fun a => np_maximum a (Fin (/ 10 ^ 5))) c_d);
  if String.eqb (ga_type p) "spherical" then
    (* np.tile(mean(1)[:, None], (1, ncol)) *)
    Ok (mtab (nrow cov) (ncol cov) (fun i _ =>
          xdiv fp (xsum fp (nth i (rows cov) [])) (Fin (INR (ncol cov)))))
  else Ok cov.

(** hmm.py:358, 370-387, "tied" and "full". *)
Definition gauss_covars_mat (fp : fpmode) (c : cfg) (n : nat) (p : gaussp) (means : mat) (st : gauss_stat)
  : res covs :=
  let mw := pmat (ga_mweight p) in
  do meandiff <- b2 (xsub fp) means (pmat (ga_mprior p));
  do c_n <- mapM (fun i =>
      let om := outer fp (nth i (rows (gs_obs st)) []) (nth i (rows means) []) in
      do a <- b2 (xmul fp) mw (outer fp (nth i (rows meandiff) []) (nth i (rows meandiff) []));
      do b <- b2 (xadd fp) a (nth i (gs_obsT st) (Mat 0 []));
      do d <- b2 (xsub fp) b om;
      do e <- b2 (xsub fp) d (mtrans om);
      do f <- b2 (xadd fp) e (mmap (fun v => xmul fp v (vget (gs_post st) i))
                                   (outer fp (nth i (rows means) []) (nth i (rows means) [])));
      broadcast_to f n n) (seq 0 (c_nc c));
  do w <- cweight_excess fp p (INR n);
  if String.eqb (ga_type p) "tied" then
    let s := mtab n n (fun k l => xsum fp (map (fun m => mget m k l) c_n)) in
    do num <- b2 (xadd fp) (pmat (ga_cprior p)) s;
    let den := xadd fp w (xsum fp (gs_post st)) in
    Ok (CV2 (mmap (fun v => xdiv fp v den) num))
  else
    do nums <- mapM (fun m => b2 (xadd fp) (pmat (ga_cprior p)) m) c_n;
    Ok (CV3 (map (fun '(m, i) => mmap (fun v => xdiv fp v (xadd fp w (vget (gs_post st) i))) m)
                 (combine nums (seq 0 (length nums))))).

(** hmm.py:340-387 [_do_mstep]. *)
Definition gauss_mstep (fp : fpmode) (c : cfg) (nf : option nat) (p : gaussp) (st : gauss_stat) : res gaussp :=
  do means <- (if has "m" (c_params c) then do m <- gauss_means fp p st; Ok (Some m) else Ok (ga_means p));
  do cv <-
    (if has "c" (c_params c) then
       match means with
       | None => Err (AttributeError "means_")
       | Some m =>
           if vec_type (ga_type p) then do v <- gauss_covars_vec fp p m st; Ok (Some (CV2 v))
           else if mat_type (ga_type p) then
             do v <- gauss_covars_mat fp c (match nf with Some n => n | None => 0%nat end) p m st; Ok (Some v)
           else Ok (ga_covars p)
       end
     else Ok (ga_covars p));
  Ok (ga_set p means cv).

Definition gaussian : emclass gaussp vec gauss_stat :=
  EmClass (forallb xisfin) gauss_check gauss_loglik gauss_lik gauss_stats0 gauss_acc gauss_mstep.

(** ** The [covars_] property. *)
(** [np.diag] of a vector. *)
Definition diag_of (v : vec) : mat :=
  mtab (length v) (length v) (fun i j => if Nat.eqb i j then vget v i else Fin 0).
(** utils.py:58-71 [fill_covars]; the result is the list of matrices along the
    first axis.  "spherical" flattens whatever is stored.  Products with the
    zeros of [np.eye] are taken.  Simplification: stored arrays whose dimension
    does not fit the type ([covariance_type] changed after assignment) raise
    here; numpy then raises for "diag" and a vector only. *)
Definition fill_covars (fp : fpmode) (cv : covs) (ty : string) (nc nf : nat) : res (list mat) :=
  if String.eqb ty "full" then
    match cv with CV3 l => Ok l | _ => Err (ValueError "full covariances have three dimensions") end
  else if String.eqb ty "diag" then
    match cv with
    | CV2 m => Ok (map diag_of (rows m))
    | _ => Err (ValueError "Input must be 1- or 2-d.")
    end
  else if String.eqb ty "tied" then
    match cv with
    | CV2 m => Ok (tab nc (fun _ => m))
    | _ => Err (ValueError "tied covariances have two dimensions")
    end
  else if String.eqb ty "spherical" then
    let flat := match cv with
                | CV1 v => v
                | CV2 m => concat (rows m)
                | CV3 l => concat (map (fun m => concat (rows m)) l)
                end in
    Ok (map (fun v => mtab nf nf (fun i j => xmul fp (if Nat.eqb i j then Fin 1 else Fin 0) v)) flat)
  else Err (ValueError "fill_covars returns None").

(** hmm.py:294-298, the getter. *)
Definition covars_get (fp : fpmode) (h : hmm gaussp) : res (list mat) :=
  match ga_covars (h_em h) with
  | None => Err (AttributeError "_covars_")
  | Some cv =>
      match h_nfeat h with
      | None => Err (AttributeError "n_features")
      | Some nf => fill_covars fp cv (ga_type (h_em h)) (c_nc (h_cfg h)) nf
      end
  end.

(** [np.allclose(m, m.T)] entry by entry: [|a - b| <= atol + rtol * |b|]. *)
Definition allclose (fp : fpmode) (a b : xnum) : bool :=
  xeqb a b || (xisfin a && xisfin b &&
    xleb (xabs (xsub fp a b)) (xadd fp (Fin (/ 10 ^ 8)) (xmul fp (Fin (/ 10 ^ 5)) (xabs b)))).
Definition symmetric (fp : fpmode) (m : mat) : bool :=
  forallb (fun i => forallb (fun j => allclose fp (mget m i j) (mget m j i)) (seq 0 (nrow m))) (seq 0 (nrow m)).
(** [np.any(eigvalsh(m) <= 0)] is decided by the pivots of the Cholesky
    factorisation (the same condition in exact arithmetic; like [eigvalsh], it
    reads the lower triangle). *)
Definition posdef (fp : fpmode) (m : mat) : res bool :=
  do c <- cholesky fp m; Ok (match c with Some _ => true | None => false end).

(** _utils.py:31-66 [_validate_covars]. *)
Definition validate_covars (fp : fpmode) (cv : covs) (ty : string) (nc : nat) : res unit :=
  let pos l := forallb (fun v => negb (xleb v (Fin 0))) l in
  if String.eqb ty "spherical" then
    let '(n, vals) := match cv with
                      | CV1 v => (length v, v)
                      | CV2 m => (nrow m, concat (rows m))
                      | CV3 l => (length l, concat (map (fun m => concat (rows m)) l))
                      end in
    if negb (Nat.eqb n nc) then Err (ValueError "'spherical' covars have length n_components")
    else if negb (pos vals) then Err (ValueError "'spherical' covars must be positive") else Ok tt
  else if String.eqb ty "tied" then
    match cv with
    | CV1 _ => Err IndexError
    | CV2 m =>
        if negb (Nat.eqb (nrow m) (ncol m)) then Err (ValueError "'tied' covars must have shape (n_dim, n_dim)")
        else if negb (symmetric fp m) then Err (ValueError "'tied' covars must be symmetric, positive-definite")
        else do b <- posdef fp m;
             if (b : bool) then Ok tt else Err (ValueError "'tied' covars must be symmetric, positive-definite")
    | CV3 _ => Err (ValueError "3-D tied covariances are not modelled")
    end
  else if String.eqb ty "diag" then
    match cv with
    | CV2 m => if pos (concat (rows m)) then Ok tt else Err (ValueError "'diag' covars must be positive")
    | _ => Err (ValueError "'diag' covars must have shape (n_components, n_dim)")
    end
  else if String.eqb ty "full" then
    match cv with
    | CV3 l =>
        if negb (forallb (fun m => Nat.eqb (nrow m) (ncol m)) l)
        then Err (ValueError "'full' covars must have shape (n_components, n_dim, n_dim)")
        else
          do _ <- mapM (fun m =>
            if negb (symmetric fp m) then Err (ValueError "component of 'full' covars must be symmetric, positive-definite")
            else do b <- posdef fp m;
                 if (b : bool) then Ok tt else Err (ValueError "component of 'full' covars must be symmetric, positive-definite")) l;
          Ok tt
    | _ => Err (ValueError "'full' covars must have shape (n_components, n_dim, n_dim)")
    end
  else Err (ValueError "covariance_type must be one of 'spherical', 'tied', 'diag', 'full'").

(** hmm.py:300-305, the setter. *)
Definition covars_set (fp : fpmode) (cv : covs) (h : hmm gaussp) : res (hmm gaussp) :=
  do _ <- validate_covars fp cv (ga_type (h_em h)) (c_nc (h_cfg h));
  Ok (Hmm (h_cfg h) (h_nfeat h) (h_start h) (h_trans h) (h_mon h)
          (ga_set (h_em h) (ga_means (h_em h)) (Some cv))).
