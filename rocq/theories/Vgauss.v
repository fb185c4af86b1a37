(** * Model of VariationalGaussianHMM (vhmm.py:233-844, _emissions.py:112-192). *)
From Verif Require Export Kl Init_gmm.

(** A degrees-of-freedom attribute: an array, or a number ("tied"). *)
Inductive dofs := DofV (v : vec) | DofS (a : xnum).
(** [np.repeat] for a number (vhmm.py:803-806). *)
Definition dof_at (d : dofs) (i : nat) : xnum := match d with DofV v => vget v i | DofS a => a end.

(** [covariance_type], the constructor arguments [means_prior], [beta_prior],
    [dof_prior], [scale_prior], and the attributes [means_prior_],
    [means_posterior_], [beta_prior_], [beta_posterior_], [dof_prior_],
    [dof_posterior_], [scale_prior_], [scale_posterior_], [_covars_].
    [means_prior] may have the wrong number of dimensions; the others are assumed
    to be arrays of the number of dimensions shown here. *)
Record vgp := Vgp {
  vg_type : string;
  vg_marg : option parr; vg_barg : option vec; vg_darg : option dofs; vg_sarg : option covs;
  vg_m0 : option parr; vg_m : option mat; vg_b0 : option vec; vg_b : option vec;
  vg_d0 : option dofs; vg_d : option dofs; vg_s0 : option covs; vg_s : option covs;
  vg_cov : option covs }.

(** ** Likelihood (score, decode): _emissions.py:129-131 with [means_] the
    property of vhmm.py:451-456. *)
Definition vg_gauss (p : vgp) : gaussp :=
  Gaussp (vg_type p) (Fin 0) (Scal (Fin 0)) (Scal (Fin 0)) (Scal (Fin 0)) (Scal (Fin 0)) (vg_m p) (vg_cov p).
Definition vg_loglik (fp : fpmode) (c : cfg) (nf : option nat) (p : vgp) (x : list vec) : res mat :=
  match vg_m p with
  | None => Err (AttributeError "means_posterior_")
  | Some _ => gauss_loglik fp c nf (vg_gauss p) x
  end.

(** ** vhmm.py:583-655 [_check]; [np.asarray] has no effect on the values.  The
    method of the base class is not called. *)
Definition cov_shape_ok (ty : string) (nc nf : nat) (cv : covs) : bool :=
  if String.eqb ty "full" then
    match cv with
    | CV3 l => Nat.eqb (length l) nc && forallb (fun m => Nat.eqb (nrow m) nf && Nat.eqb (ncol m) nf) l
    | _ => false
    end
  else if String.eqb ty "tied" then match cv with CV2 m => Nat.eqb (nrow m) nf && Nat.eqb (ncol m) nf | _ => false end
  else if String.eqb ty "diag" then match cv with CV2 m => Nat.eqb (nrow m) nc && Nat.eqb (ncol m) nf | _ => false end
  else match cv with CV1 v => Nat.eqb (length v) nc | _ => false end.
Definition dof_shape_ok (ty : string) (nc : nat) (d : dofs) : bool :=
  match d with
  | DofV v => negb (String.eqb ty "tied") && Nat.eqb (length v) nc
  | DofS _ => String.eqb ty "tied"
  end.
Definition guard (b : bool) (why : string) : res unit := if b then Ok tt else Err (ValueError why).
Definition vg_check (fp : fpmode) (c : cfg) (nfe : option nat) (p : vgp) : res (option nat * vgp) :=
  let nc := c_nc c in
  let ty := vg_type p in
  do _ <- guard (is_type covariance_types ty) "covariance_type is invalid";
  do nf <- attr "n_features" nfe;
  do m0 <- attr "means_prior_" (vg_m0 p);
  do m <- attr "means_posterior_" (vg_m p);
  do _ <- guard (match m0 with Arr2 a => Nat.eqb (nrow a) nc && Nat.eqb (ncol a) nf | _ => false end) "means_prior_";
  do _ <- guard (Nat.eqb (nrow m) nc && Nat.eqb (ncol m) nf) "means_posterior_";
  do b0 <- attr "beta_prior_" (vg_b0 p);
  do b <- attr "beta_posterior_" (vg_b p);
  do _ <- guard (Nat.eqb (length b0) nc) "beta_prior_";
  do _ <- guard (Nat.eqb (length b) nc) "beta_posterior_";
  do d0 <- attr "dof_prior_" (vg_d0 p);
  do d <- attr "dof_posterior_" (vg_d p);
  do _ <- guard (dof_shape_ok ty nc d0) "dof_prior_";
  do _ <- guard (dof_shape_ok ty nc d) "dof_posterior_";
  do s0 <- attr "scale_prior_" (vg_s0 p);
  do s <- attr "scale_posterior_" (vg_s p);
  do _ <- guard (cov_shape_ok ty nc nf s0) "scale_prior_";
  do _ <- guard (cov_shape_ok ty nc nf s) "scale_posterior_";
  Ok (nfe, p).

(** ** Statistics: _emissions.py:133-164 with vhmm.py:840-844
    ([_needs_sufficient_statistics_for_mean]: 'm' or 'c' in params). *)
Definition stat_params (ps : string) : string :=
  ((if has "m" ps || has "c" ps then "m" else "") ++ (if has "c" ps then "c" else ""))%string.
Definition stat_cfg (c : cfg) : cfg :=
  Cfg (c_nc c) (stat_params (c_params c)) (c_init_params c) (c_algorithm c) (c_impl c) (c_n_iter c) (c_tol c)
      (c_verbose c) (c_sprior c) (c_tprior c).
Definition vg_stats0 (fp : fpmode) (c : cfg) (nf : option nat) (p : vgp) : gauss_stat :=
  gauss_stats0 fp (stat_cfg c) nf (vg_gauss p).
Definition vg_acc (fp : fpmode) (c : cfg) (nf : option nat) (p : vgp) (st : gauss_stat) (x : list vec) (post : mat)
  : res gauss_stat :=
  gauss_acc fp (stat_cfg c) nf (vg_gauss p) st x post.

(** ** vhmm.py:697-784 [_do_mstep], after [super()._do_mstep()]. *)
Definition as_mat (p : parr) : res mat :=
  match p with Arr2 m => Ok m | _ => Err (ValueError "not reached: _check wants a matrix") end.
(** Element-wise operations on arrays of equal shapes ([_check] has seen to it). *)
Definition zip3 (f : xnum -> xnum -> xnum) (n : nat) (a b : list mat) : list mat :=
  tab n (fun i => mzip f (nth i a (Mat 0 [])) (nth i b (Mat 0 []))).
(** [np.einsum("c,ci,cj->cij", b, m, m)] and [np.einsum("c,ci,ci->ci", b, m, m)]. *)
Definition ein3 (fp : fpmode) (nc : nat) (b : vec) (m : mat) : list mat :=
  tab nc (fun i => mtab (ncol m) (ncol m) (fun k l =>
    xmul fp (xmul fp (vget b i) (mget m i k)) (mget m i l))).
Definition ein2 (fp : fpmode) (nc : nat) (b : vec) (m : mat) : mat :=
  mtab nc (ncol m) (fun i k => xmul fp (xmul fp (vget b i) (mget m i k)) (mget m i k)).
(** [.sum(axis=0)] of a stack of n x n matrices. *)
Definition sum_stack (fp : fpmode) (n : nat) (l : list mat) : mat :=
  mtab n n (fun i j => xsum fp (map (fun m => mget m i j) l)).
Definition vec_of (d : dofs) : res vec :=
  match d with DofV v => Ok v | DofS _ => Err (ValueError "not reached: _check wants an array") end.
Definition num_of (d : dofs) : res xnum :=
  match d with DofS a => Ok a | DofV _ => Err (ValueError "not reached: _check wants a number") end.
Definition cv1 (cv : covs) : res vec := match cv with CV1 v => Ok v | _ => Err (ValueError "not reached: _check") end.
Definition cv2 (cv : covs) : res mat := match cv with CV2 m => Ok m | _ => Err (ValueError "not reached: _check") end.
Definition cv3 (cv : covs) : res (list mat) := match cv with CV3 l => Ok l | _ => Err (ValueError "not reached: _check") end.

(** vhmm.py:708-713: [beta_posterior_] and [means_posterior_]. *)
Definition vg_means_upd (fp : fpmode) (c : cfg) (b0 : vec) (m0 : mat) (st : gauss_stat) : vec * mat :=
  let b := vadd fp b0 (gs_post st) in
  (b, mtab (c_nc c) (ncol m0) (fun i f =>
        xdiv fp (xadd fp (xmul fp (vget b0 i) (mget m0 i f)) (mget (gs_obs st) i f)) (vget b i))).
(** vhmm.py:715-784: [dof_posterior_], [scale_posterior_] and [_covars_], from
    the posterior of the means as it is now. *)
Definition vg_scale_upd (fp : fpmode) (ty : string) (nc nf : nat) (b0 : vec) (m0 : mat) (b : vec) (m : mat)
    (d0 : dofs) (s0 : covs) (st : gauss_stat) : res (dofs * covs * covs) :=
  if String.eqb ty "full" then
    do v0 <- vec_of d0;
    do l0 <- cv3 s0;
    let d := vadd fp v0 (gs_post st) in
    let s := zip3 (xsub fp) nc (zip3 (xadd fp) nc (zip3 (xadd fp) nc l0 (gs_obsT st)) (ein3 fp nc b0 m0))
                  (ein3 fp nc b m) in
    Ok (DofV d, CV3 s, CV3 (tab nc (fun i => mmap (fun a => xdiv fp a (vget d i)) (nth i s (Mat 0 [])))))
  else if String.eqb ty "tied" then
    do a0 <- num_of d0;
    do k0 <- cv2 s0;
    let d := xadd fp a0 (xsum fp (gs_post st)) in
    let s := mzip (xsub fp) (mzip (xadd fp) (mzip (xadd fp) k0 (sum_stack fp nf (gs_obsT st)))
                                            (sum_stack fp nf (ein3 fp nc b0 m0)))
                  (sum_stack fp nf (ein3 fp nc b m)) in
    Ok (DofS d, CV2 s, CV2 (mmap (fun a => xdiv fp a d) s))
  else if String.eqb ty "diag" then
    do v0 <- vec_of d0;
    do k0 <- cv2 s0;
    let d := vadd fp v0 (gs_post st) in
    let s := mzip (xsub fp) (mzip (xadd fp) (mzip (xadd fp) k0 (gs_obs2 st)) (ein2 fp nc b0 m0)) (ein2 fp nc b m) in
    Ok (DofV d, CV2 s, CV2 (mtab nc nf (fun i f => xdiv fp (mget s i f) (vget d i))))
  else
    do v0 <- vec_of d0;
    do k0 <- cv1 s0;
    let d := vadd fp v0 (gs_post st) in
    let t2 := mzip (xsub fp) (mzip (xadd fp) (gs_obs2 st) (ein2 fp nc b0 m0)) (ein2 fp nc b m) in
    let s := tab nc (fun i => xadd fp (vget k0 i) (xdiv fp (xsum fp (nth i (rows t2) [])) (Fin (INR nf)))) in
    Ok (DofV d, CV1 s, CV1 (tab nc (fun i => xdiv fp (vget s i) (vget d i)))).
Definition vg_mstep (fp : fpmode) (c : cfg) (nfe : option nat) (p : vgp) (st : gauss_stat) : res vgp :=
  let nc := c_nc c in
  let nf := match nfe with Some n => n | None => 0%nat end in
  do (b, m) <-
    (if has "m" (c_params c) then
       do b0 <- attr "beta_prior_" (vg_b0 p);
       do m0 <- attr "means_prior_" (vg_m0 p); do m0 <- as_mat m0;
       let '(b, m) := vg_means_upd fp c b0 m0 st in Ok (Some b, Some m)
     else Ok (vg_b p, vg_m p));
  do (d, s, cv) <-
    (if has "c" (c_params c) && is_type covariance_types (vg_type p) then
       do d0 <- attr "dof_prior_" (vg_d0 p);
       do s0 <- attr "scale_prior_" (vg_s0 p);
       do b0 <- attr "beta_prior_" (vg_b0 p);
       do m0 <- attr "means_prior_" (vg_m0 p); do m0 <- as_mat m0;
       do b <- attr "beta_posterior_" b;
       do m <- attr "means_posterior_" m;
       do (d, s, cv) <- vg_scale_upd fp (vg_type p) nc nf b0 m0 b m d0 s0 st;
       Ok (Some d, Some s, Some cv)
     else Ok (vg_d p, vg_s p, vg_cov p));
  Ok (Vgp (vg_type p) (vg_marg p) (vg_barg p) (vg_darg p) (vg_sarg p)
          (vg_m0 p) m (vg_b0 p) b (vg_d0 p) d (vg_s0 p) s cv).

Section Var.
  Variable la : linalg.

  (** The inverses [W_k] (vhmm.py:667-671): one per component. *)
  Definition vg_W (fp : fpmode) (ty : string) (nc nf : nat) (s : covs) : res (list mat) :=
    if String.eqb ty "tied" then
      do m <- cv2 s; do w <- la_inv la fp m; Ok (tab nc (fun _ => w))
    else
      do l <- fill_covars fp s ty nc nf; mapM (la_inv la fp) l.

  (** vhmm.py:657-695 [_compute_subnorm_log_likelihood]; [2 ln] of the expected
      density, the constant [nf ln(2 pi)] left out.  The order in which [einsum]
      adds is not modelled. *)
  Definition vg_subll (fp : fpmode) (c : cfg) (nfe : option nat) (p : vgp) (x : list vec) : res mat :=
    do nf <- attr "n_features" nfe;
    do d <- attr "dof_posterior_" (vg_d p);
    do s <- attr "scale_posterior_" (vg_s p);
    do ws <- vg_W fp (vg_type p) (c_nc c) nf s;
    do b <- attr "beta_posterior_" (vg_b p);
    do m <- attr "means_posterior_" (vg_m p);
    let nc := c_nc c in
    match x with [] => Ok (Mat nc []) | _ =>
    do w <- bwidth (width x) (ncol m);
    if negb (Nat.eqb w nf) then Err (ValueError "not reached: fit and _check compare with n_features") else
    let t1 := tab nc (fun i =>
      xdiv fp (xadd fp
        (xsum fp (tab nf (fun j => xdigamma fp (xmul fp (Fin (1 / 2)) (xsub fp (dof_at d i) (Fin (INR j)))))))
        (xadd fp (xmul fp (Fin (INR nf)) (xlog fp (Fin 2))) (logdet la fp (nth i ws (Mat 0 []))))) (Fin 2)) in
    Ok (Mat nc (map (fun o => tab nc (fun i =>
      let dl j := xsub fp (vget o (bidx (width x) j)) (mget m i (bidx (ncol m) j)) in
      let dots := xsum fp (tab nf (fun j => xsum fp (tab nf (fun k =>
        xmul fp (xmul fp (xmul fp (dl j) (mget (nth i ws (Mat 0 [])) j k)) (dl k)) (dof_at d i))))) in
      let t3 := xdiv fp (Fin (INR nf)) (vget b i) in
      xsub fp (xsub fp (vget t1 i) (Fin 0)) (xmul fp (Fin (1 / 2)) (xadd fp dots t3)))) x))
    end.

  (** vhmm.py:786-838 [_compute_lower_bound]: the divergences of component [i]. *)
  Definition vg_kln (fp : fpmode) (nf : nat) (w : mat) (nu : xnum) (b b0 : xnum) (m m0 : vec) : res xnum :=
    let prec := mmap (fun a => xmul fp a nu) w in
    do t1 <- la_inv la fp (mmap (xmul fp b) prec);
    do t2 <- la_inv la fp (mmap (xmul fp b0) prec);
    kl_mvn la fp m t1 m0 t2.
  Definition vg_bound (fp : fpmode) (c : cfg) (nfe : option nat) (p : vgp) (lb : xnum) : res xnum :=
    let nc := c_nc c in
    let ty := vg_type p in
    do nf <- attr "n_features" nfe;
    do s <- attr "scale_posterior_" (vg_s p);
    do s0 <- attr "scale_prior_" (vg_s0 p);
    do l <- fill_covars fp s ty nc nf;
    do l0 <- fill_covars fp s0 ty nc nf;
    do ws <- mapM (la_inv la fp) l;
    do d <- attr "dof_posterior_" (vg_d p);
    do b <- attr "beta_posterior_" (vg_b p);
    do b0 <- attr "beta_prior_" (vg_b0 p);
    do m <- attr "means_posterior_" (vg_m p);
    do m0 <- attr "means_prior_" (vg_m0 p); do m0 <- as_mat m0;
    do d0 <- attr "dof_prior_" (vg_d0 p);
    do kls <- mapM (fun i =>
      do kln <- vg_kln fp nf (nth i ws (Mat 0 [])) (dof_at d i) (vget b i) (vget b0 i)
                       (nth i (rows m) []) (nth i (rows m0) []);
      do klw <- (if String.eqb ty "tied" && negb (Nat.eqb i 0) then Ok (Fin 0)
                 else kl_wishart la fp (dof_at d i) (nth i l (Mat 0 [])) (dof_at d0 i) (nth i l0 (Mat 0 [])));
      Ok (kln, klw)) (seq 0 nc);
    Ok (xadd fp lb (fold_left (fun a '(kln, klw) => xsub fp (xsub fp a kln) klw) kls (Fin 0))).

  Definition vgaussian : vclass vgp vec gauss_stat :=
    VClass (EmClass (forallb xisfin) vg_check vg_loglik
              (fun fp c nf p x => lik_of_loglik fp (vg_loglik fp c nf p x)) vg_stats0 vg_acc vg_mstep)
      false (fun fp c nf p => Ok p) vg_subll vg_bound.
End Var.

(** ** Initialisation: vhmm.py:458-562 [_init], after [super()._init()]. *)
(** [np.bincount]. *)
Definition bincount (labels : list nat) : vec :=
  tab (S (list_max labels)) (fun k => Fin (INR (count_occ Nat.eq_dec labels k))).
(** [a or b or c or d] for four [_needs_init]. *)
Fixpoint needs_any (c : cfg) (code : ascii) (l : list (string * bool)) : bool * list event :=
  match l with
  | [] => (false, [])
  | (name, is_set) :: r =>
      let '(n, ev) := needs_init c code name is_set in
      if (n : bool) then (true, ev) else let '(n', ev') := needs_any c code r in (n', ev ++ ev')
  end.
(** Broadcasting the vector of counts against [n_components]. *)
Definition counts_to (nc : nat) (v : vec) : res vec :=
  if Nat.eqb (length v) nc then Ok v
  else if Nat.eqb (length v) 1 then Ok (tab nc (fun _ => vget v 0))
  else Err (ValueError "operands could not be broadcast together").
Definition vg_init_em {G} (gr : grng G) (fp : fpmode) (rg : rng G) (c : cfg) (nfe : option nat) (p : vgp)
    (x : list vec) (ls : list Z) (rs : rstate G) (glob : G) : res (vgp * rstate G * G * list event) :=
  let nc := c_nc c in
  let nf := match nfe with Some n => n | None => 0%nat end in
  let ty := vg_type p in
  do (labels, centers, rs1, glob1) <- kmeans gr rg nc x rs glob;
  let counts := bincount labels in
  let '(nm, ev1) := needs_any c "m" [("means_prior_", isSome (vg_m0 p)); ("means_posterior_", isSome (vg_m p));
                                     ("beta_prior_", isSome (vg_b0 p)); ("beta_posterior_", isSome (vg_b p))]%string in
  let '(m0, m, b0, b) :=
    if (nm : bool) then
      (Some (match vg_marg p with
             | Some a => a
             | None => Arr2 (mtab nc nf (fun _ f => arr_mean fp (map (fun r => vget r f) x)))
             end), Some centers,
       Some (match vg_barg p with Some a => a | None => tab nc (fun _ => xadd fp (Fin 0) (Fin 1)) end), Some counts)
    else (vg_m0 p, vg_m p, vg_b0 p, vg_b p) in
  let '(ncv, ev2) := needs_any c "c" [("dof_prior_", isSome (vg_d0 p)); ("dof_posterior_", isSome (vg_d p));
                                      ("scale_prior_", isSome (vg_s0 p)); ("scale_posterior_", isSome (vg_s p))]%string in
  do (d0, d, s0, s, cv) <-
    (if (ncv : bool) then
       let n := Fin (INR nf) in
       let tot := xsum fp counts in
       do cv <- distribute fp (cov_template fp (fp (/ 1000)) x) ty nc;
       do _ <- validate_covars fp cv ty nc;
       let e := fp (/ 1000) in
       let eye := mtab nf nf (fun i j => xmul fp (if Nat.eqb i j then Fin 1 else Fin 0) e) in
       let arg (def : covs) := match vg_sarg p with Some a => a | None => def end in
       if String.eqb ty "tied" then
         do k <- cv2 cv;
         Ok (Some (match vg_darg p with Some a => a | None => DofS n end), Some (DofS tot),
             Some (arg (CV2 eye)), Some (CV2 (mmap (fun a => xmul fp a tot) k)), Some cv)
       else
         do k <- counts_to nc counts;
         do s <-
           (if String.eqb ty "full" then
              do l <- cv3 cv; Ok (CV3 (tab nc (fun i => mmap (fun a => xmul fp a (vget k i)) (nth i l (Mat 0 [])))))
            else if String.eqb ty "diag" then
              do q <- cv2 cv; Ok (CV2 (mtab nc nf (fun i f => xmul fp (mget q i f) (vget k i))))
            else
              do q <- cv2 cv; Ok (CV1 (tab nc (fun i => xmul fp (arr_mean fp (nth i (rows q) [])) (vget k i)))));
         Ok (Some (match vg_darg p with Some a => a | None => DofV (tab nc (fun _ => n)) end), Some (DofV counts),
             Some (arg (if String.eqb ty "full" then CV3 (tab nc (fun _ => eye))
                        else if String.eqb ty "diag" then CV2 (mtab nc nf (fun _ _ => e)) else CV1 (tab nc (fun _ => e)))),
             Some s, Some cv)
     else Ok (vg_d0 p, vg_d p, vg_s0 p, vg_s p, vg_cov p));
  Ok (Vgp ty (vg_marg p) (vg_barg p) (vg_darg p) (vg_sarg p) m0 m b0 b d0 d s0 s cv, rs1, glob1, ev1 ++ ev2).

(** vhmm.py:564-581 [_get_n_fit_scalars_per_param]. *)
Definition vg_nfit (c : cfg) (nfe : option nat) (p : vgp) : res (list (ascii * Z)) :=
  if negb (is_type covariance_types (vg_type p)) then Err (ValueError "covariance_type is invalid") else
  match nfe with
  | None => Err (AttributeError "n_features")
  | Some n =>
      let nc := Z.of_nat (c_nc c) in
      let n := Z.of_nat n in
      let k := (if String.eqb (vg_type p) "full" then nc + nc * n * (n + 1) / 2
                else if String.eqb (vg_type p) "tied" then 1 + n * (n + 1) / 2
                else if String.eqb (vg_type p) "diag" then nc + nc * n else nc + nc)%Z in
      Ok (base_nfit (c_nc c) ++ [("m"%char, nc * n + nc); ("c"%char, k)])%Z
  end.
(** base.py:536-551 [_check_and_set_n_features]. *)
Definition vg_nfeat (c : cfg) (nf : option nat) (p : vgp) (x : list vec) : res (option nat * vgp) :=
  do nf' <- set_n_features nf (width x); Ok (nf', p).
Definition vg_initc {G} (gr : grng G) : vinitclass vgp vec G :=
  VInitClass width vg_nfeat vg_nfit (vg_init_em gr).
