(** * Model of GMMHMM (hmm.py:390-810, _emissions.py:184-307). *)
From Verif Require Export Nd.

(** Constructor arguments and the attributes [weights_], [means_], [covars_].
    The prior attributes are overwritten by [_check] and [_init]. *)
Record gmmp := Gmmp {
  gm_nmix : nat; gm_type : string; gm_min_covar : xnum;
  gm_wprior : nd; gm_mprior : nd; gm_mweight : nd; gm_cprior : option nd; gm_cweight : option nd;
  gm_weights : option nd; gm_means : option nd; gm_covars : option nd }.
Definition gm_set (p : gmmp) (w m c : option nd) : gmmp :=
  Gmmp (gm_nmix p) (gm_type p) (gm_min_covar p) (gm_wprior p) (gm_mprior p) (gm_mweight p)
       (gm_cprior p) (gm_cweight p) w m c.
Definition gm_set_priors (p : gmmp) (wp mp mw : nd) (cp cw : option nd) : gmmp :=
  Gmmp (gm_nmix p) (gm_type p) (gm_min_covar p) wp mp mw cp cw (gm_weights p) (gm_means p) (gm_covars p).

(** [stats['post_mix_sum']], ['post_sum'], ['m_n'], ['c_n']. *)
Record gmm_stat := GmmStat { gs_mix : nd; gs_sum : vec; gs_mn : nd; gs_cn : nd }.

(** hmm.py:593-613 [_init_covar_priors]: default values of the two covariance
    hyper-parameters.  An unknown type leaves None. *)
Definition default_cprior (fp : fpmode) (ty : string) (nm nf : nat) : option xnum :=
  if String.eqb ty "full" then Some (Fin 0)
  else if String.eqb ty "tied" then Some (Fin 0)
  else if String.eqb ty "diag" then Some (Fin (- (3 / 2)))
  else if String.eqb ty "spherical"
  then Some (xdiv fp (xsub fp (Fin 0) (xadd fp (Fin (INR nm)) (Fin 2))) (Fin 2))
  else None.
Definition default_cweight (fp : fpmode) (ty : string) (nm nf : nat) : option xnum :=
  if String.eqb ty "full"
  then Some (xsub fp (Fin 0) (xadd fp (xadd fp (Fin 1) (Fin (INR nf))) (Fin 1)))
  else if String.eqb ty "tied"
  then Some (xsub fp (Fin 0) (xadd fp (Fin (INR (nm + nf))) (Fin 1)))
  else if String.eqb ty "diag" then Some (Fin 0)
  else if String.eqb ty "spherical" then Some (Fin 0)
  else None.

(** hmm.py:615-648 [_fix_priors_shape]: the shapes of the two covariance
    hyper-parameters. *)
Definition cprior_shape (ty : string) (nc nm nf : nat) : option (list nat) :=
  if String.eqb ty "full" then Some [nc; nm; nf; nf]
  else if String.eqb ty "tied" then Some [nc; nf; nf]
  else if String.eqb ty "diag" then Some [nc; nm; nf]
  else if String.eqb ty "spherical" then Some [nc; nm]
  else None.
Definition cweight_shape (ty : string) (nc nm nf : nat) : option (list nat) :=
  if String.eqb ty "full" then Some [nc; nm]
  else if String.eqb ty "tied" then Some [nc]
  else if String.eqb ty "diag" then Some [nc; nm; nf]
  else if String.eqb ty "spherical" then Some [nc; nm]
  else None.
Definition fix_prior (a : option nd) (sh : option (list nat)) : res (option nd) :=
  match a, sh with
  | Some a, Some sh => do b <- nbroadcast a sh; Ok (Some b)
  | _, _ => Ok a
  end.
(** [_init_covar_priors] followed by [_fix_priors_shape]. *)
Definition fix_priors (fp : fpmode) (nc nf : nat) (p : gmmp) : res gmmp :=
  let nm := gm_nmix p in
  let ty := gm_type p in
  let cp := match gm_cprior p with Some a => Some a | None => option_map nscal (default_cprior fp ty nm nf) end in
  let cw := match gm_cweight p with Some a => Some a | None => option_map nscal (default_cweight fp ty nm nf) end in
  do wp <- nbroadcast (gm_wprior p) [nc; nm];
  do mp <- nbroadcast (gm_mprior p) [nc; nm; nf];
  do mw <- nbroadcast (gm_mweight p) [nc; nm];
  do cp <- fix_prior cp (cprior_shape ty nc nm nf);
  do cw <- fix_prior cw (cweight_shape ty nc nm nf);
  Ok (gm_set_priors p wp mp mw cp cw).

(** hmm.py:698-732, the values of the covariances.  The smallest eigenvalue that
    [scipy.linalg.eigvalsh] returns is the parameter [eig]; the two warnings are
    not modelled. *)
Section Gmm.
Variable eig : mat -> xnum.

Definition check_cov_mat (fp : fpmode) (m : mat) : res unit :=
  if negb (symmetric fp m) then Err (ValueError "Covariance is not symmetric")
  else if xltb (eig m) (Fin 0) then Err (ValueError "Covariance is not positive definite")
  else Ok tt.
Fixpoint check_all {A} (f : A -> res unit) (l : list A) : res unit :=
  match l with
  | [] => Ok tt
  | a :: r => do _ <- f a; check_all f r
  end.
Definition mat_at (cv : nd) (nf : nat) (idx : list nat) : mat :=
  mtab nf nf (fun f g => nget cv (idx ++ [f; g])).
Definition check_covars (fp : fpmode) (ty : string) (nc nm nf : nat) (cv : nd) : res unit :=
  if vec_type ty then
    if existsb (fun v => xltb v (Fin 0)) (ndat cv) then Err (ValueError "mixture covars must be non-negative")
    else Ok tt
  else if String.eqb ty "tied" then check_all (fun i => check_cov_mat fp (mat_at cv nf [i])) (seq 0 nc)
  else check_all (fun '(i, k) => check_cov_mat fp (mat_at cv nf [i; k])) (list_prod (seq 0 nc) (seq 0 nm)).

(** hmm.py:650-732 [_check], after [super()._check()]. *)
Definition gmm_check (fp : fpmode) (c : cfg) (nfe : option nat) (p : gmmp) : res (option nat * gmmp) :=
  let nc := c_nc c in
  let nm := gm_nmix p in
  do nf <- match nfe with
           | Some n => Ok n
           | None =>
               match gm_means p with
               | None => Err (AttributeError "means_")
               | Some m => match nsh m with _ :: _ :: n :: _ => Ok n | _ => Err IndexError end
               end
           end;
  do p1 <- fix_priors fp nc nf p;
  if negb (is_type covariance_types (gm_type p)) then Err (ValueError "covariance_type") else
  match gm_weights p with
  | None => Err (AttributeError "weights_")
  | Some w =>
      if negb (same_shape (nsh w) [nc; nm]) then Err (ValueError "weights_ shape")
      else if negb (forallb (fun i => check_sum_1 fp (nrow2 w i nm)) (seq 0 nc)) then Err (ValueError "weights_ sum")
      else
        match gm_means p with
        | None => Err (AttributeError "means_")
        | Some m =>
            if negb (same_shape (nsh m) [nc; nm; nf]) then Err (ValueError "means_ shape")
            else
              match gm_covars p with
              | None => Err (AttributeError "covars_")
              | Some cv =>
                  match cprior_shape (gm_type p) nc nm nf with
                  | None => Err KeyError
                  | Some sh =>
                      if negb (same_shape (nsh cv) sh) then Err (ValueError "covars shape")
                      else do _ <- check_covars fp (gm_type p) nc nm nf cv; Ok (Some nf, p1)
                  end
              end
        end
  end.

(** From here on the arrays have the shapes that [_check] has established; both
    [fit] and the scoring methods call it first. *)
Definition gm_nf (nfe : option nat) : nat := match nfe with Some n => n | None => 0%nat end.

(** [self.covars_[i]] as passed to the density function. *)
Definition cur_covs (ty : string) (nm nf : nat) (cv : nd) (i : nat) : covs :=
  if String.eqb ty "spherical" then CV2 (Mat 1 (tab nm (fun k => [nget cv [i; k]])))
  else if String.eqb ty "full" then CV3 (tab nm (fun k => mat_at cv nf [i; k]))
  else if String.eqb ty "tied" then CV2 (mat_at cv nf [i])
  else CV2 (nrow3 cv i nm nf).

(** _emissions.py:203-212 [_compute_log_weighted_gaussian_densities]. *)
Definition log_weighted (fp : fpmode) (nfe : option nat) (p : gmmp) (x : list vec) (i : nat) : res mat :=
  match gm_means p, gm_covars p, gm_weights p with
  | Some m, Some cv, Some w =>
      let nm := gm_nmix p in
      let nf := gm_nf nfe in
      let lw := map (xlog fp) (nrow2 w i nm) in
      do d <- log_mvn_density fp (gm_type p) x (nrow3 m i nm nf) (cur_covs (gm_type p) nm nf cv i);
      Ok (mtab (length x) nm (fun t k => xadd fp (mget d t k) (vget lw k)))
  | _, _, _ => Err (AttributeError "means_, covars_ or weights_")
  end.

(** _emissions.py:214-220 [_compute_log_likelihood] (an empty [X] does not
    reach this point). *)
Definition gmm_loglik (fp : fpmode) (c : cfg) (nfe : option nat) (p : gmmp) (x : list vec) : res mat :=
  match x with
  | [] => Ok (Mat (c_nc c) [])
  | _ =>
      do ds <- mapM (log_weighted fp nfe p x) (seq 0 (c_nc c));
      let cols := map (fun d => map (sp_logsumexp fp) (rows d)) ds in
      Ok (mtab (length x) (c_nc c) (fun t i => vget (nth i cols []) t))
  end.
Definition gmm_lik (fp : fpmode) (c : cfg) (nfe : option nat) (p : gmmp) (x : list vec) : res mat :=
  lik_of_loglik fp (gmm_loglik fp c nfe p x).

(** _emissions.py:222-240 [_initialize_sufficient_statistics]. *)
Definition gmm_stats0 (fp : fpmode) (c : cfg) (nfe : option nat) (p : gmmp) : gmm_stat :=
  let nc := c_nc c in
  let nm := gm_nmix p in
  GmmStat (ntab [nc; nm] (fun _ => Fin 0)) (tab nc (fun _ => Fin 0))
    (ntab [nc; nm; gm_nf nfe] (fun idx => xmul fp (nget (gm_mweight p) (firstn 2 idx)) (nget (gm_mprior p) idx)))
    (ntab (match gm_covars p with Some cv => nsh cv | None => [] end) (fun _ => Fin 0)).

(** _emissions.py:255-260: [post_mix], one matrix (samples, mixtures) per state. *)
Definition post_mix (fp : fpmode) (c : cfg) (nfe : option nat) (p : gmmp) (x : list vec) : res (list mat) :=
  mapM (fun i => do d <- log_weighted fp nfe p x i; Ok (mmap (xexp fp) (log_normalize_rows fp d)))
       (seq 0 (c_nc c)).

(** The sum over samples of [post_comp_mix[t, i, k] * phi t]. *)
Definition wsum_mix (fp : fpmode) (pm : list mat) (post : mat) (T i k : nat) (phi : nat -> xnum) : xnum :=
  xsum fp (tab T (fun t =>
    xmul fp (xmul fp (mget post t i) (mget (nth i pm (Mat 0 [])) t k)) (phi t))).

(** _emissions.py:242-292 [_accumulate_sufficient_statistics].  [fit] only gets
    here with X of width n_features. *)
Definition gmm_acc (fp : fpmode) (c : cfg) (nfe : option nat) (p : gmmp) (st : gmm_stat)
    (x : list vec) (post : mat) : res gmm_stat :=
  let nc := c_nc c in
  let nm := gm_nmix p in
  let nf := gm_nf nfe in
  let T := length x in
  match gm_means p with
  | None => Err (AttributeError "means_")
  | Some means =>
      if negb (Nat.eqb (width x) nf) then Err (ValueError "not reached: width of X") else
      do pm <- post_mix fp c nfe p x;
      let mix := ntab [nc; nm] (fun idx =>
        let i := nth 0 idx 0%nat in
        let k := nth 1 idx 0%nat in
        xadd fp (nget (gs_mix st) idx)
          (xsum fp (tab T (fun t => xmul fp (mget post t i) (mget (nth i pm (Mat 0 [])) t k))))) in
      let sum := vadd fp (gs_sum st) (col_sums fp post) in
      let mn :=
        if has "m" (c_params c) then
          ntab [nc; nm; nf] (fun idx =>
            xadd fp (nget (gs_mn st) idx)
              (wsum_mix fp pm post T (nth 0 idx 0%nat) (nth 1 idx 0%nat)
                 (fun t => vget (nth t x []) (nth 2 idx 0%nat))))
        else gs_mn st in
      (* centered[t, i, k, f] *)
      let cen t i k f := xsub fp (vget (nth t x []) f) (nget means [i; k; f]) in
      let cn :=
        if has "c" (c_params c) then
          ntab (nsh (gs_cn st)) (fun idx =>
            let i := nth 0 idx 0%nat in
            let k := nth 1 idx 0%nat in
            xadd fp (nget (gs_cn st) idx)
              (if String.eqb (gm_type p) "full" then
                 wsum_mix fp pm post T i k (fun t =>
                   xmul fp (cen t i k (nth 2 idx 0%nat)) (cen t i k (nth 3 idx 0%nat)))
               else if String.eqb (gm_type p) "diag" then
                 wsum_mix fp pm post T i k (fun t => xsq fp (cen t i k (nth 2 idx 0%nat)))
               else if String.eqb (gm_type p) "spherical" then
                 wsum_mix fp pm post T i k (fun t => xsum fp (tab nf (fun f => xsq fp (cen t i k f))))
               else
                 xsum fp (tab nm (fun q => wsum_mix fp pm post T i q (fun t =>
                   xmul fp (cen t i q (nth 1 idx 0%nat)) (cen t i q (nth 2 idx 0%nat)))))))
        else gs_cn st in
      Ok (GmmStat mix sum mn cn)
  end.

(** hmm.py:739-744, the new weights. *)
Definition gmm_weights (fp : fpmode) (c : cfg) (p : gmmp) (st : gmm_stat) : nd :=
  let nc := c_nc c in
  let nm := gm_nmix p in
  let am1 := fun i k => xsub fp (nget (gm_wprior p) [i; k]) (Fin 1) in
  ntab [nc; nm] (fun idx =>
    let i := nth 0 idx 0%nat in
    let k := nth 1 idx 0%nat in
    xdiv fp (xadd fp (nget (gs_mix st) idx) (am1 i k))
            (xadd fp (vget (gs_sum st) i) (xsum fp (tab nm (am1 i))))).

(** hmm.py:746-756, the new means; [w] is the [weights_] after their update. *)
Definition gmm_means_upd (fp : fpmode) (c : cfg) (nf : nat) (p : gmmp) (w : nd) (st : gmm_stat) : nd :=
  let nc := c_nc c in
  let nm := gm_nmix p in
  ntab [nc; nm; nf] (fun idx =>
    let ik := firstn 2 idx in
    let unused := xeqb (nget w ik) (Fin 0)
                  && forallb (fun f => xeqb (nget (gs_mn st) (ik ++ [f])) (Fin 0)) (seq 0 nf) in
    let m_d := if unused then Fin 1 else xadd fp (nget (gs_mix st) ik) (nget (gm_mweight p) ik) in
    xdiv fp (nget (gs_mn st) idx) m_d).

(** hmm.py:758-810, the new covariances; [m] is the [means_] after their
    update.  The deviations stored in [gs_cn] are from the means before it. *)
Definition gmm_covars_upd (fp : fpmode) (c : cfg) (nf : nat) (p : gmmp) (m : nd) (st : gmm_stat) : res nd :=
  let nc := c_nc c in
  let nm := gm_nmix p in
  let ty := gm_type p in
  match gm_cprior p, gm_cweight p with
  | Some cp, Some cw =>
      let lam i k := nget (gm_mweight p) [i; k] in
      let cm i k f := xsub fp (nget m [i; k; f]) (nget (gm_mprior p) [i; k; f]) in
      let mix i k := nget (gs_mix st) [i; k] in
      Ok (ntab (nsh (gs_cn st)) (fun idx =>
        let i := nth 0 idx 0%nat in
        let k := nth 1 idx 0%nat in
        let f := nth 2 idx 0%nat in
        let cn := nget (gs_cn st) idx in
        if String.eqb ty "full" then
          let g := nth 3 idx 0%nat in
          let num := xadd fp (nget cp [i; k; g; f]) (xmul fp (lam i k) (xmul fp (cm i k f) (cm i k g))) in
          xdiv fp (xadd fp num cn)
            (xadd fp (xadd fp (xadd fp (xadd fp (mix i k) (Fin 1)) (nget cw [i; k])) (Fin (INR nf))) (Fin 1))
        else if String.eqb ty "diag" then
          let num := xadd fp (xmul fp (lam i k) (xsq fp (cm i k f))) (xmul fp (Fin 2) (nget cw idx)) in
          xdiv fp (xadd fp num cn)
            (xadd fp (xadd fp (mix i k) (Fin 1)) (xmul fp (Fin 2) (xadd fp (nget cp idx) (Fin 1))))
        else if String.eqb ty "spherical" then
          let num := xadd fp (xmul fp (lam i k) (xsum fp (tab nf (fun f => xsq fp (cm i k f)))))
                             (xmul fp (Fin 2) (nget cw idx)) in
          xdiv fp (xadd fp num cn)
            (xadd fp (xmul fp (Fin (INR nf)) (xadd fp (mix i k) (Fin 1)))
                     (xmul fp (Fin 2) (xadd fp (nget cp idx) (Fin 1))))
        else (* tied: idx = [i; f; g] *)
          let f := nth 1 idx 0%nat in
          let g := nth 2 idx 0%nat in
          let num := xadd fp (xsum fp (tab nm (fun q => xmul fp (lam i q) (xmul fp (cm i q f) (cm i q g)))))
                             (nget cp [i; g; f]) in
          xdiv fp (xadd fp num cn)
            (xadd fp (xadd fp (xadd fp (xadd fp (vget (gs_sum st) i) (Fin (INR nm))) (nget cw [i])) (Fin (INR nf)))
                     (Fin 1))))
  | _, _ => Err TypeError
  end.

(** hmm.py:734-810 [_do_mstep]. *)
Definition gmm_mstep (fp : fpmode) (c : cfg) (nfe : option nat) (p : gmmp) (st : gmm_stat) : res gmmp :=
  match gm_weights p, gm_means p with
  | Some w0, Some m0 =>
      let nf := gm_nf nfe in
      let w := if has "w" (c_params c) then gmm_weights fp c p st else w0 in
      let m := if has "m" (c_params c) then gmm_means_upd fp c nf p w st else m0 in
      do cv <- (if has "c" (c_params c) then do cv <- gmm_covars_upd fp c nf p m st; Ok (Some cv)
                else Ok (gm_covars p));
      Ok (gm_set p (Some w) (Some m) cv)
  | _, _ => Err (AttributeError "weights_ or means_")
  end.

Definition gmm : emclass gmmp vec gmm_stat :=
  EmClass (forallb xisfin) gmm_check gmm_loglik gmm_lik gmm_stats0 gmm_acc gmm_mstep.
End Gmm.
