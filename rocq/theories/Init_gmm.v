(** * Model of the initialisation of GMMHMM (hmm.py:533-591) and of its parameter
    count (_emissions.py:186-201). *)
From Verif Require Export Init Gmm.

(** What [GMMHMM._init] asks of sklearn's KMeans (labels and cluster centres;
    fails for more clusters than samples) and of [multivariate_normal] (a matrix
    with [size] rows).  Each uses a generator state and yields the next one. *)
Record grng (G : Type) := Grng {
  gr_kmeans : nat -> list vec -> G -> res (list nat * mat * G);
  gr_mvn : vec -> mat -> nat -> G -> res (mat * G) }.
Arguments Grng {G}. Arguments gr_kmeans {G}. Arguments gr_mvn {G}.

(** _emissions.py:186-201. *)
Definition gmm_nfit (c : cfg) (nf : option nat) (p : gmmp) : res (list (ascii * Z)) :=
  match nf with
  | None => Err (AttributeError "n_features")
  | Some n =>
      let nc := Z.of_nat (c_nc c) in
      let n := Z.of_nat n in
      let nm := Z.of_nat (gm_nmix p) in
      do k <- (if String.eqb (gm_type p) "spherical" then Ok (nc * nm)%Z
               else if String.eqb (gm_type p) "diag" then Ok (nc * nm * n)%Z
               else if String.eqb (gm_type p) "full" then Ok (nc * nm * n * (n + 1) / 2)%Z
               else if String.eqb (gm_type p) "tied" then Ok (nc * n * (n + 1) / 2)%Z
               else Err KeyError);
      Ok (base_nfit (c_nc c) ++ [("m"%char, nc * nm * n); ("c"%char, k); ("w"%char, nm - 1)])%Z
  end.
Definition gmm_nfeat (c : cfg) (nf : option nat) (p : gmmp) (x : list vec) : res (option nat * gmmp) :=
  do nf' <- set_n_features nf (width x); Ok (nf', p).

Section GmmInit.
  Context {G : Type}.
  Variable gr : grng G.
  Variable rg : rng G.
  Variable fp : fpmode.

  (** A fit of KMeans with [random_state=self.random_state]. *)
  Definition kmeans (k : nat) (x : list vec) (rs : rstate G) (glob : G)
    : res (list nat * mat * rstate G * G) :=
    do g <- rs_get rg rs glob;
    do (l, m, g1) <- gr_kmeans gr k x g;
    let '(rs1, glob1) := rs_put rs glob g1 in
    Ok (l, m, rs1, glob1).

  (** [X[np.where(labels == label)]]. *)
  Definition in_cluster (labels : list nat) (x : list vec) (i : nat) : list vec :=
    map snd (filter (fun '(l, _) => Nat.eqb l i) (combine labels x)).
  (** [np.mean(centers, axis=0)]. *)
  Definition centroid (m : mat) : vec := tab (ncol m) (fun j => arr_mean fp (map (fun r => vget r j) (rows m))).

  (** hmm.py:553-569, the loop over the states: KMeans inside a cluster with
      enough samples, otherwise draws from numpy's global generator, whatever
      [random_state] is. *)
  Fixpoint mix_means (nm : nat) (labels : list nat) (x : list vec) (cent : vec) (cv : mat)
      (is : list nat) (rs : rstate G) (glob : G) : res (list mat * rstate G * G) :=
    match is with
    | [] => Ok ([], rs, glob)
    | i :: r =>
        let xc := in_cluster labels x i in
        do (m, rs1, glob1) <-
          (if Nat.leb nm (length xc)
           then do (_, m, rs1, glob1) <- kmeans nm xc rs glob; Ok (m, rs1, glob1)
           else do (m, glob1) <- gr_mvn gr cent cv nm glob; Ok (m, rs, glob1));
        do (ms, rs2, glob2) <- mix_means nm labels x cent cv r rs1 glob1;
        Ok (m :: ms, rs2, glob2)
    end.
  (** [np.stack(means)]. *)
  Definition stack (nc nm nf : nat) (ms : list mat) : nd :=
    ntab [nc; nm; nf] (fun idx => match idx with [i; k; f] => mget (nth i ms (Mat 0 [])) k f | _ => NaN end).

  (** hmm.py:577-591. *)
  Definition cov_start (ty : string) (nc nm nf : nat) (cv : mat) : option nd :=
    if String.eqb ty "tied" then
      Some (ntab [nc; nf; nf] (fun idx => match idx with [_; f; g] => mget cv f g | _ => NaN end))
    else if String.eqb ty "full" then
      Some (ntab [nc; nm; nf; nf] (fun idx => match idx with [_; _; f; g] => mget cv f g | _ => NaN end))
    else if String.eqb ty "diag" then
      Some (ntab [nc; nm; nf] (fun idx => match idx with [_; _; f] => mget cv f f | _ => NaN end))
    else if String.eqb ty "spherical" then
      Some (ntab [nc; nm] (fun _ => arr_mean fp (concat (rows cv))))
    else None.

  (** hmm.py:533-591, after [super()._init]: both KMeans stages run even when no
      parameter needs a start value. *)
  Definition gmm_init_em (c : cfg) (nfe : option nat) (p0 : gmmp) (x : list vec) (rs : rstate G) (glob : G)
    : res (gmmp * rstate G * G * list event) :=
    let nc := c_nc c in
    let nf := match nfe with Some n => n | None => 0%nat end in
    let nm := gm_nmix p0 in
    let cv := cov_template fp (gm_min_covar p0) x in
    do p <- fix_priors fp nc nf p0;
    do (labels, centers, rs1, glob1) <- kmeans nc x rs glob;
    do (ms, rs2, glob2) <- mix_means nm labels x (centroid centers) cv (seq 0 nc) rs1 glob1;
    let '(nw, ev1) := needs_init c "w" "weights_" (isSome (gm_weights p)) in
    do w <- (if (nw : bool) then
               if Nat.eqb nm 0 then Err ZeroDivisionError
               else Ok (Some (ntab [nc; nm] (fun _ => xdiv fp (Fin 1) (Fin (INR nm)))))
             else Ok (gm_weights p));
    let '(nmm, ev2) := needs_init c "m" "means_" (isSome (gm_means p)) in
    let m := if (nmm : bool) then Some (stack nc nm nf ms) else gm_means p in
    let '(ncv, ev3) := needs_init c "c" "covars_" (isSome (gm_covars p)) in
    let v := if (ncv : bool) then match cov_start (gm_type p) nc nm nf cv with Some a => Some a | None => gm_covars p end
             else gm_covars p in
    Ok (gm_set p w m v, rs2, glob2, ev1 ++ ev2 ++ ev3).
End GmmInit.
Definition gmm_initc {G} (gr : grng G) : initclass gmmp vec G :=
  InitClass width gmm_nfeat gmm_nfit (fun fp rg => gmm_init_em gr rg fp).
