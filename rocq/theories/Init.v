(** * Model of the initialisation done by [fit], of the random generators it
    draws from, of the whole of [fit], and of [aic] and [bic]. *)
From Verif Require Export Categorical Multinomial Poisson Gaussian.

(** ** Random generators. *)
(** The attribute [random_state]: None, an integer seed, a generator owned by the
    estimator, or numpy's global generator object.  [G] is the state of a
    generator. *)
Inductive rstate (G : Type) := RSNone | RSSeed (k : Z) | RSGen (g : G) | RSGlobal.
Arguments RSNone {G}. Arguments RSSeed {G}. Arguments RSGen {G}. Arguments RSGlobal {G}.

(** What the code asks of numpy's [RandomState] and of [sklearn.cluster.KMeans].
    Each draw yields a value and the next state; theorems hold for every such
    record.  [r_seed] fails for seeds outside 0 .. 2^32-1, [r_gamma] for negative
    arguments, [r_kmeans] (cluster centres) for more clusters than samples. *)
Record rng (G : Type) := Rng {
  r_seed : Z -> res G;
  r_dirichlet : vec -> G -> res (vec * G);
  r_rand : G -> R * G;
  r_gamma : xnum -> xnum -> G -> res (xnum * G);
  r_kmeans : nat -> list vec -> G -> res (mat * G) }.
Arguments Rng {G}. Arguments r_seed {G}. Arguments r_dirichlet {G}. Arguments r_rand {G}.
Arguments r_gamma {G}. Arguments r_kmeans {G}.

Section Draws.
  Context {G : Type}.
  Variable rg : rng G.

  (** [sklearn.utils.check_random_state]: the state of the generator it returns;
      [glob] is the state of numpy's global generator. *)
  Definition rs_get (rs : rstate G) (glob : G) : res G :=
    match rs with
    | RSNone | RSGlobal => Ok glob
    | RSSeed k => r_seed rg k
    | RSGen g => Ok g
    end.
  (** Generators are mutable objects: where the advanced state [g] ends up.  The
      generator built from a seed is dropped. *)
  Definition rs_put (rs : rstate G) (glob g : G) : rstate G * G :=
    match rs with
    | RSNone | RSGlobal => (rs, g)
    | RSSeed k => (rs, glob)
    | RSGen _ => (RSGen g, glob)
    end.
  (** [self.random_state = check_random_state(self.random_state)]
      (hmm.py:131, 920, 1039). *)
  Definition rs_adopt (rs : rstate G) : res (rstate G) :=
    match rs with
    | RSNone => Ok RSGlobal
    | RSSeed k => do g <- r_seed rg k; Ok (RSGen g)
    | _ => Ok rs
    end.

  (** [n] draws, in order. *)
  Fixpoint draws {A} (f : G -> res (A * G)) (n : nat) (g : G) : res (list A * G) :=
    match n with
    | 0%nat => Ok ([], g)
    | S n' => do (a, g1) <- f g; do (l, g2) <- draws f n' g1; Ok (a :: l, g2)
    end.
  (** [random_state.rand(r, c)], row by row. *)
  Definition rand_mat (r c : nat) (g : G) : res (mat * G) :=
    do (l, g') <- draws (draws (fun g => let '(u, g') := r_rand rg g in Ok (Fin u, g')) c) r g;
    Ok (Mat c l, g').
  (** [random_state.gamma(shape, scale, size=(r, c))]. *)
  Definition gamma_mat (shape scale : xnum) (r c : nat) (g : G) : res (mat * G) :=
    do (l, g') <- draws (draws (r_gamma rg shape scale) c) r g;
    Ok (Mat c l, g').
End Draws.

(** ** The base class. *)
(** base.py:523-533 [_needs_init]: the answer and the warning. *)
Definition needs_init (c : cfg) (code : ascii) (name : string) (is_set : bool) : bool * list event :=
  if has code (c_init_params c) then (true, if is_set then [WOverwrite name] else [])
  else (negb is_set, []).

Definition isSome {A} (o : option A) : bool := match o with Some _ => true | None => false end.

(** base.py:535-543 [_check_and_set_n_features] of the base class; [n] is the
    number of columns of X. *)
Definition set_n_features (nf : option nat) (n : nat) : res (option nat) :=
  match nf with
  | Some m => if Nat.eqb m n then Ok (Some m) else Err (ValueError "Unexpected number of dimensions")
  | None => Ok (Some n)
  end.

(** What a subclass adds to [_init].  [X] is one row of the feature matrix, [G]
    the generator state. *)
Record initclass (P X G : Type) := InitClass {
  ic_width : list X -> nat;                       (* X.shape[1] *)
  ic_nfeat : cfg -> option nat -> P -> list X -> res (option nat * P);
                                                  (* _check_and_set_n_features *)
  ic_nfit : cfg -> option nat -> P -> res (list (ascii * Z));
                                                  (* _get_n_fit_scalars_per_param *)
  ic_em : fpmode -> rng G -> cfg -> option nat -> P -> list X -> rstate G -> G
          -> res (P * rstate G * G * list event) }.  (* _init, after super()._init *)
Arguments InitClass {P X G}. Arguments ic_width {P X G}. Arguments ic_nfeat {P X G}.
Arguments ic_nfit {P X G}. Arguments ic_em {P X G}.

(** An estimator with its [random_state]. *)
Record est (P G : Type) := Est { e_hmm : hmm P; e_rs : rstate G }.
Arguments Est {P G}. Arguments e_hmm {P G}. Arguments e_rs {P G}.

(** [d[p]] and [sum(d[p] for p in params)]. *)
Definition dict_get (d : list (ascii * Z)) (k : ascii) : res Z :=
  match find (fun e => Ascii.eqb (fst e) k) d with Some e => Ok (snd e) | None => Err KeyError end.
Fixpoint dict_sum (d : list (ascii * Z)) (s : string) : res Z :=
  match s with
  | EmptyString => Ok 0%Z
  | String a r => do v <- dict_get d a; do w <- dict_sum d r; Ok (v + w)%Z
  end.

Section Init.
  Context {P X St G : Type}.
  Variable E : emclass P X St.
  Variable I : initclass P X G.
  Variable rg : rng G.
  Variable fp : fpmode.

  (** base.py:919-945 [BaseHMM._init]; [1. / n_components] raises for no
      components. *)
  Definition base_init (e : est P G) (glob : G) (x : list X) : res (est P G * G * list event) :=
    let h := e_hmm e in
    let c := h_cfg h in
    let nc := c_nc c in
    do (nf, p) <- ic_nfeat I c (h_nfeat h) (h_em h) x;
    if Nat.eqb nc 0 then Err ZeroDivisionError else
    let alpha := tab nc (fun _ => xdiv fp (Fin 1) (Fin (INR nc))) in
    do g <- rs_get rg (e_rs e) glob;
    let '(ns, ev1) := needs_init c "s" "startprob_" (isSome (h_start h)) in
    do (s, g1) <- (if (ns : bool) then do (v, g1) <- r_dirichlet rg alpha g; Ok (Some v, g1) else Ok (h_start h, g));
    let '(nt, ev2) := needs_init c "t" "transmat_" (isSome (h_trans h)) in
    do (t, g2) <- (if (nt : bool) then do (l, g2) <- draws (r_dirichlet rg alpha) nc g1; Ok (Some (Mat nc l), g2)
                   else Ok (h_trans h, g1));
    let '(rs, glob') := rs_put (e_rs e) glob g2 in
    do d <- ic_nfit I c nf p;
    do n <- dict_sum d (c_params c);
    let ev3 := if Z.ltb (Z.of_nat (length x * ic_width I x)) n then [WDegenerate] else [] in
    Ok (Est (Hmm c nf s t (h_mon h) p) rs, glob', ev1 ++ ev2 ++ ev3).

  (** [_init] of a subclass. *)
  Definition init (e : est P G) (glob : G) (x : list X) : res (est P G * G * list event) :=
    do (e1, glob1, ev1) <- base_init e glob x;
    let h := e_hmm e1 in
    do (p, rs, glob2, ev2) <- ic_em I fp rg (h_cfg h) (h_nfeat h) (h_em h) x (e_rs e1) glob1;
    Ok (Est (Hmm (h_cfg h) (h_nfeat h) (h_start h) (h_trans h) (h_mon h) p) rs, glob2, ev1 ++ ev2).

  (** base.py:453-501 [fit].  What an exception leaves behind: Interrupt.v. *)
  Definition fit (e : est P G) (glob : G) (x : list X) (lengths : option (list Z))
    : res (est P G * G * list event) :=
    do x <- check_array (ec_xok E) x;
    do (e1, glob1, ev1) <- init e glob x;
    do (h2, ev2) <- fit_from E fp (e_hmm e1) x lengths;
    Ok (Est h2 (e_rs e1), glob1, ev1 ++ ev2).

  (** [sum(self._get_n_fit_scalars_per_param().values())], evaluated before
      [score] (base.py:1000, 1024). *)
  Definition n_params (h : hmm P) : res Z :=
    do d <- ic_nfit I (h_cfg h) (h_nfeat h) (h_em h);
    Ok (fold_left Z.add (map snd d) 0%Z).
  (** base.py:979-1001 and 1003-1025. *)
  Definition aic (h : hmm P) (x : list X) (lengths : option (list Z)) : res xnum :=
    do k <- n_params h;
    do s <- score E fp h x lengths;
    Ok (xadd fp (xmul fp (Fin (-2)) s) (Fin (IZR (2 * k)))).
  Definition bic (h : hmm P) (x : list X) (lengths : option (list Z)) : res xnum :=
    do k <- n_params h;
    do s <- score E fp h x lengths;
    Ok (xadd fp (xmul fp (Fin (-2)) s) (xmul fp (Fin (IZR k)) (xlog fp (Fin (INR (length x)))))).
End Init.

(** The entries common to every class. *)
Definition base_nfit (nc : nat) : list (ascii * Z) :=
  [("s"%char, Z.of_nat nc - 1); ("t"%char, Z.of_nat nc * (Z.of_nat nc - 1))]%Z.

(** ** CategoricalHMM. *)
Definition zmin (x : list Z) : Z := fold_left Z.min x (hd 0%Z x).
Definition zmax (x : list Z) : Z := fold_left Z.max x (hd 0%Z x).
(** _emissions.py:53-68.  [n_features] is taken to be None or a natural number;
    float input (rejected there) is not representable. *)
Definition cat_nfeat (c : cfg) (nf : option nat) (p : catp) (x : list Z) : res (option nat * catp) :=
  if Z.ltb (zmin x) 0 then Err (ValueError "Symbols should be nonnegative")
  else match nf with
       | Some n => if Z.ltb (Z.of_nat n - 1) (zmax x) then Err (ValueError "Largest symbol") else Ok (Some n, p)
       | None => Ok (Some (Z.to_nat (zmax x + 1)), p)
       end.
(** _emissions.py:70-77; [None - 1] is a TypeError. *)
Definition cat_nfit (c : cfg) (nf : option nat) (p : catp) : res (list (ascii * Z)) :=
  match nf with
  | None => Err TypeError
  | Some n => Ok (base_nfit (c_nc c) ++ [("e"%char, Z.of_nat (c_nc c) * (Z.of_nat n - 1))%Z])
  end.
(** hmm.py:131-136. *)
Definition cat_init_em {G} (fp : fpmode) (rg : rng G) (c : cfg) (nf : option nat) (p : catp) (x : list Z)
    (rs : rstate G) (glob : G) : res (catp * rstate G * G * list event) :=
  do rs1 <- rs_adopt rg rs;
  let '(ne, ev) := needs_init c "e" "emissionprob_" (isSome (cat_prob p)) in
  if (ne : bool) then
    do g <- rs_get rg rs1 glob;
    do (m, g1) <- rand_mat rg (c_nc c) (match nf with Some n => n | None => 0%nat end) g;
    let '(rs2, glob2) := rs_put rs1 glob g1 in
    Ok (Catp (cat_prior p) (Some (normalize_rows fp m)), rs2, glob2, ev)
  else Ok (p, rs1, glob, ev).
Definition cat_initc {G} : initclass catp Z G :=
  InitClass (fun _ => 1%nat) cat_nfeat cat_nfit cat_init_em.

(** ** PoissonHMM. *)
Definition pois_nfeat (c : cfg) (nf : option nat) (p : poisp) (x : list (list Z)) : res (option nat * poisp) :=
  do nf' <- set_n_features nf (width x); Ok (nf', p).
(** _emissions.py:374-381. *)
Definition pois_nfit (c : cfg) (nf : option nat) (p : poisp) : res (list (ascii * Z)) :=
  match nf with
  | None => Err (AttributeError "n_features")
  | Some n => Ok (base_nfit (c_nc c) ++ [("l"%char, Z.of_nat (c_nc c) * Z.of_nat n)%Z])
  end.
(** [X.mean()] and [X.var()]. *)
Definition arr_mean (fp : fpmode) (v : vec) : xnum := xdiv fp (xsum fp v) (Fin (INR (length v))).
Definition arr_var (fp : fpmode) (v : vec) : xnum :=
  arr_mean fp (map (fun a => xsq fp (xsub fp a (arr_mean fp v))) v).
(** hmm.py:1039-1049. *)
Definition pois_init_em {G} (fp : fpmode) (rg : rng G) (c : cfg) (nf : option nat) (p : poisp) (x : list (list Z))
    (rs : rstate G) (glob : G) : res (poisp * rstate G * G * list event) :=
  do rs1 <- rs_adopt rg rs;
  let v := concat (map zrow x) in
  let mean := arr_mean fp v in
  let var := arr_var fp v in
  let '(nl, ev) := needs_init c "l" "lambdas_" (isSome (po_lam p)) in
  if (nl : bool) then
    do g <- rs_get rg rs1 glob;
    do (m, g1) <- gamma_mat rg (xdiv fp (xsq fp mean) var) (xdiv fp var mean)
                    (c_nc c) (match nf with Some n => n | None => 0%nat end) g;
    let '(rs2, glob2) := rs_put rs1 glob g1 in
    Ok (Poisp (po_alpha p) (po_beta p) (Some m), rs2, glob2, ev)
  else Ok (p, rs1, glob, ev).
Definition pois_initc {G} : initclass poisp (list Z) G :=
  InitClass width pois_nfeat pois_nfit pois_init_em.

(** ** MultinomialHMM. *)
(** [(X.sum(axis=1) == self.n_trials).all()]; incompatible shapes raise
    ValueError (numpy >= 1.25). *)
Definition trials_match (tr : trials) (sums : list Z) : res bool :=
  match tr with
  | TNum n => Ok (forallb (Z.eqb n) sums)
  | TArr l =>
      if Nat.eqb (length l) (length sums) then Ok (forallb (fun '(a, b) => Z.eqb a b) (combine l sums))
      else match l, sums with
           | [n], _ => Ok (forallb (Z.eqb n) sums)
           | _, [s] => Ok (forallb (Z.eqb s) l)
           | _, _ => Err (ValueError "operands could not be broadcast together")
           end
  end.
(** _emissions.py:312-324. *)
Definition mult_nfeat (c : cfg) (nf : option nat) (p : mulp) (x : list (list Z)) : res (option nat * mulp) :=
  do nf' <- set_n_features nf (width x);
  if existsb (existsb (fun k => Z.ltb k 0)) x then Err (ValueError "Symbol counts should be nonnegative integers")
  else
    let sums := map zsum x in
    match mu_trials p with
    | None => Ok (nf', Mulp (Some (TArr sums)) (mu_prob p))
    | Some tr =>
        do b <- trials_match tr sums;
        if (b : bool) then Ok (nf', p)
        else Err (ValueError "Total count for each sample should add up to the number of trials")
    end.
(** _emissions.py:326-333. *)
Definition mult_nfit (c : cfg) (nf : option nat) (p : mulp) : res (list (ascii * Z)) :=
  match nf with
  | None => Err (AttributeError "n_features")
  | Some n => Ok (base_nfit (c_nc c) ++ [("e"%char, Z.of_nat (c_nc c) * (Z.of_nat n - 1))%Z])
  end.
(** hmm.py:920-924: [_needs_init] is not used. *)
Definition mult_init_em {G} (fp : fpmode) (rg : rng G) (c : cfg) (nf : option nat) (p : mulp) (x : list (list Z))
    (rs : rstate G) (glob : G) : res (mulp * rstate G * G * list event) :=
  do rs1 <- rs_adopt rg rs;
  if has "e" (c_init_params c) then
    do g <- rs_get rg rs1 glob;
    do (m, g1) <- rand_mat rg (c_nc c) (match nf with Some n => n | None => 0%nat end) g;
    let '(rs2, glob2) := rs_put rs1 glob g1 in
    Ok (Mulp (mu_trials p) (Some (normalize_rows fp m)), rs2, glob2, [])
  else Ok (p, rs1, glob, []).
Definition mult_initc {G} : initclass mulp (list Z) G :=
  InitClass width mult_nfeat mult_nfit mult_init_em.

(** ** GaussianHMM. *)
Definition gauss_nfeat (c : cfg) (nf : option nat) (p : gaussp) (x : list vec) : res (option nat * gaussp) :=
  do nf' <- set_n_features nf (width x); Ok (nf', p).
(** _emissions.py:114-127. *)
Definition gauss_nfit (c : cfg) (nf : option nat) (p : gaussp) : res (list (ascii * Z)) :=
  match nf with
  | None => Err (AttributeError "n_features")
  | Some n =>
      let nc := Z.of_nat (c_nc c) in
      let n := Z.of_nat n in
      do k <- (if String.eqb (ga_type p) "spherical" then Ok nc
               else if String.eqb (ga_type p) "diag" then Ok (nc * n)%Z
               else if String.eqb (ga_type p) "full" then Ok (nc * n * (n + 1) / 2)%Z
               else if String.eqb (ga_type p) "tied" then Ok (n * (n + 1) / 2)%Z
               else Err KeyError);
      Ok (base_nfit (c_nc c) ++ [("m"%char, nc * n); ("c"%char, k)])%Z
  end.
(** [np.cov(X.T) + min_covar * np.eye(n)]: mean, centred products, division by
    n_samples - 1. *)
Definition np_cov (fp : fpmode) (x : list vec) : mat :=
  let n := width x in
  let avg i := arr_mean fp (map (fun r => vget r i) x) in
  mtab n n (fun i j =>
    xmul fp (xsum fp (map (fun r => xmul fp (xsub fp (vget r i) (avg i)) (xsub fp (vget r j) (avg j))) x))
            (xdiv fp (Fin 1) (Fin (INR (length x) - 1)))).
Definition cov_template (fp : fpmode) (min_covar : xnum) (x : list vec) : mat :=
  mtab (width x) (width x) (fun i j =>
    xadd fp (mget (np_cov fp x) i j) (xmul fp min_covar (if Nat.eqb i j then Fin 1 else Fin 0))).
(** _utils.py:70-86 [distribute_covar_matrix_to_match_covariance_type]. *)
Definition distribute (fp : fpmode) (cv : mat) (ty : string) (nc : nat) : res covs :=
  if String.eqb ty "spherical" then
    Ok (CV2 (mtab nc (ncol cv) (fun _ _ => xmul fp (arr_mean fp (concat (rows cv))) (Fin 1))))
  else if String.eqb ty "tied" then Ok (CV2 cv)
  else if String.eqb ty "diag" then Ok (CV2 (mtab nc (ncol cv) (fun _ j => mget cv j j)))
  else if String.eqb ty "full" then Ok (CV3 (tab nc (fun _ => cv)))
  else Err (ValueError "covariance_type").
(** hmm.py:310-322.  [hasattr(self, "covars_")] runs the getter: only an
    AttributeError counts as "not set". *)
Definition gauss_init_em {G} (fp : fpmode) (rg : rng G) (c : cfg) (nf : option nat) (p : gaussp)
    (x : list vec) (rs : rstate G) (glob : G) : res (gaussp * rstate G * G * list event) :=
  let '(nm, ev1) := needs_init c "m" "means_" (isSome (ga_means p)) in
  do (means, rs1, glob1) <-
    (if (nm : bool) then
       do g <- rs_get rg rs glob;
       do (m, g1) <- r_kmeans rg (c_nc c) x g;
       let '(rs1, glob1) := rs_put rs glob g1 in
       Ok (Some m, rs1, glob1)
     else Ok (ga_means p, rs, glob));
  do is_set <- match ga_covars p, nf with
               | Some cv, Some n => do _ <- fill_covars fp cv (ga_type p) (c_nc c) n; Ok true
               | _, _ => Ok false
               end;
  let '(ncv, ev2) := needs_init c "c" "covars_" is_set in
  if (ncv : bool) then
    do cv <- distribute fp (cov_template fp (ga_min_covar p) x) (ga_type p) (c_nc c);
    do _ <- validate_covars fp cv (ga_type p) (c_nc c);
    Ok (ga_set p means (Some cv), rs1, glob1, ev1 ++ ev2)
  else Ok (ga_set p means (ga_covars p), rs1, glob1, ev1 ++ ev2).
Definition gauss_initc {G} : initclass gaussp vec G :=
  InitClass width gauss_nfeat gauss_nfit gauss_init_em.
