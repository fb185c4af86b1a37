(** * Model of the emissions drawn by [sample] in each class, and of the choice of
    the generator (base.py:430-432). *)
From Verif Require Export Sample Init Poisson Multinomial Gmm Vcat Vgauss.

(** What the samplers ask of numpy's [RandomState] and of scipy.  Each draw
    yields a value and the next state; theorems hold for every such record.
    [s_poisson] is one draw for a rate that is not negative (numpy rejects rates
    above about 9.2e18); [s_multinomial] fails when the first probabilities sum to
    more than one. *)
Record srng (G : Type) := SRng {
  s_rand : G -> R * G;                               (* random_state.rand() *)
  s_normal : vec -> mat -> G -> res (vec * G);       (* random_state.multivariate_normal(mean, cov) *)
  s_poisson : xnum -> G -> res (Z * G);              (* one entry of random_state.poisson(lam) *)
  s_multinomial : Z -> vec -> G -> res (list Z * G)  (* random_state.multinomial(n, p) *) }.
Arguments s_rand {G}. Arguments s_normal {G}. Arguments s_poisson {G}. Arguments s_multinomial {G}.

Section Gen.
  Context {G : Type}.
  Variable fp : fpmode.
  Variable sr : srng G.

  (** One draw per entry, in order. *)
  Fixpoint draw_each {A B} (f : A -> G -> res (B * G)) (l : list A) (g : G) : res (list B * G) :=
    match l with
    | [] => Ok ([], g)
    | a :: r => do (b, g1) <- f a g; do (bs, g2) <- draw_each f r g1; Ok (b :: bs, g2)
    end.

  (** _emissions.py:409-410 [BasePoissonHMM._generate_sample_from_state]; numpy
      tests all rates before drawing. *)
  Definition pois_gen (h : hmm poisp) (state : Z) (g : G) : res (list Z * G) :=
    match po_lam (h_em h) with
    | None => Err (AttributeError "lambdas_")
    | Some m =>
        do i <- np_index (nrow m) state;
        let l := nth i (rows m) [] in
        if existsb (fun v => negb (xleb (Fin 0) v)) l then Err (ValueError "lam < 0 or lam contains NaNs")
        else draw_each (s_poisson sr) l g
    end.

  (** _emissions.py:178-181 [BaseGaussianHMM._generate_sample_from_state]. *)
  Definition gauss_gen (h : hmm gaussp) (state : Z) (g : G) : res (vec * G) :=
    match ga_means (h_em h) with
    | None => Err (AttributeError "means_")
    | Some m =>
        do i <- np_index (nrow m) state;
        do cs <- covars_get fp h;
        do j <- np_index (length cs) state;
        s_normal sr (nth i (rows m) []) (nth j cs (Mat 0 [])) g
    end.

  (** [np.unique(n_trials)]: the value if there is exactly one. *)
  Definition unique_trials (t : option trials) : option Z :=
    match t with
    | Some (TNum n) => Some n
    | Some (TArr (n :: l)) => if forallb (Z.eqb n) l then Some n else None
    | _ => None
    end.
  (** _emissions.py:363-369 [BaseMultinomialHMM._generate_sample_from_state];
      [multinomial.rvs] adjusts the last probability like [logpmf].  [n_trials] is
      not None after [_check]. *)
  Definition mult_gen (h : hmm mulp) (state : Z) (g : G) : res (list Z * G) :=
    match unique_trials (mu_trials (h_em h)) with
    | None => Err (ValueError "For sampling, a single n_trials must be given")
    | Some n =>
        match mu_prob (h_em h) with
        | None => Err (AttributeError "emissionprob_")
        | Some m => do i <- np_index (nrow m) state; s_multinomial sr n (mult_adjust fp (nth i (rows m) [])) g
        end
    end.

  (** numpy's [RandomState.choice(n, p=p)] (numpy/random/mtrand.pyx): the sum must
      be 1 up to sqrt(2^-52) (numpy uses compensated summation here); inversion of
      the normalised cumulative sum ([searchsorted(..., side='right')] on a
      non-decreasing array is the first entry above the draw). *)
  Definition np_choice (n : nat) (p : vec) (g : G) : res (nat * G) :=
    let total := xsum fp p in
    if negb (Nat.eqb (length p) n) then Err (ValueError "'a' and 'p' must have same size")
    else if xisnan total then Err (ValueError "probabilities contain NaN")
    else if existsb (fun v => xltb v (Fin 0)) p then Err (ValueError "probabilities are not non-negative")
    else if xltb (Fin (/ 2 ^ 26)) (xabs (xsub fp total (Fin 1))) then Err (ValueError "probabilities do not sum to 1")
    else
      let cdf := cumsum fp p in
      let '(u, g') := s_rand sr g in
      Ok (match argmax_bool_from 0 (map (fun c => xltb (Fin u) (xdiv fp c (last cdf NaN))) cdf) with
          | Some k => k
          | None => n
          end, g').

  (** _emissions.py:297-304: the matrices of component [k], one per state. *)
  Definition gmm_covs (h : hmm gmmp) (cv : nd) (k nf : nat) : res (list mat) :=
    let nc := c_nc (h_cfg h) in
    let ty := gm_type (h_em h) in
    if String.eqb ty "tied" then Ok (tab nc (fun i => mtab nf nf (fun a b => nget cv [i; a; b])))
    else
      let covs :=
        if String.eqb ty "full" then CV3 (tab nc (fun i => mtab nf nf (fun a b => nget cv [i; k; a; b])))
        else if String.eqb ty "diag" then CV2 (mtab nc nf (fun i f => nget cv [i; k; f]))
        else CV1 (tab nc (fun i => nget cv [i; k])) in
      fill_covars fp covs ty nc nf.
  (** _emissions.py:294-307 [BaseGMMHMM._generate_sample_from_state].  Shapes are
      those established by [_check]. *)
  Definition gmm_gen (h : hmm gmmp) (state : Z) (g : G) : res (vec * G) :=
    match gm_weights (h_em h), gm_means (h_em h), gm_covars (h_em h), h_nfeat h with
    | Some w, Some m, Some cv, Some nf =>
        do i <- np_index (c_nc (h_cfg h)) state;
        do (k, g1) <- np_choice (gm_nmix (h_em h)) (nrow2 w i (gm_nmix (h_em h))) g;
        do cs <- gmm_covs h cv k nf;
        s_normal sr (tab nf (fun f => nget m [i; k; f])) (nth i cs (Mat 0 [])) g1
    | _, _, _, _ => Err (AttributeError "weights_")
    end.
End Gen.

(** ** Which generator (base.py:430-432). *)
Section Which.
  Context {P X St G Y : Type}.
  Variable E : emclass P X St.
  Variable fp : fpmode.
  Variable rg : rng G.
  Variable gen : hmm P -> Z -> G -> res (Y * G).

  (** [sample(n_samples, random_state, currstate)] of an estimator: [arg] is the
      argument [random_state], [glob] the state of numpy's global generator.
      The estimator is checked before the generator is resolved (base.py:427-428;
      [sample] repeats this check, which then succeeds again).
      Results: samples, states; then the argument, the estimator's [random_state]
      and the global generator afterwards. *)
  Definition sample_with (e : est P G) (glob : G) (n_samples : Z) (arg : rstate G) (currstate : option Z)
    : res (list Y * list Z * (rstate G * rstate G * G)) :=
    do _ <- fitted_check E fp (e_hmm e);
    let rs := match arg with RSNone => e_rs e | _ => arg end in
    do g <- rs_get rg rs glob;
    do (ys, zs, g') <- sample E fp (r_rand rg) gen (e_hmm e) n_samples currstate g;
    let '(rs', glob') := rs_put rs glob g' in
    Ok (ys, zs, match arg with RSNone => (RSNone, rs', glob') | _ => (rs', e_rs e, glob') end).
End Which.

(** ** The variational classes inherit [sample]; [_check] is the variational one
    ([vcheck] of Vbase.v). *)
Section Vsample.
  Context {P X St G Y : Type}.
  Variable E : vclass P X St.
  Variable fp : fpmode.
  Variable rand : G -> R * G.
  Variable gen : hmm P -> Z -> G -> res (Y * G).
  Definition vsample (v : vhmm P) (n_samples : Z) (currstate : option Z) (g : G) : res (list Y * list Z * G) :=
    match h_start (v_h v) with
    | None => Err NotFittedError
    | Some _ =>
        do v' <- vcheck E fp v;
        match h_start (v_h v'), h_trans (v_h v') with
        | Some s, Some t =>
            let '(cur, g1) :=
              match currstate with
              | None => let '(u, g1) := rand g in (Z.of_nat (pick fp s u), g1)
              | Some c => (c, g)
              end in
            do (y, g2) <- gen (v_h v') cur g1;
            do (ys, zs, g3) <- sample_loop fp rand gen (v_h v') t (Z.to_nat (n_samples - 1)) cur g2;
            Ok (y :: ys, cur :: zs, g3)
        | _, _ => Err (AttributeError "transmat_")
        end
    end.
End Vsample.

(** The emission parts of the variational classes seen as the classes whose
    [_generate_sample_from_state] they inherit (vhmm.py:19, 233). *)
Definition em_as {P Q} (h : hmm P) (q : Q) : hmm Q := Hmm (h_cfg h) (h_nfeat h) (h_start h) (h_trans h) (h_mon h) q.
Definition vcat_gen {G} (fp : fpmode) (rand : G -> R * G) (h : hmm vcatp) : Z -> G -> res (nat * G) :=
  cat_gen fp rand (em_as h (Catp (Scal NaN) (vk_prob (h_em h)))).
(** [means_] is [means_posterior_] (vhmm.py:450-456). *)
Definition vg_gen {G} (fp : fpmode) (sr : srng G) (h : hmm vgp) : Z -> G -> res (vec * G) :=
  gauss_gen fp sr (em_as h (vg_gauss (h_em h))).
