(** * Properties C22, C29, C31, C42, C43, C57, C59: initialisation, refitting, validation of data, information criteria. *)
From Verif Require Import Init_thms Refit_thms Alphabet_thms Criteria_thms Total_thms Init_gmm_thms Noinit_thms.

(** CategoricalHMM: after initialisation. *)
Theorem C22_categorical {G} (rg : rng G) fp e glob x e' glob' ev :
  init cat_initc rg fp e glob x = Ok (e', glob', ev) ->
  let h := e_hmm e in let h' := e_hmm e' in let c := h_cfg h in let ip := c_init_params c in let nc := c_nc c in
  h_cfg h' = c /\ cat_prior (h_em h') = cat_prior (h_em h)
  /\ kept_or_fresh (has "s" ip) (h_start h) (h_start h') (dirichlet_draw rg fp nc)
  /\ kept_or_fresh (has "t" ip) (h_trans h) (h_trans h') (dirichlet_rows rg fp nc)
  /\ exists nf, h_nfeat h' = Some nf
     /\ kept_or_fresh (has "e" ip) (cat_prob (h_em h)) (cat_prob (h_em h')) (fun m =>
          exists u, entries nc nf (uniform_draw rg) u /\ m = normalize_rows fp u).
Proof. exact (@C22_categorical_l _ _ _ _ _ _ _ _ _). Qed.
Print Assumptions C22_categorical.

(** ... and the warnings logged by the whole of [fit]. *)
Theorem C22_categorical_warnings {G} (rg : rng G) fp e glob x ls e' glob' ev name :
  fit categorical cat_initc rg fp e glob x ls = Ok (e', glob', ev) ->
  let h := e_hmm e in let ip := c_init_params (h_cfg h) in
  (In (WOverwrite name) ev <->
     (name = "startprob_"%string /\ has "s" ip = true /\ h_start h <> None)
     \/ (name = "transmat_"%string /\ has "t" ip = true /\ h_trans h <> None)
     \/ (name = "emissionprob_"%string /\ has "e" ip = true /\ cat_prob (h_em h) <> None)).
Proof. exact (@C22_categorical_warnings_l _ _ _ _ _ _ _ _ _ _ _). Qed.
Print Assumptions C22_categorical_warnings.

Theorem C22_poisson {G} (rg : rng G) fp e glob x e' glob' ev :
  init pois_initc rg fp e glob x = Ok (e', glob', ev) ->
  let h := e_hmm e in let h' := e_hmm e' in let c := h_cfg h in let ip := c_init_params c in let nc := c_nc c in
  h_cfg h' = c /\ po_alpha (h_em h') = po_alpha (h_em h) /\ po_beta (h_em h') = po_beta (h_em h)
  /\ kept_or_fresh (has "s" ip) (h_start h) (h_start h') (dirichlet_draw rg fp nc)
  /\ kept_or_fresh (has "t" ip) (h_trans h) (h_trans h') (dirichlet_rows rg fp nc)
  /\ kept_or_fresh (has "l" ip) (po_lam (h_em h)) (po_lam (h_em h')) (fun m =>
       let v := concat (map zrow x) in
       entries nc (width x) (fun a => exists g g',
         r_gamma rg (xdiv fp (xsq fp (arr_mean fp v)) (arr_var fp v)) (xdiv fp (arr_var fp v) (arr_mean fp v)) g = Ok (a, g')) m).
Proof. exact (@C22_poisson_l _ _ _ _ _ _ _ _ _). Qed.
Print Assumptions C22_poisson.

Theorem C22_poisson_warnings {G} (rg : rng G) fp e glob x ls e' glob' ev name :
  fit poisson pois_initc rg fp e glob x ls = Ok (e', glob', ev) ->
  let h := e_hmm e in let ip := c_init_params (h_cfg h) in
  (In (WOverwrite name) ev <->
     (name = "startprob_"%string /\ has "s" ip = true /\ h_start h <> None)
     \/ (name = "transmat_"%string /\ has "t" ip = true /\ h_trans h <> None)
     \/ (name = "lambdas_"%string /\ has "l" ip = true /\ po_lam (h_em h) <> None)).
Proof. exact (@C22_poisson_warnings_l _ _ _ _ _ _ _ _ _ _ _). Qed.
Print Assumptions C22_poisson_warnings.

Theorem C22_gaussian {G} (rg : rng G) fp e glob x e' glob' ev :
  init gauss_initc rg fp e glob x = Ok (e', glob', ev) ->
  let h := e_hmm e in let h' := e_hmm e' in let c := h_cfg h in let ip := c_init_params c in let nc := c_nc c in
  h_cfg h' = c /\ ga_type (h_em h') = ga_type (h_em h)
  /\ kept_or_fresh (has "s" ip) (h_start h) (h_start h') (dirichlet_draw rg fp nc)
  /\ kept_or_fresh (has "t" ip) (h_trans h) (h_trans h') (dirichlet_rows rg fp nc)
  /\ kept_or_fresh (has "m" ip) (ga_means (h_em h)) (ga_means (h_em h')) (fun m =>
       exists g g', r_kmeans rg nc x g = Ok (m, g'))
  /\ kept_or_fresh (has "c" ip) (ga_covars (h_em h)) (ga_covars (h_em h')) (fun cv =>
       distribute fp (cov_template fp (ga_min_covar (h_em h)) x) (ga_type (h_em h)) nc = Ok cv).
Proof. exact (@C22_gaussian_l _ _ _ _ _ _ _ _ _). Qed.
Print Assumptions C22_gaussian.

Theorem C22_gaussian_warnings {G} (rg : rng G) fp e glob x ls e' glob' ev name :
  fit gaussian gauss_initc rg fp e glob x ls = Ok (e', glob', ev) ->
  let h := e_hmm e in let ip := c_init_params (h_cfg h) in
  (In (WOverwrite name) ev <->
     (name = "startprob_"%string /\ has "s" ip = true /\ h_start h <> None)
     \/ (name = "transmat_"%string /\ has "t" ip = true /\ h_trans h <> None)
     \/ (name = "means_"%string /\ has "m" ip = true /\ ga_means (h_em h) <> None)
     \/ (name = "covars_"%string /\ has "c" ip = true /\ ga_covars (h_em h) <> None)).
Proof. exact (@C22_gaussian_warnings_l _ _ _ _ _ _ _ _ _ _ _). Qed.
Print Assumptions C22_gaussian_warnings.

Theorem C22_multinomial_partial {G} (rg : rng G) fp e glob x e' glob' ev :
  init mult_initc rg fp e glob x = Ok (e', glob', ev) ->
  let h := e_hmm e in let h' := e_hmm e' in let c := h_cfg h in let ip := c_init_params c in let nc := c_nc c in
  h_cfg h' = c
  /\ kept_or_fresh (has "s" ip) (h_start h) (h_start h') (dirichlet_draw rg fp nc)
  /\ kept_or_fresh (has "t" ip) (h_trans h) (h_trans h') (dirichlet_rows rg fp nc)
  /\ (has "e" ip = true -> exists m u, mu_prob (h_em h') = Some m /\ entries nc (width x) (uniform_draw rg) u /\ m = normalize_rows fp u)
  /\ (has "e" ip = false -> mu_prob (h_em h') = mu_prob (h_em h)).
Proof. exact (@C22_multinomial_partial_l _ _ _ _ _ _ _ _ _). Qed.
Print Assumptions C22_multinomial_partial.

Theorem C22_multinomial_warnings_partial {G} (rg : rng G) fp e glob x ls e' glob' ev name :
  fit multinomial mult_initc rg fp e glob x ls = Ok (e', glob', ev) ->
  let h := e_hmm e in let ip := c_init_params (h_cfg h) in
  (In (WOverwrite name) ev <->
     (name = "startprob_"%string /\ has "s" ip = true /\ h_start h <> None)
     \/ (name = "transmat_"%string /\ has "t" ip = true /\ h_trans h <> None)).
Proof. exact (@C22_multinomial_warnings_partial_l _ _ _ _ _ _ _ _ _ _ _). Qed.
Print Assumptions C22_multinomial_warnings_partial.

(** ** True for GaussianHMM. *)
Theorem C29_gaussian {G} (rg : rng G) fp e k glob x ls e1 glob1 ev1 glob2 e2 glob3 ev2 :
  let ip := c_init_params (h_cfg (e_hmm e)) in
  e_rs e = RSSeed k ->
  has "s" ip = true -> has "t" ip = true -> has "m" ip = true -> has "c" ip = true ->
  fit gaussian gauss_initc rg fp e glob x ls = Ok (e1, glob1, ev1) ->
  fit gaussian gauss_initc rg fp e1 glob2 x ls = Ok (e2, glob3, ev2) ->
  (exists ea eb ga gb va vb, init gauss_initc rg fp e glob x = Ok (ea, ga, va)
     /\ init gauss_initc rg fp e1 glob2 x = Ok (eb, gb, vb) /\ same_model (e_hmm ea) (e_hmm eb))
  /\ e2 = e1.
Proof. exact (@C29_gaussian_l _ _ _ _ _ _ _ _ _ _ _ _ _ _ _). Qed.
Print Assumptions C29_gaussian.

(** ** The other classes: true when the seed is assigned again before the second
    [fit]. *)
Theorem C29_categorical_reseeded_partial {G} (rg : rng G) fp e k glob x ls e1 glob1 ev1 glob2 e2 glob3 ev2 :
  let ip := c_init_params (h_cfg (e_hmm e)) in
  e_rs e = RSSeed k -> has "s" ip = true -> has "t" ip = true -> has "e" ip = true ->
  fit categorical cat_initc rg fp e glob x ls = Ok (e1, glob1, ev1) ->
  let e1' := Est (e_hmm e1) (RSSeed k) in
  fit categorical cat_initc rg fp e1' glob2 x ls = Ok (e2, glob3, ev2) ->
  (exists ea eb ga gb va vb, init cat_initc rg fp e glob x = Ok (ea, ga, va)
     /\ init cat_initc rg fp e1' glob2 x = Ok (eb, gb, vb) /\ same_model (e_hmm ea) (e_hmm eb))
  /\ e2 = e1.
Proof. exact (@C29_categorical_reseeded_partial_l _ _ _ _ _ _ _ _ _ _ _ _ _ _ _). Qed.
Print Assumptions C29_categorical_reseeded_partial.

Theorem C29_poisson_reseeded_partial {G} (rg : rng G) fp e k glob x ls e1 glob1 ev1 glob2 e2 glob3 ev2 :
  let ip := c_init_params (h_cfg (e_hmm e)) in
  e_rs e = RSSeed k -> has "s" ip = true -> has "t" ip = true -> has "l" ip = true ->
  fit poisson pois_initc rg fp e glob x ls = Ok (e1, glob1, ev1) ->
  let e1' := Est (e_hmm e1) (RSSeed k) in
  fit poisson pois_initc rg fp e1' glob2 x ls = Ok (e2, glob3, ev2) ->
  (exists ea eb ga gb va vb, init pois_initc rg fp e glob x = Ok (ea, ga, va)
     /\ init pois_initc rg fp e1' glob2 x = Ok (eb, gb, vb) /\ same_model (e_hmm ea) (e_hmm eb))
  /\ e2 = e1.
Proof. exact (@C29_poisson_reseeded_partial_l _ _ _ _ _ _ _ _ _ _ _ _ _ _ _). Qed.
Print Assumptions C29_poisson_reseeded_partial.

Theorem C29_multinomial_reseeded_partial {G} (rg : rng G) fp e k glob x ls e1 glob1 ev1 glob2 e2 glob3 ev2 :
  let ip := c_init_params (h_cfg (e_hmm e)) in
  e_rs e = RSSeed k -> has "s" ip = true -> has "t" ip = true -> has "e" ip = true ->
  fit multinomial mult_initc rg fp e glob x ls = Ok (e1, glob1, ev1) ->
  let e1' := Est (e_hmm e1) (RSSeed k) in
  fit multinomial mult_initc rg fp e1' glob2 x ls = Ok (e2, glob3, ev2) ->
  (exists ea eb ga gb va vb, init mult_initc rg fp e glob x = Ok (ea, ga, va)
     /\ init mult_initc rg fp e1' glob2 x = Ok (eb, gb, vb) /\ same_model (e_hmm ea) (e_hmm eb))
  /\ e2 = e1.
Proof. exact (@C29_multinomial_reseeded_partial_l _ _ _ _ _ _ _ _ _ _ _ _ _ _ _). Qed.
Print Assumptions C29_multinomial_reseeded_partial.

Theorem C29_second_start {G} (rg : rng G) fp :
  second_start_drawn categorical cat_initc rg fp (rand_advance rg "e")
  /\ second_start_drawn multinomial mult_initc rg fp (rand_advance rg "e")
  /\ second_start_drawn poisson pois_initc rg fp (gamma_advance rg).
Proof. exact (@C29_second_start_l _ _ _). Qed.
Print Assumptions C29_second_start.

Theorem C29_categorical_refuted : exists (e : est catp nat) k x,
  sane_rng toy_rng /\ e_rs e = RSSeed k
  /\ (forall a, In a ["s"; "t"; "e"]%char -> has a (c_init_params (h_cfg (e_hmm e))) = true)
  /\ refit_differs categorical cat_initc toy_rng e 0%nat x.
Proof. exact (@C29_categorical_refuted_l). Qed.
Print Assumptions C29_categorical_refuted.

Theorem C29_multinomial_refuted : exists (e : est mulp nat) k x,
  sane_rng toy_rng /\ e_rs e = RSSeed k
  /\ (forall a, In a ["s"; "t"; "e"]%char -> has a (c_init_params (h_cfg (e_hmm e))) = true)
  /\ refit_differs multinomial mult_initc toy_rng e 0%nat x.
Proof. exact (@C29_multinomial_refuted_l). Qed.
Print Assumptions C29_multinomial_refuted.

Theorem C29_poisson_refuted : exists (e : est poisp nat) k x,
  sane_rng toy_rng /\ e_rs e = RSSeed k
  /\ (forall a, In a ["s"; "t"; "l"]%char -> has a (c_init_params (h_cfg (e_hmm e))) = true)
  /\ refit_differs poisson pois_initc toy_rng e 0%nat x.
Proof. exact (@C29_poisson_refuted_l). Qed.
Print Assumptions C29_poisson_refuted.

(** ** C22 fails for MultinomialHMM: a set emissionprob_ is overwritten without a
    warning, and an unset one is not initialised when its letter is not listed,
    so that [fit] fails. *)
Theorem C22_multinomial_refuted :
  (exists (e : est mulp nat) x e1 glob1 ev m, sane_rng toy_rng
     /\ mu_prob (h_em (e_hmm e)) = Some m
     /\ fit multinomial mult_initc toy_rng exact e 0%nat x None = Ok (e1, glob1, ev)
     /\ mu_prob (h_em (e_hmm e1)) <> Some m /\ forall name, ~ In (WOverwrite name) ev)
  /\ (exists (e : est mulp nat) x, sane_rng toy_rng /\ mu_prob (h_em (e_hmm e)) = None
     /\ fit multinomial mult_initc toy_rng exact e 0%nat x None = Err (AttributeError "emissionprob_")).
Proof. exact (@C22_multinomial_refuted_l). Qed.
Print Assumptions C22_multinomial_refuted.

(** Whatever the generator and the arithmetic: the first [fit] stores one more
    than the largest symbol, later ones keep the stored number; no symbol is
    negative or too large. *)
Theorem C31_alphabet {G} (rg : rng G) fp e glob x ls e' glob' ev :
  fit categorical cat_initc rg fp e glob x ls = Ok (e', glob', ev) ->
  exists n, h_nfeat (e_hmm e') = Some n
    /\ (forall k, In k x -> (0 <= k < Z.of_nat n)%Z)
    /\ match h_nfeat (e_hmm e) with
       | None => In (Z.of_nat n - 1)%Z x
       | Some n0 => n = n0
       end.
Proof. exact (@C31_alphabet_l _ _ _ _ _ _ _ _ _ _). Qed.
Print Assumptions C31_alphabet.

Theorem C31_first_fit {G} (rg : rng G) e glob x ls :
  sane_rng rg -> let r := fit categorical cat_initc rg exact e glob x ls in
  h_nfeat (e_hmm e) = None -> x <> [] ->
  (forall n, In (Z.of_nat n - 1)%Z x -> (forall k, In k x -> (k < Z.of_nat n)%Z) -> cat_usable rg e x ls n) ->
  (value_error r <-> exists k, In k x /\ (k < 0)%Z)
  /\ ((forall k, In k x -> (0 <= k)%Z) -> returns r).
Proof. exact (@C31_first_fit_l _ _ _ _ _ _). Qed.
Print Assumptions C31_first_fit.

Theorem C31_later_fit {G} (rg : rng G) e glob x ls n :
  sane_rng rg -> let r := fit categorical cat_initc rg exact e glob x ls in
  h_nfeat (e_hmm e) = Some n -> cat_usable rg e x ls n ->
  (value_error r <-> exists k, In k x /\ (k < 0 \/ Z.of_nat n <= k)%Z)
  /\ ((forall k, In k x -> (0 <= k < Z.of_nat n)%Z) -> returns r).
Proof. exact (@C31_later_fit_l _ _ _ _ _ _ _). Qed.
Print Assumptions C31_later_fit.

Example C31_applies : (forall n, cat_usable toy_rng toy_cat [2; 0; 1]%Z None n)
  /\ (exists e1 g1 ev, fit categorical cat_initc toy_rng exact toy_cat 0%nat [2; 0; 1]%Z None = Ok (e1, g1, ev)
      /\ h_nfeat (e_hmm e1) = Some 3%nat /\ cat_usable toy_rng e1 [3]%Z None 3
      /\ value_error (fit categorical cat_initc toy_rng exact e1 g1 [3]%Z None)).
Proof. exact (@C31_applies_l). Qed.

Theorem C42_trials_validated {G} (rg : rng G) e glob x ls n tr :
  sane_rng rg -> let r := fit multinomial mult_initc rg exact e glob x ls in
  mult_usable rg e x ls n -> mu_trials (h_em (e_hmm e)) = Some tr -> trials_fit tr x ->
  (value_error r <-> has_negative x \/ totals_differ tr x)
  /\ (~ has_negative x -> ~ totals_differ tr x -> returns r).
Proof. exact (@C42_trials_validated_l _ _ _ _ _ _ _ _). Qed.
Print Assumptions C42_trials_validated.

(** n_trials not given: only negative counts are rejected by the first [fit], which
    stores the row totals. *)
Theorem C42_trials_inferred {G} (rg : rng G) e glob x ls n :
  sane_rng rg -> let r := fit multinomial mult_initc rg exact e glob x ls in
  mult_usable rg e x ls n -> mu_trials (h_em (e_hmm e)) = None ->
  (value_error r <-> has_negative x)
  /\ (~ has_negative x -> exists e' glob' ev, r = Ok (e', glob', ev) /\ mu_trials (h_em (e_hmm e')) = Some (TArr (map zsum x))).
Proof. exact (@C42_trials_inferred_l _ _ _ _ _ _ _). Qed.
Print Assumptions C42_trials_inferred.

(** ... so that a later [fit] on other data is rejected although no n_trials was
    given. *)
Theorem C42_trials_remembered_refuted : exists (e : est mulp nat) x y e1 g1 ev,
  sane_rng toy_rng /\ mu_trials (h_em (e_hmm e)) = None /\ ~ has_negative x /\ ~ has_negative y
  /\ fit multinomial mult_initc toy_rng exact e 0%nat x None = Ok (e1, g1, ev)
  /\ mult_usable toy_rng e1 y None 2
  /\ value_error (fit multinomial mult_initc toy_rng exact e1 g1 y None).
Proof. exact (@C42_trials_remembered_refuted_l). Qed.
Print Assumptions C42_trials_remembered_refuted.

(** A probability vector is determined by all its entries but the last, and these
    can be chosen freely in an open set. *)
Theorem C43_simplex_dim n : (0 < n)%nat ->
  (forall p q, sumn n p = 1 -> sumn n q = 1 -> (forall i, (i < simplex_dim n)%nat -> p i = q i) ->
     forall i, (i < n)%nat -> p i = q i)
  /\ (forall w, (forall i, (i < simplex_dim n)%nat -> 0 < w i) -> sumn (simplex_dim n) w < 1 ->
      exists p, sumn n p = 1 /\ (forall i, (i < n)%nat -> 0 < p i)
        /\ forall i, (i < simplex_dim n)%nat -> p i = w i).
Proof. exact (@C43_simplex_dim_l _). Qed.
Print Assumptions C43_simplex_dim.

(** A symmetric matrix is determined by the entries on and below the diagonal,
    which are free. *)
Theorem C43_symmetric_dim n :
  (2 * symmetric_dim n = n * (n + 1))%nat
  /\ (forall a b : nat -> nat -> R, (forall i j, a i j = a j i) -> (forall i j, b i j = b j i) ->
       (forall i j, (j <= i)%nat -> a i j = b i j) -> forall i j, a i j = b i j)
  /\ (forall w : nat -> nat -> R, exists a : nat -> nat -> R, (forall i j, a i j = a j i) /\ forall i j, (j <= i)%nat -> a i j = w i j).
Proof. exact (@C43_symmetric_dim_l _). Qed.
Print Assumptions C43_symmetric_dim.

Theorem C43_categorical {G} (h : hmm catp) nc nf : c_nc (h_cfg h) = nc -> h_nfeat h = Some nf -> (0 < nc)%nat -> (0 < nf)%nat ->
  criteria categorical (@cat_initc G) h (base_dim nc + nc * simplex_dim nf).
Proof. exact (@C43_categorical_l _ _ _ _). Qed.
Print Assumptions C43_categorical.

Theorem C43_multinomial {G} (h : hmm mulp) nc nf : c_nc (h_cfg h) = nc -> h_nfeat h = Some nf -> (0 < nc)%nat -> (0 < nf)%nat ->
  criteria multinomial (@mult_initc G) h (base_dim nc + nc * simplex_dim nf).
Proof. exact (@C43_multinomial_l _ _ _ _). Qed.
Print Assumptions C43_multinomial.

Theorem C43_poisson {G} (h : hmm poisp) nc nf : c_nc (h_cfg h) = nc -> h_nfeat h = Some nf -> (0 < nc)%nat ->
  criteria poisson (@pois_initc G) h (base_dim nc + nc * nf).
Proof. exact (@C43_poisson_l _ _ _ _). Qed.
Print Assumptions C43_poisson.

Theorem C43_gaussian {G} (h : hmm gaussp) nc nf : c_nc (h_cfg h) = nc -> h_nfeat h = Some nf -> (0 < nc)%nat ->
  is_type covariance_types (ga_type (h_em h)) = true ->
  criteria gaussian (@gauss_initc G) h (base_dim nc + nc * nf + covars_dim (ga_type (h_em h)) nc nf).
Proof. exact (@C43_gaussian_l _ _ _ _). Qed.
Print Assumptions C43_gaussian.

(** Parameters assigned by hand, n_features not stored yet: [score] works, the
    criteria do not. *)
Theorem C43_unset_n_features_refuted : exists (h : hmm catp) x s,
  score categorical exact h x None = Ok (Fin s)
  /\ aic categorical (@cat_initc nat) exact h x None = Err TypeError
  /\ bic categorical (@cat_initc nat) exact h x None = Err TypeError.
Proof. exact (@C43_unset_n_features_refuted_l). Qed.
Print Assumptions C43_unset_n_features_refuted.

(** A concrete model: 2 states, 3 symbols, 7 free parameters. *)
Example C43_applies : exists h : hmm catp,
  aic categorical (@cat_initc nat) exact h ex_x None = Ok (Fin (-2 * ln (3 / 128) + 2 * 7)).
Proof. exact (@C43_applies_l). Qed.

Theorem C57_categorical fp h h1 n x ls :
  check categorical fp h = Ok h1 -> h_nfeat h1 = Some n -> c_impl (h_cfg h) = "log"%string ->
  x <> [] -> (forall k, In k x -> (0 <= k < Z.of_nat n)%Z) -> lengths_ok ls x ->
  returns (fit_from categorical fp h x ls).
Proof. exact (@C57_categorical_l _ _ _ _ _ _). Qed.
Print Assumptions C57_categorical.

Theorem C57_poisson fp h h1 n x ls :
  check poisson fp h = Ok h1 -> h_nfeat h1 = Some n -> c_impl (h_cfg h) = "log"%string ->
  x <> [] -> (forall r, In r x -> length r = n) -> lengths_ok ls x ->
  returns (fit_from poisson fp h x ls).
Proof. exact (@C57_poisson_l _ _ _ _ _ _). Qed.
Print Assumptions C57_poisson.

Theorem C57_multinomial fp h h1 n x ls :
  check multinomial fp h = Ok h1 -> h_nfeat h1 = Some n -> c_impl (h_cfg h) = "log"%string ->
  x <> [] -> (forall r, In r x -> length r = n) -> lengths_ok ls x ->
  returns (fit_from multinomial fp h x ls).
Proof. exact (@C57_multinomial_l _ _ _ _ _ _). Qed.
Print Assumptions C57_multinomial.

Example C57_applies : returns (fit_from categorical exact (ex_h "log" "map") ex_x None).
Proof. exact (@C57_applies_l). Qed.

(** What the class counts: the weights of one state only. *)
Theorem C43_gmm_count {G} (gr : grng G) eig (h : hmm gmmp) nc nm nf : c_nc (h_cfg h) = nc -> gm_nmix (h_em h) = nm ->
  h_nfeat h = Some nf -> (0 < nc)%nat -> (0 < nm)%nat -> is_type covariance_types (gm_type (h_em h)) = true ->
  criteria (gmm eig) (gmm_initc gr) h
    (base_dim nc + nc * nm * nf + mix_covars_dim (gm_type (h_em h)) nc nm nf + simplex_dim nm).
Proof. exact (@C43_gmm_count_l _ _ _ _ _ _ _). Qed.
Print Assumptions C43_gmm_count.

(** Right for a single state or a single component. *)
Theorem C43_gmm_partial {G} (gr : grng G) eig (h : hmm gmmp) nc nm nf : c_nc (h_cfg h) = nc -> gm_nmix (h_em h) = nm ->
  h_nfeat h = Some nf -> (0 < nc)%nat -> (0 < nm)%nat -> is_type covariance_types (gm_type (h_em h)) = true ->
  nc = 1%nat \/ nm = 1%nat ->
  criteria (gmm eig) (gmm_initc gr) h (gmm_dim (gm_type (h_em h)) nc nm nf).
Proof. exact (@C43_gmm_partial_l _ _ _ _ _ _ _). Qed.
Print Assumptions C43_gmm_partial.

Theorem C22_gmm {G} (gr : grng G) (rg : rng G) fp e glob x e' glob' ev :
  init (gmm_initc gr) rg fp e glob x = Ok (e', glob', ev) ->
  let h := e_hmm e in let h' := e_hmm e' in let c := h_cfg h in let ip := c_init_params c in let nc := c_nc c in
  h_cfg h' = c /\ keeps_args (h_em h) (h_em h')
  /\ kept_or_fresh (has "s" ip) (h_start h) (h_start h') (dirichlet_draw rg fp nc)
  /\ kept_or_fresh (has "t" ip) (h_trans h) (h_trans h') (dirichlet_rows rg fp nc)
  /\ kept_or_fresh (has "w" ip) (gm_weights (h_em h)) (gm_weights (h_em h')) (fun a =>
       (0 < gm_nmix (h_em h))%nat
       /\ a = ntab [nc; gm_nmix (h_em h)] (fun _ => xdiv fp (Fin 1) (Fin (INR (gm_nmix (h_em h))))))
  /\ kept_or_fresh (has "m" ip) (gm_means (h_em h)) (gm_means (h_em h')) (fresh_means gr fp (h_em h) nc x)
  /\ kept_or_fresh (has "c" ip) (gm_covars (h_em h)) (gm_covars (h_em h')) (fresh_covars fp (h_em h) nc x).
Proof. exact (@C22_gmm_l _ _ _ _ _ _ _ _ _ _). Qed.
Print Assumptions C22_gmm.

Theorem C22_gmm_warnings {G} (gr : grng G) (rg : rng G) eig fp e glob x ls e' glob' ev name :
  fit (gmm eig) (gmm_initc gr) rg fp e glob x ls = Ok (e', glob', ev) ->
  let h := e_hmm e in let ip := c_init_params (h_cfg h) in
  (In (WOverwrite name) ev <->
     (name = "startprob_"%string /\ has "s" ip = true /\ h_start h <> None)
     \/ (name = "transmat_"%string /\ has "t" ip = true /\ h_trans h <> None)
     \/ (name = "weights_"%string /\ has "w" ip = true /\ gm_weights (h_em h) <> None)
     \/ (name = "means_"%string /\ has "m" ip = true /\ gm_means (h_em h) <> None)
     \/ (name = "covars_"%string /\ has "c" ip = true /\ gm_covars (h_em h) <> None)).
Proof. exact (@C22_gmm_warnings_l _ _ _ _ _ _ _ _ _ _ _ _ _). Qed.
Print Assumptions C22_gmm_warnings.

Theorem C43_gmm_refuted : exists (h : hmm gmmp) x s,
  c_nc (h_cfg h) = 2%nat /\ gm_nmix (h_em h) = 2%nat /\ h_nfeat h = Some 1%nat /\ gm_type (h_em h) = "diag"%string
  /\ score (gmm eig1) exact h x None = Ok (Fin s)
  /\ gmm_dim "diag" 2 2 1 = 13%nat
  /\ forall G (gr : grng G),
     aic (gmm eig1) (gmm_initc gr) exact h x None = Ok (Fin (-2 * s + 2 * 12))
     /\ bic (gmm eig1) (gmm_initc gr) exact h x None = Ok (Fin (-2 * s + 12 * ln (INR (length x)))).
Proof. exact (@C43_gmm_refuted_l). Qed.
Print Assumptions C43_gmm_refuted.

Theorem C29_gmm_refuted : exists (gr : grng nat) (e : est gmmp nat) k x e1 glob1 ev1 e2 glob2 ev2 ea ga va eb gb vb,
  sane_rng toy_rng /\ e_rs e = RSSeed k
  /\ (forall a, In a ["s"; "t"; "m"; "c"; "w"]%char -> has a (c_init_params (h_cfg (e_hmm e))) = true)
  /\ fit (gmm eig1) (gmm_initc gr) toy_rng exact e 0%nat x None = Ok (e1, glob1, ev1)
  /\ fit (gmm eig1) (gmm_initc gr) toy_rng exact e1 glob1 x None = Ok (e2, glob2, ev2)
  /\ init (gmm_initc gr) toy_rng exact e 0%nat x = Ok (ea, ga, va)
  /\ init (gmm_initc gr) toy_rng exact e1 glob1 x = Ok (eb, gb, vb)
  /\ gm_means (h_em (e_hmm ea)) <> gm_means (h_em (e_hmm eb)).
Proof. exact (@C29_gmm_refuted_l). Qed.
Print Assumptions C29_gmm_refuted.

Theorem C29_gmm_partial {G} (gr : grng G) (rg : rng G) eig fp e k glob x ls e1 glob1 ev1 glob2 eb gb vb :
  let c := h_cfg (e_hmm e) in let ip := c_init_params c in
  e_rs e = RSSeed k ->
  has "s" ip = true -> has "t" ip = true -> has "m" ip = true -> has "c" ip = true -> has "w" ip = true ->
  big_clusters gr rg k (c_nc c) (gm_nmix (h_em (e_hmm e))) x ->
  fit (gmm eig) (gmm_initc gr) rg fp e glob x ls = Ok (e1, glob1, ev1) ->
  init (gmm_initc gr) rg fp e1 glob2 x = Ok (eb, gb, vb) ->
  exists ea ga va, init (gmm_initc gr) rg fp e glob x = Ok (ea, ga, va)
    /\ h_start (e_hmm eb) = h_start (e_hmm ea) /\ h_trans (e_hmm eb) = h_trans (e_hmm ea)
    /\ gm_weights (h_em (e_hmm eb)) = gm_weights (h_em (e_hmm ea))
    /\ gm_means (h_em (e_hmm eb)) = gm_means (h_em (e_hmm ea))
    /\ gm_covars (h_em (e_hmm eb)) = gm_covars (h_em (e_hmm ea))
    /\ ga = glob /\ gb = glob2.
Proof. exact (@C29_gmm_partial_l _ _ _ _ _ _ _ _ _ _ _ _ _ _ _ _ _). Qed.
Print Assumptions C29_gmm_partial.

Example C29_gmm_applies : exists e1 glob1 ev1 eb gb vb,
  big_clusters toy_grng toy_rng 0 1 2 gx_x
  /\ fit (gmm eig1) (gmm_initc toy_grng) toy_rng exact (gx 2) 0%nat gx_x None = Ok (e1, glob1, ev1)
  /\ init (gmm_initc toy_grng) toy_rng exact e1 7%nat gx_x = Ok (eb, gb, vb)
  /\ gm_means (h_em (e_hmm eb)) = Some (nd3 1 2 1 (cmu 0)).
Proof. exact (@C29_gmm_applies_l). Qed.

(** CategoricalHMM. *)
Theorem C59_categorical {G G'} (rg : rng G) (rg' : rng G') fp (h : hmm catp) x ls rs rs' glob glob' :
  no_init h ["e"]%char -> cat_prob (h_em h) <> None -> valid_rs rg rs -> valid_rs rg' rs' ->
  same_fit (fit categorical cat_initc rg fp (Est h rs) glob x ls) glob
           (fit categorical cat_initc rg' fp (Est h rs') glob' x ls) glob'.
Proof. exact (@C59_categorical_l _ _ _ _ _ _ _ _ _ _ _ _). Qed.
Print Assumptions C59_categorical.

(** PoissonHMM. *)
Theorem C59_poisson {G G'} (rg : rng G) (rg' : rng G') fp (h : hmm poisp) x ls rs rs' glob glob' :
  no_init h ["l"]%char -> po_lam (h_em h) <> None -> valid_rs rg rs -> valid_rs rg' rs' ->
  same_fit (fit poisson pois_initc rg fp (Est h rs) glob x ls) glob
           (fit poisson pois_initc rg' fp (Est h rs') glob' x ls) glob'.
Proof. exact (@C59_poisson_l _ _ _ _ _ _ _ _ _ _ _ _). Qed.
Print Assumptions C59_poisson.

(** MultinomialHMM. *)
Theorem C59_multinomial {G G'} (rg : rng G) (rg' : rng G') fp (h : hmm mulp) x ls rs rs' glob glob' :
  no_init h ["e"]%char -> valid_rs rg rs -> valid_rs rg' rs' ->
  same_fit (fit multinomial mult_initc rg fp (Est h rs) glob x ls) glob
           (fit multinomial mult_initc rg' fp (Est h rs') glob' x ls) glob'.
Proof. exact (@C59_multinomial_l _ _ _ _ _ _ _ _ _ _ _ _). Qed.
Print Assumptions C59_multinomial.

(** GaussianHMM, every covariance type. *)
Theorem C59_gaussian {G G'} (rg : rng G) (rg' : rng G') fp (h : hmm gaussp) x ls rs rs' glob glob' :
  no_init h ["m"; "c"]%char -> ga_means (h_em h) <> None -> ga_covars (h_em h) <> None ->
  valid_rs rg rs -> valid_rs rg' rs' ->
  same_fit (fit gaussian gauss_initc rg fp (Est h rs) glob x ls) glob
           (fit gaussian gauss_initc rg' fp (Est h rs') glob' x ls) glob'.
Proof. exact (@C59_gaussian_l _ _ _ _ _ _ _ _ _ _ _ _). Qed.
Print Assumptions C59_gaussian.

(** GMMHMM: the trained model does not depend on the generators when both runs
    succeed, but they are used and may make fit fail. *)
Theorem C59_gmm_partial {G G'} (gr : grng G) (gr' : grng G') (rg : rng G) (rg' : rng G') eig fp (h : hmm gmmp) x ls
    rs rs' glob glob' e1 g1 v1 e2 g2 v2 :
  no_init h ["m"; "c"; "w"]%char ->
  gm_weights (h_em h) <> None -> gm_means (h_em h) <> None -> gm_covars (h_em h) <> None ->
  fit (gmm eig) (gmm_initc gr) rg fp (Est h rs) glob x ls = Ok (e1, g1, v1) ->
  fit (gmm eig) (gmm_initc gr') rg' fp (Est h rs') glob' x ls = Ok (e2, g2, v2) ->
  e_hmm e1 = e_hmm e2 /\ v1 = v2.
Proof. exact (@C59_gmm_partial_l _ _ _ _ _ _ _ _ _ _ _ _ _ _ _ _ _ _ _ _ _). Qed.
Print Assumptions C59_gmm_partial.

(** Two states, one sample: the model scores the data, but fit clusters the data
    and KMeans refuses. *)
Theorem C59_gmm_refuted : exists (h : hmm gmmp) x s,
  c_init_params (h_cfg h) = EmptyString /\ no_init h ["m"; "c"; "w"]%char
  /\ gm_weights (h_em h) <> None /\ gm_means (h_em h) <> None /\ gm_covars (h_em h) <> None
  /\ score (gmm eig1) exact h x None = Ok (Fin s)
  /\ forall G (gr : grng G) (rg : rng G) rs glob,
     (forall k y g, (length y < k)%nat -> exists w, gr_kmeans gr k y g = Err (ValueError w)) -> valid_rs rg rs ->
     exists w, fit (gmm eig1) (gmm_initc gr) rg exact (Est h rs) glob x None = Err (ValueError w).
Proof. exact (@C59_gmm_refuted_l). Qed.
Print Assumptions C59_gmm_refuted.

Example C59_applies : exists (h : hmm catp) r,
  no_init h ["e"]%char /\ cat_prob (h_em h) <> None
  /\ fit categorical cat_initc toy_rng exact (Est h (RSSeed 0)) 0%nat ex_x None = Ok r.
Proof. exact (@C59_applies_l). Qed.

