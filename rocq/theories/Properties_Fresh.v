(** * Properties C57, C76: training never raises (GaussianHMM); new estimators can be trained and used. *)
From Verif Require Import Fresh_thms Gauss_total Fresh_em Fresh_ex Fresh_gmm.

(** ** C76: a new GaussianHMM can be trained and used. *)
Theorem C76_trains {G} (rg : rng G) e glob x ls nf c mc :
  let h := e_hmm e in let nc := c_nc (h_cfg h) in
  new_gaussian rg e nf c mc -> pos_dirichlet rg -> good_kmeans rg nc nf x ->
  good_data (finite_row nf) ls x -> (2 <= length x)%nat ->
  (ga_type (h_em h) = "full"%string \/ ga_type (h_em h) = "tied"%string ->
   has "c" (c_params (h_cfg h)) = true -> has "m" (c_params (h_cfg h)) = true) ->
  exists e' glob' ev, fit gaussian gauss_initc rg exact e glob x (as_lengths ls) = Ok (e', glob', ev)
    /\ trained_ok gaussian nc (finite_row nf) ls x (e_hmm e').
Proof. exact (@C76_trains_l _ _ _ _ _ _ _ _ _). Qed.
Print Assumptions C76_trains.

(** Training on sequences of one sample each succeeds and leaves a model that
    no method accepts. *)
Theorem C76_single_samples {G} (rg : rng G) e glob x ls nf c mc :
  let h := e_hmm e in let nc := c_nc (h_cfg h) in
  new_gaussian rg e nf c mc -> pos_dirichlet rg -> good_kmeans rg nc nf x ->
  good_data (finite_row nf) ls x -> (2 <= length x)%nat ->
  (ga_type (h_em h) = "full"%string \/ ga_type (h_em h) = "tied"%string ->
   has "c" (c_params (h_cfg h)) = true -> has "m" (c_params (h_cfg h)) = true) ->
  Forall (fun n => n = 1%nat) ls -> has "t" (c_params (h_cfg h)) = true -> (0 < c_n_iter (h_cfg h))%nat ->
  exists e' glob' ev, fit gaussian gauss_initc rg exact e glob x (as_lengths ls) = Ok (e', glob', ev)
    /\ exists w, forall y lens, score gaussian exact (e_hmm e') y lens = Err (ValueError w).
Proof. exact (@C76_single_samples_l _ _ _ _ _ _ _ _ _). Qed.
Print Assumptions C76_single_samples.

Example C76_applies : forall ty, is_type covariance_types ty = true ->
  exists e' ev, fit gaussian gauss_initc flat_rng exact (Est (cv_h ty 2) (RSSeed 0)) tt cv_x (as_lengths [2%nat]) = Ok (e', tt, ev)
    /\ usable gaussian (finite_row 2) (e_hmm e').
Proof. exact (@C76_applies_l). Qed.

(** Two sequences of one sample. *)
Theorem C76_single_samples_refuted : exists e x ls e' glob' ev w,
  new_gaussian flat_rng e 2 0 (/ 1000) /\ good_data (finite_row 2) ls x
  /\ fit gaussian gauss_initc flat_rng exact e tt x (as_lengths ls) = Ok (e', glob', ev)
  /\ forall y lens, score gaussian exact (e_hmm e') y lens = Err (ValueError w).
Proof. exact (@C76_single_samples_refuted_l). Qed.
Print Assumptions C76_single_samples_refuted.

Theorem C57_gaussian fp h h1 n x ls :
  check gaussian fp h = Ok h1 -> h_nfeat h1 = Some n -> c_impl (h_cfg h) = "log"%string ->
  (ga_type (h_em h) = "diag"%string \/ ga_type (h_em h) = "spherical"%string) ->
  (exists m, ga_means (h_em h) = Some m /\ nrow m = c_nc (h_cfg h) /\ ncol m = n) ->
  (exists cv, ga_covars (h_em h) = Some cv /\
     match cv with CV1 v => ga_type (h_em h) = "spherical"%string /\ length v = c_nc (h_cfg h)
                 | CV2 m => nrow m = c_nc (h_cfg h) /\ ncol m = n | CV3 _ => False end) ->
  (exists a b c d, ga_mprior (h_em h) = Scal a /\ ga_mweight (h_em h) = Scal b /\ ga_cprior (h_em h) = Scal c /\ ga_cweight (h_em h) = Scal d) ->
  x <> [] -> (forall r, In r x -> length r = n) -> lengths_ok ls x ->
  returns (fit_from gaussian fp h x ls).
Proof. exact (@C57_gaussian_l _ _ _ _ _ _). Qed.
Print Assumptions C57_gaussian.

Theorem C76_categorical {G} (rg : rng G) e glob x ls n :
  let h := e_hmm e in let nc := c_nc (h_cfg h) in
  new_categorical rg e n x -> pos_dirichlet rg -> pos_rand rg -> good_data (sym_ok n) ls x ->
  exists e' glob' ev, fit categorical cat_initc rg exact e glob x (as_lengths ls) = Ok (e', glob', ev)
    /\ trained_ok categorical nc (fun o => In o x) ls x (e_hmm e').
Proof. exact (@C76_categorical_l _ _ _ _ _ _ _). Qed.
Print Assumptions C76_categorical.

Theorem C76_poisson {G} (rg : rng G) e glob x ls nf al be :
  let h := e_hmm e in let nc := c_nc (h_cfg h) in
  new_poisson rg e nf al be -> pos_dirichlet rg -> pos_gamma rg -> good_data (counts_ok nf) ls x ->
  (exists a b, In a (concat x) /\ In b (concat x) /\ a <> b) ->
  exists e' glob' ev, fit poisson pois_initc rg exact e glob x (as_lengths ls) = Ok (e', glob', ev)
    /\ trained_ok poisson nc (fun o => In o x) ls x (e_hmm e').
Proof. exact (@C76_poisson_l _ _ _ _ _ _ _ _ _). Qed.
Print Assumptions C76_poisson.

Theorem C76_multinomial {G} (rg : rng G) e glob x ls nf :
  let h := e_hmm e in let nc := c_nc (h_cfg h) in
  new_multinomial rg e nf -> pos_dirichlet rg -> pos_rand rg -> (0 < nf)%nat -> good_data (trials_ok nf) ls x ->
  trials_agree (mu_trials (h_em h)) x ->
  exists e' glob' ev, fit multinomial mult_initc rg exact e glob x (as_lengths ls) = Ok (e', glob', ev)
    /\ trained_ok multinomial nc (fun o => In o x) ls x (e_hmm e').
Proof. exact (@C76_multinomial_l _ _ _ _ _ _ _). Qed.
Print Assumptions C76_multinomial.

(** Initialising the rates: gamma draws whose mean and variance are those of all
    counts. *)
Theorem C76_poisson_start_rates {G} (rg : rng G) e glob x nf e1 glob1 ev :
  let h := e_hmm e in let c := h_cfg h in
  init pois_initc rg exact e glob x = Ok (e1, glob1, ev) ->
  has "l" (c_init_params c) = true \/ po_lam (h_em h) = None ->
  Forall (counts_ok nf) x -> (exists a b, In a (concat x) /\ In b (concat x) /\ a <> b) ->
  exists shape scale m g g', po_lam (h_em (e_hmm e1)) = Some m
    /\ gamma_mat rg (Fin shape) (Fin scale) (c_nc c) nf g = Ok (m, g')
    /\ shape * scale = mean_of (all_counts x) /\ shape * (scale * scale) = variance_of (all_counts x).
Proof. exact (@C76_poisson_start_rates_l _ _ _ _ _ _ _ _ _). Qed.
Print Assumptions C76_poisson_start_rates.

Example C76_categorical_applies : exists e' ev,
  fit categorical cat_initc flat_rng exact (Est fr_cat (RSSeed 0)) tt fr_x (as_lengths [3%nat]) = Ok (e', tt, ev)
  /\ usable categorical (fun o => In o fr_x) (e_hmm e').
Proof. exact (@C76_categorical_applies_l). Qed.

Example C76_poisson_applies : exists e' ev,
  fit poisson pois_initc flat_rng exact (Est fr_pois (RSSeed 0)) tt fr_px (as_lengths [2%nat]) = Ok (e', tt, ev)
  /\ usable poisson (fun o => In o fr_px) (e_hmm e').
Proof. exact (@C76_poisson_applies_l). Qed.

Example C76_multinomial_applies : exists e' ev,
  fit multinomial mult_initc flat_rng exact (Est fr_mult (RSSeed 0)) tt fr_px (as_lengths [2%nat]) = Ok (e', tt, ev)
  /\ usable multinomial (fun o => In o fr_px) (e_hmm e').
Proof. exact (@C76_multinomial_applies_l). Qed.

(** Infinite and undefined numbers in the data. *)
Example C57_gaussian_applies : exists h1, check gaussian exact ex_frozen = Ok h1
  /\ returns (fit_from gaussian exact ex_frozen [[PInf]; [NaN]] None).
Proof. exact (@C57_gaussian_applies_l). Qed.

(** ** A new GMMHMM can be trained and used. *)
Theorem C76_gmm {G} (gr : grng G) (rg : rng G) eig e glob x ls nm nf mc :
  let h := e_hmm e in let nc := c_nc (h_cfg h) in
  new_gmm rg e nm nf mc -> pos_dirichlet rg -> good_grng gr nf -> good_eig eig ->
  (gm_type (h_em h) = "spherical"%string -> (nm <= nf)%nat) ->
  good_data (finite_row nf) ls x -> (2 <= length x)%nat -> (nc <= length x)%nat ->
  exists e' glob' ev, fit (gmm eig) (gmm_initc gr) rg exact e glob x (as_lengths ls) = Ok (e', glob', ev)
    /\ trained_ok (gmm eig) nc (finite_row nf) ls x (e_hmm e').
Proof. exact (@C76_gmm_l _ _ _ _ _ _ _ _ _ _ _). Qed.
Print Assumptions C76_gmm.

Example C76_gmm_applies : forall ty, is_type covariance_types ty = true -> exists e' ev,
  fit (gmm eig1) (gmm_initc flat_grng) flat_rng exact (Est (fr_gmm ty) (RSSeed 0)) tt cv_x (as_lengths [2%nat]) = Ok (e', tt, ev)
  /\ usable (gmm eig1) (finite_row 2) (e_hmm e').
Proof. exact (@C76_gmm_applies_l). Qed.

