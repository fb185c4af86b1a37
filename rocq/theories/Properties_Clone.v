(** * Properties C62, C76, C90: constructors and clones. *)
From Verif Require Import Clone_thms Clone_ex.

(** ** GaussianHMM: a clone of the trained estimator is the estimator as it was
    constructed (a generator passed as [random_state] has advanced). *)
Theorem C90_gaussian {G} (rg : rng G) fp c rs ty mc mp mw cp cw glob x ls e' glob' ev :
  let new := fun rs => GaussianHMM c rs ty mc mp mw cp cw in
  fit gaussian gauss_initc rg fp (new rs) glob x ls = Ok (e', glob', ev) ->
  (plain rs -> forall g, clone_gaussian e' g = new rs)
  /\ (forall g0, rs = RSGen g0 -> exists g', forall g, clone_gaussian e' g = new (RSGen g')).
Proof. exact (@C90_gaussian_l _ _ _ _ _ _ _ _ _ _ _ _ _ _ _ _ _). Qed.
Print Assumptions C90_gaussian.

(** Hence it trains as the original would have, on any data. *)
Theorem C90_gaussian_trains {G} (rg : rng G) fp c rs ty mc mp mw cp cw glob x ls e' glob' ev :
  let e := GaussianHMM c rs ty mc mp mw cp cw in
  plain rs -> fit gaussian gauss_initc rg fp e glob x ls = Ok (e', glob', ev) ->
  forall g1 g2 y lens, fit gaussian gauss_initc rg fp (clone_gaussian e' g1) g2 y lens = fit gaussian gauss_initc rg fp e g2 y lens.
Proof. exact (@C90_gaussian_trains_l _ _ _ _ _ _ _ _ _ _ _ _ _ _ _ _ _). Qed.
Print Assumptions C90_gaussian_trains.

(** ** VariationalGaussianHMM. *)
Theorem C90_vgaussian {G} la (gr : grng G) (rg : rng G) fp c rs ty sa ta ma ba da sc glob x ls e' glob' ev :
  let new := fun rs => VariationalGaussianHMM c rs ty sa ta ma ba da sc in
  vfit (vgaussian la) (vg_initc gr) rg fp (new rs) glob x ls = Ok (e', glob', ev) ->
  (plain rs -> forall g, clone_vgaussian e' g = new rs)
  /\ (forall g0, rs = RSGen g0 -> exists g', forall g, clone_vgaussian e' g = new (RSGen g')).
Proof. exact (@C90_vgaussian_l _ _ _ _ _ _ _ _ _ _ _ _ _ _ _ _ _ _ _ _). Qed.
Print Assumptions C90_vgaussian.

Theorem C90_vgaussian_trains {G} la (gr : grng G) (rg : rng G) fp c rs ty sa ta ma ba da sc glob x ls e' glob' ev :
  let e := VariationalGaussianHMM c rs ty sa ta ma ba da sc in
  plain rs -> vfit (vgaussian la) (vg_initc gr) rg fp e glob x ls = Ok (e', glob', ev) ->
  forall g1 g2 y lens, vfit (vgaussian la) (vg_initc gr) rg fp (clone_vgaussian e' g1) g2 y lens
    = vfit (vgaussian la) (vg_initc gr) rg fp e g2 y lens.
Proof. exact (@C90_vgaussian_trains_l _ _ _ _ _ _ _ _ _ _ _ _ _ _ _ _ _ _ _ _). Qed.
Print Assumptions C90_vgaussian_trains.

Theorem C90_gmm_partial {G} (gr : grng G) (rg : rng G) eig fp c rs nm ty mc wp mp mw cp cw glob x ls e' glob' ev :
  let e := GMMHMM c rs nm ty mc wp mp mw cp cw in
  plain rs -> fit (gmm eig) (gmm_initc gr) rg fp e glob x ls = Ok (e', glob', ev) ->
  forall g1 g2 y lens, width y = width x ->
    fit (gmm eig) (gmm_initc gr) rg fp (clone_gmm e' g1) g2 y lens = fit (gmm eig) (gmm_initc gr) rg fp e g2 y lens.
Proof. exact (@C90_gmm_partial_l _ _ _ _ _ _ _ _ _ _ _ _ _ _ _ _ _ _ _ _ _). Qed.
Print Assumptions C90_gmm_partial.

Theorem C90_categorical_partial {G} (rg : rng G) fp c rs pr nf glob x ls e' glob' ev :
  fit categorical cat_initc rg fp (CategoricalHMM c rs pr nf) glob x ls = Ok (e', glob', ev) ->
  forall g, exists g' nf', clone_categorical e' g = CategoricalHMM c (RSGen g') pr nf' /\ (nf <> None -> nf' = nf).
Proof. exact (@C90_categorical_partial_l _ _ _ _ _ _ _ _ _ _ _ _ _). Qed.
Print Assumptions C90_categorical_partial.

Theorem C90_poisson_partial {G} (rg : rng G) fp c rs al be glob x ls e' glob' ev :
  fit poisson pois_initc rg fp (PoissonHMM c rs al be) glob x ls = Ok (e', glob', ev) ->
  forall g, exists g', clone_poisson e' g = PoissonHMM c (RSGen g') al be.
Proof. exact (@C90_poisson_partial_l _ _ _ _ _ _ _ _ _ _ _ _ _). Qed.
Print Assumptions C90_poisson_partial.

Theorem C90_multinomial_partial {G} (rg : rng G) fp c rs tr glob x ls e' glob' ev :
  fit multinomial mult_initc rg fp (MultinomialHMM c rs (Some tr)) glob x ls = Ok (e', glob', ev) ->
  forall g, exists g', clone_multinomial e' g = MultinomialHMM c (RSGen g') (Some tr).
Proof. exact (@C90_multinomial_partial_l _ _ _ _ _ _ _ _ _ _ _ _). Qed.
Print Assumptions C90_multinomial_partial.

Theorem C90_vcategorical_partial {G} (rg : rng G) fp c rs sa ta ea nf glob x ls e' glob' ev :
  let e := VariationalCategoricalHMM c rs sa ta ea nf in
  plain rs -> vfit vcategorical vcat_initc rg fp e glob x ls = Ok (e', glob', ev) ->
  forall g1 g2 y lens,
    nf <> None \/ (exists m, In m x /\ In m y /\ Forall (fun k => (k <= m)%Z) x /\ Forall (fun k => (k <= m)%Z) y) ->
    vfit vcategorical vcat_initc rg fp (clone_vcategorical e' g1) g2 y lens = vfit vcategorical vcat_initc rg fp e g2 y lens.
Proof. exact (@C90_vcategorical_partial_l _ _ _ _ _ _ _ _ _ _ _ _ _ _ _). Qed.
Print Assumptions C90_vcategorical_partial.

Theorem C90_unfitted {G} (eig : mat -> xnum) fp (g : G) :
  (forall e, unfitted_methods categorical fp (e_hmm (clone_categorical e g)))
  /\ (forall e, unfitted_methods poisson fp (e_hmm (clone_poisson e g)))
  /\ (forall e, unfitted_methods multinomial fp (e_hmm (clone_multinomial e g)))
  /\ (forall e, unfitted_methods gaussian fp (e_hmm (clone_gaussian e g)))
  /\ (forall e, unfitted_methods (gmm eig) fp (e_hmm (clone_gmm e g))).
Proof. exact (@C90_unfitted_l _ _ _ _). Qed.
Print Assumptions C90_unfitted.

Theorem C90_vunfitted {G} la fp (g : G) :
  (forall e, vunfitted_methods vcategorical fp (ve_v (clone_vcategorical e g)))
  /\ (forall e, vunfitted_methods (vgaussian la) fp (ve_v (clone_vgaussian e g))).
Proof. exact (@C90_vunfitted_l _ _ _ _). Qed.
Print Assumptions C90_vunfitted.

Theorem C90_obeys {G} (eig : mat -> xnum) (gr : grng G) :
  obeys categorical (cat_initc (G := G)) clone_categorical /\ obeys poisson (pois_initc (G := G)) clone_poisson
  /\ obeys multinomial (mult_initc (G := G)) clone_multinomial /\ obeys gaussian (gauss_initc (G := G)) clone_gaussian
  /\ obeys (gmm eig) (gmm_initc gr) clone_gmm.
Proof. exact (@C90_obeys_l _ _ _). Qed.
Print Assumptions C90_obeys.

Theorem C90_vobeys {G} la (gr : grng G) :
  vobeys vcategorical (vcat_initc (G := G)) clone_vcategorical /\ vobeys (vgaussian la) (vg_initc gr) clone_vgaussian.
Proof. exact (@C90_vobeys_l _ _ _). Qed.
Print Assumptions C90_vobeys.

(** ** C76 for the constructors with their defaults. *)
Theorem C76_default_categorical {G} (rg : rng G) rs glob x ls nc :
  (0 < nc)%nat -> valid_rs rg rs -> pos_dirichlet rg -> pos_rand rg -> good_data (fun k => (0 <= k)%Z) ls x ->
  exists e' glob' ev, fit categorical cat_initc rg exact (default_categorical nc rs) glob x (as_lengths ls) = Ok (e', glob', ev)
    /\ trained_ok categorical nc (fun o => In o x) ls x (e_hmm e').
Proof. exact (@C76_default_categorical_l _ _ _ _ _ _ _). Qed.
Print Assumptions C76_default_categorical.

Theorem C76_default_poisson {G} (rg : rng G) rs glob x ls nc nf :
  (0 < nc)%nat -> valid_rs rg rs -> pos_dirichlet rg -> pos_gamma rg -> good_data (counts_ok nf) ls x ->
  (exists a b, In a (concat x) /\ In b (concat x) /\ a <> b) ->
  exists e' glob' ev, fit poisson pois_initc rg exact (default_poisson nc rs) glob x (as_lengths ls) = Ok (e', glob', ev)
    /\ trained_ok poisson nc (fun o => In o x) ls x (e_hmm e').
Proof. exact (@C76_default_poisson_l _ _ _ _ _ _ _ _). Qed.
Print Assumptions C76_default_poisson.

Theorem C76_default_multinomial {G} (rg : rng G) rs glob x ls nc nf :
  (0 < nc)%nat -> (0 < nf)%nat -> valid_rs rg rs -> pos_dirichlet rg -> pos_rand rg -> good_data (trials_ok nf) ls x ->
  exists e' glob' ev, fit multinomial mult_initc rg exact (default_multinomial nc rs) glob x (as_lengths ls) = Ok (e', glob', ev)
    /\ trained_ok multinomial nc (fun o => In o x) ls x (e_hmm e').
Proof. exact (@C76_default_multinomial_l _ _ _ _ _ _ _ _). Qed.
Print Assumptions C76_default_multinomial.

Theorem C76_default_gaussian {G} (rg : rng G) rs glob x ls nc nf :
  (0 < nc)%nat -> (0 < nf)%nat -> valid_rs rg rs -> pos_dirichlet rg -> good_kmeans rg nc nf x ->
  good_data (finite_row nf) ls x -> (2 <= length x)%nat ->
  exists e' glob' ev, fit gaussian gauss_initc rg exact (default_gaussian nc rs) glob x (as_lengths ls) = Ok (e', glob', ev)
    /\ trained_ok gaussian nc (finite_row nf) ls x (e_hmm e').
Proof. exact (@C76_default_gaussian_l _ _ _ _ _ _ _ _). Qed.
Print Assumptions C76_default_gaussian.

Theorem C76_default_gmm {G} (gr : grng G) (rg : rng G) eig rs glob x ls nc nm nf :
  (0 < nc)%nat -> (0 < nm)%nat -> (0 < nf)%nat -> valid_rs rg rs -> pos_dirichlet rg -> good_grng gr nf -> good_eig eig ->
  good_data (finite_row nf) ls x -> (2 <= length x)%nat -> (nc <= length x)%nat ->
  exists e' glob' ev, fit (gmm eig) (gmm_initc gr) rg exact (default_gmm nc nm rs) glob x (as_lengths ls) = Ok (e', glob', ev)
    /\ trained_ok (gmm eig) nc (finite_row nf) ls x (e_hmm e').
Proof. exact (@C76_default_gmm_l _ _ _ _ _ _ _ _ _ _ _). Qed.
Print Assumptions C76_default_gmm.

(** VariationalCategoricalHMM with its defaults can be trained. *)
Theorem C62_default {G} (rg : rng G) rs glob x ls nc :
  (0 < nc)%nat -> valid_rs rg rs -> pos_dirichlet rg -> good_data (fun k => (0 <= k)%Z) ls x ->
  exists e' glob' ev (vs : list R), vfit vcategorical vcat_initc rg exact (default_vcategorical nc rs) glob x (as_lengths ls) = Ok (e', glob', ev)
    /\ v_history (ve_v e') = map Fin vs /\ (forall i j, (i <= j)%nat -> (j < length vs)%nat -> nth i vs 0 <= nth j vs 0).
Proof. exact (@C62_default_l _ _ _ _ _ _ _). Qed.
Print Assumptions C62_default.

Theorem C90_seed_refuted : exists (c : cfg) (e1 : est catp nat) g1 ev1 e2 g2 ev2,
  let e := CategoricalHMM c (RSSeed 0) (Scal (Fin 1)) (Some 2%nat) in
  fit categorical cat_initc toy_rng exact e 0%nat toy_x (as_lengths [3%nat]) = Ok (e1, g1, ev1)
  /\ fit categorical cat_initc toy_rng exact (clone_categorical e1 0%nat) 0%nat toy_x (as_lengths [3%nat]) = Ok (e2, g2, ev2)
  /\ h_start (e_hmm e2) <> h_start (e_hmm e1).
Proof. exact (@C90_seed_refuted_l). Qed.
Print Assumptions C90_seed_refuted.

Theorem C90_n_features_refuted : exists (e1 : est catp unit) ev1 e2 ev2,
  let e := default_categorical 2 (RSSeed 0) in
  fit categorical cat_initc flat_rng exact e tt fr_x (as_lengths [3%nat]) = Ok (e1, tt, ev1)
  /\ fit categorical cat_initc flat_rng exact e tt cl_y (as_lengths [2%nat]) = Ok (e2, tt, ev2)
  /\ fit categorical cat_initc flat_rng exact (clone_categorical e1 tt) tt cl_y (as_lengths [2%nat]) = Err (ValueError "Largest symbol").
Proof. exact (@C90_n_features_refuted_l). Qed.
Print Assumptions C90_n_features_refuted.

Theorem C90_n_trials_refuted : exists (e1 : est mulp unit) ev1 e2 ev2 w,
  let e := default_multinomial 2 (RSSeed 0) in
  fit multinomial mult_initc flat_rng exact e tt fr_px (as_lengths [2%nat]) = Ok (e1, tt, ev1)
  /\ fit multinomial mult_initc flat_rng exact e tt cl_my (as_lengths [3%nat]) = Ok (e2, tt, ev2)
  /\ fit multinomial mult_initc flat_rng exact (clone_multinomial e1 tt) tt cl_my (as_lengths [3%nat]) = Err (ValueError w).
Proof. exact (@C90_n_trials_refuted_l). Qed.
Print Assumptions C90_n_trials_refuted.

Theorem C90_gmm_refuted : exists (e1 : est gmmp unit) ev1 e2 ev2 w,
  let e := default_gmm 1 1 (RSSeed 0) in
  fit (gmm eig1) (gmm_initc flat_grng) flat_rng exact e tt cv_x (as_lengths [2%nat]) = Ok (e1, tt, ev1)
  /\ fit (gmm eig1) (gmm_initc flat_grng) flat_rng exact e tt cl_gy (as_lengths [2%nat]) = Ok (e2, tt, ev2)
  /\ fit (gmm eig1) (gmm_initc flat_grng) flat_rng exact (clone_gmm e1 tt) tt cl_gy (as_lengths [2%nat]) = Err (ValueError w).
Proof. exact (@C90_gmm_refuted_l). Qed.
Print Assumptions C90_gmm_refuted.

(** ** VariationalCategoricalHMM(2): as CategoricalHMM. *)
Theorem C90_vcategorical_refuted : exists (e1 : vest vcatp unit) ev1 e2 ev2,
  let e := default_vcategorical 2 (RSSeed 0) in
  vfit vcategorical vcat_initc flat_rng exact e tt fr_x (as_lengths [3%nat]) = Ok (e1, tt, ev1)
  /\ vfit vcategorical vcat_initc flat_rng exact e tt cl_y (as_lengths [2%nat]) = Ok (e2, tt, ev2)
  /\ vfit vcategorical vcat_initc flat_rng exact (clone_vcategorical e1 tt) tt cl_y (as_lengths [2%nat]) = Err (ValueError "Largest symbol").
Proof. exact (@C90_vcategorical_refuted_l). Qed.
Print Assumptions C90_vcategorical_refuted.

(** ** The positive statements apply. *)
Example C90_applies : exists (e1 : est gaussp unit) ev1,
  let e := default_gaussian 2 (RSSeed 0) in
  fit gaussian gauss_initc flat_rng exact e tt cv_x (as_lengths [2%nat]) = Ok (e1, tt, ev1)
  /\ e_hmm e1 <> e_hmm e /\ clone_gaussian e1 tt = e
  /\ fit gaussian gauss_initc flat_rng exact (clone_gaussian e1 tt) tt cv_x (as_lengths [2%nat]) = Ok (e1, tt, ev1).
Proof. exact (@C90_applies_l). Qed.

