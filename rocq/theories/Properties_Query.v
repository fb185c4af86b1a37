(** * Properties C51, C84: scoring, decoding and later training. *)
From Verif Require Import Query_thms Query_again Query_first Query_ex.

Theorem C84_categorical {G} (rg : rng G) fp : queries_harmless categorical cat_initc cat_left rg fp.
Proof. exact (@C84_categorical_l _ _ _). Qed.
Print Assumptions C84_categorical.

Theorem C84_poisson {G} (rg : rng G) fp : queries_harmless poisson pois_initc pois_left rg fp.
Proof. exact (@C84_poisson_l _ _ _). Qed.
Print Assumptions C84_poisson.

Theorem C84_multinomial {G} (rg : rng G) fp : queries_harmless multinomial mult_initc mult_left rg fp.
Proof. exact (@C84_multinomial_l _ _ _). Qed.
Print Assumptions C84_multinomial.

Theorem C84_gaussian {G} (rg : rng G) fp :
  (forall h m, ga_means (h_em h) = Some m -> h_nfeat h = Some (ncol m) -> query gaussian (gauss_left (G := G)) fp h = h)
  /\ (forall e glob x ls e' g' ev a b, ga_mweight (h_em (e_hmm e)) = Scal a -> ga_mprior (h_em (e_hmm e)) = Scal b ->
      fit gaussian gauss_initc rg fp e glob x ls = Ok (e', g', ev) -> queried gaussian gauss_left fp e' = e').
Proof. exact (@C84_gaussian_l _ _ _). Qed.
Print Assumptions C84_gaussian.

Theorem C84_gmm {G} eig (gr : grng G) (rg : rng G) fp :
  (forall h h', h_start h <> None -> check (gmm eig) fp h = Ok h' -> query (gmm eig) (gmm_left gr) fp h = h' /\ query (gmm eig) (gmm_left gr) fp h' = h')
  /\ (forall e glob x ls e' g' ev, fit (gmm eig) (gmm_initc gr) rg fp e glob x ls = Ok (e', g', ev) -> queried (gmm eig) (gmm_left gr) fp e' = e').
Proof. exact (@C84_gmm_l _ _ _ _ _). Qed.
Print Assumptions C84_gmm.

Theorem C84_vcategorical {G} (rg : rng G) fp : vqueries_harmless vcategorical vcat_initc vcat_nf_left rg fp.
Proof. exact (@C84_vcategorical_l _ _ _). Qed.
Print Assumptions C84_vcategorical.

Theorem C84_vgaussian {G} la km (rg : rng G) fp : vqueries_harmless (vgaussian la) (vg_initc km) vg_nf_left rg fp.
Proof. exact (@C84_vgaussian_l _ _ _ _ _). Qed.
Print Assumptions C84_vgaussian.

(** What the queries leave of the emission parameters. *)
Theorem C51_categorical_again {G} fp : repeatable categorical (cat_left (G := G)) fp
  /\ forall h, h_em (query categorical (cat_left (G := G)) fp h) = h_em h.
Proof. exact (@C51_categorical_again_l _ _). Qed.
Print Assumptions C51_categorical_again.

Theorem C51_poisson_again {G} fp : repeatable poisson (pois_left (G := G)) fp
  /\ forall h, h_em (query poisson (pois_left (G := G)) fp h) = h_em h.
Proof. exact (@C51_poisson_again_l _ _). Qed.
Print Assumptions C51_poisson_again.

Theorem C51_multinomial_again {G} fp : repeatable multinomial (mult_left (G := G)) fp
  /\ forall h, h_em (query multinomial (mult_left (G := G)) fp h) = h_em h.
Proof. exact (@C51_multinomial_again_l _ _). Qed.
Print Assumptions C51_multinomial_again.

Theorem C51_gaussian_again {G} fp : repeatable gaussian (gauss_left (G := G)) fp
  /\ forall h, h_em (query gaussian (gauss_left (G := G)) fp h) = h_em h.
Proof. exact (@C51_gaussian_again_l _ _). Qed.
Print Assumptions C51_gaussian_again.

Theorem C51_gmm_again {G} eig (gr : grng G) fp : repeatable (gmm eig) (gmm_left gr) fp
  /\ forall h, let p := h_em h in let q := h_em (query (gmm eig) (gmm_left gr) fp h) in
     gm_weights q = gm_weights p /\ gm_means q = gm_means p /\ gm_covars q = gm_covars p /\ gm_type q = gm_type p /\ gm_nmix q = gm_nmix p.
Proof. exact (@C51_gmm_again_l _ _ _ _). Qed.
Print Assumptions C51_gmm_again.

Theorem C51_vcategorical_again fp : vrepeatable vcategorical vcat_nf_left fp.
Proof. exact (@C51_vcategorical_again_l _). Qed.
Print Assumptions C51_vcategorical_again.

Theorem C51_vgaussian_again la fp : vrepeatable (vgaussian la) vg_nf_left fp.
Proof. exact (@C51_vgaussian_again_l _ _). Qed.
Print Assumptions C51_vgaussian_again.

Theorem C84_poisson_first {G} (rg : rng G) fp e glob x ls :
  ((forall m, po_lam (h_em (e_hmm e)) = Some m -> width x = ncol m) ->
   fit poisson pois_initc rg fp (queried poisson pois_left fp e) glob x ls = fit poisson pois_initc rg fp e glob x ls)
  /\ (forall h m, check poisson fp (e_hmm e) = Ok h -> h_nfeat (e_hmm e) = None -> po_lam (h_em (e_hmm e)) = Some m -> width x <> ncol m ->
     exists ex, fit poisson pois_initc rg fp (queried poisson pois_left fp e) glob x ls = Err ex).
Proof. exact (@C84_poisson_first_l _ _ _ _ _ _ _). Qed.
Print Assumptions C84_poisson_first.

Theorem C84_multinomial_first {G} (rg : rng G) fp e glob x ls :
  ((forall m, mu_prob (h_em (e_hmm e)) = Some m -> width x = ncol m) ->
   fit multinomial mult_initc rg fp (queried multinomial mult_left fp e) glob x ls = fit multinomial mult_initc rg fp e glob x ls)
  /\ (forall h m, check multinomial fp (e_hmm e) = Ok h -> h_nfeat (e_hmm e) = None -> mu_prob (h_em (e_hmm e)) = Some m -> width x <> ncol m ->
     exists ex, fit multinomial mult_initc rg fp (queried multinomial mult_left fp e) glob x ls = Err ex).
Proof. exact (@C84_multinomial_first_l _ _ _ _ _ _ _). Qed.
Print Assumptions C84_multinomial_first.

Theorem C84_gaussian_first {G} (rg : rng G) fp e glob x ls :
  (h_nfeat (e_hmm e) = None -> (forall m, ga_means (h_em (e_hmm e)) = Some m -> width x = ncol m) ->
   fit gaussian gauss_initc rg fp (queried gaussian gauss_left fp e) glob x ls = fit gaussian gauss_initc rg fp e glob x ls)
  /\ (forall h m, check gaussian fp (e_hmm e) = Ok h -> ga_means (h_em (e_hmm e)) = Some m -> width x <> ncol m ->
     exists ex, fit gaussian gauss_initc rg fp (queried gaussian gauss_left fp e) glob x ls = Err ex).
Proof. exact (@C84_gaussian_first_l _ _ _ _ _ _ _). Qed.
Print Assumptions C84_gaussian_first.

Theorem C84_categorical_first {G} (rg : rng G) fp e glob x ls :
  ((forall m, cat_prob (h_em (e_hmm e)) = Some m -> zmax x = (Z.of_nat (ncol m) - 1)%Z) ->
   fit categorical cat_initc rg fp (queried categorical cat_left fp e) glob x ls = fit categorical cat_initc rg fp e glob x ls)
  /\ (forall h m, check categorical fp (e_hmm e) = Ok h -> h_nfeat (e_hmm e) = None -> cat_prob (h_em (e_hmm e)) = Some m ->
     (Z.of_nat (ncol m) <= zmax x)%Z ->
     exists ex, fit categorical cat_initc rg fp (queried categorical cat_left fp e) glob x ls = Err ex).
Proof. exact (@C84_categorical_first_l _ _ _ _ _ _ _). Qed.
Print Assumptions C84_categorical_first.

(** GMMHMM: a query also gives the priors their full shapes, which [fit] would do
    in any case. *)
Theorem C84_gmm_first {G} eig (gr : grng G) (rg : rng G) fp e glob x ls h :
  check (gmm eig) fp (e_hmm e) = Ok h ->
  (h_nfeat h = Some (width x) ->
   fit (gmm eig) (gmm_initc gr) rg fp (queried (gmm eig) (gmm_left gr) fp e) glob x ls = fit (gmm eig) (gmm_initc gr) rg fp e glob x ls)
  /\ (h_nfeat h <> Some (width x) ->
     exists ex, fit (gmm eig) (gmm_initc gr) rg fp (queried (gmm eig) (gmm_left gr) fp e) glob x ls = Err ex).
Proof. exact (@C84_gmm_first_l _ _ _ _ _ _ _ _ _ _). Qed.
Print Assumptions C84_gmm_first.

(** Scoring an estimator whose parameters were assigned: [fit] on data with another
    number of columns returns without the call and raises after it. *)
Theorem C84_first_refuted : exists (e : est poisp unit) x e' ev ex,
  h_nfeat (e_hmm e) = None
  /\ (exists h, check poisson exact (e_hmm e) = Ok h)
  /\ fit poisson pois_initc flat_rng exact e tt x None = Ok (e', tt, ev)
  /\ fit poisson pois_initc flat_rng exact (queried poisson pois_left exact e) tt x None = Err ex.
Proof. exact (@C84_first_refuted_l). Qed.
Print Assumptions C84_first_refuted.

(** After [fit], [means_] is replaced by an array with another number of columns:
    [score] overwrites [n_features] with it, and the next [fit] on the old data
    raises; without the call of [score] it returns. *)
Theorem C84_assigned_refuted : exists (e : est gaussp unit) x m e1 v1 e2 v2 ex,
  fit gaussian gauss_initc flat_rng exact e tt x None = Ok (e1, tt, v1)
  /\ fit gaussian gauss_initc flat_rng exact (assign_means m e1) tt x None = Ok (e2, tt, v2)
  /\ fit gaussian gauss_initc flat_rng exact (queried gaussian gauss_left exact (assign_means m e1)) tt x None = Err ex.
Proof. exact (@C84_assigned_refuted_l). Qed.
Print Assumptions C84_assigned_refuted.

(** ** Examples: new estimators after their first [fit]. *)
Example C84_applies : exists ec ep em ev1 ev2 ev3,
  fit categorical cat_initc flat_rng exact (Est fr_cat (RSSeed 0)) tt fr_x (as_lengths [3%nat]) = Ok (ec, tt, ev1)
  /\ queried categorical cat_left exact ec = ec
  /\ fit poisson pois_initc flat_rng exact (Est fr_pois (RSSeed 0)) tt fr_px (as_lengths [2%nat]) = Ok (ep, tt, ev2)
  /\ queried poisson pois_left exact ep = ep
  /\ fit multinomial mult_initc flat_rng exact (Est fr_mult (RSSeed 0)) tt fr_px (as_lengths [2%nat]) = Ok (em, tt, ev3)
  /\ queried multinomial mult_left exact em = em.
Proof. exact (@C84_applies_l). Qed.

Example C84_gaussian_applies : exists e1 v1 e2 v2,
  fit gaussian gauss_initc flat_rng exact (Est (qy_h "m" None (qy_ga 1 3)) (RSSeed 0)) tt qy_x None = Ok (e1, tt, v1)
  /\ fit gaussian gauss_initc flat_rng exact (queried gaussian gauss_left exact e1) tt qy_x None = Ok (e2, tt, v2)
  /\ fit gaussian gauss_initc flat_rng exact e1 tt qy_x None = Ok (e2, tt, v2).
Proof. exact (@C84_gaussian_applies_l). Qed.

Example C84_gmm_applies : forall ty, is_type covariance_types ty = true -> exists e' ev,
  fit (gmm eig1) (gmm_initc flat_grng) flat_rng exact (Est (fr_gmm ty) (RSSeed 0)) tt cv_x (as_lengths [2%nat]) = Ok (e', tt, ev)
  /\ queried (gmm eig1) (gmm_left flat_grng) exact e' = e'.
Proof. exact (@C84_gmm_applies_l). Qed.

