(** * Property C79: fit and the arguments of the constructor. *)
From Verif Require Import Hyper_thms Hyper_ex.

Theorem C79_gaussian {G} (rg : rng G) fp e glob x ls e' glob' ev :
  fit gaussian gauss_initc rg fp e glob x ls = Ok (e', glob', ev) ->
  let h := e_hmm e in let h' := e_hmm e' in
  h_cfg h' = h_cfg h /\ same_random_state (e_rs e) (e_rs e')
  /\ ga_type (h_em h') = ga_type (h_em h) /\ ga_min_covar (h_em h') = ga_min_covar (h_em h)
  /\ ga_mprior (h_em h') = ga_mprior (h_em h) /\ ga_mweight (h_em h') = ga_mweight (h_em h)
  /\ ga_cprior (h_em h') = ga_cprior (h_em h) /\ ga_cweight (h_em h') = ga_cweight (h_em h).
Proof. exact (@C79_gaussian_l _ _ _ _ _ _ _ _ _ _). Qed.
Print Assumptions C79_gaussian.

(** ** PoissonHMM: all but random_state. *)
Theorem C79_poisson_partial {G} (rg : rng G) fp e glob x ls e' glob' ev :
  fit poisson pois_initc rg fp e glob x ls = Ok (e', glob', ev) ->
  let h := e_hmm e in let h' := e_hmm e' in
  h_cfg h' = h_cfg h /\ po_alpha (h_em h') = po_alpha (h_em h) /\ po_beta (h_em h') = po_beta (h_em h).
Proof. exact (@C79_poisson_partial_l _ _ _ _ _ _ _ _ _ _). Qed.
Print Assumptions C79_poisson_partial.

(** ** CategoricalHMM: all but random_state; n_features if it was given. *)
Theorem C79_categorical_partial {G} (rg : rng G) fp e glob x ls e' glob' ev :
  fit categorical cat_initc rg fp e glob x ls = Ok (e', glob', ev) ->
  let h := e_hmm e in let h' := e_hmm e' in
  h_cfg h' = h_cfg h /\ cat_prior (h_em h') = cat_prior (h_em h)
  /\ (h_nfeat h <> None -> h_nfeat h' = h_nfeat h).
Proof. exact (@C79_categorical_partial_l _ _ _ _ _ _ _ _ _ _). Qed.
Print Assumptions C79_categorical_partial.

(** ** MultinomialHMM: all but random_state; n_trials if it was given. *)
Theorem C79_multinomial_partial {G} (rg : rng G) fp e glob x ls e' glob' ev :
  fit multinomial mult_initc rg fp e glob x ls = Ok (e', glob', ev) ->
  let h := e_hmm e in let h' := e_hmm e' in
  h_cfg h' = h_cfg h
  /\ mu_trials (h_em h') = match mu_trials (h_em h) with None => Some (TArr (map zsum x)) | Some t => Some t end.
Proof. exact (@C79_multinomial_partial_l _ _ _ _ _ _ _ _ _ _). Qed.
Print Assumptions C79_multinomial_partial.

Theorem C79_gmm_partial {G} (gr : grng G) (rg : rng G) eig fp e glob x ls e' glob' ev :
  fit (gmm eig) (gmm_initc gr) rg fp e glob x ls = Ok (e', glob', ev) ->
  let h := e_hmm e in let h' := e_hmm e' in
  h_cfg h' = h_cfg h /\ same_random_state (e_rs e) (e_rs e')
  /\ gmm_fixed fp (c_nc (h_cfg h)) (width x) (h_em h) (h_em h').
Proof. exact (@C79_gmm_partial_l _ _ _ _ _ _ _ _ _ _ _ _). Qed.
Print Assumptions C79_gmm_partial.

Theorem C79_vcategorical_partial {G} (rg : rng G) fp e glob x ls e' glob' ev :
  vfit vcategorical vcat_initc rg fp e glob x ls = Ok (e', glob', ev) ->
  let v := ve_v e in let v' := ve_v e' in
  v_cfg v' = v_cfg v /\ same_random_state (ve_rs e) (ve_rs e') /\ v_sarg v' = v_sarg v /\ v_targ v' = v_targ v
  /\ vk_arg (h_em (v_h v')) = vk_arg (h_em (v_h v))
  /\ (h_nfeat (v_h v) <> None -> h_nfeat (v_h v') = h_nfeat (v_h v)).
Proof. exact (@C79_vcategorical_partial_l _ _ _ _ _ _ _ _ _ _). Qed.
Print Assumptions C79_vcategorical_partial.

Theorem C79_vgaussian {G} la (gr : grng G) (rg : rng G) fp e glob x ls e' glob' ev :
  vfit (vgaussian la) (vg_initc gr) rg fp e glob x ls = Ok (e', glob', ev) ->
  let v := ve_v e in let v' := ve_v e' in let p := h_em (v_h v) in let p' := h_em (v_h v') in
  v_cfg v' = v_cfg v /\ same_random_state (ve_rs e) (ve_rs e') /\ v_sarg v' = v_sarg v /\ v_targ v' = v_targ v
  /\ vg_type p' = vg_type p /\ vg_marg p' = vg_marg p /\ vg_barg p' = vg_barg p /\ vg_darg p' = vg_darg p /\ vg_sarg p' = vg_sarg p.
Proof. exact (@C79_vgaussian_l _ _ _ _ _ _ _ _ _ _ _ _). Qed.
Print Assumptions C79_vgaussian.

Theorem C79_random_state {G} (rg : rng G) fp :
  (forall e glob x ls e' glob' ev, fit categorical cat_initc rg fp e glob x ls = Ok (e', glob', ev) -> becomes_generator (e_rs e) (e_rs e'))
  /\ (forall e glob x ls e' glob' ev, fit poisson pois_initc rg fp e glob x ls = Ok (e', glob', ev) -> becomes_generator (e_rs e) (e_rs e'))
  /\ (forall e glob x ls e' glob' ev, fit multinomial mult_initc rg fp e glob x ls = Ok (e', glob', ev) -> becomes_generator (e_rs e) (e_rs e')).
Proof. exact (@C79_random_state_l _ _ _). Qed.
Print Assumptions C79_random_state.

(** CategoricalHMM(2, random_state=0): afterwards random_state is a generator and
    n_features is 3. *)
Theorem C79_categorical_refuted : exists (e : est catp unit) x e' ev,
  fit categorical cat_initc flat_rng exact e tt x None = Ok (e', tt, ev)
  /\ e_rs e = RSSeed 0 /\ e_rs e' = RSGen tt /\ h_nfeat (e_hmm e) = None /\ h_nfeat (e_hmm e') = Some 3%nat.
Proof. exact (@C79_categorical_refuted_l). Qed.
Print Assumptions C79_categorical_refuted.

(** PoissonHMM and MultinomialHMM with a seed; MultinomialHMM without n_trials
    stores the totals of the rows it was trained on. *)
Theorem C79_poisson_refuted : exists (e : est poisp unit) x e' ev,
  fit poisson pois_initc flat_rng exact e tt x (Some [2%Z]) = Ok (e', tt, ev) /\ e_rs e = RSSeed 0 /\ e_rs e' = RSGen tt.
Proof. exact (@C79_poisson_refuted_l). Qed.
Print Assumptions C79_poisson_refuted.

Theorem C79_multinomial_refuted : exists (e : est mulp unit) x e' ev,
  fit multinomial mult_initc flat_rng exact e tt x (Some [2%Z]) = Ok (e', tt, ev)
  /\ e_rs e = RSSeed 0 /\ e_rs e' = RSGen tt
  /\ mu_trials (h_em (e_hmm e)) = None /\ mu_trials (h_em (e_hmm e')) = Some (TArr [4; 2]%Z).
Proof. exact (@C79_multinomial_refuted_l). Qed.
Print Assumptions C79_multinomial_refuted.

(** GMMHMM(1, n_mix=1): weights_prior, a number, becomes an array of shape (1, 1);
    covars_weight, None, becomes an array of zeros. *)
Theorem C79_gmm_refuted : exists (e : est gmmp nat) x e' glob' ev,
  fit (gmm eig1) (gmm_initc toy_grng) toy_rng exact e 0%nat x None = Ok (e', glob', ev)
  /\ gm_wprior (h_em (e_hmm e)) = nscal (Fin 1) /\ nsh (gm_wprior (h_em (e_hmm e'))) = [1; 1]%nat
  /\ gm_cweight (h_em (e_hmm e)) = None /\ gm_cweight (h_em (e_hmm e')) <> None.
Proof. exact (@C79_gmm_refuted_l). Qed.
Print Assumptions C79_gmm_refuted.

(** The estimators of C62 and C72. *)
Example C79_variational_applies : exists e1 ev1 e2 ev2,
  vfit vcategorical vcat_initc flat_rng exact (VEst (fresh_v "ste" 3 None) (RSSeed 0)) tt [0; 1; 1; 0; 1]%Z (as_lengths [3%nat; 2%nat]) = Ok (e1, tt, ev1)
  /\ ve_rs e1 = RSSeed 0 /\ vk_arg (h_em (v_h (ve_v e1))) = None /\ v_sarg (ve_v e1) = None
  /\ vfit (vgaussian la_ref) (vg_initc two_clusters) flat_rng exact (VEst (new_vg "full") (RSSeed 0)) tt four_samples (as_lengths [2; 2]%nat) = Ok (e2, tt, ev2)
  /\ ve_rs e2 = RSSeed 0 /\ vg_marg (h_em (v_h (ve_v e2))) = None /\ vg_sarg (h_em (v_h (ve_v e2))) = None.
Proof. exact (@C79_variational_applies_l). Qed.

(** GaussianHMM with a seed, each covariance type. *)
Example C79_gaussian_applies : forall ty, is_type covariance_types ty = true ->
  exists e' ev, fit gaussian gauss_initc flat_rng exact (Est (cv_h ty 2) (RSSeed 0)) tt cv_x (as_lengths [2%nat]) = Ok (e', tt, ev)
  /\ e_rs e' = RSSeed 0 /\ ga_type (h_em (e_hmm e')) = ty.
Proof. exact (@C79_gaussian_applies_l). Qed.

