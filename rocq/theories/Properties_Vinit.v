(** * Properties C21, C22, C72, C73: variational classes, initialisation and validation. *)
From Verif Require Import Vinit_thms Vg_init Vcheck_thms.

(** Every variational class, any rounding. *)
Theorem C21_variational {P X St} (V : vclass P X St) fp v x ls v' ev :
  vfit_from V fp v x ls = Ok (v', ev) ->
  let ps := c_params (v_cfg v) in
  v_cfg v' = v_cfg v /\ v_sprior v' = v_sprior v /\ v_tprior v' = v_tprior v
  /\ (has "s" ps = false -> v_spost v' = v_spost v /\ h_start (v_h v') = h_start (v_h v))
  /\ (has "t" ps = false -> v_tpost v' = v_tpost v /\ h_trans (v_h v') = h_trans (v_h v)).
Proof. exact (@C21_variational_l _ _ _ _ _ _ _ _ _ _). Qed.
Print Assumptions C21_variational.

Theorem C21_vcategorical fp v x ls v' ev :
  vfit_from vcategorical fp v x ls = Ok (v', ev) ->
  let p := h_em (v_h v) in let p' := h_em (v_h v') in
  vk_arg p' = vk_arg p /\ vk_prior p' = vk_prior p
  /\ (has "e" (c_params (v_cfg v)) = false -> vk_post p' = vk_post p /\ vk_prob p' = vk_prob p).
Proof. exact (@C21_vcategorical_l _ _ _ _ _ _). Qed.
Print Assumptions C21_vcategorical.

Theorem C21_vgaussian la fp v x ls v' ev :
  vfit_from (vgaussian la) fp v x ls = Ok (v', ev) ->
  let p := h_em (v_h v) in let p' := h_em (v_h v') in let ps := c_params (v_cfg v) in
  vg_type p' = vg_type p /\ vg_m0 p' = vg_m0 p /\ vg_b0 p' = vg_b0 p /\ vg_d0 p' = vg_d0 p /\ vg_s0 p' = vg_s0 p
  /\ (has "m" ps = false -> vg_m p' = vg_m p /\ vg_b p' = vg_b p)
  /\ (has "c" ps = false -> vg_d p' = vg_d p /\ vg_s p' = vg_s p /\ vg_cov p' = vg_cov p).
Proof. exact (@C21_vgaussian_l _ _ _ _ _ _ _). Qed.
Print Assumptions C21_vgaussian.

Theorem C22_vcategorical_partial {G} (rg : rng G) fp e glob x ls e' glob' ev :
  vinit vcat_initc rg fp e glob x ls = Ok (e', glob', ev) ->
  let v := ve_v e in let v' := ve_v e' in let c := v_cfg v in let nc := c_nc c in let ip := c_init_params c in
  let p := h_em (v_h v) in let p' := h_em (v_h v') in
  v_cfg v' = c
  /\ kept_or_fresh2 (has "s" ip) (v_sprior v) (v_sprior v') (v_spost v) (v_spost v') (fresh_start rg fp nc (v_sarg v) ls)
  /\ kept_or_fresh2 (has "t" ip) (v_tprior v) (v_tprior v') (v_tpost v) (v_tpost v') (fresh_trans rg fp nc (v_targ v) ls)
  /\ (has "e" ip = false -> vk_post p <> None -> p' = p)
  /\ (has "e" ip = true \/ vk_post p = None ->
      exists pr po, vk_prior p' = Some pr /\ vk_post p' = Some po
        /\ fresh_emis rg fp nc (match h_nfeat (v_h v') with Some n => n | None => 0%nat end) (vk_arg p) ls pr po).
Proof. exact (@C22_vcategorical_partial_l _ _ _ _ _ _ _ _ _ _). Qed.
Print Assumptions C22_vcategorical_partial.

Theorem C22_vcategorical_warnings_partial {G} (rg : rng G) fp e glob x ls e' glob' ev name :
  vfit vcategorical vcat_initc rg fp e glob x ls = Ok (e', glob', ev) ->
  let v := ve_v e in let ip := c_init_params (v_cfg v) in
  (In (WOverwrite name) ev <->
     (name = "startprob_posterior_"%string /\ has "s" ip = true /\ v_spost v <> None)
     \/ (name = "transmat_posterior_"%string /\ has "t" ip = true /\ v_tpost v <> None)
     \/ (name = "emissionprob_posterior_"%string /\ has "e" ip = true /\ vk_post (h_em (v_h v)) <> None)).
Proof. exact (@C22_vcategorical_warnings_partial_l _ _ _ _ _ _ _ _ _ _ _). Qed.
Print Assumptions C22_vcategorical_warnings_partial.

Theorem C22_vgaussian_partial {G} (gr : grng G) (rg : rng G) fp e glob x ls e' glob' ev :
  vinit (vg_initc gr) rg fp e glob x ls = Ok (e', glob', ev) ->
  let v := ve_v e in let v' := ve_v e' in let c := v_cfg v in let nc := c_nc c in let ip := c_init_params c in
  let p := h_em (v_h v) in let p' := h_em (v_h v') in let nf := match h_nfeat (v_h v') with Some n => n | None => 0%nat end in
  v_cfg v' = c
  /\ kept_or_fresh2 (has "s" ip) (v_sprior v) (v_sprior v') (v_spost v) (v_spost v') (fresh_start rg fp nc (v_sarg v) ls)
  /\ kept_or_fresh2 (has "t" ip) (v_tprior v) (v_tprior v') (v_tpost v) (v_tpost v') (fresh_trans rg fp nc (v_targ v) ls)
  /\ kept_or_fresh4 (has "m" ip) (vg_m0 p) (vg_m0 p') (vg_m p) (vg_m p') (vg_b0 p) (vg_b0 p') (vg_b p) (vg_b p') (fresh_means gr fp nc nf p x)
  /\ kept_or_fresh4 (has "c" ip) (vg_d0 p) (vg_d0 p') (vg_d p) (vg_d p') (vg_s0 p) (vg_s0 p') (vg_s p) (vg_s p') (fresh_scales gr fp nc nf p x).
Proof. exact (@C22_vgaussian_partial_l _ _ _ _ _ _ _ _ _ _ _). Qed.
Print Assumptions C22_vgaussian_partial.

Theorem C22_vgaussian_warnings_partial {G} la (gr : grng G) (rg : rng G) fp e glob x ls e' glob' ev name :
  vfit (vgaussian la) (vg_initc gr) rg fp e glob x ls = Ok (e', glob', ev) ->
  let v := ve_v e in let ip := c_init_params (v_cfg v) in
  (In (WOverwrite name) ev <->
     (name = "startprob_posterior_"%string /\ has "s" ip = true /\ v_spost v <> None)
     \/ (name = "transmat_posterior_"%string /\ has "t" ip = true /\ v_tpost v <> None)
     \/ (name = "means_prior_"%string /\ has "m" ip = true /\ vg_m0 (h_em (v_h v)) <> None)
     \/ (name = "dof_prior_"%string /\ has "c" ip = true /\ vg_d0 (h_em (v_h v)) <> None)).
Proof. exact (@C22_vgaussian_warnings_partial_l _ _ _ _ _ _ _ _ _ _ _ _ _). Qed.
Print Assumptions C22_vgaussian_warnings_partial.

Theorem C22_variational_refuted : exists (prior : vec) e x ls e' glob' ev,
  v_sprior (ve_v e) = Some prior /\ has "s" (c_init_params (v_cfg (ve_v e))) = false
  /\ vinit vcat_initc flat_rng exact e tt x ls = Ok (e', glob', ev)
  /\ v_sprior (ve_v e') <> Some prior /\ ev = [].
Proof. exact (@C22_variational_refuted_l). Qed.
Print Assumptions C22_variational_refuted.

(** The warning for the prior is never logged, not even when it is replaced. *)
Theorem C22_variational_silent_refuted : exists (prior post : vec) e x ls e' glob' ev,
  v_sprior (ve_v e) = Some prior /\ v_spost (ve_v e) = Some post
  /\ vinit vcat_initc flat_rng exact e tt x ls = Ok (e', glob', ev)
  /\ v_sprior (ve_v e') <> Some prior /\ ev = [WOverwrite "startprob_posterior_"].
Proof. exact (@C22_variational_silent_refuted_l). Qed.
Print Assumptions C22_variational_silent_refuted.

(** Both set and the letter absent: both kept. *)
Example C22_variational_applies : exists e' glob' ev,
  vinit vcat_initc flat_rng exact (VEst (preset_v "te" (fvec 2 (fun _ => 3)) (Some (fvec 2 (fun _ => 4)))) (RSSeed 0)) tt
    [0; 1; 1; 0; 1; 0; 1; 1; 0; 1]%Z [5; 5]%Z = Ok (e', glob', ev)
  /\ v_sprior (ve_v e') = Some (fvec 2 (fun _ => 3)) /\ v_spost (ve_v e') = Some (fvec 2 (fun _ => 4)) /\ ev = [].
Proof. exact (@C22_variational_applies_l). Qed.

(** Training with [params = "te"] returns and leaves startprob alone. *)
Example C21_variational_applies : exists v x ls v' ev, has "s" (c_params (v_cfg v)) = false
  /\ vfit_from vcategorical exact v x (map Z.of_nat ls) = Ok (v', ev) /\ v_spost v = Some (fvec 2 (d_s ex_vpo)) /\ v_spost v' = v_spost v.
Proof. exact (@C21_variational_applies_l). Qed.

Theorem C72_init {G} (gr : grng G) (rg : rng G) e glob x ls nf p :
  let v := ve_v e in let c := v_cfg v in let nc := c_nc c in let ty := vg_type (h_em (v_h v)) in
  pos_dirichlet rg -> valid_rs rg (ve_rs e) -> (0 < nc)%nat -> (0 < nf)%nat -> letters_in (c_params c) ["s"; "t"; "m"; "c"]%char ->
  vg_fresh v -> (h_nfeat (v_h v) = None \/ h_nfeat (v_h v) = Some nf) -> is_type covariance_types ty = true ->
  prior_args ty nc nf v x p -> gvalid ty nc nf p ->
  good_data (finite_row nf) ls x -> (2 <= length x)%nat -> clusters_of gr nc nf nf x ->
  exists e1 glob1 ev q labels mu, vinit (vg_initc gr) rg exact e glob x (map Z.of_nat ls) = Ok (e1, glob1, ev)
    /\ vg_model ty nc nf (ve_v e1) p q
    /\ v_cfg (ve_v e1) = c /\ h_start (v_h (ve_v e1)) = h_start (v_h v) /\ h_trans (v_h (ve_v e1)) = h_trans (v_h v)
    /\ h_mon (v_h (ve_v e1)) = h_mon (v_h v)
    /\ kmeans_result gr nc x labels (fmat nc nf mu)
    /\ sumn nc (g_s q) = INR (length ls)
    /\ (forall i, (i < nc)%nat -> sumn nc (g_t q i) = INR (length x) / INR nc
         /\ (forall f, (f < nf)%nat -> g_m q i f = mu i f)
         /\ g_b q i = INR (count_occ Nat.eq_dec labels i)
         /\ g_d q i = (if String.eqb ty "tied" then INR (length x) else INR (count_occ Nat.eq_dec labels i))
         /\ forall k l, (k < nf)%nat -> (l < nf)%nat -> g_S q i k l = g_d q i * start_S ty nf (s_covr (/ 1000) x) k l).
Proof. exact (@C72_init_l _ _ _ _ _ _ _ _ _). Qed.
Print Assumptions C72_init.

(** A new estimator can be trained; the recorded bounds do not decrease. *)
Theorem C72_fit_returns {G} la (gr : grng G) (rg : rng G) e glob x ls nf p :
  let v := ve_v e in let c := v_cfg v in let nc := c_nc c in let ty := vg_type (h_em (v_h v)) in
  la_right la -> pos_dirichlet rg -> valid_rs rg (ve_rs e) -> (0 < nc)%nat -> (0 < nf)%nat ->
  letters_in (c_params c) ["s"; "t"; "m"; "c"]%char -> has "t" (c_params c) = true ->
  has "m" (c_params c) = true \/ has "c" (c_params c) = false -> c_impl c = "log"%string ->
  vg_fresh v -> (h_nfeat (v_h v) = None \/ h_nfeat (v_h v) = Some nf) -> is_type covariance_types ty = true ->
  prior_args ty nc nf v x p -> gvalid ty nc nf p ->
  good_data (finite_row nf) ls x -> (2 <= length x)%nat -> clusters_of gr nc nf nf x ->
  exists e1 glob1 ev q, vfit (vgaussian la) (vg_initc gr) rg exact e glob x (as_lengths ls) = Ok (e1, glob1, ev)
    /\ vg_model ty nc nf (ve_v e1) p q
    /\ exists vs : list R, v_history (ve_v e1) = map Fin vs
         /\ forall i j, (i <= j)%nat -> (j < length vs)%nat -> nth i vs 0 <= nth j vs 0.
Proof. exact (@C72_fit_returns_l _ _ _ _ _ _ _ _ _ _). Qed.
Print Assumptions C72_fit_returns.

Example C72_applies : forall ty, (ty = "full" \/ ty = "tied" \/ ty = "diag" \/ ty = "spherical")%string -> exists e1 ev,
  vfit (vgaussian la_ref) (vg_initc two_clusters) flat_rng exact (VEst (new_vg ty) (RSSeed 0)) tt four_samples (as_lengths [2; 2]%nat) = Ok (e1, tt, ev).
Proof. exact (@C72_applies_l). Qed.

(** ** VariationalGaussianHMM. *)
Theorem C73_vgaussian_accepts la fp v :
  let c := v_cfg v in let p := h_em (v_h v) in
  (exists v', vcheck (vgaussian la) fp v = Ok v')
  <-> is_type covariance_types (vg_type p) = true
      /\ exists nf a, h_nfeat (v_h v) = Some nf /\ vg_set p a /\ vg_shaped (vg_type p) (c_nc c) nf a.
Proof. exact (@C73_vgaussian_accepts_l _ _ _). Qed.
Print Assumptions C73_vgaussian_accepts.

(** All attributes are there, but something has the wrong shape: ValueError. *)
Theorem C73_vgaussian_rejects la fp v a nf :
  let c := v_cfg v in let p := h_em (v_h v) in
  h_nfeat (v_h v) = Some nf -> vg_set p a ->
  ~ (is_type covariance_types (vg_type p) = true /\ vg_shaped (vg_type p) (c_nc c) nf a) ->
  exists why, forall x ls, vfit_from (vgaussian la) fp v x ls = Err (ValueError why).
Proof. exact (@C73_vgaussian_rejects_l _ _ _ _ _). Qed.
Print Assumptions C73_vgaussian_rejects.

(** ** VariationalCategoricalHMM. *)
Theorem C73_vcategorical_accepts fp v :
  (exists v', vcheck vcategorical fp v = Ok v')
  <-> exists a, vk_set v a /\ vk_shaped (c_nc (v_cfg v)) (h_nfeat (v_h v)) a.
Proof. exact (@C73_vcategorical_accepts_l _ _). Qed.
Print Assumptions C73_vcategorical_accepts.

Theorem C73_vcategorical_rejects fp v a :
  vk_set v a -> ~ vk_shaped (c_nc (v_cfg v)) (h_nfeat (v_h v)) a ->
  exists why, forall x ls, vfit_from vcategorical fp v x ls = Err (ValueError why).
Proof. exact (@C73_vcategorical_rejects_l _ _ _). Qed.
Print Assumptions C73_vcategorical_rejects.

(** [score], [decode], [predict], … validate in the same way. *)
Theorem C73_score la fp v s x ls post :
  h_start (v_h v) = Some s -> (exists r, vscore_ (vgaussian la) fp v x ls post = Ok r) ->
  is_type covariance_types (vg_type (h_em (v_h v))) = true
  /\ exists nf a, h_nfeat (v_h v) = Some nf /\ vg_set (h_em (v_h v)) a /\ vg_shaped (vg_type (h_em (v_h v))) (c_nc (v_cfg v)) nf a.
Proof. exact (@C73_score_l _ _ _ _ _ _ _). Qed.
Print Assumptions C73_score.

Theorem C73_values_refuted : exists v : vhmm vgp,
  (** neither [startprob_] nor a row of [transmat_] sums to 1, *)
  h_start (v_h v) = Some [Fin 2] /\ h_trans (v_h v) = Some (fmat 1 1 (fun _ _ => -1))
  (** Dirichlet, scale and degree parameters are negative, *)
  /\ v_sprior v = Some [Fin (-1)] /\ vg_b0 (h_em (v_h v)) = Some [Fin (-1)] /\ vg_d0 (h_em (v_h v)) = Some (DofV [Fin (-1)])
  /\ vg_s0 (h_em (v_h v)) = Some (CV3 [fmat 1 1 (fun _ _ => -1)])
  (** and the documented ValueError does not come. *)
  /\ forall la fp, vcheck (vgaussian la) fp v = Ok v.
Proof. exact (@C73_values_refuted_l). Qed.
Print Assumptions C73_values_refuted.

(** [means_prior] had one row per state, and a sample was in the last cluster. *)
Theorem C73_means_prior {G} la (gr : grng G) (rg : rng G) fp e glob x ls r a :
  let v := ve_v e in
  vg_m0 (h_em (v_h v)) = None -> vg_marg (h_em (v_h v)) = Some a ->
  vfit (vgaussian la) (vg_initc gr) rg fp e glob x ls = Ok r ->
  exists m nf, a = Arr2 m /\ has_shape (c_nc (v_cfg v)) nf m.
Proof. exact (@C73_means_prior_l _ _ _ _ _ _ _ _ _ _ _). Qed.
Print Assumptions C73_means_prior.

Theorem C72_last_cluster {G} la (gr : grng G) (rg : rng G) fp e glob x ls r :
  let v := ve_v e in
  vg_m0 (h_em (v_h v)) = None -> (0 < c_nc (v_cfg v))%nat ->
  vfit (vgaussian la) (vg_initc gr) rg fp e glob x ls = Ok r ->
  exists labels centers, kmeans_result gr (c_nc (v_cfg v)) x labels centers /\ list_max labels = (c_nc (v_cfg v) - 1)%nat.
Proof. exact (@C72_last_cluster_l _ _ _ _ _ _ _ _ _ _). Qed.
Print Assumptions C72_last_cluster.

Theorem C73_means_prior_refuted : exists (v : vhmm vgp) (a : vec),
  vg_fresh v /\ vg_marg (h_em (v_h v)) = Some (Arr1 a) /\ length a = c_nc (v_cfg v)
  /\ forall G la (gr : grng G) (rg : rng G) fp rs glob x ls r, vfit (vgaussian la) (vg_initc gr) rg fp (VEst v rs) glob x ls <> Ok r.
Proof. exact (@C73_means_prior_refuted_l). Qed.
Print Assumptions C73_means_prior_refuted.

Theorem C72_equal_samples_refuted : exists (v : vhmm vgp) (x : list vec),
  vg_fresh v /\ c_nc (v_cfg v) = 2%nat /\ good_data (finite_row 1) [4]%nat x
  /\ forall la (rg : rng unit) rs r, vfit (vgaussian la) (vg_initc one_cluster) rg exact (VEst v rs) tt x (as_lengths [4]%nat) <> Ok r.
Proof. exact (@C72_equal_samples_refuted_l). Qed.
Print Assumptions C72_equal_samples_refuted.

Example C73_applies :
  (forall la fp, vcheck (vgaussian la) fp (flat_vg (Arr2 (fmat 1 1 (fun _ _ => 0)))) = Ok (flat_vg (Arr2 (fmat 1 1 (fun _ _ => 0)))))
  /\ (forall la fp x ls, vfit_from (vgaussian la) fp (flat_vg (Arr1 [Fin 0])) x ls = Err (ValueError "means_prior_"))
  /\ exists v', vcheck vcategorical exact (VHmm (Hmm (Cfg 1 "ste" "ste" "viterbi" "log" 3 (Fin (/ 100)) false (Scal (Fin 1)) (Scal (Fin 1))) None None None
          (Monitor (Fin (/ 100)) 3 false [] 0) (VCatp None (Some (fmat 1 2 (fun _ _ => 1))) (Some (fmat 1 2 (fun _ _ => 2))) None None))
        None None (Some [Fin 1]) (Some [Fin 1]) (Some (fmat 1 1 (fun _ _ => 1))) (Some (fmat 1 1 (fun _ _ => 1)))) = Ok v'.
Proof. exact (@C73_applies_l). Qed.

