(** * Properties C46-C50, C60-C63, C66-C69: variational classes. *)
From Verif Require Import Vcat_thms Vcat_use Vcat_ex Kl_thms Vg_thms Vg_use Vg_ex Vmore_ex.

Theorem C46_fit v nc nf p q ls x v' ev :
  vcat_model v nc nf p q -> good_data (sym_ok nf) ls x ->
  vfit_from vcategorical exact v x (map Z.of_nat ls) = Ok (v', ev) ->
  let params := c_params (v_cfg v) in
  let K := length (v_history v') in
  exists qs : nat -> dirs,
    qs 0%nat = q
    /\ (forall j, qs (S j) = vb_next nc nf params p (chunks ls x) (qs j))
    /\ (forall j, dpos nc nf (qs j))
    /\ (K <= c_n_iter (v_cfg v))%nat
    /\ vcat_model v' nc nf p (qs K) /\ h_nfeat (v_h v') = Some nf
    /\ h_start (v_h v') = keeps_or (has "s" params) K (Some (fvec nc (mean1 nc (d_s (qs K))))) (h_start (v_h v))
    /\ h_trans (v_h v') = keeps_or (has "t" params) K (Some (fmat nc nc (fun i => mean1 nc (d_t (qs K) i)))) (h_trans (v_h v))
    /\ vk_prob (h_em (v_h v')) = keeps_or (has "e" params) K (Some (fmat nc nf (fun i => mean1 nf (d_e (qs K) i)))) (vk_prob (h_em (v_h v))).
Proof. exact (@C46_fit_l _ _ _ _ _ _ _ _ _). Qed.
Print Assumptions C46_fit.

(** What an update does, in observable terms. *)
Theorem C46_update nc nf params p q ls x : (0 < nc)%nat -> (0 < nf)%nat -> good_data (sym_ok nf) ls x ->
  dpos nc nf p -> dpos nc nf q ->
  let cs := chunks ls x in
  let q' := vb_next nc nf params p cs q in
  dpos nc nf q'
  /\ stochastic1 nc (mean1 nc (d_s q')) /\ stochastic2 nc nc (fun i => mean1 nc (d_t q' i))
  /\ stochastic2 nc nf (fun i => mean1 nf (d_e q' i))
  /\ (has "s" params = true -> sumn nc (d_s q') = sumn nc (d_s p) + INR (length ls))
  /\ (has "t" params = true -> sumn nc (fun i => sumn nc (d_t q' i)) = sumn nc (fun i => sumn nc (d_t p i)) + INR (length x - length ls))
  /\ (has "e" params = true -> sumn nc (fun i => sumn nf (d_e q' i)) = sumn nc (fun i => sumn nf (d_e p i)) + INR (length x)).
Proof. exact (@C46_update_l _ _ _ _ _ _ _). Qed.
Print Assumptions C46_update.

(** Training in log space succeeds. *)
Theorem C46_fit_returns v nc nf p q ls x :
  vcat_model v nc nf p q -> good_data (sym_ok nf) ls x -> c_impl (v_cfg v) = "log"%string ->
  (has "t" (c_params (v_cfg v)) = true \/ h_trans (v_h v) <> None) ->
  exists r, vfit_from vcategorical exact v x (map Z.of_nat ls) = Ok r.
Proof. exact (@C46_fit_returns_l _ _ _ _ _ _ _). Qed.
Print Assumptions C46_fit_returns.

(** ** C50: the lower bound. *)
Theorem C50_lower_bound v nc nf p q ls x v' ev :
  vcat_model v nc nf p q -> good_data (sym_ok nf) ls x ->
  vfit_from vcategorical exact v x (map Z.of_nat ls) = Ok (v', ev) ->
  (exists vs : list R, v_history v' = map Fin vs
     /\ forall i j, (i <= j)%nat -> (j < length vs)%nat -> nth i vs 0 <= nth j vs 0)
  /\ ~ In WNotConverging ev.
Proof. exact (@C50_lower_bound_l _ _ _ _ _ _ _ _ _). Qed.
Print Assumptions C50_lower_bound.

(** What the recorded values are. *)
Theorem C50_bound_value v nc nf p q ls x v' ev :
  vcat_model v nc nf p q -> good_data (sym_ok nf) ls x ->
  vfit_from vcategorical exact v x (map Z.of_nat ls) = Ok (v', ev) ->
  exists qs : nat -> dirs,
    qs 0%nat = q /\ (forall j, qs (S j) = vb_next nc nf (c_params (v_cfg v)) p (chunks ls x) (qs j))
    /\ forall j, (j < length (v_history v'))%nat ->
         nth j (v_history v') NaN = Fin (elbo nc nf p (chunks ls x) (qs j)).
Proof. exact (@C50_bound_value_l _ _ _ _ _ _ _ _ _). Qed.
Print Assumptions C50_bound_value.

Theorem C47_weights n q : (2 <= n)%nat -> pos1 n q ->
  (forall i, (i < n)%nat -> 0 < sub1 n q i < mean1 n q i) /\ sumn n (sub1 n q) < 1.
Proof. exact (@C47_weights_l _ _). Qed.
Print Assumptions C47_weights.

Theorem C47_estep v nc nf p q ls x v1 st lp :
  vcat_model v nc nf p q -> h_nfeat (v_h v) = Some nf -> good_data (sym_ok nf) ls x ->
  vestep vcategorical exact x (as_lengths ls) v = Ok (v1, st, lp) ->
  let cs := chunks ls x in
  let params := c_params (v_cfg v) in
  lp = Fin (sumL (fun c => ln (seq_lik nc (w_s nc q) (w_t nc q) (w_e nf q) c)) cs)
  /\ st_nobs st = length ls
  /\ st_start st = fvec nc (fun i => if has "s" params then n_start nc nf q cs i else 0)
  /\ st_trans st = fmat nc nc (fun i j => if has "t" params then n_move nc nf q cs i j else 0)
  /\ st_em st = fmat nc nf (fun i k => if has "e" params then n_emit nc nf q cs i k else 0)
  /\ (forall c, In c cs ->
        (forall t, (t < length c)%nat -> stochastic1 nc (seq_post nc (w_s nc q) (w_t nc q) (w_e nf q) c t))
        /\ nonneg2 nc nc (seq_trans nc (w_s nc q) (w_t nc q) (w_e nf q) c)
        /\ sumn nc (fun i => sumn nc (seq_trans nc (w_s nc q) (w_t nc q) (w_e nf q) c i)) = INR (length c - 1)).
Proof. exact (@C47_estep_l _ _ _ _ _ _ _ _ _ _). Qed.
Print Assumptions C47_estep.

(** ** C63: the Kullback-Leibler divergence of Dirichlet distributions. *)
Theorem C63_kl_dirichlet n q p : (0 < n)%nat -> pos1 n q -> pos1 n p ->
  exists d, kl_dirichlet exact (fvec n q) (fvec n p) = Fin d
    /\ 0 <= d
    /\ ((forall i, (i < n)%nat -> q i = p i) -> d = 0)
    /\ ((2 <= n)%nat -> d = 0 -> forall i, (i < n)%nat -> q i = p i).
Proof. exact (@C63_kl_dirichlet_l _ _ _). Qed.
Print Assumptions C63_kl_dirichlet.

Theorem C60_point_estimate v nc nf p q s t e :
  vcat_model v nc nf p q -> h_nfeat (v_h v) = Some nf ->
  h_start (v_h v) = Some (fvec nc s) -> h_trans (v_h v) = Some (fmat nc nc t) -> vk_prob (h_em (v_h v)) = Some (fmat nc nf e) ->
  stochastic1 nc s -> stochastic2 nc nc t -> stochastic2 nc nf e ->
  cat_model (point_estimate v) nc nf s t e
  /\ (forall x lengths post, vscore_ vcategorical exact v x lengths post = score_ categorical exact (point_estimate v) x lengths post)
  /\ (forall x lengths alg, vdecode vcategorical exact v x lengths alg = decode categorical exact (point_estimate v) x lengths alg).
Proof. exact (@C60_point_estimate_l _ _ _ _ _ _ _ _). Qed.
Print Assumptions C60_point_estimate.

Theorem C60_after_fit v nc nf p q ls x v' ev :
  vcat_model v nc nf p q -> good_data (sym_ok nf) ls x ->
  has "s" (c_params (v_cfg v)) = true -> has "t" (c_params (v_cfg v)) = true -> has "e" (c_params (v_cfg v)) = true ->
  (0 < c_n_iter (v_cfg v))%nat ->
  vfit_from vcategorical exact v x (map Z.of_nat ls) = Ok (v', ev) ->
  exists s t e, stochastic1 nc s /\ stochastic2 nc nc t /\ stochastic2 nc nf e
    /\ cat_model (point_estimate v') nc nf s t e
    /\ (forall y lengths post, vscore_ vcategorical exact v' y lengths post = score_ categorical exact (point_estimate v') y lengths post)
    /\ (forall y lengths alg, vdecode vcategorical exact v' y lengths alg = decode categorical exact (point_estimate v') y lengths alg).
Proof. exact (@C60_after_fit_l _ _ _ _ _ _ _ _ _). Qed.
Print Assumptions C60_after_fit.

(** Without "t" in [params] and without [transmat_], [fit] fails in its second
    iteration. *)
Theorem C61_no_transmat v nc nf p q ls x :
  vcat_model v nc nf p q -> good_data (sym_ok nf) ls x -> c_impl (v_cfg v) = "log"%string ->
  has "t" (c_params (v_cfg v)) = false -> h_trans (v_h v) = None ->
  (2 <= c_n_iter (v_cfg v))%nat -> m_n_iter (h_mon (v_h v)) = c_n_iter (v_cfg v) ->
  vfit_from vcategorical exact v x (map Z.of_nat ls) = Err (AttributeError "transmat_").
Proof. exact (@C61_no_transmat_l _ _ _ _ _ _ _). Qed.
Print Assumptions C61_no_transmat.

(** Without "s" in [params], a fresh model stays "not fitted"; without "e",
    there are no emission probabilities. *)
Theorem C61_no_startprob v nc nf p q ls x v' ev y lengths post :
  vcat_model v nc nf p q -> good_data (sym_ok nf) ls x ->
  has "s" (c_params (v_cfg v)) = false -> h_start (v_h v) = None ->
  vfit_from vcategorical exact v x (map Z.of_nat ls) = Ok (v', ev) ->
  vscore_ vcategorical exact v' y lengths post = Err NotFittedError
  /\ vdecode vcategorical exact v' y lengths None = Err NotFittedError.
Proof. exact (@C61_no_startprob_l _ _ _ _ _ _ _ _ _ _ _ _). Qed.
Print Assumptions C61_no_startprob.

Theorem C61_no_emissionprob v nc nf p q ls x v' ev y m post :
  vcat_model v nc nf p q -> good_data (sym_ok nf) ls x ->
  has "e" (c_params (v_cfg v)) = false -> vk_prob (h_em (v_h v)) = None -> h_start (v_h v') <> None ->
  c_impl (v_cfg v) = "log"%string -> good_data (fun _ => True) m y ->
  vfit_from vcategorical exact v x (map Z.of_nat ls) = Ok (v', ev) ->
  vscore_ vcategorical exact v' y (as_lengths m) post = Err (AttributeError "emissionprob_").
Proof. exact (@C61_no_emissionprob_l _ _ _ _ _ _ _ _ _ _ _ _). Qed.
Print Assumptions C61_no_emissionprob.

Theorem C62_init {G} (rg : rng G) e glob x ls n a b d :
  let v := ve_v e in let c := v_cfg v in let nc := c_nc c in
  pos_dirichlet rg -> valid_rs rg (ve_rs e) -> (0 < nc)%nat -> letters_in (c_params c) ["s"; "t"; "e"]%char ->
  vfresh v -> scalar_prior (v_sarg v) (/ INR nc) a -> scalar_prior (v_targ v) (/ INR nc) b ->
  scalar_prior (vk_arg (h_em (v_h v))) (/ INR n) d ->
  good_data (sym_ok n) ls x ->
  (h_nfeat (v_h v) = Some n \/ (h_nfeat (v_h v) = None /\ Z.of_nat n = zmax x + 1)%Z) ->
  exists e1 glob1 ev p q, vinit vcat_initc rg exact e glob x (map Z.of_nat ls) = Ok (e1, glob1, ev)
    /\ vcat_model (ve_v e1) nc n p q
    /\ v_cfg (ve_v e1) = c /\ h_start (v_h (ve_v e1)) = h_start (v_h v) /\ h_trans (v_h (ve_v e1)) = h_trans (v_h v)
    /\ h_mon (v_h (ve_v e1)) = h_mon (v_h v)
    /\ (forall i, d_s p i = a) /\ (forall i j, d_t p i j = b) /\ (forall i k, d_e p i k = d)
    /\ sumn nc (d_s q) = INR (length ls)
    /\ (forall i, (i < nc)%nat -> sumn nc (d_t q i) = INR (length x) / INR nc)
    /\ (forall i, (i < nc)%nat -> sumn n (d_e q i) = INR (length x) / INR nc).
Proof. exact (@C62_init_l _ _ _ _ _ _ _ _ _ _). Qed.
Print Assumptions C62_init.

(** A fresh estimator can be trained. *)
Theorem C62_fit_returns {G} (rg : rng G) e glob x ls n a b d :
  let v := ve_v e in let c := v_cfg v in let nc := c_nc c in
  pos_dirichlet rg -> valid_rs rg (ve_rs e) -> (0 < nc)%nat -> letters_in (c_params c) ["s"; "t"; "e"]%char ->
  has "t" (c_params c) = true -> c_impl c = "log"%string ->
  vfresh v -> scalar_prior (v_sarg v) (/ INR nc) a -> scalar_prior (v_targ v) (/ INR nc) b ->
  scalar_prior (vk_arg (h_em (v_h v))) (/ INR n) d ->
  good_data (sym_ok n) ls x ->
  (h_nfeat (v_h v) = Some n \/ (h_nfeat (v_h v) = None /\ Z.of_nat n = zmax x + 1)%Z) ->
  exists e1 glob1 ev p q, vfit vcategorical vcat_initc rg exact e glob x (as_lengths ls) = Ok (e1, glob1, ev)
    /\ vcat_model (ve_v e1) nc n p q
    /\ (forall i, d_s p i = a) /\ (forall i j, d_t p i j = b) /\ (forall i k, d_e p i k = d)
    /\ (exists vs : list R, v_history (ve_v e1) = map Fin vs
         /\ forall i j, (i <= j)%nat -> (j < length vs)%nat -> nth i vs 0 <= nth j vs 0).
Proof. exact (@C62_fit_returns_l _ _ _ _ _ _ _ _ _ _). Qed.
Print Assumptions C62_fit_returns.

(** The documented array form of [emissionprob_prior] is refused. *)
Theorem C62_array_prior {G} (rg : rng G) c nf p x ls rs glob m :
  vk_arg p = Some (Arr2 m) -> vk_post p = None ->
  forall n, nf = Some n -> (0 < n)%nat -> nrow m = c_nc c -> ncol m = n -> valid_rs rg rs ->
  vcat_init_em exact rg c nf p x ls rs glob = Err (ValueError "object too deep for desired array").
Proof. exact (@C62_array_prior_l _ _ _ _ _ _ _ _ _ _). Qed.
Print Assumptions C62_array_prior.

(** The functions that stand for scipy's [gammaln] and [digamma] are what the
    Bohr-Mollerup theorem says they are: ln (n-1)! on the integers, the functional
    equation, convexity with [psi] as slope. *)
Theorem C63_special_functions :
  lgam 1 = 0 /\ (forall x, 0 < x -> lgam (x + 1) = lgam x + ln x) /\ (forall x, 0 < x -> psi (x + 1) = psi x + / x)
  /\ (forall x y, 0 < x -> 0 < y -> lgam x + psi x * (y - x) <= lgam y)
  /\ (forall n, lgam (INR (S n)) = ln (INR (fact n))).
Proof. exact (@C63_special_functions_l). Qed.
Print Assumptions C63_special_functions.

Example C46_applies : exists v' ev,
  vfit_from vcategorical exact (ex_v "ste" 3) [0; 1; 1; 0; 1]%Z (map Z.of_nat [3%nat; 2%nat]) = Ok (v', ev)
  /\ v_history v' <> [] /\ ~ In WNotConverging ev.
Proof. exact (@C46_applies_l). Qed.

(** An M-step really moves the posterior. *)
Example C46_update_applies : exists nc nf params p q ls x,
  dpos nc nf p /\ dpos nc nf q /\ good_data (sym_ok nf) ls x
  /\ sumn nc (d_s (vb_next nc nf params p (chunks ls x) q)) = sumn nc (d_s p) + 2
  /\ sumn nc (d_s q) <> sumn nc (d_s p) + 2.
Proof. exact (@C46_update_applies_l). Qed.

Example C60_applies : exists v s t e, h_start (v_h v) = Some (fvec 2 s) /\ stochastic1 2 s /\ cat_model (point_estimate v) 2 2 s t e.
Proof. exact (@C60_applies_l). Qed.

Example C62_applies : exists e1 ev,
  vfit vcategorical vcat_initc flat_rng exact (VEst (fresh_v "ste" 3 None) (RSSeed 0)) tt [0; 1; 1; 0; 1]%Z (as_lengths [3%nat; 2%nat])
  = Ok (e1, tt, ev).
Proof. exact (@C62_applies_l). Qed.

(** A fresh estimator that is not to learn the transition matrix cannot be
    trained for two iterations. *)
Theorem C61_fresh_no_transmat {G} (rg : rng G) e glob x ls n a b d :
  let v := ve_v e in let c := v_cfg v in let nc := c_nc c in
  pos_dirichlet rg -> valid_rs rg (ve_rs e) -> (0 < nc)%nat -> letters_in (c_params c) ["s"; "t"; "e"]%char ->
  has "t" (c_params c) = false -> c_impl c = "log"%string ->
  h_trans (v_h v) = None -> (2 <= c_n_iter c)%nat -> m_n_iter (h_mon (v_h v)) = c_n_iter c ->
  vfresh v -> scalar_prior (v_sarg v) (/ INR nc) a -> scalar_prior (v_targ v) (/ INR nc) b ->
  scalar_prior (vk_arg (h_em (v_h v))) (/ INR n) d ->
  good_data (sym_ok n) ls x ->
  (h_nfeat (v_h v) = Some n \/ (h_nfeat (v_h v) = None /\ Z.of_nat n = zmax x + 1)%Z) ->
  vfit vcategorical vcat_initc rg exact e glob x (as_lengths ls) = Err (AttributeError "transmat_").
Proof. exact (@C61_fresh_no_transmat_l _ _ _ _ _ _ _ _ _ _). Qed.
Print Assumptions C61_fresh_no_transmat.

Theorem C61_refuted : exists e x ls, vfresh (ve_v e) /\ pos_dirichlet flat_rng /\ good_data (sym_ok 2) ls x
  /\ letters_in (c_params (v_cfg (ve_v e))) ["s"; "t"; "e"]%char
  /\ vfit vcategorical vcat_initc flat_rng exact e tt x (as_lengths ls) = Err (AttributeError "transmat_").
Proof. exact (@C61_refuted_l). Qed.
Print Assumptions C61_refuted.

(** A fit that returns, of a model that stays unusable. *)
Theorem C61_not_fitted_refuted : exists v x ls v' ev, vcat_model v 2 2 ex_pr ex_vpo /\ good_data (sym_ok 2) ls x
  /\ vfit_from vcategorical exact v x (map Z.of_nat ls) = Ok (v', ev)
  /\ forall y lengths post, vscore_ vcategorical exact v' y lengths post = Err NotFittedError.
Proof. exact (@C61_not_fitted_refuted_l). Qed.
Print Assumptions C61_not_fitted_refuted.

Theorem C61_no_emissions_refuted : exists v x ls v' ev, vcat_model v 2 2 ex_pr ex_vpo /\ good_data (sym_ok 2) ls x
  /\ vfit_from vcategorical exact v x (map Z.of_nat ls) = Ok (v', ev)
  /\ vscore_ vcategorical exact v' x (as_lengths ls) false = Err (AttributeError "emissionprob_").
Proof. exact (@C61_no_emissions_refuted_l). Qed.
Print Assumptions C61_no_emissions_refuted.

(** The documented (n_components, n_features) array for [emissionprob_prior]. *)
Theorem C62_array_prior_refuted : exists e x ls, pos_dirichlet flat_rng /\ good_data (sym_ok 2) ls x /\ vfresh (ve_v e)
  /\ vk_arg (h_em (v_h (ve_v e))) = Some (Arr2 (fmat 2 2 (fun _ _ => 1))) /\ c_nc (v_cfg (ve_v e)) = 2%nat
  /\ vfit vcategorical vcat_initc flat_rng exact e tt x (as_lengths ls) = Err (ValueError "object too deep for desired array").
Proof. exact (@C62_array_prior_refuted_l). Qed.
Print Assumptions C62_array_prior_refuted.

Theorem C63_zero_entry n q p j :
  (forall i, (i < n)%nat -> 0 <= q i) -> pos1 n p -> (j < n)%nat -> q j = 0 -> 0 < sumn n q ->
  kl_dirichlet exact (fvec n q) (fvec n p) = NaN.
Proof. exact (@C63_zero_entry_l _ _ _ _). Qed.
Print Assumptions C63_zero_entry.

Theorem C50_zero_posterior v x ls v' ev nc nf p q i k :
  c_nc (v_cfg v) = nc -> vk_prior (h_em (v_h v)) = Some (fmat nc nf p) -> vk_post (h_em (v_h v)) = Some (fmat nc nf q) ->
  pos2 nc nf p -> nonneg2 nc nf q -> (i < nc)%nat -> (k < nf)%nat -> q i k = 0 -> 0 < sumn nf (q i) ->
  (0 < c_n_iter (v_cfg v))%nat ->
  vfit_from vcategorical exact v x ls = Ok (v', ev) ->
  nth_error (v_history v') 0 = Some NaN.
Proof. exact (@C50_zero_posterior_l _ _ _ _ _ _ _ _ _ _ _). Qed.
Print Assumptions C50_zero_posterior.

Theorem C50_zero_posterior_refuted : exists v x ls v' ev,
  vk_post (h_em (v_h v)) = Some (fmat 1 2 (fun _ k => 1 - INR k))
  /\ vfit_from vcategorical exact v x ls = Ok (v', ev) /\ v_history v' = [NaN].
Proof. exact (@C50_zero_posterior_refuted_l). Qed.
Print Assumptions C50_zero_posterior_refuted.

Example C63_applies : exists q p : nat -> R, pos1 2 q /\ pos1 2 p /\ exists d, kl_dirichlet exact (fvec 2 q) (fvec 2 p) = Fin d /\ 0 < d.
Proof. exact (@C63_applies_l). Qed.

Theorem C49_normal : forall mq vq mp vp, 0 < vq -> 0 < vp ->
  exists k, kl_normal exact (Fin mq) (Fin vq) (Fin mp) (Fin vp) = Ok (Fin k)
    /\ k = ln (vp / vq) / 2 + ((mq - mp) ^ 2 + vq) / (2 * vp) - 1 / 2
    /\ 0 <= k /\ (k = 0 <-> mq = mp /\ vq = vp).
Proof. exact (@C49_normal_l). Qed.
Print Assumptions C49_normal.

Example C49_normal_applies : exists k, kl_normal exact (Fin 1) (Fin 2) (Fin 0) (Fin 3) = Ok (Fin k) /\ 0 < k.
Proof. exact (@C49_normal_applies_l). Qed.

Theorem C49_multivariate_normal : forall la n mq Q mp P Pi,
  la_right la -> pos_def n Q -> pos_def n P -> inverse n P Pi ->
  exists k, kl_mvn la exact (fvec n mq) (fmat n n Q) (fvec n mp) (fmat n n P) = Ok (Fin k)
    /\ k = 1 / 2 * (ln (det n P) - ln (det n Q) + frob n Pi Q + quad n Pi (fun i => mq i - mp i) - INR n)
    /\ 0 <= k.
Proof. exact (@C49_multivariate_normal_l). Qed.
Print Assumptions C49_multivariate_normal.

Theorem C49_gamma : forall bq cq bp cp, 0 < bq -> 0 < cq -> 0 < bp -> 0 < cp ->
  exists k, kl_gamma exact (Fin bq) (Fin cq) (Fin bp) (Fin cp) = Ok (Fin k) /\ 0 <= k.
Proof. exact (@C49_gamma_l). Qed.
Print Assumptions C49_gamma.

Theorem C49_wishart : forall la n a A Ai b C, la_right la -> (0 < n)%nat ->
  INR n - 1 < a -> INR n - 1 < b -> pos_def n A -> inverse n A Ai -> pos_def n C ->
  exists k, kl_wishart la exact (Fin a) (fmat n n A) (Fin b) (fmat n n C) = Ok (Fin k)
    /\ k = klw_form n a A Ai b C /\ 0 <= k.
Proof. exact (@C49_wishart_l). Qed.
Print Assumptions C49_wishart.

Example C49_wishart_applies : exists la n a A Ai b C, la_right la /\ (0 < n)%nat
  /\ INR n - 1 < a /\ INR n - 1 < b /\ pos_def n A /\ inverse n A Ai /\ pos_def n C.
Proof. exact (@C49_wishart_applies_l). Qed.

Theorem C49_assertion_refuted : exists mq vq mp vp, 0 < vq /\ 0 < vp
  /\ b64 vq = Fin vq /\ b64 vp = Fin vp /\ b64 mq = Fin mq /\ b64 mp = Fin mp
  /\ kl_normal b64 (Fin mq) (Fin vq) (Fin mp) (Fin vp) = Err AssertionError.
Proof. exact (@C49_assertion_refuted_l). Qed.
Print Assumptions C49_assertion_refuted.

(** ** C66: the posteriors. *)
Theorem C66_fit la ty nc nf v p q ls x v' ev : la_right la ->
  vg_model ty nc nf v p q -> good_data (finite_row nf) ls x ->
  has "m" (c_params (v_cfg v)) = true \/ has "c" (c_params (v_cfg v)) = false ->
  vfit_from (vgaussian la) exact v x (map Z.of_nat ls) = Ok (v', ev) ->
  let params := c_params (v_cfg v) in
  let K := length (v_history v') in
  exists qs : nat -> gdirs,
    qs 0%nat = q
    /\ (forall j, qs (S j) = vg_next ty nc nf (chunks ls x) params p (qs j))
    /\ (K <= c_n_iter (v_cfg v))%nat
    /\ vg_model ty nc nf v' p (qs K)
    /\ h_start (v_h v') = keeps_or (has "s" params) K (Some (fvec nc (mean1 nc (g_s (qs K))))) (h_start (v_h v))
    /\ h_trans (v_h v') = keeps_or (has "t" params) K (Some (fmat nc nc (fun i => mean1 nc (g_t (qs K) i)))) (h_trans (v_h v))
    /\ vg_cov (h_em (v_h v')) = keeps_or (has "c" params) K
         (Some (mats_attr ty nc nf (fun i k l => g_S (qs K) i k l / g_d (qs K) i))) (vg_cov (h_em (v_h v))).
Proof. exact (@C66_fit_l _ _ _ _ _ _ _ _ _ _ _). Qed.
Print Assumptions C66_fit.

(** Whatever [params] is, the posterior of one iteration is prior plus statistics. *)
Theorem C66_one_iteration la ty nc nf v p q ls x v' lb : la_right la ->
  vg_model ty nc nf v p q -> good_data (finite_row nf) ls x ->
  vb_step (vgaussian la) exact x (as_lengths ls) v = Ok (v', lb) ->
  let params := c_params (v_cfg v) in
  let q' := vg_next ty nc nf (chunks ls x) params p q in
  vg_holds ty nc nf v' p q'
  /\ lb = Fin (vg_elbo ty nc nf (chunks ls x) p q)
  /\ vg_cov (h_em (v_h v')) = (if has "c" params then Some (mats_attr ty nc nf (fun i k l => g_S q' i k l / g_d q' i))
                               else vg_cov (h_em (v_h v))).
Proof. exact (@C66_one_iteration_l _ _ _ _ _ _ _ _ _ _ _). Qed.
Print Assumptions C66_one_iteration.

(** What an update does, in observable terms: total masses; every posterior mean
    is an average of the prior mean and the samples. *)
Theorem C66_update ty nc nf params p q ls x : (0 < nc)%nat -> (0 < nf)%nat -> good_data (finite_row nf) ls x ->
  gvalid ty nc nf p -> gvalid ty nc nf q -> has "m" params = true ->
  let q' := vg_next ty nc nf (chunks ls x) params p q in
  gvalid ty nc nf q'
  /\ stochastic1 nc (mean1 nc (g_s q')) /\ stochastic2 nc nc (fun i => mean1 nc (g_t q' i))
  /\ sumn nc (g_b q') = sumn nc (g_b p) + INR (length x)
  /\ (has "c" params = true -> if String.eqb ty "tied" then g_d q' 0%nat = g_d p 0%nat + INR (length x)
                              else sumn nc (g_d q') = sumn nc (g_d p) + INR (length x))
  /\ (forall i f a b, (i < nc)%nat -> (f < nf)%nat -> a <= g_m p i f <= b ->
        Forall (fun o => a <= xval o f <= b) x -> a <= g_m q' i f <= b).
Proof. exact (@C66_update_l _ _ _ _ _ _ _ _). Qed.
Print Assumptions C66_update.

(** ** C48: definiteness. *)
Theorem C48_positive_partial la ty nc nf v p q ls x v' ev : la_right la ->
  vg_model ty nc nf v p q -> good_data (finite_row nf) ls x ->
  has "m" (c_params (v_cfg v)) = true \/ has "c" (c_params (v_cfg v)) = false ->
  vfit_from (vgaussian la) exact v x (map Z.of_nat ls) = Ok (v', ev) ->
  exists (S : nat -> nat -> nat -> R) (D : nat -> R),
    vg_s (h_em (v_h v')) = Some (mats_attr ty nc nf S)
    /\ vg_d (h_em (v_h v')) = Some (dof_attr ty nc D)
    /\ (forall i, (i < nc)%nat -> INR nf - 1 < D i /\ pos_def nf (S i) /\ (forall k, (k < nf)%nat -> 0 < S i k k)
          /\ pos_def nf (fun k l => S i k l / D i) /\ (forall k, (k < nf)%nat -> 0 < S i k k / D i))
    /\ (has "c" (c_params (v_cfg v)) = true -> v_history v' <> [] ->
        vg_cov (h_em (v_h v')) = Some (mats_attr ty nc nf (fun i k l => S i k l / D i))).
Proof. exact (@C48_positive_partial_l _ _ _ _ _ _ _ _ _ _ _). Qed.
Print Assumptions C48_positive_partial.

(** ** C67: the lower bound. *)
Theorem C67_lower_bound la ty nc nf v p q ls x v' ev : la_right la ->
  vg_model ty nc nf v p q -> good_data (finite_row nf) ls x ->
  has "m" (c_params (v_cfg v)) = true \/ has "c" (c_params (v_cfg v)) = false ->
  vfit_from (vgaussian la) exact v x (map Z.of_nat ls) = Ok (v', ev) ->
  (exists vs : list R, v_history v' = map Fin vs
     /\ forall i j, (i <= j)%nat -> (j < length vs)%nat -> nth i vs 0 <= nth j vs 0)
  /\ ~ In WNotConverging ev.
Proof. exact (@C67_lower_bound_l _ _ _ _ _ _ _ _ _ _ _). Qed.
Print Assumptions C67_lower_bound.

Theorem C67_bound_value la ty nc nf v p q ls x v' ev : la_right la ->
  vg_model ty nc nf v p q -> good_data (finite_row nf) ls x ->
  has "m" (c_params (v_cfg v)) = true \/ has "c" (c_params (v_cfg v)) = false ->
  vfit_from (vgaussian la) exact v x (map Z.of_nat ls) = Ok (v', ev) ->
  exists qs : nat -> gdirs,
    qs 0%nat = q /\ (forall j, qs (S j) = vg_next ty nc nf (chunks ls x) (c_params (v_cfg v)) p (qs j))
    /\ forall j, (j < length (v_history v'))%nat ->
         nth j (v_history v') NaN = Fin (vg_elbo ty nc nf (chunks ls x) p (qs j)).
Proof. exact (@C67_bound_value_l _ _ _ _ _ _ _ _ _ _ _). Qed.
Print Assumptions C67_bound_value.

(** ** C68: training in log space returns. *)
Theorem C68_fit_returns la ty nc nf v p q ls x : la_right la ->
  vg_model ty nc nf v p q -> good_data (finite_row nf) ls x ->
  has "m" (c_params (v_cfg v)) = true \/ has "c" (c_params (v_cfg v)) = false ->
  c_impl (v_cfg v) = "log"%string ->
  (has "t" (c_params (v_cfg v)) = true \/ h_trans (v_h v) <> None) ->
  exists r, vfit_from (vgaussian la) exact v x (map Z.of_nat ls) = Ok r.
Proof. exact (@C68_fit_returns_l _ _ _ _ _ _ _ _ _). Qed.
Print Assumptions C68_fit_returns.

(** ** C47: the E-step. *)
Theorem C47_gaussian_estep la ty nc nf v p q ls x v1 st lp : la_right la ->
  vg_model ty nc nf v p q -> good_data (finite_row nf) ls x ->
  vestep (vgaussian la) exact x (as_lengths ls) v = Ok (v1, st, lp) ->
  let cs := chunks ls x in
  let params := c_params (v_cfg v) in
  lp = Fin (sumL (fun c => ln (seq_lik nc (gw_s nc q) (gw_t nc q) (vg_w nf q) c)) cs)
  /\ st_nobs st = length ls
  /\ st_start st = fvec nc (fun i => if has "s" params then g_start nc nf cs q i else 0)
  /\ st_trans st = fmat nc nc (fun i j => if has "t" params then g_move nc nf cs q i j else 0)
  /\ gs_post (st_em st) = fvec nc (fun i => if has "m" params || has "c" params then g_n nc nf cs q i else 0)
  /\ gs_obs (st_em st) = fmat nc nf (fun i f => if has "m" params || has "c" params then g_x nc nf cs q i f else 0)
  /\ (forall c, In c cs ->
        (forall t, (t < length c)%nat -> stochastic1 nc (seq_post nc (gw_s nc q) (gw_t nc q) (vg_w nf q) c t))
        /\ nonneg2 nc nc (seq_trans nc (gw_s nc q) (gw_t nc q) (vg_w nf q) c)
        /\ sumn nc (fun i => sumn nc (seq_trans nc (gw_s nc q) (gw_t nc q) (vg_w nf q) c i)) = INR (length c - 1)).
Proof. exact (@C47_gaussian_estep_l _ _ _ _ _ _ _ _ _ _ _ _). Qed.
Print Assumptions C47_gaussian_estep.

Theorem C69_after_fit la ty nc nf v p q ls x v' ev : la_right la ->
  vg_model ty nc nf v p q -> good_data (finite_row nf) ls x ->
  has "s" (c_params (v_cfg v)) = true -> has "t" (c_params (v_cfg v)) = true ->
  has "m" (c_params (v_cfg v)) = true -> has "c" (c_params (v_cfg v)) = true ->
  (0 < c_n_iter (v_cfg v))%nat ->
  vfit_from (vgaussian la) exact v x (map Z.of_nat ls) = Ok (v', ev) ->
  exists s t mu Sg, stochastic1 nc s /\ stochastic2 nc nc t /\ (forall i, (i < nc)%nat -> pos_def nf (Sg i))
    /\ (if vec_type ty then gauss_model (vg_point v') nc nf s t mu (fun i f => Sg i f f)
        else full_model (vg_point v') nc nf s t mu Sg)
    /\ (forall y lengths post, vscore_ (vgaussian la) exact v' y lengths post = score_ gaussian exact (vg_point v') y lengths post)
    /\ (forall y lengths alg, vdecode (vgaussian la) exact v' y lengths alg = decode gaussian exact (vg_point v') y lengths alg).
Proof. exact (@C69_after_fit_l _ _ _ _ _ _ _ _ _ _ _). Qed.
Print Assumptions C69_after_fit.

Example C66_applies : forall ty, (ty = "full" \/ ty = "tied" \/ ty = "diag" \/ ty = "spherical")%string ->
  exists v' ev, vfit_from (vgaussian la_ref) exact (exg_v ty "stmc" 3) exg_x (map Z.of_nat [2; 1]%nat) = Ok (v', ev)
    /\ v_history v' <> [] /\ ~ In WNotConverging ev.
Proof. exact (@C66_applies_l). Qed.

Theorem C48_params_c_refuted : exists la ty nc nf v p q ls x v' ev s c,
  la_right la /\ vg_model ty nc nf v p q /\ good_data (finite_row nf) ls x
  /\ ty = "diag"%string /\ c_params (v_cfg v) = "c"%string
  /\ vfit_from (vgaussian la) exact v x (map Z.of_nat ls) = Ok (v', ev)
  /\ vg_s (h_em (v_h v')) = Some (CV2 (Mat 1 [[Fin s]])) /\ s < 0
  /\ vg_cov (h_em (v_h v')) = Some (CV2 (Mat 1 [[Fin c]])) /\ c < 0.
Proof. exact (@C48_params_c_refuted_l). Qed.
Print Assumptions C48_params_c_refuted.

(** C47: counts 1 and 1 give the weights exp(-1) and exp(-1), below the means
    1/2; and an E-step that succeeds. *)
Example C47_applies :
  sub1 2 (fun _ => 1) 0 = exp (- 1) /\ sub1 2 (fun _ => 1) 1 = exp (- 1) /\ mean1 2 (fun _ => 1) 0 = / 2
  /\ exists v nc nf p q v1 st lp, vcat_model v nc nf p q /\ h_nfeat (v_h v) = Some nf
     /\ vestep vcategorical exact [0; 1; 1; 0; 1]%Z (as_lengths [3; 2]%nat) v = Ok (v1, st, Fin lp)
     /\ st_nobs st = 2%nat.
Proof. exact (@C47_applies_l). Qed.

(** C50: the bounds recorded by a run are real numbers and never fall. *)
Example C50_applies : exists v' ev b vs,
  vfit_from vcategorical exact (ex_v "ste" 3) [0; 1; 1; 0; 1]%Z (map Z.of_nat [3; 2]%nat) = Ok (v', ev)
  /\ v_history v' = Fin b :: map Fin vs /\ b = elbo 2 2 ex_pr (chunks [3; 2]%nat [0; 1; 1; 0; 1]%Z) ex_vpo
  /\ Forall (fun c => b <= c) vs.
Proof. exact (@C50_applies_l). Qed.

(** C48, C67, C69: one run of each covariance type. The covariances read after
    it are positive definite and the bounds never fall. *)
Example C67_applies : forall ty, (ty = "full" \/ ty = "tied" \/ ty = "diag" \/ ty = "spherical")%string ->
  exists v' ev b vs, vfit_from (vgaussian la_ref) exact (exg_v ty "stmc" 3) exg_x (map Z.of_nat [2; 1]%nat) = Ok (v', ev)
    /\ v_history v' = Fin b :: map Fin vs /\ Forall (fun c => b <= c) vs.
Proof. exact (@C67_applies_l). Qed.

Example C48_applies : forall ty, (ty = "full" \/ ty = "tied" \/ ty = "diag" \/ ty = "spherical")%string ->
  exists v' ev Sg, vfit_from (vgaussian la_ref) exact (exg_v ty "stmc" 3) exg_x (map Z.of_nat [2; 1]%nat) = Ok (v', ev)
    /\ vg_cov (h_em (v_h v')) = Some (mats_attr ty 2 2 Sg) /\ pos_def 2 (Sg 0%nat) /\ pos_def 2 (Sg 1%nat).
Proof. exact (@C48_applies_l). Qed.

Example C69_applies : forall ty, (ty = "full" \/ ty = "tied" \/ ty = "diag" \/ ty = "spherical")%string ->
  exists v' ev s t mu Sg, vfit_from (vgaussian la_ref) exact (exg_v ty "stmc" 3) exg_x (map Z.of_nat [2; 1]%nat) = Ok (v', ev)
    /\ stochastic1 2 s
    /\ (if vec_type ty then gauss_model (vg_point v') 2 2 s t mu (fun i f => Sg i f f) else full_model (vg_point v') 2 2 s t mu Sg)
    /\ vscore_ (vgaussian la_ref) exact v' exg_x (as_lengths [2; 1]%nat) false
       = score_ gaussian exact (vg_point v') exg_x (as_lengths [2; 1]%nat) false.
Proof. exact (@C69_applies_l). Qed.

