(** * Properties C02, C14, C21, C25, C32-C37, C41, C42, C64, C65: emission classes. *)
From Verif Require Import Poisson_thms Gauss_thms Gauss_ex Full_thms Full_fit_thms Full_ex Mult_thms.

(** ** Scoring and decoding: every PoissonHMM that passes validation meets the
    hypotheses of C01-C09, with the product of Poisson masses as emissions. *)
Theorem C02_poisson_ready h nc nf pi A lam : pois_model h nc nf pi A lam ->
  ready poisson h nc pi A (counts_ok nf) (fun r i =>
    prodn nf (fun f => let k := Z.to_nat (nth f r 0%Z) in lam i f ^ k * exp (- lam i f) / INR (fact k))).
Proof. exact (@C02_poisson_ready_l _ _ _ _ _ _). Qed.
Print Assumptions C02_poisson_ready.

Theorem C41_weighted_means h nc nf pi A lam ls x h' ev :
  pois_model h nc nf pi A lam -> flat_base h -> pois_default h ->
  sumn nc pi <= 1 -> (forall i, (i < nc)%nat -> sumn nc (A i) <= 1) ->
  good_data (counts_ok nf) ls x -> possible nc pi A (pois_b nf lam) ls x ->
  (has "l" (c_params (h_cfg h)) = true -> all_used nc pi A (pois_b nf lam) (chunks ls x)) ->
  fit_from poisson exact h x (as_lengths ls) = Ok (h', ev) ->
  (exists (pis : nat -> nat -> R) (As lams : nat -> nat -> nat -> R),
    let k := length (m_history (h_mon h')) in
    let b j := pois_b nf (lams j) in
    pis 0%nat = pi /\ As 0%nat = A /\ (forall i f, (i < nc)%nat -> (f < nf)%nat -> lams 0%nat i f = lam i f)
    /\ h_start h' = Some (fvec nc (pis k)) /\ h_trans h' = Some (fmat nc nc (As k))
    /\ po_lam (h_em h') = Some (fmat nc nf (lams k))
    /\ (forall j, (j < k)%nat -> nth j (m_history (h_mon h')) NaN = Fin (data_loglik nc (pis j) (As j) (b j) ls x))
    /\ (forall j, (j <= k)%nat -> nonneg2 nc nf (lams j))
    /\ (has "l" (c_params (h_cfg h)) = true ->
        forall j, (j < k)%nat -> forall i f, (i < nc)%nat -> (f < nf)%nat ->
          let occ := occupancy nc (pis j) (As j) (b j) (chunks ls x) i in
          let tot := weighted_total nc (pis j) (As j) (b j) (chunks ls x) (fun r => IZR (nth f r 0%Z)) i in
          0 < occ /\ lams (S j) i f = tot / occ)
    /\ forall j, (j < k)%nat ->
         data_loglik nc (pis j) (As j) (b j) ls x <= data_loglik nc (pis (S j)) (As (S j)) (b (S j)) ls x)
  /\ ~ In WNotConverging ev.
Proof. exact (@C41_weighted_means_l _ _ _ _ _ _ _ _ _ _). Qed.
Print Assumptions C41_weighted_means.

(** With a gamma prior the observations are weighted by the total number of
    samples, not by the occupancy of the state. *)
Theorem C41_gamma_prior h nc nf pi A lam al be sp tp ls x h' ev :
  pois_model h nc nf pi A lam -> gamma_prior nc nf (h_em h) al be -> nonneg2 nc nf al -> nonneg2 nc nf be ->
  priors (h_cfg h) nc sp tp -> (forall i, (i < nc)%nat -> 1 <= sp i) ->
  (forall i j, (i < nc)%nat -> (j < nc)%nat -> 1 <= tp i j) ->
  sumn nc pi <= 1 -> (forall i, (i < nc)%nat -> sumn nc (A i) <= 1) ->
  good_data (counts_ok nf) ls x -> possible nc pi A (pois_b nf lam) ls x ->
  all_used nc pi A (pois_b nf lam) (chunks ls x) -> has "l" (c_params (h_cfg h)) = true ->
  fit_from poisson exact h x (as_lengths ls) = Ok (h', ev) ->
  exists (pis : nat -> nat -> R) (As lams : nat -> nat -> nat -> R),
    let k := length (m_history (h_mon h')) in
    let b j := pois_b nf (lams j) in
    pis 0%nat = pi /\ As 0%nat = A /\ (forall i f, (i < nc)%nat -> (f < nf)%nat -> lams 0%nat i f = lam i f)
    /\ po_lam (h_em h') = Some (fmat nc nf (lams k)) /\ (forall j, (j <= k)%nat -> nonneg2 nc nf (lams j))
    /\ forall j, (j < k)%nat -> forall i f, (i < nc)%nat -> (f < nf)%nat ->
         let occ := occupancy nc (pis j) (As j) (b j) (chunks ls x) i in
         let tot := weighted_total nc (pis j) (As j) (b j) (chunks ls x) (fun r => IZR (nth f r 0%Z)) i in
         lams (S j) i f = (al i f + INR (length x) * (tot / occ)) / (be i f + INR (length x)).
Proof. exact (@C41_gamma_prior_l _ _ _ _ _ _ _ _ _ _ _ _ _ _). Qed.
Print Assumptions C41_gamma_prior.

(** A state with no posterior weight gets undefined rates. *)
Theorem C41_unused_state_nan h nc nf pi A lam ls x h' v i f :
  pois_model h nc nf pi A lam -> h_nfeat h = Some nf ->
  (exists al be, gamma_prior nc nf (h_em h) al be) ->
  good_data (counts_ok nf) ls x ->
  (forall c, In c (chunks ls x) -> scorable nc pi A (pois_b nf lam) (c_impl (h_cfg h)) c) ->
  has "l" (c_params (h_cfg h)) = true ->
  em_step poisson exact x (as_lengths ls) h = Ok (h', v) ->
  (i < nc)%nat -> (f < nf)%nat -> occupancy nc pi A (pois_b nf lam) (chunks ls x) i = 0 ->
  exists m, po_lam (h_em h') = Some m /\ mget m i f = NaN.
Proof. exact (@C41_unused_state_nan_l _ _ _ _ _ _ _ _ _ _ _ _). Qed.
Print Assumptions C41_unused_state_nan.

(** ** The other properties of training, for PoissonHMM. *)
Theorem C21_poisson fp h x lengths h' ev :
  fit_from poisson fp h x lengths = Ok (h', ev) ->
  has "l" (c_params (h_cfg h)) = false -> h_em h' = h_em h.
Proof. exact (@C21_poisson_l _ _ _ _ _ _). Qed.
Print Assumptions C21_poisson.

Theorem C25_poisson h nc nf pi A lam al be sp tp ls x h' ev :
  pois_model h nc nf pi A lam -> gamma_prior nc nf (h_em h) al be -> nonneg2 nc nf al -> nonneg2 nc nf be ->
  priors (h_cfg h) nc sp tp -> (forall i, (i < nc)%nat -> 1 <= sp i) ->
  (forall i j, (i < nc)%nat -> (j < nc)%nat -> 1 <= tp i j) ->
  good_data (counts_ok nf) ls x -> possible nc pi A (pois_b nf lam) ls x ->
  (has "l" (c_params (h_cfg h)) = true -> all_used nc pi A (pois_b nf lam) (chunks ls x)) ->
  fit_from poisson exact h x (as_lengths ls) = Ok (h', ev) ->
  fit_from poisson exact (with_cfg (cfg_impl "log") h) x (as_lengths ls) = Ok (with_cfg (cfg_impl "log") h', ev).
Proof. exact (@C25_poisson_l _ _ _ _ _ _ _ _ _ _ _ _ _ _). Qed.
Print Assumptions C25_poisson.

Theorem C14_poisson h nc nf pi A lam ls x st lp :
  trainable poisson h nc pi A (counts_ok nf) (pois_b nf lam) -> good_data (counts_ok nf) ls x ->
  h_nfeat h = Some nf -> has "l" (c_params (h_cfg h)) = true -> nonneg2 nc nf lam ->
  (forall c, In c (chunks ls x) -> scorable nc pi A (pois_b nf lam) (c_impl (h_cfg h)) c) ->
  do_estep poisson exact h (fvec nc pi) (fmat nc nc A) x (as_lengths ls) = Ok (st, lp) ->
  po_post (st_em st) = fvec nc (occupancy nc pi A (pois_b nf lam) (chunks ls x))
  /\ po_obs (st_em st) = fmat nc nf (fun i f =>
       weighted_total nc pi A (pois_b nf lam) (chunks ls x) (fun r => IZR (nth f r 0%Z)) i)
  /\ sumn nc (occupancy nc pi A (pois_b nf lam) (chunks ls x)) = INR (length x).
Proof. exact (@C14_poisson_l _ _ _ _ _ _ _ _ _ _). Qed.
Print Assumptions C14_poisson.

(** The textbook posterior mean uses the occupancy of the state. *)
Theorem C41_gamma_prior_refuted : exists h nc nf pi A lam al be ls x h' ev m i f,
  pois_model h nc nf pi A lam /\ gamma_prior nc nf (h_em h) al be
  /\ 0 < al i f /\ 0 < be i f /\ (i < nc)%nat /\ (f < nf)%nat
  /\ good_data (counts_ok nf) ls x /\ possible nc pi A (pois_b nf lam) ls x
  /\ all_used nc pi A (pois_b nf lam) (chunks ls x)
  /\ fit_from poisson exact h x (as_lengths ls) = Ok (h', ev) /\ length (m_history (h_mon h')) = 1%nat
  /\ po_lam (h_em h') = Some m
  /\ mget m i f <> Fin ((al i f + weighted_total nc pi A (pois_b nf lam) (chunks ls x) (fun r => IZR (nth f r 0%Z)) i)
                        / (be i f + occupancy nc pi A (pois_b nf lam) (chunks ls x) i)).
Proof. exact (@C41_gamma_prior_refuted_l). Qed.
Print Assumptions C41_gamma_prior_refuted.

Example C41_applies : exists h' ev,
  fit_from poisson exact (ex_po "stl" 0 0) ex_px (as_lengths [2]%nat) = Ok (h', ev)
  /\ length (m_history (h_mon h')) = 1%nat /\ pois_default (ex_po "stl" 0 0)
  /\ po_lam (h_em h') = Some (fmat 2 1 (fun i _ => match i with 0%nat => 0 | _ => 4 end)).
Proof. exact (@C41_applies_l). Qed.

Example C41_unused_applies : exists h' v,
  pois_model ex_pu 2 1 st_pi st_A (fun _ _ => 1)
  /\ (forall c, In c (chunks [2]%nat ex_px) -> scorable 2 st_pi st_A (pois_b 1 (fun _ _ => 1)) "log" c)
  /\ occupancy 2 st_pi st_A (pois_b 1 (fun _ _ => 1)) (chunks [2]%nat ex_px) 1 = 0
  /\ em_step poisson exact ex_px (as_lengths [2]%nat) ex_pu = Ok (h', v).
Proof. exact (@C41_unused_applies_l). Qed.

Example C25_poisson_applies : exists h' ev,
  fit_from poisson exact (ex_po "stl" 1 2) ex_px (as_lengths [2]%nat) = Ok (h', ev)
  /\ gamma_prior 2 1 (h_em (ex_po "stl" 1 2)) (fun _ _ => 1) (fun _ _ => 2)
  /\ all_used 2 sw_pi sw_A (pois_b 1 (fun _ _ => 1)) (chunks [2]%nat ex_px).
Proof. exact (@C25_poisson_applies_l). Qed.

Example C21_poisson_applies : exists h' ev,
  fit_from poisson exact (ex_po "st" 0 0) ex_px (as_lengths [2]%nat) = Ok (h', ev)
  /\ has "l" (c_params (h_cfg (ex_po "st" 0 0))) = false.
Proof. exact (@C21_poisson_applies_l). Qed.

(** ** C02, C32: densities. *)
Theorem C02_gaussian_ready h nc nf pi A mu var : gauss_model h nc nf pi A mu var ->
  ready gaussian h nc pi A (finite_row nf) (fun o i =>
    prodn nf (fun f => let v := Rmax (var i f) tiny in
      exp (- ((xval o f - mu i f) ^ 2 / (2 * v))) / sqrt (2 * PI * v))).
Proof. exact (@C02_gaussian_ready_l _ _ _ _ _ _ _). Qed.
Print Assumptions C02_gaussian_ready.

(** Variances below the floor 2^-1022, including zero and negative ones, count
    as the floor; every entry is a finite number. *)
Theorem C32_floored_density nc nf mu var x : (0 < nf)%nat -> x <> [] -> Forall (finite_row nf) x ->
  log_mvn_density exact "diag" x (fmat nc nf mu) (CV2 (fmat nc nf var))
  = Ok (fmat (length x) nc (fun t i => ln (prodn nf (fun f =>
      let v := Rmax (var i f) (/ 2 ^ 1022) in
      exp (- ((xval (nth t x []) f - mu i f) ^ 2 / (2 * v))) / sqrt (2 * PI * v))))).
Proof. exact (@C32_floored_density_l _ _ _ _ _). Qed.
Print Assumptions C32_floored_density.

Theorem C32_diag_density nc nf mu var x : (0 < nf)%nat -> x <> [] -> Forall (finite_row nf) x ->
  (forall i f, (i < nc)%nat -> (f < nf)%nat -> / 2 ^ 1022 <= var i f) ->
  log_mvn_density exact "diag" x (fmat nc nf mu) (CV2 (fmat nc nf var))
  = Ok (fmat (length x) nc (fun t i => ln (prodn nf (fun f =>
      exp (- ((xval (nth t x []) f - mu i f) ^ 2 / (2 * var i f))) / sqrt (2 * PI * var i f))))).
Proof. exact (@C32_diag_density_l _ _ _ _ _). Qed.
Print Assumptions C32_diag_density.

(** In any arithmetic. *)
Theorem C32_spherical_is_diag fp x means v : length v = nrow means ->
  log_mvn_density fp "spherical" x means (CV1 v)
  = log_mvn_density fp "diag" x means (CV2 (mtab (nrow means) (ncol means) (fun i _ => vget v i))).
Proof. exact (@C32_spherical_is_diag_l _ _ _ _). Qed.
Print Assumptions C32_spherical_is_diag.

(** Under rounding (any monotone rounding that keeps integers up to 2^53, in
    particular binary64): never NaN for finite input. *)
Theorem C32_never_nan fp nc nf mu var x ty cv : monotone fp ->
  (forall z, (Z.abs z <= 2 ^ 53)%Z -> fp (IZR z) = Fin (IZR z)) ->
  (0 < nf)%nat -> (Z.of_nat nf <= 2 ^ 43)%Z -> x <> [] -> Forall (finite_row nf) x ->
  vcov nc nf var ty cv ->
  exists m, log_mvn_density fp ty x (fmat nc nf mu) cv = Ok m
    /\ forall t i, (t < length x)%nat -> (i < nc)%nat -> mget m t i <> NaN.
Proof. exact (@C32_never_nan_l _ _ _ _ _ _ _ _). Qed.
Print Assumptions C32_never_nan.

Example C32_never_nan_applies : monotone b64 /\ (forall z, (Z.abs z <= 2 ^ 53)%Z -> b64 (IZR z) = Fin (IZR z))
  /\ vcov 1 2 (fun _ _ => 0) "spherical" (CV1 (fvec 1 (fun _ => 0)))
  /\ Forall (finite_row 2) [fvec 2 (fun f => INR f)].
Proof. exact (@C32_never_nan_applies_l). Qed.

(** ** C14, C21, C25. *)
Theorem C21_gaussian_means fp h x lengths h' ev :
  fit_from gaussian fp h x lengths = Ok (h', ev) ->
  has "m" (c_params (h_cfg h)) = false -> ga_means (h_em h') = ga_means (h_em h).
Proof. exact (@C21_gaussian_means_l _ _ _ _ _ _). Qed.
Print Assumptions C21_gaussian_means.

Theorem C21_gaussian_covars fp h x lengths h' ev :
  fit_from gaussian fp h x lengths = Ok (h', ev) ->
  has "c" (c_params (h_cfg h)) = false -> ga_covars (h_em h') = ga_covars (h_em h).
Proof. exact (@C21_gaussian_covars_l _ _ _ _ _ _). Qed.
Print Assumptions C21_gaussian_covars.

Theorem C25_gaussian h nc nf pi A mu var m0 w cp a sp tp ls x h' ev :
  gauss_model h nc nf pi A mu var -> gauss_hyper h nc nf m0 w cp a -> nonneg2 nc nf w ->
  priors (h_cfg h) nc sp tp -> (forall i, (i < nc)%nat -> 1 <= sp i) ->
  (forall i j, (i < nc)%nat -> (j < nc)%nat -> 1 <= tp i j) ->
  good_data (finite_row nf) ls x -> possible nc pi A (gauss_b nf mu (floored var)) ls x ->
  (has "m" (c_params (h_cfg h)) = true ->
     all_used nc pi A (gauss_b nf mu (floored var)) (chunks ls x) \/ (forall i f, (i < nc)%nat -> (f < nf)%nat -> 0 < w i f)) ->
  fit_from gaussian exact h x (as_lengths ls) = Ok (h', ev) ->
  fit_from gaussian exact (with_cfg (cfg_impl "log") h) x (as_lengths ls) = Ok (with_cfg (cfg_impl "log") h', ev).
Proof. exact (@C25_gaussian_l _ _ _ _ _ _ _ _ _ _ _ _ _ _ _ _ _). Qed.
Print Assumptions C25_gaussian.

Theorem C14_gaussian h nc nf pi A mu var ls x st lp :
  gauss_model h nc nf pi A mu var -> good_data (finite_row nf) ls x -> h_nfeat h = Some nf ->
  has "m" (c_params (h_cfg h)) = true -> has "c" (c_params (h_cfg h)) = true ->
  (forall c, In c (chunks ls x) -> scorable nc pi A (gauss_b nf mu (floored var)) (c_impl (h_cfg h)) c) ->
  do_estep gaussian exact h (fvec nc pi) (fmat nc nc A) x (as_lengths ls) = Ok (st, lp) ->
  let occ := occupancy nc pi A (gauss_b nf mu (floored var)) (chunks ls x) in
  let tot := weighted_total nc pi A (gauss_b nf mu (floored var)) (chunks ls x) in
  gs_post (st_em st) = fvec nc occ /\ sumn nc occ = INR (length x)
  /\ gs_obs (st_em st) = fmat nc nf (fun i f => tot (fun o => xval o f) i)
  /\ gs_obs2 (st_em st) = fmat nc nf (fun i f => tot (fun o => xval o f * xval o f) i).
Proof. exact (@C14_gaussian_l _ _ _ _ _ _ _ _ _ _ _). Qed.
Print Assumptions C14_gaussian.

Theorem C34_means_and_variances h nc nf pi A mu var c ls x h' ev :
  gauss_model h nc nf pi A mu var -> flat_base h -> gauss_default h c -> 0 <= c ->
  sumn nc pi <= 1 -> (forall i, (i < nc)%nat -> sumn nc (A i) <= 1) ->
  good_data (finite_row nf) ls x -> possible nc pi A (gauss_b nf mu (floored var)) ls x ->
  (has "m" (c_params (h_cfg h)) = true -> all_used nc pi A (gauss_b nf mu (floored var)) (chunks ls x)) ->
  fit_from gaussian exact h x (as_lengths ls) = Ok (h', ev) ->
  exists pis As mus vs, gauss_traj h nc nf pi A mu var h' pis As mus vs
  /\ forall j, (j < length (m_history (h_mon h')))%nat ->
       let b := gauss_b nf (mus j) (floored (vs j)) in
       let occ := occupancy nc (pis j) (As j) b (chunks ls x) in
       let tot := weighted_total nc (pis j) (As j) b (chunks ls x) in
       forall i f, (i < nc)%nat -> (f < nf)%nat ->
         (has "m" (c_params (h_cfg h)) = true -> 0 < occ i /\ mus (S j) i f = tot (fun o => xval o f) i / occ i)
         /\ (has "c" (c_params (h_cfg h)) = true -> 0 < c -> 0 < vs (S j) i f)
         /\ (has "c" (c_params (h_cfg h)) = true -> has "m" (c_params (h_cfg h)) = true -> c = 0 -> / 10 ^ 5 <= occ i ->
             vs (S j) i f = if String.eqb (ga_type (h_em h)) "spherical"
                            then sumn nf (fun f => tot (fun o => (xval o f - mus (S j) i f) ^ 2) i / occ i) / INR nf
                            else tot (fun o => (xval o f - mus (S j) i f) ^ 2) i / occ i).
Proof. exact (@C34_means_and_variances_l _ _ _ _ _ _ _ _ _ _ _ _). Qed.
Print Assumptions C34_means_and_variances.

Theorem C35_penalised_monotone h nc nf pi A mu var c ls x h' ev :
  gauss_model h nc nf pi A mu var -> flat_base h -> gauss_default h c -> 0 <= c ->
  sumn nc pi <= 1 -> (forall i, (i < nc)%nat -> sumn nc (A i) <= 1) ->
  good_data (finite_row nf) ls x -> possible nc pi A (gauss_b nf mu (floored var)) ls x ->
  (has "m" (c_params (h_cfg h)) = true -> all_used nc pi A (gauss_b nf mu (floored var)) (chunks ls x)) ->
  fit_from gaussian exact h x (as_lengths ls) = Ok (h', ev) ->
  exists pis As mus vs, gauss_traj h nc nf pi A mu var h' pis As mus vs
  /\ let L j := data_loglik nc (pis j) (As j) (gauss_b nf (mus j) (floored (vs j))) ls x in
     let penalty j := sumn nc (fun i => sumn nf (fun f => c / (2 * Rmax (vs j i f) tiny))) in
     forall j, (j < length (m_history (h_mon h')))%nat ->
       nth j (m_history (h_mon h')) NaN = Fin (L j)
       /\ ((has "c" (c_params (h_cfg h)) = true -> has "m" (c_params (h_cfg h)) = true
             /\ forall i, (i < nc)%nat ->
                  / 10 ^ 5 <= occupancy nc (pis j) (As j) (gauss_b nf (mus j) (floored (vs j))) (chunks ls x) i) ->
           L j - penalty j <= L (S j) - penalty (S j)
           /\ (c = 0 -> L j <= L (S j))).
Proof. exact (@C35_penalised_monotone_l _ _ _ _ _ _ _ _ _ _ _ _). Qed.
Print Assumptions C35_penalised_monotone.

(** ** C36: what happens when only the covariances are trained. *)
Theorem C36_frozen_means h nc nf pi A mu var c ls x h' ev :
  gauss_model h nc nf pi A mu var -> flat_base h -> gauss_default h c -> 0 <= c ->
  sumn nc pi <= 1 -> (forall i, (i < nc)%nat -> sumn nc (A i) <= 1) ->
  good_data (finite_row nf) ls x -> possible nc pi A (gauss_b nf mu (floored var)) ls x ->
  has "m" (c_params (h_cfg h)) = false -> has "c" (c_params (h_cfg h)) = true -> ga_type (h_em h) = "diag"%string ->
  fit_from gaussian exact h x (as_lengths ls) = Ok (h', ev) ->
  exists pis As mus vs, gauss_traj h nc nf pi A mu var h' pis As mus vs
  /\ forall j, (j < length (m_history (h_mon h')))%nat -> forall i f, (i < nc)%nat -> (f < nf)%nat ->
       mus (S j) i f = mus j i f
       /\ vs (S j) i f = (c + weighted_total nc (pis j) (As j) (gauss_b nf (mus j) (floored (vs j))) (chunks ls x)
                                (fun o => xval o f * xval o f) i) * 10 ^ 5.
Proof. exact (@C36_frozen_means_l _ _ _ _ _ _ _ _ _ _ _ _). Qed.
Print Assumptions C36_frozen_means.

(** "diag", and "spherical" with one variance per state: one diagonal matrix per
    state, with the variances used by the emission densities ([C02]). *)
Theorem C37_vector_types h nc nf pi A mu var : gauss_model h nc nf pi A mu var -> h_nfeat h = Some nf ->
  (ga_type (h_em h) = "diag"%string \/ exists s, ga_covars (h_em h) = Some (CV1 s)) ->
  covars_get exact h = Ok (tab nc (fun i => diag_mat nf (var i))).
Proof. exact (@C37_vector_types_l _ _ _ _ _ _ _). Qed.
Print Assumptions C37_vector_types.

(** "full" and "tied", in any arithmetic: the exposed matrices are the ones the
    densities are computed from. *)
Theorem C37_matrix_types fp h nf m cv : h_nfeat h = Some nf -> ga_means (h_em h) = Some m ->
  nrow m = c_nc (h_cfg h) -> ncol m = nf -> ga_covars (h_em h) = Some cv ->
  (ga_type (h_em h) = "full"%string /\ (exists l, cv = CV3 l /\ length l = c_nc (h_cfg h))
   \/ ga_type (h_em h) = "tied"%string /\ exists s, cv = CV2 (mtab nf nf s)) ->
  exists l, covars_get fp h = Ok l /\ length l = c_nc (h_cfg h)
    /\ forall x, log_mvn_density fp (ga_type (h_em h)) x m cv = log_mvn_density fp "full" x m (CV3 l).
Proof. exact (@C37_matrix_types_l _ _ _ _ _). Qed.
Print Assumptions C37_matrix_types.

(** After training a "spherical" model: [n_components * n_features] matrices,
    the [r]-th holding the variance of state [r / n_features]. *)
Theorem C37_fitted_spherical h nc nf pi A mu var c ls x h' ev :
  gauss_model h nc nf pi A mu var -> flat_base h -> gauss_default h c -> 0 <= c ->
  sumn nc pi <= 1 -> (forall i, (i < nc)%nat -> sumn nc (A i) <= 1) ->
  good_data (finite_row nf) ls x -> possible nc pi A (gauss_b nf mu (floored var)) ls x ->
  (has "m" (c_params (h_cfg h)) = true -> all_used nc pi A (gauss_b nf mu (floored var)) (chunks ls x)) ->
  has "c" (c_params (h_cfg h)) = true -> ga_type (h_em h) = "spherical"%string ->
  fit_from gaussian exact h x (as_lengths ls) = Ok (h', ev) -> (0 < length (m_history (h_mon h')))%nat ->
  exists pis As mus vs, gauss_traj h nc nf pi A mu var h' pis As mus vs
  /\ ga_covars (h_em h') = Some (CV2 (fmat nc nf (vs (length (m_history (h_mon h'))))))
  /\ covars_get exact h' = Ok (tab (nc * nf) (fun r =>
       diag_mat nf (fun _ => vs (length (m_history (h_mon h'))) (r / nf)%nat 0%nat))).
Proof. exact (@C37_fitted_spherical_l _ _ _ _ _ _ _ _ _ _ _ _). Qed.
Print Assumptions C37_fitted_spherical.

Theorem C34_rare_state_refuted : exists h nc nf pi A mu var ls x h' ev m' v' i f,
  gauss_model h nc nf pi A mu var /\ flat_base h /\ gauss_default h 0 /\ ga_type (h_em h) = "diag"%string
  /\ has "m" (c_params (h_cfg h)) = true /\ has "c" (c_params (h_cfg h)) = true
  /\ sumn nc pi = 1 /\ (forall i, (i < nc)%nat -> sumn nc (A i) = 1)
  /\ good_data (finite_row nf) ls x /\ possible nc pi A (gauss_b nf mu (floored var)) ls x
  /\ all_used nc pi A (gauss_b nf mu (floored var)) (chunks ls x)
  /\ fit_from gaussian exact h x (as_lengths ls) = Ok (h', ev) /\ length (m_history (h_mon h')) = 1%nat
  /\ ga_means (h_em h') = Some (fmat nc nf m') /\ ga_covars (h_em h') = Some (CV2 (fmat nc nf v'))
  /\ (i < nc)%nat /\ (f < nf)%nat
  /\ v' i f <> weighted_total nc pi A (gauss_b nf mu (floored var)) (chunks ls x) (fun o => (xval o f - m' i f) ^ 2) i
               / occupancy nc pi A (gauss_b nf mu (floored var)) (chunks ls x) i.
Proof. exact (@C34_rare_state_refuted_l). Qed.
Print Assumptions C34_rare_state_refuted.

(** The spurious variance lowers the likelihood, which is what training with
    [covars_prior = 0] claims to increase. *)
Theorem C35_rare_state_refuted : exists h nc nf pi A mu var ls x h' ev pi' A' mu' var',
  gauss_model h nc nf pi A mu var /\ flat_base h /\ gauss_default h 0 /\ ga_type (h_em h) = "diag"%string
  /\ has "m" (c_params (h_cfg h)) = true /\ has "c" (c_params (h_cfg h)) = true
  /\ sumn nc pi = 1 /\ (forall i, (i < nc)%nat -> sumn nc (A i) = 1)
  /\ good_data (finite_row nf) ls x /\ possible nc pi A (gauss_b nf mu (floored var)) ls x
  /\ all_used nc pi A (gauss_b nf mu (floored var)) (chunks ls x)
  /\ fit_from gaussian exact h x (as_lengths ls) = Ok (h', ev) /\ length (m_history (h_mon h')) = 1%nat
  /\ h_start h' = Some (fvec nc pi') /\ h_trans h' = Some (fmat nc nc A')
  /\ ga_means (h_em h') = Some (fmat nc nf mu') /\ ga_covars (h_em h') = Some (CV2 (fmat nc nf var'))
  /\ data_loglik nc pi' A' (gauss_b nf mu' (floored var')) ls x
     < data_loglik nc pi A (gauss_b nf mu (floored var)) ls x.
Proof. exact (@C35_rare_state_refuted_l). Qed.
Print Assumptions C35_rare_state_refuted.

Example C34_applies : exists h h' ev,
  gauss_model h 2 2 sw_pi sw_A (fun _ _ => 1) (fun _ _ => 1) /\ flat_base h /\ gauss_default h 0
  /\ fit_from gaussian exact h sx (as_lengths [2; 2]%nat) = Ok (h', ev)
  /\ ga_means (h_em h') = Some (fmat 2 2 (fun i _ => match i with 0%nat => 1 | _ => 7 end))
  /\ ga_covars (h_em h') = Some (CV2 (fmat 2 2 (fun i _ => match i with 0%nat => 1 | _ => 4 end))).
Proof. exact (@C34_applies_l). Qed.

(** With "spherical" covariances the fitted [covars_] has four matrices for two
    states; the one at index 1 is the covariance of state 0, while scoring uses
    variance 4 for state 1. *)
Theorem C37_fitted_spherical_refuted : exists h nc nf pi A mu var ls x h' ev v' l,
  gauss_model h nc nf pi A mu var /\ flat_base h /\ gauss_default h 0 /\ ga_type (h_em h) = "spherical"%string
  /\ good_data (finite_row nf) ls x /\ possible nc pi A (gauss_b nf mu (floored var)) ls x
  /\ all_used nc pi A (gauss_b nf mu (floored var)) (chunks ls x)
  /\ fit_from gaussian exact h x (as_lengths ls) = Ok (h', ev)
  /\ ga_covars (h_em h') = Some (CV2 (fmat nc nf v')) /\ covars_get exact h' = Ok l
  /\ nc = 2%nat /\ length l = 4%nat
  /\ nth 1 l (Mat 0 []) = diag_mat nf (fun _ => 1) /\ (forall f, (f < nf)%nat -> v' 1%nat f = 4).
Proof. exact (@C37_fitted_spherical_refuted_l). Qed.
Print Assumptions C37_fitted_spherical_refuted.

(** The hypotheses of C35 hold for "diag" and [covars_prior = 0]: both states
    are occupied twice, and the likelihood increases. *)
Example C35_applies : exists h h' ev,
  gauss_model h 2 2 sw_pi sw_A (fun _ _ => 1) (fun _ _ => 1) /\ flat_base h /\ gauss_default h 0
  /\ has "c" (c_params (h_cfg h)) = true /\ has "m" (c_params (h_cfg h)) = true
  /\ (forall i, (i < 2)%nat -> / 10 ^ 5 <= occupancy 2 sw_pi sw_A (gauss_b 2 (fun _ _ => 1) (floored (fun _ _ => 1))) (chunks [2; 2]%nat sx) i)
  /\ fit_from gaussian exact h sx (as_lengths [2; 2]%nat) = Ok (h', ev) /\ length (m_history (h_mon h')) = 1%nat.
Proof. exact (@C35_applies_l). Qed.

Example C25_gaussian_applies : exists h' ev,
  fit_from gaussian exact (ex_sw "diag" "stmc" (/ 100)) sx (as_lengths [2; 2]%nat) = Ok (h', ev).
Proof. exact (@C25_gaussian_applies_l). Qed.

Example C21_gaussian_applies : exists h' ev,
  fit_from gaussian exact (ex_sw "spherical" "c" (/ 100)) sx (as_lengths [2; 2]%nat) = Ok (h', ev)
  /\ ga_means (h_em h') = Some (fmat 2 2 (fun _ _ => 1)).
Proof. exact (@C21_gaussian_applies_l). Qed.

Theorem C36_frozen_means_refuted : exists h nc nf pi A mu var ls x h' ev v' i f,
  gauss_model h nc nf pi A mu var /\ flat_base h /\ gauss_default h 0 /\ ga_type (h_em h) = "diag"%string
  /\ has "m" (c_params (h_cfg h)) = false /\ has "c" (c_params (h_cfg h)) = true
  /\ sumn nc pi = 1 /\ (forall i, (i < nc)%nat -> sumn nc (A i) = 1)
  /\ good_data (finite_row nf) ls x /\ possible nc pi A (gauss_b nf mu (floored var)) ls x
  /\ fit_from gaussian exact h x (as_lengths ls) = Ok (h', ev) /\ length (m_history (h_mon h')) = 1%nat
  /\ ga_covars (h_em h') = Some (CV2 (fmat nc nf v')) /\ (i < nc)%nat /\ (f < nf)%nat
  /\ v' i f = 2 * 10 ^ 5
  /\ occupancy nc pi A (gauss_b nf mu (floored var)) (chunks ls x) i = 2
  /\ weighted_total nc pi A (gauss_b nf mu (floored var)) (chunks ls x) (fun o => (xval o f - mu i f) ^ 2) i
      / occupancy nc pi A (gauss_b nf mu (floored var)) (chunks ls x) i = 1.
Proof. exact (@C36_frozen_means_refuted_l). Qed.
Print Assumptions C36_frozen_means_refuted.

(** C33: 'full'. *)
Theorem C33_full_density nc nf mu (Sg : nat -> nat -> nat -> R) x : x <> [] -> Forall (finite_row nf) x ->
  (forall i, (i < nc)%nat -> pos_def nf (Sg i)) ->
  exists m, log_mvn_density exact "full" x (fmat nc nf mu) (CV3 (tab nc (fun i => fmat nf nf (Sg i)))) = Ok m
    /\ nrow m = length x /\ ncol m = nc
    /\ forall t i, (t < length x)%nat -> (i < nc)%nat ->
       let d f := xval (nth t x []) f - mu i f in
       (exists y, forall k, (k < nf)%nat -> sumn nf (fun j => Sg i k j * y j) = d k)
       /\ (forall y, (forall k, (k < nf)%nat -> sumn nf (fun j => Sg i k j * y j) = d k) ->
           mget m t i = Fin (- (1 / 2) * (INR nf * ln (2 * PI) + ln (det nf (Sg i)) + sumn nf (fun f => d f * y f)))).
Proof. exact (@C33_full_density_l _ _ _ _ _). Qed.
Print Assumptions C33_full_density.

(** The same result as the log of the normal density. *)
Theorem C33_full_is_log_density nc nf mu (Sg : nat -> nat -> nat -> R) x t i p : x <> [] -> Forall (finite_row nf) x ->
  (forall i, (i < nc)%nat -> pos_def nf (Sg i)) -> (t < length x)%nat -> (i < nc)%nat ->
  mvn_density nf (mu i) (Sg i) (xval (nth t x [])) p ->
  exists m, log_mvn_density exact "full" x (fmat nc nf mu) (CV3 (tab nc (fun i => fmat nf nf (Sg i)))) = Ok m
    /\ 0 < p /\ mget m t i = Fin (ln p).
Proof. exact (@C33_full_is_log_density_l _ _ _ _ _ _ _ _). Qed.
Print Assumptions C33_full_is_log_density.

(** C33: 'tied' is 'full' with the matrix repeated, in every rounding mode. *)
Theorem C33_tied_is_full fp x means (c : nat -> nat -> xnum) : 
  log_mvn_density fp "tied" x means (CV2 (mtab (ncol means) (ncol means) c))
  = log_mvn_density fp "full" x means (CV3 (tab (nrow means) (fun _ => mtab (ncol means) (ncol means) c))).
Proof. exact (@C33_tied_is_full_l _ _ _ _). Qed.
Print Assumptions C33_tied_is_full.

(** C33: 'full' on diagonal matrices is 'diag', for variances above the least
    normal double. *)
Theorem C33_diagonal nc nf mu var x : (0 < nf)%nat -> x <> [] -> Forall (finite_row nf) x ->
  (forall i f, (i < nc)%nat -> (f < nf)%nat -> tiny <= var i f) ->
  log_mvn_density exact "full" x (fmat nc nf mu) (CV3 (tab nc (fun i => fmat nf nf (diagm (var i)))))
  = log_mvn_density exact "diag" x (fmat nc nf mu) (CV2 (fmat nc nf var)).
Proof. exact (@C33_diagonal_l _ _ _ _ _). Qed.
Print Assumptions C33_diagonal.

(** C33 is false below it: 'diag' floors the variance, 'full' does not. *)
Theorem C33_subnormal_refuted : exists var x, 0 < var /\ Forall (finite_row 1) x /\ x <> []
  /\ log_mvn_density exact "full" x (fmat 1 1 (fun _ _ => 0)) (CV3 [fmat 1 1 (fun _ _ => var)])
     <> log_mvn_density exact "diag" x (fmat 1 1 (fun _ _ => 0)) (CV2 (fmat 1 1 (fun _ _ => var))).
Proof. exact (@C33_subnormal_refuted_l). Qed.
Print Assumptions C33_subnormal_refuted.

(** C33: what symmetric matrices that are not positive definite give. *)
Theorem C33_regularised nc nf mu (Sg : nat -> nat -> nat -> R) x i : (0 < nf)%nat -> x <> [] -> Forall (finite_row nf) x ->
  (i < nc)%nat -> (forall k, (k < nc)%nat -> sym nf (Sg k)) -> ~ pos_def nf (Sg i) ->
  (pos_def nf (fun r c => Sg i r c + (if Nat.eqb r c then / 10 ^ 7 else 0)) ->
     log_mvn_density exact "full" x (fmat nc nf mu) (CV3 (tab nc (fun k => fmat nf nf (Sg k))))
     = log_mvn_density exact "full" x (fmat nc nf mu)
        (CV3 (tab nc (fun k => fmat nf nf (if Nat.eqb k i then fun r c => Sg i r c + (if Nat.eqb r c then / 10 ^ 7 else 0) else Sg k)))))
  /\ (~ pos_def nf (fun r c => Sg i r c + (if Nat.eqb r c then / 10 ^ 7 else 0)) ->
     log_mvn_density exact "full" x (fmat nc nf mu) (CV3 (tab nc (fun k => fmat nf nf (Sg k))))
     = Err (ValueError "'covars' must be symmetric, positive-definite")).
Proof. exact (@C33_regularised_l _ _ _ _ _ _). Qed.
Print Assumptions C33_regularised.

(** Two correlated features, evaluated. *)
Example C33_applies : exists m,
  log_mvn_density exact "tied" [fvec 2 (fun f => if Nat.eqb f 0 then 1 else 0)] (fmat 1 2 (fun _ _ => 0)) (CV2 (fmat 2 2 ex_cov)) = Ok m
  /\ mget m 0 0 = Fin (- (1 / 2) * (2 * ln (2 * PI) + ln 3 + 2 / 3)).
Proof. exact (@C33_applies_l). Qed.

(** Both outcomes for matrices that are not positive definite. *)
Example C33_regularised_applies :
  (sym 1 (fun _ _ => 0) /\ ~ pos_def 1 (fun _ _ => 0)
   /\ pos_def 1 (fun r c => 0 + (if Nat.eqb r c then / 10 ^ 7 else 0)))
  /\ (sym 1 (fun _ _ => -1) /\ ~ pos_def 1 (fun _ _ => -1)
   /\ ~ pos_def 1 (fun r c => -1 + (if Nat.eqb r c then / 10 ^ 7 else 0))).
Proof. exact (@C33_regularised_applies_l). Qed.

(** ** C02 *)
Theorem C02_gaussian_full_ready h nc nf pi A mu Sg : full_model h nc nf pi A mu Sg ->
  (exists b, normal_densities nc nf mu Sg b)
  /\ forall b, normal_densities nc nf mu Sg b -> ready gaussian h nc pi A (finite_row nf) b.
Proof. exact (@C02_gaussian_full_ready_l _ _ _ _ _ _ _). Qed.
Print Assumptions C02_gaussian_full_ready.

(** ** C25 *)
Theorem C25_gaussian_full h nc nf pi A mu Sg m0 cp w a sp tp ls x b h' ev :
  full_model h nc nf pi A mu Sg -> full_hyper h nc nf m0 cp w a ->
  priors (h_cfg h) nc sp tp -> (forall i, (i < nc)%nat -> 1 <= sp i) ->
  (forall i j, (i < nc)%nat -> (j < nc)%nat -> 1 <= tp i j) ->
  good_data (finite_row nf) ls x -> normal_densities nc nf mu Sg b -> possible nc pi A b ls x ->
  full_used h w a (all_used nc pi A b (chunks ls x)) ->
  fit_from gaussian exact h x (as_lengths ls) = Ok (h', ev) ->
  fit_from gaussian exact (with_cfg (cfg_impl "log") h) x (as_lengths ls) = Ok (with_cfg (cfg_impl "log") h', ev).
Proof. exact (@C25_gaussian_full_l _ _ _ _ _ _ _ _ _ _ _ _ _ _ _ _ _ _). Qed.
Print Assumptions C25_gaussian_full.

(** ** C14 *)
Theorem C14_gaussian_full h nc nf pi A mu Sg ls x b st lp :
  full_model h nc nf pi A mu Sg -> good_data (finite_row nf) ls x -> h_nfeat h = Some nf ->
  normal_densities nc nf mu Sg b ->
  has "m" (c_params (h_cfg h)) = true -> has "c" (c_params (h_cfg h)) = true ->
  (forall c, In c (chunks ls x) -> scorable nc pi A b (c_impl (h_cfg h)) c) ->
  do_estep gaussian exact h (fvec nc pi) (fmat nc nc A) x (as_lengths ls) = Ok (st, lp) ->
  let occ := occupancy nc pi A b (chunks ls x) in
  let tot := weighted_total nc pi A b (chunks ls x) in
  gs_post (st_em st) = fvec nc occ /\ sumn nc occ = INR (length x)
  /\ gs_obs (st_em st) = fmat nc nf (fun i f => tot (fun o => xval o f) i)
  /\ gs_obsT (st_em st) = tab nc (fun i => fmat nf nf (fun f g => tot (fun o => xval o f * xval o g) i)).
Proof. exact (@C14_gaussian_full_l _ _ _ _ _ _ _ _ _ _ _ _). Qed.
Print Assumptions C14_gaussian_full.

(** Means and covariances after each iteration, when both are trained. *)
Theorem C64_covariances h nc nf pi A mu Sg m0 cp w a ls x b0 h' ev :
  full_model h nc nf pi A mu Sg -> full_hyper h nc nf m0 cp w a -> flat_base h ->
  sumn nc pi <= 1 -> (forall i, (i < nc)%nat -> sumn nc (A i) <= 1) ->
  good_data (finite_row nf) ls x -> normal_densities nc nf mu Sg b0 -> possible nc pi A b0 ls x ->
  full_used h w a (all_used nc pi A b0 (chunks ls x)) ->
  has "m" (c_params (h_cfg h)) = true -> has "c" (c_params (h_cfg h)) = true ->
  fit_from gaussian exact h x (as_lengths ls) = Ok (h', ev) ->
  exists pis As mus Ss b, full_traj h nc nf pi A mu Sg h' pis As mus Ss b
  /\ forall j, (j < length (m_history (h_mon h')))%nat ->
       let occ := occupancy nc (pis j) (As j) (b j) (chunks ls x) in
       let tot := weighted_total nc (pis j) (As j) (b j) (chunks ls x) in
       let prior i f g := w * ((mus (S j) i f - m0 i f) * (mus (S j) i g - m0 i g)) in
       let scatter i f g := tot (fun o => (xval o f - mus (S j) i f) * (xval o g - mus (S j) i g)) i in
       forall i, (i < nc)%nat ->
         (forall f, (f < nf)%nat -> mus (S j) i f = (w * m0 i f + tot (fun o => xval o f) i) / (w + occ i))
         /\ (forall f g, (f < nf)%nat -> (g < nf)%nat ->
              (ga_type (h_em h) = "full"%string -> Ss (S j) i f g = (cp f g + (prior i f g + scatter i f g)) / (a + occ i))
              /\ (ga_type (h_em h) = "tied"%string ->
                  Ss (S j) i f g = (cp f g + sumn nc (fun q => prior q f g + scatter q f g)) / (a + sumn nc occ)))
         /\ pos_semidef nf (Ss (S j) i)
         /\ (pos_def nf cp -> pos_def nf (Ss (S j) i)).
Proof. exact (@C64_covariances_l _ _ _ _ _ _ _ _ _ _ _ _ _ _ _ _). Qed.
Print Assumptions C64_covariances.

(** ** C65: the penalised likelihood. *)
Theorem C65_full_monotone h nc nf pi A mu Sg m0 cp w a ls x b0 h' ev :
  full_model h nc nf pi A mu Sg -> full_hyper h nc nf m0 cp w a -> flat_base h ->
  sumn nc pi <= 1 -> (forall i, (i < nc)%nat -> sumn nc (A i) <= 1) ->
  good_data (finite_row nf) ls x -> normal_densities nc nf mu Sg b0 -> possible nc pi A b0 ls x ->
  full_used h w a (all_used nc pi A b0 (chunks ls x)) ->
  fit_from gaussian exact h x (as_lengths ls) = Ok (h', ev) ->
  exists pis As mus Ss Es Ps b, full_traj h nc nf pi A mu Sg h' pis As mus Ss b
  /\ (forall j, (j <= length (m_history (h_mon h')))%nat -> forall i, (i < nc)%nat ->
        scoring_cov nf (Ss j i) (Es j i) /\ inverse nf (Es j i) (Ps j i))
  /\ let L j := data_loglik nc (pis j) (As j) (b j) ls x in
     let prior j := full_logprior (ga_type (h_em h)) nc nf m0 cp w a (mus j) (Es j) (Ps j) in
     forall j, (j < length (m_history (h_mon h')))%nat ->
       nth j (m_history (h_mon h')) NaN = Fin (L j)
       /\ ((has "c" (c_params (h_cfg h)) = true -> has "m" (c_params (h_cfg h)) = true
             /\ forall i, (i < nc)%nat -> pos_def nf (Ss (S j) i)) ->
           L j + prior j <= L (S j) + prior (S j)
           /\ (w = 0 -> a = 0 -> (forall f g, cp f g = 0) -> L j <= L (S j))).
Proof. exact (@C65_full_monotone_l _ _ _ _ _ _ _ _ _ _ _ _ _ _ _ _). Qed.
Print Assumptions C65_full_monotone.

Theorem C36_full_frozen_means h nc nf pi A mu Sg c ls x b :
  full_model h nc nf pi A mu Sg -> gauss_default h c -> h_nfeat h = Some nf ->
  good_data (finite_row nf) ls x -> normal_densities nc nf mu Sg b ->
  (forall ch, In ch (chunks ls x) -> scorable nc pi A b (c_impl (h_cfg h)) ch) ->
  has "m" (c_params (h_cfg h)) = false -> has "c" (c_params (h_cfg h)) = true ->
  exists h' v, em_step gaussian exact x (as_lengths ls) h = Ok (h', v)
  /\ (exists cv, ga_covars (h_em h') = Some cv
       /\ forall i f g, (i < nc)%nat -> (f < nf)%nat -> (g < nf)%nat -> xisfin (cov_entry cv i f g) = false)
  /\ forall y, y <> [] -> exists m, loglik gaussian exact h' y = Err (ValueError m).
Proof. exact (@C36_full_frozen_means_l _ _ _ _ _ _ _ _ _ _ _). Qed.
Print Assumptions C36_full_frozen_means.

(** ** C64 *)
Example C64_full_applies : exists h h' ev b,
  full_model h 2 2 sw_pi sw_A (fun _ _ => 1) (fun _ => id2) /\ full_hyper h 2 2 (fun _ _ => 0) id2 0 0 /\ flat_base h
  /\ ga_type (h_em h) = "full"%string
  /\ normal_densities 2 2 (fun _ _ => 1) (fun _ => id2) b /\ possible 2 sw_pi sw_A b [2; 2]%nat sx
  /\ all_used 2 sw_pi sw_A b (chunks [2; 2]%nat sx) /\ pos_def 2 id2
  /\ fit_from gaussian exact h sx (as_lengths [2; 2]%nat) = Ok (h', ev)
  /\ ga_means (h_em h') = Some (fmat 2 2 (fun i _ => match i with 0%nat => 1 | _ => 7 end))
  /\ ga_covars (h_em h') = Some (CV3 (tab 2 (fun i => fmat 2 2 (fun f g =>
       match i with 0%nat => 1 | _ => 4 end + if Nat.eqb f g then / 2 else 0)))).
Proof. exact (@C64_full_applies_l). Qed.

Example C64_tied_applies : exists h h' ev b,
  full_model h 2 2 sw_pi sw_A (fun _ _ => 1) (fun _ => id2) /\ full_hyper h 2 2 (fun _ _ => 0) id2 0 0 /\ flat_base h
  /\ ga_type (h_em h) = "tied"%string
  /\ normal_densities 2 2 (fun _ _ => 1) (fun _ => id2) b /\ possible 2 sw_pi sw_A b [2; 2]%nat sx
  /\ all_used 2 sw_pi sw_A b (chunks [2; 2]%nat sx)
  /\ fit_from gaussian exact h sx (as_lengths [2; 2]%nat) = Ok (h', ev)
  /\ ga_covars (h_em h') = Some (CV2 (fmat 2 2 (fun f g => 5 / 2 + if Nat.eqb f g then / 4 else 0))).
Proof. exact (@C64_tied_applies_l). Qed.

(** A scalar [covars_prior] is added to every entry of the matrices, not to the
    diagonal: with the default value 1/100 the updated covariance is singular
    when the scatter has rank one in the same direction. *)
Theorem C64_scalar_prior_refuted : exists h nc nf pi A mu Sg ls x b h' ev S' i,
  full_model h nc nf pi A mu Sg /\ gauss_default h (/ 100) /\ flat_base h
  /\ ga_type (h_em h) = "full"%string
  /\ has "m" (c_params (h_cfg h)) = true /\ has "c" (c_params (h_cfg h)) = true
  /\ sumn nc pi <= 1 /\ (forall i, (i < nc)%nat -> sumn nc (A i) <= 1)
  /\ good_data (finite_row nf) ls x /\ normal_densities nc nf mu Sg b /\ possible nc pi A b ls x
  /\ all_used nc pi A b (chunks ls x)
  /\ fit_from gaussian exact h x (as_lengths ls) = Ok (h', ev)
  /\ ga_covars (h_em h') = Some (CV3 (tab nc (fun i => fmat nf nf (S' i))))
  /\ (i < nc)%nat /\ det nf (S' i) = 0 /\ ~ pos_def nf (S' i).
Proof. exact (@C64_scalar_prior_refuted_l). Qed.
Print Assumptions C64_scalar_prior_refuted.

Theorem C65_collapse_refuted : exists h nc nf pi A mu Sg ls x b h' ev pi' A' mu' S' b',
  full_model h nc nf pi A mu Sg /\ gauss_default h 0 /\ flat_base h
  /\ ga_type (h_em h) = "full"%string
  /\ has "m" (c_params (h_cfg h)) = true /\ has "c" (c_params (h_cfg h)) = true
  /\ sumn nc pi = 1 /\ (forall i, (i < nc)%nat -> sumn nc (A i) = 1)
  /\ (forall i, (i < nc)%nat -> pos_def nf (Sg i))
  /\ good_data (finite_row nf) ls x /\ normal_densities nc nf mu Sg b /\ possible nc pi A b ls x
  /\ all_used nc pi A b (chunks ls x)
  /\ fit_from gaussian exact h x (as_lengths ls) = Ok (h', ev) /\ length (m_history (h_mon h')) = 1%nat
  /\ h_start h' = Some (fvec nc pi') /\ h_trans h' = Some (fmat nc nc A')
  /\ ga_means (h_em h') = Some (fmat nc nf mu') /\ ga_covars (h_em h') = Some (CV3 (tab nc (fun i => fmat nf nf (S' i))))
  /\ normal_densities nc nf mu' S' b'
  /\ data_loglik nc pi' A' b' ls x < data_loglik nc pi A b ls x.
Proof. exact (@C65_collapse_refuted_l). Qed.
Print Assumptions C65_collapse_refuted.

Example C65_full_applies : exists h h' ev b S',
  full_model h 2 2 sw_pi sw_A (fun _ _ => 1) (fun _ => id2) /\ full_hyper h 2 2 (fun _ _ => 0) id2 0 0 /\ flat_base h
  /\ has "m" (c_params (h_cfg h)) = true /\ has "c" (c_params (h_cfg h)) = true
  /\ normal_densities 2 2 (fun _ _ => 1) (fun _ => id2) b /\ possible 2 sw_pi sw_A b [2; 2]%nat sx
  /\ all_used 2 sw_pi sw_A b (chunks [2; 2]%nat sx)
  /\ fit_from gaussian exact h sx (as_lengths [2; 2]%nat) = Ok (h', ev) /\ length (m_history (h_mon h')) = 1%nat
  /\ ga_covars (h_em h') = Some (CV3 (tab 2 (fun i => fmat 2 2 (S' i)))) /\ forall i, (i < 2)%nat -> pos_def 2 (S' i).
Proof. exact (@C65_full_applies_l). Qed.

Example C36_full_applies ty : ty = "tied"%string \/ ty = "full"%string ->
  exists h b, ga_type (h_em h) = ty
  /\ full_model h 1 1 (fun _ => 1) (fun _ _ => 1) (fun _ _ => 0) (fun _ _ _ => 1) /\ gauss_default h (/ 100) /\ h_nfeat h = Some 1%nat
  /\ good_data (finite_row 1) [1; 1]%nat fx /\ normal_densities 1 1 (fun _ _ => 0) (fun _ _ _ => 1) b
  /\ (forall ch, In ch (chunks [1; 1]%nat fx) -> scorable 1 (fun _ => 1) (fun _ _ => 1) b (c_impl (h_cfg h)) ch)
  /\ has "m" (c_params (h_cfg h)) = false /\ has "c" (c_params (h_cfg h)) = true.
Proof. exact (@C36_full_applies_l _). Qed.

(** Reading [covars_] raises AttributeError exactly while it or [n_features] is
    not set: values that were assigned cannot be read back before [fit], [score]
    or the like has set [n_features]. *)
Theorem C37_getter_unset fp h :
  (exists w, covars_get fp h = Err (AttributeError w)) <-> ga_covars (h_em h) = None \/ h_nfeat h = None.
Proof. exact (@C37_getter_unset_l _ _). Qed.
Print Assumptions C37_getter_unset.

Example C37_getter_applies : covars_get exact (ex_fro "full") = Ok [fmat 1 1 (fun _ _ => 1)]
  /\ covars_get exact (Hmm (h_cfg (ex_fro "full")) None None None (h_mon (ex_fro "full")) (h_em (ex_fro "full"))) = Err (AttributeError "n_features").
Proof. exact (@C37_getter_applies_l). Qed.

Theorem C02_multinomial_ready h nc nf pi A e : mult_model h nc nf pi A e ->
  ready multinomial h nc pi A (counts_ok nf) (fun r i =>
    INR (fact (Z.to_nat (fold_right Z.add 0%Z r)))
    * prodn nf (fun f => let k := Z.to_nat (nth f r 0%Z) in e i f ^ k / INR (fact k))).
Proof. exact (@C02_multinomial_ready_l _ _ _ _ _ _). Qed.
Print Assumptions C02_multinomial_ready.

Theorem C14_multinomial h nc nf pi A e ls x st lp :
  mult_model h nc nf pi A e -> good_data (counts_ok nf) ls x ->
  h_nfeat h = Some nf -> has "e" (c_params (h_cfg h)) = true ->
  (forall c, In c (chunks ls x) -> scorable nc pi A (mult_b nf e) (c_impl (h_cfg h)) c) ->
  do_estep multinomial exact h (fvec nc pi) (fmat nc nc A) x (as_lengths ls) = Ok (st, lp) ->
  st_em st = fmat nc nf (fun i f =>
       weighted_total nc pi A (mult_b nf e) (chunks ls x) (fun r => IZR (nth f r 0%Z)) i)
  /\ sumn nc (fun i => sumn nf (fun f =>
       weighted_total nc pi A (mult_b nf e) (chunks ls x) (fun r => IZR (nth f r 0%Z)) i))
     = IZR (fold_right Z.add 0%Z (map (fold_right Z.add 0%Z) x)).
Proof. exact (@C14_multinomial_l _ _ _ _ _ _ _ _ _ _). Qed.
Print Assumptions C14_multinomial.

Theorem C42_normalised_counts h nc nf pi A e ls x h' v :
  mult_model h nc nf pi A e -> h_nfeat h = Some nf -> good_data (counts_ok nf) ls x ->
  (forall c, In c (chunks ls x) -> scorable nc pi A (mult_b nf e) (c_impl (h_cfg h)) c) ->
  has "e" (c_params (h_cfg h)) = true ->
  em_step multinomial exact x (as_lengths ls) h = Ok (h', v) ->
  exists m, mu_prob (h_em h') = Some m /\ nrow m = nc /\ ncol m = nf
    /\ forall i, (i < nc)%nat ->
       let tot f := weighted_total nc pi A (mult_b nf e) (chunks ls x) (fun r => IZR (nth f r 0%Z)) i in
       (0 < sumn nf tot ->
          exists q, stochastic1 nf q /\ (forall f, (f < nf)%nat -> mget m i f = Fin (q f) /\ q f = tot f / sumn nf tot))
       /\ (sumn nf tot = 0 -> forall f, (f < nf)%nat -> mget m i f = NaN).
Proof. exact (@C42_normalised_counts_l _ _ _ _ _ _ _ _ _ _). Qed.
Print Assumptions C42_normalised_counts.

(** The whole of training: normalised counts in every iteration, and a history
    that never decreases. *)
Theorem C42_training h nc nf pi A e ls x h' ev :
  mult_model h nc nf pi A e -> flat_base h ->
  sumn nc pi <= 1 -> (forall i, (i < nc)%nat -> sumn nc (A i) <= 1) ->
  good_data (trials_ok nf) ls x -> possible nc pi A (mult_b nf e) ls x ->
  (has "e" (c_params (h_cfg h)) = true -> all_used nc pi A (mult_b nf e) (chunks ls x)) ->
  fit_from multinomial exact h x (as_lengths ls) = Ok (h', ev) ->
  (exists (pis : nat -> nat -> R) (As es : nat -> nat -> nat -> R),
    let k := length (m_history (h_mon h')) in
    let b j := mult_b nf (es j) in
    pis 0%nat = pi /\ As 0%nat = A /\ (forall i f, (i < nc)%nat -> (f < nf)%nat -> es 0%nat i f = e i f)
    /\ h_start h' = Some (fvec nc (pis k)) /\ h_trans h' = Some (fmat nc nc (As k))
    /\ mu_prob (h_em h') = Some (fmat nc nf (es k))
    /\ (forall j, (j < k)%nat -> nth j (m_history (h_mon h')) NaN = Fin (data_loglik nc (pis j) (As j) (b j) ls x))
    /\ (forall j, (j <= k)%nat -> stochastic2 nc nf (es j))
    /\ (has "e" (c_params (h_cfg h)) = true -> forall j, (j < k)%nat -> forall i f, (i < nc)%nat -> (f < nf)%nat ->
          let tot f := weighted_total nc (pis j) (As j) (b j) (chunks ls x) (fun r => IZR (nth f r 0%Z)) i in
          0 < sumn nf tot /\ es (S j) i f = tot f / sumn nf tot)
    /\ forall j, (j < k)%nat ->
         data_loglik nc (pis j) (As j) (b j) ls x <= data_loglik nc (pis (S j)) (As (S j)) (b (S j)) ls x)
  /\ ~ In WNotConverging ev.
Proof. exact (@C42_training_l _ _ _ _ _ _ _ _ _ _). Qed.
Print Assumptions C42_training.

Theorem C21_multinomial fp h x lengths h' ev :
  fit_from multinomial fp h x lengths = Ok (h', ev) ->
  mu_trials (h_em h') = mu_trials (h_em h)
  /\ (has "e" (c_params (h_cfg h)) = false -> h_em h' = h_em h).
Proof. exact (@C21_multinomial_l _ _ _ _ _ _). Qed.
Print Assumptions C21_multinomial.

Theorem C25_multinomial h nc nf pi A e sp tp ls x h' ev :
  mult_model h nc nf pi A e ->
  priors (h_cfg h) nc sp tp -> (forall i, (i < nc)%nat -> 1 <= sp i) ->
  (forall i j, (i < nc)%nat -> (j < nc)%nat -> 1 <= tp i j) ->
  good_data (trials_ok nf) ls x -> possible nc pi A (mult_b nf e) ls x ->
  (has "e" (c_params (h_cfg h)) = true -> all_used nc pi A (mult_b nf e) (chunks ls x)) ->
  fit_from multinomial exact h x (as_lengths ls) = Ok (h', ev) ->
  fit_from multinomial exact (with_cfg (cfg_impl "log") h) x (as_lengths ls) = Ok (with_cfg (cfg_impl "log") h', ev).
Proof. exact (@C25_multinomial_l _ _ _ _ _ _ _ _ _ _ _ _). Qed.
Print Assumptions C25_multinomial.

(** State 0 emitted (3,1,0), state 1 emitted (0,2,2). *)
Example C42_applies : exists h' ev,
  fit_from multinomial exact (ex_mu "ste") ex_mx (as_lengths [2]%nat) = Ok (h', ev)
  /\ length (m_history (h_mon h')) = 1%nat
  /\ mu_prob (h_em h') = Some (fmat 2 3 (fun i f => IZR (nth f (nth i ex_mx []) 0%Z) / 4)).
Proof. exact (@C42_applies_l). Qed.

Example C42_normalised_applies : exists h' v,
  em_step multinomial exact ex_mx (as_lengths [2]%nat) (ex_mu "e") = Ok (h', v)
  /\ mult_model (ex_mu "e") 2 3 sw_pi sw_A ex_me /\ good_data (counts_ok 3) [2]%nat ex_mx
  /\ (forall c, In c (chunks [2]%nat ex_mx) -> scorable 2 sw_pi sw_A (mult_b 3 ex_me) "log" c).
Proof. exact (@C42_normalised_applies_l). Qed.

Example C21_multinomial_applies : exists h' ev,
  fit_from multinomial exact (ex_mu "st") ex_mx (as_lengths [2]%nat) = Ok (h', ev)
  /\ has "e" (c_params (h_cfg (ex_mu "st"))) = false.
Proof. exact (@C21_multinomial_applies_l). Qed.

Theorem C42_row_sums_refuted : exists h m,
  mu_prob (h_em h) = Some m /\ xsum exact (nth 0 (rows m) []) = Fin (5 / 8) /\ mget m 0 1 = Fin (/ 8)
  /\ check multinomial exact h = Ok h
  /\ loglik multinomial exact h [[0; 1]]%Z = Ok (Mat 1 [[Fin (ln (/ 2))]]).
Proof. exact (@C42_row_sums_refuted_l). Qed.
Print Assumptions C42_row_sums_refuted.

