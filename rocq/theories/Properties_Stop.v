(** * Properties C23, C24, C88, C89: what ends training. *)
From Verif Require Import Vstop_thms Vstop_ex Stop_thms Limit_thms Settle_thms Stop_ex.

(** When training stops, what is recorded and what the iterations are. *)
Theorem C23_variational {P X St} (V : vclass P X St) fp v x l v' ev :
  m_n_iter (h_mon (v_h v)) = c_n_iter (v_cfg v) -> m_tol (h_mon (v_h v)) = c_tol (v_cfg v) ->
  vfit_from V fp v x l = Ok (v', ev) ->
  let k := length (v_history v') in
  let hist := v_history v' in
  m_iter (h_mon (v_h v')) = k /\ (k <= c_n_iter (v_cfg v))%nat
  /\ (k = 0%nat <-> c_n_iter (v_cfg v) = 0%nat)
  /\ stops fp (c_tol (v_cfg v)) (c_n_iter (v_cfg v)) hist
  /\ (forall j, (0 < j < k)%nat -> ~ stops fp (c_tol (v_cfg v)) (c_n_iter (v_cfg v)) (firstn j hist))
  /\ exists v1 v2, vcheck V fp v = Ok v1 /\ iterate (vb_step V fp x (Some l)) k v1 = Ok (v2, hist)
       /\ h_start (v_h v') = h_start (v_h v2) /\ h_trans (v_h v') = h_trans (v_h v2) /\ h_em (v_h v') = h_em (v_h v2)
       /\ v_spost v' = v_spost v2 /\ v_tpost v' = v_tpost v2.
Proof. exact (@C23_variational_l _ _ _ _ _ _ _ _ _ _). Qed.
Print Assumptions C23_variational.

Theorem C24_variational {P X St} (V : vclass P X St) fp v x l v' ev :
  vfit_from V fp v x l = Ok (v', ev) -> (In WNotConverging ev <-> drops fp (v_history v')).
Proof. exact (@C24_variational_l _ _ _ _ _ _ _ _ _ _). Qed.
Print Assumptions C24_variational.

Theorem C88_vcategorical v nc nf p q ls x v' ev tol :
  vcat_model v nc nf p q -> good_data (sym_ok nf) ls x -> tolerant (v_h v) tol ->
  vfit_from vcategorical exact v x (map Z.of_nat ls) = Ok (v', ev) ->
  stopped_by_tol (c_n_iter (v_cfg v)) (v_history v') (elbo nc nf p (chunks ls x) q) tol 0.
Proof. exact (@C88_vcategorical_l _ _ _ _ _ _ _ _ _ _). Qed.
Print Assumptions C88_vcategorical.

Theorem C89_vcategorical_settles v nc nf p q ls x tol :
  vcat_model v nc nf p q -> good_data (sym_ok nf) ls x -> c_impl (v_cfg v) = "log"%string ->
  (has "t" (c_params (v_cfg v)) = true \/ h_trans (v_h v) <> None) ->
  c_tol (v_cfg v) = Fin tol -> m_tol (h_mon (v_h v)) = Fin tol -> 0 < tol ->
  v_settles vcategorical v x ls tol.
Proof. exact (@C89_vcategorical_settles_l _ _ _ _ _ _ _ _). Qed.
Print Assumptions C89_vcategorical_settles.

(** Training settles; with [n_iter = 3] the tolerance or the limit has ended it. *)
Example C89_vcategorical_settles_applies : forall k, v_settles vcategorical (ex_v "ste" k) [0; 1; 1; 0; 1]%Z [3; 2]%nat (/ 100).
Proof. exact (@C89_vcategorical_settles_applies_l). Qed.

Example C23_variational_applies : exists v' ev,
  vfit_from vcategorical exact (ex_v "ste" 3) [0; 1; 1; 0; 1]%Z [3; 2]%Z = Ok (v', ev)
  /\ (length (v_history v') = 3%nat \/ length (v_history v') = 2%nat)
  /\ (length (v_history v') = 2%nat -> exists a z, v_history v' = [a; z] /\ xlt (xsub exact z a) (Fin (/ 100))).
Proof. exact (@C23_variational_applies_l). Qed.

(** Probabilities never exceed 1, so the log-likelihood never exceeds 0. *)
Theorem C88_categorical h nc nf pi A e sp tp ep ls x h' ev tol :
  cat_model h nc nf pi A e -> cat_priors h nc nf sp tp ep ->
  sumn nc pi <= 1 -> (forall i, (i < nc)%nat -> sumn nc (A i) <= 1) -> (forall i, (i < nc)%nat -> sumn nf (e i) <= 1) ->
  good_data (sym_ok nf) ls x -> possible nc pi A (cat_b e) ls x -> tolerant h tol ->
  fit_from categorical exact h x (as_lengths ls) = Ok (h', ev) ->
  exists L0, score categorical exact h x (as_lengths ls) = Ok (Fin L0)
    /\ stopped_by_tol (c_n_iter (h_cfg h)) (m_history (h_mon h')) L0 tol 0.
Proof. exact (@C88_categorical_l _ _ _ _ _ _ _ _ _ _ _ _ _ _). Qed.
Print Assumptions C88_categorical.

Theorem C88_poisson h nc nf pi A lam al be sp tp ls x h' ev tol :
  pois_model h nc nf pi A lam -> gamma_prior nc nf (h_em h) al be -> nonneg2 nc nf al -> nonneg2 nc nf be ->
  priors (h_cfg h) nc sp tp -> (forall i, (i < nc)%nat -> 1 <= sp i) -> (forall i j, (i < nc)%nat -> (j < nc)%nat -> 1 <= tp i j) ->
  sumn nc pi <= 1 -> (forall i, (i < nc)%nat -> sumn nc (A i) <= 1) ->
  good_data (counts_ok nf) ls x -> possible nc pi A (pois_b nf lam) ls x ->
  (has "l" (c_params (h_cfg h)) = true -> all_used nc pi A (pois_b nf lam) (chunks ls x)) -> tolerant h tol ->
  fit_from poisson exact h x (as_lengths ls) = Ok (h', ev) ->
  exists L0, score poisson exact h x (as_lengths ls) = Ok (Fin L0)
    /\ stopped_by_tol (c_n_iter (h_cfg h)) (m_history (h_mon h')) L0 tol 0.
Proof. exact (@C88_poisson_l _ _ _ _ _ _ _ _ _ _ _ _ _ _ _). Qed.
Print Assumptions C88_poisson.

Theorem C88_multinomial h nc nf pi A e sp tp ls x h' ev tol :
  mult_model h nc nf pi A e ->
  priors (h_cfg h) nc sp tp -> (forall i, (i < nc)%nat -> 1 <= sp i) -> (forall i j, (i < nc)%nat -> (j < nc)%nat -> 1 <= tp i j) ->
  sumn nc pi <= 1 -> (forall i, (i < nc)%nat -> sumn nc (A i) <= 1) ->
  good_data (trials_ok nf) ls x -> possible nc pi A (mult_b nf e) ls x ->
  (has "e" (c_params (h_cfg h)) = true -> all_used nc pi A (mult_b nf e) (chunks ls x)) -> tolerant h tol ->
  fit_from multinomial exact h x (as_lengths ls) = Ok (h', ev) ->
  exists L0, score multinomial exact h x (as_lengths ls) = Ok (Fin L0)
    /\ stopped_by_tol (c_n_iter (h_cfg h)) (m_history (h_mon h')) L0 tol 0.
Proof. exact (@C88_multinomial_l _ _ _ _ _ _ _ _ _ _ _ _ _). Qed.
Print Assumptions C88_multinomial.

(** Variances are raised to 2^-1022 before scoring, so densities are bounded. *)
Theorem C88_gaussian h nc nf pi A mu var m0 w cp a sp tp ls x h' ev tol :
  gauss_model h nc nf pi A mu var -> gauss_hyper h nc nf m0 w cp a -> nonneg2 nc nf w ->
  priors (h_cfg h) nc sp tp -> (forall i, (i < nc)%nat -> 1 <= sp i) -> (forall i j, (i < nc)%nat -> (j < nc)%nat -> 1 <= tp i j) ->
  sumn nc pi <= 1 -> (forall i, (i < nc)%nat -> sumn nc (A i) <= 1) ->
  good_data (finite_row nf) ls x -> possible nc pi A (gauss_b nf mu (floored var)) ls x ->
  (has "m" (c_params (h_cfg h)) = true ->
     all_used nc pi A (gauss_b nf mu (floored var)) (chunks ls x) \/ forall i f, (i < nc)%nat -> (f < nf)%nat -> 0 < w i f) ->
  tolerant h tol -> fit_from gaussian exact h x (as_lengths ls) = Ok (h', ev) ->
  exists L0, score gaussian exact h x (as_lengths ls) = Ok (Fin L0)
    /\ stopped_by_tol (c_n_iter (h_cfg h)) (m_history (h_mon h')) L0 tol (INR (length x) * (INR (511 * nf) * ln 2)).
Proof. exact (@C88_gaussian_l _ _ _ _ _ _ _ _ _ _ _ _ _ _ _ _ _ _). Qed.
Print Assumptions C88_gaussian.

Theorem C89_categorical {G} (rg : rng G) fp : only_a_limit categorical cat_initc rg fp.
Proof. exact (@C89_categorical_l _ _ _). Qed.
Print Assumptions C89_categorical.

Theorem C89_poisson {G} (rg : rng G) fp : only_a_limit poisson pois_initc rg fp.
Proof. exact (@C89_poisson_l _ _ _). Qed.
Print Assumptions C89_poisson.

Theorem C89_multinomial {G} (rg : rng G) fp : only_a_limit multinomial mult_initc rg fp.
Proof. exact (@C89_multinomial_l _ _ _). Qed.
Print Assumptions C89_multinomial.

Theorem C89_gaussian {G} (rg : rng G) fp : only_a_limit gaussian gauss_initc rg fp.
Proof. exact (@C89_gaussian_l _ _ _). Qed.
Print Assumptions C89_gaussian.

Theorem C89_gmm {G} eig (gr : grng G) (rg : rng G) fp : only_a_limit (gmm eig) (gmm_initc gr) rg fp.
Proof. exact (@C89_gmm_l _ _ _ _ _). Qed.
Print Assumptions C89_gmm.

Theorem C89_vcategorical {G} (rg : rng G) fp : v_only_a_limit vcategorical vcat_initc rg fp.
Proof. exact (@C89_vcategorical_l _ _ _). Qed.
Print Assumptions C89_vcategorical.

Theorem C89_vgaussian {G} la (gr : grng G) (rg : rng G) fp : v_only_a_limit (vgaussian la) (vg_initc gr) rg fp.
Proof. exact (@C89_vgaussian_l _ _ _ _ _). Qed.
Print Assumptions C89_vgaussian.

Theorem C89_categorical_settles h nc nf pi A e sp tp ep ls x tol :
  cat_model h nc nf pi A e -> cat_priors h nc nf sp tp ep ->
  sumn nc pi <= 1 -> (forall i, (i < nc)%nat -> sumn nc (A i) <= 1) -> (forall i, (i < nc)%nat -> sumn nf (e i) <= 1) ->
  good_data (sym_ok nf) ls x -> possible nc pi A (cat_b e) ls x -> c_impl (h_cfg h) = "log"%string ->
  c_tol (h_cfg h) = Fin tol -> m_tol (h_mon h) = Fin tol -> 0 < tol ->
  settles categorical h x ls tol.
Proof. exact (@C89_categorical_settles_l _ _ _ _ _ _ _ _ _ _ _ _). Qed.
Print Assumptions C89_categorical_settles.

Theorem C89_poisson_settles h nc nf pi A lam al be sp tp ls x tol :
  pois_model h nc nf pi A lam -> gamma_prior nc nf (h_em h) al be -> nonneg2 nc nf al -> nonneg2 nc nf be ->
  priors (h_cfg h) nc sp tp -> (forall i, (i < nc)%nat -> 1 <= sp i) -> (forall i j, (i < nc)%nat -> (j < nc)%nat -> 1 <= tp i j) ->
  sumn nc pi <= 1 -> (forall i, (i < nc)%nat -> sumn nc (A i) <= 1) ->
  good_data (counts_ok nf) ls x -> possible nc pi A (pois_b nf lam) ls x ->
  (has "l" (c_params (h_cfg h)) = true -> all_used nc pi A (pois_b nf lam) (chunks ls x)) -> c_impl (h_cfg h) = "log"%string ->
  c_tol (h_cfg h) = Fin tol -> m_tol (h_mon h) = Fin tol -> 0 < tol ->
  settles poisson h x ls tol.
Proof. exact (@C89_poisson_settles_l _ _ _ _ _ _ _ _ _ _ _ _ _). Qed.
Print Assumptions C89_poisson_settles.

Theorem C89_multinomial_settles h nc nf pi A e sp tp ls x tol :
  mult_model h nc nf pi A e ->
  priors (h_cfg h) nc sp tp -> (forall i, (i < nc)%nat -> 1 <= sp i) -> (forall i j, (i < nc)%nat -> (j < nc)%nat -> 1 <= tp i j) ->
  sumn nc pi <= 1 -> (forall i, (i < nc)%nat -> sumn nc (A i) <= 1) ->
  good_data (trials_ok nf) ls x -> possible nc pi A (mult_b nf e) ls x ->
  (has "e" (c_params (h_cfg h)) = true -> all_used nc pi A (mult_b nf e) (chunks ls x)) -> c_impl (h_cfg h) = "log"%string ->
  c_tol (h_cfg h) = Fin tol -> m_tol (h_mon h) = Fin tol -> 0 < tol ->
  settles multinomial h x ls tol.
Proof. exact (@C89_multinomial_settles_l _ _ _ _ _ _ _ _ _ _ _). Qed.
Print Assumptions C89_multinomial_settles.

Theorem C89_gaussian_settles h nc nf pi A mu var m0 w cp a sp tp ls x tol :
  gauss_model h nc nf pi A mu var -> gauss_hyper h nc nf m0 w cp a -> nonneg2 nc nf w ->
  priors (h_cfg h) nc sp tp -> (forall i, (i < nc)%nat -> 1 <= sp i) -> (forall i j, (i < nc)%nat -> (j < nc)%nat -> 1 <= tp i j) ->
  sumn nc pi <= 1 -> (forall i, (i < nc)%nat -> sumn nc (A i) <= 1) ->
  good_data (finite_row nf) ls x -> possible nc pi A (gauss_b nf mu (floored var)) ls x ->
  (has "m" (c_params (h_cfg h)) = true ->
     all_used nc pi A (gauss_b nf mu (floored var)) (chunks ls x) \/ forall i f, (i < nc)%nat -> (f < nf)%nat -> 0 < w i f) ->
  c_impl (h_cfg h) = "log"%string -> c_tol (h_cfg h) = Fin tol -> m_tol (h_mon h) = Fin tol -> 0 < tol ->
  settles gaussian h x ls tol.
Proof. exact (@C89_gaussian_settles_l _ _ _ _ _ _ _ _ _ _ _ _ _ _ _ _). Qed.
Print Assumptions C89_gaussian_settles.

(** n_iter = 1000, tol = 1/100 and one sequence of likelihood 3/128: at most 602
    iterations, so that the tolerance has ended training; any larger [n_iter]
    gives the same model. *)
Example C88_applies : let h := at_most 1000 (ex_h "log" "map") in
  score categorical exact h ex_x (as_lengths [3]%nat) = Ok (Fin (ln (3/128)))
  /\ exists h' ev, fit_from categorical exact h ex_x (as_lengths [3]%nat) = Ok (h', ev)
  /\ (length (m_history (h_mon h')) <= 602)%nat
  /\ (exists r a z, m_history (h_mon h') = r ++ [Fin a; Fin z] /\ z - a < / 100)
  /\ fit_from categorical exact (at_most 5000 h) ex_x (as_lengths [3]%nat) = Ok (at_most 5000 h', ev).
Proof. exact (@C88_applies_l). Qed.

Example C88_settles_applies :
  settles poisson (Poisson_thms.ex_po "stl" 0 0) ex_px [2]%nat (/ 100)
  /\ settles multinomial (ex_mu "ste") ex_mx [2]%nat (/ 100)
  /\ settles gaussian (ex_sw "diag" "stmc" 0) sx [2; 2]%nat (/ 100)
  /\ settles gaussian (ex_sw "spherical" "stmc" (/ 10)) sx [2; 2]%nat (/ 100).
Proof. exact (@C88_settles_applies_l). Qed.

(** n_iter = 3 stops after two iterations; so do 2 and 1000. *)
Example C89_applies : exists (e : est catp unit) e' ev, history e' = [Fin 0; Fin 0]
  /\ fit categorical cat_initc flat_rng exact (built 3 e) tt ws_x None = Ok (e', tt, ev)
  /\ fit categorical cat_initc flat_rng exact (built 2 e) tt ws_x None = Ok (built 2 e', tt, ev)
  /\ fit categorical cat_initc flat_rng exact (built 1000 e) tt ws_x None = Ok (built 1000 e', tt, ev).
Proof. exact (@C89_applies_l). Qed.

