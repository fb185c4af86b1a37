(** * Properties C13, C14, C18-C21, C23-C26, C56: training. *)
From Verif Require Import Training_thms.

(** ** C13: transition statistics are expected transition counts. *)
Theorem C13_transition_statistics {P X St} (E : emclass P X St) h nc pi A ok b ls x st lp :
  trainable E h nc pi A ok b -> good_data ok ls x ->
  (forall c, In c (chunks ls x) -> scorable nc pi A b (c_impl (h_cfg h)) c) ->
  has "t" (c_params (h_cfg h)) = true ->
  do_estep E exact h (fvec nc pi) (fmat nc nc A) x (as_lengths ls) = Ok (st, lp) ->
  st_trans st = fmat nc nc (fun i j => sumL (fun c =>
      sumL (fun z => seq_joint pi A b c z * n_trans (length c) i j z) (all_paths nc (length c))
      / sumL (seq_joint pi A b c) (all_paths nc (length c))) (chunks ls x))
  /\ forall i, (i < nc)%nat -> forall c, In c (chunks ls x) ->
       sumn nc (seq_trans nc pi A b c i) = sumn (length c - 1) (fun t => seq_post nc pi A b c t i).
Proof. exact (@C13_transition_statistics_l _ _ _ _ _ _ _ _ _ _ _ _ _ _). Qed.
Print Assumptions C13_transition_statistics.

(** The statistics do not depend on the implementation. *)
Theorem C13_same_statistics {P X St} (E : emclass P X St) h1 h2 nc pi A ok b ls x st1 st2 lp1 lp2 :
  trainable E h1 nc pi A ok b -> trainable E h2 nc pi A ok b -> good_data ok ls x ->
  c_params (h_cfg h1) = c_params (h_cfg h2) ->
  (forall c, In c (chunks ls x) -> scorable nc pi A b (c_impl (h_cfg h1)) c) ->
  (forall c, In c (chunks ls x) -> scorable nc pi A b (c_impl (h_cfg h2)) c) ->
  do_estep E exact h1 (fvec nc pi) (fmat nc nc A) x (as_lengths ls) = Ok (st1, lp1) ->
  do_estep E exact h2 (fvec nc pi) (fmat nc nc A) x (as_lengths ls) = Ok (st2, lp2) ->
  st_start st1 = st_start st2 /\ st_trans st1 = st_trans st2 /\ lp1 = lp2.
Proof. exact (@C13_same_statistics_l _ _ _ _ _ _ _ _ _ _ _ _ _ _ _ _ _). Qed.
Print Assumptions C13_same_statistics.

Example C13_applies : exists st lp,
  do_estep categorical exact (checked (ex_h "log" "map") 3) (fvec 2 ex_pi) (fmat 2 2 ex_A) ex_x (as_lengths [2; 1]%nat)
    = Ok (st, lp)
  /\ forall c, In c (chunks [2; 1]%nat ex_x) -> scorable 2 ex_pi ex_A (cat_b ex_e) "log" c.
Proof. exact (@C13_applies_l). Qed.

Theorem C14_mass {P X St} (E : emclass P X St) h nc pi A ok b ls x st lp :
  trainable E h nc pi A ok b -> good_data ok ls x ->
  (forall c, In c (chunks ls x) -> scorable nc pi A b (c_impl (h_cfg h)) c) ->
  do_estep E exact h (fvec nc pi) (fmat nc nc A) x (as_lengths ls) = Ok (st, lp) ->
  st_nobs st = length ls
  /\ (has "s" (c_params (h_cfg h)) = true ->
       exists f, st_start st = fvec nc f /\ nonneg1 nc f /\ sumn nc f = INR (length ls))
  /\ (has "t" (c_params (h_cfg h)) = true ->
       exists g, st_trans st = fmat nc nc g /\ nonneg2 nc nc g
         /\ sumn nc (fun i => sumn nc (g i)) = sumL (fun n => INR (n - 1)) ls).
Proof. exact (@C14_mass_l _ _ _ _ _ _ _ _ _ _ _ _ _ _). Qed.
Print Assumptions C14_mass.

(** Occupancies: the emission counts of a CategoricalHMM sum to the number of
    samples. *)
Theorem C14_occupancy h nc nf pi A e ls x st lp :
  trainable categorical h nc pi A (sym_ok nf) (cat_b e) -> good_data (sym_ok nf) ls x ->
  h_nfeat h = Some nf -> has "e" (c_params (h_cfg h)) = true ->
  (forall c, In c (chunks ls x) -> scorable nc pi A (cat_b e) (c_impl (h_cfg h)) c) ->
  do_estep categorical exact h (fvec nc pi) (fmat nc nc A) x (as_lengths ls) = Ok (st, lp) ->
  exists o, st_em st = fmat nc nf o
    /\ (forall i k, (i < nc)%nat -> (k < nf)%nat ->
         o i k = sumL (fun c => sumn (length c) (fun t =>
                   if Z.eqb (nth t c 0%Z) (Z.of_nat k) then seq_post nc pi A (cat_b e) c t i else 0)) (chunks ls x))
    /\ sumn nc (fun i => sumn nf (o i)) = INR (length x).
Proof. exact (@C14_occupancy_l _ _ _ _ _ _ _ _ _ _). Qed.
Print Assumptions C14_occupancy.

Example C14_applies : exists st lp,
  do_estep categorical exact (checked (ex_h "log" "map") 3) (fvec 2 ex_pi) (fmat 2 2 ex_A) ex_x (as_lengths [2; 1]%nat)
    = Ok (st, lp) /\ st_nobs st = 2%nat /\ has "e" (c_params (ex_cfg "log" "map")) = true.
Proof. exact (@C14_applies_l). Qed.

(** ** C18 and C56: monotone training. *)
Theorem C56_map_objective_monotone h nc nf pi A e sp tp ep ls x h' ev :
  cat_model h nc nf pi A e -> cat_priors h nc nf sp tp ep ->
  sumn nc pi <= 1 -> (forall i, (i < nc)%nat -> sumn nc (A i) <= 1) -> (forall i, (i < nc)%nat -> sumn nf (e i) <= 1) ->
  (forall i k, (i < nc)%nat -> (k < nf)%nat -> 1 < ep i k -> 0 < e i k) ->
  good_data (sym_ok nf) ls x -> possible nc pi A (cat_b e) ls x ->
  fit_from categorical exact h x (as_lengths ls) = Ok (h', ev) ->
  exists (pis : nat -> nat -> R) (As es : nat -> nat -> nat -> R),
    let k := length (m_history (h_mon h')) in
    pis 0%nat = pi /\ As 0%nat = A /\ (forall i s, (i < nc)%nat -> (s < nf)%nat -> es 0%nat i s = e i s)
    /\ h_start h' = Some (fvec nc (pis k)) /\ h_trans h' = Some (fmat nc nc (As k))
    /\ cat_prob (h_em h') = Some (fmat nc nf (es k))
    /\ (forall j, (j < k)%nat ->
          nth j (m_history (h_mon h')) NaN = Fin (data_loglik nc (pis j) (As j) (cat_b (es j)) ls x))
    /\ forall j, (j < k)%nat ->
         data_loglik nc (pis j) (As j) (cat_b (es j)) ls x + log_dirichlet nc sp (pis j)
           + sumn nc (fun i => log_dirichlet nc (tp i) (As j i)) + sumn nc (fun i => log_dirichlet nf (ep i) (es j i))
         <= data_loglik nc (pis (S j)) (As (S j)) (cat_b (es (S j))) ls x + log_dirichlet nc sp (pis (S j))
           + sumn nc (fun i => log_dirichlet nc (tp i) (As (S j) i))
           + sumn nc (fun i => log_dirichlet nf (ep i) (es (S j) i)).
Proof. exact (@C56_map_objective_monotone_l _ _ _ _ _ _ _ _ _ _ _ _ _). Qed.
Print Assumptions C56_map_objective_monotone.

Theorem C18_history_monotone h nc nf pi A e ls x h' ev :
  cat_model h nc nf pi A e -> flat_priors h ->
  sumn nc pi <= 1 -> (forall i, (i < nc)%nat -> sumn nc (A i) <= 1) -> (forall i, (i < nc)%nat -> sumn nf (e i) <= 1) ->
  good_data (sym_ok nf) ls x -> possible nc pi A (cat_b e) ls x ->
  fit_from categorical exact h x (as_lengths ls) = Ok (h', ev) ->
  (exists vs : list R, m_history (h_mon h') = map Fin vs
     /\ forall i j, (i <= j)%nat -> (j < length vs)%nat -> nth i vs 0 <= nth j vs 0)
  /\ ~ In WNotConverging ev.
Proof. exact (@C18_history_monotone_l _ _ _ _ _ _ _ _ _ _). Qed.
Print Assumptions C18_history_monotone.

(** Training from a usable model with the log implementation always returns. *)
Theorem C18_fit_succeeds h nc nf pi A e sp tp ep ls x : cat_model h nc nf pi A e ->
  cat_priors h nc nf sp tp ep -> good_data (sym_ok nf) ls x -> possible nc pi A (cat_b e) ls x ->
  c_impl (h_cfg h) = "log"%string ->
  exists h' ev, fit_from categorical exact h x (as_lengths ls) = Ok (h', ev).
Proof. exact (@C18_fit_succeeds_l _ _ _ _ _ _ _ _ _ _ _). Qed.
Print Assumptions C18_fit_succeeds.

Example C18_applies : exists h' ev,
  fit_from categorical exact (ex_h "log" "map") ex_x (as_lengths [2; 1]%nat) = Ok (h', ev)
  /\ ~ In WNotConverging ev.
Proof. exact (@C18_applies_l). Qed.

Example C56_applies :
  cat_model ex_h2 2 3 ex_pi ex_A ex_e
  /\ cat_priors ex_h2 2 3 (fun _ => 2) (fun _ _ => 2) (fun _ _ => 1)
  /\ exists h' ev, fit_from categorical exact ex_h2 ex_x (as_lengths [2; 1]%nat) = Ok (h', ev).
Proof. exact (@C56_applies_l). Qed.

(** Any finite statistics and priors, any emission class: the new [startprob_]
    is a distribution unless every start weight is clipped to 0, in which case
    it is all NaN; every row of the new [transmat_] is a distribution or zero. *)
Theorem C19_mstep {P X St} (E : emclass P X St) h nc pi A sp tp f g st h' :
  c_nc (h_cfg h) = nc -> priors (h_cfg h) nc sp tp ->
  st_start st = fvec nc f -> st_trans st = fmat nc nc g ->
  do_mstep E exact h (fvec nc pi) (fmat nc nc A) st = Ok h' ->
  (has "s" (c_params (h_cfg h)) = true ->
     ((exists i, (i < nc)%nat /\ pi i <> 0 /\ 0 < sp i - 1 + f i)
        /\ exists pi', h_start h' = Some (fvec nc pi') /\ stochastic1 nc pi')
     \/ ((forall i, (i < nc)%nat -> pi i <> 0 -> sp i - 1 + f i <= 0)
        /\ h_start h' = Some (tab nc (fun _ => NaN))))
  /\ (has "t" (c_params (h_cfg h)) = true ->
     exists A', h_trans h' = Some (fmat nc nc A') /\ forall i, (i < nc)%nat -> stoch_or_zero nc (A' i)).
Proof. exact (@C19_mstep_l _ _ _ _ _ _ _ _ _ _ _ _ _ _). Qed.
Print Assumptions C19_mstep.

(** The same for the emission rows of a CategoricalHMM. *)
Theorem C19_mstep_categorical c nfe p nc nf ep f p' :
  has "e" (c_params c) = true ->
  (forall i k, (i < nc)%nat -> (k < nf)%nat -> pget2 (cat_prior p) i k = Fin (ep i k)) ->
  ec_mstep categorical exact c nfe p (fmat nc nf f) = Ok p' ->
  exists e', cat_prob p' = Some (fmat nc nf e') /\ forall i, (i < nc)%nat -> stoch_or_zero nf (e' i).
Proof. exact (@C19_mstep_categorical_l _ _ _ _ _ _ _ _). Qed.
Print Assumptions C19_mstep_categorical.

(** Whole training runs, priors at least 1. *)
Theorem C19_fit h nc nf pi A e sp tp ep ls x h' ev :
  cat_model h nc nf pi A e -> cat_priors h nc nf sp tp ep ->
  good_data (sym_ok nf) ls x -> possible nc pi A (cat_b e) ls x -> (0 < c_n_iter (h_cfg h))%nat ->
  fit_from categorical exact h x (as_lengths ls) = Ok (h', ev) ->
  exists pi' A' e', h_start h' = Some (fvec nc pi') /\ h_trans h' = Some (fmat nc nc A')
    /\ cat_prob (h_em h') = Some (fmat nc nf e')
    /\ (has "s" (c_params (h_cfg h)) = true -> stochastic1 nc pi')
    /\ (has "t" (c_params (h_cfg h)) = true -> forall i, (i < nc)%nat -> stoch_or_zero nc (A' i))
    /\ (has "e" (c_params (h_cfg h)) = true -> forall i, (i < nc)%nat -> stoch_or_zero nf (e' i))
    /\ (forall i, (i < nc)%nat -> pi i = 0 -> pi' i = 0)
    /\ (forall i j, (i < nc)%nat -> (j < nc)%nat -> A i j = 0 -> A' i j = 0).
Proof. exact (@C19_fit_l _ _ _ _ _ _ _ _ _ _ _ _ _). Qed.
Print Assumptions C19_fit.

(** With [startprob_prior = 0] (any value below 1 with enough states), one
    sequence and one iteration leave [startprob_] all NaN. *)
Theorem C19_startprob_refuted h nc nf pi A e x : cat_model h nc nf pi A e ->
  c_sprior (h_cfg h) = Scal (Fin 0) -> c_tprior (h_cfg h) = Scal (Fin 1) ->
  has "s" (c_params (h_cfg h)) = true -> c_impl (h_cfg h) = "log"%string -> c_n_iter (h_cfg h) = 1%nat ->
  x <> [] -> Forall (sym_ok nf) x -> 0 < seq_lik nc pi A (cat_b e) x ->
  exists h' ev, fit_from categorical exact h x None = Ok (h', ev) /\ h_start h' = Some (tab nc (fun _ => NaN)).
Proof. exact (@C19_startprob_refuted_l _ _ _ _ _ _ _). Qed.
Print Assumptions C19_startprob_refuted.

Example C19_refuted_applies : exists h' ev,
  fit_from categorical exact ex_h0 ex_x None = Ok (h', ev) /\ h_start h' = Some [NaN; NaN].
Proof. exact (@C19_refuted_applies_l). Qed.

Example C19_applies : exists h' ev,
  fit_from categorical exact (ex_h "log" "map") ex_x (as_lengths [2; 1]%nat) = Ok (h', ev)
  /\ exists pi' A', h_start h' = Some (fvec 2 pi') /\ stochastic1 2 pi'
       /\ h_trans h' = Some (fmat 2 2 A') /\ A' 1%nat 0%nat = 0.
Proof. exact (@C19_applies_l). Qed.

Theorem C20_step {P X St} (E : emclass P X St) fp x lengths h h' v nc : fp 0 = Fin 0 ->
  c_nc (h_cfg h) = nc -> em_step E fp x lengths h = Ok (h', v) ->
  exists s t s' t', h_start h = Some s /\ h_trans h = Some t /\ h_start h' = Some s' /\ h_trans h' = Some t'
    /\ (forall i, (i < nc)%nat -> vget s i = Fin 0 -> vget s' i = Fin 0 \/ vget s' i = NaN)
    /\ (forall i j, (i < nc)%nat -> (j < nc)%nat -> mget t i j = Fin 0 -> mget t' i j = Fin 0 \/ mget t' i j = NaN).
Proof. exact (@C20_step_l _ _ _ _ _ _ _ _ _ _ _). Qed.
Print Assumptions C20_step.

(** Whole runs, any class and rounding: a zero stays zero as long as no
    iteration turns it into NaN. *)
Theorem C20_run {P X St} (E : emclass P X St) fp x lengths nc : fp 0 = Fin 0 ->
  forall k h h' vs s t, c_nc (h_cfg h) = nc -> h_start h = Some s -> h_trans h = Some t ->
  iterate (em_step E fp x lengths) k h = Ok (h', vs) ->
  exists s' t', h_start h' = Some s' /\ h_trans h' = Some t'
    /\ (forall i, (i < nc)%nat -> vget s i = Fin 0 ->
          (forall j hj vj sj, (j <= k)%nat -> iterate (em_step E fp x lengths) j h = Ok (hj, vj) ->
             h_start hj = Some sj -> vget sj i <> NaN) -> vget s' i = Fin 0)
    /\ (forall i i', (i < nc)%nat -> (i' < nc)%nat -> mget t i i' = Fin 0 ->
          (forall j hj vj tj, (j <= k)%nat -> iterate (em_step E fp x lengths) j h = Ok (hj, vj) ->
             h_trans hj = Some tj -> mget tj i i' <> NaN) -> mget t' i i' = Fin 0).
Proof. exact (@C20_run_l _ _ _ _ _ _ _ _). Qed.
Print Assumptions C20_run.

(** Exact arithmetic, priors at least 1: zeros are preserved without proviso. *)
Theorem C20_fit h nc nf pi A e sp tp ep ls x h' ev :
  cat_model h nc nf pi A e -> cat_priors h nc nf sp tp ep ->
  good_data (sym_ok nf) ls x -> possible nc pi A (cat_b e) ls x -> (0 < c_n_iter (h_cfg h))%nat ->
  fit_from categorical exact h x (as_lengths ls) = Ok (h', ev) ->
  exists s' t', h_start h' = Some s' /\ h_trans h' = Some t'
    /\ (forall i, (i < nc)%nat -> pi i = 0 -> vget s' i = Fin 0)
    /\ (forall i j, (i < nc)%nat -> (j < nc)%nat -> A i j = 0 -> mget t' i j = Fin 0).
Proof. exact (@C20_fit_l _ _ _ _ _ _ _ _ _ _ _ _ _). Qed.
Print Assumptions C20_fit.

Example C20_applies : exists h' ev t',
  fit_from categorical exact (ex_h "log" "map") ex_x (as_lengths [2; 1]%nat) = Ok (h', ev)
  /\ h_trans h' = Some t' /\ mget t' 1 0 = Fin 0.
Proof. exact (@C20_applies_l). Qed.

(** Any emission class, any rounding. *)
Theorem C21_base_params {P X St} (E : emclass P X St) fp h x lengths h' ev :
  fit_from E fp h x lengths = Ok (h', ev) ->
  h_cfg h' = h_cfg h
  /\ (has "s" (c_params (h_cfg h)) = false -> h_start h' = h_start h)
  /\ (has "t" (c_params (h_cfg h)) = false -> h_trans h' = h_trans h).
Proof. exact (@C21_base_params_l _ _ _ _ _ _ _ _ _ _). Qed.
Print Assumptions C21_base_params.

Theorem C21_categorical fp h x lengths h' ev :
  fit_from categorical fp h x lengths = Ok (h', ev) ->
  has "e" (c_params (h_cfg h)) = false -> h_em h' = h_em h.
Proof. exact (@C21_categorical_l _ _ _ _ _ _). Qed.
Print Assumptions C21_categorical.

Example C21_applies : exists h' ev,
  fit_from categorical exact ex_ht ex_x (as_lengths [2; 1]%nat) = Ok (h', ev)
  /\ h_start h' = Some (fvec 2 ex_pi) /\ h_em h' = h_em ex_ht.
Proof. exact (@C21_applies_l). Qed.

(** Any class and rounding; the estimator's [monitor_] is the one its
    constructor built from [tol] and [n_iter]. *)
Theorem C23_stopping_and_history {P X St} (E : emclass P X St) fp h x ls h' ev :
  m_n_iter (h_mon h) = c_n_iter (h_cfg h) -> m_tol (h_mon h) = c_tol (h_cfg h) ->
  fit_from E fp h x (as_lengths ls) = Ok (h', ev) ->
  let k := length (m_history (h_mon h')) in
  let hist := m_history (h_mon h') in
  m_iter (h_mon h') = k /\ (k <= c_n_iter (h_cfg h))%nat
  /\ (k = 0%nat <-> c_n_iter (h_cfg h) = 0%nat)
  /\ stops fp (c_tol (h_cfg h)) (c_n_iter (h_cfg h)) hist
  /\ (forall j, (0 < j < k)%nat -> ~ stops fp (c_tol (h_cfg h)) (c_n_iter (h_cfg h)) (firstn j hist))
  /\ exists h1 h2, check E fp h = Ok h1 /\ iterate (em_step E fp x (as_lengths ls)) k h1 = Ok (h2, hist)
       /\ (h_start h' = h_start h2 /\ h_trans h' = h_trans h2 /\ h_em h' = h_em h2)
       /\ forall j, (j < k)%nat -> exists hj hj',
            iterate (em_step E fp x (as_lengths ls)) j h1 = Ok (hj, firstn j hist)
            /\ em_step E fp x (as_lengths ls) hj = Ok (hj', nth j hist NaN)
            /\ (check E fp hj = Ok hj -> check_array (ec_xok E) x = Ok x ->
                score E fp hj x (as_lengths ls) = Ok (nth j hist NaN)).
Proof. exact (@C23_stopping_and_history_l _ _ _ _ _ _ _ _ _ _). Qed.
Print Assumptions C23_stopping_and_history.

Example C23_applies : exists h' ev,
  fit_from categorical exact (ex_h "log" "map") ex_x (as_lengths [2; 1]%nat) = Ok (h', ev)
  /\ m_n_iter (h_mon (ex_h "log" "map")) = c_n_iter (h_cfg (ex_h "log" "map"))
  /\ score categorical exact (ex_h "log" "map") ex_x (as_lengths [2; 1]%nat) = Ok (nth 0 (m_history (h_mon h')) NaN).
Proof. exact (@C23_applies_l). Qed.

(** ** C24: the non-convergence warning. *)
Theorem C24_report fp m v :
  In WNotConverging (snd (monitor_report fp m v)) <->
  exists h p, m_history m = h ++ [p] /\ xlt (xsub fp v p) (Fin (- / 2 ^ 26)).
Proof. exact (@C24_report_l _ _ _). Qed.
Print Assumptions C24_report.

Theorem C24_fit {P X St} (E : emclass P X St) fp h x ls h' ev :
  fit_from E fp h x (as_lengths ls) = Ok (h', ev) ->
  (In WNotConverging ev <-> drops fp (m_history (h_mon h'))).
Proof. exact (@C24_fit_l _ _ _ _ _ _ _ _ _ _). Qed.
Print Assumptions C24_fit.

Example C24_applies :
  In WNotConverging (snd (monitor_report exact (Monitor (Fin 0) 10 false [Fin (-5); Fin (-3)] 2) (Fin (-4))))
  /\ ~ In WNotConverging (snd (monitor_report exact (Monitor (Fin 0) 10 false [Fin (-5); Fin (-3)] 2) (Fin (-3)))).
Proof. exact (@C24_applies_l). Qed.

(** ** C25: the two implementations train identically. *)
Theorem C25_same_training h nc nf pi A e sp tp ep ls x h' ev :
  cat_model h nc nf pi A e -> cat_priors h nc nf sp tp ep ->
  good_data (sym_ok nf) ls x -> possible nc pi A (cat_b e) ls x ->
  fit_from categorical exact h x (as_lengths ls) = Ok (h', ev) ->
  fit_from categorical exact (with_cfg (cfg_impl "log") h) x (as_lengths ls)
  = Ok (with_cfg (cfg_impl "log") h', ev).
Proof. exact (@C25_same_training_l _ _ _ _ _ _ _ _ _ _ _ _ _). Qed.
Print Assumptions C25_same_training.

Example C25_applies :
  cat_model ex_hs 2 3 ex_pi ex_A ex_e /\ flat_priors ex_hs
  /\ good_data (sym_ok 3) [3]%nat ex_x /\ possible 2 ex_pi ex_A (cat_b ex_e) [3]%nat ex_x
  /\ exists h' ev, fit_from categorical exact ex_hs ex_x (as_lengths [3]%nat) = Ok (h', ev).
Proof. exact (@C25_applies_l). Qed.

(** Assigning [tol] has no effect on training whatsoever. *)
Theorem C26_tol_ignored_refuted fp h x lengths t :
  fit_from categorical fp (with_cfg (cfg_tol t) h) x lengths
  = do (h', ev) <- fit_from categorical fp h x lengths; Ok (with_cfg (cfg_tol t) h', ev).
Proof. exact (@C26_tol_ignored_refuted_l _ _ _ _ _). Qed.
Print Assumptions C26_tol_ignored_refuted.

(** However large [n_iter] is made after construction, training stops at the
    constructor's value. *)
Theorem C26_n_iter_ignored_refuted {P X St} (E : emclass P X St) fp h x ls n h' ev :
  (0 < m_n_iter (h_mon h))%nat ->
  fit_from E fp (with_cfg (cfg_n_iter n) h) x (as_lengths ls) = Ok (h', ev) ->
  (length (m_history (h_mon h')) <= m_n_iter (h_mon h))%nat.
Proof. exact (@C26_n_iter_ignored_refuted_l _ _ _ _ _ _ _ _ _ _ _). Qed.
Print Assumptions C26_n_iter_ignored_refuted.

Example C26_witness : exists h' ev,
  fit_from categorical exact (with_cfg (cfg_tol (Fin (-1))) (with_cfg (cfg_n_iter 20) ex_h3)) ex_x (as_lengths [2; 1]%nat)
    = Ok (h', ev)
  /\ c_tol (h_cfg h') = Fin (-1) /\ c_n_iter (h_cfg h') = 20%nat
  /\ ~ stops exact (c_tol (h_cfg h')) (c_n_iter (h_cfg h')) (m_history (h_mon h')).
Proof. exact (@C26_witness_l). Qed.

