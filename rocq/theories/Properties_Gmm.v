(** * Properties C02, C21, C25, C28, C38-C40, C58: GMMHMM. *)
From Verif Require Import Gmm_thms Gmm_ex.

(** ** C02, C38: densities. *)
Theorem C02_gmm_ready eig h nc nm nf ty pi A w mu cv wp mw mp cp cw :
  gmm_model eig h nc nm nf ty pi A w mu cv -> gmm_hyper (h_em h) nc nm nf ty wp mw mp cp cw ->
  ready (gmm eig) h nc pi A (finite_row nf) (fun o i => sumn nm (fun k => w i k * dens nf ty mu cv o i k)).
Proof. exact (@C02_gmm_ready_l _ _ _ _ _ _ _ _ _ _ _ _ _ _ _ _). Qed.
Print Assumptions C02_gmm_ready.

(** The log-likelihoods the class computes, diagonal covariances. *)
Theorem C38_diag_density eig h nc nm nf pi A w mu var wp mw mp cp cw x :
  gmm_model eig h nc nm nf "diag" pi A w mu (idx3 var) -> gmm_hyper (h_em h) nc nm nf "diag" wp mw mp cp cw ->
  Forall (finite_row nf) x ->
  exists h', check (gmm eig) exact h = Ok h'
    /\ loglik (gmm eig) exact h' x = Ok (mtab (length x) nc (fun t i => xln (sumn nm (fun k =>
         w i k * prodn nf (fun f => let v := Rmax (var i k f) (/ 2 ^ 1022) in
           exp (- ((xval (nth t x []) f - mu i k f) ^ 2 / (2 * v))) / sqrt (2 * PI * v)))))).
Proof. exact (@C38_diag_density_l _ _ _ _ _ _ _ _ _ _ _ _ _ _ _ _). Qed.
Print Assumptions C38_diag_density.

Theorem C38_spherical_density eig h nc nm nf pi A w mu var wp mw mp cp cw x :
  gmm_model eig h nc nm nf "spherical" pi A w mu (idx2 var) -> gmm_hyper (h_em h) nc nm nf "spherical" wp mw mp cp cw ->
  Forall (finite_row nf) x ->
  exists h', check (gmm eig) exact h = Ok h'
    /\ loglik (gmm eig) exact h' x = Ok (mtab (length x) nc (fun t i => xln (sumn nm (fun k =>
         w i k * prodn nf (fun f => let v := Rmax (var i k) (/ 2 ^ 1022) in
           exp (- ((xval (nth t x []) f - mu i k f) ^ 2 / (2 * v))) / sqrt (2 * PI * v)))))).
Proof. exact (@C38_spherical_density_l _ _ _ _ _ _ _ _ _ _ _ _ _ _ _ _). Qed.
Print Assumptions C38_spherical_density.

Theorem C38_full_density eig h nc nm nf pi A w mu Sg wp mw mp cp cw x N :
  gmm_model eig h nc nm nf "full" pi A w mu (idx4 Sg) -> gmm_hyper (h_em h) nc nm nf "full" wp mw mp cp cw ->
  Forall (finite_row nf) x -> (forall i k, (i < nc)%nat -> (k < nm)%nat -> pos_def nf (Sg i k)) ->
  (forall o i k, In o x -> (i < nc)%nat -> (k < nm)%nat -> mvn_density nf (mu i k) (Sg i k) (xval o) (N o i k)) ->
  exists h', check (gmm eig) exact h = Ok h'
    /\ loglik (gmm eig) exact h' x = Ok (mtab (length x) nc (fun t i => xln (sumn nm (fun k => w i k * N (nth t x []) i k)))).
Proof. exact (@C38_full_density_l _ _ _ _ _ _ _ _ _ _ _ _ _ _ _ _ _). Qed.
Print Assumptions C38_full_density.

Theorem C38_tied_density eig h nc nm nf pi A w mu Sg wp mw mp cp cw x N :
  gmm_model eig h nc nm nf "tied" pi A w mu (idx3 Sg) -> gmm_hyper (h_em h) nc nm nf "tied" wp mw mp cp cw ->
  Forall (finite_row nf) x -> (forall i, (i < nc)%nat -> pos_def nf (Sg i)) ->
  (forall o i k, In o x -> (i < nc)%nat -> (k < nm)%nat -> mvn_density nf (mu i k) (Sg i) (xval o) (N o i k)) ->
  exists h', check (gmm eig) exact h = Ok h'
    /\ loglik (gmm eig) exact h' x = Ok (mtab (length x) nc (fun t i => xln (sumn nm (fun k => w i k * N (nth t x []) i k)))).
Proof. exact (@C38_tied_density_l _ _ _ _ _ _ _ _ _ _ _ _ _ _ _ _ _). Qed.
Print Assumptions C38_tied_density.

(** ** C38: the weights after training. *)
Theorem C38_weights eig h nc nm nf ty pi A w mu cv ls x h' ev :
  gmm_model eig h nc nm nf ty pi A w mu cv -> flat_base h -> gmm_flat h ->
  (ty = "spherical"%string -> (nm <= nf)%nat) ->
  (forall i k, (i < nc)%nat -> (k < nm)%nat -> 0 < w i k) ->
  sumn nc pi <= 1 -> (forall i, (i < nc)%nat -> sumn nc (A i) <= 1) ->
  good_data (finite_row nf) ls x -> possible nc pi A (mixb nm nf ty w mu cv) ls x ->
  all_used nc pi A (mixb nm nf ty w mu cv) (chunks ls x) ->
  fit_from (gmm eig) exact h x (as_lengths ls) = Ok (h', ev) ->
  has "w" (c_params (h_cfg h)) = true ->
  exists pis As ws mus cvs, gmm_traj h nc nm nf ty pi A w mu cv h' pis As ws mus cvs
  /\ forall j, (j < length (m_history (h_mon h')))%nat -> forall i, (i < nc)%nat ->
       let b := mixb nm nf ty (ws j) (mus j) (cvs j) in
       (forall k, (k < nm)%nat -> 0 < ws (S j) i k
         /\ ws (S j) i k = weighted_total nc (pis j) (As j) b (chunks ls x)
                             (fun o => ws j i k * dens nf ty (mus j) (cvs j) o i k / b o i) i
                           / occupancy nc (pis j) (As j) b (chunks ls x) i)
       /\ sumn nm (ws (S j) i) = 1.
Proof. exact (@C38_weights_l _ _ _ _ _ _ _ _ _ _ _ _ _ _ _). Qed.
Print Assumptions C38_weights.

Theorem C39_diag eig h nc nm nf pi A w mu cv ls x h' ev :
  cov_run eig h nc nm nf "diag" pi A w mu cv ls x h' ev ->
  exists pis As ws mus cvs, gmm_traj h nc nm nf "diag" pi A w mu cv h' pis As ws mus cvs
  /\ forall j, (j < length (m_history (h_mon h')))%nat ->
       let r := resp nm nf "diag" (ws j) (mus j) (cvs j) in
       let tot := weighted_total nc (pis j) (As j) (mixb nm nf "diag" (ws j) (mus j) (cvs j)) (chunks ls x) in
       forall i k f, (i < nc)%nat -> (k < nm)%nat -> (f < nf)%nat ->
         0 < tot (fun o => r o i k) i
         /\ cvs (S j) [i; k; f] = tot (fun o => r o i k * ((xval o f - mus j i k f) * (xval o f - mus j i k f))) i
                                 / tot (fun o => r o i k) i.
Proof. exact (@C39_diag_l _ _ _ _ _ _ _ _ _ _ _ _ _ _). Qed.
Print Assumptions C39_diag.

Theorem C39_full eig h nc nm nf pi A w mu cv ls x h' ev :
  cov_run eig h nc nm nf "full" pi A w mu cv ls x h' ev ->
  exists pis As ws mus cvs, gmm_traj h nc nm nf "full" pi A w mu cv h' pis As ws mus cvs
  /\ forall j, (j < length (m_history (h_mon h')))%nat ->
       let r := resp nm nf "full" (ws j) (mus j) (cvs j) in
       let tot := weighted_total nc (pis j) (As j) (mixb nm nf "full" (ws j) (mus j) (cvs j)) (chunks ls x) in
       forall i k f g, (i < nc)%nat -> (k < nm)%nat -> (f < nf)%nat -> (g < nf)%nat ->
         0 < tot (fun o => r o i k) i
         /\ cvs (S j) [i; k; f; g] = tot (fun o => r o i k * ((xval o f - mus j i k f) * (xval o g - mus j i k g))) i
                                    / tot (fun o => r o i k) i.
Proof. exact (@C39_full_l _ _ _ _ _ _ _ _ _ _ _ _ _ _). Qed.
Print Assumptions C39_full.

Theorem C39_tied eig h nc nm nf pi A w mu cv ls x h' ev :
  cov_run eig h nc nm nf "tied" pi A w mu cv ls x h' ev ->
  exists pis As ws mus cvs, gmm_traj h nc nm nf "tied" pi A w mu cv h' pis As ws mus cvs
  /\ forall j, (j < length (m_history (h_mon h')))%nat ->
       let r := resp nm nf "tied" (ws j) (mus j) (cvs j) in
       let b := mixb nm nf "tied" (ws j) (mus j) (cvs j) in
       let tot := weighted_total nc (pis j) (As j) b (chunks ls x) in
       let occ := occupancy nc (pis j) (As j) b (chunks ls x) in
       forall i f g, (i < nc)%nat -> (f < nf)%nat -> (g < nf)%nat ->
         0 < occ i
         /\ cvs (S j) [i; f; g] = tot (fun o => sumn nm (fun k => r o i k * ((xval o f - mus j i k f) * (xval o g - mus j i k g)))) i / occ i.
Proof. exact (@C39_tied_l _ _ _ _ _ _ _ _ _ _ _ _ _ _). Qed.
Print Assumptions C39_tied.

(** Spherical: the divisor is off by [n_features - n_mix]. *)
Theorem C39_spherical_divisor eig h nc nm nf pi A w mu cv ls x h' ev : (nm <= nf)%nat ->
  cov_run eig h nc nm nf "spherical" pi A w mu cv ls x h' ev ->
  exists pis As ws mus cvs, gmm_traj h nc nm nf "spherical" pi A w mu cv h' pis As ws mus cvs
  /\ forall j, (j < length (m_history (h_mon h')))%nat ->
       let r := resp nm nf "spherical" (ws j) (mus j) (cvs j) in
       let tot := weighted_total nc (pis j) (As j) (mixb nm nf "spherical" (ws j) (mus j) (cvs j)) (chunks ls x) in
       forall i k, (i < nc)%nat -> (k < nm)%nat ->
         0 < tot (fun o => r o i k) i
         /\ cvs (S j) [i; k] = tot (fun o => r o i k * sumn nf (fun f => (xval o f - mus j i k f) * (xval o f - mus j i k f))) i
                              / (INR nf * tot (fun o => r o i k) i + (INR nf - INR nm)).
Proof. exact (@C39_spherical_divisor_l _ _ _ _ _ _ _ _ _ _ _ _ _ _). Qed.
Print Assumptions C39_spherical_divisor.

Theorem C40_penalised_monotone eig h nc nm nf pi A w mu cv wp mw mp cp cw sp tp ls x h' ev :
  gmm_model eig h nc nm nf "diag" pi A w mu cv -> gmm_hyper (h_em h) nc nm nf "diag" wp mw mp cp cw ->
  (forall i k, (i < nc)%nat -> (k < nm)%nat -> 1 <= wp i k /\ mw i k = 0) ->
  (forall i k f, (i < nc)%nat -> (k < nm)%nat -> (f < nf)%nat -> - (3 / 2) <= cp [i; k; f] /\ 0 <= cw [i; k; f]) ->
  (forall i k, (i < nc)%nat -> (k < nm)%nat -> 0 < w i k) -> (forall i, (i < nc)%nat -> sumn nm (w i) <= 1) ->
  priors (h_cfg h) nc sp tp -> (forall i, (i < nc)%nat -> 1 <= sp i) ->
  (forall i j, (i < nc)%nat -> (j < nc)%nat -> 1 <= tp i j) ->
  sumn nc pi <= 1 -> (forall i, (i < nc)%nat -> sumn nc (A i) <= 1) ->
  good_data (finite_row nf) ls x -> possible nc pi A (mixb nm nf "diag" w mu cv) ls x ->
  all_used nc pi A (mixb nm nf "diag" w mu cv) (chunks ls x) ->
  fit_from (gmm eig) exact h x (as_lengths ls) = Ok (h', ev) ->
  exists pis As ws mus cvs, gmm_traj h nc nm nf "diag" pi A w mu cv h' pis As ws mus cvs
  /\ let L j := data_loglik nc (pis j) (As j) (mixb nm nf "diag" (ws j) (mus j) (cvs j)) ls x in
     let P j := log_dirichlet nc sp (pis j) + sumn nc (fun i => log_dirichlet nc (tp i) (As j i))
                + gmm_logprior nc nm nf wp cp cw (ws j) (cvs j) in
     forall j, (j < length (m_history (h_mon h')))%nat ->
       nth j (m_history (h_mon h')) NaN = Fin (L j) /\ L j + P j <= L (S j) + P (S j).
Proof. exact (@C40_penalised_monotone_l _ _ _ _ _ _ _ _ _ _ _ _ _ _ _ _ _ _ _ _ _). Qed.
Print Assumptions C40_penalised_monotone.

Theorem C40_monotone eig h nc nm nf pi A w mu cv ls x h' ev :
  gmm_model eig h nc nm nf "diag" pi A w mu cv -> flat_base h -> gmm_flat h ->
  (forall i k, (i < nc)%nat -> (k < nm)%nat -> 0 < w i k) -> (forall i, (i < nc)%nat -> sumn nm (w i) <= 1) ->
  sumn nc pi <= 1 -> (forall i, (i < nc)%nat -> sumn nc (A i) <= 1) ->
  good_data (finite_row nf) ls x -> possible nc pi A (mixb nm nf "diag" w mu cv) ls x ->
  all_used nc pi A (mixb nm nf "diag" w mu cv) (chunks ls x) ->
  fit_from (gmm eig) exact h x (as_lengths ls) = Ok (h', ev) ->
  (exists vs, m_history (h_mon h') = map Fin vs
     /\ forall i j, (i <= j)%nat -> (j < length vs)%nat -> nth i vs 0 <= nth j vs 0)
  /\ ~ In WNotConverging ev
  /\ exists pis As ws mus cvs, gmm_traj h nc nm nf "diag" pi A w mu cv h' pis As ws mus cvs
     /\ let L j := data_loglik nc (pis j) (As j) (mixb nm nf "diag" (ws j) (mus j) (cvs j)) ls x in
        forall j, (j < length (m_history (h_mon h')))%nat -> nth j (m_history (h_mon h')) NaN = Fin (L j) /\ L j <= L (S j).
Proof. exact (@C40_monotone_l _ _ _ _ _ _ _ _ _ _ _ _ _ _). Qed.
Print Assumptions C40_monotone.

(** ** C25 *)
Theorem C25_gmm eig h nc nm nf ty pi A w mu cv wp mw mp cp cw sp tp ls x h' ev :
  gmm_model eig h nc nm nf ty pi A w mu cv -> gmm_hyper (h_em h) nc nm nf ty wp mw mp cp cw ->
  hyper_ok nc nm nf ty wp mw cp cw -> (forall i k, (i < nc)%nat -> (k < nm)%nat -> 0 < w i k) ->
  priors (h_cfg h) nc sp tp -> (forall i, (i < nc)%nat -> 1 <= sp i) ->
  (forall i j, (i < nc)%nat -> (j < nc)%nat -> 1 <= tp i j) ->
  good_data (finite_row nf) ls x -> possible nc pi A (mixb nm nf ty w mu cv) ls x ->
  all_used nc pi A (mixb nm nf ty w mu cv) (chunks ls x) ->
  fit_from (gmm eig) exact h x (as_lengths ls) = Ok (h', ev) ->
  fit_from (gmm eig) exact (with_cfg (cfg_impl "log") h) x (as_lengths ls) = Ok (with_cfg (cfg_impl "log") h', ev).
Proof. exact (@C25_gmm_l _ _ _ _ _ _ _ _ _ _ _ _ _ _ _ _ _ _ _ _ _ _). Qed.
Print Assumptions C25_gmm.

Theorem C21_gmm eig fp h x lengths h' ev :
  fit_from (gmm eig) fp h x lengths = Ok (h', ev) ->
  (has "w" (c_params (h_cfg h)) = false -> gm_weights (h_em h') = gm_weights (h_em h))
  /\ (has "m" (c_params (h_cfg h)) = false -> gm_means (h_em h') = gm_means (h_em h))
  /\ (has "c" (c_params (h_cfg h)) = false -> gm_covars (h_em h') = gm_covars (h_em h)).
Proof. exact (@C21_gmm_l _ _ _ _ _ _ _). Qed.
Print Assumptions C21_gmm.

(** ** The theorems apply. *)
Example C38_weights_applies : exists h' ev,
  fit_from (gmm eig1) exact (exd "diag" "stmcw") exd_x (as_lengths [1; 1]%nat) = Ok (h', ev)
  /\ length (m_history (h_mon h')) = 1%nat
  /\ exists pis As ws mus cvs, gmm_traj (exd "diag" "stmcw") 1 2 1 "diag" u1 all1 half2 (cmu 0) (ccv 1) h' pis As ws mus cvs
     /\ forall k, (k < 2)%nat -> 0 < ws 1%nat 0%nat k /\ sumn 2 (ws 1%nat 0%nat) = 1.
Proof. exact (@C38_weights_applies_l). Qed.

Example C39_diag_applies : exists h' ev, cov_run eig1 (exd "diag" "c") 1 2 1 "diag" u1 all1 half2 (cmu 0) (ccv 1) [1; 1]%nat exd_x h' ev
  /\ length (m_history (h_mon h')) = 1%nat /\ gm_covars (h_em h') = Some (nd3 1 2 1 (fun _ _ _ => 1 / 2)).
Proof. exact (@C39_diag_applies_l). Qed.

Example C39_full_applies : exists h' ev, cov_run eig1 (exd "full" "stmcw") 1 2 1 "full" u1 all1 half2 (cmu 0) (ccv 1) [1; 1]%nat exd_x h' ev
  /\ length (m_history (h_mon h')) = 1%nat.
Proof. exact (@C39_full_applies_l). Qed.

Example C39_tied_applies : exists h' ev, cov_run eig1 (exd "tied" "stmcw") 1 2 1 "tied" u1 all1 half2 (cmu 0) (ccv 1) [1; 1]%nat exd_x h' ev
  /\ length (m_history (h_mon h')) = 1%nat.
Proof. exact (@C39_tied_applies_l). Qed.

Example C40_monotone_applies : exists h' ev,
  fit_from (gmm eig1) exact (exd "diag" "stmcw") exd_x (as_lengths [1; 1]%nat) = Ok (h', ev) /\ ~ In WNotConverging ev
  /\ length (m_history (h_mon h')) = 1%nat.
Proof. exact (@C40_monotone_applies_l). Qed.

Example C25_gmm_applies : exists h' ev,
  fit_from (gmm eig1) exact (with_cfg (cfg_impl "log") (exd "tied" "stmcw")) exd_x (as_lengths [1; 1]%nat) = Ok (with_cfg (cfg_impl "log") h', ev).
Proof. exact (@C25_gmm_applies_l). Qed.

Example C39_spherical_divisor_applies : exists h' ev, cov_run eig1 (exs 1) 1 1 2 "spherical" u1 all1 all1 (cmu 0) (ccv 1) [1]%nat exs_x h' ev
  /\ length (m_history (h_mon h')) = 1%nat.
Proof. exact (@C39_spherical_divisor_applies_l). Qed.

Theorem C39_spherical_refuted : exists eig h nc nm nf pi A w mu cv ls x h' ev cv',
  cov_run eig h nc nm nf "spherical" pi A w mu cv ls x h' ev
  /\ (nc = 1 /\ nm = 1 /\ nf = 2)%nat /\ length (m_history (h_mon h')) = 1%nat
  /\ gm_covars (h_em h') = Some (nd2 nc nm cv') /\ cv' 0%nat 0%nat = 1 / 3
  /\ let r := resp nm nf "spherical" w mu cv in
     let tot := weighted_total nc pi A (mixb nm nf "spherical" w mu cv) (chunks ls x) in
     tot (fun o => r o 0%nat 0%nat * sumn nf (fun f => (xval o f - mu 0%nat 0%nat f) ^ 2)) 0%nat / (INR nf * tot (fun o => r o 0%nat 0%nat) 0%nat) = 1 / 2.
Proof. exact (@C39_spherical_refuted_l). Qed.
Print Assumptions C39_spherical_refuted.

Theorem C39_spherical_decrease_refuted : exists eig h ls x h' ev a b,
  gmm_model eig h 1 1 2 "spherical" u1 all1 all1 (cmu 0) (ccv (1 / 2)) /\ gmm_flat h /\ flat_base h
  /\ fit_from (gmm eig) exact h x (as_lengths ls) = Ok (h', ev)
  /\ score (gmm eig) exact h x (as_lengths ls) = Ok (Fin a)
  /\ score (gmm eig) exact h' x (as_lengths ls) = Ok (Fin b) /\ b < a.
Proof. exact (@C39_spherical_decrease_refuted_l). Qed.
Print Assumptions C39_spherical_decrease_refuted.

(** ** C28: a fitted model that no method accepts.  Spherical covariances, more
    components than features: the default prior makes the variances negative. *)
Theorem C28_gmm_refuted : exists eig h pi A w mu cv ls x h' ev,
  gmm_model eig h 1 2 1 "spherical" pi A w mu cv /\ gmm_flat h /\ flat_base h
  /\ good_data (finite_row 1) ls x /\ possible 1 pi A (mixb 2 1 "spherical" w mu cv) ls x
  /\ fit_from (gmm eig) exact h x (as_lengths ls) = Ok (h', ev)
  /\ gm_covars (h_em h') = Some (nd2 1 2 (fun _ _ => -1))
  /\ score (gmm eig) exact h' x (as_lengths ls) = Err (ValueError "mixture covars must be non-negative").
Proof. exact (@C28_gmm_refuted_l). Qed.
Print Assumptions C28_gmm_refuted.

Theorem C58_zero_weight_refuted : exists eig h pi A w mu cv ls x h' ev cv',
  gmm_model eig h 1 2 1 "diag" pi A w mu cv /\ gmm_flat h /\ flat_base h
  /\ w 0%nat 0%nat = 1 /\ w 0%nat 1%nat = 0
  /\ good_data (finite_row 1) ls x /\ possible 1 pi A (mixb 2 1 "diag" w mu cv) ls x
  /\ fit_from (gmm eig) exact h x (as_lengths ls) = Ok (h', ev)
  /\ gm_covars (h_em h') = Some cv' /\ nget cv' [0; 0; 0]%nat = Fin 1 /\ nget cv' [0; 1; 0]%nat = NaN
  /\ score (gmm eig) exact h' x (as_lengths ls) = Ok NaN.
Proof. exact (@C58_zero_weight_refuted_l). Qed.
Print Assumptions C58_zero_weight_refuted.

(** With positive weights nothing of this happens. *)
Theorem C58_finite eig h nc nm nf ty pi A w mu cv ls x h' ev :
  gmm_model eig h nc nm nf ty pi A w mu cv -> flat_base h -> gmm_flat h ->
  (ty = "spherical"%string -> (nm <= nf)%nat) ->
  (forall i k, (i < nc)%nat -> (k < nm)%nat -> 0 < w i k) ->
  sumn nc pi <= 1 -> (forall i, (i < nc)%nat -> sumn nc (A i) <= 1) ->
  good_data (finite_row nf) ls x -> possible nc pi A (mixb nm nf ty w mu cv) ls x ->
  all_used nc pi A (mixb nm nf ty w mu cv) (chunks ls x) ->
  fit_from (gmm eig) exact h x (as_lengths ls) = Ok (h', ev) ->
  exists w' mu' cv', gm_weights (h_em h') = Some (nd2 nc nm w') /\ gm_means (h_em h') = Some (nd3 nc nm nf mu')
    /\ gm_covars (h_em h') = Some (fnd (cshape nc nm nf ty) cv')
    /\ forall i k, (i < nc)%nat -> (k < nm)%nat -> 0 < w' i k.
Proof. exact (@C58_finite_l _ _ _ _ _ _ _ _ _ _ _ _ _ _ _). Qed.
Print Assumptions C58_finite.

Example C58_applies : exists h' ev, fit_from (gmm eig1) exact (exd "full" "stmcw") exd_x (as_lengths [1; 1]%nat) = Ok (h', ev)
  /\ exists w' mu' cv', gm_weights (h_em h') = Some (nd2 1 2 w') /\ gm_means (h_em h') = Some (nd3 1 2 1 mu')
    /\ gm_covars (h_em h') = Some (fnd [1; 2; 1; 1]%nat cv') /\ 0 < w' 0%nat 1%nat.
Proof. exact (@C58_applies_l). Qed.

Example C38_diag_density_applies : exists h', check (gmm eig1) exact (exd "diag" "stmcw") = Ok h'
  /\ loglik (gmm eig1) exact h' [v1 0] = Ok (mtab 1 1 (fun _ _ => Fin (- (ln (2 * PI)) / 2))).
Proof. exact (@C38_diag_density_applies_l). Qed.

Example C38_full_density_applies : exists h', check (gmm eig1) exact (exd "full" "stmcw") = Ok h'
  /\ loglik (gmm eig1) exact h' exd_x = Ok (mtab 2 1 (fun t i => xln (sumn 2 (fun k => 1 / 2 * mvnf 1 (fun _ => 0) (fun _ _ => 1) (nth t exd_x []))))).
Proof. exact (@C38_full_density_applies_l). Qed.

Example C38_tied_density_applies : exists h', check (gmm eig1) exact (exd "tied" "stmcw") = Ok h'
  /\ loglik (gmm eig1) exact h' exd_x = Ok (mtab 2 1 (fun t i => xln (sumn 2 (fun k => 1 / 2 * mvnf 1 (fun _ => 0) (fun _ _ => 1) (nth t exd_x []))))).
Proof. exact (@C38_tied_density_applies_l). Qed.

