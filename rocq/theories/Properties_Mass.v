(** * Properties C14, C25: statistics and implementations, GMMHMM and variational classes. *)
From Verif Require Import Mass_thms.

Theorem C25_vcategorical v nc nf p q ls x v' ev :
  vcat_model v nc nf p q -> good_data (sym_ok nf) ls x ->
  vfit_from vcategorical exact v x (map Z.of_nat ls) = Ok (v', ev) ->
  vfit_from vcategorical exact (vimpl "log" v) x (map Z.of_nat ls) = Ok (vimpl "log" v', ev).
Proof. exact (@C25_vcategorical_l _ _ _ _ _ _ _ _ _). Qed.
Print Assumptions C25_vcategorical.

Theorem C25_vgaussian la ty nc nf v p q ls x v' ev :
  la_right la -> vg_model ty nc nf v p q -> good_data (finite_row nf) ls x ->
  has "m" (c_params (v_cfg v)) = true \/ has "c" (c_params (v_cfg v)) = false ->
  vfit_from (vgaussian la) exact v x (map Z.of_nat ls) = Ok (v', ev) ->
  vfit_from (vgaussian la) exact (vimpl "log" v) x (map Z.of_nat ls) = Ok (vimpl "log" v', ev).
Proof. exact (@C25_vgaussian_l _ _ _ _ _ _ _ _ _ _ _). Qed.
Print Assumptions C25_vgaussian.

Theorem C14_vcategorical v nc nf p q ls x v1 st lp :
  vcat_model v nc nf p q -> h_nfeat (v_h v) = Some nf -> good_data (sym_ok nf) ls x ->
  vestep vcategorical exact x (as_lengths ls) v = Ok (v1, st, lp) ->
  base_mass nc (c_params (v_cfg v)) ls st
  /\ (has "e" (c_params (v_cfg v)) = true ->
       exists o, st_em st = fmat nc nf o /\ nonneg2 nc nf o /\ sumn nc (fun i => sumn nf (o i)) = INR (length x)).
Proof. exact (@C14_vcategorical_l _ _ _ _ _ _ _ _ _ _). Qed.
Print Assumptions C14_vcategorical.

Theorem C14_vgaussian la ty nc nf v p q ls x v1 st lp : la_right la ->
  vg_model ty nc nf v p q -> good_data (finite_row nf) ls x ->
  vestep (vgaussian la) exact x (as_lengths ls) v = Ok (v1, st, lp) ->
  base_mass nc (c_params (v_cfg v)) ls st
  /\ (has "m" (c_params (v_cfg v)) || has "c" (c_params (v_cfg v)) = true ->
       exists o, gs_post (st_em st) = fvec nc o /\ nonneg1 nc o /\ sumn nc o = INR (length x)).
Proof. exact (@C14_vgaussian_l _ _ _ _ _ _ _ _ _ _ _ _). Qed.
Print Assumptions C14_vgaussian.

(** GMMHMM: every sample is shared among the states, and the part of each state
    among its components. *)
Theorem C14_gmm eig h h1 nc nm nf ty pi A w mu cv wp mw mp cp cw ls x st lp :
  gmm_model eig h nc nm nf ty pi A w mu cv -> gmm_hyper (h_em h) nc nm nf ty wp mw mp cp cw ->
  check (gmm eig) exact h = Ok h1 -> good_data (finite_row nf) ls x ->
  let b := mixb nm nf ty w mu cv in
  (forall c, In c (chunks ls x) -> scorable nc pi A b (c_impl (h_cfg h)) c) ->
  do_estep (gmm eig) exact h1 (fvec nc pi) (fmat nc nc A) x (as_lengths ls) = Ok (st, lp) ->
  let occ := occupancy nc pi A b (chunks ls x) in
  let part i k := weighted_total nc pi A b (chunks ls x) (fun o => w i k * dens nf ty mu cv o i k / b o i) i in
  base_mass nc (c_params (h_cfg h)) ls st
  /\ gs_sum (st_em st) = fvec nc occ /\ sumn nc occ = INR (length x)
  /\ gs_mix (st_em st) = nd2 nc nm part /\ forall i, (i < nc)%nat -> sumn nm (part i) = occ i.
Proof. exact (@C14_gmm_l _ _ _ _ _ _ _ _ _ _ _ _ _ _ _ _ _ _ _ _ _). Qed.
Print Assumptions C14_gmm.

Example C25_vcategorical_applies : exists v' ev,
  c_impl (v_cfg one_v) = "scaling"%string
  /\ vfit_from vcategorical exact one_v [0; 1]%Z (map Z.of_nat [1; 1]%nat) = Ok (v', ev)
  /\ vfit_from vcategorical exact (vimpl "log" one_v) [0; 1]%Z (map Z.of_nat [1; 1]%nat) = Ok (vimpl "log" v', ev).
Proof. exact (@C25_vcategorical_applies_l). Qed.

Example C14_vcategorical_applies : exists v1 st lp o,
  vestep vcategorical exact [0; 1]%Z (as_lengths [1; 1]%nat) one_v = Ok (v1, st, lp)
  /\ st_em st = fmat 1 2 o /\ sumn 1 (fun i => sumn 2 (o i)) = 2.
Proof. exact (@C14_vcategorical_applies_l). Qed.

Example C25_vgaussian_applies : forall ty, (ty = "full" \/ ty = "tied" \/ ty = "diag" \/ ty = "spherical")%string -> exists v' ev,
  c_impl (v_cfg (oneg_v ty)) = "scaling"%string
  /\ vfit_from (vgaussian la_ref) exact (oneg_v ty) [[Fin 0]] (map Z.of_nat [1]%nat) = Ok (v', ev)
  /\ vfit_from (vgaussian la_ref) exact (vimpl "log" (oneg_v ty)) [[Fin 0]] (map Z.of_nat [1]%nat) = Ok (vimpl "log" v', ev).
Proof. exact (@C25_vgaussian_applies_l). Qed.

Example C14_vgaussian_applies : exists v1 st lp,
  vestep (vgaussian la_ref) exact [[Fin 0]] (as_lengths [1]%nat) (oneg_v "tied") = Ok (v1, st, lp)
  /\ gs_post (st_em st) = [Fin 1].
Proof. exact (@C14_vgaussian_applies_l). Qed.

Example C14_gmm_applies : exists h1 st lp,
  check (gmm eig1) exact (exd "diag" "stmcw") = Ok h1
  /\ do_estep (gmm eig1) exact h1 (fvec 1 u1) (fmat 1 1 all1) exd_x (as_lengths [1; 1]%nat) = Ok (st, lp)
  /\ gs_sum (st_em st) = [Fin 2].
Proof. exact (@C14_gmm_applies_l). Qed.

