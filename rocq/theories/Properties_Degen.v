(** * Property C83: the warning about too few data. *)
From Verif Require Import Degen_thms Degen_ex.

(** CategoricalHMM: the alphabet is n_features, or up to the largest symbol if that
    is not set. *)
Theorem C83_categorical {G} (rg : rng G) fp e glob x ls e' glob' ev : fit categorical cat_initc rg fp e glob x ls = Ok (e', glob', ev) ->
  let c := h_cfg (e_hmm e) in let nc := c_nc c in
  let nf := match h_nfeat (e_hmm e) with Some n => n | None => Z.to_nat (zmax x + 1) end in
  warns_below [("s"%char, simplex_dim nc); ("t"%char, nc * simplex_dim nc); ("e"%char, nc * simplex_dim nf)]%nat (c_params c) (length x) ev.
Proof. exact (@C83_categorical_l _ _ _ _ _ _ _ _ _ _). Qed.
Print Assumptions C83_categorical.

Theorem C83_poisson {G} (rg : rng G) fp e glob x ls e' glob' ev : fit poisson pois_initc rg fp e glob x ls = Ok (e', glob', ev) ->
  let c := h_cfg (e_hmm e) in let nc := c_nc c in let nf := width x in
  warns_below [("s"%char, simplex_dim nc); ("t"%char, nc * simplex_dim nc); ("l"%char, nc * nf)]%nat (c_params c) (length x * nf) ev.
Proof. exact (@C83_poisson_l _ _ _ _ _ _ _ _ _ _). Qed.
Print Assumptions C83_poisson.

Theorem C83_multinomial {G} (rg : rng G) fp e glob x ls e' glob' ev : fit multinomial mult_initc rg fp e glob x ls = Ok (e', glob', ev) ->
  let c := h_cfg (e_hmm e) in let nc := c_nc c in let nf := width x in (0 < nf)%nat ->
  warns_below [("s"%char, simplex_dim nc); ("t"%char, nc * simplex_dim nc); ("e"%char, nc * simplex_dim nf)]%nat (c_params c) (length x * nf) ev.
Proof. exact (@C83_multinomial_l _ _ _ _ _ _ _ _ _ _). Qed.
Print Assumptions C83_multinomial.

Theorem C83_gaussian {G} (rg : rng G) fp e glob x ls e' glob' ev : fit gaussian gauss_initc rg fp e glob x ls = Ok (e', glob', ev) ->
  let c := h_cfg (e_hmm e) in let nc := c_nc c in let nf := width x in
  warns_below [("s"%char, simplex_dim nc); ("t"%char, nc * simplex_dim nc); ("m"%char, nc * nf);
               ("c"%char, covars_dim (ga_type (h_em (e_hmm e))) nc nf)]%nat (c_params c) (length x * nf) ev.
Proof. exact (@C83_gaussian_l _ _ _ _ _ _ _ _ _ _). Qed.
Print Assumptions C83_gaussian.

Theorem C83_gmm_count {G} (gr : grng G) (rg : rng G) eig fp e glob x ls e' glob' ev :
  fit (gmm eig) (gmm_initc gr) rg fp e glob x ls = Ok (e', glob', ev) ->
  let c := h_cfg (e_hmm e) in let nc := c_nc c in let nf := width x in let nm := gm_nmix (h_em (e_hmm e)) in
  (0 < nm)%nat -> warns_below (gmm_dims (gm_type (h_em (e_hmm e))) nc nm nf) (c_params c) (length x * nf) ev.
Proof. exact (@C83_gmm_count_l _ _ _ _ _ _ _ _ _ _ _ _). Qed.
Print Assumptions C83_gmm_count.

Theorem C83_gmm_refuted : exists (e : est gmmp nat) e' glob' ev,
  c_params (h_cfg (e_hmm e)) = "stmcw"%string /\ c_nc (h_cfg (e_hmm e)) = 2%nat /\ gm_nmix (h_em (e_hmm e)) = 2%nat /\ gm_type (h_em (e_hmm e)) = "diag"%string
  /\ fit (gmm eig1) (gmm_initc toy_grng) toy_rng exact e 0%nat dg_x None = Ok (e', glob', ev)
  /\ (length dg_x * width dg_x = 12)%nat /\ gmm_dim "diag" 2 2 1 = 13%nat /\ ~ In WDegenerate ev.
Proof. exact (@C83_gmm_refuted_l). Qed.
Print Assumptions C83_gmm_refuted.

Theorem C83_vcategorical {G} (rg : rng G) fp e glob x ls e' glob' ev : vfit vcategorical vcat_initc rg fp e glob x ls = Ok (e', glob', ev) ->
  let c := h_cfg (v_h (ve_v e)) in let nc := c_nc c in
  let nf := match h_nfeat (v_h (ve_v e)) with Some n => n | None => Z.to_nat (zmax x + 1) end in
  warns_below [("s"%char, simplex_dim nc); ("t"%char, nc * simplex_dim nc); ("e"%char, nc * simplex_dim nf)]%nat (c_params c) (length x) ev.
Proof. exact (@C83_vcategorical_l _ _ _ _ _ _ _ _ _ _). Qed.
Print Assumptions C83_vcategorical.

(** VariationalGaussianHMM: per state also one [beta] for the mean and one number of
    degrees of freedom for the precision matrix (one in all if it is shared). *)
Theorem C83_vgaussian {G} la (gr : grng G) (rg : rng G) fp e glob x ls e' glob' ev : vfit (vgaussian la) (vg_initc gr) rg fp e glob x ls = Ok (e', glob', ev) ->
  let c := h_cfg (v_h (ve_v e)) in let nc := c_nc c in let nf := width x in let ty := vg_type (h_em (v_h (ve_v e))) in
  warns_below [("s"%char, simplex_dim nc); ("t"%char, nc * simplex_dim nc); ("m"%char, nc * nf + nc);
               ("c"%char, covars_dim ty nc nf + if String.eqb ty "tied" then 1 else nc)]%nat (c_params c) (length x * nf) ev.
Proof. exact (@C83_vgaussian_l _ _ _ _ _ _ _ _ _ _ _ _). Qed.
Print Assumptions C83_vgaussian.

Example C83_applies : exists e1 v1 e2 v2,
  fit categorical cat_initc flat_rng exact (dgc "e") tt [0%Z] None = Ok (e1, tt, v1) /\ In WDegenerate v1
  /\ fit categorical cat_initc flat_rng exact (dgc "st") tt [0%Z] None = Ok (e2, tt, v2) /\ ~ In WDegenerate v2.
Proof. exact (@C83_applies_l). Qed.

