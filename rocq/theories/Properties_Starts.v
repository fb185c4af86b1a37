(** * Property C80: the random numbers behind the start values. *)
From Verif Require Import Starts_thms Starts_ex.

(** ** CategoricalHMM, MultinomialHMM: rows of uniform numbers, divided by their sum. *)
Theorem C80_categorical {G} (rg : rng G) e glob x ls e' glob' ev :
  let h := e_hmm e in let c := h_cfg h in
  c_n_iter c = 0%nat -> fit categorical cat_initc rg exact e glob x ls = Ok (e', glob', ev) ->
  exists g0 g2, base_drawn rg e glob (e_hmm e') g0 g2
    /\ (drawn c "e" (cat_prob (h_em h)) -> exists nf u g3, h_nfeat (e_hmm e') = Some nf
         /\ row_by_row (uniform rg) (c_nc c) nf (again (e_rs e) g0 g2) u g3 /\ left_at (e_rs e') glob' g3
         /\ cat_prob (h_em (e_hmm e')) = Some (fmat (c_nc c) nf (fun i => normalised nf (u i))))
    /\ (~ drawn c "e" (cat_prob (h_em h)) -> cat_prob (h_em (e_hmm e')) = cat_prob (h_em h)).
Proof. exact (@C80_categorical_l _ _ _ _ _ _ _ _ _). Qed.
Print Assumptions C80_categorical.

Theorem C80_multinomial {G} (rg : rng G) e glob x ls e' glob' ev :
  let h := e_hmm e in let c := h_cfg h in
  c_n_iter c = 0%nat -> fit multinomial mult_initc rg exact e glob x ls = Ok (e', glob', ev) ->
  exists g0 g2, base_drawn rg e glob (e_hmm e') g0 g2
    /\ (has "e" (c_init_params c) = true -> exists nf u g3, h_nfeat (e_hmm e') = Some nf
         /\ row_by_row (uniform rg) (c_nc c) nf (again (e_rs e) g0 g2) u g3 /\ left_at (e_rs e') glob' g3
         /\ mu_prob (h_em (e_hmm e')) = Some (fmat (c_nc c) nf (fun i => normalised nf (u i))))
    /\ (has "e" (c_init_params c) = false -> mu_prob (h_em (e_hmm e')) = mu_prob (h_em h)).
Proof. exact (@C80_multinomial_l _ _ _ _ _ _ _ _ _). Qed.
Print Assumptions C80_multinomial.

(** ** PoissonHMM: gamma variates with the mean and the variance of the data. *)
Theorem C80_poisson {G} (rg : rng G) e glob x ls e' glob' ev :
  let h := e_hmm e in let c := h_cfg h in
  let mu := Fresh_em.mean_of (all_counts x) in let va := variance_of (all_counts x) in
  c_n_iter c = 0%nat -> fit poisson pois_initc rg exact e glob x ls = Ok (e', glob', ev) -> mu <> 0 -> va <> 0 ->
  exists g0 g2, base_drawn rg e glob (e_hmm e') g0 g2
    /\ (drawn c "l" (po_lam (h_em h)) -> exists nf u g3, h_nfeat (e_hmm e') = Some nf
         /\ row_by_row (r_gamma rg (Fin (mu * mu / va)) (Fin (va / mu))) (c_nc c) nf (again (e_rs e) g0 g2) u g3
         /\ left_at (e_rs e') glob' g3
         /\ po_lam (h_em (e_hmm e')) = Some (mtab (c_nc c) nf u))
    /\ (~ drawn c "l" (po_lam (h_em h)) -> po_lam (h_em (e_hmm e')) = po_lam (h_em h)).
Proof. exact (@C80_poisson_l _ _ _ _ _ _ _ _ _). Qed.
Print Assumptions C80_poisson.

(** ** GaussianHMM: the centres KMeans finds. *)
Theorem C80_gaussian {G} (rg : rng G) e glob x ls e' glob' ev :
  let h := e_hmm e in let c := h_cfg h in
  c_n_iter c = 0%nat -> fit gaussian gauss_initc rg exact e glob x ls = Ok (e', glob', ev) ->
  exists g0 g2, base_drawn rg e glob (e_hmm e') g0 g2
    /\ (drawn c "m" (ga_means (h_em h)) -> exists m g3, r_kmeans rg (c_nc c) x (again (e_rs e) g0 g2) = Ok (m, g3)
         /\ ga_means (h_em (e_hmm e')) = Some m)
    /\ (~ drawn c "m" (ga_means (h_em h)) -> ga_means (h_em (e_hmm e')) = ga_means (h_em h)).
Proof. exact (@C80_gaussian_l _ _ _ _ _ _ _ _ _). Qed.
Print Assumptions C80_gaussian.

Theorem C80_gmm {G} eig (gr : grng G) (rg : rng G) e glob x ls e' glob' ev :
  let h := e_hmm e in let c := h_cfg h in let nm := gm_nmix (h_em h) in
  c_n_iter c = 0%nat -> fit (gmm eig) (gmm_initc gr) rg exact e glob x ls = Ok (e', glob', ev) ->
  exists g0 g2 labels centres g3, base_drawn rg e glob (e_hmm e') g0 g2
    /\ gr_kmeans gr (c_nc c) x (again (e_rs e) g0 g2) = Ok (labels, centres, g3)
    /\ (drawn c "m" (gm_means (h_em h)) -> exists m, gm_means (h_em (e_hmm e')) = Some m
         /\ forall k i, e_rs e = RSSeed k -> (i < c_nc c)%nat -> (nm <= length (in_cluster labels x i))%nat ->
            exists l mm g4, gr_kmeans gr nm (in_cluster labels x i) g0 = Ok (l, mm, g4)
              /\ forall j f, (j < nm)%nat -> (f < width x)%nat -> nget m [i; j; f] = mget mm j f)
    /\ (~ drawn c "m" (gm_means (h_em h)) -> gm_means (h_em (e_hmm e')) = gm_means (h_em h)).
Proof. exact (@C80_gmm_l _ _ _ _ _ _ _ _ _ _ _). Qed.
Print Assumptions C80_gmm.

Theorem C80_vcategorical {G} (rg : rng G) e glob x ls e' glob' ev :
  let v := ve_v e in let c := v_cfg v in let p := h_em (v_h v) in let p' := h_em (v_h (ve_v e')) in
  c_n_iter c = 0%nat -> vfit vcategorical vcat_initc rg exact e glob x ls = Ok (e', glob', ev) ->
  exists g0 g2, vbase_drawn rg e glob x ls (ve_v e') g0 g2
    /\ (drawn c "e" (vk_post p) -> exists nf a rows g3, h_nfeat (v_h (ve_v e')) = Some nf /\ emission_alpha (vk_arg p) nf a
         /\ in_turn (r_dirichlet rg (tab nf (fun _ => a))) (c_nc c) (again (ve_rs e) g0 g2) rows g3
         /\ vk_post p' = Some (Mat nf (tab (c_nc c) (fun i => times (n_samples x ls / INR (c_nc c)) (rows i)))))
    /\ (~ drawn c "e" (vk_post p) -> vk_post p' = vk_post p).
Proof. exact (@C80_vcategorical_l _ _ _ _ _ _ _ _ _). Qed.
Print Assumptions C80_vcategorical.

Theorem C80_vgaussian {G} la (gr : grng G) (rg : rng G) e glob x ls e' glob' ev :
  let v := ve_v e in let c := v_cfg v in let p := h_em (v_h v) in let p' := h_em (v_h (ve_v e')) in
  c_n_iter c = 0%nat -> vfit (vgaussian la) (vg_initc gr) rg exact e glob x ls = Ok (e', glob', ev) ->
  exists g0 g2 labels centres g3, vbase_drawn rg e glob x ls (ve_v e') g0 g2
    /\ gr_kmeans gr (c_nc c) x (again (ve_rs e) g0 g2) = Ok (labels, centres, g3)
    /\ ((drawn c "m" (vg_m p) \/ vg_m0 p = None \/ vg_b p = None \/ vg_b0 p = None) -> vg_m p' = Some centres)
    /\ (~ (drawn c "m" (vg_m p) \/ vg_m0 p = None \/ vg_b p = None \/ vg_b0 p = None) -> vg_m p' = vg_m p).
Proof. exact (@C80_vgaussian_l _ _ _ _ _ _ _ _ _ _ _). Qed.
Print Assumptions C80_vgaussian.

(** ** With an integer the emission start values do not depend on what was drawn before. *)
Theorem C80_categorical_seed {G} (rg : rng G) k e e2 glob glob2 x x2 ls ls2 e' e2' glob' glob2' ev ev2 :
  let c := h_cfg (e_hmm e) in let c2 := h_cfg (e_hmm e2) in
  e_rs e = RSSeed k -> e_rs e2 = RSSeed k -> c_n_iter c = 0%nat -> c_n_iter c2 = 0%nat -> c_nc c = c_nc c2 ->
  drawn c "e" (cat_prob (h_em (e_hmm e))) -> drawn c2 "e" (cat_prob (h_em (e_hmm e2))) ->
  fit categorical cat_initc rg exact e glob x ls = Ok (e', glob', ev) ->
  fit categorical cat_initc rg exact e2 glob2 x2 ls2 = Ok (e2', glob2', ev2) ->
  h_nfeat (e_hmm e') = h_nfeat (e_hmm e2') -> cat_prob (h_em (e_hmm e')) = cat_prob (h_em (e_hmm e2')).
Proof. exact (@C80_categorical_seed_l _ _ _ _ _ _ _ _ _ _ _ _ _ _ _ _ _). Qed.
Print Assumptions C80_categorical_seed.

(** ** With an integer and as many symbols as states, the emission start values of
    VariationalCategoricalHMM are those of [startprob_] and [transmat_] again. *)
Theorem C80_vcategorical_seed {G} (rg : rng G) k e glob x ls e' glob' ev :
  let v := ve_v e in let c := v_cfg v in let nc := c_nc c in
  ve_rs e = RSSeed k -> c_n_iter c = 0%nat -> has "s" (c_init_params c) = true -> has "t" (c_init_params c) = true ->
  has "e" (c_init_params c) = true -> vk_arg (h_em (v_h v)) = None ->
  vfit vcategorical vcat_initc rg exact e glob x ls = Ok (e', glob', ev) -> h_nfeat (v_h (ve_v e')) = Some nc ->
  exists s T, v_spost (ve_v e') = Some (times (INR (n_seqs ls)) s) /\ v_tpost (ve_v e') = Some T
    /\ vk_post (h_em (v_h (ve_v e'))) = Some (Mat nc (firstn nc (times (n_samples x ls / INR nc) s :: rows T))).
Proof. exact (@C80_vcategorical_seed_l _ _ _ _ _ _ _ _ _ _). Qed.
Print Assumptions C80_vcategorical_seed.

(** Seed 0: 1, 1/2 and 1/3, 1/4, divided by their sums. *)
Example C80_categorical_applies : exists e' glob' ev,
  fit categorical cat_initc tick_rng exact (Est st_cat (RSSeed 0)) 7%nat st_x (as_lengths [3%nat]) = Ok (e', glob', ev)
  /\ cat_prob (h_em (e_hmm e')) = Some (Mat 2 [[Fin (2 / 3); Fin (1 / 3)]; [Fin (4 / 7); Fin (3 / 7)]]).
Proof. exact (@C80_categorical_applies_l). Qed.

(** An integer is not the same as the generator it seeds. *)
Theorem C80_integer_generator_refuted : exists (rg : rng nat) k g h x ls e1 glob1 ev1 e2 glob2 ev2,
  r_seed rg k = Ok g
  /\ fit categorical cat_initc rg exact (Est h (RSSeed k)) 7%nat x ls = Ok (e1, glob1, ev1)
  /\ fit categorical cat_initc rg exact (Est h (RSGen g)) 7%nat x ls = Ok (e2, glob2, ev2)
  /\ h_start (e_hmm e1) = h_start (e_hmm e2) /\ cat_prob (h_em (e_hmm e1)) <> cat_prob (h_em (e_hmm e2)).
Proof. exact (@C80_integer_generator_refuted_l). Qed.
Print Assumptions C80_integer_generator_refuted.

Example C80_poisson_applies : exists e' glob' ev,
  fit poisson pois_initc tick_rng exact (Est st_pois (RSGen 0%nat)) 7%nat fr_px (as_lengths [2%nat]) = Ok (e', glob', ev)
  /\ Fresh_em.mean_of (all_counts fr_px) <> 0 /\ variance_of (all_counts fr_px) <> 0.
Proof. exact (@C80_poisson_applies_l). Qed.

Example C80_multinomial_applies : exists e' glob' ev,
  fit multinomial mult_initc tick_rng exact (Est st_mult (RSGen 0%nat)) 7%nat fr_px (as_lengths [2%nat]) = Ok (e', glob', ev).
Proof. exact (@C80_multinomial_applies_l). Qed.

(** Seed 0 again: rows 0 and 1 are the draws behind startprob_ and row 0 of transmat_. *)
Example C80_vcategorical_applies : exists e' glob' ev s T,
  vfit vcategorical vcat_initc tick_rng exact (VEst (fresh_v "ste" 0 None) (RSSeed 0)) 7%nat [0; 1; 1; 0; 1]%Z (as_lengths [3%nat; 2%nat]) = Ok (e', glob', ev)
  /\ v_spost (ve_v e') = Some (times 2 s) /\ v_tpost (ve_v e') = Some T
  /\ vk_post (h_em (v_h (ve_v e'))) = Some (Mat 2 [times (5 / 2) s; nth 0 (rows T) []]).
Proof. exact (@C80_vcategorical_applies_l). Qed.

(** The centres are shifted by the number of earlier draws: none with a seed,
    three with a generator. *)
Example C80_gaussian_applies : forall (gen : bool), exists e' glob' ev,
  fit gaussian gauss_initc tick_rng exact (Est (st_h (cv_h "full" 2)) (if gen then RSGen 0%nat else RSSeed 0)) 7%nat cv_x (as_lengths [2%nat]) = Ok (e', glob', ev)
  /\ ga_means (h_em (e_hmm e')) = Some (fmat 2 2 (fun i _ => INR (i + (if gen then 3 else 0)))).
Proof. exact (@C80_gaussian_applies_l). Qed.

Example C80_gmm_applies : exists e' glob' ev,
  fit (gmm eig1) (gmm_initc flat_grng) flat_rng exact (Est (st_h (fr_gmm "diag")) (RSSeed 0)) tt cv_x (as_lengths [2%nat]) = Ok (e', glob', ev).
Proof. exact (@C80_gmm_applies_l). Qed.

Example C80_vgaussian_applies : exists e' glob' ev,
  vfit (vgaussian la_ref) (vg_initc two_clusters) flat_rng exact (VEst (st_v (new_vg "full")) (RSSeed 0)) tt four_samples (as_lengths [2; 2]%nat) = Ok (e', glob', ev)
  /\ vg_m (h_em (v_h (ve_v e'))) = Some (fmat 2 1 (fun i _ => INR i * 10 + 1 / 2)).
Proof. exact (@C80_vgaussian_applies_l). Qed.

