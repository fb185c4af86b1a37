(** * Properties C74, C75: emissions drawn by sample, choice of the generator. *)
From Verif Require Import Sample_em_thms Repro_thms Repro_ex.

Theorem C74_categorical {G} (sr : srng G) h nc nf pi A e n start g ys zs g' :
  cat_model h nc nf pi A e -> stochastic1 nc pi -> stochastic2 nc nc A -> stochastic2 nc nf e ->
  uniform_range (s_rand sr) -> (1 <= n)%Z -> (forall c, start = Some c -> (c < nc)%nat) ->
  (sample categorical exact (s_rand sr) (cat_gen exact (s_rand sr)) h n (option_map Z.of_nat start) g = Ok (ys, zs, g')
   <-> sampled (s_rand sr) (cat_drawn sr nf e) nc pi A start (Z.to_nat n) g ys zs g').
Proof. exact (@C74_categorical_l _ _ _ _ _ _ _ _ _ _ _ _ _ _). Qed.
Print Assumptions C74_categorical.

Theorem C74_poisson {G} (sr : srng G) h nc nf pi A lam n start g ys zs g' :
  pois_model h nc nf pi A lam -> stochastic1 nc pi -> stochastic2 nc nc A ->
  uniform_range (s_rand sr) -> (1 <= n)%Z -> (forall c, start = Some c -> (c < nc)%nat) ->
  (sample poisson exact (s_rand sr) (pois_gen sr) h n (option_map Z.of_nat start) g = Ok (ys, zs, g')
   <-> sampled (s_rand sr) (pois_drawn sr nf lam) nc pi A start (Z.to_nat n) g ys zs g').
Proof. exact (@C74_poisson_l _ _ _ _ _ _ _ _ _ _ _ _ _ _). Qed.
Print Assumptions C74_poisson.

Theorem C74_multinomial {G} (sr : srng G) h nc nf pi A e m n start g ys zs g' :
  Mult_thms.mult_model h nc nf pi A e -> single_trials (mu_trials (h_em h)) m -> stochastic1 nc pi -> stochastic2 nc nc A ->
  uniform_range (s_rand sr) -> (1 <= n)%Z -> (forall c, start = Some c -> (c < nc)%nat) ->
  (sample multinomial exact (s_rand sr) (mult_gen exact sr) h n (option_map Z.of_nat start) g = Ok (ys, zs, g')
   <-> sampled (s_rand sr) (mult_drawn sr m nf e) nc pi A start (Z.to_nat n) g ys zs g').
Proof. exact (@C74_multinomial_l _ _ _ _ _ _ _ _ _ _ _ _ _ _ _). Qed.
Print Assumptions C74_multinomial.

(** Several different numbers of trials: every call fails. *)
Theorem C74_multinomial_trials {G} (sr : srng G) h nc nf pi A e l a b n start g :
  Mult_thms.mult_model h nc nf pi A e -> mu_trials (h_em h) = Some (TArr l) -> In a l -> In b l -> a <> b ->
  sample multinomial exact (s_rand sr) (mult_gen exact sr) h n start g
  = Err (ValueError "For sampling, a single n_trials must be given").
Proof. exact (@C74_multinomial_trials_l _ _ _ _ _ _ _ _ _ _ _ _ _ _). Qed.
Print Assumptions C74_multinomial_trials.

(** "diag", and "spherical" unless the variances were trained on several features
    (see [C74_spherical_refuted]). *)
Theorem C74_gaussian {G} (sr : srng G) h nc nf pi A mu var n start g ys zs g' :
  gauss_model h nc nf pi A mu var ->
  ga_type (h_em h) = "diag"%string \/ (exists s, ga_covars (h_em h) = Some (CV1 s)) \/ nf = 1%nat ->
  stochastic1 nc pi -> stochastic2 nc nc A ->
  uniform_range (s_rand sr) -> (1 <= n)%Z -> (forall c, start = Some c -> (c < nc)%nat) ->
  (sample gaussian exact (s_rand sr) (gauss_gen exact sr) h n (option_map Z.of_nat start) g = Ok (ys, zs, g')
   <-> sampled (s_rand sr) (normal_drawn sr nf mu (diag_cov var)) nc pi A start (Z.to_nat n) g ys zs g').
Proof. exact (@C74_gaussian_l _ _ _ _ _ _ _ _ _ _ _ _ _ _ _). Qed.
Print Assumptions C74_gaussian.

(** "full" and "tied". *)
Theorem C74_matrix {G} (sr : srng G) h nc nf pi A mu Sg b n start g ys zs g' :
  full_model h nc nf pi A mu Sg -> normal_densities nc nf mu Sg b -> stochastic1 nc pi -> stochastic2 nc nc A ->
  uniform_range (s_rand sr) -> (1 <= n)%Z -> (forall c, start = Some c -> (c < nc)%nat) ->
  (sample gaussian exact (s_rand sr) (gauss_gen exact sr) h n (option_map Z.of_nat start) g = Ok (ys, zs, g')
   <-> sampled (s_rand sr) (normal_drawn sr nf mu Sg) nc pi A start (Z.to_nat n) g ys zs g').
Proof. exact (@C74_matrix_l _ _ _ _ _ _ _ _ _ _ _ _ _ _ _ _). Qed.
Print Assumptions C74_matrix.

(** A "spherical" model trained on two features: [sample(1, currstate=1)] draws
    with variance 1, scoring uses variance 4. *)
Theorem C74_spherical_refuted : exists h nc nf pi A mu var ls x h' ev mu' v',
  gauss_model h nc nf pi A mu var /\ flat_base h /\ gauss_default h 0 /\ ga_type (h_em h) = "spherical"%string
  /\ good_data (finite_row nf) ls x /\ possible nc pi A (gauss_b nf mu (floored var)) ls x
  /\ all_used nc pi A (gauss_b nf mu (floored var)) (chunks ls x)
  /\ fit_from gaussian exact h x (as_lengths ls) = Ok (h', ev)
  /\ (1 < nc)%nat /\ (0 < nf)%nat /\ gauss_model h' nc nf pi A mu' v' /\ (forall f, (f < nf)%nat -> v' 1%nat f = 4)
  /\ ready gaussian h' nc pi A (finite_row nf) (gauss_b nf mu' (floored v'))
  /\ forall (G : Type) (sr : srng G) g,
       sample gaussian exact (s_rand sr) (gauss_gen exact sr) h' 1 (Some 1%Z) g
       = (do (y, g1) <- s_normal sr (fvec nf (mu' 1%nat)) (diag_mat nf (fun _ => 1)) g; Ok ([y], [1%Z], g1)).
Proof. exact (@C74_spherical_refuted_l). Qed.
Print Assumptions C74_spherical_refuted.

Theorem C74_gmm {G} (sr : srng G) eig h nc nm nf ty pi A w mu cv wp mw mp cp cw n start g ys zs g' :
  gmm_model eig h nc nm nf ty pi A w mu cv -> gmm_hyper (h_em h) nc nm nf ty wp mw mp cp cw ->
  (forall i, (i < nc)%nat -> Rabs (sumn nm (w i) - 1) <= / 2 ^ 26) -> stochastic1 nc pi -> stochastic2 nc nc A ->
  uniform_range (s_rand sr) -> (1 <= n)%Z -> (forall c, start = Some c -> (c < nc)%nat) ->
  (sample (gmm eig) exact (s_rand sr) (gmm_gen exact sr) h n (option_map Z.of_nat start) g = Ok (ys, zs, g')
   <-> sampled (s_rand sr) (mix_drawn sr nm nf w mu (comp_cov ty cv)) nc pi A start (Z.to_nat n) g ys zs g').
Proof. exact (@C74_gmm_l _ _ _ _ _ _ _ _ _ _ _ _ _ _ _ _ _ _ _ _ _ _ _ _). Qed.
Print Assumptions C74_gmm.

(** Rows of [weights_] further than [2^-26] from one: accepted by [_check] up to
    1e-5 and used by [score], but [sample] fails when it reaches the state. *)
Theorem C74_gmm_weights {G} (sr : srng G) eig h nc nm nf ty pi A w mu cv wp mw mp cp cw n i g :
  gmm_model eig h nc nm nf ty pi A w mu cv -> gmm_hyper (h_em h) nc nm nf ty wp mw mp cp cw -> (i < nc)%nat ->
  / 2 ^ 26 < Rabs (sumn nm (w i) - 1) ->
  ready (gmm eig) h nc pi A (finite_row nf) (mixb nm nf ty w mu cv)
  /\ sample (gmm eig) exact (s_rand sr) (gmm_gen exact sr) h n (Some (Z.of_nat i)) g
     = Err (ValueError "probabilities do not sum to 1").
Proof. exact (@C74_gmm_weights_l _ _ _ _ _ _ _ _ _ _ _ _ _ _ _ _ _ _ _ _ _). Qed.
Print Assumptions C74_gmm_weights.

Theorem C74_vcategorical {G} (sr : srng G) v nc nf p q s t e n start g ys zs g' :
  vcat_model v nc nf p q -> h_nfeat (v_h v) = Some nf -> h_start (v_h v) = Some (fvec nc s) ->
  h_trans (v_h v) = Some (fmat nc nc t) -> vk_prob (h_em (v_h v)) = Some (fmat nc nf e) ->
  stochastic1 nc s -> stochastic2 nc nc t -> stochastic2 nc nf e ->
  uniform_range (s_rand sr) -> (1 <= n)%Z -> (forall c, start = Some c -> (c < nc)%nat) ->
  (vsample vcategorical exact (s_rand sr) (vcat_gen exact (s_rand sr)) v n (option_map Z.of_nat start) g = Ok (ys, zs, g')
   <-> sampled (s_rand sr) (cat_drawn sr nf e) nc s t start (Z.to_nat n) g ys zs g').
Proof. exact (@C74_vcategorical_l _ _ _ _ _ _ _ _ _ _ _ _ _ _ _ _). Qed.
Print Assumptions C74_vcategorical.

(** VariationalGaussianHMM samples like the GaussianHMM with its [means_] and
    [covars_]. *)
Theorem C74_vgaussian {G} (sr : srng G) la ty v nc nf p q s t n cs g : (0 < nc)%nat -> vg_holds ty nc nf v p q ->
  h_start (v_h v) = Some (fvec nc s) -> h_trans (v_h v) = Some (fmat nc nc t) -> stochastic1 nc s -> stochastic2 nc nc t ->
  vsample (vgaussian la) exact (s_rand sr) (vg_gen exact sr) v n cs g
  = sample gaussian exact (s_rand sr) (gauss_gen exact sr) (vg_point v) n cs g.
Proof. exact (@C74_vgaussian_l _ _ _ _ _ _ _ _ _ _ _ _ _ _). Qed.
Print Assumptions C74_vgaussian.

(** An integer, as the argument or as the attribute when there is no argument:
    neither the estimator nor the global generator changes, and the same call
    gives the same samples whatever their states. *)
Theorem C75_seed {P X St G Y} (E : emclass P X St) fp (rg : rng G) (gen : hmm P -> Z -> G -> res (Y * G)) h rs arg k glob n cs ys zs st :
  arg = RSSeed k \/ arg = RSNone /\ rs = RSSeed k ->
  sample_with E fp rg gen (Est h rs) glob n arg cs = Ok (ys, zs, st) ->
  st = (arg, rs, glob)
  /\ forall rs2 arg2 glob2, arg2 = RSSeed k \/ arg2 = RSNone /\ rs2 = RSSeed k ->
     sample_with E fp rg gen (Est h rs2) glob2 n arg2 cs = Ok (ys, zs, (arg2, rs2, glob2)).
Proof. exact (@C75_seed_l _ _ _ _ _ _ _ _ _ _ _ _ _ _ _ _ _ _ _). Qed.
Print Assumptions C75_seed.

(** A generator object: it is advanced in place; samples are drawn from where the
    previous use left it. *)
Theorem C75_generator {P X St G Y} (E : emclass P X St) fp (rg : rng G) (gen : hmm P -> Z -> G -> res (Y * G)) h rs g glob n cs ys zs st :
  (sample_with E fp rg gen (Est h rs) glob n (RSGen g) cs = Ok (ys, zs, st)
   <-> exists g', sample E fp (r_rand rg) gen h n cs g = Ok (ys, zs, g') /\ st = (RSGen g', rs, glob))
  /\ (sample_with E fp rg gen (Est h (RSGen g)) glob n RSNone cs = Ok (ys, zs, st)
      <-> exists g', sample E fp (r_rand rg) gen h n cs g = Ok (ys, zs, g') /\ st = (RSNone, RSGen g', glob)).
Proof. exact (@C75_generator_l _ _ _ _ _ _ _ _ _ _ _ _ _ _ _ _ _ _). Qed.
Print Assumptions C75_generator.

(** Neither: numpy's global generator is used and advanced. *)
Theorem C75_global {P X St G Y} (E : emclass P X St) fp (rg : rng G) (gen : hmm P -> Z -> G -> res (Y * G)) h rs glob n cs ys zs st :
  rs = RSNone \/ rs = RSGlobal ->
  (sample_with E fp rg gen (Est h rs) glob n RSNone cs = Ok (ys, zs, st)
   <-> exists g', sample E fp (r_rand rg) gen h n cs glob = Ok (ys, zs, g') /\ st = (RSNone, rs, g')).
Proof. exact (@C75_global_l _ _ _ _ _ _ _ _ _ _ _ _ _ _ _ _ _). Qed.
Print Assumptions C75_global.

Theorem C75_fitted_gaussian {G} (rg : rng G) fp (sr : srng G) e k glob x ls e1 glob1 ev :
  e_rs e = RSSeed k -> fit gaussian gauss_initc rg fp e glob x ls = Ok (e1, glob1, ev) ->
  e_rs e1 = RSSeed k /\ repeats gaussian fp rg (gauss_gen fp sr) e1.
Proof. exact (@C75_fitted_gaussian_l _ _ _ _ _ _ _ _ _ _ _ _). Qed.
Print Assumptions C75_fitted_gaussian.

Theorem C75_fitted_gmm {G} eig (gr : grng G) (rg : rng G) fp (sr : srng G) e k glob x ls e1 glob1 ev :
  e_rs e = RSSeed k -> fit (gmm eig) (gmm_initc gr) rg fp e glob x ls = Ok (e1, glob1, ev) ->
  e_rs e1 = RSSeed k /\ repeats (gmm eig) fp rg (gmm_gen fp sr) e1.
Proof. exact (@C75_fitted_gmm_l _ _ _ _ _ _ _ _ _ _ _ _ _ _). Qed.
Print Assumptions C75_fitted_gmm.

Theorem C75_fitted_others {G} (rg : rng G) fp k :
  (forall e glob x ls e1 glob1 ev, e_rs e = RSSeed k -> fit categorical cat_initc rg fp e glob x ls = Ok (e1, glob1, ev) -> exists g, e_rs e1 = RSGen g)
  /\ (forall e glob x ls e1 glob1 ev, e_rs e = RSSeed k -> fit multinomial mult_initc rg fp e glob x ls = Ok (e1, glob1, ev) -> exists g, e_rs e1 = RSGen g)
  /\ (forall e glob x ls e1 glob1 ev, e_rs e = RSSeed k -> fit poisson pois_initc rg fp e glob x ls = Ok (e1, glob1, ev) -> exists g, e_rs e1 = RSGen g).
Proof. exact (@C75_fitted_others_l _ _ _ _). Qed.
Print Assumptions C75_fitted_others.

Theorem C75_fitted_categorical_refuted : exists (h : hmm catp) k x e1 glob1 ev,
  fit categorical cat_initc toy_rng exact (Est h (RSSeed k)) 0%nat x None = Ok (e1, glob1, ev)
  /\ repeats categorical exact toy_rng (cat_gen exact (r_rand toy_rng)) (Est h (RSSeed k))
  /\ ~ repeats categorical exact toy_rng (cat_gen exact (r_rand toy_rng)) e1.
Proof. exact (@C75_fitted_categorical_refuted_l). Qed.
Print Assumptions C75_fitted_categorical_refuted.

(** ** Concrete runs (C74). *)
Example C74_applies :
  sample categorical exact (s_rand toy_draws) (cat_gen exact (s_rand toy_draws)) (seeded_h toy_mon) 2 None 0%nat
  = Ok ([2%nat; 1%nat], [1%Z; 1%Z], 4%nat).
Proof. exact (@C74_applies_l). Qed.

Example C74_gaussian_applies :
  sample gaussian exact (s_rand toy_draws) (gauss_gen exact toy_draws) (ex_sw "diag" "mc" 0) 2 (Some 0%Z) 0%nat
  = Ok ([fvec 2 (fun _ => 1); fvec 2 (fun _ => 1)], [0%Z; 1%Z], 3%nat).
Proof. exact (@C74_gaussian_applies_l). Qed.

Theorem C74_gmm_weights_refuted : exists (h : hmm gmmp) x s,
  score (gmm eig1) exact h x None = Ok (Fin s)
  /\ forall G (sr : srng G) n g, sample (gmm eig1) exact (s_rand sr) (gmm_gen exact sr) h n (Some 0%Z) g
     = Err (ValueError "probabilities do not sum to 1").
Proof. exact (@C74_gmm_weights_refuted_l). Qed.
Print Assumptions C74_gmm_weights_refuted.

(** An integer given to [sample] or stored in the estimator gives the same
    samples; a generator in another state gives others. *)
Example C75_applies : let gen := cat_gen exact (r_rand toy_rng) in
  sample_with categorical exact toy_rng gen (Est (seeded_h toy_mon) (RSSeed 7)) 2%nat 1 RSNone None = Ok ([2%nat], [1%Z], (RSNone, RSSeed 7, 2%nat))
  /\ sample_with categorical exact toy_rng gen (Est (seeded_h toy_mon) RSNone) 2%nat 1 (RSSeed 7) None = Ok ([2%nat], [1%Z], (RSSeed 7, RSNone, 2%nat))
  /\ sample_with categorical exact toy_rng gen (Est (seeded_h toy_mon) (RSGen 0%nat)) 2%nat 1 RSNone None = Ok ([2%nat], [1%Z], (RSNone, RSGen 2%nat, 2%nat))
  /\ sample_with categorical exact toy_rng gen (Est (seeded_h toy_mon) (RSGen 2%nat)) 2%nat 1 RSNone None = Ok ([1%nat], [1%Z], (RSNone, RSGen 4%nat, 2%nat))
  /\ sample_with categorical exact toy_rng gen (Est (seeded_h toy_mon) RSNone) 2%nat 1 RSNone None = Ok ([1%nat], [1%Z], (RSNone, RSNone, 4%nat)).
Proof. exact (@C75_applies_l). Qed.

