(** * Property lemmas C90: clones of estimators. *)
From Verif Require Export Construct Hyper_ex Unfitted_thms Vstop_thms.

(** [random_state] given as None or as an integer. *)
Definition plain {G} (rs : rstate G) : Prop := match rs with RSNone | RSSeed _ => True | _ => False end.
Lemma clone_plain {G} (rs rs' : rstate G) glob : plain rs -> same_random_state rs rs' -> clone_rs rs' glob = rs.
Proof. destruct rs; cbn; intros H E; try contradiction; subst rs'; reflexivity. Qed.
Lemma clone_gen {G} (g : G) rs' glob : same_random_state (RSGen g) rs' -> exists g', clone_rs rs' glob = RSGen g'.
Proof. intros (g' & ->). exists g'. reflexivity. Qed.

(** ** GaussianHMM: a clone of the trained estimator is the estimator as it was
    constructed (a generator passed as [random_state] has advanced). *)
Lemma C90_gaussian_l {G} (rg : rng G) fp c rs ty mc mp mw cp cw glob x ls e' glob' ev :
  let new := fun rs => GaussianHMM c rs ty mc mp mw cp cw in
  fit gaussian gauss_initc rg fp (new rs) glob x ls = Ok (e', glob', ev) ->
  (plain rs -> forall g, clone_gaussian e' g = new rs)
  /\ (forall g0, rs = RSGen g0 -> exists g', forall g, clone_gaussian e' g = new (RSGen g')).
Proof.
  cbv zeta. intros H. destruct (C79_gaussian_l _ _ _ _ _ _ _ _ _ H) as (A1 & A2 & A3 & A4 & A5 & A6 & A7 & A8).
  cbn [GaussianHMM e_hmm e_rs new_hmm h_cfg h_em ga_type ga_min_covar ga_mprior ga_mweight ga_cprior ga_cweight] in *.
  unfold clone_gaussian. rewrite A1, A3, A4, A5, A6, A7, A8. split.
  - intros Hp g. rewrite (clone_plain _ _ _ Hp A2). reflexivity.
  - intros g0 ->. destruct A2 as (g' & ->). exists g'. reflexivity.
Qed.
(** Hence it trains as the original would have, on any data. *)
Lemma C90_gaussian_trains_l {G} (rg : rng G) fp c rs ty mc mp mw cp cw glob x ls e' glob' ev :
  let e := GaussianHMM c rs ty mc mp mw cp cw in
  plain rs -> fit gaussian gauss_initc rg fp e glob x ls = Ok (e', glob', ev) ->
  forall g1 g2 y lens, fit gaussian gauss_initc rg fp (clone_gaussian e' g1) g2 y lens = fit gaussian gauss_initc rg fp e g2 y lens.
Proof. cbv zeta. intros Hp H g1 g2 y lens. rewrite (proj1 (C90_gaussian_l _ _ _ _ _ _ _ _ _ _ _ _ _ _ _ _ H) Hp). reflexivity. Qed.

(** ** VariationalGaussianHMM. *)
Lemma C90_vgaussian_l {G} la (gr : grng G) (rg : rng G) fp c rs ty sa ta ma ba da sc glob x ls e' glob' ev :
  let new := fun rs => VariationalGaussianHMM c rs ty sa ta ma ba da sc in
  vfit (vgaussian la) (vg_initc gr) rg fp (new rs) glob x ls = Ok (e', glob', ev) ->
  (plain rs -> forall g, clone_vgaussian e' g = new rs)
  /\ (forall g0, rs = RSGen g0 -> exists g', forall g, clone_vgaussian e' g = new (RSGen g')).
Proof.
  cbv zeta. intros H. destruct (C79_vgaussian_l _ _ _ _ _ _ _ _ _ _ _ H) as (A1 & A2 & A3 & A4 & A5 & A6 & A7 & A8 & A9).
  cbn [VariationalGaussianHMM ve_v ve_rs new_vhmm new_hmm v_h v_sarg v_targ v_cfg h_cfg h_em vg_type vg_marg vg_barg vg_darg vg_sarg] in *.
  unfold clone_vgaussian. rewrite A1, A3, A4, A5, A6, A7, A8, A9. split.
  - intros Hp g. rewrite (clone_plain _ _ _ Hp A2). reflexivity.
  - intros g0 ->. destruct A2 as (g' & ->). exists g'. reflexivity.
Qed.
Lemma C90_vgaussian_trains_l {G} la (gr : grng G) (rg : rng G) fp c rs ty sa ta ma ba da sc glob x ls e' glob' ev :
  let e := VariationalGaussianHMM c rs ty sa ta ma ba da sc in
  plain rs -> vfit (vgaussian la) (vg_initc gr) rg fp e glob x ls = Ok (e', glob', ev) ->
  forall g1 g2 y lens, vfit (vgaussian la) (vg_initc gr) rg fp (clone_vgaussian e' g1) g2 y lens
    = vfit (vgaussian la) (vg_initc gr) rg fp e g2 y lens.
Proof. cbv zeta. intros Hp H g1 g2 y lens. rewrite (proj1 (C90_vgaussian_l _ _ _ _ _ _ _ _ _ _ _ _ _ _ _ _ _ _ _ H) Hp). reflexivity. Qed.

Lemma check_array_same {X} (ok : X -> bool) x y : check_array ok x = Ok y -> y = x.
Proof. unfold check_array. intros H. all_ok H. congruence. Qed.

(** ** GMMHMM: the clone has the priors in their final shapes; on data of the
    same width it trains as the original would have. *)
Lemma fix_priors_again fp nc nf p p1 p2 : gmm_fixed fp nc nf p p1 -> fix_priors fp nc nf p = Ok p2 ->
  is_type covariance_types (gm_type p) = true -> gmm_hyper_args p1 = gmm_hyper_args p2 /\ fix_priors fp nc nf p2 = Ok p2.
Proof.
  intros F1 H Hty. pose proof (fix_priors_fixed _ _ _ _ _ Hty H) as F2. destruct F1 as [K1 W1 M1 N1 (a1 & P1 & Q1) (b1 & S1 & T1)].
  destruct F2 as [K2 W2 M2 N2 (a2 & P2 & Q2) (b2 & S2 & T2)]. unfold broadcasts in *.
  assert (E1 : gm_wprior p1 = gm_wprior p2) by congruence. assert (E2 : gm_mprior p1 = gm_mprior p2) by congruence.
  assert (E3 : gm_mweight p1 = gm_mweight p2) by congruence. assert (E4 : a1 = a2) by congruence. assert (E5 : b1 = b2) by congruence.
  unfold keeps_args in K1, K2. destruct K1 as (K1 & K1' & K1''), K2 as (K2 & K2' & K2''). split.
  { unfold gmm_hyper_args. rewrite P1, P2, S1, S2. congruence. }
  unfold fix_priors. rewrite P2, S2, K2, K2'.
  rewrite (broadcasts_again _ _ _ W2), (broadcasts_again _ _ _ M2), (broadcasts_again _ _ _ N2). cbn [bind].
  assert (C : cprior_shape (gm_type p) nc (gm_nmix p) nf = Some (fst (gmm_covar_shapes (gm_type p) nc (gm_nmix p) nf))
           /\ cweight_shape (gm_type p) nc (gm_nmix p) nf = Some (snd (gmm_covar_shapes (gm_type p) nc (gm_nmix p) nf))).
  { unfold cprior_shape, cweight_shape, gmm_covar_shapes. unfold is_type, covariance_types in Hty. cbn [existsb] in Hty.
    destruct (String.eqb (gm_type p) "full"); [auto|]. destruct (String.eqb (gm_type p) "tied"); [auto|].
    destruct (String.eqb (gm_type p) "diag"); [auto|]. destruct (String.eqb (gm_type p) "spherical"); [auto|]. discriminate. }
  destruct C as [-> ->]. unfold fix_prior. rewrite (broadcasts_again _ _ _ Q2), (broadcasts_again _ _ _ T2). cbn [bind].
  destruct p2. cbn in *. subst. reflexivity.
Qed.
Lemma gmm_init_em_priors {G} (gr : grng G) (rg : rng G) fp c nf p q x rs g :
  gm_nmix q = gm_nmix p -> gm_type q = gm_type p -> gm_min_covar q = gm_min_covar p ->
  fix_priors fp (c_nc c) nf q = fix_priors fp (c_nc c) nf p ->
  gmm_init_em gr rg fp c (Some nf) q x rs g = gmm_init_em gr rg fp c (Some nf) p x rs g.
Proof. intros E1 E2 E3 E4. unfold gmm_init_em. rewrite E1, E3, E4. reflexivity. Qed.
Lemma gmm_init_priors {G} (gr : grng G) (rg : rng G) fp c p q rs g x :
  gm_nmix q = gm_nmix p -> gm_type q = gm_type p -> gm_min_covar q = gm_min_covar p ->
  fix_priors fp (c_nc c) (width x) q = fix_priors fp (c_nc c) (width x) p ->
  init (gmm_initc gr) rg fp (Est (new_hmm c None q) rs) g x = init (gmm_initc gr) rg fp (Est (new_hmm c None p) rs) g x.
Proof.
  intros E1 E2 E3 E4. unfold init, base_init.
  cbn [gmm_initc ic_nfeat ic_nfit ic_em ic_width e_hmm e_rs new_hmm h_cfg h_nfeat h_em h_start h_trans h_mon].
  unfold gmm_nfeat. cbn [set_n_features bind]. destruct (Nat.eqb (c_nc c) 0); [reflexivity|].
  destruct (rs_get rg rs g) as [g0|]; [|reflexivity]. cbn [bind]. cbv zeta.
  destruct (needs_init c "s" "startprob_" _) as [ns v1]. destruct (if ns then _ else _) as [[s g1]|]; [|reflexivity]. cbn [bind].
  destruct (needs_init c "t" "transmat_" _) as [nt v2]. destruct (if nt then _ else _) as [[t g2]|]; [|reflexivity]. cbn [bind].
  destruct (rs_put rs g g2) as [rs1 gl1].
  assert (En : gmm_nfit c (Some (width x)) q = gmm_nfit c (Some (width x)) p) by (unfold gmm_nfit; rewrite E1, E2; reflexivity).
  rewrite En. destruct (gmm_nfit c (Some (width x)) p) as [d|]; [|reflexivity]. cbn [bind].
  destruct (dict_sum d (c_params c)) as [n|]; [|reflexivity]. cbn [bind e_hmm e_rs h_cfg h_nfeat h_em h_start h_trans h_mon].
  rewrite (gmm_init_em_priors gr rg fp c (width x) p q x rs1 gl1 E1 E2 E3 E4). reflexivity.
Qed.
Lemma C90_gmm_partial_l {G} (gr : grng G) (rg : rng G) eig fp c rs nm ty mc wp mp mw cp cw glob x ls e' glob' ev :
  let e := GMMHMM c rs nm ty mc wp mp mw cp cw in
  plain rs -> fit (gmm eig) (gmm_initc gr) rg fp e glob x ls = Ok (e', glob', ev) ->
  forall g1 g2 y lens, width y = width x ->
    fit (gmm eig) (gmm_initc gr) rg fp (clone_gmm e' g1) g2 y lens = fit (gmm eig) (gmm_initc gr) rg fp e g2 y lens.
Proof.
  cbv zeta. intros Hp H g1 g2 y lens Hw.
  destruct (C79_gmm_partial_l _ _ _ _ _ _ _ _ _ _ _ H) as (A1 & A2 & A3).
  destruct (fit_inv _ _ _ _ _ _ _ _ _ _ _ H) as (e1 & ev1 & ev2 & _ & Hi & _).
  destruct (init_spec _ _ _ _ _ _ _ _ _ Hi) as (_ & _ & _ & p0 & rs0 & g0 & w0 & Hn & _).
  destruct (gmm_init_inv _ _ _ _ _ _ _ _ _ Hi) as (rs1 & g3 & v1 & v2 & Hty & Hem & _).
  cbn [ic_nfeat gmm_initc] in Hn. destruct (gmm_nfeat_inv _ _ _ _ _ _ Hn) as [Hnf _].
  destruct (gmm_args_init _ _ _ _ _ _ _ _ _ _ _ _ _ Hem) as [(p2 & Hp2 & _) _].
  cbn [GMMHMM e_hmm e_rs new_hmm h_cfg h_em] in A1, A2, A3, Hty, Hp2.
  set (p := Gmmp nm ty mc wp mp mw cp cw None None None) in *.
  destruct (fix_priors_again _ _ _ _ _ _ A3 Hp2 Hty) as [Ha Hf].
  destruct (fix_priors_keeps _ _ _ _ _ Hp2) as ((K1 & K2 & K3) & L1 & L2 & L3).
  unfold gmm_hyper_args in Ha. injection Ha as B1 B2 B3 B4 B5 B6 B7 B8.
  unfold clone_gmm. rewrite A1, (clone_plain _ _ _ Hp A2), B1, B2, B3, B4, B5, B6, B7, B8.
  assert (Ep : Gmmp (gm_nmix p2) (gm_type p2) (gm_min_covar p2) (gm_wprior p2) (gm_mprior p2) (gm_mweight p2) (gm_cprior p2) (gm_cweight p2) None None None = p2)
    by (destruct p2; cbn in *; subst; reflexivity).
  unfold GMMHMM. rewrite Ep. fold p. unfold fit.
  assert (Ei : forall x0, width x0 = width x -> init (gmm_initc gr) rg fp (Est (new_hmm c None p2) rs) g2 x0
                 = init (gmm_initc gr) rg fp (Est (new_hmm c None p) rs) g2 x0).
  { intros x0 E0. apply gmm_init_priors; try assumption. rewrite E0, Hp2. exact Hf. }
  destruct (check_array (ec_xok (gmm eig)) y) as [y0|] eqn:Ec; [|reflexivity]. rewrite (check_array_same _ _ _ Ec). cbn [bind].
  rewrite (Ei _ Hw). reflexivity.
Qed.

(** ** CategoricalHMM, PoissonHMM, MultinomialHMM: [fit] replaces [random_state]
    by a generator object, which the clone copies with its present state, and
    fills in [n_features] and [n_trials]; nothing else differs. *)
Lemma clone_becomes {G} (rs rs' : rstate G) glob : becomes_generator rs rs' -> exists g, clone_rs rs' glob = RSGen g.
Proof. destruct rs; cbn; [intros ->|intros (h & ->)|intros (h & ->)|intros ->]; cbn; eauto. Qed.
Lemma C90_categorical_partial_l {G} (rg : rng G) fp c rs pr nf glob x ls e' glob' ev :
  fit categorical cat_initc rg fp (CategoricalHMM c rs pr nf) glob x ls = Ok (e', glob', ev) ->
  forall g, exists g' nf', clone_categorical e' g = CategoricalHMM c (RSGen g') pr nf' /\ (nf <> None -> nf' = nf).
Proof.
  intros H g. destruct (C79_categorical_partial_l _ _ _ _ _ _ _ _ _ H) as (A1 & A2 & A3).
  destruct (clone_becomes _ _ g (proj1 (C79_random_state_l rg fp) _ _ _ _ _ _ _ H)) as (g' & Eg).
  exists g', (h_nfeat (e_hmm e')). unfold clone_categorical. rewrite A1, A2, Eg. split; [reflexivity|exact A3].
Qed.
Lemma C90_poisson_partial_l {G} (rg : rng G) fp c rs al be glob x ls e' glob' ev :
  fit poisson pois_initc rg fp (PoissonHMM c rs al be) glob x ls = Ok (e', glob', ev) ->
  forall g, exists g', clone_poisson e' g = PoissonHMM c (RSGen g') al be.
Proof.
  intros H g. destruct (C79_poisson_partial_l _ _ _ _ _ _ _ _ _ H) as (A1 & A2 & A3).
  destruct (clone_becomes _ _ g (proj1 (proj2 (C79_random_state_l rg fp)) _ _ _ _ _ _ _ H)) as (g' & Eg).
  exists g'. unfold clone_poisson. rewrite A1, A2, A3, Eg. reflexivity.
Qed.
Lemma C90_multinomial_partial_l {G} (rg : rng G) fp c rs tr glob x ls e' glob' ev :
  fit multinomial mult_initc rg fp (MultinomialHMM c rs (Some tr)) glob x ls = Ok (e', glob', ev) ->
  forall g, exists g', clone_multinomial e' g = MultinomialHMM c (RSGen g') (Some tr).
Proof.
  intros H g. destruct (C79_multinomial_partial_l _ _ _ _ _ _ _ _ _ H) as (A1 & A2).
  destruct (clone_becomes _ _ g (proj2 (proj2 (C79_random_state_l rg fp)) _ _ _ _ _ _ _ H)) as (g' & Eg).
  exists g'. unfold clone_multinomial. rewrite A1, A2, Eg. reflexivity.
Qed.

(** ** VariationalCategoricalHMM: [fit] fills in [n_features]; the clone trains
    as the original would have on data with the same number of symbols, and on
    any data if the constructor was given [n_features]. *)
Lemma vcat_nfeat_filled c nf p y n : cat_nfeat c nf (Catp (Scal NaN) None) y = Ok (Some n, p) ->
  cat_nfeat c (Some n) (Catp (Scal NaN) None) y = Ok (Some n, p).
Proof.
  unfold cat_nfeat. destruct (Z.ltb (zmin y) 0) eqn:Em; [discriminate|]. destruct nf as [m|].
  - destruct (Z.ltb (Z.of_nat m - 1) (zmax y)) eqn:El; [discriminate|]. intros E. injection E as <- <-. rewrite El. reflexivity.
  - intros E. injection E as <- <-. assert (El : Z.ltb (Z.of_nat (Z.to_nat (zmax y + 1)) - 1) (zmax y) = false) by (apply Z.ltb_ge; lia).
    rewrite El. reflexivity.
Qed.
Lemma vinit_nfeat {P X G} (I : vinitclass P X G) (rg : rng G) fp c nf nf' sa ta p rs g x ls :
  vi_nfeat I c nf' p x = vi_nfeat I c nf p x ->
  vinit I rg fp (VEst (new_vhmm c nf' sa ta p) rs) g x ls = vinit I rg fp (VEst (new_vhmm c nf sa ta p) rs) g x ls.
Proof.
  intros E. unfold vinit, vbase_init. cbn [ve_v ve_rs new_vhmm new_hmm v_h v_sarg v_targ v_spost v_sprior v_tpost v_tprior h_cfg h_nfeat h_em h_start h_trans h_mon].
  rewrite E. reflexivity.
Qed.
Lemma zmax_is m x : In m x -> Forall (fun k => (k <= m)%Z) x -> zmax x = m.
Proof.
  intros Hi Hf. rewrite Forall_forall in Hf. apply Z.le_antisymm; [apply Hf, zmax_in; intros ->; destruct Hi|apply Init_fit.zmax_ge; exact Hi].
Qed.
Lemma vcat_fit_nfeat {G} (rg : rng G) fp e glob x ls e' glob' ev :
  vfit vcategorical vcat_initc rg fp e glob x ls = Ok (e', glob', ev) ->
  exists p n, h_nfeat (v_h (ve_v e')) = Some n
    /\ cat_nfeat (v_cfg (ve_v e)) (h_nfeat (v_h (ve_v e))) (Catp (Scal NaN) None) x = Ok (Some n, p).
Proof.
  intros H. destruct (vfit_args vcategorical vcat_initc rg fp (fun _ => tt)) with (7 := H) as (_ & _ & _ & _ & _ & nf1 & p1 & p2 & p3 & Hn & Hc);
    try reflexivity.
  - cbn [vi_em vcat_initc]. unfold vcat_init_em. intros c nf p y l rs g p' rs' g' v E0.
    apply bind_inv in E0 as (g0 & _ & E0). destruct (needs_init c "e" _ _) as [[] w]; [|injection E0 as _ <- _ _; apply same_rs_refl].
    destruct (Nat.eqb _ 0); [discriminate|]. apply bind_inv in E0 as (pr & _ & E0). apply bind_inv in E0 as (a0 & _ & E0).
    apply bind_inv in E0 as ([q g1] & _ & E0). destruct (rs_put rs g g1) as [r1 gl1] eqn:Ep. injection E0 as _ <- _ _. apply (same_rs_put _ _ _ _ _ Ep).
  - cbn [vi_nfeat vcat_initc] in Hn. unfold vcat_nfeat in Hn. apply bind_inv in Hn as ([a b] & Hn & E0). injection E0 as -> _.
    cbn [ec_check vc_em vcategorical] in Hc. unfold vcat_check in Hc. apply bind_inv in Hc as (pr & _ & Hc). apply bind_inv in Hc as (po & _ & Hc).
    destruct (negb _); [discriminate|]. destruct (negb _); [discriminate|].
    exists b. destruct nf1 as [n|]; [|exfalso; unfold cat_nfeat in Hn; all_ok Hn; discriminate].
    exists n. split; [|exact Hn]. injection Hc as <- _. reflexivity.
Qed.
Lemma C90_vcategorical_partial_l {G} (rg : rng G) fp c rs sa ta ea nf glob x ls e' glob' ev :
  let e := VariationalCategoricalHMM c rs sa ta ea nf in
  plain rs -> vfit vcategorical vcat_initc rg fp e glob x ls = Ok (e', glob', ev) ->
  forall g1 g2 y lens,
    nf <> None \/ (exists m, In m x /\ In m y /\ Forall (fun k => (k <= m)%Z) x /\ Forall (fun k => (k <= m)%Z) y) ->
    vfit vcategorical vcat_initc rg fp (clone_vcategorical e' g1) g2 y lens = vfit vcategorical vcat_initc rg fp e g2 y lens.
Proof.
  cbv zeta. intros Hp H g1 g2 y lens Hy.
  destruct (C79_vcategorical_partial_l _ _ _ _ _ _ _ _ _ H) as (A1 & A2 & A3 & A4 & A5 & A6).
  destruct (vcat_fit_nfeat _ _ _ _ _ _ _ _ _ H) as (p & n & A7 & A8).
  cbn [VariationalCategoricalHMM ve_v ve_rs new_vhmm new_hmm v_h v_sarg v_targ v_cfg h_cfg h_em h_nfeat vk_arg] in A1, A2, A3, A4, A5, A6, A8.
  unfold clone_vcategorical. rewrite A1, A3, A4, A5, A7, (clone_plain _ _ _ Hp A2). unfold VariationalCategoricalHMM, vfit.
  destruct (check_array (ec_xok (vc_em vcategorical)) y) as [y0|] eqn:Ec; [|reflexivity]. rewrite (check_array_same _ _ _ Ec). cbn [bind].
  rewrite (vinit_nfeat vcat_initc rg fp c nf (Some n)); [reflexivity|].
  cbn [vi_nfeat vcat_initc]. unfold vcat_nfeat.
  assert (E : cat_nfeat c (Some n) (Catp (Scal NaN) None) y = cat_nfeat c nf (Catp (Scal NaN) None) y); [|rewrite E; reflexivity].
  destruct nf as [m|].
  - rewrite A6 in A7 by discriminate. injection A7 as <-. reflexivity.
  - destruct Hy as [Hy|(m & M1 & M2 & M3 & M4)]; [contradiction|].
    unfold cat_nfeat in A8 |- *. rewrite (zmax_is m x M1 M3) in A8. rewrite (zmax_is m y M2 M4).
    destruct (Z.ltb (zmin x) 0) eqn:Ex; [discriminate|]. injection A8 as <- _.
    destruct (Z.ltb (zmin y) 0); [reflexivity|].
    assert (El : Z.ltb (Z.of_nat (Z.to_nat (m + 1)) - 1) m = false) by (apply Z.ltb_ge; lia). rewrite El. reflexivity.
Qed.

(** ** A clone is not fitted, and its [monitor_] follows the present values of
    [n_iter] and [tol], also those assigned after construction. *)
Definition unfitted_methods {P X St} (E : emclass P X St) (fp : fpmode) (h : hmm P) : Prop :=
  (forall x ls, score E fp h x ls = Err NotFittedError)
  /\ (forall x ls, score_samples E fp h x ls = Err NotFittedError)
  /\ (forall x ls, predict_proba E fp h x ls = Err NotFittedError)
  /\ (forall x ls alg, decode E fp h x ls alg = Err NotFittedError)
  /\ (forall x ls, predict E fp h x ls = Err NotFittedError).
Lemma new_unfitted {P X St} (E : emclass P X St) fp c nf p : unfitted_methods E fp (new_hmm c nf p).
Proof.
  assert (F : fitted_check E fp (new_hmm c nf p) = Err NotFittedError) by reflexivity.
  unfold unfitted_methods, predict_proba, predict, score, score_samples, score_, decode. rewrite F. repeat split; reflexivity.
Qed.
Lemma C90_unfitted_l {G} (eig : mat -> xnum) fp (g : G) :
  (forall e, unfitted_methods categorical fp (e_hmm (clone_categorical e g)))
  /\ (forall e, unfitted_methods poisson fp (e_hmm (clone_poisson e g)))
  /\ (forall e, unfitted_methods multinomial fp (e_hmm (clone_multinomial e g)))
  /\ (forall e, unfitted_methods gaussian fp (e_hmm (clone_gaussian e g)))
  /\ (forall e, unfitted_methods (gmm eig) fp (e_hmm (clone_gmm e g))).
Proof. repeat apply conj; intros e; apply new_unfitted. Qed.
Definition vunfitted_methods {P X St} (V : vclass P X St) (fp : fpmode) (v : vhmm P) : Prop :=
  (forall x ls, Vbase.vscore V fp v x ls = Err NotFittedError)
  /\ (forall x ls, vscore_samples V fp v x ls = Err NotFittedError)
  /\ (forall x ls, vpredict_proba V fp v x ls = Err NotFittedError)
  /\ (forall x ls alg, vdecode V fp v x ls alg = Err NotFittedError)
  /\ (forall x ls, vpredict V fp v x ls = Err NotFittedError).
Lemma C90_vunfitted_l {G} la fp (g : G) :
  (forall e, vunfitted_methods vcategorical fp (ve_v (clone_vcategorical e g)))
  /\ (forall e, vunfitted_methods (vgaussian la) fp (ve_v (clone_vgaussian e g))).
Proof.
  split; intros e.
  - destruct (C86_vunfitted_l (Y := unit) vcategorical fp (fun g : unit => (0, g)) (fun _ _ g => Ok (tt, g)) (ve_v (clone_vcategorical e g)) eq_refl) as (A & B & C & D & E & _).
    repeat apply conj; assumption.
  - destruct (C86_vunfitted_l (Y := unit) (vgaussian la) fp (fun g : unit => (0, g)) (fun _ _ g => Ok (tt, g)) (ve_v (clone_vgaussian e g)) eq_refl) as (A & B & C & D & E & _).
    repeat apply conj; assumption.
Qed.

Definition obeys {P X St G} (E : emclass P X St) (I : initclass P X G) (clone : est P G -> G -> est P G) : Prop :=
  forall rg fp e g glob x ls e' glob' ev, fit E I rg fp (clone e g) glob x ls = Ok (e', glob', ev) ->
  let c := h_cfg (e_hmm e) in let hist := m_history (h_mon (e_hmm e')) in
  (length hist <= c_n_iter c)%nat /\ stops fp (c_tol c) (c_n_iter c) hist
  /\ (forall j, (0 < j < length hist)%nat -> ~ stops fp (c_tol c) (c_n_iter c) (firstn j hist)).
Lemma new_obeys {P X St G} (E : emclass P X St) (I : initclass P X G) rg fp c nf p rs glob x ls e' glob' ev :
  fit E I rg fp (Est (new_hmm c nf p) rs) glob x ls = Ok (e', glob', ev) ->
  let hist := m_history (h_mon (e_hmm e')) in
  (length hist <= c_n_iter c)%nat /\ stops fp (c_tol c) (c_n_iter c) hist
  /\ (forall j, (0 < j < length hist)%nat -> ~ stops fp (c_tol c) (c_n_iter c) (firstn j hist)).
Proof.
  intros H. destruct (fit_inv _ _ _ _ _ _ _ _ _ _ _ H) as (e1 & ev1 & ev2 & _ & Hi & Hf & _).
  destruct (init_inv _ _ _ _ _ _ _ _ _ Hi) as (ea & g1 & va & q & rs1 & v2 & Hb & _ & -> & _).
  destruct (base_init_inv _ _ _ _ _ _ _ _ _ Hb) as (A1 & A2 & _). cbn [e_hmm new_hmm h_cfg h_mon] in A1, A2, Hf.
  unfold fit_from in Hf. set (l := match ls with None => _ | Some l => Some l end) in Hf. clearbody l.
  apply bind_inv in Hf as (h1 & Ec & Hf). destruct (check_keeps E fp _ _ Ec) as (C1 & _ & _ & C4). cbn [h_cfg h_mon] in C1, C4.
  apply bind_inv in Hf as ([[h2 m] ev3] & El & Hf). injection Hf as Hh _. rewrite <- Hh. cbn [h_mon].
  destruct (fit_loop_trace _ _ _ _ _ _ _ _ _ El) as (vs & _ & Hm & Hle & Hlen & Hleast).
  rewrite C1, A1 in Hle, Hlen.
  assert (Hst : forall w, converged fp (mon_after (monitor_reset (h_mon h1)) w) = true <-> stops fp (c_tol c) (c_n_iter c) w).
  { intros w. rewrite converged_stops by reflexivity.
    cbn [mon_after monitor_reset m_tol m_n_iter m_history app]. rewrite C4, A2. reflexivity. }
  cbv zeta. rewrite Hm. cbn [mon_after monitor_reset m_history app]. split; [exact Hle|]. split.
  - destruct Hlen as [Hlen|[Hlen _]]; [left; exact Hlen|]. apply Hst. rewrite <- Hm. exact Hlen.
  - intros j Hj Hs. apply Hst in Hs. rewrite (Hleast j Hj) in Hs. discriminate.
Qed.
Lemma C90_obeys_l {G} (eig : mat -> xnum) (gr : grng G) :
  obeys categorical (cat_initc (G := G)) clone_categorical /\ obeys poisson (pois_initc (G := G)) clone_poisson
  /\ obeys multinomial (mult_initc (G := G)) clone_multinomial /\ obeys gaussian (gauss_initc (G := G)) clone_gaussian
  /\ obeys (gmm eig) (gmm_initc gr) clone_gmm.
Proof. repeat apply conj; intros rg fp e g glob x ls e' glob' ev; apply new_obeys. Qed.

Definition vobeys {P X St G} (V : vclass P X St) (I : vinitclass P X G) (clone : vest P G -> G -> vest P G) : Prop :=
  forall rg fp e g glob x ls e' glob' ev, vfit V I rg fp (clone e g) glob x ls = Ok (e', glob', ev) ->
  let c := v_cfg (ve_v e) in let hist := m_history (h_mon (v_h (ve_v e'))) in
  (length hist <= c_n_iter c)%nat /\ stops fp (c_tol c) (c_n_iter c) hist
  /\ (forall j, (0 < j < length hist)%nat -> ~ stops fp (c_tol c) (c_n_iter c) (firstn j hist)).
Lemma vinit_mon {P X G} (I : vinitclass P X G) (rg : rng G) fp e glob x ls e' glob' ev : vinit I rg fp e glob x ls = Ok (e', glob', ev) ->
  h_mon (v_h (ve_v e')) = h_mon (v_h (ve_v e)) /\ v_cfg (ve_v e') = v_cfg (ve_v e).
Proof.
  intros H. destruct (vinit_inv _ _ _ _ _ _ _ _ _ _ H) as (e1 & g1 & v1 & p & rs & v2 & Hb & _ & -> & _).
  pose proof (proj1 (vbase_init_inv _ _ _ _ _ _ _ _ _ _ Hb)) as Hc. split; [|exact Hc]. cbn [with_h v_h set_em h_mon].
  unfold vbase_init in Hb. all_ok Hb. injection Hb as <- _ _. reflexivity.
Qed.
Lemma new_vobeys {P X St G} (V : vclass P X St) (I : vinitclass P X G) rg fp c nf sa ta p rs glob x ls e' glob' ev :
  vfit V I rg fp (VEst (new_vhmm c nf sa ta p) rs) glob x ls = Ok (e', glob', ev) ->
  let hist := m_history (h_mon (v_h (ve_v e'))) in
  (length hist <= c_n_iter c)%nat /\ stops fp (c_tol c) (c_n_iter c) hist
  /\ (forall j, (0 < j < length hist)%nat -> ~ stops fp (c_tol c) (c_n_iter c) (firstn j hist)).
Proof.
  unfold vfit. intros H. apply bind_inv in H as (x' & _ & H). set (l := match ls with None => _ | Some l => l end) in H. clearbody l.
  apply bind_inv in H as ([[e1 g1] v1] & Hi & H). apply bind_inv in H as ([v2 ev2] & Hf & H). injection H as <- _ _. cbn [ve_v].
  destruct (vinit_mon _ _ _ _ _ _ _ _ _ _ Hi) as [A1 A2].
  destruct (C23_variational_l V fp (ve_v e1) x' l v2 ev2) as (_ & B2 & _ & B4 & B5 & _);
    [rewrite A1, A2; reflexivity|rewrite A1, A2; reflexivity|exact Hf|].
  rewrite A2 in B2, B4, B5. cbv zeta. repeat apply conj; assumption.
Qed.
Lemma C90_vobeys_l {G} la (gr : grng G) :
  vobeys vcategorical (vcat_initc (G := G)) clone_vcategorical /\ vobeys (vgaussian la) (vg_initc gr) clone_vgaussian.
Proof. split; intros rg fp e g glob x ls e' glob' ev; apply new_vobeys. Qed.
