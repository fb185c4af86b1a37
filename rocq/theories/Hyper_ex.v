(** * Property C79: arguments that [fit] replaces, and examples. *)
From Verif Require Export Hyper_thms Fresh_ex Vg_init.

(** [random_state] afterwards: an integer and None are replaced by a generator
    object. *)
Definition becomes_generator {G} (r r' : rstate G) : Prop :=
  match r with RSSeed _ | RSGen _ => exists g, r' = RSGen g | _ => r' = RSGlobal end.
Lemma becomes_put {G} (r r' : rstate G) glob g glob' : rs_put r glob g = (r', glob') -> becomes_generator r r' \/ r' = r.
Proof. destruct r; cbn; intros H; injection H as <- _; eauto. Qed.
Lemma adopted {G} (rg : rng G) r r1 : rs_adopt rg r = Ok r1 -> becomes_generator r r1 /\ (forall r2, same_random_state r1 r2 -> becomes_generator r r2).
Proof.
  destruct r; cbn; intros H; try (apply bind_inv in H as (a & _ & H)); injection H as <-; cbn; split; eauto; intros r2 H2; try (subst r2); eauto.
Qed.
Section Seed.
  Context {P X St G : Type} (E : emclass P X St) (I : initclass P X G) (rg : rng G) (fp : fpmode).
  Hypothesis Ri : forall c nf p x rs g p' rs' g' ev, ic_em I fp rg c nf p x rs g = Ok (p', rs', g', ev) -> becomes_generator rs rs'.
  Lemma fit_seed e glob x ls e' glob' ev : fit E I rg fp e glob x ls = Ok (e', glob', ev) -> becomes_generator (e_rs e) (e_rs e').
  Proof.
    intros H. destruct (fit_inv _ _ _ _ _ _ _ _ _ _ _ H) as (e1 & ev1 & ev2 & _ & Hi & _ & -> & _).
    destruct (init_inv _ _ _ _ _ _ _ _ _ Hi) as (ea & g1 & va & p & rs & v2 & Hb & He & -> & _).
    destruct (base_init_inv _ _ _ _ _ _ _ _ _ Hb) as (_ & _ & _ & _ & _ & _ & (g3 & g4 & _ & Hp) & _).
    apply Ri in He. cbn [e_rs]. destruct (e_rs e); cbn [rs_put] in Hp; injection Hp as Hp _; rewrite <- Hp in He; cbn [becomes_generator] in *; exact He.
  Qed.
End Seed.
Lemma C79_random_state_l {G} (rg : rng G) fp :
  (forall e glob x ls e' glob' ev, fit categorical cat_initc rg fp e glob x ls = Ok (e', glob', ev) -> becomes_generator (e_rs e) (e_rs e'))
  /\ (forall e glob x ls e' glob' ev, fit poisson pois_initc rg fp e glob x ls = Ok (e', glob', ev) -> becomes_generator (e_rs e) (e_rs e'))
  /\ (forall e glob x ls e' glob' ev, fit multinomial mult_initc rg fp e glob x ls = Ok (e', glob', ev) -> becomes_generator (e_rs e) (e_rs e')).
Proof.
  split; [|split]; intros e glob x ls e' glob' ev; apply fit_seed; intros c nf p y rs g p' rs' g' v E0.
  - cbn [ic_em cat_initc] in E0. unfold cat_init_em in E0. apply bind_inv in E0 as (rs1 & Ha & E0). apply adopted in Ha as [Ha Hb].
    destruct (needs_init c "e" _ _) as [[] w]; [|injection E0 as _ <- _ _; exact Ha].
    apply bind_inv in E0 as (g0 & _ & E0). apply bind_inv in E0 as ([m g1] & _ & E0). destruct (rs_put rs1 g g1) as [r1 gl1] eqn:Ep. injection E0 as _ <- _ _.
    apply Hb, (same_rs_put _ _ _ _ _ Ep).
  - cbn [ic_em pois_initc] in E0. unfold pois_init_em in E0. apply bind_inv in E0 as (rs1 & Ha & E0). apply adopted in Ha as [Ha Hb].
    destruct (needs_init c "l" _ _) as [[] w]; [|injection E0 as _ <- _ _; exact Ha].
    apply bind_inv in E0 as (g0 & _ & E0). apply bind_inv in E0 as ([m g1] & _ & E0). destruct (rs_put rs1 g g1) as [r1 gl1] eqn:Ep. injection E0 as _ <- _ _.
    apply Hb, (same_rs_put _ _ _ _ _ Ep).
  - cbn [ic_em mult_initc] in E0. unfold mult_init_em in E0. apply bind_inv in E0 as (rs1 & Ha & E0). apply adopted in Ha as [Ha Hb].
    destruct (has "e" _); [|injection E0 as _ <- _ _; exact Ha].
    apply bind_inv in E0 as (g0 & _ & E0). apply bind_inv in E0 as ([m g1] & _ & E0). destruct (rs_put rs1 g g1) as [r1 gl1] eqn:Ep. injection E0 as _ <- _ _.
    apply Hb, (same_rs_put _ _ _ _ _ Ep).
Qed.

(** CategoricalHMM(2, random_state=0): afterwards random_state is a generator and
    n_features is 3. *)
Lemma C79_categorical_refuted_l : exists (e : est catp unit) x e' ev,
  fit categorical cat_initc flat_rng exact e tt x None = Ok (e', tt, ev)
  /\ e_rs e = RSSeed 0 /\ e_rs e' = RSGen tt /\ h_nfeat (e_hmm e) = None /\ h_nfeat (e_hmm e') = Some 3%nat.
Proof.
  destruct C76_categorical_applies_l as (e' & ev & H & _).
  exists (Est fr_cat (RSSeed 0)), fr_x, e', ev. split; [exact H|]. split; [reflexivity|]. split.
  { destruct (proj1 (C79_random_state_l flat_rng exact) _ _ _ _ _ _ _ H) as ([] & ->). reflexivity. }
  split; [reflexivity|].
  destruct (fit_args categorical cat_initc flat_rng exact (fun _ => tt)) with (4 := H) as (_ & nf1 & p1 & p2 & p3 & Hn & _ & Hc); try reflexivity.
  cbn in Hn. injection Hn as <- _. cbn [ec_check categorical] in Hc. unfold cat_check in Hc. all_ok Hc. injection Hc as <- _. reflexivity.
Qed.
(** PoissonHMM and MultinomialHMM with a seed; MultinomialHMM without n_trials
    stores the totals of the rows it was trained on. *)
Lemma C79_poisson_refuted_l : exists (e : est poisp unit) x e' ev,
  fit poisson pois_initc flat_rng exact e tt x (Some [2%Z]) = Ok (e', tt, ev) /\ e_rs e = RSSeed 0 /\ e_rs e' = RSGen tt.
Proof.
  destruct C76_poisson_applies_l as (e' & ev & H & _).
  exists (Est fr_pois (RSSeed 0)), fr_px, e', ev. split; [exact H|]. split; [reflexivity|].
  destruct (proj1 (proj2 (C79_random_state_l flat_rng exact)) _ _ _ _ _ _ _ H) as ([] & ->). reflexivity.
Qed.
Lemma C79_multinomial_refuted_l : exists (e : est mulp unit) x e' ev,
  fit multinomial mult_initc flat_rng exact e tt x (Some [2%Z]) = Ok (e', tt, ev)
  /\ e_rs e = RSSeed 0 /\ e_rs e' = RSGen tt
  /\ mu_trials (h_em (e_hmm e)) = None /\ mu_trials (h_em (e_hmm e')) = Some (TArr [4; 2]%Z).
Proof.
  destruct C76_multinomial_applies_l as (e' & ev & H & _).
  exists (Est fr_mult (RSSeed 0)), fr_px, e', ev. split; [exact H|]. split; [reflexivity|]. split.
  { destruct (proj2 (proj2 (C79_random_state_l flat_rng exact)) _ _ _ _ _ _ _ H) as ([] & ->). reflexivity. }
  split; [reflexivity|]. rewrite (proj2 (C79_multinomial_partial_l _ _ _ _ _ _ _ _ _ H)). reflexivity.
Qed.
(** GMMHMM(1, n_mix=1): weights_prior, a number, becomes an array of shape (1, 1);
    covars_weight, None, becomes an array of zeros. *)
Lemma C79_gmm_refuted_l : exists (e : est gmmp nat) x e' glob' ev,
  fit (gmm eig1) (gmm_initc toy_grng) toy_rng exact e 0%nat x None = Ok (e', glob', ev)
  /\ gm_wprior (h_em (e_hmm e)) = nscal (Fin 1) /\ nsh (gm_wprior (h_em (e_hmm e'))) = [1; 1]%nat
  /\ gm_cweight (h_em (e_hmm e)) = None /\ gm_cweight (h_em (e_hmm e')) <> None.
Proof.
  destruct (gx_twice 1 ltac:(lia)) as (e1 & ev1 & _ & _ & _ & _ & _ & _ & H & _).
  exists (gx 1), gx_x, e1, (gx_next 1 0), ev1. split; [exact H|].
  destruct (C79_gmm_partial_l _ _ _ _ _ _ _ _ _ _ _ H) as (_ & _ & [_ W _ _ _ (a & Ha & _)]).
  split; [reflexivity|]. split; [|split; [reflexivity|rewrite Ha; discriminate]].
  cbn [gx e_hmm h_em gm_wprior gm_nmix h_cfg gx_cfg c_nc] in W. unfold broadcasts in W. rewrite nbroadcast_scal in W.
  injection W as <-. reflexivity.
Qed.

(** The estimators of C62 and C72. *)
Lemma C79_variational_applies_l : exists e1 ev1 e2 ev2,
  vfit vcategorical vcat_initc flat_rng exact (VEst (fresh_v "ste" 3 None) (RSSeed 0)) tt [0; 1; 1; 0; 1]%Z (as_lengths [3%nat; 2%nat]) = Ok (e1, tt, ev1)
  /\ ve_rs e1 = RSSeed 0 /\ vk_arg (h_em (v_h (ve_v e1))) = None /\ v_sarg (ve_v e1) = None
  /\ vfit (vgaussian la_ref) (vg_initc two_clusters) flat_rng exact (VEst (new_vg "full") (RSSeed 0)) tt four_samples (as_lengths [2; 2]%nat) = Ok (e2, tt, ev2)
  /\ ve_rs e2 = RSSeed 0 /\ vg_marg (h_em (v_h (ve_v e2))) = None /\ vg_sarg (h_em (v_h (ve_v e2))) = None.
Proof.
  destruct C62_applies_l as (e1 & ev1 & H1). destruct (C72_applies_l "full" (or_introl eq_refl)) as (e2 & ev2 & H2).
  exists e1, ev1, e2, ev2.
  destruct (C79_vcategorical_partial_l _ _ _ _ _ _ _ _ _ H1) as (_ & A2 & A3 & _ & A5 & _).
  destruct (C79_vgaussian_l _ _ _ _ _ _ _ _ _ _ _ H2) as (_ & B2 & _ & _ & _ & B6 & _ & _ & B9).
  repeat (split; [assumption|]). exact B9.
Qed.
(** GaussianHMM with a seed, each covariance type. *)
Lemma C79_gaussian_applies_l : forall ty, is_type covariance_types ty = true ->
  exists e' ev, fit gaussian gauss_initc flat_rng exact (Est (cv_h ty 2) (RSSeed 0)) tt cv_x (as_lengths [2%nat]) = Ok (e', tt, ev)
  /\ e_rs e' = RSSeed 0 /\ ga_type (h_em (e_hmm e')) = ty.
Proof.
  intros ty Hty. destruct (C76_applies_l ty Hty) as (e' & ev & H & _). exists e', ev. split; [exact H|].
  destruct (C79_gaussian_l _ _ _ _ _ _ _ _ _ H) as (_ & A2 & A3 & _). split; [exact A2|exact A3].
Qed.
