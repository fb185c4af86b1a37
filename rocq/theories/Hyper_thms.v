(** * Property lemmas C79: [fit] and the arguments of the constructor. *)
From Verif Require Export Init_gmm_thms Vinit_thms.

(** [random_state] is the object it was: None, the same integer, or the same
    generator object (advanced by the draws). *)
Definition same_random_state {G} (r r' : rstate G) : Prop :=
  match r with RSGen _ => exists g, r' = RSGen g | _ => r' = r end.
Lemma same_rs_refl {G} (r : rstate G) : same_random_state r r.
Proof. destruct r; cbn; eauto. Qed.
Lemma same_rs_trans {G} (a b c : rstate G) : same_random_state a b -> same_random_state b c -> same_random_state a c.
Proof. destruct a; cbn; intros H; try (subst b; cbn; auto). destruct H as [g1 ->]. cbn. auto. Qed.
Lemma same_rs_put {G} (r r' : rstate G) glob g glob' : rs_put r glob g = (r', glob') -> same_random_state r r'.
Proof. destruct r; cbn; intros H; injection H as <- <-; eauto. Qed.

(** One step of the inversion of a computation that returned. *)
Ltac step_ok H :=
  match type of H with
  | Err _ = Ok _ => discriminate H
  | Ok _ = Ok _ => fail 1
  | bind _ _ = Ok _ => let E := fresh "B" in apply bind_inv in H as (? & E & H)
  | context [match ?o with _ => _ end] => let E := fresh "B" in destruct o eqn:E; try discriminate H
  end.
Ltac all_ok H := repeat step_ok H.

Section Fit.
  Context {P X St G V : Type} (E : emclass P X St) (I : initclass P X G) (rg : rng G) (fp : fpmode) (F : P -> V).
  (** [F p]: the arguments of the constructor among the attributes [p]. *)
  Hypothesis Fm : forall c nf p st p', ec_mstep E fp c nf p st = Ok p' -> F p' = F p.
  Hypothesis Fc : forall c nf p nf' p', ec_check E fp c nf p = Ok (nf', p') -> F p' = F p.
  Hypothesis Fi : forall c nf p x rs g p' rs' g' ev, ic_em I fp rg c nf p x rs g = Ok (p', rs', g', ev) -> F p' = F p.
  Lemma fit_args e glob x ls e' glob' ev : fit E I rg fp e glob x ls = Ok (e', glob', ev) ->
    h_cfg (e_hmm e') = h_cfg (e_hmm e)
    /\ exists nf1 p1 p2 p3, ic_nfeat I (h_cfg (e_hmm e)) (h_nfeat (e_hmm e)) (h_em (e_hmm e)) x = Ok (nf1, p1)
       /\ F (h_em (e_hmm e')) = F p1
       /\ ec_check E fp (h_cfg (e_hmm e)) nf1 p2 = Ok (h_nfeat (e_hmm e'), p3).
  Proof.
    intros H. destruct (fit_inv _ _ _ _ _ _ _ _ _ _ _ H) as (e1 & ev1 & ev2 & _ & Hi & Hf & _).
    destruct (init_spec _ _ _ _ _ _ _ _ _ Hi) as (A1 & _ & _ & p1 & rs & g1 & w & Hn & He).
    unfold fit_from in Hf. set (l := match ls with None => _ | Some l => Some l end) in Hf. clearbody l.
    destruct (check E fp (e_hmm e1)) as [h1|] eqn:Ec; [|discriminate]. cbn [bind] in Hf.
    destruct (check_keeps E fp _ _ Ec) as (C1 & _ & _ & C4).
    apply bind_inv in Hf as ([[h2 m] ev3] & El & Hf). injection Hf as Hh _. rewrite <- Hh. cbn [h_cfg h_em h_nfeat].
    destruct (fit_loop_trace _ _ _ _ _ _ _ _ _ El) as (vs & Hit & Hm & _).
    destruct (iterate_keeps E fp x l _ h1 h2 vs Hit) as (B1 & B2 & _ & _ & _ & B6).
    assert (Hc : exists p3, ec_check E fp (h_cfg (e_hmm e1)) (h_nfeat (e_hmm e1)) (h_em (e_hmm e1)) = Ok (h_nfeat h1, p3)
                            /\ F p3 = F (h_em h1)).
    { unfold check in Ec. destruct (h_start (e_hmm e1)); [|discriminate].
      destruct (h_trans (e_hmm e1)); [|destruct (negb _); [discriminate|]; destruct (negb _); discriminate].
      apply bind_inv in Ec as ([] & _ & Ec). apply bind_inv in Ec as ([nf p3] & Hc & Ec). injection Ec as <-. exists p3. split; [exact Hc|reflexivity]. }
    destruct Hc as (p3 & Hc & Hp3). split; [congruence|]. exists (h_nfeat (e_hmm e1)), p1, (h_em (e_hmm e1)), p3.
    split; [exact Hn|]. split; [|rewrite B2, <- A1; exact Hc].
    rewrite (B6 V F); [|intros nf p st p'; apply Fm]. rewrite <- Hp3, (Fc _ _ _ _ _ Hc). apply (Fi _ _ _ _ _ _ _ _ _ _ He).
  Qed.

  Hypothesis Ri : forall c nf p x rs g p' rs' g' ev, ic_em I fp rg c nf p x rs g = Ok (p', rs', g', ev) -> same_random_state rs rs'.
  Lemma fit_random_state e glob x ls e' glob' ev : fit E I rg fp e glob x ls = Ok (e', glob', ev) ->
    same_random_state (e_rs e) (e_rs e').
  Proof.
    intros H. destruct (fit_inv _ _ _ _ _ _ _ _ _ _ _ H) as (e1 & ev1 & ev2 & _ & Hi & _ & -> & _).
    destruct (init_inv _ _ _ _ _ _ _ _ _ Hi) as (ea & g1 & va & p & rs & v2 & Hb & He & -> & _).
    destruct (base_init_inv _ _ _ _ _ _ _ _ _ Hb) as (_ & _ & _ & _ & _ & _ & (g3 & g4 & _ & Hp) & _).
    cbn [e_rs]. apply (same_rs_trans _ (e_rs ea)); [apply (same_rs_put _ _ _ _ _ Hp)|apply (Ri _ _ _ _ _ _ _ _ _ _ He)].
  Qed.
End Fit.

(** ** GaussianHMM: every argument. *)
Definition gauss_args (p : gaussp) := (ga_type p, ga_min_covar p, ga_mprior p, ga_mweight p, ga_cprior p, ga_cweight p).
Lemma gauss_args_mstep fp c nf p st p' : gauss_mstep fp c nf p st = Ok p' -> gauss_args p' = gauss_args p.
Proof. unfold gauss_mstep. intros H. apply bind_inv in H as (m & _ & H). apply bind_inv in H as (v & _ & H). injection H as <-. reflexivity. Qed.
Lemma gauss_args_check fp c nf p nf' p' : gauss_check fp c nf p = Ok (nf', p') -> gauss_args p' = gauss_args p.
Proof. unfold gauss_check. intros H. all_ok H. injection H as <- <-. reflexivity. Qed.
Lemma gauss_args_init {G} fp (rg : rng G) c nf p x rs g p' rs' g' ev : gauss_init_em fp rg c nf p x rs g = Ok (p', rs', g', ev) ->
  gauss_args p' = gauss_args p /\ same_random_state rs rs'.
Proof.
  unfold gauss_init_em. intros H. destruct (needs_init c "m" _ _) as [nm ev1].
  apply bind_inv in H as ([[means rs1] g1] & Hm & H). apply bind_inv in H as (is_set & _ & H).
  assert (Hr : same_random_state rs rs1).
  { destruct nm; [|injection Hm as _ <- _; apply same_rs_refl].
    apply bind_inv in Hm as (g0 & _ & Hm). apply bind_inv in Hm as ([m g2] & _ & Hm).
    destruct (rs_put rs g g2) as [r1 gl1] eqn:Ep. injection Hm as _ <- _. apply (same_rs_put _ _ _ _ _ Ep). }
  destruct (needs_init c "c" _ _) as [ncv ev2]. destruct ncv.
  - apply bind_inv in H as (cv & _ & H). apply bind_inv in H as ([] & _ & H). injection H as <- <- _ _. split; [reflexivity|exact Hr].
  - injection H as <- <- _ _. split; [reflexivity|exact Hr].
Qed.
Lemma C79_gaussian_l {G} (rg : rng G) fp e glob x ls e' glob' ev :
  fit gaussian gauss_initc rg fp e glob x ls = Ok (e', glob', ev) ->
  let h := e_hmm e in let h' := e_hmm e' in
  h_cfg h' = h_cfg h /\ same_random_state (e_rs e) (e_rs e')
  /\ ga_type (h_em h') = ga_type (h_em h) /\ ga_min_covar (h_em h') = ga_min_covar (h_em h)
  /\ ga_mprior (h_em h') = ga_mprior (h_em h) /\ ga_mweight (h_em h') = ga_mweight (h_em h)
  /\ ga_cprior (h_em h') = ga_cprior (h_em h) /\ ga_cweight (h_em h') = ga_cweight (h_em h).
Proof.
  intros H. cbv zeta.
  destruct (fit_args gaussian gauss_initc rg fp gauss_args (fun c nf p st p' => gauss_args_mstep fp c nf p st p')
              (fun c nf p nf' p' => gauss_args_check fp c nf p nf' p')
              (fun c nf p x rs g p' rs' g' ev E => proj1 (gauss_args_init fp rg c nf p x rs g p' rs' g' ev E)) _ _ _ _ _ _ _ H)
    as (A1 & nf1 & p1 & p2 & p3 & Hn & HF & _).
  split; [exact A1|]. split.
  { apply (fit_random_state gaussian gauss_initc rg fp) with (2 := H).
    intros c nf p y rs g p' rs' g' v E. apply (gauss_args_init fp rg c nf p y rs g p' rs' g' v E). }
  cbn [ic_nfeat gauss_initc] in Hn. unfold gauss_nfeat in Hn. apply bind_inv in Hn as (a & _ & Hn). injection Hn as _ <-.
  unfold gauss_args in HF. injection HF as -> -> -> -> -> ->. repeat split; reflexivity.
Qed.

(** ** PoissonHMM: all but random_state. *)
Lemma C79_poisson_partial_l {G} (rg : rng G) fp e glob x ls e' glob' ev :
  fit poisson pois_initc rg fp e glob x ls = Ok (e', glob', ev) ->
  let h := e_hmm e in let h' := e_hmm e' in
  h_cfg h' = h_cfg h /\ po_alpha (h_em h') = po_alpha (h_em h) /\ po_beta (h_em h') = po_beta (h_em h).
Proof.
  intros H. cbv zeta.
  destruct (fit_args poisson pois_initc rg fp (fun p => (po_alpha p, po_beta p))) with (4 := H) as (A1 & nf1 & p1 & p2 & p3 & Hn & HF & _).
  - cbn [ec_mstep poisson]. unfold pois_mstep. intros c nf p st p' E0. all_ok E0; injection E0 as <-; reflexivity.
  - cbn [ec_check poisson]. unfold pois_check. intros c nf p nf' p' E0. all_ok E0; injection E0 as _ <-; reflexivity.
  - cbn [ic_em pois_initc]. unfold pois_init_em. intros c nf p y rs g p' rs' g' v E0.
    apply bind_inv in E0 as (rs1 & _ & E0). destruct (needs_init c "l" _ _) as [[] w]; [|injection E0 as <- _ _ _; reflexivity].
    apply bind_inv in E0 as (g0 & _ & E0). apply bind_inv in E0 as ([m g1] & _ & E0). destruct (rs_put rs1 g g1). injection E0 as <- _ _ _. reflexivity.
  - cbn [ic_nfeat pois_initc] in Hn. unfold pois_nfeat in Hn. apply bind_inv in Hn as (a & _ & Hn). injection Hn as _ <-.
    injection HF as -> ->. repeat split; assumption.
Qed.

(** ** CategoricalHMM: all but random_state; n_features if it was given. *)
Lemma C79_categorical_partial_l {G} (rg : rng G) fp e glob x ls e' glob' ev :
  fit categorical cat_initc rg fp e glob x ls = Ok (e', glob', ev) ->
  let h := e_hmm e in let h' := e_hmm e' in
  h_cfg h' = h_cfg h /\ cat_prior (h_em h') = cat_prior (h_em h)
  /\ (h_nfeat h <> None -> h_nfeat h' = h_nfeat h).
Proof.
  intros H. cbv zeta.
  destruct (fit_args categorical cat_initc rg fp cat_prior) with (4 := H) as (A1 & nf1 & p1 & p2 & p3 & Hn & HF & Hc).
  - cbn [ec_mstep categorical]. unfold cat_mstep. intros c nf p st p' E0. all_ok E0; injection E0 as <-; reflexivity.
  - cbn [ec_check categorical]. unfold cat_check. intros c nf p nf' p' E0. all_ok E0; injection E0 as _ <-; reflexivity.
  - cbn [ic_em cat_initc]. unfold cat_init_em. intros c nf p y rs g p' rs' g' v E0.
    apply bind_inv in E0 as (rs1 & _ & E0). destruct (needs_init c "e" _ _) as [[] w]; [|injection E0 as <- _ _ _; reflexivity].
    apply bind_inv in E0 as (g0 & _ & E0). apply bind_inv in E0 as ([m g1] & _ & E0). destruct (rs_put rs1 g g1). injection E0 as <- _ _ _. reflexivity.
  - cbn [ic_nfeat cat_initc] in Hn. unfold cat_nfeat in Hn. destruct (Z.ltb _ 0); [discriminate|].
    destruct (h_nfeat (e_hmm e)) as [n|].
    + destruct (Z.ltb _ _); [discriminate|]. injection Hn as <- <-. repeat split; try assumption.
      intros _. cbn [ec_check categorical] in Hc. unfold cat_check in Hc. all_ok Hc. injection Hc as <- _. reflexivity.
    + injection Hn as <- <-. repeat split; try assumption. intros []; reflexivity.
Qed.

(** ** MultinomialHMM: all but random_state; n_trials if it was given. *)
Lemma C79_multinomial_partial_l {G} (rg : rng G) fp e glob x ls e' glob' ev :
  fit multinomial mult_initc rg fp e glob x ls = Ok (e', glob', ev) ->
  let h := e_hmm e in let h' := e_hmm e' in
  h_cfg h' = h_cfg h
  /\ mu_trials (h_em h') = match mu_trials (h_em h) with None => Some (TArr (map zsum x)) | Some t => Some t end.
Proof.
  intros H. cbv zeta.
  destruct (fit_args multinomial mult_initc rg fp mu_trials) with (4 := H) as (A1 & nf1 & p1 & p2 & p3 & Hn & HF & Hc).
  - cbn [ec_mstep multinomial]. unfold mult_mstep. intros c nf p st p' E0. all_ok E0; injection E0 as <-; reflexivity.
  - cbn [ec_check multinomial]. unfold mult_check. intros c nf p nf' p' E0. all_ok E0; injection E0 as _ <-; assumption || congruence.
  - cbn [ic_em mult_initc]. unfold mult_init_em. intros c nf p y rs g p' rs' g' v E0.
    apply bind_inv in E0 as (rs1 & _ & E0). destruct (has "e" _); [|injection E0 as <- _ _ _; reflexivity].
    apply bind_inv in E0 as (g0 & _ & E0). apply bind_inv in E0 as ([m g1] & _ & E0). destruct (rs_put rs1 g g1). injection E0 as <- _ _ _. reflexivity.
  - split; [exact A1|]. rewrite HF. cbn [ic_nfeat mult_initc] in Hn. unfold mult_nfeat in Hn.
    apply bind_inv in Hn as (a & _ & Hn). destruct (existsb _ x); [discriminate|].
    destruct (mu_trials (h_em (e_hmm e))) as [tr|] eqn:Et.
    + apply bind_inv in Hn as (b & _ & Hn). destruct b; [|discriminate]. injection Hn as _ <-. exact Et.
    + injection Hn as _ <-. reflexivity.
Qed.

(** ** GMMHMM: n_mix, covariance_type, min_covar, random_state are kept; the other
    hyper-parameters are replaced by arrays of full shape with the same values,
    None by the default of the type. *)
Definition broadcasts (a : nd) (sh : list nat) (a' : nd) : Prop := nbroadcast a sh = Ok a'.
Lemma broadcasts_again a sh a' : broadcasts a sh a' -> broadcasts a' sh a'.
Proof.
  unfold broadcasts. intros H. unfold nbroadcast in H. destruct (_ && _); [|discriminate]. injection H as <-. apply nbroadcast_same.
Qed.
Definition gmm_covar_shapes (ty : string) (nc nm nf : nat) : list nat * list nat :=
  if String.eqb ty "full" then ([nc; nm; nf; nf], [nc; nm])
  else if String.eqb ty "tied" then ([nc; nf; nf], [nc])
  else if String.eqb ty "diag" then ([nc; nm; nf], [nc; nm; nf])
  else ([nc; nm], [nc; nm]).
(** The documented defaults of covars_prior and covars_weight. *)
Definition gmm_covar_defaults (fp : fpmode) (ty : string) (nm nf : nat) : xnum * xnum :=
  if String.eqb ty "full" then (Fin 0, xsub fp (Fin 0) (xadd fp (xadd fp (Fin 1) (Fin (INR nf))) (Fin 1)))
  else if String.eqb ty "tied" then (Fin 0, xsub fp (Fin 0) (xadd fp (Fin (INR (nm + nf))) (Fin 1)))
  else if String.eqb ty "diag" then (Fin (- (3 / 2)), Fin 0)
  else (xdiv fp (xsub fp (Fin 0) (xadd fp (Fin (INR nm)) (Fin 2))) (Fin 2), Fin 0).
Definition or_default (a : option nd) (d : xnum) : nd := match a with Some a => a | None => Nd [] [d] end.
Record gmm_fixed (fp : fpmode) (nc nf : nat) (p p' : gmmp) : Prop := GmmFixed {
  gf_args : keeps_args p p';
  gf_wp : broadcasts (gm_wprior p) [nc; gm_nmix p] (gm_wprior p');
  gf_mp : broadcasts (gm_mprior p) [nc; gm_nmix p; nf] (gm_mprior p');
  gf_mw : broadcasts (gm_mweight p) [nc; gm_nmix p] (gm_mweight p');
  gf_cp : exists a, gm_cprior p' = Some a
    /\ broadcasts (or_default (gm_cprior p) (fst (gmm_covar_defaults fp (gm_type p) (gm_nmix p) nf)))
         (fst (gmm_covar_shapes (gm_type p) nc (gm_nmix p) nf)) a;
  gf_cw : exists a, gm_cweight p' = Some a
    /\ broadcasts (or_default (gm_cweight p) (snd (gmm_covar_defaults fp (gm_type p) (gm_nmix p) nf)))
         (snd (gmm_covar_shapes (gm_type p) nc (gm_nmix p) nf)) a }.
Lemma fix_priors_fixed fp nc nf p p' : is_type covariance_types (gm_type p) = true ->
  fix_priors fp nc nf p = Ok p' -> gmm_fixed fp nc nf p p'.
Proof.
  intros Hty H. pose proof (proj1 (fix_priors_keeps _ _ _ _ _ H)) as K. unfold fix_priors in H.
  apply bind_inv in H as (a1 & H1 & H). apply bind_inv in H as (a2 & H2 & H). apply bind_inv in H as (a3 & H3 & H).
  apply bind_inv in H as (a4 & H4 & H). apply bind_inv in H as (a5 & H5 & H). injection H as <-.
  assert (HD : forall (o : option nd) d s r, fix_prior (match o with Some a => Some a | None => option_map nscal (Some d) end) (Some s) = Ok r ->
     exists a, r = Some a /\ broadcasts (or_default o d) s a).
  { intros o d s r Hf. destruct o as [a|]; cbn [option_map fix_prior] in Hf; apply bind_inv in Hf as (b & Hb & Hf); injection Hf as <-;
      exists b; (split; [reflexivity|exact Hb]). }
  assert (Hor : gm_type p = "spherical"%string \/ gm_type p = "diag"%string \/ gm_type p = "full"%string \/ gm_type p = "tied"%string).
  { unfold is_type, covariance_types in Hty. cbn in Hty.
    repeat (apply orb_prop in Hty as [Hty|Hty]; [apply String.eqb_eq in Hty; auto|]). discriminate. }
  constructor; try assumption; cbn [gm_cprior gm_cweight gm_set_priors].
  - destruct Hor as [E0|[E0|[E0|E0]]]; rewrite E0 in *; apply HD; exact H4.
  - destruct Hor as [E0|[E0|[E0|E0]]]; rewrite E0 in *; apply HD; exact H5.
Qed.
Lemma gmm_fixed_again fp nc nf p p1 p2 : gmm_fixed fp nc nf p p1 -> gmm_fixed fp nc nf p1 p2 -> gmm_fixed fp nc nf p p2.
Proof.
  intros [A1 A2 A3 A4 (a & A5 & A5') (b & A6 & A6')] [B1 B2 B3 B4 (a' & B5 & B5') (b' & B6 & B6')].
  destruct A1 as (K1 & K2 & K3), B1 as (L1 & L2 & L3). rewrite K1, K2 in *. rewrite A5 in B5'. rewrite A6 in B6'. cbn [or_default] in B5', B6'.
  assert (Same : forall u s v w, broadcasts u s v -> broadcasts v s w -> broadcasts u s w).
  { intros u s v w U W. pose proof (broadcasts_again _ _ _ U) as W'. unfold broadcasts in *. congruence. }
  constructor.
  - unfold keeps_args. repeat split; congruence.
  - apply (Same _ _ _ _ A2 B2).
  - apply (Same _ _ _ _ A3 B3).
  - apply (Same _ _ _ _ A4 B4).
  - exists a'. split; [exact B5|]. apply (Same _ _ _ _ A5' B5').
  - exists b'. split; [exact B6|]. apply (Same _ _ _ _ A6' B6').
Qed.
Definition gmm_hyper_args (p : gmmp) :=
  (gm_nmix p, gm_type p, gm_min_covar p, gm_wprior p, gm_mprior p, (gm_mweight p, gm_cprior p, gm_cweight p)).
Lemma gmm_fixed_args fp nc nf p p1 p2 : gmm_hyper_args p2 = gmm_hyper_args p1 -> gmm_fixed fp nc nf p p1 -> gmm_fixed fp nc nf p p2.
Proof.
  unfold gmm_hyper_args. intros E0 [(A1 & A1' & A1'') A2 A3 A4 A5 A6]. injection E0 as E1 E2 E3 E4 E5 E6 E7 E8.
  constructor; [unfold keeps_args; repeat split; congruence| | | | |]; rewrite ?E4, ?E5, ?E6, ?E7, ?E8; assumption.
Qed.
Lemma gmm_args_init {G} (gr : grng G) fp (rg : rng G) c nf p x rs g p' rs' g' ev :
  gmm_init_em gr rg fp c nf p x rs g = Ok (p', rs', g', ev) ->
  (exists p1, fix_priors fp (c_nc c) (match nf with Some n => n | None => 0%nat end) p = Ok p1 /\ gmm_hyper_args p' = gmm_hyper_args p1)
  /\ same_random_state rs rs'.
Proof.
  unfold gmm_init_em. intros H. apply bind_inv in H as (p1 & Hp & H).
  apply bind_inv in H as ([[[labels centers] rs1] g1] & Hk & H). apply bind_inv in H as ([[ms rs2] g2] & Hms & H).
  destruct (needs_init c "w" _ _) as [nw w1]. apply bind_inv in H as (w & _ & H).
  destruct (needs_init c "m" _ _) as [nm w2]. destruct (needs_init c "c" _ _) as [nv w3].
  injection H as <- <- _ _. split; [exists p1; split; [exact Hp|reflexivity]|].
  assert (HK : forall k y r gl l m r1 gl1, kmeans gr rg k y r gl = Ok (l, m, r1, gl1) -> same_random_state r r1).
  { intros k y r gl l m r1 gl1 E0. destruct (kmeans_inv _ _ _ _ _ _ _ _ _ _ E0) as (a & b & _ & _ & Ep). apply (same_rs_put _ _ _ _ _ Ep). }
  apply (same_rs_trans _ rs1); [apply (HK _ _ _ _ _ _ _ _ Hk)|]. clear Hk.
  revert ms rs1 g1 Hms. generalize (seq 0 (c_nc c)). intros is. induction is as [|i is IH]; intros ms rs1 g1 Hms; cbn [mix_means] in Hms.
  - injection Hms as _ <- _. apply same_rs_refl.
  - apply bind_inv in Hms as ([[m r1] gl1] & Hm & Hms). apply bind_inv in Hms as ([[ms1 r2] gl2] & Hr & Hms). injection Hms as _ <- <-.
    apply (same_rs_trans _ r1); [|apply (IH _ _ _ Hr)]. destruct (Nat.leb _ _).
    + apply bind_inv in Hm as ([[[l m0] r0] g0] & Hk & Hm). injection Hm as _ <- _. apply (HK _ _ _ _ _ _ _ _ Hk).
    + apply bind_inv in Hm as ([m0 g0] & _ & Hm). injection Hm as _ <- _. apply same_rs_refl.
Qed.
Lemma C79_gmm_partial_l {G} (gr : grng G) (rg : rng G) eig fp e glob x ls e' glob' ev :
  fit (gmm eig) (gmm_initc gr) rg fp e glob x ls = Ok (e', glob', ev) ->
  let h := e_hmm e in let h' := e_hmm e' in
  h_cfg h' = h_cfg h /\ same_random_state (e_rs e) (e_rs e')
  /\ gmm_fixed fp (c_nc (h_cfg h)) (width x) (h_em h) (h_em h').
Proof.
  intros H. cbv zeta. split; [|split].
  - destruct (fit_inv _ _ _ _ _ _ _ _ _ _ _ H) as (e1 & ev1 & ev2 & _ & Hi & Hf & _).
    destruct (init_spec _ _ _ _ _ _ _ _ _ Hi) as (A1 & _). destruct (fit_from_keeps _ _ _ _ _ _ _ Hf) as (B1 & _). congruence.
  - apply (fit_random_state (gmm eig) (gmm_initc gr) rg fp) with (2 := H).
    intros c nf p y rs g p' rs' g' v E. apply (gmm_args_init gr fp rg c nf p y rs g p' rs' g' v E).
  - destruct (fit_inv _ _ _ _ _ _ _ _ _ _ _ H) as (e1 & ev1 & ev2 & _ & Hi & Hf & _).
    destruct (init_spec _ _ _ _ _ _ _ _ _ Hi) as (A1 & _ & _ & p0 & rs0 & g0 & w0 & Hn & _).
    destruct (gmm_init_inv _ _ _ _ _ _ _ _ _ Hi) as (rs & g1 & v1 & v2 & Hty & Hem & _).
    cbn [ic_nfeat gmm_initc] in Hn. destruct (gmm_nfeat_inv _ _ _ _ _ _ Hn) as [Hnf _].
    destruct (gmm_args_init _ _ _ _ _ _ _ _ _ _ _ _ _ Hem) as [(p1 & Hp1 & Ea) _].
    pose proof (gmm_fixed_args _ _ _ _ _ _ Ea (fix_priors_fixed _ _ _ _ _ Hty Hp1)) as GF1.
    unfold fit_from in Hf. set (l := match ls with None => _ | Some l => Some l end) in Hf. clearbody l.
    destruct (check (gmm eig) fp (e_hmm e1)) as [h1|] eqn:Ec; [|discriminate]. cbn [bind] in Hf.
    apply bind_inv in Hf as ([[h2 m] ev3] & El & Hf). injection Hf as Hh _. rewrite <- Hh. cbn [h_em].
    destruct (fit_loop_trace _ _ _ _ _ _ _ _ _ El) as (vs & Hit & Hm & _).
    destruct (iterate_keeps (gmm eig) fp x l _ h1 h2 vs Hit) as (_ & _ & _ & _ & _ & B6).
    assert (HF : gmm_hyper_args (h_em h2) = gmm_hyper_args (h_em h1)).
    { apply B6. intros nf p st p' Em. cbn [ec_mstep gmm] in Em. unfold gmm_mstep in Em.
      destruct (gm_weights p); [|discriminate]. destruct (gm_means p); [|discriminate].
      apply bind_inv in Em as (cv & _ & Em). injection Em as <-. reflexivity. }
    apply (gmm_fixed_args _ _ _ _ _ _ HF).
    unfold check in Ec. destruct (h_start (e_hmm e1)); [|discriminate].
    destruct (h_trans (e_hmm e1)); [|destruct (negb _); [discriminate|]; destruct (negb _); discriminate].
    apply bind_inv in Ec as ([] & _ & Ec). apply bind_inv in Ec as ([nf p3] & Hc & Ec). injection Ec as <-. cbn [h_em].
    cbn [ec_check gmm] in Hc. unfold gmm_check in Hc. rewrite Hnf, A1 in Hc. cbn [bind] in Hc.
    apply bind_inv in Hc as (p4 & Hp4 & Hc).
    assert (p4 = p3) as -> by (all_ok Hc; congruence).
    apply (gmm_fixed_again _ _ _ _ _ _ GF1). apply fix_priors_fixed; [|exact Hp4].
    destruct (gf_args _ _ _ _ _ GF1) as (_ & -> & _). exact Hty.
Qed.

(** ** The variational classes. *)
Section Vfit.
  Context {P X St G W : Type} (V : vclass P X St) (I : vinitclass P X G) (rg : rng G) (fp : fpmode) (F : P -> W).
  Hypothesis Fm : forall c nf p st p', ec_mstep (vc_em V) fp c nf p st = Ok p' -> F p' = F p.
  Hypothesis Fb : forall c nf p p', vc_begin V fp c nf p = Ok p' -> F p' = F p.
  Hypothesis Fc : forall c nf p nf' p', ec_check (vc_em V) fp c nf p = Ok (nf', p') -> F p' = F p.
  Hypothesis Fn : forall c nf p x nf' p', vi_nfeat I c nf p x = Ok (nf', p') -> F p' = F p.
  Hypothesis Fi : forall c nf p x ls rs g p' rs' g' ev, vi_em I fp rg c nf p x ls rs g = Ok (p', rs', g', ev) -> F p' = F p.
  Hypothesis Ri : forall c nf p x ls rs g p' rs' g' ev, vi_em I fp rg c nf p x ls rs g = Ok (p', rs', g', ev) -> same_random_state rs rs'.
  Definition vargs (v v' : vhmm P) : Prop :=
    v_cfg v' = v_cfg v /\ v_sarg v' = v_sarg v /\ v_targ v' = v_targ v /\ h_nfeat (v_h v') = h_nfeat (v_h v)
    /\ F (h_em (v_h v')) = F (h_em (v_h v)).
  Lemma vb_step_args x ls v v' l : vb_step V fp x ls v = Ok (v', l) -> vargs v v'.
  Proof.
    unfold vb_step. intros H. apply bind_inv in H as ([[v1 st] lp] & H1 & H). apply bind_inv in H as (lb & _ & H).
    apply bind_inv in H as (v2 & H2 & H). assert (v2 = v') as -> by congruence. clear H.
    unfold vestep in H1. apply bind_inv in H1 as (sq & _ & H1). apply bind_inv in H1 as (tq & _ & H1).
    apply bind_inv in H1 as (p & Hb & H1). apply bind_inv in H1 as ([st' lp'] & _ & H1).
    assert (with_h v (set_em (v_h v) (h_nfeat (v_h v)) p) = v1) as <- by congruence.
    unfold vmstep in H2. apply bind_inv in H2 as ([sq' s] & Hs & H2). apply bind_inv in H2 as ([tq' t] & Ht & H2).
    apply bind_inv in H2 as (p2 & Hm & H2).
    match type of H2 with Ok ?a = _ => assert (a = v') as <- by congruence end. clear H2.
    repeat (split; [reflexivity|]). cbn [v_h h_em]. rewrite (Fm _ _ _ _ _ Hm). apply (Fb _ _ _ _ Hb).
  Qed.
  Lemma vfit_args e glob x ls e' glob' ev : vfit V I rg fp e glob x ls = Ok (e', glob', ev) ->
    let v := ve_v e in let v' := ve_v e' in
    v_cfg v' = v_cfg v /\ same_random_state (ve_rs e) (ve_rs e') /\ v_sarg v' = v_sarg v /\ v_targ v' = v_targ v
    /\ F (h_em (v_h v')) = F (h_em (v_h v))
    /\ exists nf1 p1 p2 p3, vi_nfeat I (v_cfg v) (h_nfeat (v_h v)) (h_em (v_h v)) x = Ok (nf1, p1)
       /\ ec_check (vc_em V) fp (v_cfg v) nf1 p2 = Ok (h_nfeat (v_h v'), p3).
  Proof.
    intros H. cbv zeta. unfold vfit in H. apply bind_inv in H as (x' & Hx & H).
    assert (x' = x) as ->.
    { unfold check_array in Hx. destruct x; [discriminate|]. destruct (forallb _ _); [|discriminate]. now injection Hx. }
    set (l := match ls with None => _ | Some l => l end) in H. clearbody l.
    apply bind_inv in H as ([[e1 glob1] ev1] & H1 & H). apply bind_inv in H as ([v2 ev2] & H2 & H). injection H as <- _ _. cbn [ve_v ve_rs].
    assert (K1 : v_cfg (ve_v e1) = v_cfg (ve_v e) /\ same_random_state (ve_rs e) (ve_rs e1) /\ v_sarg (ve_v e1) = v_sarg (ve_v e)
      /\ v_targ (ve_v e1) = v_targ (ve_v e) /\ F (h_em (v_h (ve_v e1))) = F (h_em (v_h (ve_v e)))
      /\ exists p1, vi_nfeat I (v_cfg (ve_v e)) (h_nfeat (v_h (ve_v e))) (h_em (v_h (ve_v e))) x = Ok (h_nfeat (v_h (ve_v e1)), p1)).
    { unfold vinit in H1. apply bind_inv in H1 as ([[e2 g2] w2] & Hb & H1). apply bind_inv in H1 as ([[[p rs] g3] w3] & He & H1).
      destruct (vbase_init_inv _ _ _ _ _ _ _ _ _ _ Hb) as (A1 & A2 & A3 & A4 & _).
      assert (Hr : same_random_state (ve_rs e) (ve_rs e2)).
      { unfold vbase_init in Hb. apply bind_inv in Hb as ([nf q] & _ & Hb). destruct (Nat.eqb _ 0); [discriminate|].
        apply bind_inv in Hb as (g & _ & Hb). destruct (needs_init2 _ "s" _ _ _ _) as [ns u1].
        apply bind_inv in Hb as ([[sp sq] g4] & _ & Hb). destruct (needs_init2 _ "t" _ _ _ _) as [nt u2].
        apply bind_inv in Hb as ([[tp tq] g5] & _ & Hb). destruct (rs_put (ve_rs e) glob g5) as [r gl] eqn:Ep.
        apply bind_inv in Hb as (d & _ & Hb). apply bind_inv in Hb as (n & _ & Hb). injection Hb as <- _ _. cbn [ve_rs].
        apply (same_rs_put _ _ _ _ _ Ep). }
      injection H1 as <- _ _. cbn [ve_v ve_rs]. split; [exact A1|]. split; [apply (same_rs_trans _ _ _ Hr (Ri _ _ _ _ _ _ _ _ _ _ _ He))|].
      split; [exact A2|]. split; [exact A3|]. split.
      - cbn [with_h set_em v_h h_em]. rewrite (Fi _ _ _ _ _ _ _ _ _ _ _ He). apply (Fn _ _ _ _ _ _ A4).
      - eexists. exact A4. }
    destruct K1 as (A1 & A2 & A3 & A4 & A5 & p1 & A6).
    unfold vfit_from in H2. apply bind_inv in H2 as (v1 & Hc & H2). apply bind_inv in H2 as ([[v3 m] ev3] & H3 & H2).
    match type of H2 with Ok (?a, _) = _ => assert (a = v2) as <- by congruence end. clear H2.
    unfold vcheck in Hc. apply bind_inv in Hc as ([] & _ & Hc). apply bind_inv in Hc as ([nf p3] & Hc3 & Hc).
    match type of Hc with Ok ?a = _ => assert (a = v1) as <- by congruence end. clear Hc.
    assert (K : vargs (with_h (ve_v e1) (set_em (v_h (ve_v e1)) nf p3)) v3).
    { apply (vfit_loop_keeps fp _ _ vargs _) with (4 := H3).
      - intros o. repeat split.
      - intros a b c (B1 & B2 & B3 & B4 & B5) (C1 & C2 & C3 & C4 & C5). repeat split; congruence.
      - intros o o' u. apply vb_step_args. }
    destruct K as (B1 & B2 & B3 & B4 & B5). cbn [with_h set_em v_h h_cfg v_cfg v_sarg v_targ h_nfeat h_em] in *.
    unfold v_cfg in *. cbn [with_h set_em v_h h_cfg] in *.
    split; [congruence|]. split; [exact A2|]. split; [congruence|]. split; [congruence|]. split.
    - rewrite B5, (Fc _ _ _ _ _ Hc3). exact A5.
    - exists (h_nfeat (v_h (ve_v e1))), p1, (h_em (v_h (ve_v e1))), p3. split; [exact A6|]. rewrite B4, <- A1. exact Hc3.
  Qed.
End Vfit.

Lemma C79_vcategorical_partial_l {G} (rg : rng G) fp e glob x ls e' glob' ev :
  vfit vcategorical vcat_initc rg fp e glob x ls = Ok (e', glob', ev) ->
  let v := ve_v e in let v' := ve_v e' in
  v_cfg v' = v_cfg v /\ same_random_state (ve_rs e) (ve_rs e') /\ v_sarg v' = v_sarg v /\ v_targ v' = v_targ v
  /\ vk_arg (h_em (v_h v')) = vk_arg (h_em (v_h v))
  /\ (h_nfeat (v_h v) <> None -> h_nfeat (v_h v') = h_nfeat (v_h v)).
Proof.
  intros H. cbv zeta.
  destruct (vfit_args vcategorical vcat_initc rg fp vk_arg) with (7 := H) as (A1 & A2 & A3 & A4 & A5 & nf1 & p1 & p2 & p3 & Hn & Hc).
  - cbn [ec_mstep vc_em vcategorical]. unfold vcat_mstep. intros c nf p st p' E0. destruct (has "e" _); [|injection E0 as <-; reflexivity].
    apply bind_inv in E0 as (pr & _ & E0). injection E0 as <-. reflexivity.
  - cbn [vc_begin vcategorical]. unfold vcat_begin. intros c nf p p' E0. apply bind_inv in E0 as (pr & _ & E0). injection E0 as <-. reflexivity.
  - cbn [ec_check vc_em vcategorical]. unfold vcat_check. intros c nf p nf' p' E0.
    apply bind_inv in E0 as (pr & _ & E0). apply bind_inv in E0 as (po & _ & E0). destruct (negb _); [discriminate|].
    destruct (negb _); [discriminate|]. injection E0 as _ <-. reflexivity.
  - cbn [vi_nfeat vcat_initc]. unfold vcat_nfeat. intros c nf p y nf' p' E0. apply bind_inv in E0 as ([a b] & _ & E0). injection E0 as _ <-. reflexivity.
  - cbn [vi_em vcat_initc]. unfold vcat_init_em. intros c nf p y l rs g p' rs' g' v E0.
    apply bind_inv in E0 as (g0 & _ & E0). destruct (needs_init c "e" _ _) as [[] w]; [|injection E0 as <- _ _ _; reflexivity].
    destruct (Nat.eqb _ 0); [discriminate|]. apply bind_inv in E0 as (pr & _ & E0). apply bind_inv in E0 as (a0 & _ & E0).
    apply bind_inv in E0 as ([q g1] & _ & E0). destruct (rs_put rs g g1). injection E0 as <- _ _ _. reflexivity.
  - cbn [vi_em vcat_initc]. unfold vcat_init_em. intros c nf p y l rs g p' rs' g' v E0.
    apply bind_inv in E0 as (g0 & _ & E0). destruct (needs_init c "e" _ _) as [[] w]; [|injection E0 as _ <- _ _; apply same_rs_refl].
    destruct (Nat.eqb _ 0); [discriminate|]. apply bind_inv in E0 as (pr & _ & E0). apply bind_inv in E0 as (a0 & _ & E0).
    apply bind_inv in E0 as ([q g1] & _ & E0). destruct (rs_put rs g g1) as [r1 gl1] eqn:Ep. injection E0 as _ <- _ _. apply (same_rs_put _ _ _ _ _ Ep).
  - repeat (split; [assumption|]). intros Hs. cbn [vi_nfeat vcat_initc] in Hn. unfold vcat_nfeat, cat_nfeat in Hn.
    apply bind_inv in Hn as ([a b] & Hn & E0). injection E0 as <- _.
    destruct (Z.ltb _ 0); [discriminate|]. destruct (h_nfeat (v_h (ve_v e))) as [n|]; [|contradiction].
    destruct (Z.ltb _ _); [discriminate|]. injection Hn as <- _.
    cbn [ec_check vc_em vcategorical] in Hc. unfold vcat_check in Hc. apply bind_inv in Hc as (pr & _ & Hc). apply bind_inv in Hc as (po & _ & Hc).
    destruct (negb _); [discriminate|]. destruct (negb _); [discriminate|]. injection Hc as <- _. reflexivity.
Qed.

Definition vg_args (p : vgp) := (vg_type p, vg_marg p, vg_barg p, vg_darg p, vg_sarg p).
Lemma vg_args_init {G} (gr : grng G) fp (rg : rng G) c nf p x ls rs g p' rs' g' ev :
  vg_init_em gr fp rg c nf p x ls rs g = Ok (p', rs', g', ev) -> vg_args p' = vg_args p /\ same_random_state rs rs'.
Proof.
  unfold vg_init_em. intros H. apply bind_inv in H as ([[[labels centers] rs1] g1] & Hk & H).
  destruct (needs_any c "m" _) as [nm w1].
  destruct (if nm then _ else _) as [[[m0 m] b0] b]. destruct (needs_any c "c" _) as [ncv w2].
  apply bind_inv in H as ([[[[d0 d] s0] s] cv] & _ & H). injection H as <- <- _ _. split; [reflexivity|].
  destruct (kmeans_inv _ _ _ _ _ _ _ _ _ _ Hk) as (a & a' & _ & _ & Ep). apply (same_rs_put _ _ _ _ _ Ep).
Qed.
Lemma C79_vgaussian_l {G} la (gr : grng G) (rg : rng G) fp e glob x ls e' glob' ev :
  vfit (vgaussian la) (vg_initc gr) rg fp e glob x ls = Ok (e', glob', ev) ->
  let v := ve_v e in let v' := ve_v e' in let p := h_em (v_h v) in let p' := h_em (v_h v') in
  v_cfg v' = v_cfg v /\ same_random_state (ve_rs e) (ve_rs e') /\ v_sarg v' = v_sarg v /\ v_targ v' = v_targ v
  /\ vg_type p' = vg_type p /\ vg_marg p' = vg_marg p /\ vg_barg p' = vg_barg p /\ vg_darg p' = vg_darg p /\ vg_sarg p' = vg_sarg p.
Proof.
  intros H. cbv zeta.
  destruct (vfit_args (vgaussian la) (vg_initc gr) rg fp vg_args) with (7 := H) as (A1 & A2 & A3 & A4 & A5 & _).
  - cbn [ec_mstep vc_em vgaussian]. unfold vg_mstep. intros c nf p st p' E0.
    apply bind_inv in E0 as ([b m] & _ & E0). apply bind_inv in E0 as ([[d s] cv] & _ & E0). injection E0 as <-. reflexivity.
  - cbn [vc_begin vgaussian]. intros c nf p p' E0. injection E0 as <-. reflexivity.
  - cbn [ec_check vc_em vgaussian]. unfold vg_check. intros c nf p nf' p' E0.
    repeat (apply bind_inv in E0 as (? & _ & E0)). injection E0 as _ <-. reflexivity.
  - cbn [vi_nfeat vg_initc]. unfold vg_nfeat. intros c nf p y nf' p' E0. apply bind_inv in E0 as (a & _ & E0). injection E0 as _ <-. reflexivity.
  - intros c nf p y l rs g p' rs' g' v E0. apply (vg_args_init gr fp rg c nf p y l rs g p' rs' g' v E0).
  - intros c nf p y l rs g p' rs' g' v E0. apply (vg_args_init gr fp rg c nf p y l rs g p' rs' g' v E0).
  - unfold vg_args in A5. injection A5 as -> -> -> -> ->. repeat split; assumption.
Qed.
