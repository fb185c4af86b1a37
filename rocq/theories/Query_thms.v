(** * Property lemmas C51, C84: scoring, decoding and later training. *)
From Verif Require Export Query Warm_thms Vinit_thms.

(** ** An estimator whose [n_features] is known. *)
Lemma same_fields {P} (h : hmm P) : Hmm (h_cfg h) (h_nfeat h) (h_start h) (h_trans h) (h_mon h) (h_em h) = h.
Proof. destruct h. reflexivity. Qed.

Lemma query_id {P X St G} (E : emclass P X St) (L : leftclass P X St G) fp h :
  (forall nf p, ec_check E fp (h_cfg h) (h_nfeat h) (h_em h) = Ok (nf, p) -> nf = h_nfeat h /\ p = h_em h) ->
  (forall ex, ec_check E fp (h_cfg h) (h_nfeat h) (h_em h) = Err ex ->
    lf_check L fp (h_cfg h) (h_nfeat h) (h_em h) = (h_nfeat h, h_em h)) ->
  query E L fp h = h.
Proof.
  intros K1 K2. unfold query. destruct (h_start h) as [s|] eqn:Es; [|reflexivity].
  unfold check, check_left. rewrite Es. destruct (h_trans h) as [t|] eqn:Et.
  2: { destruct (negb _); [reflexivity|]. destruct (negb _); reflexivity. }
  destruct (base_check _ _ _ _) as [u|] eqn:Eb; [|reflexivity]. cbn [bind].
  destruct (ec_check E fp (h_cfg h) (h_nfeat h) (h_em h)) as [[nf p]|ex] eqn:Ec; cbn [bind].
  - destruct (K1 _ _ eq_refl) as [-> ->]. rewrite <- Es, <- Et. apply same_fields.
  - rewrite (K2 _ eq_refl). rewrite <- Es, <- Et. apply same_fields.
Qed.

(** A property of the emission parameters that [_check] establishes and the M-step
    keeps holds after [fit]. *)
Section Kept.
  Context {P X St G : Type} (E : emclass P X St) (I : initclass P X G) (rg : rng G) (fp : fpmode).
  Variable Inv : cfg -> option nat -> P -> Prop.
  Hypothesis K1 : forall c nf p nf' p', ec_check E fp c nf p = Ok (nf', p') -> Inv c nf' p'.
  Hypothesis K2 : forall h s t x ls st lp p', Inv (h_cfg h) (h_nfeat h) (h_em h) ->
    do_estep E fp h s t x ls = Ok (st, lp) -> ec_mstep E fp (h_cfg h) (h_nfeat h) (h_em h) (st_em st) = Ok p' -> Inv (h_cfg h) (h_nfeat h) p'.
  Lemma step_keeps x ls h h' lb : Inv (h_cfg h) (h_nfeat h) (h_em h) -> em_step E fp x ls h = Ok (h', lb) -> Inv (h_cfg h') (h_nfeat h') (h_em h').
  Proof.
    intros Hi H. unfold em_step in H. destruct (h_start h) as [s|]; [|discriminate]. destruct (h_trans h) as [t|]; [|discriminate].
    apply bind_inv in H as ([st lp] & Hs & H). unfold do_mstep in H. apply bind_inv in H as (h2 & Hm & H). injection H as <- _.
    apply bind_inv in Hm as (p & Hm & Eh). injection Eh as <-. cbn [h_cfg h_nfeat h_em]. apply (K2 _ _ _ _ _ _ _ _ Hi Hs Hm).
  Qed.
  Lemma loop_keeps x ls n : forall h m h' m' ev, Inv (h_cfg h) (h_nfeat h) (h_em h) ->
    fit_loop fp (em_step E fp x ls) (zero_rows fp) n h m = Ok (h', m', ev) -> Inv (h_cfg h') (h_nfeat h') (h_em h').
  Proof.
    induction n as [|n IH]; intros h m h' m' ev Hi H; cbn [fit_loop] in H; [injection H as <- _ _; exact Hi|].
    apply bind_inv in H as ([h1 lb] & H1 & H). pose proof (step_keeps _ _ _ _ _ Hi H1) as Hi1.
    destruct (monitor_report fp m lb) as [m1 ev1]. destruct (converged fp m1); [injection H as <- _ _; exact Hi1|].
    apply bind_inv in H as ([[h2 m2] ev2] & H2 & H). injection H as <- _ _. apply (IH _ _ _ _ _ Hi1 H2).
  Qed.
  Lemma fit_keeps e glob x ls e' g' ev : fit E I rg fp e glob x ls = Ok (e', g', ev) ->
    let h := e_hmm e' in Inv (h_cfg h) (h_nfeat h) (h_em h).
  Proof.
    intros H. destruct (fit_inv _ _ _ _ _ _ _ _ _ _ _ H) as (e1 & ev1 & ev2 & _ & _ & Hf & _ & _).
    unfold fit_from in Hf. apply bind_inv in Hf as (h1 & Hc & Hf). apply bind_inv in Hf as ([[h2 m] ev3] & Hl & Hf).
    injection Hf as Hf _. cbv zeta. rewrite <- Hf. cbn [h_cfg h_nfeat h_em]. refine (loop_keeps _ _ _ _ _ _ _ _ _ Hl).
    destruct (check_fields E fp _ _ Hc) as (F1 & _ & _ & _ & F5). rewrite F1. apply (K1 _ _ _ _ _ F5).
  Qed.
End Kept.

(** What is said of a class: an estimator whose [n_features] is known, and in
    particular one that has been fitted, is not changed by a query. *)
Definition queries_harmless {P X St G} (E : emclass P X St) (I : initclass P X G) (L : leftclass P X St G)
    (rg : rng G) fp : Prop :=
  (forall h, h_nfeat h <> None -> query E L fp h = h)
  /\ (forall e glob x ls e' g' ev, fit E I rg fp e glob x ls = Ok (e', g', ev) -> queried E L fp e' = e').

Lemma harmless_by_nf {P X St G} (E : emclass P X St) (I : initclass P X G) (L : leftclass P X St G) (rg : rng G) fp :
  (forall c nf p nf' p', nf <> None -> ec_check E fp c nf p = Ok (nf', p') -> nf' = nf /\ p' = p) ->
  (forall c nf p, nf <> None -> lf_check L fp c nf p = (nf, p)) ->
  (forall c nf p nf' p', ec_check E fp c nf p = Ok (nf', p') -> nf' <> None) ->
  queries_harmless E I L rg fp.
Proof.
  intros H1 H2 H3. assert (Q : forall h, h_nfeat h <> None -> query E L fp h = h).
  { intros h Hh. apply query_id; intros; [apply (H1 _ _ _ _ _ Hh H)|apply H2, Hh]. }
  split; [exact Q|]. intros e glob x ls e' g' ev H. unfold queried. rewrite Q; [destruct e'; reflexivity|].
  exact (fit_keeps E I rg fp (fun _ nf _ => nf <> None) H3 (fun _ _ _ _ _ _ _ _ Hi _ _ => Hi) _ _ _ _ _ _ _ H).
Qed.
Lemma C84_categorical_l {G} (rg : rng G) fp : queries_harmless categorical cat_initc cat_left rg fp.
Proof.
  apply harmless_by_nf; cbn [ec_check categorical cat_left lf_check].
  - intros c nf p nf' p' Hn. destruct nf as [n|]; [|contradiction]. unfold cat_check. intros H. all_ok H. injection H as <- <-. auto.
  - intros c nf p Hn. destruct nf as [n|]; [|contradiction]. destruct (cat_prob p); reflexivity.
  - intros c nf p nf' p'. unfold cat_check. intros H. all_ok H; injection H as <- <-; discriminate.
Qed.
Lemma C84_poisson_l {G} (rg : rng G) fp : queries_harmless poisson pois_initc pois_left rg fp.
Proof.
  apply harmless_by_nf; cbn [ec_check poisson pois_left lf_check].
  - intros c nf p nf' p' Hn. destruct nf as [n|]; [|contradiction]. unfold pois_check. intros H. all_ok H. injection H as <- <-. auto.
  - reflexivity.
  - intros c nf p nf' p'. unfold pois_check. intros H. all_ok H; injection H as <- <-; discriminate.
Qed.
Lemma C84_multinomial_l {G} (rg : rng G) fp : queries_harmless multinomial mult_initc mult_left rg fp.
Proof.
  apply harmless_by_nf; cbn [ec_check multinomial mult_left lf_check].
  - intros c nf p nf' p' Hn. destruct nf as [n|]; [|contradiction]. unfold mult_check. intros H. all_ok H; injection H as <- <-; auto.
  - intros c nf p Hn. destruct nf as [n|]; [|contradiction]. destruct (mu_prob p); [|reflexivity]. destruct (_ && _); reflexivity.
  - intros c nf p nf' p'. unfold mult_check. intros H. all_ok H; injection H as <- <-; discriminate.
Qed.

(** ** GaussianHMM: every query takes [n_features] from [means_]. *)
Lemma bdim_scal n k : bdim 1 n = Ok k -> k = n.
Proof. unfold bdim. destruct (Nat.eqb_spec 1 n) as [<-|]; [intros H; injection H as <-; reflexivity|]. cbn. intros H. injection H as <-. reflexivity. Qed.
Lemma bdim_scal' n k : bdim n 1 = Ok k -> k = n.
Proof.
  unfold bdim. destruct (Nat.eqb_spec n 1) as [->|]; [intros H; injection H as <-; reflexivity|]. cbn. intros H. injection H as <-. reflexivity.
Qed.
Lemma gauss_means_ncol fp p st m a b : ga_mweight p = Scal a -> ga_mprior p = Scal b -> gauss_means fp p st = Ok m -> ncol m = ncol (gs_obs st).
Proof.
  intros Ha Hb H. unfold gauss_means in H. rewrite Ha, Hb in H. cbn [pmat] in H. cbv zeta in H.
  apply bind_inv in H as (m1 & H1 & H). apply bind_inv in H as (m2 & H2 & H). apply bind_inv in H as (m3 & H3 & H).
  assert (B : forall f u v w, b2 f u v = Ok w -> exists k, bdim (ncol u) (ncol v) = Ok k /\ ncol w = k).
  { intros f u v w Hw. unfold b2 in Hw. apply bind_inv in Hw as (r & _ & Hw). apply bind_inv in Hw as (k & Hk & Hw). injection Hw as <-. exists k. split; [exact Hk|reflexivity]. }
  destruct (B _ _ _ _ H1) as (k1 & K1 & N1). destruct (B _ _ _ _ H2) as (k2 & K2 & N2). destruct (B _ _ _ _ H3) as (k3 & K3 & N3). destruct (B _ _ _ _ H) as (k4 & K4 & N4).
  cbn [ncol col_of] in K1, K3. apply bdim_scal in K1. apply bdim_scal in K3. rewrite N1, K1 in K2. apply bdim_scal in K2.
  rewrite N2, K2, N3, K3 in K4. apply bdim_scal' in K4. rewrite N4, K4. reflexivity.
Qed.
Lemma gauss_acc_ncol fp c nf p st x post st' : gauss_acc fp c nf p st x post = Ok st' -> ncol (gs_obs st') = ncol (gs_obs st).
Proof.
  unfold gauss_acc. intros H. apply bind_inv in H as (st1 & H1 & H).
  assert (E1 : ncol (gs_obs st1) = ncol (gs_obs st)).
  { destruct (has "m" _); [|injection H1 as <-; reflexivity]. apply bind_inv in H1 as (o & Ho & H1). injection H1 as <-. cbn [gs_obs].
    unfold iadd in Ho. all_ok Ho; injection Ho as <-; reflexivity. }
  rewrite <- E1. destruct (has "c" _); [|injection H as <-; reflexivity].
  destruct (vec_type _); [apply bind_inv in H as (o & _ & H); injection H as <-; reflexivity|].
  destruct (mat_type _); [apply bind_inv in H as (o & _ & H); injection H as <-; reflexivity|]. injection H as <-. reflexivity.
Qed.
Lemma gauss_estep_ncol fp (h : hmm gaussp) s t x ls st lp n : h_nfeat h = Some n -> do_estep gaussian fp h s t x ls = Ok (st, lp) -> ncol (gs_obs (st_em st)) = n.
Proof.
  intros Hn H. unfold do_estep in H. destruct (_ || _); [|discriminate]. apply bind_inv in H as (xs & _ & H).
  assert (L : forall l st0 lp0 st1 lp1, estep_loop gaussian fp h s t st0 lp0 l = Ok (st1, lp1) -> ncol (gs_obs (st_em st1)) = ncol (gs_obs (st_em st0))).
  { induction l as [|y l IH]; intros st0 lp0 st1 lp1 Hl; cbn [estep_loop] in Hl; [injection Hl as <- _; reflexivity|].
    apply bind_inv in Hl as ([st2 lp2] & Hs & Hl). rewrite (IH _ _ _ _ Hl). unfold estep_seq in Hs.
    apply bind_inv in Hs as (li & _ & Hs). apply bind_inv in Hs as ([[[[lat lp3] post] fwd] bwd] & _ & Hs).
    apply bind_inv in Hs as ([[no sta] tra] & _ & Hs). apply bind_inv in Hs as (em & Hem & Hs). injection Hs as <- _. cbn [st_em].
    cbn [ec_acc gaussian] in Hem. apply (gauss_acc_ncol _ _ _ _ _ _ _ _ Hem). }
  rewrite (L _ _ _ _ _ H). unfold stats0. cbn [st_em ec_stats0 gaussian gauss_stats0 gs_obs]. rewrite Hn. reflexivity.
Qed.
Lemma gauss_query_id {G} fp (h : hmm gaussp) : (forall m, ga_means (h_em h) = Some m -> h_nfeat h = Some (ncol m)) -> query gaussian (gauss_left (G := G)) fp h = h.
Proof.
  intros Hm. apply query_id; cbn [ec_check gaussian gauss_left lf_check].
  - intros nf p. unfold gauss_check. destruct (ga_means (h_em h)) as [m|]; [|discriminate]. rewrite (Hm m eq_refl). intros H. all_ok H. injection H as <- <-. auto.
  - intros ex _. destruct (ga_means (h_em h)) as [m|]; [|reflexivity]. rewrite (Hm m eq_refl). reflexivity.
Qed.
Lemma C84_gaussian_l {G} (rg : rng G) fp :
  (forall h m, ga_means (h_em h) = Some m -> h_nfeat h = Some (ncol m) -> query gaussian (gauss_left (G := G)) fp h = h)
  /\ (forall e glob x ls e' g' ev a b, ga_mweight (h_em (e_hmm e)) = Scal a -> ga_mprior (h_em (e_hmm e)) = Scal b ->
      fit gaussian gauss_initc rg fp e glob x ls = Ok (e', g', ev) -> queried gaussian gauss_left fp e' = e').
Proof.
  split.
  - intros h m Em En. apply gauss_query_id. intros m' H. congruence.
  - intros e glob x ls e' g' ev a b Ha Hb H. unfold queried. rewrite gauss_query_id; [destruct e'; reflexivity|].
    destruct (C79_gaussian_l _ _ _ _ _ _ _ _ _ H) as (_ & _ & _ & _ & A1 & A2 & _).
    assert (F : let h := e_hmm e' in h_nfeat h <> None /\ forall a b, ga_mweight (h_em h) = Scal a -> ga_mprior (h_em h) = Scal b ->
                  forall m, ga_means (h_em h) = Some m -> h_nfeat h = Some (ncol m)).
    { refine (fit_keeps gaussian gauss_initc rg fp
        (fun _ nf p => nf <> None /\ forall a b, ga_mweight p = Scal a -> ga_mprior p = Scal b -> forall m, ga_means p = Some m -> nf = Some (ncol m)) _ _ _ _ _ _ _ _ _ H).
      - intros c nf p nf' p'. cbn [ec_check gaussian]. unfold gauss_check. destruct (ga_means p) as [m|] eqn:Em; [|discriminate].
        intros Hc. all_ok Hc. injection Hc as <- <-. split; [discriminate|]. intros _ _ _ _ m' Hm'. congruence.
      - intros h s t y l st lp p' (Hn & Hi) Hs Hm. split; [exact Hn|]. intros a0 b0 Ha0 Hb0 m Em. cbn [ec_mstep gaussian] in Hm. unfold gauss_mstep in Hm.
        apply bind_inv in Hm as (mm & Hmm & Hm). apply bind_inv in Hm as (cv & _ & Hm). injection Hm as <-. cbn [ga_set ga_means ga_mweight ga_mprior] in *. subst mm.
        destruct (has "m" _).
        + apply bind_inv in Hmm as (q & Hq & Hmm). injection Hmm as <-. rewrite (gauss_means_ncol _ _ _ _ _ _ Ha0 Hb0 Hq).
          destruct (h_nfeat h) as [n|] eqn:En; [|contradiction]. rewrite (gauss_estep_ncol _ _ _ _ _ _ _ _ _ En Hs). reflexivity.
        + injection Hmm as Hmm. apply (Hi _ _ Ha0 Hb0 _ Hmm). }
    destruct F as [_ F]. apply (F a b); [rewrite A2; exact Ha|rewrite A1; exact Hb].
Qed.

(** ** GMMHMM: the priors get their full shapes in the first query. *)
Lemma gmm_query_id {G} eig (gr : grng G) fp (h : hmm gmmp) n : h_nfeat h = Some n -> fix_priors fp (c_nc (h_cfg h)) n (h_em h) = Ok (h_em h) ->
  query (gmm eig) (gmm_left gr) fp h = h.
Proof.
  intros Hn Hp. apply query_id; cbn [ec_check gmm gmm_left lf_check].
  - intros nf p. unfold gmm_check. rewrite Hn. cbn [bind]. rewrite Hp. cbn [bind]. intros H. all_ok H; injection H as <- <-; auto.
  - intros ex _. unfold gmm_check_left. rewrite Hn, Hp. reflexivity.
Qed.
Lemma gmm_check_fixed eig fp c nf p nf' p' : ec_check (gmm eig) fp c nf p = Ok (nf', p') -> exists n, nf' = Some n /\ fix_priors fp (c_nc c) n p' = Ok p'.
Proof.
  cbn [ec_check gmm]. intros H. unfold gmm_check in H.
  apply bind_inv in H as (n & _ & H). apply bind_inv in H as (q & Hq & H). destruct (negb _); [discriminate|].
  destruct (gm_weights p); [|discriminate]. destruct (negb _); [discriminate|]. destruct (negb _); [discriminate|].
  destruct (gm_means p); [|discriminate]. destruct (negb _); [discriminate|]. destruct (gm_covars p); [|discriminate].
  destruct (cprior_shape _ _ _ _); [|discriminate]. destruct (negb _); [discriminate|]. apply bind_inv in H as ([] & _ & H). injection H as <- <-.
  exists n. split; [reflexivity|]. rewrite <- (gm_set_same q). apply (fix_priors_again _ _ _ _ _ _ _ _ Hq).
Qed.
Lemma C84_gmm_l {G} eig (gr : grng G) (rg : rng G) fp :
  (forall h h', h_start h <> None -> check (gmm eig) fp h = Ok h' -> query (gmm eig) (gmm_left gr) fp h = h' /\ query (gmm eig) (gmm_left gr) fp h' = h')
  /\ (forall e glob x ls e' g' ev, fit (gmm eig) (gmm_initc gr) rg fp e glob x ls = Ok (e', g', ev) -> queried (gmm eig) (gmm_left gr) fp e' = e').
Proof.
  split.
  - intros h h' Hs Hc. split; [unfold query; rewrite Hc; destruct (h_start h); [reflexivity|contradiction]|].
    destruct (check_fields _ _ _ _ Hc) as (F1 & _ & _ & _ & F5). destruct (gmm_check_fixed _ _ _ _ _ _ _ F5) as (n & Hn & Hp).
    apply (gmm_query_id eig gr fp h' n Hn). rewrite F1. exact Hp.
  - intros e glob x ls e' g' ev H.
    assert (F : let h := e_hmm e' in exists n, h_nfeat h = Some n /\ fix_priors fp (c_nc (h_cfg h)) n (h_em h) = Ok (h_em h)).
    { refine (fit_keeps (gmm eig) (gmm_initc gr) rg fp (fun c nf p => exists n, nf = Some n /\ fix_priors fp (c_nc c) n p = Ok p)
                (gmm_check_fixed eig fp) _ _ _ _ _ _ _ _ H).
      intros h s t y l st lp p' (n & Hn & Hp) _ Hm. exists n. split; [exact Hn|]. cbn [ec_mstep gmm] in Hm. unfold gmm_mstep in Hm.
      destruct (gm_weights _); [|discriminate]. destruct (gm_means _); [|discriminate]. apply bind_inv in Hm as (cv & _ & Hm). injection Hm as <-.
      apply (fix_priors_again _ _ _ _ _ _ _ _ Hp). }
    destruct F as (n & Hn & Hp). unfold queried. rewrite (gmm_query_id eig gr fp _ n Hn Hp). destruct e'. reflexivity.
Qed.

(** ** The variational classes. *)
Section Variational.
  Context {P X St G : Type} (V : vclass P X St) (I : vinitclass P X G) (rg : rng G) (fp : fpmode).
  Variable left : cfg -> option nat -> P -> option nat.
  Hypothesis C1 : forall c nf p nf' p', nf <> None -> ec_check (vc_em V) fp c nf p = Ok (nf', p') -> nf' = nf /\ p' = p.
  Hypothesis C2 : forall c nf p, nf <> None -> left c nf p = nf.
  Hypothesis C3 : forall c nf p nf' p', ec_check (vc_em V) fp c nf p = Ok (nf', p') -> nf' <> None.
  Lemma with_same (v : vhmm P) : with_h v (set_em (v_h v) (h_nfeat (v_h v)) (h_em (v_h v))) = v.
  Proof. destruct v as [[] ? ? ? ? ? ?]. reflexivity. Qed.
  Lemma vquery_id v : h_nfeat (v_h v) <> None -> vquery V left fp v = v.
  Proof.
    intros Hn. unfold vquery. destruct (h_start (v_h v)); [|reflexivity]. unfold vcheck.
    destruct (if vc_super_check V then vbase_check v else Ok tt) as [[]|]; [|reflexivity]. cbn [bind].
    destruct (ec_check _ _ _ _ _) as [[nf p]|] eqn:Ec; cbn [bind].
    - destruct (C1 _ _ _ _ _ Hn Ec) as [-> ->]. apply with_same.
    - rewrite (C2 _ _ _ Hn). apply with_same.
  Qed.
  Lemma vfit_nf e glob x ls e' g' ev : vfit V I rg fp e glob x ls = Ok (e', g', ev) -> h_nfeat (v_h (ve_v e')) <> None.
  Proof.
    unfold vfit. intros H. apply bind_inv in H as (x' & _ & H). apply bind_inv in H as ([[e1 g1] ev1] & _ & H).
    apply bind_inv in H as ([v2 ev2] & Hf & H). injection H as <- _ _. cbn [ve_v]. unfold vfit_from in Hf.
    apply bind_inv in Hf as (v1 & Hc & Hf). apply bind_inv in Hf as ([[v3 m] ev3] & Hl & Hf). injection Hf as <- _. cbn [with_h v_h h_nfeat].
    assert (H1 : h_nfeat (v_h v1) <> None).
    { unfold vcheck in Hc. apply bind_inv in Hc as ([] & _ & Hc). apply bind_inv in Hc as ([nf p] & Hc & Ev). injection Ev as <-. cbn [with_h v_h set_em h_nfeat]. apply (C3 _ _ _ _ _ Hc). }
    assert (St1 : forall v v' lb, vb_step V fp x' (Some (match ls with None => [Z.of_nat (length x')] | Some l => l end)) v = Ok (v', lb) -> h_nfeat (v_h v') = h_nfeat (v_h v)).
    { intros v v' lb Hs. unfold vb_step in Hs. apply bind_inv in Hs as ([[v4 st] lp] & He & Hs). apply bind_inv in Hs as (lb' & _ & Hs). apply bind_inv in Hs as (v5 & Hm & Hs). injection Hs as <- _.
      unfold vestep in He. apply bind_inv in He as (sq & _ & He). apply bind_inv in He as (tq & _ & He). apply bind_inv in He as (p & _ & He). apply bind_inv in He as ([st' lp'] & _ & He). injection He as <- _ _.
      unfold vmstep in Hm. apply bind_inv in Hm as ([q s] & _ & Hm). apply bind_inv in Hm as ([q' t] & _ & Hm). apply bind_inv in Hm as (p' & _ & Hm). injection Hm as <-. reflexivity. }
    clear Hc. revert Hl. generalize (monitor_reset (h_mon (v_h v1))). generalize (c_n_iter (v_cfg v1)). intros n. revert v1 H1 m v3 ev3.
    induction n as [|n IH]; intros v1 H1 m v3 ev3 m0 Hl; cbn [vfit_loop] in Hl; [injection Hl as <- _ _; exact H1|].
    apply bind_inv in Hl as ([v4 lb] & Hs & Hl). apply St1 in Hs. rewrite <- Hs in H1.
    destruct (monitor_report fp m0 lb) as [m1 w]. destruct (converged fp m1); [injection Hl as <- _ _; exact H1|].
    apply bind_inv in Hl as (z & _ & Hl). apply bind_inv in Hl as ([[v5 m5] ev5] & Hl & Ee). injection Ee as <- _ _. apply (IH _ H1 _ _ _ _ Hl).
  Qed.
End Variational.
Definition vqueries_harmless {P X St G} (V : vclass P X St) (I : vinitclass P X G) left (rg : rng G) fp : Prop :=
  (forall v, h_nfeat (v_h v) <> None -> vquery V left fp v = v)
  /\ (forall e glob x ls e' g' ev, vfit V I rg fp e glob x ls = Ok (e', g', ev) -> vqueried V left fp e' = e').
Lemma vharmless {P X St G} (V : vclass P X St) (I : vinitclass P X G) left (rg : rng G) fp :
  (forall c nf p nf' p', nf <> None -> ec_check (vc_em V) fp c nf p = Ok (nf', p') -> nf' = nf /\ p' = p) ->
  (forall c nf p, nf <> None -> left c nf p = nf) ->
  (forall c nf p nf' p', ec_check (vc_em V) fp c nf p = Ok (nf', p') -> nf' <> None) -> vqueries_harmless V I left rg fp.
Proof.
  intros C1 C2 C3. split; [intros v; apply (vquery_id V fp left C1 C2)|].
  intros e glob x ls e' g' ev H. unfold vqueried. rewrite (vquery_id V fp left C1 C2); [destruct e'; reflexivity|].
  apply (vfit_nf V I rg fp C3 _ _ _ _ _ _ _ H).
Qed.
Lemma C84_vcategorical_l {G} (rg : rng G) fp : vqueries_harmless vcategorical vcat_initc vcat_nf_left rg fp.
Proof.
  apply vharmless; cbn [vc_em vcategorical ec_check].
  - intros c nf p nf' p' Hn. destruct nf as [n|]; [|contradiction]. unfold vcat_check. intros H. all_ok H. injection H as <- <-. auto.
  - intros c nf p Hn. destruct nf; [reflexivity|contradiction].
  - intros c nf p nf' p'. unfold vcat_check. intros H. all_ok H; injection H as <- <-; discriminate.
Qed.
Lemma C84_vgaussian_l {G} la km (rg : rng G) fp : vqueries_harmless (vgaussian la) (vg_initc km) vg_nf_left rg fp.
Proof.
  apply vharmless; cbn [vc_em vgaussian ec_check].
  - intros c nf p nf' p' Hn. unfold vg_check. cbv zeta. intros H. all_ok H. injection H as <- <-. auto.
  - reflexivity.
  - intros c nf p nf' p'. unfold vg_check. cbv zeta. intros H. apply bind_inv in H as ([] & _ & H). apply bind_inv in H as (n & Hn & H). destruct nf; [|discriminate]. all_ok H. injection H as <- <-. discriminate.
Qed.
