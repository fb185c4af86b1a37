(** * Property lemmas C51, C84: repeated queries; queries before the first fit. *)
From Verif Require Export Query_thms.

(** ** C51: a second query finds what the first found, whatever the first did. *)
Definition repeatable {P X St G} (E : emclass P X St) (L : leftclass P X St G) fp : Prop :=
  forall h, let h' := query E L fp h in
  h_cfg h' = h_cfg h /\ h_start h' = h_start h /\ h_trans h' = h_trans h /\ h_mon h' = h_mon h
  /\ query E L fp h' = h'
  /\ (forall x ls, score E fp h' x ls = score E fp h x ls)
  /\ (forall x ls, score_samples E fp h' x ls = score_samples E fp h x ls)
  /\ (forall x ls, predict_proba E fp h' x ls = predict_proba E fp h x ls)
  /\ (forall x ls alg, decode E fp h' x ls alg = decode E fp h x ls alg)
  /\ (forall x ls, predict E fp h' x ls = predict E fp h x ls).

Section Repeat.
  Context {P X St G : Type} (E : emclass P X St) (L : leftclass P X St G) (fp : fpmode).
  Hypothesis S1 : forall c nf p nf' p', ec_check E fp c nf p = Ok (nf', p') -> ec_check E fp c nf' p' = Ok (nf', p').
  Hypothesis S2 : forall c nf p ex nf' p', ec_check E fp c nf p = Err ex -> lf_check L fp c nf p = (nf', p') ->
    ec_check E fp c nf' p' = Err ex /\ lf_check L fp c nf' p' = (nf', p').
  Lemma query_again h : let h' := query E L fp h in
    h_cfg h' = h_cfg h /\ h_start h' = h_start h /\ h_trans h' = h_trans h /\ h_mon h' = h_mon h
    /\ query E L fp h' = h' /\ fitted_check E fp h' = fitted_check E fp h.
  Proof.
    cbv zeta. assert (Same : query E L fp h = h -> let h' := query E L fp h in h_cfg h' = h_cfg h /\ h_start h' = h_start h /\ h_trans h' = h_trans h /\ h_mon h' = h_mon h
      /\ query E L fp h' = h' /\ fitted_check E fp h' = fitted_check E fp h).
    { cbv zeta. intros Q. rewrite !Q. repeat split; reflexivity. }
    destruct (h_start h) as [s|] eqn:Es.
    2: { apply Same. unfold query. rewrite Es. reflexivity. }
    destruct (h_trans h) as [t|] eqn:Et.
    2: { apply Same. assert (Hc : exists ex, check E fp h = Err ex). { unfold check. rewrite Es, Et. destruct (negb _); [eexists; reflexivity|]. destruct (negb _); eexists; reflexivity. }
         destruct Hc as [ex Hc]. unfold query. rewrite Es, Hc. unfold check_left. rewrite Es, Et. reflexivity. }
    destruct (base_check fp (c_nc (h_cfg h)) s t) as [u|ex] eqn:Eb.
    2: { apply Same. assert (Hc : check E fp h = Err ex) by (unfold check; rewrite Es, Et, Eb; reflexivity).
         unfold query. rewrite Es, Hc. unfold check_left. rewrite Es, Et, Eb. reflexivity. }
    clear Same. rewrite <- Es, <- Et.
    assert (Hc : check E fp h = do (nf, p) <- ec_check E fp (h_cfg h) (h_nfeat h) (h_em h); Ok (Hmm (h_cfg h) nf (h_start h) (h_trans h) (h_mon h) p)).
    { unfold check. rewrite Es, Et, Eb. reflexivity. }
    destruct (ec_check E fp (h_cfg h) (h_nfeat h) (h_em h)) as [[nf p]|ex] eqn:Ec; cbn [bind] in Hc.
    - assert (Q : query E L fp h = Hmm (h_cfg h) nf (h_start h) (h_trans h) (h_mon h) p) by (unfold query; rewrite Es, Hc, Es; reflexivity).
      rewrite Q. cbn [h_cfg h_start h_trans h_mon]. do 4 (split; [auto|]).
      assert (Hc2 : check E fp (Hmm (h_cfg h) nf (h_start h) (h_trans h) (h_mon h) p) = Ok (Hmm (h_cfg h) nf (h_start h) (h_trans h) (h_mon h) p)).
      { unfold check. cbn [h_cfg h_start h_trans h_mon h_nfeat h_em]. rewrite Es, Et, Eb. cbn [bind]. rewrite (S1 _ _ _ _ _ Ec). reflexivity. }
      split; [unfold query; rewrite Hc2; cbn [h_start]; rewrite Es; reflexivity|]. unfold fitted_check. rewrite Hc2, Hc. cbn [h_start]. rewrite Es. reflexivity.
    - destruct (lf_check L fp (h_cfg h) (h_nfeat h) (h_em h)) as [nf p] eqn:El. destruct (S2 _ _ _ _ _ _ Ec El) as [T1 T2].
      assert (Hl : check_left L fp h = Hmm (h_cfg h) nf (h_start h) (h_trans h) (h_mon h) p) by (unfold check_left; rewrite Es, Et, Eb, El; reflexivity).
      assert (Q : query E L fp h = Hmm (h_cfg h) nf (h_start h) (h_trans h) (h_mon h) p) by (unfold query; rewrite Hc, Hl, Es; reflexivity).
      rewrite Q. cbn [h_cfg h_start h_trans h_mon]. do 4 (split; [auto|]).
      assert (Hc2 : check E fp (Hmm (h_cfg h) nf (h_start h) (h_trans h) (h_mon h) p) = Err ex).
      { unfold check. cbn [h_cfg h_start h_trans h_mon h_nfeat h_em]. rewrite Es, Et, Eb. cbn [bind]. rewrite T1. reflexivity. }
      split.
      + unfold query. rewrite Hc2. cbn [h_start]. rewrite Es. unfold check_left. cbn [h_cfg h_start h_trans h_mon h_nfeat h_em]. rewrite Et, Eb, T2. reflexivity.
      + unfold fitted_check. rewrite Hc2, Hc. cbn [h_start]. rewrite Es. reflexivity.
  Qed.
  Lemma repeatable_by : repeatable E L fp.
  Proof.
    intros h. cbv zeta. destruct (query_again h) as (H1 & H2 & H3 & H4 & H5 & H6). set (h' := query E L fp h) in *.
    assert (HS : forall x ls post, score_ E fp h' x ls post = score_ E fp h x ls post).
    { intros x ls post. unfold score_. rewrite H6, H1. reflexivity. }
    assert (HD : forall x ls alg, decode E fp h' x ls alg = decode E fp h x ls alg).
    { intros x ls alg. unfold decode. rewrite H6, H1. reflexivity. }
    do 5 (split; [assumption|]). repeat split; intros.
    - unfold score. rewrite HS. reflexivity.
    - unfold score_samples. apply HS.
    - unfold predict_proba, score_samples. rewrite HS. reflexivity.
    - apply HD.
    - unfold predict. rewrite HD. reflexivity.
  Qed.
End Repeat.

(** What the queries leave of the emission parameters. *)
Lemma C51_categorical_again_l {G} fp : repeatable categorical (cat_left (G := G)) fp
  /\ forall h, h_em (query categorical (cat_left (G := G)) fp h) = h_em h.
Proof.
  split.
  - apply repeatable_by; [apply cat_stable|]. cbn [ec_check categorical cat_left lf_check]. intros c nf p ex nf' p' H Hl.
    unfold cat_check in *. destruct (cat_prob p) as [m|] eqn:Em.
    + destruct nf as [n|]; injection Hl as <- <-; rewrite Em; auto.
    + assert (nf' = nf /\ p' = p) as [-> ->] by (destruct nf; injection Hl as <- <-; auto). rewrite Em. auto.
  - intros h. unfold query. destruct (h_start h) eqn:Es; [|reflexivity]. destruct (check categorical fp h) as [h'|] eqn:Hc.
    + destruct (check_fields _ _ _ _ Hc) as (_ & _ & _ & _ & F). apply cat_check_same in F. apply F.
    + unfold check_left. rewrite Es. destruct (h_trans h); [|reflexivity]. destruct (base_check _ _ _ _); [|reflexivity].
      cbn [lf_check cat_left]. destruct (cat_prob _); [|reflexivity]. destruct (h_nfeat h); reflexivity.
Qed.
Lemma C51_poisson_again_l {G} fp : repeatable poisson (pois_left (G := G)) fp
  /\ forall h, h_em (query poisson (pois_left (G := G)) fp h) = h_em h.
Proof.
  assert (K : forall c nf p nf' p', pois_check fp c nf p = Ok (nf', p') -> p' = p /\ pois_check fp c nf' p' = Ok (nf', p')).
  { intros c nf p nf' p'. unfold pois_check. destruct (po_lam p) as [m|] eqn:Em; [|discriminate].
    destruct (negb _) eqn:En; [discriminate|]. intros H. injection H as <- <-. rewrite Em, En. auto. }
  split.
  - apply repeatable_by; cbn [ec_check poisson pois_left lf_check]; [intros; eapply K; eassumption|].
    intros c nf p ex nf' p' H Hl. injection Hl as <- <-. auto.
  - intros h. unfold query. destruct (h_start h) eqn:Es; [|reflexivity]. destruct (check poisson fp h) as [h'|] eqn:Hc.
    + destruct (check_fields _ _ _ _ Hc) as (_ & _ & _ & _ & F). apply K in F. apply F.
    + unfold check_left. rewrite Es. destruct (h_trans h); [|reflexivity]. destruct (base_check _ _ _ _); reflexivity.
Qed.
Lemma C51_multinomial_again_l {G} fp : repeatable multinomial (mult_left (G := G)) fp
  /\ forall h, h_em (query multinomial (mult_left (G := G)) fp h) = h_em h.
Proof.
  assert (K : forall c nf p nf' p', mult_check fp c nf p = Ok (nf', p') -> p' = p /\ mult_check fp c nf' p' = Ok (nf', p')).
  { intros c nf p nf' p'. unfold mult_check. destruct (mu_prob p) as [m|] eqn:Em; [|discriminate].
    destruct (negb _) eqn:En; [discriminate|]. destruct (mu_trials p) eqn:Et; [|discriminate]. intros H. injection H as <- <-. rewrite Em, En, Et. auto. }
  split.
  - apply repeatable_by; cbn [ec_check multinomial mult_left lf_check]; [intros; eapply K; eassumption|].
    intros c nf p ex nf' p' H Hl. unfold mult_check in *. destruct (mu_prob p) as [m|] eqn:Em; [|injection Hl as <- <-; rewrite Em; auto].
    destruct (_ && _) eqn:Eb; injection Hl as <- <-; rewrite Em, Eb; auto.
  - intros h. unfold query. destruct (h_start h) eqn:Es; [|reflexivity]. destruct (check multinomial fp h) as [h'|] eqn:Hc.
    + destruct (check_fields _ _ _ _ Hc) as (_ & _ & _ & _ & F). apply K in F. apply F.
    + unfold check_left. rewrite Es. destruct (h_trans h); [|reflexivity]. destruct (base_check _ _ _ _); [|reflexivity].
      cbn [lf_check mult_left]. destruct (mu_prob _); [|reflexivity]. destruct (_ && _); reflexivity.
Qed.
Lemma C51_gaussian_again_l {G} fp : repeatable gaussian (gauss_left (G := G)) fp
  /\ forall h, h_em (query gaussian (gauss_left (G := G)) fp h) = h_em h.
Proof.
  assert (K : forall c nf p nf' p', gauss_check fp c nf p = Ok (nf', p') -> p' = p /\ gauss_check fp c nf' p' = Ok (nf', p')).
  { intros c nf p nf' p'. unfold gauss_check. destruct (ga_means p) as [m|] eqn:Em; [|discriminate].
    destruct (is_type _ _) eqn:Et; [|discriminate]. intros H. injection H as <- <-. rewrite Em, Et. auto. }
  split.
  - apply repeatable_by; cbn [ec_check gaussian gauss_left lf_check]; [intros; eapply K; eassumption|].
    intros c nf p ex nf' p' H Hl. unfold gauss_check in *. destruct (ga_means p) as [m|] eqn:Em; injection Hl as <- <-; rewrite Em; auto.
  - intros h. unfold query. destruct (h_start h) eqn:Es; [|reflexivity]. destruct (check gaussian fp h) as [h'|] eqn:Hc.
    + destruct (check_fields _ _ _ _ Hc) as (_ & _ & _ & _ & F). apply K in F. apply F.
    + unfold check_left. rewrite Es. destruct (h_trans h); [|reflexivity]. destruct (base_check _ _ _ _); [|reflexivity].
      cbn [lf_check gauss_left]. destruct (ga_means _); reflexivity.
Qed.
Lemma fix_prior_again (o d : option nd) sh r :
  fix_prior (match o with Some a => Some a | None => d end) sh = Ok r ->
  fix_prior (match r with Some a => Some a | None => d end) sh = Ok r.
Proof.
  intros Hf. destruct o as [a|].
  - destruct sh as [sh|]; cbn [fix_prior] in Hf; [apply bind_inv in Hf as (b & Hb & Hf)|]; injection Hf as <-; [|reflexivity].
    cbn [fix_prior]. rewrite (broadcasts_again _ _ _ Hb). reflexivity.
  - destruct d as [d|]; [|cbn in Hf; injection Hf as <-; reflexivity].
    destruct sh as [sh|]; cbn [fix_prior] in Hf; [apply bind_inv in Hf as (b & Hb & Hf)|]; injection Hf as <-; [|reflexivity].
    cbn [fix_prior]. rewrite (broadcasts_again _ _ _ Hb). reflexivity.
Qed.
Lemma priors_left_again fp nc nf p ex : fix_priors fp nc nf p = Err ex ->
  let q := priors_left fp nc nf p in
  fix_priors fp nc nf q = Err ex /\ priors_left fp nc nf q = q.
Proof.
  assert (D : forall (o d : option nd), match match o with Some a => Some a | None => d end with Some a => Some a | None => d end = match o with Some a => Some a | None => d end).
  { intros [o|] [d|]; reflexivity. }
  cbv zeta. unfold fix_priors, priors_left. cbv zeta. destruct (nbroadcast (gm_wprior p) _) as [wp|ex1] eqn:E1; cbn [bind].
  2: { intros H. injection H as <-. cbn [gm_set_priors gm_nmix gm_type gm_wprior gm_mprior gm_mweight gm_cprior gm_cweight]. rewrite E1, !D. split; reflexivity. }
  destruct (nbroadcast (gm_mprior p) _) as [mp|ex1] eqn:E2; cbn [bind].
  2: { intros H. injection H as <-. cbn [gm_set_priors gm_nmix gm_type gm_wprior gm_mprior gm_mweight gm_cprior gm_cweight]. rewrite (broadcasts_again _ _ _ E1). cbn [bind]. rewrite !E2, !D. split; reflexivity. }
  destruct (nbroadcast (gm_mweight p) _) as [mw|ex1] eqn:E3; cbn [bind].
  2: { intros H. injection H as <-. cbn [gm_set_priors gm_nmix gm_type gm_wprior gm_mprior gm_mweight gm_cprior gm_cweight]. rewrite !(broadcasts_again _ _ _ E1). cbn [bind]. rewrite !(broadcasts_again _ _ _ E2). cbn [bind]. rewrite !E3, !D. split; reflexivity. }
  destruct (fix_prior _ (cprior_shape _ _ _ _)) as [cp|ex1] eqn:E4; cbn [bind].
  2: { intros H. injection H as <-. cbn [gm_set_priors gm_nmix gm_type gm_wprior gm_mprior gm_mweight gm_cprior gm_cweight].
       rewrite !(broadcasts_again _ _ _ E1). cbn [bind]. rewrite !(broadcasts_again _ _ _ E2). cbn [bind]. rewrite !(broadcasts_again _ _ _ E3). cbn [bind]. rewrite !D, !E4. split; reflexivity. }
  destruct (fix_prior _ (cweight_shape _ _ _ _)) as [cw|ex1] eqn:E5; cbn [bind]; [discriminate|].
  intros H. injection H as <-. cbn [gm_set_priors gm_nmix gm_type gm_wprior gm_mprior gm_mweight gm_cprior gm_cweight].
  rewrite !(broadcasts_again _ _ _ E1). cbn [bind]. rewrite !(broadcasts_again _ _ _ E2). cbn [bind]. rewrite !(broadcasts_again _ _ _ E3). cbn [bind]. rewrite !D.
  rewrite !(fix_prior_again _ _ _ _ E4). cbn [bind]. rewrite !E5. split; reflexivity.
Qed.
Lemma priors_left_keeps fp nc nf p : let q := priors_left fp nc nf p in
  gm_weights q = gm_weights p /\ gm_means q = gm_means p /\ gm_covars q = gm_covars p /\ gm_type q = gm_type p /\ gm_nmix q = gm_nmix p.
Proof.
  cbv zeta. unfold priors_left. cbv zeta. destruct (nbroadcast _ _); [|auto]. destruct (nbroadcast _ _); [|auto]. destruct (nbroadcast _ _); [|auto]. destruct (fix_prior _ _); auto.
Qed.
Lemma gmm_check_fixed' eig fp c n p q : fix_priors fp (c_nc c) n p = Ok q ->
  gmm_check eig fp c (Some n) q = gmm_check eig fp c (Some n) p.
Proof.
  intros Hq. unfold gmm_check. cbn [bind]. rewrite Hq. assert (Hq' : fix_priors fp (c_nc c) n q = Ok q).
  { rewrite <- (gm_set_same q). apply (fix_priors_again _ _ _ _ _ _ _ _ Hq). }
  rewrite Hq'. destruct (fix_priors_keeps _ _ _ _ _ Hq) as (F & F3 & F4 & F5). unfold keeps_args in F.
  destruct F as (F1 & F2 & _).
  rewrite F1, F2, F3, F4, F5. reflexivity.
Qed.
Lemma C51_gmm_again_l {G} eig (gr : grng G) fp : repeatable (gmm eig) (gmm_left gr) fp
  /\ forall h, let p := h_em h in let q := h_em (query (gmm eig) (gmm_left gr) fp h) in
     gm_weights q = gm_weights p /\ gm_means q = gm_means p /\ gm_covars q = gm_covars p /\ gm_type q = gm_type p /\ gm_nmix q = gm_nmix p.
Proof.
  set (nf_of := fun (nfe : option nat) (p : gmmp) => match nfe with
        | Some n => Some n
        | None => match gm_means p with None => None | Some m => match nsh m with _ :: _ :: n :: _ => Some n | _ => None end end
        end).
  assert (N : forall c nfe p n, nf_of nfe p = Some n -> gmm_check eig fp c nfe p = gmm_check eig fp c (Some n) p).
  { intros c nfe p n. unfold nf_of, gmm_check. destruct nfe; [intros H; injection H as <-; reflexivity|]. destruct (gm_means p) as [m|]; [|discriminate].
    destruct (nsh m) as [|? [|? [|? ?]]]; try discriminate. intros H. injection H as <-. reflexivity. }
  split.
  - apply repeatable_by; cbn [ec_check gmm gmm_left lf_check].
    + intros c nf p nf' p' H. pose proof H as H0. apply (gmm_check_fixed eig) in H as (n & -> & Hp).
      assert (Hf : exists k, nf_of nf p = Some k).
      { unfold gmm_check in H0. unfold nf_of. destruct nf; [eexists; reflexivity|]. destruct (gm_means p) as [m|]; [|discriminate].
        destruct (nsh m) as [|? [|? [|? ?]]]; try discriminate. eexists; reflexivity. }
      destruct Hf as [k Hk]. rewrite (N _ _ _ _ Hk) in H0.
      assert (exists q, fix_priors fp (c_nc c) k p = Ok q /\ k = n /\ q = p') as (q & Hq & -> & ->).
      { unfold gmm_check in H0. cbn [bind] in H0. apply bind_inv in H0 as (q & Hq & H0). exists q. split; [exact Hq|]. all_ok H0; injection H0 as <- <-; auto. }
      rewrite (gmm_check_fixed' _ _ _ _ _ _ Hq). exact H0.
    + intros c nf p ex nf' p' H Hl. unfold gmm_check_left in Hl. fold (nf_of nf p) in Hl. destruct (nf_of nf p) as [n|] eqn:En.
      2: { injection Hl as <- <-. split; [exact H|]. unfold gmm_check_left. fold (nf_of nf p). rewrite En. reflexivity. }
      injection Hl as <- <-. rewrite (N _ _ _ _ En) in H. unfold gmm_check_left. destruct (fix_priors fp (c_nc c) n p) as [q|ex'] eqn:Hq.
      * rewrite (gmm_check_fixed' _ _ _ _ _ _ Hq). split; [exact H|].
        assert (Hq' : fix_priors fp (c_nc c) n q = Ok q) by (rewrite <- (gm_set_same q); apply (fix_priors_again _ _ _ _ _ _ _ _ Hq)). rewrite Hq'. reflexivity.
      * destruct (priors_left_again _ _ _ _ _ Hq) as [A1 A2]. unfold gmm_check in H. cbn [bind] in H. rewrite Hq in H. cbn [bind] in H. injection H as <-.
        split; [unfold gmm_check; cbn [bind]; rewrite A1; reflexivity|]. rewrite A1, A2. reflexivity.
  - intros h. cbv zeta. unfold query. destruct (h_start h) eqn:Es; [|auto]. destruct (check (gmm eig) fp h) as [h'|] eqn:Hc.
    + destruct (check_fields _ _ _ _ Hc) as (_ & _ & _ & _ & F). cbn [ec_check gmm] in F. destruct (gmm_check_keeps _ _ _ _ _ _ _ F) as (F1 & F2 & F3).
      unfold gmm_check in F. apply bind_inv in F as (n & _ & F). apply bind_inv in F as (q & Hq & F). destruct (fix_priors_keeps _ _ _ _ _ Hq) as ((G1 & G2 & _) & _).
      assert (h_em h' = q) as Hh by (all_ok F; injection F; auto). rewrite Hh in *. repeat split; assumption.
    + unfold check_left. rewrite Es. destruct (h_trans h); [|auto]. destruct (base_check _ _ _ _); [|auto].
      cbn [lf_check gmm_left]. unfold gmm_check_left. fold (nf_of (h_nfeat h) (h_em h)). destruct (nf_of _ _) as [n|]; [|auto].
      destruct (fix_priors _ _ _ _) as [q|] eqn:Hq; cbn [h_em]; [|apply priors_left_keeps].
      destruct (fix_priors_keeps _ _ _ _ _ Hq) as ((G1 & G2 & _) & G3 & G4 & G5). repeat split; assumption.
Qed.

(** The variational classes: only [n_features] can change. *)
Definition vrepeatable {P X St} (V : vclass P X St) (left : cfg -> option nat -> P -> option nat) fp : Prop :=
  forall v, let v' := vquery V left fp v in
  (exists nf, v' = with_h v (set_em (v_h v) nf (h_em (v_h v))))
  /\ vquery V left fp v' = v'
  /\ (forall x ls, Vbase.vscore V fp v' x ls = Vbase.vscore V fp v x ls)
  /\ (forall x ls, vscore_samples V fp v' x ls = vscore_samples V fp v x ls)
  /\ (forall x ls alg, vdecode V fp v' x ls alg = vdecode V fp v x ls alg).
Section VRepeat.
  Context {P X St : Type} (V : vclass P X St) (fp : fpmode) (left : cfg -> option nat -> P -> option nat).
  Hypothesis S1 : forall c nf p nf' p', ec_check (vc_em V) fp c nf p = Ok (nf', p') -> p' = p /\ ec_check (vc_em V) fp c nf' p' = Ok (nf', p').
  Hypothesis S2 : forall c nf p ex, ec_check (vc_em V) fp c nf p = Err ex ->
    ec_check (vc_em V) fp c (left c nf p) p = Err ex /\ left c (left c nf p) p = left c nf p.
  Lemma vquery_again v : let v' := vquery V left fp v in
    (exists nf, v' = with_h v (set_em (v_h v) nf (h_em (v_h v)))) /\ vquery V left fp v' = v' /\ vfitted V fp v' = vfitted V fp v.
  Proof.
    cbv zeta. assert (Same : vquery V left fp v = v -> let v' := vquery V left fp v in
      (exists nf, v' = with_h v (set_em (v_h v) nf (h_em (v_h v)))) /\ vquery V left fp v' = v' /\ vfitted V fp v' = vfitted V fp v).
    { cbv zeta. intros Q. rewrite !Q. split; [exists (h_nfeat (v_h v)); symmetry; apply with_same|auto]. }
    destruct (h_start (v_h v)) as [s|] eqn:Es.
    2: { apply Same. unfold vquery. rewrite Es. reflexivity. }
    set (B := if vc_super_check V then vbase_check v else Ok tt).
    assert (Hc : vcheck V fp v = do _ <- B; do (nf, p) <- ec_check (vc_em V) fp (v_cfg v) (h_nfeat (v_h v)) (h_em (v_h v)); Ok (with_h v (set_em (v_h v) nf p))) by reflexivity.
    destruct B as [[]|ex] eqn:EB; cbn [bind] in Hc.
    2: { apply Same. unfold vquery. rewrite Es, Hc. fold B. rewrite EB. reflexivity. }
    clear Same. destruct (ec_check _ _ _ _ _) as [[nf p]|ex] eqn:Ec; cbn [bind] in Hc.
    - destruct (S1 _ _ _ _ _ Ec) as [-> T]. set (w := with_h v (set_em (v_h v) nf (h_em (v_h v)))) in *.
      assert (Q : vquery V left fp v = w) by (unfold vquery; rewrite Es, Hc; reflexivity). rewrite Q.
      assert (Hw : vcheck V fp w = Ok w).
      { unfold vcheck. change (if vc_super_check V then vbase_check w else Ok tt) with B. rewrite EB. cbn [bind].
        change (ec_check (vc_em V) fp (v_cfg w) (h_nfeat (v_h w)) (h_em (v_h w))) with (ec_check (vc_em V) fp (v_cfg v) nf (h_em (v_h v))). rewrite T. reflexivity. }
      split; [exists nf; reflexivity|]. split.
      + unfold vquery. rewrite Hw. destruct (h_start (v_h w)); reflexivity.
      + unfold vfitted. rewrite Hw, Hc. reflexivity.
    - destruct (S2 _ _ _ _ Ec) as [T1 T2]. set (nf := left (v_cfg v) (h_nfeat (v_h v)) (h_em (v_h v))) in *. set (w := with_h v (set_em (v_h v) nf (h_em (v_h v)))) in *.
      assert (Q : vquery V left fp v = w) by (unfold vquery; rewrite Es, Hc; fold B; rewrite EB; reflexivity). rewrite Q.
      assert (Hw : vcheck V fp w = Err ex).
      { unfold vcheck. change (if vc_super_check V then vbase_check w else Ok tt) with B. rewrite EB. cbn [bind].
        change (ec_check (vc_em V) fp (v_cfg w) (h_nfeat (v_h w)) (h_em (v_h w))) with (ec_check (vc_em V) fp (v_cfg v) nf (h_em (v_h v))). rewrite T1. reflexivity. }
      split; [exists nf; reflexivity|]. split.
      + unfold vquery. rewrite Hw. change (h_start (v_h w)) with (h_start (v_h v)). rewrite Es.
        change (if vc_super_check V then vbase_check w else Ok tt) with B. rewrite EB.
        change (left (h_cfg (v_h w)) (h_nfeat (v_h w)) (h_em (v_h w))) with (left (v_cfg v) nf (h_em (v_h v))). rewrite T2. reflexivity.
      + unfold vfitted. rewrite Hw, Hc. reflexivity.
  Qed.
  Lemma vrepeatable_by : vrepeatable V left fp.
  Proof.
    intros v. cbv zeta. destruct (vquery_again v) as (H1 & H2 & H3). split; [exact H1|]. split; [exact H2|]. clear H1 H2.
    assert (HS : forall x ls post, vscore_ V fp (vquery V left fp v) x ls post = vscore_ V fp v x ls post).
    { intros x ls post. unfold vscore_. rewrite H3. reflexivity. }
    assert (HD : forall x ls alg, vdecode V fp (vquery V left fp v) x ls alg = vdecode V fp v x ls alg).
    { intros x ls alg. unfold vdecode. rewrite H3. destruct (vfitted V fp v) as [[h s]|]; [|reflexivity]. cbn [bind].
      destruct (String.eqb _ "viterbi"); [reflexivity|]. destruct (String.eqb _ "map"); [|reflexivity]. cbn [bind].
      destruct (check_array _ x) as [y|]; [|reflexivity]. cbn [bind]. destruct (split_X_lengths y ls) as [xs|]; [|reflexivity]. cbn [bind].
      generalize (Fin 0). induction xs as [|z xs IH]; intros a; [reflexivity|]. cbn [acc_seqs]. unfold vscore_samples in *. rewrite HS.
      destruct (do (_, post) <- vscore_ V fp v z None true; _) as [[lp zs]|]; [|reflexivity]. cbn [bind]. rewrite IH. reflexivity. }
    repeat split; intros; [unfold Vbase.vscore; rewrite HS; reflexivity|apply HS|apply HD].
  Qed.
End VRepeat.
Lemma C51_vcategorical_again_l fp : vrepeatable vcategorical vcat_nf_left fp.
Proof.
  apply vrepeatable_by; cbn [vc_em vcategorical ec_check]; unfold vcat_check.
  - intros c nf p nf' p' H. destruct (vk_prior p) as [pr|] eqn:H1; [|discriminate]. destruct (vk_post p) as [po|] eqn:H2; [|discriminate]. cbn [attr bind] in H.
    destruct (negb (Nat.eqb (nrow pr) (nrow po) && Nat.eqb (ncol pr) (ncol po))) eqn:E1; [discriminate|].
    set (n := match nf with None => ncol po | Some n => n end) in *. destruct (negb (Nat.eqb (nrow po) (c_nc c) && Nat.eqb (ncol po) n)) eqn:E2; [discriminate|].
    injection H as <- <-. split; [reflexivity|]. rewrite H1, H2. cbn [attr bind]. rewrite E1, E2. reflexivity.
  - intros c nf p ex H. unfold vcat_nf_left. destruct nf as [n|]; [auto|]. destruct (vk_prior p) as [pr|]; [|auto]. destruct (vk_post p) as [po|]; [|auto].
    cbn [attr bind] in *. destruct (Nat.eqb (nrow pr) (nrow po) && Nat.eqb (ncol pr) (ncol po)) eqn:E1; cbn [negb] in *; auto.
Qed.
Lemma C51_vgaussian_again_l la fp : vrepeatable (vgaussian la) vg_nf_left fp.
Proof.
  apply vrepeatable_by; cbn [vc_em vgaussian ec_check].
  - intros c nf p nf' p' H. assert (nf' = nf /\ p' = p) as [-> ->]; [|auto]. unfold vg_check in H. cbv zeta in H. all_ok H. injection H as <- <-. auto.
  - intros c nf p ex H. auto.
Qed.
