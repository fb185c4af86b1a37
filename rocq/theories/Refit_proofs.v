(** * Fitting again from the same seed. *)
From Verif Require Export Init_proofs.

Section Seed.
  Context {P X St G : Type} (E : emclass P X St) (I : initclass P X G) (rg : rng G) (fp : fpmode).

  Lemma base_init_seed ea eb ga gb x k ea' ga' eva eb' gb' evb :
    base_init I rg fp ea ga x = Ok (ea', ga', eva) -> base_init I rg fp eb gb x = Ok (eb', gb', evb) ->
    h_cfg (e_hmm eb) = h_cfg (e_hmm ea) -> e_rs ea = RSSeed k -> e_rs eb = RSSeed k ->
    has "s" (c_init_params (h_cfg (e_hmm ea))) = true -> has "t" (c_init_params (h_cfg (e_hmm ea))) = true ->
    h_start (e_hmm eb') = h_start (e_hmm ea') /\ h_trans (e_hmm eb') = h_trans (e_hmm ea')
    /\ e_rs ea' = RSSeed k /\ e_rs eb' = RSSeed k /\ ga' = ga /\ gb' = gb.
  Proof.
    intros HA HB Hc Ka Kb Hs Ht. unfold base_init in HA, HB. rewrite Hc in HB. rewrite Ka in HA. rewrite Kb in HB.
    unfold needs_init in HA, HB. rewrite Hs, Ht in HA, HB.
    apply bind_inv in HA as ([nfa pa] & Hna & HA). apply bind_inv in HB as ([nfb pb] & Hnb & HB).
    destruct (Nat.eqb _ _); [discriminate|]. cbn [rs_get] in HA, HB.
    destruct (r_seed rg k) as [g|]; [|discriminate]. cbn [bind] in HA, HB.
    destruct (r_dirichlet rg _ g) as [[v g1]|]; [|discriminate]. cbn [bind] in HA, HB.
    destruct (draws _ _ g1) as [[l g2]|]; [|discriminate]. cbn [bind rs_put] in HA, HB.
    apply bind_inv in HA as (d & _ & HA). apply bind_inv in HA as (n & _ & HA).
    apply bind_inv in HB as (d' & _ & HB). apply bind_inv in HB as (n' & _ & HB).
    injection HA as <- <- <-. injection HB as <- <- <-. repeat split; reflexivity.
  Qed.

  (** [F] is the part of the emission parameters given to the constructor. *)
  Variables (V : Type) (F : P -> V) (c : cfg) (x : list X) (k : Z).
  Hypothesis Hs : has "s" (c_init_params c) = true.
  Hypothesis Ht : has "t" (c_init_params c) = true.
  Hypothesis Hck : forall nf p nf' p', ec_check E fp c nf p = Ok (nf', p') -> F p' = F p.
  Hypothesis Hms : forall nf p st p', ec_mstep E fp c nf p st = Ok p' -> F p' = F p.
  Hypothesis Hkeep : forall nf p rs glob p' rs' glob' ev,
    ic_em I fp rg c nf p x rs glob = Ok (p', rs', glob', ev) -> F p' = F p.
  Hypothesis Hnf : forall nf p a p1 p2 a' p3 q b q1,
    ic_nfeat I c nf p x = Ok (a, p1) -> F q = F p1 -> ec_check E fp c a p2 = Ok (a', p3) ->
    ic_nfeat I c a' q x = Ok (b, q1) -> b = a /\ F q1 = F p1.
  Hypothesis Hem : forall nf p q g g' p' rs' g1 ev q' rs'' g1' ev', F q = F p ->
    ic_em I fp rg c nf p x (RSSeed k) g = Ok (p', rs', g1, ev) ->
    ic_em I fp rg c nf q x (RSSeed k) g' = Ok (q', rs'', g1', ev') -> q' = p' /\ rs'' = rs'.

  Theorem refit_same e glob ls e1 glob1 ev1 glob2 e2 glob3 ev2 :
    h_cfg (e_hmm e) = c -> e_rs e = RSSeed k ->
    fit E I rg fp e glob x ls = Ok (e1, glob1, ev1) ->
    fit E I rg fp (Est (e_hmm e1) (RSSeed k)) glob2 x ls = Ok (e2, glob3, ev2) ->
    (exists ea eb ga gb va vb, init I rg fp e glob x = Ok (ea, ga, va)
      /\ init I rg fp (Est (e_hmm e1) (RSSeed k)) glob2 x = Ok (eb, gb, vb) /\ same_model (e_hmm ea) (e_hmm eb))
    /\ e2 = e1.
  Proof.
    intros Hc Hk H1 H2.
    destruct (fit_inv I rg fp E _ _ _ _ _ _ _ H1) as (ea & va & va2 & _ & Hia & Hfa & Hra & _).
    destruct (fit_inv I rg fp E _ _ _ _ _ _ _ H2) as (eb & vb & vb2 & _ & Hib & Hfb & Hrb & _).
    destruct (init_inv I rg fp _ _ _ _ _ _ Hia) as (ba & ga1 & wa & pa & rsa & wa2 & Hba & Hema & Hea & _).
    destruct (init_inv I rg fp _ _ _ _ _ _ Hib) as (bb & gb1 & wb & pb & rsb & wb2 & Hbb & Hemb & Heb & _).
    destruct (base_init_inv I rg fp _ _ _ _ _ _ Hba) as (A1 & A2 & _ & A4 & _).
    destruct (base_init_inv I rg fp _ _ _ _ _ _ Hbb) as (B1 & B2 & _ & B4 & _).
    destruct (fit_from_keeps E fp _ _ _ _ _ Hfa) as (K1 & K2 & h1 & Hch & K3).
    cbn [e_hmm] in *. rewrite Hc in *.
    assert (Hca : h_cfg (e_hmm ea) = c) by (rewrite Hea; cbn; congruence).
    assert (Hce1 : h_cfg (e_hmm e1) = c) by congruence.
    assert (HcE : h_cfg (e_hmm bb) = c) by congruence.
    destruct (base_init_seed e (Est (e_hmm e1) (RSSeed k)) glob glob2 x k ba ga1 wa bb gb1 wb Hba Hbb) as (S1 & S2 & S3 & S4 & S5 & S6).
    { cbn [e_hmm]. congruence. } { exact Hk. } { reflexivity. } { rewrite Hc. exact Hs. } { rewrite Hc. exact Ht. }
    rewrite A1, S3 in Hema. rewrite HcE, S4 in Hemb.
    (* what the first training left alone *)
    assert (FE : F (h_em (e_hmm e1)) = F (h_em (e_hmm ba))).
    { rewrite (fit_keeps E fp _ _ _ _ _ V F Hfa).
      - rewrite Hea. cbn [e_hmm h_em]. apply (Hkeep _ _ _ _ _ _ _ _ Hema).
      - rewrite Hca. exact Hck.
      - rewrite Hca. exact Hms. }
    (* the check *)
    assert (Hcc : exists p3, ec_check E fp c (h_nfeat (e_hmm ba)) pa = Ok (h_nfeat (e_hmm e1), p3)).
    { rewrite K3. rewrite Hea in Hch. unfold check in Hch. cbn [e_hmm h_start h_trans h_cfg h_nfeat h_em h_mon] in Hch.
      destruct (h_start (e_hmm ba)); [|discriminate]. destruct (h_trans (e_hmm ba)).
      - apply bind_inv in Hch as (u & _ & Hch). apply bind_inv in Hch as ([nf' em'] & Hcc & Hch).
        injection Hch as <-. exists em'. cbn [h_nfeat]. rewrite <- A1. exact Hcc.
      - destruct (negb _); [discriminate|]. destruct (negb _); discriminate. }
    destruct Hcc as (p3 & Hcc).
    rewrite Hce1 in B4.
    destruct (Hnf _ _ _ _ _ _ _ _ _ _ A4 FE Hcc B4) as [N1 N2].
    rewrite N1 in Hemb.
    destruct (Hem _ _ _ _ _ _ _ _ _ _ _ _ _ N2 Hema Hemb) as [Q1 Q2].
    assert (Hab : e_hmm eb = with_mon (h_mon (e_hmm e1)) (e_hmm ea) /\ e_rs eb = e_rs ea).
    { rewrite Heb, Hea. cbn [e_hmm e_rs]. unfold with_mon. cbn [h_cfg h_nfeat h_start h_trans h_em].
      rewrite S1, S2, N1, Q1, HcE, A1, B2. split; [reflexivity|exact Q2]. }
    destruct Hab as [Hab1 Hab2].
    split.
    - do 6 eexists. split; [exact Hia|]. split; [exact Hib|]. rewrite Hab1. unfold same_model, with_mon. cbn. auto.
    - rewrite Hab1, fit_from_mon in Hfb.
      + rewrite Hfa in Hfb. injection Hfb as Hh _. destruct e1 as [h1' rs1], e2 as [h2' rs2]. cbn [e_hmm e_rs] in *. congruence.
      + rewrite K2. reflexivity.
  Qed.
End Seed.

Lemma set_n_features_ok nf n a : set_n_features nf n = Ok a -> a = Some n.
Proof. unfold set_n_features. destruct nf as [m|]; [|congruence]. destruct (Nat.eqb_spec m n); congruence. Qed.

(** ** The four classes. *)
Section Classes.
  Context {G : Type} (rg : rng G) (fp : fpmode).

  (** With every letter listed, what is drawn does not depend on what was set. *)
  Lemma cat_refit c x k e glob ls e1 glob1 ev1 glob2 e2 glob3 ev2 :
    h_cfg (e_hmm e) = c -> e_rs e = RSSeed k ->
    has "s" (c_init_params c) = true -> has "t" (c_init_params c) = true -> has "e" (c_init_params c) = true ->
    fit categorical cat_initc rg fp e glob x ls = Ok (e1, glob1, ev1) ->
    fit categorical cat_initc rg fp (Est (e_hmm e1) (RSSeed k)) glob2 x ls = Ok (e2, glob3, ev2) ->
    (exists ea eb ga gb va vb, init cat_initc rg fp e glob x = Ok (ea, ga, va)
      /\ init cat_initc rg fp (Est (e_hmm e1) (RSSeed k)) glob2 x = Ok (eb, gb, vb) /\ same_model (e_hmm ea) (e_hmm eb))
    /\ e2 = e1.
  Proof.
    intros Hc Hk Hs Ht He H1 H2.
    refine (refit_same categorical cat_initc rg fp _ cat_prior c x k Hs Ht _ _ _ _ _ _ _ _ _ _ _ _ _ _ _ Hc Hk H1 H2); cbn [ec_check ec_mstep ic_em ic_nfeat categorical cat_initc poisson pois_initc multinomial mult_initc gaussian gauss_initc].
    - intros nf p nf' p' H. unfold cat_check in H. destruct (cat_prob p); [|discriminate].
      destruct (negb _); [discriminate|]. destruct (negb _); [discriminate|]. now injection H as <- <-.
    - intros nf p st p' H. unfold cat_mstep in H. destruct (has "e" (c_params c)); injection H as <-; reflexivity.
    - intros nf p rs gl p' rs' gl' ev H. unfold cat_init_em in H. apply bind_inv in H as (rs1 & _ & H).
      destruct (needs_init _ _ _ _) as [[] w].
      + apply bind_inv in H as (g & _ & H). apply bind_inv in H as ([m g1] & _ & H).
        destruct (rs_put _ _ _). injection H as <- <- <- <-. reflexivity.
      + injection H as <- <- <- <-. reflexivity.
    - intros nf p a p1 p2 a' p3 q b q1 Ha Hq Hk' Hb. unfold cat_nfeat in Ha, Hb.
      destruct (Z.ltb (zmin x) 0); [discriminate|].
      unfold cat_check in Hk'. destruct (cat_prob p2) as [m|]; [|discriminate].
      destruct (negb _); [discriminate|]. destruct (negb _); [discriminate|]. injection Hk' as <- <-.
      destruct (Z.ltb _ _) in Hb; [discriminate|]. injection Hb as <- <-. split; [|exact Hq].
      destruct nf as [n|]; [destruct (Z.ltb _ _) in Ha; [discriminate|]|]; injection Ha as <- <-; reflexivity.
    - intros nf p q g g' p' rs' g1 ev q' rs'' g1' ev' Hq HA HB. unfold cat_init_em in HA, HB. cbn [rs_adopt] in HA, HB.
      destruct (r_seed rg k) as [gs|]; [|discriminate]. cbn [bind rs_get] in HA, HB.
      unfold needs_init in HA, HB. rewrite He in HA, HB. cbn [bind] in HA, HB.
      apply bind_inv in HA as ([m gm] & Hm & HA). rewrite Hm in HB. cbn [bind rs_put] in HA, HB.
      injection HA as <- <- <- <-. injection HB as <- <- <- <-. rewrite Hq. split; reflexivity.
  Qed.

  Lemma pois_refit c x k e glob ls e1 glob1 ev1 glob2 e2 glob3 ev2 :
    h_cfg (e_hmm e) = c -> e_rs e = RSSeed k ->
    has "s" (c_init_params c) = true -> has "t" (c_init_params c) = true -> has "l" (c_init_params c) = true ->
    fit poisson pois_initc rg fp e glob x ls = Ok (e1, glob1, ev1) ->
    fit poisson pois_initc rg fp (Est (e_hmm e1) (RSSeed k)) glob2 x ls = Ok (e2, glob3, ev2) ->
    (exists ea eb ga gb va vb, init pois_initc rg fp e glob x = Ok (ea, ga, va)
      /\ init pois_initc rg fp (Est (e_hmm e1) (RSSeed k)) glob2 x = Ok (eb, gb, vb) /\ same_model (e_hmm ea) (e_hmm eb))
    /\ e2 = e1.
  Proof.
    intros Hc Hk Hs Ht He H1 H2.
    refine (refit_same poisson pois_initc rg fp _ (fun p => (po_alpha p, po_beta p)) c x k Hs Ht _ _ _ _ _ _ _ _ _ _ _ _ _ _ _ Hc Hk H1 H2); cbn [ec_check ec_mstep ic_em ic_nfeat categorical cat_initc poisson pois_initc multinomial mult_initc gaussian gauss_initc].
    - intros nf p nf' p' H. unfold pois_check in H. destruct (po_lam p); [|discriminate].
      destruct (negb _); [discriminate|]. now injection H as <- <-.
    - intros nf p st p' H. unfold pois_mstep in H. destruct (has "l" (c_params c)); [|injection H as <-; reflexivity].
      repeat first [apply bind_inv in H as (? & _ & H) | injection H as <-; reflexivity].
    - intros nf p rs gl p' rs' gl' ev H. unfold pois_init_em in H. apply bind_inv in H as (rs1 & _ & H).
      destruct (needs_init _ _ _ _) as [[] w].
      + apply bind_inv in H as (g & _ & H). apply bind_inv in H as ([m g1] & _ & H).
        destruct (rs_put _ _ _). injection H as <- <- <- <-. reflexivity.
      + injection H as <- <- <- <-. reflexivity.
    - intros nf p a p1 p2 a' p3 q b q1 Ha Hq Hk' Hb. unfold pois_nfeat in Ha, Hb.
      apply bind_inv in Ha as (a0 & Ha & Ha'). injection Ha' as <- <-.
      apply bind_inv in Hb as (b0 & Hb & Hb'). injection Hb' as <- <-.
      apply set_n_features_ok in Ha, Hb. subst. split; [reflexivity|exact Hq].
    - intros nf p q g g' p' rs' g1 ev q' rs'' g1' ev' Hq HA HB. unfold pois_init_em in HA, HB. cbn [rs_adopt] in HA, HB.
      destruct (r_seed rg k) as [gs|]; [|discriminate]. cbn [bind rs_get] in HA, HB.
      unfold needs_init in HA, HB. rewrite He in HA, HB. cbn [bind] in HA, HB.
      apply bind_inv in HA as ([m gm] & Hm & HA). rewrite Hm in HB. cbn [bind rs_put] in HA, HB.
      injection HA as <- <- <- <-. injection HB as <- <- <- <-. injection Hq as -> ->. split; reflexivity.
  Qed.

  Lemma mult_refit c x k e glob ls e1 glob1 ev1 glob2 e2 glob3 ev2 :
    h_cfg (e_hmm e) = c -> e_rs e = RSSeed k ->
    has "s" (c_init_params c) = true -> has "t" (c_init_params c) = true -> has "e" (c_init_params c) = true ->
    fit multinomial mult_initc rg fp e glob x ls = Ok (e1, glob1, ev1) ->
    fit multinomial mult_initc rg fp (Est (e_hmm e1) (RSSeed k)) glob2 x ls = Ok (e2, glob3, ev2) ->
    (exists ea eb ga gb va vb, init mult_initc rg fp e glob x = Ok (ea, ga, va)
      /\ init mult_initc rg fp (Est (e_hmm e1) (RSSeed k)) glob2 x = Ok (eb, gb, vb) /\ same_model (e_hmm ea) (e_hmm eb))
    /\ e2 = e1.
  Proof.
    intros Hc Hk Hs Ht He H1 H2.
    refine (refit_same multinomial mult_initc rg fp _ mu_trials c x k Hs Ht _ _ _ _ _ _ _ _ _ _ _ _ _ _ _ Hc Hk H1 H2); cbn [ec_check ec_mstep ic_em ic_nfeat categorical cat_initc poisson pois_initc multinomial mult_initc gaussian gauss_initc].
    - intros nf p nf' p' H. unfold mult_check in H. destruct (mu_prob p); [|discriminate].
      destruct (negb _); [discriminate|]. destruct (mu_trials p) eqn:Etr; [|discriminate]. injection H as <- <-. exact Etr.
    - intros nf p st p' H. unfold mult_mstep in H. destruct (has "e" (c_params c)); injection H as <-; reflexivity.
    - intros nf p rs gl p' rs' gl' ev H. unfold mult_init_em in H. apply bind_inv in H as (rs1 & _ & H).
      destruct (has "e" (c_init_params c)).
      + apply bind_inv in H as (g & _ & H). apply bind_inv in H as ([m g1] & _ & H).
        destruct (rs_put _ _ _). injection H as <- <- <- <-. reflexivity.
      + injection H as <- <- <- <-. reflexivity.
    - intros nf p a p1 p2 a' p3 q b q1 Ha Hq Hk' Hb. unfold mult_nfeat in Ha, Hb.
      apply bind_inv in Ha as (a0 & Ha & Ha'). apply bind_inv in Hb as (b0 & Hb & Hb').
      apply set_n_features_ok in Ha, Hb. subst.
      destruct (existsb _ x); [discriminate|].
      assert (Ep1 : a = Some (width x) /\ exists tr, mu_trials p1 = Some tr).
      { destruct (mu_trials p) as [tr|] eqn:Etr.
        - apply bind_inv in Ha' as ([] & _ & Ha'); [|discriminate]. injection Ha' as <- <-. split; [reflexivity|exists tr; exact Etr].
        - injection Ha' as <- <-. split; [reflexivity|eexists; reflexivity]. }
      destruct Ep1 as [-> (tr & Etr)]. rewrite Hq, Etr in Hb'.
      apply bind_inv in Hb' as ([] & _ & Hb'); [|discriminate]. injection Hb' as <- <-. split; [reflexivity|exact Hq].
    - intros nf p q g g' p' rs' g1 ev q' rs'' g1' ev' Hq HA HB. unfold mult_init_em in HA, HB. cbn [rs_adopt] in HA, HB.
      destruct (r_seed rg k) as [gs|]; [|discriminate]. cbn [bind rs_get] in HA, HB.
      rewrite He in HA, HB. cbn [bind] in HA, HB.
      apply bind_inv in HA as ([m gm] & Hm & HA). rewrite Hm in HB. cbn [bind rs_put] in HA, HB.
      injection HA as <- <- <- <-. injection HB as <- <- <- <-. rewrite Hq. split; reflexivity.
  Qed.

  Definition ga_args (p : gaussp) :=
    (ga_type p, ga_min_covar p, (ga_mprior p, ga_mweight p), (ga_cprior p, ga_cweight p)).

  Lemma gauss_init_seed nf c p x k g p' rs' g1 ev : has "m" (c_init_params c) = true -> has "c" (c_init_params c) = true ->
    gauss_init_em fp rg c nf p x (RSSeed k) g = Ok (p', rs', g1, ev) ->
    rs' = RSSeed k /\ exists gs m gs' cv, r_seed rg k = Ok gs /\ r_kmeans rg (c_nc c) x gs = Ok (m, gs')
      /\ distribute fp (cov_template fp (ga_min_covar p) x) (ga_type p) (c_nc c) = Ok cv /\ p' = ga_set p (Some m) (Some cv).
  Proof.
    intros Hm Hc H. unfold gauss_init_em, needs_init in H. rewrite Hm, Hc in H.
    apply bind_inv in H as ([[m rs1] g2] & H1 & H). cbn [rs_get] in H1.
    apply bind_inv in H1 as (gs & Hgs & H1). apply bind_inv in H1 as ([m0 gs'] & Hk & H1). cbn [rs_put] in H1.
    injection H1 as <- <- <-. apply bind_inv in H as (b & _ & H). apply bind_inv in H as (cv & Hcv & H).
    apply bind_inv in H as (u & _ & H). injection H as <- <- <- <-.
    split; [reflexivity|]. exists gs, m0, gs', cv. repeat split; assumption.
  Qed.

  Lemma gauss_refit c x k e glob ls e1 glob1 ev1 glob2 e2 glob3 ev2 :
    h_cfg (e_hmm e) = c -> e_rs e = RSSeed k ->
    has "s" (c_init_params c) = true -> has "t" (c_init_params c) = true ->
    has "m" (c_init_params c) = true -> has "c" (c_init_params c) = true ->
    fit gaussian gauss_initc rg fp e glob x ls = Ok (e1, glob1, ev1) ->
    fit gaussian gauss_initc rg fp (Est (e_hmm e1) (RSSeed k)) glob2 x ls = Ok (e2, glob3, ev2) ->
    (exists ea eb ga gb va vb, init gauss_initc rg fp e glob x = Ok (ea, ga, va)
      /\ init gauss_initc rg fp (Est (e_hmm e1) (RSSeed k)) glob2 x = Ok (eb, gb, vb) /\ same_model (e_hmm ea) (e_hmm eb))
    /\ e2 = e1.
  Proof.
    intros Hc Hk Hs Ht Hm Hcv H1 H2.
    refine (refit_same gaussian gauss_initc rg fp _ ga_args c x k Hs Ht _ _ _ _ _ _ _ _ _ _ _ _ _ _ _ Hc Hk H1 H2); cbn [ec_check ec_mstep ic_em ic_nfeat categorical cat_initc poisson pois_initc multinomial mult_initc gaussian gauss_initc].
    - intros nf p nf' p' H. unfold gauss_check in H. destruct (ga_means p); [|discriminate].
      destruct (is_type _ _); [|discriminate]. now injection H as <- <-.
    - intros nf p st p' H. unfold gauss_mstep in H. apply bind_inv in H as (m & _ & H). apply bind_inv in H as (cv & _ & H).
      injection H as <-. reflexivity.
    - intros nf p rs gl p' rs' gl' ev H. unfold gauss_init_em in H. destruct (needs_init _ _ _ _) as [nm w].
      apply bind_inv in H as ([[m rs1] g2] & _ & H). apply bind_inv in H as (b & _ & H).
      destruct (needs_init _ _ _ _) as [[] w2].
      + apply bind_inv in H as (cv & _ & H). apply bind_inv in H as (u & _ & H). injection H as <- <- <- <-. reflexivity.
      + injection H as <- <- <- <-. reflexivity.
    - intros nf p a p1 p2 a' p3 q b q1 Ha Hq Hk' Hb. unfold gauss_nfeat in Ha, Hb.
      apply bind_inv in Ha as (a0 & Ha & Ha'). injection Ha' as <- <-.
      apply bind_inv in Hb as (b0 & Hb & Hb'). injection Hb' as <- <-.
      apply set_n_features_ok in Ha, Hb. subst. split; [reflexivity|exact Hq].
    - intros nf p q g g' p' rs' g1 ev q' rs'' g1' ev' Hq HA HB.
      destruct (gauss_init_seed _ _ _ _ _ _ _ _ _ _ Hm Hcv HA) as (-> & gs & m & gs' & cv & K1 & K2 & K3 & ->).
      destruct (gauss_init_seed _ _ _ _ _ _ _ _ _ _ Hm Hcv HB) as (-> & gs2 & m2 & gs2' & cv2 & L1 & L2 & L3 & ->).
      unfold ga_args in Hq. injection Hq as Q1 Q2 Q3 Q4 Q5 Q6.
      rewrite K1 in L1. injection L1 as <-. rewrite K2 in L2. injection L2 as <- <-.
      rewrite Q1, Q2, K3 in L3. injection L3 as <-. unfold ga_set. rewrite Q1, Q2, Q3, Q4, Q5, Q6. split; reflexivity.
  Qed.

  Lemma gauss_keeps_seed c x k e glob ls e1 glob1 ev1 :
    h_cfg (e_hmm e) = c -> e_rs e = RSSeed k ->
    fit gaussian gauss_initc rg fp e glob x ls = Ok (e1, glob1, ev1) -> e_rs e1 = RSSeed k.
  Proof.
    intros Hc Hk H. destruct (fit_inv _ _ _ _ _ _ _ _ _ _ _ H) as (ea & va & va2 & _ & Hi & _ & -> & _).
    destruct (init_inv _ _ _ _ _ _ _ _ _ Hi) as (ba & g1 & wa & p & rs & w2 & Hb & He & -> & _). cbn [e_rs].
    destruct (base_init_inv _ _ _ _ _ _ _ _ _ Hb) as (_ & _ & _ & _ & _ & _ & (g & g' & _ & Hp) & _).
    rewrite Hk in Hp. cbn [rs_put] in Hp. injection Hp as Hp _. rewrite <- Hp in He.
    cbn in He. unfold gauss_init_em in He. destruct (needs_init _ _ _ _) as [nm w].
    apply bind_inv in He as ([[m rs1] g2] & Hm & He). apply bind_inv in He as (b & _ & He).
    assert (Hrs : rs1 = RSSeed k).
    { destruct nm; [|injection Hm as <- <- <-; reflexivity]. cbn [rs_get rs_put] in Hm.
      apply bind_inv in Hm as (gs & _ & Hm). apply bind_inv in Hm as ([m0 gs'] & _ & Hm). injection Hm as <- <- <-. reflexivity. }
    destruct (needs_init _ _ _ _) as [[] w3].
    - apply bind_inv in He as (cv & _ & He). apply bind_inv in He as (u & _ & He). injection He as <- <- <- <-. exact Hrs.
    - injection He as <- <- <- <-. exact Hrs.
  Qed.
End Classes.
