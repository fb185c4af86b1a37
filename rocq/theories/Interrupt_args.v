(** * Property lemmas C81: the arguments of the constructor after an exception,
    trying again. *)
From Verif Require Export Interrupt_thms.

Section Kept.
  Context {P X St G V : Type} (E : emclass P X St) (I : initclass P X G) (L : leftclass P X St G) (rg : rng G) (fp : fpmode).
  Variable F : P -> V.
  Variable Q : rstate G -> rstate G -> Prop.
  Hypothesis Q1 : forall r, Q r r.
  Hypothesis Q2 : forall a b c, Q a b -> Q b c -> Q a c.
  Hypothesis Q3 : forall r glob g r' glob', rs_put r glob g = (r', glob') -> Q r r'.
  Hypothesis Hn : forall c nf p x nf' p', ic_nfeat I c nf p x = Ok (nf', p') -> F p' = F p.
  Hypothesis Ln : forall c nf p x, F (snd (lf_nfeat L c nf p x)) = F p.
  Hypothesis He : forall c nf p x rs g p' rs' g' ev, ic_em I fp rg c nf p x rs g = Ok (p', rs', g', ev) -> F p' = F p /\ Q rs rs'.
  Hypothesis Le : forall c nf p x rs g p' rs' g', lf_em L fp rg c nf p x rs g = (p', rs', g') -> F p' = F p /\ Q rs rs'.
  Hypothesis Hc : forall c nf p nf' p', ec_check E fp c nf p = Ok (nf', p') -> F p' = F p.
  Hypothesis Lc : forall c nf p, F (snd (lf_check L fp c nf p)) = F p.
  Hypothesis Hm : forall c nf p st p', ec_mstep E fp c nf p st = Ok p' -> F p' = F p.
  Hypothesis Lm : forall c nf p st, F (lf_mstep L fp c nf p st) = F p.

  Definition kept_h (h h' : hmm P) : Prop := h_cfg h' = h_cfg h /\ F (h_em h') = F (h_em h).
  Definition kept (e e' : est P G) : Prop :=
    kept_h (e_hmm e) (e_hmm e') /\ Q (e_rs e) (e_rs e') /\ monitor_reset (h_mon (e_hmm e')) = monitor_reset (h_mon (e_hmm e)).
  Definition ends (o : outcome P G) (e : est P G) : Prop :=
    match o with Returned e' _ _ => kept e e' | Raised e' _ _ => kept e e' end.
  Ltac kp := unfold ends, kept, kept_h; cbn [e_hmm e_rs h_cfg h_em h_mon].

  Lemma base_init_run_kept e glob x : ends (base_init_run I L rg fp e glob x) e.
  Proof.
    unfold base_init_run. set (c := h_cfg (e_hmm e)).
    destruct (ic_nfeat I c _ _ x) as [[nf p]|ex] eqn:En.
    2:{ pose proof (Ln c (h_nfeat (e_hmm e)) (h_em (e_hmm e)) x) as K. destruct (lf_nfeat L c _ _ x) as [nf p]. kp. auto. }
    apply Hn in En. destruct (Nat.eqb (c_nc c) 0); [kp; auto|]. destruct (rs_get rg (e_rs e) glob) as [g|ex]; [|kp; auto].
    destruct (needs_init c "s" _ _) as [ns ev1]. destruct (if ns then _ else _) as [[s g1]|ex]; [|kp; auto].
    destruct (needs_init c "t" _ _) as [nt ev2].
    destruct (if nt then _ else _) as [[t g2]|ex].
    2:{ destruct (rs_put (e_rs e) glob g1) eqn:Ep. apply Q3 in Ep. kp. auto. }
    destruct (rs_put (e_rs e) glob g2) as [rs glob'] eqn:Ep. apply Q3 in Ep. destruct (bind _ _); kp; auto.
  Qed.
  Lemma init_run_kept e glob x : ends (init_run I L rg fp e glob x) e.
  Proof.
    unfold init_run. pose proof (base_init_run_kept e glob x) as B. destruct (base_init_run I L rg fp e glob x) as [e1 g1 ev1|e1 g1 ex]; [|exact B].
    destruct B as ((B1 & B2) & B3 & B4).
    destruct (ic_em I fp rg _ _ _ x _ g1) as [[[[p rs] g2] ev2]|ex] eqn:Ee.
    - apply He in Ee as (E1 & E2). kp. split; [split; congruence|]. split; [apply (Q2 _ _ _ B3 E2)|exact B4].
    - destruct (lf_em L fp rg _ _ _ x _ g1) as [[p rs] g2] eqn:El. apply Le in El as (E1 & E2). kp.
      split; [split; congruence|]. split; [apply (Q2 _ _ _ B3 E2)|exact B4].
  Qed.
  Lemma loop_run_kept x ls n : forall h m h2 m2 r, loop_run E L fp x ls n h m = (h2, m2, r) ->
    kept_h h h2 /\ monitor_reset m2 = monitor_reset m.
  Proof.
    induction n as [|n IH]; intros h m h2 m2 r H; cbn [loop_run] in H.
    - injection H as <- <- _. split; [split|]; reflexivity.
    - destruct (em_step E fp x ls h) as [[h' lb]|ex'] eqn:Es.
      + destruct (em_step_keeps E fp x ls h h' lb Es) as (A1 & _ & _ & _ & _ & A6).
        specialize (A6 V F (fun nf p st p' => Hm (h_cfg h) nf p st p')).
        destruct (monitor_report fp m lb) as [m' ev] eqn:Em.
        assert (Hmm : monitor_reset m' = monitor_reset m). { unfold monitor_report in Em. injection Em as <- _. reflexivity. }
        destruct (converged fp m').
        * injection H as <- <- _. split; [split; assumption|exact Hmm].
        * destruct (loop_run E L fp x ls n h' m') as [[h3 m3] r3] eqn:El. injection H as <- <- _.
          destruct (IH _ _ _ _ _ El) as ((I1 & I2) & I3). split; [split|]; congruence.
      + injection H as <- <- _. split; [|reflexivity]. unfold step_left. destruct (h_start h); [|split; reflexivity]. destruct (h_trans h); [|split; reflexivity].
        destruct (do_estep _ _ _ _ _ _ _) as [[st lp]|]; [|split; reflexivity]. split; [reflexivity|]. cbn [h_em]. apply Lm.
  Qed.
  Lemma fit_run_kept e glob x ls : ends (fit_run E I L rg fp e glob x ls) e.
  Proof.
    unfold fit_run. destruct (check_array (ec_xok E) x) as [y|]; [|kp; auto].
    pose proof (init_run_kept e glob y) as B. destruct (init_run I L rg fp e glob y) as [e1 g1 ev1|e1 g1 ex]; [|exact B].
    destruct B as ((B1 & B2) & B3 & B4). destruct (check E fp (e_hmm e1)) as [h1|ex] eqn:Ec.
    - destruct (check_keeps E fp _ _ Ec) as (C1 & _ & _ & C4).
      assert (C2 : F (h_em h1) = F (h_em (e_hmm e1))).
      { unfold check in Ec. destruct (h_start (e_hmm e1)); [|discriminate].
        destruct (h_trans (e_hmm e1)); [|destruct (negb _); [discriminate|]; destruct (negb _); discriminate].
        apply bind_inv in Ec as ([] & _ & Ec). apply bind_inv in Ec as ([nf p] & Hcc & Ec). injection Ec as <-. apply (Hc _ _ _ _ _ Hcc). }
      destruct (loop_run E L fp y _ _ h1 _) as [[h2 m] r] eqn:El. destruct (loop_run_kept _ _ _ _ _ _ _ _ El) as ((L1 & L2) & L3).
      assert (K : kept e (Est (mon_set h2 m) (e_rs e1))).
      { kp. cbn [mon_set h_cfg h_em h_mon]. split; [split; congruence|]. split; [exact B3|].
        assert (monitor_reset m = monitor_reset (h_mon h1)) by (rewrite L3; reflexivity). congruence. }
      destruct r; exact K.
    - kp. assert (K : kept_h (e_hmm e1) (check_left L fp (e_hmm e1)) /\ h_mon (check_left L fp (e_hmm e1)) = h_mon (e_hmm e1)).
      { unfold check_left. destruct (h_start (e_hmm e1)); [|split; [split|]; reflexivity]. destruct (h_trans (e_hmm e1)); [|split; [split|]; reflexivity].
        destruct (base_check _ _ _ _); [|split; [split|]; reflexivity].
        pose proof (Lc (h_cfg (e_hmm e1)) (h_nfeat (e_hmm e1)) (h_em (e_hmm e1))) as K. destruct (lf_check L fp _ _ _) as [nf p].
        split; [split; [reflexivity|exact K]|reflexivity]. }
      destruct K as ((K1 & K2) & K3). split; [split; congruence|]. split; [exact B3|]. rewrite K3. exact B4.
  Qed.
End Kept.

(** ** The arguments of the constructor. *)
Lemma gauss_run_kept {G} (rg : rng G) fp e glob x ls :
  ends gauss_args same_random_state (fit_run gaussian gauss_initc gauss_left rg fp e glob x ls) e.
Proof.
  apply fit_run_kept.
  - apply same_rs_refl.
  - apply same_rs_trans.
  - intros r gl g r' gl' H. apply (same_rs_put _ _ _ _ _ H).
  - cbn [ic_nfeat gauss_initc]. unfold gauss_nfeat. intros c nf p y nf' p' H. apply bind_inv in H as (a & _ & H). injection H as _ <-. reflexivity.
  - reflexivity.
  - cbn [ic_em gauss_initc]. apply gauss_args_init.
  - cbn [lf_em gauss_left]. intros c nf p y rs g p' rs' g' H. destruct (fst _).
    + destruct (bind _ _) as [[m g1]|].
      * destruct (rs_put rs g g1) as [rs1 gl1] eqn:Ep. injection H as <- <- _. split; [reflexivity|]. apply (same_rs_put _ _ _ _ _ Ep).
      * injection H as <- <- _. split; [reflexivity|apply same_rs_refl].
    + injection H as <- <- _. split; [reflexivity|apply same_rs_refl].
  - cbn [ec_check gaussian]. apply gauss_args_check.
  - cbn [lf_check gauss_left]. intros c nf p. destruct (ga_means p); reflexivity.
  - cbn [ec_mstep gaussian]. apply gauss_args_mstep.
  - cbn [lf_mstep gauss_left]. intros c nf p st. destruct (has "m" _); [|reflexivity]. destruct (gauss_means _ _ _); reflexivity.
Qed.
Lemma C81_gaussian_arguments_l {G} (rg : rng G) fp e glob x ls e' glob' ex :
  fit_run gaussian gauss_initc gauss_left rg fp e glob x ls = Raised e' glob' ex ->
  let h := e_hmm e in let h' := e_hmm e' in
  h_cfg h' = h_cfg h /\ same_random_state (e_rs e) (e_rs e')
  /\ ga_type (h_em h') = ga_type (h_em h) /\ ga_min_covar (h_em h') = ga_min_covar (h_em h)
  /\ ga_mprior (h_em h') = ga_mprior (h_em h) /\ ga_mweight (h_em h') = ga_mweight (h_em h)
  /\ ga_cprior (h_em h') = ga_cprior (h_em h) /\ ga_cweight (h_em h') = ga_cweight (h_em h).
Proof.
  intros H. cbv zeta. pose proof (gauss_run_kept rg fp e glob x ls) as K. rewrite H in K. destruct K as ((K1 & K2) & K3 & _).
  unfold gauss_args in K2. injection K2 as -> -> -> -> -> ->. auto 10.
Qed.

(** ** Trying again.  What the failed attempt left behind does not matter. *)
Lemma gauss_seeded {G} (rg : rng G) fp e f ga gb x ls k e1 g1 v1 e2 g2 v2 :
  h_cfg (e_hmm f) = h_cfg (e_hmm e) -> gauss_args (h_em (e_hmm f)) = gauss_args (h_em (e_hmm e)) ->
  monitor_reset (h_mon (e_hmm f)) = monitor_reset (h_mon (e_hmm e)) -> e_rs e = RSSeed k -> e_rs f = RSSeed k ->
  has "s" (c_init_params (h_cfg (e_hmm e))) = true -> has "t" (c_init_params (h_cfg (e_hmm e))) = true ->
  has "m" (c_init_params (h_cfg (e_hmm e))) = true -> has "c" (c_init_params (h_cfg (e_hmm e))) = true ->
  fit gaussian gauss_initc rg fp e ga x ls = Ok (e1, g1, v1) -> fit gaussian gauss_initc rg fp f gb x ls = Ok (e2, g2, v2) -> e2 = e1.
Proof.
  intros Hcf Haf Hmf Ke Kf Hs Ht Hm Hc H1 H2.
  destruct (fit_inv _ _ _ _ _ _ _ _ _ _ _ H1) as (ea & va & va2 & _ & Hia & Hfa & Hra & _).
  destruct (fit_inv _ _ _ _ _ _ _ _ _ _ _ H2) as (eb & vb & vb2 & _ & Hib & Hfb & Hrb & _).
  destruct (init_inv _ _ _ _ _ _ _ _ _ Hia) as (ba & ga1 & wa & pa & rsa & wa2 & Hba & Hema & Hea & _).
  destruct (init_inv _ _ _ _ _ _ _ _ _ Hib) as (bb & gb1 & wb & pb & rsb & wb2 & Hbb & Hemb & Heb & _).
  destruct (base_init_inv _ _ _ _ _ _ _ _ _ Hba) as (A1 & A2 & _ & A4 & _).
  destruct (base_init_inv _ _ _ _ _ _ _ _ _ Hbb) as (B1 & B2 & _ & B4 & _).
  destruct (base_init_seed gauss_initc rg fp e f ga gb x k ba ga1 wa bb gb1 wb Hba Hbb Hcf Ke Kf Hs Ht) as (S1 & S2 & S3 & S4 & _ & _).
  cbn [ic_nfeat gauss_initc] in A4, B4. unfold gauss_nfeat in A4, B4.
  apply bind_inv in A4 as (a & A4 & A5). apply set_n_features_ok in A4 as ->. injection A5 as A5 A6.
  apply bind_inv in B4 as (b & B4 & B5). apply set_n_features_ok in B4 as ->. injection B5 as B5 B6.
  rewrite A1, S3 in Hema. rewrite B1, S4, Hcf in Hemb. cbn [ic_em gauss_initc] in Hema, Hemb.
  destruct (gauss_init_seed rg fp _ _ _ _ _ _ _ _ _ _ Hm Hc Hema) as (-> & gs & m & gs' & cv & K1 & K2 & K3 & ->).
  destruct (gauss_init_seed rg fp _ _ _ _ _ _ _ _ _ _ Hm Hc Hemb) as (-> & gt & m2 & gt' & cv2 & L1 & L2 & L3 & ->).
  rewrite K1 in L1. injection L1 as <-. rewrite K2 in L2. injection L2 as <- <-.
  rewrite <- A6 in *. rewrite <- B6 in *. unfold gauss_args in Haf. injection Haf as P1 P2 P3 P4 P5 P6.
  rewrite P1, P2, K3 in L3. injection L3 as <-.
  assert (Hab : e_hmm eb = with_mon (h_mon (e_hmm f)) (e_hmm ea)).
  { rewrite Heb, Hea. cbn [e_hmm]. unfold with_mon. cbn [h_cfg h_nfeat h_start h_trans h_em].
    rewrite S1, S2, <- A5, <- B5, A1, B1, B2, Hcf. unfold ga_set. rewrite P1, P2, P3, P4, P5, P6. reflexivity. }
  rewrite Hab, fit_from_mon in Hfb.
  - rewrite Hfa in Hfb. injection Hfb as Hh _. destruct e1 as [h1' rs1], e2 as [h2' rs2]. cbn [e_hmm e_rs] in *. subst. reflexivity.
  - rewrite Hmf, Hea. cbn [e_hmm h_mon]. rewrite A2. reflexivity.
Qed.
Lemma C81_gaussian_again_l {G} (rg : rng G) fp e glob x ls e' glob' ex ga gb y ms k e1 g1 v1 e2 g2 v2 :
  fit_run gaussian gauss_initc gauss_left rg fp e glob x ls = Raised e' glob' ex ->
  e_rs e = RSSeed k ->
  (forall l, In l ["s"; "t"; "m"; "c"]%char -> has l (c_init_params (h_cfg (e_hmm e))) = true) ->
  fit gaussian gauss_initc rg fp e ga y ms = Ok (e1, g1, v1) -> fit gaussian gauss_initc rg fp e' gb y ms = Ok (e2, g2, v2) ->
  e2 = e1.
Proof.
  intros HR Hk Hl H1 H2. pose proof (gauss_run_kept rg fp e glob x ls) as K. rewrite HR in K. destruct K as ((K1 & K2) & K3 & K4).
  rewrite Hk in K3. assert (Hk' : e_rs e' = RSSeed k). { unfold same_random_state in K3. destruct (e_rs e'); try contradiction; congruence. }
  apply (gauss_seeded rg fp e e' ga gb y ms k e1 g1 v1 e2 g2 v2 K1 K2 K4 Hk Hk'); try assumption; apply Hl; cbn; auto.
Qed.

(** It returns, too, unless [n_features] or the getter of [covars_] is in the way. *)
Definition getter_ok (fp : fpmode) (h : hmm gaussp) (n : nat) : Prop :=
  match ga_covars (h_em h) with
  | None => True
  | Some cv => exists m, fill_covars fp cv (ga_type (h_em h)) (c_nc (h_cfg h)) n = Ok m
  end.
Lemma C81_gaussian_retry_l {G} (rg : rng G) fp e glob x ls e' glob' ex ga gb y ms k e1 g1 v1 :
  fit_run gaussian gauss_initc gauss_left rg fp e glob x ls = Raised e' glob' ex ->
  e_rs e = RSSeed k ->
  (forall l, In l ["s"; "t"; "m"; "c"]%char -> has l (c_init_params (h_cfg (e_hmm e))) = true) ->
  fit gaussian gauss_initc rg fp e ga y ms = Ok (e1, g1, v1) ->
  h_nfeat (e_hmm e') = None \/ h_nfeat (e_hmm e') = Some (width y) -> getter_ok fp (e_hmm e') (width y) ->
  exists g2 v2, fit gaussian gauss_initc rg fp e' gb y ms = Ok (e1, g2, v2).
Proof.
  intros HR Hk Hl H1 Hn Hg. pose proof (gauss_run_kept rg fp e glob x ls) as K. rewrite HR in K. destruct K as ((K1 & K2) & K3 & K4).
  rewrite Hk in K3. assert (Hk' : e_rs e' = RSSeed k). { unfold same_random_state in K3. destruct (e_rs e'); try contradiction; congruence. }
  assert (Hs := Hl "s"%char ltac:(cbn; auto)). assert (Ht := Hl "t"%char ltac:(cbn; auto)).
  assert (Hm := Hl "m"%char ltac:(cbn; auto)). assert (Hc := Hl "c"%char ltac:(cbn; auto)).
  destruct (fit_inv _ _ _ _ _ _ _ _ _ _ _ H1) as (ea & va & va2 & Hx & Hia & Hfa & Hra & _).
  assert (Q : exists vb, init gauss_initc rg fp e' gb y = Ok (Est (with_mon (h_mon (e_hmm e')) (e_hmm ea)) (e_rs ea), gb, vb)
              /\ h_mon (e_hmm ea) = h_mon (e_hmm e)).
  { clear H1 Hfa Hra. unfold init in Hia |- *. apply bind_inv in Hia as ([[ba ga1] wa] & Hba & Hia).
    unfold base_init in Hba |- *. rewrite K1, Hk'. rewrite Hk in Hba. unfold needs_init in Hba |- *. rewrite Hs, Ht in Hba. rewrite Hs, Ht.
    cbn [ic_nfeat gauss_initc] in Hba |- *. unfold gauss_nfeat in Hba |- *.
    apply bind_inv in Hba as ([nf p] & Hnf & Hba). apply bind_inv in Hnf as (a & Ha & Hnf). apply set_n_features_ok in Ha as ->. injection Hnf as <- <-.
    assert (Hn' : set_n_features (h_nfeat (e_hmm e')) (width y) = Ok (Some (width y))).
    { unfold set_n_features. destruct Hn as [->| ->]; [reflexivity|]. rewrite Nat.eqb_refl. reflexivity. }
    rewrite Hn'. cbn [bind]. destruct (Nat.eqb _ 0); [discriminate|]. cbn [rs_get] in Hba |- *.
    destruct (r_seed rg k) as [g0|]; [|discriminate]. cbn [bind] in Hba |- *.
    destruct (r_dirichlet rg _ g0) as [[v g2]|]; [|discriminate]. cbn [bind] in Hba |- *.
    destruct (draws _ _ g2) as [[l g3]|]; [|discriminate]. cbn [bind rs_put] in Hba |- *.
    assert (Hty : ga_type (h_em (e_hmm e')) = ga_type (h_em (e_hmm e))) by (unfold gauss_args in K2; congruence).
    cbn [ic_nfit gauss_initc] in Hba |- *. unfold gauss_nfit in Hba |- *. rewrite Hty.
    apply bind_inv in Hba as (d & Hd & Hba). rewrite Hd. cbn [bind]. apply bind_inv in Hba as (n & Hdn & Hba). rewrite Hdn. cbn [bind].
    injection Hba as <- <- <-. cbn [e_hmm e_rs h_cfg h_nfeat h_start h_trans h_mon h_em] in Hia |- *.
    apply bind_inv in Hia as ([[[p rs] g4] w] & He & Hia). injection Hia as <- <- <-. cbn [e_hmm e_rs h_cfg h_nfeat h_start h_trans h_mon h_em].
    cbn [ic_em gauss_initc] in He |- *. unfold gauss_init_em, needs_init in He |- *. rewrite Hm, Hc in He. rewrite Hm, Hc. cbn [rs_get] in He |- *.
    destruct (r_seed rg k) as [g5|]; [|discriminate]. cbn [bind] in He |- *.
    destruct (r_kmeans rg _ y g5) as [[m g6]|]; [|discriminate]. cbn [bind rs_put] in He |- *.
    apply bind_inv in He as (b & _ & He). apply bind_inv in He as (cv & Hcv & He). apply bind_inv in He as ([] & Hv & He). injection He as <- <- <- <-.
    assert (Hmc : ga_min_covar (h_em (e_hmm e')) = ga_min_covar (h_em (e_hmm e))) by (unfold gauss_args in K2; congruence).
    rewrite Hmc. unfold getter_ok in Hg. rewrite K1 in Hg. rewrite Hty in *.
    assert (S1 : exists bb, match ga_covars (h_em (e_hmm e')) with
                 | Some cv => do _ <- fill_covars fp cv (ga_type (h_em (e_hmm e))) (c_nc (h_cfg (e_hmm e))) (width y); Ok true
                 | None => Ok false end = Ok bb).
    { destruct (ga_covars (h_em (e_hmm e'))); [|eauto]. destruct Hg as (m' & ->). eexists; reflexivity. }
    destruct S1 as (bb & S1). rewrite S1. cbn [bind]. rewrite Hcv. cbn [bind]. rewrite Hv. cbn [bind].
    eexists. split; [|reflexivity]. unfold with_mon. cbn [h_cfg h_nfeat h_start h_trans h_em]. unfold gauss_args in K2. injection K2 as P1 P2 P3 P4 P5 P6.
    unfold ga_set. rewrite P1, P2, P3, P4, P5, P6. reflexivity. }
  destruct Q as (vb & Hib & Hmo). exists gb. unfold fit. rewrite Hx. cbn [bind]. rewrite Hib. cbn [bind e_hmm e_rs].
  rewrite fit_from_mon by (rewrite K4, Hmo; reflexivity). rewrite Hfa. cbn [bind]. eexists. destruct e1 as [h1 r1]. cbn [e_hmm e_rs] in *. rewrite Hra. reflexivity.
Qed.
