(** * Property lemmas C82, continued: when the second call of [fit] returns. *)
From Verif Require Export Warm_thms.

Section Again.
  Context {P X St G : Type} (E : emclass P X St) (I : initclass P X G) (rg : rng G) (fp : fpmode).
  Hypothesis HB : n_iter_blind E I rg fp.
  Hypothesis N1 : forall c nf p, ec_check E fp (cfg_no_init c) nf p = ec_check E fp c nf p.
  Hypothesis N2 : forall c nf p x, ec_loglik E fp (cfg_no_init c) nf p x = ec_loglik E fp c nf p x.
  Hypothesis N3 : forall c nf p x, ec_lik E fp (cfg_no_init c) nf p x = ec_lik E fp c nf p x.
  Hypothesis N4 : forall c nf p, ec_stats0 E fp (cfg_no_init c) nf p = ec_stats0 E fp c nf p.
  Hypothesis N5 : forall c nf p st x post, ec_acc E fp (cfg_no_init c) nf p st x post = ec_acc E fp c nf p st x post.
  Hypothesis N6 : forall c nf p st, ec_mstep E fp (cfg_no_init c) nf p st = ec_mstep E fp c nf p st.
  Variable x : list X.
  (** [Inv]: a trained estimator whose second [_init] returns; [Ex]: what else is
      assumed of it. *)
  Variable Inv : cfg -> option nat -> P -> Prop.
  Variable Ex : nat -> option nat -> P -> Prop.
  Hypothesis R1 : forall c nf0 p0 nf1 p1 rs g p2 rs' g' ev nf3 p3 d n, ic_nfeat I c nf0 p0 x = Ok (nf1, p1) ->
    ic_nfit I c nf1 p1 = Ok d -> dict_sum d (c_params c) = Ok n ->
    ic_em I fp rg c nf1 p1 x rs g = Ok (p2, rs', g', ev) -> ec_check E fp c nf1 p2 = Ok (nf3, p3) -> Inv c nf3 p3.
  Hypothesis R2 : forall c nf p st p', Inv c nf p -> ec_mstep E fp c nf p st = Ok p' -> Inv c nf p'.
  Hypothesis R3 : forall c k nf p, Inv c nf p -> Ex (c_nc c) nf p -> ic_nfeat I (cfg_no_init (cfg_n_iter k c)) nf p x = Ok (nf, p)
    /\ exists d n, ic_nfit I (cfg_no_init (cfg_n_iter k c)) nf p = Ok d /\ dict_sum d (c_params c) = Ok n.
  Hypothesis R4 : forall c k nf p rs g, Inv c nf p -> Ex (c_nc c) nf p -> valid_rs rg rs ->
    exists rs' ev, ic_em I fp rg (cfg_no_init (cfg_n_iter k c)) nf p x rs g = Ok (p, rs', g, ev).
  Hypothesis R5 : forall c nf p nf' p', Inv c nf p -> Ex (c_nc c) nf p -> ec_check E fp c nf p = Ok (nf', p') -> nf' = nf /\ p' = p.
  Hypothesis R6 : forall c nf p rs g p' rs' g' ev, ic_em I fp rg c nf p x rs g = Ok (p', rs', g', ev) -> valid_rs rg rs -> valid_rs rg rs'.

  Lemma valid_get rs g0 g1 : rs_get rg rs g0 = Ok g1 -> valid_rs rg rs.
  Proof. destruct rs; cbn; eauto. Qed.
  Lemma valid_get_ok rs g0 : valid_rs rg rs -> exists g1, rs_get rg rs g0 = Ok g1 /\ rs_put rs g0 g1 = (rs, g0).
  Proof. destruct rs; cbn; eauto. intros [g ->]. eauto. Qed.
  Lemma valid_put rs g0 g1 rs' g0' : rs_put rs g0 g1 = (rs', g0') -> valid_rs rg rs -> valid_rs rg rs'.
  Proof. destruct rs; cbn; intros H; injection H as <- <-; auto. Qed.
  Lemma valid_adopt rs rs' : rs_adopt rg rs = Ok rs' -> valid_rs rg rs'.
  Proof. destruct rs; cbn; intros H; try (injection H as <-; exact Logic.I). apply bind_inv in H as (g & _ & H). injection H as <-. exact Logic.I. Qed.

  Lemma again_init k hk m0 rs glob : (0 < c_nc (h_cfg hk))%nat ->
    h_start hk <> None -> h_trans hk <> None -> Inv (h_cfg hk) (h_nfeat hk) (h_em hk) -> Ex (c_nc (h_cfg hk)) (h_nfeat hk) (h_em hk) -> valid_rs rg rs ->
    let h := with_cfg cfg_no_init (with_mon m0 (with_cfg (cfg_n_iter k) hk)) in
    exists rs' ev, init I rg fp (Est h rs) glob x = Ok (Est h rs', glob, ev).
  Proof.
    intros Hnc Hs Ht Hi HE Hv. cbv zeta. destruct (R3 _ k _ _ Hi HE) as (A1 & d & n & A2 & A3). destruct (valid_get_ok rs glob Hv) as (g1 & G1 & G2).
    destruct (R4 _ k _ _ rs glob Hi HE Hv) as (rs' & ev & A4).
    unfold init, base_init. cbn [e_hmm e_rs with_cfg with_mon h_cfg h_nfeat h_em h_start h_trans h_mon].
    fold (cfg_n_iter k (h_cfg hk)). fold (cfg_no_init (cfg_n_iter k (h_cfg hk))). rewrite A1. cbn [bind].
    change (c_nc (cfg_no_init (cfg_n_iter k (h_cfg hk)))) with (c_nc (h_cfg hk)). destruct (Nat.eqb_spec (c_nc (h_cfg hk)) 0) as [E0|_]; [lia|].
    rewrite G1. cbn [bind]. unfold needs_init. cbn [cfg_no_init c_init_params has]. destruct (h_start hk) eqn:ES; [|contradiction]. destruct (h_trans hk) eqn:ET; [|contradiction].
    cbn [isSome negb bind]. rewrite G2. fold (cfg_no_init (cfg_n_iter k (h_cfg hk))). rewrite A2. cbn [bind]. change (c_params (cfg_no_init (cfg_n_iter k (h_cfg hk)))) with (c_params (h_cfg hk)). rewrite A3. cbn [bind e_hmm e_rs h_cfg h_nfeat h_em].
    fold (cfg_n_iter k (h_cfg hk)). fold (cfg_no_init (cfg_n_iter k (h_cfg hk))). rewrite A4. cbn [bind h_start h_trans h_mon]. eexists _, _.
    unfold with_cfg, with_mon. cbn [h_cfg h_nfeat h_em h_start h_trans h_mon]. rewrite ES, ET. reflexivity.
  Qed.

  Lemma second_returns a b e glob ls ef gf evf e1 g1 ev1 h' glob2 :
    fit E I rg fp (built (a + b) e) glob x ls = Ok (ef, gf, evf) ->
    fit E I rg fp (built a e) glob x ls = Ok (e1, g1, ev1) ->
    (a + 2 <= length (history ef))%nat \/ (length (history ef) = a + b /\ 0 < b)%nat ->
    check E fp (e_hmm e1) = Ok h' -> Ex (c_nc (h_cfg (e_hmm e1))) (h_nfeat (e_hmm e1)) (h_em (e_hmm e1)) ->
    exists e2 g2 ev2, fit E I rg fp (built b (no_init_params e1)) glob2 x ls = Ok (e2, g2, ev2).
  Proof.
    rewrite (fit_built E I rg fp HB). intros H H1 Hlen Hchk HE. apply bind_inv in H as (y & Hy & H).
    assert (y = x) as ->. { unfold check_array in Hy. destruct x; [discriminate|]. destruct (forallb _ _); [congruence|discriminate]. }
    apply bind_inv in H as ([[ei ga] eva] & Hin & H). apply bind_inv in H as (h1 & Hc & H). apply bind_inv in H as ([[hf mf] ev2] & Hl & H). injection H as <- <- <-.
    rewrite (fit_built E I rg fp HB), Hy in H1. cbn [bind] in H1. rewrite Hin in H1. cbn [bind] in H1. rewrite Hc in H1. cbn [bind] in H1.
    unfold history in Hlen. cbn [e_hmm ended h_mon] in Hlen.
    pose proof (loop_parts fp (em_step E fp x (fit_lengths x ls)) (zero_rows fp) (lim (a + b) (monitor_reset (h_mon h1)))
                  (lim a (monitor_reset (h_mon h1))) (lim b (monitor_reset (h_mon h1))) eq_refl eq_refl eq_refl eq_refl eq_refl eq_refl eq_refl eq_refl
                  a b eq_refl eq_refl eq_refl h1 hf mf ev2 Hl) as LP.
    destruct LP as [(oa & va & L1 & _)|(oa & L1 & (evb & L2) & L3)]; [lia|]. rewrite L2 in H1. cbn [bind] in H1. injection H1 as <- <- <-.
    destruct (L3 ltac:(lia)) as (evc & L4). clear L3. cbn [e_hmm ended h_cfg h_nfeat h_em] in HE. change (c_nc (cfg_n_iter a (h_cfg oa))) with (c_nc (h_cfg oa)) in HE.
    destruct (check_keeps E fp _ _ Hc) as (C1 & C2 & C3 & C4).
    destruct (init_inv _ _ _ _ _ _ _ _ _ Hin) as (eb & gb & vb & p & rs & vb2 & Hb & He & -> & _).
    destruct (base_init_inv _ _ _ _ _ _ _ _ _ Hb) as (A1 & A2 & A0 & A3 & A4 & A5 & (g0 & g2 & A6 & A7) & d & n & A8 & A9 & _).
    cbn [e_hmm e_rs h_cfg h_nfeat h_em h_start h_trans h_mon] in *.
    assert (Hst : h_start h1 <> None /\ h_trans h1 <> None).
    { rewrite C2, C3. unfold check in Hc. cbn [h_start h_trans] in Hc. destruct (h_start (e_hmm eb)); [|discriminate].
      destruct (h_trans (e_hmm eb)); [split; discriminate|destruct (negb _); [discriminate|]; destruct (negb _); discriminate]. }
    assert (Hinv : Inv (h_cfg h1) (h_nfeat h1) (h_em h1)).
    { unfold check in Hc. cbn [h_start h_trans h_cfg h_nfeat h_em h_mon] in Hc. destruct (h_start (e_hmm eb)); [|discriminate].
      destruct (h_trans (e_hmm eb)); [|destruct (negb _); [discriminate|]; destruct (negb _); discriminate].
      apply bind_inv in Hc as ([] & _ & Hc). apply bind_inv in Hc as ([nf p3] & Hc & Eh). injection Eh as <-. cbn [h_cfg h_nfeat h_em].
      rewrite A1 in *. apply (R1 _ _ _ _ _ _ _ _ _ _ _ _ _ _ _ A3 A8 A9 He Hc). }
    assert (Hrs : valid_rs rg rs).
    { apply (R6 _ _ _ _ _ _ _ _ _ He). apply (valid_put _ _ _ _ _ A7). apply (valid_get _ _ _ A6). }
    destruct (fit_loop_trace _ _ _ _ _ _ _ _ _ L2) as (va & Hia & _).
    destruct (iterate_keeps E fp x _ _ h1 oa va Hia) as (D1 & D2 & _).
    assert (Hinva : Inv (h_cfg oa) (h_nfeat oa) (h_em oa)).
    { apply (iterate_inv (em_step E fp x (fit_lengths x ls)) (fun h => Inv (h_cfg h) (h_nfeat h) (h_em h))) with (3 := Hia); [|exact Hinv].
      intros h hh v Hh Hs. apply (em_step_inv E fp Inv R2 _ _ _ _ _ Hs Hh). }
    assert (Hsta : h_start oa <> None /\ h_trans oa <> None).
    { apply (iterate_inv (em_step E fp x (fit_lengths x ls)) (fun h => h_start h <> None /\ h_trans h <> None)) with (3 := Hia); [|exact Hst].
      intros h hh v _ Hs. unfold em_step in Hs. destruct (h_start h); [|discriminate]. destruct (h_trans h); [|discriminate].
      apply bind_inv in Hs as ([st lp] & _ & Hs). unfold do_mstep in Hs. apply bind_inv in Hs as (h3 & Hs & E3). injection E3 as <- _.
      apply bind_inv in Hs as (q & _ & Eh). injection Eh as <-. split; discriminate. }
    set (ma := mon_after (lim a (monitor_reset (h_mon h1))) (firstn a (m_history mf))) in *.
    change (ended a oa ma) with (with_mon ma (with_cfg (cfg_n_iter a) oa)) in *.
    unfold no_init_params. cbn [e_hmm e_rs].
    destruct (again_init a oa ma rs glob2) as (rs' & ev' & Hi2); try assumption; [rewrite D1, C1, A1; exact A0|apply Hsta|apply Hsta|].
    rewrite (fit_built E I rg fp HB), Hy. cbn [bind]. rewrite Hi2. cbn [bind e_hmm e_rs].
    destruct HB as (B1 & B2 & B3 & B4 & B5 & B6 & _).
    assert (Hc2 : check E fp (with_cfg cfg_no_init (with_mon ma (with_cfg (cfg_n_iter a) oa))) = Ok (with_cfg cfg_no_init (with_mon ma (with_cfg (cfg_n_iter a) oa)))).
    { unfold check in *. cbn [with_cfg with_mon h_start h_trans h_cfg h_nfeat h_em h_mon] in *. destruct (h_start oa) eqn:ES; [|discriminate].
      destruct (h_trans oa) eqn:ET; [|destruct (negb _); [discriminate|]; destruct (negb _); discriminate].
      apply bind_inv in Hchk as ([] & Hbc & Hchk). apply bind_inv in Hchk as ([nf p3] & Hchk & _).
      fold (cfg_n_iter a (h_cfg oa)) in *. fold (cfg_no_init (cfg_n_iter a (h_cfg oa))). rewrite B1 in Hchk. destruct (R5 _ _ _ _ _ Hinva HE Hchk) as [-> ->].
      change (c_nc (cfg_no_init (cfg_n_iter a (h_cfg oa)))) with (c_nc (cfg_n_iter a (h_cfg oa))). rewrite Hbc. cbn [bind]. rewrite N1, B1, Hchk. cbn [bind].
      unfold with_cfg, with_mon. cbn [h_cfg h_nfeat h_em h_start h_trans h_mon]. rewrite ES, ET. reflexivity. }
    rewrite Hc2. cbn [bind]. rewrite (fit_loop_i E fp) by assumption. rewrite fit_loop_mon by reflexivity.
    rewrite (fit_loop_n E fp a) by auto.
    replace (lim b (monitor_reset (h_mon (with_cfg cfg_no_init (with_mon ma (with_cfg (cfg_n_iter a) oa)))))) with (lim b (monitor_reset (h_mon h1))) by reflexivity.
    rewrite L4. cbn [bind rmap]. eexists _, _, _. reflexivity.
  Qed.
End Again.

(** [x] has the width the first call has set; the covariances can be read. *)
Definition returns_again {P X St G} (E : emclass P X St) (I : initclass P X G) (rg : rng G) (fp : fpmode) (Ex : est P G -> list X -> Prop) : Prop :=
  forall a b e glob x ls ef gf evf e1 g1 ev1 h' glob2,
  fit E I rg fp (built (a + b) e) glob x ls = Ok (ef, gf, evf) ->
  fit E I rg fp (built a e) glob x ls = Ok (e1, g1, ev1) ->
  (a + 2 <= length (history ef))%nat \/ (length (history ef) = a + b /\ 0 < b)%nat ->
  check E fp (e_hmm e1) = Ok h' -> Ex e1 x ->
  exists e2 g2 ev2, fit E I rg fp (built b (no_init_params e1)) glob2 x ls = Ok (e2, g2, ev2).

Lemma adopt_ok' {G} (rg : rng G) rs : valid_rs rg rs -> exists rs', rs_adopt rg rs = Ok rs'.
Proof. destruct rs; cbn; eauto. intros [g ->]. cbn. eauto. Qed.

Lemma put_valid {G} (rg : rng G) rs g0 g1 rs' g0' : rs_put rs g0 g1 = (rs', g0') -> valid_rs rg rs -> valid_rs rg rs'.
Proof. destruct rs; cbn; intros H; injection H as <- <-; auto. Qed.
Lemma adopt_valid {G} (rg : rng G) rs rs' : rs_adopt rg rs = Ok rs' -> valid_rs rg rs'.
Proof. destruct rs; cbn; intros H; try (injection H as <-; exact Logic.I). apply bind_inv in H as (g & _ & H). injection H as <-. exact Logic.I. Qed.

Lemma C82_categorical_returns_l {G} (rg : rng G) fp : returns_again categorical cat_initc rg fp (fun _ _ => True).
Proof.
  intros a b e glob x ls ef gf evf e1 g1 ev1 h' glob2 H1 H2 H3 H4 _.
  refine (second_returns categorical cat_initc rg fp (cat_blind rg fp) _ _ _ _ _ _ x
    (fun c nf p => cat_prob p <> None /\ (exists n, nf = Some n /\ Z.ltb (zmin x) 0 = false /\ Z.ltb (Z.of_nat n - 1) (zmax x) = false)
              /\ exists d n, cat_nfit c nf p = Ok d /\ dict_sum d (c_params c) = Ok n)
    (fun _ _ _ => True) _ _ _ _ _ _ a b e glob ls ef gf evf e1 g1 ev1 h' glob2 H1 H2 H3 H4 Logic.I); try reflexivity; clear.
  - intros c nf0 p0 nf1 p1 rs g p2 rs' g' ev nf3 p3 d n Hn Hd Hs _. cbn [ic_nfeat ic_nfit cat_initc] in Hn, Hd. cbn [ec_check categorical]. unfold cat_check.
    destruct (cat_prob p2) as [m|] eqn:Em; [|discriminate]. destruct (negb _); [discriminate|]. destruct (negb _); [discriminate|]. intros H. injection H as <- <-.
    rewrite Em. split; [discriminate|]. unfold cat_nfeat in Hn. destruct (Z.ltb (zmin x) 0); [discriminate|].
    assert (Hnf : exists k, nf1 = Some k /\ Z.ltb (Z.of_nat k - 1) (zmax x) = false).
    { destruct nf0 as [k|]; [destruct (Z.ltb _ _) eqn:El; [discriminate|]; injection Hn as <- _; eauto|].
      injection Hn as <- _. eexists. split; [reflexivity|]. apply Z.ltb_ge. lia. }
    destruct Hnf as (k & -> & Hk). split; [eauto|]. exists d, n. split; [exact Hd|exact Hs].
  - intros c nf p st p' (A1 & A2 & A3). cbn [ec_mstep categorical]. unfold cat_mstep. intros H. split; [|split; [exact A2|exact A3]].
    destruct (has _ _); injection H as <-; [discriminate|exact A1].
  - intros c k nf p (A1 & (n & -> & A2 & A3) & A4) _. cbn [ic_nfeat ic_nfit cat_initc]. unfold cat_nfeat. rewrite A2, A3. split; [reflexivity|exact A4].
  - intros c k nf p rs g (A1 & _) _ Hv. cbn [ic_em cat_initc]. unfold cat_init_em. destruct (adopt_ok' rg rs Hv) as [rs1 ->]. cbn [bind]. unfold needs_init.
    cbn [cfg_no_init c_init_params has]. destruct (cat_prob p); [|contradiction]. cbn. eauto.
  - intros c nf p nf' p' (A1 & (n & -> & _) & _) _. cbn [ec_check categorical]. unfold cat_check. intros H. all_ok H. injection H as <- <-. auto.
  - intros c nf p rs g p' rs' g' ev. cbn [ic_em cat_initc]. unfold cat_init_em. intros H _. apply bind_inv in H as (rs1 & Ha & H). destruct (needs_init _ _ _ _) as [[|] w].
    + apply bind_inv in H as (g1 & _ & H). apply bind_inv in H as ([m g2] & _ & H). destruct (rs_put rs1 g g2) as [rs2 gl2] eqn:Ep. injection H as _ <- _ _.
      apply (put_valid _ _ _ _ _ _ Ep). apply (adopt_valid _ _ _ Ha).
    + injection H as _ <- _ _. apply (adopt_valid _ _ _ Ha).
Qed.
Lemma set_nf_again nf n nf' : set_n_features nf n = Ok nf' -> nf' = Some n.
Proof. destruct nf as [m|]; cbn; [destruct (Nat.eqb_spec m n); [|discriminate]|]; intros H; injection H as <-; congruence. Qed.
Lemma C82_poisson_returns_l {G} (rg : rng G) fp : returns_again poisson pois_initc rg fp (fun _ _ => True).
Proof.
  intros a b e glob x ls ef gf evf e1 g1 ev1 h' glob2 H1 H2 H3 H4 _.
  refine (second_returns poisson pois_initc rg fp (pois_blind rg fp) _ _ _ _ _ _ x
    (fun c nf p => po_lam p <> None /\ nf = Some (width x) /\ exists d n, pois_nfit c nf p = Ok d /\ dict_sum d (c_params c) = Ok n)
    (fun _ _ _ => True) _ _ _ _ _ _ a b e glob ls ef gf evf e1 g1 ev1 h' glob2 H1 H2 H3 H4 Logic.I); try reflexivity; clear.
  - intros c nf0 p0 nf1 p1 rs g p2 rs' g' ev nf3 p3 d n Hn Hd Hs _. cbn [ic_nfeat ic_nfit pois_initc] in Hn, Hd. cbn [ec_check poisson]. unfold pois_check.
    destruct (po_lam p2) as [m|] eqn:Em; [|discriminate]. destruct (negb _); [discriminate|]. intros H. injection H as <- <-.
    rewrite Em. split; [discriminate|]. unfold pois_nfeat in Hn. apply bind_inv in Hn as (q & Hq & Hn). injection Hn as <- _. apply set_nf_again in Hq as ->.
    split; [reflexivity|]. exists d, n. split; [exact Hd|exact Hs].
  - intros c nf p st p' (A1 & A2 & A3). cbn [ec_mstep poisson]. unfold pois_mstep. intros H. split; [|split; [exact A2|exact A3]].
    destruct (has _ _); injection H as <-; [discriminate|exact A1].
  - intros c k nf p (A1 & -> & A4) _. cbn [ic_nfeat ic_nfit pois_initc]. unfold pois_nfeat, set_n_features. rewrite Nat.eqb_refl. split; [reflexivity|exact A4].
  - intros c k nf p rs g (A1 & _) _ Hv. cbn [ic_em pois_initc]. unfold pois_init_em. destruct (adopt_ok' rg rs Hv) as [rs1 ->]. cbn [bind]. unfold needs_init.
    cbn [cfg_no_init c_init_params has]. destruct (po_lam p); [|contradiction]. cbn. eauto.
  - intros c nf p nf' p' (A1 & -> & _) _. cbn [ec_check poisson]. unfold pois_check. intros H. all_ok H. injection H as <- <-. auto.
  - intros c nf p rs g p' rs' g' ev. cbn [ic_em pois_initc]. unfold pois_init_em. cbv zeta. intros H _. apply bind_inv in H as (rs1 & Ha & H). destruct (needs_init _ _ _ _) as [[|] w].
    + apply bind_inv in H as (g1 & _ & H). apply bind_inv in H as ([m g2] & _ & H). destruct (rs_put rs1 g g2) as [rs2 gl2] eqn:Ep. injection H as _ <- _ _.
      apply (put_valid _ _ _ _ _ _ Ep). apply (adopt_valid _ _ _ Ha).
    + injection H as _ <- _ _. apply (adopt_valid _ _ _ Ha).
Qed.
Lemma trials_match_again sums : trials_match (TArr sums) sums = Ok true.
Proof.
  cbn. rewrite Nat.eqb_refl. f_equal. apply forallb_forall. intros [a b] H.
  induction sums as [|s l IH]; cbn in H; [contradiction|]. destruct H as [H|H]; [injection H as <- <-; apply Z.eqb_refl|auto].
Qed.
Lemma C82_multinomial_returns_l {G} (rg : rng G) fp : returns_again multinomial mult_initc rg fp (fun _ _ => True).
Proof.
  intros a b e glob x ls ef gf evf e1 g1 ev1 h' glob2 H1 H2 H3 H4 _.
  refine (second_returns multinomial mult_initc rg fp (mult_blind rg fp) _ _ _ _ _ _ x
    (fun c nf p => mu_prob p <> None /\ nf = Some (width x) /\ existsb (existsb (fun k => Z.ltb k 0)) x = false
       /\ (exists tr, mu_trials p = Some tr /\ trials_match tr (map zsum x) = Ok true)
       /\ exists d n, mult_nfit c nf p = Ok d /\ dict_sum d (c_params c) = Ok n)
    (fun _ _ _ => True) _ _ _ _ _ _ a b e glob ls ef gf evf e1 g1 ev1 h' glob2 H1 H2 H3 H4 Logic.I); try reflexivity; clear.
  - intros c nf0 p0 nf1 p1 rs g p2 rs' g' ev nf3 p3 d n Hn Hd Hs He. cbn [ic_nfeat ic_nfit mult_initc] in Hn, Hd. cbn [ec_check multinomial]. unfold mult_check.
    destruct (mu_prob p2) as [m|] eqn:Em; [|discriminate]. destruct (negb _); [discriminate|]. destruct (mu_trials p2) eqn:Et; [|discriminate]. intros H. injection H as <- <-.
    rewrite Em, Et. split; [discriminate|]. unfold mult_nfeat in Hn. apply bind_inv in Hn as (q & Hq & Hn). apply set_nf_again in Hq as ->.
    destruct (existsb _ x) eqn:Ex; [discriminate|]. cbv zeta in Hn.
    assert (Htr : nf1 = Some (width x) /\ exists tr, mu_trials p1 = Some tr /\ trials_match tr (map zsum x) = Ok true).
    { destruct (mu_trials p0) as [tr|] eqn:E0.
      - apply bind_inv in Hn as ([] & Hb & Hn); [|discriminate]. injection Hn as <- <-. eauto.
      - injection Hn as <- <-. split; [reflexivity|]. cbn [mu_trials]. eexists. split; [reflexivity|]. apply trials_match_again. }
    destruct Htr as (-> & tr & Htr & Hb).
    assert (Hsame : mu_trials p2 = mu_trials p1).
    { cbn [ic_em mult_initc] in He. unfold mult_init_em in He. apply bind_inv in He as (rs1 & _ & He). destruct (has _ _); [|injection He as <- _ _ _; reflexivity].
      apply bind_inv in He as (g1 & _ & He). apply bind_inv in He as ([m1 g2] & _ & He). destruct (rs_put _ _ _). injection He as <- _ _ _. reflexivity. }
    rewrite <- Et, Hsame. split; [reflexivity|]. split; [reflexivity|]. split; [eauto|]. exists d, n. split; [exact Hd|exact Hs].
  - intros c nf p st p' (A1 & A2 & A3 & A4 & A5). cbn [ec_mstep multinomial]. unfold mult_mstep. intros H.
    destruct (has _ _); injection H as <-; (split; [|split; [exact A2|split; [exact A3|split; [exact A4|exact A5]]]]); [discriminate|exact A1].
  - intros c k nf p (A1 & -> & A3 & (tr & A4 & A5) & A6) _. cbn [ic_nfeat ic_nfit mult_initc]. unfold mult_nfeat, set_n_features. rewrite Nat.eqb_refl. cbn [bind].
    rewrite A3, A4. cbv zeta. rewrite A5. cbn [bind]. split; [reflexivity|exact A6].
  - intros c k nf p rs g _ _ Hv. cbn [ic_em mult_initc]. unfold mult_init_em. destruct (adopt_ok' rg rs Hv) as [rs1 ->]. cbn [bind cfg_no_init c_init_params has]. eauto.
  - intros c nf p nf' p' (A1 & -> & _) _. cbn [ec_check multinomial]. unfold mult_check. intros H. all_ok H; injection H as <- <-; auto.
  - intros c nf p rs g p' rs' g' ev. cbn [ic_em mult_initc]. unfold mult_init_em. cbv zeta. intros H _. apply bind_inv in H as (rs1 & Ha & H). destruct (has _ _).
    + apply bind_inv in H as (g1 & _ & H). apply bind_inv in H as ([m g2] & _ & H). destruct (rs_put rs1 g g2) as [rs2 gl2] eqn:Ep. injection H as _ <- _ _.
      apply (put_valid _ _ _ _ _ _ Ep). apply (adopt_valid _ _ _ Ha).
    + injection H as _ <- _ _. apply (adopt_valid _ _ _ Ha).
Qed.
(** GaussianHMM: the data have as many columns as [means_], and [covars_] can be
    read after the first call. *)
Lemma C82_gaussian_returns_l {G} (rg : rng G) fp :
  returns_again gaussian gauss_initc rg fp (fun e x => means_fit e /\ h_nfeat (e_hmm e) = Some (width x) /\ exists l, covars_get fp (e_hmm e) = Ok l).
Proof.
  intros a b e glob x ls ef gf evf e1 g1 ev1 h' glob2 H1 H2 H3 H4 HE.
  refine (second_returns gaussian gauss_initc rg fp (gauss_blind rg fp) _ _ _ _ _ _ x
    (fun c nf p => ga_means p <> None /\ ga_covars p <> None /\ exists d n, gauss_nfit c (Some (width x)) p = Ok d /\ dict_sum d (c_params c) = Ok n)
    (fun nc nf p => (exists m, ga_means p = Some m /\ nf = Some (ncol m)) /\ nf = Some (width x)
        /\ forall cv, ga_covars p = Some cv -> exists l, fill_covars fp cv (ga_type p) nc (width x) = Ok l)
    _ _ _ _ _ _ a b e glob ls ef gf evf e1 g1 ev1 h' glob2 H1 H2 H3 H4 _); try reflexivity.
  7: { destruct HE as (A1 & A2 & l & A3). split; [exact A1|]. split; [exact A2|]. intros cv Hcv. unfold covars_get in A3. rewrite Hcv, A2 in A3. eauto. }
  all: clear.
  - intros c nf0 p0 nf1 p1 rs g p2 rs' g' ev nf3 p3 d n Hn Hd Hs He. cbn [ic_nfeat ic_nfit gauss_initc] in Hn, Hd. cbn [ec_check gaussian]. unfold gauss_check.
    destruct (ga_means p2) as [m|] eqn:Em; [|discriminate]. destruct (is_type _ _); [|discriminate]. intros H. injection H as <- <-. rewrite Em.
    unfold gauss_nfeat in Hn. apply bind_inv in Hn as (q & Hq & Hn). injection Hn as <- <-. apply set_nf_again in Hq as ->.
    cbn [ic_em gauss_initc] in He. unfold gauss_init_em in He. destruct (needs_init c "m" _ _) as [nm w]. apply bind_inv in He as ([[q r] s] & _ & He).
    apply bind_inv in He as (is_set & Hset & He). split; [discriminate|]. 
    assert (ga_covars p2 <> None /\ ga_type p2 = ga_type p0) as [Hc Ht].
    { unfold needs_init in He. destruct (has "c" (c_init_params c)).
      + apply bind_inv in He as (cv & _ & He). apply bind_inv in He as ([] & _ & He). injection He as <- _ _ _. split; [discriminate|reflexivity].
      + destruct is_set; cbn [negb] in He.
        * destruct (ga_covars p0) as [cv|] eqn:Ecv; [|discriminate]. injection He as <- _ _ _. split; [discriminate|reflexivity].
        * apply bind_inv in He as (cv & _ & He). apply bind_inv in He as ([] & _ & He). injection He as <- _ _ _. split; [discriminate|reflexivity]. }
    split; [exact Hc|]. exists d, n. split; [|exact Hs]. unfold gauss_nfit in *. rewrite Ht. exact Hd.
  - intros c nf p st p' (H2 & H3 & H4). cbn [ec_mstep gaussian]. unfold gauss_mstep. intros H. apply bind_inv in H as (m & Hm & H). apply bind_inv in H as (cv & Hcv & H).
    injection H as <-. cbn [ga_set ga_means ga_covars].
    assert (Hm' : m <> None). { destruct (has "m" _); [apply bind_inv in Hm as (q & _ & Hm)|]; injection Hm as <-; [discriminate|exact H2]. }
    split; [exact Hm'|]. split; [|exact H4]. destruct (has "c" _); [|injection Hcv as <-; exact H3]. destruct m as [m|]; [|discriminate].
    destruct (vec_type _); [apply bind_inv in Hcv as (q & _ & Hcv); injection Hcv as <-; discriminate|].
    destruct (mat_type _); [apply bind_inv in Hcv as (q & _ & Hcv); injection Hcv as <-; discriminate|]. injection Hcv as <-. exact H3.
  - intros c k nf p (_ & _ & A4) (_ & -> & _). cbn [ic_nfeat ic_nfit gauss_initc]. unfold gauss_nfeat, set_n_features. rewrite Nat.eqb_refl. split; [reflexivity|exact A4].
  - intros c k nf p rs g (A1 & A2 & _) (_ & -> & A3) Hv. cbn [ic_em gauss_initc]. unfold gauss_init_em. unfold needs_init. cbn [cfg_no_init c_init_params has c_nc cfg_n_iter].
    destruct (ga_means p) as [m|] eqn:Em; [|contradiction]. cbn [isSome negb bind]. destruct (ga_covars p) as [cv|] eqn:Ecv; [|contradiction].
    destruct (A3 cv eq_refl) as [l Hl]. rewrite Hl. cbn [bind negb]. eexists _, _. destruct p. cbn in Em, Ecv. subst. reflexivity.
  - intros c nf p nf' p' _ ((m & Em & ->) & _). cbn [ec_check gaussian]. unfold gauss_check. rewrite Em. intros H. all_ok H. injection H as <- <-. auto.
  - intros c nf p rs g p' rs' g' ev. cbn [ic_em gauss_initc]. unfold gauss_init_em. intros H Hv. destruct (needs_init c "m" _ _) as [nm w].
    apply bind_inv in H as ([[q r] s] & Hq & H). apply bind_inv in H as (is_set & _ & H). 
    assert (Hr : valid_rs rg r).
    { destruct nm; [|injection Hq as _ <- _; exact Hv]. apply bind_inv in Hq as (g1 & _ & Hq). apply bind_inv in Hq as ([m g2] & _ & Hq).
      destruct (rs_put rs g g2) as [rs2 gl2] eqn:Ep. injection Hq as _ <- _. apply (put_valid _ _ _ _ _ _ Ep Hv). }
    destruct (needs_init c "c" _ _) as [[|] w2].
    + apply bind_inv in H as (cv & _ & H). apply bind_inv in H as ([] & _ & H). injection H as _ <- _ _. exact Hr.
    + injection H as _ <- _ _. exact Hr.
Qed.
