(** * Property lemmas C84: queries before the first fit. *)
From Verif Require Export Query_again.

Section Cong.
  Context {P X St G : Type} (E : emclass P X St) (I : initclass P X G) (rg : rng G) (fp : fpmode).
  Lemma fit_cong (h : hmm P) rs nf2 p2 glob x ls nf' p1 p1' :
    let c := h_cfg h in
    ic_nfeat I c (h_nfeat h) (h_em h) x = Ok (nf', p1) -> ic_nfeat I c nf2 p2 x = Ok (nf', p1') ->
    ic_nfit I c nf' p1' = ic_nfit I c nf' p1 ->
    (forall r g, ic_em I fp rg c nf' p1' x r g = ic_em I fp rg c nf' p1 x r g) ->
    fit E I rg fp (Est (Hmm c nf2 (h_start h) (h_trans h) (h_mon h) p2) rs) glob x ls = fit E I rg fp (Est h rs) glob x ls.
  Proof.
    cbv zeta. intros H1 H2 H3 H4. unfold fit. destruct (check_array (ec_xok E) x) as [y|] eqn:Hy; [|reflexivity]. cbn [bind].
    assert (y = x) as ->. { unfold check_array in Hy. destruct x; [discriminate|]. destruct (forallb _ _); [congruence|discriminate]. }
    assert (Hi : init I rg fp (Est (Hmm (h_cfg h) nf2 (h_start h) (h_trans h) (h_mon h) p2) rs) glob x = init I rg fp (Est h rs) glob x).
    { unfold init, base_init. cbn [e_hmm e_rs h_cfg h_nfeat h_start h_trans h_mon h_em]. rewrite H1, H2. cbn [bind]. rewrite H3.
      destruct (Nat.eqb _ 0); [reflexivity|]. destruct (rs_get rg rs glob) as [g|]; [|reflexivity]. cbn [bind].
      destruct (needs_init _ "s" _ _) as [ns ev1].
      destruct (if ns then _ else _) as [[s g1]|]; [|reflexivity]. cbn [bind].
      destruct (needs_init _ "t" _ _) as [nt ev2].
      destruct (if nt then _ else _) as [[t g2]|]; [|reflexivity]. cbn [bind]. destruct (rs_put rs glob g2) as [rs1 glob1].
      destruct (ic_nfit I (h_cfg h) nf' p1) as [d|]; [|reflexivity]. cbn [bind]. destruct (dict_sum d _) as [n|]; [|reflexivity]. cbn [bind e_hmm e_rs h_cfg h_nfeat h_start h_trans h_mon h_em].
      rewrite H4. reflexivity. }
    rewrite Hi. reflexivity.
  Qed.
End Cong.

(** A query changes [n_features] at most, and only from unknown to the number of
    columns of the parameter [m]. *)
Lemma query_form {P X St G} (E : emclass P X St) (L : leftclass P X St G) fp (h : hmm P) (Q : option nat -> P -> Prop) :
  Q (h_nfeat h) (h_em h) ->
  (forall nf p, ec_check E fp (h_cfg h) (h_nfeat h) (h_em h) = Ok (nf, p) -> Q nf p) ->
  (forall nf p, lf_check L fp (h_cfg h) (h_nfeat h) (h_em h) = (nf, p) -> Q nf p) ->
  exists nf p, query E L fp h = Hmm (h_cfg h) nf (h_start h) (h_trans h) (h_mon h) p /\ Q nf p.
Proof.
  intros H0 H1 H2. unfold query. destruct (h_start h) as [s|] eqn:Es.
  2: { exists (h_nfeat h), (h_em h). split; [rewrite <- Es; symmetry; apply same_fields|exact H0]. }
  destruct (check E fp h) as [h'|] eqn:Hc.
  - destruct (check_fields _ _ _ _ Hc) as (F1 & F2 & F3 & F4 & F5). exists (h_nfeat h'), (h_em h'). split; [|apply (H1 _ _ F5)].
    rewrite <- F1, <- Es, <- F2, <- F3, <- F4. symmetry. apply same_fields.
  - unfold check_left. rewrite Es. destruct (h_trans h) as [t|] eqn:Et.
    2: { exists (h_nfeat h), (h_em h). split; [rewrite <- Es, <- Et; symmetry; apply same_fields|exact H0]. }
    destruct (base_check _ _ _ _).
    2: { exists (h_nfeat h), (h_em h). split; [rewrite <- Es, <- Et; symmetry; apply same_fields|exact H0]. }
    destruct (lf_check L fp _ _ _) as [nf p] eqn:El. exists nf, p. split; [reflexivity|apply (H2 _ _ eq_refl)].
Qed.

(** If [n_features] is all that a query changes, [fit] is the same as without it as
    soon as it would set [n_features] to the same number. *)
Section First.
  Context {P X St G : Type} (E : emclass P X St) (I : initclass P X G) (L : leftclass P X St G) (rg : rng G) (fp : fpmode).
  Variable cols : P -> option nat.
  Variable ok : option nat -> P -> Prop.
  Hypothesis C : forall c nf p nf' p', ok nf p -> ec_check E fp c nf p = Ok (nf', p') -> p' = p /\ (nf' = nf \/ nf = None /\ nf' = cols p).
  Hypothesis D : forall c nf p nf' p', ok nf p -> lf_check L fp c nf p = (nf', p') -> p' = p /\ (nf' = nf \/ nf = None /\ nf' = cols p).
  Lemma query_first e : let h := e_hmm e in ok (h_nfeat h) (h_em h) ->
    queried E L fp e = e
    \/ h_nfeat h = None /\ queried E L fp e = Est (Hmm (h_cfg h) (cols (h_em h)) (h_start h) (h_trans h) (h_mon h) (h_em h)) (e_rs e).
  Proof.
    cbv zeta. intros Hk. destruct (query_form E L fp (e_hmm e) (fun nf p => p = h_em (e_hmm e) /\ (nf = h_nfeat (e_hmm e) \/ h_nfeat (e_hmm e) = None /\ nf = cols (h_em (e_hmm e)))))
      as (nf & p & Hq & -> & Hn); [auto|intros nf p; apply C; exact Hk|intros nf p; apply D; exact Hk|].
    unfold queried. rewrite Hq. destruct Hn as [->|[Hn ->]].
    - left. rewrite same_fields. destruct e. reflexivity.
    - right. auto.
  Qed.
  Lemma fit_nfeat (h : hmm P) rs nf2 glob x ls :
    ic_nfeat I (h_cfg h) nf2 (h_em h) x = ic_nfeat I (h_cfg h) (h_nfeat h) (h_em h) x ->
    fit E I rg fp (Est (Hmm (h_cfg h) nf2 (h_start h) (h_trans h) (h_mon h) (h_em h)) rs) glob x ls = fit E I rg fp (Est h rs) glob x ls.
  Proof.
    intros H. destruct (ic_nfeat I (h_cfg h) (h_nfeat h) (h_em h) x) as [[nf' p1]|ex] eqn:Hn.
    - apply (fit_cong E I rg fp h rs nf2 (h_em h) glob x ls nf' p1 p1 Hn H eq_refl). reflexivity.
    - unfold fit. destruct (check_array _ x) as [y|] eqn:Hy; [|reflexivity]. cbn [bind].
      assert (y = x) as ->. { unfold check_array in Hy. destruct x; [discriminate|]. destruct (forallb _ _); [congruence|discriminate]. }
      unfold init, base_init. cbn [e_hmm e_rs h_cfg h_nfeat h_start h_trans h_mon h_em]. rewrite H, Hn. reflexivity.
  Qed.
  Lemma first_same e glob x ls : ok (h_nfeat (e_hmm e)) (h_em (e_hmm e)) ->
    (h_nfeat (e_hmm e) = None -> ic_nfeat I (h_cfg (e_hmm e)) (cols (h_em (e_hmm e))) (h_em (e_hmm e)) x = ic_nfeat I (h_cfg (e_hmm e)) None (h_em (e_hmm e)) x) ->
    fit E I rg fp (queried E L fp e) glob x ls = fit E I rg fp e glob x ls.
  Proof.
    intros Hk H. destruct (query_first e Hk) as [->|[Hn ->]]; [reflexivity|]. specialize (H Hn). destruct e as [h rs]. cbn [e_hmm e_rs] in *.
    apply fit_nfeat. rewrite Hn. exact H.
  Qed.
End First.
Lemma fit_width_err {P X St G} (E : emclass P X St) (I : initclass P X G) rg fp (e : est P G) glob x ls ex :
  ic_nfeat I (h_cfg (e_hmm e)) (h_nfeat (e_hmm e)) (h_em (e_hmm e)) x = Err ex -> exists ex', fit E I rg fp e glob x ls = Err ex'.
Proof.
  intros H. unfold fit. destruct (check_array _ x) as [y|] eqn:Hy; [|eexists; reflexivity]. cbn [bind].
  assert (y = x) as ->. { unfold check_array in Hy. destruct x; [discriminate|]. destruct (forallb _ _); [congruence|discriminate]. }
  unfold init, base_init. rewrite H. eexists. reflexivity.
Qed.

(** ** The classes: a query of an estimator that was never fitted but got its
    parameters by assignment fixes [n_features]; a later [fit] is unaffected if its
    data have that many columns, and raises otherwise. *)
Definition anyway {P} (_ : option nat) (_ : P) : Prop := True.
Lemma queried_ok {P X St G} (E : emclass P X St) (L : leftclass P X St G) fp (e : est P G) h :
  check E fp (e_hmm e) = Ok h -> queried E L fp e = Est h (e_rs e).
Proof. intros Hc. unfold queried, query. rewrite Hc. unfold check in Hc. destruct (h_start (e_hmm e)); [reflexivity|discriminate]. Qed.
Definition pois_cols (p : poisp) : option nat := option_map ncol (po_lam p).
Lemma C84_poisson_first_l {G} (rg : rng G) fp e glob x ls :
  ((forall m, po_lam (h_em (e_hmm e)) = Some m -> width x = ncol m) ->
   fit poisson pois_initc rg fp (queried poisson pois_left fp e) glob x ls = fit poisson pois_initc rg fp e glob x ls)
  /\ (forall h m, check poisson fp (e_hmm e) = Ok h -> h_nfeat (e_hmm e) = None -> po_lam (h_em (e_hmm e)) = Some m -> width x <> ncol m ->
     exists ex, fit poisson pois_initc rg fp (queried poisson pois_left fp e) glob x ls = Err ex).
Proof.
  split.
  - intros Hw. apply (first_same poisson pois_initc pois_left rg fp pois_cols anyway).
    + intros c nf p nf' p' _. cbn [ec_check poisson]. unfold pois_check, pois_cols. destruct (po_lam p) as [m|]; [|discriminate]. destruct (negb _); [discriminate|]. intros H. injection H as <- <-.
      split; [reflexivity|]. destruct nf; auto.
    + intros c nf p nf' p' _. cbn [lf_check pois_left]. intros H. injection H as <- <-. auto.
    + exact I.
    + intros _. cbn [ic_nfeat pois_initc]. unfold pois_nfeat, pois_cols, set_n_features. destruct (po_lam _) as [m|]; [|reflexivity]. cbn [option_map].
      rewrite (Hw m eq_refl), Nat.eqb_refl. reflexivity.
  - intros h m Hc Hn Em Hw. rewrite (queried_ok _ _ _ _ _ Hc).
    destruct (check_fields _ _ _ _ Hc) as (F1 & _ & _ & _ & F5). cbn [ec_check poisson] in F5. unfold pois_check in F5. rewrite Em, Hn in F5.
    destruct (negb _); [discriminate|]. injection F5 as F5 F6.
    eapply fit_width_err. cbn [e_hmm ic_nfeat pois_initc]. unfold pois_nfeat. rewrite <- F5. unfold set_n_features.
    apply Nat.eqb_neq in Hw. rewrite Nat.eqb_sym, Hw. reflexivity.
Qed.
Definition mult_cols (p : mulp) : option nat := option_map ncol (mu_prob p).
Lemma C84_multinomial_first_l {G} (rg : rng G) fp e glob x ls :
  ((forall m, mu_prob (h_em (e_hmm e)) = Some m -> width x = ncol m) ->
   fit multinomial mult_initc rg fp (queried multinomial mult_left fp e) glob x ls = fit multinomial mult_initc rg fp e glob x ls)
  /\ (forall h m, check multinomial fp (e_hmm e) = Ok h -> h_nfeat (e_hmm e) = None -> mu_prob (h_em (e_hmm e)) = Some m -> width x <> ncol m ->
     exists ex, fit multinomial mult_initc rg fp (queried multinomial mult_left fp e) glob x ls = Err ex).
Proof.
  split.
  - intros Hw. apply (first_same multinomial mult_initc mult_left rg fp mult_cols anyway).
    + intros c nf p nf' p' _. cbn [ec_check multinomial]. unfold mult_check, mult_cols. destruct (mu_prob p) as [m|]; [|discriminate]. destruct (negb _); [discriminate|].
      destruct (mu_trials p); [|discriminate]. intros H. injection H as <- <-.
      split; [reflexivity|]. destruct nf; auto.
    + intros c nf p nf' p' _. cbn [lf_check mult_left]. unfold mult_cols. destruct (mu_prob p) as [m|]; [|intros H; injection H as <- <-; auto].
      destruct (_ && _); intros H; injection H as <- <-; auto. split; [reflexivity|]. destruct nf; auto.
    + exact I.
    + intros _. cbn [ic_nfeat mult_initc]. unfold mult_nfeat, mult_cols, set_n_features. destruct (mu_prob _) as [m|]; [|reflexivity]. cbn [option_map].
      rewrite (Hw m eq_refl), Nat.eqb_refl. reflexivity.
  - intros h m Hc Hn Em Hw. rewrite (queried_ok _ _ _ _ _ Hc).
    destruct (check_fields _ _ _ _ Hc) as (F1 & _ & _ & _ & F5). cbn [ec_check multinomial] in F5. unfold mult_check in F5. rewrite Em, Hn in F5.
    destruct (negb _); [discriminate|]. destruct (mu_trials _); [|discriminate]. injection F5 as F5 F6.
    eapply fit_width_err. cbn [e_hmm ic_nfeat mult_initc]. unfold mult_nfeat. rewrite <- F5. unfold set_n_features.
    apply Nat.eqb_neq in Hw. rewrite Nat.eqb_sym, Hw. reflexivity.
Qed.
Definition gauss_cols (p : gaussp) : option nat := option_map ncol (ga_means p).
Lemma C84_gaussian_first_l {G} (rg : rng G) fp e glob x ls :
  (h_nfeat (e_hmm e) = None -> (forall m, ga_means (h_em (e_hmm e)) = Some m -> width x = ncol m) ->
   fit gaussian gauss_initc rg fp (queried gaussian gauss_left fp e) glob x ls = fit gaussian gauss_initc rg fp e glob x ls)
  /\ (forall h m, check gaussian fp (e_hmm e) = Ok h -> ga_means (h_em (e_hmm e)) = Some m -> width x <> ncol m ->
     exists ex, fit gaussian gauss_initc rg fp (queried gaussian gauss_left fp e) glob x ls = Err ex).
Proof.
  split.
  - intros Hn Hw. apply (first_same gaussian gauss_initc gauss_left rg fp gauss_cols (fun nf _ => nf = None)).
    + intros c nf p nf' p' ->. cbn [ec_check gaussian]. unfold gauss_check, gauss_cols. destruct (ga_means p) as [m|]; [|discriminate].
      destruct (is_type _ _); [|discriminate]. intros H. injection H as <- <-. auto.
    + intros c nf p nf' p' ->. cbn [lf_check gauss_left]. unfold gauss_cols. destruct (ga_means p) as [m|]; intros H; injection H as <- <-; auto.
    + exact Hn.
    + intros _. cbn [ic_nfeat gauss_initc]. unfold gauss_nfeat, gauss_cols, set_n_features. destruct (ga_means _) as [m|]; [|reflexivity]. cbn [option_map].
      rewrite (Hw m eq_refl), Nat.eqb_refl. reflexivity.
  - intros h m Hc Em Hw. rewrite (queried_ok _ _ _ _ _ Hc).
    destruct (check_fields _ _ _ _ Hc) as (F1 & _ & _ & _ & F5). cbn [ec_check gaussian] in F5. unfold gauss_check in F5. rewrite Em in F5.
    destruct (is_type _ _); [|discriminate]. injection F5 as F5 F6.
    eapply fit_width_err. cbn [e_hmm ic_nfeat gauss_initc]. unfold gauss_nfeat. rewrite <- F5. unfold set_n_features.
    apply Nat.eqb_neq in Hw. rewrite Nat.eqb_sym, Hw. reflexivity.
Qed.
Definition cat_cols (p : catp) : option nat := option_map ncol (cat_prob p).
Lemma C84_categorical_first_l {G} (rg : rng G) fp e glob x ls :
  ((forall m, cat_prob (h_em (e_hmm e)) = Some m -> zmax x = (Z.of_nat (ncol m) - 1)%Z) ->
   fit categorical cat_initc rg fp (queried categorical cat_left fp e) glob x ls = fit categorical cat_initc rg fp e glob x ls)
  /\ (forall h m, check categorical fp (e_hmm e) = Ok h -> h_nfeat (e_hmm e) = None -> cat_prob (h_em (e_hmm e)) = Some m ->
     (Z.of_nat (ncol m) <= zmax x)%Z ->
     exists ex, fit categorical cat_initc rg fp (queried categorical cat_left fp e) glob x ls = Err ex).
Proof.
  split.
  - intros Hw. apply (first_same categorical cat_initc cat_left rg fp cat_cols anyway).
    + intros c nf p nf' p' _. cbn [ec_check categorical]. unfold cat_check, cat_cols. destruct (cat_prob p) as [m|]; [|discriminate]. destruct (negb _); [discriminate|].
      destruct (negb _); [discriminate|]. intros H. injection H as <- <-.
      split; [reflexivity|]. destruct nf; auto.
    + intros c nf p nf' p' _. cbn [lf_check cat_left]. unfold cat_cols. destruct (cat_prob p) as [m|]; [|intros H; injection H as <- <-; auto].
      destruct nf; intros H; injection H as <- <-; auto.
    + exact I.
    + intros _. cbn [ic_nfeat cat_initc]. unfold cat_nfeat, cat_cols. destruct (cat_prob _) as [m|]; [|reflexivity]. cbn [option_map].
      destruct (zmin x <? 0)%Z; [reflexivity|]. rewrite (Hw m eq_refl), Z.ltb_irrefl. replace (Z.to_nat _) with (ncol m) by lia. reflexivity.
  - intros h m Hc Hn Em Hw. rewrite (queried_ok _ _ _ _ _ Hc).
    destruct (check_fields _ _ _ _ Hc) as (F1 & _ & _ & _ & F5). cbn [ec_check categorical] in F5. unfold cat_check in F5. rewrite Em, Hn in F5.
    destruct (negb _); [discriminate|]. destruct (negb _); [discriminate|]. injection F5 as F5 F6.
    assert (K : exists ex, cat_nfeat (h_cfg h) (h_nfeat h) (h_em h) x = Err ex).
    { unfold cat_nfeat. rewrite <- F5. destruct (zmin x <? 0)%Z; [eexists; reflexivity|]. replace (Z.of_nat (ncol m) - 1 <? zmax x)%Z with true by (symmetry; apply Z.ltb_lt; lia). eexists. reflexivity. }
    destruct K as [ex K]. eapply fit_width_err. cbn [e_hmm ic_nfeat cat_initc]. exact K.
Qed.
(** GMMHMM: a query also gives the priors their full shapes, which [fit] would do
    in any case. *)
Lemma C84_gmm_first_l {G} eig (gr : grng G) (rg : rng G) fp e glob x ls h :
  check (gmm eig) fp (e_hmm e) = Ok h ->
  (h_nfeat h = Some (width x) ->
   fit (gmm eig) (gmm_initc gr) rg fp (queried (gmm eig) (gmm_left gr) fp e) glob x ls = fit (gmm eig) (gmm_initc gr) rg fp e glob x ls)
  /\ (h_nfeat h <> Some (width x) ->
     exists ex, fit (gmm eig) (gmm_initc gr) rg fp (queried (gmm eig) (gmm_left gr) fp e) glob x ls = Err ex).
Proof.
  intros Hc. rewrite (queried_ok _ _ _ _ _ Hc). destruct (check_fields _ _ _ _ Hc) as (F1 & F2 & F3 & F4 & F5).
  cbn [ec_check gmm] in F5. unfold gmm_check in F5. apply bind_inv in F5 as (n & Hn & F5). apply bind_inv in F5 as (p1 & Hp & F5).
  assert (F6 : h_nfeat h = Some n /\ h_em h = p1) by (all_ok F5; injection F5 as <- <-; auto). destruct F6 as [F6 F7].
  split; intros Hw.
  - destruct e as [h0 rs]. cbn [e_hmm e_rs] in *. assert (Eh : h = Hmm (h_cfg h0) (Some n) (h_start h0) (h_trans h0) (h_mon h0) p1).
    { rewrite <- F6, <- F7, <- F1, <- F2, <- F3, <- F4. symmetry. apply same_fields. }
    rewrite Eh. assert (n = width x) as -> by congruence.
    apply (fit_cong (gmm eig) (gmm_initc gr) rg fp h0 rs (Some (width x)) p1 glob x ls (Some (width x)) (h_em h0) p1).
    + cbn [ic_nfeat gmm_initc]. unfold gmm_nfeat, set_n_features. destruct (h_nfeat h0); [|reflexivity]. injection Hn as ->. rewrite Nat.eqb_refl. reflexivity.
    + cbn [ic_nfeat gmm_initc]. unfold gmm_nfeat, set_n_features. rewrite Nat.eqb_refl. reflexivity.
    + cbn [ic_nfit gmm_initc]. unfold gmm_nfit. pose proof Hp as Hp'. unfold fix_priors in Hp'. all_ok Hp'. injection Hp' as <-. reflexivity.
    + intros r g. cbn [ic_em gmm_initc]. unfold gmm_init_em.
      assert (Hp2 : fix_priors fp (c_nc (h_cfg h0)) (width x) p1 = Ok p1) by (rewrite <- (gm_set_same p1) at 2; rewrite <- (gm_set_same p1) at 1; apply (fix_priors_again _ _ _ _ _ _ _ _ Hp)).
      rewrite Hp, Hp2. cbn [bind]. assert (K : gm_nmix p1 = gm_nmix (h_em h0) /\ gm_min_covar p1 = gm_min_covar (h_em h0)).
      { pose proof Hp as Hp'. unfold fix_priors in Hp'. all_ok Hp'. injection Hp' as <-. split; reflexivity. }
      destruct K as [-> ->]. reflexivity.
  - eapply fit_width_err. cbn [e_hmm ic_nfeat gmm_initc]. unfold gmm_nfeat, set_n_features. rewrite F6.
    replace (Nat.eqb n (width x)) with false by (symmetry; apply Nat.eqb_neq; congruence). reflexivity.
Qed.
