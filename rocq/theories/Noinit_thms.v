(** * C59: a fully specified model is trained without initialisation. *)
From Verif Require Export Init_gmm_thms.

(** The outcome of two runs of [fit] whose random states and generators differ:
    the same exception, or the same model and warnings with both global
    generators untouched. *)
Definition same_fit {P G G'} (r : res (est P G * G * list event)) (glob : G)
    (r' : res (est P G' * G' * list event)) (glob' : G') : Prop :=
  match r, r' with
  | Ok (e, g, ev), Ok (e', g', ev') => e_hmm e = e_hmm e' /\ ev = ev' /\ g = glob /\ g' = glob'
  | Err a, Err b => a = b
  | _, _ => False
  end.
(** No letter of [init_params] is among [l]; start and transition probabilities
    are set. *)
Definition no_init {P} (h : hmm P) (l : list ascii) : Prop :=
  (forall a, In a ("s" :: "t" :: l)%char -> has a (c_init_params (h_cfg h)) = false)
  /\ h_start h <> None /\ h_trans h <> None.

Section NoInit.
  Context {P X St G G' : Type} (E : emclass P X St) (I : initclass P X G) (I' : initclass P X G')
    (rg : rng G) (rg' : rng G') (fp : fpmode).
  Variable l : list ascii.
  Hypothesis Hw : ic_width I = ic_width I'.
  Hypothesis Hnf : ic_nfeat I = ic_nfeat I'.
  Hypothesis Hfit : ic_nfit I = ic_nfit I'.
  Variable Good : option nat -> P -> Prop.
  Variable c : cfg.
  Hypothesis Hem : forall nf p x rs rs' glob glob', Good nf p ->
    valid_rs rg rs -> valid_rs rg' rs' ->
    (exists p' rs1 rs1' ev, ic_em I fp rg c nf p x rs glob = Ok (p', rs1, glob, ev)
      /\ ic_em I' fp rg' c nf p x rs' glob' = Ok (p', rs1', glob', ev))
    \/ exists er, ic_em I fp rg c nf p x rs glob = Err er /\ ic_em I' fp rg' c nf p x rs' glob' = Err er.

  Lemma no_init_fit h x ls rs rs' glob glob' :
    h_cfg h = c -> no_init h l -> valid_rs rg rs -> valid_rs rg' rs' ->
    (forall nf p, ic_nfeat I c (h_nfeat h) (h_em h) x = Ok (nf, p) -> Good nf p) ->
    same_fit (fit E I rg fp (Est h rs) glob x ls) glob (fit E I' rg' fp (Est h rs') glob' x ls) glob'.
  Proof.
    intros <- (Hl & Hs & Ht) Hv Hv' HG. unfold fit. destruct (check_array (ec_xok E) x) as [x0|er] eqn:Hc; [cbn [bind]|reflexivity].
    assert (x0 = x) as ->.
    { revert Hc. unfold check_array. destruct x; [discriminate|]. destruct (forallb _ _); [|discriminate]. congruence. }
    unfold init, base_init. cbn [e_hmm e_rs]. rewrite <- Hnf, <- Hfit, <- Hw.
    destruct (ic_nfeat I (h_cfg h) (h_nfeat h) (h_em h) x) as [[nf p]|er] eqn:En; [cbn [bind]|reflexivity].
    destruct (Nat.eqb (c_nc (h_cfg h)) 0); [reflexivity|].
    unfold needs_init. rewrite (Hl "s"%char), (Hl "t"%char) by (cbn; auto).
    destruct (h_start h) as [s|]; [|contradiction]. destruct (h_trans h) as [t|]; [|contradiction]. cbn [isSome negb].
    assert (Hrs : forall T (r : rng T) q gl, valid_rs r q -> exists g, rs_get r q gl = Ok g /\ rs_put q gl g = (q, gl)).
    { intros T r [|k|g|] gl Hq; cbn in *; eauto. destruct Hq as [g Hq]. eauto. }
    destruct (Hrs _ rg rs glob Hv) as (g & Eg & Ep). destruct (Hrs _ rg' rs' glob' Hv') as (g' & Eg' & Ep').
    rewrite Eg, Eg'. cbn [bind]. rewrite Ep, Ep'.
    destruct (ic_nfit I (h_cfg h) nf p) as [d|er]; [cbn [bind]|reflexivity].
    destruct (dict_sum d (c_params (h_cfg h))) as [n|er]; [cbn [bind]|reflexivity].
    cbn [e_hmm e_rs h_cfg h_nfeat h_em].
    destruct (Hem nf p x rs rs' glob glob' (HG _ _ eq_refl) Hv Hv') as [(p' & q & q' & ev & -> & ->)|(er & -> & ->)]; [cbn [bind]|reflexivity].
    cbn [e_hmm e_rs h_start h_trans h_mon].
    destruct (fit_from E fp _ x ls) as [[h2 ev2]|er]; [cbn [bind]|reflexivity]. cbn. auto.
  Qed.
End NoInit.

Lemma adopt_ok {T} (r : rng T) rs : valid_rs r rs -> exists rs', rs_adopt r rs = Ok rs'.
Proof. destruct rs; cbn; eauto. intros [g ->]. cbn. eauto. Qed.

(** CategoricalHMM. *)
Lemma C59_categorical_l {G G'} (rg : rng G) (rg' : rng G') fp (h : hmm catp) x ls rs rs' glob glob' :
  no_init h ["e"]%char -> cat_prob (h_em h) <> None -> valid_rs rg rs -> valid_rs rg' rs' ->
  same_fit (fit categorical cat_initc rg fp (Est h rs) glob x ls) glob
           (fit categorical cat_initc rg' fp (Est h rs') glob' x ls) glob'.
Proof.
  intros HN Hp Hv Hv'. apply (no_init_fit categorical cat_initc cat_initc rg rg' fp ["e"%char] eq_refl eq_refl eq_refl
    (fun _ p => cat_prob p <> None) (h_cfg h)); try assumption; try reflexivity.
  - intros nf p y q q' gl gl' Hc Hq Hq'. left. cbn [ic_em cat_initc]. unfold cat_init_em.
    destruct (adopt_ok rg q Hq) as [q1 ->]. destruct (adopt_ok rg' q' Hq') as [q1' ->]. cbn [bind].
    unfold needs_init. rewrite (proj1 HN "e"%char) by (cbn; auto). destruct (cat_prob p) as [m|]; [|contradiction].
    cbn [isSome negb]. do 4 eexists. split; reflexivity.
  - intros nf p. cbn [ic_nfeat cat_initc]. unfold cat_nfeat. destruct (Z.ltb _ _); [discriminate|].
    destruct (h_nfeat h) as [n|]; [destruct (Z.ltb _ _); [discriminate|]|]; intros E; injection E as _ <-; exact Hp.
Qed.
(** PoissonHMM. *)
Lemma C59_poisson_l {G G'} (rg : rng G) (rg' : rng G') fp (h : hmm poisp) x ls rs rs' glob glob' :
  no_init h ["l"]%char -> po_lam (h_em h) <> None -> valid_rs rg rs -> valid_rs rg' rs' ->
  same_fit (fit poisson pois_initc rg fp (Est h rs) glob x ls) glob
           (fit poisson pois_initc rg' fp (Est h rs') glob' x ls) glob'.
Proof.
  intros HN Hp Hv Hv'. apply (no_init_fit poisson pois_initc pois_initc rg rg' fp ["l"%char] eq_refl eq_refl eq_refl
    (fun _ p => po_lam p <> None) (h_cfg h)); try assumption; try reflexivity.
  - intros nf p y q q' gl gl' Hc Hq Hq'. left. cbn [ic_em pois_initc]. unfold pois_init_em.
    destruct (adopt_ok rg q Hq) as [q1 ->]. destruct (adopt_ok rg' q' Hq') as [q1' ->]. cbn [bind].
    unfold needs_init. rewrite (proj1 HN "l"%char) by (cbn; auto). destruct (po_lam p) as [m|]; [|contradiction].
    cbn [isSome negb]. do 4 eexists. split; reflexivity.
  - intros nf p Hn. destruct (pois_nfeat_inv (h_cfg h) (h_nfeat h) (h_em h) x _ _ Hn) as [_ ->]. exact Hp.
Qed.
(** MultinomialHMM. *)
Lemma C59_multinomial_l {G G'} (rg : rng G) (rg' : rng G') fp (h : hmm mulp) x ls rs rs' glob glob' :
  no_init h ["e"]%char -> valid_rs rg rs -> valid_rs rg' rs' ->
  same_fit (fit multinomial mult_initc rg fp (Est h rs) glob x ls) glob
           (fit multinomial mult_initc rg' fp (Est h rs') glob' x ls) glob'.
Proof.
  intros HN Hv Hv'. apply (no_init_fit multinomial mult_initc mult_initc rg rg' fp ["e"%char] eq_refl eq_refl eq_refl
    (fun _ p => True) (h_cfg h)); try assumption; try reflexivity.
  intros nf p y q q' gl gl' Hc Hq Hq'. left. cbn [ic_em mult_initc]. unfold mult_init_em.
  destruct (adopt_ok rg q Hq) as [q1 ->]. destruct (adopt_ok rg' q' Hq') as [q1' ->]. cbn [bind].
  rewrite (proj1 HN "e"%char) by (cbn; auto). do 4 eexists. split; reflexivity.
Qed.
(** GaussianHMM, every covariance type. *)
Lemma C59_gaussian_l {G G'} (rg : rng G) (rg' : rng G') fp (h : hmm gaussp) x ls rs rs' glob glob' :
  no_init h ["m"; "c"]%char -> ga_means (h_em h) <> None -> ga_covars (h_em h) <> None ->
  valid_rs rg rs -> valid_rs rg' rs' ->
  same_fit (fit gaussian gauss_initc rg fp (Est h rs) glob x ls) glob
           (fit gaussian gauss_initc rg' fp (Est h rs') glob' x ls) glob'.
Proof.
  intros HN Hm Hc Hv Hv'. apply (no_init_fit gaussian gauss_initc gauss_initc rg rg' fp ["m"; "c"]%char eq_refl eq_refl eq_refl
    (fun nf p => (exists n, nf = Some n) /\ ga_means p <> None /\ ga_covars p <> None) (h_cfg h)); try assumption; try reflexivity.
  - intros nf p y q q' gl gl' ([n ->] & Hm1 & Hc1) Hq Hq'. cbn [ic_em gauss_initc]. unfold gauss_init_em, needs_init.
    rewrite (proj1 HN "m"%char), (proj1 HN "c"%char) by (cbn; auto).
    destruct (ga_means p) as [m|] eqn:Em; [|contradiction]. destruct (ga_covars p) as [cv|] eqn:Ec; [|contradiction].
    cbn [isSome negb bind]. destruct (fill_covars fp cv (ga_type p) (c_nc (h_cfg h)) n) as [f|er]; cbn [bind negb].
    + left. do 4 eexists. split; reflexivity.
    + right. exists er. split; reflexivity.
  - intros nf p Hn. destruct (gauss_nfeat_inv (h_cfg h) (h_nfeat h) (h_em h) x _ _ Hn) as [-> ->]. split; [eexists; reflexivity|]. split; assumption.
Qed.

(** GMMHMM: the trained model does not depend on the generators when both runs
    succeed, but they are used and may make fit fail. *)
Lemma C59_gmm_partial_l {G G'} (gr : grng G) (gr' : grng G') (rg : rng G) (rg' : rng G') eig fp (h : hmm gmmp) x ls
    rs rs' glob glob' e1 g1 v1 e2 g2 v2 :
  no_init h ["m"; "c"; "w"]%char ->
  gm_weights (h_em h) <> None -> gm_means (h_em h) <> None -> gm_covars (h_em h) <> None ->
  fit (gmm eig) (gmm_initc gr) rg fp (Est h rs) glob x ls = Ok (e1, g1, v1) ->
  fit (gmm eig) (gmm_initc gr') rg' fp (Est h rs') glob' x ls = Ok (e2, g2, v2) ->
  e_hmm e1 = e_hmm e2 /\ v1 = v2.
Proof.
  intros (Hl & Hs & Ht) Hw Hm Hc.
  assert (K : forall T (gr0 : grng T) (r0 : rng T) q gl e g v, fit (gmm eig) (gmm_initc gr0) r0 fp (Est h q) gl x ls = Ok (e, g, v) ->
    exists nf p1 ev, gmm_nfeat (h_cfg h) (h_nfeat h) (h_em h) x = Ok (nf, h_em h)
      /\ fix_priors fp (c_nc (h_cfg h)) (match nf with Some n => n | None => 0%nat end) (h_em h) = Ok p1
      /\ fit_from (gmm eig) fp (Hmm (h_cfg h) nf (h_start h) (h_trans h) (h_mon h) (gm_set p1 (gm_weights p1) (gm_means p1) (gm_covars p1))) x ls = Ok (e_hmm e, ev)
      /\ v = (match gmm_nfit (h_cfg h) nf (h_em h) with
              | Ok d => match dict_sum d (c_params (h_cfg h)) with
                        | Ok n => if Z.ltb (Z.of_nat (length x * width x)) n then [WDegenerate] else []
                        | Err _ => [] end
              | Err _ => [] end) ++ ev).
  { intros T gr0 r0 q gl e g v H. destruct (fit_inv _ _ _ _ _ _ _ _ _ _ _ H) as (ei & va & vb & _ & Hi & Hf & _ & ->).
    revert Hi. unfold init, base_init. cbn [e_hmm e_rs ic_nfeat gmm_initc].
    destruct (gmm_nfeat (h_cfg h) (h_nfeat h) (h_em h) x) as [[nf p]|er] eqn:En; [cbn [bind]|discriminate].
    destruct (gmm_nfeat_inv _ _ _ _ _ _ En) as [_ Ep]. subst p.
    destruct (Nat.eqb (c_nc (h_cfg h)) 0); [discriminate|].
    unfold needs_init. rewrite (Hl "s"%char), (Hl "t"%char) by (cbn; auto).
    destruct (h_start h) as [s|] eqn:Es; [|contradiction]. destruct (h_trans h) as [t|] eqn:Et; [|contradiction]. cbn [isSome negb].
    destruct (rs_get r0 q gl) as [g0|er]; [cbn [bind]|discriminate].
    destruct (rs_put q gl g0) as [q1 gl1]. cbn [ic_nfit gmm_initc ic_width].
    destruct (gmm_nfit (h_cfg h) nf (h_em h)) as [d|er] eqn:Ed; [cbn [bind]|discriminate].
    destruct (dict_sum d (c_params (h_cfg h))) as [n|er] eqn:Edn; [cbn [bind]|discriminate].
    cbn [e_hmm e_rs h_cfg h_nfeat h_em ic_em gmm_initc]. unfold gmm_init_em.
    destruct (fix_priors fp _ _ (h_em h)) as [p1|er] eqn:Ef; [cbn [bind]|discriminate].
    destruct (kmeans gr0 r0 _ x q1 gl1) as [[[[lab cen] q2] gl2]|er]; [cbn [bind]|discriminate].
    destruct (mix_means _ _ _ _ _ _ _ _ _ _) as [[[ms q3] gl3]|er]; [cbn [bind]|discriminate].
    unfold needs_init. rewrite (Hl "w"%char), (Hl "m"%char), (Hl "c"%char) by (cbn; auto 10).
    assert (Hk : gm_weights p1 = gm_weights (h_em h) /\ gm_means p1 = gm_means (h_em h) /\ gm_covars p1 = gm_covars (h_em h)).
    { revert Ef. unfold fix_priors. intros Ef.
      repeat (apply bind_inv in Ef as (? & _ & Ef)). injection Ef as <-. repeat split. }
    destruct Hk as (K1 & K2 & K3).
    destruct (gm_weights p1) as [w|] eqn:W1; [|congruence]. destruct (gm_means p1) as [m|] eqn:W2; [|congruence].
    destruct (gm_covars p1) as [c|] eqn:W3; [|congruence]. cbn [isSome negb bind].
    intros E. injection E as <- _ <-. cbn [e_hmm h_start h_trans h_mon] in Hf.
    exists nf, p1, vb. split; [reflexivity|]. split; [exact Ef|]. rewrite W1, W2, W3. split; [exact Hf|]. cbn. rewrite Ed, Edn. rewrite app_nil_r. reflexivity. }
  intros H1 H2. apply K in H1 as (nf & p1 & ev & A1 & A2 & A3 & ->). apply K in H2 as (nf' & p1' & ev' & B1 & B2 & B3 & ->).
  rewrite A1 in B1. injection B1 as <-. rewrite A2 in B2. injection B2 as <-. rewrite A3 in B3. injection B3 as E1 E2. rewrite E1, E2. auto.
Qed.
(** Two states, one sample: the model scores the data, but fit clusters the data
    and KMeans refuses. *)
Lemma C59_gmm_refuted_l : exists (h : hmm gmmp) x s,
  c_init_params (h_cfg h) = EmptyString /\ no_init h ["m"; "c"; "w"]%char
  /\ gm_weights (h_em h) <> None /\ gm_means (h_em h) <> None /\ gm_covars (h_em h) <> None
  /\ score (gmm eig1) exact h x None = Ok (Fin s)
  /\ forall G (gr : grng G) (rg : rng G) rs glob,
     (forall k y g, (length y < k)%nat -> exists w, gr_kmeans gr k y g = Err (ValueError w)) -> valid_rs rg rs ->
     exists w, fit (gmm eig1) (gmm_initc gr) rg exact (Est h rs) glob x None = Err (ValueError w).
Proof.
  destruct (ex2_score "") as (s & Hs). exists (ex2 ""), [v1 0], s. split; [reflexivity|]. split.
  { split; [reflexivity|]. split; discriminate. }
  do 3 (split; [discriminate|]). split; [exact Hs|]. intros G gr rg rs glob HK Hv.
  unfold fit. replace (check_array _ [v1 0]) with (Ok [v1 0]) by reflexivity. cbn [bind].
  unfold init, base_init. cbn [e_hmm e_rs ic_nfeat gmm_initc ex2 h_cfg h_nfeat h_em h_start h_trans]. unfold gmm_nfeat.
  change (set_n_features (Some 1%nat) (width [v1 0])) with (Ok (A := option nat) (Some 1%nat)). cbn [bind c_nc Nat.eqb].
  assert (Hrs : exists g, rs_get rg rs glob = Ok g /\ rs_put rs glob g = (rs, glob)).
  { destruct rs; cbn in *; eauto. destruct Hv as [g Hq]. eauto. }
  destruct Hrs as (g & Eg & Ep). rewrite Eg. cbn [bind needs_init has c_init_params isSome negb]. rewrite Ep.
  cbn [ic_nfit gmm_initc gmm_nfit gm_type gm_nmix String.eqb Ascii.eqb Bool.eqb bind c_nc].
  match goal with |- context [dict_sum ?d ?s] => destruct (dict_sum_ok d s) as [n ->] end.
  { intros a Ha. cbn [has c_params] in Ha. repeat (apply orb_prop in Ha as [Ha|Ha]; [apply Ascii.eqb_eq in Ha; subst a; eexists; reflexivity|]). discriminate. }
  cbn [bind e_hmm h_em h_cfg h_nfeat e_rs ic_em gmm_initc]. unfold gmm_init_em. cbn [c_nc].
  assert (HF : gmm_flat (ex2 "")) by (repeat split). pose proof (gmm_flat_hyper (ex2 "") 2 2 1 "diag" HF) as HH.
  change (Gmmp 2 "diag" _ _ _ _ _ _ _ _ _) with (h_em (ex2 "")).
  assert (T1 : gm_nmix (h_em (ex2 "")) = 2%nat) by reflexivity. assert (T2 : gm_type (h_em (ex2 "")) = "diag"%string) by reflexivity.
  rewrite (fix_priors_ok 2 2 1 "diag" eq_refl _ _ _ _ _ _ T1 T2 HH). cbn [bind].
  unfold kmeans. rewrite Eg. cbn [bind]. destruct (HK 2%nat [v1 0] g ltac:(cbn; lia)) as [w ->]. cbn [bind]. exists w. reflexivity.
Qed.
Lemma C59_applies_l : exists (h : hmm catp) r,
  no_init h ["e"]%char /\ cat_prob (h_em h) <> None
  /\ fit categorical cat_initc toy_rng exact (Est h (RSSeed 0)) 0%nat ex_x None = Ok r.
Proof.
  set (c := Cfg 2 "ste" "" "viterbi" "log" 3 (Fin (/ 100)) false (Scal (Fin 1)) (Scal (Fin 1))).
  set (h := Hmm c (Some 3%nat) (Some (fvec 2 ex_pi)) (Some (fmat 2 2 ex_A)) toy_mon (Catp (Scal (Fin 1)) (Some (fmat 2 3 ex_e)))).
  destruct (cat_fit_returns toy_rng toy_sane (Est h (RSSeed 0)) 0%nat ex_x None 3) as (r & Hr & _); cbn [e_hmm h_cfg c_nc c_impl c_params].
  - exists 0%nat. reflexivity.
  - cbn. lia.
  - reflexivity.
  - intros a Ha. cbn [h c has c_params h_cfg] in Ha. repeat (apply orb_prop in Ha as [Ha|Ha]; [apply Ascii.eqb_eq in Ha; subst a; cbn; auto|]). discriminate.
  - discriminate.
  - left. reflexivity.
  - repeat constructor; unfold in_range; lia.
  - left. reflexivity.
  - assert (N : forall z, z = 1 -> near1 z) by (intros z ->; exact near1_1).
    split; [split|]; intros v _ E; cbn [h e_hmm h_start h_trans h_em cat_prob] in E; inversion E; eexists; (split; [reflexivity|]).
    + apply N. simpl. unfold ex_pi. simpl. lra.
    + intros [|[|i]] Hi; [| |cbn in Hi; lia]; apply N; simpl; unfold ex_A; simpl; lra.
    + intros [|[|i]] Hi; [| |cbn in Hi; lia]; apply N; simpl; unfold ex_e; simpl; lra.
  - exists h, r. split; [|split; [discriminate|exact Hr]]. split; [reflexivity|]. split; discriminate.
Qed.
