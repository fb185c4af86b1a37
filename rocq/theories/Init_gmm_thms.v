(** * GMMHMM: initialisation, refitting, parameter count (C22, C29, C43). *)
From Verif Require Export Init_gmm Criteria_thms Gmm_ex.

(** ** C43. *)
(** Covariance parameters of a mixture: each state has its own set; "tied" shares
    one matrix among the components of a state. *)
Definition mix_covars_dim (ty : string) (nc nm nf : nat) : nat :=
  if String.eqb ty "spherical" then nc * nm
  else if String.eqb ty "diag" then nc * nm * nf
  else if String.eqb ty "full" then nc * nm * symmetric_dim nf
  else nc * symmetric_dim nf.
(** The free parameters of a mixture model: every state has a weight vector. *)
Definition gmm_dim (ty : string) (nc nm nf : nat) : nat :=
  base_dim nc + nc * nm * nf + mix_covars_dim ty nc nm nf + nc * simplex_dim nm.

(** What the class counts: the weights of one state only. *)
Lemma C43_gmm_count_l {G} (gr : grng G) eig (h : hmm gmmp) nc nm nf : c_nc (h_cfg h) = nc -> gm_nmix (h_em h) = nm ->
  h_nfeat h = Some nf -> (0 < nc)%nat -> (0 < nm)%nat -> is_type covariance_types (gm_type (h_em h)) = true ->
  criteria (gmm eig) (gmm_initc gr) h
    (base_dim nc + nc * nm * nf + mix_covars_dim (gm_type (h_em h)) nc nm nf + simplex_dim nm).
Proof.
  intros Hc Hm Hf H1 H2 Ht. apply criteria_count. unfold n_params. cbn [ic_nfit gmm_initc]. unfold gmm_nfit. rewrite Hf, Hc, Hm.
  pose proof (symmetric_dim_double nf) as Hs. unfold mix_covars_dim.
  assert (Hd : (Z.of_nat nf * (Z.of_nat nf + 1) = 2 * Z.of_nat (symmetric_dim nf))%Z) by nia.
  destruct (String.eqb_spec (gm_type (h_em h)) "spherical") as [E0|N0].
  { cbn. f_equal. unfold base_dim, simplex_dim. nia. }
  destruct (String.eqb_spec (gm_type (h_em h)) "diag") as [E0|N1].
  { cbn. f_equal. unfold base_dim, simplex_dim. nia. }
  destruct (String.eqb_spec (gm_type (h_em h)) "full") as [E0|N2].
  { replace (Z.of_nat nc * Z.of_nat nm * Z.of_nat nf * (Z.of_nat nf + 1))%Z
      with (Z.of_nat nc * Z.of_nat nm * Z.of_nat (symmetric_dim nf) * 2)%Z by (rewrite <- (Z.mul_assoc _ (Z.of_nat nf) (Z.of_nat nf + 1)), Hd; ring).
    rewrite Z.div_mul by lia. cbn. f_equal. unfold base_dim, simplex_dim. nia. }
  destruct (String.eqb_spec (gm_type (h_em h)) "tied") as [E0|N3].
  { replace (Z.of_nat nc * Z.of_nat nf * (Z.of_nat nf + 1))%Z
      with (Z.of_nat nc * Z.of_nat (symmetric_dim nf) * 2)%Z by (rewrite <- (Z.mul_assoc _ (Z.of_nat nf) (Z.of_nat nf + 1)), Hd; ring).
    rewrite Z.div_mul by lia. cbn. f_equal. unfold base_dim, simplex_dim. nia. }
  exfalso. unfold is_type, covariance_types in Ht. cbn in Ht.
  rewrite !(proj2 (String.eqb_neq _ _)) in Ht by congruence. discriminate.
Qed.
(** Right for a single state or a single component. *)
Lemma C43_gmm_partial_l {G} (gr : grng G) eig (h : hmm gmmp) nc nm nf : c_nc (h_cfg h) = nc -> gm_nmix (h_em h) = nm ->
  h_nfeat h = Some nf -> (0 < nc)%nat -> (0 < nm)%nat -> is_type covariance_types (gm_type (h_em h)) = true ->
  nc = 1%nat \/ nm = 1%nat ->
  criteria (gmm eig) (gmm_initc gr) h (gmm_dim (gm_type (h_em h)) nc nm nf).
Proof.
  intros Hc Hm Hf H1 H2 Ht Hor.
  replace (gmm_dim (gm_type (h_em h)) nc nm nf)
    with (base_dim nc + nc * nm * nf + mix_covars_dim (gm_type (h_em h)) nc nm nf + simplex_dim nm)%nat.
  - apply C43_gmm_count_l; assumption.
  - unfold gmm_dim, simplex_dim. destruct Hor; subst; lia.
Qed.

(** ** C22. *)
Definition keeps_args (p p' : gmmp) : Prop :=
  gm_nmix p' = gm_nmix p /\ gm_type p' = gm_type p /\ gm_min_covar p' = gm_min_covar p.
Lemma fix_priors_keeps fp nc nf p p' : fix_priors fp nc nf p = Ok p' ->
  keeps_args p p' /\ gm_weights p' = gm_weights p /\ gm_means p' = gm_means p /\ gm_covars p' = gm_covars p.
Proof.
  intros H. unfold fix_priors in H.
  apply bind_inv in H as (a1 & _ & H). apply bind_inv in H as (a2 & _ & H). apply bind_inv in H as (a3 & _ & H).
  apply bind_inv in H as (a4 & _ & H). apply bind_inv in H as (a5 & _ & H). injection H as <-. repeat split; reflexivity.
Qed.

(** The mean of a state's cluster: KMeans centres of the samples with its label if
    there are enough of them, otherwise draws from a normal distribution around
    the centroid of the centres. *)
Definition fresh_mean {G} (gr : grng G) (fp : fpmode) (min_covar : xnum) (nm : nat) (labels : list nat) (centers : mat) (x : list vec)
    (i : nat) (m : mat) : Prop :=
  let mine := map snd (filter (fun '(l, _) => Nat.eqb l i) (combine labels x)) in
  if Nat.leb nm (length mine) then exists g g' l, gr_kmeans gr nm mine g = Ok (l, m, g')
  else exists g g', gr_mvn gr (centroid fp centers) (cov_template fp min_covar x) nm g = Ok (m, g').

Section Means.
  Context {G : Type} (gr : grng G) (rg : rng G) (fp : fpmode).
  Lemma kmeans_inv k x rs glob l m rs1 glob1 : kmeans gr rg k x rs glob = Ok (l, m, rs1, glob1) ->
    exists g g', rs_get rg rs glob = Ok g /\ gr_kmeans gr k x g = Ok (l, m, g') /\ rs_put rs glob g' = (rs1, glob1).
  Proof.
    intros H. unfold kmeans in H. apply bind_inv in H as (g & Hg & H). apply bind_inv in H as ([[l0 m0] g1] & Hk & H).
    destruct (rs_put rs glob g1) as [r1 gl1] eqn:Ep. injection H as <- <- <- <-. exists g, g1. repeat split; assumption.
  Qed.
  Lemma mix_means_inv nm labels x cent cv is rs glob ms rs' glob' :
    mix_means gr rg nm labels x cent cv is rs glob = Ok (ms, rs', glob') ->
    length ms = length is
    /\ forall j, (j < length is)%nat ->
       let mine := in_cluster labels x (nth j is 0%nat) in let m := nth j ms (Mat 0 []) in
       if Nat.leb nm (length mine) then exists g g' l, gr_kmeans gr nm mine g = Ok (l, m, g')
       else exists g g', gr_mvn gr cent cv nm g = Ok (m, g').
  Proof.
    revert rs glob ms rs' glob'. induction is as [|i is IH]; intros rs glob ms rs' glob' H; cbn [mix_means] in H.
    - injection H as <- <- <-. split; [reflexivity|]. intros j Hj. cbn in Hj. lia.
    - apply bind_inv in H as ([[m rs1] g1] & Hm & H). apply bind_inv in H as ([[ms1 rs2] g2] & Hr & H). injection H as <- <- <-.
      destruct (IH _ _ _ _ _ Hr) as [Hl Hj]. split; [cbn; rewrite Hl; reflexivity|].
      intros [|j] Hjl; [|cbn [nth]; apply Hj; cbn in Hjl; lia]. cbn [nth].
      destruct (Nat.leb nm _).
      + apply bind_inv in Hm as ([[[l m0] r0] g0] & Hk & Hm). injection Hm as <- <- <-.
        destruct (kmeans_inv _ _ _ _ _ _ _ _ Hk) as (g & g' & _ & Hkk & _). exists g, g', l. exact Hkk.
      + apply bind_inv in Hm as ([m0 g0] & Hk & Hm). injection Hm as <- <- <-. exists glob, g0. exact Hk.
  Qed.
End Means.

Definition fresh_means {G} (gr : grng G) (fp : fpmode) (p : gmmp) (nc : nat) (x : list vec) (a : nd) : Prop :=
  let nm := gm_nmix p in
  exists g labels centers g' ms, gr_kmeans gr nc x g = Ok (labels, centers, g') /\ length ms = nc
    /\ (forall i, (i < nc)%nat -> fresh_mean gr fp (gm_min_covar p) nm labels centers x i (nth i ms (Mat 0 [])))
    /\ a = ntab [nc; nm; width x] (fun idx => mget (nth (nth 0 idx 0%nat) ms (Mat 0 [])) (nth 1 idx 0%nat) (nth 2 idx 0%nat)).
(** Sample covariance plus min_covar on the diagonal, reshaped. *)
Definition fresh_covars (fp : fpmode) (p : gmmp) (nc : nat) (x : list vec) (a : nd) : Prop :=
  let nm := gm_nmix p in let nf := width x in let cv := cov_template fp (gm_min_covar p) x in
  (gm_type p = "full"%string /\ a = ntab [nc; nm; nf; nf] (fun idx => mget cv (nth 2 idx 0%nat) (nth 3 idx 0%nat)))
  \/ (gm_type p = "tied"%string /\ a = ntab [nc; nf; nf] (fun idx => mget cv (nth 1 idx 0%nat) (nth 2 idx 0%nat)))
  \/ (gm_type p = "diag"%string /\ a = ntab [nc; nm; nf] (fun idx => mget cv (nth 2 idx 0%nat) (nth 2 idx 0%nat)))
  \/ (gm_type p = "spherical"%string /\ a = ntab [nc; nm] (fun _ => arr_mean fp (concat (rows cv)))).

Lemma cov_start_fresh fp p nc x a : cov_start fp (gm_type p) nc (gm_nmix p) (width x) (cov_template fp (gm_min_covar p) x) = Some a ->
  fresh_covars fp p nc x a.
Proof.
  unfold cov_start, fresh_covars. intros H.
  destruct (String.eqb_spec (gm_type p) "tied") as [->|N1].
  { injection H as <-. right. left. split; [reflexivity|]. apply ntab_ext. intros idx Hi. destruct (inb_inv3 _ _ _ _ Hi) as (i & f & g & -> & _). reflexivity. }
  destruct (String.eqb_spec (gm_type p) "full") as [->|N2].
  { injection H as <-. left. split; [reflexivity|]. apply ntab_ext. intros idx Hi. destruct (inb_inv4 _ _ _ _ _ Hi) as (i & k & f & g & -> & _). reflexivity. }
  destruct (String.eqb_spec (gm_type p) "diag") as [->|N3].
  { injection H as <-. right. right. left. split; [reflexivity|]. apply ntab_ext. intros idx Hi. destruct (inb_inv3 _ _ _ _ Hi) as (i & f & g & -> & _). reflexivity. }
  destruct (String.eqb_spec (gm_type p) "spherical") as [->|N4]; [|discriminate].
  injection H as <-. right. right. right. split; reflexivity.
Qed.

Section Em.
  Context {G : Type} (gr : grng G) (rg : rng G) (fp : fpmode).
  Lemma gmm_em_inv c p0 x rs glob p' rs' glob' ev :
    is_type covariance_types (gm_type p0) = true ->
    gmm_init_em gr rg fp c (Some (width x)) p0 x rs glob = Ok (p', rs', glob', ev) ->
    let ip := c_init_params c in let nc := c_nc c in
    keeps_args p0 p'
    /\ kept_or_fresh (has "w" ip) (gm_weights p0) (gm_weights p') (fun a =>
         (0 < gm_nmix p0)%nat /\ a = ntab [nc; gm_nmix p0] (fun _ => xdiv fp (Fin 1) (Fin (INR (gm_nmix p0)))))
    /\ kept_or_fresh (has "m" ip) (gm_means p0) (gm_means p') (fresh_means gr fp p0 nc x)
    /\ kept_or_fresh (has "c" ip) (gm_covars p0) (gm_covars p') (fresh_covars fp p0 nc x)
    /\ ev = overwrites "weights_" (has "w" ip) (isSome (gm_weights p0))
            ++ overwrites "means_" (has "m" ip) (isSome (gm_means p0))
            ++ overwrites "covars_" (has "c" ip) (isSome (gm_covars p0)).
  Proof.
    intros Hty H. cbv zeta. unfold gmm_init_em in H. apply bind_inv in H as (p & Hp & H).
    destruct (fix_priors_keeps _ _ _ _ _ Hp) as ((K1 & K2 & K3) & K4 & K5 & K6).
    apply bind_inv in H as ([[[labels centers] rs1] g1] & Hk & H).
    apply bind_inv in H as ([[ms rs2] g2] & Hms & H). rewrite K2, K4, K5, K6 in H.
    destruct (needs_init c "w" _ _) as [nw w1] eqn:E1. apply needs_init_spec in E1 as [Hw ->].
    apply bind_inv in H as (w & Hww & H).
    destruct (needs_init c "m" _ _) as [nm w2] eqn:E2. apply needs_init_spec in E2 as [Hm ->].
    destruct (needs_init c "c" _ _) as [nv w3] eqn:E3. apply needs_init_spec in E3 as [Hv ->].
    injection H as <- <- <- <-. cbn [gm_set gm_weights gm_means gm_covars gm_nmix gm_type gm_min_covar].
    split; [unfold keeps_args; cbn; auto|]. split; [|split; [|split; [|reflexivity]]].
    - apply not_none_kept; rewrite <- Hw; intros ->.
      + destruct (Nat.eqb_spec (gm_nmix p0) 0) as [|Hz]; [discriminate|]. injection Hww as <-. eexists. split; [reflexivity|]. split; [lia|reflexivity].
      + injection Hww as <-. reflexivity.
    - apply not_none_kept; rewrite <- Hm; intros ->; [|reflexivity]. eexists. split; [reflexivity|].
      destruct (kmeans_inv _ _ _ _ _ _ _ _ _ _ Hk) as (g & g' & _ & Hkk & _).
      destruct (mix_means_inv _ _ _ _ _ _ _ _ _ _ _ _ _ Hms) as [Hl Hj]. rewrite seq_length in Hl, Hj.
      exists g, labels, centers, g', ms. split; [exact Hkk|]. split; [exact Hl|]. split.
      + intros i Hi. specialize (Hj i Hi). rewrite seq_nth in Hj by exact Hi. exact Hj.
      + apply ntab_ext. intros idx Hidx. destruct (inb_inv3 _ _ _ _ Hidx) as (i & k & f & -> & _). reflexivity.
    - apply not_none_kept; rewrite <- Hv; intros ->; [|reflexivity].
      destruct (cov_start fp (gm_type p0) (c_nc c) (gm_nmix p0) (width x) (cov_template fp (gm_min_covar p0) x)) as [a|] eqn:Ec.
      + exists a. split; [reflexivity|]. apply cov_start_fresh. exact Ec.
      + exfalso. unfold cov_start in Ec. unfold is_type, covariance_types in Hty. cbn in Hty.
        destruct (String.eqb (gm_type p0) "tied"); [discriminate|]. destruct (String.eqb (gm_type p0) "full"); [discriminate|].
        destruct (String.eqb (gm_type p0) "diag"); [discriminate|]. destruct (String.eqb (gm_type p0) "spherical"); discriminate.
  Qed.
End Em.

Lemma gmm_nfeat_inv c nf p x nf' p' : gmm_nfeat c nf p x = Ok (nf', p') -> nf' = Some (width x) /\ p' = p.
Proof.
  unfold gmm_nfeat. intros H. apply bind_inv in H as (a & Ha & H). injection H as <- <-.
  apply set_n_features_ok in Ha. split; [exact Ha|reflexivity].
Qed.
(** A type outside the four raises KeyError in [_get_n_fit_scalars_per_param]. *)
Lemma gmm_nfit_type c nf p d : gmm_nfit c nf p = Ok d -> is_type covariance_types (gm_type p) = true.
Proof.
  unfold gmm_nfit. destruct nf; [|discriminate]. intros H. apply bind_inv in H as (k & Hk & _).
  unfold is_type, covariance_types. cbn.
  destruct (String.eqb (gm_type p) "spherical"); [rewrite ?orb_true_r; reflexivity|]. destruct (String.eqb (gm_type p) "diag"); [rewrite ?orb_true_r; reflexivity|].
  destruct (String.eqb (gm_type p) "full"); [rewrite ?orb_true_r; reflexivity|]. destruct (String.eqb (gm_type p) "tied"); [rewrite ?orb_true_r; reflexivity|discriminate].
Qed.
Section Init.
  Context {G : Type} (gr : grng G) (rg : rng G) (fp : fpmode).
  Lemma gmm_init_inv e glob x e' glob' ev : init (gmm_initc gr) rg fp e glob x = Ok (e', glob', ev) ->
    exists rs glob1 ev1 ev2,
      is_type covariance_types (gm_type (h_em (e_hmm e))) = true
      /\ gmm_init_em gr rg fp (h_cfg (e_hmm e)) (Some (width x)) (h_em (e_hmm e)) x rs glob1 = Ok (h_em (e_hmm e'), e_rs e', glob', ev2)
      /\ ev = ev1 ++ ev2.
  Proof.
    intros H. destruct (init_inv _ _ _ _ _ _ _ _ _ H) as (e1 & g1 & ev1 & p & rs & ev2 & Hb & Hem & -> & ->).
    destruct (base_init_inv _ _ _ _ _ _ _ _ _ Hb) as (A1 & _ & _ & A4 & _ & _ & _ & d & n & Hd & _).
    cbn [ic_nfeat ic_nfit ic_em gmm_initc] in A4, Hem, Hd. destruct (gmm_nfeat_inv _ _ _ _ _ _ A4) as [Hn Hp].
    rewrite Hn in Hem, Hd. rewrite A1, Hp in Hem. rewrite Hp in Hd. cbn [e_hmm h_em e_rs]. exists (e_rs e1), g1, ev1, ev2.
    split; [apply (gmm_nfit_type _ _ _ _ Hd)|]. split; [exact Hem|reflexivity].
  Qed.
End Init.

Lemma C22_gmm_l {G} (gr : grng G) (rg : rng G) fp e glob x e' glob' ev :
  init (gmm_initc gr) rg fp e glob x = Ok (e', glob', ev) ->
  let h := e_hmm e in let h' := e_hmm e' in let c := h_cfg h in let ip := c_init_params c in let nc := c_nc c in
  h_cfg h' = c /\ keeps_args (h_em h) (h_em h')
  /\ kept_or_fresh (has "s" ip) (h_start h) (h_start h') (dirichlet_draw rg fp nc)
  /\ kept_or_fresh (has "t" ip) (h_trans h) (h_trans h') (dirichlet_rows rg fp nc)
  /\ kept_or_fresh (has "w" ip) (gm_weights (h_em h)) (gm_weights (h_em h')) (fun a =>
       (0 < gm_nmix (h_em h))%nat
       /\ a = ntab [nc; gm_nmix (h_em h)] (fun _ => xdiv fp (Fin 1) (Fin (INR (gm_nmix (h_em h))))))
  /\ kept_or_fresh (has "m" ip) (gm_means (h_em h)) (gm_means (h_em h')) (fresh_means gr fp (h_em h) nc x)
  /\ kept_or_fresh (has "c" ip) (gm_covars (h_em h)) (gm_covars (h_em h')) (fresh_covars fp (h_em h) nc x).
Proof.
  intros H. cbv zeta. destruct (init_spec _ _ _ _ _ _ _ _ _ H) as (A1 & A2 & A3 & _).
  destruct (gmm_init_inv _ _ _ _ _ _ _ _ _ H) as (rs & g1 & v1 & v2 & Hty & Hem & _).
  destruct (gmm_em_inv _ _ _ _ _ _ _ _ _ _ _ _ Hty Hem) as (B1 & B2 & B3 & B4 & _).
  repeat (split; [assumption|]). exact B4.
Qed.
Lemma C22_gmm_warnings_l {G} (gr : grng G) (rg : rng G) eig fp e glob x ls e' glob' ev name :
  fit (gmm eig) (gmm_initc gr) rg fp e glob x ls = Ok (e', glob', ev) ->
  let h := e_hmm e in let ip := c_init_params (h_cfg h) in
  (In (WOverwrite name) ev <->
     (name = "startprob_"%string /\ has "s" ip = true /\ h_start h <> None)
     \/ (name = "transmat_"%string /\ has "t" ip = true /\ h_trans h <> None)
     \/ (name = "weights_"%string /\ has "w" ip = true /\ gm_weights (h_em h) <> None)
     \/ (name = "means_"%string /\ has "m" ip = true /\ gm_means (h_em h) <> None)
     \/ (name = "covars_"%string /\ has "c" ip = true /\ gm_covars (h_em h) <> None)).
Proof.
  intros H. cbv zeta.
  assert (Hty : is_type covariance_types (gm_type (h_em (e_hmm e))) = true).
  { destruct (fit_inv _ _ _ _ _ _ _ _ _ _ _ H) as (ea & va & va2 & _ & Hi & _).
    destruct (gmm_init_inv _ _ _ _ _ _ _ _ _ Hi) as (_ & _ & _ & _ & Hty & _). exact Hty. }
  destruct (fit_warnings _ _ _ _ _ _ _ _ _ _ _ H) as (nf & p & rs & g1 & p' & rs' & g2 & ev2 & Hn & Hem & Hw).
  cbn [ic_nfeat ic_em gmm_initc] in Hn, Hem. destruct (gmm_nfeat_inv _ _ _ _ _ _ Hn) as [-> ->].
  destruct (gmm_em_inv _ _ _ _ _ _ _ _ _ _ _ _ Hty Hem) as (_ & _ & _ & _ & ->).
  rewrite Hw, !in_app_iff, !in_overwrites, !isSome_set. reflexivity.
Qed.

(** Two states with two components each: 12 parameters are counted instead of 13
    (start 1, transitions 2, means 4, variances 4, weights 2 but counted as 1). *)
Definition ex2 (ip : string) : hmm gmmp :=
  Hmm (Cfg 2 "stmcw" ip "viterbi" "log" 1 (Fin (/ 100)) false (Scal (Fin 1)) (Scal (Fin 1))) (Some 1%nat)
      (Some (fvec 2 (fun _ => 1 / 2))) (Some (fmat 2 2 half2)) (Monitor (Fin (/ 100)) 1 false [] 0)
      (Gmmp 2 "diag" (Fin (/ 1000)) (nscal (Fin 1)) (nscal (Fin 0)) (nscal (Fin 0)) None None
         (Some (nd2 2 2 half2)) (Some (nd3 2 2 1 (cmu 0))) (Some (fnd (cshape 2 2 1 "diag") (ccv 1)))).
Lemma ex2_model ip : gmm_model eig1 (ex2 ip) 2 2 1 "diag" (fun _ => 1 / 2) half2 half2 (cmu 0) (ccv 1).
Proof.
  assert (Hn : near1 (sumn 2 (fun _ => 1 / 2))) by (replace (sumn 2 (fun _ => 1 / 2)) with 1 by (simpl; lra); exact near1_1).
  constructor; try reflexivity; try lia.
  - constructor; try reflexivity; try lia; try exact Hn; try (intros i _; exact Hn).
    + intros i _. lra.
    + intros i j _ _. unfold half2. lra.
  - right. reflexivity.
  - intros i k _ _. unfold half2. lra.
  - intros i _. exact Hn.
  - intros _ idx _. unfold ccv. lra.
  - discriminate.
Qed.
Lemma ex2_score ip : exists s, score (gmm eig1) exact (ex2 ip) [v1 0] None = Ok (Fin s).
Proof.
  assert (HF : gmm_flat (ex2 ip)) by (repeat split).
  pose proof (C02_gmm_ready_l _ _ _ _ _ _ _ _ _ _ _ _ _ _ _ _ (ex2_model ip) (gmm_flat_hyper (ex2 ip) 2 2 1 "diag" HF)) as RD.
  destruct (C02_score_is_log_likelihood_l _ _ _ _ _ _ _ [v1 0] RD eq_refl ltac:(discriminate) ltac:(repeat constructor; apply v1_ok)) as [-> _].
  assert (Hb : forall i, (i < 2)%nat -> 0 < mixb 2 1 "diag" half2 (cmu 0) (ccv 1) (v1 0) i).
  { intros i Hi. apply (mixb_pos 2 2 1 "diag"); try exact Hi.
    - exact (model_cov_ok _ _ _ _ _ _ _ _ _ _ _ (ex2_model ip)).
    - intros a b _ _. unfold half2. lra.
    - intros a _. unfold half2. simpl. lra. }
  eexists. rewrite xln_pos; [reflexivity|].
  pose proof (Hb 0%nat ltac:(lia)) as B0. pose proof (Hb 1%nat ltac:(lia)) as B1. unfold mixb in B0, B1.
  cbn [all_paths length seq flat_map map app sumL fold_right]. unfold seq_joint, joint, obsB.
  cbn [nth length]. cbn [prodn Nat.sub map nth]. lra.
Qed.
Lemma C43_gmm_refuted_l : exists (h : hmm gmmp) x s,
  c_nc (h_cfg h) = 2%nat /\ gm_nmix (h_em h) = 2%nat /\ h_nfeat h = Some 1%nat /\ gm_type (h_em h) = "diag"%string
  /\ score (gmm eig1) exact h x None = Ok (Fin s)
  /\ gmm_dim "diag" 2 2 1 = 13%nat
  /\ forall G (gr : grng G),
     aic (gmm eig1) (gmm_initc gr) exact h x None = Ok (Fin (-2 * s + 2 * 12))
     /\ bic (gmm eig1) (gmm_initc gr) exact h x None = Ok (Fin (-2 * s + 12 * ln (INR (length x)))).
Proof.
  destruct (ex2_score "stmcw") as (s & Hs). exists (ex2 "stmcw"), [v1 0], s. repeat (split; [first [reflexivity|exact Hs]|]).
  intros G gr. replace 12 with (INR (base_dim 2 + 2 * 2 * 1 + mix_covars_dim "diag" 2 2 1 + simplex_dim 2)) by (cbn; lra).
  apply (C43_gmm_count_l gr eig1 (ex2 "stmcw") 2 2 1); try reflexivity; try lia. exact Hs.
Qed.

(** ** C29: a state whose cluster has fewer than n_mix samples gets means from the
    global generator, whatever the seed. *)
Definition toy_grng : grng nat := Grng
  (fun k x g => if Nat.ltb (length x) k then Err (ValueError "n_samples should be >= n_clusters")
                else Ok (map (fun _ => 0%nat) x, fmat k (width x) (fun _ _ => 0), S g))
  (fun mean cov n g => Ok (fmat n (length mean) (fun _ _ => INR g), S g)).
Definition gx_cfg : cfg := Cfg 1 "stmcw" "stmcw" "viterbi" "log" 0 (Fin (/ 100)) false (Scal (Fin 1)) (Scal (Fin 1)).
Definition gx_x : list vec := [v1 0; v1 2].
Definition gx_cv : R := 2 + / 1000 * 1.
Section Gx.
Variable nm : nat.
Hypothesis Hnm : (0 < nm)%nat.
Definition gx : est gmmp nat :=
  Est (Hmm gx_cfg None None None toy_mon
        (Gmmp nm "diag" (Fin (/ 1000)) (nscal (Fin 1)) (nscal (Fin 0)) (nscal (Fin 0)) None None None None None)) (RSSeed 0).
Definition gx_checked : gmmp -> gmmp :=
  gmm_checked 1 nm 1 "diag" (fun _ _ => 1) (fun _ _ => 0) (fun _ _ _ => 0) (fun _ => none_cp "diag" nm 1) (fun _ => none_cw "diag" nm 1).
Definition gx_hyper (p : gmmp) : Prop :=
  gmm_hyper p 1 nm 1 "diag" (fun _ _ => 1) (fun _ _ => 0) (fun _ _ _ => 0) (fun _ => none_cp "diag" nm 1) (fun _ => none_cw "diag" nm 1).
Definition gx_mean (glob : nat) : R := if Nat.leb nm 2 then 0 else INR glob.
Definition gx_next (glob : nat) : nat := if Nat.leb nm 2 then glob else S glob.
Definition gx_start (p : gmmp) (m : monitor) (glob : nat) : hmm gmmp :=
  Hmm gx_cfg (Some 1%nat) (Some (fvec 1 u1)) (Some (fmat 1 1 all1)) m
    (gm_set (gx_checked p) (Some (nd2 1 nm (fun _ _ => 1 / INR nm))) (Some (nd3 1 nm 1 (cmu (gx_mean glob)))) (Some (nd3 1 nm 1 (cmu gx_cv)))).
Lemma INR2 : INR 2 = 2. Proof. cbn. lra. Qed.
Lemma gx_nm0 : INR nm <> 0. Proof. apply not_0_INR. lia. Qed.
Lemma gx_cov : cov_template exact (Fin (/ 1000)) gx_x = fmat 1 1 (fun _ _ => gx_cv).
Proof.
  unfold cov_template, fmat, gx_x. cbn [width map length v1]. apply mtab_ext. intros i j Hi Hj. assert (i = 0 /\ j = 0)%nat as [-> ->] by lia.
  unfold np_cov. cbn [width length v1]. rewrite mget_mtab by lia. cbn [Nat.eqb].
  unfold arr_mean. cbn [map length vget nth v1]. unfold xsum. cbn [fold_left]. rewrite INR2.
  rewrite !xaddE, xdivE by lra. rewrite !xsubE, !xmulE, !xaddE, xdivE by lra. rewrite !xmulE, xaddE. f_equal. unfold gx_cv. lra.
Qed.
Lemma gx_init m p nf st tr glob : nf = None \/ nf = Some 1%nat ->
  gm_nmix p = nm -> gm_type p = "diag"%string -> gm_min_covar p = Fin (/ 1000) -> gx_hyper p ->
  exists ev, init (gmm_initc toy_grng) toy_rng exact (Est (Hmm gx_cfg nf st tr m p) (RSSeed 0)) glob gx_x
    = Ok (Est (gx_start p m glob) (RSSeed 0), gx_next glob, ev).
Proof.
  intros Hnf Hm Ht Hmc HH. unfold init, base_init. cbn [ic_nfeat gmm_initc e_hmm h_cfg h_nfeat h_em]. unfold gmm_nfeat.
  assert (Hs : set_n_features nf (width gx_x) = Ok (Some 1%nat)) by (destruct Hnf as [-> | ->]; reflexivity).
  rewrite Hs. cbn [bind c_nc gx_cfg Nat.eqb e_rs rs_get r_seed toy_rng Z.ltb Z.compare].
  unfold needs_init. cbn [c_init_params gx_cfg].
  change (has "s" "stmcw") with true. change (has "t" "stmcw") with true. cbn [bind r_dirichlet toy_rng draws tab seq map length ic_nfit gmm_initc rs_put].
  unfold gmm_nfit. rewrite Ht, Hm. cbn [String.eqb Ascii.eqb Bool.eqb bind].
  match goal with |- context [dict_sum ?d ?s] => destruct (dict_sum_ok d s) as [n ->] end.
  { intros a Ha. cbn [has c_params gx_cfg] in Ha. repeat (apply orb_prop in Ha as [Ha|Ha]; [apply Ascii.eqb_eq in Ha; subst a; eexists; reflexivity|]). discriminate. }
  cbn [bind e_hmm h_em h_cfg h_nfeat e_rs ic_em gmm_initc]. unfold gmm_init_em. cbn [c_nc gx_cfg].
  rewrite (fix_priors_ok 1 nm 1 "diag" eq_refl _ _ _ _ _ _ Hm Ht HH). cbn [bind]. rewrite Hmc, gx_cov.
  unfold kmeans at 1. cbn [rs_get r_seed toy_rng Z.ltb Z.compare bind gr_kmeans toy_grng length gx_x Nat.ltb Nat.leb rs_put map].
  cbn [seq mix_means]. rewrite Hm.
  cbn [gr_mvn toy_grng bind]. unfold needs_init. cbn [c_init_params gx_cfg].
  change (has "w" "stmcw") with true. change (has "m" "stmcw") with true. change (has "c" "stmcw") with true.
  assert (W1 : fvec 1 (fun _ => / INR 1) = fvec 1 u1) by (unfold fvec; cbn; f_equal; f_equal; unfold u1; lra).
  assert (W2 : Mat 1 [fvec 1 u1] = fmat 1 1 all1) by reflexivity.
  assert (W3 : ntab [1; nm]%nat (fun _ => xdiv exact (Fin 1) (Fin (INR nm))) = nd2 1 nm (fun _ _ => 1 / INR nm)).
  { unfold nd2, fnd. apply ntab_ext. intros idx _. apply xdivE. exact gx_nm0. }
  assert (W4 : forall a, stack 1 nm 1 [fmat nm 1 (fun _ _ => a)] = nd3 1 nm 1 (cmu a)).
  { intros a. unfold stack, nd3, fnd. apply ntab_ext. intros idx Hi. destruct (inb_inv3 _ _ _ _ Hi) as (i & k & f & -> & Hi1 & Hk & Hf).
    assert (i = 0 /\ f = 0)%nat as [-> ->] by lia. cbn [nth]. rewrite mget_fmat; [reflexivity|exact Hk|cbn; lia]. }
  assert (W5 : cov_start exact "diag" 1 nm 1 (fmat 1 1 (fun _ _ => gx_cv)) = Some (nd3 1 nm 1 (cmu gx_cv))).
  { unfold cov_start. cbn [String.eqb Ascii.eqb Bool.eqb]. apply f_equal. unfold nd3, fnd. apply ntab_ext. intros idx Hi.
    destruct (inb_inv3 _ _ _ _ Hi) as (i & k & f & -> & Hi1 & Hk & Hf). assert (f = 0)%nat as -> by lia. reflexivity. }
  change (in_cluster [0%nat; 0%nat] gx_x 0) with gx_x. cbn [gx_x length]. fold gx_x.
  assert (K2 : gm_type (gx_checked p) = "diag"%string) by exact Ht. unfold gx_checked in K2. rewrite K2, W5.
  rewrite (proj2 (Nat.eqb_neq nm 0)) by lia. unfold gx_start, gx_next, gx_mean.
  cbn [Nat.eqb]. destruct (Nat.leb_spec nm 2) as [Hle|Hgt].
  - unfold kmeans. cbn [rs_get r_seed toy_rng Z.ltb Z.compare bind gr_kmeans toy_grng length gx_x].
    fold gx_x. rewrite (proj2 (Nat.ltb_ge 2 nm)) by lia. cbn [bind rs_put]. cbn [gx_x width length v1]. fold gx_x.
    rewrite W4, W3, W1, W2. eexists. reflexivity.
  - cbn [bind]. change (length (centroid exact (fmat 1 (width gx_x) (fun _ _ => 0)))) with 1%nat.
    rewrite W4, W3, W1, W2. eexists. reflexivity.
Qed.
Lemma gx_start_model p m glob : gm_nmix p = nm -> gm_type p = "diag"%string ->
  gmm_model eig1 (gx_start p m glob) 1 nm 1 "diag" u1 all1 (fun _ _ => 1 / INR nm) (cmu (gx_mean glob)) (fun _ => gx_cv).
Proof.
  intros Hm Ht.
  assert (Hn : near1 (sumn 1 (fun _ => 1))) by (replace (sumn 1 (fun _ => 1)) with 1 by (simpl; lra); exact near1_1).
  assert (Hn3 : near1 (sumn nm (fun _ => 1 / INR nm))).
  { rewrite sumn_const. replace (INR nm * (1 / INR nm)) with 1 by (field; exact gx_nm0). exact near1_1. }
  constructor; try reflexivity; try lia; try assumption.
  - constructor; try reflexivity; try lia; try exact Hn; try (intros i _; exact Hn).
    + intros i _. unfold u1. lra.
    + intros i j _ _. unfold all1. lra.
  - right. reflexivity.
  - intros i k _ _. apply Rlt_le, Rdiv_lt_0_compat; [lra|apply lt_0_INR; exact Hnm].
  - intros i _. exact Hn3.
  - intros _ idx _. unfold gx_cv. lra.
  - discriminate.
Qed.
Lemma gx_fit m p nf st tr glob : nf = None \/ nf = Some 1%nat ->
  gm_nmix p = nm -> gm_type p = "diag"%string -> gm_min_covar p = Fin (/ 1000) -> gx_hyper p ->
  exists ev m', fit (gmm eig1) (gmm_initc toy_grng) toy_rng exact (Est (Hmm gx_cfg nf st tr m p) (RSSeed 0)) glob gx_x None
    = Ok (Est (gx_start p m' glob) (RSSeed 0), gx_next glob, ev).
Proof.
  intros Hnf Hm Ht Hmc HH. destruct (gx_init m p nf st tr glob Hnf Hm Ht Hmc HH) as [ev Hi].
  unfold fit. replace (check_array _ gx_x) with (Ok gx_x).
  2:{ unfold check_array. cbn [gx_x]. replace (forallb _ _) with true; [reflexivity|]. reflexivity. }
  cbn [bind]. rewrite Hi. cbn [bind e_hmm]. unfold fit_from.
  pose proof (gx_start_model p m glob Hm Ht) as GM.
  assert (HG : gx_hyper (h_em (gx_start p m glob))).
  { destruct (hyper_checked 1 nm 1 "diag" (fun _ _ => 1) (fun _ _ => 0) (fun _ _ _ => 0) (fun _ => none_cp "diag" nm 1) (fun _ => none_cw "diag" nm 1) p).
    constructor; assumption. }
  rewrite (gmm_fit_check eig1 _ 1 nm 1 "diag" u1 all1 _ _ _ GM _ _ _ _ _ HG). cbn [bind with_em h_cfg gx_start c_n_iter gx_cfg fit_loop].
  eexists. eexists. cbn [h_nfeat h_start h_trans h_em h_cfg h_mon]. unfold gx_start. reflexivity.
Qed.
Lemma gx_hyper_start m p glob : gx_hyper (h_em (gx_start p m glob)).
Proof.
  destruct (hyper_checked 1 nm 1 "diag" (fun _ _ => 1) (fun _ _ => 0) (fun _ _ _ => 0) (fun _ => none_cp "diag" nm 1) (fun _ => none_cw "diag" nm 1) p).
  constructor; assumption.
Qed.
Lemma gx_twice : exists e1 ev1 e2 ev2 ea va eb vb,
  fit (gmm eig1) (gmm_initc toy_grng) toy_rng exact gx 0%nat gx_x None = Ok (e1, gx_next 0, ev1)
  /\ fit (gmm eig1) (gmm_initc toy_grng) toy_rng exact e1 (gx_next 0) gx_x None = Ok (e2, gx_next (gx_next 0), ev2)
  /\ init (gmm_initc toy_grng) toy_rng exact gx 0%nat gx_x = Ok (ea, gx_next 0, va)
  /\ init (gmm_initc toy_grng) toy_rng exact e1 (gx_next 0) gx_x = Ok (eb, gx_next (gx_next 0), vb)
  /\ gm_means (h_em (e_hmm ea)) = Some (nd3 1 nm 1 (cmu (gx_mean 0)))
  /\ gm_means (h_em (e_hmm eb)) = Some (nd3 1 nm 1 (cmu (gx_mean (gx_next 0)))).
Proof.
  assert (H0 : gx_hyper (h_em (e_hmm gx))) by (apply gmm_flat_hyper; repeat split).
  destruct (gx_init toy_mon (h_em (e_hmm gx)) None None None 0 (or_introl eq_refl) eq_refl eq_refl eq_refl H0) as (va & Hia).
  destruct (gx_fit toy_mon (h_em (e_hmm gx)) None None None 0 (or_introl eq_refl) eq_refl eq_refl eq_refl H0) as (v1 & m1 & Hf1).
  pose proof (gx_hyper_start m1 (h_em (e_hmm gx)) 0) as H1.
  destruct (gx_init m1 (h_em (gx_start (h_em (e_hmm gx)) m1 0)) (Some 1%nat) (Some (fvec 1 u1)) (Some (fmat 1 1 all1)) (gx_next 0) (or_intror eq_refl) eq_refl eq_refl eq_refl H1) as (vb & Hib).
  destruct (gx_fit m1 (h_em (gx_start (h_em (e_hmm gx)) m1 0)) (Some 1%nat) (Some (fvec 1 u1)) (Some (fmat 1 1 all1)) (gx_next 0) (or_intror eq_refl) eq_refl eq_refl eq_refl H1) as (v2 & m2 & Hf2).
  do 8 eexists. split; [exact Hf1|]. split; [exact Hf2|]. split; [exact Hia|]. split; [exact Hib|]. split; reflexivity.
Qed.
End Gx.
Lemma C29_gmm_refuted_l : exists (gr : grng nat) (e : est gmmp nat) k x e1 glob1 ev1 e2 glob2 ev2 ea ga va eb gb vb,
  sane_rng toy_rng /\ e_rs e = RSSeed k
  /\ (forall a, In a ["s"; "t"; "m"; "c"; "w"]%char -> has a (c_init_params (h_cfg (e_hmm e))) = true)
  /\ fit (gmm eig1) (gmm_initc gr) toy_rng exact e 0%nat x None = Ok (e1, glob1, ev1)
  /\ fit (gmm eig1) (gmm_initc gr) toy_rng exact e1 glob1 x None = Ok (e2, glob2, ev2)
  /\ init (gmm_initc gr) toy_rng exact e 0%nat x = Ok (ea, ga, va)
  /\ init (gmm_initc gr) toy_rng exact e1 glob1 x = Ok (eb, gb, vb)
  /\ gm_means (h_em (e_hmm ea)) <> gm_means (h_em (e_hmm eb)).
Proof.
  destruct (gx_twice 3 ltac:(lia)) as (e1 & ev1 & e2 & ev2 & ea & va & eb & vb & Hf1 & Hf2 & Hia & Hib & Ma & Mb).
  exists toy_grng, (gx 3), 0%Z, gx_x. do 12 eexists. split; [exact toy_sane|]. split; [reflexivity|]. split.
  { intros a [<-|[<-|[<-|[<-|[<-|[]]]]]]; reflexivity. }
  split; [exact Hf1|]. split; [exact Hf2|]. split; [exact Hia|]. split; [exact Hib|].
  rewrite Ma, Mb. intros E0.
  assert (E1 : nd3 1 3 1 (cmu (gx_mean 3 0)) = nd3 1 3 1 (cmu (gx_mean 3 (gx_next 3 0)))) by congruence.
  apply (f_equal (fun a => nget a [0; 0; 0]%nat)) in E1. rewrite !nget_nd3 in E1 by lia. unfold cmu in E1. cbn in E1. injection E1 as E1. lra.
Qed.

(** True when every KMeans cluster has at least n_mix samples. *)
Definition big_clusters {G} (gr : grng G) (rg : rng G) (k : Z) (nc nm : nat) (x : list vec) : Prop :=
  forall g labels centers g', r_seed rg k = Ok g -> gr_kmeans gr nc x g = Ok (labels, centers, g') ->
  forall i, (i < nc)%nat -> (nm <= length (filter (fun '(l, _) => Nat.eqb l i) (combine labels x)))%nat.

Section Seeded.
  Context {G : Type} (gr : grng G) (rg : rng G) (fp : fpmode).
  Lemma kmeans_seed n x k glob g : r_seed rg k = Ok g ->
    kmeans gr rg n x (RSSeed k) glob = do (l, m, g1) <- gr_kmeans gr n x g; Ok (l, m, RSSeed k, glob).
  Proof. intros H. unfold kmeans. cbn [rs_get]. rewrite H. cbn [bind]. reflexivity. Qed.
  Lemma mix_means_seed nm labels x cent cv is k glob glob' g ms rs1 g1 ms' rs1' g1' : r_seed rg k = Ok g ->
    (forall i, In i is -> (nm <= length (in_cluster labels x i))%nat) ->
    mix_means gr rg nm labels x cent cv is (RSSeed k) glob = Ok (ms, rs1, g1) ->
    mix_means gr rg nm labels x cent cv is (RSSeed k) glob' = Ok (ms', rs1', g1') ->
    ms' = ms /\ rs1 = RSSeed k /\ rs1' = RSSeed k /\ g1 = glob /\ g1' = glob'.
  Proof.
    intros Hg. revert glob glob' ms rs1 g1 ms' rs1' g1'. induction is as [|i is IH]; intros glob glob' ms rs1 g1 ms' rs1' g1' Hb H H'; cbn [mix_means] in H, H'.
    - injection H as <- <- <-. injection H' as <- <- <-. auto.
    - rewrite (proj2 (Nat.leb_le _ _)) in H, H' by (apply Hb; left; reflexivity).
      rewrite (kmeans_seed _ _ _ _ g Hg) in H. rewrite (kmeans_seed _ _ _ _ g Hg) in H'.
      destruct (gr_kmeans gr nm (in_cluster labels x i) g) as [[[l m] g2]|]; [|discriminate]. cbn [bind] in H, H'.
      apply bind_inv in H as ([[ms1 r1] g3] & H & E1). injection E1 as <- <- <-.
      apply bind_inv in H' as ([[ms2 r2] g4] & H' & E2). injection E2 as <- <- <-.
      destruct (IH _ _ _ _ _ _ _ _ (fun j Hj => Hb j (or_intror Hj)) H H') as (-> & -> & -> & -> & ->). auto.
  Qed.
  Lemma gmm_em_seed c p q x k glob glob' p' rs1 g1 ev1 q' rs2 g2 ev2 : keeps_args p q ->
    is_type covariance_types (gm_type p) = true ->
    has "w" (c_init_params c) = true -> has "m" (c_init_params c) = true -> has "c" (c_init_params c) = true ->
    big_clusters gr rg k (c_nc c) (gm_nmix p) x ->
    gmm_init_em gr rg fp c (Some (width x)) p x (RSSeed k) glob = Ok (p', rs1, g1, ev1) ->
    gmm_init_em gr rg fp c (Some (width x)) q x (RSSeed k) glob' = Ok (q', rs2, g2, ev2) ->
    gm_weights q' = gm_weights p' /\ gm_means q' = gm_means p' /\ gm_covars q' = gm_covars p' /\ g1 = glob /\ g2 = glob'.
  Proof.
    intros (K1 & K2 & K3) Hty Hw Hm Hc Hbig HA HB. unfold gmm_init_em in HA, HB. rewrite K1, K3 in HB.
    apply bind_inv in HA as (pa & Hpa & HA). apply bind_inv in HB as (pb & Hpb & HB).
    destruct (fix_priors_keeps _ _ _ _ _ Hpa) as ((A1 & A2 & A3) & _). destruct (fix_priors_keeps _ _ _ _ _ Hpb) as ((B1 & B2 & B3) & _).
    destruct (r_seed rg k) as [g|] eqn:Eg.
    2:{ unfold kmeans in HA. cbn [rs_get] in HA. rewrite Eg in HA. discriminate. }
    rewrite (kmeans_seed _ _ _ _ g Eg) in HA. rewrite (kmeans_seed _ _ _ _ g Eg) in HB.
    destruct (gr_kmeans gr (c_nc c) x g) as [[[labels centers] g0]|] eqn:Ek; [|discriminate]. cbn [bind] in HA, HB.
    apply bind_inv in HA as ([[ms ra] ga] & Ma & HA). apply bind_inv in HB as ([[ms' rb] gb] & Mb & HB).
    assert (HI : forall i, In i (seq 0 (c_nc c)) -> (gm_nmix p <= length (in_cluster labels x i))%nat).
    { intros i Hi. apply in_seq in Hi. unfold in_cluster. rewrite map_length. apply (Hbig g labels centers g0); [first [reflexivity|exact Eg]|exact Ek|lia]. }
    destruct (mix_means_seed _ _ _ _ _ _ _ _ _ g _ _ _ _ _ _ Eg HI Ma Mb)
      as (-> & -> & -> & -> & ->).
    unfold needs_init in HA, HB. rewrite Hw, Hm, Hc in HA, HB. rewrite A2 in HA. rewrite B2, K2 in HB.
    destruct (Nat.eqb (gm_nmix p) 0); [discriminate|]. cbn [bind] in HA, HB.
    injection HA as <- <- <- <-. injection HB as <- <- <- <-. cbn [gm_set gm_weights gm_means gm_covars].
    split; [reflexivity|]. split; [reflexivity|]. split; [|auto].
    unfold cov_start. unfold is_type, covariance_types in Hty. cbn in Hty.
    destruct (String.eqb (gm_type p) "tied"); [reflexivity|]. destruct (String.eqb (gm_type p) "full"); [reflexivity|].
    destruct (String.eqb (gm_type p) "diag"); [reflexivity|]. destruct (String.eqb (gm_type p) "spherical"); [reflexivity|discriminate].
  Qed.
End Seeded.

Lemma gmm_check_args eig fp c nfe p nfe' p' : gmm_check eig fp c nfe p = Ok (nfe', p') -> keeps_args p p'.
Proof.
  unfold gmm_check. intros H. destruct (match nfe with Some _ => _ | None => _ end) as [nf|]; [|discriminate]. cbn [bind] in H.
  apply bind_inv in H as (p1 & Hp & H). destruct (fix_priors_keeps _ _ _ _ _ Hp) as [K _].
  repeat match type of H with
  | (if ?b then _ else _) = _ => destruct b; try discriminate
  | match ?o with Some _ => _ | None => _ end = _ => destruct o; try discriminate
  end.
  apply bind_inv in H as (u & _ & H). injection H as <- <-. exact K.
Qed.
Definition gm_args (p : gmmp) := (gm_nmix p, gm_type p, gm_min_covar p).
Lemma keeps_args_eq p p' : gm_args p' = gm_args p <-> keeps_args p p'.
Proof. unfold gm_args, keeps_args. split; [intros H; injection H; auto|intros (-> & -> & ->); reflexivity]. Qed.
Lemma gmm_fit_args eig fp h x ls h' ev : fit_from (gmm eig) fp h x ls = Ok (h', ev) -> keeps_args (h_em h) (h_em h').
Proof.
  intros H. apply keeps_args_eq. apply (fit_keeps (gmm eig) fp h x ls h' ev _ gm_args H).
  - intros nf p nf' p' Hc. apply keeps_args_eq, (gmm_check_args _ _ _ _ _ _ _ Hc).
  - intros nf p st p' Hm. cbn [gmm ec_mstep] in Hm. unfold gmm_mstep in Hm.
    destruct (gm_weights p) eqn:E; [|discriminate]. destruct (gm_means p); [|discriminate].
    destruct (if has "c" _ then _ else _) in Hm; [|discriminate]. cbn [bind] in Hm. injection Hm as <-. reflexivity.
Qed.

Lemma mix_means_rs {G} (gr : grng G) (rg : rng G) nm labels x cent cv is k glob ms rs1 g1 :
  mix_means gr rg nm labels x cent cv is (RSSeed k) glob = Ok (ms, rs1, g1) -> rs1 = RSSeed k.
Proof.
  revert glob ms rs1 g1. induction is as [|i is IH]; intros glob ms rs1 g1 H; cbn [mix_means] in H.
  - injection H as <- <- <-. reflexivity.
  - apply bind_inv in H as ([[m r] g] & Hm & H). apply bind_inv in H as ([[ms1 r1] g3] & H & E1). injection E1 as <- <- <-.
    destruct (Nat.leb _ _).
    + apply bind_inv in Hm as ([[[l m0] r0] g0] & Hk & Hm). injection Hm as <- <- <-.
      destruct (kmeans_inv _ _ _ _ _ _ _ _ _ _ Hk) as (a & b & _ & _ & Hp). cbn in Hp. injection Hp as <- <-. apply (IH _ _ _ _ H).
    + apply bind_inv in Hm as ([m0 g0] & _ & Hm). injection Hm as <- <- <-. apply (IH _ _ _ _ H).
Qed.
Lemma gmm_init_rs {G} (gr : grng G) (rg : rng G) fp e k glob x e' glob' ev : e_rs e = RSSeed k ->
  init (gmm_initc gr) rg fp e glob x = Ok (e', glob', ev) ->
  e_rs e' = RSSeed k /\ exists e1 v1 v2, base_init (gmm_initc gr) rg fp e glob x = Ok (e1, glob, v1)
    /\ gmm_init_em gr rg fp (h_cfg (e_hmm e)) (Some (width x)) (h_em (e_hmm e)) x (RSSeed k) glob = Ok (h_em (e_hmm e'), e_rs e', glob', v2)
    /\ h_start (e_hmm e') = h_start (e_hmm e1) /\ h_trans (e_hmm e') = h_trans (e_hmm e1).
Proof.
  intros Hk H. destruct (init_inv _ _ _ _ _ _ _ _ _ H) as (e1 & g1 & ev1 & p & rs & ev2 & Hb & Hem & -> & ->).
  destruct (base_init_inv _ _ _ _ _ _ _ _ _ Hb) as (A1 & _ & _ & A4 & _ & _ & (ga & gb & _ & Hp) & _).
  rewrite Hk in Hp. cbn [rs_put] in Hp. injection Hp as Hp1 <-.
  cbn [ic_nfeat ic_em gmm_initc] in A4, Hem. destruct (gmm_nfeat_inv _ _ _ _ _ _ A4) as [Hn Hpp].
  rewrite Hn, A1, Hpp, <- Hp1 in Hem. cbn [e_hmm h_em e_rs h_start h_trans]. split.
  - unfold gmm_init_em in Hem. apply bind_inv in Hem as (q & _ & Hem). apply bind_inv in Hem as ([[[l m] r] g] & Hkm & Hem).
    apply bind_inv in Hem as ([[ms r2] g2] & Hms & Hem). destruct (kmeans_inv _ _ _ _ _ _ _ _ _ _ Hkm) as (a & b & _ & _ & Hpp2).
    cbn in Hpp2. injection Hpp2 as <- <-. apply mix_means_rs in Hms. subst r2.
    destruct (needs_init _ "w" _ _) as [nw w1]. apply bind_inv in Hem as (w & _ & Hem).
    destruct (needs_init _ "m" _ _). destruct (needs_init _ "c" _ _). injection Hem as <- <- <- <-. reflexivity.
  - exists e1, ev1, ev2. auto.
Qed.

Lemma C29_gmm_partial_l {G} (gr : grng G) (rg : rng G) eig fp e k glob x ls e1 glob1 ev1 glob2 eb gb vb :
  let c := h_cfg (e_hmm e) in let ip := c_init_params c in
  e_rs e = RSSeed k ->
  has "s" ip = true -> has "t" ip = true -> has "m" ip = true -> has "c" ip = true -> has "w" ip = true ->
  big_clusters gr rg k (c_nc c) (gm_nmix (h_em (e_hmm e))) x ->
  fit (gmm eig) (gmm_initc gr) rg fp e glob x ls = Ok (e1, glob1, ev1) ->
  init (gmm_initc gr) rg fp e1 glob2 x = Ok (eb, gb, vb) ->
  exists ea ga va, init (gmm_initc gr) rg fp e glob x = Ok (ea, ga, va)
    /\ h_start (e_hmm eb) = h_start (e_hmm ea) /\ h_trans (e_hmm eb) = h_trans (e_hmm ea)
    /\ gm_weights (h_em (e_hmm eb)) = gm_weights (h_em (e_hmm ea))
    /\ gm_means (h_em (e_hmm eb)) = gm_means (h_em (e_hmm ea))
    /\ gm_covars (h_em (e_hmm eb)) = gm_covars (h_em (e_hmm ea))
    /\ ga = glob /\ gb = glob2.
Proof.
  cbv zeta. intros Hk Hs Ht Hm Hc Hw Hbig H1 H2.
  destruct (fit_inv _ _ _ _ _ _ _ _ _ _ _ H1) as (ea & va & va2 & _ & Hia & Hfa & Hra & _).
  destruct (gmm_init_rs _ _ _ _ _ _ _ _ _ _ Hk Hia) as (Ra & e1a & w1 & w2 & Ba & Ea & Sa & Ta).
  assert (Hk1 : e_rs e1 = RSSeed k) by congruence.
  destruct (gmm_init_rs _ _ _ _ _ _ _ _ _ _ Hk1 H2) as (Rb & e1b & w3 & w4 & Bb & Eb & Sb & Tb).
  destruct (fit_from_keeps _ _ _ _ _ _ _ Hfa) as (K1 & _). destruct (init_spec _ _ _ _ _ _ _ _ _ Hia) as (C1 & _).
  assert (Hcc : h_cfg (e_hmm e1) = h_cfg (e_hmm e)) by congruence.
  destruct (gmm_init_inv _ _ _ _ _ _ _ _ _ Hia) as (_ & _ & _ & _ & Hty & _).
  destruct (base_init_seed _ _ _ e e1 glob glob2 x k e1a glob w1 e1b glob2 w3 Ba Bb Hcc Hk Hk1 Hs Ht) as (S1 & S2 & _).
  assert (HK : keeps_args (h_em (e_hmm e)) (h_em (e_hmm e1))).
  { destruct (gmm_em_inv _ _ _ _ _ _ _ _ _ _ _ _ Hty Ea) as (KA & _). pose proof (gmm_fit_args _ _ _ _ _ _ _ Hfa) as KB.
    unfold keeps_args in *. intuition congruence. }
  rewrite Hcc in Eb.
  destruct (gmm_em_seed _ _ _ _ _ _ _ _ _ _ _ _ _ _ _ _ _ _ HK Hty Hw Hm Hc Hbig Ea Eb) as (Q1 & Q2 & Q3 & Q4 & Q5).
  exists ea, glob1, va. split; [exact Hia|]. repeat split; congruence.
Qed.
Lemma C29_gmm_applies_l : exists e1 glob1 ev1 eb gb vb,
  big_clusters toy_grng toy_rng 0 1 2 gx_x
  /\ fit (gmm eig1) (gmm_initc toy_grng) toy_rng exact (gx 2) 0%nat gx_x None = Ok (e1, glob1, ev1)
  /\ init (gmm_initc toy_grng) toy_rng exact e1 7%nat gx_x = Ok (eb, gb, vb)
  /\ gm_means (h_em (e_hmm eb)) = Some (nd3 1 2 1 (cmu 0)).
Proof.
  assert (H0 : gx_hyper 2 (h_em (e_hmm (gx 2)))) by (apply gmm_flat_hyper; repeat split).
  destruct (gx_fit 2 ltac:(lia) toy_mon (h_em (e_hmm (gx 2))) None None None 0 (or_introl eq_refl) eq_refl eq_refl eq_refl H0) as (v1 & m1 & Hf1).
  pose proof (gx_hyper_start 2 m1 (h_em (e_hmm (gx 2))) 0) as H1.
  destruct (gx_init 2 ltac:(lia) m1 (h_em (gx_start 2 (h_em (e_hmm (gx 2))) m1 0)) (Some 1%nat) (Some (fvec 1 u1)) (Some (fmat 1 1 all1)) 7 (or_intror eq_refl) eq_refl eq_refl eq_refl H1) as (vb & Hib).
  do 6 eexists. split; [|split; [exact Hf1|split; [exact Hib|reflexivity]]].
  intros g labels centers g' _ Hk i Hi. assert (i = 0)%nat as -> by lia. cbn in Hk. injection Hk as <- _ _. cbn. lia.
Qed.
