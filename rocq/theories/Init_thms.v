(** * Initialisation, refitting, alphabet and trials validation, aic and bic:
    C22, C29, C31, C42, C43. *)
From Verif Require Export Refit_proofs Init_fit Mult_thms Gauss_ex Inference_thms Training_thms.

(** ** C22: what [_init] overwrites. *)
Definition is_set {A} (o : option A) : Prop := o <> None.
Lemma in_overwrites name n l s : In (WOverwrite name) (overwrites n l s) <-> name = n /\ l = true /\ s = true.
Proof.
  unfold overwrites. destruct l, s; cbn; split; intros H; try tauto;
    try (destruct H as (_ & H1 & H2); discriminate).
  - destruct H as [H|[]]. injection H as <-. auto.
  - destruct H as (-> & _). left. reflexivity.
Qed.
Lemma isSome_set {A} (o : option A) : isSome o = true <-> is_set o.
Proof. unfold is_set. destruct o; cbn; split; intros H; try discriminate; try reflexivity. contradiction H; reflexivity. Qed.
Lemma in_degenerate name b : ~ In (WOverwrite name) (if b : bool then [WDegenerate] else []).
Proof. destruct b; [intros [H|[]]; discriminate|intros []]. Qed.

Lemma cat_em_inv {G} (rg : rng G) fp c nf p x rs glob p' rs' glob' ev :
  cat_init_em fp rg c nf p x rs glob = Ok (p', rs', glob', ev) ->
  cat_prior p' = cat_prior p
  /\ kept_or_fresh (has "e" (c_init_params c)) (cat_prob p) (cat_prob p') (fun m => exists u,
       entries (c_nc c) (match nf with Some n => n | None => 0%nat end) (uniform_draw rg) u /\ m = normalize_rows fp u)
  /\ ev = overwrites "emissionprob_" (has "e" (c_init_params c)) (isSome (cat_prob p)).
Proof.
  intros H. unfold cat_init_em in H. apply bind_inv in H as (rs1 & _ & H).
  destruct (needs_init _ _ _ _) as [ne w] eqn:En. apply needs_init_spec in En as [Hne ->].
  destruct ne.
  - apply bind_inv in H as (g & _ & H). apply bind_inv in H as ([m g1] & Hm & H).
    destruct (rs_put rs1 glob g1) as [rs2 glob2]. injection H as <- <- <- <-. split; [reflexivity|]. split; [|reflexivity].
    apply not_none_kept; rewrite <- Hne; [intros _|discriminate]. eexists. split; [reflexivity|].
    exists m. split; [apply (rand_mat_entries _ _ _ _ _ _ Hm)|reflexivity].
  - injection H as <- <- <- <-. split; [reflexivity|]. split; [|reflexivity].
    apply not_none_kept; rewrite <- Hne; [discriminate|reflexivity].
Qed.

(** CategoricalHMM: after initialisation. *)
Lemma C22_categorical_l {G} (rg : rng G) fp e glob x e' glob' ev :
  init cat_initc rg fp e glob x = Ok (e', glob', ev) ->
  let h := e_hmm e in let h' := e_hmm e' in let c := h_cfg h in let ip := c_init_params c in let nc := c_nc c in
  h_cfg h' = c /\ cat_prior (h_em h') = cat_prior (h_em h)
  /\ kept_or_fresh (has "s" ip) (h_start h) (h_start h') (dirichlet_draw rg fp nc)
  /\ kept_or_fresh (has "t" ip) (h_trans h) (h_trans h') (dirichlet_rows rg fp nc)
  /\ exists nf, h_nfeat h' = Some nf
     /\ kept_or_fresh (has "e" ip) (cat_prob (h_em h)) (cat_prob (h_em h')) (fun m =>
          exists u, entries nc nf (uniform_draw rg) u /\ m = normalize_rows fp u).
Proof.
  intros H. cbv zeta. destruct (init_inv _ _ _ _ _ _ _ _ _ H) as (e1 & g1 & ev1 & p & rs & ev2 & Hb & Hem & -> & ->).
  destruct (base_init_inv _ _ _ _ _ _ _ _ _ Hb) as (A1 & A2 & A3 & A4 & A5 & A6 & _).
  cbn [e_hmm h_cfg h_nfeat h_start h_trans h_em]. cbn [ic_nfeat cat_initc] in A4. cbn [ic_em cat_initc] in Hem.
  assert (Hf : exists nf, h_nfeat (e_hmm e1) = Some nf /\ h_em (e_hmm e1) = h_em (e_hmm e)).
  { unfold cat_nfeat in A4. destruct (Z.ltb _ 0); [discriminate|]. destruct (h_nfeat (e_hmm e)) as [n|].
    - destruct (Z.ltb _ _); [discriminate|]. injection A4 as <- <-. eexists; split; reflexivity.
    - injection A4 as <- <-. eexists; split; reflexivity. }
  destruct Hf as (nf & Hnf & Hpe). rewrite A1, Hnf, Hpe in Hem.
  destruct (cat_em_inv _ _ _ _ _ _ _ _ _ _ _ _ Hem) as (B1 & B2 & _).
  split; [exact A1|]. split; [exact B1|]. split; [exact A5|]. split; [exact A6|].
  exists nf. split; [exact Hnf|exact B2].
Qed.

(** ... and the warnings logged by the whole of [fit]. *)
Lemma C22_categorical_warnings_l {G} (rg : rng G) fp e glob x ls e' glob' ev name :
  fit categorical cat_initc rg fp e glob x ls = Ok (e', glob', ev) ->
  let h := e_hmm e in let ip := c_init_params (h_cfg h) in
  (In (WOverwrite name) ev <->
     (name = "startprob_"%string /\ has "s" ip = true /\ h_start h <> None)
     \/ (name = "transmat_"%string /\ has "t" ip = true /\ h_trans h <> None)
     \/ (name = "emissionprob_"%string /\ has "e" ip = true /\ cat_prob (h_em h) <> None)).
Proof.
  intros H. cbv zeta. destruct (fit_inv _ _ _ _ _ _ _ _ _ _ _ H) as (ea & va & va2 & _ & Hi & Hf & _ & ->).
  destruct (init_inv _ _ _ _ _ _ _ _ _ Hi) as (e1 & g1 & ev1 & p & rs & ev2 & Hb & Hem & -> & ->).
  destruct (base_init_inv _ _ _ _ _ _ _ _ _ Hb) as (A1 & A2 & A3 & A4 & A5 & A6 & _ & d & n & _ & _ & ->).
  cbn [ic_nfeat cat_initc] in A4. cbn [ic_em cat_initc] in Hem.
  assert (Hpe : h_em (e_hmm e1) = h_em (e_hmm e)).
  { unfold cat_nfeat in A4. destruct (Z.ltb _ 0); [discriminate|]. destruct (h_nfeat (e_hmm e)) as [n0|].
    - destruct (Z.ltb _ _) in A4; [discriminate|]. injection A4 as _ <-. reflexivity.
    - injection A4 as _ <-. reflexivity. }
  rewrite A1, Hpe in Hem. destruct (cat_em_inv _ _ _ _ _ _ _ _ _ _ _ _ Hem) as (_ & _ & ->).
  rewrite !in_app_iff, !in_overwrites, !isSome_set. unfold is_set.
  pose proof (fit_from_events _ _ _ _ _ _ _ Hf) as Hnv. rewrite Forall_forall in Hnv.
  split.
  - intros Hin. repeat match goal with H1 : _ \/ _ |- _ => destruct H1 as [H1|H1] end;
      first [exfalso; exact (in_degenerate _ _ Hin) | exfalso; exact (Hnv _ Hin) | tauto].
  - intros Hc. intuition.
Qed.

Lemma check_em {P X St} (E : emclass P X St) fp h h' : check E fp h = Ok h' ->
  ec_check E fp (h_cfg h) (h_nfeat h) (h_em h) = Ok (h_nfeat h', h_em h').
Proof.
  unfold check. destruct (h_start h) as [s|] eqn:Es; [|discriminate].
  destruct (h_trans h) as [t|] eqn:Et.
  - destruct (base_check _ _ _ _); [|discriminate]. cbn [bind].
    destruct (ec_check _ _ _ _ _) as [[nf em]|]; [|discriminate]. cbn [bind]. intros H. injection H as <-. reflexivity.
  - destruct (negb _); [discriminate|]. destruct (negb _); discriminate.
Qed.

Section Generic.
  Context {P X St G : Type} (E : emclass P X St) (I : initclass P X G) (rg : rng G) (fp : fpmode).
  Lemma init_spec e glob x e' glob' ev : init I rg fp e glob x = Ok (e', glob', ev) ->
    let h := e_hmm e in let h' := e_hmm e' in let c := h_cfg h in
    h_cfg h' = c
    /\ kept_or_fresh (has "s" (c_init_params c)) (h_start h) (h_start h') (dirichlet_draw rg fp (c_nc c))
    /\ kept_or_fresh (has "t" (c_init_params c)) (h_trans h) (h_trans h') (dirichlet_rows rg fp (c_nc c))
    /\ exists p rs glob1 ev2, ic_nfeat I c (h_nfeat h) (h_em h) x = Ok (h_nfeat h', p)
       /\ ic_em I fp rg c (h_nfeat h') p x rs glob1 = Ok (h_em h', e_rs e', glob', ev2).
  Proof.
    intros H. cbv zeta. destruct (init_inv _ _ _ _ _ _ _ _ _ H) as (e1 & g1 & ev1 & p & rs & ev2 & Hb & Hem & -> & ->).
    destruct (base_init_inv _ _ _ _ _ _ _ _ _ Hb) as (A1 & A2 & A3 & A4 & A5 & A6 & _). rewrite A1 in Hem.
    cbn [e_hmm h_cfg h_nfeat h_start h_trans h_em e_rs].
    split; [exact A1|]. split; [exact A5|]. split; [exact A6|].
    exists (h_em (e_hmm e1)), (e_rs e1), g1, ev2. split; [exact A4|exact Hem].
  Qed.
  Lemma fit_warnings e glob x ls e' glob' ev : fit E I rg fp e glob x ls = Ok (e', glob', ev) ->
    let h := e_hmm e in let c := h_cfg h in let ip := c_init_params c in
    exists nf p rs glob1 p' rs' glob2 ev2, ic_nfeat I c (h_nfeat h) (h_em h) x = Ok (nf, p)
      /\ ic_em I fp rg c nf p x rs glob1 = Ok (p', rs', glob2, ev2)
      /\ forall name, (In (WOverwrite name) ev <->
         (name = "startprob_"%string /\ has "s" ip = true /\ h_start h <> None)
         \/ (name = "transmat_"%string /\ has "t" ip = true /\ h_trans h <> None)
         \/ In (WOverwrite name) ev2).
  Proof.
    intros H. cbv zeta. destruct (fit_inv _ _ _ _ _ _ _ _ _ _ _ H) as (ea & va & va2 & _ & Hi & Hf & _ & ->).
    destruct (init_inv _ _ _ _ _ _ _ _ _ Hi) as (e1 & g1 & ev1 & p & rs & ev2 & Hb & Hem & -> & ->).
    destruct (base_init_inv _ _ _ _ _ _ _ _ _ Hb) as (A1 & A2 & A3 & A4 & A5 & A6 & _ & d & n & _ & _ & ->).
    rewrite A1 in Hem. do 8 eexists. split; [exact A4|]. split; [exact Hem|]. intros name.
    rewrite !in_app_iff, !in_overwrites, !isSome_set. unfold is_set.
    pose proof (fit_from_events _ _ _ _ _ _ _ Hf) as Hnv. rewrite Forall_forall in Hnv.
    split.
    - intros Hin. repeat match goal with H1 : _ \/ _ |- _ => destruct H1 as [H1|H1] end;
        first [exfalso; exact (in_degenerate _ _ Hin) | exfalso; exact (Hnv _ Hin) | tauto].
    - intros Hc. tauto.
  Qed.
End Generic.

(** PoissonHMM. *)
Lemma pois_em_inv {G} (rg : rng G) fp c nf p x rs glob p' rs' glob' ev :
  pois_init_em fp rg c nf p x rs glob = Ok (p', rs', glob', ev) ->
  po_alpha p' = po_alpha p /\ po_beta p' = po_beta p
  /\ kept_or_fresh (has "l" (c_init_params c)) (po_lam p) (po_lam p') (fun m =>
       let v := concat (map zrow x) in
       entries (c_nc c) (match nf with Some n => n | None => 0%nat end) (fun a => exists g g',
         r_gamma rg (xdiv fp (xsq fp (arr_mean fp v)) (arr_var fp v)) (xdiv fp (arr_var fp v) (arr_mean fp v)) g = Ok (a, g')) m)
  /\ ev = overwrites "lambdas_" (has "l" (c_init_params c)) (isSome (po_lam p)).
Proof.
  intros H. unfold pois_init_em in H. apply bind_inv in H as (rs1 & _ & H).
  destruct (needs_init _ _ _ _) as [ne w] eqn:En. apply needs_init_spec in En as [Hne ->].
  destruct ne.
  - apply bind_inv in H as (g & _ & H). apply bind_inv in H as ([m g1] & Hm & H).
    destruct (rs_put rs1 glob g1) as [rs2 glob2]. injection H as <- <- <- <-. split; [reflexivity|]. split; [reflexivity|]. split; [|reflexivity].
    apply not_none_kept; rewrite <- Hne; [intros _|discriminate]. exists m. split; [reflexivity|].
    apply (gamma_mat_entries _ _ _ _ _ _ _ _ Hm).
  - injection H as <- <- <- <-. split; [reflexivity|]. split; [reflexivity|]. split; [|reflexivity].
    apply not_none_kept; rewrite <- Hne; [discriminate|reflexivity].
Qed.
Lemma pois_nfeat_inv c nf p x nf' p' : pois_nfeat c nf p x = Ok (nf', p') -> nf' = Some (width x) /\ p' = p.
Proof.
  unfold pois_nfeat. intros H. apply bind_inv in H as (a & Ha & H). injection H as <- <-.
  apply set_n_features_ok in Ha. split; [exact Ha|reflexivity].
Qed.

Lemma C22_poisson_l {G} (rg : rng G) fp e glob x e' glob' ev :
  init pois_initc rg fp e glob x = Ok (e', glob', ev) ->
  let h := e_hmm e in let h' := e_hmm e' in let c := h_cfg h in let ip := c_init_params c in let nc := c_nc c in
  h_cfg h' = c /\ po_alpha (h_em h') = po_alpha (h_em h) /\ po_beta (h_em h') = po_beta (h_em h)
  /\ kept_or_fresh (has "s" ip) (h_start h) (h_start h') (dirichlet_draw rg fp nc)
  /\ kept_or_fresh (has "t" ip) (h_trans h) (h_trans h') (dirichlet_rows rg fp nc)
  /\ kept_or_fresh (has "l" ip) (po_lam (h_em h)) (po_lam (h_em h')) (fun m =>
       let v := concat (map zrow x) in
       entries nc (width x) (fun a => exists g g',
         r_gamma rg (xdiv fp (xsq fp (arr_mean fp v)) (arr_var fp v)) (xdiv fp (arr_var fp v) (arr_mean fp v)) g = Ok (a, g')) m).
Proof.
  intros H. cbv zeta. destruct (init_spec _ _ _ _ _ _ _ _ _ H) as (A1 & A2 & A3 & p & rs & g1 & ev2 & Hn & Hem).
  cbn [ic_nfeat ic_em pois_initc] in Hn, Hem. destruct (pois_nfeat_inv _ _ _ _ _ _ Hn) as [Hn' ->]. rewrite Hn' in Hem.
  destruct (pois_em_inv _ _ _ _ _ _ _ _ _ _ _ _ Hem) as (B1 & B2 & B3 & _). repeat (split; [assumption|]). exact B3.
Qed.

Lemma C22_poisson_warnings_l {G} (rg : rng G) fp e glob x ls e' glob' ev name :
  fit poisson pois_initc rg fp e glob x ls = Ok (e', glob', ev) ->
  let h := e_hmm e in let ip := c_init_params (h_cfg h) in
  (In (WOverwrite name) ev <->
     (name = "startprob_"%string /\ has "s" ip = true /\ h_start h <> None)
     \/ (name = "transmat_"%string /\ has "t" ip = true /\ h_trans h <> None)
     \/ (name = "lambdas_"%string /\ has "l" ip = true /\ po_lam (h_em h) <> None)).
Proof.
  intros H. cbv zeta. destruct (fit_warnings _ _ _ _ _ _ _ _ _ _ _ H) as (nf & p & rs & g1 & p' & rs' & g2 & ev2 & Hn & Hem & Hw).
  cbn [ic_nfeat ic_em pois_initc] in Hn, Hem. destruct (pois_nfeat_inv _ _ _ _ _ _ Hn) as [_ ->].
  destruct (pois_em_inv _ _ _ _ _ _ _ _ _ _ _ _ Hem) as (_ & _ & _ & ->).
  rewrite Hw, in_overwrites, isSome_set. reflexivity.
Qed.

(** GaussianHMM. *)
Lemma gauss_em_inv {G} (rg : rng G) fp c n p x rs glob p' rs' glob' ev :
  gauss_init_em fp rg c (Some n) p x rs glob = Ok (p', rs', glob', ev) ->
  ga_args p' = ga_args p
  /\ kept_or_fresh (has "m" (c_init_params c)) (ga_means p) (ga_means p') (fun m =>
       exists g g', r_kmeans rg (c_nc c) x g = Ok (m, g'))
  /\ kept_or_fresh (has "c" (c_init_params c)) (ga_covars p) (ga_covars p') (fun cv =>
       distribute fp (cov_template fp (ga_min_covar p) x) (ga_type p) (c_nc c) = Ok cv)
  /\ ev = overwrites "means_" (has "m" (c_init_params c)) (isSome (ga_means p))
          ++ overwrites "covars_" (has "c" (c_init_params c)) (isSome (ga_covars p)).
Proof.
  intros H. unfold gauss_init_em in H.
  destruct (needs_init _ "m" _ _) as [nm w1] eqn:Em. apply needs_init_spec in Em as [Hm ->].
  apply bind_inv in H as ([[means rs1] g1] & Hmeans & H). apply bind_inv in H as (b & Hb & H).
  assert (b = isSome (ga_covars p)) as ->.
  { destruct (ga_covars p) as [cv|]; [|injection Hb as <-; reflexivity].
    apply bind_inv in Hb as (u & _ & Hb). injection Hb as <-. reflexivity. }
  assert (HM : kept_or_fresh (has "m" (c_init_params c)) (ga_means p) means (fun m =>
       exists g g', r_kmeans rg (c_nc c) x g = Ok (m, g'))).
  { apply not_none_kept; rewrite <- Hm; intros ->.
    - apply bind_inv in Hmeans as (g & _ & Hk). apply bind_inv in Hk as ([m g2] & Hk & Hr).
      destruct (rs_put rs glob g2). injection Hr as <- <- <-. exists m. split; [reflexivity|]. exists g, g2. exact Hk.
    - injection Hmeans as <- <- <-. reflexivity. }
  destruct (needs_init _ "c" _ _) as [ncv w2] eqn:Ec. apply needs_init_spec in Ec as [Hc ->].
  destruct ncv.
  - apply bind_inv in H as (cv & Hcv & H). apply bind_inv in H as (u & _ & H). injection H as <- <- <- <-.
    split; [reflexivity|]. split; [exact HM|]. split; [|reflexivity].
    apply not_none_kept; rewrite <- Hc; [intros _|discriminate]. exists cv. split; [reflexivity|exact Hcv].
  - injection H as <- <- <- <-. split; [reflexivity|]. split; [exact HM|]. split; [|reflexivity].
    apply not_none_kept; rewrite <- Hc; [discriminate|reflexivity].
Qed.
Lemma gauss_nfeat_inv c nf p x nf' p' : gauss_nfeat c nf p x = Ok (nf', p') -> nf' = Some (width x) /\ p' = p.
Proof.
  unfold gauss_nfeat. intros H. apply bind_inv in H as (a & Ha & H). injection H as <- <-.
  apply set_n_features_ok in Ha. split; [exact Ha|reflexivity].
Qed.

Lemma C22_gaussian_l {G} (rg : rng G) fp e glob x e' glob' ev :
  init gauss_initc rg fp e glob x = Ok (e', glob', ev) ->
  let h := e_hmm e in let h' := e_hmm e' in let c := h_cfg h in let ip := c_init_params c in let nc := c_nc c in
  h_cfg h' = c /\ ga_type (h_em h') = ga_type (h_em h)
  /\ kept_or_fresh (has "s" ip) (h_start h) (h_start h') (dirichlet_draw rg fp nc)
  /\ kept_or_fresh (has "t" ip) (h_trans h) (h_trans h') (dirichlet_rows rg fp nc)
  /\ kept_or_fresh (has "m" ip) (ga_means (h_em h)) (ga_means (h_em h')) (fun m =>
       exists g g', r_kmeans rg nc x g = Ok (m, g'))
  /\ kept_or_fresh (has "c" ip) (ga_covars (h_em h)) (ga_covars (h_em h')) (fun cv =>
       distribute fp (cov_template fp (ga_min_covar (h_em h)) x) (ga_type (h_em h)) nc = Ok cv).
Proof.
  intros H. cbv zeta. destruct (init_spec _ _ _ _ _ _ _ _ _ H) as (A1 & A2 & A3 & p & rs & g1 & ev2 & Hn & Hem).
  cbn [ic_nfeat ic_em gauss_initc] in Hn, Hem. destruct (gauss_nfeat_inv _ _ _ _ _ _ Hn) as [Hn' ->]. rewrite Hn' in Hem.
  destruct (gauss_em_inv _ _ _ _ _ _ _ _ _ _ _ _ Hem) as (B1 & B2 & B3 & _). split; [exact A1|].
  split; [unfold ga_args in B1; congruence|]. repeat (split; [assumption|]). exact B3.
Qed.

Lemma C22_gaussian_warnings_l {G} (rg : rng G) fp e glob x ls e' glob' ev name :
  fit gaussian gauss_initc rg fp e glob x ls = Ok (e', glob', ev) ->
  let h := e_hmm e in let ip := c_init_params (h_cfg h) in
  (In (WOverwrite name) ev <->
     (name = "startprob_"%string /\ has "s" ip = true /\ h_start h <> None)
     \/ (name = "transmat_"%string /\ has "t" ip = true /\ h_trans h <> None)
     \/ (name = "means_"%string /\ has "m" ip = true /\ ga_means (h_em h) <> None)
     \/ (name = "covars_"%string /\ has "c" ip = true /\ ga_covars (h_em h) <> None)).
Proof.
  intros H. cbv zeta. destruct (fit_warnings _ _ _ _ _ _ _ _ _ _ _ H) as (nf & p & rs & g1 & p' & rs' & g2 & ev2 & Hn & Hem & Hw).
  cbn [ic_nfeat ic_em gauss_initc] in Hn, Hem. destruct (gauss_nfeat_inv _ _ _ _ _ _ Hn) as [-> ->].
  destruct (gauss_em_inv _ _ _ _ _ _ _ _ _ _ _ _ Hem) as (_ & _ & _ & ->).
  rewrite Hw, in_app_iff, !in_overwrites, !isSome_set. reflexivity.
Qed.

(** MultinomialHMM does not ask whether emissionprob_ is set: it is drawn iff its
    letter is listed, and no warning is logged. *)
Lemma mult_nfeat_inv c nf p x nf' p' : mult_nfeat c nf p x = Ok (nf', p') -> nf' = Some (width x) /\ mu_prob p' = mu_prob p.
Proof.
  unfold mult_nfeat. intros H. apply bind_inv in H as (a & Ha & H). apply set_n_features_ok in Ha. subst a.
  destruct (existsb _ x); [discriminate|]. destruct (mu_trials p).
  - apply bind_inv in H as ([] & _ & H); [|discriminate]. injection H as <- <-. split; reflexivity.
  - injection H as <- <-. split; reflexivity.
Qed.
Lemma C22_multinomial_partial_l {G} (rg : rng G) fp e glob x e' glob' ev :
  init mult_initc rg fp e glob x = Ok (e', glob', ev) ->
  let h := e_hmm e in let h' := e_hmm e' in let c := h_cfg h in let ip := c_init_params c in let nc := c_nc c in
  h_cfg h' = c
  /\ kept_or_fresh (has "s" ip) (h_start h) (h_start h') (dirichlet_draw rg fp nc)
  /\ kept_or_fresh (has "t" ip) (h_trans h) (h_trans h') (dirichlet_rows rg fp nc)
  /\ (has "e" ip = true -> exists m u, mu_prob (h_em h') = Some m /\ entries nc (width x) (uniform_draw rg) u /\ m = normalize_rows fp u)
  /\ (has "e" ip = false -> mu_prob (h_em h') = mu_prob (h_em h)).
Proof.
  intros H. cbv zeta. destruct (init_spec _ _ _ _ _ _ _ _ _ H) as (A1 & A2 & A3 & p & rs & g1 & ev2 & Hn & Hem).
  cbn [ic_nfeat ic_em mult_initc] in Hn, Hem. destruct (mult_nfeat_inv _ _ _ _ _ _ Hn) as [Hn' Hp]. rewrite Hn' in Hem.
  split; [exact A1|]. split; [exact A2|]. split; [exact A3|].
  unfold mult_init_em in Hem. apply bind_inv in Hem as (rs1 & _ & Hem).
  destruct (has "e" (c_init_params (h_cfg (e_hmm e)))).
  - split; [intros _|discriminate]. apply bind_inv in Hem as (g & _ & Hem). apply bind_inv in Hem as ([m g2] & Hm & Hem).
    destruct (rs_put rs1 g1 g2). injection Hem as Hq _ _ _. rewrite <- Hq. exists (normalize_rows fp m), m.
    split; [reflexivity|]. split; [apply (rand_mat_entries _ _ _ _ _ _ Hm)|reflexivity].
  - split; [discriminate|intros _]. injection Hem as Hq _ _ _. rewrite <- Hq, Hp. reflexivity.
Qed.
Lemma C22_multinomial_warnings_partial_l {G} (rg : rng G) fp e glob x ls e' glob' ev name :
  fit multinomial mult_initc rg fp e glob x ls = Ok (e', glob', ev) ->
  let h := e_hmm e in let ip := c_init_params (h_cfg h) in
  (In (WOverwrite name) ev <->
     (name = "startprob_"%string /\ has "s" ip = true /\ h_start h <> None)
     \/ (name = "transmat_"%string /\ has "t" ip = true /\ h_trans h <> None)).
Proof.
  intros H. cbv zeta. destruct (fit_warnings _ _ _ _ _ _ _ _ _ _ _ H) as (nf & p & rs & g1 & p' & rs' & g2 & ev2 & Hn & Hem & Hw).
  cbn [ic_em mult_initc] in Hem. unfold mult_init_em in Hem. apply bind_inv in Hem as (rs1 & _ & Hem).
  assert (ev2 = []) as ->.
  { destruct (has "e" _).
    - apply bind_inv in Hem as (g & _ & Hem). apply bind_inv in Hem as ([m g3] & Hm & Hem).
      destruct (rs_put rs1 g1 g3). injection Hem as _ _ _ <-. reflexivity.
    - injection Hem as _ _ _ <-. reflexivity. }
  rewrite Hw. cbn [In]. tauto.
Qed.
