(** * Property lemmas C60-C63: using, initialising and comparing variational models. *)
From Verif Require Export Vcat_thms Init_fit.

(** ** C63: the Kullback-Leibler divergence of Dirichlet distributions. *)
Lemma C63_kl_dirichlet_l n q p : (0 < n)%nat -> pos1 n q -> pos1 n p ->
  exists d, kl_dirichlet exact (fvec n q) (fvec n p) = Fin d
    /\ 0 <= d
    /\ ((forall i, (i < n)%nat -> q i = p i) -> d = 0)
    /\ ((2 <= n)%nat -> d = 0 -> forall i, (i < n)%nat -> q i = p i).
Proof.
  intros Hn Hq Hp. exists (dkl n q p). split; [apply kl_dirichlet_fvec; assumption|].
  split; [apply dkl_nonneg; assumption|]. split.
  - intros H. rewrite (dkl_ext n q p p p H) by reflexivity. apply dkl_self.
  - intros H2 H0. apply dkl_zero; assumption.
Qed.

(** ** C60: a trained model is used through its point estimate. *)
Definition point_estimate (v : vhmm vcatp) : hmm catp :=
  let h := v_h v in
  Hmm (h_cfg h) (h_nfeat h) (h_start h) (h_trans h) (h_mon h) (Catp (Scal (Fin 1)) (vk_prob (h_em h))).

Lemma acc_seqs_ext {X A} fp (f g : list X -> res (xnum * list A)) xs : (forall c, f c = g c) ->
  forall a, acc_seqs fp f a xs = acc_seqs fp g a xs.
Proof.
  intros H. induction xs as [|c xs IH]; intros a; [reflexivity|]. cbn [acc_seqs]. rewrite H.
  destruct (g c) as [[l r]|]; [|reflexivity]. cbn [bind]. rewrite IH. reflexivity.
Qed.

Section Point.
  Variables (v : vhmm vcatp) (nc nf : nat) (p q : dirs) (s : nat -> R) (t e : nat -> nat -> R).
  Hypothesis HM : vcat_model v nc nf p q.
  Hypothesis Hn : h_nfeat (v_h v) = Some nf.
  Hypothesis Hs : h_start (v_h v) = Some (fvec nc s).
  Hypothesis Ht : h_trans (v_h v) = Some (fmat nc nc t).
  Hypothesis He : vk_prob (h_em (v_h v)) = Some (fmat nc nf e).
  Hypothesis Ss : stochastic1 nc s.
  Hypothesis St : stochastic2 nc nc t.
  Hypothesis Se : stochastic2 nc nf e.

  Lemma point_model : cat_model (point_estimate v) nc nf s t e.
  Proof.
    destruct HM as [M1 M2 M3 M4 M5 M6 M7 M8]. unfold point_estimate.
    constructor; cbn [h_cfg h_nfeat h_start h_trans h_em cat_prob]; try assumption.
    - apply M3.
    - apply Ss.
    - rewrite (proj2 Ss). apply near1_1.
    - intros i j Hi Hj. apply (St i Hi); exact Hj.
    - intros i Hi. rewrite (proj2 (St i Hi)). apply near1_1.
    - intros i j Hi Hj. apply (Se i Hi); exact Hj.
    - intros i Hi. rewrite (proj2 (Se i Hi)). apply near1_1.
  Qed.
  Lemma point_vcheck : vcheck vcategorical exact v = Ok v.
  Proof.
    destruct (vcat_check_at nc nf v p q HM) as (v1 & -> & _ & ->). f_equal. rewrite <- Hn.
    destruct v as [[? ? ? ? ? ?] ? ? ? ? ? ?]. reflexivity.
  Qed.
  Lemma point_check : fitted_check categorical exact (point_estimate v) = Ok (point_estimate v, fvec nc s, fmat nc nc t).
  Proof.
    pose proof point_model as PM. pose proof (cat_ready _ _ _ _ _ _ PM) as Rd.
    destruct (rd_check _ _ _ _ _ _ _ Rd) as (h' & Hc & _).
    unfold fitted_check. rewrite Hc. cbn [bind].
    assert (E : h' = point_estimate v); [|subst h'; unfold point_estimate; cbn [h_start h_trans]; rewrite Hs, Ht; reflexivity].
    unfold check in Hc. cbn [point_estimate h_start h_trans h_cfg] in Hc. rewrite Hs, Ht in Hc.
    destruct (base_check exact _ _ _); [|discriminate]. cbn [bind] in Hc.
    destruct (ec_check categorical exact _ _ _) as [[nf' em']|] eqn:Ec; [|discriminate]. cbn [bind] in Hc.
    injection Hc as <-. cbn [ec_check categorical] in Ec. unfold cat_check in Ec.
    cbn [point_estimate h_em cat_prob h_nfeat] in Ec. rewrite He, Hn in Ec.
    destruct (negb _); [discriminate|]. destruct (negb _); [discriminate|]. injection Ec as <- <-.
    unfold point_estimate. rewrite Hs, Ht, Hn, He. reflexivity.
  Qed.

  Lemma point_score x lengths post :
    vscore_ vcategorical exact v x lengths post = score_ categorical exact (point_estimate v) x lengths post.
  Proof.
    unfold vscore_, score_, vfitted. rewrite Hs, point_vcheck, point_check. cbn [bind].
    change (ec_xok (vc_em vcategorical)) with (ec_xok categorical).
    destruct (check_array (ec_xok categorical) x) as [x'|]; [|reflexivity]. cbn [bind].
    change (h_cfg (point_estimate v)) with (h_cfg (v_h v)).
    unfold vseq. rewrite Ht.
    assert (E1 : forall c, score_scaling_seq (vc_em vcategorical) exact (v_h v) (fvec nc s) (fmat nc nc t) post c
                = score_scaling_seq categorical exact (point_estimate v) (fvec nc s) (fmat nc nc t) post c) by reflexivity.
    assert (E2 : forall c, score_log_seq (vc_em vcategorical) exact (v_h v) (fvec nc s) (fmat nc nc t) post c
                = score_log_seq categorical exact (point_estimate v) (fvec nc s) (fmat nc nc t) post c) by reflexivity.
    destruct (String.eqb _ "scaling"); [|destruct (String.eqb _ "log"); [|reflexivity]]; cbn [bind];
      destruct (split_X_lengths x' lengths) as [xs|]; [|reflexivity| |reflexivity]; cbn [bind].
    - rewrite (acc_seqs_ext exact _ _ xs E1). reflexivity.
    - rewrite (acc_seqs_ext exact _ _ xs E2). reflexivity.
  Qed.

  Lemma point_decode x lengths alg :
    vdecode vcategorical exact v x lengths alg = decode categorical exact (point_estimate v) x lengths alg.
  Proof.
    unfold vdecode, decode, vfitted. rewrite Hs, point_vcheck, point_check. cbn [bind].
    change (ec_xok (vc_em vcategorical)) with (ec_xok categorical).
    change (h_cfg (point_estimate v)) with (h_cfg (v_h v)).
    set (a := match alg with Some a => if String.eqb a "" then c_algorithm (h_cfg (v_h v)) else a | None => c_algorithm (h_cfg (v_h v)) end).
    unfold vseq. rewrite Ht.
    assert (E1 : forall c, decode_viterbi (vc_em vcategorical) exact (v_h v) (fvec nc s) (fmat nc nc t) c
                = decode_viterbi categorical exact (point_estimate v) (fvec nc s) (fmat nc nc t) c) by reflexivity.
    assert (E2 : forall c, (do (_, post) <- vscore_samples vcategorical exact v c None;
                               Ok (xsum exact (map np_max (rows post)), map np_argmax (rows post)))
                = decode_map categorical exact (point_estimate v) c).
    { intros c. unfold decode_map, vscore_samples, score_samples. rewrite point_score. reflexivity. }
    destruct (String.eqb a "viterbi"); [|destruct (String.eqb a "map"); [|reflexivity]]; cbn [bind];
      (destruct (check_array (ec_xok categorical) x) as [x'|]; [|reflexivity]); cbn [bind];
      (destruct (split_X_lengths x' lengths) as [xs|]; [|reflexivity]); cbn [bind].
    - apply acc_seqs_ext, E1.
    - apply acc_seqs_ext, E2.
  Qed.
End Point.

Lemma C60_point_estimate_l v nc nf p q s t e :
  vcat_model v nc nf p q -> h_nfeat (v_h v) = Some nf ->
  h_start (v_h v) = Some (fvec nc s) -> h_trans (v_h v) = Some (fmat nc nc t) -> vk_prob (h_em (v_h v)) = Some (fmat nc nf e) ->
  stochastic1 nc s -> stochastic2 nc nc t -> stochastic2 nc nf e ->
  cat_model (point_estimate v) nc nf s t e
  /\ (forall x lengths post, vscore_ vcategorical exact v x lengths post = score_ categorical exact (point_estimate v) x lengths post)
  /\ (forall x lengths alg, vdecode vcategorical exact v x lengths alg = decode categorical exact (point_estimate v) x lengths alg).
Proof.
  intros HM Hn Hs Ht He Ss St Se. split; [|split].
  - eapply point_model; eassumption.
  - intros. eapply point_score; eassumption.
  - intros. eapply point_decode; eassumption.
Qed.

Lemma C60_after_fit_l v nc nf p q ls x v' ev :
  vcat_model v nc nf p q -> good_data (sym_ok nf) ls x ->
  has "s" (c_params (v_cfg v)) = true -> has "t" (c_params (v_cfg v)) = true -> has "e" (c_params (v_cfg v)) = true ->
  (0 < c_n_iter (v_cfg v))%nat ->
  vfit_from vcategorical exact v x (map Z.of_nat ls) = Ok (v', ev) ->
  exists s t e, stochastic1 nc s /\ stochastic2 nc nc t /\ stochastic2 nc nf e
    /\ cat_model (point_estimate v') nc nf s t e
    /\ (forall y lengths post, vscore_ vcategorical exact v' y lengths post = score_ categorical exact (point_estimate v') y lengths post)
    /\ (forall y lengths alg, vdecode vcategorical exact v' y lengths alg = decode categorical exact (point_estimate v') y lengths alg).
Proof.
  intros HM Hd Ps Pt Pe Hit Hf.
  assert (HK : length (v_history v') <> 0%nat).
  { destruct (vfit_from_trace _ _ _ _ _ _ _ Hf) as (v1 & v2 & vs & Hc & _ & _ & _ & Hh & _ & Hstop).
    destruct (vcat_check_at nc nf v p q HM) as (v1' & Hc' & _ & E1). rewrite Hc in Hc'. injection Hc' as <-.
    rewrite Hh. destruct Hstop as [H|H].
    - rewrite H, E1. unfold v_cfg in *. cbn. lia.
    - destruct H as [_ H]. destruct vs; [contradiction|discriminate]. }
  destruct (C46_fit_l v nc nf p q ls x v' ev HM Hd Hf) as (qs & _ & _ & Hpos & _ & HM' & Hn' & Hs' & Ht' & He').
  destruct (length (v_history v')) as [|K]; [contradiction|]. unfold keeps_or in *. rewrite Ps in Hs'. rewrite Pt in Ht'. rewrite Pe in He'.
  destruct (Hpos (S K)) as (P1 & P2 & P3). pose proof HM as [M1 M2 _ _ _ _ _ _].
  do 3 eexists. split; [|split; [|split; [|eapply C60_point_estimate_l; try eassumption]]].
  all: try (apply mean_stochastic; assumption).
  all: intros i Hi; apply mean_stochastic; try assumption; intros j Hj; auto.
Qed.

(** ** C61: training with some of the parameters only. *)
(** Without "t" in [params] and without [transmat_], [fit] fails in its second
    iteration. *)
Lemma C61_no_transmat_l v nc nf p q ls x :
  vcat_model v nc nf p q -> good_data (sym_ok nf) ls x -> c_impl (v_cfg v) = "log"%string ->
  has "t" (c_params (v_cfg v)) = false -> h_trans (v_h v) = None ->
  (2 <= c_n_iter (v_cfg v))%nat -> m_n_iter (h_mon (v_h v)) = c_n_iter (v_cfg v) ->
  vfit_from vcategorical exact v x (map Z.of_nat ls) = Err (AttributeError "transmat_").
Proof.
  intros HM Hd Hi Ht Hn Hit Hm. pose proof HM as [M1 M2 _ _ _ _ _ _].
  destruct (vcat_check_at nc nf v p q HM) as (v1 & Hc & HA & E1). unfold vfit_from. rewrite Hc. cbn [bind].
  assert (Ec : v_cfg v1 = v_cfg v) by (rewrite E1; reflexivity). rewrite Ec.
  destruct (c_n_iter (v_cfg v)) as [|[|n]] eqn:En; try lia. cbn [vfit_loop].
  change (Some (map Z.of_nat ls)) with (as_lengths ls).
  rewrite (vcat_step_log nc nf M1 M2 ls x Hd v1 p q HA) by (rewrite Ec; exact Hi). cbn [bind].
  set (v2 := vcat_next nc nf ls x v1 p q).
  assert (H2 : h_trans (v_h v2) = None).
  { unfold v2, vcat_next, vnext. cbn [v_h h_trans]. rewrite Ec, Ht, E1. exact Hn. }
  assert (Hmon : h_mon (v_h v1) = h_mon (v_h v)) by (rewrite E1; reflexivity). rewrite Hmon.
  destruct (monitor_report exact (monitor_reset (h_mon (v_h v))) _) as [m1 ev1] eqn:Em.
  assert (Hcv : converged exact m1 = false).
  { unfold monitor_report, monitor_reset in Em. cbn [m_history m_iter m_tol m_n_iter m_verbose app] in Em.
    injection Em as <- _. unfold converged. cbn [m_iter m_n_iter m_history length Nat.leb andb]. rewrite Hm. reflexivity. }
  rewrite Hcv. unfold vzero_rows at 1. rewrite H2. reflexivity.
Qed.

(** Without "s" in [params], a fresh model stays "not fitted"; without "e",
    there are no emission probabilities. *)
Lemma C61_no_startprob_l v nc nf p q ls x v' ev y lengths post :
  vcat_model v nc nf p q -> good_data (sym_ok nf) ls x ->
  has "s" (c_params (v_cfg v)) = false -> h_start (v_h v) = None ->
  vfit_from vcategorical exact v x (map Z.of_nat ls) = Ok (v', ev) ->
  vscore_ vcategorical exact v' y lengths post = Err NotFittedError
  /\ vdecode vcategorical exact v' y lengths None = Err NotFittedError.
Proof.
  intros HM Hd Hs Hn Hf.
  destruct (C46_fit_l v nc nf p q ls x v' ev HM Hd Hf) as (qs & _ & _ & _ & _ & _ & _ & Hs' & _).
  assert (E : h_start (v_h v') = None) by (rewrite Hs', Hs, Hn; unfold keeps_or; destruct (length _); reflexivity).
  unfold vscore_, vdecode, vfitted. rewrite E. split; reflexivity.
Qed.

Lemma C61_no_emissionprob_l v nc nf p q ls x v' ev y m post :
  vcat_model v nc nf p q -> good_data (sym_ok nf) ls x ->
  has "e" (c_params (v_cfg v)) = false -> vk_prob (h_em (v_h v)) = None -> h_start (v_h v') <> None ->
  c_impl (v_cfg v) = "log"%string -> good_data (fun _ => True) m y ->
  vfit_from vcategorical exact v x (map Z.of_nat ls) = Ok (v', ev) ->
  vscore_ vcategorical exact v' y (as_lengths m) post = Err (AttributeError "emissionprob_").
Proof.
  intros HM Hd He Hn Hst Himp Hy Hf.
  destruct (C46_fit_l v nc nf p q ls x v' ev HM Hd Hf) as (qs & _ & _ & _ & _ & HM' & Hn' & _ & _ & He').
  assert (E : vk_prob (h_em (v_h v')) = None) by (rewrite He', He, Hn; unfold keeps_or; destruct (length _); reflexivity).
  assert (Ec : v_cfg v' = v_cfg v).
  { destruct (vfit_from_trace _ _ _ _ _ _ _ Hf) as (v1 & v2 & vs & Hc & Hi & _ & -> & _).
    destruct (vcat_check_at nc nf v p q HM) as (v1' & Hc' & HA & E1). rewrite Hc in Hc'. injection Hc' as <-.
    pose proof HM as [M1 M2 _ _ _ _ _ _].
    destruct (vcat_iterate nc nf M1 M2 ls x Hd (length vs) v1 p q v2 vs HA Hi) as (_ & I2 & _).
    unfold v_cfg in *. cbn [with_h v_h h_cfg]. rewrite I2, E1. reflexivity. }
  destruct (vcat_check_at nc nf v' p (qs (length (v_history v'))) HM') as (v1 & Hc & _ & E1).
  unfold vscore_, vfitted. destruct (h_start (v_h v')) as [s|]; [|contradiction]. rewrite Hc. cbn [bind].
  destruct (good_data_chunks _ m y Hy) as (Hne & Hsp & Hch).
  assert (Hca : check_array (ec_xok (vc_em vcategorical)) y = Ok y).
  { apply (check_array_ready (vc_em vcategorical) (fun _ => True) y Hne); [apply Hy|]. reflexivity. }
  rewrite Hca. cbn [bind]. rewrite E1. cbn [with_h v_h h_cfg].
  unfold v_cfg in *. rewrite Ec, Himp. cbn [String.eqb Ascii.eqb Bool.eqb bind]. cbn [bind].
  rewrite Hsp. cbn [bind].
  destruct m as [|n m]; [destruct Hy as [_ [Hy _]]; contradiction|]. cbn [chunks acc_seqs].
  unfold vseq, score_log_seq, loglik. cbn [h_trans h_cfg h_nfeat h_em].
  assert (EL : forall c nfe z, ec_loglik (vc_em vcategorical) exact c nfe (h_em (v_h v')) z = Err (AttributeError "emissionprob_")).
  { intros c nfe z. cbn [vc_em vcategorical ec_loglik]. unfold vcat_lik, cat_lik. cbn [cat_prob]. rewrite E. reflexivity. }
  rewrite EL. destruct (h_trans (v_h v')); reflexivity.
Qed.

(** ** C62: initialisation. *)
(** A Dirichlet sampler whose draws are positive and sum to 1. *)
Definition pos_dirichlet {G} (rg : rng G) : Prop := forall n a g, (0 < n)%nat -> pos1 n a ->
  exists f g', r_dirichlet rg (fvec n a) g = Ok (fvec n f, g') /\ pos1 n f /\ sumn n f = 1.
(** A scalar prior (or none, with default [d]) of value [a]. *)
Definition scalar_prior (o : option parr) (d a : R) : Prop :=
  0 < a /\ ((o = None /\ a = d) \/ o = Some (Scal (Fin a))).
(** An estimator on which nothing has been set. *)
Definition vfresh (v : vhmm vcatp) : Prop :=
  v_sprior v = None /\ v_spost v = None /\ v_tprior v = None /\ v_tpost v = None
  /\ vk_prior (h_em (v_h v)) = None /\ vk_post (h_em (v_h v)) = None.

Lemma zsum_nat ls : zsum_l (map Z.of_nat ls) = Z.of_nat (fold_right Nat.add 0%nat ls).
Proof. unfold zsum_l. rewrite fold_left_Zadd. reflexivity. Qed.

Lemma draws_fmat {G} (f : G -> res (vec * G)) c (D : (nat -> R) -> Prop) :
  (forall g, exists u g', f g = Ok (fvec c u, g') /\ D u) ->
  forall n g, exists (F : nat -> nat -> R) g', draws f n g = Ok (tab n (fun i => fvec c (F i)), g') /\ forall i, (i < n)%nat -> D (F i).
Proof.
  intros Hf. induction n as [|n IH]; intros g; cbn [draws].
  - exists (fun _ _ => 0), g. split; [reflexivity|]. intros i Hi; lia.
  - destruct (Hf g) as (u & g1 & -> & Hu). cbn [bind]. destruct (IH g1) as (F & g2 & -> & HF). cbn [bind].
    exists (fun i => match i with O => u | S i => F i end), g2. split.
    + rewrite tab_S. reflexivity.
    + intros [|i] Hi; [exact Hu|apply HF; lia].
Qed.

Lemma C62_init_l {G} (rg : rng G) e glob x ls n a b d :
  let v := ve_v e in let c := v_cfg v in let nc := c_nc c in
  pos_dirichlet rg -> valid_rs rg (ve_rs e) -> (0 < nc)%nat -> letters_in (c_params c) ["s"; "t"; "e"]%char ->
  vfresh v -> scalar_prior (v_sarg v) (/ INR nc) a -> scalar_prior (v_targ v) (/ INR nc) b ->
  scalar_prior (vk_arg (h_em (v_h v))) (/ INR n) d ->
  good_data (sym_ok n) ls x ->
  (h_nfeat (v_h v) = Some n \/ (h_nfeat (v_h v) = None /\ Z.of_nat n = zmax x + 1)%Z) ->
  exists e1 glob1 ev p q, vinit vcat_initc rg exact e glob x (map Z.of_nat ls) = Ok (e1, glob1, ev)
    /\ vcat_model (ve_v e1) nc n p q
    /\ v_cfg (ve_v e1) = c /\ h_start (v_h (ve_v e1)) = h_start (v_h v) /\ h_trans (v_h (ve_v e1)) = h_trans (v_h v)
    /\ h_mon (v_h (ve_v e1)) = h_mon (v_h v)
    /\ (forall i, d_s p i = a) /\ (forall i j, d_t p i j = b) /\ (forall i k, d_e p i k = d)
    /\ sumn nc (d_s q) = INR (length ls)
    /\ (forall i, (i < nc)%nat -> sumn nc (d_t q i) = INR (length x) / INR nc)
    /\ (forall i, (i < nc)%nat -> sumn n (d_e q i) = INR (length x) / INR nc).
Proof.
  cbv zeta. intros Hrg Hrs Hnc Hlet (F1 & F2 & F3 & F4 & F5 & F6) Ha Hb He Hd Hnf.
  set (v := ve_v e) in *. set (c := v_cfg v) in *. set (nc := c_nc c) in *.
  pose proof Hd as [Hok (Hls & Hpos & Hsum)].
  destruct (good_data_chunks _ ls x Hd) as (Hne & _ & _).
  assert (Hn : (0 < n)%nat). { destruct x as [|k x]; [contradiction|]. inversion Hok as [|? ? Hk _]; subst. unfold sym_ok in Hk. lia. }
  assert (Hfeat : vcat_nfeat c (h_nfeat (v_h v)) (h_em (v_h v)) x = Ok (Some n, h_em (v_h v))).
  { unfold vcat_nfeat, cat_nfeat. rewrite Forall_forall in Hok.
    pose proof (Hok _ (zmin_in x Hne)) as H1. pose proof (Hok _ (zmax_in x Hne)) as H2.
    unfold sym_ok in *. destruct (Z.ltb_spec (zmin x) 0); [lia|].
    destruct Hnf as [->|[-> Hz]].
    - destruct (Z.ltb_spec (Z.of_nat n - 1) (zmax x)); [lia|]. reflexivity.
    - rewrite <- Hz, Nat2Z.id. reflexivity. }
  destruct (cat_nfit_ok c n (Catp (Scal NaN) None) Hlet) as (dd & k & Hdd & Hk).
  assert (HI : 0 < INR nc) by (apply lt_0_INR; exact Hnc).
  assert (HIn : 0 < INR n) by (apply lt_0_INR; exact Hn).
  assert (HIx : 0 < INR (length x)) by (apply lt_0_INR; destruct x; [contradiction|simpl; lia]).
  assert (HIl : 0 < INR (length ls)) by (apply lt_0_INR; destruct ls; [contradiction|simpl; lia]).
  assert (Hdir : forall m z g, (0 < m)%nat -> 0 < z -> exists f g', r_dirichlet rg (tab m (fun _ => Fin z)) g = Ok (fvec m f, g') /\ pos1 m f /\ sumn m f = 1).
  { intros m z g Hm Hz. apply (Hrg m (fun _ => z) g Hm). intros i _. exact Hz. }
  assert (Hu : xdiv exact (Fin 1) (Fin (INR nc)) = Fin (/ INR nc)).
  { rewrite xdivE by lra. unfold Rdiv. rewrite Rmult_1_l. reflexivity. }
  assert (Hun : xdiv exact (Fin 1) (Fin (INR n)) = Fin (/ INR n)).
  { rewrite xdivE by lra. unfold Rdiv. rewrite Rmult_1_l. reflexivity. }
  unfold vinit, vbase_init. fold v. fold c. cbn [vi_nfeat vcat_initc].
  change (h_cfg (v_h v)) with c. rewrite Hfeat. cbn [bind]. fold nc.
  destruct (Nat.eqb_spec nc 0); [lia|]. rewrite Hu.
  destruct (rs_get_ok rg (ve_rs e) glob Hrs) as (g & ->). cbn [bind].
  rewrite F1, F2, F3, F4. unfold needs_init2, needs_init. cbn [isSome].
  replace (if has "s" (c_init_params c) then (true, []) else (negb false, [])) with (true, @nil event) by (destruct (has "s" _); reflexivity).
  replace (if has "t" (c_init_params c) then (true, []) else (negb false, [])) with (true, @nil event) by (destruct (has "t" _); reflexivity).
  cbv iota.
  assert (Hfa : full1 nc (match v_sarg v with None => Scal (Fin (/ INR nc)) | Some a0 => a0 end) = Ok (fvec nc (fun _ => a))).
  { destruct Ha as [_ [[-> ->]| ->]]; reflexivity. }
  rewrite Hfa. cbn [bind].
  destruct (Hdir nc (/ INR nc) g Hnc (Rinv_0_lt_compat _ HI)) as (fs & g1 & -> & Ps & Ss). cbn [bind].
  assert (Hfb : full2 nc nc (match v_targ v with None => Scal (Fin (/ INR nc)) | Some a0 => a0 end) = Ok (fmat nc nc (fun _ _ => b))).
  { destruct Hb as [_ [[-> ->]| ->]]; reflexivity. }
  rewrite Hfb. cbn [bind].
  destruct (draws_fmat (r_dirichlet rg (tab nc (fun _ => Fin (/ INR nc)))) nc (fun f => pos1 nc f /\ sumn nc f = 1)
              (fun g => Hdir nc (/ INR nc) g Hnc (Rinv_0_lt_compat _ HI)) nc g1) as (FT & g2 & -> & HT). cbn [bind].
  destruct (rs_put (ve_rs e) glob g2) as [rs glob2] eqn:Eput.
  cbn [vi_nfit vcat_initc vcat_nfit]. unfold vcat_nfit. rewrite Hdd. cbn [bind]. rewrite Hk. cbn [bind].
  cbn [vi_em vcat_initc ve_v ve_rs v_h h_cfg h_nfeat h_em]. unfold vcat_init_em.
  destruct (rs_get_ok rg rs glob2 (rs_put_valid rg _ _ _ _ _ Hrs Eput)) as (g3 & ->). cbn [bind].
  rewrite F6. unfold needs_init. cbn [isSome].
  replace (if has "e" (c_init_params c) then (true, []) else (negb false, [])) with (true, @nil event) by (destruct (has "e" _); reflexivity).
  cbv iota. destruct (Nat.eqb_spec n 0); [lia|]. rewrite Hun.
  assert (Harg : (match vk_arg (h_em (v_h v)) with None => Scal (Fin (/ INR n)) | Some a0 => a0 end) = Scal (Fin d)).
  { destruct He as [_ [[-> ->]| ->]]; reflexivity. }
  rewrite Harg. cbn [full2 bind]. fold nc.
  destruct (draws_fmat (r_dirichlet rg (tab n (fun _ => Fin d))) n (fun f => pos1 n f /\ sumn n f = 1)
              (fun g => Hdir n d g Hn (proj1 He)) nc g3) as (FE & g4 & -> & HE). cbn [bind].
  destruct (rs_put rs glob2 g4) as [rs3 glob3]. cbn [bind].
  rewrite zsum_nat, Hsum, <- INR_IZR_INZ, map_length.
  set (qs := fun i => fs i * INR (length ls)).
  set (qt := fun i j => FT i j * (INR (length x) / INR nc)).
  set (qe := fun i k => FE i k * INR (length x) / INR nc).
  assert (E1 : map (fun a0 => xmul exact a0 (Fin (INR (length ls)))) (fvec nc fs) = fvec nc qs).
  { unfold fvec. rewrite tab_map. reflexivity. }
  assert (E2 : Mat nc (map (map (fun a0 => xmul exact a0 (xdiv exact (Fin (INR (length x))) (Fin (INR nc))))) (tab nc (fun i => fvec nc (FT i)))) = fmat nc nc qt).
  { rewrite xdivE by lra. unfold fmat, mtab. f_equal. rewrite tab_map. apply tab_ext. intros i _. unfold fvec. rewrite tab_map. reflexivity. }
  assert (E3 : Mat n (map (map (fun d0 => xdiv exact (xmul exact d0 (Fin (INR (length x)))) (Fin (INR nc)))) (tab nc (fun i => fvec n (FE i)))) = fmat nc n qe).
  { unfold fmat, mtab. f_equal. rewrite tab_map. apply tab_ext. intros i _. unfold fvec. rewrite tab_map. apply tab_ext. intros j _.
    rewrite xmulE. apply xdivE. lra. }
  rewrite E1, E2, E3.
  do 3 eexists. exists (Dirs (fun _ => a) (fun _ _ => b) (fun _ _ => d)), (Dirs qs qt qe).
  split; [reflexivity|]. cbn [ve_v]. split.
  { constructor; cbn [d_s d_t d_e with_h set_em v_h h_nfeat h_em vk_prior vk_post]; try assumption; try reflexivity.
    - constructor; try reflexivity.
      + intros i _. apply Ha.
      + intros i j _ _. apply Hb.
      + intros i Hi. apply Rmult_lt_0_compat; [apply Ps; exact Hi|exact HIl].
      + intros i j Hi Hj. apply Rmult_lt_0_compat; [apply HT; assumption|apply Rdiv_lt_0_compat; assumption].
    - right. reflexivity.
    - intros i j _ _. apply He.
    - intros i j Hi Hj. unfold qe. apply Rdiv_lt_0_compat; [apply Rmult_lt_0_compat; [apply HE; assumption|exact HIx]|exact HI]. }
  do 4 (split; [reflexivity|]). cbn [d_s d_t d_e]. do 3 (split; [intros; reflexivity|]). split; [|split].
  - unfold qs. rewrite sumn_scal_r, Ss. ring.
  - intros i Hi. unfold qt. rewrite sumn_scal_r, (proj2 (HT i Hi)). ring.
  - intros i Hi. unfold qe. rewrite sumn_div, sumn_scal_r, (proj2 (HE i Hi)). field. lra.
Qed.

(** A fresh estimator can be trained. *)
Lemma C62_fit_returns_l {G} (rg : rng G) e glob x ls n a b d :
  let v := ve_v e in let c := v_cfg v in let nc := c_nc c in
  pos_dirichlet rg -> valid_rs rg (ve_rs e) -> (0 < nc)%nat -> letters_in (c_params c) ["s"; "t"; "e"]%char ->
  has "t" (c_params c) = true -> c_impl c = "log"%string ->
  vfresh v -> scalar_prior (v_sarg v) (/ INR nc) a -> scalar_prior (v_targ v) (/ INR nc) b ->
  scalar_prior (vk_arg (h_em (v_h v))) (/ INR n) d ->
  good_data (sym_ok n) ls x ->
  (h_nfeat (v_h v) = Some n \/ (h_nfeat (v_h v) = None /\ Z.of_nat n = zmax x + 1)%Z) ->
  exists e1 glob1 ev p q, vfit vcategorical vcat_initc rg exact e glob x (as_lengths ls) = Ok (e1, glob1, ev)
    /\ vcat_model (ve_v e1) nc n p q
    /\ (forall i, d_s p i = a) /\ (forall i j, d_t p i j = b) /\ (forall i k, d_e p i k = d)
    /\ (exists vs : list R, v_history (ve_v e1) = map Fin vs
         /\ forall i j, (i <= j)%nat -> (j < length vs)%nat -> nth i vs 0 <= nth j vs 0).
Proof.
  cbv zeta. intros Hrg Hrs Hnc Hlet Ht Himp Hfr Ha Hb He Hd Hnf.
  destruct (C62_init_l rg e glob x ls n a b d Hrg Hrs Hnc Hlet Hfr Ha Hb He Hd Hnf)
    as (e1 & glob1 & ev & p & q & Hi & HM & Hc & _ & Htr & _ & P1 & P2 & P3 & _).
  unfold vfit. destruct (good_data_chunks _ ls x Hd) as (Hne & _ & _).
  rewrite (check_array_ready (vc_em vcategorical) (sym_ok n) x Hne) by (first [apply Hd | reflexivity]). cbn [bind].
  unfold as_lengths. rewrite Hi. cbn [bind].
  destruct (C46_fit_returns_l (ve_v e1) _ n p q ls x HM Hd) as ([v2 ev2] & Hf).
  - rewrite Hc. exact Himp.
  - left. rewrite Hc. exact Ht.
  - rewrite Hf. cbn [bind].
    destruct (C46_fit_l _ _ _ _ _ _ _ _ _ HM Hd Hf) as (qs & _ & _ & _ & _ & HM' & _).
    destruct (C50_lower_bound_l _ _ _ _ _ _ _ _ _ HM Hd Hf) as [Hh _].
    do 3 eexists. exists p, (qs (length (v_history v2))). split; [reflexivity|]. cbn [ve_v]. auto 10.
Qed.

(** The documented array form of [emissionprob_prior] is refused. *)
Lemma C62_array_prior_l {G} (rg : rng G) c nf p x ls rs glob m :
  vk_arg p = Some (Arr2 m) -> vk_post p = None ->
  forall n, nf = Some n -> (0 < n)%nat -> nrow m = c_nc c -> ncol m = n -> valid_rs rg rs ->
  vcat_init_em exact rg c nf p x ls rs glob = Err (ValueError "object too deep for desired array").
Proof.
  intros Ha Hp n -> Hn Hr Hc Hrs. unfold vcat_init_em.
  destruct (rs_get_ok rg rs glob Hrs) as (g & ->). cbn [bind]. rewrite Hp. unfold needs_init. cbn [isSome negb].
  replace (if has "e" (c_init_params c) then (true, []) else (true, [])) with (true, @nil event) by (destruct (has "e" _); reflexivity).
  cbv iota. destruct (Nat.eqb_spec n 0); [lia|]. rewrite Ha. cbn [full2]. rewrite Hr, Hc, !Nat.eqb_refl. reflexivity.
Qed.

(** The functions that stand for scipy's [gammaln] and [digamma] are what the
    Bohr-Mollerup theorem says they are: ln (n-1)! on the integers, the functional
    equation, convexity with [psi] as slope. *)
Lemma C63_special_functions_l :
  lgam 1 = 0 /\ (forall x, 0 < x -> lgam (x + 1) = lgam x + ln x) /\ (forall x, 0 < x -> psi (x + 1) = psi x + / x)
  /\ (forall x y, 0 < x -> 0 < y -> lgam x + psi x * (y - x) <= lgam y)
  /\ (forall n, lgam (INR (S n)) = ln (INR (fact n))).
Proof.
  split; [exact lgam_1|]. split; [exact lgam_rec|]. split; [exact psi_rec|]. split.
  - intros x y Hx Hy. pose proof (dlg_nonneg x y Hx Hy) as H. unfold dlg in H. lra.
  - induction n as [|n IH]; [simpl fact; simpl INR; rewrite ln_1; exact lgam_1|].
    rewrite S_INR, lgam_rec by (apply lt_0_INR; lia). rewrite IH.
    change (fact (S n)) with (S n * fact n)%nat. rewrite mult_INR, ln_mult by (apply lt_0_INR; pose proof (lt_O_fact n); lia).
    ring.
Qed.
