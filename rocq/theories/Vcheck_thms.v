(** * C72, C73: validation of the parameters of the variational classes. *)
From Verif Require Export Vinit_thms Vg_init.


(** ** What the documentation of the attributes says about their shapes. *)
Definition has_shape (r c : nat) (m : mat) : Prop := nrow m = r /\ ncol m = c.
(** [dof]: one number per state, a single number for "tied". *)
Definition dof_shaped (ty : string) (nc : nat) (d : dofs) : Prop :=
  if String.eqb ty "tied" then exists a, d = DofS a else exists a, d = DofV a /\ length a = nc.
(** [scale]: as [covars_] of the same covariance type. *)
Definition scale_shaped (ty : string) (nc nf : nat) (s : covs) : Prop :=
  (ty = "full"%string /\ exists l, s = CV3 l /\ length l = nc /\ Forall (has_shape nf nf) l)
  \/ (ty = "tied"%string /\ exists m, s = CV2 m /\ has_shape nf nf m)
  \/ (ty = "diag"%string /\ exists m, s = CV2 m /\ has_shape nc nf m)
  \/ (ty = "spherical"%string /\ exists a, s = CV1 a /\ length a = nc).
Record vg_attrs : Type := VgAttrs { va_m0 : parr; va_m : mat; va_b0 : vec; va_b : vec; va_d0 : dofs; va_d : dofs; va_s0 : covs; va_s : covs }.
Definition vg_set (p : vgp) (a : vg_attrs) : Prop :=
  vg_m0 p = Some (va_m0 a) /\ vg_m p = Some (va_m a) /\ vg_b0 p = Some (va_b0 a) /\ vg_b p = Some (va_b a)
  /\ vg_d0 p = Some (va_d0 a) /\ vg_d p = Some (va_d a) /\ vg_s0 p = Some (va_s0 a) /\ vg_s p = Some (va_s a).
Definition vg_shaped (ty : string) (nc nf : nat) (a : vg_attrs) : Prop :=
  (exists m, va_m0 a = Arr2 m /\ has_shape nc nf m) /\ has_shape nc nf (va_m a)
  /\ length (va_b0 a) = nc /\ length (va_b a) = nc
  /\ dof_shaped ty nc (va_d0 a) /\ dof_shaped ty nc (va_d a)
  /\ scale_shaped ty nc nf (va_s0 a) /\ scale_shaped ty nc nf (va_s a).
(** VariationalCategoricalHMM. *)
Record vk_attrs : Type := VkAttrs { ka_sp : vec; ka_sq : vec; ka_tp : mat; ka_tq : mat; ka_ep : mat; ka_eq : mat }.
Definition vk_set (v : vhmm vcatp) (a : vk_attrs) : Prop :=
  v_sprior v = Some (ka_sp a) /\ v_spost v = Some (ka_sq a) /\ v_tprior v = Some (ka_tp a) /\ v_tpost v = Some (ka_tq a)
  /\ vk_prior (h_em (v_h v)) = Some (ka_ep a) /\ vk_post (h_em (v_h v)) = Some (ka_eq a).
Definition vk_shaped (nc : nat) (nf : option nat) (a : vk_attrs) : Prop :=
  length (ka_sp a) = nc /\ length (ka_sq a) = nc /\ has_shape nc nc (ka_tp a) /\ has_shape nc nc (ka_tq a)
  /\ exists n, (nf = None \/ nf = Some n) /\ has_shape nc n (ka_ep a) /\ has_shape nc n (ka_eq a).

(** ** Boolean tests and the shapes. *)
Lemma shape_b r c m : Nat.eqb (nrow m) r && Nat.eqb (ncol m) c = true <-> has_shape r c m.
Proof. unfold has_shape. rewrite andb_true_iff, !Nat.eqb_eq. reflexivity. Qed.
Lemma dof_shape_b ty nc d : dof_shape_ok ty nc d = true <-> dof_shaped ty nc d.
Proof.
  unfold dof_shape_ok, dof_shaped. destruct d as [a|a].
  - destruct (String.eqb ty "tied"); cbn [negb andb].
    + split; [discriminate|intros (b & E); discriminate].
    + rewrite Nat.eqb_eq. split; [intros H; exists a; auto|intros (b & E & H); congruence].
  - destruct (String.eqb ty "tied").
    + split; [exists a; reflexivity|reflexivity].
    + split; [discriminate|intros (b & E & _); discriminate].
Qed.
Lemma known_type ty : is_type covariance_types ty = true ->
  (ty = "full" \/ ty = "tied" \/ ty = "diag" \/ ty = "spherical")%string.
Proof.
  intros Hty. unfold is_type, covariance_types in Hty. cbn [existsb] in Hty.
  destruct (String.eqb_spec ty "spherical"); [tauto|]. destruct (String.eqb_spec ty "diag"); [tauto|].
  destruct (String.eqb_spec ty "full"); [tauto|]. destruct (String.eqb_spec ty "tied"); [tauto|discriminate].
Qed.
Lemma scale_shape_b ty nc nf s : is_type covariance_types ty = true -> (cov_shape_ok ty nc nf s = true <-> scale_shaped ty nc nf s).
Proof.
  intros Hty. apply known_type in Hty. unfold cov_shape_ok, scale_shaped.
  destruct Hty as [->|[->|[->| ->]]]; cbn [String.eqb Ascii.eqb Bool.eqb].
  - split.
    + destruct s as [a|a|l]; try discriminate. intros H. apply andb_true_iff in H as [H1 H2]. apply Nat.eqb_eq in H1.
      left. split; [reflexivity|]. exists l. split; [reflexivity|]. split; [exact H1|]. rewrite forallb_forall in H2. apply Forall_forall.
      intros m Hm. apply shape_b, H2, Hm.
    + intros [[_ (l & -> & H1 & H2)]|[[E _]|[[E _]|[E _]]]]; try discriminate. apply andb_true_iff. split; [apply Nat.eqb_eq, H1|].
      apply forallb_forall. intros m Hm. rewrite Forall_forall in H2. apply shape_b, H2, Hm.
  - split.
    + destruct s as [a|a|l]; try discriminate. intros H. apply shape_b in H. right; left. split; [reflexivity|]. exists a. auto.
    + intros [[E _]|[[_ (m & -> & H)]|[[E _]|[E _]]]]; try discriminate. apply shape_b, H.
  - split.
    + destruct s as [a|a|l]; try discriminate. intros H. apply shape_b in H. do 2 right; left. split; [reflexivity|]. exists a. auto.
    + intros [[E _]|[[E _]|[[_ (m & -> & H)]|[E _]]]]; try discriminate. apply shape_b, H.
  - split.
    + destruct s as [a|a|l]; try discriminate. intros H. apply Nat.eqb_eq in H. do 3 right. split; [reflexivity|]. exists a. auto.
    + intros [[E _]|[[E _]|[[E _]|[_ (a & -> & H)]]]]; try discriminate. apply Nat.eqb_eq, H.
Qed.
Lemma guard_true b w : guard b w = Ok tt <-> b = true.
Proof. unfold guard. destruct b; split; congruence. Qed.
Lemma attr_ok {A} n (o : option A) a : attr n o = Ok a <-> o = Some a.
Proof. unfold attr. destruct o; split; intros H; congruence. Qed.
Lemma prior_shape_b nc nf m0 : match m0 with Arr2 a => Nat.eqb (nrow a) nc && Nat.eqb (ncol a) nf | _ => false end = true
  <-> exists m, m0 = Arr2 m /\ has_shape nc nf m.
Proof.
  destruct m0 as [a|a|a].
  - split; [discriminate|intros (m & E & _); discriminate].
  - split; [discriminate|intros (m & E & _); discriminate].
  - rewrite shape_b. split; [intros H; exists a; auto|intros (m & E & H); congruence].
Qed.

(** ** VariationalGaussianHMM. *)
Lemma C73_vgaussian_accepts_l la fp v :
  let c := v_cfg v in let p := h_em (v_h v) in
  (exists v', vcheck (vgaussian la) fp v = Ok v')
  <-> is_type covariance_types (vg_type p) = true
      /\ exists nf a, h_nfeat (v_h v) = Some nf /\ vg_set p a /\ vg_shaped (vg_type p) (c_nc c) nf a.
Proof.
  intros c p. unfold vcheck. cbn [vgaussian vc_super_check vc_em ec_check bind]. fold c p. split.
  - intros [v' H]. apply bind_inv in H as ([nfe p'] & H & _). unfold vg_check in H. cbv zeta in H.
    repeat match type of H with bind (guard _ _) _ = _ => let u := fresh "u" in let E := fresh "E" in apply bind_inv in H as (u & E & H); destruct u; apply guard_true in E
                              | bind (attr _ _) _ = _ => let u := fresh "w" in let E := fresh "A" in apply bind_inv in H as (u & E & H); apply attr_ok in E end.
    split; [assumption|]. exists w, (VgAttrs w0 w1 w2 w3 w4 w5 w6 w7).
    split; [assumption|]. split; [repeat split; assumption|].
    unfold vg_shaped. cbn [va_m0 va_m va_b0 va_b va_d0 va_d va_s0 va_s].
    split; [apply prior_shape_b; assumption|]. split; [apply shape_b; assumption|].
    split; [apply Nat.eqb_eq; assumption|]. split; [apply Nat.eqb_eq; assumption|].
    split; [apply dof_shape_b; assumption|]. split; [apply dof_shape_b; assumption|].
    split; apply scale_shape_b; assumption.
  - intros (Hty & nf & a & Hnf & (A1 & A2 & A3 & A4 & A5 & A6 & A7 & A8) & B1 & B2 & B3 & B4 & B5 & B6 & B7 & B8).
    apply prior_shape_b in B1. apply shape_b in B2. apply Nat.eqb_eq in B3, B4. apply dof_shape_b in B5, B6.
    apply (scale_shape_b _ _ _ _ Hty) in B7, B8.
    unfold vg_check. cbv zeta. rewrite Hty, Hnf, A1, A2, A3, A4, A5, A6, A7, A8. cbn [attr guard bind].
    rewrite B1, B2, B3, B4, B5, B6, B7, B8. cbn [guard bind]. eexists. reflexivity.
Qed.
(** All attributes are there, but something has the wrong shape: ValueError. *)
Lemma C73_vgaussian_rejects_l la fp v a nf :
  let c := v_cfg v in let p := h_em (v_h v) in
  h_nfeat (v_h v) = Some nf -> vg_set p a ->
  ~ (is_type covariance_types (vg_type p) = true /\ vg_shaped (vg_type p) (c_nc c) nf a) ->
  exists why, forall x ls, vfit_from (vgaussian la) fp v x ls = Err (ValueError why).
Proof.
  intros c p Hnf Hs Hn. assert (HE : exists why, vcheck (vgaussian la) fp v = Err (ValueError why)).
  { destruct (vcheck (vgaussian la) fp v) as [v'|e] eqn:E.
    - exfalso. apply Hn. destruct (proj1 (C73_vgaussian_accepts_l la fp v) (ex_intro _ v' E)) as (Hty & nf' & a' & H1 & H2 & H3).
      fold c p in Hty, H2, H3. assert (nf' = nf) as -> by congruence.
      destruct Hs as (A1 & A2 & A3 & A4 & A5 & A6 & A7 & A8). destruct H2 as (D1 & D2 & D3 & D4 & D5 & D6 & D7 & D8).
      assert (a' = a) as -> by (destruct a, a'; cbn in *; congruence). split; assumption.
    - destruct Hs as (A1 & A2 & A3 & A4 & A5 & A6 & A7 & A8). unfold vcheck in E. cbn [vgaussian vc_super_check vc_em ec_check bind] in E. fold c p in E.
      unfold vg_check in E. cbv zeta in E. rewrite Hnf, A1, A2, A3, A4, A5, A6, A7, A8 in E. cbn [attr bind] in E. unfold guard in E.
      repeat (match type of E with context [if ?b then Ok tt else _] => destruct b end; cbn [bind] in E; [|injection E as <-; eexists; reflexivity]).
      discriminate. }
  destruct HE as [why HE]. exists why. intros x ls. unfold vfit_from. rewrite HE. reflexivity.
Qed.

(** ** VariationalCategoricalHMM. *)
Lemma C73_vcategorical_accepts_l fp v :
  (exists v', vcheck vcategorical fp v = Ok v')
  <-> exists a, vk_set v a /\ vk_shaped (c_nc (v_cfg v)) (h_nfeat (v_h v)) a.
Proof.
  set (c := v_cfg v). unfold vcheck. cbn [vcategorical vc_super_check vc_em ec_check]. unfold vbase_check, vcat_check. cbv zeta. fold c. split.
  - intros [v' H]. apply bind_inv in H as ([] & H1 & H). 
    apply bind_inv in H1 as (sp & A1 & H1). apply attr_ok in A1. destruct (Nat.eqb_spec (length sp) (c_nc c)) as [B1|]; [|discriminate]. cbn [negb] in H1.
    apply bind_inv in H1 as (sq & A2 & H1). apply attr_ok in A2. destruct (Nat.eqb_spec (length sq) (c_nc c)) as [B2|]; [|discriminate]. cbn [negb] in H1.
    apply bind_inv in H1 as (tp & A3 & H1). apply attr_ok in A3. destruct (Nat.eqb (nrow tp) (c_nc c) && Nat.eqb (ncol tp) (c_nc c)) eqn:B3; [|discriminate]. cbn [negb] in H1.
    apply bind_inv in H1 as (tq & A4 & H1). apply attr_ok in A4. destruct (Nat.eqb (nrow tq) (c_nc c) && Nat.eqb (ncol tq) (c_nc c)) eqn:B4; [|discriminate].
    apply bind_inv in H as ([nf p'] & H & _). apply bind_inv in H as (ep & A5 & H). apply attr_ok in A5. apply bind_inv in H as (eq & A6 & H). apply attr_ok in A6.
    destruct (Nat.eqb (nrow ep) (nrow eq) && Nat.eqb (ncol ep) (ncol eq)) eqn:B5; [|discriminate]. cbn [negb] in H.
    set (n := match h_nfeat (v_h v) with None => ncol eq | Some n => n end) in H.
    destruct (Nat.eqb (nrow eq) (c_nc c) && Nat.eqb (ncol eq) n) eqn:B6; [|discriminate].
    apply shape_b in B3, B4, B5, B6. exists (VkAttrs sp sq tp tq ep eq). split; [repeat split; assumption|].
    unfold vk_shaped. cbn [ka_sp ka_sq ka_tp ka_tq ka_ep ka_eq]. do 4 (split; [assumption|]). exists n.
    split; [unfold n; destruct (h_nfeat (v_h v)); auto|]. split; [|assumption]. destruct B5 as [E1 E2], B6 as [E3 E4]. split; congruence.
  - intros (a & (A1 & A2 & A3 & A4 & A5 & A6) & B1 & B2 & B3 & B4 & n & Hn & B5 & B6).
    rewrite A1, A2, A3, A4, A5, A6. cbn [attr bind]. rewrite B1, B2, !Nat.eqb_refl. cbn [negb].
    apply shape_b in B3, B4. rewrite B3, B4. cbn [negb bind].
    destruct B5 as [E1 E2], B6 as [E3 E4]. rewrite E1, E2, E3, E4, !Nat.eqb_refl. cbn [negb andb].
    destruct Hn as [-> | ->]; rewrite Nat.eqb_refl; cbn [negb bind]; eexists; reflexivity.
Qed.
Lemma C73_vcategorical_rejects_l fp v a :
  vk_set v a -> ~ vk_shaped (c_nc (v_cfg v)) (h_nfeat (v_h v)) a ->
  exists why, forall x ls, vfit_from vcategorical fp v x ls = Err (ValueError why).
Proof.
  intros Hs Hn. assert (HE : exists why, vcheck vcategorical fp v = Err (ValueError why)).
  { destruct (vcheck vcategorical fp v) as [v'|e] eqn:E.
    - exfalso. apply Hn. destruct (proj1 (C73_vcategorical_accepts_l fp v) (ex_intro _ v' E)) as (a' & H2 & H3).
      destruct Hs as (A1 & A2 & A3 & A4 & A5 & A6). destruct H2 as (D1 & D2 & D3 & D4 & D5 & D6).
      assert (a' = a) as -> by (destruct a, a'; cbn in *; congruence). assumption.
    - destruct Hs as (A1 & A2 & A3 & A4 & A5 & A6). unfold vcheck in E. cbn [vcategorical vc_super_check vc_em ec_check] in E.
      unfold vbase_check, vcat_check in E. cbv zeta in E. rewrite A1, A2, A3, A4, A5, A6 in E. cbn [attr bind] in E.
      repeat (match type of E with context [if negb ?b then _ else _] => destruct b end; cbn [negb bind] in E; [|injection E as <-; eexists; reflexivity]).
      discriminate. }
  destruct HE as [why HE]. exists why. intros x ls. unfold vfit_from. rewrite HE. reflexivity.
Qed.
(** [score], [decode], [predict], … validate in the same way. *)
Lemma C73_score_l la fp v s x ls post :
  h_start (v_h v) = Some s -> (exists r, vscore_ (vgaussian la) fp v x ls post = Ok r) ->
  is_type covariance_types (vg_type (h_em (v_h v))) = true
  /\ exists nf a, h_nfeat (v_h v) = Some nf /\ vg_set (h_em (v_h v)) a /\ vg_shaped (vg_type (h_em (v_h v))) (c_nc (v_cfg v)) nf a.
Proof.
  intros Hs [r H]. unfold vscore_ in H. cbv zeta in H. apply (C73_vgaussian_accepts_l la fp v).
  repeat match type of H with bind ?A _ = _ => let y := fresh in let E := fresh "E" in apply bind_inv in H as (y & E & H);
     match A with vfitted _ _ _ => unfold vfitted in E; rewrite Hs in E; apply bind_inv in E as (v' & E & _); exists v'; exact E end end.
Qed.

(** ** The values are not looked at. *)
Definition odd_vg : vhmm vgp :=
  VHmm (Hmm (Cfg 1 "stmc" "" "viterbi" "log" 3 (Fin (/ 100)) false (Scal (Fin 1)) (Scal (Fin 1))) (Some 1%nat) (Some [Fin 2]) (Some (fmat 1 1 (fun _ _ => -1)))
          (Monitor (Fin (/ 100)) 3 false [] 0)
          (Vgp "full" None None None None (Some (Arr2 (fmat 1 1 (fun _ _ => 0)))) (Some (fmat 1 1 (fun _ _ => 0))) (Some [Fin (-1)]) (Some [Fin (-1)])
             (Some (DofV [Fin (-1)])) (Some (DofV [Fin (-1)])) (Some (CV3 [fmat 1 1 (fun _ _ => -1)])) (Some (CV3 [fmat 1 1 (fun _ _ => -1)])) None))
    None None (Some [Fin (-1)]) (Some [Fin (-1)]) (Some (fmat 1 1 (fun _ _ => -1))) (Some (fmat 1 1 (fun _ _ => -1))).
Lemma C73_values_refuted_l : exists v : vhmm vgp,
  (** neither [startprob_] nor a row of [transmat_] sums to 1, *)
  h_start (v_h v) = Some [Fin 2] /\ h_trans (v_h v) = Some (fmat 1 1 (fun _ _ => -1))
  (** Dirichlet, scale and degree parameters are negative, *)
  /\ v_sprior v = Some [Fin (-1)] /\ vg_b0 (h_em (v_h v)) = Some [Fin (-1)] /\ vg_d0 (h_em (v_h v)) = Some (DofV [Fin (-1)])
  /\ vg_s0 (h_em (v_h v)) = Some (CV3 [fmat 1 1 (fun _ _ => -1)])
  (** and the documented ValueError does not come. *)
  /\ forall la fp, vcheck (vgaussian la) fp v = Ok v.
Proof. exists odd_vg. repeat split; reflexivity. Qed.

(** ** Fits of a new VariationalGaussianHMM that return. *)
Lemma vg_fit_returns_inv {G} la (gr : grng G) (rg : rng G) fp e glob x ls r :
  let v := ve_v e in let c := v_cfg v in
  vg_m0 (h_em (v_h v)) = None -> vfit (vgaussian la) (vg_initc gr) rg fp e glob x ls = Ok r ->
  exists nf m0 m b0 b, fresh_means gr fp (c_nc c) nf (h_em (v_h v)) x m0 m b0 b
    /\ (exists a, m0 = Arr2 a /\ has_shape (c_nc c) nf a) /\ has_shape (c_nc c) nf m /\ length b0 = c_nc c /\ length b = c_nc c.
Proof.
  intros v c Hm H. destruct r as [[e2 g2] ev2]. unfold vfit in H. apply bind_inv in H as (x' & Hx & H). 
  assert (x' = x) as ->. { unfold check_array in Hx. repeat match type of Hx with context [if ?b then _ else _] => destruct b end; congruence. }
  cbv zeta in H. apply bind_inv in H as ([[e1 g1] ev1] & Hi & H). apply bind_inv in H as ([v2 ev3] & Hf & _).
  destruct (C22_vgaussian_partial_l _ _ _ _ _ _ _ _ _ _ Hi) as (Hc & _ & _ & H4 & _). fold v in H4, Hc. fold c in H4, Hc.
  unfold vfit_from in Hf. apply bind_inv in Hf as (v1 & Hk & _).
  destruct (proj1 (C73_vgaussian_accepts_l la fp (ve_v e1)) (ex_intro _ v1 Hk)) as (_ & nf & a & Hn & Hs & Hsh).
  rewrite Hc in Hsh. rewrite Hn in H4. rewrite Hm in H4. cbn [kept_or_fresh4] in H4.
  destruct H4 as (m0 & m & b0 & b & E1 & E2 & E3 & E4 & HF). destruct Hs as (A1 & A2 & A3 & A4 & _).
  destruct Hsh as (S1 & S2 & S3 & S4 & _).
  assert (m0 = va_m0 a) as -> by congruence. assert (m = va_m a) as -> by congruence. assert (b0 = va_b0 a) as -> by congruence. assert (b = va_b a) as -> by congruence.
  exists nf. do 4 eexists. split; [exact HF|]. auto.
Qed.
(** [means_prior] had one row per state, and a sample was in the last cluster. *)
Lemma C73_means_prior_l {G} la (gr : grng G) (rg : rng G) fp e glob x ls r a :
  let v := ve_v e in
  vg_m0 (h_em (v_h v)) = None -> vg_marg (h_em (v_h v)) = Some a ->
  vfit (vgaussian la) (vg_initc gr) rg fp e glob x ls = Ok r ->
  exists m nf, a = Arr2 m /\ has_shape (c_nc (v_cfg v)) nf m.
Proof.
  intros v Hm Ha H. destruct (vg_fit_returns_inv _ _ _ _ _ _ _ _ _ Hm H) as (nf & m0 & m & b0 & b & (lb & ce & _ & E & _) & (m1 & E1 & Hs) & _).
  fold v in E. rewrite Ha in E. cbn [or_arg] in E. exists m1, nf. split; [congruence|exact Hs].
Qed.
Lemma C72_last_cluster_l {G} la (gr : grng G) (rg : rng G) fp e glob x ls r :
  let v := ve_v e in
  vg_m0 (h_em (v_h v)) = None -> (0 < c_nc (v_cfg v))%nat ->
  vfit (vgaussian la) (vg_initc gr) rg fp e glob x ls = Ok r ->
  exists labels centers, kmeans_result gr (c_nc (v_cfg v)) x labels centers /\ list_max labels = (c_nc (v_cfg v) - 1)%nat.
Proof.
  intros v Hm Hc H. destruct (vg_fit_returns_inv _ _ _ _ _ _ _ _ _ Hm H) as (nf & m0 & m & b0 & b & (lb & ce & Hk & _ & _ & _ & Eb) & _ & _ & _ & Hl).
  exists lb, ce. split; [exact Hk|]. rewrite Eb in Hl. unfold cluster_counts in Hl. rewrite tab_length in Hl. fold v in Hl. lia.
Qed.
(** The documentation (vhmm.py:368) gives [means_prior] the shape (n_components,);
    no such prior can be used, whatever the data. *)
Definition doc_vg : vhmm vgp :=
  VHmm (Hmm (Cfg 2 "stmc" "stmc" "viterbi" "log" 3 (Fin (/ 100)) false (Scal (Fin 1)) (Scal (Fin 1))) None None None
          (Monitor (Fin (/ 100)) 3 false [] 0) (Vgp "full" (Some (Arr1 [Fin 0; Fin 10])) None None None None None None None None None None None None))
    None None None None None None.
Lemma C73_means_prior_refuted_l : exists (v : vhmm vgp) (a : vec),
  vg_fresh v /\ vg_marg (h_em (v_h v)) = Some (Arr1 a) /\ length a = c_nc (v_cfg v)
  /\ forall G la (gr : grng G) (rg : rng G) fp rs glob x ls r, vfit (vgaussian la) (vg_initc gr) rg fp (VEst v rs) glob x ls <> Ok r.
Proof.
  exists doc_vg, [Fin 0; Fin 10]. split; [repeat split|]. split; [reflexivity|]. split; [reflexivity|].
  intros G la gr rg fp rs glob x ls r H.
  destruct (C73_means_prior_l la gr rg fp (VEst doc_vg rs) glob x ls r (Arr1 [Fin 0; Fin 10]) eq_refl eq_refl H) as (m & nf & E & _). discriminate.
Qed.
(** Equal samples: every label that k-means can give is that of the first cluster,
    and training does not start. *)
Definition one_cluster : grng unit := Grng (fun _ _ g => Ok ([0; 0; 0; 0]%nat, fmat 2 1 (fun _ _ => 5), g)) (fun _ _ _ g => Err KeyError).
Lemma C72_equal_samples_refuted_l : exists (v : vhmm vgp) (x : list vec),
  vg_fresh v /\ c_nc (v_cfg v) = 2%nat /\ good_data (finite_row 1) [4]%nat x
  /\ forall la (rg : rng unit) rs r, vfit (vgaussian la) (vg_initc one_cluster) rg exact (VEst v rs) tt x (as_lengths [4]%nat) <> Ok r.
Proof.
  exists (new_vg "full"), [[Fin 5]; [Fin 5]; [Fin 5]; [Fin 5]]. split; [repeat split|]. split; [reflexivity|].
  split. { split; [repeat constructor|]. split; [discriminate|]. split; [repeat constructor|reflexivity]. }
  intros la rg rs r H.
  destruct (C72_last_cluster_l la one_cluster rg exact (VEst (new_vg "full") rs) tt _ _ r eq_refl ltac:(cbn; lia) H) as (lb & ce & (g & g' & E) & Hm).
  cbn in E. injection E as <- _ _. cbn in Hm. discriminate.
Qed.
(** A model that passes, and the same one with a prior of the wrong shape. *)
Definition flat_vg (m0 : parr) : vhmm vgp :=
  let v := odd_vg in with_h v (set_em (v_h v) (Some 1%nat)
       (Vgp "full" None None None None (Some m0) (Some (fmat 1 1 (fun _ _ => 0))) (Some [Fin 1]) (Some [Fin 1])
             (Some (DofV [Fin 1])) (Some (DofV [Fin 1])) (Some (CV3 [fmat 1 1 (fun _ _ => 1)])) (Some (CV3 [fmat 1 1 (fun _ _ => 1)])) None)).
Lemma C73_applies_l :
  (forall la fp, vcheck (vgaussian la) fp (flat_vg (Arr2 (fmat 1 1 (fun _ _ => 0)))) = Ok (flat_vg (Arr2 (fmat 1 1 (fun _ _ => 0)))))
  /\ (forall la fp x ls, vfit_from (vgaussian la) fp (flat_vg (Arr1 [Fin 0])) x ls = Err (ValueError "means_prior_"))
  /\ exists v', vcheck vcategorical exact (VHmm (Hmm (Cfg 1 "ste" "ste" "viterbi" "log" 3 (Fin (/ 100)) false (Scal (Fin 1)) (Scal (Fin 1))) None None None
          (Monitor (Fin (/ 100)) 3 false [] 0) (VCatp None (Some (fmat 1 2 (fun _ _ => 1))) (Some (fmat 1 2 (fun _ _ => 2))) None None))
        None None (Some [Fin 1]) (Some [Fin 1]) (Some (fmat 1 1 (fun _ _ => 1))) (Some (fmat 1 1 (fun _ _ => 1)))) = Ok v'.
Proof. split; [reflexivity|]. split; [reflexivity|]. eexists. reflexivity. Qed.
