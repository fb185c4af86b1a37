(** * Property lemmas C81: variational classes; the arguments of the constructor
    after an exception, trying again. *)
From Verif Require Export Vinterrupt_thms Hyper_thms Seed_v.

(** ** Complete iterations. *)
Definition vinterrupted {P X St G} (V : vclass P X St) (I : vinitclass P X G) (L : vleftclass P X G) (rg : rng G) (fp : fpmode)
    (as_left : nat -> vest P G -> vest P G -> Prop) : Prop :=
  forall n e glob x ls e' glob' ex r,
  vfit_run V I L rg fp (vbuilt n e) glob x ls = VRaised e' glob' ex -> vfit V I rg fp (vbuilt 0 e) glob x ls = Ok r ->
  exists k ek ev, (k < n)%nat /\ vfit V I rg fp (vbuilt k e) glob x ls = Ok (ek, glob', ev) /\ as_left n e' ek
    /\ m_iter (h_mon (v_h (ve_v e'))) = k.
(** [emissionprob_log_subnorm_] as it was, or computed from the posterior. *)
Definition set_sub {G} (s : option mat) (e : vest vcatp G) : vest vcatp G :=
  let v := ve_v e in let h := v_h v in let p := h_em h in
  VEst (with_h v (set_em h (h_nfeat h) (VCatp (vk_arg p) (vk_prior p) (vk_post p) (vk_prob p) s))) (ve_rs e).
Definition vcat_left_as {G} (fp : fpmode) (n : nat) (e' ek : vest vcatp G) : Prop :=
  let p := h_em (v_h (ve_v ek)) in
  e' = vbuilt n ek \/ exists po, vk_post p = Some po /\ e' = set_sub (Some (mrows (log_subnorm fp) po)) (vbuilt n ek).
Lemma vcat_stopped {G} fp n (e' ek : vest vcatp G) : stopped vcategorical fp n e' ek -> vcat_left_as fp n e' ek.
Proof.
  intros (H1 & H2). unfold vcat_left_as. destruct e' as [v' r'], ek as [vk rk]. cbn [ve_rs ve_v vbuilt] in *. subst r'.
  destruct H2 as [->|(p & Hp & ->)]; [left; reflexivity|]. right. cbn [vc_begin vcategorical re_cfg v_h h_em] in Hp. unfold vcat_begin in Hp.
  cbn [ve_v] in *. destruct (vk_post (h_em (v_h vk))) as [po|] eqn:E; [|discriminate]. cbn [attr bind] in Hp. injection Hp as <-. exists po. split; [reflexivity|].
  unfold set_sub. cbn [vbuilt ve_v ve_rs re_cfg v_h h_em]. rewrite E. reflexivity.
Qed.
Lemma vcat_vblind fp n : vblind vcategorical fp (cfg_n_iter n).
Proof. repeat split. Qed.
Lemma vg_vblind la fp n : vblind (vgaussian la) fp (cfg_n_iter n).
Proof. repeat split. Qed.
Lemma vk_mstep_keeps fp c nf p st p' : vk_set c nf p -> ec_mstep (vc_em vcategorical) fp c nf p st = Ok p' -> vk_set c nf p'.
Proof.
  intros (H1 & H2 & H3). cbn [ec_mstep vc_em vcategorical]. unfold vcat_mstep. destruct (has _ _); [|intros Q; injection Q as <-; repeat split; assumption].
  destruct (vk_prior p) eqn:E1; [|contradiction]. cbn [attr bind]. intros Q. injection Q as <-. split; [exact H1|split; cbn; discriminate].
Qed.
Lemma vk_begin_keeps fp c nf p p' : vk_set c nf p -> vc_begin vcategorical fp c nf p = Ok p' -> vk_set c nf p'.
Proof.
  intros (H1 & H2 & H3). cbn [vc_begin vcategorical]. unfold vcat_begin. destruct (vk_post p) eqn:E1; [|contradiction]. cbn [attr bind]. intros Q. injection Q as <-.
  split; [exact H1|split; [exact H2|cbn; discriminate]].
Qed.
Lemma vk_mstep_total fp c nf p st : vk_set c nf p -> exists p', ec_mstep (vc_em vcategorical) fp c nf p st = Ok p'.
Proof.
  intros (_ & H2 & _). cbn [ec_mstep vc_em vcategorical]. unfold vcat_mstep. destruct (has _ _); [|eauto]. destruct (vk_prior p); [|contradiction]. cbn [attr bind]. eauto.
Qed.
Lemma C81_vcategorical_l {G} (rg : rng G) fp : vinterrupted vcategorical vcat_initc vcat_left rg fp (vcat_left_as fp).
Proof.
  intros n e glob x ls e' glob' ex r HR H0.
  destruct (vrun_stops vcategorical vcat_initc vcat_left rg fp (vcat_vblind fp) ltac:(reflexivity) ltac:(reflexivity) ltac:(reflexivity) vk_set
              (fun c nf p nf' p' H => proj1 (vk_check fp c nf p nf' p' H)) (vk_mstep_keeps fp) (vk_begin_keeps fp) (vk_mstep_total fp) n e glob x ls e' glob' ex r HR H0)
    as (k & ek & ev & Hk & Hf & Hs & Hm).
  exists k, ek, ev. split; [exact Hk|]. split; [exact Hf|]. split; [apply vcat_stopped; exact Hs|exact Hm].
Qed.

(** What VariationalGaussianHMM's M-step relies on. *)
Definition vg_ready (c : cfg) (nf : option nat) (p : vgp) : Prop :=
  is_type covariance_types (vg_type p) = true /\ (exists m, vg_m0 p = Some (Arr2 m)) /\ vg_b0 p <> None /\ vg_b p <> None /\ vg_m p <> None
  /\ (exists d, vg_d0 p = Some d /\ dof_shape_ok (vg_type p) (c_nc c) d = true)
  /\ exists n s, nf = Some n /\ vg_s0 p = Some s /\ cov_shape_ok (vg_type p) (c_nc c) n s = true.
Lemma vg_check_ready fp c nf p nf' p' : vg_check fp c nf p = Ok (nf', p') -> vg_ready c nf' p'.
Proof.
  unfold vg_check, vg_ready. intros H. unfold guard in H. destruct (is_type covariance_types (vg_type p)) eqn:E0; [|discriminate]. cbn [bind] in H.
  destruct nf as [n|]; [|discriminate]. cbn [attr bind] in H.
  destruct (vg_m0 p) as [m0|] eqn:E1; [|discriminate]. cbn [attr bind] in H. destruct (vg_m p) eqn:E2; [|discriminate]. cbn [attr bind] in H.
  destruct m0 as [| |m0]; try discriminate. destruct (Nat.eqb (nrow m0) _ && _)%bool; [|discriminate]. cbn [bind] in H. destruct (_ && _)%bool in H; [|discriminate]. cbn [bind] in H.
  destruct (vg_b0 p) eqn:E3; [|discriminate]. cbn [attr bind] in H. destruct (vg_b p) eqn:E4; [|discriminate]. cbn [attr bind] in H.
  apply bind_inv in H as ([] & _ & H). apply bind_inv in H as ([] & _ & H).
  destruct (vg_d0 p) eqn:E5; [|discriminate]. cbn [attr bind] in H. destruct (vg_d p) eqn:E6; [|discriminate]. cbn [attr bind] in H.
  destruct (dof_shape_ok (vg_type p) (c_nc c) d) eqn:D0; [|discriminate]. cbn [bind] in H. apply bind_inv in H as ([] & _ & H).
  destruct (vg_s0 p) eqn:E7; [|discriminate]. cbn [attr bind] in H. destruct (vg_s p) eqn:E8; [|discriminate]. cbn [attr bind] in H.
  destruct (cov_shape_ok (vg_type p) (c_nc c) n c0) eqn:S0; [|discriminate]. cbn [bind] in H. apply bind_inv in H as ([] & _ & H). injection H as <- <-.
  rewrite E0, E1, E2, E3, E4, E5, E7. split; [reflexivity|]. split; [eauto|]. split; [discriminate|]. split; [discriminate|]. split; [discriminate|]. split; [eauto|].
  exists n, c0. auto.
Qed.
Lemma type_cases ty : is_type covariance_types ty = true -> ty = "spherical"%string \/ ty = "tied"%string \/ ty = "diag"%string \/ ty = "full"%string.
Proof. unfold is_type, covariance_types. cbn [existsb]. rewrite !Bool.orb_true_iff, !String.eqb_eq. intuition congruence. Qed.
Lemma vg_scale_total fp ty nc nf n b0 m0 b m d0 s0 st : is_type covariance_types ty = true -> dof_shape_ok ty nc d0 = true -> cov_shape_ok ty nc n s0 = true ->
  exists r, vg_scale_upd fp ty nc nf b0 m0 b m d0 s0 st = Ok r.
Proof.
  intros Ht Hd Hs. apply type_cases in Ht. unfold vg_scale_upd.
  destruct Ht as [->|[->|[->| ->]]]; cbn in Hd, Hs |- *; destruct d0; try discriminate; destruct s0; try discriminate; cbn [vec_of num_of cv1 cv2 cv3 bind]; eauto.
Qed.
Lemma vg_mstep_total la fp c nf p st : vg_ready c nf p -> exists p', ec_mstep (vc_em (vgaussian la)) fp c nf p st = Ok p'.
Proof.
  intros (H0 & (m0 & H1) & H2 & H3 & H4 & (d & H5 & H6) & n & s & H7 & H8 & H9). cbn [ec_mstep vc_em vgaussian]. unfold vg_mstep. rewrite H0, H1, H5, H8.
  destruct (vg_b0 p) as [b0|]; [|contradiction]. destruct (vg_b p) as [b|]; [|contradiction]. destruct (vg_m p) as [m|]; [|contradiction]. cbn [attr bind as_mat].
  destruct (has "m" _); cbn [bind].
  - destruct (vg_means_upd fp c b0 m0 st) as [b1 m1]. cbn [bind]. destruct (has "c" _); cbn [andb bind attr]; [|eauto].
    destruct (vg_scale_total fp (vg_type p) (c_nc c) (match nf with Some n => n | None => 0%nat end) n b0 m0 b1 m1 d s st H0 H6 H9) as ([[d' s'] cv'] & ->). cbn [bind]. eauto.
  - destruct (has "c" _); cbn [andb bind attr]; [|eauto].
    destruct (vg_scale_total fp (vg_type p) (c_nc c) (match nf with Some n => n | None => 0%nat end) n b0 m0 b m d s st H0 H6 H9) as ([[d' s'] cv'] & ->). cbn [bind]. eauto.
Qed.
Lemma vg_mstep_keeps la fp c nf p st p' : vg_ready c nf p -> ec_mstep (vc_em (vgaussian la)) fp c nf p st = Ok p' -> vg_ready c nf p'.
Proof.
  intros (H0 & H1 & H2 & H3 & H4 & H5 & H6). cbn [ec_mstep vc_em vgaussian]. unfold vg_mstep. intros H. apply bind_inv in H as ([b m] & Hb & H).
  apply bind_inv in H as ([[d s] cv] & _ & H). injection H as <-. unfold vg_ready. cbn [vg_type vg_m0 vg_b0 vg_b vg_m vg_d0 vg_s0].
  split; [exact H0|]. split; [exact H1|]. split; [exact H2|].
  assert (K : b <> None /\ m <> None).
  { destruct (has "m" _); [|injection Hb as <- <-; auto]. repeat (apply bind_inv in Hb as (? & _ & Hb)). destruct (vg_means_upd _ _ _ _ _). injection Hb as <- <-. split; discriminate. }
  destruct K as [K1 K2]. auto.
Qed.
Lemma C81_vgaussian_l {G} la (gr : grng G) (rg : rng G) fp :
  vinterrupted (vgaussian la) (vg_initc gr) (vg_left gr) rg fp (fun n e' ek => e' = vbuilt n ek).
Proof.
  intros n e glob x ls e' glob' ex r HR H0.
  destruct (vrun_stops (vgaussian la) (vg_initc gr) (vg_left gr) rg fp (vg_vblind la fp) ltac:(reflexivity) ltac:(reflexivity) ltac:(reflexivity) vg_ready
              (vg_check_ready fp) (vg_mstep_keeps la fp) ltac:(intros c nf p p' Hp Q; injection Q as <-; exact Hp) (vg_mstep_total la fp) n e glob x ls e' glob' ex r HR H0)
    as (k & ek & ev & Hk & Hf & (Hs1 & Hs2) & Hm).
  exists k, ek, ev. split; [exact Hk|]. split; [exact Hf|]. split; [|exact Hm]. destruct e' as [v' r'], ek as [vk rk]. cbn [ve_rs ve_v vbuilt] in *. subst r'.
  destruct Hs2 as [->|(p & Hp & ->)]; [reflexivity|]. injection Hp as <-. reflexivity.
Qed.
Lemma C81_voutcome_l {P X St G} (V : vclass P X St) (I : vinitclass P X G) (L : vleftclass P X G) (rg : rng G) fp e glob x ls :
  match vfit_run V I L rg fp e glob x ls with
  | VReturned e1 g1 ev => vfit V I rg fp e glob x ls = Ok (e1, g1, ev)
  | VRaised _ _ ex => vfit V I rg fp e glob x ls = Err ex
  end.
Proof. exact (vfit_run_fit V I L rg fp e glob x ls). Qed.
(** Wrong lengths. *)
Definition vrestarted {P X St G} (V : vclass P X St) (I : vinitclass P X G) (L : vleftclass P X G) (rg : rng G) (fp : fpmode)
    (as_left : nat -> vest P G -> vest P G -> Prop) : Prop :=
  forall n e glob x l e0 glob0 ev0, fold_left Z.add l 0%Z <> Z.of_nat (length x) -> (0 < n)%nat ->
  vfit V I rg fp (vbuilt 0 e) glob x (Some l) = Ok (e0, glob0, ev0) ->
  exists e' ex, vfit_run V I L rg fp (vbuilt n e) glob x (Some l) = VRaised e' glob0 ex /\ as_left n e' e0.
Lemma C81_vcategorical_lengths_l {G} (rg : rng G) fp : vrestarted vcategorical vcat_initc vcat_left rg fp (vcat_left_as fp).
Proof.
  intros n e glob x l e0 glob0 ev0 Hl Hn H.
  destruct (vrun_lengths vcategorical vcat_initc vcat_left rg fp (vcat_vblind fp) ltac:(reflexivity) ltac:(reflexivity) ltac:(reflexivity) vk_set
              (fun c nf p nf' p' H => proj1 (vk_check fp c nf p nf' p' H)) (vk_mstep_keeps fp) (vk_begin_keeps fp) (vk_mstep_total fp) n e glob x l e0 glob0 ev0 Hl Hn H)
      as (e' & ex & HR & Hs). exists e', ex. split; [exact HR|apply vcat_stopped; exact Hs].
Qed.
Lemma C81_vgaussian_lengths_l {G} la (gr : grng G) (rg : rng G) fp :
  vrestarted (vgaussian la) (vg_initc gr) (vg_left gr) rg fp (fun n e' ek => e' = vbuilt n ek).
Proof.
  intros n e glob x l e0 glob0 ev0 Hl Hn H.
  destruct (vrun_lengths (vgaussian la) (vg_initc gr) (vg_left gr) rg fp (vg_vblind la fp) ltac:(reflexivity) ltac:(reflexivity) ltac:(reflexivity) vg_ready
              (vg_check_ready fp) (vg_mstep_keeps la fp) ltac:(intros c nf p p' Hp Q; injection Q as <-; exact Hp) (vg_mstep_total la fp) n e glob x l e0 glob0 ev0 Hl Hn H)
      as (e' & ex & HR & (Hs1 & Hs2)). exists e', ex. split; [exact HR|]. destruct e' as [v' r'], e0 as [vk rk]. cbn [ve_rs ve_v vbuilt] in *. subst r'.
    destruct Hs2 as [->|(p & Hp & ->)]; [reflexivity|]. injection Hp as <-. reflexivity.
Qed.
(** Rejected data. *)
Definition vuntouched {P X St G} (V : vclass P X St) (I : vinitclass P X G) (L : vleftclass P X G) (rg : rng G) (fp : fpmode)
    (bad : vest P G -> list X -> Prop) : Prop :=
  forall e glob x ls, x = [] \/ (exists r, In r x /\ ec_xok (vc_em V) r = false) \/ bad e x ->
  exists ex, vfit_run V I L rg fp e glob x ls = VRaised e glob ex.
Lemma vuntouched_l {P X St G} (V : vclass P X St) (I : vinitclass P X G) (L : vleftclass P X G) (rg : rng G) fp (bad : vest P G -> list X -> Prop) :
  (forall e x, bad e x -> x <> [] -> exists ex, vi_nfeat I (v_cfg (ve_v e)) (h_nfeat (v_h (ve_v e))) (h_em (v_h (ve_v e))) x = Err ex) ->
  vuntouched V I L rg fp bad.
Proof.
  intros Hb e glob x ls H. unfold vfit_run. destruct (check_array (ec_xok (vc_em V)) x) as [y|ex] eqn:Ey; [|eauto].
  assert (Hy : x <> [] /\ y = x /\ forallb (ec_xok (vc_em V)) x = true).
  { unfold check_array in Ey. destruct x; [discriminate|]. destruct (forallb _ _); [|discriminate]. split; [discriminate|]. split; [congruence|reflexivity]. }
  destruct Hy as (Hne & -> & Hok). destruct H as [->|[(r & Hr & Hx)|H]]; [contradiction| |].
  - rewrite forallb_forall in Hok. rewrite (Hok r Hr) in Hx. discriminate.
  - destruct (Hb e x H Hne) as (ex & Hex). unfold vinit_run, vbase_init_run. unfold v_cfg in Hex. rewrite Hex. eauto.
Qed.
Definition vwrong_width {P A G} (e : vest P G) (x : list (list A)) : Prop :=
  match h_nfeat (v_h (ve_v e)), x with Some n, r :: _ => length r <> n | _, _ => False end.
Definition vwrong_symbol {P G} (e : vest P G) (x : list Z) : Prop :=
  exists s, In s x /\ ((s < 0)%Z \/ exists n, h_nfeat (v_h (ve_v e)) = Some n /\ (Z.of_nat n <= s)%Z).
Lemma C81_vcategorical_untouched_l {G} (rg : rng G) fp : vuntouched vcategorical vcat_initc vcat_left rg fp vwrong_symbol.
Proof.
  apply vuntouched_l.
  intros e x (s & Hs & Hbad) _. cbn [vi_nfeat vcat_initc]. unfold vcat_nfeat, cat_nfeat. pose proof (zmax_ge _ _ Hs). pose proof (zmin_le _ _ Hs).
    destruct (Z.ltb_spec (zmin x) 0); [eexists; reflexivity|]. destruct Hbad as [Hbad|(n & Hn & Hbad)]; [lia|]. rewrite Hn.
    destruct (Z.ltb_spec (Z.of_nat n - 1) (zmax x)); [eexists; reflexivity|lia].
Qed.
Lemma C81_vgaussian_untouched_l {G} la (gr : grng G) (rg : rng G) fp : vuntouched (vgaussian la) (vg_initc gr) (vg_left gr) rg fp vwrong_width.
Proof.
  apply vuntouched_l.
  intros e x Hw _. unfold vwrong_width in Hw. cbn [vi_nfeat vg_initc]. unfold vg_nfeat, set_n_features, width. destruct (h_nfeat (v_h (ve_v e))) as [n|]; [|contradiction].
    destruct x as [|r x]; [contradiction|]. destruct (Nat.eqb_spec n (length r)); [congruence|eexists; reflexivity].
Qed.

(** ** The arguments of the constructor. *)
Section Vkept.
  Context {P X St G W : Type} (V : vclass P X St) (I : vinitclass P X G) (L : vleftclass P X G) (rg : rng G) (fp : fpmode).
  Variable F : P -> W.
  Hypothesis Hn : forall c nf p x nf' p', vi_nfeat I c nf p x = Ok (nf', p') -> F p' = F p.
  Hypothesis He : forall c nf p x l rs g p' rs' g' ev, vi_em I fp rg c nf p x l rs g = Ok (p', rs', g', ev) -> F p' = F p /\ same_random_state rs rs'.
  Hypothesis Le : forall c nf p x l rs g p' rs' g', vl_em L fp rg c nf p x l rs g = (p', rs', g') -> F p' = F p /\ same_random_state rs rs'.
  Hypothesis Hc : forall c nf p nf' p', ec_check (vc_em V) fp c nf p = Ok (nf', p') -> F p' = F p.
  Hypothesis Lc : forall c nf p, F (snd (vl_check L fp c nf p)) = F p.
  Hypothesis Hb : forall c nf p p', vc_begin V fp c nf p = Ok p' -> F p' = F p.
  Hypothesis Hm : forall c nf p st p', ec_mstep (vc_em V) fp c nf p st = Ok p' -> F p' = F p.

  Definition vkept_h (v v' : vhmm P) : Prop :=
    v_cfg v' = v_cfg v /\ v_sarg v' = v_sarg v /\ v_targ v' = v_targ v /\ F (h_em (v_h v')) = F (h_em (v_h v)).
  Definition vkept (e e' : vest P G) : Prop := vkept_h (ve_v e) (ve_v e') /\ same_random_state (ve_rs e) (ve_rs e').
  Definition vends (o : voutcome P G) (e : vest P G) : Prop :=
    match o with VReturned e' _ _ => vkept e e' | VRaised e' _ _ => vkept e e' end.
  Lemma vkept_h_refl v : vkept_h v v. Proof. repeat split. Qed.
  Lemma vkept_h_trans a b c : vkept_h a b -> vkept_h b c -> vkept_h a c.
  Proof. intros (A1 & A2 & A3 & A4) (B1 & B2 & B3 & B4). repeat split; congruence. Qed.
  Lemma vkept_refl e : vkept e e. Proof. split; [apply vkept_h_refl|apply same_rs_refl]. Qed.
  Ltac kp := unfold vends, vkept, vkept_h, vwith, v_cfg; cbn [ve_v ve_rs v_h h_cfg h_em v_sarg v_targ];
             repeat split; auto using same_rs_refl; try (eapply same_rs_put; eassumption).

  Lemma vbase_init_run_kept e glob x l : vends (vbase_init_run I rg fp e glob x l) e.
  Proof.
    unfold vbase_init_run. set (c := h_cfg (v_h (ve_v e))). destruct (vi_nfeat I c _ _ x) as [[nf p]|ex] eqn:En; [|apply vkept_refl]. apply Hn in En.
    destruct (Nat.eqb (c_nc c) 0); [kp|]. destruct (rs_get rg (ve_rs e) glob) as [g|ex]; [|kp].
    destruct (needs_init2 c "s" _ _ _ _) as [ns ev1]. destruct (if ns then _ else _) as [sp|ex]; [|kp].
    destruct (if ns then _ else _) as [[sq g1]|ex]; [|kp].
    destruct (needs_init2 c "t" _ _ _ _) as [nt ev2].
    destruct (if nt then _ else _) as [tp|ex].
    2:{ destruct (rs_put (ve_rs e) glob g1) eqn:Ep. kp. }
    destruct (if nt then _ else _) as [[tq g2]|ex].
    2:{ destruct (rs_put (ve_rs e) glob g1) eqn:Ep. kp. }
    destruct (rs_put (ve_rs e) glob g2) eqn:Ep. destruct (bind _ _); kp.
  Qed.
  Lemma vinit_run_kept e glob x l : vends (vinit_run I L rg fp e glob x l) e.
  Proof.
    unfold vinit_run. pose proof (vbase_init_run_kept e glob x l) as B. destruct (vbase_init_run I rg fp e glob x l) as [e1 g1 ev1|e1 g1 ex]; [|exact B].
    destruct B as (B1 & B2).
    destruct (vi_em I fp rg _ _ _ x l _ g1) as [[[[p rs] g2] ev2]|ex] eqn:Ee.
    - apply He in Ee as (E1 & E2). split; [|apply (same_rs_trans _ _ _ B2 E2)]. apply (vkept_h_trans _ _ _ B1). repeat split. exact E1.
    - destruct (vl_em L fp rg _ _ _ x l _ g1) as [[p rs] g2] eqn:El. apply Le in El as (E1 & E2).
      split; [|apply (same_rs_trans _ _ _ B2 E2)]. apply (vkept_h_trans _ _ _ B1). repeat split. exact E1.
  Qed.
  Lemma vmstep_left_kept v st : vkept_h v (vmstep_left (St := St) fp v st).
  Proof.
    unfold vmstep_left. destruct (if has "s" _ then _ else _) as [[sq s]|]; [|apply vkept_h_refl].
    destruct (if has "t" _ then _ else _) as [tq t]. repeat split.
  Qed.
  Lemma vstep_left_kept x ls v : vkept_h v (vstep_left V fp x ls v).
  Proof.
    unfold vstep_left. destruct (v_spost v); [|apply vkept_h_refl]. destruct (v_tpost v); [|apply vkept_h_refl].
    destruct (vc_begin V fp _ _ _) as [p|] eqn:Eb; [|apply vkept_h_refl]. apply Hb in Eb.
    assert (K : vkept_h v (with_h v (set_em (v_h v) (h_nfeat (v_h v)) p))) by (repeat split; exact Eb).
    destruct (vestep V fp x ls v) as [[[? st] lp]|]; [|exact K]. destruct (vlower_bound _ _ _ _); [|exact K].
    apply (vkept_h_trans _ _ _ K). apply vmstep_left_kept.
  Qed.
  Lemma vb_step_kept x ls v v' lb : vb_step V fp x ls v = Ok (v', lb) -> vkept_h v v'.
  Proof.
    intros H. destruct (vb_step_args V fp F Hm Hb x ls v v' lb H) as (A1 & A2 & A3 & _ & A4). repeat split; assumption.
  Qed.
  Lemma vloop_run_kept x ls n : forall v m v2 m2 r, vloop_run V fp x ls n v m = (v2, m2, r) -> vkept_h v v2.
  Proof.
    induction n as [|n IH]; intros v m v2 m2 r H; cbn [vloop_run] in H.
    - injection H as <- _ _. apply vkept_h_refl.
    - destruct (vb_step V fp x ls v) as [[v' lb]|ex'] eqn:Es; [|injection H as <- _ _; apply vstep_left_kept].
      apply vb_step_kept in Es. destruct (monitor_report fp m lb) as [m' ev]. destruct (converged fp m'); [injection H as <- _ _; exact Es|].
      destruct (vzero_rows fp v'); [|injection H as <- _ _; exact Es].
      destruct (vloop_run V fp x ls n v' m') as [[v3 m3] r3] eqn:El. injection H as <- _ _. apply (vkept_h_trans _ _ _ Es (IH _ _ _ _ _ El)).
  Qed.
  Lemma vfit_run_kept e glob x ls : vends (vfit_run V I L rg fp e glob x ls) e.
  Proof.
    unfold vfit_run. destruct (check_array _ x) as [y|]; [|apply vkept_refl]. set (l := match ls with None => _ | Some l => l end). clearbody l.
    pose proof (vinit_run_kept e glob y l) as B. destruct (vinit_run I L rg fp e glob y l) as [e1 g1 ev1|e1 g1 ex]; [|exact B].
    destruct B as (B1 & B2). destruct (vcheck V fp (ve_v e1)) as [v1|ex] eqn:Ec.
    - assert (C : vkept_h (ve_v e1) v1).
      { unfold vcheck in Ec. apply bind_inv in Ec as ([] & _ & Ec). apply bind_inv in Ec as ([nf p] & Hcc & Ec). injection Ec as <-. repeat split. apply (Hc _ _ _ _ _ Hcc). }
      destruct (vloop_run V fp y _ _ v1 _) as [[v2 m] r] eqn:El. apply vloop_run_kept in El.
      assert (K : vkept e (VEst (vmon_set v2 m) (ve_rs e1))).
      { split; [|exact B2]. apply (vkept_h_trans _ _ _ B1). apply (vkept_h_trans _ _ _ C). apply (vkept_h_trans _ _ _ El). repeat split. }
      destruct r; exact K.
    - split; [|exact B2]. apply (vkept_h_trans _ _ _ B1). cbn [ve_v]. unfold vcheck_left. destruct (if vc_super_check V then _ else _); [|apply vkept_h_refl].
      pose proof (Lc (v_cfg (ve_v e1)) (h_nfeat (v_h (ve_v e1))) (h_em (v_h (ve_v e1)))) as K. destruct (vl_check L fp _ _ _) as [nf p]. repeat split. exact K.
  Qed.
End Vkept.
Lemma C81_vcategorical_arguments_l {G} (rg : rng G) fp e glob x ls e' glob' ex :
  vfit_run vcategorical vcat_initc vcat_left rg fp e glob x ls = VRaised e' glob' ex ->
  let v := ve_v e in let v' := ve_v e' in
  v_cfg v' = v_cfg v /\ same_random_state (ve_rs e) (ve_rs e') /\ v_sarg v' = v_sarg v /\ v_targ v' = v_targ v
  /\ vk_arg (h_em (v_h v')) = vk_arg (h_em (v_h v)).
Proof.
  intros H. cbv zeta. assert (K : vends vk_arg (vfit_run vcategorical vcat_initc vcat_left rg fp e glob x ls) e).
  { apply vfit_run_kept.
    - cbn [vi_nfeat vcat_initc]. unfold vcat_nfeat. intros c nf p y nf' p' E0. apply bind_inv in E0 as ([a b] & _ & E0). injection E0 as _ <-. reflexivity.
    - cbn [vi_em vcat_initc]. intros c nf p y l rs g p' rs' g' v E0. split; [|apply (vcat_rs _ _ _ _ _ _ _ _ _ _ _ _ _ E0)]. unfold vcat_init_em in E0.
      apply bind_inv in E0 as (g0 & _ & E0). destruct (needs_init c "e" _ _) as [[] w]; [|injection E0 as <- _ _ _; reflexivity].
      destruct (Nat.eqb _ 0); [discriminate|]. apply bind_inv in E0 as (pr & _ & E0). apply bind_inv in E0 as (a0 & _ & E0).
      apply bind_inv in E0 as ([q g1] & _ & E0). destruct (rs_put rs g g1). injection E0 as <- _ _ _. reflexivity.
    - cbn [vl_em vcat_left]. intros c nf p y l rs g p' rs' g' E0. destruct (rs_get _ _ _); [|injection E0 as <- <- _; split; [reflexivity|apply same_rs_refl]].
      destruct (_ && _)%bool; [|injection E0 as <- <- _; split; [reflexivity|apply same_rs_refl]].
      destruct (full2 _ _ _); injection E0 as <- <- _; (split; [reflexivity|apply same_rs_refl]).
    - cbn [ec_check vc_em vcategorical]. unfold vcat_check. intros c nf p nf' p' E0.
      apply bind_inv in E0 as (pr & _ & E0). apply bind_inv in E0 as (po & _ & E0). destruct (negb _); [discriminate|].
      destruct (negb _); [discriminate|]. injection E0 as _ <-. reflexivity.
    - cbn [vl_check vcat_left]. intros c nf p. destruct (vk_prior p); [|reflexivity]. destruct (vk_post p); [|reflexivity]. destruct (_ && _)%bool; reflexivity.
    - cbn [vc_begin vcategorical]. unfold vcat_begin. intros c nf p p' E0. apply bind_inv in E0 as (pr & _ & E0). injection E0 as <-. reflexivity.
    - cbn [ec_mstep vc_em vcategorical]. unfold vcat_mstep. intros c nf p st p' E0. destruct (has "e" _); [|injection E0 as <-; reflexivity].
      apply bind_inv in E0 as (pr & _ & E0). injection E0 as <-. reflexivity. }
  rewrite H in K. destruct K as ((K1 & K2 & K3 & K4) & K5). auto.
Qed.
Lemma vg_left_args {G} (gr : grng G) fp (rg : rng G) c nf p x l rs g p' rs' g' :
  vl_em (vg_left gr) fp rg c nf p x l rs g = (p', rs', g') -> vg_args p' = vg_args p /\ same_random_state rs rs'.
Proof.
  cbn [vl_em vg_left]. destruct (kmeans gr rg _ x rs g) as [[[[lb cs] rs1] g1]|] eqn:Ek; [|intros Q; injection Q as <- <- _; split; [reflexivity|apply same_rs_refl]].
  assert (Hr : same_random_state rs rs1). { destruct (kmeans_inv _ _ _ _ _ _ _ _ _ _ Ek) as (a & a' & _ & _ & Ep). apply (same_rs_put _ _ _ _ _ Ep). }
  destruct (if fst (needs_any c "m" _) then _ else _) as [[[m0 m] b0] b].
  destruct (fst (needs_any c "c" _)); [|intros Q; injection Q as <- <- _; split; [reflexivity|exact Hr]].
  destruct (if String.eqb _ _ then _ else _) as [d0 d].
  destruct (bind _ _); intros Q; injection Q as <- <- _; (split; [reflexivity|exact Hr]).
Qed.
Lemma C81_vgaussian_arguments_l {G} la (gr : grng G) (rg : rng G) fp e glob x ls e' glob' ex :
  vfit_run (vgaussian la) (vg_initc gr) (vg_left gr) rg fp e glob x ls = VRaised e' glob' ex ->
  let v := ve_v e in let v' := ve_v e' in let p := h_em (v_h v) in let p' := h_em (v_h v') in
  v_cfg v' = v_cfg v /\ same_random_state (ve_rs e) (ve_rs e') /\ v_sarg v' = v_sarg v /\ v_targ v' = v_targ v
  /\ vg_type p' = vg_type p /\ vg_marg p' = vg_marg p /\ vg_barg p' = vg_barg p /\ vg_darg p' = vg_darg p /\ vg_sarg p' = vg_sarg p.
Proof.
  intros H. cbv zeta. assert (K : vends vg_args (vfit_run (vgaussian la) (vg_initc gr) (vg_left gr) rg fp e glob x ls) e).
  { apply vfit_run_kept.
    - cbn [vi_nfeat vg_initc]. unfold vg_nfeat. intros c nf p y nf' p' E0. apply bind_inv in E0 as (a & _ & E0). injection E0 as _ <-. reflexivity.
    - intros c nf p y l rs g p' rs' g' v E0. apply (vg_args_init gr fp rg c nf p y l rs g p' rs' g' v E0).
    - intros c nf p y l rs g p' rs' g'. apply vg_left_args.
    - cbn [ec_check vc_em vgaussian]. unfold vg_check. intros c nf p nf' p' E0. repeat (apply bind_inv in E0 as (? & _ & E0)). injection E0 as _ <-. reflexivity.
    - reflexivity.
    - cbn [vc_begin vgaussian]. intros c nf p p' E0. injection E0 as <-. reflexivity.
    - cbn [ec_mstep vc_em vgaussian]. unfold vg_mstep. intros c nf p st p' E0.
      apply bind_inv in E0 as ([b m] & _ & E0). apply bind_inv in E0 as ([[d s] cv] & _ & E0). injection E0 as <-. reflexivity. }
  rewrite H in K. destruct K as ((K1 & K2 & K3 & K4) & K5). unfold vg_args in K4. injection K4 as -> -> -> -> ->. auto 10.
Qed.
