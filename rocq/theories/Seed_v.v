(** * Property lemmas C29, C59: variational classes, initialisation of a second
    [fit] and training without initialisation. *)
From Verif Require Export Hyper_thms Noinit_thms Vg_ex Interrupt_thms Warm_vex.

Section Again.
  Context {P X G : Type} (I : vinitclass P X G) (rg : rng G) (fp : fpmode).
  (** The part of [_init] common to both classes, repeated on an estimator with the
      same arguments and an integer [random_state]. *)
  Lemma vbase_again k e glob x l ea ga va e1 glob2 :
    let c := v_cfg (ve_v e) in
    ve_rs e = RSSeed k -> ve_rs e1 = RSSeed k -> has "s" (c_init_params c) = true -> has "t" (c_init_params c) = true ->
    v_cfg (ve_v e1) = c -> v_sarg (ve_v e1) = v_sarg (ve_v e) -> v_targ (ve_v e1) = v_targ (ve_v e) ->
    vbase_init I rg fp e glob x l = Ok (ea, ga, va) ->
    vi_nfeat I c (h_nfeat (v_h (ve_v e1))) (h_em (v_h (ve_v e1))) x = Ok (h_nfeat (v_h (ve_v ea)), h_em (v_h (ve_v e1))) ->
    vi_nfit I c (h_nfeat (v_h (ve_v ea))) (h_em (v_h (ve_v e1))) = vi_nfit I c (h_nfeat (v_h (ve_v ea))) (h_em (v_h (ve_v ea))) ->
    ga = glob /\ ve_rs ea = RSSeed k /\ exists eb vb, vbase_init I rg fp e1 glob2 x l = Ok (eb, glob2, vb) /\ ve_rs eb = RSSeed k
    /\ v_cfg (ve_v eb) = c /\ h_nfeat (v_h (ve_v eb)) = h_nfeat (v_h (ve_v ea)) /\ h_em (v_h (ve_v eb)) = h_em (v_h (ve_v e1))
    /\ v_sprior (ve_v eb) = v_sprior (ve_v ea) /\ v_spost (ve_v eb) = v_spost (ve_v ea)
    /\ v_tprior (ve_v eb) = v_tprior (ve_v ea) /\ v_tpost (ve_v eb) = v_tpost (ve_v ea).
  Proof.
    cbv zeta. intros R0 R1 Hs Ht Hc Ha Hb H Hn Hf. unfold vbase_init in H |- *. unfold v_cfg in *. rewrite Hc, R1, Ha, Hb, Hn. cbn [bind]. rewrite R0 in H.
    apply bind_inv in H as ([nf p] & Hn0 & H). destruct (Nat.eqb _ 0); [discriminate|]. cbn [rs_get] in *. apply bind_inv in H as (g & -> & H). cbn [bind].
    unfold needs_init2, needs_init in *. rewrite Hs, Ht in *.
    apply bind_inv in H as ([[sp sq] g1] & H1 & H). apply bind_inv in H as ([[tp tq] g2] & H2 & H). cbn [rs_put] in H.
    apply bind_inv in H as (d & Hd & H). apply bind_inv in H as (n & Hk & H). injection H as <- <- _.
    cbn [ve_v ve_rs v_h v_sprior v_spost v_tprior v_tpost h_cfg h_nfeat h_em] in *. rewrite H1. cbn [bind]. rewrite H2. cbn [bind rs_put]. rewrite Hf, Hd. cbn [bind]. rewrite Hk. cbn [bind].
    split; [reflexivity|]. split; [reflexivity|]. do 2 eexists. split; [reflexivity|]. repeat split.
  Qed.
End Again.
(** The start values. *)
Definition same_vpriors {P G} (a b : vest P G) : Prop :=
  v_sprior (ve_v a) = v_sprior (ve_v b) /\ v_spost (ve_v a) = v_spost (ve_v b) /\ v_tprior (ve_v a) = v_tprior (ve_v b) /\ v_tpost (ve_v a) = v_tpost (ve_v b).
Lemma vcat_rs {G} fp (rg : rng G) c nf p y l rs g p' rs' g' v : vcat_init_em fp rg c nf p y l rs g = Ok (p', rs', g', v) -> same_random_state rs rs'.
Proof.
  unfold vcat_init_em. intros E0. apply bind_inv in E0 as (g0 & _ & E0). destruct (needs_init c "e" _ _) as [[] w]; [|injection E0 as _ <- _ _; apply same_rs_refl].
  destruct (Nat.eqb _ 0); [discriminate|]. apply bind_inv in E0 as (pr & _ & E0). apply bind_inv in E0 as (a0 & _ & E0).
  apply bind_inv in E0 as ([q g1] & _ & E0). destruct (rs_put rs g g1) as [r1 gl1] eqn:Ep. injection E0 as _ <- _ _. apply (same_rs_put _ _ _ _ _ Ep).
Qed.
Lemma C29_vcategorical_l {G} (rg : rng G) fp e k glob x ls e1 glob1 ev1 glob2 :
  let ip := c_init_params (v_cfg (ve_v e)) in let l := match ls with None => [Z.of_nat (length x)] | Some l => l end in
  ve_rs e = RSSeed k -> has "s" ip = true -> has "t" ip = true -> has "e" ip = true ->
  vfit vcategorical vcat_initc rg fp e glob x ls = Ok (e1, glob1, ev1) ->
  exists ea eb va vb, vinit vcat_initc rg fp e glob x l = Ok (ea, glob, va) /\ vinit vcat_initc rg fp e1 glob2 x l = Ok (eb, glob2, vb)
    /\ same_vpriors ea eb /\ vk_prior (h_em (v_h (ve_v ea))) = vk_prior (h_em (v_h (ve_v eb))) /\ vk_post (h_em (v_h (ve_v ea))) = vk_post (h_em (v_h (ve_v eb))).
Proof.
  cbv zeta. intros Hk Hs Ht He H. pose proof (C79_vcategorical_partial_l _ _ _ _ _ _ _ _ _ H) as (A1 & A2 & A3 & A4 & A5 & _).
  rewrite Hk in A2. cbn [same_random_state] in A2.
  destruct (vfit_args vcategorical vcat_initc rg fp (fun _ => tt)) with (7 := H) as (_ & _ & _ & _ & _ & nf1 & p1 & p2 & p3 & Hn & Hc); try reflexivity.
  { intros c nf p y l rs g p' rs' g' v. apply vcat_rs. }
  destruct (vfit_inv _ _ _ _ _ _ _ _ _ _ _ H) as (ei & w1 & w2 & Hi & _ & _). set (l := match ls with None => _ | Some l => l end) in *. clearbody l.
  destruct (vinit_inv _ _ _ _ _ _ _ _ _ _ Hi) as (ea & ga & va & p & rs' & va2 & Hb & Hem & Hv & _).
  destruct (vbase_init_inv _ _ _ _ _ _ _ _ _ _ Hb) as (B1 & _ & _ & B4 & _).
  assert (Hn' : exists n, h_nfeat (v_h (ve_v ea)) = Some n /\ h_nfeat (v_h (ve_v e1)) = Some n
            /\ vcat_nfeat (v_cfg (ve_v e)) (Some n) (h_em (v_h (ve_v e1))) x = Ok (Some n, h_em (v_h (ve_v e1)))).
  { rewrite B4 in Hn. injection Hn as E1 _. revert B4 Hc. rewrite <- E1. cbn [vi_nfeat vcat_initc ec_check vc_em vcategorical]. unfold vcat_nfeat, cat_nfeat, vcat_check. intros B4 Hc.
    apply bind_inv in B4 as ([nf q] & B4 & E2). injection E2 as E2 _. rewrite <- E2 in *. clear E2. destruct (Z.ltb (zmin x) 0) eqn:Ez; [discriminate|].
    assert (K : exists n, nf = Some n /\ (Z.of_nat n - 1 <? zmax x)%Z = false).
    { destruct (h_nfeat (v_h (ve_v e))) as [n|].
      - destruct (Z.ltb (Z.of_nat n - 1) (zmax x)) eqn:E3; [discriminate|]. injection B4 as <- _. eauto.
      - injection B4 as <- _. eexists. split; [reflexivity|]. apply Z.ltb_ge. lia. }
    destruct K as (n & -> & K). exists n. split; [reflexivity|]. rewrite K. cbn [bind]. split; [|reflexivity].
    apply bind_inv in Hc as (pr & _ & Hc). apply bind_inv in Hc as (po & _ & Hc). destruct (negb _); [discriminate|]. destruct (negb _); [discriminate|]. injection Hc as <- _. reflexivity. }
  destruct Hn' as (n & N1 & N2 & N3).
  destruct (vbase_again vcat_initc rg fp k e glob x l ea ga va e1 glob2 Hk A2 Hs Ht A1 A3 A4 Hb) as (-> & Rs & eb & vb & Hb2 & Rb & C1 & C2 & C3 & C4 & C5 & C6 & C7).
  { rewrite N1, N2. exact N3. } { reflexivity. }
  exists (VEst (ve_v ei) (ve_rs ei)). destruct ei as [vi ri]. cbn [ve_v ve_rs] in *.
  assert (Harg : vk_arg (h_em (v_h (ve_v ea))) = vk_arg (h_em (v_h (ve_v eb)))).
  { rewrite C3, A5. cbn [vi_nfeat vcat_initc] in B4. unfold vcat_nfeat in B4. apply bind_inv in B4 as ([a b] & _ & B4). injection B4 as _ ->. reflexivity. }
  unfold vinit. rewrite Hb2. cbn [bind vi_em vcat_initc]. fold (v_cfg (ve_v eb)). rewrite C1, C2, Rb. cbn [vi_em vcat_initc] in Hem. rewrite Rs in Hem.
  unfold vcat_init_em in Hem |- *. unfold needs_init in Hem |- *. rewrite He in *. cbn [rs_get] in *.
  apply bind_inv in Hem as (g & Eg & Hem). rewrite Eg. cbn [bind]. rewrite N1 in *. rewrite <- Harg. destruct (Nat.eqb n 0) eqn:En; [discriminate|].
  apply bind_inv in Hem as (pr & E1 & Hem). rewrite E1. cbn [bind]. apply bind_inv in Hem as (a0 & E2 & Hem). rewrite E2. cbn [bind].
  apply bind_inv in Hem as ([q g1] & E3 & Hem). rewrite E3. cbn [bind rs_put] in *. injection Hem as <- <- <- _.
  do 3 eexists. split; [|split; [reflexivity|]].
  - unfold vinit in Hi. exact Hi.
  - unfold same_vpriors. rewrite Hv. unfold with_h, set_em. cbn [ve_v v_h h_em vk_prior vk_post v_sprior v_spost v_tprior v_tpost]. repeat split; congruence.
Qed.

Definition same_vg_start (p q : vgp) : Prop :=
  vg_m0 p = vg_m0 q /\ vg_m p = vg_m q /\ vg_b0 p = vg_b0 q /\ vg_b p = vg_b q
  /\ vg_d0 p = vg_d0 q /\ vg_d p = vg_d q /\ vg_s0 p = vg_s0 q /\ vg_s p = vg_s q.
Lemma C29_vgaussian_l {G} la (gr : grng G) (rg : rng G) fp e k glob x ls e1 glob1 ev1 glob2 :
  let ip := c_init_params (v_cfg (ve_v e)) in let l := match ls with None => [Z.of_nat (length x)] | Some l => l end in
  ve_rs e = RSSeed k -> has "s" ip = true -> has "t" ip = true -> has "m" ip = true -> has "c" ip = true ->
  vfit (vgaussian la) (vg_initc gr) rg fp e glob x ls = Ok (e1, glob1, ev1) ->
  exists ea eb va vb, vinit (vg_initc gr) rg fp e glob x l = Ok (ea, glob, va) /\ vinit (vg_initc gr) rg fp e1 glob2 x l = Ok (eb, glob2, vb)
    /\ same_vpriors ea eb /\ same_vg_start (h_em (v_h (ve_v ea))) (h_em (v_h (ve_v eb))).
Proof.
  cbv zeta. intros Hk Hs Ht Hm Hcc H. pose proof (C79_vgaussian_l _ _ _ _ _ _ _ _ _ _ _ H) as (A1 & A2 & A3 & A4 & T1 & T2 & T3 & T4 & T5).
  rewrite Hk in A2. cbn [same_random_state] in A2.
  destruct (vfit_args (vgaussian la) (vg_initc gr) rg fp (fun _ => tt)) with (7 := H) as (_ & _ & _ & _ & _ & nf1 & p1 & p2 & p3 & Hn & Hc); try reflexivity.
  { intros c nf p y l rs g p' rs' g' v Hi. apply (vg_args_init gr fp rg c nf p y l rs g p' rs' g' v Hi). }
  destruct (vfit_inv _ _ _ _ _ _ _ _ _ _ _ H) as (ei & w1 & w2 & Hi & _ & _). set (l := match ls with None => _ | Some l => l end) in *. clearbody l.
  destruct (vinit_inv _ _ _ _ _ _ _ _ _ _ Hi) as (ea & ga & va & p & rs' & va2 & Hb & Hem & Hv & _).
  destruct (vbase_init_inv _ _ _ _ _ _ _ _ _ _ Hb) as (B1 & _ & _ & B4 & _).
  assert (Ep : h_em (v_h (ve_v ea)) = h_em (v_h (ve_v e))).
  { cbn [vi_nfeat vg_initc] in B4. unfold vg_nfeat in B4. apply bind_inv in B4 as (a & _ & B4). injection B4 as _ ->. reflexivity. }
  assert (Hn' : h_nfeat (v_h (ve_v ea)) = Some (width x) /\ h_nfeat (v_h (ve_v e1)) = Some (width x)).
  { rewrite B4 in Hn. injection Hn as E1 _. revert B4 Hc. rewrite <- E1. cbn [vi_nfeat vg_initc ec_check vc_em vgaussian]. unfold vg_nfeat, set_n_features. intros B4 Hc.
    apply bind_inv in B4 as (nf & B4 & E2). injection E2 as E2 _. rewrite <- E2 in *. clear E2.
    assert (nf = Some (width x)) as ->.
    { destruct (h_nfeat (v_h (ve_v e))) as [n|]; [|congruence]. destruct (Nat.eqb_spec n (width x)); [|discriminate]. congruence. }
    split; [reflexivity|]. revert Hc. unfold vg_check. intros Hc. repeat (apply bind_inv in Hc as (? & _ & Hc)). injection Hc as <- _. reflexivity. }
  destruct Hn' as (N1 & N2).
  destruct (vbase_again (vg_initc gr) rg fp k e glob x l ea ga va e1 glob2 Hk A2 Hs Ht A1 A3 A4 Hb) as (-> & Rs & eb & vb & Hb2 & Rb & C1 & C2 & C3 & C4 & C5 & C6 & C7).
  { rewrite N1, N2. cbn [vi_nfeat vg_initc]. unfold vg_nfeat, set_n_features. rewrite Nat.eqb_refl. reflexivity. }
  { cbn [vi_nfit vg_initc]. unfold vg_nfit. rewrite T1, Ep. reflexivity. }
  unfold vinit. rewrite Hb2. cbn [bind vi_em vg_initc]. fold (v_cfg (ve_v eb)). rewrite C1, C2, Rb, C3. cbn [vi_em vg_initc] in Hem. rewrite Rs, Ep in Hem.
  rewrite Hb. cbn [bind]. fold (v_cfg (ve_v ea)). rewrite B1, Ep, Rs.
  unfold vg_init_em in Hem |- *. cbn [needs_any] in Hem |- *. unfold needs_init in Hem |- *. rewrite Hm, Hcc in *. rewrite T1, T2, T3, T4, T5.
  unfold kmeans in *. cbn [rs_get] in *. rewrite N1 in *.
  destruct (r_seed rg k) as [g|]; [|discriminate]. cbn [bind] in *. destruct (gr_kmeans gr _ x g) as [[[lab cen] g3]|]; [|discriminate]. cbn [bind rs_put] in *.
  match type of Hem with bind ?d _ = _ => destruct d as [[[[[d0 d1] s0] s1] cv]|] eqn:Ed; [|discriminate] end. cbn [bind] in *.
  do 4 eexists. split; [reflexivity|]. split; [reflexivity|]. unfold with_h, set_em, same_vpriors, same_vg_start. cbn. repeat split; congruence.
Qed.

(** ** C59. *)
Definition same_vfit {P G G'} (r : res (vest P G * G * list event)) (glob : G) (r' : res (vest P G' * G' * list event)) (glob' : G') : Prop :=
  match r, r' with
  | Ok (e, g, ev), Ok (e', g', ev') => ve_v e = ve_v e' /\ ev = ev' /\ g = glob /\ g' = glob'
  | Err a, Err b => a = b
  | _, _ => False
  end.
(** No letter of [init_params] is among [l]; priors and posteriors of start and
    transition probabilities are set. *)
Definition no_vinit {P} (v : vhmm P) (l : list ascii) : Prop :=
  (forall a, In a ("s" :: "t" :: l)%char -> has a (c_init_params (v_cfg v)) = false)
  /\ v_sprior v <> None /\ v_spost v <> None /\ v_tprior v <> None /\ v_tpost v <> None.
(** What remains of the common part of [_init]. *)
Lemma vbase_init_none {P X G} (I : vinitclass P X G) (rg : rng G) fp v rs glob x l : no_vinit v [] -> valid_rs rg rs ->
  vbase_init I rg fp (VEst v rs) glob x l =
  (do (nf, p) <- vi_nfeat I (v_cfg v) (h_nfeat (v_h v)) (h_em (v_h v)) x;
   if Nat.eqb (c_nc (v_cfg v)) 0 then Err ZeroDivisionError else
   do d <- vi_nfit I (v_cfg v) nf p; do n <- dict_sum d (c_params (v_cfg v));
   Ok (VEst (with_h v (set_em (v_h v) nf p)) rs, glob, if Z.ltb (Z.of_nat (length x * vi_width I x)) n then [WDegenerate] else [])).
Proof.
  intros (Hl & H1 & H2 & H3 & H4) Hv. unfold vbase_init. cbn [ve_v ve_rs]. fold (v_cfg v). destruct (vi_nfeat I (v_cfg v) (h_nfeat (v_h v)) (h_em (v_h v)) x) as [[nf p]|]; [cbn [bind]|reflexivity].
  destruct (Nat.eqb (c_nc (v_cfg v)) 0); [reflexivity|].
  assert (Hrs : exists g, rs_get rg rs glob = Ok g /\ rs_put rs glob g = (rs, glob)).
  { destruct rs as [|k|g|]; cbn in *; eauto. destruct Hv as [g Hq]. eauto. }
  destruct Hrs as (g & -> & Ep). cbn [bind]. unfold needs_init2, needs_init. rewrite (Hl "s"%char), (Hl "t"%char) by (cbn; auto).
  destruct v as [h sa ta sp sq tp tq]. cbn [v_h v_sarg v_targ v_sprior v_spost v_tprior v_tpost] in *.
  destruct sp; [|contradiction]. destruct sq; [|contradiction]. destruct tp; [|contradiction]. destruct tq; [|contradiction]. cbn [isSome negb bind]. rewrite Ep. reflexivity.
Qed.
Lemma C59_vcategorical_l {G G'} (rg : rng G) (rg' : rng G') fp (v : vhmm vcatp) x ls rs rs' glob glob' :
  no_vinit v ["e"]%char -> vk_post (h_em (v_h v)) <> None -> valid_rs rg rs -> valid_rs rg' rs' ->
  same_vfit (vfit vcategorical vcat_initc rg fp (VEst v rs) glob x ls) glob (vfit vcategorical vcat_initc rg' fp (VEst v rs') glob' x ls) glob'.
Proof.
  intros HN Hp Hv Hv'. assert (HN0 : no_vinit v []). { destruct HN as (Hl & HN). split; [|exact HN]. intros a [<-|[<-|[]]]; apply Hl; cbn; auto. }
  unfold vfit. destruct (check_array _ x) as [x0|er] eqn:Hc; [cbn [bind]|reflexivity]. unfold vinit. rewrite !vbase_init_none by assumption. rewrite !bind_assoc.
  cbn [vi_nfeat vi_nfit vi_em vi_width vcat_initc].
  destruct (vcat_nfeat (v_cfg v) (h_nfeat (v_h v)) (h_em (v_h v)) x0) as [[nf p]|] eqn:En; [cbn [bind]|reflexivity].
  assert (p = h_em (v_h v)) as ->. { unfold vcat_nfeat in En. apply bind_inv in En as ([a b] & _ & En). injection En as _ <-. reflexivity. }
  destruct (Nat.eqb _ 0); [reflexivity|]. destruct (vcat_nfit _ _ _) as [d|]; [cbn [bind]|reflexivity]. destruct (dict_sum d _) as [n|]; [cbn [bind]|reflexivity].
  cbn [ve_v ve_rs]. change (h_cfg (v_h (with_h v (set_em (v_h v) nf (h_em (v_h v)))))) with (v_cfg v).
  cbn [with_h set_em v_h h_nfeat h_em]. unfold vcat_init_em. unfold needs_init. rewrite (proj1 HN "e"%char) by (cbn; auto).
  destruct (rs_get_ok rg rs glob Hv) as (g & ->). destruct (rs_get_ok rg' rs' glob' Hv') as (g' & ->). cbn [bind].
  destruct (vk_post (h_em (v_h v))); [|contradiction]. cbn [isSome negb bind ve_v ve_rs].
  destruct (vfit_from _ _ _ _ _) as [[v2 ev2]|]; [cbn [bind]|reflexivity]. cbn. auto.
Qed.
(** VariationalGaussianHMM always clusters the data: what is trained does not
    depend on the generators when both runs return, *)
Definition vg_all_set (p : vgp) : Prop :=
  (vg_m0 p <> None /\ vg_m p <> None /\ vg_b0 p <> None /\ vg_b p <> None)
  /\ (vg_d0 p <> None /\ vg_d p <> None /\ vg_s0 p <> None /\ vg_s p <> None).
Lemma vg_init_none {G} (gr : grng G) fp (rg : rng G) c nf p x l rs glob :
  has "m" (c_init_params c) = false -> has "c" (c_init_params c) = false -> vg_all_set p ->
  vg_init_em gr fp rg c nf p x l rs glob = (do (labels, centers, rs1, glob1) <- kmeans gr rg (c_nc c) x rs glob; Ok (p, rs1, glob1, [])).
Proof.
  intros Hm Hc ((A1 & A2 & A3 & A4) & (D1 & D2 & D3 & D4)). unfold vg_init_em. apply bind_ext. intros [[[lb cs] rs1] gl1]. cbn [needs_any]. unfold needs_init. rewrite Hm, Hc.
  destruct p as [ty ma ba da sa m0 m b0 b1 d0 d s0 s cv]. cbn [vg_m0 vg_m vg_b0 vg_b vg_d0 vg_d vg_s0 vg_s vg_cov vg_type vg_marg vg_barg vg_darg vg_sarg] in *.
  destruct m0; [|contradiction]. destruct m; [|contradiction]. destruct b0; [|contradiction]. destruct b1; [|contradiction].
  destruct d0; [|contradiction]. destruct d; [|contradiction]. destruct s0; [|contradiction]. destruct s; [|contradiction]. reflexivity.
Qed.
Lemma C59_vgaussian_partial_l {G G'} la (gr : grng G) (gr' : grng G') (rg : rng G) (rg' : rng G') fp (v : vhmm vgp) x ls
    rs rs' glob glob' e1 g1 v1 e2 g2 v2 :
  no_vinit v ["m"; "c"]%char -> vg_all_set (h_em (v_h v)) -> valid_rs rg rs -> valid_rs rg' rs' ->
  vfit (vgaussian la) (vg_initc gr) rg fp (VEst v rs) glob x ls = Ok (e1, g1, v1) ->
  vfit (vgaussian la) (vg_initc gr') rg' fp (VEst v rs') glob' x ls = Ok (e2, g2, v2) ->
  ve_v e1 = ve_v e2 /\ v1 = v2.
Proof.
  intros HN Hp Hv Hv'. assert (HN0 : no_vinit v []). { destruct HN as (Hl & HN). split; [|exact HN]. intros a [<-|[<-|[]]]; apply Hl; cbn; auto. }
  unfold vfit. destruct (check_array _ x) as [x0|er] eqn:Hc; [cbn [bind]|discriminate]. unfold vinit. rewrite !vbase_init_none by assumption. rewrite !bind_assoc.
  cbn [vi_nfeat vi_nfit vi_em vi_width vg_initc].
  destruct (vg_nfeat (v_cfg v) (h_nfeat (v_h v)) (h_em (v_h v)) x0) as [[nf p]|] eqn:En; [cbn [bind]|discriminate].
  assert (p = h_em (v_h v)) as ->. { unfold vg_nfeat in En. apply bind_inv in En as (a & _ & En). injection En as _ <-. reflexivity. }
  destruct (Nat.eqb _ 0); [discriminate|]. destruct (vg_nfit _ _ _) as [d|]; [cbn [bind]|discriminate]. destruct (dict_sum d _) as [n|]; [cbn [bind]|discriminate].
  cbn [ve_v ve_rs]. change (h_cfg (v_h (with_h v (set_em (v_h v) nf (h_em (v_h v)))))) with (v_cfg v).
  cbn [with_h set_em v_h h_nfeat h_em]. rewrite !vg_init_none; try assumption; try (apply (proj1 HN); cbn; auto). rewrite !bind_assoc.
  destruct (kmeans gr rg _ x0 rs glob) as [[[[l1 c1] r1] gl1]|]; [cbn [bind]|discriminate].
  destruct (kmeans gr' rg' _ x0 rs' glob') as [[[[l2 c2] r2] gl2]|]; [cbn [bind]|discriminate].
  cbn [ve_v ve_rs]. destruct (vfit_from _ _ _ _ _) as [[w ev]|]; [cbn [bind]|discriminate]. intros H1 H2. injection H1 as <- _ <-. injection H2 as <- _ <-. split; reflexivity.
Qed.
(** but with fewer samples than states KMeans refuses, and [fit] with it. *)
Lemma C59_vgaussian_refuted_l : exists (v : vhmm vgp) x ty,
  c_init_params (v_cfg v) = EmptyString /\ no_vinit v ["m"; "c"]%char /\ vg_all_set (h_em (v_h v)) /\ vg_model ty 2 2 v exg_pr exg_po
  /\ good_data (finite_row 2) [1]%nat x
  /\ forall G la (gr : grng G) (rg : rng G) fp rs glob,
     (forall k y g, (length y < k)%nat -> exists w, gr_kmeans gr k y g = Err (ValueError w)) -> valid_rs rg rs ->
     exists w, vfit (vgaussian la) (vg_initc gr) rg fp (VEst v rs) glob x (as_lengths [1]%nat) = Err (ValueError w).
Proof.
  set (v0 := exg_v "full" "stmc" 3). set (c := Cfg 2 "stmc" "" "viterbi" "log" 3 (Fin (/ 100)) false (Scal (Fin 1)) (Scal (Fin 1))).
  set (v := with_h v0 (Hmm c (Some 2%nat) None None (h_mon (v_h v0)) (h_em (v_h v0)))).
  assert (HN : no_vinit v ["m"; "c"]%char). { split; [intros a _; reflexivity|]. repeat split; discriminate. }
  assert (HA : vg_all_set (h_em (v_h v))) by (repeat split; discriminate).
  exists v, [[Fin 0; Fin 1]], "full"%string. split; [reflexivity|]. split; [exact HN|]. split; [exact HA|]. split; [|split].
  - pose proof (exg_model "full" "stmc" 3 ltac:(left; reflexivity)) as M. destruct M as [M1 M2 M3 M4 M5]. constructor; try assumption.
    destruct M3. constructor; try assumption. destruct vgh_base. constructor; assumption.
  - split; [|split; [discriminate|split; [repeat constructor|reflexivity]]]. repeat constructor; intros [|[|f]] Hf; try lia; eexists; reflexivity.
  - intros G la gr rg fp rs glob HK Hv. unfold vfit. change (check_array _ [[Fin 0; Fin 1]]) with (Ok [[Fin 0; Fin 1]]). cbn [bind]. unfold vinit.
    rewrite vbase_init_none; [|split; [intros a _; reflexivity|apply HN]|exact Hv]. rewrite !bind_assoc. cbn [vi_nfeat vi_nfit vi_em vi_width vg_initc].
    change (vg_nfeat (v_cfg v) (h_nfeat (v_h v)) (h_em (v_h v)) [[Fin 0; Fin 1]]) with (Ok (Some 2%nat, h_em (v_h v))). cbn [bind]. change (c_nc (v_cfg v)) with 2%nat. cbn [Nat.eqb].
    unfold vg_nfit. change (vg_type (h_em (v_h v))) with "full"%string. change (is_type covariance_types "full") with true. cbn [negb bind String.eqb Ascii.eqb Bool.eqb].
    match goal with |- context [dict_sum ?d ?s] => destruct (dict_sum_ok d s) as [n ->] end.
    { intros a Ha. cbn [has c_params v_cfg v_h v with_h h_cfg c] in Ha. repeat (apply orb_prop in Ha as [Ha|Ha]; [apply Ascii.eqb_eq in Ha; subst a; eexists; reflexivity|]). discriminate. }
    cbn [bind ve_v ve_rs]. change (h_cfg (v_h (with_h v (set_em (v_h v) (Some 2%nat) (h_em (v_h v)))))) with (v_cfg v). cbn [with_h set_em v_h h_nfeat h_em].
    rewrite vg_init_none; try reflexivity; [|exact HA]. rewrite bind_assoc. unfold kmeans. destruct (rs_get_ok rg rs glob Hv) as (g & ->). cbn [bind].
    change (c_nc (v_cfg v)) with 2%nat. destruct (HK 2%nat [[Fin 0; Fin 1]] g ltac:(cbn; lia)) as [w ->]. exists w. reflexivity.
Qed.
Lemma C29_vcategorical_applies_l :
  let e := VEst (fresh_v "ste" 3 None) (RSSeed 0) in let ip := c_init_params (v_cfg (ve_v e)) in
  has "s" ip = true /\ has "t" ip = true /\ has "e" ip = true
  /\ exists e1 ev, vfit vcategorical vcat_initc flat_rng exact e tt [0; 1; 1; 0; 1]%Z (as_lengths [3%nat; 2%nat]) = Ok (e1, tt, ev).
Proof. cbv zeta. do 3 (split; [reflexivity|]). exact C62_applies_l. Qed.
Lemma C59_vcategorical_applies_l : exists (v : vhmm vcatp) r, no_vinit v ["e"]%char /\ vk_post (h_em (v_h v)) <> None
  /\ vfit vcategorical vcat_initc flat_rng exact (VEst v (RSSeed 0)) tt [0; 1; 1; 0; 1]%Z (as_lengths [3%nat; 2%nat]) = Ok r.
Proof.
  set (v := ve_v (vno_init_params (VEst (ex_v "ste" 3) (@RSSeed unit 0)))).
  destruct (C82_vcategorical_returns_l flat_rng (VEst v (RSSeed 0)) tt [0; 1; 1; 0; 1]%Z [3%nat; 2%nat] 2%nat 2%nat ex_pr ex_vpo) as (r & Hr).
  - destruct (ex_v_model "ste" 3) as [M1 M2 [V1 V2 V3 V4 V5 V6 V7 V8 V9] M4 M5 M6 M7 M8]. constructor; try assumption. constructor; assumption.
  - reflexivity.
  - exists tt. reflexivity.
  - apply letters_sub. intros a Ha. exact Ha.
  - left. reflexivity.
  - reflexivity.
  - exact ex_v_data.
  - right. reflexivity.
  - exists v, r. split; [|split; [discriminate|exact Hr]]. split; [intros a _; reflexivity|]. repeat split; discriminate.
Qed.
