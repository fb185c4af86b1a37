(** * Property lemmas C82: VariationalCategoricalHMM, the second call returns; an example. *)
From Verif Require Export Warm_v Vcat_ex Hyper_thms.

(** An estimator whose attributes are set and that is not to draw new ones can be
    trained. *)
Lemma C82_vcategorical_returns_l {G} (rg : rng G) e glob x ls nc n p q :
  let v := ve_v e in let c := v_cfg v in
  vcat_model v nc n p q -> c_init_params c = EmptyString -> valid_rs rg (ve_rs e) -> letters_in (c_params c) ["s"; "t"; "e"]%char ->
  has "t" (c_params c) = true \/ h_trans (v_h v) <> None -> c_impl c = "log"%string ->
  good_data (sym_ok n) ls x -> (h_nfeat (v_h v) = Some n \/ Z.of_nat n = (zmax x + 1)%Z) ->
  exists r, vfit vcategorical vcat_initc rg exact e glob x (as_lengths ls) = Ok r.
Proof.
  cbv zeta. intros HM Hip Hrs Hlet Ht Himp Hd Hnf. destruct (good_data_chunks _ ls x Hd) as (Hne & _ & _).
  unfold vfit. rewrite (check_array_ready (vc_em vcategorical) (sym_ok n) x Hne) by (first [apply Hd | reflexivity]). cbn [bind].
  pose proof HM as [M1 M2 M3 M4 M5 M6 M7 M8]. destruct M3 as [B1 B2 B3 B4 B5 _ _ _ _].
  destruct e as [v rs]. cbn [ve_v ve_rs] in *.
  assert (Hfeat : vcat_nfeat (v_cfg v) (h_nfeat (v_h v)) (h_em (v_h v)) x = Ok (Some n, h_em (v_h v))).
  { pose proof Hd as [Hok _]. unfold vcat_nfeat, cat_nfeat. rewrite Forall_forall in Hok.
    pose proof (Hok _ (zmin_in x Hne)) as H1. pose proof (Hok _ (zmax_in x Hne)) as H2.
    unfold sym_ok in *. destruct (Z.ltb_spec (zmin x) 0); [lia|].
    destruct M4 as [E| ->].
    - rewrite E in Hnf |- *. destruct Hnf as [Hnf|Hz]; [discriminate|]. rewrite <- Hz, Nat2Z.id. reflexivity.
    - destruct (Z.ltb_spec (Z.of_nat n - 1) (zmax x)); [lia|]. reflexivity. }
  destruct (cat_nfit_ok (v_cfg v) n (Catp (Scal NaN) None) Hlet) as (dd & k & Hdd & Hk).
  assert (Hinit : exists rs' g' ev, vinit vcat_initc rg exact (VEst v rs) glob x (map Z.of_nat ls) = Ok (VEst (with_h v (set_em (v_h v) (Some n) (h_em (v_h v)))) rs', g', ev)).
  { unfold vinit, vbase_init. cbn [ve_v ve_rs vi_nfeat vcat_initc]. fold (v_cfg v). rewrite Hfeat. cbn [bind]. rewrite B1.
    destruct (Nat.eqb_spec nc 0); [lia|]. destruct (rs_get_ok rg rs glob Hrs) as (g & ->). cbn [bind]. rewrite B2, B3, B4, B5.
    unfold needs_init2, needs_init. rewrite Hip. cbn [isSome has negb app]. cbn [bind]. destruct (rs_put rs glob g) as [rs1 gl1] eqn:Eput.
    cbn [vi_nfit vcat_initc]. unfold vcat_nfit. fold (v_cfg v). rewrite Hdd. cbn [bind]. rewrite Hk. cbn [bind]. cbn [vi_em vcat_initc ve_v ve_rs v_h h_cfg h_nfeat h_em]. unfold vcat_init_em.
    destruct (rs_get_ok rg rs1 gl1 (rs_put_valid rg _ _ _ _ _ Hrs Eput)) as (g3 & ->). cbn [bind]. rewrite M6. unfold needs_init. rewrite Hip. cbn [isSome has negb bind].
    unfold with_h, set_em. cbn [v_h v_sarg v_targ v_sprior v_spost v_tprior v_tpost h_cfg h_nfeat h_start h_trans h_mon h_em]. rewrite <- B2, <- B3, <- B4, <- B5.
    do 3 eexists. reflexivity. }
  unfold as_lengths. destruct Hinit as (rs' & g' & ev & ->). cbn [bind ve_v ve_rs].
  destruct (C46_fit_returns_l (with_h v (set_em (v_h v) (Some n) (h_em (v_h v)))) nc n p q ls x) as ([v2 ev2] & ->).
  - destruct HM. constructor; try assumption; [destruct vm_base; constructor; assumption|right; reflexivity].
  - exact Hd.
  - exact Himp.
  - exact Ht.
  - cbn [bind]. eexists. reflexivity.
Qed.

Lemma two_rounds {O} fp (step : O -> res (O * xnum)) zr o m o' m' ev :
  vfit_loop fp step zr 2 o (lim 2 (monitor_reset m)) = Ok (o', m', ev) -> length (m_history m') = 2%nat.
Proof.
  intros H. apply (vfit_loop_fit fp step zr (fun o => zrows (zr o))) in H; [|intros a b E; rewrite E; reflexivity].
  destruct (fit_loop_trace _ _ _ _ _ _ _ _ _ H) as (vs & _ & -> & Hl & [Hs|[Hs Hn]] & _); cbn [mon_after lim monitor_reset m_history app]; [exact Hs|].
  destruct vs as [|a [|b [|]]]; [contradiction|discriminate Hs|reflexivity|cbn in Hl; lia].
Qed.

(** Two iterations at once, and one iteration followed by another one. *)
Lemma C82_vcategorical_applies_l :
  let e := VEst (fresh_v "ste" 2 None) (RSSeed 0) in let x := [0; 1; 1; 0; 1]%Z in let ls := as_lengths [3%nat; 2%nat] in
  let train e := vfit vcategorical vcat_initc flat_rng exact e tt x ls in
  exists ef e1 e2 evf ev1 ev2, train e = Ok (ef, tt, evf) /\ train (vbuilt 1 e) = Ok (e1, tt, ev1)
  /\ train (vbuilt 1 (vno_init_params e1)) = Ok (e2, tt, ev2)
  /\ length (vhistory ef) = 2%nat /\ vequal_models e2 ef /\ vhistory ef = vhistory e1 ++ vhistory e2.
Proof.
  cbv zeta. set (x := [0; 1; 1; 0; 1]%Z). set (ls := [3%nat; 2%nat]). set (e := VEst (fresh_v "ste" 2 None) (RSSeed 0)).
  assert (R : forall k, exists e1 ev p q, vfit vcategorical vcat_initc flat_rng exact (vbuilt k e) tt x (as_lengths ls) = Ok (e1, tt, ev)
              /\ vcat_model (ve_v e1) 2 2 p q).
  { intros k. destruct (C62_fit_returns_l flat_rng (vbuilt k e) tt x ls 2 (/ 2) (/ 2) (/ 2)) as (e1 & [] & ev & p & q & H & HM & _);
      [exact flat_pos|exists tt; reflexivity|cbn; lia|apply letters_sub; intros a Ha; exact Ha|reflexivity|reflexivity|repeat split
      |apply scalar_default; lra|apply scalar_default; lra|apply scalar_default; lra|exact ex_v_data|right; split; reflexivity|].
    exists e1, ev, p, q. split; assumption. }
  destruct (R 2%nat) as (ef & evf & _ & _ & Hf & _).
  destruct (C82_vcategorical_l flat_rng exact 1%nat 1%nat e tt x (as_lengths ls) ef tt evf Hf) as (e1 & ev1 & H1 & _ & _ & H2).
  destruct (R 1%nat) as (e1' & ev1' & p & q & H1' & HM). rewrite H1 in H1'. injection H1' as <- <-.
  assert (L : length (vhistory ef) = 2%nat).
  { rewrite vfit_built in Hf by (intros; repeat split). apply bind_inv in Hf as (y & _ & Hf). apply bind_inv in Hf as ([[ei g1] ev] & _ & Hf). apply bind_inv in Hf as (v1 & _ & Hf).
    apply bind_inv in Hf as ([[v2 m] ev2] & Hl & Hf). injection Hf as <- _ _. unfold vhistory. cbn [ve_v re_cfg v_h h_mon]. apply (two_rounds _ _ _ _ _ _ _ _ Hl). }
  destruct (C79_vcategorical_partial_l flat_rng exact _ _ _ _ _ _ _ H1) as (Hc & Hr & _).
  destruct (C82_vcategorical_returns_l flat_rng (vbuilt 1 (vno_init_params e1)) tt x ls 2%nat 2%nat p q) as ([[e2 []] ev2] & H3).
  - destruct HM as [M1 M2 [V1 V2 V3 V4 V5 V6 V7 V8 V9] M4 M5 M6 M7 M8]. constructor; try assumption. constructor; assumption.
  - reflexivity.
  - cbn [vbuilt vno_init_params ve_rs]. destruct (ve_rs e1); try exact Logic.I. exists tt. reflexivity.
  - change (c_params (v_cfg (ve_v (vbuilt 1 (vno_init_params e1))))) with (c_params (v_cfg (ve_v e1))). rewrite Hc. apply letters_sub. intros a Ha. exact Ha.
  - left. change (c_params (v_cfg (ve_v (vbuilt 1 (vno_init_params e1))))) with (c_params (v_cfg (ve_v e1))). rewrite Hc. reflexivity.
  - change (c_impl (v_cfg (ve_v (vbuilt 1 (vno_init_params e1))))) with (c_impl (v_cfg (ve_v e1))). rewrite Hc. reflexivity.
  - exact ex_v_data.
  - right. reflexivity.
  - destruct (H2 ltac:(rewrite L; lia)) as [_ H4]. destruct (H4 _ _ _ _ H3 ltac:(rewrite L; right; reflexivity)) as [Q1 Q2].
    exists ef, e1, e2, evf, ev1, ev2. split; [exact Hf|]. split; [exact H1|]. split; [exact H3|]. split; [exact L|]. split; [exact Q1|symmetry; exact Q2].
Qed.
