(** * Property lemmas C82: training in two parts, variational classes. *)
From Verif Require Export Warm_thms Vgauss Vinit_thms.

(** An estimator built with [n_iter = n]; [model.init_params = ""]. *)
Definition re_cfg {P} (f : cfg -> cfg) (m : monitor) (v : vhmm P) : vhmm P :=
  let h := v_h v in
  VHmm (Hmm (f (h_cfg h)) (h_nfeat h) (h_start h) (h_trans h) m (h_em h)) (v_sarg v) (v_targ v) (v_sprior v) (v_spost v) (v_tprior v) (v_tpost v).
Definition vbuilt {P G} (n : nat) (e : vest P G) : vest P G :=
  VEst (re_cfg (cfg_n_iter n) (lim n (h_mon (v_h (ve_v e)))) (ve_v e)) (ve_rs e).
Definition vno_init_params {P G} (e : vest P G) : vest P G :=
  VEst (re_cfg cfg_no_init (h_mon (v_h (ve_v e))) (ve_v e)) (ve_rs e).
Definition vequal_models {P G} (a b : vest P G) : Prop :=
  let v := ve_v a in let w := ve_v b in
  h_start (v_h v) = h_start (v_h w) /\ h_trans (v_h v) = h_trans (v_h w) /\ h_em (v_h v) = h_em (v_h w) /\ h_nfeat (v_h v) = h_nfeat (v_h w)
  /\ v_sprior v = v_sprior w /\ v_spost v = v_spost w /\ v_tprior v = v_tprior w /\ v_tpost v = v_tpost w.
Definition vhistory {P G} (e : vest P G) : list xnum := m_history (h_mon (v_h (ve_v e))).

Lemma kof2_set {A B} l (a a' : option A) (b b' : option B) D : kept_or_fresh2 l a a' b b' D -> a' <> None /\ b' <> None.
Proof.
  unfold kept_or_fresh2. destruct a, b, l; intros H; try (destruct H as (u & w & -> & -> & _); split; discriminate).
  destruct H as [-> ->]; split; discriminate.
Qed.

(** ** The loop: back from the loop whose test for zero rows cannot raise. *)
Lemma vloop_back {O} fp (step : O -> res (O * xnum)) zr zr' (Z : O -> Prop) fuel :
  (forall o o' v, step o = Ok (o', v) -> Z o -> Z o') ->
  (forall o, Z o -> zr o = Ok (zr' o)) ->
  forall o m o' m' ev, fit_loop fp step zr' fuel o m = Ok (o', m', ev) ->
  (m_iter m + fuel = m_n_iter m)%nat -> (length (m_history m') <= S (length (m_history m)))%nat \/ (forall o1 v, step o = Ok (o1, v) -> Z o1) ->
  vfit_loop fp step zr fuel o m = Ok (o', m', ev).
Proof.
  intros Hs Hz. induction fuel as [|fuel IH]; intros o m o' m' ev H Hn Hc; cbn [vfit_loop fit_loop] in *; [exact H|].
  destruct (step o) as [[o1 v]|] eqn:Es; [|discriminate]. cbn [bind] in *. pose proof (report_mon fp m v) as Hm.
  destruct (monitor_report fp m v) as [m1 ev1]. cbn [fst] in Hm. destruct (converged fp m1) eqn:Ec; [exact H|].
  apply bind_inv in H as ([[o2 m2] ev2] & H & E2). injection E2 as <- <- <-.
  assert (H1 : Z o1).
  { destruct Hc as [Hc|Hc]; [|apply (Hc _ _ eq_refl)]. exfalso.
    destruct (fit_loop_trace _ _ _ _ _ _ _ _ _ H) as (vs & _ & Hmm & _ & Hl & _).
    rewrite Hmm, Hm in Hc. cbn [mon_after m_history] in Hc. rewrite !app_length in Hc. cbn [length] in Hc.
    destruct vs; [|cbn in Hc; lia]. destruct Hl as [Hl|[_ Hl]]; [|contradiction]. cbn in Hl. subst fuel.
    rewrite Hm in Ec. unfold converged in Ec. cbn [mon_after m_iter m_n_iter length] in Ec.
    replace (m_iter m + 1)%nat with (m_n_iter m) in Ec by lia. rewrite Nat.eqb_refl in Ec. discriminate. }
  rewrite (Hz _ H1). cbn [bind]. rewrite (IH _ _ _ _ _ H).
  - reflexivity.
  - rewrite Hm. cbn [mon_after m_iter m_n_iter length]. lia.
  - right. intros o3 v3 E3. apply (Hs _ _ _ E3 H1).
Qed.
(** In the whole run the test was made after the first iteration, unless that was
    the last one. *)
Lemma vloop_zrows {O} fp (step : O -> res (O * xnum)) zr fuel o m o' m' ev :
  vfit_loop fp step zr fuel o m = Ok (o', m', ev) -> (length (m_history m') <= S (length (m_history m)))%nat
  \/ forall o1 v, step o = Ok (o1, v) -> exists z, zr o1 = Ok z.
Proof.
  destruct fuel as [|fuel]; cbn [vfit_loop]; intros H; [injection H as <- <- <-; left; lia|].
  destruct (step o) as [[o1 v]|] eqn:Es; [|discriminate]. cbn [bind] in *. pose proof (report_mon fp m v) as Hm.
  destruct (monitor_report fp m v) as [m1 ev1]. cbn [fst] in Hm. destruct (converged fp m1) eqn:Ec.
  - left. injection H as <- <- <-. rewrite Hm. cbn [mon_after m_history]. rewrite app_length. cbn. lia.
  - apply bind_inv in H as (z & Hz & _). right. intros o2 v2 E2. injection E2 as <- <-. eauto.
Qed.

Section VParts.
  Context {P X St G : Type} (V : vclass P X St) (I : vinitclass P X G) (rg : rng G) (fp : fpmode).
  Let E := vc_em V.

  (** ** Changing [n_iter] or [init_params]. *)
  Section Blind.
    Variable f : cfg -> cfg.
    Hypothesis F1 : forall c, c_nc (f c) = c_nc c.
    Hypothesis F2 : forall c, c_params (f c) = c_params c.
    Hypothesis F3 : forall c, c_impl (f c) = c_impl c.
    Hypothesis N1 : forall c nf p, ec_check E fp (f c) nf p = ec_check E fp c nf p.
    Hypothesis N2 : forall c nf p x, vc_subll V fp (f c) nf p x = vc_subll V fp c nf p x.
    Hypothesis N3 : forall c nf p, vc_begin V fp (f c) nf p = vc_begin V fp c nf p.
    Hypothesis N4 : forall c nf p, ec_stats0 E fp (f c) nf p = ec_stats0 E fp c nf p.
    Hypothesis N5 : forall c nf p st x post, ec_acc E fp (f c) nf p st x post = ec_acc E fp c nf p st x post.
    Hypothesis N6 : forall c nf p st, ec_mstep E fp (f c) nf p st = ec_mstep E fp c nf p st.
    Hypothesis N7 : forall c nf p lb, vc_bound V fp (f c) nf p lb = vc_bound V fp c nf p lb.

    Lemma re_estep_seq c nf a b m m' p s t st x :
      estep_seq (sub_em V) fp (Hmm (f c) nf a b m p) s t st x = estep_seq (sub_em V) fp (Hmm c nf a b m' p) s t st x.
    Proof.
      unfold estep_seq. cbn [h_cfg h_nfeat h_em]. rewrite F3. apply bind_ext. intros lg.
      replace (if lg : bool then fit_log (sub_em V) fp (Hmm (f c) nf a b m p) s t x else fit_scaling (sub_em V) fp (Hmm (f c) nf a b m p) s t x)
        with (if lg : bool then fit_log (sub_em V) fp (Hmm c nf a b m' p) s t x else fit_scaling (sub_em V) fp (Hmm c nf a b m' p) s t x).
      2:{ unfold fit_log, fit_scaling, loglik, lik. cbn [h_cfg h_nfeat h_em sub_em ec_loglik ec_lik]. rewrite N2. reflexivity. }
      apply bind_ext. intros [[[[la lp] po] fw] bw].
      replace (acc_base fp lg (Hmm (f c) nf a b m p) t st la po fw bw) with (acc_base fp lg (Hmm c nf a b m' p) t st la po fw bw).
      2:{ unfold acc_base. cbn [h_cfg]. rewrite F2. reflexivity. }
      apply bind_ext. intros [[n1 s1] t1]. cbn [sub_em ec_acc]. fold E. rewrite N5. reflexivity.
    Qed.
    Lemma re_estep_loop c nf a b m m' p s t xs : forall st lp,
      estep_loop (sub_em V) fp (Hmm (f c) nf a b m p) s t st lp xs = estep_loop (sub_em V) fp (Hmm c nf a b m' p) s t st lp xs.
    Proof.
      induction xs as [|x xs IH]; intros st lp; [reflexivity|]. cbn [estep_loop]. rewrite (re_estep_seq c nf a b m m'). apply bind_ext.
      intros [st' l]. apply IH.
    Qed.
    Lemma re_do_estep c nf a b m m' p s t x ls :
      do_estep (sub_em V) fp (Hmm (f c) nf a b m p) s t x ls = do_estep (sub_em V) fp (Hmm c nf a b m' p) s t x ls.
    Proof.
      unfold do_estep. cbn [h_cfg]. rewrite F3. destruct (_ || _)%bool; [|reflexivity]. apply bind_ext. intros xs.
      rewrite (re_estep_loop c nf a b m m'). unfold stats0. cbn [h_cfg h_nfeat h_em sub_em ec_stats0]. fold E. rewrite F1, N4. reflexivity.
    Qed.
    Lemma re_step x ls m v : vb_step V fp x ls (re_cfg f m v) = do (v', lb) <- vb_step V fp x ls v; Ok (re_cfg f m v', lb).
    Proof.
      unfold vb_step, vestep. destruct v as [[c nf a b mo p] sa ta sp sq tp tq]. unfold re_cfg, with_h, set_em. cbn [v_h v_sarg v_targ v_sprior v_spost v_tprior v_tpost h_cfg h_nfeat h_start h_trans h_mon h_em].
      destruct sq as [sq|]; [|reflexivity]. destruct tq as [tq|]; [|reflexivity]. cbn [attr bind]. rewrite N3.
      destruct (vc_begin V fp c nf p) as [p1|]; [|reflexivity]. cbn [bind]. rewrite (re_do_estep c nf _ _ m mo).
      destruct (do_estep _ _ _ _ _ _ _) as [[st lp]|]; [|reflexivity]. cbn [bind].
      unfold vlower_bound, v_cfg. cbn [v_h v_sarg v_targ v_sprior v_spost v_tprior v_tpost h_cfg h_nfeat h_start h_trans h_mon h_em attr bind].
      destruct sp as [sp|]; [|reflexivity]. cbn [attr bind]. destruct tp as [tp|]; [|reflexivity]. cbn [attr bind]. rewrite F1, N7.
      destruct (vc_bound V fp c nf p1 _) as [lb|]; [|reflexivity]. cbn [bind].
      unfold vmstep, v_cfg. cbn [v_h v_sarg v_targ v_sprior v_spost v_tprior v_tpost h_cfg h_nfeat h_start h_trans h_mon h_em attr bind].
      rewrite F2, N6. destruct (has "s" _), (has "t" _); cbn [attr bind]; fold E; destruct (ec_mstep E fp c nf p1 (st_em st)); reflexivity.
    Qed.
    Lemma re_loop x ls n m0 : forall v m,
      vfit_loop fp (vb_step V fp x ls) (vzero_rows fp) n (re_cfg f m0 v) m
      = do (v', m', ev) <- vfit_loop fp (vb_step V fp x ls) (vzero_rows fp) n v m; Ok (re_cfg f m0 v', m', ev).
    Proof.
      induction n as [|n IH]; intros v m; [reflexivity|]. cbn [vfit_loop]. rewrite re_step. destruct (vb_step V fp x ls v) as [[v' lb]|]; [|reflexivity]. cbn [bind].
      destruct (monitor_report fp m lb) as [m' ev]. destruct (converged fp m'); [reflexivity|].
      change (vzero_rows fp (re_cfg f m0 v')) with (vzero_rows fp v'). destruct (vzero_rows fp v') as [z|]; [|reflexivity]. cbn [bind].
      rewrite IH. destruct (vfit_loop fp (vb_step V fp x ls) (vzero_rows fp) n v' m') as [[[h2 m2] ev2]|]; reflexivity.
    Qed.
    Lemma re_check m v : vcheck V fp (re_cfg f m v) = do v' <- vcheck V fp v; Ok (re_cfg f m v').
    Proof.
      unfold vcheck. replace (vbase_check (re_cfg f m v)) with (vbase_check v) by (unfold vbase_check, v_cfg; cbn [re_cfg v_h h_cfg v_sprior v_spost v_tprior v_tpost]; rewrite F1; reflexivity).
      destruct (if vc_super_check V then vbase_check v else Ok tt); [|reflexivity]. cbn [bind]. unfold v_cfg. cbn [re_cfg v_h h_cfg h_nfeat h_em]. fold E. rewrite N1.
      destruct (ec_check E fp _ _ _) as [[nf p]|]; reflexivity.
    Qed.
  End Blind.

  Definition vblind (f : cfg -> cfg) : Prop :=
    (forall c, c_nc (f c) = c_nc c) /\ (forall c, c_params (f c) = c_params c) /\ (forall c, c_impl (f c) = c_impl c)
    /\ (forall c nf p, ec_check E fp (f c) nf p = ec_check E fp c nf p)
    /\ (forall c nf p x, vc_subll V fp (f c) nf p x = vc_subll V fp c nf p x)
    /\ (forall c nf p, vc_begin V fp (f c) nf p = vc_begin V fp c nf p)
    /\ (forall c nf p, ec_stats0 E fp (f c) nf p = ec_stats0 E fp c nf p)
    /\ (forall c nf p st x post, ec_acc E fp (f c) nf p st x post = ec_acc E fp c nf p st x post)
    /\ (forall c nf p st, ec_mstep E fp (f c) nf p st = ec_mstep E fp c nf p st)
    /\ (forall c nf p lb, vc_bound V fp (f c) nf p lb = vc_bound V fp c nf p lb).
  Hypothesis B1 : forall n, vblind (cfg_n_iter n).
  Hypothesis B2 : vblind cfg_no_init.
  Hypothesis B3 : forall n c nf p x, vi_nfeat I (cfg_n_iter n c) nf p x = vi_nfeat I c nf p x.
  Hypothesis B4 : forall n c nf p, vi_nfit I (cfg_n_iter n c) nf p = vi_nfit I c nf p.
  Hypothesis B5 : forall n c nf p x l rs g, vi_em I fp rg (cfg_n_iter n c) nf p x l rs g = vi_em I fp rg c nf p x l rs g.

  Lemma vinit_built n e glob x l : vinit I rg fp (vbuilt n e) glob x l
    = do (e1, g1, ev) <- vinit I rg fp e glob x l; Ok (vbuilt n e1, g1, ev).
  Proof.
    destruct e as [[[c nf a b mo p] sa ta sp sq tp tq] rs]. unfold vinit, vbase_init, vbuilt, re_cfg.
    cbn [ve_v ve_rs v_h v_sarg v_targ v_sprior v_spost v_tprior v_tpost h_cfg h_nfeat h_start h_trans h_mon h_em].
    rewrite B3. change (c_nc (cfg_n_iter n c)) with (c_nc c). change (c_params (cfg_n_iter n c)) with (c_params c).
    destruct (vi_nfeat I c nf p x) as [[nf1 p1]|]; [|reflexivity]. cbn [bind]. destruct (Nat.eqb (c_nc c) 0); [reflexivity|].
    destruct (rs_get rg rs glob) as [g|]; [|reflexivity]. cbn [bind].
    change (needs_init2 (cfg_n_iter n c) "s"%char) with (needs_init2 c "s"%char). destruct (needs_init2 c "s" _ _ _ _) as [ns ev1].
    destruct (if ns then _ else _) as [[[sp1 sq1] g1]|]; [|reflexivity]. cbn [bind].
    change (needs_init2 (cfg_n_iter n c) "t"%char) with (needs_init2 c "t"%char). destruct (needs_init2 c "t" _ _ _ _) as [nt ev2].
    destruct (if nt then _ else _) as [[[tp1 tq1] g2]|]; [|reflexivity]. cbn [bind]. destruct (rs_put rs glob g2) as [rs1 glob1]. rewrite B4.
    destruct (vi_nfit I c nf1 p1) as [d|]; [|reflexivity]. cbn [bind]. destruct (dict_sum d (c_params c)) as [k|]; [|reflexivity].
    cbn [bind ve_v ve_rs v_h v_sarg v_targ v_sprior v_spost v_tprior v_tpost h_cfg h_nfeat h_start h_trans h_mon h_em]. rewrite B5.
    destruct (vi_em I fp rg c nf1 p1 x l rs1 glob1) as [[[[p2 rs2] g3] ev3]|]; reflexivity.
  Qed.
  Definition vlengths (x : list X) (ls : option (list Z)) : list Z := match ls with None => [Z.of_nat (length x)] | Some l => l end.
  Lemma vfit_built n e glob x ls : vfit V I rg fp (vbuilt n e) glob x ls =
      do x <- check_array (ec_xok E) x;
      do (e1, g1, ev1) <- vinit I rg fp e glob x (vlengths x ls);
      do v1 <- vcheck V fp (ve_v e1);
      do (v2, m, ev2) <- vfit_loop fp (vb_step V fp x (Some (vlengths x ls))) (vzero_rows fp) n v1 (lim n (monitor_reset (h_mon (v_h v1))));
      Ok (VEst (re_cfg (cfg_n_iter n) m v2) (ve_rs e1), g1, ev1 ++ ev2).
  Proof.
    unfold vfit. fold E. apply bind_ext. intros y. fold (vlengths y ls). rewrite vinit_built, !bind_assoc. apply bind_ext. intros [[e1 g1] ev1]. cbn [bind].
    unfold vfit_from. cbn [vbuilt ve_v ve_rs].
    destruct (B1 n) as (F1 & F2 & F3 & N1 & N2 & N3 & N4 & N5 & N6 & N7).
    rewrite (re_check _ F1 N1), !bind_assoc. destruct (vcheck V fp (ve_v e1)) as [v1|] eqn:Hc; [|reflexivity]. cbn [bind].
    assert (Hm : h_mon (v_h v1) = h_mon (v_h (ve_v e1))).
    { unfold vcheck in Hc. apply bind_inv in Hc as ([] & _ & Hc). apply bind_inv in Hc as ([nf p] & _ & Hc). injection Hc as <-. reflexivity. }
    rewrite Hm. change (c_n_iter (v_cfg (re_cfg (cfg_n_iter n) _ v1))) with n.
    rewrite (re_loop _ F1 F2 F3 N2 N3 N4 N5 N6 N7), !bind_assoc.
    change (monitor_reset (h_mon (v_h (re_cfg (cfg_n_iter n) (lim n (h_mon (v_h (ve_v e1)))) v1)))) with (lim n (monitor_reset (h_mon (v_h (ve_v e1))))).
    apply bind_ext. intros [[v2 m] ev2]. reflexivity.
  Qed.

  (** ** The second call. *)
  Variable Inv : cfg -> option nat -> P -> Prop.
  Hypothesis K1 : forall c nf0 p0 x nf1 p1 l rs g p2 rs' g' ev nf3 p3, vi_nfeat I c nf0 p0 x = Ok (nf1, p1) ->
    vi_em I fp rg c nf1 p1 x l rs g = Ok (p2, rs', g', ev) -> ec_check E fp c nf1 p2 = Ok (nf3, p3) -> Inv c nf3 p3.
  Hypothesis K2 : forall c nf p st p', Inv c nf p -> ec_mstep E fp c nf p st = Ok p' -> Inv c nf p'.
  Hypothesis K2' : forall c nf p p', Inv c nf p -> vc_begin V fp c nf p = Ok p' -> Inv c nf p'.
  Hypothesis K3 : forall c nf p x nf' p', Inv c nf p -> vi_nfeat I (cfg_no_init c) nf p x = Ok (nf', p') -> nf' = nf /\ p' = p.
  Hypothesis K4 : forall c nf p x l rs g p' rs' g' ev, Inv c nf p ->
    vi_em I fp rg (cfg_no_init c) nf p x l rs g = Ok (p', rs', g', ev) -> p' = p.
  Hypothesis K5 : forall c nf p nf' p', Inv c nf p -> ec_check E fp c nf p = Ok (nf', p') -> nf' = nf /\ p' = p.
  Hypothesis K6 : forall c k nf p, Inv c nf p <-> Inv (cfg_n_iter k c) nf p.
  (** Everything is set. *)
  Definition vset (v : vhmm P) : Prop :=
    (v_sprior v <> None /\ v_spost v <> None /\ v_tprior v <> None /\ v_tpost v <> None) /\ Inv (v_cfg v) (h_nfeat (v_h v)) (h_em (v_h v)).
  Lemma vset_step x l v v' lb : vb_step V fp x l v = Ok (v', lb) -> vset v -> vset v'.
  Proof.
    intros H ((S1 & S2 & S3 & S4) & Hi). unfold vb_step, vestep in H. apply bind_inv in H as ([[v1 st] lp] & H1 & H). apply bind_inv in H as (lb' & _ & H). apply bind_inv in H as (v2 & H2 & H). injection H as <- _.
    apply bind_inv in H1 as (sq & _ & H1). apply bind_inv in H1 as (tq & _ & H1). apply bind_inv in H1 as (p & Hp & H1). apply bind_inv in H1 as ([st1 lp1] & _ & H1). injection H1 as <- _ _.
    unfold vmstep in H2. apply bind_inv in H2 as ([sq' s'] & Hs & H2). apply bind_inv in H2 as ([tq' t'] & Ht & H2). apply bind_inv in H2 as (p' & Hp' & H2). injection H2 as <-.
    unfold with_h, set_em, v_cfg in *. cbn [v_h v_sarg v_targ v_sprior v_spost v_tprior v_tpost h_cfg h_nfeat h_start h_trans h_mon h_em] in *.
    assert (A1 : sq' <> None). { destruct (has "s" _); [apply bind_inv in Hs as (q & _ & Hs)|]; injection Hs as <- _; [discriminate|exact S2]. }
    assert (A2 : tq' <> None). { destruct (has "t" _); [apply bind_inv in Ht as (q & _ & Ht)|]; injection Ht as <- _; [discriminate|exact S4]. }
    split; [repeat split; assumption|]. cbn [v_h h_cfg h_nfeat h_em]. apply (K2 _ _ _ _ _ (K2' _ _ _ _ Hi Hp) Hp').
  Qed.
  Lemma vset_start e glob x l e1 g1 ev v1 : vinit I rg fp e glob x l = Ok (e1, g1, ev) -> vcheck V fp (ve_v e1) = Ok v1 -> vset v1.
  Proof.
    intros Hin Hc. destruct (vinit_inv _ _ _ _ _ _ _ _ _ _ Hin) as (ea & ga & va & p & rs' & va2 & Hb & He & Hv & _).
    destruct (vbase_init_inv _ _ _ _ _ _ _ _ _ _ Hb) as (A1 & _ & _ & A4 & A5 & A6 & _).
    assert (S0 : v_sprior (ve_v ea) <> None /\ v_spost (ve_v ea) <> None).
    { apply (kof2_set _ _ _ _ _ _ A5). }
    assert (T0 : v_tprior (ve_v ea) <> None /\ v_tpost (ve_v ea) <> None).
    { apply (kof2_set _ _ _ _ _ _ A6). }
    unfold vcheck in Hc. apply bind_inv in Hc as ([] & _ & Hc). apply bind_inv in Hc as ([nf p'] & Hc & E1). injection E1 as <-.
    rewrite Hv in Hc |- *. unfold vset, v_cfg, with_h, set_em in *. cbn [v_h v_sarg v_targ v_sprior v_spost v_tprior v_tpost h_cfg h_nfeat h_start h_trans h_mon h_em] in *.
    split; [split; [apply S0|split; [apply S0|exact T0]]|]. rewrite A1 in *. apply (K1 _ _ _ _ _ _ _ _ _ _ _ _ _ _ _ A4 He Hc).
  Qed.
  Lemma needs_blank c k a b : needs_init2 (cfg_no_init c) k a true b true = (false, []).
  Proof. reflexivity. Qed.
  (** With [init_params = ""], initialisation and [_check] change nothing. *)
  Lemma vinit_blank v m rs glob x l e1 g1 ev v1 : vset v -> vinit I rg fp (VEst (re_cfg cfg_no_init m v) rs) glob x l = Ok (e1, g1, ev) ->
    vcheck V fp (ve_v e1) = Ok v1 -> v1 = re_cfg cfg_no_init m v.
  Proof.
    intros ((S1 & S2 & S3 & S4) & Hi) H Hc. unfold vinit, vbase_init in H. destruct v as [[c nf a b mo p] sa ta sp sq tp tq]. unfold re_cfg, v_cfg in *.
    cbn [ve_v ve_rs v_h v_sarg v_targ v_sprior v_spost v_tprior v_tpost h_cfg h_nfeat h_start h_trans h_mon h_em] in *.
    destruct sp as [sp|]; [|contradiction]. destruct sq as [sq|]; [|contradiction]. destruct tp as [tp|]; [|contradiction]. destruct tq as [tq|]; [|contradiction].
    apply bind_inv in H as ([[ea ga] eva] & H & H2). apply bind_inv in H as ([nf1 p1] & Hn & H). destruct (K3 _ _ _ _ _ _ Hi Hn) as [-> ->].
    destruct (Nat.eqb _ 0); [discriminate|]. apply bind_inv in H as (g & _ & H). rewrite !needs_blank in H. cbn [bind] in H.
    destruct (rs_put _ _ _) as [rs1 gl1]. apply bind_inv in H as (d & _ & H). apply bind_inv in H as (k & _ & H). injection H as <- <- _.
    cbn [ve_v ve_rs v_h v_sarg v_targ v_sprior v_spost v_tprior v_tpost h_cfg h_nfeat h_start h_trans h_mon h_em] in *.
    apply bind_inv in H2 as ([[[p2 rs2] g3] ev3] & He & H2). injection H2 as <- _ _. fold (cfg_no_init c) in *. rewrite (K4 _ _ _ _ _ _ _ _ _ _ _ Hi He) in *.
    unfold vcheck in Hc. apply bind_inv in Hc as ([] & _ & Hc). apply bind_inv in Hc as ([nf9 p'] & Hc & E1). injection E1 as <-.
    unfold with_h, set_em, v_cfg in *. cbn [ve_v ve_rs v_h v_sarg v_targ v_sprior v_spost v_tprior v_tpost h_cfg h_nfeat h_start h_trans h_mon h_em] in *.
    destruct B2 as (_ & _ & _ & N1 & _). fold E in Hc. rewrite N1 in Hc. destruct (K5 _ _ _ _ _ Hi Hc) as [-> ->]. reflexivity.
  Qed.
  Lemma vfit_again b v m rs glob x ls e2 g2 ev2 : vset v ->
    vfit V I rg fp (vbuilt b (VEst (re_cfg cfg_no_init m v) rs)) glob x ls = Ok (e2, g2, ev2) ->
    exists v2 m2 ev, vfit_loop fp (vb_step V fp x (Some (vlengths x ls))) (vzero_rows fp) b v (lim b (monitor_reset m)) = Ok (v2, m2, ev)
      /\ ve_v e2 = re_cfg (cfg_n_iter b) m2 (re_cfg cfg_no_init m v2).
  Proof.
    intros Hs H. rewrite vfit_built in H. apply bind_inv in H as (y & Hy & H).
    assert (y = x) as ->. { unfold check_array in Hy. destruct x; [discriminate|]. destruct (forallb _ _); [congruence|discriminate]. }
    apply bind_inv in H as ([[ei g1] ev1] & Hin & H). apply bind_inv in H as (v1 & Hc & H). rewrite (vinit_blank _ _ _ _ _ _ _ _ _ _ Hs Hin Hc) in H.
    destruct B2 as (F1 & F2 & F3 & N1 & N2 & N3 & N4 & N5 & N6 & N7). rewrite (re_loop _ F1 F2 F3 N2 N3 N4 N5 N6 N7) in H. cbn [re_cfg v_h h_mon] in H.
    apply bind_inv in H as ([[v2 m2] ev] & Hf & H). apply bind_inv in Hf as ([[v3 m3] ev3] & Hf & E3). injection E3 as <- <- <-. injection H as <- _ _.
    exists v3, m3, ev3. split; [exact Hf|reflexivity].
  Qed.

  Definition vtwo_parts_at (a b : nat) e glob x ls ef gf : Prop :=
    exists e1 ev1, vfit V I rg fp (vbuilt a e) glob x ls = Ok (e1, gf, ev1)
    /\ ve_rs e1 = ve_rs ef
    /\ ((length (vhistory ef) <= a)%nat -> vequal_models e1 ef /\ vhistory e1 = vhistory ef)
    /\ ((a < length (vhistory ef))%nat -> vhistory e1 = firstn a (vhistory ef)
        /\ forall glob2 e2 g2 ev2,
           vfit V I rg fp (vbuilt b (vno_init_params e1)) glob2 x ls = Ok (e2, g2, ev2) ->
           (a + 2 <= length (vhistory ef))%nat \/ length (vhistory ef) = (a + b)%nat ->
           vequal_models e2 ef /\ vhistory e1 ++ vhistory e2 = vhistory ef).
  Lemma vstep_trans x l v v' lb : vb_step V fp x l v = Ok (v', lb) -> h_trans (v_h v) <> None -> h_trans (v_h v') <> None.
  Proof.
    intros H Ht. unfold vb_step, vestep in H. apply bind_inv in H as ([[v1 st] lp] & H1 & H). apply bind_inv in H as (lb' & _ & H). apply bind_inv in H as (v2 & H2 & H). injection H as <- _.
    apply bind_inv in H1 as (sq & _ & H1). apply bind_inv in H1 as (tq & _ & H1). apply bind_inv in H1 as (p & Hp & H1). apply bind_inv in H1 as ([st1 lp1] & _ & H1). injection H1 as <- _ _.
    unfold vmstep in H2. apply bind_inv in H2 as ([sq' s'] & Hs & H2). apply bind_inv in H2 as ([tq' t'] & Ht' & H2). apply bind_inv in H2 as (p' & Hp' & H2). injection H2 as <-.
    cbn [v_h h_trans]. destruct (has "t" _); [apply bind_inv in Ht' as (q & _ & Ht')|]; injection Ht' as _ <-; [discriminate|exact Ht].
  Qed.
  Lemma vfit_two_parts a b e glob x ls ef gf evf :
    vfit V I rg fp (vbuilt (a + b) e) glob x ls = Ok (ef, gf, evf) -> vtwo_parts_at a b e glob x ls ef gf.
  Proof.
    rewrite vfit_built. intros H. apply bind_inv in H as (y & Hy & H).
    assert (y = x) as ->. { unfold check_array in Hy. destruct x; [discriminate|]. destruct (forallb _ _); [congruence|discriminate]. }
    apply bind_inv in H as ([[ei g1] ev1] & Hin & H). apply bind_inv in H as (v1 & Hc & H). apply bind_inv in H as ([[vf mf] ev2] & Hl & H). injection H as <- <- <-.
    pose proof (vset_start _ _ _ _ _ _ _ _ Hin Hc) as Hset. unfold vtwo_parts_at, vhistory. cbn [ve_v ve_rs re_cfg v_h h_mon].
    set (step := vb_step V fp x (Some (vlengths x ls))) in *. set (zr' := fun v : vhmm P => zrows (vzero_rows fp v)).
    set (Z := fun v : vhmm P => h_trans (v_h v) <> None).
    assert (Z1 : forall o o' w, step o = Ok (o', w) -> Z o -> Z o') by (intros o o' w Hs; apply (vstep_trans _ _ _ _ _ Hs)).
    assert (Z2 : forall o, Z o -> vzero_rows fp o = Ok (zr' o)).
    { intros o Ho. unfold zr', vzero_rows. unfold Z in Ho. destruct (h_trans (v_h o)); [reflexivity|contradiction]. }
    assert (Z3 : (length (m_history mf) <= 1)%nat \/ forall o1 w, step v1 = Ok (o1, w) -> Z o1).
    { destruct (vloop_zrows _ _ _ _ _ _ _ _ _ Hl) as [K|K]; [left; exact K|right]. intros o1 w Ho. destruct (K _ _ Ho) as [z Hz].
      unfold Z. unfold vzero_rows in Hz. destruct (h_trans (v_h o1)); [discriminate|discriminate Hz]. }
    pose proof (vfit_loop_fit fp step (vzero_rows fp) zr' (a + b) v1 _ vf mf ev2 ltac:(intros o z Hz; unfold zr'; rewrite Hz; reflexivity) Hl) as Hfl.
    pose proof (loop_parts fp step zr' (lim (a + b) (monitor_reset (h_mon (v_h v1))))
                  (lim a (monitor_reset (h_mon (v_h v1)))) (lim b (monitor_reset (h_mon (v_h v1)))) eq_refl eq_refl eq_refl eq_refl eq_refl eq_refl eq_refl eq_refl
                  a b eq_refl eq_refl eq_refl v1 vf mf ev2 Hfl) as LP.
    destruct LP as [(oa & va & L1 & -> & -> & eva & L2)|(oa & L1 & (eva & L2) & L3)].
    - assert (L2' : vfit_loop fp step (vzero_rows fp) a v1 (lim a (monitor_reset (h_mon (v_h v1)))) = Ok (vf, mon_after (lim a (monitor_reset (h_mon (v_h v1)))) (m_history mf), eva)).
      { apply (vloop_back fp step (vzero_rows fp) zr' Z a Z1 Z2 _ _ _ _ _ L2); [reflexivity|]. cbn [mon_after lim monitor_reset m_history app length]. exact Z3. }
      eexists (VEst (re_cfg (cfg_n_iter a) _ vf) (ve_rs ei)), _. rewrite vfit_built, Hy. cbn [bind]. rewrite Hin. cbn [bind]. rewrite Hc. cbn [bind]. fold step. rewrite L2'. cbn [bind].
      split; [reflexivity|]. split; [reflexivity|]. split; [intros _; split; [repeat split|reflexivity]|intros L; lia].
    - assert (L2' : vfit_loop fp step (vzero_rows fp) a v1 (lim a (monitor_reset (h_mon (v_h v1)))) = Ok (oa, mon_after (lim a (monitor_reset (h_mon (v_h v1)))) (firstn a (m_history mf)), eva)).
      { apply (vloop_back fp step (vzero_rows fp) zr' Z a Z1 Z2 _ _ _ _ _ L2); [reflexivity|]. cbn [mon_after lim monitor_reset m_history app length].
        destruct Z3 as [Z3|Z3]; [left; rewrite firstn_length; lia|right; exact Z3]. }
      eexists (VEst (re_cfg (cfg_n_iter a) _ oa) (ve_rs ei)), _. rewrite vfit_built, Hy. cbn [bind]. rewrite Hin. cbn [bind]. rewrite Hc. cbn [bind]. fold step. rewrite L2'. cbn [bind].
      split; [reflexivity|]. split; [reflexivity|]. split; [intros L; lia|]. intros _. split; [reflexivity|].
      intros glob2 e2 g2 ev3 Hf2 Hlen. destruct (L3 Hlen) as (evb & L4).
      destruct (fit_loop_trace _ _ _ _ _ _ _ _ _ L2) as (va & Hia & Hma & Hla & _).
      assert (Hseta : vset oa).
      { apply (iterate_inv step vset) with (3 := Hia); [|exact Hset]. intros h h' w Hh Hst'. apply (vset_step _ _ _ _ _ Hst' Hh). }
      assert (L4' : vfit_loop fp step (vzero_rows fp) b oa (lim b (monitor_reset (h_mon (v_h v1)))) = Ok (vf, mon_after (lim b (monitor_reset (h_mon (v_h v1)))) (skipn a (m_history mf)), evb)).
      { apply (vloop_back fp step (vzero_rows fp) zr' Z b Z1 Z2 _ _ _ _ _ L4); [reflexivity|]. cbn [mon_after lim monitor_reset m_history app length].
        destruct Z3 as [Z3|Z3]; [left; rewrite skipn_length; lia|right]. intros o1 w Ho.
        destruct va as [|w0 va].
        - cbn [length iterate] in Hia. injection Hia as <-. apply (Z3 _ _ Ho).
        - apply (Z1 _ _ _ Ho). cbn [length iterate] in Hia. apply bind_inv in Hia as ([o2 w2] & Hs & Hia).
          apply bind_inv in Hia as ([o3 vs3] & Hia & E3). injection E3 as -> -> ->.
          apply (iterate_inv step Z) with (3 := Hia); [|apply (Z3 _ _ Hs)]. intros h h' w3 Hh Hst'. apply (Z1 _ _ _ Hst' Hh). }
      set (ma := mon_after (lim a (monitor_reset (h_mon (v_h v1)))) (firstn a (m_history mf))) in *.
      unfold vno_init_params in Hf2. cbn [ve_v ve_rs] in Hf2. change (h_mon (v_h (re_cfg (cfg_n_iter a) ma oa))) with ma in Hf2.
      assert (Hk : vset (re_cfg (cfg_n_iter a) ma oa)). { destruct Hseta as [Q1 Q2]. split; [exact Q1|]. apply K6. exact Q2. }
      destruct (vfit_again b _ ma _ _ _ _ _ _ _ Hk Hf2) as (v2 & m2 & ev & F & Fe).
      destruct (B1 a) as (F1 & F2 & F3 & N1 & N2 & N3 & N4 & N5 & N6 & N7). rewrite (re_loop _ F1 F2 F3 N2 N3 N4 N5 N6 N7) in F. fold step in F.
      change (lim b (monitor_reset ma)) with (lim b (monitor_reset (h_mon (v_h v1)))) in F. rewrite L4' in F. cbn [bind] in F. injection F as <- <- _.
      split; [unfold vequal_models; rewrite Fe; repeat split|]. rewrite Fe. cbn [re_cfg v_h h_mon mon_after lim monitor_reset m_history app ve_v]. apply firstn_skipn.
  Qed.
End VParts.

(** ** The property. *)
Definition vtwo_parts {P X St G} (V : vclass P X St) (I : vinitclass P X G) (rg : rng G) (fp : fpmode) : Prop :=
  forall a b e glob x ls ef gf evf,
  vfit V I rg fp (vbuilt (a + b) e) glob x ls = Ok (ef, gf, evf) ->
  exists e1 ev1, vfit V I rg fp (vbuilt a e) glob x ls = Ok (e1, gf, ev1)
    /\ ve_rs e1 = ve_rs ef
    /\ ((length (vhistory ef) <= a)%nat -> vequal_models e1 ef /\ vhistory e1 = vhistory ef)
    /\ ((a < length (vhistory ef))%nat -> vhistory e1 = firstn a (vhistory ef)
        /\ forall glob2 e2 g2 ev2,
           vfit V I rg fp (vbuilt b (vno_init_params e1)) glob2 x ls = Ok (e2, g2, ev2) ->
           (a + 2 <= length (vhistory ef))%nat \/ length (vhistory ef) = (a + b)%nat ->
           vequal_models e2 ef /\ vhistory e1 ++ vhistory e2 = vhistory ef).

Definition vk_set (c : cfg) (nf : option nat) (p : vcatp) : Prop := nf <> None /\ vk_prior p <> None /\ vk_post p <> None.
Lemma vk_check fp c nf p nf' p' : vcat_check fp c nf p = Ok (nf', p') -> vk_set c nf' p' /\ p' = p /\ (nf <> None -> nf' = nf).
Proof.
  unfold vcat_check, vk_set. intros H. destruct (vk_prior p) as [a|] eqn:E1; [|discriminate]. destruct (vk_post p) as [b|] eqn:E2; [|discriminate].
  cbn [attr bind] in H. destruct (negb _); [discriminate|]. destruct (negb _); [discriminate|]. injection H as <- <-. rewrite E1, E2.
  repeat split; try discriminate. destruct nf; [reflexivity|contradiction].
Qed.
Lemma C82_vcategorical_l {G} (rg : rng G) fp : vtwo_parts vcategorical vcat_initc rg fp.
Proof.
  intros a b e glob x ls ef gf evf H.
  refine (vfit_two_parts vcategorical vcat_initc rg fp _ _ _ _ _ vk_set _ _ _ _ _ _ _ a b e glob x ls ef gf evf H); try (intros; reflexivity).
  - intros n. repeat split.
  - repeat split.
  - intros c nf0 p0 y nf1 p1 l rs g p2 rs' g' ev nf3 p3 _ _ Hc. exact (proj1 (vk_check fp c nf1 p2 nf3 p3 Hc)).
  - intros c nf p st p' (H1 & H2 & H3). cbn [ec_mstep vc_em vcategorical]. unfold vcat_mstep. destruct (has _ _); [|intros Q; injection Q as <-; repeat split; assumption].
    destruct (vk_prior p) eqn:E1; [|contradiction]. cbn [attr bind]. intros Q. injection Q as <-. split; [exact H1|split; cbn; discriminate].
  - intros c nf p p' (H1 & H2 & H3). cbn [vc_begin vcategorical]. unfold vcat_begin. destruct (vk_post p) eqn:E1; [|contradiction]. cbn [attr bind]. intros Q. injection Q as <-.
    split; [exact H1|split; [exact H2|cbn; discriminate]].
  - intros c nf p y nf' p' (H1 & _). cbn [vi_nfeat vcat_initc]. unfold vcat_nfeat, cat_nfeat. intros Q. apply bind_inv in Q as ([nf1 q] & Q & E1). injection E1 as <- <-.
    destruct nf as [n|]; [|contradiction]. destruct (Z.ltb _ _); [discriminate|]. destruct (Z.ltb _ _); [discriminate|]. injection Q as <- _. split; reflexivity.
  - intros c nf p y l rs g p' rs' g' ev (_ & _ & H3). cbn [vi_em vcat_initc]. unfold vcat_init_em. intros Q. apply bind_inv in Q as (g1 & _ & Q).
    unfold needs_init in Q. cbn [cfg_no_init c_init_params has] in Q. destruct (vk_post p); [|contradiction]. cbn in Q. injection Q as <- _ _ _. reflexivity.
  - intros c nf p nf' p' (H1 & _) Hc. destruct (vk_check fp c nf p nf' p' Hc) as (_ & -> & Q). split; [apply Q; exact H1|reflexivity].
Qed.
Definition vg_set (c : cfg) (nf : option nat) (p : vgp) : Prop :=
  nf <> None /\ (vg_m0 p <> None /\ vg_m p <> None /\ vg_b0 p <> None /\ vg_b p <> None)
  /\ (vg_d0 p <> None /\ vg_d p <> None /\ vg_s0 p <> None /\ vg_s p <> None).
Lemma vg_checked fp c nf p nf' p' : vg_check fp c nf p = Ok (nf', p') -> vg_set c nf' p' /\ p' = p /\ nf' = nf.
Proof.
  unfold vg_check, vg_set. intros H. apply bind_inv in H as ([] & _ & H). destruct nf as [n|]; [|discriminate]. cbn [attr bind] in H.
  destruct (vg_m0 p) eqn:E1; [|discriminate]. cbn [attr bind] in H. destruct (vg_m p) eqn:E2; [|discriminate]. cbn [attr bind] in H.
  apply bind_inv in H as ([] & _ & H). apply bind_inv in H as ([] & _ & H).
  destruct (vg_b0 p) eqn:E3; [|discriminate]. cbn [attr bind] in H. destruct (vg_b p) eqn:E4; [|discriminate]. cbn [attr bind] in H.
  apply bind_inv in H as ([] & _ & H). apply bind_inv in H as ([] & _ & H).
  destruct (vg_d0 p) eqn:E5; [|discriminate]. cbn [attr bind] in H. destruct (vg_d p) eqn:E6; [|discriminate]. cbn [attr bind] in H.
  apply bind_inv in H as ([] & _ & H). apply bind_inv in H as ([] & _ & H).
  destruct (vg_s0 p) eqn:E7; [|discriminate]. cbn [attr bind] in H. destruct (vg_s p) eqn:E8; [|discriminate]. cbn [attr bind] in H.
  apply bind_inv in H as ([] & _ & H). apply bind_inv in H as ([] & _ & H). injection H as <- <-. rewrite E1, E2, E3, E4, E5, E6, E7, E8.
  repeat split; discriminate.
Qed.
Lemma C82_vgaussian_l {G} la (gr : grng G) (rg : rng G) fp : vtwo_parts (vgaussian la) (vg_initc gr) rg fp.
Proof.
  intros a b e glob x ls ef gf evf H.
  refine (vfit_two_parts (vgaussian la) (vg_initc gr) rg fp _ _ _ _ _ vg_set _ _ _ _ _ _ _ a b e glob x ls ef gf evf H); try (intros; reflexivity).
  - intros n. repeat split.
  - repeat split.
  - intros c nf0 p0 y nf1 p1 l rs g p2 rs' g' ev nf3 p3 _ _ Hc. exact (proj1 (vg_checked fp c nf1 p2 nf3 p3 Hc)).
  - intros c nf p st p' (H1 & (A1 & A2 & A3 & A4) & (D1 & D2 & D3 & D4)). cbn [ec_mstep vc_em vgaussian]. unfold vg_mstep. intros Q.
    apply bind_inv in Q as ([b1 m1] & Q1 & Q). apply bind_inv in Q as ([[d1 s1] cv] & Q2 & Q). injection Q as <-.
    split; [exact H1|]. cbn [vg_m0 vg_m vg_b0 vg_b vg_d0 vg_d vg_s0 vg_s]. split; (split; [assumption|]).
    + assert (K : b1 <> None /\ m1 <> None).
      { destruct (has "m" _); [|injection Q1 as <- <-; split; assumption]. apply bind_inv in Q1 as (u1 & _ & Q1). apply bind_inv in Q1 as (u2 & _ & Q1). apply bind_inv in Q1 as (u3 & _ & Q1).
        destruct (vg_means_upd _ _ _ _ _). injection Q1 as <- <-. split; discriminate. }
      repeat split; [apply K|assumption|apply K].
    + assert (K : d1 <> None /\ s1 <> None).
      { destruct (_ && _)%bool; [|injection Q2 as <- <- _; split; assumption]. repeat (apply bind_inv in Q2 as (? & _ & Q2)).
        match type of Q2 with (let '(_, _) := ?t in _) = _ => destruct t as [[? ?] ?] | _ => idtac end. injection Q2 as <- <- _. split; discriminate. }
      repeat split; [apply K|assumption|apply K].
  - intros c nf p p' H1 Q. injection Q as <-. exact H1.
  - intros c nf p y nf' p' (H1 & _). cbn [vi_nfeat vg_initc]. unfold vg_nfeat, set_n_features. intros Q. apply bind_inv in Q as (nf1 & Q & E1). injection E1 as <- <-.
    destruct nf as [n|]; [|contradiction]. destruct (Nat.eqb _ _); [|discriminate]. injection Q as <-. split; reflexivity.
  - intros c nf p y l rs g p' rs' g' ev (_ & (A1 & A2 & A3 & A4) & (D1 & D2 & D3 & D4)). cbn [vi_em vg_initc]. unfold vg_init_em. intros Q.
    apply bind_inv in Q as ([[[lb cs] rs1] gl1] & _ & Q). unfold needs_any, needs_init in Q. cbn [cfg_no_init c_init_params has] in Q.
    destruct p as [ty ma ba da sa m0 m b0 b1 d0 d s0 s cv]. cbn [vg_m0 vg_m vg_b0 vg_b vg_d0 vg_d vg_s0 vg_s vg_cov vg_type vg_marg vg_barg vg_darg vg_sarg] in *.
    destruct m0; [|contradiction]. destruct m; [|contradiction]. destruct b0; [|contradiction]. destruct b1; [|contradiction].
    destruct d0; [|contradiction]. destruct d; [|contradiction]. destruct s0; [|contradiction]. destruct s; [|contradiction]. cbn in Q. injection Q as <- _ _ _. reflexivity.
  - intros c nf p nf' p' _ Hc. destruct (vg_checked fp c nf p nf' p' Hc) as (_ & -> & ->). split; reflexivity.
Qed.
