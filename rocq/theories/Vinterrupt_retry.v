(** * Property lemmas C81: variational classes, trying again. *)
From Verif Require Export Vinterrupt_args.

(** ** What an attempt leaves alone. *)
Section Traced.
  Context {P X St G : Type} (V : vclass P X St) (I : vinitclass P X G) (L : vleftclass P X G) (rg : rng G) (fp : fpmode).
  Variable T : cfg -> P -> P -> Prop.
  Hypothesis T1 : forall c p, T c p p.
  Hypothesis T2 : forall c p q r, T c p q -> T c q r -> T c p r.
  Hypothesis Hn : forall c nf p x nf' p', vi_nfeat I c nf p x = Ok (nf', p') -> p' = p.
  Hypothesis He : forall c nf p x l rs g p' rs' g' ev, vi_em I fp rg c nf p x l rs g = Ok (p', rs', g', ev) -> T c p p'.
  Hypothesis Le : forall c nf p x l rs g p' rs' g', vl_em L fp rg c nf p x l rs g = (p', rs', g') -> T c p p'.
  Hypothesis Hc : forall c nf p nf' p', ec_check (vc_em V) fp c nf p = Ok (nf', p') -> p' = p.
  Hypothesis Lc : forall c nf p, snd (vl_check L fp c nf p) = p.
  Hypothesis Hb : forall c nf p p', c_n_iter c <> 0%nat -> vc_begin V fp c nf p = Ok p' -> T c p p'.
  Hypothesis Hm : forall c nf p st p', c_n_iter c <> 0%nat -> ec_mstep (vc_em V) fp c nf p st = Ok p' -> T c p p'.

  Record traced (v v' : vhmm P) : Prop := Traced {
    tr_cfg : v_cfg v' = v_cfg v; tr_sarg : v_sarg v' = v_sarg v; tr_targ : v_targ v' = v_targ v;
    tr_em : T (v_cfg v) (h_em (v_h v)) (h_em (v_h v'));
    tr_start : has "s" (c_params (v_cfg v)) = false \/ c_n_iter (v_cfg v) = 0%nat -> h_start (v_h v') = h_start (v_h v);
    tr_trans : has "t" (c_params (v_cfg v)) = false \/ c_n_iter (v_cfg v) = 0%nat -> h_trans (v_h v') = h_trans (v_h v);
    tr_mon : monitor_reset (h_mon (v_h v')) = monitor_reset (h_mon (v_h v)) }.
  Lemma traced_refl v : traced v v. Proof. constructor; auto. Qed.
  Lemma traced_trans a b c : traced a b -> traced b c -> traced a c.
  Proof.
    intros [A1 A2 A3 A4 A5 A6 A7] [B1 B2 B3 B4 B5 B6 B7]. rewrite A1 in *. constructor; try congruence.
    - apply (T2 _ _ _ _ A4 B4).
    - intros H. rewrite B5, A5; auto.
    - intros H. rewrite B6, A6; auto.
  Qed.
  Lemma traced_em v nf p : T (v_cfg v) (h_em (v_h v)) p -> traced v (with_h v (set_em (v_h v) nf p)).
  Proof. intros H. constructor; auto. Qed.
  Definition tends (o : voutcome P G) (e : vest P G) : Prop :=
    match o with VReturned e' _ _ => traced (ve_v e) (ve_v e') | VRaised e' _ _ => traced (ve_v e) (ve_v e') end.

  Lemma vwith_traced v nf sp sq tp tq : traced v (vwith v nf (h_em (v_h v)) sp sq tp tq).
  Proof. constructor; auto. Qed.
  Lemma vbase_init_run_traced e glob x l : tends (vbase_init_run I rg fp e glob x l) e.
  Proof.
    unfold vbase_init_run. set (c := h_cfg (v_h (ve_v e))). destruct (vi_nfeat I c _ _ x) as [[nf p]|ex] eqn:En; [|apply traced_refl]. apply Hn in En as ->.
    destruct (Nat.eqb (c_nc c) 0); [apply vwith_traced|]. destruct (rs_get rg (ve_rs e) glob) as [g|ex]; [|apply vwith_traced].
    destruct (needs_init2 c "s" _ _ _ _) as [ns ev1]. destruct (if ns then _ else _) as [sp|ex]; [|apply vwith_traced].
    destruct (if ns then _ else _) as [[sq g1]|ex]; [|apply vwith_traced].
    destruct (needs_init2 c "t" _ _ _ _) as [nt ev2].
    destruct (if nt then _ else _) as [tp|ex].
    2:{ destruct (rs_put (ve_rs e) glob g1) eqn:Ep. apply vwith_traced. }
    destruct (if nt then _ else _) as [[tq g2]|ex].
    2:{ destruct (rs_put (ve_rs e) glob g1) eqn:Ep. apply vwith_traced. }
    destruct (rs_put (ve_rs e) glob g2) eqn:Ep. destruct (bind _ _); apply vwith_traced.
  Qed.
  Lemma vinit_run_traced e glob x l : tends (vinit_run I L rg fp e glob x l) e.
  Proof.
    unfold vinit_run. pose proof (vbase_init_run_traced e glob x l) as B. destruct (vbase_init_run I rg fp e glob x l) as [e1 g1 ev1|e1 g1 ex]; [|exact B].
    destruct (vi_em I fp rg _ _ _ x l _ g1) as [[[[p rs] g2] ev2]|ex] eqn:Ee.
    - apply He in Ee. apply (traced_trans _ _ _ B). apply traced_em. exact Ee.
    - destruct (vl_em L fp rg _ _ _ x l _ g1) as [[p rs] g2] eqn:El. apply Le in El. apply (traced_trans _ _ _ B). apply traced_em. exact El.
  Qed.
  Lemma vmstep_left_traced v st : c_n_iter (v_cfg v) <> 0%nat -> traced v (vmstep_left (St := St) fp v st).
  Proof.
    intros Hi. unfold vmstep_left. destruct (has "s" _) eqn:Es.
    - destruct (v_sprior v) as [sp|]; [|apply traced_refl]. cbn [attr bind]. destruct (has "t" _) eqn:Et; [destruct (v_tprior v)|];
        (constructor; cbn [v_cfg v_h h_cfg h_em h_start h_trans h_mon v_sarg v_targ]; auto; intros [H|H]; congruence).
    - destruct (has "t" _) eqn:Et; [destruct (v_tprior v)|];
        (constructor; cbn [v_cfg v_h h_cfg h_em h_start h_trans h_mon v_sarg v_targ]; auto; intros [H|H]; congruence).
  Qed.
  Lemma vstep_left_traced x ls v : c_n_iter (v_cfg v) <> 0%nat -> traced v (vstep_left V fp x ls v).
  Proof.
    intros Hi. unfold vstep_left. destruct (v_spost v); [|apply traced_refl]. destruct (v_tpost v); [|apply traced_refl].
    destruct (vc_begin V fp _ _ _) as [p|] eqn:Eb; [|apply traced_refl]. apply (Hb _ _ _ _ Hi) in Eb.
    assert (K : traced v (with_h v (set_em (v_h v) (h_nfeat (v_h v)) p))) by (apply traced_em; exact Eb).
    destruct (vestep V fp x ls v) as [[[? st] lp]|]; [|exact K]. destruct (vlower_bound _ _ _ _); [|exact K].
    apply (traced_trans _ _ _ K). apply vmstep_left_traced. exact Hi.
  Qed.
  Lemma vb_step_traced x ls v v' lb : c_n_iter (v_cfg v) <> 0%nat -> vb_step V fp x ls v = Ok (v', lb) -> traced v v'.
  Proof.
    intros Hi. unfold vb_step. intros H. apply bind_inv in H as ([[v1 st] lp] & H1 & H). apply bind_inv in H as (lb' & _ & H).
    apply bind_inv in H as (v2 & H2 & H). assert (v2 = v') as -> by congruence. clear H.
    unfold vestep in H1. apply bind_inv in H1 as (sq & _ & H1). apply bind_inv in H1 as (tq & _ & H1).
    apply bind_inv in H1 as (p & Hbb & H1). apply bind_inv in H1 as ([st' lp'] & _ & H1).
    assert (with_h v (set_em (v_h v) (h_nfeat (v_h v)) p) = v1) as <- by congruence.
    apply (traced_trans _ _ _ (traced_em v (h_nfeat (v_h v)) p (Hb _ _ _ _ Hi Hbb))).
    set (w := with_h v _) in *. assert (Hi' : c_n_iter (v_cfg w) <> 0%nat) by exact Hi. clearbody w.
    unfold vmstep in H2. apply bind_inv in H2 as ([sq' s] & Hs & H2). apply bind_inv in H2 as ([tq' t] & Ht & H2).
    apply bind_inv in H2 as (p2 & Hmm & H2). apply (Hm _ _ _ _ _ Hi') in Hmm.
    match type of H2 with Ok ?a = _ => assert (a = v') as <- by congruence end. clear H2.
    constructor; cbn [v_cfg v_h h_cfg h_em h_start h_trans h_mon v_sarg v_targ]; auto.
    - intros [K|K]; [|contradiction]. rewrite K in Hs. congruence.
    - intros [K|K]; [|contradiction]. rewrite K in Ht. congruence.
  Qed.
  Lemma vloop_run_traced x ls n : forall v m v2 m2 r, (n <> 0 -> c_n_iter (v_cfg v) <> 0)%nat -> vloop_run V fp x ls n v m = (v2, m2, r) ->
    traced v v2 /\ monitor_reset m2 = monitor_reset m.
  Proof.
    induction n as [|n IH]; intros v m v2 m2 r Hi H; cbn [vloop_run] in H.
    - injection H as <- <- _. split; [apply traced_refl|reflexivity].
    - specialize (Hi ltac:(discriminate)). destruct (vb_step V fp x ls v) as [[v' lb]|ex'] eqn:Es; [|injection H as <- <- _; split; [apply vstep_left_traced; exact Hi|reflexivity]].
      apply (vb_step_traced _ _ _ _ _ Hi) in Es. destruct (monitor_report fp m lb) as [m' ev] eqn:Em.
      assert (Hmm : monitor_reset m' = monitor_reset m). { unfold monitor_report in Em. injection Em as <- _. reflexivity. }
      destruct (converged fp m'); [injection H as <- <- _; auto|].
      destruct (vzero_rows fp v'); [|injection H as <- <- _; auto].
      destruct (vloop_run V fp x ls n v' m') as [[v3 m3] r3] eqn:El. injection H as <- <- _.
      destruct (IH v' m' v3 m3 r3) as (I1 & I2); [intros _; rewrite (tr_cfg _ _ Es); exact Hi|exact El|]. split; [apply (traced_trans _ _ _ Es I1)|congruence].
  Qed.
  Lemma vfit_run_traced e glob x ls : tends (vfit_run V I L rg fp e glob x ls) e.
  Proof.
    unfold vfit_run. destruct (check_array _ x) as [y|]; [|apply traced_refl]. set (l := match ls with None => _ | Some l => l end). clearbody l.
    pose proof (vinit_run_traced e glob y l) as B. destruct (vinit_run I L rg fp e glob y l) as [e1 g1 ev1|e1 g1 ex]; [|exact B].
    cbn [tends] in B. destruct (vcheck V fp (ve_v e1)) as [v1|ex] eqn:Ec.
    - assert (C : traced (ve_v e1) v1).
      { unfold vcheck in Ec. apply bind_inv in Ec as ([] & _ & Ec). apply bind_inv in Ec as ([nf p] & Hcc & Ec).
        assert (with_h (ve_v e1) (set_em (v_h (ve_v e1)) nf p) = v1) as <- by congruence. apply traced_em. rewrite (Hc _ _ _ _ _ Hcc). apply T1. }
      destruct (vloop_run V fp y _ _ v1 _) as [[v2 m] r] eqn:El. apply vloop_run_traced in El as (El & Em); [|auto].
      assert (K : traced (ve_v e) (vmon_set v2 m)).
      { apply (traced_trans _ _ _ B). apply (traced_trans _ _ _ C). destruct El as [A1 A2 A3 A4 A5 A6 A7]. constructor; assumption. }
      destruct r; exact K.
    - apply (traced_trans _ _ _ B). cbn [ve_v]. unfold vcheck_left. destruct (if vc_super_check V then _ else _); [|apply traced_refl].
      pose proof (Lc (v_cfg (ve_v e1)) (h_nfeat (v_h (ve_v e1))) (h_em (v_h (ve_v e1)))) as K. destruct (vl_check L fp _ _ _) as [nf p]. cbn [snd] in K. subst p. apply traced_em. apply T1.
  Qed.
End Traced.

(** ** Training from states that differ only in what the first iteration
    overwrites. *)
Section Cong.
  Context {P X St : Type} (V : vclass P X St) (fp : fpmode).
  Let E := vc_em V.
  Variable Q : cfg -> P -> P -> Prop.
  Hypothesis Qc : forall c nf p q nf' p', Q c p q -> ec_check E fp c nf p = Ok (nf', p') -> p' = p /\ ec_check E fp c nf q = Ok (nf', q).
  Hypothesis Qb : forall c nf p q p1, Q c p q -> vc_begin V fp c nf p = Ok p1 -> exists q1, vc_begin V fp c nf q = Ok q1
    /\ (forall x, vc_subll V fp c nf q1 x = vc_subll V fp c nf p1 x) /\ ec_stats0 E fp c nf q1 = ec_stats0 E fp c nf p1
    /\ (forall st x post, ec_acc E fp c nf q1 st x post = ec_acc E fp c nf p1 st x post)
    /\ (forall lb, vc_bound V fp c nf q1 lb = vc_bound V fp c nf p1 lb)
    /\ (forall st, ec_mstep E fp c nf q1 st = ec_mstep E fp c nf p1 st).

  Section Two.
    Variables (c : cfg) (nf : option nat) (p q : P).
    Hypothesis S1 : forall x, vc_subll V fp c nf q x = vc_subll V fp c nf p x.
    Hypothesis S2 : ec_stats0 E fp c nf q = ec_stats0 E fp c nf p.
    Hypothesis S3 : forall st x post, ec_acc E fp c nf q st x post = ec_acc E fp c nf p st x post.
    Lemma two_estep_seq a b m m' s t st x :
      estep_seq (sub_em V) fp (Hmm c nf a b m q) s t st x = estep_seq (sub_em V) fp (Hmm c nf a b m' p) s t st x.
    Proof.
      unfold estep_seq. cbn [h_cfg h_nfeat h_em]. apply bind_ext. intros lg.
      replace (if lg : bool then fit_log (sub_em V) fp (Hmm c nf a b m q) s t x else fit_scaling (sub_em V) fp (Hmm c nf a b m q) s t x)
        with (if lg : bool then fit_log (sub_em V) fp (Hmm c nf a b m' p) s t x else fit_scaling (sub_em V) fp (Hmm c nf a b m' p) s t x).
      2:{ unfold fit_log, fit_scaling, loglik, lik. cbn [h_cfg h_nfeat h_em sub_em ec_loglik ec_lik]. rewrite S1. reflexivity. }
      apply bind_ext. intros [[[[la lp] po] fw] bw].
      replace (acc_base fp lg (Hmm c nf a b m q) t st la po fw bw) with (acc_base fp lg (Hmm c nf a b m' p) t st la po fw bw) by reflexivity.
      apply bind_ext. intros st'. cbn [sub_em ec_acc]. fold E. rewrite S3. reflexivity.
    Qed.
    Lemma two_estep_loop a b m m' s t xs : forall st lp,
      estep_loop (sub_em V) fp (Hmm c nf a b m q) s t st lp xs = estep_loop (sub_em V) fp (Hmm c nf a b m' p) s t st lp xs.
    Proof.
      induction xs as [|x xs IH]; intros st lp; [reflexivity|]. cbn [estep_loop]. rewrite (two_estep_seq a b m m'). apply bind_ext. intros [st' l]. apply IH.
    Qed.
    Lemma two_do_estep a b m m' s t x ls :
      do_estep (sub_em V) fp (Hmm c nf a b m q) s t x ls = do_estep (sub_em V) fp (Hmm c nf a b m' p) s t x ls.
    Proof.
      unfold do_estep. cbn [h_cfg]. destruct (_ || _)%bool; [|reflexivity]. apply bind_ext. intros xs.
      rewrite (two_estep_loop a b m m'). unfold stats0. cbn [h_cfg h_nfeat h_em sub_em ec_stats0]. fold E. rewrite S2. reflexivity.
    Qed.
  End Two.

  Record alike (v w : vhmm P) : Prop := Alike {
    al_cfg : h_cfg (v_h w) = h_cfg (v_h v); al_nf : h_nfeat (v_h w) = h_nfeat (v_h v);
    al_sarg : v_sarg w = v_sarg v; al_targ : v_targ w = v_targ v;
    al_sp : v_sprior w = v_sprior v; al_sq : v_spost w = v_spost v; al_tp : v_tprior w = v_tprior v; al_tq : v_tpost w = v_tpost v;
    al_start : has "s" (c_params (h_cfg (v_h v))) = false -> h_start (v_h w) = h_start (v_h v);
    al_trans : has "t" (c_params (h_cfg (v_h v))) = false -> h_trans (v_h w) = h_trans (v_h v);
    al_em : Q (h_cfg (v_h v)) (h_em (v_h v)) (h_em (v_h w)) }.
  Definition id_cfg (c : cfg) : cfg := c.
  Lemma alike_step x ls v w v' lb : alike v w -> vb_step V fp x ls v = Ok (v', lb) -> vb_step V fp x ls w = Ok (re_cfg id_cfg (h_mon (v_h w)) v', lb).
  Proof.
    intros [A1 A2 A3 A4 A5 A6 A7 A8 A9 A10 A11]. destruct v as [[c nf a b mo p] sa ta sp sq tp tq], w as [[c2 nf2 a2 b2 mo2 p2] sa2 ta2 sp2 sq2 tp2 tq2].
    cbn [v_h v_sarg v_targ v_sprior v_spost v_tprior v_tpost h_cfg h_nfeat h_start h_trans h_mon h_em] in *. subst c2 nf2 sa2 ta2 sp2 sq2 tp2 tq2.
    unfold vb_step, vestep, with_h, set_em. cbn [v_h v_sarg v_targ v_sprior v_spost v_tprior v_tpost h_cfg h_nfeat h_start h_trans h_mon h_em].
    destruct sq as [sq|]; [|discriminate]. destruct tq as [tq|]; [|discriminate]. cbn [attr bind].
    destruct (vc_begin V fp c nf p) as [p1|] eqn:Eb; [|discriminate]. destruct (Qb _ _ _ _ _ A11 Eb) as (q1 & -> & S1 & S2 & S3 & S4 & S5). cbn [bind].
    rewrite (two_do_estep c nf p1 q1 S1 S2 S3 _ _ mo2 mo). destruct (do_estep _ _ _ _ _ _ _) as [[st lp]|]; [|discriminate]. cbn [bind].
    unfold vlower_bound, v_cfg. cbn [v_h v_sarg v_targ v_sprior v_spost v_tprior v_tpost h_cfg h_nfeat h_start h_trans h_mon h_em attr bind].
    destruct sp as [sp|]; [|discriminate]. cbn [attr bind]. destruct tp as [tp|]; [|discriminate]. cbn [attr bind]. rewrite S4.
    destruct (vc_bound V fp c nf p1 _) as [lb'|]; [|discriminate]. cbn [bind].
    unfold vmstep, v_cfg. cbn [v_h v_sarg v_targ v_sprior v_spost v_tprior v_tpost h_cfg h_nfeat h_start h_trans h_mon h_em attr bind].
    fold E. rewrite S5. destruct (has "s" _); destruct (has "t" _); cbn [bind]; try rewrite A9 by reflexivity; try rewrite A10 by reflexivity;
      (destruct (ec_mstep E fp c nf p1 (st_em st)) as [p3|]; [|discriminate]; cbn [bind]; intros H; injection H as <- <-; reflexivity).
  Qed.
  Lemma id_blind : vblind V fp id_cfg. Proof. repeat split. Qed.
  Lemma alike_fit v w x l v' ev : alike v w -> monitor_reset (h_mon (v_h w)) = monitor_reset (h_mon (v_h v)) ->
    (c_n_iter (v_cfg v) = 0%nat -> w = re_cfg id_cfg (h_mon (v_h w)) v) ->
    vfit_from V fp v x l = Ok (v', ev) -> vfit_from V fp w x l = Ok (v', ev).
  Proof.
    intros A M Z H. unfold vfit_from in H |- *. apply bind_inv in H as (v1 & H1 & H). apply bind_inv in H as ([[v2 m] ev2] & H2 & H).
    assert (K : exists w1, vcheck V fp w = Ok w1 /\ alike v1 w1 /\ h_mon (v_h w1) = h_mon (v_h w) /\ h_mon (v_h v1) = h_mon (v_h v) /\ v_cfg v1 = v_cfg v
              /\ (c_n_iter (v_cfg v) = 0%nat -> w1 = re_cfg id_cfg (h_mon (v_h w)) v1)).
    { unfold vcheck in H1 |- *. unfold vbase_check in H1 |- *. unfold v_cfg in *. rewrite (al_cfg _ _ A), (al_sp _ _ A), (al_sq _ _ A), (al_tp _ _ A), (al_tq _ _ A), (al_nf _ _ A).
      apply bind_inv in H1 as ([] & Hu & H1). rewrite Hu. cbn [bind]. apply bind_inv in H1 as ([nf p] & Hcc & H1).
      destruct (Qc _ _ _ _ _ _ (al_em _ _ A) Hcc) as (-> & Hq). fold E. rewrite Hq. cbn [bind]. eexists. split; [reflexivity|].
      match type of H1 with Ok ?a = _ => assert (a = v1) as <- by congruence end.
      split; [destruct A; constructor; first [assumption|reflexivity]|]. split; [reflexivity|]. split; [reflexivity|]. split; [reflexivity|].
      intros Hz. specialize (Z Hz). rewrite Z. reflexivity. }
    destruct K as (w1 & -> & A1 & Mw & Mv & Cv & Z1). cbn [bind]. unfold v_cfg in *. rewrite (al_cfg _ _ A1), Mw, M, <- Mv.
    assert (L : vfit_loop fp (vb_step V fp x (Some l)) (vzero_rows fp) (c_n_iter (h_cfg (v_h v1))) w1 (monitor_reset (h_mon (v_h v1)))
                = Ok (re_cfg id_cfg (h_mon (v_h w)) v2, m, ev2)).
    { destruct id_blind as (F1 & F2 & F3 & N1 & N2 & N3 & N4 & N5 & N6 & N7).
      destruct (c_n_iter (h_cfg (v_h v1))) as [|n] eqn:En.
      - cbn [vfit_loop] in H2 |- *. rewrite Z1 by congruence. assert (v1 = v2 /\ monitor_reset (h_mon (v_h v1)) = m /\ [] = ev2) as (<- & <- & <-) by (repeat split; congruence). reflexivity.
      - cbn [vfit_loop] in H2 |- *. apply bind_inv in H2 as ([v3 lb] & Hs & H2). rewrite (alike_step _ _ _ _ _ _ A1 Hs), Mw. cbn [bind].
        destruct (monitor_report fp _ lb) as [m' ev']. destruct (converged fp m').
        + assert (v3 = v2 /\ m' = m /\ ev' = ev2) as (<- & <- & <-) by (repeat split; congruence). reflexivity.
        + change (vzero_rows fp (re_cfg id_cfg (h_mon (v_h w)) v3)) with (vzero_rows fp v3). apply bind_inv in H2 as (z & -> & H2). cbn [bind].
          rewrite (re_loop V fp id_cfg F1 F2 F3 N2 N3 N4 N5 N6 N7). apply bind_inv in H2 as ([[v4 m4] ev4] & -> & H2). cbn [bind].
          assert (v4 = v2 /\ m4 = m) as (<- & <-) by (split; congruence).
          match type of H2 with Ok (_, _, ?a) = _ => assert (a = ev2) as <- by congruence end. reflexivity. }
    rewrite L. cbn [bind]. rewrite <- H. reflexivity.
  Qed.
End Cong.
Lemma alike_equal {P} (Q : cfg -> P -> P -> Prop) v w : alike Q v w -> h_start (v_h w) = h_start (v_h v) -> h_trans (v_h w) = h_trans (v_h v) ->
  h_em (v_h w) = h_em (v_h v) -> w = re_cfg id_cfg (h_mon (v_h w)) v.
Proof.
  intros [A1 A2 A3 A4 A5 A6 A7 A8 _ _ _] B1 B2 B3. destruct v as [[c nf a b mo p] sa ta sp sq tp tq], w as [[c2 nf2 a2 b2 mo2 p2] sa2 ta2 sp2 sq2 tp2 tq2].
  unfold re_cfg, id_cfg. cbn [v_h v_sarg v_targ v_sprior v_spost v_tprior v_tpost h_cfg h_nfeat h_start h_trans h_mon h_em] in *. subst. reflexivity.
Qed.
Lemma vbase_init_rest {P X G} (I : vinitclass P X G) (rg : rng G) fp e glob x l e1 g1 ev : vbase_init I rg fp e glob x l = Ok (e1, g1, ev) ->
  h_start (v_h (ve_v e1)) = h_start (v_h (ve_v e)) /\ h_trans (v_h (ve_v e1)) = h_trans (v_h (ve_v e)) /\ h_mon (v_h (ve_v e1)) = h_mon (v_h (ve_v e)).
Proof.
  unfold vbase_init. intros H. apply bind_inv in H as ([nf p] & _ & H). destruct (Nat.eqb _ 0); [discriminate|]. apply bind_inv in H as (g & _ & H).
  destruct (needs_init2 _ "s" _ _ _ _) as [ns ev1]. apply bind_inv in H as ([[sp sq] g2] & _ & H).
  destruct (needs_init2 _ "t" _ _ _ _) as [nt ev2]. apply bind_inv in H as ([[tp tq] g3] & _ & H).
  destruct (rs_put _ _ _) as [r gl]. apply bind_inv in H as (d & _ & H). apply bind_inv in H as (n & _ & H). injection H as <- _ _. auto.
Qed.
Lemma vfit_parts {P X St G} (V : vclass P X St) (I : vinitclass P X G) (rg : rng G) fp e glob x ls e1 g1 ev : vfit V I rg fp e glob x ls = Ok (e1, g1, ev) ->
  let l := match ls with None => [Z.of_nat (length x)] | Some l => l end in
  check_array (ec_xok (vc_em V)) x = Ok x /\ exists ea va v2 ev2, vinit I rg fp e glob x l = Ok (ea, g1, va) /\ vfit_from V fp (ve_v ea) x l = Ok (v2, ev2)
    /\ e1 = VEst v2 (ve_rs ea).
Proof.
  cbv zeta. unfold vfit. intros H. apply bind_inv in H as (x' & Hx & H). assert (x' = x) as ->.
  { unfold check_array in Hx. destruct x; [discriminate|]. destruct (forallb _ _); [|discriminate]. now injection Hx. }
  split; [exact Hx|]. apply bind_inv in H as ([[ea ga] va] & H1 & H). apply bind_inv in H as ([v2 ev2] & H2 & H). injection H as <- <- _. eauto 10.
Qed.

(** ** VariationalGaussianHMM. *)
Definition vg_same (c : cfg) (p q : vgp) : Prop := vg_args q = vg_args p.
Lemma vg_run_traced {G} la (gr : grng G) (rg : rng G) fp e glob x ls :
  tends vg_same (vfit_run (vgaussian la) (vg_initc gr) (vg_left gr) rg fp e glob x ls) e.
Proof.
  apply vfit_run_traced; unfold vg_same.
  - reflexivity.
  - congruence.
  - cbn [vi_nfeat vg_initc]. unfold vg_nfeat. intros c nf p y nf' p' E0. apply bind_inv in E0 as (a & _ & E0). injection E0 as _ <-. reflexivity.
  - intros c nf p y l rs g p' rs' g' v E0. apply (vg_args_init gr fp rg c nf p y l rs g p' rs' g' v E0).
  - intros c nf p y l rs g p' rs' g' E0. apply (vg_left_args _ _ _ _ _ _ _ _ _ _ _ _ _ E0).
  - cbn [ec_check vc_em vgaussian]. unfold vg_check. intros c nf p nf' p' E0. repeat (apply bind_inv in E0 as (? & _ & E0)). injection E0 as _ <-. reflexivity.
  - reflexivity.
  - cbn [vc_begin vgaussian]. intros c nf p p' _ E0. injection E0 as <-. reflexivity.
  - cbn [ec_mstep vc_em vgaussian]. unfold vg_mstep. intros c nf p st p' _ E0.
    apply bind_inv in E0 as ([b m] & _ & E0). apply bind_inv in E0 as ([[d s] cv] & _ & E0). injection E0 as <-. reflexivity.
Qed.
Definition vall_letters {P G} (e : vest P G) (l : list ascii) : Prop := forall a, In a l -> has a (c_init_params (v_cfg (ve_v e))) = true.
Lemma C81_vgaussian_retry_l {G} la (gr : grng G) (rg : rng G) fp e glob x ls e' glob' ex ga gb y ms k e1 g1 v1 :
  vfit_run (vgaussian la) (vg_initc gr) (vg_left gr) rg fp e glob x ls = VRaised e' glob' ex ->
  ve_rs e = RSSeed k -> vall_letters e ["s"; "t"; "m"; "c"]%char ->
  vfit (vgaussian la) (vg_initc gr) rg fp e ga y ms = Ok (e1, g1, v1) ->
  h_nfeat (v_h (ve_v e')) = None \/ h_nfeat (v_h (ve_v e')) = h_nfeat (v_h (ve_v e1)) ->
  exists v2, vfit (vgaussian la) (vg_initc gr) rg fp e' gb y ms = Ok (e1, gb, v2).
Proof.
  intros HR Hk Hl H Hn'. pose proof (vg_run_traced la gr rg fp e glob x ls) as K. rewrite HR in K. cbn [tends] in K.
  destruct (C81_vgaussian_arguments_l _ _ _ _ _ _ _ _ _ _ _ HR) as (_ & R2 & _). rewrite Hk in R2. cbn [same_random_state] in R2.
  assert (Hs := Hl "s"%char ltac:(cbn; auto)). assert (Ht := Hl "t"%char ltac:(cbn; auto)).
  assert (Hm := Hl "m"%char ltac:(cbn; auto)). assert (Hcc := Hl "c"%char ltac:(cbn; auto)).
  destruct (vfit_args (vgaussian la) (vg_initc gr) rg fp (fun _ => tt)) with (7 := H) as (_ & _ & _ & _ & _ & nf1 & p1 & p2 & p3 & Hn & Hc); try reflexivity.
  { intros c nf p z l rs g p' rs' g' v Hi. apply (vg_args_init gr fp rg c nf p z l rs g p' rs' g' v Hi). }
  destruct (vfit_parts _ _ _ _ _ _ _ _ _ _ _ H) as (Hx & ei & w1 & v2 & ev2 & Hi & Hf & ->). cbn [ve_v] in *.
  unfold vfit. rewrite Hx. cbn [bind]. set (l := match ms with None => _ | Some l => l end) in *. clearbody l.
  assert (Hi0 := Hi). unfold vinit in Hi0. apply bind_inv in Hi0 as ([[ea ga1] va] & Hb & Hi0). apply bind_inv in Hi0 as ([[[p rs'] ga2] va2] & Hem & Hi0).
  destruct (vbase_init_inv _ _ _ _ _ _ _ _ _ _ Hb) as (B1 & B2 & B3 & B4 & _). destruct (vbase_init_rest _ _ _ _ _ _ _ _ _ _ Hb) as (D1 & D2 & D3).
  assert (Ep : h_em (v_h (ve_v ea)) = h_em (v_h (ve_v e))).
  { cbn [vi_nfeat vg_initc] in B4. unfold vg_nfeat in B4. apply bind_inv in B4 as (a & _ & B4). injection B4 as _ ->. reflexivity. }
  assert (Hnn : h_nfeat (v_h (ve_v ea)) = Some (width y) /\ h_nfeat (v_h v2) = Some (width y)).
  { rewrite B4 in Hn. injection Hn as E1 _. revert B4 Hc. rewrite <- E1. cbn [vi_nfeat vg_initc ec_check vc_em vgaussian]. unfold vg_nfeat, set_n_features. intros B4 Hc.
    apply bind_inv in B4 as (nf & B4 & E2). injection E2 as E2 _. rewrite <- E2 in *. clear E2.
    assert (nf = Some (width y)) as ->.
    { destruct (h_nfeat (v_h (ve_v e))) as [n|]; [|congruence]. destruct (Nat.eqb_spec n (width y)); [|discriminate]. congruence. }
    split; [reflexivity|]. revert Hc. unfold vg_check. intros Hc. repeat (apply bind_inv in Hc as (? & _ & Hc)). injection Hc as <- _. reflexivity. }
  destruct Hnn as (N1 & N2).
  destruct K as [K1 K2 K3 K4 K5 K6 K7]. unfold vg_same, vg_args in K4. injection K4 as T1 T2 T3 T4 T5.
  destruct (vbase_again (vg_initc gr) rg fp k e ga y l ea ga1 va e' gb Hk R2 Hs Ht K1 K2 K3 Hb) as (-> & Rs & eb & vb & Hb2 & Rb & C1 & C2 & C3 & C4 & C5 & C6 & C7).
  { rewrite N1. cbn [vi_nfeat vg_initc]. unfold vg_nfeat, set_n_features. destruct Hn' as [->| ->]; [reflexivity|]. rewrite N2, Nat.eqb_refl. reflexivity. }
  { cbn [vi_nfit vg_initc]. unfold vg_nfit. rewrite T1, Ep. reflexivity. }
  destruct (vbase_init_inv _ _ _ _ _ _ _ _ _ _ Hb2) as (_ & B2' & B3' & _). destruct (vbase_init_rest _ _ _ _ _ _ _ _ _ _ Hb2) as (D1' & D2' & D3').
  assert (Q : exists vb2, vg_init_em gr fp rg (h_cfg (v_h (ve_v eb))) (h_nfeat (v_h (ve_v eb))) (h_em (v_h (ve_v eb))) y l (ve_rs eb) gb = Ok (p, rs', gb, vb2) /\ rs' = RSSeed k).
  { unfold v_cfg in C1, B1. rewrite C1, C2, C3, Rb. cbn [vi_em vg_initc] in Hem. rewrite Rs, Ep, B1 in Hem. unfold v_cfg in *.
    unfold vg_init_em in Hem |- *. cbn [needs_any] in Hem |- *. unfold needs_init in Hem |- *. rewrite Hm, Hcc in *. rewrite T1, T2, T3, T4, T5.
    unfold kmeans in *. cbn [rs_get] in *. rewrite N1 in *.
    destruct (r_seed rg k) as [g|]; [|discriminate]. cbn [bind] in *. destruct (gr_kmeans gr _ y g) as [[[lab cen] g3]|]; [|discriminate]. cbn [bind rs_put] in *.
    match type of Hem with bind ?d _ = _ => destruct d as [[[[[d0 d1] s0] s1] cv]|] eqn:Ed; [|discriminate] end. cbn [bind] in *.
    injection Hem as <- <- _ _. eexists. split; reflexivity. }
  destruct Q as (vb2 & Q & ->).
  assert (Hei : ei = VEst (with_h (ve_v ea) (set_em (v_h (ve_v ea)) (h_nfeat (v_h (ve_v ea))) p)) (RSSeed k)) by congruence. subst ei.
  unfold vinit. rewrite Hb2. cbn [bind vi_em vg_initc]. rewrite Q. cbn [bind ve_v ve_rs].
  assert (A : alike (fun _ p q => q = p) (with_h (ve_v ea) (set_em (v_h (ve_v ea)) (h_nfeat (v_h (ve_v ea))) p)) (with_h (ve_v eb) (set_em (v_h (ve_v eb)) (h_nfeat (v_h (ve_v eb))) p))).
  { unfold v_cfg in *. constructor; unfold with_h, set_em; cbn [v_h v_sarg v_targ v_sprior v_spost v_tprior v_tpost h_cfg h_nfeat h_start h_trans h_mon h_em]; try congruence.
    - rewrite B1. intros J. rewrite D1', D1, K5; auto.
    - rewrite B1. intros J. rewrite D2', D2, K6; auto. }
  assert (F : vfit_from (vgaussian la) fp (with_h (ve_v eb) (set_em (v_h (ve_v eb)) (h_nfeat (v_h (ve_v eb))) p)) y l = Ok (v2, ev2)).
  { apply (alike_fit (vgaussian la) fp (fun _ p q => q = p)) with (3 := A) (6 := Hf).
    - intros c nf a b nf' p' -> E0. assert (p' = a) as ->; [|split; [reflexivity|exact E0]]. cbn [ec_check vc_em vgaussian] in E0. unfold vg_check in E0.
      repeat (apply bind_inv in E0 as (? & _ & E0)). injection E0 as _ <-. reflexivity.
    - intros c nf a b p4 -> E0. exists p4. split; [exact E0|]. repeat split.
    - unfold with_h, set_em. cbn [v_h h_mon]. rewrite D3', D3. exact K7.
    - unfold v_cfg in *. unfold with_h at 1, set_em at 1. cbn [v_h h_cfg]. rewrite B1. intros Z0. apply (alike_equal _ _ _ A); [| |reflexivity].
      + unfold with_h, set_em. cbn [v_h h_start]. rewrite D1', D1, K5; auto.
      + unfold with_h, set_em. cbn [v_h h_trans]. rewrite D2', D2, K6; auto. }
  rewrite F. cbn [bind]. eexists. reflexivity.
Qed.

(** ** VariationalCategoricalHMM. *)
Definition vk_same (c : cfg) (p q : vcatp) : Prop :=
  vk_arg q = vk_arg p /\ (has "e" (c_params c) = false \/ c_n_iter c = 0%nat -> vk_prob q = vk_prob p) /\ (c_n_iter c = 0%nat -> vk_sub q = vk_sub p).
Lemma vcat_run_traced {G} (rg : rng G) fp e glob x ls : tends vk_same (vfit_run vcategorical vcat_initc vcat_left rg fp e glob x ls) e.
Proof.
  apply vfit_run_traced; unfold vk_same.
  - auto.
  - intros c p q r (A1 & A2 & A3) (B1 & B2 & B3). split; [congruence|]. split; intros J; [rewrite B2, A2|rewrite B3, A3]; auto.
  - cbn [vi_nfeat vcat_initc]. unfold vcat_nfeat. intros c nf p y nf' p' E0. apply bind_inv in E0 as ([a b] & _ & E0). injection E0 as _ <-. reflexivity.
  - cbn [vi_em vcat_initc]. intros c nf p y l rs g p' rs' g' v E0. unfold vcat_init_em in E0.
    apply bind_inv in E0 as (g0 & _ & E0). destruct (needs_init c "e" _ _) as [[] w]; [|injection E0 as <- _ _ _; auto].
    destruct (Nat.eqb _ 0); [discriminate|]. apply bind_inv in E0 as (pr & _ & E0). apply bind_inv in E0 as (a0 & _ & E0).
    apply bind_inv in E0 as ([q g1] & _ & E0). destruct (rs_put rs g g1). injection E0 as <- _ _ _. auto.
  - cbn [vl_em vcat_left]. intros c nf p y l rs g p' rs' g' E0. destruct (rs_get _ _ _); [|injection E0 as <- _ _; auto].
    destruct (_ && _)%bool; [|injection E0 as <- _ _; auto]. destruct (full2 _ _ _); injection E0 as <- _ _; auto.
  - cbn [ec_check vc_em vcategorical]. unfold vcat_check. intros c nf p nf' p' E0.
    apply bind_inv in E0 as (pr & _ & E0). apply bind_inv in E0 as (po & _ & E0). destruct (negb _); [discriminate|].
    destruct (negb _); [discriminate|]. injection E0 as _ <-. reflexivity.
  - cbn [vl_check vcat_left]. intros c nf p. destruct (vk_prior p); [|reflexivity]. destruct (vk_post p); [|reflexivity]. destruct (_ && _)%bool; reflexivity.
  - cbn [vc_begin vcategorical]. unfold vcat_begin. intros c nf p p' Hi E0. apply bind_inv in E0 as (pr & _ & E0). injection E0 as <-. cbn. split; [reflexivity|]. split; [auto|contradiction].
  - cbn [ec_mstep vc_em vcategorical]. unfold vcat_mstep. intros c nf p st p' Hi E0. destruct (has "e" _); [|injection E0 as <-; auto].
    apply bind_inv in E0 as (pr & _ & E0). injection E0 as <-. cbn. split; [reflexivity|]. split; [intros [J|J]; [discriminate|contradiction]|contradiction].
Qed.
(** Equal but for [emissionprob_], when that is trained, and the derived attribute. *)
Definition vk_alike (c : cfg) (p q : vcatp) : Prop :=
  vk_arg q = vk_arg p /\ vk_prior q = vk_prior p /\ vk_post q = vk_post p /\ (has "e" (c_params c) = false -> vk_prob q = vk_prob p).
Lemma C81_vcategorical_retry_l {G} (rg : rng G) fp e glob x ls e' glob' ex ga gb y ms k e1 g1 v1 :
  vfit_run vcategorical vcat_initc vcat_left rg fp e glob x ls = VRaised e' glob' ex ->
  ve_rs e = RSSeed k -> vall_letters e ["s"; "t"; "e"]%char ->
  vfit vcategorical vcat_initc rg fp e ga y ms = Ok (e1, g1, v1) ->
  h_nfeat (v_h (ve_v e')) = h_nfeat (v_h (ve_v e)) \/ h_nfeat (v_h (ve_v e')) = h_nfeat (v_h (ve_v e1)) ->
  exists v2, vfit vcategorical vcat_initc rg fp e' gb y ms = Ok (e1, gb, v2).
Proof.
  intros HR Hk Hl H Hn'. pose proof (vcat_run_traced rg fp e glob x ls) as K. rewrite HR in K. cbn [tends] in K.
  destruct (C81_vcategorical_arguments_l _ _ _ _ _ _ _ _ _ HR) as (_ & R2 & _). rewrite Hk in R2. cbn [same_random_state] in R2.
  assert (Hs := Hl "s"%char ltac:(cbn; auto)). assert (Ht := Hl "t"%char ltac:(cbn; auto)). assert (He := Hl "e"%char ltac:(cbn; auto)).
  destruct (vfit_args vcategorical vcat_initc rg fp (fun _ => tt)) with (7 := H) as (_ & _ & _ & _ & _ & nf1 & p1 & p2 & p3 & Hn & Hc); try reflexivity.
  { intros c nf p z l rs g p' rs' g' v. apply vcat_rs. }
  destruct (vfit_parts _ _ _ _ _ _ _ _ _ _ _ H) as (Hx & ei & w1 & v2 & ev2 & Hi & Hf & ->). cbn [ve_v] in *.
  unfold vfit. rewrite Hx. cbn [bind]. set (l := match ms with None => _ | Some l => l end) in *. clearbody l.
  assert (Hi0 := Hi). unfold vinit in Hi0. apply bind_inv in Hi0 as ([[ea ga1] va] & Hb & Hi0). apply bind_inv in Hi0 as ([[[p rs'] ga2] va2] & Hem & Hi0).
  destruct (vbase_init_inv _ _ _ _ _ _ _ _ _ _ Hb) as (B1 & B2 & B3 & B4 & _). destruct (vbase_init_rest _ _ _ _ _ _ _ _ _ _ Hb) as (D1 & D2 & D3).
  assert (Ep : h_em (v_h (ve_v ea)) = h_em (v_h (ve_v e))).
  { cbn [vi_nfeat vcat_initc] in B4. unfold vcat_nfeat in B4. apply bind_inv in B4 as ([a b] & _ & B4). injection B4 as _ ->. reflexivity. }
  assert (Hnn : exists n, h_nfeat (v_h (ve_v ea)) = Some n /\ h_nfeat (v_h v2) = Some n
            /\ forall q, vcat_nfeat (v_cfg (ve_v e)) (Some n) q y = Ok (Some n, q) /\ vcat_nfeat (v_cfg (ve_v e)) (h_nfeat (v_h (ve_v e))) q y = Ok (Some n, q)).
  { rewrite B4 in Hn. injection Hn as E1 _. revert B4 Hc. rewrite <- E1. cbn [vi_nfeat vcat_initc ec_check vc_em vcategorical]. unfold vcat_nfeat, cat_nfeat, vcat_check. intros B4 Hc.
    apply bind_inv in B4 as ([nf q] & B4 & E2). injection E2 as E2 _. rewrite <- E2 in *. clear E2. destruct (Z.ltb (zmin y) 0) eqn:Ez; [discriminate|].
    assert (K0 : exists n, nf = Some n /\ (Z.of_nat n - 1 <? zmax y)%Z = false
               /\ (h_nfeat (v_h (ve_v e)) = None -> Some n = Some (Z.to_nat (zmax y + 1))) /\ (forall m, h_nfeat (v_h (ve_v e)) = Some m -> m = n)).
    { destruct (h_nfeat (v_h (ve_v e))) as [n|].
      - destruct (Z.ltb (Z.of_nat n - 1) (zmax y)) eqn:E3; [discriminate|]. injection B4 as <- _. exists n. split; [reflexivity|]. split; [exact E3|]. split; [discriminate|congruence].
      - injection B4 as <- _. eexists. split; [reflexivity|]. split; [apply Z.ltb_ge; lia|]. split; [reflexivity|discriminate]. }
    destruct K0 as (n & -> & K0 & Ka & Kb). exists n. split; [reflexivity|]. rewrite K0. cbn [bind]. split.
    - apply bind_inv in Hc as (pr & _ & Hc). apply bind_inv in Hc as (po & _ & Hc). destruct (negb _); [discriminate|]. destruct (negb _); [discriminate|]. injection Hc as <- _. reflexivity.
    - intros q0. split; [reflexivity|]. destruct (h_nfeat (v_h (ve_v e))) as [m|] eqn:Em.
      + rewrite (Kb m eq_refl), K0. reflexivity.
      + rewrite (Ka eq_refl). reflexivity. }
  destruct Hnn as (n & N1 & N2 & N3).
  destruct K as [K1 K2 K3 (T1 & T2 & T3) K5 K6 K7].
  destruct (vbase_again vcat_initc rg fp k e ga y l ea ga1 va e' gb Hk R2 Hs Ht K1 K2 K3 Hb) as (-> & Rs & eb & vb & Hb2 & Rb & C1 & C2 & C3 & C4 & C5 & C6 & C7).
  { rewrite N1. cbn [vi_nfeat vcat_initc]. destruct Hn' as [->| ->]; [apply N3|]. rewrite N2. apply N3. }
  { reflexivity. }
  destruct (vbase_init_inv _ _ _ _ _ _ _ _ _ _ Hb2) as (_ & B2' & B3' & _). destruct (vbase_init_rest _ _ _ _ _ _ _ _ _ _ Hb2) as (D1' & D2' & D3').
  assert (Q : exists q vb2, vcat_init_em fp rg (h_cfg (v_h (ve_v eb))) (h_nfeat (v_h (ve_v eb))) (h_em (v_h (ve_v eb))) y l (ve_rs eb) gb = Ok (q, rs', gb, vb2) /\ rs' = RSSeed k
     /\ vk_alike (v_cfg (ve_v e)) p q /\ (c_n_iter (v_cfg (ve_v e)) = 0%nat -> q = p)).
  { unfold v_cfg in C1, B1. rewrite C1, C2, C3, Rb. cbn [vi_em vcat_initc] in Hem. rewrite Rs, Ep, B1 in Hem. unfold v_cfg in *.
    unfold vcat_init_em in Hem |- *. unfold needs_init in Hem |- *. rewrite He in *. cbn [rs_get] in *.
    apply bind_inv in Hem as (g & Eg & Hem). rewrite Eg. cbn [bind]. rewrite N1 in *. rewrite T1. destruct (Nat.eqb n 0) eqn:En; [discriminate|].
    apply bind_inv in Hem as (pr & E1 & Hem). rewrite E1. cbn [bind]. apply bind_inv in Hem as (a0 & E2 & Hem). rewrite E2. cbn [bind].
    apply bind_inv in Hem as ([q g2] & E3 & Hem). rewrite E3. cbn [bind rs_put] in *. injection Hem as <- <- _ _.
    do 2 eexists. split; [reflexivity|]. split; [reflexivity|]. split.
    - unfold vk_alike. cbn [vk_arg vk_prior vk_post vk_prob]. split; [reflexivity|]. split; [reflexivity|]. split; [reflexivity|]. intros J. apply T2. auto.
    - intros J. rewrite T2, T3 by auto. reflexivity. }
  destruct Q as (q & vb2 & Q & -> & Q1 & Q2).
  assert (Hei : ei = VEst (with_h (ve_v ea) (set_em (v_h (ve_v ea)) (h_nfeat (v_h (ve_v ea))) p)) (RSSeed k)) by congruence. subst ei.
  unfold vinit. rewrite Hb2. cbn [bind vi_em vcat_initc]. rewrite Q. cbn [bind ve_v ve_rs].
  assert (A : alike vk_alike (with_h (ve_v ea) (set_em (v_h (ve_v ea)) (h_nfeat (v_h (ve_v ea))) p)) (with_h (ve_v eb) (set_em (v_h (ve_v eb)) (h_nfeat (v_h (ve_v eb))) q))).
  { unfold v_cfg in *. constructor; unfold with_h, set_em; cbn [v_h v_sarg v_targ v_sprior v_spost v_tprior v_tpost h_cfg h_nfeat h_start h_trans h_mon h_em]; try congruence.
    - rewrite B1. intros J. rewrite D1', D1, K5; auto.
    - rewrite B1. intros J. rewrite D2', D2, K6; auto. }
  assert (F : vfit_from vcategorical fp (with_h (ve_v eb) (set_em (v_h (ve_v eb)) (h_nfeat (v_h (ve_v eb))) q)) y l = Ok (v2, ev2)).
  { apply (alike_fit vcategorical fp vk_alike) with (3 := A) (6 := Hf).
    - intros c nf a b nf' p' (J1 & J2 & J3 & J4) E0. cbn [ec_check vc_em vcategorical] in E0 |- *. unfold vcat_check in E0 |- *. rewrite J2, J3.
      apply bind_inv in E0 as (pr & -> & E0). cbn [bind]. apply bind_inv in E0 as (po & -> & E0). cbn [bind]. destruct (negb _); [discriminate|].
      destruct (negb _); [discriminate|]. injection E0 as <- <-. split; reflexivity.
    - intros c nf a b p4 (J1 & J2 & J3 & J4) E0. cbn [vc_begin vcategorical] in E0 |- *. unfold vcat_begin in E0 |- *. rewrite J1, J2, J3.
      apply bind_inv in E0 as (po & -> & E0). cbn [bind]. injection E0 as <-. eexists. split; [reflexivity|]. repeat (split; [reflexivity|]).
      cbn [ec_mstep vc_em vcategorical]. unfold vcat_mstep. cbn [vk_arg vk_prior vk_post vk_prob vk_sub]. intros st. destruct (has "e" (c_params c)) eqn:Eh; [reflexivity|]. rewrite J4; reflexivity.
    - unfold with_h, set_em. cbn [v_h h_mon]. rewrite D3', D3. exact K7.
    - unfold v_cfg in *. unfold with_h at 1, set_em at 1. cbn [v_h h_cfg]. rewrite B1. intros Z0. apply (alike_equal _ _ _ A).
      + unfold with_h, set_em. cbn [v_h h_start]. rewrite D1', D1, K5; auto.
      + unfold with_h, set_em. cbn [v_h h_trans]. rewrite D2', D2, K6; auto.
      + unfold with_h, set_em. cbn [v_h h_em]. apply Q2. exact Z0. }
  rewrite F. cbn [bind]. eexists. reflexivity.
Qed.
