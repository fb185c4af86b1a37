(** * Property lemmas C81: a [fit] that raises, variational classes. *)
From Verif Require Export Vinterrupt Warm_v Interrupt_thms.

Section Run.
  Context {P X St G : Type} (V : vclass P X St) (I : vinitclass P X G) (L : vleftclass P X G) (rg : rng G) (fp : fpmode).
  Let E := vc_em V.

  (** ** The two models of [fit] agree. *)
  Lemma vloop_run_fit x ls n : forall v m,
    match vloop_run V fp x ls n v m with
    | (v2, m2, Ok ev) => vfit_loop fp (vb_step V fp x ls) (vzero_rows fp) n v m = Ok (v2, m2, ev)
    | (_, _, Err ex) => vfit_loop fp (vb_step V fp x ls) (vzero_rows fp) n v m = Err ex
    end.
  Proof.
    induction n as [|n IH]; intros v m; [reflexivity|]. cbn [vloop_run vfit_loop].
    destruct (vb_step V fp x ls v) as [[v' lb]|ex]; [|reflexivity]. cbn [bind].
    destruct (monitor_report fp m lb) as [m' ev]. destruct (converged fp m'); [reflexivity|].
    destruct (vzero_rows fp v') as [z|ex]; [|reflexivity]. cbn [bind].
    specialize (IH v' m'). destruct (vloop_run V fp x ls n v' m') as [[v2 m2] r]. destruct r as [ev2|ex]; cbn [bind]; rewrite IH; reflexivity.
  Qed.
  Lemma vbase_init_run_init e glob x l :
    match vbase_init_run I rg fp e glob x l with
    | VReturned e1 g1 ev => vbase_init I rg fp e glob x l = Ok (e1, g1, ev)
    | VRaised _ _ ex => vbase_init I rg fp e glob x l = Err ex
    end.
  Proof.
    unfold vbase_init_run, vbase_init. set (c := h_cfg (v_h (ve_v e))).
    destruct (vi_nfeat I c _ _ x) as [[nf p]|ex]; cbn [bind]; [|reflexivity].
    destruct (Nat.eqb (c_nc c) 0); [reflexivity|]. destruct (rs_get rg (ve_rs e) glob) as [g|ex]; cbn [bind]; [|reflexivity].
    destruct (needs_init2 c "s" _ _ _ _) as [ns ev1].
    destruct ns; [destruct (full1 _ _) as [sp|ex]; cbn [bind]; [|reflexivity]; destruct (r_dirichlet rg _ g) as [[d g1]|ex]; cbn [bind]; [|reflexivity]|cbn [bind]; rename g into g1];
      (destruct (needs_init2 c "t" _ _ _ _) as [nt ev2]; destruct nt; cbn [bind];
        [destruct (full2 _ _ _) as [tp|ex]; cbn [bind]; [|destruct (rs_put (ve_rs e) glob g1); reflexivity];
         destruct (draws _ _ g1) as [[l0 g2]|ex]; cbn [bind]; [|destruct (rs_put (ve_rs e) glob g1); reflexivity]|rename g1 into g2];
        (destruct (rs_put (ve_rs e) glob g2) as [rs gl]; destruct (vi_nfit I c nf p) as [d'|ex]; cbn [bind]; [|reflexivity];
         destruct (dict_sum d' (c_params c)); reflexivity)).
  Qed.
  Lemma vinit_run_init e glob x l :
    match vinit_run I L rg fp e glob x l with
    | VReturned e1 g1 ev => vinit I rg fp e glob x l = Ok (e1, g1, ev)
    | VRaised _ _ ex => vinit I rg fp e glob x l = Err ex
    end.
  Proof.
    unfold vinit_run, vinit. pose proof (vbase_init_run_init e glob x l) as B. destruct (vbase_init_run I rg fp e glob x l) as [e1 g1 ev1|e1 g1 ex]; rewrite B; cbn [bind]; [|reflexivity].
    destruct (vi_em I fp rg _ _ _ x l _ g1) as [[[[p rs] g2] ev2]|ex]; cbn [bind]; [reflexivity|]. destruct (vl_em L fp rg _ _ _ x l _ g1) as [[p rs] g2]. reflexivity.
  Qed.
  Lemma vfit_run_fit e glob x ls :
    match vfit_run V I L rg fp e glob x ls with
    | VReturned e1 g1 ev => vfit V I rg fp e glob x ls = Ok (e1, g1, ev)
    | VRaised _ _ ex => vfit V I rg fp e glob x ls = Err ex
    end.
  Proof.
    unfold vfit_run, vfit. destruct (check_array (ec_xok (vc_em V)) x) as [y|ex]; cbn [bind]; [|reflexivity].
    set (l := match ls with None => _ | Some l => _ end). clearbody l.
    pose proof (vinit_run_init e glob y l) as B. destruct (vinit_run I L rg fp e glob y l) as [e1 g1 ev1|e1 g1 ex]; rewrite B; cbn [bind]; [|reflexivity].
    unfold vfit_from. destruct (vcheck V fp (ve_v e1)) as [v1|ex]; cbn [bind]; [|reflexivity].
    pose proof (vloop_run_fit y (Some l) (c_n_iter (v_cfg v1)) v1 (monitor_reset (h_mon (v_h v1)))) as K.
    destruct (vloop_run V fp y (Some l) _ v1 _) as [[v2 m] r]. destruct r as [ev2|ex]; rewrite K; reflexivity.
  Qed.

  (** ** A run that raises stops after some number of complete iterations. *)
  Lemma vloop_run_stops x ls n : forall v m v2 m2 ex, vloop_run V fp x ls n v m = (v2, m2, Err ex) -> (m_iter m + n = m_n_iter m)%nat ->
    exists k vk ev, (k < n)%nat /\ m_iter m2 = (m_iter m + k)%nat /\ m_n_iter m2 = m_n_iter m
      /\ vfit_loop fp (vb_step V fp x ls) (vzero_rows fp) k v (lim (m_iter m + k) m) = Ok (vk, lim (m_iter m + k) m2, ev)
      /\ (vb_step V fp x ls vk = Err ex /\ v2 = vstep_left V fp x ls vk
          \/ (0 < k)%nat /\ v2 = vk /\ vzero_rows fp vk = Err ex).
  Proof.
    induction n as [|n IH]; intros v m v2 m2 ex H Hn; [discriminate|]. cbn [vloop_run] in H.
    destruct (vb_step V fp x ls v) as [[v' lb]|ex'] eqn:Es.
    - pose proof (report_mon fp m lb) as Hm. assert (Hl : forall N, monitor_report fp (lim N m) lb = (lim N (fst (monitor_report fp m lb)), snd (monitor_report fp m lb))) by reflexivity.
      destruct (monitor_report fp m lb) as [m' ev] eqn:Em. cbn [fst snd] in Hl, Hm. destruct (converged fp m') eqn:Ec; [discriminate|].
      assert (Hi : m_iter m' = S (m_iter m)) by (rewrite Hm; cbn [mon_after m_iter length]; lia).
      assert (Hni : m_n_iter m' = m_n_iter m) by (rewrite Hm; reflexivity).
      assert (C1 : converged fp (lim (m_iter m + 1) m') = true) by (unfold converged; cbn [lim m_iter m_n_iter]; rewrite Hi, Nat.add_1_r, Nat.eqb_refl; reflexivity).
      assert (C2 : forall k, (0 < k)%nat -> converged fp (lim (m_iter m + S k) m') = false).
      { intros k Hk. unfold converged in Ec |- *. cbn [lim m_iter m_n_iter m_history m_tol]. apply Bool.orb_false_iff in Ec as [_ Ec]. rewrite Ec.
        rewrite Bool.orb_false_r. apply Nat.eqb_neq. lia. }
      destruct (vzero_rows fp v') as [z|ex0] eqn:Ez.
      + destruct (vloop_run V fp x ls n v' m') as [[v3 m3] r] eqn:El. destruct r as [ev2|ex2]; [discriminate|]. cbn [bind] in H.
        assert (v3 = v2 /\ m3 = m2 /\ ex2 = ex) as (-> & -> & ->) by (repeat split; congruence).
        destruct (IH _ _ _ _ _ El ltac:(lia)) as (k & vk & ev2 & Hk & K1 & K2 & K3 & K4).
        rewrite Hi in K1, K3.
        replace (S (m_iter m) + k)%nat with (m_iter m + S k)%nat in * by lia.
        exists (S k), vk. destruct k as [|k].
        * cbn [vfit_loop] in K3. assert (v' = vk) as <- by congruence. assert (Q : lim (m_iter m + 1) m' = lim (m_iter m + 1) m2) by congruence. clear K3. eexists. split; [lia|]. split; [exact K1|]. split; [congruence|]. split.
          -- cbn [vfit_loop]. rewrite Es. cbn [bind]. rewrite Hl, C1, Q. reflexivity.
          -- destruct K4 as [K4|(K4 & _)]; [left; exact K4|lia].
        * eexists. split; [lia|]. split; [exact K1|]. split; [congruence|]. split.
          -- cbn [vfit_loop] in K3 |- *. rewrite Es. cbn [bind]. rewrite Hl, C2, Ez by lia. cbn [bind]. rewrite K3. cbn [bind]. reflexivity.
          -- destruct K4 as [K4|(_ & K4)]; [left; exact K4|right; split; [lia|exact K4]].
      + injection H as <- <- <-. assert (n <> 0)%nat.
        { intros ->. unfold converged in Ec. rewrite Hi, Hni in Ec. replace (S (m_iter m)) with (m_n_iter m) in Ec by lia. rewrite Nat.eqb_refl in Ec. discriminate. }
        exists 1%nat, v'. eexists. split; [lia|]. split; [lia|]. split; [exact Hni|]. split.
        * cbn [vfit_loop]. rewrite Es. cbn [bind]. rewrite Hl, C1. reflexivity.
        * right. split; [lia|]. split; [reflexivity|exact Ez].
    - injection H as <- <- <-. exists 0%nat, v, []. split; [lia|]. split; [lia|]. split; [reflexivity|]. split; [reflexivity|].
      left. split; [exact Es|reflexivity].
  Qed.

  (** ** [fit], stopped. *)
  Hypothesis B1 : forall n, vblind V fp (cfg_n_iter n).
  Hypothesis B3 : forall n c nf p x, vi_nfeat I (cfg_n_iter n c) nf p x = vi_nfeat I c nf p x.
  Hypothesis B4 : forall n c nf p, vi_nfit I (cfg_n_iter n c) nf p = vi_nfit I c nf p.
  Hypothesis B5 : forall n c nf p x l rs g, vi_em I fp rg (cfg_n_iter n c) nf p x l rs g = vi_em I fp rg c nf p x l rs g.
  (** What the M-step of the subclass needs not to raise. *)
  Variable Inv : cfg -> option nat -> P -> Prop.
  Hypothesis K1 : forall c nf p nf' p', ec_check E fp c nf p = Ok (nf', p') -> Inv c nf' p'.
  Hypothesis K2 : forall c nf p st p', Inv c nf p -> ec_mstep E fp c nf p st = Ok p' -> Inv c nf p'.
  Hypothesis K3 : forall c nf p p', Inv c nf p -> vc_begin V fp c nf p = Ok p' -> Inv c nf p'.
  Hypothesis K4 : forall c nf p st, Inv c nf p -> exists p', ec_mstep E fp c nf p st = Ok p'.
  Definition vready (v : vhmm P) : Prop := Inv (v_cfg v) (h_nfeat (v_h v)) (h_em (v_h v)).
  Lemma vready_check v v' : vcheck V fp v = Ok v' -> vready v'.
  Proof.
    unfold vcheck, vready. intros H. apply bind_inv in H as ([] & _ & H). apply bind_inv in H as ([nf p] & Hc & H). injection H as <-.
    apply (K1 _ _ _ _ _ Hc).
  Qed.
  (** The attributes after an iteration that raised: those derived from the
      posteriors may be newer. *)
  Definition begun (v v' : vhmm P) : Prop :=
    v' = v \/ exists p, vc_begin V fp (v_cfg v) (h_nfeat (v_h v)) (h_em (v_h v)) = Ok p /\ v' = with_h v (set_em (v_h v) (h_nfeat (v_h v)) p).
  Lemma vb_step_ready x ls v : vready v ->
    match vb_step V fp x ls v with Ok (v', _) => vready v' | Err _ => begun v (vstep_left V fp x ls v) end.
  Proof.
    intros Hr. unfold vb_step, vestep, vstep_left. destruct v as [[c nf a b mo p] sa ta sp sq tp tq]. unfold vready, v_cfg in Hr. cbn [v_h h_cfg h_nfeat h_em] in Hr.
    unfold with_h, set_em. cbn [v_h v_sarg v_targ v_sprior v_spost v_tprior v_tpost h_cfg h_nfeat h_start h_trans h_mon h_em].
    destruct sq as [sq|]; [|left; reflexivity]. destruct tq as [tq|]; [|left; reflexivity]. cbn [attr bind].
    destruct (vc_begin V fp c nf p) as [p1|] eqn:Eb; [|left; reflexivity]. cbn [bind].
    assert (Hb : begun (VHmm (Hmm c nf a b mo p) sa ta sp (Some sq) tp (Some tq)) (VHmm (Hmm c nf a b mo p1) sa ta sp (Some sq) tp (Some tq))).
    { right. exists p1. split; [exact Eb|reflexivity]. }
    unfold vestep, with_h, set_em. cbn [v_h v_sarg v_targ v_sprior v_spost v_tprior v_tpost h_cfg h_nfeat h_start h_trans h_mon h_em attr bind]. rewrite Eb. cbn [bind].
    destruct (do_estep _ _ _ _ _ _ _) as [[st lp]|]; [|exact Hb]. cbn [bind].
    destruct (vlower_bound V fp _ lp) as [lb|] eqn:El; [|exact Hb]. cbn [bind].
    unfold vlower_bound in El. cbn [v_h v_sarg v_targ v_sprior v_spost v_tprior v_tpost] in El.
    destruct sp as [sp|]; [|discriminate]. destruct tp as [tp|]; [|discriminate].
    unfold vmstep, v_cfg. cbn [v_h v_sarg v_targ v_sprior v_spost v_tprior v_tpost h_cfg h_nfeat h_start h_trans h_mon h_em attr bind].
    apply (K3 _ _ _ _ Hr) in Eb. destruct (K4 _ _ _ (st_em st) Eb) as (p2 & E2).
    destruct (has "s" _), (has "t" _); cbn [attr bind]; fold E; rewrite E2; cbn [bind]; apply (K2 _ _ _ _ _ Eb E2).
  Qed.
  Lemma vloop_ready x ls n : forall v m v' m' ev, vready v ->
    vfit_loop fp (vb_step V fp x ls) (vzero_rows fp) n v m = Ok (v', m', ev) -> vready v'.
  Proof.
    induction n as [|n IH]; intros v m v' m' ev Hr H; cbn [vfit_loop] in H; [congruence|].
    pose proof (vb_step_ready x ls v Hr) as Hs. destruct (vb_step V fp x ls v) as [[v1 lb]|]; [|discriminate]. cbn [bind] in H.
    destruct (monitor_report fp m lb) as [m1 ev1]. destruct (converged fp m1); [congruence|]. apply bind_inv in H as (z & _ & H).
    apply bind_inv in H as ([[v2 m2] ev2] & H & Q). injection Q as <- _ _. apply (IH _ _ _ _ _ Hs H).
  Qed.

  Lemma vrun_started n e glob x ls r : vfit V I rg fp (vbuilt 0 e) glob x ls = Ok r ->
    exists e1 g1 ev1 v1, check_array (ec_xok E) x = Ok x /\ vinit I rg fp e glob x (vlengths x ls) = Ok (e1, g1, ev1) /\ vcheck V fp (ve_v e1) = Ok v1
      /\ r = (VEst (re_cfg (cfg_n_iter 0) (lim 0 (monitor_reset (h_mon (v_h v1)))) v1) (ve_rs e1), g1, ev1 ++ [])
      /\ vfit_run V I L rg fp (vbuilt n e) glob x ls =
         let '(v2, m, r) := vloop_run V fp x (Some (vlengths x ls)) n (re_cfg (cfg_n_iter n) (lim n (h_mon (v_h v1))) v1) (lim n (monitor_reset (h_mon (v_h v1)))) in
         match r with
         | Err ex => VRaised (VEst (vmon_set v2 m) (ve_rs e1)) g1 ex
         | Ok ev2 => VReturned (VEst (vmon_set v2 m) (ve_rs e1)) g1 (ev1 ++ ev2)
         end.
  Proof.
    intros H. pose proof (vfit_built V I rg fp B1 B3 B4 B5 0 e glob x ls) as H0. rewrite H in H0. symmetry in H0. apply bind_inv in H0 as (y & Hy & H0).
    assert (y = x) as ->. { unfold check_array in Hy. destruct x; [discriminate|]. destruct (forallb _ _); [congruence|discriminate]. }
    apply bind_inv in H0 as ([[e1 g1] ev1] & Hi & H0). apply bind_inv in H0 as (v1 & Hc & H0). cbn [vfit_loop bind] in H0. injection H0 as <-.
    exists e1, g1, ev1, v1. split; [exact Hy|]. split; [exact Hi|]. split; [exact Hc|]. split; [reflexivity|].
    unfold vfit_run. rewrite Hy. fold (vlengths x ls). pose proof (vinit_run_init (vbuilt n e) glob x (vlengths x ls)) as K.
    rewrite (vinit_built I rg fp B3 B4 B5), Hi in K. cbn [bind] in K.
    destruct (vinit_run I L rg fp (vbuilt n e) glob x _) as [e2 g2 ev2|e2 g2 ex]; [|discriminate]. injection K as <- <- <-. cbn [vbuilt ve_v ve_rs].
    destruct (B1 n) as (F1 & F2 & F3 & N1 & N2 & N3 & N4 & N5 & N6 & N7).
    assert (Hm : h_mon (v_h v1) = h_mon (v_h (ve_v e1))).
    { unfold vcheck in Hc. apply bind_inv in Hc as ([] & _ & Hc). apply bind_inv in Hc as ([nf p] & _ & Hc). injection Hc as <-. reflexivity. }
    rewrite (re_check V fp _ F1 N1), Hc. cbn [bind]. rewrite <- Hm. change (c_n_iter (v_cfg (re_cfg (cfg_n_iter n) _ v1))) with n.
    change (monitor_reset (h_mon (v_h (re_cfg (cfg_n_iter n) (lim n (h_mon (v_h v1))) v1)))) with (lim n (monitor_reset (h_mon (v_h v1)))).
    destruct (vloop_run V fp x _ n _ _) as [[v2 m] r]. reflexivity.
  Qed.
  (** The estimator left behind, and the one that [fit] with fewer iterations
      returns. *)
  Definition stopped (n : nat) (e' ek : vest P G) : Prop := ve_rs e' = ve_rs ek /\ begun (ve_v (vbuilt n ek)) (ve_v e').
  Lemma vrun_stops n e glob x ls e' glob' ex r : vfit_run V I L rg fp (vbuilt n e) glob x ls = VRaised e' glob' ex ->
    vfit V I rg fp (vbuilt 0 e) glob x ls = Ok r ->
    exists k ek ev, (k < n)%nat /\ vfit V I rg fp (vbuilt k e) glob x ls = Ok (ek, glob', ev) /\ stopped n e' ek
      /\ m_iter (h_mon (v_h (ve_v e'))) = k.
  Proof.
    intros HR H0. destruct (vrun_started n e glob x ls r H0) as (e1 & g1 & ev1 & v1 & Hy & Hi & Hc & _ & K). rewrite K in HR. clear K.
    destruct (vloop_run V fp x _ n _ _) as [[v2 m] r2] eqn:El. destruct r2 as [ev2|ex2]; [discriminate|]. injection HR as <- <- <-.
    destruct (vloop_run_stops x _ n _ _ _ _ _ El eq_refl) as (k & vk & ev & Hk & M1 & M2 & Hf & Hs). cbn [lim monitor_reset m_iter m_n_iter] in M1, M2, Hf.
    rewrite Nat.add_0_l in *. destruct (B1 n) as (F1 & F2 & F3 & N1 & N2 & N3 & N4 & N5 & N6 & N7).
    rewrite (re_loop V fp _ F1 F2 F3 N2 N3 N4 N5 N6 N7) in Hf. apply bind_inv in Hf as ([[wk mk] evk] & Hf & Q). assert (re_cfg (cfg_n_iter n) (lim n (h_mon (v_h v1))) wk = vk) as <- by congruence. assert (Qm : mk = lim k m) by congruence. subst mk. clear Q.
    change (lim k (lim n (monitor_reset (h_mon (v_h v1))))) with (lim k (monitor_reset (h_mon (v_h v1)))) in Hf.
    assert (Hwr : vready (re_cfg (cfg_n_iter n) (lim n (h_mon (v_h v1))) wk)).
    { assert (Hl : vfit_loop fp (vb_step V fp x (Some (vlengths x ls))) (vzero_rows fp) k (re_cfg (cfg_n_iter n) (lim n (h_mon (v_h v1))) v1) (lim k (monitor_reset (h_mon (v_h v1))))
                   = Ok (re_cfg (cfg_n_iter n) (lim n (h_mon (v_h v1))) wk, lim k m, evk)).
      { rewrite (re_loop V fp _ F1 F2 F3 N2 N3 N4 N5 N6 N7), Hf. reflexivity. }
      apply (vloop_ready x _ k _ _ _ _ _) with (2 := Hl).
      apply (vready_check (re_cfg (cfg_n_iter n) (lim n (h_mon (v_h v1))) (ve_v e1))). rewrite (re_check V fp _ F1 N1), Hc. reflexivity. }
    exists k. exists (VEst (re_cfg (cfg_n_iter k) (lim k m) wk) (ve_rs e1)), (ev1 ++ evk). split; [exact Hk|]. split.
    { rewrite (vfit_built V I rg fp B1 B3 B4 B5). fold E. rewrite Hy. cbn [bind]. rewrite Hi. cbn [bind]. rewrite Hc. cbn [bind]. rewrite Hf. reflexivity. }
    assert (Hn : lim n m = m) by (unfold lim; rewrite <- M2; destruct m; reflexivity).
    split; [|cbn [ve_v vmon_set with_h v_h h_mon]; exact M1]. split; [reflexivity|].
    assert (Hv : ve_v (vbuilt n (VEst (re_cfg (cfg_n_iter k) (lim k m) wk) (ve_rs e1))) = vmon_set (re_cfg (cfg_n_iter n) (lim n (h_mon (v_h v1))) wk) m).
    { cbn [vbuilt ve_v re_cfg v_h h_mon]. change (lim n (lim k m)) with (lim n m). rewrite Hn. reflexivity. }
    rewrite Hv. cbn [ve_v]. destruct Hs as [[Hs ->]|(_ & -> & _)]; [|left; reflexivity].
    pose proof (vb_step_ready x (Some (vlengths x ls)) _ Hwr) as Hb. rewrite Hs in Hb. destruct Hb as [->|(p & Hp & ->)]; [left; reflexivity|].
    right. exists p. split; [exact Hp|reflexivity].
  Qed.

  (** Wrong lengths: the start values have been computed (with these lengths), no
      iteration has been made. *)
  Lemma vrun_lengths n e glob x l e0 glob0 ev0 : fold_left Z.add l 0%Z <> Z.of_nat (length x) -> (0 < n)%nat ->
    vfit V I rg fp (vbuilt 0 e) glob x (Some l) = Ok (e0, glob0, ev0) ->
    exists e' ex, vfit_run V I L rg fp (vbuilt n e) glob x (Some l) = VRaised e' glob0 ex /\ stopped n e' e0.
  Proof.
    intros Hl Hn H. destruct (vrun_started n e glob x (Some l) _ H) as (e1 & g1 & ev1 & v1 & _ & Hi & Hc & Er & K).
    injection Er as -> -> ->. cbn [vlengths] in *.
    assert (Hs : exists ex, forall (h : hmm P) s t, h_cfg h = cfg_n_iter n (v_cfg v1) -> do_estep (sub_em V) fp h s t x (Some l) = Err ex).
    { destruct (String.eqb (c_impl (v_cfg v1)) "scaling" || String.eqb (c_impl (v_cfg v1)) "log")%bool eqn:Ei.
      - destruct l as [|a l].
        + exists IndexError. intros h s t Hh. unfold do_estep. rewrite Hh. cbn [cfg_n_iter c_impl]. rewrite Ei. reflexivity.
        + exists (ValueError "lengths"). intros h s t Hh. unfold do_estep. rewrite Hh. cbn [cfg_n_iter c_impl]. rewrite Ei.
          unfold split_X_lengths. apply Z.eqb_neq in Hl. rewrite Hl. reflexivity.
      - exists KeyError. intros h s t Hh. unfold do_estep. rewrite Hh. cbn [cfg_n_iter c_impl]. rewrite Ei. reflexivity. }
    destruct Hs as (ex & Hs).
    assert (Hst : exists ex', vb_step V fp x (Some l) (re_cfg (cfg_n_iter n) (lim n (h_mon (v_h v1))) v1) = Err ex').
    { unfold vb_step, vestep. cbn [re_cfg v_spost v_tpost v_h h_cfg h_nfeat h_em h_mon]. destruct (v_spost v1); [|eexists; reflexivity].
      destruct (v_tpost v1); [|eexists; reflexivity]. cbn [attr bind]. destruct (vc_begin V fp _ _ _); [|eexists; reflexivity]. cbn [bind].
      rewrite Hs by reflexivity. eexists; reflexivity. }
    destruct Hst as (ex' & Hst). rewrite K. clear K. destruct n as [|n]; [lia|]. cbn [vloop_run]. rewrite Hst.
    destruct (B1 (S n)) as (F1 & F2 & F3 & N1 & N2 & N3 & N4 & N5 & N6 & N7).
    assert (Hr : vready (re_cfg (cfg_n_iter (S n)) (lim (S n) (h_mon (v_h v1))) v1)).
    { apply (vready_check (re_cfg (cfg_n_iter (S n)) (lim (S n) (h_mon (v_h v1))) (ve_v e1))). rewrite (re_check V fp _ F1 N1), Hc. reflexivity. }
    pose proof (vb_step_ready x (Some l) _ Hr) as Hb. rewrite Hst in Hb. eexists. exists ex'. split; [reflexivity|]. split; [reflexivity|].
    cbn [ve_v]. destruct Hb as [->|(p & Hp & ->)]; [left; reflexivity|]. right. exists p. split; [exact Hp|reflexivity].
  Qed.
End Run.
