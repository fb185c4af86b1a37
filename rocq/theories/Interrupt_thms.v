(** * Property lemmas C81: a [fit] that raises. *)
From Verif Require Export Interrupt Hyper_thms.

(** [e.n_iter = k]. *)
Definition set_n_iter {P G} (k : nat) (e : est P G) : est P G := Est (with_cfg (cfg_n_iter k) (e_hmm e)) (e_rs e).

Lemma bind_ext {A B} (m : res A) (f g : A -> res B) : (forall a, f a = g a) -> bind m f = bind m g.
Proof. intros H. destruct m; [apply H|reflexivity]. Qed.
Lemma bind_assoc {A B C} (m : res A) (f : A -> res B) (g : B -> res C) :
  bind (bind m f) g = bind m (fun a => bind (f a) g).
Proof. destruct m; reflexivity. Qed.

Section Run.
  Context {P X St G : Type} (E : emclass P X St) (I : initclass P X G) (L : leftclass P X St G) (rg : rng G) (fp : fpmode).

  (** ** The two models of [fit] agree. *)
  Lemma loop_run_fit x ls n : forall h m,
    match loop_run E L fp x ls n h m with
    | (h2, m2, Ok ev) => fit_loop fp (em_step E fp x ls) (zero_rows fp) n h m = Ok (h2, m2, ev)
    | (_, _, Err ex) => fit_loop fp (em_step E fp x ls) (zero_rows fp) n h m = Err ex
    end.
  Proof.
    induction n as [|n IH]; intros h m; [reflexivity|]. cbn [loop_run fit_loop].
    destruct (em_step E fp x ls h) as [[h' lb]|ex]; [|reflexivity]. cbn [bind].
    destruct (monitor_report fp m lb) as [m' ev]. destruct (converged fp m'); [reflexivity|].
    specialize (IH h' m'). destruct (loop_run E L fp x ls n h' m') as [[h2 m2] r]. destruct r as [ev2|ex]; cbn [bind]; rewrite IH; reflexivity.
  Qed.
  Lemma base_init_run_init e glob x :
    match base_init_run I L rg fp e glob x with
    | Returned e1 g1 ev => base_init I rg fp e glob x = Ok (e1, g1, ev)
    | Raised _ _ ex => base_init I rg fp e glob x = Err ex
    end.
  Proof.
    unfold base_init_run, base_init. set (c := h_cfg (e_hmm e)).
    destruct (ic_nfeat I c _ _ x) as [[nf p]|ex]; cbn [bind]; [|destruct (lf_nfeat L c _ _ x); reflexivity].
    destruct (Nat.eqb (c_nc c) 0); [reflexivity|]. destruct (rs_get rg (e_rs e) glob) as [g|ex]; cbn [bind]; [|reflexivity].
    destruct (needs_init c "s" _ _) as [ns ev1].
    destruct (if ns then _ else _) as [[s g1]|ex]; cbn [bind]; [|reflexivity].
    destruct (needs_init c "t" _ _) as [nt ev2].
    destruct (if nt then _ else _) as [[t g2]|ex]; cbn [bind]; [|destruct (rs_put (e_rs e) glob g1); reflexivity].
    destruct (rs_put (e_rs e) glob g2) as [rs glob'].
    destruct (ic_nfit I c nf p) as [d|ex]; cbn [bind]; [|reflexivity].
    destruct (dict_sum d (c_params c)) as [n|ex]; cbn [bind]; reflexivity.
  Qed.
  Lemma init_run_init e glob x :
    match init_run I L rg fp e glob x with
    | Returned e1 g1 ev => init I rg fp e glob x = Ok (e1, g1, ev)
    | Raised _ _ ex => init I rg fp e glob x = Err ex
    end.
  Proof.
    unfold init_run, init. pose proof (base_init_run_init e glob x) as B. destruct (base_init_run I L rg fp e glob x) as [e1 g1 ev1|e1 g1 ex]; rewrite B; cbn [bind]; [|reflexivity].
    destruct (ic_em I fp rg _ _ _ x _ g1) as [[[[p rs] g2] ev2]|ex]; cbn [bind]; [reflexivity|]. destruct (lf_em L fp rg _ _ _ x _ g1) as [[p rs] g2]. reflexivity.
  Qed.
  Lemma fit_run_fit e glob x ls :
    match fit_run E I L rg fp e glob x ls with
    | Returned e1 g1 ev => fit E I rg fp e glob x ls = Ok (e1, g1, ev)
    | Raised _ _ ex => fit E I rg fp e glob x ls = Err ex
    end.
  Proof.
    unfold fit_run, fit. destruct (check_array (ec_xok E) x) as [y|ex]; cbn [bind]; [|reflexivity].
    pose proof (init_run_init e glob y) as B. destruct (init_run I L rg fp e glob y) as [e1 g1 ev1|e1 g1 ex]; rewrite B; cbn [bind]; [|reflexivity].
    unfold fit_from. destruct (check E fp (e_hmm e1)) as [h1|ex]; cbn [bind]; [|reflexivity].
    set (l := match ls with None => _ | Some l => _ end). clearbody l.
    pose proof (loop_run_fit y l (c_n_iter (h_cfg h1)) h1 (monitor_reset (h_mon h1))) as K.
    destruct (loop_run E L fp y l _ h1 _) as [[h2 m] r]. destruct r as [ev2|ex]; rewrite K; reflexivity.
  Qed.

  (** ** A run that raises stops after some number of complete iterations. *)
  Lemma loop_run_stops x ls n : forall h m h2 m2 ex, loop_run E L fp x ls n h m = (h2, m2, Err ex) ->
    exists k hk ev, (k < n)%nat /\ fit_loop fp (em_step E fp x ls) (zero_rows fp) k h m = Ok (hk, m2, ev)
      /\ em_step E fp x ls hk = Err ex /\ h2 = step_left E L fp x ls hk /\ m_iter m2 = (m_iter m + k)%nat.
  Proof.
    induction n as [|n IH]; intros h m h2 m2 ex H; [discriminate|]. cbn [loop_run] in H.
    destruct (em_step E fp x ls h) as [[h' lb]|ex'] eqn:Es.
    - destruct (monitor_report fp m lb) as [m' ev] eqn:Em. destruct (converged fp m') eqn:Ec; [discriminate|].
      destruct (loop_run E L fp x ls n h' m') as [[h3 m3] r] eqn:El. destruct r as [ev2|ex2]; [discriminate|]. cbn [bind] in H.
      assert (h3 = h2 /\ m3 = m2 /\ ex2 = ex) as (-> & -> & ->) by (repeat split; congruence).
      destruct (IH _ _ _ _ _ El) as (k & hk & ev2 & Hk & Hf & K1 & K2 & K3). exists (S k), hk. eexists. split; [lia|]. split.
      { cbn [fit_loop]. rewrite Es. cbn [bind]. rewrite Em, Ec, Hf. cbn [bind]. reflexivity. }
      split; [exact K1|]. split; [exact K2|]. rewrite K3. unfold monitor_report in Em. injection Em as <- _. cbn [m_iter]. lia.
    - injection H as <- <- <-. exists 0%nat, h, []. split; [lia|]. split; [reflexivity|]. split; [exact Es|]. split; [reflexivity|lia].
  Qed.

  (** ** [n_iter] only bounds the number of iterations. *)
  Section Blind.
    Variable k : nat.
    Notation wn := (with_cfg (cfg_n_iter k)).
    Notation cn := (cfg_n_iter k).
    Hypothesis B1 : forall c nf p, ec_check E fp (cn c) nf p = ec_check E fp c nf p.
    Hypothesis B2 : forall c nf p x, ec_loglik E fp (cn c) nf p x = ec_loglik E fp c nf p x.
    Hypothesis B3 : forall c nf p x, ec_lik E fp (cn c) nf p x = ec_lik E fp c nf p x.
    Hypothesis B4 : forall c nf p, ec_stats0 E fp (cn c) nf p = ec_stats0 E fp c nf p.
    Hypothesis B5 : forall c nf p st x post, ec_acc E fp (cn c) nf p st x post = ec_acc E fp c nf p st x post.
    Hypothesis B6 : forall c nf p st, ec_mstep E fp (cn c) nf p st = ec_mstep E fp c nf p st.
    Hypothesis B7 : forall c nf p x, ic_nfeat I (cn c) nf p x = ic_nfeat I c nf p x.
    Hypothesis B8 : forall c nf p, ic_nfit I (cn c) nf p = ic_nfit I c nf p.
    Hypothesis B9 : forall c nf p x rs g, ic_em I fp rg (cn c) nf p x rs g = ic_em I fp rg c nf p x rs g.

    Lemma estep_seq_n h s t st x : estep_seq E fp (wn h) s t st x = estep_seq E fp h s t st x.
    Proof.
      unfold estep_seq. cbn [with_cfg h_cfg h_nfeat h_em cfg_n_iter c_impl]. apply bind_ext. intros b.
      replace (if b then fit_log E fp (wn h) s t x else fit_scaling E fp (wn h) s t x)
        with (if b then fit_log E fp h s t x else fit_scaling E fp h s t x).
      2:{ unfold fit_log, fit_scaling, loglik, lik. cbn [with_cfg h_cfg h_nfeat h_em]. rewrite B2, B3. reflexivity. }
      apply bind_ext. intros [[[[la lp] po] fw] bw].
      replace (acc_base fp b (wn h) t st la po fw bw) with (acc_base fp b h t st la po fw bw) by reflexivity.
      apply bind_ext. intros [[n1 s1] t1]. fold (cfg_n_iter k (h_cfg h)). rewrite B5. reflexivity.
    Qed.
    Lemma estep_loop_n xs : forall h s t st lp, estep_loop E fp (wn h) s t st lp xs = estep_loop E fp h s t st lp xs.
    Proof.
      induction xs as [|x xs IH]; intros h s t st lp; [reflexivity|]. cbn [estep_loop]. rewrite estep_seq_n. apply bind_ext.
      intros [st' l]. apply IH.
    Qed.
    Lemma do_estep_n h s t x ls : do_estep E fp (wn h) s t x ls = do_estep E fp h s t x ls.
    Proof.
      unfold do_estep. change (c_impl (h_cfg (wn h))) with (c_impl (h_cfg h)). destruct (_ || _)%bool; [|reflexivity]. apply bind_ext. intros xs.
      rewrite estep_loop_n. unfold stats0. cbn [with_cfg h_cfg h_nfeat h_em]. rewrite B4. reflexivity.
    Qed.
    Lemma em_step_n x ls h : em_step E fp x ls (wn h) = do (h', v) <- em_step E fp x ls h; Ok (wn h', v).
    Proof.
      unfold em_step. change (h_start (wn h)) with (h_start h). change (h_trans (wn h)) with (h_trans h).
      destruct (h_start h) as [s|]; [|reflexivity]. destruct (h_trans h) as [t|]; [|reflexivity]. rewrite do_estep_n, !bind_assoc. apply bind_ext. intros [st lp].
      unfold do_mstep. cbv zeta. cbn [with_cfg h_cfg h_nfeat h_em]. rewrite B6. destruct (ec_mstep E fp (h_cfg h) (h_nfeat h) (h_em h) (st_em st)); reflexivity.
    Qed.
    Lemma fit_loop_n x ls n : forall h m,
      fit_loop fp (em_step E fp x ls) (zero_rows fp) n (wn h) m
      = do (h', m', ev) <- fit_loop fp (em_step E fp x ls) (zero_rows fp) n h m; Ok (wn h', m', ev).
    Proof.
      induction n as [|n IH]; intros h m; [reflexivity|]. cbn [fit_loop]. rewrite em_step_n. destruct (em_step E fp x ls h) as [[h' lb]|]; [|reflexivity]. cbn [bind].
      destruct (monitor_report fp m lb) as [m' ev]. destruct (converged fp m'); [reflexivity|]. rewrite IH. destruct (fit_loop fp (em_step E fp x ls) (zero_rows fp) n h' m') as [[[h2 m2] ev2]|]; reflexivity.
    Qed.
    Lemma check_n h : check E fp (wn h) = do h' <- check E fp h; Ok (wn h').
    Proof.
      unfold check. cbn [with_cfg h_cfg h_nfeat h_em h_start h_trans h_mon cfg_n_iter c_nc]. fold (cfg_n_iter k (h_cfg h)).
      destruct (h_start h); [|reflexivity]. destruct (h_trans h); [|destruct (negb _); [reflexivity|]; destruct (negb _); reflexivity].
      rewrite !bind_assoc. apply bind_ext. intros []. rewrite B1. destruct (ec_check E fp (h_cfg h) (h_nfeat h) (h_em h)) as [[nf p]|]; reflexivity.
    Qed.
    Lemma init_n e glob x : init I rg fp (set_n_iter k e) glob x = do (e1, g1, ev) <- init I rg fp e glob x; Ok (set_n_iter k e1, g1, ev).
    Proof.
      unfold init, base_init, set_n_iter. cbn [e_hmm e_rs]. cbn [with_cfg h_cfg h_nfeat h_em h_start h_trans h_mon]. rewrite B7, !bind_assoc.
      apply bind_ext. intros [nf p]. cbn [c_nc cfg_n_iter]. fold (cfg_n_iter k (h_cfg (e_hmm e))). destruct (Nat.eqb _ 0); [reflexivity|].
      rewrite !bind_assoc. apply bind_ext. intros g.
      replace (needs_init (cn (h_cfg (e_hmm e))) "s" "startprob_" (isSome (h_start (e_hmm e))))
        with (needs_init (h_cfg (e_hmm e)) "s" "startprob_" (isSome (h_start (e_hmm e)))) by reflexivity.
      destruct (needs_init (h_cfg (e_hmm e)) "s" _ _) as [ns ev1]. rewrite !bind_assoc. apply bind_ext. intros [s g1].
      replace (needs_init (cn (h_cfg (e_hmm e))) "t" "transmat_" (isSome (h_trans (e_hmm e))))
        with (needs_init (h_cfg (e_hmm e)) "t" "transmat_" (isSome (h_trans (e_hmm e)))) by reflexivity.
      destruct (needs_init (h_cfg (e_hmm e)) "t" _ _) as [nt ev2]. rewrite !bind_assoc. apply bind_ext. intros [t g2].
      destruct (rs_put (e_rs e) glob g2) as [rs g3]. rewrite B8, !bind_assoc. apply bind_ext. intros d. rewrite !bind_assoc.
      cbn [c_params cfg_n_iter]. fold (cfg_n_iter k (h_cfg (e_hmm e))). apply bind_ext. intros n. cbn [bind e_hmm e_rs h_cfg h_nfeat h_em h_start h_trans h_mon].
      rewrite B9, !bind_assoc. apply bind_ext. intros [[[p' rs'] g'] ev']. reflexivity.
    Qed.

    (** [fit] with [n_iter = k], in parts. *)
    Lemma fit_n e glob x ls : fit E I rg fp (set_n_iter k e) glob x ls =
      do x <- check_array (ec_xok E) x;
      do (e1, g1, ev1) <- init I rg fp e glob x;
      do h1 <- check E fp (e_hmm e1);
      do (h2, m, ev2) <- fit_loop fp (em_step E fp x (match ls with None => Some [Z.of_nat (length x)] | Some l => Some l end))
                           (zero_rows fp) k h1 (monitor_reset (h_mon h1));
      Ok (set_n_iter k (Est (mon_set h2 m) (e_rs e1)), g1, ev1 ++ ev2).
    Proof.
      unfold fit. apply bind_ext. intros y. rewrite init_n, !bind_assoc. apply bind_ext. intros [[e1 g1] ev1]. cbn [bind]. unfold fit_from.
      change (e_hmm (set_n_iter k e1)) with (wn (e_hmm e1)). rewrite check_n, !bind_assoc. apply bind_ext. intros h1. cbn [bind].
      change (c_n_iter (h_cfg (wn h1))) with k. change (h_mon (wn h1)) with (h_mon h1). rewrite fit_loop_n, !bind_assoc. apply bind_ext. intros [[h2 m] ev2]. reflexivity.
    Qed.
  End Blind.
End Run.

(** ** [fit] stopped by an exception in iteration [k + 1]: the estimator, its
    [random_state] and numpy's global generator are as [fit] with [n_iter = k]
    leaves them. *)
Definition n_iter_blind {P X St G} (E : emclass P X St) (I : initclass P X G) (rg : rng G) (fp : fpmode) : Prop :=
  (forall k c nf p, ec_check E fp (cfg_n_iter k c) nf p = ec_check E fp c nf p)
  /\ (forall k c nf p x, ec_loglik E fp (cfg_n_iter k c) nf p x = ec_loglik E fp c nf p x)
  /\ (forall k c nf p x, ec_lik E fp (cfg_n_iter k c) nf p x = ec_lik E fp c nf p x)
  /\ (forall k c nf p, ec_stats0 E fp (cfg_n_iter k c) nf p = ec_stats0 E fp c nf p)
  /\ (forall k c nf p st x post, ec_acc E fp (cfg_n_iter k c) nf p st x post = ec_acc E fp c nf p st x post)
  /\ (forall k c nf p st, ec_mstep E fp (cfg_n_iter k c) nf p st = ec_mstep E fp c nf p st)
  /\ (forall k c nf p x, ic_nfeat I (cfg_n_iter k c) nf p x = ic_nfeat I c nf p x)
  /\ (forall k c nf p, ic_nfit I (cfg_n_iter k c) nf p = ic_nfit I c nf p)
  /\ (forall k c nf p x rs g, ic_em I fp rg (cfg_n_iter k c) nf p x rs g = ic_em I fp rg c nf p x rs g).

Section Stops.
  Context {P X St G : Type} (E : emclass P X St) (I : initclass P X G) (L : leftclass P X St G) (rg : rng G) (fp : fpmode).
  Hypothesis HB : n_iter_blind E I rg fp.
  Lemma fit_set_n_iter k e glob x ls : fit E I rg fp (set_n_iter k e) glob x ls =
      do x <- check_array (ec_xok E) x;
      do (e1, g1, ev1) <- init I rg fp e glob x;
      do h1 <- check E fp (e_hmm e1);
      do (h2, m, ev2) <- fit_loop fp (em_step E fp x (match ls with None => Some [Z.of_nat (length x)] | Some l => Some l end))
                           (zero_rows fp) k h1 (monitor_reset (h_mon h1));
      Ok (set_n_iter k (Est (mon_set h2 m) (e_rs e1)), g1, ev1 ++ ev2).
  Proof. destruct HB as (B1 & B2 & B3 & B4 & B5 & B6 & B7 & B8 & B9). apply fit_n; auto. Qed.

  (** After a start that [fit] accepts. *)
  Lemma run_started e glob x ls r : fit E I rg fp (set_n_iter 0 e) glob x ls = Ok r ->
    exists e1 g1 ev1 h1, check_array (ec_xok E) x = Ok x /\ init I rg fp e glob x = Ok (e1, g1, ev1) /\ check E fp (e_hmm e1) = Ok h1
      /\ h_cfg h1 = h_cfg (e_hmm e)
      /\ r = (set_n_iter 0 (Est (mon_set h1 (monitor_reset (h_mon h1))) (e_rs e1)), g1, ev1 ++ [])
      /\ fit_run E I L rg fp e glob x ls =
         let '(h2, m, r) := loop_run E L fp x (match ls with None => Some [Z.of_nat (length x)] | Some l => Some l end)
                              (c_n_iter (h_cfg h1)) h1 (monitor_reset (h_mon h1)) in
         match r with
         | Err ex => Raised (Est (mon_set h2 m) (e_rs e1)) g1 ex
         | Ok ev2 => Returned (Est (mon_set h2 m) (e_rs e1)) g1 (ev1 ++ ev2)
         end.
  Proof.
    rewrite fit_set_n_iter. intros H. apply bind_inv in H as (y & Hy & H).
    assert (y = x) as ->. { unfold check_array in Hy. destruct x; [discriminate|]. destruct (forallb _ _); [congruence|discriminate]. }
    apply bind_inv in H as ([[e1 g1] ev1] & Hi & H). apply bind_inv in H as (h1 & Hc & H). cbn [fit_loop bind] in H. injection H as <-.
    exists e1, g1, ev1, h1. split; [exact Hy|]. split; [exact Hi|]. split; [exact Hc|]. split.
    { destruct (check_keeps _ _ _ _ Hc) as (C1 & _). destruct (init_spec _ _ _ _ _ _ _ _ _ Hi) as (A1 & _). congruence. }
    split; [reflexivity|]. unfold fit_run. rewrite Hy. pose proof (init_run_init I L rg fp e glob x) as K.
    destruct (init_run I L rg fp e glob x) as [e2 g2 ev2|e2 g2 ex]; rewrite Hi in K; [|discriminate]. injection K as <- <- <-. rewrite Hc.
    destruct (loop_run E L fp x _ _ h1 _) as [[h2 m] r]. reflexivity.
  Qed.

  Lemma run_stops e glob x ls e' glob' ex r : fit_run E I L rg fp e glob x ls = Raised e' glob' ex ->
    fit E I rg fp (set_n_iter 0 e) glob x ls = Ok r ->
    exists k h1 hk m ev l, (k < c_n_iter (h_cfg (e_hmm e)))%nat
      /\ (exists h0, check E fp h0 = Ok h1) /\ iterate (em_step E fp x l) k h1 = Ok (hk, m_history m)
      /\ fit E I rg fp (set_n_iter k e) glob x ls = Ok (set_n_iter k (Est (mon_set hk m) (e_rs e')), glob', ev)
      /\ m_iter m = k /\ em_step E fp x l hk = Err ex /\ e_hmm e' = mon_set (step_left E L fp x l hk) m.
  Proof.
    intros HR H0. destruct (run_started e glob x ls r H0) as (e1 & g1 & ev1 & h1 & Hy & Hi & Hc & Hcfg & _ & K).
    rewrite K in HR. clear K. set (l := match ls with None => _ | Some l => _ end) in HR.
    destruct (loop_run E L fp x l _ h1 _) as [[h2 m] r2] eqn:El. destruct r2 as [ev2|ex2]; [discriminate|]. injection HR as <- <- <-.
    destruct (loop_run_stops E L fp x l _ _ _ _ _ _ El) as (k & hk & ev & Hk & Hf & Hs & -> & Hm). rewrite Hcfg in Hk.
    exists k, h1, hk, m, (ev1 ++ ev), l. split; [exact Hk|]. split; [exists (e_hmm e1); exact Hc|].
    destruct (fit_loop_trace _ _ _ _ _ _ _ _ _ Hf) as (vs & Hit & Hmm & _).
    cbn [monitor_reset m_iter] in Hm.
    assert (Hl : length vs = k). { rewrite Hmm in Hm. cbn in Hm. exact Hm. }
    split. { rewrite Hl in Hit. rewrite Hit. rewrite Hmm. reflexivity. }
    split; [|split; [exact Hm|split; [exact Hs|reflexivity]]].
    rewrite fit_set_n_iter, Hy. cbn [bind]. rewrite Hi. cbn [bind]. rewrite Hc. cbn [bind]. fold l. rewrite Hf. reflexivity.
  Qed.

  (** Classes whose M-step does not raise. *)
  Lemma run_stops_total (Inv : hmm P -> Prop) e glob x ls e' glob' ex r :
    (forall h h', check E fp h = Ok h' -> Inv h') ->
    (forall l h h' v, em_step E fp x l h = Ok (h', v) -> Inv h -> Inv h') ->
    (forall h st, Inv h -> exists p, ec_mstep E fp (h_cfg h) (h_nfeat h) (h_em h) st = Ok p) ->
    fit_run E I L rg fp e glob x ls = Raised e' glob' ex -> fit E I rg fp (set_n_iter 0 e) glob x ls = Ok r ->
    exists k ev, (k < c_n_iter (h_cfg (e_hmm e)))%nat
      /\ fit E I rg fp (set_n_iter k e) glob x ls = Ok (set_n_iter k e', glob', ev) /\ m_iter (h_mon (e_hmm e')) = k.
  Proof.
    intros I1 I2 I3 HR H0. destruct (run_stops e glob x ls e' glob' ex r HR H0) as (k & h1 & hk & m & ev & l & Hk & (h0 & Hc) & Hit & Hf & Hm & Hs & He).
    assert (Hinv : Inv hk).
    { revert Hit. generalize (m_history m) as vs. apply I1 in Hc. clear - I2 Hc. revert h1 hk Hc. induction k as [|k IH]; intros h1 hk Hc vs H.
      - cbn [iterate] in H. injection H as <- _. exact Hc.
      - rewrite iterate_S in H. destruct (em_step E fp x l h1) as [[h2 v]|] eqn:Es; [|discriminate]. cbn [bind] in H.
        destruct (iterate _ k h2) as [[h3 vs']|] eqn:Ei; [|discriminate]. injection H as <- _. apply (IH h2 h3 (I2 _ _ _ _ Es Hc) vs' Ei). }
    exists k, ev. split; [exact Hk|].
    assert (Hl : step_left E L fp x l hk = hk).
    { unfold em_step in Hs. unfold step_left. destruct (h_start hk) as [s|]; [|reflexivity]. destruct (h_trans hk) as [t|]; [|reflexivity].
      destruct (do_estep E fp hk s t x l) as [[st lp]|]; [|reflexivity]. cbn [bind] in Hs. unfold do_mstep in Hs. destruct (I3 hk (st_em st) Hinv) as (p & Ep). rewrite Ep in Hs. discriminate. }
    rewrite Hl in He. destruct e' as [h' rs']. cbn [e_hmm e_rs] in *. subst h'. split; [exact Hf|exact Hm].
  Qed.

  (** lengths that do not add up, or an unknown implementation: found out in the
      first E-step. *)
  Lemma run_bad_estep e glob x ls e0 glob0 ev0 ex : fit E I rg fp (set_n_iter 0 e) glob x ls = Ok (e0, glob0, ev0) ->
    (0 < c_n_iter (h_cfg (e_hmm e)))%nat ->
    (forall h s t, h_cfg h = h_cfg (e_hmm e) -> do_estep E fp h s t x (match ls with None => Some [Z.of_nat (length x)] | Some l => Some l end) = Err ex) ->
    fit_run E I L rg fp e glob x ls = Raised (set_n_iter (c_n_iter (h_cfg (e_hmm e))) e0) glob0 ex.
  Proof.
    intros H Hn Hs. destruct (run_started e glob x ls _ H) as (e1 & g1 & ev1 & h1 & _ & Hi & Hc & Hcfg & Er & K). rewrite K. clear K.
    injection Er as -> -> ->. rewrite Hcfg. destruct (c_n_iter (h_cfg (e_hmm e))) as [|n] eqn:En; [lia|]. cbn [loop_run].
    assert (Hst : exists s t, h_start h1 = Some s /\ h_trans h1 = Some t).
    { destruct (check_keeps _ _ _ _ Hc) as (_ & C2 & C3 & _). rewrite C2, C3. unfold check in Hc. destruct (h_start (e_hmm e1)) as [s|]; [|discriminate].
      destruct (h_trans (e_hmm e1)) as [t|]; [eauto|destruct (negb _); [discriminate|]; destruct (negb _); discriminate]. }
    destruct Hst as (s & t & Hs1 & Ht1). unfold em_step, step_left. rewrite Hs1, Ht1, (Hs h1 s t Hcfg). cbn [bind]. f_equal.
    unfold set_n_iter, mon_set, with_cfg. cbn [e_hmm e_rs h_cfg h_nfeat h_start h_trans h_mon h_em]. f_equal. f_equal.
    rewrite Hcfg. destruct (h_cfg (e_hmm e)). cbn in En. subst. reflexivity.
  Qed.
End Stops.

Lemma cat_blind {G} (rg : rng G) fp : n_iter_blind categorical cat_initc rg fp.
Proof. repeat split. Qed.
Lemma pois_blind {G} (rg : rng G) fp : n_iter_blind poisson pois_initc rg fp.
Proof. repeat split. Qed.
Lemma mult_blind {G} (rg : rng G) fp : n_iter_blind multinomial mult_initc rg fp.
Proof. repeat split. Qed.
Lemma gauss_blind {G} (rg : rng G) fp : n_iter_blind gaussian gauss_initc rg fp.
Proof. repeat split. Qed.
Lemma gmm_blind {G} eig (gr : grng G) (rg : rng G) fp : n_iter_blind (gmm eig) (gmm_initc gr) rg fp.
Proof. repeat split. Qed.

Lemma C81_outcome_l {P X St G} (E : emclass P X St) (I : initclass P X G) (L : leftclass P X St G) (rg : rng G) fp e glob x ls :
  match fit_run E I L rg fp e glob x ls with
  | Returned e1 g1 ev => fit E I rg fp e glob x ls = Ok (e1, g1, ev)
  | Raised _ _ ex => fit E I rg fp e glob x ls = Err ex
  end.
Proof. exact (fit_run_fit E I L rg fp e glob x ls). Qed.
Definition interrupted {P X St G} (E : emclass P X St) (I : initclass P X G) (L : leftclass P X St G) (rg : rng G) (fp : fpmode) : Prop :=
  forall e glob x ls e' glob' ex r,
  fit_run E I L rg fp e glob x ls = Raised e' glob' ex -> fit E I rg fp (set_n_iter 0 e) glob x ls = Ok r ->
  exists k ev, (k < c_n_iter (h_cfg (e_hmm e)))%nat
    /\ fit E I rg fp (set_n_iter k e) glob x ls = Ok (set_n_iter k e', glob', ev)
    /\ m_iter (h_mon (e_hmm e')) = k.
Lemma C81_categorical_l {G} (rg : rng G) fp : interrupted categorical cat_initc cat_left rg fp.
Proof.
  intros e glob x ls e' glob' ex r. apply (run_stops_total _ _ _ _ _ (cat_blind rg fp) (fun _ => True)); auto.
  intros h st _. cbn [ec_mstep categorical]. unfold cat_mstep. destruct (has _ _); eauto.
Qed.
Lemma C81_poisson_l {G} (rg : rng G) fp : interrupted poisson pois_initc pois_left rg fp.
Proof.
  intros e glob x ls e' glob' ex r. apply (run_stops_total _ _ _ _ _ (pois_blind rg fp) (fun _ => True)); auto.
  intros h st _. cbn [ec_mstep poisson]. unfold pois_mstep. destruct (has _ _); eauto.
Qed.
Lemma C81_multinomial_l {G} (rg : rng G) fp : interrupted multinomial mult_initc mult_left rg fp.
Proof.
  intros e glob x ls e' glob' ex r. apply (run_stops_total _ _ _ _ _ (mult_blind rg fp) (fun _ => True)); auto.
  intros h st _. cbn [ec_mstep multinomial]. unfold mult_mstep. destruct (has _ _); eauto.
Qed.

Definition gmm_set_up (p : gmmp) : Prop :=
  isSome (gm_weights p) = true /\ isSome (gm_means p) = true /\ isSome (gm_cprior p) = true /\ isSome (gm_cweight p) = true.
Lemma gmm_check_set_up eig fp c nfe p nfe' p' : gmm_check eig fp c nfe p = Ok (nfe', p') -> gmm_set_up p'.
Proof.
  intros H. destruct (gmm_check_keeps _ _ _ _ _ _ _ H) as (K1 & K2 & _). unfold gmm_set_up. rewrite K1, K2. unfold gmm_check in H.
  destruct (match nfe with Some _ => _ | None => _ end) as [nf|]; [|discriminate]. cbn [bind] in H.
  apply bind_inv in H as (p1 & Hp & H). destruct (is_type covariance_types (gm_type p)) eqn:Et; [|discriminate]. cbn [negb] in H.
  assert (Q : isSome (gm_cprior p1) = true /\ isSome (gm_cweight p1) = true).
  { unfold fix_priors in Hp. repeat (destruct (nbroadcast _ _) in Hp; [cbn [bind] in Hp|discriminate]).
    apply bind_inv in Hp as (cp & Hcp & Hp). apply bind_inv in Hp as (cw & Hcw & Hp). injection Hp as <-. cbn [gm_set_priors gm_cprior gm_cweight].
    assert (Ht : gm_type p = "spherical"%string \/ gm_type p = "tied"%string \/ gm_type p = "diag"%string \/ gm_type p = "full"%string).
    { unfold is_type, covariance_types in Et. cbn [existsb] in Et. rewrite !Bool.orb_true_iff, !String.eqb_eq in Et. intuition congruence. }
    split.
    - destruct (gm_cprior p) as [pr0|]; destruct Ht as [Ht|[Ht|[Ht|Ht]]]; rewrite Ht in Hcp; cbn in Hcp; all_ok Hcp; injection Hcp as <-; reflexivity.
    - destruct (gm_cweight p) as [pr0|]; destruct Ht as [Ht|[Ht|[Ht|Ht]]]; rewrite Ht in Hcw; cbn in Hcw; all_ok Hcw; injection Hcw as <-; reflexivity. }
  destruct Q as [Q1 Q2]. destruct (gm_weights p); [|discriminate]. destruct (negb _); [discriminate|]. destruct (negb _); [discriminate|].
  destruct (gm_means p); [|discriminate]. destruct (negb _); [discriminate|]. destruct (gm_covars p); [|discriminate].
  destruct (cprior_shape _ _ _ _); [|discriminate]. destruct (negb _); [discriminate|]. apply bind_inv in H as ([] & _ & H). injection H as _ <-. auto.
Qed.
Lemma C81_gmm_l {G} eig (gr : grng G) (rg : rng G) fp : interrupted (gmm eig) (gmm_initc gr) (gmm_left gr) rg fp.
Proof.
  intros e glob x ls e' glob' ex r. apply (run_stops_total _ _ _ _ _ (gmm_blind eig gr rg fp) (fun h => gmm_set_up (h_em h))).
  - intros h h' H. unfold check in H. destruct (h_start h); [|discriminate].
    destruct (h_trans h); [|destruct (negb _); [discriminate|]; destruct (negb _); discriminate].
    apply bind_inv in H as ([] & _ & H). apply bind_inv in H as ([nf p] & Hc & H). injection H as <-. apply (gmm_check_set_up _ _ _ _ _ _ _ Hc).
  - intros l h h' v H (I1 & I2 & I3 & I4). unfold em_step in H. destruct (h_start h); [|discriminate]. destruct (h_trans h); [|discriminate].
    apply bind_inv in H as ([st lp] & _ & H). apply bind_inv in H as (h1 & Hm & H). injection H as <- _. unfold do_mstep in Hm.
    apply bind_inv in Hm as (p & Hm & Hh). injection Hh as <-. cbn [h_em ec_mstep gmm] in *. unfold gmm_mstep in Hm.
    destruct (gm_weights (h_em h)); [|discriminate]. destruct (gm_means (h_em h)); [|discriminate]. apply bind_inv in Hm as (cv & _ & Hm). injection Hm as <-.
    unfold gmm_set_up. cbn. auto.
  - intros h st (I1 & I2 & I3 & I4). cbn [ec_mstep gmm]. unfold gmm_mstep, gmm_covars_upd. destruct (gm_weights (h_em h)); [|discriminate].
    destruct (gm_means (h_em h)); [|discriminate]. destruct (gm_cprior (h_em h)); [|discriminate]. destruct (gm_cweight (h_em h)); [|discriminate].
    destruct (has "c" _); cbn [bind]; eauto.
Qed.

(** GaussianHMM: its M-step may raise (hyper-parameters of the wrong shape), after
    [startprob_], [transmat_] and [means_] have been assigned. *)
Lemma C81_gaussian_partial_l {G} (rg : rng G) fp e glob x ls e' glob' ex r :
  fit_run gaussian gauss_initc gauss_left rg fp e glob x ls = Raised e' glob' ex ->
  fit gaussian gauss_initc rg fp (set_n_iter 0 e) glob x ls = Ok r ->
  exists k ek ev, (k < c_n_iter (h_cfg (e_hmm e)))%nat
    /\ fit gaussian gauss_initc rg fp (set_n_iter k e) glob x ls = Ok (set_n_iter k ek, glob', ev)
    /\ e_rs e' = e_rs ek /\ h_cfg (e_hmm e') = h_cfg (e_hmm ek) /\ h_nfeat (e_hmm e') = h_nfeat (e_hmm ek)
    /\ h_mon (e_hmm e') = h_mon (e_hmm ek) /\ m_iter (h_mon (e_hmm e')) = k
    /\ ga_covars (h_em (e_hmm e')) = ga_covars (h_em (e_hmm ek)) /\ ga_type (h_em (e_hmm e')) = ga_type (h_em (e_hmm ek)).
Proof.
  intros HR H0. destruct (run_stops _ _ _ _ _ (gauss_blind rg fp) e glob x ls e' glob' ex r HR H0) as (k & h1 & hk & m & ev & l & Hk & _ & _ & Hf & Hm & Hs & He).
  exists k, (Est (mon_set hk m) (e_rs e')), ev. split; [exact Hk|]. split; [exact Hf|]. split; [reflexivity|]. rewrite He. cbn [e_hmm mon_set h_cfg h_nfeat h_mon h_em].
  assert (Hl : let hl := step_left gaussian (@gauss_left G) fp x l hk in h_cfg hl = h_cfg hk /\ h_nfeat hl = h_nfeat hk
               /\ ga_covars (h_em hl) = ga_covars (h_em hk) /\ ga_type (h_em hl) = ga_type (h_em hk)).
  { cbv zeta. unfold step_left. destruct (h_start hk); [|auto]. destruct (h_trans hk); [|auto]. destruct (do_estep _ _ _ _ _ _ _) as [[st lp]|]; [|auto].
    cbn [h_cfg h_nfeat h_em lf_mstep gauss_left]. destruct (has "m" _); [|auto]. destruct (gauss_means _ _ _); auto. }
  destruct Hl as (-> & -> & -> & ->). auto 10.
Qed.

(** ** lengths that do not add up: the start values replace what had been learned. *)
Definition restarted {P X St G} (E : emclass P X St) (I : initclass P X G) (L : leftclass P X St G) (rg : rng G) (fp : fpmode) : Prop :=
  forall e glob x l e0 glob0 ev0,
  let n := c_n_iter (h_cfg (e_hmm e)) in
  fold_left Z.add l 0%Z <> Z.of_nat (length x) -> (0 < n)%nat ->
  fit E I rg fp (set_n_iter 0 e) glob x (Some l) = Ok (e0, glob0, ev0) ->
  exists ex, fit_run E I L rg fp e glob x (Some l) = Raised (set_n_iter n e0) glob0 ex.
Lemma run_restarted {P X St G} (E : emclass P X St) (I : initclass P X G) (L : leftclass P X St G) (rg : rng G) fp :
  n_iter_blind E I rg fp -> restarted E I L rg fp.
Proof.
  intros HB e glob x l e0 glob0 ev0 n Hl Hn H. unfold n in *.
  destruct (String.eqb (c_impl (h_cfg (e_hmm e))) "scaling" || String.eqb (c_impl (h_cfg (e_hmm e))) "log")%bool eqn:Ei.
  - destruct l as [|a l].
    + exists IndexError. apply (run_bad_estep E I L rg fp HB _ _ _ _ _ _ _ _ H Hn). intros h s t Hc. unfold do_estep. rewrite Hc, Ei. reflexivity.
    + exists (ValueError "lengths"). apply (run_bad_estep E I L rg fp HB _ _ _ _ _ _ _ _ H Hn). intros h s t Hc. unfold do_estep. rewrite Hc, Ei.
      unfold split_X_lengths. apply Z.eqb_neq in Hl. rewrite Hl. reflexivity.
  - exists KeyError. apply (run_bad_estep E I L rg fp HB _ _ _ _ _ _ _ _ H Hn). intros h s t Hc. unfold do_estep. rewrite Hc, Ei. reflexivity.
Qed.
Lemma C81_lengths_l {G} eig (gr : grng G) (rg : rng G) fp :
  restarted categorical cat_initc cat_left rg fp /\ restarted poisson pois_initc pois_left rg fp
  /\ restarted multinomial mult_initc mult_left rg fp /\ restarted gaussian gauss_initc gauss_left rg fp
  /\ restarted (gmm eig) (gmm_initc gr) (gmm_left gr) rg fp.
Proof.
  split; [apply run_restarted, cat_blind|]. split; [apply run_restarted, pois_blind|]. split; [apply run_restarted, mult_blind|].
  split; [apply run_restarted, gauss_blind|apply run_restarted, gmm_blind].
Qed.

(** ** Data that [fit] refuses before it starts: nothing is touched. *)
Definition untouched {P X St G} (E : emclass P X St) (I : initclass P X G) (L : leftclass P X St G) (rg : rng G) (fp : fpmode)
    (bad : est P G -> list X -> Prop) : Prop :=
  forall e glob x ls, x = [] \/ (exists r, In r x /\ ec_xok E r = false) \/ bad e x ->
  exists ex, fit_run E I L rg fp e glob x ls = Raised e glob ex.
(** A column too many or too few; a symbol outside the alphabet. *)
Definition wrong_width {P A G} (e : est P G) (x : list (list A)) : Prop :=
  match h_nfeat (e_hmm e), x with Some n, r :: _ => length r <> n | _, _ => False end.
Definition wrong_symbol {P G} (e : est P G) (x : list Z) : Prop :=
  exists s, In s x /\ ((s < 0)%Z \/ exists n, h_nfeat (e_hmm e) = Some n /\ (Z.of_nat n <= s)%Z).
Lemma untouched_l {P X St G} (E : emclass P X St) (I : initclass P X G) (L : leftclass P X St G) (rg : rng G) fp (bad : est P G -> list X -> Prop) :
  (forall c nf p x, lf_nfeat L c nf p x = (nf, p)) ->
  (forall e x, bad e x -> x <> [] -> exists ex, ic_nfeat I (h_cfg (e_hmm e)) (h_nfeat (e_hmm e)) (h_em (e_hmm e)) x = Err ex) ->
  untouched E I L rg fp bad.
Proof.
  intros HL HN e glob x ls H. unfold fit_run, check_array. destruct x as [|r x]; [eauto|]. destruct (forallb (ec_xok E) (r :: x)) eqn:Ef; [|eauto].
  destruct H as [H|[(y & Hy & H)|H]]; [discriminate| |].
  - rewrite forallb_forall in Ef. rewrite (Ef y Hy) in H. discriminate.
  - destruct (HN e (r :: x) H ltac:(discriminate)) as (ex & He). unfold init_run, base_init_run. rewrite He, HL. exists ex. destruct e as [[] ]. reflexivity.
Qed.
Lemma zmax_ge x a : In a x -> (a <= zmax x)%Z.
Proof.
  unfold zmax. generalize (hd 0%Z x) as b. revert a. induction x as [|y x IH]; intros a b H; [destruct H|]; destruct H as [<-|H]; cbn [fold_left].
  - clear IH. assert (K : forall l c, (c <= fold_left Z.max l c)%Z). { induction l as [|z l IHl]; intros c; cbn [fold_left]; [lia|]. specialize (IHl (Z.max c z)). lia. }
    specialize (K x (Z.max b y)). lia.
  - apply IH, H.
Qed.
Lemma zmin_le x a : In a x -> (zmin x <= a)%Z.
Proof.
  unfold zmin. generalize (hd 0%Z x) as b. revert a. induction x as [|y x IH]; intros a b H; [destruct H|]; destruct H as [<-|H]; cbn [fold_left].
  - clear IH. assert (K : forall l c, (fold_left Z.min l c <= c)%Z). { induction l as [|z l IHl]; intros c; cbn [fold_left]; [lia|]. specialize (IHl (Z.min c z)). lia. }
    specialize (K x (Z.min b y)). lia.
  - apply IH, H.
Qed.
Lemma C81_untouched_l {G} eig (gr : grng G) (rg : rng G) fp :
  untouched categorical cat_initc cat_left rg fp wrong_symbol /\ untouched poisson pois_initc pois_left rg fp wrong_width
  /\ untouched gaussian gauss_initc gauss_left rg fp wrong_width /\ untouched (gmm eig) (gmm_initc gr) (gmm_left gr) rg fp wrong_width.
Proof.
  assert (W : forall nf A (x : list (list A)), x <> [] -> match nf, x with Some n, r :: _ => length r <> n | _, _ => False end ->
                exists ex, set_n_features nf (width x) = Err ex).
  { intros [n|] A [|r x] Hx H; try contradiction. cbn [width]. unfold set_n_features. destruct (Nat.eqb_spec n (length r)); [congruence|eauto]. }
  split; [apply untouched_l; [reflexivity|]|split; [apply untouched_l; [reflexivity|]|split; apply untouched_l; try reflexivity]].
  - intros e x (s & Hs & H) _. cbn [ic_nfeat cat_initc]. unfold cat_nfeat. pose proof (zmin_le x s Hs) as K1. pose proof (zmax_ge x s Hs) as K2.
    destruct (Z.ltb_spec (zmin x) 0) as [|Hz]; [eauto|]. destruct H as [H|(n & -> & H)]; [lia|]. destruct (Z.ltb_spec (Z.of_nat n - 1) (zmax x)); [eauto|lia].
  - intros e x H Hx. cbn [ic_nfeat pois_initc]. unfold pois_nfeat. destruct (W _ _ x Hx H) as (ex & ->). eexists; reflexivity.
  - intros e x H Hx. cbn [ic_nfeat gauss_initc]. unfold gauss_nfeat. destruct (W _ _ x Hx H) as (ex & ->). eexists; reflexivity.
  - intros e x H Hx. cbn [ic_nfeat gmm_initc]. unfold gmm_nfeat. destruct (W _ _ x Hx H) as (ex & ->). eexists; reflexivity.
Qed.
