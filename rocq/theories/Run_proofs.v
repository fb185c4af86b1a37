(** * Whole training runs. *)
From Verif Require Export Fit_proofs.

Section Run.
  Context {P X St : Type} (E : emclass P X St).
  Variables (nc : nat) (ok : X -> Prop) (good : cfg -> option nat -> P -> Prop) (b : P -> X -> nat -> R) (V : bool).
  Hypothesis TN : trains E nc ok good b V.
  Variables (ls : list nat) (x : list X).
  Hypothesis Hd : good_data ok ls x.
  Notation cs := (chunks ls x).
  Notation tst := (tstate nc good b V ls x).
  Notation step := (em_step E exact x (as_lengths ls)).

  Lemma fit_scaling_ok h pi A c r : trainable E h nc pi A ok (b (h_em h)) -> c <> [] -> Forall ok c ->
    fit_scaling E exact h (fvec nc pi) (fmat nc nc A) c = Ok r -> seq_no_underflow nc pi A (b (h_em h)) c.
  Proof.
    intros Tr Hne Hc H. destruct (Classical_Prop.classic (seq_no_underflow nc pi A (b (h_em h)) c)) as [Hu|Hu]; [exact Hu|].
    exfalso. pose proof (tr_em _ _ _ _ _ _ _ Tr) as He. unfold fit_scaling in H.
    rewrite (em_lin _ _ _ _ _ He c Hc) in H. cbn [bind] in H.
    rewrite (no_underflow_seq nc pi A _ c Hne) in Hu.
    destruct (seq_nonempty c Hne) as [T HT].
    pose proof (obsB_nonneg ok (b (h_em h)) nc c (em_nonneg _ _ _ _ _ He) Hc) as HB. rewrite HT in *.
    replace (S T - 1)%nat with T in Hu by lia.
    rewrite forward_scaling_underflow in H by (apply Tr || assumption). discriminate.
  Qed.

  Lemma estep_loop_scaling h pi A l : trainable E h nc pi A ok (b (h_em h)) ->
    c_impl (h_cfg h) = "scaling"%string -> (forall c, In c l -> c <> [] /\ Forall ok c) ->
    forall st lp r, estep_loop E exact h (fvec nc pi) (fmat nc nc A) st lp l = Ok r ->
    forall c, In c l -> seq_no_underflow nc pi A (b (h_em h)) c.
  Proof.
    intros Tr Hi. induction l as [|d l IH]; intros Hl st lp r H c Hc; [contradiction|].
    cbn [estep_loop] in H.
    destruct (estep_seq E exact h (fvec nc pi) (fmat nc nc A) st d) as [[st' v]|] eqn:Es; [|discriminate].
    cbn [bind] in H. destruct Hc as [->|Hc].
    - unfold estep_seq in Es. rewrite Hi in Es. cbn [String.eqb Ascii.eqb Bool.eqb bind] in Es. cbn [bind] in Es.
      destruct (fit_scaling E exact h (fvec nc pi) (fmat nc nc A) c) as [q|] eqn:Ef; [|discriminate].
      destruct (Hl c (or_introl eq_refl)) as [H1 H2].
      apply (fit_scaling_ok h pi A c q); assumption.
    - apply (IH (fun c H => Hl c (or_intror H)) st' (xadd exact lp v) r H c Hc).
  Qed.

  Lemma em_step_scorable h pi A r : tst h pi A -> step h = Ok r ->
    forall c, In c cs -> scorable nc pi A (b (h_em h)) (c_impl (h_cfg h)) c.
  Proof.
    intros TS H c Hc. pose proof (tstate_trainable E nc ok good b V TN ls x h pi A TS) as Tr.
    unfold em_step in H. rewrite (ts_start _ _ _ _ _ _ _ _ _ TS), (ts_trans _ _ _ _ _ _ _ _ _ TS) in H.
    destruct (do_estep E exact h (fvec nc pi) (fmat nc nc A) x (as_lengths ls)) as [[st lp]|] eqn:Ee; [|discriminate].
    unfold do_estep in Ee.
    destruct (String.eqb_spec (c_impl (h_cfg h)) "scaling") as [Hi|Hi]; cbn [orb] in Ee.
    - right. split; [exact Hi|].
      destruct (good_data_chunks ok ls x Hd) as (_ & Hsp & Hch). rewrite Hsp in Ee. cbn [bind] in Ee.
      rewrite Forall_forall in Hch.
      apply (estep_loop_scaling h pi A cs Tr Hi Hch _ _ _ Ee c Hc).
    - destruct (String.eqb_spec (c_impl (h_cfg h)) "log") as [Hl|Hl]; [|discriminate].
      left. split; [exact Hl|]. apply (ts_lik _ _ _ _ _ _ _ _ _ TS). exact Hc.
  Qed.

  Variables (sp : nat -> R) (tp : nat -> nat -> R).
  Hypothesis Hsp : forall i, (i < nc)%nat -> 1 <= sp i.
  Hypothesis Htp : forall i j, (i < nc)%nat -> (j < nc)%nat -> 1 <= tp i j.

  Definition sub_stoch (pi : nat -> R) (A : nat -> nat -> R) : Prop :=
    sumn nc pi <= 1 /\ forall i, (i < nc)%nat -> sumn nc (A i) <= 1.

  Definition loglik_sum (pi : nat -> R) (A : nat -> nat -> R) (p : P) : R :=
    sumL (fun c => ln (seq_lik nc pi A (b p) c)) cs.

  Lemma prodL_pos {Y} (f : Y -> R) l : (forall y, In y l -> 0 < f y) -> 0 < prodL f l.
  Proof.
    induction l as [|y l IH]; intros H; simpl; [lra|].
    apply Rmult_lt_0_compat; [apply H; left; reflexivity|apply IH; intros z Hz; apply H; right; exact Hz].
  Qed.

  Lemma ln_prodL {Y} (f : Y -> R) l : (forall y, In y l -> 0 < f y) ->
    ln (prodL f l) = sumL (fun y => ln (f y)) l.
  Proof.
    induction l as [|y l IH]; intros H; simpl; [apply ln_1|].
    rewrite ln_mult; [rewrite IH; [reflexivity|]| |apply prodL_pos]; intros; apply H; simpl; auto.
  Qed.

  Lemma tst_xln h pi A : tst h pi A ->
    xln (prodL (seq_lik nc pi A (b (h_em h))) cs) = Fin (loglik_sum pi A (h_em h)).
  Proof.
    intros TS. rewrite xln_pos by (apply prodL_pos, TS).
    unfold loglik_sum. rewrite ln_prodL by apply TS. reflexivity.
  Qed.

  Notation npi := (new_pi nc b ls x). Notation nA := (new_A nc b ls x).

  Lemma em_step_next h pi A h' lp : tst h pi A -> priors (h_cfg h) nc sp tp ->
    step h = Ok (h', lp) ->
    h_cfg h' = h_cfg h /\ h_nfeat h' = h_nfeat h /\ h_mon h' = h_mon h
    /\ lp = Fin (loglik_sum pi A (h_em h))
    /\ tst h' (npi h pi A sp) (nA h pi A tp)
    /\ (exists st, em_acc_all E (h_cfg h) (h_nfeat h) (h_em h) nc
          (ec_stats0 E exact (h_cfg h) (h_nfeat h) (h_em h)) (wpairs nc b ls x h pi A) = Ok st
        /\ ec_mstep E exact (h_cfg h) (h_nfeat h) (h_em h) st = Ok (h_em h'))
    /\ (sub_stoch pi A -> sub_stoch (npi h pi A sp) (nA h pi A tp)
         /\ forall W pen, improves E nc ok good b W pen ->
              W (h_cfg h) (h_nfeat h) (h_em h) (wpairs nc b ls x h pi A) ->
              loglik_sum pi A (h_em h) + penalty nc sp tp pi A + pen (h_em h)
              <= loglik_sum (npi h pi A sp) (nA h pi A tp) (h_em h')
                 + penalty nc sp tp (npi h pi A sp) (nA h pi A tp) + pen (h_em h')).
  Proof.
    intros TS HP Hst. pose proof (em_step_scorable h pi A _ TS Hst) as Hsc.
    destruct (em_step_ok E nc ok good b V TN ls x Hd h pi A TS sp tp HP Hsc
               (start_ok_ge1 E nc ok good b V TN ls x Hd h pi A TS sp Hsp)) as (p' & H1 & H2 & H3 & H4).
    rewrite H1 in Hst. injection Hst as <- <-. cbn [h_cfg h_nfeat h_mon h_em].
    split; [reflexivity|]. split; [reflexivity|]. split; [reflexivity|]. split; [apply tst_xln; exact TS|].
    split.
    - constructor; cbn [h_cfg h_nfeat h_em h_start h_trans].
      + apply TS.
      + apply TS.
      + reflexivity.
      + reflexivity.
      + apply (new_pi_nonneg _ good _ V); exact TS.
      + apply (new_A_nonneg _ good _ V); exact TS.
      + exact H2.
      + intros c Hc. apply (step_gain E nc ok good b V TN ls x Hd h pi A TS sp tp); assumption.
      + intros HV i Hi. destruct (ts_visit _ _ _ _ _ _ _ _ _ TS HV i Hi) as (c & g & t & Hin & Ht & Hp).
        apply in_map_iff in Hin as (c' & Heq & Hc). injection Heq as -> <-.
        exists c, (seq_post nc (npi h pi A sp) (nA h pi A tp) (b p') c), t.
        split; [apply in_map_iff; exists c; split; [reflexivity|exact Hc]|]. split; [exact Ht|].
        apply (step_visit E nc ok good b V TN ls x Hd h pi A TS sp tp); assumption.
    - split; [exact H3|]. intros [Hs1 Hs2]. split.
      + split.
        * unfold new_pi. destruct (has "s" _); [|exact Hs1].
          apply stoch_or_zero_le1, normalised_stoch_or_zero, map_weight_nonneg.
        * intros i Hi. unfold new_A. destruct (has "t" _); [|apply Hs2; exact Hi].
          apply stoch_or_zero_le1, normalised_stoch_or_zero, map_weight_nonneg.
      + intros W pen Him HW. apply (step_gain_all E nc ok good b V TN ls x Hd h pi A TS sp tp Hsp Htp W); assumption.
  Qed.

  (** All intermediate states of a run. *)
  Record run (k : nat) (h h' : hmm P) (vs : list xnum)
      (hs : nat -> hmm P) (pis : nat -> nat -> R) (As : nat -> nat -> nat -> R) : Prop := Run_ {
    rn_0 : hs 0%nat = h;
    rn_k : hs k = h';
    rn_st : forall j, (j <= k)%nat -> tst (hs j) (pis j) (As j);
    rn_cfg : forall j, (j <= k)%nat -> h_cfg (hs j) = h_cfg h /\ h_nfeat (hs j) = h_nfeat h /\ h_mon (hs j) = h_mon h;
    rn_len : length vs = k;
    rn_val : forall j, (j < k)%nat -> nth j vs NaN = Fin (loglik_sum (pis j) (As j) (h_em (hs j)));
    rn_step : forall j, (j < k)%nat -> step (hs j) = Ok (hs (S j), nth j vs NaN);
    rn_em : forall j, (j < k)%nat -> (exists st, em_acc_all E (h_cfg (hs j)) (h_nfeat (hs j)) (h_em (hs j)) nc
          (ec_stats0 E exact (h_cfg (hs j)) (h_nfeat (hs j)) (h_em (hs j))) (wpairs nc b ls x (hs j) (pis j) (As j)) = Ok st
        /\ ec_mstep E exact (h_cfg (hs j)) (h_nfeat (hs j)) (h_em (hs j)) st = Ok (h_em (hs (S j))));
    rn_pi : forall j, (j < k)%nat -> pis (S j) = npi (hs j) (pis j) (As j) sp;
    rn_A : forall j, (j < k)%nat -> As (S j) = nA (hs j) (pis j) (As j) tp;
    rn_gain : sub_stoch (pis 0%nat) (As 0%nat) -> forall j, (j < k)%nat -> sub_stoch (pis (S j)) (As (S j))
       /\ forall W pen, improves E nc ok good b W pen ->
          W (h_cfg (hs j)) (h_nfeat (hs j)) (h_em (hs j)) (wpairs nc b ls x (hs j) (pis j) (As j)) ->
          loglik_sum (pis j) (As j) (h_em (hs j)) + penalty nc sp tp (pis j) (As j) + pen (h_em (hs j))
          <= loglik_sum (pis (S j)) (As (S j)) (h_em (hs (S j))) + penalty nc sp tp (pis (S j)) (As (S j)) + pen (h_em (hs (S j))) }.

  Theorem iterate_run k : forall h pi A h' vs, tst h pi A -> priors (h_cfg h) nc sp tp ->
    iterate step k h = Ok (h', vs) ->
    exists hs pis As, pis 0%nat = pi /\ As 0%nat = A /\ run k h h' vs hs pis As.
  Proof.
    induction k as [|k IH]; intros h pi A h' vs TS HP H.
    - cbn [iterate] in H. injection H as <- <-.
      exists (fun _ => h), (fun _ => pi), (fun _ => A). split; [reflexivity|]. split; [reflexivity|].
      constructor; try reflexivity; try (intros j Hj; lia); auto.
    - rewrite iterate_S in H. destruct (step h) as [[h1 v]|] eqn:Es; [|discriminate]. cbn [bind] in H.
      destruct (iterate step k h1) as [[h2 vs']|] eqn:Ei; [|discriminate]. injection H as <- <-.
      destruct (em_step_next h pi A h1 v TS HP Es) as (Hc & Hn & Hm & Hv & TS1 & Hem & Hg).
      assert (HP1 : priors (h_cfg h1) nc sp tp) by (rewrite Hc; exact HP).
      destruct (IH h1 _ _ h2 vs' TS1 HP1 Ei) as (hs & pis & As & E1 & E2 & Rn).
      exists (fun j => match j with 0%nat => h | S j => hs j end),
             (fun j => match j with 0%nat => pi | S j => pis j end),
             (fun j => match j with 0%nat => A | S j => As j end).
      split; [reflexivity|]. split; [reflexivity|].
      destruct Rn. constructor.
      + reflexivity.
      + assumption.
      + intros [|j] Hj; [exact TS|apply rn_st0; lia].
      + intros [|j] Hj; [auto|]. destruct (rn_cfg0 j ltac:(lia)) as (-> & -> & ->). auto.
      + simpl. lia.
      + intros [|j] Hj; [exact Hv|apply rn_val0; lia].
      + intros [|j] Hj; cbn [nth]; [rewrite rn_1; exact Es|apply rn_step0; lia].
      + intros [|j] Hj; [rewrite rn_1; exact Hem|apply rn_em0; lia].
      + intros [|j] Hj; [exact E1|apply rn_pi0; lia].
      + intros [|j] Hj; [exact E2|apply rn_A0; lia].
      + intros Hss. destruct (Hg Hss) as [Hss1 Hg1]. rewrite <- E1, <- E2 in Hss1.
        intros [|j] Hj; [|apply (rn_gain0 Hss1); lia].
        split; [exact Hss1|]. intros W pen Him HW. rewrite rn_1, E1, E2. apply (Hg1 W); assumption.
  Qed.

  (** The log implementation never fails. *)
  Lemma em_step_log h pi A : tst h pi A -> priors (h_cfg h) nc sp tp -> c_impl (h_cfg h) = "log"%string ->
    exists r, step h = Ok r.
  Proof.
    intros TS HP Hi.
    destruct (em_step_ok E nc ok good b V TN ls x Hd h pi A TS sp tp HP) as (p' & H1 & _).
    - intros c Hc. left. split; [exact Hi|apply TS; exact Hc].
    - apply (start_ok_ge1 E nc ok good b V TN); assumption.
    - eexists. exact H1.
  Qed.

  Lemma fit_loop_log zr fuel : forall h pi A m, tst h pi A -> priors (h_cfg h) nc sp tp ->
    c_impl (h_cfg h) = "log"%string -> exists r, fit_loop exact step zr fuel h m = Ok r.
  Proof.
    induction fuel as [|fuel IH]; intros h pi A m TS HP Hi; cbn [fit_loop]; [eexists; reflexivity|].
    destruct (em_step_log h pi A TS HP Hi) as [[h1 v] Es]. rewrite Es. cbn [bind].
    destruct (monitor_report exact m v) as [m1 ev1]. destruct (converged exact m1); [eexists; reflexivity|].
    destruct (em_step_next h pi A h1 v TS HP Es) as (Hc & Hn & Hm & Hv & TS1 & Hem & Hg).
    destruct (IH h1 _ _ m1 TS1) as [[[h2 m2] ev2] El].
    - rewrite Hc. exact HP.
    - rewrite Hc. exact Hi.
    - rewrite El. cbn [bind]. eexists; reflexivity.
  Qed.

  (** ** Switching the implementation. *)
  Hypothesis Hbl : forall i c nf p, good c nf p -> good (cfg_impl i c) nf p.
  Hypothesis Hb0 : forall i c nf p, ec_stats0 E exact (cfg_impl i c) nf p = ec_stats0 E exact c nf p.
  Hypothesis Hba : forall i c nf p st y g, ec_acc E exact (cfg_impl i c) nf p st y g = ec_acc E exact c nf p st y g.
  Hypothesis Hbm : forall i c nf p st, ec_mstep E exact (cfg_impl i c) nf p st = ec_mstep E exact c nf p st.

  Lemma em_acc_all_impl i c nf p l : forall st,
    em_acc_all E (cfg_impl i c) nf p nc st l = em_acc_all E c nf p nc st l.
  Proof.
    induction l as [|[y g] l IH]; intros st; [reflexivity|]. cbn [em_acc_all]. rewrite Hba.
    destruct (ec_acc E exact c nf p st y _); [|reflexivity]. cbn [bind]. apply IH.
  Qed.

  Lemma tst_impl i h pi A : tst h pi A -> tst (with_cfg (cfg_impl i) h) pi A.
  Proof. intros []. constructor; try assumption. cbn [with_cfg h_cfg h_nfeat h_em]. apply Hbl. assumption. Qed.

  Lemma em_step_impl h pi A h1 v : tst h pi A -> priors (h_cfg h) nc sp tp ->
    step h = Ok (h1, v) ->
    step (with_cfg (cfg_impl "log") h) = Ok (with_cfg (cfg_impl "log") h1, v).
  Proof.
    intros TS HP Hst. pose proof (em_step_scorable h pi A _ TS Hst) as Hsc.
    destruct (em_step_ok E nc ok good b V TN ls x Hd h pi A TS sp tp HP Hsc
               (start_ok_ge1 E nc ok good b V TN ls x Hd h pi A TS sp Hsp)) as (p1 & H1 & _ & H3 & _).
    rewrite H1 in Hst. injection Hst as <- <-.
    pose proof (tst_impl "log" h pi A TS) as TS'.
    set (h' := with_cfg (cfg_impl "log") h) in *.
    destruct (em_step_ok E nc ok good b V TN ls x Hd h' pi A TS' sp tp) as (p2 & H1' & _ & H3' & _).
    - exact HP.
    - intros c Hc. left. split; [reflexivity|]. apply TS. exact Hc.
    - apply (start_ok_ge1 E nc ok good b V TN); assumption.
    - rewrite H1'. destruct H3 as (st & Ha & Hm). destruct H3' as (st' & Ha' & Hm').
      assert (st' = st).
      { unfold h' in Ha'. cbn [with_cfg h_cfg h_nfeat h_em] in Ha'. rewrite em_acc_all_impl, Hb0 in Ha'.
        assert (Hq : Ok st' = Ok st) by (rewrite <- Ha'; exact Ha). injection Hq as Hq. exact Hq. }
      subst st'. unfold h' in Hm'. cbn [with_cfg h_cfg h_nfeat h_em] in Hm'. rewrite Hbm in Hm'.
      assert (p2 = p1) by congruence. subst p2. reflexivity.
  Qed.

  Lemma fit_loop_impl fuel : forall h pi A m h' m' ev, tst h pi A -> priors (h_cfg h) nc sp tp ->
    fit_loop exact step (zero_rows exact) fuel h m = Ok (h', m', ev) ->
    fit_loop exact step (zero_rows exact) fuel (with_cfg (cfg_impl "log") h) m
    = Ok (with_cfg (cfg_impl "log") h', m', ev).
  Proof.
    induction fuel as [|fuel IH]; intros h pi A m h' m' ev TS HP H; cbn [fit_loop] in *.
    - injection H as <- <- <-. reflexivity.
    - destruct (step h) as [[h1 v]|] eqn:Es; [|discriminate]. cbn [bind] in H.
      rewrite (em_step_impl h pi A h1 v TS HP Es). cbn [bind].
      destruct (em_step_next h pi A h1 v TS HP Es) as (Hc & Hn & Hm & Hv & TS1 & Hem & Hg).
      destruct (monitor_report exact m v) as [m1 ev1]. destruct (converged exact m1).
      + injection H as <- <- <-. reflexivity.
      + destruct (fit_loop exact step (zero_rows exact) fuel h1 m1) as [[[h2 m2] ev2]|] eqn:El; [|discriminate].
        injection H as <- <- <-.
        rewrite (IH h1 _ _ m1 h2 m2 ev2 TS1); [reflexivity|rewrite Hc; exact HP|exact El].
  Qed.
End Run.
