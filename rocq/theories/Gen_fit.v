(** * Training runs of any emission class. *)
From Verif Require Export Run_proofs.

Lemma nondec_chain (f : nat -> R) k : (forall j, (S j < k)%nat -> f j <= f (S j)) ->
  forall i j, (i <= j)%nat -> (j < k)%nat -> f i <= f j.
Proof.
  intros H i j Hij. induction Hij as [|j Hij IH]; intros Hj; [lra|].
  eapply Rle_trans; [apply IH; lia|apply H; exact Hj].
Qed.

Lemma sub_stoch_run {P X St} (E : emclass P X St) nc ok good b V ls x sp tp k h h' vs hs pis As :
  run E nc ok good b V ls x sp tp k h h' vs hs pis As -> sub_stoch nc (pis 0%nat) (As 0%nat) ->
  forall j, (j <= k)%nat -> sub_stoch nc (pis j) (As j).
Proof.
  intros Rn H0 j Hj. destruct j as [|j]; [exact H0|]. apply (rn_gain _ _ _ _ _ _ _ _ _ _ _ _ _ _ _ _ _ Rn H0 j). lia.
Qed.

Lemma penalty_flat nc pi A : penalty nc (fun _ => 1) (fun _ _ => 1) pi A = 0.
Proof.
  unfold penalty, dir_pen. rewrite sumn_zero by (intros; ring).
  rewrite sumn_zero; [ring|]. intros i Hi. apply sumn_zero. intros; ring.
Qed.

(** A history of non-decreasing values causes no warning. *)
Lemma monotone_history {P X St} (E : emclass P X St) h x lengths h' ev (L : nat -> R) :
  fit_from E exact h x lengths = Ok (h', ev) ->
  (forall j, (j < length (m_history (h_mon h')))%nat -> nth j (m_history (h_mon h')) NaN = Fin (L j)) ->
  (forall j, (S j < length (m_history (h_mon h')))%nat -> L j <= L (S j)) ->
  (exists vs : list R, m_history (h_mon h') = map Fin vs
     /\ forall i j, (i <= j)%nat -> (j < length vs)%nat -> nth i vs 0 <= nth j vs 0)
  /\ ~ In WNotConverging ev.
Proof.
  intros Hf Hv HL. set (k := length (m_history (h_mon h'))) in *.
  assert (Hh : m_history (h_mon h') = map Fin (map L (seq 0 k))).
  { apply (nth_ext _ _ NaN NaN); [rewrite !map_length, seq_length; reflexivity|].
    intros j Hj. fold k in Hj. rewrite Hv by exact Hj.
    rewrite map_map. rewrite (nth_indep _ NaN (Fin (L 0%nat))) by (rewrite map_length, seq_length; exact Hj).
    rewrite (map_nth (fun j => Fin (L j))), seq_nth by exact Hj. reflexivity. }
  assert (Hn : forall j, (j < k)%nat -> nth j (map L (seq 0 k)) 0 = L j).
  { intros j Hj. rewrite (nth_indep _ 0 (L 0%nat)) by (rewrite map_length, seq_length; exact Hj).
    rewrite map_nth, seq_nth by exact Hj. reflexivity. }
  split.
  - exists (map L (seq 0 k)). split; [exact Hh|]. rewrite map_length, seq_length.
    intros i j Hij Hj. rewrite !Hn by lia. apply (nondec_chain L k HL i j Hij Hj).
  - intros Hw.
    assert (Hf' : fit_from E exact h x (match lengths with None => Some [Z.of_nat (length x)] | Some l => Some l end) = Ok (h', ev))
      by (destruct lengths; exact Hf).
    unfold fit_from in Hf. destruct (check E exact h) as [h1|] eqn:Hc; [|discriminate]. cbn [bind] in Hf.
    destruct (fit_loop _ _ _ _ _ _) as [[[h2 m] ev2]|] eqn:El; [|discriminate]. injection Hf as Eh Ev. subst ev2.
    pose proof (fit_loop_warns _ _ _ _ _ _ _ _ _ El) as Hdr.
    assert (Hdrop : drops exact (m_history (h_mon h'))).
    { rewrite <- Eh. cbn [h_mon]. apply Hdr. left. exact Hw. }
    destruct Hdrop as (l & a & z & r & El2 & Hlt). rewrite Hh in El2.
    assert (Hlen : (S (length l) < k)%nat).
    { assert (H : length (map Fin (map L (seq 0 k))) = length (l ++ a :: z :: r)) by (rewrite El2; reflexivity).
      rewrite !map_length, seq_length, app_length in H. simpl in H. lia. }
    assert (Ha : a = Fin (L (length l))).
    { transitivity (nth (length l) (l ++ a :: z :: r) NaN); [rewrite nth_middle; reflexivity|].
      rewrite <- El2, <- Hh. apply Hv. lia. }
    assert (Hzz : z = Fin (L (S (length l)))).
    { transitivity (nth (S (length l)) (l ++ a :: z :: r) NaN).
      - change (l ++ a :: z :: r) with (l ++ [a] ++ z :: r). rewrite app_assoc.
        replace (S (length l)) with (length (l ++ [a])) by (rewrite app_length; simpl; lia).
        rewrite nth_middle. reflexivity.
      - rewrite <- El2, <- Hh. apply Hv. lia. }
    subst a z. unfold xlt in Hlt. cbn [xsub xopp xadd exact xltb] in Hlt. unfold exact in Hlt. cbn [xltb] in Hlt.
    apply Rltb_true in Hlt. specialize (HL _ Hlen).
    assert (0 < / 2 ^ 26) by (apply Rinv_0_lt_compat, pow_lt; lra). lra.
Qed.

(** The whole of a training run: parameters [pis j], [As j], [ps j] after [j]
    iterations. *)
Record training {P X St} (E : emclass P X St) nc good (b : P -> X -> nat -> R) V ls x sp tp
    (W : cfg -> option nat -> P -> list (list X * (nat -> nat -> R)) -> Prop) (pen : P -> R)
    (h1 h' : hmm P) (pi : nat -> R) (A : nat -> nat -> R)
    (pis : nat -> nat -> R) (As : nat -> nat -> nat -> R) (ps : nat -> P) : Prop := Training {
  tg_pi : pis 0%nat = pi;
  tg_A : As 0%nat = A;
  tg_p : ps 0%nat = h_em h1;
  tg_start : h_start h' = Some (fvec nc (pis (length (m_history (h_mon h')))));
  tg_trans : h_trans h' = Some (fmat nc nc (As (length (m_history (h_mon h')))));
  tg_em : h_em h' = ps (length (m_history (h_mon h')));
  tg_cfg : h_cfg h' = h_cfg h1;
  tg_nf : h_nfeat h' = h_nfeat h1;
  tg_st : forall j, (j <= length (m_history (h_mon h')))%nat ->
    tstate nc good b V ls x
      (Hmm (h_cfg h1) (h_nfeat h1) (Some (fvec nc (pis j))) (Some (fmat nc nc (As j))) (h_mon h1) (ps j))
      (pis j) (As j);
  tg_hist : forall j, (j < length (m_history (h_mon h')))%nat ->
    nth j (m_history (h_mon h')) NaN = Fin (data_loglik nc (pis j) (As j) (b (ps j)) ls x);
  tg_step : forall j, (j < length (m_history (h_mon h')))%nat -> exists st,
    em_acc_all E (h_cfg h1) (h_nfeat h1) (ps j) nc (ec_stats0 E exact (h_cfg h1) (h_nfeat h1) (ps j))
      (map (fun c => (c, seq_post nc (pis j) (As j) (b (ps j)) c)) (chunks ls x)) = Ok st
    /\ ec_mstep E exact (h_cfg h1) (h_nfeat h1) (ps j) st = Ok (ps (S j));
  tg_gain : forall j, (j < length (m_history (h_mon h')))%nat ->
    W (h_cfg h1) (h_nfeat h1) (ps j)
      (map (fun c => (c, seq_post nc (pis j) (As j) (b (ps j)) c)) (chunks ls x)) ->
    data_loglik nc (pis j) (As j) (b (ps j)) ls x + log_dirichlet nc sp (pis j)
      + sumn nc (fun i => log_dirichlet nc (tp i) (As j i)) + pen (ps j)
    <= data_loglik nc (pis (S j)) (As (S j)) (b (ps (S j))) ls x + log_dirichlet nc sp (pis (S j))
      + sumn nc (fun i => log_dirichlet nc (tp i) (As (S j) i)) + pen (ps (S j)) }.

Section Gen.
  Context {P X St : Type} (E : emclass P X St).
  Variables (nc : nat) (ok : X -> Prop) (good : cfg -> option nat -> P -> Prop) (b : P -> X -> nat -> R) (V : bool).
  Hypothesis TN : trains E nc ok good b V.
  Variables (ls : list nat) (x : list X).
  Hypothesis Hd : good_data ok ls x.
  Variables (sp : nat -> R) (tp : nat -> nat -> R).
  Hypothesis Hsp : forall i, (i < nc)%nat -> 1 <= sp i.
  Hypothesis Htp : forall i j, (i < nc)%nat -> (j < nc)%nat -> 1 <= tp i j.
  Variables (h h1 : hmm P) (pi : nat -> R) (A : nat -> nat -> R).
  Hypothesis Hck : check E exact h = Ok h1.
  Hypothesis TS : tstate nc good b V ls x h1 pi A.
  Hypothesis HP : priors (h_cfg h1) nc sp tp.

  Theorem gen_fit_run h' ev : fit_from E exact h x (as_lengths ls) = Ok (h', ev) ->
    exists h2 hs pis As,
      pis 0%nat = pi /\ As 0%nat = A
      /\ run E nc ok good b V ls x sp tp
           (length (m_history (h_mon h'))) h1 h2 (m_history (h_mon h')) hs pis As
      /\ h' = Hmm (h_cfg h2) (h_nfeat h2) (h_start h2) (h_trans h2) (h_mon h') (h_em h2).
  Proof.
    intros Hf. destruct (fit_from_trace _ _ _ _ _ _ _ Hf) as (h1' & h2 & vs & Hc & Hi & Hh & _).
    rewrite Hck in Hc. injection Hc as <-.
    destruct (iterate_run E nc ok good b V TN ls x Hd sp tp Hsp Htp (length vs) h1 pi A h2 vs TS HP Hi)
      as (hs & pis & As & E1 & E2 & Rn).
    assert (Hm : m_history (h_mon h') = vs) by (rewrite Hh; reflexivity).
    exists h2, hs, pis, As. rewrite Hm. split; [exact E1|]. split; [exact E2|]. split; [exact Rn|].
    rewrite Hh. reflexivity.
  Qed.

  (** Everything the training theorems say, with the emission parameters
      [ps j] before the [j]-th update. *)
  Theorem gen_monotone W pen h' ev : improves E nc ok good b W pen ->
    sumn nc pi <= 1 -> (forall i, (i < nc)%nat -> sumn nc (A i) <= 1) ->
    fit_from E exact h x (as_lengths ls) = Ok (h', ev) ->
    exists pis As ps, training E nc good b V ls x sp tp W pen h1 h' pi A pis As ps.
  Proof.
    intros Him Hp1 HA1 Hf. destruct (gen_fit_run h' ev Hf) as (h2 & hs & pis & As & E1 & E2 & Rn & Hh').
    exists pis, As, (fun j => h_em (hs j)).
    set (k := length (m_history (h_mon h'))) in *.
    assert (Hk : hs k = h2) by apply Rn.
    pose proof (rn_st _ _ _ _ _ _ _ _ _ _ _ _ _ _ _ _ _ Rn) as TSj.
    pose proof (TSj k (le_n _)) as TSk. rewrite Hk in TSk.
    assert (Hp2 : h_start h' = h_start h2 /\ h_trans h' = h_trans h2 /\ h_em h' = h_em h2
                  /\ h_cfg h' = h_cfg h2 /\ h_nfeat h' = h_nfeat h2) by (rewrite Hh'; auto).
    destruct Hp2 as (P1 & P2 & P3 & P4 & P5).
    pose proof (rn_cfg _ _ _ _ _ _ _ _ _ _ _ _ _ _ _ _ _ Rn) as Hcfg.
    destruct (Hcfg k (le_n _)) as (C1 & C2 & _). rewrite Hk in C1, C2.
    constructor; fold k.
    - exact E1.
    - exact E2.
    - rewrite (rn_0 _ _ _ _ _ _ _ _ _ _ _ _ _ _ _ _ _ Rn). reflexivity.
    - rewrite P1. apply TSk.
    - rewrite P2. apply TSk.
    - rewrite P3, Hk. reflexivity.
    - rewrite P4. exact C1.
    - rewrite P5. exact C2.
    - intros j Hj. destruct (Hcfg j Hj) as (D1 & D2 & _). specialize (TSj j Hj).
      rewrite <- D1, <- D2. destruct TSj. constructor; try assumption; reflexivity.
    - intros j Hj. apply (rn_val _ _ _ _ _ _ _ _ _ _ _ _ _ _ _ _ _ Rn j Hj).
    - intros j Hj. destruct (rn_em _ _ _ _ _ _ _ _ _ _ _ _ _ _ _ _ _ Rn j Hj) as (st & S1 & S2).
      destruct (Hcfg j ltac:(lia)) as (D1 & D2 & _). rewrite D1, D2 in S1, S2. exists st. split; assumption.
    - assert (Hss : sub_stoch nc (pis 0%nat) (As 0%nat)) by (rewrite E1, E2; split; assumption).
      intros j Hj HW. destruct (rn_gain _ _ _ _ _ _ _ _ _ _ _ _ _ _ _ _ _ Rn Hss j Hj) as [_ Hg].
      destruct (Hcfg j ltac:(lia)) as (D1 & D2 & _).
      specialize (Hg W pen Him). rewrite D1, D2 in Hg. specialize (Hg HW).
      unfold loglik_sum, penalty, dir_pen in Hg. unfold data_loglik, log_dirichlet in *. lra.
  Qed.
  (** [fit] with the log implementation succeeds. *)
  Theorem gen_fit_log_ok : c_impl (h_cfg h1) = "log"%string ->
    exists h' ev, fit_from E exact h x (as_lengths ls) = Ok (h', ev).
  Proof.
    intros Hi. unfold fit_from. rewrite Hck. cbn [bind].
    destruct (fit_loop_log E nc ok good b V TN ls x Hd sp tp Hsp Htp (zero_rows exact) (c_n_iter (h_cfg h1)) h1 pi A
                (monitor_reset (h_mon h1)) TS HP Hi) as [[[h2 m2] ev2] El].
    unfold as_lengths in *. rewrite El. cbn [bind]. do 2 eexists. reflexivity.
  Qed.

  (** Both implementations train identically. *)
  Hypothesis Hbl : forall i c nf p, good c nf p -> good (cfg_impl i c) nf p.
  Hypothesis Hb0 : forall i c nf p, ec_stats0 E exact (cfg_impl i c) nf p = ec_stats0 E exact c nf p.
  Hypothesis Hba : forall i c nf p st y g, ec_acc E exact (cfg_impl i c) nf p st y g = ec_acc E exact c nf p st y g.
  Hypothesis Hbm : forall i c nf p st, ec_mstep E exact (cfg_impl i c) nf p st = ec_mstep E exact c nf p st.
  Hypothesis Hbc : forall i c nf p, ec_check E exact (cfg_impl i c) nf p = ec_check E exact c nf p.

  Lemma check_impl i : check E exact (with_cfg (cfg_impl i) h) = Ok (with_cfg (cfg_impl i) h1).
  Proof.
    clear TS HP. unfold check in *. cbn [with_cfg h_start h_trans h_cfg h_nfeat h_em h_mon].
    destruct (h_start h) as [s|] eqn:Es; [|discriminate]. destruct (h_trans h) as [t|] eqn:Et.
    2:{ destruct (Nat.eqb _ _); cbn [negb] in Hck; [|discriminate]. destruct (check_sum_1 _ _); discriminate. }
    change (c_nc (cfg_impl i (h_cfg h))) with (c_nc (h_cfg h)).
    destruct (base_check exact (c_nc (h_cfg h)) s t); [|discriminate]. cbn [bind] in *.
    rewrite Hbc. destruct (ec_check E exact (h_cfg h) (h_nfeat h) (h_em h)) as [[nf em]|]; [|discriminate].
    cbn [bind] in *. injection Hck as <-. reflexivity.
  Qed.

  Theorem gen_same_training h' ev : fit_from E exact h x (as_lengths ls) = Ok (h', ev) ->
    fit_from E exact (with_cfg (cfg_impl "log") h) x (as_lengths ls) = Ok (with_cfg (cfg_impl "log") h', ev).
  Proof.
    intros Hf. unfold fit_from in *. rewrite Hck in Hf. rewrite check_impl. cbn [bind] in *.
    change (match as_lengths ls with None => _ | Some l => Some l end) with (as_lengths ls) in *.
    destruct (fit_loop exact (em_step E exact x (as_lengths ls)) (zero_rows exact)
                (c_n_iter (h_cfg h1)) h1 (monitor_reset (h_mon h1)))
      as [[[h2 m2] ev2]|] eqn:El; [|discriminate].
    injection Hf as <- <-.
    pose proof (fit_loop_impl E nc ok good b V TN ls x Hd sp tp Hsp Htp Hbl Hb0 Hba Hbm
                (c_n_iter (h_cfg h1)) h1 pi A _ h2 m2 ev2 TS HP El) as Hl.
    change (c_n_iter (h_cfg (with_cfg (cfg_impl "log") h1))) with (c_n_iter (h_cfg h1)).
    change (h_mon (with_cfg (cfg_impl "log") h1)) with (h_mon h1).
    rewrite Hl. reflexivity.
  Qed.
End Gen.

(** ** What an iteration leaves alone. *)
Lemma em_step_keeps {P X St} (E : emclass P X St) fp x lengths h h' v :
  em_step E fp x lengths h = Ok (h', v) ->
  h_cfg h' = h_cfg h /\ h_nfeat h' = h_nfeat h /\ h_mon h' = h_mon h
  /\ (has "s" (c_params (h_cfg h)) = false -> h_start h' = h_start h)
  /\ (has "t" (c_params (h_cfg h)) = false -> h_trans h' = h_trans h)
  /\ (forall V (F : P -> V), (forall nf p st p', ec_mstep E fp (h_cfg h) nf p st = Ok p' -> F p' = F p) ->
      F (h_em h') = F (h_em h)).
Proof.
  intros H. unfold em_step in H.
  destruct (h_start h) as [s|]; [|discriminate]. destruct (h_trans h) as [t|]; [|discriminate].
  destruct (do_estep _ _ _ _ _ _ _) as [[st lp]|]; [|discriminate]. cbn [bind] in H.
  unfold do_mstep in H. destruct (ec_mstep _ _ _ _ _ _) as [em|] eqn:Em; [|discriminate]. cbn [bind] in H.
  injection H as <- <-. cbn [h_start h_trans h_cfg h_nfeat h_mon h_em].
  repeat split; try reflexivity.
  - intros Hs. unfold mstep_start. rewrite Hs. reflexivity.
  - intros Ht. unfold mstep_trans. rewrite Ht. reflexivity.
  - intros V F HF. apply (HF _ _ _ _ Em).
Qed.

Lemma check_keeps {P X St} (E : emclass P X St) fp h h' : check E fp h = Ok h' ->
  h_cfg h' = h_cfg h /\ h_start h' = h_start h /\ h_trans h' = h_trans h /\ h_mon h' = h_mon h.
Proof.
  unfold check. destruct (h_start h) as [s|] eqn:Es; [|discriminate].
  destruct (h_trans h) as [t|] eqn:Et.
  - destruct (base_check _ _ _ _); [|discriminate]. cbn [bind].
    destruct (ec_check _ _ _ _ _) as [[nf em]|]; [|discriminate]. cbn [bind]. intros H. injection H as <-. auto.
  - destruct (negb _); [discriminate|]. destruct (negb _); discriminate.
Qed.

Lemma iterate_keeps {P X St} (E : emclass P X St) fp x lengths k : forall h h' vs,
  iterate (em_step E fp x lengths) k h = Ok (h', vs) ->
  h_cfg h' = h_cfg h /\ h_nfeat h' = h_nfeat h /\ h_mon h' = h_mon h
  /\ (has "s" (c_params (h_cfg h)) = false -> h_start h' = h_start h)
  /\ (has "t" (c_params (h_cfg h)) = false -> h_trans h' = h_trans h)
  /\ (forall V (F : P -> V), (forall nf p st p', ec_mstep E fp (h_cfg h) nf p st = Ok p' -> F p' = F p) ->
      F (h_em h') = F (h_em h)).
Proof.
  induction k as [|k IH]; intros h h' vs H.
  - cbn [iterate] in H. injection H as <- <-. repeat split; auto.
  - rewrite iterate_S in H. destruct (em_step E fp x lengths h) as [[h1 v]|] eqn:Es; [|discriminate].
    cbn [bind] in H. destruct (iterate _ k h1) as [[h2 vs']|] eqn:Ei; [|discriminate]. injection H as <- <-.
    destruct (em_step_keeps E fp x lengths h h1 v Es) as (A1 & A2 & A3 & A4 & A5 & A6).
    destruct (IH h1 h2 vs' Ei) as (B1 & B2 & B3 & B4 & B5 & B6). rewrite A1 in *.
    split; [exact B1|]. split; [congruence|]. split; [congruence|]. repeat split.
    + intros Hh. rewrite B4, A4 by exact Hh. reflexivity.
    + intros Hh. rewrite B5, A5 by exact Hh. reflexivity.
    + intros V F HF. rewrite B6, A6 by exact HF. reflexivity.
Qed.

(** What [fit] leaves alone: any function of the emission parameters that
    neither the check nor the update changes. *)
Theorem fit_keeps {P X St} (E : emclass P X St) fp h x lengths h' ev V (F : P -> V) :
  fit_from E fp h x lengths = Ok (h', ev) ->
  (forall nf p nf' p', ec_check E fp (h_cfg h) nf p = Ok (nf', p') -> F p' = F p) ->
  (forall nf p st p', ec_mstep E fp (h_cfg h) nf p st = Ok p' -> F p' = F p) ->
  F (h_em h') = F (h_em h).
Proof.
  intros H Hck Hms. unfold fit_from in H.
  set (l := match lengths with None => _ | Some l => Some l end) in H. clearbody l.
  destruct (check E fp h) as [h1|] eqn:Ec; [|discriminate]. cbn [bind] in H.
  destruct (check_keeps E fp h h1 Ec) as (C1 & C2 & C3 & C4).
  assert (C5 : F (h_em h1) = F (h_em h)).
  { unfold check in Ec. destruct (h_start h); [|discriminate]. destruct (h_trans h).
    - destruct (base_check _ _ _ _); [|discriminate]. cbn [bind] in Ec.
      destruct (ec_check _ _ _ _ _) as [[nf' em']|] eqn:Ee; [|discriminate]. cbn [bind] in Ec. injection Ec as <-.
      apply (Hck _ _ _ _ Ee).
    - destruct (negb _); [discriminate|]. destruct (negb _); discriminate. }
  destruct (fit_loop _ _ _ _ _ _) as [[[h2 m] ev2]|] eqn:El; [|discriminate]. cbn [bind] in H.
  injection H as <- <-. cbn [h_em].
  destruct (fit_loop_trace _ _ _ _ _ _ _ _ _ El) as (vs & Hi & _).
  destruct (iterate_keeps E fp x l _ h1 h2 vs Hi) as (A1 & A2 & A3 & A4 & A5 & A6). rewrite C1 in *.
  rewrite A6 by exact Hms. exact C5.
Qed.
