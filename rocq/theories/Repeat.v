(** * Training on data in which every sequence occurs [m] times as often. *)
From Coq Require Export Permutation.
From Verif Require Export Relabel_thms.

Lemma sumL_repeat {X} (f : X -> R) l m : sumL f (concat (repeat l m)) = INR m * sumL f l.
Proof.
  induction m as [|m IH]; [simpl; ring|]. cbn [repeat concat]. rewrite sumL_app, IH, S_INR. ring.
Qed.
Lemma in_repeat {X} (c : X) l m : (0 < m)%nat -> In c (concat (repeat l m)) <-> In c l.
Proof.
  intros Hm. destruct m as [|m]; [lia|]. clear Hm. induction m as [|m IH].
  - cbn [repeat concat]. rewrite app_nil_r. reflexivity.
  - cbn [repeat concat] in *. rewrite in_app_iff, IH. tauto.
Qed.

Lemma ratio_scale M a b : 0 < M -> (M * a) / (M * b) = a / b.
Proof. intros HM. unfold Rdiv. rewrite Rinv_mult. replace (M * a * (/ M * / b)) with (M * / M * (a * / b)) by ring. rewrite Rinv_r by lra. ring. Qed.

Lemma normalised_scale n M w w2 : 0 < M -> (forall i, (i < n)%nat -> 0 <= w i) ->
  (forall i, (i < n)%nat -> w2 i = M * w i) -> forall i, (i < n)%nat -> normalised n w2 i = normalised n w i.
Proof.
  intros HM Hw H i Hi. unfold normalised.
  assert (Hsum : sumn n w2 = M * sumn n w) by (rewrite <- sumn_scal_l; apply sumn_ext; exact H).
  rewrite Hsum, H by exact Hi. destruct (Req_EM_T (sumn n w) 0) as [E|E].
  - rewrite E, Rmult_0_r. destruct (Req_EM_T 0 0) as [_|N]; [|contradiction].
    rewrite (sumn_eq0 n w Hw E i Hi). ring.
  - destruct (Req_EM_T (M * sumn n w) 0) as [E2|_]; [|apply ratio_scale; exact HM].
    exfalso. apply Rmult_integral in E2. destruct E2; lra.
Qed.

Lemma Rmax_scale M a : 0 < M -> Rmax (M * a) 0 = M * Rmax a 0.
Proof. intros HM. rewrite <- (Rmult_0_r M) at 1. rewrite RmaxRmult by lra. reflexivity. Qed.

(** Pseudo-counts: [prior - 1] is multiplied by [M]. *)
Definition pseudo (M q : R) : R := 1 + M * (q - 1).
Lemma pseudo_ge1 M q : 0 < M -> 1 <= q -> 1 <= pseudo M q.
Proof. intros. unfold pseudo. pose proof (Rmult_le_pos M (q - 1)). lra. Qed.
Lemma pseudo_flat M : pseudo M 1 = 1.
Proof. unfold pseudo. ring. Qed.

Lemma map_weight_scale M p p2 q q2 n n2 i : 0 < M -> p2 i = p i -> q2 i = pseudo M (q i) -> n2 i = M * n i ->
  map_weight p2 q2 n2 i = M * map_weight p q n i.
Proof.
  intros HM H1 H2 H3. unfold map_weight. rewrite H1, H2, H3. destruct (Req_EM_T (p i) 0); [ring|].
  rewrite <- Rmax_scale by exact HM. f_equal. unfold pseudo. ring.
Qed.
Lemma map_weight_nonneg p q n i : 0 <= map_weight p q n i.
Proof. unfold map_weight. destruct (Req_EM_T _ _); [lra|apply Rmax_r]. Qed.

(** ** Weighted data. *)
Definition repeated {X} (m : nat) (nc : nat) (l l2 : list (list X * (nat -> nat -> R))) : Prop :=
  exists cs cs2 G G2, l = map (fun c => (c, G c)) cs /\ l2 = map (fun c => (c, G2 c)) cs2
    /\ Permutation (concat (repeat cs m)) cs2
    /\ forall c t i, In c cs -> (t < length c)%nat -> (i < nc)%nat -> G2 c t i = G c t i.

Lemma repeated_sum {X} m nc (l l2 : list (list X * (nat -> nat -> R))) (F : list X -> nat -> R -> R) i :
  repeated m nc l l2 -> (i < nc)%nat ->
  sumL (fun w => sumn (length (fst w)) (fun t => F (fst w) t (snd w t i))) l2
  = INR m * sumL (fun w => sumn (length (fst w)) (fun t => F (fst w) t (snd w t i))) l.
Proof.
  intros (cs & cs2 & G & G2 & -> & -> & HP & HG) Hi. rewrite !sumL_map. cbn [fst snd].
  rewrite <- (sumL_perm _ _ cs2 HP), sumL_repeat. f_equal. apply sumL_ext. intros c Hc. apply sumn_ext. intros t Ht.
  rewrite (HG c t i Hc Ht Hi). reflexivity.
Qed.
Lemma repeated_wsum {X} m nc (l l2 : list (list X * (nat -> nat -> R))) phi i :
  repeated m nc l l2 -> (i < nc)%nat -> wsum l2 phi i = INR m * wsum l phi i.
Proof. intros Hr Hi. unfold wsum. exact (repeated_sum m nc l l2 (fun x t g => g * obsB phi x t i) i Hr Hi). Qed.

(** ** A whole fit. *)
Section Fit.
  Context {P X St : Type} (E : emclass P X St).
  Variables (nc : nat) (ok : X -> Prop) (good good2 : cfg -> option nat -> P -> Prop)
            (b : P -> X -> nat -> R) (V : bool).
  Hypothesis TN : trains E nc ok good b V.
  Hypothesis TN2 : trains E nc ok good2 b V.
  Variables (ls ls2 : list nat) (x x2 : list X) (m : nat).
  Hypothesis Hm : (0 < m)%nat.
  Hypothesis Hd : good_data ok ls x.
  Hypothesis Hd2 : good_data ok ls2 x2.
  Hypothesis Hcs : Permutation (concat (repeat (chunks ls x) m)) (chunks ls2 x2).
  Variables (sp sp2 : nat -> R) (tp tp2 : nat -> nat -> R).
  Hypothesis Hsp : forall i, (i < nc)%nat -> 1 <= sp i.
  Hypothesis Htp : forall i j, (i < nc)%nat -> (j < nc)%nat -> 1 <= tp i j.
  Hypothesis Esp : forall i, (i < nc)%nat -> sp2 i = pseudo (INR m) (sp i).
  Hypothesis Etp : forall i j, (i < nc)%nat -> (j < nc)%nat -> tp2 i j = pseudo (INR m) (tp i j).
  Variable rel : P -> P -> Prop.
  Hypothesis Hrel : forall p p2 o i, rel p p2 -> ok o -> (i < nc)%nat -> b p2 o i = b p o i.

  Hypothesis Hstep : forall c c2 nf p p2 l l2 st st2 q q2,
    c_nc c = nc -> same_cfg c c2 -> good c nf p -> good2 c2 nf p2 -> rel p p2 ->
    good_weights nc ok (b p) l -> good_weights nc ok (b p2) l2 ->
    (V = true -> visited nc l) -> (V = true -> visited nc l2) -> repeated m nc l l2 ->
    em_acc_all E c nf p nc (ec_stats0 E exact c nf p) l = Ok st -> ec_mstep E exact c nf p st = Ok q ->
    em_acc_all E c2 nf p2 nc (ec_stats0 E exact c2 nf p2) l2 = Ok st2 -> ec_mstep E exact c2 nf p2 st2 = Ok q2 ->
    rel q q2.

  Notation cs := (chunks ls x).
  Notation cs2 := (chunks ls2 x2).
  Notation M := (INR m).

  Lemma rp_M : 0 < M.
  Proof. apply lt_0_INR. exact Hm. Qed.

  Record prel (h h2 : hmm P) (pi pi2 : nat -> R) (A A2 : nat -> nat -> R) : Prop := PRel {
    pr_cfg : same_cfg (h_cfg h) (h_cfg h2);
    pr_nf : h_nfeat h2 = h_nfeat h;
    pr_pi : forall i, (i < nc)%nat -> pi2 i = pi i;
    pr_A : forall i j, (i < nc)%nat -> (j < nc)%nat -> A2 i j = A i j;
    pr_em : rel (h_em h) (h_em h2);
    pr_t1 : tstate nc good b V ls x h pi A;
    pr_t2 : tstate nc good2 b V ls2 x2 h2 pi2 A2;
    pr_p1 : priors (h_cfg h) nc sp tp;
    pr_p2 : priors (h_cfg h2) nc sp2 tp2 }.

  Lemma in_rp c : In c cs <-> In c cs2.
  Proof.
    rewrite <- (in_repeat c cs m Hm). split; apply Permutation_in; [exact Hcs|apply Permutation_sym; exact Hcs].
  Qed.

  Lemma rp_sum (f : list X -> R) : sumL f cs2 = M * sumL f cs.
  Proof. rewrite <- (sumL_perm f _ _ Hcs). apply sumL_repeat. Qed.

  (** The second state of training from the first. *)
  Lemma tstate_repeat h h2 pi A :
    c_nc (h_cfg h2) = nc -> h_start h2 = Some (fvec nc pi) -> h_trans h2 = Some (fmat nc nc A) ->
    rel (h_em h) (h_em h2) -> good2 (h_cfg h2) (h_nfeat h2) (h_em h2) ->
    tstate nc good b V ls x h pi A -> tstate nc good2 b V ls2 x2 h2 pi A.
  Proof.
    intros Hn Hst Htr Hr Hg TS.
    assert (Hpi : forall i, (i < nc)%nat -> pi i = pi i) by reflexivity.
    assert (HA : forall i j, (i < nc)%nat -> (j < nc)%nat -> A i j = A i j) by reflexivity.
    constructor; try assumption; try apply TS.
    - intros c Hc. apply in_rp in Hc. destruct (cs_ok ok ls x Hd c Hc) as [C1 C2].
      rewrite (rl_lik nc (fun i => i) (permutes_id nc) ok pi pi A A (b (h_em h)) (b (h_em h2)) Hpi HA (fun o i => Hrel _ _ o i Hr) c C1 C2).
      apply TS. exact Hc.
    - intros HV i Hi.
      destruct (ts_visit _ _ _ _ _ _ _ _ _ TS HV i Hi) as (c & g & t & Hin & Ht & Hp).
      apply in_map_iff in Hin as (c' & Heq & Hc). injection Heq as -> <-. destruct (cs_ok ok ls x Hd c Hc) as [C1 C2].
      exists c, (seq_post nc pi A (b (h_em h2)) c), t.
      split; [apply in_map_iff; exists c; split; [reflexivity|apply in_rp; exact Hc]|]. split; [exact Ht|].
      rewrite (rl_post nc (fun i => i) (permutes_id nc) ok pi pi A A (b (h_em h)) (b (h_em h2)) Hpi HA (fun o i => Hrel _ _ o i Hr) c t i C1 C2 Ht Hi).
      exact Hp.
  Qed.

  Lemma Hsp_r i : (i < nc)%nat -> 1 <= sp2 i.
  Proof. intros Hi. rewrite Esp by exact Hi. apply pseudo_ge1; [apply rp_M|apply Hsp, Hi]. Qed.
  Lemma Htp_r i j : (i < nc)%nat -> (j < nc)%nat -> 1 <= tp2 i j.
  Proof. intros Hi Hj. rewrite Etp by assumption. apply pseudo_ge1; [apply rp_M|apply Htp; assumption]. Qed.

  Notation step := (em_step E exact x (as_lengths ls)).
  Notation step2 := (em_step E exact x2 (as_lengths ls2)).

  Lemma rp_step h h2 pi pi2 A A2 h' v : prel h h2 pi pi2 A A2 -> step h = Ok (h', v) ->
    exists h2' pi' pi2' A' A2' r, v = Fin r /\ step2 h2 = Ok (h2', Fin (M * r)) /\ prel h' h2' pi' pi2' A' A2'.
  Proof.
    intros MR Hst. destruct MR as [Mc Mn Mp MA Me T1 T2 P1 P2]. destruct Mc as (K1 & K2 & K3 & K4).
    pose proof (fun o i => Hrel _ _ o i Me) as Hb. pose proof (permutes_id nc) as Hs.
    pose proof (em_step_scorable E nc ok good b V TN ls x Hd h pi A _ T1 Hst) as Hsc.
    assert (Hsc2 : forall c, In c cs2 -> scorable nc pi2 A2 (b (h_em h2)) (c_impl (h_cfg h2)) c).
    { intros c Hc. apply in_rp in Hc. destruct (cs_ok ok ls x Hd c Hc) as [C1 C2]. rewrite K3.
      apply (rl_scorable nc (fun i => i) Hs ok pi pi2 A A2 _ _ Mp MA Hb _ c C1 C2). apply Hsc. exact Hc. }
    destruct (em_step_ok E nc ok good2 b V TN2 ls2 x2 Hd2 h2 pi2 A2 T2 sp2 tp2 P2 Hsc2
                (start_ok_ge1 E nc ok good2 b V TN2 ls2 x2 Hd2 h2 pi2 A2 T2 sp2 Hsp_r)) as (q2 & S2 & _ & _ & _).
    destruct (em_step_next E nc ok good b V TN ls x Hd sp tp Hsp Htp h pi A h' v T1 P1 Hst)
      as (N1 & N2 & N3 & N4 & N5 & N6 & _).
    destruct (em_step_next E nc ok good2 b V TN2 ls2 x2 Hd2 sp2 tp2 Hsp_r Htp_r h2 pi2 A2 _ _ T2 P2 S2)
      as (O1 & O2 & O3 & O4 & O5 & O6 & _).
    set (h2' := Hmm _ _ _ _ _ q2) in *.
    exists h2'. do 5 eexists. split; [exact N4|]. split.
    - rewrite S2. f_equal. f_equal. rewrite O4. f_equal. unfold loglik_sum.
      rewrite rp_sum. f_equal. apply sumL_ext. intros c Hc. destruct (cs_ok ok ls x Hd c Hc) as [C1 C2].
      f_equal. apply (rl_lik nc (fun i => i) Hs ok pi pi2 A A2 _ _ Mp MA Hb c C1 C2).
    - constructor.
      8: rewrite N1; exact P1.
      8: rewrite O1; exact P2.
      6: exact N5.
      6: exact O5.
      + rewrite N1, O1. repeat split; assumption.
      + rewrite N2, O2. exact Mn.
      + intros i Hi. unfold new_pi. rewrite K2. destruct (has "s" _); [|apply Mp; exact Hi].
        apply (normalised_scale nc M _ _ rp_M); [intros; apply map_weight_nonneg| |exact Hi].
        intros k Hk. apply map_weight_scale; [apply rp_M|apply Mp; exact Hk|apply Esp; exact Hk|].
        unfold cnt_start. rewrite rp_sum. f_equal. apply sumL_ext. intros c Hc.
        destruct (cs_ok ok ls x Hd c Hc) as [C1 C2].
        apply (rl_post nc (fun i => i) Hs ok pi pi2 A A2 _ _ Mp MA Hb c 0 k C1 C2); [|exact Hk].
        destruct c; [contradiction|simpl; lia].
      + intros i j Hi Hj. unfold new_A. rewrite K2. destruct (has "t" _); [|apply MA; assumption].
        apply (normalised_scale nc M _ _ rp_M); [intros; apply map_weight_nonneg| |exact Hj].
        intros k Hk. apply map_weight_scale; [apply rp_M|apply MA; assumption|apply Etp; assumption|].
        unfold cnt_trans. rewrite rp_sum. f_equal. apply sumL_ext. intros c Hc.
        destruct (cs_ok ok ls x Hd c Hc) as [C1 C2]. apply (rl_trans nc (fun i => i) Hs ok pi pi2 A A2 _ _ Mp MA Hb c i k C1 C2 Hi Hk).
      + destruct N6 as (st & Q1 & Q2). destruct O6 as (st2 & R1 & R2). rewrite Mn in R1, R2.
        apply (Hstep (h_cfg h) (h_cfg h2) (h_nfeat h) (h_em h) (h_em h2)
                 (wpairs nc b ls x h pi A) (wpairs nc b ls2 x2 h2 pi2 A2) st st2).
        * apply T1.
        * repeat split; assumption.
        * apply T1.
        * rewrite <- Mn. apply T2.
        * exact Me.
        * apply (wpairs_good E nc ok good b V TN ls x Hd h pi A T1).
        * apply (wpairs_good E nc ok good2 b V TN2 ls2 x2 Hd2 h2 pi2 A2 T2).
        * apply T1.
        * apply T2.
        * exists cs, cs2, (seq_post nc pi A (b (h_em h))), (seq_post nc pi2 A2 (b (h_em h2))).
          split; [reflexivity|]. split; [reflexivity|]. split; [exact Hcs|].
          intros c t i Hc Ht Hi. destruct (cs_ok ok ls x Hd c Hc) as [C1 C2].
          apply (rl_post nc (fun i => i) Hs ok pi pi2 A A2 _ _ Mp MA Hb c t i C1 C2 Ht Hi).
        * exact Q1.
        * exact Q2.
        * exact R1.
        * exact R2.
  Qed.

  (** The monitors: tolerance and history multiplied by [m]. *)
  Definition mon_scaled (m1 m2 : monitor) : Prop :=
    exists t L, m_tol m1 = Fin t /\ m_tol m2 = Fin (M * t) /\ m_n_iter m2 = m_n_iter m1
      /\ m_history m1 = map Fin L /\ m_history m2 = map (fun r => Fin (M * r)) L /\ m_iter m2 = m_iter m1.

  Lemma mon_report m1 m2 r : mon_scaled m1 m2 ->
    mon_scaled (fst (monitor_report exact m1 (Fin r))) (fst (monitor_report exact m2 (Fin (M * r)))).
  Proof.
    intros (t & L & H1 & H2 & H3 & H4 & H5 & H6). exists t, (L ++ [r]). unfold monitor_report.
    cbn [fst m_tol m_n_iter m_history m_iter]. rewrite !map_app, H4, H5, H6. cbn [map]. repeat split; assumption.
  Qed.

  Lemma mon_converged m1 m2 : mon_scaled m1 m2 -> converged exact m2 = converged exact m1.
  Proof.
    intros (t & L & H1 & H2 & H3 & H4 & H5 & H6). unfold converged.
    rewrite H1, H2, H3, H4, H5, H6, !map_length. f_equal.
    destruct (Nat.leb 2 (length L)) eqn:E2; [|reflexivity]. cbn [andb]. apply Nat.leb_le in E2.
    rewrite !(nth_indep (map _ L) NaN (Fin 0)) by (rewrite map_length; lia).
    rewrite !(nth_indep (map (fun r => Fin (M * r)) L) (Fin 0) (Fin (M * 0))) by (rewrite map_length; lia).
    rewrite !(map_nth (fun r => Fin (M * r))), !(map_nth Fin). unfold xsub, xltb, exact. cbn.
    set (u := nth (length L - 1) L 0). set (v := nth (length L - 2) L 0). pose proof rp_M as HM.
    assert (Hiff : M * u + - (M * v) < M * t <-> u + - v < t).
    { replace (M * u + - (M * v)) with (M * (u + - v)) by ring. split; intros H.
      - apply (Rmult_lt_reg_l M); assumption.
      - apply Rmult_lt_compat_l; assumption. }
    destruct (Rltb (u + - v) t) eqn:E3; [apply Rltb_true, Hiff, Rltb_true, E3|].
    destruct (Rltb (M * u + - (M * v)) (M * t)) eqn:E4; [|reflexivity]. apply Rltb_true, Hiff, Rltb_true in E4. congruence.
  Qed.

  Lemma rp_loop fuel : forall h h2 pi pi2 A A2 m1 m2 h' m' ev, prel h h2 pi pi2 A A2 -> mon_scaled m1 m2 ->
    fit_loop exact step (zero_rows exact) fuel h m1 = Ok (h', m', ev) ->
    exists h2' m2' ev2 pi' pi2' A' A2', fit_loop exact step2 (zero_rows exact) fuel h2 m2 = Ok (h2', m2', ev2)
      /\ prel h' h2' pi' pi2' A' A2' /\ mon_scaled m' m2'.
  Proof.
    induction fuel as [|fuel IH]; intros h h2 pi pi2 A A2 m1 m2 h' m' ev MR HS H; cbn [fit_loop] in *.
    - injection H as <- <- <-. exists h2, m2, [], pi, pi2, A, A2. auto.
    - destruct (step h) as [[h1 v]|] eqn:Es; [|discriminate]. cbn [bind] in H.
      destruct (rp_step h h2 pi pi2 A A2 h1 v MR Es) as (k & p1 & p2 & B1 & B2 & r & -> & S2 & M2).
      rewrite S2. cbn [bind]. pose proof (mon_report m1 m2 r HS) as HS'.
      destruct (monitor_report exact m1 (Fin r)) as [n1 ev1]. destruct (monitor_report exact m2 (Fin (M * r))) as [n2 ev2].
      cbn [fst] in HS'. rewrite (mon_converged n1 n2 HS'). destruct (converged exact n1).
      + injection H as <- <- <-. exists k, n2, ev2, p1, p2, B1, B2. auto.
      + destruct (fit_loop exact step (zero_rows exact) fuel h1 n1) as [[[h3 m3] ev3]|] eqn:El; [|discriminate].
        destruct (IH h1 k p1 p2 B1 B2 n1 n2 h3 m3 ev3 M2 HS' El) as (k3 & m4 & ev4 & p3 & p4 & B3 & B4 & S3 & M3 & HS3).
        injection H as <- <- <-. rewrite S3. cbn [bind].
        do 3 eexists. exists p3, p4, B3, B4. split; [reflexivity|]. split; [exact M3|exact HS3].
  Qed.

  Theorem rp_fit h h2 h1 h21 pi pi2 A A2 h' ev : check E exact h = Ok h1 -> check E exact h2 = Ok h21 ->
    prel h1 h21 pi pi2 A A2 -> mon_scaled (monitor_reset (h_mon h1)) (monitor_reset (h_mon h21)) ->
    fit_from E exact h x (as_lengths ls) = Ok (h', ev) ->
    exists h2' ev2, fit_from E exact h2 x2 (as_lengths ls2) = Ok (h2', ev2)
      /\ h_start h2' = h_start h' /\ h_trans h2' = h_trans h'
      /\ mon_scaled (h_mon h') (h_mon h2') /\ h_nfeat h2' = h_nfeat h'
      /\ rel (h_em h') (h_em h2') /\ good (h_cfg h') (h_nfeat h') (h_em h')
      /\ good2 (h_cfg h2') (h_nfeat h2') (h_em h2').
  Proof.
    intros C1 C2 MR HS Hf. unfold fit_from in *. rewrite C1 in Hf. rewrite C2. cbn [bind] in *.
    change (match as_lengths ls with None => _ | Some l => Some l end) with (as_lengths ls) in Hf.
    change (match as_lengths ls2 with None => _ | Some l => Some l end) with (as_lengths ls2).
    destruct (fit_loop exact step _ (c_n_iter (h_cfg h1)) h1 _) as [[[h3 m3] ev3]|] eqn:El; [|discriminate].
    injection Hf as <- <-.
    destruct (rp_loop _ _ _ _ _ _ _ _ _ _ _ _ MR HS El) as (h4 & m4 & ev4 & p3 & p4 & B3 & B4 & S & M3 & HS3).
    replace (c_n_iter (h_cfg h21)) with (c_n_iter (h_cfg h1)) by (symmetry; apply (pr_cfg _ _ _ _ _ _ MR)).
    rewrite S. cbn [bind]. do 2 eexists. split; [reflexivity|]. cbn [h_start h_trans h_mon h_nfeat h_cfg h_em].
    destruct M3 as [Mc Mn Mp MA Me T1 T2 P1 P2].
    split; [rewrite (ts_start _ _ _ _ _ _ _ _ _ T2), (ts_start _ _ _ _ _ _ _ _ _ T1); f_equal; apply fvec_ext; exact Mp|].
    split; [rewrite (ts_trans _ _ _ _ _ _ _ _ _ T2), (ts_trans _ _ _ _ _ _ _ _ _ T1); f_equal; apply fmat_ext; exact MA|].
    split; [exact HS3|]. split; [exact Mn|]. split; [exact Me|]. split; [apply T1|apply T2].
  Qed.
End Fit.
