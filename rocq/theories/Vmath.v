(** * The variational update never lowers the bound (real analysis). *)
From Verif Require Export Spec_var Categorical_train Run_proofs.

Lemma pos_nonneg1 n f : pos1 n f -> nonneg1 n f.
Proof. intros H i Hi. apply Rlt_le, H, Hi. Qed.
Lemma pos_nonneg2 n m f : pos2 n m f -> nonneg2 n m f.
Proof. intros H i j Hi Hj. apply Rlt_le, H; assumption. Qed.
Lemma sub1_pos n q i : 0 < sub1 n q i. Proof. apply exp_pos. Qed.
Lemma sub1_sum n q : (0 < n)%nat -> pos1 n q -> sumn n (sub1 n q) <= 1.
Proof. intros Hn H. exact (exp_psi_sum n q Hn H). Qed.
Lemma ln_sub1 n q i : ln (sub1 n q i) = psi (q i) - psi (sumn n q).
Proof. apply ln_exp. Qed.

(** The divergence is a sum of those of log-gamma. *)
Lemma dkl_dlg n q p : dkl n q p = sumn n (fun i => dlg (q i) (p i)) - dlg (sumn n q) (sumn n p).
Proof.
  unfold dkl, dlg.
  rewrite (sumn_ext n (fun i => lgam (p i) - lgam (q i) - psi (q i) * (p i - q i))
             (fun i => - (lgam (q i) - lgam (p i)) + ((q i - p i) * (psi (q i) - psi (sumn n q)) + psi (sumn n q) * (q i - p i))))
    by (intros; ring).
  rewrite !sumn_plus, (sumn_ext n (fun i => - (lgam (q i) - lgam (p i))) (fun i => (-1) * (lgam (q i) - lgam (p i)))) by (intros; ring).
  rewrite !sumn_scal_l, (sumn_minus n q p). ring.
Qed.
Lemma dkl_nonneg n q p : (0 < n)%nat -> pos1 n q -> pos1 n p -> 0 <= dkl n q p.
Proof. intros Hn Hq Hp. rewrite dkl_dlg. pose proof (dlg_sumn n q p Hn Hq Hp). lra. Qed.
Lemma dkl_ext n q p q' p' : (forall i, (i < n)%nat -> q i = q' i) -> (forall i, (i < n)%nat -> p i = p' i) -> dkl n q p = dkl n q' p'.
Proof.
  intros Hq Hp. unfold dkl. rewrite (sumn_ext n q q' Hq), (sumn_ext n p p' Hp).
  f_equal; [f_equal|]; apply sumn_ext; intros i Hi; rewrite (Hq i Hi), (Hp i Hi); reflexivity.
Qed.
Lemma dlg_self x : dlg x x = 0. Proof. unfold dlg. ring. Qed.
Lemma dkl_self n p : dkl n p p = 0.
Proof. rewrite dkl_dlg, dlg_self. rewrite sumn_zero; [ring|]. intros. apply dlg_self. Qed.
Lemma dlg_pos q r : 0 < q -> 0 < r -> q <> r -> 0 < dlg q r.
Proof.
  intros Hq Hr N. eapply Rlt_le_trans; [|apply (dlg_ge q r 1 Hq Hr)]. unfold dsum. cbn [sumn]. rewrite Rplus_0_l. cbn [Nat.add].
  unfold phi, tr. cbn [INR]. rewrite !Rplus_0_r.
  assert (Hd : 0 < r / q) by (apply Rdiv_lt_0_compat; lra).
  assert (N1 : ln (r / q) <> 0).
  { intros E. apply N. apply (f_equal exp) in E. rewrite exp_ln, exp_0 in E by exact Hd. apply (f_equal (fun z => z * q)) in E. unfold Rdiv in E. field_simplify in E; lra. }
  pose proof (exp_ineq1 _ N1) as H. rewrite exp_ln in H by exact Hd. lra.
Qed.
(** Equality forces equal parameters (from two coordinates on). *)
Lemma ln_lt_x1 t : 0 < t -> t <> 1 -> ln t < t - 1.
Proof.
  intros Ht N. assert (N1 : ln t <> 0). { intros E. apply N. apply (f_equal exp) in E. rewrite exp_ln, exp_0 in E by exact Ht. exact E. }
  pose proof (exp_ineq1 _ N1) as H. rewrite exp_ln in H by exact Ht. lra.
Qed.
Lemma phi_convex_strict p s t : 0 < p < 1 -> 0 < s -> 0 < t -> s <> t -> phi (p * s + (1 - p) * t) < p * phi s + (1 - p) * phi t.
Proof.
  intros Hp Hs Ht N. set (m := p * s + (1 - p) * t).
  assert (Hm : 0 < m). { unfold m. nra. }
  assert (Hs' : 0 < s / m) by (apply Rdiv_lt_0_compat; lra). assert (Ht' : 0 < t / m) by (apply Rdiv_lt_0_compat; lra).
  assert (Ns : s / m <> 1).
  { intros E. apply N. apply (f_equal (fun z => z * m)) in E. replace (s / m * m) with s in E by (field; lra). unfold m in E. nra. }
  pose proof (ln_lt_x1 _ Hs' Ns) as A. pose proof (ln_le_x1 _ Ht') as B. rewrite ln_div in A, B by lra.
  assert (E : p * (s / m - 1) + (1 - p) * (t / m - 1) = 0).
  { replace (p * (s / m - 1) + (1 - p) * (t / m - 1)) with ((p * s + (1 - p) * t) / m - 1) by (field; lra). fold m. field. lra. }
  unfold phi. fold m. assert (A' : p * (ln s - ln m) < p * (s / m - 1)) by (apply Rmult_lt_compat_l; lra).
  assert (B' : (1 - p) * (ln t - ln m) <= (1 - p) * (t / m - 1)) by (apply Rmult_le_compat_l; lra).
  unfold m at 1. nra.
Qed.
Section Gap.
  Variables q1 q2 r1 r2 : R.
  Hypothesis H1 : 0 < q1. Hypothesis H2 : 0 < q2. Hypothesis G1 : 0 < r1. Hypothesis G2 : 0 < r2.
  Let pr (a b : nat) : R := (q1 + INR a) / (q1 + q2 + (INR a + INR b)).
  Let gap (a b m : nat) : R := dsum q1 r1 a m + dsum q2 r2 b m - dsum (q1 + q2) (r1 + r2) (a + b) m.
  Let conv (a b : nat) : R := pr a b * phi (tr q1 r1 a) + (1 - pr a b) * phi (tr q2 r2 b) - phi (pr a b * tr q1 r1 a + (1 - pr a b) * tr q2 r2 b).
  Lemma pr_01 a b : 0 < pr a b < 1.
  Proof.
    pose proof (pos_INR a) as Ha. pose proof (pos_INR b) as Hb. unfold pr. split; [apply Rdiv_lt_0_compat; lra|].
    apply Rmult_lt_reg_r with (q1 + q2 + (INR a + INR b)); [lra|].
    replace ((q1 + INR a) / (q1 + q2 + (INR a + INR b)) * (q1 + q2 + (INR a + INR b))) with (q1 + INR a) by (field; lra). lra.
  Qed.
  Lemma conv_nonneg a b : 0 <= conv a b.
  Proof. pose proof (pr_01 a b). pose proof (phi_convex (pr a b) _ _ ltac:(lra) (tratio_pos q1 r1 a H1 G1) (tratio_pos q2 r2 b H2 G2)). unfold conv. lra. Qed.
  Lemma gap_nonneg a b m : 0 <= gap a b m.
  Proof. pose proof (dsum_sub q1 q2 r1 r2 H1 H2 G1 G2 m a b). unfold gap. lra. Qed.
  Lemma gap_S a b m : conv a b + pr a b * gap (S a) b m <= gap a b (S m).
  Proof.
    pose proof (pr_01 a b) as Hp. pose proof (pos_INR a) as Ha. pose proof (pos_INR b) as Hb.
    unfold gap. rewrite (dsum_S_l (q1 + q2)).
    assert (E : tr (q1 + q2) (r1 + r2) (a + b) = pr a b * tr q1 r1 a + (1 - pr a b) * tr q2 r2 b).
    { unfold tr, pr. rewrite plus_INR. field. repeat split; lra. }
    rewrite E. unfold conv. set (p := pr a b) in *.
    pose proof (dsum_sub q1 q2 r1 r2 H1 H2 G1 G2 m a (S b)) as I2. replace (a + S b)%nat with (S (a + b)) in I2 by lia.
    replace (S a + b)%nat with (S (a + b)) by lia.
    pose proof (dsum_le q1 r1 a m H1 G1) as L1. pose proof (dsum_le q2 r2 b m H2 G2) as L2.
    rewrite (dsum_S_l q1 r1 a m) in *. rewrite (dsum_S_l q2 r2 b m) in *.
    assert (J2 : (1 - p) * dsum (q1 + q2) (r1 + r2) (S (a + b)) m <= (1 - p) * (dsum q1 r1 a m + dsum q2 r2 (S b) m)) by (apply Rmult_le_compat_l; lra).
    assert (K1 : (1 - p) * dsum q1 r1 a m <= (1 - p) * (phi (tr q1 r1 a) + dsum q1 r1 (S a) m)) by (apply Rmult_le_compat_l; lra).
    assert (K2 : p * dsum q2 r2 b m <= p * (phi (tr q2 r2 b) + dsum q2 r2 (S b) m)) by (apply Rmult_le_compat_l; lra).
    lra.
  Qed.
  Lemma dlg_gap : conv 0 0 + pr 0 0 * conv 1 0 <= dlg q1 r1 + dlg q2 r2 - dlg (q1 + q2) (r1 + r2).
  Proof.
    apply (cv_le (fun _ => conv 0 0 + pr 0 0 * conv 1 0) (fun n => dsum q1 r1 0 (S (S n)) + dsum q2 r2 0 (S (S n)) - dsum (q1 + q2) (r1 + r2) 0 (S (S n)))).
    - intros n. pose proof (gap_S 0 0 (S n)) as A. pose proof (gap_S 1 0 n) as B. pose proof (gap_nonneg 2 0 n) as C.
      pose proof (pr_01 0 0). pose proof (pr_01 1 0). unfold gap at 2 in A. cbn [Nat.add] in A.
      assert (D : 0 <= pr 1 0 * gap 2 0 n) by (apply Rmult_le_pos; lra).
      assert (pr 0 0 * conv 1 0 <= pr 0 0 * gap 1 0 (S n)) by (apply Rmult_le_compat_l; lra). lra.
    - apply cv_const.
    - assert (sh : forall u l, Un_cv u l -> Un_cv (fun n => u (S n)) l).
      { intros u l Hu eps He. destruct (Hu eps He) as (N & HN). exists N. intros n Hn. apply HN. lia. }
      apply (sh (fun n => dsum q1 r1 0 (S n) + dsum q2 r2 0 (S n) - dsum (q1 + q2) (r1 + r2) 0 (S n))).
      apply CV_minus; [apply CV_plus|]; apply dlg_lim; lra.
  Qed.
  Lemma dlg_sub_eq : dlg q1 r1 + dlg q2 r2 <= dlg (q1 + q2) (r1 + r2) -> q1 = r1 /\ q2 = r2.
  Proof.
    intros E. pose proof dlg_gap as A. pose proof (conv_nonneg 0 0) as C0. pose proof (conv_nonneg 1 0) as C1. pose proof (pr_01 0 0) as P0. pose proof (pr_01 1 0) as P1.
    assert (Z0 : conv 0 0 = 0). { assert (0 <= pr 0 0 * conv 1 0) by (apply Rmult_le_pos; lra). lra. }
    assert (Z1 : conv 1 0 = 0). { assert (pr 0 0 * conv 1 0 <= 0) by lra. nra. }
    assert (T0 : tr q1 r1 0 = tr q2 r2 0).
    { destruct (Req_dec (tr q1 r1 0) (tr q2 r2 0)) as [H|H]; [exact H|exfalso].
      pose proof (phi_convex_strict (pr 0 0) _ _ P0 (tratio_pos q1 r1 0 H1 G1) (tratio_pos q2 r2 0 H2 G2) H). unfold conv in Z0. lra. }
    assert (T1 : tr q1 r1 1 = tr q2 r2 0).
    { destruct (Req_dec (tr q1 r1 1) (tr q2 r2 0)) as [H|H]; [exact H|exfalso].
      pose proof (phi_convex_strict (pr 1 0) _ _ P1 (tratio_pos q1 r1 1 H1 G1) (tratio_pos q2 r2 0 H2 G2) H). unfold conv in Z1. lra. }
    unfold tr in T0, T1. change (INR 1) with 1 in T1. change (INR 0) with 0 in T0, T1. rewrite ?(Rplus_0_r r1), ?(Rplus_0_r q1), ?(Rplus_0_r r2), ?(Rplus_0_r q2) in T0. rewrite !Rplus_0_r in T1.
    assert (E1 : r1 = q1).
    { assert (U : r1 / q1 = (r1 + 1) / (q1 + 1)) by (rewrite T0, T1; reflexivity). apply (f_equal (fun z => z * (q1 * (q1 + 1)))) in U. field_simplify in U; lra. }
    split; [lra|]. rewrite E1 in T0. replace (q1 / q1) with 1 in T0 by (field; lra). apply (f_equal (fun z => z * q2)) in T0.
    replace (r2 / q2 * q2) with r2 in T0 by (field; lra). lra.
  Qed.
End Gap.
Lemma dkl_zero n q p : (2 <= n)%nat -> pos1 n q -> pos1 n p -> dkl n q p = 0 -> forall i, (i < n)%nat -> q i = p i.
Proof.
  intros Hn Hq Hp E. rewrite dkl_dlg in E.
  assert (K : forall m, (2 <= m <= n)%nat -> sumn m (fun i => dlg (q i) (p i)) - dlg (sumn m q) (sumn m p) <= 0 ->
              forall i, (i < m)%nat -> q i = p i).
  { induction m as [|m IH]; [lia|]. intros Hm L i Hi.
    assert (Sq : 0 < sumn m q) by (apply sumn_all_pos; [lia|]; intros; apply Hq; lia).
    assert (Sp : 0 < sumn m p) by (apply sumn_all_pos; [lia|]; intros; apply Hp; lia).
    cbn [sumn] in L. pose proof (Hq m ltac:(lia)) as Qm. pose proof (Hp m ltac:(lia)) as Pm.
    pose proof (dlg_sub (sumn m q) (q m) (sumn m p) (p m) Sq Qm Sp Pm) as D.
    assert (DS : dlg (sumn m q) (sumn m p) <= sumn m (fun i => dlg (q i) (p i))).
    { apply dlg_sumn; [lia| |]; intros; [apply Hq|apply Hp]; lia. }
    destruct (dlg_sub_eq (sumn m q) (q m) (sumn m p) (p m) Sq Qm Sp Pm ltac:(lra)) as [E1 E2].
    destruct (Nat.eq_dec i m) as [->|N]; [exact E2|].
    destruct (Nat.eq_dec m 1) as [->|N1].
    - assert (i = 0)%nat by lia. subst i. cbn [sumn] in E1. lra.
    - apply IH; [lia|lra|lia]. }
  intros i Hi. apply (K n); [lia|lra|exact Hi].
Qed.

(** The update maximises expected log-likelihood minus divergence. *)
Lemma dir_gain n (p c q : nat -> R) : (0 < n)%nat -> pos1 n p -> nonneg1 n c -> pos1 n q ->
  let q' := fun i => p i + c i in
  dkl n q' p - dkl n q p <= sumn n (fun i => c i * (ln (sub1 n q' i) - ln (sub1 n q i))).
Proof.
  intros Hn Hp Hc Hq q'. assert (Hq' : pos1 n q'). { intros i Hi. unfold q'. pose proof (Hp i Hi). pose proof (Hc i Hi). lra. }
  pose proof (dlg_sumn n q q' Hn Hq Hq') as D.
  rewrite (sumn_ext n (fun i => c i * (ln (sub1 n q' i) - ln (sub1 n q i)))
            (fun i => c i * (psi (q' i) - psi (sumn n q')) - c i * (psi (q i) - psi (sumn n q)))) by (intros; rewrite !ln_sub1; ring).
  rewrite sumn_minus.
  assert (E1 : dkl n q' p = lgam (sumn n q') - lgam (sumn n p) - sumn n (fun i => lgam (q' i) - lgam (p i)) + sumn n (fun i => c i * (psi (q' i) - psi (sumn n q')))).
  { unfold dkl. f_equal. apply sumn_ext. intros i _. unfold q'. f_equal. ring. }
  assert (E2 : sumn n (fun i => dlg (q i) (q' i)) = sumn n (fun i => lgam (q' i) - lgam (p i)) - sumn n (fun i => lgam (q i) - lgam (p i)) - sumn n (fun i => psi (q i) * (q' i - q i))).
  { rewrite <- !sumn_minus. apply sumn_ext. intros i _. unfold dlg. ring. }
  assert (E3 : sumn n (fun i => psi (q i) * (q' i - q i)) = sumn n (fun i => c i * (psi (q i) - psi (sumn n q))) - sumn n (fun i => (q i - p i) * (psi (q i) - psi (sumn n q))) + psi (sumn n q) * (sumn n q' - sumn n q)).
  { rewrite <- (sumn_minus n q' q), <- sumn_scal_l, <- sumn_minus, <- sumn_plus. apply sumn_ext. intros i _. unfold q'. ring. }
  rewrite E2, E3 in D. unfold dlg in D. rewrite E1. unfold dkl. lra.
Qed.

(** ** Positive weights. *)
Section Pos.
  Variables (nc T : nat) (pi : nat -> R) (A B : nat -> nat -> R).
  Hypothesis Hnc : (0 < nc)%nat.
  Hypothesis HT : (0 < T)%nat.
  Hypothesis Hpi : pos1 nc pi.
  Hypothesis HA : pos2 nc nc A.
  Hypothesis HB : pos2 T nc B.
  Lemma likelihood_pos : 0 < likelihood nc T pi A B.
  Proof.
    set (z := repeat 0%nat T). assert (Hz : is_path nc T z).
    { split; [apply repeat_length|]. intros t _. unfold z. rewrite nth_repeat. exact Hnc. }
    assert (Hn : forall t, nth t z 0%nat = 0%nat). { intros t. apply nth_repeat. }
    assert (Hj : 0 < joint T pi A B z).
    { apply joint_pos.
      - rewrite Hn. apply Hpi, Hnc.
      - intros t Ht. rewrite !Hn. apply HA; exact Hnc.
      - intros t Ht. rewrite Hn. apply HB; [exact Ht|exact Hnc]. }
    unfold likelihood. eapply Rlt_le_trans; [exact Hj|]. apply sumL_ge_term.
    - intros y Hy. apply in_all_paths in Hy. apply (joint_nonneg nc); auto using pos_nonneg1, pos_nonneg2.
    - apply in_all_paths. exact Hz.
  Qed.
End Pos.

Section Counts.
  Context {X : Type} (ok : X -> Prop).
  Variables (nc : nat) (cs : list (list X)).
  Hypothesis Hnc : (0 < nc)%nat.
  Hypothesis Hcs : forall c, In c cs -> c <> [] /\ Forall ok c.
  Variables (pi : nat -> R) (A : nat -> nat -> R) (b : X -> nat -> R).
  Hypothesis Hpi : pos1 nc pi.
  Hypothesis HA : pos2 nc nc A.
  Hypothesis Hb : forall o i, ok o -> (i < nc)%nat -> 0 < b o i.

  Lemma obsB_pos c : Forall ok c -> pos2 (length c) nc (obsB b c).
  Proof.
    intros Hok t i Ht Hi. destruct c as [|d r]; [cbn in Ht; lia|]. rewrite (obsB_nth b _ d) by exact Ht.
    apply Hb; [|exact Hi]. rewrite Forall_forall in Hok. apply Hok, nth_In, Ht.
  Qed.
  Lemma len_pos c : In c cs -> (0 < length c)%nat.
  Proof. intros Hc. destruct (Hcs c Hc) as [N _]. destruct c; [congruence|cbn; lia]. Qed.
  Lemma lik_pos c : In c cs -> 0 < seq_lik nc pi A b c.
  Proof. intros Hc. apply likelihood_pos; auto using len_pos. apply obsB_pos, Hcs, Hc. Qed.
  Lemma vpost_stoch c t : In c cs -> (t < length c)%nat -> stochastic1 nc (seq_post nc pi A b c t).
  Proof.
    intros Hc Ht. pose proof (len_pos c Hc) as Hl. pose proof (lik_pos c Hc) as HL. unfold seq_lik in HL. unfold seq_post.
    pose proof (obsB_pos c (proj2 (Hcs c Hc))) as HB.
    destruct (length c) as [|n]; [lia|]. apply posterior_dist; auto using pos_nonneg1, pos_nonneg2. lia.
  Qed.
  Lemma vtrans_nonneg c i j : In c cs -> (i < nc)%nat -> (j < nc)%nat -> 0 <= seq_trans nc pi A b c i j.
  Proof.
    intros Hc Hi Hj. pose proof (len_pos c Hc) as Hl. pose proof (lik_pos c Hc) as HL. unfold seq_lik in HL. unfold seq_trans.
    pose proof (obsB_pos c (proj2 (Hcs c Hc))) as HB.
    destruct (length c) as [|n]; [lia|]. apply expected_trans_nonneg; auto using pos_nonneg1, pos_nonneg2.
  Qed.
  Lemma vstart_sum : sumn nc (fun i => sumL (fun c => seq_post nc pi A b c 0 i) cs) = INR (length cs).
  Proof.
    rewrite <- sumL_sumn_swap. rewrite (sumL_ext _ (fun _ => 1)).
    - clear. induction cs as [|c r IH]; [reflexivity|]. cbn [sumL]. rewrite IH. cbn [length]. rewrite S_INR. ring.
    - intros c Hc. apply (vpost_stoch c 0 Hc). apply len_pos, Hc.
  Qed.
  Lemma vtrans_sum : sumn nc (fun i => sumn nc (fun j => sumL (fun c => seq_trans nc pi A b c i j) cs)) = sumL (fun c => INR (length c - 1)) cs.
  Proof.
    rewrite (sumn_ext nc _ (fun i => sumL (fun c => sumn nc (fun j => seq_trans nc pi A b c i j)) cs)) by (intros; symmetry; apply sumL_sumn_swap).
    rewrite <- sumL_sumn_swap. apply sumL_ext. intros c Hc. unfold seq_trans.
    rewrite (sumn_ext nc _ (fun i => sumn (length c - 1) (fun t => seq_post nc pi A b c t i))).
    2:{ intros i Hi. apply expected_trans_row; [apply len_pos, Hc|exact Hi]. }
    rewrite sumn_swap. rewrite (sumn_ext _ _ (fun _ => 1)).
    - rewrite sumn_const. ring.
    - intros t Ht. apply (vpost_stoch c t Hc). lia.
  Qed.
  Lemma vtrans_row i : (i < nc)%nat -> sumn nc (fun j => sumL (fun c => seq_trans nc pi A b c i j) cs) = sumL (fun c => sumn (length c - 1) (fun t => seq_post nc pi A b c t i)) cs.
  Proof.
    intros Hi. rewrite <- sumL_sumn_swap. apply sumL_ext. intros c Hc. apply expected_trans_row; [apply len_pos, Hc|exact Hi].
  Qed.

  Variables (pi' : nat -> R) (A' : nat -> nat -> R) (b' : X -> nat -> R).
  Hypothesis Hpi' : pos1 nc pi'.
  Hypothesis HA' : pos2 nc nc A'.
  Hypothesis Hb' : forall o i, ok o -> (i < nc)%nat -> 0 < b' o i.
  Lemma vb_gain :
    sumn nc (fun i => sumL (fun c => seq_post nc pi A b c 0 i) cs * (ln (pi' i) - ln (pi i)))
    + sumn nc (fun i => sumn nc (fun j => sumL (fun c => seq_trans nc pi A b c i j) cs * (ln (A' i j) - ln (A i j))))
    + sumL (fun c => sumn (length c) (fun t => sumn nc (fun i => seq_post nc pi A b c t i * (ln (obsB b' c t i) - ln (obsB b c t i))))) cs
    <= sumL (fun c => ln (seq_lik nc pi' A' b' c)) cs - sumL (fun c => ln (seq_lik nc pi A b c)) cs.
  Proof.
    assert (K : forall c, In c cs ->
      sumn nc (fun i => seq_post nc pi A b c 0 i * (ln (pi' i) - ln (pi i)))
      + sumn nc (fun i => sumn nc (fun j => seq_trans nc pi A b c i j * (ln (A' i j) - ln (A i j))))
      + sumn (length c) (fun t => sumn nc (fun i => seq_post nc pi A b c t i * (ln (obsB b' c t i) - ln (obsB b c t i))))
      <= ln (seq_lik nc pi' A' b' c) - ln (seq_lik nc pi A b c)).
    { intros c Hc. pose proof (obsB_pos c (proj2 (Hcs c Hc))) as HB.
      assert (HB' : pos2 (length c) nc (obsB b' c)).
      { intros t i Ht Hi. destruct c as [|d r]; [cbn in Ht; lia|]. rewrite (obsB_nth b' _ d) by exact Ht.
        apply Hb'; [|exact Hi]. destruct (Hcs _ Hc) as [_ Hok]. rewrite Forall_forall in Hok. apply Hok, nth_In, Ht. }
      apply em_bound; auto using pos_nonneg1, pos_nonneg2, len_pos. apply lik_pos, Hc. }
    pose proof (sumL_le _ _ cs K) as S. clear K.
    assert (SP : forall (f g : list X -> R), sumL (fun c => f c + g c) cs = sumL f cs + sumL g cs).
    { intros f g. clear. induction cs as [|c r IH]; cbn [sumL]; [ring|rewrite IH; ring]. }
    assert (SM : forall (f g : list X -> R), sumL (fun c => f c - g c) cs = sumL f cs - sumL g cs).
    { intros f g. clear. induction cs as [|c r IH]; cbn [sumL]; [ring|rewrite IH; ring]. }
    assert (SC : forall (f : list X -> R) k, sumL f cs * k = sumL (fun c => f c * k) cs).
    { intros f k. clear. induction cs as [|c r IH]; cbn [sumL]; [ring|rewrite <- IH; ring]. }
    rewrite (SP (fun c => _ + _)), SP, SM in S. eapply Rle_trans; [|exact S]. right. f_equal. f_equal.
    - rewrite sumL_sumn_swap. apply sumn_ext. intros i _. apply SC.
    - rewrite sumL_sumn_swap. apply sumn_ext. intros i _. rewrite sumL_sumn_swap. apply sumn_ext. intros j _. apply SC.
  Qed.
End Counts.

(** ** The categorical update. *)
Section Cat.
  Variables (nc nf : nat) (cs : list (list Z)).
  Hypothesis Hnc : (0 < nc)%nat.
  Hypothesis Hnf : (0 < nf)%nat.
  Hypothesis Hcs : forall c, In c cs -> c <> [] /\ Forall (sym_ok nf) c.

  Lemma w_s_pos q : pos1 nc (w_s nc q). Proof. intros i _. apply sub1_pos. Qed.
  Lemma w_t_pos q : pos2 nc nc (w_t nc q). Proof. intros i j _ _. apply sub1_pos. Qed.
  Lemma w_e_pos q : forall o i, sym_ok nf o -> (i < nc)%nat -> 0 < w_e nf q o i. Proof. intros o i _ _. apply sub1_pos. Qed.

  Lemma n_start_nonneg q i : (i < nc)%nat -> 0 <= n_start nc nf q cs i.
  Proof.
    intros Hi. apply sumL_nonneg. intros c Hc.
    apply (vpost_stoch (sym_ok nf) nc cs Hnc Hcs _ _ _ (w_s_pos q) (w_t_pos q) (w_e_pos q) c 0 Hc); [|exact Hi].
    destruct (Hcs c Hc) as [N _]. destruct c; [congruence|cbn; lia].
  Qed.
  Lemma n_move_nonneg q i j : (i < nc)%nat -> (j < nc)%nat -> 0 <= n_move nc nf q cs i j.
  Proof.
    intros Hi Hj. apply sumL_nonneg. intros c Hc.
    apply (vtrans_nonneg (sym_ok nf) nc cs Hnc Hcs _ _ _ (w_s_pos q) (w_t_pos q) (w_e_pos q) c i j Hc Hi Hj).
  Qed.
  Lemma n_emit_nonneg q i k : (i < nc)%nat -> 0 <= n_emit nc nf q cs i k.
  Proof.
    intros Hi. apply sumL_nonneg. intros c Hc. apply sumn_nonneg. intros t Ht. destruct (Z.eqb _ _); [|lra].
    apply (vpost_stoch (sym_ok nf) nc cs Hnc Hcs _ _ _ (w_s_pos q) (w_t_pos q) (w_e_pos q) c t Hc Ht); exact Hi.
  Qed.
  Lemma n_start_sum q : sumn nc (n_start nc nf q cs) = INR (length cs).
  Proof. apply (vstart_sum (sym_ok nf) nc cs Hnc Hcs); auto using w_s_pos, w_t_pos, w_e_pos. Qed.
  Lemma n_move_sum q : sumn nc (fun i => sumn nc (n_move nc nf q cs i)) = sumL (fun c => INR (length c - 1)) cs.
  Proof. apply (vtrans_sum (sym_ok nf) nc cs Hnc Hcs); auto using w_s_pos, w_t_pos, w_e_pos. Qed.
  Lemma n_emit_alt q (d : nat -> nat -> R) :
    sumL (fun c => sumn (length c) (fun t => sumn nc (fun i => seq_post nc (w_s nc q) (w_t nc q) (w_e nf q) c t i * d i (Z.to_nat (nth t c 0%Z))))) cs
    = sumn nc (fun i => sumn nf (fun k => n_emit nc nf q cs i k * d i k)).
  Proof.
    pose (l := map (fun c => (c, seq_post nc (w_s nc q) (w_t nc q) (w_e nf q) c)) cs).
    assert (E : forall i k, sym_count l i k = n_emit nc nf q cs i k). { intros i k. unfold sym_count, l. rewrite sumL_map. reflexivity. }
    pose proof (sym_count_sum nc nf l d) as S. rewrite (sumn_ext nc _ (fun i => sumn nf (fun k => sym_count l i k * d i k))).
    2:{ intros i _. apply sumn_ext. intros k _. rewrite E. reflexivity. }
    rewrite <- S.
    - unfold l. rewrite sumL_map. reflexivity.
    - intros x g Hin. unfold l in Hin. apply in_map_iff in Hin. destruct Hin as (c & Ec & Hc). inversion Ec; subst. apply (Hcs x Hc).
  Qed.
  Lemma n_emit_sum q : sumn nc (fun i => sumn nf (n_emit nc nf q cs i)) = sumL (fun c => INR (length c)) cs.
  Proof.
    rewrite (sumn_ext nc _ (fun i => sumn nf (fun k => n_emit nc nf q cs i k * 1))) by (intros; apply sumn_ext; intros; ring).
    rewrite <- (n_emit_alt q (fun _ _ => 1)). apply sumL_ext. intros c Hc.
    rewrite (sumn_ext _ _ (fun _ => 1)); [rewrite sumn_const; ring|]. intros t Ht.
    rewrite (sumn_ext nc _ (seq_post nc (w_s nc q) (w_t nc q) (w_e nf q) c t)) by (intros; ring).
    apply (vpost_stoch (sym_ok nf) nc cs Hnc Hcs _ _ _ (w_s_pos q) (w_t_pos q) (w_e_pos q) c t Hc Ht).
  Qed.

  Variables (params : string) (p : dirs).
  Hypothesis Hp : dpos nc nf p.
  Lemma vb_next_pos q : dpos nc nf q -> dpos nc nf (vb_next nc nf params p cs q).
  Proof.
    intros (Q1 & Q2 & Q3). destruct Hp as (P1 & P2 & P3). unfold vb_next. repeat split; cbn [d_s d_t d_e].
    - intros i Hi. destruct (has "s" params); [|auto]. pose proof (P1 i Hi). pose proof (n_start_nonneg q i Hi). lra.
    - intros i j Hi Hj. destruct (has "t" params); [|auto]. pose proof (P2 i j Hi Hj). pose proof (n_move_nonneg q i j Hi Hj). lra.
    - intros i k Hi Hk. destruct (has "e" params); [|auto]. pose proof (P3 i k Hi Hk). pose proof (n_emit_nonneg q i k Hi). lra.
  Qed.
  Theorem vb_improve q : dpos nc nf q -> elbo nc nf p cs q <= elbo nc nf p cs (vb_next nc nf params p cs q).
  Proof.
    intros Q. pose proof Q as (Q1 & Q2 & Q3). pose proof Hp as (P1 & P2 & P3). set (q' := vb_next nc nf params p cs q).
    pose proof (vb_gain (sym_ok nf) nc cs Hnc Hcs _ _ _ (w_s_pos q) (w_t_pos q) (w_e_pos q) _ _ _ (w_s_pos q') (w_t_pos q') (w_e_pos q')) as G.
    assert (G1 : dkl nc (d_s q') (d_s p) - dkl nc (d_s q) (d_s p) <= sumn nc (fun i => n_start nc nf q cs i * (ln (w_s nc q' i) - ln (w_s nc q i)))).
    { unfold q', w_s, vb_next. cbn [d_s]. destruct (has "s" params).
      - apply dir_gain; auto. intros i Hi. apply n_start_nonneg, Hi.
      - rewrite sumn_zero; [lra|]. intros; ring. }
    assert (G2 : sumn nc (fun i => dkl nc (d_t q' i) (d_t p i)) - sumn nc (fun i => dkl nc (d_t q i) (d_t p i))
                 <= sumn nc (fun i => sumn nc (fun j => n_move nc nf q cs i j * (ln (w_t nc q' i j) - ln (w_t nc q i j))))).
    { rewrite <- sumn_minus. apply sumn_le. intros i Hi. unfold q', w_t, vb_next. cbn [d_t]. destruct (has "t" params).
      - apply dir_gain; auto; intros j Hj; auto. apply n_move_nonneg; assumption.
      - rewrite sumn_zero; [lra|]. intros; ring. }
    assert (G3 : sumn nc (fun i => dkl nf (d_e q' i) (d_e p i)) - sumn nc (fun i => dkl nf (d_e q i) (d_e p i))
                 <= sumn nc (fun i => sumn nf (fun k => n_emit nc nf q cs i k * (ln (sub1 nf (d_e q' i) k) - ln (sub1 nf (d_e q i) k))))).
    { rewrite <- sumn_minus. apply sumn_le. intros i Hi. unfold q', vb_next. cbn [d_e]. destruct (has "e" params).
      - apply dir_gain; auto; intros k Hk; auto. apply n_emit_nonneg; assumption.
      - rewrite sumn_zero; [lra|]. intros; ring. }
    rewrite <- n_emit_alt in G3.
    assert (E : sumL (fun c => sumn (length c) (fun t => sumn nc (fun i => seq_post nc (w_s nc q) (w_t nc q) (w_e nf q) c t i
                  * (ln (obsB (w_e nf q') c t i) - ln (obsB (w_e nf q) c t i))))) cs
              = sumL (fun c => sumn (length c) (fun t => sumn nc (fun i => seq_post nc (w_s nc q) (w_t nc q) (w_e nf q) c t i
                  * (ln (sub1 nf (d_e q' i) (Z.to_nat (nth t c 0%Z))) - ln (sub1 nf (d_e q i) (Z.to_nat (nth t c 0%Z))))))) cs).
    { apply sumL_ext. intros c Hc. apply sumn_ext. intros t Ht. apply sumn_ext. intros i Hi.
      rewrite !(obsB_nth _ c 0%Z) by exact Ht. reflexivity. }
    rewrite E in G. clear E. unfold elbo. fold (n_start nc nf q cs) in G. unfold n_start, n_move in G1, G2. lra.
  Qed.
End Cat.
