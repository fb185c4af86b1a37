(** * The special functions of the variational classes: log-gamma and digamma,
    by Gauss' limits, and the convexity that the lower bound rests on.
    scipy.special.gammaln and digamma are taken to compute these functions. *)
From Verif Require Export EMath.
From Coq Require Import Rcomplete.

(** ** Sequences with small steps converge. *)
Lemma small_steps_bound (u : nat -> R) c : 0 <= c -> (forall n, Rabs (u (S n) - u n) <= c / (INR (S n) * INR (S n))) ->
  forall p n, (0 < n)%nat -> Rabs (u (n + p)%nat - u n) <= c * (/ INR n - / INR (n + p)).
Proof.
  intros Hc H. induction p as [|p IH]; intros n Hn.
  - rewrite Nat.add_0_r. rewrite Rminus_diag_eq, Rabs_R0 by reflexivity. lra.
  - replace (n + S p)%nat with (S (n + p)) by lia.
    replace (u (S (n + p)) - u n) with ((u (S (n + p)) - u (n + p)%nat) + (u (n + p)%nat - u n)) by ring.
    eapply Rle_trans; [apply Rabs_triang|]. pose proof (IH n Hn) as I1. pose proof (H (n + p)%nat) as I2.
    assert (Hp : 0 < INR (n + p)) by (apply lt_0_INR; lia).
    assert (I3 : c / (INR (S (n + p)) * INR (S (n + p))) <= c * (/ INR (n + p) - / INR (S (n + p)))).
    { unfold Rdiv. apply Rmult_le_compat_l; [exact Hc|]. rewrite S_INR.
      replace (/ INR (n + p) - / (INR (n + p) + 1)) with (/ (INR (n + p) * (INR (n + p) + 1))) by (field; lra).
      apply Rinv_le_contravar; nra. }
    lra.
Qed.
Lemma small_steps_cauchy (u : nat -> R) c : 0 <= c -> (forall n, Rabs (u (S n) - u n) <= c / (INR (S n) * INR (S n))) -> Cauchy_crit u.
Proof.
  intros Hc H eps He.
  destruct (archimed_cor1 (eps / (c + 1))) as (N & HN & HN0).
  { apply Rdiv_lt_0_compat; lra. }
  assert (K : forall n m, (N <= n)%nat -> (n <= m)%nat -> Rabs (u m - u n) < eps).
  { intros n m Hn Hm. replace m with (n + (m - n))%nat by lia.
    eapply Rle_lt_trans; [apply (small_steps_bound u c Hc H); lia|].
    assert (H1 : / INR n <= / INR N). { apply Rinv_le_contravar; [apply lt_0_INR; lia|apply le_INR; lia]. }
    assert (H2 : 0 < / INR (n + (m - n))) by (apply Rinv_0_lt_compat, lt_0_INR; lia).
    assert (H3 : 0 < / INR N) by (apply Rinv_0_lt_compat, lt_0_INR; lia).
    assert (H4 : (c + 1) * / INR N < eps).
    { apply (Rmult_lt_compat_l (c + 1)) in HN; [|lra]. replace ((c + 1) * (eps / (c + 1))) with eps in HN by (field; lra). exact HN. }
    nra. }
  exists N. intros n m Hn Hm. unfold R_dist. destruct (Nat.le_ge_cases n m) as [L|L].
  - rewrite Rabs_minus_sym. apply K; lia.
  - apply K; lia.
Qed.

(** ** The approximants. *)
(** n! (n+1)^x / (x (x+1) ... (x+n)) and its logarithmic derivative. *)
Definition lgam_n (n : nat) (x : R) : R :=
  x * ln (INR (S n)) + sumn n (fun k => ln (INR (S k))) - sumn (S n) (fun k => ln (x + INR k)).
Definition psi_n (n : nat) (x : R) : R := ln (INR (S n)) - sumn (S n) (fun k => / (x + INR k)).

Lemma ln_le_x1 t : 0 < t -> ln t <= t - 1. Proof. exact (ln_le_sub1 t). Qed.
Lemma ln_ge_1x t : 0 < t -> 1 - / t <= ln t.
Proof.
  intros Ht. pose proof (ln_le_sub1 (/ t) (Rinv_0_lt_compat _ Ht)) as H. rewrite ln_Rinv in H by exact Ht. lra.
Qed.
Lemma lgam_step n x : 0 < x -> Rabs (lgam_n (S n) x - lgam_n n x) <= (x + x * x) / (INR (S n) * INR (S n)).
Proof.
  intros Hx. assert (Hm : 0 < INR (S n)) by (apply lt_0_INR; lia). set (m := INR (S n)) in *.
  assert (E : lgam_n (S n) x - lgam_n n x = x * ln ((m + 1) / m) - ln ((x + m) / m)).
  { unfold lgam_n. change (sumn (S n) (fun k => ln (INR (S k)))) with (sumn n (fun k => ln (INR (S k))) + ln m).
    change (sumn (S (S n)) (fun k => ln (x + INR k))) with (sumn (S n) (fun k => ln (x + INR k)) + ln (x + m)).
    rewrite (S_INR (S n)). fold m. rewrite !ln_div by lra. ring. }
  rewrite E. assert (P1 : 0 < (m + 1) / m) by (apply Rdiv_lt_0_compat; lra).
  assert (P2 : 0 < (x + m) / m) by (apply Rdiv_lt_0_compat; lra).
  pose proof (ln_le_x1 _ P1) as A1. pose proof (ln_ge_1x _ P1) as A2. pose proof (ln_le_x1 _ P2) as B1. pose proof (ln_ge_1x _ P2) as B2.
  replace ((m + 1) / m - 1) with (/ m) in A1 by (field; lra). replace (1 - / ((m + 1) / m)) with (/ (m + 1)) in A2 by (field; lra).
  replace ((x + m) / m - 1) with (x / m) in B1 by (field; lra). replace (1 - / ((x + m) / m)) with (x / (x + m)) in B2 by (field; lra).
  assert (U1 : x * ln ((m + 1) / m) <= x * / m) by (apply Rmult_le_compat_l; lra).
  assert (U2 : x * / (m + 1) <= x * ln ((m + 1) / m)) by (apply Rmult_le_compat_l; lra).
  assert (Q : 0 < / (m * m)) by (apply Rinv_0_lt_compat; nra).
  assert (V1 : x * / m - x / (x + m) <= (x + x * x) / (m * m)).
  { replace (x * / m - x / (x + m)) with (x * x * / (m * (x + m))) by (field; lra). unfold Rdiv.
    assert (/ (m * (x + m)) <= / (m * m)) by (apply Rinv_le_contravar; nra). nra. }
  assert (V2 : - ((x + x * x) / (m * m)) <= x * / (m + 1) - x / m).
  { replace (x * / (m + 1) - x / m) with (- (x * / (m * (m + 1)))) by (field; lra). unfold Rdiv.
    assert (/ (m * (m + 1)) <= / (m * m)) by (apply Rinv_le_contravar; nra). nra. }
  apply Rabs_le. lra.
Qed.
Lemma psi_step n x : 0 < x -> Rabs (psi_n (S n) x - psi_n n x) <= (1 + x) / (INR (S n) * INR (S n)).
Proof.
  intros Hx. assert (Hm : 0 < INR (S n)) by (apply lt_0_INR; lia). set (m := INR (S n)) in *.
  assert (E : psi_n (S n) x - psi_n n x = ln ((m + 1) / m) - / (x + m)).
  { unfold psi_n. change (sumn (S (S n)) (fun k => / (x + INR k))) with (sumn (S n) (fun k => / (x + INR k)) + / (x + m)).
    rewrite (S_INR (S n)). fold m. rewrite !ln_div by lra. ring. }
  rewrite E. assert (P1 : 0 < (m + 1) / m) by (apply Rdiv_lt_0_compat; lra).
  pose proof (ln_le_x1 _ P1) as A1. pose proof (ln_ge_1x _ P1) as A2.
  replace ((m + 1) / m - 1) with (/ m) in A1 by (field; lra). replace (1 - / ((m + 1) / m)) with (/ (m + 1)) in A2 by (field; lra).
  assert (Q : 0 < / (m * m)) by (apply Rinv_0_lt_compat; nra).
  assert (V1 : / m - / (x + m) <= (1 + x) / (m * m)).
  { replace (/ m - / (x + m)) with (x * / (m * (x + m))) by (field; lra). unfold Rdiv.
    assert (/ (m * (x + m)) <= / (m * m)) by (apply Rinv_le_contravar; nra). nra. }
  assert (V2 : - ((1 + x) / (m * m)) <= / (m + 1) - / (x + m)).
  { assert (/ (x + m) <= / m) by (apply Rinv_le_contravar; lra).
    assert (/ m - / (m + 1) <= / (m * m)).
    { replace (/ m - / (m + 1)) with (/ (m * (m + 1))) by (field; lra). apply Rinv_le_contravar; nra. }
    unfold Rdiv. nra. }
  apply Rabs_le. lra.
Qed.
Lemma lgam_cv x : 0 < x -> { l | Un_cv (fun n => lgam_n n x) l }.
Proof.
  intros Hx. apply R_complete. apply (small_steps_cauchy _ (x + x * x)); [nra|]. intros n. exact (lgam_step n x Hx).
Qed.
Lemma psi_cv x : 0 < x -> { l | Un_cv (fun n => psi_n n x) l }.
Proof.
  intros Hx. apply R_complete. apply (small_steps_cauchy _ (1 + x)); [lra|]. intros n. exact (psi_step n x Hx).
Qed.

(** Log-gamma and digamma of a positive number. *)
Definition lgam (x : R) : R := match Rlt_dec 0 x with left h => proj1_sig (lgam_cv x h) | right _ => 0 end.
Definition psi (x : R) : R := match Rlt_dec 0 x with left h => proj1_sig (psi_cv x h) | right _ => 0 end.
Lemma lgam_lim x : 0 < x -> Un_cv (fun n => lgam_n n x) (lgam x).
Proof. intros Hx. unfold lgam. destruct (Rlt_dec 0 x) as [h|h]; [|lra]. exact (proj2_sig (lgam_cv x h)). Qed.
Lemma psi_lim x : 0 < x -> Un_cv (fun n => psi_n n x) (psi x).
Proof. intros Hx. unfold psi. destruct (Rlt_dec 0 x) as [h|h]; [|lra]. exact (proj2_sig (psi_cv x h)). Qed.

(** ** The divergence of log-gamma is a sum of convex terms. *)
Definition phi (t : R) : R := t - 1 - ln t.
Lemma phi_nonneg t : 0 < t -> 0 <= phi t.
Proof. intros Ht. unfold phi. pose proof (ln_le_x1 t Ht). lra. Qed.
Lemma phi_convex p s t : 0 <= p <= 1 -> 0 < s -> 0 < t -> phi (p * s + (1 - p) * t) <= p * phi s + (1 - p) * phi t.
Proof.
  intros Hp Hs Ht. set (m := p * s + (1 - p) * t).
  assert (Hm : 0 < m). { unfold m. destruct (Rle_dec p (1 / 2)); nra. }
  assert (Hs' : 0 < s / m) by (apply Rdiv_lt_0_compat; lra). assert (Ht' : 0 < t / m) by (apply Rdiv_lt_0_compat; lra).
  pose proof (ln_le_x1 _ Hs') as A. pose proof (ln_le_x1 _ Ht') as B. rewrite ln_div in A, B by lra.
  assert (E : p * (s / m - 1) + (1 - p) * (t / m - 1) = 0).
  { replace (p * (s / m - 1) + (1 - p) * (t / m - 1)) with ((p * s + (1 - p) * t) / m - 1) by (field; lra). fold m. field. lra. }
  unfold phi. fold m. assert (A' : p * (ln s - ln m) <= p * (s / m - 1)) by (apply Rmult_le_compat_l; lra).
  assert (B' : (1 - p) * (ln t - ln m) <= (1 - p) * (t / m - 1)) by (apply Rmult_le_compat_l; lra).
  unfold m at 1. nra.
Qed.
Definition tr (q r : R) (k : nat) : R := (r + INR k) / (q + INR k).
Lemma tratio_pos q r k : 0 < q -> 0 < r -> 0 < tr q r k.
Proof. intros. pose proof (pos_INR k). apply Rdiv_lt_0_compat; lra. Qed.
(** The partial sums of lgam r - lgam q - psi q (r - q), started at [a]. *)
Definition dsum (q r : R) (a m : nat) : R := sumn m (fun k => phi (tr q r (a + k))).
Lemma dsum_S_l q r a m : dsum q r a (S m) = phi (tr q r a) + dsum q r (S a) m.
Proof.
  unfold dsum. rewrite sumn_S_l, Nat.add_0_r. f_equal. apply sumn_ext. intros i _. do 2 f_equal. lia.
Qed.
Lemma dsum_nonneg q r a m : 0 < q -> 0 < r -> 0 <= dsum q r a m.
Proof. intros. apply sumn_nonneg. intros. apply phi_nonneg, tratio_pos; assumption. Qed.
Lemma dsum_le q r a m : 0 < q -> 0 < r -> dsum q r a m <= dsum q r a (S m).
Proof. intros Hq Hr. change (dsum q r a m <= dsum q r a m + phi (tr q r (a + m))). pose proof (phi_nonneg _ (tratio_pos q r (a + m) Hq Hr)). lra. Qed.
(** Drawing from two urns with q1 and q2 balls, instead of one with q1 + q2. *)
Lemma dsum_sub q1 q2 r1 r2 : 0 < q1 -> 0 < q2 -> 0 < r1 -> 0 < r2 ->
  forall m a b, dsum (q1 + q2) (r1 + r2) (a + b) m <= dsum q1 r1 a m + dsum q2 r2 b m.
Proof.
  intros H1 H2 G1 G2. induction m as [|m IH]; intros a b.
  - unfold dsum. cbn. lra.
  - pose proof (pos_INR a) as Ha. pose proof (pos_INR b) as Hb.
    set (p := (q1 + INR a) / (q1 + q2 + (INR a + INR b))).
    assert (Hp : 0 <= p <= 1).
    { unfold p. split; [apply Rlt_le, Rdiv_lt_0_compat; lra|]. apply Rmult_le_reg_r with (q1 + q2 + (INR a + INR b)); [lra|].
      replace ((q1 + INR a) / (q1 + q2 + (INR a + INR b)) * (q1 + q2 + (INR a + INR b))) with (q1 + INR a) by (field; lra). lra. }
    rewrite (dsum_S_l (q1 + q2)).
    assert (E : tr (q1 + q2) (r1 + r2) (a + b) = p * tr q1 r1 a + (1 - p) * tr q2 r2 b).
    { unfold tr, p. rewrite plus_INR. field. repeat split; lra. }
    rewrite E. pose proof (phi_convex p _ _ Hp (tratio_pos q1 r1 a H1 G1) (tratio_pos q2 r2 b H2 G2)) as C.
    pose proof (IH (S a) b) as I1. pose proof (IH a (S b)) as I2.
    replace (S a + b)%nat with (S (a + b)) in I1 by lia. replace (a + S b)%nat with (S (a + b)) in I2 by lia.
    pose proof (dsum_le q1 r1 a m H1 G1) as L1. pose proof (dsum_le q2 r2 b m H2 G2) as L2.
    pose proof (dsum_S_l q1 r1 a m) as S1. pose proof (dsum_S_l q2 r2 b m) as S2.
    assert (J1 : p * dsum (q1 + q2) (r1 + r2) (S (a + b)) m <= p * (dsum q1 r1 (S a) m + dsum q2 r2 b m)) by (apply Rmult_le_compat_l; lra).
    assert (J2 : (1 - p) * dsum (q1 + q2) (r1 + r2) (S (a + b)) m <= (1 - p) * (dsum q1 r1 a m + dsum q2 r2 (S b) m)) by (apply Rmult_le_compat_l; lra).
    assert (K1 : (1 - p) * dsum q1 r1 a m <= (1 - p) * dsum q1 r1 a (S m)) by (apply Rmult_le_compat_l; lra).
    assert (K2 : p * dsum q2 r2 b m <= p * dsum q2 r2 b (S m)) by (apply Rmult_le_compat_l; lra).
    rewrite S1 in K1 |- *. rewrite S2 in K2 |- *. nra.
Qed.

(** The divergence and its limit form. *)
Definition dlg (q r : R) : R := lgam r - lgam q - psi q * (r - q).
Lemma cv_ext (u v : nat -> R) l : (forall n, u n = v n) -> Un_cv u l -> Un_cv v l.
Proof. intros E H eps He. destruct (H eps He) as (N & HN). exists N. intros n Hn. rewrite <- E. exact (HN n Hn). Qed.
Lemma cv_const c : Un_cv (fun _ => c) c.
Proof. intros eps He. exists O. intros n _. unfold R_dist. rewrite Rminus_diag_eq, Rabs_R0 by reflexivity. exact He. Qed.
Lemma cv_le (u v : nat -> R) l l' : (forall n, u n <= v n) -> Un_cv u l -> Un_cv v l' -> l <= l'.
Proof.
  intros H Hu Hv. destruct (Rle_dec l l') as [L|L]; [exact L|]. exfalso.
  assert (He : 0 < (l - l') / 2) by lra.
  destruct (Hu _ He) as (N1 & H1). destruct (Hv _ He) as (N2 & H2).
  specialize (H1 (N1 + N2)%nat ltac:(lia)). specialize (H2 (N1 + N2)%nat ltac:(lia)). specialize (H (N1 + N2)%nat).
  unfold R_dist in H1, H2. apply Rabs_def2 in H1, H2. lra.
Qed.
Lemma dlg_lim q r : 0 < q -> 0 < r -> Un_cv (fun n => dsum q r 0 (S n)) (dlg q r).
Proof.
  intros Hq Hr. unfold dlg.
  assert (L : Un_cv (fun n => lgam_n n r - lgam_n n q - psi_n n q * (r - q)) (lgam r - lgam q - psi q * (r - q))).
  { apply CV_minus; [apply CV_minus; apply lgam_lim; assumption|]. apply (CV_mult (fun n => psi_n n q) (fun _ => r - q)); [apply psi_lim; exact Hq|apply cv_const]. }
  eapply cv_ext; [|exact L]. intros n. cbn beta. unfold lgam_n, psi_n.
  transitivity (- (sumn (S n) (fun k => ln (r + INR k)) - sumn (S n) (fun k => ln (q + INR k))) + sumn (S n) (fun k => / (q + INR k)) * (r - q)); [ring|].
  rewrite <- sumn_minus, <- sumn_scal_r. unfold dsum.
  transitivity (sumn (S n) (fun k => / (q + INR k) * (r - q)) - sumn (S n) (fun k => ln (r + INR k) - ln (q + INR k))); [ring|].
  rewrite <- sumn_minus. apply sumn_ext. intros k _. pose proof (pos_INR k). unfold phi, tr. cbn [Nat.add]. rewrite ln_div by lra. field. lra.
Qed.
Lemma dlg_nonneg q r : 0 < q -> 0 < r -> 0 <= dlg q r.
Proof.
  intros Hq Hr. apply (cv_le (fun _ => 0) (fun n => dsum q r 0 (S n))); [|apply cv_const|apply dlg_lim; assumption].
  intros n. apply dsum_nonneg; assumption.
Qed.
Lemma dlg_ge q r m : 0 < q -> 0 < r -> dsum q r 0 m <= dlg q r.
Proof.
  intros Hq Hr.
  assert (M : forall p, dsum q r 0 m <= dsum q r 0 (m + p)).
  { induction p as [|p IH]; [rewrite Nat.add_0_r; lra|]. rewrite Nat.add_succ_r. pose proof (dsum_le q r 0 (m + p) Hq Hr). lra. }
  pose proof (dlg_lim q r Hq Hr) as L. destruct (Rle_dec (dsum q r 0 m) (dlg q r)) as [A|A]; [exact A|exfalso].
  destruct (L (dsum q r 0 m - dlg q r)) as (N & HN); [lra|]. specialize (HN (m + N)%nat ltac:(lia)). unfold R_dist in HN.
  apply Rabs_def2 in HN. specialize (M (S N)). rewrite Nat.add_succ_r in M. lra.
Qed.
Lemma dlg_sub q1 q2 r1 r2 : 0 < q1 -> 0 < q2 -> 0 < r1 -> 0 < r2 -> dlg (q1 + q2) (r1 + r2) <= dlg q1 r1 + dlg q2 r2.
Proof.
  intros. apply (cv_le (fun n => dsum (q1 + q2) (r1 + r2) 0 (S n)) (fun n => dsum q1 r1 0 (S n) + dsum q2 r2 0 (S n))).
  - intros n. apply (dsum_sub q1 q2 r1 r2) with (a := O) (b := O); assumption.
  - apply dlg_lim; lra.
  - apply CV_plus; apply dlg_lim; assumption.
Qed.
Lemma sumn_all_pos n f : (0 < n)%nat -> (forall i, (i < n)%nat -> 0 < f i) -> 0 < sumn n f.
Proof. intros Hn H. apply (sumn_pos n f 0); [intros; apply Rlt_le; auto|exact Hn|auto]. Qed.
Lemma dlg_sumn n (q r : nat -> R) : (0 < n)%nat -> (forall i, (i < n)%nat -> 0 < q i) -> (forall i, (i < n)%nat -> 0 < r i) ->
  dlg (sumn n q) (sumn n r) <= sumn n (fun i => dlg (q i) (r i)).
Proof.
  intros Hn. destruct n as [|n]; [lia|]. clear Hn. induction n as [|n IH]; intros Hq Hr.
  - cbn. rewrite !Rplus_0_l. lra.
  - change (dlg (sumn (S n) q + q (S n)) (sumn (S n) r + r (S n)) <= sumn (S n) (fun i => dlg (q i) (r i)) + dlg (q (S n)) (r (S n))).
    eapply Rle_trans.
    + apply dlg_sub; [apply sumn_all_pos; [lia|intros; apply Hq; lia]|apply Hq; lia|apply sumn_all_pos; [lia|intros; apply Hr; lia]|apply Hr; lia].
    + apply Rplus_le_compat_r, IH; intros; [apply Hq|apply Hr]; lia.
Qed.

(** ** Gamma: the functional equations. *)
Lemma inv_small_cv : Un_cv (fun n => / INR (S n)) 0.
Proof.
  intros eps He. destruct (archimed_cor1 eps He) as (N & HN & H0). exists N. intros n Hn. unfold R_dist. rewrite Rminus_0_r.
  assert (0 < / INR (S n)) by (apply Rinv_0_lt_compat, lt_0_INR; lia). rewrite Rabs_right by lra.
  eapply Rle_lt_trans; [|exact HN]. apply Rinv_le_contravar; [apply lt_0_INR; lia|apply le_INR; lia].
Qed.
Lemma cv_squeeze0 (u v : nat -> R) : (forall n, Rabs (u n) <= v n) -> Un_cv v 0 -> Un_cv u 0.
Proof.
  intros H Hv eps He. destruct (Hv eps He) as (N & HN). exists N. intros n Hn. specialize (HN n Hn). specialize (H n).
  unfold R_dist in *. rewrite Rminus_0_r in *. eapply Rle_lt_trans; [exact H|]. eapply Rle_lt_trans; [apply Rle_abs|exact HN].
Qed.
Lemma ln_ratio_cv x : 0 <= x -> Un_cv (fun n => ln ((x + INR (S n)) / INR (S n))) 0.
Proof.
  intros Hx. apply (cv_squeeze0 _ (fun n => x * / INR (S n))).
  - intros n. assert (Hn : 0 < INR (S n)) by (apply lt_0_INR; lia).
    assert (P : 0 < (x + INR (S n)) / INR (S n)) by (apply Rdiv_lt_0_compat; lra).
    pose proof (ln_le_x1 _ P) as A. pose proof (ln_ge_1x _ P) as B.
    replace ((x + INR (S n)) / INR (S n) - 1) with (x * / INR (S n)) in A by (field; lra).
    replace (1 - / ((x + INR (S n)) / INR (S n))) with (x * / (x + INR (S n))) in B by (field; lra).
    assert (0 <= x * / (x + INR (S n))) by (apply Rmult_le_pos; [lra|apply Rlt_le, Rinv_0_lt_compat; lra]).
    apply Rabs_le. lra.
  - replace 0 with (x * 0) by ring. apply (CV_mult (fun _ => x) (fun n => / INR (S n))); [apply cv_const|exact inv_small_cv].
Qed.
Lemma psi_rec x : 0 < x -> psi (x + 1) = psi x + / x.
Proof.
  intros Hx.
  assert (D : Un_cv (fun n => psi_n n (x + 1) - psi_n n x) (psi (x + 1) - psi x)).
  { apply CV_minus; apply psi_lim; lra. }
  assert (D' : Un_cv (fun n => psi_n n (x + 1) - psi_n n x) (/ x - 0)).
  { apply (cv_ext (fun n => / x - / (x + INR (S n)))).
    - intros n. unfold psi_n. rewrite (sumn_S_l n (fun k => / (x + INR k))).
      change (sumn (S n) (fun k => / (x + 1 + INR k))) with (sumn n (fun k => / (x + 1 + INR k)) + / (x + 1 + INR n)).
      rewrite (sumn_ext n (fun k => / (x + 1 + INR k)) (fun i => / (x + INR (S i)))) by (intros i _; f_equal; rewrite S_INR; ring).
      rewrite S_INR. replace (x + (INR n + 1)) with (x + 1 + INR n) by ring. cbn [INR]. rewrite Rplus_0_r. ring.
    - apply (CV_minus (fun _ => / x) (fun n => / (x + INR (S n)))); [apply cv_const|].
      apply (cv_squeeze0 _ (fun n => / INR (S n))); [|exact inv_small_cv]. intros n. assert (0 < INR (S n)) by (apply lt_0_INR; lia).
      assert (0 < / (x + INR (S n))) by (apply Rinv_0_lt_compat; lra). rewrite Rabs_right by lra. apply Rinv_le_contravar; lra. }
  pose proof (UL_sequence _ _ _ D D'). lra.
Qed.
Lemma lgam_rec x : 0 < x -> lgam (x + 1) = lgam x + ln x.
Proof.
  intros Hx.
  assert (D : Un_cv (fun n => lgam_n n (x + 1) - lgam_n n x) (lgam (x + 1) - lgam x)).
  { apply CV_minus; apply lgam_lim; lra. }
  assert (D' : Un_cv (fun n => lgam_n n (x + 1) - lgam_n n x) (ln x - 0)).
  { apply (cv_ext (fun n => ln x - ln ((x + INR (S n)) / INR (S n)))).
    - intros n. assert (Hn : 0 < INR (S n)) by (apply lt_0_INR; lia). unfold lgam_n. rewrite (sumn_S_l n (fun k => ln (x + INR k))).
      change (sumn (S n) (fun k => ln (x + 1 + INR k))) with (sumn n (fun k => ln (x + 1 + INR k)) + ln (x + 1 + INR n)).
      rewrite (sumn_ext n (fun k => ln (x + 1 + INR k)) (fun i => ln (x + INR (S i)))) by (intros i _; f_equal; rewrite S_INR; ring).
      rewrite ln_div by lra. rewrite (S_INR n) at 1. replace (x + (INR n + 1)) with (x + 1 + INR n) by ring. cbn [INR]. rewrite Rplus_0_r. ring.
    - apply (CV_minus (fun _ => ln x)); [apply cv_const|apply ln_ratio_cv; lra]. }
  pose proof (UL_sequence _ _ _ D D'). lra.
Qed.
Lemma lgam_1 : lgam 1 = 0.
Proof.
  apply (UL_sequence (fun n => lgam_n n 1)); [apply lgam_lim; lra|]. apply (cv_ext (fun _ => 0)); [|apply cv_const].
  intros n. unfold lgam_n. rewrite (sumn_ext (S n) (fun k => ln (1 + INR k)) (fun k => ln (INR (S k)))) by (intros k _; rewrite S_INR; f_equal; ring).
  change (sumn (S n) (fun k => ln (INR (S k)))) with (sumn n (fun k => ln (INR (S k))) + ln (INR (S n))). ring.
Qed.

(** ** Digamma minus logarithm increases, so exponentiated expected
    logarithms of a Dirichlet vector sum to at most one. *)
Lemma wterm_mono y z : 0 < y -> y <= z -> ln ((y + 1) / y) - / y <= ln ((z + 1) / z) - / z.
Proof.
  intros Hy Hz. assert (P : 0 < ((y + 1) / y) / ((z + 1) / z)) by (repeat apply Rdiv_lt_0_compat; lra).
  pose proof (ln_le_x1 _ P) as A. rewrite ln_div in A by (apply Rdiv_lt_0_compat; lra).
  assert (E : (y + 1) / y / ((z + 1) / z) - 1 = (/ y - / z) * (z / (z + 1))) by (field; lra).
  rewrite E in A. assert (0 <= / y - / z). { assert (/ z <= / y) by (apply Rinv_le_contravar; lra). lra. }
  assert (z / (z + 1) <= 1). { apply Rmult_le_reg_r with (z + 1); [lra|]. replace (z / (z + 1) * (z + 1)) with z by (field; lra). lra. }
  nra.
Qed.
Lemma psi_ln_cv x : 0 < x -> Un_cv (fun n => sumn (S n) (fun k => ln ((x + INR k + 1) / (x + INR k)) - / (x + INR k))) (psi x - ln x).
Proof.
  intros Hx. assert (L : Un_cv (fun n => psi_n n x - ln x + ln ((x + INR (S n)) / INR (S n))) (psi x - ln x + 0)).
  { apply CV_plus; [apply CV_minus; [apply psi_lim; exact Hx|apply cv_const]|apply ln_ratio_cv; lra]. }
  rewrite Rplus_0_r in L. eapply cv_ext; [|exact L]. intros n. unfold psi_n. rewrite sumn_minus.
  assert (T : forall m, sumn m (fun k => ln ((x + INR k + 1) / (x + INR k))) = ln (x + INR m) - ln x).
  { induction m as [|m IH]; [cbn; rewrite Rplus_0_r; ring|]. cbn [sumn]. rewrite IH. pose proof (pos_INR m). rewrite ln_div by lra.
    rewrite S_INR. replace (x + (INR m + 1)) with (x + INR m + 1) by ring. ring. }
  rewrite T. assert (0 < INR (S n)) by (apply lt_0_INR; lia). rewrite ln_div by lra. ring.
Qed.
Lemma psi_ln_mono x y : 0 < x -> x <= y -> psi x - ln x <= psi y - ln y.
Proof.
  intros Hx Hy. eapply cv_le; [|apply psi_ln_cv; exact Hx|apply psi_ln_cv; lra].
  intros n. apply sumn_le. intros k _. pose proof (pos_INR k). apply wterm_mono; lra.
Qed.
Lemma psi_lt_ln x : 0 < x -> psi x < ln x.
Proof.
  intros Hx. pose proof (psi_ln_mono x (x + 1) Hx ltac:(lra)) as A.
  assert (B : psi (x + 1) - ln (x + 1) <= 0).
  { eapply cv_le; [|apply psi_ln_cv; lra|apply (cv_const 0)]. intros n. rewrite <- (sumn_0 (S n)). apply sumn_le. intros k _. pose proof (pos_INR k).
    assert (P : 0 < (x + 1 + INR k + 1) / (x + 1 + INR k)) by (apply Rdiv_lt_0_compat; lra). pose proof (ln_le_x1 _ P) as Q.
    replace ((x + 1 + INR k + 1) / (x + 1 + INR k) - 1) with (/ (x + 1 + INR k)) in Q by (field; lra). lra. }
  rewrite psi_rec in B by lra.
  assert (P : 0 < (x + 1) / x) by (apply Rdiv_lt_0_compat; lra).
  assert (Q : ln ((x + 1) / x) < / x).
  { assert (N : (x + 1) / x <> 1). { intros E. apply (f_equal (fun z => z * x)) in E. replace ((x + 1) / x * x) with (x + 1) in E by (field; lra). lra. }
    assert (exp (/ x) > 1 + / x) by (apply exp_ineq1; apply Rgt_not_eq, Rinv_0_lt_compat; lra).
    apply exp_lt_inv. rewrite exp_ln by exact P. replace ((x + 1) / x) with (1 + / x) by (field; lra). lra. }
  rewrite ln_div in Q by lra. lra.
Qed.
Lemma psi_le x y : 0 < x -> x <= y -> psi x <= psi y.
Proof.
  intros Hx Hy. apply (cv_le (fun n => psi_n n x) (fun n => psi_n n y)); [|apply psi_lim; lra|apply psi_lim; lra].
  intros n. unfold psi_n. apply Rplus_le_compat_l, Ropp_le_contravar, sumn_le. intros k _. pose proof (pos_INR k). apply Rinv_le_contravar; lra.
Qed.
Lemma exp_psi_le q s : 0 < q -> q <= s -> exp (psi q - psi s) <= q / s.
Proof.
  intros Hq Hs. pose proof (psi_ln_mono q s Hq Hs). rewrite <- (exp_ln (q / s)) by (apply Rdiv_lt_0_compat; lra).
  rewrite ln_div by lra. assert (L : psi q - psi s <= ln q - ln s) by lra. destruct L as [L|L]; [left; apply exp_increasing; exact L|right; rewrite L; reflexivity].
Qed.
Lemma exp_psi_sum n q : (0 < n)%nat -> (forall i, (i < n)%nat -> 0 < q i) -> sumn n (fun i => exp (psi (q i) - psi (sumn n q))) <= 1.
Proof.
  intros Hn H. pose proof (sumn_all_pos n q Hn H) as Hs. apply Rle_trans with (sumn n (fun i => q i / sumn n q)).
  - apply sumn_le. intros i Hi. apply exp_psi_le; [auto|]. apply (sumn_ge_term n q i); [intros; apply Rlt_le; auto|exact Hi].
  - rewrite sumn_div. right. field. lra.
Qed.
