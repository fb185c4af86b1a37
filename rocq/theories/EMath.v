(** * The EM inequality over state paths (pure mathematics). *)
From Verif Require Export Paths Sums.

Lemma ln_le_sub1 x : 0 < x -> ln x <= x - 1.
Proof. intros Hx. pose proof (exp_ineq1_le (ln x)) as H. rewrite exp_ln in H by exact Hx. lra. Qed.

Lemma ln_div x y : 0 < x -> 0 < y -> ln (x / y) = ln x - ln y.
Proof.
  intros Hx Hy. unfold Rdiv. rewrite ln_mult, ln_Rinv; try assumption; [ring|].
  apply Rinv_0_lt_compat; exact Hy.
Qed.

(** Pointwise form of the non-negativity of relative entropy. *)
Lemma kl_point q r : 0 <= q -> 0 <= r -> (0 < q -> 0 < r) -> q * (ln r - ln q) <= r - q.
Proof.
  intros Hq Hr H. destruct (Rle_lt_or_eq_dec 0 q Hq) as [Hp|<-]; [|lra].
  specialize (H Hp). rewrite <- ln_div by assumption.
  assert (0 < r / q) by (apply Rdiv_lt_0_compat; assumption).
  pose proof (ln_le_sub1 (r / q) H0).
  apply Rle_trans with (q * (r / q - 1)); [apply Rmult_le_compat_l; lra|].
  right. field. lra.
Qed.

Lemma kl_list {X} (l : list X) (q r : X -> R) :
  (forall x, In x l -> 0 <= q x) -> (forall x, In x l -> 0 <= r x) ->
  (forall x, In x l -> 0 < q x -> 0 < r x) ->
  sumL (fun x => q x * (ln (r x) - ln (q x))) l <= sumL r l - sumL q l.
Proof.
  intros Hq Hr H. rewrite <- sumL_minus. apply sumL_le. intros x Hx. apply kl_point; auto.
Qed.

(** Jensen's inequality for two non-negative weights on a finite set. *)
Lemma jensen_list {X} (l : list X) (q r : X -> R) :
  (forall x, In x l -> 0 <= q x) -> (forall x, In x l -> 0 <= r x) ->
  (forall x, In x l -> 0 < q x -> 0 < r x) -> 0 < sumL q l ->
  0 < sumL r l /\
  sumL (fun x => q x * (ln (r x) - ln (q x))) l <= sumL q l * (ln (sumL r l) - ln (sumL q l)).
Proof.
  intros Hq Hr H HL.
  assert (HL' : 0 < sumL r l).
  { destruct (sumL_pos_ex q l HL) as (x & Hx & Hp).
    apply Rlt_le_trans with (r x); [apply H; assumption|]. apply sumL_ge_term; assumption. }
  split; [exact HL'|].
  set (L := sumL q l) in *. set (L' := sumL r l) in *.
  assert (Hk : sumL (fun x => q x * (ln (r x * (L / L')) - ln (q x))) l <= 0).
  { assert (Hc : 0 < L / L') by (apply Rdiv_lt_0_compat; assumption).
    eapply Rle_trans.
    - apply (kl_list l q (fun x => r x * (L / L'))).
      + exact Hq.
      + intros x Hx. apply Rmult_le_pos; [apply Hr; exact Hx|lra].
      + intros x Hx Hp. apply Rmult_lt_0_compat; [apply H; assumption|exact Hc].
    - rewrite sumL_scal_r. fold L L'. right. field. lra. }
  assert (He : sumL (fun x => q x * (ln (r x * (L / L')) - ln (q x))) l
             = sumL (fun x => q x * (ln (r x) - ln (q x))) l + L * (ln L - ln L')).
  { unfold L at 2. rewrite <- sumL_scal_r, <- sumL_plus. apply sumL_ext. intros x Hx.
    destruct (Rle_lt_or_eq_dec 0 (q x) (Hq x Hx)) as [Hp|Hz].
    - rewrite ln_mult, ln_div; try assumption; [ring|apply H; assumption|apply Rdiv_lt_0_compat; assumption].
    - rewrite <- Hz. ring. }
  rewrite He in Hk. lra.
Qed.

(** Gibbs' inequality: normalised counts maximise the weighted log. *)
Lemma gibbs n (c p : nat -> R) :
  (forall i, (i < n)%nat -> 0 <= c i) -> (forall i, (i < n)%nat -> 0 <= p i) ->
  (forall i, (i < n)%nat -> 0 < c i -> 0 < p i) -> sumn n p <= 1 -> 0 < sumn n c ->
  0 <= sumn n (fun i => c i * (ln (c i / sumn n c) - ln (p i))).
Proof.
  intros Hc Hp H H1 HC. set (C := sumn n c) in *.
  assert (Hk : sumn n (fun i => c i * (ln (p i * C) - ln (c i))) <= 0).
  { rewrite <- !sumL_seq0. eapply Rle_trans.
    - apply (kl_list (seq 0 n) c (fun i => p i * C)).
      + intros i Hi. apply in_seq in Hi. apply Hc. lia.
      + intros i Hi. apply in_seq in Hi. apply Rmult_le_pos; [apply Hp; lia|lra].
      + intros i Hi Hpos. apply in_seq in Hi. apply Rmult_lt_0_compat; [apply H; [lia|exact Hpos]|exact HC].
    - rewrite sumL_scal_r, !sumL_seq0. fold C.
      assert (sumn n p * C <= 1 * C) by (apply Rmult_le_compat_r; lra). lra. }
  assert (He : sumn n (fun i => c i * (ln (c i / C) - ln (p i)))
             = - sumn n (fun i => c i * (ln (p i * C) - ln (c i)))).
  { replace (- sumn n (fun i => c i * (ln (p i * C) - ln (c i))))
      with (-1 * sumn n (fun i => c i * (ln (p i * C) - ln (c i)))) by ring.
    rewrite <- sumn_scal_l. apply sumn_ext. intros i Hi.
    destruct (Rle_lt_or_eq_dec 0 (c i) (Hc i Hi)) as [Hpos|Hz].
    - rewrite ln_mult, ln_div; try assumption; [ring|apply H; assumption].
    - rewrite <- Hz. ring. }
  rewrite He. lra.
Qed.

Lemma ln_prodn n f : (forall i, (i < n)%nat -> 0 < f i) -> ln (prodn n f) = sumn n (fun i => ln (f i)).
Proof.
  induction n as [|n IH]; intros H; simpl; [apply ln_1|].
  rewrite ln_mult, IH; try reflexivity.
  - intros i Hi. apply H. lia.
  - apply prodn_pos. intros i Hi. apply H. lia.
  - apply H. lia.
Qed.

Lemma mult_pos_inv a b : 0 <= a -> 0 <= b -> 0 < a * b -> 0 < a /\ 0 < b.
Proof. intros Ha Hb H. split; nra. Qed.

Section Joint.
  Variables (nc T : nat).
  Variables (pi : nat -> R) (A B : nat -> nat -> R).
  Hypothesis HT : (0 < T)%nat.
  Hypothesis Hpi : nonneg1 nc pi.
  Hypothesis HA : nonneg2 nc nc A.
  Hypothesis HB : nonneg2 T nc B.

  Lemma joint_pos_inv z : is_path nc T z -> 0 < joint T pi A B z ->
    0 < pi (nth 0 z 0%nat)
    /\ (forall t, (t < T - 1)%nat -> 0 < A (nth t z 0%nat) (nth (S t) z 0%nat))
    /\ (forall t, (t < T)%nat -> 0 < B t (nth t z 0%nat)).
  Proof.
    intros [Hl Hz] HJ. unfold joint in HJ.
    assert (H0 : 0 <= pi (nth 0 z 0%nat)) by (apply Hpi, Hz; lia).
    assert (H1 : forall t, (t < T - 1)%nat -> 0 <= A (nth t z 0%nat) (nth (S t) z 0%nat))
      by (intros t Ht; apply HA; apply Hz; lia).
    assert (H2 : forall t, (t < T)%nat -> 0 <= B t (nth t z 0%nat)) by (intros t Ht; apply HB; [lia|apply Hz; lia]).
    apply mult_pos_inv in HJ as [HJ HJb]; [|apply Rmult_le_pos; [exact H0|apply prodn_nonneg; exact H1]
                                           |apply prodn_nonneg; exact H2].
    apply mult_pos_inv in HJ as [HJp HJa]; [|exact H0|apply prodn_nonneg; exact H1].
    split; [exact HJp|]. split; [apply prodn_pos_inv|apply prodn_pos_inv]; assumption.
  Qed.

  Lemma joint_pos z : 0 < pi (nth 0 z 0%nat) ->
    (forall t, (t < T - 1)%nat -> 0 < A (nth t z 0%nat) (nth (S t) z 0%nat)) ->
    (forall t, (t < T)%nat -> 0 < B t (nth t z 0%nat)) -> 0 < joint T pi A B z.
  Proof.
    intros H0 H1 H2. unfold joint. apply Rmult_lt_0_compat; [apply Rmult_lt_0_compat|].
    - exact H0.
    - apply prodn_pos; exact H1.
    - apply prodn_pos; exact H2.
  Qed.

  Lemma ln_joint z : 0 < pi (nth 0 z 0%nat) ->
    (forall t, (t < T - 1)%nat -> 0 < A (nth t z 0%nat) (nth (S t) z 0%nat)) ->
    (forall t, (t < T)%nat -> 0 < B t (nth t z 0%nat)) ->
    ln (joint T pi A B z) = ln (pi (nth 0 z 0%nat))
      + sumn (T - 1) (fun t => ln (A (nth t z 0%nat) (nth (S t) z 0%nat)))
      + sumn T (fun t => ln (B t (nth t z 0%nat))).
  Proof.
    intros H0 H1 H2. unfold joint. rewrite !ln_mult.
    - rewrite !ln_prodn by assumption. reflexivity.
    - exact H0.
    - apply prodn_pos; exact H1.
    - apply Rmult_lt_0_compat; [exact H0|apply prodn_pos; exact H1].
    - apply prodn_pos; exact H2.
  Qed.

  (** Sums over paths of functions of one state / of transitions. *)
  Lemma path_sum_state t (f : nat -> R) : (t < T)%nat ->
    sumL (fun z => joint T pi A B z * f (nth t z 0%nat)) (all_paths nc T)
    = sumn nc (fun i => marginal nc T pi A B t i * f i).
  Proof.
    intros Ht. unfold marginal.
    transitivity (sumL (fun z => sumn nc (fun i =>
        (if Nat.eqb (nth t z 0%nat) i then joint T pi A B z else 0) * f i)) (all_paths nc T)).
    - apply sumL_ext. intros z Hz. apply in_all_paths in Hz as [_ Hz]. specialize (Hz t Ht).
      rewrite (sumn_single _ _ (nth t z 0%nat)); [|exact Hz|].
      + rewrite Nat.eqb_refl. reflexivity.
      + intros i Hi Hne. destruct (Nat.eqb_spec (nth t z 0%nat) i); [congruence|ring].
    - rewrite sumL_sumn_swap. apply sumn_ext. intros i Hi. rewrite sumL_scal_r. f_equal.
      rewrite sumL_filter. reflexivity.
  Qed.

  Lemma n_trans_sum (g : nat -> nat -> R) z : is_path nc T z ->
    sumn (T - 1) (fun t => g (nth t z 0%nat) (nth (S t) z 0%nat))
    = sumn nc (fun i => sumn nc (fun j => n_trans T i j z * g i j)).
  Proof.
    intros [Hl Hz]. unfold n_trans.
    transitivity (sumn (T - 1) (fun t => sumn nc (fun i => sumn nc (fun j =>
        (if Nat.eqb (nth t z 0%nat) i && Nat.eqb (nth (S t) z 0%nat) j then 1 else 0) * g i j)))).
    - apply sumn_ext. intros t Ht.
      rewrite (sumn_single _ _ (nth t z 0%nat)); [|apply Hz; lia|].
      + rewrite (sumn_single _ _ (nth (S t) z 0%nat)); [|apply Hz; lia|].
        * rewrite !Nat.eqb_refl. simpl. ring.
        * intros j Hj Hne. destruct (Nat.eqb_spec (nth (S t) z 0%nat) j); [congruence|].
          rewrite andb_false_r. ring.
      + intros i Hi Hne. apply sumn_zero. intros j Hj.
        destruct (Nat.eqb_spec (nth t z 0%nat) i); [congruence|]. simpl. ring.
    - rewrite sumn_swap. apply sumn_ext. intros i Hi.
      rewrite sumn_swap. apply sumn_ext. intros j Hj.
      rewrite <- sumn_scal_r. reflexivity.
  Qed.

  Lemma path_sum_trans (g : nat -> nat -> R) :
    sumL (fun z => joint T pi A B z * sumn (T - 1) (fun t => g (nth t z 0%nat) (nth (S t) z 0%nat)))
         (all_paths nc T)
    = sumn nc (fun i => sumn nc (fun j =>
        sumL (fun z => joint T pi A B z * n_trans T i j z) (all_paths nc T) * g i j)).
  Proof.
    transitivity (sumL (fun z => sumn nc (fun i => sumn nc (fun j =>
        joint T pi A B z * n_trans T i j z * g i j))) (all_paths nc T)).
    - apply sumL_ext. intros z Hz. apply in_all_paths in Hz. rewrite n_trans_sum by exact Hz.
      rewrite <- sumn_scal_l. apply sumn_ext. intros i Hi.
      rewrite <- sumn_scal_l. apply sumn_ext. intros j Hj. ring.
    - rewrite sumL_sumn_swap. apply sumn_ext. intros i Hi.
      rewrite sumL_sumn_swap. apply sumn_ext. intros j Hj. apply sumL_scal_r.
  Qed.

  Lemma marginal_pos_path t z : (t < T)%nat -> is_path nc T z -> 0 < joint T pi A B z ->
    0 < marginal nc T pi A B t (nth t z 0%nat).
  Proof.
    intros Ht Hz HJ. apply Rlt_le_trans with (joint T pi A B z); [exact HJ|].
    unfold marginal. apply sumL_ge_term.
    - intros y Hy. apply filter_In in Hy as [Hy _]. apply in_all_paths in Hy.
      apply (joint_nonneg nc); assumption.
    - apply filter_In. split; [apply in_all_paths; exact Hz|apply Nat.eqb_refl].
  Qed.

  Lemma n_trans_nonneg i j z : 0 <= n_trans T i j z.
  Proof. unfold n_trans. apply sumn_nonneg. intros t Ht. destruct (_ && _); lra. Qed.

  Lemma trans_pos_path t z : (t < T - 1)%nat -> is_path nc T z -> 0 < joint T pi A B z ->
    0 < sumL (fun y => joint T pi A B y * n_trans T (nth t z 0%nat) (nth (S t) z 0%nat) y) (all_paths nc T).
  Proof.
    intros Ht Hz HJ. set (i := nth t z 0%nat). set (j := nth (S t) z 0%nat).
    assert (Hn : 1 <= n_trans T i j z).
    { unfold n_trans. eapply Rle_trans; [|apply (sumn_ge_term _ _ t)]; [|intros k _; destruct (_ && _); lra|exact Ht].
      cbv beta. unfold i, j. rewrite !Nat.eqb_refl. simpl. lra. }
    apply Rlt_le_trans with (joint T pi A B z * n_trans T i j z); [nra|].
    apply (sumL_ge_term (fun y => joint T pi A B y * n_trans T i j y)).
    - intros y Hy. apply in_all_paths in Hy. apply Rmult_le_pos; [|apply n_trans_nonneg].
      apply (joint_nonneg nc); assumption.
    - apply in_all_paths. exact Hz.
  Qed.
End Joint.

(** The EM bound for one sequence: the gain in log-likelihood is at least the
    gain in expected complete-data log-likelihood. *)
Section Bound.
  Variables (nc T : nat).
  Variables (pi : nat -> R) (A B : nat -> nat -> R) (pi' : nat -> R) (A' B' : nat -> nat -> R).
  Hypothesis HT : (0 < T)%nat.
  Hypothesis Hpi : nonneg1 nc pi.
  Hypothesis HA : nonneg2 nc nc A.
  Hypothesis HB : nonneg2 T nc B.
  Hypothesis Hpi' : nonneg1 nc pi'.
  Hypothesis HA' : nonneg2 nc nc A'.
  Hypothesis HB' : nonneg2 T nc B'.
  Hypothesis HL : 0 < likelihood nc T pi A B.
  Hypothesis S0 : forall i, (i < nc)%nat -> 0 < posterior nc T pi A B 0 i -> 0 < pi' i.
  Hypothesis S1 : forall i j, (i < nc)%nat -> (j < nc)%nat ->
    0 < expected_trans nc T pi A B i j -> 0 < A' i j.
  Hypothesis S2 : forall t i, (t < T)%nat -> (i < nc)%nat ->
    0 < posterior nc T pi A B t i -> 0 < B' t i.

  Lemma em_support z : is_path nc T z -> 0 < joint T pi A B z ->
    0 < pi' (nth 0 z 0%nat)
    /\ (forall t, (t < T - 1)%nat -> 0 < A' (nth t z 0%nat) (nth (S t) z 0%nat))
    /\ (forall t, (t < T)%nat -> 0 < B' t (nth t z 0%nat)).
  Proof.
    intros Hz HJ. destruct Hz as [Hl Hz]. split; [|split].
    - apply S0; [apply Hz; exact HT|]. unfold posterior.
      apply Rdiv_lt_0_compat; [|exact HL].
      apply marginal_pos_path; try assumption. split; assumption.
    - intros t Ht. apply S1; [apply Hz; lia|apply Hz; lia|]. unfold expected_trans.
      apply Rdiv_lt_0_compat; [|exact HL]. apply trans_pos_path; try assumption. split; assumption.
    - intros t Ht. apply S2; [exact Ht|apply Hz; exact Ht|]. unfold posterior.
      apply Rdiv_lt_0_compat; [|exact HL].
      apply marginal_pos_path; try assumption. split; assumption.
  Qed.

  Theorem em_bound :
    0 < likelihood nc T pi' A' B' /\
    sumn nc (fun i => posterior nc T pi A B 0 i * (ln (pi' i) - ln (pi i)))
    + sumn nc (fun i => sumn nc (fun j => expected_trans nc T pi A B i j * (ln (A' i j) - ln (A i j))))
    + sumn T (fun t => sumn nc (fun i => posterior nc T pi A B t i * (ln (B' t i) - ln (B t i))))
    <= ln (likelihood nc T pi' A' B') - ln (likelihood nc T pi A B).
  Proof.
    assert (HJnn : forall z, In z (all_paths nc T) -> 0 <= joint T pi A B z).
    { intros z Hz. apply in_all_paths in Hz. apply (joint_nonneg nc); assumption. }
    assert (HJnn' : forall z, In z (all_paths nc T) -> 0 <= joint T pi' A' B' z).
    { intros z Hz. apply in_all_paths in Hz. apply (joint_nonneg nc); assumption. }
    destruct (jensen_list (all_paths nc T) (joint T pi A B) (joint T pi' A' B') HJnn HJnn') as [HL' Hj].
    { intros z Hz HJ. apply in_all_paths in Hz. destruct (em_support z Hz HJ) as (H0 & H1 & H2).
      apply joint_pos; assumption. }
    { exact HL. }
    split; [exact HL'|].
    fold (likelihood nc T pi A B) in Hj. fold (likelihood nc T pi' A' B') in Hj.
    set (L := likelihood nc T pi A B) in *.
    assert (Hd : sumL (fun z => joint T pi A B z * (ln (joint T pi' A' B' z) - ln (joint T pi A B z))) (all_paths nc T)
      = sumL (fun z => joint T pi A B z * (fun i => ln (pi' i) - ln (pi i)) (nth 0 z 0%nat)) (all_paths nc T)
      + sumL (fun z => joint T pi A B z * sumn (T - 1) (fun t => (fun i j => ln (A' i j) - ln (A i j)) (nth t z 0%nat) (nth (S t) z 0%nat))) (all_paths nc T)
      + sumn T (fun t => sumL (fun z => joint T pi A B z * (fun i => ln (B' t i) - ln (B t i)) (nth t z 0%nat)) (all_paths nc T))).
    { rewrite <- sumL_sumn_swap, <- !sumL_plus. apply sumL_ext. intros z Hz.
      destruct (Rle_lt_or_eq_dec _ _ (HJnn z Hz)) as [Hp|Hz0].
      - apply in_all_paths in Hz. destruct (em_support z Hz Hp) as (H0 & H1 & H2).
        destruct (joint_pos_inv nc T pi A B HT Hpi HA HB z Hz Hp) as (K0 & K1 & K2).
        rewrite !ln_joint by assumption. rewrite sumn_scal_l, !sumn_minus. ring.
      - rewrite sumn_scal_l, <- Hz0. ring. }
    cbv beta in Hd.
    rewrite (path_sum_trans nc T pi A B HT (fun i j => ln (A' i j) - ln (A i j))) in Hd.
    rewrite (path_sum_state nc T pi A B 0 (fun i => ln (pi' i) - ln (pi i)) HT) in Hd.
    rewrite Hd in Hj.
    assert (Hq : sumn T (fun t => sumL (fun z => joint T pi A B z * (ln (B' t (nth t z 0%nat)) - ln (B t (nth t z 0%nat)))) (all_paths nc T))
               = sumn T (fun t => sumn nc (fun i => marginal nc T pi A B t i * (ln (B' t i) - ln (B t i))))).
    { apply sumn_ext. intros t Ht. apply (path_sum_state nc T pi A B t (fun i => ln (B' t i) - ln (B t i)) Ht). }
    rewrite Hq in Hj. clear Hq Hd.
    apply Rmult_le_reg_l with L; [exact HL|]. eapply Rle_trans; [|exact Hj]. right.
    rewrite !Rmult_plus_distr_l. f_equal; [f_equal|].
    - rewrite <- sumn_scal_l. apply sumn_ext. intros i Hi. unfold posterior. fold L. field. lra.
    - rewrite <- sumn_scal_l. apply sumn_ext. intros i Hi.
      rewrite <- sumn_scal_l. apply sumn_ext. intros j Hj'. unfold expected_trans. fold L. field. lra.
    - rewrite <- sumn_scal_l. apply sumn_ext. intros t Ht.
      rewrite <- sumn_scal_l. apply sumn_ext. intros i Hi. unfold posterior. fold L. field. lra.
  Qed.

  (** Positions with positive posterior keep it. *)
  Lemma em_visit t i : (t < T)%nat -> (i < nc)%nat ->
    0 < posterior nc T pi A B t i -> 0 < posterior nc T pi' A' B' t i.
  Proof.
    intros Ht Hi Hp.
    assert (Hm : 0 < marginal nc T pi A B t i).
    { unfold posterior in Hp. apply Rmult_lt_reg_r with (/ likelihood nc T pi A B).
      - apply Rinv_0_lt_compat; exact HL.
      - rewrite Rmult_0_l. exact Hp. }
    unfold marginal in Hm. apply sumL_pos_ex in Hm as (z & Hz & HJ).
    apply filter_In in Hz as [Hz He]. apply Nat.eqb_eq in He. apply in_all_paths in Hz.
    pose proof (em_support z Hz HJ) as (H0 & H1 & H2).
    assert (HJ' : 0 < joint T pi' A' B' z) by (apply joint_pos; assumption).
    assert (HL' : 0 < likelihood nc T pi' A' B').
    { unfold likelihood. eapply Rlt_le_trans; [exact HJ'|].
      apply (sumL_ge_term (joint T pi' A' B')); [|apply in_all_paths; exact Hz].
      intros y Hy. apply in_all_paths in Hy. apply (joint_nonneg nc); assumption. }
    unfold posterior. apply Rdiv_lt_0_compat; [|exact HL'].
    unfold marginal. eapply Rlt_le_trans; [exact HJ'|].
    apply (sumL_ge_term (joint T pi' A' B')).
    - intros y Hy. apply filter_In in Hy as [Hy _]. apply in_all_paths in Hy. apply (joint_nonneg nc); assumption.
    - apply filter_In. split; [apply in_all_paths; exact Hz|apply Nat.eqb_eq; exact He].
  Qed.
End Bound.

(** ** Double counting of transitions. *)
Section Counts.
  Variables (nc T : nat).
  Variables (pi : nat -> R) (A B : nat -> nat -> R).
  Hypothesis HT : (0 < T)%nat.

  Lemma expected_trans_row i : (i < nc)%nat ->
    sumn nc (expected_trans nc T pi A B i) = sumn (T - 1) (fun t => posterior nc T pi A B t i).
  Proof.
    intros Hi. unfold expected_trans, posterior.
    rewrite !sumn_div. f_equal.
    rewrite <- (sumL_sumn_swap _ nc (fun z j => joint T pi A B z * n_trans T i j z)).
    unfold marginal.
    transitivity (sumL (fun z => sumn (T - 1) (fun t => if Nat.eqb (nth t z 0%nat) i then joint T pi A B z else 0)) (all_paths nc T)).
    - apply sumL_ext. intros z Hz. apply in_all_paths in Hz as [Hl Hz].
      rewrite sumn_scal_l. unfold n_trans. rewrite sumn_swap.
      rewrite <- sumn_scal_l. apply sumn_ext. intros t Ht.
      rewrite (sumn_single _ _ (nth (S t) z 0%nat)); [|apply Hz; lia|].
      + rewrite Nat.eqb_refl, andb_true_r. destruct (Nat.eqb _ _); ring.
      + intros j Hj Hne. destruct (Nat.eqb_spec (nth (S t) z 0%nat) j); [congruence|].
        rewrite andb_false_r. reflexivity.
    - rewrite sumL_sumn_swap. apply sumn_ext. intros t Ht. symmetry. apply sumL_filter.
  Qed.
End Counts.
