(** * Forward, backward and xi kernels compute path sums (exact arithmetic). *)
From Verif Require Export XRL Paths.

Section Kernels.
  Variables (nc T : nat) (pi : nat -> R) (A : nat -> nat -> R) (B : nat -> nat -> R).
  Hypothesis Hnc : (0 < nc)%nat.
  Hypothesis Hpi : nonneg1 nc pi.
  Hypothesis HA : nonneg2 nc nc A.
  Hypothesis HB : nonneg2 (S T) nc B.

  Notation al := (alpha nc pi A B).
  Notation be := (beta nc A B).

  Lemma al_nn t i : (t <= T)%nat -> (i < nc)%nat -> 0 <= al t i.
  Proof. apply alpha_nonneg; assumption. Qed.
  Lemma be_nn t k i : (t + k <= T)%nat -> (i < nc)%nat -> 0 <= be t k i.
  Proof. intros. apply (beta_nonneg nc A B HA T HB); assumption. Qed.

  Lemma shape_guard_ok {X} frames (k : res X) :
    ncol frames = nc -> nrow frames = S T ->
    shape_guard (fvec nc pi) (fmat nc nc A) frames k = k.
  Proof.
    intros Hc Hr. unfold shape_guard. rewrite Hc, Hr. unfold fvec, fmat.
    rewrite tab_length, nrow_mtab, ncol_mtab, !Nat.eqb_refl. reflexivity.
  Qed.

  (** ** Log-domain forward pass. *)
  Lemma fwd_log_loop_spec n s : (s + n <= T)%nat ->
    fwd_log_loop exact nc (lmat nc nc A) (tab nc (fun i => xln (al s i)))
      (tab n (fun k => tab nc (fun i => xln (B (S s + k)%nat i))))
    = tab n (fun k => tab nc (fun i => xln (al (S s + k)%nat i))).
  Proof.
    revert s; induction n as [|n IH]; intros s Hs; [reflexivity|].
    rewrite !tab_S. cbn [fwd_log_loop]. rewrite Nat.add_0_r.
    assert (E : fwd_log_row exact nc (lmat nc nc A) (tab nc (fun i => xln (al s i)))
                  (tab nc (fun i => xln (B (S s) i)))
                = tab nc (fun i => xln (al (S s) i))).
    { unfold fwd_log_row. apply tab_ext; intros j Hj. rewrite vget_tab by exact Hj.
      rewrite (tab_ext nc _ (fun i => xln (al s i * A i j))).
      2:{ intros i Hi. rewrite vget_tab, mget_lmat by assumption.
          apply xadd_xln; [apply al_nn; lia|apply HA; assumption]. }
      assert (Hn : forall i, (i < nc)%nat -> 0 <= al s i * A i j).
      { intros i Hi. apply Rmult_le_pos; [apply al_nn; lia|apply HA; assumption]. }
      rewrite logsumexp_xln by (try assumption; exact Hn).
      rewrite xadd_xln; [reflexivity|apply sumn_nonneg; exact Hn|apply HB; lia]. }
    rewrite E. f_equal.
    replace (tab n (fun i => tab nc (fun i0 => xln (B (S s + S i)%nat i0))))
      with (tab n (fun k => tab nc (fun i => xln (B (S (S s) + k)%nat i)))).
    2:{ apply tab_ext; intros k _. apply tab_ext; intros i _. do 2 f_equal. lia. }
    rewrite IH by lia. apply tab_ext; intros k _. apply tab_ext; intros i _. do 2 f_equal. lia.
  Qed.

  Theorem forward_log_spec :
    forward_log exact (fvec nc pi) (fmat nc nc A) (lmat (S T) nc B)
    = Ok (xln (likelihood nc (S T) pi A B), lmat (S T) nc al).
  Proof.
    unfold forward_log. rewrite shape_guard_ok by (try reflexivity; apply nrow_mtab).
    rewrite vlog_fvec, mlog_fmat by assumption.
    assert (ER : rows (lmat (S T) nc B) = tab nc (fun j => xln (B 0%nat j))
                 :: tab T (fun i => tab nc (fun j => xln (B (S i) j)))).
    { unfold lmat, mtab. cbn [rows]. rewrite tab_S. reflexivity. }
    rewrite ER. change (ncol (lmat (S T) nc B)) with nc.
    set (row0 := tab nc (fun i => xadd exact (vget (tab nc (fun i0 => xln (pi i0))) i)
                                   (vget (tab nc (fun j => xln (B 0%nat j))) i))).
    assert (E0 : row0 = tab nc (fun i => xln (al 0 i))).
    { unfold row0. apply tab_ext; intros i Hi. rewrite !vget_tab by exact Hi.
      rewrite xadd_xln; [reflexivity|apply Hpi; exact Hi|apply HB; lia]. }
    assert (EL : row0 :: fwd_log_loop exact nc (lmat nc nc A) row0
                   (tab T (fun i => tab nc (fun j => xln (B (S i) j))))
                 = tab (S T) (fun t => tab nc (fun i => xln (al t i)))).
    { rewrite tab_S, E0. f_equal. apply (fwd_log_loop_spec T 0). lia. }
    cbv zeta. rewrite EL. rewrite tab_last.
    rewrite logsumexp_xln; [|exact Hnc|intros i Hi; apply al_nn; lia].
    rewrite likelihood_alpha. reflexivity.
  Qed.

  (** ** Log-domain backward pass. *)
  Lemma bwd_log_loop_spec n s : (s + n <= T)%nat ->
    bwd_log_loop exact nc (lmat nc nc A)
      (tab (S n) (fun k => tab nc (fun i => xln (B (s + k)%nat i))))
    = tab (S n) (fun k => tab nc (fun i => xln (be (s + k)%nat (n - k) i))).
  Proof.
    revert s; induction n as [|n IH]; intros s Hs.
    - unfold tab at 1 3. cbn [seq map bwd_log_loop]. f_equal. apply tab_ext; intros i _.
      cbn [Nat.sub beta]. symmetry; apply xln_1.
    - rewrite tab_S. rewrite (tab_S (S n) (fun k => tab nc (fun i => xln (be (s + k)%nat _ i)))).
      replace (tab (S n) (fun i => tab nc (fun i0 => xln (B (s + S i)%nat i0))))
        with (tab (S n) (fun k => tab nc (fun i => xln (B (S s + k)%nat i)))).
      2:{ apply tab_ext; intros k _. apply tab_ext; intros i _. do 2 f_equal. lia. }
      specialize (IH (S s) ltac:(lia)).
      rewrite tab_S in IH |- *.
      cbn [bwd_log_loop] in IH |- *. rewrite IH. rewrite tab_S. cbn [hd].
      rewrite !Nat.add_0_r, Nat.sub_0_r. f_equal.
      + unfold bwd_log_row. apply tab_ext; intros i Hi.
        rewrite (tab_ext nc _ (fun j => xln (A i j * B (S s) j * be (S s) n j))).
        2:{ intros j Hj. rewrite mget_lmat, !vget_tab by assumption.
            rewrite xadd_xln by (try (apply HA; assumption); apply HB; lia).
            apply xadd_xln; [|apply be_nn; lia].
            apply Rmult_le_pos; [apply HA; assumption|apply HB; lia]. }
        rewrite logsumexp_xln; [rewrite Nat.sub_0_r; reflexivity|exact Hnc|].
        intros j Hj. repeat apply Rmult_le_pos; [apply HA; assumption|apply HB; lia|apply be_nn; lia].
      + rewrite (tab_S n (fun i => tab nc (fun i0 => xln (be (s + S i)%nat _ i0)))).
        f_equal.
        * apply tab_ext; intros i _. f_equal. f_equal; lia.
        * apply tab_ext; intros k _. apply tab_ext; intros i _. f_equal. f_equal; lia.
  Qed.

  Theorem backward_log_spec :
    backward_log exact (fvec nc pi) (fmat nc nc A) (lmat (S T) nc B)
    = Ok (lmat (S T) nc (fun t i => be t (T - t) i)).
  Proof.
    unfold backward_log. rewrite shape_guard_ok by (try reflexivity; apply nrow_mtab).
    rewrite mlog_fmat by assumption.
    pose proof (bwd_log_loop_spec T 0 ltac:(lia)) as H. cbn [Nat.add] in H.
    change (rows (lmat (S T) nc B)) with (tab (S T) (fun k => tab nc (fun i => xln (B k i)))).
    change (ncol (lmat (S T) nc B)) with nc. cbv zeta. rewrite H. reflexivity.
  Qed.

  Lemma nrow_lmat r c f : nrow (lmat r c f) = r.
  Proof. apply nrow_mtab. Qed.
  Lemma nrow_fmat r c f : nrow (fmat r c f) = r.
  Proof. apply nrow_mtab. Qed.
  Lemma ncol_lmat r c f : ncol (lmat r c f) = c.
  Proof. reflexivity. Qed.
  Lemma ncol_fmat r c f : ncol (fmat r c f) = c.
  Proof. reflexivity. Qed.

  (** ** Log-domain xi. *)
  Theorem compute_log_xi_sum_spec :
    0 < likelihood nc (S T) pi A B ->
    compute_log_xi_sum exact (lmat (S T) nc al) (fmat nc nc A)
      (lmat (S T) nc (fun t i => be t (T - t) i)) (lmat (S T) nc B)
    = Ok (lmat nc nc (expected_trans nc (S T) pi A B)).
  Proof.
    intros HL. unfold compute_log_xi_sum, xi_guard.
    rewrite !nrow_lmat, !ncol_lmat, !nrow_fmat, !ncol_fmat, !Nat.eqb_refl. cbn [negb orb Nat.eqb].
    rewrite mlog_fmat by assumption. replace (S T - 1)%nat with T by lia.
    cbv zeta. apply f_equal. apply mtab_ext; intros i j Hi Hj.
    assert (EP : logsumexp exact (nth T (rows (lmat (S T) nc al)) [])
                 = xln (likelihood nc (S T) pi A B)).
    { unfold lmat, mtab. cbn [rows]. rewrite tab_nth by lia.
      rewrite logsumexp_xln; [|exact Hnc|intros k Hk; apply al_nn; lia].
      rewrite likelihood_alpha. reflexivity. }
    rewrite EP.
    rewrite (fold_left_ext_in _ (fun acc t => logaddexp exact acc
       (xln (pair_marginal nc (S T) pi A B t i j / likelihood nc (S T) pi A B)))).
    2:{ intros a t Ht. apply in_seq in Ht. f_equal.
        rewrite !mget_lmat by lia.
        assert (0 <= al t i) by (apply al_nn; lia). assert (0 <= A i j) by (apply HA; assumption).
        assert (0 <= B (S t) j) by (apply HB; lia). assert (0 <= be (S t) (T - S t) j) by (apply be_nn; lia).
        assert (0 <= al t i * A i j) by (apply Rmult_le_pos; assumption).
        assert (0 <= al t i * A i j * B (S t) j) by (apply Rmult_le_pos; assumption).
        rewrite !xadd_xln by assumption.
        rewrite xsub_xln by (try assumption; apply Rmult_le_pos; assumption).
        rewrite pair_marginal_alpha_beta by (try assumption; lia). reflexivity. }
    rewrite fold_logaddexp_seq.
    - rewrite expected_trans_pairs, sumn_div. reflexivity.
    - intros t Ht. apply Rmult_le_pos; [|left; apply Rinv_0_lt_compat; exact HL].
      rewrite pair_marginal_alpha_beta by (try assumption; lia).
      repeat apply Rmult_le_pos; [apply al_nn; lia|apply HA; assumption|apply HB; lia|apply be_nn; lia].
  Qed.

  (** ** Scaled passes. *)
  (** Likelihood of the first [t] observations ([1] for none). *)
  Definition prefix_lik (t : nat) : R :=
    match t with O => 1 | S t' => likelihood nc (S t') pi A B end.

  Definition no_underflow : Prop :=
    forall t, (t <= T)%nat -> min_sum * prefix_lik t <= prefix_lik (S t).

  Lemma min_sum_pos : 0 < min_sum.
  Proof. unfold min_sum. apply Rinv_0_lt_compat. apply pow_lt. lra. Qed.

  Lemma prefix_pos : no_underflow -> forall t, (t <= S T)%nat -> 0 < prefix_lik t.
  Proof.
    intros Hu. induction t as [|t IH]; intros Ht; [simpl; lra|].
    specialize (Hu t ltac:(lia)). specialize (IH ltac:(lia)). pose proof min_sum_pos.
    assert (0 < min_sum * prefix_lik t) by (apply Rmult_lt_0_compat; assumption). lra.
  Qed.

  Lemma prefix_S t : prefix_lik (S t) = sumn nc (al t).
  Proof. unfold prefix_lik. apply likelihood_alpha. Qed.

  (** [rescale] of the unnormalised row at time [t]. *)
  Lemma rescale_spec t : 0 < prefix_lik t -> min_sum * prefix_lik t <= prefix_lik (S t) ->
    rescale exact (fvec nc (fun i => al t i / prefix_lik t))
    = Ok (Fin (prefix_lik t / prefix_lik (S t)),
          fvec nc (fun i => al t i / prefix_lik (S t))).
  Proof.
    intros Hp Hm. pose proof min_sum_pos.
    assert (Hp' : 0 < prefix_lik (S t)).
    { assert (0 < min_sum * prefix_lik t) by (apply Rmult_lt_0_compat; assumption). lra. }
    unfold rescale. rewrite xsum_fvec, sumn_div, <- prefix_S. cbn [xltb].
    assert (E : Rltb (prefix_lik (S t) / prefix_lik t) min_sum = false).
    { apply Rltb_false. apply (Rmult_le_reg_r (prefix_lik t)); [exact Hp|].
      unfold Rdiv. rewrite Rmult_assoc, Rinv_l, Rmult_1_r by lra. exact Hm. }
    rewrite E. cbn [xdiv].
    destruct (Req_EM_T (prefix_lik (S t) / prefix_lik t) 0) as [E0|E0].
    { exfalso. apply (Rlt_irrefl 0). rewrite <- E0 at 2. apply Rdiv_lt_0_compat; assumption. }
    unfold exact at 1. f_equal. f_equal.
    - f_equal. field. lra.
    - unfold fvec. rewrite tab_map. apply tab_ext; intros i _. cbn [xmul]. unfold exact. f_equal. field. lra.
  Qed.

  Lemma rescale_underflow t : 0 < prefix_lik t -> prefix_lik (S t) < min_sum * prefix_lik t ->
    rescale exact (fvec nc (fun i => al t i / prefix_lik t)) = Err (ValueError "underflow").
  Proof.
    intros Hp Hm. unfold rescale. rewrite xsum_fvec, sumn_div, <- prefix_S. cbn [xltb].
    assert (E : Rltb (prefix_lik (S t) / prefix_lik t) min_sum = true).
    { apply Rltb_true. apply (Rmult_lt_reg_r (prefix_lik t)); [exact Hp|].
      unfold Rdiv. rewrite Rmult_assoc, Rinv_l, Rmult_1_r by lra. exact Hm. }
    rewrite E. reflexivity.
  Qed.

  Lemma raw_spec s : (S s <= T)%nat -> 
    fwd_scaling_raw exact nc (fmat nc nc A) (fvec nc (fun i => al s i / prefix_lik (S s)))
      (fvec nc (B (S s)))
    = fvec nc (fun i => al (S s) i / prefix_lik (S s)).
  Proof.
    intros Hs. unfold fwd_scaling_raw. apply tab_ext; intros j Hj.
    rewrite (fold_left_ext_in _ (fun acc i => xadd exact acc
        (Fin (al s i / prefix_lik (S s) * A i j)))).
    2:{ intros a i Hi. apply in_seq in Hi. rewrite vget_fvec, mget_fmat by lia. reflexivity. }
    rewrite fold_xadd_seq, vget_fvec by exact Hj. cbn [xmul]. unfold exact. f_equal.
    rewrite (sumn_ext nc _ (fun i => al s i * A i j * / prefix_lik (S s))).
    - rewrite sumn_scal_r. cbn [alpha]. unfold Rdiv. ring.
    - intros; unfold Rdiv; ring.
  Qed.

  Lemma fwd_scaling_loop_spec n s : (s + n <= T)%nat ->
    (forall t, (s < t <= s + n)%nat -> min_sum * prefix_lik t <= prefix_lik (S t)) ->
    0 < prefix_lik (S s) ->
    fwd_scaling_loop exact nc (fmat nc nc A) (xln (prefix_lik (S s)))
      (fvec nc (fun i => al s i / prefix_lik (S s)))
      (tab n (fun k => fvec nc (B (S s + k)%nat)))
    = Ok (xln (prefix_lik (S (s + n))),
          tab n (fun k => fvec nc (fun i => al (S s + k)%nat i / prefix_lik (S (S s + k)))),
          tab n (fun k => Fin (prefix_lik (S s + k) / prefix_lik (S (S s + k))))).
  Proof.
    revert s; induction n as [|n IH]; intros s Hs Hu Hp.
    - simpl. rewrite Nat.add_0_r. reflexivity.
    - rewrite !tab_S. cbn [fwd_scaling_loop]. rewrite Nat.add_0_r.
      rewrite raw_spec by lia. pose proof (Hu (S s) ltac:(lia)) as Hus.
      rewrite (rescale_spec (S s) Hp Hus). cbn [bind].
      assert (Hp' : 0 < prefix_lik (S (S s))).
      { pose proof min_sum_pos. assert (0 < min_sum * prefix_lik (S s)) by (apply Rmult_lt_0_compat; assumption). lra. }
      assert (EL : xsub exact (xln (prefix_lik (S s)))
                     (xlog exact (Fin (prefix_lik (S s) / prefix_lik (S (S s)))))
                   = xln (prefix_lik (S (S s)))).
      { assert (0 < prefix_lik (S s) / prefix_lik (S (S s))) by (apply Rdiv_lt_0_compat; assumption).
        rewrite xlog_fin by lra. rewrite xsub_xln by lra. f_equal. field. lra. }
      rewrite EL.
      replace (tab n (fun i => fvec nc (B (S s + S i)%nat)))
        with (tab n (fun k => fvec nc (B (S (S s) + k)%nat))).
      2:{ apply tab_ext; intros k _. do 2 f_equal. lia. }
      rewrite IH; [|lia|intros t Ht; apply Hu; lia|exact Hp']. cbn [bind].
      f_equal. f_equal; [f_equal|].
      + do 3 f_equal. lia.
      + f_equal. apply tab_ext; intros k _.
        replace (S s + S k)%nat with (S (S s) + k)%nat by lia. reflexivity.
      + f_equal. apply tab_ext; intros k _.
        replace (S s + S k)%nat with (S (S s) + k)%nat by lia. reflexivity.
  Qed.

  Lemma row0_spec :
    tab nc (fun i => xmul exact (vget (fvec nc pi) i) (vget (fvec nc (B 0%nat)) i))
    = fvec nc (fun i => al 0 i / prefix_lik 0).
  Proof.
    apply tab_ext; intros i Hi. rewrite !vget_fvec by exact Hi. simpl. unfold exact. f_equal. field.
  Qed.

  Lemma fmat_rows_S : rows (fmat (S T) nc B) = fvec nc (B 0%nat) :: tab T (fun k => fvec nc (B (S k))).
  Proof. unfold fmat, mtab; cbn [rows]. rewrite tab_S. reflexivity. Qed.

  Theorem forward_scaling_spec : no_underflow ->
    forward_scaling exact (fvec nc pi) (fmat nc nc A) (fmat (S T) nc B)
    = Ok (xln (likelihood nc (S T) pi A B),
          fmat (S T) nc (fun t i => al t i / prefix_lik (S t)),
          fvec (S T) (fun t => prefix_lik t / prefix_lik (S t))).
  Proof.
    intros Hu. unfold forward_scaling. rewrite shape_guard_ok by (try reflexivity; apply nrow_mtab).
    rewrite fmat_rows_S. cbn [ncol fmat mtab]. rewrite row0_spec.
    pose proof (Hu 0%nat ltac:(lia)) as Hu0.
    rewrite (rescale_spec 0) by (try exact Hu0; simpl; lra). cbn [bind].
    pose proof (prefix_pos Hu 1 ltac:(lia)) as Hp1.
    assert (EL : xsub exact (Fin 0) (xlog exact (Fin (prefix_lik 0 / prefix_lik 1)))
                 = xln (prefix_lik 1)).
    { assert (0 < prefix_lik 0 / prefix_lik 1) by (apply Rdiv_lt_0_compat; [simpl; lra|assumption]).
      rewrite xlog_fin by lra. rewrite <- xln_1, xsub_xln by lra. f_equal.
      change (prefix_lik 0) with 1 in *. field. lra. }
    rewrite EL.
    pose proof (fwd_scaling_loop_spec T 0 ltac:(lia) (fun t Ht => Hu t ltac:(lia)) Hp1) as HL.
    cbn [Nat.add] in HL. rewrite HL. cbn [bind].
    unfold fmat at 1, fvec at 3, mtab. rewrite !tab_S. reflexivity.
  Qed.

  (** Underflow is reported, never silently ignored. *)
  Lemma fwd_scaling_loop_underflow n s lp : (s + n <= T)%nat -> 0 < prefix_lik (S s) ->
    ~ (forall t, (s < t <= s + n)%nat -> min_sum * prefix_lik t <= prefix_lik (S t)) ->
    fwd_scaling_loop exact nc (fmat nc nc A) lp
      (fvec nc (fun i => al s i / prefix_lik (S s)))
      (tab n (fun k => fvec nc (B (S s + k)%nat)))
    = Err (ValueError "underflow").
  Proof.
    revert s lp; induction n as [|n IH]; intros s lp Hs Hp Hu.
    - exfalso; apply Hu; intros; lia.
    - rewrite !tab_S. cbn [fwd_scaling_loop]. rewrite Nat.add_0_r.
      rewrite raw_spec by lia.
      destruct (Rle_dec (min_sum * prefix_lik (S s)) (prefix_lik (S (S s)))) as [H|H].
      + rewrite (rescale_spec (S s) Hp H). cbn [bind].
        replace (tab n (fun i => fvec nc (B (S s + S i)%nat)))
          with (tab n (fun k => fvec nc (B (S (S s) + k)%nat))).
        2:{ apply tab_ext; intros k _. do 2 f_equal. lia. }
        rewrite IH; [reflexivity|lia| |].
        * pose proof min_sum_pos. assert (0 < min_sum * prefix_lik (S s)) by (apply Rmult_lt_0_compat; assumption). lra.
        * intros Hall. apply Hu. intros t Ht. destruct (Nat.eq_dec t (S s)) as [->|]; [exact H|apply Hall; lia].
      + rewrite (rescale_underflow (S s) Hp) by lra. reflexivity.
  Qed.

  Theorem forward_scaling_underflow : ~ no_underflow ->
    forward_scaling exact (fvec nc pi) (fmat nc nc A) (fmat (S T) nc B)
    = Err (ValueError "underflow").
  Proof.
    intros Hu. unfold forward_scaling. rewrite shape_guard_ok by (try reflexivity; apply nrow_mtab).
    rewrite fmat_rows_S. cbn [ncol fmat mtab]. rewrite row0_spec.
    assert (Hp0 : 0 < prefix_lik 0) by (simpl; lra).
    destruct (Rle_dec (min_sum * prefix_lik 0) (prefix_lik 1)) as [H|H].
    - rewrite (rescale_spec 0 Hp0 H). cbn [bind].
      pose proof (fun lp Hp HH => fwd_scaling_loop_underflow T 0 lp ltac:(lia) Hp HH) as HL.
      cbn [Nat.add] in HL. rewrite HL; [reflexivity| |].
      + pose proof min_sum_pos. assert (0 < min_sum * prefix_lik 0) by (apply Rmult_lt_0_compat; assumption). lra.
      + intros Hall. apply Hu. intros t Ht. destruct (Nat.eq_dec t 0) as [->|]; [exact H|apply Hall; lia].
    - rewrite (rescale_underflow 0 Hp0) by lra. reflexivity.
  Qed.

  Lemma bwd_scaling_loop_spec n s : (s + n = T)%nat -> no_underflow ->
    bwd_scaling_loop exact nc (fmat nc nc A)
      (tab (S n) (fun k => fvec nc (B (s + k)%nat)))
      (tab (S n) (fun k => Fin (prefix_lik (s + k) / prefix_lik (S (s + k)))))
    = tab (S n) (fun k => fvec nc (fun i =>
        be (s + k)%nat (n - k) i * prefix_lik (s + k) / prefix_lik (S T))).
  Proof.
    intros Hs Hu. revert s Hs; induction n as [|n IH]; intros s Hs.
    - unfold tab at 1 2 3. cbn [seq map bwd_scaling_loop]. f_equal. apply tab_ext; intros i _.
      cbn [Nat.sub beta]. rewrite Nat.add_0_r in *. subst s. do 2 f_equal. ring.
    - rewrite (tab_S (S n) (fun k => fvec nc (B (s + k)%nat))).
      rewrite (tab_S (S n) (fun k => Fin _)).
      rewrite (tab_S (S n) (fun k => fvec nc (fun i => be (s + k)%nat _ i * _ / _))).
      replace (tab (S n) (fun i => fvec nc (B (s + S i)%nat)))
        with (tab (S n) (fun k => fvec nc (B (S s + k)%nat))).
      2:{ apply tab_ext; intros k _. do 2 f_equal. lia. }
      replace (tab (S n) (fun i => Fin (prefix_lik (s + S i) / prefix_lik (S (s + S i)))))
        with (tab (S n) (fun k => Fin (prefix_lik (S s + k) / prefix_lik (S (S s + k))))).
      2:{ apply tab_ext; intros k _. replace (s + S k)%nat with (S s + k)%nat by lia. reflexivity. }
      specialize (IH (S s) ltac:(lia)).
      set (frs := tab (S n) (fun k => fvec nc (B (S s + k)%nat))) in *.
      set (scs := tab (S n) (fun k => Fin (prefix_lik (S s + k) / prefix_lik (S (S s + k))))) in *.
      assert (Hfrs : frs = fvec nc (B (S s)) :: tab n (fun k => fvec nc (B (S s + S k)%nat))).
      { unfold frs. rewrite tab_S, Nat.add_0_r. reflexivity. }
      assert (EQ : bwd_scaling_loop exact nc (fmat nc nc A) (fvec nc (B (s + 0)%nat) :: frs)
                (Fin (prefix_lik (s + 0) / prefix_lik (S (s + 0))) :: scs)
              = bwd_scaling_row exact nc (fmat nc nc A) (fvec nc (B (S s)))
                  (hd [] (bwd_scaling_loop exact nc (fmat nc nc A) frs scs))
                  (Fin (prefix_lik (s + 0) / prefix_lik (S (s + 0))))
                :: bwd_scaling_loop exact nc (fmat nc nc A) frs scs).
      { rewrite Hfrs. reflexivity. }
      rewrite EQ, IH. rewrite !Nat.add_0_r, Nat.sub_0_r. f_equal.
      + rewrite tab_S. cbn [hd]. rewrite Nat.add_0_r, Nat.sub_0_r.
        unfold bwd_scaling_row. apply tab_ext; intros i Hi.
        rewrite (fold_left_ext_in _ (fun acc j => xadd exact acc
          (Fin (A i j * B (S s) j * (be (S s) n j * prefix_lik (S s) / prefix_lik (S T)))))).
        2:{ intros a j Hj. apply in_seq in Hj. rewrite mget_fmat, !vget_fvec by lia. reflexivity. }
        rewrite fold_xadd_seq. cbn [xmul]. unfold exact. f_equal.
        pose proof (prefix_pos Hu (S s) ltac:(lia)). pose proof (prefix_pos Hu (S T) ltac:(lia)).
        rewrite (sumn_ext nc _ (fun j => A i j * B (S s) j * be (S s) n j * (prefix_lik (S s) / prefix_lik (S T)))).
        2:{ intros j _. field. lra. }
        rewrite sumn_scal_r. cbn [beta]. field. lra.
      + apply tab_ext; intros k _. replace (s + S k)%nat with (S s + k)%nat by lia. reflexivity.
  Qed.

  Theorem backward_scaling_spec : no_underflow ->
    backward_scaling exact (fvec nc pi) (fmat nc nc A) (fmat (S T) nc B)
      (fvec (S T) (fun t => prefix_lik t / prefix_lik (S t)))
    = Ok (fmat (S T) nc (fun t i => be t (T - t) i * prefix_lik t / prefix_lik (S T))).
  Proof.
    intros Hu. unfold backward_scaling. unfold fvec at 1. rewrite tab_length.
    rewrite nrow_fmat, Nat.eqb_refl. cbn [negb].
    rewrite shape_guard_ok by (try reflexivity; apply nrow_mtab).
    pose proof (bwd_scaling_loop_spec T 0 eq_refl Hu) as H. cbn [Nat.add] in H.
    change (rows (fmat (S T) nc B)) with (tab (S T) (fun k => fvec nc (B k))).
    change (ncol (fmat (S T) nc B)) with nc. cbv zeta.
    change (fvec (S T) (fun t => prefix_lik t / prefix_lik (S t)))
      with (tab (S T) (fun k => Fin (prefix_lik k / prefix_lik (S k)))).
    rewrite H. reflexivity.
  Qed.

  Theorem compute_scaling_xi_sum_spec : no_underflow ->
    compute_scaling_xi_sum exact
      (fmat (S T) nc (fun t i => al t i / prefix_lik (S t))) (fmat nc nc A)
      (fmat (S T) nc (fun t i => be t (T - t) i * prefix_lik t / prefix_lik (S T)))
      (fmat (S T) nc B)
    = Ok (fmat nc nc (expected_trans nc (S T) pi A B)).
  Proof.
    intros Hu. unfold compute_scaling_xi_sum, xi_guard.
    rewrite !nrow_fmat, !ncol_fmat, !Nat.eqb_refl. cbn [negb orb]. replace (S T - 1)%nat with T by lia.
    cbv zeta. apply f_equal. apply mtab_ext; intros i j Hi Hj.
    rewrite (fold_left_ext_in _ (fun acc t => xadd exact acc
       (Fin (pair_marginal nc (S T) pi A B t i j / likelihood nc (S T) pi A B)))).
    2:{ intros a t Ht. apply in_seq in Ht. f_equal.
        rewrite !mget_fmat by lia. cbn [xmul]. unfold exact; cbn [xmul]. unfold exact. f_equal.
        rewrite pair_marginal_alpha_beta by (try assumption; lia).
        pose proof (prefix_pos Hu (S t) ltac:(lia)). pose proof (prefix_pos Hu (S T) ltac:(lia)) as HpT.
        change (prefix_lik (S T)) with (likelihood nc (S T) pi A B) in *. field. lra. }
    rewrite fold_xadd_seq, expected_trans_pairs, sumn_div. reflexivity.
  Qed.
End Kernels.
