(** * Rounding errors of the scaled forward pass. *)
From Verif Require Export Spec_round Inference_thms.

Section Within.
  Variables (u : R) (fp : fpmode).
  Hypothesis Hu : 0 <= u < 1.
  Hypothesis HF : rel_err u fp.
  Notation q := (1 - u).

  Lemma q_pow k : 0 < q ^ k <= 1.
  Proof. split; [apply pow_lt; lra|]. apply Rle_trans with (1 ^ k); [apply pow_incr; lra|rewrite pow1; lra]. Qed.
  Lemma w_refl x : within u 0 x x.
  Proof. split; simpl; lra. Qed.
  Lemma w_mono k l x y : within u k x y -> 0 <= x -> 0 <= y -> (k <= l)%nat -> within u l x y.
  Proof.
    intros [H1 H2] Hx Hy Hl. replace l with (k + (l - k))%nat by lia. pose proof (q_pow (l - k)) as Hq. pose proof (q_pow k) as Hk.
    split; rewrite pow_add, <- Rmult_assoc.
    - apply Rle_trans with (2 := H1). rewrite <- (Rmult_1_r (x * q ^ k)) at 2. apply Rmult_le_compat_l; [nra|lra].
    - apply Rle_trans with (2 := H2). rewrite <- (Rmult_1_r (y * q ^ k)) at 2. apply Rmult_le_compat_l; [nra|lra].
  Qed.
  Lemma w_trans k l x y z : within u k x y -> within u l y z -> within u (k + l) x z.
  Proof.
    intros [H1 H2] [H3 H4]. pose proof (q_pow k) as Hk. pose proof (q_pow l) as Hl. split; rewrite pow_add.
    - apply Rle_trans with (2 := H3). rewrite <- Rmult_assoc. apply Rmult_le_compat_r; lra.
    - apply Rle_trans with (2 := H2). rewrite (Rmult_comm (q ^ k)), <- Rmult_assoc. apply Rmult_le_compat_r; lra.
  Qed.
  Lemma w_mul k l x y x' y' : 0 <= x -> 0 <= y -> 0 <= x' -> 0 <= y' ->
    within u k x y -> within u l x' y' -> within u (k + l) (x * x') (y * y').
  Proof.
    intros Hx Hy Hx' Hy' [H1 H2] [H3 H4]. pose proof (q_pow k) as Hk. pose proof (q_pow l) as Hl. split; rewrite pow_add.
    - replace (x * x' * (q ^ k * q ^ l)) with ((x * q ^ k) * (x' * q ^ l)) by ring. apply Rmult_le_compat; nra.
    - replace (y * y' * (q ^ k * q ^ l)) with ((y * q ^ k) * (y' * q ^ l)) by ring. apply Rmult_le_compat; nra.
  Qed.
  Lemma w_sum k n f g : (forall i, (i < n)%nat -> within u k (f i) (g i)) -> within u k (sumn n f) (sumn n g).
  Proof.
    intros H. split; rewrite <- sumn_scal_r; apply sumn_le; intros i Hi; apply H; exact Hi.
  Qed.
  Lemma w_inv k x y : 0 < x -> 0 < y -> within u k x y -> within u k (/ x) (/ y).
  Proof.
    intros Hx Hy [H1 H2]. pose proof (q_pow k) as Hk. split.
    - apply Rmult_le_reg_l with (x * y); [nra|]. replace (x * y * (/ x * q ^ k)) with (y * q ^ k) by (field; lra).
      replace (x * y * / y) with x by (field; lra). exact H2.
    - apply Rmult_le_reg_l with (x * y); [nra|]. replace (x * y * (/ y * q ^ k)) with (x * q ^ k) by (field; lra).
      replace (x * y * / x) with y by (field; lra). exact H1.
  Qed.
  Lemma w_pos k x y : within u k x y -> 0 < y -> 0 < x.
  Proof. intros [_ H] Hy. pose proof (q_pow k) as Hk. nra. Qed.
  Lemma w_cancel k x y s : 0 < s -> within u k (x * s) (y * s) -> within u k x y.
  Proof.
    intros Hs [H1 H2]. split; apply Rmult_le_reg_r with s; try exact Hs; lra.
  Qed.
  Lemma w_ln k x y : 0 < x -> 0 < y -> within u k x y -> Rabs (ln y - ln x) <= INR k * - ln q.
  Proof.
    intros Hx Hy [H1 H2]. pose proof (q_pow k) as Hk.
    assert (E : ln (q ^ k) = INR k * ln q) by (apply ln_pow; lra).
    assert (G1 : ln (x * q ^ k) <= ln y) by (destruct H1 as [H1| ->]; [left; apply ln_increasing; nra|right; reflexivity]).
    assert (G2 : ln (y * q ^ k) <= ln x) by (destruct H2 as [H2| <-]; [left; apply ln_increasing; nra|right; reflexivity]).
    rewrite ln_mult in G1, G2 by lra. rewrite E in G1, G2. apply Rabs_le. lra.
  Qed.

  (** One rounded operation. *)
  Lemma fp_w x : 0 <= x -> exists y, fp x = Fin y /\ 0 <= y /\ within u 1 x y.
  Proof.
    intros Hx. destruct (HF x) as (d & E & Hd). exists (x * (1 + d)). split; [exact E|]. assert (Hd2 : - u <= d <= u) by (revert Hd; unfold Rabs; destruct (Rcase_abs d); lra). clear Hd.
    split; [apply Rmult_le_pos; lra|]. split; simpl; rewrite Rmult_1_r.
    - apply Rmult_le_compat_l; lra.
    - rewrite Rmult_assoc. rewrite <- (Rmult_1_r x) at 2. apply Rmult_le_compat_l; [exact Hx|]. nra.
  Qed.

  (** Rounded sums of non-negative terms. *)
  Lemma sum_w n (g : nat -> xnum) f k : (forall i, (i < n)%nat -> 0 <= f i /\ exists y, g i = Fin y /\ 0 <= y /\ within u k (f i) y) ->
    exists y, fold_left (fun acc i => xadd fp acc (g i)) (seq 0 n) (Fin 0) = Fin y /\ 0 <= y /\ within u (k + n) (sumn n f) y.
  Proof.
    induction n as [|n IH]; intros H.
    - exists 0. split; [reflexivity|]. split; [lra|]. simpl. split; simpl; lra.
    - destruct IH as (y & Ey & Hy & Wy); [intros i Hi; apply H; lia|].
      destruct (H n) as (Hf & z & Ez & Hz & Wz); [lia|].
      assert (Hs : 0 <= sumn n f) by (apply sumn_nonneg; intros i Hi; apply H; lia).
      destruct (fp_w (y + z)) as (w & Ew & Hw & Ww); [lra|]. exists w.
      rewrite seq_S, fold_left_app, Ey. cbn [fold_left Nat.add]. rewrite Ez. cbn [xadd]. split; [exact Ew|]. split; [exact Hw|].
      replace (k + S n)%nat with ((k + n) + 1)%nat by lia. apply w_trans with (y + z); [|exact Ww]. cbn [sumn].
      apply (w_mono k (k + n)) in Wz; [|assumption|assumption|lia]. destruct Wy, Wz. split; lra.
  Qed.

  Lemma fvec_of n (g : nat -> xnum) (Q : nat -> R -> Prop) : (forall i, (i < n)%nat -> exists y, g i = Fin y /\ Q i y) ->
    exists v, tab n g = fvec n v /\ forall i, (i < n)%nat -> Q i (v i).
  Proof.
    intros H. exists (fun i => match g i with Fin y => y | _ => 0 end). split.
    - apply tab_ext. intros i Hi. destruct (H i Hi) as (y & E & _). rewrite E. reflexivity.
    - intros i Hi. destruct (H i Hi) as (y & E & HQ). rewrite E. exact HQ.
  Qed.

  (** Summing, dividing and rescaling one row. *)
  Lemma rescale_w n r a K T s0 scale row : (0 < n)%nat -> 0 < s0 ->
    (forall j, (j < n)%nat -> 0 <= r j /\ 0 <= a j /\ within u K (a j * s0) (r j)) ->
    rescale fp (fvec n r) = Ok (scale, row) -> T = sumn n a ->
    exists s w, scale = Fin s /\ 0 < s /\ row = fvec n w /\ 0 < T
      /\ (forall j, (j < n)%nat -> 0 <= w j /\ within u (K + 1) (a j * (s0 * s)) (w j))
      /\ within u (K + n + 1) T (/ (s0 * s)).
  Proof.
    intros Hn Hs0 H E ->. unfold rescale in E.
    destruct (sum_w n (fun j => Fin (r j)) (fun j => a j * s0) K) as (y & Ey & Hy & Wy).
    { intros j Hj. destruct (H j Hj) as (H1 & H2 & H3). split; [apply Rmult_le_pos; lra|]. exists (r j). split; [reflexivity|]. split; assumption. }
    assert (Es : xsum fp (fvec n r) = Fin y).
    { rewrite <- Ey. unfold xsum, fvec, tab. clear. generalize (Fin 0). induction (seq 0 n) as [|i l IH]; intros z; [reflexivity|].
      simpl. apply IH. }
    rewrite Es in E. destruct (xltb (Fin y) (Fin min_sum)) eqn:Ec; [discriminate|]. injection E as <- <-.
    assert (Hy' : 0 < y).
    { apply Rlt_le_trans with min_sum; [apply Rinv_0_lt_compat, pow_lt; lra|]. cbn [xltb] in Ec. unfold Rltb in Ec.
      destruct (Rlt_dec y min_sum); [discriminate|lra]. }
    unfold xdiv. destruct (Req_EM_T y 0); [lra|].
    destruct (fp_w (1 / y)) as (s & E1 & Hs & Ws). { unfold Rdiv. rewrite Rmult_1_l. left. apply Rinv_0_lt_compat, Hy'. }
    rewrite E1. unfold Rdiv in Ws. rewrite Rmult_1_l in Ws.
    assert (Hiy : 0 < / y) by (apply Rinv_0_lt_compat, Hy').
    assert (Hs' : 0 < s). { destruct Ws as [W _]. simpl in W. nra. }
    destruct (fvec_of n (fun j => xmul fp (Fin (r j)) (Fin s)) (fun j z => 0 <= z /\ within u (K + 1) (a j * (s0 * s)) z)) as (w & Ew & Hw).
    { intros j Hj. destruct (H j Hj) as (H1 & H2 & H3). destruct (fp_w (r j * s)) as (z & Ez & Hz & Wz); [apply Rmult_le_pos; lra|].
      exists z. split; [exact Ez|]. split; [exact Hz|]. apply w_trans with (r j * s); [|exact Wz]. rewrite <- Rmult_assoc.
      rewrite <- (Nat.add_0_r K). apply w_mul; try lra; try (apply Rmult_le_pos; lra); [exact H3|apply w_refl]. }
    assert (P : 0 < sumn n (fun j => a j * s0)) by (apply (w_pos _ _ _ Wy Hy')).
    rewrite sumn_scal_r in P, Wy.
    exists s, w. split; [reflexivity|]. split; [exact Hs'|]. split.
    { rewrite <- Ew. unfold fvec, tab. rewrite map_map. reflexivity. }
    split; [nra|]. split; [exact Hw|].
    apply w_cancel with s0; [exact Hs0|]. replace (/ (s0 * s) * s0) with (/ s) by (field; lra).
    apply w_trans with y; [exact Wy|]. rewrite <- (Rinv_inv y). apply w_inv; assumption.
  Qed.

  (** The row before scaling. *)
  Lemma raw_w n A b v al K s0 : 0 < s0 -> nonneg2 n n A -> nonneg1 n b ->
    (forall i, (i < n)%nat -> 0 <= v i /\ 0 <= al i /\ within u K (al i * s0) (v i)) ->
    exists r, fwd_scaling_raw fp n (fmat n n A) (fvec n v) (fvec n b) = fvec n r
      /\ forall j, (j < n)%nat -> 0 <= r j /\ 0 <= sumn n (fun i => al i * A i j) * b j
           /\ within u (K + n + 2) (sumn n (fun i => al i * A i j) * b j * s0) (r j).
  Proof.
    intros Hs0 HA Hb H. unfold fwd_scaling_raw.
    apply (fvec_of n _ (fun j z => 0 <= z /\ 0 <= sumn n (fun i => al i * A i j) * b j
           /\ within u (K + n + 2) (sumn n (fun i => al i * A i j) * b j * s0) z)). intros j Hj.
    destruct (sum_w n (fun i => xmul fp (vget (fvec n v) i) (mget (fmat n n A) i j)) (fun i => al i * s0 * A i j) (K + 1)) as (y & Ey & Hy & Wy).
    { intros i Hi. destruct (H i Hi) as (H1 & H2 & H3). specialize (HA i j Hi Hj).
      assert (0 <= al i * s0) by (apply Rmult_le_pos; lra). split; [apply Rmult_le_pos; lra|].
      rewrite vget_fvec, mget_fmat by assumption. cbn [xmul].
      destruct (fp_w (v i * A i j)) as (z & Ez & Hz & Wz); [apply Rmult_le_pos; lra|]. exists z. split; [exact Ez|]. split; [exact Hz|].
      apply w_trans with (v i * A i j); [|exact Wz]. rewrite <- (Nat.add_0_r K). apply w_mul; try lra; [exact H3|apply w_refl]. }
    rewrite Ey, vget_fvec by exact Hj. cbn [xmul]. specialize (Hb j Hj).
    destruct (fp_w (y * b j)) as (z & Ez & Hz & Wz); [apply Rmult_le_pos; lra|]. exists z. split; [exact Ez|]. split; [exact Hz|].
    assert (Hp : 0 <= sumn n (fun i => al i * A i j)).
    { apply sumn_nonneg. intros i Hi. apply Rmult_le_pos; [apply H; exact Hi|apply HA; assumption]. }
    split; [apply Rmult_le_pos; lra|].
    replace (K + n + 2)%nat with ((K + 1 + n + 0) + 1)%nat by lia. apply w_trans with (y * b j); [|exact Wz].
    replace (sumn n (fun i => al i * A i j) * b j * s0) with (sumn n (fun i => al i * s0 * A i j) * b j).
    2:{ rewrite (sumn_ext n (fun i => al i * s0 * A i j) (fun i => al i * A i j * s0)) by (intros; ring). rewrite sumn_scal_r. ring. }
    apply w_mul; try lra; [|exact Wy|apply w_refl]. apply sumn_nonneg. intros i Hi.
    destruct (H i Hi) as (H1 & H2 & _). specialize (HA i j Hi Hj). apply Rmult_le_pos; [apply Rmult_le_pos; lra|exact HA].
  Qed.

  Variables (n : nat) (pi : nat -> R) (A B : nat -> nat -> R).
  Hypothesis Hn : (0 < n)%nat.
  Hypothesis Hpi : nonneg1 n pi.
  Hypothesis HA : nonneg2 n n A.
  Hypothesis HB : forall t i, (i < n)%nat -> 0 <= B t i.
  Notation al := (alpha n pi A B).
  Notation lam := (- ln q).

  Lemma lam_nonneg : 0 <= lam.
  Proof. assert (ln q <= ln 1); [|rewrite ln_1 in *; lra]. destruct (Req_dec u 0) as [->|N]; [rewrite Rminus_0_r; lra|left; apply ln_increasing; lra]. Qed.
  Lemma al_nonneg t : forall j, (j < n)%nat -> 0 <= al t j.
  Proof.
    induction t as [|t IH]; intros j Hj; cbn [alpha]; apply Rmult_le_pos; auto.
    apply sumn_nonneg. intros i Hi. apply Rmult_le_pos; auto.
  Qed.

  (** One accumulation of a logarithm. *)
  Lemma acc_w p l lam m s : 0 < s -> (1 <= p)%nat -> Rabs lam <= m -> Rabs (l - lam) <= ((1 + u) ^ p - 1) * m ->
    exists l', xsub fp (Fin l) (xlog fp (Fin s)) = Fin l' /\ Rabs (lam - ln s) <= m + Rabs (ln s)
      /\ Rabs (l' - (lam - ln s)) <= ((1 + u) ^ (S p) - 1) * (m + Rabs (ln s)).
  Proof.
    intros Hs Hp Hm Hl. unfold xsub, xlog. destruct (Rlt_dec 0 s); [|lra].
    destruct (HF (ln s)) as (d & E1 & Hd). rewrite E1. cbn [xopp xadd].
    destruct (HF (l + - (ln s * (1 + d)))) as (e & E2 & He). rewrite E2. eexists. split; [reflexivity|].
    assert (T : Rabs (lam - ln s) <= m + Rabs (ln s)). { apply Rle_trans with (1 := Rabs_triang lam (- ln s)). rewrite Rabs_Ropp. lra. }
    split; [exact T|].
    replace ((l + - (ln s * (1 + d))) * (1 + e) - (lam - ln s))
      with (((l - lam) * (1 + e) + lam * e) + (- (ln s) * ((1 + d) * (1 + e) - 1))) by ring.
    assert (P0 : 1 <= (1 + u) ^ p) by (apply pow_R1_Rle; lra).
    assert (P1 : 1 + u <= (1 + u) ^ p). { destruct p as [|p]; [lia|]. simpl. assert (1 <= (1 + u) ^ p) by (apply pow_R1_Rle; lra). nra. }
    assert (H1 : Rabs ((l - lam) * (1 + e)) <= ((1 + u) ^ p - 1) * m * (1 + u)).
    { rewrite Rabs_mult. apply Rmult_le_compat; try apply Rabs_pos; [exact Hl|]. apply Rle_trans with (1 := Rabs_triang 1 e). rewrite Rabs_R1. lra. }
    assert (H2 : Rabs (lam * e) <= m * u) by (rewrite Rabs_mult; apply Rmult_le_compat; try apply Rabs_pos; assumption).
    assert (H3 : Rabs (- (ln s) * ((1 + d) * (1 + e) - 1)) <= Rabs (ln s) * ((1 + u) * (1 + u) - 1)).
    { rewrite Rabs_mult, Rabs_Ropp. apply Rmult_le_compat_l; [apply Rabs_pos|].
      replace ((1 + d) * (1 + e) - 1) with (d + e + d * e) by ring.
      assert (Rabs (d * e) <= u * u) by (rewrite Rabs_mult; apply Rmult_le_compat; try apply Rabs_pos; assumption).
      pose proof (Rabs_triang (d + e) (d * e)). pose proof (Rabs_triang d e). lra. }
    pose proof (Rabs_triang ((l - lam) * (1 + e) + lam * e) (- (ln s) * ((1 + d) * (1 + e) - 1))) as T1.
    pose proof (Rabs_triang ((l - lam) * (1 + e)) (lam * e)) as T2. cbn [pow].
    pose proof (Rabs_pos (ln s)) as Hln.
    assert (Rabs (ln s) * ((1 + u) * (1 + u) - 1) <= Rabs (ln s) * ((1 + u) * (1 + u) ^ p - 1)).
    { apply Rmult_le_compat_l; [exact Hln|]. nra. }
    lra.
  Qed.

  (** The rest of the loop after observation [t]. *)
  Lemma loop_w m : forall t K p prev v s0 l lm M lp fwd scs,
    fwd_scaling_loop fp n (fmat n n A) (Fin l) prev (map (fun k => fvec n (B k)) (seq (S t) m)) = Ok (lp, fwd, scs) ->
    prev = fvec n v -> 0 < s0 -> (forall i, (i < n)%nat -> 0 <= v i /\ within u K (al t i * s0) (v i)) ->
    0 < sumn n (al t) -> within u (K + n) (sumn n (al t)) (/ s0) ->
    (1 <= p)%nat -> lm = - ln s0 -> Rabs lm <= M -> Rabs (l - lm) <= ((1 + u) ^ p - 1) * M ->
    exists ss r M', scs = map Fin ss /\ length ss = m /\ Forall (Rlt 0) ss
      /\ lp = Fin r /\ 0 < sumn n (al (t + m))
      /\ within u (K + m * (n + 3) + n) (sumn n (al (t + m))) (/ s0 * prodL Rinv ss)
      /\ M' <= M + sumn m (fun k => Rabs (ln (sumn n (al (t + S k)) / sumn n (al (t + k))))
                                  + 2 * INR (K + m * (n + 3) + n) * lam)
      /\ Rabs (ln (/ s0 * prodL Rinv ss)) <= M'
      /\ Rabs (r - ln (/ s0 * prodL Rinv ss)) <= ((1 + u) ^ (p + m) - 1) * M'.
  Proof.
    pose proof lam_nonneg as Hlam.
    induction m as [|m IH]; intros t K p prev v s0 l lm M lp fwd scs E Hprev Hs0 Hv Hpos Hw Hp Hlm HM Hl.
    - injection E as <- <- <-. exists [], l, M. cbn [map length prodL sumn]. rewrite Rmult_1_r, !Nat.add_0_r.
      rewrite ln_Rinv by exact Hs0. rewrite <- Hlm.
      split; [reflexivity|]. split; [reflexivity|]. split; [constructor|]. split; [reflexivity|]. split; [exact Hpos|].
      split; [exact Hw|]. split; [lra|]. split; assumption.
    - cbn [seq map fwd_scaling_loop] in E. rewrite Hprev in E.
      destruct (raw_w n A (B (S t)) v (al t) K s0 Hs0 HA) as (r0 & Er & Hr).
      { intros i Hi. apply HB. exact Hi. }
      { intros i Hi. split; [apply Hv; exact Hi|]. split; [apply al_nonneg; exact Hi|apply Hv; exact Hi]. }
      rewrite Er in E. destruct (rescale fp (fvec n r0)) as [[scale row]|] eqn:Es; cbn [bind] in E; [|discriminate].
      destruct (rescale_w n r0 (al (S t)) (K + n + 2) (sumn n (al (S t))) s0 scale row Hn Hs0) as (s & w & -> & Hs & -> & Hpos' & Hw1 & Hw2);
        [intros j Hj; apply Hr; exact Hj|exact Es|reflexivity|].
      destruct (acc_w p l lm M s Hs Hp HM Hl) as (l' & El & HM' & Hl').
      rewrite El in E. destruct (fwd_scaling_loop fp n _ _ _ _) as [[[lp' fwd'] scs']|] eqn:Eloop; cbn [bind] in E; [|discriminate].
      assert (H3 : lp' = lp /\ Fin s :: scs' = scs) by (split; congruence). destruct H3 as [-> <-]. clear E.
      assert (Hss : 0 < s0 * s) by nra.
      destruct (IH (S t) (K + (n + 3))%nat (S p) (fvec n w) w (s0 * s) l' (lm - ln s) (M + Rabs (ln s)) lp fwd' scs' Eloop eq_refl Hss)
        as (ss & r & M' & -> & Hlen & Hall & -> & Hpos2 & Hwin & HMM & Habs & Hr').
      + intros i Hi. destruct (Hw1 i Hi) as [G1 G2]. split; [exact G1|]. replace (K + (n + 3))%nat with (K + n + 2 + 1)%nat by lia. exact G2.
      + exact Hpos'.
      + replace (K + (n + 3) + n)%nat with (K + n + 2 + n + 1)%nat by lia. exact Hw2.
      + lia.
      + rewrite Hlm, ln_mult by assumption. ring.
      + exact HM'.
      + exact Hl'.
      + replace (t + S m)%nat with (S t + m)%nat by lia.
        assert (Ep : / s0 * prodL Rinv (s :: ss) = / (s0 * s) * prodL Rinv ss) by (cbn [prodL]; rewrite Rinv_mult; ring).
        exists (s :: ss), r, M'. rewrite Ep. split; [reflexivity|]. split; [cbn [length]; congruence|].
        split; [constructor; assumption|]. split; [reflexivity|]. split; [exact Hpos2|]. 
        replace (K + S m * (n + 3) + n)%nat with (K + (n + 3) + m * (n + 3) + n)%nat by (simpl; lia).
        split; [exact Hwin|]. split; [|split; [exact Habs|replace (p + S m)%nat with (S p + m)%nat by lia; exact Hr']].
        apply Rle_trans with (1 := HMM). rewrite sumn_S_l, Nat.add_0_r. replace (t + 1)%nat with (S t) by lia.
        rewrite (sumn_ext m (fun k => Rabs (ln (sumn n (al (S t + S k)) / sumn n (al (S t + k)))) + _)
          (fun k => Rabs (ln (sumn n (al (t + S (S k))) / sumn n (al (t + S k)))) + 2 * INR (K + (n + 3) + m * (n + 3) + n) * lam))
          by (intros k _; replace (t + S (S k))%nat with (S t + S k)%nat by lia; replace (t + S k)%nat with (S t + k)%nat by lia; reflexivity).
        enough (G : Rabs (ln s) <= Rabs (ln (sumn n (al (S t)) / sumn n (al t))) + 2 * INR (K + (n + 3) + m * (n + 3) + n) * lam) by lra.
        assert (Hi : 0 < / s0) by (apply Rinv_0_lt_compat; exact Hs0). assert (Hi' : 0 < / (s0 * s)) by (apply Rinv_0_lt_compat; exact Hss).
        pose proof (w_ln _ _ _ Hpos Hi Hw) as A1. pose proof (w_ln _ _ _ Hpos' Hi' Hw2) as A2.
        rewrite ln_Rinv in A1, A2 by assumption. rewrite ln_mult in A2 by assumption. unfold Rdiv. rewrite ln_mult by (try apply Rinv_0_lt_compat; assumption).
        rewrite ln_Rinv by assumption.
        assert (I1 : INR (K + n) * lam <= INR (K + (n + 3) + m * (n + 3) + n) * lam) by (apply Rmult_le_compat_r; [exact Hlam|apply le_INR; lia]).
        assert (I2 : INR (K + n + 2 + n + 1) * lam <= INR (K + (n + 3) + m * (n + 3) + n) * lam) by (apply Rmult_le_compat_r; [exact Hlam|apply le_INR; lia]).
        revert A1 A2. unfold Rabs. repeat match goal with |- context[Rcase_abs ?z] => destruct (Rcase_abs z) end; lra.
  Qed.

  (** No underflow is reported if the exact sums stay above the threshold by a margin. *)
  Lemma rescale_ok r a K s0 : 0 < s0 ->
    (forall j, (j < n)%nat -> 0 <= r j /\ 0 <= a j /\ within u K (a j * s0) (r j)) ->
    min_sum <= sumn n a * s0 * q ^ (K + n) -> exists scale row, rescale fp (fvec n r) = Ok (scale, row).
  Proof.
    intros Hs0 H Hm. unfold rescale.
    destruct (sum_w n (fun j => Fin (r j)) (fun j => a j * s0) K) as (y & Ey & Hy & Wy).
    { intros j Hj. destruct (H j Hj) as (H1 & H2 & H3). split; [apply Rmult_le_pos; lra|]. exists (r j). split; [reflexivity|]. split; assumption. }
    assert (Es : xsum fp (fvec n r) = Fin y).
    { rewrite <- Ey. unfold xsum, fvec, tab. clear. generalize (Fin 0). induction (seq 0 n) as [|i l IH]; intros z; [reflexivity|].
      simpl. apply IH. }
    rewrite Es. rewrite sumn_scal_r in Wy. destruct Wy as [Wy _]. cbn [xltb]. unfold Rltb.
    destruct (Rlt_dec y min_sum) as [Hlt|_]; [lra|]. eexists. eexists. reflexivity.
  Qed.

  Lemma loop_ok m : forall t K prev v s0 lp,
    prev = fvec n v -> 0 < s0 -> (forall i, (i < n)%nat -> 0 <= v i /\ within u K (al t i * s0) (v i)) ->
    0 < sumn n (al t) -> within u (K + n) (sumn n (al t)) (/ s0) ->
    (forall k, (k < m)%nat -> min_sum <= sumn n (al (t + S k)) / sumn n (al (t + k)) * q ^ (2 * (K + m * (n + 3) + n))) ->
    exists res, fwd_scaling_loop fp n (fmat n n A) lp prev (map (fun k => fvec n (B k)) (seq (S t) m)) = Ok res.
  Proof.
    induction m as [|m IH]; intros t K prev v s0 lp Hprev Hs0 Hv Hpos Hw Hm; [eexists; reflexivity|].
    cbn [seq map fwd_scaling_loop]. rewrite Hprev.
    destruct (raw_w n A (B (S t)) v (al t) K s0 Hs0 HA) as (r0 & Er & Hr).
    { intros i Hi. apply HB. exact Hi. }
    { intros i Hi. split; [apply Hv; exact Hi|]. split; [apply al_nonneg; exact Hi|apply Hv; exact Hi]. }
    rewrite Er. destruct (rescale_ok r0 (al (S t)) (K + n + 2) s0 Hs0) as (scale & row & Es).
    { intros j Hj. apply Hr; exact Hj. }
    { specialize (Hm 0%nat ltac:(lia)). rewrite Nat.add_0_r, Nat.add_1_r in Hm. apply Rle_trans with (1 := Hm).
      destruct Hw as [_ Hw]. pose proof (q_pow (K + n)) as Q1.
      assert (Hi : / sumn n (al t) * q ^ (K + n) <= s0).
      { apply Rmult_le_reg_l with (sumn n (al t) * / s0); [apply Rmult_lt_0_compat; [exact Hpos|apply Rinv_0_lt_compat; exact Hs0]|].
        replace (sumn n (al t) * / s0 * (/ sumn n (al t) * q ^ (K + n))) with (/ s0 * q ^ (K + n)) by (field; lra).
        replace (sumn n (al t) * / s0 * s0) with (sumn n (al t)) by (field; lra). exact Hw. }
      assert (Hal : 0 <= sumn n (al (S t))) by (apply sumn_nonneg; intros j Hj; apply al_nonneg; exact Hj).
      pose proof (q_pow (K + n + 2 + n)) as Q2.
      apply Rle_trans with (sumn n (al (S t)) * (/ sumn n (al t) * q ^ (K + n)) * q ^ (K + n + 2 + n)).
      - replace (2 * (K + S m * (n + 3) + n))%nat with ((K + n) + (K + n + 2 + n) + (2 * m * (n + 3) + n + 4))%nat by ring.
        rewrite !pow_add. pose proof (q_pow (2 * m * (n + 3) + n + 4)) as Q3.
        assert (0 <= sumn n (al (S t)) / sumn n (al t)) by (apply Rmult_le_pos; [exact Hal|left; apply Rinv_0_lt_compat; exact Hpos]).
        rewrite <- !pow_add. set (X := q ^ (K + n)) in *. set (Y := q ^ (K + n + 2 + n)) in *. set (Z := q ^ (2 * m * (n + 3) + n + 4)) in *.
        replace (q ^ (K + n + (K + n + 2 + n) + (2 * m * (n + 3) + n + 4))) with (X * Y * Z) by (unfold X, Y, Z; rewrite !pow_add; ring).
        replace (sumn n (al (S t)) * (/ sumn n (al t) * X) * Y) with (sumn n (al (S t)) / sumn n (al t) * (X * Y) * 1) by (unfold Rdiv; ring).
        rewrite <- Rmult_assoc. apply Rmult_le_compat_l; [|lra]. apply Rmult_le_pos; nra.
      - apply Rmult_le_compat_r; [lra|]. apply Rmult_le_compat_l; assumption. }
    rewrite Es. cbn [bind].
    destruct (rescale_w n r0 (al (S t)) (K + n + 2) (sumn n (al (S t))) s0 scale row Hn Hs0) as (s & w & -> & Hs & -> & Hpos' & Hw1 & Hw2);
      [intros j Hj; apply Hr; exact Hj|exact Es|reflexivity|].
    destruct (IH (S t) (K + (n + 3))%nat (fvec n w) w (s0 * s) (xsub fp lp (xlog fp (Fin s))) eq_refl) as (((lp' & fwd') & scs') & E').
    - nra.
    - intros i Hi. destruct (Hw1 i Hi) as [G1 G2]. split; [exact G1|]. replace (K + (n + 3))%nat with (K + n + 2 + 1)%nat by lia. exact G2.
    - exact Hpos'.
    - replace (K + (n + 3) + n)%nat with (K + n + 2 + n + 1)%nat by lia. exact Hw2.
    - intros k Hk. replace (K + (n + 3) + m * (n + 3) + n)%nat with (K + S m * (n + 3) + n)%nat by (simpl; lia).
      replace (S t + S k)%nat with (t + S (S k))%nat by lia. replace (S t + k)%nat with (t + S k)%nat by lia. apply Hm. lia.
    - rewrite E'. cbn [bind]. eexists. reflexivity.
  Qed.

  (** The first row. *)
  Lemma first_w : exists r, tab n (fun i => xmul fp (vget (fvec n pi) i) (vget (fvec n (B 0%nat)) i)) = fvec n r
    /\ forall j, (j < n)%nat -> 0 <= r j /\ 0 <= al 0 j /\ within u 1 (al 0 j * 1) (r j).
  Proof.
    apply (fvec_of n _ (fun j z => 0 <= z /\ 0 <= al 0 j /\ within u 1 (al 0 j * 1) z)). intros j Hj. rewrite !vget_fvec by exact Hj. cbn [xmul].
    destruct (fp_w (pi j * B 0%nat j)) as (z & E & Hz & Wz); [apply Rmult_le_pos; auto|].
    exists z. split; [exact E|]. split; [exact Hz|]. split; [apply al_nonneg; exact Hj|]. rewrite Rmult_1_r. exact Wz.
  Qed.

  Lemma rows_seq T : rows (fmat (S T) n B) = fvec n (B 0%nat) :: map (fun k => fvec n (B k)) (seq 1 T).
  Proof. unfold fmat, mtab; cbn [rows]; rewrite tab_S. f_equal. unfold tab. rewrite <- seq_shift, map_map. reflexivity. Qed.
  Lemma lik_al t : lik_upto n pi A B (S t) = sumn n (al t).
  Proof. apply likelihood_alpha. Qed.

  Lemma forward_w T lp fwd scs :
    forward_scaling fp (fvec n pi) (fmat n n A) (fmat (S T) n B) = Ok (lp, fwd, scs) ->
    let k := (S T * (n + 3) + n)%nat in
    exists ss r M, scs = map Fin ss /\ length ss = S T /\ Forall (Rlt 0) ss /\ lp = Fin r
      /\ 0 < likelihood n (S T) pi A B
      /\ within u k (likelihood n (S T) pi A B) (prodL Rinv ss)
      /\ M <= sumn (S T) (fun t => Rabs (ln (cond_lik n pi A B t)) + 2 * INR k * lam)
      /\ Rabs (ln (prodL Rinv ss)) <= M
      /\ Rabs (r - ln (prodL Rinv ss)) <= ((1 + u) ^ (T + 2) - 1) * M.
  Proof.
    intros E k. pose proof lam_nonneg as Hlam. unfold forward_scaling in E. rewrite (shape_guard_ok n T) in E by (try reflexivity; apply nrow_mtab).
    rewrite rows_seq in E. cbn [ncol fmat mtab] in E. destruct first_w as (r0 & Er & Hr). rewrite Er in E.
    destruct (rescale fp (fvec n r0)) as [[scale row]|] eqn:Es; cbn [bind] in E; [|discriminate].
    destruct (rescale_w n r0 (al 0) 1 (sumn n (al 0)) 1 scale row Hn Rlt_0_1 Hr Es eq_refl) as (s & w & -> & Hs & -> & Hpos & Hw1 & Hw2).
    destruct (acc_w 1 0 0 0 s Hs (le_n 1)) as (l & El & HM & Hl); [rewrite Rabs_R0; lra|rewrite Rminus_0_r, Rabs_R0; lra|].
    rewrite El in E. change (mtab n n (fun i j => Fin (A i j))) with (fmat n n A) in E.
    destruct (fwd_scaling_loop fp n _ _ _ _) as [[[lp' fwd'] scs']|] eqn:Eloop; cbn [bind] in E; [|discriminate].
    assert (H3 : lp' = lp /\ Fin s :: scs' = scs) by (split; congruence). destruct H3 as [-> <-]. clear E.
    rewrite Rmult_1_l in Hw2. assert (Hi : 0 < / s) by (apply Rinv_0_lt_compat; exact Hs).
    destruct (loop_w T 0%nat (n + 3) 2 (fvec n w) w s l (0 - ln s) (0 + Rabs (ln s)) lp fwd' scs' Eloop eq_refl Hs)
      as (ss & r & M & -> & Hlen & Hall & -> & Hpos2 & Hwin & HMM & Habs & Hr'); try assumption.
    - intros i Hi'. destruct (Hw1 i Hi') as [G1 G2]. split; [exact G1|]. rewrite Rmult_1_l in G2. apply (w_mono 2); [exact G2| |exact G1|lia].
      apply Rmult_le_pos; [apply al_nonneg; exact Hi'|lra].
    - apply (w_mono (1 + n + 1)); [exact Hw2|lra|lra|lia].
    - lia.
    - ring.
    - replace (n + 3 + T * (n + 3) + n)%nat with k in * by (unfold k; simpl; lia). cbn [Nat.add] in Hpos2, Hwin, HMM.
      exists (s :: ss), r, M. cbn [prodL]. rewrite likelihood_alpha. split; [reflexivity|]. split; [cbn [length]; congruence|].
      split; [constructor; assumption|]. split; [reflexivity|]. split; [exact Hpos2|]. split; [exact Hwin|].
      split; [|split; [exact Habs|rewrite (Nat.add_comm T 2); exact Hr']].
      apply Rle_trans with (1 := HMM). rewrite sumn_S_l. unfold cond_lik at 1. rewrite lik_al. cbn [lik_upto]. unfold Rdiv at 2. rewrite Rinv_1, Rmult_1_r.
      rewrite (sumn_ext T (fun k0 => Rabs (ln (sumn n (al (S k0)) / sumn n (al k0))) + _) (fun t => Rabs (ln (cond_lik n pi A B (S t))) + 2 * INR k * lam))
        by (intros t _; unfold cond_lik; rewrite !lik_al; reflexivity).
      enough (Rabs (ln s) <= Rabs (ln (sumn n (al 0))) + 2 * INR k * lam) by lra.
      pose proof (w_ln _ _ _ Hpos Hi Hw2) as A1. rewrite ln_Rinv in A1 by exact Hs.
      assert (I2 : INR (1 + n + 1) * lam <= INR k * lam) by (apply Rmult_le_compat_r; [exact Hlam|apply le_INR; unfold k; simpl; lia]).
      assert (I3 : 0 <= INR k * lam) by (apply Rmult_le_pos; [apply pos_INR|exact Hlam]).
      revert A1. unfold Rabs. repeat match goal with |- context[Rcase_abs ?z] => destruct (Rcase_abs z) end; lra.
  Qed.

  Lemma forward_returns T :
    (forall t, (t <= T)%nat -> min_sum <= cond_lik n pi A B t * q ^ (2 * (S T * (n + 3) + n))) ->
    exists res, forward_scaling fp (fvec n pi) (fmat n n A) (fmat (S T) n B) = Ok res.
  Proof.
    intros H. unfold forward_scaling. rewrite (shape_guard_ok n T) by (try reflexivity; apply nrow_mtab).
    rewrite rows_seq. cbn [ncol fmat mtab]. destruct first_w as (r0 & Er & Hr). rewrite Er.
    destruct (rescale_ok r0 (al 0) 1 1 Rlt_0_1 Hr) as (scale & row & Es).
    { rewrite Rmult_1_r. specialize (H 0%nat ltac:(lia)). apply Rle_trans with (1 := H). unfold cond_lik. rewrite lik_al. cbn [lik_upto].
      unfold Rdiv. rewrite Rinv_1, Rmult_1_r. apply Rmult_le_compat_l; [apply sumn_nonneg; intros j Hj; apply al_nonneg; exact Hj|].
      replace (2 * (S T * (n + 3) + n))%nat with ((1 + n) + (2 * (S T * (n + 3) + n) - (1 + n)))%nat by (simpl; lia).
      rewrite (pow_add q (1 + n)). pose proof (q_pow (1 + n)). pose proof (q_pow (2 * (S T * (n + 3) + n) - (1 + n))). nra. }
    rewrite Es. cbn [bind].
    destruct (rescale_w n r0 (al 0) 1 (sumn n (al 0)) 1 scale row Hn Rlt_0_1 Hr Es eq_refl) as (s & w & -> & Hs & -> & Hpos & Hw1 & Hw2).
    rewrite Rmult_1_l in Hw2. assert (Hi : 0 < / s) by (apply Rinv_0_lt_compat; exact Hs).
    change (mtab n n (fun i j => Fin (A i j))) with (fmat n n A).
    destruct (loop_ok T 0%nat (n + 3) (fvec n w) w s (xsub fp (Fin 0) (xlog fp (Fin s))) eq_refl Hs) as (((lp & fwd) & scs) & E).
    - intros i Hi'. destruct (Hw1 i Hi') as [G1 G2]. split; [exact G1|]. rewrite Rmult_1_l in G2. apply (w_mono 2); [exact G2| |exact G1|lia].
      apply Rmult_le_pos; [apply al_nonneg; exact Hi'|lra].
    - exact Hpos.
    - apply (w_mono (1 + n + 1)); [exact Hw2|lra|lra|lia].
    - intros t Ht. replace (n + 3 + T * (n + 3) + n)%nat with (S T * (n + 3) + n)%nat by (simpl; lia). cbn [Nat.add].
      specialize (H (S t) ltac:(lia)). unfold cond_lik in H. rewrite !lik_al in H. exact H.
    - rewrite E. cbn [bind]. eexists. reflexivity.
  Qed.
End Within.
