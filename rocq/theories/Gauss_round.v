(** * Diagonal Gaussian log densities under rounding: never NaN. *)
From Verif Require Export Gauss_dens Float64.
From Flocq Require Import Core.

(** Integers up to 2^53 are represented exactly. *)
Definition exact_ints (fp : fpmode) : Prop := forall z, (Z.abs z <= 2 ^ 53)%Z -> fp (IZR z) = Fin (IZR z).

Lemma exact_monotone : monotone exact.
Proof. intros x y H. unfold xle, exact. cbn. apply Rleb_true. exact H. Qed.
Lemma exact_exact_ints : exact_ints exact.
Proof. intros z _. reflexivity. Qed.

Lemma b64_exact_ints : exact_ints b64.
Proof.
  intros z Hz. assert (Hb : Rabs (IZR z) <= bpow radix2 53).
  { rewrite <- abs_IZR. change (bpow radix2 53) with (IZR (2 ^ 53)). apply IZR_le. exact Hz. }
  assert (E : b64_round (IZR z) = IZR z).
  { unfold b64_round. apply round_generic; [apply valid_rnd_N|].
    destruct (Z.eq_dec (Z.abs z) (2 ^ 53)) as [E|E].
    - assert (F : generic_format radix2 b64_exp (bpow radix2 53)).
      { apply generic_format_bpow. unfold b64_exp, FLT_exp. lia. }
      assert (C : z = (2 ^ 53)%Z \/ z = (- 2 ^ 53)%Z) by lia.
      destruct C as [-> | ->]; [exact F|]. rewrite opp_IZR. apply generic_format_opp. exact F.
    - apply generic_format_FLT. exists (Float radix2 z 0); unfold F2R; cbn [Fnum Fexp bpow].
      + ring.
      + change (radix2 ^ 53)%Z with (2 ^ 53)%Z. lia.
      + lia. }
  unfold b64. rewrite E.
  assert (HM : bpow radix2 53 < b64_max) by (apply bpow_lt; lia).
  unfold Rabs in Hb. destruct (Rcase_abs (IZR z)).
  - destruct (Rle_dec b64_max (IZR z)); [lra|]. destruct (Rle_dec (IZR z) (- b64_max)); [lra|reflexivity].
  - destruct (Rle_dec b64_max (IZR z)); [lra|]. destruct (Rle_dec (IZR z) (- b64_max)); [lra|reflexivity].
Qed.

Lemma mget_map (c : nat) (g : vec -> vec) (x : list vec) t i : (t < length x)%nat ->
  mget (Mat c (map g x)) t i = vget (g (nth t x [])) i.
Proof.
  intros Ht. unfold mget. cbn [rows]. rewrite (nth_indep _ [] (g [])) by (rewrite map_length; exact Ht).
  rewrite (map_nth g). reflexivity.
Qed.

Section Round.
  Variable fp : fpmode.
  Hypothesis Hmono : monotone fp.
  Hypothesis Hint : exact_ints fp.

  (** [atleast z a]: [a] is +inf or a number not below the integer [z]. *)
  Definition atleast (z : Z) (a : xnum) : Prop := xle (Fin (IZR z)) a.

  Lemma atleast_cases z a : atleast z a -> a = PInf \/ exists r, a = Fin r /\ IZR z <= r.
  Proof.
    unfold atleast, xle. destruct a; cbn; try discriminate; [|left; reflexivity].
    intros H. apply Rleb_true in H. right. eexists. split; [reflexivity|exact H].
  Qed.
  Lemma fp_atleast z r : (Z.abs z <= 2 ^ 53)%Z -> IZR z <= r -> atleast z (fp r).
  Proof. intros Hz H. unfold atleast. rewrite <- (Hint z Hz). apply Hmono. exact H. Qed.
  Lemma fp_not_nan r : fp r <> NaN.
  Proof. intros H. pose proof (Hmono r r (Rle_refl r)) as C. rewrite H in C. discriminate. Qed.

  Lemma xadd_atleast z1 z2 a b : atleast z1 a -> atleast z2 b -> (Z.abs (z1 + z2) <= 2 ^ 53)%Z ->
    atleast (z1 + z2) (xadd fp a b).
  Proof.
    intros Ha Hb Hz.
    destruct (atleast_cases _ _ Ha) as [->|(x & -> & Hx)]; destruct (atleast_cases _ _ Hb) as [->|(y & -> & Hy)]; try reflexivity.
    cbn [xadd]. apply fp_atleast; [exact Hz|]. rewrite plus_IZR. lra.
  Qed.
  Lemma xsq_atleast a : a <> NaN -> atleast 0 (xsq fp a).
  Proof.
    intros H. destruct a; try contradiction; try reflexivity. unfold xsq. cbn [xmul].
    apply fp_atleast; [lia|]. change (0 <= r * r). apply Rle_0_sqr.
  Qed.
  Lemma xdiv_atleast a v : atleast 0 a -> 0 < v -> atleast 0 (xdiv fp a (Fin v)).
  Proof.
    intros Ha Hv. destruct (atleast_cases _ _ Ha) as [->|(x & -> & Hx)]; cbn [xdiv].
    - destruct (Rlt_dec v 0); [lra|reflexivity].
    - destruct (Req_EM_T v 0); [lra|]. apply fp_atleast; [lia|]. change (IZR 0) with 0 in *.
      unfold Rdiv. apply Rmult_le_pos; [exact Hx|]. left. apply Rinv_0_lt_compat. exact Hv.
  Qed.
  Lemma fold_atleast z l : forall z0 acc, (z <= 0)%Z -> (z0 <= 0)%Z ->
    (- (z0 + z * Z.of_nat (length l)) <= 2 ^ 53)%Z -> atleast z0 acc -> Forall (atleast z) l ->
    atleast (z0 + z * Z.of_nat (length l)) (fold_left (xadd fp) l acc).
  Proof.
    induction l as [|a l IH]; intros z0 acc Hz Hz0 Hb Ha Hl; cbn [fold_left].
    - replace (z0 + z * Z.of_nat (length (@nil xnum)))%Z with z0 by (cbn [length]; lia). exact Ha.
    - inversion Hl; subst.
      replace (z0 + z * Z.of_nat (length (a :: l)))%Z with ((z0 + z) + z * Z.of_nat (length l))%Z in * by (cbn [length]; lia).
      apply IH; try assumption; try lia. apply xadd_atleast; try assumption.
      assert (0 <= Z.of_nat (length l))%Z by lia. assert (z * Z.of_nat (length l) <= 0)%Z by nia. lia.
  Qed.
  Lemma xsum_atleast z l : (z <= 0)%Z -> (- (z * Z.of_nat (length l)) <= 2 ^ 53)%Z -> Forall (atleast z) l ->
    atleast (z * Z.of_nat (length l)) (xsum fp l).
  Proof.
    intros Hz Hb Hl. unfold xsum. apply (fold_atleast z l 0 (Fin 0)); try assumption; try lia.
    unfold atleast, xle. cbn. apply Rleb_true. lra.
  Qed.

  Lemma ln_tiny : - 1024 <= ln tiny.
  Proof.
    unfold tiny. rewrite ln_Rinv by (apply pow_lt; lra). rewrite ln_pow by lra.
    pose proof (exp_ineq1 1 ltac:(lra)) as He. assert (H2 : ln 2 <= 1).
    { rewrite <- (ln_exp 1). destruct (Rle_lt_or_eq_dec 2 (exp 1)) as [H|H]; [lra|left; apply ln_increasing; lra|rewrite <- H; lra]. }
    assert (H0 : 0 < ln 2) by (rewrite <- ln_1; apply ln_increasing; lra).
    replace (INR 1022) with 1022 by (rewrite INR_IZR_INZ; reflexivity). lra.
  Qed.

  (** Logarithm of a floored finite variance. *)
  Lemma xlog_floor_atleast v : atleast (-1024) (xlog fp (np_maximum (Fin v) (Fin tiny))).
  Proof.
    rewrite np_maximum_fin. pose proof tiny_pos. pose proof (Rmax_r v tiny). cbn [xlog].
    destruct (Rlt_dec 0 (Rmax v tiny)); [|lra]. apply fp_atleast; [lia|].
    pose proof ln_tiny. change (IZR (-1024)) with (- 1024). apply Rle_trans with (ln tiny); [assumption|].
    destruct (Rle_lt_or_eq_dec tiny (Rmax v tiny)) as [Hl|Hl]; [lra|left; apply ln_increasing; lra|rewrite <- Hl; lra].
  Qed.

  Lemma nf_log2pi_atleast nf : (Z.of_nat nf <= 2 ^ 53)%Z -> atleast 0 (nf_log2pi fp nf).
  Proof.
    intros Hn. unfold nf_log2pi.
    assert (HP : 3 <= PI <= 4).
    { split; [|apply PI_4]. pose proof PI2_3_2. lra. }
    assert (H1 : xle (Fin (IZR 3)) (fp PI)) by (apply fp_atleast; [lia|lra]).
    assert (H2 : xle (fp PI) (Fin (IZR 4))) by (rewrite <- (Hint 4%Z) by lia; apply Hmono; lra).
    destruct (fp PI) as [p| | |] eqn:Ep; try discriminate.
    unfold xle in H1, H2. cbn in H1, H2. apply Rleb_true in H1, H2.
    assert (H3 : xle (Fin (IZR 6)) (fp (2 * p))) by (apply fp_atleast; [lia|lra]).
    assert (H4 : xle (fp (2 * p)) (Fin (IZR 8))) by (rewrite <- (Hint 8%Z) by lia; apply Hmono; lra).
    cbn [xmul]. destruct (fp (2 * p)) as [q| | |] eqn:Eq; try discriminate.
    unfold xle in H3, H4. cbn in H3, H4. apply Rleb_true in H3, H4. cbn [xlog].
    destruct (Rlt_dec 0 q); [|lra].
    assert (H5 : 0 <= ln q <= 8).
    { split; [rewrite <- ln_1; left; apply ln_increasing; lra|].
      pose proof (ln_le_sub1 q ltac:(lra)). lra. }
    assert (H6 : atleast 0 (fp (ln q))) by (apply fp_atleast; [lia|simpl; lra]).
    assert (H7 : xle (fp (ln q)) (Fin (IZR 8))) by (rewrite <- (Hint 8%Z) by lia; apply Hmono; lra).
    destruct (atleast_cases _ _ H6) as [E|(r0 & E & Hr)]; rewrite E in *; [discriminate|]. cbn [xmul].
    apply fp_atleast; [lia|]. change (IZR 0) with 0 in *. apply Rmult_le_pos; [apply pos_INR|exact Hr].
  Qed.

  Lemma lmnd_diag_not_nan nc nf x mu var : (0 < nf)%nat -> (Z.of_nat nf <= 2 ^ 43)%Z ->
    x <> [] -> Forall (finite_row nf) x ->
    exists m, lmnd_diag fp x (fmat nc nf mu) (fmat nc nf var) = Ok m
      /\ forall t i, (t < length x)%nat -> (i < nc)%nat -> mget m t i <> NaN.
  Proof.
    intros Hnf Hb Hne Hx. unfold lmnd_diag. rewrite (width_finite nf x Hne Hx).
    assert (Ev : mmap (fun a => np_maximum a (Fin tiny)) (fmat nc nf var) = mtab nc nf (fun i f => np_maximum (Fin (var i f)) (Fin tiny)))
      by (unfold fmat; apply mmap_mtab).
    rewrite Ev. cbv zeta. rewrite !ncol_fmat, !nrow_fmat, !nrow_mtab, !ncol_mtab. clear Ev.
    unfold bwidth, bdim. repeat (rewrite Nat.eqb_refl; cbn [bind]).
    eexists. split; [reflexivity|]. intros t i Ht Hi.
    rewrite mget_map by exact Ht. rewrite vget_tab by exact Hi.
    assert (Ho : finite_row nf (nth t x [])) by (rewrite Forall_forall in Hx; apply Hx, nth_In; exact Ht).
    assert (Bi : forall n j, (j < n)%nat -> bidx n j = j) by (intros; apply bidx_lt; assumption).
    set (lg := vget _ _). set (sq := xsum fp _).
    assert (Hlg : atleast (-1024 * Z.of_nat nf) lg).
    { unfold lg. rewrite Bi by exact Hi. unfold mtab. cbn [rows]. rewrite tab_map, vget_tab by exact Hi.
      rewrite tab_map.
      match goal with |- atleast _ (xsum fp ?l) => assert (El : length l = nf) by apply tab_length end.
      rewrite <- El at 1. apply xsum_atleast; [lia|rewrite El; lia|].
      apply Forall_forall. intros a Ha. apply (In_nth _ _ NaN) in Ha as (k & Hk & <-). rewrite El in Hk.
      rewrite tab_nth by exact Hk. apply xlog_floor_atleast. }
    assert (Hsq : atleast 0 sq).
    { unfold sq. match goal with |- atleast _ (xsum fp ?l) => change 0%Z with (0 * Z.of_nat (length l))%Z end.
      apply xsum_atleast; [lia|lia|].
      apply Forall_forall. intros a Ha. apply (In_nth _ _ NaN) in Ha as (k & Hk & <-). rewrite tab_length in Hk.
      rewrite tab_nth by exact Hk. cbv zeta.
      repeat rewrite (Bi nf k Hk). repeat rewrite (Bi nc i Hi). rewrite mget_mtab, mget_fmat by assumption.
      rewrite np_maximum_fin. apply xdiv_atleast; [|pose proof tiny_pos; pose proof (Rmax_r (var i k) tiny); lra].
      apply xsq_atleast. rewrite (finite_row_get nf _ k Ho Hk). cbn [xsub xopp xadd]. apply fp_not_nan. }
    assert (Hn : atleast 0 (nf_log2pi fp nf)) by (apply nf_log2pi_atleast; lia).
    pose proof (xadd_atleast _ _ _ _ Hn Hlg ltac:(lia)) as H1. 
    pose proof (xadd_atleast _ _ _ _ H1 Hsq ltac:(lia)) as H2.
    destruct (atleast_cases _ _ H2) as [-> | (r & -> & _)]; cbn [xmul].
    - unfold xscale_inf. destruct (Rlt_dec 0 (- (1 / 2))); [discriminate|]. destruct (Rlt_dec (- (1 / 2)) 0); [discriminate|lra].
    - apply fp_not_nan.
  Qed.
End Round.
