(** * C49: Kullback-Leibler divergences. *)
From Verif Require Export Kl_proofs Float64.
From Flocq Require Import Core.

Lemma C49_normal_l : forall mq vq mp vp, 0 < vq -> 0 < vp ->
  exists k, kl_normal exact (Fin mq) (Fin vq) (Fin mp) (Fin vp) = Ok (Fin k)
    /\ k = ln (vp / vq) / 2 + ((mq - mp) ^ 2 + vq) / (2 * vp) - 1 / 2
    /\ 0 <= k /\ (k = 0 <-> mq = mp /\ vq = vp).
Proof.
  intros mq vq mp vp Hq Hp. exists (kln mq vq mp vp).
  pose proof (kln_nonneg mq vq mp vp Hq Hp) as Hk.
  split; [|split; [reflexivity|split; [exact Hk|apply kln_zero; assumption]]].
  unfold kl_normal. rewrite xsubE. unfold xsq. rewrite xmulE, xaddE, (xmulE 2 vp).
  rewrite (xdivE vp vq) by lra. rewrite xlog_fin by (apply Rlt_le, Rdiv_lt_0_compat; assumption).
  rewrite xln_pos by (apply Rdiv_lt_0_compat; assumption). rewrite xdivE by lra. rewrite xdivE by lra.
  rewrite xaddE, xsubE.
  replace (ln (vp / vq) / 2 + ((mq - mp) * (mq - mp) + vq) / (2 * vp) - 1 / 2) with (kln mq vq mp vp)
    by (unfold kln; field; lra).
  unfold xleb. rewrite (proj2 (Rleb_true 0 _) Hk). reflexivity.
Qed.

Lemma C49_normal_applies_l : exists k, kl_normal exact (Fin 1) (Fin 2) (Fin 0) (Fin 3) = Ok (Fin k) /\ 0 < k.
Proof.
  destruct (C49_normal_l 1 2 0 3 ltac:(lra) ltac:(lra)) as (k & H & _ & H0 & Hz). exists k. split; [exact H|].
  destruct (Req_dec k 0) as [E|N]; [|lra]. apply Hz in E. lra.
Qed.

Lemma C49_multivariate_normal_l : forall la n mq Q mp P Pi,
  la_right la -> pos_def n Q -> pos_def n P -> inverse n P Pi ->
  exists k, kl_mvn la exact (fvec n mq) (fmat n n Q) (fvec n mp) (fmat n n P) = Ok (Fin k)
    /\ k = 1 / 2 * (ln (det n P) - ln (det n Q) + frob n Pi Q + quad n Pi (fun i => mq i - mp i) - INR n)
    /\ 0 <= k.
Proof.
  intros la n mq Q mp P Pi Hl HQ HP HI. exists (klm n mq Q mp P Pi).
  split; [apply kl_mvn_ok; assumption|]. split; [reflexivity|]. apply klm_nonneg; assumption.
Qed.

Lemma C49_gamma_l : forall bq cq bp cp, 0 < bq -> 0 < cq -> 0 < bp -> 0 < cp ->
  exists k, kl_gamma exact (Fin bq) (Fin cq) (Fin bp) (Fin cp) = Ok (Fin k) /\ 0 <= k.
Proof.
  intros bq cq bp cp H1 H2 H3 H4. exists (klg bq cq bp cp).
  pose proof (klg_nonneg bq cq bp cp H1 H2 H3 H4) as Hk. split; [|exact Hk].
  unfold kl_gamma. rewrite xdigammaE, !xgammalnE by assumption.
  rewrite !xlog_fin, !xln_pos by (try apply Rlt_le; assumption).
  rewrite !xsubE, !xmulE, !xsubE, !xaddE, xdivE, !xaddE by lra. fold (klg bq cq bp cp).
  unfold xleb. rewrite (proj2 (Rleb_true 0 _) Hk). reflexivity.
Qed.

Lemma C49_wishart_l : forall la n a A Ai b C, la_right la -> (0 < n)%nat ->
  INR n - 1 < a -> INR n - 1 < b -> pos_def n A -> inverse n A Ai -> pos_def n C ->
  exists k, kl_wishart la exact (Fin a) (fmat n n A) (Fin b) (fmat n n C) = Ok (Fin k)
    /\ k = klw_form n a A Ai b C /\ 0 <= k.
Proof.
  intros la n a A Ai b C Hl Hn Ha Hb HA HI HC. exists (klw_form n a A Ai b C).
  split; [apply kl_wishart_ok; assumption|]. split; [reflexivity|]. rewrite klw_form_eq by assumption.
  assert (1 <= INR n) by (apply (le_INR 1); lia). apply klw_nonneg; assumption || lra.
Qed.

(** [la_right] can be met. *)
Definition mfun (m : mat) (i j : nat) : R := rval (mget m i j).
Definition la_ref : linalg := Linalg
  (fun _ m => Ok (fmat (nrow m) (nrow m) (invm (nrow m) (mfun m))))
  (fun _ m => (Fin 1, Fin (ln (det (nrow m) (mfun m))))).
Lemma la_ref_right : la_right la_ref.
Proof.
  intros n A HA. cbn [la_ref la_inv la_slogdet]. rewrite nrow_fmat.
  assert (E : forall i j, (i < n)%nat -> (j < n)%nat -> A i j = mfun (fmat n n A) i j).
  { intros i j Hi Hj. unfold mfun. rewrite mget_fmat by assumption. reflexivity. }
  split.
  - exists (invm n A). split; [apply invm_ok, HA|]. f_equal.
    assert (H : forall i j, (i < n)%nat -> (j < n)%nat -> invm n (mfun (fmat n n A)) i j = invm n A i j).
    { apply (inverse_unique n A HA); [|apply invm_ok, HA].
      apply (inverse_ext n (mfun (fmat n n A))); [intros; symmetry; apply E; assumption|].
      apply invm_ok. apply (pos_def_ext n A); assumption. }
    apply fmat_ext. exact H.
  - do 3 f_equal. apply det_ext. intros. symmetry. apply E; assumption.
Qed.
Lemma diag_pd n (d : nat -> R) : (forall i, (i < n)%nat -> 0 < d i) -> pos_def n (fun i j => if Nat.eqb i j then d i else 0).
Proof.
  intros Hd. split.
  - intros i j Hi Hj. destruct (Nat.eqb_spec i j) as [->|N]; [rewrite Nat.eqb_refl; reflexivity|].
    destruct (Nat.eqb_spec j i); [lia|reflexivity].
  - intros v (i & Hi & Hv). unfold quad.
    rewrite (sumn_ext n _ (fun i => d i * (v i * v i))).
    + apply sumn_pos with i; [|exact Hi|].
      * intros k Hk. apply Rmult_le_pos; [apply Rlt_le, Hd, Hk|]. apply Rle_0_sqr.
      * apply Rmult_lt_0_compat; [apply Hd, Hi|]. apply Rsqr_pos_lt, Hv.
    + intros k Hk. rewrite (sumn_single n _ k Hk).
      * rewrite Nat.eqb_refl. ring.
      * intros j Hj N. destruct (Nat.eqb_spec k j); [lia|]. ring.
Qed.
Lemma C49_wishart_applies_l : exists la n a A Ai b C, la_right la /\ (0 < n)%nat
  /\ INR n - 1 < a /\ INR n - 1 < b /\ pos_def n A /\ inverse n A Ai /\ pos_def n C.
Proof.
  exists la_ref, 2%nat, 3, (fun i j => if Nat.eqb i j then 2 else 0), (invm 2 (fun i j => if Nat.eqb i j then 2 else 0)),
    (5 / 2), (fun i j => if Nat.eqb i j then 1 else 0).
  assert (H : pos_def 2 (fun i j => if Nat.eqb i j then 2 else 0)) by (apply (diag_pd 2 (fun _ => 2)); intros; lra).
  split; [apply la_ref_right|]. split; [lia|]. cbn [INR]. split; [lra|]. split; [lra|]. split; [exact H|].
  split; [apply invm_ok, H|]. apply (diag_pd 2 (fun _ => 1)). intros; lra.
Qed.

(** ** In double precision the assertion of [kl_normal_distribution] can fail. *)
Lemma b64_near x m p : (-1000 <= p <= 1000)%Z -> bpow radix2 (p - 1) <= Rabs x < bpow radix2 p ->
  Rabs (x * bpow radix2 (53 - p) - IZR m) < / 2 -> (Z.abs m <= 2 ^ 53)%Z ->
  b64 x = Fin (IZR m * bpow radix2 (p - 53)).
Proof.
  intros Hp Hx Hm Hb.
  assert (E : b64_round x = IZR m * bpow radix2 (p - 53)).
  { unfold b64_round, round, F2R. cbn [Fnum Fexp].
    assert (Ec : cexp radix2 b64_exp x = (p - 53)%Z).
    { unfold cexp, b64_exp, FLT_exp. rewrite (mag_unique radix2 x p Hx). lia. }
    unfold scaled_mantissa. rewrite Ec. replace (- (p - 53))%Z with (53 - p)%Z by lia.
    rewrite (Znearest_imp _ _ m Hm). reflexivity. }
  unfold b64. rewrite E.
  assert (Hlt : Rabs (IZR m * bpow radix2 (p - 53)) < b64_max).
  { rewrite Rabs_mult, (Rabs_pos_eq (bpow _ _)) by apply bpow_ge_0.
    apply Rle_lt_trans with (IZR (2 ^ 53) * bpow radix2 (p - 53)).
    - apply Rmult_le_compat_r; [apply bpow_ge_0|]. rewrite <- abs_IZR. apply IZR_le, Hb.
    - change (IZR (2 ^ 53)) with (bpow radix2 53). rewrite <- bpow_plus. apply bpow_lt. lia. }
  destruct (Rle_dec b64_max _) as [H|_]; [pose proof (Rle_abs (IZR m * bpow radix2 (p - 53))); lra|].
  destruct (Rle_dec _ (- b64_max)) as [H|_]; [|reflexivity].
  pose proof (Rle_abs (- (IZR m * bpow radix2 (p - 53)))) as H1. rewrite Rabs_Ropp in H1. lra.
Qed.

(** A value rounded between two representable ones. *)
Lemma b64_between lo x hi : lo <= x <= hi -> b64 lo = Fin lo -> b64 hi = Fin hi -> exists y, b64 x = Fin y /\ lo <= y <= hi.
Proof.
  intros [H1 H2] E1 E2. pose proof (b64_monotone _ _ H1) as M1. pose proof (b64_monotone _ _ H2) as M2.
  rewrite E1 in M1. rewrite E2 in M2. unfold xle in *. destruct (b64 x) as [y| | |]; try discriminate.
  exists y. split; [reflexivity|]. cbn in M1, M2. apply Rleb_true in M1. apply Rleb_true in M2. lra.
Qed.
Lemma b64_val x y m p lo hi s u : bpow radix2 (p - 1) = lo -> bpow radix2 p = hi -> bpow radix2 (53 - p) = s ->
  bpow radix2 (p - 53) = u -> (-1000 <= p <= 1000)%Z -> (Z.abs m <= 2 ^ 53)%Z ->
  lo <= Rabs x < hi -> Rabs (x * s - IZR m) < / 2 -> y = IZR m * u -> b64 x = Fin y.
Proof. intros <- <- <- <- Hp Hm Hx Hr ->. apply b64_near; assumption. Qed.
Ltac rabs := unfold Rabs; repeat destruct Rcase_abs; lra.

(** vq = 3, vp = 3 - 2^-50, equal means: the computed value is -2^-54. *)
Definition vp0 : R := 3 - / 1125899906842624.
Definition d0 : R := 3 / 9007199254740992.        (* 3 * 2^-53 *)
Definition e0 : R := / 20282409603651670423947251286016.  (* 2^-104 *)
Lemma C49_assertion_refuted_l : exists mq vq mp vp, 0 < vq /\ 0 < vp
  /\ b64 vq = Fin vq /\ b64 vp = Fin vp /\ b64 mq = Fin mq /\ b64 mp = Fin mp
  /\ kl_normal b64 (Fin mq) (Fin vq) (Fin mp) (Fin vp) = Err AssertionError.
Proof.
  assert (Z0 : b64 0 = Fin 0).
  { unfold b64. assert (E : b64_round 0 = 0) by (apply round_0; apply valid_rnd_N). rewrite E.
    assert (Hm : 0 < b64_max) by apply bpow_gt_0.
    destruct (Rle_dec b64_max 0); [lra|]. destruct (Rle_dec 0 (- b64_max)); [lra|reflexivity]. }
  assert (Q3 : b64 3 = Fin 3).
  { apply (b64_val 3 3 6755399441055744 2 2 4 2251799813685248 (/ 2251799813685248)); try reflexivity; try lia; [rabs|rabs|lra]. }
  assert (Vp : b64 vp0 = Fin vp0).
  { unfold vp0. apply (b64_val _ _ 6755399441055742 2 2 4 2251799813685248 (/ 2251799813685248)); try reflexivity; try lia; [rabs|rabs|lra]. }
  assert (R1 : b64 (vp0 / 3) = Fin (1 - d0)).
  { unfold vp0, d0. apply (b64_val _ _ 9007199254740989 0 (/ 2) 1 9007199254740992 (/ 9007199254740992)); try reflexivity; try lia; [rabs|rabs|lra]. }
  assert (L1 : - d0 - 2 * (2 * e0) <= ln (1 - d0) <= - d0).
  { assert (Hd : 0 < 1 - d0) by (unfold d0; lra). split.
    - pose proof (ln_ge_1x (1 - d0) Hd) as H. apply Rle_trans with (1 - / (1 - d0)); [|exact H].
      assert (E : 1 - / (1 - d0) = - d0 - d0 * d0 / (1 - d0)) by (field; lra). rewrite E.
      assert (d0 * d0 / (1 - d0) <= 4 * e0); [|lra].
      apply Rmult_le_reg_r with (1 - d0); [exact Hd|]. unfold Rdiv. rewrite Rmult_assoc, Rinv_l by lra.
      unfold d0, e0. lra.
    - pose proof (ln_le_x1 (1 - d0) Hd). lra. }
  assert (D1 : b64 (- d0) = Fin (- d0)).
  { unfold d0. apply (b64_val _ _ (-6755399441055744) (-51) (/ 4503599627370496) (/ 2251799813685248) 20282409603651670423947251286016 (/ 20282409603651670423947251286016));
      try reflexivity; try lia; [rabs|rabs|lra]. }
  assert (D2 : b64 (- d0 - 2 * (2 * e0)) = Fin (- d0 - 2 * (2 * e0))).
  { unfold d0, e0. apply (b64_val _ _ (-6755399441055748) (-51) (/ 4503599627370496) (/ 2251799813685248) 20282409603651670423947251286016 (/ 20282409603651670423947251286016));
      try reflexivity; try lia; [rabs|rabs|lra]. }
  destruct (b64_between _ _ _ L1 D2 D1) as (l & El & Hl).
  assert (H1 : b64 (- d0 / 2) = Fin (- d0 / 2)).
  { unfold d0. apply (b64_val _ _ (-6755399441055744) (-52) (/ 9007199254740992) (/ 4503599627370496) 40564819207303340847894502572032 (/ 40564819207303340847894502572032));
      try reflexivity; try lia; [rabs|rabs|lra]. }
  assert (H2 : b64 ((- d0 - 2 * (2 * e0)) / 2) = Fin ((- d0 - 2 * (2 * e0)) / 2)).
  { unfold d0, e0. apply (b64_val _ _ (-6755399441055748) (-52) (/ 9007199254740992) (/ 4503599627370496) 40564819207303340847894502572032 (/ 40564819207303340847894502572032));
      try reflexivity; try lia; [rabs|rabs|lra]. }
  destruct (b64_between ((- d0 - 2 * (2 * e0)) / 2) (l / 2) (- d0 / 2) ltac:(lra) H2 H1) as (g & Eg & Hg).
  assert (T1 : b64 (2 * vp0) = Fin (2 * vp0)).
  { unfold vp0. apply (b64_val _ _ 6755399441055742 3 4 8 1125899906842624 (/ 1125899906842624)); try reflexivity; try lia; [rabs|rabs|lra]. }
  assert (T2 : b64 (3 / (2 * vp0)) = Fin (1 / 2 + / 9007199254740992)).
  { unfold vp0. apply (b64_val _ _ 4503599627370497 0 (/ 2) 1 9007199254740992 (/ 9007199254740992)); try reflexivity; try lia; [rabs|rabs|lra]. }
  assert (T3 : b64 (g + (1 / 2 + / 9007199254740992)) = Fin (1 / 2 - / 18014398509481984)).
  { unfold d0, e0 in Hg. apply (b64_val _ _ 9007199254740991 (-1) (/ 4) (/ 2) 18014398509481984 (/ 18014398509481984)); try reflexivity; try lia; [rabs|rabs|lra]. }
  assert (T4 : b64 (1 / 2 - / 18014398509481984 - 1 / 2) = Fin (- / 18014398509481984)).
  { apply (b64_val _ _ (-4503599627370496) (-53) (/ 18014398509481984) (/ 9007199254740992) 81129638414606681695789005144064 (/ 81129638414606681695789005144064));
      try reflexivity; try lia; [rabs|rabs|lra]. }
  exists 0, 3, 0, vp0. split; [lra|]. split; [unfold vp0; lra|].
  split; [exact Q3|]. split; [exact Vp|]. split; [exact Z0|]. split; [exact Z0|].
  assert (Hv : vp0 <> 0) by (unfold vp0; lra).
  assert (X1 : xdiv b64 (Fin vp0) (Fin 3) = Fin (1 - d0)).
  { unfold xdiv. destruct (Req_EM_T 3 0); [lra|]. exact R1. }
  assert (X2 : xlog b64 (Fin (1 - d0)) = Fin l).
  { unfold xlog. assert (0 < 1 - d0) by (unfold d0; lra). destruct (Rlt_dec 0 (1 - d0)); [exact El|contradiction]. }
  assert (X3 : xdiv b64 (Fin l) (Fin 2) = Fin g).
  { unfold xdiv. destruct (Req_EM_T 2 0); [lra|]. exact Eg. }
  assert (X4 : xsub b64 (Fin 0) (Fin 0) = Fin 0) by (unfold xsub; cbn; replace (0 + - 0) with 0 by ring; exact Z0).
  assert (X5 : xsq b64 (Fin 0) = Fin 0) by (unfold xsq, xmul; rewrite Rmult_0_l; exact Z0).
  assert (X6 : xadd b64 (Fin 0) (Fin 3) = Fin 3) by (unfold xadd; rewrite Rplus_0_l; exact Q3).
  assert (X7 : xmul b64 (Fin 2) (Fin vp0) = Fin (2 * vp0)) by exact T1.
  assert (X8 : xdiv b64 (Fin 3) (Fin (2 * vp0)) = Fin (1 / 2 + / 9007199254740992)).
  { unfold xdiv. destruct (Req_EM_T (2 * vp0) 0); [lra|]. exact T2. }
  assert (X9 : xadd b64 (Fin g) (Fin (1 / 2 + / 9007199254740992)) = Fin (1 / 2 - / 18014398509481984)) by exact T3.
  assert (X10 : xsub b64 (Fin (1 / 2 - / 18014398509481984)) (Fin (1 / 2)) = Fin (- / 18014398509481984)).
  { exact T4. }
  unfold kl_normal. rewrite X1, X2, X3, X4, X5, X6, X7, X8, X9, X10.
  cbn [xleb]. unfold Rleb. destruct (Rle_dec 0 (- / 18014398509481984)); [lra|reflexivity].
Qed.
