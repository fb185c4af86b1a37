(** * Inequalities behind the Kullback-Leibler divergences of the normal, gamma
    and Wishart distributions. *)
From Verif Require Export Spec_vg Vmath Full_math.

(** r ln(r/q) - r + q. *)
Definition gkl (r q : R) : R := r * ln (r / q) - r + q.
Lemma gkl_le r q : 0 < r -> 0 < q -> gkl r q <= (r - q) ^ 2 / q.
Proof.
  intros Hr Hq. unfold gkl.
  pose proof (ln_le_x1 (r / q) (Rdiv_lt_0_compat _ _ Hr Hq)) as H.
  pose proof (Rmult_le_compat_l r _ _ (Rlt_le _ _ Hr) H).
  replace ((r - q) ^ 2 / q) with (r * (r / q - 1) - r + q) by (field; lra). lra.
Qed.
Lemma gkl_nonneg r q : 0 < r -> 0 < q -> 0 <= gkl r q.
Proof.
  intros Hr Hq. unfold gkl.
  pose proof (ln_ge_1x (r / q) (Rdiv_lt_0_compat _ _ Hr Hq)) as H.
  pose proof (Rmult_le_compat_l r _ _ (Rlt_le _ _ Hr) H).
  replace (r * (1 - / (r / q))) with (r - q) in * by (field; lra). lra.
Qed.
(** log-sum inequality *)
Lemma gkl_shift r q h : 0 <= h -> h < r -> h < q -> gkl r q <= gkl (r - h) (q - h).
Proof.
  intros Hh Hr Hq. unfold gkl.
  assert (E : ln ((r - h) / (q - h)) = ln (r / q) + ln ((r - h) * q / ((q - h) * r))).
  { rewrite <- ln_mult; [f_equal; field; lra| |]; apply Rdiv_lt_0_compat; try apply Rmult_lt_0_compat; lra. }
  rewrite E.
  assert (P1 : 0 < (r - h) * q / ((q - h) * r)) by (apply Rdiv_lt_0_compat; apply Rmult_lt_0_compat; lra).
  pose proof (ln_ge_1x _ P1) as H1.
  pose proof (ln_le_x1 (r / q) ltac:(apply Rdiv_lt_0_compat; lra)) as H2.
  assert (A1 : (r - h) * (1 - / ((r - h) * q / ((q - h) * r))) <= (r - h) * ln ((r - h) * q / ((q - h) * r)))
    by (apply Rmult_le_compat_l; lra).
  assert (A2 : h * ln (r / q) <= h * (r / q - 1)) by (apply Rmult_le_compat_l; lra).
  assert (A3 : (r - h) * (1 - / ((r - h) * q / ((q - h) * r))) = h * (r / q - 1)) by (field; lra).
  lra.
Qed.
Lemma gkl_step r q : 0 < r -> 0 < q -> gkl r q <= phi (r / q) + gkl (r + 1) (q + 1).
Proof.
  intros Hr Hq. unfold gkl, phi.
  assert (E : ln (r / q) = ln ((r + 1) / (q + 1)) + ln (r * (q + 1) / (q * (r + 1)))).
  { rewrite <- ln_mult; [f_equal; field; lra| |]; apply Rdiv_lt_0_compat; try apply Rmult_lt_0_compat; lra. }
  assert (P1 : 0 < r * (q + 1) / (q * (r + 1))) by (apply Rdiv_lt_0_compat; apply Rmult_lt_0_compat; lra).
  pose proof (ln_le_x1 _ P1) as H1.
  assert (A : (r + 1) * ln (r * (q + 1) / (q * (r + 1))) <= (r + 1) * (r * (q + 1) / (q * (r + 1)) - 1))
    by (apply Rmult_le_compat_l; lra).
  replace ((r + 1) * (r * (q + 1) / (q * (r + 1)) - 1)) with (r / q - 1) in A by (field; lra).
  rewrite E. replace ((r + 1) / (q + 1)) with ((r + 1) / (q + 1)) by reflexivity. lra.
Qed.
Lemma gkl_sum r q m : 0 < r -> 0 < q -> gkl r q <= dsum q r 0 m + gkl (r + INR m) (q + INR m).
Proof.
  intros Hr Hq. induction m as [|m IH].
  - unfold dsum. simpl. rewrite !Rplus_0_r. lra.
  - assert (Hm := pos_INR m).
    pose proof (gkl_step (r + INR m) (q + INR m) ltac:(lra) ltac:(lra)) as H.
    assert (E : dsum q r 0 (S m) = dsum q r 0 m + phi (tr q r m)) by reflexivity.
    rewrite E, S_INR. unfold tr.
    replace (r + (INR m + 1)) with (r + INR m + 1) by ring. replace (q + (INR m + 1)) with (q + INR m + 1) by ring. lra.
Qed.
Lemma gkl_dlg r q : 0 < r -> 0 < q -> gkl r q <= dlg q r.
Proof.
  intros Hr Hq. apply Rnot_lt_le. intros Hc. set (e := gkl r q - dlg q r).
  assert (He : 0 < e) by (unfold e; lra).
  assert (Hs : 0 <= (r - q) ^ 2) by apply pow2_ge_0.
  destruct (archimed ((r - q) ^ 2 / e)) as [Ha _].
  set (m := Z.to_nat (up ((r - q) ^ 2 / e))).
  assert (Hm : (r - q) ^ 2 / e < INR m).
  { unfold m. rewrite INR_IZR_INZ, Z2Nat.id; [exact Ha|].
    apply le_IZR. assert (0 <= (r - q) ^ 2 / e); [|lra]. apply Rmult_le_pos; [exact Hs|]. apply Rlt_le, Rinv_0_lt_compat, He. }
  pose proof (gkl_sum r q m Hr Hq) as H1. pose proof (dlg_ge q r m Hq Hr) as H2.
  assert (Hp := pos_INR m).
  pose proof (gkl_le (r + INR m) (q + INR m) ltac:(lra) ltac:(lra)) as H3.
  replace (r + INR m - (q + INR m)) with (r - q) in H3 by ring.
  assert (H4 : (r - q) ^ 2 / (q + INR m) < e).
  { apply Rmult_lt_reg_r with (q + INR m); [lra|]. unfold Rdiv. rewrite Rmult_assoc, Rinv_l, Rmult_1_r by lra.
    apply Rmult_lt_compat_r with (r := e) in Hm; [|exact He]. unfold Rdiv in Hm.
    rewrite Rmult_assoc, Rinv_l, Rmult_1_r in Hm by lra. nra. }
  unfold e in H4. lra.
Qed.
Lemma dlg_shift r q h : 0 <= h -> h < r -> h < q -> gkl r q <= dlg (q - h) (r - h).
Proof.
  intros Hh Hr Hq. eapply Rle_trans; [apply (gkl_shift r q h); assumption|]. apply gkl_dlg; lra.
Qed.

(** ** Normal distributions. *)
Definition kln (mq vq mp vp : R) : R := ln (vp / vq) / 2 + ((mq - mp) ^ 2 + vq) / (2 * vp) - 1 / 2.
Lemma kln_nonneg mq vq mp vp : 0 < vq -> 0 < vp -> 0 <= kln mq vq mp vp.
Proof.
  intros Hq Hp. unfold kln.
  pose proof (ln_ge_1x (vp / vq) (Rdiv_lt_0_compat _ _ Hp Hq)) as H.
  replace (/ (vp / vq)) with (vq / vp) in H by (field; lra).
  replace (((mq - mp) ^ 2 + vq) / (2 * vp)) with ((mq - mp) ^ 2 / (2 * vp) + (vq / vp) / 2) by (field; lra).
  assert (0 <= (mq - mp) ^ 2 / (2 * vp)).
  { apply Rmult_le_pos; [apply pow2_ge_0|]. apply Rlt_le, Rinv_0_lt_compat. lra. }
  lra.
Qed.
Lemma kln_zero mq vq mp vp : 0 < vq -> 0 < vp -> (kln mq vq mp vp = 0 <-> mq = mp /\ vq = vp).
Proof.
  intros Hq Hp. split.
  - intros H. unfold kln in H.
    replace (((mq - mp) ^ 2 + vq) / (2 * vp)) with ((mq - mp) ^ 2 / (2 * vp) + (vq / vp) / 2) in H by (field; lra).
    assert (H0 : 0 <= (mq - mp) ^ 2 / (2 * vp)).
    { apply Rmult_le_pos; [apply pow2_ge_0|]. apply Rlt_le, Rinv_0_lt_compat. lra. }
    assert (E : ln (vp / vq) = - ln (vq / vp)).
    { rewrite <- ln_Rinv by (apply Rdiv_lt_0_compat; lra). f_equal. field. lra. }
    assert (Hv : vq = vp).
    { destruct (Req_dec (vq / vp) 1) as [E1|N].
      - apply Rmult_eq_reg_r with (/ vp); [|apply Rinv_neq_0_compat; lra]. rewrite Rinv_r by lra. exact E1.
      - pose proof (ln_lt_x1 (vq / vp) (Rdiv_lt_0_compat _ _ Hq Hp) N). lra. }
    split; [|exact Hv]. subst vp. rewrite E in H. replace (vq / vq) with 1 in H by (field; lra). rewrite ln_1 in H.
    assert (H1 : (mq - mp) ^ 2 / (2 * vq) = 0) by lra.
    assert (H2 : (mq - mp) ^ 2 = 0).
    { apply Rmult_eq_reg_r with (/ (2 * vq)); [|apply Rinv_neq_0_compat; lra]. rewrite Rmult_0_l. exact H1. }
    assert (mq - mp = 0); [|lra]. replace ((mq - mp) ^ 2) with (Rsqr (mq - mp)) in H2 by (unfold Rsqr; ring).
    apply Rsqr_0_uniq, H2.
  - intros [-> ->]. unfold kln. replace (vp / vp) with 1 by (field; lra). rewrite ln_1. field. lra.
Qed.

(** ** Gamma distributions with shapes [bq], [bp] and rates [cq], [cp]. *)
Definition klg (bq cq bp cp : R) : R :=
  (bq - bp) * psi bq - lgam bq + lgam bp + bp * (ln cq - ln cp) + bq * (cp - cq) / cq.
Lemma klg_nonneg bq cq bp cp : 0 < bq -> 0 < cq -> 0 < bp -> 0 < cp -> 0 <= klg bq cq bp cp.
Proof.
  intros H1 H2 H3 H4. unfold klg.
  pose proof (gkl_dlg bp bq H3 H1) as H. unfold dlg, gkl in H.
  (* bp ln(cq/cp) + bq (cp/cq - 1) >= bp ln(bq/bp) + bp - bq, by ln t <= t - 1 at t = bq cp / (bp cq) *)
  pose proof (ln_le_x1 (bq * cp / (bp * cq)) ltac:(apply Rdiv_lt_0_compat; apply Rmult_lt_0_compat; assumption)) as HL.
  assert (E : ln (bq * cp / (bp * cq)) = ln bq + ln cp - (ln bp + ln cq)).
  { unfold Rdiv. rewrite ln_mult, ln_Rinv, !ln_mult by (try apply Rmult_lt_0_compat; try apply Rinv_0_lt_compat; try apply Rmult_lt_0_compat; assumption). ring. }
  rewrite E in HL.
  assert (E2 : ln (bp / bq) = ln bp - ln bq).
  { unfold Rdiv. rewrite ln_mult, ln_Rinv by (try apply Rinv_0_lt_compat; assumption). ring. }
  rewrite E2 in H. apply Rmult_le_compat_l with (r := bp) in HL; [|lra].
  replace (bp * (bq * cp / (bp * cq) - 1)) with (bq * (cp - cq) / cq + bq - bp) in HL by (field; lra).
  lra.
Qed.

(** ** Multivariate normal and Wishart distributions. *)
Lemma det_scal n c A : det n (fun i j => c * A i j) = c ^ n * det n A.
Proof.
  revert A. induction n as [|n IH]; intros A; [simpl; ring|].
  cbn [det]. rewrite <- sumn_scal_l. apply sumn_ext. intros i Hi.
  assert (E : det n (minor (fun i j => c * A i j) i) = c ^ n * det n (minor A i)).
  { rewrite <- IH. apply det_ext. reflexivity. }
  rewrite E. simpl pow. ring.
Qed.
Lemma pd_scal n c A : 0 < c -> pos_def n A -> pos_def n (fun i j => c * A i j).
Proof.
  intros Hc [Hs Hp]. split.
  - intros i j Hi Hj. rewrite (Hs i j Hi Hj). reflexivity.
  - intros v Hv. replace (quad n (fun i j => c * A i j) v) with (c * quad n A v).
    + apply Rmult_lt_0_compat; [exact Hc|apply Hp, Hv].
    + unfold quad. rewrite <- sumn_scal_l. apply sumn_ext. intros i Hi. rewrite <- sumn_scal_l. apply sumn_ext. intros j Hj. ring.
Qed.
Lemma lndet_scal n c A : 0 < c -> pos_def n A -> ln (det n (fun i j => c * A i j)) = INR n * ln c + ln (det n A).
Proof.
  intros Hc HA. rewrite det_scal, ln_mult; [|apply pow_lt, Hc|apply det_pos, HA]. f_equal.
  clear -Hc. induction n as [|n IH]; [simpl; rewrite ln_1; ring|]. rewrite S_INR. simpl pow.
  rewrite ln_mult, IH by (try apply pow_lt; exact Hc). ring.
Qed.
Lemma inverse_scal n c A P : c <> 0 -> inverse n A P -> inverse n (fun i j => c * A i j) (fun i j => / c * P i j).
Proof.
  intros Hc H i j Hi Hj. rewrite <- (H i j Hi Hj). apply sumn_ext. intros k Hk. field. exact Hc.
Qed.
Lemma inverse_comm n A P : pos_def n A -> inverse n A P -> inverse n P A.
Proof.
  intros PD H i j Hi Hj. rewrite Nat.eqb_sym. rewrite <- (H j i Hj Hi). apply sumn_ext. intros k Hk.
  rewrite (inverse_sym n A PD P H i k), (proj1 PD k j) by assumption. ring.
Qed.
Lemma inverse_pd n A P : pos_def n A -> inverse n A P -> pos_def n P.
Proof.
  intros PD H. split; [apply (inverse_sym n A PD P H)|]. intros v (i & Hi & Hv).
  (* v' P v = y' A y for y = P v *)
  set (y := fun k => sumn n (fun j => P k j * v j)).
  assert (E : quad n P v = quad n A y).
  { rewrite (quad_apply n P v). unfold quad.
    rewrite (sumn_ext n (fun i => v i * sumn n (fun j => P i j * v j)) (fun i => y i * sumn n (fun k => A i k * y k))).
    - apply sumn_ext. intros k Hk. rewrite <- sumn_scal_l. apply sumn_ext. intros l Hl. ring.
    - intros k Hk. unfold y at 2. rewrite (inverse_apply n A P v H k Hk). unfold y. ring. }
  rewrite E. apply (proj2 PD).
  destruct (Classical_Prop.classic (exists k, (k < n)%nat /\ y k <> 0)) as [Hy|Hn]; [exact Hy|].
  exfalso. apply Hv. rewrite <- (inverse_apply n A P v H i Hi). apply sumn_zero. intros k Hk.
  destruct (Req_dec (y k) 0) as [E0|E0]; [unfold y in E0; rewrite E0; ring|]. exfalso. apply Hn. exists k. split; assumption.
Qed.
(** Row [r] replaced by a combination of all rows. *)
Lemma det_row_any n M r (a : nat -> R) k : (r < n)%nat -> (k <= n)%nat ->
  det n (setrow M r (fun j => sumn k (fun q => a q * M q j))) = if Nat.ltb r k then a r * det n M else 0.
Proof.
  intros Hr. induction k as [|k IH]; intros Hk.
  - rewrite (det_ext n _ (setrow M r (fun j => 0 * M r j + 0 * M r j)))
      by (intros i j Hi Hj; unfold setrow; destruct (Nat.eqb i r); [cbn [sumn]; ring|reflexivity]).
    rewrite det_row_lin by exact Hr. simpl. ring.
  - rewrite (det_ext n _ (setrow M r (fun j => 1 * sumn k (fun q => a q * M q j) + a k * M k j)))
      by (intros i j Hi Hj; unfold setrow; destruct (Nat.eqb i r); [cbn [sumn]; ring|reflexivity]).
    rewrite (det_row_lin n M r 1 (a k) (fun j => sumn k (fun q => a q * M q j)) (fun j => M k j)) by exact Hr.
    rewrite IH by lia. destruct (Nat.ltb_spec r k) as [H1|H1].
    + destruct (Nat.ltb_spec r (S k)); [|lia].
      rewrite (det_eq_rows n (k - r - 1) (setrow M r (fun j => M k j)) r k); [ring|lia|lia|].
      intros j Hj. unfold setrow. rewrite Nat.eqb_refl. destruct (Nat.eqb_spec k r); [lia|reflexivity].
    + destruct (Nat.ltb_spec r (S k)).
      * assert (k = r) as -> by lia. rewrite (det_ext n (setrow M r (fun j => M r j)) M) by (intros; apply setrow_id). ring.
      * rewrite (det_eq_rows n (r - k - 1) (setrow M r (fun j => M k j)) k r); [ring|lia|lia|].
        intros j Hj. unfold setrow. rewrite Nat.eqb_refl. destruct (Nat.eqb_spec k r); [lia|reflexivity].
Qed.
Lemma det_upper_mul n (U M : nat -> nat -> R) : (forall i q, (q < i)%nat -> (i < n)%nat -> U i q = 0) ->
  det n (fun i j => sumn n (fun q => U i q * M q j)) = prodn n (fun i => U i i) * det n M.
Proof.
  intros HU.
  (* rows < k already multiplied *)
  set (N := fun k i j => if Nat.ltb i k then sumn n (fun q => U i q * M q j) else M i j).
  assert (Hk : forall k, (k <= n)%nat -> det n (N k) = prodn k (fun i => U i i) * det n M).
  { induction k as [|k IH]; intros Hk.
    - cbn [prodn]. rewrite Rmult_1_l. apply det_ext. reflexivity.
    - cbn [prodn].
      rewrite (det_ext n (N (S k)) (setrow (N k) k (fun j => sumn n (fun q => U k q * N k q j)))).
      + rewrite det_row_any by lia. destruct (Nat.ltb_spec k n); [|lia]. rewrite IH by lia. ring.
      + intros i j Hi Hj. unfold setrow, N. destruct (Nat.eqb_spec i k) as [->|Hn].
        * destruct (Nat.ltb_spec k (S k)); [|lia]. apply sumn_ext. intros q Hq.
          destruct (Nat.ltb_spec q k); [|reflexivity]. rewrite HU by lia. ring.
        * destruct (Nat.ltb_spec i k), (Nat.ltb_spec i (S k)); try reflexivity; lia. }
  rewrite <- (Hk n) by lia. apply det_ext. intros i j Hi Hj. unfold N. destruct (Nat.ltb_spec i n); [reflexivity|lia].
Qed.
Lemma det_pd_mul n A M : pos_def n A -> det n (fun i j => sumn n (fun q => A i q * M q j)) = det n A * det n M.
Proof.
  intros PD. destruct (pd_factor n A PD) as (L & _ & HL1 & HL2 & HL3).
  rewrite (det_chol n A L HL1 HL3).
  rewrite (det_ext n _ (fun i j => sumn n (fun q => L i q * sumn n (fun k => L k q * M k j)))).
  - rewrite (det_lower_mul n L (fun q j => sumn n (fun k => L k q * M k j)) HL1).
    rewrite (det_upper_mul n (fun q k => L k q) M) by (intros i q Hq Hi; apply HL1; assumption). ring.
  - intros i j Hi Hj.
    rewrite (sumn_ext n (fun q => L i q * sumn n (fun k => L k q * M k j))
               (fun q => sumn n (fun k => L i q * L k q * M k j)))
      by (intros q Hq; rewrite <- sumn_scal_l; apply sumn_ext; intros; ring).
    rewrite sumn_swap. apply sumn_ext. intros k Hk. rewrite HL3, <- sumn_scal_r by assumption. reflexivity.
Qed.
Lemma det_id n : det n (fun i j => if Nat.eqb i j then 1 else 0) = 1.
Proof.
  rewrite det_upper by (intros i j Hj Hi; destruct (Nat.eqb_spec i j); [lia|reflexivity]).
  induction n as [|n IH]; [reflexivity|]. cbn [prodn]. rewrite IH, Nat.eqb_refl. ring.
Qed.
Lemma lndet_inv n A P : pos_def n A -> inverse n A P -> ln (det n P) = - ln (det n A).
Proof.
  intros PD H. pose proof (det_pd_mul n A P PD) as E.
  rewrite (det_ext n _ _ H), det_id in E.
  pose proof (det_pos n A PD). pose proof (det_pos n P (inverse_pd n A P PD H)).
  pose proof (f_equal ln E) as E1. rewrite ln_1, ln_mult in E1 by assumption. lra.
Qed.

Lemma klm_nonneg n mq Q mp P Pi : pos_def n Q -> pos_def n P -> inverse n P Pi -> 0 <= klm n mq Q mp P Pi.
Proof.
  intros HQ HP HI. unfold klm. pose proof (logdet_ineq n P HP Pi Q HI HQ).
  pose proof (inverse_nonneg n P HP Pi (fun i => mq i - mp i) HI). lra.
Qed.

(** Wishart(a, A) from Wishart(b, C), [a] and [b] degrees of freedom; [Ai] is the
    inverse of [A]. *)
Definition klw (n : nat) (a : R) (A Ai : nat -> nat -> R) (b : R) (C : nat -> nat -> R) : R :=
  sumn n (fun i => dlg ((a - INR i) / 2) ((b - INR i) / 2))
  + b / 2 * (ln (det n A) - ln (det n C)) - INR n * a / 2 + a / 2 * frob n Ai C.
Lemma klw_nonneg n a A Ai b C : INR n - 1 < a -> INR n - 1 < b -> 0 < a -> 0 < b ->
  pos_def n A -> inverse n A Ai -> pos_def n C -> 0 <= klw n a A Ai b C.
Proof.
  intros Ha Hb Ha0 Hb0 HA HI HC. unfold klw.
  assert (Hab : 0 < a / b) by (apply Rdiv_lt_0_compat; assumption).
  pose proof (logdet_ineq n A HA Ai (fun i j => a / b * C i j) HI (pd_scal n (a / b) C Hab HC)) as H.
  rewrite lndet_scal, frob_scal in H by assumption.
  assert (HS : INR n * gkl (b / 2) (a / 2) <= sumn n (fun i => dlg ((a - INR i) / 2) ((b - INR i) / 2))).
  { replace (INR n * gkl (b / 2) (a / 2)) with (sumn n (fun _ => gkl (b / 2) (a / 2))) by apply sumn_const.
    apply sumn_le. intros i Hi. apply lt_INR in Hi. assert (Hi1 : INR i <= INR n - 1).
    { apply INR_lt in Hi. assert (H1 : INR (S i) <= INR n) by (apply le_INR; lia). rewrite S_INR in H1. lra. }
    replace ((a - INR i) / 2) with (a / 2 - INR i / 2) by field.
    replace ((b - INR i) / 2) with (b / 2 - INR i / 2) by field.
    pose proof (pos_INR i). apply dlg_shift; lra. }
  apply Rmult_le_compat_l with (r := b / 2) in H; [|lra].
  replace (b / 2 * (ln (det n A) + a / b * frob n Ai C)) with (b / 2 * ln (det n A) + a / 2 * frob n Ai C) in H by (field; lra).
  assert (E : gkl (b / 2) (a / 2) = - (b / 2) * ln (a / b) - b / 2 + a / 2).
  { unfold gkl. replace (b / 2 / (a / 2)) with (/ (a / b)) by (field; lra). rewrite ln_Rinv by exact Hab. ring. }
  rewrite E in HS. set (g := ln (a / b)) in *. clearbody g. lra.
Qed.
Lemma lndet_half n A : pos_def n A -> ln (det n (fun i j => A i j / 2)) = ln (det n A) - INR n * ln 2.
Proof.
  intros H. rewrite (det_ext n _ (fun i j => / 2 * A i j)) by (intros; field).
  rewrite lndet_scal, ln_Rinv by (lra || exact H). ring.
Qed.
Lemma klw_form_eq n a A Ai b C : pos_def n A -> pos_def n C -> klw_form n a A Ai b C = klw n a A Ai b C.
Proof.
  intros HA HC. unfold klw_form, klw. rewrite !lndet_half by assumption.
  assert (E : sumn n (fun i => dlg ((a - INR i) / 2) ((b - INR i) / 2))
    = sumn n (fun i => lgam ((b - INR i) / 2)) - sumn n (fun i => lgam ((a - INR i) / 2))
      + (a - b) / 2 * sumn n (fun i => psi ((a - INR i) / 2))).
  { rewrite <- sumn_scal_l, <- sumn_minus, <- sumn_plus. apply sumn_ext. intros i Hi. unfold dlg. field. }
  rewrite E. field.
Qed.
