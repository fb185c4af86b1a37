(** * Diagonal and spherical Gaussian densities. *)
From Verif Require Export Gauss_arr.

(** Density of the normal distribution with mean [m] and variance [v]. *)
Definition normal_pdf (m v x : R) : R := exp (- ((x - m) ^ 2 / (2 * v))) / sqrt (2 * PI * v).
(** Independent features. *)
Definition gauss_b (nf : nat) (mu var : nat -> nat -> R) (o : vec) (i : nat) : R :=
  prodn nf (fun f => normal_pdf (mu i f) (var i f) (xval o f)).
(** Variances below the smallest normal number are raised to it. *)
Definition floored (var : nat -> nat -> R) (i f : nat) : R := Rmax (var i f) tiny.

Lemma tiny_pos : 0 < tiny.
Proof. apply Rinv_0_lt_compat, pow_lt. lra. Qed.
Lemma floored_pos var i f : 0 < floored var i f.
Proof. unfold floored. pose proof tiny_pos. pose proof (Rmax_r (var i f) tiny). lra. Qed.
Lemma floored_id var i f : tiny <= var i f -> floored var i f = var i f.
Proof. intros H. apply Rmax_left. exact H. Qed.
Lemma two_pi_pos : 0 < 2 * PI.
Proof. pose proof PI_RGT_0. lra. Qed.

Lemma normal_pdf_pos m v x : 0 < v -> 0 < normal_pdf m v x.
Proof.
  intros Hv. apply Rdiv_lt_0_compat; [apply exp_pos|]. apply sqrt_lt_R0.
  apply Rmult_lt_0_compat; [apply two_pi_pos|exact Hv].
Qed.
Lemma ln_sqrt a : 0 < a -> ln (sqrt a) = ln a / 2.
Proof.
  intros H. assert (Hs : 0 < sqrt a) by (apply sqrt_lt_R0; exact H).
  rewrite <- (sqrt_sqrt a) at 2 by lra. rewrite ln_mult by assumption. field.
Qed.
Lemma ln_normal_pdf m v x : 0 < v ->
  ln (normal_pdf m v x) = - (1 / 2) * (ln (2 * PI) + ln v + (x - m) ^ 2 / v).
Proof.
  intros Hv. unfold normal_pdf. pose proof two_pi_pos as Hp.
  assert (Hq : 0 < 2 * PI * v) by (apply Rmult_lt_0_compat; assumption).
  rewrite ln_div by (try apply exp_pos; apply sqrt_lt_R0; exact Hq).
  rewrite ln_exp, ln_sqrt, ln_mult by assumption. field. lra.
Qed.

Lemma gauss_b_pos nf mu var o i : (forall f, (f < nf)%nat -> 0 < var i f) -> 0 < gauss_b nf mu var o i.
Proof. intros H. apply prodn_pos. intros f Hf. apply normal_pdf_pos, H, Hf. Qed.
Lemma ln_gauss_b nf mu var o i : (forall f, (f < nf)%nat -> 0 < var i f) ->
  ln (gauss_b nf mu var o i)
  = - (1 / 2) * (INR nf * ln (2 * PI) + sumn nf (fun f => ln (var i f))
                 + sumn nf (fun f => (xval o f - mu i f) ^ 2 / var i f)).
Proof.
  intros H. unfold gauss_b. rewrite ln_prodn by (intros f Hf; apply normal_pdf_pos, H, Hf).
  rewrite (sumn_ext nf _ (fun f => - (1 / 2) * (ln (2 * PI) + ln (var i f) + (xval o f - mu i f) ^ 2 / var i f)))
    by (intros f Hf; apply ln_normal_pdf, H, Hf).
  rewrite sumn_scal_l, !sumn_plus, sumn_const. reflexivity.
Qed.

Lemma nf_log2pi_ok nf : nf_log2pi exact nf = Fin (INR nf * ln (2 * PI)).
Proof.
  unfold nf_log2pi. change (exact PI) with (Fin PI). rewrite xmulE.
  rewrite xlog_fin, xln_pos by (pose proof two_pi_pos; lra). reflexivity.
Qed.

Lemma np_maximum_fin a b : np_maximum (Fin a) (Fin b) = Fin (Rmax a b).
Proof.
  cbn [np_maximum xltb]. unfold Rltb, Rmax. destruct (Rlt_dec a b), (Rle_dec a b); try reflexivity; try lra.
  f_equal. lra.
Qed.

Lemma width_finite nf x : x <> [] -> Forall (finite_row nf) x -> width x = nf.
Proof. intros Hne H. destruct x as [|o x]; [contradiction|]. inversion H; subst. apply H2. Qed.

Lemma rows_fmat r c f : rows (fmat r c f) = tab r (fun i => fvec c (f i)).
Proof. reflexivity. Qed.

(** stats.py:47-56. *)
Lemma lmnd_diag_ok nc nf x mu var : (0 < nf)%nat -> x <> [] -> Forall (finite_row nf) x ->
  lmnd_diag exact x (fmat nc nf mu) (fmat nc nf var)
  = Ok (lmat (length x) nc (obsB (gauss_b nf mu (floored var)) x)).
Proof.
  intros Hnf Hne Hx. unfold lmnd_diag.
  rewrite (mmap_fmat _ (fun v => Rmax v tiny)) by (intros; apply np_maximum_fin).
  rewrite !nrow_fmat, !ncol_fmat, (width_finite nf x Hne Hx).
  unfold bwidth, bdim. repeat (rewrite Nat.eqb_refl; cbn [bind]). f_equal.
  rewrite (nf_log2pi_ok nf).
  apply mat_of_rows. intros t d i Ht Hi. rewrite (obsB_nth _ x d) by exact Ht.
  rewrite Forall_forall in Hx. specialize (Hx (nth t x d) (nth_In x d Ht)). set (o := nth t x d) in *.
  rewrite !bidx_lt by exact Hi.
  assert (E1 : vget (map (fun r => xsum exact (map (xlog exact) r)) (rows (fmat nc nf (fun i f => Rmax (var i f) tiny)))) i
             = Fin (sumn nf (fun f => ln (floored var i f)))).
  { rewrite rows_fmat, tab_map, vget_tab by exact Hi. unfold fvec. rewrite tab_map.
    rewrite (tab_ext nf _ (fun f => Fin (ln (floored var i f)))).
    - apply xsum_fvec.
    - intros f Hf. rewrite xlog_fin, xln_pos; [reflexivity|apply floored_pos|left; apply floored_pos]. }
  rewrite E1.
  rewrite (tab_ext nf _ (fun f => Fin ((xval o f - mu i f) ^ 2 / floored var i f))).
  2:{ intros f Hf. repeat rewrite (bidx_lt nf f Hf). rewrite !mget_fmat by assumption.
      rewrite (finite_row_get nf o f Hx Hf), xsubE. unfold xsq. rewrite xmulE, xdivE.
      - f_equal. unfold floored, Rdiv. ring.
      - pose proof (floored_pos var i f) as Hp. unfold floored in Hp. lra. }
  change (tab nf (fun f => Fin ((xval o f - mu i f) ^ 2 / floored var i f)))
    with (fvec nf (fun f => (xval o f - mu i f) ^ 2 / floored var i f)).
  rewrite xsum_fvec, !xaddE, xmulE.
  rewrite xln_pos by (apply gauss_b_pos; intros; apply floored_pos).
  rewrite ln_gauss_b by (intros; apply floored_pos). reflexivity.
Qed.
