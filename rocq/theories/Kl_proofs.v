(** * The divergences compute their formulas (exact arithmetic). *)
From Verif Require Export Kl_math Vbase_proofs.

Lemma logdetE la n A : la_right la -> pos_def n A -> logdet la exact (fmat n n A) = Fin (ln (det n A)).
Proof.
  intros Hl HA. unfold logdet. rewrite (proj2 (Hl n A HA)). unfold xltb, Rltb. destruct (Rlt_dec 1 0); [lra|reflexivity].
Qed.
Lemma la_invE la n A Ai : la_right la -> pos_def n A -> inverse n A Ai -> la_inv la exact (fmat n n A) = Ok (fmat n n Ai).
Proof.
  intros Hl HA HI. destruct (Hl n A HA) as [(P & HP & E) _]. rewrite E. f_equal.
  apply fmat_ext. intros i j Hi Hj. apply (inverse_unique n A HA P Ai HP HI); assumption.
Qed.
Lemma la_inv_pd la n A : la_right la -> pos_def n A -> la_inv la exact (fmat n n A) = Ok (fmat n n (invm n A)).
Proof. intros Hl HA. apply la_invE; [exact Hl|exact HA|]. apply invm_ok, HA. Qed.

Lemma mmul_fmat n A B : mmul exact (fmat n n A) (fmat n n B) = fmat n n (fun i j => sumn n (fun k => A i k * B k j)).
Proof.
  unfold mmul. rewrite nrow_fmat, !ncol_fmat. unfold fmat at 3. unfold mtab. f_equal. apply tab_ext. intros i Hi.
  apply tab_ext. intros j Hj. rewrite (tab_ext n _ (fun k => Fin (A i k * B k j))).
  - apply (xsum_fvec n (fun k => A i k * B k j)).
  - intros k Hk. rewrite !mget_fmat by assumption. reflexivity.
Qed.
Lemma trace_fmat n A : trace exact (fmat n n A) = Fin (sumn n (fun i => A i i)).
Proof.
  unfold trace. rewrite nrow_fmat. rewrite (tab_ext n _ (fun i => Fin (A i i))).
  - apply (xsum_fvec n (fun i => A i i)).
  - intros i Hi. apply mget_fmat; assumption.
Qed.
Lemma trace_mul n A B : sym n B -> trace exact (mmul exact (fmat n n A) (fmat n n B)) = Fin (frob n A B).
Proof.
  intros HB. rewrite mmul_fmat, trace_fmat. f_equal. unfold frob. apply sumn_ext. intros i Hi. apply sumn_ext. intros k Hk.
  rewrite (HB k i Hk Hi). reflexivity.
Qed.

Lemma kl_mvn_ok la n mq Q mp P Pi : la_right la -> pos_def n Q -> pos_def n P -> inverse n P Pi ->
  kl_mvn la exact (fvec n mq) (fmat n n Q) (fvec n mp) (fmat n n P) = Ok (Fin (klm n mq Q mp P Pi)).
Proof.
  intros Hl HQ HP HI. unfold kl_mvn. rewrite (la_invE la n P Pi Hl HP HI). cbn [bind].
  rewrite !logdetE by assumption. rewrite trace_mul by apply HQ.
  assert (E : length (fvec n mq) = n) by apply tab_length. rewrite E.
  assert (E1 : tab n (fun i => xsub exact (vget (fvec n mq) i) (vget (fvec n mp) i)) = fvec n (fun i => mq i - mp i)).
  { apply tab_ext. intros i Hi. rewrite !vget_fvec by exact Hi. reflexivity. }
  rewrite E1.
  assert (E2 : tab n (fun j => xsum exact (tab n (fun i => xmul exact (vget (fvec n (fun i => mq i - mp i)) i) (mget (fmat n n Pi) i j))))
               = fvec n (fun j => sumn n (fun i => (mq i - mp i) * Pi i j))).
  { apply tab_ext. intros j Hj. rewrite <- xsum_fvec. f_equal. apply tab_ext. intros i Hi.
    rewrite vget_fvec, mget_fmat by assumption. reflexivity. }
  rewrite E2.
  assert (E3 : tab n (fun j => xmul exact (vget (fvec n (fun j => sumn n (fun i => (mq i - mp i) * Pi i j))) j)
                                 (vget (fvec n (fun i => mq i - mp i)) j))
               = fvec n (fun j => sumn n (fun i => (mq i - mp i) * Pi i j) * (mq j - mp j))).
  { apply tab_ext. intros j Hj. rewrite !vget_fvec by assumption. reflexivity. }
  rewrite E3, xsum_fvec. rewrite !xsubE, !xaddE, xsubE, xmulE. unfold klm. do 2 f_equal. f_equal. f_equal. f_equal.
  unfold quad. rewrite sumn_swap. apply sumn_ext. intros j Hj. rewrite <- sumn_scal_r. apply sumn_ext. intros i Hi. ring.
Qed.

Lemma half_dofsE n a : half_dofs exact n (Fin a) = fvec n (fun i => (a - INR i) / 2).
Proof. apply tab_ext. intros i Hi. rewrite xsubE. apply xdivE. lra. Qed.
Lemma mhalfE n A : mhalf exact (fmat n n A) = fmat n n (fun i j => A i j / 2).
Proof. unfold mhalf. apply (mmap_fmat _ (fun a => a / 2)). intros i j Hi Hj. apply xdivE. lra. Qed.
Lemma pd_half n A : pos_def n A -> pos_def n (fun i j => A i j / 2).
Proof.
  intros H. apply (pos_def_ext n (fun i j => / 2 * A i j)); [intros; field|]. apply pd_scal; [lra|exact H].
Qed.
Lemma dof_pos n a i : INR n - 1 < a -> (i < n)%nat -> 0 < (a - INR i) / 2.
Proof.
  intros Ha Hi. assert (H1 : INR (S i) <= INR n) by (apply le_INR; lia). rewrite S_INR in H1. lra.
Qed.

Lemma wish_EE la n a A : la_right la -> pos_def n A -> INR n - 1 < a ->
  wish_E la exact (Fin a) (fmat n n A) = Fin (- ln (det n (fun i j => A i j / 2)) + sumn n (fun i => psi ((a - INR i) / 2))).
Proof.
  intros Hl HA Ha. unfold wish_E. rewrite mhalfE, logdetE by (try apply pd_half; assumption).
  rewrite nrow_fmat, half_dofsE. unfold fvec. rewrite tab_map.
  rewrite (tab_ext n _ (fun i => Fin (psi ((a - INR i) / 2)))) by (intros i Hi; apply xdigammaE, (dof_pos n); assumption).
  change (tab n (fun i => Fin (psi ((a - INR i) / 2)))) with (fvec n (fun i => psi ((a - INR i) / 2))).
  rewrite xsum_fvec. reflexivity.
Qed.
Lemma wish_logZE la n a A : la_right la -> pos_def n A -> INR n - 1 < a ->
  wish_logZ la exact (Fin a) (fmat n n A)
  = Fin (INR n * (INR n - 1) / 4 * ln PI - a / 2 * ln (det n (fun i j => A i j / 2)) + sumn n (fun i => lgam ((a - INR i) / 2))).
Proof.
  intros Hl HA Ha. unfold wish_logZ. rewrite mhalfE, logdetE by (try apply pd_half; assumption).
  rewrite nrow_fmat, half_dofsE. unfold fvec. rewrite tab_map.
  rewrite (tab_ext n _ (fun i => Fin (lgam ((a - INR i) / 2)))) by (intros i Hi; apply xgammalnE, (dof_pos n); assumption).
  change (tab n (fun i => Fin (lgam ((a - INR i) / 2)))) with (fvec n (fun i => lgam ((a - INR i) / 2))).
  rewrite xsum_fvec.
  rewrite xdivE by lra. unfold exact at 3 4. rewrite xlog_fin, xln_pos by (try apply Rlt_le; apply PI_RGT_0). rewrite !xmulE, xsubE, xaddE. reflexivity.
Qed.
Lemma kl_wishart_ok la n a A Ai b C : la_right la -> pos_def n A -> inverse n A Ai -> pos_def n C ->
  INR n - 1 < a -> INR n - 1 < b ->
  kl_wishart la exact (Fin a) (fmat n n A) (Fin b) (fmat n n C) = Ok (Fin (klw_form n a A Ai b C)).
Proof.
  intros Hl HA HI HC Ha Hb. unfold kl_wishart. rewrite (la_invE la n A Ai Hl HA HI). cbn [bind].
  rewrite wish_EE, !wish_logZE, trace_mul by (try apply (inverse_sym n A HA Ai HI); assumption).
  rewrite nrow_fmat, !xsubE, !xmulE, !xdivE, !xmulE, xsubE, !xaddE, xsubE by lra.
  unfold klw_form. do 3 f_equal. f_equal. f_equal. f_equal.
  unfold frob. apply sumn_ext. intros i Hi. apply sumn_ext. intros j Hj. ring.
Qed.
