(** * Covariances: the start values and the [covars_] setter. *)
From Verif Require Export Init_thms Full_fit.

(** Sample mean and sample covariance (used in statements). *)
Definition s_mean (x : list vec) (f : nat) : R := sumL (fun o => xval o f) x / INR (length x).
Definition s_cov (x : list vec) (k l : nat) : R :=
  sumL (fun o => (xval o k - s_mean x k) * (xval o l - s_mean x l)) x / (INR (length x) - 1).
(** ... with [mc] added to the diagonal. *)
Definition s_covr (mc : R) (x : list vec) (k l : nat) : R := s_cov x k l + (if Nat.eqb k l then mc else 0).

Lemma xsum_map {X} (f : X -> xnum) (g : X -> R) l : (forall o, In o l -> f o = Fin (g o)) ->
  xsum exact (map f l) = Fin (sumL g l).
Proof.
  intros H. unfold xsum. replace (sumL g l) with (0 + sumL g l) by ring. generalize 0 as a. revert H.
  induction l as [|o l IH]; intros H a; cbn [map fold_left sumL]; [f_equal; ring|].
  rewrite (H o (or_introl eq_refl)), xaddE, IH by (intros; apply H; right; assumption). f_equal. ring.
Qed.

Section Cov.
  Variables (nf : nat) (x : list vec).
  Hypothesis Hx : Forall (finite_row nf) x.
  Hypothesis Hn : (2 <= length x)%nat.

  Lemma cov_width : width x = nf.
  Proof. apply width_finite; [destruct x; [simpl in Hn; lia|discriminate]|exact Hx]. Qed.
  Lemma cov_len : 2 <= INR (length x). Proof. apply (le_INR 2). exact Hn. Qed.
  Lemma arr_mean_col f : (f < nf)%nat -> arr_mean exact (map (fun r => vget r f) x) = Fin (s_mean x f).
  Proof.
    intros Hf. unfold arr_mean. rewrite (xsum_map _ (fun o => xval o f)), map_length.
    - pose proof cov_len. rewrite xdivE by lra. reflexivity.
    - intros o Ho. apply (finite_row_get nf); [|exact Hf]. rewrite Forall_forall in Hx. apply Hx, Ho.
  Qed.
  Lemma np_cov_ok : np_cov exact x = fmat nf nf (s_cov x).
  Proof.
    unfold np_cov. rewrite cov_width. apply mtab_ext. intros k l Hk Hl. rewrite !arr_mean_col by assumption.
    rewrite (xsum_map _ (fun o => (xval o k - s_mean x k) * (xval o l - s_mean x l))).
    - pose proof cov_len. rewrite xdivE by lra. rewrite xmulE. unfold s_cov. f_equal. field. lra.
    - intros o Ho. rewrite Forall_forall in Hx.
      rewrite !(finite_row_get nf o) by (assumption || apply Hx, Ho). rewrite !xsubE, xmulE. reflexivity.
  Qed.
  Lemma template_ok mc : cov_template exact (Fin mc) x = fmat nf nf (s_covr mc x).
  Proof.
    unfold cov_template. rewrite cov_width, np_cov_ok. apply mtab_ext. intros k l Hk Hl. rewrite mget_fmat by assumption.
    unfold s_covr. destruct (Nat.eqb k l); rewrite xmulE, xaddE; f_equal; ring.
  Qed.
End Cov.

Lemma s_cov_psd nf x : (2 <= length x)%nat -> pos_semidef nf (s_cov x).
Proof.
  intros Hn. assert (H2 : 2 <= INR (length x)) by (apply (le_INR 2); exact Hn). split.
  - intros k l _ _. unfold s_cov. f_equal. apply sumL_ext. intros o _. ring.
  - intros v.
    assert (E : quad nf (s_cov x) v = sumL (fun o => (sumn nf (fun k => v k * (xval o k - s_mean x k))) ^ 2) x / (INR (length x) - 1)).
    { unfold quad, s_cov. generalize (s_mean x) as m. intros m. unfold Rdiv.
      set (c := / (INR (length x) - 1)). clearbody c. clear. induction x as [|o l IH].
      - cbn [sumL]. rewrite Rmult_0_l. apply sumn_zero. intros i _. apply sumn_zero. intros j _. ring.
      - cbn [sumL]. rewrite Rmult_plus_distr_r, <- IH. clear IH.
        rewrite (sumn_ext nf _ (fun i => sumn nf (fun j => v i * ((xval o i - m i) * (xval o j - m j) * c) * v j)
                                 + sumn nf (fun j => v i * (sumL (fun o => (xval o i - m i) * (xval o j - m j)) l * c) * v j))).
        + rewrite sumn_plus. f_equal.
          simpl pow. rewrite Rmult_1_r. rewrite <- sumn_scal_r. rewrite <- sumn_scal_r. apply sumn_ext. intros i _.
          rewrite Rmult_assoc, (Rmult_comm _ c), <- Rmult_assoc. rewrite <- sumn_scal_l. apply sumn_ext. intros j _. ring.
        + intros i _. rewrite <- sumn_plus. apply sumn_ext. intros j _. ring. }
    rewrite E. apply Rmult_le_pos; [apply sumL_nonneg; intros; apply pow2_ge_0|apply Rlt_le, Rinv_0_lt_compat; lra].
Qed.
Lemma s_covr_pd nf mc x : (2 <= length x)%nat -> 0 < mc -> pos_def nf (s_covr mc x).
Proof.
  intros Hn Hm. destruct (s_cov_psd nf x Hn) as [Hs Hq]. split.
  - intros k l Hk Hl. unfold s_covr. rewrite (Hs k l Hk Hl), (Nat.eqb_sym k l). reflexivity.
  - intros v (i & Hi & Hv).
    assert (E : quad nf (s_covr mc x) v = quad nf (s_cov x) v + mc * sumn nf (fun k => v k ^ 2)).
    { unfold quad, s_covr. rewrite <- sumn_scal_l, <- sumn_plus. apply sumn_ext. intros k Hk.
      rewrite <- (sumn_if_eq nf (fun l => mc * (v k ^ 2)) k Hk), <- sumn_plus. apply sumn_ext. intros l _.
      rewrite (Nat.eqb_sym l k). destruct (Nat.eqb_spec k l) as [->|]; ring. }
    rewrite E. specialize (Hq v). apply Rplus_le_lt_0_compat; [exact Hq|]. apply Rmult_lt_0_compat; [exact Hm|].
    apply Rlt_le_trans with (v i ^ 2); [destruct (Rdichotomy _ _ Hv); nra|].
    apply (sumn_ge_term nf (fun k => v k ^ 2) i); [intros; apply pow2_ge_0|exact Hi].
Qed.
