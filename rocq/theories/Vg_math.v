(** * The variational update of normal emissions never lowers the bound (real
    analysis). *)
From Verif Require Export Spec_vg Kl_math Full_train Vmath.

Lemma minv_ok n A : pos_def n A -> inverse n A (minv n A).
Proof.
  intros PD. pose proof (invm_ok n A PD) as HI. pose proof (inverse_comm n A _ PD HI) as HC.
  pose proof (inverse_sym n A PD _ HI) as HS.
  assert (E : forall r j, (r < n)%nat -> (j < n)%nat -> minv n A r j = invm n A r j).
  { intros r j Hr Hj. unfold minv.
    rewrite (det_ext n _ (setrow A r (fun c => sumn n (fun q => invm n A j q * A q c)))).
    - rewrite det_row_any by lia. rewrite (proj2 (Nat.ltb_lt r n) Hr), (HS r j Hr Hj). field. pose proof (det_pos n A PD). lra.
    - intros i c Hi Hc. unfold setrow. destruct (Nat.eqb i r); [|reflexivity].
      rewrite (HC j c Hj Hc). rewrite Nat.eqb_sym. reflexivity. }
  intros i j Hi Hj. rewrite <- (HI i j Hi Hj). apply sumn_ext. intros k Hk. rewrite E by assumption. reflexivity.
Qed.
Lemma minv_ext n A B i j : (forall i j, (i < n)%nat -> (j < n)%nat -> A i j = B i j) -> (i < n)%nat -> minv n A i j = minv n B i j.
Proof.
  intros H Hi. unfold minv. rewrite (det_ext n A B H). f_equal.
  apply det_ext. intros r c Hr Hc. destruct (Nat.eqb r i); [reflexivity|]. apply H; assumption.
Qed.
Lemma minv_nonneg n A d : pos_def n A -> 0 <= quad n (minv n A) d.
Proof. intros PD. apply (inverse_nonneg n A PD). apply minv_ok, PD. Qed.

(** ** Divergence of the means. *)
Lemma klm_scaled nf m m0 B b b0 d : pos_def nf B -> 0 < b -> 0 < b0 -> 0 < d ->
  klm nf m (fun k l => B k l / (b * d)) m0 (fun k l => B k l / (b0 * d)) (fun k l => b0 * d * minv nf B k l)
  = 1 / 2 * (INR nf * ln b - INR nf * ln b0 + INR nf * (b0 / b) + b0 * d * quad nf (minv nf B) (fun k => m k - m0 k) - INR nf).
Proof.
  intros PD Hb Hb0 Hd. unfold klm.
  assert (S : forall c, 0 < c -> ln (det nf (fun k l => B k l / (c * d))) = - (INR nf * ln c) - INR nf * ln d + ln (det nf B)).
  { intros c Hc. assert (0 < c * d) by (apply Rmult_lt_0_compat; lra).
    rewrite (det_ext nf _ (fun k l => / (c * d) * B k l)) by (intros; field; lra).
    rewrite lndet_scal by (try assumption; apply Rinv_0_lt_compat; assumption).
    rewrite ln_Rinv, ln_mult by lra. ring. }
  rewrite !S by assumption.
  assert (F : frob nf (fun k l => b0 * d * minv nf B k l) (fun k l => B k l / (b * d)) = b0 / b * INR nf).
  { rewrite <- (frob_inverse nf B PD (minv nf B) (minv_ok nf B PD)). unfold frob. rewrite <- sumn_scal_l.
    apply sumn_ext. intros k Hk. rewrite <- sumn_scal_l. apply sumn_ext. intros; field; lra. }
  rewrite F.
  assert (Q : quad nf (fun k l => b0 * d * minv nf B k l) (fun k => m k - m0 k) = b0 * d * quad nf (minv nf B) (fun k => m k - m0 k)).
  { unfold quad. rewrite <- sumn_scal_l. apply sumn_ext. intros k Hk. rewrite <- sumn_scal_l. apply sumn_ext. intros; ring. }
  rewrite Q. ring.
Qed.

(** ** The Wishart part: prior and data combine. *)
Definition wpart (nf : nat) (N d : R) (B K : nat -> nat -> R) : R :=
  N * (sumn nf (fun j => psi ((d - INR j) / 2)) + INR nf * ln 2 - ln (det nf B)) - d * frob nf (minv nf B) K.
Lemma wpart_klw nf N d B K d0 B0 B1 :
  (forall k l, (k < nf)%nat -> (l < nf)%nat -> B1 k l = B0 k l + K k l) ->
  wpart nf N d B K - 2 * klw nf d B (minv nf B) d0 B0
  = (N * INR nf * ln 2 + 2 * sumn nf (fun j => lgam ((d0 + N - INR j) / 2)) - 2 * sumn nf (fun j => lgam ((d0 - INR j) / 2))
     + d0 * ln (det nf B0) - (d0 + N) * ln (det nf B1))
    - 2 * klw nf d B (minv nf B) (d0 + N) B1.
Proof.
  intros H. unfold wpart, klw.
  rewrite (frob_ext nf (minv nf B) (minv nf B) B1 (fun k l => B0 k l + K k l)) by (auto; intros; reflexivity).
  rewrite (frob_plus nf (minv nf B) B0 K).
  unfold dlg.
  rewrite (sumn_ext nf (fun i => lgam ((d0 - INR i) / 2) - lgam ((d - INR i) / 2) - psi ((d - INR i) / 2) * ((d0 - INR i) / 2 - (d - INR i) / 2))
    (fun i => (lgam ((d0 - INR i) / 2) - lgam ((d - INR i) / 2)) + ((d - d0) / 2) * psi ((d - INR i) / 2))) by (intros; field).
  rewrite (sumn_ext nf (fun i => lgam ((d0 + N - INR i) / 2) - lgam ((d - INR i) / 2) - psi ((d - INR i) / 2) * ((d0 + N - INR i) / 2 - (d - INR i) / 2))
    (fun i => (lgam ((d0 + N - INR i) / 2) - lgam ((d - INR i) / 2)) + ((d - d0 - N) / 2) * psi ((d - INR i) / 2))) by (intros; field).
  rewrite !sumn_plus, !sumn_scal_l, !sumn_minus. field.
Qed.
Lemma klw_self nf d B : pos_def nf B -> klw nf d B (minv nf B) d B = 0.
Proof.
  intros PD. unfold klw. rewrite sumn_zero by (intros; apply dlg_self).
  rewrite (frob_inverse nf B PD _ (minv_ok nf B PD)). field.
Qed.

(** ** Covariance types. *)
Lemma keep_id ty nf K k l : ty <> "diag"%string -> ty <> "spherical"%string -> keep ty nf K k l = K k l.
Proof.
  intros H1 H2. unfold keep. destruct (String.eqb_spec ty "diag"); [contradiction|].
  destruct (String.eqb_spec ty "spherical"); [contradiction|reflexivity].
Qed.
Lemma keep_ext ty nf K K' k l : (k < nf)%nat -> (l < nf)%nat -> (forall k l, (k < nf)%nat -> (l < nf)%nat -> K k l = K' k l) -> keep ty nf K k l = keep ty nf K' k l.
Proof.
  intros Hk Hl H. unfold keep. destruct (String.eqb ty "diag"); [destruct (Nat.eqb k l); auto|].
  destruct (String.eqb ty "spherical"); [|auto]. destruct (Nat.eqb k l); [|reflexivity].
  f_equal. apply sumn_ext. intros; auto.
Qed.
Lemma keep_plus ty nf K K' k l : keep ty nf (fun k l => K k l + K' k l) k l = keep ty nf K k l + keep ty nf K' k l.
Proof.
  unfold keep. destruct (String.eqb ty "diag"); [destruct (Nat.eqb k l); ring|].
  destruct (String.eqb ty "spherical"); [|reflexivity]. destruct (Nat.eqb k l); [|ring].
  rewrite sumn_plus. unfold Rdiv. ring.
Qed.
Lemma keep_keep ty nf K k l : (0 < nf)%nat -> keep ty nf (keep ty nf K) k l = keep ty nf K k l.
Proof.
  intros Hnf. unfold keep. destruct (String.eqb ty "diag"). { rewrite Nat.eqb_refl. reflexivity. }
  destruct (String.eqb ty "spherical"); [|reflexivity]. destruct (Nat.eqb k l); [|reflexivity].
  rewrite (sumn_ext nf _ (fun _ => sumn nf (fun f => K f f) / INR nf)) by (intros; rewrite Nat.eqb_refl; reflexivity).
  rewrite sumn_const. field. apply not_0_INR. lia.
Qed.
(** A diagonal matrix has a diagonal inverse. *)
Lemma diag_inverse nf B P : pos_def nf B -> inverse nf B P ->
  (forall k l, (k < nf)%nat -> (l < nf)%nat -> k <> l -> B k l = 0) ->
  forall k l, (k < nf)%nat -> (l < nf)%nat -> P k l = if Nat.eqb k l then / B k k else 0.
Proof.
  intros PD HI H k l Hk Hl. pose proof (HI k l Hk Hl) as E.
  rewrite (sumn_single nf _ k Hk) in E by (intros i Hi Hne; rewrite H by auto; ring).
  assert (0 < B k k).
  { destruct PD as [_ HP]. specialize (HP (unitv k)). assert (Q : quad nf B (unitv k) = B k k).
    { unfold quad. rewrite (sumn_ext nf _ (fun i => unitv k i * sumn nf (fun j => unitv k j * B i j))).
      - rewrite sumn_unit by exact Hk. apply sumn_unit, Hk.
      - intros i Hi. rewrite <- sumn_scal_l. apply sumn_ext. intros; ring. }
    rewrite Q in HP. apply HP. exists k. split; [exact Hk|]. unfold unitv. rewrite Nat.eqb_refl. lra. }
  apply (Rmult_eq_reg_l (B k k)); [|lra]. rewrite E. destruct (Nat.eqb k l); field; lra.
Qed.
Lemma pd_diag_pos nf B k : pos_def nf B -> (k < nf)%nat -> 0 < B k k.
Proof.
  intros [_ HP] Hk. specialize (HP (unitv k)). assert (Q : quad nf B (unitv k) = B k k).
  { unfold quad. rewrite (sumn_ext nf _ (fun i => unitv k i * sumn nf (fun j => unitv k j * B i j))).
    - rewrite sumn_unit by exact Hk. apply sumn_unit, Hk.
    - intros i Hi. rewrite <- sumn_scal_l. apply sumn_ext. intros; ring. }
  rewrite Q in HP. apply HP. exists k. split; [exact Hk|]. unfold unitv. rewrite Nat.eqb_refl. lra.
Qed.
Lemma psd_diag_nonneg nf B k : pos_semidef nf B -> (k < nf)%nat -> 0 <= B k k.
Proof.
  intros [_ HP] Hk. specialize (HP (unitv k)). assert (Q : quad nf B (unitv k) = B k k).
  { unfold quad. rewrite (sumn_ext nf _ (fun i => unitv k i * sumn nf (fun j => unitv k j * B i j))).
    - rewrite sumn_unit by exact Hk. apply sumn_unit, Hk.
    - intros i Hi. rewrite <- sumn_scal_l. apply sumn_ext. intros; ring. }
  rewrite Q in HP. exact HP.
Qed.
Lemma frob_diag nf (P K : nat -> nat -> R) : (forall k l, (k < nf)%nat -> (l < nf)%nat -> k <> l -> P k l = 0) ->
  frob nf P K = sumn nf (fun k => P k k * K k k).
Proof.
  intros H. unfold frob. apply sumn_ext. intros k Hk. rewrite (sumn_single nf _ k Hk); [reflexivity|].
  intros l Hl Hne. rewrite H by auto. ring.
Qed.
Lemma frob_keep ty nf B K : (0 < nf)%nat -> pos_def nf B ->
  (forall k l, (k < nf)%nat -> (l < nf)%nat -> keep ty nf B k l = B k l) ->
  frob nf (minv nf B) (keep ty nf K) = frob nf (minv nf B) K.
Proof.
  intros Hnf PD HB.
  destruct (String.eqb ty "diag") eqn:E1; [|destruct (String.eqb ty "spherical") eqn:E2].
  - assert (HD : forall k l, (k < nf)%nat -> (l < nf)%nat -> k <> l -> B k l = 0).
    { intros k l Hk Hl Hne. rewrite <- HB by assumption. unfold keep. rewrite E1. destruct (Nat.eqb_spec k l); [contradiction|reflexivity]. }
    pose proof (diag_inverse nf B _ PD (minv_ok nf B PD) HD) as HP.
    assert (Z : forall k l, (k < nf)%nat -> (l < nf)%nat -> k <> l -> minv nf B k l = 0).
    { intros k l Hk Hl Hne. rewrite HP by assumption. destruct (Nat.eqb_spec k l); [contradiction|reflexivity]. }
    rewrite !frob_diag by exact Z. apply sumn_ext. intros k Hk. unfold keep. rewrite E1, Nat.eqb_refl. reflexivity.
  - assert (HD : forall k l, (k < nf)%nat -> (l < nf)%nat -> k <> l -> B k l = 0).
    { intros k l Hk Hl Hne. rewrite <- HB by assumption. unfold keep. rewrite E1, E2. destruct (Nat.eqb_spec k l); [contradiction|reflexivity]. }
    pose proof (diag_inverse nf B _ PD (minv_ok nf B PD) HD) as HP.
    assert (Z : forall k l, (k < nf)%nat -> (l < nf)%nat -> k <> l -> minv nf B k l = 0).
    { intros k l Hk Hl Hne. rewrite HP by assumption. destruct (Nat.eqb_spec k l); [contradiction|reflexivity]. }
    rewrite !frob_diag by exact Z. set (s := sumn nf (fun f => B f f) / INR nf).
    assert (HS : forall k, (k < nf)%nat -> minv nf B k k = / s).
    { intros k Hk. rewrite HP, Nat.eqb_refl by assumption. f_equal. rewrite <- HB by assumption. unfold keep. rewrite E1, E2, Nat.eqb_refl. reflexivity. }
    rewrite (sumn_ext nf (fun k => minv nf B k k * keep ty nf K k k) (fun _ => / s * (sumn nf (fun f => K f f) / INR nf)))
      by (intros k Hk; rewrite HS by exact Hk; unfold keep; rewrite E1, E2, Nat.eqb_refl; reflexivity).
    rewrite (sumn_ext nf (fun k => minv nf B k k * K k k) (fun k => / s * K k k)) by (intros k Hk; rewrite HS by exact Hk; reflexivity).
    assert (Hs : s <> 0).
    { pose proof (pd_diag_pos nf B 0 PD Hnf) as H0. pose proof (HB 0%nat 0%nat Hnf Hnf) as E. unfold keep in E. rewrite E1, E2 in E. cbn [Nat.eqb] in E. fold s in E. lra. }
    rewrite sumn_const, sumn_scal_l. field. split; [exact Hs|apply not_0_INR; lia].
  - apply frob_ext; [reflexivity|]. intros k l Hk Hl. unfold keep. rewrite E1, E2. reflexivity.
Qed.
(** Keeping part of a positive semi-definite matrix. *)
Lemma quad_diag nf (D : nat -> nat -> R) v : (forall k l, k <> l -> D k l = 0) -> quad nf D v = sumn nf (fun k => D k k * v k ^ 2).
Proof.
  intros H. unfold quad. apply sumn_ext. intros k Hk. rewrite (sumn_single nf _ k Hk); [ring|]. intros l Hl Hne. rewrite H by auto. ring.
Qed.
Lemma keep_psd ty nf K : (0 < nf)%nat -> pos_semidef nf K -> pos_semidef nf (keep ty nf K).
Proof.
  intros Hnf PS. destruct (String.eqb ty "diag") eqn:E1; [|destruct (String.eqb ty "spherical") eqn:E2].
  - split.
    + intros k l _ _. unfold keep. rewrite E1. rewrite (Nat.eqb_sym l k). destruct (Nat.eqb_spec k l); [subst; reflexivity|reflexivity].
    + intros v. rewrite quad_diag by (intros k l Hne; unfold keep; rewrite E1; destruct (Nat.eqb_spec k l); [contradiction|reflexivity]).
      apply sumn_nonneg. intros k Hk. unfold keep. rewrite E1, Nat.eqb_refl. apply Rmult_le_pos; [apply (psd_diag_nonneg nf K k PS Hk)|apply pow2_ge_0].
  - assert (HM : 0 <= sumn nf (fun f => K f f) / INR nf).
    { apply Rmult_le_pos; [apply sumn_nonneg; intros k Hk; apply (psd_diag_nonneg nf K k PS Hk)|].
      apply Rlt_le, Rinv_0_lt_compat, lt_0_INR. exact Hnf. }
    split.
    + intros k l _ _. unfold keep. rewrite E1, E2, (Nat.eqb_sym l k). reflexivity.
    + intros v. rewrite quad_diag by (intros k l Hne; unfold keep; rewrite E1, E2; destruct (Nat.eqb_spec k l); [contradiction|reflexivity]).
      apply sumn_nonneg. intros k Hk. unfold keep. rewrite E1, E2, Nat.eqb_refl. apply Rmult_le_pos; [exact HM|apply pow2_ge_0].
  - apply (pos_semidef_ext nf K); [|exact PS]. intros; unfold keep; rewrite E1, E2; reflexivity.
Qed.
Lemma pd_plus_psd nf A B : pos_def nf A -> pos_semidef nf B -> pos_def nf (fun k l => A k l + B k l).
Proof.
  intros [SA PA] [SB PB]. split.
  - intros i j Hi Hj. rewrite (SA i j), (SB i j) by assumption. reflexivity.
  - intros v Hv. pose proof (PA v Hv). pose proof (PB v).
    assert (E : quad nf (fun k l => A k l + B k l) v = quad nf A v + quad nf B v).
    { unfold quad. rewrite <- sumn_plus. apply sumn_ext. intros k Hk. rewrite <- sumn_plus. apply sumn_ext. intros; ring. }
    lra.
Qed.

(** ** One state. *)
Section Weights.
  Variables (nf : nat) (l : list (list vec * (nat -> nat -> R))).
  Hypothesis Hnf : (0 < nf)%nat.
  Notation N := (wsum l (fun _ _ => 1)).
  Notation Sx i f := (wsum l (xf f) i).
  Notation Q i k m := (wsum l (xx k m) i).
  (** Weighted logarithms of the emission weights. *)
  Lemma wsum_vg_w q i : wsum l (fun o j => ln (vg_w nf q o j)) i
    = 1 / 2 * (N i * (sumn nf (fun j => psi ((g_d q i - INR j) / 2)) + INR nf * ln 2 - ln (det nf (g_S q i)) - INR nf / g_b q i)
               - g_d q i * frob nf (minv nf (g_S q i)) (datam (wsum l (fun _ _ => 1)) (fun i f => wsum l (xf f) i) (fun i k m => wsum l (xx k m) i) (g_m q) i)).
  Proof.
    rewrite <- wsum_mat.
    rewrite (wsum_ext l _ (fun o _ =>
      (1 / 2 * (sumn nf (fun j => psi ((g_d q i - INR j) / 2)) + INR nf * ln 2 - ln (det nf (g_S q i)) - INR nf / g_b q i)) * 1
      + (- (1 / 2) * g_d q i) * quad nf (minv nf (g_S q i)) (fun k => xval o k - g_m q i k)) i (fun _ => True));
      [|intros x g _; apply Forall_forall; trivial|intros o _; unfold vg_w; rewrite ln_exp; ring].
    rewrite (wsum_plus l (fun _ _ => (1 / 2 * (sumn nf (fun j => psi ((g_d q i - INR j) / 2)) + INR nf * ln 2 - ln (det nf (g_S q i)) - INR nf / g_b q i)) * 1)
               (fun o _ => (- (1 / 2) * g_d q i) * quad nf (minv nf (g_S q i)) (fun k => xval o k - g_m q i k)) i).
    rewrite (wsum_scal l _ (fun _ _ => 1) i), (wsum_scal l _ (fun o _ => quad nf (minv nf (g_S q i)) (fun k => xval o k - g_m q i k)) i). ring.
  Qed.

  Section State.
    Variables (b0 : R) (m0 : nat -> R) (i : nat).
    Hypothesis Hb0 : 0 < b0.
    Hypothesis HN : 0 <= N i.
    Let b1 := b0 + N i.
    Let m1 (f : nat) : R := (b0 * m0 f + Sx i f) / b1.
    Let K1 (k m : nat) : R := Q i k m + b0 * (m0 k * m0 m) - b1 * (m1 k * m1 m).
    (** Scatter about any mean: scatter about the best one plus a square. *)
    Lemma scatter_split (mu : nat -> nat -> R) k m :
      datam (wsum l (fun _ _ => 1)) (fun i f => wsum l (xf f) i) (fun i k m => wsum l (xx k m) i) mu i k m
      + b0 * ((mu i k - m0 k) * (mu i m - m0 m))
      = K1 k m + b1 * ((mu i k - m1 k) * (mu i m - m1 m)).
    Proof. unfold datam, K1, m1, b1. field. lra. Qed.
    Lemma K1_psd (nc : nat) (ok : vec -> Prop) : (forall x g, In (x, g) l -> Forall ok x /\ forall t, (t < length x)%nat -> 0 <= g t i) ->
      pos_semidef nf K1.
    Proof.
      intros HG.
      assert (E : forall k m, K1 k m = datam (wsum l (fun _ _ => 1)) (fun i f => wsum l (xf f) i) (fun i k m => wsum l (xx k m) i) (fun _ => m1) i k m
                                       + b0 * ((m1 k - m0 k) * (m1 m - m0 m))).
      { intros k m. rewrite (scatter_split (fun _ => m1)). ring. }
      apply (pos_semidef_ext nf (scatm (fun _ => m0) b0 (wsum l (fun _ _ => 1)) (fun i f => wsum l (xf f) i) (fun i k m => wsum l (xx k m) i) (fun _ => m1) i)).
      { intros k m _ _. rewrite E. unfold scatm, datam. ring. }
      split.
      - intros k m Hk Hm. unfold scatm.
        replace (wsum l (xx k m) i) with (wsum l (xx m k) i); [ring|].
        apply (wsum_ext l _ _ i (fun _ => True)); [intros x g _; apply Forall_forall; trivial|]. intros o _. unfold xx. ring.
      - intros v. rewrite quad_scatm. rewrite wsum_quad, wsum_dot.
        pose proof (pow2_ge_0 (dot nf v (fun k => m1 k - m0 k))) as Hsq.
        assert (0 <= b0 * dot nf v (fun k => m1 k - m0 k) ^ 2) by (apply Rmult_le_pos; lra).
        pose proof (wsum_square nf l v (dot nf v m1) i) as E2.
        assert (0 <= wsum l (fun o _ => (dot nf v (xval o) - dot nf v m1) ^ 2) i).
        { apply (wsum_nonneg l _ i ok HG). intros; apply pow2_ge_0. }
        lra.
    Qed.
    (** Twice the objective of the state, apart from the Wishart divergence. *)
    Lemma state_split q : 0 < g_b q i -> 0 < g_d q i -> pos_def nf (g_S q i) ->
      2 * (wsum l (fun o j => ln (vg_w nf q o j)) i
           - klm nf (g_m q i) (fun k l => g_S q i k l / (g_b q i * g_d q i)) m0
               (fun k l => g_S q i k l / (b0 * g_d q i)) (fun k l => b0 * g_d q i * minv nf (g_S q i) k l))
      = wpart nf (N i) (g_d q i) (g_S q i) K1 - g_d q i * b1 * quad nf (minv nf (g_S q i)) (fun k => g_m q i k - m1 k)
        - INR nf * (b1 / g_b q i + ln (g_b q i)) + INR nf * ln b0 + INR nf.
    Proof.
      intros Hb Hd PD. rewrite klm_scaled by assumption. rewrite wsum_vg_w. unfold wpart.
      set (P := minv nf (g_S q i)).
      assert (E : frob nf P (datam (wsum l (fun _ _ => 1)) (fun i f => wsum l (xf f) i) (fun i k m => wsum l (xx k m) i) (g_m q) i)
                  + b0 * quad nf P (fun k => g_m q i k - m0 k)
                  = frob nf P K1 + b1 * quad nf P (fun k => g_m q i k - m1 k)).
      { rewrite <- (frob_outer nf P (fun k => g_m q i k - m0 k)), <- (frob_outer nf P (fun k => g_m q i k - m1 k)).
        rewrite <- !frob_scal, <- !frob_plus. apply frob_ext; [reflexivity|]. intros k m _ _.
        apply scatter_split. }
      apply (f_equal (fun z => g_d q i * z)) in E. unfold b1 in *.
      replace (INR nf * ((b0 + N i) / g_b q i + ln (g_b q i))) with (INR nf * (b0 / g_b q i) + N i * (INR nf / g_b q i) + INR nf * ln (g_b q i)) by (field; lra).
      lra.
    Qed.
  End State.
End Weights.

Lemma gain_b b b1 : 0 < b -> 0 < b1 -> 1 + ln b1 <= b1 / b + ln b.
Proof.
  intros Hb H1. assert (0 < b1 / b) by (apply Rdiv_lt_0_compat; lra).
  pose proof (ln_le_x1 (b1 / b) H) as L. rewrite ln_div in L by lra. lra.
Qed.

(** ** The whole update. *)
Section Vgi.
  Variables (ty : string) (nc nf : nat) (cs : list (list vec)).
  Hypothesis Hnc : (0 < nc)%nat.
  Hypothesis Hnf : (0 < nf)%nat.
  Hypothesis Hcs : forall c, In c cs -> c <> [] /\ Forall (finite_row nf) c.

  Lemma gw_s_pos q : pos1 nc (gw_s nc q). Proof. intros i _. apply sub1_pos. Qed.
  Lemma gw_t_pos q : pos2 nc nc (gw_t nc q). Proof. intros i j _ _. apply sub1_pos. Qed.
  Lemma vg_w_pos q : forall o i, finite_row nf o -> (i < nc)%nat -> 0 < vg_w nf q o i.
  Proof. intros. apply exp_pos. Qed.
  Definition wl (q : gdirs) : list (list vec * (nat -> nat -> R)) :=
    map (fun c => (c, seq_post nc (gw_s nc q) (gw_t nc q) (vg_w nf q) c)) cs.
  Lemma wl_ok q i : (i < nc)%nat -> forall x g, In (x, g) (wl q) -> Forall (finite_row nf) x /\ forall t, (t < length x)%nat -> 0 <= g t i.
  Proof.
    intros Hi x g H. unfold wl in H. apply in_map_iff in H. destruct H as (c & E & Hc). injection E as <- <-.
    split; [apply Hcs, Hc|]. intros t Ht.
    apply (vpost_stoch (finite_row nf) nc cs Hnc Hcs _ _ _ (gw_s_pos q) (gw_t_pos q) (vg_w_pos q) c t Hc Ht). exact Hi.
  Qed.
  Lemma g_n_wsum q i : g_n nc nf cs q i = wsum (wl q) (fun _ _ => 1) i.
  Proof. symmetry. apply wsum_occupancy. Qed.
  Lemma g_x_wsum q i f : g_x nc nf cs q i f = wsum (wl q) (xf f) i.
  Proof. symmetry. apply (wsum_posteriors nc (gw_s nc q) (gw_t nc q) (vg_w nf q) cs (fun o => xval o f) i). Qed.
  Lemma g_xx_wsum q i k l : g_xx nc nf cs q i k l = wsum (wl q) (xx k l) i.
  Proof. symmetry. apply (wsum_posteriors nc (gw_s nc q) (gw_t nc q) (vg_w nf q) cs (fun o => xval o k * xval o l) i). Qed.
  Lemma g_n_nonneg q i : (i < nc)%nat -> 0 <= g_n nc nf cs q i.
  Proof. intros Hi. rewrite g_n_wsum. apply (wsum_nonneg _ _ i (finite_row nf)); [apply wl_ok, Hi|]. intros; lra. Qed.
  Lemma g_start_nonneg q i : (i < nc)%nat -> 0 <= g_start nc nf cs q i.
  Proof.
    intros Hi. apply sumL_nonneg. intros c Hc.
    apply (vpost_stoch (finite_row nf) nc cs Hnc Hcs _ _ _ (gw_s_pos q) (gw_t_pos q) (vg_w_pos q) c 0 Hc); [|exact Hi].
    apply (len_pos (finite_row nf) nc cs Hnc Hcs c Hc).
  Qed.
  Lemma g_move_nonneg q i j : (i < nc)%nat -> (j < nc)%nat -> 0 <= g_move nc nf cs q i j.
  Proof.
    intros Hi Hj. apply sumL_nonneg. intros c Hc.
    apply (vtrans_nonneg (finite_row nf) nc cs Hnc Hcs _ _ _ (gw_s_pos q) (gw_t_pos q) (vg_w_pos q) c); assumption.
  Qed.

  Variables (params : string) (p : gdirs).
  Hypothesis Hp : gvalid ty nc nf p.
  Hypothesis Hmc : has "m" params = true \/ has "c" params = false.
  Notation next := (vg_next ty nc nf cs params p).
  Notation Knew q i := (new_K nc nf cs params p q i).

  Lemma dof_pos0 q i : gvalid ty nc nf q -> (i < nc)%nat -> 0 < g_d q i.
  Proof. intros Hq Hi. pose proof (gv_d _ _ _ _ Hq i Hi). assert (1 <= INR nf) by (apply (le_INR 1); lia). lra. Qed.

  Lemma K_psd q i : has "m" params = true -> (i < nc)%nat -> pos_semidef nf (Knew q i).
  Proof.
    intros Hm Hi.
    pose proof (K1_psd nf (wl q) (g_b p i) (g_m p i) i (gv_b _ _ _ _ Hp i Hi)
                  ltac:(rewrite <- g_n_wsum; apply g_n_nonneg, Hi) nc (finite_row nf) (wl_ok q i Hi)) as K.
    cbv zeta in K. eapply pos_semidef_ext; [|exact K]. intros k l Hk Hl. cbv beta.
    unfold new_K, new_m, new_b. rewrite Hm, !g_x_wsum, g_xx_wsum, g_n_wsum. reflexivity.
  Qed.

  Lemma vg_next_valid q : gvalid ty nc nf q -> gvalid ty nc nf (next q).
  Proof.
    intros Hq. pose proof Hp as [P1 P2 P3 P4 P5 P6 P7]. pose proof Hq as [Q1 Q2 Q3 Q4 Q5 Q6 Q7].
    assert (Hsum : 0 <= sumn nc (g_n nc nf cs q)) by (apply sumn_nonneg; intros; apply g_n_nonneg; assumption).
    constructor; unfold vg_next; cbn [g_s g_t g_b g_m g_d g_S].
    - intros i Hi. destruct (has "s" params); [|auto]. pose proof (P1 i Hi). pose proof (g_start_nonneg q i Hi). lra.
    - intros i j Hi Hj. destruct (has "t" params); [|auto]. pose proof (P2 i j Hi Hj). pose proof (g_move_nonneg q i j Hi Hj). lra.
    - intros i Hi. unfold new_b. destruct (has "m" params); [|auto]. pose proof (P3 i Hi). pose proof (g_n_nonneg q i Hi). lra.
    - intros i Hi. destruct (has "c" params); [|auto]. pose proof (P4 i Hi). pose proof (g_n_nonneg q i Hi). destruct (String.eqb ty "tied"); lra.
    - intros i Hi. destruct (has "c" params) eqn:Hc; [|auto]. destruct Hmc as [Hm|]; [|discriminate].
      destruct (String.eqb ty "tied").
      + apply pd_plus_psd; [auto|]. apply psd_sum. intros j Hj. apply K_psd; assumption.
      + apply pd_plus_psd; [auto|]. apply keep_psd; [exact Hnf|]. apply K_psd; assumption.
    - intros i k l Hi Hk Hl. destruct (has "c" params); [|auto]. rewrite keep_plus, P6 by assumption. f_equal.
      destruct (String.eqb_spec ty "tied") as [->|]; [apply keep_id; discriminate|]. apply keep_keep, Hnf.
    - intros Ht i Hi. destruct (has "c" params); [|auto]. destruct (P7 Ht i Hi) as [D E]. rewrite Ht. cbn [String.eqb Ascii.eqb Bool.eqb].
      split; [rewrite D; reflexivity|]. intros k l Hk Hl. rewrite E by assumption. reflexivity.
  Qed.

  (** The objective of the emissions of state [i]; [q0] gives the weights. *)
  Lemma state_gain q0 q i : gvalid ty nc nf q -> (i < nc)%nat ->
    2 * (wsum (wl q0) (fun o j => ln (vg_w nf q o j)) i - kl_mean nf p q i)
    = wpart nf (g_n nc nf cs q0 i) (g_d q i) (g_S q i) (new_K nc nf cs "m" p q0 i)
      - g_d q i * new_b nc nf cs "m" p q0 i * quad nf (minv nf (g_S q i)) (fun k => g_m q i k - new_m nc nf cs "m" p q0 i k)
      - INR nf * (new_b nc nf cs "m" p q0 i / g_b q i + ln (g_b q i)) + INR nf * ln (g_b p i) + INR nf.
  Proof.
    intros Hq Hi.
    pose proof (state_split nf (wl q0) (g_b p i) (g_m p i) i (gv_b _ _ _ _ Hp i Hi)
                  ltac:(rewrite <- g_n_wsum; apply g_n_nonneg, Hi) q (gv_b _ _ _ _ Hq i Hi) (dof_pos0 q i Hq Hi) (gv_S _ _ _ _ Hq i Hi)) as E.
    cbv zeta in E. unfold kl_mean. etransitivity; [exact E|]. clear E.
    assert (Em : has "m" "m" = true) by reflexivity.
    unfold wpart, new_K, new_m, new_b. rewrite Em, !g_n_wsum. f_equal. f_equal. f_equal. f_equal.
    - f_equal. f_equal. apply frob_ext; [reflexivity|]. intros k l Hk Hl. rewrite !g_x_wsum, g_xx_wsum. reflexivity.
    - f_equal. apply quad_ext; [reflexivity|]. intros k Hk. rewrite g_x_wsum. reflexivity.
  Qed.

  Lemma kl_precE q i : gvalid ty nc nf q -> (i < nc)%nat ->
    kl_prec nf p q i = klw nf (g_d q i) (g_S q i) (minv nf (g_S q i)) (g_d p i) (g_S p i).
  Proof. intros Hq Hi. apply klw_form_eq; [apply (gv_S _ _ _ _ Hq i Hi)|apply (gv_S _ _ _ _ Hp i Hi)]. Qed.
  Lemma klw_valid q q' i : gvalid ty nc nf q -> gvalid ty nc nf q' -> (i < nc)%nat ->
    0 <= klw nf (g_d q i) (g_S q i) (minv nf (g_S q i)) (g_d q' i) (g_S q' i).
  Proof.
    intros Hq Hq' Hi. apply klw_nonneg; try (apply (gv_d _ _ _ _ Hq i Hi)); try (apply (gv_d _ _ _ _ Hq' i Hi)).
    - apply (dof_pos0 q i Hq Hi).
    - apply (dof_pos0 q' i Hq' Hi).
    - apply (gv_S _ _ _ _ Hq i Hi).
    - apply minv_ok, (gv_S _ _ _ _ Hq i Hi).
    - apply (gv_S _ _ _ _ Hq' i Hi).
  Qed.
  Lemma wpart_keep q i N K : gvalid ty nc nf q -> (i < nc)%nat ->
    wpart nf N (g_d q i) (g_S q i) (keep ty nf K) = wpart nf N (g_d q i) (g_S q i) K.
  Proof.
    intros Hq Hi. unfold wpart. rewrite (frob_keep ty nf (g_S q i) K Hnf (gv_S _ _ _ _ Hq i Hi)); [reflexivity|].
    intros k l Hk Hl. apply (gv_keep _ _ _ _ Hq i k l Hi Hk Hl).
  Qed.
  Lemma wpart_tied q N K : ty = "tied"%string -> gvalid ty nc nf q ->
    sumn nc (fun i => wpart nf (N i) (g_d q i) (g_S q i) (K i))
    = wpart nf (sumn nc N) (g_d q 0) (g_S q 0) (fun k l => sumn nc (fun i => K i k l)).
  Proof.
    intros Ht Hq. unfold wpart.
    rewrite (sumn_ext nc _ (fun i => N i * (sumn nf (fun j => psi ((g_d q 0 - INR j) / 2)) + INR nf * ln 2 - ln (det nf (g_S q 0)))
                                     - g_d q 0 * frob nf (minv nf (g_S q 0)) (K i))).
    2:{ intros i Hi. destruct (gv_tied _ _ _ _ Hq Ht i Hi) as [D E]. rewrite D, (det_ext nf (g_S q i) (g_S q 0) E). f_equal. f_equal.
        apply frob_ext; [|reflexivity]. intros k l Hk Hl. apply minv_ext; assumption. }
    rewrite (sumn_minus nc (fun i => N i * _)), sumn_scal_r, sumn_scal_l, frob_sumn. reflexivity.
  Qed.

  (** The emissions never lose. *)
  Lemma emission_gain q : gvalid ty nc nf q ->
    let q' := next q in
    sumn nc (kl_mean nf p q') + (if String.eqb ty "tied" then kl_prec nf p q' 0 else sumn nc (kl_prec nf p q'))
    - (sumn nc (kl_mean nf p q) + (if String.eqb ty "tied" then kl_prec nf p q 0 else sumn nc (kl_prec nf p q)))
    <= sumn nc (fun i => wsum (wl q) (fun o j => ln (vg_w nf q' o j)) i) - sumn nc (fun i => wsum (wl q) (fun o j => ln (vg_w nf q o j)) i).
  Proof.
    intros Hq q'. pose proof (vg_next_valid q Hq) as Hq'. fold q' in Hq'.
    (* neither means nor covariances are trained *)
    destruct (has "m" params) eqn:Hm; [clear Hmc|destruct Hmc as [|Hc]; [discriminate|]].
    2:{ assert (E : forall i, kl_mean nf p q' i = kl_mean nf p q i /\ kl_prec nf p q' i = kl_prec nf p q i
                   /\ wsum (wl q) (fun o j => ln (vg_w nf q' o j)) i = wsum (wl q) (fun o j => ln (vg_w nf q o j)) i).
        { intros i. unfold kl_mean, kl_prec, vg_w, q', vg_next, new_m, new_b. cbn [g_d g_S g_m g_b]. rewrite Hm, Hc. auto. }
        rewrite (sumn_ext nc (kl_mean nf p q') (kl_mean nf p q)) by (intros; apply E).
        rewrite (sumn_ext nc (kl_prec nf p q') (kl_prec nf p q)) by (intros; apply E).
        rewrite (sumn_ext nc (fun i => wsum (wl q) (fun o j => ln (vg_w nf q' o j)) i) (fun i => wsum (wl q) (fun o j => ln (vg_w nf q o j)) i)) by (intros; apply E).
        destruct (String.eqb ty "tied"); [rewrite (proj1 (proj2 (E 0%nat)))|]; lra. }
    set (N := g_n nc nf cs q). set (K := new_K nc nf cs "m" p q). set (b1 := new_b nc nf cs "m" p q). set (m1 := new_m nc nf cs "m" p q).
    assert (Em : has "m" "m" = true) by reflexivity.
    assert (EK : forall i k l, new_K nc nf cs params p q i k l = K i k l).
    { intros. unfold K, new_K, new_m, new_b. rewrite Hm, Em. reflexivity. }
    assert (Hb1 : forall i, (i < nc)%nat -> 0 < b1 i).
    { intros i Hi. unfold b1, new_b. rewrite Em. pose proof (gv_b _ _ _ _ Hp i Hi). pose proof (g_n_nonneg q i Hi). lra. }
    (* what a state gains: means *)
    assert (Hs : forall i, (i < nc)%nat ->
      2 * (wsum (wl q) (fun o j => ln (vg_w nf q o j)) i - kl_mean nf p q i) - wpart nf (N i) (g_d q i) (g_S q i) (K i)
      <= 2 * (wsum (wl q) (fun o j => ln (vg_w nf q' o j)) i - kl_mean nf p q' i) - wpart nf (N i) (g_d q' i) (g_S q' i) (K i)).
    { intros i Hi. rewrite (state_gain q q i Hq Hi), (state_gain q q' i Hq' Hi).
      assert (Eb : g_b q' i = b1 i) by (unfold q', vg_next, b1, new_b; cbn [g_b]; rewrite Hm, Em; reflexivity).
      assert (Z : quad nf (minv nf (g_S q' i)) (fun k => g_m q' i k - new_m nc nf cs "m" p q i k) = 0).
      { unfold quad. apply sumn_zero. intros k Hk. apply sumn_zero. intros l Hl.
        replace (g_m q' i k) with (new_m nc nf cs "m" p q i k); [ring|]. unfold q', vg_next, new_m. cbn [g_m]. rewrite Hm, Em. reflexivity. }
      rewrite Z, Eb. fold b1. fold N. fold K.
      assert (Hx : 0 <= g_d q i * b1 i * quad nf (minv nf (g_S q i)) (fun k => g_m q i k - new_m nc nf cs "m" p q i k)).
      { apply Rmult_le_pos; [apply Rmult_le_pos; [apply Rlt_le, (dof_pos0 q i Hq Hi)|apply Rlt_le, Hb1, Hi]|].
        apply minv_nonneg, (gv_S _ _ _ _ Hq i Hi). }
      pose proof (gain_b (g_b q i) (b1 i) (gv_b _ _ _ _ Hq i Hi) (Hb1 i Hi)) as Gb.
      assert (INR nf * (1 + ln (b1 i)) <= INR nf * (b1 i / g_b q i + ln (g_b q i))) by (apply Rmult_le_compat_l; [apply pos_INR|exact Gb]).
      replace (b1 i / b1 i) with 1 by (field; pose proof (Hb1 i Hi); lra). lra. }
    apply sumn_le in Hs. rewrite !sumn_minus in Hs. rewrite !sumn_scal_l, !sumn_minus in Hs.
    (* the precisions *)
    assert (Hw : sumn nc (fun i => wpart nf (N i) (g_d q i) (g_S q i) (K i)) - 2 * (if String.eqb ty "tied" then kl_prec nf p q 0 else sumn nc (kl_prec nf p q))
                 <= sumn nc (fun i => wpart nf (N i) (g_d q' i) (g_S q' i) (K i)) - 2 * (if String.eqb ty "tied" then kl_prec nf p q' 0 else sumn nc (kl_prec nf p q'))).
    { destruct (has "c" params) eqn:Hc.
      2:{ assert (E : forall i, kl_prec nf p q' i = kl_prec nf p q i /\ g_d q' i = g_d q i /\ g_S q' i = g_S q i).
          { intros i. unfold kl_prec, q', vg_next. cbn [g_d g_S]. rewrite Hc. auto. }
          rewrite (sumn_ext nc (kl_prec nf p q') (kl_prec nf p q)) by (intros; apply E).
          rewrite (sumn_ext nc (fun i => wpart nf (N i) (g_d q' i) (g_S q' i) (K i)) (fun i => wpart nf (N i) (g_d q i) (g_S q i) (K i)))
            by (intros i _; destruct (E i) as (_ & -> & ->); reflexivity).
          destruct (String.eqb ty "tied"); [rewrite (proj1 (E 0%nat))|]; lra. }
      destruct (String.eqb_spec ty "tied") as [Ht|Ht].
      - rewrite (wpart_tied q N K Ht Hq), (wpart_tied q' N K Ht Hq'). rewrite !kl_precE by assumption.
        assert (ES : forall k l, (k < nf)%nat -> (l < nf)%nat -> g_S q' 0%nat k l = g_S p 0%nat k l + sumn nc (fun i => K i k l)).
        { intros k l _ _. unfold q', vg_next. cbn [g_S]. rewrite Hc, Ht. cbn [String.eqb Ascii.eqb Bool.eqb]. f_equal. apply sumn_ext. intros; apply EK. }
        assert (Ed : g_d q' 0%nat = g_d p 0%nat + sumn nc N).
        { unfold q', vg_next. cbn [g_d]. rewrite Hc, Ht. reflexivity. }
        rewrite (wpart_klw nf (sumn nc N) (g_d q 0) (g_S q 0) _ (g_d p 0) (g_S p 0) (g_S q' 0) ES).
        rewrite (wpart_klw nf (sumn nc N) (g_d q' 0) (g_S q' 0) _ (g_d p 0) (g_S p 0) (g_S q' 0) ES).
        rewrite <- Ed, (klw_self nf (g_d q' 0) (g_S q' 0) (gv_S _ _ _ _ Hq' 0%nat Hnc)).
        pose proof (klw_valid q q' 0 Hq Hq' Hnc). lra.
      - rewrite <- !sumn_scal_l, <- !sumn_minus. apply sumn_le. intros i Hi. rewrite !kl_precE by assumption.
        rewrite <- (wpart_keep q i (N i) (K i) Hq Hi), <- (wpart_keep q' i (N i) (K i) Hq' Hi).
        assert (ES : forall k l, (k < nf)%nat -> (l < nf)%nat -> g_S q' i k l = g_S p i k l + keep ty nf (K i) k l).
        { intros k l Hk Hl. unfold q', vg_next. cbn [g_S]. rewrite Hc. destruct (String.eqb_spec ty "tied"); [contradiction|]. f_equal.
          apply keep_ext; try assumption. intros; apply EK. }
        assert (Ed : g_d q' i = g_d p i + N i).
        { unfold q', vg_next. cbn [g_d]. rewrite Hc. destruct (String.eqb_spec ty "tied"); [contradiction|]. reflexivity. }
        rewrite (wpart_klw nf (N i) (g_d q i) (g_S q i) _ (g_d p i) (g_S p i) (g_S q' i) ES).
        rewrite (wpart_klw nf (N i) (g_d q' i) (g_S q' i) _ (g_d p i) (g_S p i) (g_S q' i) ES).
        rewrite <- Ed, (klw_self nf (g_d q' i) (g_S q' i) (gv_S _ _ _ _ Hq' i Hi)).
        pose proof (klw_valid q q' i Hq Hq' Hi). lra. }
    cbv beta in Hs |- *.
    change (sumn nc (fun i => wsum (wl q) (fun o j => ln (vg_w nf q o j)) i)) with (sumn nc (wsum (wl q) (fun o j => ln (vg_w nf q o j)))).
    change (sumn nc (fun i => wsum (wl q) (fun o j => ln (vg_w nf q' o j)) i)) with (sumn nc (wsum (wl q) (fun o j => ln (vg_w nf q' o j)))).
    lra.
  Qed.

  Theorem vg_improve q : gvalid ty nc nf q -> vg_elbo ty nc nf cs p q <= vg_elbo ty nc nf cs p (next q).
  Proof.
    intros Hq. pose proof (emission_gain q Hq) as G3. cbv zeta in G3. pose proof (vg_next_valid q Hq) as Hq'. set (q' := next q) in *.
    pose proof (vb_gain (finite_row nf) nc cs Hnc Hcs _ _ _ (gw_s_pos q) (gw_t_pos q) (vg_w_pos q) _ _ _ (gw_s_pos q') (gw_t_pos q') (vg_w_pos q')) as G.
    assert (G1 : dkl nc (g_s q') (g_s p) - dkl nc (g_s q) (g_s p) <= sumn nc (fun i => g_start nc nf cs q i * (ln (gw_s nc q' i) - ln (gw_s nc q i)))).
    { unfold q', gw_s, vg_next. cbn [g_s]. destruct (has "s" params).
      - apply dir_gain; [exact Hnc|apply Hp| |apply Hq]. intros i Hi. apply g_start_nonneg, Hi.
      - rewrite sumn_zero; [lra|]. intros; ring. }
    assert (G2 : sumn nc (fun i => dkl nc (g_t q' i) (g_t p i)) - sumn nc (fun i => dkl nc (g_t q i) (g_t p i))
                 <= sumn nc (fun i => sumn nc (fun j => g_move nc nf cs q i j * (ln (gw_t nc q' i j) - ln (gw_t nc q i j))))).
    { rewrite <- sumn_minus. apply sumn_le. intros i Hi. unfold q', gw_t, vg_next. cbn [g_t]. destruct (has "t" params).
      - apply dir_gain; [exact Hnc| | |]; intros j Hj; [apply (gv_t _ _ _ _ Hp)| |apply (gv_t _ _ _ _ Hq)]; try assumption. apply g_move_nonneg; assumption.
      - rewrite sumn_zero; [lra|]. intros; ring. }
    assert (E : sumL (fun c => sumn (length c) (fun t => sumn nc (fun i => seq_post nc (gw_s nc q) (gw_t nc q) (vg_w nf q) c t i
                  * (ln (obsB (vg_w nf q') c t i) - ln (obsB (vg_w nf q) c t i))))) cs
              = sumn nc (fun i => wsum (wl q) (fun o j => ln (vg_w nf q' o j)) i) - sumn nc (fun i => wsum (wl q) (fun o j => ln (vg_w nf q o j)) i)).
    { rewrite <- sumn_minus.
      transitivity (sumL (fun w => sumn (length (fst w)) (fun t => sumn nc (fun i => snd w t i * (ln (obsB (vg_w nf q') (fst w) t i) - ln (obsB (vg_w nf q) (fst w) t i))))) (wl q)).
      { unfold wl. rewrite sumL_map. reflexivity. }
      rewrite gain_by_state. apply sumn_ext. intros i Hi.
      rewrite (wsum_ext (wl q) _ (fun o j => ln (vg_w nf q' o j) + (-1) * ln (vg_w nf q o j)) i (fun _ => True));
        [|intros x g _; apply Forall_forall; trivial|intros; ring].
      rewrite (wsum_plus (wl q) (fun o j => ln (vg_w nf q' o j)) (fun o j => (-1) * ln (vg_w nf q o j))).
      rewrite (wsum_scal (wl q) (-1) (fun o j => ln (vg_w nf q o j))). ring. }
    rewrite E in G. clear E. unfold vg_elbo. unfold g_start, g_move in G1, G2. lra.
  Qed.
End Vgi.
