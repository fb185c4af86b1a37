(** * Inverses of positive-definite matrices and the log-determinant
    inequality. *)
From Verif Require Export Full_thms EMath.

(** Inverse by the same triangular solves as the model. *)
Definition unitv (i k : nat) : R := if Nat.eqb k i then 1 else 0.
Definition invm (n : nat) (A : nat -> nat -> R) (i j : nat) : R :=
  match cholesky exact (fmat n n A) with
  | Ok (Some cols) =>
      let z k := fsolve exact cols (fvec n (unitv k)) in
      sumn n (fun q => xval (z i) q * xval (z j) q)
  | _ => 0
  end.

Lemma sumn_unit n f i : (i < n)%nat -> sumn n (fun k => unitv i k * f k) = f i.
Proof.
  intros Hi. rewrite (sumn_ext n _ (fun k => if Nat.eqb k i then f k else 0)).
  - apply sumn_if_eq. exact Hi.
  - intros k Hk. unfold unitv. destruct (Nat.eqb k i); ring.
Qed.

Lemma frob_ext n P P' K K' : (forall i j, (i < n)%nat -> (j < n)%nat -> P i j = P' i j) ->
  (forall i j, (i < n)%nat -> (j < n)%nat -> K i j = K' i j) -> frob n P K = frob n P' K'.
Proof. intros H1 H2. unfold frob. apply sumn_ext. intros i Hi. apply sumn_ext. intros j Hj. rewrite H1, H2 by assumption. reflexivity. Qed.
Lemma frob_plus n P K K' : frob n P (fun i j => K i j + K' i j) = frob n P K + frob n P K'.
Proof.
  unfold frob. rewrite <- sumn_plus. apply sumn_ext. intros i Hi. rewrite <- sumn_plus. apply sumn_ext. intros; ring.
Qed.
Lemma frob_scal n P c K : frob n P (fun i j => c * K i j) = c * frob n P K.
Proof.
  unfold frob. rewrite <- sumn_scal_l. apply sumn_ext. intros i Hi. rewrite <- sumn_scal_l. apply sumn_ext. intros; ring.
Qed.
Lemma frob_outer n P d : frob n P (fun i j => d i * d j) = quad n P d.
Proof. unfold frob, quad. apply sumn_ext. intros i Hi. apply sumn_ext. intros; ring. Qed.
Lemma frob_sumn n P m (K : nat -> nat -> nat -> R) : frob n P (fun i j => sumn m (fun k => K k i j)) = sumn m (fun k => frob n P (K k)).
Proof.
  unfold frob. symmetry. rewrite sumn_swap. apply sumn_ext. intros i Hi. rewrite sumn_swap. apply sumn_ext. intros j Hj.
  apply sumn_scal_l.
Qed.
Lemma quad_frob n A v : quad n A v = frob n (fun i j => v i * v j) A.
Proof. unfold frob, quad. apply sumn_ext. intros i Hi. apply sumn_ext. intros; ring. Qed.
Lemma quad_ext n A B v u : (forall i j, (i < n)%nat -> (j < n)%nat -> A i j = B i j) ->
  (forall i, (i < n)%nat -> v i = u i) -> quad n A v = quad n B u.
Proof. intros H1 H2. unfold quad. apply sumn_ext. intros i Hi. apply sumn_ext. intros j Hj. rewrite H1, !H2 by assumption. reflexivity. Qed.
Lemma quad_outer n d v : quad n (fun i j => d i * d j) v = sumn n (fun i => v i * d i) * sumn n (fun i => v i * d i).
Proof.
  unfold quad. rewrite <- sumn_scal_r. apply sumn_ext. intros i Hi. rewrite <- sumn_scal_l. apply sumn_ext. intros; ring.
Qed.

Section Inv.
  Variables (n : nat) (A : nat -> nat -> R).
  Hypothesis PD : pos_def n A.

  Lemma invm_solve j y : (j < n)%nat -> (forall i, (i < n)%nat -> sumn n (fun k => A i k * y k) = unitv j i) ->
    forall k, (k < n)%nat -> invm n A k j = y k.
  Proof.
    intros Hj Hy k Hk. unfold invm. destruct (pd_factor n A PD) as (L & HC & HF). rewrite HC. cbv zeta. pose proof HF as (H1 & H2 & H3).
    assert (Hd : forall i, (i < n)%nat -> L i i <> 0) by (intros i Hi; pose proof (H2 i Hi); lra).
    destruct (fsolve_ok n L (unitv k) H1 Hd) as (zk & Ek & Hzk). destruct (fsolve_ok n L (unitv j) H1 Hd) as (zj & Ej & Hzj).
    rewrite Ek, Ej. destruct (factor_solve n A L zj _ y HF Hzj Hy) as (Ez & _).
    rewrite (sumn_ext n _ (fun q => sumn n (fun m => L m q * zk q * y m))).
    - rewrite sumn_swap. rewrite (sumn_ext n _ (fun m => unitv k m * y m)); [apply sumn_unit; exact Hk|].
      intros m Hm. rewrite sumn_scal_r, Hzk by exact Hm. reflexivity.
    - intros q Hq. unfold xval. rewrite !vget_fvec by exact Hq. cbn [rval]. rewrite (Ez q Hq), <- sumn_scal_l.
      apply sumn_ext. intros; ring.
  Qed.

  Lemma invm_ok : inverse n A (invm n A).
  Proof.
    intros i j Hi Hj. destruct (pd_solve n A PD (unitv j)) as (y & Hy).
    rewrite (sumn_ext n _ (fun k => A i k * y k)); [rewrite Hy by exact Hi; reflexivity|].
    intros k Hk. rewrite (invm_solve j y Hj Hy k Hk). reflexivity.
  Qed.

  Lemma inverse_sym P : inverse n A P -> sym n P.
  Proof.
    intros HP i j Hi Hj.
    rewrite <- (sumn_unit n (fun l => P l j) i Hi).
    rewrite (sumn_ext n _ (fun l => sumn n (fun k => P k i * A k l * P l j))).
    - rewrite sumn_swap. rewrite (sumn_ext n _ (fun k => unitv j k * P k i)); [rewrite sumn_unit by exact Hj; reflexivity|].
      intros k Hk. rewrite (sumn_ext n _ (fun l => P k i * (A k l * P l j))) by (intros; ring).
      rewrite sumn_scal_l, HP by assumption. unfold unitv. destruct (Nat.eqb k j); ring.
    - intros l Hl. rewrite (sumn_ext n _ (fun k => (A l k * P k i) * P l j)).
      + rewrite sumn_scal_r, HP by assumption. reflexivity.
      + intros k Hk. rewrite (proj1 PD k l Hk Hl). ring.
  Qed.

  Lemma inverse_unique P Q : inverse n A P -> inverse n A Q -> forall i j, (i < n)%nat -> (j < n)%nat -> P i j = Q i j.
  Proof.
    intros HP HQ i j Hi Hj. transitivity (invm n A i j); [symmetry|].
    - apply (invm_solve j (fun k => P k j) Hj); [|exact Hi]. intros k Hk. rewrite HP by assumption. reflexivity.
    - apply (invm_solve j (fun k => Q k j) Hj); [|exact Hi]. intros k Hk. rewrite HQ by assumption. reflexivity.
  Qed.

  Lemma inverse_apply P d : inverse n A P -> forall i, (i < n)%nat -> sumn n (fun k => A i k * sumn n (fun j => P k j * d j)) = d i.
  Proof.
    intros HP i Hi. rewrite (sumn_ext n _ (fun k => sumn n (fun j => A i k * P k j * d j))).
    - rewrite sumn_swap. rewrite (sumn_ext n _ (fun j => unitv i j * d j)); [apply sumn_unit; exact Hi|].
      intros j Hj. rewrite sumn_scal_r, HP by assumption. unfold unitv. rewrite (Nat.eqb_sym j i). reflexivity.
    - intros k Hk. rewrite <- sumn_scal_l. apply sumn_ext. intros; ring.
  Qed.

  Lemma quad_apply P d : quad n P d = sumn n (fun i => d i * sumn n (fun j => P i j * d j)).
  Proof.
    unfold quad. apply sumn_ext. intros i Hi. rewrite <- sumn_scal_l. apply sumn_ext. intros; ring.
  Qed.

  Lemma inverse_quad P L z d : inverse n A P -> factor n A L ->
    (forall i, (i < n)%nat -> sumn n (fun q => L i q * z q) = d i) -> quad n P d = sumn n (fun q => z q * z q).
  Proof.
    intros HP HF Hz. rewrite quad_apply.
    exact (proj2 (factor_solve n A L z d (fun i => sumn n (fun j => P i j * d j)) HF Hz (inverse_apply P d HP))).
  Qed.

  Lemma inverse_nonneg P d : inverse n A P -> 0 <= quad n P d.
  Proof.
    intros HP. destruct (pd_factor n A PD) as (L & HC & HF). pose proof HF as (H1 & H2 & H3).
    assert (Hd : forall i, (i < n)%nat -> L i i <> 0) by (intros i Hi; pose proof (H2 i Hi); lra).
    destruct (fsolve_ok n L d H1 Hd) as (z & _ & Hz). rewrite (inverse_quad P L z d HP HF Hz).
    apply sumn_nonneg. intros. apply Rle_0_sqr.
  Qed.

  Lemma mvn_ln_inv P mu o p : inverse n A P -> mvn_density n mu A o p ->
    ln p = - (1 / 2) * (INR n * ln (2 * PI) + ln (det n A) + quad n P (fun i => o i - mu i)).
  Proof.
    intros HP Hp. rewrite (mvn_ln n A PD mu o p (fun i => sumn n (fun j => P i j * (o j - mu j))) Hp).
    - rewrite quad_apply. reflexivity.
    - apply (inverse_apply P (fun i => o i - mu i) HP).
  Qed.

  (** The trace of [P A]. *)
  Lemma frob_inverse P : inverse n A P -> frob n P A = INR n.
  Proof.
    intros HP. unfold frob. rewrite sumn_swap. rewrite (sumn_ext n _ (fun _ => 1)); [rewrite sumn_const; ring|].
    intros j Hj. rewrite (sumn_ext n _ (fun i => A j i * P i j)).
    - rewrite HP by assumption. rewrite Nat.eqb_refl. reflexivity.
    - intros i Hi. rewrite (proj1 PD i j Hi Hj). ring.
  Qed.

  (** [tr (P C) - ln det C >= n - ln det A], with equality at [C = A]. *)
  Lemma logdet_ineq P C : inverse n A P -> pos_def n C -> INR n + ln (det n C) <= ln (det n A) + frob n P C.
  Proof.
    intros HP PC. destruct (pd_factor n A PD) as (L & _ & HL). destruct (pd_factor n C PC) as (G & _ & HG).
    rewrite (proj2 (factor_det n A L HL)), (proj2 (factor_det n C G HG)).
    pose proof HL as (L1 & L2 & L3). pose proof HG as (G1 & G2 & G3).
    assert (Hd : forall i, (i < n)%nat -> L i i <> 0) by (intros i Hi; pose proof (L2 i Hi); lra).
    assert (E : frob n P C = sumn n (fun q => quad n P (fun i => G i q))).
    { rewrite (frob_ext n P P C (fun i j => sumn n (fun q => G i q * G j q))) by (intros; first [reflexivity|apply G3; assumption]).
      rewrite (frob_sumn n P n (fun q i j => G i q * G j q)). apply sumn_ext. intros q Hq. apply frob_outer. }
    rewrite E. rewrite <- !sumn_scal_l. replace (INR n) with (sumn n (fun _ => 1)) by (rewrite sumn_const; ring).
    rewrite <- !sumn_plus. apply sumn_le. intros q Hq.
    destruct (fsolve_ok n L (fun i => G i q) L1 Hd) as (z & _ & Hz).
    rewrite (inverse_quad P L z (fun i => G i q) HP HL Hz).
    assert (Z0 : forall r, (r < q)%nat -> z r = 0).
    { intros r. induction r as [r IH] using (well_founded_induction lt_wf). intros Hr.
      pose proof (Hz r ltac:(lia)) as E1. rewrite (lower_sum n L r z L1 ltac:(lia)) in E1.
      rewrite (G1 r q Hr Hq) in E1. rewrite sumn_zero in E1 by (intros i Hi; rewrite (IH i) by lia; ring).
      pose proof (L2 r ltac:(lia)). assert (L r r * z r = 0) as E2 by lra. apply Rmult_integral in E2. destruct E2; lra. }
    assert (Zq : L q q * z q = G q q).
    { rewrite <- (Hz q Hq). rewrite (lower_sum n L q z L1 Hq). rewrite sumn_zero by (intros i Hi; rewrite (Z0 i Hi); ring). ring. }
    pose proof (L2 q Hq) as Lp. pose proof (G2 q Hq) as Gp.
    assert (Zv : z q = G q q / L q q) by (rewrite <- Zq; field; lra).
    assert (Zp : 0 < z q) by (rewrite Zv; apply Rdiv_lt_0_compat; assumption).
    pose proof (sumn_ge_term n (fun r => z r * z r) q (fun _ _ => Rle_0_sqr _) Hq) as Hge. cbv beta in Hge.
    pose proof (ln_le_sub1 (z q * z q) ltac:(apply Rmult_lt_0_compat; assumption)) as Hln.
    rewrite ln_mult in Hln by assumption. rewrite Zv in Hln at 1 2. rewrite ln_div in Hln by assumption. lra.
  Qed.
End Inv.

(** The matrix [K / M] maximises [- M/2 ln det S - tr (inv S K) / 2]. *)
Lemma cov_opt n A P C Q M : 0 < M -> pos_def n A -> inverse n A P -> pos_def n C -> inverse n C Q ->
  - (M / 2) * ln (det n A) - 1 / 2 * frob n P (fun i j => M * C i j)
  <= - (M / 2) * ln (det n C) - 1 / 2 * frob n Q (fun i j => M * C i j).
Proof.
  intros HM PA HP PC HQ. rewrite !frob_scal, (frob_inverse n C PC Q HQ).
  pose proof (logdet_ineq n A PA P C HP PC) as H.
  apply (Rmult_le_compat_l (M / 2)) in H; [|lra]. lra.
Qed.

(** ** Semi-definite matrices and the ridge. *)
Lemma psd_pd_dec n A : sym n A -> pos_def n A \/ ~ pos_def n A.
Proof.
  intros HA. destruct (cholesky_cases n A HA) as [(L & _ & HF)|[_ HN]]; [left; exact (factor_pos_def n A HA L HF)|right; exact HN].
Qed.
Lemma ridge_pd n A : pos_semidef n A -> pos_def n (ridge A).
Proof.
  intros [Hs Hq]. split; [apply ridge_sym; exact Hs|]. intros v (k & Hk & Hv).
  assert (E : quad n (ridge A) v = quad n A v + / 10 ^ 7 * sumn n (fun i => v i * v i)).
  { unfold quad, ridge. rewrite <- sumn_scal_l, <- sumn_plus. apply sumn_ext. intros i Hi.
    rewrite (sumn_ext n _ (fun j => v i * A i j * v j + (if Nat.eqb j i then / 10 ^ 7 * (v i * v j) else 0))).
    - rewrite sumn_plus, (sumn_if_eq n (fun j => / 10 ^ 7 * (v i * v j)) i Hi). reflexivity.
    - intros j Hj. rewrite (Nat.eqb_sym i j). destruct (Nat.eqb j i); ring. }
  rewrite E. specialize (Hq v).
  assert (0 < sumn n (fun i => v i * v i)).
  { apply (sumn_pos n _ k); [intros; apply Rle_0_sqr|exact Hk|]. apply Rsqr_pos_lt in Hv. exact Hv. }
  assert (0 < / 10 ^ 7) by (apply Rinv_0_lt_compat, pow_lt; lra).
  assert (0 < / 10 ^ 7 * sumn n (fun i => v i * v i)) by (apply Rmult_lt_0_compat; assumption). lra.
Qed.

(** The matrix the density is computed with. *)
Definition effm (n : nat) (A : nat -> nat -> R) : nat -> nat -> R :=
  match cholesky exact (fmat n n A) with Ok (Some _) => A | _ => ridge A end.
Lemma effm_pd_id n A : pos_def n A -> effm n A = A.
Proof. intros H. unfold effm. destruct (pd_factor n A H) as (L & E & _). rewrite E. reflexivity. Qed.
Lemma effm_ridge n A : sym n A -> ~ pos_def n A -> effm n A = ridge A.
Proof. intros Hs H. unfold effm. rewrite (not_pd_chol n A Hs H). reflexivity. Qed.
Lemma effm_pd n A : pos_semidef n A -> pos_def n (effm n A).
Proof.
  intros H. destruct (psd_pd_dec n A (proj1 H)) as [P|P].
  - rewrite effm_pd_id by exact P. exact P.
  - rewrite effm_ridge by (apply H || exact P). apply ridge_pd. exact H.
Qed.
Lemma pos_def_ext n A B : (forall i j, (i < n)%nat -> (j < n)%nat -> A i j = B i j) -> pos_def n A -> pos_def n B.
Proof.
  intros E [Hs Hq]. split.
  - intros i j Hi Hj. rewrite <- !E by assumption. apply Hs; assumption.
  - intros v Hv. rewrite (quad_ext n B A v v) by (intros; first [reflexivity|symmetry; apply E; assumption]). apply Hq. exact Hv.
Qed.
Lemma pos_semidef_ext n A B : (forall i j, (i < n)%nat -> (j < n)%nat -> A i j = B i j) -> pos_semidef n A -> pos_semidef n B.
Proof.
  intros E [Hs Hq]. split.
  - intros i j Hi Hj. rewrite <- !E by assumption. apply Hs; assumption.
  - intros v. rewrite (quad_ext n B A v v) by (intros; first [reflexivity|symmetry; apply E; assumption]). apply Hq.
Qed.
Lemma effm_ext n A B : (forall i j, (i < n)%nat -> (j < n)%nat -> A i j = B i j) ->
  forall i j, (i < n)%nat -> (j < n)%nat -> effm n A i j = effm n B i j.
Proof.
  intros E i j Hi Hj. unfold effm. rewrite (fmat_ext n n A B) by exact E.
  destruct (cholesky exact (fmat n n B)) as [[|]|]; unfold ridge; rewrite E by assumption; reflexivity.
Qed.
Lemma inverse_ext n A B P : (forall i j, (i < n)%nat -> (j < n)%nat -> A i j = B i j) -> inverse n A P -> inverse n B P.
Proof.
  intros E H i j Hi Hj. rewrite <- (H i j Hi Hj). apply sumn_ext. intros k Hk. rewrite E by assumption. reflexivity.
Qed.
