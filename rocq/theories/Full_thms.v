(** * Full and tied covariance matrices: property lemmas. *)
From Verif Require Export Full_dens.
From Verif Require Import Gauss_thms.

(** A diagonal matrix. *)
Definition diagm (v : nat -> R) : nat -> nat -> R := fun i j => if Nat.eqb i j then v i else 0.

Lemma diagm_pd n v : (forall i, (i < n)%nat -> 0 < v i) -> pos_def n (diagm v).
Proof.
  intros H. split.
  - intros i j _ _. unfold diagm. destruct (Nat.eqb_spec i j) as [->|Hn].
    + rewrite Nat.eqb_refl. reflexivity.
    + destruct (Nat.eqb_spec j i); [congruence|reflexivity].
  - intros u (k & Hk & Hu). unfold quad.
    rewrite (sumn_ext n _ (fun i => v i * (u i * u i))).
    + apply (sumn_pos n _ k); [|exact Hk|].
      * intros i Hi. apply Rmult_le_pos; [left; apply H; exact Hi|apply Rle_0_sqr].
      * apply Rmult_lt_0_compat; [apply H; exact Hk|apply Rsqr_pos_lt; exact Hu].
    + intros i Hi. rewrite (sumn_single n _ i Hi).
      * unfold diagm. rewrite Nat.eqb_refl. ring.
      * intros j Hj Hn. unfold diagm. destruct (Nat.eqb_spec i j); [congruence|ring].
Qed.

Lemma diagm_det n v : det n (diagm v) = prodn n v.
Proof.
  rewrite det_upper.
  - apply prodn_ext. intros i Hi. unfold diagm. rewrite Nat.eqb_refl. reflexivity.
  - intros i j Hj Hi. unfold diagm. destruct (Nat.eqb_spec i j); [lia|reflexivity].
Qed.

Lemma ln_prodn n v : (forall i, (i < n)%nat -> 0 < v i) -> ln (prodn n v) = sumn n (fun i => ln (v i)).
Proof.
  induction n as [|n IH]; intros H; [apply ln_1|]. cbn [prodn sumn].
  rewrite ln_mult, IH; [reflexivity|intros; apply H; lia|apply prodn_pos'; intros; apply H; lia|apply H; lia].
Qed.

Lemma diagm_density nf mu var o i : (forall f, (f < nf)%nat -> 0 < var i f) ->
  mvn_density nf (mu i) (diagm (var i)) (xval o) (gauss_b nf mu var o i).
Proof.
  intros H. pose proof (diagm_pd nf (var i) H) as PD.
  pose (y := fun f => (xval o f - mu i f) / var i f).
  assert (Hy : forall k, (k < nf)%nat -> sumn nf (fun j => diagm (var i) k j * y j) = xval o k - mu i k).
  { intros k Hk. rewrite (sumn_single nf _ k Hk).
    - unfold diagm, y. rewrite Nat.eqb_refl. field. pose proof (H k Hk). lra.
    - intros j Hj Hn. unfold diagm. destruct (Nat.eqb_spec k j); [congruence|ring]. }
  exists y. split; [exact Hy|].
  assert (P : 0 < (2 * PI) ^ nf * det nf (diagm (var i))).
  { apply Rmult_lt_0_compat; [apply pow_lt; apply two_pi_pos|apply det_pos; exact PD]. }
  apply ln_inv.
  - apply gauss_b_pos. exact H.
  - apply Rdiv_lt_0_compat; [apply exp_pos|apply sqrt_lt_R0; exact P].
  - rewrite ln_gauss_b by exact H.
    symmetry. etransitivity; [apply (mvn_ln nf (diagm (var i)) PD (mu i) (xval o) _ y); [exists y; split; [exact Hy|reflexivity]|exact Hy]|].
    rewrite diagm_det, ln_prodn by exact H. f_equal. f_equal. apply sumn_ext. intros f Hf. unfold y. field.
    pose proof (H f Hf). lra.
Qed.

(** C33: 'full'. *)
Lemma C33_full_density_l nc nf mu (Sg : nat -> nat -> nat -> R) x : x <> [] -> Forall (finite_row nf) x ->
  (forall i, (i < nc)%nat -> pos_def nf (Sg i)) ->
  exists m, log_mvn_density exact "full" x (fmat nc nf mu) (CV3 (tab nc (fun i => fmat nf nf (Sg i)))) = Ok m
    /\ nrow m = length x /\ ncol m = nc
    /\ forall t i, (t < length x)%nat -> (i < nc)%nat ->
       let d f := xval (nth t x []) f - mu i f in
       (exists y, forall k, (k < nf)%nat -> sumn nf (fun j => Sg i k j * y j) = d k)
       /\ (forall y, (forall k, (k < nf)%nat -> sumn nf (fun j => Sg i k j * y j) = d k) ->
           mget m t i = Fin (- (1 / 2) * (INR nf * ln (2 * PI) + ln (det nf (Sg i)) + sumn nf (fun f => d f * y f)))).
Proof.
  intros Hne Hx PD. eexists. split; [|split; [|split]].
  - change (log_mvn_density exact "full" x (fmat nc nf mu)) with (lmnd_full exact x (fmat nc nf mu)).
    apply (lmnd_full_ok nc nf x mu Sg (fun o i => mvnf nf (mu i) (Sg i) o) Hne Hx PD).
    intros o i _ Hi. apply mvnf_ok. apply PD. exact Hi.
  - apply nrow_mtab.
  - reflexivity.
  - intros t i Ht Hi d. split; [apply pd_solve; apply PD; exact Hi|]. intros y Hy.
    unfold lmat. rewrite mget_mtab by assumption. rewrite (obsB_nth _ x []) by exact Ht.
    pose proof (mvnf_ok nf (mu i) (Sg i) (nth t x []) (PD i Hi)) as Hp.
    rewrite xln_pos by (apply (mvn_pos nf (Sg i) (PD i Hi) _ _ _ Hp)). f_equal.
    exact (mvn_ln nf (Sg i) (PD i Hi) (mu i) _ _ y Hp Hy).
Qed.

(** The same result as the log of the normal density. *)
Lemma C33_full_is_log_density_l nc nf mu (Sg : nat -> nat -> nat -> R) x t i p : x <> [] -> Forall (finite_row nf) x ->
  (forall i, (i < nc)%nat -> pos_def nf (Sg i)) -> (t < length x)%nat -> (i < nc)%nat ->
  mvn_density nf (mu i) (Sg i) (xval (nth t x [])) p ->
  exists m, log_mvn_density exact "full" x (fmat nc nf mu) (CV3 (tab nc (fun i => fmat nf nf (Sg i)))) = Ok m
    /\ 0 < p /\ mget m t i = Fin (ln p).
Proof.
  intros Hne Hx PD Ht Hi Hp. destruct (C33_full_density_l nc nf mu Sg x Hne Hx PD) as (m & E & _ & _ & H).
  exists m. split; [exact E|]. split; [apply (mvn_pos nf (Sg i) (PD i Hi) _ _ _ Hp)|].
  destruct (H t i Ht Hi) as (_ & H2). pose proof Hp as (y & Hy & _). rewrite (H2 y Hy). f_equal. symmetry.
  exact (mvn_ln nf (Sg i) (PD i Hi) (mu i) _ _ y Hp Hy).
Qed.

(** C33: 'tied' is 'full' with the matrix repeated, in every rounding mode. *)
Lemma C33_tied_is_full_l fp x means (c : nat -> nat -> xnum) : 
  log_mvn_density fp "tied" x means (CV2 (mtab (ncol means) (ncol means) c))
  = log_mvn_density fp "full" x means (CV3 (tab (nrow means) (fun _ => mtab (ncol means) (ncol means) c))).
Proof.
  unfold log_mvn_density. cbn [String.eqb Ascii.eqb Bool.eqb]. unfold lmnd_tied, broadcast_to.
  rewrite nrow_mtab, ncol_mtab, Nat.eqb_refl. cbn [orb andb bind].
  rewrite (mtab_ext _ _ _ c); [reflexivity|]. intros i j Hi Hj. rewrite !bidx_lt by assumption. apply mget_mtab; assumption.
Qed.

(** C33: 'full' on diagonal matrices is 'diag', for variances above the least
    normal double. *)
Lemma C33_diagonal_l nc nf mu var x : (0 < nf)%nat -> x <> [] -> Forall (finite_row nf) x ->
  (forall i f, (i < nc)%nat -> (f < nf)%nat -> tiny <= var i f) ->
  log_mvn_density exact "full" x (fmat nc nf mu) (CV3 (tab nc (fun i => fmat nf nf (diagm (var i)))))
  = log_mvn_density exact "diag" x (fmat nc nf mu) (CV2 (fmat nc nf var)).
Proof.
  intros Hnf Hne Hx Hv.
  change (log_mvn_density exact "diag" x (fmat nc nf mu) (CV2 (fmat nc nf var))) with (lmnd_diag exact x (fmat nc nf mu) (fmat nc nf var)).
  rewrite (lmnd_diag_ok nc nf x mu var Hnf Hne Hx).
  change (log_mvn_density exact "full" x (fmat nc nf mu)) with (lmnd_full exact x (fmat nc nf mu)).
  assert (P : forall i f, (i < nc)%nat -> (f < nf)%nat -> 0 < var i f) by (intros; pose proof tiny_pos; pose proof (Hv i f H H0); lra).
  apply lmnd_full_ok; [exact Hne|exact Hx| |].
  - intros i Hi. apply diagm_pd. intros; apply P; assumption.
  - intros o i _ Hi. replace (gauss_b nf mu (floored var) o i) with (gauss_b nf mu var o i).
    + apply diagm_density. intros; apply P; assumption.
    + unfold gauss_b. apply prodn_ext. intros f Hf. rewrite floored_id by (apply Hv; assumption). reflexivity.
Qed.

(** C33 is false below it: 'diag' floors the variance, 'full' does not. *)
Lemma C33_subnormal_refuted_l : exists var x, 0 < var /\ Forall (finite_row 1) x /\ x <> []
  /\ log_mvn_density exact "full" x (fmat 1 1 (fun _ _ => 0)) (CV3 [fmat 1 1 (fun _ _ => var)])
     <> log_mvn_density exact "diag" x (fmat 1 1 (fun _ _ => 0)) (CV2 (fmat 1 1 (fun _ _ => var))).
Proof.
  pose proof tiny_pos as Ht. exists (tiny / 2), [fvec 1 (fun _ => 0)].
  split; [lra|]. split; [repeat constructor|]. split; [discriminate|].
  set (x := [fvec 1 (fun _ => 0)]).
  assert (Hx : Forall (finite_row 1) x) by repeat constructor. assert (Hne : x <> []) by discriminate.
  destruct (C33_full_density_l 1 1 (fun _ _ => 0) (fun _ => diagm (fun _ => tiny / 2)) x Hne Hx) as (m & E & _ & _ & H).
  { intros i _. apply diagm_pd. intros; lra. }
  change (CV3 [fmat 1 1 (fun _ _ => tiny / 2)]) with (CV3 (tab 1 (fun _ => fmat 1 1 (diagm (fun _ => tiny / 2))))).
  rewrite E.
  change (log_mvn_density exact "diag" x ?a (CV2 ?b)) with (lmnd_diag exact x a b).
  rewrite (lmnd_diag_ok 1 1 x (fun _ _ => 0) (fun _ _ => tiny / 2)) by (first [lia | assumption]).
  intros Q. inversion Q as [Q']. clear Q.
  assert (G : mget m 0 0 = Fin (- (1 / 2) * (INR 1 * ln (2 * PI) + ln (tiny / 2)))).
  { destruct (H 0%nat 0%nat ltac:(cbn; lia) ltac:(lia)) as (_ & H2). rewrite (H2 (fun _ => 0)).
    - rewrite diagm_det. replace (prodn 1 (fun _ : nat => tiny / 2)) with (tiny / 2) by (cbn; lra). cbn [sumn]. f_equal. lra.
    - intros k Hk. assert (k = 0)%nat as -> by lia. unfold x, xval, diagm. cbn. lra. }
  rewrite Q' in G. unfold lmat in G. rewrite mget_mtab in G by (cbn; lia).
  rewrite (obsB_nth _ x []) in G by (cbn; lia).
  rewrite xln_pos in G by (apply gauss_b_pos; intros; apply floored_pos).
  rewrite ln_gauss_b in G by (intros; apply floored_pos). inversion G as [G'].
  assert (L : ln (tiny / 2) < ln tiny) by (apply ln_increasing; lra).
  unfold floored in G'. cbn [sumn] in G'. rewrite Rmax_right in G' by lra.
  change (xval (fvec 1 (fun _ : nat => 0)) 0) with 0 in G'. rewrite Rminus_0_r, Rmult_0_l in G'. unfold Rdiv at 2 in G'. rewrite Rmult_0_l in G'. lra.
Qed.

(** A matrix that is not positive definite is replaced by itself plus 1e-7 on
    the diagonal. *)
Definition ridge (A : nat -> nat -> R) : nat -> nat -> R := fun i j => A i j + (if Nat.eqb i j then / 10 ^ 7 else 0).

Lemma ridge_sym n A : sym n A -> sym n (ridge A).
Proof.
  intros H i j Hi Hj. unfold ridge. rewrite (H i j Hi Hj), (Nat.eqb_sym i j). reflexivity.
Qed.

Lemma not_pd_chol n A : sym n A -> ~ pos_def n A -> cholesky exact (fmat n n A) = Ok None.
Proof.
  intros Hs Hn. destruct (cholesky_cases n A Hs) as [(L & _ & HF)|[E _]]; [|exact E].
  exfalso. apply Hn. exact (factor_pos_def n A Hs L HF).
Qed.

Lemma b2_ridge nf A : (0 < nf)%nat ->
  b2 (xadd exact) (fmat nf nf A) (mtab nf nf (fun i j => xmul exact (Fin (/ 10 ^ 7)) (if Nat.eqb i j then Fin 1 else Fin 0)))
  = Ok (fmat nf nf (ridge A)).
Proof.
  intros Hnf.
  rewrite (mtab_ext nf nf _ (fun i j => Fin (if Nat.eqb i j then / 10 ^ 7 else 0))).
  - fold (fmat nf nf (fun i j => if Nat.eqb i j then / 10 ^ 7 else 0)).
    rewrite (b2_fulll (xadd exact) Rplus nf nf A (fun i j => if Nat.eqb i j then / 10 ^ 7 else 0) Hnf Hnf); [reflexivity| |apply cast_fmat].
    intros; apply xaddE.
  - intros i j _ _. destruct (Nat.eqb i j); rewrite xmulE; f_equal; ring.
Qed.

Lemma full1_ridge nf x mu A : (0 < nf)%nat -> sym nf A -> ~ pos_def nf A ->
  (pos_def nf (ridge A) -> lmnd_full1 exact nf x (fvec nf mu) (fmat nf nf A) = lmnd_full1 exact nf x (fvec nf mu) (fmat nf nf (ridge A)))
  /\ (~ pos_def nf (ridge A) -> lmnd_full1 exact nf x (fvec nf mu) (fmat nf nf A)
       = Err (ValueError "'covars' must be symmetric, positive-definite")).
Proof.
  intros Hnf Hs Hn. unfold lmnd_full1. rewrite (not_pd_chol nf A Hs Hn). cbn [bind]. rewrite (b2_ridge nf A Hnf). cbn [bind].
  split; intros Hr.
  - destruct (pd_factor nf (ridge A) Hr) as (L & E & _). rewrite E. reflexivity.
  - rewrite (not_pd_chol nf (ridge A) (ridge_sym nf A Hs) Hr). reflexivity.
Qed.

Lemma lmnd_full_ext nc nf x mu (Sg Sg' : nat -> nat -> nat -> R) :
  (forall i, (i < nc)%nat -> lmnd_full1 exact nf x (fvec nf (mu i)) (fmat nf nf (Sg i)) = lmnd_full1 exact nf x (fvec nf (mu i)) (fmat nf nf (Sg' i))) ->
  lmnd_full exact x (fmat nc nf mu) (CV3 (tab nc (fun i => fmat nf nf (Sg i))))
  = lmnd_full exact x (fmat nc nf mu) (CV3 (tab nc (fun i => fmat nf nf (Sg' i)))).
Proof.
  intros H. unfold lmnd_full. rewrite ncol_fmat, rows_fmat, !combine_tab. f_equal.
  assert (forall i, In i (seq 0 nc) -> (i < nc)%nat) as Hin by (intros i Hi; apply in_seq in Hi; lia).
  unfold tab. revert Hin. generalize (seq 0 nc). intros l. induction l as [|i l IH]; intros Hin; [reflexivity|].
  cbn [map mapM]. rewrite (H i) by (apply Hin; left; reflexivity). rewrite IH by (intros; apply Hin; right; assumption). reflexivity.
Qed.

(** C33: what symmetric matrices that are not positive definite give. *)
Lemma C33_regularised_l nc nf mu (Sg : nat -> nat -> nat -> R) x i : (0 < nf)%nat -> x <> [] -> Forall (finite_row nf) x ->
  (i < nc)%nat -> (forall k, (k < nc)%nat -> sym nf (Sg k)) -> ~ pos_def nf (Sg i) ->
  (pos_def nf (fun r c => Sg i r c + (if Nat.eqb r c then / 10 ^ 7 else 0)) ->
     log_mvn_density exact "full" x (fmat nc nf mu) (CV3 (tab nc (fun k => fmat nf nf (Sg k))))
     = log_mvn_density exact "full" x (fmat nc nf mu)
        (CV3 (tab nc (fun k => fmat nf nf (if Nat.eqb k i then fun r c => Sg i r c + (if Nat.eqb r c then / 10 ^ 7 else 0) else Sg k)))))
  /\ (~ pos_def nf (fun r c => Sg i r c + (if Nat.eqb r c then / 10 ^ 7 else 0)) ->
     log_mvn_density exact "full" x (fmat nc nf mu) (CV3 (tab nc (fun k => fmat nf nf (Sg k))))
     = Err (ValueError "'covars' must be symmetric, positive-definite")).
Proof.
  intros Hnf Hne Hx Hi Hs Hn. fold (ridge (Sg i)). destruct (full1_ridge nf x (mu i) (Sg i) Hnf (Hs i Hi) Hn) as (H1 & H2).
  change (log_mvn_density exact "full" x (fmat nc nf mu)) with (lmnd_full exact x (fmat nc nf mu)).
  split; intros Hr.
  - apply lmnd_full_ext. intros k Hk. destruct (Nat.eqb_spec k i) as [->|]; [apply H1; exact Hr|reflexivity].
  - unfold lmnd_full. rewrite ncol_fmat, rows_fmat, combine_tab.
    enough (E : forall l, In i l -> (forall k, In k l -> (k < nc)%nat) ->
      mapM (fun '(mu, c) => lmnd_full1 exact nf x mu c) (map (fun i => (fvec nf (mu i), fmat nf nf (Sg i))) l)
      = Err (ValueError "'covars' must be symmetric, positive-definite")).
    { unfold tab. rewrite E; [reflexivity|apply in_seq; lia|intros k Hk; apply in_seq in Hk; lia]. }
    induction l as [|k l IH]; intros Hin Hl; [contradiction|]. cbn [map mapM].
    destruct (Nat.eq_dec k i) as [->|Hki]; [rewrite H2 by exact Hr; reflexivity|].
    destruct Hin as [|Hin]; [congruence|]. rewrite IH by (first [exact Hin | intros; apply Hl; right; assumption]).
    assert (Hk : (k < nc)%nat) by (apply Hl; left; reflexivity).
    assert (PDdec : forall A, sym nf A -> pos_def nf A \/ ~ pos_def nf A).
    { intros A HA. destruct (cholesky_cases nf A HA) as [(L & _ & HF)|[_ HN]]; [left; exact (factor_pos_def nf A HA L HF)|right; exact HN]. }
    assert (Ok1 : forall A, pos_def nf A -> exists v, lmnd_full1 exact nf x (fvec nf (mu k)) (fmat nf nf A) = Ok v).
    { intros A HA. eexists. apply (full1_ok nf A HA x (mu k) (mvnf nf (mu k) A) Hne Hx). intros o _. apply mvnf_ok. exact HA. }
    destruct (PDdec (Sg k) (Hs k Hk)) as [HP|HP].
    + destruct (Ok1 _ HP) as (v & ->). reflexivity.
    + destruct (full1_ridge nf x (mu k) (Sg k) Hnf (Hs k Hk) HP) as (G1 & G2).
      destruct (PDdec (ridge (Sg k)) (ridge_sym nf _ (Hs k Hk))) as [HQ|HQ].
      * rewrite (G1 HQ). destruct (Ok1 _ HQ) as (v & ->). reflexivity.
      * rewrite (G2 HQ). reflexivity.
Qed.

(** ** Examples. *)
Definition ex_cov (i j : nat) : R := if Nat.eqb i j then 2 else 1.
Lemma ex_cov_pd : pos_def 2 ex_cov.
Proof.
  split; [intros i j Hi Hj; unfold ex_cov; rewrite (Nat.eqb_sym i j); reflexivity|].
  intros v (k & Hk & Hv). unfold quad, ex_cov. cbn [sumn Nat.eqb].
  assert (E : v 0%nat * v 0%nat + v 1%nat * v 1%nat + (v 0%nat + v 1%nat) * (v 0%nat + v 1%nat) > 0).
  { pose proof (Rle_0_sqr (v 0%nat)). pose proof (Rle_0_sqr (v 1%nat)). pose proof (Rle_0_sqr (v 0%nat + v 1%nat)).
    pose proof (Rsqr_pos_lt (v k) Hv). unfold Rsqr in *. destruct k as [|[|k]]; [lra|lra|lia]. }
  lra.
Qed.

(** Two correlated features, evaluated. *)
Lemma C33_applies_l : exists m,
  log_mvn_density exact "tied" [fvec 2 (fun f => if Nat.eqb f 0 then 1 else 0)] (fmat 1 2 (fun _ _ => 0)) (CV2 (fmat 2 2 ex_cov)) = Ok m
  /\ mget m 0 0 = Fin (- (1 / 2) * (2 * ln (2 * PI) + ln 3 + 2 / 3)).
Proof.
  set (x := [fvec 2 (fun f => if Nat.eqb f 0 then 1 else 0)]).
  assert (Hx : Forall (finite_row 2) x) by (constructor; [apply fvec_finite_row|constructor]).
  destruct (C33_full_density_l 1 2 (fun _ _ => 0) (fun _ => ex_cov) x ltac:(discriminate) Hx (fun _ _ => ex_cov_pd)) as (m & E & _ & _ & H).
  exists m. split.
  - pose proof (C33_tied_is_full_l exact x (fmat 1 2 (fun _ _ => 0)) (fun i j => Fin (ex_cov i j))) as T.
    etransitivity; [exact T|exact E].
  - destruct (H 0%nat 0%nat ltac:(cbn; lia) ltac:(lia)) as (_ & H2).
    rewrite (H2 (fun f => if Nat.eqb f 0 then 2 / 3 else - (1 / 3))).
    + f_equal. unfold ex_cov, det, minor. cbn. replace (1 + 1) with 2 by ring. f_equal. f_equal; [f_equal; f_equal; lra|].
      unfold xval. cbn. lra.
    + intros k Hk. unfold xval, ex_cov. destruct k as [|[|k]]; [cbn; lra|cbn; lra|lia].
Qed.

(** Both outcomes for matrices that are not positive definite. *)
Lemma C33_regularised_applies_l :
  (sym 1 (fun _ _ => 0) /\ ~ pos_def 1 (fun _ _ => 0)
   /\ pos_def 1 (fun r c => 0 + (if Nat.eqb r c then / 10 ^ 7 else 0)))
  /\ (sym 1 (fun _ _ => -1) /\ ~ pos_def 1 (fun _ _ => -1)
   /\ ~ pos_def 1 (fun r c => -1 + (if Nat.eqb r c then / 10 ^ 7 else 0))).
Proof.
  assert (P : 0 < / 10 ^ 7) by (apply Rinv_0_lt_compat; apply pow_lt; lra).
  assert (P1 : / 10 ^ 7 < 1) by (rewrite <- Rinv_1; apply Rinv_lt_contravar; [rewrite Rmult_1_l; apply pow_lt; lra|cbn; lra]).
  assert (N : forall A, A 0%nat 0%nat <= 0 -> ~ pos_def 1 A).
  { intros A HA [_ Q]. specialize (Q (fun _ => 1)). unfold quad in Q. cbn in Q.
    assert (0 < 0 + (0 + 1 * A 0%nat 0%nat * 1)) by (apply Q; exists 0%nat; split; [lia|lra]). lra. }
  split; (split; [intros i j _ _; reflexivity|split]).
  - apply N. lra.
  - split; [intros i j _ _; rewrite (Nat.eqb_sym i j); reflexivity|]. intros v (k & Hk & Hv). assert (k = 0)%nat as -> by lia.
    unfold quad. cbn [sumn Nat.eqb]. pose proof (Rsqr_pos_lt _ Hv) as Q. unfold Rsqr in Q. nra.
  - apply N. lra.
  - apply N. cbn [Nat.eqb]. lra.
Qed.
