(** * Normal densities with full covariance matrices. *)
From Verif Require Export Chol.

Section Dens.
  Variables (n : nat) (A : nat -> nat -> R).
  Hypothesis PD : pos_def n A.

  Lemma pd_factor : exists L, cholesky exact (fmat n n A) = Ok (Some (colsof n n L)) /\ factor n A L.
  Proof.
    destruct (cholesky_cases n A (proj1 PD)) as [H|[_ H]]; [exact H|contradiction].
  Qed.

  Lemma prodn_pos' (f : nat -> R) k : (forall i, (i < k)%nat -> 0 < f i) -> 0 < prodn k f.
  Proof.
    induction k as [|k IH]; intros H; cbn [prodn]; [lra|]. apply Rmult_lt_0_compat; [apply IH; intros; apply H; lia|apply H; lia].
  Qed.

  Lemma factor_det L : factor n A L -> 0 < det n A /\ ln (det n A) = 2 * sumn n (fun j => ln (L j j)).
  Proof.
    intros (H1 & H2 & H3). rewrite (det_chol n A L H1 H3).
    assert (P : 0 < prodn n (fun i => L i i)) by (apply prodn_pos'; exact H2).
    split; [apply Rmult_lt_0_compat; exact P|].
    rewrite ln_mult by exact P. enough (E : ln (prodn n (fun i => L i i)) = sumn n (fun j => ln (L j j))) by lra.
    clear - H2. induction n as [|k IH]; [apply ln_1|]. cbn [prodn sumn].
    rewrite ln_mult, IH; [reflexivity|intros; apply H2; lia|apply prodn_pos'; intros; apply H2; lia|apply H2; lia].
  Qed.

  Lemma det_pos : 0 < det n A.
  Proof. destruct pd_factor as (L & _ & H). apply (factor_det L H). Qed.

  (** The solution of [A y = d] against the forward substitution. *)
  Lemma factor_solve L z d y : factor n A L ->
    (forall i, (i < n)%nat -> sumn n (fun q => L i q * z q) = d i) ->
    (forall i, (i < n)%nat -> sumn n (fun j => A i j * y j) = d i) ->
    (forall q, (q < n)%nat -> z q = sumn n (fun j => L j q * y j))
    /\ sumn n (fun i => d i * y i) = sumn n (fun q => z q * z q).
  Proof.
    intros (H1 & H2 & H3) Hz Hy.
    assert (E : forall q, (q < n)%nat -> z q = sumn n (fun j => L j q * y j)).
    { apply (lower_inj n L z (fun q => sumn n (fun j => L j q * y j)) H1).
      - intros i Hi. pose proof (H2 i Hi). lra.
      - intros i Hi. rewrite Hz, <- Hy by exact Hi.
        rewrite (sumn_ext n _ (fun j => sumn n (fun q => L i q * L j q * y j))).
        + rewrite sumn_swap. apply sumn_ext. intros q Hq. rewrite <- sumn_scal_l. apply sumn_ext. intros; ring.
        + intros j Hj. rewrite H3, <- sumn_scal_r by assumption. reflexivity. }
    split; [exact E|].
    rewrite (sumn_ext n (fun q => z q * z q) (fun q => sumn n (fun j => z q * (L j q * y j)))).
    - rewrite sumn_swap. apply sumn_ext. intros i Hi. rewrite <- (Hz i Hi), <- sumn_scal_r.
      apply sumn_ext. intros; ring.
    - intros q Hq. rewrite sumn_scal_l, <- (E q Hq). reflexivity.
  Qed.

  (** Backward substitution: [L' y = z]. *)
  Lemma upper_solve L z : forall k, (k <= n)%nat -> (forall i, (i < n)%nat -> L i i <> 0) -> lower n L ->
    exists y, forall q, (n - k <= q)%nat -> (q < n)%nat -> sumn n (fun j => L j q * y j) = z q.
  Proof.
    induction k as [|k IH]; intros Hk Hd Hl.
    - exists (fun _ => 0). intros; lia.
    - destruct (IH ltac:(lia) Hd Hl) as (y & Hy). set (p := (n - S k)%nat). assert (Hp : (p < n)%nat) by (unfold p; lia).
      pose (s := sumn n (fun j => if Nat.eqb j p then 0 else L j p * y j)).
      exists (fun j => if Nat.eqb j p then (z p - s) / L p p else y j). intros q Hq1 Hq2.
      destruct (Nat.eq_dec q p) as [->|Hn].
      + rewrite (sumn_ext n _ (fun j => (if Nat.eqb j p then 0 else L j p * y j) + (if Nat.eqb j p then z p - s else 0))).
        * rewrite sumn_plus, sumn_if_eq by exact Hp. fold s. ring.
        * intros j Hj. destruct (Nat.eqb_spec j p) as [->|]; [field; apply Hd; exact Hp|ring].
      + rewrite <- (Hy q) by lia. apply sumn_ext. intros j Hj. destruct (Nat.eqb_spec j p) as [->|]; [|reflexivity].
        rewrite (Hl p q) by lia. ring.
  Qed.

  (** A positive-definite matrix is invertible. *)
  Lemma pd_solve d : exists y, forall i, (i < n)%nat -> sumn n (fun j => A i j * y j) = d i.
  Proof.
    destruct pd_factor as (L & _ & HF). pose proof HF as (H1 & H2 & H3).
    assert (Hd : forall i, (i < n)%nat -> L i i <> 0) by (intros i Hi; pose proof (H2 i Hi); lra).
    destruct (fsolve_ok n L d H1 Hd) as (z & _ & Hz).
    destruct (upper_solve L z n (le_n n) Hd H1) as (y & Hy). exists y. intros i Hi.
    rewrite <- (Hz i Hi).
    rewrite (sumn_ext n _ (fun j => sumn n (fun q => L i q * L j q * y j))).
    - rewrite sumn_swap. apply sumn_ext. intros q Hq. rewrite <- (Hy q) by lia. rewrite <- sumn_scal_l. apply sumn_ext. intros; ring.
    - intros j Hj. rewrite H3, <- sumn_scal_r by assumption. reflexivity.
  Qed.

  Lemma mvn_unique mu o p q : mvn_density n mu A o p -> mvn_density n mu A o q -> p = q.
  Proof.
    intros (y & Hy & ->) (y' & Hy' & ->). f_equal. f_equal. f_equal.
    destruct pd_factor as (L & _ & HF). pose proof HF as (H1 & H2 & H3).
    assert (Hd : forall i, (i < n)%nat -> L i i <> 0) by (intros i Hi; pose proof (H2 i Hi); lra).
    destruct (fsolve_ok n L (fun i => o i - mu i) H1 Hd) as (z & _ & Hz).
    rewrite (proj2 (factor_solve L z _ y HF Hz Hy)), (proj2 (factor_solve L z _ y' HF Hz Hy')). reflexivity.
  Qed.

  Lemma mvn_exists mu o : exists p, mvn_density n mu A o p.
  Proof. destruct (pd_solve (fun i => o i - mu i)) as (y & Hy). eexists. exists y. split; [exact Hy|reflexivity]. Qed.

  Lemma mvn_pos mu o p : mvn_density n mu A o p -> 0 < p.
  Proof.
    intros (y & _ & ->). apply Rdiv_lt_0_compat; [apply exp_pos|]. apply sqrt_lt_R0.
    apply Rmult_lt_0_compat; [apply pow_lt; apply two_pi_pos|apply det_pos].
  Qed.

  Lemma mvn_ln mu o p y : mvn_density n mu A o p ->
    (forall i, (i < n)%nat -> sumn n (fun j => A i j * y j) = o i - mu i) ->
    ln p = - (1 / 2) * (INR n * ln (2 * PI) + ln (det n A) + sumn n (fun i => (o i - mu i) * y i)).
  Proof.
    intros Hp Hy.
    rewrite (mvn_unique mu o p _ Hp (ex_intro _ y (conj Hy eq_refl))).
    assert (P1 : 0 < (2 * PI) ^ n) by (apply pow_lt; apply two_pi_pos). pose proof det_pos as P2.
    rewrite ln_div by (first [apply exp_pos | apply sqrt_lt_R0; apply Rmult_lt_0_compat; assumption]).
    rewrite ln_exp, ln_sqrt by (apply Rmult_lt_0_compat; assumption).
    rewrite ln_mult by assumption. rewrite ln_pow by apply two_pi_pos. lra.
  Qed.

  (** stats.py:79-96 for one component. *)
  Lemma full1_ok (x : list vec) mu g : x <> [] -> Forall (finite_row n) x ->
    (forall o, In o x -> mvn_density n mu A (xval o) (g o)) ->
    lmnd_full1 exact n x (fvec n mu) (fmat n n A) = Ok (map (fun o => Fin (ln (g o))) x).
  Proof.
    intros Hne Hx Hg. destruct pd_factor as (L & HC & HF). pose proof HF as (H1 & H2 & H3).
    assert (Hd : forall i, (i < n)%nat -> L i i <> 0) by (intros i Hi; pose proof (H2 i Hi); lra).
    unfold lmnd_full1. rewrite HC. cbn [bind].
    replace (length (colsof n n L)) with n by (unfold colsof; rewrite tab_length; reflexivity).
    rewrite (width_finite n x Hne Hx). replace (length (fvec n mu)) with n by (unfold fvec; rewrite tab_length; reflexivity).
    unfold bwidth. rewrite Nat.eqb_refl. cbn [bind]. rewrite Nat.eqb_refl. cbn [negb].
    assert (M : forall l, Forall (finite_row n) l ->
      mapM (fun o => if forallb xisfin (tab n (fun f => xsub exact (vget o (bidx n f)) (vget (fvec n mu) (bidx n f))))
              then Ok (tab n (fun f => xsub exact (vget o (bidx n f)) (vget (fvec n mu) (bidx n f)))) else Err (ValueError "array must not contain infs or NaNs")) l
      = Ok (map (fun o => fvec n (fun f => xval o f - mu f)) l)).
    { induction l as [|o l IH]; intros Hl; [reflexivity|]. inversion Hl as [|? ? Ho Hl']; subst. cbn [mapM map].
      rewrite (tab_ext n _ (fun f => Fin (xval o f - mu f))).
      2:{ intros f Hf. rewrite (bidx_lt n f Hf), (finite_row_get n o f Ho Hf), vget_fvec by exact Hf. apply xsubE. }
      change (tab n (fun f => Fin (xval o f - mu f))) with (fvec n (fun f => xval o f - mu f)).
      rewrite (proj2 (fvec_finite_row n (fun f => xval o f - mu f))). cbn [bind]. rewrite (IH Hl'). reflexivity. }
    cbv zeta. rewrite (M x Hx). cbn [bind]. f_equal. rewrite map_map. apply map_ext_in. intros o Ho.
    destruct (fsolve_ok n L (fun f => xval o f - mu f) H1 Hd) as (z & Ez & Hz). rewrite Ez.
    unfold fvec at 1. rewrite tab_map.
    rewrite (tab_ext n (fun i => xsq exact (Fin (z i))) (fun i => Fin (z i * z i))) by (intros; unfold xsq; apply xmulE).
    change (tab n (fun i => Fin (z i * z i))) with (fvec n (fun i => z i * z i)). rewrite xsum_fvec.
    rewrite (tab_ext n _ (fun j => Fin (ln (L j j)))).
    2:{ intros j Hj. unfold colsof. rewrite tab_nth by exact Hj. rewrite vget_fvec by exact Hj.
        rewrite xlog_fin, xln_pos by (pose proof (H2 j Hj); lra). reflexivity. }
    change (tab n (fun j => Fin (ln (L j j)))) with (fvec n (fun j => ln (L j j))). rewrite xsum_fvec.
    rewrite nf_log2pi_ok, xmulE, !xaddE, xmulE. f_equal.
    pose proof (Hg o Ho) as (y & Hy & _).
    rewrite (mvn_ln mu (xval o) (g o) y (Hg o Ho) Hy), (proj2 (factor_det L HF)).
    rewrite (proj2 (factor_solve L z _ y HF Hz Hy)). ring.
  Qed.
End Dens.

(** The density as a function of the matrix. *)
Definition mvnf (n : nat) (mu : nat -> R) (A : nat -> nat -> R) (o : vec) : R :=
  exp (- (1 / 2) * (INR n * ln (2 * PI) + ln (det n A) +
    match cholesky exact (fmat n n A) with
    | Ok (Some cols) => let z := fsolve exact cols (fvec n (fun f => xval o f - mu f)) in sumn n (fun f => xval z f * xval z f)
    | _ => 0
    end)).

Lemma mvnf_ok n mu A o : pos_def n A -> mvn_density n mu A (xval o) (mvnf n mu A o).
Proof.
  intros PD. destruct (pd_solve n A PD (fun i => xval o i - mu i)) as (y & Hy).
  exists y. split; [exact Hy|].
  set (p := exp (- (1 / 2) * sumn n (fun i => (xval o i - mu i) * y i)) / _).
  assert (Hp : mvn_density n mu A (xval o) p) by (exists y; split; [exact Hy|reflexivity]).
  rewrite <- (exp_ln p) by (apply (mvn_pos n A PD mu (xval o)); exact Hp).
  rewrite (mvn_ln n A PD mu (xval o) p y Hp Hy). unfold mvnf. f_equal. f_equal. f_equal.
  destruct (pd_factor n A PD) as (L & HC & HF). rewrite HC. cbv zeta. pose proof HF as (H1 & H2 & H3).
  assert (Hd : forall i, (i < n)%nat -> L i i <> 0) by (intros i Hi; pose proof (H2 i Hi); lra).
  destruct (fsolve_ok n L (fun f => xval o f - mu f) H1 Hd) as (z & Ez & Hz). rewrite Ez.
  rewrite (proj2 (factor_solve n A L z _ y HF Hz Hy)). apply sumn_ext. intros q Hq.
  unfold xval. rewrite vget_fvec by exact Hq. reflexivity.
Qed.

Lemma mapM_ok {A B} (f : A -> res B) g l : (forall a, In a l -> f a = Ok (g a)) -> mapM f l = Ok (map g l).
Proof.
  induction l as [|a l IH]; intros H; [reflexivity|]. cbn [mapM map]. rewrite H by (left; reflexivity). cbn [bind].
  rewrite IH by (intros b Hb; apply H; right; exact Hb). reflexivity.
Qed.

Lemma combine_tab {A B} n (f : nat -> A) (g : nat -> B) : combine (tab n f) (tab n g) = tab n (fun i => (f i, g i)).
Proof.
  unfold tab. generalize (seq 0 n). intros l. induction l as [|a l IH]; [reflexivity|]. cbn. rewrite IH. reflexivity.
Qed.

Lemma mapM_tab {A B} (f : A -> res B) n (a : nat -> A) g : (forall i, (i < n)%nat -> f (a i) = Ok (g i)) -> mapM f (tab n a) = Ok (tab n g).
Proof.
  intros H. unfold tab. assert (H' : forall i, In i (seq 0 n) -> f (a i) = Ok (g i)) by (intros i Hi; apply in_seq in Hi; apply H; lia).
  revert H'. generalize (seq 0 n). clear. intros l. induction l as [|i l IH]; intros H; [reflexivity|].
  cbn [map mapM]. rewrite H by (left; reflexivity). cbn [bind]. rewrite IH by (intros; apply H; right; assumption). reflexivity.
Qed.

Lemma lmnd_full_ok nc nf x mu (Sg : nat -> nat -> nat -> R) (b : vec -> nat -> R) : x <> [] -> Forall (finite_row nf) x ->
  (forall i, (i < nc)%nat -> pos_def nf (Sg i)) ->
  (forall o i, In o x -> (i < nc)%nat -> mvn_density nf (mu i) (Sg i) (xval o) (b o i)) ->
  lmnd_full exact x (fmat nc nf mu) (CV3 (tab nc (fun i => fmat nf nf (Sg i))))
  = Ok (lmat (length x) nc (obsB b x)).
Proof.
  intros Hne Hx PD Hb. unfold lmnd_full. rewrite ncol_fmat, rows_fmat, combine_tab.
  rewrite (mapM_tab _ nc _ (fun i => map (fun o => Fin (ln (b o i))) x)).
  2:{ intros i Hi. apply full1_ok; [apply PD; exact Hi|exact Hne|exact Hx|]. intros o Ho. apply Hb; assumption. }
  cbn [bind]. rewrite tab_length. f_equal. unfold lmat. apply mtab_ext. intros t i Ht Hi.
  rewrite tab_nth by exact Hi. unfold vget.
  assert (d : vec) by exact [].
  rewrite (nth_indep _ NaN (Fin (ln (b d i)))) by (rewrite map_length; exact Ht).
  rewrite (map_nth (fun o => Fin (ln (b o i))) x d t), (obsB_nth _ x d) by exact Ht.
  rewrite xln_pos; [reflexivity|]. apply (mvn_pos nf (Sg i) (PD i Hi) (mu i) (xval (nth t x d))). apply Hb; [apply nth_In; exact Ht|exact Hi].
Qed.
