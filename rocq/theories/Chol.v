(** * The Cholesky factorisation and triangular solves used by the densities. *)
From Verif Require Export Matrix Gauss_dens.

(** Columns of a lower factor. *)
Definition colsof (n j : nat) (L : nat -> nat -> R) : list vec := tab j (fun q => fvec n (fun i => L i q)).

Section Chol.
  Variables (n : nat) (A : nat -> nat -> R).

  (** The first [j] columns are those of the factor. *)
  Record cinv (j : nat) (L : nat -> nat -> R) : Prop := {
    ci_low : forall i q, (i < q)%nat -> (q < j)%nat -> L i q = 0;
    ci_pos : forall q, (q < j)%nat -> 0 < L q q;
    ci_eq : forall i q, (q < j)%nat -> (q <= i)%nat -> (i < n)%nat -> A i q = sumn j (fun r => L i r * L q r) }.

  Definition pivot (j : nat) (L : nat -> nat -> R) : R := A j j - sumn j (fun q => L j q * L j q).
  Definition next_col (j : nat) (L : nat -> nat -> R) (i : nat) : R :=
    if Nat.ltb i j then 0 else if Nat.eqb i j then sqrt (pivot j L)
    else (A i j - sumn j (fun q => L i q * L j q)) / sqrt (pivot j L).
  Definition add_col (j : nat) (L : nat -> nat -> R) : nat -> nat -> R :=
    fun i q => if Nat.eqb q j then next_col j L i else L i q.

  Lemma add_col_old j L i q : (q < j)%nat -> add_col j L i q = L i q.
  Proof. intros H. unfold add_col. destruct (Nat.eqb_spec q j); [lia|reflexivity]. Qed.
  Lemma add_col_new j L i : add_col j L i j = next_col j L i.
  Proof. unfold add_col. rewrite Nat.eqb_refl. reflexivity. Qed.

  Lemma cinv_step j L : (j < n)%nat -> cinv j L -> 0 < pivot j L -> cinv (S j) (add_col j L).
  Proof.
    intros Hj [H1 H2 H3] Hp. assert (Hs : 0 < sqrt (pivot j L)) by (apply sqrt_lt_R0; exact Hp).
    constructor.
    - intros i q Hi Hq. destruct (Nat.eq_dec q j) as [->|Hn].
      + rewrite add_col_new. unfold next_col. destruct (Nat.ltb_spec i j); [reflexivity|lia].
      + rewrite add_col_old by lia. apply H1; lia.
    - intros q Hq. destruct (Nat.eq_dec q j) as [->|Hn].
      + rewrite add_col_new. unfold next_col. rewrite Nat.ltb_irrefl, Nat.eqb_refl. exact Hs.
      + rewrite add_col_old by lia. apply H2; lia.
    - intros i q Hq Hqi Hi. cbn [sumn]. rewrite !add_col_new.
      rewrite (sumn_ext j _ (fun r => L i r * L q r)) by (intros r Hr; rewrite !add_col_old by lia; reflexivity).
      destruct (Nat.eq_dec q j) as [->|Hn].
      + unfold next_col. rewrite Nat.ltb_irrefl, Nat.eqb_refl.
        destruct (Nat.ltb_spec i j); [lia|]. destruct (Nat.eqb_spec i j) as [->|Hij].
        * rewrite sqrt_sqrt by lra. unfold pivot. ring.
        * field. lra.
      + rewrite (H3 i q) by lia. unfold next_col at 2. destruct (Nat.ltb_spec q j); [ring|lia].
  Qed.

  Lemma colsof_step j L : colsof n j L ++ [fvec n (next_col j L)] = colsof n (S j) (add_col j L).
  Proof.
    unfold colsof. rewrite tab_S_r. f_equal.
    - apply tab_ext. intros q Hq. apply fvec_ext. intros i Hi. symmetry. apply add_col_old. exact Hq.
    - f_equal. apply fvec_ext. intros i Hi. symmetry. apply add_col_new.
  Qed.

  Lemma dot_cols j L i q : (i < n)%nat -> (q < n)%nat ->
    xsum exact (map (fun c => xmul exact (vget c i) (vget c q)) (colsof n j L)) = Fin (sumn j (fun r => L i r * L q r)).
  Proof.
    intros Hi Hq. unfold colsof. rewrite tab_map.
    rewrite (tab_ext j _ (fun r => Fin (L i r * L q r))) by (intros r Hr; rewrite !vget_fvec by assumption; apply xmulE).
    apply xsum_fvec.
  Qed.

  Lemma chol_from_spec k : forall j L, (j + k = n)%nat -> cinv j L ->
    (exists L', chol_from exact n (fmat n n A) k (colsof n j L) = Some (colsof n n L') /\ cinv n L')
    \/ (chol_from exact n (fmat n n A) k (colsof n j L) = None
        /\ exists j' L', (j' < n)%nat /\ cinv j' L' /\ pivot j' L' <= 0).
  Proof.
    induction k as [|k IH]; intros j L Hj HI.
    - left. replace j with n in * by lia. exists L. split; [reflexivity|exact HI].
    - cbn [chol_from]. replace (length (colsof n j L)) with j by (unfold colsof; rewrite tab_length; reflexivity).
      rewrite dot_cols by lia. rewrite mget_fmat by lia. rewrite xsubE. fold (pivot j L).
      cbn [xltb]. unfold Rltb. destruct (Rlt_dec 0 (pivot j L)) as [Hp|Hp].
      + assert (Hs : 0 < sqrt (pivot j L)) by (apply sqrt_lt_R0; exact Hp).
        rewrite (tab_ext n _ (fun i => Fin (next_col j L i))).
        * fold (fvec n (next_col j L)). rewrite colsof_step. apply IH; [lia|]. apply cinv_step; [lia|exact HI|exact Hp].
        * intros i Hi. unfold next_col. destruct (Nat.ltb i j); [reflexivity|].
          unfold xsqrt. destruct (Rlt_dec (pivot j L) 0); [lra|].
          destruct (Nat.eqb i j); [reflexivity|]. rewrite dot_cols, mget_fmat by lia. rewrite xsubE, xdivE by lra. reflexivity.
      + right. split; [reflexivity|]. exists j, L. split; [lia|]. split; [exact HI|lra].
  Qed.

  Hypothesis Hsym : sym n A.

  (** A non-positive pivot contradicts positive definiteness. *)
  Lemma pivot_pos j L : (j < n)%nat -> cinv j L -> pos_def n A -> 0 < pivot j L.
  Proof.
    intros Hj HI [_ PD].
    destruct (back_subst j L) as (v & V1 & V2 & V3).
    { intros i Hi. pose proof (ci_pos _ _ HI i Hi). lra. }
    assert (V3' : forall q, (q < j)%nat -> sumn n (fun i => v i * L i q) = 0).
    { intros q Hq. rewrite <- (V3 q Hq). replace n with (S j + (n - S j))%nat by lia. rewrite sumn_add.
      rewrite (sumn_zero (n - S j)) by (intros i Hi; rewrite V2 by lia; ring). rewrite Rplus_0_r.
      apply sumn_ext. intros i Hi. destruct (Nat.ltb_spec i q); [rewrite (ci_low _ _ HI) by assumption|]; ring. }
    assert (E : quad n A v = sumn j (fun r => sumn n (fun i => v i * L i r) * sumn n (fun i => v i * L i r)) + pivot j L).
    { unfold quad.
      rewrite (sumn_ext n _ (fun i => sumn n (fun k => sumn j (fun r => (v i * L i r) * (v k * L k r)))
                 + (if Nat.eqb i j then pivot j L else 0))).
      - rewrite sumn_plus, sumn_if_eq by exact Hj. f_equal.
        rewrite (sumn_ext n _ (fun i => sumn j (fun r => (v i * L i r) * sumn n (fun k => v k * L k r)))).
        + rewrite sumn_swap. apply sumn_ext. intros r Hr. rewrite sumn_scal_r. reflexivity.
        + intros i Hi. rewrite sumn_swap. apply sumn_ext. intros r Hr. rewrite sumn_scal_l. reflexivity.
      - intros i Hi.
        assert (T : forall k, (k < n)%nat -> v i * A i k * v k
                  = sumn j (fun r => v i * L i r * (v k * L k r)) + (if Nat.eqb k j then (if Nat.eqb i j then pivot j L else 0) else 0)).
        { intros k Hk.
          assert (F : sumn j (fun r => v i * L i r * (v k * L k r)) = v i * sumn j (fun r => L i r * L k r) * v k).
          { rewrite Rmult_assoc, <- sumn_scal_r, <- sumn_scal_l. apply sumn_ext. intros; ring. }
          rewrite F. destruct (le_lt_dec i j) as [Hij|Hij]; [|rewrite V2 by exact Hij;
            destruct (Nat.eqb_spec k j), (Nat.eqb_spec i j); try lia; ring].
          destruct (le_lt_dec k j) as [Hkj|Hkj]; [|rewrite (V2 k) by exact Hkj; destruct (Nat.eqb_spec k j); [lia|ring]].
          destruct (Nat.eqb_spec k j) as [->|Hkn].
          - destruct (Nat.eqb_spec i j) as [->|Hin].
            + rewrite V1. unfold pivot. ring.
            + rewrite (Hsym i j) by lia. rewrite (ci_eq _ _ HI j i) by lia.
              rewrite (sumn_ext j (fun r => L j r * L i r) (fun r => L i r * L j r)) by (intros; ring). ring.
          - destruct (le_lt_dec k i) as [Hki|Hki].
            + rewrite (ci_eq _ _ HI i k) by lia. ring.
            + rewrite (Hsym i k) by lia. rewrite (ci_eq _ _ HI k i) by lia.
              rewrite (sumn_ext j (fun r => L k r * L i r) (fun r => L i r * L k r)) by (intros; ring). ring. }
        rewrite (sumn_ext n _ _ T), sumn_plus. f_equal. rewrite sumn_if_eq by exact Hj. reflexivity. }
    rewrite (sumn_zero j) in E by (intros r Hr; rewrite V3' by exact Hr; ring). rewrite Rplus_0_l in E.
    rewrite <- E. apply PD. exists j. split; [exact Hj|lra].
  Qed.

  (** A lower factor with positive diagonal. *)
  Definition factor (L : nat -> nat -> R) : Prop :=
    lower n L /\ (forall i, (i < n)%nat -> 0 < L i i)
    /\ forall i j, (i < n)%nat -> (j < n)%nat -> A i j = sumn n (fun q => L i q * L j q).

  Lemma cinv_factor L : cinv n L -> factor L.
  Proof.
    intros HI. split; [|split].
    - intros i q Hi Hq. apply (ci_low _ _ HI); assumption.
    - apply HI.
    - intros i j Hi Hj. destruct (le_lt_dec j i) as [H|H].
      + apply (ci_eq _ _ HI); assumption.
      + rewrite (Hsym i j) by assumption. rewrite (ci_eq _ _ HI j i) by lia. apply sumn_ext. intros; ring.
  Qed.

  Lemma cinv_0 : cinv 0 (fun _ _ => 0).
  Proof. constructor; intros; lia. Qed.

  Lemma cholesky_cases :
    (exists L, cholesky exact (fmat n n A) = Ok (Some (colsof n n L)) /\ factor L)
    \/ (cholesky exact (fmat n n A) = Ok None /\ ~ pos_def n A).
  Proof.
    unfold cholesky. rewrite nrow_fmat, ncol_fmat, Nat.eqb_refl. cbn [negb].
    assert (Hf : forallb (forallb xisfin) (rows (fmat n n A)) = true).
    { rewrite rows_fmat. apply forallb_forall. intros r Hr. unfold tab in Hr. apply in_map_iff in Hr.
      destruct Hr as (i & <- & _). apply forallb_forall. intros y Hy. unfold fvec, tab in Hy. apply in_map_iff in Hy.
      destruct Hy as (k & <- & _). reflexivity. }
    rewrite Hf. cbn [negb].
    destruct (chol_from_spec n 0%nat (fun _ _ => 0) eq_refl cinv_0) as [(L & E & HI)|(E & j & L & Hj & HI & Hp)];
      change (colsof n 0 (fun _ _ => 0)) with (@nil vec) in E; rewrite E.
    - left. exists L. split; [reflexivity|]. apply cinv_factor. exact HI.
    - right. split; [reflexivity|]. intros PD. pose proof (pivot_pos j L Hj HI PD). lra.
  Qed.

  Lemma quad_factor L v : factor L ->
    quad n A v = sumn n (fun r => sumn n (fun i => v i * L i r) * sumn n (fun i => v i * L i r)).
  Proof.
    intros (_ & _ & H). unfold quad.
    rewrite (sumn_ext n _ (fun i => sumn n (fun r => (v i * L i r) * sumn n (fun k => v k * L k r)))).
    - rewrite sumn_swap. apply sumn_ext. intros r Hr. rewrite sumn_scal_r. reflexivity.
    - intros i Hi. rewrite (sumn_ext n _ (fun k => sumn n (fun r => (v i * L i r) * (v k * L k r)))).
      + rewrite sumn_swap. apply sumn_ext. intros r Hr. rewrite sumn_scal_l. reflexivity.
      + intros k Hk. rewrite H by assumption. rewrite Rmult_assoc, <- sumn_scal_r, <- sumn_scal_l. apply sumn_ext. intros; ring.
  Qed.

  (** Matrices with a factor are positive definite. *)
  Lemma factor_pos_def L : factor L -> pos_def n A.
  Proof.
    intros HF. split; [exact Hsym|]. intros v (i0 & Hi0 & Hv). rewrite (quad_factor L v HF).
    destruct HF as (Hl & Hp & _).
    (* the last non-zero entry *)
    assert (Hlast : forall k, (k <= n)%nat -> (forall i, (k <= i)%nat -> (i < n)%nat -> v i = 0) ->
              exists j, (j < k)%nat /\ v j <> 0 /\ forall i, (j < i)%nat -> (i < n)%nat -> v i = 0).
    { induction k as [|k IH]; intros Hk Hz.
      - exfalso. apply Hv. apply Hz; lia.
      - destruct (Req_EM_T (v k) 0) as [E|Hne].
        + destruct (IH ltac:(lia)) as (j & J1 & J2 & J3).
          * intros i H1 H2. destruct (Nat.eq_dec i k) as [->|]; [exact E|apply Hz; lia].
          * exists j. split; [lia|]. split; assumption.
        + exists k. split; [lia|]. split; [exact Hne|]. intros i H1 H2. apply Hz; lia. }
    destruct (Hlast n (le_n n) ltac:(intros; lia)) as (j & J1 & J2 & J3).
    apply (sumn_pos n _ j); [intros; apply Rle_0_sqr|exact J1|].
    rewrite (sumn_single n (fun i => v i * L i j) j J1).
    - apply Rsqr_pos_lt. apply Rmult_integral_contrapositive_currified; [exact J2|]. pose proof (Hp j J1). lra.
    - intros i Hi Hn. destruct (le_lt_dec i j).
      + rewrite (Hl i j) by lia. ring.
      + rewrite J3 by lia. ring.
  Qed.
End Chol.

(** Forward substitution. *)
Section Solve.
  Variables (n : nat) (L : nat -> nat -> R) (d : nat -> R).
  Hypothesis HL : lower n L.
  Hypothesis Hp : forall i, (i < n)%nat -> L i i <> 0.

  Lemma fsolve_from_spec k : forall j z, (j + k = n)%nat ->
    (forall i, (i < j)%nat -> sumn i (fun q => L i q * z q) + L i i * z i = d i) ->
    exists z', fsolve_from exact (colsof n n L) (fvec n d) k (fvec j z) = fvec n z'
      /\ forall i, (i < n)%nat -> sumn i (fun q => L i q * z' q) + L i i * z' i = d i.
  Proof.
    induction k as [|k IH]; intros j z Hj Hz.
    - exists z. replace j with n in * by lia. split; [reflexivity|exact Hz].
    - cbn [fsolve_from]. replace (length (fvec j z)) with j by (unfold fvec; rewrite tab_length; reflexivity).
      rewrite (tab_ext j _ (fun q => Fin (L j q * z q))).
      2:{ intros q Hq. unfold colsof. rewrite tab_nth by lia. rewrite !vget_fvec by lia. apply xmulE. }
      change (tab j (fun q => Fin (L j q * z q))) with (fvec j (fun q => L j q * z q)). rewrite xsum_fvec.
      unfold colsof at 2. rewrite tab_nth by lia. rewrite !vget_fvec by lia. rewrite xsubE, xdivE by (apply Hp; lia).
      set (zj := (d j - sumn j (fun q => L j q * z q)) / L j j).
      replace (fvec j z ++ [Fin zj]) with (fvec (S j) (fun i => if Nat.eqb i j then zj else z i)).
      + apply IH; [lia|]. intros i Hi.
        rewrite (sumn_ext i _ (fun q => L i q * z q)) by (intros q Hq; destruct (Nat.eqb_spec q j); [lia|reflexivity]).
        destruct (Nat.eqb_spec i j) as [->|Hn].
        * unfold zj. field. apply Hp. lia.
        * apply Hz. lia.
      + unfold fvec. rewrite tab_S_r, Nat.eqb_refl. f_equal. apply tab_ext. intros i Hi.
        destruct (Nat.eqb_spec i j); [lia|reflexivity].
  Qed.

  Lemma fsolve_ok : exists z, fsolve exact (colsof n n L) (fvec n d) = fvec n z
    /\ forall i, (i < n)%nat -> sumn n (fun q => L i q * z q) = d i.
  Proof.
    unfold fsolve. replace (length (colsof n n L)) with n by (unfold colsof; rewrite tab_length; reflexivity).
    destruct (fsolve_from_spec n 0%nat (fun _ => 0) eq_refl) as (z & E & H); [intros; lia|].
    exists z. split; [exact E|]. intros i Hi. rewrite (lower_sum n L i z HL Hi). apply H. exact Hi.
  Qed.
End Solve.
