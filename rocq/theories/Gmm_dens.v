(** * GMMHMM: mixture densities and responsibilities. *)
From Verif Require Export Nd_proofs Gmm.

(** Symmetric, and never negative as a quadratic form. *)
Definition psd (n : nat) (A : nat -> nat -> R) : Prop := sym n A /\ forall v, 0 <= quad n A v.

(** The matrix used by the 'full' density: 1e-7 is added to the diagonal when
    the matrix is not positive definite. *)
Definition eff (n : nat) (A : nat -> nat -> R) : nat -> nat -> R :=
  match cholesky exact (fmat n n A) with Ok (Some _) => A | _ => ridge A end.

Lemma quad_ridge n A v : quad n (ridge A) v = quad n A v + / 10 ^ 7 * sumn n (fun i => v i * v i).
Proof.
  unfold quad. rewrite <- sumn_scal_l, <- sumn_plus. apply sumn_ext. intros i Hi.
  rewrite (sumn_ext n (fun j => v i * ridge A i j * v j) (fun j => v i * A i j * v j + (if Nat.eqb j i then / 10 ^ 7 * (v i * v j) else 0))).
  - rewrite sumn_plus, sumn_if_eq by exact Hi. reflexivity.
  - intros j Hj. unfold ridge. rewrite (Nat.eqb_sym i j). destruct (Nat.eqb j i); ring.
Qed.

Lemma psd_ridge n A : psd n A -> pos_def n (ridge A).
Proof.
  intros [Hs Hq]. split; [apply ridge_sym; exact Hs|]. intros v (k & Hk & Hv). rewrite quad_ridge.
  assert (0 < sumn n (fun i => v i * v i)).
  { apply (sumn_pos n _ k); [intros; apply Rle_0_sqr|exact Hk|]. apply Rsqr_pos_lt. exact Hv. }
  assert (0 < / 10 ^ 7) by (apply Rinv_0_lt_compat, pow_lt; lra).
  specialize (Hq v). assert (0 < / 10 ^ 7 * sumn n (fun i => v i * v i)) by (apply Rmult_lt_0_compat; assumption). lra.
Qed.

Lemma pd_psd n A : pos_def n A -> psd n A.
Proof.
  intros [Hs Hq]. split; [exact Hs|]. intros v.
  assert (D : (exists i, (i < n)%nat /\ v i <> 0) \/ forall i, (i < n)%nat -> v i = 0).
  { clear. induction n as [|n IH]; [right; intros; lia|]. destruct IH as [(i & Hi & Hv)|H].
    - left. exists i. split; [lia|exact Hv].
    - destruct (Req_EM_T (v n) 0) as [E|E]; [right|left; exists n; split; [lia|exact E]].
      intros i Hi. destruct (Nat.eq_dec i n) as [->|]; [exact E|apply H; lia]. }
  destruct D as [D|D]; [left; apply Hq; exact D|]. right. symmetry. unfold quad. apply sumn_zero. intros i Hi. apply sumn_zero.
  intros j Hj. rewrite (D i Hi). ring.
Qed.

Lemma eff_pd n A : pos_def n A -> eff n A = A.
Proof. intros H. unfold eff. destruct (pd_factor n A H) as (L & -> & _). reflexivity. Qed.

Lemma eff_ok n A : psd n A -> pos_def n (eff n A).
Proof.
  intros H. unfold eff. destruct (cholesky_cases n A (proj1 H)) as [(L & -> & HF)|[-> _]].
  - exact (factor_pos_def n A (proj1 H) L HF).
  - apply psd_ridge. exact H.
Qed.

Lemma full1_eff n x mu A : (0 < n)%nat -> psd n A ->
  lmnd_full1 exact n x (fvec n mu) (fmat n n A) = lmnd_full1 exact n x (fvec n mu) (fmat n n (eff n A)).
Proof.
  intros Hn H. unfold eff. destruct (cholesky_cases n A (proj1 H)) as [(L & E & HF)|[E HN]]; rewrite E.
  - reflexivity.
  - apply (full1_ridge n x mu A Hn (proj1 H) HN). apply psd_ridge. exact H.
Qed.

Section Dens.
  Variables (nc nm nf : nat).
  Hypothesis Hnc : (0 < nc)%nat.
  Hypothesis Hnm : (0 < nm)%nat.
  Hypothesis Hnf : (0 < nf)%nat.

  Definition cshape (ty : string) : list nat := match cprior_shape ty nc nm nf with Some s => s | None => [] end.

  (** Variances / covariance matrix of component [k] of state [i]. *)
  Definition comp_v (ty : string) (cv : list nat -> R) (i k f : nat) : R :=
    if String.eqb ty "spherical" then cv [i; k] else cv [i; k; f].
  Definition comp_S (ty : string) (cv : list nat -> R) (i k f g : nat) : R :=
    if String.eqb ty "tied" then cv [i; f; g] else cv [i; k; f; g].
  (** The density of component [k] of state [i]. *)
  Definition dens (ty : string) (mu : nat -> nat -> nat -> R) (cv : list nat -> R) (o : vec) (i k : nat) : R :=
    if vec_type ty then gauss_b nf (mu i) (floored (comp_v ty cv i)) o k
    else mvnf nf (mu i k) (eff nf (comp_S ty cv i k)) o.
  Definition cov_ok (ty : string) (cv : list nat -> R) : Prop :=
    is_type covariance_types ty = true
    /\ (mat_type ty = true -> forall i k, (i < nc)%nat -> (k < nm)%nat -> psd nf (comp_S ty cv i k)).

  Lemma type_cases ty : is_type covariance_types ty = true ->
    ty = "spherical"%string \/ ty = "diag"%string \/ ty = "full"%string \/ ty = "tied"%string.
  Proof.
    unfold is_type, covariance_types. cbn [existsb].
    destruct (String.eqb_spec ty "spherical"); [tauto|]. destruct (String.eqb_spec ty "diag"); [tauto|].
    destruct (String.eqb_spec ty "full"); [tauto|]. destruct (String.eqb_spec ty "tied"); [tauto|]. discriminate.
  Qed.

  Lemma dens_pos ty mu cv o i k : cov_ok ty cv -> (i < nc)%nat -> (k < nm)%nat -> 0 < dens ty mu cv o i k.
  Proof.
    intros [Ht Hc] Hi Hk. unfold dens. destruct (vec_type ty) eqn:E.
    - apply gauss_b_pos. intros; apply floored_pos.
    - assert (Hm : mat_type ty = true) by (destruct (type_cases ty Ht) as [-> | [-> | [-> | ->]]]; (reflexivity || discriminate)).
      pose proof (eff_ok nf _ (Hc Hm i k Hi Hk)) as PD.
      apply (mvn_pos nf _ PD (mu i k) (xval o)). apply mvnf_ok. exact PD.
  Qed.

  Lemma dens_log ty mu cv x i : cov_ok ty cv -> (i < nc)%nat -> x <> [] -> Forall (finite_row nf) x ->
    log_mvn_density exact ty x (fmat nm nf (mu i)) (cur_covs ty nm nf (fnd (cshape ty) cv) i)
    = Ok (lmat (length x) nm (obsB (fun o k => dens ty mu cv o i k) x)).
  Proof.
    intros [Ht Hc] Hi Hne Hx. destruct (type_cases ty Ht) as [-> | [-> | [-> | ->]]];
      unfold log_mvn_density, cur_covs; cbn [String.eqb Ascii.eqb Bool.eqb].
    - unfold lmnd_spherical. rewrite nrow_fmat, ncol_fmat.
      replace (Mat 1 (tab nm (fun k => [nget (fnd (cshape "spherical") cv) [i; k]]))) with (col_of (fvec nm (fun k => cv [i; k]))).
      + rewrite (broadcast_cast _ nm nf _ (cast_col nm nf (fun k => cv [i; k]))). cbn [bind].
        rewrite lmnd_diag_ok by assumption. reflexivity.
      + unfold col_of, fvec. f_equal. rewrite tab_map. apply tab_ext. intros k Hk.
        rewrite nget_fnd by (apply inb2; assumption). reflexivity.
    - replace (nrow3 (fnd (cshape "diag") cv) i nm nf) with (fmat nm nf (fun k f => cv [i; k; f])).
      + rewrite lmnd_diag_ok by assumption. reflexivity.
      + unfold nrow3, fmat. apply mtab_ext. intros k f Hk Hf. rewrite nget_fnd by (apply inb3; assumption). reflexivity.
    - replace (tab nm (fun k => mat_at (fnd (cshape "full") cv) nf [i; k])) with (tab nm (fun k => fmat nf nf (fun f g => cv [i; k; f; g]))).
      + rewrite (lmnd_full_ext nm nf x (mu i) _ (fun k => eff nf (comp_S "full" cv i k))).
        * apply lmnd_full_ok; [exact Hne|exact Hx| |].
          -- intros k Hk. apply eff_ok. apply Hc; auto.
          -- intros o k _ Hk. apply mvnf_ok. apply eff_ok. apply Hc; auto.
        * intros k Hk. apply full1_eff; [exact Hnf|]. apply (Hc eq_refl i k Hi Hk).
      + apply tab_ext. intros k Hk. unfold mat_at, fmat. apply mtab_ext. intros f g Hf Hg. cbn [app].
        rewrite nget_fnd by (apply inb4; assumption). reflexivity.
    - replace (mat_at (fnd (cshape "tied") cv) nf [i]) with (fmat nf nf (fun f g => cv [i; f; g])).
      + unfold lmnd_tied. rewrite ncol_fmat, nrow_fmat, broadcast_fmat. cbn [bind].
        rewrite (lmnd_full_ext nm nf x (mu i) (fun _ => fun f g => cv [i; f; g]) (fun k => eff nf (comp_S "tied" cv i k))).
        * apply lmnd_full_ok; [exact Hne|exact Hx| |].
          -- intros k Hk. apply eff_ok. apply Hc; auto.
          -- intros o k _ Hk. apply mvnf_ok. apply eff_ok. apply Hc; auto.
        * intros k Hk. apply full1_eff; [exact Hnf|]. apply (Hc eq_refl i k Hi Hk).
      + unfold mat_at, fmat. apply mtab_ext. intros f g Hf Hg. cbn [app].
        rewrite nget_fnd by (apply inb3; assumption). reflexivity.
  Qed.

  (** The mixture density and the responsibilities. *)
  Definition mixb (ty : string) (w : nat -> nat -> R) mu cv (o : vec) (i : nat) : R :=
    sumn nm (fun k => w i k * dens ty mu cv o i k).
  Definition resp ty w mu cv (o : vec) (i k : nat) : R := w i k * dens ty mu cv o i k / mixb ty w mu cv o i.

  Section Par.
  Variables (p : gmmp) (ty : string) (w : nat -> nat -> R) (mu : nat -> nat -> nat -> R) (cv : list nat -> R).
  Hypothesis Hpm : gm_nmix p = nm.
  Hypothesis Hty : gm_type p = ty.
  Hypothesis Hw : gm_weights p = Some (nd2 nc nm w).
  Hypothesis Hmu : gm_means p = Some (nd3 nc nm nf mu).
  Hypothesis Hcv : gm_covars p = Some (fnd (cshape ty) cv).
  Hypothesis Hco : cov_ok ty cv.
  Hypothesis Hw0 : nonneg2 nc nm w.

  Lemma log_weighted_ok x i : (i < nc)%nat -> x <> [] -> Forall (finite_row nf) x ->
    log_weighted exact (Some nf) p x i = Ok (lmat (length x) nm (obsB (fun o k => w i k * dens ty mu cv o i k) x)).
  Proof.
    intros Hi Hne Hx. unfold log_weighted. rewrite Hmu, Hcv, Hw, Hpm, Hty. cbn [gm_nf].
    replace (nrow3 (nd3 nc nm nf mu) i nm nf) with (fmat nm nf (mu i)).
    2:{ unfold nrow3, fmat. apply mtab_ext. intros k f Hk Hf. rewrite nget_nd3 by assumption. reflexivity. }
    rewrite dens_log by assumption. cbn [bind]. f_equal. unfold lmat. apply mtab_ext. intros t k Ht Hk.
    rewrite mget_mtab by assumption.
    unfold nrow2. rewrite tab_map, vget_tab by exact Hk. rewrite nget_nd2 by assumption.
    rewrite xlog_fin by (apply Hw0; assumption).
    rewrite !(obsB_nth _ x []) by exact Ht.
    rewrite xadd_xln; [f_equal; ring| |apply Hw0; assumption]. left. apply dens_pos; assumption.
  Qed.

  Lemma comp_nonneg o i k : (i < nc)%nat -> (k < nm)%nat -> 0 <= w i k * dens ty mu cv o i k.
  Proof. intros Hi Hk. apply Rmult_le_pos; [apply Hw0; assumption|left; apply dens_pos; assumption]. Qed.

  Lemma gmm_loglik_ok c x : c_nc c = nc -> Forall (finite_row nf) x ->
    gmm_loglik exact c (Some nf) p x = Ok (lmat (length x) nc (obsB (mixb ty w mu cv) x)).
  Proof.
    intros Hc Hx. unfold gmm_loglik. rewrite Hc. destruct x as [|o0 x0]; [reflexivity|].
    set (x := o0 :: x0) in *. assert (Hne : x <> []) by discriminate.
    change (seq 0 nc) with (tab nc (fun i => i)) || rewrite <- (map_id (seq 0 nc)); fold (tab nc (fun i => i)).
    rewrite (mapM_tab _ nc (fun i => i) (fun i => lmat (length x) nm (obsB (fun o k => w i k * dens ty mu cv o i k) x)))
      by (intros i Hi; apply log_weighted_ok; assumption).
    cbn [bind]. f_equal. unfold lmat at 2. apply mtab_ext. intros t i Ht Hi.
    rewrite tab_map, tab_nth by exact Hi. unfold lmat, mtab. cbn [rows]. rewrite tab_map, vget_tab by exact Ht.
    rewrite sp_logsumexp_xln.
    - rewrite (obsB_nth _ x []) by exact Ht. f_equal. unfold mixb. apply sumn_ext. intros k Hk.
      rewrite (obsB_nth _ x []) by exact Ht. reflexivity.
    - exact Hnm.
    - intros k Hk. rewrite (obsB_nth _ x []) by exact Ht. apply comp_nonneg; assumption.
  Qed.

  Lemma mixb_nonneg o i : (i < nc)%nat -> 0 <= mixb ty w mu cv o i.
  Proof. intros Hi. apply sumn_nonneg. intros k Hk. apply comp_nonneg; assumption. Qed.

  Lemma gmm_emits0 eig c s t m : c_nc c = nc ->
    emits (gmm eig) (Hmm c (Some nf) s t m p) nc (finite_row nf) (mixb ty w mu cv).
  Proof.
    intros Hc. constructor.
    - intros x Hx. unfold loglik. cbn [gmm ec_loglik h_cfg h_nfeat h_em]. apply gmm_loglik_ok; assumption.
    - intros x Hx. unfold lik. cbn [gmm ec_lik h_cfg h_nfeat h_em]. unfold gmm_lik. rewrite gmm_loglik_ok by assumption.
      cbn [lik_of_loglik bind]. f_equal. unfold lmat. rewrite mmap_mtab. apply mtab_ext. intros u i Hu Hi.
      apply xexp_xln. rewrite (obsB_nth _ x []) by exact Hu. apply mixb_nonneg. exact Hi.
    - intros o i _ Hi. apply mixb_nonneg. exact Hi.
    - intros o Ho. apply Ho.
  Qed.

  Hypothesis Hpos : forall i, (i < nc)%nat -> 0 < sumn nm (w i).
  Lemma mixb_pos o i : (i < nc)%nat -> 0 < mixb ty w mu cv o i.
  Proof.
    intros Hi. destruct (sumn_pos_ex nm (w i) (Hpos i Hi)) as (k & Hk & Hp).
    apply (sumn_pos nm _ k); [intros; apply comp_nonneg; assumption|exact Hk|].
    apply Rmult_lt_0_compat; [exact Hp|apply dens_pos; assumption].
  Qed.

  Lemma resp_sum o i : (i < nc)%nat -> sumn nm (resp ty w mu cv o i) = 1.
  Proof.
    intros Hi. unfold resp. rewrite sumn_div. fold (mixb ty w mu cv o i). apply Rinv_r.
    pose proof (mixb_pos o i Hi). lra.
  Qed.
  Lemma resp_nonneg o i k : (i < nc)%nat -> (k < nm)%nat -> 0 <= resp ty w mu cv o i k.
  Proof.
    intros Hi Hk. unfold resp. apply Rmult_le_pos; [apply comp_nonneg; assumption|].
    left. apply Rinv_0_lt_compat. apply mixb_pos. exact Hi.
  Qed.

  Lemma post_mix_ok c x : c_nc c = nc -> x <> [] -> Forall (finite_row nf) x ->
    post_mix exact c (Some nf) p x
    = Ok (tab nc (fun i => fmat (length x) nm (obsB (fun o k => resp ty w mu cv o i k) x))).
  Proof.
    intros Hc Hne Hx. unfold post_mix. rewrite Hc.
    rewrite <- (map_id (seq 0 nc)). fold (tab nc (fun i => i)).
    apply (mapM_tab _ nc (fun i => i)). intros i Hi. rewrite log_weighted_ok by assumption. cbn [bind]. f_equal.
    unfold log_normalize_rows. rewrite ncol_lmat.
    assert (HP : forall t, (t < length x)%nat -> 0 < sumn nm (fun k => obsB (fun o k => w i k * dens ty mu cv o i k) x t k)).
    { intros t Ht. rewrite (sumn_ext nm _ (fun k => w i k * dens ty mu cv (nth t x []) i k))
        by (intros k Hk; rewrite (obsB_nth _ x []) by exact Ht; reflexivity). apply mixb_pos. exact Hi. }
    destruct (Nat.eqb_spec nm 1) as [E1|Hn1].
    - unfold lmat, mtab, mmap, fmat, mtab. cbn [rows ncol]. f_equal. rewrite !tab_map. apply tab_ext. intros t Ht.
      rewrite !tab_map. apply tab_ext. intros k Hk. cbn [xexp]. rewrite exp_0. unfold exact. f_equal.
      rewrite (obsB_nth _ x []) by exact Ht. pose proof (resp_sum (nth t x []) i Hi) as RS. rewrite E1 in RS, Hk. cbn [sumn] in RS.
      assert (k = 0)%nat as -> by lia. lra.
    - unfold lmat, mtab, mmap, fmat, mtab. cbn [rows ncol]. f_equal. rewrite !tab_map. apply tab_ext. intros t Ht.
      unfold log_normalize_row.
      assert (HN : forall k, (k < nm)%nat -> 0 <= obsB (fun o k => w i k * dens ty mu cv o i k) x t k)
        by (intros k Hk; rewrite (obsB_nth _ x []) by exact Ht; apply comp_nonneg; assumption).
      rewrite sp_logsumexp_xln by assumption.
      rewrite !tab_map. apply tab_ext. intros k Hk.
      rewrite xsub_xln by (first [apply HN; exact Hk | apply HP; exact Ht]).
      rewrite xexp_xln.
      + f_equal. rewrite !(obsB_nth _ x []) by exact Ht. unfold resp, mixb. f_equal. apply sumn_ext. intros q Hq.
        rewrite (obsB_nth _ x []) by exact Ht. reflexivity.
      + apply Rmult_le_pos; [apply HN; exact Hk|left; apply Rinv_0_lt_compat; apply HP; exact Ht].
  Qed.
  End Par.
End Dens.
