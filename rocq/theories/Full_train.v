(** * GaussianHMM with full or tied covariances: emissions and update. *)
From Verif Require Export Full_math Gauss_proofs.

Definition ga_S (p : gaussp) (i k l : nat) : R :=
  match ga_covars p with
  | Some (CV3 ms) => rval (mget (nth i ms (Mat 0 [])) k l)
  | Some (CV2 m) => rval (mget m k l)
  | _ => 0
  end.
(** Density of state [i]: the normal density with the stored matrix, or with
    the ridge added when that is singular. *)
Definition gauss_fp (nf : nat) (p : gaussp) (o : vec) (i : nat) : R := mvnf nf (ga_mu p i) (effm nf (ga_S p i)) o.

(** Stored covariances of the two matrix-like types. *)
Inductive mcov (nc nf : nat) (Sg : nat -> nat -> nat -> R) : string -> covs -> Prop :=
| MFull : mcov nc nf Sg "full" (CV3 (tab nc (fun i => fmat nf nf (Sg i))))
| MTied : (forall i k l, (i < nc)%nat -> (k < nf)%nat -> (l < nf)%nat -> Sg i k l = Sg 0%nat k l) ->
    mcov nc nf Sg "tied" (CV2 (fmat nf nf (Sg 0%nat))).

Lemma mcov_type nc nf Sg ty cv : mcov nc nf Sg ty cv ->
  vec_type ty = false /\ mat_type ty = true /\ is_type covariance_types ty = true.
Proof. intros []; repeat split. Qed.

Lemma mcov_ga_S nc nf Sg ty cv p : mcov nc nf Sg ty cv -> ga_covars p = Some cv ->
  forall i k l, (i < nc)%nat -> (k < nf)%nat -> (l < nf)%nat -> ga_S p i k l = Sg i k l.
Proof.
  intros H E i k l Hi Hk Hl. unfold ga_S. rewrite E. destruct H.
  - rewrite tab_nth by exact Hi. rewrite mget_fmat by assumption. reflexivity.
  - rewrite mget_fmat by assumption. rewrite (H i k l) by assumption. reflexivity.
Qed.

Lemma mcov_ext nc nf Sg Sg' ty cv : (0 < nc)%nat ->
  (forall i k l, (i < nc)%nat -> (k < nf)%nat -> (l < nf)%nat -> Sg i k l = Sg' i k l) ->
  mcov nc nf Sg ty cv -> mcov nc nf Sg' ty cv.
Proof.
  intros Hnc E H. destruct H.
  - rewrite (tab_ext nc _ (fun i => fmat nf nf (Sg' i))) by (intros i Hi; apply fmat_ext; intros; apply E; assumption). constructor.
  - rewrite (fmat_ext nf nf (Sg 0%nat) (Sg' 0%nat)) by (intros; apply E; assumption). constructor.
    intros i k l Hi Hk Hl. rewrite <- !E by assumption. apply H; assumption.
Qed.

Section Full.
  Variables (nc nf : nat).
  Hypothesis Hnc : (0 < nc)%nat.
  Hypothesis Hnf : (0 < nf)%nat.

  Lemma lmnd_full_eff x mu (Sg : nat -> nat -> nat -> R) : x <> [] -> Forall (finite_row nf) x ->
    (forall i, (i < nc)%nat -> pos_semidef nf (Sg i)) ->
    lmnd_full exact x (fmat nc nf mu) (CV3 (tab nc (fun i => fmat nf nf (Sg i))))
    = Ok (lmat (length x) nc (obsB (fun o i => mvnf nf (mu i) (effm nf (Sg i)) o) x)).
  Proof.
    intros Hne Hx Hs. rewrite (lmnd_full_ext nc nf x mu Sg (fun i => effm nf (Sg i))).
    - apply lmnd_full_ok; [exact Hne|exact Hx| |]; intros; [apply effm_pd, Hs; assumption|].
      apply mvnf_ok. apply effm_pd, Hs. assumption.
    - intros i Hi. destruct (psd_pd_dec nf (Sg i) (proj1 (Hs i Hi))) as [P|P].
      + rewrite (effm_pd_id _ _ P). reflexivity.
      + rewrite (effm_ridge nf (Sg i) (proj1 (Hs i Hi)) P). apply full1_ridge; [exact Hnf|apply Hs; exact Hi|exact P|].
        apply ridge_pd. apply Hs. exact Hi.
  Qed.

  Lemma mvnf_ext mu mu' (A B : nat -> nat -> R) o : (forall f, (f < nf)%nat -> mu f = mu' f) ->
    (forall i j, (i < nf)%nat -> (j < nf)%nat -> A i j = B i j) -> mvnf nf mu A o = mvnf nf mu' B o.
  Proof.
    intros E1 E2. unfold mvnf. rewrite (det_ext nf A B E2), (fmat_ext nf nf A B E2).
    rewrite (fvec_ext nf (fun f => xval o f - mu f) (fun f => xval o f - mu' f)) by (intros; rewrite E1 by assumption; reflexivity).
    reflexivity.
  Qed.

  Lemma log_mvn_mat ty cv x mu Sg : x <> [] -> Forall (finite_row nf) x -> mcov nc nf Sg ty cv ->
    (forall i, (i < nc)%nat -> pos_semidef nf (Sg i)) ->
    log_mvn_density exact ty x (fmat nc nf mu) cv
    = Ok (lmat (length x) nc (obsB (fun o i => mvnf nf (mu i) (effm nf (Sg i)) o) x)).
  Proof.
    intros Hne Hx H Hs. destruct H.
    - change (log_mvn_density exact "full" x (fmat nc nf mu)) with (lmnd_full exact x (fmat nc nf mu)). apply lmnd_full_eff; assumption.
    - pose proof (C33_tied_is_full_l exact x (fmat nc nf mu) (fun i j => Fin (Sg 0%nat i j))) as T.
      rewrite nrow_fmat, ncol_fmat in T. change (mtab nf nf (fun i j => Fin (Sg 0%nat i j))) with (fmat nf nf (Sg 0%nat)) in T.
      rewrite T. change (log_mvn_density exact "full" x (fmat nc nf mu)) with (lmnd_full exact x (fmat nc nf mu)).
      rewrite (lmnd_full_eff x mu (fun _ => Sg 0%nat) Hne Hx) by (intros; apply Hs; exact Hnc).
      f_equal. apply mtab_ext. intros t i Ht Hi. f_equal. destruct x as [|d x0]; [contradiction|].
      rewrite !(obsB_nth _ (d :: x0) d) by exact Ht. apply mvnf_ext; [reflexivity|].
      apply effm_ext. intros k l Hk Hl. symmetry. apply H; assumption.
  Qed.

  Lemma mvnf_pos mu A o : pos_def nf A -> 0 < mvnf nf mu A o.
  Proof. intros _. unfold mvnf. apply exp_pos. Qed.

  Lemma full_emits0 c nfe p s t m mu Sg cv : c_nc c = nc -> ga_means p = Some (fmat nc nf mu) ->
    ga_covars p = Some cv -> mcov nc nf Sg (ga_type p) cv -> (forall i, (i < nc)%nat -> pos_semidef nf (Sg i)) ->
    emits gaussian (Hmm c nfe s t m p) nc (finite_row nf) (fun o i => mvnf nf (mu i) (effm nf (Sg i)) o).
  Proof.
    intros Hc Hm Ecv Hv Hs.
    assert (L : forall x, Forall (finite_row nf) x ->
      gauss_loglik exact c nfe p x = Ok (lmat (length x) nc (obsB (fun o i => mvnf nf (mu i) (effm nf (Sg i)) o) x))).
    { intros x Hx. unfold gauss_loglik. rewrite Hm, Ecv.
      destruct x as [|o x0]; [rewrite Hc; reflexivity|].
      apply (log_mvn_mat (ga_type p) cv (o :: x0)); [discriminate|exact Hx|exact Hv|exact Hs]. }
    constructor.
    - intros x Hx. unfold loglik. cbn [gaussian ec_loglik h_cfg h_nfeat h_em]. apply L; exact Hx.
    - intros x Hx. unfold lik. cbn [gaussian ec_lik h_cfg h_nfeat h_em]. unfold gauss_lik. rewrite L by exact Hx.
      cbn [lik_of_loglik bind]. f_equal. unfold lmat. rewrite mmap_mtab. apply mtab_ext. intros u i Hu Hi.
      apply xexp_xln. destruct x as [|d x0]; [simpl in Hu; lia|]. rewrite (obsB_nth _ (d :: x0) d) by exact Hu.
      left. apply exp_pos.
    - intros o i _ _. left. apply exp_pos.
    - intros o Ho. apply Ho.
  Qed.

  (** Hyper-parameters: mean prior [m0] with scalar weight [w], covariance prior
      [cp] (one matrix, the same for all states); [a] is
      [max(covars_weight - n_features, 0)]. *)
  Variables (m0 cp : nat -> nat -> R) (w a : R).
  Hypothesis Hw0 : 0 <= w.
  Hypothesis Ha0 : 0 <= a.
  Hypothesis Hcp : pos_semidef nf cp.

  Record full_prior (p : gaussp) : Prop := FullPrior {
    fr_m0 : cast (pmat (ga_mprior p)) nc nf m0;
    fr_w : ga_mweight p = Scal (Fin w);
    fr_cp : cast (pmat (ga_cprior p)) nf nf cp;
    fr_cw : cweight_excess exact p (INR nf) = Ok (Fin a) }.

  Record full_good (V : bool) (c : cfg) (nfe : option nat) (p : gaussp) : Prop := FullGood {
    fg_nf : nfe = Some nf;
    fg_means : ga_means p = Some (fmat nc nf (ga_mu p));
    fg_covars : exists cv, ga_covars p = Some cv /\ mcov nc nf (ga_S p) (ga_type p) cv;
    fg_psd : forall i, (i < nc)%nat -> pos_semidef nf (ga_S p i);
    fg_prior : full_prior p;
    fg_V : has "m" (c_params c) = true -> V = true \/ 0 < w;
    fg_Vc : has "c" (c_params c) = true -> 0 < a \/ (has "m" (c_params c) = true /\ V = true) }.

  Lemma full_emits V c nfe p s t m : c_nc c = nc -> full_good V c nfe p ->
    emits gaussian (Hmm c nfe s t m p) nc (finite_row nf) (gauss_fp nf p).
  Proof.
    intros Hc Hg. destruct (fg_covars _ _ _ _ Hg) as (cv & Ecv & Hv).
    exact (full_emits0 c nfe p s t m (ga_mu p) (ga_S p) cv Hc (fg_means _ _ _ _ Hg) Ecv Hv (fg_psd _ _ _ _ Hg)).
  Qed.

  (** ** Statistics. *)
  Definition xx (k l : nat) (o : vec) (_ : nat) : R := xval o k * xval o l.

  Lemma outer_sum_ok x g i : x <> [] -> Forall (finite_row nf) x -> (i < nc)%nat ->
    outer_sum exact (fmat (length x) nc g) x i
    = fmat nf nf (fun k l => sumn (length x) (fun t => g t i * obsB (xx k l) x t i)).
  Proof.
    intros Hne Hx Hi. unfold outer_sum. rewrite (width_finite nf x Hne Hx). apply mtab_ext. intros k l Hk Hl.
    rewrite (tab_ext (length x) _ (fun t => Fin (g t i * obsB (xx k l) x t i))).
    - change (tab (length x) (fun t => Fin (g t i * obsB (xx k l) x t i))) with (fvec (length x) (fun t => g t i * obsB (xx k l) x t i)).
      apply xsum_fvec.
    - intros t Ht. assert (Ho : finite_row nf (nth t x [])) by (rewrite Forall_forall in Hx; apply Hx, nth_In; exact Ht).
      rewrite mget_fmat by assumption. rewrite !(finite_row_get nf _ _ Ho) by assumption.
      rewrite !xmulE. f_equal. rewrite (obsB_nth _ x []) by exact Ht. unfold xx. ring.
  Qed.

  Lemma full_acc_all c nfe p l : forall n s q O2,
    (forall x g, In (x, g) l -> x <> [] /\ Forall (finite_row nf) x) -> mat_type (ga_type p) = true -> vec_type (ga_type p) = false ->
    em_acc_all gaussian c nfe p nc (GaussStat (fvec nc n) (fmat nc nf s) O2 (tab nc (fun i => fmat nf nf (q i)))) l
    = Ok (GaussStat
            (if has "m" (c_params c) then fvec nc (fun i => n i + wsum l (fun _ _ => 1) i) else fvec nc n)
            (if has "m" (c_params c) then fmat nc nf (fun i f => s i f + wsum l (xf f) i) else fmat nc nf s)
            O2
            (if has "c" (c_params c) then tab nc (fun i => fmat nf nf (fun k m => q i k m + wsum l (xx k m) i))
             else tab nc (fun i => fmat nf nf (q i)))).
  Proof.
    induction l as [|[x g] l IH]; intros n s q O2 Hl Hty Hty'.
    - cbn [em_acc_all]. f_equal.
      f_equal; [destruct (has "m" _)|destruct (has "m" _)|destruct (has "c" _)]; try reflexivity.
      + apply fvec_ext; intros; unfold wsum; cbn [sumL]; ring.
      + apply fmat_ext; intros; unfold wsum; cbn [sumL]; ring.
      + apply tab_ext. intros i Hi. apply fmat_ext; intros; unfold wsum; cbn [sumL]; ring.
    - cbn [em_acc_all gaussian ec_acc]. unfold gauss_acc. rewrite Hty, Hty'. cbn [gs_post gs_obs gs_obs2 gs_obsT].
      destruct (Hl x g (or_introl eq_refl)) as [Hne Hx].
      assert (M1 : matT_mul exact (fmat (length x) nc g) x
                 = fmat nc nf (fun i f => sumn (length x) (fun t => g t i * obsB (xf f) x t i))).
      { rewrite <- (map_id x) at 2. apply (matT_mul_fmat nc nf x g (fun o => o) xval Hne).
        intros o Ho. apply finite_row_fvec. rewrite Forall_forall in Hx. apply Hx, Ho. }
      set (T := tab nc (fun i => fmat nf nf (q i))).
      assert (M2 :
        mapM (fun i => do m <- broadcast_to (outer_sum exact (fmat (length x) nc g) x i) (nrow (nth i T (Mat 0 [])))
                                                       (ncol (nth i T (Mat 0 [])));
                       Ok (mzip (xadd exact) (nth i T (Mat 0 [])) m)) (seq 0 (length T))
        = Ok (tab nc (fun i => fmat nf nf (fun k m => q i k m + sumn (length x) (fun t => g t i * obsB (xx k m) x t i))))).
      { unfold T. rewrite tab_length.
        apply (mapM_ok _ (fun i => fmat nf nf (fun k m => q i k m + sumn (length x) (fun t => g t i * obsB (xx k m) x t i)))).
        intros i Hi. apply in_seq in Hi. fold T. unfold T. rewrite tab_nth by lia. rewrite (outer_sum_ok x g i Hne Hx) by lia.
        rewrite nrow_fmat, ncol_fmat, broadcast_fmat. cbn [bind]. change (mzip (xadd exact)) with (madd exact). rewrite madd_fmat. reflexivity. }
      rewrite M1.
      assert (N1 : forall i, sumn (length x) (fun t => g t i * obsB (fun _ _ => 1) x t i) = sumn (length x) (fun t => g t i)).
      { intros i. apply sumn_ext. intros t Ht. destruct x as [|d x0]; [contradiction|].
        rewrite (obsB_nth _ (d :: x0) d) by exact Ht. ring. }
      assert (Hl' : forall y g', In (y, g') l -> y <> [] /\ Forall (finite_row nf) y)
        by (intros y g' H; apply (Hl y g'); right; exact H).
      destruct (has "m" (c_params c)) eqn:Hm; destruct (has "c" (c_params c)) eqn:Hcc;
        cbn [bind gs_post gs_obs gs_obs2 gs_obsT]; rewrite ?iadd_fmat; cbn [bind gs_post gs_obs gs_obs2 gs_obsT].
      + rewrite M2. cbn [bind]. rewrite ?col_sums_fmat, ?vadd_fvec. fold gaussian.
        rewrite IH by assumption. f_equal. f_equal.
        * apply fvec_ext; intros; rewrite wsum_cons, ?N1; ring.
        * apply fmat_ext; intros; rewrite wsum_cons; ring.
        * apply tab_ext; intros; apply fmat_ext; intros; rewrite wsum_cons; ring.
      + unfold T. rewrite ?col_sums_fmat, ?vadd_fvec. fold gaussian. rewrite IH by assumption. f_equal. f_equal.
        * apply fvec_ext; intros; rewrite wsum_cons, ?N1; ring.
        * apply fmat_ext; intros; rewrite wsum_cons; ring.
      + rewrite M2. cbn [bind]. fold gaussian.
        rewrite IH by assumption. f_equal. f_equal.
        apply tab_ext; intros; apply fmat_ext; intros; rewrite wsum_cons; ring.
      + unfold T. fold gaussian. rewrite IH by assumption. reflexivity.
  Qed.

  (** ** The update. *)
  Definition fmean (N : nat -> R) (S : nat -> nat -> R) (i f : nat) : R := (w * m0 i f + S i f) / (w + N i).
  (** Weighted scatter about [mu], with the mean prior. *)
  Definition scatm (N : nat -> R) (S : nat -> nat -> R) (Q : nat -> nat -> nat -> R) (mu : nat -> nat -> R) (i k l : nat) : R :=
    w * ((mu i k - m0 i k) * (mu i l - m0 i l)) + Q i k l - S i k * mu i l - S i l * mu i k + mu i k * mu i l * N i.
  Definition upd_cov (ty : string) (N : nat -> R) (S : nat -> nat -> R) (Q : nat -> nat -> nat -> R) (mu : nat -> nat -> R) (i k l : nat) : R :=
    if String.eqb ty "tied" then (cp k l + sumn nc (fun j => scatm N S Q mu j k l)) / (a + sumn nc N)
    else (cp k l + scatm N S Q mu i k l) / (a + N i).

  Lemma full_means_ok p N S Q T : full_prior p -> (forall i, (i < nc)%nat -> w + N i <> 0) ->
    gauss_means exact p (GaussStat (fvec nc N) (fmat nc nf S) Q T) = Ok (fmat nc nf (fmean N S)).
  Proof.
    intros Hp Hd. unfold gauss_means. cbn [gs_obs gs_post]. rewrite (fr_w _ Hp).
    destruct (b2_cast (xmul exact) Rmult nc nf _ m0 Hnc Hnf (fun _ _ _ _ => xmulE _ _) _ _ (cast_scal w nc nf) (fr_m0 _ Hp))
      as (m1 & E1 & C1).
    rewrite E1. cbn [bind].
    rewrite (b2_fullr (xadd exact) Rplus nc nf _ S Hnc Hnf (fun _ _ _ _ => xaddE _ _) m1 C1). cbn [bind].
    destruct (b2_cast (xadd exact) Rplus nc nf _ (fun i _ => N i) Hnc Hnf (fun _ _ _ _ => xaddE _ _) _ _ (cast_scal w nc nf) (cast_col nc nf N))
      as (m2 & E2 & C2).
    rewrite E2. cbn [bind].
    apply (b2_fulll (xdiv exact) Rdiv nc nf _ (fun i f => w + N i) Hnc Hnf); [|exact C2].
    intros i f Hi Hf. apply xdivE. apply Hd; assumption.
  Qed.

  Lemma outer_ok u v : outer exact (fvec nf u) (fvec nf v) = fmat nf nf (fun k l => u k * v l).
  Proof.
    unfold outer. replace (length (fvec nf u)) with nf by (unfold fvec; rewrite tab_length; reflexivity).
    replace (length (fvec nf v)) with nf by (unfold fvec; rewrite tab_length; reflexivity).
    apply mtab_ext. intros k l Hk Hl. rewrite !vget_fvec by assumption. apply xmulE.
  Qed.
  Lemma mtrans_ok f : mtrans (fmat nf nf f) = fmat nf nf (fun k l => f l k).
  Proof. unfold mtrans. rewrite nrow_fmat, ncol_fmat. apply mtab_ext. intros k l Hk Hl. rewrite mget_fmat by assumption. reflexivity. Qed.

  Lemma full_covars_raw c p N S Q O2 mu : c_nc c = nc -> full_prior p ->
    (ga_type p = "tied"%string \/ ga_type p = "full"%string) ->
    gauss_covars_mat exact c nf p (fmat nc nf mu) (GaussStat (fvec nc N) (fmat nc nf S) O2 (tab nc (fun i => fmat nf nf (Q i))))
    = Ok (if String.eqb (ga_type p) "tied" then 
            CV2 (mmap (fun v => xdiv exact v (Fin (a + sumn nc N))) (fmat nf nf (fun k l => cp k l + sumn nc (fun j => scatm N S Q mu j k l))))
          else CV3 (tab nc (fun i => mmap (fun v => xdiv exact v (Fin (a + N i))) (fmat nf nf (fun k l => cp k l + scatm N S Q mu i k l))))).
  Proof.
    intros Hc Hp Hty. unfold gauss_covars_mat. cbn [gs_obs gs_post gs_obs2 gs_obsT].
    rewrite (b2_fulll (xsub exact) Rminus nc nf mu m0 Hnc Hnf (fun _ _ _ _ => xsubE _ _) _ (fr_m0 _ Hp)). cbn [bind].
    rewrite Hc. rewrite (mapM_ok _ (fun i => fmat nf nf (scatm N S Q mu i))).
    2:{ intros i Hi. apply in_seq in Hi. rewrite !rows_fmat, !tab_nth by lia. rewrite !outer_ok, mtrans_ok.
        rewrite (fr_w _ Hp).
        rewrite (b2_fullr (xmul exact) Rmult nf nf _ _ Hnf Hnf (fun _ _ _ _ => xmulE _ _) _ (cast_scal w nf nf)). cbn [bind].
        rewrite (b2_fulll (xadd exact) Rplus nf nf _ _ Hnf Hnf (fun _ _ _ _ => xaddE _ _) _ (cast_fmat nf nf _)). cbn [bind].
        rewrite (b2_fulll (xsub exact) Rminus nf nf _ _ Hnf Hnf (fun _ _ _ _ => xsubE _ _) _ (cast_fmat nf nf _)). cbn [bind].
        rewrite (b2_fulll (xsub exact) Rminus nf nf _ _ Hnf Hnf (fun _ _ _ _ => xsubE _ _) _ (cast_fmat nf nf _)). cbn [bind].
        rewrite (mmap_fmat (fun v => xmul exact v (vget (fvec nc N) i)) (fun v => v * N i))
          by (intros; rewrite vget_fvec by lia; apply xmulE).
        rewrite (b2_fulll (xadd exact) Rplus nf nf _ _ Hnf Hnf (fun _ _ _ _ => xaddE _ _) _ (cast_fmat nf nf _)). cbn [bind].
        rewrite broadcast_fmat. f_equal. }
    cbn [bind]. rewrite (fr_cw _ Hp). cbn [bind].
    change (map (fun i => fmat nf nf (scatm N S Q mu i)) (seq 0 nc)) with (tab nc (fun i => fmat nf nf (scatm N S Q mu i))).
    destruct Hty as [E|E]; rewrite E in *; cbn [String.eqb Ascii.eqb Bool.eqb].
    - rewrite (mtab_ext nf nf _ (fun k l => Fin (sumn nc (fun j => scatm N S Q mu j k l)))).
      2:{ intros k l Hk Hl. rewrite tab_map. rewrite (tab_ext nc _ (fun j => Fin (scatm N S Q mu j k l)))
            by (intros; rewrite mget_fmat by assumption; reflexivity).
          change (tab nc (fun j => Fin (scatm N S Q mu j k l))) with (fvec nc (fun j => scatm N S Q mu j k l)). apply xsum_fvec. }
      fold (fmat nf nf (fun k l => sumn nc (fun j => scatm N S Q mu j k l))).
      rewrite (b2_fullr (xadd exact) Rplus nf nf cp _ Hnf Hnf (fun _ _ _ _ => xaddE _ _) _ (fr_cp _ Hp)). cbn [bind].
      rewrite xsum_fvec, xaddE. reflexivity.
    - rewrite (mapM_tab _ nc _ (fun i => fmat nf nf (fun k l => cp k l + scatm N S Q mu i k l))).
      2:{ intros i Hi. apply (b2_fullr (xadd exact) Rplus nf nf cp _ Hnf Hnf (fun _ _ _ _ => xaddE _ _) _ (fr_cp _ Hp)). }
      cbn [bind]. rewrite tab_length. f_equal. f_equal.
      change (seq 0 nc) with (seq 0 nc). rewrite <- (map_id (seq 0 nc)). change (map (fun x => x) (seq 0 nc)) with (tab nc (fun i => i)).
      rewrite combine_tab, tab_map. apply tab_ext. intros i Hi. rewrite vget_fvec by exact Hi. rewrite xaddE. reflexivity.
  Qed.

  Lemma full_covars_ok c p N S Q O2 mu : c_nc c = nc -> full_prior p ->
    (ga_type p = "tied"%string \/ ga_type p = "full"%string) ->
    (ga_type p = "tied"%string -> a + sumn nc N <> 0) ->
    (ga_type p = "full"%string -> forall i, (i < nc)%nat -> a + N i <> 0) ->
    gauss_covars_mat exact c nf p (fmat nc nf mu) (GaussStat (fvec nc N) (fmat nc nf S) O2 (tab nc (fun i => fmat nf nf (Q i))))
    = Ok (if String.eqb (ga_type p) "tied" then CV2 (fmat nf nf (upd_cov (ga_type p) N S Q mu 0))
          else CV3 (tab nc (fun i => fmat nf nf (upd_cov (ga_type p) N S Q mu i)))).
  Proof.
    intros Hc Hp Hty Ht Hf. rewrite full_covars_raw by assumption. f_equal. unfold upd_cov.
    destruct Hty as [E|E]; rewrite E in *; cbn [String.eqb Ascii.eqb Bool.eqb]; f_equal.
    - apply (mmap_fmat _ (fun v => v / (a + sumn nc N))). intros. apply xdivE. apply Ht. reflexivity.
    - apply tab_ext. intros i Hi. apply (mmap_fmat _ (fun v => v / (a + N i))). intros. apply xdivE. apply Hf; [reflexivity|exact Hi].
  Qed.

  (** ** Positivity. *)
  Lemma quad_lin (A B : nat -> nat -> R) c v : quad nf (fun k l => A k l + c * B k l) v = quad nf A v + c * quad nf B v.
  Proof. rewrite !quad_frob. rewrite (frob_plus nf _ A (fun k l => c * B k l)), frob_scal. reflexivity. Qed.

  Definition dot (v u : nat -> R) : R := sumn nf (fun k => v k * u k).

  Lemma quad_scatm N S Q mu i v :
    quad nf (scatm N S Q mu i) v
    = w * dot v (fun k => mu i k - m0 i k) ^ 2 + quad nf (Q i) v - 2 * dot v (S i) * dot v (mu i) + N i * dot v (mu i) ^ 2.
  Proof.
    unfold scatm.
    rewrite (quad_ext nf _ (fun k l => (((Q i k l + w * ((mu i k - m0 i k) * (mu i l - m0 i l))) + (-1) * (S i k * mu i l)) + (-1) * (S i l * mu i k)) + N i * (mu i k * mu i l)) v v)
      by (intros; ring).
    rewrite (quad_lin (fun k l => ((Q i k l + w * ((mu i k - m0 i k) * (mu i l - m0 i l))) + (-1) * (S i k * mu i l)) + (-1) * (S i l * mu i k)) (fun k l => mu i k * mu i l)).
    rewrite (quad_lin (fun k l => (Q i k l + w * ((mu i k - m0 i k) * (mu i l - m0 i l))) + (-1) * (S i k * mu i l)) (fun k l => S i l * mu i k)).
    rewrite (quad_lin (fun k l => Q i k l + w * ((mu i k - m0 i k) * (mu i l - m0 i l))) (fun k l => S i k * mu i l)).
    rewrite (quad_lin (Q i) (fun k l => (mu i k - m0 i k) * (mu i l - m0 i l))).
    rewrite (quad_outer nf (fun k => mu i k - m0 i k) v), (quad_outer nf (mu i) v).
    assert (C : quad nf (fun k l => S i k * mu i l) v = dot v (S i) * dot v (mu i)).
    { unfold quad, dot. rewrite <- sumn_scal_r. apply sumn_ext. intros k Hk. rewrite <- sumn_scal_l. apply sumn_ext. intros; ring. }
    assert (C' : quad nf (fun k l => S i l * mu i k) v = dot v (S i) * dot v (mu i)).
    { rewrite Rmult_comm. unfold quad, dot. rewrite <- sumn_scal_r. apply sumn_ext. intros k Hk. rewrite <- sumn_scal_l. apply sumn_ext. intros; ring. }
    rewrite C, C'. unfold dot. ring.
  Qed.

  Lemma wsum_dot l v i : dot v (fun k => wsum l (xf k) i) = wsum l (fun o _ => dot v (xval o)) i.
  Proof.
    unfold dot. rewrite (wsum_sumn l nf (fun k o _ => v k * xval o k) i). apply sumn_ext. intros k Hk.
    rewrite <- wsum_scal. reflexivity.
  Qed.
  Lemma wsum_quad l v i : quad nf (fun k m => wsum l (xx k m) i) v = wsum l (fun o _ => dot v (xval o) ^ 2) i.
  Proof.
    transitivity (sumn nf (fun k => wsum l (fun o _ => sumn nf (fun m => (v k * v m) * xx k m o 0)) i)).
    - unfold quad. apply sumn_ext. intros k Hk. rewrite (wsum_sumn l nf (fun m o _ => (v k * v m) * xx k m o 0) i). apply sumn_ext.
      intros m Hm. rewrite wsum_scal. unfold xx. change (wsum l (fun (o : vec) (_ : nat) => xval o k * xval o m) i) with (wsum l (xx k m) i). unfold xx. ring.
    - rewrite <- (wsum_sumn l nf (fun k o _ => sumn nf (fun m => (v k * v m) * xx k m o 0)) i).
      apply (wsum_ext l _ _ i (fun _ => True)); [intros x g _; apply Forall_forall; trivial|]. intros o _.
      unfold dot, xx. replace (sumn nf (fun k => v k * xval o k) ^ 2) with (sumn nf (fun k => v k * xval o k) * sumn nf (fun k => v k * xval o k)) by ring.
      rewrite <- sumn_scal_r. apply sumn_ext. intros k Hk. rewrite <- sumn_scal_l. apply sumn_ext. intros; ring.
  Qed.

  Lemma wsum_square l v m i : wsum l (fun o _ => (dot v (xval o) - m) ^ 2) i
    = wsum l (fun o _ => dot v (xval o) ^ 2) i - 2 * m * wsum l (fun o _ => dot v (xval o)) i + m ^ 2 * wsum l (fun _ _ => 1) i.
  Proof.
    rewrite (wsum_ext l _ (fun o j => (dot v (xval o) ^ 2 + (- 2 * m) * dot v (xval o)) + m ^ 2 * 1) i (fun _ => True));
      [|intros x g _; apply Forall_forall; trivial|intros; ring].
    rewrite (wsum_plus l (fun o j => dot v (xval o) ^ 2 + (- 2 * m) * dot v (xval o)) (fun o j => m ^ 2 * 1)).
    rewrite (wsum_plus l (fun o j => dot v (xval o) ^ 2) (fun o j => (- 2 * m) * dot v (xval o))).
    rewrite (wsum_scal l (- 2 * m) (fun o _ => dot v (xval o))), (wsum_scal l (m ^ 2) (fun _ _ => 1)). ring.
  Qed.

  (** Statistics as collected under [c]. *)
  Definition st_qq (c : cfg) (l : list (list vec * (nat -> nat -> R))) (i k m : nat) : R :=
    if has "c" (c_params c) then wsum l (xx k m) i else 0.
  Definition fmu_new (c : cfg) (p : gaussp) l : nat -> nat -> R :=
    if has "m" (c_params c) then fmean (st_n c l) (st_s c l) else ga_mu p.
  Definition S_new (c : cfg) (p : gaussp) l : nat -> nat -> nat -> R :=
    if has "c" (c_params c) then upd_cov (ga_type p) (st_n c l) (st_s c l) (st_qq c l) (fmu_new c p l) else ga_S p.
  Definition full_new (c : cfg) (p : gaussp) l : gaussp :=
    ga_set p (Some (fmat nc nf (fmu_new c p l)))
             (if has "c" (c_params c)
              then Some (if String.eqb (ga_type p) "tied" then CV2 (fmat nf nf (S_new c p l 0))
                         else CV3 (tab nc (fun i => fmat nf nf (S_new c p l i))))
              else ga_covars p).

  Section Step.
  Variables (V : bool) (c : cfg) (nfe : option nat) (p : gaussp) (l : list (list vec * (nat -> nat -> R))).
  Hypothesis Hc : c_nc c = nc.
  Hypothesis Hg : full_good V c nfe p.
  Hypothesis Hw : good_weights nc (finite_row nf) (gauss_fp nf p) l.

  Lemma fgw_ok : forall x g, In (x, g) l -> x <> [] /\ Forall (finite_row nf) x.
  Proof. intros x g Hin. destruct (proj2 Hw x g Hin) as (H1 & H2 & _). split; assumption. Qed.
  Lemma focc_nonneg i : (i < nc)%nat -> 0 <= wsum l (fun _ _ => 1) i.
  Proof.
    intros Hi. apply (wsum_nonneg l _ i (finite_row nf)); [apply (good_weights_nn nc _ _ l i Hw Hi)|]. intros; lra.
  Qed.
  Lemma st_n_nonneg i : (i < nc)%nat -> 0 <= st_n c l i.
  Proof. intros Hi. unfold st_n. destruct (has "m" (c_params c)); [apply focc_nonneg; exact Hi|lra]. Qed.

  Lemma full_type : ga_type p = "tied"%string \/ ga_type p = "full"%string.
  Proof. destruct (fg_covars _ _ _ _ Hg) as (cv & _ & H). destruct H; auto. Qed.

  Lemma scatm_psd i : (i < nc)%nat -> has "c" (c_params c) = true ->
    forall mu, pos_semidef nf (scatm (st_n c l) (st_s c l) (st_qq c l) mu i).
  Proof.
    intros Hi Hcc mu. split.
    - intros k m Hk Hm. unfold scatm, st_qq. rewrite Hcc.
      replace (wsum l (xx k m) i) with (wsum l (xx m k) i); [ring|].
      apply (wsum_ext l _ _ i (fun _ => True)); [intros x g _; apply Forall_forall; trivial|]. intros o _. unfold xx. ring.
    - intros v. rewrite quad_scatm.
      assert (Eq : quad nf (st_qq c l i) v = wsum l (fun o _ => dot v (xval o) ^ 2) i).
      { rewrite <- wsum_quad. apply quad_ext; [|reflexivity]. intros. unfold st_qq. rewrite Hcc. reflexivity. }
      rewrite Eq. pose proof (pow2_ge_0 (dot v (fun k => mu i k - m0 i k))) as Hsq.
      assert (0 <= w * dot v (fun k => mu i k - m0 i k) ^ 2) by (apply Rmult_le_pos; assumption).
      unfold st_n, st_s. destruct (has "m" (c_params c)) eqn:Hm.
      + pose proof (wsum_square l v (dot v (mu i)) i) as E2. rewrite wsum_dot.
        assert (0 <= wsum l (fun o _ => (dot v (xval o) - dot v (mu i)) ^ 2) i).
        { apply (wsum_nonneg l _ i (finite_row nf)); [apply (good_weights_nn nc _ _ l i Hw Hi)|]. intros; apply pow2_ge_0. }
        lra.
      + assert (0 <= wsum l (fun o _ => dot v (xval o) ^ 2) i).
        { apply (wsum_nonneg l _ i (finite_row nf)); [apply (good_weights_nn nc _ _ l i Hw Hi)|]. intros; apply pow2_ge_0. }
        assert (E0 : dot v (fun _ => 0) = 0) by (unfold dot; apply sumn_zero; intros; ring).
        rewrite E0. lra.
  Qed.

  Lemma psd_plus_div (A B : nat -> nat -> R) M : 0 < M -> pos_semidef nf A -> pos_semidef nf B ->
    pos_semidef nf (fun k m => (A k m + B k m) / M).
  Proof.
    intros HM [A1 A2] [B1 B2]. split.
    - intros k m Hk Hm. rewrite (A1 k m Hk Hm), (B1 k m Hk Hm). reflexivity.
    - intros v.
      rewrite (quad_ext nf _ (fun k m => (0 + / M * A k m) + / M * B k m) v v) by (intros; first [reflexivity|unfold Rdiv; ring]).
      rewrite (quad_lin (fun k m => 0 + / M * A k m) B), (quad_lin (fun _ _ => 0) A).
      assert (Z : quad nf (fun _ _ => 0) v = 0) by (unfold quad; apply sumn_zero; intros; apply sumn_zero; intros; ring).
      rewrite Z. specialize (A2 v). specialize (B2 v). pose proof (Rinv_0_lt_compat M HM).
      assert (0 <= / M * quad nf A v) by (apply Rmult_le_pos; lra). assert (0 <= / M * quad nf B v) by (apply Rmult_le_pos; lra). lra.
  Qed.
  Lemma psd_sum (A : nat -> nat -> nat -> R) m : (forall j, (j < m)%nat -> pos_semidef nf (A j)) ->
    pos_semidef nf (fun k q => sumn m (fun j => A j k q)).
  Proof.
    intros H. split.
    - intros k q Hk Hq. apply sumn_ext. intros j Hj. apply (H j Hj); assumption.
    - intros v. rewrite quad_frob, (frob_sumn nf _ m A). apply sumn_nonneg. intros j Hj. rewrite <- quad_frob. apply (H j Hj).
  Qed.

  Definition cov_den (i : nat) : R := if String.eqb (ga_type p) "tied" then a + sumn nc (st_n c l) else a + st_n c l i.
  Definition cov_num (i k m : nat) : R :=
    if String.eqb (ga_type p) "tied"
    then cp k m + sumn nc (fun j => scatm (st_n c l) (st_s c l) (st_qq c l) (fmu_new c p l) j k m)
    else cp k m + scatm (st_n c l) (st_s c l) (st_qq c l) (fmu_new c p l) i k m.
  Lemma S_new_div i k m : has "c" (c_params c) = true -> S_new c p l i k m = cov_num i k m / cov_den i.
  Proof.
    intros Hcc. unfold S_new, upd_cov, cov_num, cov_den. rewrite Hcc. destruct (String.eqb (ga_type p) "tied"); reflexivity.
  Qed.

  Lemma S_new_psd : has "c" (c_params c) = true -> (forall i, (i < nc)%nat -> 0 < cov_den i) ->
    forall i, (i < nc)%nat -> pos_semidef nf (S_new c p l i).
  Proof.
    intros Hcc Hd i Hi. specialize (Hd i Hi).
    apply (pos_semidef_ext nf (fun k m => cov_num i k m / cov_den i)); [intros; symmetry; apply S_new_div; exact Hcc|].
    unfold cov_num. destruct (String.eqb (ga_type p) "tied").
    - apply (psd_plus_div cp (fun k m => sumn nc (fun j => scatm (st_n c l) (st_s c l) (st_qq c l) (fmu_new c p l) j k m))); [exact Hd|exact Hcp|].
      apply (psd_sum (fun j => scatm (st_n c l) (st_s c l) (st_qq c l) (fmu_new c p l) j)). intros j Hj. apply scatm_psd; assumption.
    - apply (psd_plus_div cp); [exact Hd|exact Hcp|]. apply scatm_psd; assumption.
  Qed.

  Lemma fga_mu_new i f : (i < nc)%nat -> (f < nf)%nat -> ga_mu (full_new c p l) i f = fmu_new c p l i f.
  Proof. intros Hi Hf. unfold ga_mu, full_new. cbn [ga_set ga_means]. rewrite mget_fmat by assumption. reflexivity. Qed.

  Lemma S_new_tied : ga_type p = "tied"%string -> has "c" (c_params c) = true -> forall i k m, S_new c p l i k m = S_new c p l 0 k m.
  Proof. intros E Hcc i k m. unfold S_new, upd_cov. rewrite Hcc, E. reflexivity. Qed.

  Lemma ga_S_new i k m : (i < nc)%nat -> (k < nf)%nat -> (m < nf)%nat -> ga_S (full_new c p l) i k m = S_new c p l i k m.
  Proof.
    intros Hi Hk Hm. unfold ga_S at 1, full_new. cbn [ga_set ga_covars]. destruct (has "c" (c_params c)) eqn:E.
    - destruct full_type as [Et|Et]; rewrite Et; cbn [String.eqb Ascii.eqb Bool.eqb].
      + rewrite mget_fmat by assumption. cbn [rval]. symmetry. apply S_new_tied; assumption.
      + rewrite tab_nth by exact Hi. rewrite mget_fmat by assumption. reflexivity.
    - unfold S_new. rewrite E. reflexivity.
  Qed.

  (** The computation, given that the denominators are positive. *)
  Lemma full_step0 :
    (has "m" (c_params c) = true -> forall i, (i < nc)%nat -> 0 < w + wsum l (fun _ _ => 1) i) ->
    (has "c" (c_params c) = true -> forall i, (i < nc)%nat -> 0 < cov_den i) ->
    exists st, em_acc_all gaussian c nfe p nc (ec_stats0 gaussian exact c nfe p) l = Ok st
    /\ ec_mstep gaussian exact c nfe p st = Ok (full_new c p l).
  Proof.
    intros Dm Dc.
    destruct (fg_covars _ _ _ _ Hg) as (cv & Ecv & Hcv). destruct (mcov_type _ _ _ _ _ Hcv) as (T1 & T2 & _).
    cbn [gaussian ec_stats0 ec_mstep]. unfold gauss_stats0. rewrite Hc, (fg_nf _ _ _ _ Hg), T2.
    change (tab nc (fun _ => Fin 0)) with (fvec nc (fun _ => 0)).
    change (mtab nc nf (fun _ _ => Fin 0)) with (fmat nc nf (fun _ _ => 0)).
    change (mtab nf nf (fun _ _ => Fin 0)) with (fmat nf nf (fun _ _ => 0)).
    fold gaussian. rewrite (full_acc_all c (Some nf) p l _ _ (fun _ _ _ => 0)) by (first [exact fgw_ok|exact T1|exact T2]).
    assert (E1 : (if has "m" (c_params c) then fvec nc (fun i => 0 + wsum l (fun _ _ => 1) i) else fvec nc (fun _ => 0))
                 = fvec nc (st_n c l))
      by (destruct (has "m" (c_params c)) eqn:E; apply fvec_ext; intros; unfold st_n; rewrite E; ring).
    assert (E2 : (if has "m" (c_params c) then fmat nc nf (fun i f => 0 + wsum l (xf f) i) else fmat nc nf (fun _ _ => 0))
                 = fmat nc nf (st_s c l))
      by (destruct (has "m" (c_params c)) eqn:E; apply fmat_ext; intros; unfold st_s; rewrite E; ring).
    assert (E3 : (if has "c" (c_params c) then tab nc (fun i => fmat nf nf (fun k m => 0 + wsum l (xx k m) i))
                  else tab nc (fun i => fmat nf nf (fun _ _ => 0))) = tab nc (fun i => fmat nf nf (st_qq c l i)))
      by (destruct (has "c" (c_params c)) eqn:E; apply tab_ext; intros; apply fmat_ext; intros; unfold st_qq; rewrite E; ring).
    rewrite E1, E2, E3. eexists. split; [reflexivity|].
    unfold gauss_mstep.
    assert (Em : (if has "m" (c_params c)
                  then do m <- gauss_means exact p (GaussStat (fvec nc (st_n c l)) (fmat nc nf (st_s c l)) (fmat nc nf (fun _ _ => 0))
                                  (tab nc (fun i => fmat nf nf (st_qq c l i)))); Ok (Some m)
                  else Ok (ga_means p)) = Ok (Some (fmat nc nf (fmu_new c p l)))).
    { unfold fmu_new. destruct (has "m" (c_params c)) eqn:Hm.
      - rewrite full_means_ok; [reflexivity|apply Hg|]. intros i Hi. unfold st_n. rewrite Hm.
        pose proof (Dm eq_refl i Hi). lra.
      - f_equal. apply (fg_means _ _ _ _ Hg). }
    rewrite Em. cbn [bind]. unfold full_new. rewrite T1, T2. destruct (has "c" (c_params c)) eqn:Hcc; [|reflexivity].
    rewrite (full_covars_ok c p (st_n c l) (st_s c l) (st_qq c l)); [|exact Hc|apply Hg|exact full_type| |].
    - cbn [bind]. unfold S_new. rewrite Hcc. reflexivity.
    - intros Et. specialize (Dc eq_refl 0%nat Hnc). unfold cov_den in Dc. rewrite Et in Dc. cbn [String.eqb Ascii.eqb Bool.eqb] in Dc. lra.
    - intros Et i Hi. specialize (Dc eq_refl i Hi). unfold cov_den in Dc. rewrite Et in Dc. cbn [String.eqb Ascii.eqb Bool.eqb] in Dc. lra.
  Qed.

  Lemma full_good_new : (has "c" (c_params c) = true -> forall i, (i < nc)%nat -> 0 < cov_den i) ->
    full_good V c nfe (full_new c p l).
  Proof.
    intros Dc. destruct (fg_covars _ _ _ _ Hg) as (cv & Ecv & Hcv).
    constructor.
    - apply Hg.
    - cbn [full_new ga_set ga_means]. f_equal. apply fmat_ext. intros i f Hi Hf. symmetry. apply fga_mu_new; assumption.
    - cbn [full_new ga_set ga_covars ga_type]. destruct (has "c" (c_params c)) eqn:Ec.
      + eexists. split; [reflexivity|].
        apply (mcov_ext nc nf (S_new c p l)); [exact Hnc|intros; symmetry; apply ga_S_new; assumption|].
        destruct full_type as [Et|Et]; rewrite Et; cbn [String.eqb Ascii.eqb Bool.eqb].
        * constructor. intros. apply S_new_tied; assumption.
        * constructor.
      + exists cv. split; [exact Ecv|]. apply (mcov_ext nc nf (ga_S p)); [exact Hnc| |exact Hcv].
        intros i k m Hi Hk Hm. rewrite ga_S_new by assumption. unfold S_new. rewrite Ec. reflexivity.
    - intros i Hi. apply (pos_semidef_ext nf (S_new c p l i)); [intros; symmetry; apply ga_S_new; assumption|].
      destruct (has "c" (c_params c)) eqn:Ec; [apply S_new_psd; auto|].
      unfold S_new. rewrite Ec. apply Hg. exact Hi.
    - destruct (fg_prior _ _ _ _ Hg). constructor; assumption.
    - apply Hg.
    - apply Hg.
  Qed.

  Hypothesis Hv : V = true -> visited nc l.
  Lemma full_dm : has "m" (c_params c) = true -> forall i, (i < nc)%nat -> 0 < w + wsum l (fun _ _ => 1) i.
  Proof.
    intros Hm i Hi. pose proof (focc_nonneg i Hi). destruct (fg_V _ _ _ _ Hg Hm) as [HV|Hp]; [|lra].
    pose proof (visited_occ nc _ _ l i Hw (Hv HV) Hi). lra.
  Qed.
  Lemma full_dc : has "c" (c_params c) = true -> forall i, (i < nc)%nat -> 0 < cov_den i.
  Proof.
    intros Hcc i Hi.
    assert (Hn : 0 <= sumn nc (st_n c l)) by (apply sumn_nonneg; intros; apply st_n_nonneg; assumption).
    pose proof (st_n_nonneg i Hi) as Hni. unfold cov_den. destruct (fg_Vc _ _ _ _ Hg Hcc) as [Hp|[Hm HV]].
    - destruct (String.eqb (ga_type p) "tied"); lra.
    - pose proof (visited_occ nc _ _ l i Hw (Hv HV) Hi) as Ho.
      assert (Hp : 0 < st_n c l i) by (unfold st_n; rewrite Hm; exact Ho).
      pose proof (sumn_ge_term nc (st_n c l) i (fun j Hj => st_n_nonneg j Hj) Hi).
      destruct (String.eqb (ga_type p) "tied"); lra.
  Qed.
  End Step.

  Theorem full_trains V : trains gaussian nc (finite_row nf) (full_good V) (gauss_fp nf) V.
  Proof.
    constructor.
    - intros [c nfe s t m p] Hc Hg. cbn [h_cfg h_nfeat h_em] in *. apply (full_emits V); assumption.
    - intros c nfe p l Hc Hg Hw Hv.
      destruct (full_step0 V c nfe p l Hc Hg Hw (full_dm V c nfe p l Hg Hw Hv) (full_dc V c nfe p l Hg Hw Hv)) as (st & H1 & H2).
      exists st, (full_new c p l). split; [exact H1|]. split; [exact H2|].
      split; [exact (full_good_new V c nfe p l Hg Hw (full_dc V c nfe p l Hg Hw Hv))|].
      intros x g t i Hin Ht Hi Hp. destruct x as [|d x0]; [simpl in Ht; lia|].
      rewrite (obsB_nth _ (d :: x0) d) by exact Ht. apply exp_pos.
  Qed.

  (** ** The objective. *)
  Definition datam (N : nat -> R) (S : nat -> nat -> R) (Q : nat -> nat -> nat -> R) (mu : nat -> nat -> R) (i k l : nat) : R :=
    Q i k l - S i k * mu i l - S i l * mu i k + mu i k * mu i l * N i.
  Definition ga_E (p : gaussp) (i : nat) : nat -> nat -> R := effm nf (ga_S p i).
  Definition ga_P (p : gaussp) (i : nat) : nat -> nat -> R := invm nf (ga_E p i).
  Definition prior_scat (p : gaussp) (i k l : nat) : R := w * ((ga_mu p i k - m0 i k) * (ga_mu p i l - m0 i l)).
  Definition full_pen (p : gaussp) : R :=
    if String.eqb (ga_type p) "tied"
    then - (a / 2) * ln (det nf (ga_E p 0)) - 1 / 2 * frob nf (ga_P p 0) (fun k l => cp k l + sumn nc (fun j => prior_scat p j k l))
    else sumn nc (fun i => - (a / 2) * ln (det nf (ga_E p i)) - 1 / 2 * frob nf (ga_P p i) (fun k l => cp k l + prior_scat p i k l)).

  Lemma wsum_mat l Pm mu i : wsum l (fun o _ => quad nf Pm (fun k => xval o k - mu i k)) i
    = frob nf Pm (datam (wsum l (fun _ _ => 1)) (fun i f => wsum l (xf f) i) (fun i k m => wsum l (xx k m) i) mu i).
  Proof.
    assert (T : forall phi psi, (forall o, phi o i = psi o i) -> wsum l phi i = wsum l psi i).
    { intros phi psi H. apply (wsum_ext l phi psi i (fun _ => True)); [intros x g _; apply Forall_forall; trivial|]. intros o _. apply H. }
    transitivity (wsum l (fun o _ => sumn nf (fun k => sumn nf (fun m => Pm k m * ((xval o k - mu i k) * (xval o m - mu i m))))) i).
    { apply T. intros o. unfold quad. apply sumn_ext. intros k Hk. apply sumn_ext. intros; ring. }
    rewrite (wsum_sumn l nf (fun k o _ => sumn nf (fun m => Pm k m * ((xval o k - mu i k) * (xval o m - mu i m)))) i).
    unfold frob. apply sumn_ext. intros k Hk.
    rewrite (wsum_sumn l nf (fun m o _ => Pm k m * ((xval o k - mu i k) * (xval o m - mu i m))) i). apply sumn_ext. intros m Hm.
    rewrite (wsum_scal l (Pm k m) (fun o _ => (xval o k - mu i k) * (xval o m - mu i m)) i). f_equal. unfold datam.
    rewrite (T _ (fun o j => ((xx k m o j + (- mu i m) * xf k o j) + (- mu i k) * xf m o j) + (mu i k * mu i m) * 1))
      by (intros o; unfold xx, xf; ring).
    rewrite (wsum_plus l (fun o j => (xx k m o j + (- mu i m) * xf k o j) + (- mu i k) * xf m o j) (fun o j => (mu i k * mu i m) * 1)).
    rewrite (wsum_plus l (fun o j => xx k m o j + (- mu i m) * xf k o j) (fun o j => (- mu i k) * xf m o j)).
    rewrite (wsum_plus l (xx k m) (fun o j => (- mu i m) * xf k o j)).
    rewrite (wsum_scal l (- mu i m) (xf k)), (wsum_scal l (- mu i k) (xf m)), (wsum_scal l (mu i k * mu i m) (fun _ _ => 1)). ring.
  Qed.

  (** Weighted log-density of state [i] under [p], without constants. *)
  Definition dens_term (p : gaussp) l i : R :=
    - (wsum l (fun _ _ => 1) i / 2) * ln (det nf (ga_E p i))
    - 1 / 2 * frob nf (ga_P p i) (datam (wsum l (fun _ _ => 1)) (fun i f => wsum l (xf f) i) (fun i k m => wsum l (xx k m) i) (ga_mu p) i).

  Lemma ln_fp p o i : pos_semidef nf (ga_S p i) ->
    ln (gauss_fp nf p o i) = - (1 / 2) * (INR nf * ln (2 * PI) + ln (det nf (ga_E p i)) + quad nf (ga_P p i) (fun k => xval o k - ga_mu p i k)).
  Proof.
    intros H. pose proof (effm_pd nf _ H) as PD. unfold gauss_fp, ga_P, ga_E.
    apply (mvn_ln_inv nf _ PD); [apply invm_ok; exact PD|]. apply mvnf_ok. exact PD.
  Qed.

  Lemma full_gain p p' l i : pos_semidef nf (ga_S p i) -> pos_semidef nf (ga_S p' i) ->
    wsum l (fun o j => ln (gauss_fp nf p' o j) - ln (gauss_fp nf p o j)) i = dens_term p' l i - dens_term p l i.
  Proof.
    intros H H'. unfold dens_term. rewrite <- !wsum_mat.
    transitivity (wsum l (fun o _ => (- (1 / 2) * (ln (det nf (ga_E p' i)) - ln (det nf (ga_E p i)))) * 1
       + ((- (1 / 2)) * quad nf (ga_P p' i) (fun k => xval o k - ga_mu p' i k) + (1 / 2) * quad nf (ga_P p i) (fun k => xval o k - ga_mu p i k))) i).
    - transitivity (wsum l (fun o _ => ln (gauss_fp nf p' o i) - ln (gauss_fp nf p o i)) i).
      + reflexivity.
      + apply (wsum_ext l _ _ i (fun _ => True)); [intros x g _; apply Forall_forall; trivial|]. intros o _.
        rewrite (ln_fp p' o i H'), (ln_fp p o i H). lra.
    - rewrite (wsum_plus l (fun o _ => (- (1 / 2) * (ln (det nf (ga_E p' i)) - ln (det nf (ga_E p i)))) * 1)
         (fun o _ => (- (1 / 2)) * quad nf (ga_P p' i) (fun k => xval o k - ga_mu p' i k) + (1 / 2) * quad nf (ga_P p i) (fun k => xval o k - ga_mu p i k))).
      rewrite (wsum_plus l (fun o _ => (- (1 / 2)) * quad nf (ga_P p' i) (fun k => xval o k - ga_mu p' i k)) (fun o _ => (1 / 2) * quad nf (ga_P p i) (fun k => xval o k - ga_mu p i k))).
      rewrite (wsum_scal l _ (fun _ _ => 1)), (wsum_scal l _ (fun o _ => quad nf (ga_P p' i) (fun k => xval o k - ga_mu p' i k))),
        (wsum_scal l _ (fun o _ => quad nf (ga_P p i) (fun k => xval o k - ga_mu p i k))). lra.
  Qed.

  (** Moving the mean to its update shrinks the scatter. *)
  Lemma mean_opt_mat N S Q mu i Pm : 0 < w + N i -> (forall d, 0 <= quad nf Pm d) ->
    frob nf Pm (scatm N S Q (fmean N S) i) <= frob nf Pm (scatm N S Q mu i).
  Proof.
    intros Hd HP.
    rewrite (frob_ext nf Pm Pm (scatm N S Q mu i) (fun k l => scatm N S Q (fmean N S) i k l
       + (w + N i) * ((mu i k - fmean N S i k) * (mu i l - fmean N S i l)))) by (intros; first [reflexivity|
         unfold scatm, fmean; field; lra]).
    rewrite (frob_plus nf Pm (scatm N S Q (fmean N S) i) (fun k l => (w + N i) * ((mu i k - fmean N S i k) * (mu i l - fmean N S i l)))).
    rewrite (frob_scal nf Pm (w + N i) (fun k l => (mu i k - fmean N S i k) * (mu i l - fmean N S i l))).
    rewrite (frob_outer nf Pm (fun k => mu i k - fmean N S i k)).
    specialize (HP (fun k => mu i k - fmean N S i k)). assert (0 <= (w + N i) * quad nf Pm (fun k => mu i k - fmean N S i k)) by (apply Rmult_le_pos; lra).
    lra.
  Qed.

  (** Objective at means [mu] and matrix [E] with inverse [Pm]. *)
  Definition obj_full N S Q mu (E Pm : nat -> nat -> R) i : R :=
    - ((a + N i) / 2) * ln (det nf E) - 1 / 2 * frob nf Pm (fun k l => cp k l + scatm N S Q mu i k l).
  Definition obj_tied N S Q mu (E Pm : nat -> nat -> R) : R :=
    - ((a + sumn nc N) / 2) * ln (det nf E) - 1 / 2 * frob nf Pm (fun k l => cp k l + sumn nc (fun i => scatm N S Q mu i k l)).

  (** Conditions under which one iteration does not decrease the objective. *)
  Definition full_W (c : cfg) (nfe : option nat) (p : gaussp) (l : list (list vec * (nat -> nat -> R))) : Prop :=
    (has "m" (c_params c) = true -> forall i, (i < nc)%nat -> 0 < w + wsum l (fun _ _ => 1) i)
    /\ (has "c" (c_params c) = true -> has "m" (c_params c) = true /\
         forall i, (i < nc)%nat -> 0 < cov_den c p l i /\ pos_def nf (S_new c p l i)).

  Lemma invm_ext A B i j : (forall i j, (i < nf)%nat -> (j < nf)%nat -> A i j = B i j) -> invm nf A i j = invm nf B i j.
  Proof. intros E. unfold invm. rewrite (fmat_ext nf nf A B E). reflexivity. Qed.

  Theorem full_improves V :
    improves gaussian nc (finite_row nf) (full_good V) (gauss_fp nf) full_W full_pen.
  Proof.
    intros c nfe p l st p' Hc Hg Hw [HWm HWc] Hst Hp'.
    assert (Dc : has "c" (c_params c) = true -> forall i, (i < nc)%nat -> 0 < cov_den c p l i)
      by (intros Hcc i Hi; apply (proj2 (HWc Hcc) i Hi)).
    destruct (full_step0 V c nfe p l Hc Hg Hw HWm Dc) as (st' & E1 & E2).
    rewrite E1 in Hst. injection Hst as <-. rewrite E2 in Hp'. injection Hp' as <-.
    pose proof (full_good_new V c nfe p l Hg Hw Dc) as Hg'. set (p' := full_new c p l) in *.
    rewrite gain_by_state. rewrite (sumn_ext nc _ (fun i => dens_term p' l i - dens_term p l i))
      by (intros i Hi; apply full_gain; [apply (fg_psd _ _ _ _ Hg)|apply (fg_psd _ _ _ _ Hg')]; exact Hi).
    rewrite (sumn_minus nc (dens_term p' l) (dens_term p l)).
    set (N := wsum l (fun _ _ => 1)) in *. set (S := fun i f => wsum l (xf f) i). set (Q := fun i k m => wsum l (xx k m) i).
    assert (PDo : forall i, (i < nc)%nat -> pos_def nf (ga_E p i)) by (intros i Hi; apply effm_pd, (fg_psd _ _ _ _ Hg); exact Hi).
    assert (PDn : forall i, (i < nc)%nat -> pos_def nf (ga_E p' i)) by (intros i Hi; apply effm_pd, (fg_psd _ _ _ _ Hg'); exact Hi).
    assert (Hty : ga_type p' = ga_type p) by reflexivity.
    assert (Hmean : forall i, (i < nc)%nat -> forall Pm, (forall d, 0 <= quad nf Pm d) ->
      frob nf Pm (scatm N S Q (ga_mu p') i) <= frob nf Pm (scatm N S Q (ga_mu p) i)).
    { intros i Hi Pm HP.
      rewrite (frob_ext nf Pm Pm (scatm N S Q (ga_mu p') i) (scatm N S Q (fmu_new c p l) i))
        by (intros; first [reflexivity|unfold scatm, p'; rewrite !fga_mu_new by assumption; reflexivity]).
      unfold fmu_new. destruct (has "m" (c_params c)) eqn:Hm; [|apply Rle_refl].
      assert (En : fmean (st_n c l) (st_s c l) = fmean N S) by (unfold fmean, st_n, st_s; rewrite Hm; reflexivity).
      rewrite En. apply mean_opt_mat; [apply HWm; [reflexivity|exact Hi]|exact HP]. }
    assert (Hdat : forall q i k m, cp k m + scatm N S Q (ga_mu q) i k m = (cp k m + prior_scat q i k m) + datam N S Q (ga_mu q) i k m)
      by (intros; unfold scatm, prior_scat, datam; ring).
    assert (Hsc : has "c" (c_params c) = true -> forall i k m, (i < nc)%nat -> (k < nf)%nat -> (m < nf)%nat ->
       scatm (st_n c l) (st_s c l) (st_qq c l) (fmu_new c p l) i k m = scatm N S Q (ga_mu p') i k m).
    { intros Hcc i k m Hi Hk Hm'. destruct (HWc Hcc) as [Hm _]. unfold scatm, st_n, st_s, st_qq. rewrite Hm, Hcc. unfold p'.
      rewrite !fga_mu_new by assumption. reflexivity. }
    assert (HN : has "c" (c_params c) = true -> forall i, st_n c l i = N i).
    { intros Hcc i. destruct (HWc Hcc) as [Hm _]. unfold st_n. rewrite Hm. reflexivity. }
    assert (Esame : has "c" (c_params c) = false -> forall i, (i < nc)%nat -> forall k m, (k < nf)%nat -> (m < nf)%nat -> ga_E p' i k m = ga_E p i k m).
    { intros Hcc i Hi k m Hk Hm. unfold ga_E. apply effm_ext; [|exact Hk|exact Hm]. intros u v Hu Hv. unfold p'.
      rewrite (ga_S_new V c nfe) by assumption. unfold S_new. rewrite Hcc. reflexivity. }
    assert (Enew : has "c" (c_params c) = true -> forall i, (i < nc)%nat -> forall k m, (k < nf)%nat -> (m < nf)%nat -> ga_E p' i k m = S_new c p l i k m).
    { intros Hcc i Hi k m Hk Hm. rewrite <- (effm_pd_id nf (S_new c p l i)) by (apply (HWc Hcc); exact Hi). unfold ga_E.
      apply effm_ext; [|exact Hk|exact Hm]. intros u v Hu Hv. unfold p'. apply (ga_S_new V c nfe); assumption. }
    unfold full_pen. rewrite Hty. destruct (full_type V c nfe p Hg) as [Et|Et].
    - (* tied *)
      rewrite Et. cbn [String.eqb Ascii.eqb Bool.eqb].
      assert (Edens : forall q, (forall i k m, (i < nc)%nat -> (k < nf)%nat -> (m < nf)%nat -> ga_E q i k m = ga_E q 0 k m) ->
        sumn nc (dens_term q l)
        + (- (a / 2) * ln (det nf (ga_E q 0)) - 1 / 2 * frob nf (ga_P q 0) (fun k m => cp k m + sumn nc (fun j => prior_scat q j k m)))
        = obj_tied N S Q (ga_mu q) (ga_E q 0) (ga_P q 0)).
      { intros q Hq. unfold obj_tied.
        rewrite (sumn_ext nc (dens_term q l) (fun i => - (1 / 2) * ln (det nf (ga_E q 0)) * N i - 1 / 2 * frob nf (ga_P q 0) (datam N S Q (ga_mu q) i))).
        2:{ intros i Hi. unfold dens_term. fold N S Q. rewrite (det_ext nf (ga_E q i) (ga_E q 0)) by (intros; apply Hq; assumption).
            rewrite (frob_ext nf (ga_P q i) (ga_P q 0) (datam N S Q (ga_mu q) i) (datam N S Q (ga_mu q) i))
              by (intros; first [reflexivity|apply invm_ext; intros; apply Hq; assumption]). lra. }
        rewrite sumn_minus, !sumn_scal_l, <- (frob_sumn nf (ga_P q 0) nc (datam N S Q (ga_mu q))).
        rewrite (frob_ext nf (ga_P q 0) (ga_P q 0) (fun k m => cp k m + sumn nc (fun i => scatm N S Q (ga_mu q) i k m))
                  (fun k m => (cp k m + sumn nc (fun j => prior_scat q j k m)) + sumn nc (fun i => datam N S Q (ga_mu q) i k m))).
        2: reflexivity.
        2:{ intros k m Hk Hm. rewrite Rplus_assoc, <- sumn_plus. f_equal. apply sumn_ext. intros i Hi. unfold scatm, prior_scat, datam. ring. }
        rewrite (frob_plus nf (ga_P q 0) (fun k m => cp k m + sumn nc (fun j => prior_scat q j k m)) (fun k m => sumn nc (fun i => datam N S Q (ga_mu q) i k m))).
        lra. }
      assert (Htied : forall q, full_good V c nfe q -> ga_type q = "tied"%string ->
         forall i k m, (i < nc)%nat -> (k < nf)%nat -> (m < nf)%nat -> ga_E q i k m = ga_E q 0 k m).
      { intros q Hq Eq i k m Hi Hk Hm. unfold ga_E. apply effm_ext; [|exact Hk|exact Hm]. intros u v Hu Hv.
        destruct (fg_covars _ _ _ _ Hq) as (cv & _ & Hcv). rewrite Eq in Hcv. inversion Hcv as [|H]. apply H; assumption. }
      pose proof (Edens p (Htied p Hg Et)) as D1. pose proof (Edens p' (Htied p' Hg' Et)) as D2.
      cut (obj_tied N S Q (ga_mu p) (ga_E p 0) (ga_P p 0) <= obj_tied N S Q (ga_mu p') (ga_E p' 0) (ga_P p' 0)); [lra|].
      apply (Rle_trans _ (obj_tied N S Q (ga_mu p') (ga_E p 0) (ga_P p 0))).
      + unfold obj_tied.
        rewrite (frob_plus nf _ cp (fun k m => sumn nc (fun i => scatm N S Q (ga_mu p) i k m))),
                (frob_plus nf _ cp (fun k m => sumn nc (fun i => scatm N S Q (ga_mu p') i k m))), !frob_sumn.
        assert (sumn nc (fun i => frob nf (ga_P p 0) (scatm N S Q (ga_mu p') i)) <= sumn nc (fun i => frob nf (ga_P p 0) (scatm N S Q (ga_mu p) i))).
        { apply sumn_le. intros i Hi. apply Hmean; [exact Hi|]. intros d. apply (inverse_nonneg nf _ (PDo 0%nat Hnc)). apply invm_ok, PDo, Hnc. }
        change (fun k => frob nf (ga_P p 0) (fun i j => scatm N S Q (ga_mu p) k i j)) with (fun i => frob nf (ga_P p 0) (scatm N S Q (ga_mu p) i)).
        change (fun k => frob nf (ga_P p 0) (fun i j => scatm N S Q (ga_mu p') k i j)) with (fun i => frob nf (ga_P p 0) (scatm N S Q (ga_mu p') i)).
        lra.
      + destruct (has "c" (c_params c)) eqn:Hcc.
        2:{ right. unfold obj_tied. rewrite (det_ext nf (ga_E p' 0) (ga_E p 0)) by (apply Esame; [reflexivity|exact Hnc]).
            f_equal. f_equal. apply frob_ext; [|reflexivity]. intros. symmetry. apply invm_ext. apply Esame; [reflexivity|exact Hnc]. }
        assert (HM : 0 < a + sumn nc N).
        { pose proof (Dc eq_refl 0%nat Hnc) as H. unfold cov_den in H. rewrite Et in H. cbn [String.eqb Ascii.eqb Bool.eqb] in H.
          rewrite (sumn_ext nc _ N) in H by (intros; apply HN; reflexivity). exact H. }
        assert (Ek : forall k m, (k < nf)%nat -> (m < nf)%nat ->
           cp k m + sumn nc (fun i => scatm N S Q (ga_mu p') i k m) = (a + sumn nc N) * ga_E p' 0 k m).
        { intros k m Hk Hm. rewrite (Enew eq_refl 0%nat Hnc k m Hk Hm). unfold S_new, upd_cov. rewrite Hcc, Et. cbn [String.eqb Ascii.eqb Bool.eqb].
          rewrite (sumn_ext nc (st_n c l) N) by (intros; apply HN; reflexivity).
          rewrite (sumn_ext nc (fun j => scatm (st_n c l) (st_s c l) (st_qq c l) (fmu_new c p l) j k m) (fun j => scatm N S Q (ga_mu p') j k m))
            by (intros; apply Hsc; (reflexivity || assumption)).
          field. lra. }
        unfold obj_tied.
        rewrite (frob_ext nf (ga_P p 0) (ga_P p 0) _ (fun k m => (a + sumn nc N) * ga_E p' 0 k m)) by (first [reflexivity|exact Ek]).
        rewrite (frob_ext nf (ga_P p' 0) (ga_P p' 0) _ (fun k m => (a + sumn nc N) * ga_E p' 0 k m)) by (first [reflexivity|exact Ek]).
        apply cov_opt; [exact HM|apply PDo, Hnc|apply invm_ok, PDo, Hnc|apply PDn, Hnc|apply invm_ok, PDn, Hnc].
    - (* full *)
      rewrite Et. cbn [String.eqb Ascii.eqb Bool.eqb].
      assert (Edens : forall q i, dens_term q l i + (- (a / 2) * ln (det nf (ga_E q i)) - 1 / 2 * frob nf (ga_P q i) (fun k m => cp k m + prior_scat q i k m))
        = obj_full N S Q (ga_mu q) (ga_E q i) (ga_P q i) i).
      { intros q i. unfold obj_full, dens_term. fold N S Q.
        rewrite (frob_ext nf (ga_P q i) (ga_P q i) (fun k m => cp k m + scatm N S Q (ga_mu q) i k m)
                  (fun k m => (cp k m + prior_scat q i k m) + datam N S Q (ga_mu q) i k m)) by (intros; first [reflexivity|apply Hdat]).
        rewrite (frob_plus nf (ga_P q i) (fun k m => cp k m + prior_scat q i k m) (datam N S Q (ga_mu q) i)). lra. }
      cut (sumn nc (fun i => obj_full N S Q (ga_mu p) (ga_E p i) (ga_P p i) i) <= sumn nc (fun i => obj_full N S Q (ga_mu p') (ga_E p' i) (ga_P p' i) i)).
      { pose proof (fun q => sumn_ext nc _ _ (fun i (_ : (i < nc)%nat) => Edens q i)) as Es.
        pose proof (Es p) as Es1. pose proof (Es p') as Es2. rewrite (sumn_plus nc (dens_term p l)) in Es1. rewrite (sumn_plus nc (dens_term p' l)) in Es2. intros Hle. rewrite <- Es1, <- Es2 in Hle. lra. }
      apply sumn_le. intros i Hi.
      apply (Rle_trans _ (obj_full N S Q (ga_mu p') (ga_E p i) (ga_P p i) i)).
      + unfold obj_full. rewrite (frob_plus nf _ cp (scatm N S Q (ga_mu p) i)), (frob_plus nf _ cp (scatm N S Q (ga_mu p') i)).
        assert (frob nf (ga_P p i) (scatm N S Q (ga_mu p') i) <= frob nf (ga_P p i) (scatm N S Q (ga_mu p) i)).
        { apply Hmean; [exact Hi|]. intros d. apply (inverse_nonneg nf _ (PDo i Hi)). apply invm_ok, PDo, Hi. }
        lra.
      + destruct (has "c" (c_params c)) eqn:Hcc.
        2:{ right. unfold obj_full. rewrite (det_ext nf (ga_E p' i) (ga_E p i)) by (apply Esame; [reflexivity|exact Hi]).
            f_equal. f_equal. apply frob_ext; [|reflexivity]. intros. symmetry. apply invm_ext. apply Esame; [reflexivity|exact Hi]. }
        assert (HM : 0 < a + N i).
        { pose proof (Dc eq_refl i Hi) as H. unfold cov_den in H. rewrite Et in H. cbn [String.eqb Ascii.eqb Bool.eqb] in H.
          rewrite HN in H by reflexivity. exact H. }
        assert (Ek : forall k m, (k < nf)%nat -> (m < nf)%nat -> cp k m + scatm N S Q (ga_mu p') i k m = (a + N i) * ga_E p' i k m).
        { intros k m Hk Hm. rewrite (Enew eq_refl i Hi k m Hk Hm). unfold S_new, upd_cov. rewrite Hcc, Et. cbn [String.eqb Ascii.eqb Bool.eqb].
          rewrite HN by reflexivity. rewrite Hsc by (reflexivity || assumption). field. lra. }
        unfold obj_full.
        rewrite (frob_ext nf (ga_P p i) (ga_P p i) _ (fun k m => (a + N i) * ga_E p' i k m)) by (first [reflexivity|exact Ek]).
        rewrite (frob_ext nf (ga_P p' i) (ga_P p' i) _ (fun k m => (a + N i) * ga_E p' i k m)) by (first [reflexivity|exact Ek]).
        apply cov_opt; [exact HM|apply PDo, Hi|apply invm_ok, PDo, Hi|apply PDn, Hi|apply invm_ok, PDn, Hi].
  Qed.
End Full.
