(** * GaussianHMM with diagonal or spherical covariances: emissions and update. *)
From Verif Require Export Gauss_dens.

Definition ga_mu (p : gaussp) (i f : nat) : R :=
  match ga_means p with Some m => rval (mget m i f) | None => 0 end.
Definition ga_v (p : gaussp) (i f : nat) : R :=
  match ga_covars p with
  | Some (CV1 v) => rval (vget v i)
  | Some (CV2 m) => rval (mget m i f)
  | _ => 0
  end.
Definition gauss_bp (nf : nat) (p : gaussp) : vec -> nat -> R := gauss_b nf (ga_mu p) (floored (ga_v p)).

(** Stored variances of the two vector-like types. *)
Inductive vcov (nc nf : nat) (var : nat -> nat -> R) : string -> covs -> Prop :=
| VDiag : vcov nc nf var "diag" (CV2 (fmat nc nf var))
| VSph1 s : (forall i f, (i < nc)%nat -> (f < nf)%nat -> var i f = s i) ->
    vcov nc nf var "spherical" (CV1 (fvec nc s))
| VSph2 : (forall i f, (i < nc)%nat -> (f < nf)%nat -> var i f = var i 0%nat) ->
    vcov nc nf var "spherical" (CV2 (fmat nc nf var)).

Lemma vcov_type nc nf var ty cv : vcov nc nf var ty cv ->
  vec_type ty = true /\ mat_type ty = false /\ is_type covariance_types ty = true.
Proof. intros []; repeat split. Qed.

Lemma vcov_ga_v nc nf var ty cv p : (0 < nf)%nat -> vcov nc nf var ty cv -> ga_covars p = Some cv ->
  forall i f, (i < nc)%nat -> (f < nf)%nat -> ga_v p i f = var i f.
Proof.
  intros Hnf H E i f Hi Hf. unfold ga_v. rewrite E. destruct H.
  - rewrite mget_fmat by assumption. reflexivity.
  - rewrite vget_fvec by assumption. rewrite H by assumption. reflexivity.
  - rewrite mget_fmat by assumption. reflexivity.
Qed.

Section Gauss.
  Variables (nc nf : nat).
  Hypothesis Hnc : (0 < nc)%nat.
  Hypothesis Hnf : (0 < nf)%nat.

  Lemma log_mvn_vec ty cv x mu var : x <> [] -> Forall (finite_row nf) x -> vcov nc nf var ty cv ->
    log_mvn_density exact ty x (fmat nc nf mu) cv
    = Ok (lmat (length x) nc (obsB (gauss_b nf mu (floored var)) x)).
  Proof.
    intros Hne Hx H. unfold log_mvn_density. destruct H; cbn [String.eqb Ascii.eqb Bool.eqb].
    - apply lmnd_diag_ok; assumption.
    - unfold lmnd_spherical. rewrite nrow_fmat, ncol_fmat.
      change (Mat 1 (map (fun a => [a]) (fvec nc s))) with (col_of (fvec nc s)).
      rewrite (broadcast_cast _ nc nf _ (cast_col nc nf s)). cbn [bind]. rewrite lmnd_diag_ok by assumption.
      f_equal. apply mtab_ext. intros t i Ht Hi. f_equal. destruct x as [|d x0]; [contradiction|].
      rewrite !(obsB_nth _ (d :: x0) d) by exact Ht. unfold gauss_b. apply prodn_ext. intros f Hf.
      unfold floored. rewrite H by assumption. reflexivity.
    - unfold lmnd_spherical. rewrite nrow_fmat, ncol_fmat, broadcast_fmat. cbn [bind]. apply lmnd_diag_ok; assumption.
  Qed.

  Lemma gauss_emits0 c nfe p s t m mu var cv : c_nc c = nc -> ga_means p = Some (fmat nc nf mu) ->
    ga_covars p = Some cv -> vcov nc nf var (ga_type p) cv ->
    emits gaussian (Hmm c nfe s t m p) nc (finite_row nf) (gauss_b nf mu (floored var)).
  Proof.
    intros Hc Hm Ecv Hv.
    assert (L : forall x, Forall (finite_row nf) x ->
      gauss_loglik exact c nfe p x = Ok (lmat (length x) nc (obsB (gauss_b nf mu (floored var)) x))).
    { intros x Hx. unfold gauss_loglik. rewrite Hm, Ecv.
      destruct x as [|o x0]; [rewrite Hc; reflexivity|].
      apply (log_mvn_vec (ga_type p) cv (o :: x0)); [discriminate|exact Hx|exact Hv]. }
    constructor.
    - intros x Hx. unfold loglik. cbn [gaussian ec_loglik h_cfg h_nfeat h_em]. apply L; exact Hx.
    - intros x Hx. unfold lik. cbn [gaussian ec_lik h_cfg h_nfeat h_em]. unfold gauss_lik. rewrite L by exact Hx.
      cbn [lik_of_loglik bind]. f_equal. unfold lmat. rewrite mmap_mtab. apply mtab_ext. intros u i Hu Hi.
      apply xexp_xln. destruct x as [|d x0]; [simpl in Hu; lia|]. rewrite (obsB_nth _ (d :: x0) d) by exact Hu.
      left. apply gauss_b_pos. intros; apply floored_pos.
    - intros o i _ _. left. apply gauss_b_pos. intros; apply floored_pos.
    - intros o Ho. apply Ho.
  Qed.

  (** Finite hyper-parameters: mean prior [m0] with weight [w], variance prior
      [cp]; [a] is [max(covars_weight - 1, 0)]. *)
  Variables (m0 w cp : nat -> nat -> R) (a : R).
  Hypothesis Hw0 : nonneg2 nc nf w.

  Record gauss_prior (p : gaussp) : Prop := GaussPrior {
    gp_m0 : cast (pmat (ga_mprior p)) nc nf m0;
    gp_w : cast (pmat (ga_mweight p)) nc nf w;
    gp_cp : cast (pmat (ga_cprior p)) nc nf cp;
    gp_cw : cweight_excess exact p 1 = Ok (Fin a) }.

  Record gauss_good (V : bool) (c : cfg) (nfe : option nat) (p : gaussp) : Prop := GaussGood {
    gg_nf : nfe = Some nf;
    gg_means : ga_means p = Some (fmat nc nf (ga_mu p));
    gg_covars : exists cv, ga_covars p = Some cv /\ vcov nc nf (ga_v p) (ga_type p) cv;
    gg_prior : gauss_prior p;
    gg_V : has "m" (c_params c) = true ->
           V = true \/ forall i f, (i < nc)%nat -> (f < nf)%nat -> 0 < w i f }.

  Lemma gauss_emits V c nfe p s t m : c_nc c = nc -> gauss_good V c nfe p ->
    emits gaussian (Hmm c nfe s t m p) nc (finite_row nf) (gauss_bp nf p).
  Proof.
    intros Hc Hg. destruct (gg_covars _ _ _ _ Hg) as (cv & Ecv & Hv).
    exact (gauss_emits0 c nfe p s t m (ga_mu p) (ga_v p) cv Hc (gg_means _ _ _ _ Hg) Ecv Hv).
  Qed.

  (** ** Statistics. *)
  Definition xf (f : nat) (o : vec) (_ : nat) : R := xval o f.
  Definition xf2 (f : nat) (o : vec) (_ : nat) : R := xval o f * xval o f.

  Lemma gauss_acc_all c nfe p l : forall n s q,
    (forall x g, In (x, g) l -> x <> [] /\ Forall (finite_row nf) x) -> vec_type (ga_type p) = true ->
    em_acc_all gaussian c nfe p nc (GaussStat (fvec nc n) (fmat nc nf s) (fmat nc nf q) []) l
    = Ok (GaussStat
            (if has "m" (c_params c) then fvec nc (fun i => n i + wsum l (fun _ _ => 1) i) else fvec nc n)
            (if has "m" (c_params c) then fmat nc nf (fun i f => s i f + wsum l (xf f) i) else fmat nc nf s)
            (if has "c" (c_params c) then fmat nc nf (fun i f => q i f + wsum l (xf2 f) i) else fmat nc nf q) []).
  Proof.
    induction l as [|[x g] l IH]; intros n s q Hl Hty.
    - cbn [em_acc_all]. f_equal.
      f_equal; [destruct (has "m" _)|destruct (has "m" _)|destruct (has "c" _)]; try reflexivity;
        first [apply fvec_ext|apply fmat_ext]; intros; unfold wsum; cbn [sumL]; ring.
    - cbn [em_acc_all gaussian ec_acc]. unfold gauss_acc. rewrite Hty. cbn [gs_post gs_obs gs_obs2 gs_obsT].
      destruct (Hl x g (or_introl eq_refl)) as [Hne Hx].
      assert (M1 : matT_mul exact (fmat (length x) nc g) x
                 = fmat nc nf (fun i f => sumn (length x) (fun t => g t i * obsB (xf f) x t i))).
      { rewrite <- (map_id x) at 2. apply (matT_mul_fmat nc nf x g (fun o => o) xval Hne).
        intros o Ho. apply finite_row_fvec. rewrite Forall_forall in Hx. apply Hx, Ho. }
      assert (M2 : matT_mul exact (fmat (length x) nc g) (map (map (xsq exact)) x)
                 = fmat nc nf (fun i f => sumn (length x) (fun t => g t i * obsB (xf2 f) x t i))).
      { apply (matT_mul_fmat nc nf x g (map (xsq exact)) (fun o f => xval o f * xval o f) Hne).
        intros o Ho. rewrite Forall_forall in Hx. rewrite (finite_row_fvec nf o (Hx o Ho)) at 1.
        unfold fvec. rewrite tab_map. reflexivity. }
      rewrite M1, M2.
      assert (N1 : forall i, sumn (length x) (fun t => g t i * obsB (fun _ _ => 1) x t i) = sumn (length x) (fun t => g t i)).
      { intros i. apply sumn_ext. intros t Ht. destruct x as [|d x0]; [contradiction|].
        rewrite (obsB_nth _ (d :: x0) d) by exact Ht. ring. }
      assert (Hl' : forall y g', In (y, g') l -> y <> [] /\ Forall (finite_row nf) y)
        by (intros y g' H; apply (Hl y g'); right; exact H).
      destruct (has "m" (c_params c)) eqn:Hm; destruct (has "c" (c_params c)) eqn:Hcc;
        cbn [bind gs_post gs_obs gs_obs2 gs_obsT]; rewrite ?iadd_fmat; cbn [bind gs_post gs_obs gs_obs2 gs_obsT];
        rewrite ?iadd_fmat; cbn [bind]; rewrite ?col_sums_fmat, ?vadd_fvec; fold gaussian;
        rewrite IH by assumption; f_equal; f_equal; try reflexivity;
        first [apply fvec_ext|apply fmat_ext]; intros; rewrite wsum_cons, ?N1; ring.
  Qed.

  (** ** The update. *)
  Definition new_mean (N : nat -> R) (S : nat -> nat -> R) (i f : nat) : R :=
    (w i f * m0 i f + S i f) / (w i f + N i).
  (** Weighted scatter about [mu], plus prior. *)
  Definition scatter (N : nat -> R) (S Q mu : nat -> nat -> R) (i f : nat) : R :=
    cp i f + (w i f * (mu i f - m0 i f) ^ 2 + Q i f - 2 * mu i f * S i f + mu i f ^ 2 * N i).
  Definition upd_var (ty : string) (N : nat -> R) (S Q mu : nat -> nat -> R) (i f : nat) : R :=
    let v k := scatter N S Q mu i k / Rmax (a + N i) (/ 10 ^ 5) in
    if String.eqb ty "spherical" then sumn nf v / INR nf else v f.

  Lemma gauss_means_ok p N S Q : gauss_prior p ->
    (forall i f, (i < nc)%nat -> (f < nf)%nat -> w i f + N i <> 0) ->
    gauss_means exact p (GaussStat (fvec nc N) (fmat nc nf S) Q []) = Ok (fmat nc nf (new_mean N S)).
  Proof.
    intros Hp Hd. unfold gauss_means. cbn [gs_obs gs_post].
    destruct (b2_cast (xmul exact) Rmult nc nf w m0 Hnc Hnf (fun _ _ _ _ => xmulE _ _) _ _ (gp_w _ Hp) (gp_m0 _ Hp))
      as (m1 & E1 & C1).
    rewrite E1. cbn [bind].
    rewrite (b2_fullr (xadd exact) Rplus nc nf _ S Hnc Hnf (fun _ _ _ _ => xaddE _ _) m1 C1). cbn [bind].
    destruct (b2_cast (xadd exact) Rplus nc nf w (fun i _ => N i) Hnc Hnf (fun _ _ _ _ => xaddE _ _) _ _ (gp_w _ Hp) (cast_col nc nf N))
      as (m2 & E2 & C2).
    rewrite E2. cbn [bind].
    apply (b2_fulll (xdiv exact) Rdiv nc nf _ (fun i f => w i f + N i) Hnc Hnf); [|exact C2].
    intros i f Hi Hf. apply xdivE. apply Hd; assumption.
  Qed.

  Lemma gauss_covars_ok p N S Q mu : gauss_prior p ->
    gauss_covars_vec exact p (fmat nc nf mu) (GaussStat (fvec nc N) (fmat nc nf S) (fmat nc nf Q) [])
    = Ok (fmat nc nf (upd_var (ga_type p) N S Q mu)).
  Proof.
    intros Hp. unfold gauss_covars_vec. cbn [gs_obs gs_post gs_obs2].
    rewrite (b2_fulll (xsub exact) Rminus nc nf mu m0 Hnc Hnf (fun _ _ _ _ => xsubE _ _) _ (gp_m0 _ Hp)). cbn [bind].
    rewrite (mmap_fmat (xsq exact) (fun r => r * r)) by reflexivity.
    rewrite (b2_fullr (xmul exact) Rmult nc nf w _ Hnc Hnf (fun _ _ _ _ => xmulE _ _) _ (gp_w _ Hp)). cbn [bind].
    rewrite (b2_fullr (xadd exact) Rplus nc nf _ Q Hnc Hnf (fun _ _ _ _ => xaddE _ _) _ (cast_fmat nc nf _)). cbn [bind].
    rewrite (mmap_fmat (xmul exact (Fin 2)) (fun r => 2 * r)) by reflexivity.
    rewrite (b2_fullr (xmul exact) Rmult nc nf _ S Hnc Hnf (fun _ _ _ _ => xmulE _ _) _ (cast_fmat nc nf _)). cbn [bind].
    rewrite (b2_fullr (xsub exact) Rminus nc nf _ _ Hnc Hnf (fun _ _ _ _ => xsubE _ _) _ (cast_fmat nc nf _)). cbn [bind].
    rewrite (mmap_fmat (xsq exact) (fun r => r * r)) by reflexivity.
    rewrite (b2_fulll (xmul exact) Rmult nc nf _ (fun i _ => N i) Hnc Hnf (fun _ _ _ _ => xmulE _ _) _ (cast_col nc nf N)).
    cbn [bind].
    rewrite (b2_fullr (xadd exact) Rplus nc nf _ _ Hnc Hnf (fun _ _ _ _ => xaddE _ _) _ (cast_fmat nc nf _)). cbn [bind].
    rewrite (gp_cw _ Hp). cbn [bind].
    rewrite (b2_fullr (xadd exact) Rplus nc nf cp _ Hnc Hnf (fun _ _ _ _ => xaddE _ _) _ (gp_cp _ Hp)). cbn [bind].
    pose proof (mmap_cast (xadd exact (Fin a)) (fun r => a + r) _ nc nf _ Hnc Hnf (cast_col nc nf N) (fun _ _ _ _ => eq_refl)) as C1.
    pose proof (mmap_cast (fun v => np_maximum v (Fin (/ 10 ^ 5))) (fun r => Rmax r (/ 10 ^ 5)) _ nc nf _ Hnc Hnf C1
                  (fun _ _ _ _ => np_maximum_fin _ _)) as C2.
    assert (Hn0 : forall i, Rmax (a + N i) (/ 10 ^ 5) <> 0) by (intros i; pose proof (Rmax_r (a + N i) (/ 10 ^ 5)); lra).
    rewrite (b2_fulll (xdiv exact) Rdiv nc nf _ (fun i _ => Rmax (a + N i) (/ 10 ^ 5)) Hnc Hnf (fun i _ _ _ => xdivE _ _ (Hn0 i)) _ C2).
    cbn [bind].
    assert (E : forall i f, (cp i f + (w i f * ((mu i f - m0 i f) * (mu i f - m0 i f)) + Q i f - 2 * mu i f * S i f + mu i f * mu i f * N i))
                = scatter N S Q mu i f) by (intros; unfold scatter; ring).
    unfold upd_var. cbv zeta. destruct (String.eqb (ga_type p) "spherical").
    - rewrite nrow_fmat, ncol_fmat. f_equal. apply mtab_ext. intros i f Hi Hf.
      rewrite rows_fmat, tab_nth by exact Hi. rewrite xsum_fvec.
      rewrite xdivE by (apply not_0_INR; lia). f_equal. f_equal. apply sumn_ext. intros k Hk. rewrite E. reflexivity.
    - f_equal. apply fmat_ext. intros i f Hi Hf. rewrite E. reflexivity.
  Qed.

  Definition st_n (c : cfg) (l : list (list vec * (nat -> nat -> R))) (i : nat) : R :=
    if has "m" (c_params c) then wsum l (fun _ _ => 1) i else 0.
  Definition st_s (c : cfg) (l : list (list vec * (nat -> nat -> R))) (i f : nat) : R :=
    if has "m" (c_params c) then wsum l (xf f) i else 0.
  Definition st_q (c : cfg) (l : list (list vec * (nat -> nat -> R))) (i f : nat) : R :=
    if has "c" (c_params c) then wsum l (xf2 f) i else 0.
  Definition mu_new (c : cfg) (p : gaussp) l : nat -> nat -> R :=
    if has "m" (c_params c) then new_mean (st_n c l) (st_s c l) else ga_mu p.
  Definition v_new (c : cfg) (p : gaussp) l : nat -> nat -> R :=
    if has "c" (c_params c) then upd_var (ga_type p) (st_n c l) (st_s c l) (st_q c l) (mu_new c p l) else ga_v p.
  Definition gauss_new (c : cfg) (p : gaussp) l : gaussp :=
    ga_set p (Some (fmat nc nf (mu_new c p l)))
             (if has "c" (c_params c) then Some (CV2 (fmat nc nf (v_new c p l))) else ga_covars p).

  Section Step.
  Variables (V : bool) (c : cfg) (nfe : option nat) (p : gaussp) (l : list (list vec * (nat -> nat -> R))).
  Hypothesis Hc : c_nc c = nc.
  Hypothesis Hg : gauss_good V c nfe p.
  Hypothesis Hw : good_weights nc (finite_row nf) (gauss_bp nf p) l.
  Hypothesis Hv : V = true -> visited nc l.

  Lemma gw_ok : forall x g, In (x, g) l -> x <> [] /\ Forall (finite_row nf) x.
  Proof. intros x g Hin. destruct (proj2 Hw x g Hin) as (H1 & H2 & _). split; assumption. Qed.

  Lemma occ_nonneg i : (i < nc)%nat -> 0 <= wsum l (fun _ _ => 1) i.
  Proof.
    intros Hi. apply (wsum_nonneg l _ i (finite_row nf)); [apply (good_weights_nn nc _ _ l i Hw Hi)|]. intros; lra.
  Qed.

  Lemma gauss_den i f : has "m" (c_params c) = true -> (i < nc)%nat -> (f < nf)%nat ->
    0 < w i f + wsum l (fun _ _ => 1) i.
  Proof.
    intros Hm Hi Hf. pose proof (Hw0 i f Hi Hf). pose proof (occ_nonneg i Hi).
    destruct (gg_V _ _ _ _ Hg Hm) as [HV|Hp].
    - pose proof (visited_occ nc _ _ l i Hw (Hv HV) Hi). lra.
    - specialize (Hp i f Hi Hf). lra.
  Qed.

  Lemma gauss_step : exists st,
    em_acc_all gaussian c nfe p nc (ec_stats0 gaussian exact c nfe p) l = Ok st
    /\ ec_mstep gaussian exact c nfe p st = Ok (gauss_new c p l).
  Proof.
    destruct (gg_covars _ _ _ _ Hg) as (cv & Ecv & Hcv). destruct (vcov_type _ _ _ _ _ Hcv) as (T1 & T2 & _).
    cbn [gaussian ec_stats0 ec_mstep]. unfold gauss_stats0. rewrite Hc, (gg_nf _ _ _ _ Hg), T2.
    change (tab nc (fun _ => Fin 0)) with (fvec nc (fun _ => 0)).
    change (mtab nc nf (fun _ _ => Fin 0)) with (fmat nc nf (fun _ _ => 0)).
    fold gaussian. rewrite (gauss_acc_all c (Some nf) p l) by (try exact gw_ok; exact T1).
    assert (E1 : (if has "m" (c_params c) then fvec nc (fun i => 0 + wsum l (fun _ _ => 1) i) else fvec nc (fun _ => 0))
                 = fvec nc (st_n c l))
      by (destruct (has "m" (c_params c)) eqn:E; apply fvec_ext; intros; unfold st_n; rewrite E; ring).
    assert (E2 : (if has "m" (c_params c) then fmat nc nf (fun i f => 0 + wsum l (xf f) i) else fmat nc nf (fun _ _ => 0))
                 = fmat nc nf (st_s c l))
      by (destruct (has "m" (c_params c)) eqn:E; apply fmat_ext; intros; unfold st_s; rewrite E; ring).
    assert (E3 : (if has "c" (c_params c) then fmat nc nf (fun i f => 0 + wsum l (xf2 f) i) else fmat nc nf (fun _ _ => 0))
                 = fmat nc nf (st_q c l))
      by (destruct (has "c" (c_params c)) eqn:E; apply fmat_ext; intros; unfold st_q; rewrite E; ring).
    rewrite E1, E2, E3. eexists. split; [reflexivity|].
    unfold gauss_mstep.
    assert (Em : (if has "m" (c_params c)
                  then do m <- gauss_means exact p (GaussStat (fvec nc (st_n c l)) (fmat nc nf (st_s c l)) (fmat nc nf (st_q c l)) []); Ok (Some m)
                  else Ok (ga_means p)) = Ok (Some (fmat nc nf (mu_new c p l)))).
    { unfold mu_new. destruct (has "m" (c_params c)) eqn:Hm.
      - rewrite gauss_means_ok; [reflexivity|apply Hg|]. intros i f Hi Hf. unfold st_n. rewrite Hm.
        pose proof (gauss_den i f Hm Hi Hf). lra.
      - f_equal. apply (gg_means _ _ _ _ Hg). }
    rewrite Em. cbn [bind]. unfold gauss_new, v_new. rewrite T1. destruct (has "c" (c_params c)).
    - rewrite gauss_covars_ok by apply Hg. reflexivity.
    - reflexivity.
  Qed.

  Lemma ga_mu_new i f : (i < nc)%nat -> (f < nf)%nat -> ga_mu (gauss_new c p l) i f = mu_new c p l i f.
  Proof. intros Hi Hf. unfold ga_mu, gauss_new. cbn [ga_set ga_means]. rewrite mget_fmat by assumption. reflexivity. Qed.

  Lemma ga_v_new i f : (i < nc)%nat -> (f < nf)%nat -> ga_v (gauss_new c p l) i f = v_new c p l i f.
  Proof.
    intros Hi Hf. unfold ga_v at 1, gauss_new. cbn [ga_set ga_covars]. destruct (has "c" (c_params c)) eqn:E.
    - rewrite mget_fmat by assumption. reflexivity.
    - unfold v_new. rewrite E. reflexivity.
  Qed.

  Lemma upd_var_sph N S Q mu i f : upd_var "spherical" N S Q mu i f = upd_var "spherical" N S Q mu i 0.
  Proof. reflexivity. Qed.

  Lemma gauss_good_new : gauss_good V c nfe (gauss_new c p l).
  Proof.
    destruct (gg_covars _ _ _ _ Hg) as (cv & Ecv & Hcv).
    constructor.
    - apply Hg.
    - cbn [gauss_new ga_set ga_means]. f_equal. apply fmat_ext. intros i f Hi Hf. symmetry. apply ga_mu_new; assumption.
    - cbn [gauss_new ga_set ga_covars ga_type]. destruct (has "c" (c_params c)) eqn:Ec.
      + exists (CV2 (fmat nc nf (v_new c p l))). split; [reflexivity|].
        assert (E : fmat nc nf (v_new c p l) = fmat nc nf (ga_v (gauss_new c p l)))
          by (apply fmat_ext; intros; symmetry; apply ga_v_new; assumption).
        rewrite E. remember (ga_type p) as ty eqn:Ety. destruct Hcv.
        * constructor.
        * constructor. intros i f Hi Hf. rewrite !ga_v_new by (assumption || lia). unfold v_new. rewrite Ec, <- Ety.
          apply upd_var_sph.
        * constructor. intros i f Hi Hf. rewrite !ga_v_new by (assumption || lia). unfold v_new. rewrite Ec, <- Ety.
          apply upd_var_sph.
      + exists cv. split; [exact Ecv|].
        assert (E : forall i f, ga_v (gauss_new c p l) i f = ga_v p i f)
          by (intros; unfold ga_v, gauss_new; cbn [ga_set ga_covars]; rewrite Ec; reflexivity).
        destruct Hcv as [|s Hs|Hs].
        * assert (E' : fmat nc nf (ga_v p) = fmat nc nf (ga_v (gauss_new c p l))) by (apply fmat_ext; intros; symmetry; apply E).
          rewrite E'. constructor.
        * constructor. intros i f Hi Hf. rewrite E. apply Hs; assumption.
        * assert (E' : fmat nc nf (ga_v p) = fmat nc nf (ga_v (gauss_new c p l))) by (apply fmat_ext; intros; symmetry; apply E).
          rewrite E'. constructor. intros i f Hi Hf. rewrite !E. apply Hs; assumption.
    - destruct (gg_prior _ _ _ _ Hg). constructor; assumption.
    - apply Hg.
  Qed.

  Lemma gauss_sup : forall x g t i, In (x, g) l -> (t < length x)%nat -> (i < nc)%nat ->
    0 < g t i -> 0 < obsB (gauss_bp nf (gauss_new c p l)) x t i.
  Proof.
    intros x g t i Hin Ht Hi Hp. destruct x as [|d x0]; [simpl in Ht; lia|].
    rewrite (obsB_nth _ (d :: x0) d) by exact Ht. apply gauss_b_pos. intros; apply floored_pos.
  Qed.
  End Step.

  Theorem gauss_trains V : trains gaussian nc (finite_row nf) (gauss_good V) (gauss_bp nf) V.
  Proof.
    constructor.
    - intros [c nfe s t m p] Hc Hg. cbn [h_cfg h_nfeat h_em] in *. apply (gauss_emits V); assumption.
    - intros c nfe p l Hc Hg Hw Hv. destruct (gauss_step V c nfe p l Hc Hg Hw Hv) as (st & H1 & H2).
      exists st, (gauss_new c p l). split; [exact H1|]. split; [exact H2|].
      split; [exact (gauss_good_new V c nfe p l Hg)|]. exact (gauss_sup c p l Hc).
  Qed.

  (** ** The objective. *)
  (** Expected log density of feature [f] of state [i] plus log prior, up to
      constants. *)
  Definition pen_term (mu v : nat -> nat -> R) (i f : nat) : R :=
    - (a / 2) * ln (v i f) - (w i f * (mu i f - m0 i f) ^ 2 + cp i f) / (2 * v i f).
  Definition gauss_pen (p : gaussp) : R :=
    sumn nc (fun i => sumn nf (pen_term (ga_mu p) (floored (ga_v p)) i)).
  Definition obj (N : nat -> R) (S Q mu v : nat -> nat -> R) (i f : nat) : R :=
    - ((a + N i) / 2) * ln (v i f) - scatter N S Q mu i f / (2 * v i f).

  Lemma var_opt M K v0 : 0 < M -> 0 <= K -> tiny <= v0 ->
    - (M / 2) * ln v0 - K / (2 * v0)
    <= - (M / 2) * ln (Rmax (K / M) tiny) - K / (2 * Rmax (K / M) tiny).
  Proof.
    intros HM HK Hv0. pose proof tiny_pos as Ht. set (v1 := Rmax (K / M) tiny).
    assert (Hv1 : 0 < v1) by (unfold v1; pose proof (Rmax_r (K / M) tiny); lra).
    assert (Hpos : 0 < v0) by lra.
    pose proof (ln_le_sub1 (v1 / v0) ltac:(apply Rdiv_lt_0_compat; lra)) as Hln.
    rewrite ln_div in Hln by lra.
    assert (H1 : (M / 2) * (ln v1 - ln v0) <= (M / 2) * (v1 / v0 - 1)) by (apply Rmult_le_compat_l; lra).
    assert (H2 : K / (2 * v1) - K / (2 * v0) <= (M / 2) * (1 - v1 / v0)).
    { replace (K / (2 * v1) - K / (2 * v0)) with ((K / v1) * ((v0 - v1) / (2 * v0))) by (field; lra).
      replace (M / 2 * (1 - v1 / v0)) with (M * ((v0 - v1) / (2 * v0))) by (field; lra).
      unfold v1, Rmax in *. destruct (Rle_dec (K / M) tiny) as [Hle|Hgt].
      - apply Rmult_le_compat_r.
        + unfold Rdiv. apply Rmult_le_pos; [lra|]. left. apply Rinv_0_lt_compat. lra.
        + apply (Rmult_le_reg_r tiny); [exact Ht|]. unfold Rdiv at 1. rewrite Rmult_assoc, Rinv_l by lra.
          apply (Rmult_le_compat_l M) in Hle; [|lra]. replace (M * (K / M)) with K in Hle by (field; lra). lra.
      - right. f_equal. assert (0 < K / M) by lra.
        assert (K <> 0) by (intros ->; unfold Rdiv in *; rewrite Rmult_0_l in *; lra). field. lra. }
    lra.
  Qed.

  Lemma mean_opt N S Q mu i f : 0 < w i f + N i ->
    scatter N S Q (new_mean N S) i f <= scatter N S Q mu i f.
  Proof.
    intros Hd. unfold scatter, new_mean.
    assert (E : cp i f + (w i f * (mu i f - m0 i f) ^ 2 + Q i f - 2 * mu i f * S i f + mu i f ^ 2 * N i)
      - (cp i f + (w i f * ((w i f * m0 i f + S i f) / (w i f + N i) - m0 i f) ^ 2 + Q i f
           - 2 * ((w i f * m0 i f + S i f) / (w i f + N i)) * S i f + ((w i f * m0 i f + S i f) / (w i f + N i)) ^ 2 * N i))
      = (w i f + N i) * (mu i f - (w i f * m0 i f + S i f) / (w i f + N i)) ^ 2) by (field; lra).
    pose proof (pow2_ge_0 (mu i f - (w i f * m0 i f + S i f) / (w i f + N i))) as Hsq.
    assert (0 <= (w i f + N i) * (mu i f - (w i f * m0 i f + S i f) / (w i f + N i)) ^ 2) by (apply Rmult_le_pos; lra).
    lra.
  Qed.

  Lemma gauss_gain p p' l i : (i < nc)%nat -> (forall x g, In (x, g) l -> Forall (finite_row nf) x) ->
    let N := wsum l (fun _ _ => 1) in
    let S i f := wsum l (xf f) i in
    let Q i f := wsum l (xf2 f) i in
    wsum l (fun o j => ln (gauss_bp nf p' o j) - ln (gauss_bp nf p o j)) i
      + sumn nf (pen_term (ga_mu p') (floored (ga_v p')) i) - sumn nf (pen_term (ga_mu p) (floored (ga_v p)) i)
    = sumn nf (fun f => obj N S Q (ga_mu p') (floored (ga_v p')) i f - obj N S Q (ga_mu p) (floored (ga_v p)) i f).
  Proof.
    intros Hi Hl N S Q.
    set (mu := ga_mu p). set (mu' := ga_mu p'). set (v := floored (ga_v p)). set (v' := floored (ga_v p')).
    assert (Hp : forall f, 0 < v i f) by (intros; apply floored_pos).
    assert (Hp' : forall f, 0 < v' i f) by (intros; apply floored_pos).
    set (k f := - (1 / 2) * (ln (v' i f) - ln (v i f)) - (mu' i f ^ 2 / (2 * v' i f) - mu i f ^ 2 / (2 * v i f))).
    set (k1 f := mu' i f / v' i f - mu i f / v i f).
    set (k2 f := - (/ (2 * v' i f) - / (2 * v i f))).
    rewrite (wsum_ext l _ (fun o j => sumn nf (fun f => (k f * 1 + k1 f * xf f o j) + k2 f * xf2 f o j)) i (finite_row nf) Hl).
    2:{ intros o Ho. unfold gauss_bp. rewrite !ln_gauss_b by (intros; apply floored_pos). fold mu mu' v v'.
        replace (- (1 / 2) * (INR nf * ln (2 * PI) + sumn nf (fun f => ln (v' i f)) + sumn nf (fun f => (xval o f - mu' i f) ^ 2 / v' i f))
          - - (1 / 2) * (INR nf * ln (2 * PI) + sumn nf (fun f => ln (v i f)) + sumn nf (fun f => (xval o f - mu i f) ^ 2 / v i f)))
          with (- (1 / 2) * ((sumn nf (fun f => ln (v' i f)) - sumn nf (fun f => ln (v i f)))
             + (sumn nf (fun f => (xval o f - mu' i f) ^ 2 / v' i f) - sumn nf (fun f => (xval o f - mu i f) ^ 2 / v i f)))) by ring.
        rewrite <- !sumn_minus, <- sumn_plus, <- sumn_scal_l. apply sumn_ext. intros f Hf.
        unfold k, k1, k2, xf, xf2. specialize (Hp f). specialize (Hp' f). field. lra. }
    rewrite wsum_sumn.
    unfold Rminus at 1. rewrite Rplus_assoc. fold (Rminus (sumn nf (pen_term mu' v' i)) (sumn nf (pen_term mu v i))).
    rewrite <- sumn_minus, <- sumn_plus. apply sumn_ext. intros f Hf.
    rewrite !wsum_plus, !wsum_scal. fold (N i). fold (S i f). fold (Q i f).
    unfold pen_term, obj, scatter, k, k1, k2. specialize (Hp f). specialize (Hp' f). field. lra.
  Qed.

  (** Statistics of an actual weighting. *)
  Lemma scatter_nonneg l b mu i f : good_weights nc (finite_row nf) b l -> (i < nc)%nat -> (f < nf)%nat -> 0 <= cp i f ->
    cp i f <= scatter (wsum l (fun _ _ => 1)) (fun i f => wsum l (xf f) i) (fun i f => wsum l (xf2 f) i) mu i f.
  Proof.
    intros Hw Hi Hf Hcp. unfold scatter.
    assert (H : 0 <= wsum l (fun o j => (xval o f - mu i f) ^ 2) i).
    { apply (wsum_nonneg l _ i (finite_row nf)); [apply (good_weights_nn nc _ _ l i Hw Hi)|]. intros; apply pow2_ge_0. }
    assert (E : wsum l (fun o j => (xval o f - mu i f) ^ 2) i
      = wsum l (xf2 f) i - 2 * mu i f * wsum l (xf f) i + mu i f ^ 2 * wsum l (fun _ _ => 1) i).
    { rewrite (wsum_ext l _ (fun o j => (xf2 f o j + (- 2 * mu i f) * xf f o j) + mu i f ^ 2 * 1) i (finite_row nf)).
      - rewrite !wsum_plus, !wsum_scal. ring.
      - intros x g Hin. apply (proj2 Hw x g Hin).
      - intros o Ho. unfold xf, xf2. ring. }
    pose proof (Hw0 i f Hi Hf). pose proof (pow2_ge_0 (mu i f - m0 i f)).
    assert (0 <= w i f * (mu i f - m0 i f) ^ 2) by (apply Rmult_le_pos; assumption). lra.
  Qed.

  (** For which weights the update is known to increase the objective: means
      are trained whenever variances are, and no state is so rare that the floor
      1e-5 of the denominator is reached. *)
  Definition gauss_W (c : cfg) (nfe : option nat) (p : gaussp) (l : list (list vec * (nat -> nat -> R))) : Prop :=
    (has "m" (c_params c) = true -> forall i f, (i < nc)%nat -> (f < nf)%nat -> 0 < w i f + wsum l (fun _ _ => 1) i)
    /\ (has "c" (c_params c) = true -> has "m" (c_params c) = true /\
         forall i, (i < nc)%nat -> / 10 ^ 5 <= a + wsum l (fun _ _ => 1) i).

  Hypothesis Hcp : nonneg2 nc nf cp.

  Theorem gauss_improves V :
    improves gaussian nc (finite_row nf) (gauss_good V) (gauss_bp nf) gauss_W gauss_pen.
  Proof.
    intros c nfe p l st p' Hc Hg Hw [HWm HWc] Hst Hp'.
    assert (Hg2 : gauss_good (has "m" (c_params c)) c nfe p) by (destruct Hg; constructor; auto).
    set (N := wsum l (fun _ _ => 1)) in *. set (S := fun i f => wsum l (xf f) i). set (Q := fun i f => wsum l (xf2 f) i).
    assert (Hp : p' = gauss_new c p l).
    { destruct (gg_covars _ _ _ _ Hg) as (cv & Ecv & Hcv).
      (* same computation as gauss_step, with the denominators known positive *)
      revert Hst Hp'. destruct (vcov_type _ _ _ _ _ Hcv) as (T1 & T2 & _).
      cbn [gaussian ec_stats0 ec_mstep]. unfold gauss_stats0. rewrite Hc, (gg_nf _ _ _ _ Hg), T2.
      change (tab nc (fun _ => Fin 0)) with (fvec nc (fun _ => 0)).
      change (mtab nc nf (fun _ _ => Fin 0)) with (fmat nc nf (fun _ _ => 0)).
      fold gaussian. rewrite (gauss_acc_all c (Some nf) p l) by (try exact T1; intros x g Hin; split; apply (proj2 Hw x g Hin)).
      assert (E1 : (if has "m" (c_params c) then fvec nc (fun i => 0 + wsum l (fun _ _ => 1) i) else fvec nc (fun _ => 0))
                   = fvec nc (st_n c l))
        by (destruct (has "m" (c_params c)) eqn:E; apply fvec_ext; intros; unfold st_n; rewrite E; ring).
      assert (E2 : (if has "m" (c_params c) then fmat nc nf (fun i f => 0 + wsum l (xf f) i) else fmat nc nf (fun _ _ => 0))
                   = fmat nc nf (st_s c l))
        by (destruct (has "m" (c_params c)) eqn:E; apply fmat_ext; intros; unfold st_s; rewrite E; ring).
      assert (E3 : (if has "c" (c_params c) then fmat nc nf (fun i f => 0 + wsum l (xf2 f) i) else fmat nc nf (fun _ _ => 0))
                   = fmat nc nf (st_q c l))
        by (destruct (has "c" (c_params c)) eqn:E; apply fmat_ext; intros; unfold st_q; rewrite E; ring).
      rewrite E1, E2, E3. intros Hst. injection Hst as <-. unfold gauss_mstep.
      assert (Em : (if has "m" (c_params c)
                    then do m <- gauss_means exact p (GaussStat (fvec nc (st_n c l)) (fmat nc nf (st_s c l)) (fmat nc nf (st_q c l)) []); Ok (Some m)
                    else Ok (ga_means p)) = Ok (Some (fmat nc nf (mu_new c p l)))).
      { unfold mu_new. destruct (has "m" (c_params c)) eqn:Hm.
        - rewrite gauss_means_ok; [reflexivity|apply Hg|]. intros i f Hi Hf. unfold st_n. rewrite Hm.
          pose proof (HWm eq_refl i f Hi Hf) as Hd. unfold N in Hd. lra.
        - f_equal. apply (gg_means _ _ _ _ Hg). }
      rewrite Em. cbn [bind]. unfold gauss_new, v_new. rewrite T1. destruct (has "c" (c_params c)).
      - rewrite gauss_covars_ok by apply Hg. cbn [bind]. intros H. injection H as <-. reflexivity.
      - cbn [bind]. intros H. injection H as <-. reflexivity. }
    subst p'. set (p' := gauss_new c p l) in *.
    rewrite gain_by_state. unfold gauss_pen. unfold Rminus at 1. rewrite Rplus_assoc.
    fold (Rminus (sumn nc (fun i => sumn nf (pen_term (ga_mu p') (floored (ga_v p')) i)))
                 (sumn nc (fun i => sumn nf (pen_term (ga_mu p) (floored (ga_v p)) i)))).
    rewrite <- sumn_minus, <- sumn_plus. apply sumn_nonneg. intros i Hi.
    assert (Hl : forall x g, In (x, g) l -> Forall (finite_row nf) x) by (intros x g Hin; apply (proj2 Hw x g Hin)).
    pose proof (gauss_gain p p' l i Hi Hl) as G. cbv zeta in G. fold N S Q in G.
    unfold Rminus in G. rewrite Rplus_assoc in G. unfold Rminus. rewrite G. clear G.
    fold (Rminus (sumn nf (fun f => obj N S Q (ga_mu p') (floored (ga_v p')) i f))
                 (sumn nf (fun f => obj N S Q (ga_mu p) (floored (ga_v p)) i f))).
    rewrite (sumn_ext nf _ (fun f => obj N S Q (ga_mu p') (floored (ga_v p')) i f - obj N S Q (ga_mu p) (floored (ga_v p)) i f))
      by reflexivity.
    rewrite sumn_minus.
    (* first the means, at the old variances *)
    assert (Hmean : sumn nf (fun f => obj N S Q (ga_mu p) (floored (ga_v p)) i f)
                    <= sumn nf (fun f => obj N S Q (ga_mu p') (floored (ga_v p)) i f)).
    { apply sumn_le. intros f Hf. unfold obj.
      assert (Hs : scatter N S Q (ga_mu p') i f <= scatter N S Q (ga_mu p) i f).
      { assert (E : scatter N S Q (ga_mu p') i f = scatter N S Q (mu_new c p l) i f)
          by (unfold scatter; unfold p'; rewrite ga_mu_new by assumption; reflexivity).
        rewrite E. unfold mu_new. destruct (has "m" (c_params c)) eqn:Hm; [|lra].
        assert (E2 : scatter N S Q (new_mean (st_n c l) (st_s c l)) i f = scatter N S Q (new_mean N S) i f)
          by (unfold scatter, new_mean, st_n, st_s; rewrite Hm; reflexivity).
        rewrite E2. apply mean_opt. apply HWm; auto. }
      pose proof (floored_pos (ga_v p) i f) as Hv.
      assert (scatter N S Q (ga_mu p') i f / (2 * floored (ga_v p) i f) <= scatter N S Q (ga_mu p) i f / (2 * floored (ga_v p) i f)).
      { unfold Rdiv. apply Rmult_le_compat_r; [left; apply Rinv_0_lt_compat; lra|exact Hs]. }
      lra. }
    (* then the variances *)
    assert (Hvar : sumn nf (fun f => obj N S Q (ga_mu p') (floored (ga_v p)) i f)
                   <= sumn nf (fun f => obj N S Q (ga_mu p') (floored (ga_v p')) i f)).
    { destruct (has "c" (c_params c)) eqn:Hcc.
      2:{ right. apply sumn_ext. intros f Hf. unfold obj, floored, p'. rewrite ga_v_new by assumption.
          unfold v_new. rewrite Hcc. reflexivity. }
      destruct (HWc eq_refl) as [Hm Hfl]. specialize (Hfl i Hi). fold N in Hfl.
      assert (HM : 0 < a + N i) by (assert (0 < / 10 ^ 5) by lra; lra).
      assert (HK : forall f, (f < nf)%nat -> 0 <= scatter N S Q (ga_mu p') i f).
      { intros f Hf. pose proof (scatter_nonneg l (gauss_bp nf p) (ga_mu p') i f Hw Hi Hf (Hcp i f Hi Hf)) as H.
        pose proof (Hcp i f Hi Hf). unfold N, S, Q. lra. }
      assert (Hsc : forall f, (f < nf)%nat -> scatter (st_n c l) (st_s c l) (st_q c l) (mu_new c p l) i f = scatter N S Q (ga_mu p') i f).
      { intros f Hf. unfold scatter, st_n, st_s, st_q. rewrite Hm, Hcc. unfold p'. rewrite ga_mu_new by assumption. reflexivity. }
      assert (HR : Rmax (a + st_n c l i) (/ 10 ^ 5) = a + N i).
      { unfold st_n. rewrite Hm. fold N. apply Rmax_left. lra. }
      destruct (gg_covars _ _ _ _ Hg) as (cv & Ecv & Hcv).
      assert (Hcase : ga_type p = "diag"%string \/
                (ga_type p = "spherical"%string /\ forall f, (f < nf)%nat -> ga_v p i f = ga_v p i 0%nat)).
      { destruct Hcv; [left; reflexivity|right; split; [reflexivity|]..].
        - intros f Hf. rewrite !H by (assumption || lia). reflexivity.
        - intros f Hf. apply H; assumption. }
      destruct Hcase as [Ety|[Ety Hconst]].
      - apply sumn_le. intros f Hf. unfold obj.
        assert (Ev : floored (ga_v p') i f = Rmax (scatter N S Q (ga_mu p') i f / (a + N i)) tiny).
        { unfold floored, p'. rewrite ga_v_new by assumption. unfold v_new, upd_var. rewrite Hcc, Ety.
          cbn [String.eqb Ascii.eqb Bool.eqb]. rewrite HR, Hsc by assumption. reflexivity. }
        rewrite Ev. apply var_opt; [exact HM|apply HK; exact Hf|apply Rmax_r].
      - set (K := sumn nf (scatter N S Q (ga_mu p') i)).
        assert (HnfR : 0 < INR nf) by (apply lt_0_INR; exact Hnf).
        set (vn := Rmax (K / (INR nf * (a + N i))) tiny).
        assert (Ev : forall f, (f < nf)%nat -> floored (ga_v p') i f = vn).
        { intros f Hf. unfold floored, vn, p'. rewrite ga_v_new by assumption. unfold v_new, upd_var. rewrite Hcc, Ety.
          cbn [String.eqb Ascii.eqb Bool.eqb]. f_equal. rewrite HR. rewrite sumn_div.
          rewrite (sumn_ext nf _ (scatter N S Q (ga_mu p') i)) by (intros; apply Hsc; assumption). fold K. field. lra. }
        set (vo := floored (ga_v p) i 0%nat).
        assert (Eo : forall f, (f < nf)%nat -> floored (ga_v p) i f = vo)
          by (intros f Hf; unfold vo, floored; rewrite Hconst by exact Hf; reflexivity).
        assert (Tot : forall v u, 0 < u -> (forall f, (f < nf)%nat -> v i f = u) ->
                  sumn nf (fun f => obj N S Q (ga_mu p') v i f) = - ((INR nf * (a + N i)) / 2) * ln u - K / (2 * u)).
        { intros v u Hup Hu. rewrite (sumn_ext nf _ (fun f => - ((a + N i) / 2) * ln u - scatter N S Q (ga_mu p') i f / (2 * u)))
            by (intros f Hf; unfold obj; rewrite Hu by exact Hf; reflexivity).
          rewrite sumn_minus, sumn_const, sumn_div. fold K. field. lra. }
        assert (Hvo : 0 < vo) by apply floored_pos.
        assert (Hvn : 0 < vn) by (pose proof tiny_pos; pose proof (Rmax_r (K / (INR nf * (a + N i))) tiny); unfold vn; lra).
        rewrite (Tot _ vo Hvo Eo), (Tot _ vn Hvn Ev). apply var_opt.
        + apply Rmult_lt_0_compat; assumption.
        + apply sumn_nonneg. exact HK.
        + apply Rmax_r. }
    apply Rge_le, Rge_minus, Rle_ge. exact (Rle_trans _ _ _ Hmean Hvar).
  Qed.
End Gauss.
