(** * GaussianHMM with diagonal or spherical covariances: properties C02, C14,
    C21, C25, C32, C34, C35, C36, C37. *)
From Verif Require Export Gauss_proofs Gauss_round Training_thms Poisson_thms.

(** A GaussianHMM of type "diag" or "spherical" with finite parameters of the
    documented shapes; variances may be anything. *)
Record gauss_model (h : hmm gaussp) (nc nf : nat) (pi : nat -> R) (A mu var : nat -> nat -> R) : Prop := GaussModel {
  gam_base : base_ok h nc pi A;
  gam_nf : (0 < nf)%nat;
  gam_means : ga_means (h_em h) = Some (fmat nc nf mu);
  gam_covars : exists cv, ga_covars (h_em h) = Some cv /\ vcov nc nf var (ga_type (h_em h)) cv }.

Lemma gauss_check_ok c nfe p nc nf mu : ga_means p = Some (fmat nc nf mu) ->
  is_type covariance_types (ga_type p) = true -> gauss_check exact c nfe p = Ok (Some nf, p).
Proof. intros Hm Ht. unfold gauss_check. rewrite Hm, Ht, ncol_fmat. reflexivity. Qed.

Section GaussModel.
  Variables (h : hmm gaussp) (nc nf : nat) (pi : nat -> R) (A mu var : nat -> nat -> R).
  Hypothesis GM : gauss_model h nc nf pi A mu var.

  Lemma gam_type : is_type covariance_types (ga_type (h_em h)) = true.
  Proof. destruct (gam_covars _ _ _ _ _ _ _ GM) as (cv & _ & H). apply (vcov_type _ _ _ _ _ H). Qed.

  Lemma ga_mu_gm i f : (i < nc)%nat -> (f < nf)%nat -> ga_mu (h_em h) i f = mu i f.
  Proof. intros Hi Hf. unfold ga_mu. rewrite (gam_means _ _ _ _ _ _ _ GM), mget_fmat by assumption. reflexivity. Qed.
  Lemma ga_v_gm i f : (i < nc)%nat -> (f < nf)%nat -> ga_v (h_em h) i f = var i f.
  Proof.
    destruct (gam_covars _ _ _ _ _ _ _ GM) as (cv & E & H). intros Hi Hf.
    apply (vcov_ga_v nc nf var (ga_type (h_em h)) cv); try assumption. apply GM.
  Qed.
  Lemma gauss_bp_gm o i : (i < nc)%nat -> gauss_b nf mu (floored var) o i = gauss_bp nf (h_em h) o i.
  Proof.
    intros Hi. unfold gauss_bp, gauss_b, floored. apply prodn_ext. intros f Hf.
    rewrite ga_mu_gm, ga_v_gm by assumption. reflexivity.
  Qed.

  Lemma gauss_ready : ready gaussian h nc pi A (finite_row nf) (gauss_b nf mu (floored var)).
  Proof.
    destruct GM as [Hb Hnf Hm (cv & Ec & Hcv)]. apply (base_ok_ready gaussian h nc pi A (Some nf) (h_em h)); [exact Hb| | |].
    - apply (gauss_check_ok _ _ _ nc nf mu); [exact Hm|exact gam_type].
    - apply (gauss_check_ok _ _ _ nc nf mu); [exact Hm|exact gam_type].
    - apply (gauss_emits0 nc nf (bo_pos _ _ _ _ Hb) Hnf) with (cv := cv); try assumption. apply Hb.
  Qed.
End GaussModel.

Lemma vcov_ext nc nf v v' ty cv : (0 < nf)%nat -> (forall i f, (i < nc)%nat -> (f < nf)%nat -> v i f = v' i f) ->
  vcov nc nf v ty cv -> vcov nc nf v' ty cv.
Proof.
  intros Hnf E H. destruct H.
  - rewrite (fmat_ext nc nf v v') by exact E. constructor.
  - constructor. intros i f Hi Hf. rewrite <- E by assumption. auto.
  - rewrite (fmat_ext nc nf v v') by exact E. constructor. intros i f Hi Hf. rewrite <- !E by (assumption || lia). auto.
Qed.

(** Hyper-parameters: mean prior [m0] with weight [w], variance prior [cp], all
    broadcast over states and features; [a] is [max(covars_weight - 1, 0)]. *)
Definition gauss_hyper (h : hmm gaussp) nc nf m0 w cp a : Prop := gauss_prior nc nf m0 w cp a (h_em h).

(** Log of the priors on the emission parameters, up to constants. *)
Definition gauss_logprior (nc nf : nat) (m0 w cp : nat -> nat -> R) (a : R) (mu v : nat -> nat -> R) : R :=
  sumn nc (fun i => sumn nf (fun f =>
    - (a / 2) * ln (Rmax (v i f) tiny) - (w i f * (mu i f - m0 i f) ^ 2 + cp i f) / (2 * Rmax (v i f) tiny))).

Section GaussFit.
  Variables (h : hmm gaussp) (nc nf : nat) (pi : nat -> R) (A mu var m0 w cp : nat -> nat -> R) (a : R).
  Hypothesis GM : gauss_model h nc nf pi A mu var.
  Hypothesis Hh : gauss_hyper h nc nf m0 w cp a.
  Hypothesis Hw0 : nonneg2 nc nf w.
  Variables (ls : list nat) (x : list vec).
  Hypothesis Hd : good_data (finite_row nf) ls x.
  Let B := gauss_b nf mu (floored var).
  Hypothesis Hpos : possible nc pi A B ls x.
  Variable V : bool.
  Hypothesis HV : has "m" (c_params (h_cfg h)) = true -> V = true \/ forall i f, (i < nc)%nat -> (f < nf)%nat -> 0 < w i f.
  Hypothesis Hu : V = true -> all_used nc pi A B (chunks ls x).
  Let h1 := with_em h (Some nf) (h_em h).

  Lemma gauss_model_check : check gaussian exact h = Ok h1.
  Proof.
    apply (base_ok_check gaussian h nc pi A); [apply GM|].
    apply (gauss_check_ok _ _ _ nc nf mu); [apply GM|exact (gam_type _ _ _ _ _ _ _ GM)].
  Qed.

  Lemma gauss_tstate : tstate nc (gauss_good nc nf m0 w cp a V) (gauss_bp nf) V ls x h1 pi A.
  Proof.
    apply base_ok_tstate.
    - apply GM.
    - constructor.
      + reflexivity.
      + rewrite (gam_means _ _ _ _ _ _ _ GM). f_equal. apply fmat_ext. intros; symmetry; apply (ga_mu_gm h nc nf pi A mu var GM); assumption.
      + destruct (gam_covars _ _ _ _ _ _ _ GM) as (cv & E & Hcv). exists cv. split; [exact E|].
        apply (vcov_ext nc nf var); [apply GM| |exact Hcv]. intros; symmetry; apply (ga_v_gm h nc nf pi A mu var GM); assumption.
      + exact Hh.
      + exact HV.
    - apply (possible_ext (finite_row nf) nc pi A B); [|exact Hd|exact Hpos].
      intros; apply (gauss_bp_gm h nc nf pi A mu var GM); assumption.
    - intros HVt. apply (all_used_ext (finite_row nf) nc pi A B); [|exact Hd|apply Hu; exact HVt].
      intros; apply (gauss_bp_gm h nc nf pi A mu var GM); assumption.
  Qed.

  Variables (sp : nat -> R) (tp : nat -> nat -> R).
  Hypothesis Hsp : forall i, (i < nc)%nat -> 1 <= sp i.
  Hypothesis Htp : forall i j, (i < nc)%nat -> (j < nc)%nat -> 1 <= tp i j.
  Hypothesis HP : priors (h_cfg h) nc sp tp.

  Let Hnc : (0 < nc)%nat := bo_pos _ _ _ _ (gam_base _ _ _ _ _ _ _ GM).
  Let Hnf : (0 < nf)%nat := gam_nf _ _ _ _ _ _ _ GM.

  Lemma gauss_fit_log_ok : c_impl (h_cfg h) = "log"%string ->
    exists h' ev, fit_from gaussian exact h x (as_lengths ls) = Ok (h', ev).
  Proof.
    exact (gen_fit_log_ok gaussian nc (finite_row nf) (gauss_good nc nf m0 w cp a V) (gauss_bp nf) V
             (gauss_trains nc nf Hnc Hnf m0 w cp a Hw0 V) ls x Hd sp tp Hsp Htp h h1 pi A gauss_model_check gauss_tstate HP).
  Qed.

  Lemma gauss_same_training h' ev :
    fit_from gaussian exact h x (as_lengths ls) = Ok (h', ev) ->
    fit_from gaussian exact (with_cfg (cfg_impl "log") h) x (as_lengths ls) = Ok (with_cfg (cfg_impl "log") h', ev).
  Proof.
    apply (gen_same_training gaussian nc (finite_row nf) (gauss_good nc nf m0 w cp a V) (gauss_bp nf) V
             (gauss_trains nc nf Hnc Hnf m0 w cp a Hw0 V) ls x Hd sp tp Hsp Htp h h1 pi A gauss_model_check gauss_tstate HP);
      try reflexivity.
    intros i c nfe p []; constructor; assumption.
  Qed.

  Hypothesis Hp1 : sumn nc pi <= 1.
  Hypothesis HA1 : forall i, (i < nc)%nat -> sumn nc (A i) <= 1.
  Hypothesis Hcp : nonneg2 nc nf cp.

  (** The run, with the update written out. *)
  Theorem gauss_run h' ev : fit_from gaussian exact h x (as_lengths ls) = Ok (h', ev) ->
    exists (pis : nat -> nat -> R) (As mus vs : nat -> nat -> nat -> R),
    let k := length (m_history (h_mon h')) in
    let b j := gauss_b nf (mus j) (floored (vs j)) in
    let trained ch := has ch (c_params (h_cfg h)) in
    pis 0%nat = pi /\ As 0%nat = A
    /\ (forall i f, (i < nc)%nat -> (f < nf)%nat -> mus 0%nat i f = mu i f /\ vs 0%nat i f = var i f)
    /\ h_start h' = Some (fvec nc (pis k)) /\ h_trans h' = Some (fmat nc nc (As k))
    /\ ga_means (h_em h') = Some (fmat nc nf (mus k))
    /\ (exists cv, ga_covars (h_em h') = Some cv /\ vcov nc nf (vs k) (ga_type (h_em h)) cv
                   /\ ((0 < k)%nat -> trained "c"%char = true -> cv = CV2 (fmat nc nf (vs k))))
    /\ ga_type (h_em h') = ga_type (h_em h) /\ h_nfeat h' = Some nf /\ c_nc (h_cfg h') = nc
    /\ (forall j, (j < k)%nat -> nth j (m_history (h_mon h')) NaN = Fin (data_loglik nc (pis j) (As j) (b j) ls x))
    /\ (forall j, (j < k)%nat ->
         let occ := occupancy nc (pis j) (As j) (b j) (chunks ls x) in
         let tot phi := weighted_total nc (pis j) (As j) (b j) (chunks ls x) phi in
         let n i := if trained "m"%char then occ i else 0 in
         let s i f := if trained "m"%char then tot (fun o => xval o f) i else 0 in
         let K i f := cp i f + (w i f * (mus (S j) i f - m0 i f) ^ 2 + tot (fun o => xval o f * xval o f) i
                        - 2 * mus (S j) i f * s i f + mus (S j) i f ^ 2 * n i) in
         let D i := Rmax (a + n i) (/ 10 ^ 5) in
         (forall i, (i < nc)%nat -> 0 <= occ i /\ (V = true -> 0 < occ i)
                              /\ forall phi, (forall o, 0 <= phi o) -> 0 <= tot phi i)
         /\ forall i f, (i < nc)%nat -> (f < nf)%nat ->
           mus (S j) i f = (if trained "m"%char then (w i f * m0 i f + tot (fun o => xval o f) i) / (w i f + occ i)
                            else mus j i f)
           /\ vs (S j) i f = if trained "c"%char then
                               if String.eqb (ga_type (h_em h)) "spherical"
                               then sumn nf (fun f => K i f / D i) / INR nf else K i f / D i
                             else vs j i f)
    /\ (forall j, (j < k)%nat ->
         (trained "c"%char = true -> trained "m"%char = true /\ forall i, (i < nc)%nat ->
            / 10 ^ 5 <= a + occupancy nc (pis j) (As j) (b j) (chunks ls x) i) ->
         data_loglik nc (pis j) (As j) (b j) ls x + log_dirichlet nc sp (pis j)
              + sumn nc (fun i => log_dirichlet nc (tp i) (As j i)) + gauss_logprior nc nf m0 w cp a (mus j) (vs j)
            <= data_loglik nc (pis (S j)) (As (S j)) (b (S j)) ls x + log_dirichlet nc sp (pis (S j))
              + sumn nc (fun i => log_dirichlet nc (tp i) (As (S j) i)) + gauss_logprior nc nf m0 w cp a (mus (S j)) (vs (S j))).
  Proof.
    intros Hf.
    destruct (gen_monotone gaussian nc (finite_row nf) (gauss_good nc nf m0 w cp a V) (gauss_bp nf) V
               (gauss_trains nc nf Hnc Hnf m0 w cp a Hw0 V) ls x Hd sp tp Hsp Htp h h1 pi A gauss_model_check gauss_tstate HP
               (gauss_W nc nf w a) (gauss_pen nc nf m0 w cp a) h' ev
               (gauss_improves nc nf Hnc Hnf m0 w cp a Hw0 Hcp V) Hp1 HA1 Hf) as (pis & As & ps & TG).
    exists pis, As, (fun j => ga_mu (ps j)), (fun j => ga_v (ps j)). cbv zeta. set (k := length (m_history (h_mon h'))) in *.
    pose proof (fun j Hj => tg_st _ _ _ _ _ _ _ _ _ _ _ _ _ _ _ _ _ _ TG j Hj) as Hst. fold k in Hst.
    assert (Hgood : forall j, (j <= k)%nat -> gauss_good nc nf m0 w cp a V (h_cfg h) (Some nf) (ps j))
      by (intros j Hj; apply (Hst j Hj)).
    assert (Hw : forall j, (j <= k)%nat -> good_weights nc (finite_row nf) (gauss_bp nf (ps j))
                   (map (fun c => (c, seq_post nc (pis j) (As j) (gauss_bp nf (ps j)) c)) (chunks ls x))).
    { intros j Hj. exact (wpairs_good gaussian nc (finite_row nf) (gauss_good nc nf m0 w cp a V) (gauss_bp nf) V
               (gauss_trains nc nf Hnc Hnf m0 w cp a Hw0 V) ls x Hd _ (pis j) (As j) (Hst j Hj)). }
    set (L := fun j => map (fun c => (c, seq_post nc (pis j) (As j) (gauss_bp nf (ps j)) c)) (chunks ls x)) in *.
    assert (Hvis : forall j, (j <= k)%nat -> V = true -> visited nc (L j)) by (intros j Hj; apply (Hst j Hj)).
    assert (Hnew : forall j, (j < k)%nat -> ps (S j) = gauss_new nc nf m0 w cp a (h_cfg h) (ps j) (L j)).
    { intros j Hj.
      destruct (gauss_step nc nf Hnc Hnf m0 w cp a Hw0 V (h_cfg h) (Some nf) (ps j) (L j) (ts_nc _ _ _ _ _ _ _ _ _ gauss_tstate)
                 (Hgood j ltac:(lia)) (Hw j ltac:(lia)) (Hvis j ltac:(lia))) as (st' & S1 & S2).
      destruct (tg_step _ _ _ _ _ _ _ _ _ _ _ _ _ _ _ _ _ _ TG j Hj) as (st & T1 & T2).
      cbn [h1 with_em h_cfg h_nfeat] in T1, T2. fold (L j) in T1. rewrite S1 in T1. injection T1 as <-.
      rewrite S2 in T2. injection T2 as T2. symmetry. exact T2. }
    assert (Hty : forall j, (j <= k)%nat -> ga_type (ps j) = ga_type (h_em h)).
    { induction j as [|j IH]; intros Hj.
      - rewrite (tg_p _ _ _ _ _ _ _ _ _ _ _ _ _ _ _ _ _ _ TG). reflexivity.
      - rewrite (Hnew j ltac:(lia)). unfold gauss_new. cbn [ga_set ga_type]. apply IH. lia. }
    split; [apply TG|]. split; [apply TG|].
    split.
    { intros i f Hi Hf'. rewrite (tg_p _ _ _ _ _ _ _ _ _ _ _ _ _ _ _ _ _ _ TG). split;
      [apply (ga_mu_gm h nc nf pi A mu var GM); assumption|apply (ga_v_gm h nc nf pi A mu var GM); assumption]. }
    split; [apply TG|]. split; [apply TG|].
    pose proof (tg_em _ _ _ _ _ _ _ _ _ _ _ _ _ _ _ _ _ _ TG) as Eem. fold k in Eem. rewrite Eem.
    split; [apply (Hgood k (le_n _))|].
    split.
    { destruct (gg_covars _ _ _ _ _ _ _ _ _ _ (Hgood k (le_n _))) as (cv & E & Hcv). exists cv. split; [exact E|].
      rewrite Hty in Hcv by lia. split; [exact Hcv|]. intros Hk Hc.
      assert (Ek : exists k0, k = S k0) by (exists (pred k); lia). destruct Ek as [k0 Ek]. rewrite Ek in *.
      rewrite (Hnew k0 ltac:(lia)) in E. unfold gauss_new in E. cbn [ga_set ga_covars] in E. rewrite Hc in E.
      injection E as <-. f_equal. rewrite (Hnew k0 ltac:(lia)).
      apply fmat_ext. intros i f Hi Hf'. symmetry. apply ga_v_new; assumption. }
    split; [apply Hty; lia|].
    split; [rewrite (tg_nf _ _ _ _ _ _ _ _ _ _ _ _ _ _ _ _ _ _ TG); reflexivity|].
    split; [rewrite (tg_cfg _ _ _ _ _ _ _ _ _ _ _ _ _ _ _ _ _ _ TG); apply GM|].
    split; [intros j Hj; apply (tg_hist _ _ _ _ _ _ _ _ _ _ _ _ _ _ _ _ _ _ TG j Hj)|].
    split.
    - intros j Hj. fold (gauss_bp nf (ps j)). cbv zeta.
      assert (Eocc : forall i, wsum (L j) (fun _ _ => 1) i = occupancy nc (pis j) (As j) (gauss_bp nf (ps j)) (chunks ls x) i)
        by (intros; unfold L; apply wsum_occupancy).
      split.
      { intros i Hi. rewrite <- Eocc. split.
        - apply (wsum_nonneg (L j) _ i (finite_row nf)); [apply (good_weights_nn nc _ _ (L j) i (Hw j ltac:(lia)) Hi)|]. intros; lra.
        - split.
          + intros HVt. apply (visited_occ nc _ _ (L j) i (Hw j ltac:(lia)) (Hvis j ltac:(lia) HVt) Hi).
          + intros phi Hphi. rewrite <- (wsum_posteriors nc (pis j) (As j) (gauss_bp nf (ps j)) (chunks ls x) phi i). fold (L j).
            apply (wsum_nonneg (L j) _ i (finite_row nf)); [apply (good_weights_nn nc _ _ (L j) i (Hw j ltac:(lia)) Hi)|].
            intros; apply Hphi. }
      assert (Etot : forall f i, wsum (L j) (xf f) i
                = weighted_total nc (pis j) (As j) (gauss_bp nf (ps j)) (chunks ls x) (fun o => xval o f) i)
        by (intros f i; unfold L, xf; apply (wsum_posteriors nc (pis j) (As j) (gauss_bp nf (ps j)) (chunks ls x) (fun o => xval o f))).
      assert (Etot2 : forall f i, wsum (L j) (xf2 f) i
                = weighted_total nc (pis j) (As j) (gauss_bp nf (ps j)) (chunks ls x) (fun o => xval o f * xval o f) i)
        by (intros f i; unfold L, xf2; apply (wsum_posteriors nc (pis j) (As j) (gauss_bp nf (ps j)) (chunks ls x) (fun o => xval o f * xval o f))).
      assert (Hmu : forall i f, (i < nc)%nat -> (f < nf)%nat -> ga_mu (ps (S j)) i f = mu_new m0 w (h_cfg h) (ps j) (L j) i f)
        by (intros i f Hi Hf'; rewrite (Hnew j Hj); apply ga_mu_new; assumption).
      intros i f Hi Hf'. split.
      + rewrite Hmu by assumption. unfold mu_new, new_mean, st_n, st_s.
        destruct (has "m" (c_params (h_cfg h))); [rewrite Eocc, Etot|]; reflexivity.
      + rewrite (Hnew j Hj) at 1. rewrite ga_v_new by assumption.
        unfold v_new. destruct (has "c" (c_params (h_cfg h))) eqn:Hcc; [|reflexivity]. unfold upd_var.
        rewrite (Hty j ltac:(lia)).
        assert (Esc : forall g, (g < nf)%nat ->
          scatter m0 w cp (st_n (h_cfg h) (L j)) (st_s (h_cfg h) (L j)) (st_q (h_cfg h) (L j)) (mu_new m0 w (h_cfg h) (ps j) (L j)) i g
          = cp i g + (w i g * (ga_mu (ps (S j)) i g - m0 i g) ^ 2
              + weighted_total nc (pis j) (As j) (gauss_bp nf (ps j)) (chunks ls x) (fun o => xval o g * xval o g) i
              - 2 * ga_mu (ps (S j)) i g * (if has "m" (c_params (h_cfg h))
                   then weighted_total nc (pis j) (As j) (gauss_bp nf (ps j)) (chunks ls x) (fun o => xval o g) i else 0)
              + ga_mu (ps (S j)) i g ^ 2 * (if has "m" (c_params (h_cfg h))
                   then occupancy nc (pis j) (As j) (gauss_bp nf (ps j)) (chunks ls x) i else 0))).
        { intros g Hg. unfold scatter, st_n, st_s, st_q. rewrite Hcc, (Hmu i g Hi Hg), Etot2.
          destruct (has "m" (c_params (h_cfg h))); [rewrite Eocc, Etot|]; reflexivity. }
        assert (En : st_n (h_cfg h) (L j) i = if has "m" (c_params (h_cfg h))
                   then occupancy nc (pis j) (As j) (gauss_bp nf (ps j)) (chunks ls x) i else 0)
          by (unfold st_n; destruct (has "m" (c_params (h_cfg h))); [apply Eocc|reflexivity]).
        rewrite En. destruct (String.eqb (ga_type (h_em h)) "spherical").
        * f_equal. apply sumn_ext. intros g Hg. rewrite Esc by exact Hg. reflexivity.
        * rewrite Esc by exact Hf'. reflexivity.
    - intros j Hj HW.
      pose proof (tg_gain _ _ _ _ _ _ _ _ _ _ _ _ _ _ _ _ _ _ TG j Hj) as G.
      cbn [h1 with_em h_cfg h_nfeat] in G. fold (L j) in G. apply G. split.
      + intros Hm i f Hi Hf'. apply (gauss_den nc nf m0 w cp a Hw0 V (h_cfg h) (Some nf) (ps j) (L j)
          (Hgood j ltac:(lia)) (Hw j ltac:(lia)) (Hvis j ltac:(lia))); assumption.
      + intros Hc. destruct (HW Hc) as [Hm Hocc]. split; [exact Hm|]. intros i Hi.
        unfold L. rewrite wsum_occupancy. apply Hocc. exact Hi.
  Qed.
End GaussFit.

(** ** C02, C32: densities. *)
Lemma C02_gaussian_ready_l h nc nf pi A mu var : gauss_model h nc nf pi A mu var ->
  ready gaussian h nc pi A (finite_row nf) (fun o i =>
    prodn nf (fun f => let v := Rmax (var i f) tiny in
      exp (- ((xval o f - mu i f) ^ 2 / (2 * v))) / sqrt (2 * PI * v))).
Proof. exact (gauss_ready h nc nf pi A mu var). Qed.

Lemma lmat_pos r c f : (forall i j, (i < r)%nat -> (j < c)%nat -> 0 < f i j) ->
  lmat r c f = fmat r c (fun i j => ln (f i j)).
Proof. intros H. apply mtab_ext. intros i j Hi Hj. apply xln_pos. auto. Qed.

Lemma gauss_density nc nf mu var x : (0 < nf)%nat -> x <> [] -> Forall (finite_row nf) x ->
  lmnd_diag exact x (fmat nc nf mu) (fmat nc nf var)
  = Ok (fmat (length x) nc (fun t i => ln (prodn nf (fun f =>
      let v := Rmax (var i f) tiny in
      exp (- ((xval (nth t x []) f - mu i f) ^ 2 / (2 * v))) / sqrt (2 * PI * v))))).
Proof.
  intros Hnf Hne Hx. rewrite lmnd_diag_ok by assumption. f_equal.
  rewrite lmat_pos.
  - apply fmat_ext. intros t i Ht Hi. rewrite (obsB_nth _ x []) by exact Ht. reflexivity.
  - intros t i Ht Hi. rewrite (obsB_nth _ x []) by exact Ht. apply gauss_b_pos. intros; apply floored_pos.
Qed.

(** Variances below the floor 2^-1022, including zero and negative ones, count
    as the floor; every entry is a finite number. *)
Lemma C32_floored_density_l nc nf mu var x : (0 < nf)%nat -> x <> [] -> Forall (finite_row nf) x ->
  log_mvn_density exact "diag" x (fmat nc nf mu) (CV2 (fmat nc nf var))
  = Ok (fmat (length x) nc (fun t i => ln (prodn nf (fun f =>
      let v := Rmax (var i f) (/ 2 ^ 1022) in
      exp (- ((xval (nth t x []) f - mu i f) ^ 2 / (2 * v))) / sqrt (2 * PI * v))))).
Proof. exact (gauss_density nc nf mu var x). Qed.

Lemma C32_diag_density_l nc nf mu var x : (0 < nf)%nat -> x <> [] -> Forall (finite_row nf) x ->
  (forall i f, (i < nc)%nat -> (f < nf)%nat -> / 2 ^ 1022 <= var i f) ->
  log_mvn_density exact "diag" x (fmat nc nf mu) (CV2 (fmat nc nf var))
  = Ok (fmat (length x) nc (fun t i => ln (prodn nf (fun f =>
      exp (- ((xval (nth t x []) f - mu i f) ^ 2 / (2 * var i f))) / sqrt (2 * PI * var i f))))).
Proof.
  intros Hnf Hne Hx Hv. rewrite C32_floored_density_l by assumption. f_equal. apply fmat_ext. intros t i Ht Hi.
  f_equal. apply prodn_ext. intros f Hf. cbv zeta. rewrite Rmax_left by (apply Hv; assumption). reflexivity.
Qed.

(** In any arithmetic. *)
Lemma C32_spherical_is_diag_l fp x means v : length v = nrow means ->
  log_mvn_density fp "spherical" x means (CV1 v)
  = log_mvn_density fp "diag" x means (CV2 (mtab (nrow means) (ncol means) (fun i _ => vget v i))).
Proof.
  intros Hl. unfold log_mvn_density. cbn [String.eqb Ascii.eqb Bool.eqb]. unfold lmnd_spherical, broadcast_to.
  assert (E1 : nrow (Mat 1 (map (fun a => [a]) v)) = nrow means) by (unfold nrow; cbn [rows]; rewrite map_length; exact Hl).
  rewrite E1, Nat.eqb_refl. cbn [orb andb ncol Nat.eqb]. rewrite Bool.orb_true_r. cbn [bind]. f_equal.
  apply mtab_ext. intros i j Hi Hj.
  assert (E2 : bidx (nrow means) i = i) by (apply bidx_lt; exact Hi).
  rewrite E2. unfold mget. cbn [rows bidx Nat.eqb].
  rewrite (nth_indep _ [] [NaN]) by (rewrite map_length; lia).
  rewrite (map_nth (fun a => [a]) v NaN i). reflexivity.
Qed.

(** Under rounding (any monotone rounding that keeps integers up to 2^53, in
    particular binary64): never NaN for finite input. *)
Lemma C32_never_nan_l fp nc nf mu var x ty cv : monotone fp ->
  (forall z, (Z.abs z <= 2 ^ 53)%Z -> fp (IZR z) = Fin (IZR z)) ->
  (0 < nf)%nat -> (Z.of_nat nf <= 2 ^ 43)%Z -> x <> [] -> Forall (finite_row nf) x ->
  vcov nc nf var ty cv ->
  exists m, log_mvn_density fp ty x (fmat nc nf mu) cv = Ok m
    /\ forall t i, (t < length x)%nat -> (i < nc)%nat -> mget m t i <> NaN.
Proof.
  intros Hm Hi Hnf Hb Hne Hx Hcv. destruct Hcv.
  - exact (lmnd_diag_not_nan fp Hm Hi nc nf x mu var Hnf Hb Hne Hx).
  - rewrite C32_spherical_is_diag_l by (rewrite nrow_fmat; apply tab_length). rewrite nrow_fmat, ncol_fmat.
    replace (mtab nc nf (fun i _ => vget (fvec nc s) i)) with (fmat nc nf (fun i _ => s i))
      by (apply mtab_ext; intros; rewrite vget_fvec by assumption; reflexivity).
    exact (lmnd_diag_not_nan fp Hm Hi nc nf x mu _ Hnf Hb Hne Hx).
  - unfold log_mvn_density. cbn [String.eqb Ascii.eqb Bool.eqb]. unfold lmnd_spherical.
    rewrite nrow_fmat, ncol_fmat, broadcast_fmat. cbn [bind].
    exact (lmnd_diag_not_nan fp Hm Hi nc nf x mu var Hnf Hb Hne Hx).
Qed.

Lemma C32_never_nan_applies_l : monotone b64 /\ (forall z, (Z.abs z <= 2 ^ 53)%Z -> b64 (IZR z) = Fin (IZR z))
  /\ vcov 1 2 (fun _ _ => 0) "spherical" (CV1 (fvec 1 (fun _ => 0)))
  /\ Forall (finite_row 2) [fvec 2 (fun f => INR f)].
Proof.
  split; [exact b64_monotone|]. split; [exact b64_exact_ints|]. split; [constructor; reflexivity|].
  constructor; [apply fvec_finite_row|constructor].
Qed.

(** ** C14, C21, C25. *)
Lemma C21_gaussian_means_l fp h x lengths h' ev :
  fit_from gaussian fp h x lengths = Ok (h', ev) ->
  has "m" (c_params (h_cfg h)) = false -> ga_means (h_em h') = ga_means (h_em h).
Proof.
  intros H Hh. apply (fit_keeps gaussian fp h x lengths h' ev _ ga_means H).
  - intros nf p nf' p' Hc. cbn [gaussian ec_check] in Hc. unfold gauss_check in Hc.
    destruct (ga_means p) eqn:E; [|discriminate]. destruct (is_type _ _); [|discriminate]. injection Hc as <- <-. exact E.
  - intros nf p st p' Hm. cbn [gaussian ec_mstep] in Hm. unfold gauss_mstep in Hm. rewrite Hh in Hm. cbn [bind] in Hm.
    destruct (if has "c" _ then _ else _) in Hm; [|discriminate]. cbn [bind] in Hm. injection Hm as <-. reflexivity.
Qed.
Lemma C21_gaussian_covars_l fp h x lengths h' ev :
  fit_from gaussian fp h x lengths = Ok (h', ev) ->
  has "c" (c_params (h_cfg h)) = false -> ga_covars (h_em h') = ga_covars (h_em h).
Proof.
  intros H Hh. apply (fit_keeps gaussian fp h x lengths h' ev _ ga_covars H).
  - intros nf p nf' p' Hc. cbn [gaussian ec_check] in Hc. unfold gauss_check in Hc.
    destruct (ga_means p) eqn:E; [|discriminate]. destruct (is_type _ _); [|discriminate]. injection Hc as <- <-. reflexivity.
  - intros nf p st p' Hm. cbn [gaussian ec_mstep] in Hm. unfold gauss_mstep in Hm. rewrite Hh in Hm.
    destruct (if has "m" _ then _ else _) in Hm; [|discriminate]. cbn [bind] in Hm. injection Hm as <-. reflexivity.
Qed.

Lemma C25_gaussian_l h nc nf pi A mu var m0 w cp a sp tp ls x h' ev :
  gauss_model h nc nf pi A mu var -> gauss_hyper h nc nf m0 w cp a -> nonneg2 nc nf w ->
  priors (h_cfg h) nc sp tp -> (forall i, (i < nc)%nat -> 1 <= sp i) ->
  (forall i j, (i < nc)%nat -> (j < nc)%nat -> 1 <= tp i j) ->
  good_data (finite_row nf) ls x -> possible nc pi A (gauss_b nf mu (floored var)) ls x ->
  (has "m" (c_params (h_cfg h)) = true ->
     all_used nc pi A (gauss_b nf mu (floored var)) (chunks ls x) \/ (forall i f, (i < nc)%nat -> (f < nf)%nat -> 0 < w i f)) ->
  fit_from gaussian exact h x (as_lengths ls) = Ok (h', ev) ->
  fit_from gaussian exact (with_cfg (cfg_impl "log") h) x (as_lengths ls) = Ok (with_cfg (cfg_impl "log") h', ev).
Proof.
  intros GM Hh Hw HP Hsp Htp Hd Hpos Hu.
  assert (C : exists V, (has "m" (c_params (h_cfg h)) = true -> V = true \/ forall i f, (i < nc)%nat -> (f < nf)%nat -> 0 < w i f)
    /\ (V = true -> all_used nc pi A (gauss_b nf mu (floored var)) (chunks ls x))).
  { destruct (has "m" (c_params (h_cfg h))).
    - destruct (Hu eq_refl) as [U|U]; [exists true|exists false]; split; auto. discriminate.
    - exists false. split; discriminate. }
  destruct C as (V & HV & HU).
  exact (gauss_same_training h nc nf pi A mu var m0 w cp a GM Hh Hw ls x Hd Hpos V HV HU sp tp Hsp Htp HP h' ev).
Qed.

Lemma C14_gaussian_l h nc nf pi A mu var ls x st lp :
  gauss_model h nc nf pi A mu var -> good_data (finite_row nf) ls x -> h_nfeat h = Some nf ->
  has "m" (c_params (h_cfg h)) = true -> has "c" (c_params (h_cfg h)) = true ->
  (forall c, In c (chunks ls x) -> scorable nc pi A (gauss_b nf mu (floored var)) (c_impl (h_cfg h)) c) ->
  do_estep gaussian exact h (fvec nc pi) (fmat nc nc A) x (as_lengths ls) = Ok (st, lp) ->
  let occ := occupancy nc pi A (gauss_b nf mu (floored var)) (chunks ls x) in
  let tot := weighted_total nc pi A (gauss_b nf mu (floored var)) (chunks ls x) in
  gs_post (st_em st) = fvec nc occ /\ sumn nc occ = INR (length x)
  /\ gs_obs (st_em st) = fmat nc nf (fun i f => tot (fun o => xval o f) i)
  /\ gs_obs2 (st_em st) = fmat nc nf (fun i f => tot (fun o => xval o f * xval o f) i).
Proof.
  intros GM Hd Hnf Hm Hc Hs H occ tot.
  assert (Tr : trainable gaussian h nc pi A (finite_row nf) (gauss_b nf mu (floored var))).
  { pose proof (gam_base _ _ _ _ _ _ _ GM) as []. constructor; try assumption.
    destruct h as [c nfe s t m p]. destruct (gam_covars _ _ _ _ _ _ _ GM) as (cv & E & Hcv).
    apply (gauss_emits0 nc nf bo_pos (gam_nf _ _ _ _ _ _ _ GM) c nfe p s t m mu var cv); try assumption. apply GM. }
  rewrite (do_estep_spec gaussian h nc pi A _ _ Tr ls x Hd Hs) in H.
  rewrite em_fold_all in H. set (l := map (fun c => (c, seq_post nc pi A (gauss_b nf mu (floored var)) c)) (chunks ls x)) in *.
  destruct (good_data_chunks _ ls x Hd) as (_ & _ & Hch). rewrite Forall_forall in Hch.
  assert (Hl : forall y w, In (y, w) l -> y <> [] /\ Forall (finite_row nf) y).
  { intros y g Hy. apply in_map_iff in Hy as (c & Heq & Hy). injection Heq as -> _. apply Hch. exact Hy. }
  destruct (gam_covars _ _ _ _ _ _ _ GM) as (cv & E & Hcv). destruct (vcov_type _ _ _ _ _ Hcv) as (T1 & T2 & _).
  cbn [gaussian ec_stats0] in H. unfold gauss_stats0 in H. rewrite (tr_nc _ _ _ _ _ _ _ Tr), Hnf, T2 in H.
  change (tab nc (fun _ => Fin 0)) with (fvec nc (fun _ => 0)) in H.
  change (mtab nc nf (fun _ _ => Fin 0)) with (fmat nc nf (fun _ _ => 0)) in H.
  fold gaussian in H. rewrite (gauss_acc_all nc nf) in H by assumption.
  rewrite Hm, Hc in H. cbn [bind] in H. injection H as <- <-.
  cbn [st_em gs_post gs_obs gs_obs2]. split; [|split; [|split]].
  - apply fvec_ext. intros i Hi. unfold l. rewrite wsum_occupancy. unfold occ. ring.
  - apply (occupancy_total (finite_row nf)); try apply Tr; try exact Hd.
    intros c Hin. destruct (Hch c Hin) as [Hne Hok].
    apply (scorable_lik gaussian h nc pi A (finite_row nf) (gauss_b nf mu (floored var)) (c_impl (h_cfg h)) c Tr Hne (Hs c Hin)).
  - apply fmat_ext. intros i f Hi Hf. unfold l, xf.
    rewrite (wsum_posteriors nc pi A (gauss_b nf mu (floored var)) (chunks ls x) (fun o => xval o f) i). unfold tot. ring.
  - apply fmat_ext. intros i f Hi Hf. unfold l, xf2.
    rewrite (wsum_posteriors nc pi A (gauss_b nf mu (floored var)) (chunks ls x) (fun o => xval o f * xval o f) i). unfold tot. ring.
Qed.

(** ** C34, C35, C36: the update. *)
(** Default priors, except [covars_prior = c]. *)
Definition gauss_default (h : hmm gaussp) (c : R) : Prop :=
  ga_mprior (h_em h) = Scal (Fin 0) /\ ga_mweight (h_em h) = Scal (Fin 0)
  /\ ga_cprior (h_em h) = Scal (Fin c) /\ ga_cweight (h_em h) = Scal (Fin 1).

Lemma default_hyper h nc nf c : gauss_default h c ->
  gauss_hyper h nc nf (fun _ _ => 0) (fun _ _ => 0) (fun _ _ => c) 0.
Proof.
  intros (D1 & D2 & D3 & D4). constructor.
  - rewrite D1. apply cast_scal.
  - rewrite D2. apply cast_scal.
  - rewrite D3. apply cast_scal.
  - unfold cweight_excess. rewrite D4. unfold py_max, exact. cbn [xsub xopp xadd].
    destruct (xltb _ _); [reflexivity|]. do 2 f_equal. lra.
Qed.

Lemma weighted_square nc pi A b (xs : list (list vec)) f m i :
  weighted_total nc pi A b xs (fun o => (xval o f - m) ^ 2) i
  = weighted_total nc pi A b xs (fun o => xval o f * xval o f) i
    - 2 * m * weighted_total nc pi A b xs (fun o => xval o f) i + m ^ 2 * occupancy nc pi A b xs i.
Proof.
  rewrite <- !wsum_posteriors, <- wsum_occupancy.
  rewrite (wsum_ext _ (fun o _ => (xval o f - m) ^ 2)
     (fun o j => ((fun o _ => xval o f * xval o f) o j + (- 2 * m) * (fun o _ => xval o f) o j) + m ^ 2 * (fun _ _ => 1) o j) i (fun _ => True)).
  - rewrite !wsum_plus, !wsum_scal. ring.
  - intros x g _. apply Forall_forall. intros; exact I.
  - intros o _. cbv beta. ring.
Qed.

(** One trained model with default mean prior: trajectories of all parameters. *)
Definition gauss_traj (h : hmm gaussp) nc nf pi A mu var (h' : hmm gaussp)
    (pis : nat -> nat -> R) (As mus vs : nat -> nat -> nat -> R) : Prop :=
  let k := length (m_history (h_mon h')) in
  pis 0%nat = pi /\ As 0%nat = A
  /\ (forall i f, (i < nc)%nat -> (f < nf)%nat -> mus 0%nat i f = mu i f /\ vs 0%nat i f = var i f)
  /\ h_start h' = Some (fvec nc (pis k)) /\ h_trans h' = Some (fmat nc nc (As k))
  /\ ga_means (h_em h') = Some (fmat nc nf (mus k))
  /\ exists cv, ga_covars (h_em h') = Some cv /\ vcov nc nf (vs k) (ga_type (h_em h)) cv.

Section Default.
  Variables (h : hmm gaussp) (nc nf : nat) (pi : nat -> R) (A mu var : nat -> nat -> R) (c : R).
  Hypothesis GM : gauss_model h nc nf pi A mu var.
  Hypothesis FB : flat_base h.
  Hypothesis GD : gauss_default h c.
  Hypothesis Hc0 : 0 <= c.
  Hypothesis Hp1 : sumn nc pi <= 1.
  Hypothesis HA1 : forall i, (i < nc)%nat -> sumn nc (A i) <= 1.
  Variables (ls : list nat) (x : list vec).
  Hypothesis Hd : good_data (finite_row nf) ls x.
  Hypothesis Hpos : possible nc pi A (gauss_b nf mu (floored var)) ls x.
  Hypothesis Hu : has "m" (c_params (h_cfg h)) = true -> all_used nc pi A (gauss_b nf mu (floored var)) (chunks ls x).

  Lemma C34_run h' ev : fit_from gaussian exact h x (as_lengths ls) = Ok (h', ev) ->
    exists pis As mus vs, let k := length (m_history (h_mon h')) in
    gauss_traj h nc nf pi A mu var h' pis As mus vs
    /\ ((0 < k)%nat -> has "c" (c_params (h_cfg h)) = true -> ga_covars (h_em h') = Some (CV2 (fmat nc nf (vs k))))
    /\ ga_type (h_em h') = ga_type (h_em h) /\ h_nfeat h' = Some nf /\ c_nc (h_cfg h') = nc
    /\ (forall j, (j < k)%nat ->
         nth j (m_history (h_mon h')) NaN = Fin (data_loglik nc (pis j) (As j) (gauss_b nf (mus j) (floored (vs j))) ls x))
    /\ (forall j, (j < k)%nat ->
         let b := gauss_b nf (mus j) (floored (vs j)) in
         let occ := occupancy nc (pis j) (As j) b (chunks ls x) in
         let tot := weighted_total nc (pis j) (As j) b (chunks ls x) in
         let n i := if has "m" (c_params (h_cfg h)) then occ i else 0 in
         let K i f := c + if has "m" (c_params (h_cfg h)) then tot (fun o => (xval o f - mus (S j) i f) ^ 2) i
                          else tot (fun o => xval o f * xval o f) i in
         (forall i, (i < nc)%nat -> 0 <= occ i)
         /\ forall i f, (i < nc)%nat -> (f < nf)%nat ->
           (has "m" (c_params (h_cfg h)) = true -> 0 < occ i /\ mus (S j) i f = tot (fun o => xval o f) i / occ i)
           /\ (has "m" (c_params (h_cfg h)) = false -> mus (S j) i f = mus j i f)
           /\ (has "c" (c_params (h_cfg h)) = true ->
                 0 <= K i f - c
                 /\ vs (S j) i f = if String.eqb (ga_type (h_em h)) "spherical"
                              then sumn nf (fun f => K i f / Rmax (n i) (/ 10 ^ 5)) / INR nf
                              else K i f / Rmax (n i) (/ 10 ^ 5)))
    /\ (forall j, (j < k)%nat ->
         let b j := gauss_b nf (mus j) (floored (vs j)) in
         (has "c" (c_params (h_cfg h)) = true -> has "m" (c_params (h_cfg h)) = true /\ forall i, (i < nc)%nat ->
            / 10 ^ 5 <= occupancy nc (pis j) (As j) (b j) (chunks ls x) i) ->
         data_loglik nc (pis j) (As j) (b j) ls x - sumn nc (fun i => sumn nf (fun f => c / (2 * Rmax (vs j i f) tiny)))
         <= data_loglik nc (pis (S j)) (As (S j)) (b (S j)) ls x
            - sumn nc (fun i => sumn nf (fun f => c / (2 * Rmax (vs (S j) i f) tiny)))).
  Proof.
    intros Hf.
    destruct (gauss_run h nc nf pi A mu var (fun _ _ => 0) (fun _ _ => 0) (fun _ _ => c) 0 GM (default_hyper h nc nf c GD)
      ltac:(intros i f _ _; lra) ls x Hd Hpos (has "m" (c_params (h_cfg h))) ltac:(intros; left; assumption) Hu
      (fun _ => 1) (fun _ _ => 1) ltac:(intros; lra) ltac:(intros; lra) (flat_base_priors h nc FB) Hp1 HA1 ltac:(intros i f _ _; exact Hc0) h' ev Hf)
      as (pis & As & mus & vs & R0 & R1 & R2 & R3 & R4 & R5 & (cv & R6 & R7 & R8) & R9 & R10 & R11 & R12 & R13 & R14).
    exists pis, As, mus, vs. cbv zeta. set (k := length (m_history (h_mon h'))) in *.
    split; [unfold gauss_traj; fold k; repeat (split; [assumption|]); exists cv; split; assumption|].
    split; [intros Hk Hcc; rewrite R6, (R8 Hk Hcc); reflexivity|].
    repeat (split; [assumption|]). split.
    - intros j Hj. destruct (R13 j Hj) as (S1 & S2). split; [intros i Hi; apply S1; exact Hi|].
      intros i f Hi Hf'. destruct (S2 i f Hi Hf') as [S3 S4]. split; [|split].
      + intros Hm. rewrite Hm in S3. split; [apply (proj1 (proj2 (S1 i Hi)) Hm)|]. rewrite S3. f_equal; ring.
      + intros Hm. rewrite Hm in S3. exact S3.
      + intros Hcc. rewrite Hcc in S4.
        assert (EK : forall g, (g < nf)%nat ->
          c + (0 * (mus (S j) i g - 0) ^ 2
               + weighted_total nc (pis j) (As j) (gauss_b nf (mus j) (floored (vs j))) (chunks ls x) (fun o => xval o g * xval o g) i
               - 2 * mus (S j) i g * (if has "m" (c_params (h_cfg h))
                     then weighted_total nc (pis j) (As j) (gauss_b nf (mus j) (floored (vs j))) (chunks ls x) (fun o => xval o g) i else 0)
               + mus (S j) i g ^ 2 * (if has "m" (c_params (h_cfg h))
                     then occupancy nc (pis j) (As j) (gauss_b nf (mus j) (floored (vs j))) (chunks ls x) i else 0))
          = c + (if has "m" (c_params (h_cfg h))
                 then weighted_total nc (pis j) (As j) (gauss_b nf (mus j) (floored (vs j))) (chunks ls x) (fun o => (xval o g - mus (S j) i g) ^ 2) i
                 else weighted_total nc (pis j) (As j) (gauss_b nf (mus j) (floored (vs j))) (chunks ls x) (fun o => xval o g * xval o g) i)).
        { intros g Hg. destruct (has "m" (c_params (h_cfg h))); [rewrite weighted_square|]; ring. }
        assert (Hnn : forall phi, (forall o, 0 <= phi o) ->
          0 <= weighted_total nc (pis j) (As j) (gauss_b nf (mus j) (floored (vs j))) (chunks ls x) phi i).
        { apply (S1 i Hi). }
        split.
        * destruct (has "m" (c_params (h_cfg h))); [assert (G := Hnn (fun o => (xval o f - mus (S j) i f) ^ 2) ltac:(intros; apply pow2_ge_0))
            |assert (G := Hnn (fun o => xval o f * xval o f) ltac:(intros; apply Rle_0_sqr))]; lra.
        * rewrite S4. rewrite Rplus_0_l. destruct (String.eqb (ga_type (h_em h)) "spherical").
          -- f_equal. apply sumn_ext. intros g Hg. rewrite EK by exact Hg. reflexivity.
          -- rewrite EK by exact Hf'. reflexivity.
    - intros j Hj HW. pose proof (R14 j Hj) as G. rewrite !log_dirichlet_flat in G.
      rewrite !sumn_zero in G by (intros; apply log_dirichlet_flat). rewrite !Rplus_0_r in G.
      assert (EP : forall m v, gauss_logprior nc nf (fun _ _ => 0) (fun _ _ => 0) (fun _ _ => c) 0 m v
        = - sumn nc (fun i => sumn nf (fun f => c / (2 * Rmax (v i f) tiny)))).
      { intros m v. unfold gauss_logprior.
        replace (- sumn nc (fun i => sumn nf (fun f => c / (2 * Rmax (v i f) tiny))))
          with ((-1) * sumn nc (fun i => sumn nf (fun f => c / (2 * Rmax (v i f) tiny)))) by ring.
        rewrite <- sumn_scal_l.
        apply sumn_ext. intros i Hi. rewrite <- sumn_scal_l. apply sumn_ext. intros f Hf'.
        pose proof tiny_pos. pose proof (Rmax_r (v i f) tiny). field. lra. }
      rewrite !EP in G. unfold Rminus. apply G.
      intros Hcc. destruct (HW Hcc) as [Hm Hocc]. split; [exact Hm|]. intros i Hi. rewrite Rplus_0_l. apply Hocc. exact Hi.
  Qed.
End Default.

Lemma C34_means_and_variances_l h nc nf pi A mu var c ls x h' ev :
  gauss_model h nc nf pi A mu var -> flat_base h -> gauss_default h c -> 0 <= c ->
  sumn nc pi <= 1 -> (forall i, (i < nc)%nat -> sumn nc (A i) <= 1) ->
  good_data (finite_row nf) ls x -> possible nc pi A (gauss_b nf mu (floored var)) ls x ->
  (has "m" (c_params (h_cfg h)) = true -> all_used nc pi A (gauss_b nf mu (floored var)) (chunks ls x)) ->
  fit_from gaussian exact h x (as_lengths ls) = Ok (h', ev) ->
  exists pis As mus vs, gauss_traj h nc nf pi A mu var h' pis As mus vs
  /\ forall j, (j < length (m_history (h_mon h')))%nat ->
       let b := gauss_b nf (mus j) (floored (vs j)) in
       let occ := occupancy nc (pis j) (As j) b (chunks ls x) in
       let tot := weighted_total nc (pis j) (As j) b (chunks ls x) in
       forall i f, (i < nc)%nat -> (f < nf)%nat ->
         (has "m" (c_params (h_cfg h)) = true -> 0 < occ i /\ mus (S j) i f = tot (fun o => xval o f) i / occ i)
         /\ (has "c" (c_params (h_cfg h)) = true -> 0 < c -> 0 < vs (S j) i f)
         /\ (has "c" (c_params (h_cfg h)) = true -> has "m" (c_params (h_cfg h)) = true -> c = 0 -> / 10 ^ 5 <= occ i ->
             vs (S j) i f = if String.eqb (ga_type (h_em h)) "spherical"
                            then sumn nf (fun f => tot (fun o => (xval o f - mus (S j) i f) ^ 2) i / occ i) / INR nf
                            else tot (fun o => (xval o f - mus (S j) i f) ^ 2) i / occ i).
Proof.
  intros GM FB GD Hc0 Hp1 HA1 Hd Hpos Hu Hf.
  destruct (C34_run h nc nf pi A mu var c GM FB GD Hc0 Hp1 HA1 ls x Hd Hpos Hu h' ev Hf)
    as (pis & As & mus & vs & T & _ & _ & _ & _ & _ & U & _).
  exists pis, As, mus, vs. split; [exact T|]. intros j Hj b occ tot i f Hi Hf'.
  destruct (U j Hj) as (U1 & U2). destruct (U2 i f Hi Hf') as (M1 & _ & M2). split; [exact M1|]. split.
  - intros Hcc Hc1. destruct (M2 Hcc) as [_ M4]. rewrite M4.
    set (D := Rmax _ _).
    assert (HD : 0 < D) by (unfold D; eapply Rlt_le_trans; [|apply Rmax_r]; lra).
    assert (HK : forall g, (g < nf)%nat -> 0 < (c + (if has "m" (c_params (h_cfg h))
        then weighted_total nc (pis j) (As j) (gauss_b nf (mus j) (floored (vs j))) (chunks ls x) (fun o => (xval o g - mus (S j) i g) ^ 2) i
        else weighted_total nc (pis j) (As j) (gauss_b nf (mus j) (floored (vs j))) (chunks ls x) (fun o => xval o g * xval o g) i)) / D).
    { intros g Hg. apply Rdiv_lt_0_compat; [|exact HD]. destruct (U2 i g Hi Hg) as (_ & _ & M5).
      destruct (M5 Hcc) as [M6 _]. lra. }
    destruct (String.eqb (ga_type (h_em h)) "spherical"); [|apply HK; exact Hf'].
    apply Rdiv_lt_0_compat; [|apply lt_0_INR; apply GM].
    apply (sumn_pos nf _ f); [intros g Hg; left; apply HK; exact Hg|exact Hf'|apply HK; exact Hf'].
  - intros Hcc Hm Hc1 Hocc. destruct (M2 Hcc) as [_ M4]. rewrite M4, Hm.
    rewrite Rmax_left by exact Hocc. subst c.
    destruct (String.eqb (ga_type (h_em h)) "spherical").
    + f_equal. apply sumn_ext. intros g Hg. rewrite Rplus_0_l. reflexivity.
    + rewrite Rplus_0_l. reflexivity.
Qed.

Lemma C35_penalised_monotone_l h nc nf pi A mu var c ls x h' ev :
  gauss_model h nc nf pi A mu var -> flat_base h -> gauss_default h c -> 0 <= c ->
  sumn nc pi <= 1 -> (forall i, (i < nc)%nat -> sumn nc (A i) <= 1) ->
  good_data (finite_row nf) ls x -> possible nc pi A (gauss_b nf mu (floored var)) ls x ->
  (has "m" (c_params (h_cfg h)) = true -> all_used nc pi A (gauss_b nf mu (floored var)) (chunks ls x)) ->
  fit_from gaussian exact h x (as_lengths ls) = Ok (h', ev) ->
  exists pis As mus vs, gauss_traj h nc nf pi A mu var h' pis As mus vs
  /\ let L j := data_loglik nc (pis j) (As j) (gauss_b nf (mus j) (floored (vs j))) ls x in
     let penalty j := sumn nc (fun i => sumn nf (fun f => c / (2 * Rmax (vs j i f) tiny))) in
     forall j, (j < length (m_history (h_mon h')))%nat ->
       nth j (m_history (h_mon h')) NaN = Fin (L j)
       /\ ((has "c" (c_params (h_cfg h)) = true -> has "m" (c_params (h_cfg h)) = true
             /\ forall i, (i < nc)%nat ->
                  / 10 ^ 5 <= occupancy nc (pis j) (As j) (gauss_b nf (mus j) (floored (vs j))) (chunks ls x) i) ->
           L j - penalty j <= L (S j) - penalty (S j)
           /\ (c = 0 -> L j <= L (S j))).
Proof.
  intros GM FB GD Hc0 Hp1 HA1 Hd Hpos Hu Hf.
  destruct (C34_run h nc nf pi A mu var c GM FB GD Hc0 Hp1 HA1 ls x Hd Hpos Hu h' ev Hf)
    as (pis & As & mus & vs & T & _ & _ & _ & _ & Hh & _ & G).
  exists pis, As, mus, vs. split; [exact T|]. intros L penalty j Hj. split; [apply Hh; exact Hj|].
  intros HW. pose proof (G j Hj HW) as G1. cbv zeta in G1.
  split; [exact G1|]. intros ->.
  assert (Hz : forall v : nat -> nat -> R, sumn nc (fun i => sumn nf (fun f => 0 / (2 * Rmax (v i f) tiny))) = 0).
  { intros v. apply sumn_zero. intros i _. apply sumn_zero. intros f _. unfold Rdiv. ring. }
  rewrite !Hz, !Rminus_0_r in G1. exact G1.
Qed.

(** ** C36: what happens when only the covariances are trained. *)
Lemma C36_frozen_means_l h nc nf pi A mu var c ls x h' ev :
  gauss_model h nc nf pi A mu var -> flat_base h -> gauss_default h c -> 0 <= c ->
  sumn nc pi <= 1 -> (forall i, (i < nc)%nat -> sumn nc (A i) <= 1) ->
  good_data (finite_row nf) ls x -> possible nc pi A (gauss_b nf mu (floored var)) ls x ->
  has "m" (c_params (h_cfg h)) = false -> has "c" (c_params (h_cfg h)) = true -> ga_type (h_em h) = "diag"%string ->
  fit_from gaussian exact h x (as_lengths ls) = Ok (h', ev) ->
  exists pis As mus vs, gauss_traj h nc nf pi A mu var h' pis As mus vs
  /\ forall j, (j < length (m_history (h_mon h')))%nat -> forall i f, (i < nc)%nat -> (f < nf)%nat ->
       mus (S j) i f = mus j i f
       /\ vs (S j) i f = (c + weighted_total nc (pis j) (As j) (gauss_b nf (mus j) (floored (vs j))) (chunks ls x)
                                (fun o => xval o f * xval o f) i) * 10 ^ 5.
Proof.
  intros GM FB GD Hc0 Hp1 HA1 Hd Hpos Hm Hcc Hty Hf.
  destruct (C34_run h nc nf pi A mu var c GM FB GD Hc0 Hp1 HA1 ls x Hd Hpos ltac:(rewrite Hm; discriminate) h' ev Hf)
    as (pis & As & mus & vs & T & _ & _ & _ & _ & _ & U & _).
  exists pis, As, mus, vs. split; [exact T|]. intros j Hj i f Hi Hf'.
  destruct (U j Hj) as (U1 & U2). destruct (U2 i f Hi Hf') as (_ & M1 & M2). split; [exact (M1 Hm)|].
  destruct (M2 Hcc) as [_ M4]. rewrite M4, Hm, Hty. cbn [String.eqb Ascii.eqb Bool.eqb].
  rewrite Rmax_right by lra. unfold Rdiv. rewrite Rinv_inv. reflexivity.
Qed.

(** ** C37: the [covars_] property. *)
Definition diag_mat (nf : nat) (v : nat -> R) : mat := fmat nf nf (fun a b => if Nat.eqb a b then v a else 0).

(** "diag", and "spherical" with one variance per state: one diagonal matrix per
    state, with the variances used by the emission densities ([C02]). *)
Lemma C37_vector_types_l h nc nf pi A mu var : gauss_model h nc nf pi A mu var -> h_nfeat h = Some nf ->
  (ga_type (h_em h) = "diag"%string \/ exists s, ga_covars (h_em h) = Some (CV1 s)) ->
  covars_get exact h = Ok (tab nc (fun i => diag_mat nf (var i))).
Proof.
  intros GM Hn Hty. unfold covars_get. destruct (gam_covars _ _ _ _ _ _ _ GM) as (cv & E & Hcv). rewrite E, Hn.
  remember (ga_type (h_em h)) as ty eqn:Ety. destruct Hcv as [|s Hs|Hs]; unfold fill_covars; cbn [String.eqb Ascii.eqb Bool.eqb].
  - f_equal. unfold fmat, mtab. cbn [rows]. rewrite tab_map. apply tab_ext. intros i Hi. unfold diag_of.
    rewrite tab_length. apply mtab_ext. intros a b Ha Hb. rewrite vget_tab by exact Ha. destruct (Nat.eqb a b); reflexivity.
  - f_equal. unfold fvec. rewrite tab_map. apply tab_ext. intros i Hi. apply mtab_ext. intros a b Ha Hb.
    destruct (Nat.eqb a b); cbn [xmul exact]; unfold exact; f_equal; [rewrite Hs by assumption|]; ring.
  - destruct Hty as [Hty|(s & Es)]; [discriminate|]. rewrite E in Es. discriminate.
Qed.

(** "full" and "tied", in any arithmetic: the exposed matrices are the ones the
    densities are computed from. *)
Lemma C37_matrix_types_l fp h nf m cv : h_nfeat h = Some nf -> ga_means (h_em h) = Some m ->
  nrow m = c_nc (h_cfg h) -> ncol m = nf -> ga_covars (h_em h) = Some cv ->
  (ga_type (h_em h) = "full"%string /\ (exists l, cv = CV3 l /\ length l = c_nc (h_cfg h))
   \/ ga_type (h_em h) = "tied"%string /\ exists s, cv = CV2 (mtab nf nf s)) ->
  exists l, covars_get fp h = Ok l /\ length l = c_nc (h_cfg h)
    /\ forall x, log_mvn_density fp (ga_type (h_em h)) x m cv = log_mvn_density fp "full" x m (CV3 l).
Proof.
  intros Hn Hm Hr Hc E Hty. unfold covars_get. rewrite E, Hn.
  destruct Hty as [(Ety & l & -> & Hl)|(Ety & s & ->)]; rewrite Ety.
  - exists l. split; [reflexivity|]. split; [exact Hl|]. intros x. reflexivity.
  - exists (tab (c_nc (h_cfg h)) (fun _ => mtab nf nf s)). split; [reflexivity|]. split; [apply tab_length|].
    intros x. unfold log_mvn_density. cbn [String.eqb Ascii.eqb Bool.eqb]. unfold lmnd_tied, broadcast_to.
    rewrite nrow_mtab, ncol_mtab, Hc, Nat.eqb_refl. cbn [orb andb bind]. rewrite Hr. f_equal. f_equal.
    apply tab_ext. intros _ _. apply mtab_ext. intros a b Ha Hb.
    assert (E1 : bidx nf a = a) by (apply bidx_lt; exact Ha). assert (E2 : bidx nf b = b) by (apply bidx_lt; exact Hb).
    rewrite E1, E2, mget_mtab by assumption. reflexivity.
Qed.

Lemma concat_tab_const {B} n k (f : nat -> B) : (0 < k)%nat ->
  concat (tab n (fun i => tab k (fun _ => f i))) = tab (n * k) (fun r => f (r / k)%nat).
Proof.
  intros Hk. revert f. induction n as [|n IH]; intros f; [reflexivity|].
  rewrite tab_S. cbn [concat]. rewrite (IH (fun i => f (S i))).
  replace (S n * k)%nat with (k + n * k)%nat by lia.
  assert (App : forall a b (g : nat -> B), tab (a + b) g = tab a g ++ tab b (fun i => g (a + i)%nat)).
  { induction a as [|a IHa]; intros b g; [reflexivity|]. cbn [Nat.add]. rewrite !tab_S, IHa. reflexivity. }
  rewrite App. f_equal.
  - apply tab_ext. intros i Hi. rewrite Nat.div_small by exact Hi. reflexivity.
  - apply tab_ext. intros i Hi. f_equal. replace (k + i)%nat with (i + 1 * k)%nat by lia. rewrite Nat.div_add by lia. lia.
Qed.

(** After training a "spherical" model: [n_components * n_features] matrices,
    the [r]-th holding the variance of state [r / n_features]. *)
Lemma C37_fitted_spherical_l h nc nf pi A mu var c ls x h' ev :
  gauss_model h nc nf pi A mu var -> flat_base h -> gauss_default h c -> 0 <= c ->
  sumn nc pi <= 1 -> (forall i, (i < nc)%nat -> sumn nc (A i) <= 1) ->
  good_data (finite_row nf) ls x -> possible nc pi A (gauss_b nf mu (floored var)) ls x ->
  (has "m" (c_params (h_cfg h)) = true -> all_used nc pi A (gauss_b nf mu (floored var)) (chunks ls x)) ->
  has "c" (c_params (h_cfg h)) = true -> ga_type (h_em h) = "spherical"%string ->
  fit_from gaussian exact h x (as_lengths ls) = Ok (h', ev) -> (0 < length (m_history (h_mon h')))%nat ->
  exists pis As mus vs, gauss_traj h nc nf pi A mu var h' pis As mus vs
  /\ ga_covars (h_em h') = Some (CV2 (fmat nc nf (vs (length (m_history (h_mon h'))))))
  /\ covars_get exact h' = Ok (tab (nc * nf) (fun r =>
       diag_mat nf (fun _ => vs (length (m_history (h_mon h'))) (r / nf)%nat 0%nat))).
Proof.
  intros GM FB GD Hc0 Hp1 HA1 Hd Hpos Hu Hcc Hty Hf Hk.
  destruct (C34_run h nc nf pi A mu var c GM FB GD Hc0 Hp1 HA1 ls x Hd Hpos Hu h' ev Hf)
    as (pis & As & mus & vs & T & Ecv & Ety & Enf & _ & _ & _).
  exists pis, As, mus, vs. split; [exact T|]. split; [exact (Ecv Hk Hcc)|]. unfold covars_get. rewrite (Ecv Hk Hcc), Enf, Ety, Hty.
  unfold fill_covars. cbn [String.eqb Ascii.eqb Bool.eqb]. f_equal.
  destruct T as (_ & _ & _ & _ & _ & _ & cv & E1 & E2). rewrite (Ecv Hk Hcc) in E1. injection E1 as <-. rewrite Hty in E2.
  inversion E2 as [|s Hs Ecv' Es|Hsame]; subst.
  set (k := length (m_history (h_mon h'))) in *.
  assert (Er : rows (fmat nc nf (vs k)) = tab nc (fun i => tab nf (fun _ => Fin (vs k i 0%nat)))).
  { unfold fmat, mtab. cbn [rows]. apply tab_ext. intros i Hi. apply tab_ext. intros f Hf'. f_equal. apply Hsame; assumption. }
  rewrite Er, (concat_tab_const nc nf (fun i => Fin (vs k i 0%nat))) by apply GM.
  rewrite tab_map. apply tab_ext. intros r Hr. apply mtab_ext. intros a b Ha Hb.
  destruct (Nat.eqb a b); cbn [xmul]; unfold exact; f_equal; ring.
Qed.
