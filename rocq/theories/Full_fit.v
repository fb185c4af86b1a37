(** * GaussianHMM with full or tied covariances: properties C02, C14, C25, C64,
    C65. *)
From Verif Require Export Full_train Gauss_thms.

(** A GaussianHMM of type "full" or "tied" with finite parameters of the
    documented shapes and positive semi-definite covariances. *)
Record full_model (h : hmm gaussp) (nc nf : nat) (pi : nat -> R) (A mu : nat -> nat -> R) (Sg : nat -> nat -> nat -> R) : Prop := FullModel {
  fum_base : base_ok h nc pi A;
  fum_nf : (0 < nf)%nat;
  fum_means : ga_means (h_em h) = Some (fmat nc nf mu);
  fum_covars : exists cv, ga_covars (h_em h) = Some cv /\ mcov nc nf Sg (ga_type (h_em h)) cv;
  fum_psd : forall i, (i < nc)%nat -> pos_semidef nf (Sg i) }.

(** [E] is the matrix used for scoring when [Sg] is stored: [Sg], or [Sg] with
    1e-7 added to the diagonal when [Sg] is singular. *)
Definition scoring_cov (nf : nat) (Sg E : nat -> nat -> R) : Prop :=
  pos_def nf E
  /\ (pos_def nf Sg -> forall k l, (k < nf)%nat -> (l < nf)%nat -> E k l = Sg k l)
  /\ (~ pos_def nf Sg -> forall k l, (k < nf)%nat -> (l < nf)%nat -> E k l = Sg k l + if Nat.eqb k l then / 10 ^ 7 else 0).

(** [b] are the normal densities with means [mu] and stored covariances [Sg]. *)
Definition normal_densities (nc nf : nat) (mu : nat -> nat -> R) (Sg : nat -> nat -> nat -> R) (b : vec -> nat -> R) : Prop :=
  forall i, (i < nc)%nat -> exists E, scoring_cov nf (Sg i) E
    /\ forall o, mvn_density nf (mu i) E (xval o) (b o i).

Lemma effm_scoring nf Sg : pos_semidef nf Sg -> scoring_cov nf Sg (effm nf Sg).
Proof.
  intros H. split; [apply effm_pd; exact H|]. split; intros HP k l Hk Hl.
  - rewrite effm_pd_id by exact HP. reflexivity.
  - rewrite effm_ridge by (apply H || exact HP). unfold ridge. reflexivity.
Qed.
Lemma scoring_unique nf Sg E E' : sym nf Sg -> scoring_cov nf Sg E -> scoring_cov nf Sg E' ->
  forall k l, (k < nf)%nat -> (l < nf)%nat -> E k l = E' k l.
Proof.
  intros Hs (_ & A1 & A2) (_ & B1 & B2) k l Hk Hl. destruct (psd_pd_dec nf Sg Hs) as [P|P].
  - rewrite (A1 P), (B1 P) by assumption. reflexivity.
  - rewrite (A2 P), (B2 P) by assumption. reflexivity.
Qed.

Lemma effm_densities nc nf mu (Sg : nat -> nat -> nat -> R) : (forall i, (i < nc)%nat -> pos_semidef nf (Sg i)) ->
  normal_densities nc nf mu Sg (fun o i => mvnf nf (mu i) (effm nf (Sg i)) o).
Proof.
  intros H i Hi. exists (effm nf (Sg i)). split; [apply effm_scoring, H, Hi|]. intros o. apply mvnf_ok, effm_pd, H, Hi.
Qed.

(** The densities are determined by the parameters. *)
Lemma mvn_density_unique nf mu E E' o p p' : pos_def nf E -> (forall k l, (k < nf)%nat -> (l < nf)%nat -> E k l = E' k l) ->
  mvn_density nf mu E o p -> mvn_density nf mu E' o p' -> p = p'.
Proof.
  intros PD EE Hp Hp'.
  assert (Hp2 : mvn_density nf mu E o p').
  { destruct Hp' as (y & Hy & ->). exists y. split.
    - intros i Hi. rewrite <- (Hy i Hi). apply sumn_ext. intros k Hk. rewrite EE by assumption. reflexivity.
    - rewrite (det_ext nf E E' EE). reflexivity. }
  destruct (pd_solve nf E PD (fun i => o i - mu i)) as (y & Hy).
  pose proof (mvn_ln nf E PD mu o p y Hp Hy) as L1. pose proof (mvn_ln nf E PD mu o p' y Hp2 Hy) as L2.
  apply ln_inv; [apply (mvn_pos nf E PD mu o _ Hp)|apply (mvn_pos nf E PD mu o _ Hp2)|]. rewrite L1, L2. reflexivity.
Qed.
Lemma densities_eff nc nf mu (Sg : nat -> nat -> nat -> R) b : (forall i, (i < nc)%nat -> pos_semidef nf (Sg i)) ->
  normal_densities nc nf mu Sg b -> forall o i, (i < nc)%nat -> b o i = mvnf nf (mu i) (effm nf (Sg i)) o.
Proof.
  intros H D o i Hi. destruct (D i Hi) as (E & HE & Hb).
  apply (mvn_density_unique nf (mu i) E (effm nf (Sg i)) (xval o)); [apply HE| |apply Hb|apply mvnf_ok, effm_pd, H, Hi].
  apply (scoring_unique nf (Sg i)); [apply H, Hi|exact HE|apply effm_scoring, H, Hi].
Qed.

Lemma ready_ext {P X St} (E : emclass P X St) h nc pi A ok b b' : (forall o i, (i < nc)%nat -> b o i = b' o i) ->
  ready E h nc pi A ok b -> ready E h nc pi A ok b'.
Proof.
  intros Eb []. constructor; try assumption. destruct rd_check as (h' & C1 & C2 & He). exists h'. split; [exact C1|]. split; [exact C2|].
  assert (Eo : forall x t i, (t < length x)%nat -> (i < nc)%nat -> obsB b x t i = obsB b' x t i).
  { intros x t i Ht Hi. destruct x as [|d x0]; [simpl in Ht; lia|]. rewrite !(obsB_nth _ (d :: x0) d) by exact Ht. apply Eb. exact Hi. }
  destruct He. constructor.
  - intros x Hx. rewrite em_log by exact Hx. f_equal. apply mtab_ext. intros t i Ht Hi. rewrite Eo by assumption. reflexivity.
  - intros x Hx. rewrite em_lin by exact Hx. f_equal. apply fmat_ext. intros; apply Eo; assumption.
  - intros o i Ho Hi. rewrite <- Eb by exact Hi. apply em_nonneg; assumption.
  - exact em_xok.
Qed.

Section FullModel.
  Variables (h : hmm gaussp) (nc nf : nat) (pi : nat -> R) (A mu : nat -> nat -> R) (Sg : nat -> nat -> nat -> R).
  Hypothesis FM : full_model h nc nf pi A mu Sg.
  Let Hnc : (0 < nc)%nat := bo_pos _ _ _ _ (fum_base _ _ _ _ _ _ _ FM).
  Let Hnf : (0 < nf)%nat := fum_nf _ _ _ _ _ _ _ FM.

  Lemma fum_type : is_type covariance_types (ga_type (h_em h)) = true.
  Proof. destruct (fum_covars _ _ _ _ _ _ _ FM) as (cv & _ & H). apply (mcov_type _ _ _ _ _ H). Qed.
  Lemma ga_mu_fm i f : (i < nc)%nat -> (f < nf)%nat -> ga_mu (h_em h) i f = mu i f.
  Proof. intros Hi Hf. unfold ga_mu. rewrite (fum_means _ _ _ _ _ _ _ FM), mget_fmat by assumption. reflexivity. Qed.
  Lemma ga_S_fm i k l : (i < nc)%nat -> (k < nf)%nat -> (l < nf)%nat -> ga_S (h_em h) i k l = Sg i k l.
  Proof.
    destruct (fum_covars _ _ _ _ _ _ _ FM) as (cv & E & H). intros Hi Hk Hl.
    apply (mcov_ga_S nc nf Sg (ga_type (h_em h)) cv); assumption.
  Qed.
  Lemma gauss_fp_fm o i : (i < nc)%nat -> mvnf nf (mu i) (effm nf (Sg i)) o = gauss_fp nf (h_em h) o i.
  Proof.
    intros Hi. unfold gauss_fp. apply mvnf_ext; [intros; symmetry; apply ga_mu_fm; assumption|].
    apply effm_ext. intros; symmetry; apply ga_S_fm; assumption.
  Qed.

  Lemma full_ready b : normal_densities nc nf mu Sg b -> ready gaussian h nc pi A (finite_row nf) b.
  Proof.
    intros D. pose proof (densities_eff nc nf mu Sg b (fum_psd _ _ _ _ _ _ _ FM) D) as Eb.
    assert (R0 : ready gaussian h nc pi A (finite_row nf) (fun o i => mvnf nf (mu i) (effm nf (Sg i)) o)).
    { pose proof FM as [Hb _ Hm (cv & Ec & Hcv) Hs]. apply (base_ok_ready gaussian h nc pi A (Some nf) (h_em h)); [exact Hb| | |].
      - apply (gauss_check_ok _ _ _ nc nf mu); [exact Hm|exact fum_type].
      - apply (gauss_check_ok _ _ _ nc nf mu); [exact Hm|exact fum_type].
      - apply (full_emits0 nc nf Hnc Hnf) with (cv := cv); try assumption. apply Hb. }
    apply (ready_ext gaussian h nc pi A (finite_row nf) (fun o i => mvnf nf (mu i) (effm nf (Sg i)) o) b); [|exact R0]. intros; symmetry; apply Eb; assumption.
  Qed.
End FullModel.

(** Hyper-parameters: mean prior [m0] with scalar weight [w], covariance prior
    [cp] (one matrix), [a = max(covars_weight - n_features, 0)]. *)
Definition full_hyper (h : hmm gaussp) nc nf m0 cp w a : Prop :=
  full_prior nc nf m0 cp w a (h_em h) /\ 0 <= w /\ 0 <= a /\ pos_semidef nf cp.

(** Log of the priors on the emission parameters, up to constants; [E] are the
    covariances, [P] their inverses. *)
Definition full_logprior (ty : string) (nc nf : nat) (m0 cp : nat -> nat -> R) (w a : R) (mu : nat -> nat -> R)
    (E P : nat -> nat -> nat -> R) : R :=
  let d i k l := w * ((mu i k - m0 i k) * (mu i l - m0 i l)) in
  if String.eqb ty "tied"
  then - (a / 2) * ln (det nf (E 0%nat)) - 1 / 2 * frob nf (P 0%nat) (fun k l => cp k l + sumn nc (fun i => d i k l))
  else sumn nc (fun i => - (a / 2) * ln (det nf (E i)) - 1 / 2 * frob nf (P i) (fun k l => cp k l + d i k l)).

Lemma weighted_prod nc pi A b (xs : list (list vec)) k l u v i :
  weighted_total nc pi A b xs (fun o => (xval o k - u) * (xval o l - v)) i
  = weighted_total nc pi A b xs (fun o => xval o k * xval o l) i
    - weighted_total nc pi A b xs (fun o => xval o k) i * v
    - weighted_total nc pi A b xs (fun o => xval o l) i * u + u * v * occupancy nc pi A b xs i.
Proof.
  rewrite <- !wsum_posteriors, <- wsum_occupancy.
  set (L := map _ _).
  rewrite (wsum_ext L (fun o _ => (xval o k - u) * (xval o l - v))
     (fun o j => ((xval o k * xval o l + (- v) * xval o k) + (- u) * xval o l) + (u * v) * 1) i (fun _ => True)).
  - rewrite (wsum_plus L (fun o j => (xval o k * xval o l + (- v) * xval o k) + (- u) * xval o l) (fun _ _ => (u * v) * 1)).
    rewrite (wsum_plus L (fun o j => xval o k * xval o l + (- v) * xval o k) (fun o _ => (- u) * xval o l)).
    rewrite (wsum_plus L (fun o j => xval o k * xval o l) (fun o _ => (- v) * xval o k)).
    rewrite (wsum_scal L (- v) (fun o _ => xval o k)), (wsum_scal L (- u) (fun o _ => xval o l)), (wsum_scal L (u * v) (fun _ _ => 1)). ring.
  - intros x g _. apply Forall_forall. intros; exact I.
  - intros o _. ring.
Qed.

Section FullFit.
  Variables (h : hmm gaussp) (nc nf : nat) (pi : nat -> R) (A mu : nat -> nat -> R) (Sg : nat -> nat -> nat -> R).
  Variables (m0 cp : nat -> nat -> R) (w a : R).
  Hypothesis FM : full_model h nc nf pi A mu Sg.
  Hypothesis Hh : full_hyper h nc nf m0 cp w a.
  Variables (ls : list nat) (x : list vec).
  Hypothesis Hd : good_data (finite_row nf) ls x.
  Let B := fun o i => mvnf nf (mu i) (effm nf (Sg i)) o.
  Hypothesis Hpos : possible nc pi A B ls x.
  Variable V : bool.
  Hypothesis HV : has "m" (c_params (h_cfg h)) = true -> V = true \/ 0 < w.
  Hypothesis HVc : has "c" (c_params (h_cfg h)) = true -> 0 < a \/ (has "m" (c_params (h_cfg h)) = true /\ V = true).
  Hypothesis Hu : V = true -> all_used nc pi A B (chunks ls x).
  Let h1 := with_em h (Some nf) (h_em h).
  Let Hw0 : 0 <= w := proj1 (proj2 Hh).
  Let Ha0 : 0 <= a := proj1 (proj2 (proj2 Hh)).
  Let Hcp : pos_semidef nf cp := proj2 (proj2 (proj2 Hh)).
  Let Hnc : (0 < nc)%nat := bo_pos _ _ _ _ (fum_base _ _ _ _ _ _ _ FM).
  Let Hnf : (0 < nf)%nat := fum_nf _ _ _ _ _ _ _ FM.

  Lemma full_model_check : check gaussian exact h = Ok h1.
  Proof.
    apply (base_ok_check gaussian h nc pi A); [apply FM|].
    apply (gauss_check_ok _ _ _ nc nf mu); [apply FM|exact (fum_type _ _ _ _ _ _ _ FM)].
  Qed.

  Lemma full_tstate : tstate nc (full_good nc nf m0 cp w a V) (gauss_fp nf) V ls x h1 pi A.
  Proof.
    apply base_ok_tstate.
    - apply FM.
    - constructor.
      + reflexivity.
      + rewrite (fum_means _ _ _ _ _ _ _ FM). f_equal. apply fmat_ext. intros; symmetry; apply (ga_mu_fm h nc nf pi A mu Sg FM); assumption.
      + destruct (fum_covars _ _ _ _ _ _ _ FM) as (cv & E & Hcv). exists cv. split; [exact E|].
        apply (mcov_ext nc nf Sg); [exact Hnc| |exact Hcv]. intros; symmetry; apply (ga_S_fm h nc nf pi A mu Sg FM); assumption.
      + intros i Hi. apply (pos_semidef_ext nf (Sg i)); [intros; symmetry; apply (ga_S_fm h nc nf pi A mu Sg FM); assumption|].
        apply (fum_psd _ _ _ _ _ _ _ FM); exact Hi.
      + apply Hh.
      + exact HV.
      + exact HVc.
    - apply (possible_ext (finite_row nf) nc pi A B); [|exact Hd|exact Hpos].
      intros; apply (gauss_fp_fm h nc nf pi A mu Sg FM); assumption.
    - intros HVt. apply (all_used_ext (finite_row nf) nc pi A B); [|exact Hd|apply Hu; exact HVt].
      intros; apply (gauss_fp_fm h nc nf pi A mu Sg FM); assumption.
  Qed.

  Variables (sp : nat -> R) (tp : nat -> nat -> R).
  Hypothesis Hsp : forall i, (i < nc)%nat -> 1 <= sp i.
  Hypothesis Htp : forall i j, (i < nc)%nat -> (j < nc)%nat -> 1 <= tp i j.
  Hypothesis HP : priors (h_cfg h) nc sp tp.

  Let TR := full_trains nc nf Hnc Hnf m0 cp w a Hw0 Ha0 Hcp V.

  Lemma full_fit_log_ok : c_impl (h_cfg h) = "log"%string ->
    exists h' ev, fit_from gaussian exact h x (as_lengths ls) = Ok (h', ev).
  Proof.
    exact (gen_fit_log_ok gaussian nc (finite_row nf) (full_good nc nf m0 cp w a V) (gauss_fp nf) V
             TR ls x Hd sp tp Hsp Htp h h1 pi A full_model_check full_tstate HP).
  Qed.

  Lemma full_same_training h' ev :
    fit_from gaussian exact h x (as_lengths ls) = Ok (h', ev) ->
    fit_from gaussian exact (with_cfg (cfg_impl "log") h) x (as_lengths ls) = Ok (with_cfg (cfg_impl "log") h', ev).
  Proof.
    apply (gen_same_training gaussian nc (finite_row nf) (full_good nc nf m0 cp w a V) (gauss_fp nf) V
             TR ls x Hd sp tp Hsp Htp h h1 pi A full_model_check full_tstate HP);
      try reflexivity.
    intros i c nfe p []; constructor; assumption.
  Qed.

  Hypothesis Hp1 : sumn nc pi <= 1.
  Hypothesis HA1 : forall i, (i < nc)%nat -> sumn nc (A i) <= 1.

  (** The run, with the update written out. *)
  Theorem full_run h' ev : fit_from gaussian exact h x (as_lengths ls) = Ok (h', ev) ->
    exists (pis : nat -> nat -> R) (As mus : nat -> nat -> nat -> R) (Ss Es Ps : nat -> nat -> nat -> nat -> R) (b : nat -> vec -> nat -> R),
    let k := length (m_history (h_mon h')) in
    let trained ch := has ch (c_params (h_cfg h)) in
    let tied := String.eqb (ga_type (h_em h)) "tied" in
    pis 0%nat = pi /\ As 0%nat = A
    /\ (forall i f, (i < nc)%nat -> (f < nf)%nat -> mus 0%nat i f = mu i f)
    /\ (forall i f g, (i < nc)%nat -> (f < nf)%nat -> (g < nf)%nat -> Ss 0%nat i f g = Sg i f g)
    /\ h_start h' = Some (fvec nc (pis k)) /\ h_trans h' = Some (fmat nc nc (As k))
    /\ ga_means (h_em h') = Some (fmat nc nf (mus k))
    /\ (exists cv, ga_covars (h_em h') = Some cv /\ mcov nc nf (Ss k) (ga_type (h_em h)) cv)
    /\ ga_type (h_em h') = ga_type (h_em h) /\ h_nfeat h' = Some nf /\ c_nc (h_cfg h') = nc
    /\ (forall j, (j <= k)%nat -> normal_densities nc nf (mus j) (Ss j) (b j) /\ forall i, (i < nc)%nat ->
          pos_semidef nf (Ss j i) /\ scoring_cov nf (Ss j i) (Es j i) /\ inverse nf (Es j i) (Ps j i)
          /\ forall o, mvn_density nf (mus j i) (Es j i) (xval o) (b j o i))
    /\ (forall j, (j < k)%nat -> nth j (m_history (h_mon h')) NaN = Fin (data_loglik nc (pis j) (As j) (b j) ls x))
    /\ (forall j, (j < k)%nat ->
         let occ := occupancy nc (pis j) (As j) (b j) (chunks ls x) in
         let tot phi := weighted_total nc (pis j) (As j) (b j) (chunks ls x) phi in
         let n i := if trained "m"%char then occ i else 0 in
         let K i f g := w * ((mus (S j) i f - m0 i f) * (mus (S j) i g - m0 i g))
                        + tot (fun o => if trained "m"%char then (xval o f - mus (S j) i f) * (xval o g - mus (S j) i g)
                                        else xval o f * xval o g) i in
         (forall i, (i < nc)%nat -> 0 <= occ i /\ (V = true -> 0 < occ i)
                              /\ forall phi, (forall o, 0 <= phi o) -> 0 <= tot phi i)
         /\ (forall i f, (i < nc)%nat -> (f < nf)%nat ->
              mus (S j) i f = if trained "m"%char then (w * m0 i f + tot (fun o => xval o f) i) / (w + occ i) else mus j i f)
         /\ (trained "c"%char = true -> if tied then 0 < a + sumn nc n else forall i, (i < nc)%nat -> 0 < a + n i)
         /\ (forall i f g, (i < nc)%nat -> (f < nf)%nat -> (g < nf)%nat ->
              Ss (S j) i f g = if trained "c"%char then
                                 if tied then (cp f g + sumn nc (fun q => K q f g)) / (a + sumn nc n)
                                 else (cp f g + K i f g) / (a + n i)
                               else Ss j i f g))
    /\ (forall j, (j < k)%nat ->
         (trained "c"%char = true -> trained "m"%char = true /\ forall i, (i < nc)%nat -> pos_def nf (Ss (S j) i)) ->
         data_loglik nc (pis j) (As j) (b j) ls x + log_dirichlet nc sp (pis j)
              + sumn nc (fun i => log_dirichlet nc (tp i) (As j i))
              + full_logprior (ga_type (h_em h)) nc nf m0 cp w a (mus j) (Es j) (Ps j)
            <= data_loglik nc (pis (S j)) (As (S j)) (b (S j)) ls x + log_dirichlet nc sp (pis (S j))
              + sumn nc (fun i => log_dirichlet nc (tp i) (As (S j) i))
              + full_logprior (ga_type (h_em h)) nc nf m0 cp w a (mus (S j)) (Es (S j)) (Ps (S j))).
  Proof.
    intros Hf.
    destruct (gen_monotone gaussian nc (finite_row nf) (full_good nc nf m0 cp w a V) (gauss_fp nf) V
               TR ls x Hd sp tp Hsp Htp h h1 pi A full_model_check full_tstate HP
               (full_W nc nf m0 cp w a) (full_pen nc nf m0 cp w a) h' ev
               (full_improves nc nf Hnc Hnf m0 cp w a Hw0 Hcp V) Hp1 HA1 Hf) as (pis & As & ps & TG).
    exists pis, As, (fun j => ga_mu (ps j)), (fun j => ga_S (ps j)), (fun j => ga_E nf (ps j)), (fun j => ga_P nf (ps j)),
      (fun j => gauss_fp nf (ps j)). cbv zeta. set (k := length (m_history (h_mon h'))) in *.
    pose proof (fun j Hj => tg_st _ _ _ _ _ _ _ _ _ _ _ _ _ _ _ _ _ _ TG j Hj) as Hst. fold k in Hst.
    assert (Hgood : forall j, (j <= k)%nat -> full_good nc nf m0 cp w a V (h_cfg h) (Some nf) (ps j))
      by (intros j Hj; apply (Hst j Hj)).
    assert (Hw : forall j, (j <= k)%nat -> good_weights nc (finite_row nf) (gauss_fp nf (ps j))
                   (map (fun c => (c, seq_post nc (pis j) (As j) (gauss_fp nf (ps j)) c)) (chunks ls x))).
    { intros j Hj. exact (wpairs_good gaussian nc (finite_row nf) (full_good nc nf m0 cp w a V) (gauss_fp nf) V
               TR ls x Hd _ (pis j) (As j) (Hst j Hj)). }
    set (L := fun j => map (fun c => (c, seq_post nc (pis j) (As j) (gauss_fp nf (ps j)) c)) (chunks ls x)) in *.
    assert (Hvis : forall j, (j <= k)%nat -> V = true -> visited nc (L j)) by (intros j Hj; apply (Hst j Hj)).
    assert (Hdm : forall j, (j < k)%nat -> _) by
      (intros j Hj; exact (full_dm nc nf m0 cp w a Hw0 V (h_cfg h) (Some nf) (ps j) (L j) (Hgood j ltac:(lia)) (Hw j ltac:(lia)) (Hvis j ltac:(lia)))).
    assert (Hdc : forall j, (j < k)%nat -> _) by
      (intros j Hj; exact (full_dc nc nf m0 cp w a Ha0 V (h_cfg h) (Some nf) (ps j) (L j) (Hgood j ltac:(lia)) (Hw j ltac:(lia)) (Hvis j ltac:(lia)))).
    assert (Hnew : forall j, (j < k)%nat -> ps (S j) = full_new nc nf m0 cp w a (h_cfg h) (ps j) (L j)).
    { intros j Hj.
      destruct (full_step0 nc nf Hnc Hnf m0 cp w a V (h_cfg h) (Some nf) (ps j) (L j) (ts_nc _ _ _ _ _ _ _ _ _ full_tstate)
                 (Hgood j ltac:(lia)) (Hw j ltac:(lia)) (Hdm j Hj) (Hdc j Hj)) as (st' & S1 & S2).
      destruct (tg_step _ _ _ _ _ _ _ _ _ _ _ _ _ _ _ _ _ _ TG j Hj) as (st & T1 & T2).
      cbn [h1 with_em h_cfg h_nfeat] in T1, T2. fold (L j) in T1. rewrite S1 in T1. injection T1 as <-.
      rewrite S2 in T2. injection T2 as T2. symmetry. exact T2. }
    assert (Hty : forall j, (j <= k)%nat -> ga_type (ps j) = ga_type (h_em h)).
    { induction j as [|j IH]; intros Hj.
      - rewrite (tg_p _ _ _ _ _ _ _ _ _ _ _ _ _ _ _ _ _ _ TG). reflexivity.
      - rewrite (Hnew j ltac:(lia)). unfold full_new. cbn [ga_set ga_type]. apply IH. lia. }
    split; [apply TG|]. split; [apply TG|].
    split.
    { intros i f Hi Hf'. rewrite (tg_p _ _ _ _ _ _ _ _ _ _ _ _ _ _ _ _ _ _ TG). apply (ga_mu_fm h nc nf pi A mu Sg FM); assumption. }
    split.
    { intros i f g Hi Hf' Hg'. rewrite (tg_p _ _ _ _ _ _ _ _ _ _ _ _ _ _ _ _ _ _ TG). apply (ga_S_fm h nc nf pi A mu Sg FM); assumption. }
    split; [apply TG|]. split; [apply TG|].
    pose proof (tg_em _ _ _ _ _ _ _ _ _ _ _ _ _ _ _ _ _ _ TG) as Eem. fold k in Eem. rewrite Eem.
    split; [apply (Hgood k (le_n _))|].
    split.
    { destruct (fg_covars _ _ _ _ _ _ _ _ _ _ (Hgood k (le_n _))) as (cv & E & Hcv). exists cv. split; [exact E|].
      rewrite Hty in Hcv by lia. exact Hcv. }
    split; [apply Hty; lia|].
    split; [rewrite (tg_nf _ _ _ _ _ _ _ _ _ _ _ _ _ _ _ _ _ _ TG); reflexivity|].
    split; [rewrite (tg_cfg _ _ _ _ _ _ _ _ _ _ _ _ _ _ _ _ _ _ TG); apply FM|].
    split.
    { intros j Hj. pose proof (fg_psd _ _ _ _ _ _ _ _ _ _ (Hgood j Hj)) as Hpsd. split; [apply (effm_densities nc nf (ga_mu (ps j)) (ga_S (ps j))); exact Hpsd|].
      intros i Hi. split; [apply Hpsd; exact Hi|]. split; [apply effm_scoring, Hpsd, Hi|]. split; [apply invm_ok, effm_pd, Hpsd, Hi|].
      intros o. apply mvnf_ok, effm_pd, Hpsd, Hi. }
    split; [intros j Hj; apply (tg_hist _ _ _ _ _ _ _ _ _ _ _ _ _ _ _ _ _ _ TG j Hj)|].
    assert (Eocc : forall j i, wsum (L j) (fun _ _ => 1) i = occupancy nc (pis j) (As j) (gauss_fp nf (ps j)) (chunks ls x) i)
        by (intros; unfold L; apply wsum_occupancy).
    assert (Est : forall j i, st_n (h_cfg h) (L j) i = if has "m" (c_params (h_cfg h)) then occupancy nc (pis j) (As j) (gauss_fp nf (ps j)) (chunks ls x) i else 0)
        by (intros j i; unfold st_n; rewrite Eocc; reflexivity).
    split.
    - intros j Hj.
      split.
      { intros i Hi. rewrite <- Eocc. split.
        - apply (wsum_nonneg (L j) _ i (finite_row nf)); [apply (good_weights_nn nc _ _ (L j) i (Hw j ltac:(lia)) Hi)|]. intros; lra.
        - split.
          + intros HVt. apply (visited_occ nc _ _ (L j) i (Hw j ltac:(lia)) (Hvis j ltac:(lia) HVt) Hi).
          + intros phi Hphi. rewrite <- (wsum_posteriors nc (pis j) (As j) (gauss_fp nf (ps j)) (chunks ls x) phi i). fold (L j).
            apply (wsum_nonneg (L j) _ i (finite_row nf)); [apply (good_weights_nn nc _ _ (L j) i (Hw j ltac:(lia)) Hi)|].
            intros; apply Hphi. }
      assert (Etot : forall f i, wsum (L j) (xf f) i
                = weighted_total nc (pis j) (As j) (gauss_fp nf (ps j)) (chunks ls x) (fun o => xval o f) i)
        by (intros f i; unfold L, xf; apply (wsum_posteriors nc (pis j) (As j) (gauss_fp nf (ps j)) (chunks ls x) (fun o => xval o f))).
      assert (Etot2 : forall f g i, wsum (L j) (xx f g) i
                = weighted_total nc (pis j) (As j) (gauss_fp nf (ps j)) (chunks ls x) (fun o => xval o f * xval o g) i)
        by (intros f g i; unfold L, xx; apply (wsum_posteriors nc (pis j) (As j) (gauss_fp nf (ps j)) (chunks ls x) (fun o => xval o f * xval o g))).
      assert (Hmu : forall i f, (i < nc)%nat -> (f < nf)%nat -> ga_mu (ps (S j)) i f = fmu_new m0 w (h_cfg h) (ps j) (L j) i f)
        by (intros i f Hi Hf'; rewrite (Hnew j Hj); apply fga_mu_new; assumption).
      split; [|split].
      + intros i f Hi Hf'. rewrite Hmu by assumption. unfold fmu_new, fmean, st_n, st_s.
        destruct (has "m" (c_params (h_cfg h))); [rewrite Eocc, Etot|]; reflexivity.
      + intros Hcc. pose proof (Hdc j Hj Hcc) as D. unfold cov_den in D. rewrite (Hty j ltac:(lia)) in D.
        destruct (String.eqb (ga_type (h_em h)) "tied").
        * rewrite <- (sumn_ext nc _ _ (fun i _ => Est j i)). apply (D 0%nat Hnc).
        * intros i Hi. rewrite <- Est. apply D. exact Hi.
      + intros i f g Hi Hf' Hg'. rewrite (Hnew j Hj) at 1.
        rewrite (ga_S_new nc nf m0 cp w a V (h_cfg h) (Some nf)) by (try assumption; apply Hgood; lia).
        unfold S_new. destruct (has "c" (c_params (h_cfg h))) eqn:Hcc; [|reflexivity]. unfold upd_cov.
        rewrite (Hty j ltac:(lia)).
        assert (Esc : forall q, (q < nc)%nat ->
          scatm m0 w (st_n (h_cfg h) (L j)) (st_s (h_cfg h) (L j)) (st_qq (h_cfg h) (L j)) (fmu_new m0 w (h_cfg h) (ps j) (L j)) q f g
          = w * ((ga_mu (ps (S j)) q f - m0 q f) * (ga_mu (ps (S j)) q g - m0 q g))
            + weighted_total nc (pis j) (As j) (gauss_fp nf (ps j)) (chunks ls x) (fun o =>
                if has "m" (c_params (h_cfg h)) then (xval o f - ga_mu (ps (S j)) q f) * (xval o g - ga_mu (ps (S j)) q g)
                else xval o f * xval o g) q).
        { intros q Hq. unfold scatm, st_n, st_s, st_qq. rewrite Hcc, <- (Hmu q f Hq Hf'), <- (Hmu q g Hq Hg'), Etot2.
          destruct (has "m" (c_params (h_cfg h))); [rewrite Eocc, !Etot, weighted_prod|]; ring. }
        destruct (String.eqb (ga_type (h_em h)) "tied").
        * f_equal; [f_equal; apply sumn_ext; intros q Hq; apply Esc; exact Hq|f_equal; apply sumn_ext; intros q Hq; apply Est].
        * f_equal; [f_equal; apply Esc; exact Hi|f_equal; apply Est].
    - intros j Hj HW.
      pose proof (tg_gain _ _ _ _ _ _ _ _ _ _ _ _ _ _ _ _ _ _ TG j Hj) as G.
      cbn [h1 with_em h_cfg h_nfeat] in G. fold (L j) in G.
      assert (Epen : forall q, (q <= k)%nat -> full_logprior (ga_type (h_em h)) nc nf m0 cp w a (ga_mu (ps q)) (ga_E nf (ps q)) (ga_P nf (ps q))
                = full_pen nc nf m0 cp w a (ps q)).
      { intros q Hq. unfold full_pen, full_logprior, prior_scat. rewrite (Hty q Hq). reflexivity. }
      rewrite !Epen by lia. apply G. split.
      + exact (Hdm j Hj).
      + intros Hc. destruct (HW Hc) as [Hm HS]. split; [exact Hm|]. intros i Hi. split; [apply Hdc; assumption|].
        apply (pos_def_ext nf (ga_S (ps (S j)) i)); [|apply HS; exact Hi].
        intros f g Hf' Hg'. rewrite (Hnew j Hj). apply (ga_S_new nc nf m0 cp w a V (h_cfg h) (Some nf)); try assumption. apply Hgood; lia.
  Qed.
End FullFit.
