(** * GaussianHMM with full or tied covariances: properties C02, C14, C25, C64,
    C65. *)
From Verif Require Export Full_fit.

(** What the M-step needs in order not to divide by zero: every state is used by
    the data, or the priors have positive weight. *)
Definition full_used (h : hmm gaussp) (w a : R) (used : Prop) : Prop :=
  (has "m" (c_params (h_cfg h)) = true -> used \/ 0 < w)
  /\ (has "c" (c_params (h_cfg h)) = true -> 0 < a \/ (has "m" (c_params (h_cfg h)) = true /\ used)).

Lemma full_used_V h w a used : full_used h w a used ->
  exists V, (has "m" (c_params (h_cfg h)) = true -> V = true \/ 0 < w)
    /\ (has "c" (c_params (h_cfg h)) = true -> 0 < a \/ (has "m" (c_params (h_cfg h)) = true /\ V = true))
    /\ (V = true -> used).
Proof.
  intros [H1 H2]. destruct (has "m" (c_params (h_cfg h))); destruct (has "c" (c_params (h_cfg h))).
  - destruct (H2 eq_refl) as [Ha|[_ U]]; [|exists true; auto]. destruct (H1 eq_refl) as [U|Hw]; [exists true|exists false]; auto.
    repeat split; auto. discriminate.
  - destruct (H1 eq_refl) as [U|Hw]; [exists true|exists false]; repeat split; auto; discriminate.
  - destruct (H2 eq_refl) as [Ha|[Hm _]]; [|discriminate]. exists false. repeat split; auto; discriminate.
  - exists false. repeat split; discriminate.
Qed.

(** ** C02 *)
Lemma C02_gaussian_full_ready_l h nc nf pi A mu Sg : full_model h nc nf pi A mu Sg ->
  (exists b, normal_densities nc nf mu Sg b)
  /\ forall b, normal_densities nc nf mu Sg b -> ready gaussian h nc pi A (finite_row nf) b.
Proof.
  intros FM. split; [eexists; apply effm_densities; apply FM|]. intros b D. exact (full_ready h nc nf pi A mu Sg FM b D).
Qed.

Section Given.
  Variables (h : hmm gaussp) (nc nf : nat) (pi : nat -> R) (A mu : nat -> nat -> R) (Sg : nat -> nat -> nat -> R).
  Variables (ls : list nat) (x : list vec) (b : vec -> nat -> R).
  Hypothesis FM : full_model h nc nf pi A mu Sg.
  Hypothesis Hd : good_data (finite_row nf) ls x.
  Hypothesis D : normal_densities nc nf mu Sg b.
  Let B := fun o i => mvnf nf (mu i) (effm nf (Sg i)) o.
  Let Eb : forall o i, finite_row nf o -> (i < nc)%nat -> b o i = B o i :=
    fun o i _ Hi => densities_eff nc nf mu Sg b (fum_psd _ _ _ _ _ _ _ FM) D o i Hi.
  Lemma given_possible : possible nc pi A b ls x -> possible nc pi A B ls x.
  Proof. intros H. exact (possible_ext (finite_row nf) nc pi A b B Eb ls x Hd H). Qed.
  Lemma given_used : all_used nc pi A b (chunks ls x) -> all_used nc pi A B (chunks ls x).
  Proof. intros H. exact (all_used_ext (finite_row nf) nc pi A b B Eb ls x Hd H). Qed.
End Given.

(** ** C25 *)
Lemma C25_gaussian_full_l h nc nf pi A mu Sg m0 cp w a sp tp ls x b h' ev :
  full_model h nc nf pi A mu Sg -> full_hyper h nc nf m0 cp w a ->
  priors (h_cfg h) nc sp tp -> (forall i, (i < nc)%nat -> 1 <= sp i) ->
  (forall i j, (i < nc)%nat -> (j < nc)%nat -> 1 <= tp i j) ->
  good_data (finite_row nf) ls x -> normal_densities nc nf mu Sg b -> possible nc pi A b ls x ->
  full_used h w a (all_used nc pi A b (chunks ls x)) ->
  fit_from gaussian exact h x (as_lengths ls) = Ok (h', ev) ->
  fit_from gaussian exact (with_cfg (cfg_impl "log") h) x (as_lengths ls) = Ok (with_cfg (cfg_impl "log") h', ev).
Proof.
  intros FM Hh HP Hsp Htp Hd D Hpos Hu. destruct (full_used_V _ _ _ _ Hu) as (V & V1 & V2 & V3).
  exact (full_same_training h nc nf pi A mu Sg m0 cp w a FM Hh ls x Hd
    (given_possible h nc nf pi A mu Sg ls x b FM Hd D Hpos) V V1 V2
    (fun e => given_used h nc nf pi A mu Sg ls x b FM Hd D (V3 e)) sp tp Hsp Htp HP h' ev).
Qed.

(** ** C14 *)
Lemma C14_gaussian_full_l h nc nf pi A mu Sg ls x b st lp :
  full_model h nc nf pi A mu Sg -> good_data (finite_row nf) ls x -> h_nfeat h = Some nf ->
  normal_densities nc nf mu Sg b ->
  has "m" (c_params (h_cfg h)) = true -> has "c" (c_params (h_cfg h)) = true ->
  (forall c, In c (chunks ls x) -> scorable nc pi A b (c_impl (h_cfg h)) c) ->
  do_estep gaussian exact h (fvec nc pi) (fmat nc nc A) x (as_lengths ls) = Ok (st, lp) ->
  let occ := occupancy nc pi A b (chunks ls x) in
  let tot := weighted_total nc pi A b (chunks ls x) in
  gs_post (st_em st) = fvec nc occ /\ sumn nc occ = INR (length x)
  /\ gs_obs (st_em st) = fmat nc nf (fun i f => tot (fun o => xval o f) i)
  /\ gs_obsT (st_em st) = tab nc (fun i => fmat nf nf (fun f g => tot (fun o => xval o f * xval o g) i)).
Proof.
  intros FM Hd Hnf D Hm Hc Hs H occ tot.
  assert (Tr : trainable gaussian h nc pi A (finite_row nf) b).
  { pose proof (densities_eff nc nf mu Sg b (fum_psd _ _ _ _ _ _ _ FM) D) as Eb.
    pose proof (fum_base _ _ _ _ _ _ _ FM) as []. constructor; try assumption.
    destruct h as [c nfe s t m p]. destruct (fum_covars _ _ _ _ _ _ _ FM) as (cv & E & Hcv).
    pose proof (full_emits0 nc nf bo_pos (fum_nf _ _ _ _ _ _ _ FM) c nfe p s t m mu Sg cv bo_nc (fum_means _ _ _ _ _ _ _ FM) E Hcv
      (fum_psd _ _ _ _ _ _ _ FM)) as [E1 E2 E3 E4].
    assert (Eo : forall x t i, (t < length x)%nat -> (i < nc)%nat -> obsB (fun o i => mvnf nf (mu i) (effm nf (Sg i)) o) x t i = obsB b x t i).
    { intros y u i Ht Hi. destruct y as [|d y0]; [simpl in Ht; lia|]. rewrite !(obsB_nth _ (d :: y0) d) by exact Ht. symmetry. apply Eb. exact Hi. }
    constructor.
    - intros y Hy. rewrite E1 by exact Hy. f_equal. apply mtab_ext. intros u i Hu' Hi. rewrite Eo by assumption. reflexivity.
    - intros y Hy. rewrite E2 by exact Hy. f_equal. apply fmat_ext. intros; apply Eo; assumption.
    - intros o i Ho Hi. rewrite Eb by exact Hi. apply E3; assumption.
    - exact E4. }
  rewrite (do_estep_spec gaussian h nc pi A _ _ Tr ls x Hd Hs) in H.
  rewrite em_fold_all in H. set (l := map (fun c => (c, seq_post nc pi A b c)) (chunks ls x)) in *.
  destruct (good_data_chunks _ ls x Hd) as (_ & _ & Hch). rewrite Forall_forall in Hch.
  assert (Hl : forall y w, In (y, w) l -> y <> [] /\ Forall (finite_row nf) y).
  { intros y g Hy. apply in_map_iff in Hy as (c & Heq & Hy). injection Heq as -> _. apply Hch. exact Hy. }
  destruct (fum_covars _ _ _ _ _ _ _ FM) as (cv & E & Hcv). destruct (mcov_type _ _ _ _ _ Hcv) as (T1 & T2 & _).
  cbn [gaussian ec_stats0] in H. unfold gauss_stats0 in H. rewrite (tr_nc _ _ _ _ _ _ _ Tr), Hnf, T2 in H.
  change (tab nc (fun _ => Fin 0)) with (fvec nc (fun _ => 0)) in H.
  change (mtab nc nf (fun _ _ => Fin 0)) with (fmat nc nf (fun _ _ => 0)) in H.
  change (mtab nf nf (fun _ _ => Fin 0)) with (fmat nf nf (fun _ _ => 0)) in H.
  fold gaussian in H. rewrite (full_acc_all nc nf (bo_pos _ _ _ _ (fum_base _ _ _ _ _ _ _ FM)) (fum_nf _ _ _ _ _ _ _ FM) (h_cfg h) (Some nf) (h_em h) l _ _ (fun _ _ _ => 0)) in H by (first [exact Hl|exact T1|exact T2]).
  rewrite Hm, Hc in H. cbn [bind] in H. injection H as <- <-.
  cbn [st_em gs_post gs_obs gs_obsT]. split; [|split; [|split]].
  - apply fvec_ext. intros i Hi. unfold l. rewrite wsum_occupancy. unfold occ. ring.
  - apply (occupancy_total (finite_row nf)); try apply Tr; try exact Hd.
    intros c Hin. destruct (Hch c Hin) as [Hne Hok].
    apply (scorable_lik gaussian h nc pi A (finite_row nf) b (c_impl (h_cfg h)) c Tr Hne (Hs c Hin)).
  - apply fmat_ext. intros i f Hi Hf. unfold l, xf.
    rewrite (wsum_posteriors nc pi A b (chunks ls x) (fun o => xval o f) i). unfold tot. ring.
  - apply tab_ext. intros i Hi. apply fmat_ext. intros f g Hf Hg. unfold l, xx.
    rewrite (wsum_posteriors nc pi A b (chunks ls x) (fun o => xval o f * xval o g) i). unfold tot. ring.
Qed.

(** ** C64: the update of means and covariances. *)
(** Trajectories of all parameters of a trained model, and the emission
    densities [b j] in force during iteration [j]. *)
Definition full_traj (h : hmm gaussp) nc nf pi A mu Sg (h' : hmm gaussp)
    (pis : nat -> nat -> R) (As mus : nat -> nat -> nat -> R) (Ss : nat -> nat -> nat -> nat -> R) (b : nat -> vec -> nat -> R) : Prop :=
  let k := length (m_history (h_mon h')) in
  pis 0%nat = pi /\ As 0%nat = A
  /\ (forall i f, (i < nc)%nat -> (f < nf)%nat -> mus 0%nat i f = mu i f)
  /\ (forall i f g, (i < nc)%nat -> (f < nf)%nat -> (g < nf)%nat -> Ss 0%nat i f g = Sg i f g)
  /\ h_start h' = Some (fvec nc (pis k)) /\ h_trans h' = Some (fmat nc nc (As k))
  /\ ga_means (h_em h') = Some (fmat nc nf (mus k))
  /\ (exists cv, ga_covars (h_em h') = Some cv /\ mcov nc nf (Ss k) (ga_type (h_em h)) cv)
  /\ forall j, (j <= k)%nat -> normal_densities nc nf (mus j) (Ss j) (b j).

Lemma psd_sum_pd nf (A : nat -> nat -> R) (K : nat -> nat -> R) M : 0 < M -> pos_def nf A -> pos_semidef nf K ->
  pos_def nf (fun f g => (A f g + K f g) / M).
Proof.
  intros HM [A1 A2] [K1 K2]. split.
  - intros k m Hk Hm. rewrite (A1 k m Hk Hm), (K1 k m Hk Hm). reflexivity.
  - intros v Hv.
    rewrite (quad_ext nf _ (fun k m => (0 + / M * A k m) + / M * K k m) v v) by (intros; first [reflexivity|unfold Rdiv; ring]).
    rewrite (quad_lin nf (fun k m => 0 + / M * A k m) K), (quad_lin nf (fun _ _ => 0) A).
    assert (Z : quad nf (fun _ _ => 0) v = 0) by (unfold quad; apply sumn_zero; intros; apply sumn_zero; intros; ring).
    rewrite Z. specialize (A2 v Hv). specialize (K2 v). pose proof (Rinv_0_lt_compat M HM).
    assert (0 < / M * quad nf A v) by (apply Rmult_lt_0_compat; lra). assert (0 <= / M * quad nf K v) by (apply Rmult_le_pos; lra). lra.
Qed.

(** A weighted scatter is positive semi-definite. *)
Lemma tot_scatter_psd nc pi A b (xs : list (list vec)) nf i (c : nat -> R) :
  (forall phi, (forall o, 0 <= phi o) -> 0 <= weighted_total nc pi A b xs phi i) ->
  pos_semidef nf (fun f g => weighted_total nc pi A b xs (fun o => (xval o f - c f) * (xval o g - c g)) i).
Proof.
  intros Hnn. split.
  - intros k m Hk Hm. rewrite <- !wsum_posteriors. apply (wsum_ext _ _ _ i (fun _ => True)); [intros y g _; apply Forall_forall; trivial|].
    intros; ring.
  - intros v. set (L := map (fun c => (c, seq_post nc pi A b c)) xs).
    assert (E : quad nf (fun f g => weighted_total nc pi A b xs (fun o => (xval o f - c f) * (xval o g - c g)) i) v
      = weighted_total nc pi A b xs (fun o => (sumn nf (fun f => v f * (xval o f - c f))) ^ 2) i).
    { rewrite <- wsum_posteriors. fold L. unfold quad.
      transitivity (sumn nf (fun f => wsum L (fun o _ => sumn nf (fun g => (v f * v g) * ((xval o f - c f) * (xval o g - c g)))) i)).
      - apply sumn_ext. intros f Hf. rewrite (wsum_sumn L nf (fun g o _ => (v f * v g) * ((xval o f - c f) * (xval o g - c g))) i).
        apply sumn_ext. intros g Hg. rewrite (wsum_scal L (v f * v g) (fun o _ => (xval o f - c f) * (xval o g - c g)) i).
        rewrite <- wsum_posteriors. fold L. ring.
      - rewrite <- (wsum_sumn L nf (fun f o _ => sumn nf (fun g => (v f * v g) * ((xval o f - c f) * (xval o g - c g)))) i).
        apply (wsum_ext L _ _ i (fun _ => True)); [intros y g _; apply Forall_forall; trivial|]. intros o _.
        replace (sumn nf (fun f => v f * (xval o f - c f)) ^ 2) with (sumn nf (fun f => v f * (xval o f - c f)) * sumn nf (fun f => v f * (xval o f - c f))) by ring.
        rewrite <- sumn_scal_r. apply sumn_ext. intros f Hf. rewrite <- sumn_scal_l. apply sumn_ext. intros; ring. }
    rewrite E. apply Hnn. intros; apply pow2_ge_0.
Qed.

Lemma outer_psd nf w (d : nat -> R) : 0 <= w -> pos_semidef nf (fun f g => w * (d f * d g)).
Proof.
  intros Hw. split; [intros k m _ _; ring|]. intros v. rewrite quad_frob, frob_scal, <- quad_frob, quad_outer.
  apply Rmult_le_pos; [exact Hw|]. apply Rle_0_sqr.
Qed.
Lemma psd_plus nf (A B : nat -> nat -> R) : pos_semidef nf A -> pos_semidef nf B -> pos_semidef nf (fun f g => A f g + B f g).
Proof.
  intros [A1 A2] [B1 B2]. split; [intros k m Hk Hm; rewrite (A1 k m Hk Hm), (B1 k m Hk Hm); reflexivity|].
  intros v. rewrite quad_frob, frob_plus, <- !quad_frob. specialize (A2 v). specialize (B2 v). lra.
Qed.

Section C64.
  Variables (h : hmm gaussp) (nc nf : nat) (pi : nat -> R) (A mu : nat -> nat -> R) (Sg : nat -> nat -> nat -> R).
  Variables (m0 cp : nat -> nat -> R) (w a : R) (ls : list nat) (x : list vec) (b0 : vec -> nat -> R) (h' : hmm gaussp) (ev : list event).
  Hypothesis FM : full_model h nc nf pi A mu Sg.
  Hypothesis Hh : full_hyper h nc nf m0 cp w a.
  Hypothesis Hfl : flat_base h.
  Hypothesis Hp1 : sumn nc pi <= 1.
  Hypothesis HA1 : forall i, (i < nc)%nat -> sumn nc (A i) <= 1.
  Hypothesis Hd : good_data (finite_row nf) ls x.
  Hypothesis D : normal_densities nc nf mu Sg b0.
  Hypothesis Hpos : possible nc pi A b0 ls x.
  Hypothesis Hu : full_used h w a (all_used nc pi A b0 (chunks ls x)).
  Hypothesis Hfit : fit_from gaussian exact h x (as_lengths ls) = Ok (h', ev).

  Lemma C64_run : exists pis As mus Ss Es Ps b, full_traj h nc nf pi A mu Sg h' pis As mus Ss b /\
    let k := length (m_history (h_mon h')) in
    let trained ch := has ch (c_params (h_cfg h)) in
    let tied := String.eqb (ga_type (h_em h)) "tied" in
    ga_type (h_em h') = ga_type (h_em h) /\ h_nfeat h' = Some nf /\ c_nc (h_cfg h') = nc
    /\ (forall j, (j <= k)%nat -> forall i, (i < nc)%nat ->
          pos_semidef nf (Ss j i) /\ scoring_cov nf (Ss j i) (Es j i) /\ inverse nf (Es j i) (Ps j i)
          /\ forall o, mvn_density nf (mus j i) (Es j i) (xval o) (b j o i))
    /\ (forall j, (j < k)%nat -> nth j (m_history (h_mon h')) NaN = Fin (data_loglik nc (pis j) (As j) (b j) ls x))
    /\ (forall j, (j < k)%nat ->
         let occ := occupancy nc (pis j) (As j) (b j) (chunks ls x) in
         let tot phi := weighted_total nc (pis j) (As j) (b j) (chunks ls x) phi in
         let n i := if trained "m"%char then occ i else 0 in
         let K i f g := w * ((mus (S j) i f - m0 i f) * (mus (S j) i g - m0 i g))
                        + tot (fun o => if trained "m"%char then (xval o f - mus (S j) i f) * (xval o g - mus (S j) i g)
                                        else xval o f * xval o g) i in
         (forall i, (i < nc)%nat -> 0 <= occ i /\ forall phi, (forall o, 0 <= phi o) -> 0 <= tot phi i)
         /\ (forall i f, (i < nc)%nat -> (f < nf)%nat ->
              mus (S j) i f = if trained "m"%char then (w * m0 i f + tot (fun o => xval o f) i) / (w + occ i) else mus j i f)
         /\ (trained "c"%char = true -> if tied then 0 < a + sumn nc n else forall i, (i < nc)%nat -> 0 < a + n i)
         /\ (forall i f g, (i < nc)%nat -> (f < nf)%nat -> (g < nf)%nat ->
              Ss (S j) i f g = if trained "c"%char then
                                 if tied then (cp f g + sumn nc (fun q => K q f g)) / (a + sumn nc n)
                                 else (cp f g + K i f g) / (a + n i)
                               else Ss j i f g))
    /\ (forall j, (j < k)%nat ->
         (trained "c"%char = true -> trained "m"%char = true /\ forall i, (i < nc)%nat -> pos_def nf (Ss (S j) i)) ->
         data_loglik nc (pis j) (As j) (b j) ls x
              + full_logprior (ga_type (h_em h)) nc nf m0 cp w a (mus j) (Es j) (Ps j)
            <= data_loglik nc (pis (S j)) (As (S j)) (b (S j)) ls x
              + full_logprior (ga_type (h_em h)) nc nf m0 cp w a (mus (S j)) (Es (S j)) (Ps (S j))).
  Proof.
    destruct (full_used_V _ _ _ _ Hu) as (V & V1 & V2 & V3).
    destruct (full_run h nc nf pi A mu Sg m0 cp w a FM Hh ls x Hd
      (given_possible h nc nf pi A mu Sg ls x b0 FM Hd D Hpos) V V1 V2
      (fun e => given_used h nc nf pi A mu Sg ls x b0 FM Hd D (V3 e)) (fun _ => 1) (fun _ _ => 1)
      ltac:(intros; lra) ltac:(intros; lra) (flat_base_priors h nc Hfl) Hp1 HA1 h' ev Hfit)
      as (pis & As & mus & Ss & Es & Ps & b & R1 & R2 & R3 & R4 & R5 & R6 & R7 & R8 & R9 & R10 & R11 & R12 & R13 & R14 & R15).
    exists pis, As, mus, Ss, Es, Ps, b. split; [|split; [|split; [|split; [|split; [|split; [|split]]]]]].
    - unfold full_traj. split; [exact R1|]. split; [exact R2|]. split; [exact R3|]. split; [exact R4|]. split; [exact R5|]. split; [exact R6|].
      split; [exact R7|]. split; [exact R8|]. intros j Hj. apply (R12 j Hj).
    - exact R9.
    - exact R10.
    - exact R11.
    - intros j Hj. apply (R12 j Hj).
    - exact R13.
    - intros j Hj. destruct (R14 j Hj) as (S1 & S2). cbv zeta. split; [|exact S2].
      intros i Hi. destruct (S1 i Hi) as (T1 & _ & T3). split; assumption.
    - intros j Hj HW. pose proof (R15 j Hj HW) as G. rewrite !log_dirichlet_flat in G.
      rewrite !sumn_zero in G by (intros; apply log_dirichlet_flat). rewrite !Rplus_0_r in G. exact G.
  Qed.
End C64.

(** Means and covariances after each iteration, when both are trained. *)
Lemma C64_covariances_l h nc nf pi A mu Sg m0 cp w a ls x b0 h' ev :
  full_model h nc nf pi A mu Sg -> full_hyper h nc nf m0 cp w a -> flat_base h ->
  sumn nc pi <= 1 -> (forall i, (i < nc)%nat -> sumn nc (A i) <= 1) ->
  good_data (finite_row nf) ls x -> normal_densities nc nf mu Sg b0 -> possible nc pi A b0 ls x ->
  full_used h w a (all_used nc pi A b0 (chunks ls x)) ->
  has "m" (c_params (h_cfg h)) = true -> has "c" (c_params (h_cfg h)) = true ->
  fit_from gaussian exact h x (as_lengths ls) = Ok (h', ev) ->
  exists pis As mus Ss b, full_traj h nc nf pi A mu Sg h' pis As mus Ss b
  /\ forall j, (j < length (m_history (h_mon h')))%nat ->
       let occ := occupancy nc (pis j) (As j) (b j) (chunks ls x) in
       let tot := weighted_total nc (pis j) (As j) (b j) (chunks ls x) in
       let prior i f g := w * ((mus (S j) i f - m0 i f) * (mus (S j) i g - m0 i g)) in
       let scatter i f g := tot (fun o => (xval o f - mus (S j) i f) * (xval o g - mus (S j) i g)) i in
       forall i, (i < nc)%nat ->
         (forall f, (f < nf)%nat -> mus (S j) i f = (w * m0 i f + tot (fun o => xval o f) i) / (w + occ i))
         /\ (forall f g, (f < nf)%nat -> (g < nf)%nat ->
              (ga_type (h_em h) = "full"%string -> Ss (S j) i f g = (cp f g + (prior i f g + scatter i f g)) / (a + occ i))
              /\ (ga_type (h_em h) = "tied"%string ->
                  Ss (S j) i f g = (cp f g + sumn nc (fun q => prior q f g + scatter q f g)) / (a + sumn nc occ)))
         /\ pos_semidef nf (Ss (S j) i)
         /\ (pos_def nf cp -> pos_def nf (Ss (S j) i)).
Proof.
  intros FM Hh Hfl Hp1 HA1 Hd D Hpos Hu Hm Hc Hfit.
  destruct (C64_run h nc nf pi A mu Sg m0 cp w a ls x b0 h' ev FM Hh Hfl Hp1 HA1 Hd D Hpos Hu Hfit)
    as (pis & As & mus & Ss & Es & Ps & b & T & _ & _ & _ & R1 & _ & R2 & _).
  exists pis, As, mus, Ss, b. split; [exact T|]. intros j Hj occ tot prior scatter i Hi.
  specialize (R2 j Hj). rewrite Hm, Hc in R2. destruct R2 as (S1 & S2 & S3 & S4). specialize (S3 eq_refl).
  assert (Hty : ga_type (h_em h) = "tied"%string \/ ga_type (h_em h) = "full"%string).
  { destruct (fum_covars _ _ _ _ _ _ _ FM) as (cv & _ & Hcv). destruct Hcv; auto. }
  split; [intros f Hf; rewrite S2 by assumption; reflexivity|]. split; [|split].
  - intros f g Hf Hg. split; intros Et; rewrite S4 by assumption; rewrite Et; reflexivity.
  - apply R1; [lia|exact Hi].
  - intros Pcp. assert (Kpsd : forall q, (q < nc)%nat -> pos_semidef nf (fun f g => prior q f g + scatter q f g)).
    { intros q Hq. apply (psd_plus nf (prior q) (scatter q)); [apply (outer_psd nf w (fun f => mus (S j) q f - m0 q f)), Hh|].
      apply (tot_scatter_psd nc (pis j) (As j) (b j) (chunks ls x) nf q (mus (S j) q)). apply (S1 q Hq). }
    destruct Hty as [Et|Et]; rewrite Et in S3, S4; cbn [String.eqb Ascii.eqb Bool.eqb] in S3, S4.
    + apply (pos_def_ext nf (fun f g => (cp f g + sumn nc (fun q => prior q f g + scatter q f g)) / (a + sumn nc occ)));
        [intros; rewrite S4 by assumption; reflexivity|].
      apply (psd_sum_pd nf cp (fun f g => sumn nc (fun q => prior q f g + scatter q f g))); [exact S3|exact Pcp|].
      apply (psd_sum nf (fun q f g => prior q f g + scatter q f g)). exact Kpsd.
    + apply (pos_def_ext nf (fun f g => (cp f g + (prior i f g + scatter i f g)) / (a + occ i)));
        [intros; rewrite S4 by assumption; reflexivity|].
      apply (psd_sum_pd nf cp (fun f g => prior i f g + scatter i f g)); [apply S3; exact Hi|exact Pcp|]. apply Kpsd. exact Hi.
Qed.

(** ** C65: the penalised likelihood. *)
Lemma C65_full_monotone_l h nc nf pi A mu Sg m0 cp w a ls x b0 h' ev :
  full_model h nc nf pi A mu Sg -> full_hyper h nc nf m0 cp w a -> flat_base h ->
  sumn nc pi <= 1 -> (forall i, (i < nc)%nat -> sumn nc (A i) <= 1) ->
  good_data (finite_row nf) ls x -> normal_densities nc nf mu Sg b0 -> possible nc pi A b0 ls x ->
  full_used h w a (all_used nc pi A b0 (chunks ls x)) ->
  fit_from gaussian exact h x (as_lengths ls) = Ok (h', ev) ->
  exists pis As mus Ss Es Ps b, full_traj h nc nf pi A mu Sg h' pis As mus Ss b
  /\ (forall j, (j <= length (m_history (h_mon h')))%nat -> forall i, (i < nc)%nat ->
        scoring_cov nf (Ss j i) (Es j i) /\ inverse nf (Es j i) (Ps j i))
  /\ let L j := data_loglik nc (pis j) (As j) (b j) ls x in
     let prior j := full_logprior (ga_type (h_em h)) nc nf m0 cp w a (mus j) (Es j) (Ps j) in
     forall j, (j < length (m_history (h_mon h')))%nat ->
       nth j (m_history (h_mon h')) NaN = Fin (L j)
       /\ ((has "c" (c_params (h_cfg h)) = true -> has "m" (c_params (h_cfg h)) = true
             /\ forall i, (i < nc)%nat -> pos_def nf (Ss (S j) i)) ->
           L j + prior j <= L (S j) + prior (S j)
           /\ (w = 0 -> a = 0 -> (forall f g, cp f g = 0) -> L j <= L (S j))).
Proof.
  intros FM Hh Hfl Hp1 HA1 Hd D Hpos Hu Hfit.
  destruct (C64_run h nc nf pi A mu Sg m0 cp w a ls x b0 h' ev FM Hh Hfl Hp1 HA1 Hd D Hpos Hu Hfit)
    as (pis & As & mus & Ss & Es & Ps & b & T & _ & _ & _ & R1 & R0 & _ & R2).
  exists pis, As, mus, Ss, Es, Ps, b. split; [exact T|]. split.
  { intros j Hj i Hi. destruct (R1 j Hj i Hi) as (_ & H2 & H3 & _). split; assumption. }
  intros L prior j Hj. split; [apply R0; exact Hj|]. intros HW. pose proof (R2 j Hj HW) as G.
  split; [exact G|]. intros Hw0 Ha0 Hcp0.
  assert (Z : forall m E P, full_logprior (ga_type (h_em h)) nc nf m0 cp w a m E P = 0).
  { intros m E P. unfold full_logprior.
    assert (F0 : forall Q K, (forall f g, (f < nf)%nat -> (g < nf)%nat -> K f g = 0) -> frob nf Q K = 0).
    { intros Q K HK. unfold frob. apply sumn_zero. intros f Hf. apply sumn_zero. intros g Hg. rewrite HK by assumption. ring. }
    destruct (String.eqb _ _).
    - rewrite F0; [rewrite Ha0; lra|]. intros f g Hf Hg. rewrite Hcp0, sumn_zero; [ring|]. intros; rewrite Hw0; ring.
    - apply sumn_zero. intros i Hi. rewrite F0; [rewrite Ha0; lra|]. intros f g Hf Hg. rewrite Hcp0, Hw0. ring. }
  rewrite !Z, !Rplus_0_r in G. exact G.
Qed.
