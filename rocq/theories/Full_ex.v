(** * GaussianHMM with full or tied covariances: frozen means, concrete models
    and counterexamples. *)
From Verif Require Export Full_fit_thms Gauss_ex.

(** Entry of the covariance matrix of state [i] in the stored array. *)
Definition cov_entry (cv : covs) (i f g : nat) : xnum :=
  match cv with
  | CV3 ms => mget (nth i ms (Mat 0 [])) f g
  | CV2 m => mget m f g
  | CV1 _ => NaN
  end.

Lemma default_full_prior h nc nf c : gauss_default h c -> (0 < nf)%nat ->
  full_prior nc nf (fun _ _ => 0) (fun _ _ => c) 0 0 (h_em h).
Proof.
  intros (D1 & D2 & D3 & D4) Hnf. constructor.
  - rewrite D1. apply cast_scal.
  - exact D2.
  - rewrite D3. apply cast_scal.
  - unfold cweight_excess. rewrite D4. unfold py_max, exact. cbn [xsub xopp xadd].
    assert (1 <= INR nf) by (change 1 with (INR 1); apply le_INR; lia).
    cbn [xltb]. unfold Rltb. destruct (Rlt_dec (1 + - INR nf) 0); [reflexivity|]. do 2 f_equal. lra.
Qed.

Lemma const_psd nf c : 0 <= c -> pos_semidef nf (fun _ _ => c).
Proof.
  intros Hc. split; [intros k l _ _; reflexivity|]. intros v.
  rewrite (quad_ext nf _ (fun i j => c * ((fun _ => 1) i * (fun _ => 1) j)) v v) by (intros; first [reflexivity|ring]).
  rewrite quad_frob, frob_scal, <- quad_frob, (quad_outer nf (fun _ => 1)). apply Rmult_le_pos; [exact Hc|]. apply Rle_0_sqr.
Qed.

(** ** C36: covariances trained with frozen means. *)
Lemma xdiv_zero r : xisfin (xdiv exact (Fin r) (Fin 0)) = false.
Proof.
  unfold xdiv. destruct (Req_EM_T 0 0); [|contradiction].
  repeat match goal with |- context [if ?d then _ else _] => destruct d end; reflexivity.
Qed.

Lemma full_not_finite nc nf x mu (c : nat -> nat -> nat -> xnum) : (0 < nc)%nat -> (0 < nf)%nat ->
  xisfin (c 0%nat 0%nat 0%nat) = false ->
  exists m, lmnd_full exact x (fmat nc nf mu) (CV3 (tab nc (fun i => mtab nf nf (c i)))) = Err (ValueError m).
Proof.
  intros Hnc Hnf Hx. exists "array must not contain infs or NaNs"%string.
  unfold lmnd_full. rewrite rows_fmat. destruct nc as [|n]; [lia|]. rewrite combine_tab.
  unfold tab at 1. cbn [seq map mapM]. unfold lmnd_full1, cholesky. rewrite nrow_mtab.
  change (ncol (mtab nf nf (c 0%nat))) with nf. rewrite Nat.eqb_refl. cbn [negb].
  assert (E : forallb (forallb xisfin) (rows (mtab nf nf (c 0%nat))) = false).
  { destruct nf as [|q]; [lia|]. unfold mtab, tab. cbn [rows seq map forallb]. rewrite Hx. reflexivity. }
  rewrite E. reflexivity.
Qed.

(** Statement proved below for the result of one iteration. *)
Definition frozen_result nc nf (r : res (hmm gaussp * xnum)) : Prop :=
  match r with
  | Ok (h', _) =>
    (exists cv, ga_covars (h_em h') = Some cv
       /\ forall i f g, (i < nc)%nat -> (f < nf)%nat -> (g < nf)%nat -> xisfin (cov_entry cv i f g) = false)
    /\ forall y, y <> [] -> exists m, loglik gaussian exact h' y = Err (ValueError m)
  | Err _ => False
  end.
Lemma full_frozen h nc nf pi A mu Sg c ls x b :
  full_model h nc nf pi A mu Sg -> gauss_default h c -> h_nfeat h = Some nf ->
  good_data (finite_row nf) ls x -> normal_densities nc nf mu Sg b ->
  (forall ch, In ch (chunks ls x) -> scorable nc pi A b (c_impl (h_cfg h)) ch) ->
  has "m" (c_params (h_cfg h)) = false -> has "c" (c_params (h_cfg h)) = true ->
  frozen_result nc nf (em_step gaussian exact x (as_lengths ls) h).
Proof.
  intros FM GD Hnf Hd D Hs Hm Hc.
  pose proof (bo_pos _ _ _ _ (fum_base _ _ _ _ _ _ _ FM)) as Pnc. pose proof (fum_nf _ _ _ _ _ _ _ FM) as Pnf.
  assert (Tr : trainable gaussian h nc pi A (finite_row nf) b).
  { destruct (full_ready h nc nf pi A mu Sg FM b D) as [? ? ? ? ? ? (h1 & C1 & C2 & He)]. constructor; try assumption.
    assert (E1 : h1 = h); [|rewrite E1 in He; exact He].
    rewrite (full_model_check h nc nf pi A mu Sg FM) in C1. injection C1 as <-.
    destruct h as [cc nfe s t m p]. cbn [h_nfeat] in Hnf. subst nfe. reflexivity. }
  unfold em_step. rewrite (bo_start _ _ _ _ (fum_base _ _ _ _ _ _ _ FM)), (bo_trans _ _ _ _ (fum_base _ _ _ _ _ _ _ FM)).
  rewrite (do_estep_spec gaussian h nc pi A _ _ Tr ls x Hd Hs).
  rewrite em_fold_all. set (l := map (fun c => (c, seq_post nc pi A b c)) (chunks ls x)) in *.
  assert (Hl : forall y w, In (y, w) l -> y <> [] /\ Forall (finite_row nf) y).
  { intros y g Hy. apply in_map_iff in Hy as (ch & Heq & Hy). injection Heq as -> _.
    destruct (good_data_chunks _ ls x Hd) as (_ & _ & Hch). rewrite Forall_forall in Hch. apply Hch. exact Hy. }
  destruct (fum_covars _ _ _ _ _ _ _ FM) as (cv & E & Hcv). destruct (mcov_type _ _ _ _ _ Hcv) as (T1 & T2 & _).
  cbn [gaussian ec_stats0]. unfold gauss_stats0. rewrite (tr_nc _ _ _ _ _ _ _ Tr), Hnf, T2.
  change (tab nc (fun _ => Fin 0)) with (fvec nc (fun _ => 0)).
  change (mtab nc nf (fun _ _ => Fin 0)) with (fmat nc nf (fun _ _ => 0)).
  change (mtab nf nf (fun _ _ => Fin 0)) with (fmat nf nf (fun _ _ => 0)).
  fold gaussian. rewrite (full_acc_all nc nf Pnc Pnf (h_cfg h) (Some nf) (h_em h) l _ _ (fun _ _ _ => 0)) by (first [exact Hl|exact T1|exact T2]).
  rewrite Hm, Hc. cbn [bind]. unfold do_mstep. cbn [gaussian ec_mstep st_em]. unfold gauss_mstep.
  rewrite Hm, Hc, (fum_means _ _ _ _ _ _ _ FM), T1, T2, Hnf. cbn [bind].
  assert (Hty : ga_type (h_em h) = "tied"%string \/ ga_type (h_em h) = "full"%string) by (destruct Hcv; auto).
  rewrite (full_covars_raw nc nf Pnc Pnf (fun _ _ => 0) (fun _ _ => c) 0 0 (h_cfg h) (h_em h) (fun _ => 0) (fun _ _ => 0)
     (fun i k m => 0 + wsum l (xx k m) i)); [|apply FM|apply (default_full_prior h nc nf c GD Pnf)|exact Hty].
  assert (Z : 0 + sumn nc (fun _ => 0) = 0) by (rewrite sumn_zero by reflexivity; ring).
  rewrite Z, Rplus_0_r.
  destruct Hty as [Et|Et]; rewrite Et; cbn [String.eqb Ascii.eqb Bool.eqb].
  - unfold fmat at 1. rewrite mmap_mtab. cbn [bind]. cbn [frozen_result]. split.
    + eexists. split; [reflexivity|]. intros i f g Hi Hf Hg. cbn [cov_entry]. rewrite mget_mtab by assumption. apply xdiv_zero.
    + intros y Hy. unfold loglik. cbn [gaussian ec_loglik h_cfg h_nfeat h_em ga_set ga_means ga_covars ga_type]. unfold gauss_loglik.
      cbn [ga_set ga_means ga_covars ga_type]. rewrite Et. destruct y as [|o y0]; [contradiction|].
      set (cm := fun i j : nat => _).
      pose proof (C33_tied_is_full_l exact (o :: y0) (fmat nc nf mu) cm) as T. rewrite nrow_fmat, ncol_fmat in T.
      rewrite T. apply (full_not_finite nc nf (o :: y0) mu (fun _ => cm) Pnc Pnf). apply xdiv_zero.
  - rewrite (tab_ext nc (fun i => mmap (fun v => xdiv exact v (Fin 0))
       (fmat nf nf (fun k m => c + scatm (fun _ _ => 0) 0 (fun _ => 0) (fun _ _ => 0) (fun i k m => 0 + wsum l (xx k m) i) mu i k m)))
       (fun i => mtab nf nf (fun k m => xdiv exact (Fin (c + scatm (fun _ _ => 0) 0 (fun _ => 0) (fun _ _ => 0) (fun i k m => 0 + wsum l (xx k m) i) mu i k m)) (Fin 0))))
       by (intros; unfold fmat; apply mmap_mtab).
    cbn [bind]. cbn [frozen_result]. split.
    + eexists. split; [reflexivity|]. intros i f g Hi Hf Hg. cbn [cov_entry]. rewrite tab_nth by exact Hi.
      rewrite mget_mtab by assumption. apply xdiv_zero.
    + intros y Hy. unfold loglik. cbn [gaussian ec_loglik h_cfg h_nfeat h_em ga_set ga_means ga_covars ga_type]. unfold gauss_loglik.
      cbn [ga_set ga_means ga_covars ga_type]. rewrite Et. destruct y as [|o y0]; [contradiction|].
      apply (full_not_finite nc nf (o :: y0) mu); [exact Pnc|exact Pnf|apply xdiv_zero].
Qed.

Lemma C36_full_frozen_means_l h nc nf pi A mu Sg c ls x b :
  full_model h nc nf pi A mu Sg -> gauss_default h c -> h_nfeat h = Some nf ->
  good_data (finite_row nf) ls x -> normal_densities nc nf mu Sg b ->
  (forall ch, In ch (chunks ls x) -> scorable nc pi A b (c_impl (h_cfg h)) ch) ->
  has "m" (c_params (h_cfg h)) = false -> has "c" (c_params (h_cfg h)) = true ->
  exists h' v, em_step gaussian exact x (as_lengths ls) h = Ok (h', v)
  /\ (exists cv, ga_covars (h_em h') = Some cv
       /\ forall i f g, (i < nc)%nat -> (f < nf)%nat -> (g < nf)%nat -> xisfin (cov_entry cv i f g) = false)
  /\ forall y, y <> [] -> exists m, loglik gaussian exact h' y = Err (ValueError m).
Proof.
  intros FM GD Hnf Hd D Hs Hm Hc. pose proof (full_frozen h nc nf pi A mu Sg c ls x b FM GD Hnf Hd D Hs Hm Hc) as F.
  destruct (em_step gaussian exact x (as_lengths ls) h) as [[h' v]|e]; [|destruct F]. exists h', v. split; [reflexivity|exact F].
Qed.

(** ** Concrete models. *)
Definition ex_fu nc pi A ty params (cpr : parr) m cv : hmm gaussp :=
  Hmm (Cfg nc params "stmc" "map" "log" 1 (Fin (/ 100)) false (Scal (Fin 1)) (Scal (Fin 1))) None
      (Some (fvec nc pi)) (Some (fmat nc nc A)) (Monitor (Fin (/ 100)) 1 false [] 0)
      (Gaussp ty (Fin (/ 1000)) (Scal (Fin 0)) (Scal (Fin 0)) cpr (Scal (Fin 1)) (Some m) (Some cv)).

Section ExFit.
  Variables (nc nf : nat) (pi : nat -> R) (A mu : nat -> nat -> R) (Sg : nat -> nat -> nat -> R).
  Variables (ty params : string) (cpr : parr) (cp : nat -> nat -> R) (cv : covs).
  Let h := ex_fu nc pi A ty params cpr (fmat nc nf mu) cv.
  Hypothesis Hb : base_ok h nc pi A.
  Hypothesis Hnf : (0 < nf)%nat.
  Hypothesis Hcv : mcov nc nf Sg ty cv.
  Hypothesis HS : forall i, (i < nc)%nat -> pos_semidef nf (Sg i).
  Hypothesis Hcp : cast (pmat cpr) nf nf cp.
  Hypothesis Pcp : pos_semidef nf cp.
  Lemma ex_fu_model : full_model h nc nf pi A mu Sg.
  Proof. constructor; [exact Hb|exact Hnf|reflexivity| |exact HS]. exists cv. split; [reflexivity|exact Hcv]. Qed.
  Lemma ex_fu_hyper : full_hyper h nc nf (fun _ _ => 0) cp 0 0.
  Proof.
    split; [|split; [lra|split; [lra|exact Pcp]]]. constructor; [apply cast_scal|reflexivity|exact Hcp|].
    unfold cweight_excess, py_max, exact. cbn [h ex_fu h_em ga_cweight xsub xopp xadd].
    assert (1 <= INR nf) by (change 1 with (INR 1); apply le_INR; lia).
    cbn [xltb]. unfold Rltb. destruct (Rlt_dec (1 + - INR nf) 0); [reflexivity|]. do 2 f_equal. lra.
  Qed.
  Lemma ex_fu_flat : flat_base h.
  Proof. split; reflexivity. Qed.
  Variables (ls : list nat) (x : list vec) (b : vec -> nat -> R).
  Hypothesis D : normal_densities nc nf mu Sg b.
  Hypothesis Hd : good_data (finite_row nf) ls x.
  Hypothesis Hpos : possible nc pi A b ls x.
  Hypothesis Hm : has "m" params = true.
  Hypothesis Hu : all_used nc pi A b (chunks ls x).
  Lemma ex_fu_fit : exists h' ev, fit_from gaussian exact h x (as_lengths ls) = Ok (h', ev)
    /\ length (m_history (h_mon h')) = 1%nat.
  Proof.
    destruct (full_fit_log_ok h nc nf pi A mu Sg (fun _ _ => 0) cp 0 0 ex_fu_model ex_fu_hyper ls x Hd
      (given_possible h nc nf pi A mu Sg ls x b ex_fu_model Hd D Hpos) true ltac:(intros _; left; reflexivity)
      ltac:(intros _; right; split; [exact Hm|reflexivity])
      (fun _ => given_used h nc nf pi A mu Sg ls x b ex_fu_model Hd D Hu) (fun _ => 1) (fun _ _ => 1)
      ltac:(intros; lra) ltac:(intros; lra) (flat_base_priors h nc ex_fu_flat) eq_refl) as (h' & ev & H).
    exists h', ev. split; [exact H|].
    destruct (C23_stopping_and_history_l gaussian exact h x ls h' ev eq_refl eq_refl H) as (_ & H1 & H2 & _).
    cbn [h ex_fu h_cfg c_n_iter] in H1, H2. lia.
  Qed.
End ExFit.

(** Densities of the two-state data are positive, so posteriors are 0 or 1. *)
Section Sw.
  Variable b : vec -> nat -> R.
  Hypothesis Hb : forall o i, (i < 2)%nat -> 0 < b o i.
  Lemma swb_possible : possible 2 sw_pi sw_A b [2; 2]%nat sx.
  Proof. intros c [<-|[<-|[]]]; cbn [firstn skipn sx]; rewrite sw_lik; apply Rmult_lt_0_compat; apply Hb; lia. Qed.
  Lemma swb_used : all_used 2 sw_pi sw_A b (chunks [2; 2]%nat sx).
  Proof.
    intros i Hi. exists [[Fin 0; Fin 0]; [Fin 5; Fin 5]], i. split; [left; reflexivity|]. split; [exact Hi|].
    rewrite sw_post by (try (apply Hb; lia); assumption). rewrite Nat.eqb_refl. lra.
  Qed.
  Lemma swb_occ i : (i < 2)%nat -> occupancy 2 sw_pi sw_A b (chunks [2; 2]%nat sx) i = 2.
  Proof.
    intros Hi. unfold occupancy. cbn [chunks firstn skipn sx sumL length sumn].
    rewrite !sw_post by (try (apply Hb; lia); try assumption; lia). destruct i as [|[|i]]; [| |lia]; cbn [Nat.eqb]; lra.
  Qed.
  Lemma swb_tot phi i : (i < 2)%nat ->
    weighted_total 2 sw_pi sw_A b (chunks [2; 2]%nat sx) phi i
    = match i with 0%nat => phi [Fin 0; Fin 0] + phi [Fin 2; Fin 2] | _ => phi [Fin 5; Fin 5] + phi [Fin 9; Fin 9] end.
  Proof.
    intros Hi. unfold weighted_total. cbn [chunks firstn skipn sx sumL length sumn].
    rewrite !sw_post by (try (apply Hb; lia); try assumption; lia). destruct i as [|[|i]]; [| |lia]; cbn [Nat.eqb nth map]; ring.
  Qed.
End Sw.

Lemma nd_pos nc nf mu (Sg : nat -> nat -> nat -> R) b : normal_densities nc nf mu Sg b -> forall o i, (i < nc)%nat -> 0 < b o i.
Proof. intros D o i Hi. destruct (D i Hi) as (E & HE & Hb). exact (mvn_pos nf E (proj1 HE) _ _ _ (Hb o)). Qed.

Definition id2 (f g : nat) : R := if Nat.eqb f g then 1 else 0.
Lemma id2_pd : pos_def 2 id2.
Proof.
  split; [intros i j _ _; unfold id2; rewrite Nat.eqb_sym; reflexivity|].
  intros v (i & Hi & Hv). unfold quad, id2. simpl.
  replace (0 + _ + _) with (v 0%nat * v 0%nat + v 1%nat * v 1%nat) by ring.
  pose proof (Rle_0_sqr (v 0%nat)) as P0. pose proof (Rle_0_sqr (v 1%nat)) as P1. unfold Rsqr in *.
  destruct i as [|[|i]]; [| |lia]; pose proof (Rlt_0_sqr _ Hv) as P; unfold Rsqr in P; lra.
Qed.
Lemma id2_psd : pos_semidef 2 id2.
Proof.
  split; [apply id2_pd|]. intros v. unfold quad, id2. simpl.
  replace (0 + _ + _) with (v 0%nat * v 0%nat + v 1%nat * v 1%nat) by ring.
  pose proof (Rle_0_sqr (v 0%nat)) as P0. pose proof (Rle_0_sqr (v 1%nat)) as P1. unfold Rsqr in *. lra.
Qed.

Definition id_cov (ty : string) : covs :=
  if String.eqb ty "tied" then CV2 (fmat 2 2 id2) else CV3 (tab 2 (fun _ => fmat 2 2 id2)).
Definition ex_fw ty (cpr : parr) : hmm gaussp := ex_fu 2 sw_pi sw_A ty "mc" cpr (fmat 2 2 (fun _ _ => 1)) (id_cov ty).
Lemma id_mcov ty : ty = "tied"%string \/ ty = "full"%string -> mcov 2 2 (fun _ => id2) ty (id_cov ty).
Proof. intros [-> | ->]; [apply (MTied 2 2 (fun _ => id2)); reflexivity|exact (MFull 2 2 (fun _ => id2))]. Qed.
Lemma ex_fw_base ty cpr : base_ok (ex_fw ty cpr) 2 sw_pi sw_A.
Proof. apply sw_base; reflexivity. Qed.
Lemma ex_fw_model ty cpr : ty = "tied"%string \/ ty = "full"%string ->
  full_model (ex_fw ty cpr) 2 2 sw_pi sw_A (fun _ _ => 1) (fun _ => id2).
Proof. intros H. apply ex_fu_model; [apply ex_fw_base|lia|apply id_mcov; exact H|intros; exact id2_psd]. Qed.

(** One iteration from identity covariances: means 1 and 7. *)
Lemma ex_fw_trained ty cpr cp : ty = "tied"%string \/ ty = "full"%string ->
  cast (pmat cpr) 2 2 cp -> pos_semidef 2 cp ->
  exists h' ev pis As mus Ss b b0,
    fit_from gaussian exact (ex_fw ty cpr) sx (as_lengths [2; 2]%nat) = Ok (h', ev)
    /\ length (m_history (h_mon h')) = 1%nat
    /\ full_hyper (ex_fw ty cpr) 2 2 (fun _ _ => 0) cp 0 0
    /\ normal_densities 2 2 (fun _ _ => 1) (fun _ => id2) b0
    /\ possible 2 sw_pi sw_A b0 [2; 2]%nat sx /\ all_used 2 sw_pi sw_A b0 (chunks [2; 2]%nat sx)
    /\ full_traj (ex_fw ty cpr) 2 2 sw_pi sw_A (fun _ _ => 1) (fun _ => id2) h' pis As mus Ss b
    /\ (forall i f, (i < 2)%nat -> (f < 2)%nat -> mus 1%nat i f = match i with 0%nat => 1 | _ => 7 end)
    /\ (forall i f g, (i < 2)%nat -> (f < 2)%nat -> (g < 2)%nat ->
         Ss 1%nat i f g = if String.eqb ty "tied" then (cp f g + 10) / 4
                          else (cp f g + match i with 0%nat => 2 | _ => 8 end) / 2).
Proof.
  intros Hty Hcp Pcp. pose proof (ex_fw_model ty cpr Hty) as FM.
  destruct (C02_gaussian_full_ready_l _ _ _ _ _ _ _ FM) as ((b0 & D) & _).
  pose proof (nd_pos _ _ _ _ _ D) as B0.
  pose proof (ex_fu_hyper 2 2 sw_pi sw_A (fun _ _ => 1) ty "mc" cpr cp (id_cov ty) ltac:(lia) Hcp Pcp) as Hh.
  destruct (ex_fu_fit 2 2 sw_pi sw_A (fun _ _ => 1) (fun _ => id2) ty "mc" cpr cp (id_cov ty) (ex_fw_base ty cpr) ltac:(lia)
    (id_mcov ty Hty) ltac:(intros; exact id2_psd) Hcp Pcp [2; 2]%nat sx b0 D sx_good (swb_possible b0 B0) eq_refl (swb_used b0 B0))
    as (h' & ev & H & Hk).
  destruct (C64_covariances_l (ex_fw ty cpr) 2 2 sw_pi sw_A (fun _ _ => 1) (fun _ => id2) (fun _ _ => 0) cp 0 0 [2; 2]%nat sx b0 h' ev
    FM Hh ltac:(split; reflexivity) (proj1 ex_sw_stoch) (proj2 ex_sw_stoch) sx_good D (swb_possible b0 B0)
    ltac:(split; intros _; [left|right; split; [reflexivity|]]; exact (swb_used b0 B0)) eq_refl eq_refl H)
    as (pis & As & mus & Ss & b & T & U).
  exists h', ev, pis, As, mus, Ss, b, b0. split; [exact H|]. split; [exact Hk|]. split; [exact Hh|]. split; [exact D|].
  split; [exact (swb_possible b0 B0)|]. split; [exact (swb_used b0 B0)|]. split; [exact T|].
  rewrite Hk in U. specialize (U 0%nat ltac:(lia)). cbv zeta in U. destruct T as (T0 & T1 & _ & _ & _ & _ & _ & _ & T2).
  rewrite Hk in T2. rewrite T0, T1 in U. pose proof (nd_pos _ _ _ _ _ (T2 0%nat ltac:(lia))) as B.
  assert (M : forall i f, (i < 2)%nat -> (f < 2)%nat -> mus 1%nat i f = match i with 0%nat => 1 | _ => 7 end).
  { intros i f Hi Hf. destruct (U i Hi) as (M & _). rewrite (M f Hf). rewrite swb_tot, swb_occ by (exact B || exact Hi).
    destruct i as [|[|i]]; [| |lia]; (destruct f as [|[|f]]; [| |lia]); unfold xval, vget; cbn [nth rval]; lra. }
  split; [exact M|]. intros i f g Hi Hf Hg. destruct (U i Hi) as (_ & V & _). destruct (V f g Hf Hg) as [V1 V2].
  assert (Q : forall i, (i < 2)%nat -> 0 * ((mus 1%nat i f - 0) * (mus 1%nat i g - 0))
    + weighted_total 2 sw_pi sw_A (b 0%nat) (chunks [2; 2]%nat sx) (fun o => (xval o f - mus 1%nat i f) * (xval o g - mus 1%nat i g)) i
    = match i with 0%nat => 2 | _ => 8 end).
  { intros q Hq. rewrite swb_tot by (exact B || exact Hq). rewrite !M by assumption.
    destruct q as [|[|q]]; [| |lia]; (destruct f as [|[|f]]; [| |lia]); (destruct g as [|[|g]]; [| |lia]); unfold xval, vget; cbn [nth rval]; lra. }
  destruct Hty as [-> | ->]; cbn [String.eqb Ascii.eqb Bool.eqb].
  - rewrite (V2 eq_refl). cbn [sumn]. rewrite !Q, !swb_occ by (exact B || lia). f_equal; lra.
  - rewrite (V1 eq_refl). rewrite Q, swb_occ by (exact B || assumption). f_equal; lra.
Qed.

Lemma mcov_eq nc nf Sg Sg' ty cv : (forall i f g, (i < nc)%nat -> (f < nf)%nat -> (g < nf)%nat -> Sg i f g = Sg' i f g) ->
  (0 < nc)%nat -> mcov nc nf Sg ty cv ->
  cv = if String.eqb ty "tied" then CV2 (fmat nf nf (Sg' 0%nat)) else CV3 (tab nc (fun i => fmat nf nf (Sg' i))).
Proof.
  intros E Hnc H. destruct H; cbn [String.eqb Ascii.eqb Bool.eqb].
  - f_equal. apply tab_ext. intros i Hi. apply fmat_ext. intros; apply E; assumption.
  - f_equal. apply fmat_ext. intros; apply E; assumption.
Qed.

(** ** C64 *)
Lemma C64_full_applies_l : exists h h' ev b,
  full_model h 2 2 sw_pi sw_A (fun _ _ => 1) (fun _ => id2) /\ full_hyper h 2 2 (fun _ _ => 0) id2 0 0 /\ flat_base h
  /\ ga_type (h_em h) = "full"%string
  /\ normal_densities 2 2 (fun _ _ => 1) (fun _ => id2) b /\ possible 2 sw_pi sw_A b [2; 2]%nat sx
  /\ all_used 2 sw_pi sw_A b (chunks [2; 2]%nat sx) /\ pos_def 2 id2
  /\ fit_from gaussian exact h sx (as_lengths [2; 2]%nat) = Ok (h', ev)
  /\ ga_means (h_em h') = Some (fmat 2 2 (fun i _ => match i with 0%nat => 1 | _ => 7 end))
  /\ ga_covars (h_em h') = Some (CV3 (tab 2 (fun i => fmat 2 2 (fun f g =>
       match i with 0%nat => 1 | _ => 4 end + if Nat.eqb f g then / 2 else 0)))).
Proof.
  destruct (ex_fw_trained "full" (Arr2 (fmat 2 2 id2)) id2 (or_intror eq_refl) (cast_fmat 2 2 id2) id2_psd)
    as (h' & ev & pis & As & mus & Ss & b & b0 & H & Hk & Hh & D & Hp & Hu & T & M & V).
  exists (ex_fw "full" (Arr2 (fmat 2 2 id2))), h', ev, b0. split; [apply ex_fw_model; right; reflexivity|].
  split; [exact Hh|]. split; [split; reflexivity|]. split; [reflexivity|]. split; [exact D|]. split; [exact Hp|]. split; [exact Hu|].
  split; [exact id2_pd|]. split; [exact H|]. destruct T as (_ & _ & _ & _ & _ & _ & T1 & (cv & T2 & T3) & _). rewrite Hk in T1, T3.
  split; [rewrite T1; f_equal; apply fmat_ext; exact M|].
  rewrite T2. f_equal. rewrite (mcov_eq 2 2 (Ss 1%nat) (fun i f g => match i with 0%nat => 1 | _ => 4 end + if Nat.eqb f g then / 2 else 0) "full" cv); [reflexivity| |lia|exact T3].
  intros i f g Hi Hf Hg. rewrite V by assumption. cbn [String.eqb Ascii.eqb Bool.eqb]. unfold id2.
  destruct i as [|[|i]]; [| |lia]; destruct (Nat.eqb f g); lra.
Qed.

Lemma C64_tied_applies_l : exists h h' ev b,
  full_model h 2 2 sw_pi sw_A (fun _ _ => 1) (fun _ => id2) /\ full_hyper h 2 2 (fun _ _ => 0) id2 0 0 /\ flat_base h
  /\ ga_type (h_em h) = "tied"%string
  /\ normal_densities 2 2 (fun _ _ => 1) (fun _ => id2) b /\ possible 2 sw_pi sw_A b [2; 2]%nat sx
  /\ all_used 2 sw_pi sw_A b (chunks [2; 2]%nat sx)
  /\ fit_from gaussian exact h sx (as_lengths [2; 2]%nat) = Ok (h', ev)
  /\ ga_covars (h_em h') = Some (CV2 (fmat 2 2 (fun f g => 5 / 2 + if Nat.eqb f g then / 4 else 0))).
Proof.
  destruct (ex_fw_trained "tied" (Arr2 (fmat 2 2 id2)) id2 (or_introl eq_refl) (cast_fmat 2 2 id2) id2_psd)
    as (h' & ev & pis & As & mus & Ss & b & b0 & H & Hk & Hh & D & Hp & Hu & T & M & V).
  exists (ex_fw "tied" (Arr2 (fmat 2 2 id2))), h', ev, b0. split; [apply ex_fw_model; left; reflexivity|].
  split; [exact Hh|]. split; [split; reflexivity|]. split; [reflexivity|]. split; [exact D|]. split; [exact Hp|]. split; [exact Hu|].
  split; [exact H|]. destruct T as (_ & _ & _ & _ & _ & _ & T1 & (cv & T2 & T3) & _). rewrite Hk in T1, T3.
  rewrite T2. f_equal. rewrite (mcov_eq 2 2 (Ss 1%nat) (fun _ f g => 5 / 2 + if Nat.eqb f g then / 4 else 0) "tied" cv); [reflexivity| |lia|exact T3].
  intros i f g Hi Hf Hg. rewrite V by assumption. cbn [String.eqb Ascii.eqb Bool.eqb]. unfold id2. destruct (Nat.eqb f g); lra.
Qed.

(** A scalar [covars_prior] is added to every entry of the matrices, not to the
    diagonal: with the default value 1/100 the updated covariance is singular
    when the scatter has rank one in the same direction. *)
Lemma C64_scalar_prior_refuted_l : exists h nc nf pi A mu Sg ls x b h' ev S' i,
  full_model h nc nf pi A mu Sg /\ gauss_default h (/ 100) /\ flat_base h
  /\ ga_type (h_em h) = "full"%string
  /\ has "m" (c_params (h_cfg h)) = true /\ has "c" (c_params (h_cfg h)) = true
  /\ sumn nc pi <= 1 /\ (forall i, (i < nc)%nat -> sumn nc (A i) <= 1)
  /\ good_data (finite_row nf) ls x /\ normal_densities nc nf mu Sg b /\ possible nc pi A b ls x
  /\ all_used nc pi A b (chunks ls x)
  /\ fit_from gaussian exact h x (as_lengths ls) = Ok (h', ev)
  /\ ga_covars (h_em h') = Some (CV3 (tab nc (fun i => fmat nf nf (S' i))))
  /\ (i < nc)%nat /\ det nf (S' i) = 0 /\ ~ pos_def nf (S' i).
Proof.
  destruct (ex_fw_trained "full" (Scal (Fin (/ 100))) (fun _ _ => / 100) (or_intror eq_refl) (cast_scal (/ 100) 2 2) (const_psd 2 (/ 100) ltac:(lra)))
    as (h' & ev & pis & As & mus & Ss & b & b0 & H & Hk & Hh & D & Hp & Hu & T & M & V).
  exists (ex_fw "full" (Scal (Fin (/ 100)))), 2%nat, 2%nat, sw_pi, sw_A, (fun _ _ => 1), (fun _ => id2), [2; 2]%nat, sx, b0, h', ev,
    (fun i _ _ => (/ 100 + match i with 0%nat => 2 | _ => 8 end) / 2), 0%nat.
  split; [apply ex_fw_model; right; reflexivity|]. split; [repeat split|]. split; [split; reflexivity|].
  split; [reflexivity|]. split; [reflexivity|]. split; [reflexivity|]. split; [apply ex_sw_stoch|]. split; [apply ex_sw_stoch|].
  split; [exact sx_good|]. split; [exact D|]. split; [exact Hp|]. split; [exact Hu|]. split; [exact H|].
  destruct T as (_ & _ & _ & _ & _ & _ & T1 & (cv & T2 & T3) & _). rewrite Hk in T1, T3.
  split; [|split; [lia|split]].
  - rewrite T2. f_equal.
    rewrite (mcov_eq 2 2 (Ss 1%nat) (fun i _ _ => (/ 100 + match i with 0%nat => 2 | _ => 8 end) / 2) "full" cv); [reflexivity| |lia|exact T3].
    intros i f g Hi Hf Hg. rewrite V by assumption. reflexivity.
  - unfold det, minor. simpl. ring.
  - intros [_ P]. specialize (P (fun i => match i with 0%nat => 1 | _ => -1 end) ltac:(exists 0%nat; split; [lia|lra])).
    revert P. unfold quad. simpl. lra.
Qed.

(** ** C65: an update that collapses a covariance lowers the likelihood, because
    scoring then adds 1e-7 to its diagonal. *)
Definition ex_col : hmm gaussp :=
  ex_fu 1 (fun _ => 1) (fun _ _ => 1) "full" "mc" (Scal (Fin 0)) (fmat 1 1 (fun _ _ => 1)) (CV3 (tab 1 (fun _ => fmat 1 1 (fun _ _ => / 10 ^ 9)))).
Lemma col_base : base_ok ex_col 1 (fun _ => 1) (fun _ _ => 1).
Proof.
  constructor; try reflexivity; try lia.
  - intros i _. lra.
  - replace (sumn 1 (fun _ => 1)) with 1 by (simpl; lra). exact near1_1.
  - intros i j _ _. lra.
  - intros i Hi. replace (sumn 1 (fun _ => 1)) with 1 by (simpl; lra). exact near1_1.
Qed.
Lemma one_pd (E : nat -> nat -> R) : pos_def 1 E <-> 0 < E 0%nat 0%nat.
Proof.
  split.
  - intros [_ H]. specialize (H (fun _ => 1) ltac:(exists 0%nat; split; [lia|lra])). unfold quad in H. simpl in H. lra.
  - intros H. split; [intros i j Hi Hj; destruct i as [|i]; [|lia]; destruct j as [|j]; [|lia]; reflexivity|].
    intros v (i & Hi & Hv). destruct i as [|i]; [|lia]. unfold quad. simpl.
    replace (0 + (0 + v 0%nat * E 0%nat 0%nat * v 0%nat)) with (v 0%nat * v 0%nat * E 0%nat 0%nat) by ring.
    apply Rmult_lt_0_compat; [apply Rlt_0_sqr; exact Hv|exact H].
Qed.
Lemma one_density mu (E : nat -> nat -> R) o p : 0 < E 0%nat 0%nat -> o 0%nat = mu 0%nat -> mvn_density 1 mu E o p ->
  p = / sqrt (2 * PI * E 0%nat 0%nat).
Proof.
  intros HE Ho (y & _ & ->). simpl. rewrite Ho.
  replace (- (1 / 2) * (0 + (mu 0%nat - mu 0%nat) * y 0%nat)) with 0 by ring. rewrite exp_0.
  replace (2 * PI * 1 * (0 + 1 * E 0%nat 0%nat * 1)) with (2 * PI * E 0%nat 0%nat) by ring.
  unfold Rdiv. ring.
Qed.

Lemma C65_collapse_refuted_l : exists h nc nf pi A mu Sg ls x b h' ev pi' A' mu' S' b',
  full_model h nc nf pi A mu Sg /\ gauss_default h 0 /\ flat_base h
  /\ ga_type (h_em h) = "full"%string
  /\ has "m" (c_params (h_cfg h)) = true /\ has "c" (c_params (h_cfg h)) = true
  /\ sumn nc pi = 1 /\ (forall i, (i < nc)%nat -> sumn nc (A i) = 1)
  /\ (forall i, (i < nc)%nat -> pos_def nf (Sg i))
  /\ good_data (finite_row nf) ls x /\ normal_densities nc nf mu Sg b /\ possible nc pi A b ls x
  /\ all_used nc pi A b (chunks ls x)
  /\ fit_from gaussian exact h x (as_lengths ls) = Ok (h', ev) /\ length (m_history (h_mon h')) = 1%nat
  /\ h_start h' = Some (fvec nc pi') /\ h_trans h' = Some (fmat nc nc A')
  /\ ga_means (h_em h') = Some (fmat nc nf mu') /\ ga_covars (h_em h') = Some (CV3 (tab nc (fun i => fmat nf nf (S' i))))
  /\ normal_densities nc nf mu' S' b'
  /\ data_loglik nc pi' A' b' ls x < data_loglik nc pi A b ls x.
Proof.
  set (Sg := fun _ _ _ : nat => / 10 ^ 9).
  assert (H9 : 0 < / 10 ^ 9) by (apply Rinv_0_lt_compat, pow_lt; lra).
  assert (FM : full_model ex_col 1 1 (fun _ => 1) (fun _ _ => 1) (fun _ _ => 1) Sg).
  { apply ex_fu_model; [exact col_base|lia|exact (MFull 1 1 Sg)|]. intros i Hi. apply const_psd. lra. }
  destruct (C02_gaussian_full_ready_l _ _ _ _ _ _ _ FM) as ((b0 & D) & _).
  pose proof (nd_pos _ _ _ _ _ D) as B0.
  assert (Hd : good_data (finite_row 1) [1; 1]%nat fx) by exact fx_good.
  assert (Hp : possible 1 (fun _ => 1) (fun _ _ => 1) b0 [1; 1]%nat fx).
  { intros c [<-|[<-|[]]]; cbn [firstn skipn fx]; rewrite single_lik; apply B0; lia. }
  assert (Hu : all_used 1 (fun _ => 1) (fun _ _ => 1) b0 (chunks [1; 1]%nat fx)).
  { intros i Hi. destruct i as [|i]; [|lia]. exists [[Fin 1]], 0%nat. split; [left; reflexivity|]. split; [simpl; lia|].
    rewrite single_post by (apply B0; lia). lra. }
  assert (Z0 : pos_semidef 1 (fun _ _ => 0)) by (apply const_psd; lra).
  destruct (ex_fu_fit 1 1 (fun _ => 1) (fun _ _ => 1) (fun _ _ => 1) Sg "full" "mc" (Scal (Fin 0)) (fun _ _ => 0) _ col_base ltac:(lia)
    (MFull 1 1 Sg) (fum_psd _ _ _ _ _ _ _ FM) (cast_scal 0 1 1) Z0 [1; 1]%nat fx b0 D Hd Hp eq_refl Hu)
    as (h' & ev & H & Hk).
  pose proof (ex_fu_hyper 1 1 (fun _ => 1) (fun _ _ => 1) (fun _ _ => 1) "full" "mc" (Scal (Fin 0)) (fun _ _ => 0)
     (CV3 (tab 1 (fun _ => fmat 1 1 (fun _ _ => / 10 ^ 9)))) ltac:(lia) (cast_scal 0 1 1) Z0) as Hh.
  fold ex_col in Hh.
  destruct (C64_covariances_l ex_col 1 1 (fun _ => 1) (fun _ _ => 1) (fun _ _ => 1) Sg (fun _ _ => 0) (fun _ _ => 0) 0 0 [1; 1]%nat fx b0 h' ev
    FM Hh ltac:(split; reflexivity) ltac:(simpl; lra) ltac:(intros; simpl; lra) Hd D Hp
    ltac:(split; intros _; [left|right; split; [reflexivity|]]; exact Hu) eq_refl eq_refl H)
    as (pis & As & mus & Ss & b & T & U).
  pose proof (C21_base_params_l gaussian exact ex_col fx (as_lengths [1; 1]%nat) h' ev H) as (_ & Hs & Ht).
  specialize (Hs eq_refl). specialize (Ht eq_refl).
  rewrite Hk in U. specialize (U 0%nat ltac:(lia) 0%nat ltac:(lia)). cbv zeta in U.
  destruct T as (T0 & T1 & _ & _ & T2 & T3 & T4 & (cv & T5 & T6) & T7). rewrite Hk in *.
  rewrite T0, T1 in U. pose proof (nd_pos _ _ _ _ _ (T7 0%nat ltac:(lia))) as B.
  destruct U as (U1 & U2 & _). specialize (U1 0%nat ltac:(lia)). destruct (U2 0%nat 0%nat ltac:(lia) ltac:(lia)) as [U3 _].
  specialize (U3 eq_refl).
  assert (Ep : forall o, seq_post 1 (fun _ => 1) (fun _ _ => 1) (b 0%nat) [o] 0 0 = 1).
  { intros o. apply single_post. apply B. lia. }
  assert (Eocc : occupancy 1 (fun _ => 1) (fun _ _ => 1) (b 0%nat) (chunks [1; 1]%nat fx) 0 = 2).
  { unfold occupancy. cbn [chunks firstn skipn fx sumL length sumn]. rewrite !Ep. ring. }
  assert (Etot : forall phi, weighted_total 1 (fun _ => 1) (fun _ _ => 1) (b 0%nat) (chunks [1; 1]%nat fx) phi 0 = 2 * phi [Fin 1]).
  { intros phi. unfold weighted_total. cbn [chunks firstn skipn fx sumL length sumn nth map]. rewrite !Ep. ring. }
  rewrite Etot, Eocc in U1. rewrite Etot, Eocc in U3.
  change (xval [Fin 1] 0) with 1 in *.
  assert (M1 : mus 1%nat 0%nat 0%nat = 1) by (rewrite U1; lra).
  assert (S1 : Ss 1%nat 0%nat 0%nat 0%nat = 0) by (rewrite U3, M1; lra).
  exists ex_col, 1%nat, 1%nat, (fun _ => 1), (fun _ _ => 1), (fun _ _ => 1), Sg, [1; 1]%nat, fx, b0, h', ev,
    (fun _ => 1), (fun _ _ => 1), (mus 1%nat), (Ss 1%nat), (b 1%nat).
  split; [exact FM|]. split; [repeat split|]. split; [split; reflexivity|].
  split; [reflexivity|]. split; [reflexivity|]. split; [reflexivity|]. split; [simpl; lra|]. split; [intros; simpl; lra|].
  split; [intros i Hi; apply one_pd; exact H9|]. split; [exact Hd|]. split; [exact D|]. split; [exact Hp|]. split; [exact Hu|].
  split; [exact H|]. split; [exact Hk|]. split; [exact Hs|]. split; [exact Ht|]. split; [exact T4|].
  split; [rewrite T5; f_equal; rewrite (mcov_eq 1 1 (Ss 1%nat) (Ss 1%nat) "full" cv ltac:(reflexivity) ltac:(lia) T6); reflexivity|].
  split; [apply T7; lia|].
  destruct (D 0%nat ltac:(lia)) as (E0 & (_ & Q0 & _) & HE0).
  destruct (T7 1%nat ltac:(lia) 0%nat ltac:(lia)) as (E1 & (_ & _ & Q1) & HE1).
  specialize (Q0 ltac:(apply one_pd; exact H9) 0%nat 0%nat ltac:(lia) ltac:(lia)).
  specialize (Q1 ltac:(intros P; apply one_pd in P; rewrite S1 in P; lra) 0%nat 0%nat ltac:(lia) ltac:(lia)).
  cbn [Nat.eqb] in Q1. rewrite S1, Rplus_0_l in Q1. unfold Sg in Q0.
  assert (H7 : 0 < / 10 ^ 7) by (apply Rinv_0_lt_compat, pow_lt; lra).
  assert (L0 : b0 [Fin 1] 0%nat = / sqrt (2 * PI * / 10 ^ 9)).
  { rewrite (one_density (fun _ => 1) E0 (xval [Fin 1]) (b0 [Fin 1] 0%nat)); [rewrite Q0; reflexivity|rewrite Q0; exact H9|reflexivity|apply HE0]. }
  assert (L1 : b 1%nat [Fin 1] 0%nat = / sqrt (2 * PI * / 10 ^ 7)).
  { rewrite (one_density (mus 1%nat 0%nat) E1 (xval [Fin 1]) (b 1%nat [Fin 1] 0%nat)); [rewrite Q1; reflexivity|rewrite Q1; exact H7|rewrite M1; reflexivity|apply HE1]. }
  unfold data_loglik. cbn [chunks firstn skipn fx sumL]. rewrite !single_lik, L0, L1.
  assert (PI0 := PI_RGT_0).
  assert (Hlt : / sqrt (2 * PI * / 10 ^ 7) < / sqrt (2 * PI * / 10 ^ 9)).
  { assert (0 < 2 * PI * / 10 ^ 9) by (apply Rmult_lt_0_compat; lra).
    assert (0 < 2 * PI * / 10 ^ 7) by (apply Rmult_lt_0_compat; lra).
    assert (2 * PI * / 10 ^ 9 < 2 * PI * / 10 ^ 7).
    { apply Rmult_lt_compat_l; [lra|]. apply Rinv_lt_contravar; [apply Rmult_lt_0_compat; apply pow_lt; lra|]. apply Rlt_pow; [lra|lia]. }
    apply Rinv_lt_contravar; [apply Rmult_lt_0_compat; apply sqrt_lt_R0; assumption|]. apply sqrt_lt_1; lra. }
  assert (0 < / sqrt (2 * PI * / 10 ^ 7)).
  { apply Rinv_0_lt_compat, sqrt_lt_R0. apply Rmult_lt_0_compat; lra. }
  pose proof (ln_increasing _ _ H0 Hlt). lra.
Qed.

Lemma sum_pd2 c : 0 <= c -> pos_def 2 (fun f g => c + if Nat.eqb f g then / 2 else 0).
Proof.
  intros Hc. apply (pos_def_ext 2 (fun f g => (id2 f g + 2 * c) / 2)).
  - intros f g _ _. unfold id2. destruct (Nat.eqb f g); lra.
  - apply psd_sum_pd; [lra|exact id2_pd|]. apply const_psd. lra.
Qed.

Lemma C65_full_applies_l : exists h h' ev b S',
  full_model h 2 2 sw_pi sw_A (fun _ _ => 1) (fun _ => id2) /\ full_hyper h 2 2 (fun _ _ => 0) id2 0 0 /\ flat_base h
  /\ has "m" (c_params (h_cfg h)) = true /\ has "c" (c_params (h_cfg h)) = true
  /\ normal_densities 2 2 (fun _ _ => 1) (fun _ => id2) b /\ possible 2 sw_pi sw_A b [2; 2]%nat sx
  /\ all_used 2 sw_pi sw_A b (chunks [2; 2]%nat sx)
  /\ fit_from gaussian exact h sx (as_lengths [2; 2]%nat) = Ok (h', ev) /\ length (m_history (h_mon h')) = 1%nat
  /\ ga_covars (h_em h') = Some (CV3 (tab 2 (fun i => fmat 2 2 (S' i)))) /\ forall i, (i < 2)%nat -> pos_def 2 (S' i).
Proof.
  destruct (ex_fw_trained "full" (Arr2 (fmat 2 2 id2)) id2 (or_intror eq_refl) (cast_fmat 2 2 id2) id2_psd)
    as (h' & ev & pis & As & mus & Ss & b & b0 & H & Hk & Hh & D & Hp & Hu & T & M & V).
  set (S' := fun i f g => match i with 0%nat => 1 | _ => 4 end + if Nat.eqb f g then / 2 else 0).
  exists (ex_fw "full" (Arr2 (fmat 2 2 id2))), h', ev, b0, S'. split; [apply ex_fw_model; right; reflexivity|].
  split; [exact Hh|]. split; [split; reflexivity|]. split; [reflexivity|]. split; [reflexivity|]. split; [exact D|]. split; [exact Hp|]. split; [exact Hu|].
  split; [exact H|]. split; [exact Hk|]. destruct T as (_ & _ & _ & _ & _ & _ & T1 & (cv & T2 & T3) & _). rewrite Hk in T1, T3. split.
  - rewrite T2. f_equal. rewrite (mcov_eq 2 2 (Ss 1%nat) S' "full" cv); [reflexivity| |lia|exact T3].
    intros i f g Hi Hf Hg. rewrite V by assumption. unfold S', id2. cbn [String.eqb Ascii.eqb Bool.eqb].
    destruct i as [|[|i]]; [| |lia]; destruct (Nat.eqb f g); lra.
  - intros i Hi. apply sum_pd2. destruct i; lra.
Qed.

(** Means frozen, two samples equal to 1. *)
Definition ex_fro ty : hmm gaussp :=
  Hmm (Cfg 1 "c" "stmc" "map" "log" 1 (Fin (/ 100)) false (Scal (Fin 1)) (Scal (Fin 1))) (Some 1%nat)
      (Some (fvec 1 (fun _ => 1))) (Some (fmat 1 1 (fun _ _ => 1))) (Monitor (Fin (/ 100)) 1 false [] 0)
      (Gaussp ty (Fin (/ 1000)) (Scal (Fin 0)) (Scal (Fin 0)) (Scal (Fin (/ 100))) (Scal (Fin 1)) (Some (fmat 1 1 (fun _ _ => 0)))
        (Some (if String.eqb ty "tied" then CV2 (fmat 1 1 (fun _ _ => 1)) else CV3 (tab 1 (fun _ => fmat 1 1 (fun _ _ => 1)))))).
Lemma C36_full_applies_l ty : ty = "tied"%string \/ ty = "full"%string ->
  exists h b, ga_type (h_em h) = ty
  /\ full_model h 1 1 (fun _ => 1) (fun _ _ => 1) (fun _ _ => 0) (fun _ _ _ => 1) /\ gauss_default h (/ 100) /\ h_nfeat h = Some 1%nat
  /\ good_data (finite_row 1) [1; 1]%nat fx /\ normal_densities 1 1 (fun _ _ => 0) (fun _ _ _ => 1) b
  /\ (forall ch, In ch (chunks [1; 1]%nat fx) -> scorable 1 (fun _ => 1) (fun _ _ => 1) b (c_impl (h_cfg h)) ch)
  /\ has "m" (c_params (h_cfg h)) = false /\ has "c" (c_params (h_cfg h)) = true.
Proof.
  intros Hty. assert (FM : full_model (ex_fro ty) 1 1 (fun _ => 1) (fun _ _ => 1) (fun _ _ => 0) (fun _ _ _ => 1)).
  { constructor; [|lia|reflexivity| |intros; apply const_psd; lra].
    - constructor; try reflexivity; try lia.
      + intros i _. lra.
      + replace (sumn 1 (fun _ => 1)) with 1 by (simpl; lra). exact near1_1.
      + intros i j _ _. lra.
      + intros i Hi. replace (sumn 1 (fun _ => 1)) with 1 by (simpl; lra). exact near1_1.
    - eexists. split; [reflexivity|]. destruct Hty as [-> | ->]; cbn [ex_fro h_em ga_type String.eqb Ascii.eqb Bool.eqb].
      + apply (MTied 1 1 (fun _ _ _ => 1)). reflexivity.
      + exact (MFull 1 1 (fun _ _ _ => 1)). }
  destruct (C02_gaussian_full_ready_l _ _ _ _ _ _ _ FM) as ((b0 & D) & _). pose proof (nd_pos _ _ _ _ _ D) as B0.
  exists (ex_fro ty), b0. split; [reflexivity|]. split; [exact FM|]. split; [repeat split|]. split; [reflexivity|]. split; [exact fx_good|].
  split; [exact D|]. split; [|split; reflexivity].
  intros c [<-|[<-|[]]]; left; (split; [reflexivity|]); cbn [firstn skipn fx]; rewrite single_lik; apply B0; lia.
Qed.

(** Reading [covars_] raises AttributeError exactly while it or [n_features] is
    not set: values that were assigned cannot be read back before [fit], [score]
    or the like has set [n_features]. *)
Lemma C37_getter_unset_l fp h :
  (exists w, covars_get fp h = Err (AttributeError w)) <-> ga_covars (h_em h) = None \/ h_nfeat h = None.
Proof.
  unfold covars_get. split.
  - destruct (ga_covars (h_em h)) as [cv|]; [|left; reflexivity]. destruct (h_nfeat h) as [nf|]; [|right; reflexivity].
    intros (w & H). exfalso. revert H. unfold fill_covars. destruct (String.eqb _ "full"); [destruct cv; discriminate|].
    destruct (String.eqb _ "diag"); [destruct cv; discriminate|]. destruct (String.eqb _ "tied"); [destruct cv; discriminate|].
    destruct (String.eqb _ "spherical"); discriminate.
  - intros [->| ->]; [eexists; reflexivity|]. destruct (ga_covars (h_em h)); eexists; reflexivity.
Qed.
Lemma C37_getter_applies_l : covars_get exact (ex_fro "full") = Ok [fmat 1 1 (fun _ _ => 1)]
  /\ covars_get exact (Hmm (h_cfg (ex_fro "full")) None None None (h_mon (ex_fro "full")) (h_em (ex_fro "full"))) = Err (AttributeError "n_features").
Proof. split; reflexivity. Qed.
