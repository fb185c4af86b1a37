(** * VariationalCategoricalHMM: concrete models and counterexamples. *)
From Verif Require Export Vcat_use.

Definition ex_pr : dirs := Dirs (fun _ => 1) (fun _ _ => 1) (fun _ _ => 1).
Definition ex_vpo : dirs := Dirs (fun i => INR i + 1) (fun i j => INR i + INR j + 1) (fun i k => INR i + 2 * INR k + 1).
Definition ex_v (params : string) (n : nat) : vhmm vcatp :=
  VHmm (Hmm (Cfg 2 params params "viterbi" "log" n (Fin (/ 100)) false (Scal (Fin 1)) (Scal (Fin 1))) (Some 2%nat) None None
          (Monitor (Fin (/ 100)) n false [] 0)
          (VCatp None (Some (fmat 2 2 (d_e ex_pr))) (Some (fmat 2 2 (d_e ex_vpo))) None None))
    None None (Some (fvec 2 (d_s ex_pr))) (Some (fvec 2 (d_s ex_vpo)))
    (Some (fmat 2 2 (d_t ex_pr))) (Some (fmat 2 2 (d_t ex_vpo))).
Lemma ex_v_model params n : vcat_model (ex_v params n) 2 2 ex_pr ex_vpo.
Proof.
  constructor; try lia; try reflexivity.
  - constructor; try reflexivity; intro; intros; cbn [ex_pr ex_vpo d_s d_t]; try lra; pose proof (pos_INR i);
      try pose proof (pos_INR j); lra.
  - right. reflexivity.
  - intros i j _ _. cbn. lra.
  - intros i j _ _. cbn [ex_vpo d_e]. pose proof (pos_INR i). pose proof (pos_INR j). lra.
Qed.
Lemma ex_v_data : good_data (sym_ok 2) [3%nat; 2%nat] [0; 1; 1; 0; 1]%Z.
Proof.
  split; [repeat constructor; unfold sym_ok; lia|]. split; [discriminate|]. split; [repeat constructor|reflexivity].
Qed.

Lemma C46_applies_l : exists v' ev,
  vfit_from vcategorical exact (ex_v "ste" 3) [0; 1; 1; 0; 1]%Z (map Z.of_nat [3%nat; 2%nat]) = Ok (v', ev)
  /\ v_history v' <> [] /\ ~ In WNotConverging ev.
Proof.
  destruct (C46_fit_returns_l (ex_v "ste" 3) 2 2 ex_pr ex_vpo [3%nat; 2%nat] _ (ex_v_model _ _) ex_v_data) as ([v' ev] & H);
    [reflexivity|left; reflexivity|].
  exists v', ev. split; [exact H|]. split.
  - destruct (vfit_from_trace _ _ _ _ _ _ _ H) as (v1 & v2 & vs & Hc & _ & _ & _ & -> & _ & Hs).
    destruct (vcat_check_at 2 2 _ _ _ (ex_v_model "ste" 3)) as (v1' & Hc' & _ & E1). rewrite Hc in Hc'. injection Hc' as <-.
    destruct Hs as [Hs|[_ Hs]]; [|exact Hs]. rewrite E1 in Hs. intros ->. discriminate Hs.
  - apply (C50_lower_bound_l _ 2 2 ex_pr ex_vpo [3%nat; 2%nat] _ v' ev (ex_v_model _ _) ex_v_data H).
Qed.

(** An M-step really moves the posterior. *)
Lemma C46_update_applies_l : exists nc nf params p q ls x,
  dpos nc nf p /\ dpos nc nf q /\ good_data (sym_ok nf) ls x
  /\ sumn nc (d_s (vb_next nc nf params p (chunks ls x) q)) = sumn nc (d_s p) + 2
  /\ sumn nc (d_s q) <> sumn nc (d_s p) + 2.
Proof.
  exists 2%nat, 2%nat, "ste"%string, ex_pr, ex_vpo, [3%nat; 2%nat], [0; 1; 1; 0; 1]%Z.
  pose proof (ex_v_model "ste" 3) as [M1 M2 M3 M4 M5 M6 M7 M8].
  assert (Hp : dpos 2 2 ex_pr) by (split; [apply M3|split; [apply M3|exact M7]]).
  assert (Hq : dpos 2 2 ex_vpo) by (split; [apply M3|split; [apply M3|exact M8]]).
  split; [exact Hp|]. split; [exact Hq|]. split; [exact ex_v_data|]. split.
  - cbn [vb_next d_s has Ascii.eqb Bool.eqb orb]. unfold has. cbn [Ascii.eqb Bool.eqb orb].
    rewrite sumn_plus. f_equal. unfold n_start.
    assert (Hst : forall c, In c (chunks [3%nat; 2%nat] [0; 1; 1; 0; 1]%Z) ->
              stochastic1 2 (seq_post 2 (w_s 2 ex_vpo) (w_t 2 ex_vpo) (w_e 2 ex_vpo) c 0)).
    { intros c Hc. destruct (vcat_cs 2 _ _ ex_v_data c Hc) as [Hne Hok].
      apply (vpost_stoch (sym_ok 2) 2 (chunks [3%nat; 2%nat] [0; 1; 1; 0; 1]%Z)); try assumption; try lia.
      - apply (vcat_cs 2 _ _ ex_v_data).
      - intros i Hi. apply sub1_pos.
      - intros i j Hi Hj. apply sub1_pos.
      - intros o i Ho Hi. apply (w_e_pos 2 2 ex_vpo); assumption.
      - destruct c; [contradiction|simpl; lia]. }
    cbn [chunks firstn skipn] in *. unfold sumL. cbn [fold_right map].
    pose proof (proj2 (Hst _ (or_introl eq_refl))) as H1. pose proof (proj2 (Hst _ (or_intror (or_introl eq_refl)))) as H2.
    cbn [sumn] in *. lra.
  - cbn. lra.
Qed.

Lemma C60_applies_l : exists v s t e, h_start (v_h v) = Some (fvec 2 s) /\ stochastic1 2 s /\ cat_model (point_estimate v) 2 2 s t e.
Proof.
  destruct (C46_applies_l) as (v' & ev & Hf & _ & _).
  destruct (C60_after_fit_l (ex_v "ste" 3) 2 2 ex_pr ex_vpo [3%nat; 2%nat] _ v' ev (ex_v_model _ _) ex_v_data)
    as (s & t & e & Ss & _ & _ & HM & _); try reflexivity; try exact Hf.
  { cbn. lia. }
  exists v', s, t, e. split; [|split; [exact Ss|exact HM]].
  destruct HM. unfold point_estimate in *. assumption.
Qed.

(** ** A fresh estimator with positive Dirichlet draws. *)
Definition flat_rng : rng unit := Rng (fun _ => Ok tt) (fun a g => Ok (fvec (length a) (fun _ => / INR (length a)), g))
  (fun g => (/ 2, g)) (fun _ _ g => Ok (Fin 1, g)) (fun nc x g => Ok (fmat nc (width x) (fun i j => INR i), g)).
Lemma flat_pos : pos_dirichlet flat_rng.
Proof.
  intros n a g Hn _. cbn [r_dirichlet flat_rng].
  replace (length (fvec n a)) with n by (unfold fvec; rewrite tab_length; reflexivity).
  assert (0 < INR n) by (apply lt_0_INR; exact Hn).
  exists (fun _ => / INR n), g. split; [reflexivity|]. split.
  - intros i _. apply Rinv_0_lt_compat. assumption.
  - rewrite sumn_const. field. lra.
Qed.
Definition fresh_v (params : string) (n : nat) (prior : option parr) : vhmm vcatp :=
  VHmm (Hmm (Cfg 2 params "ste" "viterbi" "log" n (Fin (/ 100)) false (Scal (Fin 1)) (Scal (Fin 1))) None None None
          (Monitor (Fin (/ 100)) n false [] 0) (VCatp prior None None None None))
    None None None None None None.
Lemma letters_sub (s : string) : (forall a, has a s = true -> has a "ste" = true) -> letters_in s ["s"; "t"; "e"]%char.
Proof.
  intros H a Ha. specialize (H a Ha). cbn [has] in H.
  apply orb_prop in H as [H|H]; [apply Ascii.eqb_eq in H; subst; left; reflexivity|].
  apply orb_prop in H as [H|H]; [apply Ascii.eqb_eq in H; subst; right; left; reflexivity|].
  apply orb_prop in H as [H|H]; [apply Ascii.eqb_eq in H; subst; right; right; left; reflexivity|discriminate].
Qed.
Lemma scalar_default d : 0 < d -> scalar_prior None d d.
Proof. intros H. split; [exact H|]. left. split; reflexivity. Qed.

Lemma C62_applies_l : exists e1 ev,
  vfit vcategorical vcat_initc flat_rng exact (VEst (fresh_v "ste" 3 None) (RSSeed 0)) tt [0; 1; 1; 0; 1]%Z (as_lengths [3%nat; 2%nat])
  = Ok (e1, tt, ev).
Proof.
  destruct (C62_fit_returns_l flat_rng (VEst (fresh_v "ste" 3 None) (RSSeed 0)) tt [0; 1; 1; 0; 1]%Z [3%nat; 2%nat] 2 (/ 2) (/ 2) (/ 2))
    as (e1 & [] & ev & p & q & H & _).
  - exact flat_pos.
  - exists tt. reflexivity.
  - cbn. lia.
  - apply letters_sub. intros a Ha. exact Ha.
  - reflexivity.
  - reflexivity.
  - repeat split.
  - apply scalar_default. lra.
  - apply scalar_default. lra.
  - apply scalar_default. lra.
  - exact ex_v_data.
  - right. split; reflexivity.
  - exists e1, ev. exact H.
Qed.

(** A fresh estimator that is not to learn the transition matrix cannot be
    trained for two iterations. *)
Lemma C61_fresh_no_transmat_l {G} (rg : rng G) e glob x ls n a b d :
  let v := ve_v e in let c := v_cfg v in let nc := c_nc c in
  pos_dirichlet rg -> valid_rs rg (ve_rs e) -> (0 < nc)%nat -> letters_in (c_params c) ["s"; "t"; "e"]%char ->
  has "t" (c_params c) = false -> c_impl c = "log"%string ->
  h_trans (v_h v) = None -> (2 <= c_n_iter c)%nat -> m_n_iter (h_mon (v_h v)) = c_n_iter c ->
  vfresh v -> scalar_prior (v_sarg v) (/ INR nc) a -> scalar_prior (v_targ v) (/ INR nc) b ->
  scalar_prior (vk_arg (h_em (v_h v))) (/ INR n) d ->
  good_data (sym_ok n) ls x ->
  (h_nfeat (v_h v) = Some n \/ (h_nfeat (v_h v) = None /\ Z.of_nat n = zmax x + 1)%Z) ->
  vfit vcategorical vcat_initc rg exact e glob x (as_lengths ls) = Err (AttributeError "transmat_").
Proof.
  cbv zeta. intros Hrg Hrs Hnc Hlet Ht Himp Htr Hit Hmon Hfr Ha Hb He Hd Hnf.
  destruct (C62_init_l rg e glob x ls n a b d Hrg Hrs Hnc Hlet Hfr Ha Hb He Hd Hnf)
    as (e1 & glob1 & ev & p & q & Hi & HM & Hc & _ & Htr' & Hm' & _).
  unfold vfit. destruct (good_data_chunks _ ls x Hd) as (Hne & _ & _).
  rewrite (check_array_ready (vc_em vcategorical) (sym_ok n) x Hne) by (first [apply Hd | reflexivity]). cbn [bind].
  unfold as_lengths. rewrite Hi. cbn [bind].
  rewrite (C61_no_transmat_l (ve_v e1) _ n p q ls x HM Hd); try rewrite Hc; try assumption; try reflexivity.
  - rewrite Htr'. exact Htr.
  - rewrite Hm'. exact Hmon.
Qed.

Lemma C61_refuted_l : exists e x ls, vfresh (ve_v e) /\ pos_dirichlet flat_rng /\ good_data (sym_ok 2) ls x
  /\ letters_in (c_params (v_cfg (ve_v e))) ["s"; "t"; "e"]%char
  /\ vfit vcategorical vcat_initc flat_rng exact e tt x (as_lengths ls) = Err (AttributeError "transmat_").
Proof.
  exists (VEst (fresh_v "se" 3 None) (RSSeed 0)), [0; 1; 1; 0; 1]%Z, [3%nat; 2%nat].
  assert (HL : letters_in "se" ["s"; "t"; "e"]%char).
  { apply letters_sub. intros a Ha. cbn [has] in *. destruct (Ascii.eqb "s" a); [reflexivity|].
    cbn [orb] in *. apply orb_prop in Ha as [Ha|Ha]; [|discriminate]. rewrite Ha. destruct (Ascii.eqb "t" a); reflexivity. }
  split; [repeat split|]. split; [exact flat_pos|]. split; [exact ex_v_data|]. split; [exact HL|].
  apply (C61_fresh_no_transmat_l flat_rng (VEst (fresh_v "se" 3 None) (RSSeed 0)) tt [0; 1; 1; 0; 1]%Z [3%nat; 2%nat] 2 (/ 2) (/ 2) (/ 2)).
  - exact flat_pos.
  - exists tt. reflexivity.
  - cbn. lia.
  - exact HL.
  - reflexivity.
  - reflexivity.
  - reflexivity.
  - cbn. lia.
  - reflexivity.
  - repeat split.
  - apply scalar_default. lra.
  - apply scalar_default. lra.
  - apply scalar_default. lra.
  - exact ex_v_data.
  - right. split; reflexivity.
Qed.

(** A fit that returns, of a model that stays unusable. *)
Lemma C61_not_fitted_refuted_l : exists v x ls v' ev, vcat_model v 2 2 ex_pr ex_vpo /\ good_data (sym_ok 2) ls x
  /\ vfit_from vcategorical exact v x (map Z.of_nat ls) = Ok (v', ev)
  /\ forall y lengths post, vscore_ vcategorical exact v' y lengths post = Err NotFittedError.
Proof.
  exists (ex_v "te" 3), [0; 1; 1; 0; 1]%Z, [3%nat; 2%nat].
  destruct (C46_fit_returns_l (ex_v "te" 3) 2 2 ex_pr ex_vpo [3%nat; 2%nat] _ (ex_v_model _ _) ex_v_data) as ([v' ev] & H);
    [reflexivity|left; reflexivity|].
  exists v', ev. split; [apply ex_v_model|]. split; [exact ex_v_data|]. split; [exact H|]. intros y lengths post.
  apply (C61_no_startprob_l (ex_v "te" 3) 2 2 ex_pr ex_vpo [3%nat; 2%nat] _ v' ev y lengths post (ex_v_model _ _) ex_v_data);
    [reflexivity|reflexivity|exact H].
Qed.
Lemma C61_no_emissions_refuted_l : exists v x ls v' ev, vcat_model v 2 2 ex_pr ex_vpo /\ good_data (sym_ok 2) ls x
  /\ vfit_from vcategorical exact v x (map Z.of_nat ls) = Ok (v', ev)
  /\ vscore_ vcategorical exact v' x (as_lengths ls) false = Err (AttributeError "emissionprob_").
Proof.
  exists (ex_v "st" 3), [0; 1; 1; 0; 1]%Z, [3%nat; 2%nat].
  destruct (C46_fit_returns_l (ex_v "st" 3) 2 2 ex_pr ex_vpo [3%nat; 2%nat] _ (ex_v_model _ _) ex_v_data) as ([v' ev] & H);
    [reflexivity|left; reflexivity|].
  exists v', ev. split; [apply ex_v_model|]. split; [exact ex_v_data|]. split; [exact H|].
  apply (C61_no_emissionprob_l (ex_v "st" 3) 2 2 ex_pr ex_vpo [3%nat; 2%nat] _ v' ev _ _ _ (ex_v_model _ _) ex_v_data);
    try reflexivity; try exact H.
  - destruct (C46_fit_l _ _ _ _ _ _ _ _ _ (ex_v_model "st" 3) ex_v_data H) as (qs & _ & _ & _ & _ & _ & _ & Hs & _).
    rewrite Hs. cbn [ex_v v_cfg v_h h_cfg c_params has Ascii.eqb Bool.eqb orb].
    destruct (length (v_history v')) eqn:En; [|cbn; discriminate]. exfalso.
    destruct (vfit_from_trace _ _ _ _ _ _ _ H) as (v1 & v2 & vs & Hc & _ & _ & _ & Eh & _ & Hst).
    destruct (vcat_check_at 2 2 _ _ _ (ex_v_model "st" 3)) as (v1' & Hc' & _ & E1). rewrite Hc in Hc'. injection Hc' as <-.
    rewrite Eh in En. destruct Hst as [Hst|[_ Hst]]; [rewrite E1, En in Hst; discriminate|].
    destruct vs; [contradiction|discriminate].
  - destruct ex_v_data as [_ H2]. split; [|exact H2]. apply Forall_forall. intros; exact I.
Qed.

(** The documented (n_components, n_features) array for [emissionprob_prior]. *)
Lemma C62_array_prior_refuted_l : exists e x ls, pos_dirichlet flat_rng /\ good_data (sym_ok 2) ls x /\ vfresh (ve_v e)
  /\ vk_arg (h_em (v_h (ve_v e))) = Some (Arr2 (fmat 2 2 (fun _ _ => 1))) /\ c_nc (v_cfg (ve_v e)) = 2%nat
  /\ vfit vcategorical vcat_initc flat_rng exact e tt x (as_lengths ls) = Err (ValueError "object too deep for desired array").
Proof.
  exists (VEst (fresh_v "ste" 3 (Some (Arr2 (fmat 2 2 (fun _ _ => 1))))) (RSSeed 0)), [0; 1; 1; 0; 1]%Z, [3%nat; 2%nat].
  split; [exact flat_pos|]. split; [exact ex_v_data|]. split; [repeat split|]. split; [reflexivity|]. split; reflexivity.
Qed.

(** ** Zero entries of a posterior. *)
Lemma xadd_NaN_r a : xadd exact a NaN = NaN.
Proof. destruct a; reflexivity. Qed.
Lemma xsum_app fp l m : xsum fp (l ++ m) = fold_left (xadd fp) m (xsum fp l).
Proof. apply fold_left_app. Qed.
Lemma xsum_PInf n (f : nat -> xnum) j : (j < n)%nat -> f j = PInf -> (forall i, (i < n)%nat -> (exists r, f i = Fin r) \/ f i = PInf) ->
  xsum exact (tab n f) = PInf.
Proof.
  intros Hj Ej H.
  assert (HG : forall m, (m <= n)%nat -> (exists r, xsum exact (tab m f) = Fin r) \/ xsum exact (tab m f) = PInf).
  { induction m as [|m IH]; intros Hm; [left; exists 0; reflexivity|].
    rewrite tab_S_r, xsum_app. cbn [fold_left]. destruct IH as [[r ->]| ->]; [lia| |];
      destruct (H m ltac:(lia)) as [[u ->]| ->]; cbn; unfold exact; eauto. }
  assert (HP : forall m, (j < m <= n)%nat -> xsum exact (tab m f) = PInf).
  { induction m as [|m IH]; intros Hm; [lia|]. rewrite tab_S_r, xsum_app. cbn [fold_left].
    destruct (Nat.eq_dec j m) as [<-|Hne].
    - rewrite Ej. destruct (HG j ltac:(lia)) as [[r ->]| ->]; reflexivity.
    - rewrite IH by lia. destruct (H m ltac:(lia)) as [[u ->]| ->]; reflexivity. }
  apply HP. lia.
Qed.

Lemma C63_zero_entry_l n q p j :
  (forall i, (i < n)%nat -> 0 <= q i) -> pos1 n p -> (j < n)%nat -> q j = 0 -> 0 < sumn n q ->
  kl_dirichlet exact (fvec n q) (fvec n p) = NaN.
Proof.
  intros Hq Hp Hj Ej Hs. unfold kl_dirichlet.
  replace (length (fvec n q)) with n by (unfold fvec; rewrite tab_length; reflexivity).
  assert (Eq : xsum exact (fvec n q) = Fin (sumn n q)) by apply xsum_fvec.
  assert (Ep : xsum exact (fvec n p) = Fin (sumn n p)) by apply xsum_fvec.
  rewrite Eq, Ep.
  assert (Hps : 0 < sumn n p) by (apply pos_sum; [lia|exact Hp]).
  rewrite !xgammalnE by assumption. rewrite xsubE.
  rewrite (xsum_PInf n (fun i => xsub exact (xgammaln exact (vget (fvec n q) i)) (xgammaln exact (vget (fvec n p) i))) j Hj).
  3:{ intros i Hi. rewrite !vget_fvec by exact Hi. rewrite (xgammalnE (p i)) by auto.
      destruct (Req_dec (q i) 0) as [E|E].
      - right. rewrite E. unfold xgammaln. destruct (Rlt_dec 0 0); [lra|]. destruct (Req_EM_T 0 0); [reflexivity|contradiction].
      - left. pose proof (Hq i Hi). rewrite xgammalnE by lra. eexists. reflexivity. }
  2:{ rewrite !vget_fvec by exact Hj. rewrite (xgammalnE (p j)) by auto. rewrite Ej. unfold xgammaln.
      destruct (Rlt_dec 0 0); [lra|]. destruct (Req_EM_T 0 0); [reflexivity|contradiction]. }
  rewrite (xsum_PInf n _ j Hj); [reflexivity| |].
  - rewrite !vget_fvec by exact Hj. rewrite Ej, xsubE, (xdigammaE (sumn n q)) by assumption. unfold xdigamma.
    destruct (Rlt_dec 0 0); [lra|]. destruct (Req_EM_T 0 0); [|contradiction]. cbn [xsub xopp xadd].
    pose proof (Hp j Hj). unfold xmul, xscale_inf. destruct (Rlt_dec 0 (0 - p j)); [lra|]. destruct (Rlt_dec (0 - p j) 0); [reflexivity|lra].
  - intros i Hi. rewrite !vget_fvec by exact Hi. rewrite xsubE, (xdigammaE (sumn n q)) by assumption.
    destruct (Req_dec (q i) 0) as [E|E].
    + right. rewrite E. unfold xdigamma. destruct (Rlt_dec 0 0); [lra|]. destruct (Req_EM_T 0 0); [|contradiction]. cbn [xsub xopp xadd].
      pose proof (Hp i Hi). unfold xmul, xscale_inf. destruct (Rlt_dec 0 (0 - p i)); [lra|]. destruct (Rlt_dec (0 - p i) 0); [reflexivity|lra].
    + left. pose proof (Hq i Hi). rewrite xdigammaE by lra. rewrite xsubE, xmulE. eexists. reflexivity.
Qed.

(** A posterior entry that is zero (as Dirichlet draws with small parameters
    are, once rounded) makes the recorded bound NaN. *)
Lemma xsub_fold_NaN (f : nat -> xnum) l : fold_left (fun a i => xsub exact a (f i)) l NaN = NaN.
Proof. induction l as [|i l IH]; [reflexivity|]. cbn [fold_left]. exact IH. Qed.
Lemma minus_kl_NaN n q p j : (j < n)%nat -> kl_dirichlet exact (nth j (rows q) []) (nth j (rows p) []) = NaN ->
  minus_kl exact n q p = NaN.
Proof.
  intros Hj H. unfold minus_kl. replace n with (j + S (n - S j))%nat by lia. rewrite seq_app, fold_left_app.
  cbn [seq fold_left plus]. rewrite H. unfold xsub at 2. cbn [xopp]. rewrite xadd_NaN_r. apply xsub_fold_NaN.
Qed.

Lemma C50_zero_posterior_l v x ls v' ev nc nf p q i k :
  c_nc (v_cfg v) = nc -> vk_prior (h_em (v_h v)) = Some (fmat nc nf p) -> vk_post (h_em (v_h v)) = Some (fmat nc nf q) ->
  pos2 nc nf p -> nonneg2 nc nf q -> (i < nc)%nat -> (k < nf)%nat -> q i k = 0 -> 0 < sumn nf (q i) ->
  (0 < c_n_iter (v_cfg v))%nat ->
  vfit_from vcategorical exact v x ls = Ok (v', ev) ->
  nth_error (v_history v') 0 = Some NaN.
Proof.
  intros Hnc Hp Hq Pp Pq Hi Hk E0 Hs Hit Hf.
  destruct (vfit_from_trace _ _ _ _ _ _ _ Hf) as (v1 & v2 & us & Hc & Hit' & _ & _ & -> & _ & Hst).
  assert (E1 : exists nf', v1 = with_h v (set_em (v_h v) nf' (h_em (v_h v)))).
  { unfold vcheck in Hc. destruct (if vc_super_check vcategorical then _ else _); [|discriminate]. cbn [bind] in Hc.
    cbn [vc_em vcategorical ec_check] in Hc. unfold vcat_check in Hc. rewrite Hp, Hq in Hc. cbn [attr bind] in Hc.
    destruct (negb _); [discriminate|]. destruct (negb _); [discriminate|]. cbn [bind] in Hc. injection Hc as <-. eauto. }
  destruct E1 as (nf' & ->).
  destruct us as [|u us].
  { exfalso. destruct Hst as [Hst|[_ Hst]]; [|contradiction]. unfold v_cfg in *. cbn in Hst. lia. }
  cbn [nth_error]. f_equal. cbn [length iterate] in Hit'.
  destruct (vb_step _ _ _ _ _) as [[w l]|] eqn:Ev; [|discriminate]. cbn [bind] in Hit'.
  destruct (iterate _ _ _) as [[w2 l2]|]; [|discriminate]. cbn [bind] in Hit'. injection Hit' as _ -> _.
  unfold vb_step in Ev. destruct (vestep _ _ _ _ _) as [[[v3 st] lp]|] eqn:Ee; [|discriminate]. cbn [bind] in Ev.
  destruct (vlower_bound _ _ _ _) as [lb|] eqn:El; [|discriminate]. cbn [bind] in Ev.
  destruct (vmstep _ _ _ _) as [v4|]; [|discriminate]. cbn [bind] in Ev. injection Ev as _ ->.
  assert (H3 : vk_prior (h_em (v_h v3)) = Some (fmat nc nf p) /\ vk_post (h_em (v_h v3)) = Some (fmat nc nf q)
               /\ c_nc (v_cfg v3) = nc).
  { unfold vestep in Ee. destruct (attr _ _) as [sq|]; [|discriminate]. cbn [bind] in Ee.
    destruct (attr _ _) as [tq|]; [|discriminate]. cbn [bind] in Ee.
    cbn [vc_begin vcategorical] in Ee. unfold vcat_begin in Ee. cbn [with_h set_em v_h h_em] in Ee.
    rewrite Hq in Ee. cbn [attr bind] in Ee.
    destruct (do_estep _ _ _ _ _ _ _) as [[a b]|]; [|discriminate]. cbn [bind] in Ee. injection Ee as <- _ _.
    unfold v_cfg in *. cbn. auto. }
  destruct H3 as (P3 & Q3 & N3). unfold vlower_bound in El.
  do 4 (destruct (attr _ _) in El; [cbn [bind] in El|discriminate]).
  cbn [vc_bound vcategorical] in El. unfold vcat_bound in El. rewrite P3, Q3, N3 in El. cbn [attr bind] in El.
  rewrite (minus_kl_NaN nc (fmat nc nf q) (fmat nc nf p) i Hi) in El.
  - rewrite xadd_NaN_r in El. injection El as <-. reflexivity.
  - rewrite !rows_nth_fmat by exact Hi. apply (C63_zero_entry_l nf (q i) (p i) k); try assumption; intros j Hj; [apply Pq|apply Pp]; assumption.
Qed.

Definition zero_v : vhmm vcatp :=
  VHmm (Hmm (Cfg 1 "ste" "ste" "viterbi" "log" 1 (Fin (/ 100)) false (Scal (Fin 1)) (Scal (Fin 1))) (Some 2%nat) None None
          (Monitor (Fin (/ 100)) 1 false [] 0)
          (VCatp None (Some (fmat 1 2 (fun _ _ => 1))) (Some (fmat 1 2 (fun _ k => 1 - INR k))) None None))
    None None (Some (fvec 1 (fun _ => 1))) (Some (fvec 1 (fun _ => 1)))
    (Some (fmat 1 1 (fun _ _ => 1))) (Some (fmat 1 1 (fun _ _ => 1))).
Definition zero_p : vcatp :=
  VCatp None (Some (fmat 1 2 (fun _ _ => 1))) (Some (fmat 1 2 (fun _ k => 1 - INR k))) None (Some (Mat 2 [[Fin 0; NInf]])).
Lemma zero_base : vbase_at 1 zero_v (fun _ => 1) (fun _ _ => 1) (fun _ => 1) (fun _ _ => 1).
Proof. constructor; try reflexivity; intro; intros; lra. Qed.
Lemma zero_begin : vcat_begin exact (v_cfg zero_v) (Some 2%nat) (h_em (v_h zero_v)) = Ok zero_p.
Proof.
  unfold vcat_begin, zero_p. cbn [zero_v v_h h_em vk_post vk_arg vk_prior vk_prob attr bind]. do 3 f_equal.
  unfold mrows. cbn [fmat mtab ncol rows tab map seq]. unfold fmat, mtab, tab. cbn [ncol rows map seq]. do 2 f_equal.
  unfold log_subnorm, xsum. cbn [fold_left map]. rewrite !xaddE.
  replace (0 + (1 - INR 0) + (1 - INR 1)) with 1 by (simpl; ring). replace (1 - INR 0) with 1 by (simpl; ring).
  replace (1 - INR 1) with 0 by (simpl; ring). rewrite xdigammaE by lra. rewrite xsubE.
  f_equal; [f_equal; ring|]. f_equal. unfold xdigamma. destruct (Rlt_dec 0 0); [lra|]. destruct (Req_EM_T 0 0); [reflexivity|contradiction].
Qed.
Lemma zero_subll c nfe x : Forall (fun k => k = 0%Z) x ->
  vcat_subll exact c nfe zero_p x = Ok (lmat (length x) 1 (obsB (fun _ _ => 1) x)).
Proof.
  intros Hx. unfold vcat_subll, zero_p. cbn [vk_sub attr bind ncol]. unfold nrow. cbn [rows length].
  rewrite (map_res_ok _ Z.to_nat).
  2:{ intros k Hk. rewrite Forall_forall in Hx. rewrite (Hx k Hk). reflexivity. }
  cbn [bind]. f_equal. rewrite map_map.
  apply (mat_of_rows x 1 (fun k i => mget (Mat 2 [[Fin 0; NInf]]) i (Z.to_nat k))).
  intros t d i Ht Hi. assert (Hs : nth t x d = 0%Z) by (rewrite Forall_forall in Hx; apply Hx, nth_In, Ht).
  rewrite Hs. replace i with 0%nat by lia. rewrite (obsB_nth _ x d) by exact Ht. rewrite xln_pos, ln_1 by lra. reflexivity.
Qed.

Lemma C50_zero_posterior_refuted_l : exists v x ls v' ev,
  vk_post (h_em (v_h v)) = Some (fmat 1 2 (fun _ k => 1 - INR k))
  /\ vfit_from vcategorical exact v x ls = Ok (v', ev) /\ v_history v' = [NaN].
Proof.
  exists zero_v, [0%Z], (map Z.of_nat [1%nat]).
  assert (Hd : good_data (fun k => k = 0%Z) [1%nat] [0%Z]).
  { split; [repeat constructor|]. split; [discriminate|]. split; [repeat constructor|reflexivity]. }
  set (v1 := zero_v).
  assert (Hc : vcheck vcategorical exact zero_v = Ok v1) by reflexivity.
  assert (Hem : emits (sub_em vcategorical)
    (Hmm (v_cfg v1) (Some 2%nat) (Some (fvec 1 (sub1 1 (fun _ => 1)))) (Some (fmat 1 1 (fun i => sub1 1 (fun _ => 1)))) (h_mon (v_h v1)) zero_p)
    1 (fun k => k = 0%Z) (fun _ _ => 1)).
  { constructor.
    - intros x Hx. unfold loglik. cbn [ec_loglik sub_em vc_subll vcategorical h_em]. apply zero_subll, Hx.
    - intros x Hx. unfold lik. cbn [ec_lik sub_em vc_subll vcategorical h_em]. unfold lik_of_loglik.
      rewrite zero_subll by exact Hx. cbn [bind]. rewrite mexp_lmat; [reflexivity|].
      intros t i Ht Hi. rewrite (obsB_nth _ x 0%Z) by exact Ht. lra.
    - intros o i _ _. lra.
    - reflexivity. }
  assert (Hst : exists v2 lb, vb_step vcategorical exact [0%Z] (as_lengths [1%nat]) v1 = Ok (v2, lb)).
  { eexists. eexists.
    eapply (vb_step_gen vcategorical 1 (fun k => k = 0%Z) [1%nat] [0%Z] ltac:(lia) Hd v1 _ _ _ _ zero_base zero_p (fun _ _ => 1)
             zero_begin Hem).
    - intros; lra.
    - intros c Hc0. left. split; [reflexivity|].
      apply (vlik_pos 1 (fun k => k = 0%Z) [1%nat] [0%Z] ltac:(lia) Hd (fun _ => 1) (fun _ _ => 1) (fun _ _ => 1));
        [intros; lra|exact Hc0].
    - reflexivity.
    - reflexivity.
    - reflexivity. }
  destruct Hst as (v2 & lb & Hst).
  assert (HF : exists v' ev, vfit_from vcategorical exact zero_v [0%Z] (map Z.of_nat [1%nat]) = Ok (v', ev) /\ length (v_history v') = 1%nat).
  { unfold vfit_from. rewrite Hc. cbn [bind]. change (c_n_iter (v_cfg v1)) with 1%nat. cbn [vfit_loop].
    change (Some (map Z.of_nat [1%nat])) with (as_lengths [1%nat]). rewrite Hst. cbn [bind].
    destruct (monitor_report exact _ _) as [m ev] eqn:Em.
    assert (Hm : length (m_history m) = 1%nat /\ converged exact m = true).
    { unfold monitor_report in Em. injection Em as <- _. split; reflexivity. }
    destruct Hm as [Hm Hcv]. rewrite Hcv. cbn [bind]. eexists. eexists. split; [reflexivity|]. exact Hm. }
  destruct HF as (v' & ev & Hf & Hl). exists v', ev. split; [reflexivity|]. split; [exact Hf|].
  assert (H0 : nth_error (v_history v') 0 = Some NaN).
  { apply (C50_zero_posterior_l zero_v [0%Z] (map Z.of_nat [1%nat]) v' ev 1 2 (fun _ _ => 1) (fun _ k => 1 - INR k) 0 1); try reflexivity; try lia; try exact Hf.
    - intros i k _ _. lra.
    - intros i k _ Hk. destruct k as [|[|k]]; simpl; try lra. lia.
    - simpl. ring.
    - simpl. lra.
    - unfold v_cfg, zero_v. cbn. lia. }
  destruct (v_history v') as [|u [|? ?]]; try discriminate. cbn in H0. injection H0 as ->. reflexivity.
Qed.

Lemma C63_applies_l : exists q p : nat -> R, pos1 2 q /\ pos1 2 p /\ exists d, kl_dirichlet exact (fvec 2 q) (fvec 2 p) = Fin d /\ 0 < d.
Proof.
  exists (fun i => INR i + 1), (fun _ => 1).
  assert (Hq : pos1 2 (fun i => INR i + 1)) by (intros i _; pose proof (pos_INR i); lra).
  assert (Hp : pos1 2 (fun _ => 1)) by (intros i _; lra).
  split; [exact Hq|]. split; [exact Hp|].
  destruct (C63_kl_dirichlet_l 2 _ _ ltac:(lia) Hq Hp) as (d & Hd & H0 & _ & H1). exists d. split; [exact Hd|].
  destruct (Rle_lt_or_eq_dec _ _ H0) as [H|H]; [exact H|]. exfalso.
  specialize (H1 ltac:(lia) (eq_sym H) 1%nat ltac:(lia)). simpl in H1. lra.
Qed.
