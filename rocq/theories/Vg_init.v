(** * C72, C73: initialisation and validation of VariationalGaussianHMM. *)
From Verif Require Export Covars_thms Vcat_use Vg_use Vg_ex Spec_vinit.

(** ** Vocabulary. *)
(** The attributes that decide about initialisation are not set (as on a new
    estimator). *)
Definition vg_fresh (v : vhmm vgp) : Prop :=
  v_sprior v = None /\ v_spost v = None /\ v_tprior v = None /\ v_tpost v = None
  /\ vg_m0 (h_em (v_h v)) = None /\ vg_d0 (h_em (v_h v)) = None.
(** A constructor argument: given as [a], or None, with the default described by [D]. *)
Definition arg_value {A} (o : option A) (a : A) (D : Prop) : Prop := match o with Some b => b = a | None => D end.
(** The priors that the constructor arguments stand for. *)
Record prior_args (ty : string) (nc nf : nat) (v : vhmm vgp) (x : list vec) (p : gdirs) : Prop := PriorArgs {
  pa_s : scalar_prior (v_sarg v) (/ INR nc) (g_s p 0%nat) /\ forall i, g_s p i = g_s p 0%nat;
  pa_t : scalar_prior (v_targ v) (/ INR nc) (g_t p 0%nat 0%nat) /\ forall i j, g_t p i j = g_t p 0%nat 0%nat;
  pa_m : arg_value (vg_marg (h_em (v_h v))) (Arr2 (fmat nc nf (g_m p)))
           (forall i f, (i < nc)%nat -> (f < nf)%nat -> g_m p i f = s_mean x f);
  pa_b : arg_value (vg_barg (h_em (v_h v))) (fvec nc (g_b p)) (forall i, (i < nc)%nat -> g_b p i = 1);
  pa_d : arg_value (vg_darg (h_em (v_h v))) (dof_attr ty nc (g_d p)) (forall i, (i < nc)%nat -> g_d p i = INR nf);
  pa_S : arg_value (vg_sarg (h_em (v_h v))) (mats_attr ty nc nf (g_S p))
           (forall i k l, (i < nc)%nat -> (k < nf)%nat -> (l < nf)%nat -> g_S p i k l = if Nat.eqb k l then / 1000 else 0) }.
(** k-means finds [nc] clusters with at least [m] samples each. *)
Definition clusters_of {G} (gr : grng G) (nc nf m : nat) (x : list vec) : Prop :=
  forall g, exists labels mu g', gr_kmeans gr nc x g = Ok (labels, fmat nc nf mu, g')
    /\ length labels = length x /\ Forall (fun k => (k < nc)%nat) labels
    /\ forall i, (i < nc)%nat -> (m <= count_occ Nat.eq_dec labels i)%nat.
(** What the start value of the covariances keeps of the sample covariance. *)
Definition start_S (ty : string) (nf : nat) (C : nat -> nat -> R) (k l : nat) : R :=
  if String.eqb ty "spherical" then (if Nat.eqb k l then all_mean nf C else 0)
  else if String.eqb ty "diag" then (if Nat.eqb k l then C k k else 0) else C k l.

(** ** Lemmas. *)
Lemma fvec_ext n f g : (forall i, (i < n)%nat -> f i = g i) -> fvec n f = fvec n g.
Proof. intros H. unfold fvec. apply tab_ext. intros i Hi. rewrite (H i Hi). reflexivity. Qed.
Lemma fmat_ext r c f g : (forall i j, (i < r)%nat -> (j < c)%nat -> f i j = g i j) -> fmat r c f = fmat r c g.
Proof. intros H. unfold fmat, mtab. f_equal. apply tab_ext. intros i Hi. apply tab_ext. intros j Hj. rewrite (H i j Hi Hj). reflexivity. Qed.
Lemma mats_attr_ext ty nc nf A B : (0 < nc)%nat -> (0 < nf)%nat ->
  (forall i k l, (i < nc)%nat -> (k < nf)%nat -> (l < nf)%nat -> A i k l = B i k l) -> mats_attr ty nc nf A = mats_attr ty nc nf B.
Proof.
  intros Hc Hf H. unfold mats_attr. destruct (String.eqb ty "full").
  { f_equal. apply tab_ext. intros i Hi. apply fmat_ext. intros. apply H; assumption. }
  destruct (String.eqb ty "tied"). { f_equal. apply fmat_ext. intros. apply H; assumption. }
  destruct (String.eqb ty "diag"). { f_equal. apply fmat_ext. intros. apply H; assumption. }
  f_equal. apply fvec_ext. intros. apply H; assumption.
Qed.
Lemma dof_attr_ext ty nc d d' : (0 < nc)%nat -> (forall i, (i < nc)%nat -> d i = d' i) -> dof_attr ty nc d = dof_attr ty nc d'.
Proof.
  intros Hc H. unfold dof_attr. destruct (String.eqb ty "tied"); [rewrite (H 0%nat Hc); reflexivity|].
  f_equal. apply fvec_ext, H.
Qed.

Lemma list_max_clusters labels nc : (0 < nc)%nat -> Forall (fun k => (k < nc)%nat) labels ->
  (0 < count_occ Nat.eq_dec labels (nc - 1))%nat -> S (list_max labels) = nc.
Proof.
  intros Hc Hl Hk. apply count_occ_In in Hk.
  assert (H1 : (list_max labels <= nc - 1)%nat). { apply list_max_le. eapply Forall_impl; [|exact Hl]. cbn. lia. }
  assert (H2 : (nc - 1 <= list_max labels)%nat).
  { pose proof (proj1 (list_max_le labels (list_max labels)) (le_n _)) as H. rewrite Forall_forall in H. apply H, Hk. }
  lia.
Qed.
Lemma count_total labels nc : Forall (fun k => (k < nc)%nat) labels ->
  sumn nc (fun i => INR (count_occ Nat.eq_dec labels i)) = INR (length labels).
Proof.
  induction labels as [|a l IH]; intros H.
  - cbn [count_occ length]. apply sumn_zero. intros; reflexivity.
  - inversion H as [|? ? Ha Hl]; subst. cbn [length]. rewrite S_INR, <- (IH Hl).
    rewrite (sumn_ext nc _ (fun i => INR (count_occ Nat.eq_dec l i) + (if Nat.eqb i a then 1 else 0))).
    + rewrite sumn_plus. f_equal. rewrite (sumn_single nc _ a Ha) by (intros i Hi Hn; destruct (Nat.eqb_spec i a); congruence).
      rewrite Nat.eqb_refl. reflexivity.
    + intros i _. cbn [count_occ]. destruct (Nat.eq_dec a i) as [->|Hn].
      * rewrite Nat.eqb_refl, S_INR. reflexivity.
      * destruct (Nat.eqb_spec i a); [congruence|]. rewrite Rplus_0_r. reflexivity.
Qed.

Lemma counts_to_fvec nc f : counts_to nc (fvec nc f) = Ok (fvec nc f).
Proof. unfold counts_to, fvec. rewrite tab_length, Nat.eqb_refl. reflexivity. Qed.

(** [BaseHMM._init] (vhmm.py:48-88) of an estimator on which nothing has been set. *)
Section VBaseFresh.
  Context {P X St G : Type} (I : vinitclass P X G) (rg : rng G).
  Lemma vbase_init_fresh (e : vest P G) glob (x : list X) ls nf1 p1 d k a b :
    let v := ve_v e in let c := v_cfg v in let nc := c_nc c in
    pos_dirichlet rg -> valid_rs rg (ve_rs e) -> (0 < nc)%nat -> ls <> [] -> fold_right Nat.add 0%nat ls = length x -> x <> [] ->
    v_sprior v = None -> v_tprior v = None ->
    v_spost v = None -> v_tpost v = None ->
    scalar_prior (v_sarg v) (/ INR nc) a -> scalar_prior (v_targ v) (/ INR nc) b ->
    vi_nfeat I c (h_nfeat (v_h v)) (h_em (v_h v)) x = Ok (nf1, p1) -> vi_nfit I c nf1 p1 = Ok d -> dict_sum d (c_params c) = Ok k ->
    exists rs glob1 ev sq tq, vbase_init I rg exact e glob x (map Z.of_nat ls)
        = Ok (VEst (VHmm (Hmm c nf1 (h_start (v_h v)) (h_trans (v_h v)) (h_mon (v_h v)) p1) (v_sarg v) (v_targ v)
               (Some (fvec nc (fun _ => a))) (Some (fvec nc sq)) (Some (fmat nc nc (fun _ _ => b))) (Some (fmat nc nc tq))) rs, glob1, ev)
      /\ valid_rs rg rs /\ pos1 nc sq /\ pos2 nc nc tq
      /\ sumn nc sq = INR (length ls) /\ (forall i, (i < nc)%nat -> sumn nc (tq i) = INR (length x) / INR nc).
  Proof.
    cbv zeta. intros Hrg Hrs Hnc Hls Hsum Hx F1 F3 F2 F4 Ha Hb Hfeat Hdd Hk.
    set (v := ve_v e) in *. set (c := v_cfg v) in *. set (nc := c_nc c) in *.
    assert (HI : 0 < INR nc) by (apply lt_0_INR; exact Hnc).
    assert (HIx : 0 < INR (length x)) by (apply lt_0_INR; destruct x; [contradiction|simpl; lia]).
    assert (HIl : 0 < INR (length ls)) by (apply lt_0_INR; destruct ls; [contradiction|simpl; lia]).
    assert (Hdir : forall g, exists f g', r_dirichlet rg (tab nc (fun _ => Fin (/ INR nc))) g = Ok (fvec nc f, g') /\ pos1 nc f /\ sumn nc f = 1).
    { intros g. apply (Hrg nc (fun _ => / INR nc) g Hnc). intros i _. apply Rinv_0_lt_compat, HI. }
    assert (Hu : xdiv exact (Fin 1) (Fin (INR nc)) = Fin (/ INR nc)).
    { rewrite xdivE by lra. unfold Rdiv. rewrite Rmult_1_l. reflexivity. }
    unfold vbase_init. fold v. change (h_cfg (v_h v)) with c. rewrite Hfeat. cbn [bind]. fold nc.
    destruct (Nat.eqb_spec nc 0); [lia|]. rewrite Hu.
    destruct (rs_get_ok rg (ve_rs e) glob Hrs) as (g & ->). cbn [bind].
    rewrite F1, F2, F3, F4. unfold needs_init2, needs_init. cbn [isSome].
    replace (if has "s" (c_init_params c) then (true, []) else (negb false, [])) with (true, @nil event) by (destruct (has "s" _); reflexivity).
    replace (if has "t" (c_init_params c) then (true, []) else (negb false, [])) with (true, @nil event) by (destruct (has "t" _); reflexivity).
    cbv iota.
    assert (Hfa : full1 nc (match v_sarg v with None => Scal (Fin (/ INR nc)) | Some a0 => a0 end) = Ok (fvec nc (fun _ => a))).
    { destruct Ha as [_ [[-> ->]| ->]]; reflexivity. }
    rewrite Hfa. cbn [bind].
    destruct (Hdir g) as (fs & g1 & -> & Ps & Ss). cbn [bind].
    assert (Hfb : full2 nc nc (match v_targ v with None => Scal (Fin (/ INR nc)) | Some a0 => a0 end) = Ok (fmat nc nc (fun _ _ => b))).
    { destruct Hb as [_ [[-> ->]| ->]]; reflexivity. }
    rewrite Hfb. cbn [bind].
    destruct (draws_fmat _ nc _ Hdir nc g1) as (FT & g2 & -> & HT). cbn [bind].
    destruct (rs_put (ve_rs e) glob g2) as [rs glob2] eqn:Eput.
    rewrite Hdd. cbn [bind]. rewrite Hk. cbn [bind].
    rewrite zsum_nat, Hsum, <- INR_IZR_INZ, map_length.
    set (qs := fun i => fs i * INR (length ls)).
    set (qt := fun i j => FT i j * (INR (length x) / INR nc)).
    assert (E1 : map (fun a0 => xmul exact a0 (Fin (INR (length ls)))) (fvec nc fs) = fvec nc qs).
    { unfold fvec. rewrite tab_map. reflexivity. }
    assert (E2 : Mat nc (map (map (fun a0 => xmul exact a0 (xdiv exact (Fin (INR (length x))) (Fin (INR nc))))) (tab nc (fun i => fvec nc (FT i)))) = fmat nc nc qt).
    { rewrite xdivE by lra. unfold fmat, mtab. f_equal. rewrite tab_map. apply tab_ext. intros i _. unfold fvec. rewrite tab_map. reflexivity. }
    rewrite E1, E2. do 3 eexists. exists qs, qt. split; [reflexivity|]. split; [exact (rs_put_valid rg _ _ _ _ _ Hrs Eput)|].
    split; [intros i Hi; apply Rmult_lt_0_compat; [apply Ps; exact Hi|exact HIl]|].
    split; [intros i j Hi Hj; apply Rmult_lt_0_compat; [apply HT; assumption|apply Rdiv_lt_0_compat; assumption]|]. split.
    - unfold qs. rewrite sumn_scal_r, Ss. ring.
    - intros i Hi. unfold qt. rewrite sumn_scal_r, (proj2 (HT i Hi)). ring.
  Qed.
End VBaseFresh.

Lemma vg_nfit_ok c n p : letters_in (c_params c) ["s"; "t"; "m"; "c"]%char -> is_type covariance_types (vg_type p) = true ->
  exists d k, vg_nfit c (Some n) p = Ok d /\ dict_sum d (c_params c) = Ok k.
Proof.
  intros Hl Hty. unfold vg_nfit. rewrite Hty. cbn [negb].
  match goal with |- context [Ok (base_nfit (c_nc c) ++ ?l)] => destruct (dict_sum_ok (base_nfit (c_nc c) ++ l) (c_params c)) as (k & Hk) end.
  - intros a Ha. specialize (Hl a Ha). cbn in Hl. destruct Hl as [<-|[<-|[<-|[<-|[]]]]]; cbn; eexists; reflexivity.
  - eexists _, k. split; [reflexivity|exact Hk].
Qed.

Lemma start_S_pd ty nf C : (0 < nf)%nat -> pos_def nf C -> pos_def nf (start_S ty nf C).
Proof.
  intros Hn H. unfold start_S. destruct (String.eqb ty "spherical").
  { apply (diagm_pd nf (fun _ => all_mean nf C)). intros _ _. apply all_mean_pos; assumption. }
  destruct (String.eqb ty "diag"); [|exact H].
  apply (pos_def_ext nf (fun k l => if Nat.eqb k l then C k k else 0)).
  - intros; reflexivity.
  - apply (diagm_pd nf (fun k => C k k)). intros k Hk. apply (pd_diag_pos nf); assumption.
Qed.
Lemma start_S_keep ty nf C a k l : (0 < nf)%nat -> keep ty nf (fun k l => a * start_S ty nf C k l) k l = a * start_S ty nf C k l.
Proof.
  intros Hn. unfold keep, start_S. destruct (String.eqb_spec ty "diag") as [->|T1].
  - cbn [String.eqb Ascii.eqb Bool.eqb]. rewrite Nat.eqb_refl. destruct (Nat.eqb_spec k l); [reflexivity|ring].
  - destruct (String.eqb ty "spherical"); [|reflexivity]. destruct (Nat.eqb_spec k l); [|ring].
    rewrite (sumn_ext nf _ (fun _ => a * all_mean nf C)) by (intros f _; rewrite Nat.eqb_refl; reflexivity). rewrite sumn_const.
    field. apply not_0_INR. lia.
Qed.

Lemma C72_init_l {G} (gr : grng G) (rg : rng G) e glob x ls nf p :
  let v := ve_v e in let c := v_cfg v in let nc := c_nc c in let ty := vg_type (h_em (v_h v)) in
  pos_dirichlet rg -> valid_rs rg (ve_rs e) -> (0 < nc)%nat -> (0 < nf)%nat -> letters_in (c_params c) ["s"; "t"; "m"; "c"]%char ->
  vg_fresh v -> (h_nfeat (v_h v) = None \/ h_nfeat (v_h v) = Some nf) -> is_type covariance_types ty = true ->
  prior_args ty nc nf v x p -> gvalid ty nc nf p ->
  good_data (finite_row nf) ls x -> (2 <= length x)%nat -> clusters_of gr nc nf nf x ->
  exists e1 glob1 ev q labels mu, vinit (vg_initc gr) rg exact e glob x (map Z.of_nat ls) = Ok (e1, glob1, ev)
    /\ vg_model ty nc nf (ve_v e1) p q
    /\ v_cfg (ve_v e1) = c /\ h_start (v_h (ve_v e1)) = h_start (v_h v) /\ h_trans (v_h (ve_v e1)) = h_trans (v_h v)
    /\ h_mon (v_h (ve_v e1)) = h_mon (v_h v)
    /\ kmeans_result gr nc x labels (fmat nc nf mu)
    /\ sumn nc (g_s q) = INR (length ls)
    /\ (forall i, (i < nc)%nat -> sumn nc (g_t q i) = INR (length x) / INR nc
         /\ (forall f, (f < nf)%nat -> g_m q i f = mu i f)
         /\ g_b q i = INR (count_occ Nat.eq_dec labels i)
         /\ g_d q i = (if String.eqb ty "tied" then INR (length x) else INR (count_occ Nat.eq_dec labels i))
         /\ forall k l, (k < nf)%nat -> (l < nf)%nat -> g_S q i k l = g_d q i * start_S ty nf (s_covr (/ 1000) x) k l).
Proof.
  cbv zeta. intros Hrg Hrs Hnc Hnf Hlet (F1 & F2 & F3 & F4 & F5 & F6) Hfe Hty [Ps0 Pt0 Pm Pb Pd PS] Hgv Hd Hn Hkm.
  set (v := ve_v e) in *. set (c := v_cfg v) in *. set (nc := c_nc c) in *. set (em := h_em (v_h v)) in *. set (ty := vg_type em) in *.
  destruct Ps0 as [Ps0 Es], Pt0 as [Pt0 Et].
  pose proof Hd as [Hx (Hls & Hpos & Hsum)]. destruct (good_data_chunks _ ls x Hd) as (Hne & _ & _).
  assert (HI : 0 < INR nc) by (apply lt_0_INR; exact Hnc).
  assert (HIf : 0 < INR nf) by (apply lt_0_INR; exact Hnf).
  assert (Hw : width x = nf) by (apply (cov_width nf x Hx Hn)).
  assert (Hfeat : vi_nfeat (vg_initc gr) c (h_nfeat (v_h v)) em x = Ok (Some nf, em)).
  { cbn [vi_nfeat vg_initc]. unfold vg_nfeat. rewrite Hw.
    destruct Hfe as [->| ->]; cbn [set_n_features]; [reflexivity|]. rewrite Nat.eqb_refl. reflexivity. }
  destruct (vg_nfit_ok c nf em Hlet Hty) as (dd & kk & Hdd & Hk).
  destruct (vbase_init_fresh (vg_initc gr) rg e glob x ls (Some nf) em dd kk _ _ Hrg Hrs Hnc Hls Hsum Hne F1 F3 F2 F4 Ps0 Pt0 Hfeat Hdd Hk)
    as (rs & glob1 & ev & sq & tq & Hbase & Hrs1 & Psq & Ptq & Ssq & Stq).
  fold v in Hbase. fold c in Hbase. fold nc in Hbase. unfold vinit. rewrite Hbase. cbn [bind ve_v v_h h_cfg h_nfeat h_em ve_rs vi_em vg_initc]. fold nc.
  unfold vg_init_em, kmeans. fold nc. fold ty. destruct (rs_get_ok rg rs glob1 Hrs1) as (g3 & ->). cbn [bind].
  destruct (Hkm g3) as (labels & mu & g4 & Ekm & Hlen & Hlab & Hcnt). rewrite Ekm. cbn [bind].
  destruct (rs_put rs glob1 g4) as [rs2 glob2]. cbn [bind]. cbv zeta.
  set (cnt := fun i => INR (count_occ Nat.eq_dec labels i)).
  assert (Hcp : forall i, (i < nc)%nat -> INR nf <= cnt i) by (intros i Hi; apply le_INR, Hcnt, Hi).
  assert (Ecounts : bincount labels = fvec nc cnt).
  { unfold bincount. rewrite (list_max_clusters labels nc Hnc Hlab); [reflexivity|].
    apply Nat.lt_le_trans with nf; [exact Hnf|apply Hcnt; lia]. }
  rewrite Ecounts.
  assert (Etot : xsum exact (fvec nc cnt) = Fin (INR (length x))).
  { rewrite xsum_fvec. unfold cnt. rewrite count_total by exact Hlab. rewrite Hlen. reflexivity. }
  rewrite Etot, F5, F6.
  assert (HA : forall code n r, needs_any c code ((n, isSome (@None parr)) :: r) = (true, []) /\ needs_any c code ((n, isSome (@None dofs)) :: r) = (true, [])).
  { intros code n0 r. cbn [needs_any isSome]. unfold needs_init. destruct (has code (c_init_params c)); split; reflexivity. }
  rewrite (proj1 (HA _ _ _)), (proj2 (HA _ _ _)). cbv iota beta.
  pose proof (s_covr_pd nf (/ 1000) x Hn ltac:(lra)) as PD. set (C := s_covr (/ 1000) x) in *.
  change (exact (/ 1000)) with (Fin (/ 1000)). rewrite (template_ok nf x Hx Hn). fold C.
  rewrite (start_distribute _ _ _ _ Hnf Hty). cbn [bind]. rewrite (start_validates _ _ _ _ Hnf Hty PD). cbn [bind].
  set (d := fun i => if String.eqb ty "tied" then INR (length x) else cnt i).
  set (q := Gdirs sq tq cnt mu d (fun i k l => d i * start_S ty nf C k l)).
  assert (EM : match vg_marg em with Some a => a | None => Arr2 (mtab nc nf (fun _ f => arr_mean exact (map (fun r => vget r f) x))) end
               = Arr2 (fmat nc nf (g_m p))).
  { unfold arg_value in Pm. fold em in Pm. destruct (vg_marg em) as [a|]; [exact Pm|]. f_equal. unfold fmat, mtab. f_equal.
    apply tab_ext. intros i Hi. apply tab_ext. intros f Hf. rewrite (arr_mean_col nf x Hx Hn f Hf), (Pm i f Hi Hf). reflexivity. }
  assert (EB : match vg_barg em with Some a => a | None => tab nc (fun _ => xadd exact (Fin 0) (Fin 1)) end = fvec nc (g_b p)).
  { unfold arg_value in Pb. fold em in Pb. destruct (vg_barg em) as [a|]; [exact Pb|]. unfold fvec. apply tab_ext. intros i Hi.
    rewrite (Pb i Hi). rewrite xaddE. f_equal. ring. }
  assert (ED : match vg_darg em with Some a => a | None => dof_attr ty nc (fun _ => INR nf) end = dof_attr ty nc (g_d p)).
  { unfold arg_value in Pd. fold em in Pd. destruct (vg_darg em) as [a|]; [exact Pd|]. apply dof_attr_ext; [exact Hnc|].
    intros i Hi. symmetry. apply Pd, Hi. }
  assert (ES : match vg_sarg em with Some a => a | None => mats_attr ty nc nf (fun _ k l => if Nat.eqb k l then / 1000 else 0) end = mats_attr ty nc nf (g_S p)).
  { unfold arg_value in PS. fold em in PS. destruct (vg_sarg em) as [a|]; [exact PS|]. apply mats_attr_ext; [exact Hnc|exact Hnf|].
    intros i k l Hi Hk' Hl. symmetry. apply PS; assumption. }
  assert (Eeye : mtab nf nf (fun i j => xmul exact (if Nat.eqb i j then Fin 1 else Fin 0) (Fin (/ 1000))) = fmat nf nf (fun k l => if Nat.eqb k l then / 1000 else 0)).
  { unfold fmat, mtab. f_equal. apply tab_ext. intros i _. apply tab_ext. intros j _. destruct (Nat.eqb i j); rewrite xmulE; f_equal; ring. }
  rewrite EM, EB, Eeye.
  assert (HG : gvalid ty nc nf q).
  { assert (Hdq : forall i, (i < nc)%nat -> INR nf <= d i).
    { intros i Hi. unfold d. destruct (String.eqb ty "tied"); [|apply Hcp, Hi].
      apply Rle_trans with (cnt 0%nat); [apply Hcp, Hnc|]. rewrite <- Hlen. apply le_INR, count_occ_bound. }
    constructor; cbn [q g_s g_t g_b g_d g_S]; try assumption.
    - intros i Hi. apply Rlt_le_trans with (INR nf); [exact HIf|apply Hcp, Hi].
    - intros i Hi. specialize (Hdq i Hi). lra.
    - intros i Hi. apply pd_scal; [specialize (Hdq i Hi); lra|]. apply start_S_pd; assumption.
    - intros i k l _ _ _. apply start_S_keep, Hnf.
    - intros Ht i _. unfold d. rewrite Ht. cbn [String.eqb Ascii.eqb Bool.eqb]. split; reflexivity. }
  assert (Hkn : (ty = "full" \/ ty = "tied" \/ ty = "diag" \/ ty = "spherical")%string).
  { unfold is_type, covariance_types in Hty. cbn [existsb] in Hty.
    destruct (String.eqb_spec ty "spherical"); [tauto|]. destruct (String.eqb_spec ty "diag"); [tauto|].
    destruct (String.eqb_spec ty "full"); [tauto|]. destruct (String.eqb_spec ty "tied"); [tauto|discriminate]. }
  assert (Hfin : forall cv d0' d' s0' s', d0' = dof_attr ty nc (g_d p) -> d' = dof_attr ty nc (g_d q) -> s0' = mats_attr ty nc nf (g_S p) -> s' = mats_attr ty nc nf (g_S q) ->
     vg_model ty nc nf (with_h (VHmm (Hmm c (Some nf) (h_start (v_h v)) (h_trans (v_h v)) (h_mon (v_h v)) em) (v_sarg v) (v_targ v)
        (Some (fvec nc (fun _ => g_s p 0%nat))) (Some (fvec nc sq)) (Some (fmat nc nc (fun _ _ => g_t p 0%nat 0%nat))) (Some (fmat nc nc tq)))
        (set_em (Hmm c (Some nf) (h_start (v_h v)) (h_trans (v_h v)) (h_mon (v_h v)) em) (Some nf)
        (Vgp ty (vg_marg em) (vg_barg em) (vg_darg em) (vg_sarg em) (Some (Arr2 (fmat nc nf (g_m p)))) (Some (fmat nc nf mu)) (Some (fvec nc (g_b p))) (Some (fvec nc cnt))
           (Some d0') (Some d') (Some s0') (Some s') cv))) p q).
  { intros cv d0' d' s0' s' -> -> -> ->. constructor; try assumption.
    constructor; try reflexivity; try exact Hkn.
    constructor; try reflexivity; try assumption; try apply Hgv.
    - cbn [v_sprior with_h]. f_equal. apply fvec_ext. intros i _. symmetry. apply Es.
    - cbn [v_tprior with_h]. f_equal. apply fmat_ext. intros i j _ _. symmetry. apply Et. }
  match goal with |- context [bind (bind ?M _) _] => assert (EMID : M =
    Ok (Some (dof_attr ty nc (g_d p)), Some (dof_attr ty nc (g_d q)), Some (mats_attr ty nc nf (g_S p)), Some (mats_attr ty nc nf (g_S q)),
        Some (start_covs ty nc nf C))) end.
  { rewrite <- ED, <- ES. clear - Hkn Hnf HIf. subst q d. cbn [g_d g_S]. unfold dof_attr, mats_attr, start_covs, start_S.
    set (T := INR (length x)) in *. clearbody T cnt C ty. clear - Hkn Hnf HIf.
    destruct Hkn as [->|[->|[->| ->]]]; cbn [String.eqb Ascii.eqb Bool.eqb bind cv1 cv2 cv3]; try rewrite (counts_to_fvec nc cnt); cbn [bind].
    - assert (E : tab nc (fun i => mmap (fun a => xmul exact a (vget (fvec nc cnt) i)) (nth i (tab nc (fun _ => fmat nf nf C)) (Mat 0 [])))
                = tab nc (fun i => fmat nf nf (fun k l => cnt i * C k l))).
      { apply tab_ext. intros i Hi. rewrite tab_nth by exact Hi. unfold fvec. rewrite (vget_tab nc _ i Hi).
        unfold mmap, fmat, mtab. cbn [ncol rows]. f_equal. rewrite tab_map. apply tab_ext. intros k _. rewrite tab_map. apply tab_ext. intros l _.
        rewrite xmulE. f_equal. ring. }
      rewrite E. reflexivity.
    - assert (E : mmap (fun a => xmul exact a (Fin T)) (fmat nf nf C) = fmat nf nf (fun k l => T * C k l)).
      { unfold mmap, fmat, mtab. cbn [ncol rows]. f_equal. rewrite tab_map. apply tab_ext. intros k _. rewrite tab_map. apply tab_ext. intros l _.
        rewrite xmulE. f_equal. ring. }
      rewrite E. reflexivity.
    - assert (E : mtab nc nf (fun i f => xmul exact (mget (fmat nc nf (fun _ f => C f f)) i f) (vget (fvec nc cnt) i))
                = fmat nc nf (fun i f => cnt i * (if Nat.eqb f f then C f f else 0))).
      { unfold fmat at 2, mtab. f_equal. apply tab_ext. intros i Hi. apply tab_ext. intros f Hf. unfold fvec. rewrite (vget_tab nc _ i Hi), mget_fmat by assumption.
        rewrite xmulE, Nat.eqb_refl. f_equal. ring. }
      assert (E2 : fmat nc nf (fun _ f => if Nat.eqb f f then / 1000 else 0) = mtab nc nf (fun _ _ => Fin (/ 1000))).
      { unfold fmat, mtab. f_equal. apply tab_ext. intros i _. apply tab_ext. intros f _. rewrite Nat.eqb_refl. reflexivity. }
      rewrite E, E2. reflexivity.
    - assert (E : tab nc (fun i => xmul exact (arr_mean exact (nth i (rows (fmat nc nf (fun _ _ => all_mean nf C))) [])) (vget (fvec nc cnt) i))
                = fvec nc (fun i => cnt i * all_mean nf C)).
      { unfold fvec at 2. apply tab_ext. intros i Hi. unfold fvec. rewrite (vget_tab nc _ i Hi). unfold fmat, mtab. cbn [rows]. rewrite tab_nth by exact Hi.
        unfold arr_mean. change (tab nf (fun _ => Fin (all_mean nf C))) with (fvec nf (fun _ => all_mean nf C)). rewrite xsum_fvec, sumn_const.
        unfold fvec. rewrite tab_length, xdivE by lra. rewrite xmulE. f_equal. field. lra. }
      rewrite E. reflexivity. }
  rewrite EMID. cbn [bind].
  do 3 eexists. exists q, labels, mu. split; [reflexivity|]. split; [apply Hfin; reflexivity|].
  do 4 (split; [reflexivity|]). split; [exists g3, g4; exact Ekm|]. split; [exact Ssq|].
  intros i Hi. split; [apply Stq, Hi|]. split; [reflexivity|]. split; [reflexivity|]. split; [reflexivity|]. intros; reflexivity.
Qed.

(** A new estimator can be trained; the recorded bounds do not decrease. *)
Lemma C72_fit_returns_l {G} la (gr : grng G) (rg : rng G) e glob x ls nf p :
  let v := ve_v e in let c := v_cfg v in let nc := c_nc c in let ty := vg_type (h_em (v_h v)) in
  la_right la -> pos_dirichlet rg -> valid_rs rg (ve_rs e) -> (0 < nc)%nat -> (0 < nf)%nat ->
  letters_in (c_params c) ["s"; "t"; "m"; "c"]%char -> has "t" (c_params c) = true ->
  has "m" (c_params c) = true \/ has "c" (c_params c) = false -> c_impl c = "log"%string ->
  vg_fresh v -> (h_nfeat (v_h v) = None \/ h_nfeat (v_h v) = Some nf) -> is_type covariance_types ty = true ->
  prior_args ty nc nf v x p -> gvalid ty nc nf p ->
  good_data (finite_row nf) ls x -> (2 <= length x)%nat -> clusters_of gr nc nf nf x ->
  exists e1 glob1 ev q, vfit (vgaussian la) (vg_initc gr) rg exact e glob x (as_lengths ls) = Ok (e1, glob1, ev)
    /\ vg_model ty nc nf (ve_v e1) p q
    /\ exists vs : list R, v_history (ve_v e1) = map Fin vs
         /\ forall i j, (i <= j)%nat -> (j < length vs)%nat -> nth i vs 0 <= nth j vs 0.
Proof.
  cbv zeta. intros Hla Hrg Hrs Hnc Hnf Hlet Ht Hmc Himp Hfr Hfe Hty Hpa Hgv Hd Hn Hkm.
  destruct (C72_init_l gr rg e glob x ls nf p Hrg Hrs Hnc Hnf Hlet Hfr Hfe Hty Hpa Hgv Hd Hn Hkm)
    as (e1 & glob1 & ev & q & labels & mu & Hi & HM & Hc & _).
  unfold vfit. destruct (good_data_chunks _ ls x Hd) as (Hne & _ & _).
  rewrite (check_array_ready (vc_em (vgaussian la)) (finite_row nf) x Hne); [|apply Hd|].
  2:{ intros o Ho. apply Ho. }
  cbn [bind]. unfold as_lengths. rewrite Hi. cbn [bind].
  destruct (C68_fit_returns_l la _ _ nf (ve_v e1) p q ls x Hla HM Hd) as ([v2 ev2] & Hf).
  - rewrite Hc. exact Hmc.
  - rewrite Hc. exact Himp.
  - left. rewrite Hc. exact Ht.
  - rewrite Hf. cbn [bind].
    assert (Hmc' : has "m" (c_params (v_cfg (ve_v e1))) = true \/ has "c" (c_params (v_cfg (ve_v e1))) = false) by (rewrite Hc; exact Hmc).
    destruct (C67_lower_bound_l la _ _ _ _ _ _ _ _ _ _ Hla HM Hd Hmc' Hf) as [Hh _].
    destruct (C66_fit_l la _ _ _ _ _ _ _ _ _ _ Hla HM Hd Hmc' Hf) as (qs & _ & _ & _ & HM' & _).
    do 3 eexists. exists (qs (length (v_history v2))). split; [reflexivity|]. cbn [ve_v]. split; [exact HM'|exact Hh].
Qed.

(** The default priors are valid. *)
Definition default_prior (nc nf : nat) (x : list vec) : gdirs :=
  Gdirs (fun _ => / INR nc) (fun _ _ => / INR nc) (fun _ => 1) (fun _ f => s_mean x f) (fun _ => INR nf) (fun _ => scaled_id (/ 1000)).
Lemma default_valid ty nc nf x : (0 < nc)%nat -> (0 < nf)%nat -> gvalid ty nc nf (default_prior nc nf x).
Proof.
  intros Hc Hf. assert (0 < / INR nc) by (apply Rinv_0_lt_compat, lt_0_INR, Hc). constructor; cbn [default_prior g_s g_t g_b g_d g_S].
  - intros i _. assumption.
  - intros i j _ _. assumption.
  - intros i _. lra.
  - intros i _. lra.
  - intros i _. apply scaled_pd. lra.
  - intros i k l _ _ _. apply keep_scaled, Hf.
  - intros _ i _. split; reflexivity.
Qed.
Lemma default_args ty nc nf v x : (0 < nc)%nat ->
  v_sarg v = None -> v_targ v = None -> vg_marg (h_em (v_h v)) = None -> vg_barg (h_em (v_h v)) = None ->
  vg_darg (h_em (v_h v)) = None -> vg_sarg (h_em (v_h v)) = None -> prior_args ty nc nf v x (default_prior nc nf x).
Proof.
  intros Hc A1 A2 A3 A4 A5 A6. assert (0 < / INR nc) by (apply Rinv_0_lt_compat, lt_0_INR, Hc).
  constructor; rewrite ?A1, ?A2, ?A3, ?A4, ?A5, ?A6; cbn [default_prior g_s g_t g_b g_m g_d g_S arg_value]; try reflexivity.
  - split; [|reflexivity]. split; [assumption|]. left. split; reflexivity.
  - split; [|reflexivity]. split; [assumption|]. left. split; reflexivity.
Qed.

(** Four samples in two clusters; every covariance type. *)
Definition two_clusters : grng unit := Grng (fun _ _ g => Ok ([0; 0; 1; 1]%nat, fmat 2 1 (fun i _ => INR i * 10 + 1 / 2), g)) (fun _ _ _ g => Err KeyError).
Definition new_vg (ty : string) : vhmm vgp :=
  VHmm (Hmm (Cfg 2 "stmc" "stmc" "viterbi" "log" 3 (Fin (/ 100)) false (Scal (Fin 1)) (Scal (Fin 1))) None None None
          (Monitor (Fin (/ 100)) 3 false [] 0) (Vgp ty None None None None None None None None None None None None None))
    None None None None None None.
Definition four_samples : list vec := [[Fin 0]; [Fin 1]; [Fin 10]; [Fin 11]].
Lemma C72_applies_l : forall ty, (ty = "full" \/ ty = "tied" \/ ty = "diag" \/ ty = "spherical")%string -> exists e1 ev,
  vfit (vgaussian la_ref) (vg_initc two_clusters) flat_rng exact (VEst (new_vg ty) (RSSeed 0)) tt four_samples (as_lengths [2; 2]%nat) = Ok (e1, tt, ev).
Proof.
  intros ty Hty.
  destruct (C72_fit_returns_l la_ref two_clusters flat_rng (VEst (new_vg ty) (RSSeed 0)) tt four_samples [2; 2]%nat 1 (default_prior 2 1 four_samples))
    as (e1 & [] & ev & q & H & _).
  - exact la_ref_right.
  - exact flat_pos.
  - exists tt. reflexivity.
  - cbn. lia.
  - lia.
  - intros a. cbn [ve_v new_vg v_cfg v_h c_params h_cfg]. cbn [has]. cbn [In]. intros H.
  repeat (apply Bool.orb_true_iff in H as [H|H]; [apply Ascii.eqb_eq in H; auto|]). 
  all: try discriminate; try (apply Ascii.eqb_eq in H; auto).
  - reflexivity.
  - left. reflexivity.
  - reflexivity.
  - repeat split.
  - left. reflexivity.
  - cbn [ve_v new_vg v_h h_em vg_type]. destruct Hty as [->|[->|[->| ->]]]; reflexivity.
  - apply default_args; try reflexivity. cbn. lia.
  - apply default_valid; cbn; lia.
  - split; [repeat constructor|]. split; [discriminate|]. split; [repeat constructor|reflexivity].
  - cbn. lia.
  - intros []. do 3 eexists. split; [reflexivity|]. split; [reflexivity|]. split; [repeat constructor|].
    intros [|[|i]] Hi; cbn in Hi |- *; lia.
  - exists e1, ev. exact H.
Qed.
