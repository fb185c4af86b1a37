(** * Property C76: a new GMMHMM can be trained and used. *)
From Verif Require Export Fresh_ex Init_gmm_thms.

(** The eigenvalues that [eigvalsh] reports of positive semidefinite matrices
    are not negative. *)
Definition good_eig (eig : mat -> xnum) : Prop :=
  forall n S, pos_semidef n S -> xltb (eig (fmat n n S)) (Fin 0) = false.
(** KMeans gives finite centres whenever there are enough samples, the normal
    generator finite draws for a positive definite covariance matrix. *)
Definition good_grng {G} (gr : grng G) (nf : nat) : Prop :=
  (forall k y g, (0 < k)%nat -> (k <= length y)%nat -> Forall (finite_row nf) y ->
     exists labels mu g', gr_kmeans gr k y g = Ok (labels, fmat k nf mu, g'))
  /\ (forall c S k g, pos_def nf S -> exists mu g', gr_mvn gr (fvec nf c) (fmat nf nf S) k g = Ok (fmat k nf mu, g')).

(** ** Trained parameters pass the checks again. *)
Section GmmPlus.
  Variables (eig : mat -> xnum) (nc nm nf : nat).
  Hypothesis He : good_eig eig.
  Hypothesis Hnc : (0 < nc)%nat.
  Hypothesis Hnm : (0 < nm)%nat.
  Hypothesis Hnf : (0 < nf)%nat.
  Variable ty : string.
  Hypothesis Hty : is_type covariance_types ty = true.
  Variables (wp mw : nat -> nat -> R) (mp : nat -> nat -> nat -> R) (cp cw : list nat -> R).
  Hypothesis HO : hyper_ok nc nm nf ty wp mw cp cw.
  Hypothesis Hcw : vec_type ty = true -> forall idx, 0 <= cw idx.
  Local Notation csh := (cshape nc nm nf ty).

  Definition gmm_plus (c : cfg) (nfe : option nat) (p : gmmp) : Prop :=
    gmm_good nc nm nf ty wp mw mp cp cw true c nfe p
    /\ (forall i, (i < nc)%nat -> sumn nm (gm_w p i) = 1)
    /\ (vec_type ty = true -> forall idx, inb idx csh -> 0 <= gm_cv p idx).

  Lemma plus_check c nfe p : c_nc c = nc -> gmm_plus c nfe p -> ec_check (gmm eig) exact c nfe p = Ok (nfe, p).
  Proof.
    intros Hc (Hg & Hs & Hv). rewrite (Gmm_proofs.gg_nf _ _ _ _ _ _ _ _ _ _ _ _ _ Hg). cbn [ec_check gmm].
    pose proof (Gmm_proofs.gg_prior _ _ _ _ _ _ _ _ _ _ _ _ _ Hg) as Hp.
    assert (Hh : gmm_hyper p nc nm nf ty wp mw mp cp cw).
    { destruct Hp as [P1 P2 P3 P4 P5]. constructor; rewrite ?P1, ?P2, ?P3, ?P4, ?P5; apply nbroadcast_fnd. }
    rewrite (gmm_check_ok eig nc nm nf ty Hty wp mw mp cp cw c (Some nf) p (gm_w p) (gm_mu p) (gm_cv p)); try assumption; try apply Hg; auto.
    - f_equal. f_equal. destruct Hp as [P1 P2 P3 P4 P5]. destruct p. unfold gmm_checked, gm_set_priors. cbn in *. congruence.
    - intros i Hi. apply Covars_thms.near1_1, Hs, Hi.
    - intros Hm i k Hi Hk. assert (PS : psd nf (comp_S ty (gm_cv p) i k)).
      { apply (proj2 (Gmm_proofs.gg_cok _ _ _ _ _ _ _ _ _ _ _ _ _ Hg)); assumption. }
      split; [exact PS|]. apply He. exact PS.
  Qed.

  Lemma plus_trains : trains (gmm eig) nc (finite_row nf) gmm_plus (gmm_bp nm nf ty) true.
  Proof.
    pose proof (gmm_trains eig nc nm nf Hnc Hnm Hnf ty Hty wp mw mp cp cw HO true) as TN.
    constructor.
    - intros h Hc (Hg & _). apply (tn_emits _ _ _ _ _ _ TN); assumption.
    - intros c nfe p l Hc (Hg & Hs & Hv) Hw Hvis. specialize (Hvis eq_refl).
      destruct (tn_step _ _ _ _ _ _ TN c nfe p l Hc Hg Hw (fun _ => Hvis)) as (st & p' & A1 & A2 & A3 & A4).
      exists st, p'. split; [exact A1|]. split; [exact A2|]. split; [|exact A4].
      rewrite (gmm_acc_step eig nc nm nf Hnc Hnm Hnf ty Hty wp mw mp cp cw true c p l nfe) in A1; try assumption. injection A1 as <-.
      rewrite (gmm_mstep_ok eig nc nm nf Hnm Hnf ty Hty wp mw mp cp cw HO true c p l nfe) in A2; try assumption. injection A2 as <-.
      split; [exact A3|]. split.
      + intros i Hi. rewrite (sumn_ext nm _ (u_w nm nf ty wp c p l i)) by (intros; apply new_w; assumption).
        destruct (has "w" (c_params c)) eqn:Ew.
        * apply (u_w_sum nc nm nf Hnm ty wp mw mp cp cw HO true c p l nfe Hg Hw Hvis); assumption.
        * unfold u_w. rewrite Ew. apply Hs, Hi.
      + intros Ev idx Hi. rewrite new_cv by exact Hi. unfold u_cv. destruct (has "c" (c_params c)); [|apply Hv; assumption].
        apply Rmult_le_pos; [|apply Rlt_le, Rinv_0_lt_compat, (u_den_pos nc nm nf Hnm Hnf ty Hty wp mw mp cp cw HO true c p l nfe Hg Hw Hvis idx Hi)].
        specialize (Hcw Ev idx).
        assert (HC : 0 <= u_C nm nf ty p l idx).
        { destruct (csh_cases nc nm nf ty Hty) as [(E1 & E2 & E3 & E4 & E5 & E6 & E7 & E8) | [(E1 & E2 & E3 & E4 & E5 & E6 & E7 & E8) | [(E1 & E2 & E3 & E4 & E5 & E6 & E7 & E8) | (E1 & E2 & E3 & E4 & E5 & E6 & E7 & E8)]]];
            rewrite E6 in Ev; try discriminate; rewrite E7 in Hi; unfold u_C.
          - apply inb_inv2 in Hi as (i & k & -> & Hi & Hk). cbn [nth].
            apply (wsum_nonneg l _ i (finite_row nf) (gl_nn nc nm nf ty p l Hw i Hi)).
            intros o _. unfold sC. rewrite E1, E2, E3. cbn [nth]. apply Rmult_le_pos.
            + apply Rlt_le, (rs_pos nc nm nf Hnm ty wp mw mp cp cw true c p nfe Hg o i k Hi Hk).
            + apply sumn_nonneg. intros f _. apply Rle_0_sqr.
          - apply inb_inv3 in Hi as (i & k & f & -> & Hi & Hk & Hf). cbn [nth].
            apply (wsum_nonneg l _ i (finite_row nf) (gl_nn nc nm nf ty p l Hw i Hi)).
            intros o _. unfold sC. rewrite E1, E2. cbn [nth]. apply Rmult_le_pos; [|apply Rle_0_sqr].
            apply Rlt_le, (rs_pos nc nm nf Hnm ty wp mw mp cp cw true c p nfe Hg o i k Hi Hk). }
        assert (HN : 0 <= u_num nm nf ty mw mp cp cw c p l idx); [|lra].
        destruct (csh_cases nc nm nf ty Hty) as [(E1 & E2 & E3 & E4 & E5 & E6 & E7 & E8) | [(E1 & E2 & E3 & E4 & E5 & E6 & E7 & E8) | [(E1 & E2 & E3 & E4 & E5 & E6 & E7 & E8) | (E1 & E2 & E3 & E4 & E5 & E6 & E7 & E8)]]];
            rewrite E6 in Ev; try discriminate; rewrite E7 in Hi; unfold u_num; rewrite E1, E2, ?E3.
        * apply inb_inv2 in Hi as (i & k & -> & Hi & Hk). cbn [nth]. apply Rplus_le_le_0_compat; [|lra].
          apply Rmult_le_pos; [apply (ho_mw _ _ _ _ _ _ _ _ HO); assumption|]. apply sumn_nonneg. intros f _. apply Rle_0_sqr.
        * apply inb_inv3 in Hi as (i & k & f & -> & Hi & Hk & Hf). cbn [nth]. apply Rplus_le_le_0_compat; [|lra].
          apply Rmult_le_pos; [apply (ho_mw _ _ _ _ _ _ _ _ HO); assumption|apply Rle_0_sqr].
  Qed.
End GmmPlus.

(** ** Start values. *)
(** The covariance array holding the matrix [M] for every state and component. *)
Definition start_cv (ty : string) (nf : nat) (M : nat -> nat -> R) (idx : list nat) : R :=
  if String.eqb ty "tied" then M (nth 1 idx 0%nat) (nth 2 idx 0%nat)
  else if String.eqb ty "full" then M (nth 2 idx 0%nat) (nth 3 idx 0%nat)
  else if String.eqb ty "diag" then M (nth 2 idx 0%nat) (nth 2 idx 0%nat)
  else all_mean nf M.
Lemma cov_start_ok ty nc nm nf M : (0 < nf)%nat -> is_type covariance_types ty = true ->
  cov_start exact ty nc nm nf (fmat nf nf M) = Some (fnd (cshape nc nm nf ty) (start_cv ty nf M)).
Proof.
  intros Hnf Hty. unfold cov_start, start_cv.
  destruct (csh_cases nc nm nf ty Hty) as [(E1 & E2 & E3 & E4 & E5 & E6 & E7 & E8) | [(E1 & E2 & E3 & E4 & E5 & E6 & E7 & E8) | [(E1 & E2 & E3 & E4 & E5 & E6 & E7 & E8) | (E1 & E2 & E3 & E4 & E5 & E6 & E7 & E8)]]];
    rewrite ?E1, ?E2, ?E3, ?E4, E7; f_equal; unfold fnd; apply ntab_ext; intros idx Hi.
  - rewrite (concat_mean nf nf M Hnf Hnf). reflexivity.
  - apply inb_inv3 in Hi as (i & k & f & -> & Hi & Hk & Hf). cbn [nth]. apply mget_fmat; assumption.
  - apply inb_inv4 in Hi as (i & k & f & g & -> & Hi & Hk & Hf & Hg). cbn [nth]. apply mget_fmat; assumption.
  - apply inb_inv3 in Hi as (i & f & g & -> & Hi & Hf & Hg). cbn [nth]. apply mget_fmat; assumption.
Qed.
Lemma centroid_ok nc nf mu : (0 < nc)%nat -> centroid exact (fmat nc nf mu) = fvec nf (fun j => sumn nc (fun i => mu i j) / INR nc).
Proof.
  intros Hnc. unfold centroid. rewrite ncol_fmat. unfold fvec. apply tab_ext. intros j Hj. unfold arr_mean.
  assert (E : map (fun r => vget r j) (rows (fmat nc nf mu)) = fvec nc (fun i => mu i j)).
  { unfold fmat, mtab. cbn [rows]. rewrite tab_map. unfold fvec. apply tab_ext. intros i Hi. apply vget_tab. exact Hj. }
  rewrite E, xsum_fvec. unfold fvec. rewrite tab_length. apply xdivE. apply not_0_INR. lia.
Qed.
Lemma in_cluster_In labels x i o : In o (in_cluster labels x i) -> In o x.
Proof.
  unfold in_cluster. intros H. apply in_map_iff in H as ([l v] & <- & H). apply filter_In in H as [H _]. apply (in_combine_r _ _ _ _ H).
Qed.

Section GmmStart.
  Context {G : Type} (gr : grng G) (rg : rng G).
  Variables (nf : nat).
  Hypothesis Hgr : good_grng gr nf.

  Lemma kmeans_ok k y rs glob : (0 < k)%nat -> (k <= length y)%nat -> Forall (finite_row nf) y -> valid_rs rg rs ->
    exists labels mu rs' glob', kmeans gr rg k y rs glob = Ok (labels, fmat k nf mu, rs', glob') /\ valid_rs rg rs'.
  Proof.
    intros Hk Hl Hy Hrs. unfold kmeans. destruct (rs_get_ok rg rs glob Hrs) as (g & ->). cbn [bind].
    destruct (proj1 Hgr k y g Hk Hl Hy) as (lb & mu & g' & ->). cbn [bind].
    destruct (rs_put rs glob g') as [r1 gl1] eqn:Ep. do 4 eexists. split; [reflexivity|]. apply (rs_put_valid rg _ _ _ _ _ Hrs Ep).
  Qed.
  Lemma mix_means_ok nm labels x cent S : (0 < nm)%nat -> Forall (finite_row nf) x -> pos_def nf S ->
    forall is rs glob, valid_rs rg rs ->
    exists (ms : nat -> nat -> nat -> R) rs' glob',
      mix_means gr rg nm labels x (fvec nf cent) (fmat nf nf S) is rs glob = Ok (tab (length is) (fun i => fmat nm nf (ms i)), rs', glob')
      /\ valid_rs rg rs'.
  Proof.
    intros Hnm Hx PD. induction is as [|i is IH]; intros rs glob Hrs; cbn [mix_means].
    - exists (fun _ _ _ => 0), rs, glob. split; [reflexivity|exact Hrs].
    - assert (K : exists mu rs1 glob1,
        (if Nat.leb nm (length (in_cluster labels x i))
         then do (_, m, rs1, glob1) <- kmeans gr rg nm (in_cluster labels x i) rs glob; Ok (m, rs1, glob1)
         else do (m, glob1) <- gr_mvn gr (fvec nf cent) (fmat nf nf S) nm glob; Ok (m, rs, glob1)) = Ok (fmat nm nf mu, rs1, glob1)
        /\ valid_rs rg rs1).
      { destruct (Nat.leb_spec nm (length (in_cluster labels x i))) as [Hl|Hl].
        - destruct (kmeans_ok nm (in_cluster labels x i) rs glob Hnm Hl) as (lb & mu & r1 & g1 & -> & Hr); [|exact Hrs|].
          + apply Forall_forall. intros o Ho. rewrite Forall_forall in Hx. apply Hx. apply (in_cluster_In _ _ _ _ Ho).
          + cbn [bind]. eauto.
        - destruct (proj2 Hgr cent S nm glob PD) as (mu & g' & ->). cbn [bind]. eauto. }
      destruct K as (mu & r1 & g1 & -> & Hr1). cbn [bind]. destruct (IH r1 g1 Hr1) as (ms & r2 & g2 & -> & Hr2). cbn [bind].
      exists (fun j => match j with 0%nat => mu | Datatypes.S j => ms j end), r2, g2. split; [|exact Hr2].
      f_equal. f_equal. f_equal. unfold tab. cbn [length seq map]. f_equal. rewrite <- seq_shift, map_map. reflexivity.
  Qed.
End GmmStart.

(** A GMMHMM as constructed: no parameters set, default hyper-parameters and
    implementation, the letters of [params] among "stmcw". *)
Definition new_gmm {G} (rg : rng G) (e : est gmmp G) (nm nf : nat) (mc : R) : Prop :=
  let h := e_hmm e in let p := h_em h in
  h_start h = None /\ h_trans h = None /\ gm_weights p = None /\ gm_means p = None /\ gm_covars p = None
  /\ valid_rs rg (e_rs e) /\ (0 < c_nc (h_cfg h))%nat /\ (0 < nm)%nat /\ (0 < nf)%nat
  /\ letters_in (c_params (h_cfg h)) ["s"; "t"; "m"; "c"; "w"]%char /\ (h_nfeat h = None \/ h_nfeat h = Some nf)
  /\ is_type covariance_types (gm_type p) = true /\ gm_nmix p = nm /\ gm_min_covar p = Fin mc /\ 0 < mc
  /\ flat_base h /\ gmm_flat h /\ c_impl (h_cfg h) = "log"%string.

Lemma gmm_nfit_ok c n p : letters_in (c_params c) ["s"; "t"; "m"; "c"; "w"]%char -> is_type covariance_types (gm_type p) = true ->
  exists d k, gmm_nfit c (Some n) p = Ok d /\ dict_sum d (c_params c) = Ok k.
Proof.
  intros Hl Hty. assert (K : exists k, gmm_nfit c (Some n) p
    = Ok (base_nfit (c_nc c) ++ [("m"%char, Z.of_nat (c_nc c) * Z.of_nat (gm_nmix p) * Z.of_nat n); ("c"%char, k); ("w"%char, Z.of_nat (gm_nmix p) - 1)])%Z).
  { unfold gmm_nfit. unfold is_type, covariance_types in Hty. cbn [existsb] in Hty.
    destruct (String.eqb (gm_type p) "spherical"); [eexists; reflexivity|].
    destruct (String.eqb (gm_type p) "diag"); [eexists; reflexivity|].
    destruct (String.eqb (gm_type p) "full"); [eexists; reflexivity|].
    destruct (String.eqb (gm_type p) "tied"); [eexists; reflexivity|]. discriminate. }
  destruct K as (k0 & ->).
  match goal with |- exists d k, Ok ?d0 = _ /\ _ => destruct (dict_sum_ok d0 (c_params c)) as (k & Hk) end.
  - intros a Ha. specialize (Hl a Ha). cbn in Hl. destruct Hl as [<-|[<-|[<-|[<-|[<-|[]]]]]]; cbn; eexists; reflexivity.
  - eexists _, k. split; [reflexivity|exact Hk].
Qed.

Lemma gmm_start {G} (gr : grng G) (rg : rng G) e glob x nm nf mc :
  let h := e_hmm e in let c := h_cfg h in let nc := c_nc c in let ty := gm_type (h_em h) in
  new_gmm rg e nm nf mc -> pos_dirichlet rg -> good_grng gr nf ->
  Forall (finite_row nf) x -> (2 <= length x)%nat -> (nc <= length x)%nat ->
  exists e1 glob1 ev pi A mu, init (gmm_initc gr) rg exact e glob x = Ok (e1, glob1, ev)
    /\ h_cfg (e_hmm e1) = c /\ h_nfeat (e_hmm e1) = Some nf /\ h_mon (e_hmm e1) = h_mon h
    /\ gm_nmix (h_em (e_hmm e1)) = nm /\ gm_type (h_em (e_hmm e1)) = ty /\ valid_rs rg (e_rs e1)
    /\ pos1 nc pi /\ sumn nc pi = 1 /\ pos2 nc nc A /\ (forall i, (i < nc)%nat -> sumn nc (A i) = 1)
    /\ h_start (e_hmm e1) = Some (fvec nc pi) /\ h_trans (e_hmm e1) = Some (fmat nc nc A)
    /\ gm_weights (h_em (e_hmm e1)) = Some (nd2 nc nm (fun _ _ => / INR nm))
    /\ gm_means (h_em (e_hmm e1)) = Some (nd3 nc nm nf mu)
    /\ gm_covars (h_em (e_hmm e1)) = Some (fnd (cshape nc nm nf ty) (start_cv ty nf (s_covr mc x)))
    /\ gmm_hyper (h_em (e_hmm e1)) nc nm nf ty (fun _ _ => 1) (fun _ _ => 0) (fun _ _ _ => 0) (fun _ => none_cp ty nm nf) (fun _ => none_cw ty nm nf).
Proof.
  cbv zeta. intros (F1 & F2 & F3 & F4 & F5 & Hrs & Hnc & Hnm & Hnf & Hlet & Hfe & Hty & Hmix & Hmc & Hpos & FB & GF & Hi) Hrg Hgr Hx Hn Hnx.
  pose proof (gmm_flat_hyper (e_hmm e) (c_nc (h_cfg (e_hmm e))) nm nf (gm_type (h_em (e_hmm e))) GF) as HH.
  destruct e as [h rs]. cbn [e_hmm e_rs] in *. set (c := h_cfg h) in *. set (nc := c_nc c) in *. set (p := h_em h) in *. set (ty := gm_type p) in *.
  assert (HI : 0 < INR nc) by (apply lt_0_INR; exact Hnc). assert (HM : 0 < INR nm) by (apply lt_0_INR; exact Hnm).
  assert (Hu : xdiv exact (Fin 1) (Fin (INR nc)) = Fin (/ INR nc)).
  { rewrite xdivE by lra. unfold Rdiv. rewrite Rmult_1_l. reflexivity. }
  assert (Hum : xdiv exact (Fin 1) (Fin (INR nm)) = Fin (/ INR nm)).
  { rewrite xdivE by lra. unfold Rdiv. rewrite Rmult_1_l. reflexivity. }
  assert (Hdir : forall g, exists f g', r_dirichlet rg (tab nc (fun _ => Fin (/ INR nc))) g = Ok (fvec nc f, g') /\ pos1 nc f /\ sumn nc f = 1).
  { intros g. apply (Hrg nc (fun _ => / INR nc) g Hnc). intros i _. apply Rinv_0_lt_compat, HI. }
  assert (Hw : width x = nf) by (apply (cov_width nf x Hx Hn)).
  unfold init, base_init. cbn [e_hmm e_rs ic_nfeat gmm_initc]. fold c. fold p. unfold gmm_nfeat. rewrite Hw.
  assert (Hset : set_n_features (h_nfeat h) nf = Ok (Some nf)).
  { destruct Hfe as [->| ->]; cbn [set_n_features]; [reflexivity|]. rewrite Nat.eqb_refl. reflexivity. }
  rewrite Hset. cbn [bind]. fold nc. destruct (Nat.eqb_spec nc 0); [lia|]. rewrite Hu.
  destruct (rs_get_ok rg rs glob Hrs) as (g & ->). cbn [bind]. rewrite F1, F2. unfold needs_init. cbn [isSome].
  replace (if has "s" (c_init_params c) then (true, []) else (negb false, [])) with (true, @nil event) by (destruct (has "s" _); reflexivity).
  replace (if has "t" (c_init_params c) then (true, []) else (negb false, [])) with (true, @nil event) by (destruct (has "t" _); reflexivity).
  cbv iota. destruct (Hdir g) as (fs & g1 & -> & Ps & Ss). cbn [bind].
  destruct (draws_fmat _ nc _ Hdir nc g1) as (FT & g2 & -> & HT). cbn [bind].
  destruct (rs_put rs glob g2) as [rs1 glob2] eqn:Eput. pose proof (rs_put_valid rg _ _ _ _ _ Hrs Eput) as V1.
  cbn [ic_nfit ic_em ic_width gmm_initc]. destruct (gmm_nfit_ok c nf p Hlet Hty) as (dd & kk & -> & Hk). cbn [bind]. rewrite Hk. cbn [bind].
  cbn [e_hmm e_rs h_cfg h_nfeat h_em h_start h_trans h_mon]. unfold gmm_init_em. fold nc.
  rewrite (fix_priors_ok nc nm nf ty Hty _ _ _ _ _ p Hmix eq_refl HH). cbn [bind]. rewrite Hmix, Hmc, (template_ok nf x Hx Hn).
  pose proof (s_covr_pd nf mc x Hn Hpos) as PD.
  destruct (kmeans_ok gr rg nf Hgr nc x rs1 glob2 Hnc Hnx Hx V1) as (lb & cen & rs2 & gl2 & -> & V2). cbn [bind].
  rewrite (centroid_ok nc nf cen Hnc).
  destruct (mix_means_ok gr rg nf Hgr nm lb x (fun j => sumn nc (fun i => cen i j) / INR nc) (s_covr mc x) Hnm Hx PD (seq 0 nc) rs2 gl2 V2)
    as (ms & rs3 & gl3 & -> & V3). cbn [bind]. rewrite seq_length.
  unfold needs_init. cbn [gmm_checked gm_set_priors gm_weights gm_means gm_covars gm_type]. rewrite F3, F4, F5. cbn [isSome].
  replace (if has "w" (c_init_params c) then (true, []) else (negb false, [])) with (true, @nil event) by (destruct (has "w" _); reflexivity).
  replace (if has "m" (c_init_params c) then (true, []) else (negb false, [])) with (true, @nil event) by (destruct (has "m" _); reflexivity).
  replace (if has "c" (c_init_params c) then (true, []) else (negb false, [])) with (true, @nil event) by (destruct (has "c" _); reflexivity).
  cbv iota. destruct (Nat.eqb_spec nm 0); [lia|]. cbn [bind]. rewrite Hum. fold ty. rewrite (cov_start_ok ty nc nm nf _ Hnf Hty).
  eexists _, _, _, fs, FT, ms. split; [reflexivity|].
  cbn [e_hmm e_rs h_cfg h_nfeat h_mon h_em h_start h_trans gm_set gm_weights gm_means gm_covars gm_nmix gm_type gm_set_priors gmm_checked].
  repeat (split; [first [reflexivity | assumption | intros i j Hi'; apply HT; exact Hi' | intros i Hi'; apply HT; exact Hi']|]).
  split.
  { f_equal. unfold stack, nd3, fnd. apply ntab_ext. intros idx Hidx. apply inb_inv3 in Hidx as (i & k & f & -> & Hi' & Hk' & Hf). cbn [nth].
    rewrite tab_nth by exact Hi'. apply mget_fmat; assumption. }
  split; [reflexivity|]. constructor; apply nbroadcast_fnd.
Qed.

Lemma diag_pos n M f : pos_def n M -> (f < n)%nat -> 0 < M f f.
Proof.
  intros [_ PD] Hf. specialize (PD (fun k => if Nat.eqb k f then 1 else 0)).
  assert (Q : quad n M (fun k => if Nat.eqb k f then 1 else 0) = M f f).
  { unfold quad. rewrite (sumn_ext n _ (fun i => if Nat.eqb i f then M i f else 0)).
    - apply (sumn_if_eq n (fun i => M i f)). exact Hf.
    - intros i Hi. rewrite (sumn_ext n _ (fun j => if Nat.eqb j f then (if Nat.eqb i f then M i j else 0) else 0)).
      + apply (sumn_if_eq n (fun j => if Nat.eqb i f then M i j else 0)). exact Hf.
      + intros j Hj. destruct (Nat.eqb i f), (Nat.eqb j f); ring. }
  rewrite <- Q. apply PD. exists f. split; [exact Hf|]. rewrite Nat.eqb_refl. lra.
Qed.

(** ** A new GMMHMM can be trained and used. *)
Lemma C76_gmm_l {G} (gr : grng G) (rg : rng G) eig e glob x ls nm nf mc :
  let h := e_hmm e in let nc := c_nc (h_cfg h) in
  new_gmm rg e nm nf mc -> pos_dirichlet rg -> good_grng gr nf -> good_eig eig ->
  (gm_type (h_em h) = "spherical"%string -> (nm <= nf)%nat) ->
  good_data (finite_row nf) ls x -> (2 <= length x)%nat -> (nc <= length x)%nat ->
  exists e' glob' ev, fit (gmm eig) (gmm_initc gr) rg exact e glob x (as_lengths ls) = Ok (e', glob', ev)
    /\ trained_ok (gmm eig) nc (finite_row nf) ls x (e_hmm e').
Proof.
  cbv zeta. intros HN Hrg Hgr He Hs Hd Hn Hnx.
  destruct (gmm_start gr rg e glob x nm nf mc HN Hrg Hgr (proj1 Hd) Hn Hnx) as
    (e1 & glob1 & ev & pi & A & mu & Hi & C1 & C2 & C3 & C4 & C5 & V & P1 & P2 & P3 & P4 & S1 & S2 & W1 & W2 & W3 & HH).
  destruct HN as (_ & _ & _ & _ & _ & _ & Hnc & Hnm & Hnf & _ & _ & Hty & _ & _ & Hpos & FB & _ & Him).
  set (nc := c_nc (h_cfg (e_hmm e))) in *. set (ty := gm_type (h_em (e_hmm e))) in *. set (h1 := e_hmm e1) in *.
  pose proof (s_covr_pd nf mc x Hn Hpos) as PD. set (M := s_covr mc x) in *.
  assert (HM : 0 < / INR nm) by (apply Rinv_0_lt_compat, lt_0_INR, Hnm).
  assert (Hw1 : forall i, (i < nc)%nat -> sumn nm (fun _ => / INR nm) = 1).
  { intros i _. rewrite sumn_const. apply Rinv_r. apply not_0_INR. lia. }
  assert (Hv : vec_type ty = true -> forall idx, inb idx (cshape nc nm nf ty) -> 0 <= start_cv ty nf M idx).
  { intros Ev idx Hidx. unfold start_cv. destruct (csh_cases nc nm nf ty Hty) as [(E1 & E2 & E3 & E4 & E5 & E6 & E7 & E8) | [(E1 & E2 & E3 & E4 & E5 & E6 & E7 & E8) | [(E1 & E2 & E3 & E4 & E5 & E6 & E7 & E8) | (E1 & E2 & E3 & E4 & E5 & E6 & E7 & E8)]]];
      rewrite E6 in Ev; try discriminate; rewrite E1, E2, ?E3, ?E4.
    - apply Rlt_le, all_mean_pos; assumption.
    - rewrite E7 in Hidx. apply inb_inv3 in Hidx as (i & k & f & -> & _ & _ & Hf). cbn [nth]. apply Rlt_le, (diag_pos nf); assumption. }
  assert (Hm : mat_type ty = true -> forall i k, (i < nc)%nat -> (k < nm)%nat ->
             psd nf (comp_S ty (start_cv ty nf M) i k) /\ xltb (eig (fmat nf nf (comp_S ty (start_cv ty nf M) i k))) (Fin 0) = false).
  { intros Em i k _ _. assert (PS : psd nf (comp_S ty (start_cv ty nf M) i k)).
    { assert (EQ : forall f g, comp_S ty (start_cv ty nf M) i k f g = M f g).
      { intros f g. unfold comp_S, start_cv. destruct (csh_cases nc nm nf ty Hty) as [(E1 & E2 & E3 & E4 & E5 & E6 & E7 & E8) | [(E1 & E2 & E3 & E4 & E5 & E6 & E7 & E8) | [(E1 & E2 & E3 & E4 & E5 & E6 & E7 & E8) | (E1 & E2 & E3 & E4 & E5 & E6 & E7 & E8)]]];
          rewrite E5 in Em; try discriminate; rewrite E4, ?E1; reflexivity. }
      destruct (Gmm_dens.pd_psd nf M PD) as [Sy Q]. split.
      - intros f g Hf Hg. rewrite !EQ. apply Sy; assumption.
      - intros v. rewrite (quad_ext nf _ M) by (intros; apply EQ). apply Q. }
    split; [exact PS|]. apply He, PS. }
  assert (BO : base_ok h1 nc pi A).
  { constructor; try assumption; try (rewrite C1; reflexivity).
    - intros i Hi'. apply Rlt_le, P1, Hi'.
    - apply Covars_thms.near1_1, P2.
    - intros i j Hi' Hj. apply Rlt_le, P3; assumption.
    - intros i Hi'. apply Covars_thms.near1_1, P4, Hi'. }
  assert (GM : gmm_model eig h1 nc nm nf ty pi A (fun _ _ => / INR nm) mu (start_cv ty nf M)).
  { constructor; try assumption; auto.
    - intros i k _ _. lra.
    - intros i Hi'. apply Covars_thms.near1_1, (Hw1 i Hi'). }
  pose proof (flat_hyper_ok nc nm nf ty Hty Hs) as HO.
  assert (Hcw : vec_type ty = true -> forall idx : list nat, 0 <= none_cw ty nm nf).
  { intros Ev idx. unfold none_cw. destruct (csh_cases nc nm nf ty Hty) as [(E1 & E2 & E3 & E4 & E5 & E6 & E7 & E8) | [(E1 & E2 & E3 & E4 & E5 & E6 & E7 & E8) | [(E1 & E2 & E3 & E4 & E5 & E6 & E7 & E8) | (E1 & E2 & E3 & E4 & E5 & E6 & E7 & E8)]]];
      rewrite E6 in Ev; try discriminate; rewrite E1, E4; lra. }
  set (wp := fun _ _ : nat => 1) in *. set (mw := fun _ _ : nat => 0) in *. set (mp := fun _ _ _ : nat => 0) in *.
  set (cp := fun _ : list nat => none_cp ty nm nf) in *. set (cw := fun _ : list nat => none_cw ty nm nf) in *.
  assert (Hwp : forall i k, (i < nc)%nat -> (k < nm)%nat -> 0 < (fun _ _ : nat => / INR nm) i k) by (intros; exact HM).
  assert (Hsub : true = true -> forall i, (i < nc)%nat -> sumn nm ((fun _ _ : nat => / INR nm) i) <= 1).
  { intros _ i Hi'. rewrite (Hw1 i Hi'). lra. }
  assert (Hb : forall o i, finite_row nf o -> (i < nc)%nat -> 0 < mixb nm nf ty (fun _ _ => / INR nm) mu (start_cv ty nf M) o i).
  { intros o i _ Hi'. apply (mixb_pos nc nm nf).
    - apply (model_cov_ok _ _ _ _ _ _ _ _ _ _ _ GM).
    - intros i' k' _ _. lra.
    - intros i' Hi''. rewrite (Hw1 i' Hi''). lra.
    - exact Hi'. }
  destruct (data_pos (finite_row nf) nc pi A _ Hnc P1 P3 ls x Hd Hb) as [Hp Hu].
  pose proof (gmm_tstate eig h1 nc nm nf ty pi A _ mu _ GM wp mw mp cp cw Hwp true Hsub ls x Hd Hp Hu) as TS.
  pose proof (gmm_fit_check eig h1 nc nm nf ty pi A _ mu _ GM wp mw mp cp cw HH) as Hck.
  set (p1 := gmm_checked nc nm nf ty wp mw mp cp cw (h_em h1)) in *.
  assert (PL : gmm_plus nc nm nf ty wp mw mp cp cw (h_cfg h1) (Some nf) p1).
  { split; [apply (gmm_p1_good eig h1 nc nm nf ty pi A _ mu _ GM wp mw mp cp cw Hwp true Hsub)|]. split.
    - intros i Hi'. rewrite (sumn_ext nm _ (fun _ => / INR nm)); [apply (Hw1 i Hi')|].
      intros k Hk. apply (p1_w eig h1 nc nm nf ty pi A _ mu _ GM wp mw mp cp cw i k Hi' Hk).
    - intros Ev idx Hidx. unfold p1. rewrite (p1_cv eig h1 nc nm nf ty pi A _ mu _ GM wp mw mp cp cw idx Hidx). apply Hv; assumption. }
  assert (TS2 := tstate_and nc _ _ _ ls x _ pi A (gmm_plus nc nm nf ty wp mw mp cp cw) TS PL).
  assert (Hbp : forall c nfe p o i, gmm_plus nc nm nf ty wp mw mp cp cw c nfe p -> finite_row nf o -> (i < nc)%nat -> 0 < gmm_bp nm nf ty p o i).
  { intros c nfe p o i (Hg & _) _ Hi'. apply (bp_pos nc nm nf Hnm ty wp mw mp cp cw true c nfe p o i Hg Hi'). }
  destruct (gen_fresh (gmm eig) nc (finite_row nf) (gmm_plus nc nm nf ty wp mw mp cp cw) (gmm_bp nm nf ty) true
    (plus_trains eig nc nm nf Hnc Hnm Hnf ty Hty wp mw mp cp cw HO Hcw) ls x Hd (fun _ => 1) (fun _ _ => 1)) with
    (h := h1) (h1 := with_em h1 (Some nf) p1) (pi := pi) (A := A) as (h' & ev2 & Hf & _ & Ht); try (intros; lra); try assumption.
  - intros c nfe p Hc Hg. apply (plus_check eig nc nm nf He Hnm ty Hty wp mw mp cp cw c nfe p Hc Hg).
  - apply (flat_base_priors h1 nc). unfold flat_base. rewrite C1. exact FB.
  - split; [exact P1|]. split; [exact P2|]. split; [exact P3|]. split; [exact P4|]. intros o i Ho Hi'.
    cbn [with_em h_em]. apply (Hbp (h_cfg h1) (Some nf)); [exact PL| |exact Hi']. pose proof (proj1 Hd) as F. rewrite Forall_forall in F. apply F, Ho.
  - cbn [with_em h_cfg]. rewrite C1. exact Him.
  - exists (Est h' (e_rs e1)), glob1, (ev ++ ev2). split; [|exact (Ht Hbp)].
    apply (fit_split (gmm eig) (gmm_initc gr) rg e glob x _ e1 glob1 ev h' ev2).
    + apply (nonempty_data (finite_row nf) ls x Hd).
    + pose proof (proj1 Hd) as F. eapply Forall_impl; [|exact F]. intros o Ho. apply Ho.
    + exact Hi.
    + exact Hf.
Qed.

(** The hypotheses hold for a model with two states of two components and two
    samples, whatever the covariance type. *)
Definition flat_grng : grng unit := Grng
  (fun k x g => if Nat.ltb (length x) k then Err (ValueError "n_samples should be >= n_clusters")
                else Ok (map (fun _ => 0%nat) x, fmat k (width x) (fun i _ => INR i), g))
  (fun mean cov n g => Ok (fmat n (length mean) (fun i _ => INR i), g)).
Definition fr_gmm (ty : string) : hmm gmmp :=
  Hmm (Cfg 2 "stmcw" "stmcw" "viterbi" "log" 10 (Fin (/ 100)) false (Scal (Fin 1)) (Scal (Fin 1))) None None None fr_mon
      (Gmmp 2 ty (Fin (/ 1000)) (nscal (Fin 1)) (nscal (Fin 0)) (nscal (Fin 0)) None None None None None).
Lemma flat_grng_good n : good_grng flat_grng n.
Proof.
  split.
  - intros k y g Hk Hl Hy. cbn [gr_kmeans flat_grng]. rewrite (proj2 (Nat.ltb_ge _ _) Hl).
    destruct y as [|o y]; [cbn in Hl; lia|]. cbn [width]. inversion Hy as [|? ? Ho]. rewrite (proj1 Ho). eauto.
  - intros c S k g _. cbn [gr_mvn flat_grng]. unfold fvec at 1. rewrite tab_length. eauto.
Qed.
Lemma eig1_good : good_eig eig1.
Proof.
  intros n S [Sy PS]. unfold eig1. destruct n as [|n]; [reflexivity|]. rewrite mget_fmat by lia. unfold xltb, Rltb.
  destruct (Rlt_dec (S 0 0)%nat 0) as [Hlt|]; [|reflexivity]. exfalso.
  specialize (PS (fun k => if Nat.eqb k 0 then 1 else 0)). 
  assert (Q : quad (Datatypes.S n) S (fun k => if Nat.eqb k 0 then 1 else 0) = S 0%nat 0%nat).
  { unfold quad. rewrite (sumn_ext _ _ (fun i => if Nat.eqb i 0 then S i 0%nat else 0)).
    - apply (sumn_if_eq (Datatypes.S n) (fun i => S i 0%nat)). lia.
    - intros i Hi. rewrite (sumn_ext _ _ (fun j => if Nat.eqb j 0 then (if Nat.eqb i 0 then S i j else 0) else 0)).
      + apply (sumn_if_eq (Datatypes.S n) (fun j => if Nat.eqb i 0 then S i j else 0)). lia.
      + intros j Hj. destruct (Nat.eqb i 0), (Nat.eqb j 0); ring. }
  rewrite Q in PS. lra.
Qed.
Lemma C76_gmm_applies_l : forall ty, is_type covariance_types ty = true -> exists e' ev,
  fit (gmm eig1) (gmm_initc flat_grng) flat_rng exact (Est (fr_gmm ty) (RSSeed 0)) tt cv_x (as_lengths [2%nat]) = Ok (e', tt, ev)
  /\ usable (gmm eig1) (finite_row 2) (e_hmm e').
Proof.
  intros ty Hty.
  destruct (C76_gmm_l flat_grng flat_rng eig1 (Est (fr_gmm ty) (RSSeed 0)) tt cv_x [2%nat] 2 2 (/ 1000)) as (e' & [] & ev & Hf & _ & Ht).
  - unfold new_gmm. cbn [e_hmm e_rs fr_gmm h_start h_trans h_em h_cfg h_nfeat gm_weights gm_means gm_covars gm_type gm_nmix gm_min_covar c_nc c_params c_impl].
    repeat (split; [reflexivity|]). split; [exists tt; reflexivity|]. repeat (split; [lia|]). split.
    { intros a. cbn [has]. cbn [In]. intros H.
      repeat (apply Bool.orb_true_iff in H as [H|H]; [apply Ascii.eqb_eq in H; subst a; auto 10|]). 
      all: try discriminate; try (apply Ascii.eqb_eq in H; subst a; auto 10). }
    split; [left; reflexivity|]. split; [exact Hty|]. split; [reflexivity|]. split; [reflexivity|]. split; [lra|].
    split; [split; reflexivity|]. split; [repeat split|reflexivity].
  - exact flat_pos.
  - apply flat_grng_good.
  - exact eig1_good.
  - intros _. lia.
  - split; [exact cv_x_ok|]. repeat split; [discriminate|repeat constructor].
  - cbn. lia.
  - cbn. lia.
  - exists e', ev. split; [exact Hf|]. destruct Ht as (pi & A & _ & _ & _ & _ & _ & _ & Hu); [|exact Hu].
    exists cv_x. split; [left; reflexivity|cbn; lia].
Qed.
