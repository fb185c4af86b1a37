(** * GMMHMM: properties C02, C14, C21, C25, C38, C39, C40. *)
From Verif Require Export Gmm_gain Full_thms Gauss_thms.

(** Covariances given as functions of two, three or four indices. *)
Definition idx2 (f : nat -> nat -> R) (l : list nat) : R := f (nth 0 l 0%nat) (nth 1 l 0%nat).
Definition idx3 (f : nat -> nat -> nat -> R) (l : list nat) : R := f (nth 0 l 0%nat) (nth 1 l 0%nat) (nth 2 l 0%nat).
Definition idx4 (f : nat -> nat -> nat -> nat -> R) (l : list nat) : R :=
  f (nth 0 l 0%nat) (nth 1 l 0%nat) (nth 2 l 0%nat) (nth 3 l 0%nat).

(** A GMMHMM with finite parameters of the documented shapes that satisfy the
    checks on their values. *)
Record gmm_model (eig : mat -> xnum) (h : hmm gmmp) (nc nm nf : nat) (ty : string) (pi : nat -> R) (A w : nat -> nat -> R)
    (mu : nat -> nat -> nat -> R) (cv : list nat -> R) : Prop := GmmModel {
  mm_base : base_ok h nc pi A;
  mm_nm : (0 < nm)%nat;
  mm_nf : (0 < nf)%nat;
  mm_nfeat : h_nfeat h = None \/ h_nfeat h = Some nf;
  mm_nmix : gm_nmix (h_em h) = nm;
  mm_type : gm_type (h_em h) = ty;
  mm_known : is_type covariance_types ty = true;
  mm_weights : gm_weights (h_em h) = Some (nd2 nc nm w);
  mm_w0 : nonneg2 nc nm w;
  mm_w1 : forall i, (i < nc)%nat -> near1 (sumn nm (w i));
  mm_means : gm_means (h_em h) = Some (nd3 nc nm nf mu);
  mm_covars : gm_covars (h_em h) = Some (fnd (cshape nc nm nf ty) cv);
  mm_var : vec_type ty = true -> forall idx, inb idx (cshape nc nm nf ty) -> 0 <= cv idx;
  mm_mat : mat_type ty = true -> forall i k, (i < nc)%nat -> (k < nm)%nat ->
    psd nf (comp_S ty cv i k) /\ xltb (eig (fmat nf nf (comp_S ty cv i k))) (Fin 0) = false }.

(** The hyper-parameters: arrays or numbers, broadcast to the documented shapes;
    None for the covariances gives the library's own choice. *)
Definition none_cp (ty : string) (nm nf : nat) : R :=
  if String.eqb ty "diag" then - (3 / 2) else if String.eqb ty "spherical" then - ((INR nm + 2) / 2) else 0.
Definition none_cw (ty : string) (nm nf : nat) : R :=
  if String.eqb ty "full" then - (1 + INR nf + 1) else if String.eqb ty "tied" then - (INR nm + INR nf + 1) else 0.
Record gmm_hyper (p : gmmp) (nc nm nf : nat) (ty : string) (wp mw : nat -> nat -> R) (mp : nat -> nat -> nat -> R)
    (cp cw : list nat -> R) : Prop := GmmHyper {
  gh_w : nbroadcast (gm_wprior p) [nc; nm] = Ok (nd2 nc nm wp);
  gh_m : nbroadcast (gm_mprior p) [nc; nm; nf] = Ok (nd3 nc nm nf mp);
  gh_mw : nbroadcast (gm_mweight p) [nc; nm] = Ok (nd2 nc nm mw);
  gh_c : match gm_cprior p with
         | Some a => nbroadcast a (cshape nc nm nf ty) = Ok (fnd (cshape nc nm nf ty) cp)
         | None => cp = fun _ => none_cp ty nm nf
         end;
  gh_cw : match gm_cweight p with
          | Some a => nbroadcast a (wshape nc nm nf ty) = Ok (fnd (wshape nc nm nf ty) cw)
          | None => cw = fun _ => none_cw ty nm nf
          end }.
(** All hyper-parameters as the constructor leaves them. *)
Definition gmm_flat (h : hmm gmmp) : Prop :=
  gm_wprior (h_em h) = nscal (Fin 1) /\ gm_mprior (h_em h) = nscal (Fin 0) /\ gm_mweight (h_em h) = nscal (Fin 0)
  /\ gm_cprior (h_em h) = None /\ gm_cweight (h_em h) = None.
Lemma gmm_flat_hyper h nc nm nf ty : gmm_flat h ->
  gmm_hyper (h_em h) nc nm nf ty (fun _ _ => 1) (fun _ _ => 0) (fun _ _ _ => 0)
    (fun _ => none_cp ty nm nf) (fun _ => none_cw ty nm nf).
Proof.
  intros (E1 & E2 & E3 & E4 & E5). constructor; rewrite ?E1, ?E2, ?E3, ?E4, ?E5; try apply nbroadcast_scal; reflexivity.
Qed.

Lemma flat_cden (nc nm nf : nat) ty idx : is_type covariance_types ty = true ->
  cden nm nf ty (fun _ => none_cp ty nm nf) (fun _ => none_cw ty nm nf) idx
  = if String.eqb ty "spherical" then INR nf - INR nm else 0.
Proof.
  intros Hty. unfold cden, none_cp, none_cw.
  destruct (csh_cases nc nm nf ty Hty) as [(E1 & E2 & E3 & E4 & _) | [(E1 & E2 & E3 & E4 & _) | [(E1 & E2 & E3 & E4 & _) | (E1 & E2 & E3 & E4 & _)]]];
    rewrite ?E1, ?E2, ?E3, ?E4; field.
Qed.

Lemma symmetric_ok n S : sym n S -> symmetric exact (fmat n n S) = true.
Proof.
  intros HS. unfold symmetric. rewrite nrow_fmat. apply forallb_forall. intros i Hi. apply forallb_forall. intros j Hj.
  apply in_seq in Hi, Hj. rewrite !mget_fmat by lia. rewrite (HS i j) by lia.
  unfold allclose, xeqb. assert (E : forall a, Reqb a a = true) by (intros; apply Reqb_true; reflexivity). rewrite E. reflexivity.
Qed.

Lemma check_all_ok {T} (f : T -> res unit) l : (forall a, In a l -> f a = Ok tt) -> check_all f l = Ok tt.
Proof.
  induction l as [|a l IH]; intros H; [reflexivity|]. cbn [check_all]. rewrite H by (left; reflexivity). cbn [bind].
  apply IH. intros; apply H; right; assumption.
Qed.

Section Check.
  Variables (eig : mat -> xnum) (nc nm nf : nat) (ty : string).
  Hypothesis Hty : is_type covariance_types ty = true.
  Local Notation csh := (cshape nc nm nf ty).

  Lemma check_covars_ok cv :
    (vec_type ty = true -> forall idx, inb idx csh -> 0 <= cv idx) ->
    (mat_type ty = true -> forall i k, (i < nc)%nat -> (k < nm)%nat ->
       psd nf (comp_S ty cv i k) /\ xltb (eig (fmat nf nf (comp_S ty cv i k))) (Fin 0) = false) ->
    (0 < nm)%nat ->
    check_covars eig exact ty nc nm nf (fnd csh cv) = Ok tt.
  Proof.
    intros Hv Hm Hnm. unfold check_covars.
    assert (Hmat : forall i k idx, (i < nc)%nat -> (k < nm)%nat -> mat_type ty = true ->
      (forall f g, (f < nf)%nat -> (g < nf)%nat -> nget (fnd csh cv) (idx ++ [f; g]) = Fin (comp_S ty cv i k f g)) ->
      check_cov_mat eig exact (mat_at (fnd csh cv) nf idx) = Ok tt).
    { intros i k idx Hi Hk HM Hget. assert (E : mat_at (fnd csh cv) nf idx = fmat nf nf (comp_S ty cv i k)).
      { unfold mat_at, fmat. apply mtab_ext. intros; apply Hget; assumption. }
      rewrite E. unfold check_cov_mat. destruct (Hm HM i k Hi Hk) as [[HS _] He]. rewrite symmetric_ok by exact HS. rewrite He. reflexivity. }
    destruct (csh_cases nc nm nf ty Hty) as [(E1 & E2 & E3 & E4 & E5 & E6 & E7 & E8) | [(E1 & E2 & E3 & E4 & E5 & E6 & E7 & E8) | [(E1 & E2 & E3 & E4 & E5 & E6 & E7 & E8) | (E1 & E2 & E3 & E4 & E5 & E6 & E7 & E8)]]];
      rewrite ?E6, ?E4.
    1, 2: replace (existsb _ (ndat (fnd csh cv))) with false; [reflexivity|]; symmetry; apply Bool.not_true_is_false; intros Hex;
      apply existsb_exists in Hex; destruct Hex as (a & Ha & Hlt); unfold fnd, ntab in Ha; cbn [ndat] in Ha; apply in_map_iff in Ha;
      destruct Ha as (idx & <- & Hin); apply in_nidx in Hin; cbn [xltb] in Hlt; apply Rltb_true in Hlt; specialize (Hv E6 idx Hin); lra.
    - apply check_all_ok. intros [i k] Hin. apply in_prod_iff in Hin. destruct Hin as [Hi Hk]. apply in_seq in Hi, Hk.
      apply (Hmat i k); try lia; [exact E5|]. intros f g Hf Hg. cbn [app]. rewrite nget_fnd by (rewrite E7; apply inb4; lia).
      unfold comp_S. rewrite E4. reflexivity.
    - apply check_all_ok. intros i Hi. apply in_seq in Hi.
      apply (Hmat i 0%nat); try lia; [exact E5|]. intros f g Hf Hg. cbn [app]. rewrite nget_fnd by (rewrite E7; apply inb3; lia).
      unfold comp_S. rewrite E4. reflexivity.
  Qed.

  Variables (wp mw : nat -> nat -> R) (mp : nat -> nat -> nat -> R) (cp cw : list nat -> R).

  Definition gmm_checked (p : gmmp) : gmmp :=
    gm_set_priors p (nd2 nc nm wp) (nd3 nc nm nf mp) (nd2 nc nm mw) (Some (fnd csh cp)) (Some (fnd (wshape nc nm nf ty) cw)).

  Lemma fix_priors_ok p : gm_nmix p = nm -> gm_type p = ty -> gmm_hyper p nc nm nf ty wp mw mp cp cw ->
    fix_priors exact nc nf p = Ok (gmm_checked p).
  Proof.
    intros Hpm Hpt [Hw Hm Hmw Hc Hcw]. unfold fix_priors. rewrite Hpm, Hpt, Hw. cbn [bind]. rewrite Hm. cbn [bind]. rewrite Hmw. cbn [bind].
    assert (S1 : cprior_shape ty nc nm nf = Some csh).
    { unfold cshape. destruct (type_cases ty Hty) as [E | [E | [E | E]]]; rewrite E; reflexivity. }
    assert (S2 : cweight_shape ty nc nm nf = Some (wshape nc nm nf ty)).
    { unfold wshape. destruct (type_cases ty Hty) as [E | [E | [E | E]]]; rewrite E; reflexivity. }
    rewrite S1, S2.
    assert (F1 : fix_prior match gm_cprior p with Some a => Some a | None => option_map nscal (default_cprior exact ty nm nf) end (Some csh)
                 = Ok (Some (fnd csh cp))).
    { destruct (gm_cprior p) as [a|]; [cbn [fix_prior]; rewrite Hc; reflexivity|]. rewrite Hc.
      assert (D : default_cprior exact ty nm nf = Some (Fin (none_cp ty nm nf))).
      { unfold default_cprior, none_cp. destruct (csh_cases nc nm nf ty Hty) as [(E1 & E2 & E3 & E4 & _) | [(E1 & E2 & E3 & E4 & _) | [(E1 & E2 & E3 & E4 & _) | (E1 & E2 & E3 & E4 & _)]]];
        rewrite ?E1, ?E2, ?E3, ?E4; try reflexivity. rewrite xaddE, xsubE, xdivE by lra. do 2 f_equal. field. }
      rewrite D. cbn [option_map fix_prior]. rewrite nbroadcast_scal. reflexivity. }
    assert (F2 : fix_prior match gm_cweight p with Some a => Some a | None => option_map nscal (default_cweight exact ty nm nf) end (Some (wshape nc nm nf ty))
                 = Ok (Some (fnd (wshape nc nm nf ty) cw))).
    { destruct (gm_cweight p) as [a|]; [cbn [fix_prior]; rewrite Hcw; reflexivity|]. rewrite Hcw.
      assert (D : default_cweight exact ty nm nf = Some (Fin (none_cw ty nm nf))).
      { unfold default_cweight, none_cw. destruct (csh_cases nc nm nf ty Hty) as [(E1 & E2 & E3 & E4 & _) | [(E1 & E2 & E3 & E4 & _) | [(E1 & E2 & E3 & E4 & _) | (E1 & E2 & E3 & E4 & _)]]];
        rewrite ?E1, ?E2, ?E3, ?E4; try reflexivity; rewrite ?xaddE, ?xsubE; do 2 f_equal; rewrite ?plus_INR; ring. }
      rewrite D. cbn [option_map fix_prior]. rewrite nbroadcast_scal. reflexivity. }
    rewrite F1. cbn [bind]. rewrite F2. reflexivity.
  Qed.

  Lemma hyper_checked p : gmm_hyper (gmm_checked p) nc nm nf ty wp mw mp cp cw.
  Proof. constructor; cbn [gmm_checked gm_set_priors gm_wprior gm_mprior gm_mweight gm_cprior gm_cweight]; apply nbroadcast_fnd. Qed.
  Lemma checked_idem p : gmm_checked (gmm_checked p) = gmm_checked p.
  Proof. reflexivity. Qed.

  Lemma gmm_check_ok c nfe p w mu cv : c_nc c = nc -> (0 < nm)%nat -> nfe = None \/ nfe = Some nf ->
    gm_nmix p = nm -> gm_type p = ty -> gmm_hyper p nc nm nf ty wp mw mp cp cw ->
    gm_weights p = Some (nd2 nc nm w) -> (forall i, (i < nc)%nat -> near1 (sumn nm (w i))) ->
    gm_means p = Some (nd3 nc nm nf mu) -> gm_covars p = Some (fnd csh cv) ->
    (vec_type ty = true -> forall idx, inb idx csh -> 0 <= cv idx) ->
    (mat_type ty = true -> forall i k, (i < nc)%nat -> (k < nm)%nat ->
       psd nf (comp_S ty cv i k) /\ xltb (eig (fmat nf nf (comp_S ty cv i k))) (Fin 0) = false) ->
    gmm_check eig exact c nfe p = Ok (Some nf, gmm_checked p).
  Proof.
    intros Hc Hnm Hnfe Hpm Hpt Hh Hw Hw1 Hm Hcv Hv HM. unfold gmm_check.
    assert (E : match nfe with
                | Some n => Ok n
                | None => match gm_means p with
                          | None => Err (AttributeError "means_")
                          | Some m => match nsh m with _ :: _ :: n :: _ => Ok n | _ => Err IndexError end
                          end
                end = Ok nf).
    { destruct Hnfe as [-> | ->]; [rewrite Hm|]; reflexivity. }
    rewrite E. cbn [bind]. rewrite Hc, (fix_priors_ok p Hpm Hpt Hh). cbn [bind].
    rewrite Hpt, Hty, Hw, Hpm. cbn [negb nsh nd2 fnd ntab]. rewrite same_shape_refl. cbn [negb].
    replace (forallb _ (seq 0 nc)) with true.
    2:{ symmetry. apply forallb_forall. intros i Hi. apply in_seq in Hi.
        assert (En : nrow2 (nd2 nc nm w) i nm = fvec nm (w i)).
        { unfold nrow2, fvec. apply tab_ext. intros k Hk. apply nget_nd2; lia. }
        change (Nd [nc; nm] _) with (nd2 nc nm w). rewrite En. apply check_sum_1_fvec. apply Hw1. lia. }
    cbn [negb]. rewrite Hm, Hcv. cbn [nsh nd3 fnd ntab]. rewrite same_shape_refl. cbn [negb].
    assert (S1 : cprior_shape ty nc nm nf = Some csh).
    { unfold cshape. destruct (type_cases ty Hty) as [E' | [E' | [E' | E']]]; rewrite E'; reflexivity. }
    rewrite S1, same_shape_refl. cbn [negb].
    change (Nd csh _) with (fnd csh cv). rewrite check_covars_ok by assumption. reflexivity.
  Qed.
End Check.

Lemma model_cov_ok eig h nc nm nf ty pi A w mu cv : gmm_model eig h nc nm nf ty pi A w mu cv -> cov_ok nc nm nf ty cv.
Proof. intros M. split; [apply M|]. intros HM i k Hi Hk. apply (mm_mat _ _ _ _ _ _ _ _ _ _ _ M HM i k Hi Hk). Qed.

Section Model.
  Variables (eig : mat -> xnum) (h : hmm gmmp) (nc nm nf : nat) (ty : string) (pi : nat -> R) (A w : nat -> nat -> R)
    (mu : nat -> nat -> nat -> R) (cv : list nat -> R).
  Hypothesis GM : gmm_model eig h nc nm nf ty pi A w mu cv.
  Variables (wp mw : nat -> nat -> R) (mp : nat -> nat -> nat -> R) (cp cw : list nat -> R).
  Hypothesis HH : gmm_hyper (h_em h) nc nm nf ty wp mw mp cp cw.
  Local Notation csh := (cshape nc nm nf ty).
  Let p1 := gmm_checked nc nm nf ty wp mw mp cp cw (h_em h).
  Let h1 := with_em h (Some nf) p1.

  Lemma gmm_model_check : ec_check (gmm eig) exact (h_cfg h) (h_nfeat h) (h_em h) = Ok (Some nf, p1).
  Proof.
    destruct GM. apply (gmm_check_ok eig nc nm nf ty mm_known0 wp mw mp cp cw _ _ _ w mu cv); try assumption. apply mm_base0.
  Qed.
  Lemma gmm_model_check1 : ec_check (gmm eig) exact (h_cfg h) (Some nf) p1 = Ok (Some nf, p1).
  Proof.
    destruct GM. cbn [gmm ec_check].
    rewrite (gmm_check_ok eig nc nm nf ty mm_known0 wp mw mp cp cw _ _ p1 w mu cv); try assumption; try reflexivity.
    - apply mm_base0.
    - right. reflexivity.
    - apply hyper_checked.
  Qed.

  Lemma gmm_ready : ready (gmm eig) h nc pi A (finite_row nf) (mixb nm nf ty w mu cv).
  Proof.
    apply (base_ok_ready (gmm eig) h nc pi A (Some nf) p1); [apply GM|exact gmm_model_check|exact gmm_model_check1|].
    unfold with_em. pose proof (model_cov_ok _ _ _ _ _ _ _ _ _ _ _ GM) as Hco. destruct GM.
    apply (gmm_emits0 nc nm nf mm_nm0 mm_nf0); try assumption. apply mm_base0.
  Qed.
End Model.

(** Densities depend only on the entries of the arrays. *)
Lemma mvnf_ext n mu mu' A A' o : (forall f, (f < n)%nat -> mu f = mu' f) ->
  (forall f g, (f < n)%nat -> (g < n)%nat -> A f g = A' f g) -> mvnf n mu A o = mvnf n mu' A' o.
Proof.
  intros Hm HA. unfold mvnf. rewrite (det_ext n A A' HA), (fmat_ext n n A A' HA).
  rewrite (fvec_ext n (fun f => xval o f - mu f) (fun f => xval o f - mu' f)) by (intros f Hf; rewrite (Hm f Hf); reflexivity). reflexivity.
Qed.
Lemma eff_ext n A A' : (forall f g, (f < n)%nat -> (g < n)%nat -> A f g = A' f g) ->
  forall f g, (f < n)%nat -> (g < n)%nat -> eff n A f g = eff n A' f g.
Proof.
  intros HA f g Hf Hg. unfold eff. rewrite (fmat_ext n n A A' HA).
  destruct (cholesky exact (fmat n n A')) as [[c|]|]; unfold ridge; rewrite HA by assumption; reflexivity.
Qed.
Lemma dens_ext nc nm nf ty mu mu' cv cv' o i k : is_type covariance_types ty = true -> (i < nc)%nat -> (k < nm)%nat ->
  (forall f, (f < nf)%nat -> mu i k f = mu' i k f) ->
  (forall idx, inb idx (cshape nc nm nf ty) -> cv idx = cv' idx) ->
  dens nf ty mu cv o i k = dens nf ty mu' cv' o i k.
Proof.
  intros Hty Hi Hk Hm Hc. unfold dens.
  destruct (csh_cases nc nm nf ty Hty) as [(E1 & E2 & E3 & E4 & E5 & E6 & E7 & E8) | [(E1 & E2 & E3 & E4 & E5 & E6 & E7 & E8) | [(E1 & E2 & E3 & E4 & E5 & E6 & E7 & E8) | (E1 & E2 & E3 & E4 & E5 & E6 & E7 & E8)]]];
    rewrite E6, E7 in *.
  - unfold gauss_b. apply prodn_ext. intros f Hf. unfold floored, comp_v. rewrite E3, (Hm f Hf), Hc by (apply inb2; assumption). reflexivity.
  - unfold gauss_b. apply prodn_ext. intros f Hf. unfold floored, comp_v. rewrite E3, (Hm f Hf), Hc by (apply inb3; assumption). reflexivity.
  - apply mvnf_ext; [exact Hm|]. apply eff_ext. intros f g Hf Hg. unfold comp_S. rewrite E4. apply Hc. apply inb4; assumption.
  - apply mvnf_ext; [exact Hm|]. apply eff_ext. intros f g Hf Hg. unfold comp_S. rewrite E4. apply Hc. apply inb3; assumption.
Qed.
Lemma mixb_ext nc nm nf ty w w' mu mu' cv cv' o i : is_type covariance_types ty = true -> (i < nc)%nat ->
  (forall k, (k < nm)%nat -> w i k = w' i k) ->
  (forall k f, (k < nm)%nat -> (f < nf)%nat -> mu i k f = mu' i k f) ->
  (forall idx, inb idx (cshape nc nm nf ty) -> cv idx = cv' idx) ->
  mixb nm nf ty w mu cv o i = mixb nm nf ty w' mu' cv' o i.
Proof.
  intros Hty Hi Hw Hm Hc. unfold mixb. apply sumn_ext. intros k Hk. rewrite (Hw k Hk). f_equal.
  apply (dens_ext nc nm); auto.
Qed.

(** ** Training. *)
Lemma improves_none {P X St} (E : emclass P X St) nc ok good b : improves E nc ok good b (fun _ _ _ _ => False) (fun _ => 0).
Proof. intros c nfe p l st p' _ _ _ []. Qed.

(** Trajectories of all parameters of a trained model. *)
Definition gmm_traj (h : hmm gmmp) nc nm nf ty pi A w mu cv (h' : hmm gmmp)
    (pis : nat -> nat -> R) (As ws : nat -> nat -> nat -> R) (mus : nat -> nat -> nat -> nat -> R) (cvs : nat -> list nat -> R) : Prop :=
  let k := length (m_history (h_mon h')) in
  pis 0%nat = pi /\ As 0%nat = A
  /\ (forall i k, (i < nc)%nat -> (k < nm)%nat -> ws 0%nat i k = w i k /\ forall f, (f < nf)%nat -> mus 0%nat i k f = mu i k f)
  /\ (forall idx, inb idx (cshape nc nm nf ty) -> cvs 0%nat idx = cv idx)
  /\ h_start h' = Some (fvec nc (pis k)) /\ h_trans h' = Some (fmat nc nc (As k))
  /\ gm_weights (h_em h') = Some (nd2 nc nm (ws k)) /\ gm_means (h_em h') = Some (nd3 nc nm nf (mus k))
  /\ gm_covars (h_em h') = Some (fnd (cshape nc nm nf ty) (cvs k))
  /\ gm_type (h_em h') = ty /\ gm_nmix (h_em h') = nm /\ h_nfeat h' = Some nf /\ c_nc (h_cfg h') = nc.

(** What the priors add to the scatter; [d] is the distance of the new means
    from their prior. *)
Definition cnum (nm nf : nat) (ty : string) (mw : nat -> nat -> R) (cp cw : list nat -> R) (d : nat -> nat -> nat -> R) (idx : list nat) : R :=
  let i := nth 0 idx 0%nat in
  let k := nth 1 idx 0%nat in
  let f := nth 2 idx 0%nat in
  if String.eqb ty "full" then cp [i; k; nth 3 idx 0%nat; f] + mw i k * (d i k f * d i k (nth 3 idx 0%nat))
  else if String.eqb ty "diag" then mw i k * (d i k f * d i k f) + 2 * cw idx
  else if String.eqb ty "spherical" then mw i k * sumn nf (fun f => d i k f * d i k f) + 2 * cw idx
  else sumn nm (fun q => mw i q * (d i q k * d i q f)) + cp [i; f; k].
Lemma cnum_ext nc nm nf ty mw cp cw d d' idx : is_type covariance_types ty = true -> inb idx (cshape nc nm nf ty) ->
  (forall i k f, (i < nc)%nat -> (k < nm)%nat -> (f < nf)%nat -> d i k f = d' i k f) ->
  cnum nm nf ty mw cp cw d idx = cnum nm nf ty mw cp cw d' idx.
Proof.
  intros Hty Hi Hd. unfold cnum.
  destruct (csh_cases nc nm nf ty Hty) as [(E1 & E2 & E3 & E4 & E5 & E6 & E7 & E8) | [(E1 & E2 & E3 & E4 & E5 & E6 & E7 & E8) | [(E1 & E2 & E3 & E4 & E5 & E6 & E7 & E8) | (E1 & E2 & E3 & E4 & E5 & E6 & E7 & E8)]]];
    rewrite ?E1, ?E2, ?E3, E7 in *.
  - apply inb_inv2 in Hi. destruct Hi as (i & k & -> & Hi & Hk). cbn [nth]. do 2 f_equal. apply sumn_ext. intros f Hf. rewrite !Hd by assumption. reflexivity.
  - apply inb_inv3 in Hi. destruct Hi as (i & k & f & -> & Hi & Hk & Hf). cbn [nth]. rewrite !Hd by assumption. reflexivity.
  - apply inb_inv4 in Hi. destruct Hi as (i & k & f & g & -> & Hi & Hk & Hf & Hg). cbn [nth]. rewrite !Hd by assumption. reflexivity.
  - apply inb_inv3 in Hi. destruct Hi as (i & f & g & -> & Hi & Hf & Hg). cbn [nth]. f_equal. apply sumn_ext. intros q Hq. rewrite !Hd by assumption. reflexivity.
Qed.

Lemma wsum_total {X} nc pi A (b : X -> nat -> R) xs (phi : X -> nat -> R) i :
  wsum (map (fun c => (c, seq_post nc pi A b c)) xs) phi i = weighted_total nc pi A b xs (fun o => phi o i) i.
Proof.
  rewrite <- wsum_posteriors. apply (wsum_ext _ _ _ _ (fun _ => True)); [|reflexivity].
  intros; apply Forall_forall; intros; exact I.
Qed.

Section Fit.
  Variables (eig : mat -> xnum) (h : hmm gmmp) (nc nm nf : nat) (ty : string) (pi : nat -> R) (A w : nat -> nat -> R)
    (mu : nat -> nat -> nat -> R) (cv : list nat -> R).
  Hypothesis GM : gmm_model eig h nc nm nf ty pi A w mu cv.
  Variables (wp mw : nat -> nat -> R) (mp : nat -> nat -> nat -> R) (cp cw : list nat -> R).
  Hypothesis HH : gmm_hyper (h_em h) nc nm nf ty wp mw mp cp cw.
  Hypothesis HO : hyper_ok nc nm nf ty wp mw cp cw.
  Hypothesis Hw : forall i k, (i < nc)%nat -> (k < nm)%nat -> 0 < w i k.
  Variable sub : bool.
  Hypothesis Hsub : sub = true -> forall i, (i < nc)%nat -> sumn nm (w i) <= 1.
  Variables (ls : list nat) (x : list vec).
  Hypothesis Hd : good_data (finite_row nf) ls x.
  Let B := mixb nm nf ty w mu cv.
  Hypothesis Hpos : possible nc pi A B ls x.
  Hypothesis Hu : all_used nc pi A B (chunks ls x).
  Local Notation csh := (cshape nc nm nf ty).
  Let p1 := gmm_checked nc nm nf ty wp mw mp cp cw (h_em h).
  Let h1 := with_em h (Some nf) p1.
  Let good := gmm_good nc nm nf ty wp mw mp cp cw sub.
  Let bp := gmm_bp nm nf ty.
  Let Hnc : (0 < nc)%nat := bo_pos _ _ _ _ (mm_base _ _ _ _ _ _ _ _ _ _ _ GM).
  Let Hnm : (0 < nm)%nat := mm_nm _ _ _ _ _ _ _ _ _ _ _ GM.
  Let Hnf : (0 < nf)%nat := mm_nf _ _ _ _ _ _ _ _ _ _ _ GM.
  Let Hty : is_type covariance_types ty = true := mm_known _ _ _ _ _ _ _ _ _ _ _ GM.
  Let TN := gmm_trains eig nc nm nf Hnc Hnm Hnf ty Hty wp mw mp cp cw HO sub.

  Lemma gmm_fit_check : check (gmm eig) exact h = Ok h1.
  Proof.
    apply (base_ok_check (gmm eig) h nc pi A); [apply GM|]. exact (gmm_model_check eig h nc nm nf ty pi A w mu cv GM wp mw mp cp cw HH).
  Qed.

  Lemma p1_w i k : (i < nc)%nat -> (k < nm)%nat -> gm_w p1 i k = w i k.
  Proof.
    intros Hi Hk. unfold gm_w, p1. cbn [gmm_checked gm_set_priors gm_weights]. rewrite (mm_weights _ _ _ _ _ _ _ _ _ _ _ GM), nget_nd2 by assumption. reflexivity.
  Qed.
  Lemma p1_mu i k f : (i < nc)%nat -> (k < nm)%nat -> (f < nf)%nat -> gm_mu p1 i k f = mu i k f.
  Proof.
    intros Hi Hk Hf. unfold gm_mu, p1. cbn [gmm_checked gm_set_priors gm_means]. rewrite (mm_means _ _ _ _ _ _ _ _ _ _ _ GM), nget_nd3 by assumption. reflexivity.
  Qed.
  Lemma p1_cv idx : inb idx csh -> gm_cv p1 idx = cv idx.
  Proof.
    intros Hi. unfold gm_cv, p1. cbn [gmm_checked gm_set_priors gm_covars]. rewrite (mm_covars _ _ _ _ _ _ _ _ _ _ _ GM), nget_fnd by assumption. reflexivity.
  Qed.

  Lemma gmm_p1_good : good (h_cfg h) (Some nf) p1.
  Proof.
    constructor; cbn [p1 gmm_checked gm_set_priors gm_nmix gm_type gm_weights gm_means gm_covars]; fold p1.
    - reflexivity.
    - apply GM.
    - apply GM.
    - rewrite (mm_weights _ _ _ _ _ _ _ _ _ _ _ GM). f_equal. apply nd2_ext. intros; symmetry; apply p1_w; assumption.
    - rewrite (mm_means _ _ _ _ _ _ _ _ _ _ _ GM). f_equal. apply nd3_ext. intros; symmetry; apply p1_mu; assumption.
    - rewrite (mm_covars _ _ _ _ _ _ _ _ _ _ _ GM). f_equal. apply fnd_ext. intros; symmetry; apply p1_cv; assumption.
    - apply (cov_ok_ext nc nm nf ty Hty cv); [apply (model_cov_ok _ _ _ _ _ _ _ _ _ _ _ GM)|]. intros; symmetry; apply p1_cv; assumption.
    - intros i k Hi Hk. rewrite p1_w by assumption. auto.
    - intros Hs i Hi. rewrite (sumn_ext _ _ (w i)); [auto|]. intros; apply p1_w; assumption.
    - constructor; reflexivity.
  Qed.

  Lemma gmm_bp_p1 o i : (i < nc)%nat -> B o i = bp p1 o i.
  Proof.
    intros Hi. unfold B, bp, gmm_bp. apply (mixb_ext nc); [exact Hty|exact Hi| | |].
    - intros; symmetry; apply p1_w; assumption.
    - intros; symmetry; apply p1_mu; assumption.
    - intros; symmetry; apply p1_cv; assumption.
  Qed.

  Lemma gmm_tstate : tstate nc good bp true ls x h1 pi A.
  Proof.
    apply base_ok_tstate.
    - apply GM.
    - exact gmm_p1_good.
    - apply (possible_ext (finite_row nf) nc pi A B); [|exact Hd|exact Hpos]. intros; apply gmm_bp_p1; assumption.
    - intros _. apply (all_used_ext (finite_row nf) nc pi A B); [|exact Hd|exact Hu]. intros; apply gmm_bp_p1; assumption.
  Qed.

  Variables (sp : nat -> R) (tp : nat -> nat -> R).
  Hypothesis Hsp : forall i, (i < nc)%nat -> 1 <= sp i.
  Hypothesis Htp : forall i j, (i < nc)%nat -> (j < nc)%nat -> 1 <= tp i j.
  Hypothesis HP : priors (h_cfg h) nc sp tp.

  Lemma gmm_fit_log_ok : c_impl (h_cfg h) = "log"%string ->
    exists h' ev, fit_from (gmm eig) exact h x (as_lengths ls) = Ok (h', ev).
  Proof.
    exact (gen_fit_log_ok (gmm eig) nc (finite_row nf) good bp true TN ls x Hd sp tp Hsp Htp h h1 pi A gmm_fit_check gmm_tstate HP).
  Qed.

  Lemma gmm_same_training h' ev :
    fit_from (gmm eig) exact h x (as_lengths ls) = Ok (h', ev) ->
    fit_from (gmm eig) exact (with_cfg (cfg_impl "log") h) x (as_lengths ls) = Ok (with_cfg (cfg_impl "log") h', ev).
  Proof.
    apply (gen_same_training (gmm eig) nc (finite_row nf) good bp true TN ls x Hd sp tp Hsp Htp h h1 pi A gmm_fit_check gmm_tstate HP);
      try reflexivity.
    intros i c nfe p []; constructor; assumption.
  Qed.

  Hypothesis Hp1 : sumn nc pi <= 1.
  Hypothesis HA1 : forall i, (i < nc)%nat -> sumn nc (A i) <= 1.
  Variables (W : cfg -> option nat -> gmmp -> list (list vec * (nat -> nat -> R)) -> Prop) (pen : gmmp -> R).
  Hypothesis HI : improves (gmm eig) nc (finite_row nf) good bp W pen.

  Theorem gmm_run0 h' ev : fit_from (gmm eig) exact h x (as_lengths ls) = Ok (h', ev) ->
    exists pis As ps,
      training (gmm eig) nc good bp true ls x sp tp W pen h1 h' pi A pis As ps
      /\ forall j, (j < length (m_history (h_mon h')))%nat ->
           let L := map (fun c => (c, seq_post nc (pis j) (As j) (bp (ps j)) c)) (chunks ls x) in
           good (h_cfg h) (Some nf) (ps j)
           /\ good_weights nc (finite_row nf) (bp (ps j)) L /\ visited nc L
           /\ ps (S j) = gmm_new nc nm nf ty wp mw mp cp cw (h_cfg h) (ps j) L.
  Proof.
    intros Hf.
    destruct (gen_monotone (gmm eig) nc (finite_row nf) good bp true TN ls x Hd sp tp Hsp Htp h h1 pi A gmm_fit_check gmm_tstate HP
               W pen h' ev HI Hp1 HA1 Hf) as (pis & As & ps & TG).
    exists pis, As, ps. split; [exact TG|]. intros j Hj L.
    assert (Hst := tg_st _ _ _ _ _ _ _ _ _ _ _ _ _ _ _ _ _ _ TG j ltac:(lia)).
    assert (Hg : good (h_cfg h) (Some nf) (ps j)) by apply Hst.
    assert (HL : good_weights nc (finite_row nf) (bp (ps j)) L)
      by exact (wpairs_good (gmm eig) nc (finite_row nf) good bp true TN ls x Hd _ (pis j) (As j) Hst).
    assert (HV : visited nc L) by (apply Hst; reflexivity).
    split; [exact Hg|]. split; [exact HL|]. split; [exact HV|].
    destruct (tg_step _ _ _ _ _ _ _ _ _ _ _ _ _ _ _ _ _ _ TG j Hj) as (st & T1 & T2).
    cbn [h1 with_em h_cfg h_nfeat] in T1, T2. fold L in T1.
    rewrite (gmm_acc_step eig nc nm nf Hnc Hnm Hnf ty Hty wp mw mp cp cw sub (h_cfg h) (ps j) L (Some nf)) in T1; try assumption; [|apply GM].
    injection T1 as <-.
    rewrite (gmm_mstep_ok eig nc nm nf Hnm Hnf ty Hty wp mw mp cp cw HO sub (h_cfg h) (ps j) L (Some nf)) in T2; try assumption; [|apply GM].
    injection T2 as T2. symmetry. exact T2.
  Qed.

  (** The run with the updates written out. *)
  Theorem gmm_run h' ev : fit_from (gmm eig) exact h x (as_lengths ls) = Ok (h', ev) ->
    exists pis As ws mus cvs ps, gmm_traj h nc nm nf ty pi A w mu cv h' pis As ws mus cvs
    /\ (forall j, ws j = gm_w (ps j) /\ mus j = gm_mu (ps j) /\ cvs j = gm_cv (ps j))
    /\ (forall j, (j < length (m_history (h_mon h')))%nat ->
         nth j (m_history (h_mon h')) NaN = Fin (data_loglik nc (pis j) (As j) (mixb nm nf ty (ws j) (mus j) (cvs j)) ls x))
    /\ (forall j, (j <= length (m_history (h_mon h')))%nat -> forall i k, (i < nc)%nat -> (k < nm)%nat -> 0 < ws j i k)
    /\ (forall j, (j < length (m_history (h_mon h')))%nat ->
         let r := resp nm nf ty (ws j) (mus j) (cvs j) in
         let b := mixb nm nf ty (ws j) (mus j) (cvs j) in
         let occ := occupancy nc (pis j) (As j) b (chunks ls x) in
         let tot := weighted_total nc (pis j) (As j) b (chunks ls x) in
         let N i k := tot (fun o => r o i k) i in
         let d i k f := mus (S j) i k f - mp i k f in
         let D o i k f := xval o f - mus j i k f in
         (forall i, (i < nc)%nat -> sumn nm (N i) = occ i /\ forall k, (k < nm)%nat -> 0 < N i k)
         /\ (forall i k, (i < nc)%nat -> (k < nm)%nat ->
               ws (S j) i k = if has "w" (c_params (h_cfg h))
                              then (N i k + (wp i k - 1)) / (occ i + sumn nm (fun q => wp i q - 1)) else ws j i k)
         /\ (has "w" (c_params (h_cfg h)) = true -> forall i, (i < nc)%nat -> sumn nm (ws (S j) i) = 1)
         /\ (forall i k f, (i < nc)%nat -> (k < nm)%nat -> (f < nf)%nat ->
               mus (S j) i k f = if has "m" (c_params (h_cfg h))
                                 then (mw i k * mp i k f + tot (fun o => r o i k * xval o f) i) / (N i k + mw i k) else mus j i k f)
         /\ (has "c" (c_params (h_cfg h)) = false -> forall idx, inb idx csh -> cvs (S j) idx = cvs j idx)
         /\ (has "c" (c_params (h_cfg h)) = true -> forall idx, inb idx csh ->
               cvs (S j) idx = (cnum nm nf ty mw cp cw d idx
                                + tot (fun o => sC nm nf ty (ws j) (mus j) (cvs j) idx o (nth 0 idx 0%nat)) (nth 0 idx 0%nat))
                               / ((if String.eqb ty "tied" then occ (nth 0 idx 0%nat)
                                   else if String.eqb ty "spherical" then INR nf * N (nth 0 idx 0%nat) (nth 1 idx 0%nat)
                                   else N (nth 0 idx 0%nat) (nth 1 idx 0%nat)) + cden nm nf ty cp cw idx)))
    /\ (forall j, (j < length (m_history (h_mon h')))%nat ->
         W (h_cfg h) (Some nf) (ps j) (map (fun c => (c, seq_post nc (pis j) (As j) (bp (ps j)) c)) (chunks ls x)) ->
         data_loglik nc (pis j) (As j) (mixb nm nf ty (ws j) (mus j) (cvs j)) ls x + log_dirichlet nc sp (pis j)
           + sumn nc (fun i => log_dirichlet nc (tp i) (As j i)) + pen (ps j)
         <= data_loglik nc (pis (S j)) (As (S j)) (mixb nm nf ty (ws (S j)) (mus (S j)) (cvs (S j))) ls x + log_dirichlet nc sp (pis (S j))
           + sumn nc (fun i => log_dirichlet nc (tp i) (As (S j) i)) + pen (ps (S j)))
    /\ (forall j, (j < length (m_history (h_mon h')))%nat ->
          visited nc (map (fun c => (c, seq_post nc (pis j) (As j) (bp (ps j)) c)) (chunks ls x))).
  Proof.
    intros Hf. destruct (gmm_run0 h' ev Hf) as (pis & As & ps & TG & Hstep).
    exists pis, As, (fun j => gm_w (ps j)), (fun j => gm_mu (ps j)), (fun j => gm_cv (ps j)), ps.
    set (kk := length (m_history (h_mon h'))) in *.
    assert (Hgood : forall j, (j <= kk)%nat -> good (h_cfg h) (Some nf) (ps j)).
    { intros j Hj. apply (tg_st _ _ _ _ _ _ _ _ _ _ _ _ _ _ _ _ _ _ TG j Hj). }
    split.
    { unfold gmm_traj. fold kk. rewrite (tg_em _ _ _ _ _ _ _ _ _ _ _ _ _ _ _ _ _ _ TG). fold kk.
      rewrite (tg_p _ _ _ _ _ _ _ _ _ _ _ _ _ _ _ _ _ _ TG). cbn [h1 with_em h_em].
      split; [apply TG|]. split; [apply TG|].
      split; [intros i k Hi Hk; split; [apply p1_w; assumption|intros; apply p1_mu; assumption]|].
      split; [intros; apply p1_cv; assumption|].
      split; [apply TG|]. split; [apply TG|].
      split; [apply (Hgood kk (le_n _))|]. split; [apply (Hgood kk (le_n _))|]. split; [apply (Hgood kk (le_n _))|].
      split; [apply (Hgood kk (le_n _))|]. split; [apply (Hgood kk (le_n _))|].
      split; [rewrite (tg_nf _ _ _ _ _ _ _ _ _ _ _ _ _ _ _ _ _ _ TG); reflexivity|].
      rewrite (tg_cfg _ _ _ _ _ _ _ _ _ _ _ _ _ _ _ _ _ _ TG). apply GM. }
    split; [intros j; repeat split|].
    split; [intros j Hj; apply (tg_hist _ _ _ _ _ _ _ _ _ _ _ _ _ _ _ _ _ _ TG j Hj)|].
    split; [intros j Hj i k Hi Hk; apply (gg_wpos _ _ _ _ _ _ _ _ _ _ _ _ _ (Hgood j Hj)); assumption|].
    split; [|split; [intros j Hj; exact (tg_gain _ _ _ _ _ _ _ _ _ _ _ _ _ _ _ _ _ _ TG j Hj)|intros j Hj; apply (Hstep j Hj)]].
    intros j Hj. destruct (Hstep j Hj) as (Hg & HL & HV & Hnew). cbv zeta.
    set (L := map (fun c => (c, seq_post nc (pis j) (As j) (bp (ps j)) c)) (chunks ls x)) in *.
    assert (Hcn : c_nc (h_cfg h) = nc) by apply GM.
    assert (EN : forall i k, weighted_total nc (pis j) (As j) (mixb nm nf ty (gm_w (ps j)) (gm_mu (ps j)) (gm_cv (ps j))) (chunks ls x)
                   (fun o => resp nm nf ty (gm_w (ps j)) (gm_mu (ps j)) (gm_cv (ps j)) o i k) i = u_N nm nf ty (ps j) L i k).
    { intros i k. unfold u_N, L. rewrite wsum_total. reflexivity. }
    assert (EO : forall i, occupancy nc (pis j) (As j) (mixb nm nf ty (gm_w (ps j)) (gm_mu (ps j)) (gm_cv (ps j))) (chunks ls x) i = u_S L i).
    { intros i. unfold u_S, L. rewrite wsum_occupancy. reflexivity. }
    split.
    { intros i Hi. split.
      - rewrite (sumn_ext _ _ (u_N nm nf ty (ps j) L i)) by (intros; apply EN). rewrite EO.
        eapply u_N_sum; eassumption.
      - intros k Hk. rewrite EN. eapply u_N_pos; eassumption. }
    assert (Ew : forall i k, (i < nc)%nat -> (k < nm)%nat -> gm_w (ps (S j)) i k = u_w nm nf ty wp (h_cfg h) (ps j) L i k).
    { intros i k Hi Hk. rewrite Hnew. apply new_w; assumption. }
    assert (Em : forall i k f, (i < nc)%nat -> (k < nm)%nat -> (f < nf)%nat -> gm_mu (ps (S j)) i k f = u_mu nm nf ty mw mp (h_cfg h) (ps j) L i k f).
    { intros i k f Hi Hk Hf'. rewrite Hnew. apply new_mu; assumption. }
    assert (Ec : forall idx, inb idx csh -> gm_cv (ps (S j)) idx = u_cv nm nf ty mw mp cp cw (h_cfg h) (ps j) L idx).
    { intros idx Hi. rewrite Hnew. apply new_cv; assumption. }
    split.
    { intros i k Hi Hk. rewrite Ew by assumption. unfold u_w. destruct (has "w" _); [|reflexivity]. rewrite EN, EO. reflexivity. }
    split.
    { intros Hhw i Hi. rewrite (sumn_ext _ _ (u_w nm nf ty wp (h_cfg h) (ps j) L i)) by (intros; apply Ew; assumption).
      eapply u_w_sum; eassumption. }
    split.
    { intros i k f Hi Hk Hf'. rewrite Em by assumption. unfold u_mu. destruct (has "m" _) eqn:Hhm; [|reflexivity]. rewrite EN. unfold u_M. rewrite Hhm.
      unfold L at 1. rewrite wsum_total. reflexivity. }
    split.
    { intros Hhc idx Hi. rewrite Ec by assumption. unfold u_cv. rewrite Hhc. reflexivity. }
    intros Hhc idx Hi. rewrite Ec by assumption. unfold u_cv. rewrite Hhc. f_equal; [|f_equal].
    - f_equal.
      + change (u_num nm nf ty mw mp cp cw (h_cfg h) (ps j) L idx)
          with (cnum nm nf ty mw cp cw (fun i k f => u_mu nm nf ty mw mp (h_cfg h) (ps j) L i k f - mp i k f) idx).
        apply (cnum_ext nc); [exact Hty|exact Hi|]. intros i k f Hi' Hk Hf'. rewrite Em by assumption. reflexivity.
      + unfold u_C, L. rewrite wsum_total. reflexivity.
    - unfold u_tot. rewrite EO, EN. reflexivity.
  Qed.
End Fit.

Lemma flat_hyper_ok nc nm nf ty : is_type covariance_types ty = true -> (ty = "spherical"%string -> (nm <= nf)%nat) ->
  hyper_ok nc nm nf ty (fun _ _ => 1) (fun _ _ => 0) (fun _ => none_cp ty nm nf) (fun _ => none_cw ty nm nf).
Proof.
  intros Hty Hs. constructor; try (intros; lra).
  - intros idx _. rewrite (flat_cden nc) by exact Hty. destruct (String.eqb ty "spherical") eqn:E; [|lra].
    apply String.eqb_eq in E. apply Hs, le_INR in E. lra.
  - intros HM i k _ _. assert (E : none_cp ty nm nf = 0).
    { unfold none_cp. destruct (csh_cases nc nm nf ty Hty) as [(E1 & E2 & E3 & E4 & E5 & _) | [(E1 & E2 & E3 & E4 & E5 & _) | [(E1 & E2 & E3 & E4 & E5 & _) | (E1 & E2 & E3 & E4 & E5 & _)]]];
      rewrite E5 in HM; try discriminate; rewrite E2, E3; reflexivity. }
    split.
    + intros f g _ _. unfold comp_S. destruct (String.eqb ty "tied"); reflexivity.
    + intros v. unfold quad, comp_S. rewrite E. right. symmetry. apply sumn_zero. intros f _. apply sumn_zero. intros g _.
      destruct (String.eqb ty "tied"); ring.
Qed.

(** ** C02, C38: densities. *)
Lemma C02_gmm_ready_l eig h nc nm nf ty pi A w mu cv wp mw mp cp cw :
  gmm_model eig h nc nm nf ty pi A w mu cv -> gmm_hyper (h_em h) nc nm nf ty wp mw mp cp cw ->
  ready (gmm eig) h nc pi A (finite_row nf) (fun o i => sumn nm (fun k => w i k * dens nf ty mu cv o i k)).
Proof. intros GM HH. exact (gmm_ready eig h nc nm nf ty pi A w mu cv GM wp mw mp cp cw HH). Qed.

(** The log-likelihoods the class computes, diagonal covariances. *)
Lemma C38_diag_density_l eig h nc nm nf pi A w mu var wp mw mp cp cw x :
  gmm_model eig h nc nm nf "diag" pi A w mu (idx3 var) -> gmm_hyper (h_em h) nc nm nf "diag" wp mw mp cp cw ->
  Forall (finite_row nf) x ->
  exists h', check (gmm eig) exact h = Ok h'
    /\ loglik (gmm eig) exact h' x = Ok (mtab (length x) nc (fun t i => xln (sumn nm (fun k =>
         w i k * prodn nf (fun f => let v := Rmax (var i k f) (/ 2 ^ 1022) in
           exp (- ((xval (nth t x []) f - mu i k f) ^ 2 / (2 * v))) / sqrt (2 * PI * v)))))).
Proof.
  intros GM HH Hx. destruct (rd_check _ _ _ _ _ _ _ (gmm_ready _ _ _ _ _ _ _ _ _ _ _ GM _ _ _ _ _ HH)) as (h' & Hc & _ & He).
  exists h'. split; [exact Hc|]. rewrite (em_log _ _ _ _ _ He x Hx). unfold lmat. f_equal. apply mtab_ext. intros t i Ht Hi.
  rewrite (obsB_nth _ x []) by exact Ht. reflexivity.
Qed.

Lemma C38_spherical_density_l eig h nc nm nf pi A w mu var wp mw mp cp cw x :
  gmm_model eig h nc nm nf "spherical" pi A w mu (idx2 var) -> gmm_hyper (h_em h) nc nm nf "spherical" wp mw mp cp cw ->
  Forall (finite_row nf) x ->
  exists h', check (gmm eig) exact h = Ok h'
    /\ loglik (gmm eig) exact h' x = Ok (mtab (length x) nc (fun t i => xln (sumn nm (fun k =>
         w i k * prodn nf (fun f => let v := Rmax (var i k) (/ 2 ^ 1022) in
           exp (- ((xval (nth t x []) f - mu i k f) ^ 2 / (2 * v))) / sqrt (2 * PI * v)))))).
Proof.
  intros GM HH Hx. destruct (rd_check _ _ _ _ _ _ _ (gmm_ready _ _ _ _ _ _ _ _ _ _ _ GM _ _ _ _ _ HH)) as (h' & Hc & _ & He).
  exists h'. split; [exact Hc|]. rewrite (em_log _ _ _ _ _ He x Hx). unfold lmat. f_equal. apply mtab_ext. intros t i Ht Hi.
  rewrite (obsB_nth _ x []) by exact Ht. reflexivity.
Qed.

Lemma mat_density eig h nc nm nf ty pi A w mu cv wp mw mp cp cw x (N : vec -> nat -> nat -> R) :
  gmm_model eig h nc nm nf ty pi A w mu cv -> gmm_hyper (h_em h) nc nm nf ty wp mw mp cp cw ->
  Forall (finite_row nf) x -> mat_type ty = true ->
  (forall i k, (i < nc)%nat -> (k < nm)%nat -> pos_def nf (comp_S ty cv i k)) ->
  (forall o i k, In o x -> (i < nc)%nat -> (k < nm)%nat -> mvn_density nf (mu i k) (comp_S ty cv i k) (xval o) (N o i k)) ->
  exists h', check (gmm eig) exact h = Ok h'
    /\ loglik (gmm eig) exact h' x = Ok (mtab (length x) nc (fun t i => xln (sumn nm (fun k => w i k * N (nth t x []) i k)))).
Proof.
  intros GM HH Hx HM HP HN. destruct (rd_check _ _ _ _ _ _ _ (gmm_ready _ _ _ _ _ _ _ _ _ _ _ GM _ _ _ _ _ HH)) as (h' & Hc & _ & He).
  exists h'. split; [exact Hc|]. rewrite (em_log _ _ _ _ _ He x Hx). unfold lmat. f_equal. apply mtab_ext. intros t i Ht Hi.
  rewrite (obsB_nth _ x []) by exact Ht. unfold mixb. f_equal. apply sumn_ext. intros k Hk. f_equal.
  assert (HV : vec_type ty = false).
  { destruct (csh_cases nc nm nf ty (mm_known _ _ _ _ _ _ _ _ _ _ _ GM)) as [(_ & _ & _ & _ & E & _) | [(_ & _ & _ & _ & E & _) | [(_ & _ & _ & _ & _ & E & _) | (_ & _ & _ & _ & _ & E & _)]]];
      try exact E; rewrite E in HM; discriminate. }
  unfold dens. rewrite HV, eff_pd by (apply HP; assumption).
  apply (mvn_unique nf _ (HP i k Hi Hk) (mu i k) (xval (nth t x []))); [apply mvnf_ok; apply HP; assumption|].
  apply HN; try assumption. apply nth_In. exact Ht.
Qed.

Lemma C38_full_density_l eig h nc nm nf pi A w mu Sg wp mw mp cp cw x N :
  gmm_model eig h nc nm nf "full" pi A w mu (idx4 Sg) -> gmm_hyper (h_em h) nc nm nf "full" wp mw mp cp cw ->
  Forall (finite_row nf) x -> (forall i k, (i < nc)%nat -> (k < nm)%nat -> pos_def nf (Sg i k)) ->
  (forall o i k, In o x -> (i < nc)%nat -> (k < nm)%nat -> mvn_density nf (mu i k) (Sg i k) (xval o) (N o i k)) ->
  exists h', check (gmm eig) exact h = Ok h'
    /\ loglik (gmm eig) exact h' x = Ok (mtab (length x) nc (fun t i => xln (sumn nm (fun k => w i k * N (nth t x []) i k)))).
Proof. intros GM HH Hx HP HN. apply (mat_density eig h nc nm nf "full" pi A w mu (idx4 Sg) wp mw mp cp cw x N GM HH Hx eq_refl HP HN). Qed.
Lemma C38_tied_density_l eig h nc nm nf pi A w mu Sg wp mw mp cp cw x N :
  gmm_model eig h nc nm nf "tied" pi A w mu (idx3 Sg) -> gmm_hyper (h_em h) nc nm nf "tied" wp mw mp cp cw ->
  Forall (finite_row nf) x -> (forall i, (i < nc)%nat -> pos_def nf (Sg i)) ->
  (forall o i k, In o x -> (i < nc)%nat -> (k < nm)%nat -> mvn_density nf (mu i k) (Sg i) (xval o) (N o i k)) ->
  exists h', check (gmm eig) exact h = Ok h'
    /\ loglik (gmm eig) exact h' x = Ok (mtab (length x) nc (fun t i => xln (sumn nm (fun k => w i k * N (nth t x []) i k)))).
Proof.
  intros GM HH Hx HP HN. apply (mat_density eig h nc nm nf "tied" pi A w mu (idx3 Sg) wp mw mp cp cw x N GM HH Hx eq_refl); [|exact HN].
  intros i k Hi _. apply (HP i Hi).
Qed.

(** ** Default hyper-parameters. *)
Section Flat.
  Variables (eig : mat -> xnum) (h : hmm gmmp) (nc nm nf : nat) (ty : string) (pi : nat -> R) (A w : nat -> nat -> R)
    (mu : nat -> nat -> nat -> R) (cv : list nat -> R).
  Hypothesis GM : gmm_model eig h nc nm nf ty pi A w mu cv.
  Hypothesis FB : flat_base h.
  Hypothesis GF : gmm_flat h.
  Hypothesis Hs : ty = "spherical"%string -> (nm <= nf)%nat.
  Hypothesis Hw : forall i k, (i < nc)%nat -> (k < nm)%nat -> 0 < w i k.
  Hypothesis Hp1 : sumn nc pi <= 1.
  Hypothesis HA1 : forall i, (i < nc)%nat -> sumn nc (A i) <= 1.
  Variables (ls : list nat) (x : list vec).
  Hypothesis Hd : good_data (finite_row nf) ls x.
  Hypothesis Hpos : possible nc pi A (mixb nm nf ty w mu cv) ls x.
  Hypothesis Hu : all_used nc pi A (mixb nm nf ty w mu cv) (chunks ls x).

  Lemma gmm_flat_run h' ev : fit_from (gmm eig) exact h x (as_lengths ls) = Ok (h', ev) ->
    exists pis As ws mus cvs, gmm_traj h nc nm nf ty pi A w mu cv h' pis As ws mus cvs
    /\ (forall j, (j < length (m_history (h_mon h')))%nat ->
         nth j (m_history (h_mon h')) NaN = Fin (data_loglik nc (pis j) (As j) (mixb nm nf ty (ws j) (mus j) (cvs j)) ls x))
    /\ (forall j, (j <= length (m_history (h_mon h')))%nat -> forall i k, (i < nc)%nat -> (k < nm)%nat -> 0 < ws j i k)
    /\ (forall j, (j < length (m_history (h_mon h')))%nat ->
         let r := resp nm nf ty (ws j) (mus j) (cvs j) in
         let b := mixb nm nf ty (ws j) (mus j) (cvs j) in
         let occ := occupancy nc (pis j) (As j) b (chunks ls x) in
         let tot := weighted_total nc (pis j) (As j) b (chunks ls x) in
         let N i k := tot (fun o => r o i k) i in
         (forall i, (i < nc)%nat -> sumn nm (N i) = occ i /\ forall k, (k < nm)%nat -> 0 < N i k)
         /\ (forall i k, (i < nc)%nat -> (k < nm)%nat ->
               ws (S j) i k = if has "w" (c_params (h_cfg h)) then N i k / occ i else ws j i k)
         /\ (has "w" (c_params (h_cfg h)) = true -> forall i, (i < nc)%nat -> sumn nm (ws (S j) i) = 1)
         /\ (forall i k f, (i < nc)%nat -> (k < nm)%nat -> (f < nf)%nat ->
               mus (S j) i k f = if has "m" (c_params (h_cfg h)) then tot (fun o => r o i k * xval o f) i / N i k else mus j i k f)
         /\ (has "c" (c_params (h_cfg h)) = false -> forall idx, inb idx (cshape nc nm nf ty) -> cvs (S j) idx = cvs j idx)
         /\ (has "c" (c_params (h_cfg h)) = true -> forall idx, inb idx (cshape nc nm nf ty) ->
               cvs (S j) idx = tot (fun o => sC nm nf ty (ws j) (mus j) (cvs j) idx o (nth 0 idx 0%nat)) (nth 0 idx 0%nat)
                               / ((if String.eqb ty "tied" then occ (nth 0 idx 0%nat)
                                   else if String.eqb ty "spherical" then INR nf * N (nth 0 idx 0%nat) (nth 1 idx 0%nat)
                                   else N (nth 0 idx 0%nat) (nth 1 idx 0%nat))
                                  + if String.eqb ty "spherical" then INR nf - INR nm else 0))).
  Proof.
    intros Hf. pose proof (mm_known _ _ _ _ _ _ _ _ _ _ _ GM) as Hty.
    destruct (gmm_run eig h nc nm nf ty pi A w mu cv GM (fun _ _ => 1) (fun _ _ => 0) (fun _ _ _ => 0)
                (fun _ => none_cp ty nm nf) (fun _ => none_cw ty nm nf) (gmm_flat_hyper h nc nm nf ty GF)
                (flat_hyper_ok nc nm nf ty Hty Hs) Hw false ltac:(discriminate) ls x Hd Hpos Hu
                (fun _ => 1) (fun _ _ => 1) ltac:(intros; lra) ltac:(intros; lra) (flat_base_priors h nc FB) Hp1 HA1
                (fun _ _ _ _ => False) (fun _ => 0) (improves_none _ _ _ _ _) h' ev Hf)
      as (pis & As & ws & mus & cvs & ps & T & _ & Hh & Hpw & Hup & _).
    exists pis, As, ws, mus, cvs. split; [exact T|]. split; [exact Hh|]. split; [exact Hpw|].
    intros j Hj. specialize (Hup j Hj). cbv zeta in Hup |- *. destruct Hup as (U1 & U2 & U3 & U4 & U5 & U6).
    split; [exact U1|]. split.
    { intros i k Hi Hk. rewrite (U2 i k Hi Hk). destruct (has "w" _); [|reflexivity]. f_equal; [ring|].
      rewrite sumn_zero by (intros; ring). ring. }
    split; [exact U3|]. split.
    { intros i k f Hi Hk Hf'. rewrite (U4 i k f Hi Hk Hf'). destruct (has "m" _); [|reflexivity]. f_equal; ring. }
    split; [exact U5|].
    intros Hhc idx Hi. rewrite (U6 Hhc idx Hi), (flat_cden nc) by exact Hty. f_equal.
    assert (Z : cnum nm nf ty (fun _ _ => 0) (fun _ => none_cp ty nm nf) (fun _ => none_cw ty nm nf)
                  (fun i k f => mus (S j) i k f - 0) idx = 0).
    { unfold cnum, none_cp, none_cw.
      destruct (csh_cases nc nm nf ty Hty) as [(E1 & E2 & E3 & E4 & _) | [(E1 & E2 & E3 & E4 & _) | [(E1 & E2 & E3 & E4 & _) | (E1 & E2 & E3 & E4 & _)]]];
        rewrite ?E1, ?E2, ?E3, ?E4; try ring. rewrite sumn_zero by (intros; ring). ring. }
    rewrite Z. ring.
  Qed.
End Flat.

(** ** C38: the weights after training. *)
Lemma C38_weights_l eig h nc nm nf ty pi A w mu cv ls x h' ev :
  gmm_model eig h nc nm nf ty pi A w mu cv -> flat_base h -> gmm_flat h ->
  (ty = "spherical"%string -> (nm <= nf)%nat) ->
  (forall i k, (i < nc)%nat -> (k < nm)%nat -> 0 < w i k) ->
  sumn nc pi <= 1 -> (forall i, (i < nc)%nat -> sumn nc (A i) <= 1) ->
  good_data (finite_row nf) ls x -> possible nc pi A (mixb nm nf ty w mu cv) ls x ->
  all_used nc pi A (mixb nm nf ty w mu cv) (chunks ls x) ->
  fit_from (gmm eig) exact h x (as_lengths ls) = Ok (h', ev) ->
  has "w" (c_params (h_cfg h)) = true ->
  exists pis As ws mus cvs, gmm_traj h nc nm nf ty pi A w mu cv h' pis As ws mus cvs
  /\ forall j, (j < length (m_history (h_mon h')))%nat -> forall i, (i < nc)%nat ->
       let b := mixb nm nf ty (ws j) (mus j) (cvs j) in
       (forall k, (k < nm)%nat -> 0 < ws (S j) i k
         /\ ws (S j) i k = weighted_total nc (pis j) (As j) b (chunks ls x)
                             (fun o => ws j i k * dens nf ty (mus j) (cvs j) o i k / b o i) i
                           / occupancy nc (pis j) (As j) b (chunks ls x) i)
       /\ sumn nm (ws (S j) i) = 1.
Proof.
  intros GM FB GF Hs Hw Hp1 HA1 Hd Hpos Hu Hf Hhw.
  destruct (gmm_flat_run eig h nc nm nf ty pi A w mu cv GM FB GF Hs Hw Hp1 HA1 ls x Hd Hpos Hu h' ev Hf)
    as (pis & As & ws & mus & cvs & T & _ & Hpw & Hup).
  exists pis, As, ws, mus, cvs. split; [exact T|]. intros j Hj i Hi. specialize (Hup j Hj). cbv zeta in Hup |- *.
  destruct Hup as (_ & U2 & U3 & _). split; [|apply U3; assumption]. intros k Hk. split; [apply Hpw; try assumption; lia|].
  rewrite (U2 i k Hi Hk), Hhw. reflexivity.
Qed.

(** ** C39: the covariance update with default hyper-parameters: the weighted
    scatter about the means before the update, divided by the weight. *)
Section Cov.
  Variables (eig : mat -> xnum) (h : hmm gmmp) (nc nm nf : nat) (ty : string) (pi : nat -> R) (A w : nat -> nat -> R)
    (mu : nat -> nat -> nat -> R) (cv : list nat -> R) (ls : list nat) (x : list vec) (h' : hmm gmmp) (ev : list event).
  Definition cov_run : Prop :=
    gmm_model eig h nc nm nf ty pi A w mu cv /\ flat_base h /\ gmm_flat h
    /\ (forall i k, (i < nc)%nat -> (k < nm)%nat -> 0 < w i k)
    /\ sumn nc pi <= 1 /\ (forall i, (i < nc)%nat -> sumn nc (A i) <= 1)
    /\ good_data (finite_row nf) ls x /\ possible nc pi A (mixb nm nf ty w mu cv) ls x
    /\ all_used nc pi A (mixb nm nf ty w mu cv) (chunks ls x)
    /\ fit_from (gmm eig) exact h x (as_lengths ls) = Ok (h', ev)
    /\ has "c" (c_params (h_cfg h)) = true.
End Cov.

Ltac cov_start :=
  match goal with |- cov_run ?eig ?h ?nc ?nm ?nf ?ty ?pi ?A ?w ?mu ?cv ?ls ?x ?h' ?ev -> _ =>
    let R := fresh "R" in
    intros (GM & FB & GF & Hw & Hp1 & HA1 & Hd & Hpos & Hu & Hf & Hhc);
    assert (R : ty = "spherical"%string -> (nm <= nf)%nat) by (try discriminate; auto);
    destruct (gmm_flat_run eig h nc nm nf ty pi A w mu cv GM FB GF R Hw Hp1 HA1 ls x Hd Hpos Hu h' ev Hf)
      as (pis & As & ws & mus & cvs & T & _ & Hpw & Hup);
    exists pis, As, ws, mus, cvs; split; [exact T|]; intros j Hj; specialize (Hup j Hj); cbv zeta in Hup |- *;
    destruct Hup as (U1 & _ & _ & _ & _ & U6); specialize (U6 Hhc)
  end.

Lemma C39_diag_l eig h nc nm nf pi A w mu cv ls x h' ev :
  cov_run eig h nc nm nf "diag" pi A w mu cv ls x h' ev ->
  exists pis As ws mus cvs, gmm_traj h nc nm nf "diag" pi A w mu cv h' pis As ws mus cvs
  /\ forall j, (j < length (m_history (h_mon h')))%nat ->
       let r := resp nm nf "diag" (ws j) (mus j) (cvs j) in
       let tot := weighted_total nc (pis j) (As j) (mixb nm nf "diag" (ws j) (mus j) (cvs j)) (chunks ls x) in
       forall i k f, (i < nc)%nat -> (k < nm)%nat -> (f < nf)%nat ->
         0 < tot (fun o => r o i k) i
         /\ cvs (S j) [i; k; f] = tot (fun o => r o i k * ((xval o f - mus j i k f) * (xval o f - mus j i k f))) i
                                 / tot (fun o => r o i k) i.
Proof.
  cov_start. intros i k f Hi Hk Hf'. split; [apply (U1 i Hi); exact Hk|].
  rewrite (U6 [i; k; f]) by (apply inb3; assumption). cbn [String.eqb Ascii.eqb Bool.eqb nth]. rewrite Rplus_0_r. reflexivity.
Qed.

Lemma C39_full_l eig h nc nm nf pi A w mu cv ls x h' ev :
  cov_run eig h nc nm nf "full" pi A w mu cv ls x h' ev ->
  exists pis As ws mus cvs, gmm_traj h nc nm nf "full" pi A w mu cv h' pis As ws mus cvs
  /\ forall j, (j < length (m_history (h_mon h')))%nat ->
       let r := resp nm nf "full" (ws j) (mus j) (cvs j) in
       let tot := weighted_total nc (pis j) (As j) (mixb nm nf "full" (ws j) (mus j) (cvs j)) (chunks ls x) in
       forall i k f g, (i < nc)%nat -> (k < nm)%nat -> (f < nf)%nat -> (g < nf)%nat ->
         0 < tot (fun o => r o i k) i
         /\ cvs (S j) [i; k; f; g] = tot (fun o => r o i k * ((xval o f - mus j i k f) * (xval o g - mus j i k g))) i
                                    / tot (fun o => r o i k) i.
Proof.
  cov_start. intros i k f g Hi Hk Hf' Hg. split; [apply (U1 i Hi); exact Hk|].
  rewrite (U6 [i; k; f; g]) by (apply inb4; assumption). cbn [String.eqb Ascii.eqb Bool.eqb nth]. rewrite Rplus_0_r. reflexivity.
Qed.

Lemma C39_tied_l eig h nc nm nf pi A w mu cv ls x h' ev :
  cov_run eig h nc nm nf "tied" pi A w mu cv ls x h' ev ->
  exists pis As ws mus cvs, gmm_traj h nc nm nf "tied" pi A w mu cv h' pis As ws mus cvs
  /\ forall j, (j < length (m_history (h_mon h')))%nat ->
       let r := resp nm nf "tied" (ws j) (mus j) (cvs j) in
       let b := mixb nm nf "tied" (ws j) (mus j) (cvs j) in
       let tot := weighted_total nc (pis j) (As j) b (chunks ls x) in
       let occ := occupancy nc (pis j) (As j) b (chunks ls x) in
       forall i f g, (i < nc)%nat -> (f < nf)%nat -> (g < nf)%nat ->
         0 < occ i
         /\ cvs (S j) [i; f; g] = tot (fun o => sumn nm (fun k => r o i k * ((xval o f - mus j i k f) * (xval o g - mus j i k g)))) i / occ i.
Proof.
  cov_start. intros i f g Hi Hf' Hg. split.
  - destruct (U1 i Hi) as [E P]. rewrite <- E. apply (sumn_pos nm _ 0%nat); [intros; left; auto|apply GM|apply P; apply GM].
  - rewrite (U6 [i; f; g]) by (apply inb3; assumption). cbn [String.eqb Ascii.eqb Bool.eqb nth]. rewrite Rplus_0_r. reflexivity.
Qed.

(** Spherical: the divisor is off by [n_features - n_mix]. *)
Lemma C39_spherical_divisor_l eig h nc nm nf pi A w mu cv ls x h' ev : (nm <= nf)%nat ->
  cov_run eig h nc nm nf "spherical" pi A w mu cv ls x h' ev ->
  exists pis As ws mus cvs, gmm_traj h nc nm nf "spherical" pi A w mu cv h' pis As ws mus cvs
  /\ forall j, (j < length (m_history (h_mon h')))%nat ->
       let r := resp nm nf "spherical" (ws j) (mus j) (cvs j) in
       let tot := weighted_total nc (pis j) (As j) (mixb nm nf "spherical" (ws j) (mus j) (cvs j)) (chunks ls x) in
       forall i k, (i < nc)%nat -> (k < nm)%nat ->
         0 < tot (fun o => r o i k) i
         /\ cvs (S j) [i; k] = tot (fun o => r o i k * sumn nf (fun f => (xval o f - mus j i k f) * (xval o f - mus j i k f))) i
                              / (INR nf * tot (fun o => r o i k) i + (INR nf - INR nm)).
Proof.
  intros Hle. cov_start. intros i k Hi Hk. split; [apply (U1 i Hi); exact Hk|].
  rewrite (U6 [i; k]) by (apply inb2; assumption). cbn [String.eqb Ascii.eqb Bool.eqb nth]. reflexivity.
Qed.

(** ** C40 *)
Section Mono.
  Variables (eig : mat -> xnum) (h : hmm gmmp) (nc nm nf : nat) (pi : nat -> R) (A w : nat -> nat -> R)
    (mu : nat -> nat -> nat -> R) (cv : list nat -> R) (wp : nat -> nat -> R) (cp cw : list nat -> R) (mp : nat -> nat -> nat -> R).
  Definition gmm_logprior (w : nat -> nat -> R) (cv : list nat -> R) : R :=
    sumn nc (fun i => sumn nm (fun k => (wp i k - 1) * ln (w i k)
      + sumn nf (fun f => let v := Rmax (cv [i; k; f]) (/ 2 ^ 1022) in - (cp [i; k; f] + 3 / 2) * ln v - cw [i; k; f] / v))).
End Mono.

Lemma C40_penalised_monotone_l eig h nc nm nf pi A w mu cv wp mw mp cp cw sp tp ls x h' ev :
  gmm_model eig h nc nm nf "diag" pi A w mu cv -> gmm_hyper (h_em h) nc nm nf "diag" wp mw mp cp cw ->
  (forall i k, (i < nc)%nat -> (k < nm)%nat -> 1 <= wp i k /\ mw i k = 0) ->
  (forall i k f, (i < nc)%nat -> (k < nm)%nat -> (f < nf)%nat -> - (3 / 2) <= cp [i; k; f] /\ 0 <= cw [i; k; f]) ->
  (forall i k, (i < nc)%nat -> (k < nm)%nat -> 0 < w i k) -> (forall i, (i < nc)%nat -> sumn nm (w i) <= 1) ->
  priors (h_cfg h) nc sp tp -> (forall i, (i < nc)%nat -> 1 <= sp i) ->
  (forall i j, (i < nc)%nat -> (j < nc)%nat -> 1 <= tp i j) ->
  sumn nc pi <= 1 -> (forall i, (i < nc)%nat -> sumn nc (A i) <= 1) ->
  good_data (finite_row nf) ls x -> possible nc pi A (mixb nm nf "diag" w mu cv) ls x ->
  all_used nc pi A (mixb nm nf "diag" w mu cv) (chunks ls x) ->
  fit_from (gmm eig) exact h x (as_lengths ls) = Ok (h', ev) ->
  exists pis As ws mus cvs, gmm_traj h nc nm nf "diag" pi A w mu cv h' pis As ws mus cvs
  /\ let L j := data_loglik nc (pis j) (As j) (mixb nm nf "diag" (ws j) (mus j) (cvs j)) ls x in
     let P j := log_dirichlet nc sp (pis j) + sumn nc (fun i => log_dirichlet nc (tp i) (As j i))
                + gmm_logprior nc nm nf wp cp cw (ws j) (cvs j) in
     forall j, (j < length (m_history (h_mon h')))%nat ->
       nth j (m_history (h_mon h')) NaN = Fin (L j) /\ L j + P j <= L (S j) + P (S j).
Proof.
  intros GM HH Hh1 Hh2 Hw Hw1 HP Hsp Htp Hp1 HA1 Hd Hpos Hu Hf.
  assert (HO : hyper_ok nc nm nf "diag" wp mw cp cw).
  { constructor.
    - intros; apply Hh1; assumption.
    - intros i k Hi Hk. right. symmetry. apply Hh1; assumption.
    - intros idx Hi. apply inb_inv3 in Hi. destruct Hi as (i & k & f & -> & Hi & Hk & Hf').
      unfold cden. cbn [String.eqb Ascii.eqb Bool.eqb]. destruct (Hh2 i k f Hi Hk Hf'). lra.
    - discriminate. }
  assert (HI := gmm_improves eig nc nm nf (bo_pos _ _ _ _ (mm_base _ _ _ _ _ _ _ _ _ _ _ GM)) (mm_nm _ _ _ _ _ _ _ _ _ _ _ GM)
    (mm_nf _ _ _ _ _ _ _ _ _ _ _ GM) "diag" eq_refl wp mw mp cp cw HO eq_refl).
  destruct (gmm_run eig h nc nm nf "diag" pi A w mu cv GM wp mw mp cp cw HH HO Hw true (fun _ => Hw1) ls x Hd Hpos Hu
              sp tp Hsp Htp HP Hp1 HA1 _ _ (HI (fun i k Hi Hk => proj2 (Hh1 i k Hi Hk)) ltac:(intros idx Hi; apply inb_inv3 in Hi; destruct Hi as (i & k & f & -> & Hi & Hk & Hf'); apply Hh2; assumption)) h' ev Hf)
    as (pis & As & ws & mus & cvs & ps & T & Heq & Hh & _ & _ & G & HV).
  exists pis, As, ws, mus, cvs. split; [exact T|]. cbv zeta. intros j Hj. split; [apply Hh; exact Hj|].
  specialize (G j Hj (HV j Hj)).
  assert (EP : forall m, gmm_pen nc nm nf "diag" wp cp cw (ps m) = gmm_logprior nc nm nf wp cp cw (ws m) (cvs m)).
  { intros m. destruct (Heq m) as (-> & _ & ->). unfold gmm_pen, gmm_logprior. apply sumn_ext. intros i _. apply sumn_ext. intros k _. f_equal.
    unfold cpen. cbn [String.eqb Ascii.eqb Bool.eqb]. apply sumn_ext. intros f _. unfold vv, floored, comp_v, cden, tiny. cbn [String.eqb Ascii.eqb Bool.eqb]. cbv zeta. f_equal. f_equal. field. }
  rewrite !EP in G. lra.
Qed.

Lemma C40_monotone_l eig h nc nm nf pi A w mu cv ls x h' ev :
  gmm_model eig h nc nm nf "diag" pi A w mu cv -> flat_base h -> gmm_flat h ->
  (forall i k, (i < nc)%nat -> (k < nm)%nat -> 0 < w i k) -> (forall i, (i < nc)%nat -> sumn nm (w i) <= 1) ->
  sumn nc pi <= 1 -> (forall i, (i < nc)%nat -> sumn nc (A i) <= 1) ->
  good_data (finite_row nf) ls x -> possible nc pi A (mixb nm nf "diag" w mu cv) ls x ->
  all_used nc pi A (mixb nm nf "diag" w mu cv) (chunks ls x) ->
  fit_from (gmm eig) exact h x (as_lengths ls) = Ok (h', ev) ->
  (exists vs, m_history (h_mon h') = map Fin vs
     /\ forall i j, (i <= j)%nat -> (j < length vs)%nat -> nth i vs 0 <= nth j vs 0)
  /\ ~ In WNotConverging ev
  /\ exists pis As ws mus cvs, gmm_traj h nc nm nf "diag" pi A w mu cv h' pis As ws mus cvs
     /\ let L j := data_loglik nc (pis j) (As j) (mixb nm nf "diag" (ws j) (mus j) (cvs j)) ls x in
        forall j, (j < length (m_history (h_mon h')))%nat -> nth j (m_history (h_mon h')) NaN = Fin (L j) /\ L j <= L (S j).
Proof.
  intros GM FB GF Hw Hw1 Hp1 HA1 Hd Hpos Hu Hf.
  destruct (C40_penalised_monotone_l eig h nc nm nf pi A w mu cv (fun _ _ => 1) (fun _ _ => 0) (fun _ _ _ => 0)
              (fun _ => none_cp "diag" nm nf) (fun _ => none_cw "diag" nm nf) (fun _ => 1) (fun _ _ => 1) ls x h' ev GM (gmm_flat_hyper h nc nm nf "diag" GF))
    as (pis & As & ws & mus & cvs & T & G); try assumption.
  - intros; lra.
  - intros; unfold none_cp, none_cw; cbn [String.eqb Ascii.eqb Bool.eqb]; lra.
  - apply flat_base_priors; exact FB.
  - intros; lra.
  - intros; lra.
  - cbv zeta in G.
    assert (Z : forall j, gmm_logprior nc nm nf (fun _ _ => 1) (fun _ => none_cp "diag" nm nf) (fun _ => none_cw "diag" nm nf) (ws j) (cvs j) = 0).
    { intros j. unfold gmm_logprior, none_cp, none_cw. cbn [String.eqb Ascii.eqb Bool.eqb]. apply sumn_zero. intros i _. apply sumn_zero. intros k _.
      rewrite sumn_zero; [ring|]. intros f _. cbv zeta. unfold Rdiv. ring. }
    assert (Z2 : forall j, sumn nc (fun i => log_dirichlet nc (fun _ => 1) (As j i)) = 0)
      by (intros j; apply sumn_zero; intros; apply log_dirichlet_flat).
    assert (G2 : forall j, (j < length (m_history (h_mon h')))%nat ->
      nth j (m_history (h_mon h')) NaN = Fin (data_loglik nc (pis j) (As j) (mixb nm nf "diag" (ws j) (mus j) (cvs j)) ls x)
      /\ data_loglik nc (pis j) (As j) (mixb nm nf "diag" (ws j) (mus j) (cvs j)) ls x
         <= data_loglik nc (pis (S j)) (As (S j)) (mixb nm nf "diag" (ws (S j)) (mus (S j)) (cvs (S j))) ls x).
    { intros j Hj. destruct (G j Hj) as [G1 G3]. split; [exact G1|]. rewrite !Z, !Z2, !log_dirichlet_flat in G3. lra. }
    destruct (monotone_history (gmm eig) h x (as_lengths ls) h' ev
      (fun j => data_loglik nc (pis j) (As j) (mixb nm nf "diag" (ws j) (mus j) (cvs j)) ls x) Hf) as [M1 M2].
    + intros j Hj. apply (G2 j Hj).
    + intros j Hj. apply (G2 j). lia.
    + split; [exact M1|]. split; [exact M2|]. exists pis, As, ws, mus, cvs. split; [exact T|exact G2].
Qed.

(** ** C25 *)
Lemma C25_gmm_l eig h nc nm nf ty pi A w mu cv wp mw mp cp cw sp tp ls x h' ev :
  gmm_model eig h nc nm nf ty pi A w mu cv -> gmm_hyper (h_em h) nc nm nf ty wp mw mp cp cw ->
  hyper_ok nc nm nf ty wp mw cp cw -> (forall i k, (i < nc)%nat -> (k < nm)%nat -> 0 < w i k) ->
  priors (h_cfg h) nc sp tp -> (forall i, (i < nc)%nat -> 1 <= sp i) ->
  (forall i j, (i < nc)%nat -> (j < nc)%nat -> 1 <= tp i j) ->
  good_data (finite_row nf) ls x -> possible nc pi A (mixb nm nf ty w mu cv) ls x ->
  all_used nc pi A (mixb nm nf ty w mu cv) (chunks ls x) ->
  fit_from (gmm eig) exact h x (as_lengths ls) = Ok (h', ev) ->
  fit_from (gmm eig) exact (with_cfg (cfg_impl "log") h) x (as_lengths ls) = Ok (with_cfg (cfg_impl "log") h', ev).
Proof.
  intros GM HH HO Hw HP Hsp Htp Hd Hpos Hu.
  exact (gmm_same_training eig h nc nm nf ty pi A w mu cv GM wp mw mp cp cw HH HO Hw false ltac:(discriminate) ls x Hd Hpos Hu sp tp Hsp Htp HP h' ev).
Qed.

(** ** C21: what is not trained keeps its value (any arithmetic). *)
Lemma gmm_check_keeps eig fp c nfe p nfe' p' : gmm_check eig fp c nfe p = Ok (nfe', p') ->
  gm_weights p' = gm_weights p /\ gm_means p' = gm_means p /\ gm_covars p' = gm_covars p.
Proof.
  unfold gmm_check. intros H. destruct (match nfe with Some _ => _ | None => _ end) as [nf|]; [|discriminate]. cbn [bind] in H.
  destruct (fix_priors fp (c_nc c) nf p) as [p1|] eqn:E; [|discriminate]. cbn [bind] in H.
  assert (K : gm_weights p1 = gm_weights p /\ gm_means p1 = gm_means p /\ gm_covars p1 = gm_covars p).
  { unfold fix_priors in E. repeat (destruct (nbroadcast _ _) in E; [cbn [bind] in E|discriminate]).
    repeat (destruct (fix_prior _ _) in E; [cbn [bind] in E|discriminate]). injection E as <-. repeat split. }
  repeat match type of H with
  | (if ?b then _ else _) = _ => destruct b; try discriminate
  | match ?o with Some _ => _ | None => _ end = _ => destruct o; try discriminate
  end.
  destruct (check_covars _ _ _ _ _ _ _); [|discriminate]. cbn [bind] in H. injection H as <- <-. exact K.
Qed.
Lemma C21_gmm_l eig fp h x lengths h' ev :
  fit_from (gmm eig) fp h x lengths = Ok (h', ev) ->
  (has "w" (c_params (h_cfg h)) = false -> gm_weights (h_em h') = gm_weights (h_em h))
  /\ (has "m" (c_params (h_cfg h)) = false -> gm_means (h_em h') = gm_means (h_em h))
  /\ (has "c" (c_params (h_cfg h)) = false -> gm_covars (h_em h') = gm_covars (h_em h)).
Proof.
  intros H. split; [|split]; intros Hh.
  - apply (fit_keeps (gmm eig) fp h x lengths h' ev _ gm_weights H).
    + intros nf p nf' p' Hc. apply (gmm_check_keeps _ _ _ _ _ _ _ Hc).
    + intros nf p st p' Hm. cbn [gmm ec_mstep] in Hm. unfold gmm_mstep in Hm. rewrite Hh in Hm.
      destruct (gm_weights p) eqn:E; [|discriminate]. destruct (gm_means p); [|discriminate].
      destruct (if has "c" _ then _ else _) in Hm; [|discriminate]. cbn [bind] in Hm. injection Hm as <-. reflexivity.
  - apply (fit_keeps (gmm eig) fp h x lengths h' ev _ gm_means H).
    + intros nf p nf' p' Hc. apply (gmm_check_keeps _ _ _ _ _ _ _ Hc).
    + intros nf p st p' Hm. cbn [gmm ec_mstep] in Hm. unfold gmm_mstep in Hm. rewrite Hh in Hm.
      destruct (gm_weights p); [|discriminate]. destruct (gm_means p) eqn:E; [|discriminate].
      destruct (if has "c" _ then _ else _) in Hm; [|discriminate]. cbn [bind] in Hm. injection Hm as <-. reflexivity.
  - apply (fit_keeps (gmm eig) fp h x lengths h' ev _ gm_covars H).
    + intros nf p nf' p' Hc. apply (gmm_check_keeps _ _ _ _ _ _ _ Hc).
    + intros nf p st p' Hm. cbn [gmm ec_mstep] in Hm. unfold gmm_mstep in Hm. rewrite Hh in Hm.
      destruct (gm_weights p); [|discriminate]. destruct (gm_means p); [|discriminate].
      cbn [bind] in Hm. injection Hm as <-. reflexivity.
Qed.
