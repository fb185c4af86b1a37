(** * GMMHMM: statistics, update, training. *)
From Verif Require Export Gmm_dens Gauss_proofs.

(** ** Positive semi-definite matrices. *)
Lemma quad_ext n A B v : (forall i j, (i < n)%nat -> (j < n)%nat -> A i j = B i j) -> quad n A v = quad n B v.
Proof. intros H. apply sumn_ext. intros i Hi. apply sumn_ext. intros j Hj. rewrite H by assumption. reflexivity. Qed.
Lemma psd_ext n A B : psd n A -> (forall i j, (i < n)%nat -> (j < n)%nat -> A i j = B i j) -> psd n B.
Proof.
  intros [Hs Hq] H. split.
  - intros i j Hi Hj. rewrite <- !H by assumption. apply Hs; assumption.
  - intros v. rewrite <- (quad_ext n A B v H). apply Hq.
Qed.
Lemma quad_plus n A B v : quad n (fun i j => A i j + B i j) v = quad n A v + quad n B v.
Proof.
  unfold quad. rewrite <- sumn_plus. apply sumn_ext. intros i _. rewrite <- sumn_plus. apply sumn_ext. intros; ring.
Qed.
Lemma quad_scal n a A v : quad n (fun i j => a * A i j) v = a * quad n A v.
Proof.
  unfold quad. rewrite <- sumn_scal_l. apply sumn_ext. intros i _. rewrite <- sumn_scal_l. apply sumn_ext. intros; ring.
Qed.
Lemma quad_outer n u v : quad n (fun i j => u i * u j) v = sumn n (fun i => v i * u i) * sumn n (fun i => v i * u i).
Proof.
  unfold quad. rewrite <- sumn_scal_r. apply sumn_ext. intros i _. rewrite <- sumn_scal_l. apply sumn_ext. intros; ring.
Qed.
Lemma quad_sumn n m (A : nat -> nat -> nat -> R) v :
  quad n (fun i j => sumn m (fun q => A q i j)) v = sumn m (fun q => quad n (A q) v).
Proof.
  induction m as [|m IH].
  - cbn [sumn]. unfold quad. apply sumn_zero. intros. apply sumn_zero. intros. ring.
  - cbn [sumn]. rewrite quad_plus, IH. reflexivity.
Qed.
Lemma quad_wsum {X} n (l : list (list X * (nat -> nat -> R))) (phi : nat -> nat -> X -> nat -> R) k v :
  quad n (fun i j => wsum l (phi i j) k) v = wsum l (fun o s => quad n (fun i j => phi i j o s) v) k.
Proof.
  unfold quad. rewrite wsum_sumn. apply sumn_ext. intros i _. rewrite wsum_sumn. apply sumn_ext. intros j _.
  rewrite (Rmult_comm (v i)), Rmult_assoc, Rmult_comm, <- wsum_scal.
  unfold wsum. apply sumL_ext. intros [x g] _. apply sumn_ext. intros t _. f_equal. unfold obsB.
  f_equal. apply map_ext. intros o. ring.
Qed.
Lemma psd_plus n A B : psd n A -> psd n B -> psd n (fun i j => A i j + B i j).
Proof.
  intros [H1 H2] [H3 H4]. split.
  - intros i j Hi Hj. rewrite (H1 i j), (H3 i j) by assumption. reflexivity.
  - intros v. rewrite quad_plus. specialize (H2 v). specialize (H4 v). lra.
Qed.
Lemma psd_scal n a A : 0 <= a -> psd n A -> psd n (fun i j => a * A i j).
Proof.
  intros Ha [H1 H2]. split.
  - intros i j Hi Hj. rewrite (H1 i j) by assumption. reflexivity.
  - intros v. rewrite quad_scal. apply Rmult_le_pos; [exact Ha|apply H2].
Qed.
Lemma psd_outer n u : psd n (fun i j => u i * u j).
Proof. split; [intros i j _ _; ring|]. intros v. rewrite quad_outer. apply Rle_0_sqr. Qed.
Lemma psd_sumn n m (A : nat -> nat -> nat -> R) : (forall q, (q < m)%nat -> psd n (A q)) -> psd n (fun i j => sumn m (fun q => A q i j)).
Proof.
  intros H. split.
  - intros i j Hi Hj. apply sumn_ext. intros q Hq. apply (H q Hq); assumption.
  - intros v. rewrite quad_sumn. apply sumn_nonneg. intros q Hq. apply (H q Hq).
Qed.
Lemma psd_wsum {X} n (l : list (list X * (nat -> nat -> R))) (phi : nat -> nat -> X -> nat -> R) k (ok : X -> Prop) :
  (forall x g, In (x, g) l -> Forall ok x /\ forall t, (t < length x)%nat -> 0 <= g t k) ->
  (forall o, ok o -> psd n (fun i j => phi i j o k)) -> psd n (fun i j => wsum l (phi i j) k).
Proof.
  intros Hl H. split.
  - intros i j Hi Hj. apply (wsum_ext l _ _ k ok); [intros x g Hin; apply (Hl x g Hin)|].
    intros o Ho. apply (H o Ho); assumption.
  - intros v. rewrite quad_wsum. apply (wsum_nonneg l _ k ok Hl). intros o Ho. apply (H o Ho).
Qed.

Lemma ntab_nd2 a b f g : (forall i j, (i < a)%nat -> (j < b)%nat -> f [i; j] = Fin (g i j)) -> ntab [a; b] f = nd2 a b g.
Proof.
  intros H. unfold nd2, fnd. apply ntab_ext. intros idx Hidx. destruct (inb_inv2 _ _ _ Hidx) as (i & j & -> & Hi & Hj). apply H; assumption.
Qed.
Lemma ntab_nd3 a b c f g : (forall i j k, (i < a)%nat -> (j < b)%nat -> (k < c)%nat -> f [i; j; k] = Fin (g i j k)) ->
  ntab [a; b; c] f = nd3 a b c g.
Proof.
  intros H. unfold nd3, fnd. apply ntab_ext. intros idx Hidx.
  destruct (inb_inv3 _ _ _ _ Hidx) as (i & j & k & -> & Hi & Hj & Hk). apply H; assumption.
Qed.

(** ** Parameters. *)
Definition gm_w (p : gmmp) (i k : nat) : R := match gm_weights p with Some a => rval (nget a [i; k]) | None => 0 end.
Definition gm_mu (p : gmmp) (i k f : nat) : R := match gm_means p with Some a => rval (nget a [i; k; f]) | None => 0 end.
Definition gm_cv (p : gmmp) (idx : list nat) : R := match gm_covars p with Some a => rval (nget a idx) | None => 0 end.

Section Gmm.
  Variable eig : mat -> xnum.
  Variables (nc nm nf : nat).
  Hypothesis Hnc : (0 < nc)%nat.
  Hypothesis Hnm : (0 < nm)%nat.
  Hypothesis Hnf : (0 < nf)%nat.
  Variable ty : string.
  Hypothesis Hty : is_type covariance_types ty = true.
  Local Notation csh := (cshape nc nm nf ty).

  Definition gmm_bp (p : gmmp) : vec -> nat -> R := mixb nm nf ty (gm_w p) (gm_mu p) (gm_cv p).

  (** Hyper-parameters after [_check]. *)
  Variables (wp mw : nat -> nat -> R) (mp : nat -> nat -> nat -> R) (cp cw : list nat -> R).
  Definition wshape : list nat := match cweight_shape ty nc nm nf with Some s => s | None => [] end.

  Record gmm_prior (p : gmmp) : Prop := GmmPrior {
    pr_w : gm_wprior p = nd2 nc nm wp;
    pr_m : gm_mprior p = nd3 nc nm nf mp;
    pr_mw : gm_mweight p = nd2 nc nm mw;
    pr_c : gm_cprior p = Some (fnd csh cp);
    pr_cw : gm_cweight p = Some (fnd wshape cw) }.

  (** The constant added to the weight in the denominator of a covariance. *)
  Definition cden (idx : list nat) : R :=
    let i := nth 0 idx 0%nat in
    let k := nth 1 idx 0%nat in
    if String.eqb ty "full" then 1 + cw [i; k] + INR nf + 1
    else if String.eqb ty "diag" then 1 + 2 * (cp idx + 1)
    else if String.eqb ty "spherical" then INR nf + 2 * (cp idx + 1)
    else INR nm + cw [i] + INR nf + 1.

  Lemma csh_cases :
    (String.eqb ty "full" = false /\ String.eqb ty "diag" = false /\ String.eqb ty "spherical" = true /\ String.eqb ty "tied" = false
       /\ mat_type ty = false /\ vec_type ty = true /\ csh = [nc; nm] /\ wshape = [nc; nm])
    \/ (String.eqb ty "full" = false /\ String.eqb ty "diag" = true /\ String.eqb ty "spherical" = false /\ String.eqb ty "tied" = false
       /\ mat_type ty = false /\ vec_type ty = true /\ csh = [nc; nm; nf] /\ wshape = [nc; nm; nf])
    \/ (String.eqb ty "full" = true /\ String.eqb ty "diag" = false /\ String.eqb ty "spherical" = false /\ String.eqb ty "tied" = false
       /\ mat_type ty = true /\ vec_type ty = false /\ csh = [nc; nm; nf; nf] /\ wshape = [nc; nm])
    \/ (String.eqb ty "full" = false /\ String.eqb ty "diag" = false /\ String.eqb ty "spherical" = false /\ String.eqb ty "tied" = true
       /\ mat_type ty = true /\ vec_type ty = false /\ csh = [nc; nf; nf] /\ wshape = [nc]).
  Proof.
    unfold wshape. destruct (type_cases ty Hty) as [E | [E | [E | E]]]; rewrite E; [left|right; left|right; right; left|right; right; right]; repeat split.
  Qed.

  (** Hyper-parameters under which the updates are defined. *)
  Record hyper_ok : Prop := HyperOk {
    ho_wp : forall i k, (i < nc)%nat -> (k < nm)%nat -> 1 <= wp i k;
    ho_mw : forall i k, (i < nc)%nat -> (k < nm)%nat -> 0 <= mw i k;
    ho_den : forall idx, inb idx csh -> 0 <= cden idx;
    ho_cp : mat_type ty = true -> forall i k, (i < nc)%nat -> (k < nm)%nat -> psd nf (comp_S ty cp i k) }.
  Hypothesis HO : hyper_ok.

  Variable sub : bool.
  Record gmm_good (c : cfg) (nfe : option nat) (p : gmmp) : Prop := GmmGood {
    gg_nf : nfe = Some nf;
    gg_nm : gm_nmix p = nm;
    gg_ty : gm_type p = ty;
    gg_w : gm_weights p = Some (nd2 nc nm (gm_w p));
    gg_mu : gm_means p = Some (nd3 nc nm nf (gm_mu p));
    gg_cv : gm_covars p = Some (fnd csh (gm_cv p));
    gg_cok : cov_ok nc nm nf ty (gm_cv p);
    gg_wpos : forall i k, (i < nc)%nat -> (k < nm)%nat -> 0 < gm_w p i k;
    gg_wsum : sub = true -> forall i, (i < nc)%nat -> sumn nm (gm_w p i) <= 1;
    gg_prior : gmm_prior p }.

  (** ** Statistics. *)
  Section Acc.
  Variables (w : nat -> nat -> R) (mu : nat -> nat -> nat -> R) (cv : list nat -> R).
  Hypothesis Hco : cov_ok nc nm nf ty cv.
  Hypothesis Hw0 : nonneg2 nc nm w.
  Hypothesis HwS : forall i, (i < nc)%nat -> 0 < sumn nm (w i).
  Local Notation rs := (resp nm nf ty w mu cv).

  Definition dev (o : vec) (i k f : nat) : R := xval o f - mu i k f.
  Definition sN (k : nat) (o : vec) (i : nat) : R := rs o i k.
  Definition sM (k f : nat) (o : vec) (i : nat) : R := rs o i k * xval o f.
  Definition sC (idx : list nat) (o : vec) (i : nat) : R :=
    let k := nth 1 idx 0%nat in
    if String.eqb ty "full" then rs o i k * (dev o i k (nth 2 idx 0%nat) * dev o i k (nth 3 idx 0%nat))
    else if String.eqb ty "diag" then rs o i k * (dev o i k (nth 2 idx 0%nat) * dev o i k (nth 2 idx 0%nat))
    else if String.eqb ty "spherical" then rs o i k * sumn nf (fun f => dev o i k f * dev o i k f)
    else sumn nm (fun q => rs o i q * (dev o i q (nth 1 idx 0%nat) * dev o i q (nth 2 idx 0%nat))).

  Lemma wsum_mix_ok x g i k (phi : vec -> R) (xphi : nat -> xnum) : (i < nc)%nat -> (k < nm)%nat ->
    (forall t, (t < length x)%nat -> xphi t = Fin (phi (nth t x []))) ->
    wsum_mix exact (tab nc (fun i => fmat (length x) nm (obsB (fun o k => rs o i k) x))) (fmat (length x) nc g) (length x) i k xphi
    = Fin (sumn (length x) (fun t => g t i * obsB (fun o i => rs o i k * phi o) x t i)).
  Proof.
    intros Hi Hk Hphi. unfold wsum_mix. rewrite <- xsum_fvec. f_equal. unfold fvec. apply tab_ext. intros t Ht.
    rewrite mget_fmat by assumption. rewrite tab_nth by exact Hi. rewrite mget_fmat by assumption.
    rewrite Hphi by exact Ht. rewrite !xmulE. f_equal. rewrite !(obsB_nth _ x []) by exact Ht. ring.
  Qed.

  Variables (c : cfg) (p : gmmp).
  Hypothesis Hc : c_nc c = nc.
  Hypothesis Hpm : gm_nmix p = nm.
  Hypothesis Hpt : gm_type p = ty.
  Hypothesis Hw : gm_weights p = Some (nd2 nc nm w).
  Hypothesis Hmu : gm_means p = Some (nd3 nc nm nf mu).
  Hypothesis Hcv : gm_covars p = Some (fnd csh cv).
  Local Notation E := (gmm eig).

  Lemma obsB_sumn (x : list vec) n (phi : nat -> vec -> nat -> R) t i : (t < length x)%nat ->
    obsB (fun o i => sumn n (fun q => phi q o i)) x t i = sumn n (fun q => obsB (phi q) x t i).
  Proof. intros Ht. rewrite (obsB_nth _ x []) by exact Ht. apply sumn_ext. intros q _. rewrite (obsB_nth _ x []) by exact Ht. reflexivity. Qed.

  Lemma acc_one a s m q x g : x <> [] -> Forall (finite_row nf) x ->
    ec_acc E exact c (Some nf) p (GmmStat (nd2 nc nm a) (fvec nc s) (nd3 nc nm nf m) (fnd csh q)) x (fmat (length x) nc g)
    = Ok (GmmStat (nd2 nc nm (fun i k => a i k + sumn (length x) (fun t => g t i * obsB (sN k) x t i)))
            (fvec nc (fun i => s i + sumn (length x) (fun t => g t i)))
            (if has "m" (c_params c) then nd3 nc nm nf (fun i k f => m i k f + sumn (length x) (fun t => g t i * obsB (sM k f) x t i))
             else nd3 nc nm nf m)
            (if has "c" (c_params c) then fnd csh (fun idx => q idx + sumn (length x) (fun t => g t (nth 0 idx 0%nat) * obsB (sC idx) x t (nth 0 idx 0%nat)))
             else fnd csh q)).
  Proof.
    intros Hne Hx. cbn [gmm ec_acc]. unfold gmm_acc. rewrite Hmu, Hc, Hpm. cbn [gm_nf].
    rewrite (width_finite nf x Hne Hx), Nat.eqb_refl. cbn [negb].
    assert (Hxt : forall t f, (t < length x)%nat -> (f < nf)%nat -> vget (nth t x []) f = Fin (xval (nth t x []) f)).
    { intros t f Ht Hf. apply (finite_row_get nf); [|exact Hf]. rewrite Forall_forall in Hx. apply Hx, nth_In, Ht. }
    rewrite (post_mix_ok nc nm nf Hnc Hnm Hnf p ty w mu cv Hpm Hpt Hw Hmu Hcv Hco) by
      assumption.
    cbn [bind gs_mix gs_sum gs_mn gs_cn]. f_equal. f_equal.
    - unfold nd2, fnd. apply ntab_ext. intros idx Hidx. rewrite nget_ntab by exact Hidx.
      destruct (inb_inv2 _ _ _ Hidx) as (i & k & -> & Hi & Hk). cbn [nth].
      rewrite (tab_ext (length x) _ (fun t => Fin (g t i * obsB (sN k) x t i))).
      + fold (fvec (length x) (fun t => g t i * obsB (sN k) x t i)). rewrite xsum_fvec. apply xaddE.
      + intros t Ht. rewrite mget_fmat by assumption. rewrite tab_nth by exact Hi. rewrite mget_fmat by assumption.
        rewrite xmulE. reflexivity.
    - rewrite col_sums_fmat. apply vadd_fvec.
    - destruct (has "m" (c_params c)); [|reflexivity]. unfold nd3, fnd. apply ntab_ext. intros idx Hidx. rewrite nget_ntab by exact Hidx.
      destruct (inb_inv3 _ _ _ _ Hidx) as (i & k & f & -> & Hi & Hk & Hf). cbn [nth].
      rewrite (wsum_mix_ok x g i k (fun o => xval o f)); [apply xaddE|exact Hi|exact Hk|]. intros t Ht. apply Hxt; assumption.
    - destruct (has "c" (c_params c)); [|reflexivity]. cbn [nsh fnd ntab]. unfold fnd. apply ntab_ext. intros idx Hidx.
      rewrite nget_ntab by exact Hidx. rewrite Hpt.
      assert (Hcen : forall t i k f, (t < length x)%nat -> (i < nc)%nat -> (k < nm)%nat -> (f < nf)%nat ->
                xsub exact (vget (nth t x []) f) (nget (nd3 nc nm nf mu) [i; k; f]) = Fin (dev (nth t x []) i k f)).
      { intros t i k f Ht Hi Hk Hf. rewrite Hxt, nget_nd3 by assumption. apply xsubE. }
      unfold sC. destruct csh_cases as [(E1 & E2 & E3 & E4 & _ & _ & E5 & _) | [(E1 & E2 & E3 & E4 & _ & _ & E5 & _) | [(E1 & E2 & E3 & E4 & _ & _ & E5 & _) | (E1 & E2 & E3 & E4 & _ & _ & E5 & _)]]];
        rewrite E5 in Hidx; rewrite ?E1, ?E2, ?E3.
      + destruct (inb_inv2 _ _ _ Hidx) as (i & k & -> & Hi & Hk). cbn [nth].
        rewrite (wsum_mix_ok x g i k (fun o => sumn nf (fun f => dev o i k f * dev o i k f))).
        * apply xaddE.
        * exact Hi.
        * exact Hk.
        * intros t Ht. rewrite <- xsum_fvec. f_equal. unfold fvec. apply tab_ext. intros f Hf. rewrite Hcen by assumption. unfold xsq. apply xmulE.
      + destruct (inb_inv3 _ _ _ _ Hidx) as (i & k & f & -> & Hi & Hk & Hf). cbn [nth].
        rewrite (wsum_mix_ok x g i k (fun o => dev o i k f * dev o i k f)); [apply xaddE|exact Hi|exact Hk|].
        intros t Ht. rewrite Hcen by assumption. unfold xsq. apply xmulE.
      + destruct (inb_inv4 _ _ _ _ _ Hidx) as (i & k & f & f' & -> & Hi & Hk & Hf & Hf'). cbn [nth].
        rewrite (wsum_mix_ok x g i k (fun o => dev o i k f * dev o i k f')); [apply xaddE|exact Hi|exact Hk|].
        intros t Ht. rewrite !Hcen by assumption. apply xmulE.
      + destruct (inb_inv3 _ _ _ _ Hidx) as (i & f & f' & -> & Hi & Hf & Hf'). cbn [nth].
        rewrite (tab_ext nm _ (fun q0 => Fin (sumn (length x) (fun t => g t i * obsB (fun o i => rs o i q0 * (dev o i q0 f * dev o i q0 f')) x t i)))).
        * fold (fvec nm (fun q0 => sumn (length x) (fun t => g t i * obsB (fun o i => rs o i q0 * (dev o i q0 f * dev o i q0 f')) x t i))).
          rewrite xsum_fvec. rewrite xaddE. f_equal. f_equal. rewrite sumn_swap. apply sumn_ext. intros t Ht.
          rewrite obsB_sumn by exact Ht. rewrite <- sumn_scal_l. reflexivity.
        * intros q0 Hq0. rewrite (wsum_mix_ok x g i q0 (fun o => dev o i q0 f * dev o i q0 f')); [|exact Hi|exact Hq0|].
          -- reflexivity.
          -- intros t Ht. rewrite !Hcen by assumption. apply xmulE.
  Qed.

  Lemma gmm_acc_all l : forall a s m q,
    (forall x g, In (x, g) l -> x <> [] /\ Forall (finite_row nf) x) ->
    em_acc_all E c (Some nf) p nc (GmmStat (nd2 nc nm a) (fvec nc s) (nd3 nc nm nf m) (fnd csh q)) l
    = Ok (GmmStat (nd2 nc nm (fun i k => a i k + wsum l (sN k) i))
            (fvec nc (fun i => s i + wsum l (fun _ _ => 1) i))
            (nd3 nc nm nf (fun i k f => m i k f + (if has "m" (c_params c) then wsum l (sM k f) i else 0)))
            (fnd csh (fun idx => q idx + (if has "c" (c_params c) then wsum l (sC idx) (nth 0 idx 0%nat) else 0)))).
  Proof.
    induction l as [|[x g] l IH]; intros a s m q Hl.
    - cbn [em_acc_all]. f_equal. f_equal;
        [apply nd2_ext|apply fvec_ext|apply nd3_ext|apply fnd_ext]; intros; unfold wsum; cbn [sumL];
        try destruct (has _ _); ring.
    - destruct (Hl x g (or_introl eq_refl)) as [Hne Hx]. cbn [em_acc_all]. rewrite acc_one by assumption. cbn [bind].
      assert (E1 : (if has "m" (c_params c) then nd3 nc nm nf (fun i k f => m i k f + sumn (length x) (fun t => g t i * obsB (sM k f) x t i))
             else nd3 nc nm nf m) = nd3 nc nm nf (fun i k f => m i k f + (if has "m" (c_params c) then sumn (length x) (fun t => g t i * obsB (sM k f) x t i) else 0)))
        by (destruct (has "m" (c_params c)); [reflexivity|apply nd3_ext; intros; ring]).
      assert (E2 : (if has "c" (c_params c) then fnd csh (fun idx => q idx + sumn (length x) (fun t => g t (nth 0 idx 0%nat) * obsB (sC idx) x t (nth 0 idx 0%nat)))
             else fnd csh q) = fnd csh (fun idx => q idx + (if has "c" (c_params c) then sumn (length x) (fun t => g t (nth 0 idx 0%nat) * obsB (sC idx) x t (nth 0 idx 0%nat)) else 0)))
        by (destruct (has "c" (c_params c)); [reflexivity|apply fnd_ext; intros; ring]).
      rewrite E1, E2, IH by (intros y g' H; apply (Hl y g'); right; exact H).
      assert (N1 : forall i, sumn (length x) (fun t => g t i * obsB (fun _ _ => 1) x t i) = sumn (length x) (fun t => g t i)).
      { intros i. apply sumn_ext. intros t Ht. rewrite (obsB_nth _ x []) by exact Ht. ring. }
      f_equal. f_equal.
      + apply nd2_ext. intros. rewrite wsum_cons. ring.
      + apply fvec_ext. intros. rewrite wsum_cons, N1. ring.
      + apply nd3_ext. intros. destruct (has "m" (c_params c)); rewrite ?wsum_cons; ring.
      + apply fnd_ext. intros. destruct (has "c" (c_params c)); rewrite ?wsum_cons; ring.
  Qed.
  End Acc.

  (** ** The update. *)
  Section Upd.
  Variables (c : cfg) (p : gmmp) (l : list (list vec * (nat -> nat -> R))).
  Definition u_N (i k : nat) : R := wsum l (sN (gm_w p) (gm_mu p) (gm_cv p) k) i.
  Definition u_S (i : nat) : R := wsum l (fun _ _ => 1) i.
  Definition u_M (i k f : nat) : R :=
    mw i k * mp i k f + (if has "m" (c_params c) then wsum l (sM (gm_w p) (gm_mu p) (gm_cv p) k f) i else 0).
  Definition u_C (idx : list nat) : R := wsum l (sC (gm_w p) (gm_mu p) (gm_cv p) idx) (nth 0 idx 0%nat).

  Definition u_w : nat -> nat -> R :=
    if has "w" (c_params c)
    then fun i k => (u_N i k + (wp i k - 1)) / (u_S i + sumn nm (fun q => wp i q - 1))
    else gm_w p.
  Definition u_mu : nat -> nat -> nat -> R :=
    if has "m" (c_params c) then fun i k f => u_M i k f / (u_N i k + mw i k) else gm_mu p.
  Definition u_dev (i k f : nat) : R := u_mu i k f - mp i k f.
  Definition u_num (idx : list nat) : R :=
    let i := nth 0 idx 0%nat in
    let k := nth 1 idx 0%nat in
    let f := nth 2 idx 0%nat in
    if String.eqb ty "full" then
      cp [i; k; nth 3 idx 0%nat; f] + mw i k * (u_dev i k f * u_dev i k (nth 3 idx 0%nat))
    else if String.eqb ty "diag" then mw i k * (u_dev i k f * u_dev i k f) + 2 * cw idx
    else if String.eqb ty "spherical" then mw i k * sumn nf (fun f => u_dev i k f * u_dev i k f) + 2 * cw idx
    else sumn nm (fun q => mw i q * (u_dev i q k * u_dev i q f)) + cp [i; f; k].
  (** The total weight behind entry [idx]. *)
  Definition u_tot (idx : list nat) : R :=
    let i := nth 0 idx 0%nat in
    let k := nth 1 idx 0%nat in
    if String.eqb ty "tied" then u_S i else if String.eqb ty "spherical" then INR nf * u_N i k else u_N i k.
  Definition u_cv : list nat -> R :=
    if has "c" (c_params c) then fun idx => (u_num idx + u_C idx) / (u_tot idx + cden idx) else gm_cv p.
  Definition gmm_new : gmmp :=
    gm_set p (Some (nd2 nc nm u_w)) (Some (nd3 nc nm nf u_mu)) (Some (fnd csh u_cv)).

  Variable nfe : option nat.
  Hypothesis Hc : c_nc c = nc.
  Hypothesis Hg : gmm_good c nfe p.
  Hypothesis Hw : good_weights nc (finite_row nf) (gmm_bp p) l.
  Hypothesis Hv : visited nc l.

  Lemma gl_ok : forall x g, In (x, g) l -> x <> [] /\ Forall (finite_row nf) x.
  Proof. intros x g Hin. destruct (proj2 Hw x g Hin) as (H1 & H2 & _). split; assumption. Qed.

  Lemma g_nonneg : nonneg2 nc nm (gm_w p).
  Proof. intros i k Hi Hk. left. apply (gg_wpos _ _ _ Hg); assumption. Qed.
  Lemma g_wsum i : (i < nc)%nat -> 0 < sumn nm (gm_w p i).
  Proof.
    pose proof (gg_wpos _ _ _ Hg) as H. intros Hi.
    apply (sumn_pos nm _ 0%nat); [intros; left; apply H; assumption|exact Hnm|apply H; assumption].
  Qed.

  Lemma gl_nn i : (i < nc)%nat ->
    forall x g, In (x, g) l -> Forall (finite_row nf) x /\ forall t, (t < length x)%nat -> 0 <= g t i.
  Proof. intros Hi. apply (good_weights_nn nc _ _ l i Hw Hi). Qed.

  Lemma rs_pos o i k : (i < nc)%nat -> (k < nm)%nat -> 0 < resp nm nf ty (gm_w p) (gm_mu p) (gm_cv p) o i k.
  Proof.
    intros Hi Hk. unfold resp. apply Rdiv_lt_0_compat.
    - apply Rmult_lt_0_compat; [apply (gg_wpos _ _ _ Hg); assumption|].
      apply (dens_pos nc nm nf); [apply Hg|exact Hi|exact Hk].
    - apply (mixb_pos nc nm nf); [apply Hg|exact g_nonneg|exact g_wsum|exact Hi].
  Qed.

  Lemma u_N_pos i k : (i < nc)%nat -> (k < nm)%nat -> 0 < u_N i k.
  Proof.
    intros Hi Hk. destruct (Hv i Hi) as (x & g & t & Hin & Ht & Hp).
    apply (wsum_pos l _ i (finite_row nf) x g t (gl_nn i Hi)); [|exact Hin|exact Ht|exact Hp|].
    - intros o _. left. apply rs_pos; assumption.
    - rewrite (obsB_nth _ x []) by exact Ht. apply rs_pos; assumption.
  Qed.

  Lemma u_N_sum i : (i < nc)%nat -> sumn nm (u_N i) = u_S i.
  Proof.
    intros Hi. unfold u_N, u_S. rewrite <- wsum_sumn. apply (wsum_ext l _ _ i (finite_row nf)); [intros x g H; apply (gl_ok x g H)|].
    intros o _. unfold sN. apply (resp_sum nc nm nf); [apply Hg|exact g_nonneg|exact g_wsum|exact Hi].
  Qed.

  Lemma u_S_pos i : (i < nc)%nat -> 0 < u_S i.
  Proof. intros Hi. apply (visited_occ nc _ _ l i Hw Hv Hi). Qed.

  Lemma wp_sum i : (i < nc)%nat -> 0 <= sumn nm (fun q => wp i q - 1).
  Proof. intros Hi. apply sumn_nonneg. intros q Hq. pose proof (ho_wp HO i q Hi Hq). lra. Qed.

  Lemma u_w_pos i k : (i < nc)%nat -> (k < nm)%nat -> 0 < u_w i k.
  Proof.
    intros Hi Hk. unfold u_w. destruct (has "w" (c_params c)).
    - pose proof (u_N_pos i k Hi Hk). pose proof (u_S_pos i Hi). pose proof (wp_sum i Hi). pose proof (ho_wp HO i k Hi Hk).
      apply Rdiv_lt_0_compat; lra.
    - apply (gg_wpos _ _ _ Hg); assumption.
  Qed.

  Lemma u_w_sum i : (i < nc)%nat -> has "w" (c_params c) = true -> sumn nm (u_w i) = 1.
  Proof.
    intros Hi E. unfold u_w. rewrite E, sumn_div, sumn_plus, (u_N_sum i Hi).
    pose proof (u_S_pos i Hi). pose proof (wp_sum i Hi). apply Rinv_r. lra.
  Qed.

  Lemma u_tot_pos idx : inb idx csh -> 0 < u_tot idx.
  Proof.
    intros Hidx. unfold u_tot. destruct csh_cases as [(E1 & E2 & E3 & E4 & _ & _ & E5 & _) | [(E1 & E2 & E3 & E4 & _ & _ & E5 & _) | [(E1 & E2 & E3 & E4 & _ & _ & E5 & _) | (E1 & E2 & E3 & E4 & _ & _ & E5 & _)]]];
        rewrite E5 in Hidx; rewrite ?E3, ?E4.
    - destruct (inb_inv2 _ _ _ Hidx) as (i & k & -> & Hi & Hk). cbn [nth].
      apply Rmult_lt_0_compat; [apply lt_0_INR; exact Hnf|apply u_N_pos; assumption].
    - destruct (inb_inv3 _ _ _ _ Hidx) as (i & k & f & -> & Hi & Hk & Hf). cbn [nth]. apply u_N_pos; assumption.
    - destruct (inb_inv4 _ _ _ _ _ Hidx) as (i & k & f & f' & -> & Hi & Hk & Hf & Hf'). cbn [nth]. apply u_N_pos; assumption.
    - destruct (inb_inv3 _ _ _ _ Hidx) as (i & f & f' & -> & Hi & Hf & Hf'). cbn [nth]. apply u_S_pos; assumption.
  Qed.
  Lemma u_den_pos idx : inb idx csh -> 0 < u_tot idx + cden idx.
  Proof. intros H. pose proof (u_tot_pos idx H). pose proof (ho_den HO idx H). lra. Qed.

  Definition u_stat : gmm_stat :=
    GmmStat (nd2 nc nm u_N) (fvec nc u_S) (nd3 nc nm nf u_M)
      (fnd csh (fun idx => if has "c" (c_params c) then u_C idx else 0)).

  Lemma gmm_acc_step : em_acc_all (gmm eig) c nfe p nc (ec_stats0 (gmm eig) exact c nfe p) l = Ok u_stat.
  Proof.
    cbn [gmm ec_stats0]. unfold gmm_stats0. rewrite Hc, (gg_nf _ _ _ Hg), (gg_nm _ _ _ Hg), (gg_cv _ _ _ Hg). cbn [gm_nf nsh fnd ntab].
    rewrite (pr_mw _ (gg_prior _ _ _ Hg)), (pr_m _ (gg_prior _ _ _ Hg)).
    change (ntab [nc; nm] (fun _ => Fin 0)) with (nd2 nc nm (fun _ _ => 0)).
    change (tab nc (fun _ => Fin 0)) with (fvec nc (fun _ => 0)).
    change (ntab csh (fun _ => Fin 0)) with (fnd csh (fun _ => 0)).
    replace (ntab [nc; nm; nf] _) with (nd3 nc nm nf (fun i k f => mw i k * mp i k f)).
    2:{ symmetry. apply ntab_nd3. intros i k f Hi Hk Hf.
        cbn [firstn nth]. rewrite nget_nd2, nget_nd3 by assumption. apply xmulE. }
    fold (gmm eig). rewrite (gmm_acc_all (gm_w p) (gm_mu p) (gm_cv p)) by (first [assumption | exact gl_ok | exact g_nonneg | exact g_wsum | apply Hg]).
    unfold u_stat. f_equal. f_equal; [apply nd2_ext|apply fvec_ext|apply fnd_ext]; intros; unfold u_N, u_S, u_C; ring.
  Qed.

  Lemma gmm_mstep_ok : ec_mstep (gmm eig) exact c nfe p u_stat = Ok gmm_new.
  Proof.
    cbn [gmm ec_mstep]. unfold gmm_mstep. rewrite (gg_w _ _ _ Hg), (gg_mu _ _ _ Hg), (gg_nf _ _ _ Hg). cbn [gm_nf].
    pose proof (gg_prior _ _ _ Hg) as [P1 P2 P3 P4 P5].
    assert (Ew : (if has "w" (c_params c) then gmm_weights exact c p u_stat else nd2 nc nm (gm_w p)) = nd2 nc nm u_w).
    { unfold u_w. destruct (has "w" (c_params c)); [|reflexivity]. unfold gmm_weights. rewrite Hc, (gg_nm _ _ _ Hg), P1.
      apply ntab_nd2. intros i k Hi Hk.
      cbn [nth u_stat gs_mix gs_sum]. rewrite !nget_nd2 by assumption. rewrite vget_fvec by exact Hi.
      rewrite (tab_ext nm _ (fun q => Fin (wp i q - 1))) by (intros q Hq; rewrite nget_nd2 by assumption; apply xsubE).
      fold (fvec nm (fun q => wp i q - 1)). rewrite xsum_fvec, xsubE, !xaddE. apply xdivE.
      pose proof (u_S_pos i Hi). pose proof (wp_sum i Hi). lra. }
    rewrite Ew.
    assert (Em : (if has "m" (c_params c) then gmm_means_upd exact c nf p (nd2 nc nm u_w) u_stat else nd3 nc nm nf (gm_mu p))
                 = nd3 nc nm nf u_mu).
    { unfold u_mu. destruct (has "m" (c_params c)) eqn:Em; [|reflexivity]. unfold gmm_means_upd. rewrite Hc, (gg_nm _ _ _ Hg), P3.
      apply ntab_nd3. intros i k f Hi Hk Hf.
      cbn [nth firstn u_stat gs_mix gs_sum gs_mn]. rewrite !nget_nd2 by assumption. rewrite nget_nd3 by assumption.
      replace (xeqb (Fin (u_w i k)) (Fin 0)) with false.
      - cbn [andb]. rewrite xaddE. apply xdivE. pose proof (u_N_pos i k Hi Hk). pose proof (ho_mw HO i k Hi Hk). lra.
      - pose proof (u_w_pos i k Hi Hk). cbn [xeqb]. symmetry. apply Reqb_false. lra. }
    rewrite Em.
    assert (Ec : (if has "c" (c_params c) then do cv <- gmm_covars_upd exact c nf p (nd3 nc nm nf u_mu) u_stat; Ok (Some cv)
                else Ok (gm_covars p)) = Ok (Some (fnd csh u_cv))).
    { unfold u_cv. destruct (has "c" (c_params c)) eqn:Ec; [|f_equal; apply Hg]. unfold gmm_covars_upd.
      rewrite P2, P3, P4, P5, (gg_nm _ _ _ Hg), (gg_ty _ _ _ Hg). cbn [bind]. do 2 f_equal.
      change (nsh (gs_cn u_stat)) with csh. cbn [u_stat gs_mix gs_sum gs_cn].
      apply ntab_ext. intros idx Hidx. rewrite Ec. rewrite (nget_fnd csh (fun idx => u_C idx) idx Hidx).
      pose proof (u_den_pos idx Hidx) as Hden. revert Hden. unfold u_tot, cden, u_num.
      assert (Hcm : forall i k f, (i < nc)%nat -> (k < nm)%nat -> (f < nf)%nat ->
        xsub exact (nget (nd3 nc nm nf u_mu) [i; k; f]) (nget (nd3 nc nm nf mp) [i; k; f]) = Fin (u_dev i k f)).
      { intros i k f Hi Hk Hf. rewrite !nget_nd3 by assumption. apply xsubE. }
      destruct csh_cases as [(E1 & E2 & E3 & E4 & _ & _ & E5 & E6) | [(E1 & E2 & E3 & E4 & _ & _ & E5 & E6) | [(E1 & E2 & E3 & E4 & _ & _ & E5 & E6) | (E1 & E2 & E3 & E4 & _ & _ & E5 & E6)]]];
        rewrite E5 in Hidx; rewrite ?E1, ?E2, ?E3, ?E4, ?E5, ?E6.
      - destruct (inb_inv2 _ _ _ Hidx) as (i & k & -> & Hi & Hk). cbn [nth]. intros Hden.
        rewrite !nget_nd2 by assumption. rewrite !nget_fnd by exact Hidx.
        rewrite (tab_ext nf _ (fun f => Fin (u_dev i k f * u_dev i k f))) by (intros f Hf; rewrite Hcm by assumption; unfold xsq; apply xmulE).
        fold (fvec nf (fun f => u_dev i k f * u_dev i k f)). rewrite xsum_fvec, !xmulE, !xaddE, !xmulE, !xaddE.
        rewrite xdivE by lra. f_equal. unfold u_C. cbn [nth]. f_equal. ring.
      - destruct (inb_inv3 _ _ _ _ Hidx) as (i & k & f & -> & Hi & Hk & Hf). cbn [nth]. intros Hden.
        rewrite !nget_nd2 by assumption. rewrite !nget_fnd by exact Hidx. rewrite Hcm by assumption. unfold xsq.
        rewrite !xmulE, !xaddE, !xmulE, !xaddE. rewrite xdivE by lra. f_equal. f_equal. ring.
      - destruct (inb_inv4 _ _ _ _ _ Hidx) as (i & k & f & f' & -> & Hi & Hk & Hf & Hf'). cbn [nth]. intros Hden.
        rewrite !nget_nd2 by assumption. rewrite !nget_fnd by (apply inb4 || apply inb2; assumption). rewrite !Hcm by assumption.
        rewrite !xmulE, !xaddE. rewrite xdivE by lra. f_equal. f_equal. ring.
      - destruct (inb_inv3 _ _ _ _ Hidx) as (i & f & f' & -> & Hi & Hf & Hf'). cbn [nth]. intros Hden.
        rewrite !nget_fnd by (apply inb3 || apply inb1; assumption). rewrite vget_fvec by exact Hi.
        rewrite (tab_ext nm _ (fun q => Fin (mw i q * (u_dev i q f * u_dev i q f'))))
          by (intros q Hq; rewrite nget_nd2 by assumption; rewrite !Hcm by assumption; rewrite !xmulE; reflexivity).
        fold (fvec nm (fun q => mw i q * (u_dev i q f * u_dev i q f'))). rewrite xsum_fvec, !xaddE.
        rewrite xdivE by lra. f_equal. f_equal. ring. }
    rewrite Ec. reflexivity.
  Qed.

  Lemma new_w i k : (i < nc)%nat -> (k < nm)%nat -> gm_w gmm_new i k = u_w i k.
  Proof. intros Hi Hk. unfold gm_w at 1, gmm_new. cbn [gm_set gm_weights]. rewrite nget_nd2 by assumption. reflexivity. Qed.
  Lemma new_mu i k f : (i < nc)%nat -> (k < nm)%nat -> (f < nf)%nat -> gm_mu gmm_new i k f = u_mu i k f.
  Proof. intros Hi Hk Hf. unfold gm_mu at 1, gmm_new. cbn [gm_set gm_means]. rewrite nget_nd3 by assumption. reflexivity. Qed.
  Lemma new_cv idx : inb idx csh -> gm_cv gmm_new idx = u_cv idx.
  Proof. intros H. unfold gm_cv at 1, gmm_new. cbn [gm_set gm_covars]. rewrite nget_fnd by exact H. reflexivity. Qed.

  Lemma cov_ok_ext cv cv' : cov_ok nc nm nf ty cv -> (forall idx, inb idx csh -> cv idx = cv' idx) -> cov_ok nc nm nf ty cv'.
  Proof.
    intros [H1 H2] H. split; [exact H1|]. intros Hm i k Hi Hk. apply (psd_ext nf (comp_S ty cv i k)); [apply H2; assumption|].
    intros f g Hf Hg0. unfold comp_S.
    destruct csh_cases as [(E1 & E2 & E3 & E4 & E0 & _ & E5 & E6) | [(E1 & E2 & E3 & E4 & E0 & _ & E5 & E6) | [(E1 & E2 & E3 & E4 & E0 & _ & E5 & E6) | (E1 & E2 & E3 & E4 & E0 & _ & E5 & E6)]]];
      rewrite E0 in Hm; try discriminate; rewrite E4; apply H; rewrite E5; [apply inb4|apply inb3]; assumption.
  Qed.

  Lemma u_cv_ok : cov_ok nc nm nf ty u_cv.
  Proof.
    unfold u_cv. destruct (has "c" (c_params c)); [|apply Hg].
    split; [exact Hty|]. intros Hm i k Hi Hk. pose proof (ho_cp HO Hm i k Hi Hk) as Hcp. revert Hcp. unfold comp_S.
    destruct csh_cases as [(E1 & E2 & E3 & E4 & E0 & _ & E5 & E6) | [(E1 & E2 & E3 & E4 & E0 & _ & E5 & E6) | [(E1 & E2 & E3 & E4 & E0 & _ & E5 & E6) | (E1 & E2 & E3 & E4 & E0 & _ & E5 & E6)]]];
      rewrite E0 in Hm; try discriminate; rewrite E4; intros Hcp.
    - assert (Hd : 0 < u_tot [i; k; 0%nat; 0%nat] + cden [i; k; 0%nat; 0%nat]) by (apply u_den_pos; rewrite E5; apply inb4; assumption).
      apply (psd_ext nf (fun f g => / (u_tot [i; k; 0%nat; 0%nat] + cden [i; k; 0%nat; 0%nat])
              * ((cp [i; k; f; g] + mw i k * (u_dev i k f * u_dev i k g))
                 + wsum l (sC (gm_w p) (gm_mu p) (gm_cv p) [i; k; f; g]) i))).
      + apply psd_scal; [left; apply Rinv_0_lt_compat; exact Hd|]. apply psd_plus.
        * apply psd_plus; [exact Hcp|]. apply psd_scal; [apply (ho_mw HO); assumption|apply psd_outer].
        * apply (psd_wsum nf l (fun f g => sC (gm_w p) (gm_mu p) (gm_cv p) [i; k; f; g]) i (finite_row nf) (gl_nn i Hi)).
          intros o _. unfold sC. rewrite E1. cbn [nth]. apply psd_scal; [left; apply rs_pos; assumption|].
          apply (psd_outer nf (fun f => dev (gm_mu p) o i k f)).
      + intros f g Hf Hg0. unfold u_tot, cden, u_num, u_C. rewrite E1, E3, E4. cbn [nth].
        rewrite (proj1 Hcp g f) by assumption. unfold Rdiv. ring.
    - assert (Hd : 0 < u_tot [i; 0%nat; 0%nat] + cden [i; 0%nat; 0%nat]) by (apply u_den_pos; rewrite E5; apply inb3; assumption).
      apply (psd_ext nf (fun f g => / (u_tot [i; 0%nat; 0%nat] + cden [i; 0%nat; 0%nat])
              * ((cp [i; f; g] + sumn nm (fun q => mw i q * (u_dev i q f * u_dev i q g)))
                 + wsum l (sC (gm_w p) (gm_mu p) (gm_cv p) [i; f; g]) i))).
      + apply psd_scal; [left; apply Rinv_0_lt_compat; exact Hd|]. apply psd_plus.
        * apply psd_plus; [exact Hcp|]. apply (psd_sumn nf nm (fun q f g => mw i q * (u_dev i q f * u_dev i q g))). intros q Hq.
          apply psd_scal; [apply (ho_mw HO); assumption|apply (psd_outer nf (u_dev i q))].
        * apply (psd_wsum nf l (fun f g => sC (gm_w p) (gm_mu p) (gm_cv p) [i; f; g]) i (finite_row nf) (gl_nn i Hi)).
          intros o _. unfold sC. rewrite E1, E2, E3. cbn [nth].
          apply (psd_sumn nf nm (fun q f g => resp nm nf ty (gm_w p) (gm_mu p) (gm_cv p) o i q * (dev (gm_mu p) o i q f * dev (gm_mu p) o i q g))).
          intros q Hq. apply psd_scal; [left; apply rs_pos; assumption|].
          apply (psd_outer nf (fun f => dev (gm_mu p) o i q f)).
      + intros f g Hf Hg0. unfold u_tot, cden, u_num, u_C. rewrite E1, E2, E3, E4. cbn [nth].
        rewrite (proj1 Hcp g f) by assumption. unfold Rdiv. ring.
  Qed.

  Lemma gmm_good_new : gmm_good c nfe gmm_new.
  Proof.
    constructor.
    - apply Hg.
    - apply (gg_nm _ _ _ Hg).
    - apply (gg_ty _ _ _ Hg).
    - cbn [gmm_new gm_set gm_weights]. f_equal. apply nd2_ext. intros. symmetry. apply new_w; assumption.
    - cbn [gmm_new gm_set gm_means]. f_equal. apply nd3_ext. intros. symmetry. apply new_mu; assumption.
    - cbn [gmm_new gm_set gm_covars]. f_equal. apply fnd_ext. intros. symmetry. apply new_cv; assumption.
    - apply (cov_ok_ext u_cv); [exact u_cv_ok|]. intros. symmetry. apply new_cv; assumption.
    - intros i k Hi Hk. rewrite new_w by assumption. apply u_w_pos; assumption.
    - intros Hs i Hi. rewrite (sumn_ext nm _ (u_w i)) by (intros; apply new_w; assumption).
      destruct (has "w" (c_params c)) eqn:Ew; [rewrite u_w_sum by assumption; lra|].
      unfold u_w. rewrite Ew. apply (gg_wsum _ _ _ Hg Hs i Hi).
    - destruct (gg_prior _ _ _ Hg). constructor; assumption.
  Qed.
  End Upd.

  Lemma bp_pos c nfe p o i : gmm_good c nfe p -> (i < nc)%nat -> 0 < gmm_bp p o i.
  Proof.
    intros Hg Hi. unfold gmm_bp. apply (mixb_pos nc nm nf); [apply Hg|apply (g_nonneg c p nfe Hg)|apply (g_wsum c p nfe Hg)|exact Hi].
  Qed.

  Theorem gmm_trains : trains (gmm eig) nc (finite_row nf) gmm_good gmm_bp true.
  Proof.
    constructor.
    - intros [c nfe s t m p] Hc Hg. cbn [h_cfg h_nfeat h_em] in *. rewrite (gg_nf _ _ _ Hg). unfold gmm_bp.
      apply (gmm_emits0 nc nm nf Hnm Hnf p ty (gm_w p) (gm_mu p) (gm_cv p)); try apply Hg; [|exact Hc].
      apply (g_nonneg c p nfe Hg).
    - intros c nfe p l Hc Hg Hw Hv. specialize (Hv eq_refl). exists (u_stat c p l), (gmm_new c p l).
      split; [apply gmm_acc_step; assumption|]. split; [apply gmm_mstep_ok; assumption|].
      pose proof (gmm_good_new c p l nfe Hg Hw Hv) as Hn. split; [exact Hn|].
      intros x g t i Hin Ht Hi Hp. rewrite (obsB_nth _ x []) by exact Ht. apply (bp_pos c nfe); assumption.
  Qed.
End Gmm.
