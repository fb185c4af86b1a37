(** * Training GMMHMM with renumbered states and components, or reordered
      sequences: properties C77, C78. *)
From Coq Require Import Permutation.
From Verif Require Export Relabel_thms Gmm_thms.

(** Indices of the arrays of covariances and of their hyper-parameters when state
    [i] is the former state [s i] and its component [k] the former component
    [t i k].  With "tied" covariances there is no index for the component. *)
Definition renum_idx (ty : string) (s : nat -> nat) (t : nat -> nat -> nat) (idx : list nat) : list nat :=
  match idx with
  | i :: k :: r => if String.eqb ty "tied" then s i :: k :: r else s i :: t i k :: r
  | [i] => [s i]
  | [] => []
  end.

Lemma renum_idx_id ty idx : renum_idx ty (fun i => i) (fun _ k => k) idx = idx.
Proof. destruct idx as [|i [|k r]]; [reflexivity..|]. unfold renum_idx. destruct (String.eqb ty "tied"); reflexivity. Qed.

Section Gmm.
  Variables (nc nm nf : nat) (ty : string) (s : nat -> nat) (t : nat -> nat -> nat).
  Hypothesis Hty : is_type covariance_types ty = true.
  Hypothesis Hs : permutes nc s.
  Hypothesis Ht : forall i, (i < nc)%nat -> permutes nm (t i).
  Local Notation csh := (cshape nc nm nf ty).
  Local Notation ri := (renum_idx ty s t).

  Lemma s_lt i : (i < nc)%nat -> (s i < nc)%nat.
  Proof. apply Hs. Qed.
  Lemma t_lt i k : (i < nc)%nat -> (k < nm)%nat -> (t i k < nm)%nat.
  Proof. intros Hi. apply (Ht i Hi). Qed.
  Local Hint Resolve s_lt t_lt : core.

  Lemma ri_inb idx : inb idx csh -> inb (ri idx) csh.
  Proof.
    destruct (csh_cases nc nm nf ty Hty) as [(E1 & E2 & E3 & E4 & E5 & E6 & E7 & E8) | [(E1 & E2 & E3 & E4 & E5 & E6 & E7 & E8) | [(E1 & E2 & E3 & E4 & E5 & E6 & E7 & E8) | (E1 & E2 & E3 & E4 & E5 & E6 & E7 & E8)]]];
      rewrite E7; intros H.
    - destruct (inb_inv2 _ _ _ H) as (i & k & -> & Hi & Hk). unfold renum_idx. rewrite E4. apply inb2; auto.
    - destruct (inb_inv3 _ _ _ _ H) as (i & k & f & -> & Hi & Hk & Hf). unfold renum_idx. rewrite E4. apply inb3; auto.
    - destruct (inb_inv4 _ _ _ _ _ H) as (i & k & f & g & -> & Hi & Hk & Hf & Hg). unfold renum_idx. rewrite E4. apply inb4; auto.
    - destruct (inb_inv3 _ _ _ _ H) as (i & k & f & -> & Hi & Hk & Hf). unfold renum_idx. rewrite E4. apply inb3; auto.
  Qed.

  (** *** Densities and responsibilities *)
  Section Dens.
  Variables (w w2 : nat -> nat -> R) (mu mu2 : nat -> nat -> nat -> R) (cv cv2 : list nat -> R).
  Hypothesis Ew : forall i k, (i < nc)%nat -> (k < nm)%nat -> w2 i k = w (s i) (t i k).
  Hypothesis Emu : forall i k f, (i < nc)%nat -> (k < nm)%nat -> (f < nf)%nat -> mu2 i k f = mu (s i) (t i k) f.
  Hypothesis Ecv : forall idx, inb idx csh -> cv2 idx = cv (ri idx).

  Lemma comp_v_renum i k f : vec_type ty = true -> (i < nc)%nat -> (k < nm)%nat -> (f < nf)%nat ->
    comp_v ty cv2 i k f = comp_v ty cv (s i) (t i k) f.
  Proof.
    intros V Hi Hk Hf. unfold comp_v.
    destruct (csh_cases nc nm nf ty Hty) as [(E1 & E2 & E3 & E4 & E5 & E6 & E7 & E8) | [(E1 & E2 & E3 & E4 & E5 & E6 & E7 & E8) | [(E1 & E2 & E3 & E4 & E5 & E6 & E7 & E8) | (E1 & E2 & E3 & E4 & E5 & E6 & E7 & E8)]]];
      rewrite E3; try congruence.
    - rewrite Ecv by (rewrite E7; apply inb2; assumption). unfold renum_idx. rewrite E4. reflexivity.
    - rewrite Ecv by (rewrite E7; apply inb3; assumption). unfold renum_idx. rewrite E4. reflexivity.
  Qed.
  Lemma comp_S_renum i k f g : mat_type ty = true -> (i < nc)%nat -> (k < nm)%nat -> (f < nf)%nat -> (g < nf)%nat ->
    comp_S ty cv2 i k f g = comp_S ty cv (s i) (t i k) f g.
  Proof.
    intros V Hi Hk Hf Hg. unfold comp_S.
    destruct (csh_cases nc nm nf ty Hty) as [(E1 & E2 & E3 & E4 & E5 & E6 & E7 & E8) | [(E1 & E2 & E3 & E4 & E5 & E6 & E7 & E8) | [(E1 & E2 & E3 & E4 & E5 & E6 & E7 & E8) | (E1 & E2 & E3 & E4 & E5 & E6 & E7 & E8)]]];
      rewrite E4; try congruence.
    - rewrite Ecv by (rewrite E7; apply inb4; assumption). unfold renum_idx. rewrite E4. reflexivity.
    - rewrite Ecv by (rewrite E7; apply inb3; assumption). unfold renum_idx. rewrite E4. reflexivity.
  Qed.

  Lemma dens_renum o i k : (i < nc)%nat -> (k < nm)%nat -> dens nf ty mu2 cv2 o i k = dens nf ty mu cv o (s i) (t i k).
  Proof.
    intros Hi Hk. unfold dens. destruct (vec_type ty) eqn:V.
    - unfold gauss_b. apply prodn_ext. intros f Hf. unfold floored. rewrite comp_v_renum, Emu by assumption. reflexivity.
    - assert (M : mat_type ty = true).
      { destruct (csh_cases nc nm nf ty Hty) as [(E1 & E2 & E3 & E4 & E5 & E6 & E7 & E8) | [(E1 & E2 & E3 & E4 & E5 & E6 & E7 & E8) | [(E1 & E2 & E3 & E4 & E5 & E6 & E7 & E8) | (E1 & E2 & E3 & E4 & E5 & E6 & E7 & E8)]]]; congruence. }
      apply Gmm_thms.mvnf_ext; [auto|]. apply eff_ext. intros f g Hf Hg. apply comp_S_renum; assumption.
  Qed.
  Lemma mixb_renum o i : (i < nc)%nat -> mixb nm nf ty w2 mu2 cv2 o i = mixb nm nf ty w mu cv o (s i).
  Proof.
    intros Hi. unfold mixb. rewrite <- (sumn_perm nm (t i) (Ht i Hi) (fun k => w (s i) k * dens nf ty mu cv o (s i) k)).
    apply sumn_ext. intros k Hk. rewrite Ew, dens_renum by assumption. reflexivity.
  Qed.
  Lemma resp_renum o i k : (i < nc)%nat -> (k < nm)%nat ->
    resp nm nf ty w2 mu2 cv2 o i k = resp nm nf ty w mu cv o (s i) (t i k).
  Proof. intros Hi Hk. unfold resp. rewrite Ew, dens_renum, mixb_renum by assumption. reflexivity. Qed.

  Lemma sC_renum idx o : inb idx csh ->
    sC nm nf ty w2 mu2 cv2 idx o (nth 0 idx 0%nat) = sC nm nf ty w mu cv (ri idx) o (nth 0 (ri idx) 0%nat).
  Proof.
    destruct (csh_cases nc nm nf ty Hty) as [(E1 & E2 & E3 & E4 & E5 & E6 & E7 & E8) | [(E1 & E2 & E3 & E4 & E5 & E6 & E7 & E8) | [(E1 & E2 & E3 & E4 & E5 & E6 & E7 & E8) | (E1 & E2 & E3 & E4 & E5 & E6 & E7 & E8)]]];
      rewrite E7; intros H.
    - destruct (inb_inv2 _ _ _ H) as (i & k & -> & Hi & Hk). unfold renum_idx, sC. rewrite E1, E2, E3, E4. cbn [nth].
      rewrite resp_renum by assumption. f_equal. apply sumn_ext. intros f Hf. unfold dev. rewrite Emu by assumption. reflexivity.
    - destruct (inb_inv3 _ _ _ _ H) as (i & k & f & -> & Hi & Hk & Hf). unfold renum_idx, sC. rewrite E1, E2, E4. cbn [nth].
      rewrite resp_renum by assumption. unfold dev. rewrite Emu by assumption. reflexivity.
    - destruct (inb_inv4 _ _ _ _ _ H) as (i & k & f & g & -> & Hi & Hk & Hf & Hg). unfold renum_idx, sC. rewrite E1, E4. cbn [nth].
      rewrite resp_renum by assumption. unfold dev. rewrite !Emu by assumption. reflexivity.
    - destruct (inb_inv3 _ _ _ _ H) as (i & f & g & -> & Hi & Hf & Hg). unfold renum_idx, sC. rewrite E1, E2, E3, E4. cbn [nth].
      etransitivity; [|apply (sumn_perm nm (t i) (Ht i Hi))]. apply sumn_ext. intros q Hq.
      rewrite resp_renum by assumption. unfold dev. rewrite !Emu by assumption. reflexivity.
  Qed.
  End Dens.

  Lemma wsum_renum (l l2 : list (list vec * (nat -> nat -> R))) phi phi2 i : reordered nc s l l2 -> (i < nc)%nat ->
    (forall o, phi2 o i = phi o (s i)) -> wsum l2 phi2 i = wsum l phi (s i).
  Proof.
    intros Hl Hi H.
    transitivity (wsum l2 (fun o _ => phi o (s i)) i).
    { apply (wsum_ext l2 _ _ i (fun _ => True)); [intros x g _; apply Forall_forall; auto|]. intros o _. apply H. }
    rewrite (reordered_wsum nc s l l2 _ i Hl Hi) by reflexivity.
    apply (wsum_ext l _ _ (s i) (fun _ => True)); [intros x g _; apply Forall_forall; auto|]. reflexivity.
  Qed.

  (** *** The update *)
  Variables (wp mw wp2 mw2 : nat -> nat -> R) (mp mp2 : nat -> nat -> nat -> R) (cp cw cp2 cw2 : list nat -> R).
  Hypothesis Ewp : forall i k, (i < nc)%nat -> (k < nm)%nat -> wp2 i k = wp (s i) (t i k).
  Hypothesis Emw : forall i k, (i < nc)%nat -> (k < nm)%nat -> mw2 i k = mw (s i) (t i k).
  Hypothesis Emp : forall i k f, (i < nc)%nat -> (k < nm)%nat -> (f < nf)%nat -> mp2 i k f = mp (s i) (t i k) f.
  Hypothesis Ecp : forall idx, inb idx csh -> cp2 idx = cp (ri idx).
  Hypothesis Ecw : forall idx, inb idx (wshape nc nm nf ty) -> cw2 idx = cw (ri idx).

  Record gmm_rel (p p2 : gmmp) : Prop := GmmRel {
    mr_w : forall i k, (i < nc)%nat -> (k < nm)%nat -> gm_w p2 i k = gm_w p (s i) (t i k);
    mr_mu : forall i k f, (i < nc)%nat -> (k < nm)%nat -> (f < nf)%nat -> gm_mu p2 i k f = gm_mu p (s i) (t i k) f;
    mr_cv : forall idx, inb idx csh -> gm_cv p2 idx = gm_cv p (ri idx) }.

  Lemma gmm_rel_b p p2 o i : gmm_rel p p2 -> (i < nc)%nat -> gmm_bp nm nf ty p2 o i = gmm_bp nm nf ty p o (s i).
  Proof. intros [] Hi. unfold gmm_bp. apply mixb_renum; assumption. Qed.

  Lemma cden_renum idx : inb idx csh -> cden nm nf ty cp2 cw2 idx = cden nm nf ty cp cw (ri idx).
  Proof.
    intros H. unfold cden. pose proof (Ecp idx H) as EC. revert H EC.
    destruct (csh_cases nc nm nf ty Hty) as [(E1 & E2 & E3 & E4 & E5 & E6 & E7 & E8) | [(E1 & E2 & E3 & E4 & E5 & E6 & E7 & E8) | [(E1 & E2 & E3 & E4 & E5 & E6 & E7 & E8) | (E1 & E2 & E3 & E4 & E5 & E6 & E7 & E8)]]];
      rewrite E7, E1; intros H EC.
    - rewrite E2, E3, EC. reflexivity.
    - rewrite E2, EC. reflexivity.
    - destruct (inb_inv4 _ _ _ _ _ H) as (i & k & f & g & -> & Hi & Hk & Hf & Hg). cbn [nth].
      rewrite Ecw by (rewrite E8; apply inb2; assumption). unfold renum_idx. rewrite E4. reflexivity.
    - destruct (inb_inv3 _ _ _ _ H) as (i & k & f & -> & Hi & Hk & Hf). rewrite E2, E3. cbn [nth].
      rewrite Ecw by (rewrite E8; apply inb1; assumption). unfold renum_idx. rewrite E4. reflexivity.
  Qed.

  Section Upd.
  Variables (c c2 : cfg) (p p2 : gmmp) (l l2 : list (list vec * (nat -> nat -> R))).
  Hypothesis Kc : same_cfg c c2.
  Hypothesis Hr : gmm_rel p p2.
  Hypothesis Hl : reordered nc s l l2.
  Local Notation Kp := (proj1 (proj2 Kc)).

  Lemma u_N_renum i k : (i < nc)%nat -> (k < nm)%nat -> u_N nm nf ty p2 l2 i k = u_N nm nf ty p l (s i) (t i k).
  Proof.
    intros Hi Hk. unfold u_N. apply wsum_renum; [exact Hl|exact Hi|]. intros o. unfold sN. destruct Hr. apply resp_renum; assumption.
  Qed.
  Lemma u_S_renum i : (i < nc)%nat -> u_S l2 i = u_S l (s i).
  Proof. intros Hi. apply wsum_renum; [exact Hl|exact Hi|]. reflexivity. Qed.
  Lemma u_M_renum i k f : (i < nc)%nat -> (k < nm)%nat -> (f < nf)%nat ->
    u_M nm nf ty mw2 mp2 c2 p2 l2 i k f = u_M nm nf ty mw mp c p l (s i) (t i k) f.
  Proof.
    intros Hi Hk Hf. unfold u_M. rewrite Kp, Emw, Emp by assumption. f_equal. destruct (has "m" (c_params c)); [|reflexivity].
    apply wsum_renum; [exact Hl|exact Hi|]. intros o. unfold sM. destruct Hr. f_equal. apply resp_renum; assumption.
  Qed.
  Lemma u_C_renum idx : inb idx csh -> u_C nm nf ty p2 l2 idx = u_C nm nf ty p l (ri idx).
  Proof.
    intros H. unfold u_C.
    assert (N : nth 0 (ri idx) 0%nat = s (nth 0 idx 0%nat) /\ (nth 0 idx 0 < nc)%nat).
    { revert H. destruct (csh_cases nc nm nf ty Hty) as [(E1 & E2 & E3 & E4 & E5 & E6 & E7 & E8) | [(E1 & E2 & E3 & E4 & E5 & E6 & E7 & E8) | [(E1 & E2 & E3 & E4 & E5 & E6 & E7 & E8) | (E1 & E2 & E3 & E4 & E5 & E6 & E7 & E8)]]];
        rewrite E7; intros H; inversion H as [|i ? r ? Hi H1]; subst; (inversion H1; subst); unfold renum_idx; rewrite E4; split; (reflexivity || exact Hi). }
    destruct N as [N Hi]. rewrite N. apply wsum_renum; [exact Hl|exact Hi|]. intros o. rewrite <- N. destruct Hr. apply sC_renum; assumption.
  Qed.

  Lemma u_w_renum i k : (i < nc)%nat -> (k < nm)%nat ->
    u_w nm nf ty wp2 c2 p2 l2 i k = u_w nm nf ty wp c p l (s i) (t i k).
  Proof.
    intros Hi Hk. unfold u_w. rewrite Kp. destruct (has "w" (c_params c)); [|apply Hr; assumption].
    rewrite u_N_renum, u_S_renum, Ewp by assumption. do 2 f_equal.
    rewrite <- (sumn_perm nm (t i) (Ht i Hi) (fun q => wp (s i) q - 1)). apply sumn_ext. intros q Hq. rewrite Ewp by assumption. reflexivity.
  Qed.
  Lemma u_mu_renum i k f : (i < nc)%nat -> (k < nm)%nat -> (f < nf)%nat ->
    u_mu nm nf ty mw2 mp2 c2 p2 l2 i k f = u_mu nm nf ty mw mp c p l (s i) (t i k) f.
  Proof.
    intros Hi Hk Hf. unfold u_mu. rewrite Kp. destruct (has "m" (c_params c)) eqn:Em; [|apply Hr; assumption].
    rewrite u_M_renum, u_N_renum, Emw by assumption. reflexivity.
  Qed.
  Lemma u_dev_renum i k f : (i < nc)%nat -> (k < nm)%nat -> (f < nf)%nat ->
    u_dev nm nf ty mw2 mp2 c2 p2 l2 i k f = u_dev nm nf ty mw mp c p l (s i) (t i k) f.
  Proof. intros Hi Hk Hf. unfold u_dev. rewrite u_mu_renum, Emp by assumption. reflexivity. Qed.

  Lemma u_num_renum idx : inb idx csh ->
    u_num nm nf ty mw2 mp2 cp2 cw2 c2 p2 l2 idx = u_num nm nf ty mw mp cp cw c p l (ri idx).
  Proof.
    destruct (csh_cases nc nm nf ty Hty) as [(E1 & E2 & E3 & E4 & E5 & E6 & E7 & E8) | [(E1 & E2 & E3 & E4 & E5 & E6 & E7 & E8) | [(E1 & E2 & E3 & E4 & E5 & E6 & E7 & E8) | (E1 & E2 & E3 & E4 & E5 & E6 & E7 & E8)]]];
      rewrite E7; intros H.
    - rewrite <- E8 in H. destruct (inb_inv2 nc nm idx) as (i & k & -> & Hi & Hk); [rewrite <- E8; exact H|].
      unfold u_num. rewrite E1, E2, E3, Ecw by exact H. unfold renum_idx. rewrite E4. cbn [nth].
      rewrite Emw by assumption. do 2 f_equal. apply sumn_ext. intros f Hf. rewrite u_dev_renum by assumption. reflexivity.
    - rewrite <- E8 in H. destruct (inb_inv3 nc nm nf idx) as (i & k & f & -> & Hi & Hk & Hf); [rewrite <- E8; exact H|].
      unfold u_num. rewrite E1, E2, Ecw by exact H. unfold renum_idx. rewrite E4. cbn [nth].
      rewrite Emw, u_dev_renum by assumption. reflexivity.
    - destruct (inb_inv4 _ _ _ _ _ H) as (i & k & f & g & -> & Hi & Hk & Hf & Hg). unfold u_num. rewrite E1. unfold renum_idx at 1 2 3 4 5 6 7 8. rewrite ?E4. cbn [nth].
      rewrite Ecp by (rewrite E7; apply inb4; assumption). unfold renum_idx. rewrite E4. rewrite Emw, !u_dev_renum by assumption. reflexivity.
    - destruct (inb_inv3 _ _ _ _ H) as (i & f & g & -> & Hi & Hf & Hg). unfold u_num. rewrite E1, E2, E3. cbn [nth].
      rewrite Ecp by (rewrite E7; apply inb3; assumption). unfold renum_idx. rewrite E4. cbn [nth]. f_equal.
      etransitivity; [|apply (sumn_perm nm (t i) (Ht i Hi))]. apply sumn_ext. intros q Hq. rewrite Emw, !u_dev_renum by assumption. reflexivity.
  Qed.
  Lemma u_tot_renum idx : inb idx csh -> u_tot nm nf ty p2 l2 idx = u_tot nm nf ty p l (ri idx).
  Proof.
    destruct (csh_cases nc nm nf ty Hty) as [(E1 & E2 & E3 & E4 & E5 & E6 & E7 & E8) | [(E1 & E2 & E3 & E4 & E5 & E6 & E7 & E8) | [(E1 & E2 & E3 & E4 & E5 & E6 & E7 & E8) | (E1 & E2 & E3 & E4 & E5 & E6 & E7 & E8)]]];
      rewrite E7; intros H.
    - destruct (inb_inv2 _ _ _ H) as (i & k & -> & Hi & Hk). unfold renum_idx, u_tot. rewrite E3, E4. cbn [nth]. rewrite u_N_renum by assumption. reflexivity.
    - destruct (inb_inv3 _ _ _ _ H) as (i & k & f & -> & Hi & Hk & Hf). unfold renum_idx, u_tot. rewrite E3, E4. cbn [nth]. apply u_N_renum; assumption.
    - destruct (inb_inv4 _ _ _ _ _ H) as (i & k & f & g & -> & Hi & Hk & Hf & Hg). unfold renum_idx, u_tot. rewrite E3, E4. cbn [nth]. apply u_N_renum; assumption.
    - destruct (inb_inv3 _ _ _ _ H) as (i & f & g & -> & Hi & Hf & Hg). unfold renum_idx, u_tot. rewrite E4. cbn [nth]. apply u_S_renum; assumption.
  Qed.
  Lemma u_cv_renum idx : inb idx csh ->
    u_cv nm nf ty mw2 mp2 cp2 cw2 c2 p2 l2 idx = u_cv nm nf ty mw mp cp cw c p l (ri idx).
  Proof.
    intros H. unfold u_cv. rewrite Kp. destruct (has "c" (c_params c)); [|apply Hr; exact H].
    rewrite u_num_renum, u_C_renum, u_tot_renum, cden_renum by exact H. reflexivity.
  Qed.

  Lemma gmm_rel_new :
    gmm_rel (gmm_new nc nm nf ty wp mw mp cp cw c p l) (gmm_new nc nm nf ty wp2 mw2 mp2 cp2 cw2 c2 p2 l2).
  Proof.
    constructor.
    - intros i k Hi Hk. rewrite !new_w by auto. apply u_w_renum; assumption.
    - intros i k f Hi Hk Hf. rewrite !new_mu by auto. apply u_mu_renum; assumption.
    - intros idx H. rewrite !new_cv by (try apply ri_inb; assumption). apply u_cv_renum; assumption.
  Qed.
  End Upd.

  Lemma hyper_ok_renum : hyper_ok nc nm nf ty wp mw cp cw -> hyper_ok nc nm nf ty wp2 mw2 cp2 cw2.
  Proof.
    intros HO. constructor.
    - intros i k Hi Hk. rewrite Ewp by assumption. apply HO; auto.
    - intros i k Hi Hk. rewrite Emw by assumption. apply HO; auto.
    - intros idx H. rewrite cden_renum by assumption. apply HO, ri_inb. exact H.
    - intros M i k Hi Hk. apply (psd_ext nf (comp_S ty cp (s i) (t i k))); [apply HO; auto|].
      intros f g Hf Hg. symmetry. apply comp_S_renum; auto.
  Qed.
End Gmm.

Lemma gmm_new_same nc nm nf ty wp mw mp cp cw c c2 p l l2 : is_type covariance_types ty = true ->
  same_cfg c c2 -> reordered nc (fun i => i) l l2 ->
  gmm_new nc nm nf ty wp mw mp cp cw c2 p l2 = gmm_new nc nm nf ty wp mw mp cp cw c p l.
Proof.
  intros Hty Kc Hl. pose proof (permutes_id nc) as Hs.
  assert (Ht : forall i, (i < nc)%nat -> permutes nm ((fun _ k => k) i)) by (intros; apply permutes_id).
  assert (Hr : gmm_rel nc nm nf ty (fun i => i) (fun _ k => k) p p)
    by (constructor; intros; rewrite ?renum_idx_id; reflexivity).
  assert (Hid : forall f : list nat -> R, forall sh idx, inb idx sh -> f idx = f (renum_idx ty (fun i => i) (fun _ k => k) idx))
    by (intros; rewrite renum_idx_id; reflexivity).
  unfold gmm_new. f_equal; f_equal.
  - apply nd2_ext. intros. eapply (u_w_renum nc nm nf ty (fun i => i) (fun _ k => k)); eauto.
  - apply nd3_ext. intros. eapply (u_mu_renum nc nm nf ty (fun i => i) (fun _ k => k)); eauto.
  - apply fnd_ext. intros idx H.
    rewrite (u_cv_renum nc nm nf ty (fun i => i) (fun _ k => k) Hty Ht mw mw mp mp cp cw cp cw
               ltac:(reflexivity) ltac:(reflexivity) (Hid cp _) (Hid cw _) c c2 p p l l2 Kc Hr Hl idx H).
    rewrite renum_idx_id. reflexivity.
Qed.

Lemma gmm_step eig nc nm nf ty wp mw mp cp cw sub c nfe p l : (0 < nc)%nat -> (0 < nm)%nat -> (0 < nf)%nat ->
  is_type covariance_types ty = true -> hyper_ok nc nm nf ty wp mw cp cw -> c_nc c = nc ->
  gmm_good nc nm nf ty wp mw mp cp cw sub c nfe p -> good_weights nc (finite_row nf) (gmm_bp nm nf ty p) l -> visited nc l ->
  exists st, em_acc_all (gmm eig) c nfe p nc (ec_stats0 (gmm eig) exact c nfe p) l = Ok st
    /\ ec_mstep (gmm eig) exact c nfe p st = Ok (gmm_new nc nm nf ty wp mw mp cp cw c p l).
Proof.
  intros Hnc Hnm Hnf Hty HO Hc Hg Hw Hv. exists (u_stat nc nm nf ty mw mp c p l).
  split; [exact (gmm_acc_step eig nc nm nf Hnc Hnm Hnf ty Hty wp mw mp cp cw sub c p l nfe Hc Hg Hw)|].
  exact (gmm_mstep_ok eig nc nm nf Hnm Hnf ty Hty wp mw mp cp cw HO sub c p l nfe Hc Hg Hw Hv).
Qed.

(** ** C77: GMMHMM *)
Lemma C77_gmm_l eig h h2 nc nm nf ty pi A w mu cv wp mw mp cp cw sp tp s t ls x h' ev :
  permutes nc s -> (forall i, (i < nc)%nat -> permutes nm (t i)) -> same_settings h h2 ->
  gmm_model eig h nc nm nf ty pi A w mu cv -> gmm_hyper (h_em h) nc nm nf ty wp mw mp cp cw -> priors (h_cfg h) nc sp tp ->
  gmm_model eig h2 nc nm nf ty (fun i => pi (s i)) (fun i j => A (s i) (s j)) (fun i k => w (s i) (t i k))
    (fun i k => mu (s i) (t i k)) (fun idx => cv (renum_idx ty s t idx)) ->
  gmm_hyper (h_em h2) nc nm nf ty (fun i k => wp (s i) (t i k)) (fun i k => mw (s i) (t i k)) (fun i k => mp (s i) (t i k))
    (fun idx => cp (renum_idx ty s t idx)) (fun idx => cw (renum_idx ty s t idx)) ->
  priors (h_cfg h2) nc (fun i => sp (s i)) (fun i j => tp (s i) (s j)) ->
  hyper_ok nc nm nf ty wp mw cp cw -> (forall i k, (i < nc)%nat -> (k < nm)%nat -> 0 < w i k) ->
  (forall i, (i < nc)%nat -> 1 <= sp i) -> (forall i j, (i < nc)%nat -> (j < nc)%nat -> 1 <= tp i j) ->
  good_data (finite_row nf) ls x -> possible nc pi A (mixb nm nf ty w mu cv) ls x ->
  all_used nc pi A (mixb nm nf ty w mu cv) (chunks ls x) ->
  fit_from (gmm eig) exact h x (as_lengths ls) = Ok (h', ev) ->
  exists h2' w' mu' cv', fit_from (gmm eig) exact h2 x (as_lengths ls) = Ok (h2', ev) /\ renumbered nc s h' h2'
    /\ gm_weights (h_em h') = Some (nd2 nc nm w') /\ gm_weights (h_em h2') = Some (nd2 nc nm (fun i k => w' (s i) (t i k)))
    /\ gm_means (h_em h') = Some (nd3 nc nm nf mu') /\ gm_means (h_em h2') = Some (nd3 nc nm nf (fun i k => mu' (s i) (t i k)))
    /\ gm_covars (h_em h') = Some (fnd (cshape nc nm nf ty) cv')
    /\ gm_covars (h_em h2') = Some (fnd (cshape nc nm nf ty) (fun idx => cv' (renum_idx ty s t idx))).
Proof.
  intros Hs Ht SS GM HH PR GM2 HH2 PR2 HO Hw Hsp Htp Hd Hpos Hu Hf.
  pose proof (mm_known _ _ _ _ _ _ _ _ _ _ _ GM) as Hty.
  pose proof (mm_nm _ _ _ _ _ _ _ _ _ _ _ GM) as Hnm. pose proof (mm_nf _ _ _ _ _ _ _ _ _ _ _ GM) as Hnf.
  pose proof (bo_pos _ _ _ _ (mm_base _ _ _ _ _ _ _ _ _ _ _ GM)) as Hnc.
  set (w2 := fun i k => w (s i) (t i k)) in *. set (mu2 := fun i k => mu (s i) (t i k)) in *.
  set (cv2 := fun idx => cv (renum_idx ty s t idx)) in *.
  set (wp2 := fun i k => wp (s i) (t i k)) in *. set (mw2 := fun i k => mw (s i) (t i k)) in *.
  set (mp2 := fun i k => mp (s i) (t i k)) in *.
  set (cp2 := fun idx => cp (renum_idx ty s t idx)) in *. set (cw2 := fun idx => cw (renum_idx ty s t idx)) in *.
  assert (HO2 : hyper_ok nc nm nf ty wp2 mw2 cp2 cw2)
    by (apply (hyper_ok_renum nc nm nf ty s t Hty Hs Ht wp mw wp2 mw2 cp cw cp2 cw2); auto).
  assert (Hw2 : forall i k, (i < nc)%nat -> (k < nm)%nat -> 0 < w2 i k).
  { intros i k Hi Hk. apply Hw; [apply Hs; exact Hi|apply (Ht i Hi); exact Hk]. }
  assert (Hb : forall o i, finite_row nf o -> (i < nc)%nat -> mixb nm nf ty w2 mu2 cv2 o i = mixb nm nf ty w mu cv o (s i)).
  { intros o i _ Hi. apply (mixb_renum nc nm nf ty s t); auto. }
  assert (Hpos2 : possible nc (fun i => pi (s i)) (fun i j => A (s i) (s j)) (mixb nm nf ty w2 mu2 cv2) ls x).
  { apply (possible_relabel (finite_row nf) nc s ls ls x x Hs Hd (Permutation_refl _) pi _ A _ (mixb nm nf ty w mu cv)); auto. }
  assert (Hu2 : all_used nc (fun i => pi (s i)) (fun i j => A (s i) (s j)) (mixb nm nf ty w2 mu2 cv2) (chunks ls x)).
  { apply (used_relabel (finite_row nf) nc s ls ls x x Hs Hd (Permutation_refl _) pi _ A _ (mixb nm nf ty w mu cv)); auto. }
  pose proof (gmm_tstate eig h nc nm nf ty pi A w mu cv GM wp mw mp cp cw Hw false ltac:(discriminate) ls x Hd Hpos Hu) as TS.
  pose proof (gmm_tstate eig h2 nc nm nf ty _ _ _ _ _ GM2 wp2 mw2 mp2 cp2 cw2 Hw2 false ltac:(discriminate) ls x Hd Hpos2 Hu2) as TS2.
  destruct (rl_fit (gmm eig) nc (finite_row nf) (gmm_good nc nm nf ty wp mw mp cp cw false) (gmm_good nc nm nf ty wp2 mw2 mp2 cp2 cw2 false)
    (gmm_bp nm nf ty) true
    (gmm_trains eig nc nm nf Hnc Hnm Hnf ty Hty wp mw mp cp cw HO false) (gmm_trains eig nc nm nf Hnc Hnm Hnf ty Hty wp2 mw2 mp2 cp2 cw2 HO2 false)
    ls ls x x Hd Hd (Permutation_refl _) s Hs sp (fun i => sp (s i)) tp (fun i j => tp (s i) (s j))
    Hsp Htp ltac:(reflexivity) ltac:(reflexivity) (gmm_rel nc nm nf ty s t)
    (fun p p2 o i Hr _ Hi => gmm_rel_b nc nm nf ty s t Hty Ht p p2 o i Hr Hi))
    with (h := h) (h2 := h2) (h1 := with_em h (Some nf) (gmm_checked nc nm nf ty wp mw mp cp cw (h_em h)))
         (h21 := with_em h2 (Some nf) (gmm_checked nc nm nf ty wp2 mw2 mp2 cp2 cw2 (h_em h2))) (pi := pi) (A := A)
         (pi2 := fun i => pi (s i)) (A2 := fun i j => A (s i) (s j)) (h' := h') (ev := ev)
    as (h2' & pi' & A' & F & S1 & S2 & T1 & T2 & M & N & _ & _ & Hr & G1 & G2).
  - intros c c2 nfe p p2 l l2 st st2 q q2 Hc Kc Gp Gp2 Hr W W2 Vi Vi2 Hl X1 X2 Y1 Y2.
    rewrite (step_unique _ _ _ _ _ _ _ _ _ X1 X2 (gmm_step eig nc nm nf ty wp mw mp cp cw false c nfe p l Hnc Hnm Hnf Hty HO Hc Gp W (Vi eq_refl))).
    rewrite (step_unique _ _ _ _ _ _ _ _ _ Y1 Y2 (gmm_step eig nc nm nf ty wp2 mw2 mp2 cp2 cw2 false c2 nfe p2 l2 Hnc Hnm Hnf Hty HO2 (eq_trans (proj1 Kc) Hc) Gp2 W2 (Vi2 eq_refl))).
    apply gmm_rel_new; auto.
  - apply (gmm_fit_check eig h nc nm nf ty pi A w mu cv GM wp mw mp cp cw HH).
  - apply (gmm_fit_check eig h2 nc nm nf ty _ _ _ _ _ GM2 wp2 mw2 mp2 cp2 cw2 HH2).
  - constructor; auto.
    + apply (ss_cfg h h2 SS).
    + cbn [with_em h_em]. constructor.
      * intros i k Hi Hk. rewrite (p1_w eig h nc nm nf ty pi A w mu cv GM), (p1_w eig h2 nc nm nf ty _ _ _ _ _ GM2)
          by (assumption || (apply Hs; exact Hi) || (apply (Ht i Hi); exact Hk)). reflexivity.
      * intros i k f Hi Hk Hff. rewrite (p1_mu eig h nc nm nf ty pi A w mu cv GM), (p1_mu eig h2 nc nm nf ty _ _ _ _ _ GM2)
          by (assumption || (apply Hs; exact Hi) || (apply (Ht i Hi); exact Hk)). reflexivity.
      * intros idx H. rewrite (p1_cv eig h nc nm nf ty pi A w mu cv GM), (p1_cv eig h2 nc nm nf ty _ _ _ _ _ GM2)
          by (try assumption; apply (ri_inb nc nm nf ty s t Hty Hs Ht idx H)). reflexivity.
  - exact (ss_mon h h2 SS).
  - exact Hf.
  - exists h2', (gm_w (h_em h')), (gm_mu (h_em h')), (gm_cv (h_em h')). split; [exact F|]. split; [exists pi', A'; auto 10|].
    destruct Hr as [R1 R2 R3].
    split; [apply G1|]. split; [rewrite (Gmm_proofs.gg_w _ _ _ _ _ _ _ _ _ _ _ _ _ G2); f_equal; apply nd2_ext; exact R1|].
    split; [apply G1|]. split; [rewrite (Gmm_proofs.gg_mu _ _ _ _ _ _ _ _ _ _ _ _ _ G2); f_equal; apply nd3_ext; exact R2|].
    split; [apply G1|]. rewrite (Gmm_proofs.gg_cv _ _ _ _ _ _ _ _ _ _ _ _ _ G2). f_equal. apply fnd_ext; exact R3.
Qed.

(** ** C78: GMMHMM *)
Lemma C78_gmm_l eig h nc nm nf ty pi A w mu cv wp mw mp cp cw sp tp ls x ls2 x2 h' ev :
  gmm_model eig h nc nm nf ty pi A w mu cv -> gmm_hyper (h_em h) nc nm nf ty wp mw mp cp cw -> priors (h_cfg h) nc sp tp ->
  hyper_ok nc nm nf ty wp mw cp cw -> (forall i k, (i < nc)%nat -> (k < nm)%nat -> 0 < w i k) ->
  (forall i, (i < nc)%nat -> 1 <= sp i) -> (forall i j, (i < nc)%nat -> (j < nc)%nat -> 1 <= tp i j) ->
  good_data (finite_row nf) ls x -> good_data (finite_row nf) ls2 x2 -> Permutation (chunks ls x) (chunks ls2 x2) ->
  possible nc pi A (mixb nm nf ty w mu cv) ls x -> all_used nc pi A (mixb nm nf ty w mu cv) (chunks ls x) ->
  fit_from (gmm eig) exact h x (as_lengths ls) = Ok (h', ev) ->
  fit_from (gmm eig) exact h x2 (as_lengths ls2) = Ok (h', ev).
Proof.
  intros GM HH PR HO Hw Hsp Htp Hd Hd2 Hcs Hpos Hu.
  pose proof (mm_known _ _ _ _ _ _ _ _ _ _ _ GM) as Hty.
  pose proof (mm_nm _ _ _ _ _ _ _ _ _ _ _ GM) as Hnm. pose proof (mm_nf _ _ _ _ _ _ _ _ _ _ _ GM) as Hnf.
  pose proof (bo_pos _ _ _ _ (mm_base _ _ _ _ _ _ _ _ _ _ _ GM)) as Hnc.
  apply (rl_reorder (gmm eig) nc (finite_row nf) (gmm_good nc nm nf ty wp mw mp cp cw false) (gmm_bp nm nf ty) true
    (gmm_trains eig nc nm nf Hnc Hnm Hnf ty Hty wp mw mp cp cw HO false) ls ls2 x x2 Hd Hd2 Hcs sp tp Hsp Htp)
    with (h1 := with_em h (Some nf) (gmm_checked nc nm nf ty wp mw mp cp cw (h_em h))) (pi := pi) (A := A).
  - intros c c2 nfe p l l2 st st2 q q2 Hc Kc Gp Gp2 W W2 Vi Vi2 Hl X1 X2 Y1 Y2.
    rewrite (step_unique _ _ _ _ _ _ _ _ _ X1 X2 (gmm_step eig nc nm nf ty wp mw mp cp cw false c nfe p l Hnc Hnm Hnf Hty HO Hc Gp W (Vi eq_refl))).
    rewrite (step_unique _ _ _ _ _ _ _ _ _ Y1 Y2 (gmm_step eig nc nm nf ty wp mw mp cp cw false c2 nfe p l2 Hnc Hnm Hnf Hty HO (eq_trans (proj1 Kc) Hc) Gp2 W2 (Vi2 eq_refl))).
    apply gmm_new_same; assumption.
  - apply (gmm_fit_check eig h nc nm nf ty pi A w mu cv GM wp mw mp cp cw HH).
  - apply (gmm_tstate eig h nc nm nf ty pi A w mu cv GM wp mw mp cp cw Hw false ltac:(discriminate) ls x Hd Hpos Hu).
  - exact PR.
Qed.
