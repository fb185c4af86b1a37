(** * Renumbered states and reordered sequences: the emission updates. *)
From Coq Require Import Permutation.
From Verif Require Export Relabel Poisson_thms Mult_thms Gauss_thms Full_fit_thms.

Lemma reordered_occ {X} nc s (l l2 : list (list X * (nat -> nat -> R))) i : reordered nc s l l2 -> (i < nc)%nat ->
  wsum l2 (fun _ _ => 1) i = wsum l (fun _ _ => 1) (s i).
Proof. intros H Hi. apply (reordered_wsum nc s l l2 (fun _ _ => 1) i H Hi). reflexivity. Qed.

Lemma reordered_total {X} nc s (l l2 : list (list X * (nat -> nat -> R))) : permutes nc s -> reordered nc s l l2 ->
  sumn nc (wsum l2 (fun _ _ => 1)) = sumn nc (wsum l (fun _ _ => 1)).
Proof.
  intros Hs H. rewrite <- (sumn_perm nc s Hs (wsum l (fun _ _ => 1))). apply sumn_ext. intros i Hi.
  apply (reordered_occ nc s l l2 i H Hi).
Qed.

(** ** CategoricalHMM *)
Lemma reordered_sym nc s l l2 i k : reordered nc s l l2 -> (i < nc)%nat -> sym_count l2 i k = sym_count l (s i) k.
Proof.
  intros H Hi. unfold sym_count.
  exact (reordered_sum nc s l l2 (fun x t g => if Z.eqb (nth t x 0%Z) (Z.of_nat k) then g else 0) i H Hi).
Qed.

Section Cat.
  Variables (nc nf : nat) (s : nat -> nat) (ep ep2 : nat -> nat -> R).
  Hypothesis Hs : permutes nc s.
  Hypothesis Eep : forall i k, (i < nc)%nat -> (k < nf)%nat -> ep2 i k = ep (s i) k.

  Definition cat_rel (p p2 : catp) : Prop :=
    forall i k, (i < nc)%nat -> (k < nf)%nat -> cat_e p2 i k = cat_e p (s i) k.

  Lemma cat_rel_b p p2 o i : cat_rel p p2 -> sym_ok nf o -> (i < nc)%nat -> cat_bp p2 o i = cat_bp p o (s i).
  Proof. intros H Ho Hi. unfold cat_bp, cat_b. apply H; [exact Hi|]. unfold sym_ok in Ho. lia. Qed.

  Lemma cat_upd_perm l l2 i k : reordered nc s l l2 -> (i < nc)%nat -> (k < nf)%nat ->
    normalised nf (clip_weight (ep2 i) (sym_count l2 i)) k
    = normalised nf (clip_weight (ep (s i)) (sym_count l (s i))) k.
  Proof.
    intros H Hi Hk.
    assert (Hw : forall j, (j < nf)%nat -> clip_weight (ep2 i) (sym_count l2 i) j = clip_weight (ep (s i)) (sym_count l (s i)) j).
    { intros j Hj. unfold clip_weight. rewrite Eep, (reordered_sym nc s l l2) by assumption. reflexivity. }
    unfold normalised. rewrite (sumn_ext nf _ _ Hw), Hw by exact Hk. reflexivity.
  Qed.

  Lemma cat_rel_new c c2 p p2 l l2 : same_cfg c c2 -> cat_rel p p2 -> reordered nc s l l2 ->
    cat_rel (cat_new nc nf ep c p l) (cat_new nc nf ep2 c2 p2 l2).
  Proof.
    intros (_ & Kp & _) Hr Hl i k Hi Hk. destruct (has "e" (c_params c)) eqn:He.
    - rewrite !cat_e_new by (try assumption; try (rewrite Kp; exact He); apply (proj1 Hs); exact Hi).
      apply cat_upd_perm; assumption.
    - unfold cat_new. rewrite Kp, He. apply Hr; assumption.
  Qed.
End Cat.

Lemma cat_new_same nc nf ep c c2 p l l2 : same_cfg c c2 -> reordered nc (fun i => i) l l2 ->
  cat_new nc nf ep c2 p l2 = cat_new nc nf ep c p l.
Proof.
  intros (_ & Kp & _) Hl. unfold cat_new. rewrite Kp. destruct (has "e" _); [|reflexivity].
  do 2 f_equal. apply fmat_ext. intros i k Hi Hk.
  apply (cat_upd_perm nc nf (fun i => i) ep ep); auto.
Qed.

(** ** PoissonHMM *)
Section Pois.
  Variables (nc nf : nat) (s : nat -> nat) (al be al2 be2 : nat -> nat -> R).
  Hypothesis Hs : permutes nc s.
  Hypothesis Eal : forall i f, (i < nc)%nat -> (f < nf)%nat -> al2 i f = al (s i) f.
  Hypothesis Ebe : forall i f, (i < nc)%nat -> (f < nf)%nat -> be2 i f = be (s i) f.

  Definition pois_rel (p p2 : poisp) : Prop :=
    forall i f, (i < nc)%nat -> (f < nf)%nat -> pois_l p2 i f = pois_l p (s i) f.

  Lemma pois_rel_b p p2 o i : pois_rel p p2 -> (i < nc)%nat -> pois_bp nf p2 o i = pois_bp nf p o (s i).
  Proof. intros H Hi. unfold pois_bp, pois_b. apply prodn_ext. intros f Hf. rewrite H by assumption. reflexivity. Qed.

  Lemma pois_upd_perm l l2 i f : reordered nc s l l2 -> (i < nc)%nat -> (f < nf)%nat ->
    pois_upd nc al2 be2 l2 i f = pois_upd nc al be l (s i) f.
  Proof.
    intros H Hi Hf. unfold pois_upd.
    rewrite (reordered_total nc s l l2 Hs H), (reordered_occ nc s l l2 i H Hi), Eal, Ebe by assumption.
    rewrite (reordered_wsum nc s l l2 (cnt f) i H Hi) by reflexivity. reflexivity.
  Qed.

  Lemma pois_rel_new c c2 p p2 l l2 : same_cfg c c2 -> pois_rel p p2 -> reordered nc s l l2 ->
    pois_rel (pois_new nc nf al be c p l) (pois_new nc nf al2 be2 c2 p2 l2).
  Proof.
    intros (_ & Kp & _) Hr Hl i f Hi Hf. unfold pois_new. rewrite Kp. destruct (has "l" (c_params c)); [|apply Hr; assumption].
    rewrite !pois_l_fmat by (try assumption; apply (proj1 Hs); exact Hi). apply pois_upd_perm; assumption.
  Qed.
End Pois.

Lemma pois_new_same nc nf al be c c2 p l l2 : same_cfg c c2 -> reordered nc (fun i => i) l l2 ->
  pois_new nc nf al be c2 p l2 = pois_new nc nf al be c p l.
Proof.
  intros (_ & Kp & _) Hl. unfold pois_new. rewrite Kp. destruct (has "l" _); [|reflexivity].
  do 2 f_equal. apply fmat_ext. intros i k Hi Hk.
  apply (pois_upd_perm nc nf (fun i => i) al be al be (permutes_id nc)); auto.
Qed.

(** ** MultinomialHMM *)
Section Mult.
  Variables (nc nf : nat) (s : nat -> nat).
  Hypothesis Hs : permutes nc s.

  Definition mult_rel (p p2 : mulp) : Prop :=
    forall i f, (i < nc)%nat -> (f < nf)%nat -> mult_e p2 i f = mult_e p (s i) f.

  Lemma mult_rel_b p p2 o i : mult_rel p p2 -> (i < nc)%nat -> mult_bp nf p2 o i = mult_bp nf p o (s i).
  Proof.
    intros H Hi. unfold mult_bp, mult_b, mult_mass. f_equal. apply prodn_ext. intros f Hf.
    rewrite H by assumption. reflexivity.
  Qed.

  Lemma mult_upd_perm l l2 i f : reordered nc s l l2 -> (i < nc)%nat -> (f < nf)%nat ->
    mult_upd nf l2 i f = mult_upd nf l (s i) f.
  Proof.
    intros H Hi Hf. unfold mult_upd. rewrite (reordered_wsum nc s l l2 (cnt f) i H Hi) by reflexivity.
    f_equal. apply sumn_ext. intros k Hk. apply (reordered_wsum nc s l l2 (cnt k) i H Hi). reflexivity.
  Qed.

  Lemma mult_rel_new c c2 p p2 l l2 : same_cfg c c2 -> mult_rel p p2 -> reordered nc s l l2 ->
    mult_rel (mult_new nc nf c p l) (mult_new nc nf c2 p2 l2).
  Proof.
    intros (_ & Kp & _) Hr Hl i f Hi Hf. unfold mult_new. rewrite Kp. destruct (has "e" (c_params c)); [|apply Hr; assumption].
    rewrite !mult_e_fmat by (try assumption; apply (proj1 Hs); exact Hi). apply mult_upd_perm; assumption.
  Qed.
End Mult.

Lemma mult_new_same nc nf c c2 p l l2 : same_cfg c c2 -> reordered nc (fun i => i) l l2 ->
  mult_new nc nf c2 p l2 = mult_new nc nf c p l.
Proof.
  intros (_ & Kp & _) Hl. unfold mult_new. rewrite Kp. destruct (has "e" _); [|reflexivity].
  do 2 f_equal. apply fmat_ext. intros i k Hi Hk.
  apply (mult_upd_perm nc nf (fun i => i)); auto.
Qed.

(** ** GaussianHMM, "diag" and "spherical" *)
Section Gauss.
  Variables (nc nf : nat) (s : nat -> nat) (m0 w cp m02 w2 cp2 : nat -> nat -> R) (a : R).
  Hypothesis Hnc : (0 < nc)%nat.
  Hypothesis Hnf : (0 < nf)%nat.
  Hypothesis Hs : permutes nc s.
  Hypothesis Em0 : forall i f, (i < nc)%nat -> (f < nf)%nat -> m02 i f = m0 (s i) f.
  Hypothesis Ew : forall i f, (i < nc)%nat -> (f < nf)%nat -> w2 i f = w (s i) f.
  Hypothesis Ecp : forall i f, (i < nc)%nat -> (f < nf)%nat -> cp2 i f = cp (s i) f.

  Record gauss_rel (p p2 : gaussp) : Prop := GaussRel {
    gr_type : ga_type p2 = ga_type p;
    gr_mu : forall i f, (i < nc)%nat -> (f < nf)%nat -> ga_mu p2 i f = ga_mu p (s i) f;
    gr_v : forall i f, (i < nc)%nat -> (f < nf)%nat -> ga_v p2 i f = ga_v p (s i) f }.

  Lemma gauss_rel_b p p2 o i : gauss_rel p p2 -> (i < nc)%nat -> gauss_bp nf p2 o i = gauss_bp nf p o (s i).
  Proof.
    intros H Hi. unfold gauss_bp, gauss_b. apply prodn_ext. intros f Hf. unfold floored.
    rewrite (gr_mu _ _ H), (gr_v _ _ H) by assumption. reflexivity.
  Qed.

  Lemma st_n_perm c c2 l l2 i : same_cfg c c2 -> reordered nc s l l2 -> (i < nc)%nat -> st_n c2 l2 i = st_n c l (s i).
  Proof.
    intros (_ & Kp & _) H Hi. unfold st_n. rewrite Kp. destruct (has "m" _); [|reflexivity].
    apply (reordered_occ nc s l l2 i H Hi).
  Qed.
  Lemma st_s_perm c c2 l l2 i f : same_cfg c c2 -> reordered nc s l l2 -> (i < nc)%nat -> st_s c2 l2 i f = st_s c l (s i) f.
  Proof.
    intros (_ & Kp & _) H Hi. unfold st_s. rewrite Kp. destruct (has "m" _); [|reflexivity].
    apply (reordered_wsum nc s l l2 (xf f) i H Hi). reflexivity.
  Qed.
  Lemma st_q_perm c c2 l l2 i f : same_cfg c c2 -> reordered nc s l l2 -> (i < nc)%nat -> st_q c2 l2 i f = st_q c l (s i) f.
  Proof.
    intros (_ & Kp & _) H Hi. unfold st_q. rewrite Kp. destruct (has "c" _); [|reflexivity].
    apply (reordered_wsum nc s l l2 (xf2 f) i H Hi). reflexivity.
  Qed.

  Variables (c c2 : cfg) (l l2 : list (list vec * (nat -> nat -> R))).
  Hypothesis Kc : same_cfg c c2.
  Hypothesis Hl : reordered nc s l l2.

  Lemma mu_new_perm p p2 i f : gauss_rel p p2 -> (i < nc)%nat -> (f < nf)%nat ->
    mu_new m02 w2 c2 p2 l2 i f = mu_new m0 w c p l (s i) f.
  Proof.
    intros Hr Hi Hf. unfold mu_new. replace (c_params c2) with (c_params c) by (symmetry; apply Kc).
    destruct (has "m" _); [|apply Hr; assumption]. unfold new_mean.
    rewrite (st_n_perm c c2 l l2 i Kc Hl Hi), (st_s_perm c c2 l l2 i f Kc Hl Hi), Em0, Ew by assumption. reflexivity.
  Qed.

  Lemma scatter_perm p p2 i f : gauss_rel p p2 -> (i < nc)%nat -> (f < nf)%nat ->
    scatter m02 w2 cp2 (st_n c2 l2) (st_s c2 l2) (st_q c2 l2) (mu_new m02 w2 c2 p2 l2) i f
    = scatter m0 w cp (st_n c l) (st_s c l) (st_q c l) (mu_new m0 w c p l) (s i) f.
  Proof.
    intros Hr Hi Hf. unfold scatter.
    rewrite (st_n_perm c c2 l l2 i Kc Hl Hi), (st_s_perm c c2 l l2 i f Kc Hl Hi), (st_q_perm c c2 l l2 i f Kc Hl Hi),
      Em0, Ew, Ecp, (mu_new_perm p p2 i f Hr Hi Hf) by assumption. reflexivity.
  Qed.

  Lemma v_new_perm p p2 i f : gauss_rel p p2 -> (i < nc)%nat -> (f < nf)%nat ->
    v_new nf m02 w2 cp2 a c2 p2 l2 i f = v_new nf m0 w cp a c p l (s i) f.
  Proof.
    intros Hr Hi Hf. unfold v_new. replace (c_params c2) with (c_params c) by (symmetry; apply Kc).
    destruct (has "c" _); [|apply Hr; assumption]. unfold upd_var. rewrite (gr_type _ _ Hr).
    assert (Hv : forall k, (k < nf)%nat ->
      scatter m02 w2 cp2 (st_n c2 l2) (st_s c2 l2) (st_q c2 l2) (mu_new m02 w2 c2 p2 l2) i k / Rmax (a + st_n c2 l2 i) (/ 10 ^ 5)
      = scatter m0 w cp (st_n c l) (st_s c l) (st_q c l) (mu_new m0 w c p l) (s i) k / Rmax (a + st_n c l (s i)) (/ 10 ^ 5)).
    { intros k Hk. rewrite (scatter_perm p p2 i k Hr Hi Hk), (st_n_perm c c2 l l2 i Kc Hl Hi). reflexivity. }
    destruct (String.eqb _ _); [|apply Hv; exact Hf]. f_equal. apply sumn_ext. exact Hv.
  Qed.

  Lemma gauss_rel_new V nfe p p2 : gauss_good nc nf m0 w cp a V c nfe p -> gauss_good nc nf m02 w2 cp2 a V c2 nfe p2 ->
    gauss_rel p p2 -> gauss_rel (gauss_new nc nf m0 w cp a c p l) (gauss_new nc nf m02 w2 cp2 a c2 p2 l2).
  Proof.
    intros G1 G2 Hr. constructor.
    - apply Hr.
    - intros i f Hi Hf. pose proof (proj1 Hs i Hi). rewrite !ga_mu_new by assumption. apply mu_new_perm; assumption.
    - intros i f Hi Hf. pose proof (proj1 Hs i Hi). rewrite !ga_v_new by assumption. apply v_new_perm; assumption.
  Qed.
End Gauss.

Lemma gauss_rel_refl nc nf p : gauss_rel nc nf (fun i => i) p p.
Proof. constructor; reflexivity. Qed.

Lemma gauss_new_same nc nf m0 w cp a c c2 p l l2 : same_cfg c c2 -> reordered nc (fun i => i) l l2 ->
  gauss_new nc nf m0 w cp a c2 p l2 = gauss_new nc nf m0 w cp a c p l.
Proof.
  intros Kc Hl. unfold gauss_new. replace (c_params c2) with (c_params c) by (symmetry; apply Kc). f_equal.
  - f_equal. apply fmat_ext. intros i f Hi Hf.
    apply (mu_new_perm nc nf (fun i => i) m0 w m0 w) with (p := p); auto. apply gauss_rel_refl.
  - destruct (has "c" _); [|reflexivity]. do 2 f_equal. apply fmat_ext. intros i f Hi Hf.
    apply (v_new_perm nc nf (fun i => i) m0 w cp m0 w cp a) with (p := p); auto. apply gauss_rel_refl.
Qed.

(** ** GaussianHMM, "full" and "tied" *)
Section Full.
  Variables (nc nf : nat) (s : nat -> nat) (m0 m02 cp : nat -> nat -> R) (w a : R).
  Hypothesis Hs : permutes nc s.
  Hypothesis Em0 : forall i f, (i < nc)%nat -> (f < nf)%nat -> m02 i f = m0 (s i) f.

  Record full_rel (p p2 : gaussp) : Prop := FullRel {
    fr_type : ga_type p2 = ga_type p;
    fr_mu : forall i f, (i < nc)%nat -> (f < nf)%nat -> ga_mu p2 i f = ga_mu p (s i) f;
    fr_S : forall i k m, (i < nc)%nat -> (k < nf)%nat -> (m < nf)%nat -> ga_S p2 i k m = ga_S p (s i) k m }.

  Variables (c c2 : cfg) (l l2 : list (list vec * (nat -> nat -> R))).
  Hypothesis Kc : same_cfg c c2.
  Hypothesis Hl : reordered nc s l l2.

  Lemma st_qq_perm i k m : (i < nc)%nat -> st_qq c2 l2 i k m = st_qq c l (s i) k m.
  Proof.
    intros Hi. unfold st_qq. replace (c_params c2) with (c_params c) by (symmetry; apply Kc).
    destruct (has "c" _); [|reflexivity]. apply (reordered_wsum nc s l l2 (xx k m) i Hl Hi). reflexivity.
  Qed.

  Lemma fmu_new_perm p p2 i f : full_rel p p2 -> (i < nc)%nat -> (f < nf)%nat ->
    fmu_new m02 w c2 p2 l2 i f = fmu_new m0 w c p l (s i) f.
  Proof.
    intros Hr Hi Hf. unfold fmu_new. replace (c_params c2) with (c_params c) by (symmetry; apply Kc).
    destruct (has "m" _); [|apply Hr; assumption]. unfold fmean.
    rewrite (st_n_perm nc s c c2 l l2 i Kc Hl Hi), (st_s_perm nc s c c2 l l2 i f Kc Hl Hi), Em0 by assumption. reflexivity.
  Qed.

  Lemma scatm_perm p p2 i k m : full_rel p p2 -> (i < nc)%nat -> (k < nf)%nat -> (m < nf)%nat ->
    scatm m02 w (st_n c2 l2) (st_s c2 l2) (st_qq c2 l2) (fmu_new m02 w c2 p2 l2) i k m
    = scatm m0 w (st_n c l) (st_s c l) (st_qq c l) (fmu_new m0 w c p l) (s i) k m.
  Proof.
    intros Hr Hi Hk Hm. unfold scatm.
    rewrite (st_n_perm nc s c c2 l l2 i Kc Hl Hi), !(st_s_perm nc s c c2 l l2 i _ Kc Hl Hi), (st_qq_perm i k m Hi),
      !Em0, !(fmu_new_perm p p2) by assumption. reflexivity.
  Qed.

  Lemma S_new_perm p p2 i k m : full_rel p p2 -> (i < nc)%nat -> (k < nf)%nat -> (m < nf)%nat ->
    S_new nc m02 cp w a c2 p2 l2 i k m = S_new nc m0 cp w a c p l (s i) k m.
  Proof.
    intros Hr Hi Hk Hm. unfold S_new. replace (c_params c2) with (c_params c) by (symmetry; apply Kc).
    destruct (has "c" _); [|apply Hr; assumption]. unfold upd_cov. rewrite (fr_type _ _ Hr).
    destruct (String.eqb _ _).
    - f_equal.
      + f_equal. rewrite <- (sumn_perm nc s Hs (fun j => scatm m0 w (st_n c l) (st_s c l) (st_qq c l) (fmu_new m0 w c p l) j k m)).
        apply sumn_ext. intros j Hj. apply scatm_perm; assumption.
      + f_equal. rewrite <- (sumn_perm nc s Hs (st_n c l)). apply sumn_ext. intros j Hj.
        apply (st_n_perm nc s c c2 l l2 j Kc Hl Hj).
    - rewrite (scatm_perm p p2), (st_n_perm nc s c c2 l l2 i Kc Hl Hi) by assumption. reflexivity.
  Qed.
End Full.

Lemma full_rel_b nc nf s p p2 o i : full_rel nc nf s p p2 -> (i < nc)%nat -> gauss_fp nf p2 o i = gauss_fp nf p o (s i).
Proof.
  intros H Hi. unfold gauss_fp. apply Full_train.mvnf_ext.
  - intros f Hf. apply (fr_mu _ _ _ _ _ H); assumption.
  - apply effm_ext. intros k m Hk Hm. apply (fr_S _ _ _ _ _ H); assumption.
Qed.

Lemma full_rel_new nc nf s m0 m02 cp w a c c2 l l2 V nfe p p2 : (0 < nc)%nat -> (0 < nf)%nat -> permutes nc s ->
  (forall i f, (i < nc)%nat -> (f < nf)%nat -> m02 i f = m0 (s i) f) -> same_cfg c c2 -> reordered nc s l l2 ->
  full_good nc nf m0 cp w a V c nfe p -> full_good nc nf m02 cp w a V c2 nfe p2 ->
  full_rel nc nf s p p2 -> full_rel nc nf s (full_new nc nf m0 cp w a c p l) (full_new nc nf m02 cp w a c2 p2 l2).
Proof.
  intros Hnc Hnf Hs Em0 Kc Hl G1 G2 Hr. constructor.
  - apply Hr.
  - intros i f Hi Hf. pose proof (proj1 Hs i Hi). rewrite !fga_mu_new by assumption.
    apply (fmu_new_perm nc nf s m0 m02 w Em0 c c2 l l2 Kc Hl); assumption.
  - intros i k m Hi Hk Hm. pose proof (proj1 Hs i Hi).
    rewrite (ga_S_new nc nf m02 cp w a V c2 nfe p2 l2 G2), (ga_S_new nc nf m0 cp w a V c nfe p l G1) by assumption.
    apply (S_new_perm nc nf s m0 m02 cp w a Hs Em0 c c2 l l2 Kc Hl); assumption.
Qed.

Lemma full_rel_refl nc nf p : full_rel nc nf (fun i => i) p p.
Proof. constructor; reflexivity. Qed.

Lemma full_new_same nc nf m0 cp w a c c2 p l l2 : (0 < nc)%nat -> same_cfg c c2 -> reordered nc (fun i => i) l l2 ->
  full_new nc nf m0 cp w a c2 p l2 = full_new nc nf m0 cp w a c p l.
Proof.
  intros Hnc Kc Hl. unfold full_new. replace (c_params c2) with (c_params c) by (symmetry; apply Kc). f_equal.
  - f_equal. apply fmat_ext. intros i f Hi Hf.
    apply (fmu_new_perm nc nf (fun i => i) m0 m0 w) with (p := p); auto. apply full_rel_refl.
  - destruct (has "c" _); [|reflexivity]. f_equal. destruct (String.eqb _ _); f_equal.
    + apply fmat_ext. intros k m Hk Hm.
      apply (S_new_perm nc nf (fun i => i) m0 m0 cp w a (permutes_id nc)) with (p := p); auto. apply full_rel_refl.
    + apply tab_ext. intros i Hi. apply fmat_ext. intros k m Hk Hm.
      apply (S_new_perm nc nf (fun i => i) m0 m0 cp w a (permutes_id nc)) with (p := p); auto. apply full_rel_refl.
Qed.
