(** * GMMHMM: an iteration does not decrease the (penalised) likelihood. *)
From Verif Require Export Gmm_proofs.

(** ** Mixtures. *)
Lemma mix_jensen n (a a' : nat -> R) : (0 < n)%nat ->
  (forall k, (k < n)%nat -> 0 < a k) -> (forall k, (k < n)%nat -> 0 < a' k) ->
  sumn n (fun k => a k / sumn n a * (ln (a' k) - ln (a k))) <= ln (sumn n a') - ln (sumn n a).
Proof.
  intros Hn Ha Ha'.
  assert (Hb : 0 < sumn n a) by (apply (sumn_pos n a 0%nat); [intros; left; apply Ha; assumption|exact Hn|apply Ha; exact Hn]).
  assert (Hb' : 0 < sumn n a') by (apply (sumn_pos n a' 0%nat); [intros; left; apply Ha'; assumption|exact Hn|apply Ha'; exact Hn]).
  set (b := sumn n a) in *. set (b' := sumn n a') in *.
  assert (H : sumn n (fun k => a k / b * (ln (a' k) - ln (a k))) <= sumn n (fun k => a k / b * (ln b' - ln b) + (a' k / b' - a k / b))).
  { apply sumn_le. intros k Hk. specialize (Ha k Hk). specialize (Ha' k Hk).
    pose proof (ln_le_sub1 ((a' k / b') / (a k / b)) ltac:(repeat apply Rdiv_lt_0_compat; assumption)) as L.
    rewrite !ln_div in L by (try apply Rdiv_lt_0_compat; assumption).
    assert (Hr : 0 < a k / b) by (apply Rdiv_lt_0_compat; assumption).
    apply (Rmult_le_compat_l (a k / b)) in L; [|lra].
    replace (a k / b * (a' k / b' / (a k / b) - 1)) with (a' k / b' - a k / b) in L by (field; lra). lra. }
  rewrite sumn_plus, sumn_scal_r, sumn_minus, !sumn_div in H. fold b b' in H.
  replace (b / b) with 1 in H by (field; lra). replace (b' / b') with 1 in H by (field; lra). lra.
Qed.

Section Gain.
  Variable eig : mat -> xnum.
  Variables (nc nm nf : nat).
  Hypothesis Hnc : (0 < nc)%nat.
  Hypothesis Hnm : (0 < nm)%nat.
  Hypothesis Hnf : (0 < nf)%nat.
  Variable ty : string.
  Hypothesis Hty : is_type covariance_types ty = true.
  Local Notation csh := (cshape nc nm nf ty).
  Variables (wp mw : nat -> nat -> R) (mp : nat -> nat -> nat -> R) (cp cw : list nat -> R).
  Hypothesis HO : hyper_ok nc nm nf ty wp mw cp cw.
  Local Notation good := (gmm_good nc nm nf ty wp mw mp cp cw true).
  Local Notation bp := (gmm_bp nm nf ty).
  Local Notation rs p := (resp nm nf ty (gm_w p) (gm_mu p) (gm_cv p)).
  Local Notation ds p := (dens nf ty (gm_mu p) (gm_cv p)).

  Lemma comp_pos c nfe p o i k : good c nfe p -> (i < nc)%nat -> (k < nm)%nat -> 0 < gm_w p i k * ds p o i k.
  Proof.
    intros Hg Hi Hk. apply Rmult_lt_0_compat; [apply (gg_wpos _ _ _ _ _ _ _ _ _ _ _ _ _ Hg); assumption|].
    apply (dens_pos nc nm nf); [apply Hg|exact Hi|exact Hk].
  Qed.

  Lemma mix_gain c nfe p p' l i : good c nfe p -> good c nfe p' -> good_weights nc (finite_row nf) (bp p) l -> (i < nc)%nat ->
    sumn nm (fun k => u_N nm nf ty p l i k * (ln (gm_w p' i k) - ln (gm_w p i k)))
    + sumn nm (fun k => wsum l (fun o j => rs p o j k * (ln (ds p' o j k) - ln (ds p o j k))) i)
    <= wsum l (fun o j => ln (bp p' o j) - ln (bp p o j)) i.
  Proof.
    intros Hg Hg' Hw Hi.
    assert (Hnn := good_weights_nn nc _ _ l i Hw Hi).
    assert (Hfr : forall x g, In (x, g) l -> Forall (finite_row nf) x) by (intros x g H; apply (Hnn x g H)).
    rewrite <- sumn_plus.
    rewrite (sumn_ext nm _ (fun k => wsum l (fun o j => rs p o j k * (ln (gm_w p' i k * ds p' o j k) - ln (gm_w p i k * ds p o j k))) i)).
    2:{ intros k Hk. unfold u_N, sN. rewrite Rmult_comm, <- wsum_scal, <- wsum_plus. apply (wsum_ext l _ _ i (finite_row nf) Hfr).
        intros o _. rewrite !ln_mult.
        - ring.
        - apply (gg_wpos _ _ _ _ _ _ _ _ _ _ _ _ _ Hg); assumption.
        - apply (dens_pos nc nm nf); [apply Hg|exact Hi|exact Hk].
        - apply (gg_wpos _ _ _ _ _ _ _ _ _ _ _ _ _ Hg'); assumption.
        - apply (dens_pos nc nm nf); [apply Hg'|exact Hi|exact Hk]. }
    rewrite <- wsum_sumn.
    match goal with |- wsum l ?phi i <= wsum l ?psi i =>
      assert (H : 0 <= wsum l (fun o j => psi o j + (-1) * phi o j) i) end.
    { apply (wsum_nonneg l _ i (finite_row nf) Hnn). intros o _.
      pose proof (mix_jensen nm (fun k => gm_w p i k * ds p o i k) (fun k => gm_w p' i k * ds p' o i k) Hnm
        (fun k Hk => comp_pos c nfe p o i k Hg Hi Hk) (fun k Hk => comp_pos c nfe p' o i k Hg' Hi Hk)) as J.
      unfold gmm_bp, resp, mixb in *. lra. }
    rewrite wsum_plus, wsum_scal in H. lra.
  Qed.

  (** ** The weights. *)
  Lemma weights_gain c nfe p l i : c_nc c = nc -> good c nfe p -> good_weights nc (finite_row nf) (bp p) l -> visited nc l ->
    (i < nc)%nat ->
    0 <= sumn nm (fun k => (u_N nm nf ty p l i k + (wp i k - 1)) * (ln (u_w nm nf ty wp c p l i k) - ln (gm_w p i k))).
  Proof.
    intros Hc Hg Hw Hv Hi.
    unfold u_w. destruct (has "w" (c_params c)) eqn:Ew.
    2:{ right. symmetry. apply sumn_zero. intros. ring. }
    assert (HS : sumn nm (fun k => u_N nm nf ty p l i k + (wp i k - 1)) = u_S l i + sumn nm (fun q => wp i q - 1)).
    { rewrite sumn_plus. f_equal. apply (u_N_sum nc nm nf Hnm ty wp mw mp cp cw true c p l nfe); assumption. }
    rewrite <- HS. apply gibbs.
    - intros k Hk. pose proof (u_N_pos nc nm nf Hnm ty wp mw mp cp cw true c p l nfe Hg Hw Hv i k Hi Hk).
      pose proof (ho_wp _ _ _ _ _ _ _ _ HO i k Hi Hk). lra.
    - intros k Hk. left. apply (gg_wpos _ _ _ _ _ _ _ _ _ _ _ _ _ Hg); assumption.
    - intros k Hk _. apply (gg_wpos _ _ _ _ _ _ _ _ _ _ _ _ _ Hg); assumption.
    - apply (gg_wsum _ _ _ _ _ _ _ _ _ _ _ _ _ Hg); [reflexivity|exact Hi].
    - rewrite HS. pose proof (u_S_pos nc nm nf ty p l Hw Hv i Hi).
      pose proof (wp_sum nc nm nf ty wp mw cp cw HO i Hi). lra.
  Qed.

  (** ** Variances, without a prior on the means. *)
  Hypothesis Hvec : vec_type ty = true.
  Hypothesis Hmw : forall i k, (i < nc)%nat -> (k < nm)%nat -> mw i k = 0.
  Hypothesis Hcw : forall idx, inb idx csh -> 0 <= cw idx.

  Definition vv (p : gmmp) (i k f : nat) : R := floored (comp_v ty (gm_cv p) i) k f.
  (** The weighted squared deviations, with the responsibilities of [p] and the means [mu]. *)
  Definition sdev (p : gmmp) (l : list (list vec * (nat -> nat -> R))) (mu : nat -> nat -> nat -> R) (i k f : nat) : R :=
    wsum l (fun o j => rs p o j k * (xval o f - mu i k f) ^ 2) i.
  Definition cpen (p : gmmp) (i k : nat) : R :=
    if String.eqb ty "spherical"
    then - (cden nm nf ty cp cw [i; k] / 2) * ln (vv p i k 0) - cw [i; k] / vv p i k 0
    else sumn nf (fun f => - (cden nm nf ty cp cw [i; k; f] / 2) * ln (vv p i k f) - cw [i; k; f] / vv p i k f).
  Definition gmm_pen (p : gmmp) : R :=
    sumn nc (fun i => sumn nm (fun k => (wp i k - 1) * ln (gm_w p i k) + cpen p i k)).

  Lemma vec_comp_gain p p' l i k : (forall x g, In (x, g) l -> Forall (finite_row nf) x) ->
    wsum l (fun o j => rs p o j k * (ln (ds p' o j k) - ln (ds p o j k))) i
    = sumn nf (fun f => (- (u_N nm nf ty p l i k / 2) * ln (vv p' i k f) - sdev p l (gm_mu p') i k f / (2 * vv p' i k f))
                      - (- (u_N nm nf ty p l i k / 2) * ln (vv p i k f) - sdev p l (gm_mu p) i k f / (2 * vv p i k f))).
  Proof.
    intros Hl.
    assert (Hp : forall f, 0 < vv p i k f) by (intros; apply floored_pos).
    assert (Hp' : forall f, 0 < vv p' i k f) by (intros; apply floored_pos).
    rewrite (wsum_ext l _ (fun o j => sumn nf (fun f =>
       (- (1 / 2) * (ln (vv p' i k f) - ln (vv p i k f))) * rs p o j k
       + ((- / (2 * vv p' i k f)) * (rs p o j k * (xval o f - gm_mu p' i k f) ^ 2)
          + / (2 * vv p i k f) * (rs p o j k * (xval o f - gm_mu p i k f) ^ 2)))) i (finite_row nf) Hl).
    - rewrite wsum_sumn. apply sumn_ext. intros f Hf. rewrite !wsum_plus, !wsum_scal.
      unfold sdev, u_N, sN. specialize (Hp f). specialize (Hp' f). field. lra.
    - intros o _. unfold dens. rewrite Hvec. rewrite !ln_gauss_b by (intros; apply floored_pos).
      change (floored (comp_v ty (gm_cv p') i) k) with (vv p' i k). change (floored (comp_v ty (gm_cv p) i) k) with (vv p i k).
      set (r := rs p o i k).
      transitivity (sumn nf (fun f => r * (- (1 / 2) * (ln (vv p' i k f) - ln (vv p i k f)
          + ((xval o f - gm_mu p' i k f) ^ 2 / vv p' i k f - (xval o f - gm_mu p i k f) ^ 2 / vv p i k f))))).
      + rewrite sumn_scal_l. f_equal. rewrite sumn_scal_l, sumn_plus, !sumn_minus. ring.
      + apply sumn_ext. intros f Hf. specialize (Hp f). specialize (Hp' f). field. lra.
  Qed.

  Section One.
  Variables (c : cfg) (nfe : option nat) (p : gmmp) (l : list (list vec * (nat -> nat -> R))).
  Hypothesis Hc : c_nc c = nc.
  Hypothesis Hg : good c nfe p.
  Hypothesis Hw : good_weights nc (finite_row nf) (bp p) l.
  Hypothesis Hv : visited nc l.
  Local Notation p' := (gmm_new nc nm nf ty wp mw mp cp cw c p l).
  Local Notation N := (u_N nm nf ty p l).

  Lemma one_fr : forall x g, In (x, g) l -> Forall (finite_row nf) x.
  Proof. intros x g Hin. apply (proj2 Hw x g Hin). Qed.

  Lemma sdev_nonneg mu i k f : (i < nc)%nat -> (k < nm)%nat -> 0 <= sdev p l mu i k f.
  Proof.
    intros Hi Hk. apply (wsum_nonneg l _ i (finite_row nf) (good_weights_nn nc _ _ l i Hw Hi)). intros o _.
    apply Rmult_le_pos; [|apply pow2_ge_0]. left.
    apply (rs_pos nc nm nf Hnm ty wp mw mp cp cw true c p nfe Hg); assumption.
  Qed.

  Lemma sdev_expand mu i k f :
    sdev p l mu i k f = wsum l (fun o j => rs p o j k * xval o f ^ 2) i
                        - 2 * mu i k f * wsum l (fun o j => rs p o j k * xval o f) i + mu i k f ^ 2 * N i k.
  Proof.
    unfold sdev. rewrite (wsum_ext l _ (fun o j => (rs p o j k * xval o f ^ 2 + (- 2 * mu i k f) * (rs p o j k * xval o f))
                                        + mu i k f ^ 2 * rs p o j k) i (finite_row nf) one_fr).
    - rewrite !wsum_plus, !wsum_scal. unfold u_N, sN. ring.
    - intros o _. ring.
  Qed.

  Lemma sdev_mean i k f : (i < nc)%nat -> (k < nm)%nat -> (f < nf)%nat ->
    sdev p l (gm_mu p') i k f <= sdev p l (gm_mu p) i k f.
  Proof.
    intros Hi Hk Hf. rewrite !sdev_expand. rewrite new_mu by assumption. unfold u_mu.
    destruct (has "m" (c_params c)) eqn:Em; [|lra]. unfold u_M. rewrite Em, (Hmw i k Hi Hk).
    pose proof (u_N_pos nc nm nf Hnm ty wp mw mp cp cw true c p l nfe Hg Hw Hv i k Hi Hk) as HN.
    unfold sM. set (s := wsum l (fun o j => rs p o j k * xval o f) i). set (q := wsum l (fun o j => rs p o j k * xval o f ^ 2) i).
    set (m := gm_mu p i k f). set (n := N i k) in *.
    change (wsum l (fun (o : vec) (i0 : nat) => rs p o i0 k * xval o f) i) with s.
    assert (E : q - 2 * m * s + m ^ 2 * n - (q - 2 * ((0 * mp i k f + s) / (n + 0)) * s + ((0 * mp i k f + s) / (n + 0)) ^ 2 * n)
                = n * (m - s / n) ^ 2) by (field; lra).
    assert (0 <= n * (m - s / n) ^ 2) by (apply Rmult_le_pos; [lra|apply pow2_ge_0]). lra.
  Qed.

  (** Variance first (about the old mean), then the mean. *)
  Lemma one_dim M K K' v v' : 0 < M -> 0 <= K -> K' <= K -> tiny <= v ->
    v' = Rmax (K / M) tiny \/ v' = v ->
    0 <= (- (M / 2) * ln v' - K' / (2 * v')) - (- (M / 2) * ln v - K / (2 * v)).
  Proof.
    intros HM HK HK' Hv0 H.
    assert (Hv'p : 0 < v').
    { pose proof tiny_pos. destruct H as [-> | ->]; [pose proof (Rmax_r (K / M) tiny); lra|lra]. }
    assert (H1 : - (M / 2) * ln v - K / (2 * v) <= - (M / 2) * ln v' - K / (2 * v')).
    { destruct H as [-> | ->]; [apply var_opt; assumption|lra]. }
    assert (H2 : K' / (2 * v') <= K / (2 * v')).
    { apply Rmult_le_compat_r; [left; apply Rinv_0_lt_compat; lra|exact HK']. }
    lra.
  Qed.

  Lemma comp_gain i k : (i < nc)%nat -> (k < nm)%nat ->
    0 <= wsum l (fun o j => rs p o j k * (ln (ds p' o j k) - ln (ds p o j k))) i + (cpen p' i k - cpen p i k).
  Proof.
    intros Hi Hk. rewrite vec_comp_gain by exact one_fr.
    pose proof (fun idx H => u_den_pos nc nm nf Hnm Hnf ty Hty wp mw mp cp cw HO true c p l nfe Hg Hw Hv idx H) as Hden.
    assert (Hvt : forall q f, tiny <= vv q i k f) by (intros; apply Rmax_r).
    assert (Hvp : forall q f, 0 < vv q i k f) by (intros; apply floored_pos).
    assert (HK0 := fun f => sdev_nonneg (gm_mu p) i k f Hi Hk).
    destruct (csh_cases nc nm nf ty Hty) as [(E1 & E2 & E3 & E4 & _ & Ev & E5 & E6) | [(E1 & E2 & E3 & E4 & _ & Ev & E5 & E6) | [(E1 & E2 & E3 & E4 & _ & Ev & E5 & E6) | (E1 & E2 & E3 & E4 & _ & Ev & E5 & E6)]]];
      [| |rewrite Hvec in Ev; discriminate|rewrite Hvec in Ev; discriminate]; unfold cpen; rewrite E3.
    - assert (Hin : inb [i; k] csh) by (rewrite E5; apply inb2; assumption).
      pose proof (Hden _ Hin) as HM. pose proof (Hcw _ Hin) as Hcw0.
      assert (Hc1 : forall q f, vv q i k f = vv q i k 0) by (intros; unfold vv, floored, comp_v; rewrite E3; reflexivity).
      set (b := cw [i; k]) in *. set (d := cden nm nf ty cp cw [i; k]) in *.
      unfold u_tot in HM. rewrite E4, E3 in HM. cbn [nth] in HM.
      rewrite (sumn_ext nf _ (fun f => ((- (N i k / 2) * ln (vv p' i k 0) - / (2 * vv p' i k 0) * sdev p l (gm_mu p') i k f)
                      - (- (N i k / 2) * ln (vv p i k 0) - / (2 * vv p i k 0) * sdev p l (gm_mu p) i k f))))
        by (intros f Hf; rewrite (Hc1 p' f), (Hc1 p f); unfold Rdiv; ring).
      rewrite !sumn_minus, !sumn_const, !sumn_scal_l.
      set (K := sumn nf (fun f => sdev p l (gm_mu p) i k f)).
      set (K' := sumn nf (fun f => sdev p l (gm_mu p') i k f)).
      pose proof (one_dim (INR nf * N i k + d) (K + 2 * b) (K' + 2 * b) (vv p i k 0) (vv p' i k 0) HM) as G.
      assert (HK : 0 <= K) by (apply sumn_nonneg; intros; apply HK0).
      assert (HKK : K' <= K) by (apply sumn_le; intros; apply sdev_mean; assumption).
      specialize (G ltac:(lra) ltac:(lra) (Hvt p 0%nat)).
      assert (Hnew : vv p' i k 0 = Rmax ((K + 2 * b) / (INR nf * N i k + d)) tiny \/ vv p' i k 0 = vv p i k 0).
      { unfold vv, floored, comp_v. rewrite E3, new_cv by exact Hin. unfold u_cv. destruct (has "c" (c_params c)); [left|right; reflexivity].
        f_equal. unfold u_tot, u_num, u_C, sC. rewrite E1, E2, E3, E4. cbn [nth]. rewrite (Hmw i k Hi Hk). fold b. fold d.
        f_equal. unfold K, sdev. rewrite <- wsum_sumn.
        rewrite (wsum_ext l _ (fun o j => sumn nf (fun f => rs p o j k * (xval o f - gm_mu p i k f) ^ 2)) i (finite_row nf) one_fr).
        - ring.
        - intros o _. rewrite <- sumn_scal_l. apply sumn_ext. intros f _. unfold dev. ring. }
      specialize (G Hnew).
      pose proof (Hvp p 0%nat). pose proof (Hvp p' 0%nat).
      replace (_ + _) with (- ((INR nf * N i k + d) / 2) * ln (vv p' i k 0) - (K' + 2 * b) / (2 * vv p' i k 0)
          - (- ((INR nf * N i k + d) / 2) * ln (vv p i k 0) - (K + 2 * b) / (2 * vv p i k 0))); [exact G|]. field. lra.
    - rewrite <- sumn_minus, <- sumn_plus. apply sumn_nonneg. intros f Hf.
      assert (Hin : inb [i; k; f] csh) by (rewrite E5; apply inb3; assumption).
      pose proof (Hden _ Hin) as HM. pose proof (Hcw _ Hin) as Hcw0.
      set (b := cw [i; k; f]) in *. set (d := cden nm nf ty cp cw [i; k; f]) in *.
      unfold u_tot in HM. rewrite E4, E3 in HM. cbn [nth] in HM.
      set (K := sdev p l (gm_mu p) i k f). set (K' := sdev p l (gm_mu p') i k f).
      pose proof (one_dim (N i k + d) (K + 2 * b) (K' + 2 * b) (vv p i k f) (vv p' i k f) HM) as G.
      assert (HK : 0 <= K) by apply HK0.
      assert (HKK : K' <= K) by (apply sdev_mean; assumption).
      specialize (G ltac:(lra) ltac:(lra) (Hvt p f)).
      assert (Hnew : vv p' i k f = Rmax ((K + 2 * b) / (N i k + d)) tiny \/ vv p' i k f = vv p i k f).
      { unfold vv, floored, comp_v. rewrite E3, new_cv by exact Hin. unfold u_cv. destruct (has "c" (c_params c)); [left|right; reflexivity].
        f_equal. unfold u_tot, u_num, u_C, sC. rewrite E1, E2, E3, E4. cbn [nth]. rewrite (Hmw i k Hi Hk). fold b. fold d.
        f_equal. unfold K, sdev.
        rewrite (wsum_ext l _ (fun o j => rs p o j k * (xval o f - gm_mu p i k f) ^ 2) i (finite_row nf) one_fr).
        - ring.
        - intros o _. unfold dev. ring. }
      specialize (G Hnew).
      pose proof (Hvp p f). pose proof (Hvp p' f).
      replace (_ + _) with (- ((N i k + d) / 2) * ln (vv p' i k f) - (K' + 2 * b) / (2 * vv p' i k f)
          - (- ((N i k + d) / 2) * ln (vv p i k f) - (K + 2 * b) / (2 * vv p i k f))); [exact G|]. field. lra.
  Qed.
  End One.

  Theorem gmm_improves :
    improves (gmm eig) nc (finite_row nf) good bp (fun _ _ _ l => visited nc l) gmm_pen.
  Proof.
    intros c nfe p l st p1 Hc Hg Hw Hv Hst Hp1.
    rewrite (gmm_acc_step eig nc nm nf Hnc Hnm Hnf ty Hty wp mw mp cp cw true c p l nfe Hc Hg Hw) in Hst. injection Hst as <-.
    rewrite (gmm_mstep_ok eig nc nm nf Hnm Hnf ty Hty wp mw mp cp cw HO true c p l nfe Hc Hg Hw Hv) in Hp1. injection Hp1 as <-.
    pose proof (gmm_good_new nc nm nf Hnm Hnf ty Hty wp mw mp cp cw HO true c p l nfe Hg Hw Hv) as Hg'.
    set (p' := gmm_new nc nm nf ty wp mw mp cp cw c p l) in *.
    rewrite gain_by_state. unfold gmm_pen. unfold Rminus at 1. rewrite Rplus_assoc.
    fold (Rminus (sumn nc (fun i => sumn nm (fun k => (wp i k - 1) * ln (gm_w p' i k) + cpen p' i k)))
                 (sumn nc (fun i => sumn nm (fun k => (wp i k - 1) * ln (gm_w p i k) + cpen p i k)))).
    rewrite <- sumn_minus, <- sumn_plus. apply sumn_nonneg. intros i Hi.
    pose proof (mix_gain c nfe p p' l i Hg Hg' Hw Hi) as G1.
    pose proof (weights_gain c nfe p l i Hc Hg Hw Hv Hi) as G2.
    assert (G3 : 0 <= sumn nm (fun k => wsum l (fun o j => rs p o j k * (ln (ds p' o j k) - ln (ds p o j k))) i + (cpen p' i k - cpen p i k)))
      by (apply sumn_nonneg; intros k Hk; apply (comp_gain c nfe p l Hg Hw Hv); assumption).
    rewrite (sumn_ext nm (fun k => (_ + _) * _) (fun k => u_N nm nf ty p l i k * (ln (gm_w p' i k) - ln (gm_w p i k))
        + ((wp i k - 1) * ln (gm_w p' i k) - (wp i k - 1) * ln (gm_w p i k)))) in G2
      by (intros k Hk; unfold p'; rewrite new_w by assumption; ring).
    rewrite sumn_plus, sumn_minus in G2. rewrite sumn_plus, sumn_minus in G3. rewrite !sumn_plus. lra.
  Qed.
End Gain.
