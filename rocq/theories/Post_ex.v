(** * Property C91: example. *)
From Verif Require Export Post_thms.

Lemma u53 : 0 <= / 2 ^ 53 < 1.
Proof. replace (2 ^ 53) with 9007199254740992 by (simpl; lra). lra. Qed.
Lemma sum_accepted n f : (n <= 4)%nat -> nonneg1 n f -> sumn n f = 1 -> check_sum_1 flx53 (fvec n f) = true.
Proof.
  intros Hn Hf H1. unfold check_sum_1.
  destruct (sum_w (/ 2 ^ 53) flx53 u53 C55_binary_precision_l n (fun j => Fin (f j)) f 0) as (y & Ey & Hy & Wy).
  { intros i Hi. split; [apply Hf; exact Hi|]. exists (f i). split; [reflexivity|]. split; [apply Hf; exact Hi|apply w_refl]. }
  assert (Es : xsum flx53 (fvec n f) = Fin y).
  { rewrite <- Ey. unfold xsum, fvec, tab. clear. generalize (Fin 0). induction (seq 0 n) as [|i l IH]; intros z; [reflexivity|]. simpl. apply IH. }
  rewrite Es. cbn [allclose1]. rewrite H1 in Wy.
  apply (w_mono (/ 2 ^ 53) u53 _ 4) in Wy; [|lra|exact Hy|lia]. destruct Wy as [W1 W2].
  pose proof (bernoulli_low (/ 2 ^ 53) 4 u53) as B. replace (INR 4) with 4 in B by (simpl; lra).
  destruct (C55_binary_precision_l (y - 1)) as (d & Ed & Hd).
  assert (E1 : xsub flx53 (Fin y) (Fin 1) = Fin ((y - 1) * (1 + d))) by exact Ed. rewrite E1. cbn [xabs xleb].
  replace (/ 2 ^ 53) with (/ 9007199254740992) in * by (f_equal; simpl; lra).
  set (Q := (1 - / 9007199254740992) ^ 4) in *.
  assert (Hd2 : -1 <= d <= 1) by (revert Hd; unfold Rabs; destruct (Rcase_abs d); lra).
  assert (Hy1 : - / 100000000 <= y - 1 <= / 100000000) by (split; [lra|nra]).
  unfold Rleb. destruct (Rle_dec _ _) as [|N]; [reflexivity|]. exfalso. apply N.
  replace (/ 10 ^ 8) with (/ 100000000) by (f_equal; simpl; lra). replace (/ 10 ^ 5) with (/ 100000) by (f_equal; simpl; lra).
  apply Rabs_le. split; nra.
Qed.
Lemma ex_checked : exists h', fitted_check categorical flx53 (ex_h "scaling" "map") = Ok (h', fvec 2 ex_pi, fmat 2 2 ex_A)
  /\ cat_prob (h_em h') = Some (fmat 2 3 ex_e).
Proof.
  assert (Rw : forall r n f, (n <= 4)%nat -> nonneg2 r n f -> (forall i, (i < r)%nat -> sumn n (f i) = 1) -> forallb (check_sum_1 flx53) (rows (fmat r n f)) = true).
  { intros r n f Hn Hf Hs. apply forallb_forall. intros v Hv. unfold fmat, mtab, tab in Hv. cbn [rows] in Hv. apply in_map_iff in Hv as (i & <- & Hi).
    apply in_seq in Hi. apply (sum_accepted n (f i)); [exact Hn|intros j Hj; apply Hf; [lia|exact Hj]|apply Hs; lia]. }
  unfold fitted_check, check. cbn [h_start h_trans ex_h h_cfg h_nfeat h_em h_mon]. unfold base_check.
  rewrite (sum_accepted 2 ex_pi ltac:(lia) ex_pi_nn ex_pi_sum), (Rw 2%nat 2%nat ex_A ltac:(lia) ex_A_nn ex_A_sum).
  cbn [ec_check categorical]. unfold cat_check. cbn [cat_prob]. 
  rewrite (Rw 2%nat 3%nat ex_e ltac:(lia) ex_e_nn ex_e_sum). cbn. eexists. split; reflexivity.
Qed.
Lemma C91_applies_l : exists Q,
  predict_proba categorical flx53 (ex_h "scaling" "map") ex_x (as_lengths [3%nat]) = Ok (fmat 3 2 Q)
  /\ forall t i, (t < 3)%nat -> (i < 2)%nat -> Rabs (Q t i - seq_post 2 ex_pi ex_A (cat_b ex_e) ex_x t i) <= / 10 ^ 13.
Proof.
  destruct ex_checked as (h' & Hf & He). pose proof u53 as Hu.
  pose proof (cat_rows flx53 h' 2 3 ex_e [3%nat] ex_x He ex_e_nn ex_x_ok) as Hr.
  assert (Hch : chunks [3%nat] ex_x = [ex_x]) by reflexivity.
  assert (Hg : good_lengths [3%nat] ex_x) by (split; [discriminate|]; split; [repeat constructor|reflexivity]).
  destruct (C91_returns_l categorical (/ 2 ^ 53) flx53 (ex_h "scaling" "map") h' 2 ex_pi ex_A (cat_b ex_e) [3%nat] ex_x Hu C55_binary_precision_l eq_refl Hf
    ltac:(lia) ex_pi_nn ex_A_nn Hg eq_refl Hr) as [M HM].
  { rewrite Hch. intros s t [<-|[]] Ht. change (length ex_x) with 3%nat in *. pose proof (bernoulli_low (/ 2 ^ 53) 34 Hu) as B1.
    assert (C : / 100 <= cond_lik 2 ex_pi ex_A (obsB (cat_b ex_e) ex_x) t).
    { unfold cond_lik, lik_upto. destruct t as [|[|[|t]]]; [| | |lia]; unfold likelihood, joint; simpl; unfold obsB, cat_b, ex_pi, ex_A, ex_e; simpl; lra. }
    change (2 * (3 * (2 + 3) + 2))%nat with 34%nat.
    assert (1 / 2 <= (1 - / 2 ^ 53) ^ 34).
    { apply Rle_trans with (2 := B1). replace (INR 34) with 34 by (simpl; lra). replace (2 ^ 53) with 9007199254740992 by (simpl; lra). lra. }
    apply Rle_trans with (/ 200); [|nra]. apply Rinv_le_contravar; [lra|]. apply Rle_trans with (10 ^ 3); [simpl; lra|]. apply Rle_pow; [lra|lia]. }
  destruct (C91_categorical_l (/ 2 ^ 53) flx53 (ex_h "scaling" "map") 2 3 ex_pi ex_A ex_e [3%nat] ex_x M Hu C55_binary_precision_l (ex_model _ _) eq_refl (conj ex_x_ok Hg) HM)
    as (Q & -> & HQ).
  exists (Q ex_x). split; [exact HM|]. intros t i Ht Hi. destruct (HQ ex_x t) as (HL & _ & Hq); [rewrite Hch; left; reflexivity|exact Ht|].
  destruct (Hq i Hi) as [Q0 [W1 W2]]. change (2 * (length ex_x * (2 + 3)) + 2 + 3)%nat with 35%nat in W1, W2.
  assert (D : stochastic1 2 (seq_post 2 ex_pi ex_A (cat_b ex_e) ex_x t)).
  { unfold seq_post. change (length ex_x) with (S 2). apply posterior_dist; [lia|exact ex_pi_nn|exact ex_A_nn| |exact HL|lia].
    apply (Hr ex_x). left. reflexivity. }
  assert (P1 : 0 <= seq_post 2 ex_pi ex_A (cat_b ex_e) ex_x t i <= 1).
  { destruct D as [D1 D2]. split; [apply D1; exact Hi|]. cbn [sumn] in D2. pose proof (D1 0%nat ltac:(lia)). pose proof (D1 1%nat ltac:(lia)).
    destruct i as [|[|i]]; [lra|lra|lia]. }
  set (p := seq_post 2 ex_pi ex_A (cat_b ex_e) ex_x t i) in *. set (y := Q ex_x t i) in *.
  pose proof (bernoulli_low (/ 2 ^ 53) 35 Hu) as B. replace (INR 35) with 35 in B by (simpl; lra).
  replace (10 ^ 13) with 10000000000000 by (simpl; lra). replace (/ 2 ^ 53) with (/ 9007199254740992) in * by (f_equal; simpl; lra).
  set (q := (1 - / 9007199254740992) ^ 35) in *.
  assert (q <= 1). { unfold q. apply Rle_trans with (1 ^ 35); [apply pow_incr; lra|rewrite pow1; lra]. }
  assert (y <= 2) by nra. apply Rabs_le. split; nra.
Qed.
