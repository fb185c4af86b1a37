(** * Property lemmas C55: rounding errors of the scaling implementation. *)
From Verif Require Export Round_proofs.
From Flocq Require Import Core Relative.

(** Frames beyond the data do not matter. *)
Definition cut (T : nat) (B : nat -> nat -> R) (t i : nat) : R := if Nat.ltb t T then B t i else 0.
Lemma cut_nonneg T n B : nonneg2 T n B -> forall t i, (i < n)%nat -> 0 <= cut T B t i.
Proof. intros H t i Hi. unfold cut. destruct (Nat.ltb_spec t T); [apply H; assumption|lra]. Qed.
Lemma cut_fmat T n B : fmat T n (cut T B) = fmat T n B.
Proof. unfold fmat. apply mtab_ext. intros t i Ht _. unfold cut. destruct (Nat.ltb_spec t T); [reflexivity|lia]. Qed.
Lemma cut_lik n pi A T B t : (t <= T)%nat -> likelihood n t pi A (cut T B) = likelihood n t pi A B.
Proof. intros Ht. apply likelihood_ext_B. intros s i Hs. unfold cut. destruct (Nat.ltb_spec s T); [reflexivity|lia]. Qed.
Lemma cut_cond n pi A T B t : (t < T)%nat -> cond_lik n pi A (cut T B) t = cond_lik n pi A B t.
Proof. intros Ht. unfold cond_lik, lik_upto. rewrite cut_lik by lia. destruct t; [reflexivity|]. rewrite cut_lik by lia. reflexivity. Qed.

(** The product of the reciprocals of the returned scaling factors is the
    likelihood up to [T * (nc + 3) + nc] rounding errors. *)
Lemma C55_scaling_factors_l u fp nc T pi A B lp fwd scs :
  0 <= u < 1 -> rel_err u fp -> (0 < nc)%nat -> (0 < T)%nat -> nonneg1 nc pi -> nonneg2 nc nc A -> nonneg2 T nc B ->
  forward_scaling fp (fvec nc pi) (fmat nc nc A) (fmat T nc B) = Ok (lp, fwd, scs) ->
  exists ss, scs = map Fin ss /\ length ss = T /\ Forall (Rlt 0) ss /\ 0 < likelihood nc T pi A B
    /\ within u (T * (nc + 3) + nc) (likelihood nc T pi A B) (prodL Rinv ss).
Proof.
  intros Hu HF Hn HT Hpi HA HB E. destruct T as [|T]; [lia|]. rewrite <- (cut_fmat (S T) nc B) in E.
  destruct (forward_w u fp Hu HF nc pi A (cut (S T) B) Hn Hpi HA (cut_nonneg _ _ _ HB) T lp fwd scs E) as (ss & r & M & H1 & H2 & H3 & _ & H4 & H5 & _).
  rewrite cut_lik in H4, H5 by lia. exists ss. repeat split; try assumption; apply H5.
Qed.

(** As a relative error. *)
Lemma C55_relative_error_l u fp nc T pi A B lp fwd scs :
  0 <= u < 1 -> rel_err u fp -> (0 < nc)%nat -> (0 < T)%nat -> nonneg1 nc pi -> nonneg2 nc nc A -> nonneg2 T nc B ->
  forward_scaling fp (fvec nc pi) (fmat nc nc A) (fmat T nc B) = Ok (lp, fwd, scs) ->
  exists ss, scs = map Fin ss /\ length ss = T
    /\ Rabs (prodL Rinv ss - likelihood nc T pi A B)
       <= ((1 + u / (1 - u)) ^ (T * (nc + 3) + nc) - 1) * likelihood nc T pi A B.
Proof.
  intros Hu HF Hn HT Hpi HA HB E. destruct (C55_scaling_factors_l u fp nc T pi A B lp fwd scs Hu HF Hn HT Hpi HA HB E) as (ss & H1 & H2 & H3 & H4 & W1 & W2).
  exists ss. split; [exact H1|]. split; [exact H2|]. set (k := (T * (nc + 3) + nc)%nat) in *. set (L := likelihood nc T pi A B) in *. set (y := prodL Rinv ss) in *.
  replace (1 + u / (1 - u)) with (/ (1 - u)) by (field; lra). rewrite pow_inv.
  destruct (q_pow u Hu k) as [Q1 Q2]. set (Q := (1 - u) ^ k) in *.
  assert (I1 : 1 <= / Q) by (rewrite <- Rinv_1; apply Rinv_le_contravar; lra).
  assert (Hy : y <= L * / Q). { apply Rmult_le_reg_r with Q; [exact Q1|]. rewrite Rmult_assoc, Rinv_l by lra. lra. }
  assert (H5 : L * (2 - / Q) <= y).
  { apply Rle_trans with (2 := W1). apply Rmult_le_compat_l; [lra|]. assert (Q * / Q = 1) by (apply Rinv_r; lra). nra. }
  apply Rabs_le. lra.
Qed.

(** The returned value of [score]. *)
Lemma C55_score_l {P X St} (E : emclass P X St) u fp h h' nc pi A B x v :
  0 <= u < 1 -> rel_err u fp ->
  c_impl (h_cfg h) = "scaling"%string -> fitted_check E fp h = Ok (h', fvec nc pi, fmat nc nc A) ->
  check_array (ec_xok E) x = Ok x -> lik E fp h' x = Ok (fmat (length x) nc B) ->
  (0 < nc)%nat -> nonneg1 nc pi -> nonneg2 nc nc A -> nonneg2 (length x) nc B ->
  score E fp h x None = Ok v ->
  let T := length x in let k := (T * (nc + 3) + nc)%nat in
  exists r, v = Fin r /\ 0 < likelihood nc T pi A B
    /\ Rabs (r - ln (likelihood nc T pi A B))
       <= INR k * - ln (1 - u)
          + ((1 + u) ^ (T + 2) - 1) * sumn T (fun t => Rabs (ln (cond_lik nc pi A B t)) + 2 * INR k * - ln (1 - u)).
Proof.
  intros Hu HF Him Hf Hc Hl Hn Hpi HA HB E1. cbv zeta. destruct (check_array_Ok _ _ _ Hc) as (_ & Hne & _).
  destruct (seq_nonempty x Hne) as [T' HT].
  unfold score, score_ in E1. rewrite Hf in E1. cbn [bind] in E1. rewrite Hc in E1. cbn [bind] in E1. rewrite Him in E1.
  cbn [String.eqb Ascii.eqb Bool.eqb bind split_X_lengths acc_seqs] in E1. unfold score_scaling_seq in E1. rewrite Hl in E1. cbn [bind] in E1.
  destruct (forward_scaling fp _ _ _) as [[[lp fwd] scs]|] eqn:EF; cbn [bind] in E1; [|discriminate]. injection E1 as <-.
  rewrite HT in *. rewrite <- (cut_fmat (S T') nc B) in EF.
  destruct (forward_w u fp Hu HF nc pi A (cut (S T') B) Hn Hpi HA (cut_nonneg _ _ _ HB) T' lp fwd scs EF) as (ss & r & M & H1 & H2 & H3 & -> & H4 & H5 & H6 & H7 & H8).
  rewrite cut_lik in H4, H5 by lia.
  rewrite (sumn_ext (S T') _ (fun t => Rabs (ln (cond_lik nc pi A B t)) + 2 * INR (S T' * (nc + 3) + nc) * - ln (1 - u))) in H6
    by (intros t Ht; rewrite cut_cond by exact Ht; reflexivity).
  cbn [xadd]. rewrite Rplus_0_l. destruct (HF r) as (d & -> & Hd). eexists. split; [reflexivity|]. split; [exact H4|].
  set (k := (S T' * (nc + 3) + nc)%nat) in *. set (L := likelihood nc (S T') pi A B) in *. set (Pi := prodL Rinv ss) in *.
  assert (HPi : 0 < Pi). { unfold Pi. clear - H3. induction H3; cbn [prodL]; [lra|]. apply Rmult_lt_0_compat; [apply Rinv_0_lt_compat; assumption|assumption]. }
  pose proof (w_ln u Hu k L Pi H4 HPi H5) as H9.
  assert (H10 : Rabs (r * (1 + d) - ln Pi) <= ((1 + u) ^ (S T' + 2) - 1) * M).
  { replace (r * (1 + d) - ln Pi) with ((r - ln Pi) * (1 + d) + ln Pi * d) by ring. cbn [Nat.add pow].
    assert (P0 : 1 <= (1 + u) ^ (T' + 2)) by (apply pow_R1_Rle; lra).
    assert (Rabs ((r - ln Pi) * (1 + d)) <= ((1 + u) ^ (T' + 2) - 1) * M * (1 + u)).
    { rewrite Rabs_mult. apply Rmult_le_compat; try apply Rabs_pos; [exact H8|]. apply Rle_trans with (1 := Rabs_triang 1 d). rewrite Rabs_R1. lra. }
    assert (Rabs (ln Pi * d) <= M * u) by (rewrite Rabs_mult; apply Rmult_le_compat; try apply Rabs_pos; assumption).
    pose proof (Rabs_triang ((r - ln Pi) * (1 + d)) (ln Pi * d)). lra. }
  set (Sm := sumn (S T') _) in *.
  assert (P1 : 1 <= (1 + u) ^ (S T' + 2)) by (apply pow_R1_Rle; lra).
  assert (((1 + u) ^ (S T' + 2) - 1) * M <= ((1 + u) ^ (S T' + 2) - 1) * Sm) by (apply Rmult_le_compat_l; lra).
  replace (r * (1 + d) - ln L) with ((r * (1 + d) - ln Pi) + (ln Pi - ln L)) by ring.
  pose proof (Rabs_triang (r * (1 + d) - ln Pi) (ln Pi - ln L)). lra.
Qed.

(** No underflow is reported if every conditional likelihood exceeds 1e-300 by a
    margin. *)
Lemma C55_returns_l u fp nc T pi A B :
  0 <= u < 1 -> rel_err u fp -> (0 < nc)%nat -> (0 < T)%nat -> nonneg1 nc pi -> nonneg2 nc nc A -> nonneg2 T nc B ->
  (forall t, (t < T)%nat -> / 10 ^ 300 <= cond_lik nc pi A B t * (1 - u) ^ (2 * (T * (nc + 3) + nc))) ->
  exists res, forward_scaling fp (fvec nc pi) (fmat nc nc A) (fmat T nc B) = Ok res.
Proof.
  intros Hu HF Hn HT Hpi HA HB H. destruct T as [|T]; [lia|]. rewrite <- (cut_fmat (S T) nc B).
  apply (forward_returns u fp Hu HF nc pi A (cut (S T) B) Hn Hpi HA (cut_nonneg _ _ _ HB) T). intros t Ht. rewrite cut_cond by lia. apply H. lia.
Qed.

(** Rounding to nearest with 53 significant bits and unbounded exponents. *)
Definition flx53 : fpmode := fun x => Fin (round radix2 (FLX_exp 53) ZnearestE x).
Lemma C55_binary_precision_l : rel_err (/ 2 ^ 53) flx53.
Proof.
  intros x. destruct (relative_error_N_FLX_ex radix2 53 ltac:(lia) (fun z => negb (Z.even z)) x) as (e & He & E).
  exists e. unfold flx53. rewrite E. split; [reflexivity|]. apply Rle_trans with (1 := He). right.
  change (bpow radix2 (- (53) + 1)) with (/ IZR (Z.pow_pos 2 52)). change (IZR (Z.pow_pos 2 52)) with 4503599627370496.
  replace (2 ^ 53) with 9007199254740992 by (simpl; lra). lra.
Qed.

Lemma bernoulli_low u k : 0 <= u < 1 -> 1 - INR k * u <= (1 - u) ^ k.
Proof.
  intros Hu. induction k as [|k IH]; [simpl; lra|]. rewrite S_INR. cbn [pow]. pose proof (pos_INR k). pose proof (q_pow u Hu k).
  assert ((1 - u) * (1 - INR k * u) <= (1 - u) * (1 - u) ^ k) by (apply Rmult_le_compat_l; lra). nra.
Qed.
Lemma C55_applies_l : exists lp fwd ss,
  forward_scaling flx53 (fvec 2 ex_pi) (fmat 2 2 ex_A) (fmat 3 2 (obsB (cat_b ex_e) ex_x)) = Ok (lp, fwd, map Fin ss)
  /\ Rabs (prodL Rinv ss - 3/128) <= / 10 ^ 14.
Proof.
  assert (Hu : 0 <= / 2 ^ 53 < 1) by (replace (2 ^ 53) with 9007199254740992 by (simpl; lra); lra).
  assert (HB : nonneg2 3 2 (obsB (cat_b ex_e) ex_x)).
  { change 3%nat with (length ex_x). apply (obsB_nonneg (sym_ok 3)); [|exact ex_x_ok].
    destruct (ready_fitted_check _ _ _ _ _ _ _ (ex_ready "log" "map")) as (h' & Hf & He & _). apply He. }
  assert (HL : likelihood 2 3 ex_pi ex_A (obsB (cat_b ex_e) ex_x) = 3/128) by exact ex_lik.
  pose proof (bernoulli_low (/ 2 ^ 53) 34 Hu) as B1. pose proof (bernoulli_low (/ 2 ^ 53) 17 Hu) as B2.
  destruct (C55_returns_l (/ 2 ^ 53) flx53 2 3 ex_pi ex_A (obsB (cat_b ex_e) ex_x)) as (((lp & fwd) & scs) & E);
    try exact ex_pi_nn; try exact ex_A_nn; try exact HB; try exact Hu; try exact C55_binary_precision_l; try lia.
  - intros t Ht. assert (C : / 100 <= cond_lik 2 ex_pi ex_A (obsB (cat_b ex_e) ex_x) t).
    { unfold cond_lik, lik_upto. destruct t as [|[|[|t]]]; [| | |lia]; unfold likelihood, joint; simpl; unfold obsB, cat_b, ex_pi, ex_A, ex_e; simpl; lra. }
    change (2 * (3 * (2 + 3) + 2))%nat with 34%nat. 
    assert (1 / 2 <= (1 - / 2 ^ 53) ^ 34).
    { apply Rle_trans with (2 := B1). replace (INR 34) with 34 by (simpl; lra). replace (2 ^ 53) with 9007199254740992 by (simpl; lra). lra. }
    apply Rle_trans with (/ 200); [|nra]. apply Rinv_le_contravar; [lra|]. apply Rle_trans with (10 ^ 3); [simpl; lra|]. apply Rle_pow; [lra|lia].
  - destruct (C55_scaling_factors_l (/ 2 ^ 53) flx53 2 3 ex_pi ex_A (obsB (cat_b ex_e) ex_x) lp fwd scs) as (ss & -> & _ & _ & _ & W1 & W2);
      try exact ex_pi_nn; try exact ex_A_nn; try exact HB; try exact Hu; try exact C55_binary_precision_l; try exact E; try lia.
    exists lp, fwd, ss. split; [exact E|]. rewrite HL in W1, W2. change (3 * (2 + 3) + 2)%nat with 17%nat in W1, W2.
    replace (INR 17) with 17 in B2 by (simpl; lra). replace (10 ^ 14) with 100000000000000 by (simpl; lra).
    replace (/ 2 ^ 53) with (/ 9007199254740992) in * by (f_equal; simpl; lra).
    set (Q := (1 - / 9007199254740992) ^ 17) in *.
    assert (Q <= 1). { unfold Q. apply Rle_trans with (1 ^ 17); [apply pow_incr; lra|rewrite pow1; lra]. }
    assert (Hy : 0 <= prodL Rinv ss) by nra.
    apply Rabs_le. split; [lra|]. nra.
Qed.
