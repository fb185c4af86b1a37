(** * A concrete left-right CategoricalHMM used to show that hypotheses are met. *)
From Verif Require Export Categorical_proofs Api_proofs.

Definition ex_pi (i : nat) : R := match i with 0%nat => 1/4 | _ => 3/4 end.
Definition ex_A (i j : nat) : R :=
  match i, j with 0%nat, _ => 1/2 | _, 0%nat => 0 | _, _ => 1 end.
Definition ex_e (i k : nat) : R :=
  match i, k with
  | 0%nat, 0%nat => 1/2 | 0%nat, 1%nat => 1/2 | 0%nat, _ => 0
  | _, 0%nat => 0 | _, 1%nat => 1/4 | _, _ => 3/4
  end.
Definition ex_cfg (impl alg : string) : cfg :=
  Cfg 2 "ste" "ste" alg impl 10 (Fin (/ 100)) false (Scal (Fin 1)) (Scal (Fin 1)).
Definition ex_h (impl alg : string) : hmm catp :=
  Hmm (ex_cfg impl alg) None (Some (fvec 2 ex_pi)) (Some (fmat 2 2 ex_A))
      (Monitor (Fin (/ 100)) 10 false [] 0)
      (Catp (Scal (Fin 1)) (Some (fmat 2 3 ex_e))).
Definition ex_x : list Z := [0; 1; 2]%Z.

Lemma ex_pi_nn : nonneg1 2 ex_pi.
Proof. intros i Hi. destruct i as [|[|i]]; [| |lia]; simpl; lra. Qed.
Lemma ex_A_nn : nonneg2 2 2 ex_A.
Proof. intros i j Hi Hj. destruct i as [|[|i]]; [| |lia]; destruct j as [|[|j]]; try lia; simpl; lra. Qed.
Lemma ex_e_nn : nonneg2 2 3 ex_e.
Proof. intros i j Hi Hj. destruct i as [|[|i]]; [| |lia]; destruct j as [|[|[|j]]]; try lia; simpl; lra. Qed.
Lemma ex_pi_sum : sumn 2 ex_pi = 1. Proof. simpl; lra. Qed.
Lemma ex_A_sum i : (i < 2)%nat -> sumn 2 (ex_A i) = 1.
Proof. intros Hi. destruct i as [|[|i]]; [| |lia]; simpl; lra. Qed.
Lemma ex_e_sum i : (i < 2)%nat -> sumn 3 (ex_e i) = 1.
Proof. intros Hi. destruct i as [|[|i]]; [| |lia]; simpl; lra. Qed.

Lemma ex_model impl alg : cat_model (ex_h impl alg) 2 3 ex_pi ex_A ex_e.
Proof.
  constructor; try reflexivity.
  - lia.
  - left; reflexivity.
  - exact ex_pi_nn.
  - rewrite ex_pi_sum. exact near1_1.
  - exact ex_A_nn.
  - intros i Hi. rewrite ex_A_sum by exact Hi. exact near1_1.
  - exact ex_e_nn.
  - intros i Hi. rewrite ex_e_sum by exact Hi. exact near1_1.
Qed.

Lemma ex_ready impl alg : ready categorical (ex_h impl alg) 2 ex_pi ex_A (sym_ok 3) (cat_b ex_e).
Proof. apply cat_ready, ex_model. Qed.

Lemma ex_x_ok : Forall (sym_ok 3) ex_x.
Proof. repeat constructor; unfold sym_ok; simpl; lia. Qed.

Lemma ex_lik : seq_lik 2 ex_pi ex_A (cat_b ex_e) ex_x = 3/128.
Proof. unfold seq_lik, likelihood, joint, ex_x. simpl. unfold obsB, cat_b, ex_pi, ex_A, ex_e. simpl. lra. Qed.

Lemma min_small c : 1 <= c * 10 ^ 3 -> / 10 ^ 300 <= c.
Proof.
  intros H. apply Rmult_le_reg_r with (10 ^ 300); [apply pow_lt; lra|].
  rewrite Rinv_l by (apply pow_nonzero; lra).
  replace (10 ^ 300) with (10 ^ 3 * 10 ^ 297) by (rewrite <- pow_add; reflexivity).
  assert (1 <= 10 ^ 297) by (apply pow_R1_Rle; lra).
  rewrite <- Rmult_assoc. rewrite <- (Rmult_1_l 1) at 1. apply Rmult_le_compat; lra.
Qed.

Lemma ex_no_underflow : seq_no_underflow 2 ex_pi ex_A (cat_b ex_e) ex_x.
Proof.
  assert (H3 : forall v w, 0 < v <= 1 -> 1/1000 <= w -> / 10 ^ 300 * v <= w).
  { intros v w Hv Hw. apply Rle_trans with (/ 10 ^ 300 * 1).
    - apply Rmult_le_compat_l; [left; apply Rinv_0_lt_compat, pow_lt; lra|lra].
    - rewrite Rmult_1_r. apply Rle_trans with (1/1000); [|exact Hw]. apply min_small. lra. }
  intros t Ht. destruct t as [|[|[|t]]]; [| | |simpl in Ht; lia]; apply H3;
    unfold seq_plik, ex_x, seq_lik, likelihood, joint; simpl;
    unfold obsB, cat_b, ex_pi, ex_A, ex_e; simpl; lra.
Qed.

Lemma ex_good : good_data (sym_ok 3) [2; 1]%nat ex_x.
Proof.
  split; [exact ex_x_ok|]. split; [discriminate|]. split; [repeat constructor; lia|reflexivity].
Qed.
