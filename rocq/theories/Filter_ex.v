(** * Property C96: a concrete model. *)
From Verif Require Export Filter_thms Lump_ex.

(** After (0, 1) the state probabilities are 2/3 and 1/3, and those of the next
    state 1/3 and 2/3. *)
Definition fi_q (i : nat) : R := match i with 0%nat => 1/3 | _ => 2/3 end.
Definition fi_h : hmm catp := lu_h 2 fi_q ex_A ex_e "log".
Lemma fi_ready : ready categorical fi_h 2 fi_q ex_A (sym_ok 3) (cat_b ex_e).
Proof.
  apply cat_ready, lu_model; [lia| | |].
  - split; [intros i Hi; destruct i as [|i]; cbn; lra|cbn; lra].
  - intros i Hi. destruct i as [|[|i]]; [| |lia]; (split; [intros j Hj; destruct j as [|j]; cbn; lra|cbn; lra]).
  - intros i Hi. destruct i as [|[|i]]; [| |lia]; (split; [intros j Hj; destruct j as [|[|j]]; cbn; lra|cbn; lra]).
Qed.
Lemma fi_x_ok : Forall (sym_ok 3) [0; 1]%Z.
Proof. repeat constructor; cbn; lia. Qed.
Lemma fi_lik : seq_lik 2 ex_pi ex_A (cat_b ex_e) [0; 1]%Z = 3 / 64.
Proof. unfold seq_lik, likelihood, joint; simpl; unfold obsB, cat_b, ex_pi, ex_A, ex_e; simpl; lra. Qed.
Lemma fi_scorable : scorable 2 ex_pi ex_A (cat_b ex_e) "log" [0; 1]%Z.
Proof. left. split; [reflexivity|]. rewrite fi_lik. lra. Qed.
Lemma fi_continues : continues categorical (ex_h "log" "map") 2 ex_A [0; 1]%Z fi_q.
Proof.
  exists (seq_post 2 ex_pi ex_A (cat_b ex_e) [0; 1]%Z).
  split; [exact (C04_posteriors_l categorical _ _ _ _ _ _ [0; 1]%Z (ex_ready "log" "map") ltac:(discriminate) fi_x_ok fi_scorable)|].
  cbn [length Nat.sub].
  assert (P : forall i, (i < 2)%nat -> seq_post 2 ex_pi ex_A (cat_b ex_e) [0; 1]%Z 1 i = fi_q (1 - i)).
  { intros i Hi. unfold seq_post, posterior. fold (seq_lik 2 ex_pi ex_A (cat_b ex_e) [0; 1]%Z). rewrite fi_lik. cbn [length].
    rewrite marginal_alpha_beta by lia. destruct i as [|[|i]]; [| |lia]; simpl; unfold obsB, cat_b, ex_pi, ex_A, ex_e, fi_q; simpl; lra. }
  intros j Hj. cbn [sumn]. rewrite !P by lia. destruct j as [|[|j]]; [| |lia]; cbn; lra.
Qed.
Lemma C96_score_applies_l : continues categorical (ex_h "log" "map") 2 ex_A [0; 1]%Z fi_q
  /\ score categorical exact (ex_h "log" "map") [0; 1]%Z None = Ok (xln (3 / 64))
  /\ score categorical exact fi_h [2]%Z None = Ok (xln (1 / 2))
  /\ score categorical exact (ex_h "log" "map") [0; 1; 2]%Z None = Ok (xadd exact (xln (3 / 64)) (xln (1 / 2))).
Proof.
  split; [exact fi_continues|].
  destruct (C96_score_l categorical (ex_h "log" "map") fi_h 2 ex_pi fi_q ex_A (sym_ok 3) (cat_b ex_e) [0; 1]%Z [2]%Z (ex_ready "log" "map") fi_ready eq_refl)
    as (s & s2 & H1 & H2 & H3); try discriminate; [exact fi_x_ok|repeat constructor; cbn; lia|exact fi_continues|exact fi_scorable|].
  assert (E1 : score categorical exact (ex_h "log" "map") [0; 1]%Z None = Ok (xln (3 / 64))).
  { rewrite (score_log_single categorical _ _ _ _ _ _ (ex_ready "log" "map") [0; 1]%Z eq_refl ltac:(discriminate) fi_x_ok), fi_lik. reflexivity. }
  assert (E2 : score categorical exact fi_h [2]%Z None = Ok (xln (1 / 2))).
  { rewrite (score_log_single categorical _ _ _ _ _ _ fi_ready [2]%Z eq_refl ltac:(discriminate) ltac:(repeat constructor; cbn; lia)). do 2 f_equal.
    unfold seq_lik, likelihood, joint; simpl; unfold obsB, cat_b, fi_q, ex_A, ex_e; simpl; lra. }
  rewrite H1 in E1. rewrite H2 in E2. injection E1 as ->. injection E2 as ->.
  split; [exact H1|]. split; [exact H2|exact H3].
Qed.
Lemma C96_posteriors_applies_l : exists p p2,
  predict_proba categorical exact (ex_h "log" "map") [0; 1; 2]%Z None = Ok (fmat 3 2 p)
  /\ predict_proba categorical exact fi_h [2]%Z None = Ok (fmat 1 2 p2) /\ p 2%nat 0%nat = p2 0%nat 0%nat /\ p 2%nat 1%nat = p2 0%nat 1%nat.
Proof.
  destruct (C96_posteriors_l categorical (ex_h "log" "map") fi_h 2 ex_pi fi_q ex_A (sym_ok 3) (cat_b ex_e) [0; 1]%Z [2]%Z (ex_ready "log" "map") fi_ready eq_refl)
    as (p & p2 & H1 & H2 & H3); try discriminate; [exact fi_x_ok|repeat constructor; cbn; lia|exact fi_continues|exact fi_scorable| |].
  - left. split; [reflexivity|]. change ([0; 1]%Z ++ [2]%Z) with ex_x. rewrite ex_lik. lra.
  - exists p, p2. split; [exact H1|]. split; [exact H2|]. split; apply (H3 0%nat); cbn; lia.
Qed.
