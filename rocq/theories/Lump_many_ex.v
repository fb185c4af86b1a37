(** * C93, several sequences: a concrete model. *)
From Verif Require Export Lump_many_v Lump_ex.

(** Sequences (0, 1) and (2), one unvisited state. *)
Lemma C93_viterbi_lengths_applies_l : exists lp z u w,
  decode categorical exact (ex_h "log" "map") ex_x (as_lengths [2; 1]%nat) (Some "viterbi"%string) = Ok (lp, z)
  /\ decode categorical exact (lu_h 3 lv_pi lv_A lv_e "log") ex_x (as_lengths [2; 1]%nat) (Some "viterbi"%string) = Ok (lp, u ++ w)
  /\ best_path 2 ex_pi ex_A (cat_b ex_e) [0; 1]%Z u /\ best_path 2 ex_pi ex_A (cat_b ex_e) [2]%Z w.
Proof.
  assert (Rv : ready categorical (lu_h 3 lv_pi lv_A lv_e "log") 3 lv_pi lv_A (sym_ok 3) (cat_b lv_e)).
  { apply cat_ready, lu_model; [lia| | |].
    - split; [|cbn; lra]. intros i Hi. lu_cases i; cbn; lra.
    - intros i Hi. split; [|lu_cases i; cbn; lra]. intros j Hj. lu_cases i; lu_cases j; cbn; lra.
    - intros i Hi. split; [|lu_cases i; cbn; lra]. intros j Hj. lu_cases i; lu_cases j; cbn; lra. }
  destruct (C93_viterbi_lengths_l categorical categorical _ _ _ _ _ _ _ _ _ _ _ [2; 1]%nat ex_x (Some "viterbi"%string) (ex_ready "log" "map") Rv)
    as (lp & z & zs & H1 & H2 & H3); [lia| |exact ex_good|reflexivity|].
  - constructor.
    + intros k i Hk Hm. unfold first_states in Hm. destruct (Nat.ltb_spec k 2); [injection Hm as <-; lia|discriminate].
    + intros i Hi. destruct i as [|[|i]]; [| |lia]; unfold copies; cbn; lra.
    + intros k Hk Hm. lu_cases k; cbn in Hm; try discriminate. reflexivity.
    + intros k i j Hk Hm Hj. lu_cases k; cbn in Hm; try discriminate; injection Hm as <-;
        (destruct j as [|[|j]]; [| |lia]); unfold copies; cbn; lra.
    + intros k l Hk Hl Hm Hn. lu_cases l; cbn in Hn; try discriminate. lu_cases k; reflexivity.
    + intros o k i Ho Hk Hm. lu_cases k; cbn in Hm; try discriminate; injection Hm as <-; reflexivity.
  - destruct (C01_viterbi_optimal_lengths_l categorical _ _ _ _ _ _ [2; 1]%nat ex_x (Some "viterbi"%string) (ex_ready "log" "map") ex_good (or_introl eq_refl))
      as (ys & D & B).
    rewrite H1 in D. injection D as Dl Dz. cbn [chunks ex_x firstn skipn] in B, Dl, H3.
    inversion B as [|? y0 ? ys0 [_ B0] B' K1 K2]; subst ys. inversion B' as [|? y1 ? ys1 [_ B1] B'' K1' K2']; subst ys0. inversion B''; subst ys1.
    assert (P0 : 0 < seq_joint ex_pi ex_A (cat_b ex_e) [0; 1]%Z y0).
    { eapply Rlt_le_trans; [|apply (B0 [0; 0]%nat)].
      - unfold seq_joint, joint; simpl; unfold obsB, cat_b, ex_pi, ex_A, ex_e; simpl; lra.
      - split; [reflexivity|]. intros t Ht. cbn [length] in Ht. destruct t as [|[|t]]; cbn; lia. }
    assert (P1 : 0 < seq_joint ex_pi ex_A (cat_b ex_e) [2]%Z y1).
    { eapply Rlt_le_trans; [|apply (B1 [1]%nat)].
      - unfold seq_joint, joint; simpl; unfold obsB, cat_b, ex_pi, ex_A, ex_e; simpl; lra.
      - split; [reflexivity|]. intros t Ht. cbn [length] in Ht. destruct t as [|t]; cbn; lia. }
    assert (HF : lp <> NInf).
    { rewrite Dl. cbn [prodL2]. rewrite xln_pos; [discriminate|]. apply Rmult_lt_0_compat; [exact P0|]. rewrite Rmult_1_r. exact P1. }
    specialize (H3 HF). inversion H3 as [|? u ? v BU F' K3 K4]; subst zs. inversion F' as [|? w ? v' BW F'' K3' K4']; subst v. inversion F''; subst v'.
    exists lp, z, u, w. split; [exact H1|].
    assert (Hc : forall s t : list nat, concat [s; t] = s ++ t) by (intros s t; cbn [concat]; rewrite app_nil_r; reflexivity).
    rewrite Hc in H2. split; [exact H2|]. split; assumption.
Qed.
