(** * MAP decoding: concrete models. *)
From Verif Require Export Map_more Reverse_ex Filter_ex Memoryless_ex.

Lemma C95_map_applies_l : exists v z, decode categorical exact (rv_h rv_A "log") [0; 1]%Z None (Some "map"%string) = Ok (v, z)
  /\ decode categorical exact (rv_h rv_A2 "log") [1; 0]%Z None (Some "map"%string) = Ok (v, rev z).
Proof.
  apply (C95_map_l categorical _ _ _ _ _ _ _ _ rv_x (rv_ready "log") (rv_ready2 "log") rv_reversal ltac:(discriminate) rv_x_ok).
  - left. split; [reflexivity|]. rewrite rv_lik. lra.
  - left. split; [reflexivity|]. rewrite (seq_lik_rev 3 rv_pi rv_A rv_A2 _ rv_x rv_reversal ltac:(discriminate)), rv_lik. lra.
Qed.
Lemma C96_map_applies_l : exists v z v2 z2, decode categorical exact (ex_h "log" "map") [0; 1; 2]%Z None (Some "map"%string) = Ok (v, z)
  /\ decode categorical exact fi_h [2]%Z None (Some "map"%string) = Ok (v2, z2) /\ skipn 2 z = z2.
Proof.
  apply (C96_map_l categorical (ex_h "log" "map") fi_h 2 ex_pi fi_q ex_A (sym_ok 3) (cat_b ex_e) [0; 1]%Z [2]%Z (ex_ready "log" "map") fi_ready eq_refl);
    try discriminate; [exact fi_x_ok|repeat constructor; cbn; lia|exact fi_continues|exact fi_scorable|].
  left. split; [reflexivity|]. change ([0; 1]%Z ++ [2]%Z) with ex_x. rewrite ex_lik. lra.
Qed.
Lemma C97_map_applies_l : exists v, decode categorical exact (ml_h "log") ex_x (as_lengths [2; 1]%nat) (Some "map"%string) = Ok (v, [0; 1; 1]%nat).
Proof.
  destruct (C97_map_l categorical _ _ _ _ _ _ [2; 1]%nat ex_x (ml_ready "log") ml_memoryless ex_good (ml_computable _ (or_introl eq_refl)) ml_pos) as (v & z & H1 & H2).
  exists v. rewrite H1. do 2 f_equal. unfold ex_x in H2.
  inversion H2 as [|? a ? z1 (A1 & A2 & _) B1]; subst. inversion B1 as [|? c ? z2 (C1 & C2 & _) B2]; subst. inversion B2 as [|? d ? z3 (D1 & D2 & _) B3]; subst. inversion B3; subst.
  destruct a as [|[|a]]; [|exfalso|lia].
  2:{ specialize (A2 0%nat ltac:(lia)). simpl in A2. unfold cat_b, ex_pi, ex_e in A2. simpl in A2. lra. }
  destruct c as [|[|c]]; [exfalso| |lia].
  { specialize (C2 1%nat ltac:(lia)). simpl in C2. unfold cat_b, ex_pi, ex_e in C2. simpl in C2. lra. }
  destruct d as [|[|d]]; [exfalso| |lia]; [|reflexivity].
  specialize (D2 1%nat ltac:(lia)). simpl in D2. unfold cat_b, ex_pi, ex_e in D2. simpl in D2. lra.
Qed.
