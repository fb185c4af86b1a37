(** * C93 and C95 for several sequences: concrete models. *)
From Verif Require Export Lump_many Reverse_many Lump_ex Reverse_ex.

(** Sequences (0, 1) and (2). *)
Lemma C93_posteriors_lengths_applies_l : exists p p',
  predict_proba categorical exact (ex_h "log" "map") ex_x (as_lengths [2; 1]%nat) = Ok (fmat 3 2 p)
  /\ predict_proba categorical exact (lu_h 4 lu_pi lu_A lu_e "log") ex_x (as_lengths [2; 1]%nat) = Ok (fmat 3 4 p')
  /\ forall t, (t < 3)%nat -> p t 0%nat = p' t 0%nat /\ p t 1%nat = p' t 1%nat + p' t 2%nat /\ p' t 3%nat = 0.
Proof.
  destruct (C93_posteriors_lengths_l categorical categorical _ _ _ _ _ _ _ _ _ _ _ _ [2; 1]%nat ex_x (ex_ready "log" "map") (lu_ready "log") lu_redundant eq_refl
    ex_good) as (p & p' & H1 & H2 & H3).
  { intros c Hc. left. split; [reflexivity|]. cbn [chunks ex_x firstn skipn] in Hc.
    destruct Hc as [<-|[<-|[]]]; unfold seq_lik, likelihood, joint; simpl; unfold obsB, cat_b, ex_pi, ex_A, ex_e; simpl; lra. }
  exists p, p'. split; [exact H1|]. split; [exact H2|]. intros t Ht. destruct (H3 t Ht) as [Hc Hd].
  pose proof (Hc 0%nat ltac:(lia)) as H0. pose proof (Hc 1%nat ltac:(lia)) as Hb.
  unfold copies in H0, Hb. cbn [sumn lu_m Nat.eqb] in H0, Hb. split; [lra|]. split; [lra|]. apply Hd; [lia|reflexivity].
Qed.

(** Sequences (0, 1) and (1). *)
Lemma C95_posteriors_lengths_applies_l : exists p q r,
  predict_proba categorical exact (rv_h rv_A "log") [0; 1; 1]%Z (as_lengths [2; 1]%nat) = Ok (Mat 3 [p; q; r])
  /\ predict_proba categorical exact (rv_h rv_A2 "log") [1; 0; 1]%Z (as_lengths [2; 1]%nat) = Ok (Mat 3 [q; p; r]).
Proof.
  destruct (C95_posteriors_lengths_l categorical _ _ _ _ _ _ _ _ [rv_x; [1]]%Z (rv_ready "log") (rv_ready2 "log") rv_reversal ltac:(discriminate))
    as (ps & H1 & H2 & H3).
  - repeat constructor; try discriminate; cbn; lia.
  - assert (L1 : seq_lik 3 rv_pi rv_A (cat_b rv_e) [1]%Z = / 3).
    { unfold seq_lik. cbn [length]. rewrite likelihood_alpha. rv_compute. }
    intros x [<-|[<-|[]]].
    + split; left; (split; [reflexivity|]); [|rewrite (seq_lik_rev 3 rv_pi rv_A rv_A2 _ rv_x rv_reversal ltac:(discriminate))]; rewrite rv_lik; lra.
    + split; left; (split; [reflexivity|]); [|rewrite (seq_lik_rev 3 rv_pi rv_A rv_A2 _ [1]%Z rv_reversal ltac:(discriminate))]; rewrite L1; lra.
  - destruct ps as [|a [|c [|]]]; try discriminate H3. cbn [map length rv_x] in H3.
    destruct a as [|p [|q [|]]]; try discriminate H3. destruct c as [|r [|]]; try discriminate H3.
    exists p, q, r. split; [exact H1|exact H2].
Qed.
Lemma C95_viterbi_lengths_applies_l : exists lp z w z2 w2,
  decode categorical exact (rv_h rv_A "log") [0; 1; 1; 0; 2; 2]%Z (as_lengths [2; 4]%nat) (Some "viterbi"%string) = Ok (lp, z ++ w)
  /\ decode categorical exact (rv_h rv_A2 "log") [1; 0; 2; 2; 0; 1]%Z (as_lengths [2; 4]%nat) (Some "viterbi"%string) = Ok (lp, z2 ++ w2)
  /\ best_path 3 rv_pi rv_A (cat_b rv_e) [0; 1]%Z (rev z2) /\ best_path 3 rv_pi rv_A (cat_b rv_e) [1; 0; 2; 2]%Z (rev w2).
Proof.
  destruct (C95_viterbi_lengths_l categorical _ _ _ _ _ _ _ _ [[0; 1]; [1; 0; 2; 2]]%Z (rv_ready "log") (rv_ready2 "log") rv_reversal ltac:(discriminate))
    as (lp & zs & zs2 & H1 & H2 & H3 & H4).
  - repeat constructor; try discriminate; cbn; lia.
  - inversion H3 as [|a z2 u v B1 B2 K1 K2]; subst. inversion B2 as [|a w2 u v' B3 B4 K1 K2]; subst. inversion B4; subst.
    inversion H4 as [|a z u v C1 C2 K1 K2]; subst. inversion C2 as [|a w u v' C3 C4 K1 K2]; subst. inversion C4; subst.
    exists lp, z, w, z2, w2. assert (Hc : forall u v : list nat, concat [u; v] = u ++ v) by (intros u v; cbn [concat]; rewrite app_nil_r; reflexivity).
    rewrite Hc in H1, H2.
    split; [exact H1|]. split; [exact H2|]. split; assumption.
Qed.
