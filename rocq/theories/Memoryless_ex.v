(** * Property C97: a concrete model. *)
From Verif Require Export Memoryless_thms Lump_ex.

(** Start probabilities 1/4 and 3/4, and the same after either state. *)
Definition ml_h impl : hmm catp := lu_h 2 ex_pi (fun _ => ex_pi) ex_e impl.
Lemma ml_ready impl : ready categorical (ml_h impl) 2 ex_pi (fun _ => ex_pi) (sym_ok 3) (cat_b ex_e).
Proof.
  apply cat_ready, lu_model; [lia| | |].
  - split; [exact ex_pi_nn|cbn; lra].
  - intros i Hi. split; [exact ex_pi_nn|cbn; lra].
  - intros i Hi. destruct i as [|[|i]]; [| |lia]; (split; [intros j Hj; destruct j as [|[|j]]; cbn; lra|cbn; lra]).
Qed.
Lemma ml_memoryless : memoryless 2 ex_pi (fun _ => ex_pi).
Proof. intros i j _ _. reflexivity. Qed.
Definition ml_mix (o : Z) : R := sumn 2 (fun i => ex_pi i * cat_b ex_e o i).
Lemma ml_mix0 : ml_mix 0 = 1 / 8.
Proof. unfold ml_mix. simpl. unfold cat_b, ex_pi, ex_e. simpl. lra. Qed.
Lemma ml_mix1 : ml_mix 1 = 5 / 16.
Proof. unfold ml_mix. simpl. unfold cat_b, ex_pi, ex_e. simpl. lra. Qed.
Lemma ml_mix2 : ml_mix 2 = 9 / 16.
Proof. unfold ml_mix. simpl. unfold cat_b, ex_pi, ex_e. simpl. lra. Qed.
Lemma ml_pos o : In o ex_x -> 0 < ml_mix o.
Proof. intros [<-|[<-|[<-|[]]]]; rewrite ?ml_mix0, ?ml_mix1, ?ml_mix2; lra. Qed.
Lemma ml_computable impl : impl = "log"%string \/ impl = "scaling"%string -> computable 2 ex_pi (cat_b ex_e) impl ex_x.
Proof.
  intros [->| ->]; [left; reflexivity|right; split; [reflexivity|]]. intros o Ho. change (mixture 2 ex_pi (cat_b ex_e) o) with (ml_mix o).
  apply min_small. destruct Ho as [<-|[<-|[<-|[]]]]; rewrite ?ml_mix0, ?ml_mix1, ?ml_mix2; lra.
Qed.
Lemma C97_score_applies_l : score categorical exact (ml_h "scaling") ex_x (as_lengths [2; 1]%nat) = Ok (xln (45 / 2048)).
Proof.
  rewrite (C97_score_l categorical _ _ _ _ _ _ [2; 1]%nat ex_x (ml_ready "scaling") ml_memoryless ex_good (ml_computable _ (or_intror eq_refl))).
  do 2 f_equal. change (fun o => sumn 2 (fun i => ex_pi i * cat_b ex_e o i)) with ml_mix. cbn [prodL ex_x]. rewrite ml_mix0, ml_mix1, ml_mix2. lra.
Qed.
Lemma C97_order_applies_l : score categorical exact (ml_h "log") [2; 0; 1]%Z (as_lengths [1; 2]%nat) = score categorical exact (ml_h "log") [0; 1; 2]%Z (as_lengths [2; 1]%nat).
Proof.
  apply (C97_order_l categorical _ _ _ _ _ _ [2; 1]%nat ex_x [1; 2]%nat [2; 0; 1]%Z (ml_ready "log") ml_memoryless ex_good).
  - split; [repeat constructor; cbn; lia|]. split; [discriminate|]. split; [repeat constructor; lia|reflexivity].
  - left. reflexivity.
  - apply (Permutation_app_comm [0; 1]%Z [2]%Z).
Qed.
Lemma C97_posteriors_applies_l : predict_proba categorical exact (ml_h "log") ex_x (as_lengths [2; 1]%nat)
  = Ok (Mat 2 [[Fin 1; Fin 0]; [Fin (2 / 5); Fin (3 / 5)]; [Fin 0; Fin 1]]).
Proof.
  rewrite (C97_posteriors_l categorical _ _ _ _ _ _ [2; 1]%nat ex_x (ml_ready "log") ml_memoryless ex_good (ml_computable _ (or_introl eq_refl)) ml_pos).
  do 2 f_equal. cbn [map ex_x].
  change (sumn 2 (fun k => ex_pi k * cat_b ex_e 0 k)) with (ml_mix 0). change (sumn 2 (fun k => ex_pi k * cat_b ex_e 1 k)) with (ml_mix 1).
  change (sumn 2 (fun k => ex_pi k * cat_b ex_e 2 k)) with (ml_mix 2). rewrite ml_mix0, ml_mix1, ml_mix2.
  unfold tab. cbn [seq map]. unfold cat_b, ex_pi, ex_e. simpl. repeat (f_equal; try lra).
Qed.
Lemma C97_viterbi_applies_l : exists lp, decode categorical exact (ml_h "log") ex_x (as_lengths [2; 1]%nat) (Some "viterbi"%string) = Ok (lp, [0; 1; 1]%nat).
Proof.
  destruct (C97_viterbi_l categorical _ _ _ _ _ _ [2; 1]%nat ex_x _ (ml_ready "log") ml_memoryless ex_good eq_refl ml_pos) as (lp & z & H1 & H2).
  exists lp. rewrite H1. do 2 f_equal. unfold ex_x in H2.
  inversion H2 as [|? a ? z1 [A1 A2] B1]; subst. inversion B1 as [|? c ? z2 [C1 C2] B2]; subst. inversion B2 as [|? d ? z3 [D1 D2] B3]; subst. inversion B3; subst.
  destruct a as [|[|a]]; [|exfalso|lia].
  2:{ specialize (A2 0%nat ltac:(lia)). simpl in A2. unfold cat_b, ex_pi, ex_e in A2. simpl in A2. lra. }
  destruct c as [|[|c]]; [exfalso| |lia].
  { specialize (C2 1%nat ltac:(lia)). simpl in C2. unfold cat_b, ex_pi, ex_e in C2. simpl in C2. lra. }
  destruct d as [|[|d]]; [exfalso| |lia]; [|reflexivity].
  specialize (D2 1%nat ltac:(lia)). simpl in D2. unfold cat_b, ex_pi, ex_e in D2. simpl in D2. lra.
Qed.
