(** * Continuing a sequence: sums over paths. *)
From Verif Require Export Paths Inference_proofs.

Lemma obsB_app_l {X} (b : X -> nat -> R) x y t i : (t < length x)%nat -> obsB b (x ++ y) t i = obsB b x t i.
Proof. intros Ht. unfold obsB. rewrite map_app, app_nth1 by (rewrite map_length; exact Ht). reflexivity. Qed.
Lemma obsB_app_r {X} (b : X -> nat -> R) x y t i : obsB b (x ++ y) (length x + t) i = obsB b y t i.
Proof. unfold obsB. rewrite map_app, app_nth2; rewrite map_length; [f_equal; lia|lia]. Qed.

Section Cont.
  Context {X : Type} (nc : nat) (pi q : nat -> R) (A : nat -> nat -> R) (b : X -> nat -> R) (x y : list X) (T : nat).
  Hypothesis HT : length x = S T.
  Let L := seq_lik nc pi A b x.
  Hypothesis HL : L <> 0.
  Hypothesis Hq : forall j, (j < nc)%nat -> q j = sumn nc (fun i => seq_post nc pi A b x T i * A i j).

  Lemma alpha_app t : forall j, (t <= T)%nat -> alpha nc pi A (obsB b (x ++ y)) t j = alpha nc pi A (obsB b x) t j.
  Proof.
    induction t as [|t IH]; intros j Ht; cbn [alpha]; rewrite obsB_app_l by lia; [reflexivity|].
    f_equal. apply sumn_ext. intros i Hi. rewrite IH by lia. reflexivity.
  Qed.
  Lemma filter_alpha i : (i < nc)%nat -> L * seq_post nc pi A b x T i = alpha nc pi A (obsB b x) T i.
  Proof.
    intros Hi. unfold seq_post, posterior. fold (seq_lik nc pi A b x). fold L. rewrite HT.
    rewrite marginal_alpha_beta by (exact Hi || lia). rewrite Nat.sub_diag. cbn [beta]. field. exact HL.
  Qed.
  Lemma alpha_cont t : forall j, (j < nc)%nat ->
    alpha nc pi A (obsB b (x ++ y)) (S T + t) j = L * alpha nc q A (obsB b y) t j.
  Proof.
    induction t as [|t IH]; intros j Hj.
    - rewrite Nat.add_0_r. cbn [alpha]. pose proof (obsB_app_r b x y 0 j) as E. rewrite HT, Nat.add_0_r in E. rewrite E, (Hq j Hj).
      rewrite <- Rmult_assoc, <- sumn_scal_l. f_equal. apply sumn_ext. intros i Hi. rewrite alpha_app by lia. rewrite <- (filter_alpha i Hi). ring.
    - rewrite Nat.add_succ_r. cbn [alpha]. pose proof (obsB_app_r b x y (S t) j) as E. rewrite HT, Nat.add_succ_r in E. rewrite E.
      rewrite <- Rmult_assoc, <- sumn_scal_l. f_equal. apply sumn_ext. intros i Hi. rewrite (IH i Hi). ring.
  Qed.
  Lemma beta_cont k : forall t i, beta nc A (obsB b (x ++ y)) (S T + t) k i = beta nc A (obsB b y) t k i.
  Proof.
    induction k as [|k IH]; intros t i; cbn [beta]; [reflexivity|]. apply sumn_ext. intros j Hj.
    rewrite <- Nat.add_succ_r, IH. pose proof (obsB_app_r b x y (S t) j) as E. rewrite HT in E. rewrite E. reflexivity.
  Qed.
  Lemma seq_lik_cont : y <> [] -> seq_lik nc pi A b (x ++ y) = L * seq_lik nc q A b y.
  Proof.
    intros Hy. unfold seq_lik at 1 2. rewrite app_length, HT. destruct (length y) as [|U] eqn:El; [destruct y; [contradiction|discriminate]|].
    rewrite Nat.add_succ_r, !likelihood_alpha, <- sumn_scal_l. apply sumn_ext. intros j Hj. apply alpha_cont. exact Hj.
  Qed.
  Lemma seq_post_cont t i : (t < length y)%nat -> (i < nc)%nat -> seq_lik nc q A b y <> 0 ->
    seq_post nc pi A b (x ++ y) (S T + t) i = seq_post nc q A b y t i.
  Proof.
    intros Ht Hi Hy. assert (Hne : y <> []) by (intros ->; cbn in Ht; lia).
    unfold seq_post, posterior. fold (seq_lik nc pi A b (x ++ y)). fold (seq_lik nc q A b y). rewrite (seq_lik_cont Hne).
    rewrite app_length, HT. destruct (length y) as [|U] eqn:El; [lia|].
    rewrite Nat.add_succ_r, !marginal_alpha_beta by (exact Hi || lia).
    replace (S T + U - (S T + t))%nat with (U - t)%nat by lia. rewrite alpha_cont by exact Hi. rewrite beta_cont. field. split; assumption.
  Qed.
End Cont.

Section Under.
  Context {X : Type} (nc : nat) (pi q : nat -> R) (A : nat -> nat -> R) (b : X -> nat -> R) (x y : list X) (T : nat).
  Hypothesis HT : length x = S T.
  Hypothesis HU : seq_no_underflow nc pi A b (x ++ y).
  Lemma underflow_head : seq_no_underflow nc pi A b x.
  Proof.
    intros t Ht. specialize (HU t ltac:(rewrite app_length; lia)). rewrite !firstn_app in HU.
    replace (t - length x)%nat with 0%nat in HU by lia. replace (S t - length x)%nat with 0%nat in HU by lia.
    cbn [firstn] in HU. rewrite !app_nil_r in HU. exact HU.
  Qed.
  Hypothesis HL : 0 < seq_lik nc pi A b x.
  Hypothesis Hq : forall j, (j < nc)%nat -> q j = sumn nc (fun i => seq_post nc pi A b x T i * A i j).
  Lemma plik_cont w : seq_plik nc pi A b (x ++ w) = seq_lik nc pi A b x * seq_plik nc q A b w.
  Proof.
    clear HU. destruct w as [|o w].
    - rewrite app_nil_r. cbn [seq_plik]. destruct x; [discriminate|]. cbn [seq_plik]. ring.
    - assert (E : seq_plik nc pi A b (x ++ o :: w) = seq_lik nc pi A b (x ++ o :: w)) by (destruct x; [discriminate|reflexivity]).
      rewrite E. cbn [seq_plik]. apply (seq_lik_cont nc pi q A b x (o :: w) T HT); [lra|exact Hq|discriminate].
  Qed.
  Lemma underflow_tail : seq_no_underflow nc q A b y.
  Proof.
    intros t Ht. pose proof (HU (length x + t)%nat ltac:(rewrite app_length; lia)) as H.
    rewrite <- Nat.add_succ_r, !firstn_app_2, !plik_cont in H.
    apply (Rmult_le_reg_l (seq_lik nc pi A b x)); [exact HL|]. lra.
  Qed.
End Under.
