(** * Property lemmas C97: a model without memory is a mixture model. *)
From Verif Require Export Memoryless Inference_thms.
From Coq Require Export Permutation.

Lemma prodL_positive {Y} (f : Y -> R) l : (forall y, In y l -> 0 < f y) -> 0 < prodL f l.
Proof.
  induction l as [|y l IH]; intros H; cbn [prodL]; [lra|]. apply Rmult_lt_0_compat; [apply H; left; reflexivity|].
  apply IH. intros z Hz. apply H. right. exact Hz.
Qed.
Section Facts.
  Context {P X St : Type} (E : emclass P X St) (h : hmm P) (nc : nat) (pi : nat -> R) (A : nat -> nat -> R) (ok : X -> Prop) (b : X -> nat -> R).
  Hypothesis Rd : ready E h nc pi A ok b.
  Hypothesis HM : memoryless nc pi A.
  Lemma mem_nonneg o i : ok o -> (i < nc)%nat -> 0 <= pi i * b o i.
  Proof.
    intros Ho Hi. destruct (rd_check E h nc pi A ok b Rd) as (h1 & _ & _ & He).
    apply Rmult_le_pos; [apply (rd_pi E h nc pi A ok b Rd); exact Hi|].
    apply He; assumption.
  Qed.
  Lemma mem_plik c : seq_plik nc pi A b c = prodL (mixture nc pi b) c.
  Proof. destruct c as [|o c]; [reflexivity|]. cbn [seq_plik]. apply seq_lik_mem; [exact HM|discriminate]. Qed.
  Lemma mem_no_underflow c : (forall o, In o c -> / 10 ^ 300 <= mixture nc pi b o) -> seq_no_underflow nc pi A b c.
  Proof.
    intros H t Ht. rewrite !mem_plik. destruct c as [|d c'] eqn:Ec; [cbn in Ht; lia|]. rewrite <- Ec in *.
    assert (ES : firstn (S t) c = firstn t c ++ [nth t c d]).
    { clear - Ht. revert t Ht. induction c as [|o c IH]; intros t Ht; [cbn in Ht; lia|]. destruct t as [|t]; [reflexivity|].
      cbn [firstn nth app]. f_equal. apply IH. cbn in Ht. lia. }
    rewrite ES, prodL_app. cbn [prodL]. rewrite Rmult_1_r, Rmult_comm. apply Rmult_le_compat_l; [|apply H, nth_In; exact Ht].
    left. apply prodL_positive. intros o Ho. eapply Rlt_le_trans; [|apply H]; [apply Rinv_0_lt_compat, pow_lt; lra|].
    rewrite <- (firstn_skipn t c). apply in_or_app. left. exact Ho.
  Qed.
End Facts.

(** [log] needs nothing, [scaling] that no sample underflows by itself. *)
Definition computable {X} (nc : nat) pi (b : X -> nat -> R) (impl : string) (x : list X) : Prop :=
  impl = "log"%string \/ (impl = "scaling"%string /\ forall o, In o x -> / 10 ^ 300 <= mixture nc pi b o).

Lemma C97_score_l {P X St} (E : emclass P X St) h nc pi A ok b ls x :
  ready E h nc pi A ok b -> memoryless nc pi A -> good_data ok ls x -> computable nc pi b (c_impl (h_cfg h)) x ->
  score E exact h x (as_lengths ls) = Ok (xln (prodL (fun o => sumn nc (fun i => pi i * b o i)) x)).
Proof.
  intros Rd HM Hd Hc. pose proof (good_data_chunks ok ls x Hd) as (_ & _ & Hch). rewrite Forall_forall in Hch.
  pose proof (chunks_concat ls x ltac:(apply Hd)) as EC.
  assert (EQ : prodL (seq_lik nc pi A b) (chunks ls x) = prodL (mixture nc pi b) x).
  { rewrite <- EC at 2. rewrite prodL_concat. generalize Hch. generalize (chunks ls x) as cs. clear - HM.
    induction cs as [|c cs IH]; intros H; cbn [prodL]; [reflexivity|].
    rewrite (seq_lik_mem nc pi A b c HM) by (apply H; left; reflexivity). rewrite IH; [reflexivity|]. intros y Hy. apply H. right. exact Hy. }
  change (fun o => sumn nc (fun i => pi i * b o i)) with (mixture nc pi b). rewrite <- EQ. destruct Hc as [Hl|[Hs Hu]].
  - exact (score_log E h nc pi A ok b Rd ls x Hl Hd).
  - apply (score_scaling E h nc pi A ok b Rd ls x Hs Hd). intros c Hc. apply (mem_no_underflow nc pi A b HM).
    intros o Ho. apply Hu. rewrite <- EC. apply in_concat. exists c. split; assumption.
Qed.

(** Neither the order of the samples nor the way they are cut into sequences matters. *)
Lemma C97_order_l {P X St} (E : emclass P X St) h nc pi A ok b ls x ls2 x2 :
  ready E h nc pi A ok b -> memoryless nc pi A -> good_data ok ls x -> good_data ok ls2 x2 -> computable nc pi b (c_impl (h_cfg h)) x ->
  Permutation x x2 -> score E exact h x2 (as_lengths ls2) = score E exact h x (as_lengths ls).
Proof.
  intros Rd HM Hd Hd2 Hc HP.
  assert (Hc2 : computable nc pi b (c_impl (h_cfg h)) x2).
  { destruct Hc as [Hl|[Hs Hu]]; [left; exact Hl|right; split; [exact Hs|]]. intros o Ho. apply Hu. exact (Permutation_in o (Permutation_sym HP) Ho). }
  rewrite (C97_score_l E h nc pi A ok b ls x Rd HM Hd Hc), (C97_score_l E h nc pi A ok b ls2 x2 Rd HM Hd2 Hc2). do 2 f_equal.
  clear - HP. induction HP; cbn [prodL]; try congruence; ring.
Qed.

Lemma C97_posteriors_l {P X St} (E : emclass P X St) h nc pi A ok b ls x :
  ready E h nc pi A ok b -> memoryless nc pi A -> good_data ok ls x -> computable nc pi b (c_impl (h_cfg h)) x ->
  (forall o, In o x -> 0 < sumn nc (fun i => pi i * b o i)) ->
  predict_proba E exact h x (as_lengths ls)
  = Ok (Mat nc (map (fun o => tab nc (fun i => Fin (pi i * b o i / sumn nc (fun k => pi k * b o k)))) x)).
Proof.
  intros Rd HM Hd Hc Hp. pose proof (good_data_chunks ok ls x Hd) as (_ & _ & Hch). rewrite Forall_forall in Hch.
  pose proof (chunks_concat ls x ltac:(apply Hd)) as EC.
  assert (HI : forall c o, In c (chunks ls x) -> In o c -> In o x).
  { intros c o H1 H2. rewrite <- EC. apply in_concat. exists c. split; assumption. }
  rewrite (C04_posteriors_lengths_l E h nc pi A ok b ls x Rd Hd).
  - do 2 f_equal. rewrite <- EC at 2. rewrite concat_map, <- flat_map_concat_map. revert HI. generalize (chunks ls x) as cs. intros cs HI.
    assert (K : forall c, In c cs -> rows (fmat (length c) nc (seq_post nc pi A b c))
       = map (fun o => tab nc (fun i => Fin (pi i * b o i / sumn nc (fun k => pi k * b o k)))) c).
    { intros c Hin. unfold fmat, mtab. cbn [rows]. apply tab_obs. intros t d Ht. apply tab_ext. intros i Hi. f_equal.
      apply (seq_post_mem nc pi A b c HM t i d); [|exact Ht|exact Hi]. intros s Hs. rewrite (mix_at nc pi b c s d Hs).
      apply Hp, (HI c); [exact Hin|apply nth_In; exact Hs]. }
    clear - K. induction cs as [|c cs IH]; cbn [flat_map]; [reflexivity|].
    rewrite (K c (or_introl eq_refl)), IH; [reflexivity|]. intros c' Hc'. apply K. right. exact Hc'.
  - intros c Hin. destruct (Hch c Hin) as [Hne _]. destruct Hc as [Hl|[Hs Hu]]; [left; split; [exact Hl|]|right; split; [exact Hs|]].
    + rewrite (seq_lik_mem nc pi A b c HM Hne). apply prodL_positive. intros o Ho. apply Hp. exact (HI c o Hin Ho).
    + apply (mem_no_underflow nc pi A b HM). intros o Ho. apply Hu. exact (HI c o Hin Ho).
Qed.

Lemma C97_viterbi_l {P X St} (E : emclass P X St) h nc pi A ok b ls x alg :
  ready E h nc pi A ok b -> memoryless nc pi A -> good_data ok ls x -> alg = Some "viterbi"%string ->
  (forall o, In o x -> 0 < sumn nc (fun i => pi i * b o i)) ->
  exists lp z, decode E exact h x (as_lengths ls) alg = Ok (lp, z)
    /\ Forall2 (fun o i => (i < nc)%nat /\ forall j, (j < nc)%nat -> pi j * b o j <= pi i * b o i) x z.
Proof.
  intros Rd HM Hd -> Hp. pose proof (good_data_chunks ok ls x Hd) as (_ & _ & Hch). rewrite Forall_forall in Hch.
  pose proof (chunks_concat ls x ltac:(apply Hd)) as EC.
  assert (HI : forall c o, In c (chunks ls x) -> In o c -> In o x).
  { intros c o H1 H2. rewrite <- EC. apply in_concat. exists c. split; assumption. }
  destruct (C01_viterbi_optimal_lengths_l E h nc pi A ok b ls x _ Rd Hd (or_introl eq_refl)) as (zs & D & BP).
  exists (xln (prodL2 (seq_joint pi A b) (chunks ls x) zs)), (concat zs). split; [exact D|].
  change (Forall2 (likeliest nc pi b) x (concat zs)). rewrite <- EC at 1. clear D EC.
  induction BP as [|c z cs zs B0 BP IH]; cbn [concat]; [constructor|]. apply Forall2_app.
  - destruct (Hch c (or_introl eq_refl)) as [Hne Fc]. rewrite Forall_forall in Fc.
    apply (best_mem nc pi A b c z HM Hne); [| |exact B0].
    + intros o i Ho Hi. apply (mem_nonneg E h nc pi A ok b Rd); [apply Fc; exact Ho|exact Hi].
    + intros o Ho. apply Hp, (HI c); [left; reflexivity|exact Ho].
  - apply IH; intros c'; intros; [apply Hch; right; assumption|eapply HI; [right; eassumption|assumption]].
Qed.
