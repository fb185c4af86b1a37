(** * Property C95: concrete models. *)
From Verif Require Export Reverse_thms Lump_ex Api_proofs.

(** Three states that are passed through in a circle, in one direction by [rv_A] and
    in the other by [rv_A2]. *)
Definition rv_pi : nat -> R := fun _ => / 3.
Definition rv_A (i j : nat) : R :=
  match i, j with
  | 0%nat, 0%nat | 0%nat, 1%nat | 1%nat, 1%nat | 1%nat, 2%nat | 2%nat, 2%nat | 2%nat, 0%nat => 1/2
  | _, _ => 0
  end.
Definition rv_A2 (i j : nat) : R := rv_A j i.
Definition rv_e (i k : nat) : R := if Nat.eqb i k then 1/2 else 1/4.
Ltac rv_cases i := destruct i as [|[|[|i]]]; try lia.
Lemma rv_pi_ok : stochastic1 3 rv_pi.
Proof. split; [intros i _; unfold rv_pi; lra|unfold rv_pi; cbn; lra]. Qed.
Lemma rv_A_ok : stochastic2 3 3 rv_A.
Proof. intros i Hi. split; [|rv_cases i; cbn; lra]. intros j Hj. rv_cases i; rv_cases j; cbn; lra. Qed.
Lemma rv_A2_ok : stochastic2 3 3 rv_A2.
Proof. intros i Hi. unfold rv_A2. split; [|rv_cases i; cbn; lra]. intros j Hj. rv_cases i; rv_cases j; cbn; lra. Qed.
Lemma rv_e_ok : stochastic2 3 3 rv_e.
Proof. intros i Hi. unfold rv_e. split; [|rv_cases i; cbn; lra]. intros j Hj. destruct (Nat.eqb i j); lra. Qed.
Definition rv_h A impl : hmm catp := lu_h 3 rv_pi A rv_e impl.
Lemma rv_ready impl : ready categorical (rv_h rv_A impl) 3 rv_pi rv_A (sym_ok 3) (cat_b rv_e).
Proof. apply cat_ready, lu_model; [lia|exact rv_pi_ok|exact rv_A_ok|exact rv_e_ok]. Qed.
Lemma rv_ready2 impl : ready categorical (rv_h rv_A2 impl) 3 rv_pi rv_A2 (sym_ok 3) (cat_b rv_e).
Proof. apply cat_ready, lu_model; [lia|exact rv_pi_ok|exact rv_A2_ok|exact rv_e_ok]. Qed.
Lemma rv_reversal : reversal 3 rv_pi rv_A rv_A2.
Proof. intros i j _ _. reflexivity. Qed.
Definition rv_x : list Z := [0; 1]%Z.
Lemma rv_x_ok : Forall (sym_ok 3) rv_x.
Proof. repeat constructor; cbn; lia. Qed.
Lemma rv_rx_ok : Forall (sym_ok 3) (rev rv_x).
Proof. apply Forall_rev, rv_x_ok. Qed.
Ltac rv_compute := cbn [Nat.sub]; cbn [alpha beta sumn obsB map nth]; unfold obsB; cbn [map nth]; unfold cat_b; change (Z.to_nat 0) with 0%nat; change (Z.to_nat 1) with 1%nat;
  unfold rv_e, rv_pi, rv_A, rv_x; cbn [map nth Nat.eqb Nat.sub rev app]; change (Z.to_nat 0) with 0%nat; change (Z.to_nat 1) with 1%nat; cbv match; try lra.
Lemma rv_lik : seq_lik 3 rv_pi rv_A (cat_b rv_e) rv_x = 11 / 96.
Proof. unfold seq_lik. cbn [length rv_x]. rewrite likelihood_alpha. rv_compute. Qed.
Lemma rv_lik2 : seq_lik 3 rv_pi rv_A (cat_b rv_e) (rev rv_x) = 10 / 96.
Proof. unfold seq_lik. cbn [length rv_x rev app]. rewrite likelihood_alpha. rv_compute. Qed.

(** The sequence (0, 1) and its reversal are not equally probable; run backwards
    the model gives the reversal the probability of the sequence. *)
Lemma C95_score_applies_l :
  score categorical exact (rv_h rv_A "log") [0; 1]%Z None = Ok (xln (11 / 96))
  /\ score categorical exact (rv_h rv_A2 "log") [1; 0]%Z None = Ok (xln (11 / 96))
  /\ score categorical exact (rv_h rv_A "log") [1; 0]%Z None = Ok (xln (10 / 96))
  /\ score categorical exact (rv_h rv_A2 "log") [1; 0; 2; 2; 0; 1]%Z (as_lengths [2; 4]%nat)
     = score categorical exact (rv_h rv_A "log") [0; 1; 1; 0; 2; 2]%Z (as_lengths [2; 4]%nat).
Proof.
  split; [|split; [|split]].
  - rewrite <- rv_lik. apply (score_log_single categorical _ _ _ _ _ _ (rv_ready "log") rv_x eq_refl ltac:(discriminate) rv_x_ok).
  - rewrite <- rv_lik, <- (seq_lik_rev 3 rv_pi rv_A rv_A2 (cat_b rv_e) rv_x rv_reversal ltac:(discriminate)).
    apply (score_log_single categorical _ _ _ _ _ _ (rv_ready2 "log") (rev rv_x) eq_refl ltac:(discriminate) rv_rx_ok).
  - rewrite <- rv_lik2. apply (score_log_single categorical _ _ _ _ _ _ (rv_ready "log") (rev rv_x) eq_refl ltac:(discriminate) rv_rx_ok).
  - apply (C95_score_l categorical _ _ _ _ _ _ _ _ [[0; 1]; [1; 0; 2; 2]]%Z (rv_ready "log") (rv_ready2 "log") rv_reversal (or_introl eq_refl) (or_introl eq_refl));
      [discriminate|]. repeat constructor; try discriminate; cbn; lia.
Qed.
Lemma C95_posteriors_applies_l : exists p, predict_proba categorical exact (rv_h rv_A "log") [0; 1]%Z None = Ok (fmat 2 3 p)
  /\ predict_proba categorical exact (rv_h rv_A2 "log") [1; 0]%Z None = Ok (fmat 2 3 (fun t => p (1 - t)%nat))
  /\ p 0%nat 0%nat = 6 / 11 /\ p 1%nat 0%nat <> p 0%nat 0%nat.
Proof.
  assert (S1 : scorable 3 rv_pi rv_A (cat_b rv_e) "log" rv_x) by (left; split; [reflexivity|rewrite rv_lik; lra]).
  assert (S2 : scorable 3 rv_pi rv_A2 (cat_b rv_e) "log" (rev rv_x)).
  { left. split; [reflexivity|]. rewrite (seq_lik_rev 3 rv_pi rv_A rv_A2 _ rv_x rv_reversal ltac:(discriminate)), rv_lik. lra. }
  destruct (C95_posteriors_l categorical _ _ _ _ _ _ _ _ rv_x (rv_ready "log") (rv_ready2 "log") rv_reversal ltac:(discriminate) rv_x_ok S1 S2) as (p & H1 & H2).
  exists p. split; [exact H1|]. split; [exact H2|].
  pose proof (C04_posteriors_l categorical _ _ _ _ _ _ rv_x (rv_ready "log") ltac:(discriminate) rv_x_ok S1) as H3. rewrite H1 in H3.
  assert (Q : forall t i, (t < 2)%nat -> (i < 3)%nat -> p t i = seq_post 3 rv_pi rv_A (cat_b rv_e) rv_x t i).
  { intros t i Ht Hi.
    assert (G0 : fmat 2 3 p = fmat 2 3 (seq_post 3 rv_pi rv_A (cat_b rv_e) rv_x)) by (assert (K : forall u v : mat, @Ok mat u = Ok v -> u = v) by congruence; apply K; exact H3).
    assert (G : mget (fmat 2 3 p) t i = mget (fmat 2 3 (seq_post 3 rv_pi rv_A (cat_b rv_e) rv_x)) t i) by (rewrite G0; reflexivity).
    rewrite !mget_fmat in G by assumption. congruence. }
  rewrite (Q 0%nat 0%nat), (Q 1%nat 0%nat) by lia. unfold seq_post, posterior. fold (seq_lik 3 rv_pi rv_A (cat_b rv_e) rv_x). rewrite rv_lik. cbn [length rv_x].
  rewrite !marginal_alpha_beta by lia. split; [rv_compute|apply Rlt_not_eq; rv_compute].
Qed.
Lemma C95_viterbi_applies_l : exists lp z z2,
  decode categorical exact (rv_h rv_A "log") [0; 1; 1; 2]%Z None (Some "viterbi"%string) = Ok (lp, z)
  /\ decode categorical exact (rv_h rv_A2 "log") [2; 1; 1; 0]%Z None (Some "viterbi"%string) = Ok (lp, z2)
  /\ best_path 3 rv_pi rv_A (cat_b rv_e) [0; 1; 1; 2]%Z (rev z2).
Proof.
  destruct (C95_viterbi_l categorical _ _ _ _ _ _ _ _ [0; 1; 1; 2]%Z (rv_ready "log") (rv_ready2 "log") rv_reversal ltac:(discriminate)
    ltac:(repeat constructor; cbn; lia)) as (lp & z & z2 & H1 & H2 & H3 & _).
  exists lp, z, z2. split; [exact H1|]. split; [exact H2|exact H3].
Qed.
(** The two-state chain of C45 is its own reversal. *)
Lemma C95_stationary_applies_l : exists p A2,
  stationary (st_eig (fun k => match k with O => / 4 | _ => 1 end) (fun _ => 0)
    (fun k i => match k, i with O, O => 1 | O, _ => -1 | _, O => -1 | _, _ => -2 end) (fun _ _ => 0)) exact (st_h st_A)
    = Ok (inl (tab 2 (fun i => Fin (p i)))) /\ stochastic2 2 2 A2 /\ reversal 2 p st_A A2.
Proof.
  assert (HS : stochastic2 2 2 st_A).
  { unfold stochastic2. apply two; (split; [unfold nonneg1; apply two; cbn [st_A]; lra|cbn [sumn st_A]; lra]). }
  assert (HI : irreducible 2 st_A).
  { intros i j Hi Hj. apply (ReachStep 2 st_A i i j); try assumption; [constructor|].
    destruct i as [|[|i]]; [| |lia]; (destruct j as [|[|j]]; [| |lia]); cbn [st_A]; lra. }
  destruct (C95_stationary_l _ (st_h st_A) 2 st_A eq_refl ltac:(lia) HS st_right HI) as (p & A2 & H1 & _ & H2 & H3 & _).
  exists p, A2. split; [exact H1|]. split; [exact H2|exact H3].
Qed.
