(** * Property C93: concrete models. *)
From Verif Require Export Lump_thms Examples.

(** The model of Examples.v with state 1 split in two and a state that is never
    visited. *)
Definition lu_m (k : nat) : option nat := match k with 0%nat => Some 0%nat | 1%nat | 2%nat => Some 1%nat | _ => None end.
Definition lu_pi (i : nat) : R := match i with 0%nat => 1/4 | 1%nat => 1/4 | 2%nat => 1/2 | _ => 0 end.
Definition lu_A (i j : nat) : R :=
  match i, j with
  | 0%nat, 0%nat => 1/2 | 0%nat, 1%nat => 1/8 | 0%nat, 2%nat => 3/8
  | 1%nat, 1%nat => 1/3 | 1%nat, 2%nat => 2/3
  | 2%nat, 1%nat => 1/2 | 2%nat, 2%nat => 1/2
  | 3%nat, _ => 1/4
  | _, _ => 0
  end.
Definition lu_e (i k : nat) : R := match i with 0%nat => ex_e 0 k | 1%nat | 2%nat => ex_e 1 k | _ => match k with 0%nat => 1 | _ => 0 end end.
Definition lu_h (n : nat) (pi : nat -> R) (A e : nat -> nat -> R) (impl : string) : hmm catp :=
  Hmm (Cfg n "ste" "ste" "viterbi" impl 10 (Fin (/ 100)) false (Scal (Fin 1)) (Scal (Fin 1)))
      None (Some (fvec n pi)) (Some (fmat n n A)) (Monitor (Fin (/ 100)) 10 false [] 0)
      (Catp (Scal (Fin 1)) (Some (fmat n 3 e))).
Lemma lu_model n pi A e impl : (0 < n)%nat -> stochastic1 n pi -> stochastic2 n n A -> stochastic2 n 3 e -> cat_model (lu_h n pi A e impl) n 3 pi A e.
Proof.
  intros Hn [P1 P2] HA He. constructor; try reflexivity.
  - exact Hn.
  - left; reflexivity.
  - exact P1.
  - rewrite P2. exact near1_1.
  - intros i j Hi. apply HA. exact Hi.
  - intros i Hi. rewrite (proj2 (HA i Hi)). exact near1_1.
  - intros i j Hi. apply He. exact Hi.
  - intros i Hi. rewrite (proj2 (He i Hi)). exact near1_1.
Qed.
Ltac lu_cases i := destruct i as [|[|[|[|i]]]]; try lia.
Lemma lu_ready impl : ready categorical (lu_h 4 lu_pi lu_A lu_e impl) 4 lu_pi lu_A (sym_ok 3) (cat_b lu_e).
Proof.
  apply cat_ready, lu_model; [lia| | |].
  - split; [|cbn; lra]. intros i Hi. lu_cases i; cbn; lra.
  - intros i Hi. split; [|lu_cases i; cbn; lra]. intros j Hj. lu_cases i; lu_cases j; cbn; lra.
  - intros i Hi. split; [|lu_cases i; cbn; lra]. intros j Hj. lu_cases i; lu_cases j; cbn; lra.
Qed.
Lemma lu_redundant : redundant 2 4 lu_m ex_pi lu_pi ex_A lu_A (sym_ok 3) (cat_b ex_e) (cat_b lu_e).
Proof.
  constructor.
  - intros k i Hk Hm. lu_cases k; cbn in Hm; try discriminate; injection Hm as <-; lia.
  - intros i Hi. destruct i as [|[|i]]; [| |lia]; unfold copies; cbn; lra.
  - intros k Hk Hm. lu_cases k; cbn in Hm; try discriminate. reflexivity.
  - intros k i j Hk Hm Hj. lu_cases k; cbn in Hm; try discriminate; injection Hm as <-;
      (destruct j as [|[|j]]; [| |lia]); unfold copies; cbn; lra.
  - intros k l Hk Hl Hm Hn. lu_cases l; cbn in Hn; try discriminate. lu_cases k; try reflexivity; contradiction Hm; reflexivity.
  - intros o k i Ho Hk Hm. lu_cases k; cbn in Hm; try discriminate; injection Hm as <-; reflexivity.
Qed.
Lemma C93_score_applies_l :
  score categorical exact (lu_h 4 lu_pi lu_A lu_e "scaling") ex_x None = Ok (xln (3 / 128))
  /\ score categorical exact (lu_h 4 lu_pi lu_A lu_e "log") ex_x (as_lengths [2; 1]%nat)
     = score categorical exact (ex_h "log" "map") ex_x (as_lengths [2; 1]%nat).
Proof.
  split.
  - rewrite (proj1 (C03_scaling_agrees_l categorical _ _ _ _ _ _ _ ex_x (lu_ready "scaling") eq_refl (lu_ready "log") eq_refl ltac:(discriminate) ex_x_ok)).
    + rewrite (proj1 (C02_score_is_log_likelihood_l categorical _ _ _ _ _ _ ex_x (lu_ready "log") eq_refl ltac:(discriminate) ex_x_ok)).
      change (sumL (seq_joint lu_pi lu_A (cat_b lu_e) ex_x) (all_paths 4 (length ex_x))) with (seq_lik 4 lu_pi lu_A (cat_b lu_e) ex_x).
      rewrite (seq_lik_copies _ _ _ _ _ _ _ _ _ _ lu_redundant ex_x ltac:(discriminate) ex_x_ok), ex_lik. reflexivity.
    + apply (underflow_copies _ _ _ _ _ _ _ _ _ _ lu_redundant ex_x ex_x_ok). exact ex_no_underflow.
  - exact (C93_score_l categorical categorical _ _ _ _ _ _ _ _ _ _ _ _ _ ex_x (ex_ready "log" "map") (lu_ready "log") lu_redundant eq_refl (or_introl eq_refl) ex_good).
Qed.
Lemma C93_posteriors_applies_l : exists p p', predict_proba categorical exact (ex_h "log" "map") ex_x None = Ok (fmat 3 2 p)
  /\ predict_proba categorical exact (lu_h 4 lu_pi lu_A lu_e "log") ex_x None = Ok (fmat 3 4 p')
  /\ forall t, (t < 3)%nat -> p t 0%nat = p' t 0%nat /\ p t 1%nat = p' t 1%nat + p' t 2%nat /\ p' t 3%nat = 0.
Proof.
  destruct (C93_posteriors_l categorical categorical _ _ _ _ _ _ _ _ _ _ _ _ ex_x (ex_ready "log" "map") (lu_ready "log") lu_redundant eq_refl
    ltac:(discriminate) ex_x_ok) as (p & p' & H1 & H2 & H3).
  { left. split; [reflexivity|]. rewrite ex_lik. lra. }
  exists p, p'. split; [exact H1|]. split; [exact H2|]. intros t Ht. destruct (H3 t Ht) as [Hc Hd].
  pose proof (Hc 0%nat ltac:(lia)) as H0. pose proof (Hc 1%nat ltac:(lia)) as Hb.
  unfold copies in H0, Hb. cbn [sumn lu_m Nat.eqb] in H0, Hb. split; [lra|]. split; [lra|]. apply Hd; [lia|reflexivity].
Qed.
(** One unvisited state. *)
Definition lv_pi (i : nat) : R := match i with 0%nat => 1/4 | 1%nat => 3/4 | _ => 0 end.
Definition lv_A (i j : nat) : R := match j with 0%nat => ex_A i 0 | 1%nat => ex_A i 1 | _ => 0 end.
Definition lv_e : nat -> nat -> R := ex_e.
Lemma C93_viterbi_applies_l : exists lp z z', decode categorical exact (ex_h "log" "map") ex_x None (Some "viterbi"%string) = Ok (lp, z)
  /\ decode categorical exact (lu_h 3 lv_pi lv_A lv_e "log") ex_x None (Some "viterbi"%string) = Ok (lp, z')
  /\ (lp <> NInf -> best_path 2 ex_pi ex_A (cat_b ex_e) ex_x z').
Proof.
  assert (Rv : ready categorical (lu_h 3 lv_pi lv_A lv_e "log") 3 lv_pi lv_A (sym_ok 3) (cat_b lv_e)).
  { apply cat_ready, lu_model; [lia| | |].
    - split; [|cbn; lra]. intros i Hi. lu_cases i; cbn; lra.
    - intros i Hi. split; [|lu_cases i; cbn; lra]. intros j Hj. lu_cases i; lu_cases j; cbn; lra.
    - intros i Hi. split; [|lu_cases i; cbn; lra]. intros j Hj. lu_cases i; lu_cases j; cbn; lra. }
  apply (C93_viterbi_l categorical categorical _ _ _ _ _ _ _ _ _ _ _ ex_x _ (ex_ready "log" "map") Rv); [lia| |discriminate|exact ex_x_ok|reflexivity].
  constructor.
  - intros k i Hk Hm. unfold first_states in Hm. destruct (Nat.ltb_spec k 2); [injection Hm as <-; lia|discriminate].
  - intros i Hi. destruct i as [|[|i]]; [| |lia]; unfold copies; cbn; lra.
  - intros k Hk Hm. lu_cases k; cbn in Hm; try discriminate. reflexivity.
  - intros k i j Hk Hm Hj. lu_cases k; cbn in Hm; try discriminate; injection Hm as <-;
      (destruct j as [|[|j]]; [| |lia]); unfold copies; cbn; lra.
  - intros k l Hk Hl Hm Hn. lu_cases l; cbn in Hn; try discriminate. lu_cases k; reflexivity.
  - intros o k i Ho Hk Hm. lu_cases k; cbn in Hm; try discriminate; injection Hm as <-; reflexivity.
Qed.
