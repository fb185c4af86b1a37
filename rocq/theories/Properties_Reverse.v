(** * Property C95: time reversal. *)
From Verif Require Import Reverse_thms Reverse_ex.

(** Every sequence read backwards by the model that runs backwards. *)
Theorem C95_score {P X St} (E : emclass P X St) h h2 nc pi A A2 ok b (xs : list (list X)) :
  ready E h nc pi A ok b -> ready E h2 nc pi A2 ok b -> reversal nc pi A A2 ->
  c_impl (h_cfg h) = "log"%string \/ (c_impl (h_cfg h) = "scaling"%string /\ forall x, In x xs -> seq_no_underflow nc pi A b x) ->
  c_impl (h_cfg h2) = "log"%string \/ (c_impl (h_cfg h2) = "scaling"%string /\ forall x, In x xs -> seq_no_underflow nc pi A2 b (rev x)) ->
  xs <> [] -> Forall (fun x => x <> [] /\ Forall ok x) xs ->
  score E exact h2 (concat (map (@rev X) xs)) (as_lengths (map (@length X) xs)) = score E exact h (concat xs) (as_lengths (map (@length X) xs)).
Proof. exact (@C95_score_l _ _ _ _ _ _ _ _ _ _ _ _ _). Qed.
Print Assumptions C95_score.

Theorem C95_posteriors {P X St} (E : emclass P X St) h h2 nc pi A A2 ok b x :
  ready E h nc pi A ok b -> ready E h2 nc pi A2 ok b -> reversal nc pi A A2 -> x <> [] -> Forall ok x ->
  scorable nc pi A b (c_impl (h_cfg h)) x -> scorable nc pi A2 b (c_impl (h_cfg h2)) (rev x) ->
  exists p, predict_proba E exact h x None = Ok (fmat (length x) nc p)
    /\ predict_proba E exact h2 (rev x) None = Ok (fmat (length x) nc (fun t => p (length x - S t)%nat)).
Proof. exact (@C95_posteriors_l _ _ _ _ _ _ _ _ _ _ _ _ _). Qed.
Print Assumptions C95_posteriors.

Theorem C95_viterbi {P X St} (E : emclass P X St) h h2 nc pi A A2 ok b x :
  ready E h nc pi A ok b -> ready E h2 nc pi A2 ok b -> reversal nc pi A A2 -> x <> [] -> Forall ok x ->
  exists lp z z2, decode E exact h x None (Some "viterbi"%string) = Ok (lp, z)
    /\ decode E exact h2 (rev x) None (Some "viterbi"%string) = Ok (lp, z2)
    /\ best_path nc pi A b x (rev z2) /\ best_path nc pi A2 b (rev x) (rev z).
Proof. exact (@C95_viterbi_l _ _ _ _ _ _ _ _ _ _ _ _ _). Qed.
Print Assumptions C95_viterbi.

(** A model whose states communicate, started in what [get_stationary_distribution]
    returns, can be run backwards, and in one way only. *)
Theorem C95_stationary {P} eig (h : hmm P) n A :
  h_trans h = Some (mtab n n (fun i j => Fin (A i j))) -> (0 < n)%nat -> stochastic2 n n A -> eig_right eig n (fun i j => A j i) ->
  irreducible n A ->
  exists p A2, stationary eig exact h = Ok (inl (tab n (fun i => Fin (p i)))) /\ stochastic1 n p /\ stochastic2 n n A2 /\ reversal n p A A2
    /\ forall B, reversal n p A B -> forall i j, (i < n)%nat -> (j < n)%nat -> B i j = A2 i j.
Proof. exact (@C95_stationary_l _ _ _ _ _). Qed.
Print Assumptions C95_stationary.

(** The sequence (0, 1) and its reversal are not equally probable; run backwards
    the model gives the reversal the probability of the sequence. *)
Example C95_score_applies :
  score categorical exact (rv_h rv_A "log") [0; 1]%Z None = Ok (xln (11 / 96))
  /\ score categorical exact (rv_h rv_A2 "log") [1; 0]%Z None = Ok (xln (11 / 96))
  /\ score categorical exact (rv_h rv_A "log") [1; 0]%Z None = Ok (xln (10 / 96))
  /\ score categorical exact (rv_h rv_A2 "log") [1; 0; 2; 2; 0; 1]%Z (as_lengths [2; 4]%nat)
     = score categorical exact (rv_h rv_A "log") [0; 1; 1; 0; 2; 2]%Z (as_lengths [2; 4]%nat).
Proof. exact (@C95_score_applies_l). Qed.

Example C95_posteriors_applies : exists p, predict_proba categorical exact (rv_h rv_A "log") [0; 1]%Z None = Ok (fmat 2 3 p)
  /\ predict_proba categorical exact (rv_h rv_A2 "log") [1; 0]%Z None = Ok (fmat 2 3 (fun t => p (1 - t)%nat))
  /\ p 0%nat 0%nat = 6 / 11 /\ p 1%nat 0%nat <> p 0%nat 0%nat.
Proof. exact (@C95_posteriors_applies_l). Qed.

Example C95_viterbi_applies : exists lp z z2,
  decode categorical exact (rv_h rv_A "log") [0; 1; 1; 2]%Z None (Some "viterbi"%string) = Ok (lp, z)
  /\ decode categorical exact (rv_h rv_A2 "log") [2; 1; 1; 0]%Z None (Some "viterbi"%string) = Ok (lp, z2)
  /\ best_path 3 rv_pi rv_A (cat_b rv_e) [0; 1; 1; 2]%Z (rev z2).
Proof. exact (@C95_viterbi_applies_l). Qed.

(** The two-state chain of C45 is its own reversal. *)
Example C95_stationary_applies : exists p A2,
  stationary (st_eig (fun k => match k with O => / 4 | _ => 1 end) (fun _ => 0)
    (fun k i => match k, i with O, O => 1 | O, _ => -1 | _, O => -1 | _, _ => -2 end) (fun _ _ => 0)) exact (st_h st_A)
    = Ok (inl (tab 2 (fun i => Fin (p i)))) /\ stochastic2 2 2 A2 /\ reversal 2 p st_A A2.
Proof. exact (@C95_stationary_applies_l). Qed.

