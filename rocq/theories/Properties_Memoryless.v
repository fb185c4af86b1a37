(** * Property C97: a model without memory is a mixture model. *)
From Verif Require Import Memoryless_thms Memoryless_ex.

Theorem C97_score {P X St} (E : emclass P X St) h nc pi A ok b ls x :
  ready E h nc pi A ok b -> memoryless nc pi A -> good_data ok ls x -> computable nc pi b (c_impl (h_cfg h)) x ->
  score E exact h x (as_lengths ls) = Ok (xln (prodL (fun o => sumn nc (fun i => pi i * b o i)) x)).
Proof. exact (@C97_score_l _ _ _ _ _ _ _ _ _ _ _ _). Qed.
Print Assumptions C97_score.

(** Neither the order of the samples nor the way they are cut into sequences matters. *)
Theorem C97_order {P X St} (E : emclass P X St) h nc pi A ok b ls x ls2 x2 :
  ready E h nc pi A ok b -> memoryless nc pi A -> good_data ok ls x -> good_data ok ls2 x2 -> computable nc pi b (c_impl (h_cfg h)) x ->
  Permutation x x2 -> score E exact h x2 (as_lengths ls2) = score E exact h x (as_lengths ls).
Proof. exact (@C97_order_l _ _ _ _ _ _ _ _ _ _ _ _ _ _). Qed.
Print Assumptions C97_order.

Theorem C97_posteriors {P X St} (E : emclass P X St) h nc pi A ok b ls x :
  ready E h nc pi A ok b -> memoryless nc pi A -> good_data ok ls x -> computable nc pi b (c_impl (h_cfg h)) x ->
  (forall o, In o x -> 0 < sumn nc (fun i => pi i * b o i)) ->
  predict_proba E exact h x (as_lengths ls)
  = Ok (Mat nc (map (fun o => tab nc (fun i => Fin (pi i * b o i / sumn nc (fun k => pi k * b o k)))) x)).
Proof. exact (@C97_posteriors_l _ _ _ _ _ _ _ _ _ _ _ _). Qed.
Print Assumptions C97_posteriors.

Theorem C97_viterbi {P X St} (E : emclass P X St) h nc pi A ok b ls x alg :
  ready E h nc pi A ok b -> memoryless nc pi A -> good_data ok ls x -> alg = Some "viterbi"%string ->
  (forall o, In o x -> 0 < sumn nc (fun i => pi i * b o i)) ->
  exists lp z, decode E exact h x (as_lengths ls) alg = Ok (lp, z)
    /\ Forall2 (fun o i => (i < nc)%nat /\ forall j, (j < nc)%nat -> pi j * b o j <= pi i * b o i) x z.
Proof. exact (@C97_viterbi_l _ _ _ _ _ _ _ _ _ _ _ _ _). Qed.
Print Assumptions C97_viterbi.

Example C97_score_applies : score categorical exact (ml_h "scaling") ex_x (as_lengths [2; 1]%nat) = Ok (xln (45 / 2048)).
Proof. exact (@C97_score_applies_l). Qed.

Example C97_order_applies : score categorical exact (ml_h "log") [2; 0; 1]%Z (as_lengths [1; 2]%nat) = score categorical exact (ml_h "log") [0; 1; 2]%Z (as_lengths [2; 1]%nat).
Proof. exact (@C97_order_applies_l). Qed.

Example C97_posteriors_applies : predict_proba categorical exact (ml_h "log") ex_x (as_lengths [2; 1]%nat)
  = Ok (Mat 2 [[Fin 1; Fin 0]; [Fin (2 / 5); Fin (3 / 5)]; [Fin 0; Fin 1]]).
Proof. exact (@C97_posteriors_applies_l). Qed.

Example C97_viterbi_applies : exists lp, decode categorical exact (ml_h "log") ex_x (as_lengths [2; 1]%nat) (Some "viterbi"%string) = Ok (lp, [0; 1; 1]%nat).
Proof. exact (@C97_viterbi_applies_l). Qed.

