(** * Property C96: continuing a sequence. *)
From Verif Require Import Filter_thms Filter_ex.

Theorem C96_score {P X St} (E : emclass P X St) h h2 nc pi q A ok b x y :
  ready E h nc pi A ok b -> ready E h2 nc q A ok b -> c_impl (h_cfg h2) = c_impl (h_cfg h) ->
  x <> [] -> y <> [] -> Forall ok x -> Forall ok y -> continues E h nc A x q ->
  scorable nc pi A b (c_impl (h_cfg h)) x -> (c_impl (h_cfg h) = "scaling"%string -> seq_no_underflow nc pi A b (x ++ y)) ->
  exists s s2, score E exact h x None = Ok s /\ score E exact h2 y None = Ok s2 /\ score E exact h (x ++ y) None = Ok (xadd exact s s2).
Proof. exact (@C96_score_l _ _ _ _ _ _ _ _ _ _ _ _ _ _). Qed.
Print Assumptions C96_score.

Theorem C96_posteriors {P X St} (E : emclass P X St) h h2 nc pi q A ok b x y :
  ready E h nc pi A ok b -> ready E h2 nc q A ok b -> c_impl (h_cfg h2) = c_impl (h_cfg h) ->
  x <> [] -> y <> [] -> Forall ok x -> Forall ok y -> continues E h nc A x q ->
  scorable nc pi A b (c_impl (h_cfg h)) x -> scorable nc pi A b (c_impl (h_cfg h)) (x ++ y) ->
  exists p p2, predict_proba E exact h (x ++ y) None = Ok (fmat (length x + length y) nc p)
    /\ predict_proba E exact h2 y None = Ok (fmat (length y) nc p2)
    /\ forall t i, (t < length y)%nat -> (i < nc)%nat -> p (length x + t)%nat i = p2 t i.
Proof. exact (@C96_posteriors_l _ _ _ _ _ _ _ _ _ _ _ _ _ _). Qed.
Print Assumptions C96_posteriors.

Example C96_score_applies : continues categorical (ex_h "log" "map") 2 ex_A [0; 1]%Z fi_q
  /\ score categorical exact (ex_h "log" "map") [0; 1]%Z None = Ok (xln (3 / 64))
  /\ score categorical exact fi_h [2]%Z None = Ok (xln (1 / 2))
  /\ score categorical exact (ex_h "log" "map") [0; 1; 2]%Z None = Ok (xadd exact (xln (3 / 64)) (xln (1 / 2))).
Proof. exact (@C96_score_applies_l). Qed.

Example C96_posteriors_applies : exists p p2,
  predict_proba categorical exact (ex_h "log" "map") [0; 1; 2]%Z None = Ok (fmat 3 2 p)
  /\ predict_proba categorical exact fi_h [2]%Z None = Ok (fmat 1 2 p2) /\ p 2%nat 0%nat = p2 0%nat 0%nat /\ p 2%nat 1%nat = p2 0%nat 1%nat.
Proof. exact (@C96_posteriors_applies_l). Qed.

