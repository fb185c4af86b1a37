(** * Properties C95, C96 and C97: MAP decoding. *)
From Verif Require Import Map_more Map_more_ex.

(** Ties are broken alike in both directions. *)
Theorem C95_map {P X St} (E : emclass P X St) h h2 nc pi A A2 ok b x :
  ready E h nc pi A ok b -> ready E h2 nc pi A2 ok b -> reversal nc pi A A2 -> x <> [] -> Forall ok x ->
  scorable nc pi A b (c_impl (h_cfg h)) x -> scorable nc pi A2 b (c_impl (h_cfg h2)) (rev x) ->
  exists v z, decode E exact h x None (Some "map"%string) = Ok (v, z) /\ decode E exact h2 (rev x) None (Some "map"%string) = Ok (v, rev z).
Proof. exact (@C95_map_l _ _ _ _ _ _ _ _ _ _ _ _ _). Qed.
Print Assumptions C95_map.

(** The states of the continuation. *)
Theorem C96_map {P X St} (E : emclass P X St) h h2 nc pi q A ok b x y :
  ready E h nc pi A ok b -> ready E h2 nc q A ok b -> c_impl (h_cfg h2) = c_impl (h_cfg h) ->
  x <> [] -> y <> [] -> Forall ok x -> Forall ok y -> continues E h nc A x q ->
  scorable nc pi A b (c_impl (h_cfg h)) x -> scorable nc pi A b (c_impl (h_cfg h)) (x ++ y) ->
  exists v z v2 z2, decode E exact h (x ++ y) None (Some "map"%string) = Ok (v, z)
    /\ decode E exact h2 y None (Some "map"%string) = Ok (v2, z2) /\ skipn (length x) z = z2.
Proof. exact (@C96_map_l _ _ _ _ _ _ _ _ _ _ _ _ _ _). Qed.
Print Assumptions C96_map.

(** The lowest-numbered state of largest weighted density. *)
Theorem C97_map {P X St} (E : emclass P X St) h nc pi A ok b ls x :
  ready E h nc pi A ok b -> memoryless nc pi A -> good_data ok ls x -> computable nc pi b (c_impl (h_cfg h)) x ->
  (forall o, In o x -> 0 < sumn nc (fun i => pi i * b o i)) ->
  exists v z, decode E exact h x (as_lengths ls) (Some "map"%string) = Ok (v, z)
    /\ Forall2 (fun o i => first_argmax nc (fun k => pi k * b o k) i) x z.
Proof. exact (@C97_map_l _ _ _ _ _ _ _ _ _ _ _ _). Qed.
Print Assumptions C97_map.

Example C95_map_applies : exists v z, decode categorical exact (rv_h rv_A "log") [0; 1]%Z None (Some "map"%string) = Ok (v, z)
  /\ decode categorical exact (rv_h rv_A2 "log") [1; 0]%Z None (Some "map"%string) = Ok (v, rev z).
Proof. exact (@C95_map_applies_l). Qed.

Example C96_map_applies : exists v z v2 z2, decode categorical exact (ex_h "log" "map") [0; 1; 2]%Z None (Some "map"%string) = Ok (v, z)
  /\ decode categorical exact fi_h [2]%Z None (Some "map"%string) = Ok (v2, z2) /\ skipn 2 z = z2.
Proof. exact (@C96_map_applies_l). Qed.

Example C97_map_applies : exists v, decode categorical exact (ml_h "log") ex_x (as_lengths [2; 1]%nat) (Some "map"%string) = Ok (v, [0; 1; 1]%nat).
Proof. exact (@C97_map_applies_l). Qed.

