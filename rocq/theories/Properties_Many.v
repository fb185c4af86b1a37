(** * Properties C93 and C95: several sequences. *)
From Verif Require Import Lump_many Lump_many_v Reverse_many Lump_many_ex Many_ex.

Theorem C93_posteriors_lengths {P P' X St St'} (E : emclass P X St) (E' : emclass P' X St') h h' nc nc' m pi pi' A A' ok b b' ls x :
  ready E h nc pi A ok b -> ready E' h' nc' pi' A' ok b' -> redundant nc nc' m pi pi' A A' ok b b' ->
  c_impl (h_cfg h) = c_impl (h_cfg h') -> good_data ok ls x ->
  (forall c, In c (chunks ls x) -> scorable nc pi A b (c_impl (h_cfg h)) c) ->
  exists p p', predict_proba E exact h x (as_lengths ls) = Ok (fmat (length x) nc p)
    /\ predict_proba E' exact h' x (as_lengths ls) = Ok (fmat (length x) nc' p')
    /\ forall t, (t < length x)%nat ->
         (forall i, (i < nc)%nat -> copies nc' m i (p' t) = p t i)
         /\ forall k, (k < nc')%nat -> m k = None -> p' t k = 0.
Proof. exact (@C93_posteriors_lengths_l _ _ _ _ _ _ _ _ _ _ _ _ _ _ _ _ _ _ _ _ _). Qed.
Print Assumptions C93_posteriors_lengths.

Theorem C93_viterbi_lengths {P P' X St St'} (E : emclass P X St) (E' : emclass P' X St') h h' nc nc' pi pi' A A' ok b b' ls x alg :
  ready E h nc pi A ok b -> ready E' h' nc' pi' A' ok b' -> (nc <= nc')%nat ->
  redundant nc nc' (first_states nc) pi pi' A A' ok b b' -> good_data ok ls x -> alg = Some "viterbi"%string ->
  exists lp z zs', decode E exact h x (as_lengths ls) alg = Ok (lp, z) /\ decode E' exact h' x (as_lengths ls) alg = Ok (lp, concat zs')
    /\ (lp <> NInf -> Forall2 (best_path nc pi A b) (chunks ls x) zs').
Proof. exact (@C93_viterbi_lengths_l _ _ _ _ _ _ _ _ _ _ _ _ _ _ _ _ _ _ _ _ _). Qed.
Print Assumptions C93_viterbi_lengths.

(** [ps] are the blocks of rows of the sequences. *)
Theorem C95_posteriors_lengths {P X St} (E : emclass P X St) h h2 nc pi A A2 ok b (xs : list (list X)) :
  ready E h nc pi A ok b -> ready E h2 nc pi A2 ok b -> reversal nc pi A A2 -> xs <> [] -> Forall (fun x => x <> [] /\ Forall ok x) xs ->
  (forall x, In x xs -> scorable nc pi A b (c_impl (h_cfg h)) x /\ scorable nc pi A2 b (c_impl (h_cfg h2)) (rev x)) ->
  exists ps, predict_proba E exact h (concat xs) (as_lengths (map (@length X) xs)) = Ok (Mat nc (concat ps))
    /\ predict_proba E exact h2 (concat (map (@rev X) xs)) (as_lengths (map (@length X) xs)) = Ok (Mat nc (concat (map (@rev vec) ps)))
    /\ map (@length vec) ps = map (@length X) xs.
Proof. exact (@C95_posteriors_lengths_l _ _ _ _ _ _ _ _ _ _ _ _ _). Qed.
Print Assumptions C95_posteriors_lengths.

Theorem C95_viterbi_lengths {P X St} (E : emclass P X St) h h2 nc pi A A2 ok b (xs : list (list X)) :
  ready E h nc pi A ok b -> ready E h2 nc pi A2 ok b -> reversal nc pi A A2 -> xs <> [] -> Forall (fun x => x <> [] /\ Forall ok x) xs ->
  exists lp zs zs2, decode E exact h (concat xs) (as_lengths (map (@length X) xs)) (Some "viterbi"%string) = Ok (lp, concat zs)
    /\ decode E exact h2 (concat (map (@rev X) xs)) (as_lengths (map (@length X) xs)) (Some "viterbi"%string) = Ok (lp, concat zs2)
    /\ Forall2 (fun x z2 => best_path nc pi A b x (rev z2)) xs zs2 /\ Forall2 (fun x z => best_path nc pi A2 b (rev x) (rev z)) xs zs.
Proof. exact (@C95_viterbi_lengths_l _ _ _ _ _ _ _ _ _ _ _ _ _). Qed.
Print Assumptions C95_viterbi_lengths.

(** Sequences (0, 1) and (2), one unvisited state. *)
Example C93_viterbi_lengths_applies : exists lp z u w,
  decode categorical exact (ex_h "log" "map") ex_x (as_lengths [2; 1]%nat) (Some "viterbi"%string) = Ok (lp, z)
  /\ decode categorical exact (lu_h 3 lv_pi lv_A lv_e "log") ex_x (as_lengths [2; 1]%nat) (Some "viterbi"%string) = Ok (lp, u ++ w)
  /\ best_path 2 ex_pi ex_A (cat_b ex_e) [0; 1]%Z u /\ best_path 2 ex_pi ex_A (cat_b ex_e) [2]%Z w.
Proof. exact (@C93_viterbi_lengths_applies_l). Qed.

(** Sequences (0, 1) and (2). *)
Example C93_posteriors_lengths_applies : exists p p',
  predict_proba categorical exact (ex_h "log" "map") ex_x (as_lengths [2; 1]%nat) = Ok (fmat 3 2 p)
  /\ predict_proba categorical exact (lu_h 4 lu_pi lu_A lu_e "log") ex_x (as_lengths [2; 1]%nat) = Ok (fmat 3 4 p')
  /\ forall t, (t < 3)%nat -> p t 0%nat = p' t 0%nat /\ p t 1%nat = p' t 1%nat + p' t 2%nat /\ p' t 3%nat = 0.
Proof. exact (@C93_posteriors_lengths_applies_l). Qed.

(** Sequences (0, 1) and (1). *)
Example C95_posteriors_lengths_applies : exists p q r,
  predict_proba categorical exact (rv_h rv_A "log") [0; 1; 1]%Z (as_lengths [2; 1]%nat) = Ok (Mat 3 [p; q; r])
  /\ predict_proba categorical exact (rv_h rv_A2 "log") [1; 0; 1]%Z (as_lengths [2; 1]%nat) = Ok (Mat 3 [q; p; r]).
Proof. exact (@C95_posteriors_lengths_applies_l). Qed.

Example C95_viterbi_lengths_applies : exists lp z w z2 w2,
  decode categorical exact (rv_h rv_A "log") [0; 1; 1; 0; 2; 2]%Z (as_lengths [2; 4]%nat) (Some "viterbi"%string) = Ok (lp, z ++ w)
  /\ decode categorical exact (rv_h rv_A2 "log") [1; 0; 2; 2; 0; 1]%Z (as_lengths [2; 4]%nat) (Some "viterbi"%string) = Ok (lp, z2 ++ w2)
  /\ best_path 3 rv_pi rv_A (cat_b rv_e) [0; 1]%Z (rev z2) /\ best_path 3 rv_pi rv_A (cat_b rv_e) [1; 0; 2; 2]%Z (rev w2).
Proof. exact (@C95_viterbi_lengths_applies_l). Qed.

