(** * Property C93: redundant states. *)
From Verif Require Import Lump_thms Lump_ex.

Theorem C93_score {P P' X St St'} (E : emclass P X St) (E' : emclass P' X St') h h' nc nc' m pi pi' A A' ok b b' ls x :
  ready E h nc pi A ok b -> ready E' h' nc' pi' A' ok b' -> redundant nc nc' m pi pi' A A' ok b b' ->
  c_impl (h_cfg h) = c_impl (h_cfg h') -> c_impl (h_cfg h) = "log"%string \/ c_impl (h_cfg h) = "scaling"%string ->
  good_data ok ls x ->
  score E' exact h' x (as_lengths ls) = score E exact h x (as_lengths ls).
Proof. exact (@C93_score_l _ _ _ _ _ _ _ _ _ _ _ _ _ _ _ _ _ _ _ _ _). Qed.
Print Assumptions C93_score.

Theorem C93_posteriors {P P' X St St'} (E : emclass P X St) (E' : emclass P' X St') h h' nc nc' m pi pi' A A' ok b b' x :
  ready E h nc pi A ok b -> ready E' h' nc' pi' A' ok b' -> redundant nc nc' m pi pi' A A' ok b b' ->
  c_impl (h_cfg h) = c_impl (h_cfg h') -> x <> [] -> Forall ok x -> scorable nc pi A b (c_impl (h_cfg h)) x ->
  exists p p', predict_proba E exact h x None = Ok (fmat (length x) nc p) /\ predict_proba E' exact h' x None = Ok (fmat (length x) nc' p')
    /\ forall t, (t < length x)%nat ->
         (forall i, (i < nc)%nat -> copies nc' m i (p' t) = p t i)
         /\ forall k, (k < nc')%nat -> m k = None -> p' t k = 0.
Proof. exact (@C93_posteriors_l _ _ _ _ _ _ _ _ _ _ _ _ _ _ _ _ _ _ _ _). Qed.
Print Assumptions C93_posteriors.

Theorem C93_viterbi {P P' X St St'} (E : emclass P X St) (E' : emclass P' X St') h h' nc nc' pi pi' A A' ok b b' x alg :
  ready E h nc pi A ok b -> ready E' h' nc' pi' A' ok b' -> (nc <= nc')%nat ->
  redundant nc nc' (first_states nc) pi pi' A A' ok b b' -> x <> [] -> Forall ok x -> alg = Some "viterbi"%string ->
  exists lp z z', decode E exact h x None alg = Ok (lp, z) /\ decode E' exact h' x None alg = Ok (lp, z')
    /\ (lp <> NInf -> best_path nc pi A b x z').
Proof. exact (@C93_viterbi_l _ _ _ _ _ _ _ _ _ _ _ _ _ _ _ _ _ _ _ _). Qed.
Print Assumptions C93_viterbi.

Example C93_score_applies :
  score categorical exact (lu_h 4 lu_pi lu_A lu_e "scaling") ex_x None = Ok (xln (3 / 128))
  /\ score categorical exact (lu_h 4 lu_pi lu_A lu_e "log") ex_x (as_lengths [2; 1]%nat)
     = score categorical exact (ex_h "log" "map") ex_x (as_lengths [2; 1]%nat).
Proof. exact (@C93_score_applies_l). Qed.

Example C93_posteriors_applies : exists p p', predict_proba categorical exact (ex_h "log" "map") ex_x None = Ok (fmat 3 2 p)
  /\ predict_proba categorical exact (lu_h 4 lu_pi lu_A lu_e "log") ex_x None = Ok (fmat 3 4 p')
  /\ forall t, (t < 3)%nat -> p t 0%nat = p' t 0%nat /\ p t 1%nat = p' t 1%nat + p' t 2%nat /\ p' t 3%nat = 0.
Proof. exact (@C93_posteriors_applies_l). Qed.

Example C93_viterbi_applies : exists lp z z', decode categorical exact (ex_h "log" "map") ex_x None (Some "viterbi"%string) = Ok (lp, z)
  /\ decode categorical exact (lu_h 3 lv_pi lv_A lv_e "log") ex_x None (Some "viterbi"%string) = Ok (lp, z')
  /\ (lp <> NInf -> best_path 2 ex_pi ex_A (cat_b ex_e) ex_x z').
Proof. exact (@C93_viterbi_applies_l). Qed.

