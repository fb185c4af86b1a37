(** * Properties C45, C55, C91: stationary distribution, rounding errors. *)
From Verif Require Import Round_thms Post_thms Post_ex Stat_thms.

(** The product of the reciprocals of the returned scaling factors is the
    likelihood up to [T * (nc + 3) + nc] rounding errors. *)
Theorem C55_scaling_factors u fp nc T pi A B lp fwd scs :
  0 <= u < 1 -> rel_err u fp -> (0 < nc)%nat -> (0 < T)%nat -> nonneg1 nc pi -> nonneg2 nc nc A -> nonneg2 T nc B ->
  forward_scaling fp (fvec nc pi) (fmat nc nc A) (fmat T nc B) = Ok (lp, fwd, scs) ->
  exists ss, scs = map Fin ss /\ length ss = T /\ Forall (Rlt 0) ss /\ 0 < likelihood nc T pi A B
    /\ within u (T * (nc + 3) + nc) (likelihood nc T pi A B) (prodL Rinv ss).
Proof. exact (@C55_scaling_factors_l _ _ _ _ _ _ _ _ _ _). Qed.
Print Assumptions C55_scaling_factors.

(** As a relative error. *)
Theorem C55_relative_error u fp nc T pi A B lp fwd scs :
  0 <= u < 1 -> rel_err u fp -> (0 < nc)%nat -> (0 < T)%nat -> nonneg1 nc pi -> nonneg2 nc nc A -> nonneg2 T nc B ->
  forward_scaling fp (fvec nc pi) (fmat nc nc A) (fmat T nc B) = Ok (lp, fwd, scs) ->
  exists ss, scs = map Fin ss /\ length ss = T
    /\ Rabs (prodL Rinv ss - likelihood nc T pi A B)
       <= ((1 + u / (1 - u)) ^ (T * (nc + 3) + nc) - 1) * likelihood nc T pi A B.
Proof. exact (@C55_relative_error_l _ _ _ _ _ _ _ _ _ _). Qed.
Print Assumptions C55_relative_error.

(** The returned value of [score]. *)
Theorem C55_score {P X St} (E : emclass P X St) u fp h h' nc pi A B x v :
  0 <= u < 1 -> rel_err u fp ->
  c_impl (h_cfg h) = "scaling"%string -> fitted_check E fp h = Ok (h', fvec nc pi, fmat nc nc A) ->
  check_array (ec_xok E) x = Ok x -> lik E fp h' x = Ok (fmat (length x) nc B) ->
  (0 < nc)%nat -> nonneg1 nc pi -> nonneg2 nc nc A -> nonneg2 (length x) nc B ->
  score E fp h x None = Ok v ->
  let T := length x in let k := (T * (nc + 3) + nc)%nat in
  exists r, v = Fin r /\ 0 < likelihood nc T pi A B
    /\ Rabs (r - ln (likelihood nc T pi A B))
       <= INR k * - ln (1 - u)
          + ((1 + u) ^ (T + 2) - 1) * sumn T (fun t => Rabs (ln (cond_lik nc pi A B t)) + 2 * INR k * - ln (1 - u)).
Proof. exact (@C55_score_l _ _ _ _ _ _ _ _ _ _ _ _ _ _). Qed.
Print Assumptions C55_score.

(** No underflow is reported if every conditional likelihood exceeds 1e-300 by a
    margin. *)
Theorem C55_returns u fp nc T pi A B :
  0 <= u < 1 -> rel_err u fp -> (0 < nc)%nat -> (0 < T)%nat -> nonneg1 nc pi -> nonneg2 nc nc A -> nonneg2 T nc B ->
  (forall t, (t < T)%nat -> / 10 ^ 300 <= cond_lik nc pi A B t * (1 - u) ^ (2 * (T * (nc + 3) + nc))) ->
  exists res, forward_scaling fp (fvec nc pi) (fmat nc nc A) (fmat T nc B) = Ok res.
Proof. exact (@C55_returns_l _ _ _ _ _ _ _). Qed.
Print Assumptions C55_returns.

Theorem C55_binary_precision : rel_err (/ 2 ^ 53) flx53.
Proof. exact (@C55_binary_precision_l). Qed.
Print Assumptions C55_binary_precision.

Example C55_applies : exists lp fwd ss,
  forward_scaling flx53 (fvec 2 ex_pi) (fmat 2 2 ex_A) (fmat 3 2 (obsB (cat_b ex_e) ex_x)) = Ok (lp, fwd, map Fin ss)
  /\ Rabs (prodL Rinv ss - 3/128) <= / 10 ^ 14.
Proof. exact (@C55_applies_l). Qed.

(** The entries returned by [predict_proba]. *)
Theorem C91_posteriors {P X St} (E : emclass P X St) u fp h h' nc pi A b ls x M :
  0 <= u < 1 -> rel_err u fp ->
  c_impl (h_cfg h) = "scaling"%string -> fitted_check E fp h = Ok (h', fvec nc pi, fmat nc nc A) ->
  (0 < nc)%nat -> nonneg1 nc pi -> nonneg2 nc nc A -> good_lengths ls x ->
  (forall s, In s (chunks ls x) -> lik E fp h' s = Ok (fmat (length s) nc (obsB b s)) /\ nonneg2 (length s) nc (obsB b s)) ->
  predict_proba E fp h x (as_lengths ls) = Ok M ->
  exists Q : list X -> nat -> nat -> R,
    M = Mat (c_nc (h_cfg h)) (flat_map (fun s => rows (fmat (length s) nc (Q s))) (chunks ls x))
    /\ forall s t, In s (chunks ls x) -> (t < length s)%nat ->
         0 < seq_lik nc pi A b s
         /\ within u (nc + 1) 1 (sumn nc (Q s t))
         /\ forall i, (i < nc)%nat -> 0 <= Q s t i /\ within u (2 * (length s * (nc + 3)) + nc + 3) (seq_post nc pi A b s t i) (Q s t i).
Proof. exact (@C91_posteriors_l _ _ _ _ _ _ _ _ _ _ _ _ _ _ _). Qed.
Print Assumptions C91_posteriors.

(** The states chosen by MAP decoding. *)
Theorem C91_map {P X St} (E : emclass P X St) u fp h h' nc pi A b ls x v z :
  0 <= u < 1 -> rel_err u fp -> check_stable E fp ->
  c_impl (h_cfg h) = "scaling"%string -> fitted_check E fp h = Ok (h', fvec nc pi, fmat nc nc A) ->
  (0 < nc)%nat -> nonneg1 nc pi -> nonneg2 nc nc A -> good_lengths ls x ->
  (forall s, In s (chunks ls x) -> lik E fp h' s = Ok (fmat (length s) nc (obsB b s)) /\ nonneg2 (length s) nc (obsB b s)) ->
  decode E fp h x (as_lengths ls) (Some "map"%string) = Ok (v, z) ->
  exists Z : list X -> list nat, z = flat_map Z (chunks ls x)
    /\ forall s, In s (chunks ls x) -> length (Z s) = length s /\ forall t, (t < length s)%nat ->
         (nth t (Z s) 0 < nc)%nat
         /\ forall j, (j < nc)%nat ->
              seq_post nc pi A b s t j * (1 - u) ^ (2 * (2 * (length s * (nc + 3)) + nc + 3)) <= seq_post nc pi A b s t (nth t (Z s) 0%nat).
Proof. exact (@C91_map_l _ _ _ _ _ _ _ _ _ _ _ _ _ _ _ _). Qed.
Print Assumptions C91_map.

(** It returns if every conditional likelihood exceeds 1e-300 by a margin. *)
Theorem C91_returns {P X St} (E : emclass P X St) u fp h h' nc pi A b ls x :
  0 <= u < 1 -> rel_err u fp ->
  c_impl (h_cfg h) = "scaling"%string -> fitted_check E fp h = Ok (h', fvec nc pi, fmat nc nc A) ->
  (0 < nc)%nat -> nonneg1 nc pi -> nonneg2 nc nc A -> good_lengths ls x -> check_array (ec_xok E) x = Ok x ->
  (forall s, In s (chunks ls x) -> lik E fp h' s = Ok (fmat (length s) nc (obsB b s)) /\ nonneg2 (length s) nc (obsB b s)) ->
  (forall s t, In s (chunks ls x) -> (t < length s)%nat ->
     / 10 ^ 300 <= cond_lik nc pi A (obsB b s) t * (1 - u) ^ (2 * (length s * (nc + 3) + nc))) ->
  exists M, predict_proba E fp h x (as_lengths ls) = Ok M.
Proof. exact (@C91_returns_l _ _ _ _ _ _ _ _ _ _ _ _ _ _). Qed.
Print Assumptions C91_returns.

Theorem C91_categorical u fp h nc nf pi A e ls x M :
  0 <= u < 1 -> rel_err u fp -> cat_model h nc nf pi A e -> c_impl (h_cfg h) = "scaling"%string -> good_data (sym_ok nf) ls x ->
  predict_proba categorical fp h x (as_lengths ls) = Ok M ->
  exists Q : list Z -> nat -> nat -> R,
    M = Mat nc (flat_map (fun s => rows (fmat (length s) nc (Q s))) (chunks ls x))
    /\ forall s t, In s (chunks ls x) -> (t < length s)%nat ->
         0 < seq_lik nc pi A (cat_b e) s
         /\ within u (nc + 1) 1 (sumn nc (Q s t))
         /\ forall i, (i < nc)%nat -> 0 <= Q s t i /\ within u (2 * (length s * (nc + 3)) + nc + 3) (seq_post nc pi A (cat_b e) s t i) (Q s t i).
Proof. exact (@C91_categorical_l _ _ _ _ _ _ _ _ _ _ _). Qed.
Print Assumptions C91_categorical.

Theorem C91_categorical_map u fp h nc nf pi A e ls x v z :
  0 <= u < 1 -> rel_err u fp -> cat_model h nc nf pi A e -> c_impl (h_cfg h) = "scaling"%string -> good_data (sym_ok nf) ls x ->
  decode categorical fp h x (as_lengths ls) (Some "map"%string) = Ok (v, z) ->
  exists Z : list Z -> list nat, z = flat_map Z (chunks ls x)
    /\ forall s, In s (chunks ls x) -> length (Z s) = length s /\ forall t, (t < length s)%nat ->
         (nth t (Z s) 0 < nc)%nat
         /\ forall j, (j < nc)%nat ->
              seq_post nc pi A (cat_b e) s t j * (1 - u) ^ (2 * (2 * (length s * (nc + 3)) + nc + 3)) <= seq_post nc pi A (cat_b e) s t (nth t (Z s) 0%nat).
Proof. exact (@C91_categorical_map_l _ _ _ _ _ _ _ _ _ _ _ _). Qed.
Print Assumptions C91_categorical_map.

Example C91_applies : exists Q,
  predict_proba categorical flx53 (ex_h "scaling" "map") ex_x (as_lengths [3%nat]) = Ok (fmat 3 2 Q)
  /\ forall t i, (t < 3)%nat -> (i < 2)%nat -> Rabs (Q t i - seq_post 2 ex_pi ex_A (cat_b ex_e) ex_x t i) <= / 10 ^ 13.
Proof. exact (@C91_applies_l). Qed.

(** Any stochastic matrix: the result is invariant and sums to 1, or none of its
    entries is a number. *)
Theorem C45_invariant_or_nothing {P} eig (h : hmm P) n A :
  h_trans h = Some (mtab n n (fun i j => Fin (A i j))) -> (0 < n)%nat -> stochastic2 n n A -> eig_right eig n (fun i j => A j i) ->
  exists r, stationary eig exact h = Ok (inl r) /\ length r = n
  /\ ((exists p, r = tab n (fun i => Fin (p i)) /\ sumn n p = 1 /\ forall j, (j < n)%nat -> sumn n (fun i => p i * A i j) = p j)
      \/ forall x, In x r -> xisfin x = false).
Proof. exact (@C45_invariant_or_nothing_l _ _ _ _ _). Qed.
Print Assumptions C45_invariant_or_nothing.

(** A unique stationary distribution is returned. *)
Theorem C45_unique {P} eig (h : hmm P) n A p :
  h_trans h = Some (mtab n n (fun i j => Fin (A i j))) -> (0 < n)%nat -> stochastic2 n n A -> eig_right eig n (fun i j => A j i) ->
  stationary_of n A p -> (forall q, stationary_of n A q -> forall i, (i < n)%nat -> q i = p i) ->
  stationary eig exact h = Ok (inl (tab n (fun i => Fin (p i)))).
Proof. exact (@C45_unique_l _ _ _ _ _ _). Qed.
Print Assumptions C45_unique.

(** All states communicate: the result is the stationary distribution, positive
    in every state. *)
Theorem C45_irreducible {P} eig (h : hmm P) n A :
  h_trans h = Some (mtab n n (fun i j => Fin (A i j))) -> (0 < n)%nat -> stochastic2 n n A -> eig_right eig n (fun i j => A j i) ->
  irreducible n A ->
  exists p, stationary eig exact h = Ok (inl (tab n (fun i => Fin (p i)))) /\ stationary_of n A p /\ (forall i, (i < n)%nat -> 0 < p i)
  /\ forall q, stationary_of n A q -> forall i, (i < n)%nat -> q i = p i.
Proof. exact (@C45_irreducible_l _ _ _ _ _). Qed.
Print Assumptions C45_irreducible.

Theorem C45_all_possible {P} eig (h : hmm P) n A :
  h_trans h = Some (mtab n n (fun i j => Fin (A i j))) -> (0 < n)%nat -> stochastic2 n n A -> eig_right eig n (fun i j => A j i) ->
  (forall i j, (i < n)%nat -> (j < n)%nat -> 0 < A i j) ->
  exists p, stationary eig exact h = Ok (inl (tab n (fun i => Fin (p i)))) /\ stochastic1 n p
  /\ forall j, (j < n)%nat -> sumn n (fun i => p i * A i j) = p j.
Proof. exact (@C45_all_possible_l _ _ _ _ _). Qed.
Print Assumptions C45_all_possible.

Example C45_applies : exists eig, eig_right eig 2 (fun i j => st_A j i) /\ stochastic2 2 2 st_A /\ irreducible 2 st_A
  /\ stationary eig exact (st_h st_A) = Ok (inl [Fin (1 / 3); Fin (2 / 3)]).
Proof. exact (@C45_applies_l). Qed.

(** Two closed classes: nothing in the specification of eigenvectors rules out
    (1, -1), whose sum is 0. *)
Theorem C45_reducible_refuted : exists eig A, eig_right eig 2 (fun i j => A j i) /\ stochastic2 2 2 A
  /\ exists r, stationary eig exact (st_h A) = Ok (inl r) /\ r <> [] /\ forall x, In x r -> xisfin x = false.
Proof. exact (@C45_reducible_refuted_l). Qed.
Print Assumptions C45_reducible_refuted.

