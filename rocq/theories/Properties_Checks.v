(** * Properties C11, C12, C27, C28, C30, C44, C51, C52, C54.  Theorems only;
    vocabulary in Spec_checks.v, proofs in Checks_thms.v and Checks2_thms.v. *)
From Verif Require Import Checks2_thms.

(** ** C11: relabelling the states. *)
Theorem C11_score {P X St P2 St2 : Type} (E : emclass P X St) (E2 : emclass P2 X St2) h h2 nc pi A ok b s x :
  permutes nc s -> ready E h nc pi A ok b ->
  ready E2 h2 nc (fun i => pi (s i)) (fun i j => A (s i) (s j)) ok (fun o i => b o (s i)) ->
  x <> [] -> Forall ok x -> c_impl (h_cfg h) = "log"%string -> c_impl (h_cfg h2) = "log"%string ->
  score E2 exact h2 x None = score E exact h x None.
Proof. exact (fun Hs R1 R2 => relabel_score E E2 h h2 nc pi A ok b s Hs R1 R2 x). Qed.
Print Assumptions C11_score.

Theorem C11_posteriors {P X St P2 St2 : Type} (E : emclass P X St) (E2 : emclass P2 X St2) h h2 nc pi A ok b s x :
  permutes nc s -> ready E h nc pi A ok b ->
  ready E2 h2 nc (fun i => pi (s i)) (fun i j => A (s i) (s j)) ok (fun o i => b o (s i)) ->
  x <> [] -> Forall ok x -> c_impl (h_cfg h) = "log"%string -> c_impl (h_cfg h2) = "log"%string ->
  0 < seq_lik nc pi A b x ->
  exists g g', predict_proba E exact h x None = Ok (fmat (length x) nc g)
    /\ predict_proba E2 exact h2 x None = Ok (fmat (length x) nc g')
    /\ forall t i, (t < length x)%nat -> (i < nc)%nat -> g' t i = g t (s i).
Proof. exact (fun Hs R1 R2 => relabel_post E E2 h h2 nc pi A ok b s Hs R1 R2 x). Qed.
Print Assumptions C11_posteriors.

(** Same optimal value; each decoded path is optimal for the other model too
    (ties may be broken differently). *)
Theorem C11_viterbi {P X St P2 St2 : Type} (E : emclass P X St) (E2 : emclass P2 X St2) h h2 nc pi A ok b s x :
  permutes nc s -> ready E h nc pi A ok b ->
  ready E2 h2 nc (fun i => pi (s i)) (fun i j => A (s i) (s j)) ok (fun o i => b o (s i)) ->
  x <> [] -> Forall ok x ->
  exists v z z', decode E exact h x None (Some "viterbi"%string) = Ok (v, z)
    /\ decode E2 exact h2 x None (Some "viterbi"%string) = Ok (v, z')
    /\ best_path nc pi A b x z /\ best_path nc pi A b x (map s z').
Proof. exact (fun Hs R1 R2 => relabel_viterbi E E2 h h2 nc pi A ok b s Hs R1 R2 x). Qed.
Print Assumptions C11_viterbi.

Example C11_applies : permutes 2 swap2 /\ swap2 0 <> 0%nat
  /\ ready categorical (ex_h "log" "viterbi") 2 ex_pi ex_A (sym_ok 3) (cat_b ex_e)
  /\ ready categorical swapped_h 2 (fun i => ex_pi (swap2 i)) (fun i j => ex_A (swap2 i) (swap2 j))
       (sym_ok 3) (fun o i => cat_b ex_e o (swap2 i))
  /\ 0 < seq_lik 2 ex_pi ex_A (cat_b ex_e) ex_x.
Proof. exact ex_relabel. Qed.

(** ** C12: likelihoods form a distribution. *)
Theorem C12_sums_to_one h nc nf pi A e T :
  cat_stochastic h nc nf pi A e -> c_impl (h_cfg h) = "log"%string -> (0 < T)%nat ->
  sumL (exp_score h) (all_paths nf T) = 1.
Proof. exact (@exp_scores_sum h nc nf pi A e T). Qed.
Print Assumptions C12_sums_to_one.

Theorem C12_score_decreases h nc nf pi A e x y :
  cat_stochastic h nc nf pi A e -> c_impl (h_cfg h) = "log"%string -> x <> [] -> Forall (sym_ok nf) (x ++ y) ->
  exists v w, score categorical exact h x None = Ok v /\ score categorical exact h (x ++ y) None = Ok w
    /\ xle w v /\ xle v (Fin 0).
Proof. exact (@score_extend h nc nf pi A e x y). Qed.
Print Assumptions C12_score_decreases.

Example C12_applies : cat_stochastic (ex_h "log" "viterbi") 2 3 ex_pi ex_A ex_e.
Proof. exact (ex_stochastic _ _). Qed.

(** ** C27: validation. *)
Theorem C27_validation nc s t : wf_mat t ->
  (base_check exact nc s t = Ok tt <-> sums_to_1 nc s /\ rows_sum_to_1 nc t)
  /\ (base_check exact nc s t <> Ok tt -> exists w, base_check exact nc s t = Err (ValueError w)).
Proof. exact (@base_check_iff nc s t). Qed.
Print Assumptions C27_validation.

Theorem C27_methods_reject {P X St} (E : emclass P X St) h s t :
  h_start h = Some s -> h_trans h = Some t -> wf_mat t ->
  ~ (sums_to_1 (c_nc (h_cfg h)) s /\ rows_sum_to_1 (c_nc (h_cfg h)) t) ->
  exists w,
    (forall x ls post, score_ E exact h x ls post = Err (ValueError w))
    /\ (forall x ls alg, decode E exact h x ls alg = Err (ValueError w))
    /\ (forall G Y (rand : G -> R * G) (gen : hmm P -> Z -> G -> res (Y * G)) n cs g,
          sample E exact rand gen h n cs g = Err (ValueError w))
    /\ (forall x ls, fit_from E exact h x ls = Err (ValueError w)).
Proof. exact (@methods_reject P X St E h s t). Qed.
Print Assumptions C27_methods_reject.

Theorem C27_valid_accepted n p A : stochastic1 n p -> stochastic2 n n A ->
  sums_to_1 n (fvec n p) /\ rows_sum_to_1 n (fmat n n A).
Proof. exact (fun H1 H2 => conj (stochastic_accepted n p H1) (stochastic_rows_accepted n A H2)). Qed.
Print Assumptions C27_valid_accepted.

(** Finding: probabilities are not required to be non-negative. *)
Theorem C27_negative_probabilities_refuted : exists h p h', h_start h = Some (fvec 2 p) /\ p 1%nat < 0
  /\ check categorical exact h = Ok h'.
Proof. exact neg_accepted. Qed.
Print Assumptions C27_negative_probabilities_refuted.

Example C27_applies : ~ (sums_to_1 2 (fvec 2 (fun _ => 1)) /\ rows_sum_to_1 2 (fmat 2 2 ex_A)).
Proof. exact ex_bad_start. Qed.

(** ** C28: using a model after fit. *)
(** Finding: a successful fit can leave a model every method rejects. *)
Theorem C28_fit_then_use_refuted : exists h x ls h' ev w,
  fit_from categorical exact h x (as_lengths ls) = Ok (h', ev)
  /\ score categorical exact h' x (as_lengths ls) = Err (ValueError w)
  /\ predict categorical exact h' x (as_lengths ls) = Err (ValueError w).
Proof. exact fit_then_reject. Qed.
Print Assumptions C28_fit_then_use_refuted.

(** In every class, fitting transmat_ on sequences of one sample each. *)
Theorem C28_single_samples {P X St} (E : emclass P X St) ls x h h' ev : one_row_each E ->
  ls <> [] -> fold_right Nat.add 0%nat ls = length x -> Forall (fun n => n = 1%nat) ls ->
  c_tprior (h_cfg h) = Scal (Fin 1) -> has "t" (c_params (h_cfg h)) = true ->
  (0 < c_n_iter (h_cfg h))%nat -> (0 < c_nc (h_cfg h))%nat ->
  fit_from E exact h x (as_lengths ls) = Ok (h', ev) ->
  exists w,
    (forall x ls post, score_ E exact h' x ls post = Err (ValueError w))
    /\ (forall x ls alg, decode E exact h' x ls alg = Err (ValueError w))
    /\ (forall G Y (rand : G -> R * G) (gen : hmm P -> Z -> G -> res (Y * G)) n cs g,
          sample E exact rand gen h' n cs g = Err (ValueError w))
    /\ (forall x ls, fit_from E exact h' x ls = Err (ValueError w)).
Proof. exact (fun H1 H2 H3 H4 => fit_no_pairs E H1 ls x H2 H3 H4 h h' ev). Qed.
Print Assumptions C28_single_samples.

(** When exactly a fitted CategoricalHMM passes validation again. *)
Theorem C28_usable_iff h nc nf pi A e sp tp ep ls x h' ev :
  cat_model h nc nf pi A e -> cat_priors h nc nf sp tp ep ->
  good_data (sym_ok nf) ls x -> possible nc pi A (cat_b e) ls x -> (0 < c_n_iter (h_cfg h))%nat ->
  has "s" (c_params (h_cfg h)) = true -> has "t" (c_params (h_cfg h)) = true -> has "e" (c_params (h_cfg h)) = true ->
  fit_from categorical exact h x (as_lengths ls) = Ok (h', ev) ->
  exists pi' A' e', h_start h' = Some (fvec nc pi') /\ h_trans h' = Some (fmat nc nc A')
    /\ cat_prob (h_em h') = Some (fmat nc nf e')
    /\ ((exists h'', check categorical exact h' = Ok h'')
        <-> forall i, (i < nc)%nat -> some_nonzero nc (A' i) /\ some_nonzero nf (e' i)).
Proof. exact (@fitted_check_iff h nc nf pi A e sp tp ep ls x h' ev). Qed.
Print Assumptions C28_usable_iff.

Example C28_applies : good_data (sym_ok 3) [1; 1; 1]%nat ex_x
  /\ possible 2 ex_pi ex_A (cat_b ex_e) [1; 1; 1]%nat ex_x /\ one_row_each categorical.
Proof. exact (conj ex_ones (conj ex_ones_possible cat_one_row)). Qed.

(** ** C30: categorical symbols. *)
Theorem C30_exact_lookup fp c nf nfe nc e prior x : Forall (sym_ok nf) x ->
  cat_lik fp c nfe (Catp prior (Some (fmat nc nf e))) x
  = Ok (fmat (length x) nc (fun t i => e i (Z.to_nat (nth t x 0%Z)))).
Proof. exact (@cat_lookup fp c nf nfe nc e prior x). Qed.
Print Assumptions C30_exact_lookup.

Theorem C30_out_of_range h nc nf pi A e x alg : cat_model h nc nf pi A e ->
  x <> [] -> Exists (fun k => ~ indexable nf k) x ->
  (c_impl (h_cfg h) = "log"%string \/ c_impl (h_cfg h) = "scaling"%string) ->
  (alg = "viterbi"%string \/ alg = "map"%string) ->
  score categorical exact h x None = Err IndexError
  /\ predict_proba categorical exact h x None = Err IndexError
  /\ decode categorical exact h x None (Some alg) = Err IndexError.
Proof. exact (fun CM => symbols_out h nc nf pi A e CM x alg). Qed.
Print Assumptions C30_out_of_range.

(** Finding: symbols -nf .. -1 are accepted and read other columns. *)
Theorem C30_negative_symbols h nc nf pi A e x : cat_model h nc nf pi A e ->
  x <> [] -> Forall (indexable nf) x ->
  score categorical exact h x None = score categorical exact h (map (wrapped nf) x) None
  /\ Forall (sym_ok nf) (map (wrapped nf) x).
Proof. exact (fun CM => symbols_wrap h nc nf pi A e CM x). Qed.
Print Assumptions C30_negative_symbols.

Theorem C30_rejects_negative_refuted : exists h x v, (exists k, In k x /\ (k < 0)%Z)
  /\ score categorical exact h x None = Ok v /\ v <> NInf.
Proof. exact negative_accepted. Qed.
Print Assumptions C30_rejects_negative_refuted.

Example C30_applies : cat_model (ex_h "log" "viterbi") 2 3 ex_pi ex_A ex_e
  /\ Forall (sym_ok 3) ex_x /\ Exists (fun k => ~ indexable 3 k) [0; 3]%Z.
Proof. exact ex_symbols. Qed.

(** ** C44: normalisation helpers. *)
Theorem C44_normalize n w : sumn n w <> 0 ->
  exists v, normalize1 exact (fvec n w) = fvec n v /\ sumn n v = 1
    /\ forall i, (i < n)%nat -> v i * sumn n w = w i.
Proof. exact (@normalize1_contract n w). Qed.
Print Assumptions C44_normalize.

Theorem C44_normalize_rows r c w : exists v, normalize_rows exact (fmat r c w) = fmat r c v
  /\ forall i, (i < r)%nat ->
      (sumn c (w i) <> 0 -> sumn c (v i) = 1 /\ forall j, (j < c)%nat -> v i j * sumn c (w i) = w i j)
      /\ (sumn c (w i) = 0 -> forall j, (j < c)%nat -> v i j = w i j).
Proof. exact (@normalize_rows_contract r c w). Qed.
Print Assumptions C44_normalize_rows.

Theorem C44_log_normalize r c f : (1 < c)%nat -> nonneg2 r c f ->
  (forall i, (i < r)%nat -> 0 < sumn c (f i)) ->
  exists g, log_normalize_rows exact (lmat r c f) = lmat r c g
    /\ forall i, (i < r)%nat -> nonneg1 c (g i) /\ sumn c (g i) = 1
        /\ (forall j, (j < c)%nat -> xexp exact (mget (lmat r c g) i j) = Fin (g i j))
        /\ (forall j k, (j < c)%nat -> (k < c)%nat -> 0 < f i j -> 0 < f i k ->
              ln (g i j) - ln (g i k) = ln (f i j) - ln (f i k)).
Proof. exact (@log_normalize_contract r c f). Qed.
Print Assumptions C44_log_normalize.

Theorem C44_log_normalize_single_column r f :
  log_normalize_rows exact (lmat r 1 f) = mtab r 1 (fun _ _ => Fin 0).
Proof. exact (@log_normalize_single r f). Qed.
Print Assumptions C44_log_normalize_single_column.

Example C44_applies : sumn 2 ex_pi <> 0 /\ nonneg2 2 3 ex_e /\ forall i, (i < 2)%nat -> 0 < sumn 3 (ex_e i).
Proof. exact ex_normalize. Qed.

(** ** C51: inference leaves the model alone. *)
Theorem C51_parameters_unchanged {P X St} (E : emclass P X St) fp h : check_stable E fp ->
  let h' := after_call E fp h in
  h_cfg h' = h_cfg h /\ h_start h' = h_start h /\ h_trans h' = h_trans h /\ h_mon h' = h_mon h
  /\ fitted_check E fp h' = fitted_check E fp h.
Proof. exact (@after_same P X St E fp h). Qed.
Print Assumptions C51_parameters_unchanged.

Theorem C51_repeated_calls {P X St} (E : emclass P X St) fp h : check_stable E fp ->
  let h' := after_call E fp h in
  (forall x ls, score E fp h' x ls = score E fp h x ls)
  /\ (forall x ls, score_samples E fp h' x ls = score_samples E fp h x ls)
  /\ (forall x ls, predict_proba E fp h' x ls = predict_proba E fp h x ls)
  /\ (forall x ls alg, decode E fp h' x ls alg = decode E fp h x ls alg)
  /\ (forall x ls, predict E fp h' x ls = predict E fp h x ls).
Proof. exact (@after_results P X St E fp h). Qed.
Print Assumptions C51_repeated_calls.

Theorem C51_categorical fp : check_stable categorical fp
  /\ forall c nf p nf' p', ec_check categorical fp c nf p = Ok (nf', p') -> p' = p /\ (nf' = nf \/ nf = None).
Proof. exact (conj (cat_stable fp) (@cat_check_same fp)). Qed.
Print Assumptions C51_categorical.

(** ** C52: names. *)
Theorem C52_unknown_algorithm {P X St} (E : emclass P X St) h nc pi A ok b x ls alg :
  ready E h nc pi A ok b -> effective h alg <> "viterbi"%string -> effective h alg <> "map"%string ->
  decode E exact h x ls alg = Err (ValueError "Unknown decoder").
Proof. exact (fun Rd => decode_unknown E h nc pi A ok b Rd x ls alg). Qed.
Print Assumptions C52_unknown_algorithm.

Theorem C52_known_algorithms {P X St} (E : emclass P X St) h nc pi A ok b x ls alg :
  ready E h nc pi A ok b -> good_data ok ls x ->
  (effective h alg = "viterbi"%string -> exists r, decode E exact h x (as_lengths ls) alg = Ok r)
  /\ (effective h alg = "map"%string ->
       (forall c, In c (chunks ls x) -> scorable nc pi A b (c_impl (h_cfg h)) c) ->
       exists r, decode E exact h x (as_lengths ls) alg = Ok r).
Proof.
  exact (fun Rd Hd => conj (decode_known_viterbi E h nc pi A ok b Rd x ls alg Hd)
                           (decode_known_map E h nc pi A ok b Rd x ls alg Hd)).
Qed.
Print Assumptions C52_known_algorithms.

Theorem C52_unknown_implementation {P X St} (E : emclass P X St) h nc pi A ok b :
  ready E h nc pi A ok b ->
  c_impl (h_cfg h) <> "log"%string -> c_impl (h_cfg h) <> "scaling"%string ->
  (forall x ls post, x <> [] -> Forall ok x -> score_ E exact h x ls post = Err KeyError)
  /\ (forall x ls, (0 < c_n_iter (h_cfg h))%nat -> fit_from E exact h x ls = Err KeyError).
Proof.
  exact (fun Rd H1 H2 => conj (fun x ls post Hx Ho => score_unknown_impl E h nc pi A ok b Rd x ls post Hx Ho H1 H2)
                              (fun x ls Hn => fit_unknown_impl E h nc pi A ok b Rd x ls Hn H1 H2)).
Qed.
Print Assumptions C52_unknown_implementation.

(** Finding: [decode(algorithm="viterbi")] (hence the default [predict]) accepts
    any [implementation]. *)
Theorem C52_implementation_checked_refuted : exists h r,
  c_impl (h_cfg h) <> "log"%string /\ c_impl (h_cfg h) <> "scaling"%string
  /\ predict categorical exact h ex_x None = Ok r.
Proof. exact predict_any_impl. Qed.
Print Assumptions C52_implementation_checked_refuted.

Example C52_applies : ready categorical (ex_h "fast" "beam") 2 ex_pi ex_A (sym_ok 3) (cat_b ex_e)
  /\ effective (ex_h "fast" "beam") None = "beam"%string
  /\ effective (ex_h "fast" "beam") (Some "map"%string) = "map"%string.
Proof. exact (conj (ex_ready _ _) (conj eq_refl eq_refl)). Qed.

(** ** C54: shapes. *)
Theorem C54_shape_mismatch fp s t fr : ~ fits s t fr ->
  forward_scaling fp s t fr = Err (ValueError "shape mismatch")
  /\ forward_log fp s t fr = Err (ValueError "shape mismatch")
  /\ (forall sc, backward_scaling fp s t fr sc = Err (ValueError "shape mismatch"))
  /\ backward_log fp s t fr = Err (ValueError "shape mismatch")
  /\ viterbi fp s t fr = Err (ValueError "shape mismatch").
Proof. exact (@kernels_mismatch fp s t fr). Qed.
Print Assumptions C54_shape_mismatch.

Theorem C54_xi_shape_mismatch fp fwd t bwd fr : ~ xi_fits fwd t bwd fr ->
  compute_scaling_xi_sum fp fwd t bwd fr = Err (ValueError "shape mismatch")
  /\ compute_log_xi_sum fp fwd t bwd fr = Err (ValueError "shape mismatch").
Proof. exact (@xi_mismatch fp fwd t bwd fr). Qed.
Print Assumptions C54_xi_shape_mismatch.

Theorem C54_shapes_match fp s t fr : fits s t fr -> (0 < nrow fr)%nat ->
  (exists r, forward_log fp s t fr = Ok r) /\ (exists r, backward_log fp s t fr = Ok r)
  /\ (exists r, viterbi fp s t fr = Ok r)
  /\ (forall sc, length sc = nrow fr -> exists r, backward_scaling fp s t fr sc = Ok r)
  /\ ((exists r, forward_scaling fp s t fr = Ok r) \/ forward_scaling fp s t fr = Err (ValueError "underflow")).
Proof. exact (@kernels_match fp s t fr). Qed.
Print Assumptions C54_shapes_match.

(** Finding: a 0 in [lengths] hands an empty array to the native kernels, which
    then read outside it. *)
Theorem C54_zero_length {P X St} (E : emclass P X St) h nc pi A ok b ls x :
  ready E h nc pi A ok b -> c_impl (h_cfg h) = "log"%string -> x <> [] -> Forall ok x ->
  fold_right Nat.add 0%nat ls = length x -> In 0%nat ls ->
  score E exact h x (as_lengths ls) = Err UB.
Proof. exact (fun Rd => zero_length_ub E h nc pi A ok b Rd ls x). Qed.
Print Assumptions C54_zero_length.

Theorem C54_zero_length_refuted : exists h x ls, In 0%nat ls /\ fold_right Nat.add 0%nat ls = length x
  /\ score categorical exact h x (as_lengths ls) = Err UB.
Proof. exact zero_length_witness. Qed.
Print Assumptions C54_zero_length_refuted.

Example C54_applies : fits (fvec 2 ex_pi) (fmat 2 2 ex_A) (fmat 3 2 ex_A)
  /\ ~ fits (fvec 3 ex_pi) (fmat 2 2 ex_A) (fmat 3 2 ex_A).
Proof. exact ex_fits. Qed.
