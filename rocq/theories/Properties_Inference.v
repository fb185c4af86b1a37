(** * Properties C01-C10, C53: inference. *)
From Verif Require Import Inference_thms.

(** ** C01: Viterbi decoding is optimal. *)
Theorem C01_viterbi_optimal {P X St} (E : emclass P X St) h nc pi A ok b x alg :
  ready E h nc pi A ok b -> x <> [] -> Forall ok x ->
  (alg = Some "viterbi"%string \/ (alg = None /\ c_algorithm (h_cfg h) = "viterbi"%string)) ->
  exists z, decode E exact h x None alg = Ok (xln (seq_joint pi A b x z), z)
    /\ is_path nc (length x) z
    /\ forall z', is_path nc (length x) z' -> seq_joint pi A b x z' <= seq_joint pi A b x z.
Proof. exact (@C01_viterbi_optimal_l _ _ _ _ _ _ _ _ _ _ _ _). Qed.
Print Assumptions C01_viterbi_optimal.

Example C01_applies :
  exists z, decode categorical exact (ex_h "log" "map") ex_x None (Some "viterbi"%string)
            = Ok (xln (seq_joint ex_pi ex_A (cat_b ex_e) ex_x z), z)
    /\ is_path 2 3 z
    /\ forall z', is_path 2 3 z' ->
         seq_joint ex_pi ex_A (cat_b ex_e) ex_x z' <= seq_joint ex_pi ex_A (cat_b ex_e) ex_x z.
Proof. exact (@C01_applies_l). Qed.

(** With [lengths]: every sequence is decoded optimally. *)
Theorem C01_viterbi_optimal_lengths {P X St} (E : emclass P X St) h nc pi A ok b ls x alg :
  ready E h nc pi A ok b -> good_data ok ls x ->
  (alg = Some "viterbi"%string \/ (alg = None /\ c_algorithm (h_cfg h) = "viterbi"%string)) ->
  exists zs, decode E exact h x (as_lengths ls) alg
     = Ok (xln (prodL2 (seq_joint pi A b) (chunks ls x) zs), concat zs)
    /\ Forall2 (best_path nc pi A b) (chunks ls x) zs.
Proof. exact (@C01_viterbi_optimal_lengths_l _ _ _ _ _ _ _ _ _ _ _ _ _). Qed.
Print Assumptions C01_viterbi_optimal_lengths.

Example C01_lengths_applies : good_data (sym_ok 3) [2; 1]%nat ex_x.
Proof. exact (@C01_lengths_applies_l). Qed.

(** ** C02: score is the logarithm of the sum over all state paths. *)
Theorem C02_score_is_log_likelihood {P X St} (E : emclass P X St) h nc pi A ok b x :
  ready E h nc pi A ok b -> c_impl (h_cfg h) = "log"%string -> x <> [] -> Forall ok x ->
  score E exact h x None
    = Ok (xln (sumL (seq_joint pi A b x) (all_paths nc (length x))))
  /\ (score E exact h x None = Ok NInf
      <-> forall z, is_path nc (length x) z -> seq_joint pi A b x z = 0).
Proof. exact (@C02_score_is_log_likelihood_l _ _ _ _ _ _ _ _ _ _ _). Qed.
Print Assumptions C02_score_is_log_likelihood.

(** ... and over several sequences, the product of their likelihoods. *)
Theorem C02_score_lengths {P X St} (E : emclass P X St) h nc pi A ok b ls x :
  ready E h nc pi A ok b -> c_impl (h_cfg h) = "log"%string -> good_data ok ls x ->
  score E exact h x (as_lengths ls) = Ok (xln (prodL (seq_lik nc pi A b) (chunks ls x))).
Proof. exact (@C02_score_lengths_l _ _ _ _ _ _ _ _ _ _ _ _). Qed.
Print Assumptions C02_score_lengths.

Example C02_applies : score categorical exact (ex_h "log" "map") ex_x None = Ok (xln (3/128)).
Proof. exact (@C02_applies_l). Qed.

(** ** C03: the scaling implementation agrees with the log implementation, or
    raises exactly when a conditional likelihood is below 1e-300. *)
Theorem C03_scaling_agrees {P X St} (E : emclass P X St) h1 h2 nc pi A ok b x :
  ready E h1 nc pi A ok b -> c_impl (h_cfg h1) = "scaling"%string ->
  ready E h2 nc pi A ok b -> c_impl (h_cfg h2) = "log"%string ->
  x <> [] -> Forall ok x ->
  (seq_no_underflow nc pi A b x -> score E exact h1 x None = score E exact h2 x None)
  /\ (~ seq_no_underflow nc pi A b x -> score E exact h1 x None = Err (ValueError "underflow")).
Proof. exact (@C03_scaling_agrees_l _ _ _ _ _ _ _ _ _ _ _ _). Qed.
Print Assumptions C03_scaling_agrees.

Example C03_applies : score categorical exact (ex_h "scaling" "map") ex_x None
                      = score categorical exact (ex_h "log" "map") ex_x None.
Proof. exact (@C03_applies_l). Qed.

(** An underflowing case: a sequence of probability zero. *)
Example C03_underflow_applies : ~ seq_no_underflow 2 ex_pi ex_A (cat_b ex_e) [2; 0]%Z.
Proof. exact (@C03_underflow_applies_l). Qed.

(** ** C04: predict_proba is the path-sum posterior. *)
Theorem C04_posteriors {P X St} (E : emclass P X St) h nc pi A ok b x :
  ready E h nc pi A ok b -> x <> [] -> Forall ok x ->
  scorable nc pi A b (c_impl (h_cfg h)) x ->
  predict_proba E exact h x None = Ok (fmat (length x) nc (fun t i =>
    sumL (seq_joint pi A b x)
         (filter (fun z => Nat.eqb (nth t z 0%nat) i) (all_paths nc (length x)))
    / sumL (seq_joint pi A b x) (all_paths nc (length x)))).
Proof. exact (@C04_posteriors_l _ _ _ _ _ _ _ _ _ _ _). Qed.
Print Assumptions C04_posteriors.

Theorem C04_posteriors_lengths {P X St} (E : emclass P X St) h nc pi A ok b ls x :
  ready E h nc pi A ok b -> good_data ok ls x ->
  (forall c, In c (chunks ls x) -> scorable nc pi A b (c_impl (h_cfg h)) c) ->
  predict_proba E exact h x (as_lengths ls)
  = Ok (Mat nc (flat_map (fun c => rows (fmat (length c) nc (seq_post nc pi A b c))) (chunks ls x))).
Proof. exact (@C04_posteriors_lengths_l _ _ _ _ _ _ _ _ _ _ _ _). Qed.
Print Assumptions C04_posteriors_lengths.

Example C04_applies : scorable 2 ex_pi ex_A (cat_b ex_e) "log" ex_x
                   /\ scorable 2 ex_pi ex_A (cat_b ex_e) "scaling" ex_x.
Proof. exact (@C04_applies_l). Qed.

(** ** C05: posterior rows are distributions; the zero-likelihood case. *)
Theorem C05_posterior_rows {P X St} (E : emclass P X St) h nc pi A ok b x :
  ready E h nc pi A ok b -> x <> [] -> Forall ok x ->
  (scorable nc pi A b (c_impl (h_cfg h)) x ->
     exists p, predict_proba E exact h x None = Ok (fmat (length x) nc p)
       /\ forall t, (t < length x)%nat ->
            sumn nc (p t) = 1 /\ forall i, (i < nc)%nat -> 0 <= p t i <= 1)
  /\ (c_impl (h_cfg h) = "log"%string -> seq_lik nc pi A b x = 0 ->
      predict_proba E exact h x None
      = Ok (mtab (length x) nc (fun _ _ => if Nat.eqb nc 1 then Fin 1 else NaN))).
Proof. exact (@C05_posterior_rows_l _ _ _ _ _ _ _ _ _ _ _). Qed.
Print Assumptions C05_posterior_rows.

Example C05_zero_applies : seq_lik 2 ex_pi ex_A (cat_b ex_e) [2; 0]%Z = 0.
Proof. exact (@C05_zero_applies_l). Qed.

(** ** C06: MAP decoding. *)
Theorem C06_map_decoding {P X St} (E : emclass P X St) h nc pi A ok b x alg :
  ready E h nc pi A ok b -> x <> [] -> Forall ok x ->
  (alg = Some "map"%string \/ (alg = None /\ c_algorithm (h_cfg h) = "map"%string)) ->
  scorable nc pi A b (c_impl (h_cfg h)) x ->
  exists z, decode E exact h x None alg
      = Ok (Fin (sumn (length x) (fun t => seq_post nc pi A b x t (nth t z 0%nat))), z)
    /\ length z = length x
    /\ forall t, (t < length x)%nat ->
         let i := nth t z 0%nat in
         (i < nc)%nat
         /\ (forall j, (j < nc)%nat -> seq_post nc pi A b x t j <= seq_post nc pi A b x t i)
         /\ (forall j, (j < i)%nat -> seq_post nc pi A b x t j < seq_post nc pi A b x t i).
Proof. exact (@C06_map_decoding_l _ _ _ _ _ _ _ _ _ _ _ _). Qed.
Print Assumptions C06_map_decoding.

Theorem C06_map_decoding_lengths {P X St} (E : emclass P X St) h nc pi A ok b ls x alg :
  ready E h nc pi A ok b -> good_data ok ls x ->
  (alg = Some "map"%string \/ (alg = None /\ c_algorithm (h_cfg h) = "map"%string)) ->
  (forall c, In c (chunks ls x) -> scorable nc pi A b (c_impl (h_cfg h)) c) ->
  exists zs, decode E exact h x (as_lengths ls) alg
     = Ok (Fin (sumL2 (map_value nc pi A b) (chunks ls x) zs), concat zs)
    /\ Forall2 (map_decoded nc pi A b) (chunks ls x) zs.
Proof. exact (@C06_map_decoding_lengths_l _ _ _ _ _ _ _ _ _ _ _ _ _). Qed.
Print Assumptions C06_map_decoding_lengths.

Example C06_applies :
  exists z, decode categorical exact (ex_h "scaling" "map") ex_x None None
      = Ok (Fin (map_value 2 ex_pi ex_A (cat_b ex_e) ex_x z), z)
    /\ map_decoded 2 ex_pi ex_A (cat_b ex_e) ex_x z.
Proof. exact (@C06_applies_l). Qed.

(** ** C07 (finding): the documented meaning of the MAP value is wrong for
    every discrete model and every sequence: the value is positive, while the
    log probability of any path is not. *)
Theorem C07_map_value_not_log_prob {P X St} (E : emclass P X St) h nc pi A ok b x v z :
  ready E h nc pi A ok b -> x <> [] -> Forall ok x ->
  (forall i, (i < nc)%nat -> pi i <= 1) ->
  (forall i j, (i < nc)%nat -> (j < nc)%nat -> A i j <= 1) ->
  (forall o i, ok o -> (i < nc)%nat -> b o i <= 1) ->
  scorable nc pi A b (c_impl (h_cfg h)) x ->
  decode E exact h x None (Some "map"%string) = Ok (v, z) ->
  xlt (Fin 0) v /\ xle (xln (seq_joint pi A b x z)) (Fin 0).
Proof. exact (@C07_map_value_not_log_prob_l _ _ _ _ _ _ _ _ _ _ _ _ _). Qed.
Print Assumptions C07_map_value_not_log_prob.

Theorem C07_map_log_prob_refuted :
  exists h x v z, decode categorical exact h x None (Some "map"%string) = Ok (v, z)
    /\ v <> xln (seq_joint ex_pi ex_A (cat_b ex_e) x z)
    /\ ready categorical h 2 ex_pi ex_A (sym_ok 3) (cat_b ex_e) /\ x <> [] /\ Forall (sym_ok 3) x.
Proof. exact (@C07_map_log_prob_refuted_l). Qed.
Print Assumptions C07_map_log_prob_refuted.

(** ** C08: best path <= total <= n_components^n_samples * best path. *)
Theorem C08_viterbi_score_sandwich {P X St} (E : emclass P X St) h nc pi A ok b ls x :
  ready E h nc pi A ok b -> c_impl (h_cfg h) = "log"%string -> good_data ok ls x ->
  exists v z s, decode E exact h x (as_lengths ls) (Some "viterbi"%string) = Ok (v, z)
    /\ score E exact h x (as_lengths ls) = Ok s
    /\ xle v s
    /\ xle s (xadd exact v (Fin (INR (length x) * ln (INR nc)))).
Proof. exact (@C08_viterbi_score_sandwich_l _ _ _ _ _ _ _ _ _ _ _ _). Qed.
Print Assumptions C08_viterbi_score_sandwich.

Example C08_applies : ready categorical (ex_h "log" "viterbi") 2 ex_pi ex_A (sym_ok 3) (cat_b ex_e)
  /\ good_data (sym_ok 3) [2; 1]%nat ex_x.
Proof. exact (@C08_applies_l). Qed.

(** ** C09: sequences are independent.  For every class, every model and every
    list of non-empty sequences: the call on the concatenation succeeds exactly
    when all individual calls do, and combines their results. *)
Theorem C09_score_independent {P X St} (E : emclass P X St) h (xs : list (list X)) :
  xs <> [] -> Forall (fun x => x <> []) xs ->
  (forall ps, Forall2 (fun x p => score_samples E exact h x None = Ok p) xs ps ->
     score_samples E exact h (concat xs) (as_lengths (map (@length X) xs))
     = Ok (xsum exact (map fst ps),
           Mat (c_nc (h_cfg h)) (flat_map (fun p => rows (snd p)) ps)))
  /\ (forall ss, Forall2 (fun x s => score E exact h x None = Ok s) xs ss ->
     score E exact h (concat xs) (as_lengths (map (@length X) xs)) = Ok (xsum exact ss))
  /\ (forall r, score E exact h (concat xs) (as_lengths (map (@length X) xs)) = Ok r ->
       exists ss, Forall2 (fun x s => score E exact h x None = Ok s) xs ss).
Proof. exact (@C09_score_independent_l _ _ _ _ _ _). Qed.
Print Assumptions C09_score_independent.

Theorem C09_decode_independent {P X St} (E : emclass P X St) h (xs : list (list X)) alg :
  xs <> [] -> Forall (fun x => x <> []) xs ->
  (forall ps, Forall2 (fun x p => decode E exact h x None alg = Ok p) xs ps ->
     decode E exact h (concat xs) (as_lengths (map (@length X) xs)) alg
     = Ok (xsum exact (map fst ps), concat (map snd ps)))
  /\ (forall r, decode E exact h (concat xs) (as_lengths (map (@length X) xs)) alg = Ok r ->
       exists ps, Forall2 (fun x p => decode E exact h x None alg = Ok p) xs ps).
Proof. exact (@C09_decode_independent_l _ _ _ _ _ _ _). Qed.
Print Assumptions C09_decode_independent.

Example C09_applies :
  exists ss, Forall2 (fun x s => score categorical exact (ex_h "log" "map") x None = Ok s)
               [[0; 1]; [2]]%Z ss.
Proof. exact (@C09_applies_l). Qed.

(** ** C10: splitting. *)
Theorem C10_split {X} (x : list X) (ls : list Z) :
  ls <> [] ->
  (split_X_lengths x (Some ls) = Err (ValueError "lengths")
     <-> fold_right Z.add 0%Z ls <> Z.of_nat (length x))
  /\ (fold_right Z.add 0%Z ls = Z.of_nat (length x) -> Forall (fun n => (0 <= n)%Z) ls ->
      exists ps, split_X_lengths x (Some ls) = Ok ps
        /\ concat ps = x /\ map (fun p => Z.of_nat (length p)) ps = ls)
  /\ split_X_lengths x None = Ok [x].
Proof. exact (@C10_split_l _ _ _). Qed.
Print Assumptions C10_split.

(** The rejection reaches the user through every method. *)
Theorem C10_score_decode_reject {P X St} (E : emclass P X St) h nc pi A ok b x ls :
  ready E h nc pi A ok b -> x <> [] -> Forall ok x -> ls <> [] ->
  fold_right Z.add 0%Z ls <> Z.of_nat (length x) ->
  (c_impl (h_cfg h) = "log"%string \/ c_impl (h_cfg h) = "scaling"%string) ->
  score E exact h x (Some ls) = Err (ValueError "lengths")
  /\ predict_proba E exact h x (Some ls) = Err (ValueError "lengths")
  /\ forall alg, In alg ["viterbi"; "map"]%string ->
       decode E exact h x (Some ls) (Some alg) = Err (ValueError "lengths").
Proof. exact (@C10_score_decode_reject_l _ _ _ _ _ _ _ _ _ _ _ _). Qed.
Print Assumptions C10_score_decode_reject.

Example C10_applies : split_X_lengths [1; 2; 3]%nat (Some [2; 1]%Z) = Ok [[1; 2]; [3]]%nat
                   /\ split_X_lengths [1; 2; 3]%nat (Some [2; 2]%Z) = Err (ValueError "lengths").
Proof. exact (@C10_applies_l). Qed.

(** Findings: an empty [lengths] raises IndexError, not ValueError; negative
    lengths are accepted and give pieces of other sizes. *)
Theorem C10_lengths_validation_refuted :
  (exists (x : list nat), split_X_lengths x (Some []) = Err IndexError)
  /\ exists (x : list nat) ls ps, split_X_lengths x (Some ls) = Ok ps
       /\ map (fun p => Z.of_nat (length p)) ps <> ls /\ fold_right Z.add 0%Z ls = Z.of_nat (length x).
Proof. exact (@C10_lengths_validation_refuted_l). Qed.
Print Assumptions C10_lengths_validation_refuted.

Theorem C53_viterbi_rounded {P X St} (E : emclass P X St) fp h h' sp tm lf nc x :
  monotone fp -> idempotent fp ->
  fitted_check E fp h = Ok (h', sp, tm) ->
  check_array (ec_xok E) x = Ok x ->
  loglik E fp h' x = Ok lf ->
  (0 < nc)%nat -> length sp = nc -> nrow tm = nc -> ncol tm = nc -> wf_mat tm ->
  nrow lf = length x -> ncol lf = nc -> wf_mat lf ->
  (forall z, is_path nc (length x) z -> good (path_score fp sp tm lf z)) ->
  exists z, decode E fp h x None (Some "viterbi"%string) = Ok (path_score fp sp tm lf z, z)
    /\ is_path nc (length x) z
    /\ forall z', is_path nc (length x) z' ->
         xle (path_score fp sp tm lf z') (path_score fp sp tm lf z).
Proof. exact (@C53_viterbi_rounded_l _ _ _ _ _ _ _ _ _ _ _ _). Qed.
Print Assumptions C53_viterbi_rounded.

Example C53_applies :
  exists z, decode categorical exact (ex_h "log" "map") ex_x None (Some "viterbi"%string)
    = Ok (path_score exact (fvec 2 ex_pi) (fmat 2 2 ex_A)
            (lmat 3 2 (obsB (cat_b ex_e) ex_x)) z, z).
Proof. exact (@C53_applies_l). Qed.

(** IEEE binary64 rounding to nearest even satisfies the hypotheses. *)
Theorem C53_binary64 : monotone b64 /\ idempotent b64.
Proof. exact (@C53_binary64_l). Qed.
Print Assumptions C53_binary64.

