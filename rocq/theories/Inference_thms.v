(** * Properties C01-C10, C53: inference. *)
From Verif Require Export Examples Float64.

(** ** C01: Viterbi decoding is optimal. *)
Lemma C01_viterbi_optimal_l {P X St} (E : emclass P X St) h nc pi A ok b x alg :
  ready E h nc pi A ok b -> x <> [] -> Forall ok x ->
  (alg = Some "viterbi"%string \/ (alg = None /\ c_algorithm (h_cfg h) = "viterbi"%string)) ->
  exists z, decode E exact h x None alg = Ok (xln (seq_joint pi A b x z), z)
    /\ is_path nc (length x) z
    /\ forall z', is_path nc (length x) z' -> seq_joint pi A b x z' <= seq_joint pi A b x z.
Proof. exact (fun Rd H1 H2 H3 => viterbi_single E h nc pi A ok b Rd x alg H1 H2 H3). Qed.

Lemma C01_applies_l :
  exists z, decode categorical exact (ex_h "log" "map") ex_x None (Some "viterbi"%string)
            = Ok (xln (seq_joint ex_pi ex_A (cat_b ex_e) ex_x z), z)
    /\ is_path 2 3 z
    /\ forall z', is_path 2 3 z' ->
         seq_joint ex_pi ex_A (cat_b ex_e) ex_x z' <= seq_joint ex_pi ex_A (cat_b ex_e) ex_x z.
Proof.
  refine (C01_viterbi_optimal_l _ _ _ _ _ _ _ _ _ (ex_ready "log" "map") _ ex_x_ok (or_introl eq_refl)).
  discriminate.
Qed.

(** With [lengths]: every sequence is decoded optimally. *)
Lemma C01_viterbi_optimal_lengths_l {P X St} (E : emclass P X St) h nc pi A ok b ls x alg :
  ready E h nc pi A ok b -> good_data ok ls x ->
  (alg = Some "viterbi"%string \/ (alg = None /\ c_algorithm (h_cfg h) = "viterbi"%string)) ->
  exists zs, decode E exact h x (as_lengths ls) alg
     = Ok (xln (prodL2 (seq_joint pi A b) (chunks ls x) zs), concat zs)
    /\ Forall2 (best_path nc pi A b) (chunks ls x) zs.
Proof. exact (fun Rd Hd Ha => decode_viterbi_spec E h nc pi A ok b Rd ls x alg Hd Ha). Qed.

Lemma C01_lengths_applies_l : good_data (sym_ok 3) [2; 1]%nat ex_x.
Proof. exact ex_good. Qed.

(** ** C02: score is the logarithm of the sum over all state paths. *)
Lemma C02_score_is_log_likelihood_l {P X St} (E : emclass P X St) h nc pi A ok b x :
  ready E h nc pi A ok b -> c_impl (h_cfg h) = "log"%string -> x <> [] -> Forall ok x ->
  score E exact h x None
    = Ok (xln (sumL (seq_joint pi A b x) (all_paths nc (length x))))
  /\ (score E exact h x None = Ok NInf
      <-> forall z, is_path nc (length x) z -> seq_joint pi A b x z = 0).
Proof.
  intros Rd Hi Hne Hx.
  pose proof (score_log_single E h nc pi A ok b Rd x Hi Hne Hx) as Hs.
  pose proof (seq_lik_nonneg E h nc pi A ok b Rd x Hne Hx) as H0.
  split; [exact Hs|]. rewrite Hs, <- (seq_lik_zero E h nc pi A ok b Rd x Hne Hx). split.
  - intros H. injection H as H. destruct (nonneg_cases _ H0) as [Hp|Hz]; [|exact Hz].
    rewrite xln_pos in H by exact Hp. discriminate.
  - intros ->. rewrite xln_0. reflexivity.
Qed.

(** ... and over several sequences, the product of their likelihoods. *)
Lemma C02_score_lengths_l {P X St} (E : emclass P X St) h nc pi A ok b ls x :
  ready E h nc pi A ok b -> c_impl (h_cfg h) = "log"%string -> good_data ok ls x ->
  score E exact h x (as_lengths ls) = Ok (xln (prodL (seq_lik nc pi A b) (chunks ls x))).
Proof. exact (fun Rd Hi Hd => score_log E h nc pi A ok b Rd ls x Hi Hd). Qed.

Lemma C02_applies_l : score categorical exact (ex_h "log" "map") ex_x None = Ok (xln (3/128)).
Proof.
  rewrite <- ex_lik.
  refine (score_log_single _ _ _ _ _ _ _ (ex_ready "log" "map") _ eq_refl _ ex_x_ok). discriminate.
Qed.

(** ** C03: the scaling implementation agrees with the log implementation, or
    raises exactly when a conditional likelihood is below 1e-300. *)
Lemma C03_scaling_agrees_l {P X St} (E : emclass P X St) h1 h2 nc pi A ok b x :
  ready E h1 nc pi A ok b -> c_impl (h_cfg h1) = "scaling"%string ->
  ready E h2 nc pi A ok b -> c_impl (h_cfg h2) = "log"%string ->
  x <> [] -> Forall ok x ->
  (seq_no_underflow nc pi A b x -> score E exact h1 x None = score E exact h2 x None)
  /\ (~ seq_no_underflow nc pi A b x -> score E exact h1 x None = Err (ValueError "underflow")).
Proof.
  intros R1 H1 R2 H2 Hne Hx. split; intros Hu.
  - rewrite (score_scaling_single E h1 nc pi A ok b R1 x H1 Hne Hx Hu).
    symmetry. exact (score_log_single E h2 nc pi A ok b R2 x H2 Hne Hx).
  - unfold score. rewrite (score_scaling_single_err E h1 nc pi A ok b R1 x false H1 Hne Hx Hu). reflexivity.
Qed.

Lemma C03_applies_l : score categorical exact (ex_h "scaling" "map") ex_x None
                      = score categorical exact (ex_h "log" "map") ex_x None.
Proof.
  refine (proj1 (C03_scaling_agrees_l _ _ _ _ _ _ _ _ _ (ex_ready "scaling" "map") eq_refl
            (ex_ready "log" "map") eq_refl _ ex_x_ok) ex_no_underflow). discriminate.
Qed.

(** An underflowing case: a sequence of probability zero. *)
Lemma C03_underflow_applies_l : ~ seq_no_underflow 2 ex_pi ex_A (cat_b ex_e) [2; 0]%Z.
Proof.
  intros H. specialize (H 1%nat ltac:(simpl; lia)).
  unfold seq_plik, seq_lik, likelihood, joint in H. simpl in H.
  unfold obsB, cat_b, ex_pi, ex_A, ex_e in H. simpl in H.
  assert (0 < / 10 ^ 300) by (apply Rinv_0_lt_compat, pow_lt; lra). simpl in H0.
  match type of H with ?a * ?c <= _ => assert (0 < a) by exact H0; nra end.
Qed.

(** ** C04: predict_proba is the path-sum posterior. *)
Lemma C04_posteriors_l {P X St} (E : emclass P X St) h nc pi A ok b x :
  ready E h nc pi A ok b -> x <> [] -> Forall ok x ->
  scorable nc pi A b (c_impl (h_cfg h)) x ->
  predict_proba E exact h x None = Ok (fmat (length x) nc (fun t i =>
    sumL (seq_joint pi A b x)
         (filter (fun z => Nat.eqb (nth t z 0%nat) i) (all_paths nc (length x)))
    / sumL (seq_joint pi A b x) (all_paths nc (length x)))).
Proof.
  intros Rd Hne Hx Hs. unfold predict_proba.
  rewrite (scorable_single_samples E h nc pi A ok b Rd x Hne Hx Hs). reflexivity.
Qed.

Lemma C04_posteriors_lengths_l {P X St} (E : emclass P X St) h nc pi A ok b ls x :
  ready E h nc pi A ok b -> good_data ok ls x ->
  (forall c, In c (chunks ls x) -> scorable nc pi A b (c_impl (h_cfg h)) c) ->
  predict_proba E exact h x (as_lengths ls)
  = Ok (Mat nc (flat_map (fun c => rows (fmat (length c) nc (seq_post nc pi A b c))) (chunks ls x))).
Proof.
  intros Rd Hd Hs. unfold predict_proba. rewrite (post_samples E h nc pi A ok b Rd ls x Hd Hs). reflexivity.
Qed.

Lemma C04_applies_l : scorable 2 ex_pi ex_A (cat_b ex_e) "log" ex_x
                   /\ scorable 2 ex_pi ex_A (cat_b ex_e) "scaling" ex_x.
Proof.
  split; [left|right]; (split; [reflexivity|]); [rewrite ex_lik; lra|exact ex_no_underflow].
Qed.

(** ** C05: posterior rows are distributions; the zero-likelihood case. *)
Lemma C05_posterior_rows_l {P X St} (E : emclass P X St) h nc pi A ok b x :
  ready E h nc pi A ok b -> x <> [] -> Forall ok x ->
  (scorable nc pi A b (c_impl (h_cfg h)) x ->
     exists p, predict_proba E exact h x None = Ok (fmat (length x) nc p)
       /\ forall t, (t < length x)%nat ->
            sumn nc (p t) = 1 /\ forall i, (i < nc)%nat -> 0 <= p t i <= 1)
  /\ (c_impl (h_cfg h) = "log"%string -> seq_lik nc pi A b x = 0 ->
      predict_proba E exact h x None
      = Ok (mtab (length x) nc (fun _ _ => if Nat.eqb nc 1 then Fin 1 else NaN))).
Proof.
  intros Rd Hne Hx. split.
  - intros Hs. exists (seq_post nc pi A b x). split.
    + unfold predict_proba. rewrite (scorable_single_samples E h nc pi A ok b Rd x Hne Hx Hs). reflexivity.
    + intros t Ht. destruct (post_stochastic E h nc pi A ok b Rd x t Hne Hx
        (scorable_pos E h nc pi A ok b Rd _ x Hne Hx Hs) Ht) as [Hn Hs1].
      split; [exact Hs1|]. intros i Hi. split; [apply Hn; exact Hi|].
      rewrite <- Hs1. apply sumn_ge_term; assumption.
  - intros Hi HL. unfold predict_proba.
    rewrite (zero_lik_samples E h nc pi A ok b Rd x Hi Hne Hx HL). reflexivity.
Qed.

Lemma C05_zero_applies_l : seq_lik 2 ex_pi ex_A (cat_b ex_e) [2; 0]%Z = 0.
Proof. unfold seq_lik, likelihood, joint. simpl. unfold obsB, cat_b, ex_pi, ex_A, ex_e. simpl. lra. Qed.

(** ** C06: MAP decoding. *)
Lemma C06_map_decoding_l {P X St} (E : emclass P X St) h nc pi A ok b x alg :
  ready E h nc pi A ok b -> x <> [] -> Forall ok x ->
  (alg = Some "map"%string \/ (alg = None /\ c_algorithm (h_cfg h) = "map"%string)) ->
  scorable nc pi A b (c_impl (h_cfg h)) x ->
  exists z, decode E exact h x None alg
      = Ok (Fin (sumn (length x) (fun t => seq_post nc pi A b x t (nth t z 0%nat))), z)
    /\ length z = length x
    /\ forall t, (t < length x)%nat ->
         let i := nth t z 0%nat in
         (i < nc)%nat
         /\ (forall j, (j < nc)%nat -> seq_post nc pi A b x t j <= seq_post nc pi A b x t i)
         /\ (forall j, (j < i)%nat -> seq_post nc pi A b x t j < seq_post nc pi A b x t i).
Proof. exact (fun Rd H1 H2 H3 H4 => map_single E h nc pi A ok b Rd x alg H1 H2 H3 H4). Qed.

Lemma C06_map_decoding_lengths_l {P X St} (E : emclass P X St) h nc pi A ok b ls x alg :
  ready E h nc pi A ok b -> good_data ok ls x ->
  (alg = Some "map"%string \/ (alg = None /\ c_algorithm (h_cfg h) = "map"%string)) ->
  (forall c, In c (chunks ls x) -> scorable nc pi A b (c_impl (h_cfg h)) c) ->
  exists zs, decode E exact h x (as_lengths ls) alg
     = Ok (Fin (sumL2 (map_value nc pi A b) (chunks ls x) zs), concat zs)
    /\ Forall2 (map_decoded nc pi A b) (chunks ls x) zs.
Proof. exact (fun Rd H1 H2 H3 => decode_map_spec E h nc pi A ok b Rd ls x alg H1 H2 H3). Qed.

Lemma C06_applies_l :
  exists z, decode categorical exact (ex_h "scaling" "map") ex_x None None
      = Ok (Fin (map_value 2 ex_pi ex_A (cat_b ex_e) ex_x z), z)
    /\ map_decoded 2 ex_pi ex_A (cat_b ex_e) ex_x z.
Proof.
  refine (map_single _ _ _ _ _ _ _ (ex_ready "scaling" "map") _ _ _ ex_x_ok _ (proj2 C04_applies_l)).
  - discriminate.
  - right; split; reflexivity.
Qed.

(** ** C07 (finding): the documented meaning of the MAP value is wrong for
    every discrete model and every sequence: the value is positive, while the
    log probability of any path is not. *)
Lemma C07_map_value_not_log_prob_l {P X St} (E : emclass P X St) h nc pi A ok b x v z :
  ready E h nc pi A ok b -> x <> [] -> Forall ok x ->
  (forall i, (i < nc)%nat -> pi i <= 1) ->
  (forall i j, (i < nc)%nat -> (j < nc)%nat -> A i j <= 1) ->
  (forall o i, ok o -> (i < nc)%nat -> b o i <= 1) ->
  scorable nc pi A b (c_impl (h_cfg h)) x ->
  decode E exact h x None (Some "map"%string) = Ok (v, z) ->
  xlt (Fin 0) v /\ xle (xln (seq_joint pi A b x z)) (Fin 0).
Proof.
  intros Rd Hne Hx Hpi HA Hb Hs Hd.
  destruct (map_single E h nc pi A ok b Rd x (Some "map"%string) Hne Hx (or_introl eq_refl) Hs)
    as (z0 & Hz & Hlen & Hm).
  rewrite Hz in Hd. injection Hd as <- <-.
  pose proof (scorable_pos E h nc pi A ok b Rd _ x Hne Hx Hs) as HL.
  assert (Hl0 : (0 < length x)%nat) by (destruct x; [contradiction|simpl; lia]).
  pose proof (rd_pos _ _ _ _ _ _ _ Rd) as Hnc. apply lt_INR in Hnc. simpl in Hnc.
  assert (Hpath : is_path nc (length x) z0).
  { split; [exact Hlen|]. intros t Ht. apply (Hm t Ht). }
  split.
  - unfold xlt. simpl. apply Rltb_true. unfold map_value.
    apply sumn_pos with 0%nat; [| exact Hl0 |].
    + intros t Ht. pose proof (max_post_ge E h nc pi A ok b Rd x t _ Hne Hx HL Ht (Hm t Ht)) as [Hge _].
      apply Rle_trans with (/ INR nc); [left; apply Rinv_0_lt_compat; exact Hnc|exact Hge].
    + pose proof (max_post_ge E h nc pi A ok b Rd x 0 _ Hne Hx HL Hl0 (Hm 0%nat Hl0)) as [Hge _].
      apply Rlt_le_trans with (/ INR nc); [apply Rinv_0_lt_compat; exact Hnc|exact Hge].
  - rewrite <- xln_1. apply xle_xln.
    + apply (best_joint_nonneg E h nc pi A ok b Rd); assumption.
    + destruct (ready_fitted_check E h nc pi A ok b Rd) as (h' & _ & He & _).
      destruct Hpath as [_ Hp]. unfold seq_joint, joint.
      assert (Hprod : forall n f, (forall t, (t < n)%nat -> 0 <= f t <= 1) -> 0 <= prodn n f <= 1).
      { clear. induction n as [|n IH]; intros f H; simpl; [lra|].
        destruct (IH f) as [I1 I2]; [intros; apply H; lia|].
        destruct (H n ltac:(lia)). split; [apply Rmult_le_pos; lra|].
        rewrite <- (Rmult_1_l 1). apply Rmult_le_compat; lra. }
      assert (P0 : 0 <= pi (nth 0 z0 0%nat) <= 1).
      { split; [apply (rd_pi _ _ _ _ _ _ _ Rd)|apply Hpi]; apply Hp; exact Hl0. }
      assert (P1 : 0 <= prodn (length x - 1) (fun t => A (nth t z0 0%nat) (nth (S t) z0 0%nat)) <= 1).
      { apply Hprod. intros t Ht. split; [apply (rd_A _ _ _ _ _ _ _ Rd)|apply HA]; apply Hp; lia. }
      assert (P2 : 0 <= prodn (length x) (fun t => obsB b x t (nth t z0 0%nat)) <= 1).
      { apply Hprod. intros t Ht. destruct x as [|o x0]; [contradiction|]. set (x := o :: x0) in *.
        rewrite (obsB_nth b x o) by exact Ht. rewrite Forall_forall in Hx.
        split; [apply (em_nonneg _ _ _ _ _ He)|apply Hb]; try (apply Hx, nth_In, Ht); apply Hp; exact Ht. }
      set (u := pi _) in *. set (v := prodn (length x - 1) _) in *. set (w := prodn (length x) _) in *.
      clearbody u v w. assert (0 <= u * v <= 1) by (split; [apply Rmult_le_pos; lra|
         rewrite <- (Rmult_1_l 1); apply Rmult_le_compat; lra]).
      rewrite <- (Rmult_1_l 1). apply Rmult_le_compat; lra.
Qed.

Lemma C07_map_log_prob_refuted_l :
  exists h x v z, decode categorical exact h x None (Some "map"%string) = Ok (v, z)
    /\ v <> xln (seq_joint ex_pi ex_A (cat_b ex_e) x z)
    /\ ready categorical h 2 ex_pi ex_A (sym_ok 3) (cat_b ex_e) /\ x <> [] /\ Forall (sym_ok 3) x.
Proof.
  assert (Hne : ex_x <> []) by discriminate.
  destruct (map_single _ _ _ _ _ _ _ (ex_ready "log" "map") ex_x (Some "map"%string) Hne ex_x_ok
              (or_introl eq_refl) (proj1 C04_applies_l)) as (z & Hz & _).
  exists (ex_h "log" "map"), ex_x, (Fin (map_value 2 ex_pi ex_A (cat_b ex_e) ex_x z)), z.
  split; [exact Hz|]. split; [|split; [apply ex_ready|split; [discriminate|exact ex_x_ok]]].
  destruct (C07_map_value_not_log_prob_l _ _ _ _ _ _ _ _ _ _ (ex_ready "log" "map") Hne ex_x_ok
     ltac:(intros i Hi; destruct i as [|[|i]]; [| |lia]; simpl; lra)
     ltac:(intros i j Hi Hj; destruct i as [|[|i]]; [| |lia]; destruct j as [|[|j]]; try lia; simpl; lra)
     ltac:(intros o i Ho Hi; unfold cat_b; destruct i as [|[|i]]; [| |lia];
           destruct (Z.to_nat o) as [|[|k]]; simpl; lra)
     (proj1 C04_applies_l) Hz) as [H1 H2].
  intros E. rewrite E in H1. revert H1 H2. unfold xlt, xle.
  destruct (xln _); simpl; try discriminate. intros H1 H2. apply Rltb_true in H1. apply Rleb_true in H2. lra.
Qed.

(** ** C08: best path <= total <= n_components^n_samples * best path. *)
Lemma C08_viterbi_score_sandwich_l {P X St} (E : emclass P X St) h nc pi A ok b ls x :
  ready E h nc pi A ok b -> c_impl (h_cfg h) = "log"%string -> good_data ok ls x ->
  exists v z s, decode E exact h x (as_lengths ls) (Some "viterbi"%string) = Ok (v, z)
    /\ score E exact h x (as_lengths ls) = Ok s
    /\ xle v s
    /\ xle s (xadd exact v (Fin (INR (length x) * ln (INR nc)))).
Proof.
  intros Rd Hi Hd.
  destruct (decode_viterbi_spec E h nc pi A ok b Rd ls x _ Hd (or_introl eq_refl)) as (zs & Hz & Hb).
  pose proof (score_log E h nc pi A ok b Rd ls x Hi Hd) as Hs.
  destruct (good_data_chunks ok ls x Hd) as (Hne & _ & Hch).
  destruct (prod_sandwich E h nc pi A ok b Rd _ _ Hch Hb) as (P0 & P1 & P2).
  assert (Hcc : concat (chunks ls x) = x) by (apply chunks_concat; apply Hd).
  rewrite Hcc in P2.
  eexists _, _, _. split; [exact Hz|]. split; [exact Hs|]. split.
  - apply xle_xln; assumption.
  - pose proof (rd_pos _ _ _ _ _ _ _ Rd) as Hnc. apply lt_INR in Hnc. simpl in Hnc.
    assert (Hp : 0 < INR nc ^ length x) by (apply pow_lt; exact Hnc).
    replace (Fin (INR (length x) * ln (INR nc))) with (xln (INR nc ^ length x)).
    + rewrite xadd_xln by (try lra; assumption). apply xle_xln; [lra|]. rewrite Rmult_comm. exact P2.
    + rewrite xln_pos by exact Hp. f_equal. apply ln_pow; exact Hnc.
Qed.

Lemma C08_applies_l : ready categorical (ex_h "log" "viterbi") 2 ex_pi ex_A (sym_ok 3) (cat_b ex_e)
  /\ good_data (sym_ok 3) [2; 1]%nat ex_x.
Proof. split; [apply ex_ready|exact ex_good]. Qed.

(** ** C09: sequences are independent.  For every class, every model and every
    list of non-empty sequences: the call on the concatenation succeeds exactly
    when all individual calls do, and combines their results. *)
Lemma C09_score_independent_l {P X St} (E : emclass P X St) h (xs : list (list X)) :
  xs <> [] -> Forall (fun x => x <> []) xs ->
  (forall ps, Forall2 (fun x p => score_samples E exact h x None = Ok p) xs ps ->
     score_samples E exact h (concat xs) (as_lengths (map (@length X) xs))
     = Ok (xsum exact (map fst ps),
           Mat (c_nc (h_cfg h)) (flat_map (fun p => rows (snd p)) ps)))
  /\ (forall ss, Forall2 (fun x s => score E exact h x None = Ok s) xs ss ->
     score E exact h (concat xs) (as_lengths (map (@length X) xs)) = Ok (xsum exact ss))
  /\ (forall r, score E exact h (concat xs) (as_lengths (map (@length X) xs)) = Ok r ->
       exists ss, Forall2 (fun x s => score E exact h x None = Ok s) xs ss).
Proof.
  intros Hne Hall. split; [|split].
  - intros ps HF. exact (score_concat E h xs ps true Hne HF).
  - intros ss HF. unfold score.
    assert (Hps : exists ps, Forall2 (fun x p => score_ E exact h x None false = Ok p) xs ps /\ map fst ps = ss).
    { clear Hne Hall. induction HF as [|x s xs ss Hx HF IH]; [exists []; split; [constructor|reflexivity]|].
      destruct IH as (ps & H1 & H2). unfold score in Hx.
      destruct (score_ E exact h x None false) as [[l m]|] eqn:Es; [|discriminate]. injection Hx as <-.
      exists ((l, m) :: ps). split; [constructor; assumption|simpl; congruence]. }
    destruct Hps as (ps & H1 & H2). rewrite (score_concat E h xs ps false Hne H1), <- H2. reflexivity.
  - intros r H. unfold score in H.
    destruct (score_ E exact h (concat xs) (as_lengths (map (@length X) xs)) false) as [p|] eqn:Es; [|discriminate].
    apply score_concat_inv in Es as (ps & HF); [|assumption|assumption].
    exists (map fst ps). clear - HF. induction HF as [|x [l m] xs ps Hx HF IH]; simpl; constructor; [|exact IH].
    unfold score. rewrite Hx. reflexivity.
Qed.

Lemma C09_decode_independent_l {P X St} (E : emclass P X St) h (xs : list (list X)) alg :
  xs <> [] -> Forall (fun x => x <> []) xs ->
  (forall ps, Forall2 (fun x p => decode E exact h x None alg = Ok p) xs ps ->
     decode E exact h (concat xs) (as_lengths (map (@length X) xs)) alg
     = Ok (xsum exact (map fst ps), concat (map snd ps)))
  /\ (forall r, decode E exact h (concat xs) (as_lengths (map (@length X) xs)) alg = Ok r ->
       exists ps, Forall2 (fun x p => decode E exact h x None alg = Ok p) xs ps).
Proof.
  intros Hne Hall. split.
  - intros ps. exact (decode_concat E h xs ps alg Hne).
  - intros r. exact (decode_concat_inv E h xs alg r Hne Hall).
Qed.

Lemma C09_applies_l :
  exists ss, Forall2 (fun x s => score categorical exact (ex_h "log" "map") x None = Ok s)
               [[0; 1]; [2]]%Z ss.
Proof.
  apply (proj2 (proj2 (C09_score_independent_l categorical (ex_h "log" "map") [[0; 1]; [2]]%Z
           ltac:(discriminate) ltac:(repeat constructor; discriminate)))
           (xln (prodL (seq_lik 2 ex_pi ex_A (cat_b ex_e)) (chunks [2; 1]%nat ex_x)))).
  exact (C02_score_lengths_l _ _ _ _ _ _ _ [2; 1]%nat ex_x (ex_ready "log" "map") eq_refl ex_good).
Qed.

(** ** C10: splitting. *)
Lemma C10_split_l {X} (x : list X) (ls : list Z) :
  ls <> [] ->
  (split_X_lengths x (Some ls) = Err (ValueError "lengths")
     <-> fold_right Z.add 0%Z ls <> Z.of_nat (length x))
  /\ (fold_right Z.add 0%Z ls = Z.of_nat (length x) -> Forall (fun n => (0 <= n)%Z) ls ->
      exists ps, split_X_lengths x (Some ls) = Ok ps
        /\ concat ps = x /\ map (fun p => Z.of_nat (length p)) ps = ls)
  /\ split_X_lengths x None = Ok [x].
Proof.
  intros Hne.
  assert (Hfold : forall l a, fold_left Z.add l a = (a + fold_right Z.add 0 l)%Z).
  { clear. induction l as [|y l IH]; intros a; simpl; [lia|]. rewrite IH. lia. }
  split; [|split; [|reflexivity]].
  - destruct ls as [|n ls]; [contradiction|]. unfold split_X_lengths. rewrite Hfold.
    destruct (Z.eqb_spec (0 + fold_right Z.add 0 (n :: ls))%Z (Z.of_nat (length x))) as [He|He].
    + split; [discriminate|]. intros H. exfalso. apply H. lia.
    + split; [|reflexivity]. intros _ H. apply He. lia.
  - intros Hs Hp. set (ks := map Z.to_nat ls).
    assert (Hk : map Z.of_nat ks = ls).
    { unfold ks. rewrite map_map. clear - Hp. induction Hp; simpl; [reflexivity|]. f_equal; [lia|assumption]. }
    assert (Hsum : fold_right Nat.add 0%nat ks = length x).
    { apply Nat2Z.inj. rewrite <- Hs, <- Hk. clear. induction ks; simpl; lia. }
    exists (chunks ks x). split; [|split].
    + rewrite <- Hk. apply split_X_lengths_chunks; [|exact Hsum].
      unfold ks. destruct ls; [contradiction|discriminate].
    + apply chunks_concat; exact Hsum.
    + rewrite <- Hk. clear - Hsum. revert x Hsum. induction ks as [|k ks IH]; intros x Hsum; [reflexivity|].
      simpl in Hsum |- *. f_equal.
      * rewrite firstn_length. lia.
      * apply IH. rewrite skipn_length. lia.
Qed.

(** The rejection reaches the user through every method. *)
Lemma C10_score_decode_reject_l {P X St} (E : emclass P X St) h nc pi A ok b x ls :
  ready E h nc pi A ok b -> x <> [] -> Forall ok x -> ls <> [] ->
  fold_right Z.add 0%Z ls <> Z.of_nat (length x) ->
  (c_impl (h_cfg h) = "log"%string \/ c_impl (h_cfg h) = "scaling"%string) ->
  score E exact h x (Some ls) = Err (ValueError "lengths")
  /\ predict_proba E exact h x (Some ls) = Err (ValueError "lengths")
  /\ forall alg, In alg ["viterbi"; "map"]%string ->
       decode E exact h x (Some ls) (Some alg) = Err (ValueError "lengths").
Proof.
  intros Rd Hne Hx Hl Hs Hi. apply (proj2 (proj1 (C10_split_l x ls Hl))) in Hs.
  destruct (ready_fitted_check E h nc pi A ok b Rd) as (h' & Hf & He & _).
  assert (Hsc : forall post, score_ E exact h x (Some ls) post = Err (ValueError "lengths")).
  { intros post. unfold score_. rewrite Hf. cbn [bind].
    rewrite (check_array_ready E ok x Hne Hx (em_xok _ _ _ _ _ He)). cbn [bind].
    destruct Hi as [-> | ->]; cbn [String.eqb Ascii.eqb Bool.eqb]; cbn [bind]; rewrite Hs; reflexivity. }
  split; [|split].
  - unfold score. rewrite Hsc. reflexivity.
  - unfold predict_proba, score_samples. rewrite Hsc. reflexivity.
  - intros alg [<-|[<-|[]]]; unfold decode; rewrite Hf; cbn [bind String.eqb Ascii.eqb Bool.eqb]; cbn [bind];
      rewrite (check_array_ready E ok x Hne Hx (em_xok _ _ _ _ _ He)); cbn [bind]; rewrite Hs; reflexivity.
Qed.

Lemma C10_applies_l : split_X_lengths [1; 2; 3]%nat (Some [2; 1]%Z) = Ok [[1; 2]; [3]]%nat
                   /\ split_X_lengths [1; 2; 3]%nat (Some [2; 2]%Z) = Err (ValueError "lengths").
Proof. split; reflexivity. Qed.

(** Findings: an empty [lengths] raises IndexError, not ValueError; negative
    lengths are accepted and give pieces of other sizes. *)
Lemma C10_lengths_validation_refuted_l :
  (exists (x : list nat), split_X_lengths x (Some []) = Err IndexError)
  /\ exists (x : list nat) ls ps, split_X_lengths x (Some ls) = Ok ps
       /\ map (fun p => Z.of_nat (length p)) ps <> ls /\ fold_right Z.add 0%Z ls = Z.of_nat (length x).
Proof.
  split; [exists []; reflexivity|].
  exists [1; 2; 3]%nat, [-1; 4]%Z, [[1; 2]; [3]]%nat. repeat split; try reflexivity. discriminate.
Qed.

(** ** C53: Viterbi in rounded arithmetic.  [path_score fp sp tm lf z] evaluates
    the score of the path [z] left to right with rounded additions. *)
Definition path_score (fp : fpmode) (sp : vec) (tm lf : mat) (z : list nat) : xnum :=
  match z with
  | [] => NaN
  | i :: z' =>
      snd (fold_left (fun st j =>
             let '(t, i, s) := st in
             (S t, j, xadd fp (xadd fp s (xlog fp (mget tm i j))) (mget lf (S t) j)))
           z' (0%nat, i, xadd fp (xlog fp (vget sp i)) (mget lf 0 i)))
  end.

Lemma path_score_vscore fp sp tm lf z : path_score fp sp tm lf z
  = vscore fp (fun i => xlog fp (vget sp i)) (fun i j => xlog fp (mget tm i j)) (mget lf) z.
Proof.
  destruct z as [|i z]; [reflexivity|]. unfold path_score, vscore.
  generalize (xadd fp (xlog fp (vget sp i)) (mget lf 0 i)) as s. generalize 0%nat as t. revert i.
  induction z as [|j z IH]; intros i t s; [reflexivity|]. simpl. apply IH.
Qed.

Lemma C53_viterbi_rounded_l {P X St} (E : emclass P X St) fp h h' sp tm lf nc x :
  monotone fp -> idempotent fp ->
  fitted_check E fp h = Ok (h', sp, tm) ->
  check_array (ec_xok E) x = Ok x ->
  loglik E fp h' x = Ok lf ->
  (0 < nc)%nat -> length sp = nc -> nrow tm = nc -> ncol tm = nc -> wf_mat tm ->
  nrow lf = length x -> ncol lf = nc -> wf_mat lf ->
  (forall z, is_path nc (length x) z -> good (path_score fp sp tm lf z)) ->
  exists z, decode E fp h x None (Some "viterbi"%string) = Ok (path_score fp sp tm lf z, z)
    /\ is_path nc (length x) z
    /\ forall z', is_path nc (length x) z' ->
         xle (path_score fp sp tm lf z') (path_score fp sp tm lf z).
Proof.
  intros Hm Hid Hf Hc Hl Hnc H1 H2 H3 H4 H5 H6 H7 Hg.
  destruct (check_array_Ok _ _ _ Hc) as (_ & Hne & _).
  destruct (seq_nonempty x Hne) as [T HT].
  pose proof (path_score_vscore fp sp tm lf) as Heq.
  rewrite HT in *.
  destruct (viterbi_correct fp nc T sp tm lf Hnc Hm H1 H2 H3 H4 H5 H6 H7) as (lp & z & Hv & Hz & Hlp & Hopt).
  { intros z Hz. rewrite <- Heq. apply Hg. exact Hz. }
  exists z. assert (Hlp0 : lp = path_score fp sp tm lf z) by (rewrite Heq; exact Hlp).
  split; [|split; [exact Hz|]].
  - unfold decode. rewrite Hf. cbn [bind String.eqb Ascii.eqb Bool.eqb]. cbn [bind]. rewrite Hc.
    cbn [bind split_X_lengths acc_seqs]. unfold decode_viterbi at 1. rewrite Hl. cbn [bind]. rewrite Hv.
    cbn [bind]. rewrite app_nil_r. f_equal. f_equal. rewrite <- Hlp0.
    assert (Hr : forall v, lp = Fin v -> exists r, fp r = Fin v).
    { intros v Ev. rewrite Hlp in Ev. clear - Ev Hz. destruct z as [|i z]; [discriminate|].
      unfold vscore in Ev. revert Ev.
      assert (G : forall z s t i, (forall w, s = Fin w -> exists r, fp r = Fin w) ->
         vext fp (fun i j => xlog fp (mget tm i j)) (mget lf) s t i z = Fin v -> exists r, fp r = Fin v).
      { clear. induction z as [|j z IH]; intros s t i Hs H; [apply Hs; exact H|].
        simpl in H. apply IH in H; [exact H|]. intros w Hw.
        destruct (xadd fp s _) as [p| | |], (mget lf (S t) j) as [q| | |]; simpl in Hw; try discriminate.
        eexists; exact Hw. }
      apply G. intros w Hw. destruct (xlog fp (vget sp i)) as [p| | |], (mget lf 0 i) as [q| | |];
        simpl in Hw; try discriminate. eexists; exact Hw. }
    destruct lp as [v| | |]; try reflexivity. cbn [xadd]. rewrite Rplus_0_l.
    destruct (Hr v eq_refl) as [r Hrr]. exact (Hid r v Hrr).
  - intros z' Hz'. rewrite <- Hlp0, Heq. apply Hopt. exact Hz'.
Qed.

Lemma C53_applies_l :
  exists z, decode categorical exact (ex_h "log" "map") ex_x None (Some "viterbi"%string)
    = Ok (path_score exact (fvec 2 ex_pi) (fmat 2 2 ex_A)
            (lmat 3 2 (obsB (cat_b ex_e) ex_x)) z, z).
Proof.
  destruct (ready_fitted_check _ _ _ _ _ _ _ (ex_ready "log" "map")) as (h' & Hf & He & _).
  destruct (C53_viterbi_rounded_l categorical exact (ex_h "log" "map") h' (fvec 2 ex_pi) (fmat 2 2 ex_A)
    (lmat 3 2 (obsB (cat_b ex_e) ex_x)) 2 ex_x) as (z & Hz & _);
    try apply wf_mtab; try reflexivity; try exact Hf; try lia.
  - exact exact_monotone.
  - intros u v H. exact (eq_refl (Fin v)).
  - exact (em_log _ _ _ _ _ He ex_x ex_x_ok).
  - intros z Hz.
    replace (path_score exact (fvec 2 ex_pi) (fmat 2 2 ex_A) (lmat 3 2 (obsB (cat_b ex_e) ex_x)) z)
      with (xln (joint 3 ex_pi ex_A (obsB (cat_b ex_e) ex_x) z)); [apply xln_good|].
    rewrite <- (vscore_exact 2 2 ex_pi ex_A (obsB (cat_b ex_e) ex_x) z
       (fun i => xlog exact (vget (fvec 2 ex_pi) i))
       (fun i j => xlog exact (mget (fmat 2 2 ex_A) i j))
       (mget (lmat 3 2 (obsB (cat_b ex_e) ex_x)))).
    + symmetry. apply path_score_vscore.
    + exact ex_pi_nn.
    + exact ex_A_nn.
    + apply (obsB_nonneg (sym_ok 3) (cat_b ex_e) 2 ex_x); [apply He|exact ex_x_ok].
    + intros i Hi. rewrite vget_fvec by exact Hi. apply xlog_fin, ex_pi_nn, Hi.
    + intros i j Hi Hj. rewrite mget_fmat by assumption. apply xlog_fin, ex_A_nn; assumption.
    + intros t i Ht Hi. apply mget_lmat; assumption.
    + exact Hz.
  - exists z. exact Hz.
Qed.

(** IEEE binary64 rounding to nearest even satisfies the hypotheses. *)
Lemma C53_binary64_l : monotone b64 /\ idempotent b64.
Proof. exact (conj b64_monotone b64_idempotent). Qed.
