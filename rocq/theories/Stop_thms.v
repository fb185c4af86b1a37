(** * C88: training ends by the tolerance; classes of [hmm.py]. *)
From Verif Require Export Stop Poisson_thms Gauss_thms Mult_thms Cat_fit.
From Coq Require Import Exp_prop Binomial.

Lemma single_term (An : nat -> R) : (forall i, 0 <= An i) -> forall N k, (k <= N)%nat -> An k <= sum_f_R0 An N.
Proof.
  intros H. induction N as [|N IH]; intros k Hk; cbn [sum_f_R0].
  - assert (k = 0%nat) by lia. subst. lra.
  - destruct (Nat.eq_dec k (S N)) as [->|Hne].
    + assert (0 <= sum_f_R0 An N) by (apply cond_pos_sum, H). lra.
    + specialize (IH k ltac:(lia)). specialize (H (S N)). lra.
Qed.
Lemma pow_fact_le_exp m k : 0 <= m -> m ^ k / INR (fact k) <= exp m.
Proof.
  intros Hm. set (An := fun i => / INR (fact i) * m ^ i).
  assert (HA : forall i, 0 <= An i).
  { intros i. unfold An. apply Rmult_le_pos; [left; apply Rinv_0_lt_compat, fact_pos|apply pow_le, Hm]. }
  apply Rle_trans with (sum_f_R0 An k).
  - replace (m ^ k / INR (fact k)) with (An k) by (unfold An, Rdiv; ring). apply single_term; [exact HA|lia].
  - apply sum_incr; [|exact HA]. exact (E1_cvg m).
Qed.
Lemma pois_mass_le1 m k : 0 <= m -> pois_mass m k <= 1.
Proof.
  intros Hm. unfold pois_mass. replace (m ^ k * exp (- m) / INR (fact k)) with (m ^ k / INR (fact k) * exp (- m)) by (unfold Rdiv; ring).
  replace 1 with (exp m * exp (- m)) by (rewrite <- exp_plus, Rplus_opp_r; apply exp_0).
  apply Rmult_le_compat_r; [left; apply exp_pos|apply pow_fact_le_exp, Hm].
Qed.
Lemma prodn_le_pow n f B : 0 <= B -> (forall i, (i < n)%nat -> 0 <= f i <= B) -> prodn n f <= B ^ n.
Proof.
  intros HB. induction n as [|n IH]; intros H; cbn [prodn pow]; [lra|]. rewrite Rmult_comm.
  assert (0 <= prodn n f) by (apply prodn_nonneg; intros; apply H; lia).
  apply Rmult_le_compat; [apply H; lia|assumption|apply H; lia|apply IH; intros; apply H; lia].
Qed.
Lemma pois_b_le1 nc nf lam o i : nonneg2 nc nf lam -> (i < nc)%nat -> pois_b nf lam o i <= 1.
Proof.
  intros H Hi. unfold pois_b. rewrite <- (pow1 nf). apply prodn_le_pow; [lra|]. intros f Hf. specialize (H i f Hi Hf).
  split; [apply pois_mass_nonneg, H|apply pois_mass_le1, H].
Qed.

Fixpoint total (n : nat) (c : nat -> nat) : nat := match n with 0%nat => 0%nat | S n => (total n c + c n)%nat end.
Lemma multinomial_le n p c : nonneg1 n p -> INR (fact (total n c)) * prodn n (fun f => p f ^ c f / INR (fact (c f))) <= sumn n p ^ total n c.
Proof.
  induction n as [|n IH]; intros Hp; cbn [total prodn sumn pow fact]; [cbn; lra|].
  specialize (IH (fun f Hf => Hp f (Nat.lt_lt_succ_r _ _ Hf))). pose proof (Hp n ltac:(lia)) as Hn.
  set (N := total n c) in *. set (m := c n). set (S0 := sumn n p) in *. set (Q := prodn n _) in *.
  assert (HS : 0 <= S0) by (apply sumn_nonneg; intros; apply Hp; lia).
  pose proof (fact_pos N) as F1. pose proof (fact_pos m) as F2. pose proof (fact_pos (N + m)) as F3.
  rewrite binomial.
  apply Rle_trans with (C (N + m) N * S0 ^ N * p n ^ (N + m - N)).
  - replace (N + m - N)%nat with m by lia. unfold C. replace (N + m - N)%nat with m by lia.
    replace (INR (fact (N + m)) * (Q * (p n ^ m / INR (fact m))))
      with (INR (fact (N + m)) / (INR (fact N) * INR (fact m)) * (INR (fact N) * Q) * p n ^ m) by (field; lra).
    apply Rmult_le_compat_r; [apply pow_le, Hn|]. apply Rmult_le_compat_l; [|exact IH].
    left. apply Rmult_lt_0_compat; [exact F3|]. apply Rinv_0_lt_compat, Rmult_lt_0_compat; assumption.
  - apply (single_term (fun i => C (N + m) i * S0 ^ i * p n ^ (N + m - i))); [|lia]. intros i.
    apply Rmult_le_pos; [apply Rmult_le_pos|]; try (apply pow_le; assumption).
    unfold C. left. apply Rmult_lt_0_compat; [exact F3|]. apply Rinv_0_lt_compat, Rmult_lt_0_compat; apply fact_pos.
Qed.
Lemma total_ext n c c' : (forall f, (f < n)%nat -> c f = c' f) -> total n c = total n c'.
Proof. induction n as [|n IH]; intros H; cbn; [reflexivity|]. rewrite IH by (intros; apply H; lia). rewrite H by lia. reflexivity. Qed.
Lemma total_S_l n c : total (S n) c = (c 0 + total n (fun f => c (S f)))%nat.
Proof. induction n as [|n IH]; [cbn; lia|]. cbn [total] in *. lia. Qed.
Lemma zsum_total r : Forall (fun k => (0 <= k)%Z) r -> Z.to_nat (zsum r) = total (length r) (fun f => Z.to_nat (nth f r 0%Z)).
Proof.
  induction r as [|k r IH]; intros H; [reflexivity|]. inversion H; subst. cbn [length zsum fold_right]. fold (zsum r). rewrite total_S_l. cbn [nth].
  rewrite <- IH by assumption. assert (0 <= zsum r)%Z by (apply (zsum_nonneg (length r)); split; [reflexivity|assumption]). lia.
Qed.
Lemma mult_b_le1 nc nf e o i : stochastic2 nc nf e -> counts_ok nf o -> (i < nc)%nat -> mult_b nf e o i <= 1.
Proof.
  intros He [Hl Ho] Hi. destruct (He i Hi) as [H1 H2]. unfold mult_b, mult_mass. rewrite zsum_total by exact Ho. rewrite Hl.
  rewrite <- (pow1 (total nf (fun f => Z.to_nat (nth f o 0%Z)))), <- H2. apply multinomial_le. exact H1.
Qed.

Lemma normal_pdf_bound m v x : tiny <= v -> 0 <= normal_pdf m v x <= 2 ^ 511.
Proof.
  intros Hv. pose proof tiny_pos as Ht. unfold normal_pdf.
  assert (Hs : / 2 ^ 511 <= sqrt (2 * PI * v)).
  { rewrite <- (sqrt_pow2 (/ 2 ^ 511)) by (left; apply Rinv_0_lt_compat, pow_lt; lra). apply sqrt_le_1_alt.
    replace ((/ 2 ^ 511) ^ 2) with tiny.
    - apply Rle_trans with v; [exact Hv|]. pose proof PI_RGT_0. pose proof PI2_3_2. assert (1 <= 2 * PI) by lra.
      rewrite <- (Rmult_1_l v) at 1. apply Rmult_le_compat_r; lra.
    - unfold tiny. rewrite pow_inv, <- pow_mult. do 2 f_equal. }
  assert (P5 : 0 < / 2 ^ 511) by (apply Rinv_0_lt_compat, pow_lt; lra).
  assert (Pe : 0 < exp (- ((x - m) ^ 2 / (2 * v))) <= 1).
  { split; [apply exp_pos|]. rewrite <- exp_0. assert (0 <= (x - m) ^ 2 / (2 * v)).
    { unfold Rdiv. apply Rmult_le_pos; [apply pow2_ge_0|left; apply Rinv_0_lt_compat; lra]. }
    destruct (Req_dec ((x - m) ^ 2 / (2 * v)) 0) as [->|Hne]; [rewrite Ropp_0; lra|]. left. apply exp_increasing. lra. }
  split.
  - unfold Rdiv. apply Rmult_le_pos; [lra|left; apply Rinv_0_lt_compat; lra].
  - unfold Rdiv. rewrite <- (Rmult_1_l (2 ^ 511)). apply Rmult_le_compat; [lra|left; apply Rinv_0_lt_compat; lra|lra|].
    rewrite <- (Rinv_inv (2 ^ 511)). apply Rinv_le_contravar; assumption.
Qed.
Lemma gauss_b_bound nf mu var o i : gauss_b nf mu (floored var) o i <= 2 ^ (511 * nf).
Proof.
  unfold gauss_b. rewrite pow_mult. apply prodn_le_pow; [apply pow_le; lra|]. intros f _. apply normal_pdf_bound. apply Rmax_r.
Qed.

(** The monitor is the one the constructor built; a positive tolerance. *)
Definition tolerant {P} (h : hmm P) (tol : R) : Prop :=
  m_n_iter (h_mon h) = c_n_iter (h_cfg h) /\ m_tol (h_mon h) = Fin tol /\ c_tol (h_cfg h) = Fin tol /\ 0 < tol
  /\ (0 < c_n_iter (h_cfg h))%nat.

Definition cat_good2 nc nf ep (c : cfg) (nfe : option nat) (p : catp) : Prop :=
  cat_good nc nf ep false c nfe p /\ forall i, (i < nc)%nat -> sumn nf (cat_e p i) <= 1.
Lemma cat_trains2 nc nf ep : (forall i k, (i < nc)%nat -> (k < nf)%nat -> 1 <= ep i k) ->
  trains categorical nc (sym_ok nf) (cat_good2 nc nf ep) cat_bp false.
Proof.
  intros Hep. destruct (cat_trains nc nf ep Hep false) as [T1 T2]. constructor; [intros h Hc [Hg _]; apply T1; assumption|].
  intros c nfe p l Hc [Hg Hq] Hw Hv. destruct (T2 c nfe p l Hc Hg Hw ltac:(discriminate)) as (st & p' & H1 & H2 & H3 & H4).
  exists st, p'. repeat (split; [assumption|]). split; [|exact H4]. split; [exact H3|]. intros i Hi.
  destruct Hw as [Hne Hl].
  destruct (cat_step nc nf ep false c nfe p l Hc Hg (fun x g H => proj1 (proj2 (Hl x g H)))) as (st' & S1 & S2).
  assert (st' = st) by congruence. subst st'. assert (p' = cat_new nc nf ep c p l) by congruence. subst p'.
  destruct (has "e" (c_params c)) eqn:He; [|unfold cat_new; rewrite He; apply Hq, Hi].
  unfold cat_new. rewrite He. unfold cat_e. cbn [cat_prob].
  rewrite (sumn_ext nf _ (normalised nf (clip_weight (ep i) (sym_count l i)))) by (intros k Hk; rewrite mget_fmat by assumption; reflexivity).
  apply stoch_or_zero_le1, normalised_stoch_or_zero. intros k Hk. unfold clip_weight. apply Rmax_r.
Qed.

(** Probabilities never exceed 1, so the log-likelihood never exceeds 0. *)
Lemma C88_categorical_l h nc nf pi A e sp tp ep ls x h' ev tol :
  cat_model h nc nf pi A e -> cat_priors h nc nf sp tp ep ->
  sumn nc pi <= 1 -> (forall i, (i < nc)%nat -> sumn nc (A i) <= 1) -> (forall i, (i < nc)%nat -> sumn nf (e i) <= 1) ->
  good_data (sym_ok nf) ls x -> possible nc pi A (cat_b e) ls x -> tolerant h tol ->
  fit_from categorical exact h x (as_lengths ls) = Ok (h', ev) ->
  exists L0, score categorical exact h x (as_lengths ls) = Ok (Fin L0)
    /\ stopped_by_tol (c_n_iter (h_cfg h)) (m_history (h_mon h')) L0 tol 0.
Proof.
  intros CM CP S1 S2 S3 Hd Hpos (Mn & Mt & Ht & Htp & Hn) Hf.
  assert (TS : tstate nc (cat_good2 nc nf ep) cat_bp false ls x (checked h nf) pi A).
  { destruct (cat_tstate false h nc nf pi A e sp tp ep ls x CM CP Hd Hpos ltac:(discriminate) ltac:(discriminate)).
    destruct (cat_good_init false h nc nf pi A e sp tp ep CM CP ltac:(discriminate) ltac:(discriminate)) as [Hg He].
    constructor; try assumption. split; [assumption|]. intros i Hi. rewrite (sumn_ext nf _ (e i)); [apply S3, Hi|]. intros k Hk. apply He; assumption. }
  destruct (class_stop categorical nc (sym_ok nf) (cat_good2 nc nf ep) cat_bp false (cat_trains2 nc nf ep (cp_e _ _ _ _ _ _ CP)) ls x Hd sp tp
    (cp_s _ _ _ _ _ _ CP) (cp_t _ _ _ _ _ _ CP) h (checked h nf) pi A (cat_model_check h nc nf pi A e CM) TS (cp_base _ _ _ _ _ _ CP) 1 ltac:(lra))
    with (bb := cat_b e) (h' := h') (ev := ev) (tol := tol) as (L0 & F & Q); auto; try congruence.
  - intros c nfe p o i _ [Hg Hs] Ho Hi. unfold sym_ok in Ho. unfold cat_bp, cat_b. apply Rle_trans with (sumn nf (cat_e p i)); [|apply Hs, Hi].
    apply sumn_ge_term; [intros k Hk; apply (cg_e _ _ _ _ _ _ _ Hg); assumption|lia].
  - apply cat_ready. exact CM.
  - rewrite ln_1, Rmult_0_r in Q. exists L0. split; assumption.
Qed.

Lemma C88_poisson_l h nc nf pi A lam al be sp tp ls x h' ev tol :
  pois_model h nc nf pi A lam -> gamma_prior nc nf (h_em h) al be -> nonneg2 nc nf al -> nonneg2 nc nf be ->
  priors (h_cfg h) nc sp tp -> (forall i, (i < nc)%nat -> 1 <= sp i) -> (forall i j, (i < nc)%nat -> (j < nc)%nat -> 1 <= tp i j) ->
  sumn nc pi <= 1 -> (forall i, (i < nc)%nat -> sumn nc (A i) <= 1) ->
  good_data (counts_ok nf) ls x -> possible nc pi A (pois_b nf lam) ls x ->
  (has "l" (c_params (h_cfg h)) = true -> all_used nc pi A (pois_b nf lam) (chunks ls x)) -> tolerant h tol ->
  fit_from poisson exact h x (as_lengths ls) = Ok (h', ev) ->
  exists L0, score poisson exact h x (as_lengths ls) = Ok (Fin L0)
    /\ stopped_by_tol (c_n_iter (h_cfg h)) (m_history (h_mon h')) L0 tol 0.
Proof.
  intros PM Hg Hal Hbe HP Hsp Htp S1 S2 Hd Hpos Hu (Mn & Mt & Ht & Htl & Hn) Hf. set (V := has "l" (c_params (h_cfg h))) in *.
  destruct (class_stop poisson nc (counts_ok nf) (pois_good nc nf al be V) (pois_bp nf) V
    (pois_trains nc nf al be Hal Hbe V) ls x Hd sp tp Hsp Htp h (with_em h (Some nf) (h_em h)) pi A
    (pois_model_check h nc nf pi A lam PM) (pois_tstate h nc nf pi A lam al be PM Hg ls x Hd Hpos Hu) HP 1 ltac:(lra))
    with (bb := pois_b nf lam) (h' := h') (ev := ev) (tol := tol) as (L0 & F & Q); auto; try congruence.
  - intros c nfe p o i _ Gp Ho Hi. apply (pois_b_le1 nc); [apply Gp|exact Hi].
  - apply pois_ready. exact PM.
  - rewrite ln_1, Rmult_0_r in Q. exists L0. split; assumption.
Qed.

Lemma ready_sub {P X St} (E : emclass P X St) h nc pi A (ok ok2 : X -> Prop) b : (forall o, ok2 o -> ok o) -> ready E h nc pi A ok b -> ready E h nc pi A ok2 b.
Proof.
  intros H [R1 R2 R3 R4 R5 R6 (h' & C1 & C2 & [E1 E2 E3 E4])]. constructor; try assumption. exists h'. split; [exact C1|]. split; [exact C2|].
  assert (F : forall x, Forall ok2 x -> Forall ok x) by (intros x; apply Forall_impl; exact H).
  constructor; auto.
Qed.
Lemma C88_multinomial_l h nc nf pi A e sp tp ls x h' ev tol :
  mult_model h nc nf pi A e ->
  priors (h_cfg h) nc sp tp -> (forall i, (i < nc)%nat -> 1 <= sp i) -> (forall i j, (i < nc)%nat -> (j < nc)%nat -> 1 <= tp i j) ->
  sumn nc pi <= 1 -> (forall i, (i < nc)%nat -> sumn nc (A i) <= 1) ->
  good_data (trials_ok nf) ls x -> possible nc pi A (mult_b nf e) ls x ->
  (has "e" (c_params (h_cfg h)) = true -> all_used nc pi A (mult_b nf e) (chunks ls x)) -> tolerant h tol ->
  fit_from multinomial exact h x (as_lengths ls) = Ok (h', ev) ->
  exists L0, score multinomial exact h x (as_lengths ls) = Ok (Fin L0)
    /\ stopped_by_tol (c_n_iter (h_cfg h)) (m_history (h_mon h')) L0 tol 0.
Proof.
  intros MM HP Hsp Htp S1 S2 Hd Hpos Hu (Mn & Mt & Ht & Htl & Hn) Hf. set (V := has "e" (c_params (h_cfg h))) in *.
  destruct (class_stop multinomial nc (trials_ok nf) (mult_good nc nf V) (mult_bp nf) V
    (mult_trains nc nf (mm_pos _ _ _ _ _ _ MM) V) ls x Hd sp tp Hsp Htp h (with_em h (Some nf) (h_em h)) pi A
    (mult_model_check h nc nf pi A e MM) (mult_tstate h nc nf pi A e MM ls x Hd Hpos Hu) HP 1 ltac:(lra))
    with (bb := mult_b nf e) (h' := h') (ev := ev) (tol := tol) as (L0 & F & Q); auto; try congruence.
  - intros c nfe p o i _ Gp [Ho _] Hi. apply (mult_b_le1 nc); [apply Gp|exact Ho|exact Hi].
  - apply (ready_sub multinomial h nc pi A (counts_ok nf)); [intros o Ho; apply Ho|]. apply mult_ready. exact MM.
  - rewrite ln_1, Rmult_0_r in Q. exists L0. split; assumption.
Qed.

(** Variances are raised to 2^-1022 before scoring, so densities are bounded. *)
Lemma C88_gaussian_l h nc nf pi A mu var m0 w cp a sp tp ls x h' ev tol :
  gauss_model h nc nf pi A mu var -> gauss_hyper h nc nf m0 w cp a -> nonneg2 nc nf w ->
  priors (h_cfg h) nc sp tp -> (forall i, (i < nc)%nat -> 1 <= sp i) -> (forall i j, (i < nc)%nat -> (j < nc)%nat -> 1 <= tp i j) ->
  sumn nc pi <= 1 -> (forall i, (i < nc)%nat -> sumn nc (A i) <= 1) ->
  good_data (finite_row nf) ls x -> possible nc pi A (gauss_b nf mu (floored var)) ls x ->
  (has "m" (c_params (h_cfg h)) = true ->
     all_used nc pi A (gauss_b nf mu (floored var)) (chunks ls x) \/ forall i f, (i < nc)%nat -> (f < nf)%nat -> 0 < w i f) ->
  tolerant h tol -> fit_from gaussian exact h x (as_lengths ls) = Ok (h', ev) ->
  exists L0, score gaussian exact h x (as_lengths ls) = Ok (Fin L0)
    /\ stopped_by_tol (c_n_iter (h_cfg h)) (m_history (h_mon h')) L0 tol (INR (length x) * (INR (511 * nf) * ln 2)).
Proof.
  intros GM Hh Hw HP Hsp Htp S1 S2 Hd Hpos Hu (Mn & Mt & Ht & Htl & Hn) Hf.
  assert (HV : exists V : bool, (has "m" (c_params (h_cfg h)) = true -> V = true \/ forall i f, (i < nc)%nat -> (f < nf)%nat -> 0 < w i f)
    /\ (V = true -> all_used nc pi A (gauss_b nf mu (floored var)) (chunks ls x))).
  { destruct (has "m" (c_params (h_cfg h))); [|exists false; split; discriminate]. destruct (Hu eq_refl) as [U|U].
    - exists true. split; auto.
    - exists false. split; [auto|discriminate]. }
  destruct HV as (V & V1 & V2).
  destruct (class_stop gaussian nc (finite_row nf) (gauss_good nc nf m0 w cp a V) (gauss_bp nf) V
    (gauss_trains nc nf (bo_pos _ _ _ _ (gam_base _ _ _ _ _ _ _ GM)) (gam_nf _ _ _ _ _ _ _ GM) m0 w cp a Hw V) ls x Hd sp tp Hsp Htp h (with_em h (Some nf) (h_em h)) pi A
    (gauss_model_check h nc nf pi A mu var GM) (gauss_tstate h nc nf pi A mu var m0 w cp a GM Hh ls x Hd Hpos V V1 V2) HP (2 ^ (511 * nf)) ltac:(apply pow_lt; lra))
    with (bb := gauss_b nf mu (floored var)) (h' := h') (ev := ev) (tol := tol) as (L0 & F & Q); auto; try congruence.
  - intros. apply gauss_b_bound.
  - apply gauss_ready. exact GM.
  - rewrite ln_pow in Q by lra. exists L0. split; assumption.
Qed.
