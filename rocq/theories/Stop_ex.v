(** * Properties C88, C89: examples. *)
From Verif Require Export Settle_thms Warm_ex Gauss_ex Mult_thms.

(** n_iter = 1000, tol = 1/100 and one sequence of likelihood 3/128: at most 602
    iterations, so that the tolerance has ended training; any larger [n_iter]
    gives the same model. *)
Lemma C88_applies_l : let h := at_most 1000 (ex_h "log" "map") in
  score categorical exact h ex_x (as_lengths [3]%nat) = Ok (Fin (ln (3/128)))
  /\ exists h' ev, fit_from categorical exact h ex_x (as_lengths [3]%nat) = Ok (h', ev)
  /\ (length (m_history (h_mon h')) <= 602)%nat
  /\ (exists r a z, m_history (h_mon h') = r ++ [Fin a; Fin z] /\ z - a < / 100)
  /\ fit_from categorical exact (at_most 5000 h) ex_x (as_lengths [3]%nat) = Ok (at_most 5000 h', ev).
Proof.
  intros h. assert (CM : cat_model h 2 3 ex_pi ex_A ex_e) by (destruct (ex_model "log" "map"); constructor; assumption).
  pose proof (flat_cat_priors h 2 3 ltac:(repeat split)) as CP.
  assert (Hd : good_data (sym_ok 3) [3]%nat ex_x).
  { split; [exact ex_x_ok|]. split; [discriminate|]. split; [repeat constructor; lia|reflexivity]. }
  assert (Hpos : possible 2 ex_pi ex_A (cat_b ex_e) [3]%nat ex_x).
  { intros c [<-|[]]. cbn [firstn ex_x]. fold ex_x. rewrite ex_lik. lra. }
  assert (Sc : score categorical exact h ex_x (as_lengths [3]%nat) = Ok (Fin (ln (3/128)))).
  { rewrite (C02_score_lengths_l categorical h 2 ex_pi ex_A (sym_ok 3) (cat_b ex_e) [3]%nat ex_x (cat_ready _ _ _ _ _ _ CM) eq_refl Hd).
    cbn [chunks prodL]. change (firstn 3 ex_x) with ex_x. rewrite ex_lik, Rmult_1_r. unfold xln. destruct (Rlt_dec 0 (3/128)) as [H|H]; [reflexivity|lra]. }
  split; [exact Sc|].
  destruct (cat_fit_log_ok h 2 3 ex_pi ex_A ex_e _ _ _ [3]%nat ex_x CM CP Hd Hpos eq_refl) as ([h' ev] & H).
  exists h', ev. split; [exact H|].
  destruct (C88_categorical_l h 2 3 ex_pi ex_A ex_e _ _ _ [3]%nat ex_x h' ev (/ 100) CM CP) as (L0 & S & T1 & T2);
    [rewrite ex_pi_sum; lra|intros i Hi; rewrite ex_A_sum by exact Hi; lra|intros i Hi; rewrite ex_e_sum by exact Hi; lra|exact Hd|exact Hpos
    |apply at_most_tol; [lia|reflexivity|reflexivity|lra]|exact H|].
  rewrite Sc in S. injection S as <-. cbn [h at_most h_cfg c_n_iter cfg_n_iter] in T2.
  assert (L : - ln (3/128) <= 6).
  { rewrite <- ln_Rinv by lra. apply Rle_trans with (ln (2 ^ 6)); [left; apply ln_increasing; lra|].
    rewrite ln_pow by lra. replace (INR 6) with 6 by (simpl; lra).
    pose proof (ln_le_x1 2 ltac:(lra)). lra. }
  assert (B : 2 + (0 - ln (3/128)) / (/ 100) <= 602) by (unfold Rdiv; rewrite Rinv_inv; lra).
  assert (N : 602 < INR 1000) by (rewrite INR_IZR_INZ; apply IZR_lt; reflexivity).
  assert (Hl : (length (m_history (h_mon h')) <= 602)%nat).
  { apply INR_le. replace (INR 602) with 602 by (rewrite INR_IZR_INZ; reflexivity). lra. }
  split; [exact Hl|]. split; [apply T2; lra|].
  change (at_most 5000 h) with (at_most 5000 (ex_h "log" "map")).
  apply (from_limit categorical cat_initc flat_rng exact (cat_blind _ _) 1000 5000 (ex_h "log" "map") ex_x _ h' ev H); lia.
Qed.

Lemma C88_settles_applies_l :
  settles poisson (Poisson_thms.ex_po "stl" 0 0) ex_px [2]%nat (/ 100)
  /\ settles multinomial (ex_mu "ste") ex_mx [2]%nat (/ 100)
  /\ settles gaussian (ex_sw "diag" "stmc" 0) sx [2; 2]%nat (/ 100)
  /\ settles gaussian (ex_sw "spherical" "stmc" (/ 10)) sx [2; 2]%nat (/ 100).
Proof.
  destruct ex_sw_stoch as [S1 S2]. split; [|split].
  - apply (C89_poisson_settles_l (Poisson_thms.ex_po "stl" 0 0) 2 1 sw_pi sw_A (fun _ _ => 1) (fun _ _ => 0) (fun _ _ => 0) (fun _ => 1) (fun _ _ => 1)); auto;
      try (intros; lra); try reflexivity; try exact ex_px_good; try exact ex_px_possible; try exact (fun _ => ex_px_used).
    + apply ex_pois_model.
    + intros i f _ _; split; reflexivity.
    + intros i f _ _; lra.
    + intros i f _ _; lra.
    + apply (flat_base_priors (Poisson_thms.ex_po "stl" 0 0) 2); split; reflexivity.
  - apply (C89_multinomial_settles_l (ex_mu "ste") 2 3 sw_pi sw_A ex_me (fun _ => 1) (fun _ _ => 1)); auto;
      try (intros; lra); try reflexivity; try exact ex_mx_good; try exact ex_mx_possible; try exact (fun _ => ex_mx_used).
    + apply ex_mult_model.
    + apply (flat_base_priors (ex_mu "ste") 2); split; reflexivity.
  - assert (Q : forall ty cp, ty = "diag"%string \/ ty = "spherical"%string -> settles gaussian (ex_sw ty "stmc" cp) sx [2; 2]%nat (/ 100)).
    { intros ty cp Hty. apply (C89_gaussian_settles_l (ex_sw ty "stmc" cp) 2 2 sw_pi sw_A (fun _ _ => 1) (fun _ _ => 1) (fun _ _ => 0) (fun _ _ => 0) (fun _ _ => cp) 0 (fun _ => 1) (fun _ _ => 1)); auto;
        try (intros; lra); try reflexivity; try exact sx_good; try exact sx_possible; try exact (fun _ => or_introl sx_used).
      - apply ex_sw_model, Hty.
      - apply (default_hyper (ex_sw ty "stmc" cp) 2 2 cp). apply ex_ga_default.
      - intros i f _ _; lra.
      - apply (flat_base_priors (ex_sw ty "stmc" cp) 2). apply ex_ga_flat. }
    split; apply Q; auto.
Qed.

(** n_iter = 3 stops after two iterations; so do 2 and 1000. *)
Lemma C89_applies_l : exists (e : est catp unit) e' ev, history e' = [Fin 0; Fin 0]
  /\ fit categorical cat_initc flat_rng exact (built 3 e) tt ws_x None = Ok (e', tt, ev)
  /\ fit categorical cat_initc flat_rng exact (built 2 e) tt ws_x None = Ok (built 2 e', tt, ev)
  /\ fit categorical cat_initc flat_rng exact (built 1000 e) tt ws_x None = Ok (built 1000 e', tt, ev).
Proof.
  set (e := Est (ws_h "" 0 0 [] 1) (RSSeed 0) : est catp unit).
  assert (F : exists ev, fit categorical cat_initc flat_rng exact (built 3 e) tt ws_x None = Ok (Est (ws_h "" 3 3 [Fin 0; Fin 0] 1) (RSGen tt), tt, ev)).
  { rewrite (fit_built _ _ _ _ (cat_blind _ _)). change (check_array (ec_xok categorical) ws_x) with (Ok ws_x). cbn [bind]. unfold e.
    rewrite ws_init by auto. cbn [bind e_hmm e_rs]. rewrite ws_check. cbn [bind]. change (fit_lengths ws_x None) with (Some [1%Z]).
    cbn [fit_loop]. rewrite ws_still by lra. cbn [bind].
    destruct (monitor_report exact (lim 3 _) (Fin 0)) as [m1 v1] eqn:E1. injection E1 as <- <-.
    match goal with |- context [converged exact ?m] => change (converged exact m) with false end. cbn iota. rewrite ws_still by lra. cbn [bind].
    destruct (monitor_report exact _ (Fin 0)) as [m2 v2] eqn:E2. injection E2 as <- <-.
    match goal with |- context [converged exact ?m] => assert (C : converged exact m = true) end.
    { unfold converged. cbn [m_history m_iter m_n_iter m_tol lim monitor_reset h_mon ws_h app length Nat.leb Nat.sub nth].
      replace (xltb (xsub exact (Fin 0) (Fin 0)) (Fin 1)) with true; [apply Bool.orb_true_r|]. symmetry. cbn. apply Rltb_true. lra. }
    rewrite C. cbn [bind]. eexists. reflexivity. }
  destruct F as [ev F]. eexists e, _, ev. split; [|split; [exact F|]]; [reflexivity|].
  split; apply (C89_categorical_l flat_rng exact 3%nat _ e tt ws_x None _ _ _ F); cbn; lia.
Qed.
