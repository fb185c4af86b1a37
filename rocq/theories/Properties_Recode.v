(** * Property C87: recoded observations. *)
From Verif Require Import Recode_thms Recode_ex.

(** ** C87: CategoricalHMM *)
Theorem C87_categorical h h2 nc nf pi A e e2 sp tp ep ep2 s ls x h' ev :
  permutes nf s -> same_settings h h2 ->
  cat_model h nc nf pi A e -> cat_priors h nc nf sp tp ep ->
  cat_model h2 nc nf pi A e2 -> cat_priors h2 nc nf sp tp ep2 ->
  (forall i k, (i < nc)%nat -> (k < nf)%nat -> e2 i (s k) = e i k) ->
  (forall i k, (i < nc)%nat -> (k < nf)%nat -> ep2 i (s k) = ep i k) ->
  good_data (sym_ok nf) ls x -> possible nc pi A (cat_b e) ls x ->
  fit_from categorical exact h x (as_lengths ls) = Ok (h', ev) ->
  exists h2' e' e2', fit_from categorical exact h2 (map (rename_symbol s) x) (as_lengths ls) = Ok (h2', ev) /\ same_chain h' h2'
    /\ cat_prob (h_em h') = Some (fmat nc nf e') /\ cat_prob (h_em h2') = Some (fmat nc nf e2')
    /\ (forall i k, (i < nc)%nat -> (k < nf)%nat -> e2' i (s k) = e' i k).
Proof. exact (@C87_categorical_l _ _ _ _ _ _ _ _ _ _ _ _ _ _ _ _ _). Qed.
Print Assumptions C87_categorical.

Theorem C87_categorical_answers h h2 nc nf pi A e e2 s x ls :
  permutes nf s -> c_impl (h_cfg h2) = c_impl (h_cfg h) -> c_algorithm (h_cfg h2) = c_algorithm (h_cfg h) ->
  cat_model h nc nf pi A e -> cat_model h2 nc nf pi A e2 ->
  (forall i k, (i < nc)%nat -> (k < nf)%nat -> e2 i (s k) = e i k) ->
  Forall (sym_ok nf) x -> same_answers categorical (rename_symbol s) h h2 x ls.
Proof. exact (@C87_categorical_answers_l _ _ _ _ _ _ _ _ _ _ _). Qed.
Print Assumptions C87_categorical_answers.

(** ** C87: PoissonHMM *)
Theorem C87_poisson h h2 nc nf pi A lam lam2 al be al2 be2 sp tp s ls x h' ev :
  permutes nf s -> same_settings h h2 ->
  pois_model h nc nf pi A lam -> gamma_prior nc nf (h_em h) al be -> priors (h_cfg h) nc sp tp ->
  pois_model h2 nc nf pi A lam2 -> gamma_prior nc nf (h_em h2) al2 be2 -> priors (h_cfg h2) nc sp tp ->
  (forall i f, (i < nc)%nat -> (f < nf)%nat -> lam2 i f = lam i (s f) /\ al2 i f = al i (s f) /\ be2 i f = be i (s f)) ->
  nonneg2 nc nf al -> nonneg2 nc nf be -> (forall i, (i < nc)%nat -> 1 <= sp i) ->
  (forall i j, (i < nc)%nat -> (j < nc)%nat -> 1 <= tp i j) ->
  good_data (counts_ok nf) ls x -> possible nc pi A (pois_b nf lam) ls x ->
  (has "l" (c_params (h_cfg h)) = true -> all_used nc pi A (pois_b nf lam) (chunks ls x)) ->
  fit_from poisson exact h x (as_lengths ls) = Ok (h', ev) ->
  exists h2' l' l2', fit_from poisson exact h2 (map (move_counts nf s) x) (as_lengths ls) = Ok (h2', ev) /\ same_chain h' h2'
    /\ po_lam (h_em h') = Some (fmat nc nf l') /\ po_lam (h_em h2') = Some (fmat nc nf l2')
    /\ (forall i f, (i < nc)%nat -> (f < nf)%nat -> l2' i f = l' i (s f)).
Proof. exact (@C87_poisson_l _ _ _ _ _ _ _ _ _ _ _ _ _ _ _ _ _ _ _). Qed.
Print Assumptions C87_poisson.

Theorem C87_poisson_answers h h2 nc nf pi A lam lam2 s x ls :
  permutes nf s -> c_impl (h_cfg h2) = c_impl (h_cfg h) -> c_algorithm (h_cfg h2) = c_algorithm (h_cfg h) ->
  pois_model h nc nf pi A lam -> pois_model h2 nc nf pi A lam2 ->
  (forall i f, (i < nc)%nat -> (f < nf)%nat -> lam2 i f = lam i (s f)) ->
  Forall (counts_ok nf) x -> same_answers poisson (move_counts nf s) h h2 x ls.
Proof. exact (@C87_poisson_answers_l _ _ _ _ _ _ _ _ _ _ _). Qed.
Print Assumptions C87_poisson_answers.

(** ** C87: MultinomialHMM *)
Theorem C87_multinomial h h2 nc nf pi A e e2 sp tp s ls x h' ev :
  permutes nf s -> same_settings h h2 ->
  mult_model h nc nf pi A e -> priors (h_cfg h) nc sp tp ->
  mult_model h2 nc nf pi A e2 -> priors (h_cfg h2) nc sp tp ->
  (forall i f, (i < nc)%nat -> (f < nf)%nat -> e2 i f = e i (s f)) ->
  (forall i, (i < nc)%nat -> 1 <= sp i) -> (forall i j, (i < nc)%nat -> (j < nc)%nat -> 1 <= tp i j) ->
  good_data (trials_ok nf) ls x -> possible nc pi A (mult_b nf e) ls x ->
  (has "e" (c_params (h_cfg h)) = true -> all_used nc pi A (mult_b nf e) (chunks ls x)) ->
  fit_from multinomial exact h x (as_lengths ls) = Ok (h', ev) ->
  exists h2' e' e2', fit_from multinomial exact h2 (map (move_counts nf s) x) (as_lengths ls) = Ok (h2', ev) /\ same_chain h' h2'
    /\ mu_prob (h_em h') = Some (fmat nc nf e') /\ mu_prob (h_em h2') = Some (fmat nc nf e2')
    /\ (forall i f, (i < nc)%nat -> (f < nf)%nat -> e2' i f = e' i (s f)).
Proof. exact (@C87_multinomial_l _ _ _ _ _ _ _ _ _ _ _ _ _ _ _). Qed.
Print Assumptions C87_multinomial.

Theorem C87_multinomial_answers h h2 nc nf pi A e e2 s x ls :
  permutes nf s -> c_impl (h_cfg h2) = c_impl (h_cfg h) -> c_algorithm (h_cfg h2) = c_algorithm (h_cfg h) ->
  mult_model h nc nf pi A e -> mult_model h2 nc nf pi A e2 ->
  (forall i f, (i < nc)%nat -> (f < nf)%nat -> e2 i f = e i (s f)) ->
  Forall (counts_ok nf) x -> same_answers multinomial (move_counts nf s) h h2 x ls.
Proof. exact (@C87_multinomial_answers_l _ _ _ _ _ _ _ _ _ _ _). Qed.
Print Assumptions C87_multinomial_answers.

(** The origin may be moved when the means are trained along with the variances. *)
Theorem C87_gaussian h h2 nc nf pi A mu var mu2 var2 m0 w cp m02 w2 cp2 a sp tp s g c ls x h' ev :
  permutes nf s -> unit_sign nf g -> same_settings h h2 -> ga_type (h_em h2) = ga_type (h_em h) ->
  gauss_model h nc nf pi A mu var -> gauss_hyper h nc nf m0 w cp a -> priors (h_cfg h) nc sp tp ->
  gauss_model h2 nc nf pi A mu2 var2 -> gauss_hyper h2 nc nf m02 w2 cp2 a -> priors (h_cfg h2) nc sp tp ->
  (forall i f, (i < nc)%nat -> (f < nf)%nat -> mu2 i f = g f * mu i (s f) + c f /\ var2 i f = var i (s f)) ->
  (forall i f, (i < nc)%nat -> (f < nf)%nat -> w2 i f = w i (s f) /\ cp2 i f = cp i (s f)
     /\ (w i (s f) = 0 \/ m02 i f = g f * m0 i (s f) + c f)) ->
  (has "c" (c_params (h_cfg h)) = true -> has "m" (c_params (h_cfg h)) = true \/ forall f, (f < nf)%nat -> c f = 0) ->
  nonneg2 nc nf w -> (forall i, (i < nc)%nat -> 1 <= sp i) ->
  (forall i j, (i < nc)%nat -> (j < nc)%nat -> 1 <= tp i j) ->
  good_data (finite_row nf) ls x -> possible nc pi A (gauss_b nf mu (floored var)) ls x ->
  (has "m" (c_params (h_cfg h)) = true ->
     all_used nc pi A (gauss_b nf mu (floored var)) (chunks ls x)
     \/ forall i f, (i < nc)%nat -> (f < nf)%nat -> 0 < w i f) ->
  fit_from gaussian exact h x (as_lengths ls) = Ok (h', ev) ->
  exists h2' m' m2' v' v2', fit_from gaussian exact h2 (map (move_row nf s g c) x) (as_lengths ls) = Ok (h2', ev) /\ same_chain h' h2'
    /\ ga_type (h_em h2') = ga_type (h_em h')
    /\ ga_means (h_em h') = Some (fmat nc nf m') /\ ga_means (h_em h2') = Some (fmat nc nf m2')
    /\ (exists cv, ga_covars (h_em h') = Some cv /\ vcov nc nf v' (ga_type (h_em h')) cv)
    /\ (exists cv, ga_covars (h_em h2') = Some cv /\ vcov nc nf v2' (ga_type (h_em h')) cv)
    /\ (forall i f, (i < nc)%nat -> (f < nf)%nat -> m2' i f = g f * m' i (s f) + c f /\ v2' i f = v' i (s f)).
Proof. exact (@C87_gaussian_l _ _ _ _ _ _ _ _ _ _ _ _ _ _ _ _ _ _ _ _ _ _ _ _ _ _). Qed.
Print Assumptions C87_gaussian.

Theorem C87_gaussian_answers h h2 nc nf pi A mu var mu2 var2 s g c x ls :
  permutes nf s -> unit_sign nf g -> c_impl (h_cfg h2) = c_impl (h_cfg h) -> c_algorithm (h_cfg h2) = c_algorithm (h_cfg h) ->
  gauss_model h nc nf pi A mu var -> gauss_model h2 nc nf pi A mu2 var2 ->
  (forall i f, (i < nc)%nat -> (f < nf)%nat -> mu2 i f = g f * mu i (s f) + c f /\ var2 i f = var i (s f)) ->
  Forall (finite_row nf) x -> same_answers gaussian (move_row nf s g c) h h2 x ls.
Proof. exact (@C87_gaussian_answers_l _ _ _ _ _ _ _ _ _ _ _ _ _ _ _). Qed.
Print Assumptions C87_gaussian_answers.

(** Only the origin is moved. *)
Theorem C87_gaussian_full h h2 nc nf pi A mu mu2 Sg m0 m02 cp w a sp tp c ls x b h' ev :
  same_settings h h2 -> ga_type (h_em h2) = ga_type (h_em h) ->
  full_model h nc nf pi A mu Sg -> full_hyper h nc nf m0 cp w a -> priors (h_cfg h) nc sp tp ->
  full_model h2 nc nf pi A mu2 Sg -> full_hyper h2 nc nf m02 cp w a -> priors (h_cfg h2) nc sp tp ->
  (forall i f, (i < nc)%nat -> (f < nf)%nat -> mu2 i f = mu i f + c f) ->
  (forall i f, (i < nc)%nat -> (f < nf)%nat -> w = 0 \/ m02 i f = m0 i f + c f) ->
  (has "c" (c_params (h_cfg h)) = true -> has "m" (c_params (h_cfg h)) = true) ->
  (forall i, (i < nc)%nat -> 1 <= sp i) -> (forall i j, (i < nc)%nat -> (j < nc)%nat -> 1 <= tp i j) ->
  good_data (finite_row nf) ls x -> normal_densities nc nf mu Sg b -> possible nc pi A b ls x ->
  full_used h w a (all_used nc pi A b (chunks ls x)) ->
  fit_from gaussian exact h x (as_lengths ls) = Ok (h', ev) ->
  let move := move_row nf (fun f => f) (fun _ => 1) c in
  exists h2' m' m2' Sg', fit_from gaussian exact h2 (map move x) (as_lengths ls) = Ok (h2', ev) /\ same_chain h' h2'
    /\ ga_type (h_em h2') = ga_type (h_em h')
    /\ ga_means (h_em h') = Some (fmat nc nf m') /\ ga_means (h_em h2') = Some (fmat nc nf m2')
    /\ (exists cv, ga_covars (h_em h') = Some cv /\ mcov nc nf Sg' (ga_type (h_em h')) cv)
    /\ (exists cv, ga_covars (h_em h2') = Some cv /\ mcov nc nf Sg' (ga_type (h_em h')) cv)
    /\ (forall i f, (i < nc)%nat -> (f < nf)%nat -> m2' i f = m' i f + c f).
Proof. exact (@C87_gaussian_full_l _ _ _ _ _ _ _ _ _ _ _ _ _ _ _ _ _ _ _ _ _ _). Qed.
Print Assumptions C87_gaussian_full.

Theorem C87_gaussian_full_answers h h2 nc nf pi A mu mu2 Sg c x ls :
  c_impl (h_cfg h2) = c_impl (h_cfg h) -> c_algorithm (h_cfg h2) = c_algorithm (h_cfg h) ->
  full_model h nc nf pi A mu Sg -> full_model h2 nc nf pi A mu2 Sg ->
  (forall i f, (i < nc)%nat -> (f < nf)%nat -> mu2 i f = mu i f + c f) ->
  Forall (finite_row nf) x -> same_answers gaussian (move_row nf (fun f => f) (fun _ => 1) c) h h2 x ls.
Proof. exact (@C87_gaussian_full_answers_l _ _ _ _ _ _ _ _ _ _ _ _). Qed.
Print Assumptions C87_gaussian_full_answers.

(** Symbols 0, 1, 2 written as 1, 2, 0. *)
Example C87_categorical_applies :
  let h := ex_h "log" "map" in
  let h2 := with_emissions h (Catp (Scal (Fin 1)) (Some (fmat 2 3 (fun i k => ex_e i (unrot3 k))))) in
  map (rename_symbol rot3) ex_x = [1; 2; 0]%Z
  /\ exists h' h2' ev, fit_from categorical exact h ex_x (as_lengths [3]%nat) = Ok (h', ev)
     /\ fit_from categorical exact h2 [1; 2; 0]%Z (as_lengths [3]%nat) = Ok (h2', ev) /\ same_chain h' h2'
     /\ predict categorical exact h2 [1; 2; 0]%Z None = predict categorical exact h ex_x None.
Proof. exact (@C87_categorical_applies_l). Qed.

(** Categories moved: column 0 of the new counts is column 1 of the old ones. *)
Example C87_multinomial_applies :
  let h := ex_mu "ste" in
  let h2 := with_emissions h (Mulp (Some (TNum 4)) (Some (fmat 2 3 (fun i f => ex_me i (rot3 f))))) in
  map (move_counts 3 rot3) ex_mx = [[1; 0; 3]; [2; 2; 0]]%Z
  /\ exists h' h2' ev, fit_from multinomial exact h ex_mx (as_lengths [2]%nat) = Ok (h', ev)
     /\ fit_from multinomial exact h2 [[1; 0; 3]; [2; 2; 0]]%Z (as_lengths [2]%nat) = Ok (h2', ev)
     /\ mu_prob (h_em h') = Some (fmat 2 3 (fun i f => IZR (nth f (nth i ex_mx []) 0%Z) / 4))
     /\ mu_prob (h_em h2') = Some (fmat 2 3 (fun i f => IZR (nth (rot3 f) (nth i ex_mx []) 0%Z) / 4)).
Proof. exact (@C87_multinomial_applies_l). Qed.

Example C87_gaussian_applies :
  let h := ex_sw "diag" "mc" 0 in
  let h2 := ex_ga 2 sw_pi sw_A "diag" "mc" 0 (fmat 2 2 (fun _ _ => 9)) (one_cov "diag") in
  map (move_row 2 swap2 (fun _ => -1) (fun _ => 10)) sx = sx3
  /\ exists h' h2' ev, fit_from gaussian exact h sx (as_lengths [2; 2]%nat) = Ok (h', ev)
     /\ fit_from gaussian exact h2 sx3 (as_lengths [2; 2]%nat) = Ok (h2', ev) /\ same_chain h' h2'
     /\ ga_means (h_em h') = Some (fmat 2 2 (fun i _ => match i with 0%nat => 1 | _ => 7 end))
     /\ ga_means (h_em h2') = Some (fmat 2 2 (fun i _ => match i with 0%nat => 9 | _ => 3 end)).
Proof. exact (@C87_gaussian_applies_l). Qed.

Example C87_gaussian_full_applies : forall ty, ty = "tied"%string \/ ty = "full"%string ->
  let h := ex_fw ty (Arr2 (fmat 2 2 id2)) in
  let h2 := ex_fu 2 sw_pi sw_A ty "mc" (Arr2 (fmat 2 2 id2)) (fmat 2 2 (fun _ _ => 11)) (id_cov ty) in
  map (move_row 2 (fun f => f) (fun _ => 1) (fun _ => 10)) sx = sx4
  /\ exists h' h2' ev, fit_from gaussian exact h sx (as_lengths [2; 2]%nat) = Ok (h', ev)
     /\ fit_from gaussian exact h2 sx4 (as_lengths [2; 2]%nat) = Ok (h2', ev) /\ same_chain h' h2'
     /\ ga_means (h_em h') = Some (fmat 2 2 (fun i _ => match i with 0%nat => 1 | _ => 7 end))
     /\ ga_means (h_em h2') = Some (fmat 2 2 (fun i _ => match i with 0%nat => 11 | _ => 17 end)).
Proof. exact (@C87_gaussian_full_applies_l). Qed.

Theorem C87_origin_refuted : exists h h2 nc nf pi A mu mu2 var c ls x h' h2' ev ev2 v' v2',
  same_settings h h2 /\ ga_type (h_em h) = "diag"%string /\ ga_type (h_em h2) = "diag"%string
  /\ gauss_model h nc nf pi A mu var /\ flat_base h /\ gauss_default h 0
  /\ gauss_model h2 nc nf pi A mu2 var /\ flat_base h2 /\ gauss_default h2 0
  /\ (forall i f, mu2 i f = mu i f + c f)
  /\ has "m" (c_params (h_cfg h)) = false /\ has "c" (c_params (h_cfg h)) = true
  /\ good_data (finite_row nf) ls x /\ possible nc pi A (gauss_b nf mu (floored var)) ls x
  /\ fit_from gaussian exact h x (as_lengths ls) = Ok (h', ev)
  /\ fit_from gaussian exact h2 (map (move_row nf (fun f => f) (fun _ => 1) c) x) (as_lengths ls) = Ok (h2', ev2)
  /\ ga_covars (h_em h') = Some (CV2 (fmat nc nf v')) /\ ga_covars (h_em h2') = Some (CV2 (fmat nc nf v2'))
  /\ v' 0%nat 0%nat = 2 * 10 ^ 5 /\ v2' 0%nat 0%nat = 0.
Proof. exact (@C87_origin_refuted_l). Qed.
Print Assumptions C87_origin_refuted.

