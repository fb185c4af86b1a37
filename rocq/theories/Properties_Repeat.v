(** * Property C92: training on repeated data. *)
From Verif Require Import Repeat_thms Repeat_ex.

(** ** C92: CategoricalHMM *)
Theorem C92_categorical h h2 nc nf pi A e sp tp ep m ls x ls2 x2 h' ev :
  scaled_settings m h h2 -> repeats_data m ls x ls2 x2 ->
  cat_model h nc nf pi A e -> cat_priors h nc nf sp tp ep ->
  cat_model h2 nc nf pi A e ->
  cat_priors h2 nc nf (fun i => 1 + INR m * (sp i - 1)) (fun i j => 1 + INR m * (tp i j - 1)) (fun i k => 1 + INR m * (ep i k - 1)) ->
  good_data (sym_ok nf) ls x -> good_data (sym_ok nf) ls2 x2 -> possible nc pi A (cat_b e) ls x ->
  fit_from categorical exact h x (as_lengths ls) = Ok (h', ev) ->
  exists h2' ev2, fit_from categorical exact h2 x2 (as_lengths ls2) = Ok (h2', ev2) /\ same_training m h' h2'
    /\ cat_prob (h_em h2') = cat_prob (h_em h').
Proof. exact (@C92_categorical_l _ _ _ _ _ _ _ _ _ _ _ _ _ _ _ _ _). Qed.
Print Assumptions C92_categorical.

(** ** C92: PoissonHMM *)
Theorem C92_poisson h h2 nc nf pi A lam al be sp tp m ls x ls2 x2 h' ev :
  scaled_settings m h h2 -> repeats_data m ls x ls2 x2 ->
  pois_model h nc nf pi A lam -> gamma_prior nc nf (h_em h) al be -> priors (h_cfg h) nc sp tp ->
  pois_model h2 nc nf pi A lam ->
  gamma_prior nc nf (h_em h2) (fun i f => INR m * al i f) (fun i f => INR m * be i f) ->
  priors (h_cfg h2) nc (fun i => 1 + INR m * (sp i - 1)) (fun i j => 1 + INR m * (tp i j - 1)) ->
  nonneg2 nc nf al -> nonneg2 nc nf be -> (forall i, (i < nc)%nat -> 1 <= sp i) ->
  (forall i j, (i < nc)%nat -> (j < nc)%nat -> 1 <= tp i j) ->
  good_data (counts_ok nf) ls x -> good_data (counts_ok nf) ls2 x2 -> possible nc pi A (pois_b nf lam) ls x ->
  (has "l" (c_params (h_cfg h)) = true -> all_used nc pi A (pois_b nf lam) (chunks ls x)) ->
  fit_from poisson exact h x (as_lengths ls) = Ok (h', ev) ->
  exists h2' ev2, fit_from poisson exact h2 x2 (as_lengths ls2) = Ok (h2', ev2) /\ same_training m h' h2'
    /\ po_lam (h_em h2') = po_lam (h_em h').
Proof. exact (@C92_poisson_l _ _ _ _ _ _ _ _ _ _ _ _ _ _ _ _ _ _). Qed.
Print Assumptions C92_poisson.

(** ** C92: MultinomialHMM *)
Theorem C92_multinomial h h2 nc nf pi A e sp tp m ls x ls2 x2 h' ev :
  scaled_settings m h h2 -> repeats_data m ls x ls2 x2 ->
  mult_model h nc nf pi A e -> priors (h_cfg h) nc sp tp -> mult_model h2 nc nf pi A e ->
  priors (h_cfg h2) nc (fun i => 1 + INR m * (sp i - 1)) (fun i j => 1 + INR m * (tp i j - 1)) ->
  (forall i, (i < nc)%nat -> 1 <= sp i) -> (forall i j, (i < nc)%nat -> (j < nc)%nat -> 1 <= tp i j) ->
  good_data (trials_ok nf) ls x -> good_data (trials_ok nf) ls2 x2 -> possible nc pi A (mult_b nf e) ls x ->
  (has "e" (c_params (h_cfg h)) = true -> all_used nc pi A (mult_b nf e) (chunks ls x)) ->
  fit_from multinomial exact h x (as_lengths ls) = Ok (h', ev) ->
  exists h2' ev2, fit_from multinomial exact h2 x2 (as_lengths ls2) = Ok (h2', ev2) /\ same_training m h' h2'
    /\ mu_prob (h_em h2') = mu_prob (h_em h').
Proof. exact (@C92_multinomial_l _ _ _ _ _ _ _ _ _ _ _ _ _ _ _ _). Qed.
Print Assumptions C92_multinomial.

(** ** C92: GaussianHMM, "diag" and "spherical" *)
Theorem C92_gaussian h h2 nc nf pi A mu var m0 w cp a sp tp m ls x ls2 x2 h' ev :
  scaled_settings m h h2 -> repeats_data m ls x ls2 x2 -> ga_type (h_em h2) = ga_type (h_em h) ->
  gauss_model h nc nf pi A mu var -> gauss_hyper h nc nf m0 w cp a -> priors (h_cfg h) nc sp tp ->
  gauss_model h2 nc nf pi A mu var ->
  gauss_hyper h2 nc nf m0 (fun i f => INR m * w i f) (fun i f => INR m * cp i f) (INR m * a) ->
  priors (h_cfg h2) nc (fun i => 1 + INR m * (sp i - 1)) (fun i j => 1 + INR m * (tp i j - 1)) ->
  nonneg2 nc nf w -> / 10 ^ 5 <= a -> (forall i, (i < nc)%nat -> 1 <= sp i) ->
  (forall i j, (i < nc)%nat -> (j < nc)%nat -> 1 <= tp i j) ->
  good_data (finite_row nf) ls x -> good_data (finite_row nf) ls2 x2 ->
  possible nc pi A (gauss_b nf mu (floored var)) ls x ->
  (has "m" (c_params (h_cfg h)) = true ->
     all_used nc pi A (gauss_b nf mu (floored var)) (chunks ls x)
     \/ forall i f, (i < nc)%nat -> (f < nf)%nat -> 0 < w i f) ->
  fit_from gaussian exact h x (as_lengths ls) = Ok (h', ev) ->
  exists h2' ev2 v', fit_from gaussian exact h2 x2 (as_lengths ls2) = Ok (h2', ev2) /\ same_training m h' h2'
    /\ ga_means (h_em h2') = ga_means (h_em h') /\ ga_type (h_em h2') = ga_type (h_em h')
    /\ (exists cv, ga_covars (h_em h') = Some cv /\ vcov nc nf v' (ga_type (h_em h')) cv)
    /\ (exists cv, ga_covars (h_em h2') = Some cv /\ vcov nc nf v' (ga_type (h_em h')) cv).
Proof. exact (@C92_gaussian_l _ _ _ _ _ _ _ _ _ _ _ _ _ _ _ _ _ _ _ _ _). Qed.
Print Assumptions C92_gaussian.

(** ** C92: GaussianHMM, "full" and "tied" *)
Theorem C92_gaussian_full h h2 nc nf pi A mu Sg m0 cp w a sp tp m ls x ls2 x2 b h' ev :
  scaled_settings m h h2 -> repeats_data m ls x ls2 x2 -> ga_type (h_em h2) = ga_type (h_em h) ->
  full_model h nc nf pi A mu Sg -> full_hyper h nc nf m0 cp w a -> priors (h_cfg h) nc sp tp ->
  full_model h2 nc nf pi A mu Sg ->
  full_hyper h2 nc nf m0 (fun k j => INR m * cp k j) (INR m * w) (INR m * a) ->
  priors (h_cfg h2) nc (fun i => 1 + INR m * (sp i - 1)) (fun i j => 1 + INR m * (tp i j - 1)) ->
  (forall i, (i < nc)%nat -> 1 <= sp i) -> (forall i j, (i < nc)%nat -> (j < nc)%nat -> 1 <= tp i j) ->
  good_data (finite_row nf) ls x -> good_data (finite_row nf) ls2 x2 ->
  normal_densities nc nf mu Sg b -> possible nc pi A b ls x ->
  full_used h w a (all_used nc pi A b (chunks ls x)) ->
  fit_from gaussian exact h x (as_lengths ls) = Ok (h', ev) ->
  exists h2' ev2 Sg', fit_from gaussian exact h2 x2 (as_lengths ls2) = Ok (h2', ev2) /\ same_training m h' h2'
    /\ ga_means (h_em h2') = ga_means (h_em h') /\ ga_type (h_em h2') = ga_type (h_em h')
    /\ (exists cv, ga_covars (h_em h') = Some cv /\ mcov nc nf Sg' (ga_type (h_em h')) cv)
    /\ (exists cv, ga_covars (h_em h2') = Some cv /\ mcov nc nf Sg' (ga_type (h_em h')) cv).
Proof. exact (@C92_gaussian_full_l _ _ _ _ _ _ _ _ _ _ _ _ _ _ _ _ _ _ _ _ _ _). Qed.
Print Assumptions C92_gaussian_full.

Example C92_categorical_applies :
  let h := ex_h "log" "map" in let h2 := looser 2 h (h_em h) in
  repeats_data 2 [3]%nat ex_x [3; 3]%nat (ex_x ++ ex_x)
  /\ exists h' h2' ev ev2, fit_from categorical exact h ex_x (as_lengths [3]%nat) = Ok (h', ev)
     /\ fit_from categorical exact h2 (ex_x ++ ex_x) (as_lengths [3; 3]%nat) = Ok (h2', ev2)
     /\ same_training 2 h' h2' /\ cat_prob (h_em h2') = cat_prob (h_em h').
Proof. exact (@C92_categorical_applies_l). Qed.

(** The fitted rates are (0, 4) both times. *)
Example C92_poisson_applies :
  let h := ex_po "stl" 0 0 in let h2 := looser 2 h (h_em h) in
  exists h' h2' ev ev2, fit_from poisson exact h ex_px (as_lengths [2]%nat) = Ok (h', ev)
     /\ fit_from poisson exact h2 (ex_px ++ ex_px) (as_lengths [2; 2]%nat) = Ok (h2', ev2) /\ same_training 2 h' h2'
     /\ po_lam (h_em h2') = Some (fmat 2 1 (fun i _ => match i with 0%nat => 0 | _ => 4 end)).
Proof. exact (@C92_poisson_applies_l). Qed.

Example C92_multinomial_applies :
  let h := ex_mu "ste" in let h2 := looser 2 h (h_em h) in
  exists h' h2' ev ev2, fit_from multinomial exact h ex_mx (as_lengths [2]%nat) = Ok (h', ev)
     /\ fit_from multinomial exact h2 (ex_mx ++ ex_mx) (as_lengths [2; 2]%nat) = Ok (h2', ev2) /\ same_training 2 h' h2'
     /\ mu_prob (h_em h2') = Some (fmat 2 3 (fun i f => IZR (nth f (nth i ex_mx []) 0%Z) / 4)).
Proof. exact (@C92_multinomial_applies_l). Qed.

Example C92_gaussian_applies :
  let h2 := looser 2 rp_ga (rp_p 2 3) in
  exists h' h2' ev ev2, fit_from gaussian exact rp_ga sx (as_lengths [2; 2]%nat) = Ok (h', ev)
     /\ fit_from gaussian exact h2 (sx ++ sx) (as_lengths [2; 2; 2; 2]%nat) = Ok (h2', ev2) /\ same_training 2 h' h2'
     /\ ga_means (h_em h2') = ga_means (h_em h').
Proof. exact (@C92_gaussian_applies_l). Qed.

Example C92_gaussian_full_applies : forall ty, ty = "tied"%string \/ ty = "full"%string ->
  let h := ex_fw ty (Arr2 (fmat 2 2 id2)) in
  let h2 := looser 2 h (h_em (ex_fw ty (Arr2 (fmat 2 2 dbl2)))) in
  exists h' h2' ev ev2, fit_from gaussian exact h sx (as_lengths [2; 2]%nat) = Ok (h', ev)
     /\ fit_from gaussian exact h2 (sx ++ sx) (as_lengths [2; 2; 2; 2]%nat) = Ok (h2', ev2) /\ same_training 2 h' h2'
     /\ ga_means (h_em h2') = Some (fmat 2 2 (fun i _ => match i with 0%nat => 1 | _ => 7 end)).
Proof. exact (@C92_gaussian_full_applies_l). Qed.

