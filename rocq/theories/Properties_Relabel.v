(** * Properties C77, C78: renumbered states, reordered sequences. *)
From Verif Require Import Relabel_thms Relabel_gmm Relabel_ex Relabel_gmm_ex.

(** ** C77: CategoricalHMM *)
Theorem C77_categorical h h2 nc nf pi A e sp tp ep s ls x h' ev :
  permutes nc s -> same_settings h h2 ->
  cat_model h nc nf pi A e -> cat_priors h nc nf sp tp ep ->
  cat_model h2 nc nf (fun i => pi (s i)) (fun i j => A (s i) (s j)) (fun i => e (s i)) ->
  cat_priors h2 nc nf (fun i => sp (s i)) (fun i j => tp (s i) (s j)) (fun i => ep (s i)) ->
  good_data (sym_ok nf) ls x -> possible nc pi A (cat_b e) ls x ->
  fit_from categorical exact h x (as_lengths ls) = Ok (h', ev) ->
  exists h2' e', fit_from categorical exact h2 x (as_lengths ls) = Ok (h2', ev) /\ renumbered nc s h' h2'
    /\ cat_prob (h_em h') = Some (fmat nc nf e') /\ cat_prob (h_em h2') = Some (fmat nc nf (fun i => e' (s i))).
Proof. exact (@C77_categorical_l _ _ _ _ _ _ _ _ _ _ _ _ _ _ _). Qed.
Print Assumptions C77_categorical.

(** ** C77: PoissonHMM *)
Theorem C77_poisson h h2 nc nf pi A lam al be sp tp s ls x h' ev :
  permutes nc s -> same_settings h h2 ->
  pois_model h nc nf pi A lam -> gamma_prior nc nf (h_em h) al be -> priors (h_cfg h) nc sp tp ->
  pois_model h2 nc nf (fun i => pi (s i)) (fun i j => A (s i) (s j)) (fun i => lam (s i)) ->
  gamma_prior nc nf (h_em h2) (fun i => al (s i)) (fun i => be (s i)) ->
  priors (h_cfg h2) nc (fun i => sp (s i)) (fun i j => tp (s i) (s j)) ->
  nonneg2 nc nf al -> nonneg2 nc nf be -> (forall i, (i < nc)%nat -> 1 <= sp i) ->
  (forall i j, (i < nc)%nat -> (j < nc)%nat -> 1 <= tp i j) ->
  good_data (counts_ok nf) ls x -> possible nc pi A (pois_b nf lam) ls x ->
  (has "l" (c_params (h_cfg h)) = true -> all_used nc pi A (pois_b nf lam) (chunks ls x)) ->
  fit_from poisson exact h x (as_lengths ls) = Ok (h', ev) ->
  exists h2' l', fit_from poisson exact h2 x (as_lengths ls) = Ok (h2', ev) /\ renumbered nc s h' h2'
    /\ po_lam (h_em h') = Some (fmat nc nf l') /\ po_lam (h_em h2') = Some (fmat nc nf (fun i => l' (s i))).
Proof. exact (@C77_poisson_l _ _ _ _ _ _ _ _ _ _ _ _ _ _ _ _). Qed.
Print Assumptions C77_poisson.

(** ** C77: MultinomialHMM *)
Theorem C77_multinomial h h2 nc nf pi A e sp tp s ls x h' ev :
  permutes nc s -> same_settings h h2 ->
  mult_model h nc nf pi A e -> priors (h_cfg h) nc sp tp ->
  mult_model h2 nc nf (fun i => pi (s i)) (fun i j => A (s i) (s j)) (fun i => e (s i)) ->
  priors (h_cfg h2) nc (fun i => sp (s i)) (fun i j => tp (s i) (s j)) ->
  (forall i, (i < nc)%nat -> 1 <= sp i) -> (forall i j, (i < nc)%nat -> (j < nc)%nat -> 1 <= tp i j) ->
  good_data (trials_ok nf) ls x -> possible nc pi A (mult_b nf e) ls x ->
  (has "e" (c_params (h_cfg h)) = true -> all_used nc pi A (mult_b nf e) (chunks ls x)) ->
  fit_from multinomial exact h x (as_lengths ls) = Ok (h', ev) ->
  exists h2' e', fit_from multinomial exact h2 x (as_lengths ls) = Ok (h2', ev) /\ renumbered nc s h' h2'
    /\ mu_prob (h_em h') = Some (fmat nc nf e') /\ mu_prob (h_em h2') = Some (fmat nc nf (fun i => e' (s i))).
Proof. exact (@C77_multinomial_l _ _ _ _ _ _ _ _ _ _ _ _ _ _). Qed.
Print Assumptions C77_multinomial.

(** ** C77: GaussianHMM, "diag" and "spherical" *)
Theorem C77_gaussian h h2 nc nf pi A mu var m0 w cp a sp tp s ls x h' ev :
  permutes nc s -> same_settings h h2 -> ga_type (h_em h2) = ga_type (h_em h) ->
  gauss_model h nc nf pi A mu var -> gauss_hyper h nc nf m0 w cp a -> priors (h_cfg h) nc sp tp ->
  gauss_model h2 nc nf (fun i => pi (s i)) (fun i j => A (s i) (s j)) (fun i => mu (s i)) (fun i => var (s i)) ->
  gauss_hyper h2 nc nf (fun i => m0 (s i)) (fun i => w (s i)) (fun i => cp (s i)) a ->
  priors (h_cfg h2) nc (fun i => sp (s i)) (fun i j => tp (s i) (s j)) ->
  nonneg2 nc nf w -> (forall i, (i < nc)%nat -> 1 <= sp i) ->
  (forall i j, (i < nc)%nat -> (j < nc)%nat -> 1 <= tp i j) ->
  good_data (finite_row nf) ls x -> possible nc pi A (gauss_b nf mu (floored var)) ls x ->
  (has "m" (c_params (h_cfg h)) = true ->
     all_used nc pi A (gauss_b nf mu (floored var)) (chunks ls x)
     \/ forall i f, (i < nc)%nat -> (f < nf)%nat -> 0 < w i f) ->
  fit_from gaussian exact h x (as_lengths ls) = Ok (h', ev) ->
  exists h2' m' v', fit_from gaussian exact h2 x (as_lengths ls) = Ok (h2', ev) /\ renumbered nc s h' h2'
    /\ ga_means (h_em h') = Some (fmat nc nf m') /\ ga_means (h_em h2') = Some (fmat nc nf (fun i => m' (s i)))
    /\ ga_type (h_em h2') = ga_type (h_em h')
    /\ (exists cv, ga_covars (h_em h') = Some cv /\ vcov nc nf v' (ga_type (h_em h')) cv)
    /\ (exists cv, ga_covars (h_em h2') = Some cv /\ vcov nc nf (fun i => v' (s i)) (ga_type (h_em h')) cv).
Proof. exact (@C77_gaussian_l _ _ _ _ _ _ _ _ _ _ _ _ _ _ _ _ _ _ _). Qed.
Print Assumptions C77_gaussian.

(** ** C77: GaussianHMM, "full" and "tied" *)
Theorem C77_gaussian_full h h2 nc nf pi A mu Sg m0 cp w a sp tp s ls x b h' ev :
  permutes nc s -> same_settings h h2 -> ga_type (h_em h2) = ga_type (h_em h) ->
  full_model h nc nf pi A mu Sg -> full_hyper h nc nf m0 cp w a -> priors (h_cfg h) nc sp tp ->
  full_model h2 nc nf (fun i => pi (s i)) (fun i j => A (s i) (s j)) (fun i => mu (s i)) (fun i => Sg (s i)) ->
  full_hyper h2 nc nf (fun i => m0 (s i)) cp w a ->
  priors (h_cfg h2) nc (fun i => sp (s i)) (fun i j => tp (s i) (s j)) ->
  (forall i, (i < nc)%nat -> 1 <= sp i) -> (forall i j, (i < nc)%nat -> (j < nc)%nat -> 1 <= tp i j) ->
  good_data (finite_row nf) ls x -> normal_densities nc nf mu Sg b -> possible nc pi A b ls x ->
  full_used h w a (all_used nc pi A b (chunks ls x)) ->
  fit_from gaussian exact h x (as_lengths ls) = Ok (h', ev) ->
  exists h2' m' Sg', fit_from gaussian exact h2 x (as_lengths ls) = Ok (h2', ev) /\ renumbered nc s h' h2'
    /\ ga_means (h_em h') = Some (fmat nc nf m') /\ ga_means (h_em h2') = Some (fmat nc nf (fun i => m' (s i)))
    /\ ga_type (h_em h2') = ga_type (h_em h')
    /\ (exists cv, ga_covars (h_em h') = Some cv /\ mcov nc nf Sg' (ga_type (h_em h')) cv)
    /\ (exists cv, ga_covars (h_em h2') = Some cv /\ mcov nc nf (fun i => Sg' (s i)) (ga_type (h_em h')) cv).
Proof. exact (@C77_gaussian_full_l _ _ _ _ _ _ _ _ _ _ _ _ _ _ _ _ _ _ _ _). Qed.
Print Assumptions C77_gaussian_full.

(** ** C78: the order of the sequences *)
Theorem C78_categorical h nc nf pi A e sp tp ep ls x ls2 x2 h' ev :
  cat_model h nc nf pi A e -> cat_priors h nc nf sp tp ep ->
  good_data (sym_ok nf) ls x -> good_data (sym_ok nf) ls2 x2 -> Permutation (chunks ls x) (chunks ls2 x2) ->
  possible nc pi A (cat_b e) ls x ->
  fit_from categorical exact h x (as_lengths ls) = Ok (h', ev) ->
  fit_from categorical exact h x2 (as_lengths ls2) = Ok (h', ev).
Proof. exact (@C78_categorical_l _ _ _ _ _ _ _ _ _ _ _ _ _ _ _). Qed.
Print Assumptions C78_categorical.

Theorem C78_poisson h nc nf pi A lam al be sp tp ls x ls2 x2 h' ev :
  pois_model h nc nf pi A lam -> gamma_prior nc nf (h_em h) al be -> priors (h_cfg h) nc sp tp ->
  nonneg2 nc nf al -> nonneg2 nc nf be -> (forall i, (i < nc)%nat -> 1 <= sp i) ->
  (forall i j, (i < nc)%nat -> (j < nc)%nat -> 1 <= tp i j) ->
  good_data (counts_ok nf) ls x -> good_data (counts_ok nf) ls2 x2 -> Permutation (chunks ls x) (chunks ls2 x2) ->
  possible nc pi A (pois_b nf lam) ls x ->
  (has "l" (c_params (h_cfg h)) = true -> all_used nc pi A (pois_b nf lam) (chunks ls x)) ->
  fit_from poisson exact h x (as_lengths ls) = Ok (h', ev) ->
  fit_from poisson exact h x2 (as_lengths ls2) = Ok (h', ev).
Proof. exact (@C78_poisson_l _ _ _ _ _ _ _ _ _ _ _ _ _ _ _ _). Qed.
Print Assumptions C78_poisson.

Theorem C78_multinomial h nc nf pi A e sp tp ls x ls2 x2 h' ev :
  mult_model h nc nf pi A e -> priors (h_cfg h) nc sp tp ->
  (forall i, (i < nc)%nat -> 1 <= sp i) -> (forall i j, (i < nc)%nat -> (j < nc)%nat -> 1 <= tp i j) ->
  good_data (trials_ok nf) ls x -> good_data (trials_ok nf) ls2 x2 -> Permutation (chunks ls x) (chunks ls2 x2) ->
  possible nc pi A (mult_b nf e) ls x ->
  (has "e" (c_params (h_cfg h)) = true -> all_used nc pi A (mult_b nf e) (chunks ls x)) ->
  fit_from multinomial exact h x (as_lengths ls) = Ok (h', ev) ->
  fit_from multinomial exact h x2 (as_lengths ls2) = Ok (h', ev).
Proof. exact (@C78_multinomial_l _ _ _ _ _ _ _ _ _ _ _ _ _ _). Qed.
Print Assumptions C78_multinomial.

Theorem C78_gaussian h nc nf pi A mu var m0 w cp a sp tp ls x ls2 x2 h' ev :
  gauss_model h nc nf pi A mu var -> gauss_hyper h nc nf m0 w cp a -> priors (h_cfg h) nc sp tp ->
  nonneg2 nc nf w -> (forall i, (i < nc)%nat -> 1 <= sp i) ->
  (forall i j, (i < nc)%nat -> (j < nc)%nat -> 1 <= tp i j) ->
  good_data (finite_row nf) ls x -> good_data (finite_row nf) ls2 x2 -> Permutation (chunks ls x) (chunks ls2 x2) ->
  possible nc pi A (gauss_b nf mu (floored var)) ls x ->
  (has "m" (c_params (h_cfg h)) = true ->
     all_used nc pi A (gauss_b nf mu (floored var)) (chunks ls x)
     \/ forall i f, (i < nc)%nat -> (f < nf)%nat -> 0 < w i f) ->
  fit_from gaussian exact h x (as_lengths ls) = Ok (h', ev) ->
  fit_from gaussian exact h x2 (as_lengths ls2) = Ok (h', ev).
Proof. exact (@C78_gaussian_l _ _ _ _ _ _ _ _ _ _ _ _ _ _ _ _ _ _ _). Qed.
Print Assumptions C78_gaussian.

Theorem C78_gaussian_full h nc nf pi A mu Sg m0 cp w a sp tp ls x ls2 x2 b h' ev :
  full_model h nc nf pi A mu Sg -> full_hyper h nc nf m0 cp w a -> priors (h_cfg h) nc sp tp ->
  (forall i, (i < nc)%nat -> 1 <= sp i) -> (forall i j, (i < nc)%nat -> (j < nc)%nat -> 1 <= tp i j) ->
  good_data (finite_row nf) ls x -> good_data (finite_row nf) ls2 x2 -> Permutation (chunks ls x) (chunks ls2 x2) ->
  normal_densities nc nf mu Sg b -> possible nc pi A b ls x ->
  full_used h w a (all_used nc pi A b (chunks ls x)) ->
  fit_from gaussian exact h x (as_lengths ls) = Ok (h', ev) ->
  fit_from gaussian exact h x2 (as_lengths ls2) = Ok (h', ev).
Proof. exact (@C78_gaussian_full_l _ _ _ _ _ _ _ _ _ _ _ _ _ _ _ _ _ _ _ _). Qed.
Print Assumptions C78_gaussian_full.

(** ** C77: GMMHMM *)
Theorem C77_gmm eig h h2 nc nm nf ty pi A w mu cv wp mw mp cp cw sp tp s t ls x h' ev :
  permutes nc s -> (forall i, (i < nc)%nat -> permutes nm (t i)) -> same_settings h h2 ->
  gmm_model eig h nc nm nf ty pi A w mu cv -> gmm_hyper (h_em h) nc nm nf ty wp mw mp cp cw -> priors (h_cfg h) nc sp tp ->
  gmm_model eig h2 nc nm nf ty (fun i => pi (s i)) (fun i j => A (s i) (s j)) (fun i k => w (s i) (t i k))
    (fun i k => mu (s i) (t i k)) (fun idx => cv (renum_idx ty s t idx)) ->
  gmm_hyper (h_em h2) nc nm nf ty (fun i k => wp (s i) (t i k)) (fun i k => mw (s i) (t i k)) (fun i k => mp (s i) (t i k))
    (fun idx => cp (renum_idx ty s t idx)) (fun idx => cw (renum_idx ty s t idx)) ->
  priors (h_cfg h2) nc (fun i => sp (s i)) (fun i j => tp (s i) (s j)) ->
  hyper_ok nc nm nf ty wp mw cp cw -> (forall i k, (i < nc)%nat -> (k < nm)%nat -> 0 < w i k) ->
  (forall i, (i < nc)%nat -> 1 <= sp i) -> (forall i j, (i < nc)%nat -> (j < nc)%nat -> 1 <= tp i j) ->
  good_data (finite_row nf) ls x -> possible nc pi A (mixb nm nf ty w mu cv) ls x ->
  all_used nc pi A (mixb nm nf ty w mu cv) (chunks ls x) ->
  fit_from (gmm eig) exact h x (as_lengths ls) = Ok (h', ev) ->
  exists h2' w' mu' cv', fit_from (gmm eig) exact h2 x (as_lengths ls) = Ok (h2', ev) /\ renumbered nc s h' h2'
    /\ gm_weights (h_em h') = Some (nd2 nc nm w') /\ gm_weights (h_em h2') = Some (nd2 nc nm (fun i k => w' (s i) (t i k)))
    /\ gm_means (h_em h') = Some (nd3 nc nm nf mu') /\ gm_means (h_em h2') = Some (nd3 nc nm nf (fun i k => mu' (s i) (t i k)))
    /\ gm_covars (h_em h') = Some (fnd (cshape nc nm nf ty) cv')
    /\ gm_covars (h_em h2') = Some (fnd (cshape nc nm nf ty) (fun idx => cv' (renum_idx ty s t idx))).
Proof. exact (@C77_gmm_l _ _ _ _ _ _ _ _ _ _ _ _ _ _ _ _ _ _ _ _ _ _ _ _ _). Qed.
Print Assumptions C77_gmm.

(** ** C78: GMMHMM *)
Theorem C78_gmm eig h nc nm nf ty pi A w mu cv wp mw mp cp cw sp tp ls x ls2 x2 h' ev :
  gmm_model eig h nc nm nf ty pi A w mu cv -> gmm_hyper (h_em h) nc nm nf ty wp mw mp cp cw -> priors (h_cfg h) nc sp tp ->
  hyper_ok nc nm nf ty wp mw cp cw -> (forall i k, (i < nc)%nat -> (k < nm)%nat -> 0 < w i k) ->
  (forall i, (i < nc)%nat -> 1 <= sp i) -> (forall i j, (i < nc)%nat -> (j < nc)%nat -> 1 <= tp i j) ->
  good_data (finite_row nf) ls x -> good_data (finite_row nf) ls2 x2 -> Permutation (chunks ls x) (chunks ls2 x2) ->
  possible nc pi A (mixb nm nf ty w mu cv) ls x -> all_used nc pi A (mixb nm nf ty w mu cv) (chunks ls x) ->
  fit_from (gmm eig) exact h x (as_lengths ls) = Ok (h', ev) ->
  fit_from (gmm eig) exact h x2 (as_lengths ls2) = Ok (h', ev).
Proof. exact (@C78_gmm_l _ _ _ _ _ _ _ _ _ _ _ _ _ _ _ _ _ _ _ _ _ _ _ _). Qed.
Print Assumptions C78_gmm.

(** ** C77 *)
Example C77_categorical_applies :
  let h := ex_h "log" "map" in
  let h2 := renumber swap2 h 2 ex_pi ex_A (Catp (Scal (Fin 1)) (Some (fmat 2 3 (fun i => ex_e (swap2 i))))) in
  permutes 2 swap2 /\ swap2 0 <> 0%nat
  /\ cat_model h 2 3 ex_pi ex_A ex_e
  /\ cat_model h2 2 3 (fun i => ex_pi (swap2 i)) (fun i j => ex_A (swap2 i) (swap2 j)) (fun i => ex_e (swap2 i))
  /\ exists h' h2' ev, fit_from categorical exact h ex_x (as_lengths [3]%nat) = Ok (h', ev)
     /\ fit_from categorical exact h2 ex_x (as_lengths [3]%nat) = Ok (h2', ev) /\ renumbered 2 swap2 h' h2'.
Proof. exact (@C77_categorical_applies_l). Qed.

(** The fitted rates are (0, 4), and (4, 0) when the states are renumbered. *)
Example C77_poisson_applies :
  let h := ex_po "stl" 0 0 in
  let h2 := renumber swap2 h 2 sw_pi sw_A (h_em h) in
  pois_model h2 2 1 (fun i => sw_pi (swap2 i)) (fun i j => sw_A (swap2 i) (swap2 j)) (fun _ _ => 1)
  /\ exists h' h2' ev, fit_from poisson exact h ex_px (as_lengths [2]%nat) = Ok (h', ev)
     /\ fit_from poisson exact h2 ex_px (as_lengths [2]%nat) = Ok (h2', ev)
     /\ po_lam (h_em h') = Some (fmat 2 1 (fun i _ => match i with 0%nat => 0 | _ => 4 end))
     /\ po_lam (h_em h2') = Some (fmat 2 1 (fun i _ => match i with 0%nat => 4 | _ => 0 end)).
Proof. exact (@C77_poisson_applies_l). Qed.

(** State 0 emitted (3,1,0), state 1 emitted (0,2,2), or the other way round. *)
Example C77_multinomial_applies :
  let h := ex_mu "ste" in
  let h2 := renumber swap2 h 2 sw_pi sw_A (Mulp (Some (TNum 4)) (Some (fmat 2 3 (fun i => ex_me (swap2 i))))) in
  mult_model h2 2 3 (fun i => sw_pi (swap2 i)) (fun i j => sw_A (swap2 i) (swap2 j)) (fun i => ex_me (swap2 i))
  /\ exists h' h2' ev, fit_from multinomial exact h ex_mx (as_lengths [2]%nat) = Ok (h', ev)
     /\ fit_from multinomial exact h2 ex_mx (as_lengths [2]%nat) = Ok (h2', ev)
     /\ mu_prob (h_em h') = Some (fmat 2 3 (fun i f => IZR (nth f (nth i ex_mx []) 0%Z) / 4))
     /\ mu_prob (h_em h2') = Some (fmat 2 3 (fun i f => IZR (nth f (nth (1 - i) ex_mx []) 0%Z) / 4)).
Proof. exact (@C77_multinomial_applies_l). Qed.

(** Fitted means 1 and 7, or 7 and 1. *)
Example C77_gaussian_applies :
  let h := ex_sw "diag" "mc" 0 in
  let h2 := renumber swap2 h 2 sw_pi sw_A (h_em h) in
  gauss_model h2 2 2 (fun i => sw_pi (swap2 i)) (fun i j => sw_A (swap2 i) (swap2 j)) (fun _ _ => 1) (fun _ _ => 1)
  /\ exists h' h2' ev, fit_from gaussian exact h sx (as_lengths [2; 2]%nat) = Ok (h', ev)
     /\ fit_from gaussian exact h2 sx (as_lengths [2; 2]%nat) = Ok (h2', ev)
     /\ ga_means (h_em h') = Some (fmat 2 2 (fun i _ => match i with 0%nat => 1 | _ => 7 end))
     /\ ga_means (h_em h2') = Some (fmat 2 2 (fun i _ => match i with 0%nat => 7 | _ => 1 end)).
Proof. exact (@C77_gaussian_applies_l). Qed.

Example C77_gaussian_full_applies : forall ty, ty = "tied"%string \/ ty = "full"%string ->
  let h := ex_fw ty (Arr2 (fmat 2 2 id2)) in
  let h2 := renumber swap2 h 2 sw_pi sw_A (h_em h) in
  full_model h2 2 2 (fun i => sw_pi (swap2 i)) (fun i j => sw_A (swap2 i) (swap2 j)) (fun _ _ => 1) (fun _ => id2)
  /\ exists h' h2' ev, fit_from gaussian exact h sx (as_lengths [2; 2]%nat) = Ok (h', ev)
     /\ fit_from gaussian exact h2 sx (as_lengths [2; 2]%nat) = Ok (h2', ev)
     /\ ga_means (h_em h') = Some (fmat 2 2 (fun i _ => match i with 0%nat => 1 | _ => 7 end))
     /\ ga_means (h_em h2') = Some (fmat 2 2 (fun i _ => match i with 0%nat => 7 | _ => 1 end)).
Proof. exact (@C77_gaussian_full_applies_l). Qed.

Example C78_applies : sx2 <> sx /\ good_data (finite_row 2) [2; 2]%nat sx2
  /\ Permutation (chunks [2; 2]%nat sx) (chunks [2; 2]%nat sx2)
  /\ exists h' ev, fit_from gaussian exact (ex_sw "diag" "stmc" 0) sx (as_lengths [2; 2]%nat) = Ok (h', ev)
     /\ fit_from gaussian exact (ex_sw "diag" "stmc" 0) sx2 (as_lengths [2; 2]%nat) = Ok (h', ev).
Proof. exact (@C78_applies_l). Qed.

Example C77_gmm_applies : forall ty, In ty ["diag"; "full"; "tied"]%string ->
  let h := rx_h (fun k => k) ty in
  let h2 := rx_h swap2 ty in
  gmm_model eig1 h 1 2 1 ty u1 all1 rx_w rx_mu (ccv 1)
  /\ gmm_model eig1 h2 1 2 1 ty u1 all1 (fun i k => rx_w i (swap2 k)) (fun i k => rx_mu i (swap2 k)) (ccv 1)
  /\ exists h' h2' ev w', fit_from (gmm eig1) exact h exd_x (as_lengths [1; 1]%nat) = Ok (h', ev)
     /\ fit_from (gmm eig1) exact h2 exd_x (as_lengths [1; 1]%nat) = Ok (h2', ev)
     /\ gm_weights (h_em h') = Some (nd2 1 2 w') /\ gm_weights (h_em h2') = Some (nd2 1 2 (fun i k => w' i (swap2 k))).
Proof. exact (@C77_gmm_applies_l). Qed.

(** The two samples, each its own sequence, exchanged. *)
Example C78_gmm_applies : forall ty, In ty ["diag"; "full"; "tied"]%string ->
  let x2 := [v1 1; v1 0] in
  exists h' ev, x2 <> exd_x
    /\ fit_from (gmm eig1) exact (rx_h (fun k => k) ty) exd_x (as_lengths [1; 1]%nat) = Ok (h', ev)
    /\ fit_from (gmm eig1) exact (rx_h (fun k => k) ty) x2 (as_lengths [1; 1]%nat) = Ok (h', ev).
Proof. exact (@C78_gmm_applies_l). Qed.

