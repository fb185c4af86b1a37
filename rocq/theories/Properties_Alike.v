(** * Property C94: states that start alike. *)
From Verif Require Import Alike Alike_ex Alike_gmm Alike_gmm_ex.

(** ** C94: a renumbering [s] that changes none of the start values and priors
    changes none of the fitted parameters.  Parameters are functions of the number
    of the state, of which only numbers below n_components matter. *)
Theorem C94_categorical h nc nf pi A e sp tp ep s ls x h' ev :
  permutes nc s -> cat_model h nc nf pi A e -> cat_priors h nc nf sp tp ep ->
  (forall i, pi (s i) = pi i) -> (forall i j, A (s i) (s j) = A i j) -> (forall i, e (s i) = e i) ->
  (forall i, sp (s i) = sp i) -> (forall i j, tp (s i) (s j) = tp i j) -> (forall i, ep (s i) = ep i) ->
  good_data (sym_ok nf) ls x -> possible nc pi A (cat_b e) ls x ->
  fit_from categorical exact h x (as_lengths ls) = Ok (h', ev) ->
  alike nc s h' /\ alike_rows nc nf s (cat_prob (h_em h')).
Proof. exact (@C94_categorical_l _ _ _ _ _ _ _ _ _ _ _ _ _ _). Qed.
Print Assumptions C94_categorical.

Theorem C94_poisson h nc nf pi A lam al be sp tp s ls x h' ev :
  permutes nc s -> pois_model h nc nf pi A lam -> gamma_prior nc nf (h_em h) al be -> priors (h_cfg h) nc sp tp ->
  (forall i, pi (s i) = pi i) -> (forall i j, A (s i) (s j) = A i j) -> (forall i, lam (s i) = lam i) ->
  (forall i, al (s i) = al i) -> (forall i, be (s i) = be i) -> (forall i, sp (s i) = sp i) -> (forall i j, tp (s i) (s j) = tp i j) ->
  nonneg2 nc nf al -> nonneg2 nc nf be -> (forall i, (i < nc)%nat -> 1 <= sp i) ->
  (forall i j, (i < nc)%nat -> (j < nc)%nat -> 1 <= tp i j) ->
  good_data (counts_ok nf) ls x -> possible nc pi A (pois_b nf lam) ls x ->
  (has "l" (c_params (h_cfg h)) = true -> all_used nc pi A (pois_b nf lam) (chunks ls x)) ->
  fit_from poisson exact h x (as_lengths ls) = Ok (h', ev) ->
  alike nc s h' /\ alike_rows nc nf s (po_lam (h_em h')).
Proof. exact (@C94_poisson_l _ _ _ _ _ _ _ _ _ _ _ _ _ _ _). Qed.
Print Assumptions C94_poisson.

Theorem C94_multinomial h nc nf pi A e sp tp s ls x h' ev :
  permutes nc s -> mult_model h nc nf pi A e -> priors (h_cfg h) nc sp tp ->
  (forall i, pi (s i) = pi i) -> (forall i j, A (s i) (s j) = A i j) -> (forall i, e (s i) = e i) ->
  (forall i, sp (s i) = sp i) -> (forall i j, tp (s i) (s j) = tp i j) ->
  (forall i, (i < nc)%nat -> 1 <= sp i) -> (forall i j, (i < nc)%nat -> (j < nc)%nat -> 1 <= tp i j) ->
  good_data (trials_ok nf) ls x -> possible nc pi A (mult_b nf e) ls x ->
  (has "e" (c_params (h_cfg h)) = true -> all_used nc pi A (mult_b nf e) (chunks ls x)) ->
  fit_from multinomial exact h x (as_lengths ls) = Ok (h', ev) ->
  alike nc s h' /\ alike_rows nc nf s (mu_prob (h_em h')).
Proof. exact (@C94_multinomial_l _ _ _ _ _ _ _ _ _ _ _ _ _). Qed.
Print Assumptions C94_multinomial.

Theorem C94_gaussian h nc nf pi A mu var m0 w cp a sp tp s ls x h' ev :
  permutes nc s -> gauss_model h nc nf pi A mu var -> gauss_hyper h nc nf m0 w cp a -> priors (h_cfg h) nc sp tp ->
  (forall i, pi (s i) = pi i) -> (forall i j, A (s i) (s j) = A i j) -> (forall i, mu (s i) = mu i) -> (forall i, var (s i) = var i) ->
  (forall i, m0 (s i) = m0 i) -> (forall i, w (s i) = w i) -> (forall i, cp (s i) = cp i) ->
  (forall i, sp (s i) = sp i) -> (forall i j, tp (s i) (s j) = tp i j) ->
  nonneg2 nc nf w -> (forall i, (i < nc)%nat -> 1 <= sp i) ->
  (forall i j, (i < nc)%nat -> (j < nc)%nat -> 1 <= tp i j) ->
  good_data (finite_row nf) ls x -> possible nc pi A (gauss_b nf mu (floored var)) ls x ->
  (has "m" (c_params (h_cfg h)) = true ->
     all_used nc pi A (gauss_b nf mu (floored var)) (chunks ls x)
     \/ forall i f, (i < nc)%nat -> (f < nf)%nat -> 0 < w i f) ->
  fit_from gaussian exact h x (as_lengths ls) = Ok (h', ev) ->
  alike nc s h' /\ alike_rows nc nf s (ga_means (h_em h'))
  /\ exists v cv, ga_covars (h_em h') = Some cv /\ vcov nc nf v (ga_type (h_em h')) cv
       /\ forall i f, (i < nc)%nat -> (f < nf)%nat -> v (s i) f = v i f.
Proof. exact (@C94_gaussian_l _ _ _ _ _ _ _ _ _ _ _ _ _ _ _ _ _ _). Qed.
Print Assumptions C94_gaussian.

Theorem C94_gaussian_full h nc nf pi A mu Sg m0 cp w a sp tp s ls x b h' ev :
  permutes nc s -> full_model h nc nf pi A mu Sg -> full_hyper h nc nf m0 cp w a -> priors (h_cfg h) nc sp tp ->
  (forall i, pi (s i) = pi i) -> (forall i j, A (s i) (s j) = A i j) -> (forall i, mu (s i) = mu i) -> (forall i, Sg (s i) = Sg i) ->
  (forall i, m0 (s i) = m0 i) -> (forall i, sp (s i) = sp i) -> (forall i j, tp (s i) (s j) = tp i j) ->
  (forall i, (i < nc)%nat -> 1 <= sp i) -> (forall i j, (i < nc)%nat -> (j < nc)%nat -> 1 <= tp i j) ->
  good_data (finite_row nf) ls x -> normal_densities nc nf mu Sg b -> possible nc pi A b ls x ->
  full_used h w a (all_used nc pi A b (chunks ls x)) ->
  fit_from gaussian exact h x (as_lengths ls) = Ok (h', ev) ->
  alike nc s h' /\ alike_rows nc nf s (ga_means (h_em h'))
  /\ exists Sg' cv, ga_covars (h_em h') = Some cv /\ mcov nc nf Sg' (ga_type (h_em h')) cv
       /\ forall i k l, (i < nc)%nat -> (k < nf)%nat -> (l < nf)%nat -> Sg' (s i) k l = Sg' i k l.
Proof. exact (@C94_gaussian_full_l _ _ _ _ _ _ _ _ _ _ _ _ _ _ _ _ _ _ _). Qed.
Print Assumptions C94_gaussian_full.

Example C94_categorical_applies : exists h' ev, fit_from categorical exact al_h ex_x (as_lengths [3]%nat) = Ok (h', ev)
  /\ alike 2 swap2 h' /\ alike_rows 2 3 swap2 (cat_prob (h_em h')).
Proof. exact (@C94_categorical_applies_l). Qed.

Example C94_poisson_applies : exists h' ev, fit_from poisson exact al_po ex_px (as_lengths [2]%nat) = Ok (h', ev)
  /\ alike 2 swap2 h' /\ alike_rows 2 1 swap2 (po_lam (h_em h')).
Proof. exact (@C94_poisson_applies_l). Qed.

(** GaussianHMM with "diag" covariances. *)
Example C94_gaussian_applies : let h := ex_ga 2 even1 even2 "diag" "stmc" 0 (fmat 2 2 (fun _ _ => 1)) (CV2 (fmat 2 2 (fun _ _ => 1))) in
  exists h' ev, fit_from gaussian exact h sx (as_lengths [2; 2]%nat) = Ok (h', ev)
  /\ alike 2 swap2 h' /\ alike_rows 2 2 swap2 (ga_means (h_em h')).
Proof. exact (@C94_gaussian_applies_l). Qed.

Example C94_multinomial_applies : exists h' ev, fit_from multinomial exact al_mu ex_mx (as_lengths [2]%nat) = Ok (h', ev)
  /\ alike 2 swap2 h' /\ alike_rows 2 3 swap2 (mu_prob (h_em h')).
Proof. exact (@C94_multinomial_applies_l). Qed.

(** GaussianHMM with "full" and "tied" covariances. *)
Example C94_gaussian_full_applies : forall ty, ty = "tied"%string \/ ty = "full"%string ->
  let h := ex_fu 2 even1 even2 ty "mc" (Arr2 (fmat 2 2 id2)) (fmat 2 2 (fun _ _ => 1)) (id_cov ty) in
  exists h' ev, fit_from gaussian exact h sx (as_lengths [2; 2]%nat) = Ok (h', ev)
  /\ alike 2 swap2 h' /\ alike_rows 2 2 swap2 (ga_means (h_em h')).
Proof. exact (@C94_gaussian_full_applies_l). Qed.

(** State [i] becomes state [s i] and its component [k] becomes component [t i k];
    what training starts from does not change, so the result does not. *)
Theorem C94_gmm eig h nc nm nf ty pi A w mu cv wp mw mp cp cw sp tp s t ls x h' ev :
  permutes nc s -> (forall i, (i < nc)%nat -> permutes nm (t i)) ->
  gmm_model eig h nc nm nf ty pi A w mu cv -> gmm_hyper (h_em h) nc nm nf ty wp mw mp cp cw -> priors (h_cfg h) nc sp tp ->
  (forall i, pi (s i) = pi i) -> (forall i j, A (s i) (s j) = A i j) ->
  (forall i k, w (s i) (t i k) = w i k) -> (forall i k, mu (s i) (t i k) = mu i k) -> (forall idx, cv (renum_idx ty s t idx) = cv idx) ->
  (forall i k, wp (s i) (t i k) = wp i k) -> (forall i k, mw (s i) (t i k) = mw i k) -> (forall i k, mp (s i) (t i k) = mp i k) ->
  (forall idx, cp (renum_idx ty s t idx) = cp idx) -> (forall idx, cw (renum_idx ty s t idx) = cw idx) ->
  (forall i, sp (s i) = sp i) -> (forall i j, tp (s i) (s j) = tp i j) ->
  hyper_ok nc nm nf ty wp mw cp cw -> (forall i k, (i < nc)%nat -> (k < nm)%nat -> 0 < w i k) ->
  (forall i, (i < nc)%nat -> 1 <= sp i) -> (forall i j, (i < nc)%nat -> (j < nc)%nat -> 1 <= tp i j) ->
  good_data (finite_row nf) ls x -> possible nc pi A (mixb nm nf ty w mu cv) ls x ->
  all_used nc pi A (mixb nm nf ty w mu cv) (chunks ls x) ->
  fit_from (gmm eig) exact h x (as_lengths ls) = Ok (h', ev) ->
  alike nc s h'
  /\ exists w' mu' cv',
       gm_weights (h_em h') = Some (nd2 nc nm w') /\ gm_means (h_em h') = Some (nd3 nc nm nf mu')
       /\ gm_covars (h_em h') = Some (fnd (cshape nc nm nf ty) cv')
       /\ (forall i k, (i < nc)%nat -> (k < nm)%nat -> w' (s i) (t i k) = w' i k)
       /\ (forall i k f, (i < nc)%nat -> (k < nm)%nat -> (f < nf)%nat -> mu' (s i) (t i k) f = mu' i k f)
       /\ (forall idx, inb idx (cshape nc nm nf ty) -> cv' (renum_idx ty s t idx) = cv' idx).
Proof. exact (@C94_gmm_l _ _ _ _ _ _ _ _ _ _ _ _ _ _ _ _ _ _ _ _ _ _ _ _). Qed.
Print Assumptions C94_gmm.

(** One state with two equal components; they are still equal after training. *)
Example C94_gmm_applies : forall ty, In ty ["diag"; "full"; "tied"]%string ->
  let h := exd ty "stmcw" in
  gmm_model eig1 h 1 2 1 ty u1 all1 half2 (cmu 0) (ccv 1)
  /\ exists h' ev w' mu', fit_from (gmm eig1) exact h exd_x (as_lengths [1; 1]%nat) = Ok (h', ev)
     /\ gm_weights (h_em h') = Some (nd2 1 2 w') /\ gm_means (h_em h') = Some (nd3 1 2 1 mu')
     /\ w' 0%nat 1%nat = w' 0%nat 0%nat /\ mu' 0%nat 1%nat 0%nat = mu' 0%nat 0%nat 0%nat.
Proof. exact (@C94_gmm_applies_l). Qed.

