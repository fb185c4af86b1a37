(** * Property C82: training in two parts. *)
From Verif Require Import Warm_thms Warm_again Warm_ex Warm_v Warm_vex.

Theorem C82_categorical {G} (rg : rng G) fp : two_parts categorical cat_initc rg fp (fun _ => True).
Proof. exact (@C82_categorical_l _ _ _). Qed.
Print Assumptions C82_categorical.

Theorem C82_poisson {G} (rg : rng G) fp : two_parts poisson pois_initc rg fp (fun _ => True).
Proof. exact (@C82_poisson_l _ _ _). Qed.
Print Assumptions C82_poisson.

Theorem C82_multinomial {G} (rg : rng G) fp : two_parts multinomial mult_initc rg fp (fun _ => True).
Proof. exact (@C82_multinomial_l _ _ _). Qed.
Print Assumptions C82_multinomial.

Theorem C82_gaussian {G} (rg : rng G) fp : two_parts gaussian gauss_initc rg fp means_fit.
Proof. exact (@C82_gaussian_l _ _ _). Qed.
Print Assumptions C82_gaussian.

Theorem C82_gmm {G} eig (gr : grng G) (rg : rng G) fp : two_parts (gmm eig) (gmm_initc gr) rg fp (fun _ => True).
Proof. exact (@C82_gmm_l _ _ _ _ _). Qed.
Print Assumptions C82_gmm.

Theorem C82_categorical_returns {G} (rg : rng G) fp : returns_again categorical cat_initc rg fp (fun _ _ => True).
Proof. exact (@C82_categorical_returns_l _ _ _). Qed.
Print Assumptions C82_categorical_returns.

Theorem C82_poisson_returns {G} (rg : rng G) fp : returns_again poisson pois_initc rg fp (fun _ _ => True).
Proof. exact (@C82_poisson_returns_l _ _ _). Qed.
Print Assumptions C82_poisson_returns.

Theorem C82_multinomial_returns {G} (rg : rng G) fp : returns_again multinomial mult_initc rg fp (fun _ _ => True).
Proof. exact (@C82_multinomial_returns_l _ _ _). Qed.
Print Assumptions C82_multinomial_returns.

(** GaussianHMM: the data have as many columns as [means_], and [covars_] can be
    read after the first call. *)
Theorem C82_gaussian_returns {G} (rg : rng G) fp :
  returns_again gaussian gauss_initc rg fp (fun e x => means_fit e /\ h_nfeat (e_hmm e) = Some (width x) /\ exists l, covars_get fp (e_hmm e) = Ok l).
Proof. exact (@C82_gaussian_returns_l _ _ _). Qed.
Print Assumptions C82_gaussian_returns.

(** Two calls with [n_iter = 1] instead of one with [n_iter = 2]: the second raises. *)
Theorem C82_raises_refuted : exists (e : est catp unit) x ef evf e1 ev1 w,
  fit categorical cat_initc flat_rng exact (built 2 e) tt x None = Ok (ef, tt, evf)
  /\ length (history ef) = 2%nat
  /\ fit categorical cat_initc flat_rng exact (built 1 e) tt x None = Ok (e1, tt, ev1)
  /\ fit categorical cat_initc flat_rng exact (built 1 (no_init_params e1)) tt x None = Err (ValueError w).
Proof. exact (@C82_raises_refuted_l). Qed.
Print Assumptions C82_raises_refuted.

(** The improvement from the last iteration of the first call to the first of the
    second is not looked at: [n_iter = 3] stops after two iterations, [n_iter = 1]
    followed by [n_iter = 2] makes three. *)
Theorem C82_stop_refuted : exists (e : est catp unit) x ef evf e1 ev1 e2 ev2,
  fit categorical cat_initc flat_rng exact (built 3 e) tt x None = Ok (ef, tt, evf)
  /\ fit categorical cat_initc flat_rng exact (built 1 e) tt x None = Ok (e1, tt, ev1)
  /\ fit categorical cat_initc flat_rng exact (built 2 (no_init_params e1)) tt x None = Ok (e2, tt, ev2)
  /\ length (history ef) = 2%nat /\ length (history e1 ++ history e2) = 3%nat.
Proof. exact (@C82_stop_refuted_l). Qed.
Print Assumptions C82_stop_refuted.

(** [n_iter = 1] twice; both calls return, and together they are [n_iter = 2]. *)
Example C82_applies : exists (e : est catp unit) x ef evf e1 ev1 h',
  fit categorical cat_initc flat_rng exact (built (1 + 1) e) tt x None = Ok (ef, tt, evf)
  /\ length (history ef) = 2%nat
  /\ fit categorical cat_initc flat_rng exact (built 1 e) tt x None = Ok (e1, tt, ev1)
  /\ check categorical exact (e_hmm e1) = Ok h'
  /\ exists e2 g2 ev2, fit categorical cat_initc flat_rng exact (built 1 (no_init_params e1)) tt x None = Ok (e2, g2, ev2)
     /\ equal_models e2 ef /\ history e1 ++ history e2 = [Fin 0; Fin 0].
Proof. exact (@C82_applies_l). Qed.

Theorem C82_vcategorical {G} (rg : rng G) fp : vtwo_parts vcategorical vcat_initc rg fp.
Proof. exact (@C82_vcategorical_l _ _ _). Qed.
Print Assumptions C82_vcategorical.

Theorem C82_vgaussian {G} la (gr : grng G) (rg : rng G) fp : vtwo_parts (vgaussian la) (vg_initc gr) rg fp.
Proof. exact (@C82_vgaussian_l _ _ _ _ _). Qed.
Print Assumptions C82_vgaussian.

(** An estimator whose attributes are set and that is not to draw new ones can be
    trained. *)
Theorem C82_vcategorical_returns {G} (rg : rng G) e glob x ls nc n p q :
  let v := ve_v e in let c := v_cfg v in
  vcat_model v nc n p q -> c_init_params c = EmptyString -> valid_rs rg (ve_rs e) -> letters_in (c_params c) ["s"; "t"; "e"]%char ->
  has "t" (c_params c) = true \/ h_trans (v_h v) <> None -> c_impl c = "log"%string ->
  good_data (sym_ok n) ls x -> (h_nfeat (v_h v) = Some n \/ Z.of_nat n = (zmax x + 1)%Z) ->
  exists r, vfit vcategorical vcat_initc rg exact e glob x (as_lengths ls) = Ok r.
Proof. exact (@C82_vcategorical_returns_l _ _ _ _ _ _ _ _ _ _). Qed.
Print Assumptions C82_vcategorical_returns.

(** Two iterations at once, and one iteration followed by another one. *)
Example C82_vcategorical_applies :
  let e := VEst (fresh_v "ste" 2 None) (RSSeed 0) in let x := [0; 1; 1; 0; 1]%Z in let ls := as_lengths [3%nat; 2%nat] in
  let train e := vfit vcategorical vcat_initc flat_rng exact e tt x ls in
  exists ef e1 e2 evf ev1 ev2, train e = Ok (ef, tt, evf) /\ train (vbuilt 1 e) = Ok (e1, tt, ev1)
  /\ train (vbuilt 1 (vno_init_params e1)) = Ok (e2, tt, ev2)
  /\ length (vhistory ef) = 2%nat /\ vequal_models e2 ef /\ vhistory ef = vhistory e1 ++ vhistory e2.
Proof. exact (@C82_vcategorical_applies_l). Qed.

