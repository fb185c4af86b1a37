(** * Properties C85, C86: methods for inference, unfitted estimators. *)
From Verif Require Import Agree_thms Agree_v Unfitted_thms Agree_ex.

(** ** C85. *)
Theorem C85_categorical fp : methods_agree categorical fp /\ one_per_sample categorical fp.
Proof. exact (@C85_categorical_l _). Qed.
Print Assumptions C85_categorical.

Theorem C85_poisson fp : methods_agree poisson fp /\ one_per_sample poisson fp.
Proof. exact (@C85_poisson_l _). Qed.
Print Assumptions C85_poisson.

Theorem C85_multinomial fp : methods_agree multinomial fp /\ one_per_sample multinomial fp.
Proof. exact (@C85_multinomial_l _). Qed.
Print Assumptions C85_multinomial.

Theorem C85_gaussian fp : methods_agree gaussian fp /\ one_per_sample gaussian fp.
Proof. exact (@C85_gaussian_l _). Qed.
Print Assumptions C85_gaussian.

Theorem C85_gmm eig fp : methods_agree (gmm eig) fp /\ one_per_sample (gmm eig) fp.
Proof. exact (@C85_gmm_l _ _). Qed.
Print Assumptions C85_gmm.

Theorem C85_vcategorical fp : vmethods_agree vcategorical fp /\ vone_per_sample vcategorical fp.
Proof. exact (@C85_vcategorical_l _). Qed.
Print Assumptions C85_vcategorical.

Theorem C85_vgaussian la fp : vmethods_agree (vgaussian la) fp /\ vone_per_sample (vgaussian la) fp.
Proof. exact (@C85_vgaussian_l _ _). Qed.
Print Assumptions C85_vgaussian.

(** ** No parameters: NotFittedError, whatever the other arguments. *)
Theorem C86_unfitted {P X St G Y} (E : emclass P X St) fp (rg : rng G) (gen : hmm P -> Z -> G -> res (Y * G)) (e : est P G) :
  let h := e_hmm e in h_start h = None ->
  (forall x ls, score E fp h x ls = Err NotFittedError)
  /\ (forall x ls, score_samples E fp h x ls = Err NotFittedError)
  /\ (forall x ls, predict_proba E fp h x ls = Err NotFittedError)
  /\ (forall x ls alg, decode E fp h x ls alg = Err NotFittedError)
  /\ (forall x ls, predict E fp h x ls = Err NotFittedError)
  /\ (forall n arg cs glob, sample_with E fp rg gen e glob n arg cs = Err NotFittedError).
Proof. exact (@C86_unfitted_l _ _ _ _ _ _ _ _ _ _). Qed.
Print Assumptions C86_unfitted.

Theorem C86_vunfitted {P X St G Y} (V : vclass P X St) fp (rand : G -> R * G) (gen : hmm P -> Z -> G -> res (Y * G)) v :
  h_start (v_h v) = None ->
  (forall x ls, Vbase.vscore V fp v x ls = Err NotFittedError)
  /\ (forall x ls, vscore_samples V fp v x ls = Err NotFittedError)
  /\ (forall x ls, vpredict_proba V fp v x ls = Err NotFittedError)
  /\ (forall x ls alg, vdecode V fp v x ls alg = Err NotFittedError)
  /\ (forall x ls, vpredict V fp v x ls = Err NotFittedError)
  /\ (forall n cs g, vsample V fp rand gen v n cs g = Err NotFittedError).
Proof. exact (@C86_vunfitted_l _ _ _ _ _ _ _ _ _ _). Qed.
Print Assumptions C86_vunfitted.

Theorem C86_stationary {P} eig fp (h : hmm P) : (forall m, eig m <> Err NotFittedError) ->
  (stationary eig fp h = Err NotFittedError <-> h_trans h = None).
Proof. exact (@C86_stationary_l _ _ _ _). Qed.
Print Assumptions C86_stationary.

Theorem C86_categorical fp : says_unfitted categorical fp.
Proof. exact (@C86_categorical_l _). Qed.
Print Assumptions C86_categorical.

Theorem C86_poisson fp : says_unfitted poisson fp.
Proof. exact (@C86_poisson_l _). Qed.
Print Assumptions C86_poisson.

Theorem C86_multinomial fp : says_unfitted multinomial fp.
Proof. exact (@C86_multinomial_l _). Qed.
Print Assumptions C86_multinomial.

Theorem C86_gaussian fp : says_unfitted gaussian fp.
Proof. exact (@C86_gaussian_l _). Qed.
Print Assumptions C86_gaussian.

Theorem C86_gmm eig fp : says_unfitted (gmm eig) fp.
Proof. exact (@C86_gmm_l _ _). Qed.
Print Assumptions C86_gmm.

Theorem C86_vcategorical fp : vsays_unfitted vcategorical fp.
Proof. exact (@C86_vcategorical_l _). Qed.
Print Assumptions C86_vcategorical.

Theorem C86_vgaussian la fp : vsays_unfitted (vgaussian la) fp.
Proof. exact (@C86_vgaussian_l _ _). Qed.
Print Assumptions C86_vgaussian.

(** ** The information criteria count the parameters before they score. *)
Theorem C86_criteria {P X St G} (E : emclass P X St) (I : initclass P X G) fp h x ls : h_start h = None ->
  match n_params I h with
  | Ok _ => aic E I fp h x ls = Err NotFittedError /\ bic E I fp h x ls = Err NotFittedError
  | Err ex => aic E I fp h x ls = Err ex /\ bic E I fp h x ls = Err ex
  end.
Proof. exact (@C86_criteria_l _ _ _ _ _ _ _ _ _ _). Qed.
Print Assumptions C86_criteria.

Theorem C86_criteria_categorical {G} : criteria_say categorical (cat_initc (G := G)) TypeError (fun _ => True).
Proof. exact (@C86_criteria_categorical_l _). Qed.
Print Assumptions C86_criteria_categorical.

Theorem C86_criteria_poisson {G} : criteria_say poisson (pois_initc (G := G)) (AttributeError "n_features") (fun _ => True).
Proof. exact (@C86_criteria_poisson_l _). Qed.
Print Assumptions C86_criteria_poisson.

Theorem C86_criteria_multinomial {G} : criteria_say multinomial (mult_initc (G := G)) (AttributeError "n_features") (fun _ => True).
Proof. exact (@C86_criteria_multinomial_l _). Qed.
Print Assumptions C86_criteria_multinomial.

Theorem C86_criteria_gaussian {G} : criteria_say gaussian (gauss_initc (G := G)) (AttributeError "n_features") (fun p => is_type covariance_types (ga_type p) = true).
Proof. exact (@C86_criteria_gaussian_l _). Qed.
Print Assumptions C86_criteria_gaussian.

Theorem C86_criteria_gmm {G} eig (gr : grng G) : criteria_say (gmm eig) (gmm_initc gr) (AttributeError "n_features") (fun p => is_type covariance_types (gm_type p) = true).
Proof. exact (@C86_criteria_gmm_l _ _ _). Qed.
Print Assumptions C86_criteria_gmm.

(** ** After [fit] the parameters are there. *)
Theorem C86_after_fit {P X St G} (E : emclass P X St) (I : initclass P X G) rg fp e glob x ls e1 glob1 ev :
  fit E I rg fp e glob x ls = Ok (e1, glob1, ev) -> h_start (e_hmm e1) <> None /\ h_trans (e_hmm e1) <> None.
Proof. exact (@C86_after_fit_l _ _ _ _ _ _ _ _ _ _ _ _ _ _ _). Qed.
Print Assumptions C86_after_fit.

Example C85_applies : exists post z,
  predict_proba categorical exact (ex_h "log" "map") ex_x None = Ok post
  /\ predict categorical exact (ex_h "log" "map") ex_x None = Ok z
  /\ z = map np_argmax (rows post) /\ length z = 3%nat /\ Forall (fun i => (i < 2)%nat) z.
Proof. exact (@C85_applies_l). Qed.

(** After training the methods of a variational class return, and agree. *)
Example C85_variational_applies : exists (v : vhmm vcatp) post z,
  vpredict_proba vcategorical exact v [0; 1; 1]%Z None = Ok post
  /\ (exists w, vdecode vcategorical exact v [0; 1; 1]%Z None (Some "map"%string) = Ok (w, z))
  /\ z = map np_argmax (rows post) /\ length z = 3%nat.
Proof. exact (@C85_variational_applies_l). Qed.

Example C86_applies :
  score categorical exact fr_cat fr_x None = Err NotFittedError
  /\ predict poisson exact fr_pois fr_px None = Err NotFittedError
  /\ Vbase.vscore vcategorical exact (fresh_v "ste" 3 None) fr_x None = Err NotFittedError
  /\ (exists s, score categorical exact (ex_h "log" "map") ex_x None = Ok s).
Proof. exact (@C86_applies_l). Qed.

(** A new estimator whose number of features is not known yet: [aic] and [bic]
    raise something else. *)
Theorem C86_criteria_refuted : exists (h : hmm catp) x (h' : hmm poisp) x',
  score categorical exact h x None = Err NotFittedError
  /\ aic categorical (cat_initc (G := unit)) exact h x None = Err TypeError
  /\ score poisson exact h' x' None = Err NotFittedError
  /\ bic poisson (pois_initc (G := unit)) exact h' x' None = Err (AttributeError "n_features").
Proof. exact (@C86_criteria_refuted_l). Qed.
Print Assumptions C86_criteria_refuted.

