(** * Property C81: a fit that raises. *)
From Verif Require Import Interrupt_thms Interrupt_args Interrupt_ex.

Theorem C81_outcome {P X St G} (E : emclass P X St) (I : initclass P X G) (L : leftclass P X St G) (rg : rng G) fp e glob x ls :
  match fit_run E I L rg fp e glob x ls with
  | Returned e1 g1 ev => fit E I rg fp e glob x ls = Ok (e1, g1, ev)
  | Raised _ _ ex => fit E I rg fp e glob x ls = Err ex
  end.
Proof. exact (@C81_outcome_l _ _ _ _ _ _ _ _ _ _ _ _ _). Qed.
Print Assumptions C81_outcome.

Theorem C81_categorical {G} (rg : rng G) fp : interrupted categorical cat_initc cat_left rg fp.
Proof. exact (@C81_categorical_l _ _ _). Qed.
Print Assumptions C81_categorical.

Theorem C81_poisson {G} (rg : rng G) fp : interrupted poisson pois_initc pois_left rg fp.
Proof. exact (@C81_poisson_l _ _ _). Qed.
Print Assumptions C81_poisson.

Theorem C81_multinomial {G} (rg : rng G) fp : interrupted multinomial mult_initc mult_left rg fp.
Proof. exact (@C81_multinomial_l _ _ _). Qed.
Print Assumptions C81_multinomial.

Theorem C81_gmm {G} eig (gr : grng G) (rg : rng G) fp : interrupted (gmm eig) (gmm_initc gr) (gmm_left gr) rg fp.
Proof. exact (@C81_gmm_l _ _ _ _ _). Qed.
Print Assumptions C81_gmm.

(** GaussianHMM: its M-step may raise (hyper-parameters of the wrong shape), after
    [startprob_], [transmat_] and [means_] have been assigned. *)
Theorem C81_gaussian_partial {G} (rg : rng G) fp e glob x ls e' glob' ex r :
  fit_run gaussian gauss_initc gauss_left rg fp e glob x ls = Raised e' glob' ex ->
  fit gaussian gauss_initc rg fp (set_n_iter 0 e) glob x ls = Ok r ->
  exists k ek ev, (k < c_n_iter (h_cfg (e_hmm e)))%nat
    /\ fit gaussian gauss_initc rg fp (set_n_iter k e) glob x ls = Ok (set_n_iter k ek, glob', ev)
    /\ e_rs e' = e_rs ek /\ h_cfg (e_hmm e') = h_cfg (e_hmm ek) /\ h_nfeat (e_hmm e') = h_nfeat (e_hmm ek)
    /\ h_mon (e_hmm e') = h_mon (e_hmm ek) /\ m_iter (h_mon (e_hmm e')) = k
    /\ ga_covars (h_em (e_hmm e')) = ga_covars (h_em (e_hmm ek)) /\ ga_type (h_em (e_hmm e')) = ga_type (h_em (e_hmm ek)).
Proof. exact (@C81_gaussian_partial_l _ _ _ _ _ _ _ _ _ _ _). Qed.
Print Assumptions C81_gaussian_partial.

Theorem C81_lengths {G} eig (gr : grng G) (rg : rng G) fp :
  restarted categorical cat_initc cat_left rg fp /\ restarted poisson pois_initc pois_left rg fp
  /\ restarted multinomial mult_initc mult_left rg fp /\ restarted gaussian gauss_initc gauss_left rg fp
  /\ restarted (gmm eig) (gmm_initc gr) (gmm_left gr) rg fp.
Proof. exact (@C81_lengths_l _ _ _ _ _). Qed.
Print Assumptions C81_lengths.

Theorem C81_untouched {G} eig (gr : grng G) (rg : rng G) fp :
  untouched categorical cat_initc cat_left rg fp wrong_symbol /\ untouched poisson pois_initc pois_left rg fp wrong_width
  /\ untouched gaussian gauss_initc gauss_left rg fp wrong_width /\ untouched (gmm eig) (gmm_initc gr) (gmm_left gr) rg fp wrong_width.
Proof. exact (@C81_untouched_l _ _ _ _ _). Qed.
Print Assumptions C81_untouched.

Theorem C81_gaussian_arguments {G} (rg : rng G) fp e glob x ls e' glob' ex :
  fit_run gaussian gauss_initc gauss_left rg fp e glob x ls = Raised e' glob' ex ->
  let h := e_hmm e in let h' := e_hmm e' in
  h_cfg h' = h_cfg h /\ same_random_state (e_rs e) (e_rs e')
  /\ ga_type (h_em h') = ga_type (h_em h) /\ ga_min_covar (h_em h') = ga_min_covar (h_em h)
  /\ ga_mprior (h_em h') = ga_mprior (h_em h) /\ ga_mweight (h_em h') = ga_mweight (h_em h)
  /\ ga_cprior (h_em h') = ga_cprior (h_em h) /\ ga_cweight (h_em h') = ga_cweight (h_em h).
Proof. exact (@C81_gaussian_arguments_l _ _ _ _ _ _ _ _ _ _). Qed.
Print Assumptions C81_gaussian_arguments.

Theorem C81_gaussian_again {G} (rg : rng G) fp e glob x ls e' glob' ex ga gb y ms k e1 g1 v1 e2 g2 v2 :
  fit_run gaussian gauss_initc gauss_left rg fp e glob x ls = Raised e' glob' ex ->
  e_rs e = RSSeed k ->
  (forall l, In l ["s"; "t"; "m"; "c"]%char -> has l (c_init_params (h_cfg (e_hmm e))) = true) ->
  fit gaussian gauss_initc rg fp e ga y ms = Ok (e1, g1, v1) -> fit gaussian gauss_initc rg fp e' gb y ms = Ok (e2, g2, v2) ->
  e2 = e1.
Proof. exact (@C81_gaussian_again_l _ _ _ _ _ _ _ _ _ _ _ _ _ _ _ _ _ _ _ _ _). Qed.
Print Assumptions C81_gaussian_again.

Theorem C81_gaussian_retry {G} (rg : rng G) fp e glob x ls e' glob' ex ga gb y ms k e1 g1 v1 :
  fit_run gaussian gauss_initc gauss_left rg fp e glob x ls = Raised e' glob' ex ->
  e_rs e = RSSeed k ->
  (forall l, In l ["s"; "t"; "m"; "c"]%char -> has l (c_init_params (h_cfg (e_hmm e))) = true) ->
  fit gaussian gauss_initc rg fp e ga y ms = Ok (e1, g1, v1) ->
  h_nfeat (e_hmm e') = None \/ h_nfeat (e_hmm e') = Some (width y) -> getter_ok fp (e_hmm e') (width y) ->
  exists g2 v2, fit gaussian gauss_initc rg fp e' gb y ms = Ok (e1, g2, v2).
Proof. exact (@C81_gaussian_retry_l _ _ _ _ _ _ _ _ _ _ _ _ _ _ _ _ _ _). Qed.
Print Assumptions C81_gaussian_retry.

Theorem C81_gaussian_refuted : exists (e : est gaussp unit) x w e' glob' ex r,
  ga_cweight (h_em (e_hmm e)) = Arr1 w /\ length w = c_nc (h_cfg (e_hmm e))
  /\ fit_run gaussian gauss_initc gauss_left flat_rng exact e tt x None = Raised e' glob' (ValueError ex)
  /\ fit gaussian gauss_initc flat_rng exact (set_n_iter 0 e) tt x None = Ok r
  /\ forall k ek g ev, (k < c_n_iter (h_cfg (e_hmm e)))%nat ->
      fit gaussian gauss_initc flat_rng exact (set_n_iter k e) tt x None = Ok (ek, g, ev) -> h_trans (e_hmm ek) <> h_trans (e_hmm e').
Proof. exact (@C81_gaussian_refuted_l). Qed.
Print Assumptions C81_gaussian_refuted.

Theorem C81_unchanged_refuted : exists (e0 e1 e2 : est catp nat) x l g1 v1 g2 w,
  fit categorical cat_initc toy_rng exact e0 0%nat x None = Ok (e1, g1, v1)
  /\ fit_run categorical cat_initc cat_left toy_rng exact (set_n_iter 1 e1) g1 x (Some l) = Raised e2 g2 (ValueError w)
  /\ h_start (e_hmm e2) <> h_start (e_hmm e1).
Proof. exact (@C81_unchanged_refuted_l). Qed.
Print Assumptions C81_unchanged_refuted.

Theorem C81_categorical_again_refuted : exists (e e' : est catp nat) k x l g' w e1 g1 v1 e2 g2 v2,
  e_rs e = RSSeed k /\ (forall a, In a ["s"; "t"; "e"]%char -> has a (c_init_params (h_cfg (e_hmm e))) = true)
  /\ fit_run categorical cat_initc cat_left toy_rng exact e 0%nat x (Some l) = Raised e' g' (ValueError w)
  /\ fit categorical cat_initc toy_rng exact (set_n_iter 0 e) 0%nat x None = Ok (e1, g1, v1)
  /\ fit categorical cat_initc toy_rng exact (set_n_iter 0 e') g' x None = Ok (e2, g2, v2)
  /\ h_start (e_hmm e1) <> h_start (e_hmm e2).
Proof. exact (@C81_categorical_again_refuted_l). Qed.
Print Assumptions C81_categorical_again_refuted.

Example C81_lengths_applies : exists (e : est catp nat) x l e0 g0 v0,
  fold_left Z.add l 0%Z <> Z.of_nat (length x) /\ (0 < c_n_iter (h_cfg (e_hmm e)))%nat
  /\ fit categorical cat_initc toy_rng exact (set_n_iter 0 e) 0%nat x (Some l) = Ok (e0, g0, v0).
Proof. exact (@C81_lengths_applies_l). Qed.

(** ** MultinomialHMM: [n_features] is assigned before the counts are looked at, and
    stays. *)
Theorem C81_multinomial_untouched_refuted : exists (e e' : est mulp nat) x y g' w e1 g1 v1,
  (exists r, In r x /\ exists n, In n r /\ (n < 0)%Z)
  /\ fit_run multinomial mult_initc mult_left toy_rng exact e 0%nat x None = Raised e' g' (ValueError w)
  /\ h_nfeat (e_hmm e) = None /\ h_nfeat (e_hmm e') = Some 3%nat
  /\ fit multinomial mult_initc toy_rng exact e 0%nat y None = Ok (e1, g1, v1)
  /\ forall g z, fit multinomial mult_initc toy_rng exact e' g y None <> Ok z.
Proof. exact (@C81_multinomial_untouched_refuted_l). Qed.
Print Assumptions C81_multinomial_untouched_refuted.

(** ** Examples. *)
Example C81_untouched_applies : exists ex, fit_run categorical cat_initc cat_left toy_rng exact toy_cat 0%nat [0; -1]%Z None = Raised toy_cat 0%nat ex
  /\ wrong_symbol toy_cat [0; -1]%Z.
Proof. exact (@C81_untouched_applies_l). Qed.

Example C81_gaussian_retry_applies : exists (e e' : est gaussp unit) ex e1 v1 v2,
  e_rs e = RSSeed 0 /\ (forall l, In l ["s"; "t"; "m"; "c"]%char -> has l (c_init_params (h_cfg (e_hmm e))) = true)
  /\ fit_run gaussian gauss_initc gauss_left flat_rng exact e tt cv_x (Some [1]%Z) = Raised e' tt ex
  /\ fit gaussian gauss_initc flat_rng exact e tt cv_x (Some [2]%Z) = Ok (e1, tt, v1)
  /\ fit gaussian gauss_initc flat_rng exact e' tt cv_x (Some [2]%Z) = Ok (e1, tt, v2).
Proof. exact (@C81_gaussian_retry_applies_l). Qed.

Theorem C81_gaussian_mixed_refuted : exists (e e' : est gaussp unit) x w m,
  fit_run gaussian gauss_initc gauss_left flat_rng exact e tt x None = Raised e' tt (ValueError w)
  /\ r_kmeans flat_rng (c_nc (h_cfg (e_hmm e))) x tt = Ok (m, tt)
  /\ ga_means (h_em (e_hmm e')) = Some m /\ ga_means (h_em (e_hmm e)) <> Some m
  /\ ga_covars (h_em (e_hmm e')) = ga_covars (h_em (e_hmm e)) /\ ga_covars (h_em (e_hmm e)) <> None.
Proof. exact (@C81_gaussian_mixed_refuted_l). Qed.
Print Assumptions C81_gaussian_mixed_refuted.

