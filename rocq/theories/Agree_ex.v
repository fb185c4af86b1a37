(** * Properties C85, C86: examples, and the information criteria of a new estimator. *)
From Verif Require Export Unfitted_thms Query_ex Vcat_ex.

Lemma C85_applies_l : exists post z,
  predict_proba categorical exact (ex_h "log" "map") ex_x None = Ok post
  /\ predict categorical exact (ex_h "log" "map") ex_x None = Ok z
  /\ z = map np_argmax (rows post) /\ length z = 3%nat /\ Forall (fun i => (i < 2)%nat) z.
Proof.
  destruct (C85_categorical_l exact) as [A B].
  destruct (A (ex_h "log" "map") ex_x None) as (_ & _ & D1 & _ & P1 & _ & M). specialize (M eq_refl).
  destruct (map_single _ _ _ _ _ _ _ (ex_ready "log" "map") ex_x (Some "map"%string) ltac:(discriminate) ex_x_ok
              (or_introl eq_refl) (proj1 C04_applies_l)) as (z & Hz & _).
  assert (Hp : predict categorical exact (ex_h "log" "map") ex_x None = Ok z).
  { rewrite P1. change (c_algorithm (h_cfg (ex_h "log" "map"))) with "map"%string. rewrite Hz. reflexivity. }
  destruct (proj1 (M z) Hp) as (post & Hq & E).
  destruct (B (ex_h "log" "map") ex_x None) as (_ & _ & B3); [cbn; lia|discriminate|]. destruct (B3 z Hp) as [B4 B5].
  exists post, z. split; [exact Hq|]. split; [exact Hp|]. split; [exact E|]. split; [exact B4|exact B5].
Qed.
(** After training the methods of a variational class return, and agree. *)
Lemma C85_variational_applies_l : exists (v : vhmm vcatp) post z,
  vpredict_proba vcategorical exact v [0; 1; 1]%Z None = Ok post
  /\ (exists w, vdecode vcategorical exact v [0; 1; 1]%Z None (Some "map"%string) = Ok (w, z))
  /\ z = map np_argmax (rows post) /\ length z = 3%nat.
Proof.
  destruct C46_applies_l as (v & ev & Hf & _ & _).
  destruct (C60_after_fit_l (ex_v "ste" 3) 2 2 ex_pr ex_vpo [3%nat; 2%nat] _ v ev (ex_v_model _ _) ex_v_data)
    as (s & t & e & Ss & _ & _ & HM & Hsc & _); try reflexivity; try exact Hf; [cbn; lia|].
  assert (Hi : c_impl (h_cfg (point_estimate v)) = "log"%string).
  { cbn [point_estimate h_cfg]. assert (K : v_cfg v = v_cfg (ex_v "ste" 3)) by (eapply (vfit_from_keeps vcategorical exact (fun _ _ _ => True)); eauto). unfold v_cfg in K. rewrite K. reflexivity. }
  set (x := [0; 1; 1]%Z). assert (Hx : Forall (sym_ok 2) x) by (repeat constructor; unfold sym_ok; lia). assert (Hn : x <> []) by discriminate.
  destruct (C05_posterior_rows_l categorical _ _ _ _ _ _ x (cat_ready _ _ _ _ _ _ HM) Hn Hx) as [P1 P2].
  assert (Hp : exists post, vpredict_proba vcategorical exact v x None = Ok post).
  { assert (E : vpredict_proba vcategorical exact v x None = predict_proba categorical exact (point_estimate v) x None)
      by (unfold vpredict_proba, predict_proba, vscore_samples, score_samples; rewrite Hsc; reflexivity).
    rewrite E. pose proof (seq_lik_nonneg categorical _ _ _ _ _ _ (cat_ready _ _ _ _ _ _ HM) x Hn Hx) as H0.
    destruct (Rle_lt_or_eq_dec _ _ H0) as [H1|H1].
    - destruct P1 as (p & Hp & _); [left; split; [exact Hi|exact H1]|]. eexists. exact Hp.
    - rewrite P2; [eexists; reflexivity|exact Hi|symmetry; exact H1]. }
  destruct Hp as [post Hp]. destruct (C85_vcategorical_l exact) as [A B].
  destruct (A v x None) as (_ & _ & _ & _ & _ & M & _). destruct (proj2 (M _) (ex_intro _ post (conj Hp eq_refl))) as [w Hw].
  assert (Hs : h_start (v_h v) = Some (fvec 2 s)) by (destruct HM; unfold point_estimate in *; assumption).
  destruct (B v x None _ Hs) as (_ & B2 & _); [discriminate|discriminate|]. destruct (B2 _ _ _ Hw) as [B3 _].
  exists v, post, (map np_argmax (rows post)). split; [exact Hp|]. split; [exists w; exact Hw|]. split; [reflexivity|exact B3].
Qed.

Lemma C86_applies_l :
  score categorical exact fr_cat fr_x None = Err NotFittedError
  /\ predict poisson exact fr_pois fr_px None = Err NotFittedError
  /\ Vbase.vscore vcategorical exact (fresh_v "ste" 3 None) fr_x None = Err NotFittedError
  /\ (exists s, score categorical exact (ex_h "log" "map") ex_x None = Ok s).
Proof.
  split; [apply (C86_categorical_l exact fr_cat fr_x None); reflexivity|].
  split; [apply (C86_poisson_l exact fr_pois fr_px None); reflexivity|].
  split; [apply (C86_vcategorical_l exact (fresh_v "ste" 3 None) fr_x None); reflexivity|].
  eexists. exact C02_applies_l.
Qed.
(** A new estimator whose number of features is not known yet: [aic] and [bic]
    raise something else. *)
Lemma C86_criteria_refuted_l : exists (h : hmm catp) x (h' : hmm poisp) x',
  score categorical exact h x None = Err NotFittedError
  /\ aic categorical (cat_initc (G := unit)) exact h x None = Err TypeError
  /\ score poisson exact h' x' None = Err NotFittedError
  /\ bic poisson (pois_initc (G := unit)) exact h' x' None = Err (AttributeError "n_features").
Proof.
  exists fr_cat, fr_x, fr_pois, fr_px.
  split; [apply C86_applies_l|]. split; [apply (C86_criteria_categorical_l (G := unit) exact fr_cat fr_x None eq_refl I)|].
  split; [apply (C86_poisson_l exact fr_pois fr_px None); reflexivity|apply (C86_criteria_poisson_l (G := unit) exact fr_pois fr_px None eq_refl I)].
Qed.
