(** * Property lemmas C86: which estimators raise NotFittedError. *)
From Verif Require Export Agree_v Sample_em Repro_thms Stationary Init_gmm.

(** ** No parameters: NotFittedError, whatever the other arguments. *)
Lemma C86_unfitted_l {P X St G Y} (E : emclass P X St) fp (rg : rng G) (gen : hmm P -> Z -> G -> res (Y * G)) (e : est P G) :
  let h := e_hmm e in h_start h = None ->
  (forall x ls, score E fp h x ls = Err NotFittedError)
  /\ (forall x ls, score_samples E fp h x ls = Err NotFittedError)
  /\ (forall x ls, predict_proba E fp h x ls = Err NotFittedError)
  /\ (forall x ls alg, decode E fp h x ls alg = Err NotFittedError)
  /\ (forall x ls, predict E fp h x ls = Err NotFittedError)
  /\ (forall n arg cs glob, sample_with E fp rg gen e glob n arg cs = Err NotFittedError).
Proof.
  cbv zeta. intros H. assert (F : fitted_check E fp (e_hmm e) = Err NotFittedError) by (unfold fitted_check; rewrite H; reflexivity).
  unfold predict_proba, predict, score, score_samples, score_, decode, sample_with. rewrite F. repeat split; reflexivity.
Qed.
Lemma C86_vunfitted_l {P X St G Y} (V : vclass P X St) fp (rand : G -> R * G) (gen : hmm P -> Z -> G -> res (Y * G)) v :
  h_start (v_h v) = None ->
  (forall x ls, Vbase.vscore V fp v x ls = Err NotFittedError)
  /\ (forall x ls, vscore_samples V fp v x ls = Err NotFittedError)
  /\ (forall x ls, vpredict_proba V fp v x ls = Err NotFittedError)
  /\ (forall x ls alg, vdecode V fp v x ls alg = Err NotFittedError)
  /\ (forall x ls, vpredict V fp v x ls = Err NotFittedError)
  /\ (forall n cs g, vsample V fp rand gen v n cs g = Err NotFittedError).
Proof.
  intros H. assert (F : vfitted V fp v = Err NotFittedError) by (unfold vfitted; rewrite H; reflexivity).
  unfold vpredict_proba, vpredict, Vbase.vscore, vscore_samples, vscore_, vdecode, vsample. rewrite F, H. repeat split; reflexivity.
Qed.
Lemma C86_stationary_l {P} eig fp (h : hmm P) : (forall m, eig m <> Err NotFittedError) ->
  (stationary eig fp h = Err NotFittedError <-> h_trans h = None).
Proof.
  intros He. unfold stationary. destruct (h_trans h) as [t|]; [|split; reflexivity]. split; [|discriminate]. intros H. exfalso.
  destruct (eig (transpose t)) as [[w vs]|ex] eqn:Ee; cbn [bind] in H; [|injection H as ->; exact (He _ Ee)].
  destruct (Nat.eqb _ _); [discriminate|]. destruct (real_if_close _); discriminate.
Qed.

(** ** Parameters present: never NotFittedError. *)
Definition nfree {A} (r : res A) : Prop := r <> Err NotFittedError.
Lemma nfree_bind {A B} (a : res A) (f : A -> res B) : nfree a -> (forall x, nfree (f x)) -> nfree (bind a f).
Proof. intros H1 H2. destruct a as [x|e]; [apply H2|]. cbn. intros H. apply H1. now injection H as ->. Qed.
Lemma nfree_ok {A} (a : A) : nfree (Ok a). Proof. discriminate. Qed.
Lemma nfree_mapM {A B} (f : A -> res B) l : (forall a, nfree (f a)) -> nfree (mapM f l).
Proof. intros H. induction l as [|a l IH]; cbn [mapM]; [apply nfree_ok|]. apply nfree_bind; [apply H|]. intros b. apply nfree_bind; [exact IH|]. intros. apply nfree_ok. Qed.
Lemma nfree_map_res {A B} (f : A -> res B) l : (forall a, nfree (f a)) -> nfree (map_res f l).
Proof. intros H. induction l as [|a l IH]; cbn [map_res]; [apply nfree_ok|]. apply nfree_bind; [apply H|]. intros b. apply nfree_bind; [exact IH|]. intros. apply nfree_ok. Qed.
Ltac nfree_step := match goal with
  | |- nfree (Ok _) => apply nfree_ok
  | |- nfree (Err _) => discriminate
  | |- nfree (bind _ _) => apply nfree_bind; [|let x := fresh "x" in intros x]
  | |- nfree (mapM _ _) => apply nfree_mapM; intros
  | |- nfree (map_res _ _) => apply nfree_map_res; intros
  | |- nfree (let '_ := ?a in _) => destruct a
  | |- nfree (match ?a with _ => _ end) => destruct a
  | |- nfree (if ?a then _ else _) => destruct a
  | |- nfree ((fun _ => _) _) => cbv beta
  | |- nfree (let _ := _ in _) => cbv zeta
  end.
Ltac nfree_all := repeat nfree_step.

Section Never.
  Context {P X St : Type} (E : emclass P X St) (fp : fpmode).
  Hypothesis K1 : forall c nf p, nfree (ec_check E fp c nf p).
  Hypothesis K2 : forall c nf p x, nfree (ec_loglik E fp c nf p x).
  Hypothesis K3 : forall c nf p x, nfree (ec_lik E fp c nf p x).
  Lemma nfree_forward_scaling s t f : nfree (forward_scaling fp s t f).
  Proof.
    unfold forward_scaling, shape_guard. nfree_all; [unfold rescale; nfree_all|].
    match goal with |- nfree (fwd_scaling_loop _ _ _ ?a ?b ?c) => generalize a; generalize b; induction c as [|fr rest IH]; intros b1 a1 end; cbn [fwd_scaling_loop]; nfree_all; [unfold rescale; nfree_all|apply IH].
  Qed.
  Lemma nfree_score_log h s t post c : nfree (score_log_seq E fp h s t post c).
  Proof. unfold score_log_seq, loglik, forward_log, backward_log, shape_guard. nfree_all. apply K2. Qed.
  Lemma nfree_score_scaling h s t post c : nfree (score_scaling_seq E fp h s t post c).
  Proof. unfold score_scaling_seq, lik, backward_scaling, shape_guard. nfree_all; [apply K3|apply nfree_forward_scaling]. Qed.
  Lemma nfree_viterbi h s t c : nfree (decode_viterbi E fp h s t c).
  Proof. unfold decode_viterbi, loglik, viterbi, shape_guard. nfree_all. apply K2. Qed.
  Lemma nfree_acc {A} (f : list X -> res (xnum * list A)) xs : (forall c, nfree (f c)) -> forall lp, nfree (acc_seqs fp f lp xs).
  Proof. intros H. induction xs as [|c xs IH]; intros lp; cbn [acc_seqs]; nfree_all; [apply H|apply IH]. Qed.
  Lemma nfree_array (x : list X) : nfree (check_array (ec_xok E) x). Proof. unfold check_array. nfree_all. Qed.
  Lemma nfree_split (x : list X) ls : nfree (split_X_lengths x ls). Proof. unfold split_X_lengths. nfree_all. Qed.
  Lemma nfree_check h : nfree (check E fp h).
  Proof. unfold check, base_check. nfree_all. apply K1. Qed.
  Lemma nfree_fitted h s : h_start h = Some s -> nfree (fitted_check E fp h).
  Proof. intros H. unfold fitted_check. rewrite H. nfree_all. apply nfree_check. Qed.
  Lemma nfree_score h s x ls post : h_start h = Some s -> nfree (score_ E fp h x ls post).
  Proof.
    intros H. unfold score_. apply nfree_bind; [exact (nfree_fitted _ _ H)|]. intros [[h' s'] t]. apply nfree_bind; [apply nfree_array|]. intros y.
    destruct (String.eqb _ "scaling"); [|destruct (String.eqb _ "log"); [|discriminate]]; cbn [bind]; (apply nfree_bind; [apply nfree_split|]; intros xs); nfree_all; apply nfree_acc.
    - intros c. apply nfree_score_scaling.
    - intros c. apply nfree_score_log.
  Qed.
  Hypothesis V2 : forall h h' s t, fitted_check E fp h = Ok (h', s, t) -> h_cfg h' = h_cfg h /\ fitted_check E fp h' = Ok (h', s, t).
  Lemma nfree_decode h s x ls alg : h_start h = Some s -> nfree (decode E fp h x ls alg).
  Proof.
    intros H. unfold decode. destruct (fitted_check E fp h) as [[[h' s'] t]|ex] eqn:Hf; cbn [bind].
    2: { intros He. injection He as ->. exact (nfree_fitted _ _ H Hf). }
    cbv zeta. assert (Hs : exists s, h_start h' = Some s).
    { destruct (V2 _ _ _ _ Hf) as [_ F]. unfold fitted_check in F. destruct (h_start h'); [eexists; reflexivity|discriminate]. }
    destruct Hs as [s1 Hs]. destruct (String.eqb _ "viterbi"); [|destruct (String.eqb _ "map"); [|discriminate]]; cbn [bind];
      (apply nfree_bind; [apply nfree_array|]; intros y; apply nfree_bind; [apply nfree_split|]; intros xs; apply nfree_acc; intros c).
    - apply nfree_viterbi.
    - unfold decode_map. apply nfree_bind; [exact (nfree_score _ _ _ _ _ Hs)|]. intros [a b]. apply nfree_ok.
  Qed.
End Never.

(** The five methods raise NotFittedError exactly when [startprob_] is not set. *)
Definition says_unfitted {P X St} (E : emclass P X St) (fp : fpmode) : Prop := forall h x ls,
  (score E fp h x ls = Err NotFittedError <-> h_start h = None)
  /\ (score_samples E fp h x ls = Err NotFittedError <-> h_start h = None)
  /\ (predict_proba E fp h x ls = Err NotFittedError <-> h_start h = None)
  /\ (forall alg, decode E fp h x ls alg = Err NotFittedError <-> h_start h = None)
  /\ (predict E fp h x ls = Err NotFittedError <-> h_start h = None).
Lemma says_unfitted_by {P X St} (E : emclass P X St) fp :
  (forall c nf p, nfree (ec_check E fp c nf p)) -> (forall c nf p x, nfree (ec_loglik E fp c nf p x)) -> (forall c nf p x, nfree (ec_lik E fp c nf p x)) ->
  check_stable E fp -> says_unfitted E fp.
Proof.
  intros K1 K2 K3 Hst h x ls. destruct (h_start h) as [s|] eqn:Es.
  - assert (N : forall A (r : res A), nfree r -> (r = Err NotFittedError <-> Some s = None)) by (intros A r Hr; split; [intros H; destruct (Hr H)|discriminate]).
    assert (S' := nfree_score E fp K1 K2 K3 h s). assert (D := nfree_decode E fp K1 K2 K3 (found_again E fp Hst) h s).
    split; [|split; [|split; [|split]]]; [|..|intros alg|]; apply N.
    + unfold score. apply nfree_bind; [apply S', Es|]. intros [a b]. apply nfree_ok.
    + apply S', Es.
    + unfold predict_proba, score_samples. apply nfree_bind; [apply S', Es|]. intros [a b]. apply nfree_ok.
    + apply D, Es.
    + unfold predict. apply nfree_bind; [apply D, Es|]. intros [a b]. apply nfree_ok.
  - assert (F : fitted_check E fp h = Err NotFittedError) by (unfold fitted_check; rewrite Es; reflexivity).
    unfold predict_proba, predict, score, score_samples, score_, decode. rewrite F. cbn [bind]. repeat split; reflexivity.
Qed.
Lemma nfree_np_index n k : nfree (np_index n k). Proof. unfold np_index. nfree_all. Qed.
Lemma C86_categorical_l fp : says_unfitted categorical fp.
Proof.
  assert (K : forall c nf p x, nfree (cat_lik fp c nf p x)) by (intros; unfold cat_lik; nfree_all; apply nfree_np_index).
  apply says_unfitted_by; [| | |apply cat_stable]; cbn [ec_check ec_loglik ec_lik categorical]; intros.
  - unfold cat_check. nfree_all.
  - unfold loglik_of_lik. nfree_all. apply K.
  - apply K.
Qed.
Lemma nfree_bwidth a b : nfree (bwidth a b). Proof. unfold bwidth. nfree_all. Qed.
Lemma nfree_bdim a b : nfree (bdim a b). Proof. unfold bdim. nfree_all. Qed.
Lemma C86_poisson_l fp : says_unfitted poisson fp.
Proof.
  assert (K : forall f red c p x, nfree (pois_rows f red c p x)) by (intros; unfold pois_rows; nfree_all; apply nfree_bwidth).
  apply says_unfitted_by; [| | |apply pois_stable]; cbn [ec_check ec_loglik ec_lik poisson]; intros.
  - unfold pois_check. nfree_all.
  - apply K.
  - apply K.
Qed.
Lemma C86_multinomial_l fp : says_unfitted multinomial fp.
Proof.
  assert (K : forall c nf p x, nfree (mult_loglik fp c nf p x)) by (intros; unfold mult_loglik; nfree_all).
  apply says_unfitted_by; [| | |apply mult_stable]; cbn [ec_check ec_loglik ec_lik multinomial]; intros.
  - unfold mult_check. nfree_all.
  - apply K.
  - unfold mult_lik, lik_of_loglik. nfree_all. apply K.
Qed.
Lemma nfree_b2 f a b : nfree (b2 f a b). Proof. unfold b2. nfree_all; apply nfree_bdim. Qed.
Lemma nfree_broadcast_to m r c : nfree (broadcast_to m r c). Proof. unfold broadcast_to. nfree_all. Qed.
Lemma nfree_lmnd_diag fp x m v : nfree (lmnd_diag fp x m v).
Proof. unfold lmnd_diag. nfree_all; [apply nfree_bwidth|apply nfree_bdim|apply nfree_bdim]. Qed.
Lemma nfree_cholesky fp a : nfree (cholesky fp a). Proof. unfold cholesky. nfree_all. Qed.
Lemma nfree_lmnd_full1 fp nf x mu cv : nfree (lmnd_full1 fp nf x mu cv).
Proof. unfold lmnd_full1. nfree_all; first [apply nfree_cholesky|apply nfree_b2|apply nfree_bwidth]. Qed.
Lemma nfree_lmnd_full fp x m cv : nfree (lmnd_full fp x m cv).
Proof. unfold lmnd_full. nfree_all. apply nfree_lmnd_full1. Qed.
Lemma nfree_mvn fp ty x m cv : nfree (log_mvn_density fp ty x m cv).
Proof. unfold log_mvn_density, lmnd_spherical, lmnd_tied. nfree_all; first [apply nfree_broadcast_to|apply nfree_lmnd_diag|apply nfree_lmnd_full]. Qed.
Lemma nfree_gauss_loglik fp c nf p x : nfree (gauss_loglik fp c nf p x).
Proof. unfold gauss_loglik. nfree_all. apply nfree_mvn. Qed.
Lemma C86_gaussian_l fp : says_unfitted gaussian fp.
Proof.
  apply says_unfitted_by; [| | |apply gauss_stable]; cbn [ec_check ec_loglik ec_lik gaussian]; intros.
  - unfold gauss_check. nfree_all.
  - apply nfree_gauss_loglik.
  - unfold gauss_lik, lik_of_loglik. nfree_all. apply nfree_gauss_loglik.
Qed.
Lemma nfree_check_all {A} (f : A -> res unit) l : (forall a, nfree (f a)) -> nfree (check_all f l).
Proof. intros H. induction l as [|a l IH]; cbn [check_all]; nfree_all; [apply H|exact IH]. Qed.
Lemma nfree_nbroadcast a sh : nfree (nbroadcast a sh). Proof. unfold nbroadcast. nfree_all. Qed.
Lemma nfree_fix_prior a sh : nfree (fix_prior a sh). Proof. unfold fix_prior. nfree_all; apply nfree_nbroadcast. Qed.
Lemma C86_gmm_l eig fp : says_unfitted (gmm eig) fp.
Proof.
  assert (K : forall c nf p x, nfree (gmm_loglik fp c nf p x)).
  { intros. unfold gmm_loglik, log_weighted. nfree_all. apply nfree_mvn. }
  apply says_unfitted_by; [| | |apply gmm_stable]; cbn [ec_check ec_loglik ec_lik gmm]; intros.
  - unfold gmm_check, fix_priors, check_covars, check_cov_mat. nfree_all; try apply nfree_nbroadcast; try apply nfree_fix_prior; apply nfree_check_all; intros; nfree_all.
  - apply K.
  - unfold gmm_lik, lik_of_loglik. nfree_all. apply K.
Qed.

(** ** The variational classes. *)
Definition vsays_unfitted {P X St} (V : vclass P X St) (fp : fpmode) : Prop := forall v x ls,
  (Vbase.vscore V fp v x ls = Err NotFittedError <-> h_start (v_h v) = None)
  /\ (vscore_samples V fp v x ls = Err NotFittedError <-> h_start (v_h v) = None)
  /\ (vpredict_proba V fp v x ls = Err NotFittedError <-> h_start (v_h v) = None)
  /\ (forall alg, vdecode V fp v x ls alg = Err NotFittedError <-> h_start (v_h v) = None)
  /\ (vpredict V fp v x ls = Err NotFittedError <-> h_start (v_h v) = None).
Section VNever.
  Context {P X St : Type} (V : vclass P X St) (fp : fpmode).
  Notation E := (vc_em V).
  Hypothesis K1 : forall c nf p, nfree (ec_check E fp c nf p).
  Hypothesis K2 : forall c nf p x, nfree (ec_loglik E fp c nf p x).
  Hypothesis K3 : forall c nf p x, nfree (ec_lik E fp c nf p x).
  Lemma nfree_vfitted v s : h_start (v_h v) = Some s -> nfree (vfitted V fp v).
  Proof. intros H. unfold vfitted. rewrite H. unfold vcheck, vbase_check, attr. nfree_all. apply K1. Qed.
  Lemma nfree_vscore v s x ls post : h_start (v_h v) = Some s -> nfree (vscore_ V fp v x ls post).
  Proof.
    intros H. unfold vscore_. cbv zeta. apply nfree_bind; [exact (nfree_vfitted _ _ H)|]. intros [h s']. apply nfree_bind; [apply nfree_array|]. intros y.
    destruct (String.eqb _ "scaling"); [|destruct (String.eqb _ "log"); [|discriminate]]; cbn [bind]; (apply nfree_bind; [apply nfree_split|]; intros xs); nfree_all; apply nfree_acc; intros c; unfold vseq; nfree_all.
    - apply nfree_score_scaling, K3.
    - apply K3.
    - apply nfree_score_log, K2.
    - apply K2.
  Qed.
  Lemma nfree_vdecode v s x ls alg : h_start (v_h v) = Some s -> nfree (vdecode V fp v x ls alg).
  Proof.
    intros H. unfold vdecode. cbv zeta. apply nfree_bind; [exact (nfree_vfitted _ _ H)|]. intros [h s'].
    destruct (String.eqb _ "viterbi"); [|destruct (String.eqb _ "map"); [|discriminate]]; cbn [bind];
      (apply nfree_bind; [apply nfree_array|]; intros y; apply nfree_bind; [apply nfree_split|]; intros xs; apply nfree_acc; intros c).
    - unfold vseq. nfree_all; [apply nfree_viterbi, K2|apply K2].
    - apply nfree_bind; [exact (nfree_vscore _ _ _ _ _ H)|]. intros [a b]. apply nfree_ok.
  Qed.
  Lemma vsays_unfitted_by : vsays_unfitted V fp.
  Proof.
    intros v x ls. destruct (h_start (v_h v)) as [s|] eqn:Es.
    - assert (N : forall A (r : res A), nfree r -> (r = Err NotFittedError <-> Some s = None)) by (intros A r Hr; split; [intros H; destruct (Hr H)|discriminate]).
      split; [|split; [|split; [|split]]]; [|..|intros alg|]; apply N.
      + unfold Vbase.vscore. apply nfree_bind; [exact (nfree_vscore _ _ _ _ _ Es)|]. intros [a b]. apply nfree_ok.
      + exact (nfree_vscore _ _ _ _ _ Es).
      + unfold vpredict_proba, vscore_samples. apply nfree_bind; [exact (nfree_vscore _ _ _ _ _ Es)|]. intros [a b]. apply nfree_ok.
      + exact (nfree_vdecode _ _ _ _ _ Es).
      + unfold vpredict. apply nfree_bind; [exact (nfree_vdecode _ _ _ _ _ Es)|]. intros [a b]. apply nfree_ok.
    - assert (F : vfitted V fp v = Err NotFittedError) by (unfold vfitted; rewrite Es; reflexivity).
      unfold vpredict_proba, vpredict, Vbase.vscore, vscore_samples, vscore_, vdecode. rewrite F. cbn [bind]. repeat split; reflexivity.
  Qed.
End VNever.
Lemma C86_vcategorical_l fp : vsays_unfitted vcategorical fp.
Proof.
  assert (K : forall c nf p x, nfree (cat_lik fp c nf p x)) by (intros; unfold cat_lik; nfree_all; apply nfree_np_index).
  apply vsays_unfitted_by; cbn [vc_em vcategorical ec_check ec_loglik ec_lik]; intros.
  - unfold vcat_check, attr. nfree_all.
  - unfold loglik_of_lik. nfree_all. apply K.
  - apply K.
Qed.
Lemma C86_vgaussian_l la fp : vsays_unfitted (vgaussian la) fp.
Proof.
  assert (K : forall c nf p x, nfree (vg_loglik fp c nf p x)) by (intros; unfold vg_loglik; nfree_all; apply nfree_gauss_loglik).
  apply vsays_unfitted_by; cbn [vc_em vgaussian ec_check ec_loglik ec_lik]; intros.
  - unfold vg_check, attr, guard. nfree_all.
  - apply K.
  - unfold lik_of_loglik. nfree_all. apply K.
Qed.

(** ** The information criteria count the parameters before they score. *)
Lemma C86_criteria_l {P X St G} (E : emclass P X St) (I : initclass P X G) fp h x ls : h_start h = None ->
  match n_params I h with
  | Ok _ => aic E I fp h x ls = Err NotFittedError /\ bic E I fp h x ls = Err NotFittedError
  | Err ex => aic E I fp h x ls = Err ex /\ bic E I fp h x ls = Err ex
  end.
Proof.
  intros H. assert (F : score E fp h x ls = Err NotFittedError) by (unfold score, score_, fitted_check; rewrite H; reflexivity).
  unfold aic, bic. rewrite F. destruct (n_params I h); split; reflexivity.
Qed.
Definition criteria_say {P X St G} (E : emclass P X St) (I : initclass P X G) (ex : exn) (typed : P -> Prop) : Prop :=
  forall fp h x ls, h_start h = None -> typed (h_em h) ->
  match h_nfeat h with
  | Some _ => aic E I fp h x ls = Err NotFittedError /\ bic E I fp h x ls = Err NotFittedError
  | None => aic E I fp h x ls = Err ex /\ bic E I fp h x ls = Err ex
  end.
Lemma criteria_say_by {P X St G} (E : emclass P X St) (I : initclass P X G) ex (typed : P -> Prop) :
  (forall c p, ic_nfit I c None p = Err ex) -> (forall c n p, typed p -> exists d, ic_nfit I c (Some n) p = Ok d) -> criteria_say E I ex typed.
Proof.
  intros K1 K2 fp h x ls Hs Ht. pose proof (C86_criteria_l E I fp h x ls Hs) as H. unfold n_params in H.
  destruct (h_nfeat h) as [n|].
  - destruct (K2 (h_cfg h) n (h_em h) Ht) as [d Hd]. rewrite Hd in H. exact H.
  - rewrite K1 in H. exact H.
Qed.
Lemma C86_criteria_categorical_l {G} : criteria_say categorical (cat_initc (G := G)) TypeError (fun _ => True).
Proof. apply criteria_say_by; intros; [reflexivity|eexists; reflexivity]. Qed.
Lemma C86_criteria_poisson_l {G} : criteria_say poisson (pois_initc (G := G)) (AttributeError "n_features") (fun _ => True).
Proof. apply criteria_say_by; intros; [reflexivity|eexists; reflexivity]. Qed.
Lemma C86_criteria_multinomial_l {G} : criteria_say multinomial (mult_initc (G := G)) (AttributeError "n_features") (fun _ => True).
Proof. apply criteria_say_by; intros; [reflexivity|eexists; reflexivity]. Qed.
Lemma four_types ty : is_type covariance_types ty = true -> ty = "spherical"%string \/ ty = "tied"%string \/ ty = "diag"%string \/ ty = "full"%string.
Proof.
  unfold is_type, covariance_types. cbn [existsb]. intros H.
  repeat (apply orb_prop in H as [H|H]; [apply String.eqb_eq in H; subst; tauto|]). discriminate.
Qed.
Lemma C86_criteria_gaussian_l {G} : criteria_say gaussian (gauss_initc (G := G)) (AttributeError "n_features") (fun p => is_type covariance_types (ga_type p) = true).
Proof.
  apply criteria_say_by; intros c; [reflexivity|]. intros n p H. apply four_types in H. cbn [ic_nfit gauss_initc]. unfold gauss_nfit.
  destruct H as [->|[->|[->| ->]]]; eexists; reflexivity.
Qed.
Lemma C86_criteria_gmm_l {G} eig (gr : grng G) : criteria_say (gmm eig) (gmm_initc gr) (AttributeError "n_features") (fun p => is_type covariance_types (gm_type p) = true).
Proof.
  apply criteria_say_by; intros c; [reflexivity|]. intros n p H. apply four_types in H. cbn [ic_nfit gmm_initc]. unfold gmm_nfit.
  destruct H as [->|[->|[->| ->]]]; eexists; reflexivity.
Qed.

(** ** After [fit] the parameters are there. *)
Lemma C86_after_fit_l {P X St G} (E : emclass P X St) (I : initclass P X G) rg fp e glob x ls e1 glob1 ev :
  fit E I rg fp e glob x ls = Ok (e1, glob1, ev) -> h_start (e_hmm e1) <> None /\ h_trans (e_hmm e1) <> None.
Proof.
  intros H. apply fit_inv in H as (e0 & ev1 & ev2 & _ & _ & H & _). unfold fit_from in H.
  set (l := match ls with None => _ | Some l => Some l end) in H. clearbody l.
  destruct (check E fp (e_hmm e0)) as [h1|] eqn:Ec; [|discriminate]. cbn [bind] in H.
  assert (H1 : h_start h1 <> None /\ h_trans h1 <> None).
  { destruct (check_keeps E fp _ _ Ec) as (_ & -> & -> & _). unfold check in Ec. destruct (h_start (e_hmm e0)); [|discriminate].
    destruct (h_trans (e_hmm e0)); [split; discriminate|]. destruct (negb _); [discriminate|]. destruct (negb _); discriminate. }
  apply bind_inv in H as ([[h2 m] ev'] & El & H). assert (E1 : e_hmm e1 = Hmm (h_cfg h2) (h_nfeat h2) (h_start h2) (h_trans h2) m (h_em h2)) by congruence.
  rewrite E1. cbn [h_start h_trans]. destruct (fit_loop_trace _ _ _ _ _ _ _ _ _ El) as (vs & Hi & _). clear - Hi H1.
  revert Hi. generalize (length vs) as k. intros k. revert h1 H1 vs.
  induction k as [|k IH]; intros h1 H1 vs Hi; cbn [iterate] in Hi; [injection Hi as <- _; exact H1|].
  apply bind_inv in Hi as ([h3 v] & Hs & Hi). apply bind_inv in Hi as ([h4 ws] & Hi & Hr). injection Hr as <- _.
  refine (IH _ _ _ Hi). clear - Hs. unfold em_step in Hs. destruct (h_start h1); [|discriminate]. destruct (h_trans h1); [|discriminate].
  apply bind_inv in Hs as ([st lp] & _ & Hs). unfold do_mstep in Hs. apply bind_inv in Hs as (h2 & Hm & Hs). injection Hs as <- _.
  apply bind_inv in Hm as (p & _ & Eh). injection Eh as <-. split; discriminate.
Qed.
