(** * CategoricalHMM training runs. *)
From Verif Require Export Gen_fit Categorical_train.

(** Hyper-parameters of a CategoricalHMM, all at least 1. *)
Record cat_priors (h : hmm catp) (nc nf : nat) (sp : nat -> R) (tp ep : nat -> nat -> R) : Prop := CatPriors {
  cp_base : priors (h_cfg h) nc sp tp;
  cp_em : eprior_is nc nf (h_em h) ep;
  cp_s : forall i, (i < nc)%nat -> 1 <= sp i;
  cp_t : forall i j, (i < nc)%nat -> (j < nc)%nat -> 1 <= tp i j;
  cp_e : forall i k, (i < nc)%nat -> (k < nf)%nat -> 1 <= ep i k }.

(** The default: all priors 1.0. *)
Definition flat_priors (h : hmm catp) : Prop :=
  c_sprior (h_cfg h) = Scal (Fin 1) /\ c_tprior (h_cfg h) = Scal (Fin 1)
  /\ cat_prior (h_em h) = Scal (Fin 1).

Lemma flat_cat_priors h nc nf : flat_priors h ->
  cat_priors h nc nf (fun _ => 1) (fun _ _ => 1) (fun _ _ => 1).
Proof.
  intros (H1 & H2 & H3). constructor; try (intros; lra).
  - split; intros; [rewrite H1|rewrite H2]; reflexivity.
  - intros i k _ _. rewrite H3. reflexivity.
Qed.

(** Every sequence is possible under the model. *)
Definition possible {X} nc pi A (b : X -> nat -> R) ls x : Prop :=
  forall c, In c (chunks ls x) -> 0 < seq_lik nc pi A b c.

Definition checked (h : hmm catp) (nf : nat) : hmm catp :=
  Hmm (h_cfg h) (Some nf) (h_start h) (h_trans h) (h_mon h) (h_em h).

Lemma cat_model_check h nc nf pi A e : cat_model h nc nf pi A e ->
  check categorical exact h = Ok (checked h nf).
Proof.
  intros [H1 H2 H3 H4 H5 H6 H7 H8 H9 H10 H11 H12].
  destruct h as [c nfe s t m [prior em]]. cbn in *. subst s t em.
  unfold check. cbn [h_start h_trans h_cfg h_nfeat h_em h_mon]. rewrite H1, base_check_ok by assumption.
  cbn [bind categorical ec_check]. rewrite (cat_check_ok c nfe prior nc nf e) by assumption. reflexivity.
Qed.

Lemma cat_good_init strict h nc nf pi A e sp tp ep : cat_model h nc nf pi A e ->
  cat_priors h nc nf sp tp ep ->
  (strict = true -> forall i, (i < nc)%nat -> sumn nf (e i) <= 1) ->
  (strict = true -> has "e" (c_params (h_cfg h)) = true ->
      forall i k, (i < nc)%nat -> (k < nf)%nat -> 1 < ep i k -> 0 < e i k) ->
  cat_good nc nf ep strict (h_cfg h) (Some nf) (h_em h)
  /\ forall i k, (i < nc)%nat -> (k < nf)%nat -> cat_e (h_em h) i k = e i k.
Proof.
  intros CM CP H1 H2. destruct (h_em h) as [prior pr] eqn:Eh.
  pose proof (cm_em _ _ _ _ _ _ CM) as Hp. rewrite Eh in Hp. cbn [cat_prob] in Hp. subst pr.
  assert (He : forall i k, (i < nc)%nat -> (k < nf)%nat -> cat_e (Catp prior (Some (fmat nc nf e))) i k = e i k)
    by (intros; apply cat_e_fmat; assumption).
  split; [|exact He]. constructor.
  - reflexivity.
  - cbn [cat_prob]. f_equal. apply fmat_cat_e.
  - intros i k Hi Hk. rewrite He by assumption. apply CM; assumption.
  - pose proof (cp_em _ _ _ _ _ _ CP) as Hq. rewrite Eh in Hq. exact Hq.
  - intros Hs i Hi. rewrite (sumn_ext _ _ (e i)); [apply H1; assumption|]. intros k Hk. apply He; assumption.
  - intros Hs Hh i k Hi Hk Hg. rewrite He by assumption. apply H2; assumption.
Qed.

Lemma cat_tstate strict h nc nf pi A e sp tp ep ls x : cat_model h nc nf pi A e ->
  cat_priors h nc nf sp tp ep -> good_data (sym_ok nf) ls x -> possible nc pi A (cat_b e) ls x ->
  (strict = true -> forall i, (i < nc)%nat -> sumn nf (e i) <= 1) ->
  (strict = true -> has "e" (c_params (h_cfg h)) = true ->
      forall i k, (i < nc)%nat -> (k < nf)%nat -> 1 < ep i k -> 0 < e i k) ->
  tstate nc (cat_good nc nf ep strict) cat_bp false ls x (checked h nf) pi A.
Proof.
  intros CM CP Hd Hpos H1 H2.
  destruct (cat_good_init strict h nc nf pi A e sp tp ep CM CP H1 H2) as [Hg He].
  constructor; try (apply CM).
  - exact Hg.
  - intros c Hc. cbn [checked h_em].
    destruct (good_data_chunks (sym_ok nf) ls x Hd) as (_ & _ & Hch). rewrite Forall_forall in Hch.
    destruct (Hch c Hc) as [Hne Hok].
    rewrite (seq_lik_ext (sym_ok nf) nc pi A _ (cat_b e) c Hne Hok); [apply Hpos; exact Hc|].
    intros o i Ho Hi. unfold cat_bp, cat_b. apply He; [exact Hi|]. unfold sym_ok in Ho. lia.
  - discriminate.
Qed.

(** The objects in a run of [fit]. *)
Theorem cat_fit_run strict h nc nf pi A e sp tp ep ls x h' ev : cat_model h nc nf pi A e ->
  cat_priors h nc nf sp tp ep -> good_data (sym_ok nf) ls x -> possible nc pi A (cat_b e) ls x ->
  (strict = true -> forall i, (i < nc)%nat -> sumn nf (e i) <= 1) ->
  (strict = true -> has "e" (c_params (h_cfg h)) = true ->
      forall i k, (i < nc)%nat -> (k < nf)%nat -> 1 < ep i k -> 0 < e i k) ->
  fit_from categorical exact h x (as_lengths ls) = Ok (h', ev) ->
  exists h2 hs pis As,
    pis 0%nat = pi /\ As 0%nat = A
    /\ run categorical nc (sym_ok nf) (cat_good nc nf ep strict) cat_bp false ls x sp tp
         (length (m_history (h_mon h'))) (checked h nf) h2 (m_history (h_mon h')) hs pis As
    /\ h' = Hmm (h_cfg h2) (h_nfeat h2) (h_start h2) (h_trans h2) (h_mon h') (h_em h2).
Proof.
  intros CM CP Hd Hpos H1 H2 Hf.
  pose proof (cat_tstate strict h nc nf pi A e sp tp ep ls x CM CP Hd Hpos H1 H2) as TS.
  destruct (fit_from_trace _ _ _ _ _ _ _ Hf) as (h1 & h2 & vs & Hc & Hi & Hh & _).
  rewrite (cat_model_check h nc nf pi A e CM) in Hc. injection Hc as <-.
  destruct (iterate_run categorical nc (sym_ok nf) (cat_good nc nf ep strict) cat_bp
              false (cat_trains nc nf ep (cp_e _ _ _ _ _ _ CP) strict) ls x Hd sp tp
              (cp_s _ _ _ _ _ _ CP) (cp_t _ _ _ _ _ _ CP) (length vs) (checked h nf) pi A h2 vs TS
              (cp_base _ _ _ _ _ _ CP) Hi) as (hs & pis & As & E1 & E2 & Rn).
  assert (Hm : m_history (h_mon h') = vs) by (rewrite Hh; reflexivity).
  exists h2, hs, pis, As. rewrite Hm. split; [exact E1|]. split; [exact E2|]. split; [exact Rn|].
  rewrite Hh. reflexivity.
Qed.

Lemma cat_pen_flat nc nf p : cat_pen nc nf (fun _ _ => 1) p = 0.
Proof. unfold cat_pen. apply sumn_zero. intros i Hi. apply sumn_zero. intros; ring. Qed.

(** [fit] with the log implementation succeeds. *)
Theorem cat_fit_log_ok h nc nf pi A e sp tp ep ls x : cat_model h nc nf pi A e ->
  cat_priors h nc nf sp tp ep -> good_data (sym_ok nf) ls x -> possible nc pi A (cat_b e) ls x ->
  c_impl (h_cfg h) = "log"%string ->
  exists r, fit_from categorical exact h x (as_lengths ls) = Ok r.
Proof.
  intros CM CP Hd Hpos Hi.
  assert (TS : tstate nc (cat_good nc nf ep false) cat_bp false ls x (checked h nf) pi A)
    by (apply (cat_tstate false h nc nf pi A e sp tp ep); auto; discriminate).
  unfold fit_from. rewrite (cat_model_check h nc nf pi A e CM). cbn [bind].
  destruct (fit_loop_log categorical nc (sym_ok nf) (cat_good nc nf ep false) cat_bp
              false (cat_trains nc nf ep (cp_e _ _ _ _ _ _ CP) false) ls x Hd sp tp
              (cp_s _ _ _ _ _ _ CP) (cp_t _ _ _ _ _ _ CP) (zero_rows exact) (c_n_iter (h_cfg h)) (checked h nf) pi A
              (monitor_reset (h_mon h)) TS (cp_base _ _ _ _ _ _ CP) Hi) as [[[h2 m2] ev2] El].
  cbn [checked h_cfg h_mon]. fold (checked h nf). unfold as_lengths in *. rewrite El. cbn [bind]. eexists. reflexivity.
Qed.
