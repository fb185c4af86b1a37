(** * Validation, purity and naming: C27, C51, C52, C54. *)
From Verif Require Export Spec_checks Sample_thms Fit_proofs.

(** ** C27: parameter validation. *)
Lemma xadd_fin_inv a c r : xadd exact a c = Fin r -> (exists x, a = Fin x) /\ exists y, c = Fin y.
Proof. destruct a, c; cbn; intros H; try discriminate; split; eexists; reflexivity. Qed.

Lemma fold_xadd_fin l : forall a r, fold_left (xadd exact) l a = Fin r ->
  (exists x, a = Fin x) /\ Forall (fun y => exists x, y = Fin x) l.
Proof.
  induction l as [|y l IH]; intros a r H; cbn [fold_left] in H.
  - split; [eexists; exact H|constructor].
  - destruct (IH _ _ H) as [[x Hx] Hl]. apply xadd_fin_inv in Hx as [Ha Hy].
    split; [exact Ha|]. constructor; assumption.
Qed.

Lemma fin_vec v : Forall (fun y => exists x, y = Fin x) v -> exists f, v = fvec (length v) f.
Proof.
  induction 1 as [|y l [r ->] Hl [f IH]]; [exists (fun _ => 0); reflexivity|].
  exists (fun i => match i with O => r | S i => f i end).
  unfold fvec. cbn [length]. rewrite tab_S. f_equal. rewrite IH at 1. reflexivity.
Qed.

Lemma allclose1_fin s : allclose1 exact s = true -> exists r, s = Fin r.
Proof. destruct s; cbn; intros H; try discriminate. eexists; reflexivity. Qed.

Lemma check_sum_1_iff v : check_sum_1 exact v = true <-> sums_to_1 (length v) v.
Proof.
  split.
  - unfold check_sum_1. intros H. destruct (allclose1_fin _ H) as [r Hr].
    unfold xsum in Hr. destruct (fold_xadd_fin _ _ _ Hr) as [_ Hf].
    destruct (fin_vec v Hf) as [f Hv]. exists f. split; [exact Hv|].
    apply check_sum_1_fvec. unfold check_sum_1. rewrite <- Hv. exact H.
  - intros (f & Hv & Hn). rewrite Hv. apply check_sum_1_fvec. rewrite Hv in Hn.
    unfold fvec in Hn. rewrite tab_length in Hn. exact Hn.
Qed.

Lemma rows_check_iff m : wf_mat m -> nrow m = ncol m ->
  (forallb (check_sum_1 exact) (rows m) = true <-> rows_sum_to_1 (nrow m) m).
Proof.
  intros Hwf Hsq. split.
  - intros H. rewrite forallb_forall in H.
    assert (HF : forall i, (i < nrow m)%nat -> sums_to_1 (nrow m) (nth i (rows m) [])).
    { intros i Hi. pose proof (nth_In (rows m) [] Hi) as Hin. specialize (H _ Hin).
      apply check_sum_1_iff in H. unfold wf_mat in Hwf. rewrite Forall_forall in Hwf.
      rewrite (Hwf _ Hin), <- Hsq in H. exact H. }
    set (val := fun x : xnum => match x with Fin r => r | _ => 0 end).
    exists (fun i j => val (mget m i j)).
    assert (Hrow : forall i, (i < nrow m)%nat -> nth i (rows m) [] = fvec (nrow m) (fun j => val (mget m i j))
                   /\ near1 (sumn (nrow m) (fun j => val (mget m i j)))).
    { intros i Hi. destruct (HF i Hi) as (f & Hv & Hn).
      assert (He : forall j, (j < nrow m)%nat -> f j = val (mget m i j)).
      { intros j Hj. unfold mget. rewrite Hv. unfold fvec. rewrite tab_nth by exact Hj. reflexivity. }
      rewrite Hv. split; [apply tab_ext_fvec; exact He|]. rewrite <- (sumn_ext _ f _ He). exact Hn. }
    split; [|intros i Hi; apply Hrow; exact Hi].
    rewrite (mat_inv m Hwf) at 1. rewrite <- Hsq. unfold fmat, mtab. f_equal. apply tab_ext.
    intros i Hi. destruct (Hrow i Hi) as [Hr _]. transitivity (nth i (rows m) []); [|exact Hr].
    symmetry. unfold wf_mat in Hwf. rewrite Forall_forall in Hwf.
    rewrite (tab_inv (nrow m) (nth i (rows m) []) NaN) at 1; [reflexivity|].
    rewrite (Hwf _ (nth_In (rows m) [] Hi)). symmetry. exact Hsq.
  - intros (F & Hm & Hn). rewrite Hm. apply forallb_check_rows. exact Hn.
Qed.

Lemma base_check_iff nc s t : wf_mat t ->
  (base_check exact nc s t = Ok tt <-> sums_to_1 nc s /\ rows_sum_to_1 nc t)
  /\ (base_check exact nc s t <> Ok tt -> exists w, base_check exact nc s t = Err (ValueError w)).
Proof.
  intros Hwf. unfold base_check.
  destruct (Nat.eqb_spec (length s) nc) as [Hl|Hl]; cbn [negb].
  2:{ split; [split; [discriminate|]|intros _; eexists; reflexivity].
      intros [(f & -> & _) _]. unfold fvec in Hl. rewrite tab_length in Hl. contradiction. }
  destruct (check_sum_1 exact s) eqn:Hs; cbn [negb].
  2:{ split; [split; [discriminate|]|intros _; eexists; reflexivity].
      intros [H _]. rewrite <- Hl in H. apply check_sum_1_iff in H. congruence. }
  destruct (Nat.eqb_spec (nrow t) nc) as [Hr|Hr]; cbn [negb andb].
  2:{ split; [split; [discriminate|]|intros _; eexists; reflexivity].
      intros [_ (F & -> & _)]. unfold fmat in Hr. rewrite nrow_mtab in Hr. contradiction. }
  destruct (Nat.eqb_spec (ncol t) nc) as [Hc|Hc]; cbn [negb andb].
  2:{ split; [split; [discriminate|]|intros _; eexists; reflexivity].
      intros [_ (F & -> & _)]. unfold fmat in Hc. rewrite ncol_mtab in Hc. contradiction. }
  destruct (forallb (check_sum_1 exact) (rows t)) eqn:Ht; cbn [negb].
  2:{ split; [split; [discriminate|]|intros _; eexists; reflexivity].
      intros [_ H]. rewrite <- Hr in H. apply rows_check_iff in H; [congruence|exact Hwf|congruence]. }
  split; [|intros H; contradiction H; reflexivity]. split; [|reflexivity]. intros _. split.
  - rewrite <- Hl. apply check_sum_1_iff. exact Hs.
  - rewrite <- Hr. apply rows_check_iff; [exact Hwf|congruence|exact Ht].
Qed.

Section Reject.
  Context {P X St : Type} (E : emclass P X St) (h : hmm P) (s : vec) (t : mat).
  Hypothesis Hs : h_start h = Some s.
  Hypothesis Ht : h_trans h = Some t.
  Hypothesis Hwf : wf_mat t.
  Let nc := c_nc (h_cfg h).

  Lemma check_accepts : sums_to_1 nc s -> rows_sum_to_1 nc t ->
    check E exact h = (do (nf, em) <- ec_check E exact (h_cfg h) (h_nfeat h) (h_em h);
                       Ok (Hmm (h_cfg h) nf (h_start h) (h_trans h) (h_mon h) em)).
  Proof.
    intros H1 H2. unfold check. rewrite Hs, Ht.
    change (c_nc (h_cfg h)) with nc.
    rewrite (proj2 (proj1 (base_check_iff nc s t Hwf)) (conj H1 H2)). cbn [bind].
    reflexivity.
  Qed.

  Lemma check_rejects : ~ (sums_to_1 nc s /\ rows_sum_to_1 nc t) ->
    exists w, check E exact h = Err (ValueError w).
  Proof.
    intros H. destruct (base_check_iff nc s t Hwf) as [Hi He].
    destruct He as [w Hw]; [intros Hok; apply H, Hi, Hok|].
    exists w. unfold check. rewrite Hs, Ht. fold nc. rewrite Hw. reflexivity.
  Qed.

  Lemma methods_reject : ~ (sums_to_1 nc s /\ rows_sum_to_1 nc t) ->
    exists w,
      (forall x ls post, score_ E exact h x ls post = Err (ValueError w))
      /\ (forall x ls alg, decode E exact h x ls alg = Err (ValueError w))
      /\ (forall G Y (rand : G -> R * G) (gen : hmm P -> Z -> G -> res (Y * G)) n cs g,
            sample E exact rand gen h n cs g = Err (ValueError w))
      /\ (forall x ls, fit_from E exact h x ls = Err (ValueError w)).
  Proof.
    intros H. destruct (check_rejects H) as [w Hw]. exists w.
    assert (Hf : fitted_check E exact h = Err (ValueError w)).
    { unfold fitted_check. rewrite Hs, Hw. reflexivity. }
    repeat split; intros.
    - unfold score_. rewrite Hf. reflexivity.
    - unfold decode. rewrite Hf. reflexivity.
    - unfold sample. rewrite Hf. reflexivity.
    - unfold fit_from. rewrite Hw. reflexivity.
  Qed.
End Reject.

Lemma stochastic_accepted n p : stochastic1 n p -> sums_to_1 n (fvec n p).
Proof. intros [_ H]. exists p. split; [reflexivity|]. rewrite H. exact near1_1. Qed.
Lemma stochastic_rows_accepted n A : stochastic2 n n A -> rows_sum_to_1 n (fmat n n A).
Proof.
  intros H. exists A. split; [reflexivity|]. intros i Hi. rewrite (proj2 (H i Hi)). exact near1_1.
Qed.

(** startprob_ = [2, -1] is accepted. *)
Definition neg_pi (i : nat) : R := match i with 0%nat => 2 | _ => -1 end.
Definition neg_h : hmm catp :=
  Hmm (ex_cfg "log" "viterbi") None (Some (fvec 2 neg_pi)) (Some (fmat 2 2 ex_A))
      (Monitor (Fin (/ 100)) 10 false [] 0)
      (Catp (Scal (Fin 1)) (Some (fmat 2 3 ex_e))).
Lemma neg_accepted : exists h p h', h_start h = Some (fvec 2 p) /\ p 1%nat < 0
  /\ check categorical exact h = Ok h'.
Proof.
  exists neg_h, neg_pi. eexists. split; [reflexivity|]. split; [simpl; lra|].
  rewrite (check_accepts categorical neg_h (fvec 2 neg_pi) (fmat 2 2 ex_A) eq_refl eq_refl (wf_mtab _ _ _)).
  - cbn [ec_check categorical neg_h h_cfg h_nfeat h_em].
    rewrite (cat_check_ok _ _ _ 2 3 ex_e); [reflexivity|reflexivity|left; reflexivity|].
    intros i Hi. rewrite ex_e_sum by exact Hi. exact near1_1.
  - exists neg_pi. split; [reflexivity|]. change (near1 (sumn 2 neg_pi)).
    replace (sumn 2 neg_pi) with 1 by (simpl; lra). exact near1_1.
  - exists ex_A. split; [reflexivity|]. intros i Hi. change (near1 (sumn 2 (ex_A i))).
    rewrite ex_A_sum by exact Hi. exact near1_1.
Qed.

(** ** C51: inference does not change the model. *)
Lemma check_fields {P X St} (E : emclass P X St) fp h h' : check E fp h = Ok h' ->
  h_cfg h' = h_cfg h /\ h_start h' = h_start h /\ h_trans h' = h_trans h /\ h_mon h' = h_mon h
  /\ ec_check E fp (h_cfg h) (h_nfeat h) (h_em h) = Ok (h_nfeat h', h_em h').
Proof.
  unfold check. destruct (h_start h) as [s|] eqn:Hs; [|discriminate].
  destruct (h_trans h) as [t|] eqn:Ht; [|destruct (negb _); [discriminate|]; destruct (negb _); discriminate].
  destruct (base_check _ _ _ _); [|discriminate]. cbn [bind].
  destruct (ec_check _ _ _ _ _) as [[nf em]|] eqn:Ec; [|discriminate]. cbn [bind].
  intros H. injection H as <-. cbn. repeat split; auto.
Qed.

Lemma check_again {P X St} (E : emclass P X St) fp h h' : check_stable E fp ->
  check E fp h = Ok h' -> check E fp h' = Ok h'.
Proof.
  intros Hst H. destruct (check_fields E fp h h' H) as (H1 & H2 & H3 & H4 & H5).
  apply Hst in H5. unfold check in *. rewrite H2, H3, H1.
  destruct (h_start h) as [s|] eqn:Hs; [|discriminate].
  destruct (h_trans h) as [t|] eqn:Ht; [|destruct (negb _); [discriminate|]; destruct (negb _); discriminate].
  destruct (base_check _ _ _ _); [|discriminate]. cbn [bind] in *.
  rewrite H5. cbn [bind]. rewrite H4. rewrite <- H1.
  rewrite <- H2, <- H3, <- H4. destruct h'; reflexivity.
Qed.

Lemma after_same {P X St} (E : emclass P X St) fp h : check_stable E fp ->
  let h' := after_call E fp h in
  h_cfg h' = h_cfg h /\ h_start h' = h_start h /\ h_trans h' = h_trans h /\ h_mon h' = h_mon h
  /\ fitted_check E fp h' = fitted_check E fp h.
Proof.
  intros Hst h'. unfold h', after_call. destruct (check E fp h) as [h1|e] eqn:Hc; [|repeat split; reflexivity].
  destruct (check_fields E fp h h1 Hc) as (H1 & H2 & H3 & H4 & H5). repeat split; try assumption.
  unfold fitted_check. rewrite H2. destruct (h_start h) eqn:Hs; [|reflexivity].
  rewrite Hc, (check_again E fp h h1 Hst Hc). reflexivity.
Qed.

Lemma after_results {P X St} (E : emclass P X St) fp h : check_stable E fp ->
  let h' := after_call E fp h in
  (forall x ls, score E fp h' x ls = score E fp h x ls)
  /\ (forall x ls, score_samples E fp h' x ls = score_samples E fp h x ls)
  /\ (forall x ls, predict_proba E fp h' x ls = predict_proba E fp h x ls)
  /\ (forall x ls alg, decode E fp h' x ls alg = decode E fp h x ls alg)
  /\ (forall x ls, predict E fp h' x ls = predict E fp h x ls).
Proof.
  intros Hst h'. destruct (after_same E fp h Hst) as (H1 & H2 & H3 & H4 & H5). fold h' in H1, H2, H3, H4, H5.
  assert (HS : forall x ls post, score_ E fp h' x ls post = score_ E fp h x ls post).
  { intros x ls post. unfold score_. rewrite H5, H1. reflexivity. }
  assert (HD : forall x ls alg, decode E fp h' x ls alg = decode E fp h x ls alg).
  { intros x ls alg. unfold decode. rewrite H5, H1. reflexivity. }
  repeat split; intros.
  - unfold score. rewrite HS. reflexivity.
  - unfold score_samples. apply HS.
  - unfold predict_proba, score_samples. rewrite HS. reflexivity.
  - apply HD.
  - unfold predict. rewrite HD. reflexivity.
Qed.

Lemma cat_check_same fp c nf p nf' p' : cat_check fp c nf p = Ok (nf', p') ->
  p' = p /\ (nf' = nf \/ nf = None).
Proof.
  unfold cat_check. destruct (cat_prob p) as [m|]; [|discriminate].
  destruct (negb _); [discriminate|]. destruct (negb _); [discriminate|].
  intros H. injection H as <- <-. split; [reflexivity|]. destruct nf; auto.
Qed.

Lemma cat_stable fp : check_stable categorical fp.
Proof.
  intros c nf p nf' p'. cbn [ec_check categorical]. unfold cat_check.
  destruct (cat_prob p) as [m|] eqn:Hm; [|discriminate].
  destruct (negb (Nat.eqb (nrow m) (c_nc c) && _)) eqn:H1; [discriminate|].
  destruct (negb (forallb _ _)) eqn:H2; [discriminate|].
  intros H. injection H as <- <-. rewrite Hm. rewrite H1, H2. reflexivity.
Qed.

(** ** C52: names. *)
Section Names.
  Context {P X St : Type} (E : emclass P X St) (h : hmm P).
  Variables (nc : nat) (pi : nat -> R) (A : nat -> nat -> R) (ok : X -> Prop) (b : X -> nat -> R).
  Hypothesis Rd : ready E h nc pi A ok b.

  Lemma decode_unknown x ls alg :
    effective h alg <> "viterbi"%string -> effective h alg <> "map"%string ->
    decode E exact h x ls alg = Err (ValueError "Unknown decoder").
  Proof.
    intros H1 H2. unfold decode. destruct (ready_fitted_check E h nc pi A ok b Rd) as (h' & Hf & _).
    rewrite Hf. cbn [bind]. unfold effective in *.
    apply String.eqb_neq in H1, H2. rewrite H1, H2. reflexivity.
  Qed.

  Lemma decode_known_viterbi x ls alg : good_data ok ls x -> effective h alg = "viterbi"%string ->
    exists r, decode E exact h x (as_lengths ls) alg = Ok r.
  Proof.
    intros Hd He.
    assert (HD : decode E exact h x (as_lengths ls) alg = decode E exact h x (as_lengths ls) (Some "viterbi"%string)).
    { unfold decode. destruct (fitted_check E exact h) as [[[h' s] t]|]; [|reflexivity]. cbn [bind].
      unfold effective in He. rewrite He. reflexivity. }
    rewrite HD. destruct (decode_viterbi_spec E h nc pi A ok b Rd ls x (Some "viterbi"%string) Hd) as (zs & H & _); [left; reflexivity|].
    eexists; exact H.
  Qed.

  Lemma decode_known_map x ls alg : good_data ok ls x -> effective h alg = "map"%string ->
    (forall c, In c (chunks ls x) -> scorable nc pi A b (c_impl (h_cfg h)) c) ->
    exists r, decode E exact h x (as_lengths ls) alg = Ok r.
  Proof.
    intros Hd He Hs.
    assert (HD : decode E exact h x (as_lengths ls) alg = decode E exact h x (as_lengths ls) (Some "map"%string)).
    { unfold decode. destruct (fitted_check E exact h) as [[[h' s] t]|]; [|reflexivity]. cbn [bind].
      unfold effective in He. rewrite He. reflexivity. }
    rewrite HD. destruct (decode_map_spec E h nc pi A ok b Rd ls x (Some "map"%string) Hd) as (zs & H & _);
      [left; reflexivity|exact Hs|]. eexists; exact H.
  Qed.

  Lemma score_unknown_impl x ls post : x <> [] -> Forall ok x ->
    c_impl (h_cfg h) <> "log"%string -> c_impl (h_cfg h) <> "scaling"%string ->
    score_ E exact h x ls post = Err KeyError.
  Proof.
    intros Hx Hok H1 H2. unfold score_.
    destruct (ready_fitted_check E h nc pi A ok b Rd) as (h' & Hf & He & _). rewrite Hf. cbn [bind].
    rewrite (check_array_ready E ok x Hx Hok) by apply He. cbn [bind].
    apply String.eqb_neq in H1, H2. rewrite H1, H2. reflexivity.
  Qed.

  Lemma fit_unknown_impl x ls : (0 < c_n_iter (h_cfg h))%nat ->
    c_impl (h_cfg h) <> "log"%string -> c_impl (h_cfg h) <> "scaling"%string ->
    fit_from E exact h x ls = Err KeyError.
  Proof.
    intros Hn H1 H2. unfold fit_from. destruct (rd_check _ _ _ _ _ _ _ Rd) as (h' & Hc & _).
    rewrite Hc. cbn [bind]. destruct (check_fields E exact h h' Hc) as (Hcfg & Hs & Ht & _).
    rewrite Hcfg. destruct (c_n_iter (h_cfg h)); [lia|]. cbn [fit_loop].
    unfold em_step at 1. rewrite Hs, Ht, (rd_start _ _ _ _ _ _ _ Rd), (rd_trans _ _ _ _ _ _ _ Rd).
    unfold do_estep. rewrite Hcfg. apply String.eqb_neq in H1, H2. rewrite H1, H2. reflexivity.
  Qed.

  (** Viterbi decoding does not look at [implementation]. *)
  Lemma viterbi_any_impl x ls i : good_data ok ls x ->
    ready E (with_cfg (cfg_impl i) h) nc pi A ok b ->
    exists r, decode E exact (with_cfg (cfg_impl i) h) x (as_lengths ls) (Some "viterbi"%string) = Ok r.
  Proof.
    intros Hd R2.
    destruct (decode_viterbi_spec E (with_cfg (cfg_impl i) h) nc pi A ok b R2 ls x (Some "viterbi"%string) Hd) as (zs & H & _); [left; reflexivity|].
    eexists; exact H.
  Qed.
End Names.

(** ** C54: shapes and zero-length sequences. *)
Lemma shape_guard_mismatch {A} s t fr (k : res A) : ~ fits s t fr ->
  shape_guard s t fr k = Err (ValueError "shape mismatch").
Proof.
  intros H. unfold shape_guard.
  destruct (Nat.eqb_spec (length s) (ncol fr)); [|reflexivity].
  destruct (Nat.eqb_spec (nrow t) (ncol fr)); [|reflexivity].
  destruct (Nat.eqb_spec (ncol t) (ncol fr)); [|reflexivity].
  exfalso. apply H. repeat split; assumption.
Qed.
Lemma shape_guard_fits {A} s t fr (k : res A) : fits s t fr -> (0 < nrow fr)%nat -> shape_guard s t fr k = k.
Proof.
  intros (H1 & H2 & H3) Hn. unfold shape_guard.
  rewrite H1, H2, H3, Nat.eqb_refl. destruct (Nat.eqb_spec (nrow fr) 0); [lia|reflexivity].
Qed.

Lemma kernels_mismatch fp s t fr : ~ fits s t fr ->
  forward_scaling fp s t fr = Err (ValueError "shape mismatch")
  /\ forward_log fp s t fr = Err (ValueError "shape mismatch")
  /\ (forall sc, backward_scaling fp s t fr sc = Err (ValueError "shape mismatch"))
  /\ backward_log fp s t fr = Err (ValueError "shape mismatch")
  /\ viterbi fp s t fr = Err (ValueError "shape mismatch").
Proof.
  intros H. repeat split; intros; unfold forward_scaling, forward_log, backward_scaling, backward_log, viterbi;
    try (apply shape_guard_mismatch; exact H).
  destruct (negb _); [reflexivity|]. apply shape_guard_mismatch; exact H.
Qed.

Lemma xi_mismatch fp fwd t bwd fr : ~ xi_fits fwd t bwd fr ->
  compute_scaling_xi_sum fp fwd t bwd fr = Err (ValueError "shape mismatch")
  /\ compute_log_xi_sum fp fwd t bwd fr = Err (ValueError "shape mismatch").
Proof.
  intros H. assert (G : forall A (k : res A), xi_guard fwd t bwd fr k = Err (ValueError "shape mismatch")).
  { intros A k. unfold xi_guard.
    destruct (Nat.eqb_spec (nrow fwd) (nrow fr)); [|reflexivity].
    destruct (Nat.eqb_spec (ncol fwd) (ncol fr)); [|reflexivity].
    destruct (Nat.eqb_spec (nrow t) (ncol fr)); [|reflexivity].
    destruct (Nat.eqb_spec (ncol t) (ncol fr)); [|reflexivity].
    destruct (Nat.eqb_spec (nrow bwd) (nrow fr)); [|reflexivity].
    destruct (Nat.eqb_spec (ncol bwd) (ncol fr)); [|reflexivity].
    exfalso. apply H. repeat split; assumption. }
  split; apply G.
Qed.

(** Matching shapes and at least one row: no shape error. *)
Lemma kernels_match fp s t fr : fits s t fr -> (0 < nrow fr)%nat ->
  (exists r, forward_log fp s t fr = Ok r) /\ (exists r, backward_log fp s t fr = Ok r)
  /\ (exists r, viterbi fp s t fr = Ok r)
  /\ (forall sc, length sc = nrow fr -> exists r, backward_scaling fp s t fr sc = Ok r)
  /\ ((exists r, forward_scaling fp s t fr = Ok r) \/ forward_scaling fp s t fr = Err (ValueError "underflow")).
Proof.
  intros H Hn. assert (Hr : exists r0 rs, rows fr = r0 :: rs).
  { unfold nrow in Hn. destruct (rows fr) as [|r0 rs]; [simpl in Hn; lia|]. exists r0, rs. reflexivity. }
  destruct Hr as (r0 & rs & Hr).
  unfold forward_log, backward_log, viterbi, backward_scaling, forward_scaling.
  rewrite !shape_guard_fits by assumption. rewrite Hr.
  split; [eexists; reflexivity|]. split; [eexists; reflexivity|]. split; [eexists; reflexivity|].
  split.
  - intros sc Hsc. rewrite shape_guard_fits by assumption. rewrite Hsc, Nat.eqb_refl. cbn [negb]. eexists; reflexivity.
  - assert (HL : forall l lp prev, (exists r, fwd_scaling_loop fp (ncol fr) t lp prev l = Ok r)
        \/ fwd_scaling_loop fp (ncol fr) t lp prev l = Err (ValueError "underflow")).
    { induction l as [|y l IH]; intros lp prev; cbn [fwd_scaling_loop]; [left; eexists; reflexivity|].
      unfold rescale. destruct (xltb _ _); [right; reflexivity|]. cbn [bind].
      match goal with |- context [fwd_scaling_loop fp (ncol fr) t ?a ?p l] => destruct (IH a p) as [[[[q1 q2] q3] Hq]|Hq] end;
        rewrite Hq; cbn [bind]; [left; eexists; reflexivity|right; reflexivity]. }
    unfold rescale. destruct (xltb _ _); [right; reflexivity|]. cbn [bind].
    match goal with |- context [fwd_scaling_loop fp (ncol fr) t ?a ?p rs] => destruct (HL rs a p) as [[[[q1 q2] q3] Hq]|Hq] end;
      rewrite Hq; cbn [bind]; [left; eexists; reflexivity|right; reflexivity].
Qed.

Section ZeroLength.
  Context {P X St : Type} (E : emclass P X St) (h : hmm P).
  Variables (nc : nat) (pi : nat -> R) (A : nat -> nat -> R) (ok : X -> Prop) (b : X -> nat -> R).
  Hypothesis Rd : ready E h nc pi A ok b.

  (** Any 0 in [lengths] sends an empty array to the native kernels. *)
  Lemma zero_length_ub ls x : c_impl (h_cfg h) = "log"%string -> x <> [] -> Forall ok x ->
    fold_right Nat.add 0%nat ls = length x -> In 0%nat ls ->
    score E exact h x (as_lengths ls) = Err UB.
  Proof.
    intros Hi Hx Hok Hsum H0.
    destruct (ready_fitted_check E h nc pi A ok b Rd) as (h' & Hf & He & _).
    unfold score, score_. rewrite Hf. cbn [bind].
    rewrite (check_array_ready E ok x Hx Hok) by apply He. cbn [bind].
    rewrite Hi. cbn [String.eqb Ascii.eqb Bool.eqb bind].
    rewrite split_X_lengths_chunks; [|intros ->; destruct H0|exact Hsum]. cbn [bind].
    assert (Hall : forall c, In c (chunks ls x) ->
      (c <> [] /\ exists r, score_log_seq E exact h' (fvec nc pi) (fmat nc nc A) false c = Ok r)
      \/ (c = [] /\ score_log_seq E exact h' (fvec nc pi) (fmat nc nc A) false c = Err UB)).
    { intros c Hc. pose proof (chunks_Forall ls x ok Hok) as HF. rewrite Forall_forall in HF.
      destruct c as [|o c].
      - right. split; [reflexivity|]. unfold score_log_seq. rewrite (em_log _ _ _ _ _ He [] (HF _ Hc)). cbn [bind].
        unfold forward_log, shape_guard, lmat, fmat, nrow. cbn [mtab ncol rows length tab].
        unfold fvec. rewrite !tab_length. cbn [Nat.eqb]. rewrite !Nat.eqb_refl. reflexivity.
      - left. split; [discriminate|]. eexists. apply (score_log_seq_false E h nc pi A ok b Rd h' He);
          [discriminate|exact (HF _ Hc)]. }
    assert (HE : In [] (chunks ls x)).
    { clear -H0 Hsum. revert x Hsum. induction ls as [|n l IH]; intros x Hsum; [destruct H0|].
      cbn [chunks]. destruct H0 as [->|H0]; [left; reflexivity|]. right. apply IH; [exact H0|].
      cbn [fold_right] in Hsum. rewrite skipn_length. lia. }
    rewrite (acc_seqs_err (score_log_seq E exact h' (fvec nc pi) (fmat nc nc A) false) UB).
    - reflexivity.
    - intros c Hc. destruct (Hall c Hc) as [[_ H]|[_ H]]; [left|right]; exact H.
    - exists []. split; [exact HE|]. destruct (Hall [] HE) as [[H _]|[_ H]]; [contradiction H; reflexivity|exact H].
  Qed.
End ZeroLength.
