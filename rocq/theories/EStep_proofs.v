(** * The E-step accumulates exact expected counts. *)
From Verif Require Export Api_proofs.

Lemma vadd_fvec n f g : vadd exact (fvec n f) (fvec n g) = fvec n (fun i => f i + g i).
Proof.
  unfold vadd. unfold fvec at 1. rewrite tab_length. apply tab_ext. intros i Hi.
  rewrite !vget_fvec by exact Hi. reflexivity.
Qed.

Lemma madd_fmat r c f g : madd exact (fmat r c f) (fmat r c g) = fmat r c (fun i j => f i j + g i j).
Proof.
  unfold madd, mzip. rewrite nrow_fmat, ncol_fmat. apply mtab_ext. intros i j Hi Hj.
  rewrite !mget_fmat by assumption. reflexivity.
Qed.

Lemma fvec_ext n f g : (forall i, (i < n)%nat -> f i = g i) -> fvec n f = fvec n g.
Proof. apply tab_ext_fvec. Qed.
Lemma fmat_ext r c f g : (forall i j, (i < r)%nat -> (j < c)%nat -> f i j = g i j) -> fmat r c f = fmat r c g.
Proof. intros H. apply mtab_ext. intros i j Hi Hj. rewrite H by assumption. reflexivity. Qed.

Lemma mexp_lmat r c f : nonneg2 r c f -> mmap (xexp exact) (lmat r c f) = fmat r c f.
Proof.
  intros H. unfold lmat. rewrite mmap_mtab. apply mtab_ext. intros i j Hi Hj.
  apply xexp_xln. apply H; assumption.
Qed.

Lemma fmat_row0 T nc f : nth 0 (rows (fmat (S T) nc f)) [] = fvec nc (f 0%nat).
Proof. unfold fmat, mtab. cbn [rows]. rewrite tab_nth by lia. reflexivity. Qed.

Section ET.
  Variables (nc T : nat) (pi : nat -> R) (A : nat -> nat -> R) (B : nat -> nat -> R).
  Hypothesis Hpi : nonneg1 nc pi.
  Hypothesis HA : nonneg2 nc nc A.
  Hypothesis HB : nonneg2 (S T) nc B.

  Lemma expected_trans_nonneg : 0 < likelihood nc (S T) pi A B ->
    nonneg2 nc nc (expected_trans nc (S T) pi A B).
  Proof.
    intros HL i j Hi Hj. unfold expected_trans.
    apply Rmult_le_pos; [|left; apply Rinv_0_lt_compat; exact HL].
    apply sumL_nonneg. intros z Hz. apply in_all_paths in Hz. apply Rmult_le_pos.
    - apply (joint_nonneg nc); try assumption. lia.
    - unfold n_trans. apply sumn_nonneg. intros t Ht. destruct (_ && _); lra.
  Qed.
End ET.

Lemma expected_trans_1 nc pi A B i j : expected_trans nc 1 pi A B i j = 0.
Proof.
  unfold expected_trans. rewrite sumL_zero; [unfold Rdiv; ring|].
  intros z _. unfold n_trans. simpl. ring.
Qed.

Section EStep.
  Context {P X St : Type} (E : emclass P X St) (h : hmm P).
  Variables (nc : nat) (pi : nat -> R) (A : nat -> nat -> R) (ok : X -> Prop) (b : X -> nat -> R).
  Hypothesis Tr : trainable E h nc pi A ok b.
  Notation post c := (fmat (length c) nc (seq_post nc pi A b c)).

  (** Emission statistics accumulated with the exact posteriors. *)
  Fixpoint em_fold (st : St) (cs : list (list X)) : res St :=
    match cs with
    | [] => Ok st
    | c :: r => do st' <- ec_acc E exact (h_cfg h) (h_nfeat h) (h_em h) st c (post c); em_fold st' r
    end.

  Definition add_start (f : nat -> R) (c : list X) (i : nat) : R :=
    if has "s" (c_params (h_cfg h)) then f i + seq_post nc pi A b c 0 i else f i.
  Definition add_trans (f : nat -> nat -> R) (c : list X) (i j : nat) : R :=
    if has "t" (c_params (h_cfg h)) then f i j + seq_trans nc pi A b c i j else f i j.

  Lemma estep_seq_spec n f g em c : c <> [] -> Forall ok c ->
    scorable nc pi A b (c_impl (h_cfg h)) c ->
    estep_seq E exact h (fvec nc pi) (fmat nc nc A) (Stats n (fvec nc f) (fmat nc nc g) em) c
    = do em' <- ec_acc E exact (h_cfg h) (h_nfeat h) (h_em h) em c (post c);
      Ok (Stats (S n) (fvec nc (add_start f c)) (fmat nc nc (add_trans g c)) em',
          xln (seq_lik nc pi A b c)).
  Proof.
    intros Hne Hc Hs.
    pose proof (tr_em _ _ _ _ _ _ _ Tr) as He.
    pose proof (obsB_nonneg ok b nc c (em_nonneg _ _ _ _ _ He) Hc) as HB.
    pose proof (tr_pos _ _ _ _ _ _ _ Tr) as Hnc.
    pose proof (tr_pi _ _ _ _ _ _ _ Tr) as Hpi. pose proof (tr_A _ _ _ _ _ _ _ Tr) as HA.
    unfold estep_seq. destruct Hs as [[Hi HL]|[Hi Hu]].
    - rewrite Hi. cbn [String.eqb Ascii.eqb Bool.eqb bind]. cbn [bind].
      unfold fit_log. rewrite (em_log _ _ _ _ _ He c Hc). cbn [bind].
      destruct (seq_nonempty c Hne) as [T HT]. unfold seq_lik, seq_post in *. rewrite HT in *.
      rewrite forward_log_spec by assumption. cbn [bind].
      rewrite backward_log_spec by assumption. cbn [bind].
      rewrite compute_posteriors_log_spec by assumption. cbn [bind].
      unfold acc_base. cbn [st_start st_trans st_nobs st_em].
      rewrite fmat_row0, nrow_lmat.
      assert (Hst : (if has "s" (c_params (h_cfg h))
                then vadd exact (fvec nc f) (fvec nc (posterior nc (S T) pi A (obsB b c) 0))
                else fvec nc f) = fvec nc (add_start f c)).
      { unfold add_start, seq_post. rewrite HT. destruct (has "s" _); [apply vadd_fvec|reflexivity]. }
      rewrite Hst.
      assert (Htr : (if has "t" (c_params (h_cfg h))
         then if Nat.leb (S T) 1 then Ok (fmat nc nc g)
              else do xi <- compute_log_xi_sum exact (lmat (S T) nc (alpha nc pi A (obsB b c))) (fmat nc nc A)
                              (lmat (S T) nc (fun t i => beta nc A (obsB b c) t (T - t) i))
                              (lmat (S T) nc (obsB b c));
                   Ok (madd exact (fmat nc nc g) (mmap (xexp exact) xi))
         else Ok (fmat nc nc g)) = Ok (fmat nc nc (add_trans g c))).
      { unfold add_trans, seq_trans. rewrite HT. destruct (has "t" _); [|reflexivity].
        destruct (Nat.leb_spec (S T) 1).
        - replace T with 0%nat by lia. f_equal. apply fmat_ext. intros i j _ _.
          rewrite expected_trans_1. ring.
        - rewrite compute_log_xi_sum_spec by assumption. cbn [bind].
          rewrite mexp_lmat by (apply expected_trans_nonneg; assumption).
          rewrite madd_fmat. reflexivity. }
      rewrite Htr. cbn [bind]. reflexivity.
    - rewrite Hi. cbn [String.eqb Ascii.eqb Bool.eqb bind]. cbn [bind].
      unfold fit_scaling. rewrite (em_lin _ _ _ _ _ He c Hc). cbn [bind].
      apply no_underflow_seq in Hu; [|exact Hne].
      destruct (seq_nonempty c Hne) as [T HT]. unfold seq_lik, seq_post in *. rewrite HT in *.
      replace (S T - 1)%nat with T in Hu by lia.
      rewrite forward_scaling_spec by assumption. cbn [bind].
      rewrite backward_scaling_spec by assumption. cbn [bind].
      rewrite compute_posteriors_scaling_spec by assumption. cbn [bind].
      unfold acc_base. cbn [st_start st_trans st_nobs st_em].
      rewrite fmat_row0, nrow_fmat.
      assert (Hst : (if has "s" (c_params (h_cfg h))
                then vadd exact (fvec nc f) (fvec nc (posterior nc (S T) pi A (obsB b c) 0))
                else fvec nc f) = fvec nc (add_start f c)).
      { unfold add_start, seq_post. rewrite HT. destruct (has "s" _); [apply vadd_fvec|reflexivity]. }
      rewrite Hst.
      assert (Htr : (if has "t" (c_params (h_cfg h))
         then if Nat.leb (S T) 1 then Ok (fmat nc nc g)
              else do xi <- compute_scaling_xi_sum exact
                 (fmat (S T) nc (fun t i => alpha nc pi A (obsB b c) t i / prefix_lik nc pi A (obsB b c) (S t)))
                 (fmat nc nc A)
                 (fmat (S T) nc (fun t i => beta nc A (obsB b c) t (T - t) i * prefix_lik nc pi A (obsB b c) t
                                            / prefix_lik nc pi A (obsB b c) (S T)))
                 (fmat (S T) nc (obsB b c));
                   Ok (madd exact (fmat nc nc g) xi)
         else Ok (fmat nc nc g)) = Ok (fmat nc nc (add_trans g c))).
      { unfold add_trans, seq_trans. rewrite HT. destruct (has "t" _); [|reflexivity].
        destruct (Nat.leb_spec (S T) 1).
        - replace T with 0%nat by lia. f_equal. apply fmat_ext. intros i j _ _.
          rewrite expected_trans_1. ring.
        - rewrite compute_scaling_xi_sum_spec by assumption. cbn [bind].
          rewrite madd_fmat. reflexivity. }
      rewrite Htr. cbn [bind]. reflexivity.
  Qed.

  Lemma estep_loop_spec cs : forall n f g em a, 0 <= a ->
    Forall (fun c => c <> [] /\ Forall ok c) cs ->
    (forall c, In c cs -> scorable nc pi A b (c_impl (h_cfg h)) c) ->
    estep_loop E exact h (fvec nc pi) (fmat nc nc A) (Stats n (fvec nc f) (fmat nc nc g) em) (xln a) cs
    = do em' <- em_fold em cs;
      Ok (Stats (n + length cs)
            (fvec nc (fun i => if has "s" (c_params (h_cfg h))
                               then f i + sumL (fun c => seq_post nc pi A b c 0 i) cs else f i))
            (fmat nc nc (fun i j => if has "t" (c_params (h_cfg h))
                               then g i j + sumL (fun c => seq_trans nc pi A b c i j) cs else g i j))
            em', xln (a * prodL (seq_lik nc pi A b) cs)).
  Proof.
    induction cs as [|c cs IH]; intros n f g em a Ha Hcs Hs.
    - cbn [estep_loop em_fold bind length sumL prodL]. rewrite Rmult_1_r, Nat.add_0_r.
      f_equal. f_equal. f_equal.
      + apply fvec_ext. intros i _. destruct (has "s" _); [ring|reflexivity].
      + apply fmat_ext. intros i j _ _. destruct (has "t" _); [ring|reflexivity].
    - inversion Hcs as [|? ? [H1 H2] H3]; subst. cbn [estep_loop].
      rewrite estep_seq_spec by (try assumption; apply Hs; left; reflexivity).
      cbn [em_fold]. destruct (ec_acc E exact (h_cfg h) (h_nfeat h) (h_em h) em c (post c)) as [em'|e];
        [|reflexivity]. cbn [bind].
      assert (HL : 0 <= seq_lik nc pi A b c).
      { unfold seq_lik. apply likelihood_nonneg; try apply Tr.
        - apply (obsB_nonneg ok); [apply Tr|exact H2].
        - destruct c; [contradiction|simpl; lia]. }
      rewrite xadd_xln by assumption.
      rewrite IH; [|apply Rmult_le_pos; assumption|exact H3|intros; apply Hs; right; assumption].
      destruct (em_fold em' cs) as [em2|e]; [|reflexivity]. cbn [bind].
      f_equal. f_equal; [f_equal|].
      + simpl. lia.
      + apply fvec_ext. intros i _. unfold add_start. cbn [sumL]. destruct (has "s" _); [ring|reflexivity].
      + apply fmat_ext. intros i j _ _. unfold add_trans. cbn [sumL]. destruct (has "t" _); [ring|reflexivity].
      + f_equal. cbn [prodL]. ring.
  Qed.

  Definition start_stat (cs : list (list X)) (i : nat) : R :=
    if has "s" (c_params (h_cfg h)) then sumL (fun c => seq_post nc pi A b c 0 i) cs else 0.
  Definition trans_stat (cs : list (list X)) (i j : nat) : R :=
    if has "t" (c_params (h_cfg h)) then sumL (fun c => seq_trans nc pi A b c i j) cs else 0.

  Lemma do_estep_spec ls x : good_data ok ls x ->
    (forall c, In c (chunks ls x) -> scorable nc pi A b (c_impl (h_cfg h)) c) ->
    do_estep E exact h (fvec nc pi) (fmat nc nc A) x (as_lengths ls)
    = do em <- em_fold (ec_stats0 E exact (h_cfg h) (h_nfeat h) (h_em h)) (chunks ls x);
      Ok (Stats (length (chunks ls x)) (fvec nc (start_stat (chunks ls x)))
            (fmat nc nc (trans_stat (chunks ls x))) em,
          xln (prodL (seq_lik nc pi A b) (chunks ls x))).
  Proof.
    intros Hd Hs. destruct (good_data_chunks ok ls x Hd) as (Hne & Hsp & Hch).
    unfold do_estep.
    assert (Hi : String.eqb (c_impl (h_cfg h)) "scaling" || String.eqb (c_impl (h_cfg h)) "log" = true).
    { destruct Hd as [_ [Hl _]]. destruct ls as [|n ls]; [contradiction|].
      destruct (Hs (firstn n x)) as [[-> _]|[-> _]]; [left; reflexivity|reflexivity|reflexivity]. }
    rewrite Hi, Hsp. cbn [bind]. unfold stats0. rewrite (tr_nc _ _ _ _ _ _ _ Tr).
    change (tab nc (fun _ => Fin 0)) with (fvec nc (fun _ => 0)).
    change (mtab nc nc (fun _ _ => Fin 0)) with (fmat nc nc (fun _ _ => 0)).
    rewrite <- xln_1, estep_loop_spec by (try assumption; lra).
    destruct (em_fold _ _) as [em|e]; [|reflexivity]. cbn [bind]. f_equal. f_equal; [f_equal|].
    - apply fvec_ext. intros i _. unfold start_stat. destruct (has "s" _); ring.
    - apply fmat_ext. intros i j _ _. unfold trans_stat. destruct (has "t" _); ring.
    - rewrite Rmult_1_l. reflexivity.
  Qed.
End EStep.
