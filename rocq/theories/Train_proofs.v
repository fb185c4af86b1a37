(** * One training iteration. *)
From Verif Require Export EStep_proofs EMath.

(** ** normalize *)
Lemma normalize_row_fvec n w : normalize_row exact (fvec n w) = fvec n (normalised n w).
Proof.
  unfold normalize_row. rewrite xsum_fvec. unfold fvec. rewrite tab_map. apply tab_ext. intros i Hi.
  unfold normalised. cbn [xeqb]. unfold Reqb. destruct (Req_EM_T (sumn n w) 0) as [H|H].
  - cbn [xdiv]. destruct (Req_EM_T 1 0); [lra|]. unfold exact. f_equal. field.
  - cbn [xdiv]. destruct (Req_EM_T (sumn n w) 0); [contradiction|reflexivity].
Qed.

Lemma normalize_rows_fmat r c w : normalize_rows exact (fmat r c w) = fmat r c (fun i => normalised c (w i)).
Proof.
  unfold normalize_rows, fmat, mtab. cbn [ncol rows]. rewrite tab_map. f_equal. apply tab_ext.
  intros i Hi. apply (normalize_row_fvec c (w i)).
Qed.

Lemma normalize1_fvec n w : sumn n w <> 0 -> normalize1 exact (fvec n w) = fvec n (normalised n w).
Proof.
  intros H. unfold normalize1. rewrite xsum_fvec. unfold fvec. rewrite tab_map. apply tab_ext. intros i Hi.
  unfold normalised. cbn [xdiv]. destruct (Req_EM_T (sumn n w) 0); [contradiction|reflexivity].
Qed.

Lemma normalised_nonneg n w : nonneg1 n w -> nonneg1 n (normalised n w).
Proof.
  intros H i Hi. unfold normalised. destruct (Req_EM_T _ 0) as [E|E]; [apply H; exact Hi|].
  pose proof (sumn_nonneg n w H). unfold Rdiv. apply Rmult_le_pos; [apply H; exact Hi|].
  left. apply Rinv_0_lt_compat. lra.
Qed.

Lemma normalised_sum n w : sumn n w <> 0 -> sumn n (normalised n w) = 1.
Proof.
  intros H. rewrite (sumn_ext _ _ (fun i => w i / sumn n w)).
  - rewrite sumn_div. field. exact H.
  - intros i _. unfold normalised. destruct (Req_EM_T _ 0); [contradiction|reflexivity].
Qed.

Lemma normalised_zero n w : nonneg1 n w -> sumn n w = 0 -> forall i, (i < n)%nat -> normalised n w i = 0.
Proof.
  intros H H0 i Hi. unfold normalised. destruct (Req_EM_T _ 0); [|contradiction].
  apply (sumn_eq0 n w); assumption.
Qed.

Lemma normalised_stoch_or_zero n w : nonneg1 n w -> stoch_or_zero n (normalised n w).
Proof.
  intros H. split; [apply normalised_nonneg; exact H|].
  destruct (Req_EM_T (sumn n w) 0) as [E|E].
  - right. apply normalised_zero; assumption.
  - left. apply normalised_sum; assumption.
Qed.

Lemma stoch_or_zero_le1 n w : stoch_or_zero n w -> sumn n w <= 1.
Proof. intros [_ [->|H]]; [lra|]. rewrite sumn_zero by exact H. lra. Qed.

Lemma map_weight_nonneg n p prior cnt : nonneg1 n (map_weight p prior cnt).
Proof. intros i _. unfold map_weight. destruct (Req_EM_T _ 0); [lra|apply Rmax_r]. Qed.

Lemma np_maximum_fin a b : np_maximum (Fin a) (Fin b) = Fin (Rmax a b).
Proof.
  unfold np_maximum. cbn [xltb]. unfold Rltb. destruct (Rlt_dec a b).
  - rewrite Rmax_right by lra. reflexivity.
  - rewrite Rmax_left by lra. reflexivity.
Qed.

Lemma map_weight_x p prior cnt :
  (if xeqb (Fin p) (Fin 0) then Fin 0
   else np_maximum (xadd exact (xsub exact (Fin prior) (Fin 1)) (Fin cnt)) (Fin 0))
  = Fin (map_weight (fun _ => p) (fun _ => prior) (fun _ => cnt) 0).
Proof.
  unfold map_weight. cbn [xeqb]. unfold Reqb. destruct (Req_EM_T p 0); [reflexivity|].
  cbn [xsub xopp xadd exact]. unfold exact. cbn [xadd]. rewrite np_maximum_fin. f_equal.
Qed.

Lemma mstep_start_spec {P St} (h : hmm P) nc pi sp f (st : @stats St) :
  c_nc (h_cfg h) = nc -> (forall i, (i < nc)%nat -> pget1 (c_sprior (h_cfg h)) i = Fin (sp i)) ->
  (has "s" (c_params (h_cfg h)) = true -> st_start st = fvec nc f) ->
  (has "s" (c_params (h_cfg h)) = true -> sumn nc (map_weight pi sp f) <> 0) ->
  mstep_start exact h (fvec nc pi) st
  = fvec nc (if has "s" (c_params (h_cfg h)) then normalised nc (map_weight pi sp f) else pi).
Proof.
  intros Hnc Hp Hf Hs. unfold mstep_start. destruct (has "s" _) eqn:E; [|reflexivity].
  rewrite Hnc. rewrite <- normalize1_fvec by (apply Hs; reflexivity). f_equal.
  apply tab_ext. intros i Hi. rewrite Hf, !vget_fvec, Hp by (assumption || reflexivity). rewrite map_weight_x. reflexivity.
Qed.

Lemma mstep_trans_spec {P St} (h : hmm P) nc A tp g (st : @stats St) :
  c_nc (h_cfg h) = nc ->
  (forall i j, (i < nc)%nat -> (j < nc)%nat -> pget2 (c_tprior (h_cfg h)) i j = Fin (tp i j)) ->
  (has "t" (c_params (h_cfg h)) = true -> st_trans st = fmat nc nc g) ->
  mstep_trans exact h (fmat nc nc A) st
  = fmat nc nc (fun i => if has "t" (c_params (h_cfg h))
                         then normalised nc (map_weight (A i) (tp i) (g i)) else A i).
Proof.
  intros Hnc Hp Hf. unfold mstep_trans. destruct (has "t" _) eqn:E; [|reflexivity].
  rewrite Hnc. rewrite <- normalize_rows_fmat. f_equal.
  apply mtab_ext. intros i j Hi Hj. rewrite Hf, !mget_fmat, Hp by (assumption || reflexivity). rewrite map_weight_x. reflexivity.
Qed.

(** ** One iteration. *)
Lemma em_fold_all {P X St} (E : emclass P X St) (h : hmm P) nc pi A b cs : forall st,
  em_fold E h nc pi A b st cs
  = em_acc_all E (h_cfg h) (h_nfeat h) (h_em h) nc st (map (fun c => (c, seq_post nc pi A b c)) cs).
Proof.
  induction cs as [|c cs IH]; intros st; [reflexivity|]. cbn [em_fold map em_acc_all].
  destruct (ec_acc _ _ _ _ _ _ _ _); [|reflexivity]. cbn [bind]. apply IH.
Qed.

Section Step.
  Context {P X St : Type} (E : emclass P X St).
  Variables (nc : nat) (ok : X -> Prop) (good : cfg -> option nat -> P -> Prop) (b : P -> X -> nat -> R) (V : bool).
  Hypothesis TN : trains E nc ok good b V.
  Variables (ls : list nat) (x : list X).
  Hypothesis Hd : good_data ok ls x.
  Notation cs := (chunks ls x).

  (** A state of training: parameters, all sequences of positive likelihood. *)
  Record tstate (h : hmm P) (pi : nat -> R) (A : nat -> nat -> R) : Prop := TState {
    ts_nc : c_nc (h_cfg h) = nc;
    ts_pos : (0 < nc)%nat;
    ts_start : h_start h = Some (fvec nc pi);
    ts_trans : h_trans h = Some (fmat nc nc A);
    ts_pi : nonneg1 nc pi;
    ts_A : nonneg2 nc nc A;
    ts_good : good (h_cfg h) (h_nfeat h) (h_em h);
    ts_lik : forall c, In c cs -> 0 < seq_lik nc pi A (b (h_em h)) c;
    ts_visit : V = true -> visited nc (map (fun c => (c, seq_post nc pi A (b (h_em h)) c)) cs) }.

  Lemma tstate_trainable h pi A : tstate h pi A -> trainable E h nc pi A ok (b (h_em h)).
  Proof. intros []. constructor; try assumption. apply (tn_emits _ _ _ _ _ _ TN); assumption. Qed.

  Section One.
    Variables (h : hmm P) (pi : nat -> R) (A : nat -> nat -> R).
    Hypothesis TS : tstate h pi A.
    Notation bb := (b (h_em h)).

    Lemma chunk_ok c : In c cs -> c <> [] /\ Forall ok c.
    Proof.
      intros Hc. destruct (good_data_chunks ok ls x Hd) as (_ & _ & H).
      rewrite Forall_forall in H. apply H. exact Hc.
    Qed.

    Lemma chunk_B c : In c cs -> nonneg2 (length c) nc (obsB bb c).
    Proof.
      intros Hc. apply (obsB_nonneg ok); [|apply chunk_ok; exact Hc].
      apply (em_nonneg _ _ _ _ _ (tr_em _ _ _ _ _ _ _ (tstate_trainable h pi A TS))).
    Qed.

    Lemma chunk_len c : In c cs -> (0 < length c)%nat.
    Proof. intros Hc. destruct (chunk_ok c Hc) as [H _]. destruct c; [contradiction|simpl; lia]. Qed.

    Lemma chunks_nonnil : cs <> [].
    Proof. destruct Hd as [_ [Hl _]]. destruct ls; [contradiction|discriminate]. Qed.

    Lemma post_pos_B c t i : In c cs -> (t < length c)%nat -> (i < nc)%nat ->
      0 < seq_post nc pi A bb c t i -> 0 < obsB bb c t i /\ (t = 0%nat -> 0 < pi i).
    Proof.
      intros Hc Ht Hi Hp. pose proof (ts_lik _ _ _ TS c Hc) as HL.
      assert (Hm : 0 < marginal nc (length c) pi A (obsB bb c) t i).
      { unfold seq_post, posterior in Hp. unfold seq_lik in HL.
        apply Rmult_lt_reg_r with (/ likelihood nc (length c) pi A (obsB bb c)).
        - apply Rinv_0_lt_compat; exact HL.
        - rewrite Rmult_0_l. exact Hp. }
      unfold marginal in Hm. apply sumL_pos_ex in Hm as (z & Hz & HJ).
      apply filter_In in Hz as [Hz He]. apply Nat.eqb_eq in He. apply in_all_paths in Hz.
      destruct (joint_pos_inv nc (length c) pi A (obsB bb c) (chunk_len c Hc) (ts_pi _ _ _ TS)
                  (ts_A _ _ _ TS) (chunk_B c Hc) z Hz HJ) as (H0 & H1 & H2).
      split; [rewrite <- He; apply H2; exact Ht|]. intros ->. rewrite <- He. exact H0.
    Qed.

    Lemma trans_pos_A c i j : In c cs -> (i < nc)%nat -> (j < nc)%nat ->
      0 < seq_trans nc pi A bb c i j -> 0 < A i j.
    Proof.
      intros Hc Hi Hj Hp. pose proof (ts_lik _ _ _ TS c Hc) as HL.
      unfold seq_trans, expected_trans in Hp. unfold seq_lik in HL.
      set (T := length c) in *.
      assert (Hm : 0 < sumL (fun z => joint T pi A (obsB bb c) z * n_trans T i j z) (all_paths nc T)).
      { apply Rmult_lt_reg_r with (/ likelihood nc T pi A (obsB bb c)).
        - apply Rinv_0_lt_compat; exact HL.
        - rewrite Rmult_0_l. exact Hp. }
      apply sumL_pos_ex in Hm as (z & Hz & HJ). apply in_all_paths in Hz.
      pose proof (chunk_len c Hc) as HT. fold T in HT.
      apply mult_pos_inv in HJ as [HJ Hn].
      - destruct (joint_pos_inv nc T pi A (obsB bb c) HT (ts_pi _ _ _ TS)
                  (ts_A _ _ _ TS) (chunk_B c Hc) z Hz HJ) as (H0 & H1 & H2).
        unfold n_trans in Hn. apply sumn_pos_ex in Hn as (t & Ht & Hn).
        destruct (Nat.eqb_spec (nth t z 0%nat) i) as [Ei|]; cbn [andb] in Hn; [|lra].
        destruct (Nat.eqb_spec (nth (S t) z 0%nat) j) as [Ej|]; [|lra].
        rewrite <- Ei, <- Ej. apply H1. exact Ht.
      - apply (joint_nonneg nc); [apply TS|apply TS|apply chunk_B; exact Hc|exact HT|exact Hz].
      - apply n_trans_nonneg.
    Qed.

    Lemma post_stoch c t : In c cs -> (t < length c)%nat -> stochastic1 nc (seq_post nc pi A bb c t).
    Proof.
      intros Hc Ht. destruct (seq_nonempty c (proj1 (chunk_ok c Hc))) as [T HT].
      pose proof (ts_lik _ _ _ TS c Hc) as HL. unfold seq_post. unfold seq_lik in HL.
      pose proof (chunk_B c Hc) as HB.
      rewrite HT in *.
      apply (posterior_dist nc T pi A (obsB bb c) (ts_pos _ _ _ TS) (ts_pi _ _ _ TS)
               (ts_A _ _ _ TS) HB t HL). lia.
    Qed.

    Definition wpairs := map (fun c => (c, seq_post nc pi A bb c)) cs.

    Lemma wpairs_good : good_weights nc ok bb wpairs.
    Proof.
      split.
      - unfold wpairs. intros H. apply map_eq_nil in H. exact (chunks_nonnil H).
      - intros c g Hg. unfold wpairs in Hg. apply in_map_iff in Hg as (c' & Heq & Hc).
        injection Heq as -> <-. destruct (chunk_ok c Hc) as [H1 H2]. split; [exact H1|]. split; [exact H2|].
        intros t Ht. split; [apply post_stoch; assumption|].
        intros i Hi Hp. apply (post_pos_B c t i); assumption.
    Qed.

    Definition cnt_start i := sumL (fun c => seq_post nc pi A bb c 0 i) cs.
    Definition cnt_trans i j := sumL (fun c => seq_trans nc pi A bb c i j) cs.

    Lemma cnt_start_nonneg i : (i < nc)%nat -> 0 <= cnt_start i.
    Proof. intros Hi. apply sumL_nonneg. intros c Hc. apply post_stoch; [exact Hc|apply chunk_len; exact Hc|exact Hi]. Qed.

    Lemma seq_trans_nonneg c i j : In c cs -> (i < nc)%nat -> (j < nc)%nat -> 0 <= seq_trans nc pi A bb c i j.
    Proof.
      intros Hc Hi Hj. unfold seq_trans.
      destruct (seq_nonempty c (proj1 (chunk_ok c Hc))) as [T HT].
      pose proof (ts_lik _ _ _ TS c Hc) as HL. unfold seq_lik in HL. pose proof (chunk_B c Hc) as HB.
      rewrite HT in *. apply (expected_trans_nonneg nc T pi A _ (ts_pi _ _ _ TS) (ts_A _ _ _ TS) HB HL); assumption.
    Qed.

    Lemma cnt_trans_nonneg i j : (i < nc)%nat -> (j < nc)%nat -> 0 <= cnt_trans i j.
    Proof. intros Hi Hj. apply sumL_nonneg. intros c Hc. apply seq_trans_nonneg; assumption. Qed.

    Lemma cnt_start_sum : sumn nc cnt_start = INR (length cs).
    Proof.
      unfold cnt_start. rewrite <- sumL_sumn_swap.
      rewrite (sumL_ext _ (fun _ => 1)).
      - rewrite sumL_const. ring.
      - intros c Hc. apply post_stoch; [exact Hc|apply chunk_len; exact Hc].
    Qed.

    Lemma cnt_start_pos i : (i < nc)%nat -> 0 < cnt_start i -> 0 < pi i.
    Proof.
      intros Hi H. apply sumL_pos_ex in H as (c & Hc & Hp).
      apply (post_pos_B c 0 i); try assumption; [apply chunk_len; exact Hc|reflexivity].
    Qed.

    Lemma cnt_trans_pos i j : (i < nc)%nat -> (j < nc)%nat -> 0 < cnt_trans i j -> 0 < A i j.
    Proof. intros Hi Hj H. apply sumL_pos_ex in H as (c & Hc & Hp). apply (trans_pos_A c i j); assumption. Qed.

    (** The new start and transition probabilities. *)
    Variables (sp : nat -> R) (tp : nat -> nat -> R).
    Hypothesis HP : priors (h_cfg h) nc sp tp.

    Definition new_pi : nat -> R :=
      if has "s" (c_params (h_cfg h)) then normalised nc (map_weight pi sp cnt_start) else pi.
    Definition new_A (i : nat) : nat -> R :=
      if has "t" (c_params (h_cfg h)) then normalised nc (map_weight (A i) (tp i) (cnt_trans i)) else A i.

    (** The start weights are not all clipped to zero. *)
    Definition start_ok : Prop :=
      has "s" (c_params (h_cfg h)) = true -> sumn nc (map_weight pi sp cnt_start) <> 0.

    Lemma new_A_nonneg : nonneg2 nc nc new_A.
    Proof.
      intros i j Hi Hj. unfold new_A. destruct (has "t" _); [|apply TS; assumption].
      apply normalised_nonneg; [apply map_weight_nonneg|exact Hj].
    Qed.
    Lemma new_pi_nonneg : nonneg1 nc new_pi.
    Proof.
      intros i Hi. unfold new_pi. destruct (has "s" _); [|apply TS; assumption].
      apply normalised_nonneg; [apply map_weight_nonneg|exact Hi].
    Qed.

    Lemma map_weight_mask p q k (r : nat -> R) : 0 <= p k -> (p k = 0 -> r k = 0) -> 1 <= q k -> 0 <= r k ->
      map_weight p q r k = (if Req_EM_T (p k) 0 then 0 else q k - 1) + r k
      /\ r k <= map_weight p q r k.
    Proof.
      intros H1 H2 H3 H4. unfold map_weight. destruct (Req_EM_T (p k) 0) as [E0|E0].
      - rewrite (H2 E0). lra.
      - rewrite Rmax_left by lra. lra.
    Qed.

    (** Update of one distribution: support and Gibbs' inequality. *)
    Lemma update_gibbs p q cnt : nonneg1 nc p -> sumn nc p <= 1 ->
      (forall i, (i < nc)%nat -> 1 <= q i) -> nonneg1 nc cnt ->
      (forall i, (i < nc)%nat -> 0 < cnt i -> 0 < p i) ->
      let p' := normalised nc (map_weight p q cnt) in
      0 <= sumn nc (fun i => cnt i * (ln (p' i) - ln (p i))) + sumn nc (fun i => (q i - 1) * (ln (p' i) - ln (p i))).
    Proof.
      intros Hp Hp1 Hq Hc Hcp p'.
      set (w := map_weight p q cnt) in *.
      assert (Hw : nonneg1 nc w) by apply map_weight_nonneg.
      assert (Hz : forall i, (i < nc)%nat -> p i = 0 -> cnt i = 0).
      { intros i Hi H0. destruct (Rle_lt_or_eq_dec 0 (cnt i) (Hc i Hi)) as [H|H]; [|lra].
        specialize (Hcp i Hi H). lra. }
      rewrite <- sumn_plus.
      assert (He : sumn nc (fun i => cnt i * (ln (p' i) - ln (p i)) + (q i - 1) * (ln (p' i) - ln (p i)))
                 = sumn nc (fun i => w i * (ln (p' i) - ln (p i)))).
      { apply sumn_ext. intros i Hi.
        destruct (Req_EM_T (p i) 0) as [E0|E0].
        - assert (w i = 0) by (unfold w, map_weight; destruct (Req_EM_T (p i) 0); [reflexivity|contradiction]).
          assert (p' i = 0).
          { unfold p', normalised. destruct (Req_EM_T _ 0); [exact H|]. rewrite H. unfold Rdiv. ring. }
          rewrite H0, E0. ring.
        - destruct (map_weight_mask p q i cnt (Hp i Hi) (Hz i Hi) (Hq i Hi) (Hc i Hi)) as [Hm _].
          fold w in Hm. rewrite Hm. destruct (Req_EM_T (p i) 0); [contradiction|ring]. }
      rewrite He. destruct (Req_EM_T (sumn nc w) 0) as [S0|S0].
      - rewrite sumn_zero; [lra|]. intros i Hi. rewrite (sumn_eq0 nc w Hw S0 i Hi). ring.
      - rewrite (sumn_ext _ _ (fun i => w i * (ln (w i / sumn nc w) - ln (p i)))).
        + apply gibbs; try assumption.
          * intros i Hi Hpos. destruct (Rle_lt_or_eq_dec 0 (p i) (Hp i Hi)) as [H|H]; [exact H|].
            exfalso. unfold w, map_weight in Hpos. destruct (Req_EM_T (p i) 0); lra.
          * pose proof (sumn_nonneg nc w Hw). lra.
        + intros i Hi. unfold p', normalised. destruct (Req_EM_T (sumn nc w) 0); [contradiction|reflexivity].
    Qed.

    Lemma update_support p q cnt : nonneg1 nc p ->
      (forall i, (i < nc)%nat -> 1 <= q i) -> nonneg1 nc cnt ->
      (forall i, (i < nc)%nat -> 0 < cnt i -> 0 < p i) ->
      forall i, (i < nc)%nat -> 0 < cnt i -> 0 < normalised nc (map_weight p q cnt) i.
    Proof.
      intros Hp Hq Hc Hcp i Hi Hpos. set (w := map_weight p q cnt).
      assert (Hw : 0 < w i).
      { specialize (Hcp i Hi Hpos). unfold w, map_weight. destruct (Req_EM_T (p i) 0); [lra|].
        pose proof (Hq i Hi). rewrite Rmax_left; lra. }
      assert (Hs : 0 < sumn nc w).
      { apply (sumn_pos nc w i); [apply map_weight_nonneg|exact Hi|exact Hw]. }
      unfold normalised. destruct (Req_EM_T (sumn nc w) 0); [lra|]. apply Rdiv_lt_0_compat; assumption.
    Qed.

    Section Ge1.
    Hypothesis Hsp : forall i, (i < nc)%nat -> 1 <= sp i.
    Hypothesis Htp : forall i j, (i < nc)%nat -> (j < nc)%nat -> 1 <= tp i j.

    Lemma start_weights_pos : 0 < sumn nc (map_weight pi sp cnt_start).
    Proof.
      assert (H : 0 < sumn nc cnt_start).
      { rewrite cnt_start_sum. apply lt_0_INR. pose proof chunks_nonnil. destruct cs; [contradiction|simpl; lia]. }
      eapply Rlt_le_trans; [exact H|]. apply sumn_le. intros i Hi.
      apply map_weight_mask; [apply TS; exact Hi| |apply Hsp; exact Hi|apply cnt_start_nonneg; exact Hi].
      intros H0. destruct (Rle_lt_or_eq_dec 0 (cnt_start i) (cnt_start_nonneg i Hi)) as [Hp|Hp]; [|lra].
      pose proof (cnt_start_pos i Hi Hp). lra.
    Qed.

    Lemma start_ok_ge1 : start_ok.
    Proof. intros _. pose proof start_weights_pos. lra. Qed.

    Lemma new_pi_support c i : In c cs -> (i < nc)%nat -> 0 < seq_post nc pi A bb c 0 i -> 0 < new_pi i.
    Proof.
      intros Hc Hi Hp.
      assert (Hcnt : 0 < cnt_start i).
      { eapply Rlt_le_trans; [exact Hp|]. unfold cnt_start.
        apply (sumL_ge_term (fun c => seq_post nc pi A bb c 0 i)); [|exact Hc].
        intros c' Hc'. apply post_stoch; [exact Hc'|apply chunk_len; exact Hc'|exact Hi]. }
      unfold new_pi. destruct (has "s" _); [|apply cnt_start_pos; assumption].
      apply update_support; try assumption.
      - apply TS.
      - intros k Hk. apply cnt_start_nonneg; exact Hk.
      - exact cnt_start_pos.
    Qed.

    Lemma new_A_support c i j : In c cs -> (i < nc)%nat -> (j < nc)%nat ->
      0 < seq_trans nc pi A bb c i j -> 0 < new_A i j.
    Proof.
      intros Hc Hi Hj Hp.
      assert (Hcnt : 0 < cnt_trans i j).
      { eapply Rlt_le_trans; [exact Hp|]. unfold cnt_trans.
        apply (sumL_ge_term (fun c => seq_trans nc pi A bb c i j)); [|exact Hc].
        intros c' Hc'. apply seq_trans_nonneg; assumption. }
      unfold new_A. destruct (has "t" _); [|apply cnt_trans_pos; assumption].
      apply update_support; try assumption.
      - intros k Hk. apply TS; assumption.
      - intros k Hk. apply Htp; assumption.
      - intros k Hk. apply cnt_trans_nonneg; assumption.
      - intros k Hk. apply cnt_trans_pos; assumption.
    Qed.

    (** Gain in log-likelihood of all sequences. *)
    Lemma step_gain p' : good (h_cfg h) (h_nfeat h) p' ->
      (forall c t i, In c cs -> (t < length c)%nat -> (i < nc)%nat ->
           0 < seq_post nc pi A bb c t i -> 0 < obsB (b p') c t i) ->
      forall c, In c cs ->
      0 < seq_lik nc new_pi new_A (b p') c /\
      sumn nc (fun i => seq_post nc pi A bb c 0 i * (ln (new_pi i) - ln (pi i)))
      + sumn nc (fun i => sumn nc (fun j => seq_trans nc pi A bb c i j * (ln (new_A i j) - ln (A i j))))
      + sumn (length c) (fun t => sumn nc (fun i => seq_post nc pi A bb c t i
           * (ln (obsB (b p') c t i) - ln (obsB bb c t i))))
      <= ln (seq_lik nc new_pi new_A (b p') c) - ln (seq_lik nc pi A bb c).
    Proof.
      intros Hg Hsup c Hc. unfold seq_lik, seq_post, seq_trans.
      apply em_bound.
      - apply chunk_len; exact Hc.
      - apply TS.
      - apply TS.
      - apply chunk_B; exact Hc.
      - exact new_pi_nonneg.
      - exact new_A_nonneg.
      - apply (obsB_nonneg ok); [|apply chunk_ok; exact Hc].
        intros o i Ho Hi.
        set (h2 := Hmm (h_cfg h) (h_nfeat h) (h_start h) (h_trans h) (h_mon h) p').
        apply (em_nonneg _ _ _ _ _ (tn_emits _ _ _ _ _ _ TN h2 (ts_nc _ _ _ TS) Hg) o i Ho Hi).
      - apply TS. exact Hc.
      - intros i Hi Hp. apply (new_pi_support c i Hc Hi Hp).
      - intros i j Hi Hj Hp. apply (new_A_support c i j Hc Hi Hj Hp).
      - intros t i Ht Hi Hp. apply (Hsup c t i Hc Ht Hi Hp).
    Qed.

    Lemma step_visit p' : good (h_cfg h) (h_nfeat h) p' ->
      (forall c t i, In c cs -> (t < length c)%nat -> (i < nc)%nat ->
           0 < seq_post nc pi A bb c t i -> 0 < obsB (b p') c t i) ->
      forall c t i, In c cs -> (t < length c)%nat -> (i < nc)%nat ->
      0 < seq_post nc pi A bb c t i -> 0 < seq_post nc new_pi new_A (b p') c t i.
    Proof.
      intros Hg Hsup c t i Hc Ht Hi Hp. unfold seq_post in *.
      apply (em_visit nc (length c) pi A (obsB bb c)); try assumption.
      - apply chunk_len; exact Hc.
      - apply TS.
      - apply TS.
      - apply chunk_B; exact Hc.
      - exact new_pi_nonneg.
      - exact new_A_nonneg.
      - apply (obsB_nonneg ok); [|apply chunk_ok; exact Hc].
        intros o j Ho Hj.
        set (h2 := Hmm (h_cfg h) (h_nfeat h) (h_start h) (h_trans h) (h_mon h) p').
        apply (em_nonneg _ _ _ _ _ (tn_emits _ _ _ _ _ _ TN h2 (ts_nc _ _ _ TS) Hg) o j Ho Hj).
      - apply TS. exact Hc.
      - intros j Hj Hq. apply (new_pi_support c j Hc Hj Hq).
      - intros j k Hj Hk Hq. apply (new_A_support c j k Hc Hj Hk Hq).
      - intros u j Hu Hj Hq. apply (Hsup c u j Hc Hu Hj Hq).
    Qed.

    (** Penalised log-likelihood. *)
    Definition dir_pen (n : nat) (q p : nat -> R) : R := sumn n (fun i => (q i - 1) * ln (p i)).
    Definition penalty (pi0 : nat -> R) (A0 : nat -> nat -> R) : R :=
      dir_pen nc sp pi0 + sumn nc (fun i => dir_pen nc (tp i) (A0 i)).

    Lemma step_gain_all W pen p' : improves E nc ok good b W pen ->
      W (h_cfg h) (h_nfeat h) (h_em h) wpairs ->
      sumn nc pi <= 1 -> (forall i, (i < nc)%nat -> sumn nc (A i) <= 1) ->
      good (h_cfg h) (h_nfeat h) p' ->
      (exists st, em_acc_all E (h_cfg h) (h_nfeat h) (h_em h) nc
                       (ec_stats0 E exact (h_cfg h) (h_nfeat h) (h_em h)) wpairs = Ok st
            /\ ec_mstep E exact (h_cfg h) (h_nfeat h) (h_em h) st = Ok p') ->
      (forall c t i, In c cs -> (t < length c)%nat -> (i < nc)%nat ->
           0 < seq_post nc pi A bb c t i -> 0 < obsB (b p') c t i) ->
      sumL (fun c => ln (seq_lik nc pi A bb c)) cs + penalty pi A + pen (h_em h)
      <= sumL (fun c => ln (seq_lik nc new_pi new_A (b p') c)) cs + penalty new_pi new_A + pen p'.
    Proof.
      intros Him HW Hpi1 HA1 Hg (st & Hst & Hp') Hsup.
      pose proof (Him (h_cfg h) (h_nfeat h) (h_em h) wpairs st p' (ts_nc _ _ _ TS)
                  (ts_good _ _ _ TS) wpairs_good HW Hst Hp') as Hem.
      unfold wpairs in Hem. rewrite sumL_map in Hem. cbn [fst snd] in Hem.
      assert (H1 : 0 <= sumn nc (fun i => cnt_start i * (ln (new_pi i) - ln (pi i)))
                      + (dir_pen nc sp new_pi - dir_pen nc sp pi)).
      { unfold dir_pen. rewrite <- sumn_minus. unfold new_pi. destruct (has "s" _) eqn:Es.
        - rewrite (sumn_ext nc (fun i => (sp i - 1) * ln (normalised nc (map_weight pi sp cnt_start) i) - (sp i - 1) * ln (pi i))
                     (fun i => (sp i - 1) * (ln (normalised nc (map_weight pi sp cnt_start) i) - ln (pi i))))
            by (intros; ring).
          apply update_gibbs; try assumption.
          + apply TS.
          + intros k Hk. apply cnt_start_nonneg; exact Hk.
          + exact cnt_start_pos.
        - rewrite !sumn_zero; [lra| |]; intros; ring. }
      assert (H2 : 0 <= sumn nc (fun i => sumn nc (fun j => cnt_trans i j * (ln (new_A i j) - ln (A i j))))
                      + (sumn nc (fun i => dir_pen nc (tp i) (new_A i)) - sumn nc (fun i => dir_pen nc (tp i) (A i)))).
      { rewrite <- sumn_minus, <- sumn_plus. apply sumn_nonneg. intros i Hi.
        unfold dir_pen. rewrite <- sumn_minus. unfold new_A. destruct (has "t" _) eqn:Es.
        - rewrite (sumn_ext nc (fun j => (tp i j - 1) * ln (normalised nc (map_weight (A i) (tp i) (cnt_trans i)) j) - (tp i j - 1) * ln (A i j))
                     (fun j => (tp i j - 1) * (ln (normalised nc (map_weight (A i) (tp i) (cnt_trans i)) j) - ln (A i j))))
            by (intros; ring).
          apply update_gibbs.
          + intros j Hj. apply TS; assumption.
          + apply HA1; exact Hi.
          + intros j Hj. apply Htp; assumption.
          + intros j Hj. apply cnt_trans_nonneg; assumption.
          + intros j Hj. apply cnt_trans_pos; assumption.
        - rewrite !sumn_zero; [lra| |]; intros; ring. }
      assert (H3 : sumL (fun c =>
          sumn nc (fun i => seq_post nc pi A bb c 0 i * (ln (new_pi i) - ln (pi i)))
          + sumn nc (fun i => sumn nc (fun j => seq_trans nc pi A bb c i j * (ln (new_A i j) - ln (A i j))))
          + sumn (length c) (fun t => sumn nc (fun i => seq_post nc pi A bb c t i
               * (ln (obsB (b p') c t i) - ln (obsB bb c t i))))) cs
          <= sumL (fun c => ln (seq_lik nc new_pi new_A (b p') c) - ln (seq_lik nc pi A bb c)) cs).
      { apply sumL_le. intros c Hc. apply (step_gain p' Hg Hsup c Hc). }
      rewrite !sumL_plus, sumL_minus in H3.
      assert (H4 : sumL (fun c => sumn nc (fun i => seq_post nc pi A bb c 0 i * (ln (new_pi i) - ln (pi i)))) cs
                   = sumn nc (fun i => cnt_start i * (ln (new_pi i) - ln (pi i)))).
      { rewrite sumL_sumn_swap. apply sumn_ext. intros i Hi. apply sumL_scal_r. }
      assert (H5 : sumL (fun c => sumn nc (fun i => sumn nc (fun j => seq_trans nc pi A bb c i j * (ln (new_A i j) - ln (A i j))))) cs
                   = sumn nc (fun i => sumn nc (fun j => cnt_trans i j * (ln (new_A i j) - ln (A i j))))).
      { rewrite sumL_sumn_swap. apply sumn_ext. intros i Hi. rewrite sumL_sumn_swap.
        apply sumn_ext. intros j Hj. apply sumL_scal_r. }
      rewrite H4, H5 in H3. unfold penalty. lra.
    Qed.
    End Ge1.

    Hypothesis Hsc : forall c, In c cs -> scorable nc pi A bb (c_impl (h_cfg h)) c.

    Lemma em_step_ok : start_ok -> exists p',
      em_step E exact x (as_lengths ls) h
      = Ok (Hmm (h_cfg h) (h_nfeat h) (Some (fvec nc new_pi)) (Some (fmat nc nc new_A)) (h_mon h) p',
            xln (prodL (seq_lik nc pi A bb) cs))
      /\ good (h_cfg h) (h_nfeat h) p'
      /\ (exists st, em_acc_all E (h_cfg h) (h_nfeat h) (h_em h) nc
                       (ec_stats0 E exact (h_cfg h) (h_nfeat h) (h_em h)) wpairs = Ok st
            /\ ec_mstep E exact (h_cfg h) (h_nfeat h) (h_em h) st = Ok p')
      /\ forall c t i, In c cs -> (t < length c)%nat -> (i < nc)%nat ->
           0 < seq_post nc pi A bb c t i -> 0 < obsB (b p') c t i.
    Proof.
      intros Hs.
      destruct (tn_step _ _ _ _ _ _ TN (h_cfg h) (h_nfeat h) (h_em h) wpairs (ts_nc _ _ _ TS)
                  (ts_good _ _ _ TS) wpairs_good (ts_visit _ _ _ TS)) as (st & p' & Hst & Hp' & Hg & Hsup).
      exists p'. split; [|split; [exact Hg|split]].
      - unfold em_step. rewrite (ts_start _ _ _ TS), (ts_trans _ _ _ TS).
        rewrite (do_estep_spec E h nc pi A ok bb (tstate_trainable h pi A TS) ls x Hd Hsc).
        rewrite em_fold_all. fold wpairs. rewrite Hst. cbn [bind].
        unfold do_mstep. cbn [st_em]. rewrite Hp'. cbn [bind].
        rewrite (mstep_start_spec h nc pi sp cnt_start).
        + rewrite (mstep_trans_spec h nc A tp cnt_trans).
          * reflexivity.
          * apply TS.
          * apply HP.
          * intros Ht. cbn [st_trans]. apply fmat_ext. intros i j _ _. unfold trans_stat, cnt_trans.
            rewrite Ht. reflexivity.
        + apply TS.
        + apply HP.
        + intros Ht. cbn [st_start]. apply fvec_ext. intros i _. unfold start_stat, cnt_start. rewrite Ht. reflexivity.
        + exact Hs.
      - exists st. split; assumption.
      - intros c t i Hc Ht Hi Hp. apply (Hsup c (seq_post nc pi A bb c) t i); try assumption.
        unfold wpairs. apply in_map_iff. exists c. split; [reflexivity|exact Hc].
    Qed.
  End One.
End Step.
