(** * Property lemmas C91: rounding errors of the posterior probabilities. *)
From Verif Require Export Round_post Agree_thms.

Lemma cut_post n pi A T B t i : posterior n T pi A (cut T B) t i = posterior n T pi A B t i.
Proof.
  unfold posterior. rewrite cut_lik by lia. f_equal. unfold marginal. apply sumL_ext. intros z _. apply joint_ext_B.
  intros s j Hs. unfold cut. destruct (Nat.ltb_spec s T); [reflexivity|lia].
Qed.
Lemma rval_rows n T (P : nat -> nat -> R) : rows (fmat T n P) = rows (fmat T n (fun t i => rval (mget (Mat n (rows (fmat T n P))) t i))).
Proof.
  change (Mat n (rows (fmat T n P))) with (fmat T n P). unfold fmat, mtab. cbn [rows]. apply tab_ext. intros t Ht. apply tab_ext. intros i Hi.
  change (Mat n (tab T (fun i0 => tab n (fun j => Fin (P i0 j))))) with (fmat T n P). rewrite mget_fmat by assumption. reflexivity.
Qed.

Section Class.
  Context {P X St : Type}.
  Variables (E : emclass P X St) (u : R) (fp : fpmode).
  Hypothesis Hu : 0 <= u < 1.
  Hypothesis HF : rel_err u fp.
  Variables (h' : hmm P) (nc : nat) (pi : nat -> R) (A : nat -> nat -> R) (b : X -> nat -> R).
  Hypothesis Hn : (0 < nc)%nat.
  Hypothesis Hpi : nonneg1 nc pi.
  Hypothesis HA : nonneg2 nc nc A.

  Definition close_row (s : list X) (t : nat) (w : nat -> R) : Prop :=
    within u (nc + 1) 1 (sumn nc w)
    /\ forall i, (i < nc)%nat -> 0 <= w i /\ within u (2 * (length s * (nc + 3)) + nc + 3) (seq_post nc pi A b s t i) (w i).

  Lemma one_seq s lp rs : s <> [] ->
    lik E fp h' s = Ok (fmat (length s) nc (obsB b s)) -> nonneg2 (length s) nc (obsB b s) ->
    score_scaling_seq E fp h' (fvec nc pi) (fmat nc nc A) true s = Ok (lp, rs) ->
    exists W, rs = rows (fmat (length s) nc W) /\ 0 < seq_lik nc pi A b s /\ forall t, (t < length s)%nat -> close_row s t (W t).
  Proof.
    intros Hne Hl HB H. destruct (seq_nonempty s Hne) as [T HT]. unfold close_row, seq_post, seq_lik. rewrite HT in *.
    unfold score_scaling_seq in H. rewrite Hl in H. cbn [bind] in H.
    apply bind_inv in H as ([[l fwd] scs] & E1 & H). apply bind_inv in H as (bwd & E2 & H).
    assert (Er : rs = rows (compute_posteriors_scaling fp fwd bwd)) by congruence. subst rs. clear H.
    rewrite <- (cut_fmat (S T) nc (obsB b s)) in E1, E2.
    destruct (posteriors_w u fp Hu HF nc pi A (cut (S T) (obsB b s)) Hn Hpi HA (cut_nonneg _ _ _ HB) T l fwd scs bwd E1 E2) as (HL & W & -> & HW).
    rewrite cut_lik in HL by lia. exists W. split; [reflexivity|]. split; [exact HL|]. intros t Ht. destruct (HW t) as [W1 W2]; [lia|]. split; [exact W1|].
    intros i Hi. destruct (W2 i Hi) as [G1 G2]. rewrite cut_post in G2. split; assumption.
  Qed.

  Lemma all_seqs xs : Forall (fun s => s <> []) xs ->
    (forall s, In s xs -> lik E fp h' s = Ok (fmat (length s) nc (obsB b s)) /\ nonneg2 (length s) nc (obsB b s)) ->
    forall lp0 lp rs, acc_seqs fp (score_scaling_seq E fp h' (fvec nc pi) (fmat nc nc A) true) lp0 xs = Ok (lp, rs) ->
    exists W : list X -> nat -> nat -> R, rs = flat_map (fun s => rows (fmat (length s) nc (W s))) xs
      /\ forall s, In s xs -> 0 < seq_lik nc pi A b s /\ forall t, (t < length s)%nat -> close_row s t (W s t).
  Proof.
    set (f := score_scaling_seq E fp h' (fvec nc pi) (fmat nc nc A) true). intros Hne Hl.
    set (W := fun s t i => match f s with Ok (_, rs) => rval (mget (Mat nc rs) t i) | _ => 0 end).
    intros lp0 lp rs H. exists W. revert lp0 lp rs H. induction xs as [|s xs IH]; intros lp0 lp rs H; cbn [acc_seqs] in H.
    - injection H as <- <-. split; [reflexivity|intros s []].
    - apply bind_inv in H as ([l r1] & H1 & H). apply bind_inv in H as ([l2 r2] & H2 & H). injection H as <- <-.
      inversion Hne as [|? ? Hs Hne']; subst. destruct (IH Hne' (fun c Hc => Hl c (or_intror Hc)) _ _ _ H2) as [-> HW].
      destruct (Hl s (or_introl eq_refl)) as [L1 L2]. destruct (one_seq s l r1 Hs L1 L2 H1) as (w & -> & HL & Hw).
      assert (Ew : forall t i, (t < length s)%nat -> (i < nc)%nat -> W s t i = w t i).
      { intros t i Ht Hi. unfold W. rewrite H1. change (Mat nc (rows (fmat (length s) nc w))) with (fmat (length s) nc w). rewrite mget_fmat by assumption. reflexivity. }
      split.
      + cbn [flat_map]. f_equal. unfold fmat, mtab. cbn [rows]. apply tab_ext. intros t Ht. apply tab_ext. intros i Hi. rewrite Ew by assumption. reflexivity.
      + intros c [<-|Hc]; [|apply HW; exact Hc]. split; [exact HL|]. intros t Ht. destruct (Hw t Ht) as [G1 G2]. split.
        * rewrite (sumn_ext nc _ (w t)) by (intros i Hi; apply Ew; assumption). exact G1.
        * intros i Hi. rewrite Ew by assumption. apply G2. exact Hi.
  Qed.
End Class.

(** The entries returned by [predict_proba]. *)
Lemma C91_posteriors_l {P X St} (E : emclass P X St) u fp h h' nc pi A b ls x M :
  0 <= u < 1 -> rel_err u fp ->
  c_impl (h_cfg h) = "scaling"%string -> fitted_check E fp h = Ok (h', fvec nc pi, fmat nc nc A) ->
  (0 < nc)%nat -> nonneg1 nc pi -> nonneg2 nc nc A -> good_lengths ls x ->
  (forall s, In s (chunks ls x) -> lik E fp h' s = Ok (fmat (length s) nc (obsB b s)) /\ nonneg2 (length s) nc (obsB b s)) ->
  predict_proba E fp h x (as_lengths ls) = Ok M ->
  exists Q : list X -> nat -> nat -> R,
    M = Mat (c_nc (h_cfg h)) (flat_map (fun s => rows (fmat (length s) nc (Q s))) (chunks ls x))
    /\ forall s t, In s (chunks ls x) -> (t < length s)%nat ->
         0 < seq_lik nc pi A b s
         /\ within u (nc + 1) 1 (sumn nc (Q s t))
         /\ forall i, (i < nc)%nat -> 0 <= Q s t i /\ within u (2 * (length s * (nc + 3)) + nc + 3) (seq_post nc pi A b s t i) (Q s t i).
Proof.
  intros Hu HF Him Hf Hn Hpi HA (G1 & G2 & G3) Hl H. unfold predict_proba, score_samples, score_ in H. rewrite Hf in H. cbn [bind] in H.
  apply bind_inv in H as ([lp M'] & H & H'). injection H' as <-. apply bind_inv in H as (x' & Hc & H). destruct (check_array_Ok _ _ _ Hc) as (-> & _ & _).
  rewrite Him in H. cbn [String.eqb Ascii.eqb Bool.eqb bind] in H. rewrite (split_X_lengths_chunks ls x G1 G3) in H. cbn [bind] in H.
  apply bind_inv in H as ([l rs] & H & H'). injection H' as _ <-.
  destruct (all_seqs E u fp Hu HF h' nc pi A b Hn Hpi HA (chunks ls x) (chunks_nonempty ls x G2 G3) Hl _ _ _ H) as (W & -> & HW).
  exists W. split; [reflexivity|]. intros s t Hs Ht. destruct (HW s Hs) as [H1 H2]. split; [exact H1|]. exact (H2 t Ht).
Qed.

(** The states chosen by MAP decoding. *)
Lemma C91_map_l {P X St} (E : emclass P X St) u fp h h' nc pi A b ls x v z :
  0 <= u < 1 -> rel_err u fp -> check_stable E fp ->
  c_impl (h_cfg h) = "scaling"%string -> fitted_check E fp h = Ok (h', fvec nc pi, fmat nc nc A) ->
  (0 < nc)%nat -> nonneg1 nc pi -> nonneg2 nc nc A -> good_lengths ls x ->
  (forall s, In s (chunks ls x) -> lik E fp h' s = Ok (fmat (length s) nc (obsB b s)) /\ nonneg2 (length s) nc (obsB b s)) ->
  decode E fp h x (as_lengths ls) (Some "map"%string) = Ok (v, z) ->
  exists Z : list X -> list nat, z = flat_map Z (chunks ls x)
    /\ forall s, In s (chunks ls x) -> length (Z s) = length s /\ forall t, (t < length s)%nat ->
         (nth t (Z s) 0 < nc)%nat
         /\ forall j, (j < nc)%nat ->
              seq_post nc pi A b s t j * (1 - u) ^ (2 * (2 * (length s * (nc + 3)) + nc + 3)) <= seq_post nc pi A b s t (nth t (Z s) 0%nat).
Proof.
  intros Hu HF Hst Him Hf Hn Hpi HA (G1 & G2 & G3) Hl H. destruct (found_again E fp Hst _ _ _ _ Hf) as [Hcf Hf'].
  unfold decode in H. rewrite Hf in H. cbn [bind String.eqb Ascii.eqb Bool.eqb] in H. cbv zeta in H. cbn [bind String.eqb Ascii.eqb Bool.eqb] in H.
  apply bind_inv in H as (x' & Hc & H). destruct (check_array_Ok _ _ _ Hc) as (-> & _ & _).
  rewrite (split_X_lengths_chunks ls x G1 G3) in H. cbn [bind] in H.
  exists (fun s => match decode_map E fp h' s with Ok (_, z) => z | _ => [] end).
  pose proof (chunks_nonempty ls x G2 G3) as Hne. revert Hne Hl H. generalize (chunks ls x) as xs. generalize (Fin 0) as lp0. intros lp0 xs Hne Hl.
  revert lp0 v z. induction xs as [|s xs IH]; intros lp0 v z H; cbn [acc_seqs] in H.
  - injection H as <- <-. split; [reflexivity|intros s []].
  - apply bind_inv in H as ([l r1] & H1 & H). apply bind_inv in H as ([l2 r2] & H2 & H). injection H as <- <-.
    inversion Hne as [|? ? Hs Hne']; subst. destruct (IH Hne' (fun c Hc => Hl c (or_intror Hc)) _ _ _ H2) as [-> HZ].
    split; [cbn [flat_map]; rewrite H1; reflexivity|]. intros c [<-|Hc']; [|apply HZ; exact Hc']. rewrite H1.
    unfold decode_map, score_samples, score_ in H1. rewrite Hf' in H1. cbn [bind] in H1.
    apply bind_inv in H1 as ([q Q] & H1 & H3). injection H3 as _ <-. apply bind_inv in H1 as (s' & Hcs & H1).
    destruct (check_array_Ok _ _ _ Hcs) as (-> & _ & _). rewrite Hcf, Him in H1. cbn [String.eqb Ascii.eqb Bool.eqb bind split_X_lengths acc_seqs] in H1.
    apply bind_inv in H1 as ([l3 r3] & H1 & H3). apply bind_inv in H1 as ([l4 r4] & H1 & H4). injection H4 as <- <-. injection H3 as _ <-.
    rewrite app_nil_r. cbn [rows]. destruct (Hl s (or_introl eq_refl)) as [L1 L2].
    destruct (one_seq E u fp Hu HF h' nc pi A b Hn Hpi HA s l4 r4 Hs L1 L2 H1) as (W & -> & HL & HW).
    unfold fmat, mtab. cbn [rows]. rewrite tab_map. split; [apply tab_length|]. intros t Ht. rewrite tab_nth by exact Ht.
    pose proof (np_argmax_fvec nc (W t) Hn) as (F1 & F2 & _). change (tab nc (fun j => Fin (W t j))) with (fvec nc (W t)).
    set (i := np_argmax (fvec nc (W t))) in *. split; [exact F1|]. intros j Hj. destruct (HW t Ht) as [_ Hw].
    set (k := (2 * (length s * (nc + 3)) + nc + 3)%nat) in *. destruct (Hw i F1) as [_ [_ U1]]. destruct (Hw j Hj) as [_ [U2 _]].
    replace (2 * k)%nat with (k + k)%nat by lia. rewrite pow_add, <- Rmult_assoc. apply Rle_trans with (2 := U1).
    apply Rmult_le_compat_r; [left; apply (q_pow u Hu)|]. apply Rle_trans with (1 := U2). apply F2. exact Hj.
Qed.

(** It returns if every conditional likelihood exceeds 1e-300 by a margin. *)
Lemma C91_returns_l {P X St} (E : emclass P X St) u fp h h' nc pi A b ls x :
  0 <= u < 1 -> rel_err u fp ->
  c_impl (h_cfg h) = "scaling"%string -> fitted_check E fp h = Ok (h', fvec nc pi, fmat nc nc A) ->
  (0 < nc)%nat -> nonneg1 nc pi -> nonneg2 nc nc A -> good_lengths ls x -> check_array (ec_xok E) x = Ok x ->
  (forall s, In s (chunks ls x) -> lik E fp h' s = Ok (fmat (length s) nc (obsB b s)) /\ nonneg2 (length s) nc (obsB b s)) ->
  (forall s t, In s (chunks ls x) -> (t < length s)%nat ->
     / 10 ^ 300 <= cond_lik nc pi A (obsB b s) t * (1 - u) ^ (2 * (length s * (nc + 3) + nc))) ->
  exists M, predict_proba E fp h x (as_lengths ls) = Ok M.
Proof.
  intros Hu HF Him Hf Hn Hpi HA (G1 & G2 & G3) Hc Hl HM. unfold predict_proba, score_samples, score_. rewrite Hf. cbn [bind]. rewrite Hc. cbn [bind].
  rewrite Him. cbn [String.eqb Ascii.eqb Bool.eqb bind]. rewrite (split_X_lengths_chunks ls x G1 G3). cbn [bind].
  assert (Q : exists r, acc_seqs fp (score_scaling_seq E fp h' (fvec nc pi) (fmat nc nc A) true) (Fin 0) (chunks ls x) = Ok r).
  2:{ destruct Q as [[l r] ->]. cbn [bind]. eexists. reflexivity. }
  pose proof (chunks_nonempty ls x G2 G3) as Hne. revert Hne Hl HM. generalize (chunks ls x) as xs. generalize (Fin 0) as lp0. intros lp0 xs Hne Hl HM.
  revert lp0. induction xs as [|s xs IH]; intros lp0; cbn [acc_seqs]; [eexists; reflexivity|].
  inversion Hne as [|? ? Hs Hne']; subst. destruct (Hl s (or_introl eq_refl)) as [L1 L2].
  destruct (seq_nonempty s Hs) as [T HT].
  destruct (C55_returns_l u fp nc (length s) pi A (obsB b s) Hu HF Hn) as ([[lp fwd] scs] & E1); try assumption; [lia|intros t Ht; apply (HM s t (or_introl eq_refl) Ht)|].
  assert (Es : exists r, score_scaling_seq E fp h' (fvec nc pi) (fmat nc nc A) true s = Ok r).
  { unfold score_scaling_seq. rewrite L1. cbn [bind]. rewrite E1. cbn [bind]. rewrite HT in *.
    destruct (C55_scaling_factors_l u fp nc (S T) pi A (obsB b s) lp fwd scs) as (ss & -> & H2 & _); try assumption; [lia|].
    unfold backward_scaling. rewrite map_length, H2, nrow_fmat, Nat.eqb_refl. cbn [negb].
    rewrite (shape_guard_ok nc T) by (try reflexivity; apply nrow_mtab). cbn [bind]. eexists. reflexivity. }
  destruct Es as [[l r] ->]. cbn [bind]. destruct (IH Hne' (fun c Hc' => Hl c (or_intror Hc')) (fun c t Hc' => HM c t (or_intror Hc')) (xadd fp lp0 l)) as [[l2 r2] ->].
  cbn [bind]. eexists. reflexivity.
Qed.

(** CategoricalHMM: its emission likelihoods involve no arithmetic. *)
Lemma cat_checked fp h nc nf pi A e h' s t : cat_model h nc nf pi A e -> fitted_check categorical fp h = Ok (h', s, t) ->
  s = fvec nc pi /\ t = fmat nc nc A /\ cat_prob (h_em h') = Some (fmat nc nf e).
Proof.
  intros M Hf. unfold fitted_check, check in Hf. rewrite (cm_start _ _ _ _ _ _ M), (cm_trans _ _ _ _ _ _ M) in Hf.
  apply bind_inv in Hf as (h1 & Hc & Hf). apply bind_inv in Hc as (q & _ & Hc). apply bind_inv in Hc as ([n1 p1] & Hk & Hc).
  injection Hc as <-. cbn [h_start h_trans] in Hf. injection Hf as <- <- <-. split; [reflexivity|]. split; [reflexivity|]. cbn [h_em].
  cbn [ec_check categorical] in Hk. unfold cat_check in Hk. rewrite (cm_em _ _ _ _ _ _ M) in Hk. cbv zeta in Hk.
  destruct (negb _) in Hk; [discriminate|]. destruct (negb _) in Hk; [discriminate|]. injection Hk as <- <-. apply (cm_em _ _ _ _ _ _ M).
Qed.
Lemma cat_rows fp h' nc nf e ls x : cat_prob (h_em h') = Some (fmat nc nf e) -> nonneg2 nc nf e -> Forall (sym_ok nf) x ->
  forall s, In s (chunks ls x) -> lik categorical fp h' s = Ok (fmat (length s) nc (obsB (cat_b e) s)) /\ nonneg2 (length s) nc (obsB (cat_b e) s).
Proof.
  intros He Hn Hx s Hs. pose proof (chunks_Forall ls x _ Hx) as H. rewrite Forall_forall in H. specialize (H s Hs). split.
  - unfold lik. cbn [ec_lik categorical]. destruct (h_em h') as [pr em]. cbn [cat_prob] in He. rewrite He. apply cat_lik_ok. exact H.
  - apply (obsB_nonneg (sym_ok nf)); [|exact H]. intros k i [Hk1 Hk2] Hi. unfold cat_b. apply Hn; [exact Hi|]. lia.
Qed.
Lemma C91_categorical_l u fp h nc nf pi A e ls x M :
  0 <= u < 1 -> rel_err u fp -> cat_model h nc nf pi A e -> c_impl (h_cfg h) = "scaling"%string -> good_data (sym_ok nf) ls x ->
  predict_proba categorical fp h x (as_lengths ls) = Ok M ->
  exists Q : list Z -> nat -> nat -> R,
    M = Mat nc (flat_map (fun s => rows (fmat (length s) nc (Q s))) (chunks ls x))
    /\ forall s t, In s (chunks ls x) -> (t < length s)%nat ->
         0 < seq_lik nc pi A (cat_b e) s
         /\ within u (nc + 1) 1 (sumn nc (Q s t))
         /\ forall i, (i < nc)%nat -> 0 <= Q s t i /\ within u (2 * (length s * (nc + 3)) + nc + 3) (seq_post nc pi A (cat_b e) s t i) (Q s t i).
Proof.
  intros Hu HF HM Him [Hx Hg] H.
  destruct (fitted_check categorical fp h) as [[[h' s] t]|] eqn:Hf.
  2:{ unfold predict_proba, score_samples, score_ in H. rewrite Hf in H. discriminate. }
  destruct (cat_checked _ _ _ _ _ _ _ _ _ _ HM Hf) as (-> & -> & He).
  destruct (C91_posteriors_l categorical u fp h h' nc pi A (cat_b e) ls x M Hu HF Him Hf) as (Q & E & HQ); try apply HM; try assumption.
  2:{ exists Q. rewrite (cm_nc _ _ _ _ _ _ HM) in E. split; assumption. }
  apply (cat_rows fp h' nc nf e ls x He); [apply HM|exact Hx].
Qed.
Lemma C91_categorical_map_l u fp h nc nf pi A e ls x v z :
  0 <= u < 1 -> rel_err u fp -> cat_model h nc nf pi A e -> c_impl (h_cfg h) = "scaling"%string -> good_data (sym_ok nf) ls x ->
  decode categorical fp h x (as_lengths ls) (Some "map"%string) = Ok (v, z) ->
  exists Z : list Z -> list nat, z = flat_map Z (chunks ls x)
    /\ forall s, In s (chunks ls x) -> length (Z s) = length s /\ forall t, (t < length s)%nat ->
         (nth t (Z s) 0 < nc)%nat
         /\ forall j, (j < nc)%nat ->
              seq_post nc pi A (cat_b e) s t j * (1 - u) ^ (2 * (2 * (length s * (nc + 3)) + nc + 3)) <= seq_post nc pi A (cat_b e) s t (nth t (Z s) 0%nat).
Proof.
  intros Hu HF HM Him [Hx Hg] H.
  destruct (fitted_check categorical fp h) as [[[h' s] t]|] eqn:Hf.
  2:{ unfold decode in H. rewrite Hf in H. discriminate. }
  destruct (cat_checked _ _ _ _ _ _ _ _ _ _ HM Hf) as (-> & -> & He).
  apply (C91_map_l categorical u fp h h' nc pi A (cat_b e) ls x v z Hu HF (cat_stable fp) Him Hf); try apply HM; try assumption.
  apply (cat_rows fp h' nc nf e ls x He); [apply HM|exact Hx].
Qed.
