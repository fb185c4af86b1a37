(** * score, score_samples, decode, predict on a usable model. *)
From Verif Require Export Ready Viterbi_proofs Kernel_proofs.

(** ** Splitting. *)
Lemma py_bound_nat n k : py_bound n (Z.of_nat k) = Nat.min k n.
Proof.
  unfold py_bound. destruct (Z.ltb_spec (Z.of_nat k) 0); [lia|]. rewrite <- Nat2Z.inj_min. lia.
Qed.

Lemma fold_left_Zadd l a :
  fold_left Z.add (map Z.of_nat l) a = (a + Z.of_nat (fold_right Nat.add 0%nat l))%Z.
Proof. revert a; induction l as [|x l IH]; intros a; simpl; [lia|]. rewrite IH. lia. Qed.

Lemma skipn_skipn {X} a b (l : list X) : skipn a (skipn b l) = skipn (b + a) l.
Proof.
  revert l; induction b as [|b IH]; intros l; [reflexivity|].
  destruct l as [|x l]; [simpl; apply skipn_nil|]. simpl. apply IH.
Qed.

Lemma split_from_chunks {X} (ls : list nat) (x : list X) (s : nat) :
  (s + fold_right Nat.add 0%nat ls <= length x)%nat ->
  split_from x (Z.of_nat s) (map Z.of_nat ls) = chunks ls (skipn s x).
Proof.
  revert s; induction ls as [|n ls IH]; intros s Hs; [reflexivity|].
  simpl in Hs. cbn [map split_from chunks]. rewrite <- Nat2Z.inj_add. f_equal.
  - unfold py_slice. rewrite !py_bound_nat. f_equal; [lia|]. f_equal. lia.
  - rewrite IH by lia. rewrite skipn_skipn. reflexivity.
Qed.

Lemma split_X_lengths_chunks {X} (ls : list nat) (x : list X) :
  ls <> [] -> fold_right Nat.add 0%nat ls = length x ->
  split_X_lengths x (as_lengths ls) = Ok (chunks ls x).
Proof.
  intros Hne Hs. unfold split_X_lengths, as_lengths.
  destruct ls as [|n ls]; [contradiction|].
  change (map Z.of_nat (n :: ls)) with (Z.of_nat n :: map Z.of_nat ls) at 1. cbn [map].
  change (Z.of_nat n :: map Z.of_nat ls) with (map Z.of_nat (n :: ls)).
  rewrite fold_left_Zadd, Hs, Z.add_0_l, Z.eqb_refl.
  change 0%Z with (Z.of_nat 0). rewrite split_from_chunks by lia. reflexivity.
Qed.

Lemma chunks_Forall {X} (ls : list nat) (x : list X) (Q : X -> Prop) :
  Forall Q x -> Forall (Forall Q) (chunks ls x).
Proof.
  revert x; induction ls as [|n ls IH]; intros x H; simpl; constructor.
  - rewrite <- (firstn_skipn n x) in H. apply Forall_app in H. apply H.
  - apply IH. rewrite <- (firstn_skipn n x) in H. apply Forall_app in H. apply H.
Qed.

Lemma chunks_nonempty {X} (ls : list nat) (x : list X) :
  Forall (fun n => (0 < n)%nat) ls -> fold_right Nat.add 0%nat ls = length x ->
  Forall (fun c => c <> []) (chunks ls x).
Proof.
  revert x; induction ls as [|n ls IH]; intros x Hp Hs; simpl; constructor.
  - inversion Hp; subst. simpl in Hs. intros E. apply (f_equal (@length X)) in E.
    rewrite firstn_length in E. simpl in E. lia.
  - inversion Hp; subst. apply IH; [assumption|]. rewrite skipn_length. simpl in Hs. lia.
Qed.

Lemma chunks_concat {X} (ls : list nat) (x : list X) :
  fold_right Nat.add 0%nat ls = length x -> concat (chunks ls x) = x.
Proof.
  revert x; induction ls as [|n ls IH]; intros x Hs; simpl in *.
  - destruct x; [reflexivity|discriminate].
  - rewrite IH; [apply firstn_skipn|]. rewrite skipn_length. lia.
Qed.

(** ** Emission frames. *)
Lemma obsB_nonneg {X} (ok : X -> Prop) (b : X -> nat -> R) nc x :
  (forall o i, ok o -> (i < nc)%nat -> 0 <= b o i) -> Forall ok x ->
  nonneg2 (length x) nc (obsB b x).
Proof.
  intros Hb Hx t i Ht Hi. unfold obsB. rewrite Forall_forall in Hx.
  assert (Hin : In (nth t (map (fun o => b o i) x) 0) (map (fun o => b o i) x))
    by (apply nth_In; rewrite map_length; exact Ht).
  apply in_map_iff in Hin as [o [<- Ho]]. apply Hb; [apply Hx; exact Ho|exact Hi].
Qed.

Lemma obsB_nth {X} (b : X -> nat -> R) x d t i : (t < length x)%nat ->
  obsB b x t i = b (nth t x d) i.
Proof.
  intros Ht. unfold obsB. rewrite (nth_indep _ 0 (b d i)) by (rewrite map_length; exact Ht).
  apply (map_nth (fun o => b o i)).
Qed.

Lemma obsB_firstn {X} (b : X -> nat -> R) x n t i : (t < n)%nat ->
  obsB b (firstn n x) t i = obsB b x t i.
Proof.
  intros H. unfold obsB. rewrite <- firstn_map.
  revert n t H. induction (map (fun o => b o i) x) as [|y l IH]; intros n t H.
  - rewrite firstn_nil. reflexivity.
  - destruct n as [|n]; [lia|]. destruct t as [|t]; [reflexivity|]. simpl. apply IH. lia.
Qed.

Lemma joint_ext_B T pi A B B' z : (forall t i, (t < T)%nat -> B t i = B' t i) ->
  joint T pi A B z = joint T pi A B' z.
Proof.
  intros H. unfold joint. f_equal. apply prodn_ext. intros t Ht. apply H; exact Ht.
Qed.

Lemma likelihood_ext_B nc T pi A B B' : (forall t i, (t < T)%nat -> B t i = B' t i) ->
  likelihood nc T pi A B = likelihood nc T pi A B'.
Proof. intros H. unfold likelihood. apply sumL_ext. intros z _. apply joint_ext_B; exact H. Qed.

Lemma seq_plik_prefix {X} nc pi A (b : X -> nat -> R) x t : (t <= length x)%nat ->
  seq_plik nc pi A b (firstn t x) = prefix_lik nc pi A (obsB b x) t.
Proof.
  intros Ht. destruct t as [|t]; [reflexivity|]. unfold prefix_lik.
  assert (Hl : length (firstn (S t) x) = S t) by (rewrite firstn_length; lia).
  rewrite <- (likelihood_ext_B nc (S t) pi A (obsB b (firstn (S t) x))).
  2:{ intros s i Hs. apply obsB_firstn. exact Hs. }
  transitivity (seq_lik nc pi A b (firstn (S t) x)).
  - destruct (firstn (S t) x); [discriminate|reflexivity].
  - unfold seq_lik. rewrite Hl. reflexivity.
Qed.

Lemma no_underflow_seq {X} nc pi A (b : X -> nat -> R) x : x <> [] ->
  seq_no_underflow nc pi A b x <-> no_underflow nc (length x - 1) pi A (obsB b x).
Proof.
  intros Hne. assert (Hlen : (0 < length x)%nat) by (destruct x; [contradiction|simpl; lia]).
  unfold seq_no_underflow, no_underflow. split; intros H t Ht.
  - specialize (H t ltac:(lia)). rewrite !seq_plik_prefix in H by lia. exact H.
  - rewrite !seq_plik_prefix by lia. apply H. lia.
Qed.

(** ** numpy helpers on logarithms. *)
Lemma np_maximum_xln a b : 0 <= a -> 0 <= b ->
  np_maximum (xln a) (xln b) = if Rltb a b then xln b else xln a.
Proof.
  intros Ha Hb. assert (H : np_maximum (xln a) (xln b) = if xltb (xln a) (xln b) then xln b else xln a).
  { unfold np_maximum, xln. destruct (Rlt_dec 0 a), (Rlt_dec 0 b); reflexivity. }
  rewrite H, xltb_xln by assumption. reflexivity.
Qed.

Lemma np_max_xln l : l <> [] -> (forall y, In y l -> 0 <= y) ->
  exists m, np_max (map xln l) = xln m /\ In m l /\ forall y, In y l -> y <= m.
Proof.
  destruct l as [|x l]; intros Hne Hl; [contradiction|].
  exists (maxR_from x l). simpl.
  assert (E : forall l m, 0 <= m -> (forall y, In y l -> 0 <= y) ->
     fold_left np_maximum (map xln l) (xln m) = xln (maxR_from m l)).
  { clear. induction l as [|a l IH]; intros m Hm Hl; simpl; [reflexivity|].
    rewrite np_maximum_xln by (try assumption; apply Hl; left; reflexivity).
    replace (if Rltb m a then xln a else xln m) with (xln (if Rltb m a then a else m))
      by (destruct (Rltb m a); reflexivity).
    rewrite IH; [reflexivity| |intros; apply Hl; right; assumption].
    destruct (Rltb m a); [apply Hl; left; reflexivity|exact Hm]. }
  rewrite E.
  - split; [reflexivity|]. destruct (maxR_from_ge x l) as [H1 H2]. split.
    + destruct (maxR_from_in x l) as [H|H]; [left; symmetry; exact H|right; exact H].
    + intros y [->|Hy]; auto.
  - apply Hl; left; reflexivity.
  - intros; apply Hl; right; assumption.
Qed.

Lemma sp_logsumexp_xln n f : (0 < n)%nat -> nonneg1 n f ->
  sp_logsumexp exact (tab n (fun i => xln (f i))) = xln (sumn n f).
Proof.
  intros Hn Hf. rewrite <- (tab_map xln n f). set (l := tab n f).
  assert (Hl : forall y, In y l -> 0 <= y).
  { intros y Hy. unfold l, tab in Hy. apply in_map_iff in Hy as [i [<- Hi]].
    apply in_seq in Hi. apply Hf. lia. }
  assert (Hne : l <> []).
  { intros E. apply (f_equal (@length R)) in E. unfold l in E. rewrite tab_length in E. simpl in E. lia. }
  assert (Hs : sumn n f = sumL (fun y => y) l).
  { unfold l, tab. rewrite sumL_map, sumL_seq0. reflexivity. }
  rewrite Hs. clearbody l. clear Hs Hf Hn f n.
  destruct (np_max_xln l Hne Hl) as (m & Hm & Hin & Hmax).
  unfold sp_logsumexp. rewrite Hm. pose proof (Hl m Hin) as Hm0.
  destruct (nonneg_cases m Hm0) as [Hpos| ->].
  - rewrite (xln_pos m Hpos). cbn [xisfin]. rewrite fold_left_map.
    rewrite (fold_left_ext_in _ (fun acc x => xadd exact acc (Fin (x / m)))).
    + rewrite fold_xadd_sumL, Rplus_0_l, sumL_div.
      assert (Hs : 0 < sumL (fun y => y) l).
      { apply Rlt_le_trans with m; [exact Hpos|]. apply (sumL_ge_term (fun y => y)); assumption. }
      assert (0 < sumL (fun y => y) l / m) by (apply Rdiv_lt_0_compat; assumption).
      rewrite xlog_fin, <- (xln_pos m Hpos), xadd_xln by lra. f_equal. field. lra.
    + intros a x Hx. f_equal. pose proof (Hl x Hx) as Hx0.
      rewrite <- (xln_pos m Hpos), xsub_xln by assumption.
      apply xexp_xln. apply Rmult_le_pos; [exact Hx0|left; apply Rinv_0_lt_compat; exact Hpos].
  - rewrite xln_0. cbn [xisfin]. rewrite fold_left_map.
    rewrite (fold_left_ext_in _ (fun acc x => xadd exact acc (Fin ((fun _ => 0) x)))).
    + rewrite (fold_xadd_sumL l (fun _ => 0)), sumL_0, Rplus_0_l, xlog_fin, xln_0 by lra.
      rewrite sumL_zero; [rewrite xln_0; reflexivity|].
      intros y Hy. pose proof (Hl y Hy). pose proof (Hmax y Hy). lra.
    + intros a x Hx. f_equal. replace x with 0 by (pose proof (Hl x Hx); pose proof (Hmax x Hx); lra).
      rewrite xln_0. reflexivity.
Qed.

(** ** Posteriors. *)
Lemma mat_rows_map (f : vec -> vec) r c g :
  map f (rows (mtab r c g)) = tab r (fun t => f (tab c (g t))).
Proof. unfold mtab; cbn [rows]. apply tab_map. Qed.

Section Post.
  Variables (nc T : nat) (pi : nat -> R) (A : nat -> nat -> R) (B : nat -> nat -> R).
  Hypothesis Hnc : (0 < nc)%nat.
  Hypothesis Hpi : nonneg1 nc pi.
  Hypothesis HA : nonneg2 nc nc A.
  Hypothesis HB : nonneg2 (S T) nc B.
  Notation al := (alpha nc pi A B).
  Notation be := (beta nc A B).
  Notation L := (likelihood nc (S T) pi A B).

  Lemma posterior_ab t i : (t <= T)%nat -> (i < nc)%nat ->
    posterior nc (S T) pi A B t i = al t i * be t (T - t) i / L.
  Proof. intros. unfold posterior. rewrite marginal_alpha_beta by assumption. reflexivity. Qed.

  Theorem compute_posteriors_log_spec : 0 < L ->
    compute_posteriors_log exact (lmat (S T) nc al) (lmat (S T) nc (fun t i => be t (T - t) i))
    = fmat (S T) nc (posterior nc (S T) pi A B).
  Proof.
    intros HL. unfold compute_posteriors_log, mzip.
    rewrite nrow_lmat, ncol_lmat.
    rewrite (mtab_ext _ _ _ (fun t i => xln (al t i * be t (T - t) i))).
    2:{ intros t i Ht Hi. rewrite !mget_lmat by assumption.
        apply xadd_xln; [apply (al_nn nc T); auto; lia|apply (be_nn nc T); auto; lia]. }
    unfold log_normalize_rows. rewrite ncol_mtab.
    destruct (Nat.eqb_spec nc 1) as [E1|Hn1].
    - rewrite mat_rows_map. unfold mmap; cbn [ncol rows]. rewrite tab_map.
      unfold fmat, mtab. f_equal. apply tab_ext; intros t Ht. rewrite !tab_map.
      apply tab_ext; intros i Hi. cbn [xexp]. rewrite exp_0. unfold exact. f_equal.
      rewrite posterior_ab by lia.
      rewrite (likelihood_alpha_beta nc pi A B T t) by lia. subst nc. simpl.
      replace i with 0%nat by lia. rewrite Rplus_0_l. symmetry. apply Rinv_r.
      rewrite (likelihood_alpha_beta 1 pi A B T t) in HL by lia. simpl in HL. lra.
    - rewrite mat_rows_map. unfold mmap; cbn [ncol rows]. rewrite tab_map.
      unfold fmat, mtab. f_equal. apply tab_ext; intros t Ht.
      unfold log_normalize_row.
      assert (Hn : forall i, (i < nc)%nat -> 0 <= al t i * be t (T - t) i).
      { intros i Hi. apply Rmult_le_pos; [apply (al_nn nc T); auto; lia|apply (be_nn nc T); auto; lia]. }
      rewrite sp_logsumexp_xln by (try assumption; exact Hn).
      rewrite <- (likelihood_alpha_beta nc pi A B T t) by lia.
      rewrite !tab_map. apply tab_ext; intros i Hi.
      rewrite xsub_xln by (try assumption; apply Hn; exact Hi).
      rewrite xexp_xln; [rewrite posterior_ab by lia; reflexivity|].
      apply Rmult_le_pos; [apply Hn; exact Hi|left; apply Rinv_0_lt_compat; exact HL].
  Qed.

  Theorem compute_posteriors_scaling_spec : no_underflow nc T pi A B ->
    compute_posteriors_scaling exact
      (fmat (S T) nc (fun t i => al t i / prefix_lik nc pi A B (S t)))
      (fmat (S T) nc (fun t i => be t (T - t) i * prefix_lik nc pi A B t / prefix_lik nc pi A B (S T)))
    = fmat (S T) nc (posterior nc (S T) pi A B).
  Proof.
    intros Hu. unfold compute_posteriors_scaling, mzip, normalize_rows.
    rewrite nrow_fmat, ncol_fmat.
    set (c := fun t => prefix_lik nc pi A B t / (prefix_lik nc pi A B (S t) * prefix_lik nc pi A B (S T))).
    rewrite (mtab_ext _ _ _ (fun t i => Fin (al t i * be t (T - t) i * c t))).
    2:{ intros t i Ht Hi. rewrite !mget_fmat by assumption. cbn [xmul]. unfold exact. f_equal.
        pose proof (prefix_pos nc T pi A B Hnc Hu (S t) ltac:(lia)).
        pose proof (prefix_pos nc T pi A B Hnc Hu (S T) ltac:(lia)). unfold c. field. lra. }
    rewrite ncol_mtab, mat_rows_map. unfold fmat, mtab. f_equal. apply tab_ext; intros t Ht.
    pose proof (prefix_pos nc T pi A B Hnc Hu t ltac:(lia)) as Ht0.
    pose proof (prefix_pos nc T pi A B Hnc Hu (S t) ltac:(lia)) as Ht1.
    pose proof (prefix_pos nc T pi A B Hnc Hu (S T) ltac:(lia)) as HT1.
    assert (Hc : 0 < c t).
    { unfold c. apply Rdiv_lt_0_compat; [exact Ht0|apply Rmult_lt_0_compat; assumption]. }
    change (prefix_lik nc pi A B (S T)) with L in *.
    assert (Hs : xsum exact (tab nc (fun i => Fin (al t i * be t (T - t) i * c t))) = Fin (L * c t)).
    { change (tab nc (fun i => Fin (al t i * be t (T - t) i * c t)))
        with (fvec nc (fun i => al t i * be t (T - t) i * c t)).
      rewrite xsum_fvec, sumn_scal_r, <- (likelihood_alpha_beta nc pi A B T t) by lia. reflexivity. }
    assert (HLc : 0 < L * c t) by (apply Rmult_lt_0_compat; assumption).
    unfold normalize_row. rewrite Hs. cbn [xeqb].
    replace (Reqb (L * c t) 0) with false by (symmetry; apply Reqb_false; lra).
    rewrite tab_map. apply tab_ext; intros i Hi. cbn [xdiv].
    destruct (Req_EM_T (L * c t) 0); [lra|]. unfold exact. f_equal.
    rewrite posterior_ab by lia. field. lra.
  Qed.

  (** Posterior rows are probability distributions. *)
  Lemma posterior_dist t : 0 < L -> (t <= T)%nat -> stochastic1 nc (posterior nc (S T) pi A B t).
  Proof.
    intros HL Ht. split.
    - intros i Hi. rewrite posterior_ab by assumption.
      apply Rmult_le_pos; [|left; apply Rinv_0_lt_compat; exact HL].
      apply Rmult_le_pos; [apply (al_nn nc T); auto; lia|apply (be_nn nc T); auto; lia].
    - rewrite (sumn_ext nc _ (fun i => al t i * be t (T - t) i / L))
        by (intros; apply posterior_ab; assumption).
      rewrite sumn_div, <- (likelihood_alpha_beta nc pi A B T t) by lia. field. lra.
  Qed.
End Post.

(** ** Per-sequence results on a usable model. *)
Lemma prodL_nonneg {X} (f : X -> R) l : (forall x, In x l -> 0 <= f x) -> 0 <= prodL f l.
Proof.
  induction l as [|x l IH]; intros H; simpl; [lra|].
  apply Rmult_le_pos; [apply H; left; reflexivity|apply IH; intros; apply H; right; assumption].
Qed.

Lemma acc_seqs_xln {X A} (f : list X -> res (xnum * list A)) (g : list X -> R)
    (r : list X -> list A) a xs :
  0 <= a -> Forall (fun x => f x = Ok (xln (g x), r x) /\ 0 <= g x) xs ->
  acc_seqs exact f (xln a) xs = Ok (xln (a * prodL g xs), flat_map r xs).
Proof.
  revert a; induction xs as [|x xs IH]; intros a Ha H; simpl.
  - rewrite Rmult_1_r. reflexivity.
  - inversion H as [|? ? [E Hg] H']; subst. rewrite E. cbn [bind].
    rewrite xadd_xln by assumption. rewrite IH; [|apply Rmult_le_pos; assumption|assumption].
    cbn [bind]. f_equal. f_equal. f_equal. ring.
Qed.

Section Usable.
  Context {P X St : Type} (E : emclass P X St) (h : hmm P).
  Variables (nc : nat) (pi : nat -> R) (A : nat -> nat -> R) (ok : X -> Prop) (b : X -> nat -> R).
  Hypothesis Rd : ready E h nc pi A ok b.

  Notation slik := (seq_lik nc pi A b).

  Lemma check_same h1 h2 : check E exact h1 = Ok h2 ->
    h_cfg h2 = h_cfg h1 /\ h_start h2 = h_start h1 /\ h_trans h2 = h_trans h1 /\ h_mon h2 = h_mon h1.
  Proof.
    unfold check. destruct (h_start h1) as [s|] eqn:Es; [|discriminate].
    destruct (h_trans h1) as [t|] eqn:Et.
    - destruct (base_check exact (c_nc (h_cfg h1)) s t) as [[]|]; cbn [bind]; [|discriminate].
      destruct (ec_check E exact (h_cfg h1) (h_nfeat h1) (h_em h1)) as [[nf em]|]; cbn [bind]; [|discriminate].
      intros H; injection H as <-. cbn. auto.
    - destruct (negb (Nat.eqb _ _)); [discriminate|]. destruct (negb _); discriminate.
  Qed.

  Lemma ready_fitted_check : exists h', fitted_check E exact h = Ok (h', fvec nc pi, fmat nc nc A)
    /\ emits E h' nc ok b /\ ready E h' nc pi A ok b /\ h_cfg h' = h_cfg h.
  Proof.
    destruct (rd_check E h nc pi A ok b Rd) as (h' & Hc & Hc2 & He).
    destruct (check_same h h' Hc) as (E1 & E2 & E3 & _).
    exists h'. split; [|split; [exact He|split; [|exact E1]]].
    - unfold fitted_check. rewrite (rd_start E h nc pi A ok b Rd), Hc. cbn [bind].
      rewrite E2, E3, (rd_start E h nc pi A ok b Rd), (rd_trans E h nc pi A ok b Rd). reflexivity.
    - destruct Rd. constructor; try rewrite E1; try rewrite E2; try rewrite E3; try assumption.
      exists h'. auto.
  Qed.

  Lemma seq_nonempty (x : list X) : x <> [] -> exists T, length x = S T.
  Proof. destruct x as [|a x]; intros H; [contradiction|]. exists (length x). reflexivity. Qed.

  Lemma slik_nonneg x : emits E h nc ok b \/ (forall o i, ok o -> (i < nc)%nat -> 0 <= b o i) ->
    x <> [] -> Forall ok x -> 0 <= slik x.
  Proof.
    intros Hb Hne Hx. assert (Hb' : forall o i, ok o -> (i < nc)%nat -> 0 <= b o i)
      by (destruct Hb as [Hb|Hb]; [apply Hb|exact Hb]).
    unfold seq_lik. apply likelihood_nonneg.
    - apply (rd_pi E h nc pi A ok b Rd).
    - apply (rd_A E h nc pi A ok b Rd).
    - apply (obsB_nonneg ok); assumption.
    - destruct x; [contradiction|simpl; lia].
  Qed.

  Section Checked.
    Variable h' : hmm P.
    Hypothesis He : emits E h' nc ok b.

    Lemma score_log_seq_false x : x <> [] -> Forall ok x ->
      score_log_seq E exact h' (fvec nc pi) (fmat nc nc A) false x = Ok (xln (slik x), []).
    Proof.
      intros Hne Hx. unfold score_log_seq. rewrite (em_log _ _ _ _ _ He x Hx). cbn [bind].
      destruct (seq_nonempty x Hne) as [T HT]. unfold seq_lik. 
      pose proof (obsB_nonneg ok b nc x (em_nonneg _ _ _ _ _ He) Hx) as HB. rewrite HT in HB |- *.
      rewrite forward_log_spec by (apply Rd || assumption). reflexivity.
    Qed.

    Definition post_rows (x : list X) : list vec :=
      tab (length x) (fun t => tab nc (fun i => Fin (seq_post nc pi A b x t i))).

    Lemma score_log_seq_true x : x <> [] -> Forall ok x -> 0 < slik x ->
      score_log_seq E exact h' (fvec nc pi) (fmat nc nc A) true x = Ok (xln (slik x), post_rows x).
    Proof.
      intros Hne Hx HL. unfold score_log_seq. rewrite (em_log _ _ _ _ _ He x Hx). cbn [bind].
      destruct (seq_nonempty x Hne) as [T HT]. unfold seq_lik in HL. unfold post_rows, seq_post, seq_lik.
      pose proof (obsB_nonneg ok b nc x (em_nonneg _ _ _ _ _ He) Hx) as HB. rewrite HT in *.
      rewrite forward_log_spec by (apply Rd || assumption). cbn [bind].
      rewrite backward_log_spec by (apply Rd || assumption). cbn [bind].
      rewrite compute_posteriors_log_spec by (apply Rd || assumption). reflexivity.
    Qed.

    Lemma score_scaling_seq_true x : x <> [] -> Forall ok x -> seq_no_underflow nc pi A b x ->
      score_scaling_seq E exact h' (fvec nc pi) (fmat nc nc A) true x = Ok (xln (slik x), post_rows x).
    Proof.
      intros Hne Hx Hu. unfold score_scaling_seq. rewrite (em_lin _ _ _ _ _ He x Hx). cbn [bind].
      apply no_underflow_seq in Hu; [|exact Hne].
      destruct (seq_nonempty x Hne) as [T HT]. unfold post_rows, seq_post, seq_lik in *.
      pose proof (obsB_nonneg ok b nc x (em_nonneg _ _ _ _ _ He) Hx) as HB. rewrite HT in *.
      replace (S T - 1)%nat with T in Hu by lia.
      rewrite forward_scaling_spec by (apply Rd || assumption). cbn [bind].
      rewrite backward_scaling_spec by (apply Rd || assumption). cbn [bind].
      rewrite compute_posteriors_scaling_spec by (apply Rd || assumption). reflexivity.
    Qed.

    Lemma score_scaling_seq_false x : x <> [] -> Forall ok x -> seq_no_underflow nc pi A b x ->
      score_scaling_seq E exact h' (fvec nc pi) (fmat nc nc A) false x = Ok (xln (slik x), []).
    Proof.
      intros Hne Hx Hu. unfold score_scaling_seq. rewrite (em_lin _ _ _ _ _ He x Hx). cbn [bind].
      apply no_underflow_seq in Hu; [|exact Hne].
      destruct (seq_nonempty x Hne) as [T HT]. unfold seq_lik in *.
      pose proof (obsB_nonneg ok b nc x (em_nonneg _ _ _ _ _ He) Hx) as HB. rewrite HT in *.
      replace (S T - 1)%nat with T in Hu by lia.
      rewrite forward_scaling_spec by (apply Rd || assumption). reflexivity.
    Qed.

    Lemma score_scaling_seq_underflow x post : x <> [] -> Forall ok x -> ~ seq_no_underflow nc pi A b x ->
      score_scaling_seq E exact h' (fvec nc pi) (fmat nc nc A) post x = Err (ValueError "underflow").
    Proof.
      intros Hne Hx Hu. unfold score_scaling_seq. rewrite (em_lin _ _ _ _ _ He x Hx). cbn [bind].
      rewrite (no_underflow_seq nc pi A b x Hne) in Hu.
      destruct (seq_nonempty x Hne) as [T HT].
      pose proof (obsB_nonneg ok b nc x (em_nonneg _ _ _ _ _ He) Hx) as HB. rewrite HT in *.
      replace (S T - 1)%nat with T in Hu by lia.
      rewrite forward_scaling_underflow by (apply Rd || assumption). reflexivity.
    Qed.

    Lemma decode_viterbi_seq x : x <> [] -> Forall ok x ->
      exists z, decode_viterbi E exact h' (fvec nc pi) (fmat nc nc A) x
                = Ok (xln (seq_joint pi A b x z), z)
        /\ is_path nc (length x) z
        /\ forall z', is_path nc (length x) z' -> seq_joint pi A b x z' <= seq_joint pi A b x z.
    Proof.
      intros Hne Hx. unfold decode_viterbi. rewrite (em_log _ _ _ _ _ He x Hx). cbn [bind].
      destruct (seq_nonempty x Hne) as [T HT]. unfold seq_joint.
      pose proof (obsB_nonneg ok b nc x (em_nonneg _ _ _ _ _ He) Hx) as HB. rewrite HT in *.
      apply viterbi_exact; apply Rd || assumption.
    Qed.
  End Checked.

  Lemma check_array_ready x : x <> [] -> Forall ok x ->
    (forall o, ok o -> ec_xok E o = true) -> check_array (ec_xok E) x = Ok x.
  Proof.
    intros Hne Hx Hok. destruct x as [|o x]; [contradiction|]. unfold check_array.
    replace (forallb (ec_xok E) (o :: x)) with true; [reflexivity|]. symmetry.
    apply forallb_forall. rewrite Forall_forall in Hx. intros y Hy. apply Hok, Hx, Hy.
  Qed.

  Lemma good_data_chunks ls x : good_data ok ls x ->
    x <> [] /\ split_X_lengths x (as_lengths ls) = Ok (chunks ls x)
    /\ Forall (fun c => c <> [] /\ Forall ok c) (chunks ls x).
  Proof.
    intros [Hx [Hne [Hp Hs]]]. split; [|split].
    - destruct ls as [|n ls]; [contradiction|]. inversion Hp; subst. simpl in Hs.
      intros ->. simpl in Hs. lia.
    - apply split_X_lengths_chunks; assumption.
    - pose proof (chunks_Forall ls x ok Hx) as H1.
      pose proof (chunks_nonempty ls x Hp Hs) as H2.
      rewrite Forall_forall in *. intros c Hc. split; auto.
  Qed.

  Lemma score_post_log ls x : c_impl (h_cfg h) = "log"%string -> good_data ok ls x ->
    (forall c, In c (chunks ls x) -> 0 < slik c) ->
    score_samples E exact h x (as_lengths ls)
    = Ok (xln (prodL slik (chunks ls x)), Mat nc (flat_map post_rows (chunks ls x))).
  Proof.
    intros Hi Hd HL. destruct (good_data_chunks ls x Hd) as (Hne & Hsp & Hch).
    destruct Hd as [Hx _]. destruct ready_fitted_check as (h' & Hf & He & _).
    unfold score_samples, score_. rewrite Hf. cbn [bind].
    rewrite (check_array_ready x Hne Hx (em_xok _ _ _ _ _ He)). cbn [bind].
    rewrite Hi. cbn [String.eqb Ascii.eqb Bool.eqb]. cbn [bind]. rewrite Hsp. cbn [bind].
    rewrite <- xln_1, (acc_seqs_xln _ slik post_rows 1).
    - cbn [bind]. rewrite Rmult_1_l, (rd_nc E h nc pi A ok b Rd). reflexivity.
    - lra.
    - rewrite Forall_forall in *. intros c Hcin. destruct (Hch c Hcin) as [H1 H2].
      split; [apply score_log_seq_true; auto|left; apply HL; exact Hcin].
  Qed.

  Lemma score_log ls x : c_impl (h_cfg h) = "log"%string -> good_data ok ls x ->
    score E exact h x (as_lengths ls) = Ok (xln (prodL slik (chunks ls x))).
  Proof.
    intros Hi Hd. destruct (good_data_chunks ls x Hd) as (Hne & Hsp & Hch).
    destruct Hd as [Hx _]. destruct ready_fitted_check as (h' & Hf & He & _).
    unfold score, score_. rewrite Hf. cbn [bind].
    rewrite (check_array_ready x Hne Hx (em_xok _ _ _ _ _ He)). cbn [bind].
    rewrite Hi. cbn [String.eqb Ascii.eqb Bool.eqb]. cbn [bind]. rewrite Hsp. cbn [bind].
    rewrite <- xln_1, (acc_seqs_xln _ slik (fun _ => []) 1).
    - cbn [bind]. rewrite Rmult_1_l. reflexivity.
    - lra.
    - rewrite Forall_forall in *. intros c Hcin. destruct (Hch c Hcin) as [H1 H2].
      split; [apply score_log_seq_false; auto|].
      apply slik_nonneg; auto. right; apply He.
  Qed.

  Lemma score_post_scaling ls x : c_impl (h_cfg h) = "scaling"%string -> good_data ok ls x ->
    (forall c, In c (chunks ls x) -> seq_no_underflow nc pi A b c) ->
    score_samples E exact h x (as_lengths ls)
    = Ok (xln (prodL slik (chunks ls x)), Mat nc (flat_map post_rows (chunks ls x))).
  Proof.
    intros Hi Hd HL. destruct (good_data_chunks ls x Hd) as (Hne & Hsp & Hch).
    destruct Hd as [Hx _]. destruct ready_fitted_check as (h' & Hf & He & _).
    unfold score_samples, score_. rewrite Hf. cbn [bind].
    rewrite (check_array_ready x Hne Hx (em_xok _ _ _ _ _ He)). cbn [bind].
    rewrite Hi. cbn [String.eqb Ascii.eqb Bool.eqb]. cbn [bind]. rewrite Hsp. cbn [bind].
    rewrite <- xln_1, (acc_seqs_xln _ slik post_rows 1).
    - cbn [bind]. rewrite Rmult_1_l, (rd_nc E h nc pi A ok b Rd). reflexivity.
    - lra.
    - rewrite Forall_forall in *. intros c Hcin. destruct (Hch c Hcin) as [H1 H2].
      split; [apply score_scaling_seq_true; auto|].
      apply slik_nonneg; auto. right; apply He.
  Qed.

  Lemma score_scaling ls x : c_impl (h_cfg h) = "scaling"%string -> good_data ok ls x ->
    (forall c, In c (chunks ls x) -> seq_no_underflow nc pi A b c) ->
    score E exact h x (as_lengths ls) = Ok (xln (prodL slik (chunks ls x))).
  Proof.
    intros Hi Hd HL. destruct (good_data_chunks ls x Hd) as (Hne & Hsp & Hch).
    destruct Hd as [Hx _]. destruct ready_fitted_check as (h' & Hf & He & _).
    unfold score, score_. rewrite Hf. cbn [bind].
    rewrite (check_array_ready x Hne Hx (em_xok _ _ _ _ _ He)). cbn [bind].
    rewrite Hi. cbn [String.eqb Ascii.eqb Bool.eqb]. cbn [bind]. rewrite Hsp. cbn [bind].
    rewrite <- xln_1, (acc_seqs_xln _ slik (fun _ => []) 1).
    - cbn [bind]. rewrite Rmult_1_l. reflexivity.
    - lra.
    - rewrite Forall_forall in *. intros c Hcin. destruct (Hch c Hcin) as [H1 H2].
      split; [apply score_scaling_seq_false; auto|].
      apply slik_nonneg; auto. right; apply He.
  Qed.

  Lemma acc_seqs_err {A0} (f : list X -> res (xnum * list A0)) e a xs :
    (forall c, In c xs -> (exists r, f c = Ok r) \/ f c = Err e) ->
    (exists c, In c xs /\ f c = Err e) -> acc_seqs exact f a xs = Err e.
  Proof.
    revert a; induction xs as [|x xs IH]; intros a H [c [Hc Hf]]; [destruct Hc|]. simpl.
    destruct (H x (or_introl eq_refl)) as [[[l r] Er]|Er].
    - rewrite Er. cbn [bind]. rewrite IH; [reflexivity|intros; apply H; right; assumption|].
      destruct Hc as [->|Hc]; [congruence|]. exists c; split; assumption.
    - rewrite Er. reflexivity.
  Qed.

  Lemma score_scaling_underflow ls x post : c_impl (h_cfg h) = "scaling"%string -> good_data ok ls x ->
    ~ (forall c, In c (chunks ls x) -> seq_no_underflow nc pi A b c) ->
    score_ E exact h x (as_lengths ls) post = Err (ValueError "underflow").
  Proof.
    intros Hi Hd HL. destruct (good_data_chunks ls x Hd) as (Hne & Hsp & Hch).
    destruct Hd as [Hx _]. destruct ready_fitted_check as (h' & Hf & He & _).
    unfold score_. rewrite Hf. cbn [bind].
    rewrite (check_array_ready x Hne Hx (em_xok _ _ _ _ _ He)). cbn [bind].
    rewrite Hi. cbn [String.eqb Ascii.eqb Bool.eqb]. cbn [bind]. rewrite Hsp. cbn [bind].
    rewrite (acc_seqs_err _ (ValueError "underflow")); [reflexivity| |].
    - rewrite Forall_forall in Hch. intros c Hcin. destruct (Hch c Hcin) as [H1 H2].
      destruct (Classical_Prop.classic (seq_no_underflow nc pi A b c)) as [Hu|Hu].
      + left. destruct post; eexists; [apply score_scaling_seq_true|apply score_scaling_seq_false]; auto.
      + right. apply score_scaling_seq_underflow; auto.
    - apply Classical_Pred_Type.not_all_ex_not in HL as [c HL].
      apply Classical_Prop.imply_to_and in HL as [Hcin Hu]. exists c; split; [exact Hcin|].
      rewrite Forall_forall in Hch. destruct (Hch c Hcin) as [H1 H2].
      apply score_scaling_seq_underflow; auto.
  Qed.

  (** decode(algorithm="viterbi"). *)
  Lemma decode_viterbi_spec ls x alg : good_data ok ls x ->
    (alg = Some "viterbi"%string \/ (alg = None /\ c_algorithm (h_cfg h) = "viterbi"%string)) ->
    exists zs, decode E exact h x (as_lengths ls) alg
       = Ok (xln (prodL2 (seq_joint pi A b) (chunks ls x) zs), concat zs)
      /\ Forall2 (best_path nc pi A b) (chunks ls x) zs.
  Proof.
    intros Hd Halg. destruct (good_data_chunks ls x Hd) as (Hne & Hsp & Hch).
    destruct Hd as [Hx _]. destruct ready_fitted_check as (h' & Hf & He & _).
    unfold decode. rewrite Hf. cbn [bind].
    assert (Ha : match alg with
               | Some a => if String.eqb a "" then c_algorithm (h_cfg h) else a
               | None => c_algorithm (h_cfg h)
               end = "viterbi"%string).
    { destruct Halg as [->|[-> ->]]; reflexivity. }
    rewrite Ha. cbn [String.eqb Ascii.eqb Bool.eqb]. cbn [bind].
    rewrite (check_array_ready x Hne Hx (em_xok _ _ _ _ _ He)). cbn [bind].
    rewrite Hsp. cbn [bind]. rewrite <- xln_1.
    assert (G : forall xs a, 0 <= a -> Forall (fun c => c <> [] /\ Forall ok c) xs ->
      exists zs, acc_seqs exact (decode_viterbi E exact h' (fvec nc pi) (fmat nc nc A)) (xln a) xs
        = Ok (xln (a * prodL2 (seq_joint pi A b) xs zs), concat zs) /\ Forall2 (best_path nc pi A b) xs zs).
    { induction xs as [|c xs IH]; intros a Ha0 Hxs; simpl.
      - exists []. split; [rewrite Rmult_1_r; reflexivity|constructor].
      - inversion Hxs as [|? ? [H1 H2] H3]; subst.
        destruct (decode_viterbi_seq h' He c H1 H2) as (z & Ez & Hz & Hm). rewrite Ez. cbn [bind].
        assert (Hj : 0 <= seq_joint pi A b c z).
        { unfold seq_joint. apply (joint_nonneg nc); try apply Rd; try assumption.
          - apply (obsB_nonneg ok); [apply He|exact H2].
          - destruct c; [contradiction|simpl; lia]. }
        rewrite xadd_xln by assumption.
        destruct (IH (a * seq_joint pi A b c z)) as (zs & Ezs & Hzs);
          [apply Rmult_le_pos; assumption|exact H3|].
        rewrite Ezs. cbn [bind]. exists (z :: zs). split.
        + simpl. f_equal. f_equal. f_equal. ring.
        + constructor; [split; assumption|exact Hzs]. }
    destruct (G (chunks ls x) 1 ltac:(lra) Hch) as (zs & Ezs & Hzs).
    exists zs. rewrite Ezs, Rmult_1_l. split; [reflexivity|exact Hzs].
  Qed.
End Usable.
