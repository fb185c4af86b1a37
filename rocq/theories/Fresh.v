(** * Strictly positive parameters stay strictly positive during training. *)
From Verif Require Export Gen_fit Vmath Cat_fit.

Lemma sumL_pos_in {X} (f : X -> R) l x : (forall y, In y l -> 0 <= f y) -> In x l -> 0 < f x -> 0 < sumL f l.
Proof. intros H Hi Hp. eapply Rlt_le_trans; [exact Hp|]. apply sumL_ge_term; assumption. Qed.

Section PosPost.
  Variables (nc T : nat) (pi : nat -> R) (A B : nat -> nat -> R).
  Hypothesis Hpi : pos1 nc pi.
  Hypothesis HA : pos2 nc nc A.
  Hypothesis HB : pos2 T nc B.

  Lemma path_joint_pos z : (0 < T)%nat -> is_path nc T z -> 0 < joint T pi A B z.
  Proof.
    intros HT [Hl Hz]. apply joint_pos.
    - apply Hpi, Hz. exact HT.
    - intros t Ht. apply HA; apply Hz; lia.
    - intros t Ht. apply HB; [exact Ht|]. apply Hz, Ht.
  Qed.
  Lemma const_path i : (i < nc)%nat -> is_path nc T (repeat i T).
  Proof.
    intros Hi. split; [apply repeat_length|]. intros t Ht.
    rewrite (nth_indep _ 0%nat i) by (rewrite repeat_length; exact Ht). rewrite nth_repeat. exact Hi.
  Qed.
  Lemma posterior_pos t i : (t < T)%nat -> (i < nc)%nat -> 0 < posterior nc T pi A B t i.
  Proof.
    intros Ht Hi. unfold posterior. apply Rdiv_lt_0_compat.
    - unfold marginal. apply sumL_pos_in with (x := repeat i T).
      + intros z Hz. apply filter_In in Hz as [Hz _]. apply in_all_paths in Hz.
        apply Rlt_le, path_joint_pos; [lia|exact Hz].
      + apply filter_In. split; [apply in_all_paths, const_path, Hi|].
        apply Nat.eqb_eq. rewrite (nth_indep _ 0%nat i) by (rewrite repeat_length; exact Ht). apply nth_repeat.
      + apply path_joint_pos; [lia|]. apply const_path, Hi.
    - apply likelihood_pos; auto; lia.
  Qed.
  Lemma expected_trans_pos i j : (2 <= T)%nat -> (i < nc)%nat -> (j < nc)%nat -> 0 < expected_trans nc T pi A B i j.
  Proof.
    intros HT Hi Hj. unfold expected_trans. apply Rdiv_lt_0_compat; [|apply likelihood_pos; auto; lia].
    set (z := i :: repeat j (T - 1)).
    assert (Hn : forall t, (t < T)%nat -> nth t z 0%nat = match t with 0%nat => i | _ => j end).
    { intros [|t] Ht; [reflexivity|]. unfold z. cbn [nth].
      rewrite (nth_indep _ 0%nat j) by (rewrite repeat_length; lia). apply nth_repeat. }
    assert (Hz : is_path nc T z).
    { split; [unfold z; cbn [length]; rewrite repeat_length; lia|]. intros t Ht. rewrite Hn by exact Ht. destruct t; assumption. }
    assert (Hnn : forall y, 0 <= n_trans T i j y).
    { intros y. unfold n_trans. apply sumn_nonneg. intros t Ht. destruct (_ && _); lra. }
    apply sumL_pos_in with (x := z).
    - intros y Hy. apply in_all_paths in Hy. apply Rmult_le_pos; [|apply Hnn]. apply Rlt_le, path_joint_pos; [lia|exact Hy].
    - apply in_all_paths, Hz.
    - apply Rmult_lt_0_compat; [apply path_joint_pos; [lia|exact Hz]|].
      set (f := fun t => if Nat.eqb (nth t z 0%nat) i && Nat.eqb (nth (S t) z 0%nat) j then 1 else 0).
      assert (F0 : f 0%nat = 1). { unfold f. rewrite !Hn by lia. rewrite !Nat.eqb_refl. reflexivity. }
      eapply Rlt_le_trans; [|apply (sumn_ge_term (T - 1) f 0%nat); [intros t Ht; unfold f; destruct (_ && _); lra|lia]].
      rewrite F0. lra.
  Qed.
End PosPost.

Lemma map_weight_pos n p q c i : (i < n)%nat -> 0 < p i -> 1 <= q i -> 0 < c i -> 0 < map_weight p q c i.
Proof.
  intros Hi Hp Hq Hc. unfold map_weight. destruct (Req_EM_T (p i) 0); [lra|].
  eapply Rlt_le_trans; [|apply Rmax_l]. lra.
Qed.
Lemma normalised_pos n w : (0 < n)%nat -> pos1 n w -> pos1 n (normalised n w) /\ sumn n (normalised n w) = 1.
Proof.
  intros Hn Hw. assert (Hs : 0 < sumn n w).
  { eapply Rlt_le_trans; [apply (Hw 0%nat Hn)|]. apply (sumn_ge_term n w 0%nat); [|exact Hn]. intros i Hi. apply Rlt_le, Hw, Hi. }
  split.
  - intros i Hi. unfold normalised. destruct (Req_EM_T _ _); [lra|]. apply Rdiv_lt_0_compat; [apply Hw, Hi|exact Hs].
  - rewrite (sumn_ext n _ (fun i => w i / sumn n w)).
    + unfold Rdiv. rewrite sumn_scal_r. field. lra.
    + intros i Hi. unfold normalised. destruct (Req_EM_T _ _); [lra|reflexivity].
Qed.

(** Positive emission probabilities on given sequences. *)
Section PosCount.
  Context {X : Type}.
  Variables (nc : nat) (cs : list (list X)).
  Hypothesis Hnc : (0 < nc)%nat.
  Hypothesis Hcs : forall c, In c cs -> c <> [].
  Variables (pi : nat -> R) (A : nat -> nat -> R) (b : X -> nat -> R).
  Hypothesis Hpi : pos1 nc pi.
  Hypothesis HA : pos2 nc nc A.
  Hypothesis HB : forall c, In c cs -> pos2 (length c) nc (obsB b c).

  Lemma pc_len c : In c cs -> (0 < length c)%nat.
  Proof. clear Hnc. intros Hc. pose proof (Hcs c Hc) as N. destruct c; [congruence|cbn; lia]. Qed.
  Lemma pc_lik c : In c cs -> 0 < seq_lik nc pi A b c.
  Proof. intros Hc. apply likelihood_pos; auto. apply pc_len, Hc. Qed.
  Lemma pc_post c t i : In c cs -> (t < length c)%nat -> (i < nc)%nat -> 0 < seq_post nc pi A b c t i.
  Proof. intros Hc Ht Hi. apply posterior_pos; auto. Qed.
  Lemma pc_trans_nonneg c i j : In c cs -> (i < nc)%nat -> (j < nc)%nat -> 0 <= seq_trans nc pi A b c i j.
  Proof.
    intros Hc Hi Hj. pose proof (pc_len c Hc) as Hl. pose proof (pc_lik c Hc) as HL. unfold seq_lik in HL. unfold seq_trans.
    pose proof (HB c Hc) as HBc. destruct (length c) as [|n]; [lia|]. apply expected_trans_nonneg; auto using pos_nonneg1, pos_nonneg2.
  Qed.
  Lemma pc_used : cs <> [] -> all_used nc pi A b cs.
  Proof.
    intros Hne i Hi. assert (K : exists c, In c cs) by (clear - Hne; destruct cs as [|c r]; [congruence|exists c; left; reflexivity]).
    destruct K as (c & Hc). exists c, 0%nat. split; [exact Hc|].
    assert (H : (0 < length c)%nat) by (apply pc_len, Hc). split; [exact H|]. apply pc_post; auto.
  Qed.
End PosCount.

(** Sequences are made of the samples. *)
Lemma chunks_In {X} ls : forall (x : list X) c o, In c (chunks ls x) -> In o c -> In o x.
Proof.
  induction ls as [|n ls IH]; intros x c o Hc Ho; [destruct Hc|]. cbn [chunks] in Hc. destruct Hc as [<-|Hc].
  - rewrite <- (firstn_skipn n x). apply in_or_app. left. exact Ho.
  - rewrite <- (firstn_skipn n x). apply in_or_app. right. apply (IH _ c o Hc Ho).
Qed.
Lemma In_chunks {X} ls : forall (x : list X) o, fold_right Nat.add 0%nat ls = length x -> In o x -> exists c, In c (chunks ls x) /\ In o c.
Proof.
  induction ls as [|n ls IH]; intros x o Hs Ho; cbn [fold_right] in Hs.
  - destruct x; [destruct Ho|discriminate].
  - cbn [chunks]. rewrite <- (firstn_skipn n x) in Ho. apply in_app_or in Ho as [Ho|Ho]; [exists (firstn n x); split; [left; reflexivity|exact Ho]|].
    destruct (IH (skipn n x) o) as (c & H1 & H2); [rewrite skipn_length; lia|exact Ho|]. exists c. split; [right; exact H1|exact H2].
Qed.
Lemma obsB_In {X} nc (b : X -> nat -> R) c : pos2 (length c) nc (obsB b c) <-> forall o i, In o c -> (i < nc)%nat -> 0 < b o i.
Proof.
  split.
  - intros H o i Ho Hi. destruct (In_nth c o o Ho) as (t & Ht & E). specialize (H t i Ht Hi). rewrite (obsB_nth b c o) in H by exact Ht. rewrite E in H. exact H.
  - intros H t i Ht Hi. destruct c as [|d r]; [cbn in Ht; lia|]. rewrite (obsB_nth b _ d) by exact Ht. apply H; [apply nth_In, Ht|exact Hi].
Qed.

Section Pos.
  Context {P X St : Type} (E : emclass P X St).
  Variables (nc : nat) (ok : X -> Prop) (good : cfg -> option nat -> P -> Prop) (b : P -> X -> nat -> R) (V : bool).
  Hypothesis TN : trains E nc ok good b V.
  Variables (ls : list nat) (x : list X).
  Hypothesis Hd : good_data ok ls x.
  Variables (sp : nat -> R) (tp : nat -> nat -> R).
  Hypothesis Hsp : forall i, (i < nc)%nat -> 1 <= sp i.
  Hypothesis Htp : forall i j, (i < nc)%nat -> (j < nc)%nat -> 1 <= tp i j.
  Hypothesis Hlong : exists c, In c (chunks ls x) /\ (2 <= length c)%nat.

  Lemma chunk_ne c : In c (chunks ls x) -> c <> [].
  Proof. intros Hc. destruct (good_data_chunks ok ls x Hd) as (_ & _ & F). rewrite Forall_forall in F. apply F, Hc. Qed.
  Lemma some_chunk : exists c, In c (chunks ls x).
  Proof.
    destruct Hd as (_ & N & _). destruct ls as [|n r]; [congruence|]. eexists. left. reflexivity.
  Qed.

  (** Start, transition and emission probabilities all positive. *)
  Definition all_pos pi A (p : P) : Prop :=
    pos1 nc pi /\ sumn nc pi = 1 /\ pos2 nc nc A /\ (forall i, (i < nc)%nat -> sumn nc (A i) = 1)
    /\ forall o i, In o x -> (i < nc)%nat -> 0 < b p o i.

  Theorem run_positive k h h2 vs hs pis As : run E nc ok good b V ls x sp tp k h h2 vs hs pis As ->
    all_pos (pis 0%nat) (As 0%nat) (h_em h) -> forall j, (j <= k)%nat -> all_pos (pis j) (As j) (h_em (hs j)).
  Proof.
    intros Rn H0. induction j as [|j IH]; intros Hj; [rewrite (rn_0 _ _ _ _ _ _ _ _ _ _ _ _ _ _ _ _ _ Rn); exact H0|].
    destruct (IH ltac:(lia)) as (IP & IS & IA & IT & IB).
    pose proof (rn_st _ _ _ _ _ _ _ _ _ _ _ _ _ _ _ _ _ Rn j ltac:(lia)) as TS.
    pose proof (ts_pos _ _ _ _ _ _ _ _ _ TS) as Hnc. pose proof (ts_good _ _ _ _ _ _ _ _ _ TS) as Hg.
    assert (HB : forall c, In c (chunks ls x) -> pos2 (length c) nc (obsB (b (h_em (hs j))) c)).
    { intros c Hc. apply obsB_In. intros o i Ho Hi. apply IB; [apply (chunks_In ls x c o Hc Ho)|exact Hi]. }
    rewrite (rn_pi _ _ _ _ _ _ _ _ _ _ _ _ _ _ _ _ _ Rn j ltac:(lia)), (rn_A _ _ _ _ _ _ _ _ _ _ _ _ _ _ _ _ _ Rn j ltac:(lia)).
    assert (HPi : pos1 nc (new_pi nc b ls x (hs j) (pis j) (As j) sp) /\ sumn nc (new_pi nc b ls x (hs j) (pis j) (As j) sp) = 1).
    { unfold new_pi. destruct (has "s" _); [|auto]. apply normalised_pos; [exact Hnc|]. intros i Hi.
      apply (map_weight_pos nc); auto. unfold cnt_start. destruct some_chunk as (s & Hs).
      assert (Hpp : forall c, In c (chunks ls x) -> 0 < seq_post nc (pis j) (As j) (b (h_em (hs j))) c 0 i).
      { intros c Hc. apply (pc_post nc (chunks ls x)); auto. pose proof (chunk_ne c Hc) as N. destruct c; [congruence|cbn; lia]. }
      apply sumL_pos_in with (x := s); [intros c Hc; apply Rlt_le, Hpp, Hc|exact Hs|apply Hpp, Hs]. }
    assert (HAi : forall i, (i < nc)%nat -> pos1 nc (new_A nc b ls x (hs j) (pis j) (As j) tp i) /\ sumn nc (new_A nc b ls x (hs j) (pis j) (As j) tp i) = 1).
    { intros i Hi. unfold new_A. destruct (has "t" _); [|split; [intros l Hl; apply IA; assumption|auto]].
      apply normalised_pos; [exact Hnc|]. intros l Hl.
      apply (map_weight_pos nc); auto. unfold cnt_trans. destruct Hlong as (s & Hs & H2).
      apply sumL_pos_in with (x := s).
      - intros c Hc. apply (pc_trans_nonneg nc (chunks ls x) Hnc chunk_ne); auto.
      - exact Hs.
      - apply expected_trans_pos; auto. }
    split; [apply HPi|]. split; [apply HPi|]. split; [intros i l Hi Hl; apply (HAi i Hi), Hl|]. split; [intros i Hi; apply (HAi i Hi)|].
    (* emissions *)
    destruct (rn_em _ _ _ _ _ _ _ _ _ _ _ _ _ _ _ _ _ Rn j ltac:(lia)) as (st & Ea & Em).
    assert (HW : good_weights nc ok (b (h_em (hs j))) (wpairs nc b ls x (hs j) (pis j) (As j))).
    { apply (wpairs_good E nc ok good b V TN ls x Hd (hs j) (pis j) (As j) TS). }
    destruct (tn_step _ _ _ _ _ _ TN (h_cfg (hs j)) (h_nfeat (hs j)) (h_em (hs j)) _ (ts_nc _ _ _ _ _ _ _ _ _ TS) Hg HW)
      as (st' & p' & Ea' & Em' & _ & Hkeep).
    { intros HV. apply (ts_visit _ _ _ _ _ _ _ _ _ TS HV). }
    rewrite Ea in Ea'. injection Ea' as <-. rewrite Em in Em'. injection Em' as <-.
    intros o i Ho Hi. destruct (In_chunks ls x o) as (c & Hc & Hoc); [apply Hd|exact Ho|].
    destruct (In_nth c o o Hoc) as (t & Ht & Eo).
    assert (G := Hkeep c (seq_post nc (pis j) (As j) (b (h_em (hs j))) c) t i).
    rewrite (obsB_nth (b (h_em (hs (S j)))) c o) in G by exact Ht. rewrite Eo in G. apply G; auto.
    - unfold wpairs. apply in_map_iff. exists c. auto.
    - apply (pc_post nc (chunks ls x)); auto.
  Qed.
End Pos.
