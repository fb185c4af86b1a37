(** * Path sums computed by the forward and backward recursions. *)
From Verif Require Export Sums.

Lemma last_indep {X} (z : list X) a b : z <> [] -> last z a = last z b.
Proof.
  induction z as [|x z IH]; intros H; [contradiction|].
  destruct z as [|y z]; [reflexivity|]. simpl in *. apply IH. discriminate.
Qed.

Lemma last_cons {X} (x d : X) z : last (x :: z) d = last z x.
Proof.
  destruct z as [|y z]; [reflexivity|].
  change (last (x :: y :: z) d) with (last (y :: z) d). apply last_indep. discriminate.
Qed.

Lemma last_nth {X} (z : list X) d : last z d = nth (length z - 1) z d.
Proof.
  induction z as [|x z IH]; [reflexivity|].
  destruct z as [|y z]; [reflexivity|].
  change (last (x :: y :: z) d) with (last (y :: z) d). rewrite IH. simpl.
  rewrite Nat.sub_0_r. reflexivity.
Qed.

Section PathSums.
  Variables (nc : nat) (pi : nat -> R) (A : nat -> nat -> R) (B : nat -> nat -> R).

  Fixpoint alpha (t j : nat) : R :=
    match t with
    | O => pi j * B 0%nat j
    | S t' => sumn nc (fun i => alpha t' i * A i j) * B (S t') j
    end.

  Fixpoint beta (t k i : nat) : R :=
    match k with
    | O => 1
    | S k' => sumn nc (fun j => A i j * B (S t) j * beta (S t) k' j)
    end.

  (** Weight of the continuation [z] from state [i] at time [t]. *)
  Fixpoint wsuf (t i : nat) (z : list nat) : R :=
    match z with
    | [] => 1
    | j :: z' => A i j * B (S t) j * wsuf (S t) j z'
    end.
  Definition wpath (z : list nat) : R :=
    match z with [] => 1 | s :: z' => pi s * B 0%nat s * wsuf 0 s z' end.

  Lemma wsuf_app t i z1 z2 :
    wsuf t i (z1 ++ z2) = wsuf t i z1 * wsuf (t + length z1) (last z1 i) z2.
  Proof.
    revert t i; induction z1 as [|s z1 IH]; intros t i.
    - simpl. rewrite Nat.add_0_r. ring.
    - rewrite last_cons. simpl app. cbn [wsuf length]. rewrite IH.
      replace (t + S (length z1))%nat with (S t + length z1)%nat by lia. ring.
  Qed.

  Lemma wpath_app z1 z2 : z1 <> [] ->
    wpath (z1 ++ z2) = wpath z1 * wsuf (length z1 - 1) (last z1 0%nat) z2.
  Proof.
    destruct z1 as [|s z1]; intros H; [contradiction|].
    rewrite last_cons. simpl app. unfold wpath. rewrite wsuf_app. cbn [length].
    replace (S (length z1) - 1)%nat with (length z1) by lia. simpl. ring.
  Qed.

  Lemma wsuf_prodn t i z :
    wsuf t i z = prodn (length z) (fun k => A (nth k (i :: z) 0%nat) (nth k z 0%nat)
                                            * B (t + S k)%nat (nth k z 0%nat)).
  Proof.
    revert t i; induction z as [|j z IH]; intros t i; [reflexivity|].
    cbn [wsuf length]. rewrite prodn_S_l, IH. cbn [nth].
    replace (t + 1)%nat with (S t) by lia. f_equal. apply prodn_ext; intros k _.
    replace (t + S (S k))%nat with (S t + S k)%nat by lia. reflexivity.
  Qed.

  Lemma joint_wpath T z : length z = S T -> joint (S T) pi A B z = wpath z.
  Proof.
    destruct z as [|s z]; intros H; [discriminate|]. injection H as H.
    unfold joint, wpath. rewrite wsuf_prodn, prodn_S_l, H. cbn [Nat.sub nth].
    rewrite Nat.sub_0_r. rewrite prodn_mult. cbn [Nat.add].
    replace (prodn T (fun t => A (nth t (s :: z) 0%nat) (nth t z 0%nat)))
      with (prodn T (fun k => A match k with 0%nat => s | S m => nth m z 0%nat end (nth k z 0%nat))).
    2:{ apply prodn_ext; intros [|k] _; reflexivity. }
    ring.
  Qed.

  Lemma sum_wsuf t k i : sumL (wsuf t i) (all_paths nc k) = beta t k i.
  Proof.
    revert t i; induction k as [|k IH]; intros t i; [simpl; ring|].
    rewrite sumL_paths_S. cbn [beta]. apply sumn_ext; intros j _. cbn [wsuf].
    rewrite sumL_scal_l, IH. reflexivity.
  Qed.

  Lemma path_nonnil T z : In z (all_paths nc (S T)) -> z <> [].
  Proof. intros H. apply in_all_paths in H as [H _]. intros ->. discriminate. Qed.

  Lemma path_length T z : In z (all_paths nc T) -> length z = T.
  Proof. intros H. apply in_all_paths in H as [H _]. exact H. Qed.

  Lemma prefix_sum t g :
    sumL (fun z => wpath z * g (last z 0%nat)) (all_paths nc (S t))
    = sumn nc (fun i => alpha t i * g i).
  Proof.
    revert g; induction t as [|t IH]; intros g.
    - rewrite sumL_paths_S. apply sumn_ext; intros s _. simpl. ring.
    - replace (S (S t)) with (S t + 1)%nat by lia. rewrite sumL_paths_app.
      rewrite (sumL_ext _ (fun z1 => wpath z1 *
                 (fun i => sumn nc (fun j => A i j * B (S t) j * g j)) (last z1 0%nat))).
      2:{ intros z1 Hz1. pose proof (path_nonnil _ _ Hz1) as Hnn.
          pose proof (path_length _ _ Hz1) as Hl.
          rewrite (sumL_paths_S nc 0), <- sumn_scal_l. apply sumn_ext; intros j _.
          cbn [all_paths sumL]. rewrite wpath_app by exact Hnn. rewrite last_last.
          rewrite Hl. simpl. rewrite Nat.sub_0_r. ring. }
      rewrite (IH (fun i => sumn nc (fun j => A i j * B (S t) j * g j))).
      rewrite (sumn_ext nc _ (fun i => sumn nc (fun j => alpha t i * A i j * B (S t) j * g j))).
      2:{ intros i _. rewrite <- sumn_scal_l. apply sumn_ext; intros; ring. }
      rewrite sumn_swap. apply sumn_ext; intros j _. cbn [alpha].
      rewrite <- !sumn_scal_r. reflexivity.
  Qed.

  Lemma mid_sum t k g :
    sumL (fun z => wpath z * g (nth t z 0%nat)) (all_paths nc (S t + k))
    = sumn nc (fun i => alpha t i * beta t k i * g i).
  Proof.
    rewrite sumL_paths_app.
    rewrite (sumL_ext _ (fun z1 => wpath z1 * (fun i => beta t k i * g i) (last z1 0%nat))).
    - rewrite (prefix_sum t (fun i => beta t k i * g i)). apply sumn_ext; intros; ring.
    - intros z1 Hz1. pose proof (path_nonnil _ _ Hz1) as Hnn.
      pose proof (path_length _ _ Hz1) as Hl.
      rewrite (sumL_ext _ (fun z2 => wpath z1 * g (last z1 0%nat) * wsuf t (last z1 0%nat) z2)).
      + rewrite sumL_scal_l, sum_wsuf. ring.
      + intros z2 _. rewrite wpath_app by exact Hnn. rewrite app_nth1 by lia.
        rewrite (last_nth z1), Hl. simpl. rewrite Nat.sub_0_r. ring.
  Qed.

  Lemma mid_pair_sum t k g :
    sumL (fun z => wpath z * g (nth t z 0%nat) (nth (S t) z 0%nat)) (all_paths nc (S t + S k))
    = sumn nc (fun i => sumn nc (fun j =>
        alpha t i * A i j * B (S t) j * beta (S t) k j * g i j)).
  Proof.
    rewrite sumL_paths_app.
    rewrite (sumL_ext _ (fun z1 => wpath z1 *
       (fun i => sumn nc (fun j => A i j * B (S t) j * beta (S t) k j * g i j)) (last z1 0%nat))).
    - rewrite (prefix_sum t (fun i => sumn nc (fun j => A i j * B (S t) j * beta (S t) k j * g i j))).
      apply sumn_ext; intros i _. rewrite <- sumn_scal_l. apply sumn_ext; intros; ring.
    - intros z1 Hz1. pose proof (path_nonnil _ _ Hz1) as Hnn.
      pose proof (path_length _ _ Hz1) as Hl.
      rewrite sumL_paths_S, <- sumn_scal_l. apply sumn_ext; intros j _.
      rewrite (sumL_ext _ (fun z2 => wpath z1 * A (last z1 0%nat) j * B (S t) j
                                     * g (last z1 0%nat) j * wsuf (S t) j z2)).
      + rewrite sumL_scal_l, sum_wsuf. ring.
      + intros z2 _. rewrite wpath_app by exact Hnn. rewrite app_nth1 by lia.
        rewrite app_nth2 by lia. rewrite Hl, Nat.sub_diag. cbn [nth wsuf].
        rewrite (last_nth z1), Hl. simpl. rewrite Nat.sub_0_r. ring.
  Qed.

  (** ** Specification quantities through the recursions. *)
  Lemma likelihood_alpha T : likelihood nc (S T) pi A B = sumn nc (alpha T).
  Proof.
    unfold likelihood. rewrite (sumL_ext _ (fun z => wpath z * (fun _ => 1) (last z 0%nat))).
    - rewrite (prefix_sum T (fun _ => 1)). apply sumn_ext; intros; ring.
    - intros z Hz. rewrite joint_wpath by (apply (path_length _ _ Hz)). ring.
  Qed.

  Lemma likelihood_alpha_beta T t : (t <= T)%nat ->
    likelihood nc (S T) pi A B = sumn nc (fun i => alpha t i * beta t (T - t) i).
  Proof.
    intros Ht. unfold likelihood.
    rewrite (sumL_ext _ (fun z => wpath z * (fun _ => 1) (nth t z 0%nat))).
    - replace (S T) with (S t + (T - t))%nat by lia.
      rewrite (mid_sum t (T - t) (fun _ => 1)). apply sumn_ext; intros; ring.
    - intros z Hz. rewrite joint_wpath by (apply (path_length _ _ Hz)). ring.
  Qed.

  Lemma marginal_alpha_beta T t i : (t <= T)%nat -> (i < nc)%nat ->
    marginal nc (S T) pi A B t i = alpha t i * beta t (T - t) i.
  Proof.
    intros Ht Hi. unfold marginal. rewrite sumL_filter.
    rewrite (sumL_ext _ (fun z => wpath z * (fun s => if Nat.eqb s i then 1 else 0) (nth t z 0%nat))).
    - replace (S T) with (S t + (T - t))%nat by lia.
      rewrite (mid_sum t (T - t) (fun s => if Nat.eqb s i then 1 else 0)).
      rewrite (sumn_single nc _ i Hi).
      + rewrite Nat.eqb_refl. ring.
      + intros j _ Hne. destruct (Nat.eqb_spec j i); [contradiction|ring].
    - intros z Hz. rewrite joint_wpath by (apply (path_length _ _ Hz)).
      destruct (Nat.eqb _ _); ring.
  Qed.

  Lemma pair_marginal_alpha_beta T t i j : (t < T)%nat -> (i < nc)%nat -> (j < nc)%nat ->
    pair_marginal nc (S T) pi A B t i j
    = alpha t i * A i j * B (S t) j * beta (S t) (T - S t) j.
  Proof.
    intros Ht Hi Hj. unfold pair_marginal. rewrite sumL_filter.
    set (g := fun a b => if Nat.eqb a i && Nat.eqb b j then 1 else 0).
    rewrite (sumL_ext _ (fun z => wpath z * g (nth t z 0%nat) (nth (S t) z 0%nat))).
    - replace (S T) with (S t + S (T - S t))%nat by lia.
      rewrite (mid_pair_sum t (T - S t) g).
      rewrite (sumn_single nc _ i Hi).
      + rewrite (sumn_single nc _ j Hj).
        * unfold g. rewrite !Nat.eqb_refl. simpl. ring.
        * intros b _ Hne. unfold g. destruct (Nat.eqb_spec b j); [contradiction|].
          rewrite andb_false_r. ring.
      + intros a _ Hne. apply sumn_zero; intros b _. unfold g.
        destruct (Nat.eqb_spec a i); [contradiction|]. simpl. ring.
    - intros z Hz. rewrite joint_wpath by (apply (path_length _ _ Hz)).
      unfold g. destruct (_ && _); ring.
  Qed.

  Lemma expected_trans_pairs T i j :
    expected_trans nc (S T) pi A B i j
    = sumn T (fun t => pair_marginal nc (S T) pi A B t i j) / likelihood nc (S T) pi A B.
  Proof.
    unfold expected_trans. f_equal.
    unfold n_trans. replace (S T - 1)%nat with T by lia.
    rewrite (sumL_ext _ (fun z => sumn T (fun t => joint (S T) pi A B z *
      (if Nat.eqb (nth t z 0%nat) i && Nat.eqb (nth (S t) z 0%nat) j then 1 else 0)))).
    2:{ intros z _. rewrite sumn_scal_l. reflexivity. }
    rewrite sumL_sumn_swap. apply sumn_ext; intros t _.
    unfold pair_marginal. rewrite sumL_filter. apply sumL_ext; intros z _.
    destruct (_ && _); ring.
  Qed.

  (** ** Signs. *)
  Hypothesis Hpi : nonneg1 nc pi.
  Hypothesis HA : nonneg2 nc nc A.

  Lemma alpha_nonneg T : nonneg2 (S T) nc B ->
    forall t j, (t <= T)%nat -> (j < nc)%nat -> 0 <= alpha t j.
  Proof.
    intros HB. induction t as [|t IH]; intros j Ht Hj; simpl.
    - apply Rmult_le_pos; [apply Hpi; lia|apply HB; lia].
    - apply Rmult_le_pos; [|apply HB; lia].
      apply sumn_nonneg; intros i Hi. apply Rmult_le_pos; [apply IH; lia|apply HA; lia].
  Qed.

  Lemma beta_nonneg T : nonneg2 (S T) nc B ->
    forall k t i, (t + k <= T)%nat -> (i < nc)%nat -> 0 <= beta t k i.
  Proof.
    intros HB. induction k as [|k IH]; intros t i Ht Hi; simpl; [lra|].
    apply sumn_nonneg; intros j Hj. repeat apply Rmult_le_pos.
    - apply HA; lia.
    - apply HB; lia.
    - apply IH; lia.
  Qed.

  Lemma joint_nonneg T z : nonneg2 T nc B -> (0 < T)%nat -> is_path nc T z ->
    0 <= joint T pi A B z.
  Proof.
    intros HB HT [Hl Hz]. unfold joint. repeat apply Rmult_le_pos.
    - apply Hpi. apply Hz; lia.
    - apply prodn_nonneg; intros t Ht. apply HA; apply Hz; lia.
    - apply prodn_nonneg; intros t Ht. apply HB; [lia|apply Hz; lia].
  Qed.

  Lemma likelihood_nonneg T : nonneg2 T nc B -> (0 < T)%nat ->
    0 <= likelihood nc T pi A B.
  Proof.
    intros HB HT. apply sumL_nonneg; intros z Hz. apply in_all_paths in Hz.
    apply joint_nonneg; assumption.
  Qed.

  (** Vanishing of a prefix makes all longer sums vanish. *)
  Lemma alpha_sum_zero T t : nonneg2 (S T) nc B -> (t < T)%nat ->
    sumn nc (alpha t) = 0 -> sumn nc (alpha (S t)) = 0.
  Proof.
    intros HB Ht H0. apply sumn_zero; intros j Hj. simpl.
    rewrite sumn_zero; [ring|]. intros i Hi.
    rewrite (sumn_eq0 nc (alpha t)); try assumption; [ring|].
    intros; apply (alpha_nonneg T); try assumption; lia.
  Qed.
End PathSums.
