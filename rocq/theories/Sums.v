(** * Lemmas on finite sums and products. *)
From Verif Require Export Spec.

Lemma sumn_ext n f g : (forall i, (i < n)%nat -> f i = g i) -> sumn n f = sumn n g.
Proof.
  induction n as [|n IH]; intros H; simpl; [reflexivity|].
  rewrite IH by (intros; apply H; lia). rewrite H by lia. reflexivity.
Qed.

Lemma prodn_ext n f g : (forall i, (i < n)%nat -> f i = g i) -> prodn n f = prodn n g.
Proof.
  induction n as [|n IH]; intros H; simpl; [reflexivity|].
  rewrite IH by (intros; apply H; lia). rewrite H by lia. reflexivity.
Qed.

Lemma sumn_0 n : sumn n (fun _ => 0) = 0.
Proof. induction n as [|n IH]; simpl; [reflexivity|]. rewrite IH; ring. Qed.

Lemma sumn_zero n f : (forall i, (i < n)%nat -> f i = 0) -> sumn n f = 0.
Proof. intros H. rewrite (sumn_ext n f (fun _ => 0)) by exact H. apply sumn_0. Qed.

Lemma sumn_const n c : sumn n (fun _ => c) = INR n * c.
Proof. induction n as [|n IH]; [simpl; ring|]. rewrite S_INR. simpl sumn. rewrite IH; ring. Qed.

Lemma sumn_plus n f g : sumn n (fun i => f i + g i) = sumn n f + sumn n g.
Proof. induction n as [|n IH]; simpl; [ring|]. rewrite IH; ring. Qed.

Lemma sumn_minus n f g : sumn n (fun i => f i - g i) = sumn n f - sumn n g.
Proof. induction n as [|n IH]; simpl; [ring|]. rewrite IH; ring. Qed.

Lemma sumn_scal_l n c f : sumn n (fun i => c * f i) = c * sumn n f.
Proof. induction n as [|n IH]; simpl; [ring|]. rewrite IH; ring. Qed.

Lemma sumn_scal_r n c f : sumn n (fun i => f i * c) = sumn n f * c.
Proof. induction n as [|n IH]; simpl; [ring|]. rewrite IH; ring. Qed.

Lemma sumn_div n c f : sumn n (fun i => f i / c) = sumn n f / c.
Proof. unfold Rdiv. apply sumn_scal_r. Qed.

Lemma sumn_swap n m f :
  sumn n (fun i => sumn m (fun j => f i j)) = sumn m (fun j => sumn n (fun i => f i j)).
Proof.
  induction n as [|n IH]; simpl.
  - symmetry. apply sumn_0.
  - rewrite IH, <- sumn_plus. reflexivity.
Qed.

Lemma sumn_le n f g : (forall i, (i < n)%nat -> f i <= g i) -> sumn n f <= sumn n g.
Proof.
  induction n as [|n IH]; intros H; simpl; [lra|].
  assert (sumn n f <= sumn n g) by (apply IH; intros; apply H; lia).
  assert (f n <= g n) by (apply H; lia). lra.
Qed.

Lemma sumn_nonneg n f : (forall i, (i < n)%nat -> 0 <= f i) -> 0 <= sumn n f.
Proof. intros H. rewrite <- (sumn_0 n). apply sumn_le; exact H. Qed.

Lemma sumn_ge_term n f k :
  (forall i, (i < n)%nat -> 0 <= f i) -> (k < n)%nat -> f k <= sumn n f.
Proof.
  induction n as [|n IH]; intros H Hk; [lia|]. simpl.
  destruct (Nat.eq_dec k n) as [->|Hne].
  - assert (0 <= sumn n f) by (apply sumn_nonneg; intros; apply H; lia). lra.
  - assert (f k <= sumn n f) by (apply IH; [intros; apply H; lia|lia]).
    assert (0 <= f n) by (apply H; lia). lra.
Qed.

Lemma sumn_pos n f k :
  (forall i, (i < n)%nat -> 0 <= f i) -> (k < n)%nat -> 0 < f k -> 0 < sumn n f.
Proof. intros H Hk Hp. pose proof (sumn_ge_term n f k H Hk). lra. Qed.

Lemma sumn_eq0 n f :
  (forall i, (i < n)%nat -> 0 <= f i) -> sumn n f = 0 ->
  forall i, (i < n)%nat -> f i = 0.
Proof.
  intros H Hs i Hi. pose proof (sumn_ge_term n f i H Hi). pose proof (H i Hi). lra.
Qed.

Lemma sumn_pos_ex n f : 0 < sumn n f -> exists k, (k < n)%nat /\ 0 < f k.
Proof.
  induction n as [|n IH]; simpl; intros H; [lra|].
  destruct (Rlt_dec 0 (f n)) as [Hp|Hp]; [exists n; split; [lia|exact Hp]|].
  destruct IH as [k [Hk Hfk]]; [lra|]. exists k; split; [lia|exact Hfk].
Qed.

(** A sum with a single non-zero term. *)
Lemma sumn_single n f k :
  (k < n)%nat -> (forall i, (i < n)%nat -> i <> k -> f i = 0) -> sumn n f = f k.
Proof.
  induction n as [|n IH]; intros Hk H; [lia|]. simpl.
  destruct (Nat.eq_dec k n) as [->|Hne].
  - rewrite sumn_zero by (intros i Hi; apply H; lia). ring.
  - rewrite IH by (try lia; intros i Hi Hn; apply H; lia). rewrite (H n) by lia. ring.
Qed.

Lemma sumn_if_eq n f k :
  (k < n)%nat -> sumn n (fun i => if Nat.eqb i k then f i else 0) = f k.
Proof.
  intros Hk. rewrite (sumn_single _ _ k Hk).
  - rewrite Nat.eqb_refl. reflexivity.
  - intros i Hi Hne. destruct (Nat.eqb_spec i k); [contradiction|reflexivity].
Qed.

(** First-element decomposition. *)
Lemma sumn_S_l n f : sumn (S n) f = f 0%nat + sumn n (fun i => f (S i)).
Proof.
  induction n as [|n IH]; [simpl; ring|].
  change (sumn (S (S n)) f) with (sumn (S n) f + f (S n)). rewrite IH. simpl. ring.
Qed.

Lemma prodn_S_l n f : prodn (S n) f = f 0%nat * prodn n (fun i => f (S i)).
Proof.
  induction n as [|n IH]; [simpl; ring|].
  change (prodn (S (S n)) f) with (prodn (S n) f * f (S n)). rewrite IH. simpl. ring.
Qed.

Lemma sumn_add n m f : sumn (n + m) f = sumn n f + sumn m (fun i => f (n + i)%nat).
Proof.
  induction m as [|m IH]; [rewrite Nat.add_0_r; simpl; ring|].
  rewrite Nat.add_succ_r. simpl. rewrite IH. ring.
Qed.

Lemma prodn_add n m f : prodn (n + m) f = prodn n f * prodn m (fun i => f (n + i)%nat).
Proof.
  induction m as [|m IH]; [rewrite Nat.add_0_r; simpl; ring|].
  rewrite Nat.add_succ_r. simpl. rewrite IH. ring.
Qed.

Lemma prodn_nonneg n f : (forall i, (i < n)%nat -> 0 <= f i) -> 0 <= prodn n f.
Proof.
  induction n as [|n IH]; intros H; simpl; [lra|].
  apply Rmult_le_pos; [apply IH; intros; apply H; lia|apply H; lia].
Qed.

Lemma prodn_pos n f : (forall i, (i < n)%nat -> 0 < f i) -> 0 < prodn n f.
Proof.
  induction n as [|n IH]; intros H; simpl; [lra|].
  apply Rmult_lt_0_compat; [apply IH; intros; apply H; lia|apply H; lia].
Qed.

Lemma prodn_eq0 n f k : (k < n)%nat -> f k = 0 -> prodn n f = 0.
Proof.
  induction n as [|n IH]; intros Hk H; [lia|]. simpl.
  destruct (Nat.eq_dec k n) as [->|]; [rewrite H; ring|].
  rewrite IH by (try assumption; lia). ring.
Qed.

Lemma prodn_pos_inv n f :
  (forall i, (i < n)%nat -> 0 <= f i) -> 0 < prodn n f -> forall i, (i < n)%nat -> 0 < f i.
Proof.
  intros H Hp i Hi. destruct (H i Hi) as [Hlt|Heq]; [exact Hlt|].
  rewrite (prodn_eq0 n f i Hi) in Hp by (symmetry; exact Heq). lra.
Qed.

Lemma prodn_mult n f g : prodn n (fun i => f i * g i) = prodn n f * prodn n g.
Proof. induction n as [|n IH]; simpl; [ring|]. rewrite IH; ring. Qed.

(** ** Sums over lists. *)
Section SumL.
  Context {X : Type}.
  Implicit Types (f g : X -> R) (l : list X).

  Lemma sumL_ext f g l : (forall x, In x l -> f x = g x) -> sumL f l = sumL g l.
  Proof.
    induction l as [|x l IH]; intros H; simpl; [reflexivity|].
    rewrite H by (left; reflexivity). rewrite IH; [reflexivity|].
    intros; apply H; right; assumption.
  Qed.

  Lemma sumL_app f l1 l2 : sumL f (l1 ++ l2) = sumL f l1 + sumL f l2.
  Proof. induction l1 as [|x l IH]; simpl; [ring|]. rewrite IH; ring. Qed.

  Lemma sumL_0 l : sumL (fun _ => 0) l = 0.
  Proof. induction l as [|x l IH]; simpl; [reflexivity|]. rewrite IH; ring. Qed.

  Lemma sumL_zero f l : (forall x, In x l -> f x = 0) -> sumL f l = 0.
  Proof. intros H. rewrite (sumL_ext f (fun _ => 0)) by exact H. apply sumL_0. Qed.

  Lemma sumL_plus f g l : sumL (fun x => f x + g x) l = sumL f l + sumL g l.
  Proof. induction l as [|x l IH]; simpl; [ring|]. rewrite IH; ring. Qed.

  Lemma sumL_minus f g l : sumL (fun x => f x - g x) l = sumL f l - sumL g l.
  Proof. induction l as [|x l IH]; simpl; [ring|]. rewrite IH; ring. Qed.

  Lemma sumL_scal_l c f l : sumL (fun x => c * f x) l = c * sumL f l.
  Proof. induction l as [|x l IH]; simpl; [ring|]. rewrite IH; ring. Qed.

  Lemma sumL_scal_r c f l : sumL (fun x => f x * c) l = sumL f l * c.
  Proof. induction l as [|x l IH]; simpl; [ring|]. rewrite IH; ring. Qed.

  Lemma sumL_div c f l : sumL (fun x => f x / c) l = sumL f l / c.
  Proof. unfold Rdiv. apply sumL_scal_r. Qed.

  Lemma sumL_const c l : sumL (fun _ => c) l = INR (length l) * c.
  Proof.
    induction l as [|x l IH]; [simpl; ring|].
    change (length (x :: l)) with (S (length l)). rewrite S_INR. simpl sumL. rewrite IH; ring.
  Qed.

  Lemma sumL_le f g l : (forall x, In x l -> f x <= g x) -> sumL f l <= sumL g l.
  Proof.
    induction l as [|x l IH]; intros H; simpl; [lra|].
    assert (f x <= g x) by (apply H; left; reflexivity).
    assert (sumL f l <= sumL g l) by (apply IH; intros; apply H; right; assumption). lra.
  Qed.

  Lemma sumL_nonneg f l : (forall x, In x l -> 0 <= f x) -> 0 <= sumL f l.
  Proof. intros H. rewrite <- (sumL_0 l). apply sumL_le; exact H. Qed.

  Lemma sumL_ge_term f l x :
    (forall y, In y l -> 0 <= f y) -> In x l -> f x <= sumL f l.
  Proof.
    induction l as [|a l IH]; intros H Hin; [destruct Hin|]. simpl.
    assert (0 <= f a) by (apply H; left; reflexivity).
    assert (0 <= sumL f l) by (apply sumL_nonneg; intros; apply H; right; assumption).
    destruct Hin as [->|Hin]; [lra|].
    assert (f x <= sumL f l) by (apply IH; [intros; apply H; right; assumption|exact Hin]). lra.
  Qed.

  Lemma sumL_eq0 f l :
    (forall y, In y l -> 0 <= f y) -> sumL f l = 0 -> forall x, In x l -> f x = 0.
  Proof.
    intros H Hs x Hin. pose proof (sumL_ge_term f l x H Hin). pose proof (H x Hin). lra.
  Qed.

  Lemma sumL_pos_ex f l : 0 < sumL f l -> exists x, In x l /\ 0 < f x.
  Proof.
    induction l as [|a l IH]; simpl; intros H; [lra|].
    destruct (Rlt_dec 0 (f a)) as [Hp|Hp]; [exists a; auto|].
    destruct IH as [k [Hk Hfk]]; [lra|]. exists k; auto.
  Qed.

  Lemma sumL_filter f (p : X -> bool) l :
    sumL f (filter p l) = sumL (fun x => if p x then f x else 0) l.
  Proof.
    induction l as [|x l IH]; simpl; [reflexivity|].
    destruct (p x); simpl; rewrite IH; ring.
  Qed.
End SumL.

Lemma sumL_map {X Y} (f : Y -> R) (h : X -> Y) l :
  sumL f (map h l) = sumL (fun x => f (h x)) l.
Proof. induction l as [|x l IH]; simpl; [reflexivity|]. rewrite IH; reflexivity. Qed.

Lemma sumL_flat_map {X Y} (f : Y -> R) (h : X -> list Y) l :
  sumL f (flat_map h l) = sumL (fun x => sumL f (h x)) l.
Proof.
  induction l as [|x l IH]; simpl; [reflexivity|]. rewrite sumL_app, IH; reflexivity.
Qed.

Lemma sumL_seq f s n : sumL f (seq s n) = sumn n (fun i => f (s + i)%nat).
Proof.
  revert s; induction n as [|n IH]; intros s; [reflexivity|].
  cbn [seq sumL]. rewrite IH, sumn_S_l. rewrite Nat.add_0_r. f_equal.
  apply sumn_ext; intros i _. f_equal; lia.
Qed.

Lemma sumL_seq0 f n : sumL f (seq 0 n) = sumn n f.
Proof. rewrite sumL_seq. apply sumn_ext; intros; f_equal; lia. Qed.

Lemma sumL_sumn_swap {X} (l : list X) n (f : X -> nat -> R) :
  sumL (fun x => sumn n (f x)) l = sumn n (fun i => sumL (fun x => f x i) l).
Proof.
  induction l as [|x l IH]; simpl.
  - symmetry; apply sumn_0.
  - rewrite IH, <- sumn_plus. reflexivity.
Qed.

Lemma sumL_swap {X Y} (l : list X) (l' : list Y) (f : X -> Y -> R) :
  sumL (fun x => sumL (f x) l') l = sumL (fun y => sumL (fun x => f x y) l) l'.
Proof.
  induction l as [|x l IH]; simpl.
  - symmetry; apply sumL_0.
  - rewrite IH, <- sumL_plus. reflexivity.
Qed.

(** ** State sequences. *)
Lemma in_all_paths nc T z : In z (all_paths nc T) <-> is_path nc T z.
Proof.
  unfold is_path. revert z; induction T as [|T IH]; intros z; simpl.
  - split.
    + intros [<-|[]]. split; [reflexivity|intros; lia].
    + intros [H _]. left. destruct z; [reflexivity|discriminate].
  - rewrite in_flat_map. split.
    + intros [s [Hs Hz]]. apply in_map_iff in Hz as [z' [<- Hz']].
      apply IH in Hz' as [Hl Hb]. apply in_seq in Hs. split; [simpl; lia|].
      intros [|t] Ht; simpl; [lia|apply Hb; lia].
    + intros [Hl Hb]. destruct z as [|s z]; [discriminate|].
      exists s; split.
      * apply in_seq. specialize (Hb 0%nat ltac:(lia)). simpl in Hb. lia.
      * apply in_map_iff. exists z; split; [reflexivity|]. apply IH.
        split; [simpl in Hl; lia|]. intros t Ht. apply (Hb (S t)); lia.
Qed.

Lemma sumL_paths_S nc T f :
  sumL f (all_paths nc (S T)) = sumn nc (fun s => sumL (fun z => f (s :: z)) (all_paths nc T)).
Proof.
  simpl. rewrite sumL_flat_map, sumL_seq0. apply sumn_ext; intros s _. apply sumL_map.
Qed.

Lemma sumL_paths_app nc a b f :
  sumL f (all_paths nc (a + b)) =
  sumL (fun z1 => sumL (fun z2 => f (z1 ++ z2)) (all_paths nc b)) (all_paths nc a).
Proof.
  revert f; induction a as [|a IH]; intros f.
  - simpl. rewrite Rplus_0_r. reflexivity.
  - cbn [Nat.add]. rewrite !sumL_paths_S. apply sumn_ext; intros s _. rewrite IH. reflexivity.
Qed.

Lemma length_all_paths nc T : length (all_paths nc T) = (nc ^ T)%nat.
Proof.
  induction T as [|T IH]; [reflexivity|]. simpl.
  rewrite <- IH. generalize (all_paths nc T) as l; intros l.
  assert (H : forall s n, length (flat_map (fun s0 => map (cons s0) l) (seq s n)) = (n * length l)%nat).
  { intros s n; revert s; induction n as [|n IHn]; intros s; [reflexivity|].
    cbn [seq flat_map]. rewrite app_length, map_length, IHn. simpl. reflexivity. }
  apply H.
Qed.
