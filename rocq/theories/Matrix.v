(** * Determinants and triangular matrices. *)
From Verif Require Export Spec_mat Sums.

Lemma sumn_two n f r : (S r < n)%nat -> (forall i, (i < n)%nat -> i <> r -> i <> S r -> f i = 0) ->
  sumn n f = f r + f (S r).
Proof.
  intros Hr H.
  rewrite (sumn_ext n f (fun i => (if Nat.eqb i r then f i else 0) + (if Nat.eqb i (S r) then f i else 0))).
  - rewrite sumn_plus, !sumn_if_eq by lia. reflexivity.
  - intros i Hi. destruct (Nat.eqb_spec i r), (Nat.eqb_spec i (S r)); try lia; subst; try ring.
    rewrite (H i); auto. ring.
Qed.

Lemma det_ext n : forall M N, (forall i j, (i < n)%nat -> (j < n)%nat -> M i j = N i j) -> det n M = det n N.
Proof.
  induction n as [|n IH]; intros M N H; [reflexivity|]. cbn [det]. apply sumn_ext. intros i Hi.
  rewrite (H i 0%nat) by lia. f_equal. apply IH. intros r c Hr Hc. unfold minor.
  destruct (Nat.ltb_spec r i); apply H; lia.
Qed.

Definition setrow (M : nat -> nat -> R) (r : nat) (u : nat -> R) : nat -> nat -> R :=
  fun i j => if Nat.eqb i r then u j else M i j.

(** The position of row [r] after removing row [i <> r]. *)
Definition shift_row (r i : nat) : nat := if Nat.ltb r i then r else (r - 1)%nat.

Lemma minor_setrow_same M r u : forall p q, minor (setrow M r u) r p q = minor M r p q.
Proof. intros p q. unfold minor, setrow. destruct (Nat.ltb_spec p r);
    repeat match goal with |- context [Nat.eqb ?a ?b] => destruct (Nat.eqb_spec a b) end; try reflexivity; lia. Qed.
Lemma minor_setrow_other M r u i : i <> r ->
  forall p q, minor (setrow M r u) i p q = setrow (minor M i) (shift_row r i) (fun j => u (S j)) p q.
Proof.
  intros Hn p q. unfold minor, setrow, shift_row.
  destruct (Nat.ltb_spec p i), (Nat.ltb_spec r i);
    repeat match goal with |- context [Nat.eqb ?a ?b] => destruct (Nat.eqb_spec a b) end; try reflexivity; lia.
Qed.

Lemma det_row_lin n : forall M r a b u v, (r < n)%nat ->
  det n (setrow M r (fun j => a * u j + b * v j)) = a * det n (setrow M r u) + b * det n (setrow M r v).
Proof.
  induction n as [|n IH]; intros M r a b u v Hr; [lia|]. cbn [det].
  rewrite <- !sumn_scal_l, <- sumn_plus. apply sumn_ext. intros i Hi.
  destruct (Nat.eq_dec i r) as [->|Hn].
  - assert (E : forall w, det n (minor (setrow M r w) r) = det n (minor M r))
      by (intros w; apply det_ext; intros; apply minor_setrow_same).
    rewrite !E.
    unfold setrow. rewrite Nat.eqb_refl. ring.
  - assert (E0 : forall w, det n (minor (setrow M r w) i) = det n (setrow (minor M i) (shift_row r i) (fun j => w (S j))))
      by (intros w; apply det_ext; intros; apply minor_setrow_other; exact Hn).
    rewrite !E0.
    rewrite (IH (minor M i) (shift_row r i) a b (fun j => u (S j)) (fun j => v (S j)))
      by (unfold shift_row; destruct (Nat.ltb_spec r i); lia).
    assert (E : forall w, setrow M r w i 0%nat = M i 0%nat)
      by (intros w; unfold setrow; destruct (Nat.eqb_spec i r); [contradiction|reflexivity]).
    rewrite !E. ring.
Qed.

Lemma det_adj_eq n : forall M r, (S r < n)%nat -> (forall j, (j < n)%nat -> M r j = M (S r) j) -> det n M = 0.
Proof.
  induction n as [|n IH]; intros M r Hr H; [lia|]. cbn [det].
  rewrite (sumn_two (S n) _ r); [|lia|].
  2:{ intros i Hi H1 H2. rewrite (IH (minor M i) (shift_row r i)).
      - ring.
      - unfold shift_row. destruct (Nat.ltb_spec r i); lia.
      - intros j Hj. unfold minor, shift_row. destruct (Nat.ltb_spec r i);
          repeat match goal with |- context [Nat.ltb ?a ?b] => destruct (Nat.ltb_spec a b) end; try lia.
        + apply H. lia.
        + replace (S (r - 1)) with r by lia. apply H. lia. }
  rewrite (det_ext n (minor M (S r)) (minor M r)).
  - rewrite <- (H 0%nat) by lia. cbn [pow]. ring.
  - intros i j Hi Hj. unfold minor.
    destruct (Nat.ltb_spec i (S r)), (Nat.ltb_spec i r); try reflexivity; try lia.
    replace i with r by lia. apply H. lia.
Qed.

Definition swap_adj (M : nat -> nat -> R) (r : nat) : nat -> nat -> R :=
  fun i j => if Nat.eqb i r then M (S r) j else if Nat.eqb i (S r) then M r j else M i j.

Lemma det_swap_adj n M r : (S r < n)%nat -> det n (swap_adj M r) = - det n M.
Proof.
  intros Hr. set (u := M r). set (v := M (S r)).
  (* D a b: row r := a, row r+1 := b *)
  set (D := fun a b => det n (setrow (setrow M (S r) b) r a)).
  assert (Hl : forall a a' b, D (fun j => 1 * a j + 1 * a' j) b = D a b + D a' b)
    by (intros; unfold D; rewrite det_row_lin by lia; ring).
  assert (Hr' : forall a b b', D a (fun j => 1 * b j + 1 * b' j) = D a b + D a b').
  { intros. unfold D.
    assert (E : forall c, det n (setrow (setrow M (S r) c) r a) = det n (setrow (setrow M r a) (S r) c)).
    { intros c. apply det_ext. intros i j Hi Hj. unfold setrow.
      destruct (Nat.eqb_spec i r), (Nat.eqb_spec i (S r)); try reflexivity. lia. }
    rewrite !E. rewrite det_row_lin by lia. ring. }
  assert (H0 : forall a, D a a = 0).
  { intros a. unfold D. apply (det_adj_eq n _ r Hr). intros j Hj. unfold setrow. rewrite !Nat.eqb_refl.
    destruct (Nat.eqb_spec (S r) r); [lia|]. reflexivity. }
  assert (E1 : det n M = D u v).
  { unfold D. apply det_ext. intros i j Hi Hj. unfold setrow, u, v.
    destruct (Nat.eqb_spec i r), (Nat.eqb_spec i (S r)); subst; try reflexivity. }
  assert (E2 : det n (swap_adj M r) = D v u).
  { unfold D. apply det_ext. intros i j Hi Hj. unfold setrow, swap_adj, u, v.
    destruct (Nat.eqb_spec i r), (Nat.eqb_spec i (S r)); subst; try reflexivity. }
  rewrite E1, E2. pose proof (H0 (fun j => 1 * u j + 1 * v j)) as H. rewrite Hl, !Hr', !H0 in H. lra.
Qed.

Lemma det_eq_rows n d : forall M r s, s = (r + S d)%nat -> (s < n)%nat ->
  (forall j, (j < n)%nat -> M r j = M s j) -> det n M = 0.
Proof.
  induction d as [|d IH]; intros M r s Hs Hn H.
  - apply (det_adj_eq n M r); [lia|]. intros j Hj. rewrite H by exact Hj. f_equal. lia.
  - pose proof (det_swap_adj n M (s - 1)) as E. specialize (E ltac:(lia)).
    rewrite (IH (swap_adj M (s - 1)) r (s - 1)%nat) in E; [lra|lia|lia|].
    intros j Hj. unfold swap_adj. rewrite Nat.eqb_refl.
    destruct (Nat.eqb_spec r (s - 1)); [lia|]. destruct (Nat.eqb_spec r (S (s - 1))); [lia|].
    rewrite H by exact Hj. f_equal. lia.
Qed.

Lemma setrow_id M r i j : setrow M r (M r) i j = M i j.
Proof. unfold setrow. destruct (Nat.eqb_spec i r); subst; reflexivity. Qed.

(** Row [r] replaced by a combination of the rows [< k], [k <= r], plus [c]
    times itself. *)
Lemma det_row_comb n M r c (a : nat -> R) k : (r < n)%nat -> (k <= r)%nat ->
  det n (setrow M r (fun j => c * M r j + sumn k (fun q => a q * M q j))) = c * det n M.
Proof.
  intros Hr. induction k as [|k IH]; intros Hk.
  - rewrite (det_ext n _ (setrow M r (fun j => c * M r j + 0 * M r j)))
      by (intros i j Hi Hj; unfold setrow; destruct (Nat.eqb i r); [cbn [sumn]; ring|reflexivity]).
    rewrite det_row_lin by exact Hr. rewrite !(det_ext n (setrow M r (M r)) M) by (intros; apply setrow_id). ring.
  - rewrite (det_ext n _ (setrow M r (fun j => 1 * (c * M r j + sumn k (fun q => a q * M q j)) + a k * M k j)))
      by (intros i j Hi Hj; unfold setrow; destruct (Nat.eqb i r); [cbn [sumn]; ring|reflexivity]).
    rewrite (det_row_lin n M r 1 (a k) (fun j => c * M r j + sumn k (fun q => a q * M q j)) (fun j => M k j)) by exact Hr.
    rewrite IH by lia.
    rewrite (det_eq_rows n (r - k - 1) (setrow M r (fun j => M k j)) k r); [ring|lia|lia|].
    intros j Hj. unfold setrow. rewrite Nat.eqb_refl. destruct (Nat.eqb_spec k r); [lia|reflexivity].
Qed.

(** Lower-triangular factors come out. *)
Lemma det_lower_mul n (L M : nat -> nat -> R) : (forall i q, (i < q)%nat -> (q < n)%nat -> L i q = 0) ->
  det n (fun i j => sumn n (fun q => L i q * M q j)) = prodn n (fun i => L i i) * det n M.
Proof.
  intros HL.
  (* rows >= k already multiplied *)
  set (N := fun k i j => if Nat.ltb i k then M i j else sumn n (fun q => L i q * M q j)).
  assert (Hs : forall i j, (i < n)%nat -> sumn n (fun q => L i q * M q j) = L i i * M i j + sumn i (fun q => L i q * M q j)).
  { intros i j Hi. replace n with (i + S (n - i - 1))%nat by lia. rewrite sumn_add, sumn_S_l.
    rewrite (sumn_zero _ (fun i0 => L i (i + S i0)%nat * M (i + S i0)%nat j)).
    - rewrite Nat.add_0_r. ring.
    - intros q Hq. rewrite HL by lia. ring. }
  assert (Hk : forall k, (k <= n)%nat -> det n (N 0%nat) * 1 = prodn k (fun i => L i i) * det n (N k)).
  { induction k as [|k IH]; intros Hk; [cbn [prodn]; ring|]. rewrite IH by lia. cbn [prodn].
    rewrite (det_ext n (N k) (setrow (N (S k)) k (fun j => L k k * N (S k) k j + sumn k (fun q => L k q * N (S k) q j)))).
    - rewrite det_row_comb by lia. ring.
    - intros i j Hi Hj. unfold setrow, N. destruct (Nat.eqb_spec i k) as [->|Hn].
      + rewrite Nat.ltb_irrefl. destruct (Nat.ltb_spec k (S k)); [|lia]. rewrite Hs by lia. f_equal.
        apply sumn_ext. intros q Hq. destruct (Nat.ltb_spec q (S k)); [reflexivity|lia].
      + destruct (Nat.ltb_spec i k), (Nat.ltb_spec i (S k)); try reflexivity; lia. }
  specialize (Hk n ltac:(lia)). rewrite Rmult_1_r in Hk.
  transitivity (det n (N 0%nat)); [apply det_ext; reflexivity|].
  rewrite Hk. f_equal. apply det_ext. intros i j Hi Hj. unfold N. destruct (Nat.ltb_spec i n); [reflexivity|lia].
Qed.

Lemma det_upper n : forall M, (forall i j, (j < i)%nat -> (i < n)%nat -> M i j = 0) ->
  det n M = prodn n (fun i => M i i).
Proof.
  induction n as [|n IH]; intros M H; [reflexivity|]. cbn [det].
  rewrite (sumn_single (S n) _ 0%nat); [|lia|intros i Hi Hn; rewrite (H i 0%nat) by lia; ring].
  rewrite (IH (minor M 0%nat)) by (intros i j Hj Hi; unfold minor; apply H; destruct (Nat.ltb_spec i 0); lia).
  rewrite prodn_S_l. unfold minor. cbn [pow]. rewrite Rmult_1_l. reflexivity.
Qed.

Definition lower (n : nat) (L : nat -> nat -> R) : Prop := forall i q, (i < q)%nat -> (q < n)%nat -> L i q = 0.

Lemma det_chol n S L : lower n L ->
  (forall i j, (i < n)%nat -> (j < n)%nat -> S i j = sumn n (fun q => L i q * L j q)) ->
  det n S = prodn n (fun i => L i i) * prodn n (fun i => L i i).
Proof.
  intros HL HS. set (U := fun q j => L j q).
  rewrite (det_ext n S (fun i j => sumn n (fun q => L i q * U q j)) HS).
  rewrite (det_lower_mul n L U HL). f_equal.
  rewrite (det_upper n U) by (intros i j Hj Hi; apply HL; lia). reflexivity.
Qed.

Lemma lower_sum n L i (f : nat -> R) : lower n L -> (i < n)%nat ->
  sumn n (fun q => L i q * f q) = sumn i (fun q => L i q * f q) + L i i * f i.
Proof.
  intros HL Hi. replace n with (i + Datatypes.S (n - i - 1))%nat by lia. rewrite sumn_add, sumn_S_l.
  rewrite (sumn_zero _ (fun i0 => L i (i + Datatypes.S i0)%nat * f (i + Datatypes.S i0)%nat)).
  - rewrite Nat.add_0_r. ring.
  - intros q Hq. rewrite HL by lia. ring.
Qed.

(** Forward substitution has one solution. *)
Lemma lower_inj n L y z : lower n L -> (forall i, (i < n)%nat -> L i i <> 0) ->
  (forall i, (i < n)%nat -> sumn n (fun q => L i q * y q) = sumn n (fun q => L i q * z q)) ->
  forall i, (i < n)%nat -> y i = z i.
Proof.
  intros HL Hd H i. induction i as [i IH] using lt_wf_ind. intros Hi.
  specialize (H i Hi). rewrite (lower_sum n L i y HL Hi), (lower_sum n L i z HL Hi) in H.
  rewrite (sumn_ext i (fun q => L i q * y q) (fun q => L i q * z q)) in H by (intros q Hq; rewrite (IH q) by lia; reflexivity).
  specialize (Hd i Hi). apply (Rmult_eq_reg_l (L i i)); [lra|exact Hd].
Qed.

(** Back substitution: [L' v = 0] below [j] with [v j = 1]. *)
Lemma back_subst j L : (forall i, (i < j)%nat -> L i i <> 0) ->
  exists v, v j = 1 /\ (forall i, (j < i)%nat -> v i = 0)
    /\ forall q, (q < j)%nat -> sumn (Datatypes.S j) (fun i => if Nat.ltb i q then 0 else L i q * v i) = 0.
Proof.
  intros Hd.
  assert (H : forall k, (k <= j)%nat -> exists v, v j = 1 /\ (forall i, (j < i)%nat -> v i = 0)
    /\ forall q, (j - k <= q)%nat -> (q < j)%nat ->
         sumn (Datatypes.S j) (fun i => if Nat.ltb i q then 0 else L i q * v i) = 0).
  { induction k as [|k IH]; intros Hk.
    - exists (fun i => if Nat.eqb i j then 1 else 0). rewrite Nat.eqb_refl. split; [reflexivity|]. split.
      + intros i Hi. destruct (Nat.eqb_spec i j); [lia|reflexivity].
      + intros q H1 H2. lia.
    - destruct (IH ltac:(lia)) as (v & V1 & V2 & V3). set (p := (j - Datatypes.S k)%nat).
      set (r := sumn (Datatypes.S j) (fun i => if Nat.leb i p then 0 else L i p * v i)).
      exists (fun i => if Nat.eqb i p then - r / L p p else v i).
      split; [destruct (Nat.eqb_spec j p); [lia|exact V1]|].
      split; [intros i Hi; destruct (Nat.eqb_spec i p); [lia|apply V2; exact Hi]|].
      intros q H1 H2. destruct (Nat.eq_dec q p) as [->|Hn].
      + rewrite (sumn_ext (Datatypes.S j) _ (fun i => (if Nat.eqb i p then L p p * (- r / L p p) else 0)
                  + (if Nat.leb i p then 0 else L i p * v i))).
        * rewrite sumn_plus, sumn_if_eq by lia. fold r. field. apply Hd. lia.
        * intros i Hi. destruct (Nat.ltb_spec i p), (Nat.eqb_spec i p), (Nat.leb_spec i p); try lia; subst; ring.
      + transitivity (sumn (Datatypes.S j) (fun i => if Nat.ltb i q then 0 else L i q * v i)); [|apply V3; lia].
        apply sumn_ext. intros i Hi.
        destruct (Nat.ltb_spec i q); [reflexivity|]. destruct (Nat.eqb_spec i p); [lia|reflexivity]. }
  destruct (H j (le_n j)) as (v & V1 & V2 & V3). exists v. split; [exact V1|]. split; [exact V2|].
  intros q Hq. apply V3; lia.
Qed.
