(** * Broadcast arithmetic on arrays of finite numbers. *)
From Verif Require Export Gaussian Rows_proofs.

Lemma bidx_lt n i : (i < n)%nat -> bidx n i = i.
Proof. intros H. unfold bidx. destruct (Nat.eqb_spec n 1); lia. Qed.
Lemma bidx_1 i : bidx 1 i = 0%nat.
Proof. reflexivity. Qed.

(** [m] broadcasts to an [r] by [c] array with entries [f]. *)
Definition cast (m : mat) (r c : nat) (f : nat -> nat -> R) : Prop :=
  exists r' c' g, m = fmat r' c' g /\ (r' = r \/ r' = 1%nat) /\ (c' = c \/ c' = 1%nat)
    /\ forall i j, (i < r)%nat -> (j < c)%nat -> g (bidx r' i) (bidx c' j) = f i j.

Lemma cast_fmat r c f : cast (fmat r c f) r c f.
Proof.
  exists r, c, f. split; [reflexivity|]. split; [left; reflexivity|]. split; [left; reflexivity|].
  intros i j Hi Hj. rewrite !bidx_lt by assumption. reflexivity.
Qed.
Lemma cast_scal a r c : cast (pmat (Scal (Fin a))) r c (fun _ _ => a).
Proof.
  exists 1%nat, 1%nat, (fun _ _ => a). split; [reflexivity|].
  split; [right; reflexivity|]. split; [right; reflexivity|]. reflexivity.
Qed.
Lemma col_of_fvec r v : col_of (fvec r v) = fmat r 1 (fun i _ => v i).
Proof.
  unfold col_of, fvec, fmat, mtab. rewrite tab_map. reflexivity.
Qed.
Lemma cast_col r c v : cast (col_of (fvec r v)) r c (fun i _ => v i).
Proof.
  exists r, 1%nat, (fun i _ => v i). split; [apply col_of_fvec|]. split; [left; reflexivity|].
  split; [right; reflexivity|]. intros i j Hi Hj. rewrite bidx_lt by assumption. reflexivity.
Qed.
Lemma cast_ext m r c f g : cast m r c f ->
  (forall i j, (i < r)%nat -> (j < c)%nat -> f i j = g i j) -> cast m r c g.
Proof.
  intros (r' & c' & k & E & Hr & Hc & H) Hfg. exists r', c', k. repeat (split; [assumption|]).
  intros i j Hi Hj. rewrite H by assumption. apply Hfg; assumption.
Qed.

Lemma bdim_ok r r1 r2 : (0 < r)%nat -> r1 = r \/ r1 = 1%nat -> r2 = r \/ r2 = 1%nat ->
  exists k, bdim r1 r2 = Ok k /\ (k = r \/ k = 1%nat)
    /\ (r1 = r -> k = r) /\ (r2 = r -> k = r)
    /\ (forall i, (i < r)%nat -> (bidx k i < k)%nat /\ bidx r1 (bidx k i) = bidx r1 i /\ bidx r2 (bidx k i) = bidx r2 i)
    /\ (forall i, (i < k)%nat -> (i < r)%nat /\ bidx k i = i).
Proof.
  intros Hr H1 H2. unfold bdim.
  destruct (Nat.eq_dec r 1) as [->|Hn].
  - assert (r1 = 1%nat) by lia. assert (r2 = 1%nat) by lia. subst. exists 1%nat. cbn [Nat.eqb].
    split; [reflexivity|]. split; [left; reflexivity|]. split; [lia|]. split; [lia|].
    split; [intros i Hi; rewrite !bidx_1; lia|]. intros i Hi. rewrite bidx_1. lia.
  - assert (Hb1 : forall i, bidx 1 i = 0%nat) by reflexivity.
    assert (Hbr : forall i, bidx r i = i) by (intros i; unfold bidx; destruct (Nat.eqb_spec r 1); [contradiction|reflexivity]).
    destruct H1 as [->| ->]; destruct H2 as [->| ->].
    + exists r. rewrite Nat.eqb_refl. split; [reflexivity|]. split; [left; reflexivity|]. split; [lia|]. split; [lia|].
      split; intros i Hi; rewrite ?Hbr; lia.
    + exists r. destruct (Nat.eqb_spec r 1); [contradiction|]. cbn [Nat.eqb].
      split; [reflexivity|]. split; [left; reflexivity|]. split; [lia|]. split; [lia|].
      split; intros i Hi; rewrite ?Hbr, ?Hb1; lia.
    + exists r. destruct (Nat.eqb_spec 1 r); [lia|]. cbn [Nat.eqb].
      split; [reflexivity|]. split; [left; reflexivity|]. split; [lia|]. split; [lia|].
      split; intros i Hi; rewrite ?Hbr, ?Hb1; lia.
    + exists 1%nat. cbn [Nat.eqb]. split; [reflexivity|]. split; [right; reflexivity|]. split; [lia|]. split; [lia|].
      split; intros i Hi; rewrite ?Hb1; lia.
Qed.

Section B2.
  Variables (op : xnum -> xnum -> xnum) (h : R -> R -> R) (r c : nat) (f1 f2 : nat -> nat -> R).
  Hypothesis Hr : (0 < r)%nat.
  Hypothesis Hc : (0 < c)%nat.
  Hypothesis Hop : forall i j, (i < r)%nat -> (j < c)%nat -> op (Fin (f1 i j)) (Fin (f2 i j)) = Fin (h (f1 i j) (f2 i j)).

  Lemma b2_gen a b : cast a r c f1 -> cast b r c f2 ->
    exists m, b2 op a b = Ok m /\ cast m r c (fun i j => h (f1 i j) (f2 i j))
      /\ (forall r1 c1 g1, a = fmat r1 c1 g1 -> forall r2 c2 g2, b = fmat r2 c2 g2 ->
          r1 = r \/ r2 = r -> c1 = c \/ c2 = c -> m = fmat r c (fun i j => h (f1 i j) (f2 i j))).
  Proof.
    intros (r1 & c1 & g1 & E1 & Hr1 & Hc1 & H1) (r2 & c2 & g2 & E2 & Hr2 & Hc2 & H2).
    destruct (bdim_ok r r1 r2 Hr Hr1 Hr2) as (k & Ek & Hk & Hk1 & Hk2 & Hi1 & Hi2).
    destruct (bdim_ok c c1 c2 Hc Hc1 Hc2) as (l & El & Hl & Hl1 & Hl2 & Hj1 & Hj2).
    subst a b. unfold b2. rewrite !nrow_fmat, !ncol_fmat, Ek, El. cbn [bind].
    assert (Hm : mtab k l (fun i j => op (mget (fmat r1 c1 g1) (bidx r1 i) (bidx c1 j)) (mget (fmat r2 c2 g2) (bidx r2 i) (bidx c2 j)))
               = fmat k l (fun i j => h (f1 i j) (f2 i j))).
    { apply mtab_ext. intros i j Hi Hj. destruct (Hi2 i Hi) as [Hi' Ei]. destruct (Hj2 j Hj) as [Hj' Ej].
      assert (B : forall n q m, (q < m)%nat -> n = m \/ n = 1%nat -> (bidx n q < n)%nat)
        by (intros n q m Hq [->| ->]; [rewrite bidx_lt by exact Hq; exact Hq|rewrite bidx_1; lia]).
      rewrite !mget_fmat by (eapply B; eassumption).
      rewrite H1, H2 by assumption. apply Hop; assumption. }
    exists (fmat k l (fun i j => h (f1 i j) (f2 i j))). split; [f_equal; exact Hm|]. split.
    - exists k, l, (fun i j => h (f1 i j) (f2 i j)). split; [reflexivity|]. split; [exact Hk|]. split; [exact Hl|].
      intros i j Hi Hj. cbv beta.
      destruct Hk as [->| ->]; destruct Hl as [->| ->]; rewrite ?(bidx_lt r i Hi), ?(bidx_lt c j Hj); try reflexivity.
      + rewrite bidx_1. destruct (Hj1 j Hj) as (_ & Ej1 & Ej2). rewrite bidx_1 in Ej1, Ej2.
        rewrite <- (H1 i j), <- (H2 i j) by assumption. rewrite <- Ej1, <- Ej2.
        rewrite <- (H1 i 0%nat), <- (H2 i 0%nat) by assumption. reflexivity.
      + rewrite bidx_1. destruct (Hi1 i Hi) as (_ & Ei1 & Ei2). rewrite bidx_1 in Ei1, Ei2.
        rewrite <- (H1 i j), <- (H2 i j) by assumption. rewrite <- Ei1, <- Ei2.
        rewrite <- (H1 0%nat j), <- (H2 0%nat j) by assumption. reflexivity.
      + rewrite !bidx_1. destruct (Hj1 j Hj) as (_ & Ej1 & Ej2). rewrite bidx_1 in Ej1, Ej2.
        destruct (Hi1 i Hi) as (_ & Ei1 & Ei2). rewrite bidx_1 in Ei1, Ei2.
        rewrite <- (H1 i j), <- (H2 i j) by assumption. rewrite <- Ej1, <- Ej2, <- Ei1, <- Ei2.
        rewrite <- (H1 0%nat 0%nat), <- (H2 0%nat 0%nat) by assumption. reflexivity.
    - intros r1' c1' g1' F1 r2' c2' g2' F2 Hrr Hcc.
      assert (R1 : r1' = r1) by (apply (f_equal nrow) in F1; rewrite !nrow_fmat in F1; lia).
      assert (C1 : c1' = c1) by (apply (f_equal ncol) in F1; rewrite !ncol_fmat in F1; lia).
      assert (R2 : r2' = r2) by (apply (f_equal nrow) in F2; rewrite !nrow_fmat in F2; lia).
      assert (C2 : c2' = c2) by (apply (f_equal ncol) in F2; rewrite !ncol_fmat in F2; lia).
      subst. assert (k = r) by (destruct Hrr; auto). assert (l = c) by (destruct Hcc; auto). subst. reflexivity.
  Qed.

  Lemma b2_cast a b : cast a r c f1 -> cast b r c f2 ->
    exists m, b2 op a b = Ok m /\ cast m r c (fun i j => h (f1 i j) (f2 i j)).
  Proof. intros H1 H2. destruct (b2_gen a b H1 H2) as (m & E & C & _). exists m. split; assumption. Qed.

  Lemma b2_fullr a : cast a r c f1 -> b2 op a (fmat r c f2) = Ok (fmat r c (fun i j => h (f1 i j) (f2 i j))).
  Proof.
    intros H1. destruct (b2_gen a _ H1 (cast_fmat r c f2)) as (m & E & _ & F). rewrite E. f_equal.
    destruct H1 as (r' & c' & g & -> & _). apply (F _ _ _ eq_refl _ _ _ eq_refl); right; reflexivity.
  Qed.

  Lemma b2_fulll b : cast b r c f2 -> b2 op (fmat r c f1) b = Ok (fmat r c (fun i j => h (f1 i j) (f2 i j))).
  Proof.
    intros H2. destruct (b2_gen _ b (cast_fmat r c f1) H2) as (m & E & _ & F). rewrite E. f_equal.
    destruct H2 as (r' & c' & g & -> & _). apply (F _ _ _ eq_refl _ _ _ eq_refl); left; reflexivity.
  Qed.
End B2.

Lemma mmap_fmat op h r c f : (forall i j, (i < r)%nat -> (j < c)%nat -> op (Fin (f i j)) = Fin (h (f i j))) ->
  mmap op (fmat r c f) = fmat r c (fun i j => h (f i j)).
Proof. intros H. unfold fmat at 1. rewrite mmap_mtab. apply mtab_ext. intros i j Hi Hj. apply H; assumption. Qed.

Lemma mmap_cast op h m r c f : (0 < r)%nat -> (0 < c)%nat -> cast m r c f ->
  (forall i j, (i < r)%nat -> (j < c)%nat -> op (Fin (f i j)) = Fin (h (f i j))) ->
  cast (mmap op m) r c (fun i j => h (f i j)).
Proof.
  intros Hr Hc (r' & c' & g & -> & Hr' & Hc' & H) Hop.
  assert (G : forall i j, (i < r')%nat -> (j < c')%nat -> exists i' j', (i' < r)%nat /\ (j' < c)%nat /\ g i j = f i' j').
  { intros i j Hi Hj.
    exists (if Nat.eqb r' 1 then 0%nat else i), (if Nat.eqb c' 1 then 0%nat else j).
    assert (Hi' : ((if Nat.eqb r' 1 then 0%nat else i) < r)%nat) by (destruct (Nat.eqb_spec r' 1); lia).
    assert (Hj' : ((if Nat.eqb c' 1 then 0%nat else j) < c)%nat) by (destruct (Nat.eqb_spec c' 1); lia).
    split; [exact Hi'|]. split; [exact Hj'|].
    rewrite <- H by assumption. f_equal; unfold bidx; [destruct (Nat.eqb_spec r' 1)|destruct (Nat.eqb_spec c' 1)]; lia. }
  rewrite (mmap_fmat op h).
  2:{ intros i j Hi Hj. destruct (G i j Hi Hj) as (i' & j' & Hi' & Hj' & ->). apply Hop; assumption. }
  exists r', c', (fun i j => h (g i j)). split; [reflexivity|]. split; [exact Hr'|]. split; [exact Hc'|].
  intros i j Hi Hj. cbv beta. rewrite H by assumption. reflexivity.
Qed.

Lemma broadcast_fmat r c f : broadcast_to (fmat r c f) r c = Ok (fmat r c f).
Proof.
  unfold broadcast_to. rewrite nrow_fmat, ncol_fmat, !Nat.eqb_refl. cbn [orb andb]. f_equal.
  apply mtab_ext. intros i j Hi Hj. rewrite !bidx_lt, mget_fmat by assumption. reflexivity.
Qed.
Lemma broadcast_cast m r c f : cast m r c f -> broadcast_to m r c = Ok (fmat r c f).
Proof.
  intros (r' & c' & g & -> & Hr & Hc & H). unfold broadcast_to. rewrite nrow_fmat, ncol_fmat.
  assert (E1 : (Nat.eqb r' r || Nat.eqb r' 1)%bool = true)
    by (destruct Hr as [->| ->]; rewrite ?Nat.eqb_refl; [reflexivity|apply orb_true_r]).
  assert (E2 : (Nat.eqb c' c || Nat.eqb c' 1)%bool = true)
    by (destruct Hc as [->| ->]; rewrite ?Nat.eqb_refl; [reflexivity|apply orb_true_r]).
  rewrite E1, E2. cbn [andb]. f_equal. apply mtab_ext. intros i j Hi Hj.
  assert (B : forall n q m, (q < m)%nat -> n = m \/ n = 1%nat -> (bidx n q < n)%nat)
    by (intros n q m Hq [->| ->]; [rewrite bidx_lt by exact Hq; exact Hq|rewrite bidx_1; lia]).
  rewrite mget_fmat by (eapply B; eassumption). rewrite H by assumption. reflexivity.
Qed.

(** Rows of finite numbers. *)
Definition finite_row (nf : nat) (o : vec) : Prop := length o = nf /\ forallb xisfin o = true.
Definition xval (o : vec) (f : nat) : R := rval (vget o f).
Lemma finite_row_get nf o f : finite_row nf o -> (f < nf)%nat -> vget o f = Fin (xval o f).
Proof.
  intros [H1 H2] Hf. rewrite forallb_forall in H2. unfold xval, vget. subst nf.
  specialize (H2 (nth f o NaN) (nth_In o NaN Hf)). destruct (nth f o NaN); try discriminate. reflexivity.
Qed.
Lemma finite_row_fvec nf o : finite_row nf o -> o = fvec nf (xval o).
Proof.
  intros H. rewrite (tab_inv nf o NaN (proj1 H)) at 1. apply tab_ext. intros i Hi.
  exact (finite_row_get nf o i H Hi).
Qed.
Lemma fvec_finite_row nf g : finite_row nf (fvec nf g).
Proof.
  split; [apply tab_length|]. apply forallb_forall. intros a Ha. unfold fvec, tab in Ha.
  apply in_map_iff in Ha as (i & <- & _). reflexivity.
Qed.
