(** * Viterbi: the returned path is optimal, for any monotone rounding. *)
From Verif Require Export XRL Paths.

(** ** Order on numbers that are neither NaN nor +inf. *)
Definition good (a : xnum) : Prop := a <> NaN /\ a <> PInf.

(** Rounding is monotone. *)
Definition monotone (fp : fpmode) : Prop := forall x y, x <= y -> xle (fp x) (fp y).

Lemma exact_monotone : monotone exact.
Proof. intros x y H. unfold xle, exact. simpl. apply Rleb_true. exact H. Qed.

Lemma xle_refl a : a <> NaN -> xle a a.
Proof. unfold xle. destruct a; simpl; intros; try reflexivity; [apply Rleb_true; lra|contradiction]. Qed.
Lemma xle_trans a b c : xle a b -> xle b c -> xle a c.
Proof.
  unfold xle. destruct a, b, c; simpl; intros H1 H2; try reflexivity; try discriminate.
  apply Rleb_true in H1, H2. apply Rleb_true. lra.
Qed.
Lemma xle_antisym a b : xle a b -> xle b a -> a = b.
Proof.
  unfold xle. destruct a, b; simpl; intros H1 H2; try reflexivity; try discriminate.
  apply Rleb_true in H1, H2. f_equal; lra.
Qed.
Lemma xle_NInf a : a <> NaN -> xle NInf a.
Proof. unfold xle. destruct a; simpl; intros; try reflexivity; contradiction. Qed.
Lemma xltb_xle a b : xltb a b = true -> xle a b.
Proof.
  unfold xle. destruct a, b; simpl; intros H; try reflexivity; try discriminate.
  apply Rltb_true in H. apply Rleb_true. lra.
Qed.
Lemma xltb_false_xle a b : a <> NaN -> b <> NaN -> xltb a b = false -> xle b a.
Proof.
  unfold xle. destruct a, b; simpl; intros Ha Hb H; try reflexivity; try discriminate; try contradiction.
  apply Rltb_false in H. apply Rleb_true. lra.
Qed.
Lemma xltb_irrefl a : xltb a a = false.
Proof. destruct a; simpl; try reflexivity. apply Rltb_false. lra. Qed.

Lemma xadd_good fp a b : good (xadd fp a b) -> good a /\ good b.
Proof.
  unfold good. destruct a, b; simpl; intros [H1 H2]; split; split; try discriminate; congruence.
Qed.

Lemma xadd_mono_l fp a b c : monotone fp -> good b -> good c -> xle a b ->
  xle (xadd fp a c) (xadd fp b c).
Proof.
  intros Hm [Hb1 Hb2] [Hc1 Hc2] H. unfold xle in *.
  destruct a, b, c; simpl in *; try reflexivity; try discriminate; try contradiction.
  - apply Rleb_true in H. apply Hm. lra.
  - destruct (fp (r + r0)) eqn:E; try reflexivity; try discriminate.
    exfalso. pose proof (Hm (r + r0) (r + r0) (Rle_refl _)) as Hx. rewrite E in Hx. discriminate.
Qed.

Lemma std_max_ge a b : a <> NaN -> b <> NaN ->
  std_max a b <> NaN /\ xle a (std_max a b) /\ xle b (std_max a b)
  /\ (std_max a b = a \/ std_max a b = b).
Proof.
  intros Ha Hb. unfold std_max. destruct (xltb a b) eqn:E.
  - repeat split; auto; [apply xltb_xle; exact E|apply xle_refl; exact Hb].
  - repeat split; auto; [apply xle_refl; exact Ha|apply xltb_false_xle; assumption].
Qed.

(** The running maximum of [val j], starting from -inf. *)
Lemma fold_std_max (val : nat -> xnum) l m :
  m <> NaN -> (forall j, In j l -> val j <> NaN) ->
  let r := fold_left (fun m j => std_max m (val j)) l m in
  r <> NaN /\ xle m r /\ (forall j, In j l -> xle (val j) r)
  /\ (r = m \/ exists j, In j l /\ r = val j).
Proof.
  revert m; induction l as [|x l IH]; intros m Hm Hl; simpl.
  - repeat split; auto; [apply xle_refl; exact Hm|intros j []].
  - destruct (std_max_ge m (val x) Hm (Hl x (or_introl eq_refl))) as (H1 & H2 & H3 & H4).
    destruct (IH (std_max m (val x)) H1 (fun j Hj => Hl j (or_intror Hj))) as (I1 & I2 & I3 & I4).
    cbv zeta in *. repeat split; auto.
    + eapply xle_trans; eassumption.
    + intros j [->|Hj]; [eapply xle_trans; eassumption|apply I3; exact Hj].
    + destruct I4 as [I4|[j [Hj I4]]].
      * destruct H4 as [H4|H4]; [left; congruence|right; exists x; split; [left; reflexivity|congruence]].
      * right; exists j; split; [right; exact Hj|exact I4].
Qed.

(** The running maximum of pairs. *)
Lemma fold_pair_max (val : nat -> xnum) l m i0 :
  m <> NaN -> (forall j, In j l -> val j <> NaN) ->
  let r := fold_left (fun m i => pair_max m (val i, i)) l (m, i0) in
  fst r <> NaN /\ xle m (fst r) /\ (forall j, In j l -> xle (val j) (fst r))
  /\ (r = (m, i0) \/ exists j, In j l /\ r = (val j, j)).
Proof.
  revert m i0; induction l as [|x l IH]; intros m i0 Hm Hl; simpl.
  - repeat split; auto; [apply xle_refl; exact Hm|intros j []].
  - assert (Hx : val x <> NaN) by (apply Hl; left; reflexivity).
    assert (Hp : exists m' i', pair_max (m, i0) (val x, x) = (m', i') /\ m' <> NaN /\ xle m m'
                 /\ xle (val x) m' /\ ((m', i') = (m, i0) \/ (m', i') = (val x, x))).
    { unfold pair_max, pair_ltb. cbn [fst snd]. destruct (xltb m (val x)) eqn:E; simpl.
      - exists (val x), x. repeat split; auto; [apply xltb_xle; exact E|apply xle_refl; exact Hx].
      - destruct (xltb (val x) m) eqn:E'; simpl.
        + exists m, i0. repeat split; auto; [apply xle_refl; exact Hm|apply xltb_xle; exact E'].
        + destruct (Nat.ltb i0 x).
          * exists (val x), x. repeat split; auto;
              [apply xltb_false_xle; assumption|apply xle_refl; exact Hx].
          * exists m, i0. repeat split; auto;
              [apply xle_refl; exact Hm|apply xltb_false_xle; assumption]. }
    destruct Hp as (m' & i' & Ep & H1 & H2 & H3 & H4). rewrite Ep.
    destruct (IH m' i' H1 (fun j Hj => Hl j (or_intror Hj))) as (I1 & I2 & I3 & I4).
    cbv zeta in *. repeat split; auto.
    + eapply xle_trans; eassumption.
    + intros j [->|Hj]; [eapply xle_trans; eassumption|apply I3; exact Hj].
    + destruct I4 as [I4|[j [Hj I4]]].
      * destruct H4 as [H4|H4]; [left; congruence|right; exists x; split; [left; reflexivity|congruence]].
      * right; exists j; split; [right; exact Hj|exact I4].
Qed.

(** [max_element_idx] on NaN-free arrays. *)
Lemma max_element_idx_from_spec (val : nat -> xnum) n best bi s :
  (forall i, (i < s + n)%nat -> val i <> NaN) ->
  (bi < s)%nat -> best = val bi -> (forall i, (i < s)%nat -> xle (val i) best) ->
  let r := max_element_idx_from best bi s (map val (seq s n)) in
  (r < s + n)%nat /\ forall i, (i < s + n)%nat -> xle (val i) (val r).
Proof.
  revert best bi s; induction n as [|n IH]; intros best bi s Hnn Hbi Hb Hmax; simpl.
  - rewrite Nat.add_0_r. subst best. split; [exact Hbi|exact Hmax].
  - destruct (xltb best (val s)) eqn:E.
    + replace (s + S n)%nat with (S s + n)%nat by lia.
      apply IH; [intros; apply Hnn; lia|lia|reflexivity|].
      intros i Hi. destruct (Nat.eq_dec i s) as [->|Hne]; [apply xle_refl; apply Hnn; lia|].
      eapply xle_trans; [apply Hmax; lia|apply xltb_xle; exact E].
    + replace (s + S n)%nat with (S s + n)%nat by lia.
      apply IH; [intros; apply Hnn; lia|lia|exact Hb|].
      intros i Hi. destruct (Nat.eq_dec i s) as [->|Hne]; [|apply Hmax; lia].
      apply xltb_false_xle; [subst best; apply Hnn; lia|apply Hnn; lia|exact E].
Qed.

Lemma max_element_idx_spec (val : nat -> xnum) n :
  (0 < n)%nat -> (forall i, (i < n)%nat -> val i <> NaN) ->
  (max_element_idx (tab n val) < n)%nat
  /\ forall i, (i < n)%nat -> xle (val i) (val (max_element_idx (tab n val))).
Proof.
  intros Hn Hnn. destruct n as [|n]; [lia|]. unfold tab. cbn [seq map max_element_idx].
  apply (max_element_idx_from_spec val n (val 0%nat) 0 1); auto.
  intros i Hi. replace i with 0%nat by lia. apply xle_refl. apply Hnn. lia.
Qed.

Section Viterbi.
  Variables (fp : fpmode) (nc : nat).
  Variables (lpi : nat -> xnum) (lA : nat -> nat -> xnum) (lB : nat -> nat -> xnum).

  (** Lattice entries. *)
  Fixpoint V (t i : nat) : xnum :=
    match t with
    | O => xadd fp (lpi i) (lB 0%nat i)
    | S t' => xadd fp (fold_left (fun m j => std_max m (xadd fp (V t' j) (lA j i)))
                         (seq 0 nc) NInf) (lB (S t') i)
    end.

  (** Score of following [z] from state [i] at time [t] with score [s], in the
      order of evaluation of the kernel. *)
  Fixpoint vext (s : xnum) (t i : nat) (z : list nat) : xnum :=
    match z with
    | [] => s
    | j :: z' => vext (xadd fp (xadd fp s (lA i j)) (lB (S t) j)) (S t) j z'
    end.
  Definition vscore (z : list nat) : xnum :=
    match z with
    | [] => NaN
    | i :: z' => vext (xadd fp (lpi i) (lB 0%nat i)) 0 i z'
    end.

  Lemma vext_good s t i z : good (vext s t i z) -> good s.
  Proof.
    revert s t i; induction z as [|j z IH]; intros s t i H; [exact H|]. simpl in H.
    apply IH in H. apply xadd_good in H as [H _]. apply xadd_good in H as [H _]. exact H.
  Qed.

  Lemma vext_app s t i z1 z2 :
    vext s t i (z1 ++ z2) = vext (vext s t i z1) (t + length z1) (last z1 i) z2.
  Proof.
    revert s t i; induction z1 as [|j z1 IH]; intros s t i.
    - simpl. rewrite Nat.add_0_r. reflexivity.
    - rewrite last_cons. simpl app. cbn [vext length]. rewrite IH.
      f_equal. lia.
  Qed.

  Lemma vscore_app z1 z2 : z1 <> [] ->
    vscore (z1 ++ z2) = vext (vscore z1) (length z1 - 1) (last z1 0%nat) z2.
  Proof.
    destruct z1 as [|i z1]; intros H; [contradiction|]. simpl app. unfold vscore.
    rewrite vext_app, last_cons. f_equal. simpl. lia.
  Qed.

  Variable T : nat.
  Hypothesis Hnc : (0 < nc)%nat.
  Hypothesis Hmono : monotone fp.
  Hypothesis Hgood : forall z, is_path nc (S T) z -> good (vscore z).

  Lemma path_extend t z : is_path nc t z -> (t <= S T)%nat ->
    is_path nc (S T) (z ++ repeat 0%nat (S T - t)).
  Proof.
    intros [Hl Hz] Ht. split.
    - rewrite app_length, repeat_length. lia.
    - intros k Hk. destruct (Nat.lt_ge_cases k t).
      + rewrite app_nth1 by lia. apply Hz; lia.
      + rewrite app_nth2 by lia. rewrite nth_repeat. exact Hnc.
  Qed.

  Lemma prefix_good t z : (t <= T)%nat -> is_path nc (S t) z -> good (vscore z).
  Proof.
    intros Ht Hz. pose proof (Hgood _ (path_extend (S t) z Hz ltac:(lia))) as H.
    rewrite vscore_app in H; [apply vext_good in H; exact H|].
    destruct Hz as [Hl _]. intros ->; discriminate.
  Qed.

  Lemma is_path_snoc t z j : is_path nc t z -> (j < nc)%nat -> is_path nc (S t) (z ++ [j]).
  Proof.
    intros [Hl Hz] Hj. split; [rewrite app_length; simpl; lia|].
    intros k Hk. destruct (Nat.lt_ge_cases k t).
    - rewrite app_nth1 by lia. apply Hz; lia.
    - rewrite app_nth2 by lia. replace (k - length z)%nat with 0%nat by lia. exact Hj.
  Qed.

  Lemma is_path_snoc_inv t z : is_path nc (S t) z ->
    exists z' j, z = z' ++ [j] /\ is_path nc t z' /\ (j < nc)%nat.
  Proof.
    intros [Hl Hz]. destruct (exists_last (l:=z)) as [z' [j ->]]; [intros ->; discriminate|].
    rewrite app_length in Hl; simpl in Hl. exists z', j. split; [reflexivity|].
    split; [split; [lia|]|].
    - intros k Hk. specialize (Hz k ltac:(lia)). rewrite app_nth1 in Hz by lia. exact Hz.
    - specialize (Hz t ltac:(lia)). rewrite app_nth2 in Hz by lia.
      replace (t - length z')%nat with 0%nat in Hz by lia. exact Hz.
  Qed.

  Lemma is_path_last t z : is_path nc (S t) z -> (last z 0 < nc)%nat.
  Proof.
    intros H. apply is_path_snoc_inv in H as (z' & j & -> & _ & Hj). rewrite last_last. exact Hj.
  Qed.

  Lemma is_path_nn t z : is_path nc (S t) z -> z <> [].
  Proof. intros [Hl _] ->; discriminate. Qed.

  Lemma vscore_snoc t z j : is_path nc (S t) z ->
    vscore (z ++ [j]) = xadd fp (xadd fp (vscore z) (lA (last z 0%nat) j)) (lB (S t) j).
  Proof.
    intros Hz. rewrite vscore_app by (apply (is_path_nn t); exact Hz).
    destruct Hz as [Hl _]. rewrite Hl. simpl. rewrite Nat.sub_0_r. reflexivity.
  Qed.

  (** The lattice holds the best prefix score per final state. *)
  Lemma V_attained_max t : (t <= T)%nat -> forall i, (i < nc)%nat ->
    (exists z, is_path nc (S t) z /\ last z 0%nat = i /\ vscore z = V t i)
    /\ (forall z, is_path nc (S t) z -> last z 0%nat = i -> xle (vscore z) (V t i)).
  Proof.
    induction t as [|t IH]; intros Ht i Hi.
    - assert (Hp : is_path nc 1 [i]) by (split; [reflexivity|intros [|k] Hk; simpl; lia]).
      split.
      + exists [i]. repeat split; try (apply Hp). 
      + intros z [Hl Hz] Hlast. destruct z as [|a [|b z]]; try discriminate.
        simpl in Hlast; subst a. apply xle_refl.
        destruct (prefix_good 0 [i] Ht Hp) as [H _]. exact H.
    - assert (IH' := fun j Hj => IH ltac:(lia) j Hj). clear IH.
      set (val := fun j => xadd fp (V t j) (lA j i)).
      (* every candidate is good *)
      assert (Hval : forall j, (j < nc)%nat -> good (val j) /\ good (lB (S t) i)).
      { intros j Hj. destruct (IH' j Hj) as [(z & Hz & Hlz & Hv) _].
        pose proof (prefix_good (S t) (z ++ [i]) Ht (is_path_snoc _ _ _ Hz Hi)) as Hg.
        rewrite (vscore_snoc t z i Hz), Hlz, Hv in Hg. apply xadd_good in Hg. exact Hg. }
      assert (Hgl : good (lB (S t) i)) by (apply (Hval 0%nat Hnc)).
      destruct (fold_std_max val (seq 0 nc) NInf ltac:(discriminate)) as (F1 & F2 & F3 & F4).
      { intros j Hj. apply in_seq in Hj. apply (Hval j); lia. }
      cbv zeta in *.
      set (m := fold_left (fun m j => std_max m (val j)) (seq 0 nc) NInf) in *.
      assert (Hm : exists j, (j < nc)%nat /\ m = val j).
      { destruct F4 as [F4|[j [Hj F4]]].
        - exists 0%nat. split; [exact Hnc|]. rewrite F4.
          pose proof (F3 0%nat ltac:(apply in_seq; lia)) as H0. rewrite F4 in H0.
          apply xle_antisym; [apply xle_NInf; apply (Hval 0%nat Hnc)|exact H0].
        - exists j. apply in_seq in Hj. split; [lia|exact F4]. }
      destruct Hm as (js & Hjs & Hm).
      change (V (S t) i) with (xadd fp m (lB (S t) i)).
      split.
      + destruct (IH' js Hjs) as [(z & Hz & Hlz & Hv) _].
        exists (z ++ [i]). split; [apply is_path_snoc; assumption|].
        split; [apply last_last|]. rewrite (vscore_snoc t z i Hz), Hlz, Hv, Hm. reflexivity.
      + intros z' Hz' Hlast. destruct (is_path_snoc_inv _ _ Hz') as (z & j0 & -> & Hz & _).
        rewrite last_last in Hlast; subst j0.
        rewrite (vscore_snoc t z i Hz).
        pose proof (is_path_last _ _ Hz) as Hj. set (j := last z 0%nat) in *.
        destruct (IH' j Hj) as [(z0 & Hz0 & Hlz0 & Hv0) Hmax].
        assert (HgV : good (V t j)).
        { rewrite <- Hv0. apply (prefix_good t); [lia|exact Hz0]. }
        assert (Hgm : good m) by (rewrite Hm; apply Hval; exact Hjs).
        destruct (Hval j Hj) as [Hgv _].
        apply xadd_mono_l; try assumption.
        eapply xle_trans; [|apply (F3 j); apply in_seq; lia].
        unfold val. unfold val in Hgv. apply xadd_good in Hgv as [_ HgA].
        apply xadd_mono_l; try assumption. apply Hmax; [exact Hz|reflexivity].
  Qed.

  Lemma V_good t i : (t <= T)%nat -> (i < nc)%nat -> good (V t i).
  Proof.
    intros Ht Hi. destruct (V_attained_max t Ht i Hi) as [(z & Hz & _ & <-) _].
    apply (prefix_good t); assumption.
  Qed.

  Lemma val_good t j i : (t < T)%nat -> (i < nc)%nat -> (j < nc)%nat ->
    good (xadd fp (V t j) (lA j i)).
  Proof.
    intros Ht Hi Hj. destruct (V_attained_max t ltac:(lia) j Hj) as [(z & Hz & Hlz & Hv) _].
    pose proof (prefix_good (S t) (z ++ [i]) ltac:(lia) (is_path_snoc _ _ _ Hz Hi)) as Hg.
    rewrite (vscore_snoc t z i Hz), Hlz, Hv in Hg. apply xadd_good in Hg as [Hg _]. exact Hg.
  Qed.

  Variable log_transmat : mat.
  Hypothesis HlA : forall i j, (i < nc)%nat -> (j < nc)%nat -> mget log_transmat i j = lA i j.

  Lemma vit_back_spec t j : (t < T)%nat -> (j < nc)%nat ->
    let i := vit_back fp nc log_transmat (tab nc (V t)) j in
    (i < nc)%nat /\ V (S t) j = xadd fp (xadd fp (V t i) (lA i j)) (lB (S t) j).
  Proof.
    intros Ht Hj. set (val := fun i => xadd fp (V t i) (lA i j)).
    unfold vit_back.
    rewrite (fold_left_ext_in _ (fun m i => pair_max m (val i, i))).
    2:{ intros a b Hb. apply in_seq in Hb. rewrite vget_tab, HlA by lia. reflexivity. }
    assert (Hval : forall i, (i < nc)%nat -> good (val i)) by (intros; apply val_good; assumption).
    destruct (fold_std_max val (seq 0 nc) NInf ltac:(discriminate)) as (F1 & F2 & F3 & F4).
    { intros i Hi. apply in_seq in Hi. apply (Hval i); lia. }
    destruct (fold_pair_max val (seq 0 nc) NInf 0%nat ltac:(discriminate)) as (P1 & P2 & P3 & P4).
    { intros i Hi. apply in_seq in Hi. apply (Hval i); lia. }
    cbv zeta in *.
    set (p := fold_left (fun m i => pair_max m (val i, i)) (seq 0 nc) (NInf, 0%nat)) in *.
    cbn [V]. set (m := fold_left (fun m i => std_max m (xadd fp (V t i) (lA i j))) (seq 0 nc) NInf).
    change m with (fold_left (fun m j => std_max m (val j)) (seq 0 nc) NInf).
    assert (Hp : (snd p < nc)%nat /\ fst p = val (snd p)).
    { destruct P4 as [P4|[i [Hi P4]]].
      - rewrite P4. cbn [fst snd]. split; [exact Hnc|].
        pose proof (P3 0%nat ltac:(apply in_seq; lia)) as H0. rewrite P4 in H0.
        apply xle_antisym; [apply xle_NInf; apply (Hval 0%nat Hnc)|exact H0].
      - apply in_seq in Hi. rewrite P4. cbn [fst snd]. split; [lia|reflexivity]. }
    destruct Hp as [Hp1 Hp2]. split; [exact Hp1|]. fold (val (snd p)). f_equal.
    rewrite <- Hp2. apply xle_antisym.
    - destruct F4 as [-> |[i [Hi ->]]]; [apply xle_NInf; exact P1|apply P3; exact Hi].
    - rewrite Hp2. apply F3. apply in_seq. lia.
  Qed.

  Lemma vit_trace_spec n s : (s + n = T)%nat ->
    let z := vit_trace fp nc log_transmat (tab (S n) (fun k => tab nc (V (s + k)%nat))) in
    is_path nc (S n) z
    /\ vext (V s (hd 0%nat z)) s (hd 0%nat z) (tl z) = V T (last z 0%nat)
    /\ forall i, (i < nc)%nat -> xle (V T i) (V T (last z 0%nat)).
  Proof.
    revert s; induction n as [|n IH]; intros s Hs.
    - replace s with T by lia. cbv zeta.
      assert (E : vit_trace fp nc log_transmat (tab 1 (fun k => tab nc (V (T + k))))
                  = [max_element_idx (tab nc (V T))]).
      { unfold tab at 1. cbn [seq map vit_trace]. rewrite Nat.add_0_r. reflexivity. }
      rewrite E.
      destruct (max_element_idx_spec (V T) nc Hnc) as [H1 H2].
      { intros i Hi. apply (V_good T i); [lia|exact Hi]. }
      cbn [hd tl last vext]. split; [|split; [reflexivity|exact H2]].
      split; [reflexivity|]. intros [|k] Hk; simpl; [exact H1|lia].
    - cbv zeta. rewrite tab_S. rewrite Nat.add_0_r.
      specialize (IH (S s) ltac:(lia)).
      replace (tab (S n) (fun i => tab nc (V (s + S i)))) with (tab (S n) (fun k => tab nc (V (S s + k)%nat))).
      2:{ apply tab_ext; intros k _. f_equal. f_equal. lia. }
      set (lat := tab (S n) (fun k => tab nc (V (S s + k)%nat))) in *.
      assert (Hlat : exists r rs, lat = r :: rs) by (unfold lat; rewrite tab_S; eauto).
      destruct Hlat as (r & rs & Hlat).
      assert (E : vit_trace fp nc log_transmat (tab nc (V s) :: lat)
                  = vit_back fp nc log_transmat (tab nc (V s)) (hd 0%nat (vit_trace fp nc log_transmat lat))
                    :: vit_trace fp nc log_transmat lat).
      { rewrite Hlat. reflexivity. }
      rewrite E. clear E. cbv zeta in IH.
      set (z := vit_trace fp nc log_transmat lat) in *.
      destruct IH as (I1 & I2 & I3).
      destruct z as [|j z]; [destruct I1; discriminate|]. cbn [hd tl] in *.
      assert (Hj : (j < nc)%nat) by (destruct I1 as [_ I1]; apply (I1 0%nat); lia).
      destruct (vit_back_spec s j ltac:(lia) Hj) as [B1 B2].
      set (i := vit_back fp nc log_transmat (tab nc (V s)) j) in *.
      rewrite !last_cons in *. split; [|split].
      + destruct I1 as [L1 L2]. split; [simpl in *; lia|].
        intros [|k] Hk; simpl; [exact B1|]. apply (L2 k). lia.
      + cbn [vext]. rewrite <- B2. exact I2.
      + exact I3.
  Qed.

  Lemma vit_loop_spec n s :
    vit_loop fp nc log_transmat (tab nc (V s)) (tab n (fun k => tab nc (lB (S s + k)%nat)))
    = tab n (fun k => tab nc (V (S s + k)%nat)).
  Proof.
    clear Hgood Hmono Hnc T. revert s; induction n as [|n IH]; intros s; [reflexivity|].
    rewrite !tab_S. cbn [vit_loop]. rewrite Nat.add_0_r.
    assert (E : vit_row fp nc log_transmat (tab nc (V s)) (tab nc (lB (S s))) = tab nc (V (S s))).
    { unfold vit_row. apply tab_ext; intros i Hi. rewrite vget_tab by exact Hi. cbn [V]. f_equal.
      apply fold_left_ext_in; intros m j Hj. apply in_seq in Hj.
      rewrite vget_tab, HlA by lia. reflexivity. }
    rewrite E. f_equal.
    replace (tab n (fun i => tab nc (lB (S s + S i)%nat))) with (tab n (fun k => tab nc (lB (S (S s) + k)%nat))).
    2:{ apply tab_ext; intros k _. f_equal. f_equal. lia. }
    rewrite IH. apply tab_ext; intros k _. f_equal. f_equal. lia.
  Qed.
End Viterbi.

(** ** The kernel. *)
Theorem viterbi_correct fp nc T (sp : vec) (tm lf : mat) :
  (0 < nc)%nat -> monotone fp ->
  length sp = nc -> nrow tm = nc -> ncol tm = nc -> wf_mat tm ->
  nrow lf = S T -> ncol lf = nc -> wf_mat lf ->
  let lpi i := xlog fp (vget sp i) in
  let lA i j := xlog fp (mget tm i j) in
  (forall z, is_path nc (S T) z -> good (vscore fp lpi lA (mget lf) z)) ->
  exists lp z, viterbi fp sp tm lf = Ok (lp, z)
    /\ is_path nc (S T) z
    /\ lp = vscore fp lpi lA (mget lf) z
    /\ forall z', is_path nc (S T) z' -> xle (vscore fp lpi lA (mget lf) z') lp.
Proof.
  intros Hnc Hm Hsp Htr Htc Htw Hlr Hlc Hlw lpi lA Hg.
  set (lB := mget lf) in *.
  assert (HlA : forall i j, (i < nc)%nat -> (j < nc)%nat -> mget (mlog fp tm) i j = lA i j).
  { intros i j Hi Hj. rewrite (mat_inv tm Htw), Htr, Htc. unfold mlog. rewrite mmap_mtab.
    rewrite mget_mtab by assumption. reflexivity. }
  unfold viterbi, shape_guard. rewrite Hsp, Htr, Htc, Hlr, Hlc, !Nat.eqb_refl. cbn [negb orb Nat.eqb].
  assert (Hrows : rows lf = tab nc (lB 0%nat) :: tab T (fun k => tab nc (lB (S k)))).
  { rewrite (mat_inv lf Hlw), Hlr, Hlc. unfold mtab; cbn [rows]. rewrite tab_S. reflexivity. }
  rewrite Hrows.
  set (row0 := tab nc (fun i => xadd fp (vget (vlog fp sp) i) (vget (tab nc (lB 0%nat)) i))).
  assert (E0 : row0 = tab nc (V fp nc lpi lA lB 0)).
  { unfold row0. apply tab_ext; intros i Hi. rewrite vget_tab by exact Hi. cbn [V]. f_equal.
    unfold vlog, vget, lpi. rewrite (nth_indep _ NaN (xlog fp NaN)) by (rewrite map_length; lia).
    rewrite map_nth. reflexivity. }
  assert (EL : row0 :: vit_loop fp nc (mlog fp tm) row0 (tab T (fun k => tab nc (lB (S k))))
               = tab (S T) (fun t => tab nc (V fp nc lpi lA lB t))).
  { rewrite tab_S, E0. f_equal. apply (vit_loop_spec fp nc lpi lA lB (mlog fp tm) HlA T 0). }
  rewrite EL.
  pose proof (vit_trace_spec fp nc lpi lA lB T Hnc Hm Hg (mlog fp tm) HlA T 0 eq_refl) as HT.
  cbv zeta in HT. cbn [Nat.add] in HT.
  set (z := vit_trace fp nc (mlog fp tm) (tab (S T) (fun k => tab nc (V fp nc lpi lA lB k)))) in *.
  destruct HT as (H1 & H2 & H3).
  rewrite tab_last.
  assert (Hlast : (last z 0 < nc)%nat) by (eapply is_path_last; eassumption).
  rewrite vget_tab by exact Hlast.
  exists (V fp nc lpi lA lB T (last z 0%nat)), z. split; [reflexivity|]. split; [exact H1|].
  split.
  - rewrite <- H2. destruct z as [|a z']; [destruct H1; discriminate|]. reflexivity.
  - intros z' Hz'. assert (Hl' : (last z' 0 < nc)%nat) by (eapply is_path_last; eassumption).
    eapply xle_trans; [|apply (H3 _ Hl')].
    apply (V_attained_max fp nc lpi lA lB T Hnc Hm Hg T (le_n _) _ Hl'); [exact Hz'|reflexivity].
Qed.

(** ** Exact arithmetic: the score is the log joint probability. *)
Lemma vext_exact nc A B T s t i z (lA lB : nat -> nat -> xnum) :
  nonneg2 nc nc A -> nonneg2 (S T) nc B ->
  (forall i j, (i < nc)%nat -> (j < nc)%nat -> lA i j = xln (A i j)) ->
  (forall t i, (t < S T)%nat -> (i < nc)%nat -> lB t i = xln (B t i)) ->
  0 <= s -> (i < nc)%nat -> (t + length z <= T)%nat ->
  (forall k, (k < length z)%nat -> (nth k z 0 < nc)%nat) ->
  vext exact lA lB (xln s) t i z = xln (s * wsuf A B t i z).
Proof.
  intros HA HB HlA HlB. revert s t i; induction z as [|j z IH]; intros s t i Hs Hi Ht Hz; simpl.
  - f_equal; ring.
  - assert (Hj : (j < nc)%nat) by (apply (Hz 0%nat); simpl; lia). simpl in Ht.
    rewrite HlA, HlB by (try assumption; lia).
    assert (0 <= A i j) by (apply HA; assumption). assert (0 <= B (S t) j) by (apply HB; [lia|assumption]).
    rewrite xadd_xln by assumption.
    rewrite xadd_xln by (try assumption; apply Rmult_le_pos; assumption).
    rewrite IH; [f_equal; ring| |exact Hj|lia|].
    + repeat apply Rmult_le_pos; assumption.
    + intros k Hk. apply (Hz (S k)). simpl; lia.
Qed.

Lemma vscore_exact nc T pi A B z (lpi : nat -> xnum) (lA lB : nat -> nat -> xnum) :
  nonneg1 nc pi -> nonneg2 nc nc A -> nonneg2 (S T) nc B ->
  (forall i, (i < nc)%nat -> lpi i = xln (pi i)) ->
  (forall i j, (i < nc)%nat -> (j < nc)%nat -> lA i j = xln (A i j)) ->
  (forall t i, (t < S T)%nat -> (i < nc)%nat -> lB t i = xln (B t i)) ->
  is_path nc (S T) z -> vscore exact lpi lA lB z = xln (joint (S T) pi A B z).
Proof.
  intros Hpi HA HB Hlpi HlA HlB [Hl Hz]. rewrite joint_wpath by exact Hl.
  destruct z as [|i z]; [discriminate|]. unfold vscore, wpath.
  assert (Hi : (i < nc)%nat) by (apply (Hz 0%nat); lia).
  assert (0 <= pi i) by (apply Hpi; exact Hi). assert (0 <= B 0%nat i) by (apply HB; [lia|exact Hi]).
  rewrite Hlpi, HlB by (try assumption; lia). rewrite xadd_xln by assumption.
  apply (vext_exact nc A B T); try assumption.
  - apply Rmult_le_pos; assumption.
  - simpl in Hl; lia.
  - intros k Hk. apply (Hz (S k)). simpl in Hl. lia.
Qed.

Lemma xln_good r : good (xln r).
Proof. unfold good, xln. destruct (Rlt_dec 0 r); split; discriminate. Qed.

Theorem viterbi_exact nc T pi A B :
  (0 < nc)%nat -> nonneg1 nc pi -> nonneg2 nc nc A -> nonneg2 (S T) nc B ->
  exists z, viterbi exact (fvec nc pi) (fmat nc nc A) (lmat (S T) nc B)
            = Ok (xln (joint (S T) pi A B z), z)
    /\ is_path nc (S T) z
    /\ forall z', is_path nc (S T) z' -> joint (S T) pi A B z' <= joint (S T) pi A B z.
Proof.
  intros Hnc Hpi HA HB.
  assert (Hsc : forall z, is_path nc (S T) z ->
     vscore exact (fun i => xlog exact (vget (fvec nc pi) i))
        (fun i j => xlog exact (mget (fmat nc nc A) i j)) (mget (lmat (S T) nc B)) z
     = xln (joint (S T) pi A B z)).
  { intros z Hz. apply (vscore_exact nc T pi A B); try assumption.
    - intros i Hi. rewrite vget_fvec by exact Hi. apply xlog_fin. apply Hpi; exact Hi.
    - intros i j Hi Hj. rewrite mget_fmat by assumption. apply xlog_fin. apply HA; assumption.
    - intros t i Ht Hi. apply mget_lmat; assumption. }
  destruct (viterbi_correct exact nc T (fvec nc pi) (fmat nc nc A) (lmat (S T) nc B))
    as (lp & z & E & Hz & Hlp & Hmax); try reflexivity; try assumption;
    try apply exact_monotone; try apply tab_length; try apply wf_mtab; try apply nrow_mtab.
  - intros z Hz. rewrite Hsc by exact Hz. apply xln_good.
  - exists z. rewrite E, Hlp, Hsc by exact Hz. split; [reflexivity|]. split; [exact Hz|].
    intros z' Hz'. specialize (Hmax z' Hz'). rewrite Hlp, !Hsc in Hmax by assumption.
    unfold xle in Hmax. rewrite xleb_xln in Hmax; [apply Rleb_true in Hmax; exact Hmax| |];
      (apply (joint_nonneg nc); try assumption; lia).
Qed.
