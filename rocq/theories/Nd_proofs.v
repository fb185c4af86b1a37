(** * Facts about arrays of any number of dimensions. *)
From Verif Require Export Nd Full_thms.

Notation inb := (Forall2 lt).

Lemma in_nidx sh : forall idx, In idx (nidx sh) <-> inb idx sh.
Proof.
  induction sh as [|n sh IH]; intros idx; cbn [nidx].
  - split; [intros [<-|[]]; constructor|intros H; inversion H; left; reflexivity].
  - rewrite in_flat_map. split.
    + intros (i & Hi & H). apply in_map_iff in H. destruct H as (r & <- & Hr). apply in_seq in Hi.
      constructor; [lia|]. apply IH. exact Hr.
    + intros H. inversion H as [|i n' r sh' Hi Hr]; subst. exists i. split; [apply in_seq; lia|].
      apply in_map. apply IH. exact Hr.
Qed.

Lemma nidx_length sh : length (nidx sh) = nsize sh.
Proof.
  induction sh as [|n sh IH]; [reflexivity|]. cbn [nidx nsize].
  generalize 0%nat. induction n as [|n IHn]; intros s; [reflexivity|]. cbn [seq flat_map].
  rewrite app_length, map_length, IH, IHn. lia.
Qed.

Lemma nth_flat_seq {A B} (f : nat -> A -> B) (l : list A) n d : forall s i r, (i < n)%nat -> (r < length l)%nat ->
  nth (i * length l + r) (flat_map (fun i => map (f i) l) (seq s n)) (f 0%nat d) = f (s + i)%nat (nth r l d).
Proof.
  induction n as [|n IH]; intros s i r Hi Hr; [lia|]. cbn [seq flat_map]. destruct i as [|i].
  - rewrite app_nth1 by (rewrite map_length; cbn; lia). cbn [Nat.mul Nat.add]. rewrite Nat.add_0_r.
    rewrite (nth_indep _ _ (f s d)) by (rewrite map_length; exact Hr). apply map_nth.
  - rewrite app_nth2 by (rewrite map_length; cbn; lia). rewrite map_length.
    replace (S i * length l + r - length l)%nat with (i * length l + r)%nat by (cbn; lia).
    rewrite IH by lia. f_equal. lia.
Qed.

Lemma pos_lt i n N r : (i < n)%nat -> (r < N)%nat -> (i * N + r < n * N)%nat.
Proof. intros H1 H2. assert (S i * N <= n * N)%nat by (apply Nat.mul_le_mono_r; lia). cbn in *. lia. Qed.

Lemma npos_spec sh : forall idx, inb idx sh -> (npos sh idx < nsize sh)%nat /\ forall d, nth (npos sh idx) (nidx sh) d = idx.
Proof.
  induction sh as [|n sh IH]; intros idx H; inversion H as [|i n' r sh' Hi Hr]; subst.
  - split; [cbn; lia|reflexivity].
  - destruct (IH r Hr) as [H1 H2]. cbn [npos nsize nidx]. split; [apply pos_lt; assumption|]. intros d.
    rewrite <- nidx_length in *.
    rewrite (nth_indep _ d (0%nat :: [])).
    + rewrite (nth_flat_seq cons (nidx sh) n [] 0 i (npos sh r) Hi H1). rewrite H2. reflexivity.
    + change (flat_map (fun i0 => map (cons i0) (nidx sh)) (seq 0 n)) with (nidx (n :: sh)). rewrite (nidx_length (n :: sh)).
      cbn [nsize]. rewrite <- (nidx_length sh). apply pos_lt; assumption.
Qed.

Lemma nget_ntab sh f idx : inb idx sh -> nget (ntab sh f) idx = f idx.
Proof.
  intros H. destruct (npos_spec sh idx H) as [H1 H2]. unfold nget, ntab. cbn [nsh ndat].
  rewrite (nth_indep _ NaN (f [])) by (rewrite map_length, nidx_length; exact H1).
  rewrite map_nth, H2. reflexivity.
Qed.

Lemma ntab_ext sh f g : (forall idx, inb idx sh -> f idx = g idx) -> ntab sh f = ntab sh g.
Proof. intros H. unfold ntab. f_equal. apply map_ext_in. intros idx Hi. apply H. apply in_nidx. exact Hi. Qed.

(** Arrays of reals. *)
Definition fnd (sh : list nat) (f : list nat -> R) : nd := ntab sh (fun idx => Fin (f idx)).
Lemma nget_fnd sh f idx : inb idx sh -> nget (fnd sh f) idx = Fin (f idx).
Proof. apply (nget_ntab sh (fun idx => Fin (f idx))). Qed.
Lemma fnd_ext sh f g : (forall idx, inb idx sh -> f idx = g idx) -> fnd sh f = fnd sh g.
Proof. intros H. apply ntab_ext. intros idx Hi. rewrite H by exact Hi. reflexivity. Qed.

Lemma inb1 a i : (i < a)%nat -> inb [i] [a].
Proof. repeat constructor; assumption. Qed.
Lemma inb2 a b i j : (i < a)%nat -> (j < b)%nat -> inb [i; j] [a; b].
Proof. repeat constructor; assumption. Qed.
Lemma inb3 a b c i j k : (i < a)%nat -> (j < b)%nat -> (k < c)%nat -> inb [i; j; k] [a; b; c].
Proof. repeat constructor; assumption. Qed.
Lemma inb4 a b c d i j k m : (i < a)%nat -> (j < b)%nat -> (k < c)%nat -> (m < d)%nat -> inb [i; j; k; m] [a; b; c; d].
Proof. repeat constructor; assumption. Qed.

Lemma inb_inv1 a idx : inb idx [a] -> exists i, idx = [i] /\ (i < a)%nat.
Proof. intros H. inversion H as [|i ? r ? Hi H1]; subst. inversion H1; subst. eauto. Qed.
Lemma inb_inv2 a b idx : inb idx [a; b] -> exists i j, idx = [i; j] /\ (i < a)%nat /\ (j < b)%nat.
Proof. intros H. inversion H as [|i ? r ? Hi H1]; subst. destruct (inb_inv1 _ _ H1) as (j & -> & Hj). eauto. Qed.
Lemma inb_inv3 a b c idx : inb idx [a; b; c] -> exists i j k, idx = [i; j; k] /\ (i < a)%nat /\ (j < b)%nat /\ (k < c)%nat.
Proof. intros H. inversion H as [|i ? r ? Hi H1]; subst. destruct (inb_inv2 _ _ _ H1) as (j & k & -> & Hj). exists i, j, k. tauto. Qed.
Lemma inb_inv4 a b c d idx : inb idx [a; b; c; d] ->
  exists i j k m, idx = [i; j; k; m] /\ (i < a)%nat /\ (j < b)%nat /\ (k < c)%nat /\ (m < d)%nat.
Proof. intros H. inversion H as [|i ? r ? Hi H1]; subst. destruct (inb_inv3 _ _ _ _ H1) as (j & k & m & -> & Hj). exists i, j, k, m. tauto. Qed.

Lemma bidx_self sh : forall idx, inb idx sh -> map (fun '(n, i) => bidx n i) (combine sh idx) = idx.
Proof.
  induction sh as [|n sh IH]; intros idx H; inversion H as [|i ? r ? Hi Hr]; subst; [reflexivity|].
  cbn [combine map]. rewrite bidx_lt by exact Hi. rewrite IH by exact Hr. reflexivity.
Qed.

Lemma nbroadcast_same sh f : nbroadcast (ntab sh f) sh = Ok (ntab sh f).
Proof.
  unfold nbroadcast. cbn [nsh ntab]. rewrite Nat.sub_diag, Nat.leb_refl. cbn [skipn andb].
  assert (E : forallb (fun '(n, m) => Nat.eqb n m || Nat.eqb n 1) (combine sh sh) = true).
  { induction sh as [|n sh IH]; [reflexivity|]. cbn. rewrite Nat.eqb_refl. exact IH. }
  rewrite E. f_equal. apply ntab_ext. intros idx H. rewrite bidx_self by exact H. apply nget_ntab. exact H.
Qed.

Lemma nbroadcast_fnd sh f : nbroadcast (fnd sh f) sh = Ok (fnd sh f).
Proof. apply nbroadcast_same. Qed.

Lemma nbroadcast_scal a sh : nbroadcast (nscal (Fin a)) sh = Ok (fnd sh (fun _ => a)).
Proof. reflexivity. Qed.

Lemma same_shape_refl s : same_shape s s = true.
Proof.
  unfold same_shape. rewrite Nat.eqb_refl. cbn. induction s as [|n s IH]; [reflexivity|]. cbn. rewrite Nat.eqb_refl. exact IH.
Qed.

(** Arrays of two and three dimensions, by their indices. *)
Definition nd2 (a b : nat) (f : nat -> nat -> R) : nd := fnd [a; b] (fun idx => f (nth 0 idx 0%nat) (nth 1 idx 0%nat)).
Definition nd3 (a b c : nat) (f : nat -> nat -> nat -> R) : nd :=
  fnd [a; b; c] (fun idx => f (nth 0 idx 0%nat) (nth 1 idx 0%nat) (nth 2 idx 0%nat)).
Definition nd4 (a b c d : nat) (f : nat -> nat -> nat -> nat -> R) : nd :=
  fnd [a; b; c; d] (fun idx => f (nth 0 idx 0%nat) (nth 1 idx 0%nat) (nth 2 idx 0%nat) (nth 3 idx 0%nat)).
Lemma nget_nd2 a b f i j : (i < a)%nat -> (j < b)%nat -> nget (nd2 a b f) [i; j] = Fin (f i j).
Proof. intros. unfold nd2. rewrite nget_fnd by (apply inb2; assumption). reflexivity. Qed.
Lemma nget_nd3 a b c f i j k : (i < a)%nat -> (j < b)%nat -> (k < c)%nat -> nget (nd3 a b c f) [i; j; k] = Fin (f i j k).
Proof. intros. unfold nd3. rewrite nget_fnd by (apply inb3; assumption). reflexivity. Qed.
Lemma nd2_ext a b f g : (forall i j, (i < a)%nat -> (j < b)%nat -> f i j = g i j) -> nd2 a b f = nd2 a b g.
Proof. intros H. apply fnd_ext. intros idx Hi. destruct (inb_inv2 _ _ _ Hi) as (i & j & -> & H1 & H2). apply H; assumption. Qed.
Lemma nd3_ext a b c f g : (forall i j k, (i < a)%nat -> (j < b)%nat -> (k < c)%nat -> f i j k = g i j k) -> nd3 a b c f = nd3 a b c g.
Proof. intros H. apply fnd_ext. intros idx Hi. destruct (inb_inv3 _ _ _ _ Hi) as (i & j & k & -> & H1 & H2 & H3). apply H; assumption. Qed.
