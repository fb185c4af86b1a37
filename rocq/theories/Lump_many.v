(** * C93 for several sequences. *)
From Verif Require Export Lump_thms.

Lemma tab_plus {A} m n (f : nat -> A) : tab (m + n) f = tab m f ++ tab n (fun i => f (m + i)%nat).
Proof.
  unfold tab. rewrite seq_app, map_app. f_equal. change (0 + m)%nat with m.
  rewrite <- (Nat.add_0_r m) at 1. generalize 0%nat as k. induction n as [|n IH]; intros k; [reflexivity|].
  cbn [seq map]. f_equal. rewrite <- IH. do 2 f_equal. lia.
Qed.

(** Posteriors computed sequence by sequence, as one array each. *)
Lemma stack2 {X} nc nc' (f f' : list X -> nat -> nat -> R) (Q : (nat -> R) -> (nat -> R) -> Prop) cs :
  (forall c t, In c cs -> (t < length c)%nat -> Q (f c t) (f' c t)) ->
  exists p p', flat_map (fun c => rows (fmat (length c) nc (f c))) cs = rows (fmat (length (concat cs)) nc p)
    /\ flat_map (fun c => rows (fmat (length c) nc' (f' c))) cs = rows (fmat (length (concat cs)) nc' p')
    /\ forall t, (t < length (concat cs))%nat -> Q (p t) (p' t).
Proof.
  induction cs as [|c cs IH]; intros H.
  - exists (fun _ _ => 0), (fun _ _ => 0). split; [reflexivity|]. split; [reflexivity|]. cbn. lia.
  - destruct IH as (p & p' & H1 & H2 & H3). { intros c0 t Hc. apply H. right. exact Hc. }
    exists (fun t => if (t <? length c)%nat then f c t else p (t - length c)%nat),
           (fun t => if (t <? length c)%nat then f' c t else p' (t - length c)%nat).
    cbn [flat_map concat]. rewrite H1, H2, app_length. unfold fmat, mtab. cbn [rows]. rewrite !tab_plus.
    assert (E : forall n (g q : nat -> nat -> R),
      tab (length c) (fun i => tab n (fun j => Fin (g i j))) ++ tab (length (concat cs)) (fun i => tab n (fun j => Fin (q i j)))
      = tab (length c) (fun i => tab n (fun j => Fin ((if (i <? length c)%nat then g i else q (i - length c)%nat) j)))
        ++ tab (length (concat cs)) (fun i => tab n (fun j => Fin ((if (length c + i <? length c)%nat then g (length c + i)%nat else q (length c + i - length c)%nat) j)))).
    { intros n g q. f_equal; apply tab_ext; intros i Hi; apply tab_ext; intros j Hj.
      - destruct (Nat.ltb_spec i (length c)); [reflexivity|lia].
      - destruct (Nat.ltb_spec (length c + i) (length c)); [lia|]. replace (length c + i - length c)%nat with i by lia. reflexivity. }
    split; [apply E|]. split; [apply E|].
    intros t Ht. destruct (Nat.ltb_spec t (length c)) as [L|L].
    + apply H; [left; reflexivity|exact L].
    + apply H3. lia.
Qed.

Lemma C93_posteriors_lengths_l {P P' X St St'} (E : emclass P X St) (E' : emclass P' X St') h h' nc nc' m pi pi' A A' ok b b' ls x :
  ready E h nc pi A ok b -> ready E' h' nc' pi' A' ok b' -> redundant nc nc' m pi pi' A A' ok b b' ->
  c_impl (h_cfg h) = c_impl (h_cfg h') -> good_data ok ls x ->
  (forall c, In c (chunks ls x) -> scorable nc pi A b (c_impl (h_cfg h)) c) ->
  exists p p', predict_proba E exact h x (as_lengths ls) = Ok (fmat (length x) nc p)
    /\ predict_proba E' exact h' x (as_lengths ls) = Ok (fmat (length x) nc' p')
    /\ forall t, (t < length x)%nat ->
         (forall i, (i < nc)%nat -> copies nc' m i (p' t) = p t i)
         /\ forall k, (k < nc')%nat -> m k = None -> p' t k = 0.
Proof.
  intros R1 R2 RD Hi Hd Hs.
  pose proof (good_data_chunks ok ls x Hd) as (_ & _ & Hch). rewrite Forall_forall in Hch.
  assert (Hs' : forall c, In c (chunks ls x) -> scorable nc' pi' A' b' (c_impl (h_cfg h')) c).
  { intros c Hc. destruct (Hch c Hc) as [Hne Hx]. rewrite <- Hi. destruct (Hs c Hc) as [[H1 H2]|[H1 H2]]; [left|right]; (split; [exact H1|]).
    - rewrite (seq_lik_copies nc nc' m pi pi' A A' ok b b' RD c Hne Hx). exact H2.
    - apply (underflow_copies nc nc' m pi pi' A A' ok b b' RD c Hx). exact H2. }
  rewrite (C04_posteriors_lengths_l E h nc pi A ok b ls x R1 Hd Hs).
  rewrite (C04_posteriors_lengths_l E' h' nc' pi' A' ok b' ls x R2 Hd Hs').
  destruct (stack2 nc nc' (seq_post nc pi A b) (seq_post nc' pi' A' b')
    (fun u v => (forall i, (i < nc)%nat -> copies nc' m i v = u i) /\ forall k, (k < nc')%nat -> m k = None -> v k = 0) (chunks ls x))
    as (p & p' & H1 & H2 & H3).
  { intros c t Hc Ht. destruct (Hch c Hc) as [_ Hx]. split.
    - intros i Hi'. exact (seq_post_copies nc nc' m pi pi' A A' ok b b' RD c t i Hx Ht Hi').
    - intros k Hk Hm. exact (seq_post_dead nc nc' m pi pi' A A' ok b b' RD c t k Hx Ht Hk Hm). }
  rewrite (chunks_concat ls x) in H1, H2, H3 by apply Hd.
  exists p, p'. rewrite H1, H2. split; [reflexivity|]. split; [reflexivity|exact H3].
Qed.
