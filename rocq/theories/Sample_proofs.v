(** * Proofs about sampling. *)
From Verif Require Export Spec_sample Api_proofs Categorical_proofs.

Lemma cumsum_from_fvec a n f :
  cumsum_from exact (Fin a) (fvec n f) = tab n (fun i => Fin (a + sumn (S i) f)).
Proof.
  revert a f. induction n as [|n IH]; intros a f; [reflexivity|].
  unfold fvec. rewrite tab_S. cbn [cumsum_from]. cbn [xadd]. unfold exact at 1 3.
  fold (fvec n (fun i => f (S i))). rewrite (tab_S n (fun i => Fin (a + sumn (S i) f))).
  f_equal; [unfold exact; f_equal; simpl; lra|].
  change (fun r => Fin r) with exact. rewrite IH. apply tab_ext. intros i Hi. f_equal.
  rewrite (sumn_S_l (S i) f). lra.
Qed.

Lemma cumsum_fvec n f : cumsum exact (fvec n f) = tab n (fun i => Fin (sumn (S i) f)).
Proof.
  destruct n as [|n]; [reflexivity|].
  unfold fvec. rewrite tab_S. cbn [cumsum]. fold (fvec n (fun i => f (S i))).
  rewrite cumsum_from_fvec. rewrite tab_S. f_equal; [f_equal; simpl; lra|].
  apply tab_ext. intros i Hi. f_equal. rewrite (sumn_S_l (S i) f). lra.
Qed.

Lemma argmax_bool_from_spec l i :
  match argmax_bool_from i l with
  | Some k => (i <= k < i + length l)%nat /\ nth (k - i) l false = true
              /\ forall j, (j < k - i)%nat -> nth j l false = false
  | None => forall j, (j < length l)%nat -> nth j l false = false
  end.
Proof.
  revert i. induction l as [|x l IH]; intros i; cbn [argmax_bool_from].
  - intros j Hj. simpl in Hj. lia.
  - destruct x.
    + rewrite Nat.sub_diag. simpl length. split; [lia|]. split; [reflexivity|]. intros; lia.
    + specialize (IH (S i)). destruct (argmax_bool_from (S i) l) as [k|].
      * destruct IH as (H1 & H2 & H3). simpl length. split; [lia|].
        replace (k - i)%nat with (S (k - S i)) by lia. split; [exact H2|].
        intros [|j] Hj; [reflexivity|]. simpl. apply H3. lia.
      * intros [|j] Hj; [reflexivity|]. simpl in *. apply IH. lia.
Qed.

(** Where [pick] lands: the first index whose cumulative sum exceeds [u], or 0. *)
Lemma pick_cases n p u :
  ((pick exact (fvec n p) u < n)%nat /\ u < sumn (S (pick exact (fvec n p) u)) p
   /\ forall j, (j < pick exact (fvec n p) u)%nat -> sumn (S j) p <= u)
  \/ (pick exact (fvec n p) u = 0%nat /\ forall j, (j < n)%nat -> sumn (S j) p <= u).
Proof.
  unfold pick, argmax_bool. rewrite cumsum_fvec, tab_map.
  pose proof (argmax_bool_from_spec (tab n (fun i => xltb (Fin u) (Fin (sumn (S i) p)))) 0) as H.
  destruct (argmax_bool_from 0 _) as [k|].
  - left. rewrite tab_length, Nat.sub_0_r in H. destruct H as (H1 & H2 & H3).
    split; [lia|]. rewrite tab_nth in H2 by lia. cbn [xltb] in H2. apply Rltb_true in H2.
    split; [exact H2|]. intros j Hj. specialize (H3 j Hj). rewrite tab_nth in H3 by lia.
    cbn [xltb] in H3. apply Rltb_false in H3. exact H3.
  - right. split; [reflexivity|]. intros j Hj. rewrite tab_length in H. specialize (H j Hj).
    rewrite tab_nth in H by lia. cbn [xltb] in H. apply Rltb_false in H. exact H.
Qed.

Lemma sumn_le_add n m p : (forall i, (i < n + m)%nat -> 0 <= p i) -> sumn n p <= sumn (n + m) p.
Proof.
  intros H. rewrite sumn_add. pose proof (sumn_nonneg m (fun i => p (n + i)%nat)).
  assert (0 <= sumn m (fun i => p (n + i)%nat)); [|lra]. apply H0. intros i Hi. apply H. lia.
Qed.
Lemma sumn_mono n m p : (n <= m)%nat -> (forall i, (i < m)%nat -> 0 <= p i) -> sumn n p <= sumn m p.
Proof.
  intros Hnm H. replace m with (n + (m - n))%nat by lia. apply sumn_le_add.
  intros i Hi. apply H. lia.
Qed.

Lemma inverse_cdf_unique n p u i j : nonneg1 n p ->
  inverse_cdf n p u i -> inverse_cdf n p u j -> i = j.
Proof.
  intros Hp (Hi & Hi1 & Hi2) (Hj & Hj1 & Hj2).
  destruct (Nat.lt_trichotomy i j) as [H|[H|H]]; [|exact H|]; exfalso.
  - pose proof (sumn_mono (S i) j p ltac:(lia) ltac:(intros; apply Hp; lia)). lra.
  - pose proof (sumn_mono (S j) i p ltac:(lia) ltac:(intros; apply Hp; lia)). lra.
Qed.

Lemma pick_inverse n p u : (0 < n)%nat -> 0 <= u < sumn n p ->
  inverse_cdf n p u (pick exact (fvec n p) u).
Proof.
  intros Hn Hu. destruct (pick_cases n p u) as [(H1 & H2 & H3)|(H1 & H2)].
  - split; [exact H1|]. split; [|exact H2].
    destruct (pick exact (fvec n p) u) as [|k] eqn:E; [simpl; lra|]. apply H3. lia.
  - exfalso. specialize (H2 (n - 1)%nat ltac:(lia)). replace (S (n - 1)) with n in H2 by lia. lra.
Qed.

Lemma pick_iff n p u i : (0 < n)%nat -> nonneg1 n p -> 0 <= u < sumn n p ->
  (pick exact (fvec n p) u = i <-> inverse_cdf n p u i).
Proof.
  intros Hn Hp Hu. pose proof (pick_inverse n p u Hn Hu) as H. split.
  - intros <-. exact H.
  - intros Hi. exact (inverse_cdf_unique n p u _ _ Hp H Hi).
Qed.

Lemma inverse_cdf_pos n p u i : inverse_cdf n p u i -> 0 < p i.
Proof. intros (Hi & H1 & H2). simpl in H2. lra. Qed.

Lemma pick_lt n p u : (0 < n)%nat -> (pick exact (fvec n p) u < n)%nat.
Proof. intros Hn. destruct (pick_cases n p u) as [(H & _)|(H & _)]; [exact H|]. rewrite H. exact Hn. Qed.

Lemma nth_rows_fmat r c f i : (i < r)%nat -> nth i (rows (fmat r c f)) [] = fvec c (f i).
Proof. intros Hi. unfold fmat, mtab. cbn [rows]. rewrite tab_nth by exact Hi. reflexivity. Qed.

Lemma np_index_nat n i : (i < n)%nat -> np_index n (Z.of_nat i) = Ok i.
Proof. intros Hi. rewrite np_index_in by lia. rewrite Nat2Z.id. reflexivity. Qed.

Section Loop.
  Context {P : Type} (h' : hmm P) (nc : nat) (A : nat -> nat -> R).
  Context {G Y : Type} (rand : G -> R * G) (gen : hmm P -> Z -> G -> res (Y * G)).
  Hypothesis Hnc : (0 < nc)%nat.
  Let emit := fun i : nat => gen h' (Z.of_nat i).

  (** What holds without any condition on the rows. *)
  Lemma sample_loop_len n : forall c g ys zs g', (c < nc)%nat ->
    sample_loop exact rand gen h' (fmat nc nc A) n (Z.of_nat c) g = Ok (ys, zs, g') ->
    length ys = n /\ exists zs', zs = map Z.of_nat zs' /\ is_path nc n zs'.
  Proof.
    induction n as [|n IH]; intros c g ys zs g' Hc H; cbn [sample_loop] in H.
    - injection H as <- <- <-. split; [reflexivity|]. exists []. split; [reflexivity|].
      split; [reflexivity|]. intros t Ht. lia.
    - destruct (rand g) as [u g1].
      unfold nrow in H. unfold fmat at 1 in H. cbn [rows mtab] in H. rewrite tab_length in H.
      rewrite np_index_nat in H by exact Hc. cbn [bind] in H.
      rewrite nth_rows_fmat in H by exact Hc.
      pose proof (pick_lt nc (A c) u Hnc) as Hp.
      destruct (gen h' (Z.of_nat (pick exact (fvec nc (A c)) u)) g1) as [[y g2]|e]; [|discriminate].
      cbn [bind] in H.
      destruct (sample_loop exact rand gen h' (fmat nc nc A) n _ g2) as [[[ys' zs'] g3]|e] eqn:E; [|discriminate].
      cbn [bind] in H. injection H as <- <- <-.
      destruct (IH _ _ _ _ _ Hp E) as (Hl & zs2 & -> & Hz & Hlt).
      split; [simpl; lia|]. exists (pick exact (fvec nc (A c)) u :: zs2). split; [reflexivity|].
      split; [simpl; lia|]. intros [|t] Ht; simpl; [exact Hp|]. apply Hlt. lia.
  Qed.

  Lemma sample_loop_total : (forall i g, (i < nc)%nat -> exists r, emit i g = Ok r) ->
    forall n c g, (c < nc)%nat ->
    exists r, sample_loop exact rand gen h' (fmat nc nc A) n (Z.of_nat c) g = Ok r.
  Proof.
    intros Hem. induction n as [|n IH]; intros c g Hc; cbn [sample_loop]; [eexists; reflexivity|].
    destruct (rand g) as [u g1].
    unfold nrow. unfold fmat at 1. cbn [rows mtab]. rewrite tab_length.
    rewrite np_index_nat by exact Hc. cbn [bind]. rewrite nth_rows_fmat by exact Hc.
    pose proof (pick_lt nc (A c) u Hnc) as Hp.
    destruct (Hem _ g1 Hp) as [[y g2] Hy]. unfold emit in Hy. rewrite Hy. cbn [bind].
    destruct (IH _ g2 Hp) as [[[ys zs] g3] Hr]. rewrite Hr. cbn [bind]. eexists; reflexivity.
  Qed.

  Lemma sample_loop_app n m : forall c g ys zs g' ys2 zs2 g2,
    sample_loop exact rand gen h' (fmat nc nc A) n c g = Ok (ys, zs, g') ->
    (sample_loop exact rand gen h' (fmat nc nc A) (n + m) c g = Ok (ys ++ ys2, zs ++ zs2, g2)
     <-> sample_loop exact rand gen h' (fmat nc nc A) m (last zs c) g' = Ok (ys2, zs2, g2)).
  Proof.
    induction n as [|n IH]; intros c g ys zs g' ys2 zs2 g2 H; cbn [sample_loop Nat.add] in *.
    - injection H as <- <- <-. reflexivity.
    - destruct (rand g) as [u g1].
      destruct (np_index (nrow (fmat nc nc A)) c) as [i|e]; [|discriminate]. cbn [bind] in *.
      set (c' := Z.of_nat (pick exact (nth i (rows (fmat nc nc A)) []) u)) in *.
      destruct (gen h' c' g1) as [[y gg]|e]; [|discriminate]. cbn [bind] in *.
      destruct (sample_loop exact rand gen h' (fmat nc nc A) n c' gg) as [[[ys' zs'] g3]|e] eqn:E; [|discriminate].
      cbn [bind] in H. injection H as <- <- <-.
      specialize (IH c' gg ys' zs' g3 ys2 zs2 g2 E).
      assert (HL : last (c' :: zs') c = last zs' c').
      { destruct zs'; [reflexivity|]. simpl. clear. revert z. induction zs' as [|a l IHl]; intros z; [reflexivity|]. simpl. apply IHl. }
      rewrite HL, <- IH. split.
      + intros Hs. destruct (sample_loop exact rand gen h' (fmat nc nc A) (n + m) c' gg) as [[[a b] d]|e]; [|discriminate].
        cbn [bind] in Hs. injection Hs as <- <- <-. reflexivity.
      + intros Hs. rewrite Hs. reflexivity.
  Qed.

  Hypothesis Hrand : uniform_range rand.
  Hypothesis HA : nonneg2 nc nc A.
  Hypothesis Hsum : forall i, (i < nc)%nat -> 1 <= sumn nc (A i).

  Lemma sample_loop_chain n : forall c g ys zs g', (c < nc)%nat ->
    (sample_loop exact rand gen h' (fmat nc nc A) n (Z.of_nat c) g = Ok (ys, zs, g')
     <-> exists zs', zs = map Z.of_nat zs' /\ length zs' = n /\ chain rand emit nc A c g ys zs' g').
  Proof.
    induction n as [|n IH]; intros c g ys zs g' Hc; cbn [sample_loop].
    - split.
      + intros H. injection H as <- <- <-. exists []. repeat split; constructor.
      + intros (zs' & -> & Hl & H). destruct zs'; [|discriminate]. inversion H; subst. reflexivity.
    - destruct (rand g) as [u g1] eqn:Er.
      unfold nrow. unfold fmat at 1. cbn [rows mtab]. rewrite tab_length.
      rewrite np_index_nat by exact Hc. cbn [bind]. rewrite nth_rows_fmat by exact Hc.
      assert (Hu : 0 <= u < sumn nc (A c)).
      { specialize (Hrand g). rewrite Er in Hrand. simpl in Hrand. specialize (Hsum c Hc). lra. }
      pose proof (pick_lt nc (A c) u Hnc) as Hp.
      assert (HAc : nonneg1 nc (A c)) by (intros j Hj; apply HA; assumption).
      pose proof (pick_inverse nc (A c) u Hnc Hu) as Hi.
      set (k := pick exact (fvec nc (A c)) u) in *. split.
      + intros H. destruct (gen h' (Z.of_nat k) g1) as [[y g2]|e] eqn:Ey; [|discriminate].
        cbn [bind] in H.
        destruct (sample_loop exact rand gen h' (fmat nc nc A) n (Z.of_nat k) g2) as [[[ys' zs'] g3]|e] eqn:E; [|discriminate].
        cbn [bind] in H. injection H as <- <- <-.
        apply IH in E; [|exact Hp]. destruct E as (zs2 & -> & Hl & Hch).
        exists (k :: zs2). split; [reflexivity|]. split; [simpl; lia|].
        econstructor; eassumption.
      + intros (zs' & -> & Hl & H). inversion H; subst; [discriminate|].
        match goal with Hx : rand g = _ |- _ => rewrite Er in Hx; injection Hx as <- <- end.
        match goal with Hx : inverse_cdf nc (A c) u ?c' |- _ =>
          pose proof (inverse_cdf_unique nc (A c) u _ _ HAc Hi Hx) as Hk; subst c' end.
        match goal with Hx : emit k g1 = Ok _ |- _ => unfold emit in Hx; rewrite Hx end. cbn [bind].
        match goal with Hx : chain _ _ _ _ k ?gg ?l ?zz g' |- _ =>
          assert (E : sample_loop exact rand gen h' (fmat nc nc A) n (Z.of_nat k) gg = Ok (l, map Z.of_nat zz, g'))
            by (apply IH; [exact Hp|]; exists zz; split; [reflexivity|]; split; [simpl in Hl; lia|exact Hx]);
          rewrite E end.
        reflexivity.
  Qed.
End Loop.

Section Api.
  Context {P X St : Type} (E : emclass P X St) (h h' : hmm P).
  Variables (nc : nat) (pi : nat -> R) (A : nat -> nat -> R) (ok : X -> Prop) (b : X -> nat -> R).
  Hypothesis Rd : ready E h nc pi A ok b.
  Hypothesis Hck : check E exact h = Ok h'.
  Context {G Y : Type} (rand : G -> R * G) (gen : hmm P -> Z -> G -> res (Y * G)).
  Let emit := fun i : nat => gen h' (Z.of_nat i).

  Lemma fitted_check_ready : fitted_check E exact h = Ok (h', fvec nc pi, fmat nc nc A).
  Proof.
    unfold fitted_check. rewrite (rd_start _ _ _ _ _ _ _ Rd). rewrite Hck. cbn [bind].
    assert (Hs : h_start h' = h_start h /\ h_trans h' = h_trans h).
    { unfold check in Hck. rewrite (rd_start _ _ _ _ _ _ _ Rd), (rd_trans _ _ _ _ _ _ _ Rd) in Hck.
      destruct (base_check _ _ _ _); [|discriminate]. cbn [bind] in Hck.
      destruct (ec_check _ _ _ _ _) as [[nf em]|]; [|discriminate]. cbn [bind] in Hck.
      injection Hck as <-. cbn. rewrite (rd_start _ _ _ _ _ _ _ Rd), (rd_trans _ _ _ _ _ _ _ Rd).
      split; reflexivity. }
    destruct Hs as [-> ->]. rewrite (rd_start _ _ _ _ _ _ _ Rd), (rd_trans _ _ _ _ _ _ _ Rd).
    reflexivity.
  Qed.

  Lemma sample_eq n cs g : sample E exact rand gen h n cs g =
    let '(cur, g1) := match cs with
      | None => (Z.of_nat (pick exact (fvec nc pi) (fst (rand g))), snd (rand g))
      | Some c => (c, g) end in
    do (y, g2) <- gen h' cur g1;
    do (ys, zs, g3) <- sample_loop exact rand gen h' (fmat nc nc A) (Z.to_nat (n - 1)) cur g2;
    Ok (y :: ys, cur :: zs, g3).
  Proof.
    unfold sample. rewrite fitted_check_ready. cbn [bind].
    destruct cs; [reflexivity|]. destruct (rand g); reflexivity.
  Qed.

  (** Shape of the result, for any rows. *)
  Lemma sample_shape n cs g ys zs g' : (1 <= n)%Z ->
    (forall c, cs = Some c -> 0 <= c < Z.of_nat nc)%Z ->
    sample E exact rand gen h n cs g = Ok (ys, zs, g') ->
    length ys = Z.to_nat n
    /\ (exists zs', zs = map Z.of_nat zs' /\ is_path nc (Z.to_nat n) zs')
    /\ (forall c, cs = Some c -> nth 0 zs 0%Z = c).
  Proof.
    intros Hn Hc H. rewrite sample_eq in H.
    assert (HX : exists i g1, (i < nc)%nat /\ (forall c, cs = Some c -> Z.of_nat i = c) /\
      (do (y, g2) <- gen h' (Z.of_nat i) g1;
       do (ys, zs, g3) <- sample_loop exact rand gen h' (fmat nc nc A) (Z.to_nat (n - 1)) (Z.of_nat i) g2;
       Ok (y :: ys, Z.of_nat i :: zs, g3)) = Ok (ys, zs, g')).
    { destruct cs as [c|].
      - specialize (Hc c eq_refl). exists (Z.to_nat c), g. split; [lia|].
        rewrite Z2Nat.id by lia. split; [intros c0 E0; injection E0; auto|exact H].
      - exists (pick exact (fvec nc pi) (fst (rand g))), (snd (rand g)).
        split; [apply pick_lt, Rd|]. split; [discriminate|exact H]. }
    clear H. destruct HX as (i & g1 & Hi & Hcs & H).
    destruct (gen h' (Z.of_nat i) g1) as [[y g2]|e]; [|discriminate]. cbn [bind] in H.
    destruct (sample_loop _ _ _ _ _ _ _ g2) as [[[ys' zs'] g3]|e] eqn:El; [|discriminate].
    cbn [bind] in H. injection H as <- <- <-.
    destruct (sample_loop_len h' nc A rand gen (rd_pos _ _ _ _ _ _ _ Rd) _ _ _ _ _ _ Hi El)
      as (Hl & z2 & -> & Hz & Hlt).
    replace (Z.to_nat n) with (S (Z.to_nat (n - 1))) by lia.
    split; [simpl; lia|]. split.
    - exists (i :: z2). split; [reflexivity|]. split; [simpl; lia|].
      intros [|t] Ht; [exact Hi|]. apply Hlt. lia.
    - intros c E0. exact (Hcs c E0).
  Qed.

  Lemma sample_total n cs g : (forall i g, (i < nc)%nat -> exists r, emit i g = Ok r) ->
    (forall c, cs = Some c -> 0 <= c < Z.of_nat nc)%Z ->
    exists r, sample E exact rand gen h n cs g = Ok r.
  Proof.
    intros Hem Hc. rewrite sample_eq.
    assert (HX : forall i g1, (i < nc)%nat -> exists r,
      (do (y, g2) <- gen h' (Z.of_nat i) g1;
       do (ys, zs, g3) <- sample_loop exact rand gen h' (fmat nc nc A) (Z.to_nat (n - 1)) (Z.of_nat i) g2;
       Ok (y :: ys, Z.of_nat i :: zs, g3)) = Ok r).
    { intros i g1 Hi. destruct (Hem i g1 Hi) as [[y g2] Hy]. unfold emit in Hy. rewrite Hy. cbn [bind].
      destruct (sample_loop_total h' nc A rand gen (rd_pos _ _ _ _ _ _ _ Rd) Hem (Z.to_nat (n - 1)) i g2 Hi)
        as [[[ys zs] g3] Hr]. rewrite Hr. eexists; reflexivity. }
    destruct cs as [c|].
    - specialize (Hc c eq_refl). rewrite <- (Z2Nat.id c) by lia. apply HX. lia.
    - apply HX, pick_lt, Rd.
  Qed.

  (** Continuing from the last state. *)
  Lemma sample_continue n m cs g ys zs g1 g0 y0 ys2 zs2 g2 : (1 <= n)%Z -> (0 <= m)%Z ->
    sample E exact rand gen h n cs g = Ok (ys, zs, g1) ->
    gen h' (last zs 0%Z) g0 = Ok (y0, g1) ->
    (sample E exact rand gen h (n + m) cs g = Ok (ys ++ ys2, zs ++ zs2, g2)
     <-> sample E exact rand gen h (m + 1) (Some (last zs 0%Z)) g0
         = Ok (y0 :: ys2, last zs 0%Z :: zs2, g2)).
  Proof.
    intros Hn Hm H H0. rewrite sample_eq in H. rewrite !sample_eq. rewrite H0. cbn [bind].
    destruct (match cs with None => _ | Some c => _ end) as [cur gg]. cbv zeta in *.
    destruct (gen h' cur gg) as [[y ga]|e]; [|discriminate]. cbn [bind] in *.
    destruct (sample_loop exact rand gen h' (fmat nc nc A) (Z.to_nat (n - 1)) cur ga)
      as [[[ys' zs'] gb]|e] eqn:El; [|discriminate].
    cbn [bind] in H. injection H as <- <- <-.
    pose proof (sample_loop_app h' nc A rand gen (Z.to_nat (n - 1)) (Z.to_nat m) cur ga ys' zs' gb ys2 zs2 g2 El) as Happ.
    replace (Z.to_nat (n + m - 1)) with (Z.to_nat (n - 1) + Z.to_nat m)%nat by lia.
    replace (m + 1 - 1)%Z with m by lia.
    assert (HL : last (cur :: zs') 0%Z = last zs' cur).
    { destruct zs'; [reflexivity|]. simpl. clear. revert z. induction zs' as [|a l IHl]; intros z; [reflexivity|]. simpl. apply IHl. }
    rewrite HL. split.
    - intros Hs. rewrite ?app_comm_cons in *.
      assert (Hs' : sample_loop exact rand gen h' (fmat nc nc A) (Z.to_nat (n - 1) + Z.to_nat m) cur ga = Ok (ys' ++ ys2, zs' ++ zs2, g2)).
      { destruct (sample_loop exact rand gen h' (fmat nc nc A) (Z.to_nat (n - 1) + Z.to_nat m) cur ga) as [[[u v] w]|e]; [|discriminate].
        cbn [bind] in Hs. injection Hs as <- <- <-. reflexivity. }
      apply Happ in Hs'. rewrite Hs'. reflexivity.
    - intros Hs.
      assert (Hs' : sample_loop exact rand gen h' (fmat nc nc A) (Z.to_nat m) (last zs' cur) gb = Ok (ys2, zs2, g2)).
      { destruct (sample_loop exact rand gen h' (fmat nc nc A) (Z.to_nat m) (last zs' cur) gb) as [[[u v] w]|e]; [|discriminate].
        cbn [bind] in Hs. injection Hs as <- <- <-. reflexivity. }
      apply Happ in Hs'. rewrite Hs'. reflexivity.
  Qed.

  Hypothesis Hrand : uniform_range rand.
  Hypothesis Hsum : forall i, (i < nc)%nat -> 1 <= sumn nc (A i).

  Lemma sample_from n c g ys zs g' : (c < nc)%nat ->
    (sample E exact rand gen h n (Some (Z.of_nat c)) g = Ok (ys, zs, g')
     <-> exists y g2 ys' zs', emit c g = Ok (y, g2) /\ chain rand emit nc A c g2 ys' zs' g'
         /\ ys = y :: ys' /\ zs = map Z.of_nat (c :: zs') /\ length zs' = Z.to_nat (n - 1)).
  Proof.
    intros Hc. rewrite sample_eq. unfold emit.
    pose proof (fun g => sample_loop_chain h' nc A rand gen (rd_pos _ _ _ _ _ _ _ Rd) Hrand
                  (rd_A _ _ _ _ _ _ _ Rd) Hsum (Z.to_nat (n - 1)) c g) as HC.
    split.
    - intros H. destruct (gen h' (Z.of_nat c) g) as [[y g2]|e]; [|discriminate]. cbn [bind] in H.
      destruct (sample_loop _ _ _ _ _ _ _ g2) as [[[ys' zs'] g3]|e] eqn:El; [|discriminate].
      cbn [bind] in H. injection H as <- <- <-. apply HC in El; [|exact Hc].
      destruct El as (z2 & -> & Hl & Hch). exists y, g2, ys', z2. repeat split; auto.
    - intros (y & g2 & ys' & zs' & Hy & Hch & -> & -> & Hl). rewrite Hy. cbn [bind].
      assert (El : sample_loop exact rand gen h' (fmat nc nc A) (Z.to_nat (n - 1)) (Z.of_nat c) g2
                   = Ok (ys', map Z.of_nat zs', g')).
      { apply HC; [exact Hc|]. exists zs'. auto. }
      rewrite El. reflexivity.
  Qed.

  Hypothesis Hpi : 1 <= sumn nc pi.

  Lemma sample_start n g ys zs g' :
    (sample E exact rand gen h n None g = Ok (ys, zs, g')
     <-> exists u g1 c y g2 ys' zs', rand g = (u, g1) /\ inverse_cdf nc pi u c
         /\ emit c g1 = Ok (y, g2) /\ chain rand emit nc A c g2 ys' zs' g'
         /\ ys = y :: ys' /\ zs = map Z.of_nat (c :: zs') /\ length zs' = Z.to_nat (n - 1)).
  Proof.
    assert (HS : sample E exact rand gen h n None g
      = sample E exact rand gen h n (Some (Z.of_nat (pick exact (fvec nc pi) (fst (rand g))))) (snd (rand g))).
    { rewrite !sample_eq. reflexivity. }
    rewrite HS. destruct (rand g) as [u g1] eqn:Er. cbn [fst snd].
    assert (Hu : 0 <= u < sumn nc pi) by (specialize (Hrand g); rewrite Er in Hrand; simpl in Hrand; lra).
    rewrite sample_from by apply pick_lt, Rd.
    pose proof (pick_inverse nc pi u (rd_pos _ _ _ _ _ _ _ Rd) Hu) as Hi. split.
    - intros (y & g2 & ys' & zs' & H). exists u, g1, (pick exact (fvec nc pi) u), y, g2, ys', zs'.
      split; [reflexivity|]. split; [exact Hi|]. exact H.
    - intros (u0 & g10 & c & y & g2 & ys' & zs' & He & Hc & H). injection He as <- <-.
      pose proof (inverse_cdf_unique nc pi u _ _ (rd_pi _ _ _ _ _ _ _ Rd) Hi Hc). subst c.
      exists y, g2, ys', zs'. exact H.
  Qed.
End Api.
