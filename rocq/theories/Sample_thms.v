(** * Sampling: the properties C15-C17. *)
From Verif Require Export Sample_proofs Examples.

Lemma sumn_1_le p n : sumn n p = 1 -> 1 <= sumn n p. Proof. intros ->. lra. Qed.

Lemma map_of_nat_inj l l' : map Z.of_nat l = map Z.of_nat l' -> l = l'.
Proof.
  revert l'. induction l as [|x l IH]; intros [|y l'] H; try discriminate; [reflexivity|].
  simpl in H. injection H as H1 H2. apply Nat2Z.inj in H1. subst y. f_equal. apply IH, H2.
Qed.

Lemma chain_pos_t {G Y} (rand : G -> R * G) (emit : nat -> G -> res (Y * G)) nc A c g ys zs g' :
  chain rand emit nc A c g ys zs g' ->
  forall t, (t < length zs)%nat -> 0 < A (nth t (c :: zs) 0%nat) (nth t zs 0%nat).
Proof.
  induction 1 as [|c g u g1 c' y g2 ys zs g3 Hr Hi Hy Hc IH]; intros t Ht; [simpl in Ht; lia|].
  destruct t as [|t]; simpl; [exact (inverse_cdf_pos _ _ _ _ Hi)|].
  apply IH. simpl in Ht. lia.
Qed.

Section Api.
  Context {P X St : Type} (E : emclass P X St) (h h' : hmm P).
  Variables (nc : nat) (pi : nat -> R) (A : nat -> nat -> R) (ok : X -> Prop) (b : X -> nat -> R).
  Hypothesis Rd : ready E h nc pi A ok b.
  Hypothesis Hck : check E exact h = Ok h'.
  Context {G Y : Type} (rand : G -> R * G) (gen : hmm P -> Z -> G -> res (Y * G)).
  Let emit := fun i : nat => gen h' (Z.of_nat i).
  Hypothesis Hrand : uniform_range rand.

  Lemma interval_start i : sumn nc pi = 1 -> (i < nc)%nat ->
    (forall i g, (i < nc)%nat -> exists r, emit i g = Ok r) ->
    exists lo hi, 0 <= lo /\ hi <= 1 /\ hi - lo = pi i /\
      forall g, (exists ys g', sample E exact rand gen h 1 None g = Ok (ys, [Z.of_nat i], g'))
                <-> lo <= fst (rand g) < hi.
  Proof.
    intros Hpi Hi Hem. exists (sumn i pi), (sumn (S i) pi).
    split; [apply sumn_nonneg; intros j Hj; apply (rd_pi _ _ _ _ _ _ _ Rd); lia|].
    split; [rewrite <- Hpi; apply sumn_mono; [lia|intros j Hj; apply (rd_pi _ _ _ _ _ _ _ Rd); lia]|].
    split; [simpl; lra|].
    intros g.
    assert (Hu : 0 <= fst (rand g) < sumn nc pi) by (rewrite Hpi; apply Hrand).
    pose proof (pick_iff nc pi (fst (rand g)) i (rd_pos _ _ _ _ _ _ _ Rd) (rd_pi _ _ _ _ _ _ _ Rd) Hu) as HP.
    split.
    - intros (ys & g' & H). rewrite (sample_eq E h h' nc pi A ok b Rd Hck rand gen) in H.
      destruct (gen h' _ (snd (rand g))) as [[y g2]|e]; [|discriminate]. cbn [bind Z.sub Z.to_nat sample_loop] in H.
      cbn in H. injection H as _ Hz _. apply Nat2Z.inj in Hz. apply HP in Hz. exact (proj2 Hz).
    - intros Hb. assert (Hz : pick exact (fvec nc pi) (fst (rand g)) = i) by (apply HP; split; assumption).
      destruct (Hem i (snd (rand g)) Hi) as [[y g2] Hy]. unfold emit in Hy.
      exists [y], g2. rewrite (sample_eq E h h' nc pi A ok b Rd Hck rand gen). rewrite Hz, Hy. reflexivity.
  Qed.

  Lemma interval_step c i : (c < nc)%nat -> sumn nc (A c) = 1 -> (i < nc)%nat ->
    (forall i g, (i < nc)%nat -> exists r, emit i g = Ok r) ->
    exists lo hi, 0 <= lo /\ hi <= 1 /\ hi - lo = A c i /\
      forall g y g1, emit c g = Ok (y, g1) ->
        (exists ys g', sample E exact rand gen h 2 (Some (Z.of_nat c)) g
                       = Ok (ys, [Z.of_nat c; Z.of_nat i], g'))
        <-> lo <= fst (rand g1) < hi.
  Proof.
    intros Hc HA Hi Hem.
    assert (HAc : nonneg1 nc (A c)) by (intros j Hj; apply (rd_A _ _ _ _ _ _ _ Rd); assumption).
    exists (sumn i (A c)), (sumn (S i) (A c)).
    split; [apply sumn_nonneg; intros j Hj; apply HAc; lia|].
    split; [rewrite <- HA; apply sumn_mono; [lia|intros j Hj; apply HAc; lia]|].
    split; [simpl; lra|].
    intros g y g1 Hy.
    assert (Hu : 0 <= fst (rand g1) < sumn nc (A c)) by (rewrite HA; apply Hrand).
    pose proof (pick_iff nc (A c) (fst (rand g1)) i (rd_pos _ _ _ _ _ _ _ Rd) HAc Hu) as HP.
    assert (HS : sample E exact rand gen h 2 (Some (Z.of_nat c)) g =
      do (y2, g3) <- gen h' (Z.of_nat (pick exact (fvec nc (A c)) (fst (rand g1)))) (snd (rand g1));
      Ok ([y; y2], [Z.of_nat c; Z.of_nat (pick exact (fvec nc (A c)) (fst (rand g1)))], g3)).
    { rewrite (sample_eq E h h' nc pi A ok b Rd Hck rand gen). unfold emit in Hy. rewrite Hy. cbn [bind].
      change (Z.to_nat (2 - 1)) with 1%nat. cbn [sample_loop].
      destruct (rand g1) as [u g2]. cbn [fst snd].
      unfold nrow. unfold fmat at 1. cbn [rows mtab]. rewrite tab_length.
      rewrite np_index_nat by exact Hc. cbn [bind]. rewrite nth_rows_fmat by exact Hc.
      destruct (gen h' _ g2) as [[y2 g3]|e]; reflexivity. }
    rewrite HS. split.
    - intros (ys & g' & H). destruct (gen h' _ (snd (rand g1))) as [[y2 g3]|e]; [|discriminate].
      cbn [bind] in H. injection H as _ Hz _. apply Nat2Z.inj in Hz. apply HP in Hz. exact (proj2 Hz).
    - intros Hb. assert (Hz : pick exact (fvec nc (A c)) (fst (rand g1)) = i) by (apply HP; split; assumption).
      rewrite Hz. destruct (Hem i (snd (rand g1)) Hi) as [[y2 g3] Hy2]. unfold emit in Hy2. rewrite Hy2.
      eexists. eexists. reflexivity.
  Qed.

  Lemma path_positive n cs g ys zs g' :
    sumn nc pi = 1 -> (forall i, (i < nc)%nat -> sumn nc (A i) = 1) ->
    (forall c, cs = Some c -> 0 <= c < Z.of_nat nc)%Z ->
    sample E exact rand gen h n cs g = Ok (ys, zs, g') ->
    exists z, zs = map Z.of_nat z /\ is_path nc (length zs) z
      /\ (cs = None -> 0 < pi (nth 0 z 0%nat))
      /\ forall t, (S t < length z)%nat -> 0 < A (nth t z 0%nat) (nth (S t) z 0%nat).
  Proof.
    intros Hpi HA Hcs H.
    assert (HA' : forall i, (i < nc)%nat -> 1 <= sumn nc (A i)) by (intros i Hi; apply sumn_1_le, HA, Hi).
    assert (Hn : (n <= 1 \/ 1 <= n)%Z) by lia.
    assert (Hsh : exists z, zs = map Z.of_nat z /\ is_path nc (length zs) z).
    { assert (Hn1 : sample E exact rand gen h (Z.max 1 n) cs g = Ok (ys, zs, g')).
      { rewrite <- H. rewrite !(sample_eq E h h' nc pi A ok b Rd Hck rand gen).
        replace (Z.to_nat (Z.max 1 n - 1)) with (Z.to_nat (n - 1)) by lia. reflexivity. }
      destruct (sample_shape E h h' nc pi A ok b Rd Hck rand gen (Z.max 1 n) cs g ys zs g' ltac:(lia) Hcs Hn1)
        as (_ & (z & -> & Hz) & _).
      exists z. split; [reflexivity|]. rewrite map_length. destruct Hz as [Hz1 Hz2]. split; [reflexivity|].
      rewrite Hz1. exact Hz2. }
    destruct Hsh as (z & -> & Hz). exists z. split; [reflexivity|]. split; [exact Hz|].
    destruct cs as [c|].
    - specialize (Hcs c eq_refl). rewrite <- (Z2Nat.id c) in H by lia.
      apply (sample_from E h h' nc pi A ok b Rd Hck rand gen Hrand HA') in H; [|lia].
      destruct H as (y & g2 & ys' & zs' & Hy & Hch & -> & Hm & Hl).
      apply map_of_nat_inj in Hm.
      subst z. split; [discriminate|]. intros t Ht.
      apply (chain_pos_t _ _ _ _ _ _ _ _ _ Hch t). simpl in Ht. lia.
    - apply (sample_start E h h' nc pi A ok b Rd Hck rand gen Hrand HA' (sumn_1_le _ _ Hpi)) in H.
      destruct H as (u & g1 & c & y & g2 & ys' & zs' & Hr & Hi & Hy & Hch & -> & Hm & Hl).
      apply map_of_nat_inj in Hm.
      subst z. split; [intros _; exact (inverse_cdf_pos _ _ _ _ Hi)|]. intros t Ht.
      apply (chain_pos_t _ _ _ _ _ _ _ _ _ Hch t). simpl in Ht. lia.
  Qed.
End Api.

(** ** CategoricalHMM. *)
Lemma cat_check_prob c nf p nf' p' : cat_check exact c nf p = Ok (nf', p') -> p' = p.
Proof.
  unfold cat_check. destruct (cat_prob p); [|discriminate].
  destruct (negb _); [discriminate|]. destruct (negb _); [discriminate|]. intros H; injection H; auto.
Qed.

Section Cat.
  Variables (h h' : hmm catp) (nc nf : nat) (pi : nat -> R) (A e : nat -> nat -> R).
  Hypothesis CM : cat_model h nc nf pi A e.
  Hypothesis Hck : check categorical exact h = Ok h'.
  Context {G : Type} (rand : G -> R * G).

  Lemma checked_em : cat_prob (h_em h') = Some (fmat nc nf e).
  Proof.
    rewrite <- (cm_em _ _ _ _ _ _ CM). unfold check in Hck.
    destruct (h_start h); [|discriminate]. destruct (h_trans h); [|destruct (negb _); [discriminate|]; destruct (negb _); discriminate].
    destruct (base_check _ _ _ _); [|discriminate]. cbn [bind] in Hck.
    cbn [ec_check categorical] in Hck.
    destruct (cat_check exact (h_cfg h) (h_nfeat h) (h_em h)) as [[n2 em]|] eqn:Ec; [|discriminate].
    cbn [bind] in Hck. injection Hck as <-. cbn. apply cat_check_prob in Ec. subst em. reflexivity.
  Qed.

  Lemma cat_gen_eq i g : (i < nc)%nat ->
    cat_gen exact rand h' (Z.of_nat i) g
    = Ok (pick exact (fvec nf (e i)) (fst (rand g)), snd (rand g)).
  Proof.
    intros Hi. unfold cat_gen. rewrite checked_em.
    unfold nrow. unfold fmat at 1. cbn [rows mtab]. rewrite tab_length.
    rewrite np_index_nat by exact Hi. cbn [bind]. rewrite nth_rows_fmat by exact Hi.
    destruct (rand g); reflexivity.
  Qed.

  Hypothesis Hrand : uniform_range rand.
  Hypothesis Hpi : sumn nc pi = 1.
  Hypothesis HA : forall i, (i < nc)%nat -> sumn nc (A i) = 1.
  Hypothesis He : forall i, (i < nc)%nat -> sumn nf (e i) = 1.
  Let emit := fun i : nat => cat_gen exact rand h' (Z.of_nat i).

  Lemma cat_nf_pos : (0 < nf)%nat.
  Proof.
    destruct nf as [|n]; [|lia]. specialize (He 0%nat (cm_pos _ _ _ _ _ _ CM)). simpl in He. lra.
  Qed.

  Lemma cat_emit_pos i g y g' : (i < nc)%nat -> emit i g = Ok (y, g') -> (y < nf)%nat /\ 0 < e i y.
  Proof.
    intros Hi H. unfold emit in H. rewrite cat_gen_eq in H by exact Hi. injection H as <- _.
    pose proof (pick_inverse nf (e i) (fst (rand g)) cat_nf_pos) as HP.
    assert (Hu : 0 <= fst (rand g) < sumn nf (e i)) by (rewrite He by exact Hi; apply Hrand).
    specialize (HP Hu). split; [exact (proj1 HP)|]. exact (inverse_cdf_pos _ _ _ _ HP).
  Qed.

  Lemma cat_chain_pos c g ys zs g' : chain rand emit nc A c g ys zs g' ->
    length ys = length zs /\ forall t, (t < length zs)%nat -> (nth t zs 0 < nc)%nat
      /\ (nth t ys 0 < nf)%nat /\ 0 < e (nth t zs 0%nat) (nth t ys 0%nat).
  Proof.
    induction 1 as [|c g u g1 c' y g2 ys zs g3 Hr Hi Hy Hc [IL IH]].
    - split; [reflexivity|]. intros t Ht. simpl in Ht. lia.
    - split; [simpl; lia|]. intros [|t] Ht; simpl.
      + split; [exact (proj1 Hi)|]. exact (cat_emit_pos _ _ _ _ (proj1 Hi) Hy).
      + apply IH. simpl in Ht. lia.
  Qed.

  Lemma cat_sample_pos n g ys zs g' :
    sample categorical exact rand (cat_gen exact rand) h n None g = Ok (ys, zs, g') ->
    exists z, zs = map Z.of_nat z /\ is_path nc (length ys) z
      /\ Forall (sym_ok nf) (map Z.of_nat ys)
      /\ 0 < seq_joint pi A (cat_b e) (map Z.of_nat ys) z.
  Proof.
    intros H.
    pose proof (cat_ready h nc nf pi A e CM) as Rd.
    apply (sample_start categorical h h' nc pi A _ _ Rd Hck rand _ Hrand
             (fun i Hi => sumn_1_le _ _ (HA i Hi)) (sumn_1_le _ _ Hpi)) in H.
    destruct H as (u & g1 & c & y & g2 & ys' & zs' & Hr & Hi & Hy & Hch & -> & -> & Hl).
    destruct (cat_emit_pos c g1 y g2 (proj1 Hi) Hy) as [Hy1 Hy2].
    destruct (cat_chain_pos _ _ _ _ _ Hch) as [HL Hpos].
    exists (c :: zs'). split; [reflexivity|].
    assert (Hpath : is_path nc (length (y :: ys')) (c :: zs')).
    { split; [simpl; lia|]. intros [|t] Ht; simpl; [exact (proj1 Hi)|].
      apply Hpos. simpl in Ht. lia. }
    split; [exact Hpath|]. split.
    - apply Forall_forall. intros k Hk. apply in_map_iff in Hk. destruct Hk as (j & <- & Hj).
      unfold sym_ok. destruct Hj as [<-|Hj]; [lia|].
      apply In_nth with (d := 0%nat) in Hj. destruct Hj as (t & Ht & <-).
      destruct (Hpos t ltac:(lia)) as (_ & Hn & _). lia.
    - unfold seq_joint, joint. rewrite map_length.
      apply Rmult_lt_0_compat; [apply Rmult_lt_0_compat|].
      + exact (inverse_cdf_pos _ _ _ _ Hi).
      + apply prodn_pos. intros t Ht. simpl in Ht.
        apply (chain_pos_t _ _ _ _ _ _ _ _ _ Hch t). lia.
      + apply prodn_pos. intros t Ht. unfold obsB. rewrite map_map.
        rewrite (nth_indep _ _ (cat_b e (Z.of_nat 0) (nth t (c :: zs') 0%nat))) by (rewrite map_length; exact Ht).
        rewrite (map_nth (fun x => cat_b e (Z.of_nat x) (nth t (c :: zs') 0%nat))).
        unfold cat_b. rewrite Nat2Z.id.
        destruct t as [|t]; [exact Hy2|]. simpl in Ht. cbn [nth]. apply Hpos. lia.
  Qed.

  Lemma cat_gen_total i g : (i < nc)%nat -> exists r, cat_gen exact rand h' (Z.of_nat i) g = Ok r.
  Proof. intros Hi. rewrite cat_gen_eq by exact Hi. eexists; reflexivity. Qed.
End Cat.

(** ** Examples and the counterexample. *)
Definition ex_rand (_ : unit) : R * unit := (1/2, tt).
Lemma ex_rand_range : uniform_range ex_rand.
Proof. intros g. simpl. lra. Qed.

Lemma ex_sample : sample categorical exact ex_rand (cat_gen exact ex_rand) (ex_h "log" "viterbi") 2 None tt
  = Ok ([2; 2]%nat, [1; 1]%Z, tt).
Proof.
  destruct (rd_check _ _ _ _ _ _ _ (ex_ready "log" "viterbi")) as (h' & Hck & _).
  rewrite (sample_eq categorical _ h' 2 ex_pi ex_A _ _ (ex_ready "log" "viterbi") Hck).
  cbn [ex_rand fst snd].
  assert (H1 : pick exact (fvec 2 ex_pi) (1/2) = 1%nat)
    by (apply pick_iff; [lia|exact ex_pi_nn|simpl; lra|]; repeat split; simpl; try lia; lra).
  assert (H2 : pick exact (fvec 2 (ex_A 1)) (1/2) = 1%nat)
    by (apply pick_iff; [lia|intros j Hj; apply ex_A_nn; lia|simpl; lra|]; repeat split; simpl; try lia; lra).
  assert (H3 : pick exact (fvec 3 (ex_e 1)) (1/2) = 2%nat)
    by (apply pick_iff; [lia|intros j Hj; apply ex_e_nn; lia|simpl; lra|]; repeat split; simpl; try lia; lra).
  rewrite H1. cbv zeta.
  assert (HG : forall g, cat_gen exact ex_rand h' (Z.of_nat 1) g = Ok (2%nat, tt)).
  { intros g. rewrite (cat_gen_eq _ h' 2 3 ex_pi ex_A ex_e (ex_model "log" "viterbi") Hck ex_rand) by lia.
    cbn [ex_rand fst snd]. rewrite H3. reflexivity. }
  rewrite HG. cbn [bind]. change (Z.to_nat (2 - 1)) with 1%nat. cbn [sample_loop ex_rand].
  change (nrow (fmat 2 2 ex_A)) with 2%nat.
  change (np_index 2 (Z.of_nat 1)) with (Ok 1%nat). cbn [bind].
  change (nth 1 (rows (fmat 2 2 ex_A)) []) with (fvec 2 (ex_A 1)). rewrite H2, HG. reflexivity.
Qed.

(** startprob_ = [0, 1 - 1e-6] passes [_check]. *)
Definition bad_pi (i : nat) : R := match i with 0%nat => 0 | _ => 1 - / 10 ^ 6 end.
Definition bad_h : hmm catp :=
  Hmm (ex_cfg "log" "viterbi") None (Some (fvec 2 bad_pi)) (Some (fmat 2 2 ex_A))
      (Monitor (Fin (/ 100)) 10 false [] 0)
      (Catp (Scal (Fin 1)) (Some (fmat 2 3 ex_e))).
Definition bad_rand (_ : unit) : R * unit := (1 - / 10 ^ 7, tt).

Lemma bad_model : cat_model bad_h 2 3 bad_pi ex_A ex_e.
Proof.
  destruct (ex_model "log" "viterbi"). constructor; try assumption; try reflexivity.
  - intros i Hi. destruct i as [|[|i]]; [| |lia]; simpl; lra.
  - unfold near1. simpl. rewrite Rabs_left; lra.
Qed.

Lemma bad_sample : exists y, sample categorical exact bad_rand (cat_gen exact bad_rand) bad_h 1 None tt
  = Ok ([y], [0]%Z, tt).
Proof.
  destruct (rd_check _ _ _ _ _ _ _ (cat_ready _ _ _ _ _ _ bad_model)) as (h' & Hck & _).
  rewrite (sample_eq categorical _ h' 2 bad_pi ex_A _ _ (cat_ready _ _ _ _ _ _ bad_model) Hck).
  cbn [bad_rand fst snd].
  assert (H1 : pick exact (fvec 2 bad_pi) (1 - / 10 ^ 7) = 0%nat).
  { destruct (pick_cases 2 bad_pi (1 - / 10 ^ 7)) as [(H & H' & _)|(H & _)]; [|exact H].
    destruct (pick exact (fvec 2 bad_pi) (1 - / 10 ^ 7)) as [|[|k]]; [reflexivity| |lia].
    simpl in H'. lra. }
  rewrite H1. cbv zeta.
  rewrite (cat_gen_eq _ h' 2 3 bad_pi ex_A ex_e bad_model Hck bad_rand) by lia.
  cbn [bad_rand fst snd bind]. eexists. reflexivity.
Qed.

Lemma bad_sample_impossible : exists h (pi : nat -> R) y,
  ready categorical h 2 pi ex_A (sym_ok 3) (cat_b ex_e)
  /\ uniform_range bad_rand
  /\ sample categorical exact bad_rand (cat_gen exact bad_rand) h 1 None tt = Ok ([y], [0]%Z, tt)
  /\ pi 0%nat = 0.
Proof.
  destruct bad_sample as [y Hy]. exists bad_h, bad_pi, y.
  split; [exact (cat_ready _ _ _ _ _ _ bad_model)|]. split; [|split; [exact Hy|reflexivity]].
  intros g. simpl. lra.
Qed.
