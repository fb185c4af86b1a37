(** * MAP decoding: time reversal, continuation, no memory. *)
From Verif Require Export Reverse_thms Filter_thms Memoryless_thms.

Lemma first_argmax_same n f g i j : (forall k, (k < n)%nat -> f k = g k) -> first_argmax n f i -> first_argmax n g j -> i = j.
Proof.
  intros E (I1 & I2 & I3) (J1 & J2 & J3). destruct (Nat.lt_trichotomy i j) as [L|[L|L]]; [exfalso|exact L|exfalso].
  - pose proof (J3 i L). pose proof (I2 j J1). rewrite (E i I1), (E j J1) in *. lra.
  - pose proof (I3 j L). pose proof (J2 i I1). rewrite (E i I1), (E j J1) in *. lra.
Qed.

(** Ties are broken alike in both directions. *)
Lemma C95_map_l {P X St} (E : emclass P X St) h h2 nc pi A A2 ok b x :
  ready E h nc pi A ok b -> ready E h2 nc pi A2 ok b -> reversal nc pi A A2 -> x <> [] -> Forall ok x ->
  scorable nc pi A b (c_impl (h_cfg h)) x -> scorable nc pi A2 b (c_impl (h_cfg h2)) (rev x) ->
  exists v z, decode E exact h x None (Some "map"%string) = Ok (v, z) /\ decode E exact h2 (rev x) None (Some "map"%string) = Ok (v, rev z).
Proof.
  intros R1 R2 HR Hne Hx S1 S2.
  destruct (C06_map_decoding_l E h nc pi A ok b x (Some "map"%string) R1 Hne Hx (or_introl eq_refl) S1) as (z & D1 & L1 & M1).
  destruct (C06_map_decoding_l E h2 nc pi A2 ok b (rev x) (Some "map"%string) R2 (rev_nonempty x Hne) (Forall_rev Hx) (or_introl eq_refl) S2) as (z2 & D2 & L2 & M2).
  rewrite rev_length in D2, L2, M2.
  assert (EZ : z2 = rev z).
  { apply (nth_ext _ _ 0%nat 0%nat); [rewrite rev_length; lia|]. intros t Ht. rewrite L2 in Ht. rewrite rev_nth by lia. rewrite L1.
    refine (first_argmax_same nc _ _ _ _ _ (M2 t Ht) (M1 (length x - S t)%nat ltac:(lia))).
    intros k Hk. exact (seq_post_rev nc pi A A2 b x t k HR Ht Hk). }
  exists (Fin (sumn (length x) (fun t => seq_post nc pi A b x t (nth t z 0%nat)))), z. split; [exact D1|].
  rewrite D2, EZ. do 3 f_equal.
  assert (SB : forall n f, sumn n f = sumn n (fun t => f (n - S t)%nat)).
  { clear. assert (F : forall n f, sumn (S n) f = f 0%nat + sumn n (fun t => f (S t))).
    { induction n as [|n IH]; intros f; [cbn; ring|]. change (sumn (S (S n)) f) with (sumn (S n) f + f (S n)). rewrite IH. cbn [sumn]. ring. }
    induction n as [|n IH]; intros f; [reflexivity|]. rewrite F. cbn [sumn]. rewrite (IH (fun t => f (S t))).
    replace (S n - S n)%nat with 0%nat by lia. rewrite (sumn_ext n (fun t => f (S (n - S t))) (fun t => f (S n - S t)%nat)); [ring|].
    intros t Ht. f_equal. lia. }
  rewrite (SB (length x) (fun t => seq_post nc pi A b x t _)). apply sumn_ext. intros t Ht. rewrite rev_nth by lia. rewrite L1.
  apply (seq_post_rev nc pi A A2 b x t _ HR Ht). apply (M1 (length x - S t)%nat). lia.
Qed.

(** The states of the continuation. *)
Lemma C96_map_l {P X St} (E : emclass P X St) h h2 nc pi q A ok b x y :
  ready E h nc pi A ok b -> ready E h2 nc q A ok b -> c_impl (h_cfg h2) = c_impl (h_cfg h) ->
  x <> [] -> y <> [] -> Forall ok x -> Forall ok y -> continues E h nc A x q ->
  scorable nc pi A b (c_impl (h_cfg h)) x -> scorable nc pi A b (c_impl (h_cfg h)) (x ++ y) ->
  exists v z v2 z2, decode E exact h (x ++ y) None (Some "map"%string) = Ok (v, z)
    /\ decode E exact h2 y None (Some "map"%string) = Ok (v2, z2) /\ skipn (length x) z = z2.
Proof.
  intros R1 R2 Hi Nx Ny Fx Fy HC Hs Hs2.
  assert (Nxy : x ++ y <> []) by (destruct x; [contradiction|discriminate]).
  assert (Fxy : Forall ok (x ++ y)) by (apply Forall_app; split; assumption).
  destruct (C96_posteriors_l E h h2 nc pi q A ok b x y R1 R2 Hi Nx Ny Fx Fy HC Hs Hs2) as (p & p2 & Hp & Hp2 & Heq).
  assert (Hs3 : scorable nc q A b (c_impl (h_cfg h2)) y).
  { destruct HC as (p0 & Hp0 & Hq). destruct (length x) as [|T] eqn:HT; [destruct x; [contradiction|discriminate]|].
    pose proof (scorable_pos E h nc pi A ok b R1 _ x Nx Fx Hs) as HL.
    assert (Hq' : forall j, (j < nc)%nat -> q j = sumn nc (fun i => seq_post nc pi A b x T i * A i j)).
    { intros j Hj. rewrite (Hq j Hj). apply sumn_ext. intros i Hi'. f_equal. replace (S T - 1)%nat with T by lia.
      rewrite <- HT in Hp0. apply (filter_known E h nc pi A ok b x p0 R1 Nx Fx Hs Hp0); [lia|exact Hi']. }
    rewrite Hi. pose proof Hs2 as [[I1 HLxy]|[I1 U]]; [left|right]; (split; [exact I1|]).
    - rewrite (seq_lik_cont nc pi q A b x y T HT ltac:(lra) Hq' Ny) in HLxy.
      destruct (seq_lik_nonneg E h2 nc q A ok b R2 y Ny Fy) as [HY|HY]; [exact HY|]. rewrite <- HY, Rmult_0_r in HLxy. lra.
    - exact (underflow_tail nc pi q A b x y T HT U HL Hq'). }
  destruct (C06_map_decoding_l E h nc pi A ok b (x ++ y) (Some "map"%string) R1 Nxy Fxy (or_introl eq_refl) Hs2) as (z & D1 & L1 & M1).
  destruct (C06_map_decoding_l E h2 nc q A ok b y (Some "map"%string) R2 Ny Fy (or_introl eq_refl) Hs3) as (z2 & D2 & L2 & M2).
  do 4 eexists. split; [exact D1|]. split; [exact D2|].
  rewrite app_length in L1, M1. rewrite <- app_length in Hp.
  apply (nth_ext _ _ 0%nat 0%nat); [rewrite skipn_length; lia|]. intros t Ht. rewrite skipn_length in Ht.
  assert (EN : nth t (skipn (length x) z) 0%nat = nth (length x + t) z 0%nat).
  { rewrite <- (firstn_skipn (length x) z) at 2. rewrite app_nth2; rewrite firstn_length_le by lia; [f_equal; lia|lia]. }
  rewrite EN. refine (first_argmax_same nc _ _ _ _ _ (M1 (length x + t)%nat ltac:(lia)) (M2 t ltac:(lia))).
  intros k Hk. rewrite <- (filter_known E h2 nc q A ok b y p2 R2 Ny Fy Hs3 Hp2 t k ltac:(lia) Hk).
  rewrite <- (filter_known E h nc pi A ok b (x ++ y) p R1 Nxy Fxy Hs2 Hp (length x + t)%nat k ltac:(rewrite app_length; lia) Hk).
  apply Heq; [lia|exact Hk].
Qed.

(** The lowest-numbered state of largest weighted density. *)
Lemma C97_map_l {P X St} (E : emclass P X St) h nc pi A ok b ls x :
  ready E h nc pi A ok b -> memoryless nc pi A -> good_data ok ls x -> computable nc pi b (c_impl (h_cfg h)) x ->
  (forall o, In o x -> 0 < sumn nc (fun i => pi i * b o i)) ->
  exists v z, decode E exact h x (as_lengths ls) (Some "map"%string) = Ok (v, z)
    /\ Forall2 (fun o i => first_argmax nc (fun k => pi k * b o k) i) x z.
Proof.
  intros Rd HM Hd Hc Hp. pose proof (good_data_chunks ok ls x Hd) as (_ & _ & Hch). rewrite Forall_forall in Hch.
  pose proof (chunks_concat ls x ltac:(apply Hd)) as EC.
  assert (HI : forall c o, In c (chunks ls x) -> In o c -> In o x).
  { intros c o H1 H2. rewrite <- EC. apply in_concat. exists c. split; assumption. }
  destruct (C06_map_decoding_lengths_l E h nc pi A ok b ls x (Some "map"%string) Rd Hd (or_introl eq_refl)) as (zs & D & BP).
  { intros c Hin. destruct (Hch c Hin) as [Hne _]. destruct Hc as [Hl|[Hs Hu]]; [left; split; [exact Hl|]|right; split; [exact Hs|]].
    - rewrite (seq_lik_mem nc pi A b c HM Hne). apply prodL_positive. intros o Ho. apply Hp. exact (HI c o Hin Ho).
    - apply (mem_no_underflow nc pi A b HM). intros o Ho. apply Hu. exact (HI c o Hin Ho). }
  do 2 eexists. split; [exact D|]. rewrite <- EC at 1. clear D EC Hch Hd.
  induction BP as [|c z cs zs [L M] BP IH]; cbn [concat]; [constructor|]. apply Forall2_app.
  - apply (Forall2_nth_intro _ 0%nat); [exact L|]. intros t d Ht. destruct (M t Ht) as (M1 & M2 & M3).
    assert (Q : forall k, (k < nc)%nat -> pi k * b (nth t c d) k = mixture nc pi b (nth t c d) * seq_post nc pi A b c t k).
    { intros k Hk. rewrite (seq_post_mem nc pi A b c HM t k d); [|intros s Hs; rewrite (mix_at nc pi b c s d Hs)|exact Ht|exact Hk].
      - field. apply Rgt_not_eq. apply Hp, (HI c); [left; reflexivity|apply nth_In; exact Ht].
      - apply Hp, (HI c); [left; reflexivity|apply nth_In; exact Hs]. }
    assert (PM : 0 < mixture nc pi b (nth t c d)) by (apply Hp, (HI c); [left; reflexivity|apply nth_In; exact Ht]).
    split; [exact M1|]. split.
    + intros j Hj. rewrite !Q by assumption. apply Rmult_le_compat_l; [lra|apply M2; exact Hj].
    + intros j Hj. rewrite !Q by (assumption || lia). apply Rmult_lt_compat_l; [exact PM|apply M3; exact Hj].
  - apply IH. intros c' o H1 H2. apply (HI c'); [right; exact H1|exact H2].
Qed.
