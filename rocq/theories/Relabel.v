(** * Training after renumbering the states and reordering the sequences. *)
From Coq Require Export Permutation.
From Verif Require Export Gen_fit Checks2_thms.

(** ** Path sums. *)
Section Paths.
  Variables (nc : nat) (s : nat -> nat).
  Hypothesis Hs : permutes nc s.
  Context {X : Type} (ok : X -> Prop).
  Variables (pi pi2 : nat -> R) (A A2 : nat -> nat -> R) (b b2 : X -> nat -> R).
  Hypothesis Hpi : forall i, (i < nc)%nat -> pi2 i = pi (s i).
  Hypothesis HA : forall i j, (i < nc)%nat -> (j < nc)%nat -> A2 i j = A (s i) (s j).
  Hypothesis Hb : forall o i, ok o -> (i < nc)%nat -> b2 o i = b o (s i).

  Lemma rl_joint x z : x <> [] -> Forall ok x -> In z (all_paths nc (length x)) ->
    seq_joint pi2 A2 b2 x z = seq_joint pi A b x (map s z).
  Proof.
    intros Hx Hok Hz. apply in_all_paths in Hz. rewrite <- (joint_perm s pi A b x z Hx (proj1 Hz)).
    unfold seq_joint. apply (joint_ext nc).
    - destruct x; [contradiction|simpl; lia].
    - exact Hz.
    - exact Hpi.
    - exact HA.
    - apply (obsB_ext ok); [exact Hok|exact Hb].
  Qed.

  Lemma rl_lik x : x <> [] -> Forall ok x -> seq_lik nc pi2 A2 b2 x = seq_lik nc pi A b x.
  Proof.
    intros Hx Hok. unfold seq_lik, likelihood.
    rewrite <- (sum_paths_perm nc s Hs (length x) (joint (length x) pi A (obsB b x))).
    apply sumL_ext; intros z Hz. apply (rl_joint x z Hx Hok Hz).
  Qed.

  Lemma s_eqb i j : (i < nc)%nat -> (j < nc)%nat -> Nat.eqb (s i) (s j) = Nat.eqb i j.
  Proof.
    intros Hi Hj. destruct (Nat.eqb_spec i j) as [->|Hn]; [apply Nat.eqb_refl|].
    apply Nat.eqb_neq. intros Heq. apply Hn. apply (proj2 Hs); assumption.
  Qed.

  Lemma rl_post x t i : x <> [] -> Forall ok x -> (t < length x)%nat -> (i < nc)%nat ->
    seq_post nc pi2 A2 b2 x t i = seq_post nc pi A b x t (s i).
  Proof.
    intros Hx Hok Ht Hi. pose proof (rl_lik x Hx Hok) as HL. unfold seq_lik in HL.
    unfold seq_post, posterior. rewrite HL. f_equal. clear HL.
    unfold marginal. rewrite !sumL_filter.
    rewrite <- (sum_paths_perm nc s Hs (length x)
      (fun z => if Nat.eqb (nth t z 0%nat) (s i) then joint (length x) pi A (obsB b x) z else 0)).
    apply sumL_ext; intros z Hz. pose proof (path_length nc _ _ Hz) as Hl.
    rewrite nth_map_s by lia. pose proof (proj1 (in_all_paths _ _ _) Hz) as [_ Hz'].
    rewrite (s_eqb _ i (Hz' t Ht) Hi).
    destruct (Nat.eqb (nth t z 0%nat) i); [|reflexivity]. apply (rl_joint x z Hx Hok Hz).
  Qed.

  Lemma rl_trans x i j : x <> [] -> Forall ok x -> (i < nc)%nat -> (j < nc)%nat ->
    seq_trans nc pi2 A2 b2 x i j = seq_trans nc pi A b x (s i) (s j).
  Proof.
    intros Hx Hok Hi Hj. pose proof (rl_lik x Hx Hok) as HL. unfold seq_lik in HL.
    unfold seq_trans, expected_trans. rewrite HL. f_equal. clear HL.
    rewrite <- (sum_paths_perm nc s Hs (length x)
      (fun z => joint (length x) pi A (obsB b x) z * n_trans (length x) (s i) (s j) z)).
    apply sumL_ext; intros z Hz. f_equal; [apply (rl_joint x z Hx Hok Hz)|].
    pose proof (proj1 (in_all_paths _ _ _) Hz) as [Hl Hz'].
    unfold n_trans. apply sumn_ext. intros t Ht. rewrite !nth_map_s by lia.
    rewrite (s_eqb _ i (Hz' t ltac:(lia)) Hi), (s_eqb _ j (Hz' (S t) ltac:(lia)) Hj). reflexivity.
  Qed.

  Lemma rl_plik x : Forall ok x -> seq_plik nc pi2 A2 b2 x = seq_plik nc pi A b x.
  Proof. intros Hok. destruct x as [|o x]; [reflexivity|]. apply rl_lik; [discriminate|exact Hok]. Qed.

  Lemma firstn_ok x k : Forall ok x -> Forall ok (firstn k x).
  Proof.
    rewrite !Forall_forall. intros H o Ho. apply H. rewrite <- (firstn_skipn k x). apply in_or_app. left. exact Ho.
  Qed.

  Lemma rl_scorable impl x : x <> [] -> Forall ok x ->
    scorable nc pi A b impl x -> scorable nc pi2 A2 b2 impl x.
  Proof.
    intros Hx Hok [[H1 H2]|[H1 H2]]; [left|right]; (split; [exact H1|]).
    - rewrite rl_lik by assumption. exact H2.
    - intros t Ht. rewrite !rl_plik by (apply firstn_ok; exact Hok). apply H2. exact Ht.
  Qed.
End Paths.

(** ** Weighted data. *)
(** The same sequences in another order, the weights of state [i] being those
    of [s i]. *)
Definition reordered {X} (nc : nat) (s : nat -> nat) (l l2 : list (list X * (nat -> nat -> R))) : Prop :=
  exists cs cs2 G G2, l = map (fun c => (c, G c)) cs /\ l2 = map (fun c => (c, G2 c)) cs2
    /\ Permutation cs cs2
    /\ forall c t i, In c cs -> (t < length c)%nat -> (i < nc)%nat -> G2 c t i = G c t (s i).

Lemma reordered_sum {X} nc s (l l2 : list (list X * (nat -> nat -> R))) (F : list X -> nat -> R -> R) i :
  reordered nc s l l2 -> (i < nc)%nat ->
  sumL (fun w => sumn (length (fst w)) (fun t => F (fst w) t (snd w t i))) l2
  = sumL (fun w => sumn (length (fst w)) (fun t => F (fst w) t (snd w t (s i)))) l.
Proof.
  intros (cs & cs2 & G & G2 & -> & -> & HP & HG) Hi. rewrite !sumL_map. cbn [fst snd].
  rewrite <- (sumL_perm _ cs cs2 HP). apply sumL_ext. intros c Hc. apply sumn_ext. intros t Ht.
  rewrite (HG c t i Hc Ht Hi). reflexivity.
Qed.

Lemma reordered_wsum {X} nc s (l l2 : list (list X * (nat -> nat -> R))) phi i :
  reordered nc s l l2 -> (i < nc)%nat -> (forall o j k, phi o j = phi o k) ->
  wsum l2 phi i = wsum l phi (s i).
Proof.
  intros Hr Hi Hp. unfold wsum.
  rewrite (reordered_sum nc s l l2 (fun x t g => g * obsB phi x t i) i Hr Hi).
  apply sumL_ext. intros [x g] _. apply sumn_ext. intros t Ht. f_equal. cbn [fst] in *.
  destruct x as [|d x]; [simpl in Ht; lia|].
  rewrite !(obsB_nth phi (d :: x) d) by exact Ht. apply Hp.
Qed.

(** ** A whole fit. *)
Section Fit.
  Context {P X St : Type} (E : emclass P X St).
  Variables (nc : nat) (ok : X -> Prop) (good good2 : cfg -> option nat -> P -> Prop)
            (b : P -> X -> nat -> R) (V : bool).
  Hypothesis TN : trains E nc ok good b V.
  Hypothesis TN2 : trains E nc ok good2 b V.
  Variables (ls ls2 : list nat) (x x2 : list X).
  Hypothesis Hd : good_data ok ls x.
  Hypothesis Hd2 : good_data ok ls2 x2.
  Hypothesis Hcs : Permutation (chunks ls x) (chunks ls2 x2).
  Variable s : nat -> nat.
  Hypothesis Hs : permutes nc s.
  Variables (sp sp2 : nat -> R) (tp tp2 : nat -> nat -> R).
  Hypothesis Hsp : forall i, (i < nc)%nat -> 1 <= sp i.
  Hypothesis Htp : forall i j, (i < nc)%nat -> (j < nc)%nat -> 1 <= tp i j.
  Hypothesis Esp : forall i, (i < nc)%nat -> sp2 i = sp (s i).
  Hypothesis Etp : forall i j, (i < nc)%nat -> (j < nc)%nat -> tp2 i j = tp (s i) (s j).
  Variable rel : P -> P -> Prop.
  Hypothesis Hrel : forall p p2 o i, rel p p2 -> ok o -> (i < nc)%nat -> b p2 o i = b p o (s i).

  (** The two estimators differ at most in the hyper-parameters of the start
      and transition probabilities. *)
  Definition same_cfg (c c2 : cfg) : Prop :=
    c_nc c2 = c_nc c /\ c_params c2 = c_params c /\ c_impl c2 = c_impl c /\ c_n_iter c2 = c_n_iter c.

  Hypothesis Hstep : forall c c2 nf p p2 l l2 st st2 q q2,
    c_nc c = nc -> same_cfg c c2 -> good c nf p -> good2 c2 nf p2 -> rel p p2 ->
    good_weights nc ok (b p) l -> good_weights nc ok (b p2) l2 ->
    (V = true -> visited nc l) -> (V = true -> visited nc l2) -> reordered nc s l l2 ->
    em_acc_all E c nf p nc (ec_stats0 E exact c nf p) l = Ok st -> ec_mstep E exact c nf p st = Ok q ->
    em_acc_all E c2 nf p2 nc (ec_stats0 E exact c2 nf p2) l2 = Ok st2 -> ec_mstep E exact c2 nf p2 st2 = Ok q2 ->
    rel q q2.

  Notation cs := (chunks ls x).
  Notation cs2 := (chunks ls2 x2).

  Record mrel (h h2 : hmm P) (pi pi2 : nat -> R) (A A2 : nat -> nat -> R) : Prop := MRel {
    mr_cfg : same_cfg (h_cfg h) (h_cfg h2);
    mr_nf : h_nfeat h2 = h_nfeat h;
    mr_pi : forall i, (i < nc)%nat -> pi2 i = pi (s i);
    mr_A : forall i j, (i < nc)%nat -> (j < nc)%nat -> A2 i j = A (s i) (s j);
    mr_em : rel (h_em h) (h_em h2);
    mr_t1 : tstate nc good b V ls x h pi A;
    mr_t2 : tstate nc good2 b V ls2 x2 h2 pi2 A2;
    mr_p1 : priors (h_cfg h) nc sp tp;
    mr_p2 : priors (h_cfg h2) nc sp2 tp2 }.

  Lemma in_cs c : In c cs <-> In c cs2.
  Proof. split; apply Permutation_in; [exact Hcs|apply Permutation_sym; exact Hcs]. Qed.
  Lemma cs_ok c : In c cs -> c <> [] /\ Forall ok c.
  Proof.
    intros Hc. destruct (good_data_chunks ok ls x Hd) as (_ & _ & H). rewrite Forall_forall in H. apply H. exact Hc.
  Qed.

  (** The second state of training from the first. *)
  Lemma tstate_relabel h h2 pi pi2 A A2 :
    c_nc (h_cfg h2) = nc -> h_start h2 = Some (fvec nc pi2) -> h_trans h2 = Some (fmat nc nc A2) ->
    (forall i, (i < nc)%nat -> pi2 i = pi (s i)) ->
    (forall i j, (i < nc)%nat -> (j < nc)%nat -> A2 i j = A (s i) (s j)) ->
    rel (h_em h) (h_em h2) -> good2 (h_cfg h2) (h_nfeat h2) (h_em h2) ->
    tstate nc good b V ls x h pi A -> tstate nc good2 b V ls2 x2 h2 pi2 A2.
  Proof.
    intros Hn Hst Htr Hpi HA Hr Hg TS. destruct Hs as [Hs1 _]. constructor; try assumption.
    - apply TS.
    - intros i Hi. rewrite Hpi by exact Hi. apply TS. apply Hs1. exact Hi.
    - intros i j Hi Hj. rewrite HA by assumption. apply TS; apply Hs1; assumption.
    - intros c Hc. apply in_cs in Hc. destruct (cs_ok c Hc) as [C1 C2].
      rewrite (rl_lik nc s Hs ok pi pi2 A A2 (b (h_em h)) (b (h_em h2)) Hpi HA (fun o i => Hrel _ _ o i Hr) c C1 C2).
      apply TS. exact Hc.
    - intros HV i Hi.
      destruct (ts_visit _ _ _ _ _ _ _ _ _ TS HV (s i) (Hs1 i Hi)) as (c & g & t & Hin & Ht & Hp).
      apply in_map_iff in Hin as (c' & Heq & Hc). injection Heq as -> <-. destruct (cs_ok c Hc) as [C1 C2].
      exists c, (seq_post nc pi2 A2 (b (h_em h2)) c), t.
      split; [apply in_map_iff; exists c; split; [reflexivity|apply in_cs; exact Hc]|]. split; [exact Ht|].
      rewrite (rl_post nc s Hs ok pi pi2 A A2 (b (h_em h)) (b (h_em h2)) Hpi HA (fun o i => Hrel _ _ o i Hr) c t i C1 C2 Ht Hi).
      exact Hp.
  Qed.

  Lemma Hsp2 i : (i < nc)%nat -> 1 <= sp2 i.
  Proof. intros Hi. rewrite Esp by exact Hi. apply Hsp, (proj1 Hs), Hi. Qed.
  Lemma Htp2 i j : (i < nc)%nat -> (j < nc)%nat -> 1 <= tp2 i j.
  Proof. intros Hi Hj. rewrite Etp by assumption. apply Htp; apply (proj1 Hs); assumption. Qed.

  Lemma normalised_perm w w2 : (forall i, (i < nc)%nat -> w2 i = w (s i)) ->
    forall i, (i < nc)%nat -> normalised nc w2 i = normalised nc w (s i).
  Proof.
    intros H i Hi. unfold normalised.
    assert (Hsum : sumn nc w2 = sumn nc w) by (rewrite <- (sumn_perm nc s Hs w); apply sumn_ext; exact H).
    rewrite Hsum, H by exact Hi. reflexivity.
  Qed.

  Lemma map_weight_eq p p2 q q2 n n2 i : p2 i = p (s i) -> q2 i = q (s i) -> n2 i = n (s i) ->
    map_weight p2 q2 n2 i = map_weight p q n (s i).
  Proof. intros H1 H2 H3. unfold map_weight. rewrite H1, H2, H3. reflexivity. Qed.

  Notation step := (em_step E exact x (as_lengths ls)).
  Notation step2 := (em_step E exact x2 (as_lengths ls2)).

  Lemma rl_step h h2 pi pi2 A A2 h' v : mrel h h2 pi pi2 A A2 -> step h = Ok (h', v) ->
    exists h2' pi' pi2' A' A2', step2 h2 = Ok (h2', v) /\ mrel h' h2' pi' pi2' A' A2'.
  Proof.
    intros M Hst. destruct M as [Mc Mn Mp MA Me T1 T2 P1 P2]. destruct Mc as (K1 & K2 & K3 & K4).
    pose proof (fun o i => Hrel _ _ o i Me) as Hb.
    pose proof (em_step_scorable E nc ok good b V TN ls x Hd h pi A _ T1 Hst) as Hsc.
    assert (Hsc2 : forall c, In c cs2 -> scorable nc pi2 A2 (b (h_em h2)) (c_impl (h_cfg h2)) c).
    { intros c Hc. apply in_cs in Hc. destruct (cs_ok c Hc) as [C1 C2]. rewrite K3.
      apply (rl_scorable nc s Hs ok pi pi2 A A2 _ _ Mp MA Hb _ c C1 C2). apply Hsc. exact Hc. }
    destruct (em_step_ok E nc ok good2 b V TN2 ls2 x2 Hd2 h2 pi2 A2 T2 sp2 tp2 P2 Hsc2
                (start_ok_ge1 E nc ok good2 b V TN2 ls2 x2 Hd2 h2 pi2 A2 T2 sp2 Hsp2)) as (q2 & S2 & _ & _ & _).
    destruct (em_step_next E nc ok good b V TN ls x Hd sp tp Hsp Htp h pi A h' v T1 P1 Hst)
      as (N1 & N2 & N3 & N4 & N5 & N6 & _).
    destruct (em_step_next E nc ok good2 b V TN2 ls2 x2 Hd2 sp2 tp2 Hsp2 Htp2 h2 pi2 A2 _ _ T2 P2 S2)
      as (O1 & O2 & O3 & O4 & O5 & O6 & _).
    set (h2' := Hmm _ _ _ _ _ q2) in *.
    exists h2'. do 4 eexists. split.
    - rewrite S2. f_equal. f_equal. rewrite O4, N4. f_equal. unfold loglik_sum.
      rewrite <- (sumL_perm _ cs cs2 Hcs). apply sumL_ext. intros c Hc. destruct (cs_ok c Hc) as [C1 C2].
      f_equal. apply (rl_lik nc s Hs ok pi pi2 A A2 _ _ Mp MA Hb c C1 C2).
    - constructor.
      8: rewrite N1; exact P1.
      8: rewrite O1; exact P2.
      6: exact N5.
      6: exact O5.
      + rewrite N1, O1. repeat split; assumption.
      + rewrite N2, O2. exact Mn.
      + intros i Hi. unfold new_pi. rewrite K2. destruct (has "s" _); [|apply Mp; exact Hi].
        apply normalised_perm; [|exact Hi]. intros k Hk. apply map_weight_eq; [apply Mp; exact Hk|apply Esp; exact Hk|].
        unfold cnt_start. rewrite <- (sumL_perm _ cs cs2 Hcs). apply sumL_ext. intros c Hc.
        destruct (cs_ok c Hc) as [C1 C2].
        apply (rl_post nc s Hs ok pi pi2 A A2 _ _ Mp MA Hb c 0 k C1 C2); [|exact Hk].
        destruct c; [contradiction|simpl; lia].
      + intros i j Hi Hj. unfold new_A. rewrite K2. destruct (has "t" _); [|apply MA; assumption].
        apply normalised_perm; [|exact Hj]. intros k Hk. apply map_weight_eq; [apply MA; assumption|apply Etp; assumption|].
        unfold cnt_trans. rewrite <- (sumL_perm _ cs cs2 Hcs). apply sumL_ext. intros c Hc.
        destruct (cs_ok c Hc) as [C1 C2]. apply (rl_trans nc s Hs ok pi pi2 A A2 _ _ Mp MA Hb c i k C1 C2 Hi Hk).
      + destruct N6 as (st & Q1 & Q2). destruct O6 as (st2 & R1 & R2). rewrite Mn in R1, R2.
        apply (Hstep (h_cfg h) (h_cfg h2) (h_nfeat h) (h_em h) (h_em h2)
                 (wpairs nc b ls x h pi A) (wpairs nc b ls2 x2 h2 pi2 A2) st st2).
        * apply T1.
        * repeat split; assumption.
        * apply T1.
        * rewrite <- Mn. apply T2.
        * exact Me.
        * apply (wpairs_good E nc ok good b V TN ls x Hd h pi A T1).
        * apply (wpairs_good E nc ok good2 b V TN2 ls2 x2 Hd2 h2 pi2 A2 T2).
        * apply T1.
        * apply T2.
        * exists cs, cs2, (seq_post nc pi A (b (h_em h))), (seq_post nc pi2 A2 (b (h_em h2))).
          split; [reflexivity|]. split; [reflexivity|]. split; [exact Hcs|].
          intros c t i Hc Ht Hi. destruct (cs_ok c Hc) as [C1 C2].
          apply (rl_post nc s Hs ok pi pi2 A A2 _ _ Mp MA Hb c t i C1 C2 Ht Hi).
        * exact Q1.
        * exact Q2.
        * exact R1.
        * exact R2.
  Qed.

  Lemma rl_zero_rows h h2 pi pi2 A A2 : mrel h h2 pi pi2 A A2 -> zero_rows exact h2 = zero_rows exact h.
  Proof.
    intros M. unfold zero_rows.
    rewrite (ts_trans _ _ _ _ _ _ _ _ _ (mr_t1 _ _ _ _ _ _ M)), (ts_trans _ _ _ _ _ _ _ _ _ (mr_t2 _ _ _ _ _ _ M)).
    apply Bool.eq_iff_eq_true. rewrite !existsb_exists. unfold fmat, mtab. cbn [rows].
    assert (Hrow : forall i, (i < nc)%nat -> xsum exact (tab nc (fun j => Fin (A2 i j))) = xsum exact (tab nc (fun j => Fin (A (s i) j)))).
    { intros i Hi. change (tab nc (fun j => Fin (A2 i j))) with (fvec nc (A2 i)).
      change (tab nc (fun j => Fin (A (s i) j))) with (fvec nc (A (s i))). rewrite !xsum_fvec. f_equal.
      rewrite <- (sumn_perm nc s Hs (A (s i))). apply sumn_ext. intros j Hj. apply M; assumption. }
    split; intros (r & Hin & Hr); apply in_map_iff in Hin as (i & <- & Hi); apply in_seq in Hi.
    - exists (tab nc (fun j => Fin (A (s i) j))). split.
      + apply in_map_iff. exists (s i). split; [reflexivity|]. apply in_seq. pose proof (proj1 Hs i). lia.
      + rewrite <- Hrow by lia. exact Hr.
    - destruct (s_onto nc s Hs i ltac:(lia)) as (k & Hk & <-).
      exists (tab nc (fun j => Fin (A2 k j))). split.
      + apply in_map_iff. exists k. split; [reflexivity|]. apply in_seq. lia.
      + rewrite Hrow by exact Hk. exact Hr.
  Qed.

  Lemma rl_loop fuel : forall h h2 pi pi2 A A2 m h' m' ev, mrel h h2 pi pi2 A A2 ->
    fit_loop exact step (zero_rows exact) fuel h m = Ok (h', m', ev) ->
    exists h2' pi' pi2' A' A2', fit_loop exact step2 (zero_rows exact) fuel h2 m = Ok (h2', m', ev)
      /\ mrel h' h2' pi' pi2' A' A2'.
  Proof.
    induction fuel as [|fuel IH]; intros h h2 pi pi2 A A2 m h' m' ev M H; cbn [fit_loop] in *.
    - injection H as <- <- <-. exists h2, pi, pi2, A, A2. split; [reflexivity|exact M].
    - destruct (step h) as [[h1 v]|] eqn:Es; [|discriminate]. cbn [bind] in H.
      destruct (rl_step h h2 pi pi2 A A2 h1 v M Es) as (k & p1 & p2 & B1 & B2 & S2 & M2).
      rewrite S2. cbn [bind].
      destruct (monitor_report exact m v) as [m1 ev1]. destruct (converged exact m1).
      + injection H as <- <- <-. exists k, p1, p2, B1, B2. split; [reflexivity|exact M2].
      + destruct (fit_loop exact step (zero_rows exact) fuel h1 m1) as [[[h3 m3] ev3]|] eqn:El; [|discriminate].
        destruct (IH h1 k p1 p2 B1 B2 m1 h3 m3 ev3 M2 El) as (k3 & p3 & p4 & B3 & B4 & S3 & M3).
        injection H as <- <- <-. rewrite S3. cbn [bind].
        rewrite (rl_zero_rows _ _ _ _ _ _ M2). exists k3, p3, p4, B3, B4. split; [reflexivity|exact M3].
  Qed.

  Theorem rl_fit h h2 h1 h21 pi pi2 A A2 h' ev : check E exact h = Ok h1 -> check E exact h2 = Ok h21 ->
    mrel h1 h21 pi pi2 A A2 -> monitor_reset (h_mon h21) = monitor_reset (h_mon h1) ->
    fit_from E exact h x (as_lengths ls) = Ok (h', ev) ->
    exists h2' pi' A', fit_from E exact h2 x2 (as_lengths ls2) = Ok (h2', ev)
      /\ h_start h' = Some (fvec nc pi') /\ h_start h2' = Some (fvec nc (fun i => pi' (s i)))
      /\ h_trans h' = Some (fmat nc nc A') /\ h_trans h2' = Some (fmat nc nc (fun i j => A' (s i) (s j)))
      /\ h_mon h2' = h_mon h' /\ h_nfeat h2' = h_nfeat h' /\ h_cfg h2' = h_cfg h2 /\ h_cfg h' = h_cfg h
      /\ rel (h_em h') (h_em h2') /\ good (h_cfg h') (h_nfeat h') (h_em h')
      /\ good2 (h_cfg h2') (h_nfeat h2') (h_em h2').
  Proof.
    intros C1 C2 M Hm Hf. unfold fit_from in *. rewrite C1 in Hf. rewrite C2. cbn [bind] in *.
    change (match as_lengths ls with None => _ | Some l => Some l end) with (as_lengths ls) in Hf.
    change (match as_lengths ls2 with None => _ | Some l => Some l end) with (as_lengths ls2).
    destruct (fit_loop exact step _ (c_n_iter (h_cfg h1)) h1 _) as [[[h3 m3] ev3]|] eqn:El; [|discriminate].
    injection Hf as <- <-.
    destruct (rl_loop _ _ _ _ _ _ _ _ _ _ _ M El) as (h4 & p3 & p4 & B3 & B4 & S & M3).
    rewrite Hm. replace (c_n_iter (h_cfg h21)) with (c_n_iter (h_cfg h1)) by (symmetry; apply (mr_cfg _ _ _ _ _ _ M)).
    rewrite S. cbn [bind]. eexists. exists p3, B3. split; [reflexivity|]. cbn [h_start h_trans h_mon h_nfeat h_cfg h_em].
    destruct M3 as [Mc Mn Mp MA Me T1 T2 P1 P2].
    split; [apply T1|]. split; [rewrite (ts_start _ _ _ _ _ _ _ _ _ T2); f_equal; apply fvec_ext; exact Mp|].
    split; [apply T1|]. split; [rewrite (ts_trans _ _ _ _ _ _ _ _ _ T2); f_equal; apply fmat_ext; exact MA|].
    split; [reflexivity|]. split; [exact Mn|]. split; [|split].
    - destruct (fit_loop_trace _ _ _ _ _ _ _ _ _ S) as (vs & Hi & _).
      destruct (iterate_keeps E exact x2 (as_lengths ls2) _ h21 h4 vs Hi) as (Q1 & _).
      destruct (check_keeps E exact h2 h21 C2) as (Q2 & _). congruence.
    - destruct (fit_loop_trace _ _ _ _ _ _ _ _ _ El) as (vs & Hi & _).
      destruct (iterate_keeps E exact x (as_lengths ls) _ h1 h3 vs Hi) as (Q1 & _).
      destruct (check_keeps E exact h h1 C1) as (Q2 & _). congruence.
    - split; [exact Me|]. split; [apply T1|apply T2].
  Qed.
End Fit.

(** The likelihoods of a relabelled model. *)
Section Given.
  Context {X : Type} (ok : X -> Prop).
  Variables (nc : nat) (s : nat -> nat) (ls ls2 : list nat) (x x2 : list X).
  Hypothesis Hs : permutes nc s.
  Hypothesis Hd : good_data ok ls x.
  Hypothesis Hcs : Permutation (chunks ls x) (chunks ls2 x2).
  Variables (pi pi2 : nat -> R) (A A2 : nat -> nat -> R) (b b2 : X -> nat -> R).
  Hypothesis Hpi : forall i, (i < nc)%nat -> pi2 i = pi (s i).
  Hypothesis HA : forall i j, (i < nc)%nat -> (j < nc)%nat -> A2 i j = A (s i) (s j).
  Hypothesis Hb : forall o i, ok o -> (i < nc)%nat -> b2 o i = b o (s i).

  Lemma possible_relabel : possible nc pi A b ls x -> possible nc pi2 A2 b2 ls2 x2.
  Proof.
    intros Hp c Hc. apply (Permutation_in _ (Permutation_sym Hcs)) in Hc.
    destruct (cs_ok ok ls x Hd c Hc) as [C1 C2].
    rewrite (rl_lik nc s Hs ok pi pi2 A A2 b b2 Hpi HA Hb c C1 C2). apply Hp. exact Hc.
  Qed.
  Lemma used_relabel : all_used nc pi A b (chunks ls x) -> all_used nc pi2 A2 b2 (chunks ls2 x2).
  Proof.
    intros Hu i Hi. destruct (Hu (s i) (proj1 Hs i Hi)) as (c & t & Hc & Ht & Hp).
    destruct (cs_ok ok ls x Hd c Hc) as [C1 C2]. exists c, t.
    split; [apply (Permutation_in _ Hcs Hc)|]. split; [exact Ht|].
    rewrite (rl_post nc s Hs ok pi pi2 A A2 b b2 Hpi HA Hb c t i C1 C2 Ht Hi). exact Hp.
  Qed.
End Given.

Lemma permutes_id nc : permutes nc (fun i => i).
Proof. split; auto. Qed.

(** Reordering the sequences alone. *)
Section Reorder.
  Context {P X St : Type} (E : emclass P X St).
  Variables (nc : nat) (ok : X -> Prop) (good : cfg -> option nat -> P -> Prop) (b : P -> X -> nat -> R) (V : bool).
  Hypothesis TN : trains E nc ok good b V.
  Variables (ls ls2 : list nat) (x x2 : list X).
  Hypothesis Hd : good_data ok ls x.
  Hypothesis Hd2 : good_data ok ls2 x2.
  Hypothesis Hcs : Permutation (chunks ls x) (chunks ls2 x2).
  Variables (sp : nat -> R) (tp : nat -> nat -> R).
  Hypothesis Hsp : forall i, (i < nc)%nat -> 1 <= sp i.
  Hypothesis Htp : forall i j, (i < nc)%nat -> (j < nc)%nat -> 1 <= tp i j.
  Hypothesis Hstep : forall c c2 nf p l l2 st st2 q q2,
    c_nc c = nc -> same_cfg c c2 -> good c nf p -> good c2 nf p ->
    good_weights nc ok (b p) l -> good_weights nc ok (b p) l2 ->
    (V = true -> visited nc l) -> (V = true -> visited nc l2) -> reordered nc (fun i => i) l l2 ->
    em_acc_all E c nf p nc (ec_stats0 E exact c nf p) l = Ok st -> ec_mstep E exact c nf p st = Ok q ->
    em_acc_all E c2 nf p nc (ec_stats0 E exact c2 nf p) l2 = Ok st2 -> ec_mstep E exact c2 nf p st2 = Ok q2 ->
    q2 = q.

  Theorem rl_reorder h h1 pi A h' ev : check E exact h = Ok h1 -> tstate nc good b V ls x h1 pi A ->
    priors (h_cfg h1) nc sp tp -> fit_from E exact h x (as_lengths ls) = Ok (h', ev) ->
    fit_from E exact h x2 (as_lengths ls2) = Ok (h', ev).
  Proof.
    intros C TS HP Hf.
    assert (TS2 : tstate nc good b V ls2 x2 h1 pi A).
    { apply (tstate_relabel nc ok good good b V ls ls2 x x2 Hd Hcs (fun i => i) (permutes_id nc)
               (fun p p2 => p2 = p)) with (h := h1) (pi := pi) (A := A); try reflexivity; try apply TS.
      intros p p2 o i -> _ _. reflexivity. }
    destruct (rl_fit E nc ok good good b V TN TN ls ls2 x x2 Hd Hd2 Hcs (fun i => i) (permutes_id nc)
                sp sp tp tp Hsp Htp ltac:(reflexivity) ltac:(reflexivity) (fun p p2 => p2 = p)
                ltac:(intros p p2 o i -> _ _; reflexivity)) with (h := h) (h2 := h) (h1 := h1) (h21 := h1)
                (pi := pi) (pi2 := pi) (A := A) (A2 := A) (h' := h') (ev := ev)
      as (h2' & pi' & A' & F2 & S1 & S2 & T1 & T2 & Em & En & Ec & Ec1 & Er & _).
    - intros c c2 nf p p2 l l2 st st2 q q2 H1 H2 H3 H4 ->. apply Hstep; assumption.
    - exact C.
    - exact C.
    - constructor; try reflexivity; try assumption. repeat split.
    - reflexivity.
    - exact Hf.
    - assert (Q1 : h_start h2' = h_start h') by (rewrite S1, S2; reflexivity).
      assert (Q2 : h_trans h2' = h_trans h') by (rewrite T1, T2; reflexivity).
      rewrite F2. f_equal. f_equal. clear - Q1 Q2 Em En Ec Ec1 Er. destruct h2', h'. cbn in *. congruence.
  Qed.
End Reorder.
