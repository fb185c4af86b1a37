(** * Training on recoded observations: every sample [o] is replaced by [g o]. *)
From Coq Require Import FunctionalExtensionality.
From Verif Require Export Relabel Relabel_em Agree_thms.

(** ** Path sums. *)
Section Recoded.
  Context {X : Type} (g : X -> X).
  Lemma obsB_map (b : X -> nat -> R) x : obsB b (map g x) = obsB (fun o => b (g o)) x.
  Proof. apply functional_extensionality. intros t. apply functional_extensionality. intros i. unfold obsB. rewrite map_map. reflexivity. Qed.
  Lemma seq_lik_map nc pi A (b : X -> nat -> R) x : seq_lik nc pi A b (map g x) = seq_lik nc pi A (fun o => b (g o)) x.
  Proof. unfold seq_lik. rewrite map_length, obsB_map. reflexivity. Qed.
  Lemma seq_post_map nc pi A (b : X -> nat -> R) x : seq_post nc pi A b (map g x) = seq_post nc pi A (fun o => b (g o)) x.
  Proof. unfold seq_post. rewrite map_length, obsB_map. reflexivity. Qed.
  Lemma seq_trans_map nc pi A (b : X -> nat -> R) x : seq_trans nc pi A b (map g x) = seq_trans nc pi A (fun o => b (g o)) x.
  Proof. unfold seq_trans. rewrite map_length, obsB_map. reflexivity. Qed.
  Lemma seq_plik_map nc pi A (b : X -> nat -> R) x : seq_plik nc pi A b (map g x) = seq_plik nc pi A (fun o => b (g o)) x.
  Proof. destruct x as [|o x]; [reflexivity|]. apply (seq_lik_map nc pi A b (o :: x)). Qed.
  Lemma scorable_map nc pi A (b : X -> nat -> R) impl x : scorable nc pi A (fun o => b (g o)) impl x -> scorable nc pi A b impl (map g x).
  Proof.
    intros [[H1 H2]|[H1 H2]]; [left|right]; (split; [exact H1|]).
    - rewrite seq_lik_map. exact H2.
    - intros t Ht. rewrite map_length in Ht. rewrite !firstn_map, !seq_plik_map. apply H2. exact Ht.
  Qed.
  Lemma chunks_recode ls : forall x, chunks ls (map g x) = map (map g) (chunks ls x).
  Proof. induction ls as [|n ls IH]; intros x; [reflexivity|]. cbn [chunks map]. rewrite firstn_map, skipn_map, IH. reflexivity. Qed.
End Recoded.

(** ** Weighted data. *)
Definition recoded {X} (nc : nat) (g : X -> X) (l l2 : list (list X * (nat -> nat -> R))) : Prop :=
  exists cs G G2, l = map (fun c => (c, G c)) cs /\ l2 = map (fun c => (map g c, G2 c)) cs
    /\ forall c t i, In c cs -> (t < length c)%nat -> (i < nc)%nat -> G2 c t i = G c t i.

Lemma recoded_sum {X} nc g (l l2 : list (list X * (nat -> nat -> R))) (F F2 : X -> R -> R) d d2 i :
  recoded nc g l l2 -> (i < nc)%nat ->
  (forall w o a, In w l -> In o (fst w) -> F2 (g o) a = F o a) ->
  sumL (fun w => sumn (length (fst w)) (fun t => F2 (nth t (fst w) d2) (snd w t i))) l2
  = sumL (fun w => sumn (length (fst w)) (fun t => F (nth t (fst w) d) (snd w t i))) l.
Proof.
  intros (cs & G & G2 & -> & -> & HG) Hi HF. rewrite !sumL_map. cbn [fst snd]. apply sumL_ext. intros c Hc. rewrite map_length.
  apply sumn_ext. intros t Ht. rewrite (HG c t i Hc Ht Hi). rewrite (nth_indep _ d2 (g d)) by (rewrite map_length; exact Ht).
  rewrite (map_nth g). apply (HF (c, G c)); [apply in_map_iff; exists c; auto|apply nth_In; exact Ht].
Qed.
Lemma recoded_wsum {X} nc g (l l2 : list (list X * (nat -> nat -> R))) phi phi2 i :
  recoded nc g l l2 -> (i < nc)%nat -> (forall w o, In w l -> In o (fst w) -> phi2 (g o) i = phi o i) ->
  wsum l2 phi2 i = wsum l phi i.
Proof.
  intros (cs & G & G2 & -> & -> & HG) Hi HF. unfold wsum. rewrite !sumL_map. cbn [fst snd]. apply sumL_ext. intros c Hc. rewrite map_length.
  apply sumn_ext. intros t Ht. rewrite (HG c t i Hc Ht Hi), obsB_map. f_equal. destruct c as [|d c0]; [cbn in Ht; lia|]. set (c := d :: c0) in *.
  rewrite !(obsB_nth _ c d) by exact Ht. apply (HF (c, G c)); [apply in_map_iff; exists c; auto|apply nth_In; exact Ht].
Qed.
Lemma recoded_occ {X} nc g (l l2 : list (list X * (nat -> nat -> R))) i : recoded nc g l l2 -> (i < nc)%nat ->
  wsum l2 (fun _ _ => 1) i = wsum l (fun _ _ => 1) i.
Proof. intros H Hi. apply (recoded_wsum nc g l l2 (fun _ _ => 1) (fun _ _ => 1) i H Hi). reflexivity. Qed.
Lemma recoded_total {X} nc g (l l2 : list (list X * (nat -> nat -> R))) : recoded nc g l l2 ->
  sumn nc (wsum l2 (fun _ _ => 1)) = sumn nc (wsum l (fun _ _ => 1)).
Proof. intros H. apply sumn_ext. intros i Hi. apply (recoded_occ nc g l l2 i H Hi). Qed.

(** ** A whole fit. *)
Section Fit.
  Context {P X St : Type} (E : emclass P X St).
  Variables (nc : nat) (ok : X -> Prop) (good good2 : cfg -> option nat -> P -> Prop)
            (b : P -> X -> nat -> R) (V : bool).
  Hypothesis TN : trains E nc ok good b V.
  Hypothesis TN2 : trains E nc ok good2 b V.
  Variables (ls : list nat) (x : list X) (g : X -> X).
  Hypothesis Hd : good_data ok ls x.
  Hypothesis Hg : forall o, ok o -> ok (g o).
  Variables (sp : nat -> R) (tp : nat -> nat -> R).
  Hypothesis Hsp : forall i, (i < nc)%nat -> 1 <= sp i.
  Hypothesis Htp : forall i j, (i < nc)%nat -> (j < nc)%nat -> 1 <= tp i j.
  Variable rel : P -> P -> Prop.
  Hypothesis Hrel : forall p p2 o i, rel p p2 -> ok o -> (i < nc)%nat -> b p2 (g o) i = b p o i.

  Hypothesis Hstep : forall c c2 nf p p2 l l2 st st2 q q2,
    c_nc c = nc -> same_cfg c c2 -> good c nf p -> good2 c2 nf p2 -> rel p p2 ->
    good_weights nc ok (b p) l -> good_weights nc ok (b p2) l2 ->
    (V = true -> visited nc l) -> (V = true -> visited nc l2) -> recoded nc g l l2 ->
    em_acc_all E c nf p nc (ec_stats0 E exact c nf p) l = Ok st -> ec_mstep E exact c nf p st = Ok q ->
    em_acc_all E c2 nf p2 nc (ec_stats0 E exact c2 nf p2) l2 = Ok st2 -> ec_mstep E exact c2 nf p2 st2 = Ok q2 ->
    rel q q2.

  Notation cs := (chunks ls x).
  Notation x2 := (map g x).

  Lemma rc_good_data : good_data ok ls x2.
  Proof.
    destruct Hd as [H1 H2]. split.
    - rewrite Forall_forall in *. intros o Ho. apply in_map_iff in Ho as (o' & <- & Ho). apply Hg, H1, Ho.
    - unfold good_lengths in *. rewrite map_length. exact H2.
  Qed.
  Lemma rc_in c2 : In c2 (chunks ls x2) <-> exists c, In c cs /\ c2 = map g c.
  Proof. rewrite chunks_recode, in_map_iff. split; intros (c & A & B); exists c; auto. Qed.

  Record crel (h h2 : hmm P) (pi : nat -> R) (A : nat -> nat -> R) : Prop := CRel {
    cr_cfg : same_cfg (h_cfg h) (h_cfg h2);
    cr_nf : h_nfeat h2 = h_nfeat h;
    cr_em : rel (h_em h) (h_em h2);
    cr_t1 : tstate nc good b V ls x h pi A;
    cr_t2 : tstate nc good2 b V ls x2 h2 pi A;
    cr_p1 : priors (h_cfg h) nc sp tp;
    cr_p2 : priors (h_cfg h2) nc sp tp }.

  Section Two.
    Variables (p p2 : P) (pi : nat -> R) (A : nat -> nat -> R) (c : list X).
    Hypothesis Hr : rel p p2.
    Hypothesis Hc : In c cs.
    Lemma rc_ok : c <> [] /\ Forall ok c.
    Proof. exact (cs_ok ok ls x Hd c Hc). Qed.
    Let Hb : forall o i, ok o -> (i < nc)%nat -> (fun o i => b p2 (g o) i) o i = b p o ((fun i => i) i) := fun o i => Hrel p p2 o i Hr.
    Lemma rc_lik : seq_lik nc pi A (b p2) (map g c) = seq_lik nc pi A (b p) c.
    Proof.
      destruct rc_ok as [C1 C2]. rewrite seq_lik_map.
      apply (rl_lik nc (fun i => i) (permutes_id nc) ok pi pi A A (b p) (fun o => b p2 (g o)) ltac:(reflexivity) ltac:(reflexivity) Hb c C1 C2).
    Qed.
    Lemma rc_post t i : (t < length c)%nat -> (i < nc)%nat -> seq_post nc pi A (b p2) (map g c) t i = seq_post nc pi A (b p) c t i.
    Proof.
      intros Ht Hi. destruct rc_ok as [C1 C2]. rewrite seq_post_map.
      apply (rl_post nc (fun i => i) (permutes_id nc) ok pi pi A A (b p) (fun o => b p2 (g o)) ltac:(reflexivity) ltac:(reflexivity) Hb c t i C1 C2 Ht Hi).
    Qed.
    Lemma rc_trans i j : (i < nc)%nat -> (j < nc)%nat -> seq_trans nc pi A (b p2) (map g c) i j = seq_trans nc pi A (b p) c i j.
    Proof.
      intros Hi Hj. destruct rc_ok as [C1 C2]. rewrite seq_trans_map.
      apply (rl_trans nc (fun i => i) (permutes_id nc) ok pi pi A A (b p) (fun o => b p2 (g o)) ltac:(reflexivity) ltac:(reflexivity) Hb c i j C1 C2 Hi Hj).
    Qed.
    Lemma rc_scorable impl : scorable nc pi A (b p) impl c -> scorable nc pi A (b p2) impl (map g c).
    Proof.
      intros H. destruct rc_ok as [C1 C2]. apply scorable_map.
      apply (rl_scorable nc (fun i => i) (permutes_id nc) ok pi pi A A (b p) (fun o => b p2 (g o)) ltac:(reflexivity) ltac:(reflexivity) Hb impl c C1 C2 H).
    Qed.
  End Two.

  Lemma rc_tstate h h2 pi A :
    c_nc (h_cfg h2) = nc -> h_start h2 = Some (fvec nc pi) -> h_trans h2 = Some (fmat nc nc A) ->
    rel (h_em h) (h_em h2) -> good2 (h_cfg h2) (h_nfeat h2) (h_em h2) ->
    tstate nc good b V ls x h pi A -> tstate nc good2 b V ls x2 h2 pi A.
  Proof.
    intros Hn Hst Htr Hr Hgd TS. constructor; try assumption; try apply TS.
    - intros c2 Hc2. apply rc_in in Hc2 as (c & Hc & ->). rewrite (rc_lik _ _ pi A c Hr Hc). apply TS. exact Hc.
    - intros HV i Hi. destruct (ts_visit _ _ _ _ _ _ _ _ _ TS HV i Hi) as (c & w & t & Hin & Ht & Hp).
      apply in_map_iff in Hin as (c' & Heq & Hc). injection Heq as -> <-.
      exists (map g c), (seq_post nc pi A (b (h_em h2)) (map g c)), t.
      split; [apply in_map_iff; exists (map g c); split; [reflexivity|apply rc_in; exists c; auto]|]. split; [rewrite map_length; exact Ht|].
      rewrite (rc_post _ _ pi A c Hr Hc t i Ht Hi). exact Hp.
  Qed.

  Notation step := (em_step E exact x (as_lengths ls)).
  Notation step2 := (em_step E exact x2 (as_lengths ls)).

  Lemma rc_step h h2 pi A h' v : crel h h2 pi A -> step h = Ok (h', v) ->
    exists h2' pi' A', step2 h2 = Ok (h2', v) /\ crel h' h2' pi' A'.
  Proof.
    intros M Hst. destruct M as [Mc Mn Me T1 T2 P1 P2]. destruct Mc as (K1 & K2 & K3 & K4).
    pose proof rc_good_data as Hd2.
    pose proof (em_step_scorable E nc ok good b V TN ls x Hd h pi A _ T1 Hst) as Hsc.
    assert (Hsc2 : forall c, In c (chunks ls x2) -> scorable nc pi A (b (h_em h2)) (c_impl (h_cfg h2)) c).
    { intros c2 Hc2. apply rc_in in Hc2 as (c & Hc & ->). rewrite K3. apply (rc_scorable _ _ pi A c Me Hc). apply Hsc. exact Hc. }
    destruct (em_step_ok E nc ok good2 b V TN2 ls x2 Hd2 h2 pi A T2 sp tp P2 Hsc2
                (start_ok_ge1 E nc ok good2 b V TN2 ls x2 Hd2 h2 pi A T2 sp Hsp)) as (q2 & S2 & _ & _ & _).
    destruct (em_step_next E nc ok good b V TN ls x Hd sp tp Hsp Htp h pi A h' v T1 P1 Hst)
      as (N1 & N2 & N3 & N4 & N5 & N6 & _).
    destruct (em_step_next E nc ok good2 b V TN2 ls x2 Hd2 sp tp Hsp Htp h2 pi A _ _ T2 P2 S2)
      as (O1 & O2 & O3 & O4 & O5 & O6 & _).
    set (h2' := Hmm _ _ _ _ _ q2) in *.
    assert (Hpi : forall i, (i < nc)%nat -> new_pi nc b ls x2 h2 pi A sp i = new_pi nc b ls x h pi A sp i).
    { intros i Hi. unfold new_pi. rewrite K2. destruct (has "s" _); [|reflexivity].
      apply (normalised_perm nc (fun i => i) (permutes_id nc)); [|exact Hi]. intros k Hk.
      apply (map_weight_eq (fun i => i)); [reflexivity|reflexivity|].
      unfold cnt_start. rewrite chunks_recode, sumL_map. apply sumL_ext. intros c Hc.
      apply (rc_post _ _ pi A c Me Hc 0 k); [|exact Hk]. destruct (rc_ok c Hc) as [C1 _]. destruct c; [contradiction|simpl; lia]. }
    assert (HA : forall i j, (i < nc)%nat -> (j < nc)%nat -> new_A nc b ls x2 h2 pi A tp i j = new_A nc b ls x h pi A tp i j).
    { intros i j Hi Hj. unfold new_A. rewrite K2. destruct (has "t" _); [|reflexivity].
      apply (normalised_perm nc (fun i => i) (permutes_id nc)); [|exact Hj]. intros k Hk.
      apply (map_weight_eq (fun i => i)); [reflexivity|reflexivity|].
      unfold cnt_trans. rewrite chunks_recode, sumL_map. apply sumL_ext. intros c Hc. apply (rc_trans _ _ pi A c Me Hc i k Hi Hk). }
    assert (Hq : rel (h_em h') q2).
    { destruct N6 as (st & Q1 & Q2). destruct O6 as (st2 & R1 & R2). rewrite Mn in R1, R2.
      apply (Hstep (h_cfg h) (h_cfg h2) (h_nfeat h) (h_em h) (h_em h2)
               (wpairs nc b ls x h pi A) (wpairs nc b ls x2 h2 pi A) st st2).
      - apply T1.
      - repeat split; assumption.
      - apply T1.
      - rewrite <- Mn. apply T2.
      - exact Me.
      - apply (wpairs_good E nc ok good b V TN ls x Hd h pi A T1).
      - apply (wpairs_good E nc ok good2 b V TN2 ls x2 Hd2 h2 pi A T2).
      - apply T1.
      - apply T2.
      - exists cs, (seq_post nc pi A (b (h_em h))), (fun c => seq_post nc pi A (b (h_em h2)) (map g c)).
        split; [reflexivity|]. split; [unfold wpairs; rewrite chunks_recode, map_map; reflexivity|].
        intros c t i Hc Ht Hi. apply (rc_post _ _ pi A c Me Hc t i Ht Hi).
      - exact Q1.
      - exact Q2.
      - exact R1.
      - exact R2. }
    exists h2', (new_pi nc b ls x h pi A sp), (new_A nc b ls x h pi A tp). split.
    - rewrite S2. f_equal. f_equal. rewrite O4, N4. f_equal. unfold loglik_sum.
      rewrite chunks_recode, sumL_map. apply sumL_ext. intros c Hc. f_equal. apply (rc_lik _ _ pi A c Me Hc).
    - constructor; [..|rewrite N1; exact P1|rewrite O1; exact P2].
      + rewrite N1, O1. repeat split; assumption.
      + rewrite N2, O2. exact Mn.
      + exact Hq.
      + exact N5.
      + apply (rc_tstate h'); [apply O5| | |exact Hq|apply O5|exact N5]; unfold h2'; cbn [h_start h_trans]; f_equal.
        * apply fvec_ext. exact Hpi.
        * apply fmat_ext. exact HA.
  Qed.

  Lemma rc_zero_rows h h2 pi A : crel h h2 pi A -> zero_rows exact h2 = zero_rows exact h.
  Proof.
    intros M. unfold zero_rows. rewrite (ts_trans _ _ _ _ _ _ _ _ _ (cr_t1 _ _ _ _ M)), (ts_trans _ _ _ _ _ _ _ _ _ (cr_t2 _ _ _ _ M)). reflexivity.
  Qed.
  Lemma rc_loop fuel : forall h h2 pi A m h' m' ev, crel h h2 pi A ->
    fit_loop exact step (zero_rows exact) fuel h m = Ok (h', m', ev) ->
    exists h2' pi' A', fit_loop exact step2 (zero_rows exact) fuel h2 m = Ok (h2', m', ev) /\ crel h' h2' pi' A'.
  Proof.
    induction fuel as [|fuel IH]; intros h h2 pi A m h' m' ev M H; cbn [fit_loop] in *.
    - injection H as <- <- <-. exists h2, pi, A. split; [reflexivity|exact M].
    - destruct (step h) as [[h1 v]|] eqn:Es; [|discriminate]. cbn [bind] in H.
      destruct (rc_step h h2 pi A h1 v M Es) as (k & p1 & B1 & S2 & M2). rewrite S2. cbn [bind].
      destruct (monitor_report exact m v) as [m1 ev1]. destruct (converged exact m1).
      + injection H as <- <- <-. exists k, p1, B1. split; [reflexivity|exact M2].
      + destruct (fit_loop exact step (zero_rows exact) fuel h1 m1) as [[[h3 m3] ev3]|] eqn:El; [|discriminate].
        destruct (IH h1 k p1 B1 m1 h3 m3 ev3 M2 El) as (k3 & p3 & B3 & S3 & M3).
        injection H as <- <- <-. rewrite S3. cbn [bind]. rewrite (rc_zero_rows _ _ _ _ M2). exists k3, p3, B3. split; [reflexivity|exact M3].
  Qed.
  Theorem rc_fit h h2 h1 h21 pi A h' ev : check E exact h = Ok h1 -> check E exact h2 = Ok h21 ->
    crel h1 h21 pi A -> monitor_reset (h_mon h21) = monitor_reset (h_mon h1) ->
    fit_from E exact h x (as_lengths ls) = Ok (h', ev) ->
    exists h2', fit_from E exact h2 x2 (as_lengths ls) = Ok (h2', ev)
      /\ h_start h2' = h_start h' /\ h_trans h2' = h_trans h' /\ h_mon h2' = h_mon h' /\ h_nfeat h2' = h_nfeat h'
      /\ rel (h_em h') (h_em h2') /\ good (h_cfg h') (h_nfeat h') (h_em h') /\ good2 (h_cfg h2') (h_nfeat h2') (h_em h2').
  Proof.
    intros C1 C2 M Hm Hf. unfold fit_from in *. rewrite C1 in Hf. rewrite C2. cbn [bind] in *.
    change (match as_lengths ls with None => _ | Some l => Some l end) with (as_lengths ls) in Hf.
    change (match as_lengths ls with None => _ | Some l => Some l end) with (as_lengths ls).
    destruct (fit_loop exact step _ (c_n_iter (h_cfg h1)) h1 _) as [[[h3 m3] ev3]|] eqn:El; [|discriminate].
    injection Hf as <- <-.
    destruct (rc_loop _ _ _ _ _ _ _ _ _ M El) as (h4 & p3 & B3 & S & M3).
    rewrite Hm. replace (c_n_iter (h_cfg h21)) with (c_n_iter (h_cfg h1)) by (symmetry; apply (cr_cfg _ _ _ _ M)).
    rewrite S. cbn [bind]. eexists. split; [reflexivity|]. cbn [h_start h_trans h_mon h_nfeat h_cfg h_em].
    destruct M3 as [Mc Mn Me T1 T2 P1 P2].
    split; [rewrite (ts_start _ _ _ _ _ _ _ _ _ T2); symmetry; apply T1|]. split; [rewrite (ts_trans _ _ _ _ _ _ _ _ _ T2); symmetry; apply T1|].
    split; [reflexivity|]. split; [exact Mn|]. split; [exact Me|]. split; [apply T1|apply T2].
  Qed.
End Fit.

(** ** Inference. *)
(** The results of scoring and decoding depend on the data through the
    likelihoods only. *)
Section Infer.
  Context {P X St : Type} (E : emclass P X St).
  Variables (g : X -> X) (ok : X -> Prop) (nc : nat) (pi : nat -> R) (A : nat -> nat -> R) (b b2 : X -> nat -> R) (h h2 : hmm P).
  Hypothesis Rd : ready E h nc pi A ok b.
  Hypothesis Rd2 : ready E h2 nc pi A ok b2.
  Hypothesis Hg : forall o, ok o -> ok (g o).
  Hypothesis Hb : forall o i, ok o -> (i < nc)%nat -> b2 (g o) i = b o i.
  Hypothesis Ki : c_impl (h_cfg h2) = c_impl (h_cfg h).
  Hypothesis Ka : c_algorithm (h_cfg h2) = c_algorithm (h_cfg h).

  Lemma ri_frames x : Forall ok x -> forall t i, (t < length x)%nat -> (i < nc)%nat -> obsB b2 (map g x) t i = obsB b x t i.
  Proof.
    intros Hx t i Ht Hi. rewrite obsB_map. apply (obsB_ext ok (fun o => b2 (g o)) b nc x Hx); [intros; apply Hb; assumption|exact Ht|exact Hi].
  Qed.
  Lemma ri_ok x : Forall ok x -> Forall ok (map g x).
  Proof. rewrite !Forall_forall. intros H o Ho. apply in_map_iff in Ho as (o' & <- & Ho). apply Hg, H, Ho. Qed.
  Lemma ri_loglik k k2 x : emits E k nc ok b -> emits E k2 nc ok b2 -> Forall ok x -> loglik E exact k2 (map g x) = loglik E exact k x.
  Proof.
    intros E1 E2 Hx. rewrite (em_log _ _ _ _ _ E1 x Hx), (em_log _ _ _ _ _ E2 _ (ri_ok x Hx)), map_length. f_equal. unfold lmat. apply mtab_ext.
    intros t i Ht Hi. f_equal. apply ri_frames; assumption.
  Qed.
  Lemma ri_lik k k2 x : emits E k nc ok b -> emits E k2 nc ok b2 -> Forall ok x -> lik E exact k2 (map g x) = lik E exact k x.
  Proof.
    intros E1 E2 Hx. rewrite (em_lin _ _ _ _ _ E1 x Hx), (em_lin _ _ _ _ _ E2 _ (ri_ok x Hx)), map_length. f_equal. apply fmat_ext.
    intros t i Ht Hi. apply ri_frames; assumption.
  Qed.
  Lemma ri_array x : Forall ok x -> (exists k k2, emits E k nc ok b /\ emits E k2 nc ok b2) ->
    check_array (ec_xok E) (map g x) = seen_as (map g) (check_array (ec_xok E) x).
  Proof.
    intros Hx (k & k2 & E1 & E2). assert (Q : forall f (y : list X) (b0 : X -> nat -> R) q, emits E q nc f b0 -> Forall f y -> forallb (ec_xok E) y = true).
    { intros f y b0 q Hq Hy. apply forallb_forall. intros o Ho. rewrite Forall_forall in Hy. apply (em_xok _ _ _ _ _ Hq), Hy, Ho. }
    unfold check_array. destruct x as [|o x]; [reflexivity|]. cbn [map]. change (g o :: map g x) with (map g (o :: x)).
    rewrite (Q ok _ b k E1 Hx), (Q ok _ b2 k2 E2 (ri_ok _ Hx)). reflexivity.
  Qed.
  Lemma split_recode x ls : split_X_lengths (map g x) ls = seen_as (map (map g)) (split_X_lengths x ls).
  Proof.
    unfold split_X_lengths. destruct ls as [[|n r]|]; [reflexivity| |reflexivity]. rewrite map_length. destruct (Z.eqb _ _); [|reflexivity].
    cbn [seen_as]. f_equal. generalize 0%Z. generalize (n :: r). induction l as [|m l IH]; intros z; [reflexivity|].
    cbn [split_from map]. rewrite IH. f_equal. unfold py_slice, py_bound. rewrite map_length, skipn_map, firstn_map. reflexivity.
  Qed.
  Lemma acc_recode {B} (f f2 : list X -> res (xnum * list B)) xs : (forall c, In c xs -> f2 (map g c) = f c) ->
    forall a, acc_seqs exact f2 a (map (map g) xs) = acc_seqs exact f a xs.
  Proof.
    induction xs as [|c xs IH]; intros H a; [reflexivity|]. cbn [map acc_seqs]. rewrite (H c (or_introl eq_refl)).
    destruct (f c) as [[l r]|]; [|reflexivity]. cbn [bind]. rewrite IH; [reflexivity|]. intros c' Hc'. apply H. right. exact Hc'.
  Qed.
  Lemma ready_checked k b0 : ready E k nc pi A ok b0 ->
    exists k', fitted_check E exact k = Ok (k', fvec nc pi, fmat nc nc A) /\ fitted_check E exact k' = Ok (k', fvec nc pi, fmat nc nc A)
      /\ emits E k' nc ok b0 /\ h_cfg k' = h_cfg k.
  Proof.
    intros [D1 D2 D3 D4 D5 D6 (k' & C1 & C2 & Em)]. exists k'. destruct (check_keeps E exact k k' C1) as (Q1 & Q2 & Q3 & _).
    assert (S1 : h_start k' = Some (fvec nc pi)) by congruence. assert (T1 : h_trans k' = Some (fmat nc nc A)) by congruence.
    unfold fitted_check. rewrite D3, C1. cbn [bind]. rewrite S1, C2, T1. cbn [bind]. rewrite ?S1, ?T1. split; [reflexivity|]. split; [reflexivity|]. split; [exact Em|exact Q1].
  Qed.
  (** Data that is split into parts of [x]. *)
  Lemma ri_score x ls post : Forall ok x -> score_ E exact h2 (map g x) ls post = score_ E exact h x ls post.
  Proof.
    intros Hx. destruct (ready_checked h b Rd) as (k & F1 & _ & E1 & _). destruct (ready_checked h2 b2 Rd2) as (k2 & F2 & _ & E2 & _).
    unfold score_. rewrite F1, F2. cbn [bind]. rewrite (ri_array x Hx (ex_intro _ k (ex_intro _ k2 (conj E1 E2)))).
    destruct (check_array (ec_xok E) x) as [y|] eqn:Ey; [|reflexivity]. cbn [bind seen_as].
    assert (y = x) as ->. { unfold check_array in Ey. destruct x; [discriminate|]. destruct (forallb _ _); [congruence|discriminate]. }
    rewrite Ki. assert (Kn : c_nc (h_cfg h2) = c_nc (h_cfg h)) by (rewrite (rd_nc _ _ _ _ _ _ _ Rd), (rd_nc _ _ _ _ _ _ _ Rd2); reflexivity). rewrite Kn.
    assert (Q : forall f f2, (forall c, Forall ok c -> f2 (map g c) = f c) ->
      (do xs <- split_X_lengths (map g x) ls; do (lp, rs) <- acc_seqs exact f2 (Fin 0) xs; Ok (lp, Mat (c_nc (h_cfg h)) rs))
      = (do xs <- split_X_lengths x ls; do (lp, rs) <- acc_seqs exact f (Fin 0) xs; Ok (lp, Mat (c_nc (h_cfg h)) rs))).
    { intros f f2 Hf. rewrite split_recode. destruct (split_X_lengths x ls) as [xs|] eqn:Es; [|reflexivity]. cbn [seen_as bind].
      rewrite (acc_recode f f2); [reflexivity|]. intros c Hc. apply Hf. apply Forall_forall. intros o Ho. rewrite Forall_forall in Hx. apply Hx.
      apply (split_in x ls xs c o Es Hc Ho). }
    destruct (String.eqb _ "scaling"); [|destruct (String.eqb _ "log"); [|reflexivity]]; cbn [bind]; apply Q; intros c Hc.
    - unfold score_scaling_seq. rewrite (ri_lik k k2 c E1 E2 Hc). reflexivity.
    - unfold score_log_seq. rewrite (ri_loglik k k2 c E1 E2 Hc). reflexivity.
  Qed.
End Infer.

Section Infer2.
  Context {P X St : Type} (E : emclass P X St).
  Variables (g : X -> X) (ok : X -> Prop) (nc : nat) (pi : nat -> R) (A : nat -> nat -> R) (b b2 : X -> nat -> R) (h h2 : hmm P).
  Hypothesis Rd : ready E h nc pi A ok b.
  Hypothesis Rd2 : ready E h2 nc pi A ok b2.
  Hypothesis Hg : forall o, ok o -> ok (g o).
  Hypothesis Hb : forall o i, ok o -> (i < nc)%nat -> b2 (g o) i = b o i.
  Hypothesis Ki : c_impl (h_cfg h2) = c_impl (h_cfg h).
  Hypothesis Ka : c_algorithm (h_cfg h2) = c_algorithm (h_cfg h).
  Lemma ri_decode x ls alg : Forall ok x -> decode E exact h2 (map g x) ls alg = decode E exact h x ls alg.
  Proof.
    intros Hx. destruct (ready_checked E ok nc pi A h b Rd) as (k & F1 & G1 & E1 & K1). destruct (ready_checked E ok nc pi A h2 b2 Rd2) as (k2 & F2 & G2 & E2 & K2).
    unfold decode. rewrite F1, F2. cbn [bind]. rewrite Ka.
    assert (Q : forall f f2 : list X -> res (xnum * list nat), (forall c, Forall ok c -> f2 (map g c) = f c) ->
      (do y <- check_array (ec_xok E) (map g x); do xs <- split_X_lengths y ls; acc_seqs exact f2 (Fin 0) xs)
      = (do y <- check_array (ec_xok E) x; do xs <- split_X_lengths y ls; acc_seqs exact f (Fin 0) xs)).
    { intros f f2 Hf. rewrite (ri_array E g ok nc b b2 Hg x Hx (ex_intro _ k (ex_intro _ k2 (conj E1 E2)))).
      destruct (check_array (ec_xok E) x) as [y|] eqn:Ey; [|reflexivity]. cbn [bind seen_as].
      assert (y = x) as ->. { unfold check_array in Ey. destruct x; [discriminate|]. destruct (forallb _ _); [congruence|discriminate]. }
      rewrite split_recode. destruct (split_X_lengths x ls) as [xs|] eqn:Es; [|reflexivity]. cbn [seen_as bind].
      apply acc_recode. intros c Hc. apply Hf. apply Forall_forall. intros o Ho. rewrite Forall_forall in Hx. apply Hx.
      apply (split_in x ls xs c o Es Hc Ho). }
    assert (Rk : forall q q' b0, ready E q nc pi A ok b0 -> fitted_check E exact q = Ok (q', fvec nc pi, fmat nc nc A) -> ready E q' nc pi A ok b0).
    { intros q q' b0 [D1 D2 D3 D4 D5 D6 (r & C1 & C2 & Em)] Fq. unfold fitted_check in Fq. rewrite D3, C1 in Fq. cbn [bind] in Fq.
      destruct (check_keeps E exact q r C1) as (Q1 & Q2 & Q3 & _). rewrite Q2, Q3, D3, D4 in Fq. injection Fq as <-.
      constructor; try assumption; [congruence|congruence|congruence|]. exists r. auto. }
    destruct (String.eqb _ "viterbi"); [|destruct (String.eqb _ "map"); [|reflexivity]]; cbn [bind]; apply Q; intros c Hc.
    - unfold decode_viterbi. rewrite (ri_loglik E g ok nc b b2 Hg Hb k k2 c E1 E2 Hc). reflexivity.
    - unfold decode_map, score_samples.
      rewrite (ri_score E g ok nc pi A b b2 k k2 (Rk _ _ _ Rd F1) (Rk _ _ _ Rd2 F2) Hg Hb) by (try assumption; rewrite K1, K2; exact Ki). reflexivity.
  Qed.
  (** What the user sees. *)
  Definition same_answers (x : list X) (ls : option (list Z)) : Prop :=
    score E exact h2 (map g x) ls = score E exact h x ls
    /\ score_samples E exact h2 (map g x) ls = score_samples E exact h x ls
    /\ predict_proba E exact h2 (map g x) ls = predict_proba E exact h x ls
    /\ (forall alg, decode E exact h2 (map g x) ls alg = decode E exact h x ls alg)
    /\ predict E exact h2 (map g x) ls = predict E exact h x ls.
  Lemma ri_answers x ls : Forall ok x -> same_answers x ls.
  Proof.
    intros Hx. pose proof (fun p => ri_score E g ok nc pi A b b2 h h2 Rd Rd2 Hg Hb Ki x ls p Hx) as Hs.
    unfold same_answers, score, predict_proba, score_samples, predict. rewrite !Hs, !(ri_decode x ls _ Hx).
    repeat split; try reflexivity. intros alg. apply ri_decode. exact Hx.
  Qed.
End Infer2.
