(** * The training loop. *)
From Verif Require Export Categorical_train.

Lemma iterate_S {O} (step : O -> res (O * xnum)) n o :
  iterate step (S n) o = do (o', v) <- step o; do (o2, vs) <- iterate step n o'; Ok (o2, v :: vs).
Proof. reflexivity. Qed.

Lemma iterate_length {O} (step : O -> res (O * xnum)) n : forall o o' vs,
  iterate step n o = Ok (o', vs) -> length vs = n.
Proof.
  induction n as [|n IH]; intros o o' vs; simpl; intros H.
  - injection H as <- <-. reflexivity.
  - destruct (step o) as [[o1 v]|]; [|discriminate]. cbn [bind] in H.
    destruct (iterate step n o1) as [[o2 vs']|] eqn:E; [|discriminate]. injection H as <- <-.
    simpl. rewrite (IH _ _ _ E). reflexivity.
Qed.

Lemma iterate_prefix {O} (step : O -> res (O * xnum)) n j : (j < n)%nat -> forall o o' vs,
  iterate step n o = Ok (o', vs) ->
  exists oj oj', iterate step j o = Ok (oj, firstn j vs) /\ step oj = Ok (oj', nth j vs NaN).
Proof.
  revert j. induction n as [|n IH]; intros j Hj o o' vs H; [lia|]. simpl in H.
  destruct (step o) as [[o1 v]|] eqn:Es; [|discriminate]. cbn [bind] in H.
  destruct (iterate step n o1) as [[o2 vs']|] eqn:E; [|discriminate]. injection H as <- <-.
  destruct j as [|j].
  - exists o, o1. split; [reflexivity|]. exact Es.
  - destruct (IH j ltac:(lia) _ _ _ E) as (oj & oj' & H1 & H2).
    exists oj, oj'. split; [|exact H2]. simpl. rewrite Es. cbn [bind]. rewrite H1. reflexivity.
Qed.

(** Monitor after some reports. *)
Definition mon_after (m : monitor) (vs : list xnum) : monitor :=
  Monitor (m_tol m) (m_n_iter m) (m_verbose m) (m_history m ++ vs) (m_iter m + length vs).

Lemma report_mon fp m v : fst (monitor_report fp m v) = mon_after m [v].
Proof. unfold monitor_report, mon_after. cbn [fst length]. f_equal. lia. Qed.

Lemma mon_after_app m a b : mon_after (mon_after m a) b = mon_after m (a ++ b).
Proof. unfold mon_after. cbn. rewrite app_assoc, app_length. f_equal. lia. Qed.

Lemma mon_after_nil m : mon_after m [] = m.
Proof. destruct m. unfold mon_after. cbn. rewrite app_nil_r. f_equal. lia. Qed.

Theorem fit_loop_trace {O} fp (step : O -> res (O * xnum)) zr fuel : forall o m o' m' ev,
  fit_loop fp step zr fuel o m = Ok (o', m', ev) ->
  exists vs, iterate step (length vs) o = Ok (o', vs) /\ m' = mon_after m vs
    /\ (length vs <= fuel)%nat
    /\ (length vs = fuel \/ (converged fp m' = true /\ vs <> []))
    /\ (forall j, (0 < j < length vs)%nat -> converged fp (mon_after m (firstn j vs)) = false).
Proof.
  induction fuel as [|fuel IH]; intros o m o' m' ev H; cbn [fit_loop] in H.
  - injection H as <- <- <-. exists []. simpl. rewrite mon_after_nil.
    split; [reflexivity|]. split; [reflexivity|]. split; [lia|]. split; [left; reflexivity|]. intros j Hj; lia.
  - destruct (step o) as [[o1 v]|] eqn:Es; [|discriminate]. cbn [bind] in H.
    destruct (monitor_report fp m v) as [m1 ev1] eqn:Em.
    assert (Hm1 : m1 = mon_after m [v]) by (rewrite <- (report_mon fp), Em; reflexivity). subst m1.
    destruct (converged fp (mon_after m [v])) eqn:Ec.
    + injection H as <- <- <-. exists [v]. simpl. rewrite Es. cbn [bind].
      split; [reflexivity|]. split; [reflexivity|]. split; [lia|]. split; [right; split; [exact Ec|discriminate]|].
      intros j Hj; lia.
    + destruct (fit_loop fp step zr fuel o1 (mon_after m [v])) as [[[o2 m2] ev2]|] eqn:El; [|discriminate].
      injection H as <- <- <-. destruct (IH _ _ _ _ _ El) as (vs & H1 & H2 & H3 & H4 & H5).
      exists (v :: vs). simpl length. split; [|split; [|split; [|split]]].
      * simpl. rewrite Es. cbn [bind]. rewrite H1. reflexivity.
      * rewrite H2, mon_after_app. reflexivity.
      * lia.
      * destruct H4 as [H4|[H4 H6]]; [left; lia|right; split; [exact H4|discriminate]].
      * intros j Hj. destruct j as [|j]; [lia|]. simpl firstn. destruct j as [|j].
        { simpl. exact Ec. }
        specialize (H5 (S j) ltac:(lia)). rewrite mon_after_app in H5. exact H5.
Qed.

Lemma list_last2 {X} (l : list X) d : (2 <= length l)%nat ->
  l = firstn (length l - 2) l ++ [nth (length l - 2) l d; nth (length l - 1) l d].
Proof.
  intros H. rewrite <- (firstn_skipn (length l - 2) l) at 1. f_equal.
  assert (Hs : length (skipn (length l - 2) l) = 2%nat) by (rewrite skipn_length; lia).
  destruct (skipn (length l - 2) l) as [|a [|z [|? ?]]] eqn:E; simpl in Hs; try lia.
  assert (Ha : nth (length l - 2) l d = a).
  { rewrite <- (firstn_skipn (length l - 2) l) at 2. rewrite E, app_nth2; rewrite firstn_length; [|lia].
    replace (length l - 2 - Nat.min (length l - 2) (length l))%nat with 0%nat by lia. reflexivity. }
  assert (Hz : nth (length l - 1) l d = z).
  { rewrite <- (firstn_skipn (length l - 2) l) at 2. rewrite E, app_nth2; rewrite firstn_length; [|lia].
    replace (length l - 1 - Nat.min (length l - 2) (length l))%nat with 1%nat by lia. reflexivity. }
  rewrite Ha, Hz. reflexivity.
Qed.

Lemma app2_nth {X} (h : list X) a z d :
  nth (length (h ++ [a; z]) - 2) (h ++ [a; z]) d = a /\ nth (length (h ++ [a; z]) - 1) (h ++ [a; z]) d = z.
Proof.
  rewrite app_length. simpl. split; rewrite app_nth2 by lia.
  - replace (length h + 2 - 2 - length h)%nat with 0%nat by lia. reflexivity.
  - replace (length h + 2 - 1 - length h)%nat with 1%nat by lia. reflexivity.
Qed.

Lemma converged_stops fp m : m_iter m = length (m_history m) ->
  converged fp m = true <-> stops fp (m_tol m) (m_n_iter m) (m_history m).
Proof.
  intros Hi. unfold converged, stops. rewrite orb_true_iff, andb_true_iff, Nat.eqb_eq, Nat.leb_le, Hi.
  split; intros [H|H]; [left; exact H| |left; exact H|].
  - right. destruct H as [H1 H2]. exists (firstn (length (m_history m) - 2) (m_history m)),
      (nth (length (m_history m) - 2) (m_history m) NaN), (nth (length (m_history m) - 1) (m_history m) NaN).
    split; [apply list_last2; exact H1|exact H2].
  - right. destruct H as (h & a & z & E & H). rewrite E.
    destruct (app2_nth h a z NaN) as [Ha Hz]. rewrite Ha, Hz. split; [rewrite app_length; simpl; lia|exact H].
Qed.

(** ** Warnings. *)
Lemma drops_snoc fp h v : drops fp (h ++ [v]) <->
  drops fp h \/ (h <> [] /\ xlt (xsub fp v (last h NaN)) (Fin (- precision))).
Proof.
  split.
  - intros (h1 & a & z & r & E & H). destruct r as [|y r0] using rev_ind.
    + right. replace (h1 ++ [a; z]) with ((h1 ++ [a]) ++ [z]) in E by (rewrite <- app_assoc; reflexivity).
      apply app_inj_tail in E as [-> ->]. split; [destruct h1; discriminate|].
      rewrite last_last. exact H.
    + left. clear IHr0. replace (h1 ++ a :: z :: r0 ++ [y]) with ((h1 ++ a :: z :: r0) ++ [y]) in E
        by (rewrite <- app_assoc; reflexivity).
      apply app_inj_tail in E as [-> ->]. exists h1, a, z, r0. split; [reflexivity|exact H].
  - intros [(h1 & a & z & r & E & H)|[Hne H]].
    + exists h1, a, z, (r ++ [v]). split; [|exact H]. rewrite E, <- app_assoc. reflexivity.
    + destruct h as [|y h0] using rev_ind; [contradiction|]. clear IHh0. rewrite last_last in H.
      exists h0, y, v, []. split; [rewrite <- app_assoc; reflexivity|exact H].
Qed.

Lemma report_warns fp m v : In WNotConverging (snd (monitor_report fp m v)) <->
  m_history m <> [] /\ xlt (xsub fp v (last (m_history m) NaN)) (Fin (- precision)).
Proof.
  unfold monitor_report. cbn [snd]. rewrite in_app_iff.
  assert (H0 : ~ In WNotConverging (if m_verbose m then [WReport (S (m_iter m)) v
     match (match m_history m with [] => None | _ :: _ => Some (last (m_history m) NaN) end) with
     | Some p => xsub fp v p | None => NaN end] else [])).
  { destruct (m_verbose m); simpl; [|tauto]. intros [H|[]]. discriminate. }
  destruct (m_history m) as [|y hs] eqn:E.
  - split; [intros [H|H]; [exfalso; apply H0; exact H|simpl in H; contradiction]|].
    intros [H _]. contradiction.
  - set (p := last (y :: hs) NaN) in *. unfold xlt. destruct (xltb (xsub fp v p) (Fin (- precision))).
    + split; [intros _; split; [discriminate|reflexivity]|]. intros _. right. left. reflexivity.
    + split; [intros [H|H]; [exfalso; apply H0; exact H|contradiction]|]. intros [_ H]. discriminate.
Qed.

Theorem fit_loop_warns {O} fp (step : O -> res (O * xnum)) zr fuel : forall o m o' m' ev,
  fit_loop fp step zr fuel o m = Ok (o', m', ev) ->
  (In WNotConverging ev \/ drops fp (m_history m) <-> drops fp (m_history m')).
Proof.
  induction fuel as [|fuel IH]; intros o m o' m' ev H; cbn [fit_loop] in H.
  - injection H as <- <- <-. simpl. tauto.
  - destruct (step o) as [[o1 v]|] eqn:Es; [|discriminate]. cbn [bind] in H.
    pose proof (report_warns fp m v) as Hw. pose proof (report_mon fp m v) as Hm.
    destruct (monitor_report fp m v) as [m1 ev1] eqn:Em. cbn [fst snd] in *. subst m1.
    assert (Hd : drops fp (m_history (mon_after m [v])) <-> drops fp (m_history m) \/ In WNotConverging ev1).
    { unfold mon_after. cbn [m_history]. rewrite drops_snoc, Hw. reflexivity. }
    destruct (converged fp (mon_after m [v])) eqn:Ec.
    + injection H as <- <- <-. rewrite Hd. tauto.
    + destruct (fit_loop fp step zr fuel o1 (mon_after m [v])) as [[[o2 m2] ev2]|] eqn:El; [|discriminate].
      injection H as <- <- <-. rewrite <- (IH _ _ _ _ _ El), Hd, in_app_iff.
      assert (Hz : In WNotConverging (if zr o1 then ev1 ++ [WZeroRows] else ev1) <-> In WNotConverging ev1).
      { destruct (zr o1); [|tauto]. rewrite in_app_iff. simpl. split; [intros [H|[H|[]]]; [exact H|discriminate]|tauto]. }
      rewrite Hz. tauto.
Qed.

(** Invariants. *)
Lemma iterate_inv {O} (step : O -> res (O * xnum)) (I : O -> Prop) :
  (forall o o' v, I o -> step o = Ok (o', v) -> I o') ->
  forall n o o' vs, I o -> iterate step n o = Ok (o', vs) -> I o'.
Proof.
  intros HI. induction n as [|n IH]; intros o o' vs Ho H; simpl in H.
  - injection H as <- _. exact Ho.
  - destruct (step o) as [[o1 v]|] eqn:Es; [|discriminate]. cbn [bind] in H.
    destruct (iterate step n o1) as [[o2 vs']|] eqn:E; [|discriminate]. injection H as <- <-.
    apply (IH o1 o2 vs'); [apply (HI o o1 v); assumption|exact E].
Qed.

(** [fit] after initialisation: the object before the loop and the trace. *)
Theorem fit_from_trace {P X St} (E : emclass P X St) fp h x ls h' ev :
  fit_from E fp h x (as_lengths ls) = Ok (h', ev) ->
  exists h1 h2 vs, check E fp h = Ok h1
    /\ iterate (em_step E fp x (as_lengths ls)) (length vs) h1 = Ok (h2, vs)
    /\ h' = Hmm (h_cfg h2) (h_nfeat h2) (h_start h2) (h_trans h2) (mon_after (monitor_reset (h_mon h1)) vs) (h_em h2)
    /\ fit_loop fp (em_step E fp x (as_lengths ls)) (zero_rows fp) (c_n_iter (h_cfg h1)) h1
               (monitor_reset (h_mon h1)) = Ok (h2, mon_after (monitor_reset (h_mon h1)) vs, ev).
Proof.
  intros H. unfold fit_from in H. change (match as_lengths ls with None => _ | Some l => Some l end) with (as_lengths ls) in H.
  destruct (check E fp h) as [h1|]; [|discriminate]. cbn [bind] in H.
  destruct (fit_loop _ _ _ _ _ _) as [[[h2 m] ev2]|] eqn:El; [|discriminate]. cbn [bind] in H.
  injection H as <- <-.
  destruct (fit_loop_trace _ _ _ _ _ _ _ _ _ El) as (vs & H1 & H2 & _).
  exists h1, h2, vs. split; [reflexivity|]. split; [exact H1|]. subst m. split; [reflexivity|exact El].
Qed.
