(** * A positive tolerance bounds the number of iterations (C88). *)
From Verif Require Export Training_thms Checks2_thms Gen_fit.

(** If no recorded value can exceed [U], [fit] makes at most
    2 + (U - L0) / tol iterations, L0 being the score of the model it starts
    from; a larger [n_iter] is never used up, so the last improvement is below
    the tolerance. *)
Definition stopped_by_tol (n_iter : nat) (hist : list xnum) (L0 tol U : R) : Prop :=
  INR (length hist) <= 2 + (U - L0) / tol
  /\ (2 + (U - L0) / tol < INR n_iter -> exists r a z, hist = r ++ [Fin a; Fin z] /\ z - a < tol).

Lemma firstn_last2 {V} (l : list V) d j : (S (S j) <= length l)%nat -> firstn (S (S j)) l = firstn j l ++ [nth j l d; nth (S j) l d].
Proof.
  revert j. induction l as [|v l IH]; intros j Hj; [cbn in Hj; lia|]. destruct j as [|j].
  - destruct l as [|w l]; [cbn in Hj; lia|]. reflexivity.
  - cbn [length] in Hj. change (firstn (S (S (S j))) (v :: l)) with (v :: firstn (S (S j)) l). rewrite IH by lia. reflexivity.
Qed.

Lemma tol_history n_iter tol U (vs : list R) : 0 < tol -> (0 < length vs)%nat -> (length vs <= n_iter)%nat ->
  stops exact (Fin tol) n_iter (map Fin vs) ->
  (forall j, (0 < j < length vs)%nat -> ~ stops exact (Fin tol) n_iter (firstn j (map Fin vs))) ->
  (forall j, (j < length vs)%nat -> nth j vs 0 <= U) ->
  stopped_by_tol n_iter (map Fin vs) (nth 0 vs 0) tol U.
Proof.
  intros Ht Hk Hle Hst Hns HU. set (k := length vs) in *.
  assert (Hn : forall j, (j < k)%nat -> nth j (map Fin vs) NaN = Fin (nth j vs 0))
    by (intros j Hj; rewrite (nth_indep _ NaN (Fin 0)) by (rewrite map_length; exact Hj); apply map_nth).
  assert (Hg : forall m, (S (S m) < k)%nat -> tol <= nth (S m) vs 0 - nth m vs 0).
  { intros m Hm. destruct (Rle_dec tol (nth (S m) vs 0 - nth m vs 0)) as [|Hc]; [assumption|exfalso].
    apply (Hns (S (S m)) ltac:(lia)). right. exists (firstn m (map Fin vs)), (Fin (nth m vs 0)), (Fin (nth (S m) vs 0)).
    split; [rewrite (firstn_last2 _ NaN) by (rewrite map_length; fold k; lia); rewrite !Hn by lia; reflexivity|].
    unfold xlt. cbn [xsub xopp xadd]. unfold exact. cbn [xltb]. apply Rltb_true. lra. }
  assert (Hs : forall m, (S m < k)%nat \/ m = 0%nat -> nth 0 vs 0 + INR m * tol <= nth m vs 0).
  { induction m as [|m IH]; intros Hm; [cbn; lra|]. destruct Hm as [Hm|]; [|discriminate].
    specialize (IH ltac:(lia)). specialize (Hg m Hm). rewrite S_INR. lra. }
  assert (B : INR k <= 2 + (U - nth 0 vs 0) / tol).
  { destruct k as [|[|k']] eqn:Ek; [lia| |].
    - assert (0 <= (U - nth 0 vs 0) / tol); [|cbn; lra].
      unfold Rdiv. apply Rmult_le_pos; [specialize (HU 0%nat ltac:(lia)); lra|left; apply Rinv_0_lt_compat; exact Ht].
    - specialize (Hs k' ltac:(lia)). specialize (HU k' ltac:(lia)).
      assert (INR k' <= (U - nth 0 vs 0) / tol); [|rewrite !S_INR; lra].
      apply Rmult_le_reg_r with tol; [exact Ht|]. unfold Rdiv. rewrite Rmult_assoc, Rinv_l by lra. lra. }
  split; [rewrite map_length; exact B|]. intros Hbig. destruct Hst as [Hst|(r & a & z & E & Hlt)].
  - rewrite map_length in Hst. fold k in Hst. rewrite Hst in B. lra.
  - assert (L : length r = (k - 2)%nat /\ (2 <= k)%nat).
    { assert (H : length (map Fin vs) = length (r ++ [a; z])) by (rewrite E; reflexivity). rewrite map_length, app_length in H. cbn in H. fold k in H. lia. }
    assert (Ea : a = Fin (nth (k - 2) vs 0)).
    { rewrite <- Hn by lia. rewrite E, app_nth2, <- (proj1 L), Nat.sub_diag by lia. reflexivity. }
    assert (Ez : z = Fin (nth (k - 1) vs 0)).
    { rewrite <- Hn by lia. rewrite E, app_nth2 by lia. replace (k - 1 - length r)%nat with 1%nat by lia. reflexivity. }
    exists r, (nth (k - 2) vs 0), (nth (k - 1) vs 0). rewrite <- Ea, <- Ez. split; [exact E|]. rewrite Ea, Ez in Hlt.
    unfold xlt in Hlt. cbn [xsub xopp xadd] in Hlt. unfold exact in Hlt. cbn [xltb] in Hlt. apply Rltb_true in Hlt. lra.
Qed.

(** ** Bounded emission densities bound the likelihood. *)
Section LikBound.
  Context {X : Type}.
  Variables (nc : nat) (pi : nat -> R) (A : nat -> nat -> R) (b : X -> nat -> R) (B : R) (ok : X -> Prop).
  Hypothesis HB : 0 < B.
  Hypothesis Hb : forall o i, ok o -> (i < nc)%nat -> 0 <= b o i <= B.
  Hypothesis Hpi : nonneg1 nc pi.
  Hypothesis Hpi1 : sumn nc pi <= 1.
  Hypothesis HA : nonneg2 nc nc A.
  Hypothesis HA1 : forall i, (i < nc)%nat -> sumn nc (A i) <= 1.

  Lemma weighted_bound (w c f : nat -> R) D : nonneg1 nc w -> sumn nc w <= 1 -> 0 < D ->
    (forall i, (i < nc)%nat -> 0 <= c i <= B) -> (forall i, (i < nc)%nat -> 0 <= f i <= D) ->
    0 <= sumn nc (fun i => w i * c i * f i) <= B * D.
  Proof.
    intros Hw Hw1 HD Hc Hf. split.
    - apply sumn_nonneg. intros i Hi. specialize (Hw i Hi). specialize (Hc i Hi). specialize (Hf i Hi).
      apply Rmult_le_pos; [apply Rmult_le_pos|]; lra.
    - apply Rle_trans with (sumn nc (fun i => w i * (B * D))).
      + apply sumn_le. intros i Hi. specialize (Hw i Hi). specialize (Hc i Hi). specialize (Hf i Hi). rewrite Rmult_assoc.
        apply Rmult_le_compat_l; [exact Hw|]. apply Rmult_le_compat; lra.
      + rewrite sumn_scal_r. rewrite <- (Rmult_1_l (B * D)) at 2. apply Rmult_le_compat_r; [|exact Hw1].
        apply Rmult_le_pos; lra.
  Qed.
  Lemma suf_bound x : Forall ok x -> forall i, (i < nc)%nat -> 0 <= suf nc A b i x <= B ^ length x.
  Proof.
    induction x as [|o x IH]; intros Hx i Hi; cbn [suf length pow]; [lra|]. inversion Hx; subst.
    apply weighted_bound; auto; [intros j Hj; apply HA; assumption|apply pow_lt, HB].
  Qed.
  Lemma seq_lik_bound x : x <> [] -> Forall ok x -> seq_lik nc pi A b x <= B ^ length x.
  Proof.
    destruct x as [|o x]; intros Hne Hx; [contradiction|]. rewrite seq_lik_suf. inversion Hx; subst. cbn [length pow].
    apply weighted_bound; auto; [apply pow_lt, HB|]. intros i Hi. apply suf_bound; assumption.
  Qed.
  Lemma data_loglik_bound ls x : good_data ok ls x -> possible nc pi A b ls x ->
    data_loglik nc pi A b ls x <= INR (length x) * ln B.
  Proof.
    intros Hd Hp. destruct (good_data_chunks ok ls x Hd) as (_ & _ & Hch). rewrite Forall_forall in Hch.
    assert (Hlen : INR (length x) = sumL (fun c => INR (length c)) (chunks ls x)).
    { destruct Hd as [_ (_ & _ & Hs)]. clear Hp Hch. revert x Hs. induction ls as [|n l IH]; intros x Hs; cbn [fold_right chunks sumL] in *.
      - rewrite <- Hs. reflexivity.
      - rewrite <- IH by (rewrite skipn_length; lia). rewrite firstn_length_le by lia. rewrite <- Hs, skipn_length, plus_INR.
        do 2 f_equal. lia. }
    unfold data_loglik. rewrite Hlen, <- sumL_scal_r. apply sumL_le. intros c Hc. destruct (Hch c Hc) as [C1 C2].
    rewrite <- ln_pow by exact HB. pose proof (seq_lik_bound c C1 C2) as [H|H]; [left; apply ln_increasing; [apply Hp, Hc|exact H]|].
    rewrite H. lra.
  Qed.
End LikBound.

(** [fit] starts from the score of the model it is given. *)
Lemma first_value {P X St} (E : emclass P X St) h nc pi A ok b ls x h' ev :
  ready E h nc pi A ok b -> good_data ok ls x -> fit_from E exact h x (as_lengths ls) = Ok (h', ev) ->
  (0 < length (m_history (h_mon h')))%nat ->
  score E exact h x (as_lengths ls) = Ok (nth 0 (m_history (h_mon h')) NaN).
Proof.
  intros RD Hd Hf Hk. destruct (rd_check _ _ _ _ _ _ _ RD) as (h1 & C1 & C2 & EM).
  destruct (fit_from_trace _ _ _ _ _ _ _ Hf) as (g1 & h2 & vs & Hc & Hi & Hh' & _). rewrite C1 in Hc. injection Hc as <-.
  assert (Hv : m_history (h_mon h') = vs) by (rewrite Hh'; reflexivity). rewrite Hv in *.
  destruct (iterate_prefix _ _ 0%nat Hk _ _ _ Hi) as (hj & hj' & A1 & A2). cbn [iterate] in A1. injection A1 as <-.
  assert (Hx : check_array (ec_xok E) x = Ok x).
  { unfold check_array. destruct (forallb (ec_xok E) x) eqn:F; [destruct x; [|reflexivity]|].
    - destruct Hd as [_ (Hne & Hls & Hs)]. destruct ls as [|n l]; [contradiction|]. inversion Hls; subst. cbn in Hs. lia.
    - exfalso. assert (forallb (ec_xok E) x = true); [|congruence]. apply forallb_forall. intros o Ho. apply EM.
      destruct Hd as [Hd _]. rewrite Forall_forall in Hd. apply Hd, Ho. }
  rewrite <- (em_step_score E exact h1 x _ _ _ C2 Hx A2). unfold score, score_, fitted_check.
  destruct (check_keeps E exact h h1 C1) as (K0 & K1 & _). rewrite K0, K1, C1, C2. reflexivity.
Qed.

Section ClassStop.
  Context {P X St : Type} (E : emclass P X St).
  Variables (nc : nat) (ok : X -> Prop) (good : cfg -> option nat -> P -> Prop) (b : P -> X -> nat -> R) (V : bool).
  Hypothesis TN : trains E nc ok good b V.
  Variables (ls : list nat) (x : list X).
  Hypothesis Hd : good_data ok ls x.
  Variables (sp : nat -> R) (tp : nat -> nat -> R).
  Hypothesis Hsp : forall i, (i < nc)%nat -> 1 <= sp i.
  Hypothesis Htp : forall i j, (i < nc)%nat -> (j < nc)%nat -> 1 <= tp i j.
  Variables (h h1 : hmm P) (pi : nat -> R) (A : nat -> nat -> R).
  Hypothesis Hck : check E exact h = Ok h1.
  Hypothesis TS : tstate nc good b V ls x h1 pi A.
  Hypothesis HP : priors (h_cfg h1) nc sp tp.
  Variable B : R.
  Hypothesis HB : 0 < B.
  Hypothesis Hb : forall c nf p o i, c_nc c = nc -> good c nf p -> ok o -> (i < nc)%nat -> b p o i <= B.
  Variable bb : X -> nat -> R.
  Hypothesis RD : ready E h nc pi A ok bb.

  Lemma class_stop h' ev tol : sumn nc pi <= 1 -> (forall i, (i < nc)%nat -> sumn nc (A i) <= 1) ->
    m_n_iter (h_mon h) = c_n_iter (h_cfg h) -> m_tol (h_mon h) = c_tol (h_cfg h) ->
    c_tol (h_cfg h) = Fin tol -> 0 < tol -> (0 < c_n_iter (h_cfg h))%nat ->
    fit_from E exact h x (as_lengths ls) = Ok (h', ev) ->
    exists L0, score E exact h x (as_lengths ls) = Ok (Fin L0)
      /\ stopped_by_tol (c_n_iter (h_cfg h)) (m_history (h_mon h')) L0 tol (INR (length x) * ln B).
  Proof.
    intros S1 S2 Mn Mt Ht Hpos Hn Hf.
    pose proof (C23_stopping_and_history_l E exact h x ls h' ev Mn Mt Hf) as C23. cbv zeta in C23.
    destruct C23 as (_ & Hle & H0 & Hst & Hns & _).
    destruct (gen_fit_run E nc ok good b V TN ls x Hd sp tp Hsp Htp h h1 pi A Hck TS HP h' ev Hf) as (h2 & hs & pis & As & E1 & E2 & Rn & _).
    set (hist := m_history (h_mon h')) in *. set (k := length hist) in *.
    assert (Hk : (0 < k)%nat) by (destruct k; [specialize (proj1 H0 eq_refl); lia|lia]).
    assert (SS : forall j, (j <= k)%nat -> sub_stoch nc (pis j) (As j))
      by (apply (sub_stoch_run _ _ _ _ _ _ _ _ _ _ _ _ _ _ _ _ _ Rn); rewrite E1, E2; split; assumption).
    set (L := fun j => data_loglik nc (pis j) (As j) (b (h_em (hs j))) ls x).
    assert (HL : forall j, (j < k)%nat -> nth j hist NaN = Fin (L j)) by (intros j Hj; apply (rn_val _ _ _ _ _ _ _ _ _ _ _ _ _ _ _ _ _ Rn j Hj)).
    set (vs := map L (seq 0 k)).
    assert (Lk : length vs = k) by (unfold vs; rewrite map_length, seq_length; reflexivity).
    assert (Hv : forall j, (j < k)%nat -> nth j vs 0 = L j).
    { intros j Hj. unfold vs. rewrite (nth_indep _ 0 (L 0%nat)) by (rewrite map_length, seq_length; exact Hj). rewrite map_nth, seq_nth by exact Hj. reflexivity. }
    assert (Eh : hist = map Fin vs).
    { apply (nth_ext _ _ NaN (Fin 0)); [rewrite map_length, Lk; reflexivity|]. intros j Hj. rewrite (map_nth Fin), HL, Hv by exact Hj. reflexivity. }
    assert (HU : forall j, (j < k)%nat -> L j <= INR (length x) * ln B).
    { intros j Hj. pose proof (rn_st _ _ _ _ _ _ _ _ _ _ _ _ _ _ _ _ _ Rn j ltac:(lia)) as Tj. destruct (SS j ltac:(lia)) as [Q1 Q2].
      apply (data_loglik_bound nc (pis j) (As j) _ B ok HB); auto; [|apply Tj|apply Tj|exact (ts_lik _ _ _ _ _ _ _ _ _ Tj)].
      intros o i Ho Hi. split.
      - apply (em_nonneg _ _ _ _ _ (tn_emits _ _ _ _ _ _ TN _ (ts_nc _ _ _ _ _ _ _ _ _ Tj) (ts_good _ _ _ _ _ _ _ _ _ Tj))); assumption.
      - apply (Hb (h_cfg (hs j)) (h_nfeat (hs j))); try assumption; apply Tj. }
    exists (L 0%nat). split.
    - rewrite (first_value E h nc pi A ok bb ls x h' ev RD Hd Hf Hk). fold hist. rewrite HL by exact Hk. reflexivity.
    - rewrite <- Hv by exact Hk. rewrite Eh. apply tol_history; auto.
      + rewrite Lk. exact Hk.
      + rewrite Lk. exact Hle.
      + rewrite <- Eh, <- Ht. exact Hst.
      + intros j Hj. rewrite <- Eh, <- Ht. apply Hns. rewrite <- Lk. exact Hj.
      + intros j Hj. rewrite Lk in Hj. rewrite Hv by exact Hj. apply HU, Hj.
  Qed.
End ClassStop.
