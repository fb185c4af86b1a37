(** * Property lemmas C82: training in two parts. *)
From Verif Require Export Interrupt_thms.

(** An estimator built with [n_iter = n]: the argument is kept as attribute and
    handed to the monitor (base.py:183, 861). *)
Definition built {P G} (n : nat) (e : est P G) : est P G :=
  let h := e_hmm e in
  let m := h_mon h in
  Est (Hmm (cfg_n_iter n (h_cfg h)) (h_nfeat h) (h_start h) (h_trans h)
           (Monitor (m_tol m) n (m_verbose m) (m_history m) (m_iter m)) (h_em h)) (e_rs e).
(** [model.init_params = ""]. *)
Definition cfg_no_init (c : cfg) : cfg :=
  Cfg (c_nc c) (c_params c) EmptyString (c_algorithm c) (c_impl c) (c_n_iter c) (c_tol c)
      (c_verbose c) (c_sprior c) (c_tprior c).
Definition no_init_params {P G} (e : est P G) : est P G := Est (with_cfg cfg_no_init (e_hmm e)) (e_rs e).

(** The attributes that training determines. *)
Definition equal_models {P G} (a b : est P G) : Prop :=
  h_start (e_hmm a) = h_start (e_hmm b) /\ h_trans (e_hmm a) = h_trans (e_hmm b)
  /\ h_em (e_hmm a) = h_em (e_hmm b) /\ h_nfeat (e_hmm a) = h_nfeat (e_hmm b).
Definition history {P G} (e : est P G) : list xnum := m_history (h_mon (e_hmm e)).

(** ** The loop. *)
Lemma loop_of_trace {O} fp (step : O -> res (O * xnum)) zr fuel : forall o m o' vs,
  iterate step (length vs) o = Ok (o', vs) -> (length vs <= fuel)%nat ->
  (length vs = fuel \/ (converged fp (mon_after m vs) = true /\ vs <> [])) ->
  (forall j, (0 < j < length vs)%nat -> converged fp (mon_after m (firstn j vs)) = false) ->
  exists ev, fit_loop fp step zr fuel o m = Ok (o', mon_after m vs, ev).
Proof.
  induction fuel as [|fuel IH]; intros o m o' vs Hi Hl Hs Hj.
  - destruct vs; [|cbn in Hl; lia]. cbn in Hi. injection Hi as <-. rewrite mon_after_nil. eexists. reflexivity.
  - destruct vs as [|v vs].
    { destruct Hs as [Hs|[_ Hs]]; [discriminate|contradiction]. }
    cbn [length iterate] in Hi. destruct (step o) as [[o1 v']|] eqn:Es; [|discriminate]. cbn [bind] in Hi.
    destruct (iterate step (length vs) o1) as [[o2 vs']|] eqn:Ei; [|discriminate]. injection Hi as <- <- <-.
    cbn [fit_loop]. rewrite Es. cbn [bind]. pose proof (report_mon fp m v') as Hm.
    destruct (monitor_report fp m v') as [m1 ev1]. cbn [fst] in Hm. subst m1.
    destruct vs' as [|w vs'].
    + cbn in Ei. injection Ei as <-. destruct Hs as [Hs|[Hs _]].
      * destruct (converged fp _); [eexists; reflexivity|]. cbn in Hs. assert (fuel = 0%nat) as -> by lia. eexists. reflexivity.
      * rewrite Hs. eexists. reflexivity.
    + pose proof (Hj 1%nat ltac:(cbn; lia)) as H1. cbn [firstn] in H1. rewrite H1.
      destruct (IH o1 (mon_after m [v']) o2 (w :: vs') Ei) as [ev H].
      * cbn in *. lia.
      * destruct Hs as [Hs|[Hs _]]; [left; cbn in *; lia|right]. rewrite mon_after_app. split; [exact Hs|discriminate].
      * intros j J. rewrite mon_after_app. specialize (Hj (S j) ltac:(cbn in *; lia)). exact Hj.
      * rewrite H, mon_after_app. eexists. reflexivity.
Qed.
Lemma iterate_split {O} (step : O -> res (O * xnum)) a : forall b o o' vs,
  iterate step (a + b) o = Ok (o', vs) ->
  exists oa, iterate step a o = Ok (oa, firstn a vs) /\ iterate step b oa = Ok (o', skipn a vs).
Proof.
  induction a as [|a IH]; intros b o o' vs H; [exists o; auto|]. cbn [plus iterate] in H.
  destruct (step o) as [[o1 v]|] eqn:Es; [|discriminate]. cbn [bind] in H.
  destruct (iterate step (a + b) o1) as [[o2 ws]|] eqn:Ei; [|discriminate]. injection H as <- <-.
  destruct (IH _ _ _ _ Ei) as (oa & H1 & H2). exists oa. cbn [iterate firstn skipn]. rewrite Es. cbn [bind]. rewrite H1. auto.
Qed.
Lemma last_two {X} (l : list X) a d : (a + 2 <= length l)%nat ->
  nth (length l - 1) l d = nth (length (skipn a l) - 1) (skipn a l) d
  /\ nth (length l - 2) l d = nth (length (skipn a l) - 2) (skipn a l) d.
Proof.
  intros H. rewrite skipn_length.
  assert (K : forall j, nth j (skipn a l) d = nth (a + j) l d).
  { intros j. rewrite <- (firstn_skipn a l) at 2. rewrite app_nth2; rewrite firstn_length_le by lia; [f_equal; lia|lia]. }
  rewrite !K. split; f_equal; lia.
Qed.

(** A run without the first [a] iterations of a longer one. *)
Section Loop.
  Context {O : Type} (fp : fpmode) (step : O -> res (O * xnum)) (zr : O -> bool).
  Variables (m1 ma m2 : monitor).
  Hypothesis Hh1 : m_history m1 = [].
  Hypothesis Hi1 : m_iter m1 = 0%nat.
  Hypothesis Hha : m_history ma = [].
  Hypothesis Hia : m_iter ma = 0%nat.
  Hypothesis Hh2 : m_history m2 = [].
  Hypothesis Hi2 : m_iter m2 = 0%nat.
  Hypothesis Hta : m_tol ma = m_tol m1.
  Hypothesis Ht2 : m_tol m2 = m_tol m1.
  Variables (a b : nat).
  Hypothesis Hn1 : m_n_iter m1 = (a + b)%nat.
  Hypothesis Hna : m_n_iter ma = a.
  Hypothesis Hn2 : m_n_iter m2 = b.
  Lemma loop_parts o o' mm ev : fit_loop fp step zr (a + b) o m1 = Ok (o', mm, ev) ->
    (exists oa va, (length (m_history mm) <= a)%nat /\ oa = o' /\ va = m_history mm
        /\ exists eva, fit_loop fp step zr a o ma = Ok (oa, mon_after ma va, eva))
    \/ (exists oa, (a < length (m_history mm))%nat
        /\ (exists eva, fit_loop fp step zr a o ma = Ok (oa, mon_after ma (firstn a (m_history mm)), eva))
        /\ ((a + 2 <= length (m_history mm))%nat \/ length (m_history mm) = (a + b)%nat ->
            exists evb, fit_loop fp step zr b oa m2 = Ok (o', mon_after m2 (skipn a (m_history mm)), evb))).
  Proof.
    intros H. destruct (fit_loop_trace _ _ _ _ _ _ _ _ _ H) as (vs & Hi & Hm & Hl & Hs & Hj).
    assert (Hv : m_history mm = vs) by (rewrite Hm; cbn [mon_after m_history]; rewrite Hh1; reflexivity). rewrite Hv.
    assert (Ca : forall j, (0 < j <= length vs)%nat -> j <> a -> j <> (a + b)%nat ->
              converged fp (mon_after ma (firstn j vs)) = converged fp (mon_after m1 (firstn j vs))).
    { intros j J Ja Jab. unfold converged. cbn [mon_after m_iter m_history m_n_iter m_tol]. rewrite Hh1, Hha, Hi1, Hia, Hna, Hn1, Hta.
      rewrite firstn_length_le by lia. cbn [plus]. rewrite (proj2 (Nat.eqb_neq j a)) by lia. rewrite (proj2 (Nat.eqb_neq j (a + b))) by lia. reflexivity. }
    destruct (Nat.le_gt_cases (length vs) a) as [Hle|Hgt].
    - left. exists o', vs. split; [exact Hle|]. split; [reflexivity|]. split; [reflexivity|].
      apply loop_of_trace; [exact Hi|exact Hle| |].
      + destruct (Nat.eq_dec (length vs) a) as [E|E]; [left; exact E|right].
        destruct Hs as [Hs|[Hs Hne]]; [lia|]. split; [|exact Hne].
        destruct (Nat.eq_dec (length vs) 0) as [E0|E0]; [destruct vs; [contradiction|discriminate]|].
        assert (Hf : firstn (length vs) vs = vs) by apply firstn_all. rewrite <- Hf, Ca by lia. rewrite Hf, <- Hm. exact Hs.
      + intros j J. rewrite Ca by lia. apply Hj. exact J.
    - right. replace (length vs) with (a + (length vs - a))%nat in Hi by lia.
      destruct (iterate_split _ _ _ _ _ _ Hi) as (oa & I1 & I2). exists oa. split; [exact Hgt|]. split.
      + apply loop_of_trace; rewrite ?firstn_length_le by lia; [exact I1|lia|left; reflexivity|].
        intros j J. rewrite firstn_firstn, Nat.min_l by lia. rewrite Ca by lia. apply Hj. lia.
      + intros Hc.
        assert (Cb : forall j, (0 < j <= length vs - a)%nat -> (j <> 1 \/ j = b)%nat -> (a + j <> a + b \/ j = b)%nat ->
              (j < b)%nat ->
              converged fp (mon_after m2 (firstn j (skipn a vs))) = converged fp (mon_after m1 (firstn (a + j) vs))).
        { intros j J J1 Jb Jlt. unfold converged. cbn [mon_after m_iter m_history m_n_iter m_tol]. rewrite Hh1, Hh2, Hi1, Hi2, Hn2, Hn1, Ht2. cbn [app].
          assert (Hsk : firstn j (skipn a vs) = skipn a (firstn (a + j) vs)).
          { rewrite firstn_skipn_comm. reflexivity. }
          assert (L1 : length (firstn (a + j) vs) = (a + j)%nat) by (apply firstn_length_le; lia).
          assert (L2 : length (firstn j (skipn a vs)) = j) by (rewrite firstn_length_le; [reflexivity|rewrite skipn_length; lia]).
          destruct (last_two (firstn (a + j) vs) a NaN ltac:(lia)) as [E1 E2]. rewrite <- Hsk in E1, E2. rewrite E1, E2, L1, L2. cbn [plus].
          rewrite (proj2 (Nat.eqb_neq j b)) by lia. rewrite (proj2 (Nat.eqb_neq (a + j) (a + b))) by lia.
          rewrite (proj2 (Nat.leb_le 2 j)) by lia. rewrite (proj2 (Nat.leb_le 2 (a + j))) by lia. reflexivity. }
        apply loop_of_trace; rewrite ?skipn_length; [exact I2|lia| |].
        * destruct (Nat.eq_dec (length vs) (a + b)) as [E|E]; [left; lia|right].
          destruct Hs as [Hs|[Hs _]]; [contradiction|]. destruct Hc as [Hc|Hc]; [|contradiction].
          split; [|intros Hn; apply (f_equal (@length xnum)) in Hn; rewrite skipn_length in Hn; cbn in Hn; lia].
          pose proof (Cb (length vs - a)%nat ltac:(lia) ltac:(lia) ltac:(lia) ltac:(lia)) as C. replace (a + (length vs - a))%nat with (length vs) in C by lia.
          rewrite firstn_all, <- Hm, Hs in C. rewrite firstn_all2 in C; [exact C|rewrite skipn_length; lia].
        * intros j J. destruct (Nat.eq_dec j 1) as [->|J1].
          -- unfold converged. cbn [mon_after m_iter m_history m_n_iter]. rewrite Hh2, Hi2, Hn2. cbn [app].
             rewrite firstn_length_le by (rewrite skipn_length; lia). cbn [plus]. rewrite (proj2 (Nat.eqb_neq 1 b)) by lia. reflexivity.
          -- rewrite Cb by lia. apply Hj. lia.
  Qed.
End Loop.

(** ** [fit] in parts. *)
Definition lim (n : nat) (m : monitor) : monitor := Monitor (m_tol m) n (m_verbose m) (m_history m) (m_iter m).
Definition limited {P G} (n : nat) (e : est P G) : est P G := Est (with_mon (lim n (h_mon (e_hmm e))) (e_hmm e)) (e_rs e).
Definition fit_lengths {X} (x : list X) (ls : option (list Z)) : option (list Z) :=
  match ls with None => Some [Z.of_nat (length x)] | Some l => Some l end.

Section Parts.
  Context {P X St G : Type} (E : emclass P X St) (I : initclass P X G) (rg : rng G) (fp : fpmode).
  Hypothesis HB : n_iter_blind E I rg fp.

  Lemma init_limited n e glob x : init I rg fp (limited n e) glob x = do (e1, g1, ev) <- init I rg fp e glob x; Ok (limited n e1, g1, ev).
  Proof.
    unfold init, base_init, limited. cbn [e_hmm e_rs with_mon h_cfg h_nfeat h_em h_start h_trans h_mon]. rewrite !bind_assoc.
    apply bind_ext. intros [nf p]. destruct (Nat.eqb _ 0); [reflexivity|]. rewrite !bind_assoc. apply bind_ext. intros g.
    destruct (needs_init _ "s" _ _) as [ns ev1]. rewrite !bind_assoc. apply bind_ext. intros [s g1].
    destruct (needs_init _ "t" _ _) as [nt ev2]. rewrite !bind_assoc. apply bind_ext. intros [t g2].
    destruct (rs_put (e_rs e) glob g2) as [rs g3]. rewrite !bind_assoc. apply bind_ext. intros d. rewrite !bind_assoc. apply bind_ext. intros n0.
    cbn [bind e_hmm e_rs h_cfg h_nfeat h_em h_start h_trans h_mon]. rewrite !bind_assoc. apply bind_ext. intros [[[p' rs'] g'] ev']. reflexivity.
  Qed.
  Lemma rmap_bind {A B} (f : A -> B) (r : res A) : rmap f r = do a <- r; Ok (f a).
  Proof. destruct r; reflexivity. Qed.
  Definition ended {Q} (n : nat) (h : hmm Q) (m : monitor) : hmm Q :=
    Hmm (cfg_n_iter n (h_cfg h)) (h_nfeat h) (h_start h) (h_trans h) m (h_em h).
  Lemma fit_built n e glob x ls : fit E I rg fp (built n e) glob x ls =
      do x <- check_array (ec_xok E) x;
      do (e1, g1, ev1) <- init I rg fp e glob x;
      do h1 <- check E fp (e_hmm e1);
      do (h2, m, ev2) <- fit_loop fp (em_step E fp x (fit_lengths x ls)) (zero_rows fp) n h1 (lim n (monitor_reset (h_mon h1)));
      Ok (Est (ended n h2 m) (e_rs e1), g1, ev1 ++ ev2).
  Proof.
    change (built n e) with (set_n_iter n (limited n e)). rewrite (fit_set_n_iter E I rg fp HB). apply bind_ext. intros y. rewrite init_limited, !bind_assoc. apply bind_ext.
    intros [[e1 g1] ev1]. cbn [bind]. unfold limited at 1. cbn [e_hmm]. rewrite check_mon, rmap_bind, !bind_assoc.
    destruct (check E fp (e_hmm e1)) as [h1|] eqn:Hc; [|reflexivity]. cbn [bind].
    rewrite fit_loop_mon by reflexivity. rewrite rmap_bind, bind_assoc. fold (fit_lengths y ls).
    destruct (check_keeps E fp _ _ Hc) as (_ & _ & _ & C4).
    replace (monitor_reset (h_mon (with_mon (lim n (h_mon (e_hmm e1))) h1))) with (lim n (monitor_reset (h_mon h1))).
    2:{ rewrite C4. reflexivity. }
    apply bind_ext. intros [[h2 m] ev2]. reflexivity.
  Qed.

  (** [init_params] does not matter once training has begun. *)
  Hypothesis N1 : forall c nf p, ec_check E fp (cfg_no_init c) nf p = ec_check E fp c nf p.
  Hypothesis N2 : forall c nf p x, ec_loglik E fp (cfg_no_init c) nf p x = ec_loglik E fp c nf p x.
  Hypothesis N3 : forall c nf p x, ec_lik E fp (cfg_no_init c) nf p x = ec_lik E fp c nf p x.
  Hypothesis N4 : forall c nf p, ec_stats0 E fp (cfg_no_init c) nf p = ec_stats0 E fp c nf p.
  Hypothesis N5 : forall c nf p st x post, ec_acc E fp (cfg_no_init c) nf p st x post = ec_acc E fp c nf p st x post.
  Hypothesis N6 : forall c nf p st, ec_mstep E fp (cfg_no_init c) nf p st = ec_mstep E fp c nf p st.
  Notation wi := (with_cfg cfg_no_init).
  Lemma estep_seq_i h s t st x : estep_seq E fp (wi h) s t st x = estep_seq E fp h s t st x.
  Proof.
    unfold estep_seq. cbn [with_cfg h_cfg h_nfeat h_em cfg_no_init c_impl]. apply bind_ext. intros b.
    replace (if b then fit_log E fp (wi h) s t x else fit_scaling E fp (wi h) s t x)
      with (if b then fit_log E fp h s t x else fit_scaling E fp h s t x).
    2:{ unfold fit_log, fit_scaling, loglik, lik. cbn [with_cfg h_cfg h_nfeat h_em]. rewrite N2, N3. reflexivity. }
    apply bind_ext. intros [[[[la lp] po] fw] bw].
    replace (acc_base fp b (wi h) t st la po fw bw) with (acc_base fp b h t st la po fw bw) by reflexivity.
    apply bind_ext. intros [[n1 s1] t1]. fold (cfg_no_init (h_cfg h)). rewrite N5. reflexivity.
  Qed.
  Lemma estep_loop_i xs : forall h s t st lp, estep_loop E fp (wi h) s t st lp xs = estep_loop E fp h s t st lp xs.
  Proof.
    induction xs as [|x xs IH]; intros h s t st lp; [reflexivity|]. cbn [estep_loop]. rewrite estep_seq_i. apply bind_ext.
    intros [st' l]. apply IH.
  Qed.
  Lemma do_estep_i h s t x ls : do_estep E fp (wi h) s t x ls = do_estep E fp h s t x ls.
  Proof.
    unfold do_estep. change (c_impl (h_cfg (wi h))) with (c_impl (h_cfg h)). destruct (_ || _)%bool; [|reflexivity]. apply bind_ext. intros xs.
    rewrite estep_loop_i. unfold stats0. cbn [with_cfg h_cfg h_nfeat h_em]. rewrite N4. reflexivity.
  Qed.
  Lemma em_step_i x ls h : em_step E fp x ls (wi h) = do (h', v) <- em_step E fp x ls h; Ok (wi h', v).
  Proof.
    unfold em_step. change (h_start (wi h)) with (h_start h). change (h_trans (wi h)) with (h_trans h).
    destruct (h_start h) as [s|]; [|reflexivity]. destruct (h_trans h) as [t|]; [|reflexivity]. rewrite do_estep_i, !bind_assoc. apply bind_ext. intros [st lp].
    unfold do_mstep. cbv zeta. cbn [with_cfg h_cfg h_nfeat h_em]. rewrite N6. destruct (ec_mstep E fp (h_cfg h) (h_nfeat h) (h_em h) (st_em st)); reflexivity.
  Qed.
  Lemma fit_loop_i x ls n : forall h m,
    fit_loop fp (em_step E fp x ls) (zero_rows fp) n (wi h) m
    = do (h', m', ev) <- fit_loop fp (em_step E fp x ls) (zero_rows fp) n h m; Ok (wi h', m', ev).
  Proof.
    induction n as [|n IH]; intros h m; [reflexivity|]. cbn [fit_loop]. rewrite em_step_i. destruct (em_step E fp x ls h) as [[h' lb]|]; [|reflexivity]. cbn [bind].
    destruct (monitor_report fp m lb) as [m' ev]. destruct (converged fp m'); [reflexivity|]. rewrite IH. destruct (fit_loop fp (em_step E fp x ls) (zero_rows fp) n h' m') as [[[h2 m2] ev2]|]; reflexivity.
  Qed.

  (** A trained estimator: a second [_init] and [_check] change nothing. *)
  Variable Inv : cfg -> option nat -> P -> Prop.
  Variable Ex : option nat -> P -> Prop.
  Hypothesis K1 : forall c nf0 p0 x nf1 p1 rs g p2 rs' g' ev nf3 p3, ic_nfeat I c nf0 p0 x = Ok (nf1, p1) ->
    ic_em I fp rg c nf1 p1 x rs g = Ok (p2, rs', g', ev) -> ec_check E fp c nf1 p2 = Ok (nf3, p3) -> Inv c nf3 p3.
  Hypothesis K2 : forall c nf p st p', Inv c nf p -> ec_mstep E fp c nf p st = Ok p' -> Inv c nf p'.
  Hypothesis K3 : forall c nf p x nf' p', Inv c nf p -> ic_nfeat I (cfg_no_init c) nf p x = Ok (nf', p') -> nf' = nf /\ p' = p.
  Hypothesis K4 : forall c nf p x rs g p' rs' g' ev, Inv c nf p ->
    ic_em I fp rg (cfg_no_init c) nf p x rs g = Ok (p', rs', g', ev) -> p' = p.
  Hypothesis K5 : forall c nf p nf' p', Inv c nf p -> Ex nf p -> ec_check E fp c nf p = Ok (nf', p') -> nf' = nf /\ p' = p.
  Hypothesis K6 : forall c k nf p, Inv c nf p <-> Inv (cfg_n_iter k c) nf p.

  Lemma em_step_inv x l h h' v : em_step E fp x l h = Ok (h', v) -> Inv (h_cfg h) (h_nfeat h) (h_em h) -> Inv (h_cfg h') (h_nfeat h') (h_em h').
  Proof.
    unfold em_step. intros H Hi. destruct (h_start h) as [s|]; [|discriminate]. destruct (h_trans h) as [t|]; [|discriminate].
    apply bind_inv in H as ([st lp] & _ & H). unfold do_mstep in H. apply bind_inv in H as (h2 & Hm & H). injection H as <- _.
    apply bind_inv in Hm as (p & Hm & Eh). injection Eh as <-. cbn [h_cfg h_nfeat h_em]. apply (K2 _ _ _ _ _ Hi Hm).
  Qed.

  (** The second call. *)
  Lemma fit_again b hk m0 rs glob x ls e2 g2 ev2 :
    let e1 := no_init_params (Est (with_mon m0 hk) rs) in
    h_start hk <> None -> h_trans hk <> None -> Inv (h_cfg hk) (h_nfeat hk) (h_em hk) -> Ex (h_nfeat hk) (h_em hk) ->
    fit E I rg fp (built b e1) glob x ls = Ok (e2, g2, ev2) ->
    exists h2 m ev, fit_loop fp (em_step E fp x (fit_lengths x ls)) (zero_rows fp) b hk (lim b (monitor_reset m0)) = Ok (h2, m, ev)
      /\ e_hmm e2 = ended b (wi h2) m.
  Proof.
    cbv zeta. intros Hs Ht Hi HE H. rewrite fit_built in H. apply bind_inv in H as (y & Hy & H).
    assert (y = x) as ->. { unfold check_array in Hy. destruct x; [discriminate|]. destruct (forallb _ _); [congruence|discriminate]. }
    apply bind_inv in H as ([[ei g1] ev1] & Hin & H). apply bind_inv in H as (h1 & Hc & H).
    destruct (init_inv _ _ _ _ _ _ _ _ _ Hin) as (ea & ga & va & p & rs' & va2 & Hb & He & -> & _).
    destruct (base_init_inv _ _ _ _ _ _ _ _ _ Hb) as (A1 & A2 & _ & A3 & A4 & A5 & _).
    cbn [no_init_params e_hmm with_cfg with_mon h_cfg h_mon h_nfeat h_em h_start h_trans cfg_no_init c_init_params] in *.
    fold (cfg_no_init (h_cfg hk)) in *. destruct (K3 _ _ _ _ _ _ Hi A3) as [B1 B2]. rewrite A1, B1, B2 in He. rewrite (K4 _ _ _ _ _ _ _ _ _ _ Hi He) in *.
    assert (S1 : h_start (e_hmm ea) = h_start hk).
    { revert A4. unfold kept_or_fresh. cbn [has]. destruct (h_start hk); [|contradiction]. cbn. intros A4. exact A4. }
    assert (S2 : h_trans (e_hmm ea) = h_trans hk).
    { revert A5. unfold kept_or_fresh. cbn [has]. destruct (h_trans hk); [|contradiction]. cbn. intros A5. exact A5. }
    rewrite A1, A2, B1, S1, S2 in Hc.
    assert (h1 = wi (with_mon m0 hk)) as ->.
    { unfold check in Hc. cbn [h_cfg h_nfeat h_start h_trans h_mon h_em] in Hc. unfold with_cfg, with_mon. cbn [h_cfg h_nfeat h_start h_trans h_mon h_em].
      destruct (h_start hk); [|contradiction]. destruct (h_trans hk); [|contradiction]. apply bind_inv in Hc as ([] & _ & Hc).
      apply bind_inv in Hc as ([nf p'] & Hc & Eh). rewrite N1 in Hc. destruct (K5 _ _ _ _ _ Hi HE Hc) as [-> ->]. injection Eh as <-. reflexivity. }
    rewrite fit_loop_i in H. cbn [with_cfg with_mon h_mon] in H. rewrite fit_loop_mon in H by reflexivity.
    apply bind_inv in H as ([[h2 m] ev] & Hf & H). apply bind_inv in Hf as ([[h3 m'] ev'] & Hf & E3). rewrite rmap_bind in Hf.
    apply bind_inv in Hf as ([[h4 m4] ev4] & Hf & E4). injection H as <- _ _. injection E3 as <- <- <-. injection E4 as <- <- <-.
    exists h4, m4, ev4. split; [exact Hf|]. reflexivity.
  Qed.
  Lemma fit_two_parts a b e glob x ls ef gf evf :
    fit E I rg fp (built (a + b) e) glob x ls = Ok (ef, gf, evf) ->
    exists e1 ev1, fit E I rg fp (built a e) glob x ls = Ok (e1, gf, ev1)
      /\ e_rs e1 = e_rs ef
      /\ ((length (history ef) <= a)%nat -> equal_models e1 ef /\ history e1 = history ef)
      /\ ((a < length (history ef))%nat -> history e1 = firstn a (history ef)
          /\ forall glob2 e2 g2 ev2, Ex (h_nfeat (e_hmm e1)) (h_em (e_hmm e1)) ->
             fit E I rg fp (built b (no_init_params e1)) glob2 x ls = Ok (e2, g2, ev2) ->
             (a + 2 <= length (history ef))%nat \/ length (history ef) = (a + b)%nat ->
             equal_models e2 ef /\ history e1 ++ history e2 = history ef).
  Proof.
    rewrite fit_built. intros H. apply bind_inv in H as (y & Hy & H).
    assert (y = x) as ->. { unfold check_array in Hy. destruct x; [discriminate|]. destruct (forallb _ _); [congruence|discriminate]. }
    apply bind_inv in H as ([[ei g1] ev1] & Hin & H). apply bind_inv in H as (h1 & Hc & H). apply bind_inv in H as ([[hf mf] ev2] & Hl & H). injection H as <- <- <-.
    unfold history. cbn [e_hmm ended h_mon e_rs].
    destruct (check_keeps E fp _ _ Hc) as (C1 & C2 & C3 & C4).
    assert (Hst : h_start h1 <> None /\ h_trans h1 <> None).
    { rewrite C2, C3. unfold check in Hc. destruct (h_start (e_hmm ei)); [|discriminate].
      destruct (h_trans (e_hmm ei)); [split; discriminate|destruct (negb _); [discriminate|]; destruct (negb _); discriminate]. }
    assert (Hinv : Inv (h_cfg h1) (h_nfeat h1) (h_em h1)).
    { destruct (init_spec _ _ _ _ _ _ _ _ _ Hin) as (A1 & _ & _ & p1 & rs & ga & w & Hn & He).
      unfold check in Hc. destruct (h_start (e_hmm ei)); [|discriminate].
      destruct (h_trans (e_hmm ei)); [|destruct (negb _); [discriminate|]; destruct (negb _); discriminate].
      apply bind_inv in Hc as ([] & _ & Hc). apply bind_inv in Hc as ([nf p3] & Hc & Eh). injection Eh as <-. cbn [h_cfg h_nfeat h_em].
      rewrite A1 in *. apply (K1 _ _ _ _ _ _ _ _ _ _ _ _ _ _ Hn He Hc). }
    pose proof (loop_parts fp (em_step E fp x (fit_lengths x ls)) (zero_rows fp) (lim (a + b) (monitor_reset (h_mon h1)))
                  (lim a (monitor_reset (h_mon h1))) (lim b (monitor_reset (h_mon h1))) eq_refl eq_refl eq_refl eq_refl eq_refl eq_refl eq_refl eq_refl
                  a b eq_refl eq_refl eq_refl h1 hf mf ev2 Hl) as LP.
    assert (Hmf : exists vs, mf = mon_after (lim (a + b) (monitor_reset (h_mon h1))) vs).
    { destruct (fit_loop_trace _ _ _ _ _ _ _ _ _ Hl) as (vs & _ & Hm & _). eauto. }
    destruct Hmf as [vs Hmf].
    destruct LP as [(oa & va & L1 & -> & -> & eva & L2)|(oa & L1 & (eva & L2) & L3)].
    - eexists (Est (ended a hf _) (e_rs ei)), _. rewrite fit_built, Hy. cbn [bind]. rewrite Hin. cbn [bind]. rewrite Hc. cbn [bind]. rewrite L2. cbn [bind].
      split; [reflexivity|]. cbn [e_hmm ended h_mon e_rs mon_after lim monitor_reset m_history app]. split; [reflexivity|]. split.
      + intros _. split; [repeat split|reflexivity].
      + intros L. lia.
    - eexists (Est (ended a oa _) (e_rs ei)), _. rewrite fit_built, Hy. cbn [bind]. rewrite Hin. cbn [bind]. rewrite Hc. cbn [bind]. rewrite L2. cbn [bind].
      split; [reflexivity|]. cbn [e_hmm ended h_mon e_rs mon_after lim monitor_reset m_history app h_nfeat h_em]. split; [reflexivity|]. split; [intros L; lia|].
      intros _. split; [reflexivity|]. intros glob2 e2 g2 ev3 HE Hf2 Hlen. destruct (L3 Hlen) as (evb & L4).
      destruct (fit_loop_trace _ _ _ _ _ _ _ _ _ L2) as (va & Hia & _).
      destruct (iterate_keeps E fp x _ _ h1 oa va Hia) as (D1 & D2 & _).
      assert (Hinva : Inv (h_cfg oa) (h_nfeat oa) (h_em oa)).
      { apply (iterate_inv (em_step E fp x (fit_lengths x ls)) (fun h => Inv (h_cfg h) (h_nfeat h) (h_em h))) with (3 := Hia); [|exact Hinv].
        intros h h' v Hh Hst'. apply (em_step_inv _ _ _ _ _ Hst' Hh). }
      assert (Hsta : h_start oa <> None /\ h_trans oa <> None).
      { apply (iterate_inv (em_step E fp x (fit_lengths x ls)) (fun h => h_start h <> None /\ h_trans h <> None)) with (3 := Hia); [|exact Hst].
        intros h h' v _ Hs. unfold em_step in Hs. destruct (h_start h); [|discriminate]. destruct (h_trans h); [|discriminate].
        apply bind_inv in Hs as ([st lp] & _ & Hs). unfold do_mstep in Hs. apply bind_inv in Hs as (h3 & Hs & E3). injection E3 as <- _.
        apply bind_inv in Hs as (p & _ & Eh). injection Eh as <-. split; discriminate. }
      set (ma := mon_after (lim a (monitor_reset (h_mon h1))) (firstn a (m_history mf))) in *.
      assert (Ha : Est (ended a oa ma) (e_rs ei) = Est (with_mon ma (with_cfg (cfg_n_iter a) oa)) (e_rs ei)) by reflexivity.
      rewrite Ha in Hf2.
      destruct (fit_again b (with_cfg (cfg_n_iter a) oa) ma (e_rs ei) glob2 x ls e2 g2 ev3) as (h2 & m & ev & F1 & F2); try assumption.
      { cbn [with_cfg h_start]. apply Hsta. } { cbn [with_cfg h_trans]. apply Hsta. }
      { cbn [with_cfg h_cfg h_nfeat h_em]. apply K6. exact Hinva. }
      destruct HB as (B1 & B2 & B3 & B4 & B5 & B6 & _).
      rewrite (fit_loop_n E fp a) in F1 by auto.
      replace (lim b (monitor_reset ma)) with (lim b (monitor_reset (h_mon h1))) in F1 by reflexivity. rewrite L4 in F1. cbn [bind] in F1. injection F1 as <- <- _.
      split; [unfold equal_models; rewrite F2; repeat split|]. rewrite F2. cbn [ended h_mon mon_after lim monitor_reset m_history app]. apply firstn_skipn.
  Qed.
End Parts.

(** ** The property. *)
Definition two_parts {P X St G} (E : emclass P X St) (I : initclass P X G) (rg : rng G) (fp : fpmode) (Ex : est P G -> Prop) : Prop :=
  forall a b e glob x ls ef gf evf,
  fit E I rg fp (built (a + b) e) glob x ls = Ok (ef, gf, evf) ->
  exists e1 ev1, fit E I rg fp (built a e) glob x ls = Ok (e1, gf, ev1)
    /\ e_rs e1 = e_rs ef
    /\ ((length (history ef) <= a)%nat -> equal_models e1 ef /\ history e1 = history ef)
    /\ ((a < length (history ef))%nat -> history e1 = firstn a (history ef)
        /\ forall glob2 e2 g2 ev2, Ex e1 ->
           fit E I rg fp (built b (no_init_params e1)) glob2 x ls = Ok (e2, g2, ev2) ->
           (a + 2 <= length (history ef))%nat \/ length (history ef) = (a + b)%nat ->
           equal_models e2 ef /\ history e1 ++ history e2 = history ef).

Lemma C82_categorical_l {G} (rg : rng G) fp : two_parts categorical cat_initc rg fp (fun _ => True).
Proof.
  intros a b e glob x ls ef gf evf.
  apply (fit_two_parts categorical cat_initc rg fp (cat_blind rg fp)) with (Inv := fun _ nf p => nf <> None /\ cat_prob p <> None) (Ex := fun _ _ => True); try reflexivity.
  - intros c nf0 p0 y nf1 p1 rs g p2 rs' g' ev nf3 p3 _ _. cbn [ec_check categorical]. unfold cat_check. destruct (cat_prob p2) as [m|] eqn:Em; [|discriminate].
    destruct (negb _); [discriminate|]. destruct (negb _); [discriminate|]. intros H. injection H as <- <-. rewrite Em. split; discriminate.
  - intros c nf p st p' (H1 & H2). cbn [ec_mstep categorical]. unfold cat_mstep. destruct (has _ _); intros H; injection H as <-; (split; [exact H1|]); [discriminate|exact H2].
  - intros c nf p y nf' p' (H1 & H2). cbn [ic_nfeat cat_initc]. unfold cat_nfeat. intros H. destruct nf as [n|]; [|contradiction]. all_ok H. injection H as <- <-. auto.
  - intros c nf p y rs g p' rs' g' ev (H1 & H2). cbn [ic_em cat_initc]. unfold cat_init_em. intros H. apply bind_inv in H as (rs1 & _ & H).
    unfold needs_init in H. cbn [cfg_no_init c_init_params has] in H. destruct (cat_prob p); [|contradiction]. cbn in H. injection H as <- _ _ _. reflexivity.
  - intros c nf p nf' p' (H1 & H2) _. cbn [ec_check categorical]. unfold cat_check. intros H. destruct nf as [n|]; [|contradiction]. all_ok H. injection H as <- <-. auto.
Qed.
Lemma C82_poisson_l {G} (rg : rng G) fp : two_parts poisson pois_initc rg fp (fun _ => True).
Proof.
  intros a b e glob x ls ef gf evf.
  apply (fit_two_parts poisson pois_initc rg fp (pois_blind rg fp)) with (Inv := fun _ nf p => nf <> None /\ po_lam p <> None) (Ex := fun _ _ => True); try reflexivity.
  - intros c nf0 p0 y nf1 p1 rs g p2 rs' g' ev nf3 p3 _ _. cbn [ec_check poisson]. unfold pois_check. destruct (po_lam p2) as [m|] eqn:Em; [|discriminate].
    destruct (negb _); [discriminate|]. intros H. injection H as <- <-. rewrite Em. split; discriminate.
  - intros c nf p st p' (H1 & H2). cbn [ec_mstep poisson]. unfold pois_mstep. destruct (has _ _); intros H; injection H as <-; (split; [exact H1|]); [discriminate|exact H2].
  - intros c nf p y nf' p' (H1 & H2). cbn [ic_nfeat pois_initc]. unfold pois_nfeat, set_n_features. intros H. destruct nf as [n|]; [|contradiction].
    apply bind_inv in H as (q & Hq & H). all_ok Hq. injection Hq as <-. injection H as <- <-. auto.
  - intros c nf p y rs g p' rs' g' ev (H1 & H2). cbn [ic_em pois_initc]. unfold pois_init_em. intros H. apply bind_inv in H as (rs1 & _ & H).
    unfold needs_init in H. cbn [cfg_no_init c_init_params has] in H. destruct (po_lam p); [|contradiction]. cbn in H. injection H as <- _ _ _. reflexivity.
  - intros c nf p nf' p' (H1 & H2) _. cbn [ec_check poisson]. unfold pois_check. intros H. destruct nf as [n|]; [|contradiction]. all_ok H. injection H as <- <-. auto.
Qed.
Lemma C82_multinomial_l {G} (rg : rng G) fp : two_parts multinomial mult_initc rg fp (fun _ => True).
Proof.
  intros a b e glob x ls ef gf evf.
  apply (fit_two_parts multinomial mult_initc rg fp (mult_blind rg fp)) with (Inv := fun _ nf p => nf <> None /\ mu_prob p <> None /\ mu_trials p <> None) (Ex := fun _ _ => True); try reflexivity.
  - intros c nf0 p0 y nf1 p1 rs g p2 rs' g' ev nf3 p3 _ _. cbn [ec_check multinomial]. unfold mult_check. destruct (mu_prob p2) as [m|] eqn:Em; [|discriminate].
    destruct (negb _); [discriminate|]. destruct (mu_trials p2) eqn:Et; [|discriminate]. intros H. injection H as <- <-. rewrite Em, Et. repeat split; discriminate.
  - intros c nf p st p' (H1 & H2 & H3). cbn [ec_mstep multinomial]. unfold mult_mstep. destruct (has _ _); intros H; injection H as <-; (split; [exact H1|]); (split; [|exact H3]); [discriminate|exact H2].
  - intros c nf p y nf' p' (H1 & H2 & H3). cbn [ic_nfeat mult_initc]. unfold mult_nfeat, set_n_features. intros H. destruct nf as [n|]; [|contradiction].
    apply bind_inv in H as (q & Hq & H). all_ok Hq. injection Hq as <-. destruct (existsb _ _); [discriminate|]. cbv zeta in H. destruct (mu_trials p); [|contradiction].
    apply bind_inv in H as ([] & _ & H); [|discriminate]. injection H as <- <-. auto.
  - intros c nf p y rs g p' rs' g' ev _. cbn [ic_em mult_initc]. unfold mult_init_em. intros H. apply bind_inv in H as (rs1 & _ & H).
    cbn in H. injection H as <- _ _ _. reflexivity.
  - intros c nf p nf' p' (H1 & H2) _. cbn [ec_check multinomial]. unfold mult_check. intros H. destruct nf as [n|]; [|contradiction]. all_ok H; injection H as <- <-; auto.
Qed.
(** GaussianHMM: [means_] has [n_features] columns after the first part. *)
Definition means_fit {G} (e : est gaussp G) : Prop :=
  exists m, ga_means (h_em (e_hmm e)) = Some m /\ h_nfeat (e_hmm e) = Some (ncol m).
Lemma C82_gaussian_l {G} (rg : rng G) fp : two_parts gaussian gauss_initc rg fp means_fit.
Proof.
  intros a b e glob x ls ef gf evf.
  apply (fit_two_parts gaussian gauss_initc rg fp (gauss_blind rg fp)) with (Inv := fun _ nf p => nf <> None /\ ga_means p <> None /\ ga_covars p <> None)
    (Ex := fun nf p => exists m, ga_means p = Some m /\ nf = Some (ncol m)); try reflexivity.
  - intros c nf0 p0 y nf1 p1 rs g p2 rs' g' ev nf3 p3 Hn He. cbn [ec_check gaussian]. unfold gauss_check. destruct (ga_means p2) as [m|] eqn:Em; [|discriminate].
    destruct (is_type _ _); [|discriminate]. intros H. injection H as <- <-. rewrite Em. split; [discriminate|]. split; [discriminate|].
    cbn [ic_em gauss_initc] in He. unfold gauss_init_em in He. destruct (needs_init c "m" _ _) as [nm w]. apply bind_inv in He as ([[q r] s] & _ & He).
    apply bind_inv in He as (is_set & Hset & He). unfold needs_init in He. destruct (has "c" (c_init_params c)).
    + apply bind_inv in He as (cv & _ & He). apply bind_inv in He as ([] & _ & He). injection He as <- _ _ _. discriminate.
    + destruct is_set; cbn [negb] in He.
      * destruct (ga_covars p1) as [cv|] eqn:Ecv; [|discriminate]. injection He as <- _ _ _. discriminate.
      * apply bind_inv in He as (cv & _ & He). apply bind_inv in He as ([] & _ & He). injection He as <- _ _ _. discriminate.
  - intros c nf p st p' (H1 & H2 & H3). cbn [ec_mstep gaussian]. unfold gauss_mstep. intros H. apply bind_inv in H as (m & Hm & H). apply bind_inv in H as (cv & Hcv & H).
    injection H as <-. split; [exact H1|]. cbn [ga_set ga_means ga_covars].
    assert (Hm' : m <> None). { destruct (has "m" _); [apply bind_inv in Hm as (q & _ & Hm)|]; injection Hm as <-; [discriminate|exact H2]. }
    split; [exact Hm'|]. destruct (has "c" _); [|injection Hcv as <-; exact H3]. destruct m as [m|]; [|discriminate].
    destruct (vec_type _); [apply bind_inv in Hcv as (q & _ & Hcv); injection Hcv as <-; discriminate|].
    destruct (mat_type _); [apply bind_inv in Hcv as (q & _ & Hcv); injection Hcv as <-; discriminate|]. injection Hcv as <-. exact H3.
  - intros c nf p y nf' p' (H1 & H2). cbn [ic_nfeat gauss_initc]. unfold gauss_nfeat, set_n_features. intros H. destruct nf as [n|]; [|contradiction].
    apply bind_inv in H as (q & Hq & H). all_ok Hq. injection Hq as <-. injection H as <- <-. auto.
  - intros c nf p y rs g p' rs' g' ev (H1 & H2 & H3). cbn [ic_em gauss_initc]. unfold gauss_init_em. intros H. unfold needs_init in H. cbn [cfg_no_init c_init_params has] in H.
    destruct (ga_means p) as [m|] eqn:Em; [|contradiction]. cbn [isSome negb bind] in H. apply bind_inv in H as (is_set & Hset & H).
    destruct (ga_covars p) as [cv|] eqn:Ecv; [|contradiction]. destruct nf as [n|]; [|contradiction]. apply bind_inv in Hset as (q & _ & Hset). injection Hset as <-.
    cbn [negb] in H. injection H as <- _ _ _. destruct p. cbn in Em, Ecv. subst. reflexivity.
  - intros c nf p nf' p' (H1 & H2) (m & Em & ->). cbn [ec_check gaussian]. unfold gauss_check. rewrite Em. intros H. all_ok H. injection H as <- <-. auto.
Qed.
Lemma fix_priors_again fp nc n p q w m v : fix_priors fp nc n p = Ok q -> fix_priors fp nc n (gm_set q w m v) = Ok (gm_set q w m v).
Proof.
  unfold fix_priors. intros H. apply bind_inv in H as (a1 & H1 & H). apply bind_inv in H as (a2 & H2 & H). apply bind_inv in H as (a3 & H3 & H).
  apply bind_inv in H as (a4 & H4 & H). apply bind_inv in H as (a5 & H5 & H). injection H as <-.
  cbn [gm_set gm_set_priors gm_nmix gm_type gm_wprior gm_mprior gm_mweight gm_cprior gm_cweight].
  rewrite (broadcasts_again _ _ _ H1), (broadcasts_again _ _ _ H2), (broadcasts_again _ _ _ H3). cbn [bind].
  assert (K : forall (o d r : option nd) sh, fix_prior (match o with Some a => Some a | None => d end) sh = Ok r ->
            fix_prior (match r with Some a => Some a | None => d end) sh = Ok r).
  { intros o d r sh Hf. destruct o as [a|].
    - destruct sh as [sh|]; cbn [fix_prior] in Hf; [apply bind_inv in Hf as (b & Hb & Hf)|]; injection Hf as <-; [|reflexivity].
      cbn [fix_prior]. rewrite (broadcasts_again _ _ _ Hb). reflexivity.
    - destruct d as [d|]; [|cbn in Hf; injection Hf as <-; reflexivity].
      destruct sh as [sh|]; cbn [fix_prior] in Hf; [apply bind_inv in Hf as (b & Hb & Hf)|]; injection Hf as <-; [|reflexivity].
      cbn [fix_prior]. rewrite (broadcasts_again _ _ _ Hb). reflexivity. }
  rewrite (K _ _ _ _ H4). cbn [bind]. rewrite (K _ _ _ _ H5). reflexivity.
Qed.
Lemma gm_set_same q : gm_set q (gm_weights q) (gm_means q) (gm_covars q) = q.
Proof. destruct q. reflexivity. Qed.
Lemma C82_gmm_l {G} eig (gr : grng G) (rg : rng G) fp : two_parts (gmm eig) (gmm_initc gr) rg fp (fun _ => True).
Proof.
  intros a b e glob x ls ef gf evf.
  apply (fit_two_parts (gmm eig) (gmm_initc gr) rg fp (gmm_blind eig gr rg fp)) with
    (Inv := fun c nf p => gm_weights p <> None /\ gm_means p <> None /\ gm_covars p <> None
                          /\ exists n, nf = Some n /\ fix_priors fp (c_nc c) n p = Ok p) (Ex := fun _ _ => True); try reflexivity.
  - intros c nf0 p0 y nf1 p1 rs g p2 rs' g' ev nf3 p3 _ _. cbn [ec_check gmm]. intros H.
    destruct (gmm_check_keeps _ _ _ _ _ _ _ H) as (K1 & K2 & K3). rewrite K1, K2, K3. unfold gmm_check in H.
    apply bind_inv in H as (n & _ & H). apply bind_inv in H as (q & Hq & H). destruct (negb _); [discriminate|].
    destruct (gm_weights p2); [|discriminate]. destruct (negb _); [discriminate|]. destruct (negb _); [discriminate|].
    destruct (gm_means p2); [|discriminate]. destruct (negb _); [discriminate|]. destruct (gm_covars p2); [|discriminate].
    destruct (cprior_shape _ _ _ _); [|discriminate]. destruct (negb _); [discriminate|]. apply bind_inv in H as ([] & _ & H). injection H as <- <-.
    do 3 (split; [discriminate|]). exists n. split; [reflexivity|]. rewrite <- (gm_set_same q). apply (fix_priors_again _ _ _ _ _ _ _ _ Hq).
  - intros c nf p st p' (H1 & H2 & H3 & n & -> & H4). cbn [ec_mstep gmm]. unfold gmm_mstep. destruct (gm_weights p) eqn:Ew; [|contradiction]. destruct (gm_means p) eqn:Em; [|contradiction].
    intros H. apply bind_inv in H as (cv & Hcv & H). injection H as <-. cbn [gm_set gm_weights gm_means gm_covars]. split; [discriminate|]. split; [discriminate|]. split.
    { destruct (has "c" _); [apply bind_inv in Hcv as (q & _ & Hcv); injection Hcv as <-; discriminate|injection Hcv as <-; exact H3]. }
    exists n. split; [reflexivity|]. apply (fix_priors_again _ _ _ _ _ _ _ _ H4).
  - intros c nf p y nf' p' (_ & _ & _ & n & -> & _). cbn [ic_nfeat gmm_initc]. unfold gmm_nfeat, set_n_features. intros H.
    apply bind_inv in H as (q & Hq & H). all_ok Hq. injection Hq as <-. injection H as <- <-. auto.
  - intros c nf p y rs g p' rs' g' ev (H1 & H2 & H3 & n & -> & H4). cbn [ic_em gmm_initc]. unfold gmm_init_em. cbv zeta. cbn [cfg_no_init c_nc].
    rewrite H4. cbn [bind]. intros H. apply bind_inv in H as ([[[lab cen] r1] g1] & _ & H). apply bind_inv in H as ([[ms r2] g2] & _ & H).
    unfold needs_init in H. cbn [cfg_no_init c_init_params has] in H. destruct p as [? ? ? ? ? ? ? ? w m v]. cbn [gm_weights gm_means gm_covars] in *.
    destruct w; [|contradiction]. destruct m; [|contradiction]. destruct v; [|contradiction]. cbn in H. injection H as <- _ _ _. reflexivity.
  - intros c nf p nf' p' (_ & _ & _ & n & -> & H4) _. cbn [ec_check gmm]. unfold gmm_check. cbn [bind]. rewrite H4. cbn [bind].
    intros H. all_ok H; injection H as <- <-; auto.
Qed.
