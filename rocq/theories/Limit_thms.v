(** * C89: [n_iter] is only a limit. *)
From Verif Require Export Warm_thms Warm_v.

Lemma report_lim fp n m lb : monitor_report fp (lim n m) lb = let '(m', ev) := monitor_report fp m lb in (lim n m', ev).
Proof. reflexivity. Qed.
Definition tol_stop (fp : fpmode) (m : monitor) : bool :=
  Nat.leb 2 (length (m_history m)) && xltb (xsub fp (nth (length (m_history m) - 1) (m_history m) NaN) (nth (length (m_history m) - 2) (m_history m) NaN)) (m_tol m).
Lemma converged_lim fp n m : converged fp (lim n m) = Nat.eqb (m_iter m) n || tol_stop fp m.
Proof. reflexivity. Qed.
Lemma lim_lim a b m : lim a (lim b m) = lim a m.
Proof. reflexivity. Qed.

Section Loops.
  Context {O : Type} (fp : fpmode) (step : O -> res (O * xnum)).
  Lemma loop_iter zr n : forall o m o' m' ev, fit_loop fp step zr n o m = Ok (o', m', ev) -> (m_iter m <= m_iter m')%nat /\ ((0 < n)%nat -> (m_iter m < m_iter m')%nat).
  Proof.
    intros o m o' m' ev H. destruct (fit_loop_trace _ _ _ _ _ _ _ _ _ H) as (vs & _ & -> & _ & Hs & _). cbn [mon_after m_iter].
    split; [lia|]. intros Hn. destruct Hs as [Hs|[_ Hs]]; [lia|]. destruct vs; [contradiction|cbn; lia].
  Qed.
  Lemma loop_limit zr n : forall N N' o m o' m' ev, (m_iter m + n = N)%nat -> (m_iter m' <= N')%nat -> (m_iter m' < N)%nat ->
    fit_loop fp step zr n o (lim N m) = Ok (o', m', ev) ->
    fit_loop fp step zr (N' - m_iter m) o (lim N' m) = Ok (o', lim N' m', ev).
  Proof.
    induction n as [|n IH]; intros N N' o m o' m' ev Hn Hle Hlt H.
    - cbn [fit_loop] in H. injection H as <- <- <-. cbn [lim m_iter] in Hlt. lia.
    - destruct (loop_iter zr (S n) _ _ _ _ _ H) as [_ J]. specialize (J ltac:(lia)). cbn [lim m_iter] in J.
      replace (N' - m_iter m)%nat with (S (N' - S (m_iter m))) by lia. cbn [fit_loop] in H |- *.
      apply bind_inv in H as ([o1 lb] & Hs & H). rewrite Hs. cbn [bind]. rewrite report_lim in H |- *.
      destruct (monitor_report fp m lb) as [m1 ev1] eqn:Er. assert (I1 : m_iter m1 = S (m_iter m)) by (injection Er as <- _; reflexivity).
      rewrite converged_lim in H |- *. rewrite I1 in *. destruct (tol_stop fp m1) eqn:Et.
      + rewrite orb_true_r in H |- *. injection H as <- <- <-. rewrite lim_lim. reflexivity.
      + rewrite orb_false_r in H |- *. destruct (Nat.eqb_spec (S (m_iter m)) N) as [E|E].
        * injection H as _ <- _. cbn [lim m_iter] in Hlt. lia.
        * apply bind_inv in H as ([[o2 m2] ev2] & H2 & H). injection H as <- <- <-.
          destruct (loop_iter zr n _ _ _ _ _ H2) as [_ J2]. specialize (J2 ltac:(lia)). cbn [lim m_iter] in J2. rewrite I1 in J2.
          destruct (Nat.eqb_spec (S (m_iter m)) N') as [E'|E']; [lia|].
          rewrite <- I1. rewrite (IH N N' o1 m1 o2 m2 ev2) by (try exact H2; lia). reflexivity.
  Qed.
  Lemma vloop_iter zr n : forall o m o' m' ev, vfit_loop fp step zr n o m = Ok (o', m', ev) -> (m_iter m <= m_iter m')%nat /\ ((0 < n)%nat -> (m_iter m < m_iter m')%nat).
  Proof.
    induction n as [|n IH]; intros o m o' m' ev H; cbn [vfit_loop] in H; [injection H as _ <- _; lia|].
    apply bind_inv in H as ([o1 lb] & _ & H). destruct (monitor_report fp m lb) as [m1 ev1] eqn:Er.
    assert (I1 : m_iter m1 = S (m_iter m)) by (injection Er as <- _; reflexivity).
    destruct (converged fp m1); [injection H as _ <- _; lia|]. apply bind_inv in H as (z & _ & H). apply bind_inv in H as ([[o2 m2] ev2] & H2 & H).
    injection H as _ <- _. destruct (IH _ _ _ _ _ H2) as [J _]. lia.
  Qed.
  Lemma vloop_limit zr n : forall N N' o m o' m' ev, (m_iter m + n = N)%nat -> (m_iter m' <= N')%nat -> (m_iter m' < N)%nat ->
    vfit_loop fp step zr n o (lim N m) = Ok (o', m', ev) ->
    vfit_loop fp step zr (N' - m_iter m) o (lim N' m) = Ok (o', lim N' m', ev).
  Proof.
    induction n as [|n IH]; intros N N' o m o' m' ev Hn Hle Hlt H.
    - cbn [vfit_loop] in H. injection H as <- <- <-. cbn [lim m_iter] in Hlt. lia.
    - destruct (vloop_iter zr (S n) _ _ _ _ _ H) as [_ J]. specialize (J ltac:(lia)). cbn [lim m_iter] in J.
      replace (N' - m_iter m)%nat with (S (N' - S (m_iter m))) by lia. cbn [vfit_loop] in H |- *.
      apply bind_inv in H as ([o1 lb] & Hs & H). rewrite Hs. cbn [bind]. rewrite report_lim in H |- *.
      destruct (monitor_report fp m lb) as [m1 ev1] eqn:Er. assert (I1 : m_iter m1 = S (m_iter m)) by (injection Er as <- _; reflexivity).
      rewrite converged_lim in H |- *. rewrite I1 in *. destruct (tol_stop fp m1) eqn:Et.
      + rewrite orb_true_r in H |- *. injection H as <- <- <-. rewrite lim_lim. reflexivity.
      + rewrite orb_false_r in H |- *. destruct (Nat.eqb_spec (S (m_iter m)) N) as [E|E].
        * injection H as _ <- _. cbn [lim m_iter] in Hlt. lia.
        * apply bind_inv in H as (z & Hz & H). apply bind_inv in H as ([[o2 m2] ev2] & H2 & H). injection H as <- <- <-.
          destruct (vloop_iter zr n _ _ _ _ _ H2) as [_ J2]. specialize (J2 ltac:(lia)). cbn [lim m_iter] in J2. rewrite I1 in J2.
          destruct (Nat.eqb_spec (S (m_iter m)) N') as [E'|E']; [lia|]. rewrite Hz. cbn [bind].
          rewrite <- I1. rewrite (IH N N' o1 m1 o2 m2 ev2) by (try exact H2; lia). reflexivity.
  Qed.
End Loops.

(** A call of [fit] that made fewer iterations than [n_iter] allowed is
    repeated exactly (parameters, history, warnings, generators) with every
    [n_iter] that allows as many. *)
Definition only_a_limit {P X St G} (E : emclass P X St) (I : initclass P X G) (rg : rng G) (fp : fpmode) : Prop :=
  forall n n' e glob x ls e' glob' ev,
  fit E I rg fp (built n e) glob x ls = Ok (e', glob', ev) ->
  (length (history e') < n)%nat -> (length (history e') <= n')%nat ->
  fit E I rg fp (built n' e) glob x ls = Ok (built n' e', glob', ev).

Lemma limit_blind {P X St G} (E : emclass P X St) (I : initclass P X G) (rg : rng G) (fp : fpmode) :
  n_iter_blind E I rg fp -> only_a_limit E I rg fp.
Proof.
  intros HB n n' e glob x ls e' glob' ev H Hlt Hle. rewrite (fit_built E I rg fp HB) in H |- *.
  apply bind_inv in H as (y & Hy & H). rewrite Hy. cbn [bind]. apply bind_inv in H as ([[e1 g1] ev1] & Hi & H). rewrite Hi. cbn [bind].
  apply bind_inv in H as (h1 & Hc & H). rewrite Hc. cbn [bind]. apply bind_inv in H as ([[h2 m] ev2] & Hl & H). injection H as <- <- <-.
  assert (Hm : m_iter m = length (m_history m)).
  { destruct (fit_loop_trace _ _ _ _ _ _ _ _ _ Hl) as (vs & _ & -> & _). reflexivity. }
  unfold history, ended in Hlt, Hle. cbn [e_hmm h_mon] in Hlt, Hle. rewrite <- Hm in Hlt, Hle.
  pose proof (loop_limit fp _ (zero_rows fp) n n n' h1 (monitor_reset (h_mon h1)) h2 m ev2 eq_refl Hle Hlt Hl) as H'.
  cbn [monitor_reset m_iter] in H'. rewrite Nat.sub_0_r in H'. fold (monitor_reset (h_mon h1)) in H'. rewrite H'. reflexivity.
Qed.

Lemma C89_categorical_l {G} (rg : rng G) fp : only_a_limit categorical cat_initc rg fp.
Proof. apply limit_blind, cat_blind. Qed.
Lemma C89_poisson_l {G} (rg : rng G) fp : only_a_limit poisson pois_initc rg fp.
Proof. apply limit_blind, pois_blind. Qed.
Lemma C89_multinomial_l {G} (rg : rng G) fp : only_a_limit multinomial mult_initc rg fp.
Proof. apply limit_blind, mult_blind. Qed.
Lemma C89_gaussian_l {G} (rg : rng G) fp : only_a_limit gaussian gauss_initc rg fp.
Proof. apply limit_blind, gauss_blind. Qed.
Lemma C89_gmm_l {G} eig (gr : grng G) (rg : rng G) fp : only_a_limit (gmm eig) (gmm_initc gr) rg fp.
Proof. apply limit_blind, gmm_blind. Qed.

Definition v_only_a_limit {P X St G} (V : vclass P X St) (I : vinitclass P X G) (rg : rng G) (fp : fpmode) : Prop :=
  forall n n' e glob x ls e' glob' ev,
  vfit V I rg fp (vbuilt n e) glob x ls = Ok (e', glob', ev) ->
  (length (vhistory e') < n)%nat -> (length (vhistory e') <= n')%nat ->
  vfit V I rg fp (vbuilt n' e) glob x ls = Ok (vbuilt n' e', glob', ev).

Lemma vloop_count {O} fp (step : O -> res (O * xnum)) zr n : forall o m o' m' ev, vfit_loop fp step zr n o m = Ok (o', m', ev) ->
  m_iter m = length (m_history m) -> m_iter m' = length (m_history m').
Proof.
  induction n as [|n IH]; intros o m o' m' ev H Hm; cbn [vfit_loop] in H; [injection H as _ <- _; exact Hm|].
  apply bind_inv in H as ([o1 lb] & _ & H). destruct (monitor_report fp m lb) as [m1 ev1] eqn:Er.
  assert (I1 : m_iter m1 = length (m_history m1)) by (injection Er as <- _; cbn [m_iter m_history]; rewrite app_length, Hm; cbn; lia).
  destruct (converged fp m1); [injection H as _ <- _; exact I1|]. apply bind_inv in H as (z & _ & H). apply bind_inv in H as ([[o2 m2] ev2] & H2 & H).
  injection H as _ <- _. apply (IH _ _ _ _ _ H2 I1).
Qed.
Lemma vlimit_blind {P X St G} (V : vclass P X St) (I : vinitclass P X G) (rg : rng G) (fp : fpmode) :
  (forall n, vblind V fp (cfg_n_iter n)) ->
  (forall n c nf p x, vi_nfeat I (cfg_n_iter n c) nf p x = vi_nfeat I c nf p x) ->
  (forall n c nf p, vi_nfit I (cfg_n_iter n c) nf p = vi_nfit I c nf p) ->
  (forall n c nf p x l rs g, vi_em I fp rg (cfg_n_iter n c) nf p x l rs g = vi_em I fp rg c nf p x l rs g) ->
  v_only_a_limit V I rg fp.
Proof.
  intros B1 B3 B4 B5 n n' e glob x ls e' glob' ev H Hlt Hle. rewrite (vfit_built V I rg fp B1 B3 B4 B5) in H |- *.
  apply bind_inv in H as (y & Hy & H). rewrite Hy. cbn [bind]. apply bind_inv in H as ([[e1 g1] ev1] & Hi & H). rewrite Hi. cbn [bind].
  apply bind_inv in H as (v1 & Hc & H). rewrite Hc. cbn [bind]. apply bind_inv in H as ([[v2 m] ev2] & Hl & H). injection H as <- <- <-.
  pose proof (vloop_count _ _ _ _ _ _ _ _ _ Hl eq_refl) as Hm.
  unfold vhistory in Hlt, Hle. cbn [ve_v re_cfg v_h h_mon] in Hlt, Hle. rewrite <- Hm in Hlt, Hle.
  pose proof (vloop_limit fp _ (vzero_rows fp) n n n' v1 (monitor_reset (h_mon (v_h v1))) v2 m ev2 eq_refl Hle Hlt Hl) as H'.
  cbn [monitor_reset m_iter] in H'. rewrite Nat.sub_0_r in H'. fold (monitor_reset (h_mon (v_h v1))) in H'. rewrite H'. reflexivity.
Qed.
Lemma C89_vcategorical_l {G} (rg : rng G) fp : v_only_a_limit vcategorical vcat_initc rg fp.
Proof. apply vlimit_blind; try (intros; reflexivity). intros n. repeat split. Qed.
Lemma C89_vgaussian_l {G} la (gr : grng G) (rg : rng G) fp : v_only_a_limit (vgaussian la) (vg_initc gr) rg fp.
Proof. apply vlimit_blind; try (intros; reflexivity). intros n. repeat split. Qed.
