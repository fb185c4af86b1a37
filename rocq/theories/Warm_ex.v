(** * Property C82: counterexamples and an example. *)
From Verif Require Export Warm_again Fresh_ex.

(** One state, one symbol; the entry of [transmat_] is [a]. *)
Definition ws_h (ps : string) (n m : nat) (hist : list xnum) (a : R) : hmm catp :=
  Hmm (Cfg 1 ps "" "map" "log" n (Fin 1) false (Scal (Fin 1)) (Scal (Fin 1))) (Some 1%nat)
      (Some (fvec 1 (fun _ => 1))) (Some (fmat 1 1 (fun _ _ => a))) (Monitor (Fin 1) m false hist (length hist))
      (Catp (Scal (Fin 1)) (Some (fmat 1 1 (fun _ _ => 1)))).
Definition ws_x : list Z := [0%Z].
Lemma ws_estep ps n m hi a : 0 <= a -> has "e" ps = false -> exists s em, do_estep categorical exact (ws_h ps n m hi a) (fvec 1 (fun _ => 1)) (fmat 1 1 (fun _ _ => a)) ws_x (Some [1%Z])
    = Ok (Stats 1 s (fmat 1 1 (fun _ _ => 0)) em, Fin 0).
Proof.
  intros Ha He. change (Some [1%Z]) with (as_lengths [1%nat]).
  assert (Hd : good_data (sym_ok 1) [1%nat] ws_x). { split; [repeat constructor; unfold sym_ok; lia|split; [discriminate|split; [repeat constructor; lia|reflexivity]]]. }
  set (b := cat_b (fun _ _ => 1)).
  assert (Tr : trainable categorical (ws_h ps n m hi a) 1 (fun _ => 1) (fun _ _ => a) (sym_ok 1) b).
  { constructor; try reflexivity; try lia; try (intros ? ?; lra); try (intros ? ? ? ?; lra). apply cat_emits; [reflexivity|]. intros i j _ _. lra. }
  assert (Hl : seq_lik 1 (fun _ => 1) (fun _ _ => a) b [0%Z] = 1).
  { unfold seq_lik, likelihood, joint, obsB, b, cat_b. simpl. ring. }
  assert (Hs : forall c, In c (chunks [1%nat] ws_x) -> scorable 1 (fun _ => 1) (fun _ _ => a) b (c_impl (h_cfg (ws_h ps n m hi a))) c).
  { intros c [<-|[]]. left. split; [reflexivity|]. change (firstn 1 ws_x) with [0%Z]. rewrite Hl. lra. }
  rewrite (do_estep_spec categorical (ws_h ps n m hi a) 1 (fun _ => 1) (fun _ _ => a) _ _ Tr [1%nat] ws_x Hd Hs). rewrite em_fold_all.
  cbn [chunks map em_acc_all firstn ws_x ec_acc categorical]. unfold cat_acc. cbn [ws_h h_cfg c_params]. rewrite He. cbn [bind].
  eexists _, _. f_equal. f_equal; [f_equal|].
  - apply fmat_ext. intros i j _ _. unfold trans_stat, seq_trans, expected_trans. cbn [h_cfg ws_h c_params chunks ws_x firstn sumL length].
    set (lk := likelihood _ _ _ _ _). clearbody lk. set (J := joint _ _ _ _). clearbody J. destruct (has "t" ps); [|reflexivity]. cbn. unfold Rdiv. ring.
  - cbn [prodL]. rewrite Hl, Rmult_1_r. unfold xln. destruct (Rlt_dec 0 1) as [H|H]; [rewrite ln_1; reflexivity|lra].
Qed.
Lemma ws_step n m hi a : 0 <= a -> em_step categorical exact ws_x (Some [1%Z]) (ws_h "t" n m hi a) = Ok (ws_h "t" n m hi 0, Fin 0).
Proof.
  intros Ha. destruct (ws_estep "t" n m hi a Ha eq_refl) as (s & em & H). unfold em_step. cbn [ws_h h_start h_trans].
  fold (ws_h "t" n m hi a). rewrite H. cbn [bind]. unfold do_mstep.
  rewrite (mstep_trans_spec (ws_h "t" n m hi a) 1 (fun _ _ => a) (fun _ _ => 1) (fun _ _ => 0)) by (intros; reflexivity).
  unfold mstep_start. cbn [ws_h h_cfg c_params has Ascii.eqb Bool.eqb orb ec_mstep categorical h_nfeat h_em]. unfold cat_mstep. cbn [c_params has Ascii.eqb Bool.eqb orb bind h_mon].
  unfold ws_h. f_equal. f_equal. f_equal. f_equal. apply fmat_ext. intros i j _ _.
  assert (W : forall k, map_weight (fun _ => a) (fun _ => 1) (fun _ => 0) k = 0).
  { intros k. unfold map_weight. destruct (Req_EM_T _ 0); [reflexivity|]. rewrite Rmax_right; lra. }
  unfold normalised. rewrite W. destruct (Req_EM_T _ 0); [reflexivity|]. unfold Rdiv. ring.
Qed.
Lemma ws_still n m hi a : 0 <= a -> em_step categorical exact ws_x (Some [1%Z]) (ws_h "" n m hi a) = Ok (ws_h "" n m hi a, Fin 0).
Proof.
  intros Ha. destruct (ws_estep "" n m hi a Ha eq_refl) as (s & em & H). unfold em_step. cbn [ws_h h_start h_trans].
  fold (ws_h "" n m hi a). rewrite H. reflexivity.
Qed.
Lemma ws_init ps n m hi a rs : ps = "t"%string \/ ps = ""%string -> rs = RSSeed 0 \/ rs = RSGen tt ->
  init cat_initc flat_rng exact (Est (ws_h ps n m hi a) rs) tt ws_x = Ok (Est (ws_h ps n m hi a) (RSGen tt), tt, []).
Proof. intros [->| ->] [->| ->]; reflexivity. Qed.
Lemma ws_one (f : nat -> R) : check_sum_1 exact (fvec 1 f) = true <-> near1 (f 0%nat).
Proof. rewrite check_sum_1_fvec. cbn [sumn]. rewrite Rplus_0_l. reflexivity. Qed.
Lemma ws_check ps n m hi : check categorical exact (ws_h ps n m hi 1) = Ok (ws_h ps n m hi 1).
Proof.
  assert (S1 : check_sum_1 exact (fvec 1 (fun _ => 1)) = true) by (apply ws_one; exact near1_1).
  unfold check, base_check. cbn [ws_h h_start h_trans h_cfg c_nc h_nfeat h_em h_mon ec_check categorical]. rewrite S1.
  change (rows (fmat 1 1 (fun _ _ => 1))) with [fvec 1 (fun _ => 1)]. cbn [forallb]. rewrite S1.
  rewrite (cat_check_ok _ _ _ 1 1); [reflexivity|reflexivity|auto|]. intros i _. cbn [sumn]. rewrite Rplus_0_l. exact near1_1.
Qed.
Lemma ws_check0 ps n m hi : exists w, check categorical exact (ws_h ps n m hi 0) = Err (ValueError w).
Proof.
  assert (S1 : check_sum_1 exact (fvec 1 (fun _ => 1)) = true) by (apply ws_one; exact near1_1).
  assert (S0 : check_sum_1 exact (fvec 1 (fun _ => 0)) = false).
  { destruct (check_sum_1 exact (fvec 1 (fun _ => 0))) eqn:E; [|reflexivity]. apply ws_one in E. unfold near1 in E.
    exfalso. rewrite Rabs_left in E by lra.
    assert (/ 10 ^ 8 < / 2) by (apply Rinv_lt_contravar; lra). assert (/ 10 ^ 5 < / 2) by (apply Rinv_lt_contravar; lra). lra. }
  unfold check, base_check. cbn [ws_h h_start h_trans h_cfg c_nc h_nfeat h_em h_mon ec_check categorical]. rewrite S1.
  change (rows (fmat 1 1 (fun _ _ => 0))) with [fvec 1 (fun _ => 0)]. cbn [forallb]. rewrite S0. cbn. eexists. reflexivity.
Qed.
(** Two calls with [n_iter = 1] instead of one with [n_iter = 2]: the second raises. *)
Lemma C82_raises_refuted_l : exists (e : est catp unit) x ef evf e1 ev1 w,
  fit categorical cat_initc flat_rng exact (built 2 e) tt x None = Ok (ef, tt, evf)
  /\ length (history ef) = 2%nat
  /\ fit categorical cat_initc flat_rng exact (built 1 e) tt x None = Ok (e1, tt, ev1)
  /\ fit categorical cat_initc flat_rng exact (built 1 (no_init_params e1)) tt x None = Err (ValueError w).
Proof.
  set (e := Est (ws_h "t" 0 0 [] 1) (RSSeed 0) : est catp unit).
  assert (I1 : init cat_initc flat_rng exact e tt ws_x = Ok (Est (ws_h "t" 0 0 [] 1) (RSGen tt), tt, [])) by (apply ws_init; auto).
  destruct (ws_check0 "t" 1 1 [Fin 0]) as (w & W).
  assert (F2 : exists ev, fit categorical cat_initc flat_rng exact (built 2 e) tt ws_x None = Ok (Est (ws_h "t" 2 2 [Fin 0; Fin 0] 0) (RSGen tt), tt, ev)).
  { rewrite (fit_built _ _ _ _ (cat_blind _ _)). change (check_array (ec_xok categorical) ws_x) with (Ok ws_x). cbn [bind]. rewrite I1. cbn [bind e_hmm e_rs].
    rewrite ws_check. cbn [bind]. change (fit_lengths ws_x None) with (Some [1%Z]). cbn [fit_loop]. rewrite (ws_step 0 0 [] 1) by lra. cbn [bind].
    destruct (monitor_report exact (lim 2 _) (Fin 0)) as [m1 v1] eqn:E1. injection E1 as <- <-.
    match goal with |- context [converged exact ?m] => change (converged exact m) with false end. cbn iota. rewrite (ws_step 0 0 [] 0) by lra. cbn [bind].
    destruct (monitor_report exact _ (Fin 0)) as [m2 v2] eqn:E2. injection E2 as <- <-.
    match goal with |- context [converged exact ?m] => change (converged exact m) with true end. cbn iota. cbn [bind]. eexists. reflexivity. }
  assert (F1 : fit categorical cat_initc flat_rng exact (built 1 e) tt ws_x None = Ok (Est (ws_h "t" 1 1 [Fin 0] 0) (RSGen tt), tt, [])).
  { rewrite (fit_built _ _ _ _ (cat_blind _ _)). change (check_array (ec_xok categorical) ws_x) with (Ok ws_x). cbn [bind]. rewrite I1. cbn [bind e_hmm e_rs].
    rewrite ws_check. cbn [bind]. change (fit_lengths ws_x None) with (Some [1%Z]). cbn [fit_loop]. rewrite (ws_step 0 0 [] 1) by lra. reflexivity. }
  destruct F2 as [ev2 F2]. exists e, ws_x. eexists _, _, _, _, w. split; [exact F2|]. split; [reflexivity|]. split; [exact F1|].
  change (built 1 (no_init_params _)) with (Est (ws_h "t" 1 1 [Fin 0] 0) (RSGen tt) : est catp unit).
  unfold fit. change (check_array (ec_xok categorical) ws_x) with (Ok ws_x). cbn [bind]. rewrite ws_init by auto. cbn [bind e_hmm]. unfold fit_from. rewrite W. reflexivity.
Qed.
(** The improvement from the last iteration of the first call to the first of the
    second is not looked at: [n_iter = 3] stops after two iterations, [n_iter = 1]
    followed by [n_iter = 2] makes three. *)
Lemma C82_stop_refuted_l : exists (e : est catp unit) x ef evf e1 ev1 e2 ev2,
  fit categorical cat_initc flat_rng exact (built 3 e) tt x None = Ok (ef, tt, evf)
  /\ fit categorical cat_initc flat_rng exact (built 1 e) tt x None = Ok (e1, tt, ev1)
  /\ fit categorical cat_initc flat_rng exact (built 2 (no_init_params e1)) tt x None = Ok (e2, tt, ev2)
  /\ length (history ef) = 2%nat /\ length (history e1 ++ history e2) = 3%nat.
Proof.
  set (e := Est (ws_h "" 0 0 [] 1) (RSSeed 0) : est catp unit).
  assert (Q : forall a, xltb (xsub exact (Fin a) (Fin a)) (Fin 1) = true).
  { intros a. cbn. unfold Rltb. destruct (Rlt_dec (a + - a) 1) as [H|H]; [reflexivity|lra]. }
  assert (F : forall n rs hi, (n = 2 \/ n = 3)%nat -> rs = RSSeed 0 \/ rs = RSGen tt -> exists ev,
     fit categorical cat_initc flat_rng exact (built n (Est (ws_h "" 0 0 hi 1) rs)) tt ws_x None = Ok (Est (ws_h "" n n [Fin 0; Fin 0] 1) (RSGen tt), tt, ev)).
  { intros n rs hi Hn Hrs. rewrite (fit_built _ _ _ _ (cat_blind _ _)). change (check_array (ec_xok categorical) ws_x) with (Ok ws_x). cbn [bind].
    rewrite ws_init by auto. cbn [bind e_hmm e_rs]. rewrite ws_check. cbn [bind]. change (fit_lengths ws_x None) with (Some [1%Z]).
    destruct n as [|[|n]]; [lia|lia|]. cbn [fit_loop]. rewrite ws_still by lra. cbn [bind].
    destruct (monitor_report exact (lim (S (S n)) _) (Fin 0)) as [m1 v1] eqn:E1. injection E1 as <- <-.
    match goal with |- context [converged exact ?m] => change (converged exact m) with false end. cbn iota. rewrite ws_still by lra. cbn [bind].
    destruct (monitor_report exact _ (Fin 0)) as [m2 v2] eqn:E2. injection E2 as <- <-.
    match goal with |- context [converged exact ?m] => assert (C : converged exact m = true) end.
    { unfold converged. cbn [m_history m_iter m_n_iter m_tol lim monitor_reset h_mon ws_h app length Nat.leb Nat.sub nth]. rewrite Q. apply Bool.orb_true_r. }
    rewrite C. cbn [bind]. eexists. reflexivity. }
  assert (F1 : fit categorical cat_initc flat_rng exact (built 1 e) tt ws_x None = Ok (Est (ws_h "" 1 1 [Fin 0] 1) (RSGen tt), tt, [])).
  { rewrite (fit_built _ _ _ _ (cat_blind _ _)). change (check_array (ec_xok categorical) ws_x) with (Ok ws_x). cbn [bind]. unfold e. rewrite ws_init by auto. cbn [bind e_hmm e_rs].
    rewrite ws_check. cbn [bind]. change (fit_lengths ws_x None) with (Some [1%Z]). cbn [fit_loop]. rewrite ws_still by lra. reflexivity. }
  destruct (F 3%nat (RSSeed 0) [] ltac:(auto) ltac:(auto)) as [ev3 F3]. destruct (F 2%nat (RSGen tt) [Fin 0] ltac:(auto) ltac:(auto)) as [ev2 F2].
  exists e, ws_x. eexists _, _, _, _, _, _. split; [exact F3|]. split; [exact F1|]. split.
  - change (built 2 (no_init_params _)) with (built 2 (Est (ws_h "" 0 0 [Fin 0] 1) (RSGen tt)) : est catp unit). exact F2.
  - split; reflexivity.
Qed.
(** [n_iter = 1] twice; both calls return, and together they are [n_iter = 2]. *)
Lemma C82_applies_l : exists (e : est catp unit) x ef evf e1 ev1 h',
  fit categorical cat_initc flat_rng exact (built (1 + 1) e) tt x None = Ok (ef, tt, evf)
  /\ length (history ef) = 2%nat
  /\ fit categorical cat_initc flat_rng exact (built 1 e) tt x None = Ok (e1, tt, ev1)
  /\ check categorical exact (e_hmm e1) = Ok h'
  /\ exists e2 g2 ev2, fit categorical cat_initc flat_rng exact (built 1 (no_init_params e1)) tt x None = Ok (e2, g2, ev2)
     /\ equal_models e2 ef /\ history e1 ++ history e2 = [Fin 0; Fin 0].
Proof.
  set (e := Est (ws_h "" 0 0 [] 1) (RSSeed 0) : est catp unit).
  assert (F2 : exists ev, fit categorical cat_initc flat_rng exact (built 2 e) tt ws_x None = Ok (Est (ws_h "" 2 2 [Fin 0; Fin 0] 1) (RSGen tt), tt, ev)).
  { rewrite (fit_built _ _ _ _ (cat_blind _ _)). change (check_array (ec_xok categorical) ws_x) with (Ok ws_x). cbn [bind]. unfold e. rewrite ws_init by auto. cbn [bind e_hmm e_rs].
    rewrite ws_check. cbn [bind]. change (fit_lengths ws_x None) with (Some [1%Z]). cbn [fit_loop]. rewrite ws_still by lra. cbn [bind].
    destruct (monitor_report exact (lim 2 _) (Fin 0)) as [m1 v1] eqn:E1. injection E1 as <- <-.
    match goal with |- context [converged exact ?m] => change (converged exact m) with false end. cbn iota. rewrite ws_still by lra. cbn [bind].
    destruct (monitor_report exact _ (Fin 0)) as [m2 v2] eqn:E2. injection E2 as <- <-.
    match goal with |- context [converged exact ?m] => change (converged exact m) with true end. cbn iota. cbn [bind]. eexists. reflexivity. }
  assert (F1 : fit categorical cat_initc flat_rng exact (built 1 e) tt ws_x None = Ok (Est (ws_h "" 1 1 [Fin 0] 1) (RSGen tt), tt, [])).
  { rewrite (fit_built _ _ _ _ (cat_blind _ _)). change (check_array (ec_xok categorical) ws_x) with (Ok ws_x). cbn [bind]. unfold e. rewrite ws_init by auto. cbn [bind e_hmm e_rs].
    rewrite ws_check. cbn [bind]. change (fit_lengths ws_x None) with (Some [1%Z]). cbn [fit_loop]. rewrite ws_still by lra. reflexivity. }
  destruct F2 as [ev F2]. exists e, ws_x. eexists _, _, _, _, _. split; [exact F2|]. split; [reflexivity|]. split; [exact F1|]. split; [apply ws_check|].
  destruct (C82_categorical_returns_l flat_rng exact 1%nat 1%nat e tt ws_x None _ _ _ _ _ _ _ tt F2 F1 (or_intror (conj eq_refl (le_n 1%nat))) (ws_check "" 1%nat 1%nat [Fin 0]) I) as (e2 & g2 & w2 & F).
  exists e2, g2, w2. split; [exact F|].
  destruct (C82_categorical_l flat_rng exact 1%nat 1%nat e tt ws_x None _ _ _ F2) as (e1' & v1' & F1' & _ & _ & H). rewrite F1 in F1'. injection F1' as <- <-.
  destruct (H (le_n 2%nat)) as [_ K]. exact (K tt e2 g2 w2 I F (or_intror eq_refl)).
Qed.
