(** * Property C83: example. *)
From Verif Require Export Degen_thms Warm_ex.

(** One state, three symbols, one sample; [params] is "e" (two free parameters) or
    "st" (none). *)
Definition dgc (ps : string) : est catp unit :=
  Est (Hmm (Cfg 1 ps "" "map" "log" 0 (Fin 1) false (Scal (Fin 1)) (Scal (Fin 1))) (Some 3%nat)
      (Some (fvec 1 (fun _ => 1))) (Some (fmat 1 1 (fun _ _ => 1))) (Monitor (Fin 1) 0 false [] 0)
      (Catp (Scal (Fin 1)) (Some (fmat 1 3 (fun _ _ => 1 / 3))))) (RSSeed 0).
Lemma dgc_check ps : check categorical exact (e_hmm (dgc ps)) = Ok (e_hmm (dgc ps)).
Proof.
  assert (S1 : check_sum_1 exact (fvec 1 (fun _ => 1)) = true) by (apply ws_one; exact near1_1).
  unfold check, base_check. cbn [dgc e_hmm h_start h_trans h_cfg c_nc h_nfeat h_em h_mon ec_check categorical]. rewrite S1.
  change (rows (fmat 1 1 (fun _ _ => 1))) with [fvec 1 (fun _ => 1)]. cbn [forallb]. rewrite S1.
  rewrite (cat_check_ok _ _ _ 1 3); [reflexivity|reflexivity|auto|]. intros i _. cbn [sumn]. replace (0 + 1 / 3 + 1 / 3 + 1 / 3) with 1 by field. exact near1_1.
Qed.
Lemma C83_applies_l : exists e1 v1 e2 v2,
  fit categorical cat_initc flat_rng exact (dgc "e") tt [0%Z] None = Ok (e1, tt, v1) /\ In WDegenerate v1
  /\ fit categorical cat_initc flat_rng exact (dgc "st") tt [0%Z] None = Ok (e2, tt, v2) /\ ~ In WDegenerate v2.
Proof.
  assert (F : forall ps, ps = "e"%string \/ ps = "st"%string -> exists e v, fit categorical cat_initc flat_rng exact (dgc ps) tt [0%Z] None = Ok (e, tt, v)).
  { intros ps Hps. unfold fit. change (check_array (ec_xok categorical) [0%Z]) with (Ok [0%Z]). cbn [bind].
    assert (Hi : exists v, init cat_initc flat_rng exact (dgc ps) tt [0%Z] = Ok (Est (e_hmm (dgc ps)) (RSGen tt), tt, v)) by (destruct Hps as [->| ->]; eexists; reflexivity).
    destruct Hi as [v ->]. cbn [bind e_hmm e_rs]. unfold fit_from. rewrite dgc_check. cbn [bind]. eexists _, _. reflexivity. }
  destruct (F "e"%string) as (e1 & v1 & F1); [auto|]. destruct (F "st"%string) as (e2 & v2 & F2); [auto|]. exists e1, v1, e2, v2.
  split; [exact F1|]. destruct (C83_categorical_l _ _ _ _ _ _ _ _ _ F1) as [_ K1]. destruct (C83_categorical_l _ _ _ _ _ _ _ _ _ F2) as [_ K2].
  split; [apply K1; cbn; lia|]. split; [exact F2|]. rewrite K2. cbn. lia.
Qed.
