(** * Property C84: counterexamples and examples. *)
From Verif Require Export Query_first Degen_ex Fresh_gmm.

(** One state, [n_iter] 0; [lambdas_] has one column. *)
Definition qy_c (ip : string) : cfg := Cfg 1 "" ip "map" "log" 0 (Fin 1) false (Scal (Fin 1)) (Scal (Fin 1)).
Definition qy_h {P} (ip : string) (nf : option nat) (p : P) : hmm P :=
  Hmm (qy_c ip) nf (Some (fvec 1 (fun _ => 1))) (Some (fmat 1 1 (fun _ _ => 1))) (Monitor (Fin 1) 0 false [] 0) p.
Lemma qy_check {P X St} (E : emclass P X St) ip nf p nf' p' :
  ec_check E exact (qy_c ip) nf p = Ok (nf', p') -> check E exact (qy_h ip nf p) = Ok (qy_h ip nf' p').
Proof.
  intros H. assert (S1 : check_sum_1 exact (fvec 1 (fun _ => 1)) = true) by (apply ws_one; exact near1_1).
  unfold check. cbn [qy_h h_start h_trans h_cfg h_nfeat h_em h_mon].
  assert (B : base_check exact (c_nc (qy_c ip)) (fvec 1 (fun _ => 1)) (fmat 1 1 (fun _ _ => 1)) = Ok tt).
  { unfold base_check. rewrite S1. change (rows (fmat 1 1 (fun _ _ => 1))) with [fvec 1 (fun _ => 1)]. cbn [forallb]. rewrite S1. reflexivity. }
  rewrite B. cbn [bind]. rewrite H. reflexivity.
Qed.
Definition qy_pois (n : nat) : poisp := Poisp (Scal (Fin 0)) (Scal (Fin 0)) (Some (mtab 1 n (fun _ _ => Fin 1))).
(** Scoring an estimator whose parameters were assigned: [fit] on data with another
    number of columns returns without the call and raises after it. *)
Lemma C84_first_refuted_l : exists (e : est poisp unit) x e' ev ex,
  h_nfeat (e_hmm e) = None
  /\ (exists h, check poisson exact (e_hmm e) = Ok h)
  /\ fit poisson pois_initc flat_rng exact e tt x None = Ok (e', tt, ev)
  /\ fit poisson pois_initc flat_rng exact (queried poisson pois_left exact e) tt x None = Err ex.
Proof.
  set (e := Est (qy_h "l" None (qy_pois 1)) (RSSeed 0) : est poisp unit).
  assert (Hc : check poisson exact (e_hmm e) = Ok (qy_h "l" (Some 1%nat) (qy_pois 1))) by (apply qy_check; reflexivity).
  destruct (proj2 (C84_poisson_first_l flat_rng exact e tt [[1; 1]]%Z None) _ _ Hc eq_refl eq_refl) as [ex Hx]; [cbn; lia|].
  assert (Hf : exists ev, fit poisson pois_initc flat_rng exact e tt [[1; 1]]%Z None = Ok (Est (qy_h "l" (Some 2%nat) (qy_pois 2)) (RSGen tt), tt, ev)).
  { unfold fit. change (check_array (ec_xok poisson) [[1; 1]]%Z) with (Ok [[1; 1]]%Z). cbn [bind].
    assert (Hi : exists v, init pois_initc flat_rng exact e tt [[1; 1]]%Z = Ok (Est (qy_h "l" (Some 2%nat) (qy_pois 2)) (RSGen tt), tt, v)) by (eexists; reflexivity).
    destruct Hi as [v ->]. cbn [bind e_hmm e_rs]. unfold fit_from. rewrite (qy_check poisson "l" (Some 2%nat) (qy_pois 2) (Some 2%nat) (qy_pois 2)) by reflexivity. cbn [bind]. eexists. reflexivity. }
  destruct Hf as [ev Hf]. exists e, [[1; 1]]%Z. eexists _, ev, ex. split; [reflexivity|]. split; [eexists; exact Hc|]. split; [exact Hf|exact Hx].
Qed.

(** GaussianHMM, covariances assigned once, [means_] from KMeans at every [fit]. *)
Definition qy_ga (k : nat) (b : R) : gaussp :=
  Gaussp "diag" (Fin 1) (Scal (Fin 0)) (Scal (Fin 0)) (Scal (Fin 0)) (Scal (Fin 1)) (Some (fmat 1 k (fun _ _ => b))) (Some (CV2 (fmat 1 1 (fun _ _ => 1)))).
Definition qy_x : list vec := [[Fin 5]; [Fin 7]].
Definition assign_means (m : mat) (e : est gaussp unit) : est gaussp unit :=
  let h := e_hmm e in
  Est (Hmm (h_cfg h) (h_nfeat h) (h_start h) (h_trans h) (h_mon h) (ga_set (h_em h) (Some m) (ga_covars (h_em h)))) (e_rs e).
Lemma qy_ga_fit k b nf rs : nf = None \/ nf = Some 1%nat -> rs = RSSeed 0 \/ rs = RSGen tt -> exists v,
  fit gaussian gauss_initc flat_rng exact (Est (qy_h "m" nf (qy_ga k b)) rs) tt qy_x None = Ok (Est (qy_h "m" (Some 1%nat) (qy_ga 1 0)) rs, tt, v).
Proof.
  intros Hn Hr. unfold fit. change (check_array (ec_xok gaussian) qy_x) with (Ok qy_x). cbn [bind].
  assert (Hi : exists v, init gauss_initc flat_rng exact (Est (qy_h "m" nf (qy_ga k b)) rs) tt qy_x = Ok (Est (qy_h "m" (Some 1%nat) (qy_ga 1 0)) rs, tt, v)).
  { destruct Hn as [->| ->], Hr as [->| ->]; eexists; reflexivity. }
  destruct Hi as [v ->]. cbn [bind e_hmm e_rs]. unfold fit_from. rewrite (qy_check gaussian "m" (Some 1%nat) (qy_ga 1 0) (Some 1%nat) (qy_ga 1 0)) by reflexivity. cbn [bind]. eexists. reflexivity.
Qed.
(** After [fit], [means_] is replaced by an array with another number of columns:
    [score] overwrites [n_features] with it, and the next [fit] on the old data
    raises; without the call of [score] it returns. *)
Lemma C84_assigned_refuted_l : exists (e : est gaussp unit) x m e1 v1 e2 v2 ex,
  fit gaussian gauss_initc flat_rng exact e tt x None = Ok (e1, tt, v1)
  /\ fit gaussian gauss_initc flat_rng exact (assign_means m e1) tt x None = Ok (e2, tt, v2)
  /\ fit gaussian gauss_initc flat_rng exact (queried gaussian gauss_left exact (assign_means m e1)) tt x None = Err ex.
Proof.
  destruct (qy_ga_fit 1 3 None (RSSeed 0)) as [v1 H1]; [auto|auto|]. destruct (qy_ga_fit 2 4 (Some 1%nat) (RSSeed 0)) as [v2 H2]; [auto|auto|].
  set (e1 := Est (qy_h "m" (Some 1%nat) (qy_ga 1 0)) (RSSeed 0) : est gaussp unit). set (m := fmat 1 2 (fun _ _ => 4)).
  assert (Hc : check gaussian exact (e_hmm (assign_means m e1)) = Ok (qy_h "m" (Some 2%nat) (qy_ga 2 4))) by (apply (qy_check gaussian "m" (Some 1%nat) (qy_ga 2 4)); reflexivity).
  destruct (proj2 (C84_gaussian_first_l flat_rng exact (assign_means m e1) tt qy_x None) _ _ Hc eq_refl) as [ex Hx]; [cbn; lia|].
  exists (Est (qy_h "m" None (qy_ga 1 3)) (RSSeed 0)), qy_x, m, e1, v1. eexists _, v2, ex. split; [exact H1|]. split; [exact H2|exact Hx].
Qed.

(** ** Examples: new estimators after their first [fit]. *)
Lemma C84_applies_l : exists ec ep em ev1 ev2 ev3,
  fit categorical cat_initc flat_rng exact (Est fr_cat (RSSeed 0)) tt fr_x (as_lengths [3%nat]) = Ok (ec, tt, ev1)
  /\ queried categorical cat_left exact ec = ec
  /\ fit poisson pois_initc flat_rng exact (Est fr_pois (RSSeed 0)) tt fr_px (as_lengths [2%nat]) = Ok (ep, tt, ev2)
  /\ queried poisson pois_left exact ep = ep
  /\ fit multinomial mult_initc flat_rng exact (Est fr_mult (RSSeed 0)) tt fr_px (as_lengths [2%nat]) = Ok (em, tt, ev3)
  /\ queried multinomial mult_left exact em = em.
Proof.
  destruct C76_categorical_applies_l as (ec & v1 & H1 & _). destruct C76_poisson_applies_l as (ep & v2 & H2 & _). destruct C76_multinomial_applies_l as (em & v3 & H3 & _).
  exists ec, ep, em, v1, v2, v3. split; [exact H1|]. split; [apply (proj2 (C84_categorical_l flat_rng exact) _ _ _ _ _ _ _ H1)|].
  split; [exact H2|]. split; [apply (proj2 (C84_poisson_l flat_rng exact) _ _ _ _ _ _ _ H2)|].
  split; [exact H3|]. apply (proj2 (C84_multinomial_l flat_rng exact) _ _ _ _ _ _ _ H3).
Qed.
Lemma C84_gaussian_applies_l : exists e1 v1 e2 v2,
  fit gaussian gauss_initc flat_rng exact (Est (qy_h "m" None (qy_ga 1 3)) (RSSeed 0)) tt qy_x None = Ok (e1, tt, v1)
  /\ fit gaussian gauss_initc flat_rng exact (queried gaussian gauss_left exact e1) tt qy_x None = Ok (e2, tt, v2)
  /\ fit gaussian gauss_initc flat_rng exact e1 tt qy_x None = Ok (e2, tt, v2).
Proof.
  destruct (qy_ga_fit 1 3 None (RSSeed 0)) as [v1 H1]; [auto|auto|]. destruct (qy_ga_fit 1 0 (Some 1%nat) (RSSeed 0)) as [v2 H2]; [auto|auto|].
  eexists _, v1, _, v2. split; [exact H1|].
  rewrite (proj2 (C84_gaussian_l flat_rng exact) (Est (qy_h "m" None (qy_ga 1 3)) (RSSeed 0)) _ _ _ _ _ _ (Fin 0) (Fin 0) eq_refl eq_refl H1). split; exact H2.
Qed.
Lemma C84_gmm_applies_l : forall ty, is_type covariance_types ty = true -> exists e' ev,
  fit (gmm eig1) (gmm_initc flat_grng) flat_rng exact (Est (fr_gmm ty) (RSSeed 0)) tt cv_x (as_lengths [2%nat]) = Ok (e', tt, ev)
  /\ queried (gmm eig1) (gmm_left flat_grng) exact e' = e'.
Proof.
  intros ty Hty. destruct (C76_gmm_applies_l ty Hty) as (e' & ev & H & _). exists e', ev. split; [exact H|].
  apply (proj2 (C84_gmm_l eig1 flat_grng flat_rng exact) _ _ _ _ _ _ _ H).
Qed.
