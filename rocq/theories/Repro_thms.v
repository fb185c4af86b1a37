(** * C75: which generator [sample] uses. *)
From Verif Require Export Sample_em_thms Noinit_thms.

Section Which.
  Context {P X St G Y : Type} (E : emclass P X St) (fp : fpmode) (rg : rng G) (gen : hmm P -> Z -> G -> res (Y * G)).

  Lemma sample_with_inv e glob n arg cs ys zs st :
    sample_with E fp rg gen e glob n arg cs = Ok (ys, zs, st) ->
    let rs := match arg with RSNone => e_rs e | _ => arg end in
    exists g g', rs_get rg rs glob = Ok g /\ sample E fp (r_rand rg) gen (e_hmm e) n cs g = Ok (ys, zs, g')
      /\ st = match arg with
              | RSNone => (RSNone, fst (rs_put rs glob g'), snd (rs_put rs glob g'))
              | _ => (fst (rs_put rs glob g'), e_rs e, snd (rs_put rs glob g'))
              end.
  Proof.
    unfold sample_with. cbv zeta. set (rs := match arg with RSNone => e_rs e | _ => arg end). clearbody rs.
    intros H. apply bind_inv in H as (q & _ & H). apply bind_inv in H as (g & Hg & H). apply bind_inv in H as ([[ys' zs'] g'] & Hs & H).
    exists g, g'. split; [exact Hg|]. destruct (rs_put rs glob g') as [rs' glob']. cbn [fst snd].
    injection H as <- <- <-. split; [exact Hs|]. destruct arg; reflexivity.
  Qed.
  Lemma sample_fitted {rand} {h : hmm P} {n cs g r} : sample E fp rand gen h n cs g = Ok r -> exists q, fitted_check E fp h = Ok q.
  Proof. intros H. unfold sample in H. apply bind_inv in H as (q & Hq & _). exists q. exact Hq. Qed.
End Which.

(** An integer, as the argument or as the attribute when there is no argument:
    neither the estimator nor the global generator changes, and the same call
    gives the same samples whatever their states. *)
Lemma C75_seed_l {P X St G Y} (E : emclass P X St) fp (rg : rng G) (gen : hmm P -> Z -> G -> res (Y * G)) h rs arg k glob n cs ys zs st :
  arg = RSSeed k \/ arg = RSNone /\ rs = RSSeed k ->
  sample_with E fp rg gen (Est h rs) glob n arg cs = Ok (ys, zs, st) ->
  st = (arg, rs, glob)
  /\ forall rs2 arg2 glob2, arg2 = RSSeed k \/ arg2 = RSNone /\ rs2 = RSSeed k ->
     sample_with E fp rg gen (Est h rs2) glob2 n arg2 cs = Ok (ys, zs, (arg2, rs2, glob2)).
Proof.
  intros Ha H. destruct (sample_with_inv _ _ _ _ _ _ _ _ _ _ _ _ H) as (g & g' & Hg & Hs & ->). cbn [e_hmm e_rs] in *.
  assert (Hk : r_seed rg k = Ok g) by (destruct Ha as [->|[-> ->]]; exact Hg). split.
  - destruct Ha as [->|[-> ->]]; reflexivity.
  - destruct (sample_fitted _ _ _ Hs) as [q Hq]. intros rs2 arg2 glob2 [->|[-> ->]]; unfold sample_with; cbn [e_rs e_hmm rs_get]; rewrite Hq; cbn [bind]; rewrite Hk; cbn [bind]; rewrite Hs; reflexivity.
Qed.

(** A generator object: it is advanced in place; samples are drawn from where the
    previous use left it. *)
Lemma C75_generator_l {P X St G Y} (E : emclass P X St) fp (rg : rng G) (gen : hmm P -> Z -> G -> res (Y * G)) h rs g glob n cs ys zs st :
  (sample_with E fp rg gen (Est h rs) glob n (RSGen g) cs = Ok (ys, zs, st)
   <-> exists g', sample E fp (r_rand rg) gen h n cs g = Ok (ys, zs, g') /\ st = (RSGen g', rs, glob))
  /\ (sample_with E fp rg gen (Est h (RSGen g)) glob n RSNone cs = Ok (ys, zs, st)
      <-> exists g', sample E fp (r_rand rg) gen h n cs g = Ok (ys, zs, g') /\ st = (RSNone, RSGen g', glob)).
Proof.
  split; (split; [intros H; destruct (sample_with_inv _ _ _ _ _ _ _ _ _ _ _ _ H) as (g0 & g' & Hg & Hs & ->);
    cbn [rs_get e_rs] in Hg; injection Hg as <-; exists g'; split; [exact Hs|reflexivity]|
    intros (g' & Hs & ->); destruct (sample_fitted _ _ _ Hs) as [q Hq]; unfold sample_with; cbn [rs_get e_rs e_hmm bind]; rewrite Hq; cbn [bind]; rewrite Hs; reflexivity]).
Qed.

(** Neither: numpy's global generator is used and advanced. *)
Lemma C75_global_l {P X St G Y} (E : emclass P X St) fp (rg : rng G) (gen : hmm P -> Z -> G -> res (Y * G)) h rs glob n cs ys zs st :
  rs = RSNone \/ rs = RSGlobal ->
  (sample_with E fp rg gen (Est h rs) glob n RSNone cs = Ok (ys, zs, st)
   <-> exists g', sample E fp (r_rand rg) gen h n cs glob = Ok (ys, zs, g') /\ st = (RSNone, rs, g')).
Proof.
  intros Hrs. split.
  - intros H. destruct (sample_with_inv _ _ _ _ _ _ _ _ _ _ _ _ H) as (g0 & g' & Hg & Hs & ->). cbn [e_rs e_hmm] in *.
    exists g'. destruct Hrs as [-> | ->]; cbn [rs_get] in Hg; injection Hg as <-; (split; [exact Hs|reflexivity]).
  - intros (g' & Hs & ->). destruct (sample_fitted _ _ _ Hs) as [q Hq]. unfold sample_with. cbn [e_rs e_hmm]. rewrite Hq. cbn [bind]. destruct Hrs as [-> | ->]; cbn [rs_get bind]; rewrite Hs; reflexivity.
Qed.

(** ** After [fit] of an estimator created with an integer. *)
(** GaussianHMM and GMMHMM keep the integer: [sample()] always gives the same. *)
Definition repeats {P X St G Y} (E : emclass P X St) fp (rg : rng G) (gen : hmm P -> Z -> G -> res (Y * G)) (e : est P G) : Prop :=
  forall glob n cs ys zs st, sample_with E fp rg gen e glob n RSNone cs = Ok (ys, zs, st) ->
  forall glob2, exists st2, sample_with E fp rg gen (Est (e_hmm e) (snd (fst st))) glob2 n RSNone cs = Ok (ys, zs, st2).
Lemma repeats_seed {P X St G Y} (E : emclass P X St) fp (rg : rng G) (gen : hmm P -> Z -> G -> res (Y * G)) e k : e_rs e = RSSeed k -> repeats E fp rg gen e.
Proof.
  intros Hk glob n cs ys zs st H glob2. destruct e as [h rs]. cbn [e_rs] in Hk. subst rs.
  destruct (C75_seed_l E fp rg gen h (RSSeed k) RSNone k glob n cs ys zs st (or_intror (conj eq_refl eq_refl)) H) as (-> & H2).
  eexists. apply H2. right. split; reflexivity.
Qed.
Lemma C75_fitted_gaussian_l {G} (rg : rng G) fp (sr : srng G) e k glob x ls e1 glob1 ev :
  e_rs e = RSSeed k -> fit gaussian gauss_initc rg fp e glob x ls = Ok (e1, glob1, ev) ->
  e_rs e1 = RSSeed k /\ repeats gaussian fp rg (gauss_gen fp sr) e1.
Proof.
  intros Hk H. pose proof (gauss_keeps_seed rg fp _ _ _ _ _ _ _ _ _ eq_refl Hk H) as Hr.
  split; [exact Hr|]. exact (repeats_seed _ _ _ _ _ _ Hr).
Qed.
Lemma kmeans_keeps {G} (gr : grng G) (rg : rng G) n x k glob l m rs g :
  kmeans gr rg n x (RSSeed k) glob = Ok (l, m, rs, g) -> rs = RSSeed k.
Proof.
  unfold kmeans. cbn [rs_get]. intros H. apply bind_inv in H as (g0 & _ & H). apply bind_inv in H as ([[l0 m0] g1] & _ & H).
  cbn [rs_put] in H. congruence.
Qed.
Lemma mix_means_keeps {G} (gr : grng G) (rg : rng G) nm labels x cent cv is k : forall glob ms rs g,
  mix_means gr rg nm labels x cent cv is (RSSeed k) glob = Ok (ms, rs, g) -> rs = RSSeed k.
Proof.
  induction is as [|i is IH]; intros glob ms rs g H; cbn [mix_means] in H; [congruence|].
  apply bind_inv in H as ([[m rs1] g1] & H1 & H). apply bind_inv in H as ([[ms2 rs2] g2] & H2 & H).
  assert (E1 : rs1 = RSSeed k).
  { destruct (Nat.leb _ _).
    - apply bind_inv in H1 as ([[[l m0] r0] g0] & Hk & H1). apply kmeans_keeps in Hk. congruence.
    - apply bind_inv in H1 as ([m0 g0] & _ & H1). congruence. }
  subst rs1. apply IH in H2. congruence.
Qed.
Lemma C75_fitted_gmm_l {G} eig (gr : grng G) (rg : rng G) fp (sr : srng G) e k glob x ls e1 glob1 ev :
  e_rs e = RSSeed k -> fit (gmm eig) (gmm_initc gr) rg fp e glob x ls = Ok (e1, glob1, ev) ->
  e_rs e1 = RSSeed k /\ repeats (gmm eig) fp rg (gmm_gen fp sr) e1.
Proof.
  intros Hk H.
  assert (Hr : e_rs e1 = RSSeed k).
  { destruct (fit_inv _ _ _ _ _ _ _ _ _ _ _ H) as (ea & va & va2 & _ & Hi & _ & -> & _).
    destruct (init_inv _ _ _ _ _ _ _ _ _ Hi) as (ba & g1 & wa & p & rs & w2 & Hb & He & -> & _). cbn [e_rs].
    destruct (base_init_inv _ _ _ _ _ _ _ _ _ Hb) as (_ & _ & _ & _ & _ & _ & (g & g' & _ & Hp) & _).
    rewrite Hk in Hp. cbn [rs_put] in Hp. injection Hp as Hp _. rewrite <- Hp in He. cbn in He. unfold gmm_init_em in He.
    apply bind_inv in He as (p1 & _ & He). apply bind_inv in He as ([[[lb ce] r1] g2] & Hk1 & He). apply kmeans_keeps in Hk1. subst r1.
    apply bind_inv in He as ([[ms r2] g3] & Hm & He). apply mix_means_keeps in Hm. subst r2.
    destruct (needs_init _ "w" _ _) as [nw w]. apply bind_inv in He as (w1 & _ & He).
    destruct (needs_init _ "m" _ _) as [nm' w3]. destruct (needs_init _ "c" _ _) as [nc' w4]. congruence. }
  split; [exact Hr|]. exact (repeats_seed _ _ _ _ _ _ Hr).
Qed.

(** The other three replace the integer by a generator, which every later use
    advances. *)
Lemma adopted {P X St G} (E : emclass P X St) (I : initclass P X G) (rg : rng G) fp e k glob x ls e1 glob1 ev :
  (forall c nf p glob p' rs' glob' ev, ic_em I fp rg c nf p x (RSSeed k) glob = Ok (p', rs', glob', ev) -> exists g, rs' = RSGen g) ->
  e_rs e = RSSeed k -> fit E I rg fp e glob x ls = Ok (e1, glob1, ev) -> exists g, e_rs e1 = RSGen g.
Proof.
  intros HA Hk H. destruct (fit_inv _ _ _ _ _ _ _ _ _ _ _ H) as (ea & va & va2 & _ & Hi & _ & -> & _).
  destruct (init_inv _ _ _ _ _ _ _ _ _ Hi) as (ba & g1 & wa & p & rs & w2 & Hb & He & -> & _). cbn [e_rs].
  destruct (base_init_inv _ _ _ _ _ _ _ _ _ Hb) as (_ & _ & _ & _ & _ & _ & (g & g' & _ & Hp) & _).
  rewrite Hk in Hp. cbn [rs_put] in Hp. injection Hp as Hp _. rewrite <- Hp in He. exact (HA _ _ _ _ _ _ _ _ He).
Qed.
Lemma C75_fitted_others_l {G} (rg : rng G) fp k :
  (forall e glob x ls e1 glob1 ev, e_rs e = RSSeed k -> fit categorical cat_initc rg fp e glob x ls = Ok (e1, glob1, ev) -> exists g, e_rs e1 = RSGen g)
  /\ (forall e glob x ls e1 glob1 ev, e_rs e = RSSeed k -> fit multinomial mult_initc rg fp e glob x ls = Ok (e1, glob1, ev) -> exists g, e_rs e1 = RSGen g)
  /\ (forall e glob x ls e1 glob1 ev, e_rs e = RSSeed k -> fit poisson pois_initc rg fp e glob x ls = Ok (e1, glob1, ev) -> exists g, e_rs e1 = RSGen g).
Proof.
  split; [|split]; intros e glob x ls e1 glob1 ev; apply adopted; intros c nf p gl p' rs' gl' w H.
  - destruct (cat_adv _ _ _ _ _ x _ _ _ _ _ _ H) as (? & g & _ & _ & ->). exists g. reflexivity.
  - destruct (mult_adv _ _ _ _ _ x _ _ _ _ _ _ H) as (? & g & _ & _ & ->). exists g. reflexivity.
  - destruct (pois_adv _ _ _ _ _ x _ _ _ _ _ _ H) as (? & g & _ & _ & ->). exists g. reflexivity.
Qed.

(** A CategoricalHMM with an integer: before [fit] every call of [sample] gives
    the same samples, after it they differ. *)
Definition toy_draws : srng nat := SRng nat (r_rand toy_rng)
  (fun m _ g => Ok (m, S g)) (fun _ g => Ok (Z.of_nat g, S g)) (fun n _ g => Ok ([n], S g)).
Lemma toy_uniform : uniform_range (s_rand toy_draws).
Proof.
  intros g. cbn [s_rand toy_draws r_rand toy_rng fst]. pose proof (pos_INR g) as Hg. split.
  - apply Rlt_le, Rinv_0_lt_compat. lra.
  - rewrite <- Rinv_1. apply Rinv_lt_contravar; lra.
Qed.
Definition seeded_cfg : cfg := Cfg 2 "" "" "viterbi" "log" 3 (Fin (/ 100)) false (Scal (Fin 1)) (Scal (Fin 1)).
Definition seeded_h m : hmm catp :=
  Hmm seeded_cfg (Some 3%nat) (Some (fvec 2 ex_pi)) (Some (fmat 2 2 ex_A)) m (Catp (Scal (Fin 1)) (Some (fmat 2 3 ex_e))).
Lemma seeded_model m : cat_model (seeded_h m) 2 3 ex_pi ex_A ex_e.
Proof.
  destruct (ex_model "log" "viterbi"). constructor; try assumption; try reflexivity. right. reflexivity.
Qed.
Lemma seeded_sample m g : (g = 0 \/ g = 2)%nat ->
  sample categorical exact (r_rand toy_rng) (cat_gen exact (r_rand toy_rng)) (seeded_h m) 1 None g
  = Ok ([if Nat.eqb g 0 then 2%nat else 1%nat], [1%Z], S (S g)).
Proof.
  intros Hg.
  apply (C74_categorical_l toy_draws (seeded_h m) 2 3 ex_pi ex_A ex_e 1 None g); try exact toy_uniform; try lia; try discriminate.
  - apply seeded_model.
  - split; [exact ex_pi_nn|exact ex_pi_sum].
  - intros i Hi. split; [intros j Hj; apply ex_A_nn; assumption|apply ex_A_sum; exact Hi].
  - intros i Hi. split; [intros j Hj; apply ex_e_nn; assumption|apply ex_e_sum; exact Hi].
  - exists 1%nat, (S g), (if Nat.eqb g 0 then 2%nat else 1%nat), (S (S g)), [], []. split; [|split; [|split; [constructor|repeat split]]].
    + exists (/ (INR g + 2)). split; [reflexivity|]. split; [lia|]. destruct Hg as [-> | ->].
      * replace (/ (INR 0 + 2)) with (1 / 2) by (cbn; field). cbn [sumn ex_pi]. lra.
      * replace (/ (INR 2 + 2)) with (1 / 4) by (cbn; field). cbn [sumn ex_pi]. lra.
    + exists (/ (INR (S g) + 2)). split; [reflexivity|]. destruct Hg as [-> | ->].
      * replace (/ (INR 1 + 2)) with (1 / 3) by (cbn; field). split; [cbn; lia|cbn [Nat.eqb sumn ex_e]; lra].
      * replace (/ (INR 3 + 2)) with (1 / 5) by (cbn; field). split; [cbn; lia|cbn [Nat.eqb sumn ex_e]; lra].
Qed.
Lemma C75_fitted_categorical_refuted_l : exists (h : hmm catp) k x e1 glob1 ev,
  fit categorical cat_initc toy_rng exact (Est h (RSSeed k)) 0%nat x None = Ok (e1, glob1, ev)
  /\ repeats categorical exact toy_rng (cat_gen exact (r_rand toy_rng)) (Est h (RSSeed k))
  /\ ~ repeats categorical exact toy_rng (cat_gen exact (r_rand toy_rng)) e1.
Proof.
  exists (seeded_h toy_mon), 0%Z, ex_x.
  assert (N : forall z, z = 1 -> near1 z) by (intros z ->; exact near1_1).
  assert (HF : exists glob1 ev m, fit categorical cat_initc toy_rng exact (Est (seeded_h toy_mon) (RSSeed 0)) 0%nat ex_x None
    = Ok (Est (seeded_h m) (RSGen 0%nat), glob1, ev)).
  { destruct (cat_fit_returns toy_rng toy_sane (Est (seeded_h toy_mon) (RSSeed 0)) 0%nat ex_x None 3) as ([[e1 glob1] ev] & Hr & _);
      cbn [e_hmm seeded_h h_cfg seeded_cfg c_nc c_impl c_params].
    - exists 0%nat. reflexivity.
    - lia.
    - reflexivity.
    - discriminate.
    - discriminate.
    - left. reflexivity.
    - repeat constructor; unfold in_range; lia.
    - left. reflexivity.
    - split; [split|]; intros v _ E; cbn [seeded_h e_hmm h_start h_trans h_em cat_prob] in E; inversion E; eexists; (split; [reflexivity|]).
      + apply N, ex_pi_sum.
      + intros i Hi. apply N, ex_A_sum, Hi.
      + intros i Hi. apply N, ex_e_sum, Hi.
    - exists glob1, ev, (h_mon (e_hmm e1)). rewrite Hr. f_equal. f_equal. f_equal.
      destruct (fit_inv _ _ _ _ _ _ _ _ _ _ _ Hr) as (ea & va & va2 & _ & Hi & Hf & Hrs & _).
      assert (Ea : ea = Est (seeded_h toy_mon) (RSGen 0%nat)) by (change (Ok (Est (seeded_h toy_mon) (RSGen 0%nat), 0%nat, []) = Ok (ea, glob1, va)) in Hi; congruence).
      subst ea. cbn [e_hmm e_rs] in *.
      destruct (C21_base_params_l categorical exact _ _ _ _ _ Hf) as (_ & Hs & Ht). specialize (Hs eq_refl). specialize (Ht eq_refl).
      pose proof (C21_categorical_l _ _ _ _ _ _ Hf eq_refl) as He.
      destruct (fit_from_keeps _ _ _ _ _ _ _ Hf) as (Kc & _ & h1 & Hc & Kn).
      rewrite (base_ok_check categorical (seeded_h toy_mon) 2 ex_pi ex_A (Some 3%nat) (h_em (seeded_h toy_mon))) in Hc.
      + injection Hc as <-. cbn [with_em h_nfeat] in Kn. destruct e1 as [[c1 n1 s1 t1 m1 p1] r1]. cbn in *. subst. reflexivity.
      + destruct (seeded_model toy_mon). constructor; assumption.
      + apply cat_check_ok; [reflexivity|right; reflexivity|]. intros i Hi'. apply N, ex_e_sum, Hi'. }
  destruct HF as (glob1 & ev & m & HF). exists (Est (seeded_h m) (RSGen 0%nat)), glob1, ev. split; [exact HF|]. split.
  - apply (repeats_seed _ _ _ _ _ 0%Z). reflexivity.
  - intros HR. specialize (HR 0%nat 1%Z None [2%nat] [1%Z] (RSNone, RSGen 2%nat, 0%nat)). destruct HR with (glob2 := 0%nat) as (st2 & H2).
    + destruct (sample_fitted _ _ _ (seeded_sample m 0%nat (or_introl eq_refl))) as [q Hq].
      unfold sample_with. cbn [e_rs e_hmm rs_get bind]. rewrite Hq. cbn [bind]. rewrite seeded_sample by (left; reflexivity). reflexivity.
    + unfold sample_with in H2. apply bind_inv in H2 as (q & _ & H2). cbn [e_rs e_hmm rs_get bind fst snd] in H2. rewrite seeded_sample in H2 by (right; reflexivity). discriminate.
Qed.

(** ** Concrete runs (C74). *)
Lemma C74_applies_l :
  sample categorical exact (s_rand toy_draws) (cat_gen exact (s_rand toy_draws)) (seeded_h toy_mon) 2 None 0%nat
  = Ok ([2%nat; 1%nat], [1%Z; 1%Z], 4%nat).
Proof.
  apply (C74_categorical_l toy_draws (seeded_h toy_mon) 2 3 ex_pi ex_A ex_e 2 None 0%nat); try exact toy_uniform; try lia; try discriminate.
  - apply seeded_model.
  - split; [exact ex_pi_nn|exact ex_pi_sum].
  - intros i Hi. split; [intros j Hj; apply ex_A_nn; assumption|apply ex_A_sum; exact Hi].
  - intros i Hi. split; [intros j Hj; apply ex_e_nn; assumption|apply ex_e_sum; exact Hi].
  - exists 1%nat, 1%nat, 2%nat, 2%nat, [1%nat], [1%nat]. split; [|split; [|split; [|repeat split]]].
    + exists (/ (INR 0 + 2)). split; [reflexivity|]. split; [lia|].
      replace (/ (INR 0 + 2)) with (1 / 2) by (cbn; field). cbn [sumn ex_pi]. lra.
    + exists (/ (INR 1 + 2)). split; [reflexivity|]. split; [lia|].
      replace (/ (INR 1 + 2)) with (1 / 3) by (cbn; field). cbn [sumn ex_e]. lra.
    + apply (mrun_cons _ _ _ _ 1%nat 2%nat (/ (INR 2 + 2)) 3%nat 1%nat 1%nat 4%nat [] [] 4%nat); [reflexivity| | |constructor].
      * split; [lia|]. replace (/ (INR 2 + 2)) with (1 / 4) by (cbn; field). cbn [sumn ex_A]. lra.
      * exists (/ (INR 3 + 2)). split; [reflexivity|]. split; [lia|].
        replace (/ (INR 3 + 2)) with (1 / 5) by (cbn; field). cbn [sumn ex_e]. lra.
Qed.
Lemma C74_gaussian_applies_l :
  sample gaussian exact (s_rand toy_draws) (gauss_gen exact toy_draws) (ex_sw "diag" "mc" 0) 2 (Some 0%Z) 0%nat
  = Ok ([fvec 2 (fun _ => 1); fvec 2 (fun _ => 1)], [0%Z; 1%Z], 3%nat).
Proof.
  assert (HM := ex_sw_model "diag" "mc" 0 (or_introl eq_refl)).
  apply (C74_gaussian_l toy_draws _ 2 2 sw_pi sw_A (fun _ _ => 1) (fun _ _ => 1) 2 (Some 0%nat) 0%nat); try exact toy_uniform; try lia; try assumption.
  - left. reflexivity.
  - split; [intros i Hi; destruct i as [|[|i]]; [| |lia]; cbn; lra|cbn; lra].
  - intros i Hi. destruct i as [|[|i]]; [| |lia]; (split; [intros j Hj; destruct j as [|[|j]]; [| |lia]; cbn; lra|cbn; lra]).
  - intros c E. injection E as <-. lia.
  - exists 0%nat, 0%nat, (fvec 2 (fun _ => 1)), 1%nat, [fvec 2 (fun _ => 1)], [1%nat].
    split; [split; reflexivity|]. split; [reflexivity|]. split; [|repeat split].
    apply (mrun_cons _ _ _ _ 0%nat 1%nat (/ (INR 1 + 2)) 2%nat 1%nat (fvec 2 (fun _ => 1)) 3%nat [] [] 3%nat); [reflexivity| |reflexivity|constructor].
    split; [lia|]. replace (/ (INR 1 + 2)) with (1 / 3) by (cbn; field). cbn [sumn sw_A]. lra.
Qed.

(** A GMMHMM that passes validation and scores data, but does not sample: its
    mixture weights sum to 1 + 2e-6. *)
Definition off2 (i k : nat) : R := / 2 + / 10 ^ 6.
Lemma off2_sum : sumn 2 (off2 0%nat) = 1 + 2 * / 10 ^ 6.
Proof. unfold off2. cbn [sumn]. lra. Qed.
Definition off_h : hmm gmmp := ex_gm 2 1 "diag" "stmcw" off2 (cmu 0) (ccv 1).
Lemma off_pos i k : 0 <= off2 i k.
Proof. unfold off2. lra. Qed.
Lemma off_model : gmm_model eig1 off_h 1 2 1 "diag" (fun _ => 1) (fun _ _ => 1) off2 (cmu 0) (ccv 1).
Proof.
  constructor; try reflexivity; try lia; try discriminate.
  - apply (ex_gm_base 2 1 "diag"); try lia.
  - left. reflexivity.
  - intros i k _ _. apply off_pos.
  - intros i Hi. replace i with 0%nat by lia. rewrite off2_sum. unfold near1. rewrite Rabs_right; lra.
  - intros _ idx _. unfold ccv. lra.
Qed.
Lemma C74_gmm_weights_refuted_l : exists (h : hmm gmmp) x s,
  score (gmm eig1) exact h x None = Ok (Fin s)
  /\ forall G (sr : srng G) n g, sample (gmm eig1) exact (s_rand sr) (gmm_gen exact sr) h n (Some 0%Z) g
     = Err (ValueError "probabilities do not sum to 1").
Proof.
  assert (HF : gmm_flat off_h) by (repeat split). pose proof (gmm_flat_hyper off_h 1 2 1 "diag" HF) as HH.
  pose proof (C02_gmm_ready_l _ _ _ _ _ _ _ _ _ _ _ _ _ _ _ _ off_model HH) as RD.
  destruct (C02_score_is_log_likelihood_l _ _ _ _ _ _ _ [v1 0] RD eq_refl ltac:(discriminate) ltac:(repeat constructor; apply v1_ok)) as [Hs _].
  assert (Hb : 0 < mixb 2 1 "diag" off2 (cmu 0) (ccv 1) (v1 0) 0%nat).
  { apply (mixb_pos 1 2 1 "diag"); try lia.
    - exact (model_cov_ok _ _ _ _ _ _ _ _ _ _ _ off_model).
    - intros a b _ _. apply off_pos.
    - intros a Ha. replace a with 0%nat by lia. rewrite off2_sum. lra. }
  rewrite xln_pos in Hs.
  2:{ unfold mixb in Hb. cbn [all_paths length seq flat_map map app sumL fold_right]. unfold seq_joint, joint, obsB.
      cbn [nth length]. cbn [prodn Nat.sub map nth]. lra. }
  exists off_h, [v1 0]. eexists. split; [exact Hs|]. intros G sr n g.
  refine (proj2 (C74_gmm_weights_l sr eig1 off_h 1 2 1 "diag" _ _ _ _ _ _ _ _ _ _ n 0%nat g off_model HH ltac:(lia) _)).
  rewrite off2_sum, Rabs_right; lra.
Qed.
