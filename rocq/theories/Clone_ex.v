(** * Properties C76, C90: estimators built with default arguments; clones that
    train differently; examples. *)
From Verif Require Export Clone_thms Fresh_gmm.

(** ** C76 for the constructors with their defaults. *)
Lemma C76_default_categorical_l {G} (rg : rng G) rs glob x ls nc :
  (0 < nc)%nat -> valid_rs rg rs -> pos_dirichlet rg -> pos_rand rg -> good_data (fun k => (0 <= k)%Z) ls x ->
  exists e' glob' ev, fit categorical cat_initc rg exact (default_categorical nc rs) glob x (as_lengths ls) = Ok (e', glob', ev)
    /\ trained_ok categorical nc (fun o => In o x) ls x (e_hmm e').
Proof.
  intros Hnc Hrs Hd Hr Hx. assert (Hne : x <> []) by apply (nonempty_data _ _ _ Hx).
  pose proof (zmax_in x Hne) as Hm. pose proof (proj1 Hx) as F. rewrite Forall_forall in F. pose proof (F _ Hm) as H0. cbn beta in H0.
  apply (C76_categorical_l rg (default_categorical nc rs) glob x ls (Z.to_nat (zmax x + 1))); try assumption.
  - split; [split; reflexivity|]. split; [reflexivity|]. split; [exact Hrs|]. split; [exact Hnc|]. split; [exact fr_letters|].
    split; [right; split; [reflexivity|lia]|]. split; [repeat split|reflexivity].
  - destruct Hx as (X1 & X2). split; [|exact X2]. rewrite Forall_forall. intros k Hk. unfold sym_ok.
    pose proof (F _ Hk). pose proof (Init_fit.zmax_ge x k Hk). cbn beta in *. lia.
Qed.
Lemma C76_default_poisson_l {G} (rg : rng G) rs glob x ls nc nf :
  (0 < nc)%nat -> valid_rs rg rs -> pos_dirichlet rg -> pos_gamma rg -> good_data (counts_ok nf) ls x ->
  (exists a b, In a (concat x) /\ In b (concat x) /\ a <> b) ->
  exists e' glob' ev, fit poisson pois_initc rg exact (default_poisson nc rs) glob x (as_lengths ls) = Ok (e', glob', ev)
    /\ trained_ok poisson nc (fun o => In o x) ls x (e_hmm e').
Proof.
  intros Hnc Hrs Hd Hr Hx Hab. apply (C76_poisson_l rg (default_poisson nc rs) glob x ls nf 0 0); try assumption.
  split; [split; reflexivity|]. split; [reflexivity|]. split; [exact Hrs|]. split; [exact Hnc|]. split; [exact fr_pletters|].
  split; [left; reflexivity|]. split; [repeat split|]. repeat (split; [reflexivity|]). split; [lra|]. split; [lra|reflexivity].
Qed.
Lemma C76_default_multinomial_l {G} (rg : rng G) rs glob x ls nc nf :
  (0 < nc)%nat -> (0 < nf)%nat -> valid_rs rg rs -> pos_dirichlet rg -> pos_rand rg -> good_data (trials_ok nf) ls x ->
  exists e' glob' ev, fit multinomial mult_initc rg exact (default_multinomial nc rs) glob x (as_lengths ls) = Ok (e', glob', ev)
    /\ trained_ok multinomial nc (fun o => In o x) ls x (e_hmm e').
Proof.
  intros Hnc Hnf Hrs Hd Hr Hx. apply (C76_multinomial_l rg (default_multinomial nc rs) glob x ls nf); try assumption; [|exact I].
  split; [split; reflexivity|]. split; [reflexivity|]. split; [reflexivity|]. split; [exact Hrs|]. split; [exact Hnc|]. split; [exact fr_letters|].
  split; [left; reflexivity|]. split; [repeat split|reflexivity].
Qed.
Lemma C76_default_gaussian_l {G} (rg : rng G) rs glob x ls nc nf :
  (0 < nc)%nat -> (0 < nf)%nat -> valid_rs rg rs -> pos_dirichlet rg -> good_kmeans rg nc nf x ->
  good_data (finite_row nf) ls x -> (2 <= length x)%nat ->
  exists e' glob' ev, fit gaussian gauss_initc rg exact (default_gaussian nc rs) glob x (as_lengths ls) = Ok (e', glob', ev)
    /\ trained_ok gaussian nc (finite_row nf) ls x (e_hmm e').
Proof.
  intros Hnc Hnf Hrs Hd Hk Hx H2. apply (C76_trains_l rg (default_gaussian nc rs) glob x ls nf (/ 100) (/ 1000)); try assumption.
  - split; [repeat split|]. split; [exact Hrs|]. split; [exact Hnc|]. split; [exact Hnf|]. split; [exact (cv_letters "diag" 2)|]. split; [left; reflexivity|].
    split; [reflexivity|]. split; [reflexivity|]. split; [lra|]. split; [split; reflexivity|]. split; [repeat split|]. split; [lra|reflexivity].
  - intros [H|H]; discriminate.
Qed.
Lemma C76_default_gmm_l {G} (gr : grng G) (rg : rng G) eig rs glob x ls nc nm nf :
  (0 < nc)%nat -> (0 < nm)%nat -> (0 < nf)%nat -> valid_rs rg rs -> pos_dirichlet rg -> good_grng gr nf -> good_eig eig ->
  good_data (finite_row nf) ls x -> (2 <= length x)%nat -> (nc <= length x)%nat ->
  exists e' glob' ev, fit (gmm eig) (gmm_initc gr) rg exact (default_gmm nc nm rs) glob x (as_lengths ls) = Ok (e', glob', ev)
    /\ trained_ok (gmm eig) nc (finite_row nf) ls x (e_hmm e').
Proof.
  intros Hnc Hnm Hnf Hrs Hd Hg He Hx H2 H3. apply (C76_gmm_l gr rg eig (default_gmm nc nm rs) glob x ls nm nf (/ 1000)); try assumption.
  - unfold new_gmm. cbn. repeat (split; [reflexivity|]). split; [exact Hrs|]. split; [exact Hnc|]. split; [exact Hnm|]. split; [exact Hnf|].
    split.
    { intros a. cbn [has]. cbn [In]. intros H. repeat (apply Bool.orb_true_iff in H as [H|H]; [apply Ascii.eqb_eq in H; auto 10|]).
      all: try discriminate; try (apply Ascii.eqb_eq in H; auto 10). }
    split; [left; reflexivity|]. split; [reflexivity|]. split; [reflexivity|]. split; [reflexivity|]. split; [lra|].
    split; [split; reflexivity|]. split; [|reflexivity]. repeat split.
  - intros E. discriminate.
Qed.
(** VariationalCategoricalHMM with its defaults can be trained. *)
Lemma C62_default_l {G} (rg : rng G) rs glob x ls nc :
  (0 < nc)%nat -> valid_rs rg rs -> pos_dirichlet rg -> good_data (fun k => (0 <= k)%Z) ls x ->
  exists e' glob' ev (vs : list R), vfit vcategorical vcat_initc rg exact (default_vcategorical nc rs) glob x (as_lengths ls) = Ok (e', glob', ev)
    /\ v_history (ve_v e') = map Fin vs /\ (forall i j, (i <= j)%nat -> (j < length vs)%nat -> nth i vs 0 <= nth j vs 0).
Proof.
  intros Hnc Hrs Hd Hx. assert (Hne : x <> []) by apply (nonempty_data _ _ _ Hx).
  pose proof (zmax_in x Hne) as Hm. pose proof (proj1 Hx) as F. rewrite Forall_forall in F. pose proof (F _ Hm) as H0. cbn beta in H0.
  assert (HI : forall k, (0 < k)%nat -> 0 < / INR k) by (intros k Hk; apply Rinv_0_lt_compat, lt_0_INR, Hk).
  set (n := Z.to_nat (zmax x + 1)). assert (Hn : (0 < n)%nat) by (unfold n; lia).
  destruct (C62_fit_returns_l rg (default_vcategorical nc rs) glob x ls n (/ INR nc) (/ INR nc) (/ INR n)) as (e' & g' & ev & p & q & Hf & _ & _ & _ & _ & vs & V1 & V2);
    try assumption; try reflexivity; try (apply scalar_default; auto).
  - exact fr_letters.
  - repeat split.
  - destruct Hx as (X1 & X2). split; [|exact X2]. rewrite Forall_forall. intros k Hk. unfold sym_ok, n.
    pose proof (F _ Hk). pose proof (Init_fit.zmax_ge x k Hk). cbn beta in *. lia.
  - right. split; [reflexivity|]. unfold n. lia.
  - exists e', g', ev, vs. split; [exact Hf|]. split; [exact V1|exact V2].
Qed.

(** ** CategoricalHMM(2, random_state=0): the clone of the trained estimator starts
    from other values, because the seed was replaced by a generator. *)
Lemma zero_iterations {P X St} (E : emclass P X St) fp h x ls h' ev : c_n_iter (h_cfg h) = 0%nat ->
  fit_from E fp h x ls = Ok (h', ev) -> h_start h' = h_start h.
Proof.
  intros Hn Hf. unfold fit_from in Hf. apply bind_inv in Hf as (h1 & Ec & Hf). destruct (check_keeps E fp _ _ Ec) as (C1 & C2 & _).
  rewrite C1, Hn in Hf. cbn [fit_loop bind] in Hf. injection Hf as <- _. exact C2.
Qed.
Definition toy_x : list Z := [0; 1; 0]%Z.
Lemma toy_x_range : Forall (in_range 2) toy_x.
Proof. repeat constructor; unfold in_range; lia. Qed.
Lemma toy_clone_fit rs : valid_rs toy_rng rs -> exists e1 g1 v1 ea ga va,
  let e := CategoricalHMM (toy_cfg "ste") rs (Scal (Fin 1)) (Some 2%nat) in
  fit categorical cat_initc toy_rng exact e 0%nat toy_x (as_lengths [3%nat]) = Ok (e1, g1, v1)
  /\ init cat_initc toy_rng exact e 0%nat toy_x = Ok (ea, ga, va)
  /\ h_start (e_hmm e1) = h_start (e_hmm ea) /\ e_rs e1 = e_rs ea /\ h_nfeat (e_hmm e1) = Some 2%nat.
Proof.
  intros Hrs. destruct (cat_fit_returns toy_rng toy_sane (CategoricalHMM (toy_cfg "ste") rs (Scal (Fin 1)) (Some 2%nat)) 0%nat toy_x (as_lengths [3%nat]) 2)
    as ([[e1 g1] v1] & H1 & N1).
  - exact Hrs.
  - cbn. lia.
  - reflexivity.
  - exact letters_ste.
  - discriminate.
  - right. exists [3%nat]. split; [reflexivity|]. split; [discriminate|]. split; repeat constructor.
  - exact toy_x_range.
  - left. reflexivity.
  - repeat split; discriminate.
  - destruct (fit_inv _ _ _ _ _ _ _ _ _ _ _ H1) as (ea & va & va2 & _ & Hi & Hff & Hr & _).
    exists e1, g1, v1, ea, g1, va. cbv zeta. split; [exact H1|]. split; [exact Hi|]. split; [|split; [exact Hr|exact N1]].
    apply (zero_iterations _ _ _ _ _ _ _) with (2 := Hff). rewrite (proj1 (init_spec _ _ _ _ _ _ _ _ _ Hi)). reflexivity.
Qed.
Lemma C90_seed_refuted_l : exists (c : cfg) (e1 : est catp nat) g1 ev1 e2 g2 ev2,
  let e := CategoricalHMM c (RSSeed 0) (Scal (Fin 1)) (Some 2%nat) in
  fit categorical cat_initc toy_rng exact e 0%nat toy_x (as_lengths [3%nat]) = Ok (e1, g1, ev1)
  /\ fit categorical cat_initc toy_rng exact (clone_categorical e1 0%nat) 0%nat toy_x (as_lengths [3%nat]) = Ok (e2, g2, ev2)
  /\ h_start (e_hmm e2) <> h_start (e_hmm e1).
Proof.
  destruct (toy_clone_fit (RSSeed 0)) as (e1 & g1 & v1 & ea & ga & va & H1 & Hi & Hs & Hr & Hn); [exists 0%nat; reflexivity|].
  assert (Ia : exists eb gb vb, init cat_initc toy_rng exact (CategoricalHMM (toy_cfg "ste") (RSSeed 0) (Scal (Fin 1)) (Some 2%nat)) 0%nat toy_x = Ok (eb, gb, vb)
     /\ h_start (e_hmm eb) = Some [Fin (/ INR 2); Fin (/ INR 2)] /\ e_rs eb = RSGen 4%nat) by (do 3 eexists; split; [reflexivity|split; reflexivity]).
  destruct Ia as (eb & gb & vb & Ib & Sb & Rb). rewrite Hi in Ib. injection Ib as <- <- <-.
  destruct (C79_categorical_partial_l _ _ _ _ _ _ _ _ _ H1) as (A1 & A2 & _).
  assert (Ec : clone_categorical e1 0%nat = CategoricalHMM (toy_cfg "ste") (RSGen 4%nat) (Scal (Fin 1)) (Some 2%nat))
    by (unfold clone_categorical; rewrite A1, A2, Hn, Hr, Rb; reflexivity).
  destruct (toy_clone_fit (RSGen 4%nat)) as (e2 & g2 & v2 & ec & gc & vc & H2 & Hi2 & Hs2 & _); [exact I|].
  exists (toy_cfg "ste"), e1, g1, v1, e2, g2, v2. cbv zeta. rewrite Ec. split; [exact H1|]. split; [exact H2|].
  assert (Id : exists ed gd vd, init cat_initc toy_rng exact (CategoricalHMM (toy_cfg "ste") (RSGen 4%nat) (Scal (Fin 1)) (Some 2%nat)) 0%nat toy_x = Ok (ed, gd, vd)
     /\ h_start (e_hmm ed) = Some [Fin 1; Fin 0]) by (do 3 eexists; split; reflexivity).
  destruct Id as (ed & gd & vd & Id & Sd). rewrite Hi2 in Id. injection Id as <- <- <-.
  rewrite Hs2, Hs, Sb, Sd. intros E. injection E as E _. cbn in E. lra.
Qed.

(** ** CategoricalHMM(2): [n_features], found by [fit], is an argument of the clone,
    which refuses data that the original accepts. *)
Definition cl_y : list Z := [0; 3]%Z.
Lemma cl_data : good_data (fun k => (0 <= k)%Z) [3%nat] fr_x /\ good_data (fun k => (0 <= k)%Z) [2%nat] cl_y.
Proof. split; (split; [repeat constructor; lia|]; split; [discriminate|]; split; repeat constructor). Qed.
Lemma C90_n_features_refuted_l : exists (e1 : est catp unit) ev1 e2 ev2,
  let e := default_categorical 2 (RSSeed 0) in
  fit categorical cat_initc flat_rng exact e tt fr_x (as_lengths [3%nat]) = Ok (e1, tt, ev1)
  /\ fit categorical cat_initc flat_rng exact e tt cl_y (as_lengths [2%nat]) = Ok (e2, tt, ev2)
  /\ fit categorical cat_initc flat_rng exact (clone_categorical e1 tt) tt cl_y (as_lengths [2%nat]) = Err (ValueError "Largest symbol").
Proof.
  destruct (C76_default_categorical_l flat_rng (RSSeed 0) tt fr_x [3%nat] 2) as (e1 & [] & v1 & H1 & _);
    [lia|exists tt; reflexivity|exact flat_pos|exact flat_rand|apply cl_data|].
  destruct (C76_default_categorical_l flat_rng (RSSeed 0) tt cl_y [2%nat] 2) as (e2 & [] & v2 & H2 & _);
    [lia|exists tt; reflexivity|exact flat_pos|exact flat_rand|apply cl_data|].
  exists e1, v1, e2, v2. cbv zeta. split; [exact H1|]. split; [exact H2|].
  destruct (fit_args categorical cat_initc flat_rng exact (fun _ => tt)) with (4 := H1) as (A1 & nf1 & p1 & p2 & p3 & Hn & _ & Hc); try reflexivity.
  cbn in Hn. injection Hn as <- _. cbn [ec_check categorical] in Hc. unfold cat_check in Hc. all_ok Hc. injection Hc as Hc _.
  unfold clone_categorical. rewrite A1, <- Hc. reflexivity.
Qed.

(** ** MultinomialHMM(2): [n_trials], the totals of the rows [fit] was given, is an
    argument of the clone. *)
Definition cl_my : list (list Z) := [[1; 1]; [2; 0]; [0; 3]]%Z.
Lemma cl_my_ok : good_data (trials_ok 2) [3%nat] cl_my.
Proof. split; [repeat constructor; try lia|]. repeat split; [discriminate|repeat constructor]. Qed.
Lemma C90_n_trials_refuted_l : exists (e1 : est mulp unit) ev1 e2 ev2 w,
  let e := default_multinomial 2 (RSSeed 0) in
  fit multinomial mult_initc flat_rng exact e tt fr_px (as_lengths [2%nat]) = Ok (e1, tt, ev1)
  /\ fit multinomial mult_initc flat_rng exact e tt cl_my (as_lengths [3%nat]) = Ok (e2, tt, ev2)
  /\ fit multinomial mult_initc flat_rng exact (clone_multinomial e1 tt) tt cl_my (as_lengths [3%nat]) = Err (ValueError w).
Proof.
  destruct (C76_default_multinomial_l flat_rng (RSSeed 0) tt fr_px [2%nat] 2 2) as (e1 & [] & v1 & H1 & _);
    [lia|lia|exists tt; reflexivity|exact flat_pos|exact flat_rand|exact fr_px_ok|].
  destruct (C76_default_multinomial_l flat_rng (RSSeed 0) tt cl_my [3%nat] 2 2) as (e2 & [] & v2 & H2 & _);
    [lia|lia|exists tt; reflexivity|exact flat_pos|exact flat_rand|exact cl_my_ok|].
  eexists e1, v1, e2, v2, _. cbv zeta. split; [exact H1|]. split; [exact H2|].
  destruct (C79_multinomial_partial_l _ _ _ _ _ _ _ _ _ H1) as (A1 & A2). unfold clone_multinomial. rewrite A1, A2. reflexivity.
Qed.

(** ** GMMHMM(1, n_mix=1): the priors of the clone have the shapes for two features. *)
Definition cl_gy : list vec := [[Fin 0]; [Fin 1]].
Lemma cl_gy_ok : good_data (finite_row 1) [2%nat] cl_gy.
Proof. split; [repeat constructor; eexists; reflexivity|]. split; [discriminate|]. split; repeat constructor. Qed.
Lemma C90_gmm_refuted_l : exists (e1 : est gmmp unit) ev1 e2 ev2 w,
  let e := default_gmm 1 1 (RSSeed 0) in
  fit (gmm eig1) (gmm_initc flat_grng) flat_rng exact e tt cv_x (as_lengths [2%nat]) = Ok (e1, tt, ev1)
  /\ fit (gmm eig1) (gmm_initc flat_grng) flat_rng exact e tt cl_gy (as_lengths [2%nat]) = Ok (e2, tt, ev2)
  /\ fit (gmm eig1) (gmm_initc flat_grng) flat_rng exact (clone_gmm e1 tt) tt cl_gy (as_lengths [2%nat]) = Err (ValueError w).
Proof.
  destruct (C76_default_gmm_l flat_grng flat_rng eig1 (RSSeed 0) tt cv_x [2%nat] 1 1 2) as (e1 & [] & v1 & H1 & _);
    [lia|lia|lia|exists tt; reflexivity|exact flat_pos|apply flat_grng_good|exact eig1_good| |cbn; lia|cbn; lia|].
  { split; [exact cv_x_ok|]. repeat split; [discriminate|repeat constructor]. }
  destruct (C76_default_gmm_l flat_grng flat_rng eig1 (RSSeed 0) tt cl_gy [2%nat] 1 1 1) as (e2 & [] & v2 & H2 & _);
    [lia|lia|lia|exists tt; reflexivity|exact flat_pos|apply flat_grng_good|exact eig1_good|exact cl_gy_ok|cbn; lia|cbn; lia|].
  destruct (C79_gmm_partial_l _ _ _ _ _ _ _ _ _ _ _ H1) as (A1 & A2 & [(K1 & K2 & K3) W M N (a & Pa & Qa) (b & Pb & Qb)]).
  eexists e1, v1, e2, v2, _. cbv zeta. split; [exact H1|]. split; [exact H2|].
  unfold broadcasts in *. cbn in K1, K2, W, M, N, Qa, Qb, A1, A2. injection W as W. injection M as M. injection N as N. injection Qa as Qa. injection Qb as Qb.
  unfold clone_gmm. rewrite A1, A2, K1, K2, <- W, <- M, <- N, Pa, <- Qa, Pb, <- Qb. cbn. reflexivity.
Qed.

(** ** VariationalCategoricalHMM(2): as CategoricalHMM. *)
Lemma C90_vcategorical_refuted_l : exists (e1 : vest vcatp unit) ev1 e2 ev2,
  let e := default_vcategorical 2 (RSSeed 0) in
  vfit vcategorical vcat_initc flat_rng exact e tt fr_x (as_lengths [3%nat]) = Ok (e1, tt, ev1)
  /\ vfit vcategorical vcat_initc flat_rng exact e tt cl_y (as_lengths [2%nat]) = Ok (e2, tt, ev2)
  /\ vfit vcategorical vcat_initc flat_rng exact (clone_vcategorical e1 tt) tt cl_y (as_lengths [2%nat]) = Err (ValueError "Largest symbol").
Proof.
  destruct (C62_default_l flat_rng (RSSeed 0) tt fr_x [3%nat] 2) as (e1 & [] & v1 & vs1 & H1 & _); [lia|exists tt; reflexivity|exact flat_pos|apply cl_data|].
  destruct (C62_default_l flat_rng (RSSeed 0) tt cl_y [2%nat] 2) as (e2 & [] & v2 & vs2 & H2 & _); [lia|exists tt; reflexivity|exact flat_pos|apply cl_data|].
  exists e1, v1, e2, v2. cbv zeta. split; [exact H1|]. split; [exact H2|].
  destruct (C79_vcategorical_partial_l _ _ _ _ _ _ _ _ _ H1) as (A1 & _). destruct (vcat_fit_nfeat _ _ _ _ _ _ _ _ _ H1) as (p & n & A7 & A8).
  cbn in A8. injection A8 as <- _. unfold clone_vcategorical. rewrite A1, A7. reflexivity.
Qed.

(** ** The positive statements apply. *)
Lemma C90_applies_l : exists (e1 : est gaussp unit) ev1,
  let e := default_gaussian 2 (RSSeed 0) in
  fit gaussian gauss_initc flat_rng exact e tt cv_x (as_lengths [2%nat]) = Ok (e1, tt, ev1)
  /\ e_hmm e1 <> e_hmm e /\ clone_gaussian e1 tt = e
  /\ fit gaussian gauss_initc flat_rng exact (clone_gaussian e1 tt) tt cv_x (as_lengths [2%nat]) = Ok (e1, tt, ev1).
Proof.
  destruct (C76_default_gaussian_l flat_rng (RSSeed 0) tt cv_x [2%nat] 2 2) as (e1 & [] & v1 & H1 & Ht);
    [lia|lia|exists tt; reflexivity|exact flat_pos|exact cv_kmeans| |cbn; lia|].
  { split; [exact cv_x_ok|]. repeat split; [discriminate|repeat constructor]. }
  exists e1, v1. cbv zeta. split; [exact H1|].
  pose proof (proj1 (C90_gaussian_l _ _ _ _ _ _ _ _ _ _ _ _ _ _ _ _ H1) I tt) as Hc. fold (default_gaussian (G := unit) 2 (RSSeed 0)) in Hc.
  split; [|split; [exact Hc|rewrite Hc; exact H1]].
  intros E. destruct (fit_inv _ _ _ _ _ _ _ _ _ _ _ H1) as (ea & va & va2 & _ & _ & Hff & _).
  destruct (fit_from_keeps _ _ _ _ _ _ _ Hff) as (_ & _ & h1 & Hck & Hn). rewrite E in Hn. cbn in Hn.
  apply check_em in Hck. cbn [ec_check gaussian] in Hck. unfold gauss_check in Hck. all_ok Hck. injection Hck as Hk _. congruence.
Qed.
