(** * Property C76: start rates of PoissonHMM, and examples. *)
From Verif Require Export Fresh_em Gauss_total.

(** Initialising the rates: gamma draws whose mean and variance are those of all
    counts. *)
Lemma C76_poisson_start_rates_l {G} (rg : rng G) e glob x nf e1 glob1 ev :
  let h := e_hmm e in let c := h_cfg h in
  init pois_initc rg exact e glob x = Ok (e1, glob1, ev) ->
  has "l" (c_init_params c) = true \/ po_lam (h_em h) = None ->
  Forall (counts_ok nf) x -> (exists a b, In a (concat x) /\ In b (concat x) /\ a <> b) ->
  exists shape scale m g g', po_lam (h_em (e_hmm e1)) = Some m
    /\ gamma_mat rg (Fin shape) (Fin scale) (c_nc c) nf g = Ok (m, g')
    /\ shape * scale = mean_of (all_counts x) /\ shape * (scale * scale) = variance_of (all_counts x).
Proof.
  cbv zeta. intros H Hl Hok (a & b & Ha & Hb & Hab).
  assert (Hx : x <> []) by (intros ->; destruct Ha).
  assert (Hne : all_counts x <> []). { unfold all_counts. destruct (concat x); [destruct Ha|discriminate]. }
  assert (Hv : 0 < variance_of (all_counts x)).
  { apply (variance_pos _ (IZR a) (IZR b)); try (apply in_map; assumption). intros E. apply Hab, eq_IZR, E. }
  assert (Hm : mean_of (all_counts x) <> 0).
  { apply Rgt_not_eq. assert (Hnn : forall z, In z (concat x) -> (0 <= z)%Z).
    { intros z Hz. apply in_concat in Hz as (r & Hr & Hz). rewrite Forall_forall in Hok. destruct (Hok r Hr) as [_ Hk]. rewrite Forall_forall in Hk. apply Hk, Hz. }
    assert (Hn : forall y, In y (all_counts x) -> 0 <= y).
    { intros y Hy. apply in_map_iff in Hy as (z & <- & Hz). apply IZR_le, Hnn, Hz. }
    pose proof (Hnn a Ha). pose proof (Hnn b Hb).
    destruct (Z.eq_dec a 0) as [->|Na]; [apply (mean_pos _ (IZR b))|apply (mean_pos _ (IZR a))]; try exact Hn; try (apply in_map; assumption); apply IZR_lt; lia. }
  unfold init in H. apply bind_inv in H as ([[e0 g0] ev0] & Hb0 & H).
  assert (B : h_cfg (e_hmm e0) = h_cfg (e_hmm e) /\ h_nfeat (e_hmm e0) = Some nf /\ h_em (e_hmm e0) = h_em (e_hmm e)).
  { unfold base_init in Hb0. cbn [ic_nfeat pois_initc] in Hb0. unfold pois_nfeat in Hb0. rewrite (width_counts nf x Hx Hok) in Hb0.
    apply bind_inv in Hb0 as ([nf' p] & Hn & Hb0). apply bind_inv in Hn as (n' & Hn & Hp).
    assert (n' = Some nf).
    { unfold set_n_features in Hn. destruct (h_nfeat (e_hmm e)) as [m|]; [destruct (Nat.eqb_spec m nf); [congruence|discriminate]|congruence]. }
    subst n'. assert (nf' = Some nf /\ p = h_em (e_hmm e)) as [-> ->] by (split; congruence). clear Hn Hp.
    destruct (Nat.eqb _ 0); [discriminate|]. apply bind_inv in Hb0 as (g1 & _ & Hb0).
    destruct (needs_init _ "s" _ _) as [ns ev1]. apply bind_inv in Hb0 as ([s g2] & _ & Hb0).
    destruct (needs_init _ "t" _ _) as [nt ev2]. apply bind_inv in Hb0 as ([t g3] & _ & Hb0).
    destruct (rs_put _ _ _) as [rs gl]. apply bind_inv in Hb0 as (d & _ & Hb0). apply bind_inv in Hb0 as (k & _ & Hb0).
    injection Hb0 as <- _ _. repeat split. }
  destruct B as (B1 & B2 & B3). apply bind_inv in H as ([[[p rs] g1] ev1] & He & H).
  cbn [ic_em pois_initc] in He. rewrite B1, B2, B3 in He. unfold pois_init_em in He.
  apply bind_inv in He as (rs1 & _ & He). rewrite counts_vec, arr_mean_fin, arr_var_fin in He by exact Hne.
  assert (Hnl : exists evl, needs_init (h_cfg (e_hmm e)) "l" "lambdas_" (isSome (po_lam (h_em (e_hmm e)))) = (true, evl)).
  { unfold needs_init. destruct Hl as [->| ->]; [eexists; reflexivity|]. destruct (has "l" _); eexists; reflexivity. }
  destruct Hnl as (evl & Hnl). rewrite Hnl in He. cbv iota beta in He.
  apply bind_inv in He as (g2 & _ & He).
  change (xsq exact (Fin (mean_of (all_counts x)))) with (Fin (mean_of (all_counts x) * mean_of (all_counts x))) in He.
  rewrite !xdivE in He by lra. apply bind_inv in He as ([m g3] & Hg & He). destruct (rs_put rs1 g0 g3) as [rs2 g4].
  exists (mean_of (all_counts x) * mean_of (all_counts x) / variance_of (all_counts x)), (variance_of (all_counts x) / mean_of (all_counts x)), m, g2, g3.
  assert (Ep : p = Poisp (po_alpha (h_em (e_hmm e))) (po_beta (h_em (e_hmm e))) (Some m)) by congruence.
  assert (Ee : h_em (e_hmm e1) = p). { apply (f_equal (fun o => match o with Ok (a, _, _) => h_em (e_hmm a) | Err _ => p end)) in H. symmetry. exact H. }
  rewrite Ee, Ep. split; [reflexivity|]. split; [exact Hg|]. split; field; lra.
Qed.

(** ** Examples. *)
Lemma flat_gamma : pos_gamma flat_rng.
Proof. intros a b g _ _. exists 1, g. split; [reflexivity|lra]. Qed.
Lemma flat_rand : pos_rand flat_rng.
Proof. intros g. cbn. lra. Qed.
Definition fr_cfg : cfg := Cfg 2 "ste" "ste" "viterbi" "log" 10 (Fin (/ 100)) false (Scal (Fin 1)) (Scal (Fin 1)).
Definition fr_pcfg : cfg := Cfg 2 "stl" "stl" "viterbi" "log" 10 (Fin (/ 100)) false (Scal (Fin 1)) (Scal (Fin 1)).
Definition fr_mon : monitor := Monitor (Fin (/ 100)) 10 false [] 0.
Definition fr_cat : hmm catp := Hmm fr_cfg None None None fr_mon (Catp (Scal (Fin 1)) None).
Definition fr_pois : hmm poisp := Hmm fr_pcfg None None None fr_mon (Poisp (Scal (Fin 0)) (Scal (Fin 0)) None).
Definition fr_mult : hmm mulp := Hmm fr_cfg None None None fr_mon (Mulp None None).
Definition fr_x : list Z := [0; 2; 1]%Z.
Definition fr_px : list (list Z) := [[3; 1]; [0; 2]]%Z.
Lemma fr_letters : letters_in "ste" ["s"; "t"; "e"]%char.
Proof.
  intros a. cbn [has]. cbn [In]. intros H.
  repeat (apply Bool.orb_true_iff in H as [H|H]; [apply Ascii.eqb_eq in H; auto|]).
  all: try discriminate; try (apply Ascii.eqb_eq in H; auto).
Qed.
Lemma fr_pletters : letters_in "stl" ["s"; "t"; "l"]%char.
Proof.
  intros a. cbn [has]. cbn [In]. intros H.
  repeat (apply Bool.orb_true_iff in H as [H|H]; [apply Ascii.eqb_eq in H; auto|]).
  all: try discriminate; try (apply Ascii.eqb_eq in H; auto).
Qed.

Lemma C76_categorical_applies_l : exists e' ev,
  fit categorical cat_initc flat_rng exact (Est fr_cat (RSSeed 0)) tt fr_x (as_lengths [3%nat]) = Ok (e', tt, ev)
  /\ usable categorical (fun o => In o fr_x) (e_hmm e').
Proof.
  destruct (C76_categorical_l flat_rng (Est fr_cat (RSSeed 0)) tt fr_x [3%nat] 3) as (e' & [] & ev & Hf & _ & Ht).
  - split; [split; reflexivity|]. split; [reflexivity|]. split; [exists tt; reflexivity|]. split; [cbn; lia|]. split; [exact fr_letters|].
    split; [right; split; reflexivity|]. split; [repeat split|reflexivity].
  - exact flat_pos.
  - exact flat_rand.
  - repeat split; repeat constructor; try discriminate; cbn; try lia.
  - exists e', ev. split; [exact Hf|]. destruct Ht as (pi & A & _ & _ & _ & _ & _ & _ & Hu); [|exact Hu].
    exists fr_x. split; [left; reflexivity|cbn; lia].
Qed.
Lemma fr_px_ok : good_data (trials_ok 2) [2%nat] fr_px.
Proof. split; [repeat constructor; try lia|]. repeat split; [discriminate|repeat constructor]. Qed.
Lemma C76_poisson_applies_l : exists e' ev,
  fit poisson pois_initc flat_rng exact (Est fr_pois (RSSeed 0)) tt fr_px (as_lengths [2%nat]) = Ok (e', tt, ev)
  /\ usable poisson (fun o => In o fr_px) (e_hmm e').
Proof.
  destruct (C76_poisson_l flat_rng (Est fr_pois (RSSeed 0)) tt fr_px [2%nat] 2 0 0) as (e' & [] & ev & Hf & _ & Ht).
  - split; [split; reflexivity|]. split; [reflexivity|]. split; [exists tt; reflexivity|]. split; [cbn; lia|]. split; [exact fr_pletters|].
    split; [left; reflexivity|]. split; [repeat split|]. repeat (split; [reflexivity|]). split; [lra|]. split; [lra|reflexivity].
  - exact flat_pos.
  - exact flat_gamma.
  - apply trials_counts, fr_px_ok.
  - exists 3%Z, 1%Z. cbn. split; [auto|]. split; [auto|discriminate].
  - exists e', ev. split; [exact Hf|]. destruct Ht as (pi & A & _ & _ & _ & _ & _ & _ & Hu); [|exact Hu].
    exists fr_px. split; [left; reflexivity|cbn; lia].
Qed.
Lemma C76_multinomial_applies_l : exists e' ev,
  fit multinomial mult_initc flat_rng exact (Est fr_mult (RSSeed 0)) tt fr_px (as_lengths [2%nat]) = Ok (e', tt, ev)
  /\ usable multinomial (fun o => In o fr_px) (e_hmm e').
Proof.
  destruct (C76_multinomial_l flat_rng (Est fr_mult (RSSeed 0)) tt fr_px [2%nat] 2) as (e' & [] & ev & Hf & _ & Ht).
  - split; [split; reflexivity|]. split; [reflexivity|]. split; [reflexivity|]. split; [exists tt; reflexivity|]. split; [cbn; lia|]. split; [exact fr_letters|].
    split; [left; reflexivity|]. split; [repeat split|reflexivity].
  - exact flat_pos.
  - exact flat_rand.
  - lia.
  - exact fr_px_ok.
  - exact I.
  - exists e', ev. split; [exact Hf|]. destruct Ht as (pi & A & _ & _ & _ & _ & _ & _ & Hu); [|exact Hu].
    exists fr_px. split; [left; reflexivity|cbn; lia].
Qed.

(** Infinite and undefined numbers in the data. *)
Lemma C57_gaussian_applies_l : exists h1, check gaussian exact ex_frozen = Ok h1
  /\ returns (fit_from gaussian exact ex_frozen [[PInf]; [NaN]] None).
Proof.
  pose proof (base_ok_check gaussian ex_frozen 1 (fun _ => 1) (fun _ _ => 1) (Some 1%nat) (h_em ex_frozen) frozen_base
    (gauss_check_ok _ _ (h_em ex_frozen) 1 1 (fun _ _ => 0) eq_refl eq_refl)) as Hk.
  eexists. split; [exact Hk|]. apply (C57_gaussian_l exact ex_frozen _ 1 _ None Hk eq_refl eq_refl).
  - left; reflexivity.
  - eexists. split; [reflexivity|]. split; reflexivity.
  - eexists. split; [reflexivity|]. split; reflexivity.
  - do 4 eexists. repeat split; reflexivity.
  - discriminate.
  - intros r [<-|[<-|[]]]; reflexivity.
  - left; reflexivity.
Qed.
