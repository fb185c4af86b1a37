(** * Property C80: integers as [random_state], and examples. *)
From Verif Require Export Starts_thms Fresh_gmm.

Lemma in_turn_det {A G} (f : G -> res (A * G)) n g a g1 b g2 : in_turn f n g a g1 -> in_turn f n g b g2 ->
  g1 = g2 /\ forall i, (i < n)%nat -> a i = b i.
Proof.
  intros (gs & G0 & G1 & G2) (hs & H0 & H1 & H2).
  assert (K : forall i, (i <= n)%nat -> gs i = hs i).
  { induction i as [|i IH]; intros Hi; [congruence|]. assert (Hi' : (i < n)%nat) by lia.
    pose proof (G2 i Hi') as Ea. pose proof (H2 i Hi') as Eb. rewrite IH in Ea by lia. congruence. }
  split; [rewrite <- G1, <- H1; apply K; lia|]. intros i Hi. pose proof (G2 i Hi) as Ea. pose proof (H2 i Hi) as Eb. rewrite K in Ea by lia. congruence.
Qed.
Lemma in_turn_le {A G} (f : G -> res (A * G)) n m g a g1 : in_turn f n g a g1 -> (m <= n)%nat -> exists g2, in_turn f m g a g2.
Proof. intros (gs & G0 & G1 & G2) H. exists (gs m), gs. repeat split; [exact G0|]. intros i Hi. apply G2. lia. Qed.
Lemma rows_in_turn {A G} (f : G -> res (A * G)) r c g a g' : row_by_row f r c g a g' -> (0 < c)%nat ->
  in_turn f (r * c) g (fun k => a (k / c)%nat (k mod c)%nat) g'.
Proof.
  intros (gs & G0 & G1 & G2) Hc. exists gs. split; [exact G0|]. split; [exact G1|]. intros k Hk.
  pose proof (Nat.div_mod_eq k c) as E. pose proof (Nat.mod_upper_bound k c ltac:(lia)) as Hm.
  assert (k / c < r)%nat by (apply Nat.div_lt_upper_bound; lia).
  specialize (G2 (k / c)%nat (k mod c)%nat H Hm). replace (k / c * c + k mod c)%nat with k in G2 by lia. rewrite Nat.add_1_r in G2. exact G2.
Qed.
Lemma rows_det {A G} (f : G -> res (A * G)) r c g a g1 b g2 : row_by_row f r c g a g1 -> row_by_row f r c g b g2 ->
  forall i j, (i < r)%nat -> (j < c)%nat -> a i j = b i j.
Proof.
  intros Ha Hb i j Hi Hj. assert (Hc : (0 < c)%nat) by lia.
  destruct (in_turn_det _ _ _ _ _ _ _ (rows_in_turn _ _ _ _ _ _ Ha Hc) (rows_in_turn _ _ _ _ _ _ Hb Hc)) as [_ K].
  specialize (K (i * c + j)%nat ltac:(nia)). cbn beta in K.
  replace ((i * c + j) / c)%nat with i in K by (apply (Nat.div_unique _ _ _ j); lia).
  replace ((i * c + j) mod c)%nat with j in K by (apply (Nat.mod_unique _ _ i); lia). exact K.
Qed.

(** ** With an integer the emission start values do not depend on what was drawn before. *)
Lemma C80_categorical_seed_l {G} (rg : rng G) k e e2 glob glob2 x x2 ls ls2 e' e2' glob' glob2' ev ev2 :
  let c := h_cfg (e_hmm e) in let c2 := h_cfg (e_hmm e2) in
  e_rs e = RSSeed k -> e_rs e2 = RSSeed k -> c_n_iter c = 0%nat -> c_n_iter c2 = 0%nat -> c_nc c = c_nc c2 ->
  drawn c "e" (cat_prob (h_em (e_hmm e))) -> drawn c2 "e" (cat_prob (h_em (e_hmm e2))) ->
  fit categorical cat_initc rg exact e glob x ls = Ok (e', glob', ev) ->
  fit categorical cat_initc rg exact e2 glob2 x2 ls2 = Ok (e2', glob2', ev2) ->
  h_nfeat (e_hmm e') = h_nfeat (e_hmm e2') -> cat_prob (h_em (e_hmm e')) = cat_prob (h_em (e_hmm e2')).
Proof.
  intros c c2 R1 R2 N1 N2 Hc D1 D2 F1 F2 Hn.
  destruct (C80_categorical_l rg e glob x ls e' glob' ev N1 F1) as (g0 & g2 & [B1 _] & K1 & _). destruct (K1 D1) as (nf & u & g3 & E1 & U1 & _ & ->).
  destruct (C80_categorical_l rg e2 glob2 x2 ls2 e2' glob2' ev2 N2 F2) as (h0 & h2 & [B2 _] & K2 & _). destruct (K2 D2) as (nf2 & u2 & h3 & E2 & U2 & _ & ->).
  rewrite R1 in B1, U1. rewrite R2 in B2, U2. cbn [rs_get again] in *. assert (h0 = g0) as -> by congruence. assert (nf2 = nf) as -> by congruence.
  fold c in U1 |- *. fold c2 in U2 |- *. rewrite <- Hc in U2 |- *.
  f_equal. unfold fmat, mtab. f_equal. apply tab_ext. intros i Hi. apply tab_ext. intros j Hj. f_equal.
  assert (K : forall j, (j < nf)%nat -> u i j = u2 i j) by (intros; apply (rows_det _ _ _ _ _ _ _ _ U1 U2); assumption).
  unfold normalised. rewrite (sumn_ext nf (u i) (u2 i) K), (K j Hj). reflexivity.
Qed.

(** ** With an integer and as many symbols as states, the emission start values of
    VariationalCategoricalHMM are those of [startprob_] and [transmat_] again. *)
Lemma C80_vcategorical_seed_l {G} (rg : rng G) k e glob x ls e' glob' ev :
  let v := ve_v e in let c := v_cfg v in let nc := c_nc c in
  ve_rs e = RSSeed k -> c_n_iter c = 0%nat -> has "s" (c_init_params c) = true -> has "t" (c_init_params c) = true ->
  has "e" (c_init_params c) = true -> vk_arg (h_em (v_h v)) = None ->
  vfit vcategorical vcat_initc rg exact e glob x ls = Ok (e', glob', ev) -> h_nfeat (v_h (ve_v e')) = Some nc ->
  exists s T, v_spost (ve_v e') = Some (times (INR (n_seqs ls)) s) /\ v_tpost (ve_v e') = Some T
    /\ vk_post (h_em (v_h (ve_v e'))) = Some (Mat nc (firstn nc (times (n_samples x ls / INR nc) s :: rows T))).
Proof.
  intros v c nc R1 N1 Is It Ie Ha F Hn. destruct (C80_vcategorical_l rg e glob x ls e' glob' ev N1 F) as (g0 & g2 & [B1 B2] & K & _).
  destruct (K (or_introl Ie)) as (nf & a & em & g3 & E1 & A1 & U1 & ->). fold v in E1, A1, U1 |- *. fold c in U1 |- *. fold nc in U1 |- *. rewrite E1 in Hn. assert (nf = nc) by congruence. subst nf. clear Hn.
  assert (a = Fin (1 / INR nc)) as ->. { destruct A1 as [[_ A1]|A1]; [exact A1|congruence]. }
  cbv zeta in B2. fold v in B2. fold c in B2. fold nc in B2. destruct B2 as (g1 & Ks & _ & Kt & _).
  destruct (Ks (or_introl (or_introl Is))) as (s & Hs & ->). destruct (Kt (or_introl (or_introl It))) as (T & HT & ->).
  rewrite R1 in U1. cbn [again] in U1. exists s. eexists. split; [reflexivity|]. split; [reflexivity|]. do 2 f_equal. cbn [rows].
  assert (W : in_turn (dirichlet rg nc) (S nc) g0 (fun i => match i with 0%nat => s | S i => T i end) g2).
  { destruct HT as (gs & H0 & H1 & H2). exists (fun i => match i with 0%nat => g0 | S i => gs i end). split; [reflexivity|]. split; [exact H1|].
    intros [|i] Hi; [rewrite H0; exact Hs|apply H2; lia]. }
  destruct (in_turn_le _ _ nc _ _ _ W ltac:(lia)) as (h & W'). destruct (in_turn_det _ _ _ _ _ _ _ U1 W') as [_ Q].
  rewrite <- (tab_S nc (fun i => times (n_samples x ls / INR nc) (match i with 0%nat => s | S i => T i end))).
  replace (firstn nc (tab (S nc) _)) with (tab nc (fun i => times (n_samples x ls / INR nc) (match i with 0%nat => s | S i => T i end))).
  2:{ unfold tab. rewrite firstn_map. f_equal. rewrite seq_S, firstn_app, seq_length, Nat.sub_diag, firstn_O, app_nil_r. rewrite <- (seq_length nc 0) at 2. symmetry. apply firstn_all. }
  apply tab_ext. intros i Hi. f_equal. apply Q, Hi.
Qed.

(** ** Examples: a generator that counts its draws. *)
Definition tick_rng : rng nat := Rng (fun _ => Ok 0%nat)
  (fun a g => Ok (fvec (length a) (fun i => (1 + (if Nat.eqb i 0 then INR g else 0)) / (INR (length a) + INR g)), S g))
  (fun g => (/ INR (S g), S g)) (fun _ _ g => Ok (Fin (INR (S g)), S g)) (fun nc x g => Ok (fmat nc (width x) (fun i j => INR (i + g)), S g)).
Lemma tick_pos : pos_dirichlet tick_rng.
Proof.
  intros n a g Hn _. cbn [r_dirichlet tick_rng]. replace (length (fvec n a)) with n by (unfold fvec; rewrite tab_length; reflexivity).
  assert (H1 : 0 < INR n) by (apply lt_0_INR; exact Hn). pose proof (pos_INR g) as H2.
  exists (fun i => (1 + (if Nat.eqb i 0 then INR g else 0)) / (INR n + INR g)), (S g). split; [reflexivity|]. split.
  - intros i _. apply Rdiv_lt_0_compat; [destruct (Nat.eqb i 0); lra|lra].
  - rewrite sumn_div, sumn_plus, sumn_const.
    replace (sumn n (fun i => if Nat.eqb i 0 then INR g else 0)) with (INR g); [field; lra|].
    destruct n as [|n]; [lia|]. rewrite sumn_S_l. cbn [Nat.eqb]. rewrite sumn_zero by reflexivity. lra.
Qed.
Lemma tick_rand : pos_rand tick_rng.
Proof. intros g. cbn [r_rand tick_rng fst]. apply Rinv_0_lt_compat, lt_0_INR. lia. Qed.
Lemma tick_gamma : pos_gamma tick_rng.
Proof. intros a b g _ _. exists (INR (S g)), (S g). split; [reflexivity|apply lt_0_INR; lia]. Qed.
Definition st_cfg (letters : string) : cfg := Cfg 2 letters letters "viterbi" "log" 0 (Fin (/ 100)) false (Scal (Fin 1)) (Scal (Fin 1)).
Definition st_mon : monitor := Monitor (Fin (/ 100)) 0 false [] 0.
Definition st_cat : hmm catp := Hmm (st_cfg "ste") None None None st_mon (Catp (Scal (Fin 1)) None).
Definition st_pois : hmm poisp := Hmm (st_cfg "stl") None None None st_mon (Poisp (Scal (Fin 0)) (Scal (Fin 0)) None).
Definition st_mult : hmm mulp := Hmm (st_cfg "ste") None None None st_mon (Mulp None None).
Definition st_x : list Z := [0; 1; 1]%Z.

(** The uniform numbers 1/(g+1), 1/(g+2), ... *)
Lemma tick_rows r c g : row_by_row (uniform tick_rng) r c g (fun i j => / INR (S (g + (i * c + j)))) (g + r * c)%nat.
Proof.
  exists (fun k => (g + k)%nat). split; [lia|]. split; [reflexivity|]. intros i j _ _. unfold uniform. cbn [r_rand tick_rng]. do 2 f_equal; lia.
Qed.
Lemma tick_base rs glob g0 : rs_get tick_rng rs glob = Ok g0 -> forall (e : est catp nat) h' g2, e_hmm e = st_cat -> e_rs e = rs ->
  base_drawn tick_rng e glob h' g0 g2 -> g2 = (g0 + 3)%nat.
Proof.
  intros H e h' g2 Eh Er [_ (g1 & Ks & _ & Kt & _)]. rewrite Eh in Ks, Kt.
  destruct (Ks (or_introl eq_refl)) as (s & Hs & _). destruct (Kt (or_introl eq_refl)) as (rows & (gs & G0 & G1 & G2) & _).
  cbn in Hs. injection Hs as _ E1. cbn [h_cfg st_cat c_nc st_cfg] in G1, G2.
  pose proof (G2 0%nat ltac:(lia)) as A0. pose proof (G2 1%nat ltac:(lia)) as A1. cbn in A0, A1. injection A0 as _ A0. injection A1 as _ A1. lia.
Qed.
Lemma st_cat_fits rs : (rs = RSSeed 0 \/ rs = RSGen 0%nat) -> exists e' glob' ev,
  fit categorical cat_initc tick_rng exact (Est st_cat rs) 7%nat st_x (as_lengths [3%nat]) = Ok (e', glob', ev).
Proof.
  intros Hrs. destruct (C76_categorical_l tick_rng (Est st_cat rs) 7%nat st_x [3%nat] 2) as (e' & glob' & ev & Hf & _).
  - split; [split; reflexivity|]. split; [reflexivity|]. split.
    { destruct Hrs as [->| ->]; cbn; [exists 0%nat; reflexivity|exact I]. }
    split; [cbn; lia|]. split; [exact fr_letters|]. split; [right; split; reflexivity|]. split; [repeat split|reflexivity].
  - exact tick_pos.
  - exact tick_rand.
  - repeat split; repeat constructor; try discriminate; cbn; try lia.
  - eauto.
Qed.
Lemma tick_emission rs glob g0 e' glob' ev : rs_get tick_rng rs glob = Ok g0 ->
  fit categorical cat_initc tick_rng exact (Est st_cat rs) glob st_x (as_lengths [3%nat]) = Ok (e', glob', ev) ->
  h_nfeat (e_hmm e') = Some 2%nat ->
  cat_prob (h_em (e_hmm e')) = Some (fmat 2 2 (fun i => normalised 2 (fun j => / INR (S (again rs g0 (g0 + 3)%nat + (i * 2 + j)))))).
Proof.
  intros Hg Hf Hn. destruct (C80_categorical_l tick_rng (Est st_cat rs) glob st_x _ e' glob' ev eq_refl Hf) as (h0 & g2 & D & K & _).
  pose proof (proj1 D) as D1. cbn [e_rs] in D1. rewrite Hg in D1. injection D1 as <-.
  rewrite (tick_base rs glob g0 Hg (Est st_cat rs) _ g2 eq_refl eq_refl D) in K. destruct (K (or_introl eq_refl)) as (nf & u & g3 & En & U & _ & ->).
  rewrite En in Hn. injection Hn as ->. cbn [e_hmm e_rs st_cat h_cfg st_cfg c_nc] in U |- *.
  f_equal. unfold fmat, mtab. f_equal. apply tab_ext. intros i Hi. apply tab_ext. intros j Hj. f_equal.
  pose proof (fun j Hj => rows_det _ _ _ _ _ _ _ _ U (tick_rows 2 2 (again rs g0 (g0 + 3)%nat)) i j Hi Hj) as Q.
  unfold normalised. rewrite (sumn_ext 2 (u i) _ Q), (Q j Hj). reflexivity.
Qed.
Lemma st_nfeat rs glob e' glob' ev : fit categorical cat_initc tick_rng exact (Est st_cat rs) glob st_x (as_lengths [3%nat]) = Ok (e', glob', ev) ->
  h_nfeat (e_hmm e') = Some 2%nat.
Proof.
  intros Hf. destruct (fit_drawn categorical cat_initc tick_rng (Est st_cat rs) _ _ _ _ _ _ eq_refl Hf) as (g0 & g2 & rs1 & glob1 & nf & p & q & ev2 & _ & _ & _ & Hn & _ & Hc).
  cbn in Hn. injection Hn as <- <-. cbn [ec_check categorical] in Hc. unfold cat_check in Hc. destruct (cat_prob q); [|discriminate].
  destruct (negb _); [discriminate|]. destruct (negb _); [discriminate|]. injection Hc as <- _. reflexivity.
Qed.

(** Seed 0: 1, 1/2 and 1/3, 1/4, divided by their sums. *)
Lemma C80_categorical_applies_l : exists e' glob' ev,
  fit categorical cat_initc tick_rng exact (Est st_cat (RSSeed 0)) 7%nat st_x (as_lengths [3%nat]) = Ok (e', glob', ev)
  /\ cat_prob (h_em (e_hmm e')) = Some (Mat 2 [[Fin (2 / 3); Fin (1 / 3)]; [Fin (4 / 7); Fin (3 / 7)]]).
Proof.
  destruct (st_cat_fits (RSSeed 0) (or_introl eq_refl)) as (e' & glob' & ev & Hf). exists e', glob', ev. split; [exact Hf|].
  rewrite (tick_emission (RSSeed 0) 7%nat 0%nat e' glob' ev eq_refl Hf (st_nfeat _ _ _ _ _ Hf)).
  unfold fmat, mtab, tab. cbn [seq map again Nat.add Nat.mul]. unfold normalised. cbn [sumn].
  destruct (Req_EM_T _ 0) as [E|_]; [cbn in E; lra|]. destruct (Req_EM_T _ 0) as [E|_]; [cbn in E; lra|].
  match goal with |- Some (Mat 2 [[Fin ?a; Fin ?b]; [Fin ?c; Fin ?d]]) = _ =>
    replace a with (2 / 3) by (cbn; field); replace b with (1 / 3) by (cbn; field);
    replace c with (4 / 7) by (cbn; field); replace d with (3 / 7) by (cbn; field) end. reflexivity.
Qed.

(** An integer is not the same as the generator it seeds. *)
Lemma C80_integer_generator_refuted_l : exists (rg : rng nat) k g h x ls e1 glob1 ev1 e2 glob2 ev2,
  r_seed rg k = Ok g
  /\ fit categorical cat_initc rg exact (Est h (RSSeed k)) 7%nat x ls = Ok (e1, glob1, ev1)
  /\ fit categorical cat_initc rg exact (Est h (RSGen g)) 7%nat x ls = Ok (e2, glob2, ev2)
  /\ h_start (e_hmm e1) = h_start (e_hmm e2) /\ cat_prob (h_em (e_hmm e1)) <> cat_prob (h_em (e_hmm e2)).
Proof.
  exists tick_rng, 0%Z, 0%nat, st_cat, st_x, (as_lengths [3%nat]).
  destruct (st_cat_fits (RSSeed 0) (or_introl eq_refl)) as (e1 & glob1 & ev1 & H1). destruct (st_cat_fits (RSGen 0%nat) (or_intror eq_refl)) as (e2 & glob2 & ev2 & H2).
  exists e1, glob1, ev1, e2, glob2, ev2. split; [reflexivity|]. split; [exact H1|]. split; [exact H2|]. split.
  - destruct (C80_categorical_l tick_rng (Est st_cat (RSSeed 0)) 7%nat st_x _ e1 glob1 ev1 eq_refl H1) as (g0 & g2 & (B & g1 & Ks & _) & _).
    destruct (C80_categorical_l tick_rng (Est st_cat (RSGen 0%nat)) 7%nat st_x _ e2 glob2 ev2 eq_refl H2) as (h0 & h2 & (Bh & h1 & Kh & _) & _).
    destruct (Ks (or_introl eq_refl)) as (s & Hs & ->). destruct (Kh (or_introl eq_refl)) as (t & Ht & ->).
    cbn in B, Bh. injection B as <-. injection Bh as <-. cbn [e_hmm st_cat h_cfg st_cfg c_nc] in Hs, Ht. congruence.
  - rewrite (tick_emission (RSSeed 0) 7%nat 0%nat e1 glob1 ev1 eq_refl H1 (st_nfeat _ _ _ _ _ H1)).
    rewrite (tick_emission (RSGen 0%nat) 7%nat 0%nat e2 glob2 ev2 eq_refl H2 (st_nfeat _ _ _ _ _ H2)).
    unfold fmat, mtab, tab. cbn [seq map again Nat.add Nat.mul]. unfold normalised. cbn [sumn].
    destruct (Req_EM_T _ 0) as [E|_]; [cbn in E; lra|]. destruct (Req_EM_T _ 0) as [E|_]; [cbn in E; lra|].
    destruct (Req_EM_T _ 0) as [E|_]; [cbn in E; lra|]. destruct (Req_EM_T _ 0) as [E|_]; [cbn in E; lra|].
    intros E. injection E as E _. cbn [INR] in E. lra.
Qed.

Lemma C80_poisson_applies_l : exists e' glob' ev,
  fit poisson pois_initc tick_rng exact (Est st_pois (RSGen 0%nat)) 7%nat fr_px (as_lengths [2%nat]) = Ok (e', glob', ev)
  /\ Fresh_em.mean_of (all_counts fr_px) <> 0 /\ variance_of (all_counts fr_px) <> 0.
Proof.
  destruct (C76_poisson_l tick_rng (Est st_pois (RSGen 0%nat)) 7%nat fr_px [2%nat] 2 0 0) as (e' & glob' & ev & Hf & _).
  - split; [split; reflexivity|]. split; [reflexivity|]. split; [exact I|]. split; [cbn; lia|]. split; [exact fr_pletters|].
    split; [left; reflexivity|]. split; [repeat split|]. repeat (split; [reflexivity|]). split; [lra|]. split; [lra|reflexivity].
  - exact tick_pos.
  - exact tick_gamma.
  - apply trials_counts, fr_px_ok.
  - exists 3%Z, 1%Z. cbn. split; [auto|]. split; [auto|discriminate].
  - exists e', glob', ev. split; [exact Hf|]. unfold variance_of, Fresh_em.mean_of. cbn. split; lra.
Qed.
Lemma C80_multinomial_applies_l : exists e' glob' ev,
  fit multinomial mult_initc tick_rng exact (Est st_mult (RSGen 0%nat)) 7%nat fr_px (as_lengths [2%nat]) = Ok (e', glob', ev).
Proof.
  destruct (C76_multinomial_l tick_rng (Est st_mult (RSGen 0%nat)) 7%nat fr_px [2%nat] 2) as (e' & glob' & ev & Hf & _).
  - split; [split; reflexivity|]. split; [reflexivity|]. split; [reflexivity|]. split; [exact I|]. split; [cbn; lia|]. split; [exact fr_letters|].
    split; [left; reflexivity|]. split; [repeat split|reflexivity].
  - exact tick_pos.
  - exact tick_rand.
  - lia.
  - exact fr_px_ok.
  - exact I.
  - eauto.
Qed.
(** Seed 0 again: rows 0 and 1 are the draws behind startprob_ and row 0 of transmat_. *)
Lemma C80_vcategorical_applies_l : exists e' glob' ev s T,
  vfit vcategorical vcat_initc tick_rng exact (VEst (fresh_v "ste" 0 None) (RSSeed 0)) 7%nat [0; 1; 1; 0; 1]%Z (as_lengths [3%nat; 2%nat]) = Ok (e', glob', ev)
  /\ v_spost (ve_v e') = Some (times 2 s) /\ v_tpost (ve_v e') = Some T
  /\ vk_post (h_em (v_h (ve_v e'))) = Some (Mat 2 [times (5 / 2) s; nth 0 (rows T) []]).
Proof.
  destruct (C62_fit_returns_l tick_rng (VEst (fresh_v "ste" 0 None) (RSSeed 0)) 7%nat [0; 1; 1; 0; 1]%Z [3%nat; 2%nat] 2 (/ 2) (/ 2) (/ 2))
    as (e1 & glob1 & ev & p & q & H & _).
  - exact tick_pos.
  - exists 0%nat. reflexivity.
  - cbn. lia.
  - apply letters_sub. intros a Ha. exact Ha.
  - reflexivity.
  - reflexivity.
  - repeat split.
  - apply scalar_default. lra.
  - apply scalar_default. lra.
  - apply scalar_default. lra.
  - exact ex_v_data.
  - right. split; reflexivity.
  - exists e1, glob1, ev.
    destruct (C80_vcategorical_seed_l tick_rng 0 (VEst (fresh_v "ste" 0 None) (RSSeed 0)) 7%nat _ _ e1 glob1 ev eq_refl eq_refl eq_refl eq_refl eq_refl eq_refl H) as (s & T & E1 & E2 & E3).
    + destruct (vfit_drawn vcategorical vcat_initc tick_rng (VEst (fresh_v "ste" 0 None) (RSSeed 0)) _ _ _ _ _ _ eq_refl H) as (g0 & g2 & rs1 & gl1 & nf & p1 & q1 & ev2 & _ & _ & _ & Hn & _ & Hc).
      cbn in Hn. injection Hn as <- <-. cbn [ec_check vcategorical vc_em] in Hc. unfold vcat_check in Hc.
      apply bind_inv in Hc as (pr & _ & Hc). apply bind_inv in Hc as (po & _ & Hc). destruct (negb _); [discriminate|]. destruct (negb _); [discriminate|].
      injection Hc as <- _. reflexivity.
    + exists s, T. split; [exact H|]. split; [exact E1|]. split; [exact E2|]. rewrite E3. cbn [ve_v fresh_v v_cfg v_h h_cfg c_nc firstn].
      assert (L : exists a l, rows T = a :: l).
      { destruct (C80_vcategorical_l tick_rng (VEst (fresh_v "ste" 0 None) (RSSeed 0)) _ _ _ e1 glob1 ev eq_refl H) as (g0 & g2 & (_ & g1 & _ & _ & Kt & _) & _).
        destruct (Kt (or_introl (or_introl eq_refl))) as (r & _ & E4). rewrite E4 in E2. injection E2 as <-. cbn. eauto. }
      destruct L as (a & l & ->). cbn [nth firstn]. do 4 f_equal.
Qed.

Definition st_h {P} (h : hmm P) : hmm P :=
  let c := h_cfg h in
  Hmm (Cfg (c_nc c) (c_params c) (c_init_params c) (c_algorithm c) (c_impl c) 0 (c_tol c) (c_verbose c) (c_sprior c) (c_tprior c))
    (h_nfeat h) (h_start h) (h_trans h) st_mon (h_em h).
(** The centres are shifted by the number of earlier draws: none with a seed,
    three with a generator. *)
Lemma C80_gaussian_applies_l : forall (gen : bool), exists e' glob' ev,
  fit gaussian gauss_initc tick_rng exact (Est (st_h (cv_h "full" 2)) (if gen then RSGen 0%nat else RSSeed 0)) 7%nat cv_x (as_lengths [2%nat]) = Ok (e', glob', ev)
  /\ ga_means (h_em (e_hmm e')) = Some (fmat 2 2 (fun i _ => INR (i + (if gen then 3 else 0)))).
Proof.
  intros gen. set (rs := if gen then RSGen 0%nat else RSSeed 0).
  assert (Hrs : rs_get tick_rng rs 7%nat = Ok 0%nat) by (destruct gen; reflexivity).
  destruct (C76_trains_l tick_rng (Est (st_h (cv_h "full" 2)) rs) 7%nat cv_x [2%nat] 2 0 (/ 1000)) as (e' & glob' & ev & Hf & _).
  - unfold new_gaussian. cbn [e_hmm e_rs]. split; [repeat split|]. split; [unfold rs; destruct gen; [exact I|exists 0%nat; reflexivity]|].
    split; [cbn; lia|]. split; [lia|]. split; [apply cv_letters|]. split; [left; reflexivity|]. split; [reflexivity|].
    split; [reflexivity|]. split; [lra|]. split; [split; reflexivity|]. split; [repeat split|]. split; [lra|reflexivity].
  - exact tick_pos.
  - intros g. eexists _, (S g). reflexivity.
  - split; [exact cv_x_ok|]. repeat split; [discriminate|repeat constructor].
  - cbn; lia.
  - intros _ _. reflexivity.
  - exists e', glob', ev. split; [exact Hf|].
    destruct (C80_gaussian_l tick_rng (Est (st_h (cv_h "full" 2)) rs) 7%nat cv_x _ e' glob' ev eq_refl Hf) as (g0 & g2 & (B & g1 & Ks & _ & Kt & _) & K & _).
    cbn [e_rs] in B. rewrite Hrs in B. injection B as <-.
    destruct (Ks (or_introl eq_refl)) as (s & Hs & _). destruct (Kt (or_introl eq_refl)) as (rows & (gs & G0 & G1 & G2) & _).
    cbn in Hs. injection Hs as _ E1. cbn [e_hmm h_cfg st_h cv_h c_nc] in G1, G2.
    pose proof (G2 0%nat ltac:(lia)) as A0. pose proof (G2 1%nat ltac:(lia)) as A1. cbn in A0, A1. injection A0 as _ A0. injection A1 as _ A1.
    destruct (K (or_introl eq_refl)) as (m & g3 & Hm & ->). cbn [r_kmeans tick_rng e_hmm h_cfg st_h cv_h c_nc] in Hm. injection Hm as <- _.
    assert (g2 = 3%nat) as -> by congruence. unfold rs. destruct gen; reflexivity.
Qed.
Lemma C80_gmm_applies_l : exists e' glob' ev,
  fit (gmm eig1) (gmm_initc flat_grng) flat_rng exact (Est (st_h (fr_gmm "diag")) (RSSeed 0)) tt cv_x (as_lengths [2%nat]) = Ok (e', glob', ev).
Proof.
  destruct (C76_gmm_l flat_grng flat_rng eig1 (Est (st_h (fr_gmm "diag")) (RSSeed 0)) tt cv_x [2%nat] 2 2 (/ 1000)) as (e' & glob' & ev & Hf & _).
  - unfold new_gmm. cbn [e_hmm e_rs fr_gmm st_h h_start h_trans h_em h_cfg h_nfeat gm_weights gm_means gm_covars gm_type gm_nmix gm_min_covar c_nc c_params c_impl].
    repeat (split; [reflexivity|]). split; [exists tt; reflexivity|]. repeat (split; [lia|]). split.
    { intros a. cbn [has]. cbn [In]. intros H.
      repeat (apply Bool.orb_true_iff in H as [H|H]; [apply Ascii.eqb_eq in H; subst a; auto 10|]). 
      all: try discriminate; try (apply Ascii.eqb_eq in H; subst a; auto 10). }
    split; [left; reflexivity|]. split; [reflexivity|]. split; [reflexivity|]. split; [reflexivity|]. split; [lra|].
    split; [split; reflexivity|]. split; [repeat split|reflexivity].
  - exact flat_pos.
  - apply flat_grng_good.
  - exact eig1_good.
  - intros _. lia.
  - split; [exact cv_x_ok|]. repeat split; [discriminate|repeat constructor].
  - cbn. lia.
  - cbn. lia.
  - eauto.
Qed.
Definition st_v {P} (v : vhmm P) : vhmm P := with_h v (st_h (v_h v)).
Lemma C80_vgaussian_applies_l : exists e' glob' ev,
  vfit (vgaussian la_ref) (vg_initc two_clusters) flat_rng exact (VEst (st_v (new_vg "full")) (RSSeed 0)) tt four_samples (as_lengths [2; 2]%nat) = Ok (e', glob', ev)
  /\ vg_m (h_em (v_h (ve_v e'))) = Some (fmat 2 1 (fun i _ => INR i * 10 + 1 / 2)).
Proof.
  destruct (C72_fit_returns_l la_ref two_clusters flat_rng (VEst (st_v (new_vg "full")) (RSSeed 0)) tt four_samples [2; 2]%nat 1 (default_prior 2 1 four_samples))
    as (e1 & glob1 & ev & q & H & _).
  - exact la_ref_right.
  - exact flat_pos.
  - exists tt. reflexivity.
  - cbn. lia.
  - lia.
  - intros a. cbn [ve_v st_v with_h st_h new_vg v_cfg v_h c_params h_cfg]. cbn [has]. cbn [In]. intros H.
    repeat (apply Bool.orb_true_iff in H as [H|H]; [apply Ascii.eqb_eq in H; auto|]). 
    all: try discriminate; try (apply Ascii.eqb_eq in H; auto).
  - reflexivity.
  - left. reflexivity.
  - reflexivity.
  - repeat split.
  - left. reflexivity.
  - reflexivity.
  - apply default_args; try reflexivity. cbn. lia.
  - apply default_valid; cbn; lia.
  - split; [repeat constructor|]. split; [discriminate|]. split; [repeat constructor|reflexivity].
  - cbn. lia.
  - intros []. do 3 eexists. split; [reflexivity|]. split; [reflexivity|]. split; [repeat constructor|].
    intros [|[|i]] Hi; cbn in Hi |- *; lia.
  - exists e1, glob1, ev. split; [exact H|].
    destruct (C80_vgaussian_l la_ref two_clusters flat_rng (VEst (st_v (new_vg "full")) (RSSeed 0)) tt four_samples _ e1 glob1 ev eq_refl H)
      as (g0 & g2 & labels & centres & g3 & _ & Hk & K & _).
    rewrite (K (or_introl (or_introl eq_refl))). cbn in Hk. injection Hk as _ <- _. reflexivity.
Qed.
