(** * Property lemmas C83: the warning about too few data. *)
From Verif Require Export Interrupt_thms Vg_init.

(** The number of scalars behind the letters of [params]; a letter that is given
    twice counts twice. *)
Definition dim_of (dims : list (ascii * nat)) (a : ascii) : nat :=
  match find (fun e => Ascii.eqb (fst e) a) dims with Some e => snd e | None => 0%nat end.
Fixpoint letter_sum (dims : list (ascii * nat)) (s : string) : nat :=
  match s with EmptyString => 0%nat | String a r => (dim_of dims a + letter_sum dims r)%nat end.
(** [params] has only the letters of [dims], and the warning is logged iff X has
    fewer than [size] entries. *)
Definition warns_below (dims : list (ascii * nat)) (params : string) (size : nat) (ev : list event) : Prop :=
  letters_in params (map fst dims) /\ (In WDegenerate ev <-> (size < letter_sum dims params)%nat).

Lemma dict_sum_dims dims s : forall n, dict_sum (map (fun e => (fst e, Z.of_nat (snd e))) dims) s = Ok n ->
  n = Z.of_nat (letter_sum dims s) /\ letters_in s (map fst dims).
Proof.
  induction s as [|a s IH]; intros n H; cbn [dict_sum] in H; [injection H as <-; split; [reflexivity|intros b Hb; discriminate]|].
  apply bind_inv in H as (v & Hv & H). apply bind_inv in H as (w & Hw & H). injection H as <-. destruct (IH _ Hw) as [-> HL].
  assert (K : v = Z.of_nat (dim_of dims a) /\ In a (map fst dims)).
  { clear -Hv. unfold dict_get in Hv. unfold dim_of. induction dims as [|[b k] l IHl]; [discriminate|]. cbn [map find fst snd In] in *.
    destruct (Ascii.eqb_spec b a) as [->|N]; [cbn [snd] in *; injection Hv as <-; auto|]. destruct (IHl Hv); auto. }
  destruct K as [-> K]. split; [cbn [letter_sum]; lia|]. intros b Hb. cbn [has] in Hb. apply orb_prop in Hb as [Hb|Hb]; [apply Ascii.eqb_eq in Hb; subst; exact K|apply HL; exact Hb].
Qed.

Definition not_degen (v : event) : Prop := v <> WDegenerate.
Lemma overwrites_degen n l s : Forall not_degen (overwrites n l s).
Proof. unfold overwrites. destruct l, s; repeat constructor; discriminate. Qed.
Lemma loop_degen {O} fp (step : O -> res (O * xnum)) zr fuel : forall o m o' m' ev,
  fit_loop fp step zr fuel o m = Ok (o', m', ev) -> Forall not_degen ev.
Proof.
  assert (Hr : forall m v, Forall not_degen (snd (monitor_report fp m v))).
  { intros m v. unfold monitor_report. cbn [snd]. apply Forall_app. split.
    - destruct (m_verbose m); repeat constructor; discriminate.
    - destruct (m_history m); [constructor|]. destruct (xltb _ _); repeat constructor; discriminate. }
  induction fuel as [|k IH]; intros o m o' m' ev H; cbn [fit_loop] in H; [injection H as <- <- <-; constructor|].
  apply bind_inv in H as ([o1 lb] & _ & H). specialize (Hr m lb). destruct (monitor_report fp m lb) as [m1 ev1]. cbn [snd] in Hr.
  destruct (converged fp m1); [injection H as <- <- <-; exact Hr|].
  apply bind_inv in H as ([[o2 m2] ev2] & H2 & H). injection H as <- <- <-.
  apply Forall_app. split; [|apply (IH _ _ _ _ _ H2)]. destruct (zr o1); [|exact Hr].
  apply Forall_app. split; [exact Hr|repeat constructor; discriminate].
Qed.
Lemma degen_absent l : Forall not_degen l -> ~ In WDegenerate l.
Proof. intros H Hin. rewrite Forall_forall in H. apply (H _ Hin). reflexivity. Qed.

Section Degen.
  Context {P X St G : Type} (E : emclass P X St) (I : initclass P X G) (rg : rng G) (fp : fpmode).
  Hypothesis HE : forall c nf p x rs g p' rs' g' ev, ic_em I fp rg c nf p x rs g = Ok (p', rs', g', ev) -> Forall not_degen ev.
  Lemma degen_fit e glob x ls e' glob' ev : fit E I rg fp e glob x ls = Ok (e', glob', ev) ->
    let h := e_hmm e in let c := h_cfg h in
    x <> [] /\ (0 < c_nc c)%nat /\ exists nf p d n, ic_nfeat I c (h_nfeat h) (h_em h) x = Ok (nf, p) /\ ic_nfit I c nf p = Ok d /\ dict_sum d (c_params c) = Ok n
      /\ (In WDegenerate ev <-> (Z.of_nat (length x * ic_width I x) < n)%Z).
  Proof.
    intros H. cbv zeta. destruct (fit_inv _ _ _ _ _ _ _ _ _ _ _ H) as (ea & va & va2 & Hx & Hi & Hf & _ & ->).
    destruct (init_inv _ _ _ _ _ _ _ _ _ Hi) as (e1 & g1 & ev1 & p & rs & ev2 & Hb & Hem & -> & ->).
    destruct (base_init_inv _ _ _ _ _ _ _ _ _ Hb) as (A1 & A2 & A3 & A4 & A5 & A6 & _ & d & n & A7 & A8 & ->).
    split; [intros ->; discriminate|]. split; [exact A3|]. exists (h_nfeat (e_hmm e1)), (h_em (e_hmm e1)), d, n.
    split; [exact A4|]. split; [exact A7|]. split; [exact A8|].
    unfold fit_from in Hf. apply bind_inv in Hf as (h1 & _ & Hf). apply bind_inv in Hf as ([[h2 m] ev3] & Hl & Hf). injection Hf as _ <-.
    pose proof (degen_absent _ (loop_degen _ _ _ _ _ _ _ _ _ Hl)) as K1. pose proof (degen_absent _ (HE _ _ _ _ _ _ _ _ _ _ Hem)) as K2.
    pose proof (fun n0 l s => degen_absent _ (overwrites_degen n0 l s)) as K3. rewrite !in_app_iff.
    split.
    - intros [[[Q|[Q|Q]]|Q]|Q]; try contradiction; try (exfalso; exact (K3 _ _ _ Q)). destruct (Z.ltb_spec (Z.of_nat (length x * ic_width I x)) n); [assumption|contradiction].
    - intros Q. left. left. right. right. apply Z.ltb_lt in Q. rewrite Q. left. reflexivity.
  Qed.
  Lemma degen_dims e glob x ls e' glob' ev dims : fit E I rg fp e glob x ls = Ok (e', glob', ev) ->
    let h := e_hmm e in let c := h_cfg h in
    (forall nf p d, x <> [] -> (0 < c_nc c)%nat -> ic_nfeat I c (h_nfeat h) (h_em h) x = Ok (nf, p) -> ic_nfit I c nf p = Ok d -> d = map (fun e => (fst e, Z.of_nat (snd e))) dims) ->
    warns_below dims (c_params c) (length x * ic_width I x) ev.
  Proof.
    intros H. cbv zeta. destruct (degen_fit _ _ _ _ _ _ _ H) as (Hx & Hnc & nf & p & d & n & A1 & A2 & A3 & A4). intros K.
    rewrite (K _ _ _ Hx Hnc A1 A2) in A3. destruct (dict_sum_dims _ _ _ A3) as [-> HL]. split; [exact HL|]. rewrite A4. lia.
  Qed.
End Degen.

(** CategoricalHMM: the alphabet is n_features, or up to the largest symbol if that
    is not set. *)
Lemma C83_categorical_l {G} (rg : rng G) fp e glob x ls e' glob' ev : fit categorical cat_initc rg fp e glob x ls = Ok (e', glob', ev) ->
  let c := h_cfg (e_hmm e) in let nc := c_nc c in
  let nf := match h_nfeat (e_hmm e) with Some n => n | None => Z.to_nat (zmax x + 1) end in
  warns_below [("s"%char, simplex_dim nc); ("t"%char, nc * simplex_dim nc); ("e"%char, nc * simplex_dim nf)]%nat (c_params c) (length x) ev.
Proof.
  intros H. cbv zeta. rewrite <- (Nat.mul_1_r (length x)). refine (degen_dims categorical cat_initc rg fp _ e glob x ls e' glob' ev _ H _).
  - clear. intros c nf p x rs g p' rs' g' ev H. cbn [ic_em cat_initc] in H. destruct (cat_em_inv _ _ _ _ _ _ _ _ _ _ _ _ H) as (_ & _ & ->). apply overwrites_degen.
  - intros nf p d Hx Hnc. cbn [ic_nfeat ic_nfit cat_initc]. unfold cat_nfeat, cat_nfit. destruct (Z.ltb_spec (zmin x) 0) as [|Hmin]; [discriminate|].
    pose proof (zmax_ge x _ (zmin_in x Hx)) as Hmm. unfold simplex_dim. cbn [base_nfit app map fst snd].
    destruct (h_nfeat (e_hmm e)) as [n|].
    + destruct (Z.ltb_spec (Z.of_nat n - 1) (zmax x)); [discriminate|]. intros E1 E2. injection E1 as <- <-. injection E2 as <-. repeat (f_equal; try nia).
    + intros E1 E2. injection E1 as <- <-. injection E2 as <-. repeat (f_equal; try nia).
Qed.
Lemma C83_poisson_l {G} (rg : rng G) fp e glob x ls e' glob' ev : fit poisson pois_initc rg fp e glob x ls = Ok (e', glob', ev) ->
  let c := h_cfg (e_hmm e) in let nc := c_nc c in let nf := width x in
  warns_below [("s"%char, simplex_dim nc); ("t"%char, nc * simplex_dim nc); ("l"%char, nc * nf)]%nat (c_params c) (length x * nf) ev.
Proof.
  intros H. cbv zeta. refine (degen_dims poisson pois_initc rg fp _ e glob x ls e' glob' ev _ H _).
  - clear. intros c nf p x rs g p' rs' g' ev H. cbn [ic_em pois_initc] in H. destruct (pois_em_inv _ _ _ _ _ _ _ _ _ _ _ _ H) as (_ & _ & _ & ->). apply overwrites_degen.
  - intros nf p d Hx Hnc. cbn [ic_nfeat ic_nfit pois_initc]. unfold pois_nfeat, pois_nfit. intros E1 E2. apply bind_inv in E1 as (q & Hq & E1). injection E1 as <- <-.
    assert (q = Some (width x)) as ->. { destruct (h_nfeat (e_hmm e)); cbn in Hq; [destruct (Nat.eqb_spec n (width x)); [|discriminate]|]; congruence. }
    injection E2 as <-. unfold simplex_dim. cbn [base_nfit app map fst snd]. repeat (f_equal; try nia).
Qed.
Lemma C83_multinomial_l {G} (rg : rng G) fp e glob x ls e' glob' ev : fit multinomial mult_initc rg fp e glob x ls = Ok (e', glob', ev) ->
  let c := h_cfg (e_hmm e) in let nc := c_nc c in let nf := width x in (0 < nf)%nat ->
  warns_below [("s"%char, simplex_dim nc); ("t"%char, nc * simplex_dim nc); ("e"%char, nc * simplex_dim nf)]%nat (c_params c) (length x * nf) ev.
Proof.
  intros H. cbv zeta. intros Hw. refine (degen_dims multinomial mult_initc rg fp _ e glob x ls e' glob' ev _ H _).
  - clear. intros c nf p x rs g p' rs' g' ev H. cbn [ic_em mult_initc] in H. unfold mult_init_em in H. apply bind_inv in H as (rs1 & _ & H). destruct (has _ _).
    + apply bind_inv in H as (g1 & _ & H). apply bind_inv in H as ([m g2] & _ & H). destruct (rs_put rs1 g g2) as [rs2 gl2]. injection H as _ _ _ <-. constructor.
    + injection H as _ _ _ <-. constructor.
  - intros nf p d Hx Hnc. cbn [ic_nfeat ic_nfit mult_initc]. unfold mult_nfeat, mult_nfit. intros E1 E2. apply bind_inv in E1 as (q & Hq & E1).
    assert (q = Some (width x)) as ->. { destruct (h_nfeat (e_hmm e)); cbn in Hq; [destruct (Nat.eqb_spec n (width x)); [|discriminate]|]; congruence. }
    assert (nf = Some (width x)) as ->.
    { destruct (existsb _ x); [discriminate|]. cbv zeta in E1. destruct (mu_trials _); [apply bind_inv in E1 as ([] & _ & E1); [|discriminate]|]; injection E1 as <- _; reflexivity. }
    injection E2 as <-. unfold simplex_dim. cbn [base_nfit app map fst snd]. repeat (f_equal; try nia).
Qed.
Lemma type_known ty : is_type covariance_types ty = true -> ty = "spherical"%string \/ ty = "diag"%string \/ ty = "full"%string \/ ty = "tied"%string.
Proof. unfold is_type, covariance_types. cbn. intros H. repeat (apply orb_prop in H as [H|H]; [apply String.eqb_eq in H; auto|]). discriminate. Qed.
Lemma half_square a n : (Z.of_nat a * Z.of_nat n * (Z.of_nat n + 1) / 2 = Z.of_nat (a * symmetric_dim n))%Z.
Proof.
  pose proof (symmetric_dim_double n) as Hs.
  replace (Z.of_nat a * Z.of_nat n * (Z.of_nat n + 1))%Z with (Z.of_nat (a * symmetric_dim n) * 2)%Z by nia. apply Z.div_mul. lia.
Qed.
Lemma C83_gaussian_l {G} (rg : rng G) fp e glob x ls e' glob' ev : fit gaussian gauss_initc rg fp e glob x ls = Ok (e', glob', ev) ->
  let c := h_cfg (e_hmm e) in let nc := c_nc c in let nf := width x in
  warns_below [("s"%char, simplex_dim nc); ("t"%char, nc * simplex_dim nc); ("m"%char, nc * nf);
               ("c"%char, covars_dim (ga_type (h_em (e_hmm e))) nc nf)]%nat (c_params c) (length x * nf) ev.
Proof.
  intros H. cbv zeta. refine (degen_dims gaussian gauss_initc rg fp _ e glob x ls e' glob' ev _ H _).
  - clear. intros c nf p x rs g p' rs' g' ev H. cbn [ic_em gauss_initc] in H. unfold gauss_init_em in H. destruct (needs_init c "m" _ _) as [nm w] eqn:E1.
    apply bind_inv in H as ([[q r] s] & _ & H). apply bind_inv in H as (is_set & _ & H). destruct (needs_init c "c" _ _) as [nv w2] eqn:E2.
    apply needs_init_spec in E1 as [_ ->]. apply needs_init_spec in E2 as [_ ->].
    destruct nv; [apply bind_inv in H as (cv & _ & H); apply bind_inv in H as ([] & _ & H)|]; injection H as _ _ _ <-; apply Forall_app; split; apply overwrites_degen.
  - intros nf p d Hx Hnc. cbn [ic_nfeat ic_nfit gauss_initc]. unfold gauss_nfeat, gauss_nfit. intros E1 E2. apply bind_inv in E1 as (q & Hq & E1). injection E1 as <- <-.
    assert (q = Some (width x)) as ->. { destruct (h_nfeat (e_hmm e)); cbn in Hq; [destruct (Nat.eqb_spec n (width x)); [|discriminate]|]; congruence. }
    cbv zeta in E2. apply bind_inv in E2 as (k & Hk & E2). injection E2 as <-. unfold covars_dim, simplex_dim. cbn [base_nfit app map fst snd].
    pose proof (half_square (c_nc (h_cfg (e_hmm e))) (width x)) as S1. pose proof (half_square 1 (width x)) as S2. rewrite Z.mul_1_l, Nat.mul_1_l in S2.
    assert (Hk' : k = Z.of_nat (if String.eqb (ga_type (h_em (e_hmm e))) "spherical" then c_nc (h_cfg (e_hmm e))
       else if String.eqb (ga_type (h_em (e_hmm e))) "diag" then c_nc (h_cfg (e_hmm e)) * width x
       else if String.eqb (ga_type (h_em (e_hmm e))) "full" then c_nc (h_cfg (e_hmm e)) * symmetric_dim (width x) else symmetric_dim (width x))%nat).
    { destruct (String.eqb _ "spherical"); [injection Hk as <-; reflexivity|]. destruct (String.eqb _ "diag"); [injection Hk as <-; nia|].
      destruct (String.eqb _ "full"); [injection Hk as <-; exact S1|]. destruct (String.eqb _ "tied"); [injection Hk as <-; exact S2|discriminate]. }
    rewrite Hk'. repeat (f_equal; try nia).
Qed.
(** GMMHMM: the weights of one state are counted. *)
Definition gmm_dims (ty : string) (nc nm nf : nat) : list (ascii * nat) :=
  [("s"%char, simplex_dim nc); ("t"%char, nc * simplex_dim nc); ("m"%char, nc * nm * nf); ("c"%char, mix_covars_dim ty nc nm nf); ("w"%char, simplex_dim nm)]%nat.
Lemma C83_gmm_count_l {G} (gr : grng G) (rg : rng G) eig fp e glob x ls e' glob' ev :
  fit (gmm eig) (gmm_initc gr) rg fp e glob x ls = Ok (e', glob', ev) ->
  let c := h_cfg (e_hmm e) in let nc := c_nc c in let nf := width x in let nm := gm_nmix (h_em (e_hmm e)) in
  (0 < nm)%nat -> warns_below (gmm_dims (gm_type (h_em (e_hmm e))) nc nm nf) (c_params c) (length x * nf) ev.
Proof.
  intros H. cbv zeta. intros Hnm. refine (degen_dims (gmm eig) (gmm_initc gr) rg fp _ e glob x ls e' glob' ev _ H _).
  - clear. intros c nf p0 x rs g p' rs' g' ev H. cbn [ic_em gmm_initc] in H. unfold gmm_init_em in H. apply bind_inv in H as (p & _ & H).
    apply bind_inv in H as ([[[labels centers] rs1] g1] & _ & H). apply bind_inv in H as ([[ms rs2] g2] & _ & H).
    destruct (needs_init c "w" _ _) as [nw w1] eqn:E1. apply needs_init_spec in E1 as [_ ->]. apply bind_inv in H as (w & _ & H).
    destruct (needs_init c "m" _ _) as [nm w2] eqn:E2. apply needs_init_spec in E2 as [_ ->].
    destruct (needs_init c "c" _ _) as [nv w3] eqn:E3. apply needs_init_spec in E3 as [_ ->]. injection H as _ _ _ <-.
    apply Forall_app; split; [|apply Forall_app; split]; apply overwrites_degen.
  - intros nf p d Hx Hnc. cbn [ic_nfeat ic_nfit gmm_initc]. unfold gmm_nfeat, gmm_nfit. intros E1 E2. apply bind_inv in E1 as (q & Hq & E1). injection E1 as <- <-.
    assert (q = Some (width x)) as ->. { destruct (h_nfeat (e_hmm e)); cbn in Hq; [destruct (Nat.eqb_spec n (width x)); [|discriminate]|]; congruence. }
    cbv zeta in E2. apply bind_inv in E2 as (k & Hk & E2). injection E2 as <-. unfold gmm_dims. cbn [base_nfit app map fst snd].
    set (nc := c_nc (h_cfg (e_hmm e))) in *. set (nm := gm_nmix (h_em (e_hmm e))) in *. set (n := width x) in *.
    pose proof (half_square (nc * nm) n) as S1. pose proof (half_square nc n) as S2. rewrite Nat2Z.inj_mul in S1.
    assert (Hk' : k = Z.of_nat (mix_covars_dim (gm_type (h_em (e_hmm e))) nc nm n)).
    { unfold mix_covars_dim. destruct (String.eqb _ "spherical"); [injection Hk as <-; nia|]. destruct (String.eqb _ "diag"); [injection Hk as <-; nia|].
      destruct (String.eqb _ "full"); [injection Hk as <-; exact S1|]. destruct (String.eqb _ "tied"); [injection Hk as <-; exact S2|discriminate]. }
    rewrite Hk'. clearbody nc nm n. unfold simplex_dim. repeat (f_equal; try nia).
Qed.
(** Two states, two components, one feature: 13 free parameters, no warning with 12
    numbers. *)
Definition dg_h : hmm gmmp :=
  Hmm (Cfg 2 "stmcw" "" "viterbi" "log" 0 (Fin (/ 100)) false (Scal (Fin 1)) (Scal (Fin 1))) (Some 1%nat)
      (h_start (ex2 "")) (h_trans (ex2 "")) (Monitor (Fin (/ 100)) 0 false [] 0) (h_em (ex2 "")).
Definition dg_x : list vec := map (fun k => v1 (INR k)) (seq 0 12).
Lemma C83_gmm_refuted_l : exists (e : est gmmp nat) e' glob' ev,
  c_params (h_cfg (e_hmm e)) = "stmcw"%string /\ c_nc (h_cfg (e_hmm e)) = 2%nat /\ gm_nmix (h_em (e_hmm e)) = 2%nat /\ gm_type (h_em (e_hmm e)) = "diag"%string
  /\ fit (gmm eig1) (gmm_initc toy_grng) toy_rng exact e 0%nat dg_x None = Ok (e', glob', ev)
  /\ (length dg_x * width dg_x = 12)%nat /\ gmm_dim "diag" 2 2 1 = 13%nat /\ ~ In WDegenerate ev.
Proof.
  assert (F : exists r, fit (gmm eig1) (gmm_initc toy_grng) toy_rng exact (Est dg_h (RSSeed 0)) 0%nat dg_x None = Ok r).
  { unfold fit. replace (check_array _ dg_x) with (Ok dg_x) by reflexivity. cbn [bind].
    assert (HF : gmm_flat (ex2 "")) by (repeat split). pose proof (gmm_flat_hyper (ex2 "") 2 2 1 "diag" HF) as HH.
    assert (Hi : exists g ev, init (gmm_initc toy_grng) toy_rng exact (Est dg_h (RSSeed 0)) 0%nat dg_x
       = Ok (Est (Hmm (h_cfg dg_h) (h_nfeat dg_h) (h_start dg_h) (h_trans dg_h) (h_mon dg_h) (gmm_checked 2 2 1 "diag" (fun _ _ => 1) (fun _ _ => 0) (fun _ _ _ => 0) (fun _ => none_cp "diag" 2 1) (fun _ => none_cw "diag" 2 1) (h_em dg_h))) (RSSeed 0), g, ev)).
    { unfold init.
      assert (Hb : exists ev, base_init (gmm_initc toy_grng) toy_rng exact (Est dg_h (RSSeed 0)) 0%nat dg_x = Ok (Est dg_h (RSSeed 0), 0%nat, ev)) by (eexists; reflexivity).
      destruct Hb as [ev ->]. cbn [bind e_hmm e_rs ic_em gmm_initc]. unfold gmm_init_em. cbv zeta.
      change (c_nc (h_cfg dg_h)) with 2%nat. change (h_nfeat dg_h) with (Some 1%nat). cbn iota.
      rewrite (fix_priors_ok 2 2 1 "diag" eq_refl _ _ _ _ _ (h_em dg_h) eq_refl eq_refl HH). cbn [bind]. eexists _, _. reflexivity. }
    destruct Hi as (g & ev & ->). cbn [bind e_hmm]. unfold fit_from. set (h0 := Hmm _ _ _ _ _ _).
    assert (GM : gmm_model eig1 h0 2 2 1 "diag" (fun _ => 1 / 2) half2 half2 (cmu 0) (ccv 1)).
    { destruct (ex2_model ""). constructor; try assumption. destruct mm_base. constructor; assumption. }
    assert (HG : gmm_hyper (h_em h0) 2 2 1 "diag" (fun _ _ => 1) (fun _ _ => 0) (fun _ _ _ => 0) (fun _ => none_cp "diag" 2 1) (fun _ => none_cw "diag" 2 1)).
    { destruct (hyper_checked 2 2 1 "diag" (fun _ _ => 1) (fun _ _ => 0) (fun _ _ _ => 0) (fun _ => none_cp "diag" 2 1) (fun _ => none_cw "diag" 2 1) (h_em dg_h)).
      constructor; assumption. }
    rewrite (gmm_fit_check eig1 _ 2 2 1 "diag" _ _ _ _ _ GM _ _ _ _ _ HG). cbn [bind]. eexists. reflexivity. }
  destruct F as [[[e' g] ev] F]. exists (Est dg_h (RSSeed 0)), e', g, ev. do 4 (split; [reflexivity|]). split; [exact F|]. split; [reflexivity|]. split; [reflexivity|].
  destruct (C83_gmm_count_l _ _ _ _ _ _ _ _ _ _ _ F (Nat.lt_0_succ 1)) as [_ K]. rewrite K. change (letter_sum _ _) with 12%nat. change (length dg_x * width dg_x)%nat with 12%nat. lia.
Qed.

Lemma vloop_degen {O} fp (step : O -> res (O * xnum)) zr fuel o m o' m' ev :
  vfit_loop fp step zr fuel o m = Ok (o', m', ev) -> Forall not_degen ev.
Proof.
  intros H. apply (loop_degen fp step (fun o => zrows (zr o)) fuel o m o' m' ev).
  apply (vfit_loop_fit fp step zr); [|exact H]. intros a b E. rewrite E. reflexivity.
Qed.
Section VDegen.
  Context {P X St G : Type} (V : vclass P X St) (I : vinitclass P X G) (rg : rng G) (fp : fpmode).
  Hypothesis HE : forall c nf p x ls rs g p' rs' g' ev, vi_em I fp rg c nf p x ls rs g = Ok (p', rs', g', ev) -> Forall not_degen ev.
  Lemma vdegen_dims e glob x ls e' glob' ev dims : vfit V I rg fp e glob x ls = Ok (e', glob', ev) ->
    let h := v_h (ve_v e) in let c := h_cfg h in
    (forall nf p d, x <> [] -> (0 < c_nc c)%nat -> vi_nfeat I c (h_nfeat h) (h_em h) x = Ok (nf, p) -> vi_nfit I c nf p = Ok d -> d = map (fun e => (fst e, Z.of_nat (snd e))) dims) ->
    warns_below dims (c_params c) (length x * vi_width I x) ev.
  Proof.
    intros H. cbv zeta. intros K. unfold vfit in H. apply bind_inv in H as (x' & Hx & H).
    assert (x' = x /\ x <> []) as [-> Hne].
    { unfold check_array in Hx. destruct x; [discriminate|]. destruct (forallb _ _); [|discriminate]. injection Hx as <-. split; [reflexivity|discriminate]. }
    apply bind_inv in H as ([[e1 glob1] ev1] & H1 & H). apply bind_inv in H as ([v2 ev2] & H2 & H). injection H as <- <- <-.
    assert (K2 : ~ In WDegenerate ev2).
    { unfold vfit_from in H2. apply bind_inv in H2 as (v1 & _ & H2). apply bind_inv in H2 as ([[v3 m] ev3] & H3 & H2). injection H2 as _ <-. apply degen_absent.
      apply (vloop_degen _ _ _ _ _ _ _ _ _ H3). }
    unfold vinit in H1. apply bind_inv in H1 as ([[ea ga] eva] & Hb & H1). apply bind_inv in H1 as ([[[p rs] gb] evb] & Hem & H1). injection H1 as <- <- <-.
    pose proof (degen_absent _ (HE _ _ _ _ _ _ _ _ _ _ _ Hem)) as K3. clear Hem H2.
    unfold vbase_init in Hb. fold (v_cfg (ve_v e)) in Hb. apply bind_inv in Hb as ([nf q] & Hnf & Hb).
    destruct (Nat.eqb_spec (c_nc (v_cfg (ve_v e))) 0) as [|Hnc]; [discriminate|].
    apply bind_inv in Hb as (g & Hg & Hb). destruct (needs_init2 _ "s" _ _ _ _) as [ns w1] eqn:Es. apply bind_inv in Hb as ([[sp sq] g1] & _ & Hb).
    destruct (needs_init2 _ "t" _ _ _ _) as [nt w2] eqn:Et. apply bind_inv in Hb as ([[tp tq] g2] & _ & Hb).
    destruct (rs_put (ve_rs e) glob g2) as [rs3 glob3]. apply bind_inv in Hb as (d & Hd & Hb). apply bind_inv in Hb as (n & Hn & Hb). injection Hb as _ _ <-.
    apply needs_init2_spec in Es as [_ ->]. apply needs_init2_spec in Et as [_ ->].
    rewrite (K _ _ _ Hne ltac:(unfold v_cfg in Hnc; lia) Hnf Hd) in Hn. destruct (dict_sum_dims _ _ _ Hn) as [-> HL]. split; [exact HL|].
    pose proof (fun n0 l s => degen_absent _ (overwrites_degen n0 l s)) as K4. rewrite !in_app_iff. fold (v_cfg (ve_v e)).
    split.
    - intros [[[Q|[Q|Q]]|Q]|Q]; try contradiction; try (exfalso; exact (K4 _ _ _ Q)).
      destruct (Z.ltb_spec (Z.of_nat (length x * vi_width I x)) (Z.of_nat (letter_sum dims (c_params (v_cfg (ve_v e)))))); [lia|contradiction].
    - intros Q. left. left. right. right. rewrite (proj2 (Z.ltb_lt _ _)) by lia. left. reflexivity.
  Qed.
End VDegen.
Lemma C83_vcategorical_l {G} (rg : rng G) fp e glob x ls e' glob' ev : vfit vcategorical vcat_initc rg fp e glob x ls = Ok (e', glob', ev) ->
  let c := h_cfg (v_h (ve_v e)) in let nc := c_nc c in
  let nf := match h_nfeat (v_h (ve_v e)) with Some n => n | None => Z.to_nat (zmax x + 1) end in
  warns_below [("s"%char, simplex_dim nc); ("t"%char, nc * simplex_dim nc); ("e"%char, nc * simplex_dim nf)]%nat (c_params c) (length x) ev.
Proof.
  intros H. cbv zeta. rewrite <- (Nat.mul_1_r (length x)). refine (vdegen_dims vcategorical vcat_initc rg fp _ e glob x ls e' glob' ev _ H _).
  - clear. intros c nf p x ls rs g p' rs' g' ev H. cbn [vi_em vcat_initc] in H. destruct (vcat_em_inv _ _ _ _ _ _ _ _ _ _ _ _ _ H) as (_ & _ & _ & _ & ->). apply overwrites_degen.
  - intros nf p d Hx Hnc. cbn [vi_nfeat vi_nfit vcat_initc]. unfold vcat_nfeat, vcat_nfit, cat_nfeat, cat_nfit. destruct (Z.ltb_spec (zmin x) 0) as [|Hmin]; [discriminate|].
    pose proof (zmax_ge x _ (zmin_in x Hx)) as Hmm. unfold simplex_dim. cbn [base_nfit app map fst snd].
    destruct (h_nfeat (v_h (ve_v e))) as [n|].
    + destruct (Z.ltb_spec (Z.of_nat n - 1) (zmax x)); [discriminate|]. cbn [bind]. intros E1 E2. injection E1 as <- <-. injection E2 as <-. repeat (f_equal; try nia).
    + cbn [bind]. intros E1 E2. injection E1 as <- <-. injection E2 as <-. repeat (f_equal; try nia).
Qed.
Lemma Ok_inj {A} (a b : A) : Ok a = Ok b -> a = b.
Proof. intros H. injection H. auto. Qed.
Lemma four_pairs (k1 k2 k3 k4 : ascii) (a1 a2 a3 a4 b1 b2 b3 b4 : Z) : a1 = b1 -> a2 = b2 -> a3 = b3 -> a4 = b4 ->
  [(k1, a1); (k2, a2); (k3, a3); (k4, a4)] = [(k1, b1); (k2, b2); (k3, b3); (k4, b4)].
Proof. intros -> -> -> ->. reflexivity. Qed.
(** VariationalGaussianHMM: per state also one [beta] for the mean and one number of
    degrees of freedom for the precision matrix (one in all if it is shared). *)
Lemma C83_vgaussian_l {G} la (gr : grng G) (rg : rng G) fp e glob x ls e' glob' ev : vfit (vgaussian la) (vg_initc gr) rg fp e glob x ls = Ok (e', glob', ev) ->
  let c := h_cfg (v_h (ve_v e)) in let nc := c_nc c in let nf := width x in let ty := vg_type (h_em (v_h (ve_v e))) in
  warns_below [("s"%char, simplex_dim nc); ("t"%char, nc * simplex_dim nc); ("m"%char, nc * nf + nc);
               ("c"%char, covars_dim ty nc nf + if String.eqb ty "tied" then 1 else nc)]%nat (c_params c) (length x * nf) ev.
Proof.
  intros H. cbv zeta. refine (vdegen_dims (vgaussian la) (vg_initc gr) rg fp _ e glob x ls e' glob' ev _ H _).
  - clear. intros c nf p x ls rs g p' rs' g' ev H. cbn [vi_em vg_initc] in H. destruct (vg_em_inv _ _ _ _ _ _ _ _ _ _ _ _ _ _ H) as (_ & _ & _ & ->).
    apply Forall_app; split; apply overwrites_degen.
  - intros nf p d Hx Hnc. cbn [vi_nfeat vi_nfit vg_initc]. unfold vg_nfeat, vg_nfit. intros E1 E2. apply bind_inv in E1 as (q & Hq & E1). injection E1 as <- <-.
    assert (q = Some (width x)) as ->. { destruct (h_nfeat (v_h (ve_v e))); cbn in Hq; [destruct (Nat.eqb_spec n (width x)); [|discriminate]|]; congruence. }
    destruct (is_type _ _) eqn:Ht; [|discriminate]. cbv zeta in E2. cbn [negb] in E2. apply Ok_inj in E2. subst d. unfold covars_dim, simplex_dim. cbn [base_nfit app map fst snd].
    set (nc := c_nc _) in *. set (n := width x) in *.
    pose proof (half_square nc n) as S1. pose proof (half_square 1 n) as S2. rewrite Z.mul_1_l, Nat.mul_1_l in S2. rewrite S1, S2. clearbody nc n. clear -Ht Hnc.
    destruct (type_known _ Ht) as [E|[E|[E|E]]]; rewrite E; cbn [String.eqb Ascii.eqb Bool.eqb];
      apply four_pairs; generalize (symmetric_dim n); intros sd; rewrite ?Nat2Z.inj_add, ?Nat2Z.inj_mul, ?Nat2Z.inj_sub by lia; try lia.
Qed.
