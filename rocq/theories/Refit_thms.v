(** * C29: calling [fit] twice with an integer seed. *)
From Verif Require Export Init_thms.

Section Seeded.
  Context {P X St G : Type} (E : emclass P X St) (I : initclass P X G) (rg : rng G) (fp : fpmode).
  Definition alpha_of (fp : fpmode) (nc : nat) : vec := tab nc (fun _ => xdiv fp (Fin 1) (Fin (INR nc))).
  (** The first draw of [_init] is the start vector. *)
  Lemma base_init_start e glob x e' glob' ev : base_init I rg fp e glob x = Ok (e', glob', ev) ->
    has "s" (c_init_params (h_cfg (e_hmm e))) = true ->
    exists g v g1, rs_get rg (e_rs e) glob = Ok g
      /\ r_dirichlet rg (alpha_of fp (c_nc (h_cfg (e_hmm e)))) g = Ok (v, g1) /\ h_start (e_hmm e') = Some v.
  Proof.
    intros H Hs. unfold base_init in H. apply bind_inv in H as ([nf p] & _ & H).
    destruct (Nat.eqb _ 0); [discriminate|]. apply bind_inv in H as (g & Hg & H).
    unfold needs_init in H at 1. rewrite Hs in H. apply bind_inv in H as ([s g1] & Hd & H).
    apply bind_inv in Hd as ([v g1'] & Hv & Hd). injection Hd as <- <-.
    destruct (needs_init _ _ _ _) as [nt ev2]. apply bind_inv in H as ([t g2] & _ & H).
    destruct (rs_put _ _ _). apply bind_inv in H as (d & _ & H). apply bind_inv in H as (n & _ & H).
    injection H as <- _ _. exists g, v, g1'. split; [exact Hg|]. split; [exact Hv|reflexivity].
  Qed.
  Lemma init_start e glob x e' glob' ev : init I rg fp e glob x = Ok (e', glob', ev) ->
    has "s" (c_init_params (h_cfg (e_hmm e))) = true ->
    exists g v g1, rs_get rg (e_rs e) glob = Ok g
      /\ r_dirichlet rg (alpha_of fp (c_nc (h_cfg (e_hmm e)))) g = Ok (v, g1) /\ h_start (e_hmm e') = Some v.
  Proof.
    intros H Hs. destruct (init_inv _ _ _ _ _ _ _ _ _ H) as (e1 & g1 & ev1 & p & rs & ev2 & Hb & _ & -> & _).
    destruct (base_init_start _ _ _ _ _ _ Hb Hs) as (g & v & g2 & A & B & C).
    exists g, v, g2. split; [exact A|]. split; [exact B|exact C].
  Qed.

  (** When the emission part of [_init] turns a seed into a generator advanced by
      [adv], the second [fit] starts from that generator. *)
  Variable adv : cfg -> option nat -> G -> G -> Prop.
  Hypothesis Hadv : forall c nf p x k glob p' rs' glob' ev,
    ic_em I fp rg c nf p x (RSSeed k) glob = Ok (p', rs', glob', ev) ->
    exists g g', r_seed rg k = Ok g /\ adv c nf g g' /\ rs' = RSGen g'.
  Lemma refit_draws e glob x ls e1 glob1 ev1 glob2 y eb glob3 ev3 k :
    e_rs e = RSSeed k -> has "s" (c_init_params (h_cfg (e_hmm e))) = true ->
    fit E I rg fp e glob x ls = Ok (e1, glob1, ev1) -> init I rg fp e1 glob2 y = Ok (eb, glob3, ev3) ->
    exists ea ga va g g' v1 v2 gx gy, init I rg fp e glob x = Ok (ea, ga, va)
      /\ r_seed rg k = Ok g /\ adv (h_cfg (e_hmm e)) (h_nfeat (e_hmm ea)) g g' /\ e_rs e1 = RSGen g'
      /\ r_dirichlet rg (alpha_of fp (c_nc (h_cfg (e_hmm e)))) g = Ok (v1, gx) /\ h_start (e_hmm ea) = Some v1
      /\ r_dirichlet rg (alpha_of fp (c_nc (h_cfg (e_hmm e)))) g' = Ok (v2, gy) /\ h_start (e_hmm eb) = Some v2.
  Proof.
    intros Hk Hs Hf Hi2. destruct (fit_inv _ _ _ _ _ _ _ _ _ _ _ Hf) as (ea & va & va2 & _ & Hi & Hff & Hrs & _).
    pose proof (fit_from_keeps _ _ _ _ _ _ _ Hff) as (Hc1 & _).
    destruct (init_start _ _ _ _ _ _ Hi Hs) as (g & v & gx & Hg & Hv & Hst). rewrite Hk in Hg. cbn [rs_get] in Hg.
    destruct (init_inv _ _ _ _ _ _ _ _ _ Hi) as (ba & g1 & wa & p & rs & w2 & Hb & He & Hea & _).
    destruct (base_init_inv _ _ _ _ _ _ _ _ _ Hb) as (B1 & _ & _ & _ & _ & _ & (gg & gg' & _ & Hp) & _).
    rewrite Hk in Hp. cbn [rs_put] in Hp. injection Hp as Hp _. rewrite <- Hp in He.
    destruct (Hadv _ _ _ _ _ _ _ _ _ _ He) as (g0 & g' & Hg0 & Ha & Hrs'). rewrite Hg in Hg0. injection Hg0 as <-.
    assert (Hcfg : h_cfg (e_hmm e1) = h_cfg (e_hmm e)). { rewrite Hc1, Hea. exact B1. }
    assert (Hrs1 : e_rs e1 = RSGen g'). { rewrite Hrs, Hea. exact Hrs'. }
    destruct (init_start _ _ _ _ _ _ Hi2) as (h & v2 & gy & Hh & Hv2 & Hst2). { rewrite Hcfg. exact Hs. }
    rewrite Hrs1 in Hh. cbn [rs_get] in Hh. injection Hh as <-. rewrite Hcfg in Hv2.
    exists ea, glob1, va, g, g', v, v2, gx, gy. rewrite B1 in Ha. replace (h_nfeat (e_hmm ba)) with (h_nfeat (e_hmm ea)) in Ha by (rewrite Hea; reflexivity). repeat (split; [assumption|]). exact Hst2.
  Qed.
End Seeded.

(** The generator owned by the estimator after the first [fit]: the seeded
    generator advanced by the emission draws. *)
Definition rand_advance {G} (rg : rng G) (letter : ascii) (c : cfg) (nf : option nat) (g g' : G) : Prop :=
  has letter (c_init_params c) = true ->
  exists m, rand_mat rg (c_nc c) (match nf with Some n => n | None => 0%nat end) g = Ok (m, g').
Definition gamma_advance {G} (rg : rng G) (c : cfg) (nf : option nat) (g g' : G) : Prop :=
  has "l" (c_init_params c) = true ->
  exists sh sc m, gamma_mat rg sh sc (c_nc c) (match nf with Some n => n | None => 0%nat end) g = Ok (m, g').
Lemma cat_adv {G} (rg : rng G) fp c nf p x k glob p' rs' glob' ev :
  cat_init_em fp rg c nf p x (RSSeed k) glob = Ok (p', rs', glob', ev) ->
  exists g g', r_seed rg k = Ok g /\ rand_advance rg "e" c nf g g' /\ rs' = RSGen g'.
Proof.
  intros H. unfold cat_init_em in H. cbn [rs_adopt] in H. apply bind_inv in H as (rs1 & Hs & H).
  apply bind_inv in Hs as (g & Hg & Hs). injection Hs as <-.
  unfold needs_init, rand_advance in *. destruct (has "e" (c_init_params c)); cycle 1.
  - destruct (negb _).
    + cbn [rs_get bind] in H. apply bind_inv in H as ([m g1] & Hm & H). cbn [rs_put] in H. injection H as <- <- <- <-.
      exists g, g1. split; [exact Hg|]. split; [|reflexivity]. discriminate.
    + injection H as <- <- <- <-. exists g, g. split; [exact Hg|]. split; [|reflexivity]. discriminate.
  - cbn [rs_get bind] in H. apply bind_inv in H as ([m g1] & Hm & H). cbn [rs_put] in H. injection H as <- <- <- <-.
    exists g, g1. split; [exact Hg|]. split; [|reflexivity]. intros _. exists m; exact Hm.
Qed.
Lemma mult_adv {G} (rg : rng G) fp c nf p x k glob p' rs' glob' ev :
  mult_init_em fp rg c nf p x (RSSeed k) glob = Ok (p', rs', glob', ev) ->
  exists g g', r_seed rg k = Ok g /\ rand_advance rg "e" c nf g g' /\ rs' = RSGen g'.
Proof.
  intros H. unfold mult_init_em in H. cbn [rs_adopt] in H. apply bind_inv in H as (rs1 & Hs & H).
  apply bind_inv in Hs as (g & Hg & Hs). injection Hs as <-.
  unfold rand_advance in *. destruct (has "e" (c_init_params c)); cycle 1.
  - injection H as <- <- <- <-. exists g, g. split; [exact Hg|]. split; [|reflexivity]. discriminate.
  - cbn [rs_get bind] in H. apply bind_inv in H as ([m g1] & Hm & H). cbn [rs_put] in H. injection H as <- <- <- <-.
    exists g, g1. split; [exact Hg|]. split; [|reflexivity]. intros _. exists m; exact Hm.
Qed.
Lemma pois_adv {G} (rg : rng G) fp c nf p x k glob p' rs' glob' ev :
  pois_init_em fp rg c nf p x (RSSeed k) glob = Ok (p', rs', glob', ev) ->
  exists g g', r_seed rg k = Ok g /\ gamma_advance rg c nf g g' /\ rs' = RSGen g'.
Proof.
  intros H. unfold pois_init_em in H. cbn [rs_adopt] in H. apply bind_inv in H as (rs1 & Hs & H).
  apply bind_inv in Hs as (g & Hg & Hs). injection Hs as <-.
  unfold needs_init, gamma_advance in *. destruct (has "l" (c_init_params c)); cycle 1.
  - destruct (negb _).
    + cbn [rs_get bind] in H. apply bind_inv in H as ([m g1] & Hm & H). cbn [rs_put] in H. injection H as <- <- <- <-.
      exists g, g1. split; [exact Hg|]. split; [|reflexivity]. discriminate.
    + injection H as <- <- <- <-. exists g, g. split; [exact Hg|]. split; [|reflexivity]. discriminate.
  - cbn [rs_get bind] in H. apply bind_inv in H as ([m g1] & Hm & H). cbn [rs_put] in H. injection H as <- <- <- <-.
    exists g, g1. split; [exact Hg|]. split; [|reflexivity]. intros _. eexists _, _, m; exact Hm.
Qed.

(** ** True for GaussianHMM. *)
Lemma C29_gaussian_l {G} (rg : rng G) fp e k glob x ls e1 glob1 ev1 glob2 e2 glob3 ev2 :
  let ip := c_init_params (h_cfg (e_hmm e)) in
  e_rs e = RSSeed k ->
  has "s" ip = true -> has "t" ip = true -> has "m" ip = true -> has "c" ip = true ->
  fit gaussian gauss_initc rg fp e glob x ls = Ok (e1, glob1, ev1) ->
  fit gaussian gauss_initc rg fp e1 glob2 x ls = Ok (e2, glob3, ev2) ->
  (exists ea eb ga gb va vb, init gauss_initc rg fp e glob x = Ok (ea, ga, va)
     /\ init gauss_initc rg fp e1 glob2 x = Ok (eb, gb, vb) /\ same_model (e_hmm ea) (e_hmm eb))
  /\ e2 = e1.
Proof.
  cbv zeta. intros Hk Hs Ht Hm Hc H1 H2.
  assert (He : e1 = Est (e_hmm e1) (RSSeed k)).
  { pose proof (gauss_keeps_seed rg fp _ _ _ _ _ _ _ _ _ eq_refl Hk H1) as Hr. destruct e1 as [h1 r1]. cbn in *. rewrite Hr. reflexivity. }
  rewrite He in H2. pose proof (gauss_refit rg fp _ _ _ _ _ _ _ _ _ _ _ _ _ eq_refl Hk Hs Ht Hm Hc H1 H2) as HH.
  rewrite <- He in HH. exact HH.
Qed.

(** ** The other classes: true when the seed is assigned again before the second
    [fit]. *)
Lemma C29_categorical_reseeded_partial_l {G} (rg : rng G) fp e k glob x ls e1 glob1 ev1 glob2 e2 glob3 ev2 :
  let ip := c_init_params (h_cfg (e_hmm e)) in
  e_rs e = RSSeed k -> has "s" ip = true -> has "t" ip = true -> has "e" ip = true ->
  fit categorical cat_initc rg fp e glob x ls = Ok (e1, glob1, ev1) ->
  let e1' := Est (e_hmm e1) (RSSeed k) in
  fit categorical cat_initc rg fp e1' glob2 x ls = Ok (e2, glob3, ev2) ->
  (exists ea eb ga gb va vb, init cat_initc rg fp e glob x = Ok (ea, ga, va)
     /\ init cat_initc rg fp e1' glob2 x = Ok (eb, gb, vb) /\ same_model (e_hmm ea) (e_hmm eb))
  /\ e2 = e1.
Proof. intros ip Hk Hs Ht He H1 e1' H2. exact (cat_refit rg fp _ _ _ _ _ _ _ _ _ _ _ _ _ eq_refl Hk Hs Ht He H1 H2). Qed.
Lemma C29_poisson_reseeded_partial_l {G} (rg : rng G) fp e k glob x ls e1 glob1 ev1 glob2 e2 glob3 ev2 :
  let ip := c_init_params (h_cfg (e_hmm e)) in
  e_rs e = RSSeed k -> has "s" ip = true -> has "t" ip = true -> has "l" ip = true ->
  fit poisson pois_initc rg fp e glob x ls = Ok (e1, glob1, ev1) ->
  let e1' := Est (e_hmm e1) (RSSeed k) in
  fit poisson pois_initc rg fp e1' glob2 x ls = Ok (e2, glob3, ev2) ->
  (exists ea eb ga gb va vb, init pois_initc rg fp e glob x = Ok (ea, ga, va)
     /\ init pois_initc rg fp e1' glob2 x = Ok (eb, gb, vb) /\ same_model (e_hmm ea) (e_hmm eb))
  /\ e2 = e1.
Proof. intros ip Hk Hs Ht He H1 e1' H2. exact (pois_refit rg fp _ _ _ _ _ _ _ _ _ _ _ _ _ eq_refl Hk Hs Ht He H1 H2). Qed.
Lemma C29_multinomial_reseeded_partial_l {G} (rg : rng G) fp e k glob x ls e1 glob1 ev1 glob2 e2 glob3 ev2 :
  let ip := c_init_params (h_cfg (e_hmm e)) in
  e_rs e = RSSeed k -> has "s" ip = true -> has "t" ip = true -> has "e" ip = true ->
  fit multinomial mult_initc rg fp e glob x ls = Ok (e1, glob1, ev1) ->
  let e1' := Est (e_hmm e1) (RSSeed k) in
  fit multinomial mult_initc rg fp e1' glob2 x ls = Ok (e2, glob3, ev2) ->
  (exists ea eb ga gb va vb, init mult_initc rg fp e glob x = Ok (ea, ga, va)
     /\ init mult_initc rg fp e1' glob2 x = Ok (eb, gb, vb) /\ same_model (e_hmm ea) (e_hmm eb))
  /\ e2 = e1.
Proof. intros ip Hk Hs Ht He H1 e1' H2. exact (mult_refit rg fp _ _ _ _ _ _ _ _ _ _ _ _ _ eq_refl Hk Hs Ht He H1 H2). Qed.

(** ** What a plain second [fit] does: its start vector is drawn from the seeded
    generator after the emission draws of the first [fit], not from a freshly
    seeded one. *)
Definition second_start_drawn {P X St G} (E : emclass P X St) (I : initclass P X G) (rg : rng G) fp
    (adv : cfg -> option nat -> G -> G -> Prop) : Prop :=
  forall e k glob x ls e1 glob1 ev1 glob2 y eb glob3 ev3,
  e_rs e = RSSeed k -> has "s" (c_init_params (h_cfg (e_hmm e))) = true ->
  fit E I rg fp e glob x ls = Ok (e1, glob1, ev1) -> init I rg fp e1 glob2 y = Ok (eb, glob3, ev3) ->
  let alpha := tab (c_nc (h_cfg (e_hmm e))) (fun _ => xdiv fp (Fin 1) (Fin (INR (c_nc (h_cfg (e_hmm e)))))) in
  exists ea ga va g g' v1 v2 gx gy, init I rg fp e glob x = Ok (ea, ga, va)
    /\ r_seed rg k = Ok g /\ adv (h_cfg (e_hmm e)) (h_nfeat (e_hmm ea)) g g' /\ e_rs e1 = RSGen g'
    /\ r_dirichlet rg alpha g = Ok (v1, gx) /\ h_start (e_hmm ea) = Some v1
    /\ r_dirichlet rg alpha g' = Ok (v2, gy) /\ h_start (e_hmm eb) = Some v2.
Lemma C29_second_start_l {G} (rg : rng G) fp :
  second_start_drawn categorical cat_initc rg fp (rand_advance rg "e")
  /\ second_start_drawn multinomial mult_initc rg fp (rand_advance rg "e")
  /\ second_start_drawn poisson pois_initc rg fp (gamma_advance rg).
Proof.
  split; [|split]; intros e k glob x ls e1 glob1 ev1 glob2 y eb glob3 ev3 Hk Hs Hf Hi alpha.
  - refine (refit_draws categorical cat_initc rg fp (rand_advance rg "e") _ e glob x ls e1 glob1 ev1 glob2 y eb glob3 ev3 k Hk Hs Hf Hi).
    intros c nf p x0 k0 gl p' rs' gl' ev H. exact (cat_adv _ _ _ _ _ x0 _ _ _ _ _ _ H).
  - refine (refit_draws multinomial mult_initc rg fp (rand_advance rg "e") _ e glob x ls e1 glob1 ev1 glob2 y eb glob3 ev3 k Hk Hs Hf Hi).
    intros c nf p x0 k0 gl p' rs' gl' ev H. exact (mult_adv _ _ _ _ _ x0 _ _ _ _ _ _ H).
  - refine (refit_draws poisson pois_initc rg fp (gamma_advance rg) _ e glob x ls e1 glob1 ev1 glob2 y eb glob3 ev3 k Hk Hs Hf Hi).
    intros c nf p x0 k0 gl p' rs' gl' ev H. exact (pois_adv _ _ _ _ _ x0 _ _ _ _ _ _ H).
Qed.

(** ** A generator that counts its draws: every seed gives state 0; the Dirichlet
    sampler gives the centre of the simplex in state 0 and its first corner
    otherwise. *)
Definition toy_rng : rng nat := Rng
  (fun k => if Z.ltb k 0 then Err (ValueError "Seed must be between 0 and 2**32 - 1") else Ok 0%nat)
  (fun a g => Ok (fvec (length a) (fun i => if Nat.eqb g 0 then / INR (length a) else if Nat.eqb i 0 then 1 else 0), g))
  (fun g => (/ (INR g + 2), S g))
  (fun _ _ g => Ok (Fin (INR (S g)), S g))
  (fun nc x g => Ok (fmat nc (width x) (fun i j => INR i), S g)).
Lemma toy_sane : sane_rng toy_rng.
Proof.
  split.
  - intros n a g Hn _. cbn [r_dirichlet toy_rng]. eexists _, g. split; [reflexivity|].
    replace (length (fvec n a)) with n by (unfold fvec; rewrite tab_length; reflexivity).
    eexists. split; [reflexivity|].
    assert (Hs : sumn n (fun i => if (g =? 0)%nat then / INR n else if (i =? 0)%nat then 1 else 0) = 1).
    { destruct (g =? 0)%nat.
      - rewrite sumn_const. apply Rinv_r, not_0_INR. lia.
      - destruct n as [|n]; [lia|]. clear. induction n as [|n IH]; [cbn; lra|].
        change (sumn (S (S n)) ?f) with (sumn (S n) f + f (S n)). rewrite IH. cbn. lra. }
    rewrite Hs. apply near1_1.
  - intros g. cbn. apply Rinv_0_lt_compat. pose proof (pos_INR g). lra.
Qed.
Lemma toy_rand r c g m g' : rand_mat toy_rng r c g = Ok (m, g') -> g' = (g + r * c)%nat.
Proof.
  unfold rand_mat. intros H. apply bind_inv in H as ([l g1] & H & E0). injection E0 as _ <-. revert g l g1 H.
  assert (HC : forall n g l g1, draws (fun g => let '(u, g') := r_rand toy_rng g in Ok (Fin u, g')) n g = Ok (l, g1) -> g1 = (g + n)%nat).
  { induction n as [|n IH]; intros g l g1 H; cbn in H.
    - inversion H; subst. lia.
    - apply bind_inv in H as ([l2 g2] & H & E0). inversion E0; subst. apply IH in H. lia. }
  induction r as [|r IH]; intros g l g1 H; cbn [draws] in H.
  - inversion H; subst. lia.
  - apply bind_inv in H as ([a g2] & H1 & H). apply bind_inv in H as ([l2 g3] & H2 & H). inversion H; subst.
    apply HC in H1. apply IH in H2. lia.
Qed.

Definition toy_cfg (letters : string) : cfg :=
  Cfg 2 letters letters "viterbi" "log" 0 (Fin (/ 100)) false (Scal (Fin 1)) (Scal (Fin 1)).
Definition toy_mon : monitor := Monitor (Fin (/ 100)) 0 false [] 0.
Definition toy_cat : est catp nat :=
  Est (Hmm (toy_cfg "ste") None None None toy_mon (Catp (Scal (Fin 1)) None)) (RSSeed 0).
Definition toy_mult : est mulp nat :=
  Est (Hmm (toy_cfg "ste") None None None toy_mon (Mulp None None)) (RSSeed 0).

(** Both calls of [fit] return and the initial parameters differ. *)
Definition refit_differs {P X St G} (E : emclass P X St) (I : initclass P X G) (rg : rng G)
    (e : est P G) (glob : G) (x : list X) : Prop :=
  exists e1 glob1 ev1 e2 glob2 ev2 ea ga va eb gb vb,
    fit E I rg exact e glob x None = Ok (e1, glob1, ev1)
    /\ fit E I rg exact e1 glob1 x None = Ok (e2, glob2, ev2)
    /\ init I rg exact e glob x = Ok (ea, ga, va)
    /\ init I rg exact e1 glob1 x = Ok (eb, gb, vb)
    /\ h_start (e_hmm ea) <> h_start (e_hmm eb).

Lemma toy_starts_differ g v1 v2 gx gy :
  r_dirichlet toy_rng (alpha_of exact 2) 0%nat = Ok (v1, gx) -> g <> 0%nat ->
  r_dirichlet toy_rng (alpha_of exact 2) g = Ok (v2, gy) -> Some v1 <> Some v2.
Proof.
  intros H1 Hg H2 E0. cbn in H1, H2. destruct g as [|g]; [contradiction|]. cbn in H2.
  injection H1 as <- _. injection H2 as <- _. injection E0 as E0. lra.
Qed.
Lemma letters_ste : letters_in "ste" ["s"; "t"; "e"]%char.
Proof.
  intros a H. cbn [has] in H. apply orb_prop in H as [H|H]; [apply Ascii.eqb_eq in H; subst; left; reflexivity|].
  apply orb_prop in H as [H|H]; [apply Ascii.eqb_eq in H; subst; right; left; reflexivity|].
  apply orb_prop in H as [H|H]; [apply Ascii.eqb_eq in H; subst; right; right; left; reflexivity|discriminate].
Qed.

Lemma toy_refit : refit_differs categorical cat_initc toy_rng toy_cat 0%nat [0; 1; 0]%Z.
Proof.
  assert (HR : Forall (in_range 2) [0; 1; 0]%Z) by (repeat constructor; unfold in_range; lia).
  destruct (cat_fit_returns toy_rng toy_sane toy_cat 0%nat [0; 1; 0]%Z None 2) as ([[e1 g1] v1] & H1 & N1).
  - exists 0%nat. reflexivity.
  - cbn. lia.
  - reflexivity.
  - exact letters_ste.
  - discriminate.
  - left; reflexivity.
  - exact HR.
  - right. split; reflexivity.
  - repeat split; discriminate.
  - destruct (fit_inv _ _ _ _ _ _ _ _ _ _ _ H1) as (ea & va & va2 & _ & Hi & Hff & Hrs & _).
    pose proof (fit_from_keeps _ _ _ _ _ _ _ Hff) as (Hc1 & _).
    destruct (init_spec _ _ _ _ _ _ _ _ _ Hi) as (Hc0 & _ & _ & p0 & rs0 & g0 & w0 & Hnf & _).
    assert (Hc : h_cfg (e_hmm e1) = toy_cfg "ste") by (rewrite Hc1; exact Hc0).
    destruct (cat_fit_returns toy_rng toy_sane e1 g1 [0; 1; 0]%Z None 2) as ([[e2 g2] v2] & H2 & N2).
    + destruct (init_inv _ _ _ _ _ _ _ _ _ Hi) as (ba & gg & wa & p & rs & w2 & Hb & He & Hea & _).
      rewrite Hrs, Hea. cbn [e_rs].
      destruct (base_init_inv _ _ _ _ _ _ _ _ _ Hb) as (_ & _ & _ & _ & _ & _ & (g3 & g4 & _ & Hp) & _).
      cbn [rs_put toy_cat e_rs] in Hp. injection Hp as Hp _. rewrite <- Hp in He.
      destruct (cat_adv _ _ _ _ _ [0; 1; 0]%Z _ _ _ _ _ _ He) as (g5 & g6 & _ & _ & ->). exact I.
    + rewrite Hc. cbn. lia.
    + rewrite Hc. reflexivity.
    + rewrite Hc. exact letters_ste.
    + discriminate.
    + left; reflexivity.
    + exact HR.
    + left. exact N1.
    + unfold cat_keeps_valid, keeps_valid_base. rewrite Hc. repeat split; discriminate.
    + destruct (fit_inv _ _ _ _ _ _ _ _ _ _ _ H2) as (eb & vb & vb2 & _ & Hi2 & _).
      destruct (C29_second_start_l toy_rng exact) as (HC & _ & _).
      destruct (HC toy_cat 0%Z _ _ _ _ _ _ _ _ _ _ _ eq_refl eq_refl H1 Hi2)
        as (ea' & ga' & va' & g & g' & s1 & s2 & gx & gy & Hi' & Hg & Hadv & _ & Hd1 & Hs1 & Hd2 & Hs2).
      rewrite Hi in Hi'. injection Hi' as <- <- <-.
      cbn in Hg. injection Hg as <-. destruct (Hadv eq_refl) as (m & Hm). apply toy_rand in Hm.
      cbn in Hnf. injection Hnf as Hnf _. rewrite <- Hnf in Hm. cbn in Hm.
      do 12 eexists. split; [exact H1|]. split; [exact H2|]. split; [exact Hi|]. split; [exact Hi2|].
      rewrite Hs1, Hs2. apply (toy_starts_differ g' s1 s2 gx gy Hd1); [lia|exact Hd2].
Qed.
Lemma C29_categorical_refuted_l : exists (e : est catp nat) k x,
  sane_rng toy_rng /\ e_rs e = RSSeed k
  /\ (forall a, In a ["s"; "t"; "e"]%char -> has a (c_init_params (h_cfg (e_hmm e))) = true)
  /\ refit_differs categorical cat_initc toy_rng e 0%nat x.
Proof.
  exists toy_cat, 0%Z, [0; 1; 0]%Z. split; [exact toy_sane|]. split; [reflexivity|]. split; [|exact toy_refit].
  intros a [<-|[<-|[<-|[]]]]; reflexivity.
Qed.

Lemma C29_multinomial_refuted_l : exists (e : est mulp nat) k x,
  sane_rng toy_rng /\ e_rs e = RSSeed k
  /\ (forall a, In a ["s"; "t"; "e"]%char -> has a (c_init_params (h_cfg (e_hmm e))) = true)
  /\ refit_differs multinomial mult_initc toy_rng e 0%nat x.
Proof.
  exists toy_mult, 0%Z, [[1; 2]; [3; 0]]%Z. split; [exact toy_sane|]. split; [reflexivity|]. split.
  { intros a [<-|[<-|[<-|[]]]]; reflexivity. }
  assert (HR : Forall (fun r => length r = 2%nat) [[1; 2]; [3; 0]]%Z) by (repeat constructor).
  destruct (mult_fit_returns toy_rng toy_sane toy_mult 0%nat [[1; 2]; [3; 0]]%Z None 2 (Mulp (Some (TArr [3; 3]%Z)) None)) as ([[e1 g1] v1] & H1 & N1).
  - exists 0%nat. reflexivity.
  - cbn. lia.
  - reflexivity.
  - exact letters_ste.
  - discriminate.
  - left; reflexivity.
  - exact HR.
  - split; [|left; reflexivity]. split; discriminate.
  - reflexivity.
  - destruct (fit_inv _ _ _ _ _ _ _ _ _ _ _ H1) as (ea & va & va2 & _ & Hi & Hff & Hrs & _).
    pose proof (fit_from_keeps _ _ _ _ _ _ _ Hff) as (Hc1 & _ & h1 & Hck & Hnf1).
    destruct (init_spec _ _ _ _ _ _ _ _ _ Hi) as (Hc0 & _ & _ & p0 & rs0 & g0 & w0 & Hnf & _).
    cbn in Hnf. injection Hnf as Hnf _.
    assert (Hc : h_cfg (e_hmm e1) = toy_cfg "ste") by (rewrite Hc1; exact Hc0).
    assert (Hn1 : h_nfeat (e_hmm e1) = Some 2%nat).
    { rewrite Hnf1. apply check_em in Hck. cbn [ec_check multinomial] in Hck. unfold mult_check in Hck.
      revert Hck. destruct (mu_prob (h_em (e_hmm ea))) as [mm|]; [|discriminate].
      destruct (negb _); [discriminate|]. destruct (mu_trials (h_em (e_hmm ea))); [|discriminate].
      intros Hck. injection Hck as <- _. rewrite <- Hnf. reflexivity. }
    cbn [e_hmm fst] in N1.
    destruct (mult_fit_returns toy_rng toy_sane e1 g1 [[1; 2]; [3; 0]]%Z None 2 (h_em (e_hmm e1))) as ([[e2 g2] v2] & H2 & N2).
    + destruct (init_inv _ _ _ _ _ _ _ _ _ Hi) as (ba & gg & wa & p & rs & w2 & Hb & He & Hea & _).
      rewrite Hrs, Hea. cbn [e_rs].
      destruct (base_init_inv _ _ _ _ _ _ _ _ _ Hb) as (_ & _ & _ & _ & _ & _ & (g3 & g4 & _ & Hp) & _).
      cbn [rs_put toy_mult e_rs] in Hp. injection Hp as Hp _. rewrite <- Hp in He.
      destruct (mult_adv _ _ _ _ _ [[1; 2]; [3; 0]]%Z _ _ _ _ _ _ He) as (g5 & g6 & _ & _ & ->). exact I.
    + rewrite Hc. cbn. lia.
    + rewrite Hc. reflexivity.
    + rewrite Hc. exact letters_ste.
    + discriminate.
    + left; reflexivity.
    + exact HR.
    + unfold mult_keeps_valid, keeps_valid_base. rewrite Hc. split; [|left; reflexivity]. split; discriminate.
    + unfold mult_nfeat. rewrite Hn1, N1. reflexivity.
    + destruct (fit_inv _ _ _ _ _ _ _ _ _ _ _ H2) as (eb & vb & vb2 & _ & Hi2 & _).
      destruct (C29_second_start_l toy_rng exact) as (_ & HC & _).
      destruct (HC toy_mult 0%Z _ _ _ _ _ _ _ _ _ _ _ eq_refl eq_refl H1 Hi2)
        as (ea' & ga' & va' & g & g' & s1 & s2 & gx & gy & Hi' & Hg & Hadv & _ & Hd1 & Hs1 & Hd2 & Hs2).
      rewrite Hi in Hi'. injection Hi' as <- <- <-.
      cbn in Hg. injection Hg as <-. destruct (Hadv eq_refl) as (m & Hm). apply toy_rand in Hm.
      rewrite <- Hnf in Hm. cbn in Hm.
      do 12 eexists. split; [exact H1|]. split; [exact H2|]. split; [exact Hi|]. split; [exact Hi2|].
      rewrite Hs1, Hs2. apply (toy_starts_differ g' s1 s2 gx gy Hd1); [lia|exact Hd2].
Qed.

(** PoissonHMM; no training iterations in the witness. *)
Definition toy_pois (rs : rstate nat) : est poisp nat :=
  Est (Hmm (toy_cfg "stl") None None None toy_mon (Poisp (Scal (Fin 0)) (Scal (Fin 0)) None)) rs.
Lemma toy_gamma sh sc r c g : exists m, gamma_mat toy_rng sh sc r c g = Ok (m, (g + r * c)%nat) /\ nrow m = r /\ ncol m = c.
Proof.
  assert (HC : forall n g, exists l, draws (r_gamma toy_rng sh sc) n g = Ok (l, (g + n)%nat) /\ length l = n).
  { induction n as [|n IH]; intros g0; cbn [draws r_gamma toy_rng bind].
    - exists []. rewrite Nat.add_0_r. split; reflexivity.
    - destruct (IH (S g0)) as (l & Hl & Hlen). cbn [r_gamma toy_rng] in Hl. rewrite Hl. cbn [bind]. eexists. split.
      + replace (g0 + S n)%nat with (S g0 + n)%nat by lia. reflexivity.
      + cbn. now rewrite Hlen. }
  assert (HR : forall n g, exists l, draws (draws (r_gamma toy_rng sh sc) c) n g = Ok (l, (g + n * c)%nat) /\ length l = n).
  { induction n as [|n IH]; intros g0; cbn [draws].
    - exists []. rewrite Nat.add_0_r. split; reflexivity.
    - destruct (HC c g0) as (a & -> & _). cbn [bind]. destruct (IH (g0 + c)%nat) as (l & -> & Hlen). cbn [bind]. eexists. split.
      + replace (g0 + S n * c)%nat with (g0 + c + n * c)%nat by lia. reflexivity.
      + cbn. now rewrite Hlen. }
  unfold gamma_mat. destruct (HR r g) as (l & -> & Hl). cbn [bind]. eexists. split; [reflexivity|]. split; [exact Hl|reflexivity].
Qed.
Lemma letters_stl : letters_in "stl" ["s"; "t"; "l"]%char.
Proof.
  intros a H. cbn [has] in H. apply orb_prop in H as [H|H]; [apply Ascii.eqb_eq in H; subst; left; reflexivity|].
  apply orb_prop in H as [H|H]; [apply Ascii.eqb_eq in H; subst; right; left; reflexivity|].
  apply orb_prop in H as [H|H]; [apply Ascii.eqb_eq in H; subst; right; right; left; reflexivity|discriminate].
Qed.
Lemma toy_pois_returns (e : est poisp nat) glob x : x <> [] ->
  h_cfg (e_hmm e) = toy_cfg "stl" -> (h_nfeat (e_hmm e) = None \/ h_nfeat (e_hmm e) = Some (width x)) ->
  valid_rs toy_rng (e_rs e) ->
  exists r, fit poisson pois_initc toy_rng exact e glob x None = Ok r /\ h_nfeat (e_hmm (fst (fst r))) = Some (width x).
Proof.
  intros Hx Hc Hnf Hrs. set (p := h_em (e_hmm e)).
  assert (Hfeat : pois_nfeat (h_cfg (e_hmm e)) (h_nfeat (e_hmm e)) p x = Ok (Some (width x), p)).
  { unfold pois_nfeat, set_n_features. destruct Hnf as [-> | ->]; [reflexivity|]. rewrite Nat.eqb_refl. reflexivity. }
  assert (Hd : exists d k, pois_nfit (h_cfg (e_hmm e)) (Some (width x)) p = Ok d /\ dict_sum d (c_params (h_cfg (e_hmm e))) = Ok k).
  { rewrite Hc. cbn [pois_nfit]. do 2 eexists. split; reflexivity. }
  destruct Hd as (d & k & Hd & Hk).
  destruct (base_init_ok pois_initc toy_rng toy_sane e glob x (Some (width x)) p d k Hrs) as (e1 & glob1 & ev & s & t & Hb & B1 & B2 & B3 & B4 & B5 & B6 & B7 & B8);
    try assumption.
  - rewrite Hc. cbn. lia.
  - unfold keeps_valid_base. rewrite Hc. split; discriminate.
  - destruct (rs_adopt_ok toy_rng _ B4) as (rs1 & Hr1 & Hv1).
    destruct (rs_get_ok toy_rng rs1 glob1 Hv1) as (g & Hg).
    destruct (toy_gamma (xdiv exact (xsq exact (arr_mean exact (concat (map zrow x)))) (arr_var exact (concat (map zrow x))))
       (xdiv exact (arr_var exact (concat (map zrow x))) (arr_mean exact (concat (map zrow x)))) 2 (width x) g) as (m & Hm & Hr & Hcl).
    unfold fit. destruct x as [|r0 x0] eqn:Ex; [contradiction|]. cbn [check_array].
    rewrite <- Ex in *.
    assert (Hall : forallb (ec_xok poisson) x = true) by (apply forallb_forall; reflexivity).
    rewrite Hall. cbn [bind]. unfold init. rewrite Hb. cbn [bind]. rewrite B1, B2, B3.
    cbn [ic_em pois_initc]. unfold pois_init_em. rewrite Hr1. cbn [bind]. unfold needs_init. rewrite Hc. cbn [has c_init_params toy_cfg Ascii.eqb Bool.eqb orb].
    rewrite Hg. cbn [bind c_nc toy_cfg]. rewrite Hm. cbn [bind].
    destruct (rs_put rs1 glob1 (g + 2 * width x)%nat) as [rs2 glob2]. cbn [bind e_hmm].
    unfold fit_from. set (h2 := Hmm _ _ _ _ _ _).
    assert (Hck : check poisson exact h2 = Ok h2).
    { rewrite (check_accepts poisson h2 s t); unfold h2; cbn [h_start h_trans h_cfg]; try assumption.
      - cbn [ec_check poisson h_nfeat h_em]. unfold pois_check. cbn [po_lam]. rewrite Hr, Hcl. cbn [c_nc toy_cfg Nat.eqb andb].
        rewrite Nat.eqb_refl. cbn [negb bind]. reflexivity.
      - apply (rows_sum_wf _ _ B8).
      - rewrite Hc in B6; exact B6.
      - rewrite Hc in B8; exact B8. }
    rewrite Hck. cbn [bind]. unfold h2. cbn [bind h_cfg c_n_iter toy_cfg fit_loop]. eexists. split; reflexivity.
Qed.
Lemma C29_poisson_refuted_l : exists (e : est poisp nat) k x,
  sane_rng toy_rng /\ e_rs e = RSSeed k
  /\ (forall a, In a ["s"; "t"; "l"]%char -> has a (c_init_params (h_cfg (e_hmm e))) = true)
  /\ refit_differs poisson pois_initc toy_rng e 0%nat x.
Proof.
  set (x := [[1]; [4]; [0]]%Z).
  exists (toy_pois (RSSeed 0)), 0%Z, x. split; [exact toy_sane|]. split; [reflexivity|]. split.
  { intros a [<-|[<-|[<-|[]]]]; reflexivity. }
  destruct (toy_pois_returns (toy_pois (RSSeed 0)) 0%nat x) as ([[e1 g1] v1] & H1 & N1).
  - discriminate.
  - reflexivity.
  - left; reflexivity.
  - exists 0%nat. reflexivity.
  - destruct (fit_inv _ _ _ _ _ _ _ _ _ _ _ H1) as (ea & va & va2 & _ & Hi & Hff & Hrs & _).
    pose proof (fit_from_keeps _ _ _ _ _ _ _ Hff) as (Hc1 & _).
    destruct (init_spec _ _ _ _ _ _ _ _ _ Hi) as (Hc0 & _ & _ & p0 & rs0 & g0 & w0 & Hnf & _).
    cbn in Hnf. injection Hnf as Hnf _.
    destruct (toy_pois_returns e1 g1 x) as ([[e2 g2] v2] & H2 & N2).
    + discriminate.
    + rewrite Hc1. exact Hc0.
    + right. exact N1.
    + destruct (init_inv _ _ _ _ _ _ _ _ _ Hi) as (ba & gg & wa & p & rs & w2 & Hb & He & Hea & _).
      rewrite Hrs, Hea. cbn [e_rs].
      destruct (base_init_inv _ _ _ _ _ _ _ _ _ Hb) as (_ & _ & _ & _ & _ & _ & (g3 & g4 & _ & Hp) & _).
      cbn [rs_put toy_pois e_rs] in Hp. injection Hp as Hp _. rewrite <- Hp in He.
      destruct (pois_adv _ _ _ _ _ x _ _ _ _ _ _ He) as (g5 & g6 & _ & _ & ->). exact I.
    + destruct (fit_inv _ _ _ _ _ _ _ _ _ _ _ H2) as (eb & vb & vb2 & _ & Hi2 & _).
      destruct (C29_second_start_l toy_rng exact) as (_ & _ & HC).
      destruct (HC (toy_pois (RSSeed 0)) 0%Z _ _ _ _ _ _ _ _ _ _ _ eq_refl eq_refl H1 Hi2)
        as (ea' & ga' & va' & g & g' & s1 & s2 & gx & gy & Hi' & Hg & Hadv & _ & Hd1 & Hs1 & Hd2 & Hs2).
      rewrite Hi in Hi'. injection Hi' as <- <- <-.
      cbn in Hg. injection Hg as <-. destruct (Hadv eq_refl) as (sh & sc & m & Hm).
      rewrite <- Hnf in Hm. destruct (toy_gamma sh sc 2 1 0%nat) as (m' & Hm' & _).
      change (c_nc _) with 2%nat in Hm. rewrite Hm' in Hm. injection Hm as _ Hg'.
      do 12 eexists. split; [exact H1|]. split; [exact H2|]. split; [exact Hi|]. split; [exact Hi2|].
      rewrite Hs1, Hs2. apply (toy_starts_differ g' s1 s2 gx gy Hd1); [lia|exact Hd2].
Qed.

(** The premises of the positive theorems hold together: the toy estimators can
    be fitted twice (the witnesses above). *)

(** ** C22 fails for MultinomialHMM: a set emissionprob_ is overwritten without a
    warning, and an unset one is not initialised when its letter is not listed,
    so that [fit] fails. *)
Lemma C22_multinomial_refuted_l :
  (exists (e : est mulp nat) x e1 glob1 ev m, sane_rng toy_rng
     /\ mu_prob (h_em (e_hmm e)) = Some m
     /\ fit multinomial mult_initc toy_rng exact e 0%nat x None = Ok (e1, glob1, ev)
     /\ mu_prob (h_em (e_hmm e1)) <> Some m /\ forall name, ~ In (WOverwrite name) ev)
  /\ (exists (e : est mulp nat) x, sane_rng toy_rng /\ mu_prob (h_em (e_hmm e)) = None
     /\ fit multinomial mult_initc toy_rng exact e 0%nat x None = Err (AttributeError "emissionprob_")).
Proof.
  split.
  - set (x := [[1; 2]; [3; 0]]%Z).
    set (h := Hmm (Cfg 2 "" "e" "viterbi" "log" 0 (Fin (/ 100)) false (Scal (Fin 1)) (Scal (Fin 1))) None
               (Some (fvec 2 (fun _ => / 2))) (Some (fmat 2 2 (fun _ _ => / 2))) toy_mon
               (Mulp None (Some (fmat 2 2 (fun i j => if Nat.eqb i j then 1 else 0))))).
    destruct (mult_fit_returns toy_rng toy_sane (Est h (RSSeed 0)) 0%nat x None 2
                (Mulp (Some (TArr [3; 3]%Z)) (mu_prob (h_em h)))) as ([[e1 g1] v1] & H1 & N1).
    + exists 0%nat. reflexivity.
    + cbn. lia.
    + reflexivity.
    + intros a Ha. discriminate.
    + discriminate.
    + left; reflexivity.
    + repeat constructor.
    + split; [|left; reflexivity]. split; cbn [h h_cfg e_hmm c_init_params h_start h_trans c_nc]; intros v _ Hv; injection Hv as <-.
      * eexists. split; [reflexivity|]. replace (sumn 2 _) with 1 by (cbn; lra). apply near1_1.
      * eexists. split; [reflexivity|]. intros i _. replace (sumn 2 _) with 1 by (cbn; lra). apply near1_1.
    + reflexivity.
    + exists (Est h (RSSeed 0)), x, e1, g1, v1, (fmat 2 2 (fun i j => if Nat.eqb i j then 1 else 0)).
      split; [exact toy_sane|]. split; [reflexivity|]. split; [exact H1|]. split.
      * destruct (fit_inv _ _ _ _ _ _ _ _ _ _ _ H1) as (ea & va & va2 & _ & Hi & Hff & _ & _).
        destruct (C22_multinomial_partial_l _ _ _ _ _ _ _ _ Hi) as (Hc & _ & _ & He & _).
        destruct (He eq_refl) as (m & u & Hm & Hu & ->).
        destruct (entries_fmat _ _ _ _ Hu) as (F & -> & HF).
        { intros a (g & ->). eexists. split; [reflexivity|]. apply toy_sane. }
        assert (Hem : mu_prob (h_em (e_hmm e1)) = mu_prob (h_em (e_hmm ea))).
        { unfold fit_from in Hff. apply bind_inv in Hff as (h1 & Hck & Hff).
          pose proof (check_keeps _ _ _ _ Hck) as (Hc1 & _). apply check_em in Hck. rewrite Hc1, Hc in Hff.
          cbn in Hff. injection Hff as Hh _. rewrite <- Hh. cbn [h_em].
          cbn [ec_check multinomial] in Hck. unfold mult_check in Hck. revert Hck. destruct (mu_prob (h_em (e_hmm ea))) as [mm|] eqn:Emm; [|discriminate].
          destruct (negb _); [discriminate|]. destruct (mu_trials (h_em (e_hmm ea))); [|discriminate].
          intros Hck. injection Hck as _ <-. exact Emm. }
        rewrite Hem, Hm. intros E0.
        apply (f_equal (fun o => match o with Some m => mget m 0 1 | None => NaN end)) in E0. revert E0.
        change (c_nc _) with 2%nat. change (width x) with 2%nat.
        rewrite normalize_rows_fmat. rewrite !mget_fmat by lia. cbn [Nat.eqb]. intros E0. injection E0 as E0.
        revert E0. unfold normalised. cbn [sumn]. pose proof (HF 0 0 ltac:(cbn; lia) ltac:(cbn; lia))%nat. pose proof (HF 0 1 ltac:(cbn; lia) ltac:(cbn; lia))%nat.
        destruct (Req_EM_T _ 0) as [E1|E1]; [lra|]. intros E0. apply (f_equal (fun r => r * (0 + F 0%nat 0%nat + F 0%nat 1%nat))) in E0.
        unfold Rdiv in E0. rewrite Rmult_assoc, Rinv_l in E0 by exact E1. lra.
      * intros name Hin. apply (C22_multinomial_warnings_partial_l _ _ _ _ _ _ _ _ _ name H1) in Hin. cbn in Hin.
        destruct Hin as [(_ & Hin & _)|(_ & Hin & _)]; discriminate.
  - set (h := Hmm (toy_cfg "st") None None None toy_mon (Mulp None None)).
    set (x := [[1; 2]; [3; 0]]%Z).
    exists (Est h (RSSeed 0)), x. split; [exact toy_sane|]. split; [reflexivity|].
    destruct (base_init_ok mult_initc toy_rng toy_sane (Est h (RSSeed 0)) 0%nat x (Some 2%nat) (Mulp (Some (TArr [3; 3]%Z)) None)
       (base_nfit 2 ++ [("e"%char, 2%Z)]) 3%Z) as (e1 & glob1 & ev & s & t & Hb & B1 & B2 & B3 & B4 & B5 & B6 & B7 & B8).
    + exists 0%nat. reflexivity.
    + cbn. lia.
    + split; discriminate.
    + reflexivity.
    + reflexivity.
    + reflexivity.
    + unfold fit, x. cbn [check_array]. fold x.
      assert (Hall : forallb (ec_xok multinomial) x = true) by reflexivity. rewrite Hall. cbn [bind].
      unfold init. rewrite Hb. cbn [bind]. rewrite B1, B2, B3. cbn [ic_em mult_initc]. unfold mult_init_em.
      destruct (rs_adopt_ok toy_rng _ B4) as (rs1 & -> & _). cbn [bind]. cbn [e_hmm h h_cfg has c_init_params toy_cfg Ascii.eqb Bool.eqb orb bind].
      unfold fit_from. set (h2 := Hmm _ _ _ _ _ _).
      assert (Hck : check multinomial exact h2 = Err (AttributeError "emissionprob_")).
      { rewrite (check_accepts multinomial h2 s t); unfold h2; cbn [h_start h_trans h_cfg]; try assumption.
        - reflexivity.
        - apply (rows_sum_wf _ _ B8). }
      rewrite Hck. reflexivity.
Qed.
