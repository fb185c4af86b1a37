(** * Property C80: the random numbers behind the start values. *)
From Verif Require Export Vinit_thms Vg_init Init_gmm_thms Fresh_ex.

(** The [n] values [f] yields one after the other, starting in state [g] and
    ending in state [g']. *)
Definition in_turn {A G} (f : G -> res (A * G)) (n : nat) (g : G) (a : nat -> A) (g' : G) : Prop :=
  exists gs : nat -> G, gs 0%nat = g /\ gs n = g' /\ forall i, (i < n)%nat -> f (gs i) = Ok (a i, gs (S i)).
(** The same for a table of [r] rows and [c] columns, row by row. *)
Definition row_by_row {A G} (f : G -> res (A * G)) (r c : nat) (g : G) (a : nat -> nat -> A) (g' : G) : Prop :=
  exists gs : nat -> G, gs 0%nat = g /\ gs (r * c)%nat = g'
    /\ forall i j, (i < r)%nat -> (j < c)%nat -> f (gs (i * c + j)%nat) = Ok (a i j, gs (i * c + j + 1)%nat).

(** A uniform number. *)
Definition uniform {G} (rg : rng G) (g : G) : res (R * G) := Ok (r_rand rg g).
(** A draw from the symmetric Dirichlet distribution with parameters 1/n. *)
Definition dirichlet {G} (rg : rng G) (n : nat) : G -> res (vec * G) := r_dirichlet rg (fvec n (fun _ => 1 / INR n)).

(** Is the parameter with this letter drawn anew? *)
Definition drawn {A} (c : cfg) (letter : ascii) (old : option A) : Prop := has letter (c_init_params c) = true \/ old = None.

(** [startprob_] and [transmat_] of [h'] come from the states between [g0], the
    state of the generator [random_state] stands for, and [g2]. *)
Definition base_drawn {P G} (rg : rng G) (e : est P G) (glob : G) (h' : hmm P) (g0 g2 : G) : Prop :=
  let h := e_hmm e in let c := h_cfg h in let nc := c_nc c in
  rs_get rg (e_rs e) glob = Ok g0
  /\ exists g1,
      (drawn c "s" (h_start h) -> exists s, dirichlet rg nc g0 = Ok (s, g1) /\ h_start h' = Some s)
      /\ (~ drawn c "s" (h_start h) -> h_start h' = h_start h /\ g1 = g0)
      /\ (drawn c "t" (h_trans h) -> exists rows, in_turn (dirichlet rg nc) nc g1 rows g2 /\ h_trans h' = Some (Mat nc (tab nc rows)))
      /\ (~ drawn c "t" (h_trans h) -> h_trans h' = h_trans h /\ g2 = g1).
(** Where the draws for the emission parameters begin: an integer is turned into
    a generator a second time. *)
Definition again {G} (rs : rstate G) (g0 g2 : G) : G := match rs with RSSeed _ => g0 | _ => g2 end.

Lemma draws_in_turn {A G} (f : G -> res (A * G)) (d : A) : forall n g l g', draws f n g = Ok (l, g') ->
  exists a, l = tab n a /\ in_turn f n g a g'.
Proof.
  induction n as [|n IH]; intros g l g' H; cbn [draws] in H.
  - injection H as <- <-. exists (fun _ => d). split; [reflexivity|]. exists (fun _ => g). repeat split. intros i Hi; lia.
  - destruct (f g) as [[a g1]|] eqn:Ef; [|discriminate]. cbn [bind] in H.
    destruct (draws f n g1) as [[l1 g2]|] eqn:Ed; [|discriminate]. cbn [bind] in H. injection H as <- <-.
    destruct (IH _ _ _ Ed) as (b & -> & gs & G0 & G1 & G2).
    exists (fun i => match i with 0%nat => a | S i => b i end). split.
    + unfold tab. cbn [seq map]. f_equal. rewrite <- seq_shift, map_map. reflexivity.
    + exists (fun i => match i with 0%nat => g | S i => gs i end). split; [reflexivity|]. split; [exact G1|].
      intros [|i] Hi; [rewrite G0; exact Ef|]. apply G2. lia.
Qed.
Lemma draws_rows {A G} (f : G -> res (A * G)) (d : A) c : forall r g l g', draws (draws f c) r g = Ok (l, g') ->
  exists a, l = tab r (fun i => tab c (a i)) /\ row_by_row f r c g a g'.
Proof.
  induction r as [|r IH]; intros g l g' H; cbn [draws] in H.
  - injection H as <- <-. exists (fun _ _ => d). split; [reflexivity|]. exists (fun _ => g). repeat split. intros i j Hi; lia.
  - destruct (draws f c g) as [[a g1]|] eqn:Ef; [|discriminate]. cbn [bind] in H.
    destruct (draws (draws f c) r g1) as [[l1 g2]|] eqn:Ed; [|discriminate]. cbn [bind] in H. injection H as <- <-.
    destruct (IH _ _ _ Ed) as (b & -> & gs & G0 & G1 & G2). destruct (draws_in_turn f d _ _ _ _ Ef) as (a' & -> & hs & H0 & H1 & H2).
    exists (fun i => match i with 0%nat => a' | S i => b i end). split.
    + rewrite (tab_S r). reflexivity.
    + exists (fun k => if Nat.leb k c then hs k else gs (k - c)%nat). split; [exact H0|]. split.
      * destruct (Nat.leb_spec (S r * c) c) as [Hl|Hl].
        -- assert (r * c = 0)%nat by nia. rewrite <- G1, H. replace (S r * c)%nat with c by lia. rewrite H1, G0. reflexivity.
        -- rewrite <- G1. f_equal. lia.
      * intros [|i] j Hi Hj.
        -- rewrite (proj2 (Nat.leb_le (0 * c + j) c)) by lia. rewrite (proj2 (Nat.leb_le (0 * c + j + 1) c)) by lia.
           cbn [Nat.mul Nat.add]. rewrite Nat.add_1_r. apply H2. exact Hj.
        -- assert (i * c + j < r * c)%nat by nia.
           replace (if Nat.leb (S i * c + j) c then hs (S i * c + j)%nat else gs (S i * c + j - c)%nat) with (gs (i * c + j)%nat).
           2:{ destruct (Nat.leb_spec (S i * c + j) c) as [Hl|Hl].
               - assert (i * c + j = 0)%nat by lia. replace (S i * c + j)%nat with c by lia. rewrite H1, H3, G0. reflexivity.
               - f_equal. lia. }
           rewrite (proj2 (Nat.leb_gt (S i * c + j + 1) c)) by lia.
           replace (S i * c + j + 1 - c)%nat with (i * c + j + 1)%nat by lia. apply G2; lia.
Qed.
Lemma rand_rows {G} (rg : rng G) r c g m g' : rand_mat rg r c g = Ok (m, g') ->
  exists u, m = fmat r c u /\ row_by_row (uniform rg) r c g u g'.
Proof.
  unfold rand_mat. intros H. destruct (draws _ r g) as [[l g1]|] eqn:Ed; [|discriminate]. cbn [bind] in H. injection H as <- <-.
  destruct (draws_rows _ NaN _ _ _ _ _ Ed) as (a & -> & gs & G0 & G1 & G2).
  assert (K : forall i j, (i < r)%nat -> (j < c)%nat -> exists u, a i j = Fin u /\ r_rand rg (gs (i * c + j)%nat) = (u, gs (i * c + j + 1)%nat)).
  { intros i j Hi Hj. specialize (G2 i j Hi Hj). cbn beta in G2. destruct (r_rand rg (gs (i * c + j)%nat)) as [u g2]. injection G2 as <- <-. eauto. }
  exists (fun i j => rval (a i j)). split.
  - unfold fmat, mtab. f_equal. apply tab_ext. intros i Hi. apply tab_ext. intros j Hj. destruct (K i j Hi Hj) as (u & -> & _). reflexivity.
  - exists gs. split; [exact G0|]. split; [exact G1|]. intros i j Hi Hj. destruct (K i j Hi Hj) as (u & -> & E). unfold uniform. rewrite E. reflexivity.
Qed.

Lemma drawn_iff {A} (c : cfg) letter (nm : string) (old : option A) b ev : needs_init c letter nm (isSome old) = (b, ev) ->
  (b = true <-> drawn c letter old).
Proof.
  unfold needs_init, drawn. destruct (has letter (c_init_params c)); intros H; injection H as <- _.
  - split; auto.
  - destruct old; cbn; split; auto; try discriminate. intros [E|E]; discriminate.
Qed.

Section Base.
  Context {P X St G : Type} (E : emclass P X St) (I : initclass P X G) (rg : rng G).

  (** The state of the generator the next consumer sees. *)
  Definition seen (rs : rstate G) (glob g0 g2 : G) : Prop :=
    match rs with RSSeed k => r_seed rg k = Ok g0 | RSGen g => g = g2 | _ => glob = g2 end.

  Lemma base_init_drawn e glob x e1 glob1 ev : base_init I rg exact e glob x = Ok (e1, glob1, ev) ->
    exists g0 g2, base_drawn rg e glob (e_hmm e1) g0 g2 /\ seen (e_rs e1) glob1 g0 g2 /\ h_cfg (e_hmm e1) = h_cfg (e_hmm e)
      /\ (forall k, e_rs e1 = RSSeed k <-> e_rs e = RSSeed k)
      /\ exists nf p, ic_nfeat I (h_cfg (e_hmm e)) (h_nfeat (e_hmm e)) (h_em (e_hmm e)) x = Ok (nf, p) /\ h_nfeat (e_hmm e1) = nf /\ h_em (e_hmm e1) = p.
  Proof.
    unfold base_init. destruct e as [h rs]. cbn [e_hmm e_rs]. set (c := h_cfg h). set (nc := c_nc c).
    destruct (ic_nfeat I c (h_nfeat h) (h_em h) x) as [[nf p]|] eqn:En; [|discriminate]. cbn [bind].
    destruct (Nat.eqb_spec nc 0) as [|Hnc]; [discriminate|].
    replace (tab nc (fun _ => xdiv exact (Fin 1) (Fin (INR nc)))) with (fvec nc (fun _ => 1 / INR nc)).
    2:{ unfold fvec. apply tab_ext. intros i _. rewrite xdivE; [reflexivity|]. apply not_0_INR, Hnc. }
    destruct (rs_get rg rs glob) as [g0|] eqn:Eg; [|discriminate]. cbn [bind].
    destruct (needs_init c "s" "startprob_" (isSome (h_start h))) as [ns ev1] eqn:Es.
    destruct (needs_init c "t" "transmat_" (isSome (h_trans h))) as [nt ev2] eqn:Et.
    pose proof (drawn_iff _ _ _ _ _ _ Es) as Ds. pose proof (drawn_iff _ _ _ _ _ _ Et) as Dt.
    intros H.
    match type of H with bind ?e _ = _ => destruct e as [[s g1]|] eqn:Hs; [|discriminate] end. cbn [bind] in H.
    match type of H with bind ?e _ = _ => destruct e as [[t g2]|] eqn:Ht; [|discriminate] end. cbn [bind] in H.
    destruct (rs_put rs glob g2) as [rs' glob'] eqn:Ep. 
    destruct (ic_nfit I c nf p) as [d|]; [|discriminate]. cbn [bind] in H. destruct (dict_sum d (c_params c)) as [n|]; [|discriminate]. cbn [bind] in H.
    injection H as <- <- <-. exists g0, g2. cbn [e_hmm e_rs h_start h_trans h_cfg h_nfeat h_em].
    split; [|split; [|split; [reflexivity|split; [|exists nf, p; repeat split]]]].
    - unfold base_drawn. cbn [e_hmm e_rs h_start h_trans]. fold c. fold nc. split; [exact Eg|]. exists g1.
      split; [|split; [|split]].
      + intros D. apply Ds in D. subst ns. cbv iota in Hs. unfold dirichlet.
        destruct (r_dirichlet rg _ g0) as [[v g']|]; [|discriminate]. cbn [bind] in Hs. injection Hs as <- <-. eauto.
      + intros D. destruct ns; [exfalso; apply D, Ds; reflexivity|]. injection Hs as <- <-. auto.
      + intros D. apply Dt in D. subst nt. cbv iota in Ht.
        destruct (draws _ nc g1) as [[l g']|] eqn:Ed; [|discriminate]. cbn [bind] in Ht. injection Ht as <- <-.
        destruct (draws_in_turn _ [] _ _ _ _ Ed) as (a & -> & K). exists a. split; [exact K|reflexivity].
      + intros D. destruct nt; [exfalso; apply D, Dt; reflexivity|]. injection Ht as <- <-. auto.
    - destruct rs; cbn in Ep; injection Ep as <- <-; cbn; try reflexivity. exact Eg.
    - intros k. destruct rs; cbn in Ep; injection Ep as <- <-; split; intros K; try discriminate; exact K.
  Qed.

  (** Without iterations the start values are what [fit] stores. *)
  Lemma fit_none e glob x ls e' glob' ev : c_n_iter (h_cfg (e_hmm e)) = 0%nat -> (forall e1 glob1 ev1, init I rg exact e glob x = Ok (e1, glob1, ev1) -> h_cfg (e_hmm e1) = h_cfg (e_hmm e)) ->
    fit E I rg exact e glob x ls = Ok (e', glob', ev) ->
    exists e1 ev1, init I rg exact e glob x = Ok (e1, glob', ev1) /\ h_start (e_hmm e') = h_start (e_hmm e1)
      /\ h_trans (e_hmm e') = h_trans (e_hmm e1)
      /\ ec_check E exact (h_cfg (e_hmm e1)) (h_nfeat (e_hmm e1)) (h_em (e_hmm e1)) = Ok (h_nfeat (e_hmm e'), h_em (e_hmm e')).
  Proof.
    intros H0 Hc H. unfold fit in H. destruct (check_array (ec_xok E) x) as [x'|] eqn:Ex; [|discriminate]. cbn [bind] in H.
    assert (x' = x) as ->. { unfold check_array in Ex. destruct x; [discriminate|]. destruct (forallb _ _); [|discriminate]. injection Ex; auto. }
    destruct (init I rg exact e glob x) as [[[e1 glob1] ev1]|] eqn:Ei; [|discriminate]. cbn [bind] in H.
    destruct (fit_from E exact (e_hmm e1) x ls) as [[h2 ev2]|] eqn:Ef; [|discriminate]. cbn [bind] in H. injection H as <- <- <-.
    exists e1, ev1. split; [reflexivity|]. cbn [e_hmm]. specialize (Hc _ _ _ eq_refl).
    unfold fit_from in Ef. destruct (check E exact (e_hmm e1)) as [h1|] eqn:Ec; [|discriminate]. cbn [bind] in Ef.
    unfold check in Ec. destruct (h_start (e_hmm e1)) as [s|]; [|discriminate].
    destruct (h_trans (e_hmm e1)) as [t|].
    2:{ destruct (negb _); [discriminate|]. destruct (negb _); discriminate. }
    destruct (base_check _ _ _ _); [|discriminate]. cbn [bind] in Ec.
    destruct (ec_check E exact (h_cfg (e_hmm e1)) (h_nfeat (e_hmm e1)) (h_em (e_hmm e1))) as [[nf q]|]; [|discriminate]. cbn [bind] in Ec.
    injection Ec as <-. cbn [h_cfg] in Ef. rewrite Hc, H0 in Ef. cbn [fit_loop bind] in Ef. injection Ef as <- _. 
    cbn [h_start h_trans h_nfeat h_em]. repeat split.
  Qed.
End Base.

Section Start.
  Context {P X St G : Type} (E : emclass P X St) (I : initclass P X G) (rg : rng G).

  Lemma fit_drawn e glob x ls e' glob' ev : c_n_iter (h_cfg (e_hmm e)) = 0%nat ->
    fit E I rg exact e glob x ls = Ok (e', glob', ev) ->
    exists g0 g2 rs1 glob1 nf p q ev2, base_drawn rg e glob (e_hmm e') g0 g2
      /\ seen rg rs1 glob1 g0 g2 /\ (forall k, rs1 = RSSeed k <-> e_rs e = RSSeed k)
      /\ ic_nfeat I (h_cfg (e_hmm e)) (h_nfeat (e_hmm e)) (h_em (e_hmm e)) x = Ok (nf, p)
      /\ ic_em I exact rg (h_cfg (e_hmm e)) nf p x rs1 glob1 = Ok (q, e_rs e', glob', ev2)
      /\ ec_check E exact (h_cfg (e_hmm e)) nf q = Ok (h_nfeat (e_hmm e'), h_em (e_hmm e')).
  Proof.
    intros H0 H.
    assert (K : forall e1 glob1 ev1, init I rg exact e glob x = Ok (e1, glob1, ev1) ->
      exists e0 glob0 ev0 ev2, base_init I rg exact e glob x = Ok (e0, glob0, ev0)
        /\ ic_em I exact rg (h_cfg (e_hmm e0)) (h_nfeat (e_hmm e0)) (h_em (e_hmm e0)) x (e_rs e0) glob0 = Ok (h_em (e_hmm e1), e_rs e1, glob1, ev2)
        /\ h_cfg (e_hmm e1) = h_cfg (e_hmm e0) /\ h_nfeat (e_hmm e1) = h_nfeat (e_hmm e0)
        /\ h_start (e_hmm e1) = h_start (e_hmm e0) /\ h_trans (e_hmm e1) = h_trans (e_hmm e0)).
    { intros e1 glob1 ev1 Hi. unfold init in Hi.
      destruct (base_init I rg exact e glob x) as [[[e0 glob0] ev0]|] eqn:Eb; [|discriminate]. cbn [bind] in Hi.
      destruct (ic_em I exact rg _ _ _ x (e_rs e0) glob0) as [[[[p rs] glob2] ev2]|] eqn:Em; [|discriminate]. cbn [bind] in Hi.
      injection Hi as <- <- <-. exists e0, glob0, ev0, ev2. cbn [e_hmm e_rs h_cfg h_nfeat h_start h_trans h_em]. repeat split. exact Em. }
    destruct (fit_none E I rg e glob x ls e' glob' ev H0) as (e1 & ev1 & Hi & Hs & Ht & Hc); [|exact H|].
    - intros e1 glob1 ev1 Hi. destruct (K _ _ _ Hi) as (e0 & glob0 & ev0 & ev2 & Hb & _ & Ec & _).
      destruct (base_init_drawn I rg _ _ _ _ _ _ Hb) as (g0 & g2 & _ & _ & Ec' & _). congruence.
    - destruct (K _ _ _ Hi) as (e0 & glob0 & ev0 & ev2 & Hb & Hm & Ec & En & Es & Et).
      destruct (base_init_drawn I rg _ _ _ _ _ _ Hb) as (g0 & g2 & D & Sn & Ec' & Rs & nf & p & Hn & En' & Ep).
      assert (Er : e_rs e' = e_rs e1).
      { unfold fit in H. destruct (check_array (ec_xok E) x) as [x'|] eqn:Ex; [|discriminate]. cbn [bind] in H.
        assert (x' = x) as ->. { unfold check_array in Ex. destruct x; [discriminate|]. destruct (forallb _ _); [|discriminate]. injection Ex; auto. }
        rewrite Hi in H. cbn [bind] in H. destruct (fit_from _ _ _ _ _) as [[h2 ev3]|]; [|discriminate]. cbn [bind] in H. replace e' with (Est h2 (e_rs e1)) by congruence. reflexivity. }
      exists g0, g2, (e_rs e0), glob0, nf, p, (h_em (e_hmm e1)), ev2.
      rewrite Ec', En', Ep in Hm. rewrite Ec, Ec', En, En' in Hc. rewrite Er.
      split; [|auto 8]. unfold base_drawn in D |- *. rewrite Hs, Ht, Es, Et. exact D.
  Qed.
End Start.

Lemma seen_get {G} (rg : rng G) rs rs1 glob1 g0 g2 : seen rg rs1 glob1 g0 g2 -> (forall k, rs1 = RSSeed k <-> rs = RSSeed k) ->
  rs_get rg rs1 glob1 = Ok (again rs g0 g2).
Proof.
  intros S1 K. destruct rs1 as [|k|g|]; cbn [seen rs_get] in *; subst.
  - destruct rs as [|k|g|]; cbn [again]; try reflexivity. destruct (K k) as [_ K2]. discriminate (K2 eq_refl).
  - destruct (K k) as [K1 _]. rewrite (K1 eq_refl). exact S1.
  - destruct rs as [|k|g|]; cbn [again]; try reflexivity. destruct (K k) as [_ K2]. discriminate (K2 eq_refl).
  - destruct rs as [|k|g|]; cbn [again]; try reflexivity. destruct (K k) as [_ K2]. discriminate (K2 eq_refl).
Qed.
Lemma adopt_get {G} (rg : rng G) rs1 rsa glob1 g : rs_get rg rs1 glob1 = Ok g -> rs_adopt rg rs1 = Ok rsa ->
  rs_get rg rsa glob1 = Ok g /\ (forall k, rsa <> RSSeed k).
Proof.
  destruct rs1 as [|k|g1|]; cbn [rs_get rs_adopt]; intros H K.
  - injection K as <-. split; [exact H|discriminate].
  - rewrite H in K. cbn [bind] in K. injection K as <-. split; [reflexivity|discriminate].
  - injection K as <-. split; [exact H|discriminate].
  - injection K as <-. split; [exact H|discriminate].
Qed.
(** The generator [fit] leaves behind. *)
Definition left_at {G} (rs' : rstate G) (glob' g : G) : Prop := match rs' with RSGen g1 => g1 = g | _ => glob' = g end.
Lemma put_left {G} (rs rs' : rstate G) glob glob' g : (forall k, rs <> RSSeed k) -> rs_put rs glob g = (rs', glob') -> left_at rs' glob' g.
Proof. intros K H. destruct rs as [|k|g1|]; cbn in H; injection H as <- <-; cbn; try reflexivity. exfalso; exact (K k eq_refl). Qed.

(** ** CategoricalHMM, MultinomialHMM: rows of uniform numbers, divided by their sum. *)
Lemma C80_categorical_l {G} (rg : rng G) e glob x ls e' glob' ev :
  let h := e_hmm e in let c := h_cfg h in
  c_n_iter c = 0%nat -> fit categorical cat_initc rg exact e glob x ls = Ok (e', glob', ev) ->
  exists g0 g2, base_drawn rg e glob (e_hmm e') g0 g2
    /\ (drawn c "e" (cat_prob (h_em h)) -> exists nf u g3, h_nfeat (e_hmm e') = Some nf
         /\ row_by_row (uniform rg) (c_nc c) nf (again (e_rs e) g0 g2) u g3 /\ left_at (e_rs e') glob' g3
         /\ cat_prob (h_em (e_hmm e')) = Some (fmat (c_nc c) nf (fun i => normalised nf (u i))))
    /\ (~ drawn c "e" (cat_prob (h_em h)) -> cat_prob (h_em (e_hmm e')) = cat_prob (h_em h)).
Proof.
  intros h c H0 H. destruct (fit_drawn categorical cat_initc rg _ _ _ _ _ _ _ H0 H)
    as (g0 & g2 & rs1 & glob1 & nf & p & q & ev2 & D & Sn & Rs & Hn & Hm & Hc).
  exists g0, g2. split; [exact D|]. cbn [ic_nfeat cat_initc ic_em] in Hn, Hm. fold h in Hn, Hm, Hc. fold c in Hn, Hm, Hc.
  assert (Hn' : p = h_em h /\ exists n, nf = Some n).
  { unfold cat_nfeat in Hn. destruct (Z.ltb (zmin x) 0); [discriminate|]. destruct (h_nfeat h); [destruct (Z.ltb _ _); [discriminate|]|];
      injection Hn as <- <-; eauto. }
  destruct Hn' as [-> (n & ->)]. unfold cat_init_em in Hm.
  pose proof (seen_get rg (e_rs e) rs1 glob1 g0 g2 Sn Rs) as Hg.
  destruct (rs_adopt rg rs1) as [rsa|] eqn:Ea; [|discriminate]. cbn [bind] in Hm.
  destruct (adopt_get rg rs1 rsa glob1 _ Hg Ea) as [Hga Hk].
  destruct (needs_init c "e" "emissionprob_" (isSome (cat_prob (h_em h)))) as [b evn] eqn:En.
  pose proof (drawn_iff _ _ _ _ _ _ En) as Dn.
  cbn [ec_check categorical] in Hc. unfold cat_check in Hc.
  destruct (cat_prob q) as [m|] eqn:Eq; [|discriminate]. destruct (negb _); [discriminate|]. destruct (negb _); [discriminate|].
  injection Hc as Hc1 Hc2. rewrite <- Hc1, <- Hc2, Eq. clear Hc1 Hc2.
  destruct b.
  - split; [intros _|intros K; exfalso; apply K, Dn; reflexivity].
    rewrite Hga in Hm. cbn [bind] in Hm. destruct (rand_mat rg (c_nc c) n _) as [[mm g3]|] eqn:Er; [|discriminate]. cbn [bind] in Hm.
    destruct (rs_put rsa glob1 g3) as [rs2 glob2] eqn:Ep. injection Hm as <- E1 E2 _. cbn [cat_prob] in Eq. injection Eq as <-.
    destruct (rand_rows rg _ _ _ _ _ Er) as (u & -> & Hu). exists n, u, g3. split; [reflexivity|]. split; [exact Hu|]. split.
    + rewrite <- E1, <- E2. exact (put_left _ _ _ _ _ Hk Ep).
    + rewrite normalize_rows_fmat. reflexivity.
  - split; [intros K; apply Dn in K; discriminate|intros _]. injection Hm as <- _ _ _. auto.
Qed.

Lemma C80_multinomial_l {G} (rg : rng G) e glob x ls e' glob' ev :
  let h := e_hmm e in let c := h_cfg h in
  c_n_iter c = 0%nat -> fit multinomial mult_initc rg exact e glob x ls = Ok (e', glob', ev) ->
  exists g0 g2, base_drawn rg e glob (e_hmm e') g0 g2
    /\ (has "e" (c_init_params c) = true -> exists nf u g3, h_nfeat (e_hmm e') = Some nf
         /\ row_by_row (uniform rg) (c_nc c) nf (again (e_rs e) g0 g2) u g3 /\ left_at (e_rs e') glob' g3
         /\ mu_prob (h_em (e_hmm e')) = Some (fmat (c_nc c) nf (fun i => normalised nf (u i))))
    /\ (has "e" (c_init_params c) = false -> mu_prob (h_em (e_hmm e')) = mu_prob (h_em h)).
Proof.
  intros h c H0 H. destruct (fit_drawn multinomial mult_initc rg _ _ _ _ _ _ _ H0 H)
    as (g0 & g2 & rs1 & glob1 & nf & p & q & ev2 & D & Sn & Rs & Hn & Hm & Hc).
  exists g0, g2. split; [exact D|]. cbn [ic_nfeat mult_initc ic_em] in Hn, Hm. fold h in Hn, Hm, Hc. fold c in Hn, Hm, Hc.
  assert (Hn' : mu_prob p = mu_prob (h_em h) /\ exists n, nf = Some n).
  { unfold mult_nfeat in Hn. destruct (set_n_features (h_nfeat h) (width x)) as [n|] eqn:En; [|discriminate]. cbn [bind] in Hn.
    assert (exists k, n = Some k) as (k & ->).
    { unfold set_n_features in En. destruct (h_nfeat h); [destruct (Nat.eqb _ _); [|discriminate]|]; injection En as <-; eauto. }
    destruct (existsb _ x); [discriminate|]. destruct (mu_trials (h_em h)) as [tr|].
    - destruct (trials_match tr _) as [[]|]; cbn [bind] in Hn; try discriminate. injection Hn as <- <-. eauto.
    - injection Hn as <- <-. cbn [mu_prob]. eauto. }
  destruct Hn' as [Hp (n & ->)]. unfold mult_init_em in Hm.
  pose proof (seen_get rg (e_rs e) rs1 glob1 g0 g2 Sn Rs) as Hg.
  destruct (rs_adopt rg rs1) as [rsa|] eqn:Ea; [|discriminate]. cbn [bind] in Hm.
  destruct (adopt_get rg rs1 rsa glob1 _ Hg Ea) as [Hga Hk].
  cbn [ec_check multinomial] in Hc. unfold mult_check in Hc.
  destruct (mu_prob q) as [m|] eqn:Eq; [|discriminate]. destruct (negb _); [discriminate|]. destruct (mu_trials q); [|discriminate].
  injection Hc as Hc1 Hc2. rewrite <- Hc1, <- Hc2, Eq. clear Hc1 Hc2.
  destruct (has "e" (c_init_params c)).
  - split; [intros _|discriminate].
    rewrite Hga in Hm. cbn [bind] in Hm. destruct (rand_mat rg (c_nc c) n _) as [[mm g3]|] eqn:Er; [|discriminate]. cbn [bind] in Hm.
    destruct (rs_put rsa glob1 g3) as [rs2 glob2] eqn:Ep. injection Hm as <- E1 E2 _. cbn [mu_prob] in Eq. injection Eq as <-.
    destruct (rand_rows rg _ _ _ _ _ Er) as (u & -> & Hu). exists n, u, g3. split; [reflexivity|]. split; [exact Hu|]. split.
    + rewrite <- E1, <- E2. exact (put_left _ _ _ _ _ Hk Ep).
    + rewrite normalize_rows_fmat. reflexivity.
  - split; [discriminate|intros _]. injection Hm as <- _ _ _. congruence.
Qed.

(** ** PoissonHMM: gamma variates with the mean and the variance of the data. *)
Lemma C80_poisson_l {G} (rg : rng G) e glob x ls e' glob' ev :
  let h := e_hmm e in let c := h_cfg h in
  let mu := Fresh_em.mean_of (all_counts x) in let va := variance_of (all_counts x) in
  c_n_iter c = 0%nat -> fit poisson pois_initc rg exact e glob x ls = Ok (e', glob', ev) -> mu <> 0 -> va <> 0 ->
  exists g0 g2, base_drawn rg e glob (e_hmm e') g0 g2
    /\ (drawn c "l" (po_lam (h_em h)) -> exists nf u g3, h_nfeat (e_hmm e') = Some nf
         /\ row_by_row (r_gamma rg (Fin (mu * mu / va)) (Fin (va / mu))) (c_nc c) nf (again (e_rs e) g0 g2) u g3
         /\ left_at (e_rs e') glob' g3
         /\ po_lam (h_em (e_hmm e')) = Some (mtab (c_nc c) nf u))
    /\ (~ drawn c "l" (po_lam (h_em h)) -> po_lam (h_em (e_hmm e')) = po_lam (h_em h)).
Proof.
  intros h c mu va H0 H Hmu Hva. destruct (fit_drawn poisson pois_initc rg _ _ _ _ _ _ _ H0 H)
    as (g0 & g2 & rs1 & glob1 & nf & p & q & ev2 & D & Sn & Rs & Hn & Hm & Hc).
  exists g0, g2. split; [exact D|]. cbn [ic_nfeat pois_initc ic_em] in Hn, Hm. fold h in Hn, Hm, Hc. fold c in Hn, Hm, Hc.
  assert (Hn' : p = h_em h /\ exists n, nf = Some n).
  { unfold pois_nfeat in Hn. destruct (set_n_features (h_nfeat h) (width x)) as [n|] eqn:En; [|discriminate]. cbn [bind] in Hn.
    injection Hn as <- <-. unfold set_n_features in En. destruct (h_nfeat h); [destruct (Nat.eqb _ _); [|discriminate]|]; injection En as <-; eauto. }
  destruct Hn' as [-> (n & ->)]. unfold pois_init_em in Hm.
  assert (Hne : all_counts x <> []).
  { intros K. apply Hmu. unfold mu. rewrite K. unfold Fresh_em.mean_of. cbn. lra. }
  rewrite counts_vec, (arr_mean_fin _ Hne), (arr_var_fin _ Hne) in Hm. fold mu va in Hm.
  change (xsq exact (Fin mu)) with (Fin (mu * mu)) in Hm. rewrite (xdivE (mu * mu) va Hva), (xdivE va mu Hmu) in Hm.
  pose proof (seen_get rg (e_rs e) rs1 glob1 g0 g2 Sn Rs) as Hg.
  destruct (rs_adopt rg rs1) as [rsa|] eqn:Ea; [|discriminate]. cbn [bind] in Hm.
  destruct (adopt_get rg rs1 rsa glob1 _ Hg Ea) as [Hga Hk].
  destruct (needs_init c "l" "lambdas_" (isSome (po_lam (h_em h)))) as [b evn] eqn:En.
  pose proof (drawn_iff _ _ _ _ _ _ En) as Dn.
  cbn [ec_check poisson] in Hc. unfold pois_check in Hc.
  destruct (po_lam q) as [m|] eqn:Eq; [|discriminate]. destruct (negb _); [discriminate|].
  injection Hc as Hc1 Hc2. rewrite <- Hc1, <- Hc2, Eq. clear Hc1 Hc2.
  destruct b.
  - split; [intros _|intros K; exfalso; apply K, Dn; reflexivity].
    rewrite Hga in Hm. cbn [bind] in Hm. unfold gamma_mat in Hm.
    destruct (draws _ (c_nc c) _) as [[l g3]|] eqn:Er; [|discriminate]. cbn [bind] in Hm.
    destruct (rs_put rsa glob1 g3) as [rs2 glob2] eqn:Ep. injection Hm as <- E1 E2 _. cbn [po_lam] in Eq. injection Eq as <-.
    destruct (draws_rows _ NaN _ _ _ _ _ Er) as (u & -> & Hu). exists n, u, g3. split; [reflexivity|]. split; [exact Hu|]. split.
    + rewrite <- E1, <- E2. exact (put_left _ _ _ _ _ Hk Ep).
    + reflexivity.
  - split; [intros K; apply Dn in K; discriminate|intros _]. injection Hm as <- _ _ _. auto.
Qed.

(** ** GaussianHMM: the centres KMeans finds. *)
Lemma C80_gaussian_l {G} (rg : rng G) e glob x ls e' glob' ev :
  let h := e_hmm e in let c := h_cfg h in
  c_n_iter c = 0%nat -> fit gaussian gauss_initc rg exact e glob x ls = Ok (e', glob', ev) ->
  exists g0 g2, base_drawn rg e glob (e_hmm e') g0 g2
    /\ (drawn c "m" (ga_means (h_em h)) -> exists m g3, r_kmeans rg (c_nc c) x (again (e_rs e) g0 g2) = Ok (m, g3)
         /\ ga_means (h_em (e_hmm e')) = Some m)
    /\ (~ drawn c "m" (ga_means (h_em h)) -> ga_means (h_em (e_hmm e')) = ga_means (h_em h)).
Proof.
  intros h c H0 H. destruct (fit_drawn gaussian gauss_initc rg _ _ _ _ _ _ _ H0 H)
    as (g0 & g2 & rs1 & glob1 & nf & p & q & ev2 & D & Sn & Rs & Hn & Hm & Hc).
  exists g0, g2. split; [exact D|]. cbn [ic_nfeat gauss_initc ic_em] in Hn, Hm. fold h in Hn, Hm, Hc. fold c in Hn, Hm, Hc.
  assert (p = h_em h) as ->.
  { unfold gauss_nfeat in Hn. destruct (set_n_features (h_nfeat h) (width x)) as [n|] eqn:En; [|discriminate]. cbn [bind] in Hn.
    injection Hn as _ <-. reflexivity. }
  unfold gauss_init_em in Hm.
  pose proof (seen_get rg (e_rs e) rs1 glob1 g0 g2 Sn Rs) as Hg.
  destruct (needs_init c "m" "means_" (isSome (ga_means (h_em h)))) as [b evn] eqn:En.
  pose proof (drawn_iff _ _ _ _ _ _ En) as Dn.
  match type of Hm with bind ?e _ = _ => destruct e as [[[means rs2] glob2]|] eqn:E1; [|discriminate] end. cbn [bind] in Hm.
  assert (Eq : ga_means q = means).
  { match type of Hm with bind ?e _ = _ => destruct e as [is_set|]; [|discriminate] end. cbn [bind] in Hm.
    destruct (needs_init c "c" "covars_" is_set) as [ncv ev3]. destruct ncv.
    - destruct (distribute _ _ _ _) as [cv|]; [|discriminate]. cbn [bind] in Hm. destruct (validate_covars _ _ _ _); [|discriminate]. cbn [bind] in Hm.
      injection Hm as <- _ _ _. reflexivity.
    - injection Hm as <- _ _ _. reflexivity. }
  cbn [ec_check gaussian] in Hc. unfold gauss_check in Hc.
  assert (Eh : h_em (e_hmm e') = q).
  { destruct (ga_means q); [|discriminate]. destruct (is_type _ _); [|discriminate]. injection Hc as _ <-. reflexivity. }
  rewrite Eh, Eq. destruct b.
  - split; [intros _|intros K; exfalso; apply K, Dn; reflexivity].
    rewrite Hg in E1. cbn [bind] in E1. destruct (r_kmeans rg (c_nc c) x _) as [[m g3]|]; [|discriminate]. cbn [bind] in E1.
    destruct (rs_put rs1 glob1 g3). injection E1 as <- _ _. exists m, g3. auto.
  - split; [intros K; apply Dn in K; discriminate|intros _]. injection E1 as <- _ _. reflexivity.
Qed.

(** ** GMMHMM: with an integer, each KMeans starts in the same state. *)
Lemma mix_means_seed {G} (gr : grng G) (rg : rng G) nm labels x cent cv k g0 : r_seed rg k = Ok g0 ->
  forall is glob ms rs' glob', mix_means gr rg nm labels x cent cv is (RSSeed k) glob = Ok (ms, rs', glob') ->
  rs' = RSSeed k /\ forall j, (j < length is)%nat -> (nm <= length (in_cluster labels x (nth j is 0%nat)))%nat ->
    exists l g4, gr_kmeans gr nm (in_cluster labels x (nth j is 0%nat)) g0 = Ok (l, nth j ms (Mat 0 []), g4).
Proof.
  intros H0. induction is as [|i is IH]; intros glob ms rs' glob' H; cbn [mix_means] in H.
  - injection H as <- <- <-. split; [reflexivity|]. intros j Hj. cbn in Hj. lia.
  - apply bind_inv in H as ([[m rs1] g1] & Hm & H). apply bind_inv in H as ([[ms1 rs2] g2] & Hr & H). injection H as <- <- <-.
    assert (K : rs1 = RSSeed k /\ ((nm <= length (in_cluster labels x i))%nat -> exists l g4, gr_kmeans gr nm (in_cluster labels x i) g0 = Ok (l, m, g4))).
    { destruct (Nat.leb_spec nm (length (in_cluster labels x i))) as [Hl|Hl].
      - apply bind_inv in Hm as ([[[l m0] r0] g3] & Hk & Hm). injection Hm as <- <- <-.
        destruct (kmeans_inv gr rg _ _ _ _ _ _ _ _ Hk) as (g & g' & Hg & Hkk & Hp). cbn [rs_get] in Hg. rewrite H0 in Hg. injection Hg as <-.
        cbn [rs_put] in Hp. injection Hp as <- <-. split; [reflexivity|]. intros _. exists l, g'. exact Hkk.
      - apply bind_inv in Hm as ([m0 g3] & _ & Hm). injection Hm as <- <- <-. split; [reflexivity|]. intros K; lia. }
    destruct K as [-> K]. destruct (IH _ _ _ _ Hr) as [-> Hj]. split; [reflexivity|].
    intros [|j] Hjl Hs; cbn [nth length] in *; [apply K, Hs|apply Hj; [lia|exact Hs]].
Qed.

Lemma C80_gmm_l {G} eig (gr : grng G) (rg : rng G) e glob x ls e' glob' ev :
  let h := e_hmm e in let c := h_cfg h in let nm := gm_nmix (h_em h) in
  c_n_iter c = 0%nat -> fit (gmm eig) (gmm_initc gr) rg exact e glob x ls = Ok (e', glob', ev) ->
  exists g0 g2 labels centres g3, base_drawn rg e glob (e_hmm e') g0 g2
    /\ gr_kmeans gr (c_nc c) x (again (e_rs e) g0 g2) = Ok (labels, centres, g3)
    /\ (drawn c "m" (gm_means (h_em h)) -> exists m, gm_means (h_em (e_hmm e')) = Some m
         /\ forall k i, e_rs e = RSSeed k -> (i < c_nc c)%nat -> (nm <= length (in_cluster labels x i))%nat ->
            exists l mm g4, gr_kmeans gr nm (in_cluster labels x i) g0 = Ok (l, mm, g4)
              /\ forall j f, (j < nm)%nat -> (f < width x)%nat -> nget m [i; j; f] = mget mm j f)
    /\ (~ drawn c "m" (gm_means (h_em h)) -> gm_means (h_em (e_hmm e')) = gm_means (h_em h)).
Proof.
  intros h c nm H0 H. destruct (fit_drawn (gmm eig) (gmm_initc gr) rg _ _ _ _ _ _ _ H0 H)
    as (g0 & g2 & rs1 & glob1 & nf & p & q & ev2 & D & Sn & Rs & Hn & Hm & Hc).
  cbn [ic_nfeat gmm_initc ic_em] in Hn, Hm. fold h in Hn, Hm, Hc. fold c in Hn, Hm, Hc.
  assert (Hn' : p = h_em h /\ nf = Some (width x)).
  { unfold gmm_nfeat in Hn. destruct (set_n_features (h_nfeat h) (width x)) as [n|] eqn:En; [|discriminate]. cbn [bind] in Hn.
    injection Hn as <- <-. split; [reflexivity|]. unfold set_n_features in En.
    destruct (h_nfeat h); [destruct (Nat.eqb_spec n0 (width x)); [|discriminate]|]; congruence. }
  destruct Hn' as [-> ->]. unfold gmm_init_em in Hm. fold nm in Hm.
  pose proof (seen_get rg (e_rs e) rs1 glob1 g0 g2 Sn Rs) as Hg.
  apply bind_inv in Hm as (p1 & Hf & Hm). destruct (fix_priors_keeps _ _ _ _ _ Hf) as (_ & _ & Fm & _).
  apply bind_inv in Hm as ([[[labels centres] rs2] glob2] & Hk & Hm).
  destruct (kmeans_inv gr rg _ _ _ _ _ _ _ _ Hk) as (g & g3 & Hg' & Hkk & Hp). rewrite Hg in Hg'. injection Hg' as <-.
  exists g0, g2, labels, centres, g3. split; [exact D|]. split; [exact Hkk|].
  apply bind_inv in Hm as ([[ms rs3] glob3] & Hmm & Hm).
  destruct (needs_init c "w" _ _) as [nw ev3].
  apply bind_inv in Hm as (w & _ & Hm).
  destruct (needs_init c "m" _ _) as [b ev4] eqn:En. pose proof (drawn_iff _ _ _ _ _ _ En) as Dn. rewrite Fm in Dn.
  destruct (needs_init c "c" _ _) as [nv ev5]. injection Hm as <- _ _ _.
  cbn [ec_check gmm] in Hc. unfold gmm_check in Hc. cbn [bind] in Hc.
  apply bind_inv in Hc as (p2 & Hf2 & Hc). destruct (fix_priors_keeps _ _ _ _ _ Hf2) as (_ & _ & Fm2 & _). cbn [gm_set gm_means] in Fm2.
  assert (Ee : h_em (e_hmm e') = p2).
  { repeat (match type of Hc with
            | bind _ _ = _ => apply bind_inv in Hc as (? & _ & Hc)
            | (if ?o then _ else _) = _ => destruct o; try discriminate
            | (match ?o with Some _ => _ | None => _ end) = _ => destruct o; try discriminate
            end). injection Hc as _ <-. reflexivity. }
  rewrite Ee, Fm2. destruct b.
  - split; [intros _|intros K; exfalso; apply K, Dn; reflexivity]. eexists. split; [reflexivity|].
    intros k i Hk0 Hi Hlen. destruct (Rs k) as [_ Rk]. specialize (Rk Hk0). subst rs1. cbn [rs_put] in Hp. injection Hp as <- <-.
    cbn [seen] in Sn. destruct (mix_means_seed gr rg nm labels x _ _ k g0 Sn _ _ _ _ _ Hmm) as [_ Hj].
    specialize (Hj i). rewrite seq_length, seq_nth in Hj by exact Hi. cbn [Nat.add] in Hj.
    destruct (Hj Hi Hlen) as (l & g4 & E4). exists l, (nth i ms (Mat 0 [])), g4. split; [exact E4|].
    intros j f Hjj Hff. unfold stack. rewrite nget_ntab; [reflexivity|]. repeat constructor; assumption.
  - split; [intros K; apply Dn in K; discriminate|intros _]. exact Fm.
Qed.

(** ** The variational classes. *)
Definition times (k : R) (v : vec) : vec := map (fun a => xmul exact a (Fin k)) v.
(** Number of sequences, and of samples they add up to. *)
Definition n_seqs (ls : option (list Z)) : nat := match ls with Some l => length l | None => 1%nat end.
Definition n_samples {X} (x : list X) (ls : option (list Z)) : R :=
  match ls with Some l => IZR (fold_right Z.add 0%Z l) | None => INR (length x) end.

Definition vbase_drawn {P G X} (rg : rng G) (e : vest P G) (glob : G) (x : list X) (ls : option (list Z)) (v' : vhmm P) (g0 g2 : G) : Prop :=
  let v := ve_v e in let c := v_cfg v in let nc := c_nc c in
  let new_s := drawn c "s" (v_spost v) \/ v_sprior v = None in let new_t := drawn c "t" (v_tpost v) \/ v_tprior v = None in
  rs_get rg (ve_rs e) glob = Ok g0
  /\ exists g1,
      (new_s -> exists s, dirichlet rg nc g0 = Ok (s, g1) /\ v_spost v' = Some (times (INR (n_seqs ls)) s))
      /\ (~ new_s -> v_spost v' = v_spost v /\ g1 = g0)
      /\ (new_t -> exists rows, in_turn (dirichlet rg nc) nc g1 rows g2
            /\ v_tpost v' = Some (Mat nc (tab nc (fun i => times (n_samples x ls / INR nc) (rows i)))))
      /\ (~ new_t -> v_tpost v' = v_tpost v /\ g2 = g1).

Lemma zsum_l_fold l : zsum_l l = fold_right Z.add 0%Z l.
Proof.
  unfold zsum_l. rewrite fold_symmetric; [reflexivity| |]; intros; lia.
Qed.
Lemma drawn2_iff {A B} (c : cfg) letter nm (old : option A) nm2 (old2 : option B) b ev :
  needs_init2 c letter nm (isSome old) nm2 (isSome old2) = (b, ev) -> (b = true <-> drawn c letter old \/ old2 = None).
Proof.
  intros H. apply needs_init2_spec in H as [-> _]. unfold drawn. destruct (has letter _), old, old2; cbn; split; auto; try discriminate;
    intros [[K|K]|K]; discriminate.
Qed.

Section VStart.
  Context {P X St G : Type} (V : vclass P X St) (I : vinitclass P X G) (rg : rng G).
  Notation lens ls x := (match ls with None => [Z.of_nat (length x)] | Some l => l end).

  Lemma vbase_init_drawn e glob x ls e1 glob1 ev : vbase_init I rg exact e glob x (lens ls x) = Ok (e1, glob1, ev) ->
    exists g0 g2, vbase_drawn rg e glob x ls (ve_v e1) g0 g2 /\ seen rg (ve_rs e1) glob1 g0 g2
      /\ (forall k, ve_rs e1 = RSSeed k <-> ve_rs e = RSSeed k).
  Proof.
    unfold vbase_init. destruct e as [v rs]. cbn [ve_v ve_rs]. fold (v_cfg v). set (c := v_cfg v). set (nc := c_nc c).
    intros H. apply bind_inv in H as ([nf p] & _ & H).
    destruct (Nat.eqb_spec nc 0) as [|Hnc]; [discriminate|].
    assert (Hnz : INR nc <> 0) by (apply not_0_INR, Hnc).
    rewrite (xdivE 1 (INR nc) Hnz), (xdivE _ (INR nc) Hnz) in H.
    replace (tab nc (fun _ => Fin (1 / INR nc))) with (fvec nc (fun _ => 1 / INR nc)) in H by reflexivity.
    apply bind_inv in H as (g0 & Eg & H).
    destruct (needs_init2 c "s" _ _ _ _) as [ns ev1] eqn:Es. apply drawn2_iff in Es.
    apply bind_inv in H as ([[sp sq] g1] & Hs & H).
    destruct (needs_init2 c "t" _ _ _ _) as [nt ev2] eqn:Et. apply drawn2_iff in Et.
    apply bind_inv in H as ([[tp tq] g2] & Ht & H).
    destruct (rs_put rs glob g2) as [rs' glob'] eqn:Ep.
    apply bind_inv in H as (d & _ & H). apply bind_inv in H as (n & _ & H). injection H as <- <- _.
    exists g0, g2. cbn [ve_v ve_rs v_spost v_tpost]. split; [|split].
    - unfold vbase_drawn. cbn [ve_v ve_rs v_spost v_tpost]. fold c. fold nc. split; [exact Eg|]. exists g1.
      split; [|split; [|split]].
      + intros D. apply Es in D. subst ns. apply bind_inv in Hs as (sp' & _ & Hs). apply bind_inv in Hs as ([s g1'] & Hd & Hs).
        injection Hs as _ <- <-. exists s. split; [exact Hd|]. unfold times. do 2 f_equal. destruct ls; reflexivity.
      + intros D. destruct ns; [exfalso; apply D, Es; reflexivity|]. injection Hs as _ <- <-. auto.
      + intros D. apply Et in D. subst nt. apply bind_inv in Ht as (tp' & _ & Ht). apply bind_inv in Ht as ([l g2'] & Hd & Ht).
        injection Ht as _ <- <-. destruct (draws_in_turn _ [] _ _ _ _ Hd) as (a & -> & K). exists a. split; [exact K|].
        unfold times. do 2 f_equal. rewrite tab_map. apply tab_ext. intros i _. apply map_ext. intros b. do 2 f_equal.
        unfold n_samples. rewrite zsum_l_fold. destruct ls; [reflexivity|]. cbn [fold_right]. rewrite Z.add_0_r, <- INR_IZR_INZ. reflexivity.
      + intros D. destruct nt; [exfalso; apply D, Et; reflexivity|]. injection Ht as _ <- <-. auto.
    - destruct rs; cbn in Ep; injection Ep as <- <-; cbn; try reflexivity. exact Eg.
    - intros k. destruct rs; cbn in Ep; injection Ep as <- <-; split; intros K; try discriminate; exact K.
  Qed.

  Lemma vfit_drawn e glob x ls e' glob' ev : c_n_iter (v_cfg (ve_v e)) = 0%nat ->
    vfit V I rg exact e glob x ls = Ok (e', glob', ev) ->
    exists g0 g2 rs1 glob1 nf p q ev2, vbase_drawn rg e glob x ls (ve_v e') g0 g2
      /\ seen rg rs1 glob1 g0 g2 /\ (forall k, rs1 = RSSeed k <-> ve_rs e = RSSeed k)
      /\ vi_nfeat I (v_cfg (ve_v e)) (h_nfeat (v_h (ve_v e))) (h_em (v_h (ve_v e))) x = Ok (nf, p)
      /\ vi_em I exact rg (v_cfg (ve_v e)) nf p x (lens ls x) rs1 glob1 = Ok (q, ve_rs e', glob', ev2)
      /\ ec_check (vc_em V) exact (v_cfg (ve_v e)) nf q = Ok (h_nfeat (v_h (ve_v e')), h_em (v_h (ve_v e'))).
  Proof.
    intros H0 H. unfold vfit in H. apply bind_inv in H as (x' & Hx & H).
    assert (x' = x) as ->.
    { unfold check_array in Hx. destruct x; [discriminate|]. destruct (forallb _ _); [|discriminate]. now injection Hx. }
    apply bind_inv in H as ([[e1 glob1] ev1] & H1 & H). apply bind_inv in H as ([v2 ev2] & H2 & H). injection H as <- <- <-.
    unfold vinit in H1. apply bind_inv in H1 as ([[eb globb] evb] & Hb & H1).
    apply bind_inv in H1 as ([[[q rs] globm] evm] & Hm & H1). injection H1 as <- <- <-.
    destruct (vbase_init_drawn _ _ _ _ _ _ _ Hb) as (g0 & g2 & D & Sn & Rs).
    destruct (vbase_init_inv I rg exact _ _ _ _ _ _ _ Hb) as (Hc & _ & _ & Hn & _).
    unfold v_cfg in Hc. rewrite Hc in Hm. fold (v_cfg (ve_v e)) in Hm, Hc.
    unfold vfit_from, vcheck in H2. apply bind_inv in H2 as (v1 & Hv & H2).
    apply bind_inv in Hv as (u & _ & Hv). apply bind_inv in Hv as ([nf' q'] & Hk & Hv). injection Hv as <-.
    cbn [ve_v ve_rs with_h set_em v_h v_cfg h_cfg h_nfeat h_em] in *. rewrite Hc in Hk, H2.
    rewrite H0 in H2. cbn [vfit_loop bind] in H2. injection H2 as <- _.
    exists g0, g2, (ve_rs eb), globb, (h_nfeat (v_h (ve_v eb))), (h_em (v_h (ve_v eb))), q, evm.
    cbn [ve_v ve_rs with_h set_em v_h v_cfg h_cfg h_nfeat h_em].
    split; [exact D|]. split; [exact Sn|]. split; [exact Rs|]. split; [exact Hn|]. split; [exact Hm|exact Hk].
  Qed.
End VStart.

Lemma xdiv_mul a t n : 0 < n -> xdiv exact (xmul exact a (Fin t)) (Fin n) = xmul exact a (Fin (t / n)).
Proof.
  intros Hn. assert (Hi : 0 < / n) by (apply Rinv_0_lt_compat; exact Hn).
  assert (Hs : forall y z : xnum, xscale_inf (t / n) y z = xscale_inf t y z).
  { intros y z. unfold xscale_inf, Rdiv. destruct (Rlt_dec 0 t), (Rlt_dec 0 (t * / n)); try reflexivity; try nra.
    - destruct (Rlt_dec t 0), (Rlt_dec (t * / n) 0); try reflexivity; nra. }
  destruct a as [r| | |]; cbn [xmul]; [|rewrite Hs|rewrite Hs|reflexivity].
  - unfold exact. cbn [xdiv]. destruct (Req_EM_T n 0); [lra|]. f_equal. unfold Rdiv. ring.
  - unfold xscale_inf. destruct (Rlt_dec 0 t); [cbn; destruct (Rlt_dec n 0); [lra|reflexivity]|].
    destruct (Rlt_dec t 0); [cbn; destruct (Rlt_dec n 0); [lra|reflexivity]|reflexivity].
  - unfold xscale_inf. destruct (Rlt_dec 0 t); [cbn; destruct (Rlt_dec n 0); [lra|reflexivity]|].
    destruct (Rlt_dec t 0); [cbn; destruct (Rlt_dec n 0); [lra|reflexivity]|reflexivity].
Qed.

(** The default for [emissionprob_prior] is 1 / n_features. *)
Definition emission_alpha (o : option parr) (nf : nat) (a : xnum) : Prop :=
  (o = None /\ a = Fin (1 / INR nf)) \/ o = Some (Scal a).
Lemma C80_vcategorical_l {G} (rg : rng G) e glob x ls e' glob' ev :
  let v := ve_v e in let c := v_cfg v in let p := h_em (v_h v) in let p' := h_em (v_h (ve_v e')) in
  c_n_iter c = 0%nat -> vfit vcategorical vcat_initc rg exact e glob x ls = Ok (e', glob', ev) ->
  exists g0 g2, vbase_drawn rg e glob x ls (ve_v e') g0 g2
    /\ (drawn c "e" (vk_post p) -> exists nf a rows g3, h_nfeat (v_h (ve_v e')) = Some nf /\ emission_alpha (vk_arg p) nf a
         /\ in_turn (r_dirichlet rg (tab nf (fun _ => a))) (c_nc c) (again (ve_rs e) g0 g2) rows g3
         /\ vk_post p' = Some (Mat nf (tab (c_nc c) (fun i => times (n_samples x ls / INR (c_nc c)) (rows i)))))
    /\ (~ drawn c "e" (vk_post p) -> vk_post p' = vk_post p).
Proof.
  intros v c p p' H0 H. destruct (vfit_drawn vcategorical vcat_initc rg _ _ _ _ _ _ _ H0 H)
    as (g0 & g2 & rs1 & glob1 & nf & p1 & q & ev2 & D & Sn & Rs & Hn & Hm & Hc).
  exists g0, g2. split; [exact D|]. cbn [vi_nfeat vcat_initc vi_em] in Hn, Hm. fold v in Hn, Hm, Hc. fold c p in Hn, Hm, Hc.
  assert (Hn' : p1 = p /\ exists n, nf = Some n).
  { unfold vcat_nfeat, cat_nfeat in Hn. destruct (Z.ltb (zmin x) 0); [discriminate|]. cbn [bind] in Hn.
    destruct (h_nfeat (v_h v)); [destruct (Z.ltb _ _); [discriminate|]|]; cbn [bind] in Hn; injection Hn as <- <-; eauto. }
  destruct Hn' as [-> (n & ->)]. unfold vcat_init_em in Hm.
  pose proof (seen_get rg (ve_rs e) rs1 glob1 g0 g2 Sn Rs) as Hg. rewrite Hg in Hm. cbn [bind] in Hm.
  destruct (needs_init c "e" _ _) as [b evn] eqn:En. pose proof (drawn_iff _ _ _ _ _ _ En) as Dn.
  cbn [ec_check vcategorical vc_em] in Hc. unfold vcat_check in Hc.
  apply bind_inv in Hc as (pr & Hpr & Hc). apply bind_inv in Hc as (po & Hpo & Hc).
  destruct (negb _); [discriminate|]. destruct (negb _) eqn:Esh; [discriminate|]. injection Hc as Hc1 Hc2. unfold p'. rewrite <- Hc1, <- Hc2. clear Hc1 Hc2.
  assert (Hnc : c_nc c <> 0%nat).
  { destruct D as [_ _]. intros K. unfold vfit in H. apply bind_inv in H as (x' & _ & H). apply bind_inv in H as ([[e1 gl] ev1] & H1 & _).
    unfold vinit in H1. apply bind_inv in H1 as ([[e2 gl2] ev3] & H1 & _). unfold vbase_init in H1. apply bind_inv in H1 as ([nf' p2] & _ & H1).
    fold v in H1. fold (v_cfg v) in H1. fold c in H1. rewrite K in H1. discriminate. }
  destruct b.
  - split; [intros _|intros K; exfalso; apply K, Dn; reflexivity].
    destruct (Nat.eqb_spec n 0) as [|Hnz]; [discriminate|].
    rewrite (xdivE 1 (INR n)) in Hm by (apply not_0_INR, Hnz).
    apply bind_inv in Hm as (pr' & _ & Hm). apply bind_inv in Hm as (a0 & Ha & Hm). apply bind_inv in Hm as ([l g3] & Hd & Hm).
    destruct (rs_put rs1 glob1 g3) as [rs2 glob2]. injection Hm as <- _ _ _. cbn [vk_post].
    destruct (draws_in_turn _ [] _ _ _ _ Hd) as (rows & -> & Hr). exists n, a0, rows, g3. split; [reflexivity|]. split; [|split; [exact Hr|]].
    + unfold emission_alpha. destruct (vk_arg p) as [[a1|a1|a1]|]; try discriminate; injection Ha as <-; auto.
    + do 2 f_equal. rewrite tab_map. apply tab_ext. intros i _. unfold times. apply map_ext. intros d.
      rewrite xdiv_mul by (apply lt_0_INR; lia). do 3 f_equal.
      unfold n_samples. rewrite zsum_l_fold. destruct ls; [reflexivity|]. cbn [fold_right]. rewrite Z.add_0_r, <- INR_IZR_INZ. reflexivity.
  - split; [intros K; apply Dn in K; discriminate|intros _]. injection Hm as <- _ _ _. reflexivity.
Qed.

Lemma C80_vgaussian_l {G} la (gr : grng G) (rg : rng G) e glob x ls e' glob' ev :
  let v := ve_v e in let c := v_cfg v in let p := h_em (v_h v) in let p' := h_em (v_h (ve_v e')) in
  c_n_iter c = 0%nat -> vfit (vgaussian la) (vg_initc gr) rg exact e glob x ls = Ok (e', glob', ev) ->
  exists g0 g2 labels centres g3, vbase_drawn rg e glob x ls (ve_v e') g0 g2
    /\ gr_kmeans gr (c_nc c) x (again (ve_rs e) g0 g2) = Ok (labels, centres, g3)
    /\ ((drawn c "m" (vg_m p) \/ vg_m0 p = None \/ vg_b p = None \/ vg_b0 p = None) -> vg_m p' = Some centres)
    /\ (~ (drawn c "m" (vg_m p) \/ vg_m0 p = None \/ vg_b p = None \/ vg_b0 p = None) -> vg_m p' = vg_m p).
Proof.
  intros v c p p' H0 H. destruct (vfit_drawn (vgaussian la) (vg_initc gr) rg _ _ _ _ _ _ _ H0 H)
    as (g0 & g2 & rs1 & glob1 & nf & p1 & q & ev2 & D & Sn & Rs & Hn & Hm & Hc).
  cbn [vi_nfeat vg_initc vi_em] in Hn, Hm. fold v in Hn, Hm, Hc. fold c p in Hn, Hm, Hc.
  apply vg_nfeat_inv in Hn. subst p1. unfold vg_init_em in Hm.
  pose proof (seen_get rg (ve_rs e) rs1 glob1 g0 g2 Sn Rs) as Hg.
  apply bind_inv in Hm as ([[[labels centres] rs2] glob2] & Hk & Hm).
  destruct (kmeans_inv gr rg _ _ _ _ _ _ _ _ Hk) as (g & g3 & Hg' & Hkk & Hp). rewrite Hg in Hg'. injection Hg' as <-.
  exists g0, g2, labels, centres, g3. split; [exact D|]. split; [exact Hkk|].
  destruct (needs_any c "m" _) as [b evn] eqn:En. apply needs_any_spec in En as [En _].
  assert (Ep : p' = q).
  { unfold p'. cbn [ec_check vgaussian vc_em] in Hc. unfold vg_check in Hc. repeat (apply bind_inv in Hc as (? & _ & Hc)). injection Hc as _ <-. reflexivity. }
  assert (Dn : b = true <-> drawn c "m" (vg_m p) \/ vg_m0 p = None \/ vg_b p = None \/ vg_b0 p = None).
  { rewrite En. unfold drawn. destruct (has "m" _), (vg_m p), (vg_m0 p), (vg_b p), (vg_b0 p); cbn; split; auto 6; try discriminate;
      intros [[K|K]|[K|[K|K]]]; discriminate. }
  rewrite Ep. destruct b.
  - split; [intros _|intros K; exfalso; apply K, Dn; reflexivity].
    destruct (needs_any c "c" _) as [nv ev3]. apply bind_inv in Hm as ([[[[d0 d] s0] s1] cv] & _ & Hm). injection Hm as <- _ _ _. reflexivity.
  - split; [intros K; apply Dn in K; discriminate|intros _].
    destruct (needs_any c "c" _) as [nv ev3]. apply bind_inv in Hm as ([[[[d0 d] s0] s1] cv] & _ & Hm). injection Hm as <- _ _ _. reflexivity.
Qed.
