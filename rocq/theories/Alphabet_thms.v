(** * C31, C42: what [fit] infers from and requires of the data. *)
From Verif Require Export Refit_thms.

(** ** C31. *)
(** Whatever the generator and the arithmetic: the first [fit] stores one more
    than the largest symbol, later ones keep the stored number; no symbol is
    negative or too large. *)
Lemma C31_alphabet_l {G} (rg : rng G) fp e glob x ls e' glob' ev :
  fit categorical cat_initc rg fp e glob x ls = Ok (e', glob', ev) ->
  exists n, h_nfeat (e_hmm e') = Some n
    /\ (forall k, In k x -> (0 <= k < Z.of_nat n)%Z)
    /\ match h_nfeat (e_hmm e) with
       | None => In (Z.of_nat n - 1)%Z x
       | Some n0 => n = n0
       end.
Proof.
  intros H. destruct (fit_inv _ _ _ _ _ _ _ _ _ _ _ H) as (ea & va & va2 & Hx & Hi & Hff & _ & _).
  destruct (init_spec _ _ _ _ _ _ _ _ _ Hi) as (_ & _ & _ & p & rs & g1 & ev2 & Hn & _).
  pose proof (fit_from_keeps _ _ _ _ _ _ _ Hff) as (_ & _ & h1 & Hck & Hn1). apply check_em in Hck.
  cbn [ic_nfeat cat_initc] in Hn. cbn [ec_check categorical] in Hck. unfold cat_check in Hck.
  destruct (cat_prob (h_em (e_hmm ea))) as [m|]; [|discriminate].
  destruct (negb _) in Hck; [discriminate|]. destruct (negb _) in Hck; [discriminate|]. injection Hck as Hck _.
  assert (Hne : x <> []) by (destruct x; [discriminate|discriminate]).
  unfold cat_nfeat in Hn. destruct (Z.ltb_spec (zmin x) 0) as [|Hmin]; [discriminate|].
  pose proof (zmax_in x Hne) as Hin. pose proof (zmax_ge x _ (zmin_in x Hne)) as Hmm.
  destruct (h_nfeat (e_hmm e)) as [n0|].
  - destruct (Z.ltb_spec (Z.of_nat n0 - 1) (zmax x)) as [|Hmax]; [discriminate|].
    injection Hn as Hn _. rewrite <- Hn in Hck. exists n0. rewrite Hn1, <- Hck. split; [reflexivity|]. split; [|reflexivity].
    intros k Hk. pose proof (zmin_le x k Hk). pose proof (zmax_ge x k Hk). lia.
  - injection Hn as Hn _. rewrite <- Hn in Hck. eexists. rewrite Hn1, <- Hck. split; [reflexivity|].
    rewrite Z2Nat.id by lia. split.
    + intros k Hk. pose proof (zmin_le x k Hk). pose proof (zmax_ge x k Hk). lia.
    + replace (zmax x + 1 - 1)%Z with (zmax x) by lia. exact Hin.
Qed.

(** In exact arithmetic, for an estimator that is otherwise usable (number of
    states, letters, lengths, kept parameters): [fit] raises ValueError exactly
    for the bad symbols and returns otherwise. *)
Definition cat_usable {G} (rg : rng G) (e : est catp G) (x : list Z) (ls : option (list Z)) (n : nat) : Prop :=
  let h := e_hmm e in let c := h_cfg h in
  valid_rs rg (e_rs e) /\ (0 < c_nc c)%nat /\ c_impl c = "log"%string /\ letters_in (c_params c) ["s"; "t"; "e"]%char
  /\ x <> [] /\ lengths_ok ls x /\ cat_keeps_valid h n.
Lemma C31_first_fit_l {G} (rg : rng G) e glob x ls :
  sane_rng rg -> let r := fit categorical cat_initc rg exact e glob x ls in
  h_nfeat (e_hmm e) = None -> x <> [] ->
  (forall n, In (Z.of_nat n - 1)%Z x -> (forall k, In k x -> (k < Z.of_nat n)%Z) -> cat_usable rg e x ls n) ->
  (value_error r <-> exists k, In k x /\ (k < 0)%Z)
  /\ ((forall k, In k x -> (0 <= k)%Z) -> returns r).
Proof.
  intros Hsane. cbv zeta. intros Hnf Hx Hu. assert (HR : (forall k, In k x -> (0 <= k)%Z) -> returns (fit categorical cat_initc rg exact e glob x ls)).
  { intros Hk. pose proof (Hk _ (zmax_in x Hx)) as Hm.
    destruct (Hu (Z.to_nat (zmax x + 1))) as (U1 & U2 & U3 & U4 & U5 & U6 & U7).
    { rewrite Z2Nat.id by lia. replace (zmax x + 1 - 1)%Z with (zmax x) by lia. apply zmax_in; exact Hx. }
    { intros k Hin. pose proof (zmax_ge x k Hin). lia. }
    destruct (cat_fit_returns rg Hsane e glob x ls (Z.to_nat (zmax x + 1)) U1 U2 U3 U4 U5 U6) as (r & Hr & _).
    - apply Forall_forall. intros k Hin. pose proof (Hk _ Hin). pose proof (zmax_ge x k Hin). unfold in_range. lia.
    - right. split; [exact Hnf|lia].
    - exact U7.
    - exists r. exact Hr. }
  split; [|exact HR]. split.
  - intros (w & Hw). destruct (Exists_dec (fun k => (k < 0)%Z) x) as [Hd|Hd].
    + intros k. destruct (Z_lt_dec k 0); [left|right]; assumption.
    + apply Exists_exists in Hd. exact Hd.
    + destruct HR as (r & Hr); [|congruence]. intros k Hk. destruct (Z_lt_le_dec k 0) as [Hneg|]; [|assumption].
      contradiction Hd. apply Exists_exists. exists k. auto.
  - intros (k & Hk & Hneg). apply (cat_fit_rejects rg e glob x ls 0 k); [right; exact Hnf|exact Hk|left; exact Hneg].
Qed.
Lemma C31_later_fit_l {G} (rg : rng G) e glob x ls n :
  sane_rng rg -> let r := fit categorical cat_initc rg exact e glob x ls in
  h_nfeat (e_hmm e) = Some n -> cat_usable rg e x ls n ->
  (value_error r <-> exists k, In k x /\ (k < 0 \/ Z.of_nat n <= k)%Z)
  /\ ((forall k, In k x -> (0 <= k < Z.of_nat n)%Z) -> returns r).
Proof.
  intros Hsane. cbv zeta. intros Hnf (U1 & U2 & U3 & U4 & U5 & U6 & U7).
  assert (HR : (forall k, In k x -> (0 <= k < Z.of_nat n)%Z) -> returns (fit categorical cat_initc rg exact e glob x ls)).
  { intros Hk. destruct (cat_fit_returns rg Hsane e glob x ls n U1 U2 U3 U4 U5 U6) as (r & Hr & _).
    - apply Forall_forall. exact Hk.
    - left. exact Hnf.
    - exact U7.
    - exists r. exact Hr. }
  split; [|exact HR]. split.
  - intros (w & Hw). destruct (Exists_dec (fun k => (k < 0 \/ Z.of_nat n <= k)%Z) x) as [Hd|Hd].
    + intros k. destruct (Z_lt_dec k 0); [left; left; assumption|]. destruct (Z_le_dec (Z.of_nat n) k); [left; right|right]; lia.
    + apply Exists_exists in Hd. exact Hd.
    + destruct HR as (r & Hr); [|congruence]. intros k Hk.
      destruct (Z_lt_le_dec k 0) as [Hneg|]; [|destruct (Z_lt_le_dec k (Z.of_nat n)); [lia|]];
        contradiction Hd; apply Exists_exists; exists k; split; auto; lia.
  - intros (k & Hk & Hb). apply (cat_fit_rejects rg e glob x ls n k); [left; exact Hnf|exact Hk|].
    destruct Hb as [Hb|Hb]; [left; exact Hb|right; split; [exact Hnf|exact Hb]].
Qed.
Lemma C31_applies_l : (forall n, cat_usable toy_rng toy_cat [2; 0; 1]%Z None n)
  /\ (exists e1 g1 ev, fit categorical cat_initc toy_rng exact toy_cat 0%nat [2; 0; 1]%Z None = Ok (e1, g1, ev)
      /\ h_nfeat (e_hmm e1) = Some 3%nat /\ cat_usable toy_rng e1 [3]%Z None 3
      /\ value_error (fit categorical cat_initc toy_rng exact e1 g1 [3]%Z None)).
Proof.
  assert (HU : forall n, cat_usable toy_rng toy_cat [2; 0; 1]%Z None n).
  { intros n. split; [exists 0%nat; reflexivity|]. split; [cbn; lia|]. split; [reflexivity|]. split; [exact letters_ste|].
    split; [discriminate|]. split; [left; reflexivity|]. repeat split; discriminate. }
  split; [exact HU|].
  destruct (C31_first_fit_l toy_rng toy_cat 0%nat [2; 0; 1]%Z None toy_sane eq_refl ltac:(discriminate) (fun n _ _ => HU n)) as (_ & HR).
  destruct HR as ([[e1 g1] ev] & HR). { intros k [<-|[<-|[<-|[]]]]; lia. }
  exists e1, g1, ev. split; [exact HR|].
  destruct (C31_alphabet_l _ _ _ _ _ _ _ _ _ HR) as (n & Hn & Hb & Hin). cbn [toy_cat e_hmm h_nfeat] in Hin.
  assert (n = 3)%nat as ->. { pose proof (Hb 2%Z (or_introl eq_refl)). cbn in Hin. lia. }
  split; [exact Hn|].
  destruct (fit_inv _ _ _ _ _ _ _ _ _ _ _ HR) as (ea & va & va2 & _ & Hi & Hff & Hrs & _).
  pose proof (fit_from_keeps _ _ _ _ _ _ _ Hff) as (Hc1 & _).
  destruct (init_spec _ _ _ _ _ _ _ _ _ Hi) as (Hc0 & _).
  assert (Hc : h_cfg (e_hmm e1) = toy_cfg "ste") by (rewrite Hc1; exact Hc0).
  assert (HU1 : cat_usable toy_rng e1 [3]%Z None 3).
  { unfold cat_usable, cat_keeps_valid, keeps_valid_base. rewrite Hc. split.
    - destruct (init_inv _ _ _ _ _ _ _ _ _ Hi) as (ba & gg & wa & p & rs & w2 & Hbb & He & Hea & _).
      rewrite Hrs, Hea. cbn [e_rs].
      destruct (base_init_inv _ _ _ _ _ _ _ _ _ Hbb) as (_ & _ & _ & _ & _ & _ & (g3 & g4 & _ & Hp) & _).
      cbn [rs_put toy_cat e_rs] in Hp. injection Hp as Hp _. rewrite <- Hp in He.
      destruct (cat_adv _ _ _ _ _ [2; 0; 1]%Z _ _ _ _ _ _ He) as (g5 & g6 & _ & _ & ->). exact I.
    - split; [cbn; lia|]. split; [reflexivity|]. split; [exact letters_ste|].
      split; [discriminate|]. split; [left; reflexivity|]. repeat split; discriminate. }
  split; [exact HU1|]. apply (C31_later_fit_l toy_rng e1 g1 [3]%Z None 3 toy_sane Hn HU1). exists 3%Z. split; [left; reflexivity|lia].
Qed.

(** ** C42: trials. *)
(** A given n_trials: one number, or one number per sample. *)
Definition totals_differ (tr : trials) (x : list (list Z)) : Prop :=
  match tr with
  | TNum n => exists r, In r x /\ zsum r <> n
  | TArr l => l <> map zsum x
  end.
Definition trials_fit (tr : trials) (x : list (list Z)) : Prop :=
  match tr with TNum _ => True | TArr l => length l = length x end.
Definition has_negative (x : list (list Z)) : Prop := exists r k, In r x /\ In k r /\ (k < 0)%Z.
Definition mult_usable {G} (rg : rng G) (e : est mulp G) (x : list (list Z)) (ls : option (list Z)) (n : nat) : Prop :=
  let h := e_hmm e in let c := h_cfg h in
  valid_rs rg (e_rs e) /\ (0 < c_nc c)%nat /\ c_impl c = "log"%string /\ letters_in (c_params c) ["s"; "t"; "e"]%char
  /\ x <> [] /\ lengths_ok ls x /\ Forall (fun r => length r = n) x /\ mult_keeps_valid h n
  /\ (h_nfeat h = None \/ h_nfeat h = Some n).

Lemma neg_spec x : existsb (existsb (fun k => Z.ltb k 0)) x = true <-> has_negative x.
Proof.
  rewrite existsb_exists. split.
  - intros (r & Hr & H). apply existsb_exists in H as (k & Hk & H). exists r, k. apply Z.ltb_lt in H. auto.
  - intros (r & k & Hr & Hk & H). exists r. split; [exact Hr|]. apply existsb_exists. exists k. split; [exact Hk|]. apply Z.ltb_lt. exact H.
Qed.
Lemma trials_spec tr x : trials_fit tr x -> exists b, trials_match tr (map zsum x) = Ok b /\ (b = false <-> totals_differ tr x).
Proof.
  destruct tr as [n|l]; cbn [trials_fit trials_match totals_differ].
  - intros _. eexists. split; [reflexivity|]. split.
    + intros H. induction x as [|r x IH]; cbn in H; [discriminate|].
      destruct (Z.eqb_spec n (zsum r)) as [Heq|Hne].
      * cbn in H. destruct (IH H) as (r' & Hr & Hd). exists r'. split; [right; exact Hr|exact Hd].
      * exists r. split; [left; reflexivity|]. congruence.
    + intros (r & Hr & Hd). destruct (forallb _ _) eqn:E0; [|reflexivity]. rewrite forallb_forall in E0.
      specialize (E0 (zsum r) (in_map _ _ _ Hr)). apply Z.eqb_eq in E0. congruence.
  - intros Hlen. rewrite map_length, Hlen, Nat.eqb_refl. eexists. split; [reflexivity|].
    rewrite <- (map_length zsum x) in Hlen. revert Hlen. generalize (map zsum x) as s. clear x.
    induction l as [|a l IH]; intros [|b s] Hlen; try discriminate; cbn.
    + split; [discriminate|]. intros H; contradiction H; reflexivity.
    + injection Hlen as Hlen. specialize (IH s Hlen). destruct (Z.eqb_spec a b) as [->|Hne]; cbn.
      * rewrite IH. split; intros H H2; apply H; [injection H2; auto|congruence].
      * split; [intros _ H; injection H; intros; contradiction|reflexivity].
Qed.
Lemma neg_dec x : has_negative x \/ ~ has_negative x.
Proof.
  destruct (existsb (existsb (fun k => Z.ltb k 0)) x) eqn:E0; [left; apply neg_spec; exact E0|right].
  intros H. apply neg_spec in H. congruence.
Qed.
Lemma totals_dec tr x : trials_fit tr x -> totals_differ tr x \/ ~ totals_differ tr x.
Proof.
  intros H. destruct (trials_spec tr x H) as ([] & _ & Hb); [right; intros Hd; apply Hb in Hd; discriminate|left; apply Hb; reflexivity].
Qed.
Lemma mult_nfeat_spec c nf p x n : x <> [] -> Forall (fun r => length r = n) x -> (nf = None \/ nf = Some n) ->
  match mu_trials p with Some tr => trials_fit tr x | None => True end ->
  (has_negative x \/ match mu_trials p with Some tr => totals_differ tr x | None => False end ->
     exists w, mult_nfeat c nf p x = Err (ValueError w))
  /\ (~ has_negative x -> match mu_trials p with Some tr => ~ totals_differ tr x | None => True end ->
     exists p', mult_nfeat c nf p x = Ok (Some n, p')
       /\ mu_trials p' = Some (match mu_trials p with Some tr => tr | None => TArr (map zsum x) end)).
Proof.
  intros Hx Hw Hnf Hf. assert (Hwd : width x = n). { destruct x; [contradiction|]. inversion Hw; subst. reflexivity. }
  assert (Hs : set_n_features nf (width x) = Ok (Some n)).
  { rewrite Hwd. destruct Hnf as [-> | ->]; cbn; [reflexivity|]. rewrite Nat.eqb_refl. reflexivity. }
  unfold mult_nfeat. rewrite Hs. cbn [bind].
  destruct (existsb _ x) eqn:Ee.
  - apply neg_spec in Ee. split; [intros _; eexists; reflexivity|]. intros Hn. contradiction.
  - assert (Hnn : ~ has_negative x). { intros Hn. apply neg_spec in Hn. congruence. }
    destruct (mu_trials p) as [tr|] eqn:Et.
    + destruct (trials_spec tr x Hf) as (b & -> & Hb). cbn [bind]. destruct b.
      * split.
        -- intros [H|H]; [contradiction|]. apply Hb in H. discriminate.
        -- intros _ _. exists p. split; [reflexivity|exact Et].
      * split; [intros _; eexists; reflexivity|]. intros _ H. contradiction H. apply Hb. reflexivity.
    + split.
      * intros [H|[]]. contradiction.
      * intros _ _. eexists. split; reflexivity.
Qed.

Lemma C42_trials_validated_l {G} (rg : rng G) e glob x ls n tr :
  sane_rng rg -> let r := fit multinomial mult_initc rg exact e glob x ls in
  mult_usable rg e x ls n -> mu_trials (h_em (e_hmm e)) = Some tr -> trials_fit tr x ->
  (value_error r <-> has_negative x \/ totals_differ tr x)
  /\ (~ has_negative x -> ~ totals_differ tr x -> returns r).
Proof.
  intros Hsane. cbv zeta. intros (U1 & U2 & U3 & U4 & U5 & U6 & U7 & U8 & U9) Ht Hf.
  destruct (mult_nfeat_spec (h_cfg (e_hmm e)) (h_nfeat (e_hmm e)) (h_em (e_hmm e)) x n U5 U7 U9) as (S1 & S2).
  { rewrite Ht. exact Hf. }
  rewrite Ht in S1, S2.
  assert (HR : ~ has_negative x -> ~ totals_differ tr x -> returns (fit multinomial mult_initc rg exact e glob x ls)).
  { intros H1 H2. destruct (S2 H1 H2) as (p' & Hp & _).
    destruct (mult_fit_returns rg Hsane e glob x ls n p' U1 U2 U3 U4 U5 U6 U7 U8 Hp) as (r & Hr & _). exists r. exact Hr. }
  split; [|exact HR]. split.
  - intros (w & Hw). destruct (neg_dec x) as [|N1]; [tauto|]. destruct (totals_dec tr x Hf) as [|N2]; [tauto|].
    destruct (HR N1 N2) as (r & Hr). congruence.
  - intros H. destruct (S1 H) as (w & Hw). apply (mult_fit_rejects rg e glob x ls w U5 Hw).
Qed.

(** n_trials not given: only negative counts are rejected by the first [fit], which
    stores the row totals. *)
Lemma C42_trials_inferred_l {G} (rg : rng G) e glob x ls n :
  sane_rng rg -> let r := fit multinomial mult_initc rg exact e glob x ls in
  mult_usable rg e x ls n -> mu_trials (h_em (e_hmm e)) = None ->
  (value_error r <-> has_negative x)
  /\ (~ has_negative x -> exists e' glob' ev, r = Ok (e', glob', ev) /\ mu_trials (h_em (e_hmm e')) = Some (TArr (map zsum x))).
Proof.
  intros Hsane. cbv zeta. intros (U1 & U2 & U3 & U4 & U5 & U6 & U7 & U8 & U9) Ht.
  destruct (mult_nfeat_spec (h_cfg (e_hmm e)) (h_nfeat (e_hmm e)) (h_em (e_hmm e)) x n U5 U7 U9) as (S1 & S2).
  { rewrite Ht. exact I. }
  rewrite Ht in S1, S2.
  assert (HR : ~ has_negative x -> exists e' glob' ev, fit multinomial mult_initc rg exact e glob x ls = Ok (e', glob', ev)
            /\ mu_trials (h_em (e_hmm e')) = Some (TArr (map zsum x))).
  { intros H1. destruct (S2 H1 I) as (p' & Hp & Htr).
    destruct (mult_fit_returns rg Hsane e glob x ls n p' U1 U2 U3 U4 U5 U6 U7 U8 Hp) as ([[e' g'] ev] & Hr & Hm).
    exists e', g', ev. split; [exact Hr|]. rewrite <- Htr. exact Hm. }
  split; [|exact HR]. split.
  - intros (w & Hw). destruct (neg_dec x) as [|Hn]; [assumption|]. destruct (HR Hn) as (e' & g' & ev & Hr & _). congruence.
  - intros H. destruct (S1 (or_introl H)) as (w & Hw). apply (mult_fit_rejects rg e glob x ls w U5 Hw).
Qed.

(** ... so that a later [fit] on other data is rejected although no n_trials was
    given. *)
Lemma C42_trials_remembered_refuted_l : exists (e : est mulp nat) x y e1 g1 ev,
  sane_rng toy_rng /\ mu_trials (h_em (e_hmm e)) = None /\ ~ has_negative x /\ ~ has_negative y
  /\ fit multinomial mult_initc toy_rng exact e 0%nat x None = Ok (e1, g1, ev)
  /\ mult_usable toy_rng e1 y None 2
  /\ value_error (fit multinomial mult_initc toy_rng exact e1 g1 y None).
Proof.
  set (x := [[1; 2]; [3; 0]]%Z). set (y := [[1; 1]; [3; 0]]%Z).
  assert (HU : mult_usable toy_rng toy_mult x None 2).
  { split; [exists 0%nat; reflexivity|]. split; [cbn; lia|]. split; [reflexivity|]. split; [exact letters_ste|].
    split; [discriminate|]. split; [left; reflexivity|]. split; [repeat constructor|].
    split; [|left; reflexivity]. split; [|left; reflexivity]. split; discriminate. }
  assert (Hx : ~ has_negative x). { intros Hn. apply neg_spec in Hn. discriminate. }
  assert (Hy : ~ has_negative y). { intros Hn. apply neg_spec in Hn. discriminate. }
  destruct (C42_trials_inferred_l toy_rng toy_mult 0%nat x None 2 toy_sane HU eq_refl) as (_ & HR).
  destruct (HR Hx) as (e1 & g1 & ev & H1 & Htr).
  exists toy_mult, x, y, e1, g1, ev. split; [exact toy_sane|]. split; [reflexivity|]. split; [exact Hx|]. split; [exact Hy|].
  split; [exact H1|].
  destruct (fit_inv _ _ _ _ _ _ _ _ _ _ _ H1) as (ea & va & va2 & _ & Hi & Hff & Hrs & _).
  pose proof (fit_from_keeps _ _ _ _ _ _ _ Hff) as (Hc1 & _ & h1 & Hck & Hnf1).
  destruct (init_spec _ _ _ _ _ _ _ _ _ Hi) as (Hc0 & _ & _ & p0 & rs0 & g0 & w0 & Hnf & _).
  cbn in Hnf. injection Hnf as Hnf _.
  assert (Hc : h_cfg (e_hmm e1) = toy_cfg "ste") by (rewrite Hc1; exact Hc0).
  assert (Hn1 : h_nfeat (e_hmm e1) = Some 2%nat).
  { rewrite Hnf1. apply check_em in Hck. cbn [ec_check multinomial] in Hck. unfold mult_check in Hck.
    revert Hck. destruct (mu_prob (h_em (e_hmm ea))) as [mm|]; [|discriminate].
    destruct (negb _); [discriminate|]. destruct (mu_trials (h_em (e_hmm ea))); [|discriminate].
    intros Hck. injection Hck as <- _. rewrite <- Hnf. reflexivity. }
  assert (HU1 : mult_usable toy_rng e1 y None 2).
  { unfold mult_usable, mult_keeps_valid, keeps_valid_base. rewrite Hc. split.
    - destruct (init_inv _ _ _ _ _ _ _ _ _ Hi) as (ba & gg & wa & p & rs & w2 & Hb & He & Hea & _).
      rewrite Hrs, Hea. cbn [e_rs].
      destruct (base_init_inv _ _ _ _ _ _ _ _ _ Hb) as (_ & _ & _ & _ & _ & _ & (g3 & g4 & _ & Hp) & _).
      cbn [rs_put toy_mult e_rs] in Hp. injection Hp as Hp _. rewrite <- Hp in He.
      destruct (mult_adv _ _ _ _ _ x _ _ _ _ _ _ He) as (g5 & g6 & _ & _ & ->). exact I.
    - split; [cbn; lia|]. split; [reflexivity|]. split; [exact letters_ste|].
      split; [discriminate|]. split; [left; reflexivity|]. split; [repeat constructor|].
      split; [|right; exact Hn1]. split; [|left; reflexivity]. split; discriminate. }
  split; [exact HU1|].
  apply (C42_trials_validated_l toy_rng e1 g1 y None 2 (TArr (map zsum x)) toy_sane HU1 Htr eq_refl). right. cbn. discriminate.
Qed.
