(** * C43: aic and bic count the free parameters. *)
From Verif Require Export Alphabet_thms.

(** ** The dimensions. *)
(** A probability vector is determined by all its entries but the last, and these
    can be chosen freely in an open set. *)
Lemma C43_simplex_dim_l n : (0 < n)%nat ->
  (forall p q, sumn n p = 1 -> sumn n q = 1 -> (forall i, (i < simplex_dim n)%nat -> p i = q i) ->
     forall i, (i < n)%nat -> p i = q i)
  /\ (forall w, (forall i, (i < simplex_dim n)%nat -> 0 < w i) -> sumn (simplex_dim n) w < 1 ->
      exists p, sumn n p = 1 /\ (forall i, (i < n)%nat -> 0 < p i)
        /\ forall i, (i < simplex_dim n)%nat -> p i = w i).
Proof.
  intros Hn. destruct n as [|m]; [lia|]. unfold simplex_dim. replace (S m - 1)%nat with m by lia. split.
  - intros p q Hp Hq He i Hi. change (sumn m p + p m = 1) in Hp. change (sumn m q + q m = 1) in Hq.
    rewrite (sumn_ext m p q) in Hp by exact He. destruct (Nat.eq_dec i m) as [->|Hne]; [lra|]. apply He. lia.
  - intros w Hw Hs. exists (fun i => if Nat.ltb i m then w i else 1 - sumn m w). split; [|split].
    + cbn [sumn]. rewrite Nat.ltb_irrefl.
      rewrite (sumn_ext m _ w); [lra|]. intros i Hi. destruct (Nat.ltb_spec i m); [reflexivity|lia].
    + intros i Hi. destruct (Nat.ltb_spec i m); [apply Hw; assumption|lra].
    + intros i Hi. destruct (Nat.ltb_spec i m); [reflexivity|lia].
Qed.

Lemma filter_seq_le i n : length (filter (fun j => Nat.leb j i) (seq 0 n)) = Nat.min (S i) n.
Proof.
  induction n as [|n IH]; [rewrite Nat.min_0_r; reflexivity|].
  rewrite seq_S, filter_app, app_length, IH. cbn [filter Nat.add]. destruct (Nat.leb_spec n i); cbn [length]; lia.
Qed.
Lemma filter_map_length {A B} (f : A -> B) (t : B -> bool) l : length (filter t (map f l)) = length (filter (fun a => t (f a)) l).
Proof. induction l as [|a l IH]; [reflexivity|]. cbn. destruct (t (f a)); cbn; rewrite IH; reflexivity. Qed.
Lemma symmetric_dim_double n : (2 * symmetric_dim n = n * (n + 1))%nat.
Proof.
  unfold symmetric_dim.
  assert (H : forall k, (k <= n)%nat ->
    (2 * length (filter (fun ij => Nat.leb (snd ij) (fst ij)) (list_prod (seq 0 k) (seq 0 n))) = k * (k + 1))%nat).
  { induction k as [|k IH]; intros Hk; [reflexivity|].
    assert (HP : forall (a : nat) l1 l2 (l : list nat), list_prod (l1 ++ [a] ++ l2) l = list_prod l1 l ++ map (fun b => (a, b)) l ++ list_prod l2 l).
    { intros a l1 l2 l. induction l1 as [|b l1 IH1]; [reflexivity|]. cbn [app list_prod]. cbn [app] in IH1. rewrite IH1, <- app_assoc. reflexivity. }
    rewrite seq_S. rewrite <- (app_nil_r [_]), HP. cbn [list_prod]. rewrite app_nil_r, filter_app, app_length, filter_map_length.
    cbn [fst snd Nat.add]. rewrite filter_seq_le. specialize (IH ltac:(lia)).
    rewrite Nat.mul_add_distr_l, IH. rewrite Nat.min_l by lia. lia. }
  apply H. lia.
Qed.
(** A symmetric matrix is determined by the entries on and below the diagonal,
    which are free. *)
Lemma C43_symmetric_dim_l n :
  (2 * symmetric_dim n = n * (n + 1))%nat
  /\ (forall a b : nat -> nat -> R, (forall i j, a i j = a j i) -> (forall i j, b i j = b j i) ->
       (forall i j, (j <= i)%nat -> a i j = b i j) -> forall i j, a i j = b i j)
  /\ (forall w : nat -> nat -> R, exists a : nat -> nat -> R, (forall i j, a i j = a j i) /\ forall i j, (j <= i)%nat -> a i j = w i j).
Proof.
  split; [apply symmetric_dim_double|]. split.
  - intros a b Ha Hb H i j. destruct (Nat.le_ge_cases j i) as [Hl|Hl]; [apply H; exact Hl|].
    rewrite Ha, Hb. apply H. exact Hl.
  - intros w. exists (fun i j => w (Nat.max i j) (Nat.min i j)). split.
    + intros i j. rewrite Nat.max_comm, Nat.min_comm. reflexivity.
    + intros i j Hl. rewrite Nat.max_l, Nat.min_r by exact Hl. reflexivity.
Qed.

(** ** The criteria. *)
(** [aic] and [bic] of a model with [k] parameters whenever [score] is finite. *)
Definition criteria {P X St G} (E : emclass P X St) (I : initclass P X G) (h : hmm P) (k : nat) : Prop :=
  forall x ls s, score E exact h x ls = Ok (Fin s) ->
    aic E I exact h x ls = Ok (Fin (-2 * s + 2 * INR k))
    /\ bic E I exact h x ls = Ok (Fin (-2 * s + INR k * ln (INR (length x)))).
Lemma score_nonempty {P X St} (E : emclass P X St) fp h x ls s : score E fp h x ls = Ok s -> x <> [].
Proof.
  intros H ->. unfold score in H. apply bind_inv in H as ([l p] & H & _).
  unfold score_ in H. apply bind_inv in H as ([[hf a] b] & _ & H). cbn in H. discriminate.
Qed.
Lemma criteria_count {P X St G} (E : emclass P X St) (I : initclass P X G) h k :
  n_params I h = Ok (Z.of_nat k) -> criteria E I h k.
Proof.
  intros Hn x ls s Hs. pose proof (score_nonempty _ _ _ _ _ _ Hs) as Hx. unfold aic, bic. rewrite Hn, Hs. cbn [bind xmul xadd exact].
  rewrite mult_IZR, <- INR_IZR_INZ. split; [reflexivity|].
  assert (Hpos : 0 < INR (length x)). { apply lt_0_INR. destruct x; [contradiction|cbn; lia]. }
  unfold xlog. destruct (Rlt_dec _ _); [reflexivity|contradiction].
Qed.

Lemma C43_categorical_l {G} (h : hmm catp) nc nf : c_nc (h_cfg h) = nc -> h_nfeat h = Some nf -> (0 < nc)%nat -> (0 < nf)%nat ->
  criteria categorical (@cat_initc G) h (base_dim nc + nc * simplex_dim nf).
Proof.
  intros Hc Hf H1 H2. apply criteria_count. unfold n_params. cbn [ic_nfit cat_initc]. unfold cat_nfit. rewrite Hf, Hc. cbn.
  f_equal. unfold base_dim, simplex_dim. nia.
Qed.

Lemma C43_multinomial_l {G} (h : hmm mulp) nc nf : c_nc (h_cfg h) = nc -> h_nfeat h = Some nf -> (0 < nc)%nat -> (0 < nf)%nat ->
  criteria multinomial (@mult_initc G) h (base_dim nc + nc * simplex_dim nf).
Proof.
  intros Hc Hf H1 H2. apply criteria_count. unfold n_params. cbn [ic_nfit mult_initc]. unfold mult_nfit. rewrite Hf, Hc. cbn.
  f_equal. unfold base_dim, simplex_dim. nia.
Qed.
Lemma C43_poisson_l {G} (h : hmm poisp) nc nf : c_nc (h_cfg h) = nc -> h_nfeat h = Some nf -> (0 < nc)%nat ->
  criteria poisson (@pois_initc G) h (base_dim nc + nc * nf).
Proof.
  intros Hc Hf H1. apply criteria_count. unfold n_params. cbn [ic_nfit pois_initc]. unfold pois_nfit. rewrite Hf, Hc. cbn.
  f_equal. unfold base_dim, simplex_dim. nia.
Qed.
Lemma C43_gaussian_l {G} (h : hmm gaussp) nc nf : c_nc (h_cfg h) = nc -> h_nfeat h = Some nf -> (0 < nc)%nat ->
  is_type covariance_types (ga_type (h_em h)) = true ->
  criteria gaussian (@gauss_initc G) h (base_dim nc + nc * nf + covars_dim (ga_type (h_em h)) nc nf).
Proof.
  intros Hc Hf H1 Ht. apply criteria_count. unfold n_params. cbn [ic_nfit gauss_initc]. unfold gauss_nfit. rewrite Hf, Hc.
  pose proof (symmetric_dim_double nf) as Hs. unfold covars_dim.
  assert (Hd : (Z.of_nat nf * (Z.of_nat nf + 1) = 2 * Z.of_nat (symmetric_dim nf))%Z) by nia.
  destruct (String.eqb_spec (ga_type (h_em h)) "spherical") as [E0|N0].
  { cbn. f_equal. unfold base_dim, simplex_dim. nia. }
  destruct (String.eqb_spec (ga_type (h_em h)) "diag") as [E0|N1].
  { cbn. f_equal. unfold base_dim, simplex_dim. nia. }
  destruct (String.eqb_spec (ga_type (h_em h)) "full") as [E0|N2].
  { replace (Z.of_nat nc * Z.of_nat nf * (Z.of_nat nf + 1))%Z with (Z.of_nat nc * Z.of_nat (symmetric_dim nf) * 2)%Z by nia.
    rewrite Z.div_mul by lia. cbn. f_equal. unfold base_dim, simplex_dim. nia. }
  destruct (String.eqb_spec (ga_type (h_em h)) "tied") as [E0|N3].
  { rewrite Hd, Z.mul_comm, Z.div_mul by lia. cbn. f_equal. unfold base_dim, simplex_dim. nia. }
  exfalso. unfold is_type, covariance_types in Ht. cbn in Ht.
  rewrite !(proj2 (String.eqb_neq _ _)) in Ht by congruence. discriminate.
Qed.

(** Parameters assigned by hand, n_features not stored yet: [score] works, the
    criteria do not. *)
Lemma C43_unset_n_features_refuted_l : exists (h : hmm catp) x s,
  score categorical exact h x None = Ok (Fin s)
  /\ aic categorical (@cat_initc nat) exact h x None = Err TypeError
  /\ bic categorical (@cat_initc nat) exact h x None = Err TypeError.
Proof.
  exists (ex_h "log" "map"), ex_x, (ln (3 / 128)). split; [|split; reflexivity].
  rewrite C02_applies_l. rewrite xln_pos by lra. reflexivity.
Qed.
(** A concrete model: 2 states, 3 symbols, 7 free parameters. *)
Lemma C43_applies_l : exists h : hmm catp,
  aic categorical (@cat_initc nat) exact h ex_x None = Ok (Fin (-2 * ln (3 / 128) + 2 * 7)).
Proof.
  set (h0 := ex_h "log" "map").
  exists (Hmm (h_cfg h0) (Some 3%nat) (h_start h0) (h_trans h0) (h_mon h0) (h_em h0)).
  replace 7 with (INR (base_dim 2 + 2 * simplex_dim 3)) by (cbn; lra).
  apply C43_categorical_l; try reflexivity; try lia.
  pose proof C02_applies_l as H. rewrite xln_pos in H by lra. exact H.
Qed.
