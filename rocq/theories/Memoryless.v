(** * Models whose rows of transition probabilities equal the start probabilities. *)
From Verif Require Export Reverse.

Definition memoryless (nc : nat) (pi : nat -> R) (A : nat -> nat -> R) : Prop :=
  forall i j, (i < nc)%nat -> (j < nc)%nat -> A i j = pi j.
(** The density of the mixture with weights [pi]. *)
Definition mixture {X} (nc : nat) (pi : nat -> R) (b : X -> nat -> R) (o : X) : R := sumn nc (fun i => pi i * b o i).

Lemma obsB_nth {X} (b : X -> nat -> R) x t i d : (t < length x)%nat -> obsB b x t i = b (nth t x d) i.
Proof.
  intros Ht. unfold obsB. rewrite (nth_indep _ 0 (b d i)) by (rewrite map_length; exact Ht). exact (map_nth (fun o => b o i) x d t).
Qed.
Lemma prodn_obs {X} (g : X -> R) (f : nat -> R) x : (forall t d, (t < length x)%nat -> f t = g (nth t x d)) -> prodn (length x) f = prodL g x.
Proof.
  induction x as [|o x IH] in f |- *; intros H; [reflexivity|]. cbn [length]. rewrite prodn_front. cbn [prodL]. f_equal.
  - apply (H 0%nat o). cbn. lia.
  - apply IH. intros t d Ht. apply (H (S t) d). cbn. lia.
Qed.
Lemma tab_obs {X U} (g : X -> U) (f : nat -> U) x : (forall t d, (t < length x)%nat -> f t = g (nth t x d)) -> tab (length x) f = map g x.
Proof.
  induction x as [|o x IH] in f |- *; intros H; [reflexivity|]. unfold tab. cbn [length seq map]. f_equal.
  - apply (H 0%nat o). cbn. lia.
  - rewrite <- seq_shift, map_map. apply IH. intros t d Ht. apply (H (S t) d). cbn. lia.
Qed.
Lemma prodL_app {X} (g : X -> R) x y : prodL g (x ++ y) = prodL g x * prodL g y.
Proof. induction x as [|o x IH]; cbn [app prodL]; [ring|]. rewrite IH. ring. Qed.
Lemma prodL_concat {X} (g : X -> R) xs : prodL g (concat xs) = prodL (prodL g) xs.
Proof. induction xs as [|x xs IH]; cbn [concat prodL]; [reflexivity|]. rewrite prodL_app, IH. reflexivity. Qed.

Section Mem.
  Context {X : Type} (nc : nat) (pi : nat -> R) (A : nat -> nat -> R) (b : X -> nat -> R) (x : list X).
  Hypothesis HM : memoryless nc pi A.
  Let B := obsB b x.
  Let m t := sumn nc (fun i => pi i * B t i).
  Lemma mix_at t d : (t < length x)%nat -> m t = mixture nc pi b (nth t x d).
  Proof. intros Ht. unfold m, mixture, B. apply sumn_ext. intros i Hi. rewrite (obsB_nth b x t i d Ht). reflexivity. Qed.
  Lemma alpha_mem t : forall j, (j < nc)%nat -> alpha nc pi A B t j = prodn t m * (pi j * B t j).
  Proof.
    induction t as [|t IH]; intros j Hj; cbn [alpha prodn]; [ring|]. rewrite <- Rmult_assoc. f_equal.
    rewrite (sumn_ext nc _ (fun i => prodn t m * pi j * (pi i * B t i))).
    - rewrite sumn_scal_l. unfold m. ring.
    - intros i Hi. rewrite (IH i Hi), (HM i j Hi Hj). ring.
  Qed.
  Lemma beta_mem k : forall t i, (i < nc)%nat -> beta nc A B t k i = prodn k (fun s => m (S t + s)%nat).
  Proof.
    induction k as [|k IH]; intros t i Hi; [reflexivity|]. rewrite prodn_front. cbn [beta]. rewrite Nat.add_0_r.
    rewrite (sumn_ext nc _ (fun j => prodn k (fun s => m (S t + S s)%nat) * (pi j * B (S t) j))).
    - rewrite sumn_scal_l. unfold m at 2. ring.
    - intros j Hj. rewrite (IH (S t) j Hj), (HM i j Hi Hj). rewrite (prodn_ext k (fun s => m (S t + S s)%nat) (fun s => m (S (S t) + s)%nat)); [ring|].
      intros s Hs. f_equal. lia.
  Qed.
  Lemma seq_lik_mem : x <> [] -> seq_lik nc pi A b x = prodL (mixture nc pi b) x.
  Proof.
    intros Hne. rewrite <- (prodn_obs (mixture nc pi b) m x mix_at). unfold seq_lik.
    destruct (length x) as [|T] eqn:El; [destruct x; [contradiction|discriminate]|].
    rewrite likelihood_alpha. cbn [prodn]. rewrite (sumn_ext nc _ (fun j => prodn T m * (pi j * B T j))) by (intros j Hj; apply alpha_mem; exact Hj).
    rewrite sumn_scal_l. reflexivity.
  Qed.
  Lemma prodn_cut n k : prodn (n + k) m = prodn n m * prodn k (fun s => m (n + s)%nat).
  Proof. induction k as [|k IH]; [rewrite Nat.add_0_r; cbn; ring|]. rewrite Nat.add_succ_r. cbn [prodn]. rewrite IH. ring. Qed.
  Lemma seq_post_mem t i d : (forall s, (s < length x)%nat -> 0 < m s) -> (t < length x)%nat -> (i < nc)%nat ->
    seq_post nc pi A b x t i = pi i * b (nth t x d) i / mixture nc pi b (nth t x d).
  Proof.
    intros Hp Ht Hi. rewrite <- (mix_at t d Ht), <- (obsB_nth b x t i d Ht). fold (B t i).
    unfold seq_post, posterior. fold (seq_lik nc pi A b x). rewrite seq_lik_mem by (intros E; rewrite E in Ht; cbn in Ht; lia).
    rewrite <- (prodn_obs (mixture nc pi b) m x mix_at). destruct (length x) as [|T] eqn:El; [lia|].
    fold B. rewrite marginal_alpha_beta by (exact Hi || lia). rewrite (alpha_mem t i Hi), (beta_mem (T - t) t i Hi).
    pose proof (prodn_cut (S t) (T - t)) as E. replace (S t + (T - t))%nat with (S T) in E by lia. rewrite E. cbn [prodn].
    pose proof (Hp t ltac:(lia)). assert (0 < prodn t m) by (apply prodn_pos; intros s Hs; apply Hp; lia).
    assert (0 < prodn (T - t) (fun s => m (S t + s)%nat)) by (apply prodn_pos; intros s Hs; apply Hp; lia).
    field. repeat split; apply Rgt_not_eq; assumption.
  Qed.
  Lemma joint_mem z : x <> [] -> is_path nc (length x) z -> seq_joint pi A b x z = prodn (length x) (fun t => pi (nth t z 0%nat) * B t (nth t z 0%nat)).
  Proof.
    intros Hne [Hl Hz]. unfold seq_joint, joint. fold B. rewrite prodn_mult. f_equal.
    destruct (length x) as [|T] eqn:El; [destruct x; [contradiction|discriminate]|].
    rewrite prodn_front. f_equal. replace (S T - 1)%nat with T by lia. apply prodn_ext. intros t Ht. apply HM; apply Hz; lia.
  Qed.
End Mem.

Lemma prodn_bump n f g t : (t < n)%nat -> (forall s, (s < n)%nat -> 0 < f s) -> (forall s, (s < n)%nat -> s <> t -> g s = f s) -> f t < g t ->
  prodn n f < prodn n g.
Proof.
  induction n as [|n IH]; intros Ht Hf Hg Hb; [lia|]. cbn [prodn]. destruct (Nat.eq_dec t n) as [->|Hne].
  - rewrite (prodn_ext n g f) by (intros s Hs; apply Hg; lia). apply Rmult_lt_compat_l; [|exact Hb]. apply prodn_pos. intros s Hs. apply Hf. lia.
  - rewrite (Hg n) by lia. apply Rmult_lt_compat_r; [apply Hf; lia|]. apply IH; [lia|intros s Hs; apply Hf; lia|intros s Hs; apply Hg; lia|exact Hb].
Qed.

(** [i] maximises the weighted density of [o]. *)
Definition likeliest {X} (nc : nat) (pi : nat -> R) (b : X -> nat -> R) (o : X) (i : nat) : Prop :=
  (i < nc)%nat /\ forall j, (j < nc)%nat -> pi j * b o j <= pi i * b o i.
Lemma Forall2_nth_intro {U V} (Q : U -> V -> Prop) (dv : V) u v : length v = length u ->
  (forall t d, (t < length u)%nat -> Q (nth t u d) (nth t v dv)) -> Forall2 Q u v.
Proof.
  revert v. induction u as [|a u IH]; intros v Hl H; destruct v as [|c v]; try discriminate; [constructor|].
  constructor; [apply (H 0%nat a); cbn; lia|]. apply IH; [cbn in Hl; lia|]. intros t d Ht. apply (H (S t) d). cbn. lia.
Qed.
Lemma best_mem {X} nc pi A (b : X -> nat -> R) x z : memoryless nc pi A -> x <> [] ->
  (forall o i, In o x -> (i < nc)%nat -> 0 <= pi i * b o i) -> (forall o, In o x -> 0 < mixture nc pi b o) ->
  best_path nc pi A b x z -> Forall2 (likeliest nc pi b) x z.
Proof.
  intros HM Hne Hnn Hp [Hz Hb]. pose proof Hz as [Hl Hlt].
  set (f := fun t => pi (nth t z 0%nat) * obsB b x t (nth t z 0%nat)).
  (* a path of positive probability *)
  assert (HP : exists w, is_path nc (length x) w /\ forall t d, (t < length x)%nat -> 0 < pi (nth t w 0%nat) * b (nth t x d) (nth t w 0%nat)).
  { clear - Hp Hnn. induction x as [|o x IH].
    - exists []. split; [split; [reflexivity|cbn; lia]|cbn; lia].
    - destruct IH as (w & [W1 W2] & W3); [intros; apply Hnn; [right; assumption|assumption]|intros; apply Hp; right; assumption|].
      assert (HI : exists i, (i < nc)%nat /\ 0 < pi i * b o i).
      { apply Classical_Prop.NNPP. intros N. pose proof (Hp o (or_introl eq_refl)) as H. unfold mixture in H.
        rewrite (sumn_ext nc _ (fun _ => 0)) in H; [rewrite sumn_0 in H; lra|]. intros i Hi. pose proof (Hnn o i (or_introl eq_refl) Hi).
        destruct (Rlt_dec 0 (pi i * b o i)); [exfalso; apply N; eauto|lra]. }
      destruct HI as (i & Hi & Hi0). exists (i :: w). split; [split; [cbn; lia|]|].
      + intros t Ht. destruct t as [|t]; [exact Hi|]. cbn. apply W2. cbn in Ht. lia.
      + intros t d Ht. destruct t as [|t]; [exact Hi0|]. cbn. apply W3. cbn in Ht. lia. }
  destruct HP as (w & Hw & Hw0).
  assert (Hj : 0 < seq_joint pi A b x z).
  { eapply Rlt_le_trans; [|apply (Hb w Hw)]. rewrite (joint_mem nc pi A b x HM w Hne Hw). apply prodn_pos. intros t Ht.
    destruct x as [|d x'] eqn:Ex; [contradiction|]. rewrite <- Ex in *. rewrite (obsB_nth b x t _ d Ht). apply Hw0. exact Ht. }
  rewrite (joint_mem nc pi A b x HM z Hne Hz) in Hj. fold f in Hj.
  assert (Hf : forall t, (t < length x)%nat -> 0 < f t).
  { apply prodn_pos_inv; [|exact Hj]. intros t Ht. unfold f. destruct x as [|d x'] eqn:Ex; [contradiction|]. rewrite <- Ex in *.
    rewrite (obsB_nth b x t _ d Ht). apply Hnn; [apply nth_In; exact Ht|apply Hlt; exact Ht]. }
  apply (Forall2_nth_intro _ 0%nat); [exact Hl|]. intros t d Ht. split; [apply Hlt; exact Ht|]. intros j Hjn.
  destruct (Rle_dec (pi j * b (nth t x d) j) (pi (nth t z 0%nat) * b (nth t x d) (nth t z 0%nat))) as [L|L]; [exact L|exfalso].
  set (z' := tab (length x) (fun s => if Nat.eqb s t then j else nth s z 0%nat)).
  assert (Nz : forall s, (s < length x)%nat -> nth s z' 0%nat = if Nat.eqb s t then j else nth s z 0%nat) by (intros s Hs; unfold z'; rewrite tab_nth by exact Hs; reflexivity).
  assert (Hz' : is_path nc (length x) z').
  { split; [unfold z', tab; rewrite map_length, seq_length; reflexivity|]. intros s Hs. rewrite (Nz s Hs). destruct (Nat.eqb s t); [exact Hjn|apply Hlt; exact Hs]. }
  pose proof (Hb z' Hz') as C. rewrite !(joint_mem nc pi A b x HM) in C by assumption. fold f in C. apply Rle_not_lt in C. apply C.
  apply (prodn_bump _ _ _ t Ht Hf).
  - intros s Hs Hst. rewrite (Nz s Hs). destruct (Nat.eqb_spec s t); [contradiction|reflexivity].
  - unfold f. rewrite (Nz t Ht), Nat.eqb_refl, !(obsB_nth b x t _ d Ht). lra.
Qed.
