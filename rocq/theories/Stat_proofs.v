(** * Invariant vectors of stochastic matrices. *)
From Verif Require Export Sums Spec_stat.

(** ** Fewer homogeneous equations than unknowns. *)
Definition skip (p j : nat) : nat := if Nat.ltb j p then j else S j.
Definition unskip (p j : nat) : nat := if Nat.ltb j p then j else Nat.pred j.
Lemma unskip_skip p j : unskip p (skip p j) = j.
Proof. unfold skip, unskip. destruct (Nat.ltb_spec j p); [destruct (Nat.ltb_spec j p)|destruct (Nat.ltb_spec (S j) p)]; lia. Qed.
Lemma skip_neq p j : skip p j <> p.
Proof. unfold skip. destruct (Nat.ltb_spec j p); lia. Qed.
Lemma skip_lt p j n : (j < n)%nat -> (skip p j < S n)%nat.
Proof. unfold skip. destruct (Nat.ltb_spec j p); lia. Qed.
Lemma sumn_skip n p f : (p <= n)%nat -> sumn (S n) f = f p + sumn n (fun j => f (skip p j)).
Proof.
  revert p. induction n as [|n IH]; intros p Hp; [assert (p = 0)%nat as -> by lia; cbn [sumn]; ring|].
  destruct (Nat.eq_dec p (S n)) as [->|Hne].
  - change (sumn (S (S n)) f) with (sumn (S n) f + f (S n)).
    rewrite (sumn_ext (S n) (fun j => f (skip (S n) j)) f); [ring|]. intros j Hj. unfold skip. destruct (Nat.ltb_spec j (S n)); [reflexivity|lia].
  - change (sumn (S (S n)) f) with (sumn (S n) f + f (S n)). rewrite (IH p) by lia.
    change (sumn (S n) (fun j => f (skip p j))) with (sumn n (fun j => f (skip p j)) + f (skip p n)).
    unfold skip at 3. destruct (Nat.ltb_spec n p); [lia|]. ring.
Qed.
Lemma homogeneous m : forall n (A : nat -> nat -> R), (m < n)%nat ->
  exists v, (exists j, (j < n)%nat /\ v j <> 0) /\ forall i, (i < m)%nat -> sumn n (fun j => A i j * v j) = 0.
Proof.
  induction m as [|m IH]; intros n A Hmn.
  - exists (fun _ => 1). split; [exists 0%nat; split; [lia|lra]|]. intros i Hi; lia.
  - destruct (Classical_Prop.classic (exists p, (p < n)%nat /\ A m p <> 0)) as [(p & Hp & Hc)|H0].
    + destruct n as [|n]; [lia|].
      destruct (IH n (fun i j => A i (skip p j) - A i p * A m (skip p j) / A m p) ltac:(lia)) as (u & (j0 & Hj0 & Hu) & Hs).
      set (w := - sumn n (fun j => A m (skip p j) * u j) / A m p).
      exists (fun j => if Nat.eqb j p then w else u (unskip p j)). split.
      * exists (skip p j0). split; [apply skip_lt; exact Hj0|]. destruct (Nat.eqb_spec (skip p j0) p) as [E|_]; [destruct (skip_neq p j0 E)|].
        rewrite unskip_skip. exact Hu.
      * intros i Hi. rewrite (sumn_skip n p) by lia. rewrite Nat.eqb_refl.
        rewrite (sumn_ext n _ (fun j => A i (skip p j) * u j)).
        2:{ intros j Hj. destruct (Nat.eqb_spec (skip p j) p) as [E|_]; [destruct (skip_neq p j E)|]. rewrite unskip_skip. reflexivity. }
        destruct (Nat.eq_dec i m) as [->|Hne].
        { unfold w. field. exact Hc. }
        specialize (Hs i ltac:(lia)).
        rewrite (sumn_ext n _ (fun j => A i (skip p j) * u j - (A i p / A m p) * (A m (skip p j) * u j))) in Hs by (intros j _; field; exact Hc).
        rewrite sumn_minus, sumn_scal_l in Hs. unfold w.
        replace (A i p * (- sumn n (fun j => A m (skip p j) * u j) / A m p)) with (- (A i p / A m p * sumn n (fun j => A m (skip p j) * u j)))
          by (field; exact Hc). lra.
    + destruct (IH n A ltac:(lia)) as (v & Hv & Hs). exists v. split; [exact Hv|]. intros i Hi.
      destruct (Nat.eq_dec i m) as [->|Hne]; [|apply Hs; lia]. apply sumn_zero. intros j Hj.
      destruct (Req_EM_T (A m j) 0) as [->|Hc]; [ring|]. exfalso. apply H0. exists j. split; assumption.
Qed.

Lemma Rabs_sumn n f : Rabs (sumn n f) <= sumn n (fun i => Rabs (f i)).
Proof. induction n as [|n IH]; cbn [sumn]; [rewrite Rabs_R0; lra|]. eapply Rle_trans; [apply Rabs_triang|]. lra. Qed.

(** Equal sums and a pointwise inequality give pointwise equality. *)
Lemma sumn_squeeze n f g : (forall i, (i < n)%nat -> f i <= g i) -> sumn n f = sumn n g -> forall i, (i < n)%nat -> f i = g i.
Proof.
  intros H E i Hi. assert (Z : sumn n (fun i => g i - f i) = 0) by (rewrite sumn_minus; lra).
  assert (g i - f i = 0); [|lra]. apply (sumn_eq0 n (fun i => g i - f i)); [|exact Z|exact Hi]. intros j Hj. specialize (H j Hj). lra.
Qed.

Section Invariant.
  Variables (n : nat) (A : nat -> nat -> R).
  Hypothesis HA : stochastic2 n n A.
  Definition inv (v : nat -> R) : Prop := forall j, (j < n)%nat -> sumn n (fun i => v i * A i j) = v j.

  Lemma A_nonneg i j : (i < n)%nat -> (j < n)%nat -> 0 <= A i j.
  Proof. intros Hi Hj. apply (proj1 (HA i Hi)). exact Hj. Qed.
  (** Mass is preserved. *)
  Lemma mass v : sumn n (fun j => sumn n (fun i => v i * A i j)) = sumn n v.
  Proof.
    rewrite sumn_swap. apply sumn_ext. intros i Hi. rewrite sumn_scal_l, (proj2 (HA i Hi)). ring.
  Qed.
  Lemma inv_abs v : inv v -> inv (fun i => Rabs (v i)).
  Proof.
    intros H j Hj. symmetry.
    apply (sumn_squeeze n (fun j => Rabs (v j)) (fun j => sumn n (fun i => Rabs (v i) * A i j))); [|symmetry; apply (mass (fun i => Rabs (v i)))|exact Hj].
    intros k Hk. rewrite <- (H k Hk). eapply Rle_trans; [apply Rabs_sumn|]. apply sumn_le. intros i Hi.
    rewrite Rabs_mult, (Rabs_pos_eq (A i k)) by (apply A_nonneg; assumption). lra.
  Qed.
  Lemma inv_lin v w a b : inv v -> inv w -> inv (fun i => a * v i + b * w i).
  Proof.
    intros Hv Hw j Hj. rewrite <- (Hv j Hj), <- (Hw j Hj), <- !sumn_scal_l, <- sumn_plus. apply sumn_ext. intros i _. ring.
  Qed.
  Lemma inv_scaled v : inv v -> (forall i, (i < n)%nat -> 0 <= v i) -> 0 < sumn n v -> stationary_of n A (fun i => v i / sumn n v).
  Proof.
    intros Hv Hp Hs. split; [split|].
    - intros i Hi. apply Rmult_le_pos; [apply Hp, Hi|]. apply Rlt_le, Rinv_0_lt_compat, Hs.
    - rewrite sumn_div. field. lra.
    - intros j Hj. rewrite <- (Hv j Hj), <- sumn_div. apply sumn_ext. intros i _. unfold Rdiv. ring.
  Qed.
  Lemma abs_pos v : (exists i, (i < n)%nat /\ v i <> 0) -> 0 < sumn n (fun i => Rabs (v i)).
  Proof. intros (i & Hi & Hv). apply (sumn_pos n _ i); [intros; apply Rabs_pos|exact Hi|]. apply Rabs_pos_lt, Hv. Qed.

  (** Every stochastic matrix has a stationary distribution. *)
  Lemma stationary_exists : (0 < n)%nat -> exists p, stationary_of n A p.
  Proof.
    intros Hn.
    destruct (homogeneous (Nat.pred n) n (fun j i => A i j - (if Nat.eqb i j then 1 else 0)) ltac:(lia)) as (v & Hv & Hs).
    assert (E : forall j, (j < n)%nat -> sumn n (fun i => (A i j - (if Nat.eqb i j then 1 else 0)) * v i) = sumn n (fun i => v i * A i j) - v j).
    { intros j Hj. rewrite (sumn_ext n _ (fun i => v i * A i j - (if Nat.eqb i j then v i else 0))) by (intros i _; destruct (Nat.eqb i j); ring).
      rewrite sumn_minus, (sumn_if_eq n v j Hj). ring. }
    assert (HI : inv v).
    { assert (L : forall j, (j < Nat.pred n)%nat -> sumn n (fun i => v i * A i j) = v j).
      { intros j Hj. specialize (Hs j Hj). rewrite (E j) in Hs by lia. lra. }
      intros j Hj. destruct (Nat.eq_dec j (Nat.pred n)) as [->|Hne]; [|apply L; lia].
      pose proof (mass v) as M. destruct n as [|n']; [lia|]. cbn [Nat.pred] in *.
      change (sumn n' (fun j => sumn (S n') (fun i => v i * A i j)) + sumn (S n') (fun i => v i * A i n') = sumn n' v + v n') in M.
      rewrite (sumn_ext n' (fun j => sumn (S n') (fun i => v i * A i j)) v) in M by (intros j Hj'; apply L; exact Hj'). lra. }
    eexists. apply (inv_scaled (fun i => Rabs (v i))); [apply inv_abs, HI|intros; apply Rabs_pos|apply abs_pos, Hv].
  Qed.

  (** If there is only one, every invariant vector is a multiple of it. *)
  Lemma unique_multiple p v : stationary_of n A p -> (forall q, stationary_of n A q -> forall i, (i < n)%nat -> q i = p i) ->
    inv v -> forall i, (i < n)%nat -> v i = sumn n v * p i.
  Proof.
    intros Hp Hu Hv.
    assert (M : forall w, inv w -> (forall i, (i < n)%nat -> 0 <= w i) -> forall i, (i < n)%nat -> w i = sumn n w * p i).
    { intros w Hw Hpos i Hi. destruct (Rle_lt_or_eq_dec 0 (sumn n w)) as [Hs|Hs]; [apply sumn_nonneg; exact Hpos| |].
      - rewrite <- (Hu _ (inv_scaled w Hw Hpos Hs) i Hi). field. lra.
      - rewrite <- Hs. rewrite (sumn_eq0 n w Hpos (eq_sym Hs) i Hi). ring. }
    pose proof (inv_abs v Hv) as Ha.
    assert (Hw : inv (fun i => / 2 * Rabs (v i) + / 2 * v i)) by (apply inv_lin; assumption).
    pose proof (M _ Ha (fun i _ => Rabs_pos (v i))) as M1.
    assert (P2 : forall i, (i < n)%nat -> 0 <= / 2 * Rabs (v i) + / 2 * v i).
    { intros i _. pose proof (Rle_abs (- v i)) as Q. rewrite Rabs_Ropp in Q. lra. }
    pose proof (M _ Hw P2) as M2.
    intros i Hi. specialize (M1 i Hi). specialize (M2 i Hi). cbv beta in M1, M2. rewrite sumn_plus, !sumn_scal_l in M2.
    nra.
  Qed.

  Hypothesis HI : irreducible n A.
  Lemma inv_everywhere w : inv w -> (forall i, (i < n)%nat -> 0 <= w i) -> (exists i, (i < n)%nat /\ 0 < w i) ->
    forall j, (j < n)%nat -> 0 < w j.
  Proof.
    intros Hw Hp (i & Hi & Hwi) j Hj. pose proof (HI i j Hi Hj) as HR. clear HI. induction HR as [|k l Hr IH Hk Hl HP]; [exact Hwi|].
    rewrite <- (Hw l Hl). apply (sumn_pos n _ k); [|exact Hk|].
    - intros q Hq. apply Rmult_le_pos; [apply Hp, Hq|apply A_nonneg; assumption].
    - apply Rmult_lt_0_compat; [apply IH; assumption|exact HP].
  Qed.
  Lemma irreducible_unique p q : stationary_of n A p -> stationary_of n A q -> forall i, (i < n)%nat -> q i = p i.
  Proof.
    intros [[Pp P1] P2] [[Qp Q1] Q2] i Hi.
    set (d := fun i => 1 * q i + (-1) * p i).
    assert (Hd : inv d) by (apply inv_lin; [exact Q2|exact P2]).
    assert (Sd : sumn n d = 0) by (unfold d; rewrite sumn_plus, !sumn_scal_l, P1, Q1; ring).
    pose proof (inv_abs d Hd) as Ha.
    assert (W : forall s, s = 1 \/ s = -1 -> inv (fun i => / 2 * Rabs (d i) + / 2 * s * d i) /\ forall i, (i < n)%nat -> 0 <= / 2 * Rabs (d i) + / 2 * s * d i).
    { intros s Hs. split; [apply inv_lin; assumption|]. intros k _. pose proof (Rle_abs (d k)). pose proof (Rle_abs (- d k)) as Q. rewrite Rabs_Ropp in Q.
      destruct Hs as [->| ->]; lra. }
    assert (Z : d i = 0); [|unfold d in Z; lra].
    destruct (Rtotal_order (d i) 0) as [L|[E|L]]; [exfalso|exact E|exfalso].
    - destruct (W (-1) (or_intror eq_refl)) as [W1 W2].
      assert (Neg : forall j, (j < n)%nat -> d j < 0).
      { intros j Hj. assert (0 < / 2 * Rabs (d j) + / 2 * -1 * d j).
        - apply (inv_everywhere _ W1 W2); [|exact Hj]. exists i. split; [exact Hi|]. rewrite (Rabs_left (d i)) by exact L. lra.
        - destruct (Rle_lt_dec 0 (d j)) as [G|G]; [|exact G]. rewrite (Rabs_pos_eq _ G) in H. lra. }
      assert (0 < sumn n (fun j => - d j)) as S0.
      { apply (sumn_pos n _ i); [intros j Hj; specialize (Neg j Hj); lra|exact Hi|specialize (Neg i Hi); lra]. }
      rewrite (sumn_ext n _ (fun j => -1 * d j)), sumn_scal_l, Sd in S0 by (intros; ring). lra.
    - destruct (W 1 (or_introl eq_refl)) as [W1 W2].
      assert (Pos : forall j, (j < n)%nat -> 0 < d j).
      { intros j Hj. assert (0 < / 2 * Rabs (d j) + / 2 * 1 * d j).
        - apply (inv_everywhere _ W1 W2); [|exact Hj]. exists i. split; [exact Hi|]. rewrite (Rabs_pos_eq (d i)) by lra. lra.
        - destruct (Rle_lt_dec (d j) 0) as [G|G]; [|exact G]. rewrite (Rabs_left1 _ G) in H. lra. }
      assert (0 < sumn n d) as S0.
      { apply (sumn_pos n _ i); [intros j Hj; specialize (Pos j Hj); lra|exact Hi|specialize (Pos i Hi); lra]. }
      lra.
  Qed.
End Invariant.

(** ** Eigenvalues of a stochastic matrix lie in the unit disc. *)
Definition cmod (a b : R) : R := sqrt (a * a + b * b).
Lemma cmod_nonneg a b : 0 <= cmod a b. Proof. apply sqrt_pos. Qed.
Lemma cmod_sq a b : cmod a b * cmod a b = a * a + b * b.
Proof. apply sqrt_sqrt. nra. Qed.
Lemma cmod_tri a b c d : cmod (a + c) (b + d) <= cmod a b + cmod c d.
Proof.
  pose proof (cmod_nonneg a b) as N1. pose proof (cmod_nonneg c d) as N2.
  pose proof (cmod_sq a b) as S1. pose proof (cmod_sq c d) as S2. pose proof (cmod_sq (a + c) (b + d)) as S3.
  set (x := cmod a b) in *. set (y := cmod c d) in *. set (z := cmod (a + c) (b + d)) in *. clearbody x y z.
  assert (0 <= x * y) by (apply Rmult_le_pos; assumption).
  assert (Q : a * c + b * d <= x * y).
  { apply Rsqr_incr_0_var; [|assumption]. unfold Rsqr. replace (x * y * (x * y)) with ((x * x) * (y * y)) by ring. rewrite S1, S2.
    assert (0 <= (a * d - b * c) * (a * d - b * c)) by apply Rle_0_sqr.
    replace ((a * a + b * b) * (c * c + d * d)) with ((a * c + b * d) * (a * c + b * d) + (a * d - b * c) * (a * d - b * c)) by ring. lra. }
  apply Rsqr_incr_0_var; [|lra]. unfold Rsqr. rewrite S3.
  replace ((x + y) * (x + y)) with (x * x + y * y + 2 * (x * y)) by ring. rewrite S1, S2.
  replace ((a + c) * (a + c) + (b + d) * (b + d)) with (a * a + b * b + (c * c + d * d) + 2 * (a * c + b * d)) by ring. lra.
Qed.
Lemma cmod_sumn n f g : cmod (sumn n f) (sumn n g) <= sumn n (fun i => cmod (f i) (g i)).
Proof.
  induction n as [|n IH]; cbn [sumn]; [unfold cmod; rewrite Rmult_0_l, Rplus_0_l, sqrt_0; lra|].
  eapply Rle_trans; [apply cmod_tri|]. lra.
Qed.
Lemma cmod_scal r a b : 0 <= r -> cmod (r * a) (r * b) = r * cmod a b.
Proof.
  intros Hr. unfold cmod. replace (r * a * (r * a) + r * b * (r * b)) with ((r * r) * (a * a + b * b)) by ring.
  rewrite sqrt_mult, sqrt_square; nra.
Qed.
Lemma cmod_mult l m a b : cmod (l * a - m * b) (l * b + m * a) = cmod l m * cmod a b.
Proof.
  unfold cmod. replace ((l * a - m * b) * (l * a - m * b) + (l * b + m * a) * (l * b + m * a)) with ((l * l + m * m) * (a * a + b * b)) by ring.
  apply sqrt_mult; nra.
Qed.
Lemma cmod_pos a b : a <> 0 \/ b <> 0 -> 0 < cmod a b.
Proof. intros H. apply sqrt_lt_R0. destruct H as [H|H]; [assert (0 < a * a) by (destruct (Rdichotomy _ _ H); nra)|assert (0 < b * b) by (destruct (Rdichotomy _ _ H); nra)]; nra. Qed.

Lemma unit_disc n A l m a b : stochastic2 n n A -> eigenvector n (fun i j => A j i) l m a b -> l * l + m * m <= 1.
Proof.
  intros HA [(k & Hk & Hne) HE].
  assert (S0 : 0 < sumn n (fun i => cmod (a i) (b i))).
  { apply (sumn_pos n _ k); [intros; apply cmod_nonneg|exact Hk|apply cmod_pos, Hne]. }
  assert (B : cmod l m * sumn n (fun i => cmod (a i) (b i)) <= sumn n (fun i => cmod (a i) (b i))).
  { rewrite <- sumn_scal_l. rewrite <- (mass n A HA (fun i => cmod (a i) (b i))). apply sumn_le. intros j Hj.
    rewrite <- cmod_mult. destruct (HE j Hj) as [<- <-]. eapply Rle_trans; [apply cmod_sumn|]. apply sumn_le. intros i Hi.
    rewrite cmod_scal by (apply (proj1 (HA i Hi)); exact Hj). lra. }
  assert (cmod l m <= 1) by nra. pose proof (cmod_nonneg l m). pose proof (cmod_sq l m). nra.
Qed.
Lemma eigen_one n A p : (0 < n)%nat -> stationary_of n A p -> eigenvector n (fun i j => A j i) 1 0 p (fun _ => 0).
Proof.
  intros Hn [[Hp H1] H2]. split.
  - destruct (sumn_pos_ex n p) as (k & Hk & Hpk); [lra|]. exists k. split; [exact Hk|]. left. lra.
  - intros i Hi. split.
    + rewrite <- (H2 i Hi). rewrite (sumn_ext n _ (fun j => p j * A j i)) by (intros; ring). ring.
    + rewrite (sumn_zero n) by (intros; ring). ring.
Qed.

(** ** [np.argmax] of complex numbers. *)
Definition lexge (l m l' m' : R) : Prop := l' < l \/ (l' = l /\ m' <= m).
Lemma lexge_refl l m : lexge l m l m. Proof. right. split; lra. Qed.
Lemma lexge_trans a b c d e f : lexge a b c d -> lexge c d e f -> lexge a b e f.
Proof. unfold lexge. intros [H|[H H']] [K|[K K']]; subst; [left|left|left|right]; try lra; split; lra. Qed.
Lemma cgtb_spec a b c d : (cgtb (Fin a, Fin b) (Fin c, Fin d) = true /\ lexge a b c d) \/ (cgtb (Fin a, Fin b) (Fin c, Fin d) = false /\ lexge c d a b).
Proof.
  unfold cgtb, cisnan, lexge. cbn [fst snd xisnan orb xltb xeqb]. unfold Rltb, Reqb.
  destruct (Rlt_dec c a) as [H|H]; cbn [orb]; [left; split; [reflexivity|left; exact H]|].
  destruct (Req_EM_T a c) as [E|E]; cbn [andb].
  - destruct (Rlt_dec d b) as [G|G]; [left|right]; (split; [reflexivity|right; split; lra]).
  - right. split; [reflexivity|left; lra].
Qed.
Lemma cargmax_from_spec (l m : nat -> R) : forall c i best, (best < i)%nat ->
  (forall k, (k < i)%nat -> lexge (l best) (m best) (l k) (m k)) ->
  let r := cargmax_from i best (Fin (l best), Fin (m best)) (map (fun k => (Fin (l k), Fin (m k))) (seq i c)) in
  (r < i + c)%nat /\ forall k, (k < i + c)%nat -> lexge (l r) (m r) (l k) (m k).
Proof.
  induction c as [|c IH]; intros i best Hb H; cbn [seq map cargmax_from].
  - rewrite Nat.add_0_r. split; assumption.
  - destruct (cgtb_spec (l i) (m i) (l best) (m best)) as [[-> G]|[-> G]]; rewrite <- Nat.add_succ_comm; apply IH; try lia.
    + intros k Hk. destruct (Nat.eq_dec k i) as [->|]; [apply lexge_refl|]. eapply lexge_trans; [exact G|]. apply H. lia.
    + intros k Hk. destruct (Nat.eq_dec k i) as [->|]; [exact G|]. apply H. lia.
Qed.
Lemma cargmax_spec n (l m : nat -> R) : (0 < n)%nat ->
  let r := cargmax (tab n (fun k => (Fin (l k), Fin (m k)))) in
  (r < n)%nat /\ forall k, (k < n)%nat -> lexge (l r) (m r) (l k) (m k).
Proof.
  intros Hn. destruct n as [|n]; [lia|]. unfold tab. cbn [seq map cargmax].
  apply (cargmax_from_spec l m n 1 0); [lia|]. intros k Hk. assert (k = 0)%nat as -> by lia. apply lexge_refl.
Qed.
