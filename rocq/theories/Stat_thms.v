(** * Property lemmas C45: [get_stationary_distribution]. *)
From Verif Require Export Stat_proofs Rows_proofs.

Lemma xsum_fvec n (f : nat -> R) : xsum exact (tab n (fun i => Fin (f i))) = Fin (sumn n f).
Proof.
  unfold xsum. induction n as [|n IH]; [reflexivity|]. unfold tab in *. rewrite seq_S, map_app, fold_left_app, IH.
  cbn [map fold_left sumn Nat.add]. rewrite xaddE. reflexivity.
Qed.
Lemma transpose_ok n (A : nat -> nat -> R) : transpose (mtab n n (fun i j => Fin (A i j))) = mtab n n (fun i j => Fin (A j i)).
Proof.
  unfold transpose. rewrite nrow_mtab, ncol_mtab. apply mtab_ext. intros i j Hi Hj. rewrite mget_mtab by assumption. reflexivity.
Qed.

Section Run.
  Context {P : Type}.
  Variables (eig : eigfun) (h : hmm P) (n : nat) (A : nat -> nat -> R).
  Hypothesis Ht : h_trans h = Some (mtab n n (fun i j => Fin (A i j))).
  Hypothesis Hn : (0 < n)%nat.
  Hypothesis HA : stochastic2 n n A.
  Hypothesis HE : eig_right eig n (fun i j => A j i).

  (** The vector that is normalised: invariant and not zero. *)
  Lemma chosen : exists v, (exists i, (i < n)%nat /\ v i <> 0) /\ inv n A v
    /\ stationary eig exact h = Ok (inl (tab n (fun i => xdiv exact (Fin (v i)) (Fin (sumn n v))))).
  Proof.
    destruct HE as (l & m & a & b & E1 & E2 & E3 & E4).
    destruct (stationary_exists n A HA Hn) as (p & Hp).
    destruct (E3 1 0 p (fun _ => 0) (eigen_one n A p Hn Hp)) as (k1 & Hk1 & L1 & M1).
    destruct (cargmax_spec n l m Hn) as [Hr HL]. set (r := cargmax _) in *.
    pose proof (unit_disc n A _ _ _ _ HA (E2 r Hr)) as U. specialize (HL k1 Hk1). rewrite L1, M1 in HL.
    assert (Z : l r = 1 /\ m r = 0).
    { destruct HL as [HL|[HL HM]]; [exfalso; nra|]. split; [lra|]. rewrite <- HL in U. nra. }
    destruct Z as [Z1 Z2]. exists (a r). destruct (E2 r Hr) as [(i & Hi & Hne) Heq]. split; [|split].
    - exists i. split; [exact Hi|]. destruct Hne as [Hne|Hne]; [exact Hne|]. destruct Hne. apply E4; assumption.
    - intros j Hj. destruct (Heq j Hj) as [HQ _]. rewrite Z1, Z2 in HQ. rewrite (sumn_ext n _ (fun i => A i j * a r i)) by (intros; ring).
      rewrite HQ. ring.
    - unfold stationary. rewrite Ht, transpose_ok, E1. cbn [bind]. rewrite tab_length. destruct (Nat.eqb_spec n 0); [lia|].
      fold r. unfold tab at 1. rewrite (nth_indep _ [] (tab n (fun i => (Fin (a 0%nat i), Fin (b 0%nat i))))) by (rewrite map_length, seq_length; exact Hr).
      rewrite (map_nth (fun k => tab n (fun i => (Fin (a k i), Fin (b k i)))) (seq 0 n) 0%nat r), seq_nth by exact Hr. cbn [Nat.add].
      unfold real_if_close. replace (forallb _ _) with true.
      2:{ symmetry. apply forallb_forall. intros z Hz. apply in_map_iff in Hz as (k & <- & Hk). apply in_seq in Hk. cbn [snd xabs xltb].
          rewrite (E4 r k Hr ltac:(lia) Z2), Rabs_R0. unfold Rltb. destruct (Rlt_dec 0 (100 / 2 ^ 52)) as [_|N]; [reflexivity|]. destruct N. lra. }
      unfold tab at 1 2. rewrite !map_map. cbn [fst]. change (map (fun x => Fin (a r x)) (seq 0 n)) with (tab n (fun i => Fin (a r i))).
      rewrite xsum_fvec. reflexivity.
  Qed.
End Run.

(** Any stochastic matrix: the result is invariant and sums to 1, or none of its
    entries is a number. *)
Lemma C45_invariant_or_nothing_l {P} eig (h : hmm P) n A :
  h_trans h = Some (mtab n n (fun i j => Fin (A i j))) -> (0 < n)%nat -> stochastic2 n n A -> eig_right eig n (fun i j => A j i) ->
  exists r, stationary eig exact h = Ok (inl r) /\ length r = n
  /\ ((exists p, r = tab n (fun i => Fin (p i)) /\ sumn n p = 1 /\ forall j, (j < n)%nat -> sumn n (fun i => p i * A i j) = p j)
      \/ forall x, In x r -> xisfin x = false).
Proof.
  intros Ht Hn HA HE. destruct (chosen eig h n A Ht Hn HA HE) as (v & Hv & Hi & E). eexists. split; [exact E|].
  split; [apply tab_length|]. destruct (Req_EM_T (sumn n v) 0) as [Z|Z].
  - right. intros x Hx. apply in_map_iff in Hx as (i & <- & _). rewrite Z. cbn [xdiv]. destruct (Req_EM_T 0 0); [|contradiction].
    destruct (Rlt_dec 0 (v i)); [reflexivity|]. destruct (Rlt_dec (v i) 0); reflexivity.
  - left. exists (fun i => v i / sumn n v). split; [|split].
    + apply tab_ext. intros i _. rewrite xdivE by exact Z. reflexivity.
    + rewrite sumn_div. field. exact Z.
    + intros j Hj. rewrite <- (Hi j Hj), <- sumn_div. apply sumn_ext. intros i _. unfold Rdiv. ring.
Qed.

(** A unique stationary distribution is returned. *)
Lemma C45_unique_l {P} eig (h : hmm P) n A p :
  h_trans h = Some (mtab n n (fun i j => Fin (A i j))) -> (0 < n)%nat -> stochastic2 n n A -> eig_right eig n (fun i j => A j i) ->
  stationary_of n A p -> (forall q, stationary_of n A q -> forall i, (i < n)%nat -> q i = p i) ->
  stationary eig exact h = Ok (inl (tab n (fun i => Fin (p i)))).
Proof.
  intros Ht Hn HA HE Hp Hu. destruct (chosen eig h n A Ht Hn HA HE) as (v & (k & Hk & Hv) & Hi & E). rewrite E. do 2 f_equal.
  pose proof (unique_multiple n A HA p v Hp Hu Hi) as M.
  assert (Z : sumn n v <> 0). { intros Z. apply Hv. rewrite (M k Hk), Z. ring. }
  apply tab_ext. intros i Hi'. rewrite xdivE by exact Z. unfold exact. f_equal. rewrite (M i Hi'). field. exact Z.
Qed.

(** All states communicate: the result is the stationary distribution, positive
    in every state. *)
Lemma C45_irreducible_l {P} eig (h : hmm P) n A :
  h_trans h = Some (mtab n n (fun i j => Fin (A i j))) -> (0 < n)%nat -> stochastic2 n n A -> eig_right eig n (fun i j => A j i) ->
  irreducible n A ->
  exists p, stationary eig exact h = Ok (inl (tab n (fun i => Fin (p i)))) /\ stationary_of n A p /\ (forall i, (i < n)%nat -> 0 < p i)
  /\ forall q, stationary_of n A q -> forall i, (i < n)%nat -> q i = p i.
Proof.
  intros Ht Hn HA HE HI. destruct (stationary_exists n A HA Hn) as (p & Hp). exists p.
  assert (U : forall q, stationary_of n A q -> forall i, (i < n)%nat -> q i = p i) by (intros q Hq; apply (irreducible_unique n A HA HI p q Hp Hq)).
  split; [apply (C45_unique_l eig h n A p Ht Hn HA HE Hp U)|]. split; [exact Hp|]. split; [|exact U].
  destruct Hp as [[Hp H1] H2]. apply (inv_everywhere n A HA HI p H2 Hp). apply sumn_pos_ex. lra.
Qed.
Lemma C45_all_possible_l {P} eig (h : hmm P) n A :
  h_trans h = Some (mtab n n (fun i j => Fin (A i j))) -> (0 < n)%nat -> stochastic2 n n A -> eig_right eig n (fun i j => A j i) ->
  (forall i j, (i < n)%nat -> (j < n)%nat -> 0 < A i j) ->
  exists p, stationary eig exact h = Ok (inl (tab n (fun i => Fin (p i)))) /\ stochastic1 n p
  /\ forall j, (j < n)%nat -> sumn n (fun i => p i * A i j) = p j.
Proof.
  intros Ht Hn HA HE HP. destruct (C45_irreducible_l eig h n A Ht Hn HA HE) as (p & H1 & [H2 H3] & _).
  - intros i j Hi Hj. apply (ReachStep n A i i j); try assumption; [constructor|apply HP; assumption].
  - exists p. split; [exact H1|]. split; assumption.
Qed.

(** ** Examples. *)
Definition st_h (A : nat -> nat -> R) : hmm unit :=
  Hmm (Cfg 2 "st" "st" "viterbi" "log" 10 (Fin (/ 100)) false (Scal (Fin 1)) (Scal (Fin 1))) None None
      (Some (mtab 2 2 (fun i j => Fin (A i j)))) (Monitor (Fin (/ 100)) 10 false [] 0) tt.
Definition st_A (i j : nat) : R := match i, j with O, _ => / 2 | _, O => / 4 | _, _ => 3 / 4 end.
Definition st_eig (l m : nat -> R) (a b : nat -> nat -> R) : eigfun := fun _ =>
  Ok (tab 2 (fun k => (Fin (l k), Fin (m k))), tab 2 (fun k => tab 2 (fun i => (Fin (a k i), Fin (b k i))))).
Lemma two {Q : nat -> Prop} : Q 0%nat -> Q 1%nat -> forall i, (i < 2)%nat -> Q i.
Proof. intros H0 H1 [|[|i]] Hi; [exact H0|exact H1|lia]. Qed.

Lemma st_right : eig_right (st_eig (fun k => match k with O => / 4 | _ => 1 end) (fun _ => 0)
  (fun k i => match k, i with O, O => 1 | O, _ => -1 | _, O => -1 | _, _ => -2 end) (fun _ _ => 0)) 2 (fun i j => st_A j i).
Proof.
  eexists _, _, _, _. split; [reflexivity|]. split; [|split].
  - apply two; (split; [exists 0%nat; split; [lia|left; lra]|apply two; split; cbn [sumn st_A]; lra]).
  - intros l m a b [(k & Hk & Hne) HE]. pose proof (HE 0%nat ltac:(lia)) as [P1 P2]. pose proof (HE 1%nat ltac:(lia)) as [P3 P4].
    cbn [sumn st_A] in *.
    (* the sum of the entries is multiplied by 1, and 2 a0 - a1 by 1/4 *)
    assert (S1 : (1 - l) * (a 0%nat + a 1%nat) + m * (b 0%nat + b 1%nat) = 0) by lra.
    assert (S2 : (1 - l) * (b 0%nat + b 1%nat) - m * (a 0%nat + a 1%nat) = 0) by lra.
    assert (T1 : (/ 4 - l) * (2 * a 0%nat - a 1%nat) + m * (2 * b 0%nat - b 1%nat) = 0) by lra.
    assert (T2 : (/ 4 - l) * (2 * b 0%nat - b 1%nat) - m * (2 * a 0%nat - a 1%nat) = 0) by lra.
    assert (D : forall c x y, c * x + m * y = 0 -> c * y - m * x = 0 -> (c = 0 /\ m = 0) \/ (x = 0 /\ y = 0)).
    { intros c x y U V. assert (W : (c * c + m * m) * (x * x + y * y) = 0).
      { replace ((c * c + m * m) * (x * x + y * y)) with ((c * x + m * y) * (c * x + m * y) + (c * y - m * x) * (c * y - m * x)) by ring.
        rewrite U, V. ring. }
      apply Rmult_integral in W as [W|W]; apply Rplus_sqr_eq_0 in W; [left|right]; exact W. }
    destruct (D _ _ _ S1 S2) as [[E1 E2]|[E1 E2]]; [exists 1%nat; split; [lia|]; split; lra|].
    destruct (D _ _ _ T1 T2) as [[F1 F2]|[F1 F2]]; [exists 0%nat; split; [lia|]; split; lra|].
    exfalso. destruct k as [|[|]]; [| |lia]; destruct Hne as [Hne|Hne]; apply Hne; lra.
  - reflexivity.
Qed.
Lemma C45_applies_l : exists eig, eig_right eig 2 (fun i j => st_A j i) /\ stochastic2 2 2 st_A /\ irreducible 2 st_A
  /\ stationary eig exact (st_h st_A) = Ok (inl [Fin (1 / 3); Fin (2 / 3)]).
Proof.
  eexists. split; [exact st_right|].
  assert (HS : stochastic2 2 2 st_A) by (unfold stochastic2, stochastic1, nonneg1; apply two; (split; [apply two; cbn [st_A]; lra|cbn [sumn st_A]; lra])).
  split; [exact HS|].
  assert (HI : irreducible 2 st_A).
  { intros i j Hi Hj. apply (ReachStep 2 st_A i i j); try assumption; [constructor|]. destruct i as [|[|]]; try lia; destruct j as [|[|]]; try lia; cbn [st_A]; lra. }
  split; [exact HI|].
  apply (C45_unique_l _ (st_h st_A) 2 st_A (fun i => match i with O => 1 / 3 | _ => 2 / 3 end) eq_refl ltac:(lia) HS st_right).
  - split; [split|]; [unfold nonneg1; apply two; lra|cbn [sumn]; lra|apply two; cbn [sumn st_A]; lra].
  - intros q Hq. apply (irreducible_unique 2 st_A HS HI); [|exact Hq].
    split; [split|]; [unfold nonneg1; apply two; lra|cbn [sumn]; lra|apply two; cbn [sumn st_A]; lra].
Qed.

(** Two closed classes: nothing in the specification of eigenvectors rules out
    (1, -1), whose sum is 0. *)
Lemma C45_reducible_refuted_l : exists eig A, eig_right eig 2 (fun i j => A j i) /\ stochastic2 2 2 A
  /\ exists r, stationary eig exact (st_h A) = Ok (inl r) /\ r <> [] /\ forall x, In x r -> xisfin x = false.
Proof.
  exists (st_eig (fun _ => 1) (fun _ => 0) (fun k i => match k, i with O, O => 1 | O, _ => -1 | _, O => 1 | _, _ => 0 end) (fun _ _ => 0)),
         (fun i j => if Nat.eqb i j then 1 else 0).
  assert (HR : eig_right (st_eig (fun _ => 1) (fun _ => 0) (fun k i => match k, i with O, O => 1 | O, _ => -1 | _, O => 1 | _, _ => 0 end) (fun _ _ => 0))
     2 (fun i j => if Nat.eqb j i then 1 else 0)).
  { eexists _, _, _, _. split; [reflexivity|]. split; [|split].
    - apply two; (split; [exists 0%nat; split; [lia|left; lra]|apply two; split; cbn [sumn Nat.eqb]; lra]).
    - intros l m a b [(k & Hk & Hne) HE]. exists 0%nat. split; [lia|]. pose proof (HE k Hk) as [P1 P2].
      assert (l = 1 /\ m = 0); [|destruct H; subst; auto].
      assert (Q1 : (1 - l) * a k + m * b k = 0) by (destruct k as [|[|]]; [| |lia]; cbn [sumn Nat.eqb] in P1; lra).
      assert (Q2 : (1 - l) * b k - m * a k = 0) by (destruct k as [|[|]]; [| |lia]; cbn [sumn Nat.eqb] in P2; lra).
      assert (W : ((1 - l) * (1 - l) + m * m) * (a k * a k + b k * b k) = 0).
      { transitivity (((1 - l) * a k + m * b k) * ((1 - l) * a k + m * b k) + ((1 - l) * b k - m * a k) * ((1 - l) * b k - m * a k)); [ring|].
        rewrite Q1, Q2. ring. }
      apply Rmult_integral in W as [W|W]; apply Rplus_sqr_eq_0 in W as [W1 W2]; [split; lra|]. exfalso. destruct Hne as [Hne|Hne]; apply Hne; assumption.
    - reflexivity. }
  split; [exact HR|]. split; [unfold stochastic2, stochastic1, nonneg1; apply two; (split; [apply two; cbn [Nat.eqb]; lra|cbn [sumn Nat.eqb]; lra])|].
  eexists. split.
  - unfold stationary. cbn [h_trans st_h]. unfold st_eig. cbn [bind]. rewrite tab_length. cbn [Nat.eqb].
    replace (cargmax _) with 0%nat.
    2:{ unfold tab. cbn [seq map cargmax cargmax_from]. destruct (cgtb_spec 1 0 1 0) as [[E _]|[E _]]; [|rewrite E; reflexivity].
        exfalso. unfold cgtb, cisnan in E. cbn [fst snd xisnan orb xltb xeqb] in E. unfold Rltb, Reqb in E.
        destruct (Rlt_dec 1 1); [lra|]. destruct (Rlt_dec 0 0); [lra|]. rewrite Bool.andb_false_r in E. discriminate. }
    unfold tab. cbn [seq map nth]. unfold real_if_close. cbn [forallb snd xabs xltb fst map]. rewrite Rabs_R0. unfold Rltb.
    destruct (Rlt_dec 0 (100 / 2 ^ 52)) as [_|N]; [|destruct N; lra]. cbn [andb]. reflexivity.
  - unfold xsum. cbn [fold_left map]. rewrite !xaddE. replace (0 + 1 + -1) with 0 by ring.
    split; [discriminate|]. intros x [<-|[<-|[]]]; cbn [xdiv]; (destruct (Req_EM_T 0 0); [|contradiction]);
      repeat match goal with |- context [Rlt_dec ?a ?b] => destruct (Rlt_dec a b) end; reflexivity.
Qed.
