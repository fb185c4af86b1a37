(** * Recoded observations: the emission updates. *)
From Coq Require Import Permutation.
From Verif Require Export Recode Relabel_thms.

(** ** Recodings *)
(** Symbol [k] is written as symbol [s k]. *)
Definition rename_symbol (s : nat -> nat) (k : Z) : Z := Z.of_nat (s (Z.to_nat k)).
(** Column [f] of the new row is column [s f] of the old one. *)
Definition move_counts (nf : nat) (s : nat -> nat) (r : list Z) : list Z := tab nf (fun f => nth (s f) r 0%Z).
(** Columns of numbers may be moved, measured from another origin [c f], and
    counted in the other direction ([g f = -1]). *)
Definition move_row (nf : nat) (s : nat -> nat) (g c : nat -> R) (o : vec) : vec :=
  fvec nf (fun f => g f * xval o (s f) + c f).
Definition unit_sign (nf : nat) (g : nat -> R) : Prop := forall f, (f < nf)%nat -> g f = 1 \/ g f = -1.

Lemma rename_ok nf s k : permutes nf s -> sym_ok nf k -> sym_ok nf (rename_symbol s k).
Proof. intros Hs Hk. unfold sym_ok, rename_symbol in *. pose proof (proj1 Hs (Z.to_nat k) ltac:(lia)). lia. Qed.
Lemma move_nth nf s r f : (f < nf)%nat -> nth f (move_counts nf s r) 0%Z = nth (s f) r 0%Z.
Proof. intros Hf. unfold move_counts. rewrite tab_nth by exact Hf. reflexivity. Qed.
Lemma move_length nf s r : length (move_counts nf s r) = nf.
Proof. apply tab_length. Qed.
Lemma move_ok nf s r : permutes nf s -> counts_ok nf r -> counts_ok nf (move_counts nf s r).
Proof.
  intros Hs Hr. split; [apply move_length|]. apply Forall_forall. intros k Hk. unfold move_counts, tab in Hk.
  apply in_map_iff in Hk as (f & <- & Hf). apply (counts_nth nf r (s f) Hr).
Qed.
Lemma move_zsum nf s r : permutes nf s -> length r = nf -> zsum (move_counts nf s r) = zsum r.
Proof.
  intros Hs Hr. apply eq_IZR. rewrite !zsum_sumn, move_length, Hr.
  rewrite <- (sumn_perm nf s Hs (fun f => IZR (nth f r 0%Z))). apply sumn_ext. intros f Hf. rewrite move_nth by exact Hf. reflexivity.
Qed.
Lemma move_trials nf s r : permutes nf s -> trials_ok nf r -> trials_ok nf (move_counts nf s r).
Proof. intros Hs [H1 H2]. split; [apply move_ok; assumption|]. rewrite move_zsum by (try assumption; apply H1). exact H2. Qed.
Lemma move_row_ok nf s g c o : finite_row nf (move_row nf s g c o).
Proof.
  split; [unfold move_row, fvec; apply tab_length|]. apply forallb_forall. intros v Hv. unfold move_row, fvec, tab in Hv.
  apply in_map_iff in Hv as (f & <- & _). reflexivity.
Qed.
Lemma move_row_val nf s g c o f : (f < nf)%nat -> xval (move_row nf s g c o) f = g f * xval o (s f) + c f.
Proof. intros Hf. unfold xval, move_row. rewrite vget_fvec by exact Hf. reflexivity. Qed.

Lemma prodn_seq f n : prodn n f = fold_right Rmult 1 (map f (seq 0 n)).
Proof.
  revert f. induction n as [|n IH]; intros f; [reflexivity|]. rewrite prodn_S_l. cbn [seq map fold_right]. f_equal.
  rewrite IH, <- seq_shift, map_map. reflexivity.
Qed.
Lemma prod_perm (l l2 : list R) : Permutation l l2 -> fold_right Rmult 1 l = fold_right Rmult 1 l2.
Proof. induction 1; cbn [fold_right]; [reflexivity|congruence|ring|congruence]. Qed.
Lemma prodn_perm n s f : permutes n s -> prodn n (fun i => f (s i)) = prodn n f.
Proof.
  intros Hs. rewrite !prodn_seq. rewrite <- (map_map s f). apply prod_perm, Permutation_map, perm_seq, Hs.
Qed.

(** What the data alone must satisfy carries over. *)
Section Given.
  Context {X : Type} (ok : X -> Prop) (g : X -> X) (nc : nat) (pi : nat -> R) (A : nat -> nat -> R) (b b2 : X -> nat -> R).
  Variables (ls : list nat) (x : list X).
  Hypothesis Hd : good_data ok ls x.
  Hypothesis Hb : forall o i, ok o -> (i < nc)%nat -> b2 (g o) i = b o i.
  Lemma possible_recode : possible nc pi A b ls x -> possible nc pi A b2 ls (map g x).
  Proof.
    intros H c2 Hc2. rewrite chunks_recode in Hc2. apply in_map_iff in Hc2 as (c & <- & Hc). destruct (cs_ok ok ls x Hd c Hc) as [C1 C2].
    rewrite seq_lik_map, (seq_lik_ext ok nc pi A (fun o => b2 (g o)) b c C1 C2 Hb). apply H. exact Hc.
  Qed.
  Lemma used_recode : all_used nc pi A b (chunks ls x) -> all_used nc pi A b2 (chunks ls (map g x)).
  Proof.
    intros H i Hi. destruct (H i Hi) as (c & t & Hc & Ht & Hp). destruct (cs_ok ok ls x Hd c Hc) as [C1 C2].
    exists (map g c), t. rewrite chunks_recode. split; [apply in_map; exact Hc|]. rewrite map_length. split; [exact Ht|].
    rewrite seq_post_map, (seq_post_ext ok nc pi A (fun o => b2 (g o)) b Hb c t i C1 C2). exact Hp.
  Qed.
End Given.

(** Conditions on the configuration are kept by training. *)
Lemma trains_cfg {P X St} (E : emclass P X St) nc ok good b V (Q : cfg -> Prop) : trains E nc ok good b V ->
  trains E nc ok (fun c nf p => good c nf p /\ Q c) b V.
Proof.
  intros [H1 H2]. constructor.
  - intros h Hc [G _]. apply H1; assumption.
  - intros c nf p l Hc [G HQ] W Vi. destruct (H2 c nf p l Hc G W Vi) as (st & p' & S1 & S2 & S3 & S4).
    exists st, p'. split; [exact S1|]. split; [exact S2|]. split; [split; assumption|exact S4].
Qed.
Lemma tstate_cfg {P X} nc (good : cfg -> option nat -> P -> Prop) (b : P -> X -> nat -> R) V ls x h pi A (Q : cfg -> Prop) :
  Q (h_cfg h) -> tstate nc good b V ls x h pi A -> tstate nc (fun c nf p => good c nf p /\ Q c) b V ls x h pi A.
Proof. intros HQ []. constructor; auto. Qed.

(** ** CategoricalHMM *)
Section Cat.
  Variables (nc nf : nat) (s : nat -> nat) (ep ep2 : nat -> nat -> R).
  Hypothesis Hs : permutes nf s.
  Hypothesis Eep : forall i k, (i < nc)%nat -> (k < nf)%nat -> ep2 i (s k) = ep i k.

  Definition rcat (p p2 : catp) : Prop :=
    forall i k, (i < nc)%nat -> (k < nf)%nat -> cat_e p2 i (s k) = cat_e p i k.
  Lemma cat_b_recode (e e2 : nat -> nat -> R) : (forall i k, (i < nc)%nat -> (k < nf)%nat -> e2 i (s k) = e i k) ->
    forall o i, sym_ok nf o -> (i < nc)%nat -> cat_b e2 (rename_symbol s o) i = cat_b e o i.
  Proof. intros H o i Ho Hi. unfold cat_b, rename_symbol. rewrite Nat2Z.id. apply H; [exact Hi|]. unfold sym_ok in Ho. lia. Qed.

  Lemma sym_count_recode l l2 i k : (forall x w, In (x, w) l -> Forall (sym_ok nf) x) -> recoded nc (rename_symbol s) l l2 ->
    (i < nc)%nat -> (k < nf)%nat -> sym_count l2 i (s k) = sym_count l i k.
  Proof.
    intros Hok Hl Hi Hk. unfold sym_count.
    apply (recoded_sum nc (rename_symbol s) l l2 (fun o w => if Z.eqb o (Z.of_nat k) then w else 0)
      (fun o w => if Z.eqb o (Z.of_nat (s k)) then w else 0) 0%Z 0%Z i Hl Hi).
    intros [y w] o v Hy Ho. specialize (Hok y w Hy). rewrite Forall_forall in Hok. specialize (Hok o Ho). unfold sym_ok, rename_symbol in *.
    destruct (Z.eqb_spec o (Z.of_nat k)) as [->|N].
    - rewrite Nat2Z.id, Z.eqb_refl. reflexivity.
    - destruct (Z.eqb_spec (Z.of_nat (s (Z.to_nat o))) (Z.of_nat (s k))) as [E|_]; [|reflexivity].
      apply Nat2Z.inj in E. apply (proj2 Hs) in E; lia.
  Qed.
  Lemma normalised_unperm w w2 : (forall k, (k < nf)%nat -> w2 (s k) = w k) ->
    forall k, (k < nf)%nat -> normalised nf w2 (s k) = normalised nf w k.
  Proof.
    intros H k Hk. unfold normalised.
    assert (Hsum : sumn nf w2 = sumn nf w) by (rewrite <- (sumn_perm nf s Hs w2); apply sumn_ext; exact H).
    rewrite Hsum, H by exact Hk. reflexivity.
  Qed.
  Lemma rcat_new c c2 p p2 l l2 : same_cfg c c2 -> rcat p p2 -> (forall x w, In (x, w) l -> Forall (sym_ok nf) x) ->
    recoded nc (rename_symbol s) l l2 -> rcat (cat_new nc nf ep c p l) (cat_new nc nf ep2 c2 p2 l2).
  Proof.
    intros (_ & Kp & _) Hr Hok Hl i k Hi Hk. destruct (has "e" (c_params c)) eqn:He.
    - rewrite !cat_e_new by (try assumption; try (rewrite Kp; exact He); apply (proj1 Hs); exact Hk).
      apply normalised_unperm; [|exact Hk]. intros j Hj. unfold clip_weight.
      rewrite Eep, (sym_count_recode l l2 i j Hok Hl Hi Hj) by assumption. reflexivity.
    - unfold cat_new. rewrite Kp, He. apply Hr; assumption.
  Qed.
End Cat.

(** ** PoissonHMM *)
Section Pois.
  Variables (nc nf : nat) (s : nat -> nat) (al be al2 be2 : nat -> nat -> R).
  Hypothesis Hs : permutes nf s.
  Hypothesis Eal : forall i f, (i < nc)%nat -> (f < nf)%nat -> al2 i f = al i (s f).
  Hypothesis Ebe : forall i f, (i < nc)%nat -> (f < nf)%nat -> be2 i f = be i (s f).
  Notation g := (move_counts nf s).

  Definition rpois (p p2 : poisp) : Prop :=
    forall i f, (i < nc)%nat -> (f < nf)%nat -> pois_l p2 i f = pois_l p i (s f).
  Lemma pois_b_recode (lam lam2 : nat -> nat -> R) : (forall i f, (i < nc)%nat -> (f < nf)%nat -> lam2 i f = lam i (s f)) ->
    forall o i, (i < nc)%nat -> pois_b nf lam2 (g o) i = pois_b nf lam o i.
  Proof.
    intros H o i Hi. unfold pois_b. rewrite <- (prodn_perm nf s (fun f => pois_mass (lam i f) (Z.to_nat (nth f o 0%Z))) Hs).
    apply prodn_ext. intros f Hf. rewrite H, move_nth by assumption. reflexivity.
  Qed.
  Lemma cnt_recode (l l2 : list (list (list Z) * (nat -> nat -> R))) i f : recoded nc g l l2 -> (i < nc)%nat -> (f < nf)%nat ->
    wsum l2 (cnt f) i = wsum l (cnt (s f)) i.
  Proof. intros H Hi Hf. apply (recoded_wsum nc g l l2 _ _ i H Hi). intros w o _ _. unfold cnt. rewrite move_nth by exact Hf. reflexivity. Qed.
  Lemma rpois_new c c2 p p2 l l2 : same_cfg c c2 -> rpois p p2 -> recoded nc g l l2 ->
    rpois (pois_new nc nf al be c p l) (pois_new nc nf al2 be2 c2 p2 l2).
  Proof.
    intros (_ & Kp & _) Hr Hl i f Hi Hf. unfold pois_new. rewrite Kp. destruct (has "l" (c_params c)); [|apply Hr; assumption].
    rewrite !pois_l_fmat by (try assumption; apply (proj1 Hs); exact Hf). unfold pois_upd.
    rewrite (recoded_total nc g l l2 Hl), (recoded_occ nc g l l2 i Hl Hi), Eal, Ebe, (cnt_recode l l2 i f Hl Hi Hf) by assumption. reflexivity.
  Qed.
End Pois.

(** ** MultinomialHMM *)
Section Mult.
  Variables (nc nf : nat) (s : nat -> nat).
  Hypothesis Hs : permutes nf s.
  Notation g := (move_counts nf s).
  Definition rmult (p p2 : mulp) : Prop :=
    forall i f, (i < nc)%nat -> (f < nf)%nat -> mult_e p2 i f = mult_e p i (s f).
  Lemma mult_b_recode (e e2 : nat -> nat -> R) : (forall i f, (i < nc)%nat -> (f < nf)%nat -> e2 i f = e i (s f)) ->
    forall o i, counts_ok nf o -> (i < nc)%nat -> mult_b nf e2 (g o) i = mult_b nf e o i.
  Proof.
    intros H o i Ho Hi. unfold mult_b, mult_mass. rewrite move_zsum by (try assumption; apply Ho). f_equal.
    rewrite <- (prodn_perm nf s (fun f => e i f ^ Z.to_nat (nth f o 0%Z) / INR (fact (Z.to_nat (nth f o 0%Z)))) Hs).
    apply prodn_ext. intros f Hf. rewrite H, move_nth by assumption. reflexivity.
  Qed.
  Lemma rmult_new c c2 p p2 l l2 : same_cfg c c2 -> rmult p p2 -> recoded nc g l l2 ->
    rmult (mult_new nc nf c p l) (mult_new nc nf c2 p2 l2).
  Proof.
    intros (_ & Kp & _) Hr Hl i f Hi Hf. unfold mult_new. rewrite Kp. destruct (has "e" (c_params c)); [|apply Hr; assumption].
    rewrite !mult_e_fmat by (try assumption; apply (proj1 Hs); exact Hf). unfold mult_upd.
    rewrite (cnt_recode nc nf s l l2 i f Hl Hi Hf). f_equal.
    rewrite <- (sumn_perm nf s Hs (fun k => wsum l (cnt k) i)). apply sumn_ext. intros k Hk. apply (cnt_recode nc nf s l l2 i k Hl Hi Hk).
  Qed.
End Mult.

(** ** GaussianHMM, "diag" and "spherical" *)
Section Gauss.
  Variables (nc nf : nat) (s : nat -> nat) (sg sh : nat -> R) (m0 w cp m02 w2 cp2 : nat -> nat -> R) (a : R).
  Hypothesis Hnc : (0 < nc)%nat.
  Hypothesis Hnf : (0 < nf)%nat.
  Hypothesis Hs : permutes nf s.
  Hypothesis Hsg : unit_sign nf sg.
  Hypothesis Em0 : forall i f, (i < nc)%nat -> (f < nf)%nat -> w i (s f) = 0 \/ m02 i f = sg f * m0 i (s f) + sh f.
  Hypothesis Ew : forall i f, (i < nc)%nat -> (f < nf)%nat -> w2 i f = w i (s f).
  Hypothesis Ecp : forall i f, (i < nc)%nat -> (f < nf)%nat -> cp2 i f = cp i (s f).
  Notation g := (move_row nf s sg sh).

  Record rgauss (p p2 : gaussp) : Prop := RGauss {
    rg_type : ga_type p2 = ga_type p;
    rg_mu : forall i f, (i < nc)%nat -> (f < nf)%nat -> ga_mu p2 i f = sg f * ga_mu p i (s f) + sh f;
    rg_v : forall i f, (i < nc)%nat -> (f < nf)%nat -> ga_v p2 i f = ga_v p i (s f) }.

  Lemma gauss_b_recode (mu v mu2 v2 : nat -> nat -> R) :
    (forall i f, (i < nc)%nat -> (f < nf)%nat -> mu2 i f = sg f * mu i (s f) + sh f) ->
    (forall i f, (i < nc)%nat -> (f < nf)%nat -> v2 i f = v i (s f)) ->
    forall o i, (i < nc)%nat -> gauss_b nf mu2 v2 (g o) i = gauss_b nf mu v o i.
  Proof.
    intros H1 H2 o i Hi. unfold gauss_b. rewrite <- (prodn_perm nf s (fun f => normal_pdf (mu i f) (v i f) (xval o f)) Hs).
    apply prodn_ext. intros f Hf. rewrite H1, H2, move_row_val by assumption. unfold normal_pdf. f_equal. f_equal. f_equal. f_equal.
    destruct (Hsg f Hf) as [-> | ->]; ring.
  Qed.
  Lemma rgauss_b p p2 o i : rgauss p p2 -> (i < nc)%nat -> gauss_bp nf p2 (g o) i = gauss_bp nf p o i.
  Proof.
    intros H Hi. unfold gauss_bp. apply gauss_b_recode; [apply H| |exact Hi]. intros j f Hj Hf. unfold floored. rewrite (rg_v _ _ H) by assumption. reflexivity.
  Qed.

  Variables (V : bool) (c c2 : cfg) (l l2 : list (list vec * (nat -> nat -> R))).
  Hypothesis Kc : same_cfg c c2.
  Hypothesis Hl : recoded nc g l l2.
  Let Kp : c_params c2 = c_params c := proj1 (proj2 Kc).
  (** Variances alone are trained with statistics that depend on the origin. *)
  Definition origin_ok : Prop := has "c" (c_params c) = true -> has "m" (c_params c) = true \/ forall f, (f < nf)%nat -> sh f = 0.

  Lemma wsum_move (phi2 : vec -> nat -> R) u1 u2 u3 phi psi i : (i < nc)%nat ->
    (forall o, phi2 (g o) i = u1 * phi o i + u2 * psi o i + u3 * 1) ->
    wsum l2 phi2 i = u1 * wsum l phi i + u2 * wsum l psi i + u3 * wsum l (fun _ _ => 1) i.
  Proof.
    intros Hi H. rewrite (recoded_wsum nc g l l2 (fun o j => (u1 * phi o j + u2 * psi o j) + u3 * 1) phi2 i Hl Hi) by (intros ? o _ _; apply H).
    rewrite (wsum_plus l (fun o j => u1 * phi o j + u2 * psi o j) (fun o j => u3 * 1) i), (wsum_plus l (fun o j => u1 * phi o j) (fun o j => u2 * psi o j) i).
    rewrite !wsum_scal. reflexivity.
  Qed.
  Lemma st_n_move i : (i < nc)%nat -> st_n c2 l2 i = st_n c l i.
  Proof. intros Hi. unfold st_n. rewrite Kp. destruct (has "m" _); [|reflexivity]. apply (recoded_occ nc g l l2 i Hl Hi). Qed.
  Lemma st_s_move i f : (i < nc)%nat -> (f < nf)%nat -> st_s c2 l2 i f = sg f * st_s c l i (s f) + sh f * st_n c l i.
  Proof.
    intros Hi Hf. unfold st_s, st_n. rewrite Kp. destruct (has "m" _); [|ring].
    rewrite (wsum_move (xf f) (sg f) 0 (sh f) (xf (s f)) (xf f) i Hi); [ring|]. intros o. unfold xf. rewrite move_row_val by exact Hf. ring.
  Qed.
  Lemma mu_new_move nfe p p2 i f : nonneg2 nc nf w -> gauss_good nc nf m0 w cp a V c nfe p ->
    good_weights nc (finite_row nf) (gauss_bp nf p) l -> (V = true -> visited nc l) ->
    rgauss p p2 -> (i < nc)%nat -> (f < nf)%nat ->
    mu_new m02 w2 c2 p2 l2 i f = sg f * mu_new m0 w c p l i (s f) + sh f.
  Proof.
    intros Hw G W Vi Hr Hi Hf. unfold mu_new. rewrite Kp. destruct (has "m" (c_params c)) eqn:Em; [|apply Hr; assumption]. unfold new_mean.
    pose proof (proj1 Hs f Hf) as Hsf.
    pose proof (gauss_den nc nf m0 w cp a Hw V c nfe p l G W Vi i (s f) Em Hi Hsf) as Hden.
    rewrite st_n_move, st_s_move, Ew by assumption. unfold st_n. rewrite Em.
    destruct (Em0 i f Hi Hf) as [Z | ->]; [rewrite Z in *|]; field; lra.
  Qed.
  Lemma scatter_move nfe p p2 i f : origin_ok -> nonneg2 nc nf w -> gauss_good nc nf m0 w cp a V c nfe p ->
    good_weights nc (finite_row nf) (gauss_bp nf p) l -> (V = true -> visited nc l) ->
    rgauss p p2 -> has "c" (c_params c) = true -> (i < nc)%nat -> (f < nf)%nat ->
    scatter m02 w2 cp2 (st_n c2 l2) (st_s c2 l2) (st_q c2 l2) (mu_new m02 w2 c2 p2 l2) i f
    = scatter m0 w cp (st_n c l) (st_s c l) (st_q c l) (mu_new m0 w c p l) i (s f).
  Proof.
    intros Horigin Hw G W Vi Hr Ec Hi Hf. unfold scatter.
    assert (Q : st_q c2 l2 i f = st_q c l i (s f) + 2 * sg f * sh f * st_s c l i (s f) + sh f ^ 2 * st_n c l i).
    { unfold st_q, st_s, st_n. rewrite Kp, Ec.
      rewrite (wsum_move (xf2 f) 1 (2 * sg f * sh f) (sh f ^ 2) (xf2 (s f)) (xf (s f)) i Hi).
      - destruct (Horigin Ec) as [-> |Z]; [ring|]. rewrite (Z f Hf). destruct (has "m" _); ring.
      - intros o. unfold xf2, xf. rewrite move_row_val by exact Hf. destruct (Hsg f Hf) as [-> | ->]; ring. }
    rewrite Q, st_n_move, st_s_move, Ew, Ecp, (mu_new_move nfe p p2) by assumption. set (m := mu_new m0 w c p l i (s f)).
    assert (E2 : sg f * sg f = 1) by (destruct (Hsg f Hf) as [-> | ->]; ring).
    assert (D : w i (s f) * (sg f * m + sh f - m02 i f) ^ 2 = w i (s f) * (m - m0 i (s f)) ^ 2).
    { destruct (Em0 i f Hi Hf) as [-> | ->]; [ring|]. destruct (Hsg f Hf) as [-> | ->]; ring. }
    rewrite D. destruct (Hsg f Hf) as [-> | ->]; ring.
  Qed.
  Lemma rgauss_new nfe p p2 : origin_ok -> nonneg2 nc nf w -> gauss_good nc nf m0 w cp a V c nfe p -> gauss_good nc nf m02 w2 cp2 a V c2 nfe p2 ->
    good_weights nc (finite_row nf) (gauss_bp nf p) l -> (V = true -> visited nc l) ->
    rgauss p p2 -> rgauss (gauss_new nc nf m0 w cp a c p l) (gauss_new nc nf m02 w2 cp2 a c2 p2 l2).
  Proof.
    intros Ho Hw G G2 W Vi Hr. constructor.
    - apply Hr.
    - intros i f Hi Hf. pose proof (proj1 Hs f Hf). rewrite !ga_mu_new by assumption. apply (mu_new_move nfe); assumption.
    - intros i f Hi Hf. pose proof (proj1 Hs f Hf). rewrite !ga_v_new by assumption. unfold v_new. rewrite Kp.
      destruct (has "c" (c_params c)) eqn:Ec; [|apply Hr; assumption]. unfold upd_var. rewrite (rg_type _ _ Hr), st_n_move by exact Hi.
      destruct (String.eqb _ _).
      + f_equal. rewrite <- (sumn_perm nf s Hs (fun k => scatter m0 w cp (st_n c l) (st_s c l) (st_q c l) (mu_new m0 w c p l) i k / Rmax (a + st_n c l i) (/ 10 ^ 5))).
        apply sumn_ext. intros k Hk. rewrite (scatter_move nfe p p2) by assumption. reflexivity.
      + rewrite (scatter_move nfe p p2) by assumption. reflexivity.
  Qed.
End Gauss.

(** ** GaussianHMM, "full" and "tied" *)
Section Full.
  Variables (nc nf : nat) (sh : nat -> R) (m0 m02 cp : nat -> nat -> R) (w a : R).
  Hypothesis Em0 : forall i f, (i < nc)%nat -> (f < nf)%nat -> w = 0 \/ m02 i f = m0 i f + sh f.
  Notation g := (move_row nf (fun f => f) (fun _ => 1) sh).

  Record rfull (p p2 : gaussp) : Prop := RFull {
    rf_type : ga_type p2 = ga_type p;
    rf_mu : forall i f, (i < nc)%nat -> (f < nf)%nat -> ga_mu p2 i f = ga_mu p i f + sh f;
    rf_S : forall i k m, (i < nc)%nat -> (k < nf)%nat -> (m < nf)%nat -> ga_S p2 i k m = ga_S p i k m }.
  Lemma mvnf_move mu mu2 A B o : (forall f, (f < nf)%nat -> mu2 f = mu f + sh f) ->
    (forall i j, (i < nf)%nat -> (j < nf)%nat -> B i j = A i j) -> mvnf nf mu2 B (g o) = mvnf nf mu A o.
  Proof.
    intros E1 E2. unfold mvnf. rewrite (det_ext nf B A E2), (fmat_ext nf nf B A E2).
    rewrite (fvec_ext nf (fun f => xval (g o) f - mu2 f) (fun f => xval o f - mu f))
      by (intros f Hf; rewrite move_row_val, E1 by exact Hf; ring). reflexivity.
  Qed.
  Lemma rfull_b p p2 o i : rfull p p2 -> (i < nc)%nat -> gauss_fp nf p2 (g o) i = gauss_fp nf p o i.
  Proof.
    intros H Hi. unfold gauss_fp. apply mvnf_move.
    - intros f Hf. apply (rf_mu _ _ H); assumption.
    - apply effm_ext. intros k m Hk Hm. apply (rf_S _ _ H); assumption.
  Qed.

  Variables (V : bool) (c c2 : cfg) (l l2 : list (list vec * (nat -> nat -> R))).
  Hypothesis Kc : same_cfg c c2.
  Hypothesis Hl : recoded nc g l l2.
  Let Kp : c_params c2 = c_params c := proj1 (proj2 Kc).

  Let Hid : permutes nf (fun f => f) := permutes_id nf.
  Let H1 : unit_sign nf (fun _ => 1) := fun f _ => or_introl eq_refl.
  Lemma fst_n_move i : (i < nc)%nat -> st_n c2 l2 i = st_n c l i.
  Proof. apply (st_n_move nc nf (fun f => f) (fun _ => 1) sh c c2 l l2 Kc Hl). Qed.
  Lemma fst_s_move i f : (i < nc)%nat -> (f < nf)%nat -> st_s c2 l2 i f = st_s c l i f + sh f * st_n c l i.
  Proof. intros Hi Hf. rewrite (st_s_move nc nf (fun f => f) (fun _ => 1) sh c c2 l l2 Kc Hl i f Hi Hf). ring. Qed.
  Lemma st_qq_move i k m : (has "c" (c_params c) = true -> has "m" (c_params c) = true) -> has "c" (c_params c) = true -> (i < nc)%nat -> (k < nf)%nat -> (m < nf)%nat ->
    st_qq c2 l2 i k m = st_qq c l i k m + sh m * st_s c l i k + sh k * st_s c l i m + sh k * sh m * st_n c l i.
  Proof.
    intros Horigin Ec Hi Hk Hm. unfold st_qq, st_s, st_n. rewrite Kp, Ec, (Horigin Ec).
    rewrite (wsum_move nc nf (fun f => f) (fun _ => 1) sh l l2 Hl (xx k m) 1 1 (sh k * sh m) (xx k m) (fun o j => sh m * xf k o j + sh k * xf m o j) i Hi).
    - rewrite (wsum_plus l (fun o j => sh m * xf k o j) (fun o j => sh k * xf m o j) i), !wsum_scal. ring.
    - intros o. unfold xx, xf. rewrite !move_row_val by assumption. ring.
  Qed.
  Lemma fmu_new_move p p2 i f : (has "m" (c_params c) = true -> forall i, (i < nc)%nat -> 0 < w + wsum l (fun _ _ => 1) i) ->
    rfull p p2 -> (i < nc)%nat -> (f < nf)%nat -> fmu_new m02 w c2 p2 l2 i f = fmu_new m0 w c p l i f + sh f.
  Proof.
    intros Hden Hr Hi Hf. unfold fmu_new. rewrite Kp. destruct (has "m" (c_params c)) eqn:Em; [|apply Hr; assumption]. unfold fmean.
    specialize (Hden eq_refl i Hi). rewrite fst_n_move, fst_s_move by assumption. unfold st_n. rewrite Em.
    destruct (Em0 i f Hi Hf) as [Z | ->]; [rewrite Z in *|]; field; lra.
  Qed.
  Lemma scatm_move p p2 i k m : (has "c" (c_params c) = true -> has "m" (c_params c) = true) -> (has "m" (c_params c) = true -> forall i, (i < nc)%nat -> 0 < w + wsum l (fun _ _ => 1) i) ->
    rfull p p2 -> has "c" (c_params c) = true -> (i < nc)%nat -> (k < nf)%nat -> (m < nf)%nat ->
    scatm m02 w (st_n c2 l2) (st_s c2 l2) (st_qq c2 l2) (fmu_new m02 w c2 p2 l2) i k m
    = scatm m0 w (st_n c l) (st_s c l) (st_qq c l) (fmu_new m0 w c p l) i k m.
  Proof.
    intros Horigin Hden Hr Ec Hi Hk Hm. unfold scatm.
    rewrite fst_n_move, !fst_s_move, st_qq_move, !(fmu_new_move p p2) by assumption.
    destruct (Em0 i k Hi Hk) as [-> | ->]; [ring|]. destruct (Em0 i m Hi Hm) as [-> | ->]; ring.
  Qed.
  Lemma rfull_new nfe p p2 : (has "c" (c_params c) = true -> has "m" (c_params c) = true) -> (0 < nc)%nat -> (0 < nf)%nat -> full_good nc nf m0 cp w a V c nfe p -> full_good nc nf m02 cp w a V c2 nfe p2 ->
    (has "m" (c_params c) = true -> forall i, (i < nc)%nat -> 0 < w + wsum l (fun _ _ => 1) i) ->
    rfull p p2 -> rfull (full_new nc nf m0 cp w a c p l) (full_new nc nf m02 cp w a c2 p2 l2).
  Proof.
    intros Ho Hnc Hnf G G2 Hden Hr. constructor.
    - apply Hr.
    - intros i f Hi Hf. rewrite !fga_mu_new by assumption. apply fmu_new_move; assumption.
    - intros i k m Hi Hk Hm. rewrite (ga_S_new nc nf m02 cp w a V c2 nfe p2 l2 G2), (ga_S_new nc nf m0 cp w a V c nfe p l G) by assumption.
      unfold S_new. rewrite Kp. destruct (has "c" (c_params c)) eqn:Ec in |- *; [|apply Hr; assumption]. unfold upd_cov. rewrite (rf_type _ _ Hr).
      destruct (String.eqb _ _).
      + f_equal; f_equal; apply sumn_ext; intros j Hj; [apply scatm_move; assumption|apply fst_n_move; exact Hj].
      + rewrite (scatm_move p p2), fst_n_move by assumption. reflexivity.
  Qed.
End Full.
