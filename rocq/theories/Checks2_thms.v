(** * C11, C12, C28, C30, C44: proofs. *)
From Coq Require Import Permutation.
From Verif Require Export Checks_thms Training_thms Cat_fit.

(** ** Likelihood of a list of observations by recursion on the list. *)
Section Suffix.
  Context {X : Type}.
  Variables (nc : nat) (pi : nat -> R) (A : nat -> nat -> R) (b : X -> nat -> R).

  Fixpoint suf (i : nat) (x : list X) : R :=
    match x with
    | [] => 1
    | o :: r => sumn nc (fun j => A i j * b o j * suf j r)
    end.

  Lemma beta_suf B x : forall t i, (forall k j, (k < length x)%nat -> B (S t + k)%nat j = obsB b x k j) ->
    beta nc A B t (length x) i = suf i x.
  Proof.
    induction x as [|o x IH]; intros t i H; [reflexivity|]. cbn [length beta suf].
    apply sumn_ext; intros j _. rewrite IH.
    - specialize (H 0%nat j ltac:(simpl; lia)). rewrite Nat.add_0_r in H. rewrite H. reflexivity.
    - intros k j' Hk. specialize (H (S k) j' ltac:(simpl; lia)).
      replace (S (S t) + k)%nat with (S t + S k)%nat by lia. rewrite H. reflexivity.
  Qed.

  Lemma seq_lik_suf o x : seq_lik nc pi A b (o :: x) = sumn nc (fun i => pi i * b o i * suf i x).
  Proof.
    unfold seq_lik, likelihood. cbn [length].
    rewrite (sumL_ext _ (wpath pi A (obsB b (o :: x)))).
    2:{ intros z Hz. apply joint_wpath. apply (path_length nc (S (length x)) z Hz). }
    rewrite sumL_paths_S. apply sumn_ext; intros s _. cbn [wpath].
    rewrite sumL_scal_l, sum_wsuf. f_equal. apply beta_suf. intros k j Hk. reflexivity.
  Qed.

  Hypothesis HA : nonneg2 nc nc A.
  Lemma suf_nonneg x i : (i < nc)%nat -> (forall o j, In o x -> (j < nc)%nat -> 0 <= b o j) -> 0 <= suf i x.
  Proof.
    revert i; induction x as [|o x IH]; intros i Hi Hb; cbn [suf]; [lra|].
    apply sumn_nonneg; intros j Hj. apply Rmult_le_pos; [apply Rmult_le_pos|].
    - apply HA; assumption.
    - apply Hb; [left; reflexivity|exact Hj].
    - apply IH; [exact Hj|]. intros o' j' Ho. apply Hb. right; exact Ho.
  Qed.

  Hypothesis HA1 : forall i, (i < nc)%nat -> sumn nc (A i) = 1.
  Lemma suf_app_le x y i : (i < nc)%nat ->
    (forall o j, In o (x ++ y) -> (j < nc)%nat -> 0 <= b o j <= 1) -> suf i (x ++ y) <= suf i x.
  Proof.
    revert i; induction x as [|o x IH]; intros i Hi Hb; cbn [suf app].
    - cbn [app] in Hb. revert i Hi. induction y as [|o y IH]; intros i Hi; cbn [suf]; [lra|].
      apply Rle_trans with (sumn nc (A i)); [|rewrite HA1 by exact Hi; lra].
      apply sumn_le; intros j Hj.
      assert (Hs : suf j y <= 1) by (apply IH; [intros; apply Hb; [right; assumption|assumption]|exact Hj]).
      assert (H0 : 0 <= suf j y) by (apply suf_nonneg; [exact Hj|]; intros o' j' Ho Hj'; apply Hb; [right; exact Ho|exact Hj']).
      pose proof (Hb o j (or_introl eq_refl) Hj). pose proof (HA i j Hi Hj).
      rewrite <- (Rmult_1_r (A i j)) at 2. rewrite Rmult_assoc. apply Rmult_le_compat_l; [assumption|].
      rewrite <- (Rmult_1_r 1). apply Rmult_le_compat; lra.
    - apply sumn_le; intros j Hj. apply Rmult_le_compat_l.
      + apply Rmult_le_pos; [apply HA; assumption|]. apply Hb; [left; reflexivity|exact Hj].
      + apply IH; [exact Hj|]. intros o' j' Ho. apply Hb. right; exact Ho.
  Qed.
End Suffix.

(** ** C12 *)
Section Distribution.
  Variables (nc nf : nat) (pi : nat -> R) (A e : nat -> nat -> R).
  Hypothesis Hpi : stochastic1 nc pi.
  Hypothesis HA : stochastic2 nc nc A.
  Hypothesis He : stochastic2 nc nf e.

  Lemma sum_suf T i : (i < nc)%nat ->
    sumL (fun x => suf nc A (cat_b e) i (map Z.of_nat x)) (all_paths nf T) = 1.
  Proof.
    revert i; induction T as [|T IH]; intros i Hi; [simpl; ring|].
    rewrite sumL_paths_S. cbn [map suf].
    rewrite (sumn_ext nf _ (fun k => sumn nc (fun j => A i j * e j k))).
    2:{ intros k Hk. rewrite sumL_sumn_swap. apply sumn_ext; intros j Hj. rewrite sumL_scal_l, IH by exact Hj.
        unfold cat_b. rewrite Nat2Z.id. ring. }
    rewrite sumn_swap. rewrite <- (proj2 (HA i Hi)). apply sumn_ext; intros j Hj.
    rewrite sumn_scal_l, (proj2 (He j Hj)). ring.
  Qed.

  Lemma lik_sum_1 T : sumL (fun x => seq_lik nc pi A (cat_b e) (map Z.of_nat x)) (all_paths nf (S T)) = 1.
  Proof.
    rewrite sumL_paths_S. cbn [map].
    rewrite (sumn_ext nf _ (fun k => sumn nc (fun i => pi i * e i k))).
    2:{ intros k Hk. rewrite (sumL_ext _ (fun z => sumn nc (fun i => pi i * cat_b e (Z.of_nat k) i * suf nc A (cat_b e) i (map Z.of_nat z))))
          by (intros; apply seq_lik_suf).
        rewrite sumL_sumn_swap. apply sumn_ext; intros i Hi. rewrite sumL_scal_l, sum_suf by exact Hi.
        unfold cat_b. rewrite Nat2Z.id. ring. }
    rewrite sumn_swap. rewrite <- (proj2 Hpi). apply sumn_ext; intros i Hi.
    rewrite sumn_scal_l, (proj2 (He i Hi)). ring.
  Qed.

  Lemma e_01 i k : (i < nc)%nat -> (k < nf)%nat -> 0 <= e i k <= 1.
  Proof.
    intros Hi Hk. destruct (He i Hi) as [H1 H2]. split; [apply H1; exact Hk|].
    rewrite <- H2. apply sumn_ge_term; assumption.
  Qed.
  Lemma cat_b_01 o j x : Forall (sym_ok nf) x -> In o x -> (j < nc)%nat -> 0 <= cat_b e o j <= 1.
  Proof.
    intros Hx Ho Hj. rewrite Forall_forall in Hx. specialize (Hx o Ho). unfold sym_ok in Hx.
    apply e_01; [exact Hj|lia].
  Qed.

  Lemma lik_extend x y : x <> [] -> Forall (sym_ok nf) (x ++ y) ->
    seq_lik nc pi A (cat_b e) (x ++ y) <= seq_lik nc pi A (cat_b e) x.
  Proof.
    destruct x as [|o x]; intros Hne Hx; [contradiction|]. cbn [app]. rewrite !seq_lik_suf.
    apply sumn_le; intros i Hi. apply Rmult_le_compat_l.
    - apply Rmult_le_pos; [apply Hpi; exact Hi|]. apply (cat_b_01 o i _ Hx); [left; reflexivity|exact Hi].
    - apply suf_app_le; [intros ? ? ? ?; apply HA; assumption|intros; apply HA; assumption|exact Hi|].
      intros o' j Ho Hj. apply (cat_b_01 o' j _ Hx); [right; exact Ho|exact Hj].
  Qed.

  Lemma lik_le_1 x : x <> [] -> Forall (sym_ok nf) x -> seq_lik nc pi A (cat_b e) x <= 1.
  Proof.
    destruct x as [|o x]; intros Hne Hx; [contradiction|].
    apply Rle_trans with (seq_lik nc pi A (cat_b e) [o]).
    - change (o :: x) with ([o] ++ x). apply lik_extend; [discriminate|exact Hx].
    - rewrite seq_lik_suf. rewrite <- (proj2 Hpi). apply sumn_le; intros i Hi. cbn [suf].
      pose proof (cat_b_01 o i _ Hx (or_introl eq_refl) Hi). pose proof (proj1 Hpi i Hi).
      rewrite Rmult_1_r. rewrite <- (Rmult_1_r (pi i)) at 2. apply Rmult_le_compat_l; lra.
  Qed.
End Distribution.

Lemma syms_ok nf T x : In x (all_paths nf T) -> Forall (sym_ok nf) (map Z.of_nat x).
Proof.
  intros H. apply in_all_paths in H as [Hl Hn]. apply Forall_forall. intros o Ho.
  apply in_map_iff in Ho as (k & <- & Hk). apply (In_nth _ _ 0%nat) in Hk as (t & Ht & <-).
  unfold sym_ok. specialize (Hn t ltac:(lia)). lia.
Qed.

Lemma exp_score_lik h nc nf pi A e x : cat_model h nc nf pi A e -> c_impl (h_cfg h) = "log"%string ->
  x <> [] -> Forall (sym_ok nf) (map Z.of_nat x) ->
  exp_score h x = seq_lik nc pi A (cat_b e) (map Z.of_nat x).
Proof.
  intros CM Hi Hx Hok. unfold exp_score.
  assert (Hx' : map Z.of_nat x <> []) by (destruct x; [contradiction|discriminate]).
  rewrite (score_log_single categorical h nc pi A _ _ (cat_ready h nc nf pi A e CM) _ Hi Hx' Hok).
  rewrite xexp_xln; [reflexivity|].
  apply (seq_lik_nonneg categorical h nc pi A _ _ (cat_ready h nc nf pi A e CM) _ Hx' Hok).
Qed.

Lemma exp_scores_sum h nc nf pi A e T : cat_stochastic h nc nf pi A e -> c_impl (h_cfg h) = "log"%string ->
  (0 < T)%nat -> sumL (exp_score h) (all_paths nf T) = 1.
Proof.
  intros (CM & Hp & HA & He) Hi HT. destruct T as [|T]; [lia|].
  rewrite (sumL_ext _ (fun x => seq_lik nc pi A (cat_b e) (map Z.of_nat x))).
  - apply lik_sum_1; assumption.
  - intros x Hx. apply (exp_score_lik h nc nf pi A e); [exact CM|exact Hi| |exact (syms_ok _ _ _ Hx)].
    apply (path_nonnil nf T x Hx).
Qed.

Lemma score_extend h nc nf pi A e x y : cat_stochastic h nc nf pi A e ->
  c_impl (h_cfg h) = "log"%string -> x <> [] -> Forall (sym_ok nf) (x ++ y) ->
  exists v w, score categorical exact h x None = Ok v /\ score categorical exact h (x ++ y) None = Ok w
    /\ xle w v /\ xle v (Fin 0).
Proof.
  intros (CM & Hp & HA & He) Hi Hx Hok.
  pose proof (cat_ready h nc nf pi A e CM) as Rd.
  assert (Hox : Forall (sym_ok nf) x) by (apply Forall_app in Hok; apply Hok).
  assert (Hxy : x ++ y <> []) by (destruct x; [contradiction|discriminate]).
  do 2 eexists. split; [apply (score_log_single _ _ _ _ _ _ _ Rd); assumption|].
  split; [apply (score_log_single _ _ _ _ _ _ _ Rd); assumption|]. split.
  - apply xle_xln; [apply (seq_lik_nonneg _ _ _ _ _ _ _ Rd); assumption|].
    apply (lik_extend nc nf); assumption.
  - rewrite <- xln_1. apply xle_xln; [apply (seq_lik_nonneg _ _ _ _ _ _ _ Rd); assumption|].
    apply (lik_le_1 nc nf); assumption.
Qed.

(** ** C11 *)
Lemma sumL_perm {X} (f : X -> R) l l' : Permutation l l' -> sumL f l = sumL f l'.
Proof. induction 1; simpl; lra. Qed.

Section Perm.
  Variables (nc : nat) (s : nat -> nat).
  Hypothesis Hs : permutes nc s.

  Lemma perm_seq : Permutation (map s (seq 0 nc)) (seq 0 nc).
  Proof.
    destruct Hs as [H1 H2].
    assert (Hnd : NoDup (map s (seq 0 nc))).
    { apply (NoDup_nth _ (s 0%nat)). rewrite map_length, seq_length. intros i j Hi Hj.
      rewrite !map_nth, !seq_nth by assumption. apply H2; assumption. }
    apply NoDup_Permutation_bis; [exact Hnd|rewrite map_length; lia|].
    intros i Hi. apply in_map_iff in Hi as (k & <- & Hk). apply in_seq in Hk. apply in_seq.
    specialize (H1 k ltac:(lia)). lia.
  Qed.

  Lemma sumn_perm f : sumn nc (fun i => f (s i)) = sumn nc f.
  Proof.
    rewrite <- (sumL_seq0 f nc), <- (sumL_perm f _ _ perm_seq), sumL_map. symmetry. apply sumL_seq0.
  Qed.

  Lemma sum_paths_perm T : forall F, sumL (fun z => F (map s z)) (all_paths nc T) = sumL F (all_paths nc T).
  Proof.
    induction T as [|T IH]; intros F; [reflexivity|]. rewrite !sumL_paths_S. cbn [map].
    rewrite <- (sumn_perm (fun k => sumL (fun z => F (k :: z)) (all_paths nc T))).
    apply sumn_ext; intros i _. apply (IH (fun z => F (s i :: z))).
  Qed.

  Context {X : Type}.
  Variables (pi : nat -> R) (A : nat -> nat -> R) (b : X -> nat -> R).
  Notation pi' := (fun i => pi (s i)).
  Notation A' := (fun i j => A (s i) (s j)).
  Notation b' := (fun o i => b o (s i)).

  Lemma nth_map_s t z : (t < length z)%nat -> nth t (map s z) 0%nat = s (nth t z 0%nat).
  Proof. intros H. rewrite (nth_indep _ 0%nat (s 0%nat)) by (rewrite map_length; exact H). apply map_nth. Qed.

  Lemma obsB_perm x t i : obsB b' x t i = obsB b x t (s i).
  Proof. reflexivity. Qed.

  Lemma joint_perm x z : x <> [] -> length z = length x -> seq_joint pi' A' b' x z = seq_joint pi A b x (map s z).
  Proof.
    intros Hx Hz. unfold seq_joint, joint. assert (0 < length x)%nat by (destruct x; [contradiction|simpl; lia]).
    rewrite nth_map_s by lia. f_equal; [f_equal|].
    - apply prodn_ext; intros t Ht. rewrite !nth_map_s by lia. reflexivity.
    - apply prodn_ext; intros t Ht. rewrite nth_map_s by lia. reflexivity.
  Qed.

  Lemma lik_perm x : x <> [] -> seq_lik nc pi' A' b' x = seq_lik nc pi A b x.
  Proof.
    intros Hx. unfold seq_lik, likelihood. rewrite <- (sum_paths_perm (length x) (joint (length x) pi A (obsB b x))). apply sumL_ext; intros z Hz.
    apply (joint_perm x z Hx). apply (path_length nc _ _ Hz).
  Qed.

  Lemma post_perm x t i : x <> [] -> (t < length x)%nat -> (i < nc)%nat ->
    seq_post nc pi' A' b' x t i = seq_post nc pi A b x t (s i).
  Proof.
    intros Hx Ht Hi. unfold seq_post, posterior. pose proof (lik_perm x Hx) as HL. unfold seq_lik in HL. rewrite HL. f_equal. clear HL.
    unfold marginal. rewrite !sumL_filter.
    rewrite <- (sum_paths_perm (length x) (fun z => if Nat.eqb (nth t z 0%nat) (s i) then joint (length x) pi A (obsB b x) z else 0)).
    apply sumL_ext; intros z Hz. pose proof (path_length nc _ _ Hz) as Hl.
    rewrite nth_map_s by lia.
    assert (He : Nat.eqb (s (nth t z 0%nat)) (s i) = Nat.eqb (nth t z 0%nat) i).
    { apply in_all_paths in Hz as [_ Hz]. specialize (Hz t Ht).
      destruct (Nat.eqb_spec (nth t z 0%nat) i) as [->|Hn]; [apply Nat.eqb_refl|].
      apply Nat.eqb_neq. intros Heq. apply Hn. apply (proj2 Hs); assumption. }
    rewrite He. destruct (Nat.eqb (nth t z 0%nat) i); [|reflexivity]. apply (joint_perm x z Hx Hl).
  Qed.

  Lemma path_map_s T z : is_path nc T z -> is_path nc T (map s z).
  Proof.
    intros [H1 H2]. split; [rewrite map_length; exact H1|]. intros t Ht.
    rewrite nth_map_s by lia. apply (proj1 Hs), H2, Ht.
  Qed.

  (** Every state is the image of one. *)
  Lemma s_onto i : (i < nc)%nat -> exists k, (k < nc)%nat /\ s k = i.
  Proof.
    intros Hi. assert (Hin : In i (map s (seq 0 nc))).
    { apply Permutation_in with (seq 0 nc); [apply Permutation_sym, perm_seq|]. apply in_seq; lia. }
    apply in_map_iff in Hin as (k & Hk & Hin). apply in_seq in Hin. exists k. split; [lia|exact Hk].
  Qed.
  Lemma path_onto T z : is_path nc T z -> exists z', is_path nc T z' /\ map s z' = z.
  Proof.
    revert z; induction T as [|T IH]; intros z [H1 H2].
    - exists []. destruct z; [|discriminate]. split; [split; [reflexivity|intros; lia]|reflexivity].
    - destruct z as [|i z]; [discriminate|]. injection H1 as H1.
      destruct (IH z) as (z' & [P1 P2] & <-).
      { split; [exact H1|]. intros t Ht. apply (H2 (S t)). lia. }
      destruct (s_onto i (H2 0%nat ltac:(lia))) as (k & Hk & <-).
      exists (k :: z'). split; [|reflexivity]. split; [simpl; lia|].
      intros [|t] Ht; [exact Hk|]. apply P2. lia.
  Qed.

  Lemma best_perm x z : x <> [] -> best_path nc pi' A' b' x z -> best_path nc pi A b x (map s z).
  Proof.
    intros Hx [H1 H2]. split; [apply path_map_s; exact H1|]. intros w Hw.
    destruct (path_onto _ w Hw) as (w' & Hw' & <-).
    rewrite <- (joint_perm x w' Hx (proj1 Hw')), <- (joint_perm x z Hx (proj1 H1)). apply H2. exact Hw'.
  Qed.
End Perm.

Section Relabel.
  Context {P X St P2 St2 : Type} (E : emclass P X St) (E2 : emclass P2 X St2) (h : hmm P) (h2 : hmm P2).
  Variables (nc : nat) (pi : nat -> R) (A : nat -> nat -> R) (ok : X -> Prop) (b : X -> nat -> R) (s : nat -> nat).
  Hypothesis Hs : permutes nc s.
  Hypothesis R1 : ready E h nc pi A ok b.
  Hypothesis R2 : ready E2 h2 nc (fun i => pi (s i)) (fun i j => A (s i) (s j)) ok (fun o i => b o (s i)).

  Lemma relabel_score x : x <> [] -> Forall ok x ->
    c_impl (h_cfg h) = "log"%string -> c_impl (h_cfg h2) = "log"%string ->
    score E2 exact h2 x None = score E exact h x None.
  Proof.
    intros Hx Hok H1 H2.
    rewrite (score_log_single E h nc pi A ok b R1 x H1 Hx Hok).
    rewrite (score_log_single E2 h2 _ _ _ ok _ R2 x H2 Hx Hok).
    do 2 f_equal. apply (lik_perm nc s Hs pi A b x Hx).
  Qed.

  Lemma relabel_post x : x <> [] -> Forall ok x ->
    c_impl (h_cfg h) = "log"%string -> c_impl (h_cfg h2) = "log"%string ->
    0 < seq_lik nc pi A b x ->
    exists g g', predict_proba E exact h x None = Ok (fmat (length x) nc g)
      /\ predict_proba E2 exact h2 x None = Ok (fmat (length x) nc g')
      /\ forall t i, (t < length x)%nat -> (i < nc)%nat -> g' t i = g t (s i).
  Proof.
    intros Hx Hok H1 H2 HL.
    exists (seq_post nc pi A b x), (seq_post nc (fun i => pi (s i)) (fun i j => A (s i) (s j)) (fun o i => b o (s i)) x).
    unfold predict_proba. split; [|split].
    - rewrite (scorable_single_samples E h nc pi A ok b R1 x Hx Hok (or_introl (conj H1 HL))). reflexivity.
    - rewrite (scorable_single_samples E2 h2 nc _ _ ok _ R2 x Hx Hok); [reflexivity|].
      left. split; [exact H2|]. rewrite (lik_perm nc s Hs pi A b x Hx). exact HL.
    - intros t i Ht Hi. apply (post_perm nc s Hs pi A b x t i Hx Ht Hi).
  Qed.

  Lemma relabel_viterbi x : x <> [] -> Forall ok x ->
    exists v z z', decode E exact h x None (Some "viterbi"%string) = Ok (v, z)
      /\ decode E2 exact h2 x None (Some "viterbi"%string) = Ok (v, z')
      /\ best_path nc pi A b x z /\ best_path nc pi A b x (map s z').
  Proof.
    intros Hx Hok.
    destruct (viterbi_single E h nc pi A ok b R1 x (Some "viterbi"%string) Hx Hok (or_introl eq_refl)) as (z & D1 & B1).
    destruct (viterbi_single E2 h2 nc _ _ ok _ R2 x (Some "viterbi"%string) Hx Hok (or_introl eq_refl)) as (z' & D2 & B2).
    pose proof (best_perm nc s Hs pi A b x z' Hx B2) as B3.
    exists (xln (seq_joint pi A b x z)), z, z'. split; [exact D1|]. split; [|split; assumption].
    rewrite D2. do 3 f_equal. rewrite (joint_perm s pi A b x z' Hx (proj1 (proj1 B2))).
    apply Rle_antisym; [apply B1, B3|apply B3, B1].
  Qed.
End Relabel.

(** ** C44 *)
Lemma normalize1_contract n w : sumn n w <> 0 ->
  exists v, normalize1 exact (fvec n w) = fvec n v /\ sumn n v = 1
    /\ forall i, (i < n)%nat -> v i * sumn n w = w i.
Proof.
  intros H. exists (normalised n w). split; [apply normalize1_fvec; exact H|]. split; [apply normalised_sum; exact H|].
  intros i Hi. unfold normalised. destruct (Req_EM_T _ _); [contradiction|]. field. exact H.
Qed.

Lemma normalize_rows_contract r c w : exists v, normalize_rows exact (fmat r c w) = fmat r c v
  /\ forall i, (i < r)%nat ->
      (sumn c (w i) <> 0 -> sumn c (v i) = 1 /\ forall j, (j < c)%nat -> v i j * sumn c (w i) = w i j)
      /\ (sumn c (w i) = 0 -> forall j, (j < c)%nat -> v i j = w i j).
Proof.
  exists (fun i => normalised c (w i)). split; [apply normalize_rows_fmat|]. intros i Hi. split.
  - intros H. split; [apply normalised_sum; exact H|]. intros j Hj. unfold normalised.
    destruct (Req_EM_T _ _); [contradiction|]. field. exact H.
  - intros H j Hj. unfold normalised. destruct (Req_EM_T _ _); [reflexivity|contradiction].
Qed.

Lemma log_normalize_row_xln n f : (0 < n)%nat -> nonneg1 n f -> 0 < sumn n f ->
  log_normalize_row exact (tab n (fun i => xln (f i))) = tab n (fun i => xln (f i / sumn n f)).
Proof.
  intros Hn Hf HS. unfold log_normalize_row. rewrite sp_logsumexp_xln by assumption. rewrite tab_map.
  apply tab_ext; intros i Hi. apply xsub_xln; [apply Hf; exact Hi|exact HS].
Qed.

(** A matrix of logarithms of the non-negative numbers [f]; every row has a
    finite entry. *)
Lemma log_normalize_contract r c f : (1 < c)%nat -> nonneg2 r c f ->
  (forall i, (i < r)%nat -> 0 < sumn c (f i)) ->
  exists g, log_normalize_rows exact (lmat r c f) = lmat r c g
    /\ forall i, (i < r)%nat -> nonneg1 c (g i) /\ sumn c (g i) = 1
        /\ (forall j, (j < c)%nat -> xexp exact (mget (lmat r c g) i j) = Fin (g i j))
        /\ (forall j k, (j < c)%nat -> (k < c)%nat -> 0 < f i j -> 0 < f i k ->
              ln (g i j) - ln (g i k) = ln (f i j) - ln (f i k)).
Proof.
  intros Hc Hf HS. exists (fun i j => f i j / sumn c (f i)). split.
  - unfold log_normalize_rows, lmat. rewrite ncol_mtab. destruct (Nat.eqb_spec c 1); [lia|].
    unfold mtab. cbn [rows]. f_equal. rewrite tab_map. apply tab_ext; intros i Hi.
    apply log_normalize_row_xln; [lia|intros j Hj; apply Hf; assumption|apply HS; exact Hi].
  - intros i Hi. specialize (HS i Hi).
    assert (Hg : forall j, (j < c)%nat -> 0 <= f i j / sumn c (f i)).
    { intros j Hj. apply Rmult_le_pos; [apply Hf; assumption|]. left. apply Rinv_0_lt_compat. exact HS. }
    split; [exact Hg|]. split; [rewrite sumn_div; field; lra|]. split.
    + intros j Hj. rewrite mget_lmat by assumption. apply xexp_xln. apply Hg. exact Hj.
    + intros j k Hj Hk H1 H2. assert (Hd : forall u, 0 < u -> ln (u / sumn c (f i)) = ln u - ln (sumn c (f i))).
      { intros u Hu. unfold Rdiv. rewrite ln_mult, ln_Rinv; [ring|exact HS|exact Hu|apply Rinv_0_lt_compat; exact HS]. }
      rewrite !Hd by assumption. ring.
Qed.

(** A single column is set to 0, whatever it held. *)
Lemma log_normalize_single r f : log_normalize_rows exact (lmat r 1 f) = mtab r 1 (fun _ _ => Fin 0).
Proof.
  unfold log_normalize_rows, lmat. rewrite ncol_mtab. cbn [Nat.eqb]. unfold mtab. cbn [rows]. f_equal.
  rewrite tab_map. apply tab_ext; intros i Hi. reflexivity.
Qed.

(** ** C30 *)
Lemma np_index_too_large n k : (Z.of_nat n <= k)%Z -> np_index n k = Err IndexError.
Proof.
  intros H. unfold np_index.
  destruct (Z.ltb_spec k (Z.of_nat n)); [lia|]. rewrite andb_false_r.
  destruct (Z.ltb_spec k 0); [lia|]. rewrite andb_false_r. reflexivity.
Qed.
Lemma np_index_too_small n k : (k < - Z.of_nat n)%Z -> np_index n k = Err IndexError.
Proof.
  intros H. unfold np_index.
  destruct (Z.leb_spec 0 k); [lia|]. cbn [andb]. destruct (Z.leb_spec (- Z.of_nat n) k); [lia|]. reflexivity.
Qed.
Lemma np_index_wrap n k : (- Z.of_nat n <= k < 0)%Z -> np_index n k = Ok (Z.to_nat (k + Z.of_nat n)).
Proof.
  intros H. unfold np_index. destruct (Z.leb_spec 0 k); [lia|]. cbn [andb].
  destruct (Z.leb_spec (- Z.of_nat n) k); [|lia]. destruct (Z.ltb_spec k 0); [|lia]. reflexivity.
Qed.

Lemma np_index_wrapped nf k : indexable nf k -> np_index nf k = Ok (Z.to_nat (wrapped nf k)).
Proof.
  unfold indexable, wrapped. intros H. destruct (Z.ltb_spec k 0).
  - apply np_index_wrap. lia.
  - apply np_index_in. lia.
Qed.
Lemma np_index_out nf k : ~ indexable nf k -> np_index nf k = Err IndexError.
Proof.
  unfold indexable. intros H. destruct (Z.ltb_spec k (- Z.of_nat nf)).
  - apply np_index_too_small. lia.
  - apply np_index_too_large. lia.
Qed.

Lemma map_res_index nf x : Forall (indexable nf) x ->
  map_res (np_index nf) x = map_res (np_index nf) (map (wrapped nf) x).
Proof.
  induction 1 as [|k x Hk Hx IH]; [reflexivity|]. cbn [map map_res]. rewrite <- IH.
  rewrite (np_index_wrapped nf k Hk).
  rewrite (np_index_in nf (wrapped nf k)); [reflexivity|]. unfold wrapped, indexable in *. destruct (Z.ltb_spec k 0); lia.
Qed.
Lemma map_res_out nf x : Exists (fun k => ~ indexable nf k) x -> map_res (np_index nf) x = Err IndexError.
Proof.
  induction x as [|k x IH]; intros H; [inversion H|]. cbn [map_res].
  destruct (Classical_Prop.classic (indexable nf k)) as [Hk|Hk].
  - rewrite (np_index_wrapped nf k Hk). cbn [bind]. rewrite IH; [reflexivity|].
    inversion H; subst; [contradiction|assumption].
  - rewrite (np_index_out nf k Hk). reflexivity.
Qed.

Lemma cat_check_array (x : list Z) : x <> [] -> check_array (ec_xok categorical) x = Ok x.
Proof.
  intros Hx. apply check_array_intro; [exact Hx|]. clear. cbn [categorical ec_xok]. induction x; [reflexivity|exact IHx].
Qed.

Section Symbols.
  Variables (h : hmm catp) (nc nf : nat) (pi : nat -> R) (A e : nat -> nat -> R).
  Hypothesis CM : cat_model h nc nf pi A e.

  Lemma cat_fitted : fitted_check categorical exact h = Ok (checked h nf, fvec nc pi, fmat nc nc A).
  Proof.
    unfold fitted_check. rewrite (cm_start _ _ _ _ _ _ CM), (cat_model_check h nc nf pi A e CM). cbn [bind checked h_start h_trans].
    rewrite (cm_start _ _ _ _ _ _ CM), (cm_trans _ _ _ _ _ _ CM). reflexivity.
  Qed.

  Lemma cat_liks x : lik categorical exact (checked h nf) x
     = (do ks <- map_res (np_index nf) x;
        Ok (Mat nc (map (fun k => tab nc (fun i => mget (fmat nc nf e) i k)) ks))).
  Proof.
    unfold lik. cbn [categorical ec_lik]. unfold cat_lik, checked. cbn [h_em h_cfg h_nfeat].
    rewrite (cm_em _ _ _ _ _ _ CM). unfold fmat, mtab. cbn [ncol]. unfold nrow. cbn [rows]. rewrite tab_length. reflexivity.
  Qed.

  Lemma symbols_out x alg : x <> [] -> Exists (fun k => ~ indexable nf k) x ->
    (c_impl (h_cfg h) = "log"%string \/ c_impl (h_cfg h) = "scaling"%string) ->
    (alg = "viterbi"%string \/ alg = "map"%string) ->
    score categorical exact h x None = Err IndexError
    /\ predict_proba categorical exact h x None = Err IndexError
    /\ decode categorical exact h x None (Some alg) = Err IndexError.
  Proof.
    intros Hx Hout Hi Ha.
    assert (Hca : check_array (ec_xok categorical) x = Ok x).
    { apply cat_check_array. exact Hx. }
    assert (HL : lik categorical exact (checked h nf) x = Err IndexError).
    { rewrite cat_liks, map_res_out by exact Hout. reflexivity. }
    assert (HLL : loglik categorical exact (checked h nf) x = Err IndexError).
    { unfold loglik, lik in *. cbn [categorical ec_loglik ec_lik] in *. unfold loglik_of_lik. rewrite HL. reflexivity. }
    assert (HS : forall post, score_ categorical exact h x None post = Err IndexError).
    { intros post. unfold score_. rewrite cat_fitted. cbn [bind]. rewrite Hca. cbn [bind].
      destruct Hi as [-> | ->]; cbn [String.eqb Ascii.eqb Bool.eqb bind split_X_lengths acc_seqs];
        cbn [bind split_X_lengths acc_seqs]; unfold score_log_seq, score_scaling_seq; rewrite ?HL, ?HLL; reflexivity. }
    assert (HS2 : forall post, score_ categorical exact (checked h nf) x None post = Err IndexError).
    { intros post. rewrite <- (HS post). unfold score_. rewrite cat_fitted.
      assert (Hck : fitted_check categorical exact (checked h nf) = Ok (checked h nf, fvec nc pi, fmat nc nc A)).
      { pose proof (after_same categorical exact h (cat_stable exact)) as (_ & _ & _ & _ & H).
        unfold after_call in H. rewrite (cat_model_check h nc nf pi A e CM) in H. rewrite H. apply cat_fitted. }
      rewrite Hck. reflexivity. }
    split; [unfold score; rewrite HS; reflexivity|].
    split; [unfold predict_proba, score_samples; rewrite HS; reflexivity|].
    unfold decode. rewrite cat_fitted. cbn [bind].
    destruct Ha as [-> | ->]; cbn [String.eqb Ascii.eqb Bool.eqb bind]; cbn [bind]; rewrite Hca; cbn [bind split_X_lengths acc_seqs].
    - unfold decode_viterbi. rewrite HLL. reflexivity.
    - unfold decode_map, score_samples. rewrite HS2. reflexivity.
  Qed.

  Lemma symbols_wrap x : x <> [] -> Forall (indexable nf) x ->
    score categorical exact h x None = score categorical exact h (map (wrapped nf) x) None
    /\ Forall (sym_ok nf) (map (wrapped nf) x).
  Proof.
    intros Hx Hin. split.
    - assert (HL : lik categorical exact (checked h nf) x = lik categorical exact (checked h nf) (map (wrapped nf) x)).
      { rewrite !cat_liks, (map_res_index nf x Hin). reflexivity. }
      assert (HLL : loglik categorical exact (checked h nf) x = loglik categorical exact (checked h nf) (map (wrapped nf) x)).
      { unfold loglik, lik in *. cbn [categorical ec_loglik ec_lik] in *. unfold loglik_of_lik. rewrite HL. reflexivity. }
      unfold score, score_. rewrite cat_fitted. cbn [bind].
      rewrite !cat_check_array by first [exact Hx | destruct x; [contradiction|discriminate]].
      cbn [bind split_X_lengths].
      destruct (String.eqb _ "scaling"); [|destruct (String.eqb _ "log"); [|reflexivity]];
        cbn [bind acc_seqs]; unfold score_scaling_seq, score_log_seq; rewrite ?HL, ?HLL; reflexivity.
    - apply Forall_forall. intros k Hk. apply in_map_iff in Hk as (k' & <- & Hk').
      rewrite Forall_forall in Hin. specialize (Hin k' Hk'). unfold indexable, sym_ok, wrapped in *. destruct (Z.ltb_spec k' 0); lia.
  Qed.
End Symbols.

Lemma negative_accepted : exists h x v, (exists k, In k x /\ (k < 0)%Z)
  /\ score categorical exact h x None = Ok v /\ v <> NInf.
Proof.
  pose proof (symbols_wrap (ex_h "log" "viterbi") 2 3 ex_pi ex_A ex_e (ex_model _ _) [0; 1; -1]%Z) as [H1 _]; [discriminate| |].
  { repeat constructor; unfold indexable; simpl; lia. }
  exists (ex_h "log" "viterbi"), [0; 1; -1]%Z, (xln (3/128)). split; [exists (-1)%Z; simpl; split; [tauto|lia]|].
  split; [|rewrite xln_pos by lra; discriminate].
  rewrite H1. change (map (wrapped 3) [0; 1; -1]%Z) with ex_x.
  rewrite (score_log_single categorical _ 2 ex_pi ex_A _ _ (ex_ready "log" "viterbi") ex_x eq_refl ltac:(discriminate) ex_x_ok).
  rewrite ex_lik. reflexivity.
Qed.

(** ** C28 *)
(** One row of log-likelihoods per sample. *)
Definition one_row_each {P X St} (E : emclass P X St) : Prop :=
  forall fp c nf p x m, (ec_loglik E fp c nf p x = Ok m \/ ec_lik E fp c nf p x = Ok m) -> nrow m = length x.

Lemma map_res_length {A B} (f : A -> res B) l r : map_res f l = Ok r -> length r = length l.
Proof.
  revert r; induction l as [|a l IH]; intros r H; cbn [map_res] in H; [injection H as <-; reflexivity|].
  destruct (f a); [|discriminate]. cbn [bind] in H. destruct (map_res f l) as [ys|] eqn:Em; [|discriminate].
  cbn [bind] in H. injection H as <-. simpl. rewrite (IH ys eq_refl). reflexivity.
Qed.

Lemma cat_one_row : one_row_each categorical.
Proof.
  assert (HL : forall fp c nf p x m, cat_lik fp c nf p x = Ok m -> nrow m = length x).
  { intros fp c nf p x m H. unfold cat_lik in H. destruct (cat_prob p) as [e|]; [|discriminate].
    destruct (map_res _ x) as [ks|] eqn:Em; [|discriminate]. cbn [bind] in H. injection H as <-.
    unfold nrow. cbn [rows]. rewrite map_length. apply (map_res_length _ _ _ Em). }
  intros fp c nf p x m [H|H]; cbn [categorical ec_loglik ec_lik] in H; [|apply (HL _ _ _ _ _ _ H)].
  unfold loglik_of_lik in H. destruct (cat_lik fp c nf p x) as [m'|] eqn:El; [|discriminate].
  cbn [bind] in H. injection H as <-. rewrite <- (HL _ _ _ _ _ _ El). unfold mlog, mmap, nrow. cbn [rows].
  apply map_length.
Qed.

Lemma iterate_last_start {P X St} (E : emclass P X St) (x : list X) ls k : forall h h' vs,
  iterate (em_step E exact x (as_lengths ls)) (S k) h = Ok (h', vs) -> exists s, h_start h' = Some s.
Proof.
  induction k as [|k IH]; intros h h' vs H; rewrite iterate_S in H;
    destruct (em_step E exact x (as_lengths ls) h) as [[h1 v]|] eqn:Es; try discriminate; cbn [bind] in H.
  - cbn [iterate bind] in H. injection H as <- <-. unfold em_step in Es.
    destruct (h_start h); [|discriminate]. destruct (h_trans h); [|discriminate].
    destruct (do_estep _ _ _ _ _ _ _) as [[? ?]|]; [|discriminate]. cbn [bind] in Es. unfold do_mstep in Es.
    destruct (ec_mstep _ _ _ _ _ _); [|discriminate]. cbn [bind] in Es. injection Es as <- <-. eexists; reflexivity.
  - destruct (iterate _ (S k) h1) as [[h2 vs2]|] eqn:Ei; [|discriminate]. cbn [bind] in H. injection H as <- <-.
    apply (IH h1 h2 vs2 Ei).
Qed.

Section ZeroRows.
  Context {P X St : Type} (E : emclass P X St).
  Hypothesis H1 : one_row_each E.

  Lemma estep_no_pairs h s t l : (forall c, In c l -> length c = 1%nat) -> forall st lp st' lp',
    estep_loop E exact h s t st lp l = Ok (st', lp') -> st_trans st' = st_trans st.
  Proof.
    induction l as [|c l IH]; intros Hl st lp st' lp' H; cbn [estep_loop] in H.
    - injection H as <- <-. reflexivity.
    - destruct (estep_seq E exact h s t st c) as [[st1 v]|] eqn:Es; [|discriminate]. cbn [bind] in H.
      rewrite (IH (fun c Hc => Hl c (or_intror Hc)) _ _ _ _ H).
      unfold estep_seq in Es.
      destruct (if String.eqb _ _ then _ else _) as [li|]; [|discriminate]. cbn [bind] in Es.
      destruct (if (li : bool) then fit_log E exact h s t c else _) as [[[[[lat q] post] fwd] bwd]|] eqn:Ef; [|discriminate].
      cbn [bind] in Es.
      assert (Hn : (nrow lat <= 1)%nat).
      { destruct li.
        - unfold fit_log in Ef. destruct (loglik E exact h c) as [m|] eqn:El; [|discriminate]. cbn [bind] in Ef.
          destruct (forward_log _ _ _ _) as [[? ?]|]; [|discriminate]. cbn [bind] in Ef.
          destruct (backward_log _ _ _ _); [|discriminate]. injection Ef as <- _ _ _ _.
          rewrite (H1 _ _ _ _ _ _ (or_introl El)), (Hl c (or_introl eq_refl)). lia.
        - unfold fit_scaling in Ef. destruct (lik E exact h c) as [m|] eqn:El; [|discriminate]. cbn [bind] in Ef.
          destruct (forward_scaling _ _ _ _) as [[[? ?] ?]|]; [|discriminate]. cbn [bind] in Ef.
          destruct (backward_scaling _ _ _ _ _); [|discriminate]. injection Ef as <- _ _ _ _.
          rewrite (H1 _ _ _ _ _ _ (or_intror El)), (Hl c (or_introl eq_refl)). lia. }
      unfold acc_base in Es. apply Nat.leb_le in Hn. rewrite Hn in Es.
      destruct (has "t" _); cbn [bind] in Es;
        (destruct (ec_acc _ _ _ _ _ _ _ _); [|discriminate]; injection Es as <- <-; reflexivity).
  Qed.

  Variables (ls : list nat) (x : list X).
  Hypothesis Hls : ls <> [].
  Hypothesis Hsum : fold_right Nat.add 0%nat ls = length x.
  Hypothesis Hone : Forall (fun n => n = 1%nat) ls.

  Lemma chunks_one c : In c (chunks ls x) -> length c = 1%nat.
  Proof.
    clear Hls. revert x Hsum. induction Hone as [|n l Hn Hl IH]; intros y Hs Hc; [destruct Hc|].
    cbn [chunks] in Hc. cbn [fold_right] in Hs. subst n. destruct Hc as [<-|Hc].
    - rewrite firstn_length. lia.
    - apply (IH Hl (skipn 1 y)); [rewrite skipn_length; lia|exact Hc].
  Qed.

  Definition zero_trans (h : hmm P) : Prop := h_trans h = Some (fmat (c_nc (h_cfg h)) (c_nc (h_cfg h)) (fun _ _ => 0)).

  Lemma em_step_zero h h' v : c_tprior (h_cfg h) = Scal (Fin 1) -> has "t" (c_params (h_cfg h)) = true ->
    em_step E exact x (as_lengths ls) h = Ok (h', v) -> zero_trans h' /\ h_cfg h' = h_cfg h.
  Proof.
    intros Hp Ht H. unfold em_step in H. destruct (h_start h) as [s|]; [|discriminate].
    destruct (h_trans h) as [t|]; [|discriminate].
    destruct (do_estep E exact h s t x (as_lengths ls)) as [[st lp]|] eqn:Ee; [|discriminate]. cbn [bind] in H.
    unfold do_mstep in H. destruct (ec_mstep _ _ _ _ _ _); [|discriminate]. cbn [bind] in H. injection H as <- <-.
    split; [|reflexivity]. unfold zero_trans. cbn [h_trans h_cfg]. f_equal. unfold mstep_trans. rewrite Ht, Hp.
    assert (Hst : st_trans st = mtab (c_nc (h_cfg h)) (c_nc (h_cfg h)) (fun _ _ => Fin 0)).
    { unfold do_estep in Ee. destruct (_ || _); [|discriminate].
      rewrite split_X_lengths_chunks in Ee by assumption. cbn [bind] in Ee.
      rewrite (estep_no_pairs h s t _ chunks_one _ _ _ _ Ee). reflexivity. }
    rewrite Hst.
    assert (Hm : forall i j, (i < c_nc (h_cfg h))%nat -> (j < c_nc (h_cfg h))%nat ->
      (if xeqb (mget t i j) (Fin 0) then Fin 0
       else np_maximum (xadd exact (xsub exact (pget2 (Scal (Fin 1)) i j) (Fin 1))
              (mget (mtab (c_nc (h_cfg h)) (c_nc (h_cfg h)) (fun _ _ => Fin 0)) i j)) (Fin 0)) = Fin 0).
    { intros i j Hi Hj. destruct (xeqb _ _); [reflexivity|]. rewrite mget_mtab by assumption.
      change (np_maximum (Fin (1 - 1 + 0)) (Fin 0) = Fin 0). rewrite np_maximum_fin. f_equal.
      apply Rmax_right. lra. }
    rewrite (mtab_ext _ _ _ (fun _ _ => Fin 0) Hm).
    change (mtab (c_nc (h_cfg h)) (c_nc (h_cfg h)) (fun _ _ => Fin 0)) with (fmat (c_nc (h_cfg h)) (c_nc (h_cfg h)) (fun _ _ => 0)).
    rewrite normalize_rows_fmat. apply fmat_ext. intros i j Hi Hj. unfold normalised.
    rewrite sumn_0. destruct (Req_EM_T 0 0); [reflexivity|lra].
  Qed.

  Lemma iterate_zero k : forall h h' vs, c_tprior (h_cfg h) = Scal (Fin 1) -> has "t" (c_params (h_cfg h)) = true ->
    iterate (em_step E exact x (as_lengths ls)) (S k) h = Ok (h', vs) -> zero_trans h' /\ h_cfg h' = h_cfg h.
  Proof.
    induction k as [|k IH]; intros h h' vs Hp Ht H; rewrite iterate_S in H;
      destruct (em_step E exact x (as_lengths ls) h) as [[h1 v]|] eqn:Es; try discriminate; cbn [bind] in H;
      destruct (em_step_zero h h1 v Hp Ht Es) as [Z1 C1].
    - cbn [iterate bind] in H. injection H as <- <-. split; assumption.
    - destruct (iterate _ (S k) h1) as [[h2 vs2]|] eqn:Ei; [|discriminate]. cbn [bind] in H. injection H as <- <-.
      rewrite <- C1. apply (IH h1 h2 vs2); [rewrite C1; exact Hp|rewrite C1; exact Ht|exact Ei].
  Qed.

  Lemma zero_trans_rejected h s : zero_trans h -> h_start h = Some s -> (0 < c_nc (h_cfg h))%nat ->
    exists w,
      (forall x ls post, score_ E exact h x ls post = Err (ValueError w))
      /\ (forall x ls alg, decode E exact h x ls alg = Err (ValueError w))
      /\ (forall G Y (rand : G -> R * G) (gen : hmm P -> Z -> G -> res (Y * G)) n cs g,
            sample E exact rand gen h n cs g = Err (ValueError w))
      /\ (forall x ls, fit_from E exact h x ls = Err (ValueError w)).
  Proof.
    intros Hz Hs Hn. apply (methods_reject E h s _ Hs Hz (wf_mtab _ _ _)).
    intros [_ (F & HF & HS)]. specialize (HS 0%nat Hn).
    assert (H0 : sumn (c_nc (h_cfg h)) (F 0%nat) = 0).
    { apply sumn_zero. intros j Hj. assert (Hg : mget (fmat (c_nc (h_cfg h)) (c_nc (h_cfg h)) (fun _ _ => 0)) 0 j = Fin (F 0%nat j)).
      { rewrite HF. apply mget_fmat; assumption. }
      rewrite mget_fmat in Hg by assumption. injection Hg as <-. reflexivity. }
    rewrite H0 in HS. unfold near1 in HS. replace (0 - 1) with (- (1)) in HS by ring.
    rewrite Rabs_Ropp, Rabs_R1 in HS. lra.
  Qed.

  Lemma fit_no_pairs h h' ev : c_tprior (h_cfg h) = Scal (Fin 1) -> has "t" (c_params (h_cfg h)) = true ->
    (0 < c_n_iter (h_cfg h))%nat -> (0 < c_nc (h_cfg h))%nat ->
    fit_from E exact h x (as_lengths ls) = Ok (h', ev) ->
    exists w,
      (forall x ls post, score_ E exact h' x ls post = Err (ValueError w))
      /\ (forall x ls alg, decode E exact h' x ls alg = Err (ValueError w))
      /\ (forall G Y (rand : G -> R * G) (gen : hmm P -> Z -> G -> res (Y * G)) n cs g,
            sample E exact rand gen h' n cs g = Err (ValueError w))
      /\ (forall x ls, fit_from E exact h' x ls = Err (ValueError w)).
  Proof.
    intros Hp Ht Hn Hnc Hf. destruct (fit_from_trace _ _ _ _ _ _ _ Hf) as (h1 & h2 & vs & Hc & Hi & Hh' & El).
    destruct (fit_loop_trace _ _ _ _ _ _ _ _ _ El) as (vs' & _ & Hm & _ & Hlen & _).
    assert (vs' = vs) by (unfold mon_after in Hm; cbn [monitor_reset m_history app] in Hm; injection Hm; auto). subst vs'.
    destruct (check_fields E exact h h1 Hc) as (Hcfg & _).
    destruct vs as [|v vs].
    { exfalso. destruct Hlen as [Hlen|[_ Hlen]]; [rewrite Hcfg in Hlen; simpl in Hlen; lia|contradiction Hlen; reflexivity]. }
    destruct (iterate_zero (length vs) h1 h2 (v :: vs)) as [HZ HC]; [rewrite Hcfg; exact Hp|rewrite Hcfg; exact Ht|exact Hi|].
    assert (Hs2 : exists s, h_start h2 = Some s).
    { cbn [length] in Hi. destruct (iterate_last_start E x ls _ _ _ _ Hi) as [s Hs]. exists s. exact Hs. }
    destruct Hs2 as [s Hs].
    apply (zero_trans_rejected h' s).
    - unfold zero_trans. rewrite Hh'. cbn [h_trans h_cfg]. rewrite HC, Hcfg. unfold zero_trans in HZ. rewrite HC, Hcfg in HZ. exact HZ.
    - rewrite Hh'. exact Hs.
    - rewrite Hh'. cbn [h_cfg]. rewrite HC, Hcfg. exact Hnc.
  Qed.
End ZeroRows.

Lemma ex_ones : good_data (sym_ok 3) [1; 1; 1]%nat ex_x.
Proof.
  split; [exact ex_x_ok|]. split; [discriminate|]. split; [repeat constructor; lia|reflexivity].
Qed.
Lemma ex_ones_possible : possible 2 ex_pi ex_A (cat_b ex_e) [1; 1; 1]%nat ex_x.
Proof.
  intros c Hc. simpl in Hc. destruct Hc as [<-|[<-|[<-|[]]]];
    rewrite seq_lik_suf; simpl; unfold cat_b, ex_e, ex_pi; simpl; lra.
Qed.

Lemma fit_then_reject : exists h x ls h' ev w,
  fit_from categorical exact h x (as_lengths ls) = Ok (h', ev)
  /\ score categorical exact h' x (as_lengths ls) = Err (ValueError w)
  /\ predict categorical exact h' x (as_lengths ls) = Err (ValueError w).
Proof.
  pose (h := ex_h "log" "viterbi").
  destruct (cat_fit_log_ok h 2 3 ex_pi ex_A ex_e (fun _ => 1) (fun _ _ => 1) (fun _ _ => 1) [1; 1; 1]%nat ex_x) as [[h' ev] Hf].
  - apply ex_model.
  - apply flat_cat_priors. repeat split.
  - exact ex_ones.
  - exact ex_ones_possible.
  - reflexivity.
  - destruct (fit_no_pairs categorical cat_one_row [1; 1; 1]%nat ex_x ltac:(discriminate) eq_refl ltac:(repeat constructor)
               h h' ev eq_refl eq_refl ltac:(simpl; lia) ltac:(simpl; lia) Hf) as (w & H1 & H2 & _).
    exists h, ex_x, [1; 1; 1]%nat, h', ev, w. split; [exact Hf|]. split.
    + unfold score. rewrite H1. reflexivity.
    + unfold predict. rewrite H2. reflexivity.
Qed.

(** Validation of a model whose parameters are stochastic or zero row by row. *)
Lemma stoch_or_zero_near1 n w : stoch_or_zero n w -> (near1 (sumn n w) <-> some_nonzero n w).
Proof.
  intros [Hn [H1|H0]].
  - rewrite H1. split; [|intros _; exact near1_1]. intros _.
    destruct (sumn_pos_ex n w ltac:(lra)) as (k & Hk & Hp). exists k. split; [exact Hk|lra].
  - rewrite (sumn_zero n w H0). split.
    + unfold near1. replace (0 - 1) with (- (1)) by ring. rewrite Rabs_Ropp, Rabs_R1. lra.
    + intros (i & Hi & Hw). contradiction Hw. apply H0. exact Hi.
Qed.

Lemma fitted_check_iff h nc nf pi A e sp tp ep ls x h' ev :
  cat_model h nc nf pi A e -> cat_priors h nc nf sp tp ep ->
  good_data (sym_ok nf) ls x -> possible nc pi A (cat_b e) ls x -> (0 < c_n_iter (h_cfg h))%nat ->
  has "s" (c_params (h_cfg h)) = true -> has "t" (c_params (h_cfg h)) = true -> has "e" (c_params (h_cfg h)) = true ->
  fit_from categorical exact h x (as_lengths ls) = Ok (h', ev) ->
  exists pi' A' e', h_start h' = Some (fvec nc pi') /\ h_trans h' = Some (fmat nc nc A')
    /\ cat_prob (h_em h') = Some (fmat nc nf e')
    /\ ((exists h'', check categorical exact h' = Ok h'')
        <-> forall i, (i < nc)%nat -> some_nonzero nc (A' i) /\ some_nonzero nf (e' i)).
Proof.
  intros CM CP Hd Hp Hn Hs Ht He Hf.
  destruct (C19_fit_l h nc nf pi A e sp tp ep ls x h' ev CM CP Hd Hp Hn Hf)
    as (pi' & A' & e' & Es & Et & Ee & S1 & S2 & S3 & _).
  exists pi', A', e'. split; [exact Es|]. split; [exact Et|]. split; [exact Ee|].
  specialize (S1 Hs). specialize (S2 Ht). specialize (S3 He).
  destruct (fit_from_trace _ _ _ _ _ _ _ Hf) as (h1 & h2 & vs & Hc & Hi & Hh' & _).
  rewrite (cat_model_check h nc nf pi A e CM) in Hc. injection Hc as <-.
  destruct (iterate_keeps _ _ _ _ _ _ _ _ Hi) as (K1 & K2 & _).
  assert (Hcfg : h_cfg h' = h_cfg h) by (rewrite Hh'; cbn [h_cfg]; rewrite K1; reflexivity).
  assert (Hnf : h_nfeat h' = Some nf) by (rewrite Hh'; cbn [h_nfeat]; rewrite K2; reflexivity).
  assert (Hnc : c_nc (h_cfg h') = nc) by (rewrite Hcfg; apply CM).
  split.
  - intros [h'' Hck] i Hi2. unfold check in Hck. rewrite Es, Et, Hnc in Hck.
    destruct (base_check exact nc (fvec nc pi') (fmat nc nc A')) as [[]|] eqn:Eb; [|discriminate]. cbn [bind] in Hck.
    apply base_check_iff in Eb; [|apply wf_mtab]. destruct Eb as [_ (F & HF & HS)].
    split.
    + apply stoch_or_zero_near1; [apply S2; exact Hi2|].
      rewrite (sumn_ext nc (A' i) (F i)); [apply HS; exact Hi2|]. intros j Hj.
      assert (Hg : mget (fmat nc nc A') i j = Fin (F i j)) by (rewrite HF; apply mget_fmat; assumption).
      rewrite mget_fmat in Hg by assumption. injection Hg as ->. reflexivity.
    + apply stoch_or_zero_near1; [apply S3; exact Hi2|].
      cbn [categorical ec_check] in Hck. unfold cat_check in Hck. rewrite Ee in Hck.
      destruct (negb (_ && _)); [discriminate|]. destruct (forallb (check_sum_1 exact) (rows (fmat nc nf e'))) eqn:Efb; [|discriminate].
      apply (forallb_check_rows_inv nc nf e' Efb i Hi2).
  - intros Hnz. unfold check. rewrite Es, Et, Hnc.
    rewrite base_check_ok.
    + cbn [bind categorical ec_check]. destruct (h_em h') as [pr em]. cbn [cat_prob] in Ee. subst em.
      rewrite (cat_check_ok _ _ pr nc nf e'); [eexists; reflexivity|exact Hnc|right; exact Hnf|].
      intros i Hi2. apply stoch_or_zero_near1; [apply S3; exact Hi2|apply Hnz; exact Hi2].
    + rewrite (proj2 S1). exact near1_1.
    + intros i Hi2. apply stoch_or_zero_near1; [apply S2; exact Hi2|apply Hnz; exact Hi2].
Qed.

(** ** Concrete instances. *)
Definition swap2 (i : nat) : nat := match i with 0%nat => 1 | 1%nat => 0 | n => n end.
Lemma swap2_permutes : permutes 2 swap2.
Proof.
  split; [intros [|[|i]] Hi; simpl; lia|]. intros [|[|i]] [|[|j]] Hi Hj; simpl; lia.
Qed.
Definition swapped_h : hmm catp :=
  Hmm (ex_cfg "log" "viterbi") None (Some (fvec 2 (fun i => ex_pi (swap2 i))))
      (Some (fmat 2 2 (fun i j => ex_A (swap2 i) (swap2 j))))
      (Monitor (Fin (/ 100)) 10 false [] 0)
      (Catp (Scal (Fin 1)) (Some (fmat 2 3 (fun i => ex_e (swap2 i))))).
Lemma swapped_ready : ready categorical swapped_h 2 (fun i => ex_pi (swap2 i)) (fun i j => ex_A (swap2 i) (swap2 j))
  (sym_ok 3) (fun o i => cat_b ex_e o (swap2 i)).
Proof.
  apply (cat_ready swapped_h 2 3 _ _ (fun i => ex_e (swap2 i))). constructor; try reflexivity.
  - lia.
  - left; reflexivity.
  - intros [|[|i]] Hi; simpl; lra || lia.
  - replace (sumn 2 (fun i => ex_pi (swap2 i))) with 1 by (simpl; lra). exact near1_1.
  - intros [|[|i]] [|[|j]] Hi Hj; simpl; lra || lia.
  - intros [|[|i]] Hi; [| |lia]; match goal with |- near1 ?s => replace s with 1 by (simpl; lra) end; exact near1_1.
  - intros [|[|i]] [|[|[|j]]] Hi Hj; simpl; lra || lia.
  - intros [|[|i]] Hi; [| |lia]; match goal with |- near1 ?s => replace s with 1 by (simpl; lra) end; exact near1_1.
Qed.
Lemma ex_relabel : permutes 2 swap2 /\ swap2 0 <> 0%nat
  /\ ready categorical (ex_h "log" "viterbi") 2 ex_pi ex_A (sym_ok 3) (cat_b ex_e)
  /\ ready categorical swapped_h 2 (fun i => ex_pi (swap2 i)) (fun i j => ex_A (swap2 i) (swap2 j))
       (sym_ok 3) (fun o i => cat_b ex_e o (swap2 i))
  /\ 0 < seq_lik 2 ex_pi ex_A (cat_b ex_e) ex_x.
Proof.
  split; [exact swap2_permutes|]. split; [discriminate|]. split; [apply ex_ready|]. split; [exact swapped_ready|].
  rewrite ex_lik. lra.
Qed.

Lemma ex_stochastic impl alg : cat_stochastic (ex_h impl alg) 2 3 ex_pi ex_A ex_e.
Proof.
  split; [apply ex_model|]. split; [split; [exact ex_pi_nn|exact ex_pi_sum]|].
  split; intros i Hi; (split; [|first [apply ex_A_sum|apply ex_e_sum]; exact Hi]).
  - intros j Hj. apply ex_A_nn; assumption.
  - intros j Hj. apply ex_e_nn; assumption.
Qed.

Lemma ex_zero_length : score categorical exact (ex_h "log" "viterbi") ex_x (as_lengths [2; 0; 1]%nat) = Err UB.
Proof.
  apply (zero_length_ub categorical _ 2 ex_pi ex_A (sym_ok 3) (cat_b ex_e) (ex_ready _ _));
    [reflexivity|discriminate|exact ex_x_ok|reflexivity|simpl; tauto].
Qed.

Lemma ex_bad_start : ~ (sums_to_1 2 (fvec 2 (fun _ => 1)) /\ rows_sum_to_1 2 (fmat 2 2 ex_A)).
Proof.
  intros [(f & Hf & Hn) _].
  assert (H : sumn 2 f = 2).
  { assert (H0 : vget (fvec 2 (fun _ => 1)) 0 = Fin (f 0%nat)) by (rewrite Hf; apply vget_fvec; lia).
    assert (H1 : vget (fvec 2 (fun _ => 1)) 1 = Fin (f 1%nat)) by (rewrite Hf; apply vget_fvec; lia).
    rewrite vget_fvec in H0, H1 by lia. injection H0 as H0. injection H1 as H1. simpl. lra. }
  rewrite H in Hn. unfold near1 in Hn. replace (2 - 1) with 1 in Hn by ring. rewrite Rabs_R1 in Hn. lra.
Qed.

Lemma cat_lookup fp c nf nfe nc e prior x : Forall (sym_ok nf) x ->
  cat_lik fp c nfe (Catp prior (Some (fmat nc nf e))) x
  = Ok (fmat (length x) nc (fun t i => e i (Z.to_nat (nth t x 0%Z)))).
Proof.
  intros H. rewrite cat_lik_ok by exact H. f_equal. apply fmat_ext. intros t i Ht Hi.
  rewrite (obsB_nth _ x 0%Z) by exact Ht. reflexivity.
Qed.
Lemma ex_symbols : cat_model (ex_h "log" "viterbi") 2 3 ex_pi ex_A ex_e
  /\ Forall (sym_ok 3) ex_x /\ Exists (fun k => ~ indexable 3 k) [0; 3]%Z.
Proof.
  split; [apply ex_model|]. split; [exact ex_x_ok|]. right. left. unfold indexable. simpl. lia.
Qed.
Lemma ex_normalize : sumn 2 ex_pi <> 0 /\ nonneg2 2 3 ex_e /\ forall i, (i < 2)%nat -> 0 < sumn 3 (ex_e i).
Proof.
  split; [rewrite ex_pi_sum; lra|]. split; [exact ex_e_nn|]. intros i Hi. rewrite ex_e_sum by exact Hi. lra.
Qed.
Lemma predict_any_impl : exists h r,
  c_impl (h_cfg h) <> "log"%string /\ c_impl (h_cfg h) <> "scaling"%string
  /\ predict categorical exact h ex_x None = Ok r.
Proof.
  destruct (viterbi_single categorical (ex_h "fast" "viterbi") 2 ex_pi ex_A _ _ (ex_ready _ _) ex_x None
              ltac:(discriminate) ex_x_ok (or_intror (conj eq_refl eq_refl))) as (z & H & _).
  exists (ex_h "fast" "viterbi"), z. split; [discriminate|]. split; [discriminate|].
  unfold predict. rewrite H. reflexivity.
Qed.
Lemma zero_length_witness : exists h x ls, In 0%nat ls /\ fold_right Nat.add 0%nat ls = length x
  /\ score categorical exact h x (as_lengths ls) = Err UB.
Proof.
  exists (ex_h "log" "viterbi"), ex_x, [2; 0; 1]%nat. split; [simpl; tauto|]. split; [reflexivity|exact ex_zero_length].
Qed.
Lemma ex_fits : fits (fvec 2 ex_pi) (fmat 2 2 ex_A) (fmat 3 2 ex_A)
  /\ ~ fits (fvec 3 ex_pi) (fmat 2 2 ex_A) (fmat 3 2 ex_A).
Proof. split; [repeat split; reflexivity|]. intros (H & _). discriminate. Qed.
