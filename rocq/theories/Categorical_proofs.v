(** * CategoricalHMM objects are usable; emission lookup. *)
From Verif Require Export Categorical Decode_proofs.

(** Sums accepted by [np.allclose(s, 1)]. *)
Lemma allclose1_near s : allclose1 exact (Fin s) = true <-> near1 s.
Proof. unfold allclose1, near1. cbn. apply Rleb_true. Qed.

Lemma check_sum_1_fvec n f : check_sum_1 exact (fvec n f) = true <-> near1 (sumn n f).
Proof. unfold check_sum_1. rewrite xsum_fvec. apply allclose1_near. Qed.

Lemma near1_1 : near1 1.
Proof. unfold near1. replace (1 - 1) with 0 by ring. rewrite Rabs_R0.
  assert (0 < / 10 ^ 8) by (apply Rinv_0_lt_compat, pow_lt; lra).
  assert (0 < / 10 ^ 5) by (apply Rinv_0_lt_compat, pow_lt; lra). lra. Qed.

Lemma forallb_check_rows r c f :
  (forall i, (i < r)%nat -> near1 (sumn c (f i))) -> forallb (check_sum_1 exact) (rows (fmat r c f)) = true.
Proof.
  intros H. apply forallb_forall. intros v Hv. unfold fmat, mtab in Hv; cbn [rows] in Hv.
  unfold tab at 1 in Hv. apply in_map_iff in Hv as [i [<- Hi]]. apply in_seq in Hi.
  apply (check_sum_1_fvec c (f i)). apply H. lia.
Qed.

Lemma forallb_check_rows_inv r c f :
  forallb (check_sum_1 exact) (rows (fmat r c f)) = true -> forall i, (i < r)%nat -> near1 (sumn c (f i)).
Proof.
  intros H i Hi. rewrite forallb_forall in H. apply (check_sum_1_fvec c (f i)). apply H.
  unfold fmat, mtab; cbn [rows]. unfold tab at 1. apply in_map_iff. exists i.
  split; [reflexivity|apply in_seq; lia].
Qed.

Lemma base_check_ok nc pi A :
  near1 (sumn nc pi) -> (forall i, (i < nc)%nat -> near1 (sumn nc (A i))) ->
  base_check exact nc (fvec nc pi) (fmat nc nc A) = Ok tt.
Proof.
  intros Hp HA. unfold base_check.
  replace (length (fvec nc pi)) with nc by (unfold fvec; rewrite tab_length; reflexivity).
  rewrite nrow_fmat, ncol_fmat, !Nat.eqb_refl. cbn [negb andb].
  rewrite (proj2 (check_sum_1_fvec nc pi) Hp). cbn [negb].
  rewrite forallb_check_rows by exact HA. reflexivity.
Qed.

Lemma np_index_in n k : (0 <= k < Z.of_nat n)%Z -> np_index n k = Ok (Z.to_nat k).
Proof.
  intros H. unfold np_index. destruct (Z.leb_spec 0 k); [|lia]. destruct (Z.ltb_spec k (Z.of_nat n)); [|lia].
  reflexivity.
Qed.

Lemma map_res_ok {A B} (f : A -> res B) (g : A -> B) l :
  (forall x, In x l -> f x = Ok (g x)) -> map_res f l = Ok (map g l).
Proof.
  induction l as [|x l IH]; intros H; [reflexivity|]. simpl.
  rewrite (H x (or_introl eq_refl)). cbn [bind].
  rewrite IH by (intros; apply H; right; assumption). reflexivity.
Qed.

Definition sym_ok (nf : nat) (k : Z) : Prop := (0 <= k < Z.of_nat nf)%Z.
Definition cat_b (e : nat -> nat -> R) (k : Z) (i : nat) : R := e i (Z.to_nat k).

Lemma mat_of_rows {X} (x : list X) c (g : X -> nat -> xnum) (G : nat -> nat -> xnum) :
  (forall t d i, (t < length x)%nat -> (i < c)%nat -> g (nth t x d) i = G t i) ->
  Mat c (map (fun o => tab c (g o)) x) = mtab (length x) c G.
Proof.
  intros H. unfold mtab. f_equal. destruct x as [|d x0]; [reflexivity|]. set (x := d :: x0) in *.
  rewrite (tab_inv (length x) (map (fun o => tab c (g o)) x) (tab c (g d))) by apply map_length.
  apply tab_ext. intros t Ht. rewrite (map_nth (fun o => tab c (g o))).
  apply tab_ext. intros i Hi. apply H; assumption.
Qed.

Lemma cat_lik_ok fp c nf nfe nc e prior x : Forall (sym_ok nf) x ->
  cat_lik fp c nfe (Catp prior (Some (fmat nc nf e))) x = Ok (fmat (length x) nc (obsB (cat_b e) x)).
Proof.
  intros Hx. unfold cat_lik. cbn [cat_prob]. rewrite ncol_fmat, nrow_fmat.
  rewrite (map_res_ok _ Z.to_nat).
  2:{ intros k Hk. rewrite Forall_forall in Hx. apply np_index_in. apply Hx. exact Hk. }
  cbn [bind]. f_equal. rewrite map_map.
  apply (mat_of_rows x nc (fun k i => mget (fmat nc nf e) i (Z.to_nat k))).
  intros t d i Ht Hi. rewrite mget_fmat.
  - f_equal. rewrite (obsB_nth _ x d) by exact Ht. reflexivity.
  - exact Hi.
  - rewrite Forall_forall in Hx. specialize (Hx _ (nth_In x d Ht)). unfold sym_ok in Hx. lia.
Qed.

(** A CategoricalHMM whose attributes are [nc] start probabilities, [nc x nc]
    transition probabilities and [nc x nf] emission probabilities, all
    non-negative and summing to 1 within the library's tolerance. *)
Record cat_model (h : hmm catp) (nc nf : nat) (pi : nat -> R) (A e : nat -> nat -> R) : Prop := CatModel {
  cm_nc : c_nc (h_cfg h) = nc;
  cm_pos : (0 < nc)%nat;
  cm_nf : h_nfeat h = None \/ h_nfeat h = Some nf;
  cm_start : h_start h = Some (fvec nc pi);
  cm_trans : h_trans h = Some (fmat nc nc A);
  cm_em : cat_prob (h_em h) = Some (fmat nc nf e);
  cm_pi : nonneg1 nc pi; cm_pi1 : near1 (sumn nc pi);
  cm_A : nonneg2 nc nc A; cm_A1 : forall i, (i < nc)%nat -> near1 (sumn nc (A i));
  cm_e : nonneg2 nc nf e; cm_e1 : forall i, (i < nc)%nat -> near1 (sumn nf (e i)) }.

Lemma cat_check_ok c nfe prior nc nf e :
  c_nc c = nc -> (nfe = None \/ nfe = Some nf) -> (forall i, (i < nc)%nat -> near1 (sumn nf (e i))) ->
  cat_check exact c nfe (Catp prior (Some (fmat nc nf e))) = Ok (Some nf, Catp prior (Some (fmat nc nf e))).
Proof.
  intros Hc Hn He. unfold cat_check. cbn [cat_prob]. rewrite nrow_fmat, ncol_fmat, Hc.
  assert (E : match nfe with None => nf | Some n => n end = nf) by (destruct Hn as [->| ->]; reflexivity).
  rewrite E, !Nat.eqb_refl. cbn [negb andb]. rewrite forallb_check_rows by exact He. reflexivity.
Qed.

Lemma cat_emits c nc nf e prior s t m : 
  c_nc c = nc -> nonneg2 nc nf e ->
  emits categorical (Hmm c (Some nf) s t m (Catp prior (Some (fmat nc nf e)))) nc (sym_ok nf) (cat_b e).
Proof.
  intros Hc He.
  assert (Hb : forall o i, sym_ok nf o -> (i < nc)%nat -> 0 <= cat_b e o i).
  { intros o i Ho Hi. unfold sym_ok in Ho. apply He; [exact Hi|lia]. }
  constructor.
  - intros x Hx. unfold loglik. cbn [categorical ec_loglik h_cfg h_nfeat h_em].
    rewrite (cat_lik_ok _ _ nf _ nc) by exact Hx. unfold loglik_of_lik. cbn [bind]. f_equal.
    apply (mlog_fmat (length x) nc). apply (obsB_nonneg (sym_ok nf)); assumption.
  - intros x Hx. unfold lik. cbn [categorical ec_lik h_cfg h_nfeat h_em].
    apply cat_lik_ok. exact Hx.
  - exact Hb.
  - reflexivity.
Qed.

Theorem cat_ready h nc nf pi A e : cat_model h nc nf pi A e ->
  ready categorical h nc pi A (sym_ok nf) (cat_b e).
Proof.
  intros [H1 H2 H3 H4 H5 H6 H7 H8 H9 H10 H11 H12].
  destruct h as [c nfe s t m [prior em]]. cbn in *. subst s t em.
  constructor; [exact H1|exact H2|reflexivity|reflexivity|exact H7|exact H9|].
  exists (Hmm c (Some nf) (Some (fvec nc pi)) (Some (fmat nc nc A)) m (Catp prior (Some (fmat nc nf e)))).
  split; [|split].
  - unfold check. cbn [h_start h_trans h_cfg h_nfeat h_em h_mon]. rewrite H1, base_check_ok by assumption.
    cbn [bind categorical ec_check]. rewrite (cat_check_ok c nfe prior nc nf e) by assumption. reflexivity.
  - unfold check. cbn [h_start h_trans h_cfg h_nfeat h_em h_mon]. rewrite H1, base_check_ok by assumption.
    cbn [bind categorical ec_check]. rewrite (cat_check_ok c (Some nf) prior nc nf e) by auto. reflexivity.
  - apply cat_emits; assumption.
Qed.
