(** * Lemmas on extended reals and arrays in exact arithmetic. *)
From Verif Require Export Link Sums.

(** ** Booleans. *)
Lemma Rltb_true x y : Rltb x y = true <-> x < y.
Proof. unfold Rltb. destruct (Rlt_dec x y); split; intros; try assumption; try reflexivity; try discriminate; contradiction. Qed.
Lemma Rltb_false x y : Rltb x y = false <-> y <= x.
Proof. unfold Rltb. destruct (Rlt_dec x y); split; intros; try reflexivity; try discriminate; lra. Qed.
Lemma Rleb_true x y : Rleb x y = true <-> x <= y.
Proof. unfold Rleb. destruct (Rle_dec x y); split; intros; try assumption; try reflexivity; try discriminate; contradiction. Qed.
Lemma Rleb_false x y : Rleb x y = false <-> y < x.
Proof. unfold Rleb. destruct (Rle_dec x y); split; intros; try reflexivity; try discriminate; lra. Qed.
Lemma Reqb_true x y : Reqb x y = true <-> x = y.
Proof. unfold Reqb. destruct (Req_EM_T x y); split; intros; try assumption; try reflexivity; try discriminate; contradiction. Qed.
Lemma Reqb_false x y : Reqb x y = false <-> x <> y.
Proof. unfold Reqb. destruct (Req_EM_T x y); split; intros; try assumption; try reflexivity; try discriminate; contradiction. Qed.

(** ** tab. *)
Lemma tab_length {A} n (f : nat -> A) : length (tab n f) = n.
Proof. unfold tab. rewrite map_length, seq_length. reflexivity. Qed.

Lemma tab_nth {A} n (f : nat -> A) i d : (i < n)%nat -> nth i (tab n f) d = f i.
Proof.
  intros H. unfold tab. rewrite (nth_indep _ d (f 0%nat)) by (rewrite map_length, seq_length; exact H).
  rewrite map_nth, seq_nth by exact H. reflexivity.
Qed.

Lemma tab_ext {A} n (f g : nat -> A) : (forall i, (i < n)%nat -> f i = g i) -> tab n f = tab n g.
Proof.
  intros H. unfold tab. apply map_ext_in. intros i Hi. apply H. apply in_seq in Hi. lia.
Qed.

Lemma tab_map {A B} (h : A -> B) n f : map h (tab n f) = tab n (fun i => h (f i)).
Proof. unfold tab. apply map_map. Qed.

Lemma tab_S {A} n (f : nat -> A) : tab (S n) f = f 0%nat :: tab n (fun i => f (S i)).
Proof. unfold tab. cbn [seq map]. rewrite <- seq_shift, map_map. reflexivity. Qed.

Lemma tab_S_r {A} n (f : nat -> A) : tab (S n) f = tab n f ++ [f n].
Proof. unfold tab. rewrite seq_S, map_app. reflexivity. Qed.

Lemma tab_inv {A} n (l : list A) d : length l = n -> l = tab n (fun i => nth i l d).
Proof.
  intros H. apply (nth_ext _ _ d d).
  - rewrite tab_length. exact H.
  - intros i Hi. rewrite tab_nth by lia. reflexivity.
Qed.

Lemma tab_last {A} n (f : nat -> A) d : last (tab (S n) f) d = f n.
Proof. rewrite tab_S_r. apply last_last. Qed.

Lemma vget_tab n f i : (i < n)%nat -> vget (tab n f) i = f i.
Proof. apply tab_nth. Qed.
Lemma mget_mtab r c f i j : (i < r)%nat -> (j < c)%nat -> mget (mtab r c f) i j = f i j.
Proof. intros Hi Hj. unfold mget, mtab. cbn [rows]. rewrite tab_nth by exact Hi. apply tab_nth; exact Hj. Qed.
Lemma vget_fvec n f i : (i < n)%nat -> vget (fvec n f) i = Fin (f i).
Proof. intros. unfold fvec. rewrite vget_tab by assumption. reflexivity. Qed.
Lemma mget_fmat r c f i j : (i < r)%nat -> (j < c)%nat -> mget (fmat r c f) i j = Fin (f i j).
Proof. intros. unfold fmat. rewrite mget_mtab by assumption. reflexivity. Qed.
Lemma mget_lmat r c f i j : (i < r)%nat -> (j < c)%nat -> mget (lmat r c f) i j = xln (f i j).
Proof. intros. unfold lmat. rewrite mget_mtab by assumption. reflexivity. Qed.
Lemma nrow_mtab r c f : nrow (mtab r c f) = r.
Proof. unfold nrow, mtab. cbn [rows]. apply tab_length. Qed.
Lemma ncol_mtab r c f : ncol (mtab r c f) = c.
Proof. reflexivity. Qed.
Lemma mtab_ext r c f g :
  (forall i j, (i < r)%nat -> (j < c)%nat -> f i j = g i j) -> mtab r c f = mtab r c g.
Proof. intros H. unfold mtab. f_equal. apply tab_ext; intros i Hi. apply tab_ext; intros j Hj. auto. Qed.
Lemma mmap_mtab h r c f : mmap h (mtab r c f) = mtab r c (fun i j => h (f i j)).
Proof.
  unfold mmap, mtab. cbn [rows ncol]. f_equal. rewrite tab_map.
  apply tab_ext; intros i _. apply tab_map.
Qed.
Lemma wf_mtab r c f : wf_mat (mtab r c f).
Proof.
  unfold wf_mat, mtab. cbn [rows ncol]. apply Forall_forall. intros x Hx.
  unfold tab in Hx. apply in_map_iff in Hx as [i [<- _]]. apply tab_length.
Qed.
Lemma mat_inv m : wf_mat m -> m = mtab (nrow m) (ncol m) (mget m).
Proof.
  intros Hwf. destruct m as [c rs]. unfold wf_mat in Hwf; cbn [rows ncol] in *.
  unfold mtab, nrow, mget; cbn [rows ncol]. f_equal.
  apply (nth_ext _ _ [] []); [rewrite tab_length; reflexivity|].
  intros i Hi. rewrite tab_nth by exact Hi. apply tab_inv.
  rewrite Forall_forall in Hwf. apply Hwf. apply nth_In. exact Hi.
Qed.

(** ** Folds over [seq]. *)
Lemma fold_left_ext_in {A B} (f g : A -> B -> A) l a :
  (forall a b, In b l -> f a b = g a b) -> fold_left f l a = fold_left g l a.
Proof.
  revert a; induction l as [|x l IH]; intros a H; [reflexivity|]. simpl.
  rewrite H by (left; reflexivity). apply IH. intros; apply H; right; assumption.
Qed.

Lemma fold_left_map {A B C} (f : A -> C -> A) (h : B -> C) l a :
  fold_left f (map h l) a = fold_left (fun acc x => f acc (h x)) l a.
Proof. revert a; induction l as [|x l IH]; intros a; [reflexivity|]. simpl. apply IH. Qed.

Lemma fold_xadd_sumL {X} (l : list X) (f : X -> R) a :
  fold_left (fun acc i => xadd exact acc (Fin (f i))) l (Fin a) = Fin (a + sumL f l).
Proof.
  revert a; induction l as [|x l IH]; intros a; simpl; [f_equal; ring|].
  unfold exact at 2. rewrite IH. f_equal; ring.
Qed.

Lemma fold_xadd_seq n (f : nat -> R) :
  fold_left (fun acc i => xadd exact acc (Fin (f i))) (seq 0 n) (Fin 0) = Fin (sumn n f).
Proof. rewrite fold_xadd_sumL, sumL_seq0, Rplus_0_l. reflexivity. Qed.

Lemma xsum_fvec n f : xsum exact (fvec n f) = Fin (sumn n f).
Proof.
  unfold xsum, fvec, tab. rewrite fold_left_map. apply fold_xadd_seq.
Qed.

(** ** The logarithm as a homomorphism. *)
Lemma xln_pos r : 0 < r -> xln r = Fin (ln r).
Proof. intros H. unfold xln. destruct (Rlt_dec 0 r); [reflexivity|contradiction]. Qed.
Lemma xln_0 : xln 0 = NInf.
Proof. unfold xln. destruct (Rlt_dec 0 0); [lra|reflexivity]. Qed.
Lemma xln_1 : xln 1 = Fin 0.
Proof. rewrite xln_pos by lra. rewrite ln_1. reflexivity. Qed.
Lemma nonneg_cases r : 0 <= r -> 0 < r \/ r = 0.
Proof. intros [H|H]; auto. Qed.

Lemma xlog_fin r : 0 <= r -> xlog exact (Fin r) = xln r.
Proof.
  intros H. unfold xlog, xln. destruct (Rlt_dec 0 r); [reflexivity|].
  destruct (Rlt_dec r 0); [lra|reflexivity].
Qed.

Lemma xadd_xln a b : 0 <= a -> 0 <= b -> xadd exact (xln a) (xln b) = xln (a * b).
Proof.
  intros Ha Hb. destruct (nonneg_cases a Ha) as [Ha'| ->].
  - destruct (nonneg_cases b Hb) as [Hb'| ->].
    + rewrite (xln_pos a), (xln_pos b), xln_pos; try assumption; [|apply Rmult_lt_0_compat; assumption].
      simpl. unfold exact. rewrite ln_mult by assumption. reflexivity.
    + rewrite Rmult_0_r, xln_0, xln_pos by assumption. reflexivity.
  - rewrite Rmult_0_l, xln_0. unfold xln. destruct (Rlt_dec 0 b); reflexivity.
Qed.

Lemma xexp_xln a : 0 <= a -> xexp exact (xln a) = Fin a.
Proof.
  intros Ha. destruct (nonneg_cases a Ha) as [H| ->].
  - rewrite xln_pos by assumption. simpl. unfold exact. rewrite exp_ln by assumption. reflexivity.
  - rewrite xln_0. reflexivity.
Qed.

Lemma xltb_xln a b : 0 <= a -> 0 <= b -> xltb (xln a) (xln b) = Rltb a b.
Proof.
  intros Ha Hb. destruct (nonneg_cases a Ha) as [Ha'| ->].
  - destruct (nonneg_cases b Hb) as [Hb'| ->].
    + rewrite !xln_pos by assumption. simpl. unfold Rltb.
      destruct (Rlt_dec a b) as [H|H], (Rlt_dec (ln a) (ln b)) as [H'|H']; try reflexivity.
      * exfalso; apply H'. apply ln_increasing; assumption.
      * exfalso; apply H. apply ln_lt_inv; assumption.
    + rewrite xln_0, xln_pos by assumption. simpl. symmetry. apply Rltb_false. lra.
  - rewrite xln_0. destruct (nonneg_cases b Hb) as [Hb'| ->].
    + rewrite xln_pos by assumption. simpl. symmetry. apply Rltb_true. exact Hb'.
    + rewrite xln_0. simpl. symmetry. apply Rltb_false. lra.
Qed.

Lemma xleb_xln a b : 0 <= a -> 0 <= b -> xleb (xln a) (xln b) = Rleb a b.
Proof.
  intros Ha Hb. destruct (nonneg_cases a Ha) as [Ha'| ->].
  - destruct (nonneg_cases b Hb) as [Hb'| ->].
    + rewrite !xln_pos by assumption. simpl. unfold Rleb.
      destruct (Rle_dec a b) as [H|H], (Rle_dec (ln a) (ln b)) as [H'|H']; try reflexivity.
      * exfalso; apply H'. destruct H as [H| ->]; [|lra]. left; apply ln_increasing; assumption.
      * exfalso; apply H. apply Rnot_lt_le; intros Hlt.
        assert (ln b < ln a) by (apply ln_increasing; assumption). lra.
    + rewrite xln_0, xln_pos by assumption. simpl. symmetry. apply Rleb_false. lra.
  - rewrite xln_0. destruct (nonneg_cases b Hb) as [Hb'| ->].
    + rewrite xln_pos by assumption. simpl. symmetry. apply Rleb_true. lra.
    + rewrite xln_0. simpl. symmetry. apply Rleb_true. lra.
Qed.

Lemma xln_inj a b : 0 <= a -> 0 <= b -> xln a = xln b -> a = b.
Proof.
  intros Ha Hb H. assert (Fin a = Fin b) by (rewrite <- !xexp_xln, H by assumption; reflexivity).
  congruence.
Qed.

Lemma xln_not_nan a : xln a <> NaN.
Proof. unfold xln. destruct (Rlt_dec 0 a); discriminate. Qed.

Lemma vlog_fvec n f : nonneg1 n f -> vlog exact (fvec n f) = tab n (fun i => xln (f i)).
Proof.
  intros H. unfold vlog, fvec. rewrite tab_map. apply tab_ext; intros i Hi.
  apply xlog_fin. apply H; exact Hi.
Qed.

Lemma mlog_fmat r c f : nonneg2 r c f -> mlog exact (fmat r c f) = lmat r c f.
Proof.
  intros H. unfold mlog, fmat, lmat. rewrite mmap_mtab. apply mtab_ext; intros i j Hi Hj.
  apply xlog_fin. apply H; assumption.
Qed.

(** ** [max_element] and [logsumexp] on logarithms. *)
Definition maxR_from (m : R) (l : list R) : R :=
  fold_left (fun m y => if Rltb m y then y else m) l m.

Lemma maxR_from_ge m l : m <= maxR_from m l /\ forall y, In y l -> y <= maxR_from m l.
Proof.
  revert m; induction l as [|x l IH]; intros m; simpl.
  - split; [lra|intros y []].
  - destruct (IH (if Rltb m x then x else m)) as [H1 H2].
    destruct (Rltb m x) eqn:E.
    + apply Rltb_true in E. split; [unfold maxR_from in *; simpl; rewrite ?E in *; lra|].
      intros y [->|Hy]; [exact H1|apply H2; exact Hy].
    + apply Rltb_false in E. split; [exact H1|].
      intros y [->|Hy]; [unfold maxR_from in *; lra|apply H2; exact Hy].
Qed.

Lemma maxR_from_in m l : maxR_from m l = m \/ In (maxR_from m l) l.
Proof.
  revert m; induction l as [|x l IH]; intros m; simpl; [left; reflexivity|].
  destruct (IH (if Rltb m x then x else m)) as [H|H].
  - unfold maxR_from in *. simpl. rewrite H. destruct (Rltb m x); auto.
  - right; right; exact H.
Qed.

Lemma max_element_xln_from m l : 0 <= m -> (forall y, In y l -> 0 <= y) ->
  fold_left (fun m y => if xltb m y then y else m) (map xln l) (xln m) = xln (maxR_from m l).
Proof.
  revert m; induction l as [|x l IH]; intros m Hm Hl; simpl; [reflexivity|].
  rewrite xltb_xln by (try assumption; apply Hl; left; reflexivity).
  replace (if Rltb m x then xln x else xln m) with (xln (if Rltb m x then x else m))
    by (destruct (Rltb m x); reflexivity).
  rewrite IH; [reflexivity| |intros; apply Hl; right; assumption].
  destruct (Rltb m x); [apply Hl; left; reflexivity|exact Hm].
Qed.

Lemma max_element_xln l : l <> [] -> (forall y, In y l -> 0 <= y) ->
  exists m, max_element (map xln l) = xln m /\ In m l /\ forall y, In y l -> y <= m.
Proof.
  destruct l as [|x l]; intros Hne Hl; [contradiction|].
  exists (maxR_from x l). simpl. rewrite max_element_xln_from.
  - split; [reflexivity|]. destruct (maxR_from_ge x l) as [H1 H2]. split.
    + destruct (maxR_from_in x l) as [H|H]; [left; symmetry; exact H|right; exact H].
    + intros y [->|Hy]; auto.
  - apply Hl; left; reflexivity.
  - intros; apply Hl; right; assumption.
Qed.

Lemma logsumexp_xln_list l : l <> [] -> (forall y, In y l -> 0 <= y) ->
  logsumexp exact (map xln l) = xln (sumL (fun y => y) l).
Proof.
  intros Hne Hl. destruct (max_element_xln l Hne Hl) as (m & Hm & Hin & Hmax).
  unfold logsumexp. rewrite Hm. pose proof (Hl m Hin) as Hm0.
  destruct (nonneg_cases m Hm0) as [Hpos| ->].
  - rewrite (xln_pos m Hpos). cbn [xisinf].
    rewrite fold_left_map.
    rewrite (fold_left_ext_in _ (fun acc x => xadd exact acc (Fin (x / m)))).
    + rewrite fold_xadd_sumL, Rplus_0_l.
      rewrite sumL_div.
      assert (Hs : 0 < sumL (fun y => y) l).
      { apply Rlt_le_trans with m; [exact Hpos|].
        apply (sumL_ge_term (fun y => y)); assumption. }
      rewrite xlog_fin by (left; apply Rdiv_lt_0_compat; assumption).
      rewrite xln_pos by (apply Rdiv_lt_0_compat; assumption).
      rewrite xln_pos by exact Hs. simpl. unfold exact. f_equal.
      unfold Rdiv. rewrite ln_mult by (try assumption; apply Rinv_0_lt_compat; exact Hpos).
      rewrite ln_Rinv by exact Hpos. ring.
    + intros a x Hx. f_equal. pose proof (Hl x Hx) as Hx0.
      destruct (nonneg_cases x Hx0) as [Hx1| ->].
      * rewrite xln_pos by exact Hx1. simpl. unfold exact. f_equal.
        rewrite exp_plus, exp_ln by exact Hx1. rewrite exp_Ropp, exp_ln by exact Hpos. reflexivity.
      * rewrite xln_0. simpl. unfold exact. f_equal. unfold Rdiv; ring.
  - rewrite xln_0. cbn [xisinf]. rewrite sumL_zero; [symmetry; apply xln_0|].
    intros y Hy. pose proof (Hl y Hy). pose proof (Hmax y Hy). lra.
Qed.

Lemma logsumexp_xln n f : (0 < n)%nat -> nonneg1 n f ->
  logsumexp exact (tab n (fun i => xln (f i))) = xln (sumn n f).
Proof.
  intros Hn Hf. rewrite <- (tab_map xln n f). rewrite logsumexp_xln_list.
  - unfold tab. rewrite sumL_map, sumL_seq0. reflexivity.
  - intros E. apply (f_equal (@length R)) in E. rewrite tab_length in E. simpl in E. lia.
  - intros y Hy. unfold tab in Hy. apply in_map_iff in Hy as [i [<- Hi]].
    apply in_seq in Hi. apply Hf. lia.
Qed.

Lemma std_max_xln a b : 0 <= a -> 0 <= b -> std_max (xln a) (xln b) = xln (Rmax a b).
Proof.
  intros Ha Hb. unfold std_max. rewrite xltb_xln by assumption.
  unfold Rltb, Rmax. destruct (Rlt_dec a b), (Rle_dec a b); try reflexivity; try lra.
  replace b with a by lra. reflexivity.
Qed.

Lemma logaddexp_xln a b : 0 <= a -> 0 <= b -> logaddexp exact (xln a) (xln b) = xln (a + b).
Proof.
  intros Ha Hb. destruct (nonneg_cases a Ha) as [Ha'| ->].
  2:{ rewrite xln_0, Rplus_0_l. reflexivity. }
  destruct (nonneg_cases b Hb) as [Hb'| ->].
  2:{ rewrite xln_0, Rplus_0_r, xln_pos by assumption. reflexivity. }
  rewrite (xln_pos a), (xln_pos b), xln_pos by lra.
  unfold logaddexp. cbn [xsub xadd xopp xabs xexp].
  unfold exact at 3; cbn [xopp xexp]. unfold exact at 3 4. cbn [xadd xlog].
  cbn [xabs xopp xexp xadd]. unfold exact. cbn [xlog xadd].
  pose proof (exp_pos (- Rabs (ln b + - ln a))) as He.
  destruct (Rlt_dec 0 (1 + exp (- Rabs (ln b + - ln a)))); [|lra].
  unfold std_max. cbn [xltb].
  assert (Hexp : forall x y, 0 < x -> 0 < y -> exp (ln x + - ln y) = x / y).
  { intros x y Hx Hy. rewrite exp_plus, exp_ln, exp_Ropp, exp_ln by assumption. reflexivity. }
  destruct (Rltb (ln a) (ln b)) eqn:E; cbn [xadd]; f_equal.
  - apply Rltb_true in E. rewrite Rabs_pos_eq by lra.
    replace (- (ln b + - ln a)) with (ln a + - ln b) by ring. rewrite Hexp by assumption.
    assert (Hq : 0 < a / b) by (apply Rdiv_lt_0_compat; assumption).
    rewrite <- ln_mult by lra. f_equal. field. lra.
  - apply Rltb_false in E. rewrite Rabs_left1 by lra.
    replace (- - (ln b + - ln a)) with (ln b + - ln a) by ring. rewrite Hexp by assumption.
    assert (Hq : 0 < b / a) by (apply Rdiv_lt_0_compat; assumption).
    rewrite <- ln_mult by lra. f_equal. field. lra.
Qed.

Lemma xsub_xln a b : 0 <= a -> 0 < b -> xsub exact (xln a) (xln b) = xln (a / b).
Proof.
  intros Ha Hb. unfold xsub. rewrite (xln_pos b Hb). cbn [xopp].
  destruct (nonneg_cases a Ha) as [Ha'| ->].
  - rewrite xln_pos by exact Ha'. rewrite xln_pos by (apply Rdiv_lt_0_compat; assumption).
    simpl. unfold exact, Rdiv. rewrite ln_mult, ln_Rinv by (try assumption; apply Rinv_0_lt_compat; exact Hb).
    reflexivity.
  - unfold Rdiv. rewrite Rmult_0_l, xln_0. reflexivity.
Qed.

Lemma fold_logaddexp_seq n f : nonneg1 n f ->
  fold_left (fun acc t => logaddexp exact acc (xln (f t))) (seq 0 n) NInf = xln (sumn n f).
Proof.
  intros Hf. assert (H : forall l a, 0 <= a -> (forall t, In t l -> 0 <= f t) ->
    fold_left (fun acc t => logaddexp exact acc (xln (f t))) l (xln a) = xln (a + sumL f l)).
  { induction l as [|x l IH]; intros a Ha Hl; simpl; [f_equal; ring|].
    rewrite logaddexp_xln by (try assumption; apply Hl; left; reflexivity).
    rewrite IH.
    - f_equal; ring.
    - pose proof (Hl x (or_introl eq_refl)). lra.
    - intros; apply Hl; right; assumption. }
  rewrite <- xln_0, H.
  - rewrite sumL_seq0, Rplus_0_l. reflexivity.
  - lra.
  - intros t Ht. apply in_seq in Ht. apply Hf. lia.
Qed.
