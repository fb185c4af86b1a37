(** * Property lemmas C70, C71: initial covariances and the [covars_] setter. *)
From Verif Require Export Covars_proofs Vg_use.

(** ** C71: what the setter accepts. *)
Lemma Reqb_refl' r : Reqb r r = true.
Proof. unfold Reqb. destruct (Req_EM_T r r); [reflexivity|contradiction]. Qed.
Lemma symmetric_ok n A : sym n A -> symmetric exact (fmat n n A) = true.
Proof.
  intros H. unfold symmetric. rewrite nrow_fmat. apply forallb_forall. intros i Hi. apply forallb_forall. intros j Hj.
  apply in_seq in Hi, Hj. rewrite !mget_fmat by lia. rewrite (H i j) by lia. unfold allclose, xeqb. rewrite Reqb_refl'. reflexivity.
Qed.
(** The matrix whose upper triangle is replaced by the mirrored lower one. *)
Definition mirrored (A : nat -> nat -> R) (i j : nat) : R := A (Nat.max i j) (Nat.min i j).
(** Equal to the transpose up to numpy.allclose's default tolerances. *)
Definition near_symmetric (n : nat) (A : nat -> nat -> R) : Prop :=
  forall i j, (i < n)%nat -> (j < n)%nat -> Rabs (A i j - A j i) <= / 10 ^ 8 + / 10 ^ 5 * Rabs (A j i).
Lemma mirrored_sym n A : sym n (mirrored A).
Proof. intros i j _ _. unfold mirrored. rewrite Nat.max_comm, Nat.min_comm. reflexivity. Qed.
Lemma mirrored_id n A : sym n A -> forall i j, (i < n)%nat -> (j < n)%nat -> mirrored A i j = A i j.
Proof.
  intros H i j Hi Hj. unfold mirrored. destruct (Nat.le_gt_cases i j) as [L|L].
  - rewrite Nat.max_r, Nat.min_l by exact L. apply H; assumption.
  - rewrite Nat.max_l, Nat.min_r by lia. reflexivity.
Qed.
Lemma near_symmetric_sym n A : sym n A -> near_symmetric n A.
Proof.
  intros H i j Hi Hj. rewrite (H i j Hi Hj). replace (A j i - A j i) with 0 by ring. rewrite Rabs_R0.
  pose proof (Rabs_pos (A j i)). assert (0 < / 10 ^ 8) by (apply Rinv_0_lt_compat, pow_lt; lra).
  assert (0 < / 10 ^ 5) by (apply Rinv_0_lt_compat, pow_lt; lra). nra.
Qed.
Lemma symmetric_iff n A : symmetric exact (fmat n n A) = true <-> near_symmetric n A.
Proof.
  assert (E : forall a b, allclose exact (Fin a) (Fin b) = true <-> Rabs (a - b) <= / 10 ^ 8 + / 10 ^ 5 * Rabs b).
  { intros a b. unfold allclose. cbn [xeqb xisfin andb]. rewrite xsubE. cbn [xabs]. rewrite xmulE, xaddE. cbn [xleb].
    rewrite orb_true_iff, Rleb_true, Reqb_true. split; [|tauto]. intros [->|H]; [|exact H].
    replace (b - b) with 0 by ring. rewrite Rabs_R0. pose proof (Rabs_pos b).
    assert (0 < / 10 ^ 8) by (apply Rinv_0_lt_compat, pow_lt; lra).
    assert (0 < / 10 ^ 5) by (apply Rinv_0_lt_compat, pow_lt; lra). nra. }
  unfold symmetric, near_symmetric. rewrite nrow_fmat, forallb_forall. split.
  - intros H i j Hi Hj. specialize (H i ltac:(apply in_seq; lia)). rewrite forallb_forall in H. specialize (H j ltac:(apply in_seq; lia)).
    rewrite !mget_fmat in H by assumption. apply E. exact H.
  - intros H i Hi. apply forallb_forall. intros j Hj. apply in_seq in Hi, Hj. rewrite !mget_fmat by lia. apply E, H; lia.
Qed.
(** The factorisation reads the lower triangle. *)
Lemma chol_from_mirrored n A : forall k cols, (length cols + k <= n)%nat ->
  chol_from exact n (fmat n n A) k cols = chol_from exact n (fmat n n (mirrored A)) k cols.
Proof.
  assert (E : forall i j, (j <= i)%nat -> (i < n)%nat -> mget (fmat n n A) i j = mget (fmat n n (mirrored A)) i j).
  { intros i j H Hi. rewrite !mget_fmat by lia. unfold mirrored. rewrite Nat.max_l, Nat.min_r by exact H. reflexivity. }
  induction k as [|k IH]; intros cols Hk; [reflexivity|]. cbn [chol_from]. cbv zeta. rewrite <- E by lia.
  destruct (xltb _ _); [|reflexivity].
  match goal with |- chol_from _ _ _ _ (_ ++ [?u]) = chol_from _ _ _ _ (_ ++ [?v]) => assert (EU : u = v) end.
  { apply tab_ext. intros i Hi. destruct (Nat.ltb_spec i (length cols)); [reflexivity|].
    destruct (Nat.eqb_spec i (length cols)); [reflexivity|]. rewrite E by lia. reflexivity. }
  rewrite <- EU. apply IH. rewrite app_length. cbn [length]. lia.
Qed.
Lemma cholesky_mirrored n A : cholesky exact (fmat n n A) = cholesky exact (fmat n n (mirrored A)).
Proof.
  assert (F : forall B, forallb (forallb xisfin) (rows (fmat n n B)) = true).
  { intros B. apply forallb_forall. intros r Hr. apply forallb_forall. intros v Hv. unfold fmat, mtab in Hr. cbn [rows] in Hr.
    apply in_map_iff in Hr as (i & <- & _). apply in_map_iff in Hv as (j & <- & _). reflexivity. }
  unfold cholesky. rewrite !nrow_fmat, !ncol_fmat, Nat.eqb_refl, !F. cbn [negb]. f_equal. apply chol_from_mirrored. cbn [length]. lia.
Qed.
Lemma posdef_ok n A : (posdef exact (fmat n n A) = Ok true /\ pos_def n (mirrored A))
  \/ (posdef exact (fmat n n A) = Ok false /\ ~ pos_def n (mirrored A)).
Proof.
  pose proof (mirrored_sym n A) as H. unfold posdef. rewrite cholesky_mirrored.
  destruct (cholesky_cases n (mirrored A) H) as [(L & E & HF)|[E Hn]]; rewrite E; [left|right].
  - split; [reflexivity|]. exact (factor_pos_def n _ H L HF).
  - split; [reflexivity|exact Hn].
Qed.
Lemma pos_vals n m V : forallb (fun v => negb (xleb v (Fin 0))) (concat (rows (fmat n m V))) = true <->
  (forall i f, (i < n)%nat -> (f < m)%nat -> 0 < V i f).
Proof.
  rewrite forallb_forall. unfold fmat, mtab. cbn [rows]. split.
  - intros H i f Hi Hf. specialize (H (Fin (V i f))). assert (HI : In (Fin (V i f)) (concat (tab n (fun i => tab m (fun f => Fin (V i f)))))).
    { apply in_concat. exists (tab m (fun f => Fin (V i f))). split; apply in_map_iff; [exists i|exists f]; (split; [reflexivity|apply in_seq; lia]). }
    specialize (H HI). cbn [xleb] in H. unfold Rleb in H. destruct (Rle_dec (V i f) 0); [discriminate|lra].
  - intros H v Hv. apply in_concat in Hv as (r & Hr & Hv). apply in_map_iff in Hr as (i & <- & Hi). apply in_map_iff in Hv as (f & <- & Hf).
    apply in_seq in Hi, Hf. cbn [xleb]. unfold Rleb. specialize (H i f ltac:(lia) ltac:(lia)). destruct (Rle_dec (V i f) 0); [lra|reflexivity].
Qed.
Lemma pos_vec n s : forallb (fun v => negb (xleb v (Fin 0))) (fvec n s) = true <-> (forall i, (i < n)%nat -> 0 < s i).
Proof.
  rewrite forallb_forall. unfold fvec. split.
  - intros H i Hi. specialize (H (Fin (s i)) ltac:(apply in_map_iff; exists i; split; [reflexivity|apply in_seq; lia])).
    cbn [xleb] in H. unfold Rleb in H. destruct (Rle_dec (s i) 0); [discriminate|lra].
  - intros H v Hv. apply in_map_iff in Hv as (i & <- & Hi). apply in_seq in Hi. cbn [xleb]. unfold Rleb. specialize (H i ltac:(lia)).
    destruct (Rle_dec (s i) 0); [lra|reflexivity].
Qed.

(** The assignment succeeds, stores the covariances and touches nothing else. *)
Definition accepts (h : hmm gaussp) (cv : covs) : Prop := exists h', covars_set exact cv h = Ok h' /\ ga_covars (h_em h') = Some cv
  /\ h_cfg h' = h_cfg h /\ h_nfeat h' = h_nfeat h /\ h_start h' = h_start h /\ h_trans h' = h_trans h /\ h_mon h' = h_mon h
  /\ ga_means (h_em h') = ga_means (h_em h) /\ ga_args (h_em h') = ga_args (h_em h).
Lemma accepts_iff h cv : accepts h cv <-> validate_covars exact cv (ga_type (h_em h)) (c_nc (h_cfg h)) = Ok tt.
Proof.
  unfold accepts, covars_set. destruct (validate_covars _ _ _ _) as [[]|]; cbn [bind].
  - split; [reflexivity|]. intros _. eexists. repeat split.
  - split; [intros (h' & H & _); discriminate|discriminate].
Qed.

Definition set_h (ty : string) : hmm gaussp :=
  Hmm (Cfg 2 "stmc" "stmc" "viterbi" "log" 10 (Fin (/ 100)) false (Scal (Fin 1)) (Scal (Fin 1))) (Some 2%nat) None None
      (Monitor (Fin (/ 100)) 10 false [] 0)
      (Gaussp ty (Fin (/ 1000)) (Scal (Fin 0)) (Scal (Fin 0)) (Scal (Fin 0)) (Scal (Fin 1)) None None).
Lemma C71_spherical_l h n s : ga_type (h_em h) = "spherical"%string ->
  (accepts h (CV1 (fvec n s)) <-> n = c_nc (h_cfg h) /\ forall i, (i < n)%nat -> 0 < s i).
Proof.
  intros E. rewrite accepts_iff, E. unfold validate_covars. cbn [String.eqb Ascii.eqb Bool.eqb].
  unfold fvec at 1. rewrite tab_length. destruct (Nat.eqb_spec n (c_nc (h_cfg h))) as [->|Hn]; cbn [negb].
  - pose proof (pos_vec (c_nc (h_cfg h)) s) as P. destruct (forallb _ _); cbn [negb].
    + split; [intros _; split; [reflexivity|apply P; reflexivity]|reflexivity].
    + split; [discriminate|]. intros [_ H]. apply P in H. discriminate.
  - split; [discriminate|intros [H _]; contradiction].
Qed.
Lemma C71_diag_partial_l h n m V : ga_type (h_em h) = "diag"%string ->
  (accepts h (CV2 (fmat n m V)) <-> forall i f, (i < n)%nat -> (f < m)%nat -> 0 < V i f).
Proof.
  intros E. rewrite accepts_iff, E. unfold validate_covars. cbn [String.eqb Ascii.eqb Bool.eqb].
  pose proof (pos_vals n m V) as P. destruct (forallb _ _).
  - split; [intros _; apply P; reflexivity|reflexivity].
  - split; [discriminate|]. intros H. apply P in H. discriminate.
Qed.
Lemma C71_tied_partial_l h n m A : ga_type (h_em h) = "tied"%string ->
  (accepts h (CV2 (fmat n m A)) <-> n = m /\ near_symmetric n A /\ pos_def n (mirrored A)).
Proof.
  intros E. rewrite accepts_iff, E. unfold validate_covars. cbn [String.eqb Ascii.eqb Bool.eqb].
  rewrite nrow_fmat, ncol_fmat. destruct (Nat.eqb_spec n m) as [<-|Hn]; cbn [negb].
  - pose proof (symmetric_iff n A) as S. destruct (symmetric exact (fmat n n A)); cbn [negb].
    + destruct (posdef_ok n A) as [[-> H]|[-> H]]; cbn [bind].
      * split; [intros _; split; [reflexivity|split; [apply S; reflexivity|exact H]]|reflexivity].
      * split; [discriminate|intros (_ & _ & H'); contradiction].
    + split; [discriminate|]. intros (_ & H & _). apply S in H. discriminate.
  - split; [discriminate|intros [H _]; contradiction].
Qed.
Lemma C71_full_partial_l h k n A : ga_type (h_em h) = "full"%string ->
  (accepts h (CV3 (tab k (fun i => fmat n n (A i))))
   <-> forall i, (i < k)%nat -> near_symmetric n (A i) /\ pos_def n (mirrored (A i))).
Proof.
  intros E. rewrite accepts_iff, E. unfold validate_covars. cbn [String.eqb Ascii.eqb Bool.eqb].
  replace (forallb _ _) with true.
  2:{ symmetry. apply forallb_forall. intros m Hm. apply in_map_iff in Hm as (i & <- & _). rewrite nrow_fmat, ncol_fmat. apply Nat.eqb_refl. }
  cbn [negb]. unfold tab.
  assert (G : forall l,
    ((exists us, mapM (fun m => if negb (symmetric exact m)
        then Err (ValueError "component of 'full' covars must be symmetric, positive-definite")
        else do b <- posdef exact m; if (b : bool) then Ok tt else Err (ValueError "component of 'full' covars must be symmetric, positive-definite"))
      (map (fun i => fmat n n (A i)) l) = Ok us) <-> forall i, In i l -> near_symmetric n (A i) /\ pos_def n (mirrored (A i)))).
  { induction l as [|i l IH]; [split; [intros _ i []|intros _; eexists; reflexivity]|].
    cbn [map mapM]. pose proof (symmetric_iff n (A i)) as S. destruct (symmetric exact (fmat n n (A i))); cbn [negb].
    - destruct (posdef_ok n (A i)) as [[-> H]|[-> H]]; cbn [bind].
      + destruct IH as [IH1 IH2]. split.
        * intros (us & Hu). destruct (mapM _ _) as [vs|] eqn:Ev; [|discriminate].
          intros j [<-|Hj]; [split; [apply S; reflexivity|exact H]|]. apply IH1; [eexists; reflexivity|exact Hj].
        * intros Hp. destruct IH2 as [vs ->]; [intros; apply Hp; right; assumption|]. eexists. reflexivity.
      + split; [intros (us & Hu); discriminate|]. intros Hp. exfalso. apply H, Hp. left. reflexivity.
    - split; [intros (us & Hu); discriminate|]. intros Hp.
      destruct (Hp i (or_introl eq_refl)) as [Hi _]. apply S in Hi. discriminate. }
  specialize (G (seq 0 k)). destruct G as [G1 G2].
  destruct (mapM _ _) as [us|] eqn:Eu; cbn [bind].
  - split; [|reflexivity]. intros _ i Hi. apply G1; [eexists; reflexivity|apply in_seq; lia].
  - split; [discriminate|]. intros Hp. destruct G2 as [us Hu]; [|discriminate]. intros i Hi. apply in_seq in Hi. apply Hp. lia.
Qed.
(** Symmetric matrices: exactly the positive definite ones. *)
Lemma C71_symmetric_l h n A : ga_type (h_em h) = "tied"%string -> sym n A ->
  (accepts h (CV2 (fmat n n A)) <-> pos_def n A).
Proof.
  intros E H. rewrite (C71_tied_partial_l h n n A E).
  assert (P : pos_def n (mirrored A) <-> pos_def n A).
  { split; apply pos_def_ext; intros i j Hi Hj; [|symmetry]; apply (mirrored_id n A H); assumption. }
  rewrite P. pose proof (near_symmetric_sym n A H). tauto.
Qed.
(** A matrix that is not symmetric is accepted and stored as it is. *)
Lemma C71_asymmetric_refuted_l : exists h A, ga_type (h_em h) = "tied"%string /\ ~ sym 2 A /\ accepts h (CV2 (fmat 2 2 A)).
Proof.
  exists (set_h "tied"), (fun i j => if Nat.eqb i j then 1 else if Nat.ltb i j then / 10 ^ 8 else 0).
  assert (P8 : 0 < / 10 ^ 8) by (apply Rinv_0_lt_compat, pow_lt; lra).
  assert (P5 : 0 < / 10 ^ 5) by (apply Rinv_0_lt_compat, pow_lt; lra).
  split; [reflexivity|]. split.
  - intros H. specialize (H 0%nat 1%nat ltac:(lia) ltac:(lia)). cbn in H. lra.
  - apply C71_tied_partial_l; [reflexivity|]. split; [reflexivity|]. split.
    + intros [|[|i]] [|[|j]] Hi Hj; try lia; cbn [Nat.eqb Nat.ltb Nat.leb];
        (match goal with |- Rabs (?a - ?b) <= _ => pose proof (Rabs_pos b) end);
        try (rewrite Rminus_diag_eq by reflexivity; rewrite Rabs_R0; nra).
      * rewrite Rabs_right by lra. nra.
      * rewrite Rabs_left by lra. nra.
    + split; [apply mirrored_sym|]. intros v (j & Hj & Hv). unfold quad, mirrored. cbn [sumn Nat.max Nat.min Nat.eqb Nat.ltb Nat.leb].
      destruct j as [|[|j]]; [| |lia]; destruct (Rdichotomy _ _ Hv); nra.
Qed.
(** Only the lower triangle of a matrix enters the densities. *)
Lemma C33_lower_triangle_l nc nf mu (Sg : nat -> nat -> nat -> R) x : (0 < nf)%nat ->
  log_mvn_density exact "full" x (fmat nc nf mu) (CV3 (tab nc (fun i => fmat nf nf (Sg i))))
  = log_mvn_density exact "full" x (fmat nc nf mu) (CV3 (tab nc (fun i => fmat nf nf (mirrored (Sg i))))).
Proof.
  intros Hnf. change (lmnd_full exact x (fmat nc nf mu) (CV3 (tab nc (fun i => fmat nf nf (Sg i))))
    = lmnd_full exact x (fmat nc nf mu) (CV3 (tab nc (fun i => fmat nf nf (mirrored (Sg i)))))).
  apply lmnd_full_ext. intros i Hi. unfold lmnd_full1. rewrite (cholesky_mirrored nf (Sg i)), !(b2_ridge nf _ Hnf). cbn [bind].
  rewrite (cholesky_mirrored nf (ridge (Sg i))).
  replace (fmat nf nf (mirrored (ridge (Sg i)))) with (fmat nf nf (ridge (mirrored (Sg i)))); [reflexivity|].
  apply fmat_ext. intros a b _ _. unfold ridge, mirrored. destruct (Nat.eqb_spec a b) as [->|Hn].
  - rewrite Nat.max_id, Nat.min_id, Nat.eqb_refl. reflexivity.
  - destruct (Nat.eqb_spec (Nat.max a b) (Nat.min a b)); [lia|reflexivity].
Qed.
(** Neither "diag" nor "full" compares the shape with the model; NaN passes. *)
Lemma C71_shape_refuted_l : exists h h1 k, k <> c_nc (h_cfg h) /\ ga_type (h_em h) = "diag"%string
  /\ accepts h (CV2 (fmat k 5 (fun _ _ => 1)))
  /\ ga_type (h_em h1) = "full"%string /\ k <> c_nc (h_cfg h1) /\ accepts h1 (CV3 (tab k (fun _ => fmat 1 1 (fun _ _ => 1)))).
Proof.
  exists (set_h "diag"), (set_h "full"), 3%nat. split; [cbn; lia|]. split; [reflexivity|]. split.
  - apply C71_diag_partial_l; [reflexivity|]. intros; lra.
  - split; [reflexivity|]. split; [cbn; lia|]. apply (C71_full_partial_l (set_h "full") 3 1 (fun _ _ _ => 1)); [reflexivity|].
    intros i _. split; [apply near_symmetric_sym; intros a b _ _; reflexivity|].
    split; [intros a b _ _; reflexivity|]. intros v (j & Hj & Hv). unfold mirrored. destruct j as [|j]; [|lia].
      unfold quad. cbn [sumn]. destruct (Rdichotomy _ _ Hv); nra.
Qed.
Lemma C71_nan_refuted_l : exists h h1, ga_type (h_em h) = "diag"%string /\ accepts h (CV2 (mtab 2 2 (fun _ _ => NaN)))
  /\ ga_type (h_em h1) = "spherical"%string /\ accepts h1 (CV1 (tab 2 (fun _ => NaN))).
Proof.
  exists (set_h "diag"), (set_h "spherical"). repeat (split; [reflexivity|]). split; [|split; [reflexivity|]]; apply accepts_iff; reflexivity.
Qed.

(** ** C70: start values. *)
Definition all_mean (n : nat) (M : nat -> nat -> R) : R := sumn n (fun k => sumn n (M k)) / (INR n * INR n).
(** The stored attribute for the matrix [M] shared by all states. *)
Definition start_covs (ty : string) (nc nf : nat) (M : nat -> nat -> R) : covs :=
  if String.eqb ty "spherical" then CV2 (fmat nc nf (fun _ _ => all_mean nf M))
  else if String.eqb ty "tied" then CV2 (fmat nf nf M)
  else if String.eqb ty "diag" then CV2 (fmat nc nf (fun _ f => M f f))
  else CV3 (tab nc (fun _ => fmat nf nf M)).

Lemma concat_mean n m M : (0 < n)%nat -> (0 < m)%nat ->
  arr_mean exact (concat (rows (fmat n m M))) = Fin (sumn n (fun k => sumn m (M k)) / (INR n * INR m)).
Proof.
  intros Hn Hm.
  assert (L : length (concat (rows (fmat n m M))) = (n * m)%nat).
  { unfold fmat, mtab, tab. cbn [rows]. rewrite <- (seq_length n 0) at 2. generalize (seq 0 n) as l. induction l as [|i l IH]; [reflexivity|].
    cbn [map concat length]. rewrite app_length, map_length, seq_length, IH. lia. }
  assert (S : xsum exact (concat (rows (fmat n m M))) = Fin (sumn n (fun k => sumn m (M k)))).
  { clear. induction n as [|n IH]; [reflexivity|].
    assert (E : rows (fmat (S n) m M) = rows (fmat n m M) ++ [fvec m (M n)]).
    { unfold fmat, mtab, tab. cbn [rows]. rewrite seq_S, map_app. reflexivity. }
    rewrite E, concat_app. cbn [concat]. rewrite app_nil_r. unfold xsum in *. rewrite fold_left_app, IH. cbn [sumn].
    generalize (sumn n (fun k => sumn m (M k))) as a. intros a. clear.
    induction m as [|m IH]; [cbn; f_equal; ring|].
    unfold fvec, tab in *. rewrite seq_S, map_app, fold_left_app, IH. cbn [map fold_left sumn Nat.add]. rewrite xaddE. f_equal. ring. }
  unfold arr_mean. rewrite S, L, mult_INR.
  assert (0 < INR n) by (apply lt_0_INR; exact Hn). assert (0 < INR m) by (apply lt_0_INR; exact Hm).
  rewrite xdivE by nra. reflexivity.
Qed.

Lemma distribute_ok ty nc nf M cv : (0 < nf)%nat -> distribute exact (fmat nf nf M) ty nc = Ok cv ->
  cv = start_covs ty nc nf M.
Proof.
  intros Hnf. unfold distribute, start_covs. rewrite ncol_fmat.
  destruct (String.eqb ty "spherical").
  { intros H. transitivity (CV2 (mtab nc nf (fun _ _ => xmul exact (arr_mean exact (concat (rows (fmat nf nf M)))) (Fin 1)))); [congruence|].
    rewrite concat_mean, xmulE by assumption. f_equal. apply mtab_ext. intros i j _ _. f_equal.
    unfold all_mean. ring. }
  destruct (String.eqb ty "tied"); [intros H; injection H as <-; reflexivity|].
  destruct (String.eqb ty "diag").
  { intros H. transitivity (CV2 (mtab nc nf (fun _ j => mget (fmat nf nf M) j j))); [congruence|].
    f_equal. apply mtab_ext. intros i j _ Hj. rewrite mget_fmat by assumption. reflexivity. }
  destruct (String.eqb ty "full"); [|discriminate]. intros H. injection H as <-. reflexivity.
Qed.
Lemma all_mean_pos n M : (0 < n)%nat -> pos_def n M -> 0 < all_mean n M.
Proof.
  intros Hn [_ H]. assert (0 < INR n) by (apply lt_0_INR; exact Hn). unfold all_mean. apply Rdiv_lt_0_compat; [|nra].
  specialize (H (fun _ => 1) ltac:(exists 0%nat; split; [exact Hn|lra])). unfold quad in H.
  rewrite (sumn_ext n _ (fun k => sumn n (M k))) in H; [exact H|]. intros k _. apply sumn_ext. intros l _. ring.
Qed.

Lemma C70_start_covariances_l {G} (rg : rng G) e glob x e' glob' ev nf mc :
  init gauss_initc rg exact e glob x = Ok (e', glob', ev) ->
  Forall (finite_row nf) x -> (2 <= length x)%nat -> (0 < nf)%nat ->
  let h := e_hmm e in let h' := e_hmm e' in let ty := ga_type (h_em h) in
  ga_min_covar (h_em h) = Fin mc -> 0 < mc ->
  (has "c" (c_init_params (h_cfg h)) = true \/ ga_covars (h_em h) = None) ->
  ga_covars (h_em h') = Some (start_covs ty (c_nc (h_cfg h)) nf (s_covr mc x))
  /\ pos_def nf (s_covr mc x) /\ (forall f, (f < nf)%nat -> 0 < s_covr mc x f f) /\ 0 < all_mean nf (s_covr mc x).
Proof.
  intros H Hx Hn Hnf. cbv zeta. intros Hmc Hpos Hc.
  destruct (C22_gaussian_l rg exact e glob x e' glob' ev H) as (_ & _ & _ & _ & _ & K).
  assert (F : exists cv, ga_covars (h_em (e_hmm e')) = Some cv
            /\ distribute exact (cov_template exact (ga_min_covar (h_em (e_hmm e))) x) (ga_type (h_em (e_hmm e))) (c_nc (h_cfg (e_hmm e))) = Ok cv).
  { unfold kept_or_fresh in K. destruct Hc as [Hc|Hc].
    - rewrite Hc in K. destruct (ga_covars (h_em (e_hmm e))); exact K.
    - rewrite Hc in K. exact K. }
  destruct F as (cv & E1 & E2). rewrite Hmc, (template_ok nf x Hx Hn) in E2. apply (distribute_ok _ _ _ _ _ Hnf) in E2. subst cv.
  pose proof (s_covr_pd nf mc x Hn Hpos) as PD.
  split; [exact E1|]. split; [exact PD|]. split; [|apply all_mean_pos; assumption].
  intros f Hf. destruct PD as [_ PD]. specialize (PD (fun k => if Nat.eqb k f then 1 else 0)).
  assert (Q : quad nf (s_covr mc x) (fun k => if Nat.eqb k f then 1 else 0) = s_covr mc x f f).
  { unfold quad. rewrite (sumn_ext nf _ (fun i => if Nat.eqb i f then s_covr mc x i f else 0)).
    - apply (sumn_if_eq nf (fun i => s_covr mc x i f)). exact Hf.
    - intros i Hi. rewrite (sumn_ext nf _ (fun j => if Nat.eqb j f then (if Nat.eqb i f then s_covr mc x i j else 0) else 0)).
      + apply (sumn_if_eq nf (fun j => if Nat.eqb i f then s_covr mc x i j else 0)). exact Hf.
      + intros j Hj. destruct (Nat.eqb i f), (Nat.eqb j f); ring. }
  rewrite <- Q. apply PD. exists f. split; [exact Hf|]. rewrite Nat.eqb_refl. lra.
Qed.

(** With one sample every entry is NaN: "full" and "tied" raise, "diag" and
    "spherical" store NaN. *)
Lemma nan_template nf o mc : finite_row nf o -> (0 < nf)%nat -> cov_template exact (Fin mc) [o] = mtab nf nf (fun _ _ => NaN).
Proof.
  intros Ho Hnf. unfold cov_template.
  assert (W : width [o] = nf) by (apply (width_finite nf [o]); [discriminate|repeat constructor; apply Ho]).
  rewrite W. apply mtab_ext. intros i j Hi Hj. unfold np_cov. rewrite W, mget_mtab by assumption.
  cbn [map length]. rewrite !(finite_row_get nf o) by assumption.
  assert (M : forall a, arr_mean exact [Fin a] = Fin a).
  { intros a. unfold arr_mean, xsum. cbn [fold_left length INR]. rewrite xaddE, xdivE by lra. f_equal. field. }
  rewrite !M, !xsubE, xmulE. unfold xsum. cbn [fold_left]. rewrite xaddE.
  replace (INR 1 - 1) with 0 by (simpl; ring). replace (0 + (xval o i - xval o i) * (xval o j - xval o j)) with 0 by ring.
  cbn [xdiv]. destruct (Req_EM_T 0 0); [|contradiction]. destruct (Rlt_dec 0 1); [|lra].
  cbn [xmul]. unfold xscale_inf. destruct (Rlt_dec 0 0); [lra|]. reflexivity.
Qed.
Lemma gauss_em_validated {G} (rg : rng G) fp c n p x rs glob p' rs' glob' ev :
  gauss_init_em fp rg c (Some n) p x rs glob = Ok (p', rs', glob', ev) ->
  (has "c" (c_init_params c) = true \/ ga_covars p = None) ->
  exists cv, ga_covars p' = Some cv /\ distribute fp (cov_template fp (ga_min_covar p) x) (ga_type p) (c_nc c) = Ok cv
    /\ validate_covars fp cv (ga_type p) (c_nc c) = Ok tt.
Proof.
  intros H Hc. unfold gauss_init_em in H.
  destruct (needs_init _ "m" _ _) as [nm w1]. apply bind_inv in H as ([[means rs1] g1] & Hmeans & H). apply bind_inv in H as (b & Hb & H).
  destruct (needs_init _ "c" _ _) as [ncv w2] eqn:Ec. apply needs_init_spec in Ec as [Hn _].
  assert (ncv = true) as ->.
  { rewrite Hn. destruct Hc as [->|Hc]; [reflexivity|]. rewrite Hc in Hb. injection Hb as <-. apply Bool.orb_true_r. }
  apply bind_inv in H as (cv & Hcv & H). apply bind_inv in H as ([] & Hv & H). injection H as <- <- <- <-.
  exists cv. split; [reflexivity|]. split; assumption.
Qed.
Lemma nan_asymmetric n : (0 < n)%nat -> symmetric exact (mtab n n (fun _ _ => NaN)) = false.
Proof.
  intros Hn. apply Bool.not_true_is_false. intros H. unfold symmetric in H. rewrite forallb_forall in H.
  rewrite nrow_mtab in H. specialize (H 0%nat ltac:(apply in_seq; lia)). rewrite forallb_forall in H.
  specialize (H 0%nat ltac:(apply in_seq; lia)). rewrite mget_mtab in H by lia. discriminate.
Qed.
Lemma C70_one_sample_l {G} (rg : rng G) e glob o e' glob' ev nf mc :
  init gauss_initc rg exact e glob [o] = Ok (e', glob', ev) ->
  finite_row nf o -> (0 < nf)%nat -> (0 < c_nc (h_cfg (e_hmm e)))%nat ->
  let h := e_hmm e in let h' := e_hmm e' in let ty := ga_type (h_em h) in
  ga_min_covar (h_em h) = Fin mc ->
  (has "c" (c_init_params (h_cfg h)) = true \/ ga_covars (h_em h) = None) ->
  (ty = "diag"%string \/ ty = "spherical"%string)
  /\ ga_covars (h_em h') = Some (CV2 (mtab (c_nc (h_cfg h)) nf (fun _ _ => NaN))).
Proof.
  intros H Ho Hnf Hnc. cbv zeta. intros Hmc Hc.
  destruct (init_spec _ _ _ _ _ _ _ _ _ H) as (A1 & A2 & A3 & p & rs & g1 & ev2 & Hn & Hem).
  cbn [ic_nfeat ic_em gauss_initc] in Hn, Hem. destruct (gauss_nfeat_inv _ _ _ _ _ _ Hn) as [Hn' ->]. rewrite Hn' in Hem.
  destruct (gauss_em_validated _ _ _ _ _ _ _ _ _ _ _ _ Hem Hc) as (cv & E1 & E2 & E3).
  rewrite Hmc, (nan_template nf o mc Ho Hnf) in E2. rewrite E1. unfold distribute in E2. unfold validate_covars in E3.
  destruct (String.eqb_spec (ga_type (h_em (e_hmm e))) "spherical") as [T|T].
  { split; [right; exact T|]. f_equal. rewrite ncol_mtab in E2.
    assert (M : arr_mean exact (concat (rows (mtab nf nf (fun _ _ => NaN)))) = NaN).
    { unfold arr_mean. replace (xsum exact (concat (rows (mtab nf nf (fun _ _ => NaN))))) with NaN; [reflexivity|].
      destruct nf as [|n]; [lia|]. unfold xsum, mtab. cbn [rows]. rewrite tab_S. cbn [concat]. rewrite tab_S. cbn [app fold_left xadd].
      match goal with |- _ = fold_left _ ?l NaN => generalize l end. clear.
      intros l. induction l as [|a l IH]; [reflexivity|]. exact IH. }
    transitivity (CV2 (mtab (c_nc (h_cfg (e_hmm e))) nf (fun _ _ => xmul exact (arr_mean exact (concat (rows (mtab nf nf (fun _ _ => NaN))))) (Fin 1))));
      [congruence|]. rewrite M. reflexivity. }
  destruct (String.eqb_spec (ga_type (h_em (e_hmm e))) "tied") as [T2|T2].
  { exfalso. injection E2 as <-. rewrite (nan_asymmetric nf Hnf) in E3. rewrite nrow_mtab, ncol_mtab, Nat.eqb_refl in E3. discriminate. }
  destruct (String.eqb_spec (ga_type (h_em (e_hmm e))) "diag") as [T3|T3].
  { split; [left; exact T3|]. f_equal. rewrite ncol_mtab in E2.
    transitivity (CV2 (mtab (c_nc (h_cfg (e_hmm e))) nf (fun _ j => mget (mtab nf nf (fun _ _ => NaN)) j j))); [congruence|].
    f_equal. apply mtab_ext. intros i j _ Hj. rewrite mget_mtab by assumption. reflexivity. }
  destruct (String.eqb_spec (ga_type (h_em (e_hmm e))) "full") as [T4|T4]; [|discriminate].
  exfalso. injection E2 as <-. destruct (c_nc (h_cfg (e_hmm e))) as [|n]; [lia|]. rewrite tab_S in E3.
  destruct (negb _) in E3; [discriminate|]. cbn [mapM] in E3. rewrite (nan_asymmetric nf Hnf) in E3. discriminate.
Qed.

(** ** C70: initialisation of an estimator on which nothing is set. *)
Definition ga_fresh (h : hmm gaussp) : Prop :=
  h_start h = None /\ h_trans h = None /\ ga_means (h_em h) = None /\ ga_covars (h_em h) = None.
(** k-means returns finite centres of the right shape. *)
Definition centres {G} (rg : rng G) (nc nf : nat) (x : list vec) (mu : nat -> nat -> R) : Prop :=
  exists g g', r_kmeans rg nc x g = Ok (fmat nc nf mu, g').
Definition good_kmeans {G} (rg : rng G) (nc nf : nat) (x : list vec) : Prop :=
  forall g, exists mu g', r_kmeans rg nc x g = Ok (fmat nc nf mu, g').

Lemma gauss_nfit_ok c n p : letters_in (c_params c) ["s"; "t"; "m"; "c"]%char -> is_type covariance_types (ga_type p) = true ->
  exists d k, gauss_nfit c (Some n) p = Ok d /\ dict_sum d (c_params c) = Ok k.
Proof.
  intros Hl Hty. assert (K : exists k, gauss_nfit c (Some n) p = Ok (base_nfit (c_nc c) ++ [("m"%char, Z.of_nat (c_nc c) * Z.of_nat n); ("c"%char, k)])%Z).
  { unfold gauss_nfit. unfold is_type, covariance_types in Hty. cbn [existsb] in Hty.
    destruct (String.eqb (ga_type p) "spherical"); [eexists; reflexivity|].
    destruct (String.eqb (ga_type p) "diag"); [eexists; reflexivity|].
    destruct (String.eqb (ga_type p) "full"); [eexists; reflexivity|].
    destruct (String.eqb (ga_type p) "tied"); [eexists; reflexivity|]. discriminate. }
  destruct K as (k0 & ->).
  destruct (dict_sum_ok (base_nfit (c_nc c) ++ [("m"%char, Z.of_nat (c_nc c) * Z.of_nat n); ("c"%char, k0)])%Z (c_params c)) as (k & Hk).
  - intros a Ha. specialize (Hl a Ha). cbn in Hl. destruct Hl as [<-|[<-|[<-|[<-|[]]]]]; cbn; eexists; reflexivity.
  - eexists _, k. split; [reflexivity|exact Hk].
Qed.
Lemma start_distribute ty nc nf M : (0 < nf)%nat -> is_type covariance_types ty = true ->
  distribute exact (fmat nf nf M) ty nc = Ok (start_covs ty nc nf M).
Proof.
  intros Hnf Hty. assert (K : exists cv, distribute exact (fmat nf nf M) ty nc = Ok cv).
  { unfold distribute. unfold is_type, covariance_types in Hty. cbn [existsb] in Hty.
    destruct (String.eqb ty "spherical"); [eexists; reflexivity|].
    destruct (String.eqb ty "tied"); [eexists; reflexivity|].
    destruct (String.eqb ty "diag"); [eexists; reflexivity|].
    destruct (String.eqb ty "full"); [eexists; reflexivity|]. discriminate. }
  destruct K as (cv & E). rewrite E. f_equal. exact (distribute_ok _ _ _ _ _ Hnf E).
Qed.
Definition start_model (h : hmm gaussp) (nc nf : nat) (pi : nat -> R) (A mu C : nat -> nat -> R) : Prop :=
  (ga_type (h_em h) = "diag"%string -> gauss_model h nc nf pi A mu (fun _ f => C f f))
  /\ (ga_type (h_em h) = "spherical"%string -> gauss_model h nc nf pi A mu (fun _ _ => all_mean nf C))
  /\ (ga_type (h_em h) = "full"%string \/ ga_type (h_em h) = "tied"%string -> full_model h nc nf pi A mu (fun _ => C)).
Lemma near1_1 r : r = 1 -> near1 r.
Proof. intros ->. unfold near1. replace (1 - 1) with 0 by ring. rewrite Rabs_R0. lra. Qed.
Lemma start_validates ty nc nf C : (0 < nf)%nat -> is_type covariance_types ty = true -> pos_def nf C ->
  validate_covars exact (start_covs ty nc nf C) ty nc = Ok tt.
Proof.
  intros Hnf Hty PD. unfold start_covs, is_type, covariance_types in *. cbn [existsb] in Hty.
  pose proof (accepts_iff (Hmm (Cfg nc "" "" "" "" 0 NaN false (Scal NaN) (Scal NaN)) None None None (Monitor NaN 0 false [] 0)
     (Gaussp ty NaN (Scal NaN) (Scal NaN) (Scal NaN) (Scal NaN) None None))) as AI.
  cbn [h_em ga_type h_cfg c_nc] in AI.
  destruct (String.eqb_spec ty "spherical") as [->|T1].
  { unfold validate_covars. cbn [String.eqb Ascii.eqb Bool.eqb]. rewrite nrow_fmat, Nat.eqb_refl. cbn [negb].
    pose proof (proj2 (pos_vals nc nf (fun _ _ => all_mean nf C))) as P. rewrite P; [reflexivity|].
    intros. apply all_mean_pos; assumption. }
  destruct (String.eqb_spec ty "tied") as [->|T2].
  { apply AI. apply C71_symmetric_l; [reflexivity|apply PD|exact PD]. }
  destruct (String.eqb_spec ty "diag") as [->|T3].
  { apply AI. apply C71_diag_partial_l; [reflexivity|]. intros i f _ Hf. apply (pd_diag_pos nf); assumption. }
  destruct (String.eqb_spec ty "full") as [->|T4]; [|discriminate].
  apply AI. apply (C71_full_partial_l _ nc nf (fun _ => C)); [reflexivity|]. intros _ _.
  split; [apply near_symmetric_sym, PD|]. apply (pos_def_ext nf C); [|exact PD].
  intros i j Hi Hj. symmetry. apply (mirrored_id nf C); [apply PD| |]; assumption.
Qed.

Lemma C70_init_l {G} (rg : rng G) e glob x nf mc :
  let h := e_hmm e in let c := h_cfg h in let nc := c_nc c in let p := h_em h in
  pos_dirichlet rg -> valid_rs rg (e_rs e) -> (0 < nc)%nat -> (0 < nf)%nat -> letters_in (c_params c) ["s"; "t"; "m"; "c"]%char ->
  ga_fresh h -> (h_nfeat h = None \/ h_nfeat h = Some nf) -> is_type covariance_types (ga_type p) = true ->
  ga_min_covar p = Fin mc -> 0 < mc -> Forall (finite_row nf) x -> (2 <= length x)%nat -> good_kmeans rg nc nf x ->
  exists e1 glob1 ev pi A mu, init gauss_initc rg exact e glob x = Ok (e1, glob1, ev)
    /\ h_cfg (e_hmm e1) = c /\ h_nfeat (e_hmm e1) = Some nf /\ h_mon (e_hmm e1) = h_mon h
    /\ ga_args (h_em (e_hmm e1)) = ga_args p /\ valid_rs rg (e_rs e1)
    /\ pos1 nc pi /\ sumn nc pi = 1 /\ pos2 nc nc A /\ (forall i, (i < nc)%nat -> sumn nc (A i) = 1)
    /\ centres rg nc nf x mu /\ start_model (e_hmm e1) nc nf pi A mu (s_covr mc x).
Proof.
  cbv zeta. intros Hrg Hrs Hnc Hnf Hlet (F1 & F2 & F3 & F4) Hfe Hty Hmc Hpos Hx Hn Hkm.
  destruct e as [h rs]. cbn [e_hmm e_rs] in *. set (c := h_cfg h) in *. set (nc := c_nc c) in *. set (p := h_em h) in *.
  assert (HI : 0 < INR nc) by (apply lt_0_INR; exact Hnc).
  assert (Hu : xdiv exact (Fin 1) (Fin (INR nc)) = Fin (/ INR nc)).
  { rewrite xdivE by lra. unfold Rdiv. rewrite Rmult_1_l. reflexivity. }
  assert (Hdir : forall g, exists f g', r_dirichlet rg (tab nc (fun _ => Fin (/ INR nc))) g = Ok (fvec nc f, g') /\ pos1 nc f /\ sumn nc f = 1).
  { intros g. apply (Hrg nc (fun _ => / INR nc) g Hnc). intros i _. apply Rinv_0_lt_compat, HI. }
  assert (Hw : width x = nf) by (apply (cov_width nf x Hx Hn)).
  unfold init, base_init. cbn [e_hmm e_rs ic_nfeat gauss_initc]. fold c. fold p. unfold gauss_nfeat. rewrite Hw.
  assert (Hset : set_n_features (h_nfeat h) nf = Ok (Some nf)).
  { destruct Hfe as [->| ->]; cbn [set_n_features]; [reflexivity|]. rewrite Nat.eqb_refl. reflexivity. }
  rewrite Hset. cbn [bind]. fold nc. destruct (Nat.eqb_spec nc 0); [lia|]. rewrite Hu.
  destruct (rs_get_ok rg rs glob Hrs) as (g & ->). cbn [bind]. rewrite F1, F2. unfold needs_init. cbn [isSome].
  replace (if has "s" (c_init_params c) then (true, []) else (negb false, [])) with (true, @nil event) by (destruct (has "s" _); reflexivity).
  replace (if has "t" (c_init_params c) then (true, []) else (negb false, [])) with (true, @nil event) by (destruct (has "t" _); reflexivity).
  cbv iota. destruct (Hdir g) as (fs & g1 & -> & Ps & Ss). cbn [bind].
  destruct (draws_fmat _ nc _ Hdir nc g1) as (FT & g2 & -> & HT). cbn [bind].
  destruct (rs_put rs glob g2) as [rs1 glob2] eqn:Eput.
  cbn [ic_nfit ic_em ic_width gauss_initc]. destruct (gauss_nfit_ok c nf p Hlet Hty) as (dd & kk & -> & Hk). cbn [bind]. rewrite Hk. cbn [bind].
  cbn [e_hmm e_rs h_cfg h_nfeat h_em h_start h_trans h_mon]. unfold gauss_init_em, needs_init. rewrite F3, F4. cbn [isSome].
  replace (if has "m" (c_init_params c) then (true, []) else (negb false, [])) with (true, @nil event) by (destruct (has "m" _); reflexivity).
  pose proof (rs_put_valid rg _ _ _ _ _ Hrs Eput) as V1.
  destruct (rs_get_ok rg rs1 glob2 V1) as (g3 & ->). cbn [bind]. fold nc.
  destruct (Hkm g3) as (mu & g4 & Ekm). rewrite Ekm. cbn [bind].
  destruct (rs_put rs1 glob2 g4) as [rs2 glob3] eqn:Eput2. cbn [bind].
  replace (if has "c" (c_init_params c) then (true, []) else (negb false, [])) with (true, @nil event) by (destruct (has "c" _); reflexivity).
  pose proof (s_covr_pd nf mc x Hn Hpos) as PD.
  rewrite Hmc, (template_ok nf x Hx Hn), (start_distribute _ _ _ _ Hnf Hty). cbn [bind].
  rewrite (start_validates _ _ _ _ Hnf Hty PD). cbn [bind].
  eexists _, _, _, fs, FT, mu. split; [reflexivity|]. cbn [e_hmm e_rs h_cfg h_nfeat h_mon h_em].
  split; [reflexivity|]. split; [reflexivity|]. split; [reflexivity|]. split; [reflexivity|].
  split; [exact (rs_put_valid rg _ _ _ _ _ V1 Eput2)|]. split; [exact Ps|]. split; [exact Ss|].
  split; [intros i j Hi; apply HT; exact Hi|]. split; [intros i Hi; apply HT; exact Hi|].
  split; [exists g3, g4; exact Ekm|].
  match goal with |- start_model ?a _ _ _ _ _ _ => set (h1 := a) end.
  assert (B : base_ok h1 nc fs FT).
  { constructor; try reflexivity; try assumption.
    - intros i Hi. apply Rlt_le, Ps, Hi.
    - apply near1_1, Ss.
    - intros i j Hi Hj. apply Rlt_le. apply (proj1 (HT i Hi)). exact Hj.
    - intros i Hi. apply near1_1, HT, Hi. }
  assert (Ec : ga_covars (h_em h1) = Some (start_covs (ga_type p) nc nf (s_covr mc x))) by reflexivity.
  assert (Em : ga_means (h_em h1) = Some (fmat nc nf mu)) by reflexivity.
  assert (Et : ga_type (h_em h1) = ga_type p) by reflexivity. clearbody h1.
  unfold start_model. rewrite Et. split; [|split].
  - intros T. rewrite T in Ec. constructor; try assumption. eexists. split; [exact Ec|]. rewrite Et, T. apply VDiag.
  - intros T. rewrite T in Ec. constructor; try assumption. eexists. split; [exact Ec|]. rewrite Et, T.
    change (start_covs "spherical" nc nf (s_covr mc x)) with (CV2 (fmat nc nf (fun _ _ => all_mean nf (s_covr mc x)))).
    apply (VSph2 nc nf (fun _ _ => all_mean nf (s_covr mc x))). reflexivity.
  - intros T. constructor; try assumption.
    + eexists. split; [exact Ec|]. rewrite Et. destruct T as [T|T]; rewrite T.
      * apply (MFull nc nf (fun _ => s_covr mc x)).
      * apply (MTied nc nf (fun _ => s_covr mc x)). reflexivity.
    + intros i _. apply pd_psd. exact PD.
Qed.
