(** * Statistics of multi-feature classes. *)
From Verif Require Export Rows Gen_fit Cat_fit.

(** Arithmetic on finite numbers. *)
Lemma xaddE a b : xadd exact (Fin a) (Fin b) = Fin (a + b). Proof. reflexivity. Qed.
Lemma xsubE a b : xsub exact (Fin a) (Fin b) = Fin (a - b). Proof. reflexivity. Qed.
Lemma xmulE a b : xmul exact (Fin a) (Fin b) = Fin (a * b). Proof. reflexivity. Qed.
Lemma xdivE a b : b <> 0 -> xdiv exact (Fin a) (Fin b) = Fin (a / b).
Proof. intros H. cbn [xdiv]. destruct (Req_EM_T b 0); [contradiction|reflexivity]. Qed.

Lemma wsum_ext {X} (l : list (list X * (nat -> nat -> R))) phi psi i (ok : X -> Prop) :
  (forall x g, In (x, g) l -> Forall ok x) -> (forall o, ok o -> phi o i = psi o i) ->
  wsum l phi i = wsum l psi i.
Proof.
  intros Hl H. unfold wsum. apply sumL_ext. intros [x g] Hin. cbn [fst snd].
  apply sumn_ext. intros t Ht. f_equal.
  specialize (Hl x g Hin). rewrite Forall_forall in Hl.
  destruct x as [|d x0]; [simpl in Ht; lia|]. rewrite !(obsB_nth _ (d :: x0) d) by exact Ht.
  apply H, Hl, nth_In. exact Ht.
Qed.

Lemma wsum_plus {X} (l : list (list X * (nat -> nat -> R))) phi psi i :
  wsum l (fun o j => phi o j + psi o j) i = wsum l phi i + wsum l psi i.
Proof.
  unfold wsum. rewrite <- sumL_plus. apply sumL_ext. intros [x g] Hin. cbn [fst snd].
  rewrite <- sumn_plus. apply sumn_ext. intros t Ht.
  destruct x as [|d x0]; [simpl in Ht; lia|]. rewrite !(obsB_nth _ (d :: x0) d) by exact Ht. ring.
Qed.

Lemma wsum_scal {X} (l : list (list X * (nat -> nat -> R))) a phi i :
  wsum l (fun o j => a * phi o j) i = a * wsum l phi i.
Proof.
  unfold wsum. rewrite <- sumL_scal_l. apply sumL_ext. intros [x g] Hin. cbn [fst snd].
  rewrite <- sumn_scal_l. apply sumn_ext. intros t Ht.
  destruct x as [|d x0]; [simpl in Ht; lia|]. rewrite !(obsB_nth _ (d :: x0) d) by exact Ht. ring.
Qed.

Lemma wsum_sumn {X} (l : list (list X * (nat -> nat -> R))) n (phi : nat -> X -> nat -> R) i :
  wsum l (fun o j => sumn n (fun f => phi f o j)) i = sumn n (fun f => wsum l (phi f) i).
Proof.
  induction n as [|n IH].
  - cbn [sumn]. unfold wsum. apply sumL_zero. intros [x g] Hin. cbn [fst snd]. apply sumn_zero.
    intros t Ht. destruct x as [|d x0]; [simpl in Ht; lia|]. rewrite (obsB_nth _ (d :: x0) d) by exact Ht. ring.
  - cbn [sumn]. rewrite wsum_plus, IH. reflexivity.
Qed.

Lemma wsum_nonneg {X} (l : list (list X * (nat -> nat -> R))) phi i (ok : X -> Prop) :
  (forall x g, In (x, g) l -> Forall ok x /\ forall t, (t < length x)%nat -> 0 <= g t i) ->
  (forall o, ok o -> 0 <= phi o i) -> 0 <= wsum l phi i.
Proof.
  intros Hl H. unfold wsum. apply sumL_nonneg. intros [x g] Hin. cbn [fst snd]. apply sumn_nonneg. intros t Ht.
  destruct (Hl x g Hin) as [H1 H2]. rewrite Forall_forall in H1.
  destruct x as [|d x0]; [simpl in Ht; lia|]. rewrite (obsB_nth _ (d :: x0) d) by exact Ht.
  apply Rmult_le_pos; [apply H2; exact Ht|apply H, H1, nth_In; exact Ht].
Qed.

(** One positively weighted sample with a positive value. *)
Lemma wsum_pos {X} (l : list (list X * (nat -> nat -> R))) phi i (ok : X -> Prop) x g t :
  (forall x g, In (x, g) l -> Forall ok x /\ forall t, (t < length x)%nat -> 0 <= g t i) ->
  (forall o, ok o -> 0 <= phi o i) ->
  In (x, g) l -> (t < length x)%nat -> 0 < g t i -> 0 < obsB phi x t i -> 0 < wsum l phi i.
Proof.
  intros Hl H Hin Ht Hg Hp. unfold wsum.
  assert (Hnn : forall y g', In (y, g') l -> forall s, (s < length y)%nat -> 0 <= g' s i * obsB phi y s i).
  { intros y g' Hy s Hs. destruct (Hl y g' Hy) as [H1 H2]. rewrite Forall_forall in H1.
    destruct y as [|d y0]; [simpl in Hs; lia|]. rewrite (obsB_nth _ (d :: y0) d) by exact Hs.
    apply Rmult_le_pos; [apply H2; exact Hs|apply H, H1, nth_In; exact Hs]. }
  eapply Rlt_le_trans; [|apply (sumL_ge_term _ l (x, g)); [|exact Hin]].
  - cbn [fst snd]. apply (sumn_pos _ _ t); [|exact Ht|apply Rmult_lt_0_compat; assumption].
    intros s Hs. apply (Hnn x g Hin s Hs).
  - intros [y g'] Hy. cbn [fst snd]. apply sumn_nonneg. intros s Hs. apply (Hnn y g' Hy s Hs).
Qed.

(** ... and conversely: a positive total has a positive term. *)
Lemma wsum_pos_inv {X} (l : list (list X * (nat -> nat -> R))) phi i (ok : X -> Prop) :
  (forall x g, In (x, g) l -> Forall ok x /\ forall t, (t < length x)%nat -> 0 <= g t i) ->
  (forall o, ok o -> 0 <= phi o i) -> 0 < wsum l phi i ->
  exists x g t, In (x, g) l /\ (t < length x)%nat /\ 0 < g t i /\ 0 < obsB phi x t i.
Proof.
  intros Hl H Hp. unfold wsum in Hp. apply sumL_pos_ex in Hp as ([x g] & Hin & Hp). cbn [fst snd] in Hp.
  apply sumn_pos_ex in Hp as (t & Ht & Hp). exists x, g, t. split; [exact Hin|]. split; [exact Ht|].
  destruct (Hl x g Hin) as [H1 H2]. apply mult_pos_inv in Hp; [exact Hp|apply H2; exact Ht|].
  rewrite Forall_forall in H1.
  destruct x as [|d x0]; [simpl in Ht; lia|]. rewrite (obsB_nth _ (d :: x0) d) by exact Ht.
  apply H, H1, nth_In. exact Ht.
Qed.

(** Weights of [good_weights] and [visited]. *)
Lemma good_weights_nn {X} nc (ok : X -> Prop) b l i : good_weights nc ok b l -> (i < nc)%nat ->
  forall x g, In (x, g) l -> Forall ok x /\ forall t, (t < length x)%nat -> 0 <= g t i.
Proof.
  intros [_ Hl] Hi x g Hin. destruct (Hl x g Hin) as (_ & Hx & Hr). split; [exact Hx|].
  intros t Ht. apply (Hr t Ht). exact Hi.
Qed.

Lemma visited_occ {X} nc (ok : X -> Prop) b l i : good_weights nc ok b l -> visited nc l -> (i < nc)%nat ->
  0 < wsum l (fun _ _ => 1) i.
Proof.
  intros Hw Hv Hi. destruct (Hv i Hi) as (x & g & t & Hin & Ht & Hp).
  apply (wsum_pos l _ i ok x g t); try assumption.
  - apply (good_weights_nn nc ok b); assumption.
  - intros; lra.
  - destruct x as [|d x0]; [simpl in Ht; lia|]. rewrite (obsB_nth _ (d :: x0) d) by exact Ht. lra.
Qed.

(** The expected gain, state by state. *)
Lemma gain_by_state {X} nc (l : list (list X * (nat -> nat -> R))) (b b' : X -> nat -> R) :
  sumL (fun w => sumn (length (fst w)) (fun t => sumn nc (fun i =>
     snd w t i * (ln (obsB b' (fst w) t i) - ln (obsB b (fst w) t i))))) l
  = sumn nc (fun i => wsum l (fun o j => ln (b' o j) - ln (b o j)) i).
Proof.
  unfold wsum. rewrite <- sumL_sumn_swap. apply sumL_ext. intros [x g] Hin. cbn [fst snd].
  rewrite sumn_swap. apply sumn_ext. intros i Hi. apply sumn_ext. intros t Ht.
  destruct x as [|d x0]; [simpl in Ht; lia|]. rewrite !(obsB_nth _ (d :: x0) d) by exact Ht. reflexivity.
Qed.

(** The gain only depends on samples with positive weight. *)
Lemma wsum_ext_pos {X} nc (ok : X -> Prop) b l phi psi i : good_weights nc ok b l -> (i < nc)%nat ->
  (forall o, ok o -> 0 < b o i -> phi o i = psi o i) -> wsum l phi i = wsum l psi i.
Proof.
  intros [_ Hl] Hi H. unfold wsum. apply sumL_ext. intros [x g] Hin. cbn [fst snd].
  apply sumn_ext. intros t Ht. destruct (Hl x g Hin) as (_ & Hx & Hr). destruct (Hr t Ht) as [Hs Hb].
  destruct (Rle_lt_or_eq_dec 0 (g t i) (proj1 Hs i Hi)) as [Hg|Hg]; [|rewrite <- Hg; ring].
  f_equal. specialize (Hb i Hi Hg). rewrite Forall_forall in Hx.
  destruct x as [|d x0]; [simpl in Ht; lia|]. rewrite !(obsB_nth _ (d :: x0) d) in * by exact Ht.
  apply H; [apply Hx, nth_In; exact Ht|exact Hb].
Qed.

Lemma wsum_cons {X} x g (l : list (list X * (nat -> nat -> R))) phi i :
  wsum ((x, g) :: l) phi i = sumn (length x) (fun t => g t i * obsB phi x t i) + wsum l phi i.
Proof. reflexivity. Qed.

Lemma wsum_posteriors {X} nc pi A (b : X -> nat -> R) xs phi i :
  wsum (map (fun c => (c, seq_post nc pi A b c)) xs) (fun o _ => phi o) i = weighted_total nc pi A b xs phi i.
Proof. unfold wsum, weighted_total. rewrite sumL_map. reflexivity. Qed.
Lemma wsum_occupancy {X} nc pi A (b : X -> nat -> R) xs i :
  wsum (map (fun c => (c, seq_post nc pi A b c)) xs) (fun _ _ => 1) i = occupancy nc pi A b xs i.
Proof.
  unfold wsum, occupancy. rewrite sumL_map. apply sumL_ext. intros c _. cbn [fst snd]. apply sumn_ext. intros t Ht.
  destruct c as [|d c0]; [simpl in Ht; lia|]. rewrite (obsB_nth _ (d :: c0) d) by exact Ht. ring.
Qed.
Lemma all_used_visited {X} nc pi A (b : X -> nat -> R) xs : all_used nc pi A b xs ->
  visited nc (map (fun c => (c, seq_post nc pi A b c)) xs).
Proof.
  intros H i Hi. destruct (H i Hi) as (c & t & Hc & Ht & Hp). exists c, (seq_post nc pi A b c), t.
  split; [apply in_map_iff; exists c; split; [reflexivity|exact Hc]|]. split; assumption.
Qed.

(** ** Array statistics in exact arithmetic. *)
Lemma col_sums_fmat T nc g : col_sums exact (fmat T nc g) = fvec nc (fun i => sumn T (fun t => g t i)).
Proof.
  unfold col_sums. rewrite ncol_fmat, nrow_fmat. apply tab_ext. intros i Hi.
  rewrite (tab_ext T _ (fun t => Fin (g t i))) by (intros t Ht; apply mget_fmat; assumption).
  apply (xsum_fvec T (fun t => g t i)).
Qed.

Lemma nth_map_in {X Y} (f : X -> Y) (x : list X) t d e : (t < length x)%nat ->
  nth t (map f x) e = f (nth t x d).
Proof. intros Ht. rewrite (nth_indep _ e (f d)) by (rewrite map_length; exact Ht). apply map_nth. Qed.

Lemma matT_mul_fmat {X} nc nf (x : list X) g (row : X -> vec) (phi : X -> nat -> R) : x <> [] ->
  (forall o, In o x -> row o = fvec nf (phi o)) ->
  matT_mul exact (fmat (length x) nc g) (map row x)
  = fmat nc nf (fun i f => sumn (length x) (fun t => g t i * obsB (fun o _ => phi o f) x t i)).
Proof.
  intros Hne Hr. destruct x as [|d x0]; [contradiction|]. set (x := d :: x0) in *.
  unfold matT_mul. rewrite ncol_fmat.
  assert (Hw : width (map row x) = nf).
  { unfold x. cbn [map width]. rewrite (Hr d) by (left; reflexivity). unfold fvec. apply tab_length. }
  rewrite Hw. apply mtab_ext. intros i f Hi Hf. rewrite map_length.
  rewrite (tab_ext (length x) _ (fun t => Fin (g t i * obsB (fun o _ => phi o f) x t i))).
  - apply (xsum_fvec (length x) (fun t => g t i * obsB (fun o _ => phi o f) x t i)).
  - intros t Ht. rewrite mget_fmat by assumption.
    rewrite (nth_map_in row x t d) by exact Ht. rewrite Hr by (apply nth_In; exact Ht).
    rewrite vget_fvec by exact Hf. rewrite (obsB_nth _ x d) by exact Ht. reflexivity.
Qed.

Lemma iadd_fmat r c f g : iadd exact (fmat r c f) (fmat r c g) = Ok (fmat r c (fun i j => f i j + g i j)).
Proof. unfold iadd. rewrite !ncol_fmat, Nat.eqb_refl. f_equal. apply madd_fmat. Qed.

Lemma xprod_fvec n f : xprod exact (fvec n f) = Fin (prodn n f).
Proof.
  unfold xprod, fvec. induction n as [|n IH]; [reflexivity|].
  rewrite tab_S_r, fold_left_app, IH. cbn [fold_left prodn xmul]. reflexivity.
Qed.

Lemma xsum_xln n f : nonneg1 n f -> xsum exact (tab n (fun i => xln (f i))) = xln (prodn n f).
Proof.
  intros H. unfold xsum. induction n as [|n IH]; [cbn; rewrite xln_1; reflexivity|].
  rewrite tab_S_r, fold_left_app, IH by (intros i Hi; apply H; lia). cbn [fold_left prodn].
  apply xadd_xln; [apply prodn_nonneg; intros i Hi; apply H; lia|apply H; lia].
Qed.

(** Rows of integers of a given width. *)
Definition counts_ok (nf : nat) (r : list Z) : Prop := length r = nf /\ Forall (fun k => (0 <= k)%Z) r.
Lemma zrow_fvec nf r : length r = nf -> zrow r = fvec nf (fun f => IZR (nth f r 0%Z)).
Proof.
  intros H. unfold zrow, fvec. rewrite (tab_inv nf (map _ r) (Fin (IZR 0))) by (rewrite map_length; exact H).
  apply tab_ext. intros i Hi. apply (map_nth (fun z => Fin (IZR z))).
Qed.
Lemma counts_nth nf r f : counts_ok nf r -> (0 <= nth f r 0)%Z.
Proof.
  intros [Hl H]. rewrite Forall_forall in H. destruct (lt_dec f (length r)) as [Hf|Hf].
  - apply H, nth_In. exact Hf.
  - rewrite nth_overflow by lia. lia.
Qed.

(** ** Start and transition parameters that pass validation. *)
Record base_ok {P} (h : hmm P) (nc : nat) (pi : nat -> R) (A : nat -> nat -> R) : Prop := BaseOk {
  bo_nc : c_nc (h_cfg h) = nc;
  bo_pos : (0 < nc)%nat;
  bo_start : h_start h = Some (fvec nc pi);
  bo_trans : h_trans h = Some (fmat nc nc A);
  bo_pi : nonneg1 nc pi; bo_pi1 : near1 (sumn nc pi);
  bo_A : nonneg2 nc nc A; bo_A1 : forall i, (i < nc)%nat -> near1 (sumn nc (A i)) }.

Definition with_em {P} (h : hmm P) (nf : option nat) (p : P) : hmm P :=
  Hmm (h_cfg h) nf (h_start h) (h_trans h) (h_mon h) p.

Lemma base_ok_check {P X St} (E : emclass P X St) h nc pi A nf em : base_ok h nc pi A ->
  ec_check E exact (h_cfg h) (h_nfeat h) (h_em h) = Ok (nf, em) ->
  check E exact h = Ok (with_em h nf em).
Proof.
  intros [H1 H2 H3 H4 H5 H6 H7 H8] Hc. unfold check. rewrite H3, H4, H1, base_check_ok by assumption.
  cbn [bind]. rewrite Hc. unfold with_em. rewrite H3, H4. reflexivity.
Qed.

Lemma base_ok_ready {P X St} (E : emclass P X St) h nc pi A nf em ok b : base_ok h nc pi A ->
  ec_check E exact (h_cfg h) (h_nfeat h) (h_em h) = Ok (nf, em) ->
  ec_check E exact (h_cfg h) nf em = Ok (nf, em) ->
  emits E (with_em h nf em) nc ok b -> ready E h nc pi A ok b.
Proof.
  intros Hb Hc Hc2 He. constructor; try apply Hb. exists (with_em h nf em).
  split; [apply (base_ok_check E h nc pi A); assumption|]. split; [|exact He].
  rewrite (base_ok_check E (with_em h nf em) nc pi A nf em); [reflexivity| |exact Hc2].
  destruct Hb. constructor; assumption.
Qed.

Lemma base_ok_tstate {P X} h nc pi A nf em (good : cfg -> option nat -> P -> Prop) (b : P -> X -> nat -> R) V ls x :
  base_ok h nc pi A -> good (h_cfg h) nf em -> possible nc pi A (b em) ls x ->
  (V = true -> all_used nc pi A (b em) (chunks ls x)) ->
  tstate nc good b V ls x (with_em h nf em) pi A.
Proof.
  intros Hb Hg Hp Hv. destruct Hb. constructor; try assumption.
  intros HV. apply all_used_visited, Hv, HV.
Qed.

Definition flat_base {P} (h : hmm P) : Prop :=
  c_sprior (h_cfg h) = Scal (Fin 1) /\ c_tprior (h_cfg h) = Scal (Fin 1).
Lemma flat_base_priors {P} (h : hmm P) nc : flat_base h -> priors (h_cfg h) nc (fun _ => 1) (fun _ _ => 1).
Proof. intros [H1 H2]. split; intros; [rewrite H1|rewrite H2]; reflexivity. Qed.
Lemma log_dirichlet_flat n p : log_dirichlet n (fun _ => 1) p = 0.
Proof. unfold log_dirichlet. apply sumn_zero. intros; ring. Qed.

(** ** Only the values on the range of states matter. *)
Section Ext.
  Context {X : Type}.
  Variables (ok : X -> Prop) (nc : nat) (pi : nat -> R) (A : nat -> nat -> R) (b b' : X -> nat -> R).
  Hypothesis Hb : forall o i, ok o -> (i < nc)%nat -> b o i = b' o i.

  Lemma seq_post_ext c t i : c <> [] -> Forall ok c -> seq_post nc pi A b c t i = seq_post nc pi A b' c t i.
  Proof.
    intros Hne Hc. unfold seq_post, posterior. f_equal; [|apply (seq_lik_ext ok nc pi A b b' c); assumption].
    unfold marginal. apply sumL_ext. intros z Hz. apply filter_In in Hz as [Hz _]. apply in_all_paths in Hz.
    apply (joint_ext nc); auto.
    - destruct c; [contradiction|simpl; lia].
    - apply (obsB_ext ok); assumption.
  Qed.

  Lemma possible_ext ls x : good_data ok ls x -> possible nc pi A b ls x -> possible nc pi A b' ls x.
  Proof.
    intros Hd Hp c Hc. destruct (good_data_chunks ok ls x Hd) as (_ & _ & Hch). rewrite Forall_forall in Hch.
    destruct (Hch c Hc). rewrite <- (seq_lik_ext ok nc pi A b b' c) by assumption. apply Hp. exact Hc.
  Qed.

  Lemma all_used_ext ls x : good_data ok ls x -> all_used nc pi A b (chunks ls x) -> all_used nc pi A b' (chunks ls x).
  Proof.
    intros Hd Hu i Hi. destruct (Hu i Hi) as (c & t & Hc & Ht & Hp).
    destruct (good_data_chunks ok ls x Hd) as (_ & _ & Hch). rewrite Forall_forall in Hch. destruct (Hch c Hc).
    exists c, t. rewrite <- seq_post_ext by assumption. auto.
  Qed.

  Lemma data_loglik_ext ls x : good_data ok ls x -> data_loglik nc pi A b ls x = data_loglik nc pi A b' ls x.
  Proof.
    intros Hd. destruct (good_data_chunks ok ls x Hd) as (_ & _ & Hch). rewrite Forall_forall in Hch.
    unfold data_loglik. apply sumL_ext. intros c Hc. destruct (Hch c Hc). f_equal. apply (seq_lik_ext ok); assumption.
  Qed.
End Ext.

(** Posterior rows are distributions, so occupancies sum to the number of samples. *)
Lemma seq_post_dist {X} (ok : X -> Prop) nc pi A (b : X -> nat -> R) c t : (0 < nc)%nat ->
  nonneg1 nc pi -> nonneg2 nc nc A -> (forall o i, ok o -> (i < nc)%nat -> 0 <= b o i) ->
  c <> [] -> Forall ok c -> 0 < seq_lik nc pi A b c -> (t < length c)%nat ->
  stochastic1 nc (seq_post nc pi A b c t).
Proof.
  intros Hn Hp HA Hb Hne Hc HL Ht.
  assert (HB : nonneg2 (length c) nc (obsB b c)) by (apply (obsB_nonneg ok); assumption).
  destruct (seq_nonempty c Hne) as [T HT]. unfold seq_post, seq_lik in *. rewrite HT in *.
  apply (posterior_dist nc T pi A (obsB b c) Hn Hp HA HB t HL). lia.
Qed.

Lemma chunks_lengths {X} ls (x : list X) : fold_right Nat.add 0%nat ls = length x ->
  sumL (fun c => INR (length c)) (chunks ls x) = INR (length x).
Proof.
  intros Hsum. rewrite <- Hsum. revert x Hsum.
  induction ls as [|n l IH]; intros x Hsum; [reflexivity|]. cbn [chunks sumL fold_right] in *.
  rewrite firstn_length_le by lia. rewrite IH by (rewrite skipn_length; lia). rewrite plus_INR. reflexivity.
Qed.

Lemma occupancy_total {X} (ok : X -> Prop) nc pi A (b : X -> nat -> R) ls x : (0 < nc)%nat ->
  nonneg1 nc pi -> nonneg2 nc nc A -> (forall o i, ok o -> (i < nc)%nat -> 0 <= b o i) ->
  good_data ok ls x -> possible nc pi A b ls x ->
  sumn nc (occupancy nc pi A b (chunks ls x)) = INR (length x).
Proof.
  intros Hn Hp HA Hb Hd Hpos. unfold occupancy.
  rewrite <- (sumL_sumn_swap (chunks ls x) nc (fun c i => sumn (length c) (fun t => seq_post nc pi A b c t i))).
  destruct (good_data_chunks ok ls x Hd) as (_ & _ & Hch). rewrite Forall_forall in Hch.
  transitivity (sumL (fun c => INR (length c)) (chunks ls x)).
  - apply sumL_ext. intros c Hc. destruct (Hch c Hc) as [Hne Hok]. rewrite sumn_swap.
    rewrite (sumn_ext _ _ (fun _ => 1)); [rewrite sumn_const; ring|].
    intros t Ht. apply (seq_post_dist ok nc pi A b c t); auto.
  - apply chunks_lengths. apply Hd.
Qed.
