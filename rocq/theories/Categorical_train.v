(** * CategoricalHMM training: emission statistics and update. *)
From Verif Require Export Train_proofs Categorical_proofs.

(** Extensionality of the path sums on the range of states. *)
Lemma joint_ext nc T pi A B pi' A' B' z : (0 < T)%nat -> is_path nc T z ->
  (forall i, (i < nc)%nat -> pi i = pi' i) ->
  (forall i j, (i < nc)%nat -> (j < nc)%nat -> A i j = A' i j) ->
  (forall t i, (t < T)%nat -> (i < nc)%nat -> B t i = B' t i) ->
  joint T pi A B z = joint T pi' A' B' z.
Proof.
  intros HT [Hl Hz] H1 H2 H3. unfold joint. f_equal; [f_equal|].
  - apply H1, Hz. exact HT.
  - apply prodn_ext. intros t Ht. apply H2; apply Hz; lia.
  - apply prodn_ext. intros t Ht. apply H3; [exact Ht|apply Hz; exact Ht].
Qed.

Lemma likelihood_ext nc T pi A B pi' A' B' : (0 < T)%nat ->
  (forall i, (i < nc)%nat -> pi i = pi' i) ->
  (forall i j, (i < nc)%nat -> (j < nc)%nat -> A i j = A' i j) ->
  (forall t i, (t < T)%nat -> (i < nc)%nat -> B t i = B' t i) ->
  likelihood nc T pi A B = likelihood nc T pi' A' B'.
Proof.
  intros HT H1 H2 H3. unfold likelihood. apply sumL_ext. intros z Hz. apply in_all_paths in Hz.
  apply (joint_ext nc); assumption.
Qed.

Lemma obsB_ext {X} (ok : X -> Prop) (b b' : X -> nat -> R) nc x : Forall ok x ->
  (forall o i, ok o -> (i < nc)%nat -> b o i = b' o i) ->
  forall t i, (t < length x)%nat -> (i < nc)%nat -> obsB b x t i = obsB b' x t i.
Proof.
  intros Hx H t i Ht Hi. destruct x as [|d x0]; [simpl in Ht; lia|]. set (x := d :: x0) in *.
  rewrite (obsB_nth b x d), (obsB_nth b' x d) by exact Ht. apply H; [|exact Hi].
  rewrite Forall_forall in Hx. apply Hx. apply nth_In. exact Ht.
Qed.

Lemma seq_lik_ext {X} (ok : X -> Prop) nc pi A (b b' : X -> nat -> R) x : x <> [] -> Forall ok x ->
  (forall o i, ok o -> (i < nc)%nat -> b o i = b' o i) -> seq_lik nc pi A b x = seq_lik nc pi A b' x.
Proof.
  intros Hne Hx H. unfold seq_lik. apply likelihood_ext; auto.
  - destruct x; [contradiction|simpl; lia].
  - apply (obsB_ext ok); assumption.
Qed.

(** ** Emission parameters as numbers. *)
Definition rval (v : xnum) : R := match v with Fin r => r | _ => 0 end.
Definition cat_e (p : catp) (i k : nat) : R :=
  match cat_prob p with Some m => rval (mget m i k) | None => 0 end.

Lemma cat_e_fmat prior nc nf e i k : (i < nc)%nat -> (k < nf)%nat ->
  cat_e (Catp prior (Some (fmat nc nf e))) i k = e i k.
Proof. intros Hi Hk. unfold cat_e. cbn [cat_prob]. rewrite mget_fmat by assumption. reflexivity. Qed.

Lemma fmat_cat_e prior nc nf e :
  fmat nc nf e = fmat nc nf (cat_e (Catp prior (Some (fmat nc nf e)))).
Proof. apply fmat_ext. intros i k Hi Hk. symmetry. apply cat_e_fmat; assumption. Qed.

(** Expected number of times symbol [k] is emitted in state [i]. *)
Definition sym_count (l : list (list Z * (nat -> nat -> R))) (i k : nat) : R :=
  sumL (fun w => sumn (length (fst w)) (fun t =>
    if Z.eqb (nth t (fst w) 0%Z) (Z.of_nat k) then snd w t i else 0)) l.

Lemma fold_cond_sum n (c : nat -> bool) (f : nat -> R) a :
  fold_left (fun acc t => if c t then xadd exact acc (Fin (f t)) else acc) (seq 0 n) (Fin a)
  = Fin (a + sumn n (fun t => if c t then f t else 0)).
Proof.
  induction n as [|n IH]; [cbn; f_equal; ring|].
  rewrite seq_S, fold_left_app, IH. cbn [fold_left plus sumn]. destruct (c n); cbn [xadd]; unfold exact; f_equal; ring.
Qed.

Section Cat.
  Variables (nc nf : nat).

  Lemma cat_acc_spec c nfe p f x g : has "e" (c_params c) = true -> Forall (sym_ok nf) x ->
    cat_acc exact c nfe p (fmat nc nf f) x (fmat (length x) nc g)
    = Ok (fmat nc nf (fun i k => f i k + sumn (length x) (fun t =>
            if Z.eqb (nth t x 0%Z) (Z.of_nat k) then g t i else 0))).
  Proof.
    intros He Hx. unfold cat_acc. rewrite He, ncol_fmat, nrow_fmat.
    rewrite (map_res_ok _ Z.to_nat).
    2:{ intros k Hk. rewrite Forall_forall in Hx. apply np_index_in. apply Hx. exact Hk. }
    cbn [bind]. f_equal. apply mtab_ext. intros i k Hi Hk. rewrite mget_fmat by assumption.
    rewrite map_length.
    rewrite (fold_left_ext_in _ (fun acc t => if Z.eqb (nth t x 0%Z) (Z.of_nat k) then xadd exact acc (Fin (g t i)) else acc)).
    - apply (fold_cond_sum (length x) (fun t => Z.eqb (nth t x 0%Z) (Z.of_nat k)) (fun t => g t i)).
    - intros acc t Ht. apply in_seq in Ht. rewrite mget_fmat by (assumption || lia).
      replace (Nat.eqb (nth t (map Z.to_nat x) 0%nat) k) with (Z.eqb (nth t x 0%Z) (Z.of_nat k)); [reflexivity|].
      change 0%nat with (Z.to_nat 0). rewrite map_nth.
      rewrite Forall_forall in Hx. assert (Hs : sym_ok nf (nth t x 0%Z)) by (apply Hx, nth_In; lia).
      unfold sym_ok in Hs. destruct (Z.eqb_spec (nth t x 0%Z) (Z.of_nat k)) as [E|E]; symmetry.
      + apply Nat.eqb_eq. lia.
      + apply Nat.eqb_neq. lia.
  Qed.

  Lemma cat_acc_all c nfe p l : forall f,
    (forall x g, In (x, g) l -> Forall (sym_ok nf) x) ->
    em_acc_all categorical c nfe p nc (fmat nc nf f) l
    = Ok (fmat nc nf (fun i k => if has "e" (c_params c) then f i k + sym_count l i k else f i k)).
  Proof.
    induction l as [|[x g] l IH]; intros f Hl.
    - cbn [em_acc_all]. f_equal. apply fmat_ext. intros i k _ _. unfold sym_count. cbn [sumL].
      destruct (has "e" _); [ring|reflexivity].
    - cbn [em_acc_all categorical ec_acc].
      destruct (has "e" (c_params c)) eqn:He.
      + rewrite cat_acc_spec by (try exact He; apply (Hl x g); left; reflexivity). cbn [bind].
        rewrite IH by (intros y g' H; apply (Hl y g'); right; exact H).
        f_equal. apply fmat_ext. intros i k _ _. unfold sym_count. cbn [sumL fst snd]. ring.
      + unfold cat_acc. rewrite He. cbn [bind].
        rewrite IH by (intros y g' H; apply (Hl y g'); right; exact H). reflexivity.
  Qed.

  (** Dirichlet parameters of the emissions. *)
  Definition eprior_is (p : catp) (ep : nat -> nat -> R) : Prop :=
    forall i k, (i < nc)%nat -> (k < nf)%nat -> pget2 (cat_prior p) i k = Fin (ep i k).

  Definition clip_weight (prior cnt : nat -> R) (k : nat) : R := Rmax (prior k - 1 + cnt k) 0.

  Lemma cat_mstep_spec c nfe p ep f : has "e" (c_params c) = true -> eprior_is p ep ->
    cat_mstep exact c nfe p (fmat nc nf f)
    = Ok (Catp (cat_prior p) (Some (fmat nc nf (fun i => normalised nf (clip_weight (ep i) (f i)))))).
  Proof.
    intros He Hp. unfold cat_mstep. rewrite He, nrow_fmat, ncol_fmat. f_equal. f_equal. f_equal.
    rewrite <- normalize_rows_fmat. f_equal. apply mtab_ext. intros i k Hi Hk.
    rewrite Hp, mget_fmat by assumption. cbn [xsub xopp xadd]. unfold exact. cbn [xadd].
    rewrite np_maximum_fin. reflexivity.
  Qed.

  Variable ep : nat -> nat -> R.
  Hypothesis Hep : forall i k, (i < nc)%nat -> (k < nf)%nat -> 1 <= ep i k.

  (** Emission parameters during training: non-negative, hyper-parameters [ep];
      with [strict], rows sum to at most 1 and entries with an informative
      prior are positive. *)
  Record cat_good (strict : bool) (c : cfg) (nfe : option nat) (p : catp) : Prop := CatGood {
    cg_nf : nfe = Some nf;
    cg_prob : cat_prob p = Some (fmat nc nf (cat_e p));
    cg_e : nonneg2 nc nf (cat_e p);
    cg_prior : eprior_is p ep;
    cg_sum : strict = true -> forall i, (i < nc)%nat -> sumn nf (cat_e p i) <= 1;
    cg_strict : strict = true -> has "e" (c_params c) = true ->
      forall i k, (i < nc)%nat -> (k < nf)%nat -> 1 < ep i k -> 0 < cat_e p i k }.

  Definition cat_bp (p : catp) : Z -> nat -> R := cat_b (cat_e p).

  (** The update computed by one M-step. *)
  Definition cat_new (c : cfg) (p : catp) (l : list (list Z * (nat -> nat -> R))) : catp :=
    if has "e" (c_params c)
    then Catp (cat_prior p) (Some (fmat nc nf (fun i => normalised nf (clip_weight (ep i) (sym_count l i)))))
    else p.

  Lemma cat_step strict c nfe p l : c_nc c = nc -> cat_good strict c nfe p ->
    (forall x g, In (x, g) l -> Forall (sym_ok nf) x) ->
    exists st, em_acc_all categorical c nfe p nc (ec_stats0 categorical exact c nfe p) l = Ok st
      /\ ec_mstep categorical exact c nfe p st = Ok (cat_new c p l).
  Proof.
    intros Hc Hg Hl. cbn [categorical ec_stats0 ec_mstep]. unfold cat_stats0.
    rewrite Hc, (cg_nf _ _ _ _ Hg).
    change (mtab nc nf (fun _ _ => Fin 0)) with (fmat nc nf (fun _ _ => 0)).
    rewrite cat_acc_all by exact Hl. eexists; split; [reflexivity|]. unfold cat_new.
    destruct (has "e" (c_params c)) eqn:He.
    - rewrite cat_mstep_spec with (ep := ep) by (try exact He; apply Hg).
      f_equal. f_equal. f_equal. apply fmat_ext. intros i k Hi Hk.
      unfold clip_weight, normalised.
      rewrite (sumn_ext nf _ (fun k0 => Rmax (ep i k0 - 1 + sym_count l i k0) 0))
        by (intros; rewrite Rplus_0_l; reflexivity).
      rewrite Rplus_0_l. reflexivity.
    - unfold cat_mstep. rewrite He. reflexivity.
  Qed.

  Lemma cat_e_new c p l i k : has "e" (c_params c) = true -> (i < nc)%nat -> (k < nf)%nat ->
    cat_e (cat_new c p l) i k = normalised nf (clip_weight (ep i) (sym_count l i)) k.
  Proof. intros He Hi Hk. unfold cat_new. rewrite He. apply cat_e_fmat; assumption. Qed.

  Lemma clip_nonneg prior cnt : nonneg1 nf (clip_weight prior cnt).
  Proof. intros k _. apply Rmax_r. Qed.

  Lemma sym_count_nonneg l i k : (forall x g, In (x, g) l -> forall t, (t < length x)%nat -> 0 <= g t i) ->
    0 <= sym_count l i k.
  Proof.
    intros H. unfold sym_count. apply sumL_nonneg. intros [x g] Hin. cbn [fst snd].
    apply sumn_nonneg. intros t Ht. destruct (Z.eqb _ _); [apply (H x g Hin t Ht)|lra].
  Qed.

  Lemma cat_good_new strict c nfe p l : cat_good strict c nfe p ->
    (forall x g i, In (x, g) l -> (i < nc)%nat -> forall t, (t < length x)%nat -> 0 <= g t i) ->
    cat_good strict c nfe (cat_new c p l).
  Proof.
    intros Hg Hn. destruct (has "e" (c_params c)) eqn:He.
    2:{ unfold cat_new. rewrite He. exact Hg. }
    assert (Hr : forall i, (i < nc)%nat -> sumn nf (cat_e (cat_new c p l) i)
                 = sumn nf (normalised nf (clip_weight (ep i) (sym_count l i)))).
    { intros i Hi. apply sumn_ext. intros k Hk. apply cat_e_new; assumption. }
    constructor.
    - apply Hg.
    - unfold cat_new. rewrite He. cbn [cat_prob]. f_equal. apply fmat_cat_e.
    - intros i k Hi Hk. rewrite cat_e_new by assumption. apply normalised_nonneg; [apply clip_nonneg|exact Hk].
    - unfold eprior_is, cat_new. rewrite He. cbn [cat_prior]. apply Hg.
    - intros _ i Hi. rewrite Hr by exact Hi.
      apply stoch_or_zero_le1, normalised_stoch_or_zero, clip_nonneg.
    - intros _ _ i k Hi Hk H1. rewrite cat_e_new by assumption.
      assert (Hw : 0 < clip_weight (ep i) (sym_count l i) k).
      { unfold clip_weight. pose proof (sym_count_nonneg l i k (fun x g H => Hn x g i H Hi)).
        rewrite Rmax_left; lra. }
      assert (Hs : 0 < sumn nf (clip_weight (ep i) (sym_count l i))).
      { apply (sumn_pos nf _ k); [apply clip_nonneg|exact Hk|exact Hw]. }
      unfold normalised. destruct (Req_EM_T _ 0); [lra|]. apply Rdiv_lt_0_compat; assumption.
  Qed.

  Lemma sym_count_pos l x g t i k : 
    (forall x g, In (x, g) l -> forall t, (t < length x)%nat -> 0 <= g t i) ->
    In (x, g) l -> (t < length x)%nat -> nth t x 0%Z = Z.of_nat k -> 0 < g t i -> 0 < sym_count l i k.
  Proof.
    intros Hn Hin Ht Hk Hp. unfold sym_count.
    eapply Rlt_le_trans; [|apply (sumL_ge_term _ l (x, g))]; [|intros [y g'] Hy; cbn [fst snd];
      apply sumn_nonneg; intros s Hs; destruct (Z.eqb _ _); [apply (Hn y g' Hy s Hs)|lra]|exact Hin].
    cbn [fst snd]. apply (sumn_pos _ _ t).
    - intros s Hs. destruct (Z.eqb _ _); [apply (Hn x g Hin s Hs)|lra].
    - exact Ht.
    - cbv beta. rewrite Hk, Z.eqb_refl. exact Hp.
  Qed.

  Theorem cat_trains strict : trains categorical nc (sym_ok nf) (cat_good strict) cat_bp false.
  Proof.
    constructor.
    - intros [c nfe s t m p] Hc Hg. cbn [h_cfg h_nfeat h_em] in *.
      rewrite (cg_nf _ _ _ _ Hg). destruct p as [prior pr].
      pose proof (cg_prob _ _ _ _ Hg) as Hp. cbn [cat_prob] in Hp.
      unfold cat_bp. set (e := cat_e (Catp prior pr)) in *. rewrite Hp.
      apply cat_emits; [exact Hc|apply Hg].
    - intros c nfe p l Hc Hg [Hne Hl].
      assert (Hs : forall x g, In (x, g) l -> Forall (sym_ok nf) x) by (intros x g H; apply (Hl x g H)).
      assert (Hn : forall x g i, In (x, g) l -> (i < nc)%nat -> forall t, (t < length x)%nat -> 0 <= g t i).
      { intros x g i H Hi t Ht. destruct (Hl x g H) as (_ & _ & Hr). apply (Hr t Ht). exact Hi. }
      destruct (cat_step strict c nfe p l Hc Hg Hs) as (st & H1 & H2).
      exists st, (cat_new c p l). split; [exact H1|]. split; [exact H2|].
      split; [apply cat_good_new; assumption|].
      intros x g t i Hin Ht Hi Hp.
      destruct (Hl x g Hin) as (Hx1 & Hx2 & Hr).
      rewrite (obsB_nth _ x 0%Z) by exact Ht. unfold cat_bp, cat_b.
      assert (Hk : sym_ok nf (nth t x 0%Z)) by (rewrite Forall_forall in Hx2; apply Hx2, nth_In; exact Ht).
      unfold sym_ok in Hk. set (k := Z.to_nat (nth t x 0%Z)) in *.
      destruct (has "e" (c_params c)) eqn:He.
      + rewrite cat_e_new by (try assumption; unfold k; lia).
        assert (Hcnt : 0 < sym_count l i k).
        { apply (sym_count_pos l x g t); try assumption.
          - intros y g' Hy. apply (Hn y g' i Hy Hi).
          - unfold k. lia. }
        assert (Hw : 0 < clip_weight (ep i) (sym_count l i) k).
        { unfold clip_weight. assert (1 <= ep i k) by (apply Hep; [exact Hi|unfold k; lia]). rewrite Rmax_left; lra. }
        assert (Hsum : 0 < sumn nf (clip_weight (ep i) (sym_count l i))).
        { apply (sumn_pos nf _ k); [apply clip_nonneg|unfold k; lia|exact Hw]. }
        unfold normalised. destruct (Req_EM_T _ 0); [lra|]. apply Rdiv_lt_0_compat; assumption.
      + unfold cat_new. rewrite He. destruct (Hr t Ht) as [_ Hb]. specialize (Hb i Hi Hp).
        rewrite (obsB_nth _ x 0%Z) in Hb by exact Ht. exact Hb.
  Qed.

  (** Log-density (up to a constant) of the Dirichlet priors. *)
  Definition cat_pen (p : catp) : R := sumn nc (fun i => sumn nf (fun k => (ep i k - 1) * ln (cat_e p i k))).

  Lemma sym_count_sum l (d : nat -> nat -> R) : (forall x g, In (x, g) l -> Forall (sym_ok nf) x) ->
    sumL (fun w => sumn (length (fst w)) (fun t => sumn nc (fun i =>
      snd w t i * d i (Z.to_nat (nth t (fst w) 0%Z))))) l
    = sumn nc (fun i => sumn nf (fun k => sym_count l i k * d i k)).
  Proof.
    intros Hl. unfold sym_count.
    transitivity (sumL (fun w : list Z * (nat -> nat -> R) => sumn nc (fun i => sumn nf (fun k =>
      sumn (length (fst w)) (fun t => if Z.eqb (nth t (fst w) 0%Z) (Z.of_nat k) then snd w t i else 0) * d i k))) l).
    - apply sumL_ext. intros [x g] Hin. cbn [fst snd]. specialize (Hl x g Hin).
      rewrite sumn_swap. apply sumn_ext. intros i Hi.
      transitivity (sumn (length x) (fun t => sumn nf (fun k =>
        (if Z.eqb (nth t x 0%Z) (Z.of_nat k) then g t i else 0) * d i k))).
      + apply sumn_ext. intros t Ht.
        assert (Hk : sym_ok nf (nth t x 0%Z)) by (rewrite Forall_forall in Hl; apply Hl, nth_In; exact Ht).
        unfold sym_ok in Hk.
        rewrite (sumn_single _ _ (Z.to_nat (nth t x 0%Z))); [|lia|].
        * rewrite Z2Nat.id by lia. rewrite Z.eqb_refl. reflexivity.
        * intros k Hk' Hne. destruct (Z.eqb_spec (nth t x 0%Z) (Z.of_nat k)); [lia|ring].
      + rewrite sumn_swap. apply sumn_ext. intros k Hk. apply sumn_scal_r.
    - rewrite sumL_sumn_swap. apply sumn_ext. intros i Hi. rewrite sumL_sumn_swap.
      apply sumn_ext. intros k Hk. apply sumL_scal_r.
  Qed.

  Theorem cat_improves : improves categorical nc (sym_ok nf) (cat_good true) cat_bp (fun _ _ _ _ => True) cat_pen.
  Proof.
    intros c nfe p l st p' Hc Hg [Hne Hl] _ Hst Hp'.
    assert (Hs : forall x g, In (x, g) l -> Forall (sym_ok nf) x) by (intros x g H; apply (Hl x g H)).
    assert (Hn : forall x g i, In (x, g) l -> (i < nc)%nat -> forall t, (t < length x)%nat -> 0 <= g t i).
    { intros x g i H Hi t Ht. destruct (Hl x g H) as (_ & _ & Hr). apply (Hr t Ht). exact Hi. }
    destruct (cat_step true c nfe p l Hc Hg Hs) as (st' & H1 & H2).
    rewrite H1 in Hst. injection Hst as ->. rewrite H2 in Hp'. injection Hp' as <-.
    destruct (has "e" (c_params c)) eqn:He.
    2:{ unfold cat_new. rewrite He. rewrite sumL_zero; [lra|].
        intros w _. apply sumn_zero. intros t _. apply sumn_zero. intros i _. ring. }
    set (p' := cat_new c p l).
    rewrite (sumL_ext _ (fun w => sumn (length (fst w)) (fun t => sumn nc (fun i =>
       snd w t i * (fun i k => ln (cat_e p' i k) - ln (cat_e p i k)) i (Z.to_nat (nth t (fst w) 0%Z)))))).
    2:{ intros [x g] Hin. cbn [fst snd]. apply sumn_ext. intros t Ht. apply sumn_ext. intros i Hi.
        rewrite !(obsB_nth _ x 0%Z) by exact Ht. reflexivity. }
    rewrite (sym_count_sum l (fun i k => ln (cat_e p' i k) - ln (cat_e p i k))) by exact Hs.
    unfold cat_pen.
    match goal with |- 0 <= ?a + ?b - ?c => replace (a + b - c) with (a + (b - c)) by ring end.
    rewrite <- sumn_minus, <- sumn_plus. apply sumn_nonneg. intros i Hi.
    rewrite <- sumn_minus, <- sumn_plus.
    set (w := clip_weight (ep i) (sym_count l i)).
    assert (Hcn : forall k, (k < nf)%nat -> 0 <= sym_count l i k).
    { intros k Hk. apply sym_count_nonneg. intros x g H. apply (Hn x g i H Hi). }
    assert (Hwe : forall k, (k < nf)%nat -> w k = sym_count l i k + (ep i k - 1)).
    { intros k Hk. unfold w, clip_weight. pose proof (Hcn k Hk). pose proof (Hep i k Hi Hk).
      rewrite Rmax_left; lra. }
    rewrite (sumn_ext nf _ (fun k => w k * (ln (cat_e p' i k) - ln (cat_e p i k)))).
    2:{ intros k Hk. rewrite Hwe by exact Hk. ring. }
    assert (Hw : nonneg1 nf w) by apply clip_nonneg.
    destruct (Req_EM_T (sumn nf w) 0) as [S0|S0].
    - rewrite sumn_zero; [lra|]. intros k Hk. rewrite (sumn_eq0 nf w Hw S0 k Hk). ring.
    - rewrite (sumn_ext _ _ (fun k => w k * (ln (w k / sumn nf w) - ln (cat_e p i k)))).
      + apply gibbs; try assumption.
        * intros k Hk. apply Hg; assumption.
        * intros k Hk Hpos. rewrite Hwe in Hpos by exact Hk.
          destruct (Rlt_dec 1 (ep i k)) as [Hgt|Hle].
          { apply (cg_strict _ _ _ _ Hg); auto. }
          assert (Hcp : 0 < sym_count l i k) by (pose proof (Hep i k Hi Hk); lra).
          unfold sym_count in Hcp. apply sumL_pos_ex in Hcp as ([x g] & Hin & Hcp). cbn [fst snd] in Hcp.
          apply sumn_pos_ex in Hcp as (t & Ht & Hcp).
          destruct (Z.eqb_spec (nth t x 0%Z) (Z.of_nat k)) as [Ek|]; [|lra].
          destruct (Hl x g Hin) as (_ & _ & Hr). destruct (Hr t Ht) as [_ Hb].
          specialize (Hb i Hi Hcp). rewrite (obsB_nth _ x 0%Z) in Hb by exact Ht.
          unfold cat_bp, cat_b in Hb. rewrite Ek, Nat2Z.id in Hb. exact Hb.
        * apply (cg_sum _ _ _ _ Hg); [reflexivity|exact Hi].
        * pose proof (sumn_nonneg nf w Hw). lra.
      + intros k Hk. unfold p'. rewrite cat_e_new by assumption. fold w.
        unfold normalised. destruct (Req_EM_T (sumn nf w) 0); [contradiction|reflexivity].
  Qed.
End Cat.
