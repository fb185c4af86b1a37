(** * PoissonHMM: emissions and update. *)
From Verif Require Export Poisson Rows_proofs.

(** Probability of the count [k] for rate [mu]. *)
Definition pois_mass (mu : R) (k : nat) : R := mu ^ k * exp (- mu) / INR (fact k).
(** Independent counts in every feature. *)
Definition pois_b (nf : nat) (lam : nat -> nat -> R) (r : list Z) (i : nat) : R :=
  prodn nf (fun f => pois_mass (lam i f) (Z.to_nat (nth f r 0%Z))).

Lemma fact_pos k : 0 < INR (fact k).
Proof. apply lt_0_INR, lt_O_fact. Qed.

Lemma pois_mass_nonneg mu k : 0 <= mu -> 0 <= pois_mass mu k.
Proof.
  intros H. unfold pois_mass, Rdiv. apply Rmult_le_pos.
  - apply Rmult_le_pos; [apply pow_le; exact H|left; apply exp_pos].
  - left. apply Rinv_0_lt_compat, fact_pos.
Qed.

Lemma pois_mass_pos mu k : 0 < mu -> 0 < pois_mass mu k.
Proof.
  intros H. unfold pois_mass. apply Rdiv_lt_0_compat; [|apply fact_pos].
  apply Rmult_lt_0_compat; [apply pow_lt; exact H|apply exp_pos].
Qed.

Lemma pois_mass_0 k : pois_mass 0 k = if Nat.eqb k 0 then 1 else 0.
Proof.
  unfold pois_mass. destruct k as [|k].
  - cbn. rewrite Ropp_0, exp_0. field.
  - cbn [Nat.eqb pow]. unfold Rdiv. ring.
Qed.

Lemma pow_fact_le_exp mu k : 0 <= mu -> mu ^ k / INR (fact k) <= exp mu.
Proof.
  intros H. unfold exp. destruct (exist_exp mu) as [e He]. cbn [proj1_sig].
  unfold exp_in, infinite_sum in He.
  assert (Hnn : forall n, 0 <= / INR (fact n) * mu ^ n).
  { intros n. apply Rmult_le_pos; [left; apply Rinv_0_lt_compat, fact_pos|apply pow_le; exact H]. }
  apply Rle_trans with (sum_f_R0 (fun n => / INR (fact n) * mu ^ n) k).
  - destruct k as [|k]; cbn [sum_f_R0].
    + right. unfold Rdiv. ring.
    + pose proof (cond_pos_sum _ k (fun n => Hnn n)) as Hs. unfold Rdiv. lra.
  - apply sum_incr; [exact He|exact Hnn].
Qed.

Lemma pois_mass_le1 mu k : 0 <= mu -> pois_mass mu k <= 1.
Proof.
  intros H. unfold pois_mass. pose proof (pow_fact_le_exp mu k H) as Hk.
  rewrite exp_Ropp. pose proof (exp_pos mu) as He.
  replace (mu ^ k * / exp mu / INR (fact k)) with (mu ^ k / INR (fact k) * / exp mu)
    by (unfold Rdiv; ring).
  apply Rmult_le_reg_r with (exp mu); [exact He|].
  rewrite Rmult_assoc, Rinv_l by lra. lra.
Qed.

Lemma pois_logpmf_ok k mu : 0 <= mu -> (0 <= k)%Z ->
  pois_logpmf exact k (Fin mu) = xln (pois_mass mu (Z.to_nat k)).
Proof.
  intros Hm Hk. unfold pois_logpmf. cbn [xleb].
  rewrite (proj2 (Rleb_true 0 mu) Hm). rewrite (proj2 (Z.leb_le 0 k) Hk).
  unfold gammaln_succ, xlogy.
  set (n := Z.to_nat k).
  assert (Hn : IZR k = INR n) by (unfold n; rewrite INR_IZR_INZ, Z2Nat.id by exact Hk; reflexivity).
  pose proof (fact_pos n) as Hf.
  destruct (Z.eqb_spec k 0) as [E|E]; cbn [andb negb xisnan].
  - assert (n = 0)%nat by (unfold n; rewrite E; reflexivity). rewrite H.
    rewrite xln_pos; unfold pois_mass; cbn [fact pow INR].
    + unfold exact at 1. rewrite !xsubE. f_equal.
      replace (1 * exp (- mu) / 1) with (exp (- mu)) by field. rewrite ln_exp, ln_1. ring.
    + replace (1 * exp (- mu) / 1) with (exp (- mu)) by field. apply exp_pos.
  - assert (Hn0 : (0 < n)%nat) by (unfold n; lia).
    destruct (nonneg_cases mu Hm) as [Hp| ->].
    + rewrite xlog_fin, xln_pos by lra. unfold exact at 1. rewrite xmulE, !xsubE.
      rewrite xln_pos by (apply pois_mass_pos; exact Hp). f_equal.
      unfold pois_mass. rewrite ln_div by (try apply Rmult_lt_0_compat; try apply pow_lt; try apply exp_pos; assumption).
      rewrite ln_mult by (try apply pow_lt; try apply exp_pos; assumption).
      rewrite ln_exp, Hn. rewrite <- (Rpower_pow n mu Hp), ln_Rpower. ring.
    + rewrite xlog_fin, xln_0 by lra.
      rewrite pois_mass_0. destruct (Nat.eqb_spec n 0); [lia|]. rewrite xln_0.
      assert (0 < IZR k) by (rewrite Hn; apply lt_0_INR; exact Hn0).
      cbn [xmul]. unfold xscale_inf. destruct (Rlt_dec 0 (IZR k)); [reflexivity|contradiction].
Qed.

Lemma clip01_fin r : 0 <= r <= 1 -> clip01 (Fin r) = Fin r.
Proof.
  intros H. unfold clip01. cbn [xltb]. rewrite (proj2 (Rltb_false r 0)), (proj2 (Rltb_false 1 r)) by lra. reflexivity.
Qed.

Lemma pois_pmf_ok k mu : 0 <= mu -> (0 <= k)%Z ->
  pois_pmf exact k (Fin mu) = Fin (pois_mass mu (Z.to_nat k)).
Proof.
  intros Hm Hk. unfold pois_pmf. cbn [xleb].
  rewrite (proj2 (Rleb_true 0 mu) Hm), (proj2 (Z.leb_le 0 k) Hk), pois_logpmf_ok by assumption.
  rewrite xexp_xln by (apply pois_mass_nonneg; exact Hm). apply clip01_fin.
  split; [apply pois_mass_nonneg|apply pois_mass_le1]; exact Hm.
Qed.

Section Pois.
  Variables (nc nf : nat).

  Lemma pois_b_nonneg lam r i : nonneg2 nc nf lam -> (i < nc)%nat -> 0 <= pois_b nf lam r i.
  Proof. intros H Hi. apply prodn_nonneg. intros f Hf. apply pois_mass_nonneg. apply H; assumption. Qed.

  Lemma pois_rows_ok (fz : Z -> xnum -> xnum) red (G : list Z -> nat -> xnum) c al be lam x :
    c_nc c = nc -> Forall (counts_ok nf) x ->
    (forall r i, counts_ok nf r -> (i < nc)%nat ->
       red (tab nf (fun f => fz (nth f r 0%Z) (Fin (lam i f)))) = G r i) ->
    pois_rows fz red c (Poisp al be (Some (fmat nc nf lam))) x
    = Ok (Mat nc (map (fun r => tab nc (G r)) x)).
  Proof.
    intros Hc Hx HG. unfold pois_rows. cbn [po_lam]. rewrite ncol_fmat, Hc.
    destruct x as [|r0 x0]; [reflexivity|]. set (x := r0 :: x0) in *.
    assert (Hw : width x = nf) by (rewrite Forall_forall in Hx; apply (Hx r0); left; reflexivity).
    rewrite Hw. unfold bwidth. rewrite Nat.eqb_refl. cbn [bind]. f_equal. f_equal.
    apply map_ext_in. intros r Hr. rewrite Forall_forall in Hx. specialize (Hx r Hr).
    apply tab_ext. intros i Hi. rewrite <- HG by assumption. f_equal. apply tab_ext. intros f Hf.
    assert (Hb : bidx nf f = f) by (unfold bidx; destruct (Nat.eqb_spec nf 1); lia).
    rewrite Hb, mget_fmat by assumption. reflexivity.
  Qed.

  Lemma pois_loglik_ok c nfe al be lam x : c_nc c = nc -> nonneg2 nc nf lam -> Forall (counts_ok nf) x ->
    pois_loglik exact c nfe (Poisp al be (Some (fmat nc nf lam))) x
    = Ok (lmat (length x) nc (obsB (pois_b nf lam) x)).
  Proof.
    intros Hc Hl Hx. unfold pois_loglik.
    rewrite (pois_rows_ok _ _ (fun r i => xln (pois_b nf lam r i))) by
      (try assumption; intros r i Hr Hi; unfold pois_b;
       rewrite (tab_ext nf _ (fun f => xln (pois_mass (lam i f) (Z.to_nat (nth f r 0%Z)))))
         by (intros f Hf; apply pois_logpmf_ok; [apply Hl; assumption|apply (counts_nth nf); assumption]);
       apply xsum_xln; intros f Hf; apply pois_mass_nonneg, Hl; assumption).
    f_equal. apply (mat_of_rows x nc (fun r i => xln (pois_b nf lam r i))).
    intros t d i Ht Hi. rewrite (obsB_nth _ x d) by exact Ht. reflexivity.
  Qed.

  Lemma pois_lik_ok c nfe al be lam x : c_nc c = nc -> nonneg2 nc nf lam -> Forall (counts_ok nf) x ->
    pois_lik exact c nfe (Poisp al be (Some (fmat nc nf lam))) x
    = Ok (fmat (length x) nc (obsB (pois_b nf lam) x)).
  Proof.
    intros Hc Hl Hx. unfold pois_lik.
    rewrite (pois_rows_ok _ _ (fun r i => Fin (pois_b nf lam r i))) by
      (try assumption; intros r i Hr Hi; unfold pois_b;
       rewrite (tab_ext nf _ (fun f => Fin (pois_mass (lam i f) (Z.to_nat (nth f r 0%Z)))))
         by (intros f Hf; apply pois_pmf_ok; [apply Hl; assumption|apply (counts_nth nf); assumption]);
       apply xprod_fvec).
    f_equal. apply (mat_of_rows x nc (fun r i => Fin (pois_b nf lam r i))).
    intros t d i Ht Hi. rewrite (obsB_nth _ x d) by exact Ht. reflexivity.
  Qed.

  Lemma pois_emits c nfe al be lam s t m : c_nc c = nc -> nonneg2 nc nf lam ->
    emits poisson (Hmm c nfe s t m (Poisp al be (Some (fmat nc nf lam)))) nc (counts_ok nf) (pois_b nf lam).
  Proof.
    intros Hc Hl. constructor.
    - intros x Hx. unfold loglik. cbn [poisson ec_loglik h_cfg h_nfeat h_em]. apply pois_loglik_ok; assumption.
    - intros x Hx. unfold lik. cbn [poisson ec_lik h_cfg h_nfeat h_em]. apply pois_lik_ok; assumption.
    - intros o i Ho Hi. apply pois_b_nonneg; assumption.
    - reflexivity.
  Qed.

  (** ** Statistics and update. *)
  Definition cnt (f : nat) (r : list Z) (_ : nat) : R := IZR (nth f r 0%Z).

  Lemma pois_acc_all c nfe p l : forall f g,
    (forall x w, In (x, w) l -> x <> [] /\ Forall (counts_ok nf) x) -> has "l" (c_params c) = true ->
    em_acc_all poisson c nfe p nc (PoisStat (fvec nc f) (fmat nc nf g)) l
    = Ok (PoisStat (fvec nc (fun i => f i + wsum l (fun _ _ => 1) i))
                   (fmat nc nf (fun i k => g i k + wsum l (cnt k) i))).
  Proof.
    induction l as [|[x w] l IH]; intros f g Hl Hh.
    - cbn [em_acc_all]. f_equal. f_equal; [apply fvec_ext|apply fmat_ext]; intros; unfold wsum; cbn [sumL]; ring.
    - cbn [em_acc_all poisson ec_acc]. unfold pois_acc. rewrite Hh. cbn [po_obs po_post].
      destruct (Hl x w (or_introl eq_refl)) as [Hne Hx].
      rewrite (matT_mul_fmat nc nf x w zrow (fun r k => IZR (nth k r 0%Z)) Hne).
      2:{ intros o Ho. apply zrow_fvec. rewrite Forall_forall in Hx. apply (Hx o Ho). }
      rewrite iadd_fmat, col_sums_fmat, vadd_fvec. cbn [bind].
      fold poisson. rewrite IH by (try exact Hh; intros y w' H; apply (Hl y w'); right; exact H).
      f_equal. f_equal; [apply fvec_ext|apply fmat_ext]; intros; rewrite wsum_cons.
      + rewrite (sumn_ext (length x) (fun t => w t i * obsB (fun _ _ => 1) x t i) (fun t => w t i)); [ring|].
        intros t Ht. destruct x as [|d x0]; [contradiction|]. rewrite (obsB_nth _ (d :: x0) d) by exact Ht. ring.
      + rewrite <- Rplus_assoc. reflexivity.
  Qed.

  Lemma pois_acc_none c nfe p l st : has "l" (c_params c) = false ->
    em_acc_all poisson c nfe p nc st l = Ok st.
  Proof.
    intros Hh. induction l as [|[x w] l IH]; [reflexivity|]. cbn [em_acc_all poisson ec_acc].
    unfold pois_acc. rewrite Hh. exact IH.
  Qed.

  Definition pois_l (p : poisp) (i f : nat) : R :=
    match po_lam p with Some m => rval (mget m i f) | None => 0 end.
  Lemma pois_l_fmat al be lam i f : (i < nc)%nat -> (f < nf)%nat ->
    pois_l (Poisp al be (Some (fmat nc nf lam))) i f = lam i f.
  Proof. intros Hi Hf. unfold pois_l. cbn [po_lam]. rewrite mget_fmat by assumption. reflexivity. Qed.

  (** The gamma prior, as numbers. *)
  Definition gamma_prior (p : poisp) (al be : nat -> nat -> R) : Prop :=
    forall i f, (i < nc)%nat -> (f < nf)%nat ->
      pget2 (po_alpha p) i f = Fin (al i f) /\ pget2 (po_beta p) i f = Fin (be i f).

  Variables (al be : nat -> nat -> R).
  Hypothesis Hal : nonneg2 nc nf al.
  Hypothesis Hbe : nonneg2 nc nf be.

  Record pois_good (V : bool) (c : cfg) (nfe : option nat) (p : poisp) : Prop := PoisGood {
    pg_nf : nfe = Some nf;
    pg_lam : po_lam p = Some (fmat nc nf (pois_l p));
    pg_nonneg : nonneg2 nc nf (pois_l p);
    pg_prior : gamma_prior p al be;
    pg_V : has "l" (c_params c) = true -> V = true }.

  (** The update: [n] is the total weight of all states. *)
  Definition pois_upd (l : list (list (list Z) * (nat -> nat -> R))) (i f : nat) : R :=
    let n := sumn nc (wsum l (fun _ _ => 1)) in
    (al i f + n * (wsum l (cnt f) i / wsum l (fun _ _ => 1) i)) / (be i f + n).
  Definition pois_new (c : cfg) (p : poisp) l : poisp :=
    if has "l" (c_params c) then Poisp (po_alpha p) (po_beta p) (Some (fmat nc nf (pois_upd l))) else p.

  Definition pois_bp (p : poisp) : list Z -> nat -> R := pois_b nf (pois_l p).

  Section Step.
  Variables (V : bool) (c : cfg) (nfe : option nat) (p : poisp) (l : list (list (list Z) * (nat -> nat -> R))).
  Hypothesis Hc : c_nc c = nc.
  Hypothesis Hg : pois_good V c nfe p.
  Hypothesis Hw : good_weights nc (counts_ok nf) (pois_bp p) l.
  Hypothesis Hv : V = true -> visited nc l.

  Lemma pw_ok : forall x w, In (x, w) l -> x <> [] /\ Forall (counts_ok nf) x.
  Proof. intros x w Hin. destruct (proj2 Hw x w Hin) as (H1 & H2 & _). split; assumption. Qed.

  Lemma pois_occ i : has "l" (c_params c) = true -> (i < nc)%nat -> 0 < wsum l (fun _ _ => 1) i.
  Proof. intros Hh Hi. apply (visited_occ nc _ _ l i Hw); [apply Hv, Hg, Hh|exact Hi]. Qed.

  Lemma pois_total : (0 < nc)%nat -> has "l" (c_params c) = true -> 0 < sumn nc (wsum l (fun _ _ => 1)).
  Proof.
    intros Hn Hh. apply (sumn_pos nc _ 0%nat); [|exact Hn|apply pois_occ; assumption].
    intros i Hi. left. apply pois_occ; assumption.
  Qed.

  Lemma cnt_nonneg i f : (i < nc)%nat -> 0 <= wsum l (cnt f) i.
  Proof.
    intros Hi. apply (wsum_nonneg l _ i (counts_ok nf)); [apply (good_weights_nn nc _ _ l i Hw Hi)|].
    intros o Ho. unfold cnt. apply IZR_le. apply (counts_nth nf). exact Ho.
  Qed.

  Lemma pois_step : exists st,
    em_acc_all poisson c nfe p nc (ec_stats0 poisson exact c nfe p) l = Ok st
    /\ ec_mstep poisson exact c nfe p st = Ok (pois_new c p l).
  Proof.
    cbn [poisson ec_stats0 ec_mstep]. unfold pois_stats0. rewrite Hc, (pg_nf _ _ _ _ Hg).
    change (tab nc (fun _ => Fin 0)) with (fvec nc (fun _ => 0)).
    change (mtab nc nf (fun _ _ => Fin 0)) with (fmat nc nf (fun _ _ => 0)).
    unfold pois_new, pois_mstep. destruct (has "l" (c_params c)) eqn:Hh.
    - rewrite pois_acc_all by (try exact Hh; exact pw_ok). eexists. split; [reflexivity|].
      cbn [po_post po_obs]. rewrite nrow_fmat, ncol_fmat. f_equal. f_equal. f_equal.
      rewrite xsum_fvec. apply mtab_ext. intros i f Hi Hf.
      rewrite mget_fmat, vget_fvec by assumption.
      destruct (pg_prior _ _ _ _ Hg i f Hi Hf) as [-> ->].
      rewrite (sumn_ext nc _ (wsum l (fun _ _ => 1))) by (intros; ring).
      rewrite !Rplus_0_l. pose proof (pois_occ i Hh Hi) as Ho.
      assert (Hn : (0 < nc)%nat) by lia. pose proof (pois_total Hn Hh) as Ht. pose proof (Hbe i f Hi Hf) as Hb.
      rewrite xdivE by lra. rewrite xmulE, !xaddE, xdivE by lra. reflexivity.
    - rewrite pois_acc_none by exact Hh. eexists. split; reflexivity.
  Qed.

  Lemma pois_upd_nonneg : has "l" (c_params c) = true -> nonneg2 nc nf (pois_upd l).
  Proof.
    intros Hh i f Hi Hf. unfold pois_upd. cbv zeta.
    assert (Hn : (0 < nc)%nat) by lia. pose proof (pois_total Hn Hh) as Ht.
    pose proof (Hbe i f Hi Hf). pose proof (Hal i f Hi Hf). pose proof (pois_occ i Hh Hi). pose proof (cnt_nonneg i f Hi).
    assert (Hq : 0 <= wsum l (cnt f) i / wsum l (fun _ _ => 1) i)
      by (unfold Rdiv; apply Rmult_le_pos; [lra|left; apply Rinv_0_lt_compat; lra]).
    assert (Hm : 0 <= sumn nc (wsum l (fun _ _ => 1)) * (wsum l (cnt f) i / wsum l (fun _ _ => 1) i))
      by (apply Rmult_le_pos; lra).
    unfold Rdiv at 1. apply Rmult_le_pos; [lra|left; apply Rinv_0_lt_compat; lra].
  Qed.

  Lemma pois_upd_pos i f : has "l" (c_params c) = true -> (i < nc)%nat -> (f < nf)%nat ->
    0 < wsum l (cnt f) i -> 0 < pois_upd l i f.
  Proof.
    intros Hh Hi Hf Hp. unfold pois_upd. cbv zeta.
    assert (Hn : (0 < nc)%nat) by lia. pose proof (pois_total Hn Hh) as Ht.
    pose proof (Hbe i f Hi Hf). pose proof (Hal i f Hi Hf). pose proof (pois_occ i Hh Hi).
    assert (Hq : 0 < wsum l (cnt f) i / wsum l (fun _ _ => 1) i) by (apply Rdiv_lt_0_compat; assumption).
    assert (0 < sumn nc (wsum l (fun _ _ => 1)) * (wsum l (cnt f) i / wsum l (fun _ _ => 1) i))
      by (apply Rmult_lt_0_compat; assumption).
    apply Rdiv_lt_0_compat; lra.
  Qed.

  Lemma pois_good_new : pois_good V c nfe (pois_new c p l).
  Proof.
    destruct (has "l" (c_params c)) eqn:Hh; unfold pois_new; rewrite Hh; [|exact Hg].
    assert (He : forall i f, (i < nc)%nat -> (f < nf)%nat ->
      pois_l (Poisp (po_alpha p) (po_beta p) (Some (fmat nc nf (pois_upd l)))) i f = pois_upd l i f)
      by (intros; apply pois_l_fmat; assumption).
    constructor.
    - apply Hg.
    - cbn [po_lam]. f_equal. apply fmat_ext. intros i f Hi Hf. symmetry. apply He; assumption.
    - intros i f Hi Hf. rewrite He by assumption. apply pois_upd_nonneg; assumption.
    - exact (pg_prior _ _ _ _ Hg).
    - apply Hg.
  Qed.

  Lemma pois_sup : forall x g t i, In (x, g) l -> (t < length x)%nat -> (i < nc)%nat ->
    0 < g t i -> 0 < obsB (pois_bp (pois_new c p l)) x t i.
  Proof.
    intros x g t i Hin Ht Hi Hp. destruct (proj2 Hw x g Hin) as (Hne & Hx & Hr).
    destruct x as [|d x0]; [contradiction|]. set (x := d :: x0) in *.
    destruct (Hr t Ht) as [_ Hb]. specialize (Hb i Hi Hp).
    unfold pois_new. destruct (has "l" (c_params c)) eqn:Hh; [|exact Hb].
    rewrite (obsB_nth _ x d) by exact Ht. unfold pois_bp, pois_b.
    set (o := nth t x d). apply prodn_pos. intros f Hf. rewrite pois_l_fmat by assumption.
    assert (Ho : counts_ok nf o) by (rewrite Forall_forall in Hx; apply Hx, nth_In; exact Ht).
    destruct (Z.eq_dec (nth f o 0%Z) 0) as [E|E].
    - rewrite E. cbn [Z.to_nat]. pose proof (pois_upd_nonneg Hh i f Hi Hf) as Hu.
      unfold pois_mass. cbn [pow fact INR]. replace (1 * exp (- pois_upd l i f) / 1) with (exp (- pois_upd l i f)) by field.
      apply exp_pos.
    - apply pois_mass_pos. apply pois_upd_pos; try assumption.
      apply (wsum_pos l (cnt f) i (counts_ok nf) x g t); try assumption.
      + apply (good_weights_nn nc _ _ l i Hw Hi).
      + intros q Hq. unfold cnt. apply IZR_le. apply (counts_nth nf). exact Hq.
      + rewrite (obsB_nth _ x d) by exact Ht. unfold cnt. apply IZR_lt. fold o.
        pose proof (counts_nth nf o f Ho). lia.
  Qed.
  End Step.

  Theorem pois_trains V : trains poisson nc (counts_ok nf) (pois_good V) pois_bp V.
  Proof.
    constructor.
    - intros [c nfe s t m p] Hc Hg. cbn [h_cfg h_nfeat h_em] in *. destruct p as [a1 b1 lm].
      pose proof (pg_lam _ _ _ _ Hg) as Hp. cbn [po_lam] in Hp.
      unfold pois_bp. set (lam := pois_l (Poisp a1 b1 lm)) in *. rewrite Hp.
      apply pois_emits; [exact Hc|apply Hg].
    - intros c nfe p l Hc Hg Hw Hv. destruct (pois_step V c nfe p l Hc Hg Hw Hv) as (st & H1 & H2).
      exists st, (pois_new c p l). split; [exact H1|]. split; [exact H2|].
      split; [apply (pois_good_new V); assumption|]. apply (pois_sup V c nfe); assumption.
  Qed.

  (** Log of the mass, where it is positive. *)
  Lemma ln_pois_mass mu k : 0 < pois_mass mu k -> 0 <= mu ->
    ln (pois_mass mu k) = INR k * ln mu - mu - ln (INR (fact k)).
  Proof.
    intros Hp Hm. destruct (nonneg_cases mu Hm) as [H| ->].
    - unfold pois_mass. rewrite ln_div by (try apply Rmult_lt_0_compat; try apply pow_lt; try apply exp_pos; try apply fact_pos; assumption).
      rewrite ln_mult by (try apply pow_lt; try apply exp_pos; assumption).
      rewrite ln_exp. rewrite <- (Rpower_pow k mu H), ln_Rpower. ring.
    - rewrite pois_mass_0 in *. destruct (Nat.eqb_spec k 0); [|lra]. subst k. cbn [fact INR]. rewrite !ln_1. ring.
  Qed.

  Lemma ln_pois_b lam r i : counts_ok nf r -> nonneg2 nc nf lam -> (i < nc)%nat -> 0 < pois_b nf lam r i ->
    ln (pois_b nf lam r i) = sumn nf (fun f => cnt f r i * ln (lam i f) - lam i f - ln (INR (fact (Z.to_nat (nth f r 0%Z))))).
  Proof.
    intros Hr Hl Hi Hp. unfold pois_b in *.
    assert (Hf : forall f, (f < nf)%nat -> 0 < pois_mass (lam i f) (Z.to_nat (nth f r 0%Z))).
    { apply prodn_pos_inv; [|exact Hp]. intros f Hf. apply pois_mass_nonneg, Hl; assumption. }
    rewrite ln_prodn by exact Hf. apply sumn_ext. intros f Hf'.
    rewrite ln_pois_mass by (try apply Hf; try apply Hl; assumption).
    unfold cnt. rewrite INR_IZR_INZ, Z2Nat.id by (apply (counts_nth nf); exact Hr). reflexivity.
  Qed.

  (** Maximum of the expected log-likelihood of one rate. *)
  Lemma pois_gain S N lam : 0 < N -> 0 <= S -> 0 <= lam -> (0 < S -> 0 < lam) ->
    0 <= S * (ln (S / N) - ln lam) - N * (S / N - lam).
  Proof.
    intros HN HS Hl Hs. destruct (nonneg_cases S HS) as [H| ->].
    - specialize (Hs H). assert (Hq : 0 < S / N) by (apply Rdiv_lt_0_compat; assumption).
      pose proof (ln_le_sub1 (lam / (S / N)) ltac:(apply Rdiv_lt_0_compat; assumption)) as Hln.
      rewrite ln_div in Hln by assumption.
      assert (Hm : S * (ln lam - ln (S / N)) <= S * (lam / (S / N) - 1)) by (apply Rmult_le_compat_l; lra).
      replace (S * (lam / (S / N) - 1)) with (N * lam - S) in Hm by (field; split; lra).
      replace (N * (S / N - lam)) with (S - N * lam) by (field; lra). lra.
    - unfold Rdiv. rewrite !Rmult_0_l. assert (0 <= N * lam) by (apply Rmult_le_pos; lra). lra.
  Qed.
End Pois.

(** With [lambdas_prior = lambdas_weight = 0] (the default). *)
Lemma pois_upd_flat nc l i f : (forall j, (j < nc)%nat -> 0 < wsum l (fun _ _ => 1) j) -> (i < nc)%nat ->
  pois_upd nc (fun _ _ => 0) (fun _ _ => 0) l i f = wsum l (cnt f) i / wsum l (fun _ _ => 1) i.
Proof.
  intros Ho Hi. unfold pois_upd. cbv zeta.
  assert (Ht : 0 < sumn nc (wsum l (fun _ _ => 1))).
  { apply (sumn_pos nc _ i); [intros j Hj; left; apply Ho; exact Hj|exact Hi|apply Ho; exact Hi]. }
  pose proof (Ho i Hi). field. lra.
Qed.

Theorem pois_improves nc nf V :
  improves poisson nc (counts_ok nf) (pois_good nc nf (fun _ _ => 0) (fun _ _ => 0) V) (pois_bp nf)
    (fun c _ _ l => has "l" (c_params c) = true -> visited nc l) (fun _ => 0).
Proof.
  intros c nfe p l st p' Hc Hg Hw Hv0 Hst Hp'.
  assert (Hz : nonneg2 nc nf (fun _ _ => 0)) by (intros i j _ _; lra).
  assert (Hg2 : pois_good nc nf (fun _ _ => 0) (fun _ _ => 0) (has "l" (c_params c)) c nfe p)
    by (destruct Hg; constructor; auto).
  destruct (pois_step nc nf _ _ Hz _ c nfe p l Hc Hg2 Hw Hv0) as (st' & H1 & H2).
  rewrite H1 in Hst. injection Hst as ->. rewrite H2 in Hp'. injection Hp' as <-.
  rewrite gain_by_state, Rplus_0_r, Rminus_0_r. apply sumn_nonneg. intros i Hi.
  pose proof (pois_sup nc nf _ _ Hz Hz _ c nfe p l Hc Hg2 Hw Hv0) as Hsup.
  destruct (has "l" (c_params c)) eqn:Hh.
  2:{ unfold pois_new. rewrite Hh. right. symmetry. unfold wsum. apply sumL_zero. intros [x g] Hin.
      cbn [fst snd]. apply sumn_zero. intros t Ht. destruct x as [|d x0]; [simpl in Ht; lia|].
      rewrite (obsB_nth _ (d :: x0) d) by exact Ht. ring. }
  specialize (Hv0 eq_refl).
  pose proof (fun j Hj => visited_occ nc _ _ l j Hw Hv0 Hj) as Hocc.
  assert (Hn : pois_new nc nf (fun _ _ => 0) (fun _ _ => 0) c p l
             = Poisp (po_alpha p) (po_beta p) (Some (fmat nc nf (pois_upd nc (fun _ _ => 0) (fun _ _ => 0) l))))
    by (unfold pois_new; rewrite Hh; reflexivity).
  set (p' := pois_new nc nf (fun _ _ => 0) (fun _ _ => 0) c p l) in *.
  assert (Hl' : forall f, (f < nf)%nat -> pois_l p' i f = wsum l (cnt f) i / wsum l (fun _ _ => 1) i).
  { intros f Hf. rewrite Hn, (pois_l_fmat nc nf) by assumption. apply pois_upd_flat; assumption. }
  pose proof (pois_good_new nc nf _ _ Hz Hz true c nfe p l Hc Hg2 Hw (fun _ => Hv0)) as Hg'. fold p' in Hg'.
  assert (Hnn := pg_nonneg _ _ _ _ _ _ _ _ Hg). assert (Hnn' := pg_nonneg _ _ _ _ _ _ _ _ Hg').
  assert (Hgain : wsum l (fun o j => ln (pois_bp nf p' o j) - ln (pois_bp nf p o j)) i
     = wsum l (fun o j => sumn nf (fun f => (ln (pois_l p' i f) - ln (pois_l p i f)) * cnt f o j
                                            + (- (pois_l p' i f - pois_l p i f)) * 1)) i).
  { unfold wsum. apply sumL_ext. intros [x g] Hin. cbn [fst snd]. apply sumn_ext. intros t Ht.
    destruct (proj2 Hw x g Hin) as (Hne & Hx & Hr). destruct (Hr t Ht) as [Hs Hb].
    destruct (Rle_lt_or_eq_dec 0 (g t i) (proj1 Hs i Hi)) as [Hgt|Hgt]; [|rewrite <- Hgt; ring].
    f_equal. specialize (Hb i Hi Hgt). specialize (Hsup x g t i Hin Ht Hi Hgt).
    destruct x as [|d x0]; [contradiction|]. set (x := d :: x0) in *.
    rewrite (obsB_nth _ x d) in Hb by exact Ht. rewrite (obsB_nth _ x d) in Hsup by exact Ht.
    rewrite !(obsB_nth _ x d) by exact Ht. set (o := nth t x d) in *.
    assert (Ho : counts_ok nf o) by (rewrite Forall_forall in Hx; apply Hx, nth_In; exact Ht).
    unfold pois_bp in *. rewrite (ln_pois_b nc nf _ o i Ho Hnn' Hi Hsup), (ln_pois_b nc nf _ o i Ho Hnn Hi Hb).
    rewrite <- sumn_minus. apply sumn_ext. intros f Hf. ring. }
  rewrite Hgain, wsum_sumn. apply sumn_nonneg. intros f Hf.
  rewrite wsum_plus, !wsum_scal, Hl' by exact Hf.
  assert (HS : 0 <= wsum l (cnt f) i) by (apply (cnt_nonneg nc nf p l Hw); exact Hi).
  pose proof (pois_gain (wsum l (cnt f) i) (wsum l (fun _ _ => 1) i) (pois_l p i f) (Hocc i Hi) HS (Hnn i f Hi Hf)) as Hq.
  assert (Hpos : 0 < wsum l (cnt f) i -> 0 < pois_l p i f).
  { intros Hp. apply (wsum_pos_inv l (cnt f) i (counts_ok nf)) in Hp as (x & g & t & Hin & Ht & Hgt & Hct).
    - destruct (proj2 Hw x g Hin) as (Hne & Hx & Hr). destruct (Hr t Ht) as [_ Hb]. specialize (Hb i Hi Hgt).
      destruct x as [|d x0]; [contradiction|]. set (x := d :: x0) in *.
      rewrite (obsB_nth _ x d) in Hb by exact Ht. rewrite (obsB_nth _ x d) in Hct by exact Ht. unfold pois_bp, pois_b in Hb.
      pose proof (prodn_pos_inv nf _ (fun f Hf => pois_mass_nonneg _ _ (Hnn i f Hi Hf)) Hb f Hf) as Hm.
      destruct (nonneg_cases _ (Hnn i f Hi Hf)) as [H|H]; [exact H|].
      cbv beta in Hm. rewrite H, pois_mass_0 in Hm. unfold cnt in Hct. apply lt_IZR in Hct.
      destruct (Nat.eqb_spec (Z.to_nat (nth f (nth t x d) 0%Z)) 0); [lia|lra].
    - apply (good_weights_nn nc _ _ l i Hw Hi).
    - intros o Ho. unfold cnt. apply IZR_le, (counts_nth nf). exact Ho. }
  specialize (Hq Hpos). lra.
Qed.

Definition pois_W (nc nf : nat) (al be : nat -> nat -> R) (c : cfg) (nfe : option nat) (p : poisp)
    (l : list (list (list Z) * (nat -> nat -> R))) : Prop :=
  (forall i f, (i < nc)%nat -> (f < nf)%nat -> al i f = 0 /\ be i f = 0)
  /\ (has "l" (c_params c) = true -> visited nc l).

Lemma pois_improves_W nc nf al be V :
  improves poisson nc (counts_ok nf) (pois_good nc nf al be V) (pois_bp nf) (pois_W nc nf al be) (fun _ => 0).
Proof.
  intros c nfe p l st p' Hc Hg Hw [Hz Hv]. apply (pois_improves nc nf V c nfe p l st p' Hc); [|exact Hw|exact Hv].
  destruct Hg. constructor; try assumption. intros i f Hi Hf.
  destruct (pg_prior0 i f Hi Hf) as [E1 E2]. destruct (Hz i f Hi Hf) as [Z1 Z2]. rewrite <- Z1, <- Z2 at 1. rewrite E1, E2, Z1, Z2.
  split; reflexivity.
Qed.
