(** * MultinomialHMM: emissions and update. *)
From Verif Require Export Multinomial Poisson_proofs.

(** Multinomial probability of a row of counts. *)
Definition mult_mass (nf : nat) (p : nat -> R) (r : list Z) : R :=
  INR (fact (Z.to_nat (zsum r)))
  * prodn nf (fun f => p f ^ Z.to_nat (nth f r 0%Z) / INR (fact (Z.to_nat (nth f r 0%Z)))).
Definition mult_b (nf : nat) (e : nat -> nat -> R) (r : list Z) (i : nat) : R := mult_mass nf (e i) r.

(** Rows with at least one trial. *)
Definition trials_ok (nf : nat) (r : list Z) : Prop := counts_ok nf r /\ (0 < zsum r)%Z.

Lemma zsum_nonneg nf r : counts_ok nf r -> (0 <= zsum r)%Z.
Proof.
  intros [_ H]. induction H as [|k r Hk _ IH]; cbn [zsum fold_right]; [lia|]. fold (zsum r). lia.
Qed.

Lemma zsum_sumn r : IZR (zsum r) = sumn (length r) (fun f => IZR (nth f r 0%Z)).
Proof.
  induction r as [|k r IH]; [reflexivity|]. cbn [zsum fold_right length]. fold (zsum r).
  rewrite plus_IZR, IH, sumn_S_l. reflexivity.
Qed.

Lemma pow_pos_inv p k : 0 <= p -> (0 < k)%nat -> 0 < p ^ k -> 0 < p.
Proof.
  intros Hp Hk H. destruct (nonneg_cases p Hp) as [|E]; [assumption|]. subst p.
  rewrite pow_i in H by exact Hk. lra.
Qed.

Section Mult.
  Variables (nc nf : nat).
  Hypothesis Hnf : (0 < nf)%nat.

  Lemma mult_mass_nonneg p r : nonneg1 nf p -> 0 <= mult_mass nf p r.
  Proof.
    intros H. unfold mult_mass. apply Rmult_le_pos; [left; apply fact_pos|]. apply prodn_nonneg. intros f Hf.
    unfold Rdiv. apply Rmult_le_pos; [apply pow_le, H; exact Hf|left; apply Rinv_0_lt_compat, fact_pos].
  Qed.

  Lemma mult_mass_pos q r : (forall f, (f < nf)%nat -> (0 < nth f r 0)%Z -> 0 < q f) -> counts_ok nf r -> 0 < mult_mass nf q r.
  Proof.
    intros H Hr. unfold mult_mass. apply Rmult_lt_0_compat; [apply fact_pos|]. apply prodn_pos. intros f Hf.
    apply Rdiv_lt_0_compat; [|apply fact_pos].
    pose proof (counts_nth nf r f Hr) as Hk. destruct (Z.eq_dec (nth f r 0%Z) 0) as [E|E].
    - rewrite E. simpl. lra.
    - apply pow_lt. apply H; [exact Hf|lia].
  Qed.

  Lemma mult_mass_pos_inv q r f : nonneg1 nf q -> 0 < mult_mass nf q r -> (f < nf)%nat -> (0 < nth f r 0)%Z -> 0 < q f.
  Proof.
    intros Hq H Hf Hk. unfold mult_mass in H.
    assert (Hp : 0 < prodn nf (fun f => q f ^ Z.to_nat (nth f r 0%Z) / INR (fact (Z.to_nat (nth f r 0%Z))))).
    { apply (Rmult_lt_reg_l (INR (fact (Z.to_nat (zsum r))))); [apply fact_pos|]. rewrite Rmult_0_r. exact H. }
    assert (Hnn : forall f, (f < nf)%nat -> 0 <= q f ^ Z.to_nat (nth f r 0%Z) / INR (fact (Z.to_nat (nth f r 0%Z)))).
    { intros g Hgf. unfold Rdiv. apply Rmult_le_pos; [apply pow_le, Hq; exact Hgf|left; apply Rinv_0_lt_compat, fact_pos]. }
    pose proof (prodn_pos_inv nf _ Hnn Hp f Hf) as Hm. cbv beta in Hm.
    apply (pow_pos_inv (q f) (Z.to_nat (nth f r 0%Z))); [apply Hq; exact Hf|lia|].
    apply (Rmult_lt_reg_r (/ INR (fact (Z.to_nat (nth f r 0%Z))))); [apply Rinv_0_lt_compat, fact_pos|].
    rewrite Rmult_0_l. exact Hm.
  Qed.

  Lemma adjust_stochastic p : stochastic1 nf p -> mult_adjust exact (fvec nf p) = fvec nf p.
  Proof.
    intros [Hp Hs]. unfold mult_adjust. destruct nf as [|n]; [lia|].
    assert (E : fvec (S n) p = fvec n p ++ [Fin (p n)]).
    { unfold fvec, tab. rewrite seq_S, map_app. reflexivity. }
    rewrite E. rewrite removelast_last. rewrite xsum_fvec, xsubE.
    cbn [sumn] in Hs. replace (1 - sumn n p) with (p n) by lra.
    destruct (xltb _ _); reflexivity.
  Qed.

  Lemma stochastic_le1 p f : stochastic1 nf p -> (f < nf)%nat -> p f <= 1.
  Proof. intros [Hp Hs] Hf. rewrite <- Hs. apply (sumn_ge_term nf p f Hp Hf). Qed.

  Lemma xlogy_pow k p : 0 <= p -> (0 <= k)%Z -> xlogy exact k (Fin p) = xln (p ^ Z.to_nat k).
  Proof.
    intros Hp Hk. unfold xlogy. destruct (Z.eqb_spec k 0) as [E|E]; cbn [andb negb xisnan].
    - subst k. cbn [Z.to_nat pow]. rewrite xln_1. reflexivity.
    - assert (Hn : IZR k = INR (Z.to_nat k)) by (rewrite INR_IZR_INZ, Z2Nat.id by exact Hk; reflexivity).
      assert (Hk0 : (0 < Z.to_nat k)%nat) by lia.
      rewrite xlog_fin by exact Hp. destruct (nonneg_cases p Hp) as [H| ->].
      + rewrite !xln_pos by (try apply pow_lt; assumption). rewrite xmulE. f_equal.
        rewrite Hn, <- (Rpower_pow _ p H), ln_Rpower. ring.
      + rewrite pow_i by exact Hk0. rewrite xln_0. cbn [xmul]. unfold xscale_inf.
        assert (0 < IZR k) by (rewrite Hn; apply lt_0_INR; exact Hk0).
        destruct (Rlt_dec 0 (IZR k)); [reflexivity|contradiction].
  Qed.

  Lemma mult_logpmf_ok p r : stochastic1 nf p -> counts_ok nf r ->
    mult_logpmf exact r (fvec nf p) = xln (mult_mass nf p r).
  Proof.
    intros Hs Hr. unfold mult_logpmf. rewrite adjust_stochastic by exact Hs.
    assert (E1 : existsb (fun v => xltb v (Fin 0) || xltb (Fin 1) v) (fvec nf p) = false).
    { apply not_true_is_false. intros H. apply existsb_exists in H as (v & Hv & H).
      unfold fvec, tab in Hv. apply in_map_iff in Hv as (f & <- & Hf). apply in_seq in Hf.
      pose proof (proj1 Hs f ltac:(lia)). pose proof (stochastic_le1 p f Hs ltac:(lia)).
      cbn [xltb] in H. rewrite (proj2 (Rltb_false (p f) 0)), (proj2 (Rltb_false 1 (p f))) in H by lra. discriminate. }
    rewrite E1. pose proof (zsum_nonneg nf r Hr) as Hz. rewrite (proj2 (Z.ltb_ge _ _) Hz). cbn [orb].
    assert (E2 : existsb (fun k => Z.ltb k 0) r = false).
    { apply not_true_is_false. intros H. apply existsb_exists in H as (v & Hv & H). apply Z.ltb_lt in H.
      destruct Hr as [_ Hr]. rewrite Forall_forall in Hr. specialize (Hr v Hv). lia. }
    rewrite E2. destruct Hr as [Hlen Hr]. rewrite Hlen.
    rewrite (tab_ext nf _ (fun f => xln (p f ^ Z.to_nat (nth f r 0%Z) / INR (fact (Z.to_nat (nth f r 0%Z)))))).
    2:{ intros f Hf. rewrite vget_fvec by exact Hf. rewrite xlogy_pow.
        - unfold gammaln_succ, exact at 2. rewrite <- xln_pos by apply fact_pos.
          apply xsub_xln; [apply pow_le, Hs; exact Hf|apply fact_pos].
        - apply Hs; exact Hf.
        - apply (counts_nth nf). split; assumption. }
    rewrite xsum_xln.
    2:{ intros f Hf. unfold Rdiv. apply Rmult_le_pos; [apply pow_le, Hs; exact Hf|left; apply Rinv_0_lt_compat, fact_pos]. }
    unfold gammaln_succ, exact at 2. rewrite <- xln_pos by apply fact_pos. rewrite xadd_xln; [reflexivity|left; apply fact_pos|].
    apply prodn_nonneg. intros f Hf. unfold Rdiv. apply Rmult_le_pos; [apply pow_le, Hs; exact Hf|left; apply Rinv_0_lt_compat, fact_pos].
  Qed.

  Lemma mult_loglik_ok c nfe tr e x : c_nc c = nc -> stochastic2 nc nf e -> Forall (counts_ok nf) x ->
    mult_loglik exact c nfe (Mulp tr (Some (fmat nc nf e))) x
    = Ok (lmat (length x) nc (obsB (mult_b nf e) x)).
  Proof.
    intros Hc He Hx. unfold mult_loglik. cbn [mu_prob].
    destruct x as [|r0 x0] eqn:Ex.
    - rewrite Hc. reflexivity.
    - rewrite <- Ex in *. rewrite ncol_fmat.
      assert (Hw : width x = nf) by (rewrite Forall_forall in Hx; rewrite Ex; cbn [width]; apply (Hx r0); rewrite Ex; left; reflexivity).
      rewrite Hw, Nat.eqb_refl, Hc. f_equal.
      etransitivity; [|apply (mat_of_rows x nc (fun r i => xln (mult_b nf e r i)) (fun t i => xln (obsB (mult_b nf e) x t i)))].
      + f_equal. apply map_ext_in. intros r Hr. apply tab_ext. intros i Hi.
        unfold fmat, mtab. cbn [rows]. rewrite tab_nth by exact Hi.
        rewrite Forall_forall in Hx. apply mult_logpmf_ok; [apply He; exact Hi|apply Hx; exact Hr].
      + intros t d i Ht Hi. rewrite (obsB_nth _ x d) by exact Ht. reflexivity.
  Qed.

  Lemma mult_b_nonneg e r i : stochastic2 nc nf e -> (i < nc)%nat -> 0 <= mult_b nf e r i.
  Proof. intros H Hi. apply mult_mass_nonneg. apply (H i Hi). Qed.

  Lemma mult_emits c nfe tr e s t m : c_nc c = nc -> stochastic2 nc nf e ->
    emits multinomial (Hmm c nfe s t m (Mulp tr (Some (fmat nc nf e)))) nc (counts_ok nf) (mult_b nf e).
  Proof.
    intros Hc He. constructor.
    - intros x Hx. unfold loglik. cbn [multinomial ec_loglik h_cfg h_nfeat h_em]. apply mult_loglik_ok; assumption.
    - intros x Hx. unfold lik. cbn [multinomial ec_lik h_cfg h_nfeat h_em]. unfold mult_lik.
      rewrite mult_loglik_ok by assumption. 
      cbn [lik_of_loglik bind]. f_equal. unfold lmat. rewrite mmap_mtab. apply mtab_ext. intros u i Hu Hi.
      apply xexp_xln. destruct x as [|d x0]; [simpl in Hu; lia|].
      rewrite (obsB_nth _ (d :: x0) d) by exact Hu. apply mult_b_nonneg; assumption.
    - intros o i Ho Hi. apply mult_b_nonneg; assumption.
    - reflexivity.
  Qed.

  (** ** Statistics and update. *)
  Lemma mult_acc_all c nfe p l : forall g,
    (forall x w, In (x, w) l -> x <> [] /\ Forall (counts_ok nf) x) -> has "e" (c_params c) = true ->
    em_acc_all multinomial c nfe p nc (fmat nc nf g) l
    = Ok (fmat nc nf (fun i k => g i k + wsum l (cnt k) i)).
  Proof.
    induction l as [|[x w] l IH]; intros g Hl Hh.
    - cbn [em_acc_all]. f_equal. apply fmat_ext; intros; unfold wsum; cbn [sumL]; ring.
    - cbn [em_acc_all multinomial ec_acc]. unfold mult_acc. rewrite Hh.
      destruct (Hl x w (or_introl eq_refl)) as [Hne Hx].
      rewrite (matT_mul_fmat nc nf x w zrow (fun r k => IZR (nth k r 0%Z)) Hne).
      2:{ intros o Ho. apply zrow_fvec. rewrite Forall_forall in Hx. apply (Hx o Ho). }
      rewrite iadd_fmat. cbn [bind].
      fold multinomial. rewrite IH by (try exact Hh; intros y w' H; apply (Hl y w'); right; exact H).
      f_equal. apply fmat_ext; intros; rewrite wsum_cons. rewrite <- Rplus_assoc. reflexivity.
  Qed.

  Lemma mult_acc_none c nfe p l st : has "e" (c_params c) = false ->
    em_acc_all multinomial c nfe p nc st l = Ok st.
  Proof.
    intros Hh. induction l as [|[x w] l IH]; [reflexivity|]. cbn [em_acc_all multinomial ec_acc].
    unfold mult_acc. rewrite Hh. exact IH.
  Qed.

  Definition mult_e (p : mulp) (i f : nat) : R :=
    match mu_prob p with Some m => rval (mget m i f) | None => 0 end.
  Lemma mult_e_fmat tr e i f : (i < nc)%nat -> (f < nf)%nat ->
    mult_e (Mulp tr (Some (fmat nc nf e))) i f = e i f.
  Proof. intros Hi Hf. unfold mult_e. cbn [mu_prob]. rewrite mget_fmat by assumption. reflexivity. Qed.

  Record mult_good (V : bool) (c : cfg) (nfe : option nat) (p : mulp) : Prop := MultGood {
    mg_nf : nfe = Some nf;
    mg_e : mu_prob p = Some (fmat nc nf (mult_e p));
    mg_stoch : stochastic2 nc nf (mult_e p);
    mg_V : has "e" (c_params c) = true -> V = true }.

  Definition mult_upd (l : list (list (list Z) * (nat -> nat -> R))) (i f : nat) : R :=
    wsum l (cnt f) i / sumn nf (fun k => wsum l (cnt k) i).
  Definition mult_new (c : cfg) (p : mulp) l : mulp :=
    if has "e" (c_params c) then Mulp (mu_trials p) (Some (fmat nc nf (mult_upd l))) else p.
  Definition mult_bp (p : mulp) : list Z -> nat -> R := mult_b nf (mult_e p).

  Lemma wsum_trials l i : (forall x w, In (x, w) l -> x <> [] /\ Forall (counts_ok nf) x) ->
    sumn nf (fun k => wsum l (cnt k) i) = wsum l (fun r _ => IZR (zsum r)) i.
  Proof.
    intros Hl. rewrite <- wsum_sumn. unfold wsum. apply sumL_ext. intros [x g] Hin. cbn [fst snd].
    apply sumn_ext. intros t Ht. f_equal. destruct (Hl x g Hin) as [Hne Hx].
    destruct x as [|d x0]; [contradiction|]. rewrite !(obsB_nth _ (d :: x0) d) by exact Ht.
    set (o := nth t (d :: x0) d). assert (Ho : counts_ok nf o) by (rewrite Forall_forall in Hx; apply Hx, nth_In; exact Ht).
    rewrite zsum_sumn, (proj1 Ho). reflexivity.
  Qed.

  Section Step.
  Variables (V : bool) (c : cfg) (nfe : option nat) (p : mulp) (l : list (list (list Z) * (nat -> nat -> R))).
  Hypothesis Hc : c_nc c = nc.
  Hypothesis Hg : mult_good V c nfe p.
  Hypothesis Hw : good_weights nc (trials_ok nf) (mult_bp p) l.
  Hypothesis Hv : V = true -> visited nc l.

  Lemma mw_ok : forall x w, In (x, w) l -> x <> [] /\ Forall (counts_ok nf) x.
  Proof.
    intros x w Hin. destruct (proj2 Hw x w Hin) as (H1 & H2 & _). split; [exact H1|].
    eapply Forall_impl; [|exact H2]. intros r []. assumption.
  Qed.

  Lemma mcnt_nonneg i f : (i < nc)%nat -> 0 <= wsum l (cnt f) i.
  Proof.
    intros Hi. apply (wsum_nonneg l _ i (trials_ok nf)); [apply (good_weights_nn nc _ _ l i Hw Hi)|].
    intros o Ho. unfold cnt. apply IZR_le. apply (counts_nth nf). apply Ho.
  Qed.

  Lemma mult_tot i : has "e" (c_params c) = true -> (i < nc)%nat -> 0 < sumn nf (fun k => wsum l (cnt k) i).
  Proof.
    intros Hh Hi. rewrite wsum_trials by exact mw_ok.
    pose proof (visited_occ nc _ _ l i Hw (Hv (mg_V _ _ _ _ Hg Hh)) Hi) as Ho.
    apply (wsum_pos_inv l _ i (trials_ok nf)) in Ho as (x & g & t & Hin & Ht & Hgt & _).
    - destruct (proj2 Hw x g Hin) as (Hne & Hx & _).
      apply (wsum_pos l _ i (trials_ok nf) x g t); try assumption.
      + apply (good_weights_nn nc _ _ l i Hw Hi).
      + intros o Ho. apply IZR_le. destruct Ho. lia.
      + destruct x as [|d x0]; [contradiction|]. rewrite (obsB_nth _ (d :: x0) d) by exact Ht.
        apply IZR_lt. rewrite Forall_forall in Hx. apply (Hx (nth t (d :: x0) d)), nth_In, Ht.
    - apply (good_weights_nn nc _ _ l i Hw Hi).
    - intros. lra.
  Qed.

  Lemma mult_step : exists st,
    em_acc_all multinomial c nfe p nc (ec_stats0 multinomial exact c nfe p) l = Ok st
    /\ ec_mstep multinomial exact c nfe p st = Ok (mult_new c p l).
  Proof.
    cbn [multinomial ec_stats0 ec_mstep]. unfold mult_stats0. rewrite Hc, (mg_nf _ _ _ _ Hg).
    change (mtab nc nf (fun _ _ => Fin 0)) with (fmat nc nf (fun _ _ => 0)).
    unfold mult_new, mult_mstep. destruct (has "e" (c_params c)) eqn:Hh.
    - fold multinomial. rewrite mult_acc_all by (try exact Hh; exact mw_ok). eexists. split; [reflexivity|].
      rewrite nrow_fmat, ncol_fmat. f_equal. f_equal. f_equal.
      apply mtab_ext. intros i f Hi Hf.
      rewrite mget_fmat by assumption. unfold fmat at 1, mtab at 1. cbn [rows]. rewrite tab_nth by exact Hi.
      change (tab nf (fun j => Fin (0 + wsum l (cnt j) i))) with (fvec nf (fun j => 0 + wsum l (cnt j) i)).
      rewrite xsum_fvec. rewrite (sumn_ext nf _ (fun k => wsum l (cnt k) i)) by (intros; ring).
      pose proof (mult_tot i Hh Hi). rewrite xdivE by lra. rewrite Rplus_0_l. reflexivity.
    - fold multinomial. rewrite mult_acc_none by exact Hh. eexists. split; reflexivity.
  Qed.

  Lemma mult_upd_stoch : has "e" (c_params c) = true -> stochastic2 nc nf (mult_upd l).
  Proof.
    intros Hh i Hi. pose proof (mult_tot i Hh Hi) as Ht. split.
    - intros f Hf. unfold mult_upd, Rdiv. apply Rmult_le_pos; [apply mcnt_nonneg; exact Hi|left; apply Rinv_0_lt_compat; exact Ht].
    - unfold mult_upd. unfold Rdiv. rewrite sumn_scal_r. field. lra.
  Qed.

  Lemma mult_good_new : mult_good V c nfe (mult_new c p l).
  Proof.
    destruct (has "e" (c_params c)) eqn:Hh; unfold mult_new; rewrite Hh; [|exact Hg].
    assert (He : forall i f, (i < nc)%nat -> (f < nf)%nat ->
      mult_e (Mulp (mu_trials p) (Some (fmat nc nf (mult_upd l)))) i f = mult_upd l i f)
      by (intros; apply mult_e_fmat; assumption).
    constructor.
    - apply Hg.
    - cbn [mu_prob]. f_equal. apply fmat_ext. intros i f Hi Hf. symmetry. apply He; assumption.
    - intros i Hi. destruct (mult_upd_stoch Hh i Hi) as [H1 H2]. split.
      + intros f Hf. rewrite He by assumption. apply H1; exact Hf.
      + rewrite <- H2. apply sumn_ext. intros f Hf. apply He; assumption.
    - apply Hg.
  Qed.

  Lemma mult_sup : forall x g t i, In (x, g) l -> (t < length x)%nat -> (i < nc)%nat ->
    0 < g t i -> 0 < obsB (mult_bp (mult_new c p l)) x t i.
  Proof.
    intros x g t i Hin Ht Hi Hp. destruct (proj2 Hw x g Hin) as (Hne & Hx & Hr).
    destruct x as [|d x0]; [contradiction|]. set (x := d :: x0) in *.
    destruct (Hr t Ht) as [_ Hb]. specialize (Hb i Hi Hp).
    unfold mult_new. destruct (has "e" (c_params c)) eqn:Hh; [|exact Hb].
    rewrite (obsB_nth _ x d) by exact Ht. unfold mult_bp, mult_b.
    set (o := nth t x d).
    assert (Ho : trials_ok nf o) by (rewrite Forall_forall in Hx; apply Hx, nth_In; exact Ht).
    apply mult_mass_pos; [|apply Ho]. intros f Hf Hk. rewrite mult_e_fmat by assumption.
    unfold mult_upd. apply Rdiv_lt_0_compat; [|apply mult_tot; assumption].
    apply (wsum_pos l (cnt f) i (trials_ok nf) x g t); try assumption.
    - apply (good_weights_nn nc _ _ l i Hw Hi).
    - intros q Hq. unfold cnt. apply IZR_le. apply (counts_nth nf). apply Hq.
    - rewrite (obsB_nth _ x d) by exact Ht. unfold cnt. apply IZR_lt. exact Hk.
  Qed.
  End Step.

  Lemma emits_trials c nfe tr e s t m : c_nc c = nc -> stochastic2 nc nf e ->
    emits multinomial (Hmm c nfe s t m (Mulp tr (Some (fmat nc nf e)))) nc (trials_ok nf) (mult_b nf e).
  Proof.
    intros Hc He. destruct (mult_emits c nfe tr e s t m Hc He).
    assert (HF : forall x, Forall (trials_ok nf) x -> Forall (counts_ok nf) x)
      by (intros x Hx; eapply Forall_impl; [|exact Hx]; intros r []; assumption).
    constructor.
    - intros x Hx. apply em_log, HF, Hx.
    - intros x Hx. apply em_lin, HF, Hx.
    - intros o i [Ho _] Hi. apply em_nonneg; assumption.
    - intros o Ho. reflexivity.
  Qed.

  Theorem mult_trains V : trains multinomial nc (trials_ok nf) (mult_good V) mult_bp V.
  Proof.
    constructor.
    - intros [c nfe s t m p] Hc Hg. cbn [h_cfg h_nfeat h_em] in *. destruct p as [tr pr].
      pose proof (mg_e _ _ _ _ Hg) as Hp. cbn [mu_prob] in Hp.
      unfold mult_bp. set (e := mult_e (Mulp tr pr)) in *. rewrite Hp.
      apply emits_trials; [exact Hc|apply Hg].
    - intros c nfe p l Hc Hg Hw Hv. destruct (mult_step V c nfe p l Hc Hg Hw Hv) as (st & H1 & H2).
      exists st, (mult_new c p l). split; [exact H1|]. split; [exact H2|].
      split; [apply (mult_good_new V); assumption|]. apply (mult_sup V c nfe); assumption.
  Qed.

  Lemma ln_pow_pos q k : 0 <= q -> 0 < q ^ k -> ln (q ^ k) = INR k * ln q.
  Proof.
    intros Hq Hp. destruct (nonneg_cases q Hq) as [H| ->].
    - rewrite <- (Rpower_pow k q H), ln_Rpower. reflexivity.
    - destruct k as [|k]; [simpl; rewrite ln_1; ring|]. rewrite pow_i in Hp by lia. lra.
  Qed.

  Lemma ln_mult_mass q r : counts_ok nf r -> nonneg1 nf q -> 0 < mult_mass nf q r ->
    ln (mult_mass nf q r) = ln (INR (fact (Z.to_nat (zsum r))))
      + sumn nf (fun f => IZR (nth f r 0%Z) * ln (q f) - ln (INR (fact (Z.to_nat (nth f r 0%Z))))).
  Proof.
    intros Hr Hq Hp. pose proof (fun f Hf => mult_mass_pos_inv q r f Hq Hp Hf) as Hqf. unfold mult_mass in *.
    assert (Hpow : forall f, (f < nf)%nat -> 0 < q f ^ Z.to_nat (nth f r 0%Z)).
    { intros f Hf. pose proof (counts_nth nf r f Hr) as Hk. destruct (Z.eq_dec (nth f r 0%Z) 0) as [E|E].
      - rewrite E. simpl. lra.
      - apply pow_lt, Hqf; [exact Hf|lia]. }
    assert (Hd : forall f, (f < nf)%nat -> 0 < q f ^ Z.to_nat (nth f r 0%Z) / INR (fact (Z.to_nat (nth f r 0%Z)))).
    { intros f Hf. apply Rdiv_lt_0_compat; [apply Hpow; exact Hf|apply fact_pos]. }
    rewrite ln_mult; [|apply fact_pos|apply prodn_pos; exact Hd]. f_equal. rewrite ln_prodn by exact Hd.
    apply sumn_ext. intros f Hf. rewrite ln_div by (try apply fact_pos; apply Hpow; exact Hf).
    rewrite ln_pow_pos by (try apply Hpow; try apply Hq; exact Hf).
    rewrite INR_IZR_INZ, Z2Nat.id by (apply (counts_nth nf); exact Hr). reflexivity.
  Qed.
End Mult.

Theorem mult_improves nc nf V : (0 < nf)%nat ->
  improves multinomial nc (trials_ok nf) (mult_good nc nf V) (mult_bp nf)
    (fun c _ _ l => has "e" (c_params c) = true -> visited nc l) (fun _ => 0).
Proof.
  intros Hnf c nfe p l st p' Hc Hg Hw Hv0 Hst Hp'.
  assert (Hg2 : mult_good nc nf (has "e" (c_params c)) c nfe p) by (destruct Hg; constructor; auto).
  destruct (mult_step nc nf Hnf _ c nfe p l Hc Hg2 Hw Hv0) as (st' & H1 & H2).
  rewrite H1 in Hst. injection Hst as ->. rewrite H2 in Hp'. injection Hp' as <-.
  rewrite gain_by_state, Rplus_0_r, Rminus_0_r. apply sumn_nonneg. intros i Hi.
  pose proof (mult_sup nc nf Hnf _ c nfe p l Hc Hg2 Hw Hv0) as Hsup.
  destruct (has "e" (c_params c)) eqn:Hh.
  2:{ unfold mult_new. rewrite Hh. right. symmetry. unfold wsum. apply sumL_zero. intros [x g] Hin.
      cbn [fst snd]. apply sumn_zero. intros t Ht. destruct x as [|d x0]; [simpl in Ht; lia|].
      rewrite (obsB_nth _ (d :: x0) d) by exact Ht. ring. }
  specialize (Hv0 eq_refl).
  assert (Hn : mult_new nc nf c p l = Mulp (mu_trials p) (Some (fmat nc nf (mult_upd nf l))))
    by (unfold mult_new; rewrite Hh; reflexivity).
  set (p' := mult_new nc nf c p l) in *.
  assert (Hl' : forall f, (f < nf)%nat -> mult_e p' i f = mult_upd nf l i f).
  { intros f Hf. rewrite Hn, (mult_e_fmat nc nf) by assumption. reflexivity. }
  pose proof (mult_good_new nc nf Hnf true c nfe p l Hc Hg2 Hw (fun _ => Hv0)) as Hg'. fold p' in Hg'.
  assert (Hnn := mg_stoch _ _ _ _ _ _ Hg). assert (Hnn' := mg_stoch _ _ _ _ _ _ Hg').
  assert (Hgain : wsum l (fun o j => ln (mult_bp nf p' o j) - ln (mult_bp nf p o j)) i
     = wsum l (fun o j => sumn nf (fun f => (ln (mult_e p' i f) - ln (mult_e p i f)) * cnt f o j)) i).
  { unfold wsum. apply sumL_ext. intros [x g] Hin. cbn [fst snd]. apply sumn_ext. intros t Ht.
    destruct (proj2 Hw x g Hin) as (Hne & Hx & Hr). destruct (Hr t Ht) as [Hs Hb].
    destruct (Rle_lt_or_eq_dec 0 (g t i) (proj1 Hs i Hi)) as [Hgt|Hgt]; [|rewrite <- Hgt; ring].
    f_equal. specialize (Hb i Hi Hgt). specialize (Hsup x g t i Hin Ht Hi Hgt).
    destruct x as [|d x0]; [contradiction|]. set (x := d :: x0) in *.
    rewrite (obsB_nth _ x d) in Hb by exact Ht. rewrite (obsB_nth _ x d) in Hsup by exact Ht.
    rewrite !(obsB_nth _ x d) by exact Ht. set (o := nth t x d) in *.
    assert (Ho : trials_ok nf o) by (rewrite Forall_forall in Hx; apply Hx, nth_In; exact Ht).
    unfold mult_bp, mult_b in *.
    rewrite (ln_mult_mass nf Hnf _ o (proj1 Ho) (proj1 (Hnn' i Hi)) Hsup), (ln_mult_mass nf Hnf _ o (proj1 Ho) (proj1 (Hnn i Hi)) Hb).
    match goal with |- ?a + ?u - (?a + ?v) = _ => replace (a + u - (a + v)) with (u - v) by ring end.
    rewrite <- sumn_minus. apply sumn_ext. intros f Hf. unfold cnt. ring. }
  rewrite Hgain, wsum_sumn.
  rewrite (sumn_ext nf _ (fun f => wsum l (cnt f) i * (ln (wsum l (cnt f) i / sumn nf (fun k => wsum l (cnt k) i)) - ln (mult_e p i f)))).
  2:{ intros f Hf. rewrite wsum_scal, Hl' by exact Hf. unfold mult_upd. ring. }
  apply (gibbs nf (fun f => wsum l (cnt f) i) (mult_e p i)).
  - intros f Hf. apply (mcnt_nonneg nc nf p l Hw); exact Hi.
  - apply (Hnn i Hi).
  - intros f Hf Hp. apply (wsum_pos_inv l (cnt f) i (trials_ok nf)) in Hp as (x & g & t & Hin & Ht & Hgt & Hct).
    + destruct (proj2 Hw x g Hin) as (Hne & Hx & Hr). destruct (Hr t Ht) as [_ Hb]. specialize (Hb i Hi Hgt).
      destruct x as [|d x0]; [contradiction|]. set (x := d :: x0) in *.
      rewrite (obsB_nth _ x d) in Hb by exact Ht. rewrite (obsB_nth _ x d) in Hct by exact Ht. unfold mult_bp, mult_b in Hb.
      apply (mult_mass_pos_inv nf Hnf _ (nth t x d) f (proj1 (Hnn i Hi)) Hb Hf). unfold cnt in Hct. apply lt_IZR in Hct. exact Hct.
    + apply (good_weights_nn nc _ _ l i Hw Hi).
    + intros o Ho. unfold cnt. apply IZR_le, (counts_nth nf). apply Ho.
  - right. apply (Hnn i Hi).
  - apply (mult_tot nc nf Hnf true c nfe p l Hc Hg2 Hw (fun _ => Hv0) i Hh Hi).
Qed.
