(** * The variational base class computes its specification (exact arithmetic). *)
From Verif Require Export Vmath Vready Rows_proofs.

Lemma xdigammaE r : 0 < r -> xdigamma exact (Fin r) = Fin (psi r).
Proof. intros H. unfold xdigamma. destruct (Rlt_dec 0 r); [reflexivity|contradiction]. Qed.
Lemma xgammalnE r : 0 < r -> xgammaln exact (Fin r) = Fin (lgam r).
Proof. intros H. unfold xgammaln. destruct (Rlt_dec 0 r); [reflexivity|contradiction]. Qed.

Lemma pos_sum n q : (0 < n)%nat -> pos1 n q -> 0 < sumn n q.
Proof. intros Hn H. apply sumn_all_pos; assumption. Qed.

Lemma log_subnorm_fvec n q : (0 < n)%nat -> pos1 n q ->
  log_subnorm exact (fvec n q) = fvec n (fun i => ln (sub1 n q i)).
Proof.
  intros Hn H. unfold log_subnorm. rewrite xsum_fvec, xdigammaE by (apply pos_sum; assumption).
  unfold fvec. rewrite tab_map. apply tab_ext. intros i Hi. rewrite xdigammaE by (apply H; exact Hi).
  rewrite ln_sub1. reflexivity.
Qed.

Lemma mean_of_fvec n q : (0 < n)%nat -> pos1 n q -> mean_of exact (fvec n q) = fvec n (mean1 n q).
Proof.
  intros Hn H. unfold mean_of. rewrite xsum_fvec. pose proof (pos_sum n q Hn H). unfold fvec. rewrite tab_map.
  apply tab_ext. intros i Hi. unfold mean1. apply xdivE. lra.
Qed.

Lemma kl_dirichlet_fvec n q p : (0 < n)%nat -> pos1 n q -> pos1 n p ->
  kl_dirichlet exact (fvec n q) (fvec n p) = Fin (dkl n q p).
Proof.
  intros Hn Hq Hp. unfold kl_dirichlet. rewrite !xsum_fvec.
  rewrite !xgammalnE, xdigammaE by (apply pos_sum; assumption).
  assert (E : length (fvec n q) = n) by apply tab_length. rewrite E.
  assert (E1 : tab n (fun i => xsub exact (xgammaln exact (vget (fvec n q) i)) (xgammaln exact (vget (fvec n p) i)))
               = fvec n (fun i => lgam (q i) - lgam (p i))).
  { apply tab_ext. intros i Hi. rewrite !vget_fvec, !xgammalnE by auto. reflexivity. }
  assert (E2 : tab n (fun i => xmul exact (xsub exact (vget (fvec n q) i) (vget (fvec n p) i))
                                 (xsub exact (xdigamma exact (vget (fvec n q) i)) (Fin (psi (sumn n q)))))
               = fvec n (fun i => (q i - p i) * (psi (q i) - psi (sumn n q)))).
  { apply tab_ext. intros i Hi. rewrite !vget_fvec, !xdigammaE by auto. reflexivity. }
  rewrite E1, E2.
  rewrite !xsum_fvec. reflexivity.
Qed.

Lemma mrows_fmat f r c g h : (forall i, (i < r)%nat -> f (fvec c (g i)) = fvec c (h i)) ->
  mrows f (fmat r c g) = fmat r c h.
Proof.
  intros H. unfold mrows, fmat, mtab. cbn [ncol rows]. f_equal. rewrite tab_map. apply tab_ext. intros i Hi.
  apply (H i Hi).
Qed.

Lemma rows_nth_fmat r c f i : (i < r)%nat -> nth i (rows (fmat r c f)) [] = fvec c (f i).
Proof. intros H. unfold fmat, mtab. cbn [rows]. rewrite tab_nth by exact H. reflexivity. Qed.

Lemma minus_kl_fmat r n q p : (0 < n)%nat -> pos2 r n q -> pos2 r n p ->
  minus_kl exact r (fmat r n q) (fmat r n p) = Fin (- sumn r (fun i => dkl n (q i) (p i))).
Proof.
  intros Hn Hq Hp. unfold minus_kl.
  assert (H : forall k, (k <= r)%nat ->
    fold_left (fun a i => xsub exact a (kl_dirichlet exact (nth i (rows (fmat r n q)) []) (nth i (rows (fmat r n p)) [])))
      (seq 0 k) (Fin 0) = Fin (- sumn k (fun i => dkl n (q i) (p i)))).
  { induction k as [|k IH]; intros Hk.
    - simpl. f_equal. ring.
    - rewrite seq_S, fold_left_app, IH by lia. cbn [fold_left].
      rewrite !rows_nth_fmat, kl_dirichlet_fvec by (first [lia | intros j Hj; apply Hq; lia | intros j Hj; apply Hp; lia]).
      rewrite xsubE. f_equal. rewrite !Nat.add_0_l. simpl sumn. ring. }
  apply H. lia.
Qed.

(** ** The loop: the test for zero rows changes nothing but may raise. *)
Lemma vfit_loop_fit {O} fp (step : O -> res (O * xnum)) zr zr' fuel : forall o m o' m' ev,
  (forall o b, zr o = Ok b -> zr' o = b) ->
  vfit_loop fp step zr fuel o m = Ok (o', m', ev) -> fit_loop fp step zr' fuel o m = Ok (o', m', ev).
Proof.
  induction fuel as [|fuel IH]; intros o m o' m' ev Hz H; cbn [vfit_loop fit_loop] in *; [exact H|].
  destruct (step o) as [[o1 v]|]; [|discriminate]. cbn [bind] in *.
  destruct (monitor_report fp m v) as [m1 ev1]. destruct (converged fp m1); [exact H|].
  destruct (zr o1) as [z|] eqn:Ez; [|discriminate]. cbn [bind] in H.
  destruct (vfit_loop fp step zr fuel o1 m1) as [[[o2 m2] ev2]|] eqn:El; [|discriminate]. cbn [bind] in H.
  rewrite (IH _ _ _ _ _ Hz El). cbn [bind]. rewrite (Hz _ _ Ez). exact H.
Qed.
Lemma vfit_loop_ok {O} fp (step : O -> res (O * xnum)) zr (I : O -> Prop) fuel : 
  (forall o, I o -> exists o' v z, step o = Ok (o', v) /\ I o' /\ zr o' = Ok z) ->
  forall o m, I o -> exists r, vfit_loop fp step zr fuel o m = Ok r.
Proof.
  intros HI. induction fuel as [|fuel IH]; intros o m Ho; cbn [vfit_loop]; [eexists; reflexivity|].
  destruct (HI o Ho) as (o1 & v & z & -> & H1 & Hz). cbn [bind].
  destruct (monitor_report fp m v) as [m1 ev1]. destruct (converged fp m1); [eexists; reflexivity|].
  rewrite Hz. cbn [bind]. destruct (IH o1 m1 H1) as [[[o2 m2] ev2] ->]. cbn [bind]. eexists; reflexivity.
Qed.

Definition zrows (r : res bool) : bool := match r with Ok b => b | Err _ => false end.

Lemma sumn_prod_ln {X} (f : list X -> R) l : (forall c, In c l -> 0 < f c) ->
  xln (prodL f l) = Fin (sumL (fun c => ln (f c)) l).
Proof. intros H. rewrite xln_pos by (apply prodL_pos; exact H). f_equal. apply ln_prodL. exact H. Qed.

Lemma em_acc_sub {P X St} (V : vclass P X St) c nf p nc l : forall st,
  em_acc_all (sub_em V) c nf p nc st l = em_acc_all (vc_em V) c nf p nc st l.
Proof.
  induction l as [|[y g] l IH]; intros st; [reflexivity|]. cbn [em_acc_all].
  change (ec_acc (sub_em V)) with (ec_acc (vc_em V)). destruct (ec_acc (vc_em V) _ _ _ _ _ _ _); [apply IH|reflexivity].
Qed.

Section Step.
  Context {P X St : Type} (V : vclass P X St).
  Variables (nc : nat) (ok : X -> Prop) (ls : list nat) (x : list X).
  Hypothesis Hnc : (0 < nc)%nat.
  Hypothesis Hd : good_data ok ls x.
  Notation cs := (chunks ls x).

  Variables (v : vhmm P) (sp : nat -> R) (tp : nat -> nat -> R) (sq : nat -> R) (tq : nat -> nat -> R).
  Hypothesis HV : vbase_at nc v sp tp sq tq.
  Variables (p' : P) (b : X -> nat -> R).
  Notation c := (v_cfg v).
  Notation nfe := (h_nfeat (v_h v)).
  Hypothesis Hbeg : vc_begin V exact c nfe (h_em (v_h v)) = Ok p'.
  Notation pi := (sub1 nc sq).
  Notation A := (fun i => sub1 nc (tq i)).
  Notation h' := (Hmm c nfe (Some (fvec nc pi)) (Some (fmat nc nc A)) (h_mon (v_h v)) p').
  Hypothesis Hem : emits (sub_em V) h' nc ok b.
  Hypothesis Hb : forall o i, ok o -> (i < nc)%nat -> 0 < b o i.

  Lemma sub_start : map (xexp exact) (log_subnorm exact (fvec nc sq)) = fvec nc pi.
  Proof.
    rewrite log_subnorm_fvec by (assumption || apply HV). unfold fvec. rewrite tab_map. apply tab_ext.
    intros i Hi. cbn [xexp]. unfold exact. rewrite exp_ln by apply sub1_pos. reflexivity.
  Qed.
  Lemma sub_trans : mmap (xexp exact) (mrows (log_subnorm exact) (fmat nc nc tq)) = fmat nc nc A.
  Proof.
    rewrite (mrows_fmat _ nc nc tq (fun i j => ln (sub1 nc (tq i) j))).
    2:{ intros i Hi. apply log_subnorm_fvec; [exact Hnc|]. intros j Hj. apply HV; assumption. }
    unfold mmap, fmat, mtab. cbn [ncol rows]. f_equal. rewrite tab_map. apply tab_ext. intros i Hi.
    rewrite tab_map. apply tab_ext. intros j Hj. cbn [xexp]. unfold exact. rewrite exp_ln by apply sub1_pos. reflexivity.
  Qed.

  Lemma vtrainable : trainable (sub_em V) h' nc pi A ok b.
  Proof.
    constructor; try reflexivity; try assumption; [apply HV| |]; intros; intro; intros; apply Rlt_le, sub1_pos.
  Qed.

  Lemma vchunk c0 : In c0 cs -> c0 <> [] /\ Forall ok c0.
  Proof. intros H. destruct (good_data_chunks ok ls x Hd) as (_ & _ & Hch). rewrite Forall_forall in Hch. apply Hch, H. Qed.
  Lemma vlik_pos c0 : In c0 cs -> 0 < seq_lik nc pi A b c0.
  Proof.
    intros H. apply (lik_pos ok nc cs Hnc vchunk pi A b); try assumption; intro; intros; apply sub1_pos.
  Qed.

  Lemma vestep_spec : (forall c0, In c0 cs -> scorable nc pi A b (c_impl c) c0) ->
    vestep V exact x (as_lengths ls) v
    = do em <- em_acc_all (vc_em V) c nfe p' nc (ec_stats0 (vc_em V) exact c nfe p')
                 (map (fun c0 => (c0, seq_post nc pi A b c0)) cs);
      Ok (with_h v (set_em (v_h v) nfe p'),
          Stats (length cs)
            (fvec nc (fun i => if has "s" (c_params c) then sumL (fun c0 => seq_post nc pi A b c0 0 i) cs else 0))
            (fmat nc nc (fun i j => if has "t" (c_params c) then sumL (fun c0 => seq_trans nc pi A b c0 i j) cs else 0)) em,
          Fin (sumL (fun c0 => ln (seq_lik nc pi A b c0)) cs)).
  Proof.
    intros Hs. unfold vestep. rewrite (vb_sq _ _ _ _ _ _ HV), (vb_tq _ _ _ _ _ _ HV). cbn [attr bind].
    rewrite sub_start, sub_trans. cbv zeta. change (h_cfg (v_h v)) with (v_cfg v). rewrite Hbeg. cbn [bind].
    rewrite (do_estep_spec (sub_em V) h' nc pi A ok b vtrainable ls x Hd Hs).
    rewrite em_fold_all. cbn [h_cfg h_nfeat h_em].
    rewrite em_acc_sub.
    change (ec_stats0 (sub_em V)) with (ec_stats0 (vc_em V)).
    destruct (em_acc_all _ _ _ _ _ _ _) as [em|]; [|reflexivity]. cbn [bind].
    rewrite sumn_prod_ln by apply vlik_pos. reflexivity.
  Qed.

  Lemma vestep_scorable r : vestep V exact x (as_lengths ls) v = Ok r ->
    forall c0, In c0 cs -> scorable nc pi A b (c_impl c) c0.
  Proof.
    intros H c0 Hc0. unfold vestep in H. rewrite (vb_sq _ _ _ _ _ _ HV), (vb_tq _ _ _ _ _ _ HV) in H. cbn [attr bind] in H.
    rewrite sub_start, sub_trans in H. unfold v_cfg in Hbeg. rewrite Hbeg in H. cbn [bind] in H.
    destruct (do_estep _ _ _ _ _ _ _) as [[st lp]|] eqn:Ee; [|discriminate].
    unfold do_estep in Ee. cbn [h_cfg] in Ee. unfold v_cfg.
    destruct (String.eqb_spec (c_impl (h_cfg (v_h v))) "scaling") as [Hi|Hi]; cbn [orb] in Ee.
    - right. split; [exact Hi|].
      destruct (good_data_chunks ok ls x Hd) as (_ & Hsp & Hch). rewrite Hsp in Ee. cbn [bind] in Ee.
      apply (estep_loop_scaling (sub_em V) nc ok (fun _ => b) h' pi A cs vtrainable Hi vchunk _ _ _ Ee c0 Hc0).
    - destruct (String.eqb_spec (c_impl (h_cfg (v_h v))) "log") as [Hl|Hl]; [|discriminate].
      left. split; [exact Hl|]. apply vlik_pos, Hc0.
  Qed.

  (** The object after one iteration. *)
  Definition vnext (sq' : nat -> R) (tq' : nat -> nat -> R) (p2 : P) : vhmm P :=
    VHmm (Hmm c nfe (if has "s" (c_params c) then Some (fvec nc (mean1 nc sq')) else h_start (v_h v))
            (if has "t" (c_params c) then Some (fmat nc nc (fun i => mean1 nc (tq' i))) else h_trans (v_h v))
            (h_mon (v_h v)) p2)
      (v_sarg v) (v_targ v) (v_sprior v) (Some (fvec nc sq')) (v_tprior v) (Some (fmat nc nc tq')).
  Definition next_s : nat -> R :=
    if has "s" (c_params c) then fun i => sp i + sumL (fun c0 => seq_post nc pi A b c0 0 i) cs else sq.
  Definition next_t : nat -> nat -> R :=
    if has "t" (c_params c) then fun i j => tp i j + sumL (fun c0 => seq_trans nc pi A b c0 i j) cs else tq.

  Lemma next_s_pos : pos1 nc next_s.
  Proof.
    unfold next_s. destruct (has "s" _); [|apply HV]. intros i Hi.
    pose proof (vb_psp _ _ _ _ _ _ HV i Hi).
    assert (0 <= sumL (fun c0 => seq_post nc pi A b c0 0 i) cs); [|lra].
    apply sumL_nonneg. intros c0 Hc0.
    apply (vpost_stoch ok nc cs Hnc vchunk pi A b); try assumption; try (intro; intros; apply sub1_pos).
    destruct (vchunk c0 Hc0) as [Hne _]. destruct c0; [contradiction|simpl; lia].
  Qed.
  Lemma next_t_pos : pos2 nc nc next_t.
  Proof.
    unfold next_t. destruct (has "t" _); [|apply HV]. intros i j Hi Hj.
    pose proof (vb_ptp _ _ _ _ _ _ HV i j Hi Hj).
    assert (0 <= sumL (fun c0 => seq_trans nc pi A b c0 i j) cs); [|lra].
    apply sumL_nonneg. intros c0 Hc0.
    apply (vtrans_nonneg ok nc cs Hnc vchunk pi A b); try assumption; try (intro; intros; apply sub1_pos).
  Qed.

  Lemma vb_step_gen em p2 lb :
    (forall c0, In c0 cs -> scorable nc pi A b (c_impl c) c0) ->
    em_acc_all (vc_em V) c nfe p' nc (ec_stats0 (vc_em V) exact c nfe p')
       (map (fun c0 => (c0, seq_post nc pi A b c0)) cs) = Ok em ->
    ec_mstep (vc_em V) exact c nfe p' em = Ok p2 ->
    vc_bound V exact c nfe p'
      (Fin (sumL (fun c0 => ln (seq_lik nc pi A b c0)) cs - dkl nc sq sp - sumn nc (fun i => dkl nc (tq i) (tp i)))) = Ok lb ->
    vb_step V exact x (as_lengths ls) v = Ok (vnext next_s next_t p2, lb).
  Proof.
    intros Hs He Hm Hl. unfold vb_step. rewrite (vestep_spec Hs), He. cbn [bind].
    unfold vlower_bound, with_h, set_em, v_cfg in *. cbn [v_spost v_sprior v_tpost v_tprior v_h h_cfg h_nfeat h_em].
    rewrite (vb_sq _ _ _ _ _ _ HV), (vb_sp _ _ _ _ _ _ HV), (vb_tq _ _ _ _ _ _ HV), (vb_tp _ _ _ _ _ _ HV). cbn [attr bind].
    pose proof (vb_nc _ _ _ _ _ _ HV) as En. unfold v_cfg in En. rewrite En.
    rewrite kl_dirichlet_fvec, minus_kl_fmat by (assumption || apply HV).
    cbn [xopp]. rewrite !xaddE.
    replace (- dkl nc sq sp + - sumn nc (fun i => dkl nc (tq i) (tp i)) + sumL (fun c0 => ln (seq_lik nc pi A b c0)) cs)
      with (sumL (fun c0 => ln (seq_lik nc pi A b c0)) cs - dkl nc sq sp - sumn nc (fun i => dkl nc (tq i) (tp i))) by ring.
    rewrite Hl. cbn [bind]. unfold vmstep, v_cfg.
    cbn [v_spost v_sprior v_tpost v_tprior v_sarg v_targ v_h h_cfg h_nfeat h_em h_start h_trans h_mon st_start st_trans st_em].
    rewrite ?(vb_sp _ _ _ _ _ _ HV), ?(vb_tp _ _ _ _ _ _ HV), ?(vb_sq _ _ _ _ _ _ HV), ?(vb_tq _ _ _ _ _ _ HV). cbn [attr bind].
    pose proof next_s_pos as Ps. pose proof next_t_pos as Pt.
    unfold vnext, v_cfg. rewrite (vb_sp _ _ _ _ _ _ HV), (vb_tp _ _ _ _ _ _ HV).
    unfold next_s, next_t, v_cfg in *.
    destruct (has "s" (c_params (h_cfg (v_h v)))); destruct (has "t" (c_params (h_cfg (v_h v)))); cbn [bind];
      rewrite ?vadd_fvec, ?madd_fmat, ?mean_of_fvec by assumption;
      rewrite ?(mrows_fmat (mean_of exact) nc nc _ _ (fun i Hi => mean_of_fvec nc _ Hnc (fun j Hj => Pt i j Hi Hj)));
      rewrite Hm; reflexivity.
  Qed.

  Lemma vnext_base p2 : vbase_at nc (vnext next_s next_t p2) sp tp next_s next_t.
  Proof.
    destruct HV. constructor; try assumption; try reflexivity; [apply next_s_pos|apply next_t_pos].
  Qed.
End Step.
