(** * C23, C24 for the variational classes; C88 and C89 for
    VariationalCategoricalHMM. *)
From Verif Require Export Settle_thms Vcat_use.

Lemma vcheck_keeps {P X St} (V : vclass P X St) fp v v1 : vcheck V fp v = Ok v1 -> v_cfg v1 = v_cfg v /\ h_mon (v_h v1) = h_mon (v_h v).
Proof. intros Hc. unfold vcheck in Hc. apply bind_inv in Hc as ([] & _ & Hc). apply bind_inv in Hc as ([nf p] & _ & Hc). injection Hc as <-. auto. Qed.
Lemma vfit_from_loop {P X St} (V : vclass P X St) fp v x l v' ev : vfit_from V fp v x l = Ok (v', ev) ->
  exists v1 v2 m, vcheck V fp v = Ok v1
    /\ vfit_loop fp (vb_step V fp x (Some l)) (vzero_rows fp) (c_n_iter (v_cfg v1)) v1 (monitor_reset (h_mon (v_h v1))) = Ok (v2, m, ev)
    /\ v' = with_h v2 (Hmm (h_cfg (v_h v2)) (h_nfeat (v_h v2)) (h_start (v_h v2)) (h_trans (v_h v2)) m (h_em (v_h v2))).
Proof.
  intros H. unfold vfit_from in H. apply bind_inv in H as (v1 & Hc & H). apply bind_inv in H as ([[v2 m] ev2] & Hl & H). injection H as <- <-.
  exists v1, v2, m. auto.
Qed.
Lemma vloop_fit {P X St} (V : vclass P X St) fp x l n v m r :
  vfit_loop fp (vb_step V fp x l) (vzero_rows fp) n v m = Ok r -> fit_loop fp (vb_step V fp x l) (fun o => zrows (vzero_rows fp o)) n v m = Ok r.
Proof. destruct r as [[v2 m2] ev]. apply vfit_loop_fit. intros a b E. rewrite E. reflexivity. Qed.

(** When training stops, what is recorded and what the iterations are. *)
Lemma C23_variational_l {P X St} (V : vclass P X St) fp v x l v' ev :
  m_n_iter (h_mon (v_h v)) = c_n_iter (v_cfg v) -> m_tol (h_mon (v_h v)) = c_tol (v_cfg v) ->
  vfit_from V fp v x l = Ok (v', ev) ->
  let k := length (v_history v') in
  let hist := v_history v' in
  m_iter (h_mon (v_h v')) = k /\ (k <= c_n_iter (v_cfg v))%nat
  /\ (k = 0%nat <-> c_n_iter (v_cfg v) = 0%nat)
  /\ stops fp (c_tol (v_cfg v)) (c_n_iter (v_cfg v)) hist
  /\ (forall j, (0 < j < k)%nat -> ~ stops fp (c_tol (v_cfg v)) (c_n_iter (v_cfg v)) (firstn j hist))
  /\ exists v1 v2, vcheck V fp v = Ok v1 /\ iterate (vb_step V fp x (Some l)) k v1 = Ok (v2, hist)
       /\ h_start (v_h v') = h_start (v_h v2) /\ h_trans (v_h v') = h_trans (v_h v2) /\ h_em (v_h v') = h_em (v_h v2)
       /\ v_spost v' = v_spost v2 /\ v_tpost v' = v_tpost v2.
Proof.
  intros Hmn Hmt Hf. destruct (vfit_from_loop V fp v x l v' ev Hf) as (v1 & v2 & m & Hc & Hl & ->).
  destruct (vcheck_keeps V fp v v1 Hc) as (C1 & C4). rewrite C1 in Hl. apply vloop_fit in Hl.
  destruct (fit_loop_trace _ _ _ _ _ _ _ _ _ Hl) as (vs & Hi & Hm & Hle & Hlen & Hleast).
  assert (Hhist : v_history (with_h v2 (Hmm (h_cfg (v_h v2)) (h_nfeat (v_h v2)) (h_start (v_h v2)) (h_trans (v_h v2)) m (h_em (v_h v2)))) = vs) by (rewrite Hm; reflexivity).
  cbv zeta. rewrite Hhist.
  assert (Hst : forall w, converged fp (mon_after (monitor_reset (h_mon (v_h v1))) w) = true <-> stops fp (c_tol (v_cfg v)) (c_n_iter (v_cfg v)) w).
  { intros w. rewrite converged_stops by reflexivity.
    cbn [mon_after monitor_reset m_tol m_n_iter m_history app]. rewrite C4, Hmn, Hmt. reflexivity. }
  split; [cbn [with_h v_h h_mon]; rewrite Hm; reflexivity|]. split; [exact Hle|]. split; [|split; [|split]].
  - split; [|lia]. intros H0. destruct Hlen as [Hlen|[_ Hlen]]; [lia|]. destruct vs; [contradiction|discriminate].
  - destruct Hlen as [Hlen|[Hlen _]]; [left; exact Hlen|]. apply Hst. rewrite <- Hm. exact Hlen.
  - intros j Hj Hs. apply Hst in Hs. rewrite (Hleast j Hj) in Hs. discriminate.
  - exists v1, v2. repeat split; assumption.
Qed.

Lemma C24_variational_l {P X St} (V : vclass P X St) fp v x l v' ev :
  vfit_from V fp v x l = Ok (v', ev) -> (In WNotConverging ev <-> drops fp (v_history v')).
Proof.
  intros Hf. destruct (vfit_from_loop V fp v x l v' ev Hf) as (v1 & v2 & m & Hc & Hl & ->). apply vloop_fit in Hl.
  pose proof (fit_loop_warns _ _ _ _ _ _ _ _ _ Hl) as Hw. unfold v_history. cbn [with_h v_h h_mon]. rewrite <- Hw. cbn [monitor_reset m_history].
  split; [auto|]. intros [H|(w & a & z & r & H & _)]; [exact H|]. destruct w; discriminate.
Qed.

(** ** The lower bound never exceeds 0. *)
Lemma elbo_bound nc nf p q ls x : (0 < nc)%nat -> (0 < nf)%nat -> good_data (sym_ok nf) ls x -> dpos nc nf p -> dpos nc nf q ->
  elbo nc nf p (chunks ls x) q <= 0.
Proof.
  intros Hnc Hnf Hd (P1 & P2 & P3) (Q1 & Q2 & Q3). unfold elbo.
  pose proof (dkl_nonneg nc (d_s q) (d_s p) Hnc Q1 P1) as K1.
  assert (K2 : 0 <= sumn nc (fun i => dkl nc (d_t q i) (d_t p i))) by (apply sumn_nonneg; intros i Hi; apply dkl_nonneg; auto; intros j Hj; auto).
  assert (K3 : 0 <= sumn nc (fun i => dkl nf (d_e q i) (d_e p i))) by (apply sumn_nonneg; intros i Hi; apply dkl_nonneg; auto; intros j Hj; auto).
  assert (Pm : possible nc (w_s nc q) (w_t nc q) (w_e nf q) ls x).
  { intros c Hc. destruct (good_data_chunks (sym_ok nf) ls x Hd) as (_ & _ & Hch).
    apply (vlik_pos nc (sym_ok nf) ls x Hnc Hd); try assumption; intros; apply sub1_pos. }
  assert (B : data_loglik nc (w_s nc q) (w_t nc q) (w_e nf q) ls x <= INR (length x) * ln 1).
  { apply (data_loglik_bound nc (w_s nc q) (w_t nc q) (w_e nf q) 1 (sym_ok nf)); try assumption; try lra.
    - intros o i Ho Hi. split; [left; apply sub1_pos|]. unfold w_e, cat_b, sym_ok in *.
      apply Rle_trans with (sumn nf (sub1 nf (d_e q i))); [|apply sub1_sum; [exact Hnf|intros k Hk; apply Q3; assumption]].
      apply (sumn_ge_term nf (sub1 nf (d_e q i))); [intros k Hk; left; apply sub1_pos|lia].
    - intros i Hi. left. apply sub1_pos.
    - apply sub1_sum; assumption.
    - intros i j Hi Hj. left. apply sub1_pos.
    - intros i Hi. apply sub1_sum; [exact Hnc|]. intros j Hj. apply Q2; assumption. }
  rewrite ln_1, Rmult_0_r in B. unfold data_loglik in B. lra.
Qed.

Lemma C88_vcategorical_l v nc nf p q ls x v' ev tol :
  vcat_model v nc nf p q -> good_data (sym_ok nf) ls x -> tolerant (v_h v) tol ->
  vfit_from vcategorical exact v x (map Z.of_nat ls) = Ok (v', ev) ->
  stopped_by_tol (c_n_iter (v_cfg v)) (v_history v') (elbo nc nf p (chunks ls x) q) tol 0.
Proof.
  intros VM Hd (Mn & Mt & Ht & Htl & Hn) Hf.
  pose proof (C23_variational_l vcategorical exact v x _ v' ev Mn ltac:(rewrite Mt, <- Ht; reflexivity) Hf) as C23. cbv zeta in C23.
  destruct C23 as (_ & Hle & H0 & Hst & Hns & _). fold (v_cfg v) in Ht, Hn. rewrite Ht in Hst, Hns.
  destruct (C50_bound_value_l v nc nf p q ls x v' ev VM Hd Hf) as (qs & Q0 & QS & Hv).
  assert (Dp : dpos nc nf p) by (destruct VM as [? ? [] ? ? ? ? ?]; repeat split; assumption).
  assert (Dq : dpos nc nf q) by (destruct VM as [? ? [] ? ? ? ? ?]; repeat split; assumption).
  assert (Dj : forall j, dpos nc nf (qs j)).
  { induction j as [|j IH]; [rewrite Q0; exact Dq|]. rewrite QS. apply (C46_update_l nc nf _ p (qs j) ls x (vm_nc _ _ _ _ _ VM) (vm_nf _ _ _ _ _ VM) Hd Dp IH). }
  set (k := length (v_history v')) in *. set (vs := map (fun j => elbo nc nf p (chunks ls x) (qs j)) (seq 0 k)).
  assert (Lv : length vs = k) by (unfold vs; rewrite map_length, seq_length; reflexivity).
  assert (Nv : forall j, (j < k)%nat -> nth j vs 0 = elbo nc nf p (chunks ls x) (qs j)).
  { intros j Hj. unfold vs. rewrite (nth_indep _ 0 (elbo nc nf p (chunks ls x) (qs 0%nat))) by (fold vs; lia).
    rewrite (map_nth (fun j => elbo nc nf p (chunks ls x) (qs j))), seq_nth by exact Hj. reflexivity. }
  assert (Ev : v_history v' = map Fin vs).
  { apply (nth_ext _ _ NaN NaN); [rewrite map_length, Lv; reflexivity|]. intros j Hj. fold k in Hj. rewrite Hv by exact Hj.
    rewrite (nth_indep _ NaN (Fin 0)) by (rewrite map_length, Lv; exact Hj). rewrite map_nth, Nv by exact Hj. reflexivity. }
  assert (Hk : (0 < k)%nat) by (destruct k; [specialize (proj1 H0 eq_refl); lia|lia]).
  rewrite <- Q0, <- Nv by exact Hk. rewrite Ev in Hst, Hns |- *. apply tol_history; try assumption; try lia.
  - rewrite Lv. exact Hns.
  - intros j Hj. rewrite Lv in Hj. rewrite Nv by exact Hj. apply elbo_bound; [apply VM|apply VM|exact Hd|exact Dp|apply Dj].
Qed.

Definition v_at_most {P} (n : nat) (v : vhmm P) : vhmm P := with_h v (at_most n (v_h v)).
Section VFrom.
  Context {P X St : Type} (V : vclass P X St) (fp : fpmode).
  Hypothesis B1 : forall n, vblind V fp (cfg_n_iter n).
  Lemma vfrom_at_most n v x l : vfit_from V fp (v_at_most n v) x l =
    do v1 <- vcheck V fp v;
    do (v2, m, ev) <- vfit_loop fp (vb_step V fp x (Some l)) (vzero_rows fp) n v1 (lim n (monitor_reset (h_mon (v_h v1))));
    Ok (re_cfg (cfg_n_iter n) m v2, ev).
  Proof.
    change (v_at_most n v) with (re_cfg (cfg_n_iter n) (lim n (h_mon (v_h v))) v). unfold vfit_from.
    destruct (B1 n) as (F1 & F2 & F3 & N1 & N2 & N3 & N4 & N5 & N6 & N7).
    rewrite (re_check _ _ _ F1 N1), !bind_assoc. destruct (vcheck V fp v) as [v1|] eqn:Hc; [|reflexivity]. cbn [bind].
    destruct (vcheck_keeps V fp v v1 Hc) as (_ & Hm). rewrite Hm. change (c_n_iter (v_cfg (re_cfg (cfg_n_iter n) _ v1))) with n.
    rewrite (re_loop _ _ _ F1 F2 F3 N2 N3 N4 N5 N6 N7), !bind_assoc.
    change (monitor_reset (h_mon (v_h (re_cfg (cfg_n_iter n) (lim n (h_mon (v_h v))) v1)))) with (lim n (monitor_reset (h_mon (v_h v)))).
    apply bind_ext. intros [[v2 m] ev2]. reflexivity.
  Qed.
  Lemma vfrom_limit n n' v x l v' ev : vfit_from V fp (v_at_most n v) x l = Ok (v', ev) ->
    (length (v_history v') < n)%nat -> (length (v_history v') <= n')%nat ->
    vfit_from V fp (v_at_most n' v) x l = Ok (v_at_most n' v', ev).
  Proof.
    intros H Hlt Hle. rewrite vfrom_at_most in H |- *. apply bind_inv in H as (v1 & Hc & H). rewrite Hc. cbn [bind].
    apply bind_inv in H as ([[v2 m] ev2] & Hl & H). injection H as <- <-.
    pose proof (vloop_count _ _ _ _ _ _ _ _ _ Hl eq_refl) as Hm.
    unfold v_history in Hlt, Hle. cbn [re_cfg v_h h_mon] in Hlt, Hle. rewrite <- Hm in Hlt, Hle.
    pose proof (vloop_limit fp _ (vzero_rows fp) n n n' v1 (monitor_reset (h_mon (v_h v1))) v2 m ev2 eq_refl Hle Hlt Hl) as H'.
    cbn [monitor_reset m_iter] in H'. rewrite Nat.sub_0_r in H'. fold (monitor_reset (h_mon (v_h v1))) in H'. rewrite H'. reflexivity.
  Qed.
End VFrom.
Definition v_settles {P X St} (V : vclass P X St) (v : vhmm P) (x : list X) (ls : list nat) (tol : R) : Prop :=
  exists v' ev, (exists r a z, v_history v' = r ++ [Fin a; Fin z] /\ z - a < tol)
  /\ forall n, (length (v_history v') <= n)%nat ->
       vfit_from V exact (v_at_most n v) x (map Z.of_nat ls) = Ok (v_at_most n v', ev).
Lemma C89_vcategorical_settles_l v nc nf p q ls x tol :
  vcat_model v nc nf p q -> good_data (sym_ok nf) ls x -> c_impl (v_cfg v) = "log"%string ->
  (has "t" (c_params (v_cfg v)) = true \/ h_trans (v_h v) <> None) ->
  c_tol (v_cfg v) = Fin tol -> m_tol (h_mon (v_h v)) = Fin tol -> 0 < tol ->
  v_settles vcategorical v x ls tol.
Proof.
  intros VM Hd Himp Ht T1 T2 T3.
  assert (VMn : forall n, vcat_model (v_at_most n v) nc nf p q) by (intros n; destruct VM as [? ? [] ? ? ? ? ?]; constructor; [..|constructor| | | | |]; assumption).
  set (B := 2 + (0 - elbo nc nf p (chunks ls x) q) / tol). destruct (nat_above B) as [N HN].
  assert (HS : forall n, exists v' ev, vfit_from vcategorical exact (v_at_most n v) x (map Z.of_nat ls) = Ok (v', ev)
     /\ ((0 < n)%nat -> stopped_by_tol n (v_history v') (elbo nc nf p (chunks ls x) q) tol 0)).
  { intros n. destruct (C46_fit_returns_l (v_at_most n v) nc nf p q ls x (VMn n) Hd Himp Ht) as [[v' ev] F].
    exists v', ev. split; [exact F|]. intros Hn. exact (C88_vcategorical_l (v_at_most n v) nc nf p q ls x v' ev tol (VMn n) Hd (at_most_tol n (v_h v) tol Hn T1 T2 T3) F). }
  assert (N0 : (0 < N)%nat).
  { destruct N; [|lia]. exfalso. destruct (HS 1%nat) as (v' & ev & _ & S). destruct (S ltac:(lia)) as [T _]. fold B in T.
    pose proof (pos_INR (length (v_history v'))). simpl in HN. lra. }
  destruct (HS N) as (v' & ev & F & S). destruct (S N0) as [S1 S2]. fold B in S1, S2. exists v', ev. split; [apply S2; exact HN|].
  intros n Hn. apply (vfrom_limit vcategorical exact ltac:(intros k; repeat split) N n v x _ v' ev F); [|exact Hn]. apply INR_lt. lra.
Qed.
