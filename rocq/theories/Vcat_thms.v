(** * Property lemmas C46, C47, C50, C60, C61, C63: VariationalCategoricalHMM. *)
From Verif Require Export Vcat_proofs.

(** ** Training runs. *)
Lemma vfit_from_trace {P X St} (V : vclass P X St) fp v x l v' ev :
  vfit_from V fp v x l = Ok (v', ev) ->
  exists v1 v2 vs, vcheck V fp v = Ok v1
    /\ iterate (vb_step V fp x (Some l)) (length vs) v1 = Ok (v2, vs)
    /\ (length vs <= c_n_iter (v_cfg v1))%nat
    /\ v' = with_h v2 (Hmm (h_cfg (v_h v2)) (h_nfeat (v_h v2)) (h_start (v_h v2)) (h_trans (v_h v2))
                         (mon_after (monitor_reset (h_mon (v_h v1))) vs) (h_em (v_h v2)))
    /\ v_history v' = vs
    /\ (In WNotConverging ev -> drops fp vs)
    /\ (length vs = c_n_iter (v_cfg v1)
        \/ converged fp (mon_after (monitor_reset (h_mon (v_h v1))) vs) = true /\ vs <> []).
Proof.
  intros H. unfold vfit_from in H. destruct (vcheck V fp v) as [v1|]; [|discriminate]. cbn [bind] in H.
  destruct (vfit_loop _ _ _ _ _ _) as [[[v2 m] ev2]|] eqn:El; [|discriminate]. cbn [bind] in H.
  injection H as <- <-.
  assert (Hz : forall o b, vzero_rows fp o = Ok b -> zrows (vzero_rows (P:=P) fp o) = b) by (intros o b E; rewrite E; reflexivity).
  pose proof (vfit_loop_fit fp _ _ (fun o => zrows (vzero_rows fp o)) _ _ _ _ _ _ Hz El) as Ef.
  destruct (fit_loop_trace _ _ _ _ _ _ _ _ _ Ef) as (vs & H1 & H2 & H3 & H4 & _).
  pose proof (fit_loop_warns _ _ _ _ _ _ _ _ _ Ef) as Hw. subst m.
  exists v1, v2, vs. split; [reflexivity|]. split; [exact H1|]. split; [exact H3|]. split; [reflexivity|].
  split; [reflexivity|]. split; [|exact H4].
  intros Hi. apply Hw. left. exact Hi.
Qed.

Lemma vcat_check_at nc nf v p q : vcat_model v nc nf p q ->
  exists v1, vcheck vcategorical exact v = Ok v1 /\ vcat_at nc nf v1 p q
    /\ v1 = with_h v (Hmm (h_cfg (v_h v)) (Some nf) (h_start (v_h v)) (h_trans (v_h v)) (h_mon (v_h v)) (h_em (v_h v))).
Proof.
  intros [M1 M2 M3 M4 M5 M6 M7 M8]. unfold vcheck, vbase_check. cbn [vc_super_check vcategorical].
  rewrite (vb_sp _ _ _ _ _ _ M3), (vb_tp _ _ _ _ _ _ M3), (vb_sq _ _ _ _ _ _ M3), (vb_tq _ _ _ _ _ _ M3).
  cbn [attr bind]. rewrite (vb_nc _ _ _ _ _ _ M3).
  unfold fvec at 1 2. rewrite !tab_length, !nrow_fmat, !ncol_fmat, !Nat.eqb_refl. cbn [negb andb bind].
  cbn [vc_em vcategorical ec_check]. unfold vcat_check. rewrite M5, M6. cbn [attr bind].
  rewrite !nrow_fmat, !ncol_fmat, !Nat.eqb_refl. cbn [negb andb].
  rewrite (vb_nc _ _ _ _ _ _ M3), Nat.eqb_refl.
  assert (E : match h_nfeat (v_h v) with None => nf | Some n => n end = nf) by (destruct M4 as [->| ->]; reflexivity).
  rewrite E, Nat.eqb_refl. cbn [negb andb bind]. eexists. split; [reflexivity|]. split; [|reflexivity].
  destruct M3. constructor; try assumption; try reflexivity. constructor; assumption.
Qed.

Lemma mean_stochastic n q : (0 < n)%nat -> pos1 n q -> stochastic1 n (mean1 n q).
Proof.
  intros Hn H. pose proof (pos_sum n q Hn H) as Hs. split.
  - intros i Hi. unfold mean1. apply Rlt_le, Rdiv_lt_0_compat; [apply H; exact Hi|exact Hs].
  - unfold mean1. rewrite sumn_div. field. lra.
Qed.

Definition keeps_or {A} (b : bool) (K : nat) (new old : option A) : option A :=
  match K with O => old | _ => if b then new else old end.

Lemma C46_fit_l v nc nf p q ls x v' ev :
  vcat_model v nc nf p q -> good_data (sym_ok nf) ls x ->
  vfit_from vcategorical exact v x (map Z.of_nat ls) = Ok (v', ev) ->
  let params := c_params (v_cfg v) in
  let K := length (v_history v') in
  exists qs : nat -> dirs,
    qs 0%nat = q
    /\ (forall j, qs (S j) = vb_next nc nf params p (chunks ls x) (qs j))
    /\ (forall j, dpos nc nf (qs j))
    /\ (K <= c_n_iter (v_cfg v))%nat
    /\ vcat_model v' nc nf p (qs K) /\ h_nfeat (v_h v') = Some nf
    /\ h_start (v_h v') = keeps_or (has "s" params) K (Some (fvec nc (mean1 nc (d_s (qs K))))) (h_start (v_h v))
    /\ h_trans (v_h v') = keeps_or (has "t" params) K (Some (fmat nc nc (fun i => mean1 nc (d_t (qs K) i)))) (h_trans (v_h v))
    /\ vk_prob (h_em (v_h v')) = keeps_or (has "e" params) K (Some (fmat nc nf (fun i => mean1 nf (d_e (qs K) i)))) (vk_prob (h_em (v_h v))).
Proof.
  intros HM Hd Hf params K. pose proof HM as [M1 M2 M3 M4 M5 M6 M7 M8].
  destruct (vfit_from_trace _ _ _ _ _ _ _ Hf) as (v1 & v2 & vs & Hc & Hi & Hk & -> & Hh & _ & _).
  destruct (vcat_check_at nc nf v p q HM) as (v1' & Hc' & HA & E1). rewrite Hc in Hc'. injection Hc' as <-.
  assert (Ec : v_cfg v1 = v_cfg v) by (rewrite E1; reflexivity).
  destruct (vcat_iterate nc nf M1 M2 ls x Hd (length vs) v1 p q v2 vs HA Hi) as (I1 & I2 & I3 & I4 & I5 & I6 & I7 & I8 & I9 & I10).
  rewrite Ec in Hk, I1, I7, I8, I9, I10. fold params in I1, I7, I8, I9, I10. unfold K. rewrite Hh.
  exists (traj nc nf ls x params p q).
  assert (Hp : forall j, dpos nc nf (traj nc nf ls x params p q j)).
  { induction j as [|j IH]; [split; [apply M3|split; [apply M3|exact M8]]|].
    apply (vb_next_pos nc nf (chunks ls x) M1 M2 (vcat_cs nf ls x Hd) params p); [|exact IH].
    split; [apply M3|split; [apply M3|exact M7]]. }
  split; [reflexivity|]. split; [reflexivity|]. split; [exact Hp|]. split; [exact Hk|]. split.
  { destruct I1 as [[? ? ? ? ? ? ? ? ?] ? ? ? ? ?]. constructor; try assumption; [constructor; assumption|right; assumption]. }
  split; [apply I1|].
  cbn [with_h v_h h_start h_trans h_em]. rewrite I8, I9, I10. rewrite E1. cbn [with_h v_h h_start h_trans h_em].
  unfold keeps_or. auto.
Qed.

(** What an update does, in observable terms. *)
Lemma C46_update_l nc nf params p q ls x : (0 < nc)%nat -> (0 < nf)%nat -> good_data (sym_ok nf) ls x ->
  dpos nc nf p -> dpos nc nf q ->
  let cs := chunks ls x in
  let q' := vb_next nc nf params p cs q in
  dpos nc nf q'
  /\ stochastic1 nc (mean1 nc (d_s q')) /\ stochastic2 nc nc (fun i => mean1 nc (d_t q' i))
  /\ stochastic2 nc nf (fun i => mean1 nf (d_e q' i))
  /\ (has "s" params = true -> sumn nc (d_s q') = sumn nc (d_s p) + INR (length ls))
  /\ (has "t" params = true -> sumn nc (fun i => sumn nc (d_t q' i)) = sumn nc (fun i => sumn nc (d_t p i)) + INR (length x - length ls))
  /\ (has "e" params = true -> sumn nc (fun i => sumn nf (d_e q' i)) = sumn nc (fun i => sumn nf (d_e p i)) + INR (length x)).
Proof.
  intros Hnc Hnf Hd Hp Hq cs q'.
  pose proof (vcat_cs nf ls x Hd) as Hcs. fold cs in Hcs.
  pose proof (vb_next_pos nc nf cs Hnc Hnf Hcs params p Hp q Hq) as HP. fold q' in HP.
  destruct HP as (P1 & P2 & P3).
  assert (Hlen : length cs = length ls).
  { unfold cs. clear. revert x. induction ls as [|n l IH]; intros x; [reflexivity|]. simpl. rewrite IH. reflexivity. }
  assert (Hx : sumL (fun c => INR (length c)) cs = INR (length x)).
  { destruct Hd as [_ (_ & _ & Hs)]. rewrite <- (chunks_concat ls x Hs) at 1. fold cs. clear.
    induction cs as [|c l IH]; [reflexivity|]. simpl. rewrite app_length, plus_INR, IH. reflexivity. }
  assert (Hx' : sumL (fun c => INR (length c - 1)) cs = INR (length x) - INR (length cs)).
  { rewrite <- Hx. clear - Hcs. induction cs as [|c l IH]; [simpl; ring|]. cbn [sumL length]. rewrite S_INR.
    rewrite IH by (intros d Hd; apply Hcs; right; exact Hd).
    destruct (Hcs c (or_introl eq_refl)) as [Hne _]. destruct c; [contradiction|].
    cbn [length]. rewrite Nat.sub_succ, Nat.sub_0_r, S_INR. ring. }
  assert (Hle : (length ls <= length x)%nat).
  { apply INR_le. rewrite <- Hlen. assert (H : 0 <= sumL (fun c => INR (length c - 1)) cs) by (apply sumL_nonneg; intros; apply pos_INR). lra. }
  split; [split; [exact P1|split; [exact P2|exact P3]]|].
  split; [apply mean_stochastic; assumption|].
  split; [intros i Hi; apply mean_stochastic; [assumption|intros j Hj; apply P2; assumption]|].
  split; [intros i Hi; apply mean_stochastic; [assumption|intros j Hj; apply P3; assumption]|].
  unfold q', vb_next. cbn [d_s d_t d_e]. split; [|split]; intros ->.
  - rewrite sumn_plus, (n_start_sum nc nf cs Hnc Hcs), Hlen. reflexivity.
  - rewrite minus_INR by exact Hle. rewrite <- Hlen, <- Hx', <- (n_move_sum nc nf cs Hnc Hcs q), <- sumn_plus.
    apply sumn_ext. intros i Hi. apply sumn_plus.
  - rewrite <- Hx, <- (n_emit_sum nc nf cs Hnc Hcs q), <- sumn_plus.
    apply sumn_ext. intros i Hi. apply sumn_plus.
Qed.

(** Training in log space succeeds. *)
Lemma C46_fit_returns_l v nc nf p q ls x :
  vcat_model v nc nf p q -> good_data (sym_ok nf) ls x -> c_impl (v_cfg v) = "log"%string ->
  (has "t" (c_params (v_cfg v)) = true \/ h_trans (v_h v) <> None) ->
  exists r, vfit_from vcategorical exact v x (map Z.of_nat ls) = Ok r.
Proof.
  intros HM Hd Hi Ht. pose proof HM as [M1 M2 M3 M4 M5 M6 M7 M8].
  destruct (vcat_check_at nc nf v p q HM) as (v1 & Hc & HA & E1). unfold vfit_from. rewrite Hc. cbn [bind].
  assert (Ec : v_cfg v1 = v_cfg v) by (rewrite E1; reflexivity).
  destruct (vfit_loop_ok exact (vb_step vcategorical exact x (Some (map Z.of_nat ls))) (vzero_rows exact)
             (fun v => c_impl (v_cfg v) = "log"%string /\ (has "t" (c_params (v_cfg v)) = true \/ h_trans (v_h v) <> None)
                       /\ exists q, vcat_at nc nf v p q)
             (c_n_iter (v_cfg v1))) with (o := v1) (m := monitor_reset (h_mon (v_h v1))) as [[[v2 m] ev] El].
  - intros u (U1 & U2 & q1 & U3). exists (vcat_next nc nf ls x u p q1), (Fin (elbo nc nf p (chunks ls x) q1)).
    assert (Hz : exists z, vzero_rows exact (vcat_next nc nf ls x u p q1) = Ok z).
    { unfold vzero_rows, vcat_next, vnext. cbn [v_h h_trans].
      destruct (has "t" (c_params (v_cfg u))); [eexists; reflexivity|].
      destruct U2 as [U2|U2]; [discriminate|]. destruct (h_trans (v_h u)); [eexists; reflexivity|contradiction]. }
    destruct Hz as [z Hz]. exists z. split; [|split; [|exact Hz]].
    + apply (vcat_step_log nc nf M1 M2 ls x Hd u p q1 U3 U1).
    + split; [exact U1|]. split; [|eexists; apply (vcat_next_at nc nf M1 M2 ls x Hd u p q1 U3)].
      unfold vcat_next, vnext. cbn [v_h h_trans v_cfg h_cfg]. unfold v_cfg. cbn [v_h h_cfg].
      destruct U2 as [U2|U2]; [left; exact U2|right].
      destruct (has "t" (c_params (h_cfg (v_h u)))); [discriminate|exact U2].
  - rewrite Ec. split; [exact Hi|]. split; [|exists q; exact HA]. rewrite E1. exact Ht.
  - rewrite El. cbn [bind]. eexists. reflexivity.
Qed.

(** ** C50: the lower bound. *)
Lemma C50_lower_bound_l v nc nf p q ls x v' ev :
  vcat_model v nc nf p q -> good_data (sym_ok nf) ls x ->
  vfit_from vcategorical exact v x (map Z.of_nat ls) = Ok (v', ev) ->
  (exists vs : list R, v_history v' = map Fin vs
     /\ forall i j, (i <= j)%nat -> (j < length vs)%nat -> nth i vs 0 <= nth j vs 0)
  /\ ~ In WNotConverging ev.
Proof.
  intros HM Hd Hf. pose proof HM as [M1 M2 M3 M4 M5 M6 M7 M8].
  destruct (vfit_from_trace _ _ _ _ _ _ _ Hf) as (v1 & v2 & us & Hc & Hi & _ & _ & Hh & Hw & _).
  destruct (vcat_check_at nc nf v p q HM) as (v1' & Hc' & HA & E1). rewrite Hc in Hc'. injection Hc' as <-.
  destruct (vcat_iterate nc nf M1 M2 ls x Hd (length us) v1 p q v2 us HA Hi) as (I1 & _ & _ & _ & _ & _ & I7 & _).
  set (tr := traj nc nf ls x (c_params (v_cfg v1)) p q) in *.
  set (L := fun j => elbo nc nf p (chunks ls x) (tr j)).
  assert (Hpp : dpos nc nf p) by (split; [apply M3|split; [apply M3|exact M7]]).
  assert (Hp : forall j, dpos nc nf (tr j)).
  { induction j as [|j IH]; [split; [apply M3|split; [apply M3|exact M8]]|].
    apply (vb_next_pos nc nf (chunks ls x) M1 M2 (vcat_cs nf ls x Hd) (c_params (v_cfg v1)) p Hpp _ IH). }
  assert (HL : forall j, L j <= L (S j)).
  { intros j. apply (vb_improve nc nf (chunks ls x) M1 M2 (vcat_cs nf ls x Hd) (c_params (v_cfg v1)) p Hpp _ (Hp j)). }
  assert (Hv : us = map Fin (map L (seq 0 (length us)))).
  { apply (nth_ext _ _ NaN NaN); [rewrite !map_length, seq_length; reflexivity|].
    intros j Hj. rewrite I7 by exact Hj.
    rewrite map_map. rewrite (nth_indep _ NaN (Fin (L 0%nat))) by (rewrite map_length, seq_length; exact Hj).
    rewrite (map_nth (fun j => Fin (L j))), seq_nth by exact Hj. reflexivity. }
  assert (Hn : forall j, (j < length us)%nat -> nth j (map L (seq 0 (length us))) 0 = L j).
  { intros j Hj. rewrite (nth_indep _ 0 (L 0%nat)) by (rewrite map_length, seq_length; exact Hj).
    rewrite map_nth, seq_nth by exact Hj. reflexivity. }
  split.
  - exists (map L (seq 0 (length us))). rewrite Hh. split; [exact Hv|]. rewrite map_length, seq_length.
    intros i j Hij Hj. rewrite !Hn by lia. apply (nondec_chain L (S j) (fun j _ => HL j) i j Hij). lia.
  - intros Hin. destruct (Hw Hin) as (l & a & z & r & El & Hlt).
    assert (Hlen : (S (length l) < length us)%nat) by (rewrite El, app_length; simpl; lia).
    assert (Ha : a = Fin (L (length l))).
    { transitivity (nth (length l) us NaN); [rewrite El, nth_middle; reflexivity|]. apply I7. lia. }
    assert (Hzz : z = Fin (L (S (length l)))).
    { transitivity (nth (S (length l)) us NaN).
      - rewrite El. change (l ++ a :: z :: r) with (l ++ [a] ++ z :: r). rewrite app_assoc.
        replace (S (length l)) with (length (l ++ [a])) by (rewrite app_length; simpl; lia).
        rewrite nth_middle. reflexivity.
      - apply I7. exact Hlen. }
    subst a z. unfold xlt in Hlt. cbn [xsub xopp xadd exact xltb] in Hlt. unfold exact in Hlt. cbn [xltb] in Hlt.
    apply Rltb_true in Hlt. specialize (HL (length l)).
    assert (0 < / 2 ^ 26) by (apply Rinv_0_lt_compat, pow_lt; lra). lra.
Qed.

(** What the recorded values are. *)
Lemma C50_bound_value_l v nc nf p q ls x v' ev :
  vcat_model v nc nf p q -> good_data (sym_ok nf) ls x ->
  vfit_from vcategorical exact v x (map Z.of_nat ls) = Ok (v', ev) ->
  exists qs : nat -> dirs,
    qs 0%nat = q /\ (forall j, qs (S j) = vb_next nc nf (c_params (v_cfg v)) p (chunks ls x) (qs j))
    /\ forall j, (j < length (v_history v'))%nat ->
         nth j (v_history v') NaN = Fin (elbo nc nf p (chunks ls x) (qs j)).
Proof.
  intros HM Hd Hf. pose proof HM as [M1 M2 M3 M4 M5 M6 M7 M8].
  destruct (vfit_from_trace _ _ _ _ _ _ _ Hf) as (v1 & v2 & us & Hc & Hi & _ & _ & Hh & _ & _).
  destruct (vcat_check_at nc nf v p q HM) as (v1' & Hc' & HA & E1). rewrite Hc in Hc'. injection Hc' as <-.
  destruct (vcat_iterate nc nf M1 M2 ls x Hd (length us) v1 p q v2 us HA Hi) as (I1 & _ & _ & _ & _ & _ & I7 & _).
  exists (traj nc nf ls x (c_params (v_cfg v1)) p q). split; [reflexivity|].
  split; [intros j; rewrite E1; reflexivity|]. rewrite Hh. exact I7.
Qed.

(** ** C47: the E-step. *)
Lemma psi_ln_strict x y : 0 < x -> x < y -> psi x - ln x < psi y - ln y.
Proof.
  intros Hx Hxy. pose proof (psi_ln_mono (x + 1) (y + 1) ltac:(lra) ltac:(lra)) as M.
  rewrite !psi_rec in M by lra.
  assert (Ix : 0 < / x) by (apply Rinv_0_lt_compat; lra). assert (Iy : 0 < / y) by (apply Rinv_0_lt_compat; lra).
  assert (Hu : / y < / x) by (apply Rinv_lt_contravar; [apply Rmult_lt_0_compat; lra|exact Hxy]).
  assert (Q : ln ((1 + / x) / (1 + / y)) < (1 + / x) / (1 + / y) - 1).
  { apply ln_lt_x1; [apply Rdiv_lt_0_compat; lra|]. intros E. apply (f_equal (fun z => z * (1 + / y))) in E.
    unfold Rdiv in E. rewrite Rmult_assoc, Rinv_l, Rmult_1_r, Rmult_1_l in E by lra. lra. }
  rewrite ln_div in Q by lra.
  replace (ln (x + 1)) with (ln x + ln (1 + / x)) in M
    by (rewrite <- ln_mult by lra; f_equal; field; lra).
  replace (ln (y + 1)) with (ln y + ln (1 + / y)) in M
    by (rewrite <- ln_mult by lra; f_equal; field; lra).
  assert (B : (1 + / x) / (1 + / y) - 1 <= / x - / y).
  { replace ((1 + / x) / (1 + / y) - 1) with ((/ x - / y) * / (1 + / y)) by (field; lra).
    rewrite <- (Rmult_1_r (/ x - / y)) at 2. apply Rmult_le_compat_l; [lra|].
    rewrite <- Rinv_1. apply Rinv_le_contravar; lra. }
  lra.
Qed.

Lemma C47_weights_l n q : (2 <= n)%nat -> pos1 n q ->
  (forall i, (i < n)%nat -> 0 < sub1 n q i < mean1 n q i) /\ sumn n (sub1 n q) < 1.
Proof.
  intros Hn Hq. assert (Hn0 : (0 < n)%nat) by lia.
  assert (Hlt : forall i, (i < n)%nat -> q i < sumn n q).
  { intros i Hi. set (j := if Nat.eqb i 0 then 1%nat else 0%nat).
    assert (Hj : (j < n)%nat /\ j <> i).
    { unfold j. destruct (Nat.eqb_spec i 0); split; lia. }
    destruct Hj as [Hj Hij].
    assert (H : sumn n (fun k => if Nat.eqb k i then q k else 0) + sumn n (fun k => if Nat.eqb k j then q k else 0) <= sumn n q).
    { rewrite <- sumn_plus. apply sumn_le. intros k Hk. pose proof (Hq k Hk).
      destruct (Nat.eqb_spec k i); destruct (Nat.eqb_spec k j); try lra. exfalso. congruence. }
    assert (Hd : forall m, (m < n)%nat -> sumn n (fun k => if Nat.eqb k m then q k else 0) = q m).
    { intros m Hm. apply sumn_if_eq. exact Hm. }
    rewrite !Hd in H by assumption. pose proof (Hq j Hj). lra. }
  assert (H : forall i, (i < n)%nat -> 0 < sub1 n q i < mean1 n q i).
  { intros i Hi. split; [apply sub1_pos|]. unfold sub1, mean1.
    pose proof (Hq i Hi). pose proof (Hlt i Hi). pose proof (psi_ln_strict (q i) (sumn n q) H H0).
    rewrite <- (exp_ln (q i / sumn n q)) by (apply Rdiv_lt_0_compat; lra).
    apply exp_increasing. rewrite ln_div by lra. lra. }
  split; [exact H|]. destruct (mean_stochastic n q Hn0 Hq) as [_ <-].
  destruct n as [|n]; [lia|]. cbn [sumn]. apply Rplus_le_lt_compat; [|apply H; lia].
  apply sumn_le. intros i Hi. apply Rlt_le, H. lia.
Qed.

Lemma C47_estep_l v nc nf p q ls x v1 st lp :
  vcat_model v nc nf p q -> h_nfeat (v_h v) = Some nf -> good_data (sym_ok nf) ls x ->
  vestep vcategorical exact x (as_lengths ls) v = Ok (v1, st, lp) ->
  let cs := chunks ls x in
  let params := c_params (v_cfg v) in
  lp = Fin (sumL (fun c => ln (seq_lik nc (w_s nc q) (w_t nc q) (w_e nf q) c)) cs)
  /\ st_nobs st = length ls
  /\ st_start st = fvec nc (fun i => if has "s" params then n_start nc nf q cs i else 0)
  /\ st_trans st = fmat nc nc (fun i j => if has "t" params then n_move nc nf q cs i j else 0)
  /\ st_em st = fmat nc nf (fun i k => if has "e" params then n_emit nc nf q cs i k else 0)
  /\ (forall c, In c cs ->
        (forall t, (t < length c)%nat -> stochastic1 nc (seq_post nc (w_s nc q) (w_t nc q) (w_e nf q) c t))
        /\ nonneg2 nc nc (seq_trans nc (w_s nc q) (w_t nc q) (w_e nf q) c)
        /\ sumn nc (fun i => sumn nc (seq_trans nc (w_s nc q) (w_t nc q) (w_e nf q) c i)) = INR (length c - 1)).
Proof.
  intros HM Hn Hd He cs params. pose proof HM as [M1 M2 M3 M4 M5 M6 M7 M8].
  assert (HA : vcat_at nc nf v p q) by (constructor; assumption).
  pose proof (vcat_cs nf ls x Hd) as Hcs.
  pose proof (vestep_scorable vcategorical nc (sym_ok nf) ls x M1 Hd v _ _ _ _ M3 (begun nc nf (h_em (v_h v)) q) (w_e nf q)
                (vcat_beg nc nf M2 v p q HA) (vcat_em' nc nf M1 M2 v q) (w_e_pos nc nf q) _ He) as Hs.
  rewrite (vestep_spec vcategorical nc (sym_ok nf) ls x M1 Hd v _ _ _ _ M3 (begun nc nf (h_em (v_h v)) q) (w_e nf q)
                (vcat_beg nc nf M2 v p q HA) (vcat_em' nc nf M1 M2 v q) (w_e_pos nc nf q) Hs) in He.
  set (l := map (fun c0 => (c0, seq_post nc (w_s nc q) (w_t nc q) (w_e nf q) c0)) cs).
  assert (Hl : forall y g, In (y, g) l -> Forall (sym_ok nf) y).
  { intros y g Hy. apply in_map_iff in Hy. destruct Hy as (c0 & E & Hc0). injection E as <- <-. apply Hcs, Hc0. }
  pose proof (vcat_acc_all nc nf (v_cfg v) (h_nfeat (v_h v)) (begun nc nf (h_em (v_h v)) q) l (fun _ _ => 0) Hl) as Ha.
  cbn [vc_em vcategorical ec_stats0] in He. unfold vcat_stats0, cat_stats0 in He.
  rewrite (vb_nc _ _ _ _ _ _ M3), Hn in He.
  change (mtab nc nf (fun _ _ => Fin 0)) with (fmat nc nf (fun _ _ => 0)) in He.
  rewrite Hn in Ha.
  change (do em <- em_acc_all (vc_em vcategorical) (v_cfg v) (Some nf) (begun nc nf (h_em (v_h v)) q) nc (fmat nc nf (fun _ _ => 0)) l;
     Ok (with_h v (set_em (v_h v) (Some nf) (begun nc nf (h_em (v_h v)) q)),
         Stats (length cs) (fvec nc (fun i => if has "s" params then n_start nc nf q cs i else 0))
           (fmat nc nc (fun i j => if has "t" params then n_move nc nf q cs i j else 0)) em,
         Fin (sumL (fun c0 => ln (seq_lik nc (w_s nc q) (w_t nc q) (w_e nf q) c0)) cs)) = Ok (v1, st, lp)) in He.
  rewrite Ha in He. cbn [bind] in He. injection He as _ <- <-. cbn [st_nobs st_start st_trans st_em].
  split; [reflexivity|]. split.
  { unfold cs. clear. revert x. induction ls as [|n l IH]; intros x; [reflexivity|]. simpl. rewrite IH. reflexivity. }
  split; [reflexivity|]. split; [reflexivity|]. split.
  { apply fmat_ext. intros i k _ _. unfold params. destruct (has "e" _); [|reflexivity].
    unfold sym_count, l. rewrite sumL_map. rewrite Rplus_0_l. reflexivity. }
  intros c Hc.
  assert (Hc1 : forall c0, In c0 [c] -> c0 <> [] /\ Forall (sym_ok nf) c0) by (intros c0 [<-|[]]; apply Hcs, Hc).
  pose proof (in_eq c []) as Hin. split; [|split].
  - intros t Ht. apply (vpost_stoch (sym_ok nf) nc [c] M1 Hc1 _ _ _ (w_s_pos nc q) (w_t_pos nc q) (w_e_pos nc nf q)); assumption.
  - intros i j Hi Hj. apply (vtrans_nonneg (sym_ok nf) nc [c] M1 Hc1 _ _ _ (w_s_pos nc q) (w_t_pos nc q) (w_e_pos nc nf q)); assumption.
  - pose proof (vtrans_sum (sym_ok nf) nc [c] M1 Hc1 _ _ _ (w_s_pos nc q) (w_t_pos nc q) (w_e_pos nc nf q)) as H.
    cbn [sumL] in H. rewrite Rplus_0_r in H. rewrite <- H. apply sumn_ext. intros i _. apply sumn_ext. intros j _. ring.
Qed.
