(** * C14, C25: conservation of mass (GMMHMM, variational classes); the two
    implementations train identically (variational classes). *)
From Verif Require Export Gmm_thms Vcat_thms Vg_thms Vcat_ex Vg_ex Gmm_ex.

(** The same object with another value of [implementation]. *)
Definition vimpl {P} (s : string) (v : vhmm P) : vhmm P := with_h v (with_cfg (cfg_impl s) (v_h v)).

Lemma vloop_impl {O} fp (step : O -> res (O * xnum)) zr (f : O -> O) (I : O -> Prop) fuel :
  (forall o o' lb, I o -> step o = Ok (o', lb) -> step (f o) = Ok (f o', lb) /\ I o') -> (forall o, zr (f o) = zr o) ->
  forall o m o' m' ev, I o -> vfit_loop fp step zr fuel o m = Ok (o', m', ev) -> vfit_loop fp step zr fuel (f o) m = Ok (f o', m', ev).
Proof.
  intros Hs Hz. induction fuel as [|fuel IH]; intros o m o' m' ev HI H; cbn [vfit_loop] in *.
  - injection H as <- <- <-. reflexivity.
  - apply bind_inv in H as ([o1 lb] & E & H). destruct (Hs _ _ _ HI E) as [E' HI']. rewrite E'. cbn [bind].
    destruct (monitor_report fp m lb) as [m1 ev1]. destruct (converged fp m1).
    + injection H as <- <- <-. reflexivity.
    + rewrite Hz. apply bind_inv in H as (z & Ez & H). rewrite Ez. cbn [bind]. apply bind_inv in H as ([[o2 m2] ev2] & E2 & H).
      rewrite (IH _ _ _ _ _ HI' E2). cbn [bind]. congruence.
Qed.
Lemma vfit_impl {P X St} (V : vclass P X St) v v1 x l v' ev (I : vhmm P -> Prop) :
  vcheck V exact v = Ok v1 -> vcheck V exact (vimpl "log" v) = Ok (vimpl "log" v1) -> I v1 ->
  (forall o o' lb, I o -> vb_step V exact x (Some l) o = Ok (o', lb) ->
     vb_step V exact x (Some l) (vimpl "log" o) = Ok (vimpl "log" o', lb) /\ I o') ->
  vfit_from V exact v x l = Ok (v', ev) -> vfit_from V exact (vimpl "log" v) x l = Ok (vimpl "log" v', ev).
Proof.
  intros C1 C2 HI Hs H. unfold vfit_from in *. rewrite C1 in H. rewrite C2. cbn [bind] in *.
  apply bind_inv in H as ([[v2 m] ev2] & El & H).
  apply (vloop_impl exact (vb_step V exact x (Some l)) (vzero_rows exact) (vimpl "log") I _ Hs (fun _ => eq_refl)) in El; [|exact HI].
  change (vfit_loop exact (vb_step V exact x (Some l)) (vzero_rows exact) (c_n_iter (v_cfg (vimpl "log" v1))) (vimpl "log" v1)
            (monitor_reset (h_mon (v_h (vimpl "log" v1)))) = Ok (vimpl "log" v2, m, ev2)) in El.
  rewrite El. cbn [bind]. injection H as <- <-. reflexivity.
Qed.

Lemma C25_vcategorical_l v nc nf p q ls x v' ev :
  vcat_model v nc nf p q -> good_data (sym_ok nf) ls x ->
  vfit_from vcategorical exact v x (map Z.of_nat ls) = Ok (v', ev) ->
  vfit_from vcategorical exact (vimpl "log" v) x (map Z.of_nat ls) = Ok (vimpl "log" v', ev).
Proof.
  intros HM Hd. destruct (vcat_check_at nc nf v p q HM) as (v1 & C1 & A1 & E1).
  assert (HM' : vcat_model (vimpl "log" v) nc nf p q).
  { destruct HM as [B1 B2 B3 B4 B5 B6 B7 B8]. constructor; try assumption. destruct B3; constructor; assumption. }
  destruct (vcat_check_at nc nf _ p q HM') as (v1' & C1' & _ & E1').
  assert (Ev : v1' = vimpl "log" v1) by (rewrite E1, E1'; reflexivity). rewrite Ev in C1'.
  apply (vfit_impl vcategorical v v1 x _ v' ev (fun o => exists q', vcat_at nc nf o p q') C1 C1' (ex_intro _ q A1)).
  intros o o' lb [q' A] H.
  destruct HM as [B1 B2].
  destruct (vcat_step_inv nc nf B1 B2 ls x Hd o p q' A _ H) as [E _]. injection E as -> ->.
  assert (A' : vcat_at nc nf (vimpl "log" o) p q').
  { destruct A as [D1 D2 D3 D4 D5 D6]. constructor; try assumption. destruct D1; constructor; assumption. }
  split.
  - exact (vcat_step_log nc nf B1 B2 ls x Hd (vimpl "log" o) p q' A' eq_refl).
  - eexists. apply (vcat_next_at nc nf B1 B2 ls x Hd o p q' A).
Qed.
Lemma C25_vgaussian_l la ty nc nf v p q ls x v' ev :
  la_right la -> vg_model ty nc nf v p q -> good_data (finite_row nf) ls x ->
  has "m" (c_params (v_cfg v)) = true \/ has "c" (c_params (v_cfg v)) = false ->
  vfit_from (vgaussian la) exact v x (map Z.of_nat ls) = Ok (v', ev) ->
  vfit_from (vgaussian la) exact (vimpl "log" v) x (map Z.of_nat ls) = Ok (vimpl "log" v', ev).
Proof.
  intros Hla HM Hd Hmc.
  assert (HK : forall o q', vg_holds ty nc nf o p q' -> vg_holds ty nc nf (vimpl "log" o) p q').
  { intros o q' HV. destruct HV as [D1]. constructor; try assumption. destruct D1; constructor; assumption. }
  destruct HM as [M1 M2 M3 M4 M5].
  apply (vfit_impl (vgaussian la) v v x _ v' ev (fun o => exists q', vg_holds ty nc nf o p q' /\ gvalid ty nc nf q' /\ c_params (v_cfg o) = c_params (v_cfg v))
           (vg_check_ok la ty nc nf v p q M3) (vg_check_ok la ty nc nf _ p q (HK _ _ M3)) (ex_intro _ q (conj M3 (conj M5 eq_refl)))).
  intros o o' lb (q' & HV & Hq & Ep) H.
  destruct (vg_step_inv la ty nc nf Hla M1 M2 (vgh_known _ _ _ _ _ _ HV) ls x Hd (c_params (v_cfg v)) p M4 o q' HV Hq Ep _ H) as [E _]. injection E as -> ->.
  split.
  - exact (vg_step_log la ty nc nf Hla M1 M2 (vgh_known _ _ _ _ _ _ HV) ls x Hd (c_params (v_cfg v)) p M4 (vimpl "log" o) q' (HK _ _ HV) Hq Ep eq_refl).
  - eexists. split; [apply (vg_step_holds ty nc nf M1 ls x Hd (c_params (v_cfg v)) p o q' HV Ep)|]. split; [|exact Ep].
    apply (vg_next_valid ty nc nf (chunks ls x) M1 M2 (vg_cs nf ls x Hd) (c_params (v_cfg v)) p M4 Hmc q' Hq).
Qed.

(** ** C14. *)
Lemma chunks_pairs {X} ls (x : list X) : fold_right Nat.add 0%nat ls = length x ->
  sumL (fun c => INR (length c - 1)) (chunks ls x) = sumL (fun n => INR (n - 1)) ls.
Proof.
  intros Hsum. revert x Hsum. induction ls as [|n l IH]; intros x Hsum; [reflexivity|]. cbn [chunks sumL fold_right] in *.
  rewrite firstn_length_le by lia. rewrite IH by (rewrite skipn_length; lia). reflexivity.
Qed.
Lemma chunks_count {X} ls (x : list X) : length (chunks ls x) = length ls.
Proof. revert x. induction ls as [|n l IH]; intros x; [reflexivity|]. cbn [chunks length]. rewrite IH. reflexivity. Qed.

(** The statistics of the start and of the transitions. *)
Definition base_mass {St} (nc : nat) (params : string) (ls : list nat) (st : @stats St) : Prop :=
  st_nobs st = length ls
  /\ (has "s" params = true -> exists f, st_start st = fvec nc f /\ nonneg1 nc f /\ sumn nc f = INR (length ls))
  /\ (has "t" params = true -> exists g, st_trans st = fmat nc nc g /\ nonneg2 nc nc g
        /\ sumn nc (fun i => sumn nc (g i)) = sumL (fun n => INR (n - 1)) ls).

Lemma C14_vcategorical_l v nc nf p q ls x v1 st lp :
  vcat_model v nc nf p q -> h_nfeat (v_h v) = Some nf -> good_data (sym_ok nf) ls x ->
  vestep vcategorical exact x (as_lengths ls) v = Ok (v1, st, lp) ->
  base_mass nc (c_params (v_cfg v)) ls st
  /\ (has "e" (c_params (v_cfg v)) = true ->
       exists o, st_em st = fmat nc nf o /\ nonneg2 nc nf o /\ sumn nc (fun i => sumn nf (o i)) = INR (length x)).
Proof.
  intros HM Hn Hd H. destruct (C47_estep_l _ _ _ _ _ _ _ _ _ _ HM Hn Hd H) as (_ & E0 & E1 & E2 & E3 & _).
  destruct HM as [M1 M2]. pose proof (vcat_cs nf ls x Hd) as Hcs. pose proof Hd as [_ (_ & _ & Hsum)].
  split; [split; [exact E0|split]|]; intros Hh; rewrite Hh in *.
  - exists (n_start nc nf q (chunks ls x)). split; [exact E1|]. split.
    + intros i Hi. apply (n_start_nonneg nc nf (chunks ls x) M1 M2 Hcs q i Hi).
    + rewrite <- (chunks_count ls x). exact (vstart_sum (sym_ok nf) nc (chunks ls x) M1 Hcs _ _ _ (w_s_pos nc q) (w_t_pos nc q) (w_e_pos nc nf q)).
  - exists (n_move nc nf q (chunks ls x)). split; [exact E2|]. split.
    + intros i j Hi Hj. apply (n_move_nonneg nc nf (chunks ls x) M1 Hcs q i j Hi Hj).
    + rewrite (n_move_sum nc nf (chunks ls x) M1 Hcs q). apply chunks_pairs, Hsum.
  - exists (n_emit nc nf q (chunks ls x)). split; [exact E3|]. split.
    + intros i k Hi Hk. apply (n_emit_nonneg nc nf (chunks ls x) M1 Hcs q i k Hi).
    + rewrite (n_emit_sum nc nf (chunks ls x) M1 Hcs q). apply chunks_lengths, Hsum.
Qed.
Lemma C14_vgaussian_l la ty nc nf v p q ls x v1 st lp : la_right la ->
  vg_model ty nc nf v p q -> good_data (finite_row nf) ls x ->
  vestep (vgaussian la) exact x (as_lengths ls) v = Ok (v1, st, lp) ->
  base_mass nc (c_params (v_cfg v)) ls st
  /\ (has "m" (c_params (v_cfg v)) || has "c" (c_params (v_cfg v)) = true ->
       exists o, gs_post (st_em st) = fvec nc o /\ nonneg1 nc o /\ sumn nc o = INR (length x)).
Proof.
  intros Hla HM Hd H. destruct (C47_gaussian_estep_l _ _ _ _ _ _ _ _ _ _ _ _ Hla HM Hd H) as (_ & E0 & E1 & E2 & E3 & _ & Hst).
  destruct HM as [M1 M2]. pose proof (vg_cs nf ls x Hd) as Hcs. pose proof Hd as [_ (_ & _ & Hsum)].
  split; [split; [exact E0|split]|]; intros Hh; rewrite Hh in *.
  - exists (g_start nc nf (chunks ls x) q). split; [exact E1|]. split.
    + intros i Hi. apply sumL_nonneg. intros c Hc. apply (proj1 (Hst c Hc) 0%nat); [|exact Hi].
      destruct (Hcs c Hc) as [N _]. destruct c; [congruence|cbn; lia].
    + rewrite <- (chunks_count ls x). apply (vstart_sum (finite_row nf) nc (chunks ls x) M1 Hcs _ _ _ (gw_s_pos nc q) (gw_t_pos nc q) (vg_w_pos nc nf q)).
  - exists (g_move nc nf (chunks ls x) q). split; [exact E2|]. split.
    + intros i j Hi Hj. apply sumL_nonneg. intros c Hc. apply (proj1 (proj2 (Hst c Hc))); assumption.
    + rewrite <- (chunks_pairs ls x Hsum).
      apply (vtrans_sum (finite_row nf) nc (chunks ls x) M1 Hcs _ _ _ (gw_s_pos nc q) (gw_t_pos nc q) (vg_w_pos nc nf q)).
  - exists (g_n nc nf (chunks ls x) q). split; [exact E3|]. split.
    + intros i Hi. apply sumL_nonneg. intros c Hc. apply sumn_nonneg. intros t Ht. apply (proj1 (Hst c Hc) t Ht); exact Hi.
    + unfold g_n, occupancy. rewrite <- (sumL_sumn_swap (chunks ls x) nc (fun c i => sumn (length c) (fun t => seq_post nc (gw_s nc q) (gw_t nc q) (vg_w nf q) c t i))).
      rewrite <- (chunks_lengths ls x Hsum). apply sumL_ext. intros c Hc. rewrite sumn_swap.
      rewrite (sumn_ext _ _ (fun _ => 1)); [rewrite sumn_const; ring|]. intros t Ht. apply (proj1 (Hst c Hc) t Ht).
Qed.

(** GMMHMM: every sample is shared among the states, and the part of each state
    among its components. *)
Lemma C14_gmm_l eig h h1 nc nm nf ty pi A w mu cv wp mw mp cp cw ls x st lp :
  gmm_model eig h nc nm nf ty pi A w mu cv -> gmm_hyper (h_em h) nc nm nf ty wp mw mp cp cw ->
  check (gmm eig) exact h = Ok h1 -> good_data (finite_row nf) ls x ->
  let b := mixb nm nf ty w mu cv in
  (forall c, In c (chunks ls x) -> scorable nc pi A b (c_impl (h_cfg h)) c) ->
  do_estep (gmm eig) exact h1 (fvec nc pi) (fmat nc nc A) x (as_lengths ls) = Ok (st, lp) ->
  let occ := occupancy nc pi A b (chunks ls x) in
  let part i k := weighted_total nc pi A b (chunks ls x) (fun o => w i k * dens nf ty mu cv o i k / b o i) i in
  base_mass nc (c_params (h_cfg h)) ls st
  /\ gs_sum (st_em st) = fvec nc occ /\ sumn nc occ = INR (length x)
  /\ gs_mix (st_em st) = nd2 nc nm part /\ forall i, (i < nc)%nat -> sumn nm (part i) = occ i.
Proof.
  intros GM HH Hc Hd b Hs H occ part.
  rewrite (gmm_fit_check eig h nc nm nf ty pi A w mu cv GM wp mw mp cp cw HH) in Hc. injection Hc as <-.
  set (p1 := gmm_checked nc nm nf ty wp mw mp cp cw (h_em h)) in *.
  pose proof (model_cov_ok _ _ _ _ _ _ _ _ _ _ _ GM) as Hco.
  destruct GM as [[B1 B2 B3 B4 B5 B6 B7 B8] G2 G3 G4 G5 G6 G7 G8 G9 G10 G11 G12 G13 G14].
  assert (HwS : forall i, (i < nc)%nat -> 0 < sumn nm (w i)) by (intros i Hi; pose proof (G10 i Hi) as N; unfold near1, Rabs in N; destruct (Rcase_abs _); lra).
  assert (Tr : trainable (gmm eig) (with_em h (Some nf) p1) nc pi A (finite_row nf) b).
  { constructor; try assumption.
    apply (gmm_emits0 nc nm nf G2 G3 p1 ty w mu cv); try assumption. }
  split; [exact (C14_mass_l (gmm eig) _ nc pi A _ _ ls x st lp Tr Hd Hs H)|].
  rewrite (do_estep_spec (gmm eig) _ nc pi A _ _ Tr ls x Hd Hs) in H.
  rewrite em_fold_all in H. set (l := map (fun c => (c, seq_post nc pi A b c)) (chunks ls x)) in *.
  destruct (good_data_chunks _ ls x Hd) as (_ & _ & Hch). rewrite Forall_forall in Hch.
  assert (Hl : forall y w, In (y, w) l -> y <> [] /\ Forall (finite_row nf) y).
  { intros y g Hy. apply in_map_iff in Hy as (c & Heq & Hy). injection Heq as -> _. apply Hch. exact Hy. }
  cbn [gmm ec_stats0 with_em h_cfg h_nfeat h_em] in H. unfold gmm_stats0 in H. rewrite B1 in H. cbn [gm_nf] in H.
  change (gm_nmix p1) with (gm_nmix (h_em h)) in H. change (gm_covars p1) with (gm_covars (h_em h)) in H. rewrite G5, G12 in H.
  cbn [nsh fnd ntab] in H.
  change (ntab [nc; nm] (fun _ => Fin 0)) with (nd2 nc nm (fun _ _ => 0)) in H.
  change (tab nc (fun _ => Fin 0)) with (fvec nc (fun _ => 0)) in H.
  change (ntab (cshape nc nm nf ty) (fun _ => Fin 0)) with (fnd (cshape nc nm nf ty) (fun _ => 0)) in H.
  rewrite (ntab_nd3 nc nm nf _ (fun i k f => mw i k * mp i k f)) in H.
  2:{ intros i k f Hi Hk Hf. cbn [firstn nth p1 gmm_checked gm_set_priors gm_mweight gm_mprior]. rewrite nget_nd2, nget_nd3 by assumption. apply xmulE. }
  fold (gmm eig) in H. rewrite (gmm_acc_all eig nc nm nf B2 G2 G3 ty G7 w mu cv Hco G9 HwS (h_cfg h) p1) in H by assumption.
  cbn [bind] in H. injection H as <- <-. cbn [st_em gs_sum gs_mix].
  assert (Ep : forall i k, 0 + wsum l (sN nm nf ty w mu cv k) i = part i k).
  { intros i k. rewrite Rplus_0_l. unfold l. rewrite wsum_total. reflexivity. }
  split; [|split; [|split]].
  - apply fvec_ext. intros i Hi. unfold l. rewrite wsum_occupancy. unfold occ. ring.
  - apply (occupancy_total (finite_row nf)); try apply Tr; try exact Hd.
    intros c Hin. destruct (Hch c Hin) as [Hne Hok].
    apply (scorable_lik (gmm eig) _ nc pi A (finite_row nf) b (c_impl (h_cfg h)) c Tr Hne (Hs c Hin)).
  - apply nd2_ext. intros i k _ _. apply Ep.
  - intros i Hi. rewrite (sumn_ext nm (part i) (fun k => wsum l (sN nm nf ty w mu cv k) i)).
    2:{ intros k _. rewrite <- Ep. ring. }
    rewrite <- (wsum_sumn l nm (fun k => sN nm nf ty w mu cv k) i).
    unfold occ. rewrite <- wsum_occupancy. fold l.
    apply (wsum_ext l _ _ i (fun _ => True)); [intros y g _; apply Forall_forall; trivial|]. intros o _. unfold sN.
    apply (resp_sum nc nm nf ty w mu cv Hco G9 HwS o i Hi).
Qed.

(** ** Concrete runs. *)
Lemma psi_ge x : 0 < x -> ln x - / x <= psi x.
Proof.
  intros Hx. assert (H : - / x <= psi x - ln x); [|lra].
  eapply cv_le; [|apply (cv_const (- / x))|apply psi_ln_cv; exact Hx]. intros n.
  assert (T : forall m, sumn m (fun k => / (x + INR k + 1) - / (x + INR k)) = / (x + INR m) - / x).
  { induction m as [|m IH]; [cbn [sumn INR]; rewrite Rplus_0_r; ring|]. cbn [sumn]. rewrite IH, S_INR.
    replace (x + (INR m + 1)) with (x + INR m + 1) by ring. ring. }
  apply Rle_trans with (sumn (S n) (fun k => / (x + INR k + 1) - / (x + INR k))).
  - rewrite T. assert (0 < / (x + INR (S n))) by (apply Rinv_0_lt_compat; pose proof (pos_INR (S n)); lra). lra.
  - apply sumn_le. intros k _. pose proof (pos_INR k). set (u := x + INR k). assert (Hu : 0 < u) by (unfold u; lra).
    assert (P : 0 < u / (u + 1)) by (apply Rdiv_lt_0_compat; lra). pose proof (ln_le_x1 _ P) as Q.
    rewrite ln_div in Q |- * by lra. replace (u / (u + 1) - 1) with (- / (u + 1)) in Q by (field; lra). lra.
Qed.
Lemma tiny_exp a : - 2 <= a -> / 10 ^ 300 <= exp a.
Proof.
  intros H. apply Rle_trans with (exp (- 2)).
  - apply Rle_trans with (/ 9).
    + apply Rinv_le_contravar; [lra|]. apply Rle_trans with (10 ^ 1); [lra|]. apply Rle_pow; [lra|lia].
    + replace (-2) with (- (2)) by lra. rewrite exp_Ropp. apply Rinv_le_contravar; [apply exp_pos|]. replace (exp 2) with (exp (1 + 1)) by (f_equal; lra). rewrite exp_plus.
      pose proof exp_le_3. pose proof (exp_pos 1). nra.
  - destruct (Req_dec a (-2)) as [->|N]; [lra|]. left. apply exp_increasing. lra.
Qed.
Lemma single_no_underflow {X} pi A (b : X -> nat -> R) o : / 10 ^ 300 <= pi 0%nat * b o 0%nat -> seq_no_underflow 1 pi A b [o].
Proof.
  intros H t Ht. assert (t = 0%nat) as -> by (simpl in Ht; lia). cbn [firstn seq_plik]. rewrite Rmult_1_r.
  replace (seq_lik 1 pi A b [o]) with (pi 0%nat * b o 0%nat); [exact H|].
  unfold seq_lik, likelihood, joint, obsB. cbn. lra.
Qed.

(** One state, two symbols, posterior counts (1, 1); "scaling". *)
Definition one_d : dirs := Dirs (fun _ => 1) (fun _ _ => 1) (fun _ _ => 1).
Definition one_v : vhmm vcatp :=
  VHmm (Hmm (Cfg 1 "ste" "ste" "viterbi" "scaling" 1 (Fin (/ 100)) false (Scal (Fin 1)) (Scal (Fin 1))) (Some 2%nat) None None
          (Monitor (Fin (/ 100)) 1 false [] 0)
          (VCatp None (Some (fmat 1 2 (d_e one_d))) (Some (fmat 1 2 (d_e one_d))) None None))
    None None (Some (fvec 1 (d_s one_d))) (Some (fvec 1 (d_s one_d)))
    (Some (fmat 1 1 (d_t one_d))) (Some (fmat 1 1 (d_t one_d))).
Lemma one_model : vcat_model one_v 1 2 one_d one_d.
Proof.
  constructor; try lia; try reflexivity; try (intro; intros; cbn [one_d d_s d_t d_e]; lra).
  - constructor; try reflexivity; intro; intros; cbn [one_d d_s d_t]; lra.
  - right. reflexivity.
Qed.
Lemma one_data : good_data (sym_ok 2) [1; 1]%nat [0; 1]%Z.
Proof. split; [repeat constructor; unfold sym_ok; lia|]. split; [discriminate|]. split; [repeat constructor|reflexivity]. Qed.
Lemma one_scorable k : sym_ok 2 k -> scorable 1 (w_s 1 one_d) (w_t 1 one_d) (w_e 2 one_d) "scaling" [k].
Proof.
  intros Hk. right. split; [reflexivity|]. apply single_no_underflow.
  unfold w_s, w_e, sub1, cat_b, one_d. cbn [d_s d_e sumn].
  replace (psi 1 - psi (0 + 1)) with 0 by (rewrite Rplus_0_l; ring). rewrite exp_0, Rmult_1_l.
  replace (0 + 1 + 1) with (1 + 1) by ring. rewrite psi_rec, Rinv_1 by lra. apply tiny_exp. lra.
Qed.
Lemma one_step : vb_step vcategorical exact [0; 1]%Z (as_lengths [1; 1]%nat) one_v
  = Ok (vcat_next 1 2 [1; 1]%nat [0; 1]%Z one_v one_d one_d, Fin (elbo 1 2 one_d (chunks [1; 1]%nat [0; 1]%Z) one_d)).
Proof.
  destruct (vcat_check_at 1 2 _ _ _ one_model) as (v1 & _ & A1 & E1). assert (v1 = one_v) as -> by (rewrite E1; reflexivity).
  apply (vcat_step_ok 1 2 ltac:(lia) ltac:(lia) _ _ one_data one_v one_d one_d A1).
  intros c [<-|[<-|[]]]; apply one_scorable; unfold sym_ok; lia.
Qed.
Lemma C25_vcategorical_applies_l : exists v' ev,
  c_impl (v_cfg one_v) = "scaling"%string
  /\ vfit_from vcategorical exact one_v [0; 1]%Z (map Z.of_nat [1; 1]%nat) = Ok (v', ev)
  /\ vfit_from vcategorical exact (vimpl "log" one_v) [0; 1]%Z (map Z.of_nat [1; 1]%nat) = Ok (vimpl "log" v', ev).
Proof.
  assert (H : exists v' ev, vfit_from vcategorical exact one_v [0; 1]%Z (map Z.of_nat [1; 1]%nat) = Ok (v', ev)).
  { unfold vfit_from. destruct (vcat_check_at 1 2 _ _ _ one_model) as (v1 & C1 & _ & E1). rewrite C1. cbn [bind].
    assert (v1 = one_v) as -> by (rewrite E1; reflexivity).
    change (c_n_iter (v_cfg one_v)) with 1%nat. cbn [vfit_loop].
    pose proof one_step as Hs. unfold as_lengths in Hs. rewrite Hs. cbn [bind].
    destruct (monitor_report exact _ _) as [m1 ev1]. destruct (converged exact m1); eexists _, _; reflexivity. }
  destruct H as (v' & ev & H). exists v', ev. split; [reflexivity|]. split; [exact H|].
  exact (C25_vcategorical_l one_v 1 2 one_d one_d [1; 1]%nat _ v' ev one_model one_data H).
Qed.
Lemma C14_vcategorical_applies_l : exists v1 st lp o,
  vestep vcategorical exact [0; 1]%Z (as_lengths [1; 1]%nat) one_v = Ok (v1, st, lp)
  /\ st_em st = fmat 1 2 o /\ sumn 1 (fun i => sumn 2 (o i)) = 2.
Proof.
  pose proof one_step as Hs. unfold vb_step in Hs. apply bind_inv in Hs as ([[v1 st] lp] & E & _).
  destruct (C14_vcategorical_l one_v 1 2 one_d one_d [1; 1]%nat _ v1 st lp one_model eq_refl one_data E) as [_ H].
  destruct (H eq_refl) as (o & E1 & _ & E2). exists v1, st, lp, o. split; [exact E|]. split; [exact E1|]. rewrite E2. cbn. lra.
Qed.

(** One state, one feature; "scaling". *)
Definition oneg_d : gdirs := Gdirs (fun _ => 1) (fun _ _ => 1) (fun _ => 1) (fun _ _ => 0) (fun _ => 2) (fun _ => scaled_id 1).
Definition oneg_v (ty : string) : vhmm vgp :=
  VHmm (Hmm (Cfg 1 "stmc" "" "viterbi" "scaling" 1 (Fin (/ 100)) false (Scal (Fin 1)) (Scal (Fin 1))) (Some 1%nat)
          (Some (fvec 1 (fun _ => 1))) (Some (fmat 1 1 (fun _ _ => 1)))
          (Monitor (Fin (/ 100)) 1 false [] 0)
          (Vgp ty None None None None
             (Some (Arr2 (fmat 1 1 (g_m oneg_d)))) (Some (fmat 1 1 (g_m oneg_d)))
             (Some (fvec 1 (g_b oneg_d))) (Some (fvec 1 (g_b oneg_d)))
             (Some (dof_attr ty 1 (g_d oneg_d))) (Some (dof_attr ty 1 (g_d oneg_d)))
             (Some (mats_attr ty 1 1 (g_S oneg_d))) (Some (mats_attr ty 1 1 (g_S oneg_d))) None))
    None None (Some (fvec 1 (g_s oneg_d))) (Some (fvec 1 (g_s oneg_d)))
    (Some (fmat 1 1 (g_t oneg_d))) (Some (fmat 1 1 (g_t oneg_d))).
Lemma oneg_valid ty : gvalid ty 1 1 oneg_d.
Proof.
  constructor; cbn [oneg_d g_s g_t g_b g_d g_S]; try (intro; intros; lra);
    try (intros; simpl; lra); try (intros; apply scaled_pd; lra); try (intros; apply keep_scaled; lia); try (intros _ i _; split; reflexivity).
Qed.
Lemma oneg_model ty : (ty = "full" \/ ty = "tied" \/ ty = "diag" \/ ty = "spherical")%string -> vg_model ty 1 1 (oneg_v ty) oneg_d oneg_d.
Proof.
  intros Hty. constructor; try lia; [|apply oneg_valid|apply oneg_valid].
  constructor; try reflexivity; try exact Hty.
  constructor; try reflexivity; apply (oneg_valid ty).
Qed.
Lemma det1_one : det 1 (scaled_id 1) = 1.
Proof. unfold det, scaled_id. cbn. lra. Qed.
Lemma oneg_scorable : scorable 1 (gw_s 1 oneg_d) (gw_t 1 oneg_d) (vg_w 1 oneg_d) "scaling" [[Fin 0]].
Proof.
  right. split; [reflexivity|]. apply single_no_underflow.
  unfold gw_s, sub1, vg_w. cbn [oneg_d g_s g_d g_S g_b g_m sumn INR]. 
  replace (psi 1 - psi (0 + 1)) with 0 by (rewrite Rplus_0_l; ring). rewrite exp_0, Rmult_1_l, det1_one, ln_1.
  apply tiny_exp. replace ((2 - 0) / 2) with 1 by lra. pose proof (psi_ge 1 ltac:(lra)) as P. rewrite ln_1, Rinv_1 in P.
  assert (0 < ln 2) by (rewrite <- ln_1; apply ln_increasing; lra).
  assert (Q : quad 1 (minv 1 (scaled_id 1)) (fun k => xval [Fin 0] k - 0) = 0).
  { unfold quad, xval. cbn. ring. }
  rewrite Q. lra.
Qed.
Lemma oneg_step ty : (ty = "full" \/ ty = "tied" \/ ty = "diag" \/ ty = "spherical")%string -> exists r,
  vb_step (vgaussian la_ref) exact [[Fin 0]] (as_lengths [1]%nat) (oneg_v ty) = Ok r.
Proof.
  intros Hty. destruct (oneg_model ty Hty) as [M1 M2 M3 M4 M5]. eexists.
  apply (vg_step_ok la_ref ty 1 1 la_ref_right M1 M2 Hty [1]%nat [[Fin 0]] neg_data "stmc" oneg_d M4 (oneg_v ty) oneg_d M3 M5 eq_refl).
  intros c [<-|[]]. exact oneg_scorable.
Qed.
Lemma C25_vgaussian_applies_l : forall ty, (ty = "full" \/ ty = "tied" \/ ty = "diag" \/ ty = "spherical")%string -> exists v' ev,
  c_impl (v_cfg (oneg_v ty)) = "scaling"%string
  /\ vfit_from (vgaussian la_ref) exact (oneg_v ty) [[Fin 0]] (map Z.of_nat [1]%nat) = Ok (v', ev)
  /\ vfit_from (vgaussian la_ref) exact (vimpl "log" (oneg_v ty)) [[Fin 0]] (map Z.of_nat [1]%nat) = Ok (vimpl "log" v', ev).
Proof.
  intros ty Hty. pose proof (oneg_model ty Hty) as HM.
  assert (H : exists v' ev, vfit_from (vgaussian la_ref) exact (oneg_v ty) [[Fin 0]] (map Z.of_nat [1]%nat) = Ok (v', ev)).
  { unfold vfit_from. destruct HM as [M1 M2 M3 M4 M5]. rewrite (vg_check_ok la_ref ty 1 1 _ _ _ M3). cbn [bind].
    change (c_n_iter (v_cfg (oneg_v ty))) with 1%nat. cbn [vfit_loop].
    destruct (oneg_step ty Hty) as [[v1 lb] Hs]. unfold as_lengths in Hs. rewrite Hs. cbn [bind].
    assert (Hz : exists z, vzero_rows exact v1 = Ok z).
    { destruct (vg_step_inv la_ref ty 1 1 la_ref_right M1 M2 Hty [1]%nat [[Fin 0]] neg_data "stmc" oneg_d M4 (oneg_v ty) oneg_d M3 M5 eq_refl _ Hs) as [E _].
      injection E as -> _. eexists; reflexivity. }
    destruct Hz as [z Hz].
    destruct (monitor_report exact _ _) as [m1 ev1]. destruct (converged exact m1); [eexists _, _; reflexivity|].
    rewrite Hz. eexists _, _; reflexivity. }
  destruct H as (v' & ev & H). exists v', ev. split; [reflexivity|]. split; [exact H|].
  exact (C25_vgaussian_l la_ref ty 1 1 (oneg_v ty) oneg_d oneg_d [1]%nat _ v' ev la_ref_right HM neg_data (or_introl eq_refl) H).
Qed.
Lemma C14_vgaussian_applies_l : exists v1 st lp,
  vestep (vgaussian la_ref) exact [[Fin 0]] (as_lengths [1]%nat) (oneg_v "tied") = Ok (v1, st, lp)
  /\ gs_post (st_em st) = [Fin 1].
Proof.
  assert (Hty : ("tied" = "full" \/ "tied" = "tied" \/ "tied" = "diag" \/ "tied" = "spherical")%string) by (right; left; reflexivity).
  destruct (oneg_step "tied" Hty) as [r Hs]. unfold vb_step in Hs. apply bind_inv in Hs as ([[v1 st] lp] & E & _).
  exists v1, st, lp. split; [exact E|].
  destruct (C14_vgaussian_l la_ref "tied" 1 1 _ _ _ _ _ v1 st lp la_ref_right (oneg_model "tied" Hty) neg_data E) as [_ H].
  destruct (H eq_refl) as (o & E1 & _ & E2). rewrite E1. unfold fvec. cbn [tab map seq]. cbn [sumn length INR] in E2.
  do 2 f_equal. lra.
Qed.

Lemma C14_gmm_applies_l : exists h1 st lp,
  check (gmm eig1) exact (exd "diag" "stmcw") = Ok h1
  /\ do_estep (gmm eig1) exact h1 (fvec 1 u1) (fmat 1 1 all1) exd_x (as_lengths [1; 1]%nat) = Ok (st, lp)
  /\ gs_sum (st_em st) = [Fin 2].
Proof.
  destruct (exd_run "diag" "stmcw" eq_refl ltac:(discriminate) eq_refl) as (h' & ev & R0 & _).
  destruct R0 as (GM & _ & GF & _ & _ & _ & Hd & Hpos & _ & Hf & _).
  pose proof (gmm_flat_hyper _ 1 2 1 "diag" GF) as HH.
  pose proof (gmm_fit_check eig1 _ _ _ _ _ _ _ _ _ _ GM _ _ _ _ _ HH) as Hc.
  unfold fit_from in Hf. cbv zeta in Hf. unfold as_lengths in *. rewrite Hc in Hf. cbn [bind] in Hf.
  apply bind_inv in Hf as ([[h2 m] ev2] & Hf & _).
  change (c_n_iter (h_cfg (with_em (exd "diag" "stmcw") _ _))) with 1%nat in Hf. cbn [fit_loop] in Hf.
  apply bind_inv in Hf as ([h3 lb] & Hf & _). unfold em_step in Hf. cbn [with_em h_start h_trans exd ex_gm] in Hf.
  apply bind_inv in Hf as ([st lp] & Hf & _).
  eexists _, st, lp. split; [exact Hc|]. split; [exact Hf|].
  destruct (C14_gmm_l eig1 _ _ 1 2 1 "diag" u1 all1 half2 (cmu 0) (ccv 1) _ _ _ _ _ [1; 1]%nat exd_x st lp GM HH Hc Hd) as (_ & E1 & E2 & _).
  { intros c Hin. left. split; [reflexivity|]. apply Hpos, Hin. }
  { exact Hf. }
  rewrite E1. unfold fvec. cbn [tab map seq]. cbn [sumn] in E2. cbn [length exd_x INR] in E2. do 2 f_equal. lra.
Qed.
