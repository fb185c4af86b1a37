(** * Properties C13, C14, C18-C21, C23-C26, C56: training. *)
From Verif Require Export Examples Cat_fit.

(** ** C13: transition statistics are expected transition counts. *)
Lemma C13_transition_statistics_l {P X St} (E : emclass P X St) h nc pi A ok b ls x st lp :
  trainable E h nc pi A ok b -> good_data ok ls x ->
  (forall c, In c (chunks ls x) -> scorable nc pi A b (c_impl (h_cfg h)) c) ->
  has "t" (c_params (h_cfg h)) = true ->
  do_estep E exact h (fvec nc pi) (fmat nc nc A) x (as_lengths ls) = Ok (st, lp) ->
  st_trans st = fmat nc nc (fun i j => sumL (fun c =>
      sumL (fun z => seq_joint pi A b c z * n_trans (length c) i j z) (all_paths nc (length c))
      / sumL (seq_joint pi A b c) (all_paths nc (length c))) (chunks ls x))
  /\ forall i, (i < nc)%nat -> forall c, In c (chunks ls x) ->
       sumn nc (seq_trans nc pi A b c i) = sumn (length c - 1) (fun t => seq_post nc pi A b c t i).
Proof.
  intros Tr Hd Hs Ht H. rewrite (do_estep_spec E h nc pi A ok b Tr ls x Hd Hs) in H.
  destruct (em_fold _ _ _ _ _ _ _ _) as [em|]; [|discriminate]. injection H as <- <-. split.
  - cbn [st_trans]. apply fmat_ext. intros i j _ _. unfold trans_stat. rewrite Ht. reflexivity.
  - intros i Hi c Hc. destruct (good_data_chunks ok ls x Hd) as (_ & _ & Hch).
    rewrite Forall_forall in Hch. destruct (Hch c Hc) as [Hne _].
    apply expected_trans_row; [destruct c; [contradiction|simpl; lia]|exact Hi].
Qed.

(** The statistics do not depend on the implementation. *)
Lemma C13_same_statistics_l {P X St} (E : emclass P X St) h1 h2 nc pi A ok b ls x st1 st2 lp1 lp2 :
  trainable E h1 nc pi A ok b -> trainable E h2 nc pi A ok b -> good_data ok ls x ->
  c_params (h_cfg h1) = c_params (h_cfg h2) ->
  (forall c, In c (chunks ls x) -> scorable nc pi A b (c_impl (h_cfg h1)) c) ->
  (forall c, In c (chunks ls x) -> scorable nc pi A b (c_impl (h_cfg h2)) c) ->
  do_estep E exact h1 (fvec nc pi) (fmat nc nc A) x (as_lengths ls) = Ok (st1, lp1) ->
  do_estep E exact h2 (fvec nc pi) (fmat nc nc A) x (as_lengths ls) = Ok (st2, lp2) ->
  st_start st1 = st_start st2 /\ st_trans st1 = st_trans st2 /\ lp1 = lp2.
Proof.
  intros T1 T2 Hd Hp S1 S2 H1 H2.
  rewrite (do_estep_spec E h1 nc pi A ok b T1 ls x Hd S1) in H1.
  rewrite (do_estep_spec E h2 nc pi A ok b T2 ls x Hd S2) in H2.
  destruct (em_fold _ h1 _ _ _ _ _ _) as [em1|]; [|discriminate]. injection H1 as <- <-.
  destruct (em_fold _ h2 _ _ _ _ _ _) as [em2|]; [|discriminate]. injection H2 as <- <-.
  cbn [st_start st_trans]. unfold start_stat, trans_stat. rewrite Hp. auto.
Qed.

Lemma ex_trainable impl alg : trainable categorical (checked (ex_h impl alg) 3) 2 ex_pi ex_A (sym_ok 3) (cat_b ex_e).
Proof.
  pose proof (ex_model impl alg) as CM. constructor; try (apply CM).
  apply (cat_emits (ex_cfg impl alg) 2 3 ex_e); [reflexivity|apply CM].
Qed.

Lemma ex_possible : possible 2 ex_pi ex_A (cat_b ex_e) [2; 1]%nat ex_x.
Proof.
  intros c Hc. cbn in Hc. destruct Hc as [<-|[<-|[]]];
    unfold seq_lik, likelihood, joint; simpl; unfold obsB, cat_b, ex_pi, ex_A, ex_e; simpl; lra.
Qed.

Lemma C13_applies_l : exists st lp,
  do_estep categorical exact (checked (ex_h "log" "map") 3) (fvec 2 ex_pi) (fmat 2 2 ex_A) ex_x (as_lengths [2; 1]%nat)
    = Ok (st, lp)
  /\ forall c, In c (chunks [2; 1]%nat ex_x) -> scorable 2 ex_pi ex_A (cat_b ex_e) "log" c.
Proof.
  assert (Hs : forall c, In c (chunks [2; 1]%nat ex_x) -> scorable 2 ex_pi ex_A (cat_b ex_e) "log" c)
    by (intros c Hc; left; split; [reflexivity|apply ex_possible; exact Hc]).
  do 2 eexists. split; [|exact Hs].
  rewrite (do_estep_spec categorical (checked (ex_h "log" "map") 3) 2 ex_pi ex_A (sym_ok 3) (cat_b ex_e)
             (ex_trainable "log" "map") [2; 1]%nat ex_x ex_good Hs).
  reflexivity.
Qed.

(** ** C14: mass conservation. *)
Lemma scorable_lik {P X St} (E : emclass P X St) h nc pi A ok b impl c : trainable E h nc pi A ok b ->
  c <> [] -> scorable nc pi A b impl c -> 0 < seq_lik nc pi A b c.
Proof.
  intros Tr Hne [[_ HL]|[_ Hu]]; [exact HL|]. apply no_underflow_seq in Hu; [|exact Hne].
  destruct (seq_nonempty c Hne) as [T HT]. unfold seq_lik. rewrite HT in *.
  replace (S T - 1)%nat with T in Hu by lia.
  exact (prefix_pos nc T pi A _ (tr_pos _ _ _ _ _ _ _ Tr) Hu (S T) (le_n _)).
Qed.

Lemma C14_mass_l {P X St} (E : emclass P X St) h nc pi A ok b ls x st lp :
  trainable E h nc pi A ok b -> good_data ok ls x ->
  (forall c, In c (chunks ls x) -> scorable nc pi A b (c_impl (h_cfg h)) c) ->
  do_estep E exact h (fvec nc pi) (fmat nc nc A) x (as_lengths ls) = Ok (st, lp) ->
  st_nobs st = length ls
  /\ (has "s" (c_params (h_cfg h)) = true ->
       exists f, st_start st = fvec nc f /\ nonneg1 nc f /\ sumn nc f = INR (length ls))
  /\ (has "t" (c_params (h_cfg h)) = true ->
       exists g, st_trans st = fmat nc nc g /\ nonneg2 nc nc g
         /\ sumn nc (fun i => sumn nc (g i)) = sumL (fun n => INR (n - 1)) ls).
Proof.
  intros Tr Hd Hs H. rewrite (do_estep_spec E h nc pi A ok b Tr ls x Hd Hs) in H.
  destruct (em_fold _ _ _ _ _ _ _ _) as [em|]; [|discriminate]. injection H as <- <-.
  assert (Hlen : length (chunks ls x) = length ls).
  { clear. revert x. induction ls as [|n l IH]; intros x; [reflexivity|]. simpl. rewrite IH. reflexivity. }
  destruct (good_data_chunks ok ls x Hd) as (_ & _ & Hch). rewrite Forall_forall in Hch.
  assert (HL : forall c, In c (chunks ls x) -> 0 < seq_lik nc pi A b c).
  { intros c Hc. apply (scorable_lik E h nc pi A ok b (c_impl (h_cfg h)) c Tr); [apply Hch|apply Hs]; exact Hc. }
  assert (HB : forall c, In c (chunks ls x) -> nonneg2 (length c) nc (obsB b c)).
  { intros c Hc. apply (obsB_nonneg ok); [apply (em_nonneg _ _ _ _ _ (tr_em _ _ _ _ _ _ _ Tr))|apply Hch; exact Hc]. }
  assert (Hpost : forall c t, In c (chunks ls x) -> (t < length c)%nat -> stochastic1 nc (seq_post nc pi A b c t)).
  { intros c t Hc Ht. specialize (HL c Hc). specialize (HB c Hc).
    destruct (seq_nonempty c (proj1 (Hch c Hc))) as [T HT]. unfold seq_post, seq_lik in *. rewrite HT in *.
    apply (posterior_dist nc T pi A (obsB b c) (tr_pos _ _ _ _ _ _ _ Tr) (tr_pi _ _ _ _ _ _ _ Tr)
               (tr_A _ _ _ _ _ _ _ Tr) HB t HL). lia. }
  assert (Hpos : forall c, In c (chunks ls x) -> (0 < length c)%nat).
  { intros c Hc. destruct (Hch c Hc) as [Hne _]. destruct c; [contradiction|simpl; lia]. }
  cbn [st_nobs st_start st_trans]. split; [exact Hlen|]. split; intros Hh.
  - exists (start_stat h nc pi A b (chunks ls x)). split; [reflexivity|]. unfold start_stat. rewrite Hh. split.
    + intros i Hi. apply sumL_nonneg. intros c Hc. apply Hpost; [exact Hc|apply Hpos; exact Hc|exact Hi].
    + rewrite <- (sumL_sumn_swap _ nc (fun c i => seq_post nc pi A b c 0 i)).
      rewrite (sumL_ext _ (fun _ => 1)); [rewrite sumL_const, Hlen; ring|].
      intros c Hc. apply Hpost; [exact Hc|apply Hpos; exact Hc].
  - exists (trans_stat h nc pi A b (chunks ls x)). split; [reflexivity|]. unfold trans_stat. rewrite Hh. split.
    + intros i j Hi Hj. apply sumL_nonneg. intros c Hc. unfold seq_trans.
      specialize (HL c Hc). specialize (HB c Hc). unfold seq_lik in HL.
      destruct (seq_nonempty c (proj1 (Hch c Hc))) as [T HT]. rewrite HT in *.
      apply (expected_trans_nonneg nc T pi A _ (tr_pi _ _ _ _ _ _ _ Tr) (tr_A _ _ _ _ _ _ _ Tr) HB HL); assumption.
    + transitivity (sumL (fun c => INR (length c - 1)) (chunks ls x)).
      * rewrite (sumn_ext nc _ (fun i => sumL (fun c => sumn nc (fun j => seq_trans nc pi A b c i j)) (chunks ls x)))
          by (intros; symmetry; apply sumL_sumn_swap).
        rewrite <- (sumL_sumn_swap _ nc (fun c i => sumn nc (fun j => seq_trans nc pi A b c i j))).
        apply sumL_ext. intros c Hc. unfold seq_trans.
        rewrite (sumn_ext nc _ (fun i => sumn (length c - 1) (fun t => posterior nc (length c) pi A (obsB b c) t i)))
          by (intros i Hi; apply expected_trans_row; [apply Hpos; exact Hc|exact Hi]).
        rewrite sumn_swap. rewrite (sumn_ext _ _ (fun _ => 1)); [rewrite sumn_const; ring|].
        intros t Ht. apply Hpost; [exact Hc|lia].
      * destruct Hd as [_ (_ & _ & Hsum)]. clear -Hsum. revert x Hsum.
        induction ls as [|n l IH]; intros x Hsum; [reflexivity|]. cbn [chunks sumL fold_right] in *.
        rewrite firstn_length_le by lia. rewrite IH by (rewrite skipn_length; lia). reflexivity.
Qed.

(** Occupancies: the emission counts of a CategoricalHMM sum to the number of
    samples. *)
Lemma C14_occupancy_l h nc nf pi A e ls x st lp :
  trainable categorical h nc pi A (sym_ok nf) (cat_b e) -> good_data (sym_ok nf) ls x ->
  h_nfeat h = Some nf -> has "e" (c_params (h_cfg h)) = true ->
  (forall c, In c (chunks ls x) -> scorable nc pi A (cat_b e) (c_impl (h_cfg h)) c) ->
  do_estep categorical exact h (fvec nc pi) (fmat nc nc A) x (as_lengths ls) = Ok (st, lp) ->
  exists o, st_em st = fmat nc nf o
    /\ (forall i k, (i < nc)%nat -> (k < nf)%nat ->
         o i k = sumL (fun c => sumn (length c) (fun t =>
                   if Z.eqb (nth t c 0%Z) (Z.of_nat k) then seq_post nc pi A (cat_b e) c t i else 0)) (chunks ls x))
    /\ sumn nc (fun i => sumn nf (o i)) = INR (length x).
Proof.
  intros Tr Hd Hnf He Hs H. rewrite (do_estep_spec categorical h nc pi A _ _ Tr ls x Hd Hs) in H.
  destruct (good_data_chunks (sym_ok nf) ls x Hd) as (Hne & _ & Hch). rewrite Forall_forall in Hch.
  rewrite em_fold_all in H. cbn [categorical ec_stats0] in H. unfold cat_stats0 in H.
  rewrite (tr_nc _ _ _ _ _ _ _ Tr), Hnf in H.
  change (mtab nc nf (fun _ _ => Fin 0)) with (fmat nc nf (fun _ _ => 0)) in H.
  set (l := map (fun c => (c, seq_post nc pi A (cat_b e) c)) (chunks ls x)) in *.
  assert (Hl : forall y g, In (y, g) l -> Forall (sym_ok nf) y).
  { intros y g Hy. apply in_map_iff in Hy as (c & Heq & Hc). injection Heq as -> _. apply Hch. exact Hc. }
  rewrite (cat_acc_all nc nf (h_cfg h) (Some nf) (h_em h) l (fun _ _ => 0) Hl) in H. cbn [bind] in H.
  injection H as <- <-. cbn [st_em]. rewrite He.
  exists (sym_count l). split; [apply fmat_ext; intros; ring|]. split.
  - intros i k _ _. unfold sym_count, l. rewrite sumL_map. reflexivity.
  - pose proof (sym_count_sum nc nf l (fun _ _ => 1) Hl) as Hc.
    rewrite (sumn_ext nc (fun i => sumn nf (sym_count l i)) (fun i => sumn nf (fun k => sym_count l i k * 1)))
      by (intros; apply sumn_ext; intros; ring).
    rewrite <- Hc. unfold l. rewrite sumL_map. cbn [fst snd].
    transitivity (sumL (fun c => INR (length c)) (chunks ls x)).
    + apply sumL_ext. intros c Hcc.
      rewrite (sumn_ext _ _ (fun _ => 1)); [rewrite sumn_const; ring|].
      intros t Ht. rewrite (sumn_ext _ _ (seq_post nc pi A (cat_b e) c t)) by (intros; ring).
      assert (HL : 0 < seq_lik nc pi A (cat_b e) c).
      { apply (scorable_lik categorical h nc pi A (sym_ok nf) (cat_b e) (c_impl (h_cfg h)) c Tr); [apply Hch|apply Hs]; exact Hcc. }
      assert (HB : nonneg2 (length c) nc (obsB (cat_b e) c)).
      { apply (obsB_nonneg (sym_ok nf)); [apply (em_nonneg _ _ _ _ _ (tr_em _ _ _ _ _ _ _ Tr))|apply Hch; exact Hcc]. }
      destruct (seq_nonempty c (proj1 (Hch c Hcc))) as [T HT]. unfold seq_post, seq_lik in *. rewrite HT in *.
      apply (posterior_dist nc T pi A (obsB (cat_b e) c) (tr_pos _ _ _ _ _ _ _ Tr) (tr_pi _ _ _ _ _ _ _ Tr)
               (tr_A _ _ _ _ _ _ _ Tr) HB t HL). lia.
    + destruct Hd as [_ (_ & _ & Hsum)]. rewrite <- Hsum. clear -Hsum. revert x Hsum.
      induction ls as [|n l IH]; intros x Hsum; [reflexivity|]. cbn [chunks sumL fold_right] in *.
      rewrite firstn_length_le by lia. rewrite IH by (rewrite skipn_length; lia). rewrite plus_INR. reflexivity.
Qed.

Lemma C14_applies_l : exists st lp,
  do_estep categorical exact (checked (ex_h "log" "map") 3) (fvec 2 ex_pi) (fmat 2 2 ex_A) ex_x (as_lengths [2; 1]%nat)
    = Ok (st, lp) /\ st_nobs st = 2%nat /\ has "e" (c_params (ex_cfg "log" "map")) = true.
Proof.
  destruct C13_applies_l as (st & lp & H & Hs). exists st, lp. split; [exact H|]. split; [|reflexivity].
  apply (C14_mass_l categorical (checked (ex_h "log" "map") 3) 2 ex_pi ex_A (sym_ok 3) (cat_b ex_e) [2; 1]%nat ex_x st lp
           (ex_trainable "log" "map") ex_good Hs H).
Qed.

(** ** C18 and C56: monotone training. *)
Lemma C56_map_objective_monotone_l h nc nf pi A e sp tp ep ls x h' ev :
  cat_model h nc nf pi A e -> cat_priors h nc nf sp tp ep ->
  sumn nc pi <= 1 -> (forall i, (i < nc)%nat -> sumn nc (A i) <= 1) -> (forall i, (i < nc)%nat -> sumn nf (e i) <= 1) ->
  (forall i k, (i < nc)%nat -> (k < nf)%nat -> 1 < ep i k -> 0 < e i k) ->
  good_data (sym_ok nf) ls x -> possible nc pi A (cat_b e) ls x ->
  fit_from categorical exact h x (as_lengths ls) = Ok (h', ev) ->
  exists (pis : nat -> nat -> R) (As es : nat -> nat -> nat -> R),
    let k := length (m_history (h_mon h')) in
    pis 0%nat = pi /\ As 0%nat = A /\ (forall i s, (i < nc)%nat -> (s < nf)%nat -> es 0%nat i s = e i s)
    /\ h_start h' = Some (fvec nc (pis k)) /\ h_trans h' = Some (fmat nc nc (As k))
    /\ cat_prob (h_em h') = Some (fmat nc nf (es k))
    /\ (forall j, (j < k)%nat ->
          nth j (m_history (h_mon h')) NaN = Fin (data_loglik nc (pis j) (As j) (cat_b (es j)) ls x))
    /\ forall j, (j < k)%nat ->
         data_loglik nc (pis j) (As j) (cat_b (es j)) ls x + log_dirichlet nc sp (pis j)
           + sumn nc (fun i => log_dirichlet nc (tp i) (As j i)) + sumn nc (fun i => log_dirichlet nf (ep i) (es j i))
         <= data_loglik nc (pis (S j)) (As (S j)) (cat_b (es (S j))) ls x + log_dirichlet nc sp (pis (S j))
           + sumn nc (fun i => log_dirichlet nc (tp i) (As (S j) i))
           + sumn nc (fun i => log_dirichlet nf (ep i) (es (S j) i)).
Proof.
  intros CM CP Hp1 HA1 He1 Hstr Hd Hpos Hf.
  destruct (cat_fit_run true h nc nf pi A e sp tp ep ls x h' ev CM CP Hd Hpos (fun _ => He1)
              (fun _ _ => Hstr) Hf) as (h2 & hs & pis & As & E1 & E2 & Rn & Hh').
  exists pis, As, (fun j => cat_e (h_em (hs j))). cbv zeta.
  set (k := length (m_history (h_mon h'))) in *.
  assert (Hk : hs k = h2) by apply Rn.
  pose proof (rn_st _ _ _ _ _ _ _ _ _ _ _ _ _ _ _ _ _ Rn k (le_n _)) as TSk. rewrite Hk in TSk.
  assert (Hp2 : h_start h' = h_start h2 /\ h_trans h' = h_trans h2 /\ h_em h' = h_em h2) by (rewrite Hh'; auto).
  destruct Hp2 as (P1 & P2 & P3). rewrite P1, P2, P3, Hk.
  split; [exact E1|]. split; [exact E2|]. split.
  { rewrite (rn_0 _ _ _ _ _ _ _ _ _ _ _ _ _ _ _ _ _ Rn).
    apply (cat_good_init true h nc nf pi A e sp tp ep CM CP (fun _ => He1) (fun _ _ => Hstr)). }
  split; [apply TSk|]. split; [apply TSk|]. split; [apply (ts_good _ _ _ _ _ _ _ _ _ TSk)|].
  split; [intros j Hj; apply (rn_val _ _ _ _ _ _ _ _ _ _ _ _ _ _ _ _ _ Rn j Hj)|].
  assert (Hss : sub_stoch nc (pis 0%nat) (As 0%nat)) by (rewrite E1, E2; split; assumption).
  intros j Hj. destruct (rn_gain _ _ _ _ _ _ _ _ _ _ _ _ _ _ _ _ _ Rn Hss j Hj) as [_ Hg].
  specialize (Hg _ _ (cat_improves nc nf ep (cp_e _ _ _ _ _ _ CP)) I).
  unfold loglik_sum, penalty, dir_pen, cat_pen in Hg. unfold data_loglik, log_dirichlet, cat_bp in *. lra.
Qed.

Lemma C18_history_monotone_l h nc nf pi A e ls x h' ev :
  cat_model h nc nf pi A e -> flat_priors h ->
  sumn nc pi <= 1 -> (forall i, (i < nc)%nat -> sumn nc (A i) <= 1) -> (forall i, (i < nc)%nat -> sumn nf (e i) <= 1) ->
  good_data (sym_ok nf) ls x -> possible nc pi A (cat_b e) ls x ->
  fit_from categorical exact h x (as_lengths ls) = Ok (h', ev) ->
  (exists vs : list R, m_history (h_mon h') = map Fin vs
     /\ forall i j, (i <= j)%nat -> (j < length vs)%nat -> nth i vs 0 <= nth j vs 0)
  /\ ~ In WNotConverging ev.
Proof.
  intros CM HF Hp1 HA1 He1 Hd Hpos Hf.
  destruct (C56_map_objective_monotone_l h nc nf pi A e _ _ _ ls x h' ev CM (flat_cat_priors h nc nf HF) Hp1 HA1 He1)
    as (pis & As & es & _ & _ & _ & _ & _ & _ & Hv & Hg); try assumption; [intros; lra|].
  set (k := length (m_history (h_mon h'))) in *.
  set (L := fun j => data_loglik nc (pis j) (As j) (cat_b (es j)) ls x) in *.
  assert (Hz : forall n (p : nat -> R), log_dirichlet n (fun _ => 1) p = 0)
    by (intros; unfold log_dirichlet; apply sumn_zero; intros; ring).
  assert (HL : forall j, (S j < k)%nat -> L j <= L (S j)).
  { intros j Hj. specialize (Hg j ltac:(lia)). rewrite !Hz in Hg.
    rewrite !(sumn_zero nc) in Hg by (intros; apply Hz). unfold L. lra. }
  apply (monotone_history categorical h x (as_lengths ls) h' ev L Hf Hv HL).
Qed.

(** [lengths=None] is one sequence. *)
Lemma fit_None {P X St} (E : emclass P X St) fp h x :
  fit_from E fp h x None = fit_from E fp h x (as_lengths [length x]).
Proof. reflexivity. Qed.

(** Training from a usable model with the log implementation always returns. *)
Lemma C18_fit_succeeds_l h nc nf pi A e sp tp ep ls x : cat_model h nc nf pi A e ->
  cat_priors h nc nf sp tp ep -> good_data (sym_ok nf) ls x -> possible nc pi A (cat_b e) ls x ->
  c_impl (h_cfg h) = "log"%string ->
  exists h' ev, fit_from categorical exact h x (as_lengths ls) = Ok (h', ev).
Proof.
  intros CM CP Hd Hp Hi. destruct (cat_fit_log_ok h nc nf pi A e sp tp ep ls x CM CP Hd Hp Hi) as [[h' ev] H].
  exists h', ev. exact H.
Qed.

Lemma ex_flat impl alg : flat_priors (ex_h impl alg).
Proof. repeat split. Qed.

Lemma C18_applies_l : exists h' ev,
  fit_from categorical exact (ex_h "log" "map") ex_x (as_lengths [2; 1]%nat) = Ok (h', ev)
  /\ ~ In WNotConverging ev.
Proof.
  destruct (C18_fit_succeeds_l (ex_h "log" "map") 2 3 ex_pi ex_A ex_e _ _ _ [2; 1]%nat ex_x (ex_model _ _)
              (flat_cat_priors _ 2 3 (ex_flat _ _)) ex_good ex_possible eq_refl) as (h' & ev & H).
  exists h', ev. split; [exact H|].
  apply (C18_history_monotone_l (ex_h "log" "map") 2 3 ex_pi ex_A ex_e [2; 1]%nat ex_x h' ev (ex_model _ _) (ex_flat _ _)).
  - rewrite ex_pi_sum. lra.
  - intros i Hi. rewrite ex_A_sum by exact Hi. lra.
  - intros i Hi. rewrite ex_e_sum by exact Hi. lra.
  - exact ex_good.
  - exact ex_possible.
  - exact H.
Qed.

(** A model with prior 2 everywhere on start and transition probabilities. *)
Definition ex_h2 : hmm catp :=
  Hmm (Cfg 2 "ste" "ste" "map" "log" 10 (Fin (/ 100)) false (Scal (Fin 2)) (Scal (Fin 2))) None
      (Some (fvec 2 ex_pi)) (Some (fmat 2 2 ex_A)) (Monitor (Fin (/ 100)) 10 false [] 0)
      (Catp (Scal (Fin 1)) (Some (fmat 2 3 ex_e))).
Lemma C56_applies_l :
  cat_model ex_h2 2 3 ex_pi ex_A ex_e
  /\ cat_priors ex_h2 2 3 (fun _ => 2) (fun _ _ => 2) (fun _ _ => 1)
  /\ exists h' ev, fit_from categorical exact ex_h2 ex_x (as_lengths [2; 1]%nat) = Ok (h', ev).
Proof.
  assert (CM : cat_model ex_h2 2 3 ex_pi ex_A ex_e).
  { destruct (ex_model "log" "map"). constructor; try assumption; reflexivity. }
  assert (CP : cat_priors ex_h2 2 3 (fun _ => 2) (fun _ _ => 2) (fun _ _ => 1)).
  { constructor; try (intros; lra); [split; intros; reflexivity|intros i k _ _; reflexivity]. }
  split; [exact CM|]. split; [exact CP|].
  apply (C18_fit_succeeds_l ex_h2 2 3 ex_pi ex_A ex_e _ _ _ [2; 1]%nat ex_x CM CP ex_good ex_possible eq_refl).
Qed.

(** ** C19: parameters stay stochastic. *)
Lemma mstep_start_clipped {P St} (h : hmm P) nc pi sp f (st : @stats St) :
  c_nc (h_cfg h) = nc -> (forall i, (i < nc)%nat -> pget1 (c_sprior (h_cfg h)) i = Fin (sp i)) ->
  has "s" (c_params (h_cfg h)) = true -> st_start st = fvec nc f ->
  sumn nc (map_weight pi sp f) = 0 ->
  mstep_start exact h (fvec nc pi) st = tab nc (fun _ => NaN).
Proof.
  intros Hnc Hp Hh Hf Hs. unfold mstep_start. rewrite Hh, Hnc.
  assert (Hz : forall i, (i < nc)%nat -> map_weight pi sp f i = 0)
    by (apply sumn_eq0; [apply map_weight_nonneg|exact Hs]).
  assert (Ht : tab nc (fun i => if xeqb (vget (fvec nc pi) i) (Fin 0) then Fin 0
        else np_maximum (xadd exact (xsub exact (pget1 (c_sprior (h_cfg h)) i) (Fin 1)) (vget (st_start st) i)) (Fin 0))
     = fvec nc (fun _ => 0)).
  { apply tab_ext. intros i Hi. rewrite Hf, !vget_fvec, Hp by assumption. rewrite map_weight_x.
    change (map_weight (fun _ => pi i) (fun _ => sp i) (fun _ => f i) 0) with (map_weight pi sp f i).
    rewrite Hz by exact Hi. reflexivity. }
  rewrite Ht. unfold normalize1. rewrite xsum_fvec, sumn_zero by reflexivity.
  unfold fvec. rewrite tab_map. apply tab_ext. intros i Hi. cbn [xdiv].
  destruct (Req_EM_T 0 0); [|lra]. destruct (Rlt_dec 0 0); [lra|reflexivity].
Qed.

(** Any finite statistics and priors, any emission class: the new [startprob_]
    is a distribution unless every start weight is clipped to 0, in which case
    it is all NaN; every row of the new [transmat_] is a distribution or zero. *)
Lemma C19_mstep_l {P X St} (E : emclass P X St) h nc pi A sp tp f g st h' :
  c_nc (h_cfg h) = nc -> priors (h_cfg h) nc sp tp ->
  st_start st = fvec nc f -> st_trans st = fmat nc nc g ->
  do_mstep E exact h (fvec nc pi) (fmat nc nc A) st = Ok h' ->
  (has "s" (c_params (h_cfg h)) = true ->
     ((exists i, (i < nc)%nat /\ pi i <> 0 /\ 0 < sp i - 1 + f i)
        /\ exists pi', h_start h' = Some (fvec nc pi') /\ stochastic1 nc pi')
     \/ ((forall i, (i < nc)%nat -> pi i <> 0 -> sp i - 1 + f i <= 0)
        /\ h_start h' = Some (tab nc (fun _ => NaN))))
  /\ (has "t" (c_params (h_cfg h)) = true ->
     exists A', h_trans h' = Some (fmat nc nc A') /\ forall i, (i < nc)%nat -> stoch_or_zero nc (A' i)).
Proof.
  intros Hnc [Hp1 Hp2] Hs Ht H. unfold do_mstep in H.
  destruct (ec_mstep _ _ _ _ _ _) as [em|]; [|discriminate]. cbn [bind] in H. injection H as <-.
  cbn [h_start h_trans]. split; intros Hh.
  - destruct (Req_EM_T (sumn nc (map_weight pi sp f)) 0) as [E0|E0].
    + right. split.
      * intros i Hi Hn. pose proof (sumn_eq0 nc _ (map_weight_nonneg nc pi sp f) E0 i Hi) as Hw.
        unfold map_weight in Hw. destruct (Req_EM_T (pi i) 0); [contradiction|].
        pose proof (Rmax_l (sp i - 1 + f i) 0). lra.
      * f_equal. apply (mstep_start_clipped h nc pi sp f); assumption.
    + left. split.
      * pose proof (sumn_nonneg nc _ (map_weight_nonneg nc pi sp f)) as Hn.
        assert (Hpos : 0 < sumn nc (map_weight pi sp f)) by lra.
        apply sumn_pos_ex in Hpos as (i & Hi & Hw). exists i. split; [exact Hi|].
        unfold map_weight in Hw. destruct (Req_EM_T (pi i) 0) as [|Hpi]; [lra|]. split; [exact Hpi|].
        destruct (Rle_dec (sp i - 1 + f i) 0) as [Hle|]; [rewrite Rmax_right in Hw by exact Hle|]; lra.
      * exists (normalised nc (map_weight pi sp f)). split.
        { f_equal. rewrite (mstep_start_spec h nc pi sp f) by auto. rewrite Hh. reflexivity. }
        split; [apply normalised_nonneg, map_weight_nonneg|apply normalised_sum; exact E0].
  - eexists. split.
    + f_equal. apply (mstep_trans_spec h nc A tp g); auto.
    + intros i Hi. cbv beta. rewrite Hh. apply normalised_stoch_or_zero, map_weight_nonneg.
Qed.

(** The same for the emission rows of a CategoricalHMM. *)
Lemma C19_mstep_categorical_l c nfe p nc nf ep f p' :
  has "e" (c_params c) = true ->
  (forall i k, (i < nc)%nat -> (k < nf)%nat -> pget2 (cat_prior p) i k = Fin (ep i k)) ->
  ec_mstep categorical exact c nfe p (fmat nc nf f) = Ok p' ->
  exists e', cat_prob p' = Some (fmat nc nf e') /\ forall i, (i < nc)%nat -> stoch_or_zero nf (e' i).
Proof.
  intros He Hp H. cbn [categorical ec_mstep] in H. rewrite (cat_mstep_spec nc nf c nfe p ep f He Hp) in H.
  injection H as <-. eexists. split; [reflexivity|]. intros i Hi. cbv beta. apply normalised_stoch_or_zero. intros k _. apply Rmax_r.
Qed.

(** Whole training runs, priors at least 1. *)
Lemma C19_fit_l h nc nf pi A e sp tp ep ls x h' ev :
  cat_model h nc nf pi A e -> cat_priors h nc nf sp tp ep ->
  good_data (sym_ok nf) ls x -> possible nc pi A (cat_b e) ls x -> (0 < c_n_iter (h_cfg h))%nat ->
  fit_from categorical exact h x (as_lengths ls) = Ok (h', ev) ->
  exists pi' A' e', h_start h' = Some (fvec nc pi') /\ h_trans h' = Some (fmat nc nc A')
    /\ cat_prob (h_em h') = Some (fmat nc nf e')
    /\ (has "s" (c_params (h_cfg h)) = true -> stochastic1 nc pi')
    /\ (has "t" (c_params (h_cfg h)) = true -> forall i, (i < nc)%nat -> stoch_or_zero nc (A' i))
    /\ (has "e" (c_params (h_cfg h)) = true -> forall i, (i < nc)%nat -> stoch_or_zero nf (e' i))
    /\ (forall i, (i < nc)%nat -> pi i = 0 -> pi' i = 0)
    /\ (forall i j, (i < nc)%nat -> (j < nc)%nat -> A i j = 0 -> A' i j = 0).
Proof.
  intros CM CP Hd Hpos Hn Hf.
  assert (Hk : m_history (h_mon h') <> []).
  { destruct (fit_from_trace _ _ _ _ _ _ _ Hf) as (h1 & h2 & vs & Hc & Hi & Hh' & El).
    destruct (fit_loop_trace _ _ _ _ _ _ _ _ _ El) as (vs' & _ & Hm & _ & Hlen & _).
    assert (vs' = vs) by (unfold mon_after in Hm; cbn [monitor_reset m_history app] in Hm; injection Hm; auto). subst vs'.
    rewrite Hh'. cbn [h_mon mon_after monitor_reset m_history app].
    rewrite (cat_model_check h nc nf pi A e CM) in Hc. injection Hc as <-.
    destruct Hlen as [Hlen|[_ Hlen]]; [|exact Hlen]. cbn [checked h_cfg] in Hlen. intros ->. simpl in Hlen. lia. }
  destruct (cat_fit_run false h nc nf pi A e sp tp ep ls x h' ev CM CP Hd Hpos) as (h2 & hs & pis & As & E1 & E2 & Rn & Hh');
    try (intros; discriminate); try assumption.
  set (k := length (m_history (h_mon h'))) in *.
  assert (Hkk : hs k = h2) by apply Rn.
  pose proof (rn_st _ _ _ _ _ _ _ _ _ _ _ _ _ _ _ _ _ Rn k (le_n _)) as TSk. rewrite Hkk in TSk.
  assert (Hp2 : h_start h' = h_start h2 /\ h_trans h' = h_trans h2 /\ h_em h' = h_em h2) by (rewrite Hh'; auto).
  destruct Hp2 as (P1 & P2 & P3). exists (pis k), (As k), (cat_e (h_em h2)). rewrite P1, P2, P3.
  split; [apply TSk|]. split; [apply TSk|]. split; [apply (ts_good _ _ _ _ _ _ _ _ _ TSk)|].
  assert (Hk1 : exists k0, k = S k0).
  { unfold k. destruct (m_history (h_mon h')); [contradiction|eexists; reflexivity]. }
  destruct Hk1 as [k0 Ek]. assert (Hk0 : (k0 < k)%nat) by lia.
  destruct (rn_cfg _ _ _ _ _ _ _ _ _ _ _ _ _ _ _ _ _ Rn k0 ltac:(lia)) as (C1 & C2 & C3).
  pose proof (rn_st _ _ _ _ _ _ _ _ _ _ _ _ _ _ _ _ _ Rn k0 ltac:(lia)) as TS0.
  assert (Hcfg : h_cfg (hs k0) = h_cfg h) by (rewrite C1; reflexivity).
  assert (Hsc := em_step_scorable categorical nc (sym_ok nf) _ cat_bp false (cat_trains nc nf ep (cp_e _ _ _ _ _ _ CP) false) ls x Hd
                   (hs k0) (pis k0) (As k0) _ TS0 (rn_step _ _ _ _ _ _ _ _ _ _ _ _ _ _ _ _ _ Rn k0 Hk0)).
  split; [|split; [|split; [|split]]].
  - intros Hs. rewrite Ek, (rn_pi _ _ _ _ _ _ _ _ _ _ _ _ _ _ _ _ _ Rn k0 Hk0).
    unfold new_pi. rewrite Hcfg, Hs.
    split; [apply normalised_nonneg, map_weight_nonneg|apply normalised_sum].
    apply Rgt_not_eq. apply (start_weights_pos categorical nc (sym_ok nf) (cat_good nc nf ep false) cat_bp false (cat_trains nc nf ep (cp_e _ _ _ _ _ _ CP) false) ls x Hd).
    + exact TS0.
    + apply CP.
  - intros Ht i Hi. rewrite Ek, (rn_A _ _ _ _ _ _ _ _ _ _ _ _ _ _ _ _ _ Rn k0 Hk0).
    unfold new_A. rewrite Hcfg, Ht. apply normalised_stoch_or_zero, map_weight_nonneg.
  - intros He i Hi.
    pose proof (rn_step _ _ _ _ _ _ _ _ _ _ _ _ _ _ _ _ _ Rn k0 Hk0) as Hstep. rewrite <- Ek, Hkk in Hstep.
    unfold em_step in Hstep. rewrite (ts_start _ _ _ _ _ _ _ _ _ TS0), (ts_trans _ _ _ _ _ _ _ _ _ TS0) in Hstep.
    pose proof (tstate_trainable categorical nc (sym_ok nf) _ cat_bp false (cat_trains nc nf ep (cp_e _ _ _ _ _ _ CP) false) ls x _ _ _ TS0) as Tr.
    rewrite (do_estep_spec categorical (hs k0) nc (pis k0) (As k0) _ _ Tr ls x Hd Hsc) in Hstep.
    rewrite em_fold_all in Hstep. cbn [categorical ec_stats0] in Hstep. unfold cat_stats0 in Hstep.
    rewrite (ts_nc _ _ _ _ _ _ _ _ _ TS0), C2 in Hstep. cbn [checked h_nfeat] in Hstep.
    change (mtab nc nf (fun _ _ => Fin 0)) with (fmat nc nf (fun _ _ => 0)) in Hstep.
    rewrite (cat_acc_all nc nf) in Hstep.
    2:{ intros y g Hy. apply in_map_iff in Hy as (c & Heq & Hc). injection Heq as -> _.
        destruct (good_data_chunks (sym_ok nf) ls x Hd) as (_ & _ & Hch). rewrite Forall_forall in Hch. apply Hch. exact Hc. }
    cbn [bind] in Hstep. unfold do_mstep in Hstep. cbn [st_em] in Hstep.
    destruct (ec_mstep _ _ _ _ _ _) as [em|] eqn:Em; [|discriminate]. cbn [bind] in Hstep. injection Hstep as Hstep _.
    rewrite <- Hstep. cbn [h_em].
    assert (He2 : has "e" (c_params (h_cfg (hs k0))) = true) by (rewrite Hcfg; exact He).
    assert (Hep2 := cg_prior _ _ _ _ _ _ _ (ts_good _ _ _ _ _ _ _ _ _ TS0)).
    destruct (C19_mstep_categorical_l _ _ _ nc nf ep _ em He2 Hep2 Em) as (e' & He' & Hst).
    { destruct em as [pr em]. cbn [cat_prob] in He'. subst em.
      assert (Hext : forall s, (s < nf)%nat -> cat_e (Catp pr (Some (fmat nc nf e'))) i s = e' i s)
        by (intros s Hs; apply cat_e_fmat; assumption).
      destruct (Hst i Hi) as [Hnn Hor]. split.
      * intros s Hs. rewrite Hext by exact Hs. apply Hnn. exact Hs.
      * destruct Hor as [Hor|Hor]; [left|right].
        { rewrite (sumn_ext _ _ (e' i)) by exact Hext. exact Hor. }
        { intros s Hs. rewrite Hext by exact Hs. apply Hor. exact Hs. } }
  - assert (Hz : forall j, (j <= k)%nat -> forall i, (i < nc)%nat -> pi i = 0 -> pis j i = 0).
    { induction j as [|j IH]; intros Hj i Hi H0; [rewrite E1; exact H0|].
      rewrite (rn_pi _ _ _ _ _ _ _ _ _ _ _ _ _ _ _ _ _ Rn j) by lia. unfold new_pi.
      specialize (IH ltac:(lia) i Hi H0). destruct (has "s" _); [|exact IH].
      unfold normalised. assert (Hw : map_weight (pis j) sp (cnt_start nc cat_bp ls x (hs j) (pis j) (As j)) i = 0)
        by (unfold map_weight; destruct (Req_EM_T (pis j i) 0); [reflexivity|contradiction]).
      destruct (Req_EM_T _ 0); rewrite Hw; [reflexivity|unfold Rdiv; ring]. }
    apply Hz. lia.
  - assert (Hz : forall j, (j <= k)%nat -> forall i s, (i < nc)%nat -> (s < nc)%nat -> A i s = 0 -> As j i s = 0).
    { induction j as [|j IH]; intros Hj i s Hi Hs H0; [rewrite E2; exact H0|].
      rewrite (rn_A _ _ _ _ _ _ _ _ _ _ _ _ _ _ _ _ _ Rn j) by lia. unfold new_A.
      specialize (IH ltac:(lia) i s Hi Hs H0). destruct (has "t" _); [|exact IH].
      unfold normalised. assert (Hw : map_weight (As j i) (tp i) (cnt_trans nc cat_bp ls x (hs j) (pis j) (As j) i) s = 0)
        by (unfold map_weight; destruct (Req_EM_T (As j i s) 0); [reflexivity|contradiction]).
      destruct (Req_EM_T _ 0); rewrite Hw; [reflexivity|unfold Rdiv; ring]. }
    apply Hz. lia.
Qed.

(** With [startprob_prior = 0] (any value below 1 with enough states), one
    sequence and one iteration leave [startprob_] all NaN. *)
Lemma C19_startprob_refuted_l h nc nf pi A e x : cat_model h nc nf pi A e ->
  c_sprior (h_cfg h) = Scal (Fin 0) -> c_tprior (h_cfg h) = Scal (Fin 1) ->
  has "s" (c_params (h_cfg h)) = true -> c_impl (h_cfg h) = "log"%string -> c_n_iter (h_cfg h) = 1%nat ->
  x <> [] -> Forall (sym_ok nf) x -> 0 < seq_lik nc pi A (cat_b e) x ->
  exists h' ev, fit_from categorical exact h x None = Ok (h', ev) /\ h_start h' = Some (tab nc (fun _ => NaN)).
Proof.
  intros CM Hsp Htp Hs Hi Hn Hx Hok HL.
  assert (Hd : good_data (sym_ok nf) [length x] x).
  { split; [exact Hok|]. split; [discriminate|]. split; [|simpl; lia].
    repeat constructor. destruct x; [contradiction|simpl; lia]. }
  assert (Hch : chunks [length x] x = [x]) by (simpl; rewrite firstn_all; reflexivity).
  assert (Tr : trainable categorical (checked h nf) nc pi A (sym_ok nf) (cat_b e)).
  { constructor; try (apply CM). pose proof (cm_em _ _ _ _ _ _ CM) as He. unfold checked.
    destruct (h_em h) as [pr em]. cbn [cat_prob] in He. subst em. apply cat_emits; apply CM. }
  rewrite fit_None. unfold fit_from. rewrite (cat_model_check h nc nf pi A e CM). cbn [bind].
  cbn [checked h_cfg h_mon]. fold (checked h nf). rewrite Hn. cbn [fit_loop as_lengths].
  assert (Hsc : forall c, In c (chunks [length x] x) -> scorable nc pi A (cat_b e) (c_impl (h_cfg (checked h nf))) c).
  { rewrite Hch. intros c [<-|[]]. left. split; [exact Hi|exact HL]. }
  unfold em_step. rewrite (tr_start _ _ _ _ _ _ _ Tr), (tr_trans _ _ _ _ _ _ _ Tr).
  change (Some (map Z.of_nat [length x])) with (as_lengths [length x]).
  rewrite (do_estep_spec categorical (checked h nf) nc pi A _ _ Tr [length x] x Hd Hsc). rewrite em_fold_all.
  cbn [categorical ec_stats0 checked h_cfg h_nfeat h_em]. unfold cat_stats0. rewrite (cm_nc _ _ _ _ _ _ CM).
  change (mtab nc nf (fun _ _ => Fin 0)) with (fmat nc nf (fun _ _ => 0)).
  fold categorical. rewrite (cat_acc_all nc nf).
  2:{ intros y g Hy. apply in_map_iff in Hy as (c & Heq & Hc). injection Heq as -> _. rewrite Hch in Hc.
      destruct Hc as [<-|[]]. exact Hok. }
  cbn [bind]. fold (checked h nf). unfold do_mstep. cbn [st_em].
  assert (Hm : exists em, ec_mstep categorical exact (h_cfg (checked h nf)) (h_nfeat (checked h nf)) (h_em (checked h nf))
     (fmat nc nf (fun i k => if has "e" (c_params (h_cfg h)) then 0 + sym_count (map (fun c => (c, seq_post nc pi A (cat_b e) c)) (chunks [length x] x)) i k else 0)) = Ok em).
  { cbn [categorical ec_mstep]. unfold cat_mstep. destruct (has "e" _); eexists; reflexivity. }
  destruct Hm as [em Hm]. rewrite Hm. cbn [bind].
  match goal with |- context [mstep_start exact ?hh (fvec nc pi) ?st] =>
    assert (Hst : mstep_start exact hh (fvec nc pi) st = tab nc (fun _ => NaN)) end.
  { apply (mstep_start_clipped _ nc pi (fun _ => 0) (start_stat (checked h nf) nc pi A (cat_b e) (chunks [length x] x))).
    - apply CM.
    - intros i _. cbn [checked h_cfg]. rewrite Hsp. reflexivity.
    - exact Hs.
    - reflexivity.
    - apply sumn_zero. intros i Hi'. unfold map_weight. destruct (Req_EM_T (pi i) 0); [reflexivity|].
      apply Rmax_right. unfold start_stat. cbn [checked h_cfg]. rewrite Hs, Hch. cbn [sumL].
      destruct (seq_nonempty x Hx) as [T HT]. unfold seq_post, seq_lik in *.
      pose proof (obsB_nonneg (sym_ok nf) (cat_b e) nc x (em_nonneg _ _ _ _ _ (tr_em _ _ _ _ _ _ _ Tr)) Hok) as HB.
      rewrite HT in *.
      destruct (posterior_dist nc T pi A (obsB (cat_b e) x) (tr_pos _ _ _ _ _ _ _ Tr) (tr_pi _ _ _ _ _ _ _ Tr)
               (tr_A _ _ _ _ _ _ _ Tr) HB 0%nat HL ltac:(lia)) as [Hnn Hsum].
      assert (posterior nc (S T) pi A (obsB (cat_b e) x) 0 i <= 1).
      { rewrite <- Hsum. apply (sumn_ge_term nc (posterior nc (S T) pi A (obsB (cat_b e) x) 0) i); assumption. }
      lra. }
  rewrite Hst. destruct (monitor_report exact _ _) as [m1 ev1].
  destruct (converged exact m1); cbn [bind]; do 2 eexists; split; reflexivity.
Qed.

(** The same model as in the other examples, except for the prior. *)
Definition ex_h0 : hmm catp :=
  Hmm (Cfg 2 "ste" "ste" "map" "log" 1 (Fin (/ 100)) false (Scal (Fin 0)) (Scal (Fin 1))) None
      (Some (fvec 2 ex_pi)) (Some (fmat 2 2 ex_A)) (Monitor (Fin (/ 100)) 1 false [] 0)
      (Catp (Scal (Fin 1)) (Some (fmat 2 3 ex_e))).
Lemma C19_refuted_applies_l : exists h' ev,
  fit_from categorical exact ex_h0 ex_x None = Ok (h', ev) /\ h_start h' = Some [NaN; NaN].
Proof.
  apply (C19_startprob_refuted_l ex_h0 2 3 ex_pi ex_A ex_e ex_x); try reflexivity.
  - destruct (ex_model "log" "map"). constructor; try assumption; reflexivity.
  - discriminate.
  - exact ex_x_ok.
  - rewrite ex_lik. lra.
Qed.

Lemma C19_applies_l : exists h' ev,
  fit_from categorical exact (ex_h "log" "map") ex_x (as_lengths [2; 1]%nat) = Ok (h', ev)
  /\ exists pi' A', h_start h' = Some (fvec 2 pi') /\ stochastic1 2 pi'
       /\ h_trans h' = Some (fmat 2 2 A') /\ A' 1%nat 0%nat = 0.
Proof.
  destruct C18_applies_l as (h' & ev & H & _). exists h', ev. split; [exact H|].
  destruct (C19_fit_l (ex_h "log" "map") 2 3 ex_pi ex_A ex_e _ _ _ [2; 1]%nat ex_x h' ev (ex_model _ _)
              (flat_cat_priors _ 2 3 (ex_flat _ _)) ex_good ex_possible) as (pi' & A' & e' & H1 & H2 & _ & H3 & _ & _ & _ & H4);
    [cbn; lia|exact H|].
  exists pi', A'. split; [exact H1|]. split; [apply H3; reflexivity|]. split; [exact H2|]. apply H4; [lia|lia|reflexivity].
Qed.

(** ** C20: structural zeros.  Any emission class, any rounding that keeps 0. *)
Lemma xdiv_0 fp s : fp 0 = Fin 0 -> xdiv fp (Fin 0) s = Fin 0 \/ xdiv fp (Fin 0) s = NaN.
Proof.
  intros H. destruct s as [r| | |]; cbn [xdiv]; auto.
  destruct (Req_EM_T r 0).
  - destruct (Rlt_dec 0 0); [lra|]. auto.
  - left. unfold Rdiv. rewrite Rmult_0_l. exact H.
Qed.

Lemma C20_step_l {P X St} (E : emclass P X St) fp x lengths h h' v nc : fp 0 = Fin 0 ->
  c_nc (h_cfg h) = nc -> em_step E fp x lengths h = Ok (h', v) ->
  exists s t s' t', h_start h = Some s /\ h_trans h = Some t /\ h_start h' = Some s' /\ h_trans h' = Some t'
    /\ (forall i, (i < nc)%nat -> vget s i = Fin 0 -> vget s' i = Fin 0 \/ vget s' i = NaN)
    /\ (forall i j, (i < nc)%nat -> (j < nc)%nat -> mget t i j = Fin 0 -> mget t' i j = Fin 0 \/ mget t' i j = NaN).
Proof.
  intros H0 Hnc H. unfold em_step in H.
  destruct (h_start h) as [s|]; [|discriminate]. destruct (h_trans h) as [t|]; [|discriminate].
  destruct (do_estep _ _ _ _ _ _ _) as [[st lp]|]; [|discriminate]. cbn [bind] in H.
  unfold do_mstep in H. destruct (ec_mstep _ _ _ _ _ _) as [em|]; [|discriminate]. cbn [bind] in H.
  injection H as <- <-. cbn [h_start h_trans].
  do 4 eexists. split; [reflexivity|]. split; [reflexivity|]. split; [reflexivity|]. split; [reflexivity|].
  assert (Hq : forall u w, u = Fin 0 -> (if xeqb u (Fin 0) then Fin 0 else w) = Fin 0).
  { intros u w ->. cbn [xeqb]. unfold Reqb. destruct (Req_EM_T 0 0); [reflexivity|lra]. }
  split.
  - intros i Hi Hz. unfold mstep_start. destruct (has "s" _); [|left; exact Hz].
    unfold normalize1. rewrite tab_map. unfold vget at 1. rewrite Hnc, tab_nth by exact Hi.
    rewrite Hq by exact Hz. rewrite vget_tab by exact Hi. rewrite Hq by exact Hz. apply xdiv_0. exact H0.
  - intros i j Hi Hj Hz. unfold mstep_trans. destruct (has "t" _); [|left; exact Hz].
    rewrite Hnc.
    match goal with |- mget (normalize_rows fp (mtab nc nc ?f)) i j = _ \/ _ =>
      assert (He : exists s0, mget (normalize_rows fp (mtab nc nc f)) i j = xdiv fp (Fin 0) s0) end.
    { unfold normalize_rows, mtab. cbn [ncol rows]. unfold mget at 1. cbn [rows].
      rewrite tab_map, tab_nth by exact Hi. unfold normalize_row. rewrite tab_map, tab_nth by exact Hj.
      rewrite Hq by exact Hz. eexists. reflexivity. }
    destruct He as [s0 ->]. apply xdiv_0. exact H0.
Qed.

(** Whole runs, any class and rounding: a zero stays zero as long as no
    iteration turns it into NaN. *)
Lemma C20_run_l {P X St} (E : emclass P X St) fp x lengths nc : fp 0 = Fin 0 ->
  forall k h h' vs s t, c_nc (h_cfg h) = nc -> h_start h = Some s -> h_trans h = Some t ->
  iterate (em_step E fp x lengths) k h = Ok (h', vs) ->
  exists s' t', h_start h' = Some s' /\ h_trans h' = Some t'
    /\ (forall i, (i < nc)%nat -> vget s i = Fin 0 ->
          (forall j hj vj sj, (j <= k)%nat -> iterate (em_step E fp x lengths) j h = Ok (hj, vj) ->
             h_start hj = Some sj -> vget sj i <> NaN) -> vget s' i = Fin 0)
    /\ (forall i i', (i < nc)%nat -> (i' < nc)%nat -> mget t i i' = Fin 0 ->
          (forall j hj vj tj, (j <= k)%nat -> iterate (em_step E fp x lengths) j h = Ok (hj, vj) ->
             h_trans hj = Some tj -> mget tj i i' <> NaN) -> mget t' i i' = Fin 0).
Proof.
  intros H0. induction k as [|k IH]; intros h h' vs s t Hnc Hs Ht H.
  - cbn [iterate] in H. injection H as <- <-. exists s, t. auto.
  - rewrite iterate_S in H. destruct (em_step E fp x lengths h) as [[h1 v]|] eqn:Es; [|discriminate].
    cbn [bind] in H. destruct (iterate _ k h1) as [[h2 vs']|] eqn:Ei; [|discriminate]. injection H as <- <-.
    destruct (C20_step_l E fp x lengths h h1 v nc H0 Hnc Es) as (s0 & t0 & s1 & t1 & A1 & A2 & A3 & A4 & A5 & A6).
    rewrite Hs in A1. injection A1 as <-. rewrite Ht in A2. injection A2 as <-.
    assert (Hc : c_nc (h_cfg h1) = nc).
    { unfold em_step in Es. rewrite Hs, Ht in Es.
      destruct (do_estep _ _ _ _ _ _ _) as [[st lp]|]; [|discriminate]. cbn [bind] in Es.
      unfold do_mstep in Es. destruct (ec_mstep _ _ _ _ _ _) as [em|]; [|discriminate]. cbn [bind] in Es.
      injection Es as <- <-. exact Hnc. }
    assert (Hstep : forall j hj vj, iterate (em_step E fp x lengths) j h1 = Ok (hj, vj) ->
              iterate (em_step E fp x lengths) (S j) h = Ok (hj, v :: vj)).
    { intros j hj vj Hj. rewrite iterate_S, Es. cbn [bind]. rewrite Hj. reflexivity. }
    destruct (IH h1 h2 vs' s1 t1 Hc A3 A4 Ei) as (s' & t' & B1 & B2 & B3 & B4).
    exists s', t'. split; [exact B1|]. split; [exact B2|]. split.
    + intros i Hi Hz Hnan. apply B3; [exact Hi| |].
      * destruct (A5 i Hi Hz) as [Hq|Hq]; [exact Hq|]. exfalso.
        apply (Hnan 1%nat h1 [v] s1); [lia| |exact A3|exact Hq]. apply (Hstep 0%nat h1 []). reflexivity.
      * intros j hj vj sj Hj Hit. apply (Hnan (S j) hj (v :: vj) sj); [lia|]. apply Hstep. exact Hit.
    + intros i i' Hi Hi' Hz Hnan. apply B4; [exact Hi|exact Hi'| |].
      * destruct (A6 i i' Hi Hi' Hz) as [Hq|Hq]; [exact Hq|]. exfalso.
        apply (Hnan 1%nat h1 [v] t1); [lia| |exact A4|exact Hq]. apply (Hstep 0%nat h1 []). reflexivity.
      * intros j hj vj tj Hj Hit. apply (Hnan (S j) hj (v :: vj) tj); [lia|]. apply Hstep. exact Hit.
Qed.

(** Exact arithmetic, priors at least 1: zeros are preserved without proviso. *)
Lemma C20_fit_l h nc nf pi A e sp tp ep ls x h' ev :
  cat_model h nc nf pi A e -> cat_priors h nc nf sp tp ep ->
  good_data (sym_ok nf) ls x -> possible nc pi A (cat_b e) ls x -> (0 < c_n_iter (h_cfg h))%nat ->
  fit_from categorical exact h x (as_lengths ls) = Ok (h', ev) ->
  exists s' t', h_start h' = Some s' /\ h_trans h' = Some t'
    /\ (forall i, (i < nc)%nat -> pi i = 0 -> vget s' i = Fin 0)
    /\ (forall i j, (i < nc)%nat -> (j < nc)%nat -> A i j = 0 -> mget t' i j = Fin 0).
Proof.
  intros CM CP Hd Hp Hn Hf.
  destruct (C19_fit_l h nc nf pi A e sp tp ep ls x h' ev CM CP Hd Hp Hn Hf)
    as (pi' & A' & e' & H1 & H2 & _ & _ & _ & _ & H3 & H4).
  do 2 eexists. split; [exact H1|]. split; [exact H2|]. split.
  - intros i Hi H0. rewrite vget_fvec by exact Hi. rewrite H3 by assumption. reflexivity.
  - intros i j Hi Hj H0. rewrite mget_fmat by assumption. rewrite H4 by assumption. reflexivity.
Qed.

Lemma C20_applies_l : exists h' ev t',
  fit_from categorical exact (ex_h "log" "map") ex_x (as_lengths [2; 1]%nat) = Ok (h', ev)
  /\ h_trans h' = Some t' /\ mget t' 1 0 = Fin 0.
Proof.
  destruct C18_applies_l as (h' & ev & H & _).
  destruct (C20_fit_l (ex_h "log" "map") 2 3 ex_pi ex_A ex_e _ _ _ [2; 1]%nat ex_x h' ev (ex_model _ _)
              (flat_cat_priors _ 2 3 (ex_flat _ _)) ex_good ex_possible) as (s' & t' & _ & H2 & _ & H4);
    [cbn; lia|exact H|].
  exists h', ev, t'. split; [exact H|]. split; [exact H2|]. apply H4; [lia|lia|reflexivity].
Qed.

(** ** C21: only the parameters named in [params] are updated. *)
(** Any emission class, any rounding. *)
Lemma C21_base_params_l {P X St} (E : emclass P X St) fp h x lengths h' ev :
  fit_from E fp h x lengths = Ok (h', ev) ->
  h_cfg h' = h_cfg h
  /\ (has "s" (c_params (h_cfg h)) = false -> h_start h' = h_start h)
  /\ (has "t" (c_params (h_cfg h)) = false -> h_trans h' = h_trans h).
Proof.
  intros H. unfold fit_from in H.
  set (l := match lengths with None => _ | Some l => Some l end) in H. clearbody l.
  destruct (check E fp h) as [h1|] eqn:Ec; [|discriminate]. cbn [bind] in H.
  destruct (check_keeps E fp h h1 Ec) as (C1 & C2 & C3 & C4).
  destruct (fit_loop _ _ _ _ _ _) as [[[h2 m] ev2]|] eqn:El; [|discriminate]. cbn [bind] in H.
  injection H as <- <-. cbn [h_cfg h_start h_trans].
  destruct (fit_loop_trace _ _ _ _ _ _ _ _ _ El) as (vs & Hi & _).
  destruct (iterate_keeps E fp x l _ h1 h2 vs Hi) as (A1 & A2 & A3 & A4 & A5 & _). rewrite C1 in *.
  split; [exact A1|]. split; intros Hh; [rewrite A4, C2 by exact Hh|rewrite A5, C3 by exact Hh]; reflexivity.
Qed.

Lemma C21_categorical_l fp h x lengths h' ev :
  fit_from categorical fp h x lengths = Ok (h', ev) ->
  has "e" (c_params (h_cfg h)) = false -> h_em h' = h_em h.
Proof.
  intros H Hh. apply (fit_keeps categorical fp h x lengths h' ev _ (fun p => p) H).
  - intros nf p nf' p' Hc. cbn [categorical ec_check] in Hc. unfold cat_check in Hc.
    destruct (cat_prob p); [|discriminate].
    destruct (negb _); [discriminate|]. destruct (negb _); [discriminate|]. injection Hc as <- <-. reflexivity.
  - intros nf p st p' Hm. cbn [categorical ec_mstep] in Hm. unfold cat_mstep in Hm. rewrite Hh in Hm.
    injection Hm as <-. reflexivity.
Qed.

(** Training transitions only. *)
Definition ex_ht : hmm catp :=
  Hmm (Cfg 2 "t" "ste" "map" "log" 10 (Fin (/ 100)) false (Scal (Fin 1)) (Scal (Fin 1))) None
      (Some (fvec 2 ex_pi)) (Some (fmat 2 2 ex_A)) (Monitor (Fin (/ 100)) 10 false [] 0)
      (Catp (Scal (Fin 1)) (Some (fmat 2 3 ex_e))).
Lemma C21_applies_l : exists h' ev,
  fit_from categorical exact ex_ht ex_x (as_lengths [2; 1]%nat) = Ok (h', ev)
  /\ h_start h' = Some (fvec 2 ex_pi) /\ h_em h' = h_em ex_ht.
Proof.
  assert (CM : cat_model ex_ht 2 3 ex_pi ex_A ex_e).
  { destruct (ex_model "log" "map"). constructor; try assumption; reflexivity. }
  destruct (C18_fit_succeeds_l ex_ht 2 3 ex_pi ex_A ex_e _ _ _ [2; 1]%nat ex_x CM
              (flat_cat_priors ex_ht 2 3 (conj eq_refl (conj eq_refl eq_refl))) ex_good ex_possible eq_refl)
    as (h' & ev & H).
  exists h', ev. split; [exact H|]. split.
  - apply (C21_base_params_l categorical exact ex_ht ex_x _ h' ev H). reflexivity.
  - apply (C21_categorical_l exact ex_ht ex_x _ h' ev H). reflexivity.
Qed.

(** ** C23: stopping and history. *)
Lemma estep_acc {P X St} (E : emclass P X St) fp h s t (li : bool) :
  (if String.eqb (c_impl (h_cfg h)) "scaling" then Ok false
   else if String.eqb (c_impl (h_cfg h)) "log" then Ok true else Err KeyError) = Ok li ->
  forall xs st lp st' lp', estep_loop E fp h s t st lp xs = Ok (st', lp') ->
  exists rs, acc_seqs fp (if li then score_log_seq E fp h s t false else score_scaling_seq E fp h s t false) lp xs
             = Ok (lp', rs).
Proof.
  intros Hi. induction xs as [|y xs IH]; intros st lp st' lp' H; cbn [estep_loop acc_seqs] in *.
  - injection H as <- <-. eexists. reflexivity.
  - destruct (estep_seq E fp h s t st y) as [[st1 l]|] eqn:Es; [|discriminate]. cbn [bind] in H.
    unfold estep_seq in Es. rewrite Hi in Es. cbn [bind] in Es.
    assert (Hl : (if li then score_log_seq E fp h s t false else score_scaling_seq E fp h s t false) y = Ok (l, [])).
    { destruct li.
      - unfold fit_log in Es. unfold score_log_seq. destruct (loglik E fp h y) as [lf|]; [|discriminate].
        cbn [bind] in *. destruct (forward_log fp s t lf) as [[l0 fwd]|]; [|discriminate]. cbn [bind] in *.
        destruct (backward_log fp s t lf) as [bwd|]; [|discriminate]. cbn [bind] in *.
        destruct (acc_base _ _ _ _ _ _ _ _ _) as [[[n1 s1] t1]|]; [|discriminate]. cbn [bind] in *.
        destruct (ec_acc _ _ _ _ _ _ _ _); [|discriminate]. cbn [bind] in *. injection Es as <- <-. reflexivity.
      - unfold fit_scaling in Es. unfold score_scaling_seq. destruct (lik E fp h y) as [lf|]; [|discriminate].
        cbn [bind] in *. destruct (forward_scaling fp s t lf) as [[[l0 fwd] sc]|]; [|discriminate]. cbn [bind] in *.
        destruct (backward_scaling fp s t lf sc) as [bwd|]; [|discriminate]. cbn [bind] in *.
        destruct (acc_base _ _ _ _ _ _ _ _ _) as [[[n1 s1] t1]|]; [|discriminate]. cbn [bind] in *.
        destruct (ec_acc _ _ _ _ _ _ _ _); [|discriminate]. cbn [bind] in *. injection Es as <- <-. reflexivity. }
    rewrite Hl. cbn [bind]. destruct (IH _ _ _ _ H) as [rs Hrs]. rewrite Hrs. cbn [bind]. eexists. reflexivity.
Qed.

(** The objective recorded by an iteration is the score of the parameters
    before it, bit for bit. *)
Lemma em_step_score {P X St} (E : emclass P X St) fp h x lengths h' v :
  check E fp h = Ok h -> check_array (ec_xok E) x = Ok x ->
  em_step E fp x lengths h = Ok (h', v) -> score E fp h x lengths = Ok v.
Proof.
  intros Hc Hx H. unfold em_step in H. unfold score, score_, fitted_check. rewrite Hc.
  destruct (h_start h) as [s|] eqn:Es; [|discriminate]. destruct (h_trans h) as [t|] eqn:Et; [|discriminate].
  cbn [bind]. rewrite Es, Et. cbn [bind]. rewrite Hx. cbn [bind].
  destruct (do_estep _ _ _ _ _ _ _) as [[st lp]|] eqn:Ed; [|discriminate]. cbn [bind] in H.
  destruct (do_mstep _ _ _ _ _ _); [|discriminate]. cbn [bind] in H. injection H as <- <-.
  unfold do_estep in Ed. destruct (String.eqb (c_impl (h_cfg h)) "scaling" || _) eqn:Eo; [|discriminate].
  destruct (split_X_lengths x lengths) as [xs|]; [|discriminate]. cbn [bind] in Ed.
  destruct (String.eqb (c_impl (h_cfg h)) "scaling") eqn:E1; cbn [bind].
  - destruct (estep_acc E fp h s t false) with (2 := Ed) as [rs Hrs]; [rewrite E1; reflexivity|].
    rewrite Hrs. reflexivity.
  - cbn [orb] in Eo. rewrite Eo. cbn [bind].
    destruct (estep_acc E fp h s t true) with (2 := Ed) as [rs Hrs]; [rewrite E1, Eo; reflexivity|].
    rewrite Hrs. reflexivity.
Qed.

(** Any class and rounding; the estimator's [monitor_] is the one its
    constructor built from [tol] and [n_iter]. *)
Lemma C23_stopping_and_history_l {P X St} (E : emclass P X St) fp h x ls h' ev :
  m_n_iter (h_mon h) = c_n_iter (h_cfg h) -> m_tol (h_mon h) = c_tol (h_cfg h) ->
  fit_from E fp h x (as_lengths ls) = Ok (h', ev) ->
  let k := length (m_history (h_mon h')) in
  let hist := m_history (h_mon h') in
  m_iter (h_mon h') = k /\ (k <= c_n_iter (h_cfg h))%nat
  /\ (k = 0%nat <-> c_n_iter (h_cfg h) = 0%nat)
  /\ stops fp (c_tol (h_cfg h)) (c_n_iter (h_cfg h)) hist
  /\ (forall j, (0 < j < k)%nat -> ~ stops fp (c_tol (h_cfg h)) (c_n_iter (h_cfg h)) (firstn j hist))
  /\ exists h1 h2, check E fp h = Ok h1 /\ iterate (em_step E fp x (as_lengths ls)) k h1 = Ok (h2, hist)
       /\ (h_start h' = h_start h2 /\ h_trans h' = h_trans h2 /\ h_em h' = h_em h2)
       /\ forall j, (j < k)%nat -> exists hj hj',
            iterate (em_step E fp x (as_lengths ls)) j h1 = Ok (hj, firstn j hist)
            /\ em_step E fp x (as_lengths ls) hj = Ok (hj', nth j hist NaN)
            /\ (check E fp hj = Ok hj -> check_array (ec_xok E) x = Ok x ->
                score E fp hj x (as_lengths ls) = Ok (nth j hist NaN)).
Proof.
  intros Hmn Hmt Hf. destruct (fit_from_trace _ _ _ _ _ _ _ Hf) as (h1 & h2 & vs & Hc & Hi & Hh' & El).
  destruct (check_keeps E fp h h1 Hc) as (C1 & C2 & C3 & C4). rewrite C1 in El.
  destruct (fit_loop_trace _ _ _ _ _ _ _ _ _ El) as (vs' & Hi' & Hm & Hle & Hlen & Hleast).
  assert (vs' = vs) by (unfold mon_after in Hm; cbn [monitor_reset m_history app] in Hm; injection Hm; auto). subst vs'.
  assert (Hhist : m_history (h_mon h') = vs) by (rewrite Hh'; reflexivity).
  cbv zeta. rewrite Hhist.
  assert (Hst : forall l, converged fp (mon_after (monitor_reset (h_mon h1)) l) = true <->
                  stops fp (c_tol (h_cfg h)) (c_n_iter (h_cfg h)) l).
  { intros l. rewrite converged_stops by reflexivity.
    cbn [mon_after monitor_reset m_tol m_n_iter m_history app]. rewrite C4, Hmn, Hmt. reflexivity. }
  split; [rewrite Hh'; reflexivity|]. split; [exact Hle|]. split; [|split; [|split]].
  - split; [|lia]. intros H0. destruct Hlen as [Hlen|[_ Hlen]]; [lia|]. destruct vs; [contradiction|discriminate].
  - destruct Hlen as [Hlen|[Hlen _]]; [left; exact Hlen|]. apply Hst. exact Hlen.
  - intros j Hj Hs. apply Hst in Hs. rewrite (Hleast j Hj) in Hs. discriminate.
  - exists h1, h2. split; [exact Hc|]. split; [exact Hi|]. split; [rewrite Hh'; auto|].
    intros j Hj. destruct (iterate_prefix _ _ j Hj _ _ _ Hi) as (hj & hj' & A1 & A2).
    exists hj, hj'. split; [exact A1|]. split; [exact A2|]. intros Hcj Hx.
    apply (em_step_score E fp hj x _ hj'); assumption.
Qed.

Lemma C23_applies_l : exists h' ev,
  fit_from categorical exact (ex_h "log" "map") ex_x (as_lengths [2; 1]%nat) = Ok (h', ev)
  /\ m_n_iter (h_mon (ex_h "log" "map")) = c_n_iter (h_cfg (ex_h "log" "map"))
  /\ score categorical exact (ex_h "log" "map") ex_x (as_lengths [2; 1]%nat) = Ok (nth 0 (m_history (h_mon h')) NaN).
Proof.
  destruct C18_applies_l as (h' & ev & H & _). exists h', ev. split; [exact H|]. split; [reflexivity|].
  pose proof (C23_stopping_and_history_l categorical exact (ex_h "log" "map") ex_x [2; 1]%nat h' ev eq_refl eq_refl H) as C23.
  cbv zeta in C23. destruct C23 as (_ & _ & Hk & _ & _ & h1 & h2 & Hc & _ & _ & Hj).
  assert (Hne : (0 < length (m_history (h_mon h')))%nat).
  { destruct (length (m_history (h_mon h'))) eqn:El; [|lia]. destruct Hk as [Hk _].
    specialize (Hk eq_refl). discriminate Hk. }
  destruct (Hj 0%nat Hne) as (hj & hj' & A1 & _ & A3). cbn [iterate] in A1. injection A1 as <-.
  rewrite (cat_model_check _ 2 3 ex_pi ex_A ex_e (ex_model _ _)) in Hc. injection Hc as <-.
  assert (Hcc : check categorical exact (checked (ex_h "log" "map") 3) = Ok (checked (ex_h "log" "map") 3)).
  { apply (cat_model_check (checked (ex_h "log" "map") 3) 2 3 ex_pi ex_A ex_e).
    destruct (ex_model "log" "map"). constructor; try assumption. right. reflexivity. }
  pose proof (A3 Hcc eq_refl) as Hs.
  rewrite <- Hs. unfold score, score_, fitted_check.
  rewrite (cat_model_check _ 2 3 ex_pi ex_A ex_e (ex_model _ _)), Hcc. reflexivity.
Qed.

(** ** C24: the non-convergence warning. *)
Lemma C24_report_l fp m v :
  In WNotConverging (snd (monitor_report fp m v)) <->
  exists h p, m_history m = h ++ [p] /\ xlt (xsub fp v p) (Fin (- / 2 ^ 26)).
Proof.
  rewrite report_warns. split.
  - intros [Hne H]. exists (removelast (m_history m)), (last (m_history m) NaN).
    split; [apply app_removelast_last; exact Hne|exact H].
  - intros (h & p & E & H). rewrite E, last_last. split; [destruct h; discriminate|exact H].
Qed.

Lemma C24_fit_l {P X St} (E : emclass P X St) fp h x ls h' ev :
  fit_from E fp h x (as_lengths ls) = Ok (h', ev) ->
  (In WNotConverging ev <-> drops fp (m_history (h_mon h'))).
Proof.
  intros Hf. destruct (fit_from_trace _ _ _ _ _ _ _ Hf) as (h1 & h2 & vs & Hc & Hi & Hh' & El).
  pose proof (fit_loop_warns _ _ _ _ _ _ _ _ _ El) as Hw.
  rewrite Hh'. cbn [h_mon]. rewrite <- Hw. cbn [monitor_reset m_history].
  split; [auto|]. intros [H|(l & a & z & r & H & _)]; [exact H|]. destruct l; discriminate.
Qed.

Lemma C24_applies_l :
  In WNotConverging (snd (monitor_report exact (Monitor (Fin 0) 10 false [Fin (-5); Fin (-3)] 2) (Fin (-4))))
  /\ ~ In WNotConverging (snd (monitor_report exact (Monitor (Fin 0) 10 false [Fin (-5); Fin (-3)] 2) (Fin (-3)))).
Proof.
  assert (Hp : 0 < / 2 ^ 26 < 1).
  { split; [apply Rinv_0_lt_compat, pow_lt; lra|]. replace 1 with (/ 1) by lra. apply Rinv_lt_contravar; [|simpl; lra].
    rewrite Rmult_1_l. apply pow_lt. lra. }
  split.
  - apply C24_report_l. exists [Fin (-5)], (Fin (-3)). split; [reflexivity|].
    unfold xlt. cbn [xsub xopp xadd]. unfold exact. cbn [xltb]. apply Rltb_true. lra.
  - intros H. apply C24_report_l in H as (l & p & E & H). 
    assert (p = Fin (-3)).
    { change [Fin (-5); Fin (-3)] with ([Fin (-5)] ++ [Fin (-3)]) in E. cbn [m_history] in E.
      change [Fin (-5); Fin (-3)] with ([Fin (-5)] ++ [Fin (-3)]) in E. apply app_inj_tail in E. symmetry. apply E. }
    subst p. unfold xlt in H. cbn [xsub xopp xadd] in H. unfold exact in H. cbn [xltb] in H. apply Rltb_true in H. lra.
Qed.

(** ** C25: the two implementations train identically. *)
Lemma C25_same_training_l h nc nf pi A e sp tp ep ls x h' ev :
  cat_model h nc nf pi A e -> cat_priors h nc nf sp tp ep ->
  good_data (sym_ok nf) ls x -> possible nc pi A (cat_b e) ls x ->
  fit_from categorical exact h x (as_lengths ls) = Ok (h', ev) ->
  fit_from categorical exact (with_cfg (cfg_impl "log") h) x (as_lengths ls)
  = Ok (with_cfg (cfg_impl "log") h', ev).
Proof.
  intros CM CP Hd Hpos Hf.
  assert (TS : tstate nc (cat_good nc nf ep false) cat_bp false ls x (checked h nf) pi A)
    by (apply (cat_tstate false h nc nf pi A e sp tp ep); auto; discriminate).
  assert (CM' : cat_model (with_cfg (cfg_impl "log") h) nc nf pi A e) by (destruct CM; constructor; assumption).
  unfold fit_from in *. rewrite (cat_model_check h nc nf pi A e CM) in Hf.
  rewrite (cat_model_check _ nc nf pi A e CM'). cbn [bind] in *.
  change (match as_lengths ls with None => _ | Some l => Some l end) with (as_lengths ls) in *.
  destruct (fit_loop exact (em_step categorical exact x (as_lengths ls)) (zero_rows exact)
              (c_n_iter (h_cfg (checked h nf))) (checked h nf) (monitor_reset (h_mon (checked h nf))))
    as [[[h2 m2] ev2]|] eqn:El; [|discriminate].
  injection Hf as <- <-.
  pose proof (fit_loop_impl categorical nc (sym_ok nf) (cat_good nc nf ep false) cat_bp
              false (cat_trains nc nf ep (cp_e _ _ _ _ _ _ CP) false) ls x Hd sp tp
              (cp_s _ _ _ _ _ _ CP) (cp_t _ _ _ _ _ _ CP)
              ltac:(intros i c nfe p []; constructor; assumption)
              ltac:(reflexivity) ltac:(reflexivity) ltac:(reflexivity)
              (c_n_iter (h_cfg (checked h nf))) (checked h nf) pi A _ h2 m2 ev2 TS (cp_base _ _ _ _ _ _ CP) El) as Hl.
  change (checked (with_cfg (cfg_impl "log") h) nf) with (with_cfg (cfg_impl "log") (checked h nf)).
  change (c_n_iter (h_cfg (with_cfg (cfg_impl "log") (checked h nf)))) with (c_n_iter (h_cfg (checked h nf))).
  change (h_mon (with_cfg (cfg_impl "log") (checked h nf))) with (h_mon (checked h nf)).
  rewrite Hl. reflexivity.
Qed.

(** One iteration with the scaling implementation. *)
Definition ex_hs : hmm catp :=
  Hmm (Cfg 2 "ste" "ste" "map" "scaling" 1 (Fin (/ 100)) false (Scal (Fin 1)) (Scal (Fin 1))) None
      (Some (fvec 2 ex_pi)) (Some (fmat 2 2 ex_A)) (Monitor (Fin (/ 100)) 1 false [] 0)
      (Catp (Scal (Fin 1)) (Some (fmat 2 3 ex_e))).
Lemma C25_applies_l :
  cat_model ex_hs 2 3 ex_pi ex_A ex_e /\ flat_priors ex_hs
  /\ good_data (sym_ok 3) [3]%nat ex_x /\ possible 2 ex_pi ex_A (cat_b ex_e) [3]%nat ex_x
  /\ exists h' ev, fit_from categorical exact ex_hs ex_x (as_lengths [3]%nat) = Ok (h', ev).
Proof.
  assert (CM : cat_model ex_hs 2 3 ex_pi ex_A ex_e).
  { destruct (ex_model "log" "map"). constructor; try assumption; reflexivity. }
  assert (FP : flat_priors ex_hs) by repeat split.
  assert (Hd : good_data (sym_ok 3) [3]%nat ex_x).
  { split; [exact ex_x_ok|]. split; [discriminate|]. split; [repeat constructor; lia|reflexivity]. }
  assert (Hpos : possible 2 ex_pi ex_A (cat_b ex_e) [3]%nat ex_x).
  { intros c [<-|[]]. cbn [firstn ex_x]. fold ex_x. rewrite ex_lik. lra. }
  split; [exact CM|]. split; [exact FP|]. split; [exact Hd|]. split; [exact Hpos|].
  pose proof (flat_cat_priors ex_hs 2 3 FP) as CP.
  assert (TS : tstate 2 (cat_good 2 3 (fun _ _ => 1) false) cat_bp false [3]%nat ex_x (checked ex_hs 3) ex_pi ex_A)
    by (apply (cat_tstate false ex_hs 2 3 ex_pi ex_A ex_e _ _ _ [3]%nat ex_x CM CP Hd Hpos); discriminate).
  unfold fit_from. rewrite (cat_model_check _ 2 3 ex_pi ex_A ex_e CM). cbn [bind].
  change (c_n_iter (h_cfg (checked ex_hs 3))) with 1%nat.
  change (match as_lengths [3]%nat with None => _ | Some l => Some l end) with (as_lengths [3]%nat).
  cbn [fit_loop].
  destruct (em_step_ok categorical 2 (sym_ok 3) (cat_good 2 3 (fun _ _ => 1) false) cat_bp
              false (cat_trains 2 3 (fun _ _ => 1) (cp_e _ _ _ _ _ _ CP) false) [3]%nat ex_x Hd (checked ex_hs 3)
              ex_pi ex_A TS (fun _ => 1) (fun _ _ => 1) (cp_base _ _ _ _ _ _ CP)) as (p' & Hs & _).
  - intros c [<-|[]]. right. split; [reflexivity|]. cbn [firstn ex_x]. fold ex_x.
    change (cat_bp (h_em (checked ex_hs 3))) with (cat_b (cat_e (Catp (Scal (Fin 1)) (Some (fmat 2 3 ex_e))))).
    intros t Ht.
    assert (Hx : forall y, y <> [] -> Forall (sym_ok 3) y ->
       seq_plik 2 ex_pi ex_A (cat_b (cat_e (Catp (Scal (Fin 1)) (Some (fmat 2 3 ex_e))))) y
       = seq_plik 2 ex_pi ex_A (cat_b ex_e) y).
    { intros y Hy Hok. destruct y as [|a y0]; [contradiction|]. unfold seq_plik.
      apply (seq_lik_ext (sym_ok 3)); [exact Hy|exact Hok|]. intros o i Ho Hi. unfold cat_b.
      apply cat_e_fmat; [exact Hi|unfold sym_ok in Ho; lia]. }
    pose proof (ex_no_underflow t Ht) as Hu.
    rewrite (Hx (firstn (S t) ex_x)); [|destruct t as [|[|[|t]]]; [| | |simpl in Ht; lia]; intros Hq; discriminate Hq|].
    2:{ rewrite Forall_forall. intros o Ho. pose proof ex_x_ok as Hok. rewrite Forall_forall in Hok.
        apply Hok. rewrite <- (firstn_skipn (S t) ex_x). apply in_or_app. left. exact Ho. }
    destruct t as [|t].
    + exact Hu.
    + rewrite (Hx (firstn (S t) ex_x)); [exact Hu|destruct t as [|[|t]]; [| |simpl in Ht; lia]; intros Hq; discriminate Hq|].
      rewrite Forall_forall. intros o Ho. pose proof ex_x_ok as Hok. rewrite Forall_forall in Hok.
      apply Hok. rewrite <- (firstn_skipn (S t) ex_x). apply in_or_app. left. exact Ho.
  - apply (start_ok_ge1 categorical 2 (sym_ok 3) (cat_good 2 3 (fun _ _ => 1) false) cat_bp
              false (cat_trains 2 3 (fun _ _ => 1) (cp_e _ _ _ _ _ _ CP) false)); [exact Hd|exact TS|apply CP].
  - rewrite Hs. cbn [bind]. destruct (monitor_report exact _ _) as [m1 ev1].
    destruct (converged exact m1); cbn [bind]; do 2 eexists; reflexivity.
Qed.

(** ** C26: changes of [tol] and [n_iter] after construction. *)
Section Tol.
  Variables (fp : fpmode) (x : list Z) (lengths : option (list Z)) (t : xnum).
  Notation wt := (with_cfg (cfg_tol t)).
  Definition res_map {A B} (f : A -> B) (r : res A) : res B := do a <- r; Ok (f a).

  Lemma estep_loop_tol h s tm xs : forall st lp,
    estep_loop categorical fp (wt h) s tm st lp xs = estep_loop categorical fp h s tm st lp xs.
  Proof.
    induction xs as [|y xs IH]; intros st lp; [reflexivity|]. cbn [estep_loop].
    change (estep_seq categorical fp (wt h) s tm st y) with (estep_seq categorical fp h s tm st y).
    destruct (estep_seq categorical fp h s tm st y) as [[st' l]|]; [|reflexivity]. cbn [bind]. apply IH.
  Qed.

  Lemma em_step_tol h : em_step categorical fp x lengths (wt h)
    = res_map (fun r => (wt (fst r), snd r)) (em_step categorical fp x lengths h).
  Proof.
    unfold em_step. cbn [with_cfg h_start h_trans].
    destruct (h_start h) as [s|]; [|reflexivity]. destruct (h_trans h) as [tm|]; [|reflexivity].
    assert (Hd : do_estep categorical fp (wt h) s tm x lengths = do_estep categorical fp h s tm x lengths).
    { unfold do_estep. change (c_impl (h_cfg (wt h))) with (c_impl (h_cfg h)).
      destruct (_ || _); [|reflexivity]. destruct (split_X_lengths x lengths) as [xs|]; [|reflexivity]. cbn [bind].
      change (stats0 categorical fp (wt h)) with (stats0 categorical fp h). apply estep_loop_tol. }
    fold (with_cfg (cfg_tol t) h). rewrite Hd.
    destruct (do_estep categorical fp h s tm x lengths) as [[st lp]|]; [|reflexivity]. cbn [bind].
    unfold do_mstep. change (ec_mstep categorical fp (h_cfg (wt h)) (h_nfeat (wt h)) (h_em (wt h)) (st_em st))
      with (ec_mstep categorical fp (h_cfg h) (h_nfeat h) (h_em h) (st_em st)).
    destruct (ec_mstep _ _ _ _ _ _) as [em|]; reflexivity.
  Qed.

  Lemma fit_loop_tol fuel : forall h m,
    fit_loop fp (em_step categorical fp x lengths) (zero_rows fp) fuel (wt h) m
    = res_map (fun r => (wt (fst (fst r)), snd (fst r), snd r))
        (fit_loop fp (em_step categorical fp x lengths) (zero_rows fp) fuel h m).
  Proof.
    induction fuel as [|fuel IH]; intros h m; cbn [fit_loop]; [reflexivity|].
    rewrite em_step_tol. destruct (em_step categorical fp x lengths h) as [[h1 v]|]; [|reflexivity].
    cbn [res_map bind fst snd]. destruct (monitor_report fp m v) as [m1 ev1].
    destruct (converged fp m1); [reflexivity|]. rewrite IH.
    destruct (fit_loop fp (em_step categorical fp x lengths) (zero_rows fp) fuel h1 m1) as [[[h2 m2] ev2]|]; reflexivity.
  Qed.
End Tol.

(** Assigning [tol] has no effect on training whatsoever. *)
Lemma C26_tol_ignored_refuted_l fp h x lengths t :
  fit_from categorical fp (with_cfg (cfg_tol t) h) x lengths
  = do (h', ev) <- fit_from categorical fp h x lengths; Ok (with_cfg (cfg_tol t) h', ev).
Proof.
  unfold fit_from.
  assert (Hc : check categorical fp (with_cfg (cfg_tol t) h)
               = res_map (with_cfg (cfg_tol t)) (check categorical fp h)).
  { unfold check. cbn [with_cfg h_start h_trans h_cfg h_nfeat h_em h_mon cfg_tol c_nc].
    destruct (h_start h) as [s|]; [|reflexivity]. destruct (h_trans h) as [tm|].
    - destruct (base_check _ _ _ _); [|reflexivity]. cbn [bind].
      change (ec_check categorical fp (cfg_tol t (h_cfg h)) (h_nfeat h) (h_em h))
        with (ec_check categorical fp (h_cfg h) (h_nfeat h) (h_em h)).
      destruct (ec_check _ _ _ _ _) as [[nf em]|]; reflexivity.
    - destruct (negb _); [reflexivity|]. destruct (negb _); reflexivity. }
  rewrite Hc. destruct (check categorical fp h) as [h1|]; [|reflexivity]. cbn [res_map bind].
  change (c_n_iter (h_cfg (with_cfg (cfg_tol t) h1))) with (c_n_iter (h_cfg h1)).
  change (h_mon (with_cfg (cfg_tol t) h1)) with (h_mon h1).
  rewrite fit_loop_tol.
  destruct (fit_loop fp _ (zero_rows fp) (c_n_iter (h_cfg h1)) h1 _) as [[[h2 m2] ev2]|]; reflexivity.
Qed.

(** However large [n_iter] is made after construction, training stops at the
    constructor's value. *)
Lemma C26_n_iter_ignored_refuted_l {P X St} (E : emclass P X St) fp h x ls n h' ev :
  (0 < m_n_iter (h_mon h))%nat ->
  fit_from E fp (with_cfg (cfg_n_iter n) h) x (as_lengths ls) = Ok (h', ev) ->
  (length (m_history (h_mon h')) <= m_n_iter (h_mon h))%nat.
Proof.
  intros Hpos Hf. destruct (fit_from_trace _ _ _ _ _ _ _ Hf) as (h1 & h2 & vs & Hc & Hi & Hh' & El).
  destruct (check_keeps E fp _ h1 Hc) as (C1 & C2 & C3 & C4).
  destruct (fit_loop_trace _ _ _ _ _ _ _ _ _ El) as (vs' & Hi' & Hm & Hle & Hlen & Hleast).
  assert (vs' = vs) by (unfold mon_after in Hm; cbn [monitor_reset m_history app] in Hm; injection Hm; auto). subst vs'.
  rewrite Hh'. cbn [h_mon mon_after monitor_reset m_history app].
  destruct (Nat.le_gt_cases (length vs) (m_n_iter (h_mon h))) as [Hok|Hgt]; [exact Hok|]. exfalso.
  specialize (Hleast (m_n_iter (h_mon h)) ltac:(lia)).
  assert (Ht : converged fp (mon_after (monitor_reset (h_mon h1)) (firstn (m_n_iter (h_mon h)) vs)) = true).
  { rewrite converged_stops by reflexivity. left.
    cbn [mon_after monitor_reset m_history m_n_iter app]. rewrite firstn_length, C4. cbn [with_cfg h_mon]. lia. }
  rewrite Ht in Hleast. discriminate.
Qed.

(** A fit that does not follow the current [tol] and [n_iter]: constructed with
    n_iter=2, then n_iter=20 and tol=-1 assigned; training stops after 2
    iterations although neither limit is met. *)
Definition ex_h3 : hmm catp :=
  Hmm (Cfg 2 "ste" "ste" "map" "log" 2 (Fin (/ 100)) false (Scal (Fin 1)) (Scal (Fin 1))) None
      (Some (fvec 2 ex_pi)) (Some (fmat 2 2 ex_A)) (Monitor (Fin (/ 100)) 2 false [] 0)
      (Catp (Scal (Fin 1)) (Some (fmat 2 3 ex_e))).
Lemma C26_witness_l : exists h' ev,
  fit_from categorical exact (with_cfg (cfg_tol (Fin (-1))) (with_cfg (cfg_n_iter 20) ex_h3)) ex_x (as_lengths [2; 1]%nat)
    = Ok (h', ev)
  /\ c_tol (h_cfg h') = Fin (-1) /\ c_n_iter (h_cfg h') = 20%nat
  /\ ~ stops exact (c_tol (h_cfg h')) (c_n_iter (h_cfg h')) (m_history (h_mon h')).
Proof.
  set (h0 := with_cfg (cfg_tol (Fin (-1))) (with_cfg (cfg_n_iter 20) ex_h3)).
  assert (CM : cat_model h0 2 3 ex_pi ex_A ex_e).
  { destruct (ex_model "log" "map"). constructor; try assumption; reflexivity. }
  assert (FP : flat_priors h0) by repeat split.
  destruct (C18_fit_succeeds_l h0 2 3 ex_pi ex_A ex_e _ _ _ [2; 1]%nat ex_x CM
              (flat_cat_priors h0 2 3 FP) ex_good ex_possible eq_refl) as (h' & ev & H).
  exists h', ev. split; [exact H|].
  destruct (C21_base_params_l categorical exact h0 ex_x _ h' ev H) as (Hc & _).
  rewrite Hc. split; [reflexivity|]. split; [reflexivity|].
  assert (Hle : (length (m_history (h_mon h')) <= 2)%nat).
  { apply (C26_n_iter_ignored_refuted_l categorical exact (with_cfg (cfg_tol (Fin (-1))) ex_h3) ex_x [2; 1]%nat 20 h' ev);
      [cbn; lia|exact H]. }
  destruct (C18_history_monotone_l h0 2 3 ex_pi ex_A ex_e [2; 1]%nat ex_x h' ev CM FP) as [(vs & Hvs & Hmon) _].
  - rewrite ex_pi_sum. lra.
  - intros i Hi. rewrite ex_A_sum by exact Hi. lra.
  - intros i Hi. rewrite ex_e_sum by exact Hi. lra.
  - exact ex_good.
  - exact ex_possible.
  - exact H.
  - intros [Hs|(l & a & z & Hl & Hlt)].
    + cbn in Hs. lia.
    + rewrite Hvs in Hl.
      assert (Hlen : (length vs = length l + 2)%nat).
      { assert (He : length (map Fin vs) = length (l ++ [a; z])) by (rewrite Hl; reflexivity).
        rewrite map_length, app_length in He. exact He. }
      assert (Hn : forall j, (j < length vs)%nat -> nth j (l ++ [a; z]) NaN = Fin (nth j vs 0)).
      { intros j Hj. rewrite <- Hl. rewrite (nth_indep _ NaN (Fin 0)) by (rewrite map_length; exact Hj).
        apply map_nth. }
      pose proof (app2_nth l a z NaN) as [Ha Hz]. rewrite app_length in Ha, Hz. simpl in Ha, Hz.
      rewrite Hn in Ha by lia. rewrite Hn in Hz by lia. subst a z.
      unfold xlt in Hlt. cbn [xsub xopp xadd] in Hlt. unfold exact in Hlt.
      change (c_tol (h_cfg h0)) with (Fin (-1)) in Hlt. cbn [xltb] in Hlt. apply Rltb_true in Hlt.
      pose proof (Hmon (length l + 2 - 2)%nat (length l + 2 - 1)%nat ltac:(lia) ltac:(lia)). lra.
Qed.
