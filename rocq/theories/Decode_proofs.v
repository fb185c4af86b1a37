(** * MAP decoding, zero likelihoods, comparison of best path and total. *)
From Verif Require Export Inference_proofs.

(** ** numpy max / argmax on finite rows. *)
Lemma fvec_S n f : fvec (S n) f = Fin (f 0%nat) :: fvec n (fun i => f (S i)).
Proof. unfold fvec. apply tab_S. Qed.

Lemma tab_ext_fvec n f g : (forall i, (i < n)%nat -> f i = g i) -> fvec n f = fvec n g.
Proof. intros H. unfold fvec. apply tab_ext. intros i Hi. rewrite H by exact Hi. reflexivity. Qed.

Lemma np_argmax_from_spec n f s best bi :
  (bi < s)%nat -> (forall j, (j < s)%nat -> f j <= best) -> f bi = best ->
  (forall j, (j < bi)%nat -> f j < best) ->
  first_argmax (s + n) f
    (np_argmax_from (Fin best) bi s (fvec n (fun k => f (s + k)%nat))).
Proof.
  revert s best bi; induction n as [|n IH]; intros s best bi Hbi Hle He Hlt.
  - change (fvec 0 _) with (@nil xnum). simpl. rewrite Nat.add_0_r. split; [exact Hbi|]. rewrite He. auto.
  - rewrite fvec_S. cbn [np_argmax_from xisnan xleb]. rewrite Nat.add_0_r.
    rewrite (tab_ext_fvec n _ (fun k => f (S s + k)%nat)).
    2:{ intros i Hi. f_equal. lia. }
    replace (s + S n)%nat with (S s + n)%nat by lia.
    destruct (Rleb (f s) best) eqn:Ec; cbn [negb].
    + apply Rleb_true in Ec. apply IH; [lia| |exact He|exact Hlt].
      intros j Hj. destruct (Nat.eq_dec j s) as [->|]; [exact Ec|apply Hle; lia].
    + apply Rleb_false in Ec. apply IH; [lia| |reflexivity|].
      * intros j Hj. destruct (Nat.eq_dec j s) as [->|]; [lra|].
        apply Rle_trans with best; [apply Hle; lia|lra].
      * intros j Hj. apply Rle_lt_trans with best; [apply Hle; lia|lra].
Qed.

Lemma np_argmax_fvec n f : (0 < n)%nat -> first_argmax n f (np_argmax (fvec n f)).
Proof.
  destruct n as [|n]; [lia|]. intros _. rewrite fvec_S. cbn [np_argmax].
  apply (np_argmax_from_spec n f 1 (f 0%nat) 0); auto; try lia.
  intros j Hj. replace j with 0%nat by lia. lra.
Qed.

Lemma np_max_fvec n f i : first_argmax n f i -> np_max (fvec n f) = Fin (f i).
Proof.
  intros (Hi & Hm & _). destruct n as [|n]; [lia|]. rewrite fvec_S. cbn [np_max].
  assert (G : forall m (g : nat -> R) a, fold_left np_maximum (fvec m g) (Fin a)
     = Fin (fold_left Rmax (map g (seq 0 m)) a)).
  { clear. induction m as [|m IH]; intros g a; [reflexivity|].
    rewrite fvec_S. cbn [fold_left seq map]. rewrite <- seq_shift, map_map.
    replace (np_maximum (Fin a) (Fin (g 0%nat))) with (Fin (Rmax a (g 0%nat))); [apply IH|].
    unfold np_maximum. cbn [xltb]. unfold Rltb, Rmax. destruct (Rlt_dec a (g 0%nat)), (Rle_dec a (g 0%nat)); f_equal; lra. }
  rewrite G. f_equal.
  assert (H : forall l a, (a <= fold_left Rmax l a /\ forall y, In y l -> y <= fold_left Rmax l a)
              /\ (fold_left Rmax l a = a \/ In (fold_left Rmax l a) l)).
  { clear. induction l as [|y l IH]; intros a; simpl; [split; [split; [lra|intros _ []]|auto]|].
    destruct (IH (Rmax a y)) as [[H1 H2] H3]. split; [split|].
    - apply Rle_trans with (Rmax a y); [apply Rmax_l|exact H1].
    - intros z [->|Hz]; [apply Rle_trans with (Rmax a z); [apply Rmax_r|exact H1]|apply H2; exact Hz].
    - destruct H3 as [->|H3]; [|auto]. unfold Rmax. destruct (Rle_dec a y); auto. }
  specialize (H (map (fun k => f (S k)) (seq 0 n)) (f 0%nat)).
  destruct H as [[H1 H2] H3]. apply Rle_antisym.
  - destruct H3 as [-> | H3]; [apply Hm; lia|]. apply in_map_iff in H3 as [k [<- Hk]].
    apply in_seq in Hk. apply Hm. lia.
  - destruct i as [|i]; [exact H1|]. apply H2. apply in_map_iff. exists i. split; [reflexivity|].
    apply in_seq. lia.
Qed.

(** ** Zero likelihood with implementation="log". *)
Section ZeroPost.
  Variables (nc T : nat) (pi : nat -> R) (A : nat -> nat -> R) (B : nat -> nat -> R).
  Hypothesis Hnc : (0 < nc)%nat.
  Hypothesis Hpi : nonneg1 nc pi.
  Hypothesis HA : nonneg2 nc nc A.
  Hypothesis HB : nonneg2 (S T) nc B.
  Notation al := (alpha nc pi A B).
  Notation be := (beta nc A B).

  Lemma compute_posteriors_log_zero : likelihood nc (S T) pi A B = 0 ->
    compute_posteriors_log exact (lmat (S T) nc al) (lmat (S T) nc (fun t i => be t (T - t) i))
    = mtab (S T) nc (fun _ _ => if Nat.eqb nc 1 then Fin 1 else NaN).
  Proof.
    intros HL. unfold compute_posteriors_log, mzip. rewrite nrow_lmat, ncol_lmat.
    rewrite (mtab_ext _ _ _ (fun t i => xln (al t i * be t (T - t) i))).
    2:{ intros t i Ht Hi. rewrite !mget_lmat by assumption.
        apply xadd_xln; [apply (al_nn nc T); auto; lia|apply (be_nn nc T); auto; lia]. }
    unfold log_normalize_rows. rewrite ncol_mtab.
    destruct (Nat.eqb nc 1).
    - rewrite mat_rows_map. unfold mmap; cbn [ncol rows]. rewrite tab_map.
      unfold mtab. f_equal. apply tab_ext; intros t Ht. rewrite !tab_map.
      apply tab_ext; intros i Hi. cbn [xexp]. rewrite exp_0. reflexivity.
    - rewrite mat_rows_map. unfold mmap; cbn [ncol rows]. rewrite tab_map.
      unfold mtab. f_equal. apply tab_ext; intros t Ht. unfold log_normalize_row.
      assert (Hn : forall i, (i < nc)%nat -> 0 <= al t i * be t (T - t) i).
      { intros i Hi. apply Rmult_le_pos; [apply (al_nn nc T); auto; lia|apply (be_nn nc T); auto; lia]. }
      rewrite sp_logsumexp_xln by (try assumption; exact Hn).
      rewrite <- (likelihood_alpha_beta nc pi A B T t) by lia. rewrite HL, xln_0.
      rewrite !tab_map. apply tab_ext; intros i Hi.
      rewrite (likelihood_alpha_beta nc pi A B T t) in HL by lia.
      rewrite (sumn_eq0 _ _ Hn HL i Hi), xln_0. reflexivity.
  Qed.
End ZeroPost.

Lemma split_None {X} (x : list X) : split_X_lengths x None = split_X_lengths x (as_lengths [length x]).
Proof.
  rewrite split_X_lengths_chunks; [|discriminate|simpl; lia].
  simpl. rewrite firstn_all. reflexivity.
Qed.

Lemma score_None {P X St} (E : emclass P X St) fp h x post :
  score_ E fp h x None post = score_ E fp h x (as_lengths [length x]) post.
Proof.
  unfold score_. destruct (fitted_check E fp h) as [[[h' s] t]|]; [|reflexivity]. cbn [bind].
  destruct (check_array (ec_xok E) x) as [x'|] eqn:Ex; [|reflexivity]. cbn [bind].
  assert (x' = x) as ->.
  { unfold check_array in Ex. destruct x; [discriminate|]. destruct (forallb _ _); congruence. }
  rewrite split_None. reflexivity.
Qed.

Lemma decode_None {P X St} (E : emclass P X St) fp h x alg :
  decode E fp h x None alg = decode E fp h x (as_lengths [length x]) alg.
Proof.
  unfold decode. destruct (fitted_check E fp h) as [[[h' s] t]|]; [|reflexivity]. cbn [bind].
  match goal with |- context [if ?c then Ok ?a else ?d] => destruct (if c then Ok a else d) end; [|reflexivity].
  cbn [bind].
  destruct (check_array (ec_xok E) x) as [x'|] eqn:Ex; [|reflexivity]. cbn [bind].
  assert (x' = x) as ->.
  { unfold check_array in Ex. destruct x; [discriminate|]. destruct (forallb _ _); congruence. }
  rewrite split_None. reflexivity.
Qed.

Lemma good_single {X} (x : list X) : x <> [] -> good_lengths [length x] x.
Proof.
  intros H. split; [discriminate|]. split.
  - constructor; [destruct x; [contradiction|simpl; lia]|constructor].
  - simpl. lia.
Qed.

Lemma chunks_single {X} (x : list X) : chunks [length x] x = [x].
Proof. simpl. rewrite firstn_all. reflexivity. Qed.

Section UsableMap.
  Context {P X St : Type} (E : emclass P X St) (h : hmm P).
  Variables (nc : nat) (pi : nat -> R) (A : nat -> nat -> R) (ok : X -> Prop) (b : X -> nat -> R).
  Hypothesis Rd : ready E h nc pi A ok b.

  Lemma post_samples ls x : good_data ok ls x ->
    (forall c, In c (chunks ls x) -> scorable nc pi A b (c_impl (h_cfg h)) c) ->
    score_samples E exact h x (as_lengths ls)
    = Ok (xln (prodL (seq_lik nc pi A b) (chunks ls x)),
          Mat nc (flat_map (post_rows nc pi A b) (chunks ls x))).
  Proof.
    intros Hd Hs.
    assert (Hne : exists c, In c (chunks ls x)).
    { destruct Hd as [_ [Hne _]]. destruct ls as [|n ls]; [contradiction|].
      simpl. eexists; left; reflexivity. }
    destruct Hne as [c0 Hc0]. destruct (Hs c0 Hc0) as [[Hi _]|[Hi _]].
    - eapply score_post_log; eauto. intros c Hc.
      destruct (Hs c Hc) as [[_ H]|[H _]]; [exact H|]. rewrite Hi in H. discriminate.
    - eapply score_post_scaling; eauto. intros c Hc.
      destruct (Hs c Hc) as [[H _]|[_ H]]; [rewrite Hi in H; discriminate|exact H].
  Qed.

  Lemma scorable_pos impl c : c <> [] -> Forall ok c -> scorable nc pi A b impl c -> 0 < seq_lik nc pi A b c.
  Proof.
    intros Hne Hc [[_ H]|[_ H]]; [exact H|]. apply no_underflow_seq in H; [|exact Hne].
    destruct (seq_nonempty c Hne) as [T HT]. unfold seq_lik. rewrite HT in *.
    replace (S T - 1)%nat with T in H by lia.
    exact (prefix_pos nc T pi A _ (rd_pos E h nc pi A ok b Rd) H (S T) (le_n _)).
  Qed.

  Lemma decode_map_seq h' x : ready E h' nc pi A ok b -> c_impl (h_cfg h') = c_impl (h_cfg h) ->
    x <> [] -> Forall ok x -> scorable nc pi A b (c_impl (h_cfg h)) x ->
    exists z, decode_map E exact h' x
       = Ok (Fin (sumn (length x) (fun t => seq_post nc pi A b x t (nth t z 0%nat))), z)
      /\ length z = length x
      /\ forall t, (t < length x)%nat -> first_argmax nc (seq_post nc pi A b x t) (nth t z 0%nat).
  Proof.
    intros Rd' Hi Hne Hx Hs. unfold decode_map, score_samples.
    rewrite score_None. change (score_ E exact h' x (as_lengths [length x]) true)
      with (score_samples E exact h' x (as_lengths [length x])).
    assert (Hp : score_samples E exact h' x (as_lengths [length x])
        = Ok (xln (prodL (seq_lik nc pi A b) (chunks [length x] x)),
              Mat nc (flat_map (post_rows nc pi A b) (chunks [length x] x)))).
    {
      destruct Hs as [[Hl Hp]|[Hl Hp]].
      - eapply score_post_log; eauto; [congruence|split; [exact Hx|apply good_single; exact Hne]|].
        rewrite chunks_single. intros c [<-|[]]. exact Hp.
      - eapply score_post_scaling; eauto; [congruence|split; [exact Hx|apply good_single; exact Hne]|].
        rewrite chunks_single. intros c [<-|[]]. exact Hp. }
    rewrite Hp, chunks_single. cbn [bind rows flat_map]. rewrite app_nil_r. unfold post_rows.
    rewrite !tab_map. 
    set (z := tab (length x) (fun t => np_argmax (tab nc (fun i => Fin (seq_post nc pi A b x t i))))).
    assert (Hz : forall t, (t < length x)%nat -> first_argmax nc (seq_post nc pi A b x t) (nth t z 0%nat)).
    { intros t Ht. unfold z. rewrite tab_nth by exact Ht.
      apply (np_argmax_fvec nc (seq_post nc pi A b x t)). apply Rd. }
    exists z. split; [|split; [unfold z; apply tab_length|exact Hz]].
    f_equal. f_equal.
    rewrite <- xsum_fvec. unfold fvec. f_equal. apply tab_ext. intros t Ht.
    apply (np_max_fvec nc (seq_post nc pi A b x t)). apply Hz. exact Ht.
  Qed.

  Lemma decode_map_spec ls x alg : good_data ok ls x ->
    (alg = Some "map"%string \/ (alg = None /\ c_algorithm (h_cfg h) = "map"%string)) ->
    (forall c, In c (chunks ls x) -> scorable nc pi A b (c_impl (h_cfg h)) c) ->
    exists zs, decode E exact h x (as_lengths ls) alg
       = Ok (Fin (sumL2 (map_value nc pi A b) (chunks ls x) zs), concat zs)
      /\ Forall2 (map_decoded nc pi A b) (chunks ls x) zs.
  Proof.
    intros Hd Halg Hs. destruct (good_data_chunks ok ls x Hd) as (Hne & Hsp & Hch).
    destruct Hd as [Hx _]. destruct (ready_fitted_check E h nc pi A ok b Rd) as (h' & Hf & He & Rd' & Hcfg).
    unfold decode. rewrite Hf. cbn [bind].
    assert (Ha : match alg with
               | Some a => if String.eqb a "" then c_algorithm (h_cfg h) else a
               | None => c_algorithm (h_cfg h)
               end = "map"%string).
    { destruct Halg as [->|[-> ->]]; reflexivity. }
    rewrite Ha. cbn [String.eqb Ascii.eqb Bool.eqb]. cbn [bind].
    rewrite (check_array_ready E ok x Hne Hx (em_xok _ _ _ _ _ He)). cbn [bind].
    rewrite Hsp. cbn [bind].
    assert (G : forall xs a, Forall (fun c => c <> [] /\ Forall ok c) xs ->
      (forall c, In c xs -> scorable nc pi A b (c_impl (h_cfg h)) c) ->
      exists zs, acc_seqs exact (decode_map E exact h') (Fin a) xs
        = Ok (Fin (a + sumL2 (map_value nc pi A b) xs zs), concat zs) /\ Forall2 (map_decoded nc pi A b) xs zs).
    { induction xs as [|c xs IH]; intros a Hxs Hsx; simpl.
      - exists []. split; [rewrite Rplus_0_r; reflexivity|constructor].
      - inversion Hxs as [|? ? [H1 H2] H3]; subst.
        destruct (decode_map_seq h' c Rd' (f_equal c_impl Hcfg) H1 H2 (Hsx c (or_introl eq_refl)))
          as (z & Ez & Hz & Hm). rewrite Ez. cbn [bind]. cbn [xadd].
        destruct (IH (a + map_value nc pi A b c z)) as (zs & Ezs & Hzs);
          [exact H3|intros; apply Hsx; right; assumption|].
        match goal with |- context [acc_seqs _ _ ?v xs] => change v with (Fin (a + map_value nc pi A b c z)) end.
        rewrite Ezs. cbn [bind].
        exists (z :: zs). split.
        + simpl. f_equal. f_equal. f_equal. unfold map_value. ring.
        + constructor; [split; assumption|exact Hzs]. }
    destruct (G (chunks ls x) 0 Hch Hs) as (zs & Ezs & Hzs).
    exists zs. rewrite Ezs, Rplus_0_l. split; [reflexivity|exact Hzs].
  Qed.

  (** Bounds on the posterior maximum. *)
  Lemma max_post_ge x t i : x <> [] -> Forall ok x -> 0 < seq_lik nc pi A b x -> (t < length x)%nat ->
    first_argmax nc (seq_post nc pi A b x t) i -> / INR nc <= seq_post nc pi A b x t i <= 1.
  Proof.
    intros Hne Hx HL Ht (Hi & Hm & _).
    destruct (ready_fitted_check E h nc pi A ok b Rd) as (h' & _ & He & _).
    pose proof (obsB_nonneg ok b nc x (em_nonneg _ _ _ _ _ He) Hx) as HB.
    destruct (seq_nonempty x Hne) as [T HT]. unfold seq_post, seq_lik in *. rewrite HT in *.
    destruct (posterior_dist nc T pi A (obsB b x) (rd_pos _ _ _ _ _ _ _ Rd) (rd_pi _ _ _ _ _ _ _ Rd)
       (rd_A _ _ _ _ _ _ _ Rd) HB t HL ltac:(lia)) as [Hn Hs].
    pose proof (rd_pos _ _ _ _ _ _ _ Rd) as Hnc. apply lt_INR in Hnc. simpl in Hnc.
    split.
    - apply Rmult_le_reg_l with (INR nc); [exact Hnc|]. rewrite Rinv_r by lra.
      rewrite <- Hs at 1. rewrite <- sumn_const. apply sumn_le. exact Hm.
    - rewrite <- Hs. apply sumn_ge_term; assumption.
  Qed.

  (** ** Best path against total probability. *)
  Lemma joint_le_lik x z : x <> [] -> Forall ok x -> is_path nc (length x) z ->
    seq_joint pi A b x z <= seq_lik nc pi A b x.
  Proof.
    intros Hne Hx Hz.
    destruct (ready_fitted_check E h nc pi A ok b Rd) as (h' & _ & He & _).
    pose proof (obsB_nonneg ok b nc x (em_nonneg _ _ _ _ _ He) Hx) as HB.
    unfold seq_joint, seq_lik, likelihood. apply (sumL_ge_term (joint _ pi A (obsB b x))).
    - intros y Hy. apply in_all_paths in Hy. apply (joint_nonneg nc); try assumption; try apply Rd.
      destruct x; [contradiction|simpl; lia].
    - apply in_all_paths; exact Hz.
  Qed.

  Lemma lik_le_joint x z : x <> [] -> Forall ok x -> best_path nc pi A b x z ->
    seq_lik nc pi A b x <= INR nc ^ length x * seq_joint pi A b x z.
  Proof.
    intros Hne Hx [Hz Hm]. unfold seq_lik, likelihood.
    rewrite <- pow_INR, <- length_all_paths, <- sumL_const. apply sumL_le.
    intros y Hy. apply in_all_paths in Hy. apply Hm. exact Hy.
  Qed.

  Lemma best_joint_nonneg x z : x <> [] -> Forall ok x -> is_path nc (length x) z ->
    0 <= seq_joint pi A b x z.
  Proof.
    intros Hne Hx Hz.
    destruct (ready_fitted_check E h nc pi A ok b Rd) as (h' & _ & He & _).
    apply (joint_nonneg nc); try assumption; try apply Rd.
    - apply (obsB_nonneg ok); [apply He|exact Hx].
    - destruct x; [contradiction|simpl; lia].
  Qed.

  Lemma prod_sandwich xs zs : Forall (fun c => c <> [] /\ Forall ok c) xs ->
    Forall2 (best_path nc pi A b) xs zs ->
    0 <= prodL2 (seq_joint pi A b) xs zs
    /\ prodL2 (seq_joint pi A b) xs zs <= prodL (seq_lik nc pi A b) xs
    /\ prodL (seq_lik nc pi A b) xs
       <= INR nc ^ length (concat xs) * prodL2 (seq_joint pi A b) xs zs.
  Proof.
    intros Hxs HF. induction HF as [|x z xs zs Hb HF IH]; simpl; [lra|].
    inversion Hxs as [|? ? [H1 H2] H3]; subst. destruct (IH H3) as (I1 & I2 & I3).
    pose proof (best_joint_nonneg x z H1 H2 (proj1 Hb)) as J0.
    pose proof (joint_le_lik x z H1 H2 (proj1 Hb)) as J1.
    pose proof (lik_le_joint x z H1 H2 Hb) as J2.
    split; [apply Rmult_le_pos; assumption|]. split; [apply Rmult_le_compat; assumption|].
    rewrite app_length, pow_add.
    replace (INR nc ^ length x * INR nc ^ length (concat xs)
             * (seq_joint pi A b x z * prodL2 (seq_joint pi A b) xs zs))
      with (INR nc ^ length x * seq_joint pi A b x z
             * (INR nc ^ length (concat xs) * prodL2 (seq_joint pi A b) xs zs)) by ring.
    apply Rmult_le_compat; try assumption; lra.
  Qed.
End UsableMap.

Lemma xle_xln a b : 0 <= a -> a <= b -> xle (xln a) (xln b).
Proof.
  intros Ha Hab. unfold xle. rewrite xleb_xln by lra. apply Rleb_true. exact Hab.
Qed.
