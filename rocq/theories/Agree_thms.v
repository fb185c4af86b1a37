(** * Property lemmas C85: the methods for inference agree with each other, in any
    arithmetic and for any data. *)
From Verif Require Export Query_again Total_thms Checks2_thms.

(** The exceptions of [a] and [b] are the same; values are related by [f]. *)
Definition seen_as {A B} (f : A -> B) (a : res A) : res B :=
  match a with Ok r => Ok (f r) | Err e => Err e end.

(** ** Kernels. *)
Lemma fwd_scaling_scs fp nc t : forall frs lp prev lp' fwd scs,
  fwd_scaling_loop fp nc t lp prev frs = Ok (lp', fwd, scs) -> length scs = length frs /\ length fwd = length frs.
Proof.
  induction frs as [|fr rest IH]; intros lp prev lp' fwd scs H; cbn [fwd_scaling_loop] in H.
  - injection H as <- <- <-. auto.
  - apply bind_inv in H as ([sc row] & _ & H). apply bind_inv in H as ([[l f] s] & H1 & H). apply IH in H1 as [A B].
    injection H as <- <- <-. cbn [length]. auto.
Qed.
Lemma forward_scaling_scs fp s t f lp fwd scs : forward_scaling fp s t f = Ok (lp, fwd, scs) ->
  length scs = nrow f /\ nrow fwd = nrow f /\ exists bwd, backward_scaling fp s t f scs = Ok bwd.
Proof.
  unfold forward_scaling, backward_scaling, shape_guard. destruct (_ || _) eqn:E1; [discriminate|]. destruct (Nat.eqb (nrow f) 0) eqn:E2; [discriminate|].
  intros H. assert (L : length scs = nrow f /\ nrow fwd = nrow f).
  { unfold nrow in *. destruct (rows f) as [|fr0 rest]; [discriminate|]. apply bind_inv in H as ([sc row] & _ & H). apply bind_inv in H as ([[l g] ss] & H1 & H).
    apply fwd_scaling_scs in H1 as [A B]. injection H as <- <- <-. cbn [length rows]. auto. }
  destruct L as [L1 L2]. do 2 (split; [assumption|]). rewrite L1, Nat.eqb_refl. cbn [negb]. eexists; reflexivity.
Qed.
Lemma forward_log_bwd fp s t f lp fwd : forward_log fp s t f = Ok (lp, fwd) -> exists bwd, backward_log fp s t f = Ok bwd.
Proof.
  unfold forward_log, backward_log, shape_guard. destruct (_ || _); [discriminate|]. destruct (Nat.eqb _ 0); [discriminate|].
  intros _. eexists; reflexivity.
Qed.

(** ** States are numbers below the number of states. *)
Lemma np_argmax_from_lt : forall v best bi i n, (bi < n)%nat -> (i + length v <= n)%nat -> (np_argmax_from best bi i v < n)%nat.
Proof.
  induction v as [|y r IH]; intros best bi i n Hb Hi; cbn [np_argmax_from length] in *; [assumption|].
  destruct (xisnan best); [assumption|]. destruct (negb (xleb y best)); apply IH; lia.
Qed.
Lemma np_argmax_lt v : v <> [] -> (np_argmax v < length v)%nat.
Proof. destruct v as [|y r]; [congruence|]. intros _. cbn [np_argmax length]. apply np_argmax_from_lt; lia. Qed.
Lemma max_element_from_lt : forall v best bi i n, (bi < n)%nat -> (i + length v <= n)%nat -> (max_element_idx_from best bi i v < n)%nat.
Proof.
  induction v as [|y r IH]; intros best bi i n Hb Hi; cbn [max_element_idx_from length] in *; [assumption|].
  destruct (xltb best y); apply IH; lia.
Qed.
Lemma max_element_lt v : v <> [] -> (max_element_idx v < length v)%nat.
Proof. destruct v as [|y r]; [congruence|]. intros _. cbn [max_element_idx length]. apply max_element_from_lt; lia. Qed.
Lemma vit_back_lt fp nc t row p : (0 < nc)%nat -> (vit_back fp nc t row p < nc)%nat.
Proof.
  intros Hn. unfold vit_back.
  assert (G : forall l m, (snd m < nc)%nat -> (forall i, In i l -> (i < nc)%nat) ->
    (snd (fold_left (fun m i => pair_max m (xadd fp (vget row i) (mget t i p), i)) l m) < nc)%nat).
  { induction l as [|i l IH]; intros m Hm Hl; cbn [fold_left]; [assumption|]. apply IH; [|intros j Hj; apply Hl; now right].
    unfold pair_max. destruct (pair_ltb _ _); [apply Hl; now left|assumption]. }
  apply G; [exact Hn|]. intros i Hi. apply in_seq in Hi. lia.
Qed.
Lemma vit_trace_shape fp nc t : (0 < nc)%nat -> forall lat, Forall (fun r => length r = nc) lat ->
  length (vit_trace fp nc t lat) = length lat /\ Forall (fun z => (z < nc)%nat) (vit_trace fp nc t lat).
Proof.
  intros Hn. induction lat as [|row rest IH]; intros H; [split; [reflexivity|constructor]|]. inversion H as [|? ? Hr Hrest]; subst.
  destruct (IH Hrest) as [I1 I2]. destruct rest as [|r2 rest].
  - cbn [vit_trace length]. split; [reflexivity|]. constructor; [|constructor]. apply max_element_lt. intros E. rewrite E in Hn. cbn in Hn. lia.
  - assert (T : vit_trace fp (length row) t (row :: r2 :: rest) = vit_back fp (length row) t row (hd 0%nat (vit_trace fp (length row) t (r2 :: rest))) :: vit_trace fp (length row) t (r2 :: rest)) by reflexivity.
    rewrite T. split; [cbn [length] in *; now rewrite I1|]. constructor; [now apply vit_back_lt|exact I2].
Qed.
Lemma vit_loop_shape fp nc t : forall l prev, length (vit_loop fp nc t prev l) = length l /\ Forall (fun r => length r = nc) (vit_loop fp nc t prev l).
Proof.
  induction l as [|a l IH]; intros prev; cbn [vit_loop length]; [split; [reflexivity|constructor]|].
  destruct (IH (vit_row fp nc t prev a)) as [I1 I2]. split; [now rewrite I1|]. constructor; [apply tab_length|exact I2].
Qed.
Lemma viterbi_shape fp s t lf lp z : (0 < length s)%nat -> viterbi fp s t lf = Ok (lp, z) ->
  length z = nrow lf /\ (0 < nrow lf)%nat /\ Forall (fun i => (i < length s)%nat) z.
Proof.
  intros Hn. unfold viterbi, shape_guard. destruct (_ || _) eqn:E1; [discriminate|]. destruct (Nat.eqb (nrow lf) 0) eqn:E0; [discriminate|].
  apply Nat.eqb_neq in E0. apply orb_false_iff in E1 as [E1 _]. apply orb_false_iff in E1 as [E1 _]. apply negb_false_iff, Nat.eqb_eq in E1.
  rewrite <- E1. unfold nrow in *. destruct (rows lf) as [|r0 rest]; [discriminate|]. intros H. match type of H with Ok (_, vit_trace _ _ _ ?l) = _ => set (lat := l) in * end.
  assert (z = vit_trace fp (length s) (mlog fp t) lat) as -> by congruence.
  destruct (vit_trace_shape fp (length s) (mlog fp t) Hn lat) as [J1 J2].
  { constructor; [apply tab_length|apply vit_loop_shape]. }
  split; [rewrite J1; unfold lat; cbn [length]; now rewrite (proj1 (vit_loop_shape _ _ _ _ _))|]. split; [cbn [length]; lia|exact J2].
Qed.

(** ** One sequence after another. *)
Section Acc.
  Context {X A B : Type} (fp : fpmode).
  Lemma acc_seqs_fst (f : list X -> res (xnum * list A)) (g : list X -> res (xnum * list B)) xs :
    (forall x, seen_as fst (f x) = seen_as fst (g x)) ->
    forall lp, seen_as fst (acc_seqs fp f lp xs) = seen_as fst (acc_seqs fp g lp xs).
  Proof.
    intros H. induction xs as [|x r IH]; intros lp; cbn [acc_seqs]; [reflexivity|]. specialize (H x).
    destruct (f x) as [[l a]|e], (g x) as [[l' b]|e']; cbn [seen_as fst bind] in *; try discriminate; [|congruence].
    injection H as <-. specialize (IH (xadd fp lp l)).
    destruct (acc_seqs fp f _ r) as [[l1 a1]|e], (acc_seqs fp g _ r) as [[l2 b1]|e']; cbn [seen_as fst bind] in *; congruence.
  Qed.
  Lemma acc_seqs_map (f : list X -> res (xnum * list A)) (g : list X -> res (xnum * list B)) (k : A -> B) xs :
    (forall x l a, In x xs -> f x = Ok (l, a) -> exists v, g x = Ok (v, map k a)) ->
    forall lp lp' l a, acc_seqs fp f lp xs = Ok (l, a) -> exists v, acc_seqs fp g lp' xs = Ok (v, map k a).
  Proof.
    induction xs as [|x r IH]; intros H lp lp' l a Ha; cbn [acc_seqs] in *.
    - injection Ha as <- <-. eexists; reflexivity.
    - apply bind_inv in Ha as ([l1 a1] & H1 & Ha). apply bind_inv in Ha as ([l2 a2] & H2 & Ha). injection Ha as <- <-.
      destruct (H x l1 a1 (or_introl eq_refl) H1) as [v ->]. cbn [bind].
      destruct (IH (fun y l a Hy => H y l a (or_intror Hy)) _ (xadd fp lp' v) _ _ H2) as [w ->]. cbn [bind]. rewrite map_app. eexists; reflexivity.
  Qed.
  Lemma acc_seqs_shape (f : list X -> res (xnum * list A)) (Q : A -> Prop) xs :
    (forall x l a, In x xs -> f x = Ok (l, a) -> x <> [] /\ length a = length x /\ Forall Q a) ->
    forall lp l a, acc_seqs fp f lp xs = Ok (l, a) -> length a = length (concat xs) /\ Forall Q a /\ Forall (fun x => x <> []) xs.
  Proof.
    induction xs as [|x r IH]; intros H lp l a Ha; cbn [acc_seqs] in *.
    - injection Ha as <- <-. repeat split; constructor.
    - apply bind_inv in Ha as ([l1 a1] & H1 & Ha). apply bind_inv in Ha as ([l2 a2] & H2 & Ha). injection Ha as <- <-.
      destruct (H x l1 a1 (or_introl eq_refl) H1) as (A1 & A2 & A3).
      destruct (IH (fun y l a Hy => H y l a (or_intror Hy)) _ _ _ H2) as (B1 & B2 & B3). cbn [concat]. rewrite !app_length, A2, B1.
      repeat split; [apply Forall_app; split; assumption|constructor; assumption].
  Qed.
End Acc.

Lemma in_firstn {A} (a : A) n : forall l, In a (firstn n l) -> In a l.
Proof. induction n; intros [|b l]; cbn; try tauto. intros [->|H]; [auto|]. right. auto. Qed.
Lemma in_skipn {A} (a : A) n : forall l, In a (skipn n l) -> In a l.
Proof. induction n; intros [|b l]; cbn; try tauto. intros H. right. auto. Qed.
Lemma split_from_in {A} (l : list A) : forall ls s c a, In c (split_from l s ls) -> In a c -> In a l.
Proof.
  induction ls as [|n r IH]; intros s c a; cbn [split_from In]; [tauto|].
  intros [<-|H] Ha; [|exact (IH _ _ _ H Ha)]. unfold py_slice in Ha. eapply in_skipn, in_firstn, Ha.
Qed.
Lemma split_in {A} (l : list A) ls xs c a : split_X_lengths l ls = Ok xs -> In c xs -> In a c -> In a l.
Proof.
  unfold split_X_lengths. destruct ls as [[|n r]|]; [discriminate| |].
  - destruct (Z.eqb _ _); [|discriminate]. intros H. assert (Hs : xs = split_from l 0%Z (n :: r)) by congruence. rewrite Hs. apply split_from_in.
  - intros H. injection H as <-. intros [<-|[]]. auto.
Qed.
Lemma split_one {A} (l : list A) : split_X_lengths l None = Ok [l].
Proof. reflexivity. Qed.
Lemma check_array_part {X} (ok : X -> bool) x y c : check_array ok x = Ok y -> c <> [] -> (forall a, In a c -> In a y) -> y = x /\ check_array ok c = Ok c.
Proof.
  unfold check_array. destruct x as [|x0 x']; [discriminate|]. destruct (forallb ok (x0 :: x')) eqn:E; [|discriminate]. intros H. injection H as <-.
  intros Hc Hin. split; [reflexivity|]. destruct c as [|c0 c']; [congruence|].
  rewrite forallb_forall in E. assert (F : forallb ok (c0 :: c') = true). { apply forallb_forall. intros a Ha. apply E, Hin, Ha. }
  rewrite F. reflexivity.
Qed.

(** ** All classes. *)
Section Agree.
  Context {P X St : Type} (E : emclass P X St) (fp : fpmode).
  Lemma seq_log_fst h s t x : seen_as fst (score_log_seq E fp h s t false x) = seen_as fst (score_log_seq E fp h s t true x).
  Proof.
    unfold score_log_seq. destruct (loglik E fp h x) as [lf|e]; cbn [bind]; [|reflexivity].
    destruct (forward_log fp s t lf) as [[lp fwd]|e] eqn:F; cbn [bind]; [|reflexivity].
    destruct (forward_log_bwd _ _ _ _ _ _ F) as [bwd ->]. reflexivity.
  Qed.
  Lemma seq_scaling_fst h s t x : seen_as fst (score_scaling_seq E fp h s t false x) = seen_as fst (score_scaling_seq E fp h s t true x).
  Proof.
    unfold score_scaling_seq. destruct (lik E fp h x) as [lf|e]; cbn [bind]; [|reflexivity].
    destruct (forward_scaling fp s t lf) as [[[lp fwd] scs]|e] eqn:F; cbn [bind]; [|reflexivity].
    destruct (forward_scaling_scs _ _ _ _ _ _ _ F) as (_ & _ & bwd & ->). reflexivity.
  Qed.
  (** [score] is the first component of [score_samples]; the two raise alike. *)
  Lemma score_agrees h x ls : score E fp h x ls = seen_as fst (score_samples E fp h x ls).
  Proof.
    unfold score, score_samples, score_. destruct (fitted_check E fp h) as [[[h' s] t]|e]; cbn [bind]; [|reflexivity].
    destruct (check_array _ x) as [y|e]; cbn [bind]; [|reflexivity].
    destruct (String.eqb _ "scaling"); [|destruct (String.eqb _ "log"); [|reflexivity]]; cbn [bind].
    - destruct (split_X_lengths y ls) as [xs|e]; cbn [bind]; [|reflexivity].
      pose proof (acc_seqs_fst fp _ _ xs (seq_scaling_fst h' s t) (Fin 0)) as H.
      destruct (acc_seqs fp _ _ xs) as [[l a]|e], (acc_seqs fp (score_scaling_seq E fp h' s t true) _ xs) as [[l' b]|e']; cbn [seen_as fst bind] in *; congruence.
    - destruct (split_X_lengths y ls) as [xs|e]; cbn [bind]; [|reflexivity].
      pose proof (acc_seqs_fst fp _ _ xs (seq_log_fst h' s t) (Fin 0)) as H.
      destruct (acc_seqs fp _ _ xs) as [[l a]|e], (acc_seqs fp (score_log_seq E fp h' s t true) _ xs) as [[l' b]|e']; cbn [seen_as fst bind] in *; congruence.
  Qed.


  (** The emission class returns one row of densities per sample. *)
  Hypothesis LL : forall c nf p x m, ec_loglik E fp c nf p x = Ok m -> nrow m = length x.
  Hypothesis LN : forall c nf p x m, ec_lik E fp c nf p x = Ok m -> nrow m = length x.

  Lemma seq_log_rows h s t x lp rs : score_log_seq E fp h s t true x = Ok (lp, rs) ->
    x <> [] /\ length rs = length x /\ Forall (fun r => length r = length s) rs.
  Proof.
    unfold score_log_seq. intros H. apply bind_inv in H as (lf & Hl & H). apply bind_inv in H as ([l fwd] & Hf & H).
    apply bind_inv in H as (bwd & Hb & H). injection H as <- <-. apply LL in Hl.
    unfold forward_log, shape_guard in Hf. destruct (_ || _) eqn:E1; [discriminate|]. destruct (Nat.eqb (nrow lf) 0) eqn:E0; [discriminate|].
    apply Nat.eqb_neq in E0. apply orb_false_iff in E1 as [E1 _]. apply orb_false_iff in E1 as [E1 _]. apply negb_false_iff, Nat.eqb_eq in E1.
    split; [intros ->; cbn in Hl; lia|]. rewrite <- Hl, E1. unfold nrow.
    destruct (rows lf) as [|r0 rest] eqn:Er; [discriminate|]. injection Hf as _ <-.
    unfold compute_posteriors_log, log_normalize_rows, mmap, mzip, mtab, nrow. cbn [rows ncol]. split.
    - destruct (Nat.eqb _ 1); cbn [rows]; rewrite !map_length, tab_length; cbn [rows length]; rewrite fwd_log_loop_length; reflexivity.
    - apply Forall_forall. intros r Hr. destruct (Nat.eqb _ 1); cbn [rows] in Hr.
      + apply in_map_iff in Hr as (r1 & <- & Hr). apply in_map_iff in Hr as (r2 & <- & Hr). apply in_map_iff in Hr as (i & <- & _). now rewrite !map_length, tab_length.
      + apply in_map_iff in Hr as (r1 & <- & Hr). apply in_map_iff in Hr as (r2 & <- & Hr). apply in_map_iff in Hr as (i & <- & _). unfold log_normalize_row. now rewrite !map_length, tab_length.
  Qed.
  Lemma seq_scaling_rows h s t x lp rs : score_scaling_seq E fp h s t true x = Ok (lp, rs) ->
    x <> [] /\ length rs = length x /\ Forall (fun r => length r = length s) rs.
  Proof.
    unfold score_scaling_seq. intros H. apply bind_inv in H as (lf & Hl & H). apply bind_inv in H as ([[l fwd] scs] & Hf & H).
    apply bind_inv in H as (bwd & Hb & H). injection H as <- <-. apply LN in Hl.
    destruct (forward_scaling_scs _ _ _ _ _ _ _ Hf) as (_ & Hn & _).
    unfold forward_scaling, shape_guard in Hf. destruct (_ || _) eqn:E1; [discriminate|]. destruct (Nat.eqb (nrow lf) 0) eqn:E0; [discriminate|].
    apply Nat.eqb_neq in E0. apply orb_false_iff in E1 as [E1 _]. apply orb_false_iff in E1 as [E1 _]. apply negb_false_iff, Nat.eqb_eq in E1.
    split; [intros ->; cbn in Hl; lia|]. rewrite <- Hl, <- Hn, E1.
    assert (Hc : ncol fwd = ncol lf).
    { destruct (rows lf) as [|r0 rest] eqn:Er; [discriminate|]. apply bind_inv in Hf as ([sc row] & _ & Hf). apply bind_inv in Hf as ([[l' g] ss] & _ & Hf). injection Hf as _ <- _. reflexivity. }
    unfold compute_posteriors_scaling, normalize_rows, mzip, mtab. cbn [rows ncol]. split.
    - now rewrite map_length, tab_length.
    - apply Forall_forall. intros r Hr. apply in_map_iff in Hr as (r1 & <- & Hr). apply in_map_iff in Hr as (i & <- & _). unfold normalize_row. cbv zeta.
      now rewrite map_length, tab_length.
  Qed.

  Lemma score_shape h x ls lp post : score_samples E fp h x ls = Ok (lp, post) ->
    exists h' s t xs f, fitted_check E fp h = Ok (h', s, t) /\ check_array (ec_xok E) x = Ok x /\ split_X_lengths x ls = Ok xs
      /\ (if String.eqb (c_impl (h_cfg h)) "scaling" then f = score_scaling_seq E fp h' s t true
           else String.eqb (c_impl (h_cfg h)) "log" = true /\ f = score_log_seq E fp h' s t true)
      /\ acc_seqs fp f (Fin 0) xs = Ok (lp, rows post) /\ ncol post = c_nc (h_cfg h)
      /\ length (rows post) = length (concat xs) /\ Forall (fun r => length r = length s) (rows post) /\ Forall (fun c => c <> []) xs.
  Proof.
    unfold score_samples, score_. intros H. apply bind_inv in H as ([[h' s] t] & Hf & H). apply bind_inv in H as (y & Hy & H).
    assert (y = x) as -> by (unfold check_array in Hy; destruct x; [discriminate|]; destruct (forallb _ _); congruence).
    apply bind_inv in H as (f & Hs & H). apply bind_inv in H as (xs & Hx & H). apply bind_inv in H as ([l rs] & Ha & H). injection H as <- <-.
    exists h', s, t, xs, f. do 3 (split; [assumption|]). cbn [rows ncol].
    assert (Hi : if String.eqb (c_impl (h_cfg h)) "scaling" then f = score_scaling_seq E fp h' s t true
           else String.eqb (c_impl (h_cfg h)) "log" = true /\ f = score_log_seq E fp h' s t true).
    { destruct (String.eqb _ "scaling"); [congruence|]. destruct (String.eqb _ "log"); [|discriminate]. split; congruence. }
    split; [exact Hi|]. split; [exact Ha|]. split; [reflexivity|].
    apply (acc_seqs_shape fp f (fun r => length r = length s) xs) in Ha as (A1 & A2 & A3); [auto|].
    intros c l0 a _ Hc. destruct (String.eqb _ "scaling"); [subst f; eapply seq_scaling_rows; exact Hc|]. destruct Hi as [_ ->]. eapply seq_log_rows; exact Hc.
  Qed.

  (** A validated estimator is found valid again. *)
  Hypothesis V2 : forall h h' s t, fitted_check E fp h = Ok (h', s, t) ->
    h_cfg h' = h_cfg h /\ fitted_check E fp h' = Ok (h', s, t).

  (** The posteriors of one sequence, asked for on their own. *)
  Lemma samples_alone h h' s t c f : fitted_check E fp h = Ok (h', s, t) -> check_array (ec_xok E) c = Ok c ->
    (if String.eqb (c_impl (h_cfg h)) "scaling" then f = score_scaling_seq E fp h' s t true
     else String.eqb (c_impl (h_cfg h)) "log" = true /\ f = score_log_seq E fp h' s t true) ->
    score_samples E fp h' c None = do (l, rs) <- f c; Ok (xadd fp (Fin 0) l, Mat (c_nc (h_cfg h)) (rs ++ [])).
  Proof.
    intros Hf Hc Hi. destruct (V2 _ _ _ _ Hf) as [Hg Hf2]. unfold score_samples, score_. rewrite Hf2. cbn [bind]. rewrite Hc, Hg. cbn [bind].
    destruct (String.eqb _ "scaling"); [subst f|destruct Hi as [-> ->]]; cbn [bind split_X_lengths acc_seqs].
    - destruct (score_scaling_seq _ _ _ _ _ _ c) as [[l rs]|]; reflexivity.
    - destruct (score_log_seq _ _ _ _ _ _ c) as [[l rs]|]; reflexivity.
  Qed.
  Lemma map_agrees h x ls lp post : score_samples E fp h x ls = Ok (lp, post) ->
    exists v, decode E fp h x ls (Some "map"%string) = Ok (v, map np_argmax (rows post)).
  Proof.
    intros H. destruct (score_shape _ _ _ _ _ H) as (h' & s & t & xs & f & Hf & Hx & Hs & Hi & Ha & _ & _ & _ & Hne).
    unfold decode. rewrite Hf. cbn [bind String.eqb Ascii.eqb Bool.eqb]. cbn [bind]. rewrite Hx. cbn [bind]. rewrite Hs. cbn [bind].
    eapply (acc_seqs_map fp f _ np_argmax xs); [|exact Ha].
    intros c l a Hc Hfc. unfold decode_map. rewrite Forall_forall in Hne.
    destruct (check_array_part _ _ _ c Hx (Hne c Hc) (fun o => split_in _ _ _ _ o Hs Hc)) as [_ Hcc].
    rewrite (samples_alone h h' s t c f Hf Hcc Hi), Hfc. cbn [bind rows]. rewrite app_nil_r. eexists; reflexivity.
  Qed.
  Lemma map_agrees_back h x ls v z : decode E fp h x ls (Some "map"%string) = Ok (v, z) ->
    exists lp post, score_samples E fp h x ls = Ok (lp, post) /\ z = map np_argmax (rows post).
  Proof.
    unfold decode. intros H. apply bind_inv in H as ([[h' s] t] & Hf & H). cbn [String.eqb Ascii.eqb Bool.eqb] in H. cbn [bind] in H.
    apply bind_inv in H as (y & Hy & H). assert (y = x) as -> by (unfold check_array in Hy; destruct x; [discriminate|]; destruct (forallb _ _); congruence).
    apply bind_inv in H as (xs & Hs & H). destruct (V2 _ _ _ _ Hf) as [Hg Hf2].
    assert (K : exists f, (if String.eqb (c_impl (h_cfg h)) "scaling" then f = score_scaling_seq E fp h' s t true
           else String.eqb (c_impl (h_cfg h)) "log" = true /\ f = score_log_seq E fp h' s t true)).
    { destruct (String.eqb (c_impl (h_cfg h)) "scaling") eqn:E1; [eexists; reflexivity|]. destruct (String.eqb (c_impl (h_cfg h)) "log") eqn:E2; [eexists; split; reflexivity|].
      exfalso. assert (Hne : xs <> []). { intros ->. unfold split_X_lengths in Hs. destruct ls as [[|n r]|]; [discriminate| |discriminate]. destruct (Z.eqb _ _); discriminate. }
      destruct xs as [|c xs]; [congruence|]. cbn [acc_seqs] in H. apply bind_inv in H as ([l1 a1] & H1 & _). unfold decode_map in H1. apply bind_inv in H1 as (r & H1 & _).
      unfold score_samples, score_ in H1. rewrite Hf2, Hg, E1, E2 in H1. cbn [bind] in H1. apply bind_inv in H1 as (? & _ & H1). discriminate. }
    destruct K as [f Hi].
    assert (G : forall lp1 lp2 v z, acc_seqs fp (decode_map E fp h') lp1 xs = Ok (v, z) -> exists l rs, acc_seqs fp f lp2 xs = Ok (l, rs) /\ z = map np_argmax rs).
    { assert (Hin : forall c, In c xs -> forall o, In o c -> In o x) by (intros c Hc o; eapply split_in; eassumption). clear Hs H. induction xs as [|c xs IH]; intros lp1 lp2 v0 z0 H; cbn [acc_seqs] in *.
      - injection H as <- <-. do 2 eexists; split; reflexivity.
      - apply bind_inv in H as ([l1 a1] & H1 & H). apply bind_inv in H as ([l2 a2] & H2 & H). injection H as <- <-.
        assert (Hc : c <> []). { intros ->. unfold decode_map in H1. apply bind_inv in H1 as (r & H1 & _). unfold score_samples, score_ in H1. rewrite Hf2 in H1. discriminate. }
        destruct (check_array_part _ _ _ c Hy Hc (Hin c (or_introl eq_refl))) as [_ Hcc].
        unfold decode_map in H1. rewrite (samples_alone h h' s t c f Hf Hcc Hi) in H1.
        destruct (f c) as [[l rs]|]; [|discriminate]. cbn [bind rows] in *. rewrite app_nil_r in H1. injection H1 as _ <-.
        destruct (IH (fun d Hd => Hin d (or_intror Hd)) _ (xadd fp lp2 l) _ _ H2) as (l' & rs' & -> & ->). cbn [bind].
        do 2 eexists. split; [reflexivity|]. now rewrite map_app. }
    destruct (G _ (Fin 0) _ _ H) as (l & rs & Ha & ->). exists l, (Mat (c_nc (h_cfg h)) rs). split; [|reflexivity].
    unfold score_samples, score_. rewrite Hf. cbn [bind]. rewrite Hy. cbn [bind].
    destruct (String.eqb (c_impl (h_cfg h)) "scaling"); [subst f|destruct Hi as [-> ->]]; cbn [bind]; rewrite Hs; cbn [bind]; rewrite Ha; reflexivity.
  Qed.

  Lemma decode_shape h x ls alg v z : (0 < c_nc (h_cfg h))%nat -> decode E fp h x ls alg = Ok (v, z) ->
    exists xs, split_X_lengths x ls = Ok xs /\ length z = length (concat xs) /\ Forall (fun i => (i < c_nc (h_cfg h))%nat) z.
  Proof.
    intros Hn H. pose proof H as H0. unfold decode in H. apply bind_inv in H as ([[h' s] t] & Hf & H).
    assert (Hl : length s = c_nc (h_cfg h)).
    { unfold fitted_check, check in Hf. destruct (h_start h) as [s0|] eqn:Es; [|discriminate]. apply bind_inv in Hf as (h1 & Hc & Hf).
      destruct (h_trans h) as [t0|] eqn:Et; [|destruct (negb _); [discriminate|]; destruct (negb _); discriminate].
      apply bind_inv in Hc as (u & Hb & Hc). apply base_check_shapes in Hb as [Hb _]. apply bind_inv in Hc as ([nf p] & _ & Hc). injection Hc as <-. cbn [h_start h_trans] in Hf. congruence. }
    cbv zeta in H. apply bind_inv in H as (f & Hd & H). apply bind_inv in H as (y & Hy & H).
    assert (y = x) as -> by (unfold check_array in Hy; destruct x; [discriminate|]; destruct (forallb _ _); congruence).
    apply bind_inv in H as (xs & Hs & H). exists xs. split; [exact Hs|].
    match type of Hd with (if String.eqb ?a _ then _ else _) = _ => set (al := a) in * end.
    destruct (String.eqb al "viterbi") eqn:E1.
    - assert (f = decode_viterbi E fp h' s t) as -> by congruence.
      apply (acc_seqs_shape fp _ (fun i => (i < c_nc (h_cfg h))%nat) xs) in H as (A1 & A2 & _); [auto|].
      intros c l a _ Hc. unfold decode_viterbi in Hc. apply bind_inv in Hc as (lf & Hl1 & Hc). apply LL in Hl1.
      apply viterbi_shape in Hc as (B1 & B2 & B3); [|lia]. rewrite Hl in B3. split; [intros ->; cbn in Hl1; lia|]. split; [lia|assumption].
    - destruct (String.eqb al "map") eqn:E2; [|discriminate].
      assert (Hm : decode E fp h x ls (Some "map"%string) = Ok (v, z)).
      { unfold decode. rewrite Hf. cbn [bind String.eqb Ascii.eqb Bool.eqb]. cbn [bind]. rewrite Hy. cbn [bind]. rewrite Hs. cbn [bind]. rewrite <- H. f_equal. congruence. }
      destruct (map_agrees_back _ _ _ _ _ Hm) as (lp & post & Hp & ->).
      destruct (score_shape _ _ _ _ _ Hp) as (h2 & s2 & t2 & xs2 & f2 & Hf2 & _ & Hs2 & _ & _ & _ & Hlen & Hrow & _).
      rewrite Hs in Hs2. injection Hs2 as <-. rewrite map_length. split; [exact Hlen|].
      apply Forall_forall. intros i Hi. apply in_map_iff in Hi as (r & <- & Hr). rewrite Forall_forall in Hrow. specialize (Hrow r Hr).
      assert (s2 = s) by congruence. subst s2. rewrite <- Hl, <- Hrow. apply np_argmax_lt. intros ->. cbn in Hrow. lia.
  Qed.
End Agree.

(** ** The properties, for a class of models. *)
(** What the methods return, and whether they raise, fits together. *)
Definition methods_agree {P X St} (E : emclass P X St) (fp : fpmode) : Prop := forall h x ls,
  let own := c_algorithm (h_cfg h) in
  score E fp h x ls = seen_as fst (score_samples E fp h x ls)
  /\ predict_proba E fp h x ls = seen_as snd (score_samples E fp h x ls)
  /\ decode E fp h x ls None = decode E fp h x ls (Some own)
  /\ decode E fp h x ls (Some ""%string) = decode E fp h x ls (Some own)
  /\ predict E fp h x ls = seen_as snd (decode E fp h x ls (Some own))
  /\ (forall z, (exists v, decode E fp h x ls (Some "map"%string) = Ok (v, z))
                <-> exists post, predict_proba E fp h x ls = Ok post /\ z = map np_argmax (rows post))
  /\ (own = "map"%string -> forall z,
        predict E fp h x ls = Ok z <-> exists post, predict_proba E fp h x ls = Ok post /\ z = map np_argmax (rows post)).
(** One row of posteriors and one state per sample. *)
Definition one_per_sample {P X St} (E : emclass P X St) (fp : fpmode) : Prop := forall h x ls,
  let nc := c_nc (h_cfg h) in
  (0 < nc)%nat -> (forall l, ls = Some l -> Forall (fun n => (0 <= n)%Z) l) ->
  (forall post, predict_proba E fp h x ls = Ok post -> nrow post = length x /\ Forall (fun r => length r = nc) (rows post))
  /\ (forall alg v z, decode E fp h x ls alg = Ok (v, z) -> length z = length x /\ Forall (fun i => (i < nc)%nat) z)
  /\ (forall z, predict E fp h x ls = Ok z -> length z = length x /\ Forall (fun i => (i < nc)%nat) z).

Lemma split_whole {X} (x : list X) ls xs : (forall l, ls = Some l -> Forall (fun n => (0 <= n)%Z) l) ->
  split_X_lengths x ls = Ok xs -> concat xs = x.
Proof.
  intros Hp H. destruct ls as [l|].
  - destruct l as [|n l]; [discriminate|]. pose proof (C10_split_l x (n :: l) ltac:(discriminate)) as (S1 & S2 & _).
    destruct (Z.eq_dec (fold_right Z.add 0%Z (n :: l)) (Z.of_nat (length x))) as [He|He].
    + destruct (S2 He (Hp _ eq_refl)) as (ps & H' & Hc & _). congruence.
    + apply S1 in He. congruence.
  - cbn in H. injection H as <-. cbn. apply app_nil_r.
Qed.

Section Classes.
  Context {P X St : Type} (E : emclass P X St) (fp : fpmode).
  Hypothesis LL : forall c nf p x m, ec_loglik E fp c nf p x = Ok m -> nrow m = length x.
  Hypothesis LN : forall c nf p x m, ec_lik E fp c nf p x = Ok m -> nrow m = length x.
  Hypothesis V2 : forall h h' s t, fitted_check E fp h = Ok (h', s, t) ->
    h_cfg h' = h_cfg h /\ fitted_check E fp h' = Ok (h', s, t).
  Lemma own_algorithm h x ls : decode E fp h x ls None = decode E fp h x ls (Some (c_algorithm (h_cfg h)))
    /\ decode E fp h x ls (Some ""%string) = decode E fp h x ls (Some (c_algorithm (h_cfg h))).
  Proof. unfold decode. destruct (String.eqb (c_algorithm (h_cfg h)) "") eqn:E0; split; cbn [String.eqb]; reflexivity. Qed.
  Lemma predict_own h x ls : predict E fp h x ls = seen_as snd (decode E fp h x ls (Some (c_algorithm (h_cfg h)))).
  Proof. unfold predict. rewrite (proj1 (own_algorithm h x ls)). destruct (decode _ _ _ _ _ _) as [[v z]|]; reflexivity. Qed.
  Lemma methods_agree_by : methods_agree E fp.
  Proof.
    intros h x ls. cbv zeta. split; [apply score_agrees|].
    assert (PP : predict_proba E fp h x ls = seen_as snd (score_samples E fp h x ls)).
    { unfold predict_proba. destruct (score_samples E fp h x ls) as [[l p]|]; reflexivity. }
    split; [exact PP|]. split; [apply own_algorithm|]. split; [apply own_algorithm|]. split; [apply predict_own|].
    assert (M : forall z, (exists v, decode E fp h x ls (Some "map"%string) = Ok (v, z))
                <-> exists post, predict_proba E fp h x ls = Ok post /\ z = map np_argmax (rows post)).
    { intros z. rewrite PP. split.
      - intros [v H]. destruct (map_agrees_back E fp V2 _ _ _ _ _ H) as (lp & post & -> & ->). exists post. split; reflexivity.
      - intros (post & H & ->). destruct (score_samples E fp h x ls) as [[lp p]|] eqn:Hs; [|discriminate]. cbn in H. injection H as <-.
        exact (map_agrees E fp LL LN V2 _ _ _ _ _ Hs). }
    split; [exact M|]. intros Ho z. rewrite <- M, predict_own, Ho. split.
    - destruct (decode _ _ _ _ _ _) as [[v y]|]; [|discriminate]. cbn. intros H. injection H as <-. eexists; reflexivity.
    - intros [v ->]. reflexivity.
  Qed.
  Lemma one_per_sample_by : one_per_sample E fp.
  Proof.
    intros h x ls. cbv zeta. intros Hn Hp.
    assert (D : forall alg v z, decode E fp h x ls alg = Ok (v, z) -> length z = length x /\ Forall (fun i => (i < c_nc (h_cfg h))%nat) z).
    { intros alg v z H. destruct (decode_shape E fp LL LN V2 _ _ _ _ _ _ Hn H) as (xs & Hs & H1 & H2). rewrite (split_whole _ _ _ Hp Hs) in H1. auto. }
    split; [|split; [exact D|]].
    - intros post H. unfold predict_proba in H. apply bind_inv in H as ([lp p] & H & H1). injection H1 as <-.
      destruct (score_shape E fp LL LN _ _ _ _ _ H) as (h' & s & t & xs & f & Hf & _ & Hs & _ & _ & _ & H1 & H2 & _).
      rewrite (split_whole _ _ _ Hp Hs) in H1. split; [exact H1|].
      assert (Hl : length s = c_nc (h_cfg h)).
      { unfold fitted_check, check in Hf. destruct (h_start h) as [s0|] eqn:Es; [|discriminate]. apply bind_inv in Hf as (h1 & Hc & Hf).
        destruct (h_trans h) as [t0|] eqn:Et; [|destruct (negb _); [discriminate|]; destruct (negb _); discriminate].
        apply bind_inv in Hc as (u & Hb & Hc). apply base_check_shapes in Hb as [Hb _]. apply bind_inv in Hc as ([nf p1] & _ & Hc). injection Hc as <-. cbn [h_start h_trans] in Hf. congruence. }
      rewrite <- Hl. exact H2.
    - intros z H. unfold predict in H. apply bind_inv in H as ([v y] & H & H1). injection H1 as <-. exact (D _ _ _ H).
  Qed.
End Classes.

(** A validated estimator is found valid again. *)
Lemma found_again {P X St} (E : emclass P X St) fp : check_stable E fp ->
  forall h h' s t, fitted_check E fp h = Ok (h', s, t) -> h_cfg h' = h_cfg h /\ fitted_check E fp h' = Ok (h', s, t).
Proof.
  intros Hst h h' s t Hf. unfold fitted_check in *. destruct (h_start h) as [s0|] eqn:Es; [|discriminate].
  destruct (check E fp h) as [h1|] eqn:Hc; [|discriminate]. cbn [bind] in Hf.
  assert (h1 = h') as -> by (destruct (h_start h1); [|discriminate]; destruct (h_trans h1); [|discriminate]; congruence).
  split; [apply (check_fields _ _ _ _ Hc)|]. rewrite (check_again _ _ _ _ Hst Hc). cbn [bind]. destruct (h_start h'); [|discriminate]. exact Hf.
Qed.
Lemma lik_rows fp (m : res mat) n k : (forall a, m = Ok a -> nrow a = n) -> lik_of_loglik fp m = Ok k -> nrow k = n.
Proof. intros H Hk. unfold lik_of_loglik in Hk. apply bind_inv in Hk as (a & Ha & Hk). injection Hk as <-. unfold nrow, mmap. cbn [rows]. rewrite map_length. exact (H a Ha). Qed.
Lemma loglik_rows fp (m : res mat) n k : (forall a, m = Ok a -> nrow a = n) -> loglik_of_lik fp m = Ok k -> nrow k = n.
Proof. intros H Hk. unfold loglik_of_lik in Hk. apply bind_inv in Hk as (a & Ha & Hk). injection Hk as <-. unfold nrow, mmap. cbn [rows]. rewrite map_length. exact (H a Ha). Qed.
Lemma cat_lik_rows fp c nf p x m : cat_lik fp c nf p x = Ok m -> nrow m = length x.
Proof.
  unfold cat_lik. destruct (cat_prob p) as [q|]; [|discriminate]. intros H. apply bind_inv in H as (ks & Hk & H). apply map_res_length in Hk.
  injection H as <-. unfold nrow. cbn [rows]. now rewrite map_length.
Qed.
Lemma pois_rows_rows f red c p x m : pois_rows f red c p x = Ok m -> nrow m = length x.
Proof.
  unfold pois_rows. destruct (po_lam p) as [q|]; [|discriminate]. destruct x as [|x0 x]; [intros H; injection H as <-; reflexivity|].
  intros H. apply bind_inv in H as (w & _ & H). injection H as <-. unfold nrow. cbn [rows length map]. now rewrite map_length.
Qed.
Lemma mult_loglik_rows fp c nf p x m : mult_loglik fp c nf p x = Ok m -> nrow m = length x.
Proof.
  unfold mult_loglik. destruct (mu_prob p) as [q|]; [|discriminate]. destruct x as [|x0 x]; [intros H; injection H as <-; reflexivity|].
  destruct (Nat.eqb _ _); [|discriminate]. intros H. injection H as <-. unfold nrow. cbn [rows length map]. now rewrite map_length.
Qed.
Lemma lmnd_diag_rows fp x m v k : lmnd_diag fp x m v = Ok k -> nrow k = length x.
Proof.
  unfold lmnd_diag. cbv zeta. intros H. apply bind_inv in H as (? & _ & H). apply bind_inv in H as (? & _ & H). apply bind_inv in H as (? & _ & H).
  injection H as <-. unfold nrow. cbn [rows]. apply map_length.
Qed.
Lemma lmnd_full_rows fp x m cv k : lmnd_full fp x m cv = Ok k -> nrow k = length x.
Proof. unfold lmnd_full. destruct cv; try discriminate. intros H. apply bind_inv in H as (? & _ & H). injection H as <-. unfold nrow, mtab. cbn [rows]. apply tab_length. Qed.
Lemma gauss_loglik_rows fp c nf p x m : gauss_loglik fp c nf p x = Ok m -> nrow m = length x.
Proof.
  unfold gauss_loglik. destruct (ga_means p) as [q|]; [|discriminate]. destruct (ga_covars p) as [cv|]; [|discriminate].
  destruct x as [|x0 x]; [intros H; injection H as <-; reflexivity|]. unfold log_mvn_density.
  destruct (String.eqb _ "spherical"); [|destruct (String.eqb _ "tied"); [|destruct (String.eqb _ "diag"); [|destruct (String.eqb _ "full"); [|discriminate]]]].
  - unfold lmnd_spherical. destruct cv; [| |discriminate]; intros H; apply bind_inv in H as (? & _ & H); eapply lmnd_diag_rows; exact H.
  - unfold lmnd_tied. destruct cv; [| |discriminate]; intros H; apply bind_inv in H as (? & _ & H); eapply lmnd_full_rows; exact H.
  - destruct cv; [| |discriminate]; apply lmnd_diag_rows.
  - apply lmnd_full_rows.
Qed.
Lemma gmm_loglik_rows fp c nf p x m : gmm_loglik fp c nf p x = Ok m -> nrow m = length x.
Proof.
  unfold gmm_loglik. destruct x as [|x0 x]; [intros H; injection H as <-; reflexivity|]. intros H. apply bind_inv in H as (? & _ & H).
  injection H as <-. unfold nrow, mtab. cbn [rows]. apply tab_length.
Qed.
Lemma pois_stable fp : check_stable poisson fp.
Proof.
  intros c nf p nf' p'. cbn [ec_check poisson]. unfold pois_check. destruct (po_lam p) as [m|] eqn:Em; [|discriminate].
  destruct (negb _) eqn:En; [discriminate|]. intros H. injection H as <- <-. rewrite Em, En. auto.
Qed.
Lemma mult_stable fp : check_stable multinomial fp.
Proof.
  intros c nf p nf' p'. cbn [ec_check multinomial]. unfold mult_check. destruct (mu_prob p) as [m|] eqn:Em; [|discriminate].
  destruct (negb _) eqn:En; [discriminate|]. destruct (mu_trials p) eqn:Et; [|discriminate]. intros H. injection H as <- <-. rewrite Em, En, Et. auto.
Qed.
Lemma gauss_stable fp : check_stable gaussian fp.
Proof.
  intros c nf p nf' p'. cbn [ec_check gaussian]. unfold gauss_check. destruct (ga_means p) as [m|] eqn:Em; [|discriminate].
  destruct (is_type _ _) eqn:Et; [|discriminate]. intros H. injection H as <- <-. rewrite Em, Et. auto.
Qed.
Lemma gmm_stable eig fp : check_stable (gmm eig) fp.
Proof.
  intros c nf p nf' p' H. cbn [ec_check gmm] in *. pose proof H as H0. apply (gmm_check_fixed eig) in H as (n & -> & Hp).
  assert (Hf : exists k, gmm_check eig fp c nf p = gmm_check eig fp c (Some k) p).
  { unfold gmm_check in *. destruct nf as [k|]; [exists k; reflexivity|]. destruct (gm_means p) as [m|]; [|discriminate].
    destruct (nsh m) as [|? [|? [|k ?]]]; try discriminate. exists k. reflexivity. }
  destruct Hf as [k Hk]. rewrite Hk in H0.
  assert (exists q, fix_priors fp (c_nc c) k p = Ok q /\ k = n /\ q = p') as (q & Hq & -> & ->).
  { unfold gmm_check in H0. cbn [bind] in H0. apply bind_inv in H0 as (q & Hq & H0). exists q. split; [exact Hq|]. all_ok H0; injection H0 as <- <-; auto. }
  rewrite (gmm_check_fixed' _ _ _ _ _ _ Hq). exact H0.
Qed.

(** ** C85. *)
Lemma C85_categorical_l fp : methods_agree categorical fp /\ one_per_sample categorical fp.
Proof.
  assert (N : forall c nf p x m, ec_lik categorical fp c nf p x = Ok m -> nrow m = length x) by (cbn [ec_lik categorical]; apply cat_lik_rows).
  assert (L : forall c nf p x m, ec_loglik categorical fp c nf p x = Ok m -> nrow m = length x).
  { cbn [ec_loglik categorical]. intros c nf p x m. apply loglik_rows. apply cat_lik_rows. }
  split; [apply methods_agree_by|apply one_per_sample_by]; try assumption; apply found_again, cat_stable.
Qed.
Lemma C85_poisson_l fp : methods_agree poisson fp /\ one_per_sample poisson fp.
Proof.
  assert (N : forall c nf p x m, ec_lik poisson fp c nf p x = Ok m -> nrow m = length x) by (intros c nf p x m; apply pois_rows_rows).
  assert (L : forall c nf p x m, ec_loglik poisson fp c nf p x = Ok m -> nrow m = length x) by (intros c nf p x m; apply pois_rows_rows).
  split; [apply methods_agree_by|apply one_per_sample_by]; try assumption; apply found_again, pois_stable.
Qed.
Lemma C85_multinomial_l fp : methods_agree multinomial fp /\ one_per_sample multinomial fp.
Proof.
  assert (L : forall c nf p x m, ec_loglik multinomial fp c nf p x = Ok m -> nrow m = length x) by (cbn [ec_loglik multinomial]; apply mult_loglik_rows).
  assert (N : forall c nf p x m, ec_lik multinomial fp c nf p x = Ok m -> nrow m = length x).
  { cbn [ec_lik multinomial]. unfold mult_lik. intros c nf p x m. apply lik_rows. apply mult_loglik_rows. }
  split; [apply methods_agree_by|apply one_per_sample_by]; try assumption; apply found_again, mult_stable.
Qed.
Lemma C85_gaussian_l fp : methods_agree gaussian fp /\ one_per_sample gaussian fp.
Proof.
  assert (L : forall c nf p x m, ec_loglik gaussian fp c nf p x = Ok m -> nrow m = length x) by (cbn [ec_loglik gaussian]; apply gauss_loglik_rows).
  assert (N : forall c nf p x m, ec_lik gaussian fp c nf p x = Ok m -> nrow m = length x).
  { cbn [ec_lik gaussian]. unfold gauss_lik. intros c nf p x m. apply lik_rows. apply gauss_loglik_rows. }
  split; [apply methods_agree_by|apply one_per_sample_by]; try assumption; apply found_again, gauss_stable.
Qed.
Lemma C85_gmm_l eig fp : methods_agree (gmm eig) fp /\ one_per_sample (gmm eig) fp.
Proof.
  assert (L : forall c nf p x m, ec_loglik (gmm eig) fp c nf p x = Ok m -> nrow m = length x) by (cbn [ec_loglik gmm]; apply gmm_loglik_rows).
  assert (N : forall c nf p x m, ec_lik (gmm eig) fp c nf p x = Ok m -> nrow m = length x).
  { cbn [ec_lik gmm]. unfold gmm_lik. intros c nf p x m. apply lik_rows. apply gmm_loglik_rows. }
  split; [apply methods_agree_by|apply one_per_sample_by]; try assumption; apply found_again, gmm_stable.
Qed.
