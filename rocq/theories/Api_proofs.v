(** * Lemmas shared by the property files: single sequences, lengths. *)
From Verif Require Export Decode_proofs.

Section Single.
  Context {P X St : Type} (E : emclass P X St) (h : hmm P).
  Variables (nc : nat) (pi : nat -> R) (A : nat -> nat -> R) (ok : X -> Prop) (b : X -> nat -> R).
  Hypothesis Rd : ready E h nc pi A ok b.

  Lemma good_data_single x : x <> [] -> Forall ok x -> good_data ok [length x] x.
  Proof. intros H1 H2. split; [exact H2|apply good_single; exact H1]. Qed.

  Lemma score_log_single x : c_impl (h_cfg h) = "log"%string -> x <> [] -> Forall ok x ->
    score E exact h x None = Ok (xln (seq_lik nc pi A b x)).
  Proof.
    intros Hi Hne Hx. unfold score. rewrite score_None.
    change (score E exact h x (as_lengths [length x]) = Ok (xln (seq_lik nc pi A b x))).
    rewrite (score_log E h nc pi A ok b Rd) by (try apply good_data_single; assumption).
    rewrite chunks_single. simpl. rewrite Rmult_1_r. reflexivity.
  Qed.

  Lemma score_scaling_single x : c_impl (h_cfg h) = "scaling"%string -> x <> [] -> Forall ok x ->
    seq_no_underflow nc pi A b x ->
    score E exact h x None = Ok (xln (seq_lik nc pi A b x)).
  Proof.
    intros Hi Hne Hx Hu. unfold score. rewrite score_None.
    change (score E exact h x (as_lengths [length x]) = Ok (xln (seq_lik nc pi A b x))).
    rewrite (score_scaling E h nc pi A ok b Rd).
    - rewrite chunks_single. simpl. rewrite Rmult_1_r. reflexivity.
    - assumption.
    - apply good_data_single; assumption.
    - rewrite chunks_single. intros c [<-|[]]. exact Hu.
  Qed.

  Lemma score_scaling_single_err x post : c_impl (h_cfg h) = "scaling"%string -> x <> [] -> Forall ok x ->
    ~ seq_no_underflow nc pi A b x ->
    score_ E exact h x None post = Err (ValueError "underflow").
  Proof.
    intros Hi Hne Hx Hu. rewrite score_None.
    apply (score_scaling_underflow E h nc pi A ok b Rd); [assumption|apply good_data_single; assumption|].
    rewrite chunks_single. intros H. apply Hu. apply H. left; reflexivity.
  Qed.

  Lemma scorable_single_samples x : x <> [] -> Forall ok x ->
    scorable nc pi A b (c_impl (h_cfg h)) x ->
    score_samples E exact h x None
    = Ok (xln (seq_lik nc pi A b x), fmat (length x) nc (seq_post nc pi A b x)).
  Proof.
    intros Hne Hx Hs. unfold score_samples. rewrite score_None.
    change (score_samples E exact h x (as_lengths [length x])
            = Ok (xln (seq_lik nc pi A b x), fmat (length x) nc (seq_post nc pi A b x))).
    rewrite (post_samples E h nc pi A ok b Rd); [|apply good_data_single; assumption|].
    - rewrite chunks_single. simpl. rewrite Rmult_1_r, app_nil_r. reflexivity.
    - rewrite chunks_single. intros c [<-|[]]. exact Hs.
  Qed.

  Lemma zero_lik_samples x : c_impl (h_cfg h) = "log"%string -> x <> [] -> Forall ok x ->
    seq_lik nc pi A b x = 0 ->
    score_samples E exact h x None
    = Ok (NInf, mtab (length x) nc (fun _ _ => if Nat.eqb nc 1 then Fin 1 else NaN)).
  Proof.
    intros Hi Hne Hx HL. unfold score_samples, score_.
    destruct (ready_fitted_check E h nc pi A ok b Rd) as (h' & Hf & He & Rd' & Hcfg). rewrite Hf. cbn [bind].
    rewrite (check_array_ready E ok x Hne Hx (em_xok _ _ _ _ _ He)). cbn [bind].
    rewrite Hi. cbn [String.eqb Ascii.eqb Bool.eqb]. cbn [bind]. cbn [split_X_lengths bind acc_seqs].
    unfold score_log_seq. rewrite (em_log _ _ _ _ _ He x Hx). cbn [bind].
    pose proof (obsB_nonneg ok b nc x (em_nonneg _ _ _ _ _ He) Hx) as HB.
    destruct (seq_nonempty x Hne) as [T HT]. unfold seq_lik in HL. rewrite HT in *.
    rewrite forward_log_spec by (apply Rd || assumption). cbn [bind].
    rewrite backward_log_spec by (apply Rd || assumption). cbn [bind].
    rewrite compute_posteriors_log_zero by (apply Rd || assumption). cbn [bind].
    rewrite HL, xln_0, app_nil_r, (rd_nc E h nc pi A ok b Rd). reflexivity.
  Qed.

  Lemma viterbi_single x alg : x <> [] -> Forall ok x ->
    (alg = Some "viterbi"%string \/ (alg = None /\ c_algorithm (h_cfg h) = "viterbi"%string)) ->
    exists z, decode E exact h x None alg = Ok (xln (seq_joint pi A b x z), z)
      /\ best_path nc pi A b x z.
  Proof.
    intros Hne Hx Halg. rewrite decode_None.
    destruct (decode_viterbi_spec E h nc pi A ok b Rd [length x] x alg) as (zs & Hz & Hf);
      [apply good_data_single; assumption|exact Halg|].
    rewrite chunks_single in Hz, Hf. inversion Hf as [|? z ? ? Hb Hf']; subst. inversion Hf'; subst.
    exists z. split; [|exact Hb]. rewrite Hz. simpl. rewrite Rmult_1_r, app_nil_r. reflexivity.
  Qed.

  Lemma map_single x alg : x <> [] -> Forall ok x ->
    (alg = Some "map"%string \/ (alg = None /\ c_algorithm (h_cfg h) = "map"%string)) ->
    scorable nc pi A b (c_impl (h_cfg h)) x ->
    exists z, decode E exact h x None alg = Ok (Fin (map_value nc pi A b x z), z)
      /\ map_decoded nc pi A b x z.
  Proof.
    intros Hne Hx Halg Hs. rewrite decode_None.
    destruct (decode_map_spec E h nc pi A ok b Rd [length x] x alg) as (zs & Hz & Hf);
      [apply good_data_single; assumption|exact Halg| |].
    { rewrite chunks_single. intros c [<-|[]]. exact Hs. }
    rewrite chunks_single in Hz, Hf. inversion Hf as [|? z ? ? Hb Hf']; subst. inversion Hf'; subst.
    exists z. split; [|exact Hb]. rewrite Hz. simpl. rewrite Rplus_0_r, app_nil_r. reflexivity.
  Qed.

  Lemma seq_lik_zero x : x <> [] -> Forall ok x ->
    (seq_lik nc pi A b x = 0 <-> forall z, is_path nc (length x) z -> seq_joint pi A b x z = 0).
  Proof.
    intros Hne Hx. unfold seq_lik, likelihood. split.
    - intros H z Hz. apply (sumL_eq0 (joint (length x) pi A (obsB b x)) (all_paths nc (length x)));
        [|exact H|apply in_all_paths; exact Hz].
      intros y Hy. apply (best_joint_nonneg E h nc pi A ok b Rd x y); try assumption.
      apply in_all_paths; exact Hy.
    - intros H. apply sumL_zero. intros z Hz. apply H. apply in_all_paths; exact Hz.
  Qed.

  Lemma seq_lik_nonneg x : x <> [] -> Forall ok x -> 0 <= seq_lik nc pi A b x.
  Proof.
    intros Hne Hx. destruct (ready_fitted_check E h nc pi A ok b Rd) as (h' & _ & He & _).
    apply (slik_nonneg E h nc pi A ok b Rd); [right; apply He|exact Hne|exact Hx].
  Qed.

  Lemma post_stochastic x t : x <> [] -> Forall ok x -> 0 < seq_lik nc pi A b x -> (t < length x)%nat ->
    stochastic1 nc (seq_post nc pi A b x t).
  Proof.
    intros Hne Hx HL Ht. destruct (ready_fitted_check E h nc pi A ok b Rd) as (h' & _ & He & _).
    pose proof (obsB_nonneg ok b nc x (em_nonneg _ _ _ _ _ He) Hx) as HB.
    destruct (seq_nonempty x Hne) as [T HT]. unfold seq_lik, seq_post in *. rewrite HT in *.
    apply posterior_dist; try apply Rd; try assumption. lia.
  Qed.
End Single.

Lemma Forall2_impl {A B} (P Q : A -> B -> Prop) l l' :
  (forall a b, P a b -> Q a b) -> Forall2 P l l' -> Forall2 Q l l'.
Proof. intros H HF. induction HF; constructor; auto. Qed.

(** ** lengths: any class, any model, success case. *)
Lemma xadd_0_l a : xadd exact (Fin 0) a = a.
Proof. destruct a; try reflexivity. cbn. unfold exact. rewrite Rplus_0_l. reflexivity. Qed.

Lemma acc_seqs_ok {X A} (f : list X -> res (xnum * list A)) xs ps a :
  Forall2 (fun x p => f x = Ok p) xs ps ->
  acc_seqs exact f a xs = Ok (fold_left (xadd exact) (map fst ps) a, flat_map snd ps).
Proof.
  intros H. revert a. induction H as [|x [l r] xs ps Hx H IH]; intros a; simpl; [reflexivity|].
  rewrite Hx. cbn [bind]. rewrite IH. reflexivity.
Qed.

Lemma acc_seqs_inv {X A} (f : list X -> res (xnum * list A)) xs a r :
  acc_seqs exact f a xs = Ok r -> exists ps, Forall2 (fun x p => f x = Ok p) xs ps.
Proof.
  revert a r. induction xs as [|x xs IH]; intros a r H; simpl in H; [exists []; constructor|].
  destruct (f x) as [[l r1]|] eqn:Ef; [|discriminate]. cbn [bind] in H.
  destruct (acc_seqs exact f (xadd exact a l) xs) as [p|] eqn:Ea; [|discriminate].
  destruct (IH _ _ Ea) as [ps Hps]. exists ((l, r1) :: ps). constructor; assumption.
Qed.

Lemma chunks_map_length {X} (xs : list (list X)) : chunks (map (@length X) xs) (concat xs) = xs.
Proof.
  induction xs as [|x xs IH]; [reflexivity|]. simpl. f_equal.
  - rewrite firstn_app, Nat.sub_diag, firstn_all, firstn_O, app_nil_r. reflexivity.
  - rewrite skipn_app, Nat.sub_diag, skipn_all. simpl. exact IH.
Qed.

Lemma split_concat {X} (xs : list (list X)) : xs <> [] ->
  split_X_lengths (concat xs) (as_lengths (map (@length X) xs)) = Ok xs.
Proof.
  intros H. rewrite split_X_lengths_chunks.
  - rewrite chunks_map_length. reflexivity.
  - destruct xs; [contradiction|discriminate].
  - clear H. induction xs as [|x xs IH]; [reflexivity|]. simpl. rewrite app_length, IH. reflexivity.
Qed.

Lemma check_array_Ok {X} (okb : X -> bool) x x' : check_array okb x = Ok x' ->
  x' = x /\ x <> [] /\ forallb okb x = true.
Proof.
  unfold check_array. destruct x as [|y x]; [discriminate|].
  destruct (forallb okb (y :: x)) eqn:Ef; [|discriminate].
  intros H. injection H as <-. split; [reflexivity|]. split; [discriminate|reflexivity].
Qed.

Lemma check_array_intro {X} (okb : X -> bool) x : x <> [] -> forallb okb x = true -> check_array okb x = Ok x.
Proof. intros H1 H2. unfold check_array. destruct x; [contradiction|]. rewrite H2. reflexivity. Qed.

Lemma check_array_concat {X} (okb : X -> bool) xs : xs <> [] ->
  Forall (fun x => check_array okb x = Ok x) xs -> check_array okb (concat xs) = Ok (concat xs).
Proof.
  intros Hne H. apply check_array_intro.
  - destruct xs as [|x xs]; [contradiction|]. inversion H; subst.
    apply check_array_Ok in H2 as (_ & Hx & _). simpl. intros E.
    apply app_eq_nil in E as [E _]. contradiction.
  - apply forallb_forall. intros y Hy. apply in_concat in Hy as (x & Hx & Hy).
    rewrite Forall_forall in H. apply H in Hx. apply check_array_Ok in Hx as (_ & _ & Hf).
    rewrite forallb_forall in Hf. auto.
Qed.

Section Lengths.
  Context {P X St : Type} (E : emclass P X St) (h : hmm P).

  Lemma score_None_inv x post lp m : score_ E exact h x None post = Ok (lp, m) ->
    exists h' s t f, fitted_check E exact h = Ok (h', s, t)
      /\ check_array (ec_xok E) x = Ok x
      /\ (if String.eqb (c_impl (h_cfg h)) "scaling" then Ok (score_scaling_seq E exact h' s t post)
             else if String.eqb (c_impl (h_cfg h)) "log" then Ok (score_log_seq E exact h' s t post)
             else Err KeyError) = Ok f
      /\ f x = Ok (lp, rows m) /\ m = Mat (c_nc (h_cfg h)) (rows m).
  Proof.
    unfold score_. destruct (fitted_check E exact h) as [[[h' s] t]|]; [|discriminate]. cbn [bind].
    destruct (check_array (ec_xok E) x) as [x'|] eqn:Ec; [|discriminate].
    pose proof (check_array_Ok _ _ _ Ec) as (-> & _). cbn [bind].
    match goal with |- context [bind ?e _] => destruct e as [f|] eqn:Ef end; [|discriminate].
    cbn [bind split_X_lengths acc_seqs]. destruct (f x) as [[l r]|] eqn:Efx; [|discriminate].
    cbn [bind]. rewrite app_nil_r, xadd_0_l. intros H. injection H as <- <-.
    exists h', s, t, f. repeat split; auto.
  Qed.

  Lemma score_concat xs ps post : xs <> [] ->
    Forall2 (fun x p => score_ E exact h x None post = Ok p) xs ps ->
    score_ E exact h (concat xs) (as_lengths (map (@length X) xs)) post
    = Ok (xsum exact (map fst ps), Mat (c_nc (h_cfg h)) (flat_map (fun p => rows (snd p)) ps)).
  Proof.
    intros Hne HF. destruct HF as [|x [l m] xs ps Hx HF]; [contradiction|].
    destruct (score_None_inv x post l m Hx) as (h' & s & t & f & Hfc & Hca & Hf & Hfx & Hm).
    assert (G : Forall2 (fun x p => check_array (ec_xok E) x = Ok x /\ f x = Ok (fst p, rows (snd p)))
                  (x :: xs) ((l, m) :: ps)).
    { constructor; [split; assumption|]. eapply Forall2_impl; [|exact HF].
      intros y [l' m'] Hy. destruct (score_None_inv y post l' m' Hy) as (h2 & s2 & t2 & f2 & Hfc2 & Hca2 & Hf2 & Hfx2 & _).
      rewrite Hfc in Hfc2. injection Hfc2 as <- <- <-. rewrite Hf in Hf2. injection Hf2 as <-.
      split; assumption. }
    set (xs' := x :: xs) in *. set (ps' := (l, m) :: ps) in *.
    unfold score_. rewrite Hfc. cbn [bind]. rewrite check_array_concat; [|exact Hne|].
    - cbn [bind]. rewrite Hf. cbn [bind]. rewrite split_concat by exact Hne. cbn [bind].
      rewrite (acc_seqs_ok f xs' (map (fun p => (fst p, rows (snd p))) ps')).
      + cbn [bind]. rewrite map_map. cbn [fst]. unfold xsum. f_equal. f_equal. f_equal.
        rewrite flat_map_concat_map, map_map. cbn [snd]. rewrite <- flat_map_concat_map. reflexivity.
      + clear - G. induction G as [|y q ys qs [_ Hq] G IH]; simpl; constructor; assumption.
    - clear - G. induction G as [|y q ys qs [Hq _] G IH]; constructor; assumption.
  Qed.

  Lemma score_concat_inv xs post r : xs <> [] -> Forall (fun x => x <> []) xs ->
    score_ E exact h (concat xs) (as_lengths (map (@length X) xs)) post = Ok r ->
    exists ps, Forall2 (fun x p => score_ E exact h x None post = Ok p) xs ps.
  Proof.
    intros Hne Hall H. unfold score_ in H.
    destruct (fitted_check E exact h) as [[[h' s] t]|] eqn:Hfc; [|discriminate]. cbn [bind] in H.
    destruct (check_array (ec_xok E) (concat xs)) as [x'|] eqn:Hca; [|discriminate].
    pose proof (check_array_Ok _ _ _ Hca) as (-> & _ & Hfb). cbn [bind] in H.
    match type of H with context [bind ?e _] => destruct e as [f|] eqn:Hf end; [|discriminate].
    cbn [bind] in H. rewrite split_concat in H by exact Hne. cbn [bind] in H.
    destruct (acc_seqs exact f (Fin 0) xs) as [[lp rs]|] eqn:Ha; [|discriminate].
    apply acc_seqs_inv in Ha as [ps Hps]. 
    exists (map (fun p => (fst p, Mat (c_nc (h_cfg h)) (snd p))) ps).
    assert (G : forall x, In x xs -> forall l rw, f x = Ok (l, rw) ->
       score_ E exact h x None post = Ok (l, Mat (c_nc (h_cfg h)) rw)).
    { intros x Hin l rw Hfx. unfold score_. rewrite Hfc. cbn [bind].
      rewrite (check_array_intro (ec_xok E) x).
      - cbn [bind]. rewrite Hf. cbn [bind split_X_lengths acc_seqs]. rewrite Hfx. cbn [bind].
        rewrite xadd_0_l, app_nil_r. reflexivity.
      - rewrite Forall_forall in Hall. auto.
      - apply forallb_forall. intros y Hy. rewrite forallb_forall in Hfb. apply Hfb.
        apply in_concat. exists x. split; assumption. }
    clear - Hps G. induction Hps as [|x [l rw] xs ps Hx Hps IH]; simpl; constructor.
    - apply G; [left; reflexivity|exact Hx].
    - apply IH. intros; apply G; [right; assumption|assumption].
  Qed.

  Lemma decode_None_inv x alg r : decode E exact h x None alg = Ok r ->
    exists h' s t f, fitted_check E exact h = Ok (h', s, t)
      /\ check_array (ec_xok E) x = Ok x
      /\ (let alg := match alg with
               | Some a => if String.eqb a "" then c_algorithm (h_cfg h) else a
               | None => c_algorithm (h_cfg h)
               end in
          if String.eqb alg "viterbi" then Ok (decode_viterbi E exact h' s t)
          else if String.eqb alg "map" then Ok (decode_map E exact h')
          else Err (ValueError "Unknown decoder")) = Ok f
      /\ f x = Ok r.
  Proof.
    unfold decode. destruct (fitted_check E exact h) as [[[h' s] t]|]; [|discriminate]. cbn [bind].
    cbv zeta.
    match goal with |- context [bind ?e _] => destruct e as [f|] eqn:Ef end; [|discriminate]. cbn [bind].
    destruct (check_array (ec_xok E) x) as [x'|] eqn:Ec; [|discriminate].
    pose proof (check_array_Ok _ _ _ Ec) as (-> & _). cbn [bind].
    cbn [bind split_X_lengths acc_seqs]. destruct (f x) as [[l rw]|] eqn:Efx; [|discriminate].
    cbn [bind]. rewrite app_nil_r, xadd_0_l. intros H. injection H as <-.
    exists h', s, t, f. repeat split; auto.
  Qed.

  Lemma decode_concat xs ps alg : xs <> [] ->
    Forall2 (fun x p => decode E exact h x None alg = Ok p) xs ps ->
    decode E exact h (concat xs) (as_lengths (map (@length X) xs)) alg
    = Ok (xsum exact (map fst ps), concat (map snd ps)).
  Proof.
    intros Hne HF. destruct HF as [|x p xs ps Hx HF]; [contradiction|].
    destruct (decode_None_inv x alg p Hx) as (h' & s & t & f & Hfc & Hca & Hf & Hfx).
    assert (G : Forall2 (fun x p => check_array (ec_xok E) x = Ok x /\ f x = Ok p)
                  (x :: xs) (p :: ps)).
    { constructor; [split; assumption|]. eapply Forall2_impl; [|exact HF].
      intros y p' Hy. destruct (decode_None_inv y alg p' Hy) as (h2 & s2 & t2 & f2 & Hfc2 & Hca2 & Hf2 & Hfx2).
      rewrite Hfc in Hfc2. injection Hfc2 as <- <- <-. rewrite Hf in Hf2. injection Hf2 as <-.
      split; assumption. }
    set (xs' := x :: xs) in *. set (ps' := p :: ps) in *.
    unfold decode. rewrite Hfc. cbn [bind]. cbv zeta in Hf |- *. rewrite Hf. cbn [bind].
    rewrite check_array_concat; [|exact Hne|].
    - cbn [bind]. rewrite split_concat by exact Hne. cbn [bind].
      rewrite (acc_seqs_ok f xs' ps').
      + rewrite flat_map_concat_map. reflexivity.
      + clear - G. induction G as [|y q ys qs [_ Hq] G IH]; simpl; constructor; assumption.
    - clear - G. induction G as [|y q ys qs [Hq _] G IH]; constructor; assumption.
  Qed.

  Lemma decode_concat_inv xs alg r : xs <> [] -> Forall (fun x => x <> []) xs ->
    decode E exact h (concat xs) (as_lengths (map (@length X) xs)) alg = Ok r ->
    exists ps, Forall2 (fun x p => decode E exact h x None alg = Ok p) xs ps.
  Proof.
    intros Hne Hall H. unfold decode in H.
    destruct (fitted_check E exact h) as [[[h' s] t]|] eqn:Hfc; [|discriminate]. cbn [bind] in H.
    cbv zeta in H.
    match type of H with context [bind ?e _] => destruct e as [f|] eqn:Hf end; [|discriminate].
    cbn [bind] in H.
    destruct (check_array (ec_xok E) (concat xs)) as [x'|] eqn:Hca; [|discriminate].
    pose proof (check_array_Ok _ _ _ Hca) as (-> & _ & Hfb). cbn [bind] in H.
    rewrite split_concat in H by exact Hne. cbn [bind] in H.
    apply acc_seqs_inv in H as [ps Hps]. exists ps.
    assert (G : forall x, In x xs -> forall p, f x = Ok p -> decode E exact h x None alg = Ok p).
    { intros x Hin [l rw] Hfx. unfold decode. rewrite Hfc. cbn [bind]. cbv zeta. rewrite Hf. cbn [bind].
      rewrite (check_array_intro (ec_xok E) x).
      - cbn [bind split_X_lengths acc_seqs]. rewrite Hfx. cbn [bind].
        rewrite xadd_0_l, app_nil_r. reflexivity.
      - rewrite Forall_forall in Hall. auto.
      - apply forallb_forall. intros y Hy. rewrite forallb_forall in Hfb. apply Hfb.
        apply in_concat. exists x. split; assumption. }
    clear - Hps G. induction Hps as [|x p xs ps Hx Hps IH]; simpl; constructor.
    - apply G; [left; reflexivity|exact Hx].
    - apply IH. intros; apply G; [right; assumption|assumption].
  Qed.
End Lengths.
