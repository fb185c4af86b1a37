(** * Property lemmas C85: the methods for inference agree, variational classes. *)
From Verif Require Export Agree_thms Vpredict.

Definition vmethods_agree {P X St} (V : vclass P X St) (fp : fpmode) : Prop := forall v x ls,
  let own := c_algorithm (v_cfg v) in
  Vbase.vscore V fp v x ls = seen_as fst (vscore_samples V fp v x ls)
  /\ vpredict_proba V fp v x ls = seen_as snd (vscore_samples V fp v x ls)
  /\ vdecode V fp v x ls None = vdecode V fp v x ls (Some own)
  /\ vdecode V fp v x ls (Some ""%string) = vdecode V fp v x ls (Some own)
  /\ vpredict V fp v x ls = seen_as snd (vdecode V fp v x ls (Some own))
  /\ (forall z, (exists w, vdecode V fp v x ls (Some "map"%string) = Ok (w, z))
                <-> exists post, vpredict_proba V fp v x ls = Ok post /\ z = map np_argmax (rows post))
  /\ (own = "map"%string -> forall z,
        vpredict V fp v x ls = Ok z <-> exists post, vpredict_proba V fp v x ls = Ok post /\ z = map np_argmax (rows post)).
(** The number of states is that of [startprob_]. *)
Definition vone_per_sample {P X St} (V : vclass P X St) (fp : fpmode) : Prop := forall v x ls s,
  h_start (v_h v) = Some s -> s <> [] -> (forall l, ls = Some l -> Forall (fun n => (0 <= n)%Z) l) ->
  (forall post, vpredict_proba V fp v x ls = Ok post -> nrow post = length x /\ Forall (fun r => length r = length s) (rows post))
  /\ (forall alg w z, vdecode V fp v x ls alg = Ok (w, z) -> length z = length x /\ Forall (fun i => (i < length s)%nat) z)
  /\ (forall z, vpredict V fp v x ls = Ok z -> length z = length x /\ Forall (fun i => (i < length s)%nat) z).

Section VAgree.
  Context {P X St : Type} (V : vclass P X St) (fp : fpmode).
  Notation E := (vc_em V).
  Hypothesis LL : forall c nf p x m, ec_loglik E fp c nf p x = Ok m -> nrow m = length x.
  Hypothesis LN : forall c nf p x m, ec_lik E fp c nf p x = Ok m -> nrow m = length x.
  Lemma vfitted_cfg v h s : vfitted V fp v = Ok (h, s) -> h_cfg h = v_cfg v /\ h_start (v_h v) = Some s.
  Proof.
    unfold vfitted. destruct (h_start (v_h v)) as [s0|]; [|discriminate]. intros H. apply bind_inv in H as (v' & Hc & H). injection H as <- <-.
    split; [|reflexivity]. unfold vcheck in Hc. apply bind_inv in Hc as (? & _ & Hc). apply bind_inv in Hc as ([nf p] & _ & Hc). injection Hc as <-. reflexivity.
  Qed.
  Definition vworker (h : hmm P) (s : vec) (post : bool) : res (list X -> res (xnum * list vec)) :=
    if String.eqb (c_impl (h_cfg h)) "scaling" then Ok (vseq (lik E fp) h (fun t => score_scaling_seq E fp h s t post))
    else if String.eqb (c_impl (h_cfg h)) "log" then Ok (vseq (loglik E fp) h (fun t => score_log_seq E fp h s t post))
    else Err KeyError.
  Lemma vscore_agrees v x ls : Vbase.vscore V fp v x ls = seen_as fst (vscore_samples V fp v x ls).
  Proof.
    unfold Vbase.vscore, vscore_samples, vscore_. destruct (vfitted V fp v) as [[h s]|e]; cbn [bind]; [|reflexivity].
    destruct (check_array _ x) as [y|e]; cbn [bind]; [|reflexivity].
    destruct (String.eqb _ "scaling"); [|destruct (String.eqb _ "log"); [|reflexivity]]; cbn [bind];
      (destruct (split_X_lengths y ls) as [xs|e]; cbn [bind]; [|reflexivity]).
    - pose proof (acc_seqs_fst fp (vseq (lik E fp) h (fun t => score_scaling_seq E fp h s t false)) (vseq (lik E fp) h (fun t => score_scaling_seq E fp h s t true)) xs) as H.
      assert (K : forall c, seen_as fst (vseq (lik E fp) h (fun t => score_scaling_seq E fp h s t false) c) = seen_as fst (vseq (lik E fp) h (fun t => score_scaling_seq E fp h s t true) c)).
      { intros c. unfold vseq. destruct (h_trans h); [apply seq_scaling_fst|]. destruct (lik E fp h c); reflexivity. }
      specialize (H K (Fin 0)).
      destruct (acc_seqs fp (vseq _ _ (fun t => score_scaling_seq E fp h s t false)) _ xs) as [[l a]|e], (acc_seqs fp (vseq _ _ (fun t => score_scaling_seq E fp h s t true)) _ xs) as [[l' b]|e']; cbn [seen_as fst bind] in *; congruence.
    - pose proof (acc_seqs_fst fp (vseq (loglik E fp) h (fun t => score_log_seq E fp h s t false)) (vseq (loglik E fp) h (fun t => score_log_seq E fp h s t true)) xs) as H.
      assert (K : forall c, seen_as fst (vseq (loglik E fp) h (fun t => score_log_seq E fp h s t false) c) = seen_as fst (vseq (loglik E fp) h (fun t => score_log_seq E fp h s t true) c)).
      { intros c. unfold vseq. destruct (h_trans h); [apply seq_log_fst|]. destruct (loglik E fp h c); reflexivity. }
      specialize (H K (Fin 0)).
      destruct (acc_seqs fp (vseq _ _ (fun t => score_log_seq E fp h s t false)) _ xs) as [[l a]|e], (acc_seqs fp (vseq _ _ (fun t => score_log_seq E fp h s t true)) _ xs) as [[l' b]|e']; cbn [seen_as fst bind] in *; congruence.
  Qed.
  Lemma vworker_rows h s f c l a : vworker h s true = Ok f -> f c = Ok (l, a) ->
    c <> [] /\ length a = length c /\ Forall (fun r => length r = length s) a.
  Proof.
    unfold vworker. destruct (String.eqb _ "scaling"); [|destruct (String.eqb _ "log"); [|discriminate]]; intros H; injection H as <-; unfold vseq;
      (destruct (h_trans h) as [t|]; [|intros H; apply bind_inv in H as (? & _ & H); discriminate]).
    - apply (seq_scaling_rows E fp LN).
    - apply (seq_log_rows E fp LL).
  Qed.
  Lemma vscore_shape v x ls lp post : vscore_samples V fp v x ls = Ok (lp, post) ->
    exists h s xs f, vfitted V fp v = Ok (h, s) /\ check_array (ec_xok E) x = Ok x /\ split_X_lengths x ls = Ok xs
      /\ vworker h s true = Ok f /\ acc_seqs fp f (Fin 0) xs = Ok (lp, rows post)
      /\ length (rows post) = length (concat xs) /\ Forall (fun r => length r = length s) (rows post) /\ Forall (fun c => c <> []) xs.
  Proof.
    unfold vscore_samples, vscore_. intros H. apply bind_inv in H as ([h s] & Hf & H). apply bind_inv in H as (y & Hy & H).
    assert (y = x) as -> by (unfold check_array in Hy; destruct x; [discriminate|]; destruct (forallb _ _); congruence).
    apply bind_inv in H as (f & Hs & H). apply bind_inv in H as (xs & Hx & H). apply bind_inv in H as ([l rs] & Ha & H). injection H as <- <-.
    exists h, s, xs, f. do 3 (split; [assumption|]). cbn [rows]. split; [exact Hs|]. split; [exact Ha|].
    apply (acc_seqs_shape fp f (fun r => length r = length s) xs) in Ha as (A1 & A2 & A3); [auto|].
    intros c l0 a _ Hc. exact (vworker_rows _ _ _ _ _ _ Hs Hc).
  Qed.
  Lemma vsamples_alone v h s c f : vfitted V fp v = Ok (h, s) -> check_array (ec_xok E) c = Ok c -> vworker h s true = Ok f ->
    vscore_samples V fp v c None = do (l, rs) <- f c; Ok (xadd fp (Fin 0) l, Mat (c_nc (h_cfg h)) (rs ++ [])).
  Proof.
    intros Hf Hc Hi. unfold vscore_samples, vscore_. rewrite Hf. cbn [bind]. rewrite Hc. cbn [bind]. fold (vworker h s true). rewrite Hi.
    cbn [bind split_X_lengths acc_seqs]. destruct (f c) as [[l rs]|]; reflexivity.
  Qed.
  Lemma vmap_agrees v x ls lp post : vscore_samples V fp v x ls = Ok (lp, post) ->
    exists w, vdecode V fp v x ls (Some "map"%string) = Ok (w, map np_argmax (rows post)).
  Proof.
    intros H. destruct (vscore_shape _ _ _ _ _ H) as (h & s & xs & f & Hf & Hx & Hs & Hi & Ha & _ & _ & Hne).
    unfold vdecode. rewrite Hf. cbn [bind String.eqb Ascii.eqb Bool.eqb]. cbn [bind]. rewrite Hx. cbn [bind]. rewrite Hs. cbn [bind].
    eapply (acc_seqs_map fp f _ np_argmax xs); [|exact Ha].
    intros c l a Hc Hfc. cbv beta. rewrite Forall_forall in Hne.
    destruct (check_array_part _ _ _ c Hx (Hne c Hc) (fun o => split_in _ _ _ _ o Hs Hc)) as [_ Hcc].
    rewrite (vsamples_alone v h s c f Hf Hcc Hi), Hfc. cbn [bind rows]. rewrite app_nil_r. eexists; reflexivity.
  Qed.
  Lemma vmap_agrees_back v x ls w z : vdecode V fp v x ls (Some "map"%string) = Ok (w, z) ->
    exists lp post, vscore_samples V fp v x ls = Ok (lp, post) /\ z = map np_argmax (rows post).
  Proof.
    unfold vdecode. intros H. apply bind_inv in H as ([h s] & Hf & H). cbn [String.eqb Ascii.eqb Bool.eqb] in H. cbn [bind] in H.
    apply bind_inv in H as (y & Hy & H). assert (y = x) as -> by (unfold check_array in Hy; destruct x; [discriminate|]; destruct (forallb _ _); congruence).
    apply bind_inv in H as (xs & Hs & H).
    assert (K : exists f, vworker h s true = Ok f).
    { destruct (vworker h s true) as [f|ex] eqn:Ew; [exists f; reflexivity|].
      exfalso. assert (Hne : xs <> []). { intros ->. unfold split_X_lengths in Hs. destruct ls as [[|n r]|]; [discriminate| |discriminate]. destruct (Z.eqb _ _); discriminate. }
      destruct xs as [|c xs]; [congruence|]. cbn [acc_seqs] in H. apply bind_inv in H as ([l1 a1] & H1 & _). apply bind_inv in H1 as (r & H1 & _).
      unfold vscore_samples, vscore_ in H1. rewrite Hf in H1. cbn [bind] in H1. fold (vworker h s true) in H1. rewrite Ew in H1. apply bind_inv in H1 as (? & _ & H1). discriminate. }
    destruct K as [f Hi].
    match type of H with acc_seqs _ ?d _ _ = _ => set (dm := d) in * end.
    assert (G : forall lp1 lp2 w z, acc_seqs fp dm lp1 xs = Ok (w, z) -> exists l rs, acc_seqs fp f lp2 xs = Ok (l, rs) /\ z = map np_argmax rs).
    { assert (Hin : forall c, In c xs -> forall o, In o c -> In o x) by (intros c Hc o; eapply split_in; eassumption). clear Hs H. induction xs as [|c xs IH]; intros lp1 lp2 v0 z0 H; cbn [acc_seqs] in *.
      - injection H as <- <-. do 2 eexists; split; reflexivity.
      - apply bind_inv in H as ([l1 a1] & H1 & H). apply bind_inv in H as ([l2 a2] & H2 & H). injection H as <- <-.
        assert (Hc : c <> []). { intros ->. unfold dm in H1. apply bind_inv in H1 as (r & H1 & _). unfold vscore_samples, vscore_ in H1. rewrite Hf in H1. discriminate. }
        destruct (check_array_part _ _ _ c Hy Hc (Hin c (or_introl eq_refl))) as [_ Hcc].
        unfold dm in H1. rewrite (vsamples_alone v h s c f Hf Hcc Hi) in H1.
        destruct (f c) as [[l rs]|]; [|discriminate]. cbn [bind rows] in *. rewrite app_nil_r in H1. injection H1 as _ <-.
        destruct (IH (fun d Hd => Hin d (or_intror Hd)) _ (xadd fp lp2 l) _ _ H2) as (l' & rs' & -> & ->). cbn [bind].
        do 2 eexists. split; [reflexivity|]. now rewrite map_app. }
    destruct (G _ (Fin 0) _ _ H) as (l & rs & Ha & ->). exists l, (Mat (c_nc (h_cfg h)) rs). split; [|reflexivity].
    unfold vscore_samples, vscore_. rewrite Hf. cbn [bind]. rewrite Hy. cbn [bind]. fold (vworker h s true). rewrite Hi. cbn [bind]. rewrite Hs. cbn [bind]. rewrite Ha. reflexivity.
  Qed.
  Lemma vown_algorithm v x ls : vdecode V fp v x ls None = vdecode V fp v x ls (Some (c_algorithm (v_cfg v)))
    /\ vdecode V fp v x ls (Some ""%string) = vdecode V fp v x ls (Some (c_algorithm (v_cfg v))).
  Proof.
    unfold vdecode. destruct (vfitted V fp v) as [[h s]|] eqn:Hf; [|split; reflexivity]. destruct (vfitted_cfg _ _ _ Hf) as [Hc _]. cbn [bind]. rewrite Hc.
    destruct (String.eqb (c_algorithm (v_cfg v)) "") eqn:E0; split; reflexivity.
  Qed.
  Lemma vpredict_own v x ls : vpredict V fp v x ls = seen_as snd (vdecode V fp v x ls (Some (c_algorithm (v_cfg v)))).
  Proof. unfold vpredict. rewrite (proj1 (vown_algorithm v x ls)). destruct (vdecode _ _ _ _ _ _) as [[w z]|]; reflexivity. Qed.
  Lemma vmethods_agree_by : vmethods_agree V fp.
  Proof.
    intros v x ls. cbv zeta. split; [apply vscore_agrees|].
    assert (PP : vpredict_proba V fp v x ls = seen_as snd (vscore_samples V fp v x ls)).
    { unfold vpredict_proba. destruct (vscore_samples V fp v x ls) as [[l p]|]; reflexivity. }
    split; [exact PP|]. split; [apply vown_algorithm|]. split; [apply vown_algorithm|]. split; [apply vpredict_own|].
    assert (M : forall z, (exists w, vdecode V fp v x ls (Some "map"%string) = Ok (w, z))
                <-> exists post, vpredict_proba V fp v x ls = Ok post /\ z = map np_argmax (rows post)).
    { intros z. rewrite PP. split.
      - intros [w H]. destruct (vmap_agrees_back _ _ _ _ _ H) as (lp & post & -> & ->). exists post. split; reflexivity.
      - intros (post & H & ->). destruct (vscore_samples V fp v x ls) as [[lp p]|] eqn:Hs; [|discriminate]. cbn in H. injection H as <-.
        exact (vmap_agrees _ _ _ _ _ Hs). }
    split; [exact M|]. intros Ho z. rewrite <- M, vpredict_own, Ho. split.
    - destruct (vdecode _ _ _ _ _ _) as [[w y]|]; [|discriminate]. cbn. intros H. injection H as <-. eexists; reflexivity.
    - intros [w ->]. reflexivity.
  Qed.
  Lemma vdecode_shape v x ls alg w z s : h_start (v_h v) = Some s -> s <> [] -> vdecode V fp v x ls alg = Ok (w, z) ->
    exists xs, split_X_lengths x ls = Ok xs /\ length z = length (concat xs) /\ Forall (fun i => (i < length s)%nat) z.
  Proof.
    intros Hs0 Hn H. pose proof H as H0. unfold vdecode in H. apply bind_inv in H as ([h s'] & Hf & H).
    destruct (vfitted_cfg _ _ _ Hf) as [Hc Hst]. assert (s' = s) as -> by congruence. clear Hst.
    cbv zeta in H. apply bind_inv in H as (f & Hd & H). apply bind_inv in H as (y & Hy & H).
    assert (y = x) as -> by (unfold check_array in Hy; destruct x; [discriminate|]; destruct (forallb _ _); congruence).
    apply bind_inv in H as (xs & Hs & H). exists xs. split; [exact Hs|].
    match type of Hd with (if String.eqb ?a _ then _ else _) = _ => set (al := a) in * end.
    destruct (String.eqb al "viterbi") eqn:E1.
    - assert (f = vseq (loglik E fp) h (fun t => decode_viterbi E fp h s t)) as -> by congruence.
      apply (acc_seqs_shape fp _ (fun i => (i < length s)%nat) xs) in H as (A1 & A2 & _); [auto|].
      intros c l a _ Hv. unfold vseq in Hv. destruct (h_trans h) as [t|]; [|apply bind_inv in Hv as (? & _ & Hv); discriminate].
      unfold decode_viterbi in Hv. apply bind_inv in Hv as (lf & Hl1 & Hv). apply LL in Hl1.
      apply viterbi_shape in Hv as (B1 & B2 & B3); [|destruct s; [congruence|cbn; lia]]. split; [intros ->; cbn in Hl1; lia|]. split; [lia|assumption].
    - destruct (String.eqb al "map") eqn:E2; [|discriminate].
      assert (Hm : vdecode V fp v x ls (Some "map"%string) = Ok (w, z)).
      { unfold vdecode. rewrite Hf. cbn [bind String.eqb Ascii.eqb Bool.eqb]. cbn [bind]. rewrite Hy. cbn [bind]. rewrite Hs. cbn [bind]. rewrite <- H. f_equal. congruence. }
      destruct (vmap_agrees_back _ _ _ _ _ Hm) as (lp & post & Hp & ->).
      destruct (vscore_shape _ _ _ _ _ Hp) as (h2 & s2 & xs2 & f2 & Hf2 & _ & Hs2 & _ & _ & Hlen & Hrow & _).
      rewrite Hs in Hs2. injection Hs2 as <-. rewrite map_length. split; [exact Hlen|].
      apply Forall_forall. intros i Hi. apply in_map_iff in Hi as (r & <- & Hr). rewrite Forall_forall in Hrow. specialize (Hrow r Hr).
      assert (s2 = s) by congruence. subst s2. rewrite <- Hrow. apply np_argmax_lt. intros ->. destruct s; [congruence|discriminate].
  Qed.
  Lemma vone_per_sample_by : vone_per_sample V fp.
  Proof.
    intros v x ls s Hs Hn Hp.
    assert (D : forall alg w z, vdecode V fp v x ls alg = Ok (w, z) -> length z = length x /\ Forall (fun i => (i < length s)%nat) z).
    { intros alg w z H. destruct (vdecode_shape _ _ _ _ _ _ _ Hs Hn H) as (xs & Hx & H1 & H2). rewrite (split_whole _ _ _ Hp Hx) in H1. auto. }
    split; [|split; [exact D|]].
    - intros post H. unfold vpredict_proba in H. apply bind_inv in H as ([lp p] & H & H1). injection H1 as <-.
      destruct (vscore_shape _ _ _ _ _ H) as (h' & s' & xs & f & Hf & _ & Hx & _ & _ & H1 & H2 & _).
      rewrite (split_whole _ _ _ Hp Hx) in H1. split; [exact H1|]. destruct (vfitted_cfg _ _ _ Hf) as [_ Hst]. assert (s' = s) by congruence. subst s'. exact H2.
    - intros z H. unfold vpredict in H. apply bind_inv in H as ([w y] & H & H1). injection H1 as <-. exact (D _ _ _ H).
  Qed.
End VAgree.

Lemma C85_vcategorical_l fp : vmethods_agree vcategorical fp /\ vone_per_sample vcategorical fp.
Proof.
  assert (N : forall c nf p x m, ec_lik (vc_em vcategorical) fp c nf p x = Ok m -> nrow m = length x) by (intros c nf p x m; apply cat_lik_rows).
  assert (L : forall c nf p x m, ec_loglik (vc_em vcategorical) fp c nf p x = Ok m -> nrow m = length x).
  { intros c nf p x m. apply loglik_rows. apply cat_lik_rows. }
  split; [apply vmethods_agree_by|apply vone_per_sample_by]; assumption.
Qed.
Lemma C85_vgaussian_l la fp : vmethods_agree (vgaussian la) fp /\ vone_per_sample (vgaussian la) fp.
Proof.
  assert (L : forall c nf p x m, ec_loglik (vc_em (vgaussian la)) fp c nf p x = Ok m -> nrow m = length x).
  { cbn [vc_em vgaussian ec_loglik]. intros c nf p x m. unfold vg_loglik. destruct (vg_m p); [|discriminate]. apply gauss_loglik_rows. }
  assert (N : forall c nf p x m, ec_lik (vc_em (vgaussian la)) fp c nf p x = Ok m -> nrow m = length x).
  { intros c nf p x m. apply lik_rows. apply L. }
  split; [apply vmethods_agree_by|apply vone_per_sample_by]; assumption.
Qed.
