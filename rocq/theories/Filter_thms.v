(** * Property lemmas C96: continuing a sequence. *)
From Verif Require Export Filter Inference_thms.

Lemma fmat_inj n m (p p' : nat -> nat -> R) : fmat n m p = fmat n m p' -> forall i j, (i < n)%nat -> (j < m)%nat -> p i j = p' i j.
Proof.
  intros H i j Hi Hj. assert (E : mget (fmat n m p) i j = mget (fmat n m p') i j) by (rewrite H; reflexivity).
  rewrite !mget_fmat in E by assumption. congruence.
Qed.

Lemma filter_known {P X St} (E : emclass P X St) h nc pi A ok b x p :
  ready E h nc pi A ok b -> x <> [] -> Forall ok x -> scorable nc pi A b (c_impl (h_cfg h)) x ->
  predict_proba E exact h x None = Ok (fmat (length x) nc p) ->
  forall t i, (t < length x)%nat -> (i < nc)%nat -> p t i = seq_post nc pi A b x t i.
Proof.
  intros Rd Hne Hx Hs Hp. pose proof (C04_posteriors_l E h nc pi A ok b x Rd Hne Hx Hs) as H. rewrite Hp in H.
  assert (K : forall u v : mat, @Ok mat u = Ok v -> u = v) by congruence. apply K in H.
  intros t i Ht Hi. exact (fmat_inj _ _ _ _ H t i Ht Hi).
Qed.

(** [h2] starts from what [h] expects after [x]. *)
Definition continues {P X St} (E : emclass P X St) h nc (A : nat -> nat -> R) (x : list X) (q : nat -> R) : Prop :=
  exists p, predict_proba E exact h x None = Ok (fmat (length x) nc p)
    /\ forall j, (j < nc)%nat -> q j = sumn nc (fun i => p (length x - 1)%nat i * A i j).

Lemma C96_score_l {P X St} (E : emclass P X St) h h2 nc pi q A ok b x y :
  ready E h nc pi A ok b -> ready E h2 nc q A ok b -> c_impl (h_cfg h2) = c_impl (h_cfg h) ->
  x <> [] -> y <> [] -> Forall ok x -> Forall ok y -> continues E h nc A x q ->
  scorable nc pi A b (c_impl (h_cfg h)) x -> (c_impl (h_cfg h) = "scaling"%string -> seq_no_underflow nc pi A b (x ++ y)) ->
  exists s s2, score E exact h x None = Ok s /\ score E exact h2 y None = Ok s2 /\ score E exact h (x ++ y) None = Ok (xadd exact s s2).
Proof.
  intros R1 R2 Hi Nx Ny Fx Fy (p & Hp & Hq) Hs Hu.
  destruct (length x) as [|T] eqn:HT; [destruct x; [contradiction|discriminate]|].
  assert (HL : 0 < seq_lik nc pi A b x) by exact (scorable_pos E h nc pi A ok b R1 _ x Nx Fx Hs).
  assert (Hq' : forall j, (j < nc)%nat -> q j = sumn nc (fun i => seq_post nc pi A b x T i * A i j)).
  { intros j Hj. rewrite (Hq j Hj). apply sumn_ext. intros i Hi'. f_equal. replace (S T - 1)%nat with T by lia.
    rewrite <- HT in Hp. apply (filter_known E h nc pi A ok b x p R1 Nx Fx Hs Hp); [lia|exact Hi']. }
  assert (Nxy : x ++ y <> []) by (destruct x; [contradiction|discriminate]).
  assert (Fxy : Forall ok (x ++ y)) by (apply Forall_app; split; assumption).
  pose proof (seq_lik_nonneg E h2 nc q A ok b R2 y Ny Fy) as HY.
  exists (xln (seq_lik nc pi A b x)), (xln (seq_lik nc q A b y)).
  rewrite xadd_xln by lra. rewrite <- (seq_lik_cont nc pi q A b x y T HT ltac:(lra) Hq' Ny).
  destruct Hs as [[Il _]|[Is _]].
  - split; [exact (score_log_single E h nc pi A ok b R1 x Il Nx Fx)|].
    split; [apply (score_log_single E h2 nc q A ok b R2 y); congruence || assumption|].
    exact (score_log_single E h nc pi A ok b R1 (x ++ y) Il Nxy Fxy).
  - specialize (Hu Is).
    split; [exact (score_scaling_single E h nc pi A ok b R1 x Is Nx Fx (underflow_head nc pi A b x y T HT Hu))|].
    split; [apply (score_scaling_single E h2 nc q A ok b R2 y); try congruence; try assumption; exact (underflow_tail nc pi q A b x y T HT Hu HL Hq')|].
    exact (score_scaling_single E h nc pi A ok b R1 (x ++ y) Is Nxy Fxy Hu).
Qed.

Lemma C96_posteriors_l {P X St} (E : emclass P X St) h h2 nc pi q A ok b x y :
  ready E h nc pi A ok b -> ready E h2 nc q A ok b -> c_impl (h_cfg h2) = c_impl (h_cfg h) ->
  x <> [] -> y <> [] -> Forall ok x -> Forall ok y -> continues E h nc A x q ->
  scorable nc pi A b (c_impl (h_cfg h)) x -> scorable nc pi A b (c_impl (h_cfg h)) (x ++ y) ->
  exists p p2, predict_proba E exact h (x ++ y) None = Ok (fmat (length x + length y) nc p)
    /\ predict_proba E exact h2 y None = Ok (fmat (length y) nc p2)
    /\ forall t i, (t < length y)%nat -> (i < nc)%nat -> p (length x + t)%nat i = p2 t i.
Proof.
  intros R1 R2 Hi Nx Ny Fx Fy (p & Hp & Hq) Hs Hs2.
  destruct (length x) as [|T] eqn:HT; [destruct x; [contradiction|discriminate]|].
  assert (HL : 0 < seq_lik nc pi A b x) by exact (scorable_pos E h nc pi A ok b R1 _ x Nx Fx Hs).
  assert (Hq' : forall j, (j < nc)%nat -> q j = sumn nc (fun i => seq_post nc pi A b x T i * A i j)).
  { intros j Hj. rewrite (Hq j Hj). apply sumn_ext. intros i Hi'. f_equal. replace (S T - 1)%nat with T by lia.
    rewrite <- HT in Hp. apply (filter_known E h nc pi A ok b x p R1 Nx Fx Hs Hp); [lia|exact Hi']. }
  assert (Nxy : x ++ y <> []) by (destruct x; [contradiction|discriminate]).
  assert (Fxy : Forall ok (x ++ y)) by (apply Forall_app; split; assumption).
  pose proof (scorable_pos E h nc pi A ok b R1 _ (x ++ y) Nxy Fxy Hs2) as HLxy.
  pose proof (seq_lik_nonneg E h2 nc q A ok b R2 y Ny Fy) as HY.
  assert (HLy : 0 < seq_lik nc q A b y).
  { rewrite (seq_lik_cont nc pi q A b x y T HT ltac:(lra) Hq' Ny) in HLxy.
    destruct HY as [HY|HY]; [exact HY|]. rewrite <- HY, Rmult_0_r in HLxy. lra. }
  assert (Hs3 : scorable nc q A b (c_impl (h_cfg h2)) y).
  { rewrite Hi. destruct Hs2 as [[I1 _]|[I1 U]]; [left; split; assumption|right]. split; [exact I1|]. exact (underflow_tail nc pi q A b x y T HT U HL Hq'). }
  exists (seq_post nc pi A b (x ++ y)), (seq_post nc q A b y).
  split; [rewrite <- HT, <- app_length; exact (C04_posteriors_l E h nc pi A ok b (x ++ y) R1 Nxy Fxy Hs2)|].
  split; [exact (C04_posteriors_l E h2 nc q A ok b y R2 Ny Fy Hs3)|].
  intros t i Ht Hti. apply (seq_post_cont nc pi q A b x y T HT); [lra|exact Hq'|exact Ht|exact Hti|lra].
Qed.
