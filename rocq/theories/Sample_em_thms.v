(** * C74: what [sample] draws in each class. *)
From Verif Require Export Spec_sample_em Sample_thms Gauss_ex Full_ex Poisson_thms Vcat_use Vg_use Gmm_ex.
From Verif Require Mult_thms.

(** ** Runs and chains. *)
Lemma run_ext {G Y} (rand : G -> R * G) (em em' : emission G Y) nc A :
  (forall i g y g', (i < nc)%nat -> em i g y g' -> em' i g y g') ->
  forall c g ys zs g', mrun rand em nc A c g ys zs g' -> mrun rand em' nc A c g ys zs g'.
Proof.
  intros H c g ys zs g' R0. induction R0; [constructor|]. econstructor; try eassumption. apply H; [|assumption].
  match goal with HI : inverse_cdf _ _ _ _ |- _ => apply HI end.
Qed.
Lemma chain_run {G Y} (rand : G -> R * G) (emit : nat -> G -> res (Y * G)) nc A c g ys zs g' :
  chain rand emit nc A c g ys zs g' <-> mrun rand (fun i g y g' => emit i g = Ok (y, g')) nc A c g ys zs g'.
Proof. split; intros H; induction H; econstructor; eassumption. Qed.

Section Gen.
  Context {P X St : Type} (E : emclass P X St) (h h' : hmm P).
  Variables (nc : nat) (pi : nat -> R) (A : nat -> nat -> R) (ok : X -> Prop) (b : X -> nat -> R).
  Hypothesis Rd : ready E h nc pi A ok b.
  Hypothesis Hck : check E exact h = Ok h'.
  Context {G Y : Type} (rand : G -> R * G) (gen : hmm P -> Z -> G -> res (Y * G)) (em : emission G Y).
  Hypothesis Hrand : uniform_range rand.
  Hypothesis Spi : stochastic1 nc pi.
  Hypothesis SA : stochastic2 nc nc A.
  Hypothesis Hem : forall i g y g', (i < nc)%nat -> (gen h' (Z.of_nat i) g = Ok (y, g') <-> em i g y g').

  Lemma sample_sampled n start g ys zs g' : (1 <= n)%Z -> (forall c, start = Some c -> (c < nc)%nat) ->
    (sample E exact rand gen h n (option_map Z.of_nat start) g = Ok (ys, zs, g')
     <-> sampled rand em nc pi A start (Z.to_nat n) g ys zs g').
  Proof.
    intros Hn Hst.
    assert (H1 : 1 <= sumn nc pi) by (apply sumn_1_le, Spi).
    assert (HA : forall i, (i < nc)%nat -> 1 <= sumn nc (A i)) by (intros i Hi; apply sumn_1_le, SA, Hi).
    assert (HR : forall c g ys zs g', chain rand (fun i => gen h' (Z.of_nat i)) nc A c g ys zs g' <-> mrun rand em nc A c g ys zs g').
    { intros. rewrite chain_run. split; apply run_ext; intros; [rewrite <- Hem by assumption|rewrite Hem by assumption]; assumption. }
    unfold sampled. destruct start as [c|]; cbn [option_map].
    - specialize (Hst c eq_refl). rewrite (sample_from E h h' nc pi A ok b Rd Hck rand gen Hrand HA) by exact Hst.
      split.
      + intros (y & g2 & ys' & zs' & Hy & Hc & -> & -> & Hl). exists c, g, y, g2, ys', zs'.
        split; [split; reflexivity|]. split; [apply Hem; assumption|]. split; [apply HR; exact Hc|]. repeat split. lia.
      + intros (c0 & g1 & y & g2 & ys' & zs' & (-> & ->) & Hy & Hc & -> & -> & Hl). exists y, g2, ys', zs'.
        split; [apply Hem; assumption|]. split; [apply HR; exact Hc|]. repeat split. lia.
    - rewrite (sample_start E h h' nc pi A ok b Rd Hck rand gen Hrand HA H1). split.
      + intros (u & g1 & c & y & g2 & ys' & zs' & Hr & Hi & Hy & Hc & -> & -> & Hl). exists c, g1, y, g2, ys', zs'.
        split; [exists u; split; assumption|]. split; [apply Hem; [apply Hi|assumption]|]. split; [apply HR; exact Hc|]. repeat split. lia.
      + intros (c & g1 & y & g2 & ys' & zs' & (u & Hr & Hi) & Hy & Hc & -> & -> & Hl). exists u, g1, c, y, g2, ys', zs'.
        split; [exact Hr|]. split; [exact Hi|]. split; [apply Hem; [apply Hi|assumption]|]. split; [apply HR; exact Hc|]. repeat split. lia.
  Qed.
End Gen.

(** ** CategoricalHMM. *)
Lemma cat_gen_emits {G} (sr : srng G) h nc nf e i g y g' : cat_prob (h_em h) = Some (fmat nc nf e) -> (0 < nf)%nat ->
  uniform_range (s_rand sr) -> stochastic2 nc nf e -> (i < nc)%nat ->
  (cat_gen exact (s_rand sr) h (Z.of_nat i) g = Ok (y, g') <-> cat_drawn sr nf e i g y g').
Proof.
  intros Hp Hnf Hu Se Hi. unfold cat_gen, cat_drawn. rewrite Hp, nrow_fmat, np_index_nat by exact Hi. cbn [bind].
  rewrite nth_rows_fmat by exact Hi. pose proof (Hu g) as Hg. destruct (s_rand sr g) as [u g1]. cbn [fst] in Hg.
  destruct (Se i Hi) as [S0 S1].
  pose proof (pick_iff nf (e i) u y Hnf S0 ltac:(rewrite S1; exact Hg)) as HP.
  split.
  - intros H. injection H as H <-. exists u. split; [reflexivity|]. apply HP. exact H.
  - intros (u' & Hr & Hy). injection Hr as <- <-. f_equal. f_equal. apply HP. exact Hy.
Qed.

Lemma C74_categorical_l {G} (sr : srng G) h nc nf pi A e n start g ys zs g' :
  cat_model h nc nf pi A e -> stochastic1 nc pi -> stochastic2 nc nc A -> stochastic2 nc nf e ->
  uniform_range (s_rand sr) -> (1 <= n)%Z -> (forall c, start = Some c -> (c < nc)%nat) ->
  (sample categorical exact (s_rand sr) (cat_gen exact (s_rand sr)) h n (option_map Z.of_nat start) g = Ok (ys, zs, g')
   <-> sampled (s_rand sr) (cat_drawn sr nf e) nc pi A start (Z.to_nat n) g ys zs g').
Proof.
  intros CM S1 S2 S3 Hu. assert (Hnf : (0 < nf)%nat).
  { destruct (S3 0%nat (cm_pos _ _ _ _ _ _ CM)) as [_ H]. destruct nf; [cbn in H; lra|lia]. }
  destruct (rd_check _ _ _ _ _ _ _ (cat_ready _ _ _ _ _ _ CM)) as (h' & Hc & _).
  apply (sample_sampled categorical h h' nc pi A _ _ (cat_ready _ _ _ _ _ _ CM) Hc); try assumption.
  intros i g0 y g0' Hi. apply (cat_gen_emits sr h' nc); try assumption.
  unfold check in Hc. rewrite (cm_start _ _ _ _ _ _ CM), (cm_trans _ _ _ _ _ _ CM) in Hc. apply bind_inv in Hc as (? & _ & Hc). apply bind_inv in Hc as ([nf1 p1] & Hp & Hc).
  injection Hc as <-. cbn [h_em]. apply cat_check_prob in Hp. rewrite Hp. apply CM.
Qed.

(** ** PoissonHMM. *)
Lemma draw_each_features {G} (sr : srng G) nf : forall (l : nat -> R) g y g',
  draw_each (s_poisson sr) (fvec nf l) g = Ok (y, g') <-> features_drawn nf (fun f => s_poisson sr (Fin (l f))) g y g'.
Proof.
  induction nf as [|n IH]; intros l g y g'; cbn [features_drawn].
  - cbn. split; [intros H; injection H as <- <-; split; reflexivity|intros [-> ->]; reflexivity].
  - unfold fvec. rewrite tab_S. cbn [draw_each]. change (tab n (fun i => Fin (l (S i)))) with (fvec n (fun i => l (S i))).
    destruct (s_poisson sr (Fin (l 0%nat)) g) as [[v g1]|er]; cbn [bind].
    + destruct (draw_each (s_poisson sr) (fvec n (fun i => l (S i))) g1) as [[bs g2]|er] eqn:Ed; cbn [bind]; split.
      * intros H. injection H as <- <-. exists v, g1, bs. split; [reflexivity|]. split; [|reflexivity]. apply IH. exact Ed.
      * intros (v' & g1' & y' & H & Hf & ->). injection H as <- <-. apply (IH (fun i => l (S i))) in Hf. rewrite Ed in Hf. injection Hf as <- <-. reflexivity.
      * discriminate.
      * intros (v' & g1' & y' & H & Hf & ->). injection H as <- <-. apply (IH (fun i => l (S i))) in Hf. rewrite Ed in Hf. discriminate.
    + split; [discriminate|]. intros (v' & g1' & y' & H & _). discriminate.
Qed.
Lemma pois_gen_emits {G} (sr : srng G) h nc nf lam i g y g' : po_lam (h_em h) = Some (fmat nc nf lam) -> nonneg2 nc nf lam ->
  (i < nc)%nat -> (pois_gen sr h (Z.of_nat i) g = Ok (y, g') <-> pois_drawn sr nf lam i g y g').
Proof.
  intros Hp Hl Hi. unfold pois_gen. rewrite Hp, nrow_fmat, np_index_nat by exact Hi. cbn [bind].
  rewrite nth_rows_fmat by exact Hi. replace (existsb _ (fvec nf (lam i))) with false; [apply draw_each_features|].
  symmetry. apply Bool.not_true_is_false. intros He. apply existsb_exists in He as (v & Hv & He).
  apply in_map_iff in Hv as (f & <- & Hf). apply in_seq in Hf. cbn [xleb] in He. specialize (Hl i f Hi ltac:(lia)).
  unfold Rleb in He. destruct (Rle_dec 0 (lam i f)); [discriminate|lra].
Qed.
Lemma C74_poisson_l {G} (sr : srng G) h nc nf pi A lam n start g ys zs g' :
  pois_model h nc nf pi A lam -> stochastic1 nc pi -> stochastic2 nc nc A ->
  uniform_range (s_rand sr) -> (1 <= n)%Z -> (forall c, start = Some c -> (c < nc)%nat) ->
  (sample poisson exact (s_rand sr) (pois_gen sr) h n (option_map Z.of_nat start) g = Ok (ys, zs, g')
   <-> sampled (s_rand sr) (pois_drawn sr nf lam) nc pi A start (Z.to_nat n) g ys zs g').
Proof.
  intros PM S1 S2 Hu.
  apply (sample_sampled poisson h _ nc pi A _ _ (pois_ready _ _ _ _ _ _ PM) (pois_model_check _ _ _ _ _ _ PM)); try assumption.
  intros i g0 y g0' Hi. apply (pois_gen_emits sr _ nc); [apply PM|apply PM|exact Hi].
Qed.

(** ** MultinomialHMM. *)
Lemma mult_gen_emits {G} (sr : srng G) h nc nf e m i g y g' : mu_prob (h_em h) = Some (fmat nc nf e) -> stochastic2 nc nf e ->
  (0 < nf)%nat -> unique_trials (mu_trials (h_em h)) = Some m -> (i < nc)%nat ->
  (mult_gen exact sr h (Z.of_nat i) g = Ok (y, g') <-> mult_drawn sr m nf e i g y g').
Proof.
  intros Hp He Hnf Ht Hi. unfold mult_gen. rewrite Ht, Hp, nrow_fmat, np_index_nat by exact Hi. cbn [bind].
  rewrite nth_rows_fmat by exact Hi. rewrite (Mult_proofs.adjust_stochastic nf Hnf) by (apply He; exact Hi). reflexivity.
Qed.
(** [n_trials] a number, or an array of equal numbers. *)
Definition single_trials (t : option trials) (m : Z) : Prop :=
  t = Some (TNum m) \/ exists l, t = Some (TArr l) /\ l <> [] /\ forall k, In k l -> k = m.
Lemma single_unique t m : single_trials t m -> unique_trials t = Some m.
Proof.
  intros [->|(l & -> & Hl & Ha)]; [reflexivity|]. destruct l as [|a l]; [contradiction|]. cbn [unique_trials].
  assert (a = m) as -> by (apply Ha; left; reflexivity). replace (forallb (Z.eqb m) l) with true; [reflexivity|].
  symmetry. apply forallb_forall. intros k Hk. apply Z.eqb_eq. symmetry. apply Ha. right. exact Hk.
Qed.
Lemma C74_multinomial_l {G} (sr : srng G) h nc nf pi A e m n start g ys zs g' :
  Mult_thms.mult_model h nc nf pi A e -> single_trials (mu_trials (h_em h)) m -> stochastic1 nc pi -> stochastic2 nc nc A ->
  uniform_range (s_rand sr) -> (1 <= n)%Z -> (forall c, start = Some c -> (c < nc)%nat) ->
  (sample multinomial exact (s_rand sr) (mult_gen exact sr) h n (option_map Z.of_nat start) g = Ok (ys, zs, g')
   <-> sampled (s_rand sr) (mult_drawn sr m nf e) nc pi A start (Z.to_nat n) g ys zs g').
Proof.
  intros MM Ht S1 S2 Hu.
  apply (sample_sampled multinomial h _ nc pi A _ _ (Mult_thms.mult_ready _ _ _ _ _ _ MM) (Mult_thms.mult_model_check _ _ _ _ _ _ MM)); try assumption.
  intros i g0 y g0' Hi. destruct MM. apply (mult_gen_emits sr _ nc); try assumption. apply single_unique. exact Ht.
Qed.
(** Several different numbers of trials: every call fails. *)
Lemma C74_multinomial_trials_l {G} (sr : srng G) h nc nf pi A e l a b n start g :
  Mult_thms.mult_model h nc nf pi A e -> mu_trials (h_em h) = Some (TArr l) -> In a l -> In b l -> a <> b ->
  sample multinomial exact (s_rand sr) (mult_gen exact sr) h n start g
  = Err (ValueError "For sampling, a single n_trials must be given").
Proof.
  intros MM Ht Ha Hb Hab. unfold sample, fitted_check.
  rewrite (bo_start _ _ _ _ (Mult_thms.mm_base _ _ _ _ _ _ MM)), (Mult_thms.mult_model_check _ _ _ _ _ _ MM).
  cbn [bind with_em h_start h_trans]. rewrite (bo_start _ _ _ _ (Mult_thms.mm_base _ _ _ _ _ _ MM)), (bo_trans _ _ _ _ (Mult_thms.mm_base _ _ _ _ _ _ MM)).
  cbn [bind]. destruct (match start with None => _ | Some _ => _ end) as [cur g1].
  assert (Hg : mult_gen exact sr (with_em h (Some nf) (h_em h)) cur g1 = Err (ValueError "For sampling, a single n_trials must be given")).
  { unfold mult_gen. cbn [with_em h_em]. rewrite Ht. destruct l as [|k l]; [reflexivity|]. cbn [unique_trials].
    destruct (forallb (Z.eqb k) l) eqn:Ef; [|reflexivity]. exfalso. apply Hab. rewrite forallb_forall in Ef.
    assert (forall c, In c (k :: l) -> c = k) as Hk by (intros c [->|Hc]; [reflexivity|symmetry; apply Z.eqb_eq, Ef, Hc]).
    rewrite (Hk a Ha), (Hk b Hb). reflexivity. }
  rewrite Hg. reflexivity.
Qed.

(** ** GaussianHMM. *)
Lemma gauss_with_em h nc nf pi A mu var : gauss_model h nc nf pi A mu var -> gauss_model (with_em h (Some nf) (h_em h)) nc nf pi A mu var.
Proof. intros [[H1 H2 H3 H4 H5 H6 H7 H8] Hf Hm Hc]. constructor; [constructor|..]; assumption. Qed.
Lemma gauss_gen_emits {G} (sr : srng G) h nc nf mu Sg i g y g' : ga_means (h_em h) = Some (fmat nc nf mu) ->
  covars_get exact h = Ok (tab nc (fun i => fmat nf nf (Sg i))) -> (i < nc)%nat ->
  (gauss_gen exact sr h (Z.of_nat i) g = Ok (y, g') <-> normal_drawn sr nf mu Sg i g y g').
Proof.
  intros Hm Hc Hi. unfold gauss_gen. rewrite Hm, nrow_fmat, np_index_nat by exact Hi. cbn [bind].
  rewrite Hc. cbn [bind]. rewrite tab_length, np_index_nat by exact Hi. cbn [bind].
  rewrite nth_rows_fmat by exact Hi. rewrite tab_nth by exact Hi. reflexivity.
Qed.
(** The diagonal matrices of variances. *)
Definition diag_cov (var : nat -> nat -> R) (i a b : nat) : R := if Nat.eqb a b then var i a else 0.
Lemma spherical_one h nc pi A mu var : gauss_model h nc 1 pi A mu var -> h_nfeat h = Some 1%nat ->
  covars_get exact h = Ok (tab nc (fun i => diag_mat 1 (var i))).
Proof.
  intros GM Hn. destruct (gam_covars _ _ _ _ _ _ _ GM) as (cv & E & Hcv).
  remember (ga_type (h_em h)) as ty eqn:Ety. destruct Hcv as [|s Hs|Hs].
  - apply (C37_vector_types_l h nc 1 pi A mu); [exact GM|exact Hn|left; symmetry; exact Ety].
  - apply (C37_vector_types_l h nc 1 pi A mu); [exact GM|exact Hn|right; exists (fvec nc s); exact E].
  - unfold covars_get. rewrite E, Hn, <- Ety. unfold fill_covars. cbn [String.eqb Ascii.eqb Bool.eqb]. f_equal.
    unfold fmat at 1, mtab at 1. cbn [rows].
    pose proof (concat_tab_const nc 1 (fun i => Fin (var i 0%nat)) ltac:(lia)) as Hcc.
    replace (concat _) with (tab (nc * 1) (fun r => Fin (var (r / 1)%nat 0%nat))) by (symmetry; exact Hcc). rewrite Nat.mul_1_r, tab_map. apply tab_ext. intros i Hi.
    rewrite Nat.div_1_r. apply mtab_ext. intros a b Ha Hb. assert (a = 0%nat) as -> by lia. assert (b = 0%nat) as -> by lia.
    cbn [Nat.eqb xmul]. unfold exact. f_equal. ring.
Qed.

(** "diag", and "spherical" unless the variances were trained on several features
    (see [C74_spherical_refuted]). *)
Lemma C74_gaussian_l {G} (sr : srng G) h nc nf pi A mu var n start g ys zs g' :
  gauss_model h nc nf pi A mu var ->
  ga_type (h_em h) = "diag"%string \/ (exists s, ga_covars (h_em h) = Some (CV1 s)) \/ nf = 1%nat ->
  stochastic1 nc pi -> stochastic2 nc nc A ->
  uniform_range (s_rand sr) -> (1 <= n)%Z -> (forall c, start = Some c -> (c < nc)%nat) ->
  (sample gaussian exact (s_rand sr) (gauss_gen exact sr) h n (option_map Z.of_nat start) g = Ok (ys, zs, g')
   <-> sampled (s_rand sr) (normal_drawn sr nf mu (diag_cov var)) nc pi A start (Z.to_nat n) g ys zs g').
Proof.
  intros GM Hty S1 S2 Hu.
  assert (Hck : check gaussian exact h = Ok (with_em h (Some nf) (h_em h))).
  { apply (base_ok_check gaussian h nc pi A); [apply GM|]. apply (gauss_check_ok _ _ _ nc nf mu); [apply GM|exact (gam_type _ _ _ _ _ _ _ GM)]. }
  apply (sample_sampled gaussian h _ nc pi A _ _ (gauss_ready _ _ _ _ _ _ _ GM) Hck); try assumption.
  intros i g0 y g0' Hi. apply (gauss_gen_emits sr _ nc); [apply GM| |exact Hi].
  destruct Hty as [Hty|[Hty| ->]].
  - apply (C37_vector_types_l _ nc nf pi A mu var (gauss_with_em _ _ _ _ _ _ _ GM) eq_refl). left. exact Hty.
  - apply (C37_vector_types_l _ nc nf pi A mu var (gauss_with_em _ _ _ _ _ _ _ GM) eq_refl). right. exact Hty.
  - apply (spherical_one _ nc pi A mu var (gauss_with_em _ _ _ _ _ _ _ GM) eq_refl).
Qed.

(** "full" and "tied". *)
Lemma C74_matrix_l {G} (sr : srng G) h nc nf pi A mu Sg b n start g ys zs g' :
  full_model h nc nf pi A mu Sg -> normal_densities nc nf mu Sg b -> stochastic1 nc pi -> stochastic2 nc nc A ->
  uniform_range (s_rand sr) -> (1 <= n)%Z -> (forall c, start = Some c -> (c < nc)%nat) ->
  (sample gaussian exact (s_rand sr) (gauss_gen exact sr) h n (option_map Z.of_nat start) g = Ok (ys, zs, g')
   <-> sampled (s_rand sr) (normal_drawn sr nf mu Sg) nc pi A start (Z.to_nat n) g ys zs g').
Proof.
  intros FM D S1 S2 Hu.
  assert (Hck : check gaussian exact h = Ok (with_em h (Some nf) (h_em h))).
  { apply (base_ok_check gaussian h nc pi A); [apply FM|]. apply (gauss_check_ok _ _ _ nc nf mu); [apply FM|exact (fum_type _ _ _ _ _ _ _ FM)]. }
  apply (sample_sampled gaussian h _ nc pi A _ _ (full_ready _ _ _ _ _ _ _ FM b D) Hck); try assumption.
  intros i g0 y g0' Hi. apply (gauss_gen_emits sr _ nc); [apply FM| |exact Hi].
  unfold covars_get. cbn [with_em h_em h_nfeat h_cfg]. destruct (fum_covars _ _ _ _ _ _ _ FM) as (cv & E & Hcv). rewrite E.
  rewrite (bo_nc _ _ _ _ (fum_base _ _ _ _ _ _ _ FM)).
  remember (ga_type (h_em h)) as ty eqn:Ety. destruct Hcv as [|Hs]; unfold fill_covars; cbn [String.eqb Ascii.eqb Bool.eqb]; [reflexivity|].
  f_equal. apply tab_ext. intros j Hj. apply fmat_ext. intros a c Ha Hc. symmetry. apply Hs; assumption.
Qed.

(** A "spherical" model trained on two features: [sample(1, currstate=1)] draws
    with variance 1, scoring uses variance 4. *)
Lemma C74_spherical_refuted_l : exists h nc nf pi A mu var ls x h' ev mu' v',
  gauss_model h nc nf pi A mu var /\ flat_base h /\ gauss_default h 0 /\ ga_type (h_em h) = "spherical"%string
  /\ good_data (finite_row nf) ls x /\ possible nc pi A (gauss_b nf mu (floored var)) ls x
  /\ all_used nc pi A (gauss_b nf mu (floored var)) (chunks ls x)
  /\ fit_from gaussian exact h x (as_lengths ls) = Ok (h', ev)
  /\ (1 < nc)%nat /\ (0 < nf)%nat /\ gauss_model h' nc nf pi A mu' v' /\ (forall f, (f < nf)%nat -> v' 1%nat f = 4)
  /\ ready gaussian h' nc pi A (finite_row nf) (gauss_b nf mu' (floored v'))
  /\ forall (G : Type) (sr : srng G) g,
       sample gaussian exact (s_rand sr) (gauss_gen exact sr) h' 1 (Some 1%Z) g
       = (do (y, g1) <- s_normal sr (fvec nf (mu' 1%nat)) (diag_mat nf (fun _ => 1)) g; Ok ([y], [1%Z], g1)).
Proof.
  destruct (ex_sw_fit "spherical" "mc" 0 (or_intror eq_refl)) as (h' & ev & H & Hk).
  destruct (ex_sw_trained "spherical" (or_intror eq_refl)) as (h2 & ev2 & pis & As & mus & vs & H2 & _ & T & U).
  rewrite H in H2. injection H2 as <- <-.
  destruct (C34_run (ex_sw "spherical" "mc" 0) 2 2 sw_pi sw_A (fun _ _ => 1) (fun _ _ => 1) 0
    (ex_sw_model _ _ _ (or_intror eq_refl)) ltac:(split; reflexivity) ltac:(repeat split) ltac:(lra)
    (proj1 ex_sw_stoch) (proj2 ex_sw_stoch) [2; 2]%nat sx sx_good sx_possible (fun _ => sx_used) h' ev H)
    as (pis' & As' & mus' & vs' & _ & _ & Ety & Enf & Enc & _).
  destruct (C37_fitted_spherical_l (ex_sw "spherical" "mc" 0) 2 2 sw_pi sw_A (fun _ _ => 1) (fun _ _ => 1) 0 [2; 2]%nat sx h' ev
    (ex_sw_model _ _ _ (or_intror eq_refl)) ltac:(split; reflexivity) ltac:(repeat split) ltac:(lra)
    (proj1 ex_sw_stoch) (proj2 ex_sw_stoch) sx_good sx_possible (fun _ => sx_used) eq_refl eq_refl H ltac:(rewrite Hk; lia))
    as (pis2 & As2 & mus2 & vs2 & _ & G1 & G2).
  destruct (C21_base_params_l gaussian exact _ _ _ _ _ H) as (K1 & K2 & K3).
  specialize (K2 eq_refl). specialize (K3 eq_refl).
  destruct T as (_ & _ & _ & _ & _ & Tm & cv & Tc & Tv). rewrite Hk in *.
  rewrite Tc in G1. injection G1 as ->.
  assert (Hv : forall i f, (i < 2)%nat -> (f < 2)%nat -> vs2 1%nat i f = match i with 0%nat => 1 | _ => 4 end).
  { intros i f Hi Hf. destruct (U i f Hi Hf) as [_ <-].
    assert (E : fmat 2 2 (vs2 1%nat) = fmat 2 2 (vs 1%nat)) by (inversion Tv; subst; symmetry; apply fmat_ext; intros [|[|a]] [|[|b]] Ha Hb; try lia; assumption).
    pose proof (f_equal (fun m => mget m i f) E) as E'. cbv beta in E'. rewrite !mget_fmat in E' by assumption.
    injection E' as E'. exact E'. }
  assert (GM' : gauss_model h' 2 2 sw_pi sw_A (mus 1%nat) (vs 1%nat)).
  { destruct (ex_sw_base "spherical" "mc" 0) as [B1 B2 B3 B4 B5 B6 B7 B8].
    constructor; [|lia|exact Tm|exists (CV2 (fmat 2 2 (vs2 1%nat))); rewrite Ety; split; [exact Tc|exact Tv]].
    constructor; [rewrite K1; exact B1|exact B2|rewrite K2; exact B3|rewrite K3; exact B4|assumption..]. }
  exists (ex_sw "spherical" "mc" 0), 2%nat, 2%nat, sw_pi, sw_A, (fun _ _ => 1), (fun _ _ => 1), [2; 2]%nat, sx, h', ev, (mus 1%nat), (vs 1%nat).
  split; [apply ex_sw_model; right; reflexivity|]. split; [split; reflexivity|]. split; [repeat split|].
  split; [reflexivity|]. split; [exact sx_good|]. split; [exact sx_possible|]. split; [exact sx_used|]. split; [exact H|].
  split; [lia|]. split; [lia|]. split; [exact GM'|]. split; [intros f Hf; apply (U 1%nat f); lia|].
  split; [apply (gauss_ready _ _ _ _ _ _ _ GM')|].
  intros G0 sr g.
  assert (Hck : check gaussian exact h' = Ok (with_em h' (Some 2%nat) (h_em h'))).
  { apply (base_ok_check gaussian h' 2 sw_pi sw_A); [apply GM'|].
    apply (gauss_check_ok _ _ _ 2 2 (mus 1%nat)); [apply GM'|exact (gam_type _ _ _ _ _ _ _ GM')]. }
  rewrite (sample_eq gaussian h' _ 2 sw_pi sw_A _ _ (gauss_ready _ _ _ _ _ _ _ GM') Hck (s_rand sr)).
  assert (Hg : gauss_gen exact sr (with_em h' (Some 2%nat) (h_em h')) 1%Z g
               = s_normal sr (fvec 2 (mus 1%nat 1%nat)) (diag_mat 2 (fun _ => 1)) g).
  { assert (Eg : covars_get exact (with_em h' (Some 2%nat) (h_em h')) = covars_get exact h') by (unfold covars_get; rewrite Enf; reflexivity).
    unfold gauss_gen. rewrite Eg. cbn [with_em h_em]. rewrite Tm, nrow_fmat. change (np_index 2 1) with (Ok 1%nat). cbn [bind].
    rewrite G2. cbn [bind]. rewrite tab_length. change (np_index (2 * 2) 1) with (Ok 1%nat). cbn [bind].
    rewrite nth_rows_fmat, tab_nth by lia. change (1 / 2)%nat with 0%nat. rewrite (Hv 0%nat 0%nat) by lia. reflexivity. }
  rewrite Hg. destruct (s_normal sr _ _ g) as [[y g1]|er]; reflexivity.
Qed.

(** ** GMMHMM. *)
(** The covariance matrix of component [k] of state [i]. *)
Definition comp_cov (ty : string) (cv : list nat -> R) (i k a b : nat) : R :=
  if vec_type ty then (if Nat.eqb a b then comp_v ty cv i k a else 0) else comp_S ty cv i k a b.

Lemma np_choice_iff {G} (sr : srng G) nm (p : nat -> R) g k g' : (0 < nm)%nat -> nonneg1 nm p ->
  Rabs (sumn nm p - 1) <= / 2 ^ 26 -> uniform_range (s_rand sr) ->
  (np_choice exact sr nm (fvec nm p) g = Ok (k, g')
   <-> exists u, s_rand sr g = (u, g') /\ inverse_cdf nm (fun k => p k / sumn nm p) u k).
Proof.
  intros Hn Hp Hs Hu.
  assert (Hpos : 0 < sumn nm p).
  { assert (/ 2 ^ 26 < 1) by (rewrite <- Rinv_1; apply Rinv_lt_contravar; lra). unfold Rabs in Hs. destruct (Rcase_abs _); lra. }
  unfold np_choice. cbv zeta. rewrite XRL.xsum_fvec. replace (length (fvec nm p)) with nm by (symmetry; apply tab_length). rewrite Nat.eqb_refl. cbn [negb xisnan].
  replace (existsb _ (fvec nm p)) with false; cycle 1.
  { symmetry. apply Bool.not_true_is_false. intros He. apply existsb_exists in He as (v & Hv & He).
    apply in_map_iff in Hv as (f & <- & Hf). apply in_seq in Hf. cbn [xltb] in He. apply Rltb_true in He. specialize (Hp f ltac:(lia)). lra. }
  rewrite xsubE. cbn [xabs].
  assert (El : xltb (Fin (/ 2 ^ 26)) (xabs (Fin (sumn nm p - 1))) = false).
  { cbn [xabs xltb]. unfold Rltb. destruct (Rlt_dec _ _); [lra|reflexivity]. }
  cbn [xabs] in El. rewrite El.
  pose proof (Hu g) as Hg. destruct (s_rand sr g) as [u g1]. cbn [fst] in Hg.
  rewrite cumsum_fvec. replace (last (tab nm _) NaN) with (Fin (sumn nm p)); cycle 1.
  { destruct nm as [|m]; [lia|]. rewrite tab_last. reflexivity. }
  assert (Em : map (fun c => xltb (Fin u) (xdiv exact c (Fin (sumn nm p)))) (tab nm (fun i => Fin (sumn (S i) p)))
               = tab nm (fun i => xltb (Fin u) (Fin (sumn (S i) (fun k => p k / sumn nm p))))).
  { rewrite tab_map. apply tab_ext. intros i Hi. rewrite xdivE by lra. f_equal. f_equal.
    unfold Rdiv. rewrite sumn_scal_r. reflexivity. }
  rewrite Em. clear Em El.
  pose proof (pick_iff nm (fun k => p k / sumn nm p) u) as HP.
  assert (S1 : sumn nm (fun k => p k / sumn nm p) = 1).
  { unfold Rdiv. rewrite sumn_scal_r. field. lra. }
  assert (H0 : nonneg1 nm (fun k => p k / sumn nm p)).
  { intros i Hi. apply Rmult_le_pos; [apply Hp, Hi|]. left. apply Rinv_0_lt_compat, Hpos. }
  unfold pick, argmax_bool in HP. rewrite cumsum_fvec, tab_map in HP.
  pose proof (argmax_bool_from_spec (tab nm (fun i => xltb (Fin u) (Fin (sumn (S i) (fun k => p k / sumn nm p))))) 0) as HA.
  destruct (argmax_bool_from 0 _) as [j|].
  - split.
    + intros H. injection H as <- <-. exists u. split; [reflexivity|]. apply HP; [exact Hn|exact H0|rewrite S1; exact Hg|reflexivity].
    + intros (u' & Hr & Hi). injection Hr as <- <-. f_equal. f_equal. apply HP; [exact Hn|exact H0|rewrite S1; exact Hg|exact Hi].
  - exfalso. specialize (HA (nm - 1)%nat). rewrite tab_length in HA. specialize (HA ltac:(lia)).
    rewrite tab_nth in HA by lia. replace (S (nm - 1)) with nm in HA by lia. rewrite S1 in HA. cbn [xltb] in HA.
    unfold Rltb in HA. destruct (Rlt_dec u 1); [discriminate|lra].
Qed.

Lemma gmm_covs_ok h nc nm nf ty cv k : is_type covariance_types ty = true -> c_nc (h_cfg h) = nc -> gm_type (h_em h) = ty ->
  (k < nm)%nat ->
  gmm_covs exact h (fnd (cshape nc nm nf ty) cv) k nf = Ok (tab nc (fun i => fmat nf nf (comp_cov ty cv i k))).
Proof.
  intros Hty Hnc Ht Hk. unfold gmm_covs. rewrite Hnc, Ht.
  destruct (type_cases ty Hty) as [-> | [-> | [-> | ->]]]; cbn [String.eqb Ascii.eqb Bool.eqb]; unfold fill_covars;
    cbn [String.eqb Ascii.eqb Bool.eqb]; f_equal.
  - rewrite tab_map. apply tab_ext. intros i Hi. apply mtab_ext. intros a b Ha Hb.
    rewrite nget_fnd by (apply inb2; assumption). unfold comp_cov, comp_v. cbn [vec_type is_type existsb String.eqb Ascii.eqb Bool.eqb orb].
    destruct (Nat.eqb a b); cbn [xmul]; unfold exact; f_equal; ring.
  - unfold mtab at 1. cbn [rows]. rewrite tab_map. apply tab_ext. intros i Hi. unfold diag_of. rewrite tab_length.
    apply mtab_ext. intros a b Ha Hb. rewrite vget_tab by exact Ha. rewrite nget_fnd by (apply inb3; assumption).
    unfold comp_cov, comp_v. cbn [vec_type is_type existsb String.eqb Ascii.eqb Bool.eqb orb]. destruct (Nat.eqb a b); reflexivity.
  - apply tab_ext. intros i Hi. apply mtab_ext. intros a b Ha Hb. rewrite nget_fnd by (apply inb4; assumption). reflexivity.
  - apply tab_ext. intros i Hi. apply mtab_ext. intros a b Ha Hb. rewrite nget_fnd by (apply inb3; assumption). reflexivity.
Qed.

Lemma gmm_gen_emits {G} (sr : srng G) h nc nm nf ty w mu cv i g y g' :
  c_nc (h_cfg h) = nc -> h_nfeat h = Some nf -> gm_nmix (h_em h) = nm -> gm_type (h_em h) = ty ->
  is_type covariance_types ty = true -> (0 < nm)%nat -> gm_weights (h_em h) = Some (nd2 nc nm w) ->
  gm_means (h_em h) = Some (nd3 nc nm nf mu) -> gm_covars (h_em h) = Some (fnd (cshape nc nm nf ty) cv) ->
  nonneg2 nc nm w -> (i < nc)%nat -> Rabs (sumn nm (w i) - 1) <= / 2 ^ 26 -> uniform_range (s_rand sr) ->
  (gmm_gen exact sr h (Z.of_nat i) g = Ok (y, g') <-> mix_drawn sr nm nf w mu (comp_cov ty cv) i g y g').
Proof.
  intros Hnc Hnf Hnm Hty Ht Hm Ew Em Ec Hw Hi Hs Hu. unfold gmm_gen. rewrite Ew, Em, Ec, Hnf, Hnc, Hnm.
  rewrite np_index_nat by exact Hi. cbn [bind].
  assert (En : nrow2 (nd2 nc nm w) i nm = fvec nm (w i)).
  { unfold nrow2. apply tab_ext. intros k Hk. apply nget_nd2; assumption. }
  rewrite En. unfold mix_drawn.
  assert (Hk : forall k g1, (k < nm)%nat ->
     (do cs <- gmm_covs exact h (fnd (cshape nc nm nf ty) cv) k nf;
      s_normal sr (tab nf (fun f => nget (nd3 nc nm nf mu) [i; k; f])) (nth i cs (Mat 0 [])) g1)
     = s_normal sr (fvec nf (mu i k)) (fmat nf nf (comp_cov ty cv i k)) g1).
  { intros k g1 Hk. rewrite (gmm_covs_ok h nc nm nf ty cv k Ht Hnc Hty Hk). cbn [bind]. rewrite tab_nth by exact Hi.
    f_equal. apply tab_ext. intros f Hf. apply nget_nd3; assumption. }
  split.
  - intros H. apply bind_inv in H as ([k g1] & Hc & H). apply (np_choice_iff sr nm (w i)) in Hc; try assumption; [|intros k' Hk'; apply Hw; assumption].
    destruct Hc as (u & Hr & Hi'). exists u, g1, k. split; [exact Hr|]. split; [exact Hi'|]. rewrite Hk in H by apply Hi'. exact H.
  - intros (u & g1 & k & Hr & Hi' & H).
    assert (Hc : np_choice exact sr nm (fvec nm (w i)) g = Ok (k, g1)).
    { apply np_choice_iff; try assumption; [intros k' Hk'; apply Hw; assumption|]. exists u. split; assumption. }
    rewrite Hc. cbn [bind]. rewrite Hk by apply Hi'. exact H.
Qed.

Lemma C74_gmm_l {G} (sr : srng G) eig h nc nm nf ty pi A w mu cv wp mw mp cp cw n start g ys zs g' :
  gmm_model eig h nc nm nf ty pi A w mu cv -> gmm_hyper (h_em h) nc nm nf ty wp mw mp cp cw ->
  (forall i, (i < nc)%nat -> Rabs (sumn nm (w i) - 1) <= / 2 ^ 26) -> stochastic1 nc pi -> stochastic2 nc nc A ->
  uniform_range (s_rand sr) -> (1 <= n)%Z -> (forall c, start = Some c -> (c < nc)%nat) ->
  (sample (gmm eig) exact (s_rand sr) (gmm_gen exact sr) h n (option_map Z.of_nat start) g = Ok (ys, zs, g')
   <-> sampled (s_rand sr) (mix_drawn sr nm nf w mu (comp_cov ty cv)) nc pi A start (Z.to_nat n) g ys zs g').
Proof.
  intros GM HH Hs S1 S2 Hu.
  pose proof (gmm_model_check eig h nc nm nf ty pi A w mu cv GM wp mw mp cp cw HH) as Hc.
  assert (Hck := base_ok_check (gmm eig) h nc pi A _ _ (mm_base _ _ _ _ _ _ _ _ _ _ _ GM) Hc).
  apply (sample_sampled (gmm eig) h _ nc pi A _ _ (gmm_ready eig h nc nm nf ty pi A w mu cv GM wp mw mp cp cw HH) Hck); try assumption.
  intros i g0 y g0' Hi. pose proof (bo_nc _ _ _ _ (mm_base _ _ _ _ _ _ _ _ _ _ _ GM)) as Hnc. destruct GM.
  apply (gmm_gen_emits sr _ nc nm nf ty w mu cv); try assumption; try reflexivity. apply Hs, Hi.
Qed.
(** Rows of [weights_] further than [2^-26] from one: accepted by [_check] up to
    1e-5 and used by [score], but [sample] fails when it reaches the state. *)
Lemma C74_gmm_weights_l {G} (sr : srng G) eig h nc nm nf ty pi A w mu cv wp mw mp cp cw n i g :
  gmm_model eig h nc nm nf ty pi A w mu cv -> gmm_hyper (h_em h) nc nm nf ty wp mw mp cp cw -> (i < nc)%nat ->
  / 2 ^ 26 < Rabs (sumn nm (w i) - 1) ->
  ready (gmm eig) h nc pi A (finite_row nf) (mixb nm nf ty w mu cv)
  /\ sample (gmm eig) exact (s_rand sr) (gmm_gen exact sr) h n (Some (Z.of_nat i)) g
     = Err (ValueError "probabilities do not sum to 1").
Proof.
  intros GM HH Hi Hs. pose proof (gmm_ready eig h nc nm nf ty pi A w mu cv GM wp mw mp cp cw HH) as Rd. split; [exact Rd|].
  pose proof (gmm_model_check eig h nc nm nf ty pi A w mu cv GM wp mw mp cp cw HH) as Hc.
  assert (Hck := base_ok_check (gmm eig) h nc pi A _ _ (mm_base _ _ _ _ _ _ _ _ _ _ _ GM) Hc).
  rewrite (sample_eq (gmm eig) h _ nc pi A _ _ Rd Hck (s_rand sr)).
  pose proof (bo_nc _ _ _ _ (mm_base _ _ _ _ _ _ _ _ _ _ _ GM)) as Hnc. pose proof (mm_w0 _ _ _ _ _ _ _ _ _ _ _ GM) as Hw.
  unfold gmm_gen at 1. cbn [with_em h_em h_cfg h_nfeat gmm_checked gm_set_priors gm_weights gm_means gm_covars gm_nmix].
  rewrite (mm_weights _ _ _ _ _ _ _ _ _ _ _ GM), (mm_means _ _ _ _ _ _ _ _ _ _ _ GM), (mm_covars _ _ _ _ _ _ _ _ _ _ _ GM), Hnc, (mm_nmix _ _ _ _ _ _ _ _ _ _ _ GM). rewrite np_index_nat by exact Hi. cbn [bind].
  assert (En : nrow2 (nd2 nc nm w) i nm = fvec nm (w i)).
  { unfold nrow2. apply tab_ext. intros k Hk. apply nget_nd2; assumption. }
  rewrite En. unfold np_choice. rewrite XRL.xsum_fvec. replace (length (fvec nm (w i))) with nm by (symmetry; apply tab_length).
  rewrite Nat.eqb_refl. cbn [negb xisnan].
  replace (existsb _ (fvec nm (w i))) with false; cycle 1.
  { symmetry. apply Bool.not_true_is_false. intros He. apply existsb_exists in He as (v & Hv & He).
    apply in_map_iff in Hv as (f & <- & Hf). apply in_seq in Hf. cbn [xltb] in He. apply Rltb_true in He. specialize (Hw i f Hi ltac:(lia)). lra. }
  rewrite xsubE. cbn [xabs].
  assert (El : xltb (Fin (/ 2 ^ 26)) (Fin (Rabs (sumn nm (w i) - 1))) = true).
  { cbn [xltb]. apply Rltb_true. exact Hs. }
  rewrite El. reflexivity.
Qed.

(** ** The variational classes: [sample] is that of the class with the point
    estimates (C60, C69). *)
Lemma cat_gen_em {G} (rand : G -> R * G) (h k : hmm catp) : cat_prob (h_em h) = cat_prob (h_em k) ->
  forall i g, cat_gen exact rand h i g = cat_gen exact rand k i g.
Proof. intros H i g. unfold cat_gen. rewrite H. reflexivity. Qed.
Lemma sample_loop_eq {P Q G Y} (rand : G -> R * G) (gen : hmm P -> Z -> G -> res (Y * G)) (gen2 : hmm Q -> Z -> G -> res (Y * G)) h k t :
  (forall i g, gen h i g = gen2 k i g) ->
  forall n cur g, sample_loop exact rand gen h t n cur g = sample_loop exact rand gen2 k t n cur g.
Proof.
  intros H n. induction n as [|n IH]; intros cur g; [reflexivity|]. cbn [sample_loop]. destruct (rand g) as [u g1].
  destruct (np_index _ _) as [i|]; [|reflexivity]. cbn [bind]. rewrite H. destruct (gen2 k _ g1) as [[y g2]|]; [|reflexivity].
  cbn [bind]. rewrite IH. reflexivity.
Qed.
Lemma vsample_eq {P Q X X' St St' G Y} (V : vclass P X St) (E : emclass Q X' St') (rand : G -> R * G)
    (gen : hmm P -> Z -> G -> res (Y * G)) (gen2 : hmm Q -> Z -> G -> res (Y * G)) v h s t :
  h_start (v_h v) = Some s -> h_trans (v_h v) = Some t -> vcheck V exact v = Ok v -> fitted_check E exact h = Ok (h, s, t) ->
  (forall i g, gen (v_h v) i g = gen2 h i g) ->
  forall n cs g, vsample V exact rand gen v n cs g = sample E exact rand gen2 h n cs g.
Proof.
  intros Hs Ht Hv Hh Hg n cs g. unfold vsample, sample. rewrite Hs, Hv, Hh. cbn [bind]. rewrite Hs, Ht.
  destruct (match cs with None => _ | Some _ => _ end) as [cur g1]. rewrite Hg.
  destruct (gen2 h cur g1) as [[y g2]|]; [|reflexivity]. cbn [bind]. rewrite (sample_loop_eq rand gen gen2 (v_h v) h t Hg). reflexivity.
Qed.
Lemma C74_vcategorical_l {G} (sr : srng G) v nc nf p q s t e n start g ys zs g' :
  vcat_model v nc nf p q -> h_nfeat (v_h v) = Some nf -> h_start (v_h v) = Some (fvec nc s) ->
  h_trans (v_h v) = Some (fmat nc nc t) -> vk_prob (h_em (v_h v)) = Some (fmat nc nf e) ->
  stochastic1 nc s -> stochastic2 nc nc t -> stochastic2 nc nf e ->
  uniform_range (s_rand sr) -> (1 <= n)%Z -> (forall c, start = Some c -> (c < nc)%nat) ->
  (vsample vcategorical exact (s_rand sr) (vcat_gen exact (s_rand sr)) v n (option_map Z.of_nat start) g = Ok (ys, zs, g')
   <-> sampled (s_rand sr) (cat_drawn sr nf e) nc s t start (Z.to_nat n) g ys zs g').
Proof.
  intros HM Hn Hs Ht He Ss St Se Hu Hn1 Hst.
  rewrite (vsample_eq vcategorical categorical (s_rand sr) _ (cat_gen exact (s_rand sr)) v (point_estimate v) _ _ Hs Ht
    ltac:(eapply point_vcheck; eassumption) ltac:(eapply point_check; eassumption)).
  - apply C74_categorical_l; try assumption. apply (point_model v nc nf p q s t e); assumption.
  - intros i g0. apply cat_gen_em. reflexivity.
Qed.
(** VariationalGaussianHMM samples like the GaussianHMM with its [means_] and
    [covars_]. *)
Lemma C74_vgaussian_l {G} (sr : srng G) la ty v nc nf p q s t n cs g : (0 < nc)%nat -> vg_holds ty nc nf v p q ->
  h_start (v_h v) = Some (fvec nc s) -> h_trans (v_h v) = Some (fmat nc nc t) -> stochastic1 nc s -> stochastic2 nc nc t ->
  vsample (vgaussian la) exact (s_rand sr) (vg_gen exact sr) v n cs g
  = sample gaussian exact (s_rand sr) (gauss_gen exact sr) (vg_point v) n cs g.
Proof.
  intros Hnc HV Hs Ht Ss St.
  apply (vsample_eq (vgaussian la) gaussian (s_rand sr) _ (gauss_gen exact sr) v (vg_point v) _ _ Hs Ht
    ltac:(eapply vgp_vcheck; eassumption) ltac:(eapply vgp_check; eassumption)).
  intros i g0. reflexivity.
Qed.
