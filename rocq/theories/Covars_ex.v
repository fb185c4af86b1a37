(** * Examples and counterexamples for C70, C71. *)
From Verif Require Export Covars_thms Vcat_ex.

Definition cv_h (ty : string) (nc : nat) : hmm gaussp :=
  Hmm (Cfg nc "stmc" "stmc" "viterbi" "log" 10 (Fin (/ 100)) false (Scal (Fin 1)) (Scal (Fin 1))) None None None
      (Monitor (Fin (/ 100)) 10 false [] 0)
      (Gaussp ty (Fin (/ 1000)) (Scal (Fin 0)) (Scal (Fin 0)) (Scal (Fin 0)) (Scal (Fin 1)) None None).
Definition cv_x : list vec := [[Fin 1; Fin (-1)]; [Fin (-1); Fin 1]].
Lemma cv_x_ok : Forall (finite_row 2) cv_x.
Proof. repeat constructor. Qed.
Lemma cv_letters ty nc : letters_in (c_params (h_cfg (cv_h ty nc))) ["s"; "t"; "m"; "c"]%char.
Proof.
  intros a. cbn [c_params h_cfg cv_h]. cbn [has]. cbn [In]. intros H.
  repeat (apply Bool.orb_true_iff in H as [H|H]; [apply Ascii.eqb_eq in H; auto|]). 
  all: try discriminate; try (apply Ascii.eqb_eq in H; auto).
Qed.
Lemma cv_cov k l : (k < 2)%nat -> (l < 2)%nat -> s_covr (/ 1000) cv_x k l = (if Nat.eqb k l then 2 + / 1000 else -2).
Proof.
  intros Hk Hl. unfold s_covr, s_cov, s_mean, cv_x, xval. cbn [sumL length INR].
  destruct k as [|[|]]; [| |lia]; destruct l as [|[|]]; try lia; cbn [Nat.eqb vget nth]; simpl; field.
Qed.
Lemma cv_init ty : is_type covariance_types ty = true ->
  exists e1 glob1 ev pi A mu, init gauss_initc flat_rng exact (Est (cv_h ty 2) (RSSeed 0)) tt cv_x = Ok (e1, glob1, ev)
    /\ ga_args (h_em (e_hmm e1)) = ga_args (h_em (cv_h ty 2)) /\ start_model (e_hmm e1) 2 2 pi A mu (s_covr (/ 1000) cv_x).
Proof.
  intros Hty.
  destruct (C70_init_l flat_rng (Est (cv_h ty 2) (RSSeed 0)) tt cv_x 2 (/ 1000)) as (e1 & g1 & ev & pi & A & mu & H & _ & _ & _ & HA & _ & _ & _ & _ & _ & _ & HM).
  all: try exact flat_pos; try (cbn; lia); try (cbn; lra); try exact cv_x_ok; try reflexivity.
  - exists tt. reflexivity.
  - apply cv_letters.
  - repeat split.
  - left. reflexivity.
  - exact Hty.
  - intros g. eexists _, g. reflexivity.
  - exists e1, g1, ev, pi, A, mu. auto.
Qed.

Lemma C70_applies_l : forall ty, is_type covariance_types ty = true ->
  exists e1 glob1 ev pi A mu, init gauss_initc flat_rng exact (Est (cv_h ty 2) (RSSeed 0)) tt cv_x = Ok (e1, glob1, ev)
    /\ ga_type (h_em (e_hmm e1)) = ty /\ start_model (e_hmm e1) 2 2 pi A mu (s_covr (/ 1000) cv_x).
Proof.
  intros ty Hty. destruct (cv_init ty Hty) as (e1 & g & ev & pi & A & mu & H1 & H2 & H3). exists e1, g, ev, pi, A, mu.
  split; [exact H1|]. split; [unfold ga_args in H2; cbn [h_em cv_h ga_type ga_min_covar] in H2; congruence|exact H3].
Qed.
(** The "spherical" start value is not the average of the feature variances. *)
Lemma C70_spherical_refuted_l : exists e x e1 glob1 ev v,
  init gauss_initc flat_rng exact e tt x = Ok (e1, glob1, ev)
  /\ ga_type (h_em (e_hmm e)) = "spherical"%string /\ ga_min_covar (h_em (e_hmm e)) = Fin (/ 1000)
  /\ ga_covars (h_em (e_hmm e1)) = Some (CV2 (fmat 2 2 (fun _ _ => v)))
  /\ v = / 2000 /\ (s_covr (/ 1000) x 0 0 + s_covr (/ 1000) x 1 1) / 2 = 2 + / 1000.
Proof.
  destruct (cv_init "spherical" eq_refl) as (e1 & g & ev & pi & A & mu & H1 & _ & _).
  exists (Est (cv_h "spherical" 2) (RSSeed 0)), cv_x, e1, g, ev, (all_mean 2 (s_covr (/ 1000) cv_x)). split; [exact H1|].
  split; [reflexivity|]. split; [reflexivity|].
  destruct (C70_start_covariances_l flat_rng _ tt cv_x e1 g ev 2 (/ 1000) H1 cv_x_ok ltac:(cbn; lia) ltac:(lia) eq_refl ltac:(lra) (or_intror eq_refl)) as (C1 & _).
  split; [exact C1|]. unfold all_mean. cbn [sumn]. rewrite !cv_cov by lia. cbn [Nat.eqb INR]. split; field.
Qed.
(** One sample: initialisation succeeds and the variances are NaN. *)
Lemma C70_one_sample_refuted_l : exists e x e1 glob1 ev,
  init gauss_initc flat_rng exact e tt x = Ok (e1, glob1, ev)
  /\ length x = 1%nat /\ Forall (finite_row 2) x /\ ga_min_covar (h_em (e_hmm e)) = Fin (/ 1000)
  /\ ga_covars (h_em (e_hmm e1)) = Some (CV2 (mtab 1 2 (fun _ _ => NaN))).
Proof.
  exists (Est (cv_h "diag" 1) (RSSeed 0)), [[Fin 3; Fin 4]].
  assert (Hx : finite_row 2 [Fin 3; Fin 4]) by (repeat constructor).
  assert (K : exists e1 g ev, init gauss_initc flat_rng exact (Est (cv_h "diag" 1) (RSSeed 0)) tt [[Fin 3; Fin 4]] = Ok (e1, g, ev)).
  { unfold init, base_init. cbn [ic_nfeat gauss_initc e_hmm cv_h h_cfg c_nc h_nfeat h_em gauss_nfeat set_n_features width bind Nat.eqb].
    unfold needs_init. cbn [h_start h_trans isSome c_init_params]. cbv beta iota.
    change (has "s" "stmc") with true. change (has "t" "stmc") with true. cbv beta iota. cbn [bind].
    cbn [rs_get e_rs r_seed flat_rng bind r_dirichlet draws rs_put ic_nfit gauss_nfit gauss_initc]. cbn [bind].
    cbn [ic_em gauss_initc]. unfold gauss_init_em.
    cbn [h_cfg e_hmm h_nfeat h_em e_rs ga_covars ga_means ga_type ga_min_covar bind c_nc rs_get rs_put r_seed flat_rng r_kmeans].
    cbn [String.eqb Ascii.eqb Bool.eqb bind c_params].
    match goal with |- context [dict_sum ?d "stmc"] => let v := eval vm_compute in (dict_sum d "stmc") in change (dict_sum d "stmc") with v end.
    cbn [bind h_cfg e_hmm h_nfeat h_em e_rs ga_covars ga_means ga_type ga_min_covar c_nc rs_get rs_put r_seed flat_rng].
    unfold needs_init. cbn [c_init_params isSome]. change (has "m" "stmc") with true. change (has "c" "stmc") with true.
    cbv beta iota. cbn [bind].
    do 3 (cbn [bind h_cfg e_hmm h_nfeat h_em e_rs ga_covars ga_means ga_type ga_min_covar c_nc rs_get rs_put r_seed c_init_params flat_rng isSome]; cbv beta iota).
    match goal with |- context [cov_template ?a ?b ?c] =>
      replace (cov_template a b c) with (mtab 2 2 (fun _ _ => NaN)) by (symmetry; apply (nan_template 2 [Fin 3; Fin 4] (/ 1000) Hx); lia) end.
    cbn [bind]. eexists _, _, _. reflexivity. }
  destruct K as (e1 & g & ev & K). exists e1, g, ev. split; [exact K|]. split; [reflexivity|]. split; [constructor; [exact Hx|constructor]|].
  split; [reflexivity|].
  apply (C70_one_sample_l flat_rng _ tt [Fin 3; Fin 4] e1 g ev 2 (/ 1000) K Hx); [lia|cbn; lia|reflexivity|left; reflexivity].
Qed.
