(** * Property C81: counterexamples and examples. *)
From Verif Require Export Interrupt_args Gauss_ex Fresh_ex.

(** ** GaussianHMM with an array as [covars_weight]. *)
Definition iw_pi (i : nat) : R := / 2.
Definition iw_h (n : nat) : hmm gaussp :=
  Hmm (Cfg 2 "tc" "" "map" "log" n (Fin (/ 100)) false (Scal (Fin 1)) (Scal (Fin 1))) (Some 1%nat)
      (Some (fvec 2 iw_pi)) (Some (fmat 2 2 Poisson_thms.st_A)) (Monitor (Fin (/ 100)) 1 false [] 0)
      (Gaussp "diag" (Fin (/ 1000)) (Scal (Fin 0)) (Scal (Fin 0)) (Scal (Fin 0)) (Arr1 [Fin 1; Fin 1])
              (Some (fmat 2 1 (fun i _ => INR i))) (Some (CV2 (fmat 2 1 (fun _ _ => 1))))).
Definition iw_x : list vec := [[Fin 0]].
Lemma iw_base n : base_ok (iw_h n) 2 iw_pi Poisson_thms.st_A.
Proof.
  constructor; try reflexivity; try lia.
  - intros i _. unfold iw_pi. lra.
  - replace (sumn 2 iw_pi) with 1 by (unfold iw_pi; simpl; lra). exact near1_1.
  - intros i j Hi Hj. unfold Poisson_thms.st_A. destruct (Nat.eqb i j); lra.
  - intros i Hi. replace (sumn 2 (Poisson_thms.st_A i)) with 1; [exact near1_1|].
    destruct i as [|[|i]]; [| |lia]; unfold Poisson_thms.st_A; simpl; lra.
Qed.
Lemma iw_model n : gauss_model (iw_h n) 2 1 iw_pi Poisson_thms.st_A (fun i _ => INR i) (fun _ _ => 1).
Proof.
  constructor; [exact (iw_base n)|lia|reflexivity|]. eexists. split; [reflexivity|]. cbn [iw_h h_em ga_type].
  constructor.
Qed.
Lemma iw_check n : check gaussian exact (iw_h n) = Ok (iw_h n).
Proof. exact (gauss_model_check (iw_h n) 2 1 iw_pi Poisson_thms.st_A _ _ (iw_model n)). Qed.
Lemma iw_estep n : exists s em lp, do_estep gaussian exact (iw_h n) (fvec 2 iw_pi) (fmat 2 2 Poisson_thms.st_A) iw_x (Some [1%Z])
    = Ok (Stats 1 s (fmat 2 2 (fun _ _ => 0)) em, lp)
  /\ exists q, em = GaussStat (fvec 2 (fun _ => 0)) (fmat 2 1 (fun _ _ => 0)) (fmat 2 1 q) [].
Proof.
  change (Some [1%Z]) with (as_lengths [1%nat]).
  assert (Hd : good_data (finite_row 1) [1%nat] iw_x). { split; [repeat constructor|split; [discriminate|split; [repeat constructor; lia|reflexivity]]]. }
  set (b := gauss_b 1 (fun i _ => INR i) (floored (fun _ _ => 1))).
  assert (Tr : trainable gaussian (iw_h n) 2 iw_pi Poisson_thms.st_A (finite_row 1) b).
  { pose proof (iw_base n) as []. constructor; try assumption. apply (gauss_emits0 2 1 ltac:(lia) ltac:(lia)) with (cv := CV2 (fmat 2 1 (fun _ _ => 1))); try reflexivity. constructor. }
  assert (Hs : forall c, In c (chunks [1%nat] iw_x) -> scorable 2 iw_pi Poisson_thms.st_A b (c_impl (h_cfg (iw_h n))) c).
  { intros c [<-|[]]. left. split; [reflexivity|]. cbn [firstn iw_x]. rewrite one_lik. unfold iw_pi. apply Rplus_lt_0_compat; (apply Rmult_lt_0_compat; [lra|apply gb_pos]). }
  rewrite (do_estep_spec gaussian (iw_h n) 2 iw_pi Poisson_thms.st_A _ _ Tr [1%nat] iw_x Hd Hs). rewrite em_fold_all.
  set (l := map _ _).
  assert (Hl : forall y w, In (y, w) l -> y <> [] /\ Forall (finite_row 1) y).
  { intros y g [H|[]]. injection H as <- _. split; [discriminate|repeat constructor]. }
  cbn [gaussian ec_stats0]. unfold gauss_stats0. cbn [iw_h h_cfg c_nc h_nfeat h_em ga_type mat_type String.eqb].
  change (tab 2 (fun _ => Fin 0)) with (fvec 2 (fun _ => 0)).
  change (mtab 2 1 (fun _ _ => Fin 0)) with (fmat 2 1 (fun _ _ => 0)).
  fold gaussian. rewrite (gauss_acc_all 2 1) by (first [exact Hl|reflexivity]).
  cbn [bind]. eexists _, _, _. split; [f_equal; f_equal; f_equal|].
  - apply fmat_ext. intros i j _ _. unfold trans_stat, seq_trans, expected_trans. cbn [h_cfg iw_h has c_params chunks iw_x firstn sumL length].
    set (lk := likelihood _ _ _ _ _). clearbody lk. set (J := joint _ _ _ _). clearbody J. cbn. unfold Rdiv. ring.
  - eexists. cbn [has c_params]. reflexivity.
Qed.
Lemma iw_zero n (em : gauss_stat) s : mstep_trans (St := gauss_stat) exact (iw_h n) (fmat 2 2 Poisson_thms.st_A) (Stats 1 s (fmat 2 2 (fun _ _ => 0)) em) = fmat 2 2 (fun _ _ => 0).
Proof.
  rewrite (mstep_trans_spec (iw_h n) 2 Poisson_thms.st_A (fun _ _ => 1) (fun _ _ => 0)) by (intros; reflexivity).
  apply fmat_ext. intros i j _ _. cbn [iw_h h_cfg has c_params Ascii.eqb Bool.eqb orb].
  assert (W : forall k, map_weight (Poisson_thms.st_A i) (fun _ => 1) (fun _ => 0) k = 0).
  { intros k. unfold map_weight. destruct (Req_EM_T _ 0); [reflexivity|]. rewrite Rmax_right; lra. }
  unfold normalised. rewrite W. destruct (Req_EM_T _ 0); [reflexivity|]. unfold Rdiv. ring.
Qed.
Lemma iw_init n : init gauss_initc flat_rng exact (Est (iw_h n) (RSSeed 0)) tt iw_x = Ok (Est (iw_h n) (RSSeed 0), tt, [WDegenerate]).
Proof. unfold init, base_init. reflexivity. Qed.
Lemma iw_mstep n q : exists w, gauss_mstep exact (h_cfg (iw_h n)) (Some 1%nat) (h_em (iw_h n))
  (GaussStat (fvec 2 (fun _ => 0)) (fmat 2 1 (fun _ _ => 0)) (fmat 2 1 q) []) = Err (ValueError w).
Proof. eexists. reflexivity. Qed.
Lemma C81_gaussian_refuted_l : exists (e : est gaussp unit) x w e' glob' ex r,
  ga_cweight (h_em (e_hmm e)) = Arr1 w /\ length w = c_nc (h_cfg (e_hmm e))
  /\ fit_run gaussian gauss_initc gauss_left flat_rng exact e tt x None = Raised e' glob' (ValueError ex)
  /\ fit gaussian gauss_initc flat_rng exact (set_n_iter 0 e) tt x None = Ok r
  /\ forall k ek g ev, (k < c_n_iter (h_cfg (e_hmm e)))%nat ->
      fit gaussian gauss_initc flat_rng exact (set_n_iter k e) tt x None = Ok (ek, g, ev) -> h_trans (e_hmm ek) <> h_trans (e_hmm e').
Proof.
  destruct (iw_estep 1) as (s & em & lp & He & q & ->). destruct (iw_mstep 1 q) as (w & Hm).
  assert (H0 : fit gaussian gauss_initc flat_rng exact (set_n_iter 0 (Est (iw_h 1) (RSSeed 0))) tt iw_x None
               = Ok (Est (mon_set (iw_h 0) (monitor_reset (h_mon (iw_h 0)))) (RSSeed 0), tt, [WDegenerate])).
  { change (set_n_iter 0 (Est (iw_h 1) (RSSeed 0))) with (Est (iw_h 0) (RSSeed 0) : est gaussp unit). unfold fit.
    change (check_array (ec_xok gaussian) iw_x) with (Ok iw_x). cbn [bind]. rewrite iw_init. cbn [bind e_hmm e_rs].
    unfold fit_from. rewrite iw_check. reflexivity. }
  exists (Est (iw_h 1) (RSSeed 0)), iw_x, [Fin 1; Fin 1]. eexists _, _, _, _. split; [reflexivity|]. split; [reflexivity|]. split.
  - destruct (run_started _ _ gauss_left _ _ (gauss_blind flat_rng exact) _ _ _ _ _ H0) as (e1 & g1 & ev1 & h1 & _ & Hi & Hc & _ & _ & ->).
    rewrite iw_init in Hi. injection Hi as <- <- <-. cbn [e_hmm] in Hc. rewrite iw_check in Hc. injection Hc as <-.
    change (c_n_iter (h_cfg (iw_h 1))) with 1%nat. cbn [loop_run].
    assert (Es : em_step gaussian exact iw_x (Some [Z.of_nat (length iw_x)]) (iw_h 1) = Err (ValueError w)).
    { unfold em_step. change (h_start (iw_h 1)) with (Some (fvec 2 iw_pi)). change (h_trans (iw_h 1)) with (Some (fmat 2 2 Poisson_thms.st_A)).
      cbn iota. change [Z.of_nat (length iw_x)] with [1%Z]. rewrite He. cbn [bind]. unfold do_mstep. cbn [st_em ec_mstep gaussian].
      change (h_nfeat (iw_h 1)) with (Some 1%nat). rewrite Hm. reflexivity. }
    rewrite Es. reflexivity.
  - split; [exact H0|]. intros k ek g ev Hk Hf. change (c_n_iter _) with 1%nat in Hk. assert (k = 0)%nat as -> by lia. rewrite H0 in Hf. injection Hf as <- _ _.
    cbn [e_hmm mon_set h_trans]. unfold step_left. change (h_start (iw_h 1)) with (Some (fvec 2 iw_pi)).
    change (h_trans (iw_h 1)) with (Some (fmat 2 2 Poisson_thms.st_A)). change (h_trans (iw_h 0)) with (Some (fmat 2 2 Poisson_thms.st_A)). cbn iota.
    change [Z.of_nat (length iw_x)] with [1%Z]. rewrite He. cbn [h_trans]. rewrite iw_zero. intros E0. injection E0 as E0 _. unfold Poisson_thms.st_A in E0. cbn in E0. lra.
Qed.

(** ** What had been learned is lost; a second attempt starts elsewhere. *)
Lemma set_set {P G} a b (e : est P G) : set_n_iter a (set_n_iter b e) = set_n_iter a e.
Proof. destruct e as [[[] ]]. reflexivity. Qed.
Lemma set_same {P G} a (e : est P G) : c_n_iter (h_cfg (e_hmm e)) = a -> set_n_iter a e = e.
Proof. intros <-. destruct e as [[[] ]]. reflexivity. Qed.
Lemma fit_zero_lengths {P X St G} (E : emclass P X St) (I : initclass P X G) (rg : rng G) fp e glob x ls ms :
  c_n_iter (h_cfg (e_hmm e)) = 0%nat -> fit E I rg fp e glob x ls = fit E I rg fp e glob x ms.
Proof.
  intros Hn. unfold fit. destruct (check_array _ x) as [y|]; [|reflexivity]. cbn [bind].
  destruct (init I rg fp e glob y) as [[[e1 g1] ev1]|] eqn:Ei; [|reflexivity]. cbn [bind].
  destruct (init_spec _ _ _ _ _ _ _ _ _ Ei) as (A1 & _).
  assert (H : fit_from E fp (e_hmm e1) y ls = fit_from E fp (e_hmm e1) y ms).
  { unfold fit_from. destruct (check E fp (e_hmm e1)) as [h1|] eqn:Ec; [|reflexivity]. cbn [bind].
    destruct (check_keeps _ _ _ _ Ec) as (C1 & _). rewrite C1, A1, Hn. reflexivity. }
  rewrite H. reflexivity.
Qed.
(** A fitted model, a call with wrong [lengths], and a second attempt. *)
Lemma toy_run : exists e1 g1 v1 e2 g2 v2 w,
  fit categorical cat_initc toy_rng exact toy_cat 0%nat [0; 1; 0]%Z None = Ok (e1, g1, v1)
  /\ fit categorical cat_initc toy_rng exact e1 g1 [0; 1; 0]%Z None = Ok (e2, g2, v2)
  /\ h_start (e_hmm e1) <> h_start (e_hmm e2) /\ c_n_iter (h_cfg (e_hmm e1)) = 0%nat
  /\ fit_run categorical cat_initc cat_left toy_rng exact (set_n_iter 1 toy_cat) 0%nat [0; 1; 0]%Z (Some [2]%Z) = Raised (set_n_iter 1 e1) g1 (ValueError w)
  /\ fit_run categorical cat_initc cat_left toy_rng exact (set_n_iter 1 e1) g1 [0; 1; 0]%Z (Some [2]%Z) = Raised (set_n_iter 1 e2) g2 (ValueError w).
Proof.
  destruct toy_refit as (e1 & g1 & v1 & e2 & g2 & v2 & ea & ga & va & eb & gb & vb & H1 & H2 & H3 & H4 & H5).
  assert (N1 : c_n_iter (h_cfg (e_hmm e1)) = 0%nat) by (destruct (C79_categorical_partial_l _ _ _ _ _ _ _ _ _ H1) as (-> & _); reflexivity).
  exists e1, g1, v1, e2, g2, v2, "lengths"%string. split; [exact H1|]. split; [exact H2|]. split.
  { intros E. apply H5. assert (K : forall e g x a b c a' b' c', c_n_iter (h_cfg (e_hmm e)) = 0%nat ->
      fit categorical cat_initc toy_rng exact e g x None = Ok (a, b, c) -> init cat_initc toy_rng exact e g x = Ok (a', b', c') -> h_start (e_hmm a) = h_start (e_hmm a')).
    { clear. intros e g x a b c a' b' c' Hn Hf Hi. destruct (fit_inv _ _ _ _ _ _ _ _ _ _ _ Hf) as (e1 & w1 & w2 & _ & Hi' & Hff & _).
      rewrite Hi in Hi'. injection Hi' as <- <- <-. destruct (init_spec _ _ _ _ _ _ _ _ _ Hi) as (A1 & _).
      unfold fit_from in Hff. apply bind_inv in Hff as (h1 & Hc & Hff). destruct (check_keeps _ _ _ _ Hc) as (C1 & C2 & _).
      rewrite C1, A1, Hn in Hff. cbn [fit_loop bind] in Hff. injection Hff as <- _. exact C2. }
    rewrite <- (K toy_cat _ _ _ _ _ _ _ _ eq_refl H1 H3), <- (K _ _ _ _ _ _ _ _ _ N1 H2 H4). exact E. }
  split; [exact N1|].
  assert (BL : forall e g e' g' v, c_n_iter (h_cfg (e_hmm e)) = 0%nat -> c_impl (h_cfg (e_hmm e)) = "log"%string ->
             fit categorical cat_initc toy_rng exact e g [0; 1; 0]%Z None = Ok (e', g', v) ->
             fit_run categorical cat_initc cat_left toy_rng exact (set_n_iter 1 e) g [0; 1; 0]%Z (Some [2]%Z) = Raised (set_n_iter 1 e') g' (ValueError "lengths")).
  { clear. intros e g e' g' v Hn Hi H. rewrite (fit_zero_lengths _ _ _ _ _ _ _ _ (Some [2]%Z) Hn) in H.
    rewrite <- (set_same 0 e Hn), <- (set_set 0 1 e) in H. replace 1%nat with (c_n_iter (h_cfg (e_hmm (set_n_iter 1 e)))) at 2 by (destruct e as [[[] ]]; reflexivity).
    apply (run_bad_estep _ _ _ _ _ (cat_blind toy_rng exact) _ _ _ _ _ _ _ _ H).
    - destruct e as [[[] ]]. cbn. lia.
    - intros h s t Hc. unfold do_estep. rewrite Hc. replace (c_impl (h_cfg (e_hmm (set_n_iter 1 e)))) with (c_impl (h_cfg (e_hmm e))) by (destruct e as [[[] ]]; reflexivity).
      rewrite Hi. reflexivity. }
  split; [apply (BL toy_cat _ _ _ _ eq_refl eq_refl H1)|]. apply (BL _ _ _ _ _ N1) with (2 := H2).
  destruct (C79_categorical_partial_l _ _ _ _ _ _ _ _ _ H1) as (-> & _). reflexivity.
Qed.
Lemma C81_unchanged_refuted_l : exists (e0 e1 e2 : est catp nat) x l g1 v1 g2 w,
  fit categorical cat_initc toy_rng exact e0 0%nat x None = Ok (e1, g1, v1)
  /\ fit_run categorical cat_initc cat_left toy_rng exact (set_n_iter 1 e1) g1 x (Some l) = Raised e2 g2 (ValueError w)
  /\ h_start (e_hmm e2) <> h_start (e_hmm e1).
Proof.
  destruct toy_run as (e1 & g1 & v1 & e2 & g2 & v2 & w & H1 & _ & H3 & _ & _ & H6).
  exists toy_cat, e1, (set_n_iter 1 e2), [0; 1; 0]%Z, [2]%Z, g1, v1, g2, w. split; [exact H1|]. split; [exact H6|].
  intros E. apply H3. symmetry. destruct e2 as [[] ]. exact E.
Qed.
Lemma C81_categorical_again_refuted_l : exists (e e' : est catp nat) k x l g' w e1 g1 v1 e2 g2 v2,
  e_rs e = RSSeed k /\ (forall a, In a ["s"; "t"; "e"]%char -> has a (c_init_params (h_cfg (e_hmm e))) = true)
  /\ fit_run categorical cat_initc cat_left toy_rng exact e 0%nat x (Some l) = Raised e' g' (ValueError w)
  /\ fit categorical cat_initc toy_rng exact (set_n_iter 0 e) 0%nat x None = Ok (e1, g1, v1)
  /\ fit categorical cat_initc toy_rng exact (set_n_iter 0 e') g' x None = Ok (e2, g2, v2)
  /\ h_start (e_hmm e1) <> h_start (e_hmm e2).
Proof.
  destruct toy_run as (e1 & g1 & v1 & e2 & g2 & v2 & w & H1 & H2 & H3 & N1 & H5 & _).
  exists (set_n_iter 1 toy_cat), (set_n_iter 1 e1), 0%Z, [0; 1; 0]%Z, [2]%Z, g1, w, e1, g1, v1, e2, g2, v2.
  split; [reflexivity|]. split; [intros a [<-|[<-|[<-|[]]]]; reflexivity|]. split; [exact H5|].
  rewrite !set_set, (set_same 0 e1 N1). split; [exact H1|]. split; [exact H2|exact H3].
Qed.
Lemma C81_lengths_applies_l : exists (e : est catp nat) x l e0 g0 v0,
  fold_left Z.add l 0%Z <> Z.of_nat (length x) /\ (0 < c_n_iter (h_cfg (e_hmm e)))%nat
  /\ fit categorical cat_initc toy_rng exact (set_n_iter 0 e) 0%nat x (Some l) = Ok (e0, g0, v0).
Proof.
  destruct toy_run as (e1 & g1 & v1 & _ & _ & _ & _ & H1 & _). exists (set_n_iter 1 toy_cat), [0; 1; 0]%Z, [2]%Z, e1, g1, v1.
  split; [cbn; lia|]. split; [cbn; lia|]. rewrite set_set, (set_same 0 toy_cat eq_refl), (fit_zero_lengths _ _ _ _ toy_cat _ _ _ None eq_refl). exact H1.
Qed.

(** ** MultinomialHMM: [n_features] is assigned before the counts are looked at, and
    stays. *)
Lemma C81_multinomial_untouched_refuted_l : exists (e e' : est mulp nat) x y g' w e1 g1 v1,
  (exists r, In r x /\ exists n, In n r /\ (n < 0)%Z)
  /\ fit_run multinomial mult_initc mult_left toy_rng exact e 0%nat x None = Raised e' g' (ValueError w)
  /\ h_nfeat (e_hmm e) = None /\ h_nfeat (e_hmm e') = Some 3%nat
  /\ fit multinomial mult_initc toy_rng exact e 0%nat y None = Ok (e1, g1, v1)
  /\ forall g z, fit multinomial mult_initc toy_rng exact e' g y None <> Ok z.
Proof.
  destruct (mult_fit_returns toy_rng toy_sane toy_mult 0%nat [[1; 2]; [3; 0]]%Z None 2 (Mulp (Some (TArr [3; 3]%Z)) None)) as ([[e1 g1] v1] & H1 & N1).
  - exists 0%nat. reflexivity.
  - cbn. lia.
  - reflexivity.
  - exact letters_ste.
  - discriminate.
  - left; reflexivity.
  - repeat constructor.
  - split; [|left; reflexivity]. split; discriminate.
  - reflexivity.
  - eexists toy_mult, _, [[1; -1; 2]]%Z, [[1; 2]; [3; 0]]%Z, _, _, e1, g1, v1. split.
    { exists [1; -1; 2]%Z. split; [left; reflexivity|]. exists (-1)%Z. split; [right; left; reflexivity|lia]. }
    split; [reflexivity|]. split; [reflexivity|]. split; [reflexivity|]. split; [exact H1|]. intros g z H. discriminate.
Qed.

(** ** Examples. *)
Lemma C81_untouched_applies_l : exists ex, fit_run categorical cat_initc cat_left toy_rng exact toy_cat 0%nat [0; -1]%Z None = Raised toy_cat 0%nat ex
  /\ wrong_symbol toy_cat [0; -1]%Z.
Proof. eexists. split; [reflexivity|]. exists (-1)%Z. split; [right; left; reflexivity|left; lia]. Qed.
Lemma cv_restarted : exists e0 v0 m, fit gaussian gauss_initc flat_rng exact (set_n_iter 0 (Est (cv_h "diag" 2) (RSSeed 0))) tt cv_x (Some [1]%Z) = Ok (e0, tt, v0)
  /\ h_nfeat (e_hmm e0) = Some 2%nat /\ ga_covars (h_em (e_hmm e0)) = Some (CV2 m) /\ ga_type (h_em (e_hmm e0)) = "diag"%string.
Proof.
  assert (HN : new_gaussian flat_rng (set_n_iter 0 (Est (cv_h "diag" 2) (RSSeed 0))) 2 0 (/ 1000)) by exact (cv_new "diag" eq_refl).
  destruct (new_gaussian_fit flat_rng _ tt cv_x [2%nat] 2 0 (/ 1000) HN flat_pos cv_kmeans) as (e1 & [] & ev1 & h' & ev2 & _ & _ & Hf & _).
  - split; [exact cv_x_ok|]. repeat split; [discriminate|repeat constructor].
  - cbn; lia.
  - intros [H|H]; discriminate.
  - rewrite (fit_zero_lengths _ _ _ _ (set_n_iter 0 (Est (cv_h "diag" 2) (RSSeed 0))) _ _ _ (Some [1]%Z) eq_refl) in Hf.
    destruct (fit_inv _ _ _ _ _ _ _ _ _ _ _ Hf) as (ea & va & va2 & _ & Hia & Hfa & _).
    destruct (init_inv _ _ _ _ _ _ _ _ _ Hia) as (ba & ga1 & wa & pa & rsa & wa2 & Hba & Hema & Hea & _).
    destruct (base_init_inv _ _ _ _ _ _ _ _ _ Hba) as (A1 & A2 & _ & A4 & _ & _ & (g3 & g4 & _ & Hp) & _).
    cbn [rs_put set_n_iter e_rs] in Hp. injection Hp as Hp _. rewrite A1, <- Hp in Hema. cbn [ic_em gauss_initc] in Hema.
    destruct (gauss_init_seed flat_rng exact _ (h_cfg (e_hmm (set_n_iter 0 (Est (G := unit) (cv_h "diag" 2) (RSSeed 0))))) _ _ _ _ _ _ _ _ eq_refl eq_refl Hema) as (_ & gs & m & gs' & cv & _ & K2 & K3 & ->).
    cbn in A4. injection A4 as _ A4. rewrite <- A4 in *. cbn -[cov_template] in K3. injection K3 as <-. cbn in K2. injection K2 as <- _.
    unfold fit_from in Hfa. apply bind_inv in Hfa as (h1 & Hc & Hfa). rewrite Hea in Hc. unfold check in Hc. cbn [e_hmm h_start h_trans h_cfg h_nfeat h_em h_mon] in Hc.
    destruct (h_start (e_hmm ba)); [|discriminate]. destruct (h_trans (e_hmm ba)); [|destruct (negb _); [discriminate|]; destruct (negb _); discriminate].
    apply bind_inv in Hc as ([] & _ & Hc). apply bind_inv in Hc as ([nf p] & Hg & Hc). cbn in Hg. injection Hg as <- <-. injection Hc as <-.
    cbn [h_cfg] in Hfa. rewrite A1 in Hfa. change (c_n_iter _) with 0%nat in Hfa. cbn [fit_loop bind h_cfg h_nfeat h_start h_trans h_em] in Hfa. injection Hfa as <- _.
    eexists _, _, _. split; [exact Hf|]. split; [reflexivity|]. split; reflexivity.
Qed.
Lemma C81_gaussian_retry_applies_l : exists (e e' : est gaussp unit) ex e1 v1 v2,
  e_rs e = RSSeed 0 /\ (forall l, In l ["s"; "t"; "m"; "c"]%char -> has l (c_init_params (h_cfg (e_hmm e))) = true)
  /\ fit_run gaussian gauss_initc gauss_left flat_rng exact e tt cv_x (Some [1]%Z) = Raised e' tt ex
  /\ fit gaussian gauss_initc flat_rng exact e tt cv_x (Some [2]%Z) = Ok (e1, tt, v1)
  /\ fit gaussian gauss_initc flat_rng exact e' tt cv_x (Some [2]%Z) = Ok (e1, tt, v2).
Proof.
  destruct (C76_applies_l "diag" eq_refl) as (e1 & v1 & Hf & _). destruct cv_restarted as (e0 & v0 & m & H0 & Hn & Hc & Ht).
  destruct (run_restarted gaussian gauss_initc gauss_left flat_rng exact (gauss_blind flat_rng exact) (Est (cv_h "diag" 2) (RSSeed 0)) tt cv_x [1]%Z e0 tt v0
              ltac:(cbn; lia) ltac:(cbn; lia) H0) as (ex & HR).
  assert (Hl : forall l, In l ["s"; "t"; "m"; "c"]%char -> has l (c_init_params (h_cfg (cv_h "diag" 2))) = true).
  { intros l [<-|[<-|[<-|[<-|[]]]]]; reflexivity. }
  destruct (C81_gaussian_retry_l flat_rng exact _ tt cv_x _ _ tt ex tt tt cv_x (Some [2]%Z) 0%Z e1 tt v1 HR eq_refl Hl Hf) as ([] & v2 & H2).
  - right. destruct e0 as [[] ]. exact Hn.
  - unfold getter_ok. destruct e0 as [[cc nn ss tt' mm pp] rr]. cbn [e_hmm h_em set_n_iter with_cfg] in *. rewrite Hc, Ht. eexists. reflexivity.
  - eexists (Est (cv_h "diag" 2) (RSSeed 0)), _, ex, e1, v1, v2. split; [reflexivity|]. split; [exact Hl|]. split; [exact HR|]. split; [exact Hf|exact H2].
Qed.

(** ** GaussianHMM: start values of the means are kept when those of the
    covariances raise (constant data, [min_covar=0]). *)
Definition mx_h : hmm gaussp :=
  Hmm (Cfg 2 "stmc" "stmc" "map" "log" 10 (Fin (/ 100)) false (Scal (Fin 1)) (Scal (Fin 1))) (Some 1%nat)
      (Some (fvec 2 iw_pi)) (Some (fmat 2 2 Poisson_thms.st_A)) (Monitor (Fin (/ 100)) 10 false [] 0)
      (Gaussp "diag" (Fin 0) (Scal (Fin 0)) (Scal (Fin 0)) (Scal (Fin 0)) (Scal (Fin 1))
              (Some (fmat 2 1 (fun _ _ => 5))) (Some (CV2 (fmat 2 1 (fun _ _ => 1))))).
Lemma mx_template : cov_template exact (Fin 0) [[Fin 3]; [Fin 3]] = fmat 1 1 (fun _ _ => 0).
Proof.
  unfold cov_template, np_cov, arr_mean. cbn. destruct (Req_EM_T _ 0) as [E|]; [lra|]. cbn. destruct (Req_EM_T _ 0) as [E|]; [lra|]. cbn. unfold exact.
  unfold fmat, mtab, tab. cbn. do 4 f_equal. lra.
Qed.
Lemma C81_gaussian_mixed_refuted_l : exists (e e' : est gaussp unit) x w m,
  fit_run gaussian gauss_initc gauss_left flat_rng exact e tt x None = Raised e' tt (ValueError w)
  /\ r_kmeans flat_rng (c_nc (h_cfg (e_hmm e))) x tt = Ok (m, tt)
  /\ ga_means (h_em (e_hmm e')) = Some m /\ ga_means (h_em (e_hmm e)) <> Some m
  /\ ga_covars (h_em (e_hmm e')) = ga_covars (h_em (e_hmm e)) /\ ga_covars (h_em (e_hmm e)) <> None.
Proof.
  assert (Hi : forall g, gauss_init_em exact flat_rng (h_cfg mx_h) (Some 1%nat) (h_em mx_h) [[Fin 3]; [Fin 3]] (RSSeed 0) g = Err (ValueError "'diag' covars must be positive")).
  { intros g. unfold gauss_init_em. cbn -[cov_template]. change (ga_min_covar (h_em mx_h)) with (Fin 0). rewrite mx_template. cbn.
    unfold Rleb. destruct (Rle_dec 0 0); [reflexivity|lra]. }
  assert (Hb : exists s t ev, base_init_run (St := gauss_stat) gauss_initc gauss_left flat_rng exact (Est mx_h (RSSeed 0)) tt [[Fin 3]; [Fin 3]]
    = Returned (Est (Hmm (h_cfg mx_h) (Some 1%nat) s t (h_mon mx_h) (h_em mx_h)) (RSSeed 0)) tt ev) by (do 3 eexists; reflexivity).
  destruct Hb as (s & t & ev & Hb).
  eexists (Est mx_h (RSSeed 0)), _, [[Fin 3]; [Fin 3]], _, _. split; [|split; [reflexivity|]; split; [|split]].
  - unfold fit_run. change (check_array (ec_xok gaussian) [[Fin 3]; [Fin 3]]) with (Ok [[Fin 3]; [Fin 3]] : res (list vec)). cbv zeta iota beta. unfold init_run.
    rewrite Hb. cbn [e_hmm h_cfg h_nfeat h_em e_rs ic_em gauss_initc]. rewrite Hi. reflexivity.
  - reflexivity.
  - cbn. intros H. injection H as H _. lra.
  - split; [reflexivity|discriminate].
Qed.
