(** * Property C76: a new GaussianHMM can be trained and used. *)
From Verif Require Export Fresh Full_ex Covars_ex Checks2_thms.

(** Score and decoding are defined and finite on all data accepted by [ok]. *)
Definition usable {P X St} (E : emclass P X St) (ok : X -> Prop) (h : hmm P) : Prop :=
  forall y, y <> [] -> Forall ok y ->
    (exists r, score E exact h y None = Ok (Fin r))
    /\ exists r z, decode E exact h y None (Some "viterbi"%string) = Ok (Fin r, z).

(** What [fit] achieves: finite recorded log-likelihoods; if some sequence has
    two samples, a model with positive start and transition probabilities that
    can be used on all data made of samples satisfying [Q]. *)
Definition trained_ok {P X St} (E : emclass P X St) (nc : nat) (Q : X -> Prop) (ls : list nat) (x : list X) (h' : hmm P) : Prop :=
  (forall v, In v (m_history (h_mon h')) -> exists r, v = Fin r)
  /\ ((exists c, In c (chunks ls x) /\ (2 <= length c)%nat) ->
      exists pi A, h_start h' = Some (fvec nc pi) /\ h_trans h' = Some (fmat nc nc A)
        /\ pos1 nc pi /\ sumn nc pi = 1 /\ pos2 nc nc A /\ (forall i, (i < nc)%nat -> sumn nc (A i) = 1)
        /\ usable E Q h').

Section GenFresh.
  Context {P X St : Type} (E : emclass P X St).
  Variables (nc : nat) (ok : X -> Prop) (good : cfg -> option nat -> P -> Prop) (b : P -> X -> nat -> R) (V : bool).
  Hypothesis TN : trains E nc ok good b V.
  Variables (ls : list nat) (x : list X).
  Hypothesis Hd : good_data ok ls x.
  Variables (sp : nat -> R) (tp : nat -> nat -> R).
  Hypothesis Hsp : forall i, (i < nc)%nat -> 1 <= sp i.
  Hypothesis Htp : forall i j, (i < nc)%nat -> (j < nc)%nat -> 1 <= tp i j.
  Hypothesis Hchk : forall c nf p, c_nc c = nc -> good c nf p -> ec_check E exact c nf p = Ok (nf, p).
  Variables (h h1 : hmm P) (pi : nat -> R) (A : nat -> nat -> R).
  Hypothesis Hck : check E exact h = Ok h1.
  Hypothesis TS : tstate nc good b V ls x h1 pi A.
  Hypothesis HP : priors (h_cfg h1) nc sp tp.
  Hypothesis AP : all_pos nc b x pi A (h_em h1).

  Lemma ready_usable h2 pi2 A2 (Q : X -> Prop) : ready E h2 nc pi2 A2 ok (b (h_em h2)) -> c_impl (h_cfg h2) = "log"%string ->
    pos1 nc pi2 -> pos2 nc nc A2 -> (forall o, Q o -> ok o) -> (forall o i, Q o -> (i < nc)%nat -> 0 < b (h_em h2) o i) -> usable E Q h2.
  Proof.
    clear. intros Rd Hi P1 P2 HQ P3 y Hy HQy. pose proof (rd_pos _ _ _ _ _ _ _ Rd) as Hnc. rewrite Forall_forall in HQy.
    assert (Hok : Forall ok y) by (apply Forall_forall; auto).
    assert (Hl : (0 < length y)%nat) by (destruct y; [congruence|cbn; lia]).
    assert (HB : pos2 (length y) nc (obsB (b (h_em h2)) y)) by (apply obsB_In; auto).
    split.
    - exists (ln (seq_lik nc pi2 A2 (b (h_em h2)) y)).
      rewrite (proj1 (C02_score_is_log_likelihood_l E h2 nc pi2 A2 ok (b (h_em h2)) y Rd Hi Hy Hok)). f_equal. apply xln_pos.
      apply likelihood_pos; assumption.
    - destruct (C01_viterbi_optimal_l E h2 nc pi2 A2 ok (b (h_em h2)) y (Some "viterbi"%string) Rd Hy Hok (or_introl eq_refl))
        as (z & -> & Hz & _). do 2 eexists. rewrite xln_pos; [reflexivity|]. apply (path_joint_pos nc); assumption.
  Qed.

  Theorem gen_fresh : c_impl (h_cfg h1) = "log"%string ->
    exists h' ev, fit_from E exact h x (as_lengths ls) = Ok (h', ev)
      /\ trained_ok E nc (fun o => In o x) ls x h'
      /\ ((forall c nf p o i, good c nf p -> ok o -> (i < nc)%nat -> 0 < b p o i) -> trained_ok E nc ok ls x h').
  Proof.
    intros Hi. destruct (gen_fit_log_ok E nc ok good b V TN ls x Hd sp tp Hsp Htp h h1 pi A Hck TS HP Hi) as (h' & ev & Hf).
    exists h', ev. split; [exact Hf|].
    destruct (gen_fit_run E nc ok good b V TN ls x Hd sp tp Hsp Htp h h1 pi A Hck TS HP h' ev Hf)
      as (h2 & hs & pis & As & E1 & E2 & Rn & Hh').
    set (k := length (m_history (h_mon h'))) in *.
    assert (HF : forall v, In v (m_history (h_mon h')) -> exists r, v = Fin r).
    { intros v Hv. destruct (In_nth _ _ NaN Hv) as (j & Hj & <-). fold k in Hj.
      eexists. apply (rn_val _ _ _ _ _ _ _ _ _ _ _ _ _ _ _ _ _ Rn j Hj). }
    pose proof (rn_st _ _ _ _ _ _ _ _ _ _ _ _ _ _ _ _ _ Rn k (le_n _)) as TSk.
    rewrite (rn_k _ _ _ _ _ _ _ _ _ _ _ _ _ _ _ _ _ Rn) in TSk.
    destruct (rn_cfg _ _ _ _ _ _ _ _ _ _ _ _ _ _ _ _ _ Rn k (le_n _)) as (C1 & _).
    rewrite (rn_k _ _ _ _ _ _ _ _ _ _ _ _ _ _ _ _ _ Rn) in C1.
    destruct TSk as [T1 T2 T3 T4 T5 T6 T7 T8 T9].
    assert (K : forall Q : X -> Prop, (forall o, Q o -> ok o) ->
      ((exists c, In c (chunks ls x) /\ (2 <= length c)%nat) -> forall o i, Q o -> (i < nc)%nat -> 0 < b (h_em h2) o i) -> trained_ok E nc Q ls x h').
    { intros Q HQ HbQ. split; [exact HF|]. intros Hlong.
      destruct (run_positive E nc ok good b V TN ls x Hd sp tp Hsp Htp Hlong k h1 h2 _ hs pis As Rn) with (j := k) as (P1 & P2 & P3 & P4 & P5);
        [rewrite E1, E2; exact AP|apply le_n|].
      exists (pis k), (As k). rewrite Hh'. cbn [h_start h_trans].
      repeat (split; [assumption|]).
      apply (ready_usable _ (pis k) (As k)); cbn [h_em h_cfg]; try assumption.
      + apply (base_ok_ready E _ nc (pis k) (As k) (h_nfeat h2) (h_em h2)); cbn [h_cfg h_nfeat h_em].
        * constructor; cbn [h_cfg h_start h_trans]; try assumption; [apply Covars_thms.near1_1; exact P2|].
          intros i Hi'. apply Covars_thms.near1_1, P4, Hi'.
        * apply Hchk; [exact T1|exact T7].
        * apply Hchk; [exact T1|exact T7].
        * exact (tn_emits E nc ok good b V TN (Hmm (h_cfg h2) (h_nfeat h2) (h_start h2) (h_trans h2) (h_mon h') (h_em h2)) T1 T7).
      + rewrite C1. exact Hi.
      + apply HbQ, Hlong. }
    split.
    - apply K.
      + intros o Ho. pose proof (proj1 Hd) as F. rewrite Forall_forall in F. apply F, Ho.
      + intros Hlong.
        destruct (run_positive E nc ok good b V TN ls x Hd sp tp Hsp Htp Hlong k h1 h2 _ hs pis As Rn) with (j := k) as (P1 & P2 & P3 & P4 & P5);
          [rewrite E1, E2; exact AP|apply le_n|]. rewrite (rn_k _ _ _ _ _ _ _ _ _ _ _ _ _ _ _ _ _ Rn) in P5. exact P5.
    - intros Hb. apply K; [auto|]. intros _ o i Ho Hi'. apply (Hb _ _ _ o i T7 Ho Hi').
  Qed.
End GenFresh.

Lemma const_psd n c : 0 <= c -> pos_semidef n (fun _ _ => c).
Proof.
  intros Hc. split; [intros i j _ _; reflexivity|]. intros v. unfold quad.
  rewrite (sumn_ext n _ (fun i => v i * (c * sumn n v))).
  - rewrite sumn_scal_r. replace (sumn n v * (c * sumn n v)) with (c * (sumn n v * sumn n v)) by ring.
    apply Rmult_le_pos; [exact Hc|apply Rle_0_sqr].
  - intros i Hi. rewrite sumn_scal_l. ring.
Qed.

Lemma data_pos {X} (ok : X -> Prop) nc pi A (b : X -> nat -> R) : (0 < nc)%nat -> pos1 nc pi -> pos2 nc nc A ->
  forall ls x, good_data ok ls x -> (forall o i, ok o -> (i < nc)%nat -> 0 < b o i) ->
  possible nc pi A b ls x /\ all_used nc pi A b (chunks ls x).
Proof.
  intros Hnc Hpi HA ls x Hd Hb. destruct (good_data_chunks ok ls x Hd) as (_ & _ & F). rewrite Forall_forall in F.
  assert (HB : forall c, In c (chunks ls x) -> pos2 (length c) nc (obsB b c)).
  { intros c Hc. apply obsB_In. intros o i Ho Hi. apply Hb; [|exact Hi]. destruct (F c Hc) as [_ Fc]. rewrite Forall_forall in Fc. apply Fc, Ho. }
  assert (HN : forall c, In c (chunks ls x) -> c <> []) by (intros c Hc; apply F, Hc).
  split.
  - intros c Hc. apply (pc_lik nc (chunks ls x)); assumption.
  - apply pc_used; try assumption. destruct Hd as (_ & N & _). destruct ls; [congruence|discriminate].
Qed.

Section GaussFresh.
  Variables (h : hmm gaussp) (nc nf : nat) (pi : nat -> R) (A mu : nat -> nat -> R) (c : R).
  Hypothesis FB : flat_base h.
  Hypothesis GD : gauss_default h c.
  Hypothesis Hc0 : 0 <= c.
  Hypothesis Hpi : pos1 nc pi.
  Hypothesis Hpi1 : sumn nc pi = 1.
  Hypothesis HA : pos2 nc nc A.
  Hypothesis HA1 : forall i, (i < nc)%nat -> sumn nc (A i) = 1.
  Hypothesis Hi : c_impl (h_cfg h) = "log"%string.
  Variables (ls : list nat) (x : list vec).
  Hypothesis Hd : good_data (finite_row nf) ls x.

  Lemma diag_fresh var : gauss_model h nc nf pi A mu var ->
    exists h' ev, fit_from gaussian exact h x (as_lengths ls) = Ok (h', ev) /\ trained_ok gaussian nc (finite_row nf) ls x h'.
  Proof.
    intros GM. set (G := gauss_good nc nf (fun _ _ => 0) (fun _ _ => 0) (fun _ _ => c) 0 true).
    assert (Hnc : (0 < nc)%nat) by apply GM. assert (Hnf : (0 < nf)%nat) by apply GM.
    assert (Hbm : forall o i, finite_row nf o -> (i < nc)%nat -> 0 < gauss_b nf mu (floored var) o i).
    { intros o i _ Hi'. apply gauss_b_pos. intros f Hf. apply floored_pos. }
    destruct (data_pos (finite_row nf) nc pi A (gauss_b nf mu (floored var)) Hnc Hpi HA ls x Hd Hbm) as [Hp Hu].
    destruct (gen_fresh gaussian nc (finite_row nf) G (gauss_bp nf) true
             (gauss_trains nc nf Hnc Hnf (fun _ _ => 0) (fun _ _ => 0) (fun _ _ => c) 0 ltac:(intros i f _ _; lra) true) ls x Hd (fun _ => 1) (fun _ _ => 1)) with
      (h := h) (h1 := with_em h (Some nf) (h_em h)) (pi := pi) (A := A) as (h' & ev & Hf & _ & Ht); try (intros; lra); try assumption.
    - intros c0 nfe p _ Hg. destruct (gg_covars _ _ _ _ _ _ _ _ _ _ Hg) as (cv & _ & Hcv).
      rewrite (gg_nf _ _ _ _ _ _ _ _ _ _ Hg). apply (gauss_check_ok _ _ _ nc nf (ga_mu p)); [apply Hg|]. apply (vcov_type _ _ _ _ _ Hcv).
    - apply (gauss_model_check h nc nf pi A mu var GM).
    - apply (gauss_tstate h nc nf pi A mu var _ _ _ _ GM (default_hyper h nc nf c GD) ls x Hd Hp true); [intros; left; reflexivity|].
      intros _. exact Hu.
    - apply (flat_base_priors h nc FB).
    - split; [exact Hpi|]. split; [exact Hpi1|]. split; [exact HA|]. split; [exact HA1|]. intros o i _ _.
      unfold gauss_bp. apply gauss_b_pos. intros f _. apply floored_pos.
    - exists h', ev. split; [exact Hf|]. apply Ht.
      intros c0 nfe p o i _ _ _. unfold gauss_bp. apply gauss_b_pos. intros f _. apply floored_pos.
  Qed.

  Lemma full_fresh Sg : full_model h nc nf pi A mu Sg ->
    (has "c" (c_params (h_cfg h)) = true -> has "m" (c_params (h_cfg h)) = true) ->
    exists h' ev, fit_from gaussian exact h x (as_lengths ls) = Ok (h', ev) /\ trained_ok gaussian nc (finite_row nf) ls x h'.
  Proof.
    intros FM Hcm. set (G := full_good nc nf (fun _ _ => 0) (fun _ _ => c) 0 0 true).
    assert (Hnc : (0 < nc)%nat) by apply FM. assert (Hnf : (0 < nf)%nat) by apply FM.
    assert (Hcp : pos_semidef nf (fun _ _ => c)) by (apply const_psd; exact Hc0).
    assert (Hh : full_hyper h nc nf (fun _ _ => 0) (fun _ _ => c) 0 0).
    { split; [apply (default_full_prior h nc nf c GD Hnf)|]. split; [lra|]. split; [lra|exact Hcp]. }
    set (B := fun o i => mvnf nf (mu i) (effm nf (Sg i)) o).
    assert (Hbm : forall o i, finite_row nf o -> (i < nc)%nat -> 0 < B o i).
    { intros o i _ Hi'. apply mvnf_pos. apply effm_pd. apply (fum_psd _ _ _ _ _ _ _ FM), Hi'. }
    destruct (data_pos (finite_row nf) nc pi A B Hnc Hpi HA ls x Hd Hbm) as [Hp Hu].
    destruct (gen_fresh gaussian nc (finite_row nf) G (gauss_fp nf) true
             (full_trains nc nf Hnc Hnf (fun _ _ => 0) (fun _ _ => c) 0 0 (Rle_refl 0) (Rle_refl 0) Hcp true) ls x Hd (fun _ => 1) (fun _ _ => 1)) with
      (h := h) (h1 := with_em h (Some nf) (h_em h)) (pi := pi) (A := A) as (h' & ev & Hf & _ & Ht); try (intros; lra); try assumption.
    - intros c0 nfe p _ Hg. destruct (fg_covars _ _ _ _ _ _ _ _ _ _ Hg) as (cv & _ & Hcv).
      rewrite (fg_nf _ _ _ _ _ _ _ _ _ _ Hg). apply (gauss_check_ok _ _ _ nc nf (ga_mu p)); [apply Hg|]. apply (mcov_type _ _ _ _ _ Hcv).
    - apply (full_model_check h nc nf pi A mu Sg FM).
    - apply (full_tstate h nc nf pi A mu Sg _ _ _ _ FM Hh ls x Hd Hp true); [intros; left; reflexivity| |].
      + intros Hcc. right. split; [apply Hcm, Hcc|reflexivity].
      + intros _. exact Hu.
    - apply (flat_base_priors h nc FB).
    - split; [exact Hpi|]. split; [exact Hpi1|]. split; [exact HA|]. split; [exact HA1|]. intros o i _ Hi'.
      cbn [with_em h_em]. rewrite <- (gauss_fp_fm h nc nf pi A mu Sg FM) by exact Hi'. apply mvnf_pos, effm_pd, (fum_psd _ _ _ _ _ _ _ FM), Hi'.
    - exists h', ev. split; [exact Hf|]. apply Ht.
      intros c0 nfe p o i Hg _ Hi'. unfold gauss_fp. apply mvnf_pos. apply effm_pd. apply (fg_psd _ _ _ _ _ _ _ _ _ _ Hg), Hi'.
  Qed.
End GaussFresh.

Lemma lmnd_diag_rows fp x m v r : lmnd_diag fp x m v = Ok r -> nrow r = length x.
Proof.
  unfold lmnd_diag. destruct (bwidth _ _); [|discriminate]. cbn [bind]. destruct (bdim _ _); [|discriminate]. cbn [bind].
  destruct (bdim _ _); [|discriminate]. cbn [bind]. intros H. injection H as <-. unfold nrow. cbn [rows]. apply map_length.
Qed.
Lemma lmnd_full_rows fp x m v r : lmnd_full fp x m v = Ok r -> nrow r = length x.
Proof.
  unfold lmnd_full. destruct v; try discriminate. destruct (mapM _ _); [|discriminate]. cbn [bind]. intros H. injection H as <-.
  apply nrow_mtab.
Qed.
Lemma gauss_one_row : one_row_each gaussian.
Proof.
  assert (HL : forall fp c nf p x m, gauss_loglik fp c nf p x = Ok m -> nrow m = length x).
  { intros fp c nf p x m. unfold gauss_loglik. destruct (ga_means p) as [mu|]; [|discriminate]. destruct (ga_covars p) as [cv|]; [|discriminate].
    destruct x as [|o x]; [intros H; injection H as <-; reflexivity|]. unfold log_mvn_density.
    destruct (String.eqb _ _).
    - unfold lmnd_spherical. destruct cv; try discriminate; (destruct (broadcast_to _ _ _); [|discriminate]); cbn [bind]; apply lmnd_diag_rows.
    - destruct (String.eqb _ _).
      + unfold lmnd_tied. destruct cv; try discriminate; (destruct (broadcast_to _ _ _); [|discriminate]); cbn [bind]; apply lmnd_full_rows.
      + destruct (String.eqb _ _); [destruct cv; try discriminate; apply lmnd_diag_rows|].
        destruct (String.eqb _ _); [apply lmnd_full_rows|discriminate]. }
  intros fp c nf p x m [H|H]; [apply (HL _ _ _ _ _ _ H)|]. cbn [gaussian ec_lik] in H. unfold gauss_lik, lik_of_loglik in H.
  destruct (gauss_loglik fp c nf p x) as [m'|] eqn:El; [|discriminate]. cbn [bind] in H. injection H as <-.
  rewrite <- (HL _ _ _ _ _ _ El). unfold mmap, nrow. cbn [rows]. apply map_length.
Qed.

(** A GaussianHMM as constructed, with the default hyper-parameters (mean prior
    0 with weight 0, covariance prior [c] with weight 1, flat Dirichlet priors)
    and the default implementation, the letters of [params] being among "stmc". *)
Definition new_gaussian {G} (rg : rng G) (e : est gaussp G) (nf : nat) (c mc : R) : Prop :=
  let h := e_hmm e in
  ga_fresh h /\ valid_rs rg (e_rs e) /\ (0 < c_nc (h_cfg h))%nat /\ (0 < nf)%nat
  /\ letters_in (c_params (h_cfg h)) ["s"; "t"; "m"; "c"]%char /\ (h_nfeat h = None \/ h_nfeat h = Some nf)
  /\ is_type covariance_types (ga_type (h_em h)) = true /\ ga_min_covar (h_em h) = Fin mc /\ 0 < mc
  /\ flat_base h /\ gauss_default h c /\ 0 <= c /\ c_impl (h_cfg h) = "log"%string.

Lemma gauss_default_args h h' c : ga_args (h_em h') = ga_args (h_em h) -> gauss_default h c -> gauss_default h' c.
Proof. unfold ga_args, gauss_default. intros E (D1 & D2 & D3 & D4). injection E as _ _ -> -> -> ->. auto. Qed.
Lemma ga_args_type p p' : ga_args p' = ga_args p -> ga_type p' = ga_type p.
Proof. unfold ga_args. intros E. injection E as -> _ _ _ _ _. reflexivity. Qed.

Lemma new_gaussian_fit {G} (rg : rng G) e glob x ls nf c mc :
  let h := e_hmm e in let nc := c_nc (h_cfg h) in
  new_gaussian rg e nf c mc -> pos_dirichlet rg -> good_kmeans rg nc nf x ->
  good_data (finite_row nf) ls x -> (2 <= length x)%nat ->
  (ga_type (h_em h) = "full"%string \/ ga_type (h_em h) = "tied"%string ->
   has "c" (c_params (h_cfg h)) = true -> has "m" (c_params (h_cfg h)) = true) ->
  exists e1 glob' ev1 h' ev2, init gauss_initc rg exact e glob x = Ok (e1, glob', ev1)
    /\ fit_from gaussian exact (e_hmm e1) x (as_lengths ls) = Ok (h', ev2)
    /\ fit gaussian gauss_initc rg exact e glob x (as_lengths ls) = Ok (Est h' (e_rs e1), glob', ev1 ++ ev2)
    /\ h_cfg (e_hmm e1) = h_cfg h /\ trained_ok gaussian nc (finite_row nf) ls x h'.
Proof.
  cbv zeta. intros (N1 & N2 & N3 & N4 & N5 & N6 & N7 & N8 & N9 & N10 & N11 & N12 & N13) Hrg Hkm Hd Hn Hcm.
  destruct (C70_init_l rg e glob x nf mc Hrg N2 N3 N4 N5 N1 N6 N7 N8 N9 (proj1 Hd) Hn Hkm)
    as (e1 & glob1 & ev1 & pi & A & mu & Hin & Hcfg & Hnf & Hmon & Hargs & Hrs & P1 & P2 & P3 & P4 & Hc & M1 & M2 & M3).
  set (nc := c_nc (h_cfg (e_hmm e))) in *.
  assert (HF : exists h' ev, fit_from gaussian exact (e_hmm e1) x (as_lengths ls) = Ok (h', ev) /\ trained_ok gaussian nc (finite_row nf) ls x h').
  { pose proof (gauss_default_args _ _ c Hargs N11) as GD. pose proof (ga_args_type _ _ Hargs) as Ety. rewrite Ety in M1, M2, M3.
    assert (FB : flat_base (e_hmm e1)) by (unfold flat_base; rewrite Hcfg; exact N10).
    assert (Hi : c_impl (h_cfg (e_hmm e1)) = "log"%string) by (rewrite Hcfg; exact N13).
    unfold is_type, covariance_types in N7. cbn [existsb] in N7. apply orb_true_iff in N7 as [T|T]; [|apply orb_true_iff in T as [T|T]; [|apply orb_true_iff in T as [T|T]; [|apply orb_true_iff in T as [T|T]]]];
      try discriminate; apply String.eqb_eq in T.
    - eapply (diag_fresh (e_hmm e1) nc nf pi A mu c); eauto.
    - eapply (diag_fresh (e_hmm e1) nc nf pi A mu c); eauto.
    - eapply (full_fresh (e_hmm e1) nc nf pi A mu c); eauto. rewrite Hcfg. apply Hcm. auto.
    - eapply (full_fresh (e_hmm e1) nc nf pi A mu c); eauto. rewrite Hcfg. apply Hcm. auto. }
  destruct HF as (h' & ev2 & Hf & Ht). exists e1, glob1, ev1, h', ev2. split; [exact Hin|]. split; [exact Hf|]. split; [|split; assumption].
  unfold fit. assert (Hx : check_array (ec_xok gaussian) x = Ok x).
  { unfold check_array. destruct x as [|o x']; [cbn in Hn; lia|].
    replace (forallb (ec_xok gaussian) (o :: x')) with true; [reflexivity|]. symmetry. apply forallb_forall.
    intros y Hy. pose proof (proj1 Hd) as F. rewrite Forall_forall in F. exact (proj2 (F y Hy)). }
  rewrite Hx. cbn [bind]. rewrite Hin. cbn [bind]. rewrite Hf. cbn [bind]. reflexivity.
Qed.

(** ** C76: a new GaussianHMM can be trained and used. *)
Lemma C76_trains_l {G} (rg : rng G) e glob x ls nf c mc :
  let h := e_hmm e in let nc := c_nc (h_cfg h) in
  new_gaussian rg e nf c mc -> pos_dirichlet rg -> good_kmeans rg nc nf x ->
  good_data (finite_row nf) ls x -> (2 <= length x)%nat ->
  (ga_type (h_em h) = "full"%string \/ ga_type (h_em h) = "tied"%string ->
   has "c" (c_params (h_cfg h)) = true -> has "m" (c_params (h_cfg h)) = true) ->
  exists e' glob' ev, fit gaussian gauss_initc rg exact e glob x (as_lengths ls) = Ok (e', glob', ev)
    /\ trained_ok gaussian nc (finite_row nf) ls x (e_hmm e').
Proof.
  cbv zeta. intros H1 H2 H3 H4 H5 H6.
  destruct (new_gaussian_fit rg e glob x ls nf c mc H1 H2 H3 H4 H5 H6) as (e1 & g1 & ev1 & h' & ev2 & _ & _ & Hf & _ & Ht).
  do 3 eexists. split; [exact Hf|exact Ht].
Qed.

(** Training on sequences of one sample each succeeds and leaves a model that
    no method accepts. *)
Lemma C76_single_samples_l {G} (rg : rng G) e glob x ls nf c mc :
  let h := e_hmm e in let nc := c_nc (h_cfg h) in
  new_gaussian rg e nf c mc -> pos_dirichlet rg -> good_kmeans rg nc nf x ->
  good_data (finite_row nf) ls x -> (2 <= length x)%nat ->
  (ga_type (h_em h) = "full"%string \/ ga_type (h_em h) = "tied"%string ->
   has "c" (c_params (h_cfg h)) = true -> has "m" (c_params (h_cfg h)) = true) ->
  Forall (fun n => n = 1%nat) ls -> has "t" (c_params (h_cfg h)) = true -> (0 < c_n_iter (h_cfg h))%nat ->
  exists e' glob' ev, fit gaussian gauss_initc rg exact e glob x (as_lengths ls) = Ok (e', glob', ev)
    /\ exists w, forall y lens, score gaussian exact (e_hmm e') y lens = Err (ValueError w).
Proof.
  cbv zeta. intros H1 H2 H3 H4 H5 H6 H7 H8 H9.
  destruct (new_gaussian_fit rg e glob x ls nf c mc H1 H2 H3 H4 H5 H6) as (e1 & g1 & ev1 & h' & ev2 & _ & Hff & Hf & Hcfg & Ht).
  do 3 eexists. split; [exact Hf|].
  destruct H1 as (N1 & N2 & N3 & N4 & N5 & N6 & N7 & N8 & N9 & (N10 & N10') & N11 & N12 & N13).
  destruct H4 as (_ & L1 & _ & L3).
  destruct (fit_no_pairs gaussian gauss_one_row ls x L1 L3 H7 (e_hmm e1) h' ev2) as (w & Hs & _); try (rewrite Hcfg; assumption); [exact Hff|].
  exists w. intros y lens. unfold score. cbn [e_hmm]. rewrite Hs. reflexivity.
Qed.

Lemma cv_new ty : is_type covariance_types ty = true -> new_gaussian flat_rng (Est (cv_h ty 2) (RSSeed 0)) 2 0 (/ 1000).
Proof.
  intros Hty. unfold new_gaussian. cbn [e_hmm e_rs]. split; [repeat split|]. split; [exists tt; reflexivity|].
  split; [cbn; lia|]. split; [lia|]. split; [apply cv_letters|]. split; [left; reflexivity|]. split; [exact Hty|].
  split; [reflexivity|]. split; [lra|]. split; [split; reflexivity|]. split; [repeat split|]. split; [lra|reflexivity].
Qed.
Lemma cv_kmeans : good_kmeans flat_rng 2 2 cv_x.
Proof. intros g. eexists _, g. reflexivity. Qed.

Lemma C76_applies_l : forall ty, is_type covariance_types ty = true ->
  exists e' ev, fit gaussian gauss_initc flat_rng exact (Est (cv_h ty 2) (RSSeed 0)) tt cv_x (as_lengths [2%nat]) = Ok (e', tt, ev)
    /\ usable gaussian (finite_row 2) (e_hmm e').
Proof.
  intros ty Hty.
  destruct (C76_trains_l flat_rng (Est (cv_h ty 2) (RSSeed 0)) tt cv_x [2%nat] 2 0 (/ 1000) (cv_new ty Hty) flat_pos cv_kmeans)
    as (e' & [] & ev & Hf & _ & Ht).
  - split; [exact cv_x_ok|]. repeat split; [discriminate|repeat constructor].
  - cbn; lia.
  - intros _ _. reflexivity.
  - exists e', ev. split; [exact Hf|]. destruct Ht as (pi & A & _ & _ & _ & _ & _ & _ & Hu); [|exact Hu].
    exists cv_x. split; [left; reflexivity|cbn; lia].
Qed.
(** Two sequences of one sample. *)
Lemma C76_single_samples_refuted_l : exists e x ls e' glob' ev w,
  new_gaussian flat_rng e 2 0 (/ 1000) /\ good_data (finite_row 2) ls x
  /\ fit gaussian gauss_initc flat_rng exact e tt x (as_lengths ls) = Ok (e', glob', ev)
  /\ forall y lens, score gaussian exact (e_hmm e') y lens = Err (ValueError w).
Proof.
  assert (Hd : good_data (finite_row 2) [1; 1]%nat cv_x).
  { split; [exact cv_x_ok|]. repeat split; [discriminate|repeat constructor]. }
  destruct (C76_single_samples_l flat_rng (Est (cv_h "diag" 2) (RSSeed 0)) tt cv_x [1; 1]%nat 2 0 (/ 1000) (cv_new "diag" eq_refl) flat_pos cv_kmeans Hd)
    as (e' & g' & ev & Hf & w & Hs).
  - cbn; lia.
  - intros _ _. reflexivity.
  - repeat constructor.
  - reflexivity.
  - cbn; lia.
  - exists (Est (cv_h "diag" 2) (RSSeed 0)), cv_x, [1; 1]%nat, e', g', ev, w. split; [apply cv_new; reflexivity|]. auto.
Qed.
