(** * GMMHMM: concrete models and counterexamples. *)
From Verif Require Export Gmm_thms Gauss_ex.
From Verif Require Import Inference_thms.

(** ** A fit of one iteration, for any model whose E- and M-step succeed. *)
Lemma one_iteration {P X St} (E : emclass P X St) h h1 nc pi A ok b ls x st p' :
  check E exact h = Ok h1 -> c_n_iter (h_cfg h1) = 1%nat ->
  has "s" (c_params (h_cfg h1)) = false -> has "t" (c_params (h_cfg h1)) = false ->
  trainable E h1 nc pi A ok b -> good_data ok ls x ->
  (forall c, In c (chunks ls x) -> scorable nc pi A b (c_impl (h_cfg h1)) c) ->
  em_acc_all E (h_cfg h1) (h_nfeat h1) (h_em h1) nc (ec_stats0 E exact (h_cfg h1) (h_nfeat h1) (h_em h1))
    (map (fun c => (c, seq_post nc pi A b c)) (chunks ls x)) = Ok st ->
  ec_mstep E exact (h_cfg h1) (h_nfeat h1) (h_em h1) st = Ok p' ->
  exists m ev, fit_from E exact h x (as_lengths ls)
    = Ok (Hmm (h_cfg h1) (h_nfeat h1) (Some (fvec nc pi)) (Some (fmat nc nc A)) m p', ev).
Proof.
  intros Hc Hn Hs Ht Tr Hd Hsc Ha Hm. unfold fit_from. rewrite Hc. cbn [bind]. rewrite Hn. cbn [fit_loop as_lengths].
  unfold em_step. rewrite (tr_start _ _ _ _ _ _ _ Tr), (tr_trans _ _ _ _ _ _ _ Tr).
  change (Some (map Z.of_nat ls)) with (as_lengths ls).
  rewrite (do_estep_spec E h1 nc pi A ok b Tr ls x Hd Hsc), em_fold_all, Ha. cbn [bind].
  unfold do_mstep, mstep_start, mstep_trans. rewrite Hs, Ht. cbn [st_em]. rewrite Hm. cbn [bind].
  destruct (monitor_report exact _ _) as [m' ev']. destruct (converged exact m'); [eexists; eexists; reflexivity|].
  cbn [bind]. eexists. eexists. reflexivity.
Qed.

(** ** One state, the default hyper-parameters. *)
Definition ex_gm nm nf ty params w mu cv : hmm gmmp :=
  Hmm (Cfg 1 params "stmcw" "viterbi" "log" 1 (Fin (/ 100)) false (Scal (Fin 1)) (Scal (Fin 1))) None
      (Some (fvec 1 (fun _ => 1))) (Some (fmat 1 1 (fun _ _ => 1))) (Monitor (Fin (/ 100)) 1 false [] 0)
      (Gmmp nm ty (Fin (/ 1000)) (nscal (Fin 1)) (nscal (Fin 0)) (nscal (Fin 0)) None None
         (Some (nd2 1 nm w)) (Some (nd3 1 nm nf mu)) (Some (fnd (cshape 1 nm nf ty) cv))).
(** Eigenvalues are only consulted for matrices; those of one entry have it as
    eigenvalue. *)
Definition eig1 : mat -> xnum := fun m => mget m 0 0.

Section Ex.
  Variables (nm nf : nat) (ty params : string) (w : nat -> nat -> R) (mu : nat -> nat -> nat -> R) (cv : list nat -> R).
  Let h := ex_gm nm nf ty params w mu cv.
  Hypothesis Hnm : (0 < nm)%nat.
  Hypothesis Hnf : (0 < nf)%nat.
  Hypothesis Hty : is_type covariance_types ty = true.
  Hypothesis Hw0 : forall k, (k < nm)%nat -> 0 <= w 0%nat k.
  Hypothesis Hw1 : sumn nm (w 0%nat) = 1.
  Hypothesis Hcv : vec_type ty = true -> forall idx, inb idx (cshape 1 nm nf ty) -> 0 <= cv idx.
  Hypothesis Hcm : mat_type ty = true -> forall i k, (i < 1)%nat -> (k < nm)%nat ->
    psd nf (comp_S ty cv i k) /\ xltb (eig1 (fmat nf nf (comp_S ty cv i k))) (Fin 0) = false.

  Lemma ex_gm_base : base_ok h 1 (fun _ => 1) (fun _ _ => 1).
  Proof.
    constructor; try reflexivity; try lia.
    - intros i _. lra.
    - replace (sumn 1 (fun _ => 1)) with 1 by (simpl; lra). exact near1_1.
    - intros i j _ _. lra.
    - intros i Hi. replace (sumn 1 (fun _ => 1)) with 1 by (simpl; lra). exact near1_1.
  Qed.
  Lemma ex_gm_model : gmm_model eig1 h 1 nm nf ty (fun _ => 1) (fun _ _ => 1) w mu cv.
  Proof.
    constructor; try assumption; try reflexivity; try exact ex_gm_base.
    - left. reflexivity.
    - intros i k Hi Hk. replace i with 0%nat by lia. apply Hw0. exact Hk.
    - intros i Hi. replace i with 0%nat by lia. rewrite Hw1. exact near1_1.
  Qed.
  Lemma ex_gm_flat : gmm_flat h.
  Proof. repeat split. Qed.
  Lemma ex_gm_fb : flat_base h.
  Proof. split; reflexivity. Qed.

  Local Notation b := (mixb nm nf ty w mu cv).
  Lemma ex_gm_bpos o : 0 < b o 0%nat.
  Proof.
    apply (mixb_pos 1 nm nf ty); try lia.
    - apply (model_cov_ok _ _ _ _ _ _ _ _ _ _ _ ex_gm_model).
    - intros i k Hi Hk. replace i with 0%nat by lia. apply Hw0. exact Hk.
    - intros i Hi. replace i with 0%nat by lia. lra.
  Qed.

  Variable xs : list vec.
  Hypothesis Hne : xs <> [].
  Hypothesis Hx : Forall (finite_row nf) xs.
  Let ls := map (fun _ => 1%nat) xs.
  Lemma ex_gm_chunks : chunks ls xs = map (fun o => [o]) xs.
  Proof.
    unfold ls. clear. induction xs as [|o l IH]; [reflexivity|]. cbn [map chunks firstn skipn]. rewrite IH. reflexivity.
  Qed.
  Lemma ex_gm_good : good_data (finite_row nf) ls xs.
  Proof.
    split; [exact Hx|]. split; [destruct xs; [congruence|discriminate]|]. unfold ls. clear. split.
    - induction xs; constructor; try lia. assumption.
    - induction xs as [|o l IH]; [reflexivity|]. cbn [map fold_right length]. rewrite IH. reflexivity.
  Qed.
  Lemma ex_gm_possible : possible 1 (fun _ => 1) (fun _ _ => 1) b ls xs.
  Proof.
    intros c Hc. rewrite ex_gm_chunks in Hc. apply in_map_iff in Hc. destruct Hc as (o & <- & _). rewrite single_lik. apply ex_gm_bpos.
  Qed.
  Lemma ex_gm_used : all_used 1 (fun _ => 1) (fun _ _ => 1) b (chunks ls xs).
  Proof.
    intros i Hi. replace i with 0%nat by lia. rewrite ex_gm_chunks. destruct xs as [|o l]; [congruence|].
    exists [o], 0%nat. split; [left; reflexivity|]. split; [simpl; lia|]. rewrite single_post; [lra|apply ex_gm_bpos].
  Qed.
  Lemma ex_gm_tot phi : weighted_total 1 (fun _ => 1) (fun _ _ => 1) b (chunks ls xs) phi 0 = sumL phi xs.
  Proof.
    rewrite ex_gm_chunks. unfold weighted_total. clear Hne Hx ls. induction xs as [|o l IH]; [reflexivity|].
    cbn [map sumL length sumn nth]. rewrite IH, single_post by apply ex_gm_bpos. ring.
  Qed.
  Lemma ex_gm_occ : occupancy 1 (fun _ => 1) (fun _ _ => 1) b (chunks ls xs) 0 = INR (length xs).
  Proof.
    rewrite ex_gm_chunks. unfold occupancy. clear Hne Hx ls. induction xs as [|o l IH]; [reflexivity|].
    cbn [map sumL sumn]. rewrite IH. cbn [length]. rewrite S_INR. cbn [sumn]. rewrite single_post by apply ex_gm_bpos. ring.
  Qed.

  (** With positive weights the training theorems apply. *)
  Lemma ex_gm_fit : (forall k, (k < nm)%nat -> 0 < w 0%nat k) -> (ty = "spherical"%string -> (nm <= nf)%nat) ->
    exists h' ev, fit_from (gmm eig1) exact h xs (as_lengths ls) = Ok (h', ev) /\ length (m_history (h_mon h')) = 1%nat.
  Proof.
    intros Hw Hs.
    destruct (gmm_fit_log_ok eig1 h 1 nm nf ty (fun _ => 1) (fun _ _ => 1) w mu cv ex_gm_model _ _ _ _ _
                (gmm_flat_hyper h 1 nm nf ty ex_gm_flat) (flat_hyper_ok 1 nm nf ty Hty Hs)
                ltac:(intros i k Hi Hk; replace i with 0%nat by lia; apply Hw; exact Hk) false ltac:(discriminate)
                ls xs ex_gm_good ex_gm_possible ex_gm_used (fun _ => 1) (fun _ _ => 1) ltac:(intros; lra) ltac:(intros; lra)
                (flat_base_priors h 1 ex_gm_fb) eq_refl) as (h' & ev & H).
    exists h', ev. split; [exact H|].
    destruct (C23_stopping_and_history_l (gmm eig1) exact h xs ls h' ev eq_refl eq_refl H) as (_ & H1 & H2 & _).
    cbn [h ex_gm h_cfg c_n_iter] in H1, H2. lia.
  Qed.

  (** In general one iteration is the M-step from the statistics. *)
  Local Notation r := (resp nm nf ty w mu cv).
  Definition ex_stat : gmm_stat :=
    GmmStat (nd2 1 nm (fun i k => sumL (fun o => r o 0%nat k) xs)) (fvec 1 (fun _ => INR (length xs)))
      (nd3 1 nm nf (fun i k f => if has "m" params then sumL (fun o => r o 0%nat k * xval o f) xs else 0))
      (fnd (cshape 1 nm nf ty) (fun idx => if has "c" params then sumL (fun o => sC nm nf ty w mu cv idx o 0%nat) xs else 0)).
  Definition ex_checked : gmmp :=
    gmm_checked 1 nm nf ty (fun _ _ => 1) (fun _ _ => 0) (fun _ _ _ => 0) (fun _ => none_cp ty nm nf) (fun _ => none_cw ty nm nf) (h_em h).

  Lemma ex_gm_step p' : has "s" params = false -> has "t" params = false ->
    gmm_mstep exact (h_cfg h) (Some nf) ex_checked ex_stat = Ok p' ->
    exists m ev, fit_from (gmm eig1) exact h xs (as_lengths ls)
      = Ok (Hmm (h_cfg h) (Some nf) (Some (fvec 1 (fun _ => 1))) (Some (fmat 1 1 (fun _ _ => 1))) m p', ev).
  Proof.
    intros Hs Ht Hm.
    assert (Hco : cov_ok 1 nm nf ty cv) by (apply (model_cov_ok _ _ _ _ _ _ _ _ _ _ _ ex_gm_model)).
    assert (Hww : nonneg2 1 nm w) by (intros i k Hi Hk; replace i with 0%nat by lia; apply Hw0; exact Hk).
    apply (one_iteration (gmm eig1) h (with_em h (Some nf) ex_checked) 1 (fun _ => 1) (fun _ _ => 1) (finite_row nf) b ls xs ex_stat p').
    - apply (base_ok_check (gmm eig1) h 1 (fun _ => 1) (fun _ _ => 1)); [exact ex_gm_base|].
      exact (gmm_model_check eig1 h 1 nm nf ty (fun _ => 1) (fun _ _ => 1) w mu cv ex_gm_model _ _ _ _ _ (gmm_flat_hyper h 1 nm nf ty ex_gm_flat)).
    - reflexivity.
    - exact Hs.
    - exact Ht.
    - pose proof ex_gm_base as []. constructor; try assumption; try reflexivity.
      unfold with_em. apply (gmm_emits0 1 nm nf Hnm Hnf ex_checked ty w mu cv); try assumption; reflexivity.
    - exact ex_gm_good.
    - intros c Hc. left. split; [reflexivity|]. apply ex_gm_possible. exact Hc.
    - cbn [with_em h_cfg h_nfeat h_em]. 
      assert (E0 : ec_stats0 (gmm eig1) exact (h_cfg h) (Some nf) ex_checked
                   = GmmStat (nd2 1 nm (fun _ _ => 0)) (fvec 1 (fun _ => 0)) (nd3 1 nm nf (fun _ _ _ => 0)) (fnd (cshape 1 nm nf ty) (fun _ => 0))).
      { cbn [gmm ec_stats0]. unfold gmm_stats0. cbn [ex_checked gmm_checked gm_set_priors gm_nmix h ex_gm h_em gm_mweight gm_mprior gm_covars nsh fnd ntab gm_nf c_nc h_cfg].
        f_equal. apply ntab_nd3. intros i k f Hi Hk Hf. cbn [firstn]. rewrite nget_nd2, nget_nd3 by assumption. rewrite xmulE. f_equal. ring. }
      rewrite E0.
      rewrite (gmm_acc_all eig1 1 nm nf ltac:(lia) Hnm Hnf ty Hty w mu cv Hco Hww ltac:(intros i Hi; replace i with 0%nat by lia; lra)); try reflexivity.
      + unfold ex_stat. cbn [h ex_gm h_cfg c_params]. f_equal.
        assert (EW : forall (phi : vec -> nat -> R), wsum (map (fun c => (c, seq_post 1 (fun _ => 1) (fun _ _ => 1) b c)) (chunks ls xs)) phi 0 = sumL (fun o => phi o 0%nat) xs).
        { intros phi. rewrite wsum_total. apply ex_gm_tot. }
        f_equal.
        * apply nd2_ext. intros i k Hi Hk. replace i with 0%nat by lia. rewrite EW. unfold sN. ring.
        * apply fvec_ext. intros i Hi. replace i with 0%nat by lia. rewrite wsum_occupancy, ex_gm_occ. ring.
        * apply nd3_ext. intros i k f Hi Hk Hf. replace i with 0%nat by lia. destruct (has "m" params); [|ring]. rewrite EW. unfold sM. ring.
        * apply fnd_ext. intros idx Hi.
          assert (Ez : nth 0 idx 0%nat = 0%nat).
          { destruct (csh_cases 1 nm nf ty Hty) as [(_ & _ & _ & _ & _ & _ & E & _) | [(_ & _ & _ & _ & _ & _ & E & _) | [(_ & _ & _ & _ & _ & _ & E & _) | (_ & _ & _ & _ & _ & _ & E & _)]]]; rewrite E in Hi; inversion Hi; subst; cbn [nth]; lia. }
          rewrite Ez. destruct (has "c" params); [|ring]. rewrite EW. ring.
      + intros y g Hin. apply in_map_iff in Hin. destruct Hin as (c & E & Hc). injection E as <- _.
        rewrite ex_gm_chunks in Hc. apply in_map_iff in Hc. destruct Hc as (o & <- & Ho). split; [discriminate|].
        constructor; [|constructor]. rewrite Forall_forall in Hx. apply Hx. exact Ho.
    - exact Hm.
  Qed.
End Ex.

(** ** Identical components share every sample in proportion to their weights. *)
Definition cmu (m : R) : nat -> nat -> nat -> R := fun _ _ _ => m.
Definition ccv (v : R) : list nat -> R := fun _ => v.
Lemma const_resp nm nf ty w m v o k : (k < nm)%nat -> cov_ok 1 nm nf ty (ccv v) -> sumn nm (w 0%nat) = 1 ->
  resp nm nf ty w (cmu m) (ccv v) o 0 k = w 0%nat k.
Proof.
  intros Hk Hco Hw. unfold resp, mixb.
  pose proof (dens_pos 1 nm nf ty (cmu m) (ccv v) o 0 k Hco ltac:(lia) Hk) as Hd.
  assert (E : forall q, dens nf ty (cmu m) (ccv v) o 0 q = dens nf ty (cmu m) (ccv v) o 0 k).
  { intros q. unfold dens. destruct (vec_type ty).
    - unfold gauss_b, floored, comp_v, cmu, ccv. reflexivity.
    - unfold cmu, comp_S, ccv. reflexivity. }
  rewrite (sumn_ext nm _ (fun q => w 0%nat q * dens nf ty (cmu m) (ccv v) o 0 k)) by (intros q Hq; rewrite E; reflexivity).
  rewrite sumn_scal_r, Hw. field. lra.
Qed.

Definition half2 : nat -> nat -> R := fun _ _ => 1 / 2.
Definition all1 : nat -> nat -> R := fun _ _ => 1.
Definition v1 (a : R) : vec := [Fin a].
Definition v2 (a b : R) : vec := [Fin a; Fin b].
Lemma v1_ok a : finite_row 1 (v1 a).
Proof. split; [reflexivity|]. repeat constructor. Qed.
Lemma v2_ok a b : finite_row 2 (v2 a b).
Proof. split; [reflexivity|]. repeat constructor. Qed.

(** ** Two identical components, samples 0 and 1. *)
Definition exd ty params : hmm gmmp := ex_gm 2 1 ty params half2 (cmu 0) (ccv 1).
Definition exd_x : list vec := [v1 0; v1 1].
Lemma half2_pos k : (k < 2)%nat -> 0 < half2 0%nat k.
Proof. intros _. unfold half2. lra. Qed.
Lemma half2_sum : sumn 2 (half2 0%nat) = 1.
Proof. unfold half2. cbn [sumn]. lra. Qed.
Lemma exd_cv ty : vec_type ty = true -> forall idx, inb idx (cshape 1 2 1 ty) -> 0 <= ccv 1 idx.
Proof. intros _ idx _. unfold ccv. lra. Qed.
Lemma exd_cm ty : mat_type ty = true -> forall i k, (i < 1)%nat -> (k < 2)%nat ->
    psd 1 (comp_S ty (ccv 1) i k) /\ xltb (eig1 (fmat 1 1 (comp_S ty (ccv 1) i k))) (Fin 0) = false.
Proof.
  intros _ i k _ _. split.
  - split.
    + intros a b _ _. unfold comp_S, ccv. destruct (String.eqb ty "tied"); reflexivity.
    + intros v. unfold quad, comp_S, ccv. cbn [sumn]. destruct (String.eqb ty "tied"); nra.
  - unfold eig1. rewrite mget_fmat by lia. unfold comp_S, ccv. destruct (String.eqb ty "tied"); cbn [xltb]; apply Rltb_false; lra.
Qed.
Lemma exd_x_ok : Forall (finite_row 1) exd_x.
Proof. repeat constructor. Qed.

Definition u1 : nat -> R := fun _ => 1.
Lemma u1_sum : sumn 1 u1 <= 1.
Proof. unfold u1. cbn [sumn]. lra. Qed.
Lemma all1_sum i : (i < 1)%nat -> sumn 1 (all1 i) <= 1.
Proof. intros _. unfold all1. cbn [sumn]. lra. Qed.

Lemma exd_model ty params : is_type covariance_types ty = true ->
  gmm_model eig1 (exd ty params) 1 2 1 ty u1 all1 half2 (cmu 0) (ccv 1).
Proof.
  intros Hty. apply ex_gm_model; try lia; try assumption; try exact half2_sum; try exact (exd_cv ty); try exact (exd_cm ty).
  intros k Hk. apply Rlt_le, half2_pos, Hk.
Qed.
Lemma exd_run ty params : is_type covariance_types ty = true -> ty <> "spherical"%string -> has "c" params = true ->
  exists h' ev, cov_run eig1 (exd ty params) 1 2 1 ty u1 all1 half2 (cmu 0) (ccv 1) [1; 1]%nat exd_x h' ev
    /\ length (m_history (h_mon h')) = 1%nat.
Proof.
  intros Hty Hs Hc.
  assert (Hw0 : forall k, (k < 2)%nat -> 0 <= half2 0%nat k) by (intros k Hk; apply Rlt_le, half2_pos, Hk).
  destruct (ex_gm_fit 2 1 ty params half2 (cmu 0) (ccv 1) ltac:(lia) ltac:(lia) Hty Hw0 half2_sum (exd_cv ty) (exd_cm ty)
              exd_x ltac:(discriminate) exd_x_ok half2_pos) as (h' & ev & Hf & HL); [intros E; congruence|].
  exists h', ev. split; [|exact HL]. unfold cov_run. split; [apply exd_model; exact Hty|]. split; [split; reflexivity|].
  split; [repeat split|]. split; [intros i k Hi Hk; replace i with 0%nat by lia; apply half2_pos; exact Hk|].
  split; [exact u1_sum|]. split; [exact all1_sum|]. 
  split; [apply (ex_gm_good 1 exd_x); [discriminate|exact exd_x_ok]|].
  split; [exact (ex_gm_possible 2 1 ty params half2 (cmu 0) (ccv 1) ltac:(lia) ltac:(lia) Hty Hw0 half2_sum (exd_cv ty) (exd_cm ty) exd_x)|].
  split; [exact (ex_gm_used 2 1 ty params half2 (cmu 0) (ccv 1) ltac:(lia) ltac:(lia) Hty Hw0 half2_sum (exd_cv ty) (exd_cm ty) exd_x ltac:(discriminate) exd_x_ok)|].
  split; [exact Hf|exact Hc].
Qed.

(** One iteration for any vector covariances, training only the covariances. *)
Definition exs_p nm nf ty w m v xs : gmmp :=
  gm_set (ex_checked nm nf ty "c" w (cmu m) (ccv v)) (Some (nd2 1 nm w)) (Some (nd3 1 nm nf (cmu m)))
    (Some (ntab (cshape 1 nm nf ty) (fun idx => let k := nth 1 idx 0%nat in let f := nth 2 idx 0%nat in
       if String.eqb ty "spherical" then xdiv exact
         (Fin (w 0%nat k * sumL (fun o => sumn nf (fun f => (xval o f - m) * (xval o f - m))) xs))
         (Fin (INR nf * (w 0%nat k * INR (length xs)) + INR nf - INR nm))
       else xdiv exact
         (Fin (w 0%nat k * sumL (fun o => (xval o f - m) * (xval o f - m)) xs))
         (Fin (w 0%nat k * INR (length xs)))))).
Lemma sumL_scal {X} (a : R) (f : X -> R) l : sumL (fun o => a * f o) l = a * sumL f l.
Proof. induction l as [|o l IH]; cbn [sumL]; [ring|]. rewrite IH. ring. Qed.
Lemma sumL_one {X} (a : R) (l : list X) : sumL (fun _ => a) l = a * INR (length l).
Proof. induction l as [|o l IH]; cbn [sumL length]; [cbn; ring|]. rewrite IH, S_INR. ring. Qed.

Lemma exs_step nm nf ty w m v xs : (0 < nm)%nat -> (0 < nf)%nat -> ty = "spherical"%string \/ ty = "diag"%string ->
  (forall k, (k < nm)%nat -> 0 <= w 0%nat k) -> sumn nm (w 0%nat) = 1 -> 0 <= v -> xs <> [] -> Forall (finite_row nf) xs ->
  exists mo ev, fit_from (gmm eig1) exact (ex_gm nm nf ty "c" w (cmu m) (ccv v)) xs (as_lengths (map (fun _ => 1%nat) xs))
      = Ok (Hmm (h_cfg (ex_gm nm nf ty "c" w (cmu m) (ccv v))) (Some nf) (Some (fvec 1 (fun _ => 1))) (Some (fmat 1 1 (fun _ _ => 1))) mo
              (exs_p nm nf ty w m v xs), ev).
Proof.
  intros Hnm Hnf Hty Hw Hs Hv Hne Hx.
  assert (Hty' : is_type covariance_types ty = true) by (destruct Hty as [-> | ->]; reflexivity).
  assert (Hcv : vec_type ty = true -> forall idx, inb idx (cshape 1 nm nf ty) -> 0 <= ccv v idx) by (intros; exact Hv).
  assert (Hcm : mat_type ty = true -> forall i k, (i < 1)%nat -> (k < nm)%nat ->
    psd nf (comp_S ty (ccv v) i k) /\ xltb (eig1 (fmat nf nf (comp_S ty (ccv v) i k))) (Fin 0) = false)
    by (destruct Hty as [-> | ->]; discriminate).
  assert (Hco : cov_ok 1 nm nf ty (ccv v)) by (split; [exact Hty'|destruct Hty as [-> | ->]; discriminate]).
  apply (ex_gm_step nm nf ty "c" w (cmu m) (ccv v) Hnm Hnf Hty' Hw Hs Hcv Hcm xs Hne Hx); try reflexivity.
  assert (EN : forall k, (k < nm)%nat -> sumL (fun o => resp nm nf ty w (cmu m) (ccv v) o 0 k) xs = w 0%nat k * INR (length xs)).
  { intros k Hk. rewrite <- sumL_one. apply sumL_ext. intros o _. apply const_resp; assumption. }
  unfold exs_p, gmm_mstep.
  change (gm_weights (ex_checked nm nf ty "c" w (cmu m) (ccv v))) with (Some (nd2 1 nm w)).
  change (gm_means (ex_checked nm nf ty "c" w (cmu m) (ccv v))) with (Some (nd3 1 nm nf (cmu m))).
  change (has "w" _) with false. change (has "m" _) with false. change (has "c" _) with true. cbv iota zeta.
  unfold gmm_covars_upd.
  change (gm_cprior (ex_checked nm nf ty "c" w (cmu m) (ccv v))) with (Some (fnd (cshape 1 nm nf ty) (fun _ => none_cp ty nm nf))).
  change (gm_cweight (ex_checked nm nf ty "c" w (cmu m) (ccv v))) with (Some (fnd (wshape 1 nm nf ty) (fun _ => none_cw ty nm nf))).
  change (gm_mweight (ex_checked nm nf ty "c" w (cmu m) (ccv v))) with (nd2 1 nm (fun _ _ => 0)).
  change (gm_mprior (ex_checked nm nf ty "c" w (cmu m) (ccv v))) with (nd3 1 nm nf (fun _ _ _ => 0)).
  change (gm_type (ex_checked nm nf ty "c" w (cmu m) (ccv v))) with ty.
  cbv zeta. cbn [bind gm_nf]. f_equal. f_equal. f_equal.
  cbn [ex_stat gs_cn gs_mix]. change (nsh (fnd (cshape 1 nm nf ty) _)) with (cshape 1 nm nf ty). change (has "c" "c") with true. cbv iota.
  apply ntab_ext. intros idx Hi.
  destruct Hty as [-> | ->]; cbn [String.eqb Ascii.eqb Bool.eqb].
  - apply inb_inv2 in Hi. destruct Hi as (i & k & -> & Hi & Hk). replace i with 0%nat by lia. cbn [nth].
    rewrite !nget_nd2, EN by lia. rewrite !nget_fnd by (apply inb2; lia).
    rewrite (tab_ext nf _ (fun f => Fin (m * m))).
    2:{ intros f Hf. rewrite !nget_nd3 by lia. unfold xsq, cmu. rewrite xsubE, xmulE. f_equal. ring. }
    fold (fvec nf (fun _ => m * m)). rewrite xsum_fvec, !xmulE, !xaddE, !xmulE, !xaddE. f_equal; f_equal.
    + rewrite <- sumL_scal. unfold none_cw. cbn [String.eqb Ascii.eqb Bool.eqb].
      rewrite Rmult_0_l, Rmult_0_r, !Rplus_0_l. apply sumL_ext. intros o _. unfold sC. cbn [String.eqb Ascii.eqb Bool.eqb nth].
      rewrite const_resp by assumption. reflexivity.
    + unfold none_cp. cbn [String.eqb Ascii.eqb Bool.eqb]. field.
  - apply inb_inv3 in Hi. destruct Hi as (i & k & f & -> & Hi & Hk & Hf). replace i with 0%nat by lia. cbn [nth].
    rewrite !nget_nd2, EN by lia. rewrite !nget_nd3 by lia. rewrite !nget_fnd by (apply inb3; lia).
    unfold xsq. rewrite !xsubE, !xmulE, !xaddE, !xmulE, !xaddE. f_equal; f_equal.
    + rewrite <- sumL_scal. unfold none_cw. cbn [String.eqb Ascii.eqb Bool.eqb].
      rewrite Rmult_0_l, Rmult_0_r, !Rplus_0_l. apply sumL_ext. intros o _. unfold sC. cbn [String.eqb Ascii.eqb Bool.eqb nth].
      rewrite const_resp by assumption. reflexivity.
    + unfold none_cp. cbn [String.eqb Ascii.eqb Bool.eqb]. field.
Qed.

(** ** The theorems apply. *)
Lemma C38_weights_applies_l : exists h' ev,
  fit_from (gmm eig1) exact (exd "diag" "stmcw") exd_x (as_lengths [1; 1]%nat) = Ok (h', ev)
  /\ length (m_history (h_mon h')) = 1%nat
  /\ exists pis As ws mus cvs, gmm_traj (exd "diag" "stmcw") 1 2 1 "diag" u1 all1 half2 (cmu 0) (ccv 1) h' pis As ws mus cvs
     /\ forall k, (k < 2)%nat -> 0 < ws 1%nat 0%nat k /\ sumn 2 (ws 1%nat 0%nat) = 1.
Proof.
  destruct (exd_run "diag" "stmcw" eq_refl ltac:(discriminate) eq_refl) as (h' & ev & R0 & HL).
  exists h', ev. destruct R0 as (GM & FB & GF & Hw & Hp1 & HA1 & Hd & Hpos & Hu & Hf & Hhc). split; [exact Hf|]. split; [exact HL|].
  destruct (C38_weights_l _ _ _ _ _ _ _ _ _ _ _ _ _ _ _ GM FB GF ltac:(discriminate) Hw Hp1 HA1 Hd Hpos Hu Hf eq_refl) as (pis & As & ws & mus & cvs & T & H).
  exists pis, As, ws, mus, cvs. split; [exact T|]. intros k Hk. destruct (H 0%nat ltac:(lia) 0%nat ltac:(lia)) as [H1 H2].
  split; [apply H1; exact Hk|exact H2].
Qed.
Lemma C39_diag_applies_l : exists h' ev, cov_run eig1 (exd "diag" "c") 1 2 1 "diag" u1 all1 half2 (cmu 0) (ccv 1) [1; 1]%nat exd_x h' ev
  /\ length (m_history (h_mon h')) = 1%nat /\ gm_covars (h_em h') = Some (nd3 1 2 1 (fun _ _ _ => 1 / 2)).
Proof.
  destruct (exd_run "diag" "c" eq_refl ltac:(discriminate) eq_refl) as (h' & ev & R0 & HL).
  exists h', ev. split; [exact R0|]. split; [exact HL|].
  destruct (exs_step 2 1 "diag" half2 0 1 exd_x ltac:(lia) ltac:(lia) ltac:(right; reflexivity)
              ltac:(intros k Hk; apply Rlt_le, half2_pos, Hk) half2_sum ltac:(lra) ltac:(discriminate) exd_x_ok) as (mo & ev2 & H).
  destruct R0 as (_ & _ & _ & _ & _ & _ & _ & _ & _ & Hf & _).
  change (as_lengths (map _ exd_x)) with (as_lengths [1; 1]%nat) in H. unfold exd in Hf. rewrite H in Hf. injection Hf as <- _.
  cbn [h_em exs_p gm_set gm_covars String.eqb Ascii.eqb Bool.eqb]. f_equal. apply ntab_nd3. intros i k f Hi Hk Hf.
  cbn [nth]. replace f with 0%nat by lia. unfold half2, exd_x. cbn [sumL length]. unfold xval, v1, vget. cbn [nth rval].
  change (INR 2) with 2. rewrite xdivE by lra. f_equal. field.
Qed.
Lemma C39_full_applies_l : exists h' ev, cov_run eig1 (exd "full" "stmcw") 1 2 1 "full" u1 all1 half2 (cmu 0) (ccv 1) [1; 1]%nat exd_x h' ev
  /\ length (m_history (h_mon h')) = 1%nat.
Proof. exact (exd_run "full" "stmcw" eq_refl ltac:(discriminate) eq_refl). Qed.
Lemma C39_tied_applies_l : exists h' ev, cov_run eig1 (exd "tied" "stmcw") 1 2 1 "tied" u1 all1 half2 (cmu 0) (ccv 1) [1; 1]%nat exd_x h' ev
  /\ length (m_history (h_mon h')) = 1%nat.
Proof. exact (exd_run "tied" "stmcw" eq_refl ltac:(discriminate) eq_refl). Qed.
Lemma C40_monotone_applies_l : exists h' ev,
  fit_from (gmm eig1) exact (exd "diag" "stmcw") exd_x (as_lengths [1; 1]%nat) = Ok (h', ev) /\ ~ In WNotConverging ev
  /\ length (m_history (h_mon h')) = 1%nat.
Proof.
  destruct (exd_run "diag" "stmcw" eq_refl ltac:(discriminate) eq_refl) as (h' & ev & R0 & HL).
  exists h', ev. destruct R0 as (GM & FB & GF & Hw & Hp1 & HA1 & Hd & Hpos & Hu & Hf & Hhc). split; [exact Hf|]. split; [|exact HL].
  apply (C40_monotone_l _ _ _ _ _ _ _ _ _ _ _ _ _ _ GM FB GF Hw
    ltac:(intros i Hi; replace i with 0%nat by lia; rewrite half2_sum; lra) Hp1 HA1 Hd Hpos Hu Hf).
Qed.
Lemma C25_gmm_applies_l : exists h' ev,
  fit_from (gmm eig1) exact (with_cfg (cfg_impl "log") (exd "tied" "stmcw")) exd_x (as_lengths [1; 1]%nat) = Ok (with_cfg (cfg_impl "log") h', ev).
Proof.
  destruct (exd_run "tied" "stmcw" eq_refl ltac:(discriminate) eq_refl) as (h' & ev & R0 & HL).
  exists h', ev. destruct R0 as (GM & FB & GF & Hw & Hp1 & HA1 & Hd & Hpos & Hu & Hf & Hhc).
  apply (C25_gmm_l _ _ _ _ _ _ _ _ _ _ _ _ _ _ _ _ (fun _ => 1) (fun _ _ => 1) _ _ _ _ GM (gmm_flat_hyper _ _ _ _ _ GF)
    (flat_hyper_ok 1 2 1 "tied" eq_refl ltac:(discriminate)) Hw (flat_base_priors _ 1 FB) ltac:(intros; lra) ltac:(intros; lra) Hd Hpos Hu Hf).
Qed.

(** ** C39 is false for spherical covariances: with one component and two
    features the sample (1, 0) about the mean 0 gives variance 1/3, not 1/2. *)
Definition exs v : hmm gmmp := ex_gm 1 2 "spherical" "c" all1 (cmu 0) (ccv v).
Definition exs_x : list vec := [v2 1 0].
Lemma exs_x_ok : Forall (finite_row 2) exs_x.
Proof. repeat constructor. Qed.
Lemma all1_one : sumn 1 (all1 0%nat) = 1.
Proof. unfold all1. cbn [sumn]. lra. Qed.
Lemma exs_fit v : 0 <= v -> exists mo ev,
  fit_from (gmm eig1) exact (exs v) exs_x (as_lengths [1]%nat)
  = Ok (Hmm (h_cfg (exs v)) (Some 2%nat) (Some (fvec 1 u1)) (Some (fmat 1 1 all1)) mo
          (gm_set (ex_checked 1 2 "spherical" "c" all1 (cmu 0) (ccv v)) (Some (nd2 1 1 all1)) (Some (nd3 1 1 2 (cmu 0))) (Some (nd2 1 1 (fun _ _ => 1 / 3)))), ev).
Proof.
  intros Hv.
  destruct (exs_step 1 2 "spherical" all1 0 v exs_x ltac:(lia) ltac:(lia) ltac:(left; reflexivity)
              ltac:(intros; unfold all1; lra) all1_one Hv ltac:(discriminate) exs_x_ok) as (mo & ev & H).
  exists mo, ev. unfold exs. change (as_lengths [1%nat]) with (as_lengths (map (fun _ : vec => 1%nat) exs_x)). rewrite H. do 3 f_equal.
  unfold exs_p. f_equal. f_equal. change (String.eqb "spherical" "spherical") with true. cbv iota zeta.
  apply ntab_nd2. intros i k _ Hk. cbn [nth]. unfold all1, exs_x. cbn [sumL sumn length]. unfold xval, v2, vget. cbn [nth rval].
  change (INR 1) with 1. change (INR 2) with 2. rewrite xdivE by lra. f_equal. field.
Qed.
Lemma exs_cov_run v : 0 <= v -> exists h' ev, cov_run eig1 (exs v) 1 1 2 "spherical" u1 all1 all1 (cmu 0) (ccv v) [1]%nat exs_x h' ev
  /\ length (m_history (h_mon h')) = 1%nat /\ gm_covars (h_em h') = Some (nd2 1 1 (fun _ _ => 1 / 3)).
Proof.
  intros Hv.
  assert (Hw0 : forall k, (k < 1)%nat -> 0 <= all1 0%nat k) by (intros; unfold all1; lra).
  assert (Hcv : vec_type "spherical" = true -> forall idx, inb idx (cshape 1 1 2 "spherical") -> 0 <= ccv v idx) by (intros; exact Hv).
  assert (Hcm : mat_type "spherical" = true -> forall i k, (i < 1)%nat -> (k < 1)%nat ->
    psd 2 (comp_S "spherical" (ccv v) i k) /\ xltb (eig1 (fmat 2 2 (comp_S "spherical" (ccv v) i k))) (Fin 0) = false) by discriminate.
  destruct (exs_fit v Hv) as (mo & ev & H). eexists. exists ev. split; [|split].
  - split; [exact (ex_gm_model 1 2 "spherical" "c" all1 (cmu 0) (ccv v) ltac:(lia) ltac:(lia) eq_refl Hw0 all1_one Hcv Hcm)|].
    split; [split; reflexivity|]. split; [repeat split|]. split; [intros; unfold all1; lra|]. split; [exact u1_sum|]. split; [exact all1_sum|].
    split; [exact (ex_gm_good 2 exs_x ltac:(discriminate) exs_x_ok)|].
    split; [exact (ex_gm_possible 1 2 "spherical" "c" all1 (cmu 0) (ccv v) ltac:(lia) ltac:(lia) eq_refl Hw0 all1_one Hcv Hcm exs_x)|].
    split; [exact (ex_gm_used 1 2 "spherical" "c" all1 (cmu 0) (ccv v) ltac:(lia) ltac:(lia) eq_refl Hw0 all1_one Hcv Hcm exs_x ltac:(discriminate) exs_x_ok)|].
    split; [exact H|reflexivity].
  - destruct (C23_stopping_and_history_l (gmm eig1) exact (exs v) exs_x [1]%nat _ ev eq_refl eq_refl H) as (_ & H1 & H2 & _).
    cbn [exs ex_gm h_cfg c_n_iter h_mon] in H1, H2 |- *. lia.
  - reflexivity.
Qed.
Lemma C39_spherical_divisor_applies_l : exists h' ev, cov_run eig1 (exs 1) 1 1 2 "spherical" u1 all1 all1 (cmu 0) (ccv 1) [1]%nat exs_x h' ev
  /\ length (m_history (h_mon h')) = 1%nat.
Proof. destruct (exs_cov_run 1 ltac:(lra)) as (h' & ev & H1 & H2 & _). exists h', ev. split; assumption. Qed.
Lemma C39_spherical_refuted_l : exists eig h nc nm nf pi A w mu cv ls x h' ev cv',
  cov_run eig h nc nm nf "spherical" pi A w mu cv ls x h' ev
  /\ (nc = 1 /\ nm = 1 /\ nf = 2)%nat /\ length (m_history (h_mon h')) = 1%nat
  /\ gm_covars (h_em h') = Some (nd2 nc nm cv') /\ cv' 0%nat 0%nat = 1 / 3
  /\ let r := resp nm nf "spherical" w mu cv in
     let tot := weighted_total nc pi A (mixb nm nf "spherical" w mu cv) (chunks ls x) in
     tot (fun o => r o 0%nat 0%nat * sumn nf (fun f => (xval o f - mu 0%nat 0%nat f) ^ 2)) 0%nat / (INR nf * tot (fun o => r o 0%nat 0%nat) 0%nat) = 1 / 2.
Proof.
  destruct (exs_cov_run 1 ltac:(lra)) as (h' & ev & H1 & H2 & H3).
  exists eig1, (exs 1), 1%nat, 1%nat, 2%nat, u1, all1, all1, (cmu 0), (ccv 1), [1%nat], exs_x, h', ev, (fun _ _ => 1 / 3).
  split; [exact H1|]. split; [auto|]. split; [exact H2|]. split; [exact H3|]. split; [reflexivity|]. cbv zeta.
  assert (ET := fun phi => ex_gm_tot 1 2 "spherical" "c" all1 (cmu 0) (ccv 1) ltac:(lia) ltac:(lia) eq_refl
    ltac:(intros; unfold all1; lra) all1_one ltac:(intros; unfold ccv; lra) ltac:(discriminate) exs_x phi).
  change (map _ exs_x) with [1%nat] in ET. change (fun _ : nat => 1) with u1 in ET. change (fun _ _ : nat => 1) with all1 in ET.
  rewrite !ET. unfold exs_x. cbn [sumL]. rewrite !const_resp; [|lia|split; [reflexivity|discriminate]|exact all1_one].
  unfold all1, xval, v2, vget, cmu. cbn [sumn nth rval]. change (INR 2) with 2. field.
Qed.

(** The wrong divisor makes training lower the likelihood. *)
Lemma exs_score (h : hmm gmmp) v mo p : 0 < v -> / 2 ^ 1022 <= v ->
  h = Hmm (h_cfg (exs 1)) (h_nfeat h) (Some (fvec 1 u1)) (Some (fmat 1 1 all1)) mo p ->
  gmm_model eig1 h 1 1 2 "spherical" u1 all1 all1 (cmu 0) (ccv v) ->
  (exists wp mw mp cp cw, gmm_hyper (h_em h) 1 1 2 "spherical" wp mw mp cp cw) ->
  score (gmm eig1) exact h exs_x (as_lengths [1]%nat) = Ok (Fin (ln (exp (- / (2 * v)) / (2 * PI * v)))).
Proof.
  intros Hv Hf Eh GM (wp & mw & mp & cp & cw & HH).
  rewrite (C02_score_lengths_l (gmm eig1) h 1 u1 all1 (finite_row 2) _ [1]%nat exs_x (C02_gmm_ready_l _ _ _ _ _ _ _ _ _ _ _ _ _ _ _ _ GM HH)).
  - cbn [chunks exs_x firstn skipn prodL fold_right map]. rewrite (single_lik (fun o i => sumn 1 (fun k => all1 i k * dens 2 "spherical" (cmu 0) (ccv v) o i k))).
    replace (_ * 1) with (exp (- / (2 * v)) / (2 * PI * v)); [rewrite xln_pos; [reflexivity|]|].
    + pose proof PI_RGT_0. apply Rmult_lt_0_compat; [apply exp_pos|]. apply Rinv_0_lt_compat. nra.
    + unfold all1, dens, gauss_b, floored, comp_v, ccv, cmu. cbn [vec_type String.eqb Ascii.eqb Bool.eqb orb sumn prodn is_type existsb].
      unfold normal_pdf, xval, v2, vget, tiny. cbn [nth rval]. rewrite Rmax_left by exact Hf.
      set (q := 2 * PI * v). assert (Hq : 0 < q) by (unfold q; pose proof PI_RGT_0; nra).
      rewrite <- (sqrt_sqrt q) at 1 by lra. replace (exp (- / (2 * v))) with (exp (- ((1 - 0) ^ 2 / (2 * v))) * exp (- ((0 - 0) ^ 2 / (2 * v)))).
      * pose proof (sqrt_lt_R0 q Hq). field. lra.
      * rewrite <- exp_plus. f_equal. field. lra.
  - rewrite Eh. reflexivity.
  - exact (ex_gm_good 2 exs_x ltac:(discriminate) exs_x_ok).
Qed.
Lemma tiny_small v : 1 / 4 <= v -> / 2 ^ 1022 <= v.
Proof.
  intros Hv. apply Rle_trans with (1 / 4); [|exact Hv]. replace (1 / 4) with (/ 2 ^ 2) by (simpl; lra).
  apply Rinv_le_contravar; [apply pow_lt; lra|]. apply Rle_pow; [lra|lia].
Qed.
Lemma exs_model h v mo p : 0 <= v -> h = Hmm (h_cfg (exs 1)) (h_nfeat h) (Some (fvec 1 u1)) (Some (fmat 1 1 all1)) mo p ->
  h_nfeat h = None \/ h_nfeat h = Some 2%nat -> gm_nmix p = 1%nat -> gm_type p = "spherical"%string ->
  gm_weights p = Some (nd2 1 1 all1) -> gm_means p = Some (nd3 1 1 2 (cmu 0)) -> gm_covars p = Some (nd2 1 1 (fun _ _ => v)) ->
  gmm_model eig1 h 1 1 2 "spherical" u1 all1 all1 (cmu 0) (ccv v).
Proof.
  intros Hv Eh Hn H1 H2 H3 H4 H5. rewrite Eh. constructor; try (cbn [h_em h_nfeat]; assumption); try lia; try reflexivity.
  - constructor; try reflexivity; try lia.
    + intros i _. unfold u1. lra.
    + replace (sumn 1 u1) with 1 by (unfold u1; simpl; lra). exact near1_1.
    + intros i j _ _. unfold all1. lra.
    + intros i Hi. replace (sumn 1 (all1 i)) with 1 by (unfold all1; simpl; lra). exact near1_1.
  - intros i k _ _. unfold all1. lra.
  - intros i Hi. replace (sumn 1 (all1 i)) with 1 by (unfold all1; simpl; lra). exact near1_1.
  - intros. exact Hv.
  - discriminate.
Qed.
Lemma C39_spherical_decrease_refuted_l : exists eig h ls x h' ev a b,
  gmm_model eig h 1 1 2 "spherical" u1 all1 all1 (cmu 0) (ccv (1 / 2)) /\ gmm_flat h /\ flat_base h
  /\ fit_from (gmm eig) exact h x (as_lengths ls) = Ok (h', ev)
  /\ score (gmm eig) exact h x (as_lengths ls) = Ok (Fin a)
  /\ score (gmm eig) exact h' x (as_lengths ls) = Ok (Fin b) /\ b < a.
Proof.
  destruct (exs_fit (1 / 2) ltac:(lra)) as (mo & ev & H). eexists eig1, (exs (1 / 2)), [1%nat], exs_x, _, ev, _, _.
  assert (GM : gmm_model eig1 (exs (1 / 2)) 1 1 2 "spherical" u1 all1 all1 (cmu 0) (ccv (1 / 2))).
  { apply (exs_model _ (1 / 2) (h_mon (exs 1)) (h_em (exs (1 / 2)))); try reflexivity; try lra. left. reflexivity. }
  split; [exact GM|]. split; [repeat split|]. split; [split; reflexivity|]. split; [exact H|].
  split; [|split].
  - apply (exs_score _ (1 / 2) (h_mon (exs 1)) (h_em (exs (1 / 2)))); try reflexivity; try lra; [exact GM|].
    exists (fun _ _ => 1), (fun _ _ => 0), (fun _ _ _ => 0), (fun _ => none_cp "spherical" 1 2), (fun _ => none_cw "spherical" 1 2).
    apply gmm_flat_hyper. repeat split.
  - eapply (exs_score _ (1 / 3) mo); try reflexivity; try lra.
    + eapply exs_model; try reflexivity; try lra. right. reflexivity.
    + exists (fun _ _ => 1), (fun _ _ => 0), (fun _ _ _ => 0), (fun _ => none_cp "spherical" 1 2), (fun _ => none_cw "spherical" 1 2).
      cbn [h_em]. destruct (hyper_checked 1 1 2 "spherical" (fun _ _ => 1) (fun _ _ => 0) (fun _ _ _ => 0) (fun _ => none_cp "spherical" 1 2) (fun _ => none_cw "spherical" 1 2) (h_em (exs (1 / 2)))).
      constructor; assumption.
  - pose proof PI_RGT_0 as HP. apply ln_increasing.
    + apply Rmult_lt_0_compat; [apply exp_pos|]. apply Rinv_0_lt_compat. lra.
    + replace (- / (2 * (1 / 3))) with (- / (2 * (1 / 2)) + - (1 / 2)) by field. rewrite exp_plus, exp_Ropp with (x := 1 / 2).
      pose proof (exp_ineq1 (1 / 2) ltac:(lra)) as He. pose proof (exp_pos (- / (2 * (1 / 2)))) as Hp.
      set (c := exp (- / (2 * (1 / 2)))) in *. set (e := exp (1 / 2)) in *.
      replace (c * / e / (2 * PI * (1 / 3))) with (c * / PI * (3 / 2 * / e)) by (field; lra).
      replace (c / (2 * PI * (1 / 2))) with (c * / PI * 1) by (field; lra).
      apply Rmult_lt_compat_l; [apply Rmult_lt_0_compat; [exact Hp|apply Rinv_0_lt_compat; exact HP]|].
      apply Rmult_lt_reg_r with e; [lra|]. rewrite Rmult_assoc, Rinv_l by lra. lra.
Qed.

(** Validation of the trained model. *)
Lemma exs_check nm nf ty w m v xs mo cv : (0 < nm)%nat -> ty = "spherical"%string \/ ty = "diag"%string ->
  sumn nm (w 0%nat) = 1 -> gm_covars (exs_p nm nf ty w m v xs) = Some cv -> nsh cv = cshape 1 nm nf ty ->
  let h := Hmm (h_cfg (ex_gm nm nf ty "c" w (cmu m) (ccv v))) (Some nf) (Some (fvec 1 (fun _ => 1))) (Some (fmat 1 1 (fun _ _ => 1))) mo (exs_p nm nf ty w m v xs) in
  check (gmm eig1) exact h = do _ <- check_covars eig1 exact ty 1 nm nf cv; Ok h.
Proof.
  intros Hnm Hty Hs EC Ecs h. subst h. unfold check. cbn [h_start h_trans h_cfg ex_gm c_nc].
  assert (Hty' : is_type covariance_types ty = true) by (destruct Hty as [-> | ->]; reflexivity).
  rewrite base_check_ok.
  2:{ replace (sumn 1 (fun _ => 1)) with 1 by (simpl; lra). exact near1_1. }
  2:{ intros i Hi. replace (sumn 1 (fun _ => 1)) with 1 by (simpl; lra). exact near1_1. }
  cbn [bind gmm ec_check h_nfeat h_em]. unfold gmm_check. cbn [bind c_nc].
  rewrite (fix_priors_ok 1 nm nf ty Hty' (fun _ _ => 1) (fun _ _ => 0) (fun _ _ _ => 0) (fun _ => none_cp ty nm nf) (fun _ => none_cw ty nm nf)); try reflexivity.
  2:{ destruct (hyper_checked 1 nm nf ty (fun _ _ => 1) (fun _ _ => 0) (fun _ _ _ => 0) (fun _ => none_cp ty nm nf) (fun _ => none_cw ty nm nf)
        (h_em (ex_gm nm nf ty "c" w (cmu m) (ccv v)))). constructor; assumption. }
  rewrite EC. cbn [bind].
  change (gm_weights (exs_p nm nf ty w m v xs)) with (Some (nd2 1 nm w)).
  change (gm_means (exs_p nm nf ty w m v xs)) with (Some (nd3 1 nm nf (cmu m))).
  change (gm_type (exs_p nm nf ty w m v xs)) with ty.
  change (gm_nmix (exs_p nm nf ty w m v xs)) with nm. rewrite Hty'.
  change (nsh (nd2 1 nm w)) with [1; nm]%nat. change (nsh (nd3 1 nm nf (cmu m))) with [1; nm; nf]%nat. rewrite Ecs, !same_shape_refl. cbn [negb].
  replace (forallb _ (seq 0 1)) with true.
  2:{ symmetry. cbn [seq forallb]. rewrite andb_true_r.
      assert (En : nrow2 (nd2 1 nm w) 0 nm = fvec nm (w 0%nat)).
      { unfold nrow2, fvec. apply tab_ext. intros k Hk. apply nget_nd2; lia. }
      rewrite En. apply check_sum_1_fvec. rewrite Hs. exact near1_1. }
  cbn [negb].
  assert (S1 : cprior_shape ty 1 nm nf = Some (cshape 1 nm nf ty)) by (destruct Hty as [-> | ->]; reflexivity).
  rewrite S1, same_shape_refl. cbn [negb]. destruct (check_covars _ _ _ _ _ _ _); reflexivity.
Qed.

(** ** C28: a fitted model that no method accepts.  Spherical covariances, more
    components than features: the default prior makes the variances negative. *)
Lemma C28_gmm_refuted_l : exists eig h pi A w mu cv ls x h' ev,
  gmm_model eig h 1 2 1 "spherical" pi A w mu cv /\ gmm_flat h /\ flat_base h
  /\ good_data (finite_row 1) ls x /\ possible 1 pi A (mixb 2 1 "spherical" w mu cv) ls x
  /\ fit_from (gmm eig) exact h x (as_lengths ls) = Ok (h', ev)
  /\ gm_covars (h_em h') = Some (nd2 1 2 (fun _ _ => -1))
  /\ score (gmm eig) exact h' x (as_lengths ls) = Err (ValueError "mixture covars must be non-negative").
Proof.
  set (x := [v1 1]). assert (Hx : Forall (finite_row 1) x) by (repeat constructor).
  assert (Hw0 : forall k, (k < 2)%nat -> 0 <= half2 0%nat k) by (intros k Hk; apply Rlt_le, half2_pos, Hk).
  destruct (exs_step 2 1 "spherical" half2 0 1 x ltac:(lia) ltac:(lia) ltac:(left; reflexivity) Hw0 half2_sum ltac:(lra) ltac:(discriminate) Hx)
    as (mo & ev & H).
  change (as_lengths (map _ x)) with (as_lengths [1%nat]) in H.
  eexists eig1, (ex_gm 2 1 "spherical" "c" half2 (cmu 0) (ccv 1)), u1, all1, half2, (cmu 0), (ccv 1), [1%nat], x, _, ev.
  split; [apply (exd_model "spherical" "c" eq_refl)|]. split; [repeat split|]. split; [split; reflexivity|].
  split; [exact (ex_gm_good 1 x ltac:(discriminate) Hx)|].
  split; [exact (ex_gm_possible 2 1 "spherical" "c" half2 (cmu 0) (ccv 1) ltac:(lia) ltac:(lia) eq_refl Hw0 half2_sum (exd_cv "spherical") (exd_cm "spherical") x)|].
  split; [exact H|].
  assert (EC : gm_covars (exs_p 2 1 "spherical" half2 0 1 x) = Some (nd2 1 2 (fun _ _ => -1))).
  { unfold exs_p. cbn [gm_set gm_covars]. f_equal. apply ntab_nd2. intros i k Hi Hk. cbn [nth String.eqb Ascii.eqb Bool.eqb].
    unfold x, half2. cbn [sumL sumn length]. unfold xval, v1, vget. cbn [nth rval]. change (INR 1) with 1. change (INR 2) with 2.
    rewrite xdivE by lra. f_equal. field. }
  split; [exact EC|].
  assert (EK := exs_check 2 1 "spherical" half2 0 1 x mo _ ltac:(lia) ltac:(left; reflexivity) half2_sum EC eq_refl). cbv zeta in EK.
  assert (ECC : check_covars eig1 exact "spherical" 1 2 1 (nd2 1 2 (fun _ _ => -1)) = Err (ValueError "mixture covars must be non-negative")).
  { unfold check_covars. change (vec_type "spherical") with true. cbv iota.
    change (ndat (nd2 1 2 (fun _ _ => -1))) with [Fin (-1); Fin (-1)]. cbn [existsb xltb].
    replace (Rltb (-1) 0) with true by (symmetry; apply Rltb_true; lra). reflexivity. }
  unfold score, score_, fitted_check. cbn [h_start]. rewrite EK, ECC. reflexivity.
Qed.

(** ** C58: a component of weight zero.  Its covariance becomes 0/0. *)
Definition first_only : nat -> nat -> R := fun _ k => if Nat.eqb k 0 then 1 else 0.
Lemma first_only_sum : sumn 2 (first_only 0%nat) = 1.
Proof. unfold first_only. cbn [sumn Nat.eqb]. lra. Qed.
Lemma first_only_nn k : (k < 2)%nat -> 0 <= first_only 0%nat k.
Proof. intros _. unfold first_only. destruct (Nat.eqb k 0); lra. Qed.
Definition exz : hmm gmmp := ex_gm 2 1 "diag" "c" first_only (cmu 0) (ccv 1).

Lemma xadd_nan_r fp a : xadd fp a NaN = NaN.
Proof. destruct a; reflexivity. Qed.
Lemma sp_logsumexp_nan a : sp_logsumexp exact [a; NaN] = NaN.
Proof.
  unfold sp_logsumexp. cbv zeta. cbn [fold_left].
  assert (E : forall b, xexp exact (xsub exact NaN b) = NaN) by (intros []; reflexivity).
  rewrite E, xadd_nan_r. reflexivity.
Qed.
Lemma exz_loglik x : x = [v1 1] -> gm_covars (exs_p 2 1 "diag" first_only 0 1 x) = Some (Nd [1; 2; 1]%nat [Fin 1; NaN]) ->
  gmm_loglik exact (h_cfg exz) (Some 1%nat) (exs_p 2 1 "diag" first_only 0 1 x) x = Ok (Mat 1 [[NaN]]).
Proof.
  intros Ex EC. unfold gmm_loglik. destruct x as [|o x']; [discriminate|]. set (x := o :: x') in *. clearbody x. change (c_nc (h_cfg exz)) with 1%nat. cbn [seq mapM].
  unfold log_weighted. rewrite EC.
  change (gm_weights (exs_p 2 1 "diag" first_only 0 1 x)) with (Some (nd2 1 2 first_only)).
  change (gm_means (exs_p 2 1 "diag" first_only 0 1 x)) with (Some (nd3 1 2 1 (cmu 0))).
  change (gm_type (exs_p 2 1 "diag" first_only 0 1 x)) with "diag"%string.
  change (gm_nmix (exs_p 2 1 "diag" first_only 0 1 x)) with 2%nat. cbv zeta. subst x.
  change (cur_covs "diag" 2 (gm_nf (Some 1%nat)) (Nd [1; 2; 1]%nat [Fin 1; NaN]) 0) with (CV2 (Mat 1 [[Fin 1]; [NaN]])).
  unfold log_mvn_density. cbn [String.eqb Ascii.eqb Bool.eqb]. unfold lmnd_diag.
  change (mmap _ (Mat 1 [[Fin 1]; [NaN]])) with (Mat 1 [[np_maximum (Fin 1) (Fin tiny)]; [NaN]]).
  set (q := np_maximum (Fin 1) (Fin tiny)). cbv zeta.
  change (bwidth (width [v1 1]) (ncol (nrow3 (nd3 1 2 1 (cmu 0)) 0 2 (gm_nf (Some 1%nat))))) with (Ok 1%nat : res nat). cbn [bind].
  change (bdim (nrow (nrow3 (nd3 1 2 1 (cmu 0)) 0 2 (gm_nf (Some 1%nat)))) (nrow (Mat 1 [[q]; [NaN]]))) with (Ok 2%nat : res nat). cbn [bind].
  change (bdim 1 (ncol (Mat 1 [[q]; [NaN]]))) with (Ok 1%nat : res nat). cbn [bind map rows length].
  match goal with |- context [tab 2 ?f] => set (F := f) end.
  assert (EF : F 1%nat = NaN).
  { unfold F. match goal with |- xmul _ _ (xadd _ (xadd _ ?c ?d) ?r) = _ => change d with (xsum exact [xlog exact NaN]); generalize c, r end.
    intros c r. cbn [xlog xsum fold_left]. rewrite !xadd_nan_r. destruct c; reflexivity. }
  change (Ok (Mat 1 [[sp_logsumexp exact
     [xadd exact (F 0%nat) (xlog exact (nget (nd2 1 2 first_only) [0; 0]%nat)); xadd exact (F 1%nat) (xlog exact (nget (nd2 1 2 first_only) [0; 1]%nat))]]]) = Ok (Mat 1 [[NaN]])).
  rewrite EF. change (xadd exact NaN _) with NaN. rewrite sp_logsumexp_nan. reflexivity.
Qed.

Lemma C58_zero_weight_refuted_l : exists eig h pi A w mu cv ls x h' ev cv',
  gmm_model eig h 1 2 1 "diag" pi A w mu cv /\ gmm_flat h /\ flat_base h
  /\ w 0%nat 0%nat = 1 /\ w 0%nat 1%nat = 0
  /\ good_data (finite_row 1) ls x /\ possible 1 pi A (mixb 2 1 "diag" w mu cv) ls x
  /\ fit_from (gmm eig) exact h x (as_lengths ls) = Ok (h', ev)
  /\ gm_covars (h_em h') = Some cv' /\ nget cv' [0; 0; 0]%nat = Fin 1 /\ nget cv' [0; 1; 0]%nat = NaN
  /\ score (gmm eig) exact h' x (as_lengths ls) = Ok NaN.
Proof.
  set (x := [v1 1]). assert (Hx : Forall (finite_row 1) x) by (repeat constructor).
  destruct (exs_step 2 1 "diag" first_only 0 1 x ltac:(lia) ltac:(lia) ltac:(right; reflexivity) first_only_nn first_only_sum ltac:(lra) ltac:(discriminate) Hx)
    as (mo & ev & H).
  change (as_lengths (map _ x)) with (as_lengths [1%nat]) in H.
  assert (EC : gm_covars (exs_p 2 1 "diag" first_only 0 1 x) = Some (Nd [1; 2; 1]%nat [Fin 1; NaN])).
  { unfold exs_p. cbn [gm_set gm_covars]. f_equal.
    match goal with |- ntab _ ?f = _ => change (Nd [1; 2; 1]%nat [f [0; 0; 0]%nat; f [0; 1; 0]%nat] = Nd [1; 2; 1]%nat [Fin 1; NaN]) end.
    cbn [nth String.eqb Ascii.eqb Bool.eqb]. cbv zeta.
    unfold x, first_only. cbn [sumL sumn length Nat.eqb]. unfold xval, v1, vget. cbn [nth rval]. change (INR 1) with 1.
    rewrite xdivE by lra. do 2 f_equal; [f_equal; field|]. f_equal. rewrite !Rmult_0_l. unfold xdiv.
    destruct (Req_EM_T 0 0); [|congruence]. destruct (Rlt_dec 0 0); [lra|]. reflexivity. }
  exists eig1, exz, u1, all1, first_only, (cmu 0), (ccv 1), [1%nat], x. do 2 eexists. exists (Nd [1; 2; 1]%nat [Fin 1; NaN]).
  split; [apply (ex_gm_model 2 1 "diag" "c" first_only (cmu 0) (ccv 1) ltac:(lia) ltac:(lia) eq_refl first_only_nn first_only_sum (exd_cv "diag") (exd_cm "diag"))|].
  split; [repeat split|]. split; [split; reflexivity|]. split; [reflexivity|]. split; [reflexivity|].
  split; [exact (ex_gm_good 1 x ltac:(discriminate) Hx)|].
  split; [exact (ex_gm_possible 2 1 "diag" "c" first_only (cmu 0) (ccv 1) ltac:(lia) ltac:(lia) eq_refl first_only_nn first_only_sum (exd_cv "diag") (exd_cm "diag") x)|].
  split; [exact H|]. split; [exact EC|]. split; [reflexivity|]. split; [reflexivity|].
  assert (EK := exs_check 2 1 "diag" first_only 0 1 x mo _ ltac:(lia) ltac:(right; reflexivity) first_only_sum EC eq_refl). cbv zeta in EK.
  assert (ECC : check_covars eig1 exact "diag" 1 2 1 (Nd [1; 2; 1]%nat [Fin 1; NaN]) = Ok tt).
  { unfold check_covars. change (vec_type "diag") with true. cbv iota. cbn [ndat existsb xltb].
    replace (Rltb 1 0) with false by (symmetry; apply Rltb_false; lra). reflexivity. }
  rewrite ECC in EK. cbn [bind] in EK.
  unfold score, score_, fitted_check. cbn [h_start]. rewrite EK. cbn [bind h_start h_trans h_cfg].
  change (check_array (ec_xok (gmm eig1)) x) with (Ok x : res (list vec)). cbn [bind].
  change (String.eqb (c_impl (h_cfg (ex_gm 2 1 "diag" "c" first_only (cmu 0) (ccv 1)))) "scaling") with false.
  change (String.eqb (c_impl (h_cfg (ex_gm 2 1 "diag" "c" first_only (cmu 0) (ccv 1)))) "log") with true. cbv iota. cbn [bind].
  change (split_X_lengths x (as_lengths [1%nat])) with (Ok [x] : res (list (list vec))). cbn [bind acc_seqs].
  unfold score_log_seq, loglik. cbn [h_cfg h_nfeat h_em gmm ec_loglik].
  pose proof (exz_loglik x eq_refl EC) as EL. unfold exz in EL. rewrite EL. cbn [bind].
  change (forward_log exact (fvec 1 (fun _ : nat => 1)) (fmat 1 1 (fun _ _ : nat => 1)) (Mat 1 [[NaN]]))
    with (Ok (logsumexp exact [xadd exact (xlog exact (Fin 1)) NaN], Mat 1 [[xadd exact (xlog exact (Fin 1)) NaN]])).
  rewrite xadd_nan_r. reflexivity.
Qed.

(** With positive weights nothing of this happens. *)
Lemma C58_finite_l eig h nc nm nf ty pi A w mu cv ls x h' ev :
  gmm_model eig h nc nm nf ty pi A w mu cv -> flat_base h -> gmm_flat h ->
  (ty = "spherical"%string -> (nm <= nf)%nat) ->
  (forall i k, (i < nc)%nat -> (k < nm)%nat -> 0 < w i k) ->
  sumn nc pi <= 1 -> (forall i, (i < nc)%nat -> sumn nc (A i) <= 1) ->
  good_data (finite_row nf) ls x -> possible nc pi A (mixb nm nf ty w mu cv) ls x ->
  all_used nc pi A (mixb nm nf ty w mu cv) (chunks ls x) ->
  fit_from (gmm eig) exact h x (as_lengths ls) = Ok (h', ev) ->
  exists w' mu' cv', gm_weights (h_em h') = Some (nd2 nc nm w') /\ gm_means (h_em h') = Some (nd3 nc nm nf mu')
    /\ gm_covars (h_em h') = Some (fnd (cshape nc nm nf ty) cv')
    /\ forall i k, (i < nc)%nat -> (k < nm)%nat -> 0 < w' i k.
Proof.
  intros GM FB GF Hs Hw Hp1 HA1 Hd Hpos Hu Hf.
  destruct (gmm_flat_run eig h nc nm nf ty pi A w mu cv GM FB GF Hs Hw Hp1 HA1 ls x Hd Hpos Hu h' ev Hf)
      as (pis & As & ws & mus & cvs & T & _ & Hpw & _).
  destruct T as (_ & _ & _ & _ & _ & _ & T1 & T2 & T3 & _). do 3 eexists. split; [exact T1|]. split; [exact T2|]. split; [exact T3|].
  intros i k Hi Hk. apply (Hpw _ (le_n _)); assumption.
Qed.
Lemma C58_applies_l : exists h' ev, fit_from (gmm eig1) exact (exd "full" "stmcw") exd_x (as_lengths [1; 1]%nat) = Ok (h', ev)
  /\ exists w' mu' cv', gm_weights (h_em h') = Some (nd2 1 2 w') /\ gm_means (h_em h') = Some (nd3 1 2 1 mu')
    /\ gm_covars (h_em h') = Some (fnd [1; 2; 1; 1]%nat cv') /\ 0 < w' 0%nat 1%nat.
Proof.
  destruct (exd_run "full" "stmcw" eq_refl ltac:(discriminate) eq_refl) as (h' & ev & R0 & HL).
  exists h', ev. destruct R0 as (GM & FB & GF & Hw & Hp1 & HA1 & Hd & Hpos & Hu & Hf & Hhc). split; [exact Hf|].
  destruct (C58_finite_l _ _ _ _ _ _ _ _ _ _ _ _ _ _ _ GM FB GF ltac:(discriminate) Hw Hp1 HA1 Hd Hpos Hu Hf) as (w' & mu' & cv' & H1 & H2 & H3 & H4).
  exists w', mu', cv'. split; [exact H1|]. split; [exact H2|]. split; [exact H3|]. apply H4; lia.
Qed.

Lemma exd_flat ty params : gmm_flat (exd ty params).
Proof. repeat split. Qed.
Lemma C38_diag_density_applies_l : exists h', check (gmm eig1) exact (exd "diag" "stmcw") = Ok h'
  /\ loglik (gmm eig1) exact h' [v1 0] = Ok (mtab 1 1 (fun _ _ => Fin (- (ln (2 * PI)) / 2))).
Proof.
  destruct (C38_diag_density_l eig1 (exd "diag" "stmcw") 1 2 1 u1 all1 half2 (cmu 0) (fun _ _ _ => 1) _ _ _ _ _ [v1 0]
    (exd_model "diag" "stmcw" eq_refl) (gmm_flat_hyper (exd "diag" "stmcw") 1 2 1 "diag" (exd_flat "diag" "stmcw")) ltac:(repeat constructor)) as (h' & H1 & H2).
  exists h'. split; [exact H1|]. rewrite H2. f_equal. apply mtab_ext. intros t i Ht Hi. replace t with 0%nat by (simpl in Ht; lia).
  unfold half2, cmu, xval, v1, vget. cbn [sumn prodn nth rval]. rewrite Rmax_left by (apply tiny_small; lra).
  pose proof PI_RGT_0 as HP. assert (Hs : 0 < sqrt (2 * PI * 1)) by (apply sqrt_lt_R0; lra).
  replace (_ + _) with (/ sqrt (2 * PI * 1)).
  - rewrite xln_pos by (apply Rinv_0_lt_compat; exact Hs). f_equal. rewrite ln_Rinv by exact Hs.
    replace (2 * PI) with (sqrt (2 * PI * 1) * sqrt (2 * PI * 1)) at 2 by (rewrite sqrt_sqrt by lra; ring).
    rewrite ln_mult by assumption. field.
  - replace (- ((0 - 0) ^ 2 / (2 * 1))) with 0 by field. rewrite exp_0. field. lra.
Qed.
Lemma one_pos_def : pos_def 1 (fun _ _ => 1).
Proof.
  split; [intros i j _ _; reflexivity|]. intros v (i & Hi & Hv). replace i with 0%nat in Hv by lia. unfold quad. cbn [sumn].
  pose proof (Rsqr_pos_lt _ Hv) as H. unfold Rsqr in H. lra.
Qed.
Lemma C38_full_density_applies_l : exists h', check (gmm eig1) exact (exd "full" "stmcw") = Ok h'
  /\ loglik (gmm eig1) exact h' exd_x = Ok (mtab 2 1 (fun t i => xln (sumn 2 (fun k => 1 / 2 * mvnf 1 (fun _ => 0) (fun _ _ => 1) (nth t exd_x []))))).
Proof.
  exact (C38_full_density_l eig1 (exd "full" "stmcw") 1 2 1 u1 all1 half2 (cmu 0) (fun _ _ _ _ => 1) _ _ _ _ _ exd_x
    (fun o _ _ => mvnf 1 (fun _ => 0) (fun _ _ => 1) o)
    (exd_model "full" "stmcw" eq_refl) (gmm_flat_hyper (exd "full" "stmcw") 1 2 1 "full" (exd_flat "full" "stmcw")) exd_x_ok
    (fun _ _ _ _ => one_pos_def) (fun o _ _ _ _ _ => mvnf_ok 1 _ _ o one_pos_def)).
Qed.
Lemma C38_tied_density_applies_l : exists h', check (gmm eig1) exact (exd "tied" "stmcw") = Ok h'
  /\ loglik (gmm eig1) exact h' exd_x = Ok (mtab 2 1 (fun t i => xln (sumn 2 (fun k => 1 / 2 * mvnf 1 (fun _ => 0) (fun _ _ => 1) (nth t exd_x []))))).
Proof.
  exact (C38_tied_density_l eig1 (exd "tied" "stmcw") 1 2 1 u1 all1 half2 (cmu 0) (fun _ _ _ => 1) _ _ _ _ _ exd_x
    (fun o _ _ => mvnf 1 (fun _ => 0) (fun _ _ => 1) o)
    (exd_model "tied" "stmcw" eq_refl) (gmm_flat_hyper (exd "tied" "stmcw") 1 2 1 "tied" (exd_flat "tied" "stmcw")) exd_x_ok
    (fun _ _ => one_pos_def) (fun o _ _ _ _ _ => mvnf_ok 1 _ _ o one_pos_def)).
Qed.
