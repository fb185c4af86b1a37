(** * C57 for GaussianHMM with "diag" or "spherical" covariances. *)
From Verif Require Export Total_thms Gauss_thms.

Definition sh (r c : nat) (m : mat) : Prop := nrow m = r /\ ncol m = c.
(** Broadcastable to [r] rows and [c] columns. *)
Definition bc (r c : nat) (m : mat) : Prop := (nrow m = r \/ nrow m = 1%nat) /\ (ncol m = c \/ ncol m = 1%nat).

Lemma sh_bc r c m : sh r c m -> bc r c m.
Proof. intros [H1 H2]. split; auto. Qed.
Lemma sh_mtab r c f : sh r c (mtab r c f).
Proof. split; [apply nrow_mtab|reflexivity]. Qed.
Lemma sh_mmap r c f m : sh r c m -> sh r c (mmap f m).
Proof. intros [<- <-]. split; [unfold mmap, nrow; cbn [rows]; apply map_length|reflexivity]. Qed.
Lemma bc_mmap r c f m : bc r c m -> bc r c (mmap f m).
Proof. unfold bc. replace (nrow (mmap f m)) with (nrow m) by (unfold mmap, nrow; cbn [rows]; rewrite map_length; reflexivity). auto. Qed.
Lemma bdim_bc n a b : (a = n \/ a = 1%nat) -> (b = n \/ b = 1%nat) -> exists d, bdim a b = Ok d /\ (d = n \/ d = 1%nat) /\ (a = n \/ b = n -> d = n).
Proof.
  intros Ha Hb. unfold bdim. destruct (Nat.eqb_spec a b) as [->|N]; [exists b; split; [reflexivity|]; split; [exact Hb|tauto]|].
  destruct (Nat.eqb_spec a 1) as [->|N1]; [exists b; split; [reflexivity|]; split; [exact Hb|intros [H|H]; destruct Hb; lia]|].
  destruct (Nat.eqb_spec b 1) as [->|N2]; [exists a; split; [reflexivity|]; split; [exact Ha|intros [H|H]; destruct Ha; lia]|].
  destruct Ha, Hb; lia.
Qed.
Lemma b2_bc f r c a b : bc r c a -> bc r c b -> exists m, b2 f a b = Ok m /\ bc r c m /\ (sh r c a \/ sh r c b -> sh r c m).
Proof.
  intros [A1 A2] [B1 B2]. unfold b2. destruct (bdim_bc r _ _ A1 B1) as (d1 & -> & D1 & D1'). cbn [bind].
  destruct (bdim_bc c _ _ A2 B2) as (d2 & -> & D2 & D2'). cbn [bind]. eexists. split; [reflexivity|].
  split; [unfold bc; rewrite nrow_mtab; cbn [ncol mtab]; auto|]. unfold sh. rewrite nrow_mtab. cbn [ncol mtab]. intros [[H1 H2]|[H1 H2]]; auto.
Qed.

Lemma bc_col r c v : length v = r -> bc r c (col_of v).
Proof. intros <-. unfold bc, col_of, nrow. cbn [rows ncol]. rewrite map_length. auto. Qed.

Section GaussTotal.
  Variables (fp : fpmode) (c : cfg) (nf : nat) (ty : string) (hy : parr * parr * (parr * parr)).
  Let nc := c_nc c.
  (** Parameters of the documented shapes; the hyper-parameters are [hy]. *)
  Definition gauss_hy (p : gaussp) := (ga_mprior p, ga_mweight p, (ga_cprior p, ga_cweight p)).
  Definition gauss_shaped (p : gaussp) : Prop :=
    ga_type p = ty /\ gauss_hy p = hy
    /\ (exists m, ga_means p = Some m /\ sh nc nf m)
    /\ exists cv, ga_covars p = Some cv
       /\ match cv with CV1 v => ty = "spherical"%string /\ length v = nc | CV2 m => sh nc nf m | CV3 _ => False end.
  Hypothesis Hty : ty = "diag"%string \/ ty = "spherical"%string.
  (** Mean prior, mean weight and covariance prior can be broadcast, the
      covariance weight is a number. *)
  Hypothesis Hhy : bc nc nf (pmat (fst (fst hy))) /\ bc nc nf (pmat (snd (fst hy))) /\ bc nc nf (pmat (fst (snd hy)))
                   /\ exists w, snd (snd hy) = Scal w.
  Definition gauss_st (st : gauss_stat) : Prop := length (gs_post st) = nc /\ sh nc nf (gs_obs st) /\ sh nc nf (gs_obs2 st).

  Lemma gs_hyper p : gauss_shaped p -> bc nc nf (pmat (ga_mprior p)) /\ bc nc nf (pmat (ga_mweight p)) /\ bc nc nf (pmat (ga_cprior p))
    /\ exists w, ga_cweight p = Scal w.
  Proof. intros (_ & E & _). unfold gauss_hy in E. rewrite <- E in Hhy. exact Hhy. Qed.

  Lemma lmnd_diag_total x m v : x <> [] -> width x = nf -> sh nc nf m -> sh nc nf v ->
    exists lf, lmnd_diag fp x m v = Ok lf /\ nrow lf = length x /\ ncol lf = nc.
  Proof.
    intros Hx Hw [M1 M2] [V1 V2]. unfold lmnd_diag. rewrite Hw, M2. unfold bwidth. rewrite Nat.eqb_refl. cbn [bind].
    assert (Hr : nrow (mmap (fun a => np_maximum a (Fin tiny)) v) = nc) by (unfold mmap, nrow; cbn [rows]; rewrite map_length; exact V1).
    rewrite Hr, M1. unfold bdim at 1. rewrite Nat.eqb_refl. cbn [bind]. cbn [mmap ncol]. rewrite V2. unfold bdim at 1. rewrite Nat.eqb_refl. cbn [bind].
    eexists. split; [reflexivity|]. unfold nrow. cbn [rows ncol]. rewrite map_length. auto.
  Qed.
  Lemma broadcast_sh m : bc nc nf m -> exists v, broadcast_to m nc nf = Ok v /\ sh nc nf v.
  Proof.
    intros [A B]. unfold broadcast_to.
    replace (Nat.eqb (nrow m) nc || Nat.eqb (nrow m) 1) with true by (symmetry; apply orb_true_iff; destruct A as [->| ->]; rewrite Nat.eqb_refl; auto).
    replace (Nat.eqb (ncol m) nf || Nat.eqb (ncol m) 1) with true by (symmetry; apply orb_true_iff; destruct B as [->| ->]; rewrite Nat.eqb_refl; auto).
    cbn [andb]. eexists. split; [reflexivity|apply sh_mtab].
  Qed.
  Lemma iadd_sh a b : sh nc nf a -> ncol b = nf -> exists m, iadd fp a b = Ok m /\ sh nc nf m.
  Proof.
    intros [A B] Hb. unfold iadd. rewrite Hb, B, Nat.eqb_refl. eexists. split; [reflexivity|]. unfold mzip. rewrite A, B. apply sh_mtab.
  Qed.

  Ltac bb := match goal with |- context [b2 ?f ?a ?b] =>
    let m := fresh "m" in let E := fresh "E" in let H1 := fresh "B" in let H2 := fresh "S" in
    destruct (b2_bc f nc nf a b) as (m & E & H1 & H2); [auto using sh_bc, bc_mmap, sh_mmap|auto using sh_bc, bc_mmap, sh_mmap|];
    rewrite E; cbn [bind]; clear E; try specialize (H2 ltac:(auto using sh_mmap)) end.

  Lemma means_total p st : gauss_shaped p -> gauss_st st -> exists m, gauss_means fp p st = Ok m /\ sh nc nf m.
  Proof.
    intros Hp (S1 & S2 & S3). destruct (gs_hyper p Hp) as (H1 & H2 & H3 & _). unfold gauss_means.
    pose proof (bc_col nc nf (gs_post st) S1) as Hc. bb. bb. bb.
    destruct (b2_bc (xdiv fp) nc nf m0 m1) as (r & -> & _ & Hr); [auto using sh_bc|auto|]. exists r. split; [reflexivity|]. apply Hr. auto.
  Qed.
  Lemma covars_total p m st : gauss_shaped p -> sh nc nf m -> gauss_st st -> exists v, gauss_covars_vec fp p m st = Ok v /\ sh nc nf v.
  Proof.
    intros Hp Hm (S1 & S2 & S3). destruct (gs_hyper p Hp) as (H1 & H2 & H3 & w & Hw). unfold gauss_covars_vec.
    pose proof (bc_col nc nf (gs_post st) S1) as Hc. bb. bb. bb. bb. bb. bb. bb.
    unfold cweight_excess. rewrite Hw. cbn [bind]. bb. bb.
    destruct (String.eqb _ _); eexists; (split; [reflexivity|]); [|assumption].
    match goal with H : sh nc nf ?q |- sh _ _ (mtab (nrow ?q) _ _) => destruct H as [-> ->] end. apply sh_mtab.
  Qed.

  Lemma gauss_total : total gaussian fp c (Some nf) (fun r => length r = nf) gauss_shaped gauss_st.
  Proof.
    split.
    - intros p x (T & _ & (m & Hm & Sm) & cv & Hcv & Sc) Hx Hok. cbn [gaussian ec_loglik]. unfold gauss_loglik. rewrite Hm, Hcv.
      pose proof (width_ok nf x Hx Hok) as Hw. destruct x as [|o x]; [contradiction|]. rewrite T. unfold log_mvn_density.
      destruct Hty as [Et|Et]; rewrite Et in *; cbn [String.eqb Ascii.eqb Bool.eqb].
      + destruct cv as [v|v|]; [destruct Sc; discriminate| |destruct Sc]. apply lmnd_diag_total; assumption.
      + pose proof Sm as [M1 M2]. unfold lmnd_spherical. rewrite M1, M2. destruct cv as [v|v|]; [| |destruct Sc].
        * destruct (broadcast_sh (Mat 1 (map (fun a => [a]) v))) as (u & -> & Su).
          { split; [left; unfold nrow; cbn [rows]; rewrite map_length; apply Sc|right; reflexivity]. }
          cbn [bind]. apply lmnd_diag_total; assumption.
        * destruct (broadcast_sh v (sh_bc _ _ _ Sc)) as (u & -> & Su). cbn [bind]. apply lmnd_diag_total; assumption.
    - intros p _. cbn [gaussian ec_stats0]. unfold gauss_stats0, gauss_st. cbn [gs_post gs_obs gs_obs2].
      split; [apply tab_length|]. split; apply sh_mtab.
    - intros p st x post Hp HS Hx Hok Hr Hcl. cbn [gaussian ec_acc]. unfold gauss_acc. pose proof (width_ok nf x Hx Hok) as Hw.
      assert (H1 : exists st1, (if has "m" (c_params c) then
          do obs <- iadd fp (gs_obs st) (matT_mul fp post x);
          Ok (GaussStat (vadd fp (gs_post st) (col_sums fp post)) obs (gs_obs2 st) (gs_obsT st)) else Ok st) = Ok st1 /\ gauss_st st1).
      { destruct HS as (S1 & S2 & S3). destruct (has "m" _); [|exists st; repeat split; try assumption; apply S2 || apply S3].
        destruct (iadd_sh (gs_obs st) (matT_mul fp post x) S2) as (m & -> & Sm); [exact Hw|]. cbn [bind]. eexists. split; [reflexivity|].
        unfold gauss_st. cbn [gs_post gs_obs gs_obs2]. split; [|auto]. unfold vadd. rewrite tab_length. exact S1. }
      destruct H1 as (st1 & -> & S1 & S2 & S3). cbn [bind]. destruct (has "c" _); [|exists st1; repeat split; try assumption; apply S2 || apply S3].
      destruct Hp as (T & _). rewrite T.
      assert (Ev : vec_type ty = true) by (destruct Hty as [->| ->]; reflexivity). rewrite Ev.
      destruct (iadd_sh (gs_obs2 st1) (matT_mul fp post (map (map (xsq fp)) x)) S3) as (m & -> & Sm).
      { unfold matT_mul. cbn [ncol mtab]. destruct x as [|o x]; [contradiction|]. cbn [map width]. rewrite map_length. exact Hw. }
      cbn [bind]. eexists. split; [reflexivity|]. unfold gauss_st. cbn [gs_post gs_obs gs_obs2]. auto.
    - intros p st Hp HS. cbn [gaussian ec_mstep]. unfold gauss_mstep.
      assert (HM : exists m, (if has "m" (c_params c) then do m <- gauss_means fp p st; Ok (Some m) else Ok (ga_means p)) = Ok (Some m) /\ sh nc nf m).
      { destruct (has "m" _).
        - destruct (means_total p st Hp HS) as (m & -> & Sm). exists m. auto.
        - destruct Hp as (_ & _ & (m & -> & Sm) & _). exists m. auto. }
      destruct HM as (m & -> & Sm). cbn [bind].
      assert (Ev : vec_type (ga_type p) = true) by (destruct Hp as (-> & _); destruct Hty as [->| ->]; reflexivity). rewrite Ev.
      destruct (has "c" _).
      + destruct (covars_total p m st Hp Sm HS) as (v & -> & Sv). cbn [bind]. eexists. split; [reflexivity|].
        destruct Hp as (P1 & P2 & _). split; [exact P1|]. split; [exact P2|]. split; [exists m; auto|]. exists (CV2 v). auto.
      + cbn [bind]. eexists. split; [reflexivity|]. destruct Hp as (P1 & P2 & _ & P4).
        split; [exact P1|]. split; [exact P2|]. split; [exists m; auto|]. exact P4.
  Qed.
End GaussTotal.

Lemma C57_gaussian_l fp h h1 n x ls :
  check gaussian fp h = Ok h1 -> h_nfeat h1 = Some n -> c_impl (h_cfg h) = "log"%string ->
  (ga_type (h_em h) = "diag"%string \/ ga_type (h_em h) = "spherical"%string) ->
  (exists m, ga_means (h_em h) = Some m /\ nrow m = c_nc (h_cfg h) /\ ncol m = n) ->
  (exists cv, ga_covars (h_em h) = Some cv /\
     match cv with CV1 v => ga_type (h_em h) = "spherical"%string /\ length v = c_nc (h_cfg h)
                 | CV2 m => nrow m = c_nc (h_cfg h) /\ ncol m = n | CV3 _ => False end) ->
  (exists a b c d, ga_mprior (h_em h) = Scal a /\ ga_mweight (h_em h) = Scal b /\ ga_cprior (h_em h) = Scal c /\ ga_cweight (h_em h) = Scal d) ->
  x <> [] -> (forall r, In r x -> length r = n) -> lengths_ok ls x ->
  returns (fit_from gaussian fp h x ls).
Proof.
  intros Hk Hn Hi Hty Hm Hcv (a & b & c & d & D1 & D2 & D3 & D4) Hx Hr Hl.
  pose proof (check_em _ _ _ _ Hk) as He. cbn [ec_check gaussian] in He. unfold gauss_check in He.
  destruct (ga_means (h_em h)) as [m|] eqn:Em; [|discriminate]. destruct (is_type _ _); [|discriminate]. injection He as _ He.
  assert (HS : forall q, bc (c_nc (h_cfg h)) n (pmat (Scal q))) by (intros q; split; right; reflexivity).
  refine (fit_from_never_raises gaussian fp h h1 (fun r => length r = n)
    (gauss_shaped (h_cfg h) n (ga_type (h_em h)) (Scal a, Scal b, (Scal c, Scal d))) (gauss_st (h_cfg h) n) ls x _ Hi Hk _ Hx _ Hl).
  - rewrite Hn. apply gauss_total; [exact Hty|]. split; [apply HS|]. split; [apply HS|]. split; [apply HS|]. exists d. reflexivity.
  - rewrite <- He. split; [reflexivity|]. split; [unfold gauss_hy; congruence|]. split; [|exact Hcv].
    destruct Hm as (m' & E & H). rewrite Em. exists m'. split; assumption.
  - apply Forall_forall. exact Hr.
Qed.
