(** * Training never raises once the shapes fit: for every rounding and all values. *)
From Verif Require Export Checks_thms Init.

Lemma fwd_log_loop_length fp nc t l : forall prev, length (fwd_log_loop fp nc t prev l) = length l.
Proof. induction l as [|a l IH]; intros prev; [reflexivity|]. cbn [fwd_log_loop length]. now rewrite IH. Qed.
Lemma bwd_log_loop_length fp nc t l : length (bwd_log_loop fp nc t l) = length l.
Proof.
  induction l as [|a l IH]; [reflexivity|]. cbn [bwd_log_loop]. destruct l as [|b l]; [reflexivity|].
  cbn [length] in *. now rewrite IH.
Qed.

Lemma forward_log_shape fp s t fr : fits s t fr -> (0 < nrow fr)%nat ->
  exists lp fwd, forward_log fp s t fr = Ok (lp, fwd) /\ nrow fwd = nrow fr /\ ncol fwd = ncol fr.
Proof.
  intros H Hn. unfold forward_log. rewrite shape_guard_fits by assumption.
  unfold nrow in *. destruct (rows fr) as [|r0 l]; [cbn in Hn; lia|].
  do 2 eexists. split; [reflexivity|]. split; [|reflexivity].
  cbn [rows length]. now rewrite fwd_log_loop_length.
Qed.
Lemma backward_log_shape fp s t fr : fits s t fr -> (0 < nrow fr)%nat ->
  exists bwd, backward_log fp s t fr = Ok bwd /\ nrow bwd = nrow fr /\ ncol bwd = ncol fr.
Proof.
  intros H Hn. unfold backward_log. rewrite shape_guard_fits by assumption.
  eexists. split; [reflexivity|]. split; [|reflexivity]. apply bwd_log_loop_length.
Qed.
Lemma log_xi_shape fp fwd t bwd fr : xi_fits fwd t bwd fr -> (0 < nrow fr)%nat ->
  exists xi, compute_log_xi_sum fp fwd t bwd fr = Ok xi.
Proof.
  intros (H1 & H2 & H3 & H4 & H5 & H6) Hn. unfold compute_log_xi_sum, xi_guard.
  rewrite H1, H2, H3, H4, H5, H6, !Nat.eqb_refl. cbn [negb orb].
  destruct (Nat.eqb_spec (nrow fr) 0); [lia|]. eexists; reflexivity.
Qed.

(** What a class must satisfy: log likelihoods of the right shape, statistics and
    updates that never raise. *)
Record total {P X St} (E : emclass P X St) (fp : fpmode) (c : cfg) (nf : option nat) (ok : X -> Prop)
    (GP : P -> Prop) (GS : St -> Prop) : Prop := {
  to_log : forall p x, GP p -> x <> [] -> Forall ok x ->
    exists lf, ec_loglik E fp c nf p x = Ok lf /\ nrow lf = length x /\ ncol lf = c_nc c;
  to_stats0 : forall p, GP p -> GS (ec_stats0 E fp c nf p);
  to_acc : forall p st x post, GP p -> GS st -> x <> [] -> Forall ok x -> nrow post = length x -> ncol post = c_nc c ->
    exists st', ec_acc E fp c nf p st x post = Ok st' /\ GS st';
  to_mstep : forall p st, GP p -> GS st -> exists p', ec_mstep E fp c nf p st = Ok p' /\ GP p' }.

Section Total.
  Context {P X St : Type} (E : emclass P X St) (fp : fpmode) (c : cfg) (nf : option nat) (ok : X -> Prop).
  Variables (GP : P -> Prop) (GS : St -> Prop).
  Hypothesis T : total E fp c nf ok GP GS.
  Hypothesis Himpl : c_impl c = "log"%string.

  Definition shaped (h : hmm P) : Prop :=
    h_cfg h = c /\ h_nfeat h = nf /\ GP (h_em h)
    /\ (exists s, h_start h = Some s /\ length s = c_nc c)
    /\ exists t, h_trans h = Some t /\ nrow t = c_nc c /\ ncol t = c_nc c.

  Lemma estep_seq_total h s t st x : shaped h -> h_start h = Some s -> h_trans h = Some t -> GS (st_em st) ->
    x <> [] -> Forall ok x -> exists st' l, estep_seq E fp h s t st x = Ok (st', l) /\ GS (st_em st').
  Proof.
    intros (Hc & Hn & HP & (s' & Hs' & Hls) & t' & Ht' & Hr & Hcl) Hs Ht HS Hx Hok.
    rewrite Hs in Hs'. injection Hs' as <-. rewrite Ht in Ht'. injection Ht' as <-.
    unfold estep_seq. rewrite Hc, Hn, Himpl. cbn [String.eqb Ascii.eqb Bool.eqb bind].
    unfold fit_log, loglik. rewrite Hc, Hn.
    destruct (to_log _ _ _ _ _ _ _ T (h_em h) x HP Hx Hok) as (lf & -> & Hl1 & Hl2). cbn [bind].
    assert (Hfit : fits s t lf) by (unfold fits; rewrite Hl2; auto).
    assert (Hpos : (0 < nrow lf)%nat) by (rewrite Hl1; destruct x; [contradiction|cbn; lia]).
    destruct (forward_log_shape fp s t lf Hfit Hpos) as (lp & fwd & -> & Hf1 & Hf2). cbn [bind].
    destruct (backward_log_shape fp s t lf Hfit Hpos) as (bwd & -> & Hb1 & Hb2). cbn [bind].
    unfold acc_base. rewrite Hc.
    assert (Hpost : nrow (compute_posteriors_log fp fwd bwd) = length x /\ ncol (compute_posteriors_log fp fwd bwd) = c_nc c).
    { unfold compute_posteriors_log, log_normalize_rows, mzip, mmap, nrow. cbn [ncol mtab].
      destruct (Nat.eqb (ncol fwd) 1); cbn [ncol rows mtab]; rewrite !map_length, ?tab_length;
        (split; [unfold nrow in *; lia|lia]). }
    destruct Hpost as [Hp1 Hp2].
    destruct (has "t" (c_params c)).
    - destruct (Nat.leb (nrow lf) 1).
      + cbn [bind]. destruct (to_acc _ _ _ _ _ _ _ T (h_em h) (st_em st) x _ HP HS Hx Hok Hp1 Hp2) as (st' & -> & HG).
        cbn [bind]. do 2 eexists. split; [reflexivity|exact HG].
      + assert (Hxi : xi_fits fwd t bwd lf) by (unfold xi_fits; repeat split; congruence).
        destruct (log_xi_shape fp fwd t bwd lf Hxi Hpos) as (xi & ->). cbn [bind]. destruct (to_acc _ _ _ _ _ _ _ T (h_em h) (st_em st) x _ HP HS Hx Hok Hp1 Hp2) as (st' & -> & HG).
        cbn [bind]. do 2 eexists. split; [reflexivity|exact HG].
    - cbn [bind]. destruct (to_acc _ _ _ _ _ _ _ T (h_em h) (st_em st) x _ HP HS Hx Hok Hp1 Hp2) as (st' & -> & HG).
      cbn [bind]. do 2 eexists. split; [reflexivity|exact HG].
  Qed.

  Lemma estep_loop_total h s t xs : shaped h -> h_start h = Some s -> h_trans h = Some t ->
    Forall (fun x => x <> [] /\ Forall ok x) xs -> forall st lp, GS (st_em st) ->
    exists st' l, estep_loop E fp h s t st lp xs = Ok (st', l) /\ GS (st_em st').
  Proof.
    intros Hh Hs Ht. induction 1 as [|x xs [Hx Hok] _ IH]; intros st lp HS; cbn [estep_loop].
    - do 2 eexists. split; [reflexivity|exact HS].
    - destruct (estep_seq_total h s t st x Hh Hs Ht HS Hx Hok) as (st' & l & -> & HG). cbn [bind].
      apply IH. exact HG.
  Qed.

  Lemma em_step_total ls x h : shaped h -> good_data ok ls x ->
    exists h' v, em_step E fp x (as_lengths ls) h = Ok (h', v) /\ shaped h'.
  Proof.
    intros Hh Hd. pose proof Hh as (Hc & Hn & HP & (s & Hs & Hls) & t & Ht & Hr & Hcl).
    destruct (good_data_chunks ok ls x Hd) as (_ & Hsp & Hch).
    unfold em_step, do_estep. rewrite Hs, Ht, Hc, Himpl. cbn [String.eqb Ascii.eqb Bool.eqb orb].
    rewrite Hsp. cbn [bind].
    destruct (estep_loop_total h s t _ Hh Hs Ht Hch (stats0 E fp h) (Fin 0)) as (st' & l & -> & HG).
    { cbn. rewrite Hc, Hn. apply (to_stats0 _ _ _ _ _ _ _ T). exact HP. }
    cbn [bind]. unfold do_mstep. rewrite Hc, Hn.
    destruct (to_mstep _ _ _ _ _ _ _ T (h_em h) (st_em st') HP HG) as (p' & -> & HP'). cbn [bind].
    do 2 eexists. split; [reflexivity|].
    split; [reflexivity|]. split; [reflexivity|]. split; [exact HP'|]. cbn [h_start h_trans]. split; eexists; (split; [reflexivity|]).
    - unfold mstep_start. rewrite Hc. destruct (has "s" _); [|exact Hls]. unfold normalize1. now rewrite map_length, tab_length.
    - unfold mstep_trans. rewrite Hc. destruct (has "t" _); [|split; assumption].
      unfold normalize_rows, nrow. cbn [rows ncol mtab]. rewrite map_length, tab_length. split; reflexivity.
  Qed.

  Lemma fit_loop_total ls x zr fuel : good_data ok ls x -> forall h m, shaped h ->
    exists h' m' ev, fit_loop fp (em_step E fp x (as_lengths ls)) zr fuel h m = Ok (h', m', ev) /\ shaped h'.
  Proof.
    intros Hd. induction fuel as [|k IH]; intros h m Hh; cbn [fit_loop].
    - do 3 eexists. split; [reflexivity|exact Hh].
    - destruct (em_step_total ls x h Hh Hd) as (h' & v & -> & Hh'). cbn [bind].
      destruct (monitor_report fp m v) as [m' ev]. destruct (converged fp m').
      + do 3 eexists. split; [reflexivity|exact Hh'].
      + destruct (IH h' m' Hh') as (h2 & m2 & ev2 & -> & H2). cbn [bind]. do 3 eexists. split; [reflexivity|exact H2].
  Qed.

  Theorem fit_from_total ls x h h1 : check E fp h = Ok h1 -> shaped h1 -> good_data ok ls x ->
    exists h' ev, fit_from E fp h x (as_lengths ls) = Ok (h', ev) /\ h_cfg h' = c /\ h_nfeat h' = nf /\ GP (h_em h').
  Proof.
    intros Hk Hh Hd. unfold fit_from. rewrite Hk. cbn [bind as_lengths].
    change (Some (map Z.of_nat ls)) with (as_lengths ls).
    destruct (fit_loop_total ls x (zero_rows fp) (c_n_iter (h_cfg h1)) Hd h1 (monitor_reset (h_mon h1)) Hh)
      as (h2 & m2 & ev2 & -> & H2 & H3 & H4 & _). cbn [bind].
    do 2 eexists. split; [reflexivity|]. repeat split; assumption.
  Qed.

  (** [lengths=None] is one sequence. *)
  Theorem fit_from_total_None x h h1 : check E fp h = Ok h1 -> shaped h1 -> x <> [] -> Forall ok x ->
    exists h' ev, fit_from E fp h x None = Ok (h', ev) /\ h_cfg h' = c /\ h_nfeat h' = nf /\ GP (h_em h').
  Proof.
    intros Hk Hh Hx Hok. apply (fit_from_total [length x] x h h1 Hk Hh). split; [exact Hok|].
    split; [discriminate|]. split; [constructor; [destruct x; [contradiction|cbn; lia]|constructor]|cbn; lia].
  Qed.
End Total.

(** ** The classes. *)
Section CatTotal.
  Variables (fp : fpmode) (c : cfg) (nf : nat).
  Definition cat_shaped (p : catp) : Prop := exists m, cat_prob p = Some m /\ nrow m = c_nc c /\ ncol m = nf.
  Definition in_range (k : Z) : Prop := (0 <= k < Z.of_nat nf)%Z.

  Lemma map_res_index x : Forall in_range x -> map_res (np_index nf) x = Ok (map Z.to_nat x).
  Proof.
    induction 1 as [|k x [H1 H2] _ IH]; [reflexivity|]. cbn [map_res map]. unfold np_index at 1.
    destruct (Z.leb_spec 0 k); [|lia]. destruct (Z.ltb_spec k (Z.of_nat nf)); [|lia]. cbn [andb bind]. rewrite IH. reflexivity.
  Qed.

  Lemma cat_total : total categorical fp c (Some nf) in_range cat_shaped (fun st => nrow st = c_nc c /\ ncol st = nf).
  Proof.
    split.
    - intros p x (m & Hm & H1 & H2) _ Hok. cbn. unfold loglik_of_lik, cat_lik. rewrite Hm, H2, map_res_index by exact Hok.
      cbn [bind]. eexists. split; [reflexivity|]. unfold mmap, nrow. cbn [rows ncol]. rewrite !map_length. split; [reflexivity|exact H1].
    - intros p _. cbn. unfold cat_stats0, nrow. cbn. rewrite tab_length. split; reflexivity.
    - intros p st x post _ [H1 H2] _ Hok _ _. cbn. unfold cat_acc. destruct (has "e" _); [|eexists; split; [reflexivity|split; assumption]].
      rewrite H2, map_res_index by exact Hok. cbn [bind]. eexists. split; [reflexivity|].
      unfold nrow at 1. cbn. rewrite tab_length. split; [exact H1|reflexivity].
    - intros p st HP [H1 H2]. cbn. unfold cat_mstep. destruct (has "e" _); [|eexists; split; [reflexivity|exact HP]].
      eexists. split; [reflexivity|]. eexists. split; [reflexivity|].
      unfold normalize_rows, nrow at 1. cbn. rewrite map_length, tab_length. split; assumption.
  Qed.
End CatTotal.

Section MultTotal.
  Variables (fp : fpmode) (c : cfg) (nf : nat).
  Definition mult_shaped (p : mulp) : Prop := exists m, mu_prob p = Some m /\ nrow m = c_nc c /\ ncol m = nf.

  Lemma width_zrow x : width (map zrow x) = width x.
  Proof. destruct x; [reflexivity|]. cbn. unfold zrow. now rewrite map_length. Qed.
  Lemma width_ok {A} (x : list (list A)) : x <> [] -> Forall (fun r => length r = nf) x -> width x = nf.
  Proof. destruct x; [contradiction|]. intros _ H. inversion H; assumption. Qed.

  Lemma mult_total : total multinomial fp c (Some nf) (fun r => length r = nf) mult_shaped
    (fun st => nrow st = c_nc c /\ ncol st = nf).
  Proof.
    split.
    - intros p x (m & Hm & H1 & H2) Hx Hok. cbn. unfold mult_loglik. rewrite Hm.
      pose proof (width_ok x Hx Hok) as Hw. destruct x as [|r x]; [contradiction|]. rewrite Hw, H2, Nat.eqb_refl.
      eexists. split; [reflexivity|]. unfold nrow. cbn [rows ncol]. rewrite map_length. split; reflexivity.
    - intros p _. cbn. unfold mult_stats0, nrow. cbn. rewrite tab_length. split; reflexivity.
    - intros p st x post _ [H1 H2] Hx Hok Hp1 Hp2. cbn. unfold mult_acc.
      destruct (has "e" _); [|eexists; split; [reflexivity|split; assumption]].
      unfold iadd, matT_mul. cbn [ncol mtab]. rewrite width_zrow, (width_ok x Hx Hok), H2, Nat.eqb_refl.
      eexists. split; [reflexivity|]. unfold mzip, nrow at 1. cbn. rewrite tab_length. split; assumption.
    - intros p st HP [H1 H2]. cbn. unfold mult_mstep. destruct (has "e" _); [|eexists; split; [reflexivity|exact HP]].
      eexists. split; [reflexivity|]. eexists. split; [reflexivity|]. unfold nrow at 1. cbn. rewrite tab_length. split; assumption.
  Qed.
End MultTotal.
