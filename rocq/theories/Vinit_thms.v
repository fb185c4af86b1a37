(** * Property lemmas C21, C22 for the variational classes. *)
From Verif Require Export Init_thms Vcat_ex Vg_ex Spec_vinit.

(** ** C21: training changes only what [params] names. *)
Lemma vfit_loop_keeps {O} fp (step : O -> res (O * xnum)) zr (Rl : O -> O -> Prop) fuel :
  (forall o, Rl o o) -> (forall a b c, Rl a b -> Rl b c -> Rl a c) ->
  (forall o o' l, step o = Ok (o', l) -> Rl o o') ->
  forall o m o' m' ev, vfit_loop fp step zr fuel o m = Ok (o', m', ev) -> Rl o o'.
Proof.
  intros Hr Ht Hs. induction fuel as [|fuel IH]; intros o m o' m' ev H; cbn [vfit_loop] in H; [injection H as <- <- <-; apply Hr|].
  apply bind_inv in H as ([o1 l] & H1 & H). destruct (monitor_report fp m l) as [m1 ev1].
  destruct (converged fp m1); [injection H as <- <- <-; apply (Hs _ _ _ H1)|].
  apply bind_inv in H as (z & _ & H). apply bind_inv in H as ([[o2 m2] ev2] & H2 & H). injection H as <- <- <-.
  apply (Ht _ o1); [apply (Hs _ _ _ H1)|apply (IH _ _ _ _ _ H2)].
Qed.

Section Keeps.
  Context {P X St : Type}.
  Variables (V : vclass P X St) (fp : fpmode).
  (** What one iteration and [_check] leave alone of the emission attributes. *)
  Variable Q : string -> P -> P -> Prop.
  Hypothesis Qr : forall ps p, Q ps p p.
  Hypothesis Qt : forall ps a b c, Q ps a b -> Q ps b c -> Q ps a c.
  Hypothesis Qc : forall c nf p nf' p', ec_check (vc_em V) fp c nf p = Ok (nf', p') -> Q (c_params c) p p'.
  Hypothesis Qb : forall c nf p p', vc_begin V fp c nf p = Ok p' -> Q (c_params c) p p'.
  Hypothesis Qm : forall c nf p st p', ec_mstep (vc_em V) fp c nf p st = Ok p' -> Q (c_params c) p p'.

  Definition vkeeps (v v' : vhmm P) : Prop :=
    let ps := c_params (v_cfg v) in
    v_cfg v' = v_cfg v /\ v_sarg v' = v_sarg v /\ v_targ v' = v_targ v /\ v_sprior v' = v_sprior v /\ v_tprior v' = v_tprior v
    /\ (has "s" ps = false -> v_spost v' = v_spost v /\ h_start (v_h v') = h_start (v_h v))
    /\ (has "t" ps = false -> v_tpost v' = v_tpost v /\ h_trans (v_h v') = h_trans (v_h v))
    /\ Q ps (h_em (v_h v)) (h_em (v_h v')).
  Lemma vkeeps_trans a b c : vkeeps a b -> vkeeps b c -> vkeeps a c.
  Proof.
    intros (A1 & A2 & A3 & A4 & A5 & A6 & A7 & A8) (B1 & B2 & B3 & B4 & B5 & B6 & B7 & B8). rewrite A1 in *.
    split; [congruence|]. split; [congruence|]. split; [congruence|]. split; [congruence|]. split; [congruence|].
    split; [intros H; destruct (A6 H), (B6 H); split; congruence|]. split; [intros H; destruct (A7 H), (B7 H); split; congruence|].
    apply (Qt _ _ _ _ A8 B8).
  Qed.
  Lemma vb_step_keeps x ls v v' l : vb_step V fp x ls v = Ok (v', l) -> vkeeps v v'.
  Proof.
    unfold vb_step. intros H. apply bind_inv in H as ([[v1 st] lp] & H1 & H). apply bind_inv in H as (lb & _ & H).
    apply bind_inv in H as (v2 & H2 & H). assert (v2 = v') as -> by congruence. clear H.
    apply (vkeeps_trans _ v1).
    - unfold vestep in H1. apply bind_inv in H1 as (sq & _ & H1). apply bind_inv in H1 as (tq & _ & H1).
      apply bind_inv in H1 as (p & Hb & H1). apply bind_inv in H1 as ([st' lp'] & _ & H1).
      assert (with_h v (set_em (v_h v) (h_nfeat (v_h v)) p) = v1) as <- by congruence.
      repeat (split; [reflexivity|]). split; [split; reflexivity|]. split; [split; reflexivity|]. apply (Qb _ _ _ _ Hb).
    - unfold vmstep in H2. apply bind_inv in H2 as ([sq s] & Hs & H2). apply bind_inv in H2 as ([tq t] & Ht & H2).
      apply bind_inv in H2 as (p & Hm & H2).
      match type of H2 with Ok ?a = _ => assert (a = v') as <- by congruence end. clear H2.
      repeat (split; [reflexivity|]). cbn [v_cfg v_h h_cfg v_spost h_start v_tpost h_trans h_em]. split; [|split; [|apply (Qm _ _ _ _ _ Hm)]].
      + intros E. rewrite E in Hs. injection Hs as <- <-. split; reflexivity.
      + intros E. rewrite E in Ht. injection Ht as <- <-. split; reflexivity.
  Qed.
  Lemma vfit_from_keeps v x ls v' ev : vfit_from V fp v x ls = Ok (v', ev) -> vkeeps v v'.
  Proof.
    unfold vfit_from. intros H. apply bind_inv in H as (v1 & H1 & H). apply bind_inv in H as ([[v2 m] ev2] & H2 & H).
    match type of H with Ok (?a, _) = _ => assert (a = v') as <- by congruence end. clear H.
    apply (vkeeps_trans _ v1).
    - unfold vcheck in H1. apply bind_inv in H1 as ([] & _ & H1). apply bind_inv in H1 as ([nf p] & Hc & H1).
      match type of H1 with Ok ?a = _ => assert (a = v1) as <- by congruence end.
      repeat (split; [reflexivity|]). split; [split; reflexivity|]. split; [split; reflexivity|]. apply (Qc _ _ _ _ _ Hc).
    - apply (vkeeps_trans _ v2).
      + apply (vfit_loop_keeps fp _ _ vkeeps _) with (4 := H2).
        * intros o. repeat (split; [reflexivity|]). split; [split; reflexivity|]. split; [split; reflexivity|]. apply Qr.
        * intros a b c. apply vkeeps_trans.
        * intros o o' l. apply vb_step_keeps.
      + repeat (split; [reflexivity|]). split; [split; reflexivity|]. split; [split; reflexivity|]. apply Qr.
  Qed.
End Keeps.

(** Every variational class, any rounding. *)
Lemma C21_variational_l {P X St} (V : vclass P X St) fp v x ls v' ev :
  vfit_from V fp v x ls = Ok (v', ev) ->
  let ps := c_params (v_cfg v) in
  v_cfg v' = v_cfg v /\ v_sprior v' = v_sprior v /\ v_tprior v' = v_tprior v
  /\ (has "s" ps = false -> v_spost v' = v_spost v /\ h_start (v_h v') = h_start (v_h v))
  /\ (has "t" ps = false -> v_tpost v' = v_tpost v /\ h_trans (v_h v') = h_trans (v_h v)).
Proof.
  intros H. destruct (vfit_from_keeps V fp (fun _ _ _ => True)) with (6 := H) as (A1 & _ & _ & A2 & A3 & A4 & A5 & _); auto 10.
Qed.

Lemma C21_vcategorical_l fp v x ls v' ev :
  vfit_from vcategorical fp v x ls = Ok (v', ev) ->
  let p := h_em (v_h v) in let p' := h_em (v_h v') in
  vk_arg p' = vk_arg p /\ vk_prior p' = vk_prior p
  /\ (has "e" (c_params (v_cfg v)) = false -> vk_post p' = vk_post p /\ vk_prob p' = vk_prob p).
Proof.
  intros H. destruct (vfit_from_keeps vcategorical fp (fun ps p p' => vk_arg p' = vk_arg p /\ vk_prior p' = vk_prior p
    /\ (has "e" ps = false -> vk_post p' = vk_post p /\ vk_prob p' = vk_prob p))) with (6 := H) as (_ & _ & _ & _ & _ & _ & _ & A); [| | | | |exact A].
  - intros; auto.
  - intros ps a b c (A1 & A2 & A3) (B1 & B2 & B3). split; [congruence|]. split; [congruence|].
    intros E. destruct (A3 E), (B3 E). split; congruence.
  - intros c nf p nf' p' E. cbn [vcategorical vc_em ec_check] in E. unfold vcat_check in E.
    apply bind_inv in E as (pr & _ & E). apply bind_inv in E as (po & _ & E).
    destruct (negb _); [discriminate|]. destruct (negb _); [discriminate|]. assert (p' = p) as -> by congruence. auto.
  - intros c nf p p' E. cbn [vcategorical vc_begin] in E. unfold vcat_begin in E. apply bind_inv in E as (po & _ & E).
    injection E as <-. cbn. auto.
  - intros c nf p st p' E. cbn [vcategorical vc_em ec_mstep] in E. unfold vcat_mstep in E. destruct (has "e" (c_params c)).
    + apply bind_inv in E as (pr & _ & E). injection E as <-. cbn. split; [reflexivity|]. split; [reflexivity|]. discriminate.
    + injection E as <-. auto.
Qed.

Lemma C21_vgaussian_l la fp v x ls v' ev :
  vfit_from (vgaussian la) fp v x ls = Ok (v', ev) ->
  let p := h_em (v_h v) in let p' := h_em (v_h v') in let ps := c_params (v_cfg v) in
  vg_type p' = vg_type p /\ vg_m0 p' = vg_m0 p /\ vg_b0 p' = vg_b0 p /\ vg_d0 p' = vg_d0 p /\ vg_s0 p' = vg_s0 p
  /\ (has "m" ps = false -> vg_m p' = vg_m p /\ vg_b p' = vg_b p)
  /\ (has "c" ps = false -> vg_d p' = vg_d p /\ vg_s p' = vg_s p /\ vg_cov p' = vg_cov p).
Proof.
  intros H. destruct (vfit_from_keeps (vgaussian la) fp (fun ps p p' =>
    vg_type p' = vg_type p /\ vg_m0 p' = vg_m0 p /\ vg_b0 p' = vg_b0 p /\ vg_d0 p' = vg_d0 p /\ vg_s0 p' = vg_s0 p
    /\ (has "m" ps = false -> vg_m p' = vg_m p /\ vg_b p' = vg_b p)
    /\ (has "c" ps = false -> vg_d p' = vg_d p /\ vg_s p' = vg_s p /\ vg_cov p' = vg_cov p))) with (6 := H) as (_ & _ & _ & _ & _ & _ & _ & A); [| | | | |exact A].
  - intros; auto 10.
  - intros ps a b c (A1 & A2 & A3 & A4 & A5 & A6 & A7) (B1 & B2 & B3 & B4 & B5 & B6 & B7).
    repeat (split; [congruence|]). split; intros E.
    + destruct (A6 E), (B6 E). split; congruence.
    + destruct (A7 E) as (? & ? & ?), (B7 E) as (? & ? & ?). repeat split; congruence.
  - intros c nf p nf' p' E. cbn [vgaussian vc_em ec_check] in E. unfold vg_check in E.
    repeat (apply bind_inv in E as (? & _ & E)). assert (p' = p) as -> by congruence. auto 10.
  - intros c nf p p' E. cbn [vgaussian vc_begin] in E. injection E as <-. auto 10.
  - intros c nf p st p' E. cbn [vgaussian vc_em ec_mstep] in E. unfold vg_mstep in E.
    apply bind_inv in E as ([b m] & E1 & E). apply bind_inv in E as ([[d s] cv] & E2 & E).
    injection E as <-. cbn [vg_type vg_m0 vg_b0 vg_d0 vg_s0 vg_m vg_b vg_d vg_s vg_cov]. repeat (split; [reflexivity|]). split; intros E.
    + rewrite E in E1. injection E1 as <- <-. split; reflexivity.
    + rewrite E in E2. cbn [andb] in E2. injection E2 as <- <- <-. repeat split; reflexivity.
Qed.

(** ** C22: what [_init] overwrites. *)
Lemma needs_init2_spec c code a sa b sb n ev : needs_init2 c code a sa b sb = (n, ev) ->
  n = has code (c_init_params c) || negb (sa && sb) /\ ev = overwrites a (has code (c_init_params c)) sa.
Proof.
  unfold needs_init2, needs_init, overwrites. destruct (has _ _), sa, sb; cbn; intros H; injection H as <- <-; auto.
Qed.
Lemma kept2 {A B} letter (a a' : option A) (b b' : option B) D :
  (letter || negb (isSome b && isSome a) = true -> exists u w, a' = Some u /\ b' = Some w /\ D u w) ->
  (letter || negb (isSome b && isSome a) = false -> a' = a /\ b' = b) -> kept_or_fresh2 letter a a' b b' D.
Proof. intros H1 H2. unfold kept_or_fresh2. destruct a, b, letter; cbn in *; auto. Qed.

Lemma full1_fills n arg p : full1 n arg = Ok p -> fills1 n arg p.
Proof.
  unfold full1, fills1. destruct arg as [a|v|m].
  - intros E. injection E as <-. split; [apply tab_length|]. intros i Hi. apply vget_tab. exact Hi.
  - destruct (Nat.eqb_spec (length v) n) as [Hv|Hv].
    { intros E. injection E as <-. split; [exact Hv|]. left. split; [exact Hv|reflexivity]. }
    destruct (Nat.eqb_spec (length v) 1) as [H1|H1]; [|discriminate]. intros E. injection E as <-.
    split; [apply tab_length|]. right. split; [exact H1|]. intros i Hi. rewrite vget_tab by exact Hi. reflexivity.
  - destruct (Nat.eqb_spec (nrow m) 1) as [Hr|Hr]; [|discriminate].
    destruct (Nat.eqb_spec (ncol m) n) as [Hc|Hc]; cbn [andb orb].
    { intros E. injection E as <-. split; [apply tab_length|]. split; [exact Hr|]. left. split; [exact Hc|].
      intros i Hi. rewrite vget_tab by exact Hi. reflexivity. }
    destruct (Nat.eqb_spec (ncol m) 1) as [H1|H1]; [|discriminate]. intros E. injection E as <-.
    split; [apply tab_length|]. split; [exact Hr|]. right. split; [exact H1|].
    intros i Hi. rewrite vget_tab by exact Hi. reflexivity.
Qed.
Lemma axis_pick l n k : (Nat.eqb l n || Nat.eqb l 1)%bool = true -> axis l n k (if Nat.eqb l n then k else 0%nat).
Proof.
  unfold axis. destruct (Nat.eqb_spec l n); [left; auto|]. destruct (Nat.eqb_spec l 1); [right; auto|discriminate].
Qed.
Lemma full2_fills r c arg p : full2 r c arg = Ok p -> fills2 r c arg p.
Proof.
  unfold full2, fills2. destruct arg as [a|v|m].
  - intros E. injection E as <-. split; [apply nrow_mtab|]. split; [apply ncol_mtab|]. intros i j Hi Hj. apply mget_mtab; assumption.
  - destruct (Nat.eqb (length v) c || Nat.eqb (length v) 1)%bool eqn:B; [|discriminate]. intros E. injection E as <-.
    split; [apply nrow_mtab|]. split; [apply ncol_mtab|]. intros i j Hi Hj.
    exists (if Nat.eqb (length v) c then j else 0%nat). split; [apply axis_pick; exact B|]. rewrite mget_mtab by assumption. reflexivity.
  - destruct ((Nat.eqb (nrow m) r || Nat.eqb (nrow m) 1) && (Nat.eqb (ncol m) c || Nat.eqb (ncol m) 1))%bool eqn:B; [|discriminate].
    apply andb_true_iff in B as [B1 B2]. intros E. injection E as <-.
    split; [apply nrow_mtab|]. split; [apply ncol_mtab|]. intros i j Hi Hj.
    exists (if Nat.eqb (nrow m) r then i else 0%nat), (if Nat.eqb (ncol m) c then j else 0%nat).
    split; [apply axis_pick; exact B1|]. split; [apply axis_pick; exact B2|]. rewrite mget_mtab by assumption. reflexivity.
Qed.
Section VInitInv.
  Context {P X St G : Type} (V : vclass P X St) (I : vinitclass P X G) (rg : rng G) (fp : fpmode).
  Lemma vbase_init_inv e glob x ls e' glob' ev : vbase_init I rg fp e glob x ls = Ok (e', glob', ev) ->
    let v := ve_v e in let v' := ve_v e' in let c := v_cfg v in
    v_cfg v' = c /\ v_sarg v' = v_sarg v /\ v_targ v' = v_targ v
    /\ vi_nfeat I c (h_nfeat (v_h v)) (h_em (v_h v)) x = Ok (h_nfeat (v_h v'), h_em (v_h v'))
    /\ kept_or_fresh2 (has "s" (c_init_params c)) (v_sprior v) (v_sprior v') (v_spost v) (v_spost v') (fresh_start rg fp (c_nc c) (v_sarg v) ls)
    /\ kept_or_fresh2 (has "t" (c_init_params c)) (v_tprior v) (v_tprior v') (v_tpost v) (v_tpost v') (fresh_trans rg fp (c_nc c) (v_targ v) ls)
    /\ exists b : bool, ev = overwrites "startprob_posterior_" (has "s" (c_init_params c)) (isSome (v_spost v))
            ++ overwrites "transmat_posterior_" (has "t" (c_init_params c)) (isSome (v_tpost v)) ++ (if b then [WDegenerate] else []).
  Proof.
    intros H. cbv zeta. unfold vbase_init in H. fold (v_cfg (ve_v e)) in H.
    apply bind_inv in H as ([nf p] & Hnf & H).
    destruct (Nat.eqb_spec (c_nc (v_cfg (ve_v e))) 0) as [|Hnc]; [discriminate|].
    apply bind_inv in H as (g & Hg & H).
    destruct (needs_init2 _ "s" _ _ _ _) as [ns ev1] eqn:Es.
    apply bind_inv in H as ([[sp sq] g1] & Hs & H).
    destruct (needs_init2 _ "t" _ _ _ _) as [nt ev2] eqn:Et.
    apply bind_inv in H as ([[tp tq] g2] & Ht & H).
    destruct (rs_put (ve_rs e) glob g2) as [rs glob2] eqn:Ep.
    apply bind_inv in H as (d & Hd & H). apply bind_inv in H as (n & Hn & H).
    injection H as <- <- <-. cbn [ve_v v_h v_cfg h_cfg v_sarg v_targ h_nfeat h_em v_sprior v_spost v_tprior v_tpost].
    apply needs_init2_spec in Es as [Hns ->]. apply needs_init2_spec in Et as [Hnt ->].
    split; [reflexivity|]. split; [reflexivity|]. split; [reflexivity|]. split; [exact Hnf|]. split; [|split].
    - apply kept2; rewrite <- Hns; intros ->.
      + apply bind_inv in Hs as (sp' & Hf & Hs). apply bind_inv in Hs as ([d' g'] & Hv & Hs). injection Hs as <- <- <-.
        do 2 eexists. split; [reflexivity|]. split; [reflexivity|]. split; [apply full1_fills; exact Hf|]. exists d'. split; [exists g, g'; exact Hv|reflexivity].
      + injection Hs as <- <- <-. split; reflexivity.
    - apply kept2; rewrite <- Hnt; intros ->.
      + apply bind_inv in Ht as (tp' & Hf & Ht). apply bind_inv in Ht as ([l g'] & Hl & Ht). injection Ht as <- <- <-.
        do 2 eexists. split; [reflexivity|]. split; [reflexivity|]. split; [apply full2_fills; exact Hf|].
        exists (Mat (c_nc (v_cfg (ve_v e))) l). split; [|reflexivity]. split; [reflexivity|].
        split; [apply (draws_length _ _ _ _ _ Hl)|]. cbn [rows].
        eapply (draws_Forall _ (dirichlet_draw rg fp (c_nc (v_cfg (ve_v e))))) with (2 := Hl).
        intros a b c0 Hab. exists a, c0. exact Hab.
      + injection Ht as <- <- <-. split; reflexivity.
    - eexists. reflexivity.
  Qed.

  Lemma vinit_inv e glob x ls e' glob' ev : vinit I rg fp e glob x ls = Ok (e', glob', ev) ->
    exists e1 glob1 ev1 p rs ev2, vbase_init I rg fp e glob x ls = Ok (e1, glob1, ev1)
      /\ vi_em I fp rg (v_cfg (ve_v e)) (h_nfeat (v_h (ve_v e1))) (h_em (v_h (ve_v e1))) x ls (ve_rs e1) glob1 = Ok (p, rs, glob', ev2)
      /\ ve_v e' = with_h (ve_v e1) (set_em (v_h (ve_v e1)) (h_nfeat (v_h (ve_v e1))) p) /\ ev = ev1 ++ ev2.
  Proof.
    unfold vinit. intros H. apply bind_inv in H as ([[e1 glob1] ev1] & H1 & H).
    apply bind_inv in H as ([[[p rs] glob2] ev2] & H2 & H).
    pose proof (proj1 (vbase_init_inv _ _ _ _ _ _ _ H1)) as Hc. unfold v_cfg in Hc. rewrite Hc in H2.
    exists e1, glob1, ev1, p, rs, ev2. injection H as <- <- <-. repeat split; assumption.
  Qed.

  (** Training logs no such warning. *)
  Lemma vfit_loop_events {O} (step : O -> res (O * xnum)) zr fuel : forall o m o' m' ev,
    vfit_loop fp step zr fuel o m = Ok (o', m', ev) -> Forall not_overwrite ev.
  Proof.
    intros o m o' m' ev H. apply (fit_loop_events fp step (fun o => zrows (zr o)) fuel o m o' m' ev).
    apply (vfit_loop_fit fp step zr); [|exact H]. intros a b E. rewrite E. reflexivity.
  Qed.
  Lemma vfit_inv e glob x ls e' glob' ev : vfit V I rg fp e glob x ls = Ok (e', glob', ev) ->
    exists e1 ev1 ev2, vinit I rg fp e glob x (match ls with None => [Z.of_nat (length x)] | Some l => l end) = Ok (e1, glob', ev1)
      /\ Forall not_overwrite ev2 /\ ev = ev1 ++ ev2.
  Proof.
    unfold vfit. intros H. apply bind_inv in H as (x' & Hx & H).
    assert (x' = x) as ->.
    { unfold check_array in Hx. destruct x; [discriminate|]. destruct (forallb _ _); [|discriminate]. now injection Hx. }
    apply bind_inv in H as ([[e1 glob1] ev1] & H1 & H). apply bind_inv in H as ([v2 ev2] & H2 & H). injection H as <- <- <-.
    exists e1, ev1, ev2. split; [exact H1|]. split; [|reflexivity].
    unfold vfit_from in H2. apply bind_inv in H2 as (v1 & _ & H2). apply bind_inv in H2 as ([[v3 m] ev3] & H3 & H2).
    injection H2 as _ <-. apply (vfit_loop_events _ _ _ _ _ _ _ _ H3).
  Qed.
End VInitInv.
Lemma not_in_ov name l : Forall not_overwrite l -> ~ In (WOverwrite name) l.
Proof. intros H Hin. rewrite Forall_forall in H. apply (H _ Hin). Qed.

(** Attributes of the base class and warnings, for any class. *)
Section VInitWarn.
  Context {P X St G : Type} (V : vclass P X St) (I : vinitclass P X G) (rg : rng G) (fp : fpmode).
  Lemma vfit_warnings e glob x ls e' glob' ev : vfit V I rg fp e glob x ls = Ok (e', glob', ev) ->
    exists nf p nf1 p1 rs g1 p' rs' g2 ev2, vi_nfeat I (v_cfg (ve_v e)) nf p x = Ok (nf1, p1) /\ nf = h_nfeat (v_h (ve_v e)) /\ p = h_em (v_h (ve_v e))
      /\ vi_em I fp rg (v_cfg (ve_v e)) nf1 p1 x (match ls with None => [Z.of_nat (length x)] | Some l => l end) rs g1 = Ok (p', rs', g2, ev2)
      /\ forall name, In (WOverwrite name) ev <->
           (name = "startprob_posterior_"%string /\ has "s" (c_init_params (v_cfg (ve_v e))) = true /\ is_set (v_spost (ve_v e)))
           \/ (name = "transmat_posterior_"%string /\ has "t" (c_init_params (v_cfg (ve_v e))) = true /\ is_set (v_tpost (ve_v e)))
           \/ In (WOverwrite name) ev2.
  Proof.
    intros H. destruct (vfit_inv V I rg fp _ _ _ _ _ _ _ H) as (e1 & ev1 & ev2 & Hi & Hn & ->).
    destruct (vinit_inv I rg fp _ _ _ _ _ _ _ Hi) as (e2 & g2 & ev3 & p & rs & ev4 & Hb & Hem & _ & ->).
    destruct (vbase_init_inv I rg fp _ _ _ _ _ _ _ Hb) as (_ & _ & _ & Hnf & _ & _ & b & ->).
    do 10 eexists. split; [exact Hnf|]. split; [reflexivity|]. split; [reflexivity|]. split; [exact Hem|].
    intros name. rewrite !in_app_iff, !in_overwrites, !isSome_set.
    pose proof (not_in_ov name _ Hn). pose proof (in_degenerate name b). tauto.
  Qed.
End VInitWarn.

(** *** VariationalCategoricalHMM. *)
Lemma vcat_nfeat_inv c nf p x nf' p' : vcat_nfeat c nf p x = Ok (nf', p') -> p' = p.
Proof. unfold vcat_nfeat. intros H. apply bind_inv in H as ([a b] & _ & H). congruence. Qed.
Lemma vcat_em_inv {G} (rg : rng G) fp c nf p x ls rs glob p' rs' glob' ev :
  vcat_init_em fp rg c nf p x ls rs glob = Ok (p', rs', glob', ev) ->
  vk_arg p' = vk_arg p /\ vk_prob p' = vk_prob p
  /\ (has "e" (c_init_params c) = false -> vk_post p <> None -> p' = p)
  /\ (has "e" (c_init_params c) = true \/ vk_post p = None ->
      exists pr po, vk_prior p' = Some pr /\ vk_post p' = Some po
        /\ fresh_emis rg fp (c_nc c) (match nf with Some n => n | None => 0%nat end) (vk_arg p) ls pr po)
  /\ ev = overwrites "emissionprob_posterior_" (has "e" (c_init_params c)) (isSome (vk_post p)).
Proof.
  unfold vcat_init_em. intros H. apply bind_inv in H as (g & _ & H).
  destruct (needs_init _ "e" _ _) as [ne ev1] eqn:E. apply needs_init_spec in E as [Hne ->].
  destruct ne.
  - destruct (Nat.eqb_spec (match nf with Some n => n | None => 0%nat end) 0); [discriminate|].
    apply bind_inv in H as (pr & Hpr & H). apply bind_inv in H as (a0 & Ha & H). apply bind_inv in H as ([l g1] & Hl & H).
    destruct (rs_put rs glob g1). injection H as <- <- <- <-. cbn [vk_arg vk_prob vk_prior vk_post].
    split; [reflexivity|]. split; [reflexivity|]. split; [|split; [|reflexivity]].
    + intros E1 E2. rewrite E1 in Hne. cbn in Hne. destruct (vk_post p); [discriminate|contradiction E2; reflexivity].
    + intros _. do 2 eexists. split; [reflexivity|]. split; [reflexivity|]. split; [apply full2_fills; exact Hpr|].
      exists a0, l. fold (or_uniform fp (match nf with Some n => n | None => 0%nat end) (vk_arg p)) in Ha.
      split; [destruct (or_uniform fp _ _); congruence|]. split; [apply (draws_length _ _ _ _ _ Hl)|]. split; [|reflexivity].
      eapply (draws_Forall _ (fun d => exists g g', r_dirichlet rg (tab _ (fun _ => a0)) g = Ok (d, g'))) with (2 := Hl).
      intros a b c0 Hab. exists a, c0. exact Hab.
  - injection H as <- <- <- <-. split; [reflexivity|]. split; [reflexivity|]. split; [reflexivity|]. split; [|reflexivity].
    intros [E1|E1]; rewrite E1 in Hne; cbn in Hne; [discriminate|]. rewrite orb_true_r in Hne. discriminate.
Qed.

Lemma C22_vcategorical_partial_l {G} (rg : rng G) fp e glob x ls e' glob' ev :
  vinit vcat_initc rg fp e glob x ls = Ok (e', glob', ev) ->
  let v := ve_v e in let v' := ve_v e' in let c := v_cfg v in let nc := c_nc c in let ip := c_init_params c in
  let p := h_em (v_h v) in let p' := h_em (v_h v') in
  v_cfg v' = c
  /\ kept_or_fresh2 (has "s" ip) (v_sprior v) (v_sprior v') (v_spost v) (v_spost v') (fresh_start rg fp nc (v_sarg v) ls)
  /\ kept_or_fresh2 (has "t" ip) (v_tprior v) (v_tprior v') (v_tpost v) (v_tpost v') (fresh_trans rg fp nc (v_targ v) ls)
  /\ (has "e" ip = false -> vk_post p <> None -> p' = p)
  /\ (has "e" ip = true \/ vk_post p = None ->
      exists pr po, vk_prior p' = Some pr /\ vk_post p' = Some po
        /\ fresh_emis rg fp nc (match h_nfeat (v_h v') with Some n => n | None => 0%nat end) (vk_arg p) ls pr po).
Proof.
  intros H. cbv zeta. destruct (vinit_inv vcat_initc rg fp _ _ _ _ _ _ _ H) as (e1 & g1 & ev1 & p & rs & ev2 & Hb & Hem & Hv & _).
  destruct (vbase_init_inv vcat_initc rg fp _ _ _ _ _ _ _ Hb) as (B1 & _ & _ & Hnf & B2 & B3 & _).
  rewrite Hv. cbn [v_cfg with_h v_h set_em h_cfg v_sprior v_spost v_tprior v_tpost h_em h_nfeat].
  cbn [vi_nfeat vi_em vcat_initc] in Hnf, Hem. rewrite (vcat_nfeat_inv _ _ _ _ _ _ Hnf) in Hem.
  destruct (vcat_em_inv _ _ _ _ _ _ _ _ _ _ _ _ _ Hem) as (_ & _ & E1 & E2 & _). auto 10.
Qed.

Lemma C22_vcategorical_warnings_partial_l {G} (rg : rng G) fp e glob x ls e' glob' ev name :
  vfit vcategorical vcat_initc rg fp e glob x ls = Ok (e', glob', ev) ->
  let v := ve_v e in let ip := c_init_params (v_cfg v) in
  (In (WOverwrite name) ev <->
     (name = "startprob_posterior_"%string /\ has "s" ip = true /\ v_spost v <> None)
     \/ (name = "transmat_posterior_"%string /\ has "t" ip = true /\ v_tpost v <> None)
     \/ (name = "emissionprob_posterior_"%string /\ has "e" ip = true /\ vk_post (h_em (v_h v)) <> None)).
Proof.
  intros H. cbv zeta. destruct (vfit_warnings _ _ _ _ _ _ _ _ _ _ _ H) as (nf & p & nf1 & p1 & rs & g1 & p' & rs' & g2 & ev2 & Hn & -> & -> & Hem & Hw).
  cbn [vi_nfeat vi_em vcat_initc] in Hn, Hem. rewrite (vcat_nfeat_inv _ _ _ _ _ _ Hn) in Hem.
  destruct (vcat_em_inv _ _ _ _ _ _ _ _ _ _ _ _ _ Hem) as (_ & _ & _ & _ & ->).
  rewrite Hw, !in_overwrites, !isSome_set. reflexivity.
Qed.

(** *** VariationalGaussianHMM. *)
Lemma needs_any_spec c code a sa b sb d sd k sk n ev :
  needs_any c code [(a, sa); (b, sb); (d, sd); (k, sk)] = (n, ev) ->
  n = has code (c_init_params c) || negb (sa && sb && sd && sk) /\ ev = overwrites a (has code (c_init_params c)) sa.
Proof.
  cbn [needs_any]. unfold needs_init, overwrites. destruct (has _ _), sa, sb, sd, sk; cbn; intros H; injection H as <- <-; auto.
Qed.
Lemma kept4 {A B C E} letter (a a' : option A) (b b' : option B) (c c' : option C) (d d' : option E) D :
  (letter || negb (isSome a && isSome b && isSome c && isSome d) = true -> exists w x y z, a' = Some w /\ b' = Some x /\ c' = Some y /\ d' = Some z /\ D w x y z) ->
  (letter || negb (isSome a && isSome b && isSome c && isSome d) = false -> a' = a /\ b' = b /\ c' = c /\ d' = d) ->
  kept_or_fresh4 letter a a' b b' c c' d d' D.
Proof. intros H1 H2. unfold kept_or_fresh4. destruct a, b, c, d, letter; cbn in *; auto. Qed.
Lemma vg_nfeat_inv c nf p x nf' p' : vg_nfeat c nf p x = Ok (nf', p') -> p' = p.
Proof. unfold vg_nfeat. intros H. apply bind_inv in H as (a & _ & H). congruence. Qed.
Lemma vg_em_inv {G} (gr : grng G) (rg : rng G) fp c nfe p x ls rs glob p' rs' glob' ev :
  vg_init_em gr fp rg c nfe p x ls rs glob = Ok (p', rs', glob', ev) ->
  let ip := c_init_params c in let nf := match nfe with Some n => n | None => 0%nat end in
  vg_type p' = vg_type p
  /\ kept_or_fresh4 (has "m" ip) (vg_m0 p) (vg_m0 p') (vg_m p) (vg_m p') (vg_b0 p) (vg_b0 p') (vg_b p) (vg_b p') (fresh_means gr fp (c_nc c) nf p x)
  /\ kept_or_fresh4 (has "c" ip) (vg_d0 p) (vg_d0 p') (vg_d p) (vg_d p') (vg_s0 p) (vg_s0 p') (vg_s p) (vg_s p') (fresh_scales gr fp (c_nc c) nf p x)
  /\ ev = overwrites "means_prior_" (has "m" ip) (isSome (vg_m0 p)) ++ overwrites "dof_prior_" (has "c" ip) (isSome (vg_d0 p)).
Proof.
  cbv zeta. unfold vg_init_em. intros H. apply bind_inv in H as ([[[labels centers] rs1] glob1] & Hk & H).
  assert (HK : kmeans_result gr (c_nc c) x labels centers).
  { unfold kmeans in Hk. apply bind_inv in Hk as (g & _ & Hk). apply bind_inv in Hk as ([[l m] g'] & Hk1 & Hk).
    destruct (rs_put rs glob g'). exists g, g'. congruence. }
  clear Hk.
  destruct (needs_any c "m" _) as [nm ev1] eqn:Em. apply needs_any_spec in Em as [Hnm ->].
  destruct (if nm then _ else _) as [[[m0 m] b0] b] eqn:E1.
  destruct (needs_any c "c" _) as [ncv ev2] eqn:Ec. apply needs_any_spec in Ec as [Hnc ->].
  apply bind_inv in H as ([[[[d0 d] s0] s] cv] & E2 & H). injection H as <- <- <- <-.
  cbn [vg_type vg_m0 vg_m vg_b0 vg_b vg_d0 vg_d vg_s0 vg_s]. split; [reflexivity|]. split; [|split; [|reflexivity]].
  - apply kept4; rewrite <- Hnm; intros ->; injection E1 as <- <- <- <-.
    + do 4 eexists. repeat (split; [reflexivity|]). exists labels, centers. split; [exact HK|].
      unfold or_arg. repeat split; reflexivity.
    + repeat split; reflexivity.
  - apply kept4; rewrite <- Hnc; intros ->.
    + apply bind_inv in E2 as (cv' & _ & E2). apply bind_inv in E2 as (u & _ & E2). cbv zeta in E2. unfold fresh_scales.
      destruct (String.eqb (vg_type p) "tied").
      * apply bind_inv in E2 as (k & _ & E2). injection E2 as <- <- <- <- <-.
        do 4 eexists. repeat (split; [reflexivity|]). exists labels, centers. split; [exact HK|].
        unfold or_arg. repeat split; reflexivity.
      * apply bind_inv in E2 as (k & _ & E2). apply bind_inv in E2 as (s' & _ & E2). injection E2 as <- <- <- <- <-.
        do 4 eexists. repeat (split; [reflexivity|]). exists labels, centers. split; [exact HK|].
        unfold or_arg. repeat split; reflexivity.
    + injection E2 as <- <- <- <- <-. repeat split; reflexivity.
Qed.

Lemma C22_vgaussian_partial_l {G} (gr : grng G) (rg : rng G) fp e glob x ls e' glob' ev :
  vinit (vg_initc gr) rg fp e glob x ls = Ok (e', glob', ev) ->
  let v := ve_v e in let v' := ve_v e' in let c := v_cfg v in let nc := c_nc c in let ip := c_init_params c in
  let p := h_em (v_h v) in let p' := h_em (v_h v') in let nf := match h_nfeat (v_h v') with Some n => n | None => 0%nat end in
  v_cfg v' = c
  /\ kept_or_fresh2 (has "s" ip) (v_sprior v) (v_sprior v') (v_spost v) (v_spost v') (fresh_start rg fp nc (v_sarg v) ls)
  /\ kept_or_fresh2 (has "t" ip) (v_tprior v) (v_tprior v') (v_tpost v) (v_tpost v') (fresh_trans rg fp nc (v_targ v) ls)
  /\ kept_or_fresh4 (has "m" ip) (vg_m0 p) (vg_m0 p') (vg_m p) (vg_m p') (vg_b0 p) (vg_b0 p') (vg_b p) (vg_b p') (fresh_means gr fp nc nf p x)
  /\ kept_or_fresh4 (has "c" ip) (vg_d0 p) (vg_d0 p') (vg_d p) (vg_d p') (vg_s0 p) (vg_s0 p') (vg_s p) (vg_s p') (fresh_scales gr fp nc nf p x).
Proof.
  intros H. cbv zeta. destruct (vinit_inv (vg_initc gr) rg fp _ _ _ _ _ _ _ H) as (e1 & g1 & ev1 & p & rs & ev2 & Hb & Hem & Hv & _).
  destruct (vbase_init_inv (vg_initc gr) rg fp _ _ _ _ _ _ _ Hb) as (B1 & _ & _ & Hnf & B2 & B3 & _).
  rewrite Hv. cbn [v_cfg with_h v_h set_em h_cfg v_sprior v_spost v_tprior v_tpost h_em h_nfeat].
  cbn [vi_nfeat vi_em vg_initc] in Hnf, Hem. rewrite (vg_nfeat_inv _ _ _ _ _ _ Hnf) in Hem.
  destruct (vg_em_inv _ _ _ _ _ _ _ _ _ _ _ _ _ _ Hem) as (_ & E1 & E2 & _). auto 10.
Qed.

Lemma C22_vgaussian_warnings_partial_l {G} la (gr : grng G) (rg : rng G) fp e glob x ls e' glob' ev name :
  vfit (vgaussian la) (vg_initc gr) rg fp e glob x ls = Ok (e', glob', ev) ->
  let v := ve_v e in let ip := c_init_params (v_cfg v) in
  (In (WOverwrite name) ev <->
     (name = "startprob_posterior_"%string /\ has "s" ip = true /\ v_spost v <> None)
     \/ (name = "transmat_posterior_"%string /\ has "t" ip = true /\ v_tpost v <> None)
     \/ (name = "means_prior_"%string /\ has "m" ip = true /\ vg_m0 (h_em (v_h v)) <> None)
     \/ (name = "dof_prior_"%string /\ has "c" ip = true /\ vg_d0 (h_em (v_h v)) <> None)).
Proof.
  intros H. cbv zeta. destruct (vfit_warnings _ _ _ _ _ _ _ _ _ _ _ H) as (nf & p & nf1 & p1 & rs & g1 & p' & rs' & g2 & ev2 & Hn & -> & -> & Hem & Hw).
  cbn [vi_nfeat vi_em vg_initc] in Hn, Hem. rewrite (vg_nfeat_inv _ _ _ _ _ _ Hn) in Hem.
  destruct (vg_em_inv _ _ _ _ _ _ _ _ _ _ _ _ _ _ Hem) as (_ & _ & _ & ->).
  rewrite Hw, in_app_iff, !in_overwrites, !isSome_set. reflexivity.
Qed.

(** *** Refutations. *)
(** The prior given by the user, with the letter absent from [init_params], is
    replaced because the posterior is not set, and no warning is logged. *)
Definition preset_v (ip : string) (prior : vec) (post : option vec) : vhmm vcatp :=
  VHmm (Hmm (Cfg 2 "ste" ip "viterbi" "log" 3 (Fin (/ 100)) false (Scal (Fin 1)) (Scal (Fin 1))) None None None
          (Monitor (Fin (/ 100)) 3 false [] 0) (VCatp None None None None None))
    None None (Some prior) post None None.
Lemma C22_variational_refuted_l : exists (prior : vec) e x ls e' glob' ev,
  v_sprior (ve_v e) = Some prior /\ has "s" (c_init_params (v_cfg (ve_v e))) = false
  /\ vinit vcat_initc flat_rng exact e tt x ls = Ok (e', glob', ev)
  /\ v_sprior (ve_v e') <> Some prior /\ ev = [].
Proof.
  exists (fvec 2 (fun _ => 3)), (VEst (preset_v "te" (fvec 2 (fun _ => 3)) None) (RSSeed 0)),
    [0; 1; 1; 0; 1; 0; 1; 1; 0; 1]%Z, [5; 5]%Z.
  do 3 eexists. split; [reflexivity|]. split; [reflexivity|]. split; [reflexivity|]. split; [|reflexivity].
  cbn. intros H. injection H as H. unfold xdiv, exact in H.
  destruct (Req_EM_T (1 + 1) 0); [lra|]. injection H as H. lra.
Qed.

(** The warning for the prior is never logged, not even when it is replaced. *)
Lemma C22_variational_silent_refuted_l : exists (prior post : vec) e x ls e' glob' ev,
  v_sprior (ve_v e) = Some prior /\ v_spost (ve_v e) = Some post
  /\ vinit vcat_initc flat_rng exact e tt x ls = Ok (e', glob', ev)
  /\ v_sprior (ve_v e') <> Some prior /\ ev = [WOverwrite "startprob_posterior_"].
Proof.
  exists (fvec 2 (fun _ => 3)), (fvec 2 (fun _ => 4)), (VEst (preset_v "ste" (fvec 2 (fun _ => 3)) (Some (fvec 2 (fun _ => 4)))) (RSSeed 0)),
    [0; 1; 1; 0; 1; 0; 1; 1; 0; 1]%Z, [5; 5]%Z.
  do 3 eexists. split; [reflexivity|]. split; [reflexivity|]. split; [reflexivity|]. split; [|reflexivity].
  cbn. intros H. injection H as H. unfold xdiv, exact in H.
  destruct (Req_EM_T (1 + 1) 0); [lra|]. injection H as H. lra.
Qed.

(** Both set and the letter absent: both kept. *)
Lemma C22_variational_applies_l : exists e' glob' ev,
  vinit vcat_initc flat_rng exact (VEst (preset_v "te" (fvec 2 (fun _ => 3)) (Some (fvec 2 (fun _ => 4)))) (RSSeed 0)) tt
    [0; 1; 1; 0; 1; 0; 1; 1; 0; 1]%Z [5; 5]%Z = Ok (e', glob', ev)
  /\ v_sprior (ve_v e') = Some (fvec 2 (fun _ => 3)) /\ v_spost (ve_v e') = Some (fvec 2 (fun _ => 4)) /\ ev = [].
Proof. do 3 eexists. split; [reflexivity|]. repeat split. Qed.

(** Training with [params = "te"] returns and leaves startprob alone. *)
Lemma C21_variational_applies_l : exists v x ls v' ev, has "s" (c_params (v_cfg v)) = false
  /\ vfit_from vcategorical exact v x (map Z.of_nat ls) = Ok (v', ev) /\ v_spost v = Some (fvec 2 (d_s ex_vpo)) /\ v_spost v' = v_spost v.
Proof.
  exists (ex_v "te" 3), [0; 1; 1; 0; 1]%Z, [3%nat; 2%nat].
  destruct (C46_fit_returns_l (ex_v "te" 3) 2 2 ex_pr ex_vpo [3%nat; 2%nat] _ (ex_v_model _ _) ex_v_data) as ([v' ev] & H);
    [reflexivity|left; reflexivity|].
  exists v', ev. split; [reflexivity|]. split; [exact H|]. split; [reflexivity|].
  apply (C21_variational_l _ _ _ _ _ _ _ H). reflexivity.
Qed.
