(** * Property C76 for CategoricalHMM, PoissonHMM and MultinomialHMM. *)
From Verif Require Export Fresh_thms Alphabet_thms Poisson_thms Mult_thms.

(** Nothing set in the base class. *)
Definition base_fresh {P} (h : hmm P) : Prop := h_start h = None /\ h_trans h = None.
(** Gamma draws are positive numbers. *)
Definition pos_gamma {G} (rg : rng G) : Prop := forall a b g, 0 < a -> 0 < b ->
  exists u g', r_gamma rg (Fin a) (Fin b) g = Ok (Fin u, g') /\ 0 < u.
(** Uniform draws are positive. *)
Definition pos_rand {G} (rg : rng G) : Prop := forall g, 0 < fst (r_rand rg g).

Lemma pos_sane {G} (rg : rng G) : pos_dirichlet rg -> pos_rand rg -> sane_rng rg.
Proof.
  intros H1 H2. constructor; [|exact H2]. intros n a g Hn Ha. destruct (H1 n a g Hn Ha) as (f & g' & E & _ & Hs).
  exists (fvec n f), g'. split; [exact E|]. exists f. split; [reflexivity|]. apply Covars_thms.near1_1, Hs.
Qed.

Section Base.
  Context {P X St G : Type} (E : emclass P X St) (I : initclass P X G) (rg : rng G).
  Hypothesis Hrg : pos_dirichlet rg.

  Lemma base_init_pos e glob x nf p d n : let h := e_hmm e in let c := h_cfg h in let nc := c_nc c in
    base_fresh h -> valid_rs rg (e_rs e) -> (0 < nc)%nat ->
    ic_nfeat I c (h_nfeat h) (h_em h) x = Ok (nf, p) -> ic_nfit I c nf p = Ok d -> dict_sum d (c_params c) = Ok n ->
    exists rs glob1 ev pi A, base_init I rg exact e glob x = Ok (Est (Hmm c nf (Some (fvec nc pi)) (Some (fmat nc nc A)) (h_mon h) p) rs, glob1, ev)
      /\ valid_rs rg rs /\ pos1 nc pi /\ sumn nc pi = 1 /\ pos2 nc nc A /\ forall i, (i < nc)%nat -> sumn nc (A i) = 1.
  Proof.
    cbv zeta. intros [F1 F2] Hrs Hnc Hnf Hd Hn. destruct e as [h rs]. cbn [e_hmm e_rs] in *. set (c := h_cfg h) in *. set (nc := c_nc c) in *.
    assert (HI : 0 < INR nc) by (apply lt_0_INR; exact Hnc).
    assert (Hdir : forall g, exists f g', r_dirichlet rg (tab nc (fun _ => xdiv exact (Fin 1) (Fin (INR nc)))) g = Ok (fvec nc f, g') /\ pos1 nc f /\ sumn nc f = 1).
    { intros g. rewrite alpha_fvec. apply (Hrg nc (fun _ => 1 / INR nc) g Hnc). intros i _. apply Rdiv_lt_0_compat; lra. }
    unfold base_init. cbn [e_hmm e_rs]. fold c. rewrite Hnf. cbn [bind]. fold nc. destruct (Nat.eqb_spec nc 0); [lia|].
    destruct (rs_get_ok rg rs glob Hrs) as (g & ->). cbn [bind]. rewrite F1, F2. unfold needs_init. cbn [isSome].
    replace (if has "s" (c_init_params c) then (true, []) else (negb false, [])) with (true, @nil event) by (destruct (has "s" _); reflexivity).
    replace (if has "t" (c_init_params c) then (true, []) else (negb false, [])) with (true, @nil event) by (destruct (has "t" _); reflexivity).
    cbv iota. destruct (Hdir g) as (fs & g1 & -> & Ps & Ss). cbn [bind].
    destruct (draws_fmat _ nc _ Hdir nc g1) as (FT & g2 & -> & HT). cbn [bind].
    destruct (rs_put rs glob g2) as [rs1 glob2] eqn:Eput. rewrite Hd. cbn [bind]. rewrite Hn. cbn [bind].
    exists rs1, glob2. eexists _, fs, FT. split; [reflexivity|].
    split; [exact (rs_put_valid rg _ _ _ _ _ Hrs Eput)|]. split; [exact Ps|]. split; [exact Ss|].
    split; [intros i j Hi; apply HT; exact Hi|intros i Hi; apply HT; exact Hi].
  Qed.

  Lemma fit_split e glob x ls e1 glob1 ev1 h2 ev2 : x <> [] -> Forall (fun o => ec_xok E o = true) x ->
    init I rg exact e glob x = Ok (e1, glob1, ev1) -> fit_from E exact (e_hmm e1) x ls = Ok (h2, ev2) ->
    fit E I rg exact e glob x ls = Ok (Est h2 (e_rs e1), glob1, ev1 ++ ev2).
  Proof.
    clear Hrg. intros Hx Hok H1 H2. unfold fit, check_array. destruct x as [|o x]; [congruence|].
    replace (forallb (ec_xok E) (o :: x)) with true.
    - cbn [bind]. rewrite H1. cbn [bind]. rewrite H2. reflexivity.
    - symmetry. apply forallb_forall. rewrite Forall_forall in Hok. exact Hok.
  Qed.

  Lemma init_split e glob x e1 glob1 ev1 p rs glob2 ev2 : base_init I rg exact e glob x = Ok (e1, glob1, ev1) ->
    ic_em I exact rg (h_cfg (e_hmm e1)) (h_nfeat (e_hmm e1)) (h_em (e_hmm e1)) x (e_rs e1) glob1 = Ok (p, rs, glob2, ev2) ->
    init I rg exact e glob x
    = Ok (Est (Hmm (h_cfg (e_hmm e1)) (h_nfeat (e_hmm e1)) (h_start (e_hmm e1)) (h_trans (e_hmm e1)) (h_mon (e_hmm e1)) p) rs, glob2, ev1 ++ ev2).
  Proof. clear Hrg. intros H1 H2. unfold init. rewrite H1. cbn [bind]. rewrite H2. reflexivity. Qed.
End Base.

(** An invariant preserved by the M-step. *)
Lemma trains_and {P X St} (E : emclass P X St) nc ok good b V (Q : P -> Prop) : trains E nc ok good b V ->
  (forall c nf p st p', good c nf p -> ec_mstep E exact c nf p st = Ok p' -> Q p -> Q p') ->
  trains E nc ok (fun c nf p => good c nf p /\ Q p) b V.
Proof.
  intros [T1 T2] HQ. constructor; [intros h Hc [Hg _]; apply T1; assumption|].
  intros c nf p l Hc [Hg Hq] Hw Hv. destruct (T2 c nf p l Hc Hg Hw Hv) as (st & p' & H1 & H2 & H3 & H4).
  exists st, p'. repeat (split; [assumption|]). split; [|exact H4]. split; [exact H3|]. apply (HQ c nf p st p'); assumption.
Qed.
Lemma tstate_and {P X} nc (good : cfg -> option nat -> P -> Prop) (b : P -> X -> nat -> R) V ls x h pi A (good2 : cfg -> option nat -> P -> Prop) :
  tstate nc good b V ls x h pi A -> good2 (h_cfg h) (h_nfeat h) (h_em h) -> tstate nc good2 b V ls x h pi A.
Proof. intros [T1 T2 T3 T4 T5 T6 T7 T8 T9] H. constructor; assumption. Qed.
Lemma tstate_V {P X} nc (good : cfg -> option nat -> P -> Prop) (b : P -> X -> nat -> R) V V2 ls x h pi A :
  tstate nc good b V ls x h pi A -> (V2 = true -> all_used nc pi A (b (h_em h)) (chunks ls x)) -> tstate nc good b V2 ls x h pi A.
Proof. intros [T1 T2 T3 T4 T5 T6 T7 T8 T9] H. constructor; try assumption. intros HV. apply all_used_visited, H, HV. Qed.

(** ** CategoricalHMM. *)
Section CatRows.
  Variables (nc nf : nat) (ep : nat -> nat -> R).
  Hypothesis Hep : forall i k, (i < nc)%nat -> (k < nf)%nat -> 1 <= ep i k.
  (** Rows sum to one within the tolerance of [_check]. *)
  Definition cat_good1 (c : cfg) (nfe : option nat) (p : catp) : Prop :=
    cat_good nc nf ep false c nfe p /\ forall i, (i < nc)%nat -> near1 (sumn nf (cat_e p i)).

  Lemma cat_trains1 : trains categorical nc (sym_ok nf) cat_good1 cat_bp true.
  Proof.
    destruct (cat_trains nc nf ep Hep false) as [T1 T2]. constructor; [intros h Hc [Hg _]; apply T1; assumption|].
    intros c nfe p l Hc [Hg Hq] Hw Hv. destruct (T2 c nfe p l Hc Hg Hw ltac:(discriminate)) as (st & p' & H1 & H2 & H3 & H4).
    exists st, p'. repeat (split; [assumption|]). split; [|exact H4]. split; [exact H3|]. intros i Hi.
    destruct Hw as [Hne Hl]. destruct (Hv eq_refl i Hi) as (x & g & t & Hin & Ht & Hp).
    destruct (cat_step nc nf ep false c nfe p l Hc Hg (fun x g H => proj1 (proj2 (Hl x g H)))) as (st' & S1 & S2).
    assert (st' = st) by congruence. subst st'. assert (p' = cat_new nc nf ep c p l) by congruence. subst p'.
    destruct (has "e" (c_params c)) eqn:He; [|unfold cat_new; rewrite He; apply Hq, Hi].
    pose proof (H4 x g t i Hin Ht Hi Hp) as HB. rewrite (obsB_nth _ x 0%Z) in HB by exact Ht. unfold cat_bp, cat_b in HB.
    assert (Hk : sym_ok nf (nth t x 0%Z)). { destruct (Hl x g Hin) as (_ & Hx & _). rewrite Forall_forall in Hx. apply Hx, nth_In, Ht. }
    unfold sym_ok in Hk. set (k := Z.to_nat (nth t x 0%Z)) in *. assert (Hk' : (k < nf)%nat) by (unfold k; lia).
    rewrite cat_e_new in HB by assumption.
    rewrite (sumn_ext nf _ (normalised nf (clip_weight (ep i) (sym_count l i)))) by (intros j Hj; apply cat_e_new; assumption).
    apply Covars_thms.near1_1. destruct (normalised_stoch_or_zero nf (clip_weight (ep i) (sym_count l i)) (clip_nonneg nf _ _)) as [_ [Hs|Hz]]; [exact Hs|].
    rewrite Hz in HB by exact Hk'. lra.
  Qed.
  Lemma cat_check1 c nfe p : c_nc c = nc -> cat_good1 c nfe p -> ec_check categorical exact c nfe p = Ok (nfe, p).
  Proof.
    intros Hc [Hg Hs]. destruct p as [pr m]. pose proof (cg_prob _ _ _ _ _ _ _ Hg) as Hp. cbn [cat_prob] in Hp. set (e := cat_e (Catp pr m)) in *.
    rewrite (cg_nf _ _ _ _ _ _ _ Hg). rewrite Hp. apply cat_check_ok; auto.
  Qed.
End CatRows.

Definition new_categorical {G} (rg : rng G) (e : est catp G) (n : nat) (x : list Z) : Prop :=
  let h := e_hmm e in
  base_fresh h /\ cat_prob (h_em h) = None /\ valid_rs rg (e_rs e) /\ (0 < c_nc (h_cfg h))%nat
  /\ letters_in (c_params (h_cfg h)) ["s"; "t"; "e"]%char
  /\ (h_nfeat h = Some n \/ (h_nfeat h = None /\ Z.of_nat n = zmax x + 1)%Z)
  /\ flat_priors h /\ c_impl (h_cfg h) = "log"%string.

Lemma normalised_pos2 r n F : (0 < n)%nat -> (forall i j, (i < r)%nat -> (j < n)%nat -> 0 < F i j) ->
  exists e, normalize_rows exact (fmat r n F) = fmat r n e /\ pos2 r n e /\ forall i, (i < r)%nat -> sumn n (e i) = 1.
Proof.
  intros Hn HF. rewrite normalize_rows_fmat. eexists. split; [reflexivity|].
  assert (K : forall i, (i < r)%nat -> pos1 n (normalised n (F i)) /\ sumn n (normalised n (F i)) = 1)
    by (intros i Hi; apply normalised_pos; [exact Hn|intros j Hj; apply HF; assumption]).
  split; [intros i j Hi Hj; apply (K i Hi), Hj|intros i Hi; apply (K i Hi)].
Qed.

Lemma C76_categorical_l {G} (rg : rng G) e glob x ls n :
  let h := e_hmm e in let nc := c_nc (h_cfg h) in
  new_categorical rg e n x -> pos_dirichlet rg -> pos_rand rg -> good_data (sym_ok n) ls x ->
  exists e' glob' ev, fit categorical cat_initc rg exact e glob x (as_lengths ls) = Ok (e', glob', ev)
    /\ trained_ok categorical nc (fun o => In o x) ls x (e_hmm e').
Proof.
  cbv zeta. intros (N1 & N2 & N3 & N4 & N5 & N6 & N7 & N8) Hrg Hra Hd.
  assert (Hx : x <> []). { destruct (good_data_chunks _ _ _ Hd) as (H & _). destruct Hd as (_ & D1 & D2 & D3). intros ->. destruct D2; [congruence|cbn in D3; lia]. }
  assert (Hn : (0 < n)%nat). { destruct x as [|k x']; [contradiction|]. destruct Hd as (Hok & _). inversion Hok as [|? ? Hk _]; subst. unfold sym_ok in Hk. lia. }
  assert (Hfeat : cat_nfeat (h_cfg (e_hmm e)) (h_nfeat (e_hmm e)) (h_em (e_hmm e)) x = Ok (Some n, h_em (e_hmm e))).
  { unfold cat_nfeat. pose proof (proj1 Hd) as Hok. rewrite Forall_forall in Hok. pose proof (Hok _ (zmin_in x Hx)) as H1. pose proof (Hok _ (zmax_in x Hx)) as H2.
    unfold sym_ok in *. destruct (Z.ltb_spec (zmin x) 0); [lia|]. destruct N6 as [->|[-> Hz]].
    - destruct (Z.ltb_spec (Z.of_nat n - 1) (zmax x)); [lia|]. reflexivity.
    - rewrite <- Hz, Nat2Z.id. reflexivity. }
  destruct (cat_nfit_ok (h_cfg (e_hmm e)) n (h_em (e_hmm e)) N5) as (d & k & Hdd & Hk).
  destruct (base_init_pos cat_initc rg Hrg e glob x (Some n) (h_em (e_hmm e)) d k N1 N3 N4 Hfeat Hdd Hk)
    as (rs & glob1 & ev & pi & A & Hb & V1 & P1 & P2 & P3 & P4).
  set (nc := c_nc (h_cfg (e_hmm e))) in *.
  assert (HE : exists B rs2 glob2 ev2, cat_init_em exact rg (h_cfg (e_hmm e)) (Some n) (h_em (e_hmm e)) x rs glob1 = Ok (Catp (cat_prior (h_em (e_hmm e))) (Some (fmat nc n B)), rs2, glob2, ev2)
             /\ pos2 nc n B /\ forall i, (i < nc)%nat -> sumn n (B i) = 1).
  { unfold cat_init_em. destruct (rs_adopt_ok rg rs V1) as (rs1 & -> & Hrs1). cbn [bind]. unfold needs_init. rewrite N2. cbn [isSome].
    replace (if has "e" (c_init_params (h_cfg (e_hmm e))) then (true, []) else (negb false, [])) with (true, @nil event) by (destruct (has "e" _); reflexivity).
    cbv iota. destruct (rs_get_ok rg rs1 glob1 Hrs1) as (g & ->). cbn [bind]. fold nc.
    destruct (rand_mat_ok rg (pos_sane rg Hrg Hra) nc n g) as (F & g1 & -> & HF). cbn [bind].
    destruct (rs_put rs1 glob1 g1) as [rs2 glob2]. destruct (normalised_pos2 nc n F Hn HF) as (B & HB & HB1 & HB2). rewrite HB.
    exists B. do 3 eexists. split; [reflexivity|]. split; assumption. }
  destruct HE as (B & rs2 & glob2 & ev2 & HE & B1 & B2).
  pose proof (init_split cat_initc rg e glob x _ _ _ _ _ _ _ Hb HE) as Hin. cbn [e_hmm h_cfg h_nfeat h_start h_trans h_mon] in Hin.
  set (h0 := Hmm _ _ _ _ _ _) in Hin.
  assert (CM : cat_model h0 nc n pi A B).
  { constructor; try reflexivity; try assumption.
    - right; reflexivity.
    - intros i Hi. apply Rlt_le, P1, Hi.
    - apply Covars_thms.near1_1, P2.
    - intros i j Hi Hj. apply Rlt_le, P3; assumption.
    - intros i Hi. apply Covars_thms.near1_1, P4, Hi.
    - intros i j Hi Hj. apply Rlt_le, B1; assumption.
    - intros i Hi. apply Covars_thms.near1_1, B2, Hi. }
  assert (FP : flat_priors h0) by exact N7.
  pose proof (flat_cat_priors h0 nc n FP) as CP.
  assert (Hb0 : forall o i, sym_ok n o -> (i < nc)%nat -> 0 < cat_b B o i).
  { intros o i Ho Hi. unfold cat_b, sym_ok in *. apply B1; [exact Hi|lia]. }
  destruct (data_pos (sym_ok n) nc pi A (cat_b B) N4 P1 P3 ls x Hd Hb0) as [Hp Hu].
  assert (Ee : forall i j, (i < nc)%nat -> (j < n)%nat -> cat_e (h_em h0) i j = B i j) by (intros; apply cat_e_fmat; assumption).
  assert (TS0 : tstate nc (cat_good nc n (fun _ _ => 1) false) cat_bp false ls x (checked h0 n) pi A)
    by (apply (cat_tstate false h0 nc n pi A B (fun _ => 1) (fun _ _ => 1)); auto; discriminate).
  assert (TS : tstate nc (cat_good1 nc n (fun _ _ => 1)) cat_bp true ls x (checked h0 n) pi A).
  { apply (tstate_V _ _ _ false); [apply (tstate_and _ _ _ _ _ _ _ _ _ _ TS0)|].
    - split; [apply (ts_good _ _ _ _ _ _ _ _ _ TS0)|]. intros i Hi. apply Covars_thms.near1_1. rewrite <- (B2 i Hi). apply sumn_ext. intros j Hj. apply Ee; assumption.
    - intros _. apply (all_used_ext (sym_ok n) nc pi A (cat_b B)); [|exact Hd|exact Hu].
      intros o i Ho Hi. unfold cat_bp, cat_b. symmetry. apply Ee; [exact Hi|unfold sym_ok in Ho; lia]. }
  destruct (gen_fresh categorical nc (sym_ok n) (cat_good1 nc n (fun _ _ => 1)) cat_bp true (cat_trains1 nc n (fun _ _ => 1) ltac:(intros; lra))
    ls x Hd (fun _ => 1) (fun _ _ => 1) ltac:(intros; lra) ltac:(intros; lra) (cat_check1 nc n (fun _ _ => 1)) h0 (checked h0 n) pi A (cat_model_check h0 nc n pi A B CM) TS
    (cp_base _ _ _ _ _ _ CP)) as (h' & ev' & Hf & Ht & _).
  - split; [exact P1|]. split; [exact P2|]. split; [exact P3|]. split; [exact P4|]. intros o i Ho Hi.
    pose proof (proj1 Hd) as F. rewrite Forall_forall in F. specialize (F o Ho). unfold cat_bp, cat_b. cbn [checked h_em].
    rewrite Ee; [|exact Hi|unfold sym_ok in F; lia]. apply (Hb0 o i F Hi).
  - exact N8.
  - do 3 eexists. split.
    + refine (fit_split categorical cat_initc rg e glob x (as_lengths ls) _ _ _ h' ev' Hx _ Hin Hf). apply Forall_forall. reflexivity.
    + exact Ht.
Qed.

(** ** PoissonHMM. *)
Definition mean_of (l : list R) : R := sumL (fun a => a) l / INR (length l).
Definition variance_of (l : list R) : R := sumL (fun a => (a - mean_of l) * (a - mean_of l)) l / INR (length l).
(** All counts of the data, as real numbers. *)
Definition all_counts (x : list (list Z)) : list R := map IZR (concat x).

Lemma counts_vec x : concat (map zrow x) = map Fin (all_counts x).
Proof.
  unfold all_counts. rewrite map_map. induction x as [|r x IH]; [reflexivity|]. cbn [map concat]. rewrite map_app, IH. reflexivity.
Qed.
Lemma arr_mean_fin l : l <> [] -> arr_mean exact (map Fin l) = Fin (mean_of l).
Proof.
  intros Hl. unfold arr_mean. rewrite (xsum_map _ (fun a => a)) by reflexivity. rewrite map_length, xdivE; [reflexivity|].
  apply not_0_INR. destruct l; [congruence|discriminate].
Qed.
Lemma arr_var_fin l : l <> [] -> arr_var exact (map Fin l) = Fin (variance_of l).
Proof.
  intros Hl. unfold arr_var. rewrite arr_mean_fin by exact Hl. rewrite map_map.
  rewrite (map_ext _ (fun a => Fin ((a - mean_of l) * (a - mean_of l)))) by reflexivity.
  rewrite <- (map_map (fun a => (a - mean_of l) * (a - mean_of l)) Fin). rewrite arr_mean_fin by (destruct l; discriminate || congruence).
  unfold mean_of at 1, variance_of. rewrite sumL_map, map_length. reflexivity.
Qed.
Lemma mean_pos l a : (forall b, In b l -> 0 <= b) -> In a l -> 0 < a -> 0 < mean_of l.
Proof.
  intros Hn Ha H. unfold mean_of. apply Rdiv_lt_0_compat; [|apply lt_0_INR; destruct l; [destruct Ha|cbn; lia]].
  apply (sumL_pos_in _ l a); assumption.
Qed.
Lemma variance_pos l a b : In a l -> In b l -> a <> b -> 0 < variance_of l.
Proof.
  intros Ha Hb Hab. unfold variance_of. apply Rdiv_lt_0_compat; [|apply lt_0_INR; destruct l; [destruct Ha|cbn; lia]].
  assert (K : forall c, 0 <= (c - mean_of l) * (c - mean_of l)) by (intros c; apply Rle_0_sqr).
  destruct (Req_EM_T a (mean_of l)) as [E|E].
  - apply (sumL_pos_in _ l b); [intros; apply K|exact Hb|]. apply Rsqr_pos_lt. lra.
  - apply (sumL_pos_in _ l a); [intros; apply K|exact Ha|]. apply Rsqr_pos_lt. lra.
Qed.

(** The rates are drawn from the gamma distribution whose mean and variance are
    those of all the counts. *)
Definition new_poisson {G} (rg : rng G) (e : est poisp G) (nf : nat) (al be : R) : Prop :=
  let h := e_hmm e in
  base_fresh h /\ po_lam (h_em h) = None /\ valid_rs rg (e_rs e) /\ (0 < c_nc (h_cfg h))%nat
  /\ letters_in (c_params (h_cfg h)) ["s"; "t"; "l"]%char /\ (h_nfeat h = None \/ h_nfeat h = Some nf)
  /\ flat_base h /\ po_alpha (h_em h) = Scal (Fin al) /\ po_beta (h_em h) = Scal (Fin be) /\ 0 <= al /\ 0 <= be
  /\ c_impl (h_cfg h) = "log"%string.

Lemma pois_nfit_ok c n p : letters_in (c_params c) ["s"; "t"; "l"]%char ->
  exists d k, pois_nfit c (Some n) p = Ok d /\ dict_sum d (c_params c) = Ok k.
Proof.
  intros Hl. eexists. destruct (dict_sum_ok (base_nfit (c_nc c) ++ [("l"%char, Z.of_nat (c_nc c) * Z.of_nat n)%Z]) (c_params c)) as (k & Hk).
  - intros a Ha. specialize (Hl a Ha). cbn in Hl. destruct Hl as [<-|[<-|[<-|[]]]]; cbn; eexists; reflexivity.
  - exists k. split; [reflexivity|exact Hk].
Qed.
Lemma draws_fvec {G} (f : G -> res (xnum * G)) (D : R -> Prop) :
  (forall g, exists u g', f g = Ok (Fin u, g') /\ D u) ->
  forall n g, exists (u : nat -> R) g', draws f n g = Ok (fvec n u, g') /\ forall i, (i < n)%nat -> D (u i).
Proof.
  intros Hf. induction n as [|n IH]; intros g; cbn [draws].
  - exists (fun _ => 0), g. split; [reflexivity|]. intros i Hi; lia.
  - destruct (Hf g) as (u & g1 & -> & Hu). cbn [bind]. destruct (IH g1) as (v & g2 & -> & HF). cbn [bind].
    exists (fun i => match i with O => u | S i => v i end), g2. split.
    + unfold fvec. rewrite tab_S. reflexivity.
    + intros [|i] Hi; [exact Hu|apply HF; lia].
Qed.
Lemma gamma_mat_ok {G} (rg : rng G) a b r c g : pos_gamma rg -> 0 < a -> 0 < b ->
  exists F g', gamma_mat rg (Fin a) (Fin b) r c g = Ok (fmat r c F, g') /\ pos2 r c F.
Proof.
  intros Hg Ha Hb. unfold gamma_mat.
  destruct (draws_fmat (draws (r_gamma rg (Fin a) (Fin b)) c) c (fun u => forall j, (j < c)%nat -> 0 < u j)
    (fun g0 => draws_fvec _ (fun u => 0 < u) (fun g1 => Hg a b g1 Ha Hb) c g0) r g) as (F & g' & HD & HF).
  exists F, g'. split; [exact (f_equal (fun o => do (l, g') <- o; Ok (Mat c l, g')) HD)|]. intros i j Hi Hj. apply HF; assumption.
Qed.

Lemma width_counts nf x : x <> [] -> Forall (counts_ok nf) x -> width x = nf.
Proof. intros Hx H. destruct x as [|r x]; [congruence|]. inversion H as [|? ? H1 _]; subst. apply H1. Qed.
Lemma nonempty_data {X} (ok : X -> Prop) ls x : good_data ok ls x -> x <> [].
Proof. intros (_ & D1 & D2 & D3) ->. destruct D2; [congruence|cbn in D3; lia]. Qed.
Lemma set_nf nfe nf : nfe = None \/ nfe = Some nf -> set_n_features nfe nf = Ok (Some nf).
Proof. intros [->| ->]; cbn [set_n_features]; [reflexivity|]. rewrite Nat.eqb_refl. reflexivity. Qed.

(** Start values of the rates. *)
Lemma pois_init_pos {G} (rg : rng G) c nf p x rs glob : pos_gamma rg -> valid_rs rg rs -> po_lam p = None ->
  x <> [] -> Forall (counts_ok nf) x -> (exists a b, In a (concat x) /\ In b (concat x) /\ a <> b) ->
  exists lam rs' glob' ev, pois_init_em exact rg c (Some nf) p x rs glob = Ok (Poisp (po_alpha p) (po_beta p) (Some (fmat (c_nc c) nf lam)), rs', glob', ev)
    /\ pos2 (c_nc c) nf lam
    /\ exists shape scale g g', gamma_mat rg (Fin shape) (Fin scale) (c_nc c) nf g = Ok (fmat (c_nc c) nf lam, g')
         /\ shape * scale = mean_of (all_counts x) /\ shape * (scale * scale) = variance_of (all_counts x).
Proof.
  intros Hg Hrs Hl Hx Hok (a & b & Ha & Hb & Hab).
  assert (Hne : all_counts x <> []). { unfold all_counts. destruct (concat x); [destruct Ha|discriminate]. }
  assert (Hv : 0 < variance_of (all_counts x)).
  { apply (variance_pos _ (IZR a) (IZR b)); try (apply in_map; assumption). intros E. apply Hab, eq_IZR, E. }
  assert (Hm : 0 < mean_of (all_counts x)).
  { assert (Hnn : forall z, In z (concat x) -> (0 <= z)%Z).
    { intros z Hz. apply in_concat in Hz as (r & Hr & Hz). rewrite Forall_forall in Hok. destruct (Hok r Hr) as [_ Hk]. rewrite Forall_forall in Hk. apply Hk, Hz. }
    assert (Hn : forall y, In y (all_counts x) -> 0 <= y).
    { intros y Hy. apply in_map_iff in Hy as (z & <- & Hz). apply IZR_le, Hnn, Hz. }
    pose proof (Hnn a Ha). pose proof (Hnn b Hb).
    destruct (Z.eq_dec a 0) as [->|Na]; [apply (mean_pos _ (IZR b))|apply (mean_pos _ (IZR a))]; try exact Hn; try (apply in_map; assumption); apply IZR_lt; lia. }
  unfold pois_init_em. destruct (rs_adopt_ok rg rs Hrs) as (rs1 & -> & Hrs1). cbn [bind]. rewrite counts_vec, arr_mean_fin, arr_var_fin by exact Hne.
  unfold needs_init. rewrite Hl. cbn [isSome].
  replace (if has "l" (c_init_params c) then (true, []) else (negb false, [])) with (true, @nil event) by (destruct (has "l" _); reflexivity).
  cbv iota. destruct (rs_get_ok rg rs1 glob Hrs1) as (g & ->). cbn [bind].
  change (xsq exact (Fin (mean_of (all_counts x)))) with (Fin (mean_of (all_counts x) * mean_of (all_counts x))).
  rewrite !xdivE by lra.
  set (sh := mean_of (all_counts x) * mean_of (all_counts x) / variance_of (all_counts x)). set (sc := variance_of (all_counts x) / mean_of (all_counts x)).
  destruct (gamma_mat_ok rg sh sc (c_nc c) nf g Hg) as (F & g1 & HF & HP).
  - apply Rdiv_lt_0_compat; [apply Rmult_lt_0_compat|]; assumption.
  - apply Rdiv_lt_0_compat; assumption.
  - rewrite HF. cbn [bind]. destruct (rs_put rs1 glob g1) as [rs2 glob2]. exists F. do 3 eexists. split; [reflexivity|]. split; [exact HP|].
    exists sh, sc, g, g1. split; [exact HF|]. unfold sh, sc. split; field; lra.
Qed.

Lemma pois_chk nc nf al be V c nfe p : c_nc c = nc -> pois_good nc nf al be V c nfe p -> ec_check poisson exact c nfe p = Ok (nfe, p).
Proof.
  intros Hc Hg. rewrite (pg_nf _ _ _ _ _ _ _ _ Hg). apply (pois_check_ok c (Some nf) p nc nf (pois_l p)); auto. apply (pg_lam _ _ _ _ _ _ _ _ Hg).
Qed.

Lemma C76_poisson_l {G} (rg : rng G) e glob x ls nf al be :
  let h := e_hmm e in let nc := c_nc (h_cfg h) in
  new_poisson rg e nf al be -> pos_dirichlet rg -> pos_gamma rg -> good_data (counts_ok nf) ls x ->
  (exists a b, In a (concat x) /\ In b (concat x) /\ a <> b) ->
  exists e' glob' ev, fit poisson pois_initc rg exact e glob x (as_lengths ls) = Ok (e', glob', ev)
    /\ trained_ok poisson nc (fun o => In o x) ls x (e_hmm e').
Proof.
  cbv zeta. intros (N1 & N2 & N3 & N4 & N5 & N6 & N7 & N8 & N9 & N10 & N11 & N12) Hrg Hga Hd Hab.
  pose proof (nonempty_data _ _ _ Hd) as Hx.
  assert (Hfeat : pois_nfeat (h_cfg (e_hmm e)) (h_nfeat (e_hmm e)) (h_em (e_hmm e)) x = Ok (Some nf, h_em (e_hmm e))).
  { unfold pois_nfeat. rewrite (width_counts nf x Hx (proj1 Hd)), (set_nf _ _ N6). reflexivity. }
  destruct (pois_nfit_ok (h_cfg (e_hmm e)) nf (h_em (e_hmm e)) N5) as (d & k & Hdd & Hk).
  destruct (base_init_pos pois_initc rg Hrg e glob x (Some nf) (h_em (e_hmm e)) d k N1 N3 N4 Hfeat Hdd Hk)
    as (rs & glob1 & ev & pi & A & Hb & V1 & P1 & P2 & P3 & P4).
  destruct (pois_init_pos rg (h_cfg (e_hmm e)) nf (h_em (e_hmm e)) x rs glob1 Hga V1 N2 Hx (proj1 Hd) Hab)
    as (lam & rs2 & glob2 & ev2 & HE & B1 & _).
  set (nc := c_nc (h_cfg (e_hmm e))) in *.
  pose proof (init_split pois_initc rg e glob x _ _ _ _ _ _ _ Hb HE) as Hin. cbn [e_hmm h_cfg h_nfeat h_start h_trans h_mon] in Hin.
  set (h0 := Hmm _ _ _ _ _ _) in Hin.
  assert (PM : pois_model h0 nc nf pi A lam).
  { constructor; [constructor|right; reflexivity|reflexivity|]; try reflexivity; try assumption.
    - intros i Hi. apply Rlt_le, P1, Hi.
    - apply Covars_thms.near1_1, P2.
    - intros i j Hi Hj. apply Rlt_le, P3; assumption.
    - intros i Hi. apply Covars_thms.near1_1, P4, Hi.
    - intros i j Hi Hj. apply Rlt_le, B1; assumption. }
  assert (Hb0 : forall o i, counts_ok nf o -> (i < nc)%nat -> 0 < pois_b nf lam o i).
  { intros o i _ Hi. unfold pois_b. apply prodn_pos. intros f Hf. apply pois_mass_pos, B1; assumption. }
  destruct (data_pos (counts_ok nf) nc pi A (pois_b nf lam) N4 P1 P3 ls x Hd Hb0) as [Hp Hu].
  assert (GP : gamma_prior nc nf (h_em h0) (fun _ _ => al) (fun _ _ => be)).
  { intros i f _ _. unfold h0. cbn [h_em po_alpha po_beta]. rewrite N8, N9. split; reflexivity. }
  assert (Hal : nonneg2 nc nf (fun _ _ => al)) by (intros i f _ _; exact N10).
  assert (Hbe : nonneg2 nc nf (fun _ _ => be)) by (intros i f _ _; exact N11).
  pose proof (pois_tstate h0 nc nf pi A lam (fun _ _ => al) (fun _ _ => be) PM GP ls x Hd Hp (fun _ => Hu)) as TS.
  destruct (gen_fresh poisson nc (counts_ok nf) _ (pois_bp nf) _ (pois_trains nc nf (fun _ _ => al) (fun _ _ => be) Hal Hbe _)
    ls x Hd (fun _ => 1) (fun _ _ => 1) ltac:(intros; lra) ltac:(intros; lra) (pois_chk nc nf (fun _ _ => al) (fun _ _ => be) _) h0 (with_em h0 (Some nf) (h_em h0)) pi A (pois_model_check h0 nc nf pi A lam PM) TS)
    as (h' & ev' & Hf & Ht & _).
  - exact (flat_base_priors h0 nc N7).
  - split; [exact P1|]. split; [exact P2|]. split; [exact P3|]. split; [exact P4|]. intros o i Ho Hi.
    pose proof (proj1 Hd) as F. rewrite Forall_forall in F. cbn [with_em h_em].
    rewrite <- (pois_bp_lam h0 nc nf pi A lam PM) by exact Hi. apply Hb0; [apply F, Ho|exact Hi].
  - exact N12.
  - do 3 eexists. split.
    + refine (fit_split poisson pois_initc rg e glob x (as_lengths ls) _ _ _ h' ev' Hx _ Hin Hf). apply Forall_forall. reflexivity.
    + exact Ht.
Qed.

(** ** MultinomialHMM. *)
Definition new_multinomial {G} (rg : rng G) (e : est mulp G) (nf : nat) : Prop :=
  let h := e_hmm e in
  base_fresh h /\ mu_prob (h_em h) = None /\ has "e" (c_init_params (h_cfg h)) = true /\ valid_rs rg (e_rs e) /\ (0 < c_nc (h_cfg h))%nat
  /\ letters_in (c_params (h_cfg h)) ["s"; "t"; "e"]%char /\ (h_nfeat h = None \/ h_nfeat h = Some nf)
  /\ flat_base h /\ c_impl (h_cfg h) = "log"%string.

Definition trials_agree (o : option trials) (x : list (list Z)) : Prop :=
  match o with Some tr => trials_fit tr x /\ ~ totals_differ tr x | None => True end.

Lemma mult_chk nc nf V c nfe p : c_nc c = nc -> mult_good nc nf V c nfe p /\ mu_trials p <> None -> ec_check multinomial exact c nfe p = Ok (nfe, p).
Proof.
  intros Hc [Hg Ht]. rewrite (mg_nf _ _ _ _ _ _ Hg). apply (mult_check_ok c (Some nf) p nc nf (mult_e p)); auto. apply (mg_e _ _ _ _ _ _ Hg).
Qed.
Lemma mult_mstep_trials c nf p st p' : mult_mstep exact c nf p st = Ok p' -> mu_trials p' = mu_trials p.
Proof. unfold mult_mstep. destruct (has "e" _); intros H; injection H as <-; reflexivity. Qed.

Lemma C76_multinomial_l {G} (rg : rng G) e glob x ls nf :
  let h := e_hmm e in let nc := c_nc (h_cfg h) in
  new_multinomial rg e nf -> pos_dirichlet rg -> pos_rand rg -> (0 < nf)%nat -> good_data (trials_ok nf) ls x ->
  trials_agree (mu_trials (h_em h)) x ->
  exists e' glob' ev, fit multinomial mult_initc rg exact e glob x (as_lengths ls) = Ok (e', glob', ev)
    /\ trained_ok multinomial nc (fun o => In o x) ls x (e_hmm e').
Proof.
  cbv zeta. intros (N1 & N2 & N3 & N4 & N5 & N6 & N7 & N8 & N9) Hrg Hra Hnf Hd Htr.
  pose proof (nonempty_data _ _ _ Hd) as Hx. pose proof (trials_counts _ _ _ Hd) as Hdc.
  assert (Hneg : ~ has_negative x).
  { intros (r & k & Hr & Hk & Hlt). pose proof (proj1 Hdc) as F. rewrite Forall_forall in F. destruct (F r Hr) as [_ Fk]. rewrite Forall_forall in Fk. specialize (Fk k Hk). cbn beta in Fk. lia. }
  destruct (mult_nfeat_spec (h_cfg (e_hmm e)) (h_nfeat (e_hmm e)) (h_em (e_hmm e)) x nf Hx) as (_ & S2).
  { pose proof (proj1 Hdc) as F. rewrite Forall_forall in *. intros r Hr. apply (F r Hr). }
  { exact N7. }
  { unfold trials_agree in Htr. destruct (mu_trials _); [apply Htr|exact I]. }
  destruct S2 as (p & Hfeat & Hpt); [exact Hneg|unfold trials_agree in Htr; destruct (mu_trials _); [apply Htr|exact I]|].
  destruct (mult_nfeat_inv _ _ _ _ _ _ Hfeat) as [_ Hpp].
  destruct (mult_nfit_ok (h_cfg (e_hmm e)) nf p N6) as (d & k & Hdd & Hk).
  destruct (base_init_pos mult_initc rg Hrg e glob x (Some nf) p d k N1 N4 N5 Hfeat Hdd Hk)
    as (rs & glob1 & ev & pi & A & Hb & V1 & P1 & P2 & P3 & P4).
  set (nc := c_nc (h_cfg (e_hmm e))) in *.
  assert (HE : exists B rs2 glob2 ev2, mult_init_em exact rg (h_cfg (e_hmm e)) (Some nf) p x rs glob1 = Ok (Mulp (mu_trials p) (Some (fmat nc nf B)), rs2, glob2, ev2)
             /\ pos2 nc nf B /\ forall i, (i < nc)%nat -> sumn nf (B i) = 1).
  { unfold mult_init_em. destruct (rs_adopt_ok rg rs V1) as (rs1 & -> & Hrs1). cbn [bind]. rewrite N3.
    destruct (rs_get_ok rg rs1 glob1 Hrs1) as (g & ->). cbn [bind]. fold nc.
    destruct (rand_mat_ok rg (pos_sane rg Hrg Hra) nc nf g) as (F & g1 & -> & HF). cbn [bind].
    destruct (rs_put rs1 glob1 g1) as [rs2 glob2]. destruct (normalised_pos2 nc nf F Hnf HF) as (B & HB & HB1 & HB2). rewrite HB.
    exists B. do 3 eexists. split; [reflexivity|]. split; assumption. }
  destruct HE as (B & rs2 & glob2 & ev2 & HE & B1 & B2).
  pose proof (init_split mult_initc rg e glob x _ _ _ _ _ _ _ Hb HE) as Hin. cbn [e_hmm h_cfg h_nfeat h_start h_trans h_mon] in Hin.
  set (h0 := Hmm _ _ _ _ _ _) in Hin.
  assert (Htn : mu_trials (h_em h0) <> None) by (unfold h0; cbn [h_em mu_trials]; rewrite Hpt; discriminate).
  assert (MM : mult_model h0 nc nf pi A B).
  { constructor; [constructor|right; reflexivity|exact Hnf|reflexivity| |exact Htn]; try reflexivity; try assumption.
    - intros i Hi. apply Rlt_le, P1, Hi.
    - apply Covars_thms.near1_1, P2.
    - intros i j Hi Hj. apply Rlt_le, P3; assumption.
    - intros i Hi. apply Covars_thms.near1_1, P4, Hi.
    - intros i Hi. split; [intros j Hj; apply Rlt_le, B1; assumption|apply B2, Hi]. }
  assert (Hb0 : forall o i, trials_ok nf o -> (i < nc)%nat -> 0 < mult_b nf B o i).
  { intros o i Ho Hi. unfold mult_b. apply (mult_mass_pos nf Hnf); [|exact (proj1 Ho)]. intros f Hf _. apply B1; assumption. }
  destruct (data_pos (trials_ok nf) nc pi A (mult_b nf B) N5 P1 P3 ls x Hd Hb0) as [Hp Hu].
  pose proof (mult_tstate h0 nc nf pi A B MM ls x Hd Hp (fun _ => Hu)) as TS0.
  pose proof (tstate_and _ _ _ _ _ _ _ _ _ (fun c nfe p => mult_good nc nf (has "e" (c_params (h_cfg h0))) c nfe p /\ mu_trials p <> None) TS0
    (conj (ts_good _ _ _ _ _ _ _ _ _ TS0) Htn)) as TS.
  destruct (gen_fresh multinomial nc (trials_ok nf) _ (mult_bp nf) _
    (trains_and _ _ _ _ _ _ (fun p => mu_trials p <> None) (mult_trains nc nf Hnf _) (fun c nfe p st p' _ Hm Hq => eq_ind_r (fun o => o <> None) Hq (mult_mstep_trials c nfe p st p' Hm)))
    ls x Hd (fun _ => 1) (fun _ _ => 1) ltac:(intros; lra) ltac:(intros; lra) (mult_chk nc nf _) h0 (with_em h0 (Some nf) (h_em h0)) pi A (mult_model_check h0 nc nf pi A B MM) TS)
    as (h' & ev' & Hf & Ht & _).
  - exact (flat_base_priors h0 nc N8).
  - split; [exact P1|]. split; [exact P2|]. split; [exact P3|]. split; [exact P4|]. intros o i Ho Hi.
    pose proof (proj1 Hd) as F. rewrite Forall_forall in F. cbn [with_em h_em].
    rewrite <- (mult_bp_e h0 nc nf pi A B MM) by exact Hi. apply Hb0; [apply F, Ho|exact Hi].
  - exact N9.
  - do 3 eexists. split.
    + refine (fit_split multinomial mult_initc rg e glob x (as_lengths ls) _ _ _ h' ev' Hx _ Hin Hf). apply Forall_forall. reflexivity.
    + exact Ht.
Qed.
