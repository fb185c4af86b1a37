(** * Examples for C87. *)
From Verif Require Export Recode_thms Relabel_ex.

Definition rot3 (k : nat) : nat := match k with 0%nat => 1%nat | 1%nat => 2%nat | _ => 0%nat end.
Definition unrot3 (k : nat) : nat := match k with 0%nat => 2%nat | 1%nat => 0%nat | _ => 1%nat end.
Lemma rot3_permutes : permutes 3 rot3.
Proof.
  split; [intros [|[|[|i]]] Hi; cbn; lia|].
  intros [|[|[|i]]] [|[|[|j]]] Hi Hj; cbn; try reflexivity; try discriminate; lia.
Qed.
Definition with_emissions {P} (h : hmm P) (p : P) : hmm P := Hmm (h_cfg h) (h_nfeat h) (h_start h) (h_trans h) (h_mon h) p.
Lemma with_emissions_settings {P} (h : hmm P) p : same_settings h (with_emissions h p).
Proof. constructor; reflexivity. Qed.

(** Symbols 0, 1, 2 written as 1, 2, 0. *)
Lemma C87_categorical_applies_l :
  let h := ex_h "log" "map" in
  let h2 := with_emissions h (Catp (Scal (Fin 1)) (Some (fmat 2 3 (fun i k => ex_e i (unrot3 k))))) in
  map (rename_symbol rot3) ex_x = [1; 2; 0]%Z
  /\ exists h' h2' ev, fit_from categorical exact h ex_x (as_lengths [3]%nat) = Ok (h', ev)
     /\ fit_from categorical exact h2 [1; 2; 0]%Z (as_lengths [3]%nat) = Ok (h2', ev) /\ same_chain h' h2'
     /\ predict categorical exact h2 [1; 2; 0]%Z None = predict categorical exact h ex_x None.
Proof.
  intros h h2. split; [reflexivity|]. pose proof rot3_permutes as Hs. pose proof (ex_model "log" "map") as CM. fold h in CM.
  assert (He : forall i k, (i < 2)%nat -> (k < 3)%nat -> (fun i k => ex_e i (unrot3 k)) i (rot3 k) = ex_e i k).
  { intros i [|[|[|k]]] _ Hk; [reflexivity..|lia]. }
  assert (CM2 : cat_model h2 2 3 ex_pi ex_A (fun i k => ex_e i (unrot3 k))).
  { destruct CM. constructor; try assumption; try reflexivity.
    - intros i k Hi Hk. apply cm_e; [exact Hi|]. destruct k as [|[|k]]; cbn; lia.
    - intros i Hi. specialize (cm_e1 i Hi). destruct i as [|[|i]]; [| |lia];
        match goal with H : near1 ?a |- near1 ?b => replace b with a; [exact H|unfold ex_e; simpl; ring] end. }
  pose proof (flat_cat_priors h 2 3 ltac:(repeat split)) as CP. pose proof (flat_cat_priors h2 2 3 ltac:(repeat split)) as CP2.
  assert (Hd : good_data (sym_ok 3) [3]%nat ex_x).
  { split; [exact ex_x_ok|]. split; [discriminate|]. split; [repeat constructor; lia|reflexivity]. }
  assert (Hpos : possible 2 ex_pi ex_A (cat_b ex_e) [3]%nat ex_x).
  { intros c [<-|[]]. cbn [firstn ex_x]. fold ex_x. rewrite ex_lik. lra. }
  destruct (cat_fit_log_ok h 2 3 ex_pi ex_A ex_e _ _ _ [3]%nat ex_x CM CP Hd Hpos eq_refl) as ([h' ev] & H).
  destruct (C87_categorical_l h h2 2 3 ex_pi ex_A ex_e _ _ _ _ _ rot3 [3]%nat ex_x h' ev Hs (with_emissions_settings h _)
    CM CP CM2 CP2 He ltac:(reflexivity) Hd Hpos H) as (h2' & e' & e2' & F & Q & _).
  exists h', h2', ev. split; [exact H|]. split; [exact F|]. split; [exact Q|].
  apply (C87_categorical_answers_l h h2 2 3 ex_pi ex_A ex_e _ rot3 ex_x None Hs eq_refl eq_refl CM CM2 He ex_x_ok).
Qed.

(** Categories moved: column 0 of the new counts is column 1 of the old ones. *)
Lemma C87_multinomial_applies_l :
  let h := ex_mu "ste" in
  let h2 := with_emissions h (Mulp (Some (TNum 4)) (Some (fmat 2 3 (fun i f => ex_me i (rot3 f))))) in
  map (move_counts 3 rot3) ex_mx = [[1; 0; 3]; [2; 2; 0]]%Z
  /\ exists h' h2' ev, fit_from multinomial exact h ex_mx (as_lengths [2]%nat) = Ok (h', ev)
     /\ fit_from multinomial exact h2 [[1; 0; 3]; [2; 2; 0]]%Z (as_lengths [2]%nat) = Ok (h2', ev)
     /\ mu_prob (h_em h') = Some (fmat 2 3 (fun i f => IZR (nth f (nth i ex_mx []) 0%Z) / 4))
     /\ mu_prob (h_em h2') = Some (fmat 2 3 (fun i f => IZR (nth (rot3 f) (nth i ex_mx []) 0%Z) / 4)).
Proof.
  intros h h2. split; [reflexivity|]. pose proof rot3_permutes as Hs. pose proof (ex_mult_model "ste") as MM. fold h in MM.
  assert (MM2 : mult_model h2 2 3 sw_pi sw_A (fun i f => ex_me i (rot3 f))).
  { destruct MM. constructor; [destruct mm_base; constructor; assumption|right; reflexivity|lia|reflexivity| |discriminate].
    intros i Hi. destruct (mm_stoch i Hi) as [S1 S2]. split; [intros f Hf; apply S1, Hs, Hf|]. rewrite (sumn_perm 3 rot3 Hs (ex_me i)). exact S2. }
  destruct C42_applies_l as (h' & ev & H & _ & E).
  assert (PR : priors (h_cfg h) 2 (fun _ => 1) (fun _ _ => 1)) by (apply (flat_base_priors h 2); split; reflexivity).
  destruct (C87_multinomial_l h h2 2 3 sw_pi sw_A ex_me _ (fun _ => 1) (fun _ _ => 1)
    rot3 [2]%nat ex_mx h' ev Hs (with_emissions_settings h _) MM PR MM2 PR ltac:(reflexivity) ltac:(intros; lra) ltac:(intros; lra)
    ex_mx_good ex_mx_possible (fun _ => ex_mx_used) H) as (h2' & e' & e2' & F & _ & L1 & L2 & L3).
  exists h', h2', ev. split; [exact H|]. split; [exact F|]. split; [exact E|]. rewrite L2. f_equal. apply fmat_ext.
  intros i f Hi Hf. rewrite L3 by assumption. rewrite E in L1. injection L1 as L1.
  assert (Q : forall j f, (j < 2)%nat -> (f < 3)%nat -> e' j f = IZR (nth f (nth j ex_mx []) 0%Z) / 4).
  { intros j k Hj Hk. destruct j as [|[|j]]; [| |lia]; (destruct k as [|[|[|k]]]; [| | |lia]); cbn in L1 |- *; congruence. }
  apply Q; [exact Hi|apply Hs, Hf].
Qed.

(** Two features exchanged, reflected and measured from 10: the fitted means 1
    and 7 become 9 and 3. *)
Definition sx3 : list vec := [[Fin 10; Fin 10]; [Fin 5; Fin 5]; [Fin 8; Fin 8]; [Fin 1; Fin 1]].
Lemma C87_gaussian_applies_l :
  let h := ex_sw "diag" "mc" 0 in
  let h2 := ex_ga 2 sw_pi sw_A "diag" "mc" 0 (fmat 2 2 (fun _ _ => 9)) (one_cov "diag") in
  map (move_row 2 swap2 (fun _ => -1) (fun _ => 10)) sx = sx3
  /\ exists h' h2' ev, fit_from gaussian exact h sx (as_lengths [2; 2]%nat) = Ok (h', ev)
     /\ fit_from gaussian exact h2 sx3 (as_lengths [2; 2]%nat) = Ok (h2', ev) /\ same_chain h' h2'
     /\ ga_means (h_em h') = Some (fmat 2 2 (fun i _ => match i with 0%nat => 1 | _ => 7 end))
     /\ ga_means (h_em h2') = Some (fmat 2 2 (fun i _ => match i with 0%nat => 9 | _ => 3 end)).
Proof.
  intros h h2. pose proof swap2_permutes as Hs.
  assert (X3 : map (move_row 2 swap2 (fun _ => -1) (fun _ => 10)) sx = sx3).
  { unfold sx, sx3, move_row, fvec, tab. cbn [map seq]. unfold xval, vget. cbn [nth swap2 rval].
    repeat (f_equal; try lra). }
  split; [exact X3|].
  pose proof (ex_sw_model "diag" "mc" 0 (or_introl eq_refl)) as GM. fold h in GM.
  assert (GM2 : gauss_model h2 2 2 sw_pi sw_A (fun _ _ => 9) (fun _ _ => 1)).
  { constructor; [destruct (gam_base _ _ _ _ _ _ _ GM); constructor; assumption|lia|reflexivity|]. exists (one_cov "diag"). split; [reflexivity|].
    apply (one_vcov "diag" (or_introl eq_refl)). }
  destruct (ex_sw_trained "diag" (or_introl eq_refl)) as (h' & ev & pis & As & mus & vs & H & Hk & T & U).
  destruct T as (_ & _ & _ & _ & _ & Tm & _). rewrite Hk in Tm.
  assert (E : ga_means (h_em h') = Some (fmat 2 2 (fun i _ => match i with 0%nat => 1 | _ => 7 end)))
    by (rewrite Tm; f_equal; apply fmat_ext; intros i f Hi Hf; apply U; assumption).
  pose proof (default_hyper h 2 2 0 ltac:(repeat split)) as HH. pose proof (default_hyper h2 2 2 0 ltac:(repeat split)) as HH2.
  assert (PR : priors (h_cfg h) 2 (fun _ => 1) (fun _ _ => 1)) by (apply (flat_base_priors h 2); split; reflexivity).
  assert (SS : same_settings h h2) by (constructor; reflexivity).
  destruct (C87_gaussian_l h h2 2 2 sw_pi sw_A (fun _ _ => 1) (fun _ _ => 1) (fun _ _ => 9) (fun _ _ => 1)
    (fun _ _ => 0) (fun _ _ => 0) (fun _ _ => 0) (fun _ _ => 0) (fun _ _ => 0) (fun _ _ => 0) 0
    (fun _ => 1) (fun _ _ => 1) swap2 (fun _ => -1) (fun _ => 10) [2; 2]%nat sx h' ev Hs ltac:(right; reflexivity) SS eq_refl GM HH PR GM2 HH2 PR
    ltac:(intros; split; lra) ltac:(intros; split; [|split; [|left]]; reflexivity) ltac:(intros; left; reflexivity)
    ltac:(intros i f _ _; lra) ltac:(intros; lra) ltac:(intros; lra) sx_good sx_possible (fun _ => or_introl sx_used) H)
    as (h2' & m' & m2' & v' & v2' & F & Q & _ & L1 & L2 & _ & _ & L3).
  rewrite X3 in F. exists h', h2', ev. split; [exact H|]. split; [exact F|]. split; [exact Q|]. split; [exact E|]. rewrite L2. f_equal. apply fmat_ext.
  intros i f Hi Hf. rewrite (proj1 (L3 i f Hi Hf)). rewrite E in L1. injection L1 as L1.
  assert (K : forall j f, (j < 2)%nat -> (f < 2)%nat -> m' j f = match j with 0%nat => 1 | _ => 7 end).
  { intros j k Hj Hk'. destruct j as [|[|j]]; [| |lia]; (destruct k as [|[|k]]; [| |lia]); congruence. }
  rewrite K; [|exact Hi|apply Hs, Hf]. destruct i as [|[|i]]; [| |lia]; lra.
Qed.

(** Data measured from -10: the fitted means 1 and 7 become 11 and 17. *)
Definition sx4 : list vec := [[Fin 10; Fin 10]; [Fin 15; Fin 15]; [Fin 12; Fin 12]; [Fin 19; Fin 19]].
Lemma C87_gaussian_full_applies_l : forall ty, ty = "tied"%string \/ ty = "full"%string ->
  let h := ex_fw ty (Arr2 (fmat 2 2 id2)) in
  let h2 := ex_fu 2 sw_pi sw_A ty "mc" (Arr2 (fmat 2 2 id2)) (fmat 2 2 (fun _ _ => 11)) (id_cov ty) in
  map (move_row 2 (fun f => f) (fun _ => 1) (fun _ => 10)) sx = sx4
  /\ exists h' h2' ev, fit_from gaussian exact h sx (as_lengths [2; 2]%nat) = Ok (h', ev)
     /\ fit_from gaussian exact h2 sx4 (as_lengths [2; 2]%nat) = Ok (h2', ev) /\ same_chain h' h2'
     /\ ga_means (h_em h') = Some (fmat 2 2 (fun i _ => match i with 0%nat => 1 | _ => 7 end))
     /\ ga_means (h_em h2') = Some (fmat 2 2 (fun i _ => match i with 0%nat => 11 | _ => 17 end)).
Proof.
  intros ty Hty h h2.
  assert (X4 : map (move_row 2 (fun f => f) (fun _ => 1) (fun _ => 10)) sx = sx4).
  { unfold sx, sx4, move_row, fvec, tab. cbn [map seq]. unfold xval, vget. cbn [nth rval]. repeat (f_equal; try lra). }
  split; [exact X4|].
  pose proof (ex_fw_model ty (Arr2 (fmat 2 2 id2)) Hty) as FM. fold h in FM.
  assert (FM2 : full_model h2 2 2 sw_pi sw_A (fun _ _ => 11) (fun _ => id2)).
  { apply ex_fu_model; [apply sw_base; reflexivity|lia|apply id_mcov; exact Hty|intros; exact id2_psd]. }
  destruct (ex_fw_trained ty (Arr2 (fmat 2 2 id2)) id2 Hty (cast_fmat 2 2 id2) id2_psd)
    as (h' & ev & pis & As & mus & Ss & b & b0 & H & Hk & Hh & D & Hp & Hu & T & M & _).
  destruct T as (_ & _ & _ & _ & _ & _ & Tm & _). rewrite Hk in Tm.
  assert (E : ga_means (h_em h') = Some (fmat 2 2 (fun i _ => match i with 0%nat => 1 | _ => 7 end)))
    by (rewrite Tm; f_equal; apply fmat_ext; intros i f Hi Hf; apply M; assumption).
  assert (PR : priors (h_cfg h) 2 (fun _ => 1) (fun _ _ => 1)) by (apply (flat_base_priors h 2); split; reflexivity).
  assert (SS : same_settings h h2) by (constructor; reflexivity).
  pose proof (ex_fu_hyper 2 2 sw_pi sw_A (fun _ _ => 11) ty "mc" (Arr2 (fmat 2 2 id2)) id2 (id_cov ty) ltac:(lia) (cast_fmat 2 2 id2) id2_psd) as Hh2.
  destruct (C87_gaussian_full_l h h2 2 2 sw_pi sw_A (fun _ _ => 1) (fun _ _ => 11) (fun _ => id2) (fun _ _ => 0) (fun _ _ => 0) id2 0 0
    (fun _ => 1) (fun _ _ => 1) (fun _ => 10) [2; 2]%nat sx b0 h' ev SS eq_refl FM Hh PR FM2 Hh2 PR
    ltac:(intros; lra) ltac:(intros; left; reflexivity) ltac:(reflexivity) ltac:(intros; lra) ltac:(intros; lra) sx_good D Hp
    ltac:(split; intros _; [left|right; split; [reflexivity|]]; exact Hu) H)
    as (h2' & m' & m2' & v' & F & Q & _ & L1 & L2 & _ & _ & L3).
  rewrite X4 in F. exists h', h2', ev. split; [exact H|]. split; [exact F|]. split; [exact Q|]. split; [exact E|]. rewrite L2. f_equal. apply fmat_ext.
  intros i f Hi Hf. rewrite (L3 i f Hi Hf). rewrite E in L1. injection L1 as L1.
  assert (K : forall j f, (j < 2)%nat -> (f < 2)%nat -> m' j f = match j with 0%nat => 1 | _ => 7 end).
  { intros j k Hj Hk'. destruct j as [|[|j]]; [| |lia]; (destruct k as [|[|k]]; [| |lia]); congruence. }
  rewrite K by assumption. destruct i as [|[|i]]; [| |lia]; lra.
Qed.

(** When only the variances are trained, the origin of the data matters: the
    same data, measured from 0 and from 1. *)
Definition fx0 : list vec := [[Fin 0]; [Fin 0]].
Definition ex_frozen0 : hmm gaussp :=
  ex_ga 1 (fun _ => 1) (fun _ _ => 1) "diag" "c" 0 (fmat 1 1 (fun _ _ => -1)) (CV2 (fmat 1 1 (fun _ _ => 1))).
Lemma C87_origin_refuted_l : exists h h2 nc nf pi A mu mu2 var c ls x h' h2' ev ev2 v' v2',
  same_settings h h2 /\ ga_type (h_em h) = "diag"%string /\ ga_type (h_em h2) = "diag"%string
  /\ gauss_model h nc nf pi A mu var /\ flat_base h /\ gauss_default h 0
  /\ gauss_model h2 nc nf pi A mu2 var /\ flat_base h2 /\ gauss_default h2 0
  /\ (forall i f, mu2 i f = mu i f + c f)
  /\ has "m" (c_params (h_cfg h)) = false /\ has "c" (c_params (h_cfg h)) = true
  /\ good_data (finite_row nf) ls x /\ possible nc pi A (gauss_b nf mu (floored var)) ls x
  /\ fit_from gaussian exact h x (as_lengths ls) = Ok (h', ev)
  /\ fit_from gaussian exact h2 (map (move_row nf (fun f => f) (fun _ => 1) c) x) (as_lengths ls) = Ok (h2', ev2)
  /\ ga_covars (h_em h') = Some (CV2 (fmat nc nf v')) /\ ga_covars (h_em h2') = Some (CV2 (fmat nc nf v2'))
  /\ v' 0%nat 0%nat = 2 * 10 ^ 5 /\ v2' 0%nat 0%nat = 0.
Proof.
  assert (Hcv : vcov 1 1 (fun _ _ => 1) "diag" (CV2 (fmat 1 1 (fun _ _ => 1)))) by constructor.
  assert (Run : forall m o, exists h' ev v', fit_from gaussian exact
     (ex_ga 1 (fun _ => 1) (fun _ _ => 1) "diag" "c" 0 (fmat 1 1 (fun _ _ => m)) (CV2 (fmat 1 1 (fun _ _ => 1)))) [[Fin o]; [Fin o]] (as_lengths [1; 1]%nat) = Ok (h', ev)
     /\ ga_covars (h_em h') = Some (CV2 (fmat 1 1 v')) /\ v' 0%nat 0%nat = 2 * o ^ 2 * 10 ^ 5
     /\ gauss_model (ex_ga 1 (fun _ => 1) (fun _ _ => 1) "diag" "c" 0 (fmat 1 1 (fun _ _ => m)) (CV2 (fmat 1 1 (fun _ _ => 1)))) 1 1 (fun _ => 1) (fun _ _ => 1) (fun _ _ => m) (fun _ _ => 1)
     /\ good_data (finite_row 1) [1; 1]%nat [[Fin o]; [Fin o]]
     /\ possible 1 (fun _ => 1) (fun _ _ => 1) (gauss_b 1 (fun _ _ => m) (floored (fun _ _ => 1))) [1; 1]%nat [[Fin o]; [Fin o]]).
  { intros m o. set (h := ex_ga _ _ _ _ _ _ _ _). set (y := [[Fin o]; [Fin o]] : list vec).
    assert (Hb : base_ok h 1 (fun _ => 1) (fun _ _ => 1)) by (destruct frozen_base; constructor; assumption).
    assert (Hd : good_data (finite_row 1) [1; 1]%nat y) by (split; [|split; [discriminate|split; [repeat constructor; lia|reflexivity]]]; repeat constructor).
    assert (Hp : possible 1 (fun _ => 1) (fun _ _ => 1) (gauss_b 1 (fun _ _ => m) (floored (fun _ _ => 1))) [1; 1]%nat y)
      by (intros c [<-|[<-|[]]]; cbn [firstn skipn y]; rewrite single_lik; apply gb_pos).
    assert (GM : gauss_model h 1 1 (fun _ => 1) (fun _ _ => 1) (fun _ _ => m) (fun _ _ => 1)) by (apply ex_ga_model; [exact Hb|lia|exact Hcv]).
    destruct (ex_ga_fit 1 1 (fun _ => 1) (fun _ _ => 1) (fun _ _ => m) (fun _ _ => 1) "diag" "c" 0 _ Hb ltac:(lia) Hcv
                [1; 1]%nat y Hd Hp ltac:(discriminate)) as (h' & ev & H & Hk). fold h in H.
    destruct (C36_frozen_means_l h 1 1 (fun _ => 1) (fun _ _ => 1) (fun _ _ => m) (fun _ _ => 1) 0 [1; 1]%nat y h' ev GM
      ltac:(split; reflexivity) ltac:(repeat split) ltac:(lra) ltac:(simpl; lra) ltac:(intros; simpl; lra)
      Hd Hp eq_refl eq_refl eq_refl H) as (pis & As & mus & vs & T & U).
    rewrite Hk in U. destruct (U 0%nat ltac:(lia) 0%nat 0%nat ltac:(lia) ltac:(lia)) as [_ V].
    destruct T as (T0 & T1 & _ & _ & _ & _ & cv & Tc & Tv). rewrite Hk in *. rewrite T0, T1 in V.
    assert (Ht : forall mu v phi, weighted_total 1 (fun _ => 1) (fun _ _ => 1) (gauss_b 1 mu (floored v)) (chunks [1; 1]%nat y) phi 0
                   = 2 * phi [Fin o]).
    { intros mu v phi. unfold weighted_total. cbn [chunks firstn skipn y sumL length sumn map nth]. rewrite single_post by apply gb_pos. ring. }
    rewrite Ht in V. unfold xval, vget in V. cbn [nth rval] in V.
    exists h', ev, (vs 1%nat). split; [exact H|]. split; [inversion Tv; subst; exact Tc|]. split; [rewrite V; ring|]. auto. }
  destruct (Run 0 1) as (h' & ev & v' & H & Ec & Ev & GM & Hd & Hp). destruct (Run (-1) 0) as (h2' & ev2 & v2' & H2 & Ec2 & Ev2 & GM2 & _ & _).
  fold ex_frozen in H, GM. fold ex_frozen0 in H2, GM2. fold fx in H, Hd, Hp. fold fx0 in H2.
  assert (X0 : map (move_row 1 (fun f => f) (fun _ => 1) (fun _ => -1)) fx = fx0).
  { unfold fx, fx0, move_row, fvec, tab. cbn [map seq]. unfold xval, vget. cbn [nth rval]. repeat (f_equal; try lra). }
  exists ex_frozen, ex_frozen0, 1%nat, 1%nat, (fun _ => 1), (fun _ _ => 1), (fun _ _ => 0), (fun _ _ => -1), (fun _ _ => 1), (fun _ => -1),
    [1; 1]%nat, fx, h', h2', ev, ev2, v', v2'. rewrite X0.
  repeat (split; [first [reflexivity|assumption|intros; lra|constructor; reflexivity|repeat split]|]). rewrite Ev2; ring.
Qed.
