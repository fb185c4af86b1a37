(** * Examples for C77 and C78. *)
From Coq Require Import Permutation.
From Verif Require Export Relabel_thms Gauss_ex Full_ex.

(** A model with its states renumbered. *)
Definition renumber {P} (s : nat -> nat) (h : hmm P) nc (pi : nat -> R) (A : nat -> nat -> R) (p : P) : hmm P :=
  Hmm (h_cfg h) (h_nfeat h) (Some (fvec nc (fun i => pi (s i)))) (Some (fmat nc nc (fun i j => A (s i) (s j)))) (h_mon h) p.

Lemma renumber_base {P} s (h : hmm P) nc pi A p : permutes nc s -> base_ok h nc pi A ->
  base_ok (renumber s h nc pi A p) nc (fun i => pi (s i)) (fun i j => A (s i) (s j)).
Proof.
  intros Hs []. constructor; try assumption; try reflexivity.
  - intros i Hi. apply bo_pi, Hs, Hi.
  - rewrite (sumn_perm nc s Hs pi). exact bo_pi1.
  - intros i j Hi Hj. apply bo_A; apply Hs; assumption.
  - intros i Hi. rewrite (sumn_perm nc s Hs (A (s i))). apply bo_A1, Hs, Hi.
Qed.
Lemma renumber_settings {P} s (h : hmm P) nc pi A p : same_settings h (renumber s h nc pi A p).
Proof. constructor; reflexivity. Qed.

(** ** C77 *)
Lemma C77_categorical_applies_l :
  let h := ex_h "log" "map" in
  let h2 := renumber swap2 h 2 ex_pi ex_A (Catp (Scal (Fin 1)) (Some (fmat 2 3 (fun i => ex_e (swap2 i))))) in
  permutes 2 swap2 /\ swap2 0 <> 0%nat
  /\ cat_model h 2 3 ex_pi ex_A ex_e
  /\ cat_model h2 2 3 (fun i => ex_pi (swap2 i)) (fun i j => ex_A (swap2 i) (swap2 j)) (fun i => ex_e (swap2 i))
  /\ exists h' h2' ev, fit_from categorical exact h ex_x (as_lengths [3]%nat) = Ok (h', ev)
     /\ fit_from categorical exact h2 ex_x (as_lengths [3]%nat) = Ok (h2', ev) /\ renumbered 2 swap2 h' h2'.
Proof.
  intros h h2. pose proof swap2_permutes as Hs. split; [exact Hs|]. split; [discriminate|].
  pose proof (ex_model "log" "map") as CM. fold h in CM.
  assert (CM2 : cat_model h2 2 3 (fun i => ex_pi (swap2 i)) (fun i j => ex_A (swap2 i) (swap2 j)) (fun i => ex_e (swap2 i))).
  { destruct (renumber_base swap2 h 2 ex_pi ex_A (h_em h2) Hs) as [B1 B2 B3 B4 B5 B6 B7 B8]; [destruct CM; constructor; assumption|].
    destruct CM. constructor; try assumption; try reflexivity.
    - intros i k Hi Hk. apply cm_e; [apply Hs|]; assumption.
    - intros i Hi. apply cm_e1, Hs, Hi. }
  split; [exact CM|]. split; [exact CM2|].
  pose proof (flat_cat_priors h 2 3 ltac:(repeat split)) as CP. pose proof (flat_cat_priors h2 2 3 ltac:(repeat split)) as CP2.
  assert (Hd : good_data (sym_ok 3) [3]%nat ex_x).
  { split; [exact ex_x_ok|]. split; [discriminate|]. split; [repeat constructor; lia|reflexivity]. }
  assert (Hpos : possible 2 ex_pi ex_A (cat_b ex_e) [3]%nat ex_x).
  { intros c [<-|[]]. cbn [firstn ex_x]. fold ex_x. rewrite ex_lik. lra. }
  destruct (cat_fit_log_ok h 2 3 ex_pi ex_A ex_e _ _ _ [3]%nat ex_x CM CP Hd Hpos eq_refl) as ([h' ev] & H).
  destruct (C77_categorical_l h h2 2 3 ex_pi ex_A ex_e _ _ _ swap2 [3]%nat ex_x h' ev Hs (renumber_settings _ _ _ _ _ _)
    CM CP CM2 CP2 Hd Hpos H) as (h2' & e' & F & Q & _).
  exists h', h2', ev. auto.
Qed.

(** The fitted rates are (0, 4), and (4, 0) when the states are renumbered. *)
Lemma C77_poisson_applies_l :
  let h := ex_po "stl" 0 0 in
  let h2 := renumber swap2 h 2 sw_pi sw_A (h_em h) in
  pois_model h2 2 1 (fun i => sw_pi (swap2 i)) (fun i j => sw_A (swap2 i) (swap2 j)) (fun _ _ => 1)
  /\ exists h' h2' ev, fit_from poisson exact h ex_px (as_lengths [2]%nat) = Ok (h', ev)
     /\ fit_from poisson exact h2 ex_px (as_lengths [2]%nat) = Ok (h2', ev)
     /\ po_lam (h_em h') = Some (fmat 2 1 (fun i _ => match i with 0%nat => 0 | _ => 4 end))
     /\ po_lam (h_em h2') = Some (fmat 2 1 (fun i _ => match i with 0%nat => 4 | _ => 0 end)).
Proof.
  intros h h2. pose proof swap2_permutes as Hs. pose proof (ex_pois_model "stl" 0 0) as PM. fold h in PM.
  assert (PM2 : pois_model h2 2 1 (fun i => sw_pi (swap2 i)) (fun i j => sw_A (swap2 i) (swap2 j)) (fun _ _ => 1)).
  { constructor; [apply renumber_base; [exact Hs|apply PM]|left; reflexivity|reflexivity|intros i f _ _; lra]. }
  split; [exact PM2|]. destruct C41_applies_l as (h' & ev & H & _ & _ & E). exists h'.
  assert (GP : gamma_prior 2 1 (h_em h) (fun _ _ => 0) (fun _ _ => 0)) by (intros i f _ _; split; reflexivity).
  assert (PR : priors (h_cfg h) 2 (fun _ => 1) (fun _ _ => 1)) by (apply (flat_base_priors h 2); split; reflexivity).
  destruct (C77_poisson_l h h2 2 1 sw_pi sw_A (fun _ _ => 1) (fun _ _ => 0) (fun _ _ => 0) (fun _ => 1) (fun _ _ => 1)
    swap2 [2]%nat ex_px h' ev Hs (renumber_settings _ _ _ _ _ _) PM GP PR PM2 GP PR
    ltac:(intros i f _ _; lra) ltac:(intros i f _ _; lra) ltac:(intros; lra) ltac:(intros; lra)
    ex_px_good ex_px_possible (fun _ => ex_px_used) H) as (h2' & l' & F & _ & L1 & L2).
  exists h2', ev. split; [exact H|]. split; [exact F|]. split; [exact E|]. rewrite L2. f_equal. apply fmat_ext.
  intros i f Hi Hf. rewrite E in L1. injection L1 as L1.
  assert (Q : forall j, (j < 2)%nat -> l' j 0%nat = match j with 0%nat => 0 | _ => 4 end).
  { intros [|[|j]] Hj; [| |lia]; congruence. }
  assert (f = 0%nat) by lia. subst f. destruct i as [|[|i]]; [| |lia]; apply Q; cbn; lia.
Qed.

(** State 0 emitted (3,1,0), state 1 emitted (0,2,2), or the other way round. *)
Lemma C77_multinomial_applies_l :
  let h := ex_mu "ste" in
  let h2 := renumber swap2 h 2 sw_pi sw_A (Mulp (Some (TNum 4)) (Some (fmat 2 3 (fun i => ex_me (swap2 i))))) in
  mult_model h2 2 3 (fun i => sw_pi (swap2 i)) (fun i j => sw_A (swap2 i) (swap2 j)) (fun i => ex_me (swap2 i))
  /\ exists h' h2' ev, fit_from multinomial exact h ex_mx (as_lengths [2]%nat) = Ok (h', ev)
     /\ fit_from multinomial exact h2 ex_mx (as_lengths [2]%nat) = Ok (h2', ev)
     /\ mu_prob (h_em h') = Some (fmat 2 3 (fun i f => IZR (nth f (nth i ex_mx []) 0%Z) / 4))
     /\ mu_prob (h_em h2') = Some (fmat 2 3 (fun i f => IZR (nth f (nth (1 - i) ex_mx []) 0%Z) / 4)).
Proof.
  intros h h2. pose proof swap2_permutes as Hs. pose proof (ex_mult_model "ste") as MM. fold h in MM.
  assert (MM2 : mult_model h2 2 3 (fun i => sw_pi (swap2 i)) (fun i j => sw_A (swap2 i) (swap2 j)) (fun i => ex_me (swap2 i))).
  { constructor; [apply renumber_base; [exact Hs|apply MM]|right; reflexivity|lia|reflexivity| |discriminate].
    intros i Hi. apply (mm_stoch _ _ _ _ _ _ MM). apply Hs, Hi. }
  split; [exact MM2|]. destruct C42_applies_l as (h' & ev & H & _ & E). exists h'.
  assert (PR : priors (h_cfg h) 2 (fun _ => 1) (fun _ _ => 1)) by (apply (flat_base_priors h 2); split; reflexivity).
  destruct (C77_multinomial_l h h2 2 3 sw_pi sw_A ex_me (fun _ => 1) (fun _ _ => 1)
    swap2 [2]%nat ex_mx h' ev Hs (renumber_settings _ _ _ _ _ _) MM PR MM2 PR ltac:(intros; lra) ltac:(intros; lra)
    ex_mx_good ex_mx_possible (fun _ => ex_mx_used) H) as (h2' & e' & F & _ & L1 & L2).
  exists h2', ev. split; [exact H|]. split; [exact F|]. split; [exact E|]. rewrite L2. f_equal. apply fmat_ext.
  intros i f Hi Hf. rewrite E in L1. injection L1 as L1.
  assert (Q : forall j f, (j < 2)%nat -> (f < 3)%nat -> e' j f = IZR (nth f (nth j ex_mx []) 0%Z) / 4).
  { intros j k Hj Hk. destruct j as [|[|j]]; [| |lia]; (destruct k as [|[|[|k]]]; [| | |lia]); cbn in L1 |- *; congruence. }
  rewrite Q; [|apply Hs, Hi|exact Hf]. destruct i as [|[|i]]; [| |lia]; reflexivity.
Qed.

(** Fitted means 1 and 7, or 7 and 1. *)
Lemma C77_gaussian_applies_l :
  let h := ex_sw "diag" "mc" 0 in
  let h2 := renumber swap2 h 2 sw_pi sw_A (h_em h) in
  gauss_model h2 2 2 (fun i => sw_pi (swap2 i)) (fun i j => sw_A (swap2 i) (swap2 j)) (fun _ _ => 1) (fun _ _ => 1)
  /\ exists h' h2' ev, fit_from gaussian exact h sx (as_lengths [2; 2]%nat) = Ok (h', ev)
     /\ fit_from gaussian exact h2 sx (as_lengths [2; 2]%nat) = Ok (h2', ev)
     /\ ga_means (h_em h') = Some (fmat 2 2 (fun i _ => match i with 0%nat => 1 | _ => 7 end))
     /\ ga_means (h_em h2') = Some (fmat 2 2 (fun i _ => match i with 0%nat => 7 | _ => 1 end)).
Proof.
  intros h h2. pose proof swap2_permutes as Hs.
  pose proof (ex_sw_model "diag" "mc" 0 (or_introl eq_refl)) as GM. fold h in GM.
  assert (GM2 : gauss_model h2 2 2 (fun i => sw_pi (swap2 i)) (fun i j => sw_A (swap2 i) (swap2 j)) (fun _ _ => 1) (fun _ _ => 1)).
  { constructor; [apply renumber_base; [exact Hs|apply GM]|lia|apply GM|apply GM]. }
  split; [exact GM2|].
  destruct (ex_sw_trained "diag" (or_introl eq_refl)) as (h' & ev & pis & As & mus & vs & H & Hk & T & U).
  destruct T as (_ & _ & _ & _ & _ & Tm & _). rewrite Hk in Tm.
  assert (E : ga_means (h_em h') = Some (fmat 2 2 (fun i _ => match i with 0%nat => 1 | _ => 7 end)))
    by (rewrite Tm; f_equal; apply fmat_ext; intros i f Hi Hf; apply U; assumption).
  exists h'. pose proof (default_hyper h 2 2 0 ltac:(repeat split)) as HH.
  assert (PR : priors (h_cfg h) 2 (fun _ => 1) (fun _ _ => 1)) by (apply (flat_base_priors h 2); split; reflexivity).
  destruct (C77_gaussian_l h h2 2 2 sw_pi sw_A (fun _ _ => 1) (fun _ _ => 1) (fun _ _ => 0) (fun _ _ => 0) (fun _ _ => 0) 0
    (fun _ => 1) (fun _ _ => 1) swap2 [2; 2]%nat sx h' ev Hs (renumber_settings _ _ _ _ _ _) eq_refl GM HH PR GM2 HH PR
    ltac:(intros i f _ _; lra) ltac:(intros; lra) ltac:(intros; lra) sx_good sx_possible (fun _ => or_introl sx_used) H)
    as (h2' & m' & v' & F & _ & L1 & L2 & _).
  exists h2', ev. split; [exact H|]. split; [exact F|]. split; [exact E|]. rewrite L2. f_equal. apply fmat_ext.
  intros i f Hi Hf. rewrite E in L1. injection L1 as L1.
  assert (Q : forall j f, (j < 2)%nat -> (f < 2)%nat -> m' j f = match j with 0%nat => 1 | _ => 7 end).
  { intros j k Hj Hk'. destruct j as [|[|j]]; [| |lia]; (destruct k as [|[|k]]; [| |lia]); congruence. }
  rewrite Q; [|apply Hs, Hi|exact Hf]. destruct i as [|[|i]]; [| |lia]; reflexivity.
Qed.

Lemma C77_gaussian_full_applies_l : forall ty, ty = "tied"%string \/ ty = "full"%string ->
  let h := ex_fw ty (Arr2 (fmat 2 2 id2)) in
  let h2 := renumber swap2 h 2 sw_pi sw_A (h_em h) in
  full_model h2 2 2 (fun i => sw_pi (swap2 i)) (fun i j => sw_A (swap2 i) (swap2 j)) (fun _ _ => 1) (fun _ => id2)
  /\ exists h' h2' ev, fit_from gaussian exact h sx (as_lengths [2; 2]%nat) = Ok (h', ev)
     /\ fit_from gaussian exact h2 sx (as_lengths [2; 2]%nat) = Ok (h2', ev)
     /\ ga_means (h_em h') = Some (fmat 2 2 (fun i _ => match i with 0%nat => 1 | _ => 7 end))
     /\ ga_means (h_em h2') = Some (fmat 2 2 (fun i _ => match i with 0%nat => 7 | _ => 1 end)).
Proof.
  intros ty Hty h h2. pose proof swap2_permutes as Hs.
  pose proof (ex_fw_model ty (Arr2 (fmat 2 2 id2)) Hty) as FM. fold h in FM.
  assert (FM2 : full_model h2 2 2 (fun i => sw_pi (swap2 i)) (fun i j => sw_A (swap2 i) (swap2 j)) (fun _ _ => 1) (fun _ => id2)).
  { constructor; [apply renumber_base; [exact Hs|apply FM]|lia|apply FM|apply FM|intros; exact id2_psd]. }
  split; [exact FM2|].
  destruct (ex_fw_trained ty (Arr2 (fmat 2 2 id2)) id2 Hty (cast_fmat 2 2 id2) id2_psd)
    as (h' & ev & pis & As & mus & Ss & b & b0 & H & Hk & Hh & D & Hp & Hu & T & M & _).
  destruct T as (_ & _ & _ & _ & _ & _ & Tm & _). rewrite Hk in Tm.
  assert (E : ga_means (h_em h') = Some (fmat 2 2 (fun i _ => match i with 0%nat => 1 | _ => 7 end)))
    by (rewrite Tm; f_equal; apply fmat_ext; intros i f Hi Hf; apply M; assumption).
  exists h'.
  assert (PR : priors (h_cfg h) 2 (fun _ => 1) (fun _ _ => 1)) by (apply (flat_base_priors h 2); split; reflexivity).
  destruct (C77_gaussian_full_l h h2 2 2 sw_pi sw_A (fun _ _ => 1) (fun _ => id2) (fun _ _ => 0) id2 0 0
    (fun _ => 1) (fun _ _ => 1) swap2 [2; 2]%nat sx b0 h' ev Hs (renumber_settings _ _ _ _ _ _) eq_refl FM Hh PR FM2 Hh PR
    ltac:(intros; lra) ltac:(intros; lra) sx_good D Hp
    ltac:(split; intros _; [left|right; split; [reflexivity|]]; exact Hu) H)
    as (h2' & m' & v' & F & _ & L1 & L2 & _).
  exists h2', ev. split; [exact H|]. split; [exact F|]. split; [exact E|]. rewrite L2. f_equal. apply fmat_ext.
  intros i f Hi Hf. rewrite E in L1. injection L1 as L1.
  assert (Q : forall j f, (j < 2)%nat -> (f < 2)%nat -> m' j f = match j with 0%nat => 1 | _ => 7 end).
  { intros j k Hj Hk'. destruct j as [|[|j]]; [| |lia]; (destruct k as [|[|k]]; [| |lia]); congruence. }
  rewrite Q; [|apply Hs, Hi|exact Hf]. destruct i as [|[|i]]; [| |lia]; reflexivity.
Qed.

(** ** C78: the two sequences of [sx] exchanged *)
Definition sx2 : list vec := [[Fin 2; Fin 2]; [Fin 9; Fin 9]; [Fin 0; Fin 0]; [Fin 5; Fin 5]].
Lemma C78_applies_l : sx2 <> sx /\ good_data (finite_row 2) [2; 2]%nat sx2
  /\ Permutation (chunks [2; 2]%nat sx) (chunks [2; 2]%nat sx2)
  /\ exists h' ev, fit_from gaussian exact (ex_sw "diag" "stmc" 0) sx (as_lengths [2; 2]%nat) = Ok (h', ev)
     /\ fit_from gaussian exact (ex_sw "diag" "stmc" 0) sx2 (as_lengths [2; 2]%nat) = Ok (h', ev).
Proof.
  split; [intros E; injection E; intros; lra|].
  assert (Hd2 : good_data (finite_row 2) [2; 2]%nat sx2).
  { split; [|split; [discriminate|split; [repeat constructor; lia|reflexivity]]]. repeat constructor. }
  split; [exact Hd2|].
  assert (Hp : Permutation (chunks [2; 2]%nat sx) (chunks [2; 2]%nat sx2)) by (cbn; apply perm_swap).
  split; [exact Hp|].
  destruct (ex_sw_fit "diag" "stmc" 0 (or_introl eq_refl)) as (h' & ev & H & _). exists h', ev. split; [exact H|].
  apply (C78_gaussian_l (ex_sw "diag" "stmc" 0) 2 2 sw_pi sw_A (fun _ _ => 1) (fun _ _ => 1) (fun _ _ => 0) (fun _ _ => 0) (fun _ _ => 0) 0
    (fun _ => 1) (fun _ _ => 1) [2; 2]%nat sx [2; 2]%nat sx2 h' ev).
  - apply ex_sw_model. left; reflexivity.
  - apply default_hyper. repeat split.
  - apply (flat_base_priors (ex_sw "diag" "stmc" 0) 2); split; reflexivity.
  - intros i f _ _; lra.
  - intros; lra.
  - intros; lra.
  - exact sx_good.
  - exact Hd2.
  - exact Hp.
  - exact sx_possible.
  - intros _. left. exact sx_used.
  - exact H.
Qed.
