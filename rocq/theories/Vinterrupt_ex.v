(** * Property C81: variational classes, examples. *)
From Verif Require Export Vinterrupt_retry.

(** Five samples, lengths 3 and 3. *)
Lemma C81_vcategorical_applies_l :
  let e := VEst (fresh_v "ste" 3 None) (@RSSeed unit 0) in let x := [0; 1; 1; 0; 1]%Z in let l := [3; 3]%Z in
  fold_left Z.add l 0%Z <> Z.of_nat (length x)
  /\ (exists e0 ev, vfit vcategorical vcat_initc flat_rng exact (vbuilt 0 e) tt x (Some l) = Ok (e0, tt, ev))
  /\ exists e' ex, vfit_run vcategorical vcat_initc vcat_left flat_rng exact (vbuilt 3 e) tt x (Some l) = VRaised e' tt ex
     /\ v_spost (ve_v e') <> None /\ v_spost (ve_v e) = None.
Proof.
  cbv zeta. split; [discriminate|].
  assert (H : exists e0 ev, vfit vcategorical vcat_initc flat_rng exact (vbuilt 0 (VEst (fresh_v "ste" 3 None) (@RSSeed unit 0))) tt [0; 1; 1; 0; 1]%Z (Some [3; 3]%Z) = Ok (e0, tt, ev)
    /\ v_spost (ve_v e0) <> None).
  { eexists _, _. split; [reflexivity|discriminate]. }
  destruct H as (e0 & ev & H & H1). split; [eauto|].
  destruct (C81_vcategorical_lengths_l flat_rng exact 3%nat _ tt [0; 1; 1; 0; 1]%Z [3; 3]%Z e0 tt ev ltac:(discriminate) ltac:(lia) H)
    as (e' & ex & HR & Hs).
  exists e', ex. split; [exact HR|]. split; [|reflexivity]. destruct Hs as [->|(po & _ & ->)]; exact H1.
Qed.
(** Three samples, lengths 2 and 2. *)
Lemma C81_vgaussian_applies_l : exists la (gr : grng unit) e0 e' ex ev,
  let e := vno_init_params (VEst (exg_v "full" "stmc" 3) (@RSSeed unit 0)) in let l := [2; 2]%Z in
  fold_left Z.add l 0%Z <> Z.of_nat (length exg_x)
  /\ vfit (vgaussian la) (vg_initc gr) flat_rng exact (vbuilt 0 e) tt exg_x (Some l) = Ok (e0, tt, ev)
  /\ vfit_run (vgaussian la) (vg_initc gr) (vg_left gr) flat_rng exact (vbuilt 3 e) tt exg_x (Some l) = VRaised e' tt ex
  /\ e' = vbuilt 3 e0 /\ vg_m (h_em (v_h (ve_v e'))) <> None.
Proof.
  set (gr := Grng (fun k y (g : unit) => Ok ([0; 1; 0]%nat, mtab 2 2 (fun _ _ => Fin 0), g)) (fun _ _ _ _ => Err (ValueError "")) : grng unit).
  cbv zeta. set (e := vno_init_params (VEst (exg_v "full" "stmc" 3) (@RSSeed unit 0))).
  assert (H : exists la e0 ev, vfit (vgaussian la) (vg_initc gr) flat_rng exact (vbuilt 0 e) tt exg_x (Some [2; 2]%Z) = Ok (e0, tt, ev) /\ vg_m (h_em (v_h (ve_v e0))) <> None).
  { exists la_ref. eexists _, _. split; [reflexivity|discriminate]. }
  destruct H as (la & e0 & ev & H & H1).
  destruct (C81_vgaussian_lengths_l la gr flat_rng exact 3%nat e tt exg_x [2; 2]%Z e0 tt ev ltac:(discriminate) ltac:(lia) H) as (e' & ex & HR & Hs).
  exists la, gr, e0, e', ex, ev. split; [discriminate|]. split; [exact H|]. split; [exact HR|]. split; [exact Hs|]. rewrite Hs. exact H1.
Qed.
(** The failed call, then the same with the right lengths. *)
Definition given_v : vhmm vcatp := let v := fresh_v "ste" 3 None in let h := v_h v in
  with_h v (Hmm (h_cfg h) (Some 2%nat) (h_start h) (h_trans h) (h_mon h) (h_em h)).
Lemma C81_vcategorical_retry_applies_l :
  let e := VEst given_v (@RSSeed unit 0) in let x := [0; 1; 1; 0; 1]%Z in
  vall_letters e ["s"; "t"; "e"]%char
  /\ exists e' ex e1 v1 v2, vfit_run vcategorical vcat_initc vcat_left flat_rng exact e tt x (Some [3; 3]%Z) = VRaised e' tt ex
     /\ h_nfeat (v_h (ve_v e')) = h_nfeat (v_h (ve_v e)) /\ v_spost (ve_v e') <> v_spost (ve_v e)
     /\ vfit vcategorical vcat_initc flat_rng exact e tt x (as_lengths [3%nat; 2%nat]) = Ok (e1, tt, v1)
     /\ vfit vcategorical vcat_initc flat_rng exact e' tt x (as_lengths [3%nat; 2%nat]) = Ok (e1, tt, v2).
Proof.
  cbv zeta. assert (HL : vall_letters (VEst given_v (@RSSeed unit 0)) ["s"; "t"; "e"]%char) by (intros a [<-|[<-|[<-|[]]]]; reflexivity).
  split; [exact HL|].
  assert (H : exists e0 ev, vfit vcategorical vcat_initc flat_rng exact (vbuilt 0 (VEst given_v (@RSSeed unit 0))) tt [0; 1; 1; 0; 1]%Z (Some [3; 3]%Z) = Ok (e0, tt, ev)
    /\ v_spost (ve_v e0) <> None /\ h_nfeat (v_h (ve_v e0)) = Some 2%nat).
  { eexists _, _. split; [reflexivity|split; [discriminate|reflexivity]]. }
  destruct H as (e0 & ev & H & H1 & H2).
  destruct (C81_vcategorical_lengths_l flat_rng exact 3%nat _ tt [0; 1; 1; 0; 1]%Z [3; 3]%Z e0 tt ev ltac:(discriminate) ltac:(lia) H)
    as (e' & ex & HR & Hs). change (vbuilt 3 (VEst given_v (@RSSeed unit 0))) with (VEst given_v (@RSSeed unit 0)) in HR.
  destruct (C62_fit_returns_l flat_rng (VEst given_v (RSSeed 0)) tt [0; 1; 1; 0; 1]%Z [3%nat; 2%nat] 2 (/ 2) (/ 2) (/ 2))
    as (e1 & [] & v1 & p & q & Hf & _).
  - exact flat_pos.
  - exists tt. reflexivity.
  - cbn. lia.
  - apply letters_sub. intros a Ha. exact Ha.
  - reflexivity.
  - reflexivity.
  - repeat split.
  - apply scalar_default. lra.
  - apply scalar_default. lra.
  - apply scalar_default. lra.
  - exact ex_v_data.
  - left. reflexivity.
  - assert (Hn : h_nfeat (v_h (ve_v e')) = Some 2%nat /\ v_spost (ve_v e') <> None) by (destruct Hs as [->|(po & _ & ->)]; (split; [exact H2|exact H1])).
    destruct (C81_vcategorical_retry_l flat_rng exact _ tt _ _ e' tt ex tt tt [0; 1; 1; 0; 1]%Z (as_lengths [3%nat; 2%nat]) 0%Z e1 tt v1 HR eq_refl HL Hf) as (v2 & Hr).
    { left. apply Hn. }
    exists e', ex, e1, v1, v2. split; [exact HR|]. split; [apply Hn|]. split; [apply Hn|]. split; [exact Hf|exact Hr].
Qed.
