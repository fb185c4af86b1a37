(** * Property C81: a fit that raises, variational classes. *)
From Verif Require Import Vinterrupt_thms Vinterrupt_args Vinterrupt_retry Vinterrupt_prior Vinterrupt_ex.

Theorem C81_vcategorical {G} (rg : rng G) fp : vinterrupted vcategorical vcat_initc vcat_left rg fp (vcat_left_as fp).
Proof. exact (@C81_vcategorical_l _ _ _). Qed.
Print Assumptions C81_vcategorical.

Theorem C81_vgaussian {G} la (gr : grng G) (rg : rng G) fp :
  vinterrupted (vgaussian la) (vg_initc gr) (vg_left gr) rg fp (fun n e' ek => e' = vbuilt n ek).
Proof. exact (@C81_vgaussian_l _ _ _ _ _). Qed.
Print Assumptions C81_vgaussian.

Theorem C81_voutcome {P X St G} (V : vclass P X St) (I : vinitclass P X G) (L : vleftclass P X G) (rg : rng G) fp e glob x ls :
  match vfit_run V I L rg fp e glob x ls with
  | VReturned e1 g1 ev => vfit V I rg fp e glob x ls = Ok (e1, g1, ev)
  | VRaised _ _ ex => vfit V I rg fp e glob x ls = Err ex
  end.
Proof. exact (@C81_voutcome_l _ _ _ _ _ _ _ _ _ _ _ _ _). Qed.
Print Assumptions C81_voutcome.

Theorem C81_vcategorical_lengths {G} (rg : rng G) fp : vrestarted vcategorical vcat_initc vcat_left rg fp (vcat_left_as fp).
Proof. exact (@C81_vcategorical_lengths_l _ _ _). Qed.
Print Assumptions C81_vcategorical_lengths.

Theorem C81_vgaussian_lengths {G} la (gr : grng G) (rg : rng G) fp :
  vrestarted (vgaussian la) (vg_initc gr) (vg_left gr) rg fp (fun n e' ek => e' = vbuilt n ek).
Proof. exact (@C81_vgaussian_lengths_l _ _ _ _ _). Qed.
Print Assumptions C81_vgaussian_lengths.

Theorem C81_vcategorical_untouched {G} (rg : rng G) fp : vuntouched vcategorical vcat_initc vcat_left rg fp vwrong_symbol.
Proof. exact (@C81_vcategorical_untouched_l _ _ _). Qed.
Print Assumptions C81_vcategorical_untouched.

Theorem C81_vgaussian_untouched {G} la (gr : grng G) (rg : rng G) fp : vuntouched (vgaussian la) (vg_initc gr) (vg_left gr) rg fp vwrong_width.
Proof. exact (@C81_vgaussian_untouched_l _ _ _ _ _). Qed.
Print Assumptions C81_vgaussian_untouched.

Theorem C81_vcategorical_arguments {G} (rg : rng G) fp e glob x ls e' glob' ex :
  vfit_run vcategorical vcat_initc vcat_left rg fp e glob x ls = VRaised e' glob' ex ->
  let v := ve_v e in let v' := ve_v e' in
  v_cfg v' = v_cfg v /\ same_random_state (ve_rs e) (ve_rs e') /\ v_sarg v' = v_sarg v /\ v_targ v' = v_targ v
  /\ vk_arg (h_em (v_h v')) = vk_arg (h_em (v_h v)).
Proof. exact (@C81_vcategorical_arguments_l _ _ _ _ _ _ _ _ _ _). Qed.
Print Assumptions C81_vcategorical_arguments.

Theorem C81_vgaussian_arguments {G} la (gr : grng G) (rg : rng G) fp e glob x ls e' glob' ex :
  vfit_run (vgaussian la) (vg_initc gr) (vg_left gr) rg fp e glob x ls = VRaised e' glob' ex ->
  let v := ve_v e in let v' := ve_v e' in let p := h_em (v_h v) in let p' := h_em (v_h v') in
  v_cfg v' = v_cfg v /\ same_random_state (ve_rs e) (ve_rs e') /\ v_sarg v' = v_sarg v /\ v_targ v' = v_targ v
  /\ vg_type p' = vg_type p /\ vg_marg p' = vg_marg p /\ vg_barg p' = vg_barg p /\ vg_darg p' = vg_darg p /\ vg_sarg p' = vg_sarg p.
Proof. exact (@C81_vgaussian_arguments_l _ _ _ _ _ _ _ _ _ _ _ _). Qed.
Print Assumptions C81_vgaussian_arguments.

Theorem C81_vgaussian_retry {G} la (gr : grng G) (rg : rng G) fp e glob x ls e' glob' ex ga gb y ms k e1 g1 v1 :
  vfit_run (vgaussian la) (vg_initc gr) (vg_left gr) rg fp e glob x ls = VRaised e' glob' ex ->
  ve_rs e = RSSeed k -> vall_letters e ["s"; "t"; "m"; "c"]%char ->
  vfit (vgaussian la) (vg_initc gr) rg fp e ga y ms = Ok (e1, g1, v1) ->
  h_nfeat (v_h (ve_v e')) = None \/ h_nfeat (v_h (ve_v e')) = h_nfeat (v_h (ve_v e1)) ->
  exists v2, vfit (vgaussian la) (vg_initc gr) rg fp e' gb y ms = Ok (e1, gb, v2).
Proof. exact (@C81_vgaussian_retry_l _ _ _ _ _ _ _ _ _ _ _ _ _ _ _ _ _ _ _ _). Qed.
Print Assumptions C81_vgaussian_retry.

Theorem C81_vcategorical_retry {G} (rg : rng G) fp e glob x ls e' glob' ex ga gb y ms k e1 g1 v1 :
  vfit_run vcategorical vcat_initc vcat_left rg fp e glob x ls = VRaised e' glob' ex ->
  ve_rs e = RSSeed k -> vall_letters e ["s"; "t"; "e"]%char ->
  vfit vcategorical vcat_initc rg fp e ga y ms = Ok (e1, g1, v1) ->
  h_nfeat (v_h (ve_v e')) = h_nfeat (v_h (ve_v e)) \/ h_nfeat (v_h (ve_v e')) = h_nfeat (v_h (ve_v e1)) ->
  exists v2, vfit vcategorical vcat_initc rg fp e' gb y ms = Ok (e1, gb, v2).
Proof. exact (@C81_vcategorical_retry_l _ _ _ _ _ _ _ _ _ _ _ _ _ _ _ _ _ _). Qed.
Print Assumptions C81_vcategorical_retry.

(** The start attributes are those of the new call, the transition attributes
    those of the fitted model. *)
Theorem C81_vmixed_refuted : exists e' msg,
  vfit_run vcategorical vcat_initc vcat_left flat_rng exact (VEst misshaped (@RSSeed unit 0)) tt [0; 1; 1; 0; 1]%Z None
    = VRaised e' tt (ValueError msg)
  /\ v_sprior (ve_v e') = Some [Fin (/ 2); Fin (/ 2)] /\ v_spost (ve_v e') = Some [Fin (/ 2); Fin (/ 2)]
  /\ v_sprior (ve_v e') <> v_sprior misshaped /\ v_spost (ve_v e') <> v_spost misshaped
  /\ v_tprior (ve_v e') = v_tprior misshaped /\ v_tpost (ve_v e') = v_tpost misshaped.
Proof. exact (@C81_vmixed_refuted_l). Qed.
Print Assumptions C81_vmixed_refuted.

(** Five samples, lengths 3 and 3. *)
Example C81_vcategorical_applies :
  let e := VEst (fresh_v "ste" 3 None) (@RSSeed unit 0) in let x := [0; 1; 1; 0; 1]%Z in let l := [3; 3]%Z in
  fold_left Z.add l 0%Z <> Z.of_nat (length x)
  /\ (exists e0 ev, vfit vcategorical vcat_initc flat_rng exact (vbuilt 0 e) tt x (Some l) = Ok (e0, tt, ev))
  /\ exists e' ex, vfit_run vcategorical vcat_initc vcat_left flat_rng exact (vbuilt 3 e) tt x (Some l) = VRaised e' tt ex
     /\ v_spost (ve_v e') <> None /\ v_spost (ve_v e) = None.
Proof. exact (@C81_vcategorical_applies_l). Qed.

(** Three samples, lengths 2 and 2. *)
Example C81_vgaussian_applies : exists la (gr : grng unit) e0 e' ex ev,
  let e := vno_init_params (VEst (exg_v "full" "stmc" 3) (@RSSeed unit 0)) in let l := [2; 2]%Z in
  fold_left Z.add l 0%Z <> Z.of_nat (length exg_x)
  /\ vfit (vgaussian la) (vg_initc gr) flat_rng exact (vbuilt 0 e) tt exg_x (Some l) = Ok (e0, tt, ev)
  /\ vfit_run (vgaussian la) (vg_initc gr) (vg_left gr) flat_rng exact (vbuilt 3 e) tt exg_x (Some l) = VRaised e' tt ex
  /\ e' = vbuilt 3 e0 /\ vg_m (h_em (v_h (ve_v e'))) <> None.
Proof. exact (@C81_vgaussian_applies_l). Qed.

Example C81_vcategorical_retry_applies :
  let e := VEst given_v (@RSSeed unit 0) in let x := [0; 1; 1; 0; 1]%Z in
  vall_letters e ["s"; "t"; "e"]%char
  /\ exists e' ex e1 v1 v2, vfit_run vcategorical vcat_initc vcat_left flat_rng exact e tt x (Some [3; 3]%Z) = VRaised e' tt ex
     /\ h_nfeat (v_h (ve_v e')) = h_nfeat (v_h (ve_v e)) /\ v_spost (ve_v e') <> v_spost (ve_v e)
     /\ vfit vcategorical vcat_initc flat_rng exact e tt x (as_lengths [3%nat; 2%nat]) = Ok (e1, tt, v1)
     /\ vfit vcategorical vcat_initc flat_rng exact e' tt x (as_lengths [3%nat; 2%nat]) = Ok (e1, tt, v2).
Proof. exact (@C81_vcategorical_retry_applies_l). Qed.

