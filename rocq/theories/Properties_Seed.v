(** * Properties C29, C59: variational classes, refitting and training without start values. *)
From Verif Require Import Seed_v.

Theorem C29_vcategorical {G} (rg : rng G) fp e k glob x ls e1 glob1 ev1 glob2 :
  let ip := c_init_params (v_cfg (ve_v e)) in let l := match ls with None => [Z.of_nat (length x)] | Some l => l end in
  ve_rs e = RSSeed k -> has "s" ip = true -> has "t" ip = true -> has "e" ip = true ->
  vfit vcategorical vcat_initc rg fp e glob x ls = Ok (e1, glob1, ev1) ->
  exists ea eb va vb, vinit vcat_initc rg fp e glob x l = Ok (ea, glob, va) /\ vinit vcat_initc rg fp e1 glob2 x l = Ok (eb, glob2, vb)
    /\ same_vpriors ea eb /\ vk_prior (h_em (v_h (ve_v ea))) = vk_prior (h_em (v_h (ve_v eb))) /\ vk_post (h_em (v_h (ve_v ea))) = vk_post (h_em (v_h (ve_v eb))).
Proof. exact (@C29_vcategorical_l _ _ _ _ _ _ _ _ _ _ _ _). Qed.
Print Assumptions C29_vcategorical.

Theorem C29_vgaussian {G} la (gr : grng G) (rg : rng G) fp e k glob x ls e1 glob1 ev1 glob2 :
  let ip := c_init_params (v_cfg (ve_v e)) in let l := match ls with None => [Z.of_nat (length x)] | Some l => l end in
  ve_rs e = RSSeed k -> has "s" ip = true -> has "t" ip = true -> has "m" ip = true -> has "c" ip = true ->
  vfit (vgaussian la) (vg_initc gr) rg fp e glob x ls = Ok (e1, glob1, ev1) ->
  exists ea eb va vb, vinit (vg_initc gr) rg fp e glob x l = Ok (ea, glob, va) /\ vinit (vg_initc gr) rg fp e1 glob2 x l = Ok (eb, glob2, vb)
    /\ same_vpriors ea eb /\ same_vg_start (h_em (v_h (ve_v ea))) (h_em (v_h (ve_v eb))).
Proof. exact (@C29_vgaussian_l _ _ _ _ _ _ _ _ _ _ _ _ _ _). Qed.
Print Assumptions C29_vgaussian.

Theorem C59_vcategorical {G G'} (rg : rng G) (rg' : rng G') fp (v : vhmm vcatp) x ls rs rs' glob glob' :
  no_vinit v ["e"]%char -> vk_post (h_em (v_h v)) <> None -> valid_rs rg rs -> valid_rs rg' rs' ->
  same_vfit (vfit vcategorical vcat_initc rg fp (VEst v rs) glob x ls) glob (vfit vcategorical vcat_initc rg' fp (VEst v rs') glob' x ls) glob'.
Proof. exact (@C59_vcategorical_l _ _ _ _ _ _ _ _ _ _ _ _). Qed.
Print Assumptions C59_vcategorical.

Theorem C59_vgaussian_partial {G G'} la (gr : grng G) (gr' : grng G') (rg : rng G) (rg' : rng G') fp (v : vhmm vgp) x ls
    rs rs' glob glob' e1 g1 v1 e2 g2 v2 :
  no_vinit v ["m"; "c"]%char -> vg_all_set (h_em (v_h v)) -> valid_rs rg rs -> valid_rs rg' rs' ->
  vfit (vgaussian la) (vg_initc gr) rg fp (VEst v rs) glob x ls = Ok (e1, g1, v1) ->
  vfit (vgaussian la) (vg_initc gr') rg' fp (VEst v rs') glob' x ls = Ok (e2, g2, v2) ->
  ve_v e1 = ve_v e2 /\ v1 = v2.
Proof. exact (@C59_vgaussian_partial_l _ _ _ _ _ _ _ _ _ _ _ _ _ _ _ _ _ _ _ _ _). Qed.
Print Assumptions C59_vgaussian_partial.

(** but with fewer samples than states KMeans refuses, and [fit] with it. *)
Theorem C59_vgaussian_refuted : exists (v : vhmm vgp) x ty,
  c_init_params (v_cfg v) = EmptyString /\ no_vinit v ["m"; "c"]%char /\ vg_all_set (h_em (v_h v)) /\ vg_model ty 2 2 v exg_pr exg_po
  /\ good_data (finite_row 2) [1]%nat x
  /\ forall G la (gr : grng G) (rg : rng G) fp rs glob,
     (forall k y g, (length y < k)%nat -> exists w, gr_kmeans gr k y g = Err (ValueError w)) -> valid_rs rg rs ->
     exists w, vfit (vgaussian la) (vg_initc gr) rg fp (VEst v rs) glob x (as_lengths [1]%nat) = Err (ValueError w).
Proof. exact (@C59_vgaussian_refuted_l). Qed.
Print Assumptions C59_vgaussian_refuted.

Example C29_vcategorical_applies :
  let e := VEst (fresh_v "ste" 3 None) (RSSeed 0) in let ip := c_init_params (v_cfg (ve_v e)) in
  has "s" ip = true /\ has "t" ip = true /\ has "e" ip = true
  /\ exists e1 ev, vfit vcategorical vcat_initc flat_rng exact e tt [0; 1; 1; 0; 1]%Z (as_lengths [3%nat; 2%nat]) = Ok (e1, tt, ev).
Proof. exact (@C29_vcategorical_applies_l). Qed.

Example C59_vcategorical_applies : exists (v : vhmm vcatp) r, no_vinit v ["e"]%char /\ vk_post (h_em (v_h v)) <> None
  /\ vfit vcategorical vcat_initc flat_rng exact (VEst v (RSSeed 0)) tt [0; 1; 1; 0; 1]%Z (as_lengths [3%nat; 2%nat]) = Ok r.
Proof. exact (@C59_vcategorical_applies_l). Qed.

