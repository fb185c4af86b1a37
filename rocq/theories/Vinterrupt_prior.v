(** * A transition prior of the wrong shape is noticed half way through [_init]. *)
From Verif Require Import Vinterrupt_thms Vcat_ex.
From Verif Require Export Vinterrupt.
From Coq Require Import Lra.

(** A fitted estimator of two states with posteriors [old_s] and [old_t] whose
    argument transmat_prior has been set to three numbers. *)
Definition old_s : vec := fvec 2 (fun i => INR i + 3).
Definition old_t : mat := fmat 2 2 (fun i j => INR (i + j) + 3).
Definition misshaped : vhmm vcatp :=
  VHmm (v_h (fresh_v "ste" 3 None)) None (Some (Arr1 (fvec 3 (fun _ => 1)))) (Some old_s) (Some old_s) (Some old_t) (Some old_t).

(** The start attributes are those of the new call, the transition attributes
    those of the fitted model. *)
Lemma C81_vmixed_refuted_l : exists e' msg,
  vfit_run vcategorical vcat_initc vcat_left flat_rng exact (VEst misshaped (@RSSeed unit 0)) tt [0; 1; 1; 0; 1]%Z None
    = VRaised e' tt (ValueError msg)
  /\ v_sprior (ve_v e') = Some [Fin (/ 2); Fin (/ 2)] /\ v_spost (ve_v e') = Some [Fin (/ 2); Fin (/ 2)]
  /\ v_sprior (ve_v e') <> v_sprior misshaped /\ v_spost (ve_v e') <> v_spost misshaped
  /\ v_tprior (ve_v e') = v_tprior misshaped /\ v_tpost (ve_v e') = v_tpost misshaped.
Proof.
  assert (H : exists e' msg a b,
    vfit_run vcategorical vcat_initc vcat_left flat_rng exact (VEst misshaped (@RSSeed unit 0)) tt [0; 1; 1; 0; 1]%Z None
      = VRaised e' tt (ValueError msg)
    /\ v_sprior (ve_v e') = Some [a; a] /\ v_spost (ve_v e') = Some [b; b]
    /\ v_tprior (ve_v e') = v_tprior misshaped /\ v_tpost (ve_v e') = v_tpost misshaped
    /\ a = xdiv exact (Fin 1) (Fin (INR 2)) /\ b = xmul exact (Fin (/ INR 2)) (Fin (INR 1))).
  { eexists _, _, _, _. repeat split; reflexivity. }
  destruct H as (e' & msg & a & b & H & H1 & H2 & H3 & H4 & Ha & Hb).
  assert (Ea : a = Fin (/ 2)).
  { rewrite Ha. unfold xdiv. destruct (Req_EM_T (INR 2) 0) as [E|E]; [cbn in E; lra|]. unfold exact. f_equal. cbn [INR]. lra. }
  assert (Eb : b = Fin (/ 2)) by (rewrite Hb; cbn [xmul]; unfold exact; f_equal; cbn [INR]; lra).
  subst a b. rewrite Ea in H1. rewrite Eb in H2.
  exists e', msg. rewrite H1, H2. split; [exact H|]. split; [reflexivity|]. split; [reflexivity|].
  repeat split; try assumption;
    (intro E; injection E as E0 _; cbn in E0; lra).
Qed.
