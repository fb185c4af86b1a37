(** * VariationalGaussianHMM models the theorems speak of (used in statements). *)
From Verif Require Export Vgauss Vready Spec_vg.

(** The covariance attribute that holds the matrices [B i] of the states, in the
    layout of its type. *)
Definition mats_attr (ty : string) (nc nf : nat) (B : nat -> nat -> nat -> R) : covs :=
  if String.eqb ty "full" then CV3 (tab nc (fun i => fmat nf nf (B i)))
  else if String.eqb ty "tied" then CV2 (fmat nf nf (B 0%nat))
  else if String.eqb ty "diag" then CV2 (fmat nc nf (fun i f => B i f f))
  else CV1 (fvec nc (fun i => B i 0%nat 0%nat)).
(** Likewise the degrees of freedom. *)
Definition dof_attr (ty : string) (nc : nat) (d : nat -> R) : dofs :=
  if String.eqb ty "tied" then DofS (Fin (d 0%nat)) else DofV (fvec nc d).

(** The attributes of a VariationalGaussianHMM hold the prior [p] and the
    posterior [q]. *)
Local Open Scope string_scope.
Record vg_holds (ty : string) (nc nf : nat) (v : vhmm vgp) (p q : gdirs) : Prop := VgHolds {
  vgh_base : vbase_at nc v (g_s p) (g_t p) (g_s q) (g_t q);
  vgh_nf : h_nfeat (v_h v) = Some nf;
  vgh_type : vg_type (h_em (v_h v)) = ty;
  vgh_known : ty = "full" \/ ty = "tied" \/ ty = "diag" \/ ty = "spherical";
  vgh_m0 : vg_m0 (h_em (v_h v)) = Some (Arr2 (fmat nc nf (g_m p)));
  vgh_m : vg_m (h_em (v_h v)) = Some (fmat nc nf (g_m q));
  vgh_b0 : vg_b0 (h_em (v_h v)) = Some (fvec nc (g_b p));
  vgh_b : vg_b (h_em (v_h v)) = Some (fvec nc (g_b q));
  vgh_d0 : vg_d0 (h_em (v_h v)) = Some (dof_attr ty nc (g_d p));
  vgh_d : vg_d (h_em (v_h v)) = Some (dof_attr ty nc (g_d q));
  vgh_s0 : vg_s0 (h_em (v_h v)) = Some (mats_attr ty nc nf (g_S p));
  vgh_s : vg_s (h_em (v_h v)) = Some (mats_attr ty nc nf (g_S q)) }.
(** ... and these are positive, positive definite, and have enough degrees of freedom. *)
Record vg_model (ty : string) (nc nf : nat) (v : vhmm vgp) (p q : gdirs) : Prop := VgModel {
  vgm_nc : (0 < nc)%nat; vgm_nf : (0 < nf)%nat;
  vgm_holds : vg_holds ty nc nf v p q;
  vgm_prior : gvalid ty nc nf p; vgm_post : gvalid ty nc nf q }.
