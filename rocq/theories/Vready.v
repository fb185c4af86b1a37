(** * Variational models the theorems speak of (used in statements). *)
From Verif Require Export Vcat Spec_var.

(** The attributes of the base class hold Dirichlet parameters: [sp], [tp] of
    the priors and [sq], [tq] of the posteriors, all positive. *)
Record vbase_at {P} (nc : nat) (v : vhmm P) (sp : nat -> R) (tp : nat -> nat -> R) (sq : nat -> R) (tq : nat -> nat -> R)
  : Prop := VBaseAt {
  vb_nc : c_nc (v_cfg v) = nc;
  vb_sp : v_sprior v = Some (fvec nc sp); vb_tp : v_tprior v = Some (fmat nc nc tp);
  vb_sq : v_spost v = Some (fvec nc sq); vb_tq : v_tpost v = Some (fmat nc nc tq);
  vb_psp : pos1 nc sp; vb_ptp : pos2 nc nc tp; vb_psq : pos1 nc sq; vb_ptq : pos2 nc nc tq }.

(** A VariationalCategoricalHMM with [nc] states over the symbols 0..nf-1, whose
    prior attributes hold [p] and whose posterior attributes hold [q]. *)
Record vcat_model (v : vhmm vcatp) (nc nf : nat) (p q : dirs) : Prop := VCatModel {
  vm_nc : (0 < nc)%nat; vm_nf : (0 < nf)%nat;
  vm_base : vbase_at nc v (d_s p) (d_t p) (d_s q) (d_t q);
  vm_nfeat : h_nfeat (v_h v) = None \/ h_nfeat (v_h v) = Some nf;
  vm_prior : vk_prior (h_em (v_h v)) = Some (fmat nc nf (d_e p));
  vm_post : vk_post (h_em (v_h v)) = Some (fmat nc nf (d_e q));
  vm_pe : pos2 nc nf (d_e p); vm_qe : pos2 nc nf (d_e q) }.

(** The values recorded in [monitor_.history]. *)
Definition v_history {P} (v : vhmm P) : vec := m_history (h_mon (v_h v)).
