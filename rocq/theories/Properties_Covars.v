(** * Properties C33, C70, C71: start values and assignment of covariances. *)
From Verif Require Import Covars_thms Covars_ex Assign_ex.

Theorem C71_spherical h n s : ga_type (h_em h) = "spherical"%string ->
  (accepts h (CV1 (fvec n s)) <-> n = c_nc (h_cfg h) /\ forall i, (i < n)%nat -> 0 < s i).
Proof. exact (@C71_spherical_l _ _ _). Qed.
Print Assumptions C71_spherical.

Theorem C71_diag_partial h n m V : ga_type (h_em h) = "diag"%string ->
  (accepts h (CV2 (fmat n m V)) <-> forall i f, (i < n)%nat -> (f < m)%nat -> 0 < V i f).
Proof. exact (@C71_diag_partial_l _ _ _ _). Qed.
Print Assumptions C71_diag_partial.

Theorem C71_tied_partial h n m A : ga_type (h_em h) = "tied"%string ->
  (accepts h (CV2 (fmat n m A)) <-> n = m /\ near_symmetric n A /\ pos_def n (mirrored A)).
Proof. exact (@C71_tied_partial_l _ _ _ _). Qed.
Print Assumptions C71_tied_partial.

Theorem C71_full_partial h k n A : ga_type (h_em h) = "full"%string ->
  (accepts h (CV3 (tab k (fun i => fmat n n (A i))))
   <-> forall i, (i < k)%nat -> near_symmetric n (A i) /\ pos_def n (mirrored (A i))).
Proof. exact (@C71_full_partial_l _ _ _ _). Qed.
Print Assumptions C71_full_partial.

(** Symmetric matrices: exactly the positive definite ones. *)
Theorem C71_symmetric h n A : ga_type (h_em h) = "tied"%string -> sym n A ->
  (accepts h (CV2 (fmat n n A)) <-> pos_def n A).
Proof. exact (@C71_symmetric_l _ _ _). Qed.
Print Assumptions C71_symmetric.

(** A matrix that is not symmetric is accepted and stored as it is. *)
Theorem C71_asymmetric_refuted : exists h A, ga_type (h_em h) = "tied"%string /\ ~ sym 2 A /\ accepts h (CV2 (fmat 2 2 A)).
Proof. exact (@C71_asymmetric_refuted_l). Qed.
Print Assumptions C71_asymmetric_refuted.

(** Only the lower triangle of a matrix enters the densities. *)
Theorem C33_lower_triangle nc nf mu (Sg : nat -> nat -> nat -> R) x : (0 < nf)%nat ->
  log_mvn_density exact "full" x (fmat nc nf mu) (CV3 (tab nc (fun i => fmat nf nf (Sg i))))
  = log_mvn_density exact "full" x (fmat nc nf mu) (CV3 (tab nc (fun i => fmat nf nf (mirrored (Sg i))))).
Proof. exact (@C33_lower_triangle_l _ _ _ _ _). Qed.
Print Assumptions C33_lower_triangle.

(** Neither "diag" nor "full" compares the shape with the model; NaN passes. *)
Theorem C71_shape_refuted : exists h h1 k, k <> c_nc (h_cfg h) /\ ga_type (h_em h) = "diag"%string
  /\ accepts h (CV2 (fmat k 5 (fun _ _ => 1)))
  /\ ga_type (h_em h1) = "full"%string /\ k <> c_nc (h_cfg h1) /\ accepts h1 (CV3 (tab k (fun _ => fmat 1 1 (fun _ _ => 1)))).
Proof. exact (@C71_shape_refuted_l). Qed.
Print Assumptions C71_shape_refuted.

Theorem C71_nan_refuted : exists h h1, ga_type (h_em h) = "diag"%string /\ accepts h (CV2 (mtab 2 2 (fun _ _ => NaN)))
  /\ ga_type (h_em h1) = "spherical"%string /\ accepts h1 (CV1 (tab 2 (fun _ => NaN))).
Proof. exact (@C71_nan_refuted_l). Qed.
Print Assumptions C71_nan_refuted.

Theorem C70_start_covariances {G} (rg : rng G) e glob x e' glob' ev nf mc :
  init gauss_initc rg exact e glob x = Ok (e', glob', ev) ->
  Forall (finite_row nf) x -> (2 <= length x)%nat -> (0 < nf)%nat ->
  let h := e_hmm e in let h' := e_hmm e' in let ty := ga_type (h_em h) in
  ga_min_covar (h_em h) = Fin mc -> 0 < mc ->
  (has "c" (c_init_params (h_cfg h)) = true \/ ga_covars (h_em h) = None) ->
  ga_covars (h_em h') = Some (start_covs ty (c_nc (h_cfg h)) nf (s_covr mc x))
  /\ pos_def nf (s_covr mc x) /\ (forall f, (f < nf)%nat -> 0 < s_covr mc x f f) /\ 0 < all_mean nf (s_covr mc x).
Proof. exact (@C70_start_covariances_l _ _ _ _ _ _ _ _ _ _). Qed.
Print Assumptions C70_start_covariances.

Theorem C70_one_sample {G} (rg : rng G) e glob o e' glob' ev nf mc :
  init gauss_initc rg exact e glob [o] = Ok (e', glob', ev) ->
  finite_row nf o -> (0 < nf)%nat -> (0 < c_nc (h_cfg (e_hmm e)))%nat ->
  let h := e_hmm e in let h' := e_hmm e' in let ty := ga_type (h_em h) in
  ga_min_covar (h_em h) = Fin mc ->
  (has "c" (c_init_params (h_cfg h)) = true \/ ga_covars (h_em h) = None) ->
  (ty = "diag"%string \/ ty = "spherical"%string)
  /\ ga_covars (h_em h') = Some (CV2 (mtab (c_nc (h_cfg h)) nf (fun _ _ => NaN))).
Proof. exact (@C70_one_sample_l _ _ _ _ _ _ _ _ _ _). Qed.
Print Assumptions C70_one_sample.

Theorem C70_init {G} (rg : rng G) e glob x nf mc :
  let h := e_hmm e in let c := h_cfg h in let nc := c_nc c in let p := h_em h in
  pos_dirichlet rg -> valid_rs rg (e_rs e) -> (0 < nc)%nat -> (0 < nf)%nat -> letters_in (c_params c) ["s"; "t"; "m"; "c"]%char ->
  ga_fresh h -> (h_nfeat h = None \/ h_nfeat h = Some nf) -> is_type covariance_types (ga_type p) = true ->
  ga_min_covar p = Fin mc -> 0 < mc -> Forall (finite_row nf) x -> (2 <= length x)%nat -> good_kmeans rg nc nf x ->
  exists e1 glob1 ev pi A mu, init gauss_initc rg exact e glob x = Ok (e1, glob1, ev)
    /\ h_cfg (e_hmm e1) = c /\ h_nfeat (e_hmm e1) = Some nf /\ h_mon (e_hmm e1) = h_mon h
    /\ ga_args (h_em (e_hmm e1)) = ga_args p /\ valid_rs rg (e_rs e1)
    /\ pos1 nc pi /\ sumn nc pi = 1 /\ pos2 nc nc A /\ (forall i, (i < nc)%nat -> sumn nc (A i) = 1)
    /\ centres rg nc nf x mu /\ start_model (e_hmm e1) nc nf pi A mu (s_covr mc x).
Proof. exact (@C70_init_l _ _ _ _ _ _ _). Qed.
Print Assumptions C70_init.

Example C70_applies : forall ty, is_type covariance_types ty = true ->
  exists e1 glob1 ev pi A mu, init gauss_initc flat_rng exact (Est (cv_h ty 2) (RSSeed 0)) tt cv_x = Ok (e1, glob1, ev)
    /\ ga_type (h_em (e_hmm e1)) = ty /\ start_model (e_hmm e1) 2 2 pi A mu (s_covr (/ 1000) cv_x).
Proof. exact (@C70_applies_l). Qed.

(** The "spherical" start value is not the average of the feature variances. *)
Theorem C70_spherical_refuted : exists e x e1 glob1 ev v,
  init gauss_initc flat_rng exact e tt x = Ok (e1, glob1, ev)
  /\ ga_type (h_em (e_hmm e)) = "spherical"%string /\ ga_min_covar (h_em (e_hmm e)) = Fin (/ 1000)
  /\ ga_covars (h_em (e_hmm e1)) = Some (CV2 (fmat 2 2 (fun _ _ => v)))
  /\ v = / 2000 /\ (s_covr (/ 1000) x 0 0 + s_covr (/ 1000) x 1 1) / 2 = 2 + / 1000.
Proof. exact (@C70_spherical_refuted_l). Qed.
Print Assumptions C70_spherical_refuted.

(** One sample: initialisation succeeds and the variances are NaN. *)
Theorem C70_one_sample_refuted : exists e x e1 glob1 ev,
  init gauss_initc flat_rng exact e tt x = Ok (e1, glob1, ev)
  /\ length x = 1%nat /\ Forall (finite_row 2) x /\ ga_min_covar (h_em (e_hmm e)) = Fin (/ 1000)
  /\ ga_covars (h_em (e_hmm e1)) = Some (CV2 (mtab 1 2 (fun _ _ => NaN))).
Proof. exact (@C70_one_sample_refuted_l). Qed.
Print Assumptions C70_one_sample_refuted.

Example C71_applies :
  accepts (cv_h "spherical" 2) (CV1 (fvec 2 (fun i => INR i + 1))) /\ ~ accepts (cv_h "spherical" 2) (CV1 (fvec 2 INR))
  /\ ~ accepts (cv_h "spherical" 2) (CV1 (fvec 3 (fun i => INR i + 1)))
  /\ accepts (cv_h "tied" 2) (CV2 (fmat 2 2 (fun i j => if Nat.eqb i j then 2 else 1)))
  /\ ~ accepts (cv_h "tied" 2) (CV2 (fmat 2 2 (fun i j => if Nat.eqb i j then 1 else 2))).
Proof. exact (@C71_applies_l). Qed.

