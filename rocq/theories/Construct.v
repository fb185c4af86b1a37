(** * The constructors, and [sklearn.base.clone]. *)
From Verif Require Export Hyper_thms Vgauss.

(** base.py:136-180, 806-861 and 1031-1050 [__init__]: every argument is stored
    as it is, [monitor_] (base.py:58-75) gets [tol], [n_iter] and [verbose], and
    no learned attribute is set.  [nf]: the argument [n_features] of the two
    classes that have it, else None. *)
Definition new_hmm {P} (c : cfg) (nf : option nat) (p : P) : hmm P :=
  Hmm c nf None None (Monitor (c_tol c) (c_n_iter c) (c_verbose c) [] 0) p.
(** base.py:1031-1050: for the variational classes [startprob_prior] and
    [transmat_prior] are [sa] and [ta]; the two fields of [cfg] are not used. *)
Definition new_vhmm {P} (c : cfg) (nf : option nat) (sa ta : option parr) (p : P) : vhmm P :=
  VHmm (new_hmm c nf p) sa ta None None None None.

(** hmm.py:54-126. *)
Definition CategoricalHMM {G} (c : cfg) (rs : rstate G) (emissionprob_prior : parr) (n_features : option nat) : est catp G :=
  Est (new_hmm c n_features (Catp emissionprob_prior None)) rs.
(** hmm.py:196-292. *)
Definition GaussianHMM {G} (c : cfg) (rs : rstate G) (covariance_type : string) (min_covar : xnum)
    (means_prior means_weight covars_prior covars_weight : parr) : est gaussp G :=
  Est (new_hmm c None (Gaussp covariance_type min_covar means_prior means_weight covars_prior covars_weight None None)) rs.
(** hmm.py:422-531. *)
Definition GMMHMM {G} (c : cfg) (rs : rstate G) (n_mix : nat) (covariance_type : string) (min_covar : xnum)
    (weights_prior means_prior means_weight : nd) (covars_prior covars_weight : option nd) : est gmmp G :=
  Est (new_hmm c None (Gmmp n_mix covariance_type min_covar weights_prior means_prior means_weight covars_prior covars_weight
                            None None None)) rs.
(** hmm.py:838-905; the warning printed about the change of its meaning
    (hmm.py:907-913) is not modelled. *)
Definition MultinomialHMM {G} (c : cfg) (rs : rstate G) (n_trials : option trials) : est mulp G :=
  Est (new_hmm c None (Mulp n_trials None)) rs.
(** hmm.py:965-1036. *)
Definition PoissonHMM {G} (c : cfg) (rs : rstate G) (lambdas_prior lambdas_weight : parr) : est poisp G :=
  Est (new_hmm c None (Poisp lambdas_prior lambdas_weight None)) rs.
(** vhmm.py:60-133. *)
Definition VariationalCategoricalHMM {G} (c : cfg) (rs : rstate G) (startprob_prior transmat_prior emissionprob_prior : option parr)
    (n_features : option nat) : vest vcatp G :=
  VEst (new_vhmm c n_features startprob_prior transmat_prior (VCatp emissionprob_prior None None None None)) rs.
(** vhmm.py:337-435. *)
Definition VariationalGaussianHMM {G} (c : cfg) (rs : rstate G) (covariance_type : string) (startprob_prior transmat_prior : option parr)
    (means_prior : option parr) (beta_prior : option vec) (dof_prior : option dofs) (scale_prior : option covs) : vest vgp G :=
  VEst (new_vhmm c None startprob_prior transmat_prior
          (Vgp covariance_type means_prior beta_prior dof_prior scale_prior None None None None None None None None None)) rs.

(** The defaults: hmm.py:54-59, 196-204, 422-431, 838-843, 965-971 (the letters
    of [params] and [init_params] differ) and vhmm.py:60-66, 337-343. *)
Definition default_cfg (n_components : nat) (letters : string) : cfg :=
  Cfg n_components letters letters "viterbi" "log" 10 (Fin (/ 100)) false (Scal (Fin 1)) (Scal (Fin 1)).
Definition default_vcfg (n_components : nat) (letters : string) : cfg :=
  Cfg n_components letters letters "viterbi" "log" 100 (Fin (/ 10 ^ 6)) false (Scal (Fin 1)) (Scal (Fin 1)).
Definition default_categorical {G} (nc : nat) (rs : rstate G) : est catp G :=
  CategoricalHMM (default_cfg nc "ste") rs (Scal (Fin 1)) None.
Definition default_gaussian {G} (nc : nat) (rs : rstate G) : est gaussp G :=
  GaussianHMM (default_cfg nc "stmc") rs "diag" (Fin (/ 1000)) (Scal (Fin 0)) (Scal (Fin 0)) (Scal (Fin (/ 100))) (Scal (Fin 1)).
Definition default_gmm {G} (nc nm : nat) (rs : rstate G) : est gmmp G :=
  GMMHMM (default_cfg nc "stmcw") rs nm "diag" (Fin (/ 1000)) (nscal (Fin 1)) (nscal (Fin 0)) (nscal (Fin 0)) None None.
Definition default_multinomial {G} (nc : nat) (rs : rstate G) : est mulp G :=
  MultinomialHMM (default_cfg nc "ste") rs None.
Definition default_poisson {G} (nc : nat) (rs : rstate G) : est poisp G :=
  PoissonHMM (default_cfg nc "stl") rs (Scal (Fin 0)) (Scal (Fin 0)).
Definition default_vcategorical {G} (nc : nat) (rs : rstate G) : vest vcatp G :=
  VariationalCategoricalHMM (default_vcfg nc "ste") rs None None None None.
Definition default_vgaussian {G} (nc : nat) (rs : rstate G) : vest vgp G :=
  VariationalGaussianHMM (default_vcfg nc "stmc") rs "full" None None None None None None.

(** [sklearn.base.clone]: the constructor is called with a deep copy of the
    current value of every attribute named after one of its arguments
    ([get_params]).  A copied generator has its own state from then on, also a
    copy of numpy's global generator object, whose state is [glob]. *)
Definition clone_rs {G} (rs : rstate G) (glob : G) : rstate G :=
  match rs with RSGlobal => RSGen glob | _ => rs end.
Definition clone_categorical {G} (e : est catp G) (glob : G) : est catp G :=
  let h := e_hmm e in CategoricalHMM (h_cfg h) (clone_rs (e_rs e) glob) (cat_prior (h_em h)) (h_nfeat h).
Definition clone_gaussian {G} (e : est gaussp G) (glob : G) : est gaussp G :=
  let p := h_em (e_hmm e) in
  GaussianHMM (h_cfg (e_hmm e)) (clone_rs (e_rs e) glob) (ga_type p) (ga_min_covar p) (ga_mprior p) (ga_mweight p)
              (ga_cprior p) (ga_cweight p).
Definition clone_gmm {G} (e : est gmmp G) (glob : G) : est gmmp G :=
  let p := h_em (e_hmm e) in
  GMMHMM (h_cfg (e_hmm e)) (clone_rs (e_rs e) glob) (gm_nmix p) (gm_type p) (gm_min_covar p) (gm_wprior p) (gm_mprior p)
         (gm_mweight p) (gm_cprior p) (gm_cweight p).
Definition clone_multinomial {G} (e : est mulp G) (glob : G) : est mulp G :=
  MultinomialHMM (h_cfg (e_hmm e)) (clone_rs (e_rs e) glob) (mu_trials (h_em (e_hmm e))).
Definition clone_poisson {G} (e : est poisp G) (glob : G) : est poisp G :=
  let p := h_em (e_hmm e) in PoissonHMM (h_cfg (e_hmm e)) (clone_rs (e_rs e) glob) (po_alpha p) (po_beta p).
Definition clone_vcategorical {G} (e : vest vcatp G) (glob : G) : vest vcatp G :=
  let v := ve_v e in
  VariationalCategoricalHMM (v_cfg v) (clone_rs (ve_rs e) glob) (v_sarg v) (v_targ v) (vk_arg (h_em (v_h v))) (h_nfeat (v_h v)).
Definition clone_vgaussian {G} (e : vest vgp G) (glob : G) : vest vgp G :=
  let v := ve_v e in let p := h_em (v_h v) in
  VariationalGaussianHMM (v_cfg v) (clone_rs (ve_rs e) glob) (vg_type p) (v_sarg v) (v_targ v) (vg_marg p) (vg_barg p)
                         (vg_darg p) (vg_sarg p).
