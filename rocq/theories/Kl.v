(** * Model of the Kullback-Leibler divergences (_kl_divergence.py:29-117);
    [kl_dirichlet] is in [Vbase.v]. *)
From Verif Require Export Vbase Gaussian.

(** numpy.linalg on one square matrix: [inv] (may raise LinAlgError) and
    [slogdet] (sign and logarithm of the absolute value of the determinant).
    The theorems assume what [la_right] of [Spec_vg.v] says of them. *)
Record linalg := Linalg {
  la_inv : fpmode -> mat -> res mat;
  la_slogdet : fpmode -> mat -> xnum * xnum }.

(** _utils.py:8-14 [logdet], one matrix; the warning is not modelled. *)
Definition logdet (la : linalg) (fp : fpmode) (a : mat) : xnum :=
  let '(sign, ld) := la_slogdet la fp a in if xltb sign (Fin 0) then NaN else ld.

(** [a @ b]. *)
Definition mmul (fp : fpmode) (a b : mat) : mat :=
  mtab (nrow a) (ncol b) (fun i j => xsum fp (tab (ncol a) (fun k => xmul fp (mget a i k) (mget b k j)))).
Definition trace (fp : fpmode) (a : mat) : xnum := xsum fp (tab (nrow a) (fun i => mget a i i)).

(** _kl_divergence.py:29-35 [kl_normal_distribution]. *)
Definition kl_normal (fp : fpmode) (mean_q var_q mean_p var_p : xnum) : res xnum :=
  let r := xsub fp
    (xadd fp (xdiv fp (xlog fp (xdiv fp var_p var_q)) (Fin 2))
             (xdiv fp (xadd fp (xsq fp (xsub fp mean_q mean_p)) var_q) (xmul fp (Fin 2) var_p)))
    (Fin (1 / 2)) in
  if xleb (Fin 0) r then Ok r else Err AssertionError.

(** _kl_divergence.py:38-62 [kl_multivariate_normal_distribution].  The order in
    which [@] adds is not modelled. *)
Definition kl_mvn (la : linalg) (fp : fpmode) (mean_q : vec) (cov_q : mat) (mean_p : vec) (cov_p : mat) : res xnum :=
  do prec <- la_inv la fp cov_p;
  let n := length mean_q in
  let d := tab n (fun i => xsub fp (vget mean_q i) (vget mean_p i)) in
  let w := tab n (fun j => xsum fp (tab n (fun i => xmul fp (vget d i) (mget prec i j)))) in
  Ok (xmul fp (Fin (1 / 2))
    (xsub fp
      (xadd fp
        (xadd fp (xsub fp (logdet la fp cov_p) (logdet la fp cov_q)) (trace fp (mmul fp prec cov_q)))
        (xsum fp (tab n (fun j => xmul fp (vget w j) (vget d j)))))
      (Fin (INR n)))).

(** _kl_divergence.py:65-77 [kl_gamma_distribution]. *)
Definition kl_gamma (fp : fpmode) (b_q c_q b_p c_p : xnum) : res xnum :=
  let r := xadd fp
    (xadd fp
      (xadd fp (xsub fp (xmul fp (xsub fp b_q b_p) (xdigamma fp b_q)) (xgammaln fp b_q)) (xgammaln fp b_p))
      (xmul fp b_p (xsub fp (xlog fp c_q) (xlog fp c_p))))
    (xdiv fp (xmul fp b_q (xsub fp c_p c_q)) c_q) in
  if xleb (Fin 0) r then Ok r else Err AssertionError.

(** [(dof - np.arange(n)) / 2]. *)
Definition half_dofs (fp : fpmode) (n : nat) (dof : xnum) : vec :=
  tab n (fun i => xdiv fp (xsub fp dof (Fin (INR i))) (Fin 2)).
Definition mhalf (fp : fpmode) (m : mat) : mat := mmap (fun a => xdiv fp a (Fin 2)) m.

(** _kl_divergence.py:105-110 [_E]. *)
Definition wish_E (la : linalg) (fp : fpmode) (dof : xnum) (scale : mat) : xnum :=
  xadd fp (xopp (logdet la fp (mhalf fp scale)))
          (xsum fp (map (xdigamma fp) (half_dofs fp (nrow scale) dof))).
(** _kl_divergence.py:113-117 [_logZ]. *)
Definition wish_logZ (la : linalg) (fp : fpmode) (dof : xnum) (scale : mat) : xnum :=
  let n := INR (nrow scale) in
  xadd fp
    (xsub fp (xmul fp (fp (n * (n - 1) / 4)) (xlog fp (fp PI)))
             (xmul fp (xdiv fp dof (Fin 2)) (logdet la fp (mhalf fp scale))))
    (xsum fp (map (xgammaln fp) (half_dofs fp (nrow scale) dof))).

(** _kl_divergence.py:80-102 [kl_wishart_distribution]. *)
Definition kl_wishart (la : linalg) (fp : fpmode) (dof_q : xnum) (scale_q : mat) (dof_p : xnum) (scale_p : mat)
  : res xnum :=
  do iq <- la_inv la fp scale_q;
  let n := nrow scale_p in
  Ok (xsub fp
    (xadd fp
      (xadd fp
        (xsub fp (xmul fp (xdiv fp (xsub fp dof_q dof_p) (Fin 2)) (wish_E la fp dof_q scale_q))
                 (xdiv fp (xmul fp (Fin (INR n)) dof_q) (Fin 2)))
        (xmul fp (xdiv fp dof_q (Fin 2)) (trace fp (mmul fp scale_p iq))))
      (wish_logZ la fp dof_p scale_p))
    (wish_logZ la fp dof_q scale_q)).
