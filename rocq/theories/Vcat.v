(** * Model of VariationalCategoricalHMM (vhmm.py:19-231, _emissions.py:30-109). *)
From Verif Require Export Vbase.

(** The constructor argument [emissionprob_prior] and the attributes
    [emissionprob_prior_], [emissionprob_posterior_], [emissionprob_] and
    [emissionprob_log_subnorm_]. *)
Record vcatp := VCatp {
  vk_arg : option parr; vk_prior : option mat; vk_post : option mat;
  vk_prob : option mat; vk_sub : option mat }.

(** _emissions.py:79-84 [_compute_likelihood] reads [emissionprob_] only. *)
Definition vcat_lik (fp : fpmode) (c : cfg) (nf : option nat) (p : vcatp) (x : list Z) : res mat :=
  cat_lik fp c nf (Catp (Scal NaN) (vk_prob p)) x.

(** vhmm.py:169-196 [_check], after [super()._check()]. *)
Definition vcat_check (fp : fpmode) (c : cfg) (nf : option nat) (p : vcatp) : res (option nat * vcatp) :=
  do pr <- attr "emissionprob_prior_" (vk_prior p);
  do po <- attr "emissionprob_posterior_" (vk_post p);
  if negb (Nat.eqb (nrow pr) (nrow po) && Nat.eqb (ncol pr) (ncol po))
  then Err (ValueError "emissionprob_prior_ and emissionprob_posterior_ shape")
  else
    let n := match nf with None => ncol po | Some n => n end in
    if negb (Nat.eqb (nrow po) (c_nc c) && Nat.eqb (ncol po) n) then Err (ValueError "emissionprob_ shape")
    else Ok (Some n, p).

(** _emissions.py:86-104: statistics as for CategoricalHMM. *)
Definition vcat_stats0 (fp : fpmode) (c : cfg) (nf : option nat) (p : vcatp) : cat_stat :=
  cat_stats0 fp c nf (Catp (Scal NaN) None).
Definition vcat_acc (fp : fpmode) (c : cfg) (nf : option nat) (p : vcatp) (st : cat_stat) (x : list Z) (post : mat)
  : res cat_stat :=
  cat_acc fp c nf (Catp (Scal NaN) None) st x post.

(** vhmm.py:201-217 [_do_mstep], after [super()._do_mstep()]. *)
Definition vcat_mstep (fp : fpmode) (c : cfg) (nf : option nat) (p : vcatp) (st : cat_stat) : res vcatp :=
  if has "e" (c_params c) then
    do pr <- attr "emissionprob_prior_" (vk_prior p);
    let q := madd fp pr st in
    Ok (VCatp (vk_arg p) (vk_prior p) (Some q) (Some (mrows (mean_of fp) q)) (vk_sub p))
  else Ok p.

(** vhmm.py:160-167 [_estep_begin]. *)
Definition vcat_begin (fp : fpmode) (c : cfg) (nf : option nat) (p : vcatp) : res vcatp :=
  do po <- attr "emissionprob_posterior_" (vk_post p);
  Ok (VCatp (vk_arg p) (vk_prior p) (vk_post p) (vk_prob p) (Some (mrows (log_subnorm fp) po))).

(** vhmm.py:198-199 [_compute_subnorm_log_likelihood]. *)
Definition vcat_subll (fp : fpmode) (c : cfg) (nf : option nat) (p : vcatp) (x : list Z) : res mat :=
  do m <- attr "emissionprob_log_subnorm_" (vk_sub p);
  do ks <- map_res (np_index (ncol m)) x;
  Ok (Mat (nrow m) (map (fun k => tab (nrow m) (fun i => mget m i k)) ks)).

(** vhmm.py:219-231 [_compute_lower_bound]. *)
Definition vcat_bound (fp : fpmode) (c : cfg) (nf : option nat) (p : vcatp) (lb : xnum) : res xnum :=
  do po <- attr "emissionprob_posterior_" (vk_post p);
  do pr <- attr "emissionprob_prior_" (vk_prior p);
  Ok (xadd fp lb (minus_kl fp (c_nc c) po pr)).

Definition vcategorical : vclass vcatp Z cat_stat :=
  VClass (EmClass (fun _ => true) vcat_check
            (fun fp c nf p x => loglik_of_lik fp (vcat_lik fp c nf p x))
            vcat_lik vcat_stats0 vcat_acc vcat_mstep)
    true vcat_begin vcat_subll vcat_bound.

(** vhmm.py:135-158 [_init], after [super()._init()].  [1 / n_features] raises
    for no symbols.  numpy's [dirichlet] wants a one-dimensional [alpha], so an
    array for [emissionprob_prior] is a ValueError ("object too deep"). *)
Definition vcat_init_em {G} (fp : fpmode) (rg : rng G) (c : cfg) (nf : option nat) (p : vcatp) (x : list Z)
    (ls : list Z) (rs : rstate G) (glob : G) : res (vcatp * rstate G * G * list event) :=
  do g <- rs_get rg rs glob;
  let '(ne, ev) := needs_init c "e" "emissionprob_posterior_" (isSome (vk_post p)) in
  if (ne : bool) then
    let n := match nf with Some n => n | None => 0%nat end in
    if Nat.eqb n 0 then Err ZeroDivisionError else
    let a := match vk_arg p with None => Scal (xdiv fp (Fin 1) (Fin (INR n))) | Some a => a end in
    do pr <- full2 (c_nc c) n a;
    do a0 <- (match a with Scal a0 => Ok a0 | _ => Err (ValueError "object too deep for desired array") end);
    do (l, g1) <- draws (r_dirichlet rg (tab n (fun _ => a0))) (c_nc c) g;
    let tot := Fin (IZR (zsum_l ls)) in
    let po := Mat n (map (map (fun d => xdiv fp (xmul fp d tot) (Fin (INR (c_nc c))))) l) in
    let '(rs2, glob2) := rs_put rs glob g1 in
    Ok (VCatp (vk_arg p) (Some pr) (Some po) (vk_prob p) (vk_sub p), rs2, glob2, ev)
  else Ok (p, rs, glob, ev).
Definition vcat_nfeat (c : cfg) (nf : option nat) (p : vcatp) (x : list Z) : res (option nat * vcatp) :=
  do (nf', _) <- cat_nfeat c nf (Catp (Scal NaN) None) x; Ok (nf', p).
Definition vcat_nfit (c : cfg) (nf : option nat) (p : vcatp) : res (list (ascii * Z)) :=
  cat_nfit c nf (Catp (Scal NaN) None).
Definition vcat_initc {G} : vinitclass vcatp Z G :=
  VInitClass (fun _ => 1%nat) vcat_nfeat vcat_nfit vcat_init_em.
