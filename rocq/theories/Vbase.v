(** * Model of the variational base class (base.py:1031-1271), of
    [kl_dirichlet] (_kl_divergence.py:13-27) and of the training loop as the
    variational classes run it (base.py:453-501). *)
From Verif Require Export Special Init.

(** scipy.special.digamma and gammaln.  Arguments below zero are not modelled
    (the functions are finite there between the poles): the model yields NaN. *)
Definition xdigamma (fp : fpmode) (x : xnum) : xnum :=
  match x with
  | Fin r => if Rlt_dec 0 r then fp (psi r) else if Req_EM_T r 0 then NInf else NaN
  | PInf => PInf
  | _ => NaN
  end.
Definition xgammaln (fp : fpmode) (x : xnum) : xnum :=
  match x with
  | Fin r => if Rlt_dec 0 r then fp (lgam r) else if Req_EM_T r 0 then PInf else NaN
  | PInf => PInf
  | _ => NaN
  end.

(** _kl_divergence.py:13-27 [kl_dirichlet]. *)
Definition kl_dirichlet (fp : fpmode) (q p : vec) : xnum :=
  let n := length q in
  let qsum := xsum fp q in
  let psum := xsum fp p in
  xadd fp
    (xsub fp (xsub fp (xgammaln fp qsum) (xgammaln fp psum))
       (xsum fp (tab n (fun i => xsub fp (xgammaln fp (vget q i)) (xgammaln fp (vget p i))))))
    (xsum fp (tab n (fun i => xmul fp (xsub fp (vget q i) (vget p i))
                                     (xsub fp (xdigamma fp (vget q i)) (xdigamma fp qsum))))).

(** [digamma(v) - digamma(v.sum())] (base.py:1212-1214, and row by row 1217-1219,
    vhmm.py:164-167). *)
Definition log_subnorm (fp : fpmode) (v : vec) : vec :=
  let d := xdigamma fp (xsum fp v) in map (fun a => xsub fp (xdigamma fp a) d) v.
(** [v / v.sum()]. *)
Definition mean_of (fp : fpmode) (v : vec) : vec := let s := xsum fp v in map (fun a => xdiv fp a s) v.
Definition mrows (f : vec -> vec) (m : mat) : mat := Mat (ncol m) (map f (rows m)).

(** [np.full(n, a)] and [np.full((r, c), a)]: broadcasting a scalar or an array. *)
Definition full1 (n : nat) (p : parr) : res vec :=
  match p with
  | Scal a => Ok (tab n (fun _ => a))
  | Arr1 v => if Nat.eqb (length v) n then Ok v
              else if Nat.eqb (length v) 1 then Ok (tab n (fun _ => vget v 0))
              else Err (ValueError "could not broadcast")
  | Arr2 m => if Nat.eqb (nrow m) 1 && (Nat.eqb (ncol m) n || Nat.eqb (ncol m) 1)
              then Ok (tab n (fun j => mget m 0 (if Nat.eqb (ncol m) n then j else 0%nat)))
              else Err (ValueError "could not broadcast")
  end.
Definition full2 (r c : nat) (p : parr) : res mat :=
  match p with
  | Scal a => Ok (mtab r c (fun _ _ => a))
  | Arr1 v => if Nat.eqb (length v) c || Nat.eqb (length v) 1
              then Ok (mtab r c (fun _ j => vget v (if Nat.eqb (length v) c then j else 0%nat)))
              else Err (ValueError "could not broadcast")
  | Arr2 m => if (Nat.eqb (nrow m) r || Nat.eqb (nrow m) 1) && (Nat.eqb (ncol m) c || Nat.eqb (ncol m) 1)
              then Ok (mtab r c (fun i j => mget m (if Nat.eqb (nrow m) r then i else 0%nat)
                                                   (if Nat.eqb (ncol m) c then j else 0%nat)))
              else Err (ValueError "could not broadcast")
  end.

(** An estimator.  [v_h] holds the configuration, [n_features], [startprob_],
    [transmat_], [monitor_] and the emission attributes ([c_sprior] and
    [c_tprior] of the configuration are not used); the rest are the constructor
    arguments [startprob_prior], [transmat_prior] and the attributes
    [startprob_prior_], [startprob_posterior_], [transmat_prior_],
    [transmat_posterior_]. *)
Record vhmm (P : Type) := VHmm {
  v_h : hmm P;
  v_sarg : option parr; v_targ : option parr;
  v_sprior : option vec; v_spost : option vec;
  v_tprior : option mat; v_tpost : option mat }.
Arguments VHmm {P}. Arguments v_h {P}. Arguments v_sarg {P}. Arguments v_targ {P}.
Arguments v_sprior {P}. Arguments v_spost {P}. Arguments v_tprior {P}. Arguments v_tpost {P}.

(** What a variational subclass overrides: the methods every subclass has (its
    likelihood is the one used by [score], [decode], ...), and those of
    variational training. *)
Record vclass (P X St : Type) := VClass {
  vc_em : emclass P X St;
  vc_super_check : bool;  (* does _check call super()._check()? *)
  vc_begin : fpmode -> cfg -> option nat -> P -> res P;                (* _estep_begin, after super() *)
  vc_subll : fpmode -> cfg -> option nat -> P -> list X -> res mat;    (* _compute_subnorm_log_likelihood *)
  vc_bound : fpmode -> cfg -> option nat -> P -> xnum -> res xnum }.   (* _compute_lower_bound, after super() *)
Arguments VClass {P X St}. Arguments vc_em {P X St}. Arguments vc_super_check {P X St}.
Arguments vc_begin {P X St}. Arguments vc_subll {P X St}. Arguments vc_bound {P X St}.

Definition attr {A} (name : string) (o : option A) : res A :=
  match o with Some a => Ok a | None => Err (AttributeError name) end.

(** base.py:453-501, the loop of [fit]; here the test for rows of zeros may
    raise. *)
Fixpoint vfit_loop {O} (fp : fpmode) (step : O -> res (O * xnum)) (zero_rows : O -> res bool)
    (fuel : nat) (o : O) (m : monitor) : res (O * monitor * list event) :=
  match fuel with
  | 0%nat => Ok (o, m, [])
  | S fuel' =>
      do (o', lb) <- step o;
      let '(m', ev) := monitor_report fp m lb in
      if converged fp m' then Ok (o', m', ev)
      else
        do z <- zero_rows o';
        do (o2, m2, ev2) <- vfit_loop fp step zero_rows fuel' o' m';
        Ok (o2, m2, (if (z : bool) then ev ++ [WZeroRows] else ev) ++ ev2)
  end.

Section Variational.
  Context {P X St : Type}.
  Variable V : vclass P X St.
  Variable fp : fpmode.

  Definition v_cfg (v : vhmm P) : cfg := h_cfg (v_h v).

  (** base.py:1121-1148 [_check]; [np.asarray] has no value-level effect. *)
  Definition vbase_check (v : vhmm P) : res unit :=
    let nc := c_nc (v_cfg v) in
    do sp <- attr "startprob_prior_" (v_sprior v);
    if negb (Nat.eqb (length sp) nc) then Err (ValueError "startprob_prior_ length") else
    do sq <- attr "startprob_posterior_" (v_spost v);
    if negb (Nat.eqb (length sq) nc) then Err (ValueError "startprob_posterior_ length") else
    do tp <- attr "transmat_prior_" (v_tprior v);
    if negb (Nat.eqb (nrow tp) nc && Nat.eqb (ncol tp) nc) then Err (ValueError "transmat_prior_ shape") else
    do tq <- attr "transmat_posterior_" (v_tpost v);
    if negb (Nat.eqb (nrow tq) nc && Nat.eqb (ncol tq) nc) then Err (ValueError "transmat_posterior_ shape") else
    Ok tt.

  Definition with_h (v : vhmm P) (h : hmm P) : vhmm P :=
    VHmm h (v_sarg v) (v_targ v) (v_sprior v) (v_spost v) (v_tprior v) (v_tpost v).
  Definition set_em (h : hmm P) (nf : option nat) (p : P) : hmm P :=
    Hmm (h_cfg h) nf (h_start h) (h_trans h) (h_mon h) p.

  Definition vcheck (v : vhmm P) : res (vhmm P) :=
    do _ <- (if vc_super_check V then vbase_check v else Ok tt);
    do (nf, p) <- ec_check (vc_em V) fp (v_cfg v) (h_nfeat (v_h v)) (h_em (v_h v));
    Ok (with_h v (set_em (v_h v) nf p)).

  (** The E-step runs the kernels on the sub-normalised parameters
      (base.py:1101-1119; the linear version is [np.exp] of the logarithmic one,
      1150-1155). *)
  Definition sub_em : emclass P X St :=
    EmClass (ec_xok (vc_em V)) (ec_check (vc_em V)) (vc_subll V)
      (fun fp c nf p x => lik_of_loglik fp (vc_subll V fp c nf p x))
      (ec_stats0 (vc_em V)) (ec_acc (vc_em V)) (ec_mstep (vc_em V)).

  (** base.py:754-772 [_do_estep] with base.py:1207-1220 [_estep_begin]:
      [startprob_subnorm_] and [transmat_subnorm_] take the place of
      [startprob_] and [transmat_] in the kernels (1101-1119, 1164-1205).
      Yields the object after [_estep_begin]. *)
  Definition vestep (x : list X) (lengths : option (list Z)) (v : vhmm P)
    : res (vhmm P * @stats St * xnum) :=
    do sq <- attr "startprob_posterior_" (v_spost v);
    do tq <- attr "transmat_posterior_" (v_tpost v);
    let s : vec := map (xexp fp) (log_subnorm fp sq) in
    let t : mat := mmap (xexp fp) (mrows (log_subnorm fp) tq) in
    let h := v_h v in
    do p <- vc_begin V fp (h_cfg h) (h_nfeat h) (h_em h);
    do (st, lp) <- do_estep sub_em fp (Hmm (h_cfg h) (h_nfeat h) (Some s) (Some t) (h_mon h) p) s t x lengths;
    Ok (with_h v (set_em h (h_nfeat h) p), st, lp).

  (** [x -= kl(posterior[i], prior[i])] for i in range(n_components). *)
  Definition minus_kl (n : nat) (q p : mat) : xnum :=
    fold_left (fun a i => xsub fp a (kl_dirichlet fp (nth i (rows q) []) (nth i (rows p) []))) (seq 0 n) (Fin 0).

  (** base.py:1242-1271 [_compute_lower_bound], then that of the subclass. *)
  Definition vlower_bound (v : vhmm P) (lp : xnum) : res xnum :=
    do sq <- attr "startprob_posterior_" (v_spost v);
    do sp <- attr "startprob_prior_" (v_sprior v);
    do tq <- attr "transmat_posterior_" (v_tpost v);
    do tp <- attr "transmat_prior_" (v_tprior v);
    let lb := xadd fp (xadd fp (xopp (kl_dirichlet fp sq sp)) (minus_kl (c_nc (v_cfg v)) tq tp)) lp in
    vc_bound V fp (v_cfg v) (h_nfeat (v_h v)) (h_em (v_h v)) lb.

  (** base.py:1222-1240 [_do_mstep], then that of the subclass. *)
  Definition vmstep (v : vhmm P) (st : @stats St) : res (vhmm P) :=
    let c := v_cfg v in
    do (sq, s) <-
      (if has "s" (c_params c) then
         do sp <- attr "startprob_prior_" (v_sprior v);
         let q := vadd fp sp (st_start st) in Ok (Some q, Some (mean_of fp q))
       else Ok (v_spost v, h_start (v_h v)));
    do (tq, t) <-
      (if has "t" (c_params c) then
         do tp <- attr "transmat_prior_" (v_tprior v);
         let q := madd fp tp (st_trans st) in Ok (Some q, Some (mrows (mean_of fp) q))
       else Ok (v_tpost v, h_trans (v_h v)));
    do p <- ec_mstep (vc_em V) fp c (h_nfeat (v_h v)) (h_em (v_h v)) (st_em st);
    Ok (VHmm (Hmm c (h_nfeat (v_h v)) s t (h_mon (v_h v)) p) (v_sarg v) (v_targ v) (v_sprior v) sq (v_tprior v) tq).

  (** One iteration: base.py:485-492. *)
  Definition vb_step (x : list X) (lengths : option (list Z)) (v : vhmm P) : res (vhmm P * xnum) :=
    do (v1, st, lp) <- vestep x lengths v;
    do lb <- vlower_bound v1 lp;
    do v2 <- vmstep v1 st;
    Ok (v2, lb).

  (** base.py:497. *)
  Definition vzero_rows (v : vhmm P) : res bool :=
    do t <- attr "transmat_" (h_trans (v_h v));
    Ok (existsb (fun r => xeqb (xsum fp r) (Fin 0)) (rows t)).

  (** base.py:477-501: [fit] after [_init]. *)
  Definition vfit_from (v : vhmm P) (x : list X) (lengths : list Z) : res (vhmm P * list event) :=
    do v1 <- vcheck v;
    do (v2, m, ev) <-
      vfit_loop fp (vb_step x (Some lengths)) vzero_rows (c_n_iter (v_cfg v1)) v1 (monitor_reset (h_mon (v_h v1)));
    let h := v_h v2 in
    Ok (with_h v2 (Hmm (h_cfg h) (h_nfeat h) (h_start h) (h_trans h) m (h_em h)), ev).

  (** ** Inference, inherited from the abstract class (base.py:183-396): the
      methods of [Base.v] with the variational [_check].  [startprob_] and
      [transmat_] are first read after the likelihood of the first sequence. *)
  Definition vfitted (v : vhmm P) : res (hmm P * vec) :=
    match h_start (v_h v) with
    | None => Err NotFittedError
    | Some s => do v' <- vcheck v; Ok (v_h v', s)
    end.
  Definition vseq (ll : hmm P -> list X -> res mat) (h : hmm P) {A} (f : mat -> list X -> res A) (x : list X) : res A :=
    match h_trans h with
    | Some t => f t x
    | None => do _ <- ll h x; Err (AttributeError "transmat_")
    end.
  (** base.py:234-288 [_score]. *)
  Definition vscore_ (v : vhmm P) (x : list X) (lengths : option (list Z)) (post : bool) : res (xnum * mat) :=
    let E := vc_em V in
    do (h, s) <- vfitted v;
    do x <- check_array (ec_xok E) x;
    do f <- (if String.eqb (c_impl (h_cfg h)) "scaling"
             then Ok (vseq (lik E fp) h (fun t => score_scaling_seq E fp h s t post))
             else if String.eqb (c_impl (h_cfg h)) "log"
             then Ok (vseq (loglik E fp) h (fun t => score_log_seq E fp h s t post))
             else Err KeyError);
    do xs <- split_X_lengths x lengths;
    do (lp, rs) <- acc_seqs fp f (Fin 0) xs;
    Ok (lp, Mat (c_nc (h_cfg h)) rs).
  Definition vscore (v : vhmm P) x lengths : res xnum := do (lp, _) <- vscore_ v x lengths false; Ok lp.
  Definition vscore_samples (v : vhmm P) x lengths : res (xnum * mat) := vscore_ v x lengths true.
  (** base.py:300-356 [decode]. *)
  Definition vdecode (v : vhmm P) (x : list X) (lengths : option (list Z)) (algorithm : option string)
    : res (xnum * list nat) :=
    let E := vc_em V in
    do (h, s) <- vfitted v;
    let alg := match algorithm with
               | Some a => if String.eqb a "" then c_algorithm (h_cfg h) else a
               | None => c_algorithm (h_cfg h)
               end in
    do f <- (if String.eqb alg "viterbi" then Ok (vseq (loglik E fp) h (fun t => decode_viterbi E fp h s t))
             else if String.eqb alg "map"
             then Ok (fun x => do (_, post) <- vscore_samples v x None;
                               Ok (xsum fp (map np_max (rows post)), map np_argmax (rows post)))
             else Err (ValueError "Unknown decoder"));
    do x <- check_array (ec_xok E) x;
    do xs <- split_X_lengths x lengths;
    acc_seqs fp f (Fin 0) xs.
End Variational.

(** ** Initialisation (base.py:1050-1097) and [fit]. *)
Record vinitclass (P X G : Type) := VInitClass {
  vi_width : list X -> nat;
  vi_nfeat : cfg -> option nat -> P -> list X -> res (option nat * P);
  vi_nfit : cfg -> option nat -> P -> res (list (ascii * Z));
  vi_em : fpmode -> rng G -> cfg -> option nat -> P -> list X -> list Z -> rstate G -> G
          -> res (P * rstate G * G * list event) }.
Arguments VInitClass {P X G}. Arguments vi_width {P X G}. Arguments vi_nfeat {P X G}.
Arguments vi_nfit {P X G}. Arguments vi_em {P X G}.

(** A variational estimator with its [random_state]. *)
Record vest (P G : Type) := VEst { ve_v : vhmm P; ve_rs : rstate G }.
Arguments VEst {P G}. Arguments ve_v {P G}. Arguments ve_rs {P G}.

(** [self._needs_init(c, a) or self._needs_init(c, b)]. *)
Definition needs_init2 (c : cfg) (code : ascii) (a : string) (a_set : bool) (b : string) (b_set : bool)
  : bool * list event :=
  let '(n, ev) := needs_init c code a a_set in
  if (n : bool) then (true, ev) else let '(n', ev') := needs_init c code b b_set in (n', ev ++ ev').
Definition zsum_l (l : list Z) : Z := fold_left Z.add l 0%Z.

Section VInit.
  Context {P X St G : Type}.
  Variable V : vclass P X St.
  Variable I : vinitclass P X G.
  Variable rg : rng G.
  Variable fp : fpmode.

  (** base.py:1050-1097 [VariationalBaseHMM._init]. *)
  Definition vbase_init (e : vest P G) (glob : G) (x : list X) (lengths : list Z)
    : res (vest P G * G * list event) :=
    let v := ve_v e in
    let h := v_h v in
    let c := h_cfg h in
    let nc := c_nc c in
    do (nf, p) <- vi_nfeat I c (h_nfeat h) (h_em h) x;
    if Nat.eqb nc 0 then Err ZeroDivisionError else
    let u := xdiv fp (Fin 1) (Fin (INR nc)) in
    do g <- rs_get rg (ve_rs e) glob;
    let '(ns, ev1) := needs_init2 c "s" "startprob_posterior_" (isSome (v_spost v))
                                    "startprob_prior_" (isSome (v_sprior v)) in
    do (sp, sq, g1) <-
      (if (ns : bool) then
         do sp <- full1 nc (match v_sarg v with None => Scal u | Some a => a end);
         do (d, g1) <- r_dirichlet rg (tab nc (fun _ => u)) g;
         Ok (Some sp, Some (map (fun a => xmul fp a (Fin (INR (length lengths)))) d), g1)
       else Ok (v_sprior v, v_spost v, g));
    let '(nt, ev2) := needs_init2 c "t" "transmat_posterior_" (isSome (v_tpost v))
                                    "transmat_prior_" (isSome (v_tprior v)) in
    do (tp, tq, g2) <-
      (if (nt : bool) then
         do tp <- full2 nc nc (match v_targ v with None => Scal u | Some a => a end);
         do (l, g2) <- draws (r_dirichlet rg (tab nc (fun _ => u))) nc g1;
         let w := xdiv fp (Fin (IZR (zsum_l lengths))) (Fin (INR nc)) in
         Ok (Some tp, Some (Mat nc (map (map (fun a => xmul fp a w)) l)), g2)
       else Ok (v_tprior v, v_tpost v, g1));
    let '(rs, glob') := rs_put (ve_rs e) glob g2 in
    do d <- vi_nfit I c nf p;
    do n <- dict_sum d (c_params c);
    let ev3 := if Z.ltb (Z.of_nat (length x * vi_width I x)) n then [WDegenerate] else [] in
    Ok (VEst (VHmm (Hmm c nf (h_start h) (h_trans h) (h_mon h) p) (v_sarg v) (v_targ v) sp sq tp tq) rs,
        glob', ev1 ++ ev2 ++ ev3).

  (** [_init] of a subclass. *)
  Definition vinit (e : vest P G) (glob : G) (x : list X) (lengths : list Z) : res (vest P G * G * list event) :=
    do (e1, glob1, ev1) <- vbase_init e glob x lengths;
    let v := ve_v e1 in
    let h := v_h v in
    do (p, rs, glob2, ev2) <- vi_em I fp rg (h_cfg h) (h_nfeat h) (h_em h) x lengths (ve_rs e1) glob1;
    Ok (VEst (with_h v (set_em h (h_nfeat h) p)) rs, glob2, ev1 ++ ev2).

  (** base.py:453-501 [fit]. *)
  Definition vfit (e : vest P G) (glob : G) (x : list X) (lengths : option (list Z))
    : res (vest P G * G * list event) :=
    do x <- check_array (ec_xok (vc_em V)) x;
    let ls := match lengths with None => [Z.of_nat (length x)] | Some l => l end in
    do (e1, glob1, ev1) <- vinit e glob x ls;
    do (v2, ev2) <- vfit_from V fp (ve_v e1) x ls;
    Ok (VEst v2 (ve_rs e1), glob1, ev1 ++ ev2).
End VInit.
