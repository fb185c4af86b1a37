(** * Model of src/hmmlearn/base.py (inference and training driver). *)
From Verif Require Export Utils.

(** Log records and stderr lines, in order of emission. *)
Inductive event :=
| WOverwrite (name : string)      (* base.py:526-529 *)
| WDegenerate                     (* base.py:942-945 *)
| WNotConverging                  (* base.py:114-116 *)
| WZeroRows                       (* base.py:498-499 *)
| WReport (iter : nat) (log_prob delta : xnum).  (* base.py:104-108 *)

(** base.py:21-126 [ConvergenceMonitor]; [n_iter] is taken to be a natural
    number. *)
Record monitor := Monitor {
  m_tol : xnum; m_n_iter : nat; m_verbose : bool;
  m_history : vec; m_iter : nat }.

(** base.py:84-87 [_reset]. *)
Definition monitor_reset (m : monitor) : monitor :=
  Monitor (m_tol m) (m_n_iter m) (m_verbose m) [] 0.

(** base.py:111 [np.finfo(float).eps ** (1/2)] = 2^-26. *)
Definition precision : R := / 2 ^ 26.

(** base.py:89-118 [report]. *)
Definition monitor_report (fp : fpmode) (m : monitor) (lp : xnum) : monitor * list event :=
  let prev := match m_history m with [] => None | h => Some (last h NaN) end in
  let verbose_line :=
    if m_verbose m
    then [WReport (S (m_iter m)) lp
            (match prev with Some p => xsub fp lp p | None => NaN end)]
    else [] in
  let warn :=
    match prev with
    | Some p => if xltb (xsub fp lp p) (Fin (- precision)) then [WNotConverging] else []
    | None => []
    end in
  (Monitor (m_tol m) (m_n_iter m) (m_verbose m) (m_history m ++ [lp]) (S (m_iter m)),
   verbose_line ++ warn).

(** base.py:120-126 [converged]. *)
Definition converged (fp : fpmode) (m : monitor) : bool :=
  Nat.eqb (m_iter m) (m_n_iter m)
  || (Nat.leb 2 (length (m_history m))
      && xltb (xsub fp (nth (length (m_history m) - 1) (m_history m) NaN)
                       (nth (length (m_history m) - 2) (m_history m) NaN))
              (m_tol m)).

(** base.py:484-500, the training loop of [fit], over any per-iteration step
    (E-step, lower bound, M-step).  The first component of the result is the
    trained object. *)
Fixpoint fit_loop {O} (fp : fpmode) (step : O -> res (O * xnum)) (zero_rows : O -> bool)
    (fuel : nat) (o : O) (m : monitor) : res (O * monitor * list event) :=
  match fuel with
  | 0%nat => Ok (o, m, [])
  | S fuel' =>
      do (o', lb) <- step o;
      let '(m', ev) := monitor_report fp m lb in
      if converged fp m' then Ok (o', m', ev)
      else
        let ev' := if zero_rows o' then ev ++ [WZeroRows] else ev in
        do (o2, m2, ev2) <- fit_loop fp step zero_rows fuel' o' m';
        Ok (o2, m2, ev' ++ ev2)
  end.

(** Constructor arguments of [BaseHMM] (base.py:806-861). *)
Record cfg := Cfg {
  c_nc : nat;
  c_params : string; c_init_params : string;
  c_algorithm : string; c_impl : string;
  c_n_iter : nat; c_tol : xnum; c_verbose : bool;
  c_sprior : parr; c_tprior : parr }.

(** An estimator: constructor arguments and learned attributes ([None] =
    attribute not set).  [P] holds the emission parameters of the subclass. *)
Record hmm (P : Type) := Hmm {
  h_cfg : cfg;
  h_nfeat : option nat;
  h_start : option vec;
  h_trans : option mat;
  h_mon : monitor;
  h_em : P }.
Arguments Hmm {P}. Arguments h_cfg {P}. Arguments h_nfeat {P}. Arguments h_start {P}.
Arguments h_trans {P}. Arguments h_mon {P}. Arguments h_em {P}.

(** What a subclass overrides.  [P] emission parameters, [X] one row of the
    feature matrix, [St] emission sufficient statistics. *)
Record emclass (P X St : Type) := EmClass {
  ec_xok : X -> bool;                              (* check_array(X): row is finite *)
  ec_check : fpmode -> cfg -> option nat -> P -> res (option nat * P); (* _check, after the base part *)
  ec_loglik : fpmode -> cfg -> option nat -> P -> list X -> res mat;   (* _compute_log_likelihood *)
  ec_lik : fpmode -> cfg -> option nat -> P -> list X -> res mat;      (* _compute_likelihood *)
  ec_stats0 : fpmode -> cfg -> option nat -> P -> St; (* _initialize_sufficient_statistics *)
  ec_acc : fpmode -> cfg -> option nat -> P -> St -> list X -> mat -> res St;
                                                   (* _accumulate_sufficient_statistics *)
  ec_mstep : fpmode -> cfg -> option nat -> P -> St -> res P }.  (* _do_mstep *)
Arguments EmClass {P X St}.
Arguments ec_xok {P X St}. Arguments ec_check {P X St}. Arguments ec_loglik {P X St}.
Arguments ec_lik {P X St}. Arguments ec_stats0 {P X St}. Arguments ec_acc {P X St}.
Arguments ec_mstep {P X St}.

(** base.py:579-624: the two default implementations in terms of each other. *)
Definition lik_of_loglik (fp : fpmode) (m : res mat) : res mat :=
  do x <- m; Ok (mmap (xexp fp) x).
Definition loglik_of_lik (fp : fpmode) (m : res mat) : res mat :=
  do x <- m; Ok (mmap (xlog fp) x).

(** base.py:508-511 [_compute_posteriors_scaling]. *)
Definition mzip (f : xnum -> xnum -> xnum) (a b : mat) : mat :=
  mtab (nrow a) (ncol a) (fun i j => f (mget a i j) (mget b i j)).
Definition compute_posteriors_scaling (fp : fpmode) (fwd bwd : mat) : mat :=
  normalize_rows fp (mzip (xmul fp) fwd bwd).
(** base.py:513-521 [_compute_posteriors_log]. *)
Definition compute_posteriors_log (fp : fpmode) (fwd bwd : mat) : mat :=
  mmap (xexp fp) (log_normalize_rows fp (mzip (xadd fp) fwd bwd)).

(** base.py:947-956 [_check_sum_1]: [np.allclose(s, 1)] with the default
    tolerances rtol=1e-5, atol=1e-8. *)
Definition allclose1 (fp : fpmode) (s : xnum) : bool :=
  match s with
  | Fin _ => xleb (xabs (xsub fp s (Fin 1))) (Fin (/ 10 ^ 8 + / 10 ^ 5))
  | _ => false
  end.
Definition check_sum_1 (fp : fpmode) (v : vec) : bool := allclose1 fp (xsum fp v).

(** base.py:958-977 [BaseHMM._check], for attributes that are set;
    [np.asarray] has no value-level effect. *)
Definition base_check (fp : fpmode) (nc : nat) (startprob : vec) (transmat : mat) : res unit :=
  if negb (Nat.eqb (length startprob) nc) then Err (ValueError "startprob_ length")
  else if negb (check_sum_1 fp startprob) then Err (ValueError "startprob_ sum")
  else if negb (Nat.eqb (nrow transmat) nc && Nat.eqb (ncol transmat) nc)
  then Err (ValueError "transmat_ shape")
  else if negb (forallb (check_sum_1 fp) (rows transmat))
  then Err (ValueError "transmat_ sum")
  else Ok tt.

(** sklearn [check_array(X)]: at least one sample; the subclass-independent
    part also rejects NaN/inf ([ec_xok]). *)
Definition check_array {X} (ok : X -> bool) (x : list X) : res (list X) :=
  match x with
  | [] => Err (ValueError "Found array with 0 sample(s)")
  | _ => if forallb ok x then Ok x else Err (ValueError "Input contains NaN or infinity")
  end.

Section Model.
  Context {P X St : Type}.
  Variable E : emclass P X St.
  Variable fp : fpmode.

  (** [_check]: base part (base.py:958-977) then the subclass part.  It may
      set [n_features] and normalise emission arrays. *)
  Definition check (h : hmm P) : res (hmm P) :=
    match h_start h with
    | None => Err (AttributeError "startprob_")
    | Some s =>
        match h_trans h with
        | None =>
            (* the tests on startprob_ come first: base.py:968-973 *)
            if negb (Nat.eqb (length s) (c_nc (h_cfg h))) then Err (ValueError "startprob_ length")
            else if negb (check_sum_1 fp s) then Err (ValueError "startprob_ sum")
            else Err (AttributeError "transmat_")
        | Some t =>
            do _ <- base_check fp (c_nc (h_cfg h)) s t;
            do (nf, em) <- ec_check E fp (h_cfg h) (h_nfeat h) (h_em h);
            Ok (Hmm (h_cfg h) nf (h_start h) (h_trans h) (h_mon h) em)
        end
    end.

  (** [check_is_fitted(self, "startprob_"); self._check()], e.g. base.py:242-243,
      335-336, 427-428; yields the checked object and its two parameters. *)
  Definition fitted_check (h : hmm P) : res (hmm P * vec * mat) :=
    match h_start h with
    | None => Err NotFittedError
    | Some _ =>
        do h' <- check h;
        match h_start h', h_trans h' with
        | Some s, Some t => Ok (h', s, t)
        | _, _ => Err (AttributeError "transmat_")
        end
    end.

  Definition loglik (h : hmm P) (x : list X) : res mat :=
    ec_loglik E fp (h_cfg h) (h_nfeat h) (h_em h) x.
  Definition lik (h : hmm P) (x : list X) : res mat :=
    ec_lik E fp (h_cfg h) (h_nfeat h) (h_em h) x.

  (** One sequence of [_score_log] (base.py:262-270): log probability and
      posterior rows ([[]] when not requested). *)
  Definition score_log_seq (h : hmm P) (s : vec) (t : mat) (post : bool) (x : list X)
    : res (xnum * list vec) :=
    do lf <- loglik h x;
    do (lp, fwd) <- forward_log fp s t lf;
    if post then
      do bwd <- backward_log fp s t lf;
      Ok (lp, rows (compute_posteriors_log fp fwd bwd))
    else Ok (lp, []).

  (** One sequence of [_score_scaling] (base.py:277-286). *)
  Definition score_scaling_seq (h : hmm P) (s : vec) (t : mat) (post : bool) (x : list X)
    : res (xnum * list vec) :=
    do f <- lik h x;
    do (lp, fwd, scs) <- forward_scaling fp s t f;
    if post then
      do bwd <- backward_scaling fp s t f scs;
      Ok (lp, rows (compute_posteriors_scaling fp fwd bwd))
    else Ok (lp, []).

  (** Accumulation over sequences: [log_prob += ...] and [np.concatenate]. *)
  Fixpoint acc_seqs {A} (f : list X -> res (xnum * list A)) (lp : xnum) (xs : list (list X))
    : res (xnum * list A) :=
    match xs with
    | [] => Ok (lp, [])
    | x :: r =>
        do (l, rows1) <- f x;
        do (lp', rows2) <- acc_seqs f (xadd fp lp l) r;
        Ok (lp', rows1 ++ rows2)
    end.

  (** base.py:234-288 [_score]. *)
  Definition score_ (h : hmm P) (x : list X) (lengths : option (list Z)) (post : bool)
    : res (xnum * mat) :=
    do (h', s, t) <- fitted_check h;
    do x <- check_array (ec_xok E) x;
    do f <- (if String.eqb (c_impl (h_cfg h)) "scaling" then Ok (score_scaling_seq h' s t post)
             else if String.eqb (c_impl (h_cfg h)) "log" then Ok (score_log_seq h' s t post)
             else Err KeyError);
    do xs <- split_X_lengths x lengths;
    do (lp, rs) <- acc_seqs f (Fin 0) xs;
    Ok (lp, Mat (c_nc (h_cfg h)) rs).

  (** base.py:209-232 [score]. *)
  Definition score (h : hmm P) x lengths : res xnum :=
    do (lp, _) <- score_ h x lengths false; Ok lp.
  (** base.py:183-207 [score_samples]. *)
  Definition score_samples (h : hmm P) x lengths : res (xnum * mat) := score_ h x lengths true.
  (** base.py:378-396 [predict_proba]. *)
  Definition predict_proba (h : hmm P) x lengths : res mat :=
    do (_, post) <- score_samples h x lengths; Ok post.

  (** base.py:290-292 [_decode_viterbi]. *)
  Definition decode_viterbi (h : hmm P) (s : vec) (t : mat) (x : list X) : res (xnum * list nat) :=
    do lf <- loglik h x;
    viterbi fp s t lf.

  (** base.py:294-298 [_decode_map]. *)
  Definition decode_map (h : hmm P) (x : list X) : res (xnum * list nat) :=
    do (_, post) <- score_samples h x None;
    Ok (xsum fp (map np_max (rows post)), map np_argmax (rows post)).

  (** base.py:300-356 [decode]; [algorithm = ""] and [None] both fall back to
      the attribute ([algorithm or self.algorithm]). *)
  Definition decode (h : hmm P) (x : list X) (lengths : option (list Z))
      (algorithm : option string) : res (xnum * list nat) :=
    do (h', s, t) <- fitted_check h;
    let alg := match algorithm with
               | Some a => if String.eqb a "" then c_algorithm (h_cfg h) else a
               | None => c_algorithm (h_cfg h)
               end in
    do f <- (if String.eqb alg "viterbi" then Ok (decode_viterbi h' s t)
             else if String.eqb alg "map" then Ok (decode_map h')
             else Err (ValueError "Unknown decoder"));
    do x <- check_array (ec_xok E) x;
    do xs <- split_X_lengths x lengths;
    acc_seqs f (Fin 0) xs.

  (** base.py:358-376 [predict]. *)
  Definition predict (h : hmm P) x lengths : res (list nat) :=
    do (_, z) <- decode h x lengths None; Ok z.

  (** ** E-step. *)
  (** base.py:646-668: base statistics, plus those of the subclass. *)
  Record stats := Stats { st_nobs : nat; st_start : vec; st_trans : mat; st_em : St }.

  Definition stats0 (h : hmm P) : stats :=
    let nc := c_nc (h_cfg h) in
    Stats 0 (tab nc (fun _ => Fin 0)) (mtab nc nc (fun _ _ => Fin 0))
          (ec_stats0 E fp (h_cfg h) (h_nfeat h) (h_em h)).

  (** [stats['start'] += posteriors[0]], [stats['trans'] += xi]. *)
  Definition vadd (a b : vec) : vec := tab (length a) (fun i => xadd fp (vget a i) (vget b i)).
  Definition madd (a b : mat) : mat := mzip (xadd fp) a b.

  (** base.py:882-889 [_fit_log]: frames, log_prob, posteriors, forward, backward. *)
  Definition fit_log (h : hmm P) (s : vec) (t : mat) (x : list X)
    : res (mat * xnum * mat * mat * mat) :=
    do lf <- loglik h x;
    do (lp, fwd) <- forward_log fp s t lf;
    do bwd <- backward_log fp s t lf;
    Ok (lf, lp, compute_posteriors_log fp fwd bwd, fwd, bwd).
  (** base.py:873-880 [_fit_scaling]. *)
  Definition fit_scaling (h : hmm P) (s : vec) (t : mat) (x : list X)
    : res (mat * xnum * mat * mat * mat) :=
    do f <- lik h x;
    do (lp, fwd, scs) <- forward_scaling fp s t f;
    do bwd <- backward_scaling fp s t f scs;
    Ok (f, lp, compute_posteriors_scaling fp fwd bwd, fwd, bwd).

  (** base.py:670-742: base accumulation.  Sequences of one sample skip the
      transition statistics (lines 718-719, 737-738). *)
  Definition acc_base (log_impl : bool) (h : hmm P) (t : mat) (st : stats)
      (lattice post fwd bwd : mat) : res (nat * vec * mat) :=
    let ps := c_params (h_cfg h) in
    let start := if has "s" ps then vadd (st_start st) (nth 0 (rows post) []) else st_start st in
    do trans <-
      (if has "t" ps then
         if Nat.leb (nrow lattice) 1 then Ok (st_trans st)
         else if log_impl then
           do xi <- compute_log_xi_sum fp fwd t bwd lattice;
           Ok (madd (st_trans st) (mmap (xexp fp) xi))
         else
           do xi <- compute_scaling_xi_sum fp fwd t bwd lattice;
           Ok (madd (st_trans st) xi)
       else Ok (st_trans st));
    Ok (S (st_nobs st), start, trans).

  (** One sequence of the E-step: base.py:763-771 plus the subclass
      accumulation. *)
  Definition estep_seq (h : hmm P) (s : vec) (t : mat) (st : stats) (x : list X)
    : res (stats * xnum) :=
    let impl := c_impl (h_cfg h) in
    do log_impl <- (if String.eqb impl "scaling" then Ok false
                    else if String.eqb impl "log" then Ok true else Err KeyError);
    do (lattice, lp, post, fwd, bwd) <-
      (if (log_impl : bool) then fit_log h s t x else fit_scaling h s t x);
    do (nobs, start, trans) <- acc_base log_impl h t st lattice post fwd bwd;
    do em <- ec_acc E fp (h_cfg h) (h_nfeat h) (h_em h) (st_em st) x post;
    Ok (Stats nobs start trans em, lp).

  Fixpoint estep_loop (h : hmm P) (s : vec) (t : mat) (st : stats) (lp : xnum)
      (xs : list (list X)) : res (stats * xnum) :=
    match xs with
    | [] => Ok (st, lp)
    | x :: r =>
        do (st', l) <- estep_seq h s t st x;
        estep_loop h s t st' (xadd fp lp l) r
    end.

  (** base.py:754-772 [_do_estep]; the implementation name is looked up first. *)
  Definition do_estep (h : hmm P) (s : vec) (t : mat) (x : list X)
      (lengths : option (list Z)) : res (stats * xnum) :=
    let impl := c_impl (h_cfg h) in
    if String.eqb impl "scaling" || String.eqb impl "log" then
      do xs <- split_X_lengths x lengths;
      estep_loop h s t (stats0 h) (Fin 0) xs
    else Err KeyError.

  (** ** M-step: base.py:891-914. *)
  Definition mstep_start (h : hmm P) (s : vec) (st : stats) : vec :=
    if has "s" (c_params (h_cfg h)) then
      normalize1 fp (tab (c_nc (h_cfg h)) (fun i =>
        if xeqb (vget s i) (Fin 0) then Fin 0
        else np_maximum (xadd fp (xsub fp (pget1 (c_sprior (h_cfg h)) i) (Fin 1))
                                 (vget (st_start st) i)) (Fin 0)))
    else s.
  Definition mstep_trans (h : hmm P) (t : mat) (st : stats) : mat :=
    if has "t" (c_params (h_cfg h)) then
      normalize_rows fp (mtab (c_nc (h_cfg h)) (c_nc (h_cfg h)) (fun i j =>
        if xeqb (mget t i j) (Fin 0) then Fin 0
        else np_maximum (xadd fp (xsub fp (pget2 (c_tprior (h_cfg h)) i j) (Fin 1))
                                 (mget (st_trans st) i j)) (Fin 0)))
    else t.

  Definition do_mstep (h : hmm P) (s : vec) (t : mat) (st : stats) : res (hmm P) :=
    let s' := mstep_start h s st in
    let t' := mstep_trans h t st in
    do em <- ec_mstep E fp (h_cfg h) (h_nfeat h) (h_em h) (st_em st);
    Ok (Hmm (h_cfg h) (h_nfeat h) (Some s') (Some t') (h_mon h) em).

  (** One iteration of training: base.py:485-492 with
      [_compute_lower_bound] = identity (base.py:916-917). *)
  Definition em_step (x : list X) (lengths : option (list Z)) (h : hmm P)
    : res (hmm P * xnum) :=
    match h_start h, h_trans h with
    | Some s, Some t =>
        do (st, lp) <- do_estep h s t x lengths;
        do h' <- do_mstep h s t st;
        Ok (h', lp)
    | _, _ => Err (AttributeError "startprob_")
    end.

  (** base.py:497 [(self.transmat_.sum(axis=1) == 0).any()]. *)
  Definition zero_rows (h : hmm P) : bool :=
    match h_trans h with
    | Some t => existsb (fun r => xeqb (xsum fp r) (Fin 0)) (rows t)
    | None => false
    end.

  (** base.py:481-500: [fit] after [_init]. *)
  Definition fit_from (h : hmm P) (x : list X) (lengths : option (list Z))
    : res (hmm P * list event) :=
    let lengths := match lengths with
                   | None => Some [Z.of_nat (length x)]   (* base.py:477-478 *)
                   | Some l => Some l
                   end in
    do h1 <- check h;
    do (h2, m, ev) <-
      fit_loop fp (em_step x lengths) zero_rows (c_n_iter (h_cfg h1)) h1
               (monitor_reset (h_mon h1));
    Ok (Hmm (h_cfg h2) (h_nfeat h2) (h_start h2) (h_trans h2) m (h_em h2), ev).
End Model.

(** Attribute assignment on an estimator ([model.tol = ...] or
    [set_params(tol=...)]): only the named attribute changes; [monitor_] was
    built by the constructor (base.py:861) and is left alone. *)
Definition cfg_impl (i : string) (c : cfg) : cfg :=
  Cfg (c_nc c) (c_params c) (c_init_params c) (c_algorithm c) i (c_n_iter c) (c_tol c)
      (c_verbose c) (c_sprior c) (c_tprior c).
Definition cfg_tol (t : xnum) (c : cfg) : cfg :=
  Cfg (c_nc c) (c_params c) (c_init_params c) (c_algorithm c) (c_impl c) (c_n_iter c) t
      (c_verbose c) (c_sprior c) (c_tprior c).
Definition cfg_n_iter (n : nat) (c : cfg) : cfg :=
  Cfg (c_nc c) (c_params c) (c_init_params c) (c_algorithm c) (c_impl c) n (c_tol c)
      (c_verbose c) (c_sprior c) (c_tprior c).
Definition with_cfg {P} (f : cfg -> cfg) (h : hmm P) : hmm P :=
  Hmm (f (h_cfg h)) (h_nfeat h) (h_start h) (h_trans h) (h_mon h) (h_em h).
