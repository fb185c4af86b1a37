(** * Model of what [fit] leaves behind when it raises. *)
From Verif Require Export Init Init_gmm.

(** How a call of [fit] ends: it returns, with the events it logged, or raises.
    Either way the estimator and numpy's global generator are left in some state;
    the events logged before an exception are not modelled. *)
Inductive outcome (P G : Type) :=
| Returned (e : est P G) (glob : G) (ev : list event)
| Raised (e : est P G) (glob : G) (ex : exn).
Arguments Returned {P G}. Arguments Raised {P G}.

(** What the methods of a subclass have assigned when they raise.  Only used when
    the corresponding function of [emclass] or [initclass] yields [Err]. *)
Record leftclass (P X St G : Type) := LeftClass {
  lf_nfeat : cfg -> option nat -> P -> list X -> option nat * P;  (* _check_and_set_n_features *)
  lf_em : fpmode -> rng G -> cfg -> option nat -> P -> list X -> rstate G -> G -> P * rstate G * G;
                                                  (* _init, after super()._init *)
  lf_check : fpmode -> cfg -> option nat -> P -> option nat * P;  (* _check, after the base part *)
  lf_mstep : fpmode -> cfg -> option nat -> P -> St -> P }.       (* _do_mstep, after the base part *)
Arguments LeftClass {P X St G}. Arguments lf_nfeat {P X St G}. Arguments lf_em {P X St G}.
Arguments lf_check {P X St G}. Arguments lf_mstep {P X St G}.

Section Run.
  Context {P X St G : Type}.
  Variable E : emclass P X St.
  Variable I : initclass P X G.
  Variable L : leftclass P X St G.
  Variable rg : rng G.
  Variable fp : fpmode.

  (** base.py:919-945 [BaseHMM._init], attribute by attribute.  A draw that raises
      leaves the generator alone (numpy validates the arguments first). *)
  Definition base_init_run (e : est P G) (glob : G) (x : list X) : outcome P G :=
    let h := e_hmm e in
    let c := h_cfg h in
    let nc := c_nc c in
    match ic_nfeat I c (h_nfeat h) (h_em h) x with
    | Err ex =>
        let '(nf, p) := lf_nfeat L c (h_nfeat h) (h_em h) x in
        Raised (Est (Hmm c nf (h_start h) (h_trans h) (h_mon h) p) (e_rs e)) glob ex
    | Ok (nf, p) =>
        let e0 := Est (Hmm c nf (h_start h) (h_trans h) (h_mon h) p) (e_rs e) in
        if Nat.eqb nc 0 then Raised e0 glob ZeroDivisionError else
        let alpha := tab nc (fun _ => xdiv fp (Fin 1) (Fin (INR nc))) in
        match rs_get rg (e_rs e) glob with
        | Err ex => Raised e0 glob ex
        | Ok g =>
            let '(ns, ev1) := needs_init c "s" "startprob_" (isSome (h_start h)) in
            match (if (ns : bool) then do (v, g1) <- r_dirichlet rg alpha g; Ok (Some v, g1)
                   else Ok (h_start h, g)) with
            | Err ex => Raised e0 glob ex
            | Ok (s, g1) =>
                let '(nt, ev2) := needs_init c "t" "transmat_" (isSome (h_trans h)) in
                match (if (nt : bool) then do (l, g2) <- draws (r_dirichlet rg alpha) nc g1; Ok (Some (Mat nc l), g2)
                       else Ok (h_trans h, g1)) with
                | Err ex =>
                    let '(rs, glob') := rs_put (e_rs e) glob g1 in
                    Raised (Est (Hmm c nf s (h_trans h) (h_mon h) p) rs) glob' ex
                | Ok (t, g2) =>
                    let '(rs, glob') := rs_put (e_rs e) glob g2 in
                    let e2 := Est (Hmm c nf s t (h_mon h) p) rs in
                    match (do d <- ic_nfit I c nf p; dict_sum d (c_params c)) with
                    | Err ex => Raised e2 glob' ex
                    | Ok n =>
                        let ev3 := if Z.ltb (Z.of_nat (length x * ic_width I x)) n then [WDegenerate] else [] in
                        Returned e2 glob' (ev1 ++ ev2 ++ ev3)
                    end
                end
            end
        end
    end.

  (** [_init] of a subclass. *)
  Definition init_run (e : est P G) (glob : G) (x : list X) : outcome P G :=
    match base_init_run e glob x with
    | Raised e1 glob1 ex => Raised e1 glob1 ex
    | Returned e1 glob1 ev1 =>
        let h := e_hmm e1 in
        match ic_em I fp rg (h_cfg h) (h_nfeat h) (h_em h) x (e_rs e1) glob1 with
        | Err ex =>
            let '(p, rs, glob2) := lf_em L fp rg (h_cfg h) (h_nfeat h) (h_em h) x (e_rs e1) glob1 in
            Raised (Est (Hmm (h_cfg h) (h_nfeat h) (h_start h) (h_trans h) (h_mon h) p) rs) glob2 ex
        | Ok (p, rs, glob2, ev2) =>
            Returned (Est (Hmm (h_cfg h) (h_nfeat h) (h_start h) (h_trans h) (h_mon h) p) rs) glob2 (ev1 ++ ev2)
        end
    end.

  (** [_check] when it raises: the base part (base.py:958-977) only assigns arrays
      equal to the old ones. *)
  Definition check_left (h : hmm P) : hmm P :=
    match h_start h, h_trans h with
    | Some s, Some t =>
        match base_check fp (c_nc (h_cfg h)) s t with
        | Err _ => h
        | Ok _ =>
            let '(nf, p) := lf_check L fp (h_cfg h) (h_nfeat h) (h_em h) in
            Hmm (h_cfg h) nf (h_start h) (h_trans h) (h_mon h) p
        end
    | _, _ => h
    end.

  (** One iteration (base.py:485-492) when it raises: the E-step assigns nothing,
      the M-step of the subclass raises after [startprob_] and [transmat_] have
      been assigned. *)
  Definition step_left (x : list X) (lengths : option (list Z)) (h : hmm P) : hmm P :=
    match h_start h, h_trans h with
    | Some s, Some t =>
        match do_estep E fp h s t x lengths with
        | Err _ => h
        | Ok (st, _) =>
            Hmm (h_cfg h) (h_nfeat h) (Some (mstep_start fp h s st)) (Some (mstep_trans fp h t st)) (h_mon h)
                (lf_mstep L fp (h_cfg h) (h_nfeat h) (h_em h) (st_em st))
        end
    | _, _ => h
    end.

  (** base.py:484-500. *)
  Fixpoint loop_run (x : list X) (lengths : option (list Z)) (fuel : nat) (h : hmm P) (m : monitor)
    : hmm P * monitor * res (list event) :=
    match fuel with
    | 0%nat => (h, m, Ok [])
    | S fuel' =>
        match em_step E fp x lengths h with
        | Err ex => (step_left x lengths h, m, Err ex)
        | Ok (h', lb) =>
            let '(m', ev) := monitor_report fp m lb in
            if converged fp m' then (h', m', Ok ev)
            else
              let ev' := if zero_rows fp h' then ev ++ [WZeroRows] else ev in
              let '(h2, m2, r) := loop_run x lengths fuel' h' m' in
              (h2, m2, do ev2 <- r; Ok (ev' ++ ev2))
        end
    end.

  Definition mon_set (h : hmm P) (m : monitor) : hmm P :=
    Hmm (h_cfg h) (h_nfeat h) (h_start h) (h_trans h) m (h_em h).

  (** base.py:453-501 [fit]. *)
  Definition fit_run (e : est P G) (glob : G) (x : list X) (lengths : option (list Z)) : outcome P G :=
    match check_array (ec_xok E) x with
    | Err ex => Raised e glob ex
    | Ok x =>
        let lengths := match lengths with None => Some [Z.of_nat (length x)] | Some l => Some l end in
        match init_run e glob x with
        | Raised e1 glob1 ex => Raised e1 glob1 ex
        | Returned e1 glob1 ev1 =>
            match check E fp (e_hmm e1) with
            | Err ex => Raised (Est (check_left (e_hmm e1)) (e_rs e1)) glob1 ex
            | Ok h1 =>
                let '(h2, m, r) := loop_run x lengths (c_n_iter (h_cfg h1)) h1 (monitor_reset (h_mon h1)) in
                let e2 := Est (mon_set h2 m) (e_rs e1) in
                match r with
                | Err ex => Raised e2 glob1 ex
                | Ok ev2 => Returned e2 glob1 (ev1 ++ ev2)
                end
            end
        end
    end.
End Run.

(** ** The classes. *)
Definition adopted {G} (rg : rng G) (rs : rstate G) : rstate G :=
  match rs_adopt rg rs with Ok rs1 => rs1 | Err _ => rs end.

(** CategoricalHMM: _emissions.py:53-68 raises before assigning; hmm.py:131
    assigns [random_state] first; hmm.py:141-143 assigns [n_features] before the
    shape is tested; the M-step does not raise. *)
Definition cat_left {G} : leftclass catp Z cat_stat G :=
  LeftClass
    (fun c nf p x => (nf, p))
    (fun fp rg c nf p x rs glob => (p, adopted rg rs, glob))
    (fun fp c nf p => match cat_prob p, nf with Some m, None => (Some (ncol m), p) | _, _ => (nf, p) end)
    (fun fp c nf p st => p).

(** PoissonHMM: hmm.py:1039 assigns [random_state] before the draw; hmm.py:1054-1059
    raises before [n_features] is assigned. *)
Definition pois_left {G} : leftclass poisp (list Z) pois_stat G :=
  LeftClass
    (fun c nf p x => (nf, p))
    (fun fp rg c nf p x rs glob => (p, adopted rg rs, glob))
    (fun fp c nf p => (nf, p))
    (fun fp c nf p st => p).

(** MultinomialHMM: _emissions.py:317 assigns [n_features] before the counts are
    looked at; hmm.py:934 assigns it before [n_trials] is tested. *)
Definition mult_left {G} : leftclass mulp (list Z) mul_stat G :=
  LeftClass
    (fun c nf p x => match set_n_features nf (width x) with Ok nf' => (nf', p) | Err _ => (nf, p) end)
    (fun fp rg c nf p x rs glob => (p, adopted rg rs, glob))
    (fun fp c nf p =>
       match mu_prob p with
       | None => (nf, p)
       | Some m =>
           let n := match nf with None => ncol m | Some n => n end in
           if Nat.eqb (nrow m) (c_nc c) && Nat.eqb (ncol m) n then (Some n, p) else (nf, p)
       end)
    (fun fp c nf p st => p).

(** GaussianHMM: hmm.py:313-317 assigns [means_] before the covariances are looked
    at (the setter, hmm.py:301-305, assigns after validating); hmm.py:328 assigns
    [n_features] before [covariance_type] is tested; hmm.py:352-353 assigns
    [means_] before the covariances are computed. *)
Definition gauss_left {G} : leftclass gaussp vec gauss_stat G :=
  LeftClass
    (fun c nf p x => (nf, p))
    (fun fp rg c nf p x rs glob =>
       if fst (needs_init c "m" "means_" (isSome (ga_means p))) then
         match (do g <- rs_get rg rs glob; r_kmeans rg (c_nc c) x g) with
         | Err _ => (p, rs, glob)
         | Ok (m, g1) => let '(rs1, glob1) := rs_put rs glob g1 in (ga_set p (Some m) (ga_covars p), rs1, glob1)
         end
       else (p, rs, glob))
    (fun fp c nf p => match ga_means p with Some m => (Some (ncol m), p) | None => (nf, p) end)
    (fun fp c nf p st =>
       if has "m" (c_params c) then
         match gauss_means fp p st with Ok m => ga_set p (Some m) (ga_covars p) | Err _ => p end
       else p).

(** GMMHMM: hmm.py:593-613 assigns the defaults of the covariance priors,
    hmm.py:615-648 then reshapes one prior after the other. *)
Definition priors_left (fp : fpmode) (nc nf : nat) (p : gmmp) : gmmp :=
  let nm := gm_nmix p in
  let ty := gm_type p in
  let cp := match gm_cprior p with Some a => Some a | None => option_map nscal (default_cprior fp ty nm nf) end in
  let cw := match gm_cweight p with Some a => Some a | None => option_map nscal (default_cweight fp ty nm nf) end in
  match nbroadcast (gm_wprior p) [nc; nm] with
  | Err _ => gm_set_priors p (gm_wprior p) (gm_mprior p) (gm_mweight p) cp cw
  | Ok wp =>
      match nbroadcast (gm_mprior p) [nc; nm; nf] with
      | Err _ => gm_set_priors p wp (gm_mprior p) (gm_mweight p) cp cw
      | Ok mp =>
          match nbroadcast (gm_mweight p) [nc; nm] with
          | Err _ => gm_set_priors p wp mp (gm_mweight p) cp cw
          | Ok mw =>
              match fix_prior cp (cprior_shape ty nc nm nf) with
              | Err _ => gm_set_priors p wp mp mw cp cw
              | Ok cp' => gm_set_priors p wp mp mw cp' cw
              end
          end
      end
  end.
(** hmm.py:553-569 when it raises: the generators after the last KMeans or draw
    that succeeded. *)
Fixpoint mix_means_left {G} (gr : grng G) (rg : rng G) (nm : nat) (labels : list nat) (x : list vec)
    (cent : vec) (cv : mat) (is : list nat) (rs : rstate G) (glob : G) : rstate G * G :=
  match is with
  | [] => (rs, glob)
  | i :: r =>
      let xc := in_cluster labels x i in
      match (if Nat.leb nm (length xc)
             then do (_, m, rs1, glob1) <- kmeans gr rg nm xc rs glob; Ok (m, rs1, glob1)
             else do (m, glob1) <- gr_mvn gr cent cv nm glob; Ok (m, rs, glob1)) with
      | Err _ => (rs, glob)
      | Ok (_, rs1, glob1) => mix_means_left gr rg nm labels x cent cv r rs1 glob1
      end
  end.
(** hmm.py:533-591; nothing but the priors is assigned before the two loops of
    KMeans are over, and only [1 / nm] (hmm.py:571) can raise after them. *)
Definition gmm_em_left {G} (gr : grng G) (fp : fpmode) (rg : rng G) (c : cfg) (nfe : option nat) (p0 : gmmp)
    (x : list vec) (rs : rstate G) (glob : G) : gmmp * rstate G * G :=
  let nc := c_nc c in
  let nf := match nfe with Some n => n | None => 0%nat end in
  let nm := gm_nmix p0 in
  let cv := cov_template fp (gm_min_covar p0) x in
  match fix_priors fp nc nf p0 with
  | Err _ => (priors_left fp nc nf p0, rs, glob)
  | Ok p =>
      match kmeans gr rg nc x rs glob with
      | Err _ => (p, rs, glob)
      | Ok (labels, centers, rs1, glob1) =>
          let '(rs2, glob2) := mix_means_left gr rg nm labels x (centroid fp centers) cv (seq 0 nc) rs1 glob1 in
          (p, rs2, glob2)
      end
  end.
(** hmm.py:650-732: [n_features] and the priors are assigned first; the arrays
    assigned later equal the old ones. *)
Definition gmm_check_left (fp : fpmode) (c : cfg) (nfe : option nat) (p : gmmp) : option nat * gmmp :=
  match match nfe with
        | Some n => Some n
        | None =>
            match gm_means p with
            | None => None
            | Some m => match nsh m with _ :: _ :: n :: _ => Some n | _ => None end
            end
        end with
  | None => (nfe, p)
  | Some nf =>
      (Some nf, match fix_priors fp (c_nc c) nf p with Ok p1 => p1 | Err _ => priors_left fp (c_nc c) nf p end)
  end.
(** hmm.py:734-810: [weights_] and [means_] are assigned before the covariances
    are computed. *)
Definition gmm_mstep_left (fp : fpmode) (c : cfg) (nfe : option nat) (p : gmmp) (st : gmm_stat) : gmmp :=
  match gm_weights p, gm_means p with
  | Some w0, Some m0 =>
      let nf := gm_nf nfe in
      let w := if has "w" (c_params c) then gmm_weights fp c p st else w0 in
      let m := if has "m" (c_params c) then gmm_means_upd fp c nf p w st else m0 in
      gm_set p (Some w) (Some m) (gm_covars p)
  | _, _ => p
  end.
Definition gmm_left {G} (gr : grng G) : leftclass gmmp vec gmm_stat G :=
  LeftClass (fun c nf p x => (nf, p)) (gmm_em_left gr) gmm_check_left gmm_mstep_left.
