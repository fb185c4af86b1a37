(** * Model of what [fit] leaves behind when it raises: variational classes. *)
From Verif Require Export Vcat Vgauss.

(** How a call of [fit] ends; see Interrupt.v. *)
Inductive voutcome (P G : Type) :=
| VReturned (e : vest P G) (glob : G) (ev : list event)
| VRaised (e : vest P G) (glob : G) (ex : exn).
Arguments VReturned {P G}. Arguments VRaised {P G}.

(** What the methods of a subclass have assigned when they raise.
    [_check_and_set_n_features] assigns nothing (_emissions.py:53-68,
    base.py:536-551), and the two M-steps do not raise (proved in
    Vinterrupt_thms.v), so that no record is kept for them. *)
Record vleftclass (P X G : Type) := VLeftClass {
  vl_em : fpmode -> rng G -> cfg -> option nat -> P -> list X -> list Z -> rstate G -> G -> P * rstate G * G;
                                                  (* _init, after super()._init *)
  vl_check : fpmode -> cfg -> option nat -> P -> option nat * P }.   (* _check, after the base part *)
Arguments VLeftClass {P X G}. Arguments vl_em {P X G}. Arguments vl_check {P X G}.

Section Run.
  Context {P X St G : Type}.
  Variable V : vclass P X St.
  Variable I : vinitclass P X G.
  Variable L : vleftclass P X G.
  Variable rg : rng G.
  Variable fp : fpmode.

  Definition vwith (v : vhmm P) (nf : option nat) (p : P) (sp sq : option vec) (tp tq : option mat) : vhmm P :=
    VHmm (Hmm (h_cfg (v_h v)) nf (h_start (v_h v)) (h_trans (v_h v)) (h_mon (v_h v)) p) (v_sarg v) (v_targ v) sp sq tp tq.

  (** base.py:1050-1097 [VariationalBaseHMM._init], attribute by attribute: a
      prior is assigned before the posterior is drawn.  A draw that raises leaves
      the generator alone. *)
  Definition vbase_init_run (e : vest P G) (glob : G) (x : list X) (lengths : list Z) : voutcome P G :=
    let v := ve_v e in
    let h := v_h v in
    let c := h_cfg h in
    let nc := c_nc c in
    match vi_nfeat I c (h_nfeat h) (h_em h) x with
    | Err ex => VRaised e glob ex
    | Ok (nf, p) =>
        let left sp sq tp tq := vwith v nf p sp sq tp tq in
        let stop ex := VRaised (VEst (left (v_sprior v) (v_spost v) (v_tprior v) (v_tpost v)) (ve_rs e)) glob ex in
        if Nat.eqb nc 0 then stop ZeroDivisionError else
        let u := xdiv fp (Fin 1) (Fin (INR nc)) in
        match rs_get rg (ve_rs e) glob with
        | Err ex => stop ex
        | Ok g =>
            let '(ns, ev1) := needs_init2 c "s" "startprob_posterior_" (isSome (v_spost v))
                                            "startprob_prior_" (isSome (v_sprior v)) in
            match (if (ns : bool) then do a <- full1 nc (match v_sarg v with None => Scal u | Some a => a end); Ok (Some a)
                   else Ok (v_sprior v)) with
            | Err ex => stop ex
            | Ok sp =>
                match (if (ns : bool) then
                         do (d, g1) <- r_dirichlet rg (tab nc (fun _ => u)) g;
                         Ok (Some (map (fun a => xmul fp a (Fin (INR (length lengths)))) d), g1)
                       else Ok (v_spost v, g)) with
                | Err ex => VRaised (VEst (left sp (v_spost v) (v_tprior v) (v_tpost v)) (ve_rs e)) glob ex
                | Ok (sq, g1) =>
                    let '(nt, ev2) := needs_init2 c "t" "transmat_posterior_" (isSome (v_tpost v))
                                                    "transmat_prior_" (isSome (v_tprior v)) in
                    match (if (nt : bool) then do a <- full2 nc nc (match v_targ v with None => Scal u | Some a => a end); Ok (Some a)
                           else Ok (v_tprior v)) with
                    | Err ex =>
                        let '(rs, glob') := rs_put (ve_rs e) glob g1 in
                        VRaised (VEst (left sp sq (v_tprior v) (v_tpost v)) rs) glob' ex
                    | Ok tp =>
                        match (if (nt : bool) then
                                 do (l, g2) <- draws (r_dirichlet rg (tab nc (fun _ => u))) nc g1;
                                 let w := xdiv fp (Fin (IZR (zsum_l lengths))) (Fin (INR nc)) in
                                 Ok (Some (Mat nc (map (map (fun a => xmul fp a w)) l)), g2)
                               else Ok (v_tpost v, g1)) with
                        | Err ex =>
                            let '(rs, glob') := rs_put (ve_rs e) glob g1 in
                            VRaised (VEst (left sp sq tp (v_tpost v)) rs) glob' ex
                        | Ok (tq, g2) =>
                            let '(rs, glob') := rs_put (ve_rs e) glob g2 in
                            let e2 := VEst (left sp sq tp tq) rs in
                            match (do d <- vi_nfit I c nf p; dict_sum d (c_params c)) with
                            | Err ex => VRaised e2 glob' ex
                            | Ok n =>
                                let ev3 := if Z.ltb (Z.of_nat (length x * vi_width I x)) n then [WDegenerate] else [] in
                                VReturned e2 glob' (ev1 ++ ev2 ++ ev3)
                            end
                        end
                    end
                end
            end
        end
    end.

  (** [_init] of a subclass. *)
  Definition vinit_run (e : vest P G) (glob : G) (x : list X) (lengths : list Z) : voutcome P G :=
    match vbase_init_run e glob x lengths with
    | VRaised e1 glob1 ex => VRaised e1 glob1 ex
    | VReturned e1 glob1 ev1 =>
        let v := ve_v e1 in
        let h := v_h v in
        match vi_em I fp rg (h_cfg h) (h_nfeat h) (h_em h) x lengths (ve_rs e1) glob1 with
        | Err ex =>
            let '(p, rs, glob2) := vl_em L fp rg (h_cfg h) (h_nfeat h) (h_em h) x lengths (ve_rs e1) glob1 in
            VRaised (VEst (with_h v (set_em h (h_nfeat h) p)) rs) glob2 ex
        | Ok (p, rs, glob2, ev2) => VReturned (VEst (with_h v (set_em h (h_nfeat h) p)) rs) glob2 (ev1 ++ ev2)
        end
    end.

  (** [_check] when it raises; the base part (base.py:1121-1148) only assigns
      arrays equal to the old ones. *)
  Definition vcheck_left (v : vhmm P) : vhmm P :=
    match (if vc_super_check V then vbase_check v else Ok tt) with
    | Err _ => v
    | Ok _ =>
        let '(nf, p) := vl_check L fp (v_cfg v) (h_nfeat (v_h v)) (h_em (v_h v)) in
        with_h v (set_em (v_h v) nf p)
    end.

  (** One iteration (base.py:485-492) when it raises: [_estep_begin] assigns
      derived attributes (of which only that of VariationalCategoricalHMM is part
      of the model); the M-step of the subclass raises after that of the base class
      (base.py:1222-1240). *)
  Definition vmstep_left (v : vhmm P) (st : @stats St) : vhmm P :=
    let c := v_cfg v in
    let h := v_h v in
    match (if has "s" (c_params c) then
             do sp <- attr "startprob_prior_" (v_sprior v);
             let q := vadd fp sp (st_start st) in Ok (Some q, Some (mean_of fp q))
           else Ok (v_spost v, h_start h)) with
    | Err _ => v
    | Ok (sq, s) =>
        let '(tq, t) :=
          (if has "t" (c_params c) then
             match v_tprior v with
             | Some tp => let q := madd fp tp (st_trans st) in (Some q, Some (mrows (mean_of fp) q))
             | None => (v_tpost v, h_trans h)
             end
           else (v_tpost v, h_trans h)) in
        VHmm (Hmm c (h_nfeat h) s t (h_mon h) (h_em h)) (v_sarg v) (v_targ v) (v_sprior v) sq (v_tprior v) tq
    end.
  Definition vstep_left (x : list X) (lengths : option (list Z)) (v : vhmm P) : vhmm P :=
    match v_spost v, v_tpost v with
    | Some sq, Some tq =>
        let h := v_h v in
        match vc_begin V fp (h_cfg h) (h_nfeat h) (h_em h) with
        | Err _ => v
        | Ok p =>
            let v1 := with_h v (set_em h (h_nfeat h) p) in
            match vestep V fp x lengths v with
            | Err _ => v1
            | Ok (_, st, lp) =>
                match vlower_bound V fp v1 lp with
                | Err _ => v1
                | Ok _ => vmstep_left v1 st
                end
            end
        end
    | _, _ => v
    end.

  (** base.py:484-500; the test for rows of zeros comes after the iteration. *)
  Fixpoint vloop_run (x : list X) (lengths : option (list Z)) (fuel : nat) (v : vhmm P) (m : monitor)
    : vhmm P * monitor * res (list event) :=
    match fuel with
    | 0%nat => (v, m, Ok [])
    | S fuel' =>
        match vb_step V fp x lengths v with
        | Err ex => (vstep_left x lengths v, m, Err ex)
        | Ok (v', lb) =>
            let '(m', ev) := monitor_report fp m lb in
            if converged fp m' then (v', m', Ok ev)
            else
              match vzero_rows fp v' with
              | Err ex => (v', m', Err ex)
              | Ok z =>
                  let '(v2, m2, r) := vloop_run x lengths fuel' v' m' in
                  (v2, m2, do ev2 <- r; Ok ((if (z : bool) then ev ++ [WZeroRows] else ev) ++ ev2))
              end
        end
    end.

  Definition vmon_set (v : vhmm P) (m : monitor) : vhmm P :=
    let h := v_h v in with_h v (Hmm (h_cfg h) (h_nfeat h) (h_start h) (h_trans h) m (h_em h)).

  (** base.py:453-501 [fit]. *)
  Definition vfit_run (e : vest P G) (glob : G) (x : list X) (lengths : option (list Z)) : voutcome P G :=
    match check_array (ec_xok (vc_em V)) x with
    | Err ex => VRaised e glob ex
    | Ok x =>
        let ls := match lengths with None => [Z.of_nat (length x)] | Some l => l end in
        match vinit_run e glob x ls with
        | VRaised e1 glob1 ex => VRaised e1 glob1 ex
        | VReturned e1 glob1 ev1 =>
            match vcheck V fp (ve_v e1) with
            | Err ex => VRaised (VEst (vcheck_left (ve_v e1)) (ve_rs e1)) glob1 ex
            | Ok v1 =>
                let '(v2, m, r) := vloop_run x (Some ls) (c_n_iter (v_cfg v1)) v1 (monitor_reset (h_mon (v_h v1))) in
                let e2 := VEst (vmon_set v2 m) (ve_rs e1) in
                match r with
                | Err ex => VRaised e2 glob1 ex
                | Ok ev2 => VReturned e2 glob1 (ev1 ++ ev2)
                end
            end
        end
    end.
End Run.

(** VariationalCategoricalHMM: vhmm.py:150-157 assigns [emissionprob_prior_] before
    the posterior is drawn (the draw raises for a prior that is an array);
    vhmm.py:189-190 assigns [n_features] before the shape is tested. *)
Definition vcat_left {G} : vleftclass vcatp Z G :=
  VLeftClass
    (fun fp rg c nf p x ls rs glob =>
       let n := match nf with Some n => n | None => 0%nat end in
       let a := match vk_arg p with None => Scal (xdiv fp (Fin 1) (Fin (INR n))) | Some a => a end in
       match rs_get rg rs glob with
       | Err _ => (p, rs, glob)
       | Ok _ =>
           if fst (needs_init c "e" "emissionprob_posterior_" (isSome (vk_post p))) && negb (Nat.eqb n 0) then
             match full2 (c_nc c) n a with
             | Err _ => (p, rs, glob)
             | Ok pr => (VCatp (vk_arg p) (Some pr) (vk_post p) (vk_prob p) (vk_sub p), rs, glob)
             end
           else (p, rs, glob)
       end)
    (fun fp c nf p =>
       match vk_prior p, vk_post p with
       | Some pr, Some po =>
           if Nat.eqb (nrow pr) (nrow po) && Nat.eqb (ncol pr) (ncol po)
           then (Some match nf with None => ncol po | Some n => n end, p) else (nf, p)
       | _, _ => (nf, p)
       end).

(** VariationalGaussianHMM: vhmm.py:474-498 assigns the four attributes of the means
    before the covariances are looked at; vhmm.py:504-517 then assigns the degrees of
    freedom, 522-525 the covariances (after validation), 527-562 the prior of the
    scale before its posterior. *)
Definition vg_left {G} (gr : grng G) : vleftclass vgp vec G :=
  VLeftClass
    (fun fp rg c nfe p x ls rs glob =>
       let nc := c_nc c in
       let nf := match nfe with Some n => n | None => 0%nat end in
       let ty := vg_type p in
       match kmeans gr rg nc x rs glob with
       | Err _ => (p, rs, glob)
       | Ok (labels, centers, rs1, glob1) =>
           let counts := bincount labels in
           let '(m0, m, b0, b) :=
             if fst (needs_any c "m" [("means_prior_", isSome (vg_m0 p)); ("means_posterior_", isSome (vg_m p));
                                      ("beta_prior_", isSome (vg_b0 p)); ("beta_posterior_", isSome (vg_b p))]%string) then
               (Some (match vg_marg p with
                      | Some a => a
                      | None => Arr2 (mtab nc nf (fun _ f => arr_mean fp (map (fun r => vget r f) x)))
                      end), Some centers,
                Some (match vg_barg p with Some a => a | None => tab nc (fun _ => xadd fp (Fin 0) (Fin 1)) end), Some counts)
             else (vg_m0 p, vg_m p, vg_b0 p, vg_b p) in
           let left d0 d s0 cv :=
             (Vgp ty (vg_marg p) (vg_barg p) (vg_darg p) (vg_sarg p) m0 m b0 b d0 d s0 (vg_s p) cv, rs1, glob1) in
           if fst (needs_any c "c" [("dof_prior_", isSome (vg_d0 p)); ("dof_posterior_", isSome (vg_d p));
                                    ("scale_prior_", isSome (vg_s0 p)); ("scale_posterior_", isSome (vg_s p))]%string) then
             let n := Fin (INR nf) in
             let '(d0, d) :=
               if String.eqb ty "tied"
               then (Some (match vg_darg p with Some a => a | None => DofS n end), Some (DofS (xsum fp counts)))
               else if is_type covariance_types ty
               then (Some (match vg_darg p with Some a => a | None => DofV (tab nc (fun _ => n)) end), Some (DofV counts))
               else (vg_d0 p, vg_d p) in
             match (do cv <- distribute fp (cov_template fp (fp (/ 1000)) x) ty nc; do _ <- validate_covars fp cv ty nc; Ok cv) with
             | Err _ => left d0 d (vg_s0 p) (vg_cov p)
             | Ok cv =>
                 let e := fp (/ 1000) in
                 let eye := mtab nf nf (fun i j => xmul fp (if Nat.eqb i j then Fin 1 else Fin 0) e) in
                 let s0 := match vg_sarg p with
                           | Some a => a
                           | None => if String.eqb ty "full" then CV3 (tab nc (fun _ => eye))
                                     else if String.eqb ty "tied" then CV2 eye
                                     else if String.eqb ty "diag" then CV2 (mtab nc nf (fun _ _ => e)) else CV1 (tab nc (fun _ => e))
                           end in
                 left d0 d (Some s0) (Some cv)
             end
           else left (vg_d0 p) (vg_d p) (vg_s0 p) (vg_cov p)
       end)
    (fun fp c nf p => (nf, p)).
