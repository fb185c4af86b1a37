(** * VariationalCategoricalHMM: one iteration and whole training runs. *)
From Verif Require Export Vbase_proofs.

Section Cat.
  Variables (nc nf : nat).
  Hypothesis Hnc : (0 < nc)%nat.
  Hypothesis Hnf : (0 < nf)%nat.

  (** The attributes hold the Dirichlet parameters [p] (priors) and [q] (posteriors). *)
  Record vcat_at (v : vhmm vcatp) (p q : dirs) : Prop := VCatAt {
    vca_base : vbase_at nc v (d_s p) (d_t p) (d_s q) (d_t q);
    vca_nf : h_nfeat (v_h v) = Some nf;
    vca_prior : vk_prior (h_em (v_h v)) = Some (fmat nc nf (d_e p));
    vca_post : vk_post (h_em (v_h v)) = Some (fmat nc nf (d_e q));
    vca_pe : pos2 nc nf (d_e p); vca_qe : pos2 nc nf (d_e q) }.

  Definition sub_mat (q : dirs) : mat := fmat nc nf (fun i k => ln (sub1 nf (d_e q i) k)).
  Definition begun (p : vcatp) (q : dirs) : vcatp :=
    VCatp (vk_arg p) (vk_prior p) (vk_post p) (vk_prob p) (Some (sub_mat q)).

  Lemma vcat_begin_spec c nfe p q : vk_post p = Some (fmat nc nf (d_e q)) -> pos2 nc nf (d_e q) ->
    vcat_begin exact c nfe p = Ok (begun p q).
  Proof.
    intros H Hq. unfold vcat_begin. rewrite H. cbn [attr bind]. unfold begun, sub_mat. rewrite H.
    rewrite (mrows_fmat _ nc nf _ (fun i k => ln (sub1 nf (d_e q i) k))); [reflexivity|].
    intros i Hi. apply log_subnorm_fvec; [exact Hnf|]. intros k Hk. apply Hq; assumption.
  Qed.

  Lemma vcat_subll_spec c nfe p q x : Forall (sym_ok nf) x ->
    vcat_subll exact c nfe (begun p q) x = Ok (lmat (length x) nc (obsB (w_e nf q) x)).
  Proof.
    intros Hx. unfold vcat_subll, begun, sub_mat. cbn [vk_sub attr bind]. rewrite ncol_fmat, nrow_fmat.
    rewrite (map_res_ok _ Z.to_nat).
    2:{ intros k Hk. rewrite Forall_forall in Hx. apply np_index_in. apply Hx. exact Hk. }
    cbn [bind]. f_equal. rewrite map_map.
    apply (mat_of_rows x nc (fun k i => mget (fmat nc nf (fun i k => ln (sub1 nf (d_e q i) k))) i (Z.to_nat k))).
    intros t d i Ht Hi.
    assert (Hs : sym_ok nf (nth t x d)) by (rewrite Forall_forall in Hx; apply Hx, nth_In, Ht).
    rewrite mget_fmat by (unfold sym_ok in Hs; lia).
    rewrite (obsB_nth _ x d) by exact Ht. unfold w_e, cat_b. rewrite xln_pos by apply sub1_pos. reflexivity.
  Qed.

  Lemma vcat_emits h p q : h_em h = begun p q ->
    emits (sub_em vcategorical) h nc (sym_ok nf) (w_e nf q).
  Proof.
    intros He. constructor.
    - intros x Hx. unfold loglik. cbn [ec_loglik sub_em vc_subll vcategorical]. rewrite He. apply vcat_subll_spec, Hx.
    - intros x Hx. unfold lik. cbn [ec_lik sub_em vc_subll vcategorical]. unfold lik_of_loglik.
      rewrite He, vcat_subll_spec by exact Hx. cbn [bind]. rewrite mexp_lmat; [reflexivity|].
      intros t i Ht Hi. apply Rlt_le, (obsB_pos (sym_ok nf) nc); try assumption.
      intros o j Ho Hj. apply (w_e_pos nc nf q); assumption.
    - intros o i Ho Hi. apply Rlt_le, (w_e_pos nc nf q); assumption.
    - reflexivity.
  Qed.

  Lemma vcat_acc_all c nfe p l f : (forall x g, In (x, g) l -> Forall (sym_ok nf) x) ->
    em_acc_all (vc_em vcategorical) c nfe p nc (fmat nc nf f) l
    = Ok (fmat nc nf (fun i k => if has "e" (c_params c) then f i k + sym_count l i k else f i k)).
  Proof.
    intros H. rewrite <- (cat_acc_all nc nf c nfe (Catp (Scal NaN) None) l f H). clear H.
    generalize (fmat nc nf f). induction l as [|[y g] l IH]; intros st; [reflexivity|]. cbn [em_acc_all].
    change (ec_acc (vc_em vcategorical) exact c nfe p st y) with (ec_acc categorical exact c nfe (Catp (Scal NaN) None) st y).
    destruct (ec_acc categorical exact c nfe (Catp (Scal NaN) None) st y _); [apply IH|reflexivity].
  Qed.

  Variables (ls : list nat) (x : list Z).
  Hypothesis Hd : good_data (sym_ok nf) ls x.
  Notation cs := (chunks ls x).

  Definition vcat_next (v : vhmm vcatp) (p q : dirs) : vhmm vcatp :=
    let q' := vb_next nc nf (c_params (v_cfg v)) p cs q in
    let e := h_em (v_h v) in
    vnext nc v (d_s q') (d_t q')
      (if has "e" (c_params (v_cfg v))
       then VCatp (vk_arg e) (vk_prior e) (Some (fmat nc nf (d_e q')))
              (Some (fmat nc nf (fun i => mean1 nf (d_e q' i)))) (Some (sub_mat q))
       else begun e q).

  Section One.
    Variables (v : vhmm vcatp) (p q : dirs).
    Hypothesis HV : vcat_at v p q.
    Notation c := (v_cfg v).
    Notation e := (h_em (v_h v)).
    Let HB := vca_base _ _ _ HV.
    Notation h' := (Hmm c (h_nfeat (v_h v)) (Some (fvec nc (sub1 nc (d_s q))))
                      (Some (fmat nc nc (fun i => sub1 nc (d_t q i)))) (h_mon (v_h v)) (begun e q)).

    Lemma vcat_beg : vc_begin vcategorical exact c (h_nfeat (v_h v)) e = Ok (begun e q).
    Proof. apply vcat_begin_spec; apply HV. Qed.
    Lemma vcat_em' : emits (sub_em vcategorical) h' nc (sym_ok nf) (w_e nf q).
    Proof. apply (vcat_emits _ e q). reflexivity. Qed.
    Lemma vcat_cs c0 : In c0 cs -> c0 <> [] /\ Forall (sym_ok nf) c0.
    Proof. apply (vchunk (sym_ok nf) ls x Hd). Qed.
    Lemma vcat_dp : dpos nc nf p.
    Proof. split; [apply HV|split; apply HV]. Qed.
    Lemma vcat_dq : dpos nc nf q.
    Proof. split; [apply HV|split; apply HV]. Qed.

    Lemma vcat_next_at : vcat_at (vcat_next v p q) p (vb_next nc nf (c_params c) p cs q).
    Proof.
      pose proof (vb_next_pos nc nf cs Hnc Hnf vcat_cs (c_params c) p vcat_dp q vcat_dq) as (Q1 & Q2 & Q3).
      destruct HV as [B1 B2 B3 B4 B5 B6]. constructor.
      - apply (vnext_base nc (sym_ok nf) ls x Hnc Hd v _ _ _ _ B1 (w_e nf q) (w_e_pos nc nf q)).
      - exact B2.
      - unfold vcat_next, vnext. cbn [v_h h_em]. destruct (has "e" _); exact B3.
      - unfold vcat_next, vnext. cbn [v_h h_em]. unfold vb_next. cbn [d_e].
        destruct (has "e" _); [reflexivity|exact B4].
      - exact B5.
      - exact Q3.
    Qed.

    Lemma vcat_step_ok : (forall c0, In c0 cs -> scorable nc (w_s nc q) (w_t nc q) (w_e nf q) (c_impl c) c0) ->
      vb_step vcategorical exact x (as_lengths ls) v = Ok (vcat_next v p q, Fin (elbo nc nf p cs q)).
    Proof.
      intros Hs.
      pose proof (vb_next_pos nc nf cs Hnc Hnf vcat_cs (c_params c) p vcat_dp q vcat_dq) as (Q1 & Q2 & Q3).
      set (l := map (fun c0 => (c0, seq_post nc (w_s nc q) (w_t nc q) (w_e nf q) c0)) cs).
      assert (Hl : forall y g, In (y, g) l -> Forall (sym_ok nf) y).
      { intros y g Hy. apply in_map_iff in Hy. destruct Hy as (c0 & E & Hc0). injection E as <- <-. apply vcat_cs, Hc0. }
      assert (Hcnt : forall i k, sym_count l i k = n_emit nc nf q cs i k).
      { intros i k. unfold sym_count, l. rewrite sumL_map. reflexivity. }
      apply (vb_step_gen vcategorical nc (sym_ok nf) ls x Hnc Hd v _ _ _ _ HB (begun e q) (w_e nf q) vcat_beg vcat_em'
               (w_e_pos nc nf q)
               (fmat nc nf (fun i k => if has "e" (c_params c) then 0 + sym_count l i k else 0)) _ _ Hs).
      - pose proof (vcat_acc_all c (h_nfeat (v_h v)) (begun e q) l (fun _ _ => 0) Hl) as Ha.
        cbn [vc_em vcategorical ec_stats0]. unfold vcat_stats0, cat_stats0.
        pose proof (vb_nc _ _ _ _ _ _ HB) as En. rewrite En, (vca_nf _ _ _ HV).
        change (mtab nc nf (fun _ _ => Fin 0)) with (fmat nc nf (fun _ _ => 0)).
        rewrite (vca_nf _ _ _ HV) in Ha. exact Ha.
      - change (vcat_mstep exact c (h_nfeat (v_h v)) (begun e q)
                  (fmat nc nf (fun i k => if has "e" (c_params c) then 0 + sym_count l i k else 0))
                = Ok (if has "e" (c_params c)
                      then VCatp (vk_arg e) (vk_prior e) (Some (fmat nc nf (d_e (vb_next nc nf (c_params c) p cs q))))
                             (Some (fmat nc nf (fun i => mean1 nf (d_e (vb_next nc nf (c_params c) p cs q) i)))) (Some (sub_mat q))
                      else begun e q)).
        unfold vcat_mstep. destruct (has "e" (c_params c)) eqn:He; [|reflexivity].
        unfold vb_next in *. rewrite He in *. cbn [d_e] in *.
        unfold begun. cbn [vk_prior vk_arg vk_sub]. rewrite (vca_prior _ _ _ HV). cbn [attr bind].
        rewrite madd_fmat.
        rewrite (fmat_ext nc nf (fun i k => d_e p i k + (0 + sym_count l i k)) (fun i k => d_e p i k + n_emit nc nf q cs i k))
          by (intros; rewrite Hcnt; ring).
        rewrite (mrows_fmat (mean_of exact) nc nf _ _ (fun i Hi => mean_of_fvec nf _ Hnf (fun j Hj => Q3 i j Hi Hj))).
        reflexivity.
      - cbn [vc_bound vcategorical]. unfold vcat_bound, begun. cbn [vk_post vk_prior].
        rewrite (vca_post _ _ _ HV), (vca_prior _ _ _ HV). cbn [attr bind].
        rewrite (vb_nc _ _ _ _ _ _ HB), minus_kl_fmat by (exact Hnf || apply HV).
        rewrite xaddE. reflexivity.
    Qed.

    Lemma vcat_step_inv r : vb_step vcategorical exact x (as_lengths ls) v = Ok r ->
      r = (vcat_next v p q, Fin (elbo nc nf p cs q))
      /\ (forall c0, In c0 cs -> scorable nc (w_s nc q) (w_t nc q) (w_e nf q) (c_impl c) c0).
    Proof.
      intros H.
      assert (Hs : forall c0, In c0 cs -> scorable nc (w_s nc q) (w_t nc q) (w_e nf q) (c_impl c) c0).
      { pose proof H as H1. unfold vb_step in H1.
        destruct (vestep vcategorical exact x (as_lengths ls) v) as [r1|] eqn:E1; [|discriminate].
        apply (vestep_scorable vcategorical nc (sym_ok nf) ls x Hnc Hd v _ _ _ _ HB (begun e q) (w_e nf q) vcat_beg vcat_em'
                 (w_e_pos nc nf q) r1 E1). }
      split; [|exact Hs]. rewrite (vcat_step_ok Hs) in H. injection H as <-. reflexivity.
    Qed.

    Lemma vcat_step_log : c_impl c = "log"%string ->
      vb_step vcategorical exact x (as_lengths ls) v = Ok (vcat_next v p q, Fin (elbo nc nf p cs q)).
    Proof.
      intros Hi. apply vcat_step_ok. intros c0 Hc0. left. split; [exact Hi|].
      apply (lik_pos (sym_ok nf) nc cs Hnc vcat_cs); try assumption;
        [apply w_s_pos|apply w_t_pos|apply (w_e_pos nc nf q)].
    Qed.
  End One.

  (** ** Whole runs. *)
  Definition traj (params : string) (p q : dirs) (j : nat) : dirs := Nat.iter j (vb_next nc nf params p cs) q.

  Lemma iter_comm {A} (f : A -> A) j a : Nat.iter j f (f a) = f (Nat.iter j f a).
  Proof. induction j as [|j IH]; [reflexivity|]. cbn [Nat.iter]. simpl. rewrite <- IH. reflexivity. Qed.

  Lemma vcat_iterate n : forall v p q v' vs, vcat_at v p q ->
    iterate (vb_step vcategorical exact x (as_lengths ls)) n v = Ok (v', vs) ->
    vcat_at v' p (traj (c_params (v_cfg v)) p q n)
    /\ v_cfg v' = v_cfg v
    /\ v_sarg v' = v_sarg v /\ v_targ v' = v_targ v /\ vk_arg (h_em (v_h v')) = vk_arg (h_em (v_h v))
    /\ length vs = n
    /\ (forall j, (j < n)%nat -> nth j vs NaN = Fin (elbo nc nf p cs (traj (c_params (v_cfg v)) p q j)))
    /\ h_start (v_h v') = (match n with O => h_start (v_h v) | _ =>
         if has "s" (c_params (v_cfg v)) then Some (fvec nc (mean1 nc (d_s (traj (c_params (v_cfg v)) p q n)))) else h_start (v_h v) end)
    /\ h_trans (v_h v') = (match n with O => h_trans (v_h v) | _ =>
         if has "t" (c_params (v_cfg v)) then Some (fmat nc nc (fun i => mean1 nc (d_t (traj (c_params (v_cfg v)) p q n) i))) else h_trans (v_h v) end)
    /\ vk_prob (h_em (v_h v')) = (match n with O => vk_prob (h_em (v_h v)) | _ =>
         if has "e" (c_params (v_cfg v)) then Some (fmat nc nf (fun i => mean1 nf (d_e (traj (c_params (v_cfg v)) p q n) i))) else vk_prob (h_em (v_h v)) end).
  Proof.
    induction n as [|n IH]; intros v p q v' vs HV H.
    - cbn [iterate] in H. injection H as <- <-. repeat split; try reflexivity; try apply HV. intros j Hj; lia.
    - rewrite iterate_S in H.
      destruct (vb_step vcategorical exact x (as_lengths ls) v) as [[v1 u]|] eqn:Es; [|discriminate]. cbn [bind] in H.
      destruct (iterate _ n v1) as [[v2 us]|] eqn:Ei; [|discriminate]. injection H as <- <-.
      destruct (vcat_step_inv v p q HV _ Es) as [E _]. injection E as -> ->.
      pose proof (vcat_next_at v p q HV) as HV1.
      destruct (IH _ p _ _ _ HV1 Ei) as (I1 & I2 & I3 & I4 & I5 & I6 & I7 & I8 & I9 & I10).
      assert (Ec : v_cfg (vcat_next v p q) = v_cfg v) by reflexivity. rewrite Ec in *.
      set (c := v_cfg v) in *.
      assert (Et : forall j, traj (c_params c) p (vb_next nc nf (c_params c) p cs q) j = traj (c_params c) p q (S j)).
      { intros j. unfold traj. rewrite iter_comm. reflexivity. }
      rewrite Et in *.
      split; [exact I1|]. split; [exact I2|]. split; [exact I3|]. split; [exact I4|].
      split. { rewrite I5. unfold vcat_next, vnext. cbn [v_h h_em]. fold c. destruct (has "e" _); reflexivity. }
      split; [simpl; lia|]. split.
      { intros [|j] Hj; [reflexivity|]. cbn [nth]. rewrite I7 by lia. rewrite Et. reflexivity. }
      split; [|split].
      + rewrite I8. destruct n; [|destruct (has "s" (c_params c)) eqn:E; [reflexivity|]];
          unfold vcat_next, vnext; cbn [v_h h_start]; fold c; destruct (has "s" (c_params c)); first [reflexivity|discriminate].
      + rewrite I9. destruct n; [|destruct (has "t" (c_params c)) eqn:E; [reflexivity|]];
          unfold vcat_next, vnext; cbn [v_h h_trans]; fold c; destruct (has "t" (c_params c)); first [reflexivity|discriminate].
      + rewrite I10. destruct n; [|destruct (has "e" (c_params c)) eqn:E; [reflexivity|]];
          unfold vcat_next, vnext; cbn [v_h h_em]; fold c; destruct (has "e" (c_params c)); first [reflexivity|discriminate].
  Qed.
End Cat.
