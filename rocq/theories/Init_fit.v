(** * When the whole of [fit] returns (exact arithmetic, log implementation). *)
From Verif Require Export Init_proofs.

Lemma near1_1 : near1 1.
Proof. unfold near1. replace (1 - 1) with 0 by lra. rewrite Rabs_R0. assert (0 < / 10 ^ 8) by (apply Rinv_0_lt_compat; lra).
  assert (0 < / 10 ^ 5) by (apply Rinv_0_lt_compat; lra). lra. Qed.

Lemma sums_rows n m : ncol m = n -> nrow m = n -> Forall (sums_to_1 n) (rows m) -> rows_sum_to_1 n m /\ wf_mat m.
Proof.
  intros Hc Hr HF.
  assert (Hw : wf_mat m).
  { unfold wf_mat. rewrite Forall_forall in *. intros r Hin. destruct (HF r Hin) as (f & -> & _). unfold fvec. now rewrite tab_length. }
  split; [|exact Hw]. rewrite <- Hr at 1. apply rows_check_iff; [exact Hw|congruence|].
  rewrite forallb_forall. intros r Hin. apply check_sum_1_iff. rewrite Forall_forall in HF.
  pose proof (HF r Hin) as (f & Ev & Hn). rewrite Ev. unfold fvec at 1. rewrite tab_length. exists f. split; [reflexivity|exact Hn].
Qed.

Lemma rows_sum_wf n m : rows_sum_to_1 n m -> wf_mat m.
Proof. intros (F & -> & _). apply wf_mtab. Qed.

Section Ok.
  Context {P X St G : Type} (E : emclass P X St) (I : initclass P X G) (rg : rng G).
  Hypothesis Hsane : sane_rng rg.

  Lemma alpha_fvec n : tab n (fun _ => xdiv exact (Fin 1) (Fin (INR n))) = fvec n (fun _ => 1 / INR n).
  Proof.
    destruct n as [|n]; [reflexivity|]. unfold fvec. apply tab_ext. intros i _. cbn [xdiv]. unfold xdiv.
    destruct (Req_EM_T (INR (S n)) 0) as [H|H]; [apply not_0_INR in H; [contradiction|lia]|reflexivity].
  Qed.
  Lemma dirichlet_ok n g : (0 < n)%nat ->
    exists v g', r_dirichlet rg (tab n (fun _ => xdiv exact (Fin 1) (Fin (INR n)))) g = Ok (v, g') /\ sums_to_1 n v.
  Proof.
    intros Hn. rewrite alpha_fvec. apply (sr_dirichlet rg Hsane); [exact Hn|]. intros i _.
    apply Rdiv_lt_0_compat; [lra|apply lt_0_INR; exact Hn].
  Qed.
  Lemma draws_ok {A} (f : G -> res (A * G)) (D : A -> Prop) : (forall g, exists a g', f g = Ok (a, g') /\ D a) ->
    forall n g, exists l g', draws f n g = Ok (l, g') /\ length l = n /\ Forall D l.
  Proof.
    intros Hf. induction n as [|n IH]; intros g; cbn [draws]; [exists [], g; repeat split; constructor|].
    destruct (Hf g) as (a & g1 & -> & Ha). cbn [bind]. destruct (IH g1) as (l & g2 & -> & Hl & HF). cbn [bind].
    exists (a :: l), g2. split; [reflexivity|]. split; [cbn; lia|]. constructor; assumption.
  Qed.

  Lemma rs_get_ok rs glob : valid_rs rg rs -> exists g, rs_get rg rs glob = Ok g.
  Proof. destruct rs; cbn; intros H; try (eexists; reflexivity). exact H. Qed.
  Lemma rs_put_valid rs glob g rs' glob' : valid_rs rg rs -> rs_put rs glob g = (rs', glob') -> valid_rs rg rs'.
  Proof. destruct rs; cbn; intros H E'; injection E' as <- <-; exact H. Qed.
  Lemma rs_adopt_ok rs : valid_rs rg rs -> exists rs', rs_adopt rg rs = Ok rs' /\ valid_rs rg rs'.
  Proof.
    destruct rs; cbn; intros H; try (eexists; split; [reflexivity|constructor]).
    destruct H as (g & ->). cbn. eexists. split; [reflexivity|constructor].
  Qed.

  (** The base part of [_init]. *)
  Lemma base_init_ok e glob x nf p d n : let h := e_hmm e in let c := h_cfg h in
    valid_rs rg (e_rs e) -> (0 < c_nc c)%nat -> keeps_valid_base h ->
    ic_nfeat I c (h_nfeat h) (h_em h) x = Ok (nf, p) -> ic_nfit I c nf p = Ok d -> dict_sum d (c_params c) = Ok n ->
    exists e1 glob1 ev s t, base_init I rg exact e glob x = Ok (e1, glob1, ev)
      /\ h_cfg (e_hmm e1) = c /\ h_nfeat (e_hmm e1) = nf /\ h_em (e_hmm e1) = p /\ valid_rs rg (e_rs e1)
      /\ h_start (e_hmm e1) = Some s /\ sums_to_1 (c_nc c) s /\ h_trans (e_hmm e1) = Some t /\ rows_sum_to_1 (c_nc c) t.
  Proof.
    cbv zeta. intros Hrs Hnc [Hks Hkt] Hnf Hd Hn. unfold base_init. rewrite Hnf. cbn [bind].
    destruct (Nat.eqb_spec (c_nc (h_cfg (e_hmm e))) 0); [lia|].
    destruct (rs_get_ok _ glob Hrs) as (g & ->). cbn [bind].
    destruct (needs_init _ "s" _ _) as [ns ev1] eqn:Es. apply needs_init_spec in Es as [Hns ->].
    assert (HS : exists s g1, (if ns : bool then do (v, g1) <- r_dirichlet rg (tab (c_nc (h_cfg (e_hmm e))) (fun _ => xdiv exact (Fin 1) (Fin (INR (c_nc (h_cfg (e_hmm e))))))) g; Ok (Some v, g1)
                          else Ok (h_start (e_hmm e), g)) = Ok (Some s, g1) /\ sums_to_1 (c_nc (h_cfg (e_hmm e))) s).
    { destruct ns.
      - destruct (dirichlet_ok _ g Hnc) as (v & g1 & -> & Hv). cbn [bind]. exists v, g1. split; [reflexivity|exact Hv].
      - destruct (h_start (e_hmm e)) as [s|] eqn:Est; [|rewrite orb_true_r in Hns; discriminate].
        exists s, g. split; [reflexivity|]. apply Hks; [|exact Est || reflexivity].
        destruct (has "s" _); [discriminate|reflexivity]. }
    destruct HS as (s & g1 & -> & HS). cbn [bind].
    destruct (needs_init _ "t" _ _) as [nt ev2] eqn:Et. apply needs_init_spec in Et as [Hnt ->].
    assert (HT : exists t g2, (if nt : bool then do (l, g2) <- draws (r_dirichlet rg (tab (c_nc (h_cfg (e_hmm e))) (fun _ => xdiv exact (Fin 1) (Fin (INR (c_nc (h_cfg (e_hmm e)))))))) (c_nc (h_cfg (e_hmm e))) g1; Ok (Some (Mat (c_nc (h_cfg (e_hmm e))) l), g2)
                          else Ok (h_trans (e_hmm e), g1)) = Ok (Some t, g2) /\ rows_sum_to_1 (c_nc (h_cfg (e_hmm e))) t).
    { destruct nt.
      - destruct (draws_ok _ (sums_to_1 (c_nc (h_cfg (e_hmm e)))) (fun g0 => dirichlet_ok _ g0 Hnc) (c_nc (h_cfg (e_hmm e))) g1)
          as (l & g2 & -> & Hl & HF). cbn [bind]. eexists _, g2. split; [reflexivity|].
        apply sums_rows; [reflexivity|exact Hl|exact HF].
      - destruct (h_trans (e_hmm e)) as [t|] eqn:Ett; [|rewrite orb_true_r in Hnt; discriminate].
        exists t, g1. split; [reflexivity|]. apply Hkt; [|exact Ett || reflexivity].
        destruct (has "t" _); [discriminate|reflexivity]. }
    destruct HT as (t & g2 & -> & HT). cbn [bind].
    destruct (rs_put (e_rs e) glob g2) as [rs glob'] eqn:Ep. rewrite Hd. cbn [bind]. rewrite Hn. cbn [bind].
    do 3 eexists. exists s, t. split; [reflexivity|]. cbn [e_hmm e_rs h_cfg h_nfeat h_em h_start h_trans].
    repeat split; try reflexivity; try assumption. apply (rs_put_valid _ _ _ _ _ Hrs Ep).
  Qed.

  Lemma base_init_raises e glob x err : ic_nfeat I (h_cfg (e_hmm e)) (h_nfeat (e_hmm e)) (h_em (e_hmm e)) x = Err err ->
    base_init I rg exact e glob x = Err err.
  Proof. intros H. unfold base_init. rewrite H. reflexivity. Qed.

  Lemma lengths_ok_data ok ls x : lengths_ok ls x -> x <> [] -> Forall ok x -> exists l, good_data ok l x
    /\ forall h, fit_from E exact h x ls = fit_from E exact h x (as_lengths l).
  Proof.
    intros [->|(l & -> & Hl)] Hx Hok.
    - exists [length x]. split; [|reflexivity]. split; [exact Hok|]. split; [discriminate|].
      split; [constructor; [destruct x; [contradiction|cbn; lia]|constructor]|cbn; lia].
    - exists l. split; [split; assumption|reflexivity].
  Qed.
End Ok.

(** [dict_sum] succeeds when every letter is a key. *)
Lemma dict_sum_ok d s : (forall a, has a s = true -> exists v, dict_get d a = Ok v) -> exists n, dict_sum d s = Ok n.
Proof.
  induction s as [|a s IH]; intros H; cbn [dict_sum]; [eexists; reflexivity|].
  destruct (H a) as (v & ->). { cbn [has]. rewrite Ascii.eqb_refl. reflexivity. } cbn [bind].
  destruct IH as (n & ->). { intros b Hb. apply H. cbn [has]. rewrite Hb. apply orb_true_r. }
  eexists; reflexivity.
Qed.

Lemma zmin_le x k : In k x -> (zmin x <= k)%Z.
Proof.
  unfold zmin. assert (H : forall l a, (fold_left Z.min l a <= a)%Z /\ forall k, In k l -> (fold_left Z.min l a <= k)%Z).
  { induction l as [|b l IH]; intros a; cbn; [split; [lia|intros ? []]|]. destruct (IH (Z.min a b)) as [H1 H2].
    split; [lia|]. intros k' [<-|Hk]; [lia|apply H2, Hk]. }
  intros Hin. apply H, Hin.
Qed.
Lemma zmax_ge x k : In k x -> (k <= zmax x)%Z.
Proof.
  unfold zmax. assert (H : forall l a, (a <= fold_left Z.max l a)%Z /\ forall k, In k l -> (k <= fold_left Z.max l a)%Z).
  { induction l as [|b l IH]; intros a; cbn; [split; [lia|intros ? []]|]. destruct (IH (Z.max a b)) as [H1 H2].
    split; [lia|]. intros k' [<-|Hk]; [lia|apply H2, Hk]. }
  intros Hin. apply H, Hin.
Qed.
Lemma zmin_in x : x <> [] -> In (zmin x) x.
Proof.
  intros Hx. destruct x as [|a x]; [contradiction|]. unfold zmin. cbn [hd fold_left]. rewrite Z.min_id.
  assert (H : forall l a, fold_left Z.min l a = a \/ In (fold_left Z.min l a) l).
  { induction l as [|b l IH]; intros c; cbn; [left; reflexivity|].
    destruct (IH (Z.min c b)) as [->|Hin]; [|right; right; exact Hin].
    destruct (Z.min_spec c b) as [[_ ->]|[_ ->]]; [left|right; left]; reflexivity. }
  destruct (H x a) as [->|Hin]; [left; reflexivity|right; exact Hin].
Qed.
Lemma zmax_in x : x <> [] -> In (zmax x) x.
Proof.
  intros Hx. destruct x as [|a x]; [contradiction|]. unfold zmax. cbn [hd fold_left]. rewrite Z.max_id.
  assert (H : forall l a, fold_left Z.max l a = a \/ In (fold_left Z.max l a) l).
  { induction l as [|b l IH]; intros c; cbn; [left; reflexivity|].
    destruct (IH (Z.max c b)) as [->|Hin]; [|right; right; exact Hin].
    destruct (Z.max_spec c b) as [[_ ->]|[_ ->]]; [right; left|left]; reflexivity. }
  destruct (H x a) as [->|Hin]; [left; reflexivity|right; exact Hin].
Qed.

Lemma entries_fmat r c m (D : xnum -> Prop) : entries r c D m -> (forall a, D a -> exists z, a = Fin z /\ 0 < z) ->
  exists F, m = fmat r c F /\ forall i j, (i < r)%nat -> (j < c)%nat -> 0 < F i j.
Proof.
  intros (Hc & Hr & HF) HD. rewrite Forall_forall in HF.
  exists (fun i j => match mget m i j with Fin z => z | _ => 0 end).
  assert (Hg : forall i j, (i < r)%nat -> (j < c)%nat -> exists z, mget m i j = Fin z /\ 0 < z).
  { intros i j Hi Hj. apply HD. unfold mget, vget. destruct (HF (nth i (rows m) [])) as [Hl Hd].
    { apply nth_In. unfold nrow in Hr. lia. }
    rewrite Forall_forall in Hd. apply Hd, nth_In. lia. }
  split.
  - assert (Hw : wf_mat m). { unfold wf_mat. rewrite Forall_forall. intros row Hin. rewrite Hc. apply HF, Hin. }
    rewrite (mat_inv m Hw) at 1. rewrite Hr, Hc. apply mtab_ext. intros i j Hi Hj.
    destruct (Hg i j Hi Hj) as (z & -> & _). reflexivity.
  - intros i j Hi Hj. destruct (Hg i j Hi Hj) as (z & -> & Hz). exact Hz.
Qed.

Section Draw.
  Context {G : Type} (rg : rng G).
  Hypothesis Hsane : sane_rng rg.
  Lemma rand_mat_ok r c g : exists F g', rand_mat rg r c g = Ok (fmat r c F, g')
    /\ forall i j, (i < r)%nat -> (j < c)%nat -> 0 < F i j.
  Proof.
    unfold rand_mat.
    assert (H1 : forall g0, exists a g', (let '(u, g') := r_rand rg g0 in Ok (Fin u, g')) = Ok (a, g') /\ uniform_draw rg a).
    { intros g0. destruct (r_rand rg g0) as [u g'] eqn:Eu. exists (Fin u), g'. split; [reflexivity|]. exists g0. rewrite Eu. reflexivity. }
    assert (H2 : forall g0, exists l g', draws (fun g0 => let '(u, g') := r_rand rg g0 in Ok (Fin u, g')) c g0 = Ok (l, g') /\ (length l = c /\ Forall (uniform_draw rg) l)).
    { intros g0. apply (draws_ok _ _ H1). }
    destruct (draws_ok _ _ H2 r g) as (l & g' & Hl & Hlen & HF). rewrite Hl. cbn [bind].
    destruct (entries_fmat r c (Mat c l) (uniform_draw rg)) as (F & HFm & Hpos).
    - split; [reflexivity|]. split; [exact Hlen|exact HF].
    - intros a (g0 & ->). eexists. split; [reflexivity|]. apply (sr_rand rg Hsane).
    - exists F, g'. rewrite HFm. split; [reflexivity|exact Hpos].
  Qed.
End Draw.

Lemma normalised_sum n w : 0 < sumn n w -> sumn n (normalised n w) = 1.
Proof. intros H. unfold normalised. destruct (Req_EM_T (sumn n w) 0); [lra|]. unfold Rdiv. rewrite sumn_scal_r. field. lra. Qed.

Definition cat_keeps_valid (h : hmm catp) (nf : nat) : Prop :=
  keeps_valid_base h
  /\ forall m, has "e" (c_init_params (h_cfg h)) = false -> cat_prob (h_em h) = Some m ->
     rect_sum_to_1 (c_nc (h_cfg h)) nf m.

Section Cat.
  Context {G : Type} (rg : rng G).
  Hypothesis Hsane : sane_rng rg.

  Lemma normalize_rows_sum r n F : (0 < n)%nat -> (forall i j, (i < r)%nat -> (j < n)%nat -> 0 < F i j) ->
    rect_sum_to_1 r n (normalize_rows exact (fmat r n F)).
  Proof.
    intros Hn HF. rewrite normalize_rows_fmat. eexists. split; [reflexivity|]. intros i Hi. cbn beta.
    rewrite normalised_sum; [apply near1_1|]. apply (sumn_pos n (F i) 0%nat); [intros j Hj; left; apply HF; assumption|exact Hn|apply HF; assumption].
  Qed.

  Lemma cat_init_em_ok c n p x rs glob : valid_rs rg rs -> (0 < n)%nat ->
    (forall m, has "e" (c_init_params c) = false -> cat_prob p = Some m -> rect_sum_to_1 (c_nc c) n m) ->
    exists m rs' glob' ev, cat_init_em exact rg c (Some n) p x rs glob = Ok (Catp (cat_prior p) (Some m), rs', glob', ev)
      /\ rect_sum_to_1 (c_nc c) n m.
  Proof.
    intros Hrs Hn Hk. unfold cat_init_em. destruct (rs_adopt_ok rg rs Hrs) as (rs1 & -> & Hrs1). cbn [bind].
    destruct (needs_init _ _ _ _) as [ne ev] eqn:En. apply needs_init_spec in En as [Hne ->]. destruct ne.
    - destruct (rs_get_ok rg rs1 glob Hrs1) as (g & ->). cbn [bind].
      destruct (rand_mat_ok rg Hsane (c_nc c) n g) as (F & g1 & -> & HF). cbn [bind].
      destruct (rs_put rs1 glob g1) as [rs2 glob2]. do 4 eexists. split; [reflexivity|].
      apply normalize_rows_sum; assumption.
    - destruct p as [pr [m|]]; cbn [cat_prob isSome negb cat_prior] in *; [|rewrite orb_true_r in Hne; discriminate].
      exists m. do 3 eexists. split; [reflexivity|]. apply Hk; [|reflexivity]. destruct (has "e" _); [discriminate|reflexivity].
  Qed.

  Lemma cat_nfit_ok c n p : letters_in (c_params c) ["s"; "t"; "e"]%char ->
    exists d k, cat_nfit c (Some n) p = Ok d /\ dict_sum d (c_params c) = Ok k.
  Proof.
    intros Hl. eexists. destruct (dict_sum_ok (base_nfit (c_nc c) ++ [("e"%char, Z.of_nat (c_nc c) * (Z.of_nat n - 1))%Z]) (c_params c)) as (k & Hk).
    - intros a Ha. specialize (Hl a Ha). cbn in Hl. destruct Hl as [<-|[<-|[<-|[]]]]; cbn; eexists; reflexivity.
    - exists k. split; [reflexivity|exact Hk].
  Qed.

  (** Data within the alphabet: [fit] returns. *)
  Lemma cat_fit_returns e glob x ls n : let h := e_hmm e in let c := h_cfg h in
    valid_rs rg (e_rs e) -> (0 < c_nc c)%nat -> c_impl c = "log"%string -> letters_in (c_params c) ["s"; "t"; "e"]%char ->
    x <> [] -> lengths_ok ls x -> Forall (in_range n) x ->
    (h_nfeat h = Some n \/ (h_nfeat h = None /\ Z.of_nat n = zmax x + 1)%Z) -> cat_keeps_valid h n ->
    exists r, fit categorical cat_initc rg exact e glob x ls = Ok r /\ h_nfeat (e_hmm (fst (fst r))) = Some n.
  Proof.
    cbv zeta. intros Hrs Hnc Himp Hlet Hx Hls Hok Hnf [Hkb Hke].
    assert (Hn : (0 < n)%nat). { destruct x as [|k x]; [contradiction|]. inversion Hok as [|? ? Hk _]; subst. unfold in_range in Hk. lia. }
    assert (Hfeat : cat_nfeat (h_cfg (e_hmm e)) (h_nfeat (e_hmm e)) (h_em (e_hmm e)) x = Ok (Some n, h_em (e_hmm e))).
    { unfold cat_nfeat. rewrite Forall_forall in Hok. pose proof (Hok _ (zmin_in x Hx)) as H1. pose proof (Hok _ (zmax_in x Hx)) as H2.
      unfold in_range in *. destruct (Z.ltb_spec (zmin x) 0); [lia|].
      destruct Hnf as [->|[-> Hz]].
      - destruct (Z.ltb_spec (Z.of_nat n - 1) (zmax x)); [lia|]. reflexivity.
      - rewrite <- Hz, Nat2Z.id. reflexivity. }
    destruct (cat_nfit_ok (h_cfg (e_hmm e)) n (h_em (e_hmm e)) Hlet) as (d & k & Hd & Hk).
    destruct (base_init_ok cat_initc rg Hsane e glob x (Some n) (h_em (e_hmm e)) d k Hrs Hnc Hkb Hfeat Hd Hk)
      as (e1 & glob1 & ev & s & t & Hb & B1 & B2 & B3 & B4 & B5 & B6 & B7 & B8).
    destruct (cat_init_em_ok (h_cfg (e_hmm e)) n (h_em (e_hmm e)) x (e_rs e1) glob1 B4 Hn Hke) as (m & rs2 & glob2 & ev2 & Hem & Hm).
    unfold fit. destruct x as [|k0 x]; [contradiction|]. cbn [check_array].
    assert (Hall : forallb (ec_xok categorical) (k0 :: x) = true) by (apply forallb_forall; reflexivity).
    rewrite Hall. cbn [bind]. unfold init. rewrite Hb. cbn [bind]. rewrite B1, B2, B3.
    change (ic_em cat_initc) with (@cat_init_em G). rewrite Hem. cbn [bind e_hmm].
    destruct (lengths_ok_data categorical (in_range n) ls (k0 :: x) Hls Hx Hok) as (l & Hgd & ->).
    set (h2 := Hmm _ _ _ _ _ _).
    assert (Hck : check categorical exact h2 = Ok h2).
    { rewrite (check_accepts categorical h2 s t); unfold h2; cbn [h_start h_trans h_cfg]; try assumption.
      - cbn [ec_check categorical h_nfeat h_em]. unfold cat_check. cbn [cat_prob].
        destruct Hm as (F & -> & HF). rewrite nrow_fmat, ncol_fmat, !Nat.eqb_refl. cbn [andb negb].
        assert (HF' : forallb (check_sum_1 exact) (rows (fmat (c_nc (h_cfg (e_hmm e))) n F)) = true) by (apply forallb_check_rows; exact HF).
        rewrite HF'. cbn [negb bind]. reflexivity.
      - apply (rows_sum_wf _ _ B8). }
    destruct (fit_from_total categorical exact (h_cfg (e_hmm e)) (Some n) (in_range n) (cat_shaped (h_cfg (e_hmm e)) n) _ (cat_total exact (h_cfg (e_hmm e)) n) Himp
                l (k0 :: x) h2 h2 Hck) as (h' & ev' & -> & _ & Hnf' & _); [|exact Hgd|].
    - unfold h2. split; [reflexivity|]. split; [reflexivity|]. cbn [h_em h_start h_trans].
      split; [|split].
      + exists m. split; [reflexivity|]. destruct Hm as (F & -> & _). rewrite nrow_fmat, ncol_fmat. split; reflexivity.
      + exists s. split; [exact B5|]. destruct B6 as (f & -> & _). unfold fvec. apply tab_length.
      + exists t. split; [exact B7|]. destruct B8 as (F & -> & _). rewrite nrow_fmat, ncol_fmat. split; reflexivity.
    - cbn [bind]. eexists. split; [reflexivity|]. exact Hnf'.
  Qed.

  (** A symbol outside the alphabet. *)
  Lemma cat_fit_rejects e glob x ls n k : h_nfeat (e_hmm e) = Some n \/ h_nfeat (e_hmm e) = None ->
    In k x -> (k < 0)%Z \/ (h_nfeat (e_hmm e) = Some n /\ Z.of_nat n <= k)%Z ->
    value_error (fit categorical cat_initc rg exact e glob x ls).
  Proof.
    intros Hn Hin Hk. unfold fit. destruct x as [|k0 x]; [destruct Hin|]. cbn [check_array].
    assert (Hall : forallb (ec_xok categorical) (k0 :: x) = true) by (apply forallb_forall; reflexivity).
    rewrite Hall. cbn [bind]. unfold init.
    assert (Hf : exists w, cat_nfeat (h_cfg (e_hmm e)) (h_nfeat (e_hmm e)) (h_em (e_hmm e)) (k0 :: x) = Err (ValueError w)).
    { unfold cat_nfeat. pose proof (zmin_le _ _ Hin) as H1. pose proof (zmax_ge _ _ Hin) as H2.
      destruct (Z.ltb_spec (zmin (k0 :: x)) 0); [eexists; reflexivity|].
      destruct Hk as [Hk|[-> Hk]]; [lia|]. destruct (Z.ltb_spec (Z.of_nat n - 1) (zmax (k0 :: x))); [eexists; reflexivity|lia]. }
    destruct Hf as (w & Hw). exists w. rewrite (base_init_raises cat_initc rg e glob (k0 :: x) _ Hw). reflexivity.
  Qed.
End Cat.

Definition mult_keeps_valid (h : hmm mulp) (nf : nat) : Prop :=
  keeps_valid_base h
  /\ (has "e" (c_init_params (h_cfg h)) = true \/ exists F, mu_prob (h_em h) = Some (fmat (c_nc (h_cfg h)) nf F)).

Section Mult.
  Context {G : Type} (rg : rng G).
  Hypothesis Hsane : sane_rng rg.

  Lemma mult_init_em_ok c n p x rs glob : valid_rs rg rs ->
    (has "e" (c_init_params c) = true \/ exists F, mu_prob p = Some (fmat (c_nc c) n F)) ->
    exists m rs' glob' ev, mult_init_em exact rg c (Some n) p x rs glob = Ok (Mulp (mu_trials p) (Some m), rs', glob', ev)
      /\ nrow m = c_nc c /\ ncol m = n.
  Proof.
    intros Hrs Hk. unfold mult_init_em. destruct (rs_adopt_ok rg rs Hrs) as (rs1 & -> & Hrs1). cbn [bind].
    destruct (has "e" (c_init_params c)) eqn:He.
    - destruct (rs_get_ok rg rs1 glob Hrs1) as (g & ->). cbn [bind].
      destruct (rand_mat_ok rg Hsane (c_nc c) n g) as (F & g1 & -> & HF). cbn [bind].
      destruct (rs_put rs1 glob g1) as [rs2 glob2]. do 4 eexists. split; [reflexivity|].
      rewrite normalize_rows_fmat, nrow_fmat, ncol_fmat. split; reflexivity.
    - destruct Hk as [Hk|(F & Hk)]; [discriminate|]. destruct p as [tr pr]. cbn [mu_prob mu_trials] in *. subst pr.
      do 4 eexists. split; [reflexivity|]. rewrite nrow_fmat, ncol_fmat. split; reflexivity.
  Qed.

  Lemma mult_nfit_ok c n p : letters_in (c_params c) ["s"; "t"; "e"]%char ->
    exists d k, mult_nfit c (Some n) p = Ok d /\ dict_sum d (c_params c) = Ok k.
  Proof.
    intros Hl. eexists. destruct (dict_sum_ok (base_nfit (c_nc c) ++ [("e"%char, Z.of_nat (c_nc c) * (Z.of_nat n - 1))%Z]) (c_params c)) as (k & Hk).
    - intros a Ha. specialize (Hl a Ha). cbn in Hl. destruct Hl as [<-|[<-|[<-|[]]]]; cbn; eexists; reflexivity.
    - exists k. split; [reflexivity|exact Hk].
  Qed.

  (** Counts accepted by [_check_and_set_n_features]: [fit] returns. *)
  Lemma mult_fit_returns e glob x ls n p : let h := e_hmm e in let c := h_cfg h in
    valid_rs rg (e_rs e) -> (0 < c_nc c)%nat -> c_impl c = "log"%string -> letters_in (c_params c) ["s"; "t"; "e"]%char ->
    x <> [] -> lengths_ok ls x -> Forall (fun r => length r = n) x -> mult_keeps_valid h n ->
    mult_nfeat c (h_nfeat h) (h_em h) x = Ok (Some n, p) ->
    exists r, fit multinomial mult_initc rg exact e glob x ls = Ok r /\ mu_trials (h_em (e_hmm (fst (fst r)))) = mu_trials p.
  Proof.
    cbv zeta. intros Hrs Hnc Himp Hlet Hx Hls Hok [Hkb Hke] Hfeat.
    assert (Hp : mu_prob p = mu_prob (h_em (e_hmm e)) /\ exists tr, mu_trials p = Some tr).
    { unfold mult_nfeat in Hfeat. apply bind_inv in Hfeat as (a & _ & H). destruct (existsb _ x); [discriminate|].
      destruct (mu_trials (h_em (e_hmm e))) as [tr|] eqn:Et.
      - apply bind_inv in H as ([] & _ & H); [|discriminate]. injection H as _ <-. split; [reflexivity|exists tr; exact Et].
      - injection H as _ <-. split; [reflexivity|eexists; reflexivity]. }
    destruct Hp as [Hp1 (tr & Htr)].
    destruct (mult_nfit_ok (h_cfg (e_hmm e)) n p Hlet) as (d & k & Hd & Hk).
    destruct (base_init_ok mult_initc rg Hsane e glob x (Some n) p d k Hrs Hnc Hkb Hfeat Hd Hk)
      as (e1 & glob1 & ev & s & t & Hb & B1 & B2 & B3 & B4 & B5 & B6 & B7 & B8).
    rewrite <- Hp1 in Hke.
    destruct (mult_init_em_ok (h_cfg (e_hmm e)) n p x (e_rs e1) glob1 B4 Hke) as (m & rs2 & glob2 & ev2 & Hem & Hm1 & Hm2).
    unfold fit. destruct x as [|k0 x]; [contradiction|]. cbn [check_array].
    assert (Hall : forallb (ec_xok multinomial) (k0 :: x) = true) by (apply forallb_forall; reflexivity).
    rewrite Hall. cbn [bind]. unfold init. rewrite Hb. cbn [bind]. rewrite B1, B2, B3.
    change (ic_em mult_initc) with (@mult_init_em G). rewrite Hem. cbn [bind e_hmm].
    destruct (lengths_ok_data multinomial (fun r => length r = n) ls (k0 :: x) Hls Hx Hok) as (l & Hgd & ->).
    set (h2 := Hmm _ _ _ _ _ _).
    assert (Hck : check multinomial exact h2 = Ok h2).
    { rewrite (check_accepts multinomial h2 s t); unfold h2; cbn [h_start h_trans h_cfg]; try assumption.
      - cbn [ec_check multinomial h_nfeat h_em]. unfold mult_check. cbn [mu_prob mu_trials].
        rewrite Hm1, Hm2, !Nat.eqb_refl, Htr. cbn [andb negb bind]. reflexivity.
      - apply (rows_sum_wf _ _ B8). }
    destruct (fit_from_total multinomial exact (h_cfg (e_hmm e)) (Some n) (fun r => length r = n) (mult_shaped (h_cfg (e_hmm e)) n) _ (mult_total exact (h_cfg (e_hmm e)) n) Himp
                l (k0 :: x) h2 h2 Hck) as (h' & ev' & Hff & _ & _ & _); [|exact Hgd|].
    - unfold h2. split; [reflexivity|]. split; [reflexivity|]. cbn [h_em h_start h_trans].
      split; [|split].
      + exists m. split; [reflexivity|]. split; assumption.
      + exists s. split; [exact B5|]. destruct B6 as (f & -> & _). unfold fvec. apply tab_length.
      + exists t. split; [exact B7|]. destruct B8 as (F & -> & _). rewrite nrow_fmat, ncol_fmat. split; reflexivity.
    - rewrite Hff. cbn [bind]. eexists. split; [reflexivity|]. cbn [fst e_hmm].
      rewrite (fit_keeps multinomial exact h2 (k0 :: x) (as_lengths l) h' ev' _ mu_trials Hff).
      + reflexivity.
      + intros nf p0 nf' p' H. cbn [ec_check multinomial] in H. unfold mult_check in H. destruct (mu_prob p0); [|discriminate].
        destruct (negb _); [discriminate|]. destruct (mu_trials p0) eqn:Etr; [|discriminate]. injection H as <- <-. exact Etr.
      + intros nf p0 st p' H. cbn [ec_mstep multinomial] in H. unfold mult_mstep in H.
        destruct (has "e" (c_params (h_cfg h2))); injection H as <-; reflexivity.
  Qed.

  Lemma mult_fit_rejects e glob x ls w : x <> [] ->
    mult_nfeat (h_cfg (e_hmm e)) (h_nfeat (e_hmm e)) (h_em (e_hmm e)) x = Err (ValueError w) ->
    value_error (fit multinomial mult_initc rg exact e glob x ls).
  Proof.
    intros Hx Hw. unfold fit. destruct x as [|k0 x]; [contradiction|]. cbn [check_array].
    assert (Hall : forallb (ec_xok multinomial) (k0 :: x) = true) by (apply forallb_forall; reflexivity).
    rewrite Hall. cbn [bind]. unfold init. exists w. rewrite (base_init_raises mult_initc rg e glob (k0 :: x) _ Hw). reflexivity.
  Qed.
End Mult.
