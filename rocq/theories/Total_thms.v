(** * C57: training never raises after validation ("log" implementation), whatever
    the rounding. *)
From Verif Require Export Alphabet_thms.

Lemma base_check_shapes fp nc s t u : base_check fp nc s t = Ok u -> length s = nc /\ nrow t = nc /\ ncol t = nc.
Proof.
  unfold base_check. destruct (Nat.eqb_spec (length s) nc) as [H1|]; [|discriminate]. cbn [negb].
  destruct (check_sum_1 fp s); [|discriminate]. cbn [negb].
  destruct (Nat.eqb_spec (nrow t) nc) as [H2|]; [|discriminate].
  destruct (Nat.eqb_spec (ncol t) nc) as [H3|]; [|discriminate]. auto.
Qed.
Lemma check_shaped {P X St} (E : emclass P X St) fp h h1 (GP : P -> Prop) : check E fp h = Ok h1 -> GP (h_em h1) ->
  shaped (h_cfg h) (h_nfeat h1) GP h1.
Proof.
  intros H HP. destruct (check_keeps _ _ _ _ H) as (H1 & H2 & H3 & _). unfold check in H.
  destruct (h_start h) as [s|] eqn:Es; [|discriminate].
  destruct (h_trans h) as [t|] eqn:Et.
  - destruct (base_check _ _ _ _) eqn:Eb; [|discriminate]. apply base_check_shapes in Eb as (B1 & B2 & B3).
    split; [exact H1|]. split; [reflexivity|]. split; [exact HP|]. split.
    + exists s. split; [exact H2|exact B1].
    + exists t. split; [exact H3|]. split; assumption.
  - destruct (negb _); [discriminate|]. destruct (negb _); discriminate.
Qed.
Lemma fit_from_never_raises {P X St} (E : emclass P X St) fp h h1 ok GP GS ls x :
  total E fp (h_cfg h) (h_nfeat h1) ok GP GS -> c_impl (h_cfg h) = "log"%string -> check E fp h = Ok h1 -> GP (h_em h1) ->
  x <> [] -> Forall ok x -> lengths_ok ls x -> returns (fit_from E fp h x ls).
Proof.
  intros T Hi Hk HP Hx Hok [->|(l & -> & Hl)].
  - destruct (fit_from_total_None E fp _ _ ok GP GS T Hi x h h1 Hk (check_shaped E fp h h1 GP Hk HP) Hx Hok) as (h' & ev & H & _).
    eexists; exact H.
  - destruct (fit_from_total E fp _ _ ok GP GS T Hi l x h h1 Hk (check_shaped E fp h h1 GP Hk HP) (conj Hok Hl)) as (h' & ev & H & _).
    eexists; exact H.
Qed.

Section PoisTotal.
  Variables (fp : fpmode) (c : cfg) (nf : nat).
  Definition pois_shaped (p : poisp) : Prop := exists m, po_lam p = Some m /\ nrow m = c_nc c /\ ncol m = nf.
  Lemma pois_total : total poisson fp c (Some nf) (fun r => length r = nf) pois_shaped
    (fun st => nrow (po_obs st) = c_nc c /\ ncol (po_obs st) = nf).
  Proof.
    split.
    - intros p x (m & Hm & H1 & H2) Hx Hok. cbn. unfold pois_loglik, pois_rows. rewrite Hm.
      pose proof (width_ok nf x Hx Hok) as Hw. destruct x as [|r x]; [contradiction|]. rewrite Hw, H2.
      unfold bwidth. rewrite Nat.eqb_refl. cbn [bind].
      eexists. split; [reflexivity|]. unfold nrow. cbn [rows ncol]. rewrite map_length. split; reflexivity.
    - intros p _. cbn. unfold pois_stats0, nrow. cbn. rewrite tab_length. split; reflexivity.
    - intros p st x post _ [H1 H2] Hx Hok Hp1 Hp2. cbn. unfold pois_acc.
      destruct (has "l" _); [|eexists; split; [reflexivity|split; assumption]].
      unfold iadd, matT_mul. cbn [ncol mtab]. rewrite width_zrow, (width_ok nf x Hx Hok), H2, Nat.eqb_refl. cbn [bind].
      eexists. split; [reflexivity|]. unfold mzip, nrow at 1. cbn. rewrite tab_length. split; assumption.
    - intros p st HP [H1 H2]. cbn. unfold pois_mstep. destruct (has "l" _); [|eexists; split; [reflexivity|exact HP]].
      eexists. split; [reflexivity|]. eexists. split; [reflexivity|]. unfold nrow at 1. cbn. rewrite tab_length. split; assumption.
  Qed.
End PoisTotal.

Lemma C57_categorical_l fp h h1 n x ls :
  check categorical fp h = Ok h1 -> h_nfeat h1 = Some n -> c_impl (h_cfg h) = "log"%string ->
  x <> [] -> (forall k, In k x -> (0 <= k < Z.of_nat n)%Z) -> lengths_ok ls x ->
  returns (fit_from categorical fp h x ls).
Proof.
  intros Hk Hn Hi Hx Hr Hl. pose proof (check_em _ _ _ _ Hk) as He. cbn [ec_check categorical] in He. unfold cat_check in He.
  destruct (cat_prob (h_em h)) as [m|] eqn:Em; [|discriminate].
  match type of He with context [negb (Nat.eqb ?a ?b && Nat.eqb ?c ?d)] =>
    destruct (Nat.eqb_spec a b) as [N1|]; [|discriminate]; destruct (Nat.eqb_spec c d) as [N2|]; [|discriminate] end.
  cbn [andb negb] in He. destruct (negb _) in He; [discriminate|]. injection He as He Hp.
  rewrite <- He in Hn. injection Hn as Hn. rewrite Hn in N2.
  refine (fit_from_never_raises categorical fp h h1 (in_range n) (cat_shaped (h_cfg h) n) _ ls x _ Hi Hk _ Hx _ Hl).
  - rewrite <- He, Hn. apply cat_total.
  - rewrite <- Hp. exists m. auto.
  - apply Forall_forall. exact Hr.
Qed.
Lemma C57_poisson_l fp h h1 n x ls :
  check poisson fp h = Ok h1 -> h_nfeat h1 = Some n -> c_impl (h_cfg h) = "log"%string ->
  x <> [] -> (forall r, In r x -> length r = n) -> lengths_ok ls x ->
  returns (fit_from poisson fp h x ls).
Proof.
  intros Hk Hn Hi Hx Hr Hl. pose proof (check_em _ _ _ _ Hk) as He. cbn [ec_check poisson] in He. unfold pois_check in He.
  destruct (po_lam (h_em h)) as [m|] eqn:Em; [|discriminate].
  match type of He with context [negb (Nat.eqb ?a ?b && Nat.eqb ?c ?d)] =>
    destruct (Nat.eqb_spec a b) as [N1|]; [|discriminate]; destruct (Nat.eqb_spec c d) as [N2|]; [|discriminate] end.
  cbn [andb negb] in He. injection He as He Hp.
  rewrite <- He in Hn. injection Hn as Hn. rewrite Hn in N2.
  refine (fit_from_never_raises poisson fp h h1 (fun r => length r = n) (pois_shaped (h_cfg h) n) _ ls x _ Hi Hk _ Hx _ Hl).
  - rewrite <- He, Hn. apply pois_total.
  - rewrite <- Hp. exists m. auto.
  - apply Forall_forall. exact Hr.
Qed.
Lemma C57_multinomial_l fp h h1 n x ls :
  check multinomial fp h = Ok h1 -> h_nfeat h1 = Some n -> c_impl (h_cfg h) = "log"%string ->
  x <> [] -> (forall r, In r x -> length r = n) -> lengths_ok ls x ->
  returns (fit_from multinomial fp h x ls).
Proof.
  intros Hk Hn Hi Hx Hr Hl. pose proof (check_em _ _ _ _ Hk) as He. cbn [ec_check multinomial] in He. unfold mult_check in He.
  destruct (mu_prob (h_em h)) as [m|] eqn:Em; [|discriminate].
  match type of He with context [negb (Nat.eqb ?a ?b && Nat.eqb ?c ?d)] =>
    destruct (Nat.eqb_spec a b) as [N1|]; [|discriminate]; destruct (Nat.eqb_spec c d) as [N2|]; [|discriminate] end.
  cbn [andb negb] in He. destruct (mu_trials (h_em h)); [|discriminate]. injection He as He Hp.
  rewrite <- He in Hn. injection Hn as Hn. rewrite Hn in N2.
  refine (fit_from_never_raises multinomial fp h h1 (fun r => length r = n) (mult_shaped (h_cfg h) n) _ ls x _ Hi Hk _ Hx _ Hl).
  - rewrite <- He, Hn. apply mult_total.
  - rewrite <- Hp. exists m. auto.
  - apply Forall_forall. exact Hr.
Qed.
Lemma C57_applies_l : returns (fit_from categorical exact (ex_h "log" "map") ex_x None).
Proof.
  destruct (rd_check _ _ _ _ _ _ _ (ex_ready "log" "map")) as (h1 & Hk & _ & _).
  assert (Hn : h_nfeat h1 = Some 3%nat).
  { pose proof (check_em _ _ _ _ Hk) as He. cbn [ec_check categorical ex_h h_nfeat h_em h_cfg] in He. unfold cat_check in He. cbn [cat_prob] in He.
    destruct (negb _) in He; [discriminate|]. destruct (negb _) in He; [discriminate|]. injection He as <- _. reflexivity. }
  apply (C57_categorical_l exact _ h1 3 ex_x None Hk Hn eq_refl); [discriminate| |left; reflexivity].
  intros k Hin. pose proof ex_x_ok as Hf. rewrite Forall_forall in Hf. specialize (Hf k Hin). unfold sym_ok in Hf. lia.
Qed.
