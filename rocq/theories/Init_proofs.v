(** * Inversion of [_init] and of [fit]. *)
From Verif Require Export Spec_init Total Gen_fit.

Lemma bind_inv {A B} (e : res A) (k : A -> res B) b : bind e k = Ok b -> exists a, e = Ok a /\ k a = Ok b.
Proof. destruct e as [a|]; [|discriminate]. intros H. exists a. split; [reflexivity|exact H]. Qed.

Lemma draws_length {A G} (f : G -> res (A * G)) n : forall g l g', draws f n g = Ok (l, g') -> length l = n.
Proof.
  induction n as [|n IH]; intros g l g' H; cbn [draws] in H; [injection H as <- <-; reflexivity|].
  apply bind_inv in H as ([a g1] & _ & H). apply bind_inv in H as ([l1 g2] & Hd & H).
  injection H as <- <-. cbn. f_equal. apply (IH _ _ _ Hd).
Qed.
Lemma draws_Forall {A G} (f : G -> res (A * G)) (D : A -> Prop) : (forall g a g', f g = Ok (a, g') -> D a) ->
  forall n g l g', draws f n g = Ok (l, g') -> Forall D l.
Proof.
  intros HD. induction n as [|n IH]; intros g l g' H; cbn [draws] in H; [injection H as <- <-; constructor|].
  apply bind_inv in H as ([a g1] & Ha & H). apply bind_inv in H as ([l1 g2] & Hd & H).
  injection H as <- <-. constructor; [apply (HD _ _ _ Ha)|apply (IH _ _ _ Hd)].
Qed.

Lemma draws_mat {G} (f : G -> res (xnum * G)) (D : xnum -> Prop) : (forall g a g', f g = Ok (a, g') -> D a) ->
  forall r c g l g', draws (draws f c) r g = Ok (l, g') -> entries r c D (Mat c l).
Proof.
  intros HD r c g l g' H. split; [reflexivity|]. split; [apply (draws_length _ _ _ _ _ H)|]. cbn [rows].
  apply (draws_Forall (draws f c) (fun row => length row = c /\ Forall D row)) with (2 := H).
  intros g0 row g1 Hr. split; [apply (draws_length _ _ _ _ _ Hr)|apply (draws_Forall f D HD _ _ _ _ Hr)].
Qed.
Lemma rand_mat_entries {G} (rg : rng G) r c g m g' : rand_mat rg r c g = Ok (m, g') -> entries r c (uniform_draw rg) m.
Proof.
  unfold rand_mat. intros H. apply bind_inv in H as ([l g1] & Hl & H). injection H as <- <-.
  apply (draws_mat _ (uniform_draw rg)) with (2 := Hl). intros g0 a g2 Ha.
  exists g0. destruct (r_rand rg g0) as [u v]. injection Ha as <- <-. reflexivity.
Qed.
Lemma gamma_mat_entries {G} (rg : rng G) a b r c g m g' : gamma_mat rg a b r c g = Ok (m, g') ->
  entries r c (fun v => exists g0 g1, r_gamma rg a b g0 = Ok (v, g1)) m.
Proof.
  unfold gamma_mat. intros H. apply bind_inv in H as ([l g1] & Hl & H). injection H as <- <-.
  apply (draws_mat _ _) with (2 := Hl). intros g0 v g2 Ha. exists g0, g2. exact Ha.
Qed.

Lemma needs_init_spec c code name b n ev : needs_init c code name b = (n, ev) ->
  n = has code (c_init_params c) || negb b
  /\ ev = (if has code (c_init_params c) && b then [WOverwrite name] else []).
Proof. unfold needs_init. destruct (has _ _), b; intros H; injection H as <- <-; auto. Qed.

Definition overwrites (name : string) (letter : bool) (set : bool) : list event :=
  if letter && set then [WOverwrite name] else [].

Lemma not_none_kept {A} letter (old : option A) (D : A -> Prop) new :
  (letter || negb (isSome old) = true -> exists v, new = Some v /\ D v) ->
  (letter || negb (isSome old) = false -> new = old) -> kept_or_fresh letter old new D.
Proof.
  intros H1 H2. unfold kept_or_fresh. destruct old as [v|]; destruct letter; cbn in *; auto.
Qed.

Section Inv.
  Context {P X St G : Type} (I : initclass P X G) (rg : rng G) (fp : fpmode).

  (** The base part: everything that can be observed of it. *)
  Lemma base_init_inv e glob x e' glob' ev : base_init I rg fp e glob x = Ok (e', glob', ev) ->
    let h := e_hmm e in let h' := e_hmm e' in let c := h_cfg h in
    h_cfg h' = c /\ h_mon h' = h_mon h /\ (0 < c_nc c)%nat
    /\ ic_nfeat I c (h_nfeat h) (h_em h) x = Ok (h_nfeat h', h_em h')
    /\ kept_or_fresh (has "s" (c_init_params c)) (h_start h) (h_start h') (dirichlet_draw rg fp (c_nc c))
    /\ kept_or_fresh (has "t" (c_init_params c)) (h_trans h) (h_trans h') (dirichlet_rows rg fp (c_nc c))
    /\ (exists g0 g1, rs_get rg (e_rs e) glob = Ok g0 /\ rs_put (e_rs e) glob g1 = (e_rs e', glob'))
    /\ exists d n, ic_nfit I c (h_nfeat h') (h_em h') = Ok d /\ dict_sum d (c_params c) = Ok n
    /\ ev = overwrites "startprob_" (has "s" (c_init_params c)) (isSome (h_start h))
            ++ overwrites "transmat_" (has "t" (c_init_params c)) (isSome (h_trans h))
            ++ (if Z.ltb (Z.of_nat (length x * ic_width I x)) n then [WDegenerate] else []).
  Proof.
    intros H. cbv zeta. unfold base_init in H.
    apply bind_inv in H as ([nf p] & Hnf & H).
    destruct (Nat.eqb_spec (c_nc (h_cfg (e_hmm e))) 0) as [|Hnc]; [discriminate|].
    apply bind_inv in H as (g & Hg & H).
    destruct (needs_init _ "s" _ _) as [ns ev1] eqn:Es.
    apply bind_inv in H as ([s g1] & Hs & H).
    destruct (needs_init _ "t" _ _) as [nt ev2] eqn:Et.
    apply bind_inv in H as ([t g2] & Ht & H).
    destruct (rs_put (e_rs e) glob g2) as [rs glob2] eqn:Ep.
    apply bind_inv in H as (d & Hd & H). apply bind_inv in H as (n & Hn & H).
    injection H as <- <- <-. cbn [e_hmm e_rs h_cfg h_mon h_nfeat h_em h_start h_trans].
    apply needs_init_spec in Es as [Hns ->]. apply needs_init_spec in Et as [Hnt ->].
    split; [reflexivity|]. split; [reflexivity|]. split; [lia|]. split; [exact Hnf|].
    split; [|split; [|split; [exists g, g2; split; assumption|exists d, n; split; [exact Hd|split; [exact Hn|reflexivity]]]]].
    - apply not_none_kept; rewrite <- Hns; intros ->.
      + apply bind_inv in Hs as ([v g'] & Hv & Hs). injection Hs as <- <-. exists v. split; [reflexivity|].
        exists g, g'. exact Hv.
      + injection Hs as <- <-. reflexivity.
    - apply not_none_kept; rewrite <- Hnt; intros ->.
      + apply bind_inv in Ht as ([l g'] & Hl & Ht). injection Ht as <- <-. eexists. split; [reflexivity|].
        split; [reflexivity|]. split; [apply (draws_length _ _ _ _ _ Hl)|]. cbn [rows].
        apply (draws_Forall (r_dirichlet rg (tab (c_nc (h_cfg (e_hmm e))) (fun _ => xdiv fp (Fin 1) (Fin (INR (c_nc (h_cfg (e_hmm e)))))))) (dirichlet_draw rg fp (c_nc (h_cfg (e_hmm e))))) with (2 := Hl).
        intros a b c0 Hab. exists a, c0. exact Hab.
      + injection Ht as <- <-. reflexivity.
  Qed.

  Lemma init_inv e glob x e' glob' ev : init I rg fp e glob x = Ok (e', glob', ev) ->
    exists e1 glob1 ev1 p rs ev2, base_init I rg fp e glob x = Ok (e1, glob1, ev1)
      /\ ic_em I fp rg (h_cfg (e_hmm e1)) (h_nfeat (e_hmm e1)) (h_em (e_hmm e1)) x (e_rs e1) glob1 = Ok (p, rs, glob', ev2)
      /\ e' = Est (Hmm (h_cfg (e_hmm e1)) (h_nfeat (e_hmm e1)) (h_start (e_hmm e1)) (h_trans (e_hmm e1)) (h_mon (e_hmm e1)) p) rs
      /\ ev = ev1 ++ ev2.
  Proof.
    unfold init. intros H. apply bind_inv in H as ([[e1 glob1] ev1] & H1 & H).
    apply bind_inv in H as ([[[p rs] glob2] ev2] & H2 & H). injection H as <- <- <-.
    exists e1, glob1, ev1, p, rs, ev2. repeat split; assumption.
  Qed.

  Variable E : emclass P X St.
  Lemma fit_inv e glob x ls e' glob' ev : fit E I rg fp e glob x ls = Ok (e', glob', ev) ->
    exists e1 ev1 ev2, check_array (ec_xok E) x = Ok x /\ init I rg fp e glob x = Ok (e1, glob', ev1)
      /\ fit_from E fp (e_hmm e1) x ls = Ok (e_hmm e', ev2) /\ e_rs e' = e_rs e1 /\ ev = ev1 ++ ev2.
  Proof.
    unfold fit. intros H. apply bind_inv in H as (x' & Hx & H).
    assert (x' = x) as ->.
    { unfold check_array in Hx. destruct x; [discriminate|]. destruct (forallb _ _); [|discriminate]. now injection Hx. }
    apply bind_inv in H as ([[e1 glob1] ev1] & H1 & H).
    apply bind_inv in H as ([h2 ev2] & H2 & H). injection H as <- <- <-.
    exists e1, ev1, ev2. repeat split; assumption.
  Qed.
End Inv.

(** Training emits no overwriting warning. *)
Definition not_overwrite (v : event) : Prop := match v with WOverwrite _ => False | _ => True end.
Lemma fit_loop_events {O} fp (step : O -> res (O * xnum)) zr fuel : forall o m o' m' ev,
  fit_loop fp step zr fuel o m = Ok (o', m', ev) -> Forall not_overwrite ev.
Proof.
  assert (Hr : forall m v, Forall not_overwrite (snd (monitor_report fp m v))).
  { intros m v. unfold monitor_report. cbn [snd]. apply Forall_app. split.
    - destruct (m_verbose m); repeat constructor.
    - destruct (m_history m); [constructor|]. destruct (xltb _ _); repeat constructor. }
  induction fuel as [|k IH]; intros o m o' m' ev H; cbn [fit_loop] in H; [injection H as <- <- <-; constructor|].
  apply bind_inv in H as ([o1 lb] & _ & H). specialize (Hr m lb). destruct (monitor_report fp m lb) as [m1 ev1]. cbn [snd] in Hr.
  destruct (converged fp m1); [injection H as <- <- <-; exact Hr|].
  apply bind_inv in H as ([[o2 m2] ev2] & H2 & H). injection H as <- <- <-.
  apply Forall_app. split; [|apply (IH _ _ _ _ _ H2)]. destruct (zr o1); [|exact Hr].
  apply Forall_app. split; [exact Hr|repeat constructor].
Qed.
Lemma fit_from_events {P X St} (E : emclass P X St) fp h x ls h' ev : fit_from E fp h x ls = Ok (h', ev) ->
  Forall not_overwrite ev.
Proof.
  unfold fit_from. intros H. apply bind_inv in H as (h1 & _ & H). apply bind_inv in H as ([[h2 m] ev2] & H2 & H).
  injection H as <- <-. apply (fit_loop_events _ _ _ _ _ _ _ _ _ H2).
Qed.

(** ** [fit] ignores the previous training history. *)
Definition with_mon {P} (m : monitor) (h : hmm P) : hmm P :=
  Hmm (h_cfg h) (h_nfeat h) (h_start h) (h_trans h) m (h_em h).

Section Mon.
  Context {P X St : Type} (E : emclass P X St) (fp : fpmode).
  Definition rmap {A B} (f : A -> B) (r : res A) : res B := match r with Ok a => Ok (f a) | Err e => Err e end.

  Lemma estep_loop_mon m h s t xs : forall st lp,
    estep_loop E fp (with_mon m h) s t st lp xs = estep_loop E fp h s t st lp xs.
  Proof. induction xs as [|x xs IH]; intros st lp; [reflexivity|]. cbn [estep_loop].
    change (estep_seq E fp (with_mon m h) s t st x) with (estep_seq E fp h s t st x).
    destruct (estep_seq E fp h s t st x) as [[st' l]|]; [|reflexivity]. cbn [bind]. apply IH. Qed.

  Lemma em_step_mon x ls m h : em_step E fp x ls (with_mon m h) = rmap (fun '(h', v) => (with_mon m h', v)) (em_step E fp x ls h).
  Proof.
    unfold em_step. cbn [with_mon h_start h_trans]. destruct (h_start h) as [s|]; [|reflexivity].
    destruct (h_trans h) as [t|]; [|reflexivity]. unfold do_estep. cbn [with_mon h_cfg].
    destruct (_ || _); [|reflexivity].
    destruct (split_X_lengths x ls) as [xs|]; [|reflexivity]. cbn [bind].
    change (Hmm (h_cfg h) (h_nfeat h) (h_start h) (h_trans h) m (h_em h)) with (with_mon m h).
    rewrite estep_loop_mon. change (stats0 E fp (with_mon m h)) with (stats0 E fp h).
    destruct (estep_loop E fp h s t (stats0 E fp h) (Fin 0) xs) as [[st lp]|]; [|reflexivity]. cbn [bind].
    unfold do_mstep. cbn [with_mon h_cfg h_nfeat h_em].
    destruct (ec_mstep _ _ _ _ _ _) as [em|]; reflexivity.
  Qed.

  Lemma fit_loop_mon x ls m zr fuel : (forall h, zr (with_mon m h) = zr h) -> forall h mo,
    fit_loop fp (em_step E fp x ls) zr fuel (with_mon m h) mo
    = rmap (fun '(h', m', ev) => (with_mon m h', m', ev)) (fit_loop fp (em_step E fp x ls) zr fuel h mo).
  Proof.
    intros Hz. induction fuel as [|k IH]; intros h mo; cbn [fit_loop]; [reflexivity|].
    rewrite em_step_mon. destruct (em_step E fp x ls h) as [[h1 v]|]; [|reflexivity]. cbn [rmap bind].
    destruct (monitor_report fp mo v) as [m1 ev]. destruct (converged fp m1); [reflexivity|].
    rewrite IH, Hz. destruct (fit_loop _ _ _ k h1 m1) as [[[h2 m2] ev2]|]; reflexivity.
  Qed.

  Lemma check_mon m h : check E fp (with_mon m h) = rmap (with_mon m) (check E fp h).
  Proof.
    unfold check. cbn [with_mon h_start h_trans h_cfg h_nfeat h_em h_mon]. destruct (h_start h) as [s|] eqn:Es; [|reflexivity].
    destruct (h_trans h) as [t|] eqn:Et.
    - destruct (base_check _ _ _ _); [|reflexivity]. cbn [bind].
      destruct (ec_check _ _ _ _ _) as [[nf em]|]; [|reflexivity]. reflexivity.
    - destruct (negb _); [reflexivity|]. destruct (negb _); reflexivity.
  Qed.

  Lemma fit_from_mon m h x ls : monitor_reset m = monitor_reset (h_mon h) ->
    fit_from E fp (with_mon m h) x ls = fit_from E fp h x ls.
  Proof.
    intros Hm. unfold fit_from. rewrite check_mon. destruct (check E fp h) as [h1|] eqn:Ec; [|reflexivity]. cbn [rmap bind].
    destruct (check_keeps E fp h h1 Ec) as (_ & _ & _ & C4).
    rewrite fit_loop_mon by reflexivity. cbn [with_mon h_cfg h_mon]. rewrite Hm, C4.
    destruct (fit_loop _ _ _ _ h1 _) as [[[h2 m2] ev2]|]; reflexivity.
  Qed.

  (** What [fit_from] leaves alone. *)
  Lemma fit_from_keeps h x ls h' ev : fit_from E fp h x ls = Ok (h', ev) ->
    h_cfg h' = h_cfg h /\ monitor_reset (h_mon h') = monitor_reset (h_mon h)
    /\ exists h1, check E fp h = Ok h1 /\ h_nfeat h' = h_nfeat h1.
  Proof.
    unfold fit_from. intros H. set (l := match ls with None => _ | Some l => Some l end) in H. clearbody l.
    destruct (check E fp h) as [h1|] eqn:Ec; [|discriminate]. cbn [bind] in H.
    destruct (check_keeps E fp h h1 Ec) as (C1 & _ & _ & C4).
    apply bind_inv in H as ([[h2 m] ev2] & El & H). injection H as <- <-. cbn [h_cfg h_mon h_nfeat].
    destruct (fit_loop_trace _ _ _ _ _ _ _ _ _ El) as (vs & Hi & Hm & _).
    destruct (iterate_keeps E fp x l _ h1 h2 vs Hi) as (A1 & A2 & _).
    split; [congruence|]. split; [|exists h1; split; [reflexivity|exact A2]].
    rewrite C4 in Hm. rewrite Hm. reflexivity.
  Qed.
End Mon.
