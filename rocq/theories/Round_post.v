(** * Rounding errors of the posterior probabilities (scaling implementation). *)
From Verif Require Export Round_thms Init_proofs.

Notation prods := (prodL (fun s : R => s)).
Lemma prods_pos ss : Forall (Rlt 0) ss -> 0 < prods ss.
Proof. induction 1; cbn [prodL]; [lra|nra]. Qed.

Section Post.
  Variables (u : R) (fp : fpmode).
  Hypothesis Hu : 0 <= u < 1.
  Hypothesis HF : rel_err u fp.
  Variables (n : nat) (pi : nat -> R) (A B : nat -> nat -> R).
  Hypothesis Hn : (0 < n)%nat.
  Hypothesis Hpi : nonneg1 n pi.
  Hypothesis HA : nonneg2 n n A.
  Hypothesis HB : forall t i, (i < n)%nat -> 0 <= B t i.
  Notation al := (alpha n pi A B).
  Notation be := (beta n A B).

  (** The rows of the forward pass. *)
  Lemma loop_rows m : forall t K v s0 l lp fwd scs,
    fwd_scaling_loop fp n (fmat n n A) l (fvec n v) (map (fun k => fvec n (B k)) (seq (S t) m)) = Ok (lp, fwd, scs) ->
    0 < s0 -> (forall i, (i < n)%nat -> 0 <= v i /\ within u K (al t i * s0) (v i)) ->
    exists ss W, scs = map Fin ss /\ length ss = m /\ Forall (Rlt 0) ss /\ fwd = tab m (fun k => fvec n (W k))
      /\ forall k i, (k < m)%nat -> (i < n)%nat ->
           0 <= W k i /\ within u (K + S k * (n + 3)) (al (t + S k) i * (s0 * prods (firstn (S k) ss))) (W k i).
  Proof.
    induction m as [|m IH]; intros t K v s0 l lp fwd scs E Hs0 Hv.
    - injection E as <- <- <-. exists [], (fun _ _ => 0). repeat split; try constructor; lia.
    - cbn [seq map fwd_scaling_loop] in E.
      destruct (raw_w u fp Hu HF n A (B (S t)) v (al t) K s0 Hs0 HA) as (r0 & Er & Hr).
      { intros i Hi. apply HB. exact Hi. }
      { intros i Hi. split; [apply Hv; exact Hi|]. split; [apply al_nonneg; assumption|apply Hv; exact Hi]. }
      rewrite Er in E. destruct (rescale fp (fvec n r0)) as [[scale row]|] eqn:Es; cbn [bind] in E; [|discriminate].
      destruct (rescale_w u fp Hu HF n r0 (al (S t)) (K + n + 2) (sumn n (al (S t))) s0 scale row Hn Hs0)
        as (s & w & -> & Hs & -> & _ & Hw & _); [intros j Hj; apply Hr; exact Hj|exact Es|reflexivity|].
      apply bind_inv in E as ([[lp' fwd'] scs'] & El & E). injection E as -> <- <-.
      destruct (IH (S t) (K + (n + 3))%nat w (s0 * s) _ _ _ _ El) as (ss & W & -> & Hl & Hp & -> & HW); [nra| |].
      { intros i Hi. destruct (Hw i Hi) as [G1 G2]. split; [exact G1|]. replace (K + (n + 3))%nat with (K + n + 2 + 1)%nat by lia. exact G2. }
      exists (s :: ss), (fun k => match k with O => w | S k => W k end). split; [reflexivity|]. split; [cbn [length]; lia|].
      split; [constructor; assumption|]. split; [rewrite tab_S; reflexivity|]. intros [|k] i Hk Hi.
      + destruct (Hw i Hi) as [G1 G2]. split; [exact G1|]. cbn [firstn prodL]. rewrite Rmult_1_r.
        replace (K + 1 * (n + 3))%nat with (K + n + 2 + 1)%nat by lia. replace (t + 1)%nat with (S t) by lia. exact G2.
      + destruct (HW k i) as [G1 G2]; [lia|exact Hi|]. split; [exact G1|]. cbn [firstn prodL] in *.
        replace (K + S (S k) * (n + 3))%nat with (K + (n + 3) + S k * (n + 3))%nat by lia. replace (t + S (S k))%nat with (S t + S k)%nat by lia.
        rewrite <- (Rmult_assoc s0). exact G2.
  Qed.
  Lemma forward_rows T lp fwd scs :
    forward_scaling fp (fvec n pi) (fmat n n A) (fmat (S T) n B) = Ok (lp, fwd, scs) ->
    exists ss W, scs = map Fin ss /\ length ss = S T /\ Forall (Rlt 0) ss /\ fwd = fmat (S T) n W
      /\ 0 < likelihood n (S T) pi A B
      /\ forall t i, (t <= T)%nat -> (i < n)%nat ->
           0 <= W t i /\ within u (S t * (n + 3)) (al t i * prods (firstn (S t) ss)) (W t i).
  Proof.
    intros E. pose proof E as E0. unfold forward_scaling in E. rewrite (shape_guard_ok n T) in E by (try reflexivity; apply nrow_mtab).
    rewrite rows_seq in E. cbn [ncol fmat mtab] in E. destruct (first_w u fp Hu HF n pi A B Hpi HA HB) as (r0 & Er & Hr). rewrite Er in E.
    destruct (rescale fp (fvec n r0)) as [[scale row]|] eqn:Es; cbn [bind] in E; [|discriminate].
    destruct (rescale_w u fp Hu HF n r0 (al 0) 1 (sumn n (al 0)) 1 scale row Hn Rlt_0_1 Hr Es eq_refl) as (s & w & -> & Hs & -> & _ & Hw & _).
    change (mtab n n (fun i j => Fin (A i j))) with (fmat n n A) in E.
    apply bind_inv in E as ([[lp' fwd'] scs'] & El & E). injection E as -> <- <-.
    destruct (loop_rows T 0%nat (n + 3) w s _ _ _ _ El Hs) as (ss & W & -> & Hl & Hp & -> & HW).
    { intros i Hi. destruct (Hw i Hi) as [G1 G2]. split; [exact G1|]. rewrite Rmult_1_l in G2. apply (w_mono u Hu 2); [exact G2| |exact G1|lia].
      apply Rmult_le_pos; [apply al_nonneg; assumption|lra]. }
    exists (s :: ss), (fun k => match k with O => w | S k => W k end). split; [reflexivity|]. split; [cbn [length]; lia|].
    split; [constructor; assumption|]. split; [unfold fmat, mtab; rewrite tab_S; reflexivity|].
    split; [destruct (forward_w u fp Hu HF n pi A B Hn Hpi HA HB T _ _ _ E0) as (? & ? & ? & _ & _ & _ & _ & H & _); exact H|].
    intros [|k] i Hk Hi.
    - destruct (Hw i Hi) as [G1 G2]. split; [exact G1|]. cbn [firstn prodL]. rewrite Rmult_1_r. rewrite Rmult_1_l in G2.
      apply (w_mono u Hu 2); [exact G2| |exact G1|lia]. apply Rmult_le_pos; [apply al_nonneg; assumption|lra].
    - destruct (HW k i) as [G1 G2]; [lia|exact Hi|]. split; [exact G1|]. cbn [firstn prodL] in *. cbn [Nat.add] in G2.
      replace (S (S k) * (n + 3))%nat with (n + 3 + S k * (n + 3))%nat by lia. exact G2.
  Qed.

  (** The rows of the backward pass. *)
  Lemma be_nonneg k : forall t i, (i < n)%nat -> 0 <= be t k i.
  Proof.
    induction k as [|k IH]; intros t i Hi; cbn [beta]; [lra|]. apply sumn_nonneg. intros j Hj.
    apply Rmult_le_pos; [apply Rmult_le_pos; auto|auto].
  Qed.
  Lemma back_rows m : forall t ss, length ss = S m -> Forall (Rlt 0) ss ->
    exists V, bwd_scaling_loop fp n (fmat n n A) (map (fun k => fvec n (B k)) (seq t (S m))) (map Fin ss) = tab (S m) (fun k => fvec n (V k))
      /\ forall k i, (k <= m)%nat -> (i < n)%nat ->
           0 <= V k i /\ within u ((m - k) * (n + 3)) (be (t + k) (m - k) i * prods (skipn k ss)) (V k i).
  Proof.
    induction m as [|m IH]; intros t ss Hl Hp.
    - destruct ss as [|s [|]]; try discriminate. exists (fun _ _ => s). split; [reflexivity|]. intros k i Hk Hi.
      assert (k = 0)%nat as -> by lia. inversion Hp. split; [lra|]. cbn. rewrite Rmult_1_l, Rmult_1_r. split; cbn; lra.
    - destruct ss as [|s ss]; [discriminate|]. inversion Hp as [|? ? Hs Hp']; subst. injection Hl as Hl.
      destruct (IH (S t) ss Hl Hp') as (V & EV & HV).
      change (seq t (S (S m))) with (t :: seq (S t) (S m)). cbn [map bwd_scaling_loop].
      change (seq (S t) (S m)) with (S t :: seq (S (S t)) m) in EV |- *. cbn [map] in EV |- *. cbv zeta. rewrite EV.
      assert (R0 : exists v, bwd_scaling_row fp n (fmat n n A) (fvec n (B (S t))) (fvec n (V 0%nat)) (Fin s) = fvec n v
                /\ forall i, (i < n)%nat -> 0 <= v i /\ within u (S m * (n + 3)) (be t (S m) i * (s * prods ss)) (v i)).
      { apply (fvec_of n _ (fun i z => 0 <= z /\ within u (S m * (n + 3)) (be t (S m) i * (s * prods ss)) z)). intros i Hi.
        destruct (sum_w u fp Hu HF n (fun j => xmul fp (xmul fp (mget (fmat n n A) i j) (vget (fvec n (B (S t))) j)) (vget (fvec n (V 0%nat)) j))
          (fun j => A i j * B (S t) j * (be (S t) m j * prods ss)) (m * (n + 3) + 2)) as (y & Ey & Hy & Wy).
        { intros j Hj. pose proof (HA i j Hi Hj) as Ha. pose proof (HB (S t) j Hj) as Hb. pose proof (be_nonneg m (S t) j Hj) as Hbe.
          pose proof (prods_pos _ Hp') as Hpp. destruct (HV 0%nat j) as [G1 G2]; [lia|exact Hj|].
          rewrite Nat.sub_0_r, Nat.add_0_r in G2. cbn [skipn] in G2.
          assert (H0 : 0 <= A i j * B (S t) j) by (apply Rmult_le_pos; assumption).
          assert (H1 : 0 <= be (S t) m j * prods ss) by (apply Rmult_le_pos; lra).
          split; [apply Rmult_le_pos; assumption|]. rewrite !vget_fvec, mget_fmat by assumption. cbn [xmul].
          destruct (fp_w u fp Hu HF (A i j * B (S t) j) H0) as (z & Ez & Hz & Wz). rewrite Ez. cbn [xmul].
          destruct (fp_w u fp Hu HF (z * V 0%nat j)) as (z' & Ez' & Hz' & Wz'); [apply Rmult_le_pos; lra|]. exists z'.
          split; [exact Ez'|]. split; [exact Hz'|]. replace (m * (n + 3) + 2)%nat with ((1 + m * (n + 3)) + 1)%nat by lia.
          apply (w_trans u Hu) with (z * V 0%nat j); [|exact Wz']. apply (w_mul u Hu); assumption. }
        unfold bwd_scaling_row in *. rewrite Ey. cbn [xmul].
        destruct (fp_w u fp Hu HF (y * s)) as (z & Ez & Hz & Wz); [apply Rmult_le_pos; lra|]. exists z. split; [exact Ez|]. split; [exact Hz|].
        replace (S m * (n + 3))%nat with ((m * (n + 3) + 2 + n + 0) + 1)%nat by lia. apply (w_trans u Hu) with (y * s); [|exact Wz].
        replace (be t (S m) i * (s * prods ss)) with (sumn n (fun j => A i j * B (S t) j * (be (S t) m j * prods ss)) * s).
        2:{ cbn [beta]. rewrite (sumn_ext n (fun j => A i j * B (S t) j * (be (S t) m j * prods ss)) (fun j => A i j * B (S t) j * be (S t) m j * prods ss)) by (intros; ring).
            rewrite sumn_scal_r. ring. }
        apply (w_mul u Hu); try lra; [|exact Wy|apply (w_refl u)]. apply sumn_nonneg. intros j Hj.
        pose proof (prods_pos _ Hp'). apply Rmult_le_pos; [apply Rmult_le_pos; auto|]. apply Rmult_le_pos; [apply be_nonneg; exact Hj|lra]. }
      destruct R0 as (v & Ev & Hv).
      exists (fun k => match k with O => v | S k => V k end). split.
      { rewrite (tab_S (S m)). f_equal. rewrite (tab_S m). cbn [hd]. exact Ev. }
      intros [|k] i Hk Hi.
      + rewrite Nat.sub_0_r, Nat.add_0_r. cbn [skipn prodL]. apply Hv. exact Hi.
      + cbn [skipn]. replace (S m - S k)%nat with (m - k)%nat by lia. replace (t + S k)%nat with (S t + k)%nat by lia. apply HV; [lia|exact Hi].
  Qed.

  (** One row of the normalised product. *)
  Lemma norm_w (g m : nat -> R) K : (forall i, (i < n)%nat -> 0 <= g i /\ 0 <= m i /\ within u K (m i) (g i)) -> 0 < sumn n m ->
    exists w, normalize_row fp (fvec n g) = fvec n w
      /\ (forall i, (i < n)%nat -> 0 <= w i /\ within u (2 * K + n + 1) (m i / sumn n m) (w i))
      /\ within u (n + 1) 1 (sumn n w).
  Proof.
    intros H Hm. unfold normalize_row.
    destruct (sum_w u fp Hu HF n (fun j => Fin (g j)) g 0) as (y & Ey & Hy & Wy).
    { intros i Hi. split; [apply H; exact Hi|]. exists (g i). split; [reflexivity|]. split; [apply H; exact Hi|apply (w_refl u)]. }
    assert (Es : xsum fp (fvec n g) = Fin y).
    { rewrite <- Ey. unfold xsum, fvec, tab. clear. generalize (Fin 0). induction (seq 0 n) as [|i l IH]; intros z; [reflexivity|]. simpl. apply IH. }
    rewrite Es. cbn [Nat.add] in Wy.
    assert (Wg : within u K (sumn n m) (sumn n g)) by (apply w_sum; intros i Hi; apply H; exact Hi).
    assert (Hg : 0 < sumn n g). { destruct Wg as [W _]. pose proof (q_pow u Hu K). nra. }
    assert (Hy' : 0 < y). { destruct Wy as [W _]. pose proof (q_pow u Hu n). nra. }
    cbn [xeqb]. unfold Reqb. destruct (Req_EM_T y 0) as [|_]; [lra|].
    assert (Hiy : 0 < / y) by (apply Rinv_0_lt_compat, Hy').
    destruct (fvec_of n (fun i => xdiv fp (Fin (g i)) (Fin y)) (fun i z => 0 <= z /\ within u 1 (g i * / y) z)) as (w & Ew & Hw).
    { intros i Hi. unfold xdiv. destruct (Req_EM_T y 0); [lra|].
      destruct (fp_w u fp Hu HF (g i / y)) as (z & Ez & Hz & Wz); [apply Rmult_le_pos; [apply H; exact Hi|lra]|]. exists z. split; [exact Ez|]. split; assumption. }
    exists w. split; [rewrite <- Ew; unfold fvec, tab; rewrite map_map; reflexivity|]. split.
    - intros i Hi. destruct (H i Hi) as (H1 & H2 & H3). split; [apply Hw; exact Hi|].
      replace (2 * K + n + 1)%nat with ((K + (K + n)) + 1)%nat by lia. apply (w_trans u Hu) with (g i * / y); [|apply Hw; exact Hi].
      assert (0 < / sumn n m) by (apply Rinv_0_lt_compat; exact Hm).
      apply (w_mul u Hu); try lra; [exact H3|]. apply (w_inv u Hu); try lra. apply (w_trans u Hu) with (sumn n g); assumption.
    - apply (w_trans u Hu) with (sumn n (fun i => g i * / y)); [|apply w_sum; intros i Hi; apply Hw; exact Hi].
      rewrite sumn_scal_r. replace 1 with (sumn n g * / sumn n g) by (field; lra).
      apply (w_mul u Hu 0 n); try lra; [left; apply Rinv_0_lt_compat; exact Hg|apply (w_refl u)|].
      apply (w_inv u Hu); assumption.
  Qed.

  Lemma rows_seq0 T : rows (fmat (S T) n B) = map (fun k => fvec n (B k)) (seq 0 (S T)).
  Proof. reflexivity. Qed.
  Lemma posteriors_w T lp fwd scs bwd :
    forward_scaling fp (fvec n pi) (fmat n n A) (fmat (S T) n B) = Ok (lp, fwd, scs) ->
    backward_scaling fp (fvec n pi) (fmat n n A) (fmat (S T) n B) scs = Ok bwd ->
    0 < likelihood n (S T) pi A B /\
    exists P, compute_posteriors_scaling fp fwd bwd = fmat (S T) n P
      /\ forall t, (t <= T)%nat -> within u (n + 1) 1 (sumn n (P t))
           /\ forall i, (i < n)%nat -> 0 <= P t i /\ within u (2 * (S T * (n + 3)) + n + 3) (posterior n (S T) pi A B t i) (P t i).
  Proof.
    intros E1 E2. destruct (forward_rows T lp fwd scs E1) as (ss & W & -> & Hl & Hp & -> & HL & HW). split; [exact HL|].
    unfold backward_scaling in E2. rewrite map_length, Hl, nrow_fmat, Nat.eqb_refl in E2. cbn [negb] in E2.
    rewrite (shape_guard_ok n T) in E2 by (try reflexivity; apply nrow_mtab). rewrite rows_seq0 in E2. cbn [ncol fmat mtab] in E2.
    destruct (back_rows T 0%nat ss Hl Hp) as (V & EV & HV). change (mtab n n (fun i j => Fin (A i j))) with (fmat n n A) in E2.
    rewrite EV in E2. injection E2 as <-. change (Mat n (tab (S T) (fun k => fvec n (V k)))) with (fmat (S T) n V).
    set (c := fun t => prods (firstn (S t) ss) * prods (skipn t ss)).
    assert (Hc : forall t, 0 < c t).
    { intros t. unfold c. apply Rmult_lt_0_compat; apply prods_pos; apply Forall_forall; intros z Hz; rewrite Forall_forall in Hp; apply Hp;
        [rewrite <- (firstn_skipn (S t) ss); apply in_or_app; left; exact Hz|rewrite <- (firstn_skipn t ss); apply in_or_app; right; exact Hz]. }
    unfold compute_posteriors_scaling, mzip, normalize_rows. rewrite nrow_fmat, ncol_fmat, ncol_mtab, mat_rows_map.
    set (K := (S T * (n + 3) + 1)%nat).
    assert (Row : forall t, (t <= T)%nat -> exists w,
      normalize_row fp (tab n (fun j => xmul fp (mget (fmat (S T) n W) t j) (mget (fmat (S T) n V) t j))) = fvec n w
      /\ (within u (n + 1) 1 (sumn n w)
          /\ forall i, (i < n)%nat -> 0 <= w i /\ within u (2 * (S T * (n + 3)) + n + 3) (posterior n (S T) pi A B t i) (w i))).
    { intros t Ht.
      destruct (fvec_of n (fun j => xmul fp (mget (fmat (S T) n W) t j) (mget (fmat (S T) n V) t j))
        (fun i z => 0 <= z /\ within u K (al t i * be t (T - t) i * c t) z)) as (g & Eg & Hg).
      { intros i Hi. rewrite !mget_fmat by (try assumption; lia). destruct (HW t i Ht Hi) as [W1 W2]. destruct (HV t i Ht Hi) as [V1 V2]. cbn [Nat.add] in V2.
        cbn [xmul]. destruct (fp_w u fp Hu HF (W t i * V t i)) as (z & Ez & Hz & Wz); [apply Rmult_le_pos; assumption|].
        exists z. split; [exact Ez|]. split; [exact Hz|].
        replace K with ((S t * (n + 3) + (T - t) * (n + 3)) + 1)%nat by (unfold K; nia).
        apply (w_trans u Hu) with (W t i * V t i); [|exact Wz].
        replace (al t i * be t (T - t) i * c t) with (al t i * prods (firstn (S t) ss) * (be t (T - t) i * prods (skipn t ss))) by (unfold c; ring).
        assert (F1 : 0 < prods (firstn (S t) ss)).
        { apply prods_pos, Forall_forall. intros z0 Hz0. rewrite Forall_forall in Hp. apply Hp. rewrite <- (firstn_skipn (S t) ss). apply in_or_app. left. exact Hz0. }
        assert (F2 : 0 < prods (skipn t ss)).
        { apply prods_pos, Forall_forall. intros z0 Hz0. rewrite Forall_forall in Hp. apply Hp. rewrite <- (firstn_skipn t ss). apply in_or_app. right. exact Hz0. }
        pose proof (be_nonneg (T - t) t i Hi). assert (0 <= al t i) by (apply al_nonneg; assumption).
        apply (w_mul u Hu); try assumption; apply Rmult_le_pos; lra. }
      rewrite Eg.
      assert (Es : sumn n (fun i => al t i * be t (T - t) i * c t) = likelihood n (S T) pi A B * c t).
      { rewrite sumn_scal_r, <- (likelihood_alpha_beta n pi A B T t) by lia. reflexivity. }
      destruct (norm_w g (fun i => al t i * be t (T - t) i * c t) K) as (w & Ew & Hw & Hs).
      { intros i Hi. destruct (Hg i Hi) as [G1 G2]. split; [exact G1|]. split; [|exact G2]. pose proof (Hc t).
        apply Rmult_le_pos; [|lra]. apply Rmult_le_pos; [apply al_nonneg; assumption|apply be_nonneg; exact Hi]. }
      { rewrite Es. apply Rmult_lt_0_compat; [exact HL|apply Hc]. }
      exists w. split; [exact Ew|]. split; [exact Hs|]. intros i Hi. destruct (Hw i Hi) as [G1 G2]. split; [exact G1|].
      rewrite Es in G2. replace (2 * (S T * (n + 3)) + n + 3)%nat with (2 * K + n + 1)%nat by (unfold K; lia).
      rewrite posterior_ab by assumption. pose proof (Hc t).
      replace (al t i * be t (T - t) i / likelihood n (S T) pi A B) with (al t i * be t (T - t) i * c t / (likelihood n (S T) pi A B * c t)) by (field; lra).
      exact G2. }
    assert (Ch : forall k, (k <= S T)%nat -> exists P, forall t, (t < k)%nat ->
      normalize_row fp (tab n (fun j => xmul fp (mget (fmat (S T) n W) t j) (mget (fmat (S T) n V) t j))) = fvec n (P t)
      /\ (within u (n + 1) 1 (sumn n (P t))
          /\ forall i, (i < n)%nat -> 0 <= P t i /\ within u (2 * (S T * (n + 3)) + n + 3) (posterior n (S T) pi A B t i) (P t i))).
    { induction k as [|k IH]; intros Hk; [exists (fun _ _ => 0); lia|]. destruct IH as [P HP]; [lia|]. destruct (Row k) as [w Hw]; [lia|].
      exists (fun t => if Nat.eqb t k then w else P t). intros t Ht. destruct (Nat.eqb_spec t k) as [->|]; [exact Hw|apply HP; lia]. }
    destruct (Ch (S T) (le_n _)) as [P HP]. exists P. split.
    - unfold fmat, mtab. f_equal. apply tab_ext. intros t Ht. apply HP. exact Ht.
    - intros t Ht. apply HP. lia.
  Qed.
End Post.
