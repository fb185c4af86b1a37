(** * Assigned covariances: concrete cases. *)
From Verif Require Export Covars_ex.

Lemma C71_applies_l :
  accepts (cv_h "spherical" 2) (CV1 (fvec 2 (fun i => INR i + 1))) /\ ~ accepts (cv_h "spherical" 2) (CV1 (fvec 2 INR))
  /\ ~ accepts (cv_h "spherical" 2) (CV1 (fvec 3 (fun i => INR i + 1)))
  /\ accepts (cv_h "tied" 2) (CV2 (fmat 2 2 (fun i j => if Nat.eqb i j then 2 else 1)))
  /\ ~ accepts (cv_h "tied" 2) (CV2 (fmat 2 2 (fun i j => if Nat.eqb i j then 1 else 2))).
Proof.
  split; [apply C71_spherical_l; [reflexivity|]; split; [reflexivity|intros i _; pose proof (pos_INR i); lra]|].
  split; [intros H; apply C71_spherical_l in H; [|reflexivity]; destruct H as (_ & H); specialize (H 0%nat ltac:(lia)); cbn in H; lra|].
  split; [intros H; apply C71_spherical_l in H; [|reflexivity]; destruct H as (H & _); discriminate H|].
  split.
  - apply C71_symmetric_l; [reflexivity|intros i j _ _; rewrite Nat.eqb_sym; reflexivity|].
    split; [intros i j _ _; rewrite Nat.eqb_sym; reflexivity|]. intros v (i & Hi & Hv). unfold quad. cbn [sumn Nat.eqb].
    destruct i as [|[|i]]; [| |lia]; pose proof (Rsqr_pos_lt _ Hv) as Hp; unfold Rsqr in Hp; nra.
  - intros H. apply C71_symmetric_l in H; [|reflexivity|intros i j _ _; rewrite Nat.eqb_sym; reflexivity].
    destruct H as (_ & H). specialize (H (fun i => if Nat.eqb i 0 then 1 else -1)). unfold quad in H. cbn [sumn Nat.eqb] in H.
    assert (0 < 0 + (0 + 1 * 1 * 1 + 1 * 2 * -1) + (0 + -1 * 2 * 1 + -1 * 1 * -1)) as K; [|lra].
    assert (exists i, (i < 2)%nat /\ (if Nat.eqb i 0 then 1 else -1) <> 0) as W by (exists 0%nat; split; [lia|cbn; lra]).
    specialize (H W). lra.
Qed.
