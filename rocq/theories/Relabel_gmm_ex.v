(** * GMMHMM: examples for C77 and C78. *)
From Coq Require Import Permutation.
From Verif Require Export Relabel_gmm Gmm_ex Relabel_ex.

(** One state whose components, of weights 1/3 and 2/3, have the means 0 and 1. *)
Definition rx_w (i k : nat) : R := match k with 0%nat => 1 / 3 | _ => 2 / 3 end.
Definition rx_mu (i k f : nat) : R := INR k.
Definition rx_h (s : nat -> nat) ty : hmm gmmp :=
  ex_gm 2 1 ty "stmcw" (fun i k => rx_w i (s k)) (fun i k => rx_mu i (s k)) (ccv 1).

Lemma rx_facts s ty : permutes 2 s -> is_type covariance_types ty = true ->
  gmm_model eig1 (rx_h s ty) 1 2 1 ty u1 all1 (fun i k => rx_w i (s k)) (fun i k => rx_mu i (s k)) (ccv 1)
  /\ forall k, (k < 2)%nat -> 0 < rx_w 0 (s k).
Proof.
  intros Hs Hty.
  assert (P : forall k, 0 < rx_w 0 k) by (intros [|k]; cbn [rx_w]; lra).
  split; [|intros; apply P]. apply ex_gm_model; auto.
  - intros; left; apply P.
  - rewrite (sumn_perm 2 s Hs (rx_w 0)). cbn [sumn rx_w]. lra.
  - apply exd_cv.
  - apply exd_cm.
Qed.

Lemma C77_gmm_applies_l : forall ty, In ty ["diag"; "full"; "tied"]%string ->
  let h := rx_h (fun k => k) ty in
  let h2 := rx_h swap2 ty in
  gmm_model eig1 h 1 2 1 ty u1 all1 rx_w rx_mu (ccv 1)
  /\ gmm_model eig1 h2 1 2 1 ty u1 all1 (fun i k => rx_w i (swap2 k)) (fun i k => rx_mu i (swap2 k)) (ccv 1)
  /\ exists h' h2' ev w', fit_from (gmm eig1) exact h exd_x (as_lengths [1; 1]%nat) = Ok (h', ev)
     /\ fit_from (gmm eig1) exact h2 exd_x (as_lengths [1; 1]%nat) = Ok (h2', ev)
     /\ gm_weights (h_em h') = Some (nd2 1 2 w') /\ gm_weights (h_em h2') = Some (nd2 1 2 (fun i k => w' i (swap2 k))).
Proof.
  intros ty Hin h h2.
  assert (Hty : is_type covariance_types ty = true /\ ty <> "spherical"%string)
    by (destruct Hin as [<-|[<-|[<-|[]]]]; split; (reflexivity || discriminate)).
  destruct Hty as [Hty Hns].
  destruct (rx_facts (fun k => k) ty (permutes_id 2) Hty) as [GM Hw].
  destruct (rx_facts swap2 ty swap2_permutes Hty) as [GM2 _].
  split; [exact GM|]. split; [exact GM2|].
  assert (Hw0 : forall k, (k < 2)%nat -> 0 <= rx_w 0 k) by (intros k Hk; left; apply Hw; exact Hk).
  assert (Hw1 : sumn 2 (rx_w 0) = 1) by (cbn [sumn rx_w]; lra).
  assert (Hwp : forall i k, (i < 1)%nat -> (k < 2)%nat -> 0 < rx_w i k).
  { intros i k Hi Hk. replace i with 0%nat by lia. apply Hw. exact Hk. }
  assert (Hne : exd_x <> []) by discriminate.
  destruct (ex_gm_fit 2 1 ty "stmcw" rx_w rx_mu (ccv 1) ltac:(lia) ltac:(lia) Hty Hw0 Hw1 (exd_cv ty) (exd_cm ty)
              exd_x Hne exd_x_ok Hw ltac:(contradiction)) as (h' & ev & Hf & _).
  pose proof (gmm_flat_hyper h 1 2 1 ty ltac:(repeat split)) as HH.
  pose proof (gmm_flat_hyper h2 1 2 1 ty ltac:(repeat split)) as HH2.
  destruct (C77_gmm_l eig1 h h2 1 2 1 ty u1 all1 rx_w rx_mu (ccv 1) _ _ _ _ _ (fun _ => 1) (fun _ _ => 1)
    (fun i => i) (fun _ => swap2) (map (fun _ => 1%nat) exd_x) exd_x h' ev (permutes_id 1) ltac:(intros; exact swap2_permutes)
    ltac:(constructor; reflexivity) GM HH
    (flat_base_priors h 1 ltac:(split; reflexivity)) GM2 HH2 (flat_base_priors h2 1 ltac:(split; reflexivity))
    (flat_hyper_ok 1 2 1 ty Hty ltac:(contradiction)) Hwp ltac:(intros; lra) ltac:(intros; lra)
    (ex_gm_good 1 exd_x Hne exd_x_ok)
    (ex_gm_possible 2 1 ty "stmcw" rx_w rx_mu (ccv 1) ltac:(lia) ltac:(lia) Hty Hw0 Hw1 (exd_cv ty) (exd_cm ty) exd_x)
    (ex_gm_used 2 1 ty "stmcw" rx_w rx_mu (ccv 1) ltac:(lia) ltac:(lia) Hty Hw0 Hw1 (exd_cv ty) (exd_cm ty) exd_x Hne exd_x_ok)
    Hf) as (h2' & w' & mu' & cv' & F & _ & W1 & W2 & _).
  exists h', h2', ev, w'. auto.
Qed.

(** The two samples, each its own sequence, exchanged. *)
Lemma C78_gmm_applies_l : forall ty, In ty ["diag"; "full"; "tied"]%string ->
  let x2 := [v1 1; v1 0] in
  exists h' ev, x2 <> exd_x
    /\ fit_from (gmm eig1) exact (rx_h (fun k => k) ty) exd_x (as_lengths [1; 1]%nat) = Ok (h', ev)
    /\ fit_from (gmm eig1) exact (rx_h (fun k => k) ty) x2 (as_lengths [1; 1]%nat) = Ok (h', ev).
Proof.
  intros ty Hin x2.
  assert (Hty : is_type covariance_types ty = true /\ ty <> "spherical"%string)
    by (destruct Hin as [<-|[<-|[<-|[]]]]; split; (reflexivity || discriminate)).
  destruct Hty as [Hty Hns]. set (h := rx_h (fun k => k) ty).
  destruct (rx_facts (fun k => k) ty (permutes_id 2) Hty) as [GM Hw]. fold h in GM.
  assert (Hw0 : forall k, (k < 2)%nat -> 0 <= rx_w 0 k) by (intros k Hk; left; apply Hw; exact Hk).
  assert (Hw1 : sumn 2 (rx_w 0) = 1) by (cbn [sumn rx_w]; lra).
  assert (Hwp : forall i k, (i < 1)%nat -> (k < 2)%nat -> 0 < rx_w i k).
  { intros i k Hi Hk. replace i with 0%nat by lia. apply Hw. exact Hk. }
  assert (Hne : exd_x <> []) by discriminate.
  destruct (ex_gm_fit 2 1 ty "stmcw" rx_w rx_mu (ccv 1) ltac:(lia) ltac:(lia) Hty Hw0 Hw1 (exd_cv ty) (exd_cm ty)
              exd_x Hne exd_x_ok Hw ltac:(contradiction)) as (h' & ev & Hf & _).
  exists h', ev. split; [intros E; injection E; intros; lra|]. split; [exact Hf|].
  assert (Hx2 : Forall (finite_row 1) x2) by (repeat constructor).
  apply (C78_gmm_l eig1 h 1 2 1 ty u1 all1 rx_w rx_mu (ccv 1) _ _ _ _ _ (fun _ => 1) (fun _ _ => 1)
    (map (fun _ => 1%nat) exd_x) exd_x (map (fun _ => 1%nat) x2) x2 h' ev GM (gmm_flat_hyper h 1 2 1 ty ltac:(repeat split))
    (flat_base_priors h 1 ltac:(split; reflexivity))
    (flat_hyper_ok 1 2 1 ty Hty ltac:(contradiction)) Hwp ltac:(intros; lra) ltac:(intros; lra)
    (ex_gm_good 1 exd_x Hne exd_x_ok) (ex_gm_good 1 x2 ltac:(discriminate) Hx2)).
  - cbn. apply perm_swap.
  - apply (ex_gm_possible 2 1 ty "stmcw" rx_w rx_mu (ccv 1) ltac:(lia) ltac:(lia) Hty Hw0 Hw1 (exd_cv ty) (exd_cm ty) exd_x).
  - apply (ex_gm_used 2 1 ty "stmcw" rx_w rx_mu (ccv 1) ltac:(lia) ltac:(lia) Hty Hw0 Hw1 (exd_cv ty) (exd_cm ty) exd_x Hne exd_x_ok).
  - exact Hf.
Qed.
