(** * Property C94: a concrete GMMHMM. *)
From Verif Require Export Alike_gmm Relabel_gmm_ex.

(** One state with two equal components; they are still equal after training. *)
Lemma C94_gmm_applies_l : forall ty, In ty ["diag"; "full"; "tied"]%string ->
  let h := exd ty "stmcw" in
  gmm_model eig1 h 1 2 1 ty u1 all1 half2 (cmu 0) (ccv 1)
  /\ exists h' ev w' mu', fit_from (gmm eig1) exact h exd_x (as_lengths [1; 1]%nat) = Ok (h', ev)
     /\ gm_weights (h_em h') = Some (nd2 1 2 w') /\ gm_means (h_em h') = Some (nd3 1 2 1 mu')
     /\ w' 0%nat 1%nat = w' 0%nat 0%nat /\ mu' 0%nat 1%nat 0%nat = mu' 0%nat 0%nat 0%nat.
Proof.
  intros ty Hin h.
  assert (Hty : is_type covariance_types ty = true)
    by (destruct Hin as [<-|[<-|[<-|[]]]]; reflexivity).
  pose proof (exd_model ty "stmcw" Hty) as GM. fold h in GM. split; [exact GM|].
  assert (Hw0 : forall k, (k < 2)%nat -> 0 <= half2 0 k) by (intros k Hk; left; apply half2_pos; exact Hk).
  assert (Hwp : forall i k, (i < 1)%nat -> (k < 2)%nat -> 0 < half2 i k).
  { intros i k Hi Hk. replace i with 0%nat by lia. apply half2_pos. exact Hk. }
  assert (Hne : exd_x <> []) by discriminate.
  destruct (ex_gm_fit 2 1 ty "stmcw" half2 (cmu 0) (ccv 1) ltac:(lia) ltac:(lia) Hty Hw0 half2_sum (exd_cv ty) (exd_cm ty)
              exd_x Hne exd_x_ok half2_pos) as (h' & ev & Hf & _).
  { intros ->. destruct Hin as [E|[E|[E|[]]]]; discriminate. }
  pose proof (gmm_flat_hyper h 1 2 1 ty ltac:(repeat split)) as HH.
  destruct (C94_gmm_l eig1 h 1 2 1 ty u1 all1 half2 (cmu 0) (ccv 1) _ _ _ _ _ (fun _ => 1) (fun _ _ => 1)
    (fun i => i) (fun _ => swap2) (map (fun _ => 1%nat) exd_x) exd_x h' ev (permutes_id 1) ltac:(intros; exact swap2_permutes)
    GM HH (flat_base_priors h 1 ltac:(split; reflexivity))
    ltac:(reflexivity) ltac:(reflexivity) ltac:(reflexivity) ltac:(reflexivity) ltac:(reflexivity) ltac:(reflexivity)
    ltac:(reflexivity) ltac:(reflexivity) ltac:(reflexivity) ltac:(reflexivity) ltac:(reflexivity) ltac:(reflexivity)
    (flat_hyper_ok 1 2 1 ty Hty ltac:(intros ->; destruct Hin as [E|[E|[E|[]]]]; discriminate)) Hwp ltac:(intros; lra) ltac:(intros; lra)
    (ex_gm_good 1 exd_x Hne exd_x_ok)
    (ex_gm_possible 2 1 ty "stmcw" half2 (cmu 0) (ccv 1) ltac:(lia) ltac:(lia) Hty Hw0 half2_sum (exd_cv ty) (exd_cm ty) exd_x)
    (ex_gm_used 2 1 ty "stmcw" half2 (cmu 0) (ccv 1) ltac:(lia) ltac:(lia) Hty Hw0 half2_sum (exd_cv ty) (exd_cm ty) exd_x Hne exd_x_ok)
    Hf) as (_ & w' & mu' & cv' & W1 & M1 & _ & W & M & _).
  exists h', ev, w', mu'. split; [exact Hf|]. split; [exact W1|]. split; [exact M1|]. split.
  - exact (W 0%nat 0%nat ltac:(lia) ltac:(lia)).
  - exact (M 0%nat 0%nat 0%nat ltac:(lia) ltac:(lia) ltac:(lia)).
Qed.
