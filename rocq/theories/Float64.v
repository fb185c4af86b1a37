(** * IEEE binary64 round-to-nearest-even as an instance of the rounding
    parameter (Flocq). *)
From Verif Require Import Viterbi_proofs.
From Flocq Require Import Core.

Definition b64_exp : Z -> Z := FLT_exp (-1074) 53.
Definition b64_round (r : R) : R := round radix2 b64_exp ZnearestE r.
Definition b64_max : R := bpow radix2 1024.
(** Overflow goes to an infinity. *)
Definition b64 : fpmode := fun r =>
  let v := b64_round r in
  if Rle_dec b64_max v then PInf else if Rle_dec v (- b64_max) then NInf else Fin v.

#[local] Instance b64_valid : Valid_exp b64_exp.
Proof. apply FLT_exp_valid. unfold Prec_gt_0. lia. Qed.

Lemma b64_monotone : monotone b64.
Proof.
  intros x y Hxy. unfold b64.
  assert (H : b64_round x <= b64_round y) by (apply round_le; [apply b64_valid|apply valid_rnd_N|exact Hxy]).
  assert (Hm : 0 < b64_max) by apply bpow_gt_0.
  destruct (Rle_dec b64_max (b64_round x)), (Rle_dec b64_max (b64_round y)); try lra; try reflexivity;
  destruct (Rle_dec (b64_round x) (- b64_max)), (Rle_dec (b64_round y) (- b64_max)); try lra; try reflexivity.
  unfold xle. simpl. apply XRL.Rleb_true. exact H.
Qed.

(** Rounding a representable number changes nothing. *)
Definition idempotent (fp : fpmode) : Prop := forall x v, fp x = Fin v -> fp v = Fin v.

Lemma b64_idempotent : idempotent b64.
Proof.
  intros x v H. unfold b64 in *.
  destruct (Rle_dec b64_max (b64_round x)); [discriminate|].
  destruct (Rle_dec (b64_round x) (- b64_max)); [discriminate|].
  injection H as H. assert (E : b64_round v = v).
  { rewrite <- H. unfold b64_round. apply round_generic; [apply valid_rnd_N|].
    apply generic_format_round; [apply b64_valid|apply valid_rnd_N]. }
  rewrite E. subst v. 
  destruct (Rle_dec b64_max (b64_round x)); [contradiction|].
  destruct (Rle_dec (b64_round x) (- b64_max)); [contradiction|reflexivity].
Qed.
