(** * Model of [predict] and [predict_proba] of the variational classes, which
    inherit them. *)
From Verif Require Export Vbase.

Section Vpredict.
  Context {P X St : Type}.
  Variable V : vclass P X St.
  Variable fp : fpmode.
  (** base.py:378-396 [predict_proba]. *)
  Definition vpredict_proba (v : vhmm P) (x : list X) (lengths : option (list Z)) : res mat :=
    do (_, post) <- vscore_samples V fp v x lengths; Ok post.
  (** base.py:358-376 [predict]. *)
  Definition vpredict (v : vhmm P) (x : list X) (lengths : option (list Z)) : res (list nat) :=
    do (_, z) <- vdecode V fp v x lengths None; Ok z.
End Vpredict.
