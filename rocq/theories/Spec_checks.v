(** * Vocabulary of the validation and symmetry properties (C11, C12, C27-C30, C51, C52, C54). *)
From Verif Require Export Ready Categorical_proofs.

(** A vector of [n] finite numbers summing to 1 within the tolerance of
    numpy.allclose; a square matrix with such rows. *)
Definition sums_to_1 (n : nat) (v : vec) : Prop := exists f, v = fvec n f /\ near1 (sumn n f).
Definition rows_sum_to_1 (n : nat) (m : mat) : Prop :=
  exists F, m = fmat n n F /\ forall i, (i < n)%nat -> near1 (sumn n (F i)).

(** The only assignments to the estimator in [score], [score_samples], [decode],
    [predict], [predict_proba] and [sample] are those of [_check]
    (base.py:243, 336, 428). *)
Definition after_call {P X St} (E : emclass P X St) fp (h : hmm P) : hmm P :=
  match check E fp h with Ok h' => h' | Err _ => h end.

(** [_check] of a class, run again on its result, changes nothing more. *)
Definition check_stable {P X St} (E : emclass P X St) fp : Prop :=
  forall c nf p nf' p', ec_check E fp c nf p = Ok (nf', p') -> ec_check E fp c nf' p' = Ok (nf', p').

(** Shapes expected by the kernels. *)
Definition fits (s : vec) (t fr : mat) : Prop :=
  length s = ncol fr /\ nrow t = ncol fr /\ ncol t = ncol fr.

Definition xi_fits (fwd t bwd fr : mat) : Prop :=
  nrow fwd = nrow fr /\ ncol fwd = ncol fr /\ nrow t = ncol fr /\ ncol t = ncol fr
  /\ nrow bwd = nrow fr /\ ncol bwd = ncol fr.

(** [algorithm or self.algorithm]. *)
Definition effective {P} (h : hmm P) (alg : option string) : string :=
    match alg with Some a => if String.eqb a "" then c_algorithm (h_cfg h) else a
                 | None => c_algorithm (h_cfg h) end.

(** Parameters of a categorical model that sum to 1 exactly. *)
Definition cat_stochastic (h : hmm catp) (nc nf : nat) pi A e : Prop :=
  cat_model h nc nf pi A e /\ stochastic1 nc pi /\ stochastic2 nc nc A /\ stochastic2 nc nf e.

(** exp of the score as the user computes it. *)
Definition exp_score (h : hmm catp) (x : list nat) : R :=
  match score categorical exact h (map Z.of_nat x) None with
  | Ok v => match xexp exact v with Fin r => r | _ => 0 end
  | Err _ => 0
  end.

(** [s] is a permutation of the states. *)
Definition permutes (nc : nat) (s : nat -> nat) : Prop :=
  (forall i, (i < nc)%nat -> (s i < nc)%nat)
  /\ forall i j, (i < nc)%nat -> (j < nc)%nat -> s i = s j -> i = j.

(** numpy sees [k] and [wrapped nf k] as the same column. *)
Definition wrapped (nf : nat) (k : Z) : Z := if Z.ltb k 0 then (k + Z.of_nat nf)%Z else k.
Definition indexable (nf : nat) (k : Z) : Prop := (- Z.of_nat nf <= k < Z.of_nat nf)%Z.

Definition some_nonzero (n : nat) (w : nat -> R) : Prop := exists i, (i < n)%nat /\ w i <> 0.
