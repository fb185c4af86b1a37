(** * Specification of sampling (used in statements). *)
From Verif Require Export Spec Sample.

(** [i] is the index selected by the draw [u] when inverting the cumulative
    distribution of [p]. *)
Definition inverse_cdf (n : nat) (p : nat -> R) (u : R) (i : nat) : Prop :=
  (i < n)%nat /\ sumn i p <= u < sumn (S i) p.

(** [chain c g ys zs g']: starting in state [c] with the random generator in
    state [g], the Markov chain visits [zs], each state drawn by inversion from
    the next uniform number, and [emit] produces [ys]; the generator ends in
    [g']. *)
Inductive chain {G Y} (rand : G -> R * G) (emit : nat -> G -> res (Y * G)) (nc : nat)
    (A : nat -> nat -> R) : nat -> G -> list Y -> list nat -> G -> Prop :=
| chain_nil c g : chain rand emit nc A c g [] [] g
| chain_cons c g u g1 c' y g2 ys zs g3 :
    rand g = (u, g1) -> inverse_cdf nc (A c) u c' -> emit c' g1 = Ok (y, g2) ->
    chain rand emit nc A c' g2 ys zs g3 ->
    chain rand emit nc A c g (y :: ys) (c' :: zs) g3.

(** All draws are in [0, 1). *)
Definition uniform_range {G} (rand : G -> R * G) : Prop := forall g, 0 <= fst (rand g) < 1.
