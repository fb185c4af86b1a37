(** * Specification of the emissions drawn by [sample] (used in statements). *)
From Verif Require Export Spec_sample Sample_em Link.

(** [emits i g y g']: state [i], with the generator in state [g], emits [y] and
    leaves the generator in [g']. *)
Definition emission (G Y : Type) := nat -> G -> Y -> G -> Prop.

(** A run of the chain from state [c]: each state is drawn by inversion from the
    next uniform number, then emits. *)
Inductive mrun {G Y} (rand : G -> R * G) (emits : emission G Y) (nc : nat) (A : nat -> nat -> R)
  : nat -> G -> list Y -> list nat -> G -> Prop :=
| mrun_nil c g : mrun rand emits nc A c g [] [] g
| mrun_cons c g u g1 c' y g2 ys zs g3 :
    rand g = (u, g1) -> inverse_cdf nc (A c) u c' -> emits c' g1 y g2 ->
    mrun rand emits nc A c' g2 ys zs g3 ->
    mrun rand emits nc A c g (y :: ys) (c' :: zs) g3.

(** The [n] samples [ys] and states [zs] of a model with start vector [pi] and
    transitions [A]; [start] is the first state when it is given. *)
Definition sampled {G Y} (rand : G -> R * G) (emits : emission G Y) (nc : nat) (pi : nat -> R) (A : nat -> nat -> R)
    (start : option nat) (n : nat) (g : G) (ys : list Y) (zs : list Z) (g' : G) : Prop :=
  exists c g1 y g2 ys' zs',
    match start with
    | Some c0 => c = c0 /\ g1 = g
    | None => exists u, rand g = (u, g1) /\ inverse_cdf nc pi u c
    end
    /\ emits c g1 y g2 /\ mrun rand emits nc A c g2 ys' zs' g'
    /\ ys = y :: ys' /\ zs = map Z.of_nat (c :: zs') /\ S (length zs') = n.

(** The emissions of the classes. *)
Section Emissions.
  Context {G : Type} (sr : srng G).

  (** A categorical symbol: inversion from one uniform number. *)
  Definition cat_drawn (nf : nat) (e : nat -> nat -> R) : emission G nat := fun i g y g' =>
    exists u, s_rand sr g = (u, g') /\ inverse_cdf nf (e i) u y.

  (** One Poisson draw per feature, in order. *)
  Fixpoint features_drawn (n : nat) (draw : nat -> G -> res (Z * G)) (g : G) (y : list Z) (g' : G) : Prop :=
    match n with
    | 0%nat => y = [] /\ g' = g
    | S n' => exists v g1 y', draw 0%nat g = Ok (v, g1)
                /\ features_drawn n' (fun f => draw (S f)) g1 y' g' /\ y = v :: y'
    end.
  Definition pois_drawn (nf : nat) (lam : nat -> nat -> R) : emission G (list Z) := fun i =>
    features_drawn nf (fun f => s_poisson sr (Fin (lam i f))).

  (** [n] trials with the probabilities of the state. *)
  Definition mult_drawn (n : Z) (nf : nat) (e : nat -> nat -> R) : emission G (list Z) := fun i g y g' =>
    s_multinomial sr n (fvec nf (e i)) g = Ok (y, g').

  (** A normal vector with the mean and the covariance matrix of the state. *)
  Definition normal_drawn (nf : nat) (mu : nat -> nat -> R) (Sg : nat -> nat -> nat -> R) : emission G vec := fun i g y g' =>
    s_normal sr (fvec nf (mu i)) (fmat nf nf (Sg i)) g = Ok (y, g').

  (** A component by inversion from one uniform number, then a normal vector with
      the mean and the covariance matrix of that component of the state. *)
  Definition mix_drawn (nm nf : nat) (w : nat -> nat -> R) (mu : nat -> nat -> nat -> R) (Sg : nat -> nat -> nat -> nat -> R)
    : emission G vec := fun i g y g' =>
    exists u g1 k, s_rand sr g = (u, g1) /\ inverse_cdf nm (fun k => w i k / sumn nm (w i)) u k
      /\ s_normal sr (fvec nf (mu i k)) (fmat nf nf (Sg i k)) g1 = Ok (y, g').
End Emissions.
