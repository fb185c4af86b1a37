(** * Specification: hidden Markov chains on finite state sets.

    Everything here is textbook material, written independently of the model:
    a sequence of [T] observations is seen only through the emission
    likelihoods [B t i] = p(x_t | state i). *)
From Coq Require Export Reals List Lra Lia Arith Bool.
Export ListNotations.
Open Scope R_scope.

(** Sum and product of [f 0 .. f (n-1)], and the sum of [f] over a list. *)
Fixpoint sumn (n : nat) (f : nat -> R) : R :=
  match n with O => 0 | S m => sumn m f + f m end.
Fixpoint prodn (n : nat) (f : nat -> R) : R :=
  match n with O => 1 | S m => prodn m f * f m end.
Fixpoint sumL {X} (f : X -> R) (l : list X) : R :=
  match l with [] => 0 | x :: r => f x + sumL f r end.

(** All state sequences of length [T] over states [0 .. nc-1]. *)
Fixpoint all_paths (nc T : nat) : list (list nat) :=
  match T with
  | O => [[]]
  | S T' => flat_map (fun s => map (cons s) (all_paths nc T')) (seq 0 nc)
  end.

(** A state sequence of length [T]. *)
Definition is_path (nc T : nat) (z : list nat) : Prop :=
  length z = T /\ forall t, (t < T)%nat -> (nth t z 0 < nc)%nat.

Section HMM.
  Variables (nc T : nat) (pi : nat -> R) (A : nat -> nat -> R) (B : nat -> nat -> R).

  (** Joint probability of a state sequence and the observations. *)
  Definition joint (z : list nat) : R :=
    pi (nth 0 z 0%nat)
    * prodn (T - 1) (fun t => A (nth t z 0%nat) (nth (S t) z 0%nat))
    * prodn T (fun t => B t (nth t z 0%nat)).

  (** Probability of the observations. *)
  Definition likelihood : R := sumL joint (all_paths nc T).

  (** Probability of the observations and being in state [i] at time [t]. *)
  Definition marginal (t i : nat) : R :=
    sumL joint (filter (fun z => Nat.eqb (nth t z 0%nat) i) (all_paths nc T)).

  (** ... and making the transition [i -> j] at time [t]. *)
  Definition pair_marginal (t i j : nat) : R :=
    sumL joint (filter (fun z => Nat.eqb (nth t z 0%nat) i
                                 && Nat.eqb (nth (S t) z 0%nat) j)
                       (all_paths nc T)).

  (** Number of [i -> j] transitions along a path. *)
  Definition n_trans (i j : nat) (z : list nat) : R :=
    sumn (T - 1) (fun t => if Nat.eqb (nth t z 0%nat) i && Nat.eqb (nth (S t) z 0%nat) j
                           then 1 else 0).

  (** Posterior expected number of [i -> j] transitions. *)
  Definition expected_trans (i j : nat) : R :=
    sumL (fun z => joint z * n_trans i j z) (all_paths nc T) / likelihood.

  (** Posterior probability of state [i] at time [t]. *)
  Definition posterior (t i : nat) : R := marginal t i / likelihood.
End HMM.

(** Parameters: non-negative, resp. stochastic. *)
Definition nonneg1 (n : nat) (f : nat -> R) : Prop := forall i, (i < n)%nat -> 0 <= f i.
Definition nonneg2 (r c : nat) (f : nat -> nat -> R) : Prop :=
  forall i j, (i < r)%nat -> (j < c)%nat -> 0 <= f i j.
Definition stochastic1 (n : nat) (f : nat -> R) : Prop :=
  nonneg1 n f /\ sumn n f = 1.
Definition stochastic2 (r c : nat) (f : nat -> nat -> R) : Prop :=
  forall i, (i < r)%nat -> stochastic1 c (f i).

(** ** Observation sequences. *)
(** [b o i] is the probability (density) of observing [o] in state [i]; the
    emission likelihoods of the sequence [x] are then [obsB b x]. *)
Definition obsB {X} (b : X -> nat -> R) (x : list X) (t i : nat) : R :=
  nth t (map (fun o => b o i) x) 0.
Definition seq_lik {X} (nc : nat) pi A (b : X -> nat -> R) (x : list X) : R :=
  likelihood nc (length x) pi A (obsB b x).
Definition seq_joint {X} pi A (b : X -> nat -> R) (x : list X) (z : list nat) : R :=
  joint (length x) pi A (obsB b x) z.
Definition seq_post {X} (nc : nat) pi A (b : X -> nat -> R) (x : list X) (t i : nat) : R :=
  posterior nc (length x) pi A (obsB b x) t i.
Definition seq_trans {X} (nc : nat) pi A (b : X -> nat -> R) (x : list X) (i j : nat) : R :=
  expected_trans nc (length x) pi A (obsB b x) i j.

Fixpoint prodL {X} (f : X -> R) (l : list X) : R :=
  match l with [] => 1 | x :: r => f x * prodL f r end.

(** Consecutive pieces of the given lengths. *)
Fixpoint chunks {X} (ls : list nat) (x : list X) : list (list X) :=
  match ls with
  | [] => []
  | n :: r => firstn n x :: chunks r (skipn n x)
  end.

Fixpoint prodL2 {U V} (f : U -> V -> R) (l : list U) (l' : list V) : R :=
  match l, l' with x :: r, y :: r' => f x y * prodL2 f r r' | _, _ => 1 end.

(** A most probable state path for the sequence [x]. *)
Definition best_path {X} (nc : nat) pi A (b : X -> nat -> R) (x : list X) (z : list nat) : Prop :=
  is_path nc (length x) z
  /\ forall z', is_path nc (length x) z' -> seq_joint pi A b x z' <= seq_joint pi A b x z.

(** [i] is the lowest-numbered maximiser of [f] over [0 .. n-1]. *)
Definition first_argmax (n : nat) (f : nat -> R) (i : nat) : Prop :=
  (i < n)%nat /\ (forall j, (j < n)%nat -> f j <= f i) /\ (forall j, (j < i)%nat -> f j < f i).

(** Likelihood of a possibly empty prefix. *)
Definition seq_plik {X} (nc : nat) pi A (b : X -> nat -> R) (x : list X) : R :=
  match x with [] => 1 | _ => seq_lik nc pi A b x end.
(** Every sample has conditional likelihood at least 1e-300 given its
    predecessors. *)
Definition seq_no_underflow {X} (nc : nat) pi A (b : X -> nat -> R) (x : list X) : Prop :=
  forall t, (t < length x)%nat ->
    / 10 ^ 300 * seq_plik nc pi A b (firstn t x) <= seq_plik nc pi A b (firstn (S t) x).

(** [z] picks the lowest-numbered state of maximal posterior at every sample;
    [map_value] is the sum of these posteriors. *)
Definition map_decoded {X} (nc : nat) pi A (b : X -> nat -> R) (x : list X) (z : list nat) : Prop :=
  length z = length x
  /\ forall t, (t < length x)%nat -> first_argmax nc (seq_post nc pi A b x t) (nth t z 0%nat).
Definition map_value {X} (nc : nat) pi A (b : X -> nat -> R) (x : list X) (z : list nat) : R :=
  sumn (length x) (fun t => seq_post nc pi A b x t (nth t z 0%nat)).
Fixpoint sumL2 {U V} (f : U -> V -> R) (l : list U) (l' : list V) : R :=
  match l, l' with x :: r, y :: r' => f x y + sumL2 f r r' | _, _ => 0 end.

(** ** Parameter updates. *)
(** Weights of a MAP update of a distribution [p] from expected counts [cnt]
    and Dirichlet parameters [prior]: impossible outcomes stay impossible and
    negative weights are clipped. *)
Definition map_weight (p prior cnt : nat -> R) (i : nat) : R :=
  if Req_EM_T (p i) 0 then 0 else Rmax (prior i - 1 + cnt i) 0.
(** Normalisation; a zero vector stays zero. *)
Definition normalised (n : nat) (w : nat -> R) (i : nat) : R :=
  if Req_EM_T (sumn n w) 0 then w i else w i / sumn n w.

(** Posterior weights [g t i] for a sequence of length [T], compatible with
    emission likelihoods [B]. *)
Definition responsibilities (nc T : nat) (B g : nat -> nat -> R) : Prop :=
  forall t, (t < T)%nat -> stochastic1 nc (g t)
    /\ forall i, (i < nc)%nat -> 0 < g t i -> 0 < B t i.

(** A distribution, or all zeros. *)
Definition stoch_or_zero (n : nat) (w : nat -> R) : Prop :=
  nonneg1 n w /\ (sumn n w = 1 \/ forall i, (i < n)%nat -> w i = 0).

(** Log-likelihood of all sequences, for models under which all are possible. *)
Definition data_loglik {X} (nc : nat) pi A (b : X -> nat -> R) (ls : list nat) (x : list X) : R :=
  sumL (fun c => ln (seq_lik nc pi A b c)) (chunks ls x).

(** Log-density of a Dirichlet prior with parameters [q], up to a constant;
    zero entries of [p] contribute nothing (structural zeros). *)
Definition log_dirichlet (n : nat) (q p : nat -> R) : R := sumn n (fun i => (q i - 1) * ln (p i)).

(** ** Weighted statistics of the emissions. *)
(** Sum over all samples of all sequences of the posterior weight of state [i]
    times [phi o i], for the sequences and weights in [l]. *)
Definition wsum {X} (l : list (list X * (nat -> nat -> R))) (phi : X -> nat -> R) (i : nat) : R :=
  sumL (fun w => sumn (length (fst w)) (fun t => snd w t i * obsB phi (fst w) t i)) l.
(** Total posterior weight of state [i]. *)
Definition occupancy {X} nc pi A (b : X -> nat -> R) (xs : list (list X)) (i : nat) : R :=
  sumL (fun c => sumn (length c) (fun t => seq_post nc pi A b c t i)) xs.
(** Posterior-weighted total of a function of the observation. *)
Definition weighted_total {X} nc pi A (b : X -> nat -> R) (xs : list (list X)) (phi : X -> R) (i : nat) : R :=
  sumL (fun c => sumn (length c) (fun t => seq_post nc pi A b c t i * nth t (map phi c) 0)) xs.
(** Every state has positive posterior probability somewhere. *)
Definition all_used {X} nc pi A (b : X -> nat -> R) (xs : list (list X)) : Prop :=
  forall i, (i < nc)%nat -> exists c t, In c xs /\ (t < length c)%nat /\ 0 < seq_post nc pi A b c t i.
