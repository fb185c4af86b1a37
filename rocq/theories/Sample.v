(** * Model of [sample] (base.py:398-451). *)
From Verif Require Export Categorical.

(** base.py:438, 446 and _emissions.py:107-109:
    [(np.cumsum(p) > random_state.rand()).argmax()]. *)
Definition pick (fp : fpmode) (p : vec) (u : R) : nat :=
  argmax_bool (map (fun c => xltb (Fin u) c) (cumsum fp p)).

Section Sample.
  Context {P X St : Type}.
  Variable E : emclass P X St.
  Variable fp : fpmode.
  (** The random generator: its state type and [random_state.rand()].  The
      theorems hold for every generator; [G] is mutated by each call, hence
      threaded. *)
  Context {G : Type}.
  Variable rand : G -> R * G.
  (** [_generate_sample_from_state(state, random_state)]; [Y] is one row of the
      returned feature matrix. *)
  Context {Y : Type}.
  Variable gen : hmm P -> Z -> G -> res (Y * G).

  (** base.py:444-449, the loop over [range(n_samples - 1)].
      [transmat_cdf[currstate]] is numpy indexing (negative wraps once). *)
  Fixpoint sample_loop (h : hmm P) (t : mat) (n : nat) (cur : Z) (g : G)
    : res (list Y * list Z * G) :=
    match n with
    | 0%nat => Ok ([], [], g)
    | S n' =>
        let '(u, g1) := rand g in
        do i <- np_index (nrow t) cur;
        let cur' := Z.of_nat (pick fp (nth i (rows t) []) u) in
        do (y, g2) <- gen h cur' g1;
        do (ys, zs, g3) <- sample_loop h t n' cur' g2;
        Ok (y :: ys, cur' :: zs, g3)
    end.

  (** base.py:398-451 [sample], after the choice of the generator (lines
      430-432): observations, states and the generator afterwards.
      [np.atleast_2d(X)] is not modelled. *)
  Definition sample (h : hmm P) (n_samples : Z) (currstate : option Z) (g : G)
    : res (list Y * list Z * G) :=
    do (h', s, t) <- fitted_check E fp h;
    let '(cur, g1) :=
      match currstate with
      | None => let '(u, g1) := rand g in (Z.of_nat (pick fp s u), g1)
      | Some c => (c, g)
      end in
    do (y, g2) <- gen h' cur g1;
    do (ys, zs, g3) <- sample_loop h' t (Z.to_nat (n_samples - 1)) cur g2;
    Ok (y :: ys, cur :: zs, g3).
End Sample.

(** _emissions.py:106-109 [BaseCategoricalHMM._generate_sample_from_state]. *)
Definition cat_gen {G} (fp : fpmode) (rand : G -> R * G) (h : hmm catp) (state : Z) (g : G)
  : res (nat * G) :=
  match cat_prob (h_em h) with
  | None => Err (AttributeError "emissionprob_")
  | Some m =>
      do i <- np_index (nrow m) state;
      let '(u, g') := rand g in
      Ok (pick fp (nth i (rows m) []) u, g')
  end.

(** base.py:626-644, the default of the base class: no features, no draws. *)
Definition base_gen {G P} (h : hmm P) (state : Z) (g : G) : res (unit * G) := Ok (tt, g).
