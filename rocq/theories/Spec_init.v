(** * Vocabulary for the theorems on initialisation. *)
From Verif Require Export Init Spec_checks.

(** An attribute at the start of training: kept when it is set and its letter is
    not listed in [init_params], otherwise a fresh value satisfying [D]. *)
Definition kept_or_fresh {A} (letter : bool) (old new : option A) (D : A -> Prop) : Prop :=
  match old, letter with
  | Some v, false => new = Some v
  | _, _ => exists v, new = Some v /\ D v
  end.

(** A value returned by the generator's Dirichlet sampler with all [n] parameters
    equal to [1/n]; a uniform number; a gamma number. *)
Definition dirichlet_draw {G} (rg : rng G) (fp : fpmode) (n : nat) (v : vec) : Prop :=
  exists g g', r_dirichlet rg (tab n (fun _ => xdiv fp (Fin 1) (Fin (INR n)))) g = Ok (v, g').
Definition dirichlet_rows {G} (rg : rng G) (fp : fpmode) (n : nat) (m : mat) : Prop :=
  ncol m = n /\ nrow m = n /\ Forall (dirichlet_draw rg fp n) (rows m).
Definition uniform_draw {G} (rg : rng G) (a : xnum) : Prop := exists g, a = Fin (fst (r_rand rg g)).

(** [r] rows of [c] entries. *)
Definition entries (r c : nat) (D : xnum -> Prop) (m : mat) : Prop :=
  ncol m = c /\ nrow m = r /\ Forall (fun row => length row = c /\ Forall D row) (rows m).

(** The part of an estimator that [fit] reads or writes, apart from the training
    history. *)
Definition same_model {P} (h h' : hmm P) : Prop :=
  h_cfg h' = h_cfg h /\ h_nfeat h' = h_nfeat h /\ h_start h' = h_start h /\ h_trans h' = h_trans h
  /\ h_em h' = h_em h.

(** A seed accepted by numpy. *)
Definition valid_rs {G} (rg : rng G) (rs : rstate G) : Prop :=
  match rs with RSSeed k => exists g, r_seed rg k = Ok g | _ => True end.

(** Samplers that do what their names say: Dirichlet vectors sum to 1 within the
    tolerance of [_check], uniform numbers are positive. *)
Record sane_rng {G} (rg : rng G) : Prop := {
  sr_dirichlet : forall n a g, (0 < n)%nat -> (forall i, (i < n)%nat -> 0 < a i) ->
    exists v g', r_dirichlet rg (fvec n a) g = Ok (v, g') /\ sums_to_1 n v;
  sr_rand : forall g, 0 < fst (r_rand rg g) }.

(** Every letter of [params] is one of [ls]. *)
Definition letters_in (s : string) (ls : list ascii) : Prop := forall a, has a s = true -> In a ls.

(** The parameters that [fit] is going to keep (set, letter not in
    [init_params]) are valid. *)
Definition keeps_valid_base {P} (h : hmm P) : Prop :=
  let c := h_cfg h in
  (forall s, has "s" (c_init_params c) = false -> h_start h = Some s -> sums_to_1 (c_nc c) s)
  /\ (forall t, has "t" (c_init_params c) = false -> h_trans h = Some t -> rows_sum_to_1 (c_nc c) t).

(** A matrix of finite numbers whose rows sum to 1 within tolerance. *)
Definition rect_sum_to_1 (r n : nat) (m : mat) : Prop :=
  exists F, m = fmat r n F /\ forall i, (i < r)%nat -> near1 (sumn n (F i)).

(** Sequence lengths as given to [fit]: None or positive integers covering X. *)
Definition lengths_ok {X} (ls : option (list Z)) (x : list X) : Prop :=
  ls = None \/ exists l, ls = as_lengths l /\ good_lengths l x.

Definition value_error {A} (r : res A) : Prop := exists w, r = Err (ValueError w).
Definition returns {A} (r : res A) : Prop := exists a, r = Ok a.

(** ** Free parameters (C43). *)
(** Coordinates of a probability vector of length [n]: all entries but the last. *)
Definition simplex_dim (n : nat) : nat := n - 1.
(** Coordinates of a symmetric matrix: the entries on and below the diagonal. *)
Definition symmetric_dim (n : nat) : nat :=
  length (filter (fun ij => Nat.leb (snd ij) (fst ij)) (list_prod (seq 0 n) (seq 0 n))).
(** Start vector and transition rows. *)
Definition base_dim (nc : nat) : nat := simplex_dim nc + nc * simplex_dim nc.
Definition covars_dim (ty : string) (nc nf : nat) : nat :=
  if String.eqb ty "spherical" then nc
  else if String.eqb ty "diag" then nc * nf
  else if String.eqb ty "full" then nc * symmetric_dim nf
  else symmetric_dim nf.
