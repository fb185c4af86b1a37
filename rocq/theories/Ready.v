(** * Usable models (used in statements). *)
From Verif Require Export Link Base.

(** The emission class computes the likelihoods [b] on observations
    satisfying [ok], in both representations. *)
Record emits {P X St} (E : emclass P X St) (h : hmm P) (nc : nat)
    (ok : X -> Prop) (b : X -> nat -> R) : Prop := Emits {
  em_log : forall x, Forall ok x -> loglik E exact h x = Ok (lmat (length x) nc (obsB b x));
  em_lin : forall x, Forall ok x -> lik E exact h x = Ok (fmat (length x) nc (obsB b x));
  em_nonneg : forall o i, ok o -> (i < nc)%nat -> 0 <= b o i;
  em_xok : forall o, ok o -> ec_xok E o = true }.

(** A model with [nc] states and non-negative parameters [pi], [A], [b] that
    passes the library's own validation ([_check], which may fill in
    [n_features] and is then idempotent). *)
Record ready {P X St} (E : emclass P X St) (h : hmm P) (nc : nat)
    (pi : nat -> R) (A : nat -> nat -> R) (ok : X -> Prop) (b : X -> nat -> R) : Prop := Ready {
  rd_nc : c_nc (h_cfg h) = nc;
  rd_pos : (0 < nc)%nat;
  rd_start : h_start h = Some (fvec nc pi);
  rd_trans : h_trans h = Some (fmat nc nc A);
  rd_pi : nonneg1 nc pi;
  rd_A : nonneg2 nc nc A;
  rd_check : exists h', check E exact h = Ok h' /\ check E exact h' = Ok h' /\ emits E h' nc ok b }.

(** [lengths] as passed by the user: positive integers covering the data. *)
Definition good_lengths {X} (ls : list nat) (x : list X) : Prop :=
  ls <> [] /\ Forall (fun n => (0 < n)%nat) ls /\ fold_right Nat.add 0%nat ls = length x.
Definition as_lengths (ls : list nat) : option (list Z) := Some (map Z.of_nat ls).

(** Data accepted by the theorems: valid rows, valid lengths. *)
Definition good_data {X} (ok : X -> Prop) (ls : list nat) (x : list X) : Prop :=
  Forall ok x /\ good_lengths ls x.

(** The condition under which posteriors of [c] are defined: positive
    likelihood ("log"), no underflow error ("scaling"). *)
Definition scorable {X} nc pi A (b : X -> nat -> R) (impl : string) (c : list X) : Prop :=
  (impl = "log"%string /\ 0 < seq_lik nc pi A b c)
  \/ (impl = "scaling"%string /\ seq_no_underflow nc pi A b c).

(** Sums accepted by [np.allclose(s, 1)] (rtol=1e-5, atol=1e-8). *)
Definition near1 (s : R) : Prop := Rabs (s - 1) <= / 10 ^ 8 + / 10 ^ 5.

(** A model during training: parameters set and non-negative, emissions
    computed by the class (no requirement on sums). *)
Record trainable {P X St} (E : emclass P X St) (h : hmm P) (nc : nat)
    (pi : nat -> R) (A : nat -> nat -> R) (ok : X -> Prop) (b : X -> nat -> R) : Prop := Trainable {
  tr_nc : c_nc (h_cfg h) = nc;
  tr_pos : (0 < nc)%nat;
  tr_start : h_start h = Some (fvec nc pi);
  tr_trans : h_trans h = Some (fmat nc nc A);
  tr_pi : nonneg1 nc pi;
  tr_A : nonneg2 nc nc A;
  tr_em : emits E h nc ok b }.

(** ** Emission classes that can be trained. *)
(** Emission statistics accumulated from sequences with the given posteriors. *)
Fixpoint em_acc_all {P X St} (E : emclass P X St) (c : cfg) (nf : option nat) (p : P) (nc : nat)
    (st : St) (l : list (list X * (nat -> nat -> R))) : res St :=
  match l with
  | [] => Ok st
  | (x, g) :: r =>
      do st' <- ec_acc E exact c nf p st x (fmat (length x) nc g);
      em_acc_all E c nf p nc st' r
  end.

Definition good_weights {X} (nc : nat) (ok : X -> Prop) (b : X -> nat -> R)
    (l : list (list X * (nat -> nat -> R))) : Prop :=
  l <> [] /\ forall x g, In (x, g) l ->
    x <> [] /\ Forall ok x /\ responsibilities nc (length x) (obsB b x) g.

(** Training from [good] emission parameters succeeds and gives [good]
    parameters under which nothing that had posterior weight is impossible. *)
(** [V] says that the class needs every state to have positive weight
    ([visited]): Poisson and Gaussian M-steps divide by the weight of a state. *)
Definition visited {X} (nc : nat) (l : list (list X * (nat -> nat -> R))) : Prop :=
  forall i, (i < nc)%nat -> exists x g t, In (x, g) l /\ (t < length x)%nat /\ 0 < g t i.

Record trains {P X St} (E : emclass P X St) (nc : nat) (ok : X -> Prop)
    (good : cfg -> option nat -> P -> Prop) (b : P -> X -> nat -> R) (V : bool) : Prop := Trains {
  tn_emits : forall h, c_nc (h_cfg h) = nc -> good (h_cfg h) (h_nfeat h) (h_em h) ->
    emits E h nc ok (b (h_em h));
  tn_step : forall c nf p l, c_nc c = nc -> good c nf p -> good_weights nc ok (b p) l ->
    (V = true -> visited nc l) ->
    exists st p', em_acc_all E c nf p nc (ec_stats0 E exact c nf p) l = Ok st
      /\ ec_mstep E exact c nf p st = Ok p' /\ good c nf p'
      /\ forall x g t i, In (x, g) l -> (t < length x)%nat -> (i < nc)%nat ->
           0 < g t i -> 0 < obsB (b p') x t i }.

(** ... and increases the expected emission log-likelihood plus penalty, for
    weights satisfying [W]. *)
Definition improves {P X St} (E : emclass P X St) (nc : nat) (ok : X -> Prop)
    (good : cfg -> option nat -> P -> Prop) (b : P -> X -> nat -> R)
    (W : cfg -> option nat -> P -> list (list X * (nat -> nat -> R)) -> Prop) (pen : P -> R) : Prop :=
  forall c nf p l st p', c_nc c = nc -> good c nf p -> good_weights nc ok (b p) l -> W c nf p l ->
    em_acc_all E c nf p nc (ec_stats0 E exact c nf p) l = Ok st -> ec_mstep E exact c nf p st = Ok p' ->
    0 <= sumL (fun w => sumn (length (fst w)) (fun t => sumn nc (fun i =>
           snd w t i * (ln (obsB (b p') (fst w) t i) - ln (obsB (b p) (fst w) t i))))) l
         + pen p' - pen p.

(** Finite hyper-parameters of the Dirichlet priors. *)
Definition priors (c : cfg) (nc : nat) (sp : nat -> R) (tp : nat -> nat -> R) : Prop :=
  (forall i, (i < nc)%nat -> pget1 (c_sprior c) i = Fin (sp i))
  /\ (forall i j, (i < nc)%nat -> (j < nc)%nat -> pget2 (c_tprior c) i j = Fin (tp i j)).

(** ** The training loop, abstractly. *)
(** [n] iterations of [step], with the recorded objectives. *)
Fixpoint iterate {O} (step : O -> res (O * xnum)) (n : nat) (o : O) : res (O * list xnum) :=
  match n with
  | 0%nat => Ok (o, [])
  | S n' => do (o', v) <- step o; do (o2, vs) <- iterate step n' o'; Ok (o2, v :: vs)
  end.

(** The stopping rule on the list of recorded objectives: the iteration limit
    is reached, or the last improvement is below [tol]. *)
Definition stops (fp : fpmode) (tol : xnum) (n_iter : nat) (hist : list xnum) : Prop :=
  length hist = n_iter
  \/ exists h a z, hist = h ++ [a; z] /\ xlt (xsub fp z a) tol.

(** The recorded objective drops by more than sqrt(eps) at some point. *)
Definition drops (fp : fpmode) (hist : list xnum) : Prop :=
  exists h a z r, hist = h ++ a :: z :: r /\ xlt (xsub fp z a) (Fin (- / 2 ^ 26)).
