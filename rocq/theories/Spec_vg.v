(** * What the theorems on VariationalGaussianHMM say. *)
From Verif Require Export Spec_var Spec_mat Gauss_arr Kl.

(** What is assumed of [np.linalg.inv] and [np.linalg.slogdet] in exact
    arithmetic: on positive definite matrices they give the inverse, and the sign
    and logarithm of the determinant. *)
Definition la_right (la : linalg) : Prop := forall n A, pos_def n A ->
  (exists P, inverse n A P /\ la_inv la exact (fmat n n A) = Ok (fmat n n P))
  /\ la_slogdet la exact (fmat n n A) = (Fin 1, Fin (ln (det n A))).

(** ** Kullback-Leibler divergences. *)
(** The divergence of Normal(mq, Q) from Normal(mp, P); [Pi] is the inverse of [P]. *)
Definition klm (n : nat) (mq : nat -> R) (Q : nat -> nat -> R) (mp : nat -> R) (P Pi : nat -> nat -> R) : R :=
  1 / 2 * (ln (det n P) - ln (det n Q) + frob n Pi Q + quad n Pi (fun i => mq i - mp i) - INR n).
(** The divergence of Wishart(a, A) from Wishart(b, C), degrees of freedom [a],
    [b] and inverse scale matrices [A], [C]; [Ai] is the inverse of [A]. *)
Definition klw_form (n : nat) (a : R) (A Ai : nat -> nat -> R) (b : R) (C : nat -> nat -> R) : R :=
  (a - b) / 2 * (- ln (det n (fun i j => A i j / 2)) + sumn n (fun i => psi ((a - INR i) / 2)))
  - INR n * a / 2 + a / 2 * frob n Ai C
  + (INR n * (INR n - 1) / 4 * ln PI - b / 2 * ln (det n (fun i j => C i j / 2)) + sumn n (fun i => lgam ((b - INR i) / 2)))
  - (INR n * (INR n - 1) / 4 * ln PI - a / 2 * ln (det n (fun i j => A i j / 2)) + sumn n (fun i => lgam ((a - INR i) / 2))).

(** ** Variational training of normal emissions. *)
(** Entry (i, j) of the inverse of a symmetric matrix, by cofactors. *)
Definition minv (n : nat) (M : nat -> nat -> R) (i j : nat) : R :=
  det n (fun r c => if Nat.eqb r i then (if Nat.eqb c j then 1 else 0) else M r c) / det n M.

(** Dirichlet parameters of the initial distribution and of the rows of the
    transition matrix; for every state the parameters of a normal-Wishart
    distribution: the precision of the state is Wishart with [g_d] degrees of
    freedom and inverse scale matrix [g_S], its mean is normal about [g_m] with
    [g_b] times that precision. *)
Record gdirs := Gdirs {
  g_s : nat -> R; g_t : nat -> nat -> R;
  g_b : nat -> R; g_m : nat -> nat -> R; g_d : nat -> R; g_S : nat -> nat -> nat -> R }.

(** The part of a matrix that a covariance type keeps: all of it, its diagonal,
    or the mean of its diagonal. *)
Definition keep (ty : string) (nf : nat) (K : nat -> nat -> R) (k l : nat) : R :=
  if String.eqb ty "diag" then (if Nat.eqb k l then K k k else 0)
  else if String.eqb ty "spherical" then (if Nat.eqb k l then sumn nf (fun f => K f f) / INR nf else 0)
  else K k l.
(** Parameters of the given type: positive where they have to be; for "tied",
    one Wishart distribution for all states. *)
Record gvalid (ty : string) (nc nf : nat) (q : gdirs) : Prop := GValid {
  gv_s : pos1 nc (g_s q); gv_t : pos2 nc nc (g_t q); gv_b : pos1 nc (g_b q);
  gv_d : forall i, (i < nc)%nat -> INR nf - 1 < g_d q i;
  gv_S : forall i, (i < nc)%nat -> pos_def nf (g_S q i);
  gv_keep : forall i k l, (i < nc)%nat -> (k < nf)%nat -> (l < nf)%nat -> keep ty nf (g_S q i) k l = g_S q i k l;
  gv_tied : ty = "tied"%string -> forall i, (i < nc)%nat ->
    g_d q i = g_d q 0%nat /\ forall k l, (k < nf)%nat -> (l < nf)%nat -> g_S q i k l = g_S q 0%nat k l }.

Section Vg.
  Variables (ty : string) (nc nf : nat).
  (** exp(E[ln density]) of sample [o] in state [i], up to the factor (2 pi)^(-nf/2). *)
  Definition vg_w (q : gdirs) (o : vec) (i : nat) : R :=
    exp (1 / 2 * (sumn nf (fun j => psi ((g_d q i - INR j) / 2)) + INR nf * ln 2 - ln (det nf (g_S q i))
                  - INR nf / g_b q i
                  - g_d q i * quad nf (minv nf (g_S q i)) (fun k => xval o k - g_m q i k))).
  Definition gw_s (q : gdirs) : nat -> R := sub1 nc (g_s q).
  Definition gw_t (q : gdirs) (i : nat) : nat -> R := sub1 nc (g_t q i).

  Section Data.
    Variable cs : list (list vec).
    (** Expected counts under the path distribution proportional to those
        weights; expected number of samples of a state, their sum and the sum of
        their outer products. *)
    Definition g_start (q : gdirs) (i : nat) : R :=
      sumL (fun c => seq_post nc (gw_s q) (gw_t q) (vg_w q) c 0 i) cs.
    Definition g_move (q : gdirs) (i j : nat) : R :=
      sumL (fun c => seq_trans nc (gw_s q) (gw_t q) (vg_w q) c i j) cs.
    Definition g_n (q : gdirs) (i : nat) : R := occupancy nc (gw_s q) (gw_t q) (vg_w q) cs i.
    Definition g_x (q : gdirs) (i f : nat) : R :=
      weighted_total nc (gw_s q) (gw_t q) (vg_w q) cs (fun o => xval o f) i.
    Definition g_xx (q : gdirs) (i k l : nat) : R :=
      weighted_total nc (gw_s q) (gw_t q) (vg_w q) cs (fun o => xval o k * xval o l) i.

    (** One update of the parameters named in [params]: "s", "t", "m" (mean and
        its precision factor), "c" (Wishart). *)
    Definition new_b (params : string) (p q : gdirs) (i : nat) : R :=
      if has "m" params then g_b p i + g_n q i else g_b q i.
    Definition new_m (params : string) (p q : gdirs) (i f : nat) : R :=
      if has "m" params then (g_b p i * g_m p i f + g_x q i f) / (g_b p i + g_n q i) else g_m q i f.
    Definition new_K (params : string) (p q : gdirs) (i k l : nat) : R :=
      g_xx q i k l + g_b p i * (g_m p i k * g_m p i l)
      - new_b params p q i * (new_m params p q i k * new_m params p q i l).
    Definition vg_next (params : string) (p q : gdirs) : gdirs :=
      let tied := String.eqb ty "tied" in
      Gdirs (if has "s" params then fun i => g_s p i + g_start q i else g_s q)
            (if has "t" params then fun i j => g_t p i j + g_move q i j else g_t q)
            (new_b params p q) (new_m params p q)
            (if has "c" params then fun i => g_d p i + (if tied then sumn nc (g_n q) else g_n q i) else g_d q)
            (if has "c" params then fun i k l => g_S p i k l
               + (if tied then sumn nc (fun j => new_K params p q j k l) else keep ty nf (new_K params p q i) k l)
             else g_S q).

    (** Divergences of the posterior from the prior of a state. *)
    Definition kl_mean (p q : gdirs) (i : nat) : R :=
      klm nf (g_m q i) (fun k l => g_S q i k l / (g_b q i * g_d q i)) (g_m p i)
          (fun k l => g_S q i k l / (g_b p i * g_d q i)) (fun k l => g_b p i * g_d q i * minv nf (g_S q i) k l).
    Definition kl_prec (p q : gdirs) (i : nat) : R :=
      klw_form nf (g_d q i) (g_S q i) (minv nf (g_S q i)) (g_d p i) (g_S p i).
    (** The lower bound. *)
    Definition vg_elbo (p q : gdirs) : R :=
      sumL (fun c => ln (seq_lik nc (gw_s q) (gw_t q) (vg_w q) c)) cs
      - dkl nc (g_s q) (g_s p) - sumn nc (fun i => dkl nc (g_t q i) (g_t p i))
      - sumn nc (kl_mean p q)
      - (if String.eqb ty "tied" then kl_prec p q 0 else sumn nc (kl_prec p q)).
  End Data.
End Vg.
