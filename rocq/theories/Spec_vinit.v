(** * Vocabulary for the theorems on the initialisation of the variational classes. *)
From Verif Require Export Vgauss Vcat Spec_init.

(** The prior [a] and the posterior [b] of one kind are initialised together: both
    are kept when both are set and the letter is not in [init_params], otherwise
    both are replaced. *)
Definition kept_or_fresh2 {A B} (letter : bool) (a a' : option A) (b b' : option B) (D : A -> B -> Prop) : Prop :=
  match a, b, letter with
  | Some u, Some w, false => a' = Some u /\ b' = Some w
  | _, _, _ => exists u w, a' = Some u /\ b' = Some w /\ D u w
  end.
(** The same with four attributes. *)
Definition kept_or_fresh4 {A B C E} (letter : bool) (a a' : option A) (b b' : option B) (c c' : option C) (d d' : option E)
    (D : A -> B -> C -> E -> Prop) : Prop :=
  match a, b, c, d, letter with
  | Some _, Some _, Some _, Some _, false => a' = a /\ b' = b /\ c' = c /\ d' = d
  | _, _, _, _, _ => exists w x y z, a' = Some w /\ b' = Some x /\ c' = Some y /\ d' = Some z /\ D w x y z
  end.

(** The constructor argument, or 1/n when it is None. *)
Definition or_uniform (fp : fpmode) (n : nat) (arg : option parr) : parr :=
  match arg with Some a => a | None => Scal (xdiv fp (Fin 1) (Fin (INR n))) end.
(** [p] has [n] entries and [arg] fills it as numpy broadcasts: a number into every
    entry, an array of n entries entry by entry, an array of one entry like a number. *)
Definition fills1 (n : nat) (arg : parr) (p : vec) : Prop :=
  length p = n
  /\ match arg with
     | Scal a => forall i, (i < n)%nat -> vget p i = a
     | Arr1 v => (length v = n /\ forall i, (i < n)%nat -> vget p i = vget v i)
                 \/ (length v = 1%nat /\ forall i, (i < n)%nat -> vget p i = vget v 0)
     | Arr2 m => nrow m = 1%nat
                 /\ ((ncol m = n /\ forall i, (i < n)%nat -> vget p i = mget m 0 i)
                     \/ (ncol m = 1%nat /\ forall i, (i < n)%nat -> vget p i = mget m 0 0))
     end.
(** Index [k] of an axis of length [n] in an argument whose axis has length [l]. *)
Definition axis (l n k k' : nat) : Prop := (l = n /\ k' = k) \/ (l = 1%nat /\ k' = 0%nat).
(** The same for [r] rows and [c] columns; a vector is repeated in every row. *)
Definition fills2 (r c : nat) (arg : parr) (p : mat) : Prop :=
  nrow p = r /\ ncol p = c
  /\ forall i j, (i < r)%nat -> (j < c)%nat ->
       match arg with
       | Scal a => mget p i j = a
       | Arr1 v => exists j', axis (length v) c j j' /\ mget p i j = vget v j'
       | Arr2 m => exists i' j', axis (nrow m) r i i' /\ axis (ncol m) c j j' /\ mget p i j = mget m i' j'
       end.
(** New prior: the argument in every entry.  New posterior: a Dirichlet draw times
    the number of sequences, or, for the transition matrix, times the number of
    samples divided by the number of states. *)
Definition fresh_start {G} (rg : rng G) (fp : fpmode) (nc : nat) (arg : option parr) (ls : list Z) (p q : vec) : Prop :=
  fills1 nc (or_uniform fp nc arg) p
  /\ exists d, dirichlet_draw rg fp nc d /\ q = map (fun a => xmul fp a (Fin (INR (length ls)))) d.
Definition fresh_trans {G} (rg : rng G) (fp : fpmode) (nc : nat) (arg : option parr) (ls : list Z) (p q : mat) : Prop :=
  fills2 nc nc (or_uniform fp nc arg) p
  /\ exists d, dirichlet_rows rg fp nc d
     /\ q = Mat nc (map (map (fun a => xmul fp a (xdiv fp (Fin (IZR (fold_left Z.add ls 0%Z))) (Fin (INR nc))))) (rows d)).
(** Emission matrix of VariationalCategoricalHMM: the draws use the prior as parameter. *)
Definition fresh_emis {G} (rg : rng G) (fp : fpmode) (nc n : nat) (arg : option parr) (ls : list Z) (p q : mat) : Prop :=
  fills2 nc n (or_uniform fp n arg) p
  /\ exists a0 l, or_uniform fp n arg = Scal a0 /\ length l = nc
     /\ Forall (fun d => exists g g', r_dirichlet rg (tab n (fun _ => a0)) g = Ok (d, g')) l
     /\ q = Mat n (map (map (fun d => xdiv fp (xmul fp d (Fin (IZR (fold_left Z.add ls 0%Z)))) (Fin (INR nc)))) l).
(** VariationalGaussianHMM: k-means labels and centres of the data; number of
    samples per cluster. *)
Definition kmeans_result {G} (gr : grng G) (nc : nat) (x : list vec) (labels : list nat) (centers : mat) : Prop :=
  exists g g', gr_kmeans gr nc x g = Ok (labels, centers, g').
Definition cluster_counts (labels : list nat) : vec :=
  tab (S (list_max labels)) (fun k => Fin (INR (count_occ Nat.eq_dec labels k))).
Definition or_arg {A} (arg : option A) (d : A) : A := match arg with Some a => a | None => d end.
(** New mean attributes: the prior means are the argument or the mean of the data,
    the posterior means the cluster centres, beta the argument or 1 and the counts. *)
Definition fresh_means {G} (gr : grng G) (fp : fpmode) (nc nf : nat) (p : vgp) (x : list vec)
    (m0 : parr) (m : mat) (b0 b : vec) : Prop :=
  exists labels centers, kmeans_result gr nc x labels centers
    /\ m0 = or_arg (vg_marg p) (Arr2 (mtab nc nf (fun _ f => arr_mean fp (map (fun r => vget r f) x))))
    /\ m = centers /\ b0 = or_arg (vg_barg p) (tab nc (fun _ => xadd fp (Fin 0) (Fin 1))) /\ b = cluster_counts labels.
(** New covariance attributes: the degrees of freedom are the argument or the
    number of features and the counts (their sum when tied), the prior scale the
    argument or 1e-3 times the identity. *)
Definition fresh_scales {G} (gr : grng G) (fp : fpmode) (nc nf : nat) (p : vgp) (x : list vec)
    (d0 d : dofs) (s0 s : covs) : Prop :=
  exists labels centers, kmeans_result gr nc x labels centers
    /\ d0 = or_arg (vg_darg p) (if String.eqb (vg_type p) "tied" then DofS (Fin (INR nf)) else DofV (tab nc (fun _ => Fin (INR nf))))
    /\ d = (if String.eqb (vg_type p) "tied" then DofS (xsum fp (cluster_counts labels)) else DofV (cluster_counts labels))
    /\ let e := fp (/ 1000) in
       let eye := mtab nf nf (fun i j => xmul fp (if Nat.eqb i j then Fin 1 else Fin 0) e) in
       s0 = or_arg (vg_sarg p) (if String.eqb (vg_type p) "tied" then CV2 eye
              else if String.eqb (vg_type p) "full" then CV3 (tab nc (fun _ => eye))
              else if String.eqb (vg_type p) "diag" then CV2 (mtab nc nf (fun _ _ => e)) else CV1 (tab nc (fun _ => e))).
