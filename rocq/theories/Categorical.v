(** * Model of CategoricalHMM (hmm.py:26-155, _emissions.py:30-109). *)
From Verif Require Export Base.

(** Emission attributes.  One row of [X] (shape (n_samples, 1), integer dtype) is
    a [Z]; the deprecated other shapes (_emissions.py:80-83) are not modelled. *)
Record catp := Catp { cat_prior : parr; cat_prob : option mat }.
Definition cat_stat := mat.

(** numpy integer-array indexing on an axis of size [n]: negative indices wrap
    around once, anything else out of range is an IndexError. *)
Definition np_index (n : nat) (k : Z) : res nat :=
  if Z.leb 0 k && Z.ltb k (Z.of_nat n) then Ok (Z.to_nat k)
  else if Z.leb (- Z.of_nat n) k && Z.ltb k 0 then Ok (Z.to_nat (k + Z.of_nat n))
  else Err IndexError.

Fixpoint map_res {A B} (f : A -> res B) (l : list A) : res (list B) :=
  match l with
  | [] => Ok []
  | x :: r => do y <- f x; do ys <- map_res f r; Ok (y :: ys)
  end.

(** _emissions.py:79-84 [_compute_likelihood]: [emissionprob_[:, X].T]. *)
Definition cat_lik (fp : fpmode) (c : cfg) (nf : option nat) (p : catp) (x : list Z) : res mat :=
  match cat_prob p with
  | None => Err (AttributeError "emissionprob_")
  | Some m =>
      do ks <- map_res (np_index (ncol m)) x;
      Ok (Mat (nrow m) (map (fun k => tab (nrow m) (fun i => mget m i k)) ks))
  end.

(** hmm.py:138-148 [_check], after [super()._check()]. *)
Definition cat_check (fp : fpmode) (c : cfg) (nf : option nat) (p : catp)
  : res (option nat * catp) :=
  match cat_prob p with
  | None => Err (AttributeError "emissionprob_")
  | Some m =>
      let n := match nf with None => ncol m | Some n => n end in
      if negb (Nat.eqb (nrow m) (c_nc c) && Nat.eqb (ncol m) n)
      then Err (ValueError "emissionprob_ shape")
      else if negb (forallb (check_sum_1 fp) (rows m))
      then Err (ValueError "emissionprob_ sum")
      else Ok (Some n, p)
  end.

(** _emissions.py:86-89. *)
Definition cat_stats0 (fp : fpmode) (c : cfg) (nf : option nat) (p : catp) : cat_stat :=
  mtab (c_nc c) (match nf with Some n => n | None => 0%nat end) (fun _ _ => Fin 0).

(** _emissions.py:91-104: [np.add.at(stats['obs'].T, X, posteriors)], written
    cell by cell (each cell accumulates its terms in order of time). *)
Definition cat_acc (fp : fpmode) (c : cfg) (nf : option nat) (p : catp) (st : cat_stat)
    (x : list Z) (post : mat) : res cat_stat :=
  if has "e" (c_params c) then
    do ks <- map_res (np_index (ncol st)) x;
    Ok (mtab (nrow st) (ncol st) (fun i k =>
      fold_left (fun acc t => if Nat.eqb (nth t ks 0%nat) k
                              then xadd fp acc (mget post t i) else acc)
        (seq 0 (length ks)) (mget st i k)))
  else Ok st.

(** hmm.py:150-155 [_do_mstep]. *)
Definition cat_mstep (fp : fpmode) (c : cfg) (nf : option nat) (p : catp) (st : cat_stat)
  : res catp :=
  if has "e" (c_params c) then
    Ok (Catp (cat_prior p)
          (Some (normalize_rows fp (mtab (nrow st) (ncol st) (fun i k =>
             np_maximum (xadd fp (xsub fp (pget2 (cat_prior p) i k) (Fin 1)) (mget st i k))
                        (Fin 0))))))
  else Ok p.

Definition categorical : emclass catp Z cat_stat :=
  EmClass (fun _ => true) cat_check
    (fun fp c nf p x => loglik_of_lik fp (cat_lik fp c nf p x))
    cat_lik cat_stats0 cat_acc cat_mstep.
