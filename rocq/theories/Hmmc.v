(** * Model of the native kernels, ext/_hmmc.cpp. *)
From Verif Require Export Arr.

(** ext/_hmmc.cpp:9-15 [logaddexp]. *)
Definition logaddexp (fp : fpmode) (a b : xnum) : xnum :=
  match a with
  | NInf => b
  | _ => match b with
         | NInf => a
         | _ => xadd fp (std_max a b)
                  (xlog fp (xadd fp (Fin 1) (xexp fp (xopp (xabs (xsub fp b a))))))
                (* log1p(exp(-|b-a|)): log1p is modelled as log(1+x) *)
         end
  end.

(** ext/_hmmc.cpp:17-28 [logsumexp]. *)
Definition logsumexp (fp : fpmode) (v : vec) : xnum :=
  let max := max_element v in
  if xisinf max then max
  else xadd fp
         (xlog fp (fold_left (fun acc x => xadd fp acc (xexp fp (xsub fp x max))) v (Fin 0)))
         max.

(** ext/_hmmc.cpp:30-44 [log], elementwise; FE_DIVBYZERO handling has no
    value-level effect. *)
Definition vlog (fp : fpmode) (v : vec) : vec := map (xlog fp) v.
Definition mlog (fp : fpmode) (m : mat) : mat := mmap (xlog fp) m.

(** [auto min_sum = 1e-300;]  ext/_hmmc.cpp:51. *)
Definition min_sum : R := / 10 ^ 300.

(** The shape test shared by the kernels, e.g. ext/_hmmc.cpp:57-60.
    [std::invalid_argument] reaches Python as ValueError.  A 0-row
    [frameprob] passes the test; the kernels then read row 0 / row -1 of an
    empty array, which is undefined behaviour, reported as [UB]. *)
Definition shape_guard {A} (startprob : vec) (transmat frameprob : mat)
    (k : res A) : res A :=
  let ns := nrow frameprob in
  let nc := ncol frameprob in
  if negb (Nat.eqb (length startprob) nc) || negb (Nat.eqb (nrow transmat) nc)
     || negb (Nat.eqb (ncol transmat) nc)
  then Err (ValueError "shape mismatch")
  else if Nat.eqb ns 0 then Err UB
  else k.

(** One row of the scaled forward recursion before scaling:
    ext/_hmmc.cpp:83-88. *)
Definition fwd_scaling_raw (fp : fpmode) (nc : nat) (transmat : mat)
    (prev fr : vec) : vec :=
  tab nc (fun j =>
    xmul fp
      (fold_left (fun acc i => xadd fp acc (xmul fp (vget prev i) (mget transmat i j)))
         (seq 0 nc) (Fin 0))
      (vget fr j)).

(** Summation, underflow test and rescaling: ext/_hmmc.cpp:72-81 and 89-98.
    [std::range_error] reaches Python as ValueError. *)
Definition rescale (fp : fpmode) (raw : vec) : res (xnum * vec) :=
  let sum := xsum fp raw in
  if xltb sum (Fin min_sum) then Err (ValueError "underflow")
  else let scale := xdiv fp (Fin 1) sum in
       Ok (scale, map (fun x => xmul fp x scale) raw).

Fixpoint fwd_scaling_loop (fp : fpmode) (nc : nat) (transmat : mat)
    (log_prob : xnum) (prev : vec) (frs : list vec)
  : res (xnum * list vec * vec) :=
  match frs with
  | [] => Ok (log_prob, [], [])
  | fr :: rest =>
      do (scale, row) <- rescale fp (fwd_scaling_raw fp nc transmat prev fr);
      do (lp, fwd, scs) <-
         fwd_scaling_loop fp nc transmat (xsub fp log_prob (xlog fp scale)) row rest;
      Ok (lp, row :: fwd, scale :: scs)
  end.

(** ext/_hmmc.cpp:46-102 [forward_scaling]: (log_prob, fwdlattice, scaling). *)
Definition forward_scaling (fp : fpmode) (startprob : vec) (transmat frameprob : mat)
  : res (xnum * mat * vec) :=
  shape_guard startprob transmat frameprob (
    let nc := ncol frameprob in
    match rows frameprob with
    | [] => Err UB
    | fr0 :: rest =>
        do (scale, row) <-
           rescale fp (tab nc (fun i => xmul fp (vget startprob i) (vget fr0 i)));
        do (lp, fwd, scs) <-
           fwd_scaling_loop fp nc transmat (xsub fp (Fin 0) (xlog fp scale)) row rest;
        Ok (lp, Mat nc (row :: fwd), scale :: scs)
    end).

(** ext/_hmmc.cpp:127-134, one time step of the log-domain forward pass. *)
Definition fwd_log_row (fp : fpmode) (nc : nat) (log_transmat : mat)
    (prev lfr : vec) : vec :=
  tab nc (fun j =>
    xadd fp
      (logsumexp fp (tab nc (fun i => xadd fp (vget prev i) (mget log_transmat i j))))
      (vget lfr j)).

Fixpoint fwd_log_loop (fp : fpmode) (nc : nat) (log_transmat : mat)
    (prev : vec) (lfrs : list vec) : list vec :=
  match lfrs with
  | [] => []
  | lfr :: rest =>
      let row := fwd_log_row fp nc log_transmat prev lfr in
      row :: fwd_log_loop fp nc log_transmat row rest
  end.

(** ext/_hmmc.cpp:104-138 [forward_log]: (log_prob, fwdlattice). *)
Definition forward_log (fp : fpmode) (startprob : vec) (transmat log_frameprob : mat)
  : res (xnum * mat) :=
  shape_guard startprob transmat log_frameprob (
    let nc := ncol log_frameprob in
    let log_startprob := vlog fp startprob in
    let log_transmat := mlog fp transmat in
    match rows log_frameprob with
    | [] => Err UB
    | lfr0 :: rest =>
        let row0 := tab nc (fun i => xadd fp (vget log_startprob i) (vget lfr0 i)) in
        let fwd := row0 :: fwd_log_loop fp nc log_transmat row0 rest in
        Ok (logsumexp fp (last fwd []), Mat nc fwd)
    end).

(** ext/_hmmc.cpp:163-170, one step of the scaled backward pass. *)
Definition bwd_scaling_row (fp : fpmode) (nc : nat) (transmat : mat)
    (fr_next bwd_next : vec) (scale : xnum) : vec :=
  tab nc (fun i =>
    xmul fp
      (fold_left (fun acc j =>
         xadd fp acc (xmul fp (xmul fp (mget transmat i j) (vget fr_next j))
                              (vget bwd_next j)))
         (seq 0 nc) (Fin 0))
      scale).

(** Rows t .. ns-1 of the backward lattice, from the frames and scales of
    rows t .. ns-1 (the loop [for t = ns-2 downto 0]). *)
Fixpoint bwd_scaling_loop (fp : fpmode) (nc : nat) (transmat : mat)
    (frs : list vec) (scs : vec) : list vec :=
  match frs, scs with
  | _ :: rest, sc :: scs' =>
      match rest with
      | [] => [tab nc (fun _ => sc)]
      | fr_next :: _ =>
          let nexts := bwd_scaling_loop fp nc transmat rest scs' in
          bwd_scaling_row fp nc transmat fr_next (hd [] nexts) sc :: nexts
      end
  | _, _ => []
  end.

(** ext/_hmmc.cpp:140-172 [backward_scaling]. *)
Definition backward_scaling (fp : fpmode) (startprob : vec) (transmat frameprob : mat)
    (scaling : vec) : res mat :=
  if negb (Nat.eqb (length scaling) (nrow frameprob))
  then Err (ValueError "shape mismatch")
  else shape_guard startprob transmat frameprob (
    let nc := ncol frameprob in
    Ok (Mat nc (bwd_scaling_loop fp nc transmat (rows frameprob) scaling))).

(** ext/_hmmc.cpp:196-203, one step of the log-domain backward pass. *)
Definition bwd_log_row (fp : fpmode) (nc : nat) (log_transmat : mat)
    (lfr_next bwd_next : vec) : vec :=
  tab nc (fun i =>
    logsumexp fp (tab nc (fun j =>
      xadd fp (xadd fp (mget log_transmat i j) (vget lfr_next j)) (vget bwd_next j)))).

Fixpoint bwd_log_loop (fp : fpmode) (nc : nat) (log_transmat : mat)
    (lfrs : list vec) : list vec :=
  match lfrs with
  | [] => []
  | _ :: rest =>
      match rest with
      | [] => [tab nc (fun _ => Fin 0)]
      | lfr_next :: _ =>
          let nexts := bwd_log_loop fp nc log_transmat rest in
          bwd_log_row fp nc log_transmat lfr_next (hd [] nexts) :: nexts
      end
  end.

(** ext/_hmmc.cpp:174-205 [backward_log]. *)
Definition backward_log (fp : fpmode) (startprob : vec) (transmat log_frameprob : mat)
  : res mat :=
  shape_guard startprob transmat log_frameprob (
    let nc := ncol log_frameprob in
    Ok (Mat nc (bwd_log_loop fp nc (mlog fp transmat) (rows log_frameprob)))).

(** Shape test of the xi kernels: ext/_hmmc.cpp:218-222, 252-256. *)
Definition xi_guard {A} (fwd transmat bwd frameprob : mat) (k : res A) : res A :=
  let ns := nrow frameprob in
  let nc := ncol frameprob in
  if negb (Nat.eqb (nrow fwd) ns) || negb (Nat.eqb (ncol fwd) nc)
     || negb (Nat.eqb (nrow transmat) nc) || negb (Nat.eqb (ncol transmat) nc)
     || negb (Nat.eqb (nrow bwd) ns) || negb (Nat.eqb (ncol bwd) nc)
  then Err (ValueError "shape mismatch")
  else k.

(** ext/_hmmc.cpp:207-238 [compute_scaling_xi_sum].  The C++ loops over t
    outermost; each cell (i, j) accumulates its own terms in order of t, which
    is what is written here cell by cell. *)
Definition compute_scaling_xi_sum (fp : fpmode) (fwd transmat bwd frameprob : mat)
  : res mat :=
  xi_guard fwd transmat bwd frameprob (
    let ns := nrow frameprob in
    let nc := ncol frameprob in
    Ok (mtab nc nc (fun i j =>
      fold_left (fun acc t =>
        xadd fp acc
          (xmul fp (xmul fp (xmul fp (mget fwd t i) (mget transmat i j))
                            (mget frameprob (S t) j))
                   (mget bwd (S t) j)))
        (seq 0 (ns - 1)) (Fin 0)))).

(** ext/_hmmc.cpp:240-276 [compute_log_xi_sum]. *)
Definition compute_log_xi_sum (fp : fpmode) (fwd transmat bwd log_frameprob : mat)
  : res mat :=
  xi_guard fwd transmat bwd log_frameprob (
    let ns := nrow log_frameprob in
    let nc := ncol log_frameprob in
    if Nat.eqb ns 0 then Err UB else
    let log_transmat := mlog fp transmat in
    let log_prob := logsumexp fp (nth (ns - 1) (rows fwd) []) in
    Ok (mtab nc nc (fun i j =>
      fold_left (fun acc t =>
        let log_xi :=
          xsub fp
            (xadd fp (xadd fp (xadd fp (mget fwd t i) (mget log_transmat i j))
                              (mget log_frameprob (S t) j))
                     (mget bwd (S t) j))
            log_prob in
        logaddexp fp acc log_xi)
        (seq 0 (ns - 1)) NInf))).

(** ext/_hmmc.cpp:302-310, one step of the Viterbi recursion. *)
Definition vit_row (fp : fpmode) (nc : nat) (log_transmat : mat) (prev lfr : vec) : vec :=
  tab nc (fun i =>
    xadd fp
      (fold_left (fun m j => std_max m (xadd fp (vget prev j) (mget log_transmat j i)))
         (seq 0 nc) NInf)
      (vget lfr i)).

Fixpoint vit_loop (fp : fpmode) (nc : nat) (log_transmat : mat)
    (prev : vec) (lfrs : list vec) : list vec :=
  match lfrs with
  | [] => []
  | lfr :: rest =>
      let row := vit_row fp nc log_transmat prev lfr in
      row :: vit_loop fp nc log_transmat row rest
  end.

(** [std::max] on [std::pair<double, int>] (lexicographic [<]):
    ext/_hmmc.cpp:314-317. *)
Definition pair_ltb (a b : xnum * nat) : bool :=
  xltb (fst a) (fst b)
  || (negb (xltb (fst b) (fst a)) && Nat.ltb (snd a) (snd b)).
Definition pair_max (a b : xnum * nat) : xnum * nat := if pair_ltb a b then b else a.

(** ext/_hmmc.cpp:313-319: best predecessor of [prev] in lattice row [row]. *)
Definition vit_back (fp : fpmode) (nc : nat) (log_transmat : mat) (row : vec) (prev : nat)
  : nat :=
  snd (fold_left (fun m i =>
         pair_max m (xadd fp (vget row i) (mget log_transmat i prev), i))
         (seq 0 nc) (NInf, 0%nat)).

(** State sequence for the lattice rows 0..ns-1, filled from the end:
    ext/_hmmc.cpp:311-319. *)
Fixpoint vit_trace (fp : fpmode) (nc : nat) (log_transmat : mat) (lat : list vec)
  : list nat :=
  match lat with
  | [] => []
  | row :: rest =>
      match rest with
      | [] => [max_element_idx row]
      | _ :: _ =>
          let tl := vit_trace fp nc log_transmat rest in
          vit_back fp nc log_transmat row (hd 0%nat tl) :: tl
      end
  end.

(** ext/_hmmc.cpp:278-322 [viterbi]: (log_prob, state_sequence). *)
Definition viterbi (fp : fpmode) (startprob : vec) (transmat log_frameprob : mat)
  : res (xnum * list nat) :=
  shape_guard startprob transmat log_frameprob (
    let nc := ncol log_frameprob in
    let log_startprob := vlog fp startprob in
    let log_transmat := mlog fp transmat in
    match rows log_frameprob with
    | [] => Err UB
    | lfr0 :: rest =>
        let row0 := tab nc (fun i => xadd fp (vget log_startprob i) (vget lfr0 i)) in
        let lat := row0 :: vit_loop fp nc log_transmat row0 rest in
        let path := vit_trace fp nc log_transmat lat in
        Ok (vget (last lat []) (last path 0%nat), path)
    end).
