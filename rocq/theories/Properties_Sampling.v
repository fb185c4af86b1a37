(** * Properties C15-C17 (sampling).  Theorems only; proofs in Sample_thms.v. *)
From Verif Require Import Sample_thms.

(** C15.  The states returned by [sample] are exactly those obtained by
    inverting the cumulative distributions, one uniform draw per state. *)
Theorem C15_sample_inverts_cdf {P X St : Type} (E : emclass P X St) h h' nc pi A ok b
    {G Y : Type} (rand : G -> R * G) (gen : hmm P -> Z -> G -> res (Y * G)) :
  ready E h nc pi A ok b -> check E exact h = Ok h' -> uniform_range rand ->
  (forall i, (i < nc)%nat -> 1 <= sumn nc (A i)) -> 1 <= sumn nc pi ->
  forall n g ys zs g',
  sample E exact rand gen h n None g = Ok (ys, zs, g')
  <-> exists u g1 c y g2 ys' zs', rand g = (u, g1) /\ inverse_cdf nc pi u c
      /\ gen h' (Z.of_nat c) g1 = Ok (y, g2)
      /\ chain rand (fun i => gen h' (Z.of_nat i)) nc A c g2 ys' zs' g'
      /\ ys = y :: ys' /\ zs = map Z.of_nat (c :: zs') /\ length zs' = Z.to_nat (n - 1).
Proof. intros Rd Hc Hr HA Hpi n g ys zs g'. exact (sample_start E h h' nc pi A ok b Rd Hc rand gen Hr HA Hpi n g ys zs g'). Qed.
Print Assumptions C15_sample_inverts_cdf.

Theorem C15_sample_currstate_inverts_cdf {P X St : Type} (E : emclass P X St) h h' nc pi A ok b
    {G Y : Type} (rand : G -> R * G) (gen : hmm P -> Z -> G -> res (Y * G)) :
  ready E h nc pi A ok b -> check E exact h = Ok h' -> uniform_range rand ->
  (forall i, (i < nc)%nat -> 1 <= sumn nc (A i)) ->
  forall n c g ys zs g', (c < nc)%nat ->
  sample E exact rand gen h n (Some (Z.of_nat c)) g = Ok (ys, zs, g')
  <-> exists y g2 ys' zs', gen h' (Z.of_nat c) g = Ok (y, g2)
      /\ chain rand (fun i => gen h' (Z.of_nat i)) nc A c g2 ys' zs' g'
      /\ ys = y :: ys' /\ zs = map Z.of_nat (c :: zs') /\ length zs' = Z.to_nat (n - 1).
Proof. intros Rd Hc Hr HA n c g ys zs g' Hl. exact (sample_from E h h' nc pi A ok b Rd Hc rand gen Hr HA n c g ys zs g' Hl). Qed.
Print Assumptions C15_sample_currstate_inverts_cdf.

(** The draws that select state [i] first (resp. after [c]) form an interval
    whose length is the probability of [i]. *)
Theorem C15_start_interval {P X St : Type} (E : emclass P X St) h h' nc pi A ok b
    {G Y : Type} (rand : G -> R * G) (gen : hmm P -> Z -> G -> res (Y * G)) :
  ready E h nc pi A ok b -> check E exact h = Ok h' -> uniform_range rand ->
  forall i, sumn nc pi = 1 -> (i < nc)%nat ->
  (forall i g, (i < nc)%nat -> exists r, gen h' (Z.of_nat i) g = Ok r) ->
  exists lo hi, 0 <= lo /\ hi <= 1 /\ hi - lo = pi i /\
    forall g, (exists ys g', sample E exact rand gen h 1 None g = Ok (ys, [Z.of_nat i], g'))
              <-> lo <= fst (rand g) < hi.
Proof. intros Rd Hc Hr i Hs Hi Ht. exact (interval_start E h h' nc pi A ok b Rd Hc rand gen Hr i Hs Hi Ht). Qed.
Print Assumptions C15_start_interval.

Theorem C15_transition_interval {P X St : Type} (E : emclass P X St) h h' nc pi A ok b
    {G Y : Type} (rand : G -> R * G) (gen : hmm P -> Z -> G -> res (Y * G)) :
  ready E h nc pi A ok b -> check E exact h = Ok h' -> uniform_range rand ->
  forall c i, (c < nc)%nat -> sumn nc (A c) = 1 -> (i < nc)%nat ->
  (forall i g, (i < nc)%nat -> exists r, gen h' (Z.of_nat i) g = Ok r) ->
  exists lo hi, 0 <= lo /\ hi <= 1 /\ hi - lo = A c i /\
    forall g y g1, gen h' (Z.of_nat c) g = Ok (y, g1) ->
      (exists ys g', sample E exact rand gen h 2 (Some (Z.of_nat c)) g
                     = Ok (ys, [Z.of_nat c; Z.of_nat i], g'))
      <-> lo <= fst (rand g1) < hi.
Proof. intros Rd Hc Hr c i H1 H2 H3 H4. exact (interval_step E h h' nc pi A ok b Rd Hc rand gen Hr c i H1 H2 H3 H4). Qed.
Print Assumptions C15_transition_interval.

(** C16.  With start and transition probabilities that sum to exactly 1, no
    impossible path is sampled; for CategoricalHMM the joint probability of the
    sampled observations and states is positive. *)
Theorem C16_sampled_path_possible {P X St : Type} (E : emclass P X St) h h' nc pi A ok b
    {G Y : Type} (rand : G -> R * G) (gen : hmm P -> Z -> G -> res (Y * G)) :
  ready E h nc pi A ok b -> check E exact h = Ok h' -> uniform_range rand ->
  forall n cs g ys zs g',
  sumn nc pi = 1 -> (forall i, (i < nc)%nat -> sumn nc (A i) = 1) ->
  (forall c, cs = Some c -> 0 <= c < Z.of_nat nc)%Z ->
  sample E exact rand gen h n cs g = Ok (ys, zs, g') ->
  exists z, zs = map Z.of_nat z /\ is_path nc (length zs) z
    /\ (cs = None -> 0 < pi (nth 0 z 0%nat))
    /\ forall t, (S t < length z)%nat -> 0 < A (nth t z 0%nat) (nth (S t) z 0%nat).
Proof. intros Rd Hc Hr n cs g ys zs g'. exact (path_positive E h h' nc pi A ok b Rd Hc rand gen Hr n cs g ys zs g'). Qed.
Print Assumptions C16_sampled_path_possible.

Theorem C16_categorical_sample_possible h h' nc nf pi A e {G : Type} (rand : G -> R * G) :
  cat_model h nc nf pi A e -> check categorical exact h = Ok h' -> uniform_range rand ->
  sumn nc pi = 1 -> (forall i, (i < nc)%nat -> sumn nc (A i) = 1) ->
  (forall i, (i < nc)%nat -> sumn nf (e i) = 1) ->
  forall n g ys zs g',
  sample categorical exact rand (cat_gen exact rand) h n None g = Ok (ys, zs, g') ->
  exists z, zs = map Z.of_nat z /\ is_path nc (length ys) z
    /\ Forall (sym_ok nf) (map Z.of_nat ys)
    /\ 0 < seq_joint pi A (cat_b e) (map Z.of_nat ys) z.
Proof. intros CM Hc Hr H1 H2 H3 n g ys zs g'. exact (cat_sample_pos h h' nc nf pi A e CM Hc rand Hr H1 H2 H3 n g ys zs g'). Qed.
Print Assumptions C16_categorical_sample_possible.

(** False of the code for parameters that only pass [_check]: with startprob_ =
    [0, 1 - 1e-6] a draw above 1 - 1e-6 selects the impossible state 0. *)
Theorem C16_sampled_path_possible_refuted : exists h (pi : nat -> R) y,
  ready categorical h 2 pi ex_A (sym_ok 3) (cat_b ex_e)
  /\ uniform_range bad_rand
  /\ sample categorical exact bad_rand (cat_gen exact bad_rand) h 1 None tt = Ok ([y], [0]%Z, tt)
  /\ pi 0%nat = 0.
Proof. exact bad_sample_impossible. Qed.
Print Assumptions C16_sampled_path_possible_refuted.

(** C17.  Number of samples, range of the states, first state. *)
Theorem C17_sample_shape {P X St : Type} (E : emclass P X St) h h' nc pi A ok b
    {G Y : Type} (rand : G -> R * G) (gen : hmm P -> Z -> G -> res (Y * G)) :
  ready E h nc pi A ok b -> check E exact h = Ok h' ->
  forall n cs g ys zs g', (1 <= n)%Z -> (forall c, cs = Some c -> 0 <= c < Z.of_nat nc)%Z ->
  sample E exact rand gen h n cs g = Ok (ys, zs, g') ->
  length ys = Z.to_nat n
  /\ (exists zs', zs = map Z.of_nat zs' /\ is_path nc (Z.to_nat n) zs')
  /\ (forall c, cs = Some c -> nth 0 zs 0%Z = c).
Proof. intros Rd Hc n cs g ys zs g'. exact (sample_shape E h h' nc pi A ok b Rd Hc rand gen n cs g ys zs g'). Qed.
Print Assumptions C17_sample_shape.

Theorem C17_sample_succeeds {P X St : Type} (E : emclass P X St) h h' nc pi A ok b
    {G Y : Type} (rand : G -> R * G) (gen : hmm P -> Z -> G -> res (Y * G)) :
  ready E h nc pi A ok b -> check E exact h = Ok h' ->
  forall n cs g, (forall i g, (i < nc)%nat -> exists r, gen h' (Z.of_nat i) g = Ok r) ->
  (forall c, cs = Some c -> 0 <= c < Z.of_nat nc)%Z ->
  exists r, sample E exact rand gen h n cs g = Ok r.
Proof. intros Rd Hc n cs g. exact (sample_total E h h' nc pi A ok b Rd Hc rand gen n cs g). Qed.
Print Assumptions C17_sample_succeeds.

(** Continuing: [sample(m+1, currstate=last)] first re-emits from the last state
    (ending in the generator state where the first call stopped) and then
    produces exactly the remaining [m] samples of [sample(n+m)]. *)
Theorem C17_sample_continues {P X St : Type} (E : emclass P X St) h h' nc pi A ok b
    {G Y : Type} (rand : G -> R * G) (gen : hmm P -> Z -> G -> res (Y * G)) :
  ready E h nc pi A ok b -> check E exact h = Ok h' ->
  forall n m cs g ys zs g1 g0 y0 ys2 zs2 g2, (1 <= n)%Z -> (0 <= m)%Z ->
  sample E exact rand gen h n cs g = Ok (ys, zs, g1) ->
  gen h' (last zs 0%Z) g0 = Ok (y0, g1) ->
  (sample E exact rand gen h (n + m) cs g = Ok (ys ++ ys2, zs ++ zs2, g2)
   <-> sample E exact rand gen h (m + 1) (Some (last zs 0%Z)) g0
       = Ok (y0 :: ys2, last zs 0%Z :: zs2, g2)).
Proof. intros Rd Hc n m cs g ys zs g1 g0 y0 ys2 zs2 g2. exact (sample_continue E h h' nc pi A ok b Rd Hc rand gen n m cs g ys zs g1 g0 y0 ys2 zs2 g2). Qed.
Print Assumptions C17_sample_continues.

(** The hypotheses hold, and the sampler runs, for the example model. *)
Example C15_C16_C17_example :
  ready categorical (ex_h "log" "viterbi") 2 ex_pi ex_A (sym_ok 3) (cat_b ex_e)
  /\ uniform_range ex_rand
  /\ sumn 2 ex_pi = 1 /\ (forall i, (i < 2)%nat -> sumn 2 (ex_A i) = 1)
  /\ sample categorical exact ex_rand (cat_gen exact ex_rand) (ex_h "log" "viterbi") 2 None tt
     = Ok ([2; 2]%nat, [1; 1]%Z, tt).
Proof. exact (conj (ex_ready _ _) (conj ex_rand_range (conj ex_pi_sum (conj ex_A_sum ex_sample)))). Qed.
