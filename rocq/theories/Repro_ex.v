(** * The choice of the generator: concrete runs. *)
From Verif Require Export Repro_thms.

(** An integer given to [sample] or stored in the estimator gives the same
    samples; a generator in another state gives others. *)
Lemma C75_applies_l : let gen := cat_gen exact (r_rand toy_rng) in
  sample_with categorical exact toy_rng gen (Est (seeded_h toy_mon) (RSSeed 7)) 2%nat 1 RSNone None = Ok ([2%nat], [1%Z], (RSNone, RSSeed 7, 2%nat))
  /\ sample_with categorical exact toy_rng gen (Est (seeded_h toy_mon) RSNone) 2%nat 1 (RSSeed 7) None = Ok ([2%nat], [1%Z], (RSSeed 7, RSNone, 2%nat))
  /\ sample_with categorical exact toy_rng gen (Est (seeded_h toy_mon) (RSGen 0%nat)) 2%nat 1 RSNone None = Ok ([2%nat], [1%Z], (RSNone, RSGen 2%nat, 2%nat))
  /\ sample_with categorical exact toy_rng gen (Est (seeded_h toy_mon) (RSGen 2%nat)) 2%nat 1 RSNone None = Ok ([1%nat], [1%Z], (RSNone, RSGen 4%nat, 2%nat))
  /\ sample_with categorical exact toy_rng gen (Est (seeded_h toy_mon) RSNone) 2%nat 1 RSNone None = Ok ([1%nat], [1%Z], (RSNone, RSNone, 4%nat)).
Proof.
  cbv zeta. destruct (sample_fitted _ _ _ (seeded_sample toy_mon 0%nat (or_introl eq_refl))) as [q Hq].
  assert (S0 := seeded_sample toy_mon 0%nat (or_introl eq_refl)). assert (S2 := seeded_sample toy_mon 2%nat (or_intror eq_refl)).
  cbn [Nat.eqb] in S0, S2. unfold sample_with. cbn [e_rs e_hmm]. rewrite Hq. cbn [bind rs_get r_seed toy_rng Z.ltb Z.compare].
  fold toy_rng. repeat split; cbn [bind]; first [rewrite S0|rewrite S2]; reflexivity.
Qed.
