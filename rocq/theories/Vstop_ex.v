(** * Properties C23, C88, C89: a VariationalCategoricalHMM. *)
From Verif Require Export Vstop_thms Vcat_ex.

(** Training settles; with [n_iter = 3] the tolerance or the limit has ended it. *)
Lemma C89_vcategorical_settles_applies_l : forall k, v_settles vcategorical (ex_v "ste" k) [0; 1; 1; 0; 1]%Z [3; 2]%nat (/ 100).
Proof.
  intros k. apply (C89_vcategorical_settles_l (ex_v "ste" k) 2 2 ex_pr ex_vpo [3; 2]%nat _ (/ 100) (ex_v_model _ _) ex_v_data);
    [reflexivity|left; reflexivity|reflexivity|reflexivity|lra].
Qed.
Lemma C23_variational_applies_l : exists v' ev,
  vfit_from vcategorical exact (ex_v "ste" 3) [0; 1; 1; 0; 1]%Z [3; 2]%Z = Ok (v', ev)
  /\ (length (v_history v') = 3%nat \/ length (v_history v') = 2%nat)
  /\ (length (v_history v') = 2%nat -> exists a z, v_history v' = [a; z] /\ xlt (xsub exact z a) (Fin (/ 100))).
Proof.
  destruct C46_applies_l as (v' & ev & H & Hne & _). change (map Z.of_nat [3%nat; 2%nat]) with [3; 2]%Z in H.
  exists v', ev. split; [exact H|].
  pose proof (C23_variational_l vcategorical exact (ex_v "ste" 3) _ _ v' ev eq_refl eq_refl H) as C. cbv zeta in C.
  destruct C as (_ & Hle & _ & Hs & _). change (c_n_iter (v_cfg (ex_v "ste" 3))) with 3%nat in *.
  destruct (v_history v') as [|a [|b [|c [|d r]]]]; [contradiction|..]; cbn [length] in *; [..|lia].
  - exfalso. destruct Hs as [Hs|(h & a' & z & E & _)]; [discriminate|]. destruct h as [|? [|]]; discriminate.
  - split; [auto|]. intros _. destruct Hs as [Hs|(h & a' & z & E & Hx)]; [discriminate|].
    destruct h as [|u [|w h]]; [|discriminate|destruct h; discriminate]. injection E as <- <-. exists a, b. auto.
  - split; [auto|discriminate].
Qed.
