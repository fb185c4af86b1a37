-Q theories Verif
theories/XR.v
theories/Arr.v
theories/Hmmc.v
theories/Spec.v
theories/Sums.v
theories/Paths.v
theories/Link.v
theories/XRL.v
theories/Viterbi_proofs.v
theories/Kernel_proofs.v
theories/Utils.v
theories/Base.v
theories/Categorical.v
theories/Ready.v
theories/Inference_proofs.v
theories/Decode_proofs.v
theories/Categorical_proofs.v
theories/Api_proofs.v
theories/Examples.v
theories/Float64.v
theories/Inference_thms.v
theories/Properties_Inference.v
theories/EMath.v
theories/EStep_proofs.v
theories/Train_proofs.v
theories/Categorical_train.v
theories/Fit_proofs.v
theories/Run_proofs.v
theories/Gen_fit.v
theories/Cat_fit.v
theories/Rows.v
theories/Rows_proofs.v
theories/Poisson.v
theories/Poisson_proofs.v
theories/Poisson_thms.v
theories/Gaussian.v
theories/Gauss_arr.v
theories/Gauss_dens.v
theories/Gauss_proofs.v
theories/Gauss_round.v
theories/Gauss_thms.v
theories/Gauss_ex.v
theories/Spec_mat.v
theories/Matrix.v
theories/Chol.v
theories/Full_dens.v
theories/Full_thms.v
theories/Full_math.v
theories/Full_train.v
theories/Full_fit.v
theories/Full_fit_thms.v
theories/Full_ex.v
theories/Multinomial.v
theories/Mult_proofs.v
theories/Mult_thms.v
theories/Nd.v
theories/Gmm.v
theories/Nd_proofs.v
theories/Gmm_dens.v
theories/Gmm_proofs.v
theories/Gmm_gain.v
theories/Gmm_thms.v
theories/Gmm_ex.v
theories/Properties_Gmm.v
theories/Properties_Emissions.v
theories/Training_thms.v
theories/Properties_Training.v
theories/Sample.v
theories/Spec_sample.v
theories/Sample_proofs.v
theories/Sample_thms.v
theories/Properties_Sampling.v
theories/Spec_checks.v
theories/Checks_thms.v
theories/Init.v
theories/Total.v
theories/Init_gmm.v
theories/Spec_init.v
theories/Init_proofs.v
theories/Refit_proofs.v
theories/Init_fit.v
theories/Init_thms.v
theories/Refit_thms.v
theories/Alphabet_thms.v
theories/Criteria_thms.v
theories/Total_thms.v
theories/Init_gmm_thms.v
theories/Noinit_thms.v
theories/Checks2_thms.v
theories/Properties_Checks.v
theories/Properties_Init.v
theories/Special.v
theories/Vbase.v
theories/Vcat.v
theories/Spec_var.v
theories/Vmath.v
theories/Vready.v
theories/Vbase_proofs.v
theories/Vcat_proofs.v
theories/Vcat_thms.v
theories/Vcat_use.v
theories/Vcat_ex.v
theories/Kl.v
theories/Spec_vg.v
theories/Kl_math.v
theories/Kl_proofs.v
theories/Kl_thms.v
theories/Vgauss.v
theories/Vg_math.v
theories/Vg_ready.v
theories/Vg_proofs.v
theories/Vg_thms.v
theories/Vg_use.v
theories/Vg_ex.v
theories/Covars_proofs.v
theories/Covars_thms.v
theories/Covars_ex.v
theories/Spec_vinit.v
theories/Vinit_thms.v
theories/Vg_init.v
theories/Vcheck_thms.v
theories/Properties_Vinit.v
theories/Properties_Variational.v
theories/Properties_Covars.v
theories/Stationary.v
theories/Spec_stat.v
theories/Stat_proofs.v
theories/Sample_em.v
theories/Spec_sample_em.v
theories/Sample_em_thms.v
theories/Repro_thms.v
theories/Properties_Emitted.v
theories/Mass_thms.v
theories/Properties_Mass.v
theories/Stat_thms.v
theories/Spec_round.v
theories/Round_proofs.v
theories/Round_thms.v
theories/Properties_Numeric.v
theories/Fresh.v
theories/Fresh_thms.v
theories/Gauss_total.v
theories/Fresh_em.v
theories/Fresh_ex.v
theories/Fresh_gmm.v
theories/Properties_Fresh.v
theories/Relabel.v
theories/Relabel_em.v
theories/Relabel_thms.v
theories/Relabel_gmm.v
theories/Relabel_ex.v
theories/Relabel_gmm_ex.v
theories/Properties_Relabel.v
theories/Hyper_thms.v
theories/Hyper_ex.v
theories/Properties_Hyper.v
theories/Starts_thms.v
theories/Starts_ex.v
theories/Properties_Starts.v
theories/Interrupt.v
theories/Query.v
theories/Interrupt_thms.v
theories/Interrupt_args.v
theories/Interrupt_ex.v
theories/Properties_Interrupt.v
theories/Warm_thms.v
theories/Warm_again.v
theories/Warm_ex.v
theories/Warm_v.v
theories/Warm_vex.v
theories/Query_thms.v
theories/Query_again.v
theories/Query_first.v
theories/Query_ex.v
theories/Properties_Warm.v
theories/Degen_thms.v
theories/Degen_ex.v
theories/Properties_Degen.v
theories/Properties_Query.v
theories/Seed_v.v
theories/Properties_Seed.v
theories/Vinterrupt.v
theories/Vinterrupt_thms.v
theories/Vinterrupt_args.v
theories/Vinterrupt_retry.v
theories/Vinterrupt_prior.v
theories/Vinterrupt_ex.v
theories/Properties_Vinterrupt.v
theories/Vpredict.v
theories/Agree_thms.v
theories/Agree_v.v
theories/Unfitted_thms.v
theories/Agree_ex.v
theories/Properties_Agree.v
theories/Recode.v
theories/Recode_em.v
theories/Recode_thms.v
theories/Recode_ex.v
theories/Properties_Recode.v
theories/Stop.v
theories/Stop_thms.v
theories/Limit_thms.v
theories/Settle_thms.v
theories/Stop_ex.v
theories/Vstop_thms.v
theories/Vstop_ex.v
theories/Properties_Stop.v
theories/Construct.v
theories/Clone_thms.v
theories/Clone_ex.v
theories/Properties_Clone.v
theories/Vmore_ex.v
theories/Assign_ex.v
theories/Repro_ex.v
theories/Round_post.v
theories/Post_thms.v
theories/Post_ex.v
theories/Repeat.v
theories/Repeat_thms.v
theories/Repeat_ex.v
theories/Properties_Repeat.v
theories/Lump.v
theories/Lump_thms.v
theories/Lump_ex.v
theories/Properties_Lump.v
theories/Alike.v
theories/Alike_ex.v
theories/Alike_gmm.v
theories/Alike_gmm_ex.v
theories/Properties_Alike.v
theories/Reverse.v
theories/Reverse_thms.v
theories/Reverse_ex.v
theories/Properties_Reverse.v
theories/Lump_many.v
theories/Reverse_many.v
theories/Lump_many_v.v
theories/Lump_many_ex.v
theories/Many_ex.v
theories/Properties_Many.v
theories/Filter.v
theories/Filter_thms.v
theories/Filter_ex.v
theories/Properties_Filter.v
theories/Memoryless.v
theories/Memoryless_thms.v
theories/Memoryless_ex.v
theories/Properties_Memoryless.v
theories/Map_more.v
theories/Map_more_ex.v
theories/Properties_Map.v
