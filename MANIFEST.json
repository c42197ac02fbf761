{
 "claims": [
  {
   "property": "C01",
   "status": "proved",
   "theorems": [
    "C01_kepler_equation_unique_solution",
    "C01_python_solver_accurate",
    "C01_c_solver_accurate",
    "C01_c_solver_at_most_29_corrections",
    "C01_solvers_terminate_low_eccentricity"
   ],
   "note": "Existence and uniqueness of the root, accuracy 1e-12/(1-e) of every returned value for both solvers, and the cap on the C solver's corrections are proved for all M and all e in [0,1). Beyond the claim, both solvers are shown to return for 0<=e<=0.3 (C01_solvers_terminate_low_eccentricity), and for all e<=0.99 in C87; between 0.99 and 1 the C solver is bounded by construction and the NumPy loop's termination is neither claimed nor proved."
  },
  {
   "property": "C02",
   "status": "proved",
   "theorems": [
    "C02_solver_elementwise",
    "C02_array_equals_single_calls",
    "C02_array_terminates_with_its_elements",
    "C02_empty_array_raises"
   ],
   "note": "All parts proved. An empty time array makes the NumPy solver raise (recorded as C02_empty_array_raises)."
  },
  {
   "property": "C03",
   "status": "proved",
   "theorems": [
    "C03_rv_drive_is_keplerian",
    "C03_velocity_is_unique",
    "C03_circular_orbit_exact",
    "C03_periodic_in_time",
    "C03_periodic_in_tp",
    "C03_periodic_in_omega",
    "C03_linear_in_K",
    "C03_bounded",
    "C03_rv_drive_returns_low_eccentricity"
   ],
   "note": "Keplerian form (within the solver tolerance), periodicity, linearity and bounds hold for every returned value. Beyond the claim, rv_drive is shown to return for e<=0.3 (C03_rv_drive_returns_low_eccentricity), and for all e in C87."
  },
  {
   "property": "C04",
   "status": "proved",
   "theorems": [
    "C04_c_and_numpy_formulas_equal",
    "C04_back_ends_agree",
    "C04_circular_shortcut"
   ],
   "note": "Back ends agree within a bound derived from the solver tolerance."
  },
  {
   "property": "C05",
   "status": "partial",
   "theorems": [
    "C05_clamped_partial",
    "C05_negative_e_is_circular_partial",
    "C05_negative_period_circular_refuted"
   ],
   "note": "Clamps hold on the eccentric path. Refuted for e == 0 with a negative period: the circular shortcut does not clamp the period (C05_negative_period_circular_refuted)."
  },
  {
   "property": "C06",
   "status": "proved",
   "theorems": [
    "C06_round_trip",
    "C06_transit_means_conjunction",
    "C06_transit_means_conjunction_everywhere",
    "C06_periastron_of_transit",
    "C06_transit_within_half_period",
    "C06_omega_modulo_2pi",
    "C06_unbound_returns_input"
   ],
   "note": "Round trip, conjunction and periodicity proved."
  },
  {
   "property": "C07",
   "status": "partial",
   "theorems": [
    "C07_secondary_means_superior_conjunction",
    "C07_first_after_periastron_partial",
    "C07_first_after_periastron_refuted",
    "C07_range_partial",
    "C07_array_partial",
    "C07_array_error_refuted"
   ],
   "note": "The returned instant is a superior conjunction. That it is the first one after periastron is refuted when cos(omega) <= 0, and the array form raises ValueError in those cases."
  },
  {
   "property": "C08",
   "status": "partial",
   "theorems": [
    "C08_conversion_keeps_elements",
    "C08_synth_to_basis_and_back_partial",
    "C08_basis_to_synth_and_back",
    "C08_circular_tp_refuted"
   ],
   "note": "Conversion between any two of the nine bases keeps the orbit (period, e, k exactly; omega and tp exactly for e>0 or when the basis stores them); basis->synth->basis reproduces every value; synth->basis->synth proved up to the circular case. Refuted at e=0: tp moves by half a period for omega=pi (C08_circular_tp_refuted)."
  },
  {
   "property": "C09",
   "status": "proved",
   "theorems": [
    "C09_to_synth_agrees",
    "C09_from_synth_agrees",
    "C09_to_any_basis_agrees"
   ],
   "note": "All nine bases, any number of planets, to synth, from synth and any-to-any; the vector conversion agrees slot by slot with the dictionary conversion."
  },
  {
   "property": "C10",
   "status": "proved",
   "theorems": [
    "C10_to_any_basis_frame",
    "C10_to_synth_frame",
    "C10_planet_from_own_elements"
   ],
   "note": "Parameter objects, the caller's dictionary and the non-orbital entries are unchanged; each planet is converted from its own values. The caller's basis NAME can be rewritten by from_synth: this is treated under C11."
  },
  {
   "property": "C11",
   "status": "partial",
   "theorems": [
    "C11_repeatable_partial",
    "C11_repeatable_refuted"
   ],
   "note": "Holds for histories of conversions to the four bases whose from_synth branch leaves self.name alone (C11_repeatable_partial). Refuted for the other five: after one conversion every further conversion of the same object raises KeyError."
  },
  {
   "property": "C12",
   "status": "partial",
   "theorems": [
    "C12_same_elements_partial",
    "C12_same_velocities_partial",
    "C12_no_model_refuted",
    "C12_wrong_tp_refuted"
   ],
   "note": "Of the 81 ordered pairs, 37 give a model with the same elements and velocities; 42 give a set from which no Vector can be built (ValueError) and 2 give a model that reads the transit time as periastron time."
  },
  {
   "property": "C13",
   "status": "proved",
   "theorems": [
    "C13_round_trip",
    "C13_vector_holds_parameters",
    "C13_vector_to_dict",
    "C13_slots_distinct",
    "C13_slots_in_range",
    "C13_slot_positions"
   ],
   "note": "Round trip, slots, write-back for all layouts (sets holding exactly the parameters of one basis per planet, plus extras)."
  },
  {
   "property": "C14",
   "status": "proved",
   "theorems": [
    "C14_names_match_indices"
   ],
   "note": "Names agree with slot indices for complete layouts. Sets lacking an orbital parameter shift the names (not covered by the layout hypothesis)."
  },
  {
   "property": "C15",
   "status": "partial",
   "theorems": [
    "C15_copy_partial",
    "C15_deleted_key_refuted",
    "C15_after_conversion_refuted"
   ],
   "note": "Every entry survives copy/deepcopy/pickle. Refuted for sets from which a basis parameter was deleted (it returns with value None) and for sets once converted with a renaming basis."
  },
  {
   "property": "C16",
   "status": "proved",
   "theorems": [
    "C16_superposition",
    "C16_planets_summed",
    "C16_zero_amplitude_contributes_nothing",
    "C16_pointwise",
    "C16_call_returns",
    "C16_returns_at_moderate_eccentricity"
   ],
   "note": "Superposition over all planets or a chosen one; pointwise in time; zero amplitudes; the call returns for e<=0.3 here and for all e in C87."
  },
  {
   "property": "C17",
   "status": "partial",
   "theorems": [
    "C17_set_then_get_partial",
    "C17_set_back_partial",
    "C17_wrong_length",
    "C17_set_with_dictionary",
    "C17_stale_cache_refuted"
   ],
   "note": "Holds whenever the cached list of varied rows is absent or up to date (set/get lens, restoring, wrong lengths, fast=False). Refuted when flags are edited after the list was cached and the number of varied parameters is unchanged: a fixed parameter is overwritten."
  },
  {
   "property": "C18",
   "status": "partial",
   "theorems": [
    "C18_likelihood_history",
    "C18_posterior_history_partial",
    "C18_linear_gamma_prior_refuted"
   ],
   "note": "Proved from the constructors for RV likelihoods and composites, linear or ordinary offsets, with decorrelation; for posteriors with any library prior not attached to a marginalised offset. Refuted for a prior on a marginalised (linear) gamma: its value depends on the previous call."
  },
  {
   "property": "C19",
   "status": "proved",
   "theorems": [
    "C19_gaussian",
    "C19_residuals",
    "C19_order",
    "C19_combine"
   ],
   "note": "All parts proved, order independence for the actual RV model."
  },
  {
   "property": "C20",
   "status": "proved",
   "theorems": [
    "C20_marginalisation"
   ],
   "note": "The stored offset minimises chi-squared and logprob is the log of the (improper) integral over gamma; Gaussian integral proved."
  },
  {
   "property": "C21",
   "status": "partial",
   "theorems": [
    "C21_bic",
    "C21_aic",
    "C21_posterior_aic_refuted",
    "C21_posterior_bic"
   ],
   "note": "bic and aic formulas proved for likelihoods and Posterior.bic. Refuted for Posterior.aic, which raises TypeError."
  },
  {
   "property": "C22",
   "status": "proved",
   "theorems": [
    "C22_hard_bounds",
    "C22_jeffreys",
    "C22_modified_jeffreys",
    "C22_gaussian",
    "C22_gaussian_shape"
   ],
   "note": "All four priors, through their constructors, improper integrals over the real line."
  },
  {
   "property": "C23",
   "status": "proved",
   "theorems": [
    "C23_hard_bounds",
    "C23_jeffreys",
    "C23_modified_jeffreys",
    "C23_gaussian"
   ],
   "note": "All four priors; norm.ppf is a function argument assumed to be the standard normal quantile function (one is proved to exist)."
  },
  {
   "property": "C24",
   "status": "partial",
   "theorems": [
    "C24_eccentricity",
    "C24_positive_k_partial",
    "C24_positive_k_logk_partial",
    "C24_positive_k_logk_refuted"
   ],
   "note": "Eccentricity prior in all nine bases. PositiveKPrior holds when k is a parameter; refuted with logk: the index dictionary contains k for every planet, so log K is tested and K<1 is rejected."
  },
  {
   "property": "C25",
   "status": "proved",
   "theorems": [
    "C25_sum",
    "C25_rejects",
    "C25_order"
   ],
   "note": "All parts proved; a prior that raises makes logprob raise (lemma post_raises)."
  },
  {
   "property": "C26",
   "status": "proved",
   "theorems": [
    "C26_check",
    "C26_otherwise_raises"
   ],
   "note": "Exact characterisation; otherwise ValueError."
  },
  {
   "property": "C27",
   "status": "proved",
   "theorems": [
    "C27_transform"
   ],
   "note": "Both modes."
  },
  {
   "property": "C28",
   "status": "partial",
   "theorems": [
    "C28_factorisation_partial",
    "C28_outside_is_finite",
    "C28_never_infinite",
    "C28_outside",
    "C28_secondary_eclipse_refuted",
    "C28_dropped_prior_refuted"
   ],
   "note": "Holds for the library's named priors and the two constraints with a finite keyword. Refuted: SecondaryEclipsePrior raises TypeError; priors attached through param_list are in neither factor."
  },
  {
   "property": "C29",
   "status": "partial",
   "theorems": [
    "C29_guard",
    "C29_improper",
    "C29_unknown",
    "C29_kwargs_partial",
    "C29_kwargs_managed_partial",
    "C29_second_call",
    "C29_kwargs_refuted"
   ],
   "note": "Guard and improper-prior parts proved; 'kwargs are not modified' is false for non-empty dictionaries (refuted): the back ends write resume/checkpoint_file/... into the caller's dictionary, so a second call with it raises. Proved: only the managed keys change."
  },
  {
   "property": "C30",
   "status": "partial",
   "theorems": [
    "C30_sqexp",
    "C30_per",
    "C30_quasiper_partial",
    "C30_quasiper_unclipped_partial",
    "C30_quasiper_refuted",
    "C30_quasiper_zero_partial",
    "C30_zero_branch_refuted",
    "C30_zero_length_refuted"
   ],
   "note": "SqExp and Per: proved for all times, errors and non-zero length scales and periods (with length 0 the code yields nan). QuasiPer: entries proved; definiteness refuted because exponents are clipped at -100 (indefinite matrix with all errors positive), proved when err^2 > 2 n amp^2 e^-100 or when no exponent is clipped. The branch for a zero hyper-parameter returns diag(err^2), which contradicts the diagonal claim for amp > 0."
  },
  {
   "property": "C31",
   "status": "partial",
   "theorems": [
    "C31_gp_history_partial",
    "C31_stale_covariance_refuted",
    "C31_failed_predict_refuted"
   ],
   "note": "Refuted: QuasiPer with a zero hyper-parameter does not assign kernel.covmatrix, so logprob uses the matrix of the previous evaluation; a predict() that raises leaves the distances of its own grid. Proved for all other histories: any sequence of logprob() calls and of predict() calls that returned, SqExp, Per, and QuasiPer with non-zero hyper-parameters."
  },
  {
   "property": "C32",
   "status": "partial",
   "theorems": [
    "C32_celerite_sorted_partial",
    "C32_celerite_predict",
    "C32_celerite_unsorted_refuted"
   ],
   "note": "Refuted for unsorted input: the solver receives the times in the given order and the variances and residuals in time order. Proved for input in time order (ties allowed, any argsort), and for predict() in any order."
  },
  {
   "property": "C33",
   "status": "partial",
   "theorems": [
    "C33_accounting_partial",
    "C33_rounds",
    "C33_requested_refuted"
   ],
   "note": "Steps, ncomplete and burn-in count proved for every round of every new run with checkinterval >= 2 and any convergence history; the number of rounds is nrun/(checkinterval-1) rounded. Refuted: nrun is not an upper bound on the steps per walker (2 requested, 3 taken; 10000 requested with the defaults means 204 rounds of 50). checkinterval = 1 divides by zero (modelled)."
  },
  {
   "property": "C34",
   "status": "proved",
   "theorems": [
    "C34_stop"
   ],
   "note": "All histories of test outcomes."
  },
  {
   "property": "C35",
   "status": "partial",
   "theorems": [
    "C35_trajectory_partial",
    "C35_second_sample_refuted",
    "C35_burn_in_refuted"
   ],
   "note": "Refuted twice: the second stored sample of every round restarts from the position before the round's first sample; and when burn-in ends in the last executed round the returned table consists of the burn-in samples. The partial theorem says exactly which transitions the stored chains consist of."
  },
  {
   "property": "C36",
   "status": "proved",
   "theorems": [
    "C36_rows",
    "C36_row_order",
    "C36_thin",
    "C36_returned"
   ],
   "note": "Includes the whole run: the table returned by mcmc()."
  },
  {
   "property": "C37",
   "status": "proved",
   "theorems": [
    "C37_invariant",
    "C37_relabel",
    "C37_formula",
    "C37_bound",
    "C37_reported"
   ],
   "note": "Exact algebra over the reals."
  },
  {
   "property": "C38",
   "status": "partial",
   "theorems": [
    "C38_resume_partial",
    "C38_other_settings",
    "C38_crash_inside_partial",
    "C38_first_save_crash",
    "C38_crash_between_refuted",
    "C38_leftover_refuted"
   ],
   "note": "Refuted: a crash between two ensembles of a later save leaves a file that resumes with chains of different rounds; a file left by a run with more ensembles makes later complete saves unusable. Proved: a complete save resumes with the same chains, log-probabilities, acceptance counts, burn-in count and autocorrelation history; other settings are refused; crashes inside the update of one ensemble are refused; in a first save crashes are refused at every point. Single dataset deletions and creations are taken as atomic."
  },
  {
   "property": "C39",
   "status": "partial",
   "theorems": [
    "C39_last_evaluation",
    "C39_optimum_partial",
    "C39_built",
    "C39_optimum_refuted"
   ],
   "note": "Refuted: maxlike_fitting drops the optimiser's result and keeps the last point at which the objective was evaluated (counterexample ends at log-probability -inf although the start was reported). Proved: for any optimiser the last evaluated point is kept, dictionary and vector agree, fixed parameters unchanged; full claim for optimisers evaluating the start first and the reported solution last. print(post) is not modelled."
  },
  {
   "property": "C40",
   "status": "partial",
   "theorems": [
    "C40_models_partial",
    "C40_single",
    "C40_count",
    "C40_history_partial",
    "C40_built",
    "C40_in_place_refuted",
    "C40_history_refuted"
   ],
   "note": "Proved for all vary flags, planet numbers and combinations of e, nplanets, trend, jit: models fitted, their order, counts 2^m-1, caller's posterior untouched, list extended. Refuted: for [] (and gp) the caller's posterior itself is fitted; calls without mc_list share the default list, so results depend on earlier calls. In the trend comparison the full model starts from zero trend."
  },
  {
   "property": "C41",
   "status": "proved",
   "theorems": [
    "C41_partition",
    "C41_inverse_variance",
    "C41_nonpositive"
   ],
   "note": "Real arithmetic; any argsort. For binsize<=0 the loop is proved never to end."
  },
  {
   "property": "C42",
   "status": "proved",
   "theorems": [
    "C42_separate",
    "C42_select",
    "C42_instruments"
   ],
   "note": "Order of first appearance specified by the inductive relation firsts."
  },
  {
   "property": "C43",
   "status": "partial",
   "theorems": [
    "C43_phase",
    "C43_phase_unique",
    "C43_periodic",
    "C43_reference",
    "C43_vector_partial",
    "C43_vector_refuted",
    "C43_errors"
   ],
   "note": "t_to_phase proved. t_to_phase_vector uses the time of periastron as the reference time where t_to_phase uses the time of conjunction: refuted with a witness, and what it does compute is proved."
  },
  {
   "property": "C44",
   "status": "partial",
   "theorems": [
    "C44_round_trip_partial",
    "C44_binary64_partial",
    "C44_binary64_refuted",
    "C44_increasing",
    "C44_value",
    "C44_day_shift"
   ],
   "note": "Exact arithmetic: round trip, value, day shift. Binary64 (Flocq): the round trip is refuted (2000-01-01 12:00:01) and proved within 61 microseconds; strictly increasing proved in binary64."
  },
  {
   "property": "C45",
   "status": "proved",
   "theorems": [
    "C45_inverse",
    "C45_linear",
    "C45_third_law",
    "C45_density",
    "C45_density_scaling",
    "C45_units",
    "C45_massive",
    "C45_massive_solution"
   ],
   "note": "Linearity in K and inversion in the low-mass branch, as claimed. In the high-mass branch the root finder is an oracle: if it returns positive zeros the result is the unique solution of the two-body relation; existence proved."
  },
  {
   "property": "C46",
   "status": "partial",
   "theorems": [
    "C46_saves_partial",
    "C46_one",
    "C46_stable",
    "C46_raises",
    "C46_default",
    "C46_crash_leaves",
    "C46_crash_refuted",
    "C46_altered_refuted",
    "C46_key_refuted",
    "C46_unreadable_refuted"
   ],
   "note": "configparser (RawConfigParser reading and writing) is modelled concretely. Proved for every readable file and every sequence of saves of names, keys and values a status file can hold (save_ok). False as stated: a crash while saving can lose everything (C46_crash_refuted); values with surrounding blanks, keys with delimiters are altered or make the file unreadable."
  },
  {
   "property": "C47",
   "status": "proved",
   "theorems": [
    "C47_sound",
    "C47_complete",
    "C47_damaged",
    "C47_after_saves"
   ],
   "note": "All status files and request strings, and combined with any sequence of saves."
  },
  {
   "property": "C48",
   "status": "proved",
   "theorems": [
    "C48_inverts",
    "C48_accepts",
    "C48_refuses",
    "C48_types"
   ],
   "note": "All ASCII strings; int() and float() syntax modelled with underscores, signs, white space; floats kept as exact decimals (rounding to double not modelled). The empty list has no text: '' raises, None gives {}."
  },
  {
   "property": "C49",
   "status": "partial",
   "theorems": [
    "C49_draws_partial",
    "C49_draws_refuted"
   ],
   "note": "Refuted: array_to_params writes the parameter dictionary but the model reads its vector. Proved: all returned rows equal the model before the call."
  },
  {
   "property": "C50",
   "status": "partial",
   "theorems": [
    "C50_nonneg",
    "C50_quantiles",
    "C50_rank_unique",
    "C50_affine",
    "C50_order",
    "C50_caller_partial",
    "C50_caller_refuted",
    "C50_turns"
   ],
   "note": "Non-negativity, quantile characterisation, equivariance (angular=False), order independence proved. 'Does not modify the caller's array' refuted for angular=True."
  },
  {
   "property": "C51",
   "status": "proved",
   "theorems": [
    "C51_sum",
    "C51_alignment",
    "C51_disagreement_refused",
    "C51_order"
   ],
   "note": "Sum, order, alignment of all arrays, refusal of disagreeing members. The stored y has the offset subtracted for all members but the first (modelled, not part of the claim)."
  },
  {
   "property": "C52",
   "status": "partial",
   "theorems": [
    "C52_rows_partial",
    "C52_thresholds",
    "C52_one_group",
    "C52_contiguous",
    "C52_permutation",
    "C52_sorted",
    "C52_stable",
    "C52_raises",
    "C52_empty",
    "C52_omitted_refuted"
   ],
   "note": "Rows handed to the template are characterised exactly for lists without NaN; cell formatting and the template are oracles. False as stated for more than 50 models, of which only 50 are listed (C52_omitted_refuted)."
  },
  {
   "property": "C53",
   "status": "proved",
   "theorems": [
    "C53_round_sig",
    "C53_nearest",
    "C53_zero",
    "C53_time",
    "C53_sigfig",
    "C53_sigfig_value"
   ],
   "note": "Decimal rounding in exact arithmetic; decimal representations are oracle arguments of sigfig."
  },
  {
   "property": "C54",
   "status": "partial",
   "theorems": [
    "C54_restores_partial",
    "C54_nested",
    "C54_removed_refuted"
   ],
   "note": "Refuted if the block removes the original directory; proved otherwise, for any block and nesting."
  },
  {
   "property": "C55",
   "status": "partial",
   "theorems": [
    "C55_basis",
    "C55_basis_accepted",
    "C55_decorr_refused",
    "C55_data_required",
    "C55_missing_data",
    "C55_offset_required",
    "C55_one_likelihood",
    "C55_own_rows",
    "C55_class",
    "C55_hyper_required",
    "C55_decorr_terms",
    "C55_composite",
    "C55_params_kept",
    "C55_logjit_refuted",
    "C55_logjit_partial",
    "C55_logjit_name",
    "C55_logjit_gone",
    "C55_logjit_last",
    "C55_builds",
    "C55_complete",
    "C55_complete_gp",
    "C55_mixed_refused",
    "C55_complete_decorr",
    "C55_declared_refuted",
    "C55_gp_ignores_decorr"
   ],
   "note": "Proved: basis check, data required for every named instrument, offset and jitter from the setup file, one likelihood per instrument from exactly its rows, class selection, composite content, parameters kept, agreement with direct construction, and a success theorem. Partial because the conversion of logjit is false in general: it raises RuntimeError unless the logjit key is the last key (C55_logjit_refuted); converted correctly when last (C55_logjit_partial). Success is proved for setups without kernels (C55_complete), with a kernel for every instrument (C55_complete_gp) and with decorrelation (C55_complete_decorr); hyper-parameters for only some instruments are refused (C55_mixed_refused), and a declared decorrelation coefficient raises IndexError (C55_declared_refuted). Beside kernels, --decorr has no effect at all (C55_gp_ignores_decorr)."
  },
  {
   "property": "C56",
   "status": "proved",
   "theorems": [
    "C56_saved",
    "C56_contents"
   ],
   "note": "run/load_results; HDF5 storage modelled as an exact store of the results."
  },
  {
   "property": "C57",
   "status": "partial",
   "theorems": [
    "C57_untouched_partial",
    "C57_multinest_removes",
    "C57_untouched_refuted"
   ],
   "note": "Refuted: MultiNest without output_dir uses ./tmpdir and removes it, with any files the user had there. Proved for the other back ends, assuming the packages themselves leave the file system alone."
  },
  {
   "property": "C58",
   "status": "partial",
   "theorems": [
    "C58_dynesty_refuses",
    "C58_overwrite_refuted"
   ],
   "note": "Refuted: dynesty raises FileExistsError from os.makedirs when the directory exists without sampler.save."
  },
  {
   "property": "C59",
   "status": "partial",
   "theorems": [
    "C59_models_partial",
    "C59_no_gp_free",
    "C59_no_gp_refuted"
   ],
   "note": "Refuted: the copy meant to be without GP gets its hyperparameters set to 0 but their vary flags kept (fitting.py:193 writes column 0), so they are fitted; the caller's posterior is fitted in place. Proved: exactly which models are fitted."
  },
  {
   "property": "C60",
   "status": "proved",
   "theorems": [
    "C60_refines",
    "C60_fit_always",
    "C60_ns_always",
    "C60_mcmc_needs_fit",
    "C60_ic_needs_fit",
    "C60_plots_need_fit",
    "C60_derive_needs_samples",
    "C60_tables_need_samples",
    "C60_table_ic",
    "C60_plot_derived",
    "C60_no_missing_file",
    "C60_refused_unchanged"
   ],
   "note": "Refinement of the commands (status text, files) to a small state machine, plus the prerequisites stated on the history of commands. Paths and texts must be ones the status file can hold (C46). Found: mcmc, ic and plot without a fit raise NoSectionError, so the branch of mcmc that starts from the setup file and the assertion messages are not reached."
  },
  {
   "property": "C61",
   "status": "partial",
   "theorems": [
    "C61_one_run_refuted",
    "C61_ns_partial",
    "C61_mcmc_partial",
    "C61_derived_partial"
   ],
   "note": "Refuted: fit and mcmc write the same posterior file, so a fit after mcmc makes tables combine its posterior with the old samples (the params table then raises AttributeError); derived samples survive a new sampler run and are shared by both samplers. Proved: ns tables always come from the last ns run; mcmc tables from the last mcmc run if no fit follows; derived samples match as long as their sampler is not run again."
  },
  {
   "property": "C62",
   "status": "partial",
   "theorems": [
    "C62_labels",
    "C62_unmixed_partial",
    "C62_unmixed_general",
    "C62_firsts",
    "C62_mixed",
    "C62_default_type_refuted",
    "C62_fixjitter_ignored",
    "C62_fixjitter_refuted",
    "C62_distinct_refuted",
    "C62_again_refuted"
   ],
   "note": "Partial because the full statement is false (theorems _refuted): without -t the default is the text 'trend', which is taken apart into characters and always raises AssertionError; --fixjitter has no effect (flags are changed on the dictionary, not on the vector); models that differ only in parameters without label are taken for the same; a second call in one process repeats earlier models. Proved: labels agree exactly if the labelled free parameters agree; un-mixed comparisons report the first model of each kind, in order; mixed comparisons report the combined comparison. The fit itself is an oracle."
  },
  {
   "property": "C63",
   "status": "partial",
   "theorems": [
    "C63_residuals_partial",
    "C63_logprob_partial",
    "C63_marginal_partial",
    "C63_marginal_refuted",
    "C63_centred",
    "C63_shift",
    "C63_names_refuted",
    "C63_underscore_refuted",
    "C63_gp_refuted"
   ],
   "note": "Partial because the full statement is false (theorems _refuted): a variable whose name occurs in another coefficient's name picks up that coefficient and the correction becomes a polynomial of higher degree; a variable with an underscore raises KeyError; the marginalised offset ignores the correction, so logprob is below the integral (exact difference proved); likelihoods with a Gaussian process drop the decorrelation. Proved for names that keep the terms apart: residuals, logprob, zero mean of the correction, invariance under constants added to columns. Columns hold finite numbers."
  },
  {
   "property": "C64",
   "status": "partial",
   "theorems": [
    "C64_rows_own",
    "C64_planets",
    "C64_table_partial",
    "C64_namesake_refuted",
    "C64_unit_own",
    "C64_unit_suffix_partial",
    "C64_unit_one_instrument_refuted",
    "C64_unit_prefix_refuted",
    "C64_extra_names",
    "C64_curvature_refuted",
    "C64_fitting_rows",
    "C64_fitting_refuted"
   ],
   "note": "Partial because the full statement is false (theorems _refuted): the group for the fitting parameters always repeats the orbital elements (C64_fitting_rows); an instrument named like another one plus '1' has the other's row in place of its own; an instrument called curv or dvdt displaces the curvature or slope; with a single instrument of more than one letter the units of its offset and jitter are lost, likewise if one instrument name starts another; decorrelation coefficients are never listed. Proved: all cells of a row belong to one parameter; the planets' rows are exactly the listed parameters in order; the third group is exact if no name has a namesake with '1' appended; units are right when one suffix occurs only at the end. Statistics and number formatting are oracles."
  },
  {
   "property": "C65",
   "status": "partial",
   "theorems": [
    "C65_reported_partial",
    "C65_elements",
    "C65_fixed",
    "C65_start",
    "C65_quantile",
    "C65_median",
    "C65_angle_refuted",
    "C65_offset_refuted"
   ],
   "note": "Partial because the full statement is false (theorems _refuted): medians of angles ignore the period, so samples on both sides of the cut give a median in the opposite direction; an analytically marginalised offset is reported with the value it had before the fit, uncertainty 0, beside its best value. Proved: complete set of keys; every entry is made from the parameter's own samples (fixed: its value) and its value after the fit; elements sample by sample; fixed parameters unchanged; the fit starts at the medians; quantiles are linear interpolation of order statistics. Samples are real numbers; minus infinity in a log-value (driver.py:295-296) and columns with e >= 1 are outside the model; decimal formatting oracles as in C45."
  },
  {
   "property": "C66",
   "status": "partial",
   "theorems": [
    "C66_values_partial",
    "C66_density_partial",
    "C66_density_positive_refuted",
    "C66_columns",
    "C66_no_star"
   ],
   "note": "Partial because the full statement is false (C66_density_positive_refuted): negative draws of the radius are used with their sign and give negative densities, while negative stellar masses are reflected. Proved: masses, axes, ratios and densities sample by sample against the physical laws (two-body relation for all samples as soon as one is massive, provided the root finder finds roots); the stellar mass is the absolute value of the draw; list of output columns and their quantiles; chain columns kept; nothing derived without stellar parameters. Samples for which period, amplitude, mass are not positive or e is outside [0,1) are outside the hypotheses; the fallback to the set-up file for planets the posterior lacks is not modelled; reading and writing files: see the pipeline properties."
  },
  {
   "property": "C67",
   "status": "partial",
   "theorems": [
    "C67_planets_partial",
    "C67_distinct_partial",
    "C67_instruments_partial",
    "C67_hyperparameters_partial",
    "C67_complete_partial",
    "C67_tenth_planet_refuted",
    "C67_letters_refuted",
    "C67_braces_refuted",
    "C67_symbol_refuted"
   ],
   "note": "Partial because the full statement is false (theorems _refuted): only the last digit is taken as the planet's number, so from the tenth planet on labels show the wrong letter and no symbol, and with planet_letters given KeyError is raised; instrument names containing another parameter's name and the hyperparameters B, C, L of one instrument give labels with unmatched braces; hyperparameters of an instrument whose name ends in a digit are labelled as a planet's; the symbol listed for logjit is never used. Proved for the first nine planets and names free of such substrings. Characters are bytes."
  },
  {
   "property": "C68",
   "status": "partial",
   "theorems": [
    "C68_labels_partial",
    "C68_units_partial",
    "C68_keeps_partial",
    "C68_quantiles",
    "C68_table_partial",
    "C68_tenth_refuted",
    "C68_letters_refuted",
    "C68_twice_refuted",
    "C68_sun_refuted"
   ],
   "note": "Partial because the full statement is false (theorems _refuted): with ten planets the names are cut after the last digit, so the first planet's rows are repeated (ten copies); more than ten planets without planet_letters raise KeyError; the samples are rescaled in place, so a second table from the same samples (radvel table -t derived derived) shows Jupiter masses called Earth masses; the branch for solar masses is unreachable. Proved for any number of planets (labels, units, columns) and up to nine planets (table). Statistics and number formatting are arguments."
  },
  {
   "property": "C69",
   "status": "partial",
   "theorems": [
    "C69_sqexp_partial",
    "C69_per_partial",
    "C69_quasiper_partial",
    "C69_quasiper_clipped",
    "C69_quasiper_refused",
    "C69_white",
    "C69_nan",
    "C69_factor"
   ],
   "note": "Partial: with the quasi-periodic kernel the covariance is that of the kernel as computed, with exponents cut off at -100 (C69_quasiper_clipped, for all positive hyper-parameters; within 2e^-100 of the documented kernel, and equal to it where nothing is cut off, C69_quasiper_partial); that matrix need not be positive definite (C30_quasiper_refuted), negative hyper-parameters raise (C69_quasiper_refused), and with a zero hyper-parameter the old covariance is used (C31_stale_covariance_refuted). Linear algebra is an argument required to be exact (exact_linalg); ref_la, a Cholesky algorithm proved exact, shows the requirement can be met. cho_factor's behaviour on an empty matrix is left open (data <> [])."
  },
  {
   "property": "C70",
   "status": "partial",
   "theorems": [
    "C70_sqexp_partial",
    "C70_per_partial",
    "C70_quasiper_partial",
    "C70_quasiper_clipped",
    "C70_bounds",
    "C70_interpolates",
    "C70_residuals"
   ],
   "note": "Partial: with the quasi-periodic kernel the estimate is the best under the kernel as computed, with exponents cut off at -100 (C70_quasiper_clipped, for all positive hyper-parameters), which need not be a covariance, so that the uncertainty is nan where the error is negative; under the documented kernel where no exponent is cut off (C70_quasiper_partial). A zero hyper-parameter uses the old covariance (C31_stale_covariance_refuted). Linear algebra is an argument required to be exact (exact_predict), with ref_la as a proved instance. Empty lists of times are not covered."
  },
  {
   "property": "C71",
   "status": "partial",
   "theorems": [
    "C71_bins",
    "C71_one_bin",
    "C71_mean_between",
    "C71_order",
    "C71_phase_plot",
    "C71_kept_refuted",
    "C71_kept_partial"
   ],
   "note": "Partial because the full statement is false (C71_kept_refuted): bins whose centre is not positive are dropped; the phase plot adds 1 to phases from 0 so it loses none (C71_phase_plot). Exact arithmetic; np.histogram is modelled by its edges."
  },
  {
   "property": "C72",
   "status": "partial",
   "theorems": [
    "C72_all_rows",
    "C72_first_rows",
    "C72_distinct_rows",
    "C72_criteria",
    "C72_note_partial",
    "C72_note_refuted",
    "C72_negative_refuted",
    "C72_instrument_partial",
    "C72_instrument_refuted"
   ],
   "note": "Partial because the full statement is false: with fewer velocities than lines the note says that only the first 50 are displayed (C72_note_refuted), a negative number of lines drops rows at the end (C72_negative_refuted), and a name with two underscores gives unbalanced braces (C72_instrument_refuted). Titles and templates are not modelled; formatting is exact."
  },
  {
   "property": "C73",
   "status": "partial",
   "theorems": [
    "C73_bounds",
    "C73_jeffreys",
    "C73_modified_jeffreys",
    "C73_gaussian",
    "C73_eccentricity_partial",
    "C73_numerical",
    "C73_eclipse",
    "C73_rows",
    "C73_letters_refuted",
    "C73_tenth_planet_refuted"
   ],
   "note": "Partial because the full statement is false: descriptions use the default letters instead of those of the fit (C73_letters_refuted), and an eccentricity prior on a tenth planet makes the table fail (C73_tenth_planet_refuted). Number formatting is an arbitrary function."
  },
  {
   "property": "C74",
   "status": "proved",
   "theorems": [
    "C74_columns",
    "C74_fitted",
    "C74_derived",
    "C74_quantiles"
   ],
   "note": "All chains; samples with e >= 1 are outside the model (see C65). The basis named in the set-up file is that of the posterior."
  },
  {
   "property": "C75",
   "status": "partial",
   "theorems": [
    "C75_points",
    "C75_colours_refuted",
    "C75_legend",
    "C75_colours",
    "C75_panels_refuted",
    "C75_panels_partial",
    "C75_settles_partial"
   ],
   "note": "Refuted: with formats that name no colour, the first panel writes colours into the user's formats and the next panel counts colours differently, so an instrument changes its colour and shares it with another one. Refuted: more than nine instruments without colour give IndexError. Proved for formats with colours, and from the second panel on."
  },
  {
   "property": "C76",
   "status": "partial",
   "theorems": [
    "C76_panels",
    "C76_drawn",
    "C76_made",
    "C76_curve",
    "C76_trend_refuted"
   ],
   "note": "Refuted only in that every fit can be plotted: without dvdt or curv among the parameters, which the model takes as zero, the constructor raises KeyError. All that is drawn is proved, and that a plot is drawn when the parameters are complete, whatever the eccentricities."
  },
  {
   "property": "C77",
   "status": "partial",
   "theorems": [
    "C77_figure",
    "C77_letters",
    "C77_alike",
    "C77_made_partial",
    "C77_made_refuted"
   ],
   "note": "Refuted only in that a figure is drawn with any options: with letter_labels=False and a planet the local variable pltletter is unbound (UnboundLocalError), with phase_ncols=0 or fewer cells than planets an exception is raised too. C77_made_partial: drawn in all other cases."
  },
  {
   "property": "C78",
   "status": "partial",
   "theorems": [
    "C78_panel",
    "C78_again_refuted",
    "C78_separate_partial",
    "C78_separate_refuted",
    "C78_colours_partial",
    "C78_colours_refuted",
    "C78_curve_refuted",
    "C78_made_partial",
    "C78_made_refuted"
   ],
   "note": "C78_panel: the upper panel of a fresh plot. Refuted: drawing again (means are added in place to self.rvmod, so they are added once more by every drawing); separate panels (the velocities of likelihoods still to come lack their means); colours of bands of unknown instruments; the curve of a likelihood without process when orbits are taken off; drawing with separate_orbit_gp and subtract_gp_mean_model together (ValueError) or with formats without colour (KeyError)."
  },
  {
   "property": "C79",
   "status": "partial",
   "theorems": [
    "C79_trend_partial",
    "C79_trend_drawn_partial",
    "C79_trend_refuted",
    "C79_corner",
    "C79_derived",
    "C79_auto_partial",
    "C79_auto_window_partial",
    "C79_auto_refuted"
   ],
   "note": "Corner plots hold in full. C79_trend_partial, C79_trend_drawn_partial: what a trend plot shows if drawn, and exactly when it is drawn. Refuted: a run whose thinning does not fit raises ValueError in reshape; a run with no check after burn-in has an empty table of autocorrelation times and the plot raises KeyError."
  },
  {
   "property": "C80",
   "status": "partial",
   "theorems": [
    "C80_elements",
    "C80_written",
    "C80_summary",
    "C80_mass_partial",
    "C80_letters_refuted",
    "C80_gaps_refuted",
    "C80_eleven_refuted",
    "C80_unit_refuted"
   ],
   "note": "The three elements hold in full (C80_elements, C80_written, C80_summary). C80_mass_partial: the mass shown is that of the chain in the unit shown, under the default letter. Refuted: the planet letters of the setup file do not reach the mass label; a mass column with gaps raises IndexError; more than ten planets KeyError; without a status file the mass has neither label nor unit."
  },
  {
   "property": "C81",
   "status": "partial",
   "theorems": [
    "C81_again",
    "C81_alone_partial",
    "C81_made",
    "C81_derived_partial",
    "C81_twice_refuted",
    "C81_after_refuted",
    "C81_document",
    "C81_velocities",
    "C81_figures",
    "C81_document_made"
   ],
   "note": "Holds for all tables but the derived one (C81_alone_partial) whose parameters have names beginning unlike those of derived columns, and for the derived one asked for once and before a comparison (C81_derived_partial). Refuted: asked for twice it shows Jupiter masses as Earth masses; asked for after ic_compare it is empty. C81_again, C81_made, C81_document, C81_figures, C81_document_made hold in full."
  },
  {
   "property": "C82",
   "status": "partial",
   "theorems": [
    "C82_place",
    "C82_written",
    "C82_failed",
    "C82_kept",
    "C82_made_partial",
    "C82_shown_partial",
    "C82_name_refuted",
    "C82_elsewhere_refuted",
    "C82_saveplot",
    "C82_noplots_refuted",
    "C82_nocompiler_refuted",
    "C82_temp_refuted"
   ],
   "note": "C82_place, C82_written, C82_failed, C82_kept hold in full; success and figures hold after successful plots without saveplot and with a compiler (C82_made_partial, C82_shown_partial). Refuted: a plot saved under another name is left out, one saved elsewhere makes every report fail, as does the absence of plots; without a compiler the command ends normally beside an older report; a failure or a missing compiler leaves the temporary directory."
  },
  {
   "property": "C83",
   "status": "partial",
   "theorems": [
    "C83_text_partial",
    "C83_joined_refuted",
    "C83_columns",
    "C83_missing",
    "C83_priors",
    "C83_again",
    "C83_quiet_partial",
    "C83_quiet_refuted",
    "C83_composite_refuted"
   ],
   "note": "C83_text_partial: for numbers that leave a blank in their columns; C83_priors and C83_again hold in full; C83_quiet_partial: parameters that agree with the vector. Refuted: an uncertainty of ten characters is joined to the value; printing overwrites parameters that differ from the vector; a composite likelihood has no uncertainties."
  },
  {
   "property": "C84",
   "status": "partial",
   "theorems": [
    "C84_given",
    "C84_made",
    "C84_order",
    "C84_valid",
    "C84_refused",
    "C84_left",
    "C84_equals",
    "C84_shortened",
    "C84_doubtful",
    "C84_attached",
    "C84_together",
    "C84_status",
    "C84_status_same",
    "C84_slash",
    "C84_dot",
    "C84_slash_status",
    "C84_shared_refuted",
    "C84_serial_refuted",
    "C84_setup_refuted",
    "C84_empty_refuted",
    "C84_type_refuted",
    "C84_many_refuted",
    "C84_named",
    "C84_help_partial",
    "C84_help_refuted"
   ],
   "note": "C84_given, C84_made, C84_order, C84_valid, C84_refused, C84_left, the spellings and the status file hold in full; C84_help_partial: the help of mcmc but for two defaults. Refuted: --serial False is true; without a setup file TypeError is raised; plot and table without a type are called with None; two stated defaults differ from the real ones; setup files of one name up to the first dot share their directory and status file; -t=a b is refused."
  },
  {
   "property": "C85",
   "status": "partial",
   "theorems": [
    "C85_starts",
    "C85_usual",
    "C85_near",
    "C85_spread",
    "C85_period_refuted",
    "C85_again",
    "C85_stale_refuted",
    "C85_domain_refuted"
   ],
   "note": "C85_starts, C85_usual, C85_near, C85_spread and C85_again hold in full. Refuted: around a period of one day (or a logarithm of zero, or a period that is not positive) walkers are not spread and the sampler raises ValueError whatever the draws; a value changed after a run keeps the scale of the old value; an eccentricity of 0.95 starts beyond one."
  },
  {
   "property": "C86",
   "status": "partial",
   "theorems": [
    "C86_same",
    "C86_posterior_partial",
    "C86_prior_refuted",
    "C86_left",
    "C86_left_refuted"
   ],
   "note": "C86_same holds for every posterior whose value does not depend on earlier points, and C86_posterior_partial for RV posteriors without a prior on a marginalised offset. Refuted: with such a prior the chains differ after one round; the posterior given is left at a point that was tried, the last one in serial, one of the first steps in parallel (C86_left, C86_left_refuted)."
  },
  {
   "property": "C87",
   "status": "proved",
   "theorems": [
    "C87_solvers_return",
    "C87_c_solver_solves",
    "C87_python_solver_solves",
    "C87_rv_drive_returns",
    "C87_back_ends_return_and_agree",
    "C87_velocities",
    "C87_model_call_returns"
   ],
   "note": "Over exact real numbers. Every correction is followed by a verified interval computation over a subdivision of eccentricity and eccentric anomaly, from the first guess of either solver into a neighbourhood of the root in which the iteration converges; the computation is run by vm_compute on Coq's primitive integers, whose standard-library axioms are listed."
  },
  {
   "property": "C88",
   "status": "partial",
   "theorems": [
    "C88_bar",
    "C88_bar_grows",
    "C88_line",
    "C88_numbers",
    "C88_beyond_refuted",
    "C88_bar_refuted",
    "C88_same",
    "C88_accepted",
    "C88_speed_refuted",
    "C88_discard",
    "C88_verdict"
   ],
   "note": "C88_bar, C88_bar_grows, C88_line, C88_same, C88_accepted, C88_discard and C88_verdict hold in full. Refuted: a run that is not stopped early makes more steps than its total, so the percentage passes 100 and the bar leaves its frame (C88_beyond_refuted, C88_bar_refuted); the speed counts one step per round too few (C88_speed_refuted). Exact arithmetic; the format of numbers other than the percentage is an argument."
  },
  {
   "property": "C89",
   "status": "partial",
   "theorems": [
    "C89_identifies_partial",
    "C89_eccentricities",
    "C89_posterior_partial",
    "C89_amplitudes_refuted",
    "C89_eclipse_refuted",
    "C89_function_refuted"
   ],
   "note": "C89_identifies_partial and C89_posterior_partial hold for the six kinds whose description names everything they are made of, across kinds; C89_eccentricities in full. Refuted for the rest: PositiveKPrior does not say of how many planets, SecondaryEclipsePrior not of which planet, NumericalPrior and UserDefinedPrior not which function. The format of numbers is an argument, required to tell the floats apart."
  },
  {
   "property": "C90",
   "status": "partial",
   "theorems": [
    "C90_named",
    "C90_found",
    "C90_home",
    "C90_own_partial",
    "C90_own_refuted",
    "C90_elsewhere_refuted",
    "C90_no_home",
    "C90_import_refuted",
    "C90_gone"
   ],
   "note": "The order of the search is proved in full (C90_named, C90_found, C90_home). That a source tree uses its own data is refuted: the path called the source directory is one level above the tree, and the working directory comes before the tree (C90_own_refuted, C90_elsewhere_refuted; C90_own_partial). That the import succeeds without data is refuted where HOME is unset (C90_import_refuted, C90_no_home) and in a removed working directory (C90_gone)."
  },
  {
   "property": "C91",
   "status": "partial",
   "theorems": [
    "C91_always",
    "C91_edits_partial",
    "C91_edits_refuted",
    "C91_missing",
    "C91_suffix_refuted",
    "C91_version"
   ],
   "note": "Proved for all histories in which texts of one size are not exchanged within one second (C91_edits_partial), and for missing files (C91_missing). Refuted in general: such an exchange makes the command run the older text from Python's compiled copy (C91_edits_refuted); a name without a suffix Python knows gives AttributeError (C91_suffix_refuted). Under Python 4 or later nothing is loaded (C91_version). What Python's importlib does is modelled with the code."
  },
  {
   "property": "C92",
   "status": "partial",
   "theorems": [
    "C92_found",
    "C92_program_partial",
    "C92_directory_refuted",
    "C92_absolute",
    "C92_no_path"
   ],
   "note": "Proved if no directory of that name is on the way (C92_program_partial); a directory is taken for a program (C92_directory_refuted); KeyError without PATH (C92_no_path). The function is not used in the package."
  },
  {
   "property": "C93",
   "status": "partial",
   "theorems": [
    "C93_read_back_partial",
    "C93_status_file_partial",
    "C93_nan_refuted"
   ],
   "note": "Proved for all comparisons without nan (C93_read_back_partial), also through the status file of C46 (C93_status_file_partial). With nan, tables and report raise NameError: driver.py imports inf but not nan (C93_nan_refuted). Numbers are their texts; eval() is modelled on texts of this shape."
  },
  {
   "property": "C94",
   "status": "partial",
   "theorems": [
    "C94_parameter_partial",
    "C94_linear_refuted",
    "C94_kernel",
    "C94_kernel_total",
    "C94_celerite"
   ],
   "note": "The text of a parameter tells exactly what _equals compares (C94_parameter_partial); neither tells whether it is linear (C94_linear_refuted). Kernels: proved in full (C94_kernel, C94_kernel_total, C94_celerite)."
  },
  {
   "property": "C95",
   "status": "partial",
   "theorems": [
    "C95_separate_partial",
    "C95_together_partial",
    "C95_nophase_refuted",
    "C95_no_planets_refuted",
    "C95_again_refuted"
   ],
   "note": "Proved with a panel for each likelihood (C95_separate_partial). False otherwise: with all likelihoods in one panel nophase is ignored and nothing is returned (C95_together_partial, C95_nophase_refuted); without planets GridSpec refuses zero rows (C95_no_planets_refuted); a second figure returns the axes of the first too (C95_again_refuted). Contents of panels: C76, C78."
  },
  {
   "property": "C96",
   "status": "partial",
   "theorems": [
    "C96_one_way",
    "C96_rows_partial",
    "C96_row_made",
    "C96_head",
    "C96_letters",
    "C96_gamma_refuted"
   ],
   "note": "Proved for entries without & (C96_rows_partial, C96_head, C96_letters, C96_one_way), with the rows of the whole table (CompTable.v). False of the free parameters: the offsets are listed whether they are free or not (C96_gamma_refuted)."
  }
 ]
}