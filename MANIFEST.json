{
 "claims": [
  {
   "property": "C01",
   "status": "proved",
   "theorems": [
    "C01_bounded_params_legal"
   ],
   "note": ""
  },
  {
   "property": "C02",
   "status": "proved",
   "theorems": [
    "C02_bounding_bijection"
   ],
   "note": "Exact arithmetic."
  },
  {
   "property": "C03",
   "status": "proved",
   "theorems": [
    "C03_unbounded_finite_iff_legal",
    "C03_unbounded_special_values"
   ],
   "note": ""
  },
  {
   "property": "C04",
   "status": "proved",
   "theorems": [
    "C04_mass_nondecreasing",
    "C04_mass_nondecreasing_late_t0",
    "C04_threshold_exact",
    "C04_epochs_exact",
    "C04_unrestricted_refuted"
   ],
   "note": "Holds under t_peak <= 10^(22/63)*t0 (automatic for t0 >= 8.96 Gyr); C04_threshold_exact and C04_epochs_exact show this condition is exact (peak times from 0.5 Gyr); C04_unrestricted_refuted gives one explicit halo that loses mass."
  },
  {
   "property": "C05",
   "status": "proved",
   "theorems": [
    "C05_rate_sign",
    "C05_threshold_exact"
   ],
   "note": "C05_threshold_exact shows the condition on t_peak is exact for peak times from 0.5 Gyr."
  },
  {
   "property": "C06",
   "status": "proved",
   "theorems": [
    "C06_rate_is_derivative"
   ],
   "note": ""
  },
  {
   "property": "C07",
   "status": "proved",
   "theorems": [
    "C07_mass_is_integral_of_rate",
    "C07_rate_meaning"
   ],
   "note": ""
  },
  {
   "property": "C08",
   "status": "proved",
   "theorems": [
    "C08_logm0_is_mass_at_t0"
   ],
   "note": ""
  },
  {
   "property": "C09",
   "status": "proved",
   "theorems": [
    "C09_frozen_and_bounded"
   ],
   "note": ""
  },
  {
   "property": "C10",
   "status": "proved",
   "theorems": [
    "C10_halopop_rowwise"
   ],
   "note": ""
  },
  {
   "property": "C11",
   "status": "proved",
   "theorems": [
    "C11_logmh_at_t_obs_agrees",
    "C11_logmh_at_t_obs_pop"
   ],
   "note": ""
  },
  {
   "property": "C12",
   "status": "proved",
   "theorems": [
    "C12_power_law_envelope",
    "C12_effective_slope"
   ],
   "note": ""
  },
  {
   "property": "C13",
   "status": "proved",
   "theorems": [
    "C13_special_times",
    "C13_nan_parameter"
   ],
   "note": "Finding: a NaN time silently returns the frozen mass because the comparison t < t_peak is False."
  },
  {
   "property": "C14",
   "status": "proved",
   "theorems": [
    "C14_fit_gradient_correct",
    "C14_fit_gradient_correct_fixed_t_peak",
    "C14_fit_gradient_finite"
   ],
   "note": "Forward-mode dual numbers stand for jax.grad."
  },
  {
   "property": "C15",
   "status": "proved",
   "theorems": [
    "C15_cells_tile_an_interval",
    "C15_cell_widths",
    "C15_positive_on_increasing_times",
    "C15_uniform_grid",
    "C15_too_short_raises"
   ],
   "note": ""
  },
  {
   "property": "C16",
   "status": "proved",
   "theorems": [
    "C16_cholesky_entries",
    "C16_every_parameter_used_once",
    "C16_cholesky_injective",
    "C16_surplus_ignored"
   ],
   "note": "The general theorem also covers non-triangular lengths; C16_surplus_ignored records that surplus parameters are silently dropped."
  },
  {
   "property": "C17",
   "status": "proved",
   "theorems": [
    "C17_trimmed_mean",
    "C17_quantiles_exist",
    "C17_constant_array_is_nan",
    "C17_p_zero_is_plain_mean_refuted"
   ],
   "note": "The plain-mean reading for p=0 is refuted separately (C17_p_zero_is_plain_mean_refuted)."
  },
  {
   "property": "C18",
   "status": "proved",
   "theorems": [
    "C18_trimmed_variance",
    "C18_order_of_points_irrelevant"
   ],
   "note": ""
  },
  {
   "property": "C19",
   "status": "proved",
   "theorems": [
    "C19_correlation_roundtrip",
    "C19_covariance_roundtrip",
    "C19_definiteness_preserved"
   ],
   "note": ""
  },
  {
   "property": "C20",
   "status": "proved",
   "theorems": [
    "C20_get_1d_arrays"
   ],
   "note": ""
  },
  {
   "property": "C21",
   "status": "proved",
   "theorems": [
    "C21_sig_slope"
   ],
   "note": ""
  },
  {
   "property": "C22",
   "status": "proved",
   "theorems": [
    "C22_skip_iff_too_little_data",
    "C22_sentinel_iff_skipped",
    "C22_never_raises"
   ],
   "note": "For arbitrary inputs incl. NaN/inf; the count of non-trivial points is taken on the stored target."
  },
  {
   "property": "C23",
   "status": "proved",
   "theorems": [
    "C23_target_is_masked_running_maximum"
   ],
   "note": ""
  },
  {
   "property": "C24",
   "status": "proved",
   "theorems": [
    "C24_first_index_at_final_mass",
    "C24_non_decreasing_history",
    "C24_index_of_maximum_refuted"
   ],
   "note": "Refuted reading (time of the maximum) recorded separately."
  },
  {
   "property": "C25",
   "status": "proved",
   "theorems": [
    "C25_fitted_t_peak"
   ],
   "note": ""
  },
  {
   "property": "C26",
   "status": "proved",
   "theorems": [
    "C26_within_bounds_or_nan",
    "C26_fitted_parameters_legal"
   ],
   "note": "Unconditional closed bounds with NaN allowed, strict bounds for finite histories when the float32 cast has bounded relative error and the minimiser reports finite parameters on success."
  },
  {
   "property": "C27",
   "status": "proved",
   "theorems": [
    "C27_loss_is_mean_squared_residual",
    "C27_loss_zero_iff_reproduced",
    "C27_loss_ignores_order"
   ],
   "note": ""
  },
  {
   "property": "C28",
   "status": "proved",
   "theorems": [
    "C28_best_of_all_steps",
    "C28_nan_after_first_step",
    "C28_nan_at_first_step",
    "C28_tolerance_reached",
    "C28_cases_exhaustive",
    "C28_zero_steps_raise"
   ],
   "note": ""
  },
  {
   "property": "C29",
   "status": "proved",
   "theorems": [
    "C29_start_of_main_burn",
    "C29_never_worse_than_start",
    "C29_flag_without_tolerance",
    "C29_unbound_results",
    "C29_flag_documentation_refuted"
   ],
   "note": "The documented meaning of fit_terminates is refuted when a tolerance is used (C29_flag_documentation_refuted) and proved without one."
  },
  {
   "property": "C30",
   "status": "proved",
   "theorems": [
    "C30_bfgs_used_iff_success_with_positive_loss",
    "C30_perfect_fit_kept_refuted"
   ],
   "note": "Consequence for perfect fits: C30_perfect_fit_kept_refuted."
  },
  {
   "property": "C31",
   "status": "proved",
   "theorems": [
    "C31_round_trip",
    "C31_precision",
    "C31_line_shape",
    "C31_skipped_line"
   ],
   "note": "Holds for NaN and infinite numbers too. The sign of a written zero is not modelled."
  },
  {
   "property": "C32",
   "status": "proved",
   "theorems": [
    "C32_halo_id_line_does_not_parse"
   ],
   "note": "Negative property: shows the documented round trip fails with halo_id; C33_fits_with_ids_collate shows the collation route recovers ids."
  },
  {
   "property": "C33",
   "status": "proved",
   "theorems": [
    "C33_headers",
    "C33_eight_columns",
    "C33_nine_columns",
    "C33_nothing_written",
    "C33_fits_collate",
    "C33_fits_with_ids_collate"
   ],
   "note": ""
  },
  {
   "property": "C34",
   "status": "proved",
   "theorems": [
    "C34_floor_passes_cut",
    "C34_cut_without_effect",
    "C34_zero_mass_without_floor"
   ],
   "note": ""
  },
  {
   "property": "C35",
   "status": "proved",
   "theorems": [
    "C35_bijection",
    "C35_fieldwise_monotone",
    "C35_late_index_refuted",
    "C35_late_index_exact",
    "C35_late_index_exact_unbounded"
   ],
   "note": "All 30 public bounding pairs (C35_bijection); the 31st, late_index_bimod, discards the alpha parameters: refuted by C35_late_index_refuted, and C35_late_index_exact / _exact_unbounded say exactly what it returns and when it round-trips."
  },
  {
   "property": "C36",
   "status": "proved",
   "theorems": [
    "C36_round_trip_fields",
    "C36_identity_iff",
    "C36_round_trip_refuted",
    "C36_from_unbounded",
    "C36_defaults_legal"
   ],
   "note": "The full identity is refuted (C36_round_trip_refuted); C36_identity_iff says exactly when it holds."
  },
  {
   "property": "C37",
   "status": "proved",
   "theorems": [
    "C37_partition",
    "C37_partition_unbounded",
    "C37_exclusion"
   ],
   "note": ""
  },
  {
   "property": "C38",
   "status": "proved",
   "theorems": [
    "C38_covariance",
    "C38_unbounded"
   ],
   "note": "Also for every real unbounded parameter set (C38_unbounded)."
  },
  {
   "property": "C39",
   "status": "proved",
   "theorems": [
    "C39_probability",
    "C39_population_provides"
   ],
   "note": ""
  },
  {
   "property": "C40",
   "status": "proved",
   "theorems": [
    "C40_probability",
    "C40_monotone"
   ],
   "note": ""
  },
  {
   "property": "C41",
   "status": "proved",
   "theorems": [
    "C41_range",
    "C41_monotone",
    "C41_inverts_curve"
   ],
   "note": "The uniform draw is an arbitrary real; the random generator itself is external."
  },
  {
   "property": "C42",
   "status": "proved",
   "theorems": [
    "C42_range",
    "C42_monotone",
    "C42_inverts_cdf"
   ],
   "note": "truncnorm is instantiated with its mathematical definition (normalised integral of the Gaussian)."
  },
  {
   "property": "C43",
   "status": "proved",
   "theorems": [
    "C43_legal_means",
    "C43_logtc_monotone"
   ],
   "note": ""
  },
  {
   "property": "C44",
   "status": "proved",
   "theorems": [
    "C44_shared_t_peak",
    "C44_given_t_peak",
    "C44_drawn_t_peak"
   ],
   "note": "Also says which draw the shared peak time comes from, and that it lies before today (centrals) or before the observation (satellites)."
  },
  {
   "property": "C45",
   "status": "proved",
   "theorems": [
    "C45_keys_refuted",
    "C45_given_t_peak_fresh",
    "C45_halos_independent",
    "C45_halos_independent_params"
   ],
   "note": "Refuted for drawn t_peak (C45_keys_refuted). Freshness is stated by the path of split indices, so it does not rely on split(k,n) differing for different n."
  },
  {
   "property": "C46",
   "status": "proved",
   "theorems": [
    "C46_whole_halos",
    "C46_whole_halos_params",
    "C46_total",
    "C46_lengths"
   ],
   "note": "The comparison is the float comparison; holds for NaN fractions too."
  },
  {
   "property": "C47",
   "status": "proved",
   "theorems": [
    "C47_weighted_moments",
    "C47_total",
    "C47_frac_peaked_constant"
   ],
   "note": "C47_frac_peaked_constant records that the predicted frac_peaked is the constant 0.5."
  },
  {
   "property": "C48",
   "status": "proved",
   "theorems": [
    "C48_above_observed",
    "C48_increasing",
    "C48_low_mass_refuted",
    "C48_late_time_refuted",
    "C48_published_dwarf_refuted"
   ],
   "note": "Proved for t_obs <= 15 and lgm_obs >= 12; the refuted theorems show the claim fails beyond either limit."
  },
  {
   "property": "C49",
   "status": "proved",
   "theorems": [
    "C49_split_partition",
    "C49_split_sizes",
    "C49_select_by_number",
    "C49_scatter",
    "C49_load_per_rank",
    "C49_load_failure"
   ],
   "note": "C49_scatter and C49_load_per_rank cover the messages; arrays are lists of rows."
  },
  {
   "property": "C50",
   "status": "proved",
   "theorems": [
    "C50_namedtuple_roundtrip",
    "C50_flat_rows",
    "C50_flat_whole",
    "C50_flat_last",
    "C50_flat_keys",
    "C50_chunks_join",
    "C50_nested_group_collapses",
    "C50_nested_group_refuted"
   ],
   "note": "The nested-group case is refuted (C50_nested_group_refuted). Names are ASCII."
  },
  {
   "property": "C51",
   "status": "proved",
   "theorems": [
    "C51_tng",
    "C51_tng_few_halos",
    "C51_tng_failing_fit",
    "C51_refuted",
    "C51_bolshoi",
    "C51_bolshoi_few_halos",
    "C51_bolshoi_failing_fit",
    "C51_galacticus",
    "C51_galacticus_few_halos",
    "C51_galacticus_more_ranks",
    "C51_galacticus_failing_fit",
    "C51_lastjourney",
    "C51_lastjourney_few_halos",
    "C51_lastjourney_failing_fit",
    "C51_lastjourney_subvolumes",
    "C51_lastjourney_default_refuted",
    "C51_discovery_refuted"
   ],
   "note": "The unconditional claim is false: C51_refuted (few halos), C51_lastjourney_default_refuted, C51_discovery_refuted. The fitter is an arbitrary function; loading from disk is a parameter; -test runs are not modelled."
  },
  {
   "property": "C52",
   "status": "proved",
   "theorems": [
    "C52_no_fit_lost",
    "C52_run",
    "C52_fit_then_merge",
    "C52_extra_columns_refuted"
   ],
   "note": "C52_extra_columns_refuted: columns the first chunk lacks are dropped. Removing one file and adding one dataset are atomic steps."
  },
  {
   "property": "C53",
   "status": "proved",
   "theorems": [
    "C53_cumulative_peak",
    "C53_hacc",
    "C53_bpl",
    "C53_tng",
    "C53_tng_refuted",
    "C53_pub",
    "C53_pub_refuted"
   ],
   "note": "Refuted without the conditions on the inputs: C53_tng_refuted, C53_pub_refuted."
  },
  {
   "property": "C54",
   "status": "proved",
   "theorems": [
    "C54_keeps_inliers",
    "C54_trimmed_unique",
    "C54_later_start_keeps_more",
    "C54_normalisation_irrelevant",
    "C54_no_spread_removes_all",
    "C54_identical_halos_refuted",
    "C54_negative_start"
   ],
   "note": "Exact arithmetic; with rounding a sample without spread may be kept. C54_identical_halos_refuted is the counterexample to keeping identical halos."
  },
  {
   "property": "C55",
   "status": "proved",
   "theorems": [
    "C55_at_table_times",
    "C55_last_time",
    "C55_between_table_times",
    "C55_rescaled_histories"
   ],
   "note": "Exact arithmetic."
  },
  {
   "property": "C56",
   "status": "proved",
   "theorems": [
    "C56_scaled_is_cdf",
    "C56_kernel_cdf_refuted",
    "C56_density",
    "C56_density_integrates_to_one",
    "C56_draw_range"
   ],
   "note": "The published kernel is refuted; t_0 times it is proved to be a CDF, and the density kernel its density."
  },
  {
   "property": "C57",
   "status": "proved",
   "theorems": [
    "C57_singlebin",
    "C57_multibin",
    "C57_censat",
    "C57_u_params",
    "C57_total"
   ],
   "note": "Losses ignore target_frac_peaked."
  },
  {
   "property": "C58",
   "status": "proved",
   "theorems": [
    "C58_logm0_shift"
   ],
   "note": ""
  },
  {
   "property": "C59",
   "status": "proved",
   "theorems": [
    "C59_time_unit_invariance"
   ],
   "note": ""
  },
  {
   "property": "C60",
   "status": "proved",
   "theorems": [
    "C60_history_continuous"
   ],
   "note": ""
  },
  {
   "property": "C61",
   "status": "proved",
   "theorems": [
    "C61_gradient_exact",
    "C61_loss_and_gradient_finite"
   ],
   "note": ""
  },
  {
   "property": "C62",
   "status": "proved",
   "theorems": [
    "C62_reported_loss"
   ],
   "note": "Improvement clause assumes the unbounded starting parameters are single-precision numbers (they are outputs of a jitted function)."
  },
  {
   "property": "C63",
   "status": "proved",
   "theorems": [
    "C63_legal_halos",
    "C63_legal_population"
   ],
   "note": ""
  },
  {
   "property": "C64",
   "status": "proved",
   "theorems": [
    "C64_mean_plus_deviation",
    "C64_no_scatter"
   ],
   "note": ""
  },
  {
   "property": "C65",
   "status": "proved",
   "theorems": [
    "C65_ordinary_halos_finite",
    "C65_massive_halos_nan",
    "C65_finite_refuted",
    "C65_dividing_line",
    "C65_published_finite"
   ],
   "note": "C65_finite_refuted is the counterexample to finiteness for all masses."
  },
  {
   "property": "C66",
   "status": "proved",
   "theorems": [
    "C66_tng",
    "C66_bolshoi",
    "C66_galacticus",
    "C66_lastjourney",
    "C66_tng_other_files",
    "C66_bolshoi_other_files",
    "C66_galacticus_other_files",
    "C66_lastjourney_other_files",
    "C66_second_run_refuted"
   ],
   "note": "C66_second_run_refuted: stale text files are truncated by a second run. Text reaches the file as soon as it is written; with Python's buffering a kill may also lose lines not yet flushed, which were never on disk."
  },
  {
   "property": "C67",
   "status": "proved",
   "theorems": [
    "C67_mass_nondecreasing_rounded",
    "C67_rate_sign_rounded",
    "C67_landmarks_rounded"
   ],
   "note": "For any order-preserving rounding and library; operations are rounded one by one (no fused multiply-add)."
  },
  {
   "property": "C68",
   "status": "proved",
   "theorems": [
    "C68_bounding_rounded",
    "C68_strict_bounds_refuted"
   ],
   "note": "C68_strict_bounds_refuted: the strict bounds and the round trip fail in single precision."
  },
  {
   "property": "C69",
   "status": "proved",
   "theorems": [
    "C69_no_overflow"
   ],
   "note": "Subnormal numbers are kept (no flush to zero)."
  },
  {
   "property": "C70",
   "status": "proved",
   "theorems": [
    "C70_log_mass_accuracy",
    "C70_single_precision"
   ],
   "note": "Library functions accurate to four units of rounding (correctly rounded ones qualify)."
  },
  {
   "property": "C71",
   "status": "proved",
   "theorems": [
    "C71_failed_fits_dropped",
    "C71_bin_selection",
    "C71_sample_rows",
    "C71_grid",
    "C71_late_bins_disjoint",
    "C71_early_bins_cover",
    "C71_late_bins_cover_refuted",
    "C71_early_bins_disjoint_refuted"
   ],
   "note": "C71_late_bins_cover_refuted and C71_early_bins_disjoint_refuted: from 17/3 Gyr on there are gaps between bins, before it bins overlap. The 4-digit rounding of the text files is modelled but not part of the claim."
  },
  {
   "property": "C72",
   "status": "proved",
   "theorems": [
    "C72_names",
    "C72_collate",
    "C72_other_files_untouched",
    "C72_no_halo_lost",
    "C72_failure_keeps_files",
    "C72_existing_output_refused",
    "C72_only_collated_removed_refuted"
   ],
   "note": "C72_only_collated_removed_refuted. Renaming, buffering and concurrent writers are not modelled; a file is created, then filled."
  },
  {
   "property": "C73",
   "status": "proved",
   "theorems": [
    "C73_measurement_always_raises",
    "C73_measurement_type_error",
    "C73_tables_empty",
    "C73_written_tables_refused",
    "C73_loader_returns_no_row",
    "C73_complete_directory_loaded_refuted",
    "C73_counts_from_given_directory_refuted"
   ],
   "note": "Mostly negative: mah_halopop takes three arguments and gets four, and five parameters are built from four columns. The two refuted theorems give a complete directory."
  },
  {
   "property": "C74",
   "status": "proved",
   "theorems": [
    "C74_component_loss",
    "C74_true_parameters_fit",
    "C74_number_is_constant_column",
    "C74_global_loss",
    "C74_global_fit_raises",
    "C74_global_fit_returns_refuted",
    "C74_multimass_loss",
    "C74_single_sigmoid_loss",
    "C74_tpeak_fit_legal",
    "C74_tpeak_cens_fit_legal",
    "C74_tpeak_reported_loss",
    "C74_tpeak_cens_reported_loss",
    "C74_tpeak_default_start"
   ],
   "note": "Exact arithmetic; the gradient is arbitrary but finite at the start in the reported-loss theorems. C74_global_fit_raises and C74_global_fit_returns_refuted are the negative part."
  },
  {
   "property": "C75",
   "status": "proved",
   "theorems": [
    "C75_sats_one_draw_per_halo",
    "C75_cens_one_draw_per_halo",
    "C75_cenpop_one_draw_per_halo",
    "C75_distinct_streams",
    "C75_halos_do_not_interact",
    "C75_sats_range",
    "C75_cens_range",
    "C75_cenpop_range",
    "C75_number_is_constant_column",
    "C75_cenpop_accepts_number_refuted",
    "C75_raises"
   ],
   "note": "C75_cenpop_accepts_number_refuted: mc_t_peak_cenpop raises for one observation time for all halos. Arrays of length one are not broadcast in the model."
  },
  {
   "property": "C76",
   "status": "proved",
   "theorems": [
    "C76_galacticus_rows",
    "C76_galacticus_whole",
    "C76_galacticus_ranges_join",
    "C76_galacticus_script_reads_file",
    "C76_galacticus_file_to_table",
    "C76_test_False_refuted",
    "C76_hacc_load",
    "C76_hacc_times_agree",
    "C76_hacc_config_times_refuted",
    "C76_hacc_chunks_join",
    "C76_hacc_packages"
   ],
   "note": "C76_test_False_refuted and C76_hacc_config_times_refuted are the negative part. haccytrees, dsps and h5py are arbitrary; that chunks divide a file is a hypothesis on haccytrees."
  },
  {
   "property": "C77",
   "status": "proved",
   "theorems": [
    "C77_full_runs",
    "C77_tng_all_halos",
    "C77_bolshoi",
    "C77_bolshoi_failing_fit",
    "C77_bolshoi_few_halos",
    "C77_refuted",
    "C77_galacticus",
    "C77_sections",
    "C77_galacticus_small_file",
    "C77_galacticus_failing_fit",
    "C77_lastjourney",
    "C77_nothing_to_test",
    "C77_discovery_refuted"
   ],
   "note": "C77_refuted, C77_bolshoi_few_halos, C77_nothing_to_test and C77_discovery_refuted are the negative part. The numbers of the Discovery files are given as a list."
  },
  {
   "property": "C78",
   "status": "proved",
   "theorems": [
    "C78_single_panel",
    "C78_single_panel_total",
    "C78_no_such_epoch",
    "C78_residuals",
    "C78_residuals_total",
    "C78_residuals_grid",
    "C78_panel_time_refuted",
    "C78_files"
   ],
   "note": "C78_panel_time_refuted is the negative part. Tables of real numbers; colours, axes, legend and the zero line are not modelled."
  },
  {
   "property": "C79",
   "status": "proved",
   "theorems": [
    "C79_satellite_loss_gradient",
    "C79_central_u_loss_gradient",
    "C79_censat_loss_gradient",
    "C79_censat_u_loss_gradient",
    "C79_cholesky_factor",
    "C79_zero_correlation_halved",
    "C79_zero_correlation_refuted"
   ],
   "note": "C79_zero_correlation_refuted is the negative part. Duals over real numbers, one field at a time: the NaN gradients that reverse mode can produce through the branch of a where that is not taken are not modelled. The derivative of truncnorm (external) is assumed correct inside its support."
  },
  {
   "property": "C80",
   "status": "proved",
   "theorems": [
    "C80_index_loss_gradient",
    "C80_perfect_fit_is_stationary",
    "C80_mass_loss_gradient",
    "C80_multimass_loss_gradient",
    "C80_curve_loss_gradient",
    "C80_density_loss_gradient",
    "C80_central_density_loss_gradient"
   ],
   "note": "Duals over real numbers, one parameter at a time. At an absolute difference of exactly zero the loss of the fractions has no derivative; jax then returns 0 and the model 1, and the theorem excludes it. The derivative of the truncated normal density (external) is assumed correct inside its support."
  },
  {
   "property": "C81",
   "status": "proved",
   "theorems": [
    "C81_bounded_single_precision",
    "C81_bounded_double_precision",
    "C81_population_bounded",
    "C81_overshoot",
    "C81_upper_bound_refuted",
    "C81_accuracy"
   ],
   "note": "The closed bounds as such are false in both precisions (C81_upper_bound_refuted, C81_overshoot); the theorems give the exact list of parameters concerned and the size of the excess. Library sigmoid and logarithm correctly rounded for binary32 and binary64; any faithful arithmetic for the accuracy."
  },
  {
   "property": "C82",
   "status": "proved",
   "theorems": [
    "C82_offset_lost",
    "C82_floor_is_threshold",
    "C82_points_below_removed",
    "C82_zero_mass"
   ],
   "note": "Double precision with correctly rounded 10**x and log10 (numpy's may be off by one unit for arguments that are not powers of ten). Whether a floored point passes the cut for a fractional lgm_min depends on the rounding of log10(10**lgm_min) and is not decided here."
  },
  {
   "property": "C83",
   "status": "proved",
   "theorems": [
    "C83_total",
    "C83_generated_halo",
    "C83_peak_time",
    "C83_population",
    "C83_given_peak_times",
    "C83_from_unbounded",
    "C83_massive_halos"
   ],
   "note": "Library functions (exp, log10, 10**x, logistic) faithful as in C67-C69; the scatter is any finite vector, which jax delivers unless the covariance has no Cholesky factor. For the drawn peak times of satellites the library's cumulative truncated normal distribution is assumed to return finite values between 0 and 1 that do not decrease. Masses between 13.4 and 17.2 may or may not be representable depending on the parameters and are left open."
  },
  {
   "property": "C84",
   "status": "proved",
   "theorems": [
    "C84_fraction_early",
    "C84_late_index",
    "C84_early_index",
    "C84_critical_time",
    "C84_mass_today",
    "C84_still_growing",
    "C84_central_peak",
    "C84_satellite_peak",
    "C84_central_width"
   ],
   "note": "Over the reals. The covariance widths are pinned down by C38 and C79."
  },
  {
   "property": "C85",
   "status": "proved",
   "theorems": [
    "C85_rate_accuracy",
    "C85_single_and_double"
   ],
   "note": "Every operation is rounded on its own, in the order of the source. Assumes a faithful arithmetic (C67-C69) whose powers of ten are good to four units of rounding; C85_single_and_double is for correctly rounded library functions. Late index at least 0.1, times up to today, masses of at least one solar mass."
  },
  {
   "property": "C86",
   "status": "proved",
   "theorems": [
    "C86_unbounded_round_trip",
    "C86_bounded_round_trip",
    "C86_single_and_double"
   ],
   "note": "Every operation is rounded on its own; library sigmoid and logarithm within four units of rounding (C86_single_and_double: correctly rounded). Values nearer to a bound than one part in 500 are left open by C86_bounded_round_trip; at the bound itself the inverse is infinite (C68)."
  },
  {
   "property": "C87",
   "status": "proved",
   "theorems": [
    "C87_stability",
    "C87_text",
    "C87_conversion",
    "C87_single_and_double",
    "C87_fit_to_text"
   ],
   "note": "Histories over the reals on both sides; only the parameters are rounded. C87_fit_to_text has the hypotheses of C26. Parameters nearer to a bound than one part in 500, or with a peak before 1 Gyr, are left open by C87_conversion."
  },
  {
   "property": "C88",
   "status": "proved",
   "theorems": [
    "C88_early_history",
    "C88_early_rates",
    "C88_history",
    "C88_future_peak_refuted"
   ],
   "note": "Over the reals, from the values at all times of an interval; how many sampled times suffice is not decided. C88_future_peak_refuted is the negative part."
  },
  {
   "property": "C89",
   "status": "proved",
   "theorems": [
    "C89_formation_time",
    "C89_order",
    "C89_mass_immaterial",
    "C89_early_index",
    "C89_late_index",
    "C89_critical_time",
    "C89_peak_time",
    "C89_late_index_stopped_refuted",
    "C89_critical_time_stopped_refuted"
   ],
   "note": "Over the reals. For the late index and logtc the comparison of halos that stopped growing before today is refuted by examples."
  },
  {
   "property": "C90",
   "status": "proved",
   "theorems": [
    "C90_declines",
    "C90_growth_slows",
    "C90_range",
    "C90_early_index_bound_refuted",
    "C90_index_falls",
    "C90_rate_declines"
   ],
   "note": "Over the reals. C90_early_index_bound_refuted is the negative part."
  },
  {
   "property": "C91",
   "status": "proved",
   "theorems": [
    "C91_early_index",
    "C91_late_index",
    "C91_critical_time",
    "C91_peak_time"
   ],
   "note": "Over the reals, in the bounded parameters. The dependence on logm0 is C58."
  },
  {
   "property": "C92",
   "status": "proved",
   "theorems": [
    "C92_tng",
    "C92_bolshoi",
    "C92_lastjourney",
    "C92_galacticus"
   ],
   "note": "Histories are finite reals; rounding to float32 is the cast c of C26, and jax arithmetic inside the kernels is exact. Single precision of the loss is not followed here (C82, C70)."
  },
  {
   "property": "C93",
   "status": "proved",
   "theorems": [
    "C93_offset",
    "C93_shape",
    "C93_today",
    "C93_early_history",
    "C93_early_rates"
   ],
   "note": "Over the reals."
  }
 ]
}