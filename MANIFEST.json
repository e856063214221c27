{
 "claims": [
  {
   "property": "C01",
   "status": "proved",
   "theorems": [
    "C01_prior_support",
    "C01_prior_short_vector"
   ],
   "note": ""
  },
  {
   "property": "C02",
   "status": "proved",
   "theorems": [
    "C02_gate_no_evaluation",
    "C02_value",
    "C02_never_nan"
   ],
   "note": ""
  },
  {
   "property": "C03",
   "status": "proved",
   "theorems": [
    "C03_walkers_in_prior",
    "C03_reversed_bounds"
   ],
   "note": ""
  },
  {
   "property": "C04",
   "status": "proved",
   "theorems": [
    "C04_unpack",
    "C04_round_trip",
    "C04_round_trip_back"
   ],
   "note": ""
  },
  {
   "property": "C05",
   "status": "proved",
   "theorems": [
    "C05_wrong_length",
    "C05_right_length"
   ],
   "note": ""
  },
  {
   "property": "C06",
   "status": "proved",
   "theorems": [
    "C06_history_independent",
    "C06_history_independent_after_errors"
   ],
   "note": ""
  },
  {
   "property": "C07",
   "status": "proved",
   "theorems": [
    "C07_update_reads_profiles_only",
    "C07_redshift_refuted"
   ],
   "note": "Includes refuted expectation(s): C07_redshift_refuted"
  },
  {
   "property": "C08",
   "status": "proved",
   "theorems": [
    "C08_upsampled_grid",
    "C08_not_triggered",
    "C08_grid_restored"
   ],
   "note": ""
  },
  {
   "property": "C09",
   "status": "proved",
   "theorems": [
    "C09_rebin_blocks",
    "C09_rebin_conserves",
    "C09_rebin_error",
    "C09_rebin_only_ValueError"
   ],
   "note": ""
  },
  {
   "property": "C10",
   "status": "proved",
   "theorems": [
    "C10_no_psf",
    "C10_conserves_flux",
    "C10_condition_met",
    "C10_linear",
    "C10_nonneg",
    "C10_dark_cube_refuted"
   ],
   "note": "Includes refuted expectation(s): C10_dark_cube_refuted"
  },
  {
   "property": "C11",
   "status": "proved",
   "theorems": [
    "C11_conserves_flux",
    "C11_variable_width_fails"
   ],
   "note": ""
  },
  {
   "property": "C12",
   "status": "proved",
   "theorems": [
    "C12_collapse_flux",
    "C12_collapse_nearest",
    "C12_zero_sigma_cube",
    "C12_velocity_refuted"
   ],
   "note": "Includes refuted expectation(s): C12_velocity_refuted"
  },
  {
   "property": "C13",
   "status": "proved",
   "theorems": [
    "C13_scale_optimal",
    "C13_scale_rescale_invariant",
    "C13_scale_idempotent",
    "C13_dark_rows_zero",
    "C13_nan_flux_refuted"
   ],
   "note": "Includes refuted expectation(s): C13_nan_flux_refuted"
  },
  {
   "property": "C14",
   "status": "proved",
   "theorems": [
    "C14_masked_irrelevant",
    "C14_scaled_refuted"
   ],
   "note": "Includes refuted expectation(s): C14_scaled_refuted"
  },
  {
   "property": "C15",
   "status": "proved",
   "theorems": [
    "C15_chisq_value",
    "C15_chisq_nonneg",
    "C15_chisq_zero_iff"
   ],
   "note": ""
  },
  {
   "property": "C16",
   "status": "proved",
   "theorems": [
    "C16_llike_value",
    "C16_llike_orders",
    "C16_gaussian_refuted"
   ],
   "note": "Includes refuted expectation(s): C16_gaussian_refuted"
  },
  {
   "property": "C17",
   "status": "proved",
   "theorems": [
    "C17_isometry",
    "C17_orientation",
    "C17_invertible",
    "C17_identity",
    "C17_compose",
    "C17_major_axis",
    "C17_disc"
   ],
   "note": ""
  },
  {
   "property": "C18",
   "status": "proved",
   "theorems": [
    "C18_sin_range",
    "C18_sin_decreasing",
    "C18_angle_consistent",
    "C18_thin_refuted",
    "C18_invalid_angle",
    "C18_invalid_ratio"
   ],
   "note": "Includes refuted expectation(s): C18_thin_refuted"
  },
  {
   "property": "C19",
   "status": "proved",
   "theorems": [
    "C19_odd",
    "C19_bounded",
    "C19_increasing",
    "C19_turnover",
    "C19_linear",
    "C19_asymptote",
    "C19_zero_turnover",
    "C19_sign_degeneracy"
   ],
   "note": ""
  },
  {
   "property": "C20",
   "status": "proved",
   "theorems": [
    "C20_sersic",
    "C20_small_n_refuted",
    "C20_vertical",
    "C20_composed",
    "C20_I_sersic"
   ],
   "note": "Includes refuted expectation(s): C20_small_n_refuted"
  },
  {
   "property": "C21",
   "status": "proved",
   "theorems": [
    "C21_gaussian",
    "C21_moffat",
    "C21_low_beta_refuted"
   ],
   "note": "Includes refuted expectation(s): C21_low_beta_refuted"
  },
  {
   "property": "C22",
   "status": "proved",
   "theorems": [
    "C22_gaussian",
    "C22_moffat_refuted"
   ],
   "note": "Includes refuted expectation(s): C22_moffat_refuted"
  },
  {
   "property": "C23",
   "status": "proved",
   "theorems": [
    "C23_gauss_layout",
    "C23_moffat_layout",
    "C23_family_choice"
   ],
   "note": ""
  },
  {
   "property": "C24",
   "status": "proved",
   "theorems": [
    "C24_x_grid",
    "C24_z_grid",
    "C24_slit_tiled"
   ],
   "note": ""
  },
  {
   "property": "C25",
   "status": "proved",
   "theorems": [
    "C25_y_grid",
    "C25_y_grid_centre",
    "C25_spacing_refuted"
   ],
   "note": "Includes refuted expectation(s): C25_spacing_refuted"
  },
  {
   "property": "C26",
   "status": "proved",
   "theorems": [
    "C26_image_shape"
   ],
   "note": ""
  },
  {
   "property": "C27",
   "status": "proved",
   "theorems": [
    "C27_window",
    "C27_sum"
   ],
   "note": ""
  },
  {
   "property": "C28",
   "status": "proved",
   "theorems": [
    "C28_round"
   ],
   "note": ""
  },
  {
   "property": "C29",
   "status": "proved",
   "theorems": [
    "C29_exists",
    "C29_average",
    "C29_rotation",
    "C29_no_rotation",
    "C29_shift",
    "C29_shift_uniform"
   ],
   "note": ""
  },
  {
   "property": "C30",
   "status": "proved",
   "theorems": [
    "C30_slope_ignored",
    "C30_refuted"
   ],
   "note": "Includes refuted expectation(s): C30_refuted"
  },
  {
   "property": "C31",
   "status": "proved",
   "theorems": [
    "C31_ratio",
    "C31_profile"
   ],
   "note": ""
  },
  {
   "property": "C32",
   "status": "proved",
   "theorems": [
    "C32_opposite_angle",
    "C32_refuted"
   ],
   "note": "Includes refuted expectation(s): C32_refuted"
  },
  {
   "property": "C33",
   "status": "proved",
   "theorems": [
    "C33_offset_in_slit",
    "C33_overlap_width",
    "C33_width_refuted"
   ],
   "note": "Includes refuted expectation(s): C33_width_refuted"
  },
  {
   "property": "C34",
   "status": "proved",
   "theorems": [
    "C34_concat",
    "C34_consecutive",
    "C34_maximal",
    "C34_separated",
    "C34_unique"
   ],
   "note": ""
  },
  {
   "property": "C35",
   "status": "proved",
   "theorems": [
    "C35_1D",
    "C35_nan_refuted",
    "C35_2D",
    "C35_rows",
    "C35_rows_refuted"
   ],
   "note": "Includes refuted expectation(s): C35_nan_refuted, C35_rows_refuted"
  },
  {
   "property": "C36",
   "status": "proved",
   "theorems": [
    "C36_left",
    "C36_right",
    "C36_only",
    "C36_none",
    "C36_wraps",
    "C36_right_refuted",
    "C36_symmetry_refuted"
   ],
   "note": "Includes refuted expectation(s): C36_right_refuted, C36_symmetry_refuted"
  },
  {
   "property": "C37",
   "status": "proved",
   "theorems": [
    "C37_partition",
    "C37_sky_iff",
    "C37_lists",
    "C37_errors"
   ],
   "note": ""
  },
  {
   "property": "C38",
   "status": "proved",
   "theorems": [
    "C38_kept_good",
    "C38_sorted",
    "C38_mask",
    "C38_total",
    "C38_row_snr",
    "C38_kept_images",
    "C38_kept_runs",
    "C38_masked_runs",
    "C38_contiguous_refuted"
   ],
   "note": "Includes refuted expectation(s): C38_contiguous_refuted"
  },
  {
   "property": "C39",
   "status": "proved",
   "theorems": [
    "C39_up_edges",
    "C39_optimal",
    "C39_none",
    "C39_none_refuted",
    "C39_unknown",
    "C39_nan_refuted"
   ],
   "note": "Includes refuted expectation(s): C39_none_refuted, C39_nan_refuted"
  },
  {
   "property": "C40",
   "status": "proved",
   "theorems": [
    "C40_1D",
    "C40_1D_empty",
    "C40_1D_twice",
    "C40_empty_stale_refuted",
    "C40_2D",
    "C40_2D_empty",
    "C40_2D_twice",
    "C40_2D_copy",
    "C40_2D_copy_empty",
    "C40_copy_continuum_refuted",
    "C40_recorded",
    "C40_request"
   ],
   "note": "Includes refuted expectation(s): C40_empty_stale_refuted, C40_copy_continuum_refuted"
  },
  {
   "property": "C41",
   "status": "proved",
   "theorems": [
    "C41_python_float",
    "C41_python_float_refuted",
    "C41_no_redshift"
   ],
   "note": "Includes refuted expectation(s): C41_python_float_refuted"
  },
  {
   "property": "C42",
   "status": "proved",
   "theorems": [
    "C42_moves_together",
    "C42_last_row_refuted",
    "C42_window_below_refuted"
   ],
   "note": "Includes refuted expectation(s): C42_last_row_refuted, C42_window_below_refuted"
  },
  {
   "property": "C43",
   "status": "proved",
   "theorems": [
    "C43_decomposed",
    "C43_lines"
   ],
   "note": ""
  },
  {
   "property": "C44",
   "status": "proved",
   "theorems": [
    "C44_finite",
    "C44_zero_error_kept",
    "C44_zero_error_refuted"
   ],
   "note": "Includes refuted expectation(s): C44_zero_error_refuted"
  },
  {
   "property": "C45",
   "status": "proved",
   "theorems": [
    "C45_again",
    "C45_failure",
    "C45_failure_refuted"
   ],
   "note": "Includes refuted expectation(s): C45_failure_refuted"
  },
  {
   "property": "C46",
   "status": "proved",
   "theorems": [
    "C46_stopping_emcee2",
    "C46_stopping_emcee3",
    "C46_all_steps",
    "C46_no_steps",
    "C46_finishes"
   ],
   "note": ""
  },
  {
   "property": "C47",
   "status": "proved",
   "theorems": [
    "C47_caution_emcee2",
    "C47_caution_emcee3",
    "C47_caution_refuted"
   ],
   "note": "Includes refuted expectation(s): C47_caution_refuted"
  },
  {
   "property": "C48",
   "status": "proved",
   "theorems": [
    "C48_saved_emcee3",
    "C48_saved_emcee2",
    "C48_single_process_refuted"
   ],
   "note": "Includes refuted expectation(s): C48_single_process_refuted"
  },
  {
   "property": "C49",
   "status": "proved",
   "theorems": [
    "C49_flat",
    "C49_no_parameters"
   ],
   "note": ""
  },
  {
   "property": "C50",
   "status": "proved",
   "theorems": [
    "C50_columns",
    "C50_succeeds",
    "C50_fiducial"
   ],
   "note": ""
  },
  {
   "property": "C51",
   "status": "proved",
   "theorems": [
    "C51_only_sigma",
    "C51_derived",
    "C51_one_parameter",
    "C51_fixed_sigma_refuted"
   ],
   "note": "Includes refuted expectation(s): C51_fixed_sigma_refuted"
  },
  {
   "property": "C52",
   "status": "proved",
   "theorems": [
    "C52_repeated",
    "C52_repeat_refuted",
    "C52_bestfit"
   ],
   "note": "Includes refuted expectation(s): C52_repeat_refuted"
  },
  {
   "property": "C53",
   "status": "proved",
   "theorems": [
    "C53_summaries",
    "C53_unique"
   ],
   "note": ""
  },
  {
   "property": "C54",
   "status": "proved",
   "theorems": [
    "C54_one_group",
    "C54_two_sigma",
    "C54_second_group_refuted"
   ],
   "note": "Includes refuted expectation(s): C54_second_group_refuted"
  },
  {
   "property": "C55",
   "status": "proved",
   "theorems": [
    "C55_corrected",
    "C55_monotone",
    "C55_no_width"
   ],
   "note": ""
  },
  {
   "property": "C56",
   "status": "proved",
   "theorems": [
    "C56_completes",
    "C56_errors",
    "C56_refuted"
   ],
   "note": "Includes refuted expectation(s): C56_refuted"
  },
  {
   "property": "C57",
   "status": "proved",
   "theorems": [
    "C57_physical",
    "C57_dispersion_refuted",
    "C57_flux_refuted"
   ],
   "note": "Includes refuted expectation(s): C57_dispersion_refuted, C57_flux_refuted"
  },
  {
   "property": "C58",
   "status": "proved",
   "theorems": [
    "C58_template",
    "C58_linear",
    "C58_bound",
    "C58_peak",
    "C58_exact",
    "C58_spectrum",
    "C58_refuted"
   ],
   "note": "Includes refuted expectation(s): C58_refuted"
  },
  {
   "property": "C59",
   "status": "proved",
   "theorems": [
    "C59_residuals",
    "C59_masked_ignored",
    "C59_refuted"
   ],
   "note": "Includes refuted expectation(s): C59_refuted"
  },
  {
   "property": "C60",
   "status": "proved",
   "theorems": [
    "C60_setAttr",
    "C60_constructor",
    "C60_unknown"
   ],
   "note": ""
  },
  {
   "property": "C61",
   "status": "proved",
   "theorems": [
    "C61_independent",
    "C61_shared_results",
    "C61_independent_refuted"
   ],
   "note": "Includes refuted expectation(s): C61_independent_refuted"
  },
  {
   "property": "C62",
   "status": "proved",
   "theorems": [
    "C62_independent",
    "C62_shared_profile",
    "C62_independent_refuted"
   ],
   "note": "Includes refuted expectation(s): C62_independent_refuted"
  },
  {
   "property": "C63",
   "status": "proved",
   "theorems": [
    "C63_offset",
    "C63_half_turns",
    "C63_perpendicular",
    "C63_generated"
   ],
   "note": ""
  },
  {
   "property": "C64",
   "status": "proved",
   "theorems": [
    "C64_window_symmetric",
    "C64_centre",
    "C64_centre_inside",
    "C64_centre_near",
    "C64_no_position",
    "C64_no_position_window",
    "C64_fine_pixels",
    "C64_coarse_few_rows",
    "C64_coarse_rows"
   ],
   "note": ""
  },
  {
   "property": "C65",
   "status": "proved",
   "theorems": [
    "C65_roundtrip",
    "C65_reload_failure",
    "C65_save_failure",
    "C65_crash",
    "C65_crash_refuted"
   ],
   "note": "Includes refuted expectation(s): C65_crash_refuted"
  },
  {
   "property": "C66",
   "status": "proved",
   "theorems": [
    "C66_lookup",
    "C66_missing",
    "C66_split",
    "C66_lines",
    "C66_windows",
    "C66_companions",
    "C66_trim",
    "C66_trim_refuted",
    "C66_sky",
    "C66_names",
    "C66_widths"
   ],
   "note": "Includes refuted expectation(s): C66_trim_refuted"
  },
  {
   "property": "C67",
   "status": "proved",
   "theorems": [
    "C67_cube_when",
    "C67_second_call_refuted",
    "C67_update_shape"
   ],
   "note": "Includes refuted expectation(s): C67_second_call_refuted"
  },
  {
   "property": "C68",
   "status": "proved",
   "theorems": [
    "C68_bin_mean",
    "C68_conserved",
    "C68_image",
    "C68_same_grid_refuted",
    "C68_within_pixel_refuted",
    "C68_outside_refuted",
    "C68_debug_fails"
   ],
   "note": "Includes refuted expectation(s): C68_same_grid_refuted, C68_within_pixel_refuted, C68_outside_refuted"
  },
  {
   "property": "C69",
   "status": "proved",
   "theorems": [
    "C69_rotation",
    "C69_composition",
    "C69_corners",
    "C69_centre",
    "C69_sign",
    "C69_x_sign",
    "C69_sign_refuted"
   ],
   "note": "Includes refuted expectation(s): C69_sign_refuted"
  },
  {
   "property": "C70",
   "status": "proved",
   "theorems": [
    "C70_longest",
    "C70_full",
    "C70_monotone",
    "C70_shrink",
    "C70_continuous"
   ],
   "note": ""
  },
  {
   "property": "C71",
   "status": "proved",
   "theorems": [
    "C71_mock"
   ],
   "note": ""
  },
  {
   "property": "C72",
   "status": "proved",
   "theorems": [
    "C72_copy_is_setup",
    "C72_same_values",
    "C72_same_likelihood",
    "C72_attributes"
   ],
   "note": ""
  },
  {
   "property": "C73",
   "status": "proved",
   "theorems": [
    "C73_pattern",
    "C73_bounds",
    "C73_agree_refuted"
   ],
   "note": "Includes refuted expectation(s): C73_agree_refuted"
  },
  {
   "property": "C74",
   "status": "proved",
   "theorems": [
    "C74_no_effect_refuted",
    "C74_step_with_shift",
    "C74_success_with_shift"
   ],
   "note": "Includes refuted expectation(s): C74_no_effect_refuted"
  },
  {
   "property": "C75",
   "status": "proved",
   "theorems": [
    "C75_walkers_in_bounds",
    "C75_prior",
    "C75_overflow_refuted"
   ],
   "note": "Includes refuted expectation(s): C75_overflow_refuted"
  },
  {
   "property": "C76",
   "status": "proved",
   "theorems": [
    "C76_well_posed_succeeds"
   ],
   "note": ""
  },
  {
   "property": "C77",
   "status": "proved",
   "theorems": [
    "C77_row_flux",
    "C77_disc"
   ],
   "note": ""
  },
  {
   "property": "C78",
   "status": "proved",
   "theorems": [
    "C78_point_source",
    "C78_centred",
    "C78_displaced_refuted",
    "C78_even_refuted"
   ],
   "note": "Includes refuted expectation(s): C78_displaced_refuted, C78_even_refuted"
  },
  {
   "property": "C79",
   "status": "proved",
   "theorems": [
    "C79_caller_arrays",
    "C79_unchanged_refuted"
   ],
   "note": "Includes refuted expectation(s): C79_unchanged_refuted"
  },
  {
   "property": "C80",
   "status": "proved",
   "theorems": [
    "C80_prepared",
    "C80_needs_two"
   ],
   "note": ""
  },
  {
   "property": "C81",
   "status": "proved",
   "theorems": [
    "C81_only_this_run",
    "C81_mixed_refuted"
   ],
   "note": "Includes refuted expectation(s): C81_mixed_refuted"
  },
  {
   "property": "C82",
   "status": "proved",
   "theorems": [
    "C82_fixed_dispersion_fails"
   ],
   "note": ""
  },
  {
   "property": "C83",
   "status": "proved",
   "theorems": [
    "C83_infinite",
    "C83_infinite_lower",
    "C83_redchisq",
    "C83_exhausted"
   ],
   "note": ""
  },
  {
   "property": "C84",
   "status": "proved",
   "theorems": [
    "C84_line_profile",
    "C84_succeeds",
    "C84_gaussian_shape"
   ],
   "note": ""
  },
  {
   "property": "C85",
   "status": "proved",
   "theorems": [
    "C85_sign",
    "C85_constant",
    "C85_image",
    "C85_fit"
   ],
   "note": ""
  },
  {
   "property": "C86",
   "status": "proved",
   "theorems": [
    "C86_zero_voxel",
    "C86_zero_voxel_refuted",
    "C86_nan",
    "C86_nan_refuted"
   ],
   "note": "Includes refuted expectation(s): C86_zero_voxel_refuted, C86_nan_refuted"
  },
  {
   "property": "C87",
   "status": "proved",
   "theorems": [
    "C87_instrument_kernel"
   ],
   "note": ""
  },
  {
   "property": "C88",
   "status": "proved",
   "theorems": [
    "C88_default_width",
    "C88_bounds"
   ],
   "note": ""
  },
  {
   "property": "C89",
   "status": "proved",
   "theorems": [
    "C89_recalculate",
    "C89_shift_fails",
    "C89_refuted"
   ],
   "note": "Includes refuted expectation(s): C89_refuted"
  },
  {
   "property": "C90",
   "status": "proved",
   "theorems": [
    "C90_same_model",
    "C90_refuted"
   ],
   "note": "Includes refuted expectation(s): C90_refuted"
  },
  {
   "property": "C91",
   "status": "proved",
   "theorems": [
    "C91_refuted",
    "C91_attribute",
    "C91_errors"
   ],
   "note": "Includes refuted expectation(s): C91_refuted"
  },
  {
   "property": "C92",
   "status": "proved",
   "theorems": [
    "C92_setup",
    "C92_unlisted_refuted",
    "C92_plain_float_refuted"
   ],
   "note": "Includes refuted expectation(s): C92_unlisted_refuted, C92_plain_float_refuted"
  },
  {
   "property": "C93",
   "status": "proved",
   "theorems": [
    "C93_lines",
    "C93_refuted"
   ],
   "note": "Includes refuted expectation(s): C93_refuted"
  },
  {
   "property": "C94",
   "status": "proved",
   "theorems": [
    "C94_refuted"
   ],
   "note": "Includes refuted expectation(s): C94_refuted"
  },
  {
   "property": "C95",
   "status": "proved",
   "theorems": [
    "C95_on_ellipse",
    "C95_other_axis",
    "C95_unproject",
    "C95_components"
   ],
   "note": ""
  },
  {
   "property": "C96",
   "status": "proved",
   "theorems": [
    "C96_angle",
    "C96_missing",
    "C96_refuted"
   ],
   "note": "Includes refuted expectation(s): C96_refuted"
  },
  {
   "property": "C97",
   "status": "proved",
   "theorems": [
    "C97_bearing",
    "C97_shift",
    "C97_unique"
   ],
   "note": ""
  },
  {
   "property": "C98",
   "status": "proved",
   "theorems": [
    "C98_dither_refuted"
   ],
   "note": "Includes refuted expectation(s): C98_dither_refuted"
  },
  {
   "property": "C99",
   "status": "proved",
   "theorems": [
    "C99_galaxy",
    "C99_galaxy_default",
    "C99_galaxy_refuted",
    "C99_fit",
    "C99_fit_refuted"
   ],
   "note": "Includes refuted expectation(s): C99_galaxy_refuted, C99_fit_refuted"
  },
  {
   "property": "C100",
   "status": "proved",
   "theorems": [
    "C100_resave_refuted"
   ],
   "note": "Includes refuted expectation(s): C100_resave_refuted"
  },
  {
   "property": "C101",
   "status": "proved",
   "theorems": [
    "C101_no_psf",
    "C101_empty_stamp",
    "C101_shared_instrument_refuted"
   ],
   "note": "Includes refuted expectation(s): C101_shared_instrument_refuted"
  },
  {
   "property": "C102",
   "status": "proved",
   "theorems": [
    "C102_settings_overwritten",
    "C102_shared_theta_refuted"
   ],
   "note": "Includes refuted expectation(s): C102_shared_theta_refuted"
  },
  {
   "property": "C103",
   "status": "proved",
   "theorems": [
    "C103_snr",
    "C103_coarse",
    "C103_snr_refuted"
   ],
   "note": "Includes refuted expectation(s): C103_snr_refuted"
  },
  {
   "property": "C104",
   "status": "proved",
   "theorems": [
    "C104_trimmed",
    "C104_kept",
    "C104_last_row_refuted"
   ],
   "note": "Includes refuted expectation(s): C104_last_row_refuted"
  },
  {
   "property": "C105",
   "status": "proved",
   "theorems": [
    "C105_no_id_refuted",
    "C105_no_label"
   ],
   "note": "Includes refuted expectation(s): C105_no_id_refuted"
  },
  {
   "property": "C106",
   "status": "proved",
   "theorems": [
    "C106_position"
   ],
   "note": ""
  },
  {
   "property": "C107",
   "status": "proved",
   "theorems": [
    "C107_gaussian",
    "C107_gaussian_kept",
    "C107_line",
    "C107_triple",
    "C107_width_refuted"
   ],
   "note": "Includes refuted expectation(s): C107_width_refuted"
  },
  {
   "property": "C108",
   "status": "proved",
   "theorems": [
    "C108_measured",
    "C108_bounds",
    "C108_never_raises",
    "C108_unprepared",
    "C108_sky_ignored"
   ],
   "note": ""
  },
  {
   "property": "C109",
   "status": "proved",
   "theorems": [
    "C109_plot_harmless",
    "C109_plot_loses",
    "C109_plot_refuted"
   ],
   "note": "Includes refuted expectation(s): C109_plot_refuted"
  },
  {
   "property": "C110",
   "status": "proved",
   "theorems": [
    "C110_continuum_blind"
   ],
   "note": ""
  },
  {
   "property": "C111",
   "status": "proved",
   "theorems": [
    "C111_sky_masked",
    "C111_temporary_refuted"
   ],
   "note": "Includes refuted expectation(s): C111_temporary_refuted"
  },
  {
   "property": "C112",
   "status": "proved",
   "theorems": [
    "C112_image",
    "C112_arctan"
   ],
   "note": ""
  },
  {
   "property": "C113",
   "status": "proved",
   "theorems": [
    "C113_clamped",
    "C113_rows",
    "C113_shift",
    "C113_off_centre_refuted"
   ],
   "note": "Includes refuted expectation(s): C113_off_centre_refuted"
  },
  {
   "property": "C114",
   "status": "proved",
   "theorems": [
    "C114_thresholds",
    "C114_refined",
    "C114_dispersion_used"
   ],
   "note": ""
  },
  {
   "property": "C115",
   "status": "proved",
   "theorems": [
    "C115_group",
    "C115_spectrum_wins",
    "C115_aligned",
    "C115_explicit_refuted",
    "C115_mixed_refuted"
   ],
   "note": "Includes refuted expectation(s): C115_explicit_refuted, C115_mixed_refuted"
  },
  {
   "property": "C116",
   "status": "proved",
   "theorems": [
    "C116_this_run",
    "C116_plot_failure",
    "C116_bad_resolution",
    "C116_failed_run",
    "C116_fresh_reload",
    "C116_memory_refuted",
    "C116_trace_refuted"
   ],
   "note": "Includes refuted expectation(s): C116_memory_refuted, C116_trace_refuted"
  },
  {
   "property": "C117",
   "status": "proved",
   "theorems": [
    "C117_label",
    "C117_plotted",
    "C117_shown",
    "C117_sigma",
    "C117_curves",
    "C117_on_curve",
    "C117_on_curve22",
    "C117_arctan",
    "C117_sigma0_refuted",
    "C117_all_refuted",
    "C117_radius_refuted"
   ],
   "note": "Includes refuted expectation(s): C117_sigma0_refuted, C117_all_refuted, C117_radius_refuted"
  },
  {
   "property": "C118",
   "status": "proved",
   "theorems": [
    "C118_drawn",
    "C118_content",
    "C118_one_sky",
    "C118_slit",
    "C118_axes",
    "C118_window",
    "C118_rows",
    "C118_offset_refuted",
    "C118_no_fit_refuted",
    "C118_no_slit_refuted"
   ],
   "note": "Includes refuted expectation(s): C118_offset_refuted, C118_no_fit_refuted, C118_no_slit_refuted"
  },
  {
   "property": "C119",
   "status": "proved",
   "theorems": [
    "C119_spread",
    "C119_centred",
    "C119_displaced_refuted"
   ],
   "note": "Includes refuted expectation(s): C119_displaced_refuted"
  },
  {
   "property": "C120",
   "status": "proved",
   "theorems": [
    "C120_panels",
    "C120_marked_rows",
    "C120_same_rows",
    "C120_hatched",
    "C120_edges",
    "C120_no_model_refuted",
    "C120_sky_refuted"
   ],
   "note": "Includes refuted expectation(s): C120_no_model_refuted, C120_sky_refuted"
  },
  {
   "property": "C121",
   "status": "proved",
   "theorems": [
    "C121_traces",
    "C121_total"
   ],
   "note": ""
  },
  {
   "property": "C122",
   "status": "proved",
   "theorems": [
    "C122_half_turn",
    "C122_half_turn_fit",
    "C122_sign",
    "C122_sign_fit",
    "C122_face_on",
    "C122_backwards",
    "C122_turned"
   ],
   "note": ""
  },
  {
   "property": "C123",
   "status": "proved",
   "theorems": [
    "C123_bright_image",
    "C123_bright_fit",
    "C123_units",
    "C123_units_difference"
   ],
   "note": ""
  },
  {
   "property": "C124",
   "status": "proved",
   "theorems": [
    "C124_prep",
    "C124_decisions",
    "C124_fit",
    "C124_difference",
    "C124_fill_refuted"
   ],
   "note": "Includes refuted expectation(s): C124_fill_refuted"
  },
  {
   "property": "C125",
   "status": "proved",
   "theorems": [
    "C125_slope",
    "C125_rows"
   ],
   "note": ""
  },
  {
   "property": "C126",
   "status": "proved",
   "theorems": [
    "C126_image",
    "C126_fit"
   ],
   "note": ""
  },
  {
   "property": "C127",
   "status": "proved",
   "theorems": [
    "C127_requests",
    "C127_asked",
    "C127_refit"
   ],
   "note": ""
  },
  {
   "property": "C128",
   "status": "proved",
   "theorems": [
    "C128_dispersion",
    "C128_rotation",
    "C128_light",
    "C128_sampling",
    "C128_refuted"
   ],
   "note": "Includes refuted expectation(s): C128_refuted"
  },
  {
   "property": "C129",
   "status": "proved",
   "theorems": [
    "C129_image",
    "C129_fit",
    "C129_gaussian",
    "C129_moffat",
    "C129_disc"
   ],
   "note": ""
  },
  {
   "property": "C130",
   "status": "proved",
   "theorems": [
    "C130_masks",
    "C130_columns"
   ],
   "note": ""
  },
  {
   "property": "C131",
   "status": "proved",
   "theorems": [
    "C131_order",
    "C131_merge",
    "C131_sum",
    "C131_first_line",
    "C131_blur_refuted",
    "C131_outside_refuted"
   ],
   "note": "Includes refuted expectation(s): C131_blur_refuted, C131_outside_refuted"
  },
  {
   "property": "C132",
   "status": "proved",
   "theorems": [
    "C132_order",
    "C132_walkers",
    "C132_units_columns",
    "C132_units"
   ],
   "note": ""
  },
  {
   "property": "C133",
   "status": "proved",
   "theorems": [
    "C133_units",
    "C133_library",
    "C133_corrected",
    "C133_error_scale"
   ],
   "note": ""
  },
  {
   "property": "C134",
   "status": "proved",
   "theorems": [
    "C134_bounds",
    "C134_no_rotation",
    "C134_narrow",
    "C134_narrow_reach",
    "C134_narrow_no_rotation",
    "C134_arctan"
   ],
   "note": ""
  },
  {
   "property": "C135",
   "status": "proved",
   "theorems": [
    "C135_truth",
    "C135_posterior",
    "C135_unique_refuted",
    "C135_redshift_refuted",
    "C135_mock"
   ],
   "note": "Includes refuted expectation(s): C135_unique_refuted, C135_redshift_refuted"
  },
  {
   "property": "C136",
   "status": "proved",
   "theorems": [
    "C136_image",
    "C136_fit",
    "C136_posterior",
    "C136_mock",
    "C136_negative_refuted"
   ],
   "note": "Includes refuted expectation(s): C136_negative_refuted"
  },
  {
   "property": "C137",
   "status": "proved",
   "theorems": [
    "C137_threshold_refuted",
    "C137_image",
    "C137_fit",
    "C137_arctan",
    "C137_refuted"
   ],
   "note": "Includes refuted expectation(s): C137_threshold_refuted, C137_refuted"
  },
  {
   "property": "C138",
   "status": "proved",
   "theorems": [
    "C138_fine",
    "C138_coarse",
    "C138_brightness_refuted"
   ],
   "note": "Includes refuted expectation(s): C138_brightness_refuted"
  },
  {
   "property": "C139",
   "status": "proved",
   "theorems": [
    "C139_objects",
    "C139_llike",
    "C139_points",
    "C139_chisq",
    "C139_best_errors",
    "C139_unit_chi2_refuted"
   ],
   "note": "Includes refuted expectation(s): C139_unit_chi2_refuted"
  },
  {
   "property": "C140",
   "status": "proved",
   "theorems": [
    "C140_images",
    "C140_fit",
    "C140_any",
    "C140_gaussian_refuted"
   ],
   "note": "Includes refuted expectation(s): C140_gaussian_refuted"
  },
  {
   "property": "C141",
   "status": "proved",
   "theorems": [
    "C141_image",
    "C141_fit",
    "C141_masked_refuted"
   ],
   "note": "Includes refuted expectation(s): C141_masked_refuted"
  },
  {
   "property": "C142",
   "status": "proved",
   "theorems": [
    "C142_recover",
    "C142_width",
    "C142_units",
    "C142_two_refuted",
    "C142_dark_refuted",
    "C142_one_refuted"
   ],
   "note": "Includes refuted expectation(s): C142_two_refuted, C142_dark_refuted, C142_one_refuted"
  },
  {
   "property": "C143",
   "status": "proved",
   "theorems": [
    "C143_truth",
    "C143_same",
    "C143_fit",
    "C143_zero_refuted"
   ],
   "note": "Includes refuted expectation(s): C143_zero_refuted"
  },
  {
   "property": "C144",
   "status": "proved",
   "theorems": [
    "C144_finite",
    "C144_posterior",
    "C144_chisq",
    "C144_infinite_refuted",
    "C144_prepared"
   ],
   "note": "Includes refuted expectation(s): C144_infinite_refuted"
  },
  {
   "property": "C145",
   "status": "proved",
   "theorems": [
    "C145_rows"
   ],
   "note": ""
  },
  {
   "property": "C146",
   "status": "proved",
   "theorems": [
    "C146_zero",
    "C146_fit",
    "C146_mask_refuted"
   ],
   "note": "Includes refuted expectation(s): C146_mask_refuted"
  },
  {
   "property": "C147",
   "status": "proved",
   "theorems": [
    "C147_run",
    "C147_succeeds",
    "C147_stays",
    "C147_own",
    "C147_shared_refuted",
    "C147_sampler"
   ],
   "note": "Includes refuted expectation(s): C147_shared_refuted"
  }
 ]
}