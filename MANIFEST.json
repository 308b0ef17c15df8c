{
 "claims": [
  {
   "property": "C01",
   "status": "proved",
   "theorems": [
    "C01_names_decode_exactly",
    "C01_decode_encode",
    "C01_all_names"
   ],
   "note": "Exact decoding, encode/decode and names(None)."
  },
  {
   "property": "C02",
   "status": "proved",
   "theorems": [
    "C02_lookups_agree",
    "C02_last_definition_by_name",
    "C02_last_definition_by_number",
    "C02_undefined_name",
    "C02_undefined_number",
    "C02_mask_of_or",
    "C02_mask_undefined_part"
   ],
   "note": "Name/bit lookups agree, last definition wins, undefined names fail, mask is the or."
  },
  {
   "property": "C03",
   "status": "proved",
   "theorems": [
    "C03_accepts",
    "C03_accepts_only",
    "C03_blank",
    "C03_none",
    "C03_failure_is_exit_1"
   ],
   "note": "Accepted grammar characterised in both directions; failures are exit 1."
  },
  {
   "property": "C04",
   "status": "proved",
   "theorems": [
    "C04_selection_is_or_of_ands",
    "C04_no_selection",
    "C04_empty_clause_keeps_all"
   ],
   "note": "Selection is the order preserving filter by the or of ands; empty clause keeps all rows."
  },
  {
   "property": "C05",
   "status": "proved",
   "theorems": [
    "C05_duplicate_keys_rejected",
    "C05_pairs_are_exactly_the_equal_values"
   ],
   "note": "Exact join, for any correct argsort and total order of keys."
  },
  {
   "property": "C06",
   "status": "proved",
   "theorems": [
    "C06_injective_and_closest",
    "C06_without_duplicate_removal",
    "C06_empty_second_catalogue_refuted"
   ],
   "note": "For non-empty second catalogues, for any nearest neighbour oracle; the claim for an empty one is refuted (C06_empty_second_catalogue_refuted)."
  },
  {
   "property": "C07",
   "status": "proved",
   "theorems": [
    "C07_result_is_injective",
    "C07_returns_normally",
    "C07_small_second_catalogue_fails"
   ],
   "note": "Injective for any oracle; also normal return with >=3 points and failure below."
  },
  {
   "property": "C08",
   "status": "proved",
   "theorems": [
    "C08_recovers_translated_dilated_copy"
   ],
   "note": "True correspondence recovered for all scales, translations, reorderings."
  },
  {
   "property": "C09",
   "status": "proved",
   "theorems": [
    "C09_assignment_is_valid_and_scored",
    "C09_total_is_maximal",
    "C09_alternatives",
    "C09_returns_normally",
    "C09_errors",
    "C09_assigned_in_reach_refuted"
   ],
   "note": "For any complete one-to-one solver; maximality for optimal solvers. 'Assigned means in reach' refuted separately."
  },
  {
   "property": "C10",
   "status": "proved",
   "theorems": [
    "C10_possible_assignments"
   ],
   "note": "Exact content of the dictionary."
  },
  {
   "property": "C11",
   "status": "proved",
   "theorems": [
    "C11_average_of_paired_spots",
    "C11_same_spots_unchanged",
    "C11_no_table"
   ],
   "note": "KD-tree and argsort are oracles with their documented behaviour (any tie breaking). Describes finite results; too few or collinear pairs raise LinAlgError (C26)."
  },
  {
   "property": "C12",
   "status": "proved",
   "theorems": [
    "C12_put360",
    "C12_arctan2d",
    "C12_mjd2lst"
   ],
   "note": "Range, congruence and direction, over the reals."
  },
  {
   "property": "C13",
   "status": "proved",
   "theorems": [
    "C13_average_symmetric",
    "C13_average_ignores_turns",
    "C13_average_in_range",
    "C13_average_is_midpoint"
   ],
   "note": "Symmetry, turn invariance, range and midpoint for directions less than half a turn apart."
  },
  {
   "property": "C14",
   "status": "proved",
   "theorems": [
    "C14_wrap_into_range",
    "C14_wrap_TP_into_ranges"
   ],
   "note": "Exact characterisation of the wrapped angle and of the flag."
  },
  {
   "property": "C15",
   "status": "proved",
   "theorems": [
    "C15_always_in_ranges",
    "C15_unflagged_is_on_target",
    "C15_tp2xy",
    "C15_flagged_means_unreachable_refuted"
   ],
   "note": "On target when not flagged; flagged means no configuration with phi in [0,180] in range reaches it. 'Flagged means no angles in the ranges reach it' is refuted (C15_flagged_means_unreachable_refuted)."
  },
  {
   "property": "C16",
   "status": "proved",
   "theorems": [
    "C16_nearest_reachable_point"
   ],
   "note": "For a theta range of at least a turn and a phi range containing 0 and 180, so that the ranges do not interfere."
  },
  {
   "property": "C17",
   "status": "proved",
   "theorems": [
    "C17_guess_picks_closest_configuration",
    "C17_flagged_means_unreachable_refuted"
   ],
   "note": "Closest configuration for theta ranges below three turns. 'Flagged means unreachable' is refuted for bad guesses."
  },
  {
   "property": "C18",
   "status": "proved",
   "theorems": [
    "C18_ext_int_inverse",
    "C18_flat_loc_inverse",
    "C18_length_mismatch_fails",
    "C18_loc2int_int2loc"
   ],
   "note": "Real arithmetic for floats. Both orders of each pair, scalars and vectors mixed, and the position round trip through xy2tp."
  },
  {
   "property": "C19",
   "status": "proved",
   "theorems": [
    "C19_parameters_per_point",
    "C19_returns",
    "C19_wrong_length_not_refused"
   ],
   "note": "Equivalence with the point-wise inverse kinematics; returns under positive arms; wrong lengths not refused (proved)."
  },
  {
   "property": "C20",
   "status": "proved",
   "theorems": [
    "C20_delta_angle",
    "C20_unique",
    "C20_scalar_start_refuted"
   ],
   "note": "The stated conditions determine the value (C20_unique). Refuted: a scalar start with vector final raises IndexError, against the docstring."
  },
  {
   "property": "C21",
   "status": "proved",
   "theorems": [
    "C21_radii_invert",
    "C21_strictly_increasing",
    "C21_positions_round_trip",
    "C21_qs_round_trip",
    "C21_polar",
    "C21_submicron_refuted"
   ],
   "note": "Real arithmetic for floats; polynomial bounds by interval arithmetic (adds the standard library's primitive float and 63 bit integer axioms). Refuted: accuracy of 0.4 micrometres at the centre."
  },
  {
   "property": "C22",
   "status": "proved",
   "theorems": [
    "C22_interpolates_table",
    "C22_through_radius",
    "C22_inverse",
    "C22_monotone",
    "C22_nan_outside",
    "C22_z2r_inverts_r2z_refuted"
   ],
   "note": "All 501 rows of the file; numpy's search modelled. Refuted: z2r inverts r2z (NaN always, as np.interp needs increasing abscissae)."
  },
  {
   "property": "C23",
   "status": "proved",
   "theorems": [
    "C23_inverse",
    "C23_rigid_motion",
    "C23_yaw_pitch_roll",
    "C23_nominal_height_error",
    "C23_shipped_round_trip"
   ],
   "note": "Real arithmetic for floats; NaN height gives NaN point."
  },
  {
   "property": "C24",
   "status": "proved",
   "theorems": [
    "C24_each_row_own_petal",
    "C24_unknown_petal"
   ],
   "note": ""
  },
  {
   "property": "C25",
   "status": "proved",
   "theorems": [
    "C25_apply_inverse_undoes_apply",
    "C25_apply_undoes_apply_inverse",
    "C25_apply_formula"
   ],
   "note": "Exact real arithmetic."
  },
  {
   "property": "C26",
   "status": "proved",
   "theorems": [
    "C26_fit_outcome",
    "C26_collinear_sources_fail",
    "C26_new_object",
    "C26_used_object_refuted",
    "C26_finite_refuted"
   ],
   "note": "Exact real arithmetic; linear solver modelled as Gaussian elimination with pivoting, so no solver oracle. Claims that any non-degenerate data give a finite correction, or that the object's history does not matter, are refuted."
  },
  {
   "property": "C27",
   "status": "proved",
   "theorems": [
    "C27_fit_rotoff",
    "C27_equal_sources_fail",
    "C27_best_rigid_motion_refuted"
   ],
   "note": "Exact real arithmetic. The claim that the result is the best rotation plus offset is refuted."
  },
  {
   "property": "C28",
   "status": "proved",
   "theorems": [
    "C28_simplecorr_saved_then_refused",
    "C28_tancorr_saved_then_refused",
    "C28_fromjson_restores",
    "C28_roundtrip_refuted",
    "C28_refused"
   ],
   "note": "The round trip claim is refuted; what happens instead is proved. The json text layer is not modelled (dictionaries only)."
  },
  {
   "property": "C29",
   "status": "proved",
   "theorems": [
    "C29_roundtrip",
    "C29_version1",
    "C29_unfitted_fails",
    "C29_refused"
   ],
   "note": "Dictionaries; the text layer of the json library is not modelled."
  },
  {
   "property": "C30",
   "status": "proved",
   "theorems": [
    "C30_forward",
    "C30_exact_without_terms",
    "C30_focal_plane_round_trip",
    "C30_pixel_round_trip",
    "C30_inverse_refuted"
   ],
   "note": "C30_inverse_refuted: without the contraction hypothesis the result can be wrong by 420*2^20 mm with no error."
  },
  {
   "property": "C31",
   "status": "proved",
   "theorems": [
    "C31_pairing",
    "C31_metrology_columns",
    "C31_pinhole_above_nine_refuted",
    "C31_lone_missing_refuted",
    "C31_location_zero_refuted"
   ],
   "note": "Refuted without the side conditions: pinholes >= 10, a lone fiducial without metrology, a fiducial at location 0."
  },
  {
   "property": "C32",
   "status": "proved",
   "theorems": [
    "C32_noll_bijection"
   ],
   "note": ""
  },
  {
   "property": "C33",
   "status": "proved",
   "theorems": [
    "C33_zernike"
   ],
   "note": ""
  },
  {
   "property": "C34",
   "status": "proved",
   "theorems": [
    "C34_gradients_and_curls"
   ],
   "note": ""
  },
  {
   "property": "C35",
   "status": "proved",
   "theorems": [
    "C35_zhao_burge_fit"
   ],
   "note": "Exact arithmetic; polynomial ids valid."
  },
  {
   "property": "C36",
   "status": "proved",
   "theorems": [
    "C36_linear"
   ],
   "note": ""
  },
  {
   "property": "C37",
   "status": "proved",
   "theorems": [
    "C37_components",
    "C37_pointing",
    "C37_plane_round_trip",
    "C37_sky_round_trip",
    "C37_behind_refuted"
   ],
   "note": ""
  },
  {
   "property": "C38",
   "status": "proved",
   "theorems": [
    "C38_altaz_back",
    "C38_hadec_back",
    "C38_below_horizon_refuted",
    "C38_axes"
   ],
   "note": ""
  },
  {
   "property": "C39",
   "status": "proved",
   "theorems": [
    "C39_rotations",
    "C39_rotation_undone",
    "C39_rotation_matrix",
    "C39_polar_pole",
    "C39_hardcoded",
    "C39_negated_misalignment_refuted",
    "C39_precession",
    "C39_from_icrs",
    "C39_precession_undone",
    "C39_precession_separation"
   ],
   "note": ""
  },
  {
   "property": "C40",
   "status": "proved",
   "theorems": [
    "C40_apply",
    "C40_field_inverse",
    "C40_offset_refuted"
   ],
   "note": "C40_offset_refuted: apply_inverse does not undo apply when dha or ddec is not zero."
  },
  {
   "property": "C41",
   "status": "proved",
   "theorems": [
    "C41_range",
    "C41_value",
    "C41_periodic",
    "C41_hour_angle"
   ],
   "note": "Elementwise, real arithmetic."
  },
  {
   "property": "C42",
   "status": "proved",
   "theorems": [
    "C42_roundtrip",
    "C42_switches_refuted",
    "C42_refused"
   ],
   "note": "Dictionaries. The claim that the model behaves the same is refuted for switches turned off."
  },
  {
   "property": "C43",
   "status": "proved",
   "theorems": [
    "C43_delta",
    "C43_average",
    "C43_turns",
    "C43_zenith",
    "C43_deltaadc",
    "C43_adc_angles"
   ],
   "note": "pm_zd and pm_psi are stated through the unit vectors of the pointing and of the zenith."
  },
  {
   "property": "C44",
   "status": "proved",
   "theorems": [
    "C44_exact",
    "C44_median",
    "C44_refined",
    "C44_accepted",
    "C44_three_points_refuted"
   ],
   "note": "scipy's leastsq is an oracle that does not increase the sum of squares. C44_three_points_refuted: three points give their centroid."
  },
  {
   "property": "C45",
   "status": "proved",
   "theorems": [
    "C45_worst_removed",
    "C45_second_outlier_refuted",
    "C45_returns",
    "C45_nothing_removed",
    "C45_result",
    "C45_threshold"
   ],
   "note": "C45_second_outlier_refuted: outliers other than the worst are kept."
  },
  {
   "property": "C46",
   "status": "proved",
   "theorems": [
    "C46_peaks",
    "C46_window",
    "C46_near",
    "C46_symmetric",
    "C46_edge_refuted",
    "C46_last_refuted"
   ],
   "note": "Edge peaks and the last row but one: C46_edge_refuted, C46_last_refuted refute the naive claim that every window is centred."
  },
  {
   "property": "C47",
   "status": "proved",
   "theorems": [
    "C47_separated",
    "C47_isolated",
    "C47_brightest",
    "C47_detect",
    "C47_complete",
    "C47_refused",
    "C47_tie_refuted",
    "C47_limit_refuted"
   ],
   "note": "KD-tree query assumed to satisfy second_query; C47_tie_refuted and C47_limit_refuted show what is not guaranteed."
  },
  {
   "property": "C48",
   "status": "proved",
   "theorems": [
    "C48_rows",
    "C48_numbers",
    "C48_distinct",
    "C48_info",
    "C48_unknown",
    "C48_numbers_refuted"
   ],
   "note": "C48_numbers_refuted: pinholes of a location whose fiducial centre was not matched all have id 0; the 90th pinhole has the id of a fiducial; device ids longer than seven characters are cut."
  },
  {
   "property": "C49",
   "status": "proved",
   "theorems": [
    "C49_windows",
    "C49_single",
    "C49_single_size_refuted",
    "C49_tail_refuted",
    "C49_dates",
    "C49_same_time_refuted"
   ],
   "note": "C49_single_size_refuted, C49_tail_refuted, C49_same_time_refuted refute that windows have the requested size and cover the data."
  },
  {
   "property": "C50",
   "status": "proved",
   "theorems": [
    "C50_own_nominals",
    "C50_stale_refuted",
    "C50_shared_refuted"
   ],
   "note": "Independence from earlier calls for calls with their own nominal values; refuted for the default nominal values (C50_stale_refuted, C50_shared_refuted)."
  },
  {
   "property": "C51",
   "status": "proved",
   "theorems": [
    "C51_failed_fit",
    "C51_completes",
    "C51_rejection_refuted"
   ],
   "note": "Which results are flagged, and completion; refuted: too few points after rejection raise KeyError (C51_rejection_refuted)."
  },
  {
   "property": "C52",
   "status": "proved",
   "theorems": [
    "C52_written",
    "C52_marked",
    "C52_commits",
    "C52_completes",
    "C52_dialogue",
    "C52_completes_refuted",
    "C52_prompts_end",
    "C52_nan_refuted"
   ],
   "note": "C52_written, C52_marked, C52_commits, C52_completes, C52_prompts_end hold with the outcome of load_nominal_positioner_locations as a parameter. C52_completes_refuted: with the function as it is in io.py the script never reaches its end. C52_nan_refuted: a row whose fit error is NaN is written."
  },
  {
   "property": "C53",
   "status": "proved",
   "theorems": [
    "C53_skip",
    "C53_number",
    "C53_ignored",
    "C53_first_rows_only",
    "C53_selection_refuted",
    "C53_unique"
   ],
   "note": "The natural claim (the row selected is kept) is false: C53_selection_refuted. C53_skip, C53_number, C53_ignored, C53_unique and C53_first_rows_only state what happens."
  },
  {
   "property": "C54",
   "status": "proved",
   "theorems": [
    "C54_answer",
    "C54_restricted",
    "C54_offered_refuted",
    "C54_confirmation_refuted"
   ],
   "note": "The natural claim (only offered answers are returned) is false: C54_offered_refuted; C54_confirmation_refuted: answering no twice confirms --set-enabling."
  },
  {
   "property": "C55",
   "status": "proved",
   "theorems": [
    "C55_rows",
    "C55_indices",
    "C55_location",
    "C55_check",
    "C55_empty",
    "C55_identifier",
    "C55_stops_refuted",
    "C55_unfitted_refuted"
   ],
   "note": "The naive claim that a disagreement with the metrology stops the program is refuted (C55_stops_refuted: has_errors is set, has_error tested); rows without PETAL_LOC get a LOCATION made from a masked value (C55_unfitted_refuted). Merging of columns of incompatible types by vstack is not modelled."
  },
  {
   "property": "C56",
   "status": "proved",
   "theorems": [
    "C56_text",
    "C56_html",
    "C56_html_refuted",
    "C56_not_positive",
    "C56_partition"
   ],
   "note": "That the HTML pages hold every accepted positioner is refuted (C56_html_refuted)."
  },
  {
   "property": "C57",
   "status": "proved",
   "theorems": [
    "C57_first_call_decides",
    "C57_new_level",
    "C57_unknown",
    "C57_path_refuted"
   ],
   "note": "That the logger writes to the requested path is refuted (C57_path_refuted)."
  },
  {
   "property": "C58",
   "status": "proved",
   "theorems": [
    "C58_processed",
    "C58_cached",
    "C58_other_names",
    "C58_history",
    "C58_distinct",
    "C58_own_image_refuted"
   ],
   "note": "Parameters: measuring of an image (analyse), argparse (parse, assumed to take plain names as they are). File names without white space, leading dash, inner .fits or .csv. The naive claim (never the result of another image) is refuted."
  },
  {
   "property": "C59",
   "status": "proved",
   "theorems": [
    "C59_correct",
    "C59_parameters",
    "C59_leave_one_out",
    "C59_own_offset",
    "C59_smoothing",
    "C59_total",
    "C59_fixed",
    "C59_gradwavefront_smoothing",
    "C59_gradwavefront_own",
    "C59_gradwavefront_refuted",
    "C59_fitted_refuted"
   ],
   "note": "Independent leave-one-out equals the prediction from the others (rational quadratic and Gaussian kernels); totality by positive definiteness of the Gaussian kernel. Two naive claims refuted: C59_gradwavefront_refuted (own dy changes own x turbulence), C59_fitted_refuted (own offset enters through the fitted covariance, even with an optimiser that never makes the loss worse). The optimiser is an arbitrary function."
  },
  {
   "property": "C60",
   "status": "proved",
   "theorems": [
    "C60_rows",
    "C60_prefix",
    "C60_gradient"
   ],
   "note": "Rows are derivatives (derivable_pt_lim) of each monomial of degree 1..n exactly once; the rows of a lower degree are a prefix, as predictor assumes; the combinations of rows are exactly the gradients of polynomials of degree at most n."
  },
  {
   "property": "C61",
   "status": "proved",
   "theorems": [
    "C61_ignored",
    "C61_unclipped",
    "C61_clipped_nonfinite",
    "C61_clipped_single",
    "C61_clipped",
    "C61_threshold",
    "C61_ignored_refuted",
    "C61_residual_refuted"
   ],
   "note": "Refuted readings: C61_ignored_refuted (with the default clip_resid an entry that is not finite makes the call fail) and C61_residual_refuted (clip_resid is not the threshold: 0.01 is hard coded)."
  },
  {
   "property": "C62",
   "status": "proved",
   "theorems": [
    "C62_theta_stuck",
    "C62_phi_refuted"
   ],
   "note": "Exact condition of THETA_STUCK; phi is never found stuck (C62_phi_refuted)."
  },
  {
   "property": "C63",
   "status": "proved",
   "theorems": [
    "C63_scheduling",
    "C63_fresh"
   ],
   "note": "Edge detection, image rotation and rounding are parameters (pure functions). With reals the second normalisation changes nothing; float last digits not covered. Workers: each chunk of spots starts from a fresh copy of the template, shared within the chunk. A failing call fails the whole, which one raises first in parallel is taken in order of spots."
  },
  {
   "property": "C64",
   "status": "proved",
   "theorems": [
    "C64_wyant_bijection"
   ],
   "note": ""
  },
  {
   "property": "C65",
   "status": "proved",
   "theorems": [
    "C65_orthonormal_terms"
   ],
   "note": ""
  },
  {
   "property": "C66",
   "status": "proved",
   "theorems": [
    "C66_scale_rotation_offset"
   ],
   "note": "scipy.optimize.minimize is an arbitrary function returning a parameter vector."
  },
  {
   "property": "C67",
   "status": "proved",
   "theorems": [
    "C67_fit_report",
    "C67_update"
   ],
   "note": ""
  },
  {
   "property": "C68",
   "status": "proved",
   "theorems": [
    "C68_pointing",
    "C68_disk",
    "C68_hexapod",
    "C68_sidereal",
    "C68_chain"
   ],
   "note": ""
  },
  {
   "property": "C69",
   "status": "proved",
   "theorems": [
    "C69_sun",
    "C69_aberration",
    "C69_size"
   ],
   "note": ""
  },
  {
   "property": "C70",
   "status": "proved",
   "theorems": [
    "C70_refraction",
    "C70_monotone",
    "C70_undo",
    "C70_undo_exact_refuted",
    "C70_horizon_refuted"
   ],
   "note": ""
  },
  {
   "property": "C71",
   "status": "proved",
   "theorems": [
    "C71_round_trip"
   ],
   "note": "Real arithmetic; all options, the apparent declination at most 80 degrees when aberration is corrected."
  },
  {
   "property": "C72",
   "status": "proved",
   "theorems": [
    "C72_fit",
    "C72_refused",
    "C72_identity_refuted"
   ],
   "note": "C72_identity_refuted: fit(x,y,x,y) gives nan (0/0 for syy)."
  },
  {
   "property": "C73",
   "status": "proved",
   "theorems": [
    "C73_knots",
    "C73_turns",
    "C73_forward",
    "C73_focal_plane_round_trip",
    "C73_tangent_plane_round_trip"
   ],
   "note": "interp1d is an oracle, assumed only to pass through its knots (and only in C73_knots)."
  },
  {
   "property": "C74",
   "status": "proved",
   "theorems": [
    "C74_pixels_to_focal_plane",
    "C74_inverse",
    "C74_refused"
   ],
   "note": "Values that are not numbers (flat sensors) are Err NonFinite. The module level cache of the fitted transforms is not modelled."
  },
  {
   "property": "C75",
   "status": "proved",
   "theorems": [
    "C75_derivatives",
    "C75_window",
    "C75_step"
   ],
   "note": "erf is the integral of the gaussian; real arithmetic."
  },
  {
   "property": "C76",
   "status": "proved",
   "theorems": [
    "C76_filters"
   ],
   "note": "Ties in the sort may be broken either way."
  },
  {
   "property": "C77",
   "status": "proved",
   "theorems": [
    "C77_selection"
   ],
   "note": "np.percentile with linear interpolation."
  },
  {
   "property": "C78",
   "status": "proved",
   "theorems": [
    "C78_scale",
    "C78_similarity",
    "C78_targets",
    "C78_references",
    "C78_transform_refuted"
   ],
   "note": "C78_transform_refuted: the reference and device centre files are always made with the default transform, whatever transform is given."
  },
  {
   "property": "C79",
   "status": "proved",
   "theorems": [
    "C79_static",
    "C79_dynamic"
   ],
   "note": "Static and dynamic modes; the optimiser is assumed to find the minimum when there is one."
  },
  {
   "property": "C80",
   "status": "proved",
   "theorems": [
    "C80_static",
    "C80_dynamic",
    "C80_fixed_gear_refuted"
   ],
   "note": "Refuted part: a gear ratio kept fixed in dynamic mode (C80_fixed_gear_refuted)."
  },
  {
   "property": "C81",
   "status": "proved",
   "theorems": [
    "C81_static_rms",
    "C81_after_rejection_refuted",
    "C81_descent"
   ],
   "note": "Static mode. The rms after rejection is understated (C81_after_rejection_refuted)."
  },
  {
   "property": "C82",
   "status": "proved",
   "theorems": [
    "C82_wedged",
    "C82_program",
    "C82_three"
   ],
   "note": "Real arithmetic; argsort is any function sorting its argument."
  },
  {
   "property": "C83",
   "status": "proved",
   "theorems": [
    "C83_far",
    "C83_exact",
    "C83_own",
    "C83_total",
    "C83_stale",
    "C83_completes_refuted"
   ],
   "note": "lstsq and the KD-tree are arbitrary functions meeting their contract (a concrete solver and search are given for the example). Naive claim that the call completes whenever all spots are near their expected position is refuted (NameError when no fit beats 1e9)."
  },
  {
   "property": "C84",
   "status": "proved",
   "theorems": [
    "C84_best",
    "C84_report",
    "C84_stamp",
    "C84_no_edges",
    "C84_total",
    "C84_some_edges_refuted"
   ],
   "note": "canny, rotate and round are parameters. C84_best: step dividing 10 degrees and edges at every scale. C84_no_edges and C84_some_edges_refuted: one scale without edges makes the coefficient nan. Constant stamps (nan) not followed."
  },
  {
   "property": "C85",
   "status": "proved",
   "theorems": [
    "C85_polynomials_follow_table",
    "C85_submicron_refuted"
   ],
   "note": "Rows checked by integer computation, between rows by second differences (coq-interval)."
  },
  {
   "property": "C86",
   "status": "proved",
   "theorems": [
    "C86_undo",
    "C86_pole_refuted"
   ],
   "note": "Real arithmetic, one target."
  },
  {
   "property": "C87",
   "status": "proved",
   "theorems": [
    "C87_rejection"
   ],
   "note": "Optimisers are arbitrary functions; the inverse Hessian is what the optimiser returns."
  },
  {
   "property": "C88",
   "status": "proved",
   "theorems": [
    "C88_covariance"
   ],
   "note": "Optimisers are arbitrary functions; the inverse Hessian is what the optimiser returns."
  },
  {
   "property": "C89",
   "status": "proved",
   "theorems": [
    "C89_start"
   ],
   "note": "The least squares routine of the circle fit is an arbitrary function."
  },
  {
   "property": "C90",
   "status": "proved",
   "theorems": [
    "C90_labels",
    "C90_no_groups"
   ],
   "note": "KD-tree searches and argsort are arbitrary functions with the documented promises."
  },
  {
   "property": "C91",
   "status": "proved",
   "theorems": [
    "C91_recovers"
   ],
   "note": "Also uses C06, C08 and the exactness of the affine fit."
  },
  {
   "property": "C92",
   "status": "proved",
   "theorems": [
    "C92_metrology_kept",
    "C92_fresh_refuted"
   ],
   "note": "The naive reading that a call does not depend on the history is refuted."
  },
  {
   "property": "C93",
   "status": "proved",
   "theorems": [
    "C93_table",
    "C93_too_few",
    "C93_expected_refuted"
   ],
   "note": "The reading that X_FP_EXP of a spot without match is 0 is refuted (C93_expected_refuted)."
  },
  {
   "property": "C94",
   "status": "proved",
   "theorems": [
    "C94_identified",
    "C94_default_expected",
    "C94_expected",
    "C94_expected_missing"
   ],
   "note": ""
  },
  {
   "property": "C95",
   "status": "proved",
   "theorems": [
    "C95_turbulence",
    "C95_sky"
   ],
   "note": ""
  },
  {
   "property": "C96",
   "status": "proved",
   "theorems": [
    "C96_codes",
    "C96_sequence",
    "C96_single",
    "C96_written_refuted"
   ],
   "note": "The reading that code 0 means a table was written is refuted (C96_written_refuted)."
  },
  {
   "property": "C97",
   "status": "proved",
   "theorems": [
    "C97_likelihood",
    "C97_used",
    "C97_improves",
    "C97_half_refuted"
   ],
   "note": "C97_likelihood: existence of the loss and exp(-L) = (2 pi)^n times the density, given as a chain of conditional normal densities (Spec/Likelihood.v). C97_used: which spots enter. C97_improves: an optimiser which does not go up does not lower the density. C97_half_refuted: the documented -0.5 log likelihood is off by a factor of 2. Gaussian covariance only (rq=False)."
  },
  {
   "property": "C98",
   "status": "proved",
   "theorems": [
    "C98_intercept",
    "C98_centre_refuted",
    "C98_beside_refuted",
    "C98_on_ray",
    "C98_aperture",
    "C98_blocked",
    "C98_polynomial"
   ],
   "note": "C98_intercept (conic surfaces, proviso in the statement), C98_on_ray (all surfaces), C98_polynomial (the Newton iterations of surfaces with polynomial terms, exactly), C98_aperture, C98_blocked. C98_centre_refuted and C98_beside_refuted: without the proviso, because getBothRoots solves A d^2 + C = 0 with the wrong sign. That the Newton iterations converge is not claimed (the code does not check it)."
  },
  {
   "property": "C99",
   "status": "proved",
   "theorems": [
    "C99_redirect",
    "C99_last",
    "C99_grazing_refuted"
   ],
   "note": "C99_redirect for surfaces with a tangent plane and nonzero indices; C99_last. C99_grazing_refuted: at exactly grazing incidence the outgoing direction is not a unit vector."
  },
  {
   "property": "C100",
   "status": "proved",
   "theorems": [
    "C100_frame",
    "C100_inverse",
    "C100_path"
   ],
   "note": "C100_frame, C100_inverse, C100_path. For surfaces with polynomial terms the point reported is only known to be on the ray."
  },
  {
   "property": "C101",
   "status": "proved",
   "theorems": [
    "C101_turn",
    "C101_centroid",
    "C101_rolled"
   ],
   "note": "C101_turn for single rays, C101_centroid for getNine, C101_rolled for the meaning of a pair of coordinate breaks; C101_example: the shipped table DESI-ADC-2.OPT.CSV meets the hypotheses."
  },
  {
   "property": "C102",
   "status": "proved",
   "theorems": [
    "C102_nine",
    "C102_none"
   ],
   "note": "C102_nine and C102_none; the reading of the CSV tables is not modelled."
  },
  {
   "property": "C103",
   "status": "proved",
   "theorems": [
    "C103_round_trip",
    "C103_round_trip_sky",
    "C103_table",
    "C103_fit",
    "C103_increasing",
    "C103_turn",
    "C103_axis_refuted"
   ],
   "note": "C103_round_trip, C103_round_trip_sky, C103_table, C103_fit, C103_increasing, C103_turn; that the axis goes to the origin and that turning commutes there is refuted (C103_axis_refuted)."
  },
  {
   "property": "C104",
   "status": "proved",
   "theorems": [
    "C104_fit",
    "C104_new",
    "C104_json",
    "C104_json_refused",
    "C104_inverse_refuted"
   ],
   "note": "C104_fit, C104_new, C104_json, C104_json_refused; that pm2dm inverts dm2pm after a fit is refuted (C104_inverse_refuted). The file functions are not modelled."
  },
  {
   "property": "C105",
   "status": "proved",
   "theorems": [
    "C105_fit",
    "C105_used",
    "C105_json",
    "C105_json_refused",
    "C105_setups_refuted"
   ],
   "note": "C105_fit, C105_used, C105_json, C105_json_refused; that every setup of the table gets its own entry is refuted (C105_setups_refuted)."
  },
  {
   "property": "C106",
   "status": "proved",
   "theorems": [
    "C106_arguments",
    "C106_request",
    "C106_positions",
    "C106_singular",
    "C106_centre",
    "C106_back",
    "C106_flat"
   ],
   "note": "All four functions; the ray trace table, the platemaker transformation and the options are arguments; log messages not modelled."
  },
  {
   "property": "C107",
   "status": "proved",
   "theorems": [
    "C107_package",
    "C107_new_exposure",
    "C107_table",
    "C107_exit",
    "C107_exception",
    "C107_no_windows"
   ],
   "note": "Model/FitTable.v follows the bookkeeping of output_keys column by column; the spec fit_table is a record of what each column holds. C107_package and C107_new_exposure instantiate the fit with the model of fit_params."
  },
  {
   "property": "C108",
   "status": "proved",
   "theorems": [
    "C108_too_few",
    "C108_too_few_rehomed",
    "C108_failed",
    "C108_failed_rehomed",
    "C108_clash",
    "C108_one_time",
    "C108_written",
    "C108_package",
    "C108_package_clash"
   ],
   "note": "C108_written for any fit function; C108_package for the model of fit_params; C108_package_clash and C108_one_time are the KeyErrors found. Reading and filtering the input are C76."
  },
  {
   "property": "C109",
   "status": "proved",
   "theorems": [
    "C109_date",
    "C109_refused",
    "C109_selection",
    "C109_separation",
    "C109_wrap_refuted"
   ],
   "note": "Position of the stars by C109_selection for any Julian year function; the flat separation bounds the one on the sky by C109_separation; the converse is refuted at right ascension 0."
  },
  {
   "property": "C110",
   "status": "proved",
   "theorems": [
    "C110_arguments",
    "C110_fit",
    "C110_exact"
   ],
   "note": "C110_fit for every success; C110_exact excludes rotations by multiples of 90 degrees, at which the fit of TanCorr fails (C72)."
  },
  {
   "property": "C111",
   "status": "proved",
   "theorems": [
    "C111_round_trip",
    "C111_fieldrot",
    "C111_zenith",
    "C111_angle_refuted",
    "C111_sidereal",
    "C111_rate"
   ],
   "note": "Optics as arguments; the round trip through them is a hypothesis for the point."
  },
  {
   "property": "C112",
   "status": "proved",
   "theorems": [
    "C112_groups",
    "C112_apart",
    "C112_left_out",
    "C112_files",
    "C112_all_refuted",
    "C112_apart_refuted"
   ],
   "note": "Neighbour search by its contract (seven nearest); the plot at the end is not modelled."
  },
  {
   "property": "C113",
   "status": "proved",
   "theorems": [
    "C113_rows",
    "C113_fails",
    "C113_circle",
    "C113_moving_refuted"
   ],
   "note": "leastsq is a variable; table values are finite, plots and messages are not modelled."
  },
  {
   "property": "C114",
   "status": "proved",
   "theorems": [
    "C114_update",
    "C114_again",
    "C114_own",
    "C114_measured_refuted"
   ],
   "note": "Table values are present and finite; messages are not modelled."
  },
  {
   "property": "C115",
   "status": "proved",
   "theorems": [
    "C115_rows",
    "C115_none",
    "C115_pairs",
    "C115_reported_refuted"
   ],
   "note": "Distances are real numbers; the nearest neighbour query (KDTree) and argsort are parameters of which only their documented meaning is assumed."
  },
  {
   "property": "C116",
   "status": "proved",
   "theorems": [
    "C116_files",
    "C116_one_by_one",
    "C116_endings",
    "C116_failure_refuted",
    "C116_every_file_refuted"
   ],
   "note": "The fit of one file is a function from positioner and file to a message or an exception; the pool of processes is an order of completion; multiprocessing behaviour is taken from its documentation (a worker that exits loses its task)."
  },
  {
   "property": "C117",
   "status": "proved",
   "theorems": [
    "C117_distance",
    "C117_summary",
    "C117_partition_refuted"
   ],
   "note": "Values are finite; the processed spots of the image are an input; the format of the printed lines is not modelled."
  },
  {
   "property": "C118",
   "status": "proved",
   "theorems": [
    "C118_selection",
    "C118_fit",
    "C118_exact",
    "C118_unchanged",
    "C118_refused",
    "C118_start_refuted"
   ],
   "note": "scipy's minimize is any function; flat2ptl and ptl2fp are one function of petal and point; floats are real numbers."
  },
  {
   "property": "C119",
   "status": "proved",
   "theorems": [
    "C119_read",
    "C119_invalid",
    "C119_stops",
    "C119_sequences",
    "C119_numbers_refuted"
   ],
   "note": "np.argsort is any sorting function; the file is a list of rows with a list of column names; RECENT_REHOME is a truth value and POS_ID is text."
  },
  {
   "property": "C120",
   "status": "proved",
   "theorems": [
    "C120_invalid",
    "C120_rows",
    "C120_one_device",
    "C120_unknown_petal",
    "C120_petals_refuted"
   ],
   "note": "The fit, the clock, the date parser and fp2ptl are any functions; PETAL_ID and DEVICE_LOC are there. The run on the rows is that of C107 and C108."
  },
  {
   "property": "C121",
   "status": "proved",
   "theorems": [
    "C121_rows",
    "C121_values",
    "C121_leave_one_out",
    "C121_fails"
   ],
   "note": "np.argsort is any sorting function and scipy.optimize.minimize any function; the tables are read already; predict_at, which makes no sense here, is None."
  },
  {
   "property": "C122",
   "status": "proved",
   "theorems": [
    "C122_bins",
    "C122_beyond",
    "C122_default",
    "C122_fails",
    "C122_lengths_refuted",
    "C122_self_refuted"
   ],
   "note": "Exact arithmetic; edges are ascending, searchsorted is the number of leading edges not above the value."
  },
  {
   "property": "C123",
   "status": "proved",
   "theorems": [
    "C123_pairs",
    "C123_fit",
    "C123_exact",
    "C123_unchanged",
    "C123_refused",
    "C123_key_refuted",
    "C123_unmatched_refuted"
   ],
   "note": "The pairs are described for pinhole numbers of one digit; the minimiser is any function; table values are finite and the columns X_FP, Y_FP and those of the other metrology are there."
  },
  {
   "property": "C124",
   "status": "proved",
   "theorems": [
    "C124_tasks",
    "C124_frames",
    "C124_outputs",
    "C124_sizes",
    "C124_no_size",
    "C124_files",
    "C124_chmod",
    "C124_fails",
    "C124_run",
    "C124_run_exact",
    "C124_sizes_refuted",
    "C124_executable_refuted",
    "C124_collision_refuted"
   ],
   "note": "Running a job file is described in Spec/ImageJobs.v from the lines of its tasks (C124_files proves that those are the lines written); grep is any function that finds a name in its own line. The creation of directories and the write of the table are left out."
  },
  {
   "property": "C125",
   "status": "proved",
   "theorems": [
    "C125_fit",
    "C125_exact",
    "C125_one_line",
    "C125_report",
    "C125_nearest_refuted"
   ],
   "note": "Table values are finite and the columns are there; plots and the probability of the chi square are not modelled."
  },
  {
   "property": "C126",
   "status": "proved",
   "theorems": [
    "C126_lines",
    "C126_fails",
    "C126_locations",
    "C126_slow_refuted"
   ],
   "note": "The queries are a function from petals to rows; the order among moves of equal index and petals of equal location is that of any sorting function."
  },
  {
   "property": "C127",
   "status": "proved",
   "theorems": [
    "C127_written",
    "C127_corners",
    "C127_two_turns",
    "C127_round_trip",
    "C127_petal_coordinates",
    "C127_numbers"
   ],
   "note": "Metrology tables have numbers in all columns; constant columns and the texts PROVENANCE and NOTES are left out. NaN is None: a turn with offsets that are not finite makes all numbers of the petal NaN after the ten turns."
  },
  {
   "property": "C128",
   "status": "proved",
   "theorems": [
    "C128_hexapod_angle",
    "C128_sidereal_time",
    "C128_options",
    "C128_hour_angle",
    "C128_header",
    "C128_no_pointing",
    "C128_rate",
    "C128_angle_used_refuted",
    "C128_missing_refuted"
   ],
   "note": "float of a text and the field rotation of fieldmodel.py are arguments of the model; header and option numbers are reals."
  },
  {
   "property": "C129",
   "status": "proved",
   "theorems": [
    "C129_output",
    "C129_patch",
    "C129_patch_order",
    "C129_cheats",
    "C129_written",
    "C129_untouched",
    "C129_camera",
    "C129_consistent_refuted",
    "C129_corner_once_refuted",
    "C129_pinhole_text_refuted"
   ],
   "note": "int of a text is an argument of the model; coordinates are reals; columns that are only copied are left out."
  }
 ]
}