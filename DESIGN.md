# Design

Source: desimeter at the pinned commit in /repo (Python, read as text only, never run).
Model and proofs: Rocq/Coq 8.16.1 in `rocq/theories`.

## Layout

- `Model/*.v`: definitions only, each with the /repo file and lines it follows and what was simplified.
- `Spec/*.v`: small specifications used in theorem statements (geometry, orderings, least squares, circles, disk integrals, contracts of external routines). They do not mention helpers of the model.
- `Proofs/*.v`: lemmas.
- `Props/*.v`: the property theorems `Cnn_…`, an `Example Cnn_example…` (a concrete non-trivial case meeting the hypotheses) and a `Print Assumptions` for each theorem.
- `properties.jsonl`: the properties in English. `MANIFEST.json`: the theorems of each. `seeded/LOG.jsonl`: wrong programs tried against the theorems.

## Conventions of the model

- **Numbers.** Python floats are exact real numbers; rounding, overflow and signed zeros are outside the model. Integers are exact. A nan or inf that the code can produce is a value of its own (`None`, or `Err NonFinite` where the whole result is meaningless). Decimal literals are exact rationals.
- **Exceptions** are values of `res A = Ok a | Err exn`; `sys.exit(n)` is `Err (SysExit n)`.
- **Loops** are folds or structural recursion. Where fuel is used, a theorem shows that it never runs out.
- **Arrays** are lists, tables are lists of records, dictionaries are association lists with Python's update order, strings are lists of bytes (ASCII).
- **External routines** are explicit parameters of the modelled functions, and what is assumed of them is a hypothesis in the theorem: `argsort` (any sorting permutation), KD-tree queries (nearest neighbour, ties either way), `linear_sum_assignment` (complete one-to-one, optimal where needed), `leastsq`/`minimize` (arbitrary functions, or "does not increase" / "finds the minimum when there is one" where the statement says so), `lstsq` (solves the normal equations), `interp1d` (passes through its knots), scikit-image's `canny` and `rotate` (pure functions), argparse, the measurement of an image. For each contract an example gives a concrete routine meeting it. Linear systems (`np.linalg.solve`, `inv`) are not parameters: they are Gaussian elimination with pivoting, proved correct.
- **State** (module level caches, mutable default arguments, the file system, the logger dictionary, what the operator types) is an explicit argument and result.
- A natural claim that is false of the code is not dropped: the property states the exact behaviour, and a theorem `…_refuted` gives the counterexample (list below).

## Plan and proof per property

- **C01** Bit mask decoding is exact (proved). BitMask as two association lists (names, numbers); `names` as the while loop with fuel = number of bits of m; spec by `Z.testbit`. Induction on the loop. Exact decoding, encode/decode and names(None).
  Theorems: `C01_names_decode_exactly`, `C01_decode_encode`, `C01_all_names`.
- **C02** Bit mask lookups agree (proved). Same model; lookups after a fold of dict updates; lemma on last update wins. Name/bit lookups agree, last definition wins, undefined names fail, mask is the or.
  Theorems: `C02_lookups_agree`, `C02_last_definition_by_name`, `C02_last_definition_by_number`, `C02_undefined_name`, `C02_undefined_number`, `C02_mask_of_or`, `C02_mask_undefined_part`.
- **C03** Fiber list parsing (proved). Strings as `list ascii`; split/replace/isdigit modelled; grammar given as an inductive relation; soundness, completeness, error otherwise. Accepted grammar characterised in both directions; failures are exit 1.
  Theorems: `C03_accepts`, `C03_accepts_only`, `C03_blank`, `C03_none`, `C03_failure_is_exit_1`.
- **C04** Log note selection is an or of ands (proved). Tables as lists of rows with a LOG_NOTE; substring test; `filter` spec. Selection is the order preserving filter by the or of ands; empty clause keeps all rows.
  Theorems: `C04_selection_is_or_of_ands`, `C04_no_selection`, `C04_empty_clause_keeps_all`.
- **C05** Key join of two tables (proved). argsort/searchsorted modelled on lists of Z; spec by index pairs. Exact join, for any correct argsort and total order of keys.
  Theorems: `C05_duplicate_keys_rejected`, `C05_pairs_are_exactly_the_equal_values`.
- **C06** Nearest neighbour matching is injective and keeps the closest (proved). KD-tree query is a section variable with its nearest neighbour specification; argsort is any sorting permutation; loop modelled. For non-empty second catalogues, for any nearest neighbour oracle; the claim for an empty one is refuted (C06_empty_second_catalogue_refuted).
  Theorems: `C06_injective_and_closest`, `C06_without_duplicate_removal`, `C06_empty_second_catalogue_refuted`.
- **C07** Triangle matching is injective (proved). Pairing list of triples is arbitrary; loop invariant; final duplicate purge. Injective for any oracle; also normal return with >=3 points and failure below.
  Theorems: `C07_result_is_injective`, `C07_returns_normally`, `C07_small_second_catalogue_fails`.
- **C08** Triangle matching recovers a translated and dilated catalogue (proved). Triangle descriptors over R; invariance under x -> a x + b; pairing forced by injectivity of descriptors; consistency of all pairs. True correspondence recovered for all scales, translations, reorderings.
  Theorems: `C08_recovers_translated_dilated_copy`.
- **C09** Spot to positioner assignment is one-to-one, scored and maximal (proved). Assignment solver is a section variable returning any one-to-one assignment; edges and score matrix modelled. For any complete one-to-one solver; maximality for optimal solvers. 'Assigned means in reach' refuted separately.
  Theorems: `C09_assignment_is_valid_and_scored`, `C09_total_is_maximal`, `C09_alternatives`, `C09_returns_normally`, `C09_errors`, `C09_assigned_in_reach_refuted`.
- **C10** Possible assignments listing is exact (proved). Model as fold on edges; spec by membership. Exact content of the dictionary.
  Theorems: `C10_possible_assignments`.
- **C11** Coordinate averaging changes matched spots only (proved). Fold over tables with a matching oracle. KD-tree and argsort are oracles with their documented behaviour (any tie breaking). Describes finite results; too few or collinear pairs raise LinAlgError (C26).
  Theorems: `C11_average_of_paired_spots`, `C11_same_spots_unchanged`, `C11_no_table`.
- **C12** Angle wrapping to [0,360) (proved). Floor based modulo over R, atan2 defined on R with its characteristic property. Range, congruence and direction, over the reals.
  Theorems: `C12_put360`, `C12_arctan2d`, `C12_mjd2lst`.
- **C13** Average of two angles (proved). Trigonometric identities over R. Symmetry, turn invariance, range and midpoint for directions less than half a turn apart.
  Theorems: `C13_average_symmetric`, `C13_average_ignores_turns`, `C13_average_in_range`, `C13_average_is_midpoint`.
- **C14** Wrapping an angle into a travel range (proved). Direct model over R with floor. Exact characterisation of the wrapped angle and of the flag.
  Theorems: `C14_wrap_into_range`, `C14_wrap_TP_into_ranges`.
- **C15** Inverse kinematics reaches the target (proved). Model over R with acos/atan2; law of cosines. On target when not flagged; flagged means no configuration with phi in [0,180] in range reaches it. 'Flagged means no angles in the ranges reach it' is refuted (C15_flagged_means_unreachable_refuted).
  Theorems: `C15_always_in_ranges`, `C15_unflagged_is_on_target`, `C15_tp2xy`, `C15_flagged_means_unreachable_refuted`.
- **C16** Inverse kinematics clamps to the nearest point (proved). As C15. For a theta range of at least a turn and a phi range containing 0 and 180, so that the ranges do not interfere.
  Theorems: `C16_nearest_reachable_point`.
- **C17** The theta guess picks a valid configuration (proved). Option list, stable sorts modelled by a lexicographic minimum; reflection identities. Closest configuration for theta ranges below three turns. 'Flagged means unreachable' is refuted for bad guesses.
  Theorems: `C17_guess_picks_closest_configuration`, `C17_flagged_means_unreachable_refuted`.
- **C18** Positioner angle and offset conversions invert each other (proved). Lists of reals with numpy broadcasting. Real arithmetic for floats. Both orders of each pair, scalars and vectors mixed, and the position round trip through xy2tp.
  Theorems: `C18_ext_int_inverse`, `C18_flat_loc_inverse`, `C18_length_mismatch_fails`, `C18_loc2int_int2loc`.
- **C19** Per point parameters are applied per point (proved). List model of _to_list/_extend_list; statement for right lengths, refutation for other lengths. Equivalence with the point-wise inverse kinematics; returns under positive arms; wrong lengths not refused (proved).
  Theorems: `C19_parameters_per_point`, `C19_returns`, `C19_wrong_length_not_refused`.
- **C20** Signed angle difference (proved). Model over R with python float modulo; case analysis. The stated conditions determine the value (C20_unique). Refuted: a scalar start with vector final raises IndexError, against the docstring.
  Theorems: `C20_delta_angle`, `C20_unique`, `C20_scalar_start_refuted`.
- **C21** Radius and surface distance polynomials are accurate inverses (proved). Polynomials over R with rational coefficients; interval bounds by the Interval library or own enclosure; polar part exact. Real arithmetic for floats; polynomial bounds by interval arithmetic (adds the standard library's primitive float and 63 bit integer axioms). Refuted: accuracy of 0.4 micrometres at the centre.
  Theorems: `C21_radii_invert`, `C21_strictly_increasing`, `C21_positions_round_trip`, `C21_qs_round_trip`, `C21_polar`, `C21_submicron_refuted`.
- **C22** Focal surface lookup tables are invertible (proved). Model of numpy.interp's algorithm on lists of reals; generic inverse theorem for strictly increasing tables; shipped table included as data. All 501 rows of the file; numpy's search modelled. Refuted: z2r inverts r2z (NaN always, as np.interp needs increasing abscissae).
  Theorems: `C22_interpolates_table`, `C22_through_radius`, `C22_inverse`, `C22_monotone`, `C22_nan_outside`, `C22_z2r_inverts_r2z_refuted`.
- **C23** Petal to focal plane is a rigid motion (proved). 3x3 matrices as tuples over R; ring + sin^2+cos^2=1. Real arithmetic for floats; NaN height gives NaN point.
  Theorems: `C23_inverse`, `C23_rigid_motion`, `C23_yaw_pitch_roll`, `C23_nominal_height_error`, `C23_shipped_round_trip`.
- **C24** Table version of petal to focal plane equals the point version (proved). Per-petal masked assignment loop as list fold. 
  Theorems: `C24_each_row_own_petal`, `C24_unknown_petal`.
- **C25** Linear corrections invert (proved). 2x2 algebra with field. Exact real arithmetic.
  Theorems: `C25_apply_inverse_undoes_apply`, `C25_apply_undoes_apply_inverse`, `C25_apply_formula`.
- **C26** Outcome of the linear correction fit (proved). Normal equations as lists of sums; linear solver as a section variable; generic least squares lemma; decomposition algebra. Exact real arithmetic; linear solver modelled as Gaussian elimination with pivoting, so no solver oracle. Claims that any non-degenerate data give a finite correction, or that the object's history does not matter, are refuted.
  Theorems: `C26_fit_outcome`, `C26_collinear_sources_fail`, `C26_new_object`, `C26_used_object_refuted`, `C26_finite_refuted`.
- **C27** Rotation and offset fit (proved). As C26 with the 4-parameter model. Exact real arithmetic. The claim that the result is the best rotation plus offset is refuted.
  Theorems: `C27_fit_rotoff`, `C27_equal_sources_fail`, `C27_best_rigid_motion_refuted`.
- **C28** Corrections and JSON (proved). JSON objects as finite maps; assertion is an error value. The round trip claim is refuted; what happens instead is proved. The json text layer is not modelled (dictionaries only).
  Theorems: `C28_simplecorr_saved_then_refused`, `C28_tancorr_saved_then_refused`, `C28_fromjson_restores`, `C28_roundtrip_refuted`, `C28_refused`.
- **C29** FVC transform survives JSON (proved). JSON objects as finite maps, versions, optional fields. Dictionaries; the text layer of the json library is not modelled.
  Theorems: `C29_roundtrip`, `C29_version1`, `C29_unfitted_fails`, `C29_refused`.
- **C30** FVC to focal plane and back (proved). Affine part exact by field; contraction lemma by induction on the iteration count. C30_inverse_refuted: without the contraction hypothesis the result can be wrong by 420*2^20 mm with no error.
  Theorems: `C30_forward`, `C30_exact_without_terms`, `C30_focal_plane_round_trip`, `C30_pixel_round_trip`, `C30_inverse_refuted`.
- **C31** Fiducial pairing in the FVC fit (proved). argsort of argsort as rank; lists of keys. Refuted without the side conditions: pinholes >= 10, a lone fiducial without metrology, a fiducial at location 0.
  Theorems: `C31_pairing`, `C31_metrology_columns`, `C31_pinhole_above_nine_refuted`, `C31_lone_missing_refuted`, `C31_location_zero_refuted`.
- **C32** Noll index conversion is a bijection (proved). Integer square root model of the float expression (proved equal to the real expression); bijection by explicit inverse. 
  Theorems: `C32_noll_bijection`.
- **C33** Zernike radial polynomials (proved). Factorial sum over R; values at 1 by a combinatorial identity. 
  Theorems: `C33_zernike`.
- **C34** Zhao-Burge terms are gradients or curls (proved). Cartesian polynomial forms of each Zernike used, proved equal to the polar definition; derivatives by Coquelicot/Reals. 
  Theorems: `C34_gradients_and_curls`.
- **C35** Zhao-Burge fits are least squares optimal (proved). Generic normal equation lemma. Exact arithmetic; polynomial ids valid.
  Theorems: `C35_zhao_burge_fit`.
- **C36** Displacement evaluation is linear (proved). Linearity by induction on the coefficient list. 
  Theorems: `C36_linear`.
- **C37** Tangent plane projection inverts (proved). Spherical trigonometry over R. 
  Theorems: `C37_components`, `C37_pointing`, `C37_plane_round_trip`, `C37_sky_round_trip`, `C37_behind_refuted`.
- **C38** Horizontal coordinates invert (proved). As C37. 
  Theorems: `C38_altaz_back`, `C38_hadec_back`, `C38_below_horizon_refuted`, `C38_axes`.
- **C39** Precession and rotation matrices (proved). Matrix algebra over R. 
  Theorems: `C39_rotations`, `C39_rotation_undone`, `C39_rotation_matrix`, `C39_polar_pole`, `C39_hardcoded`, `C39_negated_misalignment_refuted`, `C39_precession`, `C39_from_icrs`, `C39_precession_undone`, `C39_precession_separation`.
- **C40** Field model corrections invert (proved). Counterexample for nonzero offset; exact inverse for zero offset. C40_offset_refuted: apply_inverse does not undo apply when dha or ddec is not zero.
  Theorems: `C40_apply`, `C40_field_inverse`, `C40_offset_refuted`.
- **C41** Field rotation rate model is bounded and periodic (proved). Model over R with clamp and wrap. Elementwise, real arithmetic.
  Theorems: `C41_range`, `C41_value`, `C41_periodic`, `C41_hour_angle`.
- **C42** Field model survives JSON (proved). JSON model; witness with a flag switched off. Dictionaries. The claim that the model behaves the same is refuted for switches turned off.
  Theorems: `C42_roundtrip`, `C42_switches_refuted`, `C42_refused`.
- **C43** ADC angles (proved). Model over R. pm_zd and pm_psi are stated through the unit vectors of the pointing and of the zenith.
  Theorems: `C43_delta`, `C43_average`, `C43_turns`, `C43_zenith`, `C43_deltaadc`, `C43_adc_angles`.
- **C44** Circle fit is exact on circles (proved). Model over lists of reals; algebra of perpendicular bisectors. scipy's leastsq is an oracle that does not increase the sum of squares. C44_three_points_refuted: three points give their centroid.
  Theorems: `C44_exact`, `C44_median`, `C44_refined`, `C44_accepted`, `C44_three_points_refuted`.
- **C45** Robust circle fit rejects outliers (proved). State machine on the ok mask with the circle fit as an oracle; stuck state theorem and witness. C45_second_outlier_refuted: outliers other than the worst are kept.
  Theorems: `C45_worst_removed`, `C45_second_outlier_refuted`, `C45_returns`, `C45_nothing_removed`, `C45_result`, `C45_threshold`.
- **C46** Spot detection windows (proved). Python slice semantics over Z. Edge peaks and the last row but one: C46_edge_refuted, C46_last_refuted refute the naive claim that every window is centred.
  Theorems: `C46_peaks`, `C46_window`, `C46_near`, `C46_symmetric`, `C46_edge_refuted`, `C46_last_refuted`.
- **C47** Duplicate spot removal (proved). Model of the bounded removal loop. KD-tree query assumed to satisfy second_query; C47_tie_refuted and C47_limit_refuted show what is not guaranteed.
  Theorems: `C47_separated`, `C47_isolated`, `C47_brightest`, `C47_detect`, `C47_complete`, `C47_refused`, `C47_tie_refuted`, `C47_limit_refuted`.
- **C48** Pinhole numbering from spotmatch (proved). List model. C48_numbers_refuted: pinholes of a location whose fiducial centre was not matched all have id 0; the 90th pinhole has the id of a fiducial; device ids longer than seven characters are cut.
  Theorems: `C48_rows`, `C48_numbers`, `C48_distinct`, `C48_info`, `C48_unknown`, `C48_numbers_refuted`.
- **C49** Calibration windows cover the data as requested (proved). List model of window loops. C49_single_size_refuted, C49_tail_refuted, C49_same_time_refuted refute that windows have the requested size and cover the data.
  Theorems: `C49_windows`, `C49_single`, `C49_single_size_refuted`, `C49_tail_refuted`, `C49_dates`, `C49_same_time_refuted`.
- **C50** What earlier fits change in a calibration fit (proved). Dictionary state threaded through calls. Independence from earlier calls for calls with their own nominal values; refuted for the default nominal values (C50_stale_refuted, C50_shared_refuted).
  Theorems: `C50_own_nominals`, `C50_stale_refuted`, `C50_shared_refuted`.
- **C51** What a calibration fit reports as failed (proved). Control flow of the rejection loop with the optimiser as an oracle. Which results are flagged, and completion; refuted: too few points after rejection raise KeyError (C51_rejection_refuted).
  Theorems: `C51_failed_fit`, `C51_completes`, `C51_rejection_refuted`.
- **C52** Calibration rows for the instrument obey the checks (proved). Table pipeline as folds of row filters; values may be NaN or masked. C52_written, C52_marked, C52_commits, C52_completes, C52_prompts_end hold with the outcome of load_nominal_positioner_locations as a parameter. C52_completes_refuted: with the function as it is in io.py the script never reaches its end. C52_nan_refuted: a row whose fit error is NaN is written.
  Theorems: `C52_written`, `C52_marked`, `C52_commits`, `C52_completes`, `C52_dialogue`, `C52_completes_refuted`, `C52_prompts_end`, `C52_nan_refuted`.
- **C53** Uniqueness check: which row is kept for the operator's answer (proved). List model; refutation. The natural claim (the row selected is kept) is false: C53_selection_refuted. C53_skip, C53_number, C53_ignored, C53_unique and C53_first_rows_only state what happens.
  Theorems: `C53_skip`, `C53_number`, `C53_ignored`, `C53_first_rows_only`, `C53_selection_refuted`, `C53_unique`.
- **C54** Operator prompts honour the allowed answers (proved). Input as a list of answers; recursion on the answers. The natural claim (only offered answers are returned) is false: C54_offered_refuted; C54_confirmation_refuted: answering no twice confirms --set-enabling.
  Theorems: `C54_answer`, `C54_restricted`, `C54_offered_refuted`, `C54_confirmation_refuted`.
- **C55** merge_posparams writes every row of every input (proved). Control flow model with the two variable names. The naive claim that a disagreement with the metrology stops the program is refuted (C55_stops_refuted: has_errors is set, has_error tested); rows without PETAL_LOC get a LOCATION made from a masked value (C55_unfitted_refuted). Merging of columns of incompatible types by vstack is not modelled.
  Theorems: `C55_rows`, `C55_indices`, `C55_location`, `C55_check`, `C55_empty`, `C55_identifier`, `C55_stops_refuted`, `C55_unfitted_refuted`.
- **C56** ok2move groups (proved). List chunking. That the HTML pages hold every accepted positioner is refuted (C56_html_refuted).
  Theorems: `C56_text`, `C56_html`, `C56_html_refuted`, `C56_not_positive`, `C56_partition`.
- **C57** The first get_logger call for a level decides where that level is written (proved). Cache keyed by level as state machine over call histories. That the logger writes to the requested path is refuted (C57_path_refuted).
  Theorems: `C57_first_call_decides`, `C57_new_level`, `C57_unknown`, `C57_path_refuted`.
- **C58** Which image the result of process_fvc belongs to (proved). File system as a finite map; two calls. Parameters: measuring of an image (analyse), argparse (parse, assumed to take plain names as they are). File names without white space, leading dash, inner .fits or .csv. The naive claim (never the result of another image) is refuted.
  Theorems: `C58_processed`, `C58_cached`, `C58_other_names`, `C58_history`, `C58_distinct`, `C58_own_image_refuted`.
- **C59** Leave-one-out turbulence excludes the fiber itself (proved). Linear algebra over an arbitrary field (mathcomp matrices) or finite sums. Independent leave-one-out equals the prediction from the others (rational quadratic and Gaussian kernels); totality by positive definiteness of the Gaussian kernel. Two naive claims refuted: C59_gradwavefront_refuted (own dy changes own x turbulence), C59_fitted_refuted (own offset enters through the fitted covariance, even with an optimiser that never makes the loss worse). The optimiser is an arbitrary function.
  Theorems: `C59_correct`, `C59_parameters`, `C59_leave_one_out`, `C59_own_offset`, `C59_smoothing`, `C59_total`, `C59_fixed`, `C59_gradwavefront_smoothing`, `C59_gradwavefront_own`, `C59_gradwavefront_refuted`, `C59_fitted_refuted`.
- **C60** Turbulence polynomial model is curl free (proved). List of monomials over R; derivatives. Rows are derivatives (derivable_pt_lim) of each monomial of degree 1..n exactly once; the rows of a lower degree are a prefix, as predictor assumes; the combinations of rows are exactly the gradients of polynomials of degree at most n.
  Theorems: `C60_rows`, `C60_prefix`, `C60_gradient`.
- **C61** Stationary spot correction handles missing spots (proved). Shape of boolean masks. Refuted readings: C61_ignored_refuted (with the default clip_resid an entry that is not finite makes the call fail) and C61_residual_refuted (clip_resid is not the threshold: 0.01 is hard coded).
  Theorems: `C61_ignored`, `C61_unclipped`, `C61_clipped_nonfinite`, `C61_clipped_single`, `C61_clipped`, `C61_threshold`, `C61_ignored_refuted`, `C61_residual_refuted`.
- **C62** Move flags (proved). List model. Exact condition of THETA_STUCK; phi is never found stuck (C62_phi_refuted).
  Theorems: `C62_theta_stuck`, `C62_phi_refuted`.
- **C63** Bright image template comparison does not depend on scheduling (proved). State model: normalisation in place is idempotent. Edge detection, image rotation and rounding are parameters (pure functions). With reals the second normalisation changes nothing; float last digits not covered. Workers: each chunk of spots starts from a fresh copy of the template, shared within the chunk. A failing call fails the whole, which one raises first in parallel is taken in order of spots.
  Theorems: `C63_scheduling`, `C63_fresh`.
- **C64** Wyant index conversion is a bijection (proved). As C32 for the other index convention; explicit inverse, integer arithmetic. 
  Theorems: `C64_wyant_bijection`.
- **C65** Zhao-Burge terms are orthonormal (proved). Integrals over the unit disk as iterated integrals of polynomials (Spec/DiskMean.v, Coquelicot); the modelled terms are proved equal to explicit polynomials, whose products are integrated symbolically. 
  Theorems: `C65_orthonormal_terms`.
- **C66** Two stage fit of the FVC transform (proved). Normal equations as in C35 for the second stage; scipy's minimize is an arbitrary function. scipy.optimize.minimize is an arbitrary function returning a parameter vector.
  Theorems: `C66_scale_rotation_offset`.
- **C67** Goodness of fit reported by the FVC fit (proved). Model of FVC2FP.fit after pairing; residuals, rms and the updated spots are stated from the returned transform. 
  Theorems: `C67_fit_report`, `C67_update`.
- **C68** The pointing is the origin of the tangent plane (proved). Composition of the modelled steps at the pointing itself; vector algebra over R. 
  Theorems: `C68_pointing`, `C68_disk`, `C68_hexapod`, `C68_sidereal`, `C68_chain`.
- **C69** Aberration moves targets towards the apex (proved). Tangent vectors on the sphere; the displacement is decomposed along the great circle to the apex. 
  Theorems: `C69_sun`, `C69_aberration`, `C69_size`.
- **C70** Undoing refraction (proved). Bounds on the refraction polynomial by interval arithmetic, monotonicity by derivative sign. 
  Theorems: `C70_refraction`, `C70_monotone`, `C70_undo`, `C70_undo_exact_refuted`, `C70_horizon_refuted`.
- **C71** Sky to tangent plane round trip (proved). Composition of inverse pairs (C37-C40, C86) with error bounds for the steps which are only approximate inverses. Real arithmetic; all options, the apparent declination at most 80 degrees when aberration is corrected.
  Theorems: `C71_round_trip`.
- **C72** Tangent plane correction fit (proved). Least squares model of C26 applied to offsets; singular data give nan. C72_identity_refuted: fit(x,y,x,y) gives nan (0/0 for syy).
  Theorems: `C72_fit`, `C72_refused`, `C72_identity_refuted`.
- **C73** Ray trace fit (proved). Interpolation is an oracle passing through its knots; contraction argument for the inverse. interp1d is an oracle, assumed only to pass through its knots (and only in C73_knots).
  Theorems: `C73_knots`, `C73_turns`, `C73_forward`, `C73_focal_plane_round_trip`, `C73_tangent_plane_round_trip`.
- **C74** Guide camera pixels to focal plane (proved). 3 by 3 geometry of the sensor plane over R. Values that are not numbers (flat sensors) are Err NonFinite. The module level cache of the fitted transforms is not modelled.
  Theorems: `C74_pixels_to_focal_plane`, `C74_inverse`, `C74_refused`.
- **C75** Spot model, its derivatives and the fitted errors (proved). erf as an integral (Coquelicot RInt); derivatives from the fundamental theorem. erf is the integral of the gaussian; real arithmetic.
  Theorems: `C75_derivatives`, `C75_window`, `C75_step`.
- **C76** Filters on the move table (proved). List filters; sort is any sorting permutation. Ties in the sort may be broken either way.
  Theorems: `C76_filters`.
- **C77** Choice of the best static parameters (proved). np.percentile with linear interpolation on sorted lists. np.percentile with linear interpolation.
  Theorems: `C77_selection`.
- **C78** What match_positions is given (proved). Lists of lines for the files; statements from metrology rows to lines. C78_transform_refuted: the reference and device centre files are always made with the default transform, whatever transform is given.
  Theorems: `C78_scale`, `C78_similarity`, `C78_targets`, `C78_references`, `C78_transform_refuted`.
- **C79** Noiseless calibration data are fitted exactly (proved). The optimiser is assumed to reach the minimum when there is one; the model chi2 is zero exactly at parameters reproducing the data. Static and dynamic modes; the optimiser is assumed to find the minimum when there is one.
  Theorems: `C79_static`, `C79_dynamic`.
- **C80** Fixed calibration parameters stay fixed (proved). Dictionary of fixed values followed through the fit. Refuted part: a gear ratio kept fixed in dynamic mode (C80_fixed_gear_refuted).
  Theorems: `C80_static`, `C80_dynamic`, `C80_fixed_gear_refuted`.
- **C81** The rms of a calibration fit (proved). The rms is recomputed from the returned parameters in the statement. Static mode. The rms after rejection is understated (C81_after_rejection_refuted).
  Theorems: `C81_static_rms`, `C81_after_rejection_refuted`, `C81_descent`.
- **C82** ok2move refuses exactly the wedged positioners (proved). Vector geometry of the two nearest neighbours; equivalence of refusal and wedge. Real arithmetic; argsort is any function sorting its argument.
  Theorems: `C82_wedged`, `C82_program`, `C82_three`.
- **C83** Local polynomial turbulence correction is exact for polynomial turbulence and leaves the own offset out (proved). Polynomial exactness of least squares with an arbitrary solver meeting its contract. lstsq and the KD-tree are arbitrary functions meeting their contract (a concrete solver and search are given for the example). Naive claim that the call completes whenever all spots are near their expected position is refuted (NameError when no fit beats 1e9).
  Theorems: `C83_far`, `C83_exact`, `C83_own`, `C83_total`, `C83_stale`, `C83_completes_refuted`.
- **C84** The phi arm angle is the best match over all scales and coarse angles (proved). Loop over scales and angles as folds; argmax characterised. canny, rotate and round are parameters. C84_best: step dividing 10 degrees and edges at every scale. C84_no_edges and C84_some_edges_refuted: one scale without edges makes the coefficient nan. Constant stamps (nan) not followed.
  Theorems: `C84_best`, `C84_report`, `C84_stamp`, `C84_no_edges`, `C84_total`, `C84_some_edges_refuted`.
- **C85** The polynomial and the tabulated arc length agree (proved). 501 table rows checked by integer computation, between rows by second differences. Rows checked by integer computation, between rows by second differences (coq-interval).
  Theorems: `C85_polynomials_follow_table`, `C85_submicron_refuted`.
- **C86** Undoing aberration is a second order approximation (proved). Taylor bound on the sphere of the composition apply, undo. Real arithmetic, one target.
  Theorems: `C86_undo`, `C86_pole_refuted`.
- **C87** Which moves a calibration fit rejects (proved). Rejection loop as a recursive trace; the statement is an inductive relation on (remaining moves, number of rejections). Optimisers are arbitrary functions; the inverse Hessian is what the optimiser returns.
  Theorems: `C87_rejection`.
- **C88** Errors of the calibration parameters (proved). The entries of the returned dictionary are stated from the inverse Hessian. Optimisers are arbitrary functions; the inverse Hessian is what the optimiser returns.
  Theorems: `C88_covariance`.
- **C89** Starting values of a calibration fit (proved). The starting vector is stated from circle centres through moves with equal phi or theta. The least squares routine of the circle fit is an arbitrary function.
  Theorems: `C89_start`.
- **C90** What a fiducial label means (proved). Model of findfiducials.py with the module variables as state; invariant of the labelling loop over fiducials; candidates of the neighbour search stated with Spec/FindFiducials.v. KD-tree searches and argsort are arbitrary functions with the documented promises.
  Theorems: `C90_labels`, `C90_no_groups`.
- **C91** Fiducials that are seen are found (proved). Exact recovery: group search, affine fit (a fixed point after one pass), matching of groups by C08; three fiducials of four pinholes as example. Also uses C06, C08 and the exactness of the affine fit.
  Theorems: `C91_recovers`.
- **C92** findfiducials remembers the metrology of an earlier call (proved). Module variables after a sequence of calls; the refutation uses two metrology tables with other location numbers. The naive reading that a call does not depend on the history is refuted.
  Theorems: `C92_metrology_kept`, `C92_fresh_refuted`.
- **C93** What a row of the FVC output table means (proved). Match of the fibres from C06 by ranks in the selection, labels usable for the fit from C90, metrology columns from C67; the example runs findfiducials, fit and match on the image of C91. The reading that X_FP_EXP of a spot without match is 0 is refuted (C93_expected_refuted).
  Theorems: `C93_table`, `C93_too_few`, `C93_expected_refuted`.
- **C94** Fibres near their expected positions are identified (proved). From C93: the nearest position is its own, and a spot that took it would be closer. 
  Theorems: `C94_identified`, `C94_default_expected`, `C94_expected`, `C94_expected_missing`.
- **C95** What turbulence correction and field model change (proved). Stages of process compared with and without the option; selected rows by rank. 
  Theorems: `C95_turbulence`, `C95_sky`.
- **C96** Exit codes and files of the FVC processing (proved). Induction over the tables with the module variables as history of calls; the replacement of .csv is injective in the extension name by comparing lengths. The reading that code 0 means a table was written is refuted (C96_written_refuted).
  Theorems: `C96_codes`, `C96_sequence`, `C96_single`, `C96_written_refuted`.
- **C97** The turbulence covariance is fitted by maximum likelihood on the central spots (proved). Cholesky factors as successive conditioning (Proofs over the generic matrices of the linear algebra model): each diagonal entry is the conditional variance; the loss is the sum of the log densities. C97_likelihood: existence of the loss and exp(-L) = (2 pi)^n times the density, given as a chain of conditional normal densities (Spec/Likelihood.v). C97_used: which spots enter. C97_improves: an optimiser which does not go up does not lower the density. C97_half_refuted: the documented -0.5 log likelihood is off by a factor of 2. Gaussian covariance only (rq=False).
  Theorems: `C97_likelihood`, `C97_used`, `C97_improves`, `C97_half_refuted`.
- **C98** A ray meets a conic surface at its first point ahead (proved). The quadratic of the conic solved in closed form; sheet membership separated from the quadric by the sign of 1 - (1+k) c z; Newton's iteration for polynomial terms specified step by step. C98_intercept (conic surfaces, proviso in the statement), C98_on_ray (all surfaces), C98_polynomial (the Newton iterations of surfaces with polynomial terms, exactly), C98_aperture, C98_blocked. C98_centre_refuted and C98_beside_refuted: without the proviso, because getBothRoots solves A d^2 + C = 0 with the wrong sign. That the Newton iterations converge is not claimed (the code does not check it).
  Theorems: `C98_intercept`, `C98_centre_refuted`, `C98_beside_refuted`, `C98_on_ray`, `C98_aperture`, `C98_blocked`, `C98_polynomial`.
- **C99** Mirrors reflect and lenses refract (proved). The gradient of the sag by derivatives (derivable_pt_lim) against the normal of the code; reflection and Snell's law in vector form as separate specification. C99_redirect for surfaces with a tangent plane and nonzero indices; C99_last. C99_grazing_refuted: at exactly grazing incidence the outgoing direction is not a unit vector.
  Theorems: `C99_redirect`, `C99_last`, `C99_grazing_refuted`.
- **C100** The path of a ray through the table of surfaces (proved). Rotation matrices as isometries; induction over the table of surfaces with the outcome of each stage. C100_frame, C100_inverse, C100_path. For surfaces with polynomial terms the point reported is only known to be on the ray.
  Theorems: `C100_frame`, `C100_inverse`, `C100_path`.
- **C101** Only the difference of the two ADC angles matters (proved). Equivariance of every stage (transform, intercept, interact, validity) under rotations about the axis, by induction over the table; the pair of breaks cancels outside. C101_turn for single rays, C101_centroid for getNine, C101_rolled for the meaning of a pair of coordinate breaks; C101_example: the shipped table DESI-ADC-2.OPT.CSV meets the hypotheses.
  Theorems: `C101_turn`, `C101_centroid`, `C101_rolled`.
- **C102** What getNine reports (proved). The ray selection as filter; mean and deviation against the definition of sum over the passed rays. C102_nine and C102_none; the reading of the CSV tables is not modelled.
  Theorems: `C102_nine`, `C102_none`.
- **C103** The Echo22 transformation between sky and focal plane (proved). The polynomial bounds by interval arithmetic on the shipped coefficients; the least squares property from the normal equations, computed exactly over the integers. C103_round_trip, C103_round_trip_sky, C103_table, C103_fit, C103_increasing, C103_turn; that the axis goes to the origin and that turning commutes there is refuted (C103_axis_refuted).
  Theorems: `C103_round_trip`, `C103_round_trip_sky`, `C103_table`, `C103_fit`, `C103_increasing`, `C103_turn`, `C103_axis_refuted`.
- **C104** The fitted transformation between desimeter and platemaker (proved). Least squares by the generic lemma on normal equations; solvability by the kernel of the design matrix. C104_fit, C104_new, C104_json, C104_json_refused; that pm2dm inverts dm2pm after a fit is refuted (C104_inverse_refuted). The file functions are not modelled.
  Theorems: `C104_fit`, `C104_new`, `C104_json`, `C104_json_refused`, `C104_inverse_refuted`.
- **C105** The fit of the ray trace tables (proved). Grouping by code as sorted distinct keys; least squares as in C104; the conjugation by the mean angle from the tan2fp model. C105_fit, C105_used, C105_json, C105_json_refused; that every setup of the table gets its own entry is refuted (C105_setups_refuted).
  Theorems: `C105_fit`, `C105_used`, `C105_json`, `C105_json_refused`, `C105_setups_refuted`.
- **C106** Fiber assignment positions are the targets seen from the tuned pointing, turned rigidly to the requested field rotation (proved). Newton steps against the exact inverse of the Jacobian; sine against angle by the Taylor bound; the other functions by composition. All four functions; the ray trace table, the platemaker transformation and the options are arguments; log messages not modelled.
  Theorems: `C106_arguments`, `C106_request`, `C106_positions`, `C106_singular`, `C106_centre`, `C106_back`, `C106_flat`.
- **C107** The table of the window fits holds exactly the results of the fits, one row per window (proved). Invariant over the loop of the windows relating the output lists to the fits so far; string lemmas on suffixes and prefixes of the offset names. Model/FitTable.v follows the bookkeeping of output_keys column by column; the spec fit_table is a record of what each column holds. C107_package and C107_new_exposure instantiate the fit with the model of fit_params.
  Theorems: `C107_package`, `C107_new_exposure`, `C107_table`, `C107_exit`, `C107_exception`, `C107_no_windows`.
- **C108** run_best_fits writes one row per window, with the static fit and the dynamic fit started from the best static parameters (proved). Composition of C49, C77 and C107; inner join on rows that can be told apart by times and number of rows. C108_written for any fit function; C108_package for the model of fit_params; C108_package_clash and C108_one_time are the KeyErrors found. Reading and filtering the input are C76.
  Theorems: `C108_too_few`, `C108_too_few_rehomed`, `C108_failed`, `C108_failed_rehomed`, `C108_clash`, `C108_one_time`, `C108_written`, `C108_package`, `C108_package_clash`.
- **C109** read_guide_stars_catalog keeps exactly the stars near their catalogued position at the date of the exposure (proved). Selection as a relation on lists; Lipschitz bound of the cosine for the separation on the sky. Position of the stars by C109_selection for any Julian year function; the flat separation bounds the one on the sky by C109_separation; the converse is refuted at right ascension 0.
  Theorems: `C109_date`, `C109_refused`, `C109_selection`, `C109_separation`, `C109_wrap_refuted`.
- **C110** fit_tancorr fits the correction to the guide stars in three passes and recovers an exact one (proved). The three passes by C72; uniqueness of the polar decomposition for an exact correction. C110_fit for every success; C110_exact excludes rotations by multiples of 90 degrees, at which the fit of TanCorr fails (C72).
  Theorems: `C110_arguments`, `C110_fit`, `C110_exact`.
- **C111** The field rotation is the mean sine of the angles by which a one degree cross is turned on the sky, in degrees as if it were an angle (proved). Each arm as a cross product of turned vectors (C98); sidereal time drops out; at the zenith refraction keeps azimuths. Optics as arguments; the round trip through them is a hypothesis for the point.
  Theorems: `C111_round_trip`, `C111_fieldrot`, `C111_zenith`, `C111_angle_refuted`, `C111_sidereal`, `C111_rate`.
- **C112** select_groups_of_positioners writes four disjoint groups whose members are at least 12 mm apart (proved). The scan as a greedy choice characterized by its membership equation; the seven nearest contain all within 12 mm when uncrowded. Neighbour search by its contract (seven nearest); the plot at the end is not modelled.
  Theorems: `C112_groups`, `C112_apart`, `C112_left_out`, `C112_files`, `C112_all_refuted`, `C112_apart_refuted`.
- **C113** desi_fit_circles lists the positioners and pinholes seen often enough, with the centre of their circle or their median position (proved). The dictionaries as a map from code to the measurements of that code; then row by row, with C44 for the circle. leastsq is a variable; table values are finite, plots and messages are not modelled.
  Theorems: `C113_rows`, `C113_fails`, `C113_circle`, `C113_moving_refuted`.
- **C114** update_focal_plane_metrology_patch gives each device of the patch the medians of its unambiguous sightings (proved). The dictionary of positions as a repetition of the sightings; the median does not change when every element is repeated. Table values are present and finite; messages are not modelled.
  Theorems: `C114_update`, `C114_again`, `C114_own`, `C114_measured_refuted`.
- **C115** detect_and_match_moving_positioners writes each moved positioner at most once, with its closest moved spot (proved). Selection of rows as filters of the paired spots; argmin over the spots of a positioner. Distances are real numbers; the nearest neighbour query (KDTree) and argsort are parameters of which only their documented meaning is assumed.
  Theorems: `C115_rows`, `C115_none`, `C115_pairs`, `C115_reported_refuted`.
- **C116** fit_posparams fits the last file of each positioner, and its pool neither reports failures nor survives an exit (proved). Induction on the list of files from the right (later files replace earlier ones); string lemmas for the recognition of names. The fit of one file is a function from positioner and file to a message or an exception; the pool of processes is an order of completion; multiprocessing behaviour is taken from its documentation (a worker that exits loses its task).
  Theorems: `C116_files`, `C116_one_by_one`, `C116_endings`, `C116_failure_refuted`, `C116_every_file_refuted`.
- **C117** compute_distance_from_center: the distance of the last spot of each device, and counts that miss a distance of zero (proved). Induction on the spots from the right; counting by an inductive relation. Values are finite; the processed spots of the image are an input; the format of the printed lines is not modelled.
  Theorems: `C117_distance`, `C117_summary`, `C117_partition_refuted`.
- **C118** desi_fit_fvc2fp_using_posparams: which centres are fitted, and a similarity is recovered exactly whatever the minimizer returns (proved). Complex linear maps as coefficients of the terms 0, 1, 2 and 27; uniqueness of the least squares coefficients (C35). scipy's minimize is any function; flat2ptl and ptl2fp are one function of petal and point; floats are real numbers.
  Theorems: `C118_selection`, `C118_fit`, `C118_exact`, `C118_unchanged`, `C118_refused`, `C118_start_refuted`.
- **C119** fithandler._read: the table of moves read from a file, and when it is refused (proved). Texts are strictly ordered (String_as_OT), the place in the list of different values is a rank. np.argsort is any sorting function; the file is a list of rows with a list of column names; RECENT_REHOME is a truth value and POS_ID is text.
  Theorems: `C119_read`, `C119_invalid`, `C119_stops`, `C119_sequences`, `C119_numbers_refuted`.
- **C120** run_best_fits from the file on: the rows that are fitted (proved). The steps of the run composed; first of each number in a sorted list as for C76. The fit, the clock, the date parser and fp2ptl are any functions; PETAL_ID and DEVICE_LOC are there. The run on the rows is that of C107 and C108.
  Theorems: `C120_invalid`, `C120_rows`, `C120_one_device`, `C120_unknown_petal`, `C120_petals_refuted`.
- **C121** turbulence.solve_files: the table returned for an expected and a measured table (proved). The pairs of the match are a sorted list determined by its elements (uniqueness), so that the columns can be written row by row; the rest is C59. np.argsort is any sorting function and scipy.optimize.minimize any function; the tables are read already; predict_at, which makes no sense here, is None.
  Theorems: `C121_rows`, `C121_values`, `C121_leave_one_out`, `C121_fails`.
- **C122** turbulence.empirical_covariance: what is in a bin (proved). searchsorted is characterised by the edges beside the value; the sum over the bins of sums over their elements is the sum over all elements. Exact arithmetic; edges are ascending, searchsorted is the number of leading edges not above the value.
  Theorems: `C122_bins`, `C122_beyond`, `C122_default`, `C122_fails`, `C122_lengths_refuted`, `C122_self_refuted`.
- **C123** desi_fit_fvc2fp_using_theta_centers: the transformation that takes the centres of circles to their places (proved). The fit is that of C118, whose lemmas are stated for any pairs; the last row of a key in the dictionary by induction from the end. The pairs are described for pinhole numbers of one digit; the minimiser is any function; table values are finite and the columns X_FP, Y_FP and those of the other metrology are there.
  Theorems: `C123_pairs`, `C123_fit`, `C123_exact`, `C123_unchanged`, `C123_refused`, `C123_key_refuted`, `C123_unmatched_refuted`.
- **C124** write_fvc_image_processing_scripts: the job files that process a list of images (proved). Loop invariant over the lines of the list from the end (closed jobs followed by the open one are the tasks so far, the count is the size of the open one); names of files differ because the value of a padded number is the number. Running a job file is described in Spec/ImageJobs.v from the lines of its tasks (C124_files proves that those are the lines written); grep is any function that finds a name in its own line. The creation of directories and the write of the table are left out.
  Theorems: `C124_tasks`, `C124_frames`, `C124_outputs`, `C124_sizes`, `C124_no_size`, `C124_files`, `C124_chmod`, `C124_fails`, `C124_run`, `C124_run_exact`, `C124_sizes_refuted`, `C124_executable_refuted`, `C124_collision_refuted`.
- **C125** desi_fit_field_rotation_rate: the cubic for the rate of the field rotation (proved). From the lemmas on normal equations; the concrete rows are ten places on four lines of constant hour angle, for which no cubic but 0 vanishes. Table values are finite and the columns are there; plots and the probability of the chi square are not modelled.
  Theorems: `C125_fit`, `C125_exact`, `C125_one_line`, `C125_report`, `C125_nearest_refuted`.
- **C126** check_moving and get_petal_loc: which moves moved the positioners (proved). Sorting by the general lemma on argsort; names kept in strict order by insertion; flags by induction along the moves. The queries are a function from petals to rows; the order among moves of equal index and petals of equal location is that of any sorting function.
  Theorems: `C126_lines`, `C126_fails`, `C126_locations`, `C126_slow_refuted`.
- **C127** write_gfa_patch: corners of the guide cameras from planes fitted to stars (proved). A shift of all corners changes no difference, so the second turn is a fixed point; composition with C74 for the round trip; errors by a lemma on lists of calls with one kind of error. Metrology tables have numbers in all columns; constant columns and the texts PROVENANCE and NOTES are left out. NaN is None: a turn with offsets that are not finite makes all numbers of the petal NaN after the ten turns.
  Theorems: `C127_written`, `C127_corners`, `C127_two_turns`, `C127_round_trip`, `C127_petal_coordinates`, `C127_numbers`.
- **C128** desi_predict_fieldrot and read_hexrot_deg: inputs of the predicted field rotation (proved). Case analysis; splitting of joined texts and counting of separators by induction. float of a text and the field rotation of fieldmodel.py are arguments of the model; header and option numbers are reals.
  Theorems: `C128_hexapod_angle`, `C128_sidereal_time`, `C128_options`, `C128_hour_angle`, `C128_header`, `C128_no_pointing`, `C128_rate`, `C128_angle_used_refuted`, `C128_missing_refuted`.
- **C129** write_focal_plane_metrology: petal metrology, patches and device numbers as one table (proved). Each stage by induction on its table; the patch through the rows of one location and pinhole; the alignment of the petals from C24. int of a text is an argument of the model; coordinates are reals; columns that are only copied are left out.
  Theorems: `C129_output`, `C129_patch`, `C129_patch_order`, `C129_cheats`, `C129_written`, `C129_untouched`, `C129_camera`, `C129_consistent_refuted`, `C129_corner_once_refuted`, `C129_pinhole_text_refuted`.

## Refuted readings

Each is a theorem of the model; the witness is in the proof.

- `C06_empty_second_catalogue_refuted` refutes: Against an empty second catalogue the single entry is reported as matched to entry 0, which does not exist.
- `C09_assigned_in_reach_refuted` refutes: Every positioner given a spot can reach it: the solver also pairs leftovers.
- `C15_flagged_means_unreachable_refuted` refutes: A flagged inverse kinematics result means that no angles within the ranges reach the target.
- `C17_flagged_means_unreachable_refuted` refutes: The same with a theta guess.
- `C20_scalar_start_refuted` refutes: delta_angle takes a scalar start with a vector of final angles, as its documentation says: IndexError.
- `C21_submicron_refuted` refutes: The arc length polynomials agree at the centre to better than a micrometre.
- `C22_z2r_inverts_r2z_refuted` refutes: z2r inverts r2z: the abscissae are decreasing, and the result is always nan.
- `C26_used_object_refuted` refutes: Fitting with an object used before gives the same as with a fresh one.
- `C26_finite_refuted` refutes: Data which are not degenerate give a finite correction.
- `C27_best_rigid_motion_refuted` refutes: fit_rotoff gives the best rotation plus offset.
- `C28_roundtrip_refuted` refutes: fromjson(tojson) of a correction gives it back: the asserted name is never written.
- `C30_inverse_refuted` refutes: fp2fvc inverts fvc2fp for every usable transform.
- `C31_pinhole_above_nine_refuted` refutes: Fiducials are paired correctly with ten or more pinholes.
- `C31_lone_missing_refuted` refutes: A fiducial without metrology is not paired.
- `C31_location_zero_refuted` refutes: A fiducial at location 0 takes part in the fit.
- `C37_behind_refuted` refutes: The tangent plane projection is inverted for targets more than 90 degrees away.
- `C38_below_horizon_refuted` refutes: Altitudes below the horizon are given as negative numbers.
- `C39_negated_misalignment_refuted` refutes: The polar misalignment with negated parameters undoes it.
- `C40_offset_refuted` refutes: TanCorr.apply_inverse undoes apply when dha or ddec is not zero.
- `C42_switches_refuted` refutes: A field model read back from JSON behaves the same when a correction was switched off.
- `C44_three_points_refuted` refutes: The circle through three points is found by _fast_fit_circle.
- `C45_second_outlier_refuted` refutes: robust_fit_circle rejects every outlier.
- `C46_edge_refuted` refutes: A peak near the image edge is measured, or skipped.
- `C46_last_refuted` refutes: Windows at the last rows are complete.
- `C47_tie_refuted` refutes: Of two coincident spots the brighter one stays.
- `C47_limit_refuted` refutes: After duplicate removal no two spots are close.
- `C48_numbers_refuted` refutes: Pinholes of a location are numbered 1, 2, …, distinct from the fiducial number.
- `C49_single_size_refuted` refutes: A window holds at least the requested number of moves.
- `C49_tail_refuted` refutes: The windows cover the last moves.
- `C49_same_time_refuted` refutes: Moves at a single time are covered.
- `C50_stale_refuted` refutes: A fit with default nominal values does not depend on earlier fits.
- `C50_shared_refuted` refutes: The dictionary returned by a fit is not changed by later fits.
- `C51_rejection_refuted` refutes: A fit left with too few moves by rejection is reported as failed: KeyError.
- `C52_completes_refuted` refutes: prepare_posparams_for_instr can complete with io.py as it is.
- `C52_nan_refuted` refutes: A row whose fit error is nan is not written.
- `C53_selection_refuted` refutes: The row selected by the operator is the one kept.
- `C54_offered_refuted` refutes: Only offered answers are returned.
- `C54_confirmation_refuted` refutes: Answering no does not confirm.
- `C55_stops_refuted` refutes: A disagreement with the metrology stops merge_posparams.
- `C55_unfitted_refuted` refutes: Every row has a PETAL_LOC when it has a LOCATION.
- `C56_html_refuted` refutes: The pages hold every accepted positioner.
- `C57_path_refuted` refutes: A logger writes to the file asked for.
- `C58_own_image_refuted` refutes: process_fvc never returns the result of another image.
- `C59_gradwavefront_refuted` refutes: With the wavefront model the turbulence of a fiber does not depend on its own offset.
- `C59_fitted_refuted` refutes: With fitted hyperparameters the independent model excludes the own offset entirely.
- `C61_ignored_refuted` refutes: Entries that are not finite are ignored.
- `C61_residual_refuted` refutes: clip_resid is the threshold used.
- `C62_phi_refuted` refutes: A stuck phi arm is flagged.
- `C70_undo_exact_refuted` refutes: undo_refraction is exact.
- `C70_horizon_refuted` refutes: Refraction is defined at altitude 0.
- `C72_identity_refuted` refutes: TanCorr.fit of identical lists gives the identity.
- `C78_transform_refuted` refutes: The reference files for match_positions are made with the transform given.
- `C80_fixed_gear_refuted` refutes: A gear ratio kept fixed in dynamic mode stays fixed: the call fails.
- `C81_after_rejection_refuted` refutes: The rms reported after rejection is that of the returned parameters.
- `C83_completes_refuted` refutes: correct_with_pol completes whenever the spots are near their positions.
- `C84_some_edges_refuted` refutes: One scale with edges is enough for a finite angle.
- `C85_submicron_refuted` refutes: Polynomial and table agree to a micrometre at the centre.
- `C86_pole_refuted` refutes: undo_aberration returns a declination of at most 90 degrees.
- `C92_fresh_refuted` refutes: A call of findfiducials gives the result of the same call in a new process (it uses the metrology of the first call).
- `C93_expected_refuted` refutes: X_FP_EXP of a spot without match is 0 (a table read with such a column keeps its values).
- `C96_written_refuted` refutes: Exit code 0 of fvc_proc means that the output was written (not with --min-spots, --max-spots).
- `C97_half_refuted` refutes: The loss is minus the log likelihood up to a constant, as its documentation says (it is off by a factor 2).
- `C98_centre_refuted` refutes: MISS means that the ray meets the surface nowhere ahead (a ray from the centre of curvature).
- `C98_beside_refuted` refutes: An intercept reported OK is on the surface (a ray passing beside it).
- `C99_grazing_refuted` refutes: A lens always gives a unit direction (not at grazing incidence).
- `C103_axis_refuted` refutes: The axis is mapped to the origin.
- `C104_inverse_refuted` refutes: The two maps of DM2PM are inverses of each other.
- `C105_setups_refuted` refutes: There is one entry for each pair of ADC angles of the table (codes collide).
- `C109_wrap_refuted` refutes: A star measured within the separation of its catalogued place is kept.
- `C111_angle_refuted` refutes: The field rotation changes by the angle by which the hexapod is turned.
- `C112_all_refuted` refutes: Every positioner is in one of the four groups.
- `C112_apart_refuted` refutes: Two positioners of a group are at least 12 mm apart (not at the same place).
- `C113_moving_refuted` refutes: A positioner that moves all around its circle is not left out.
- `C114_measured_refuted` refutes: The new position in the patch is one of the measured ones.
- `C115_reported_refuted` refutes: A moved spot within the limits of the only moved positioner is reported (a nearer spot outside the limits shadows it).
- `C116_failure_refuted` refutes: A failed fit in the pool is noticeable.
- `C116_every_file_refuted` refutes: Every recognized file is fitted (two files of one positioner: only the last).
- `C117_partition_refuted` refutes: The numbers of matched and unmatched positioners add up to the positioners asked for (a spot exactly at the centre).
- `C118_start_refuted` refutes: The first fit starts from the displacement of the initial transformation (its coefficients are paired with the new terms).
- `C119_numbers_refuted` refutes: The number of an exposure, and so the name of its EPSILON parameters, is the same for every selection of moves of a file.
- `C120_petals_refuted` refutes: Every row is converted to the coordinates of its own petal (it is that of the first row).
- `C122_lengths_refuted` refutes: The three arrays empirical_covariance returns have one length (not if a separation is not below the last edge).
- `C122_self_refuted` refutes: A value of empirical_covariance is a mean over pairs of different spots (each spot is paired with itself too).
- `C123_key_refuted` refutes: A circle is matched to the row of the other metrology with its location and pinhole (not for pinhole numbers from 10 on).
- `C123_unmatched_refuted` refutes: A circle that the other metrology does not have is left out of the fit (it is to go to the origin).
- `C124_sizes_refuted` refutes: A job file has at most the number of tasks asked for (the frames of an image stay together).
- `C124_executable_refuted` refutes: The job files are made executable (chmod gets the name of the image at hand).
- `C124_collision_refuted` refutes: Every image of the list is processed (images of the same name in two directories have one output).
- `C125_nearest_refuted` refutes: The coefficients printed are the best ones to the nearest third decimal (they are cut towards 0).
- `C126_slow_refuted` refutes: A positioner found at two places farther than 0.05 mm apart has a move flagged (small steps add up).
- `C128_angle_used_refuted` refutes: The hexapod angle in FOCUS of a header is used (only if the header also has HEXPOS).
- `C128_missing_refuted` refutes: Missing options end with the message and status 12 (the sidereal time of a missing date fails first).
- `C129_consistent_refuted` refutes: X_PTL, Y_PTL of the written table go to X_FP, Y_FP (the last patch changes only the latter).
- `C129_corner_once_refuted` refutes: A corner of a camera is in the table once (patch rows with petal coordinates are added to those of the petal).
- `C129_pinhole_text_refuted` refutes: Different pinhole texts after M give different numbers (only the first digit is read).

## What is modelled

| Source (under py/desimeter unless bin/) | Model files | Extent |
|---|---|---|
| averagecoord.py | AverageCoord | all; reading and writing of files is in the caller. |
| bitmask.py | Bitmask | BitMask: construction, all lookups, mask, names. Not: __repr__, extra attributes. |
| posparams/movemask.py, posflags_mask.py | Bitmask (C02 example), Fitter | bit definitions used. |
| brightimage.py | BrightImage | all except plots; chunks of workers. |
| circles.py | Circles | fit_circle is the least squares oracle, _fast_fit_circle, robust_fit_circle. |
| detectspots.py | DetectSpots | barycenter, gaussian spot model and derivatives, peak loop, duplicate removal. Parameters: convolution, pixel sample, threshold. |
| fieldmodel.py | FieldModel, GuideStars, Json | TanCorr, tancorr_sky2inst / inst2sky, reading guide star tables, fit_tancorr, fp2radec, radec2fp, field rotation and its rates, JSON. |
| log.py | Log | get_logger. |
| match.py | Match, KDTree | match_same_system, both triangle functions, match_arbitrary_translation_dilatation. |
| match_positioners.py | KeyMatch, MatchPositioners | match, match_positioners, solve_assignment, possible_assignments_dict. Not: plot_match, print_groupings. |
| posparams/fithandler.py | Fithandler, FitTable | filters, windows, table of the fits, run_best_fits from the filtered table on. Not: _read, _make_petal_xy, messages, writing the file. |
| posparams/fitter.py, flags.py | Fitter | fit_params and eval_move_flags, complete. |
| posparams/posmoveselection.py | PosMoveSelection | all. |
| processfvc.py | ProcessFvc, FvcProc | process_fvc, get_outfilename, fvc_proc, preproc, get_spots_list (extension names and detection as one parameter), get_expected_pos; not --use-spotmatch, --output-transform, bias image, directories, parser. |
| simplecorr.py | SimpleCorr, Json | all. |
| spotmatch.py | Spotmatch | all except file formats and the external program. |
| time.py, trig.py | Trig | mjd2lst, put360, arctan2d, average_angles_deg. |
| transform/fvc2fp.py | Fvc2fp, Json | FVC2FP, complete. |
| transform/gfa2fp.py | Gfa2fp | all; the module level cache is left out. |
| transform/pos2ptl.py | Pos2ptl, Xy2qs | all. |
| transform/ptl2fp.py | Ptl2fp | all, the alignment table is an argument. |
| transform/radec2tan.py | Radec2tan | all except use_astropy=True. |
| transform/rszn_lookups.py, data/focal_surface_lookup.csv | RsznLookups, FocalSurfaceTable | all, every row of the file. |
| transform/xy2qs.py, xy2tp.py | Xy2qs, Xy2tp | all. |
| transform/zhaoburge.py | ZhaoBurge | all except zernFormulaText. |
| turbulence.py | Turbulence, TurbulencePol | getpoly, predictor, correct_with_pol, both covariance models, solve_*, correct_using_stationary. |
| util.py | Util | parse_fibers. |
| bin/merge_posparams | MergePosparams | all; vstack of columns of different types is left out. |
| bin/ok2move | Ok2move | neighbours, decision, grouping, pages. Not: plots. |
| bin/prepare_posparams_for_instr | PreparePosparams | all checks, prompts, elimination, adjustment. |
| findfiducials.py | FindFiducials | findfiducials with its module variables; table columns other than those set, and logging, left out |
| fiberassign.py | RayTraceFit, Fiberassign | all except log messages. |
| transform/tan2fp/raytracefit.py | RayTraceFit, RayTraceTable | all, with fit and JSON. |
| transform/tan2fp/echo22.py, data/Echo22Platescale.txt | Echo22, Echo22Table | all. |
| transform/dm2pm.py | Dm2pm | all except the functions opening files. |
| transform/tan2fp/raytrace/RT185v2.py | RayTrace | frames, intercepts, normals, reflection and refraction, apertures, tables, getNine. Not: CSV readers, string functions for headers, spot diagrams; run.py. |
| bin/select_groups_of_positioners | SelectGroups | all except the plot. |
| bin/desi_fit_circles | FitCircles | all except plots and messages. |
| bin/update_focal_plane_metrology_patch | UpdatePatch | all except messages. |
| bin/detect_and_match_moving_positioners | DetectMoving | all except reading of files and messages. |
| bin/fit_posparams | FitPosparamsMain | lines 80-128: recognition of files and the runs; option parsing and log text not. |
| bin/compute_distance_from_center | CenterDistance | all except the processing of the image and the print formats. |
| bin/desi_fit_fvc2fp_using_posparams | CentresTx | all except reading of files, plots and messages. |
| py/desimeter/posparams/fithandler.py | ReadMoves | _read, _sequences_of_consistent_posintTP, _str2bool, _get_posid, _make_petal_xy, _make_sec_from_epoch, run_best_fits from the file on; not the parsing of the CSV file. |
| py/desimeter/turbulence.py | TurbulenceFiles | make_data, solve_files after the files are read, empirical_covariance. |
| bin/desi_fit_fvc2fp_using_theta_centers | ThetaCentres | All but messages, plots and the reading and writing of files. |
| bin/write_fvc_image_processing_scripts | ImageJobs | All but messages, the creation of directories and DONE.txt, and the write of the table. |
| bin/desi_fit_field_rotation_rate | RotationRate | The selection, the fit, the coefficients printed and the numbers reported, but not the probability; no plots. |
| bin/check_moving | CheckMoving | All but the connection, the text of the query and the format of the lines. |
| py/desimeter/dbutil.py | CheckMoving | get_petal_loc. |
| bin/write_gfa_patch | GfaPatch | All but constant columns, the texts of PROVENANCE and NOTES and the file. |
| bin/desi_predict_fieldrot | PredictFieldrot | All but the format of the two lines. |
| py/desimeter/io.py | PredictFieldrot | read_hexrot_deg. |
| bin/write_focal_plane_metrology | FocalPlaneMetrology | All but columns that are only copied, log messages and the files. |

## What is not modelled

- Rounding of floating point numbers, performance, memory, logging output, plots, command line help.
- Text encodings: JSON, CSV and FITS files are the values they hold.
- py/desimeter/dbutil.py except get_petal_loc (database queries), io.py except read_hexrot_deg, and load_nominal_positioner_locations as seen by its caller, posparams/plotter.py, transform/tan2fp/raytrace/run.py and the readers of RT185v2.py, turbulence.py's reading of files and gallery of plots.
- bin/ scripts other than those above: analyses, plots, database downloads and one-off metrology conversions.

## Trusted base

- The kernel of Coq 8.16.1 (no native compilation; `vm_compute` is used in some proofs), `coqc`, and the reading of the Python source by hand as described above.
- The axioms listed by `Print Assumptions`, all from Coq's standard library. No axiom is added; no other library's axioms occur. Coquelicot, Flocq, mathcomp and coq-interval are used for proofs and are themselves compiled from definitions (coq-interval computes with the standard library's primitive floats and 63 bit integers).

`Print Assumptions` for each theorem, by group:

- **Group 1** (83 theorems). Closed under the global context (no axioms).
  Theorems: C01_all_names, C01_decode_encode, C01_names_decode_exactly, C02_last_definition_by_name, C02_last_definition_by_number, C02_lookups_agree, C02_mask_of_or, C02_mask_undefined_part, C02_undefined_name, C02_undefined_number, C03_accepts, C03_accepts_only, C03_blank, C03_failure_is_exit_1, C03_none, C04_empty_clause_keeps_all, C04_no_selection, C04_selection_is_or_of_ands, C05_duplicate_keys_rejected, C05_pairs_are_exactly_the_equal_values, C10_possible_assignments, C116_endings, C116_every_file_refuted, C116_failure_refuted, C116_files, C116_one_by_one, C11_no_table, C124_chmod, C124_collision_refuted, C124_executable_refuted, C124_fails, C124_files, C124_frames, C124_no_size, C124_outputs, C124_run, C124_run_exact, C124_sizes, C124_sizes_refuted, C124_tasks, C126_locations, C129_cheats, C129_patch, C129_patch_order, C129_pinhole_text_refuted, C29_unfitted_fails, C31_metrology_columns, C31_pairing, C48_distinct, C48_info, C48_numbers, C48_rows, C48_unknown, C53_first_rows_only, C53_ignored, C53_number, C53_skip, C53_unique, C54_answer, C54_offered_refuted, C54_restricted, C55_check, C55_empty, C55_identifier, C55_indices, C55_location, C55_rows, C56_html, C56_html_refuted, C56_not_positive, C56_text, C57_first_call_decides, C57_new_level, C57_path_refuted, C57_unknown, C58_cached, C58_distinct, C58_history, C58_other_names, C58_own_image_refuted, C58_processed, C76_filters, C99_last.
- **Group 2** (28 theorems). `ClassicalDedekindReals.sig_forall_dec`.
  Theorems: C104_json, C104_json_refused, C105_json, C105_json_refused, C120_petals_refuted, C123_pairs, C123_unmatched_refuted, C18_length_mismatch_fails, C28_fromjson_restores, C28_refused, C28_roundtrip_refuted, C28_simplecorr_saved_then_refused, C28_tancorr_saved_then_refused, C29_refused, C29_roundtrip, C29_version1, C31_location_zero_refuted, C31_lone_missing_refuted, C31_pinhole_above_nine_refuted, C42_refused, C42_roundtrip, C42_switches_refuted, C46_window, C48_numbers_refuted, C53_selection_refuted, C55_stops_refuted, C55_unfitted_refuted, C60_prefix.
- **Group 3** (73 theorems). `ClassicalDedekindReals.sig_forall_dec`, `FunctionalExtensionality.functional_extensionality_dep`.
  Theorems: C100_inverse, C103_fit, C103_table, C106_centre, C112_files, C114_again, C114_measured_refuted, C114_own, C114_update, C117_summary, C118_selection, C119_numbers_refuted, C119_read, C119_stops, C121_values, C123_key_refuted, C128_angle_used_refuted, C128_header, C128_hexapod_angle, C128_hour_angle, C128_missing_refuted, C128_no_pointing, C128_options, C128_rate, C128_sidereal_time, C12_mjd2lst, C12_put360, C14_wrap_TP_into_ranges, C14_wrap_into_range, C18_ext_int_inverse, C18_flat_loc_inverse, C20_delta_angle, C20_scalar_start_refuted, C20_unique, C21_submicron_refuted, C22_interpolates_table, C22_inverse, C22_monotone, C22_nan_outside, C22_through_radius, C22_z2r_inverts_r2z_refuted, C39_rotation_undone, C41_hour_angle, C41_periodic, C41_range, C41_value, C43_delta, C46_peaks, C49_dates, C49_same_time_refuted, C49_single, C49_single_size_refuted, C49_tail_refuted, C49_windows, C52_commits, C52_completes, C52_completes_refuted, C52_dialogue, C52_marked, C52_nan_refuted, C52_prompts_end, C52_written, C54_confirmation_refuted, C60_gradient, C60_rows, C73_knots, C77_selection, C78_references, C78_targets, C78_transform_refuted, C83_own, C83_stale, C85_submicron_refuted.
- **Group 4** (125 theorems). `ClassicalDedekindReals.sig_forall_dec`, `ClassicalDedekindReals.sig_not_dec`, `FunctionalExtensionality.functional_extensionality_dep`.
  Theorems: C06_empty_second_catalogue_refuted, C06_injective_and_closest, C06_without_duplicate_removal, C07_result_is_injective, C07_returns_normally, C07_small_second_catalogue_fails, C08_recovers_translated_dilated_copy, C09_alternatives, C09_assigned_in_reach_refuted, C09_assignment_is_valid_and_scored, C09_errors, C09_returns_normally, C09_total_is_maximal, C100_frame, C107_exception, C107_exit, C107_no_windows, C108_one_time, C108_too_few, C108_too_few_rehomed, C109_date, C109_refused, C109_selection, C109_wrap_refuted, C112_all_refuted, C112_apart, C112_apart_refuted, C112_groups, C112_left_out, C117_distance, C117_partition_refuted, C120_invalid, C120_one_device, C120_unknown_petal, C122_beyond, C122_bins, C122_default, C122_fails, C122_lengths_refuted, C122_self_refuted, C125_exact, C125_fit, C125_nearest_refuted, C125_one_line, C125_report, C126_fails, C126_lines, C126_slow_refuted, C127_corners, C127_numbers, C127_petal_coordinates, C127_two_turns, C127_written, C129_camera, C129_consistent_refuted, C129_corner_once_refuted, C129_output, C129_untouched, C129_written, C15_tp2xy, C23_inverse, C23_nominal_height_error, C23_rigid_motion, C23_shipped_round_trip, C23_yaw_pitch_roll, C24_each_row_own_petal, C24_unknown_petal, C25_apply_formula, C25_apply_inverse_undoes_apply, C25_apply_undoes_apply_inverse, C32_noll_bijection, C37_components, C37_pointing, C39_rotation_matrix, C44_accepted, C44_exact, C44_median, C44_refined, C44_three_points_refuted, C45_nothing_removed, C45_result, C45_returns, C45_second_outlier_refuted, C45_threshold, C45_worst_removed, C46_edge_refuted, C46_last_refuted, C46_near, C47_brightest, C47_complete, C47_detect, C47_isolated, C47_limit_refuted, C47_refused, C47_separated, C47_tie_refuted, C59_gradwavefront_own, C59_gradwavefront_smoothing, C63_fresh, C63_scheduling, C64_wyant_bijection, C69_sun, C70_horizon_refuted, C75_step, C75_window, C78_scale, C78_similarity, C83_completes_refuted, C83_exact, C83_far, C83_total, C84_best, C84_no_edges, C84_report, C84_some_edges_refuted, C84_stamp, C84_total, C94_default_expected, C94_expected, C94_expected_missing, C98_beside_refuted, C98_centre_refuted, C98_intercept, C98_on_ray, C98_polynomial.
- **Group 5** (2 theorems). `ClassicalDedekindReals.sig_forall_dec`, `Classical_Prop.classic`, `FunctionalExtensionality.functional_extensionality_dep`.
  Theorems: C119_invalid, C119_sequences.
- **Group 6** (197 theorems). `ClassicalDedekindReals.sig_forall_dec`, `ClassicalDedekindReals.sig_not_dec`, `Classical_Prop.classic`, `FunctionalExtensionality.functional_extensionality_dep`.
  Theorems: C100_path, C101_centroid, C101_rolled, C101_turn, C102_nine, C102_none, C103_axis_refuted, C103_turn, C104_fit, C104_inverse_refuted, C104_new, C105_fit, C105_setups_refuted, C105_used, C106_arguments, C106_back, C106_positions, C106_request, C106_singular, C107_new_exposure, C107_package, C107_table, C108_clash, C108_failed, C108_failed_rehomed, C108_package, C108_package_clash, C108_written, C110_arguments, C110_exact, C110_fit, C111_fieldrot, C111_rate, C111_sidereal, C113_circle, C113_fails, C113_moving_refuted, C113_rows, C115_none, C115_pairs, C115_reported_refuted, C115_rows, C118_exact, C118_fit, C118_refused, C118_start_refuted, C118_unchanged, C11_average_of_paired_spots, C11_same_spots_unchanged, C120_rows, C121_fails, C121_leave_one_out, C121_rows, C123_exact, C123_fit, C123_refused, C123_unchanged, C127_round_trip, C12_arctan2d, C13_average_ignores_turns, C13_average_in_range, C13_average_is_midpoint, C13_average_symmetric, C15_always_in_ranges, C15_flagged_means_unreachable_refuted, C15_unflagged_is_on_target, C16_nearest_reachable_point, C17_flagged_means_unreachable_refuted, C17_guess_picks_closest_configuration, C18_loc2int_int2loc, C19_parameters_per_point, C19_returns, C19_wrong_length_not_refused, C21_polar, C26_collinear_sources_fail, C26_finite_refuted, C26_fit_outcome, C26_new_object, C26_used_object_refuted, C27_best_rigid_motion_refuted, C27_equal_sources_fail, C27_fit_rotoff, C30_exact_without_terms, C30_focal_plane_round_trip, C30_forward, C30_inverse_refuted, C30_pixel_round_trip, C33_zernike, C34_gradients_and_curls, C35_zhao_burge_fit, C36_linear, C37_behind_refuted, C37_plane_round_trip, C37_sky_round_trip, C38_altaz_back, C38_axes, C38_below_horizon_refuted, C38_hadec_back, C39_from_icrs, C39_polar_pole, C39_precession, C39_precession_separation, C39_precession_undone, C39_rotations, C40_apply, C40_field_inverse, C40_offset_refuted, C43_average, C43_turns, C43_zenith, C46_symmetric, C50_own_nominals, C50_shared_refuted, C50_stale_refuted, C51_completes, C51_failed_fit, C56_partition, C59_correct, C59_fitted_refuted, C59_fixed, C59_gradwavefront_refuted, C59_leave_one_out, C59_own_offset, C59_parameters, C59_smoothing, C59_total, C61_clipped, C61_clipped_nonfinite, C61_clipped_single, C61_ignored, C61_ignored_refuted, C61_residual_refuted, C61_threshold, C61_unclipped, C62_phi_refuted, C62_theta_stuck, C65_orthonormal_terms, C66_scale_rotation_offset, C67_fit_report, C67_update, C68_chain, C68_disk, C68_hexapod, C68_pointing, C68_sidereal, C69_aberration, C69_size, C72_fit, C72_identity_refuted, C72_refused, C73_focal_plane_round_trip, C73_forward, C73_tangent_plane_round_trip, C73_turns, C74_inverse, C74_pixels_to_focal_plane, C74_refused, C75_derivatives, C79_dynamic, C79_static, C80_dynamic, C80_fixed_gear_refuted, C80_static, C81_after_rejection_refuted, C81_descent, C81_static_rms, C82_program, C82_three, C82_wedged, C86_pole_refuted, C86_undo, C87_rejection, C88_covariance, C89_start, C90_labels, C90_no_groups, C91_recovers, C92_fresh_refuted, C92_metrology_kept, C93_expected_refuted, C93_table, C93_too_few, C94_identified, C95_sky, C95_turbulence, C96_codes, C96_sequence, C96_single, C96_written_refuted, C97_half_refuted, C97_improves, C97_likelihood, C97_used, C98_aperture, C98_blocked, C99_grazing_refuted, C99_redirect.
- **Group 7** (19 theorems). `ClassicalDedekindReals.sig_forall_dec`, `ClassicalDedekindReals.sig_not_dec`, `Classical_Prop.classic`, `FunctionalExtensionality.functional_extensionality_dep`; and the primitives and specifications `FloatAxioms.Prim2SF_SF2Prim`, `FloatAxioms.Prim2SF_valid`, `FloatAxioms.SF2Prim_Prim2SF`, `FloatAxioms.abs_spec`, `FloatAxioms.add_spec`, `FloatAxioms.classify_spec`, `FloatAxioms.compare_spec`, `FloatAxioms.div_spec`, `FloatAxioms.eqb_spec`, `FloatAxioms.frshiftexp_spec`, `FloatAxioms.ldshiftexp_spec`, `FloatAxioms.ltb_spec`, `FloatAxioms.mul_spec`, `FloatAxioms.next_down_spec`, `FloatAxioms.next_up_spec`, `FloatAxioms.normfr_mantissa_spec`, `FloatAxioms.of_uint63_spec`, `FloatAxioms.opp_spec`, `FloatAxioms.sqrt_spec`, `FloatAxioms.sub_spec`, `PrimFloat.abs`, `PrimFloat.add`, `PrimFloat.classify`, `PrimFloat.compare`, `PrimFloat.div`, `PrimFloat.eqb`, `PrimFloat.float`, `PrimFloat.frshiftexp`, `PrimFloat.ldshiftexp`, `PrimFloat.ltb`, `PrimFloat.mul`, `PrimFloat.next_down`, `PrimFloat.next_up`, `PrimFloat.normfr_mantissa`, `PrimFloat.of_uint63`, `PrimFloat.opp`, `PrimFloat.sqrt`, `PrimFloat.sub`, `PrimInt63.add`, `PrimInt63.eqb`, `PrimInt63.int`, `PrimInt63.land`, `PrimInt63.leb`, `PrimInt63.lor`, `PrimInt63.lsl`, `PrimInt63.lsr`, `PrimInt63.ltb`, `PrimInt63.sub`, `Uint63.add_spec`, `Uint63.eqb_correct`, `Uint63.eqb_refl`, `Uint63.land_spec`, `Uint63.leb_spec`, `Uint63.lor_spec`, `Uint63.lsl_spec`, `Uint63.lsr_spec`, `Uint63.ltb_spec`, `Uint63.of_to_Z`, `Uint63.sub_spec`.
  Theorems: C103_increasing, C103_round_trip, C103_round_trip_sky, C106_flat, C109_separation, C111_angle_refuted, C111_zenith, C21_positions_round_trip, C21_qs_round_trip, C21_radii_invert, C21_strictly_increasing, C43_adc_angles, C43_deltaadc, C51_rejection_refuted, C70_monotone, C70_refraction, C70_undo, C70_undo_exact_refuted, C85_polynomials_follow_table.
- **Group 8** (4 theorems). `ClassicalDedekindReals.sig_forall_dec`, `ClassicalDedekindReals.sig_not_dec`, `Classical_Prop.classic`, `FunctionalExtensionality.functional_extensionality_dep`; and the primitives and specifications `FloatAxioms.Prim2SF_SF2Prim`, `FloatAxioms.Prim2SF_valid`, `FloatAxioms.SF2Prim_Prim2SF`, `FloatAxioms.abs_spec`, `FloatAxioms.add_spec`, `FloatAxioms.classify_spec`, `FloatAxioms.compare_spec`, `FloatAxioms.div_spec`, `FloatAxioms.eqb_spec`, `FloatAxioms.frshiftexp_spec`, `FloatAxioms.ldshiftexp_spec`, `FloatAxioms.ltb_spec`, `FloatAxioms.mul_spec`, `FloatAxioms.next_down_spec`, `FloatAxioms.next_up_spec`, `FloatAxioms.normfr_mantissa_spec`, `FloatAxioms.of_uint63_spec`, `FloatAxioms.opp_spec`, `FloatAxioms.sqrt_spec`, `FloatAxioms.sub_spec`, `PrimFloat.abs`, `PrimFloat.add`, `PrimFloat.classify`, `PrimFloat.compare`, `PrimFloat.div`, `PrimFloat.eqb`, `PrimFloat.float`, `PrimFloat.frshiftexp`, `PrimFloat.ldshiftexp`, `PrimFloat.ltb`, `PrimFloat.mul`, `PrimFloat.next_down`, `PrimFloat.next_up`, `PrimFloat.normfr_mantissa`, `PrimFloat.of_uint63`, `PrimFloat.opp`, `PrimFloat.sqrt`, `PrimFloat.sub`, `PrimInt63.add`, `PrimInt63.addc`, `PrimInt63.addcarryc`, `PrimInt63.addmuldiv`, `PrimInt63.compare`, `PrimInt63.div`, `PrimInt63.diveucl`, `PrimInt63.diveucl_21`, `PrimInt63.eqb`, `PrimInt63.head0`, `PrimInt63.int`, `PrimInt63.land`, `PrimInt63.leb`, `PrimInt63.lor`, `PrimInt63.lsl`, `PrimInt63.lsr`, `PrimInt63.ltb`, `PrimInt63.lxor`, `PrimInt63.mod`, `PrimInt63.mul`, `PrimInt63.mulc`, `PrimInt63.sub`, `PrimInt63.subc`, `PrimInt63.subcarryc`, `PrimInt63.tail0`, `Uint63.add_spec`, `Uint63.addc_def_spec`, `Uint63.addcarryc_def_spec`, `Uint63.addmuldiv_def_spec`, `Uint63.compare_def_spec`, `Uint63.div_spec`, `Uint63.diveucl_21_spec`, `Uint63.diveucl_def_spec`, `Uint63.eqb_correct`, `Uint63.eqb_refl`, `Uint63.head0_spec`, `Uint63.land_spec`, `Uint63.leb_spec`, `Uint63.lor_spec`, `Uint63.lsl_spec`, `Uint63.lsr_spec`, `Uint63.ltb_spec`, `Uint63.lxor_spec`, `Uint63.mod_spec`, `Uint63.mul_spec`, `Uint63.mulc_spec`, `Uint63.of_to_Z`, `Uint63.sub_spec`, `Uint63.subc_def_spec`, `Uint63.subcarryc_def_spec`, `Uint63.tail0_spec`.
  Theorems: C111_round_trip, C39_hardcoded, C39_negated_misalignment_refuted, C71_round_trip.
- The examples beside the theorems use the axioms of their theorems; the examples `C79_…` in Props/Fitter.v also use `ClassicalEpsilon.constructive_indefinite_description` (standard library) to name an optimiser meeting its contract.

## Tests against wrong programs

`seeded/LOG.jsonl` has one line per attempt: a definition of the model was edited in a scratch copy as a realistic bug would, the copy was rebuilt, and the theorems which no longer prove were noted. When a theorem still proved although its claim had become false, it was tightened (`tightened` in the line).
