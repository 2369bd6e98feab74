{
 "claims": [
  {
   "property": "C01",
   "status": "proved",
   "theorems": [
    "C01_intersection_points",
    "C01_contains_meaning",
    "C01_intersection_invalid_iff_disjoint",
    "C01_constructor",
    "C01_intersection_comm_assoc"
   ],
   "note": ""
  },
  {
   "property": "C02",
   "status": "partial",
   "theorems": [
    "C02_union_is_hull",
    "C02_shift",
    "C02_scale",
    "C02_scale_negative_invalid",
    "C02_lerp",
    "C02_scale_by_zero_refuted"
   ],
   "note": "Refuted for scaling an infinite end by zero (C02_scale_by_zero_refuted); the rest is proved."
  },
  {
   "property": "C03",
   "status": "proved",
   "theorems": [
    "C03_prod_div_signed_exact",
    "C03_prod_div_defined",
    "C03_prod_div_unsigned_refuted"
   ],
   "note": "Signed types: exact whenever a value is returned; every type: defined and exact when 2*K*k and the quotient fit. The unsigned instances can silently return a wrong value (C03_prod_div_unsigned_refuted)."
  },
  {
   "property": "C04",
   "status": "partial",
   "theorems": [
    "C04_prod_div_zero_refuted",
    "C04_prod_div_minus_one_refuted",
    "C04_prod_div_intermediate_overflow_refuted"
   ],
   "note": "Refuted: N=0 divides by zero, N=-1 overflows, the loop can overflow although the quotient is small. Positive part: C03_prod_div_defined."
  },
  {
   "property": "C05",
   "status": "proved",
   "theorems": [
    "C05_progress_percent"
   ],
   "note": ""
  },
  {
   "property": "C06",
   "status": "proved",
   "theorems": [
    "C06_linear",
    "C06_inverse",
    "C06_log",
    "C06_decay",
    "C06_sigmoid",
    "C06_sigmoid2"
   ],
   "note": ""
  },
  {
   "property": "C07",
   "status": "proved",
   "theorems": [
    "C07_apply_map"
   ],
   "note": ""
  },
  {
   "property": "C08",
   "status": "proved",
   "theorems": [
    "C08_take_jacobian",
    "C08_take_cut_jacobian",
    "C08_take_rad_jacobian",
    "C08_take_rad_cut_jacobian",
    "C08_jacobian_nonneg",
    "C08_jacobian_positive"
   ],
   "note": "Over the reals; the radiative samplers need a nonnegative lepton mass."
  },
  {
   "property": "C09",
   "status": "proved",
   "theorems": [
    "C09_par_perp",
    "C09_norm",
    "C09_unit",
    "C09_angle_between",
    "C09_par_perp4",
    "C09_norm4"
   ],
   "note": ""
  },
  {
   "property": "C10",
   "status": "partial",
   "theorems": [
    "C10_cross_orthogonal_refuted",
    "C10_cross_flipped_orthogonal",
    "C10_cross_alternating",
    "C10_cross_linear",
    "C10_cross_length",
    "C10_partial_cross_is_cross"
   ],
   "note": "Minkowski orthogonality is violated by the code (C10_cross_orthogonal_refuted): the product is orthogonal only after flipping its spatial part. Antisymmetry, linearity, the Gram length and agreement with the partial product are proved."
  },
  {
   "property": "C11",
   "status": "proved",
   "theorems": [
    "C11_from_length_and_r",
    "C11_from_length_and_r_defined",
    "C11_from_length_and_t",
    "C11_from_length_and_t_defined"
   ],
   "note": ""
  },
  {
   "property": "C12",
   "status": "proved",
   "theorems": [
    "C12_rotate",
    "C12_rotate_orientation",
    "C12_rotate_basis",
    "C12_rotate_zero_axis_refuted",
    "C12_scale_project",
    "C12_project4"
   ],
   "note": "Directions must be nonzero (C12_rotate_zero_axis_refuted shows why)."
  },
  {
   "property": "C13",
   "status": "partial",
   "theorems": [
    "C13_rotate_to",
    "C13_rotate_to_opposite_refuted"
   ],
   "note": "Proved unless the two directions are opposite, where the code returns a point reflection (C13_rotate_to_opposite_refuted)."
  },
  {
   "property": "C14",
   "status": "proved",
   "theorems": [
    "C14_product3",
    "C14_product4",
    "C14_inverse3",
    "C14_inverse4",
    "C14_identity",
    "C14_adjoint",
    "C14_lorentz_inverse",
    "C14_lift"
   ],
   "note": ""
  },
  {
   "property": "C15",
   "status": "proved",
   "theorems": [
    "C15_boost",
    "C15_transform_to",
    "C15_transform_to_defined",
    "C15_boost_zero_direction_refuted"
   ],
   "note": "boost needs a nonzero direction (C15_boost_zero_direction_refuted)."
  },
  {
   "property": "C16",
   "status": "partial",
   "theorems": [
    "C16_sym_prod3_refuted",
    "C16_sym_prod4_refuted",
    "C16_asym_prod_antisymmetric"
   ],
   "note": "Violated by the code (C16_sym_prod3_refuted, C16_sym_prod4_refuted). The antisymmetric product is correct."
  },
  {
   "property": "C17",
   "status": "proved",
   "theorems": [
    "C17_target_lab_frame",
    "C17_lepton_frame",
    "C17_hadron_frame",
    "C17_virt_photon_frame",
    "C17_real_photon_frame",
    "C17_shift_frame"
   ],
   "note": "Over the reals. The frames are defined for admissible points; the shift frame needs a nonzero transverse hadron momentum before and after the shift, as the code divides by both."
  },
  {
   "property": "C18",
   "status": "proved",
   "theorems": [
    "C18_kinematics_invariants",
    "C18_points_are_events",
    "C18_photon_azimuth"
   ],
   "note": "Over the reals, for points whose lepton transverse momentum is positive and whose hadron has enough energy (admissible). phi_h and phi are inputs; phi_q is checked separately."
  },
  {
   "property": "C19",
   "status": "proved",
   "theorems": [
    "C19_final_momenta",
    "C19_final_rad_momenta"
   ],
   "note": "Over the reals, for initial momenta on shell with 2 p.k1 = S."
  },
  {
   "property": "C20",
   "status": "proved",
   "theorems": [
    "C20_photon_invariants",
    "C20_photon_exists"
   ],
   "note": "F_IR is identified when both denominators are nonzero."
  },
  {
   "property": "C21",
   "status": "proved",
   "theorems": [
    "C21_shifted_invariants"
   ],
   "note": "For R < S_x (positive shifted energy). The two azimuth components are identified when the transverse momenta are nonzero."
  },
  {
   "property": "C22",
   "status": "proved",
   "theorems": [
    "C22_projection",
    "C22_zero_radiation"
   ],
   "note": "The azimuths need a nonzero transverse hadron momentum and angles in the principal range."
  },
  {
   "property": "C23",
   "status": "partial",
   "theorems": [
    "C23_project_shift_values",
    "C23_project_shift_refuted"
   ],
   "note": "Violated by the code: the projection keeps the lepton invariants of the unshifted transfer (C23_project_shift_refuted, for every nonzero R). The transfer-dependent fields are the shifted ones (C23_project_shift_values)."
  },
  {
   "property": "C24",
   "status": "proved",
   "theorems": [
    "C24_limits_sound",
    "C24_valid_is_physical",
    "C24_S_min_exact"
   ],
   "note": "For masses with M < Mth + mh (the reaction needs energy). Also: valid() accepts exactly the physical points and S_min is the exact threshold of x_bound."
  },
  {
   "property": "C25",
   "status": "proved",
   "theorems": [
    "C25_nested_limits_physical"
   ],
   "note": "Same mass condition as C24."
  },
  {
   "property": "C26",
   "status": "proved",
   "theorems": [
    "C26_take_cut_sound",
    "C26_take_rad_cut_sound",
    "C26_valid_cut_exact",
    "C26_valid_cut_rad_exact"
   ],
   "note": "The acceptance test is identified with the conditions on the momenta (any frame); a hadron at rest fails a cut on its angle."
  },
  {
   "property": "C27",
   "status": "partial",
   "theorems": [
    "C27_unbounded_Q_sq_refuted",
    "C27_finite_Q_sq_partial"
   ],
   "note": "Violated by the code: an infinite upper end makes the x interval NaN, so nothing is sampled (C27_unbounded_Q_sq_refuted, C27_lost_point). With finite upper ends nothing that passes is lost."
  },
  {
   "property": "C28",
   "status": "proved",
   "theorems": [
    "C28_tau_bound_exact",
    "C28_R_bound_exact",
    "C28_shift_mx_is_missing_mass",
    "C28_valid_rad_exact"
   ],
   "note": "For Mth > 0."
  },
  {
   "property": "C29",
   "status": "proved",
   "theorems": [
    "C29_construction_iff",
    "C29_constructed_fields",
    "C29_error_payload"
   ],
   "note": ""
  },
  {
   "property": "C30",
   "status": "proved",
   "theorems": [
    "C30_linear_in_range",
    "C30_cubic_in_range",
    "C30_cell"
   ],
   "note": "Bounds finite (checked by the constructor), count at most 2^53 + 1. Round to nearest even."
  },
  {
   "property": "C31",
   "status": "proved",
   "theorems": [
    "C31_linear_bounded",
    "C31_linear_at_nodes",
    "C31_linear_affine",
    "C31_linear_outside"
   ],
   "note": "Exact arithmetic. At the upper end of an axis the view is NaN, as the half-open interval says."
  },
  {
   "property": "C32",
   "status": "partial",
   "theorems": [
    "C32_cubic_at_nodes",
    "C32_cubic_quadratic_partial",
    "C32_cubic_edge_refuted",
    "C32_cubic_derivable",
    "C32_cubic_outside"
   ],
   "note": "Exact at nodes, on data quadratic in each variable at least one cell off the edges, and differentiable along each line. Violated in the edge cells, where the missing neighbour counts as zero (C32_cubic_edge_refuted)."
  },
  {
   "property": "C33",
   "status": "proved",
   "theorems": [
    "C33_indexing",
    "C33_bijection",
    "C33_checks",
    "C33_first_failure"
   ],
   "note": ""
  },
  {
   "property": "C34",
   "status": "proved",
   "theorems": [
    "C34_recover",
    "C34_sound"
   ],
   "note": "Exact arithmetic. C34_sound is the converse: what is accepted is a grid up to the tolerance."
  },
  {
   "property": "C35",
   "status": "partial",
   "theorems": [
    "C35_refuted",
    "C35_partial",
    "C35_one_column_partial"
   ],
   "note": "Violated by the code (C35_refuted). C35_partial tells when: fewer than N columns account for all rows."
  },
  {
   "property": "C36",
   "status": "proved",
   "theorems": [
    "C36_born_four_parts",
    "C36_amm_four_parts",
    "C36_nrad_ir_four_parts",
    "C36_rad_four_parts",
    "C36_rad_f_four_parts",
    "C36_full_formula"
   ],
   "note": ""
  },
  {
   "property": "C37",
   "status": "proved",
   "theorems": [
    "C37_infrared_term"
   ],
   "note": "Over real numbers. Below the switching value R_max*sqrt(2*2^-52) the code replaces the quotient by a quadratic extrapolation; that case is C40."
  },
  {
   "property": "C38",
   "status": "proved",
   "theorems": [
    "C38_cutoff_cancels",
    "C38_cutoff_monotone",
    "C38_hard_part_nonneg"
   ],
   "note": "The dilogarithm is a parameter of the model."
  },
  {
   "property": "C39",
   "status": "proved",
   "theorems": [
    "C39_soft_coefficients",
    "C39_soft_factor_is_current"
   ],
   "note": ""
  },
  {
   "property": "C40",
   "status": "proved",
   "theorems": [
    "C40_exact_on_quadratics",
    "C40_error",
    "C40_matching"
   ],
   "note": ""
  },
  {
   "property": "C41",
   "status": "proved",
   "theorems": [
    "C41_born_reflection",
    "C41_rad_reflection",
    "C41_parity"
   ],
   "note": ""
  },
  {
   "property": "C42",
   "status": "proved",
   "theorems": [
    "C42_base_getters",
    "C42_combined_getters"
   ],
   "note": ""
  },
  {
   "property": "C43",
   "status": "proved",
   "theorems": [
    "C43_filters",
    "C43_order_and_repetition",
    "C43_unknown_word",
    "C43_leading_partition",
    "C43_option"
   ],
   "note": ""
  },
  {
   "property": "C44",
   "status": "partial",
   "theorems": [
    "C44_select_refuted",
    "C44_select_among_words_refuted",
    "C44_literal_pattern_refuted"
   ],
   "note": "Violated by the code: the pattern is never matched, every select word is an unknown filter (C44_select_refuted)."
  },
  {
   "property": "C45",
   "status": "partial",
   "theorems": [
    "C45_dispatch_refuted",
    "C45_special_sets_unreachable_refuted",
    "C45_dispatch_partial",
    "C45_missing_class_refuted"
   ],
   "note": "Violated by the code: the base class is tested first, so the specialised sets are never used (C45_dispatch_refuted). For WW-type sets the values agree all the same (C71)."
  },
  {
   "property": "C46",
   "status": "partial",
   "theorems": [
    "C46_sets_agree_partial",
    "C46_general_agree_partial",
    "C46_sin_phis_refuted",
    "C46_sin_2phih_m_phis_refuted",
    "C46_widths",
    "C46_charges"
   ],
   "note": "Agreement proved for sixteen of the eighteen structure functions and all tables. The full statement is refuted: the set convolves hT and hTperp with the width 0.15 while the coded functions use the pretzelosity and transversity widths, so sin(2phih-phis) and sin(phis) differ."
  },
  {
   "property": "C47",
   "status": "partial",
   "theorems": [
    "C47_integrand_partial",
    "C47_gaussian_closed_form",
    "C47_plane_integral_unique",
    "C47_W3_difference",
    "C47_W3_refuted"
   ],
   "note": "Violated for one weight: the numeric third-harmonic weight lacks a factor 2 in its middle term (C47_W3_refuted). The other seven weights and all eight Gaussian closed forms are proved."
  },
  {
   "property": "C48",
   "status": "proved",
   "theorems": [
    "C48_ut_integ_born",
    "C48_ut_integ_rc",
    "C48_other_harmonics",
    "C48_uu_integ_born",
    "C48_uu_integ_rc",
    "C48_asymmetry",
    "C48_sivers_collins"
   ],
   "note": "The integrators are arbitrary functionals; the closed form is for an integrator without error."
  },
  {
   "property": "C49",
   "status": "proved",
   "theorems": [
    "C49_condition_meaning",
    "C49_or_and",
    "C49_identities",
    "C49_stored_once",
    "C49_order_free"
   ],
   "note": ""
  },
  {
   "property": "C50",
   "status": "proved",
   "theorems": [
    "C50_read",
    "C50_soft_read",
    "C50_strict",
    "C50_std_format"
   ],
   "note": ""
  },
  {
   "property": "C51",
   "status": "proved",
   "theorems": [
    "C51_every_file",
    "C51_reads",
    "C51_rejects",
    "C51_integers",
    "C51_versions",
    "C51_words",
    "C51_strings",
    "C51_doubles",
    "C51_seeds"
   ],
   "note": "Std streams (getline, operator>> for words, integers, doubles) are modelled over texts. Every text is covered: it is a sequence of lines, and its entries are unique. Doubles, vectors and seeds: accepted forms only. The assignments left behind by a throw are not modelled."
  },
  {
   "property": "C52",
   "status": "partial",
   "theorems": [
    "C52_write_read",
    "C52_accuracy",
    "C52_doubles_refuted",
    "C52_seeds_refuted",
    "C52_values_refuted",
    "C52_seventeen",
    "C52_exact",
    "C52_powers"
   ],
   "note": "Write then read is the identity for plain values; from 17 digits on for every finite double. The full statement is refuted for the 16 digits that sidisgen sets: 1 and 1+2^-52 get the same text; two or more non-negative seeds run together; a string is cut at a hash sign; empty strings and infinities make the file unreadable. Which doubles are restored is decided exactly: a double that is not a power of two if and only if it is nearest to a decimal of that many digits; of the 2098 powers of two, all but 855 listed ones."
  },
  {
   "property": "C53",
   "status": "proved",
   "theorems": [
    "C53_foam_accepted_iff"
   ],
   "note": ""
  },
  {
   "property": "C54",
   "status": "partial",
   "theorems": [
    "C54_merged_num_events",
    "C54_merged_version",
    "C54_common_seed_refused",
    "C54_merged_flags",
    "C54_merged_event_types",
    "C54_merged_provides",
    "C54_merged_seeds_partial",
    "C54_merged_seeds_refuted",
    "C54_seed_union",
    "C54_merged_seeds_one_run",
    "C54_reused_seed_accepted_refuted"
   ],
   "note": "Event count, version, flags, event types, refusal of a common seed are proved. The seeds part is violated: the merged run keeps only the second run's seeds (C54_merged_seeds_refuted), so a third run may reuse a seed of the first (C54_reused_seed_accepted_refuted)."
  },
  {
   "property": "C55",
   "status": "partial",
   "theorems": [
    "C55_merge_agrees_partial",
    "C55_merge_differing_refuted"
   ],
   "note": "Proved for runs with a common event type; violated without one (C55_merge_differing_refuted)."
  },
  {
   "property": "C56",
   "status": "partial",
   "theorems": [
    "C56_mergeable_iff",
    "C56_same_settings_partial",
    "C56_same_settings_refuted"
   ],
   "note": "Violated when both runs set an option of an event type they do not produce (C56_same_settings_refuted). The exact condition is C56_mergeable_iff; same settings without such options always merge."
  },
  {
   "property": "C57",
   "status": "partial",
   "theorems": [
    "C57_rejection_keeps_mean",
    "C57_rejection_outcomes",
    "C57_zero_weight_rejected",
    "C57_zero_weight_accepted_refuted"
   ],
   "note": "Violated in one case: a zero weight is accepted with the full scale when the random number is 0 (C57_zero_weight_accepted_refuted). The mean is kept for every weight and scale."
  },
  {
   "property": "C58",
   "status": "proved",
   "theorems": [
    "C58_combine",
    "C58_commutative",
    "C58_associative",
    "C58_empty_is_neutral",
    "C58_merge_files",
    "C58_accumulator"
   ],
   "note": "bubble::Stats is an empty submodule in the repository; it is modelled by the list of weights it pools."
  },
  {
   "property": "C59",
   "status": "partial",
   "theorems": [
    "C59_total_exact_iff",
    "C59_total_refuted",
    "C59_total_absent_refuted"
   ],
   "note": "Violated by the code: C59_total_exact_iff tells exactly when the total is right, C59_total_refuted and C59_total_absent_refuted give cases where it is wrong or NaN."
  },
  {
   "property": "C60",
   "status": "proved",
   "theorems": [
    "C60_nrad_nonneg",
    "C60_rad_nonneg",
    "C60_nrad_support",
    "C60_rad_support",
    "C60_nrad_value",
    "C60_rad_value",
    "C60_nrad_covers"
   ],
   "note": "The cross-sections are arbitrary functions to the extended reals; structure functions are inside them."
  },
  {
   "property": "C61",
   "status": "partial",
   "theorems": [
    "C61_wrap_fitting_text",
    "C61_words_well_defined",
    "C61_wrap_any_text",
    "C61_overlong_line_refuted",
    "C61_overlong_truncated_refuted",
    "C61_table_accepted",
    "C61_table_aligned",
    "C61_table_padding_refuted",
    "C61_summary_names_fit"
   ],
   "note": "Violated by the code: a word longer than the width that follows another, and the remainder of a truncated one, are printed whole (C61_overlong_line_refuted, C61_overlong_truncated_refuted); a table cell is then padded by about 2^32 spaces (C61_table_padding_refuted). Proved for words that fit and for every name the program prints."
  },
  {
   "property": "C62",
   "status": "proved",
   "theorems": [
    "C62_bar_width",
    "C62_bar_filled",
    "C62_bar_monotone",
    "C62_bar_text"
   ],
   "note": "For terminal widths with (width-7)*100 < 2^32."
  },
  {
   "property": "C63",
   "status": "proved",
   "theorems": [
    "C63_enabled_event_types"
   ],
   "note": ""
  },
  {
   "property": "C64",
   "status": "proved",
   "theorems": [
    "C64_efficiency_roundtrip",
    "C64_variance_roundtrip",
    "C64_closed_forms",
    "C64_cells_positive"
   ],
   "note": ""
  },
  {
   "property": "C65",
   "status": "partial",
   "theorems": [
    "C65_exactly_once_partial",
    "C65_balanced",
    "C65_never_twice",
    "C65_use_refuted",
    "C65_leak_refuted"
   ],
   "note": "Never destroyed twice: proved for all programs. Exactly once and never used when dead: proved for programs that, after a failure, only build again, delete, or (after a failed read) read again. The full statement is refuted: drawing after a failed build, or after reading an unknown type tag, uses a destroyed engine; reading after a failed build leaks the engine. Engines are opaque; a destructor and the move of an engine do not throw."
  },
  {
   "property": "C66",
   "status": "proved",
   "theorems": [
    "C66_sqrt1p_1m",
    "C66_log_log1m",
    "C66_dilog_range",
    "C66_dilog_series",
    "C66_dilog",
    "C66_dilog_small",
    "C66_dilog_exists",
    "C66_clamp",
    "C66_clamp_nan"
   ],
   "note": "Real arithmetic; rounding of floating point operations is not part of the statement."
  },
  {
   "property": "C67",
   "status": "partial",
   "theorems": [
    "C67_two_loop_running",
    "C67_one_loop_running",
    "C67_continuous",
    "C67_first_cell_refuted",
    "C67_default_refuted",
    "C67_one_table"
   ],
   "note": "Proved from one table spacing above the electron mass to beyond every double; refuted in the first table cell (5% too large) and for the default argument (not a number)."
  },
  {
   "property": "C68",
   "status": "partial",
   "theorems": [
    "C68_W_sq_cut_keeps_partial",
    "C68_low_W_sq_refuted",
    "C68_no_lower_W_sq_refuted"
   ],
   "note": "Proved when the lower end is at least M^2. Violated for a lower end so low that the denominator is negative (C68_low_W_sq_refuted) and without a lower end (C68_no_lower_W_sq_refuted)."
  },
  {
   "property": "C69",
   "status": "proved",
   "theorems": [
    "C69_take_physical",
    "C69_take_onto",
    "C69_take_rad_physical",
    "C69_take_rad_onto",
    "C69_take_rad_cut_onto"
   ],
   "note": "The radiative sampler covers the points off the edge of the region, where its transition widths are positive."
  },
  {
   "property": "C70",
   "status": "partial",
   "theorems": [
    "C70_ragged_refuted"
   ],
   "note": "Violated by the code: repeated and ragged tables are accepted and the last value wins (C70_ragged_refuted; C34_sound describes what is accepted)."
  },
  {
   "property": "C71",
   "status": "proved",
   "theorems": [
    "C71_ww_equals_general",
    "C71_gaussian_ww_equals_gaussian"
   ],
   "note": "The cubature routine is any function that maps the zero integrand to zero."
  },
  {
   "property": "C72",
   "status": "proved",
   "theorems": [
    "C72_reduced_is_integral",
    "C72_first_moment",
    "C72_ww_relations",
    "C72_ww_pointwise"
   ],
   "note": ""
  },
  {
   "property": "C73",
   "status": "proved",
   "theorems": [
    "C73_choice",
    "C73_choice_defined",
    "C73_no_type_starves"
   ],
   "note": ""
  },
  {
   "property": "C74",
   "status": "proved",
   "theorems": [
    "C74_file_reproduces_cross_section"
   ],
   "note": ""
  },
  {
   "property": "C75",
   "status": "proved",
   "theorems": [
    "C75_photon_energy",
    "C75_no_gap"
   ],
   "note": ""
  },
  {
   "property": "C76",
   "status": "proved",
   "theorems": [
    "C76_user_cuts",
    "C76_user_cuts_rad"
   ],
   "note": ""
  },
  {
   "property": "C77",
   "status": "partial",
   "theorems": [
    "C77_once_partial",
    "C77_twice_refuted"
   ],
   "note": "Violated by the code for intervals wider than a turn: the user interval replaces the full angle without being reduced (C77_twice_refuted). C77_once_partial covers the narrower ones."
  },
  {
   "property": "C78",
   "status": "proved",
   "theorems": [
    "C78_born_modulations",
    "C78_massless_textbook"
   ],
   "note": ""
  },
  {
   "property": "C79",
   "status": "proved",
   "theorems": [
    "C79_nrad_ir_factors",
    "C79_cutoff_cancels",
    "C79_no_cutoff_no_value"
   ],
   "note": "Vacuum polarization by hadrons and the coupling are parameters of the model, as they are of the code."
  },
  {
   "property": "C80",
   "status": "proved",
   "theorems": [
    "C80_rad_f_integrand",
    "C80_soft_window",
    "C80_hard_window",
    "C80_negative_cutoff"
   ],
   "note": "The Monte-Carlo integrator (cubature) itself is not modelled."
  },
  {
   "property": "C81",
   "status": "partial",
   "theorems": [
    "C81_error",
    "C81_zero_asymmetry_refuted"
   ],
   "note": "Refuted: harmonics that vanish by construction are reported with an error that is not a number (0/0); C81_error holds when both integrals are non-zero."
  },
  {
   "property": "C82",
   "status": "partial",
   "theorems": [
    "C82_positive_increasing",
    "C82_joints",
    "C82_continuous_refuted"
   ],
   "note": "Positive and increasing; the joints agree to 1% but continuity is refuted (jumps of more than 0.3% and 0.6%)."
  },
  {
   "property": "C83",
   "status": "proved",
   "theorems": [
    "C83_value",
    "C83_params",
    "C83_file",
    "C83_write_reports",
    "C83_read_refuses",
    "C83_read_throws",
    "C83_names"
   ],
   "note": "TDirectory::WriteObject and Get are modelled as a list of named objects. Strings with a zero byte are outside the statement (parameter files without zero bytes never set one)."
  },
  {
   "property": "C84",
   "status": "partial",
   "theorems": [
    "C84_statistics_partial",
    "C84_refuses",
    "C84_in_range",
    "C84_count_refuted"
   ],
   "note": "Counts up to 2^53 and ordinary normalizations (unset, or 2^-1000..2^1000 in size): proved for two event types. The full statement is refuted: counts are stored as doubles and 2^53+1 comes back as 2^53. bubble::Stats is taken to be rebuilt from what its getters return."
  },
  {
   "property": "C85",
   "status": "partial",
   "theorems": [
    "C85_defined",
    "C85_commands",
    "C85_otherwise",
    "C85_exit_status",
    "C85_short_refuted"
   ],
   "note": "Everything proved except one short form, refuted: -i is tested for initialize as well but always runs inspect."
  },
  {
   "property": "C86",
   "status": "partial",
   "theorems": [
    "C86_no_overwrite",
    "C86_initialize",
    "C86_generate",
    "C86_merge",
    "C86_failed_initialize",
    "C86_failed_generate",
    "C86_pipeline",
    "C86_retry_refuted",
    "C86_retry_generate_refuted"
   ],
   "note": "What the commands compute enters by its outcome (exceptions, codes, bytes); ROOT writes may fail at any object; CREATE refuses existing files. The last clause is refuted: initialize and generate create the file before checking the parameters, so the corrected rerun fails with ERROR_FILE_NOT_CREATED. Excluded from the refusal clause: an initialize that fails while writing the parameters themselves."
  },
  {
   "property": "C87",
   "status": "proved",
   "theorems": [
    "C87_initial",
    "C87_nrad_row",
    "C87_rad_row",
    "C87_sf_leaves",
    "C87_branches"
   ],
   "note": "Over the real numbers. The branch sf is read as consecutive doubles without padding; TLorentzVector is its four components."
  },
  {
   "property": "C88",
   "status": "partial",
   "theorems": [
    "C88_polarization_partial",
    "C88_sampled_nrad_partial",
    "C88_sampled_rad_partial",
    "C88_sampled_refuted",
    "C88_polarization_refuted"
   ],
   "note": "Proved exactly for polarizations with x = 0 and y >= 0 (iff). Refuted for all others, e.g. (1,0,0): the densities apply hadron_from_target to the lab polarization although the target frame of the written momenta turns its transverse part onto e_y."
  },
  {
   "property": "C89",
   "status": "proved",
   "theorems": [
    "C89_lepton_coefficients",
    "C89_born_cross_section",
    "C89_helicity_exists"
   ],
   "note": "Over the real numbers, lepton mass > 0 (a massless lepton has no helicity vector of this form). The weights of the nine structures are the hadronic coefficients of the code; C92 says what tensor they make up."
  },
  {
   "property": "C90",
   "status": "proved",
   "theorems": [
    "C90_lepton_coefficients",
    "C90_radiative_cross_section"
   ],
   "note": "Over the real numbers, lepton mass > 0, R > 0. Full emission amplitude including the mass and helicity-flip terms; emission from the hadron is not part of the code."
  },
  {
   "property": "C91",
   "status": "proved",
   "theorems": [
    "C91_lepton_coefficients",
    "C91_amm_cross_section"
   ],
   "note": "Over the real numbers, lepton mass > 0. Only the Pauli part; the vector part of the vertex correction is in nrad_ir (C79, C80)."
  },
  {
   "property": "C92",
   "status": "proved",
   "theorems": [
    "C92_tensor",
    "C92_radiative_tensor",
    "C92_born_cross_section",
    "C92_amm_cross_section",
    "C92_radiative_cross_section"
   ],
   "note": "Over the real numbers, for nonzero transverse momentum before and after the shift (the axes need it)."
  },
  {
   "property": "C93",
   "status": "proved",
   "theorems": [
    "C93_vacuum_polarization",
    "C93_screening"
   ],
   "note": "Over the real numbers. Hadronic vacuum polarization is an input of the code."
  },
  {
   "property": "C94",
   "status": "proved",
   "theorems": [
    "C94_vertex_and_soft",
    "C94_hard_photons",
    "C94_code_dilog"
   ],
   "note": "Over the real numbers, lepton mass > 0, leptons not collinear in the rest frame of the undetected hadrons (a set of measure zero). Non-vacuity: an event with rational momenta."
  },
  {
   "property": "C95",
   "status": "partial",
   "theorems": [
    "C95_default_born",
    "C95_default_rad",
    "C95_default_nrad",
    "C95_counted_once_refuted"
   ],
   "note": "Violated: the default coupling runs with the electron loop, which nrad_ir multiplies in again; the result is at least 2% too large whenever the correction factor is at least 4/5 (C95_default_nrad), with a rational event as witness (C95_counted_once_refuted). The powers of the coupling are proved."
  },
  {
   "property": "C96",
   "status": "partial",
   "theorems": [
    "C96_shift",
    "C96_scale",
    "C96_shift_back_refuted",
    "C96_scale_zero_refuted",
    "C96_lerp_ends",
    "C96_lerp_across_zero",
    "C96_lerp_error",
    "C96_lerp_wide",
    "C96_lerp_inside_refuted",
    "C96_linear_constant_refuted"
   ],
   "note": "Proved for IEEE binary64 with round to nearest even (Flocq): shifts and scalings keep points for all doubles, lerp is exact at the ends, stays inside and monotone across zero, has the error bound, and stays inside every interval wider than 2^-52 of its far end for parameters on the grid 2^-53. Violated otherwise: [0.9,0.9] at 3/16 and [0.6,0.7] at 5/2^56 leave by one unit in the last place (C96_lerp_inside_refuted), shifted sums may contain points that were outside (C96_shift_back_refuted), and scaling [0,+inf) by zero gives a NaN end (C96_scale_zero_refuted)."
  },
  {
   "property": "C97",
   "status": "partial",
   "theorems": [
    "C97_first_place",
    "C97_number",
    "C97_rows",
    "C97_refused",
    "C97_grid",
    "C97_columns_refuted",
    "C97_short_line_refuted"
   ],
   "note": "Proved for all texts: the place of the file (C97_first_place), the numbers read (C97_number), exactly which texts are loaded and refused and how (C97_rows, C97_refused), and that a file running through a grid gives that grid (C97_grid, with C34). Violated: further columns go unnoticed for every file (C97_columns_refuted), and on a blank line numbers never written are copied before the line is refused (C97_short_line_refuted)."
  },
  {
   "property": "C98",
   "status": "proved",
   "theorems": [
    "C98_dilog",
    "C98_dilog_small",
    "C98_dilog_points",
    "C98_terms",
    "C98_sqrt",
    "C98_library"
   ],
   "note": "Round to nearest even without fused operations or excess precision; the library functions are arbitrary within 2^-52 relative error (C98_library: such functions exist). Finite arguments; infinities and NaN are outside."
  },
  {
   "property": "C99",
   "status": "partial",
   "theorems": [
    "C99_vm",
    "C99_derived",
    "C99_phl",
    "C99_phl_refuted",
    "C99_plain"
   ],
   "note": "Proved: V_m (C99_vm), t, W_sq, mx_sq (C99_derived) and ph_l (C99_phl) for events with longitudinal momentum at least half the energy and 4 M^2 x^2 <= 3 Q^2; where the plain difference gives zero V_m is right (C99_plain, C99_example). Violated: at an allowed event just below the edge the computed ratio exceeds one and ph_l is the square root of a negative number (C99_phl_refuted). Round to nearest even, no fused operations or excess precision."
  },
  {
   "property": "C100",
   "status": "proved",
   "theorems": [
    "C100_digits",
    "C100_doubles",
    "C100_masses",
    "C100_model",
    "C100_tables",
    "C100_names"
   ],
   "note": "Real is double, the default of CMakeLists.txt; long double is any binary format of at least 64 bits of precision, or double itself. Measured masses are those of the Particle Data Group (2018 edition), part of the specification."
  },
  {
   "property": "C101",
   "status": "partial",
   "theorems": [
    "C101_decay",
    "C101_decay_jacobian",
    "C101_slopes",
    "C101_x",
    "C101_y",
    "C101_x_jacobian",
    "C101_y_jacobian",
    "C101_z",
    "C101_ceiling",
    "C101_infinite",
    "C101_rounded",
    "C101_reach_refuted"
   ],
   "note": "Proved: error bounds of all four maps (C101_x, C101_y, C101_z, C101_decay) and of their Jacobians (C101_x_jacobian, C101_y_jacobian, C101_decay_jacobian; C101_slopes: the exact Jacobians are the derivatives), the ceiling of 9.2 GeV^2 (C101_ceiling), infinity with a NaN weight above 9.5 GeV^2 (C101_infinite). Violated: at S = 2000 GeV^2 physical events with ph_t_sq of 15 GeV^2 exist and are reached by the exact sampler, but no double p gives a value between 10 and 20 (C101_reach_refuted): 1 - u is lost next to 1. Round to nearest even, no fused operations or excess precision."
  },
  {
   "property": "C102",
   "status": "partial",
   "theorems": [
    "C102_R",
    "C102_jacobian",
    "C102_slope",
    "C102_floor",
    "C102_nonnegative_refuted",
    "C102_threshold",
    "C102_library"
   ],
   "note": "Proved: error bounds of R and of its Jacobian (C102_R, C102_jacobian; C102_slope: the exact Jacobian is the derivative), the smallest value drawn (C102_floor), the threshold (C102_threshold); C102_library: correctly rounded log and exp meet the hypotheses. Violated: that R is never below its lower limit. Witness (C102_nonnegative_refuted): with correctly rounded log and exp, offset 1/2048, limits 0 to b and coordinate 0 give R < 0."
  },
  {
   "property": "C103",
   "status": "proved",
   "theorems": [
    "C103_reliable",
    "C103_interval",
    "C103_repeatable",
    "C103_memory",
    "C103_tidy",
    "C103_burn",
    "C103_points",
    "C103_unknown"
   ],
   "note": "The routines of cubature and GSL are parameters; the library is assumed to end the program on its own errors and to let exceptions of the integrand through."
  },
  {
   "property": "C104",
   "status": "partial",
   "theorems": [
    "C104_fixed",
    "C104_scientific",
    "C104_threshold_message",
    "C104_threshold_shown",
    "C104_threshold_shown_refuted",
    "C104_threshold_same",
    "C104_messages_tell",
    "C104_lepton_names_refuted",
    "C104_percent",
    "C104_report",
    "C104_session",
    "C104_flags_restored",
    "C104_precision_restored_refuted",
    "C104_precision_left"
   ],
   "note": "Accuracy of printed numbers, content of messages, and independence of outputs proved. Refuted: a refused threshold may be shown equal to the limit; lepton names are not distinct; stream_write_integ leaves the precision of the stream at 1."
  },
  {
   "property": "C105",
   "status": "partial",
   "theorems": [
    "C105_outer",
    "C105_form",
    "C105_action",
    "C105_embedding",
    "C105_lorentz",
    "C105_rotation",
    "C105_bivector",
    "C105_bivector_invariants",
    "C105_bivector_rotated",
    "C105_generators",
    "C105_spatial_tensor_linear_refuted"
   ],
   "note": "Transformation laws of tensors and bivectors proved over the reals. Refuted: transforming a spatial tensor by a four-dimensional transform is not linear."
  },
  {
   "property": "C106",
   "status": "partial",
   "theorems": [
    "C106_position",
    "C106_outside",
    "C106_inside",
    "C106_inside_refuted",
    "C106_value",
    "C106_node",
    "C106_node_refuted",
    "C106_overflow_refuted"
   ],
   "note": "Error bounds of position and value, exact treatment of points outside, and exact nodes for powers of two proved in binary64. Refuted: NaN for a point strictly inside next to the upper bound; nodes are not reproduced in general (129 instead of 1 on a grid of 49 cells); bounds whose difference overflows put every point at the first node."
  },
  {
   "property": "C107",
   "status": "partial",
   "theorems": [
    "C107_expression",
    "C107_value",
    "C107_exact",
    "C107_bound",
    "C107_node_refuted"
   ],
   "note": "Error bound of the cubic view for any number of axes, of the expression, and agreement of the exact code with the spline proved. Refuted: at a representable node the value of the neighbour leaks into the answer (more than 65 instead of 1)."
  },
  {
   "property": "C108",
   "status": "proved",
   "theorems": [
    "C108_step",
    "C108_table",
    "C108_value",
    "C108_beyond",
    "C108_below",
    "C108_first_cell"
   ],
   "note": "Step, table, value below Q^2 = 100 and one-loop continuation in binary64 against the exact model of C67, for any constants and logarithm within stated tolerances; the header constants and a nearest-double logarithm shown to satisfy them."
  },
  {
   "property": "C109",
   "status": "partial",
   "theorems": [
    "C109_value",
    "C109_positive",
    "C109_monotone",
    "C109_continuous_refuted"
   ],
   "note": "Error bound, positivity and monotonicity proved for every long double format. Refuted: continuity at Q^2 = 1 and 64, with rounding as without."
  },
  {
   "property": "C110",
   "status": "proved",
   "theorems": [
    "C110_value",
    "C110_screening"
   ],
   "note": "Every rounding of the three terms and of their sum followed; Q^2 below 1 and above 10^4 not covered."
  }
 ]
}