{
 "claims": [
  {
   "property": "C01",
   "status": "proved",
   "theorems": [
    "C01_accept",
    "C01_complete"
   ],
   "note": ""
  },
  {
   "property": "C02",
   "status": "proved",
   "theorems": [
    "C02_derived_parameters",
    "C02_laws"
   ],
   "note": ""
  },
  {
   "property": "C03",
   "status": "proved",
   "theorems": [
    "C03_round_trip",
    "C03_selections",
    "C03_as_given"
   ],
   "note": ""
  },
  {
   "property": "C04",
   "status": "proved",
   "theorems": [
    "C04_units",
    "C04_bad_unit",
    "C04_deprecated_keywords",
    "C04_circular_duration_refuted"
   ],
   "note": ""
  },
  {
   "property": "C05",
   "status": "proved",
   "theorems": [
    "C05_exactly_one_time",
    "C05_interchange"
   ],
   "note": ""
  },
  {
   "property": "C06",
   "status": "proved",
   "theorems": [
    "C06_mid_transit",
    "C06_sin_omega_minus_one_refuted"
   ],
   "note": ""
  },
  {
   "property": "C07",
   "status": "proved",
   "theorems": [
    "C07_relation",
    "C07_round_trip",
    "C07_exclusive",
    "C07_errors"
   ],
   "note": ""
  },
  {
   "property": "C08",
   "status": "proved",
   "theorems": [
    "C08_circular_duration"
   ],
   "note": ""
  },
  {
   "property": "C09",
   "status": "proved",
   "theorems": [
    "C09_eccentric_duration",
    "C09_massive_planet_refuted",
    "C09_ror_ignored"
   ],
   "note": ""
  },
  {
   "property": "C10",
   "status": "proved",
   "theorems": [
    "C10_duration_jacobians",
    "C10_b_jacobian"
   ],
   "note": ""
  },
  {
   "property": "C11",
   "status": "proved",
   "theorems": [
    "C11_barycentre"
   ],
   "note": ""
  },
  {
   "property": "C12",
   "status": "proved",
   "theorems": [
    "C12_relative"
   ],
   "note": ""
  },
  {
   "property": "C13",
   "status": "proved",
   "theorems": [
    "C13_distance"
   ],
   "note": ""
  },
  {
   "property": "C14",
   "status": "proved",
   "theorems": [
    "C14_velocity"
   ],
   "note": ""
  },
  {
   "property": "C15",
   "status": "proved",
   "theorems": [
    "C15_acceleration",
    "C15_machine_numbers",
    "C15_massless_refuted"
   ],
   "note": ""
  },
  {
   "property": "C16",
   "status": "proved",
   "theorems": [
    "C16_conserved"
   ],
   "note": ""
  },
  {
   "property": "C17",
   "status": "proved",
   "theorems": [
    "C17_periodic"
   ],
   "note": ""
  },
  {
   "property": "C18",
   "status": "proved",
   "theorems": [
    "C18_radial_velocity"
   ],
   "note": ""
  },
  {
   "property": "C19",
   "status": "proved",
   "theorems": [
    "C19_angles",
    "C19_parallax_ignored_refuted"
   ],
   "note": ""
  },
  {
   "property": "C20",
   "status": "proved",
   "theorems": [
    "C20_light_delay",
    "C20_massless_nan_refuted"
   ],
   "note": ""
  },
  {
   "property": "C21",
   "status": "proved",
   "theorems": [
    "C21_true_anomaly"
   ],
   "note": ""
  },
  {
   "property": "C22",
   "status": "proved",
   "theorems": [
    "C22_circular_limit"
   ],
   "note": ""
  },
  {
   "property": "C23",
   "status": "proved",
   "theorems": [
    "C23_flip",
    "C23_ttv_refuted"
   ],
   "note": ""
  },
  {
   "property": "C24",
   "status": "proved",
   "theorems": [
    "C24_in_transit",
    "C24_never_transits",
    "C24_other_orbits_refuted"
   ],
   "note": ""
  },
  {
   "property": "C25",
   "status": "proved",
   "theorems": [
    "C25_exposure"
   ],
   "note": ""
  },
  {
   "property": "C26",
   "status": "proved",
   "theorems": [
    "C26_solver_failure",
    "C26_eccentric"
   ],
   "note": ""
  },
  {
   "property": "C27",
   "status": "proved",
   "theorems": [
    "C27_one_planet",
    "C27_shape_error",
    "C27_paired",
    "C27_dropped_refuted"
   ],
   "note": ""
  },
  {
   "property": "C28",
   "status": "proved",
   "theorems": [
    "C28_geometry",
    "C28_planets",
    "C28_star_and_velocity",
    "C28_light_delay_refuted",
    "C28_high_b_refuted"
   ],
   "note": ""
  },
  {
   "property": "C29",
   "status": "proved",
   "theorems": [
    "C29_in_transit",
    "C29_in_transit_radius",
    "C29_agree"
   ],
   "note": ""
  },
  {
   "property": "C30",
   "status": "proved",
   "theorems": [
    "C30_least_squares"
   ],
   "note": ""
  },
  {
   "property": "C31",
   "status": "proved",
   "theorems": [
    "C31_round_trip",
    "C31_transit_times"
   ],
   "note": ""
  },
  {
   "property": "C32",
   "status": "proved",
   "theorems": [
    "C32_nearest"
   ],
   "note": ""
  },
  {
   "property": "C33",
   "status": "proved",
   "theorems": [
    "C33_at_transits",
    "C33_no_variation"
   ],
   "note": ""
  },
  {
   "property": "C34",
   "status": "proved",
   "theorems": [
    "C34_filled_in",
    "C34_ephemeris_refuted",
    "C34_any_labels",
    "C34_negative_refuted",
    "C34_single_time",
    "C34_count_refuted"
   ],
   "note": ""
  },
  {
   "property": "C35",
   "status": "proved",
   "theorems": [
    "C35_expected",
    "C35_inclusive_refuted",
    "C35_zip_refuted"
   ],
   "note": ""
  },
  {
   "property": "C36",
   "status": "proved",
   "theorems": [
    "C36_kepler_shape",
    "C36_ttv_light_delay_shape"
   ],
   "note": ""
  },
  {
   "property": "C37",
   "status": "proved",
   "theorems": [
    "C37_neither",
    "C37_no_transits",
    "C37_both",
    "C37_delta_log_period",
    "C37_delta_ignored",
    "C37_flip_refuted"
   ],
   "note": ""
  },
  {
   "property": "C38",
   "status": "proved",
   "theorems": [
    "C38_coefficients",
    "C38_no_flux",
    "C38_vector",
    "C38_vector_length"
   ],
   "note": ""
  },
  {
   "property": "C39",
   "status": "proved",
   "theorems": [
    "C39_flux",
    "C39_value",
    "C39_hidden",
    "C39_physical"
   ],
   "note": ""
  },
  {
   "property": "C40",
   "status": "proved",
   "theorems": [
    "C40_mask",
    "C40_kepler",
    "C40_each",
    "C40_simple",
    "C40_vector_texp_refuted"
   ],
   "note": ""
  },
  {
   "property": "C41",
   "status": "proved",
   "theorems": [
    "C41_quadrature",
    "C41_orders",
    "C41_errors",
    "C41_linear",
    "C41_cubic",
    "C41_one_node_refuted"
   ],
   "note": ""
  },
  {
   "property": "C42",
   "status": "proved",
   "theorems": [
    "C42_convergence"
   ],
   "note": ""
  },
  {
   "property": "C43",
   "status": "proved",
   "theorems": [
    "C43_ror",
    "C43_no_transit"
   ],
   "note": ""
  },
  {
   "property": "C44",
   "status": "proved",
   "theorems": [
    "C44_flux",
    "C44_exposed",
    "C44_kepler",
    "C44_kepler_exposed",
    "C44_simple",
    "C44_simple_exposed",
    "C44_kepler_answers",
    "C44_mismatch"
   ],
   "note": ""
  },
  {
   "property": "C45",
   "status": "proved",
   "theorems": [
    "C45_missing",
    "C45_message",
    "C45_order",
    "C45_order_unmasked",
    "C45_order_unused",
    "C45_default_mask",
    "C45_forced"
   ],
   "note": ""
  },
  {
   "property": "C46",
   "status": "proved",
   "theorems": [
    "C46_flux",
    "C46_exposed",
    "C46_limits",
    "C46_combination",
    "C46_default_mask",
    "C46_many_refuted",
    "C46_coefficients",
    "C46_too_few"
   ],
   "note": ""
  },
  {
   "property": "C47",
   "status": "proved",
   "theorems": [
    "C47_interpolates",
    "C47_grid",
    "C47_periodic",
    "C47_accuracy",
    "C47_kepler",
    "C47_uncounted",
    "C47_one_vector_refuted",
    "C47_shared_refuted",
    "C47_shape",
    "C47_single_time_refuted"
   ],
   "note": ""
  },
  {
   "property": "C48",
   "status": "proved",
   "theorems": [
    "C48_cell",
    "C48_exact",
    "C48_data"
   ],
   "note": ""
  },
  {
   "property": "C49",
   "status": "proved",
   "theorems": [
    "C49_convex",
    "C49_continuous"
   ],
   "note": ""
  },
  {
   "property": "C50",
   "status": "proved",
   "theorems": [
    "C50_fill",
    "C50_edge",
    "C50_short",
    "C50_one_point"
   ],
   "note": ""
  },
  {
   "property": "C51",
   "status": "proved",
   "theorems": [
    "C51_error",
    "C51_mixed",
    "C51_single",
    "C51_vectors_refuted"
   ],
   "note": ""
  },
  {
   "property": "C52",
   "status": "proved",
   "theorems": [
    "C52_value",
    "C52_shape",
    "C52_scale",
    "C52_rotation",
    "C52_start",
    "C52_default",
    "C52_total"
   ],
   "note": ""
  },
  {
   "property": "C53",
   "status": "proved",
   "theorems": [
    "C53_value",
    "C53_start",
    "C53_start_refuted",
    "C53_total"
   ],
   "note": ""
  },
  {
   "property": "C54",
   "status": "proved",
   "theorems": [
    "C54_value",
    "C54_physical",
    "C54_start",
    "C54_total",
    "C54_error"
   ],
   "note": ""
  },
  {
   "property": "C55",
   "status": "proved",
   "theorems": [
    "C55_value",
    "C55_start",
    "C55_default",
    "C55_total",
    "C55_shape"
   ],
   "note": ""
  },
  {
   "property": "C56",
   "status": "proved",
   "theorems": [
    "C56_angle",
    "C56_unit_disk",
    "C56_quad_limb_dark",
    "C56_impact_parameter",
    "C56_untranslated"
   ],
   "note": ""
  },
  {
   "property": "C57",
   "status": "proved",
   "theorems": [
    "C57_beta",
    "C57_bounded",
    "C57_observed",
    "C57_observed_bounded",
    "C57_vaneylen",
    "C57_vaneylen_observed",
    "C57_observed_refuted",
    "C57_no_model",
    "C57_conflict"
   ],
   "note": ""
  },
  {
   "property": "C58",
   "status": "proved",
   "theorems": [
    "C58_mixture"
   ],
   "note": ""
  },
  {
   "property": "C59",
   "status": "proved",
   "theorems": [
    "C59_transit",
    "C59_phase",
    "C59_orbits",
    "C59_orbits_phase",
    "C59_least_squares",
    "C59_least_squares_phase",
    "C59_defined"
   ],
   "note": ""
  },
  {
   "property": "C60",
   "status": "proved",
   "theorems": [
    "C60_units",
    "C60_incompatible",
    "C60_quantity_y_refuted",
    "C60_mass"
   ],
   "note": ""
  },
  {
   "property": "C61",
   "status": "proved",
   "theorems": [
    "C61_formula",
    "C61_kepler",
    "C61_kepler_phase",
    "C61_linear",
    "C61_linear_mass",
    "C61_homogeneous"
   ],
   "note": ""
  },
  {
   "property": "C62",
   "status": "proved",
   "theorems": [
    "C62_peaks",
    "C62_error",
    "C62_index",
    "C62_index_refuted"
   ],
   "note": ""
  },
  {
   "property": "C63",
   "status": "proved",
   "theorems": [
    "C63_terminates",
    "C63_smallest"
   ],
   "note": ""
  },
  {
   "property": "C64",
   "status": "proved",
   "theorems": [
    "C64_autocorrelation",
    "C64_constant",
    "C64_shapes"
   ],
   "note": ""
  },
  {
   "property": "C65",
   "status": "proved",
   "theorems": [
    "C65_selection",
    "C65_curve",
    "C65_max_peaks",
    "C65_single",
    "C65_no_scipy",
    "C65_missed_refuted"
   ],
   "note": ""
  },
  {
   "property": "C66",
   "status": "proved",
   "theorems": [
    "C66_call",
    "C66_terminates",
    "C66_minimum",
    "C66_minimum_refuted",
    "C66_misspelt",
    "C66_peak",
    "C66_info_refuted"
   ],
   "note": ""
  },
  {
   "property": "C67",
   "status": "proved",
   "theorems": [
    "C67_call",
    "C67_unfiltered",
    "C67_peaks",
    "C67_response",
    "C67_rejects"
   ],
   "note": ""
  },
  {
   "property": "C68",
   "status": "proved",
   "theorems": [
    "C68_preserved",
    "C68_once",
    "C68_again",
    "C68_with_unit",
    "C68_to_unit",
    "C68_round_trip",
    "C68_table_refuted",
    "C68_legacy_refuted"
   ],
   "note": ""
  },
  {
   "property": "C69",
   "status": "proved",
   "theorems": [
    "C69_report",
    "C69_no_context",
    "C69_never_raises",
    "C69_context"
   ],
   "note": ""
  },
  {
   "property": "C70",
   "status": "proved",
   "theorems": [
    "C70_bibtex",
    "C70_table",
    "C70_external_refuted"
   ],
   "note": ""
  },
  {
   "property": "C71",
   "status": "proved",
   "theorems": [
    "C71_select",
    "C71_one_family",
    "C71_error",
    "C71_versions"
   ],
   "note": ""
  },
  {
   "property": "C72",
   "status": "proved",
   "theorems": [
    "C72_raises",
    "C72_roots",
    "C72_valid",
    "C72_jacobian",
    "C72_range",
    "C72_marginal",
    "C72_many_planets_refuted",
    "C72_branches",
    "C72_variables",
    "C72_reported",
    "C72_weights",
    "C72_reported_later_refuted"
   ],
   "note": ""
  },
  {
   "property": "C73",
   "status": "proved",
   "theorems": [
    "C73_planets",
    "C73_system"
   ],
   "note": ""
  },
  {
   "property": "C74",
   "status": "proved",
   "theorems": [
    "C74_unknown_keywords",
    "C74_keywords",
    "C74_a_overridden"
   ],
   "note": ""
  },
  {
   "property": "C75",
   "status": "proved",
   "theorems": [
    "C75_in_transit",
    "C75_in_transit_eccentric",
    "C75_failed_solver",
    "C75_light_curve",
    "C75_exposed",
    "C75_mask"
   ],
   "note": ""
  },
  {
   "property": "C76",
   "status": "proved",
   "theorems": [
    "C76_one_time",
    "C76_several_times"
   ],
   "note": ""
  },
  {
   "property": "C77",
   "status": "proved",
   "theorems": [
    "C77_secondary_refuted",
    "C77_interpolated_secondary",
    "C77_simple",
    "C77_ttv",
    "C77_ttv_lost_refuted",
    "C77_ttv_one_refuted",
    "C77_twice",
    "C77_no_orbit"
   ],
   "note": ""
  },
  {
   "property": "C78",
   "status": "proved",
   "theorems": [
    "C78_accepted",
    "C78_domain",
    "C78_position",
    "C78_velocity",
    "C78_light",
    "C78_exposed",
    "C78_in_transit",
    "C78_in_transit_eccentric",
    "C78_masked"
   ],
   "note": ""
  },
  {
   "property": "C79",
   "status": "proved",
   "theorems": [
    "C79_slow",
    "C79_delay",
    "C79_accuracy",
    "C79_light",
    "C79_exposed",
    "C79_shifted",
    "C79_secondary",
    "C79_secondary_exposed",
    "C79_default_mask",
    "C79_eclipse_shift",
    "C79_eclipse_delay_refuted"
   ],
   "note": ""
  },
  {
   "property": "C80",
   "status": "proved",
   "theorems": [
    "C80_errors",
    "C80_sky",
    "C80_angles",
    "C80_in_transit",
    "C80_light",
    "C80_secondary"
   ],
   "note": "Light delay for orbits slower at periastron than two fifths of the speed of light (`slow`)."
  },
  {
   "property": "C81",
   "status": "proved",
   "theorems": [
    "C81_errors",
    "C81_elements",
    "C81_sky",
    "C81_in_transit",
    "C81_light",
    "C81_secondary"
   ],
   "note": "`no_ecc_duration` excludes an eccentric orbit given by its duration. In-transit masks with one exposure time per planet value (`one_texp`) or none; light delay for `slow` orbits."
  },
  {
   "property": "C82",
   "status": "proved",
   "theorems": [
    "C82_errors",
    "C82_motion",
    "C82_in_transit",
    "C82_light",
    "C82_secondary"
   ],
   "note": "In-transit masks with one exposure time per planet value (`one_texp`) or none; light delay for `slow` orbits."
  },
  {
   "property": "C83",
   "status": "proved",
   "theorems": [
    "C83_errors",
    "C83_elements",
    "C83_motion",
    "C83_in_transit",
    "C83_light",
    "C83_secondary",
    "C83_default_star_refuted"
   ],
   "note": "`sized` = radius of the star given, or its mass and no duration; C83_default_star_refuted shows the need. No light delay."
  },
  {
   "property": "C84",
   "status": "proved",
   "theorems": [
    "C84_result",
    "C84_orbit",
    "C84_rejected",
    "C84_flip",
    "C84_session",
    "C84_alias",
    "C84_alias_name_refuted",
    "C84_visible_refuted",
    "C84_constants"
   ],
   "note": ""
  },
  {
   "property": "C85",
   "status": "proved",
   "theorems": [
    "C85_motion",
    "C85_quarter",
    "C85_circular",
    "C85_in_transit",
    "C85_light",
    "C85_secondary",
    "C85_symmetric",
    "C85_rule_refuted",
    "C85_delay_refuted"
   ],
   "note": "In-transit masks for circular orbits only (the contact point solver is external); `even_rule` excludes the one-point rule, C85_rule_refuted shows the need. No light delay (C85_delay_refuted)."
  },
  {
   "property": "C86",
   "status": "proved",
   "theorems": [
    "C86_uniform",
    "C86_bounds",
    "C86_approx",
    "C86_flat",
    "C86_radius"
   ],
   "note": "`use_in_transit=False`; C40 shows the mask does not change the light curves of the library's orbits. `visible_flux` specifies the external flux function (DESIGN, trusted base)."
  },
  {
   "property": "C87",
   "status": "proved",
   "theorems": [
    "C87_darkening",
    "C87_entry",
    "C87_nearer",
    "C87_circular",
    "C87_simple",
    "C87_impact",
    "C87_limb_bright_refuted"
   ],
   "note": "C87_circular and C87_simple without exposure times; C87_impact with any. No light delay. `use_in_transit=False` (see C40)."
  },
  {
   "property": "C88",
   "status": "proved",
   "theorems": [
    "C88_in_transit",
    "C88_light",
    "C88_secondary",
    "C88_row",
    "C88_simple_in_transit",
    "C88_simple"
   ],
   "note": "The masked branch (`use_in_transit` not False) with scalar exposure times; C88_row with `use_in_transit=False` (see C40)."
  },
  {
   "property": "C89",
   "status": "proved",
   "theorems": [
    "C89_mean",
    "C89_extremes",
    "C89_amplitude"
   ],
   "note": ""
  },
  {
   "property": "C90",
   "status": "proved",
   "theorems": [
    "C90_flux",
    "C90_kepler",
    "C90_radius",
    "C90_simple",
    "C90_simple_larger_refuted"
   ],
   "note": "C90_simple_larger_refuted: with r > ror r_star a SimpleTransitOrbit light curve is discontinuous at the contacts."
  },
  {
   "property": "C91",
   "status": "proved",
   "theorems": [
    "C91_depth",
    "C91_conjunction",
    "C91_timing",
    "C91_half_period"
   ],
   "note": ""
  },
  {
   "property": "C92",
   "status": "proved",
   "theorems": [
    "C92_exposure",
    "C92_default",
    "C92_simple",
    "C92_interpolated",
    "C92_interpolated_simple"
   ],
   "note": ""
  },
  {
   "property": "C93",
   "status": "proved",
   "theorems": [
    "C93_transit",
    "C93_phase",
    "C93_mass",
    "C93_mass_phase",
    "C93_autocorrelation",
    "C93_reversed",
    "C93_estimator",
    "C93_bls"
   ],
   "note": ""
  },
  {
   "property": "C94",
   "status": "proved",
   "theorems": [
    "C94_lipschitz",
    "C94_smooth",
    "C94_linear",
    "C94_order",
    "C94_beyond_refuted"
   ],
   "note": ""
  },
  {
   "property": "C95",
   "status": "proved",
   "theorems": [
    "C95_geometry",
    "C95_deeper",
    "C95_close",
    "C95_equal"
   ],
   "note": ""
  },
  {
   "property": "C96",
   "status": "proved",
   "theorems": [
    "C96_normalised",
    "C96_wider",
    "C96_hyperprior_refuted"
   ],
   "note": ""
  },
  {
   "property": "C97",
   "status": "proved",
   "theorems": [
    "C97_kepler",
    "C97_ttv",
    "C97_simple",
    "C97_even_refuted"
   ],
   "note": ""
  },
  {
   "property": "C98",
   "status": "proved",
   "theorems": [
    "C98_kepler",
    "C98_kepler_gives",
    "C98_ttv_keywords",
    "C98_ttv_ttvs",
    "C98_ttv_times_refuted",
    "C98_simple",
    "C98_simple_refuses",
    "C98_simple_units",
    "C98_units_refuted"
   ],
   "note": ""
  },
  {
   "property": "C99",
   "status": "proved",
   "theorems": [
    "C99_orbit",
    "C99_motion",
    "C99_rv",
    "C99_light",
    "C99_turn_refuted"
   ],
   "note": ""
  },
  {
   "property": "C100",
   "status": "proved",
   "theorems": [
    "C100_once",
    "C100_share",
    "C100_circular",
    "C100_conjunction",
    "C100_light"
   ],
   "note": ""
  },
  {
   "property": "C101",
   "status": "proved",
   "theorems": [
    "C101_attributes",
    "C101_signs",
    "C101_motion",
    "C101_circular",
    "C101_mid_transit",
    "C101_double"
   ],
   "note": ""
  },
  {
   "property": "C102",
   "status": "proved",
   "theorems": [
    "C102_motion",
    "C102_radial_velocity",
    "C102_simple_position",
    "C102_in_transit",
    "C102_in_transit_circular",
    "C102_in_transit_simple",
    "C102_in_transit_ttv",
    "C102_light_curve",
    "C102_light_curve_simple",
    "C102_light_curve_ttv",
    "C102_radius",
    "C102_interpolated_refuted"
   ],
   "note": "The Kepler solver is external: that it returns NaN for a mean anomaly that is not a number is part of the model (`fkep`). What the external limb darkening kernel returns for an undefined radius is not used."
  },
  {
   "property": "C103",
   "status": "proved",
   "theorems": [
    "C103_radial_velocity",
    "C103_masses",
    "C103_sky",
    "C103_twin",
    "C103_sense"
   ],
   "note": "Exact real arithmetic and observations at all times: nothing is claimed about how well finitely many noisy observations constrain the parameters."
  },
  {
   "property": "C104",
   "status": "proved",
   "theorems": [
    "C104_disk",
    "C104_law",
    "C104_impact"
   ],
   "note": "Integrals are iterated Riemann integrals over the latent variables. For angle() see C105."
  },
  {
   "property": "C105",
   "status": "proved",
   "theorems": [
    "C105_uniform"
   ],
   "note": "Integrals over the plane are iterated improper Riemann integrals. Regularizations between -1 and 0 would be integrable but are not covered."
  },
  {
   "property": "C106",
   "status": "proved",
   "theorems": [
    "C106_dimmed",
    "C106_times",
    "C106_geometry",
    "C106_nothing_else",
    "C106_density"
   ],
   "note": "Exposure times and light delay are not included; for a limb-darkened star or grazing transits the ratio of the radii must be known."
  },
  {
   "property": "C107",
   "status": "proved",
   "theorems": [
    "C107_accepted",
    "C107_default_labels",
    "C107_index_error",
    "C107_label_errors",
    "C107_times_missing",
    "C107_times_surplus",
    "C107_one_list",
    "C107_several_lists"
   ],
   "note": "Lists of length one broadcast as in numpy."
  },
  {
   "property": "C108",
   "status": "proved",
   "theorems": [
    "C108_dimmed",
    "C108_whole_duration",
    "C108_times",
    "C108_geometry",
    "C108_nothing_else",
    "C108_not_kepler"
   ],
   "note": "Exposure times are not included."
  },
  {
   "property": "C109",
   "status": "proved",
   "theorems": [
    "C109_motion",
    "C109_radial_velocity",
    "C109_motion_ttv",
    "C109_in_transit",
    "C109_in_transit_simple",
    "C109_in_transit_ttv",
    "C109_joined_in_transit",
    "C109_joined_in_transit_simple",
    "C109_joined_in_transit_ttv",
    "C109_light_curve",
    "C109_light_curve_simple",
    "C109_light_curve_ttv",
    "C109_joined_light_curve",
    "C109_exposures_refuted"
   ],
   "note": "SimpleTransitOrbit has no velocities; its positions are covered through the light curve. Arrays of exposure times in in_transit are the subject of C27."
  },
  {
   "property": "C110",
   "status": "proved",
   "theorems": [
    "C110_axes",
    "C110_refined",
    "C110_cut",
    "C110_units",
    "C110_mirrored",
    "C110_mirrored_fill_refuted"
   ],
   "note": "values without trailing axes (C51 describes those with)"
  },
  {
   "property": "C111",
   "status": "proved",
   "theorems": [
    "C111_motion",
    "C111_rigid",
    "C111_velocity",
    "C111_jump",
    "C111_continuous",
    "C111_ends",
    "C111_light",
    "C111_light_only",
    "C111_meets",
    "C111_continuous_refuted"
   ],
   "note": "light_delay=False; with light_delay=True a TTVOrbit answers with the wrong shape (C36)"
  },
  {
   "property": "C112",
   "status": "proved",
   "theorems": [
    "C112_motion",
    "C112_radial_velocity",
    "C112_motion_simple",
    "C112_motion_ttv",
    "C112_light_curve",
    "C112_light_curve_others",
    "C112_in_transit",
    "C112_default_refuted"
   ],
   "note": "what SimpleTransitOrbit.in_transit does with a single number is not claimed"
  },
  {
   "property": "C113",
   "status": "proved",
   "theorems": [
    "C113_position",
    "C113_front",
    "C113_in_transit",
    "C113_in_transit_radius",
    "C113_finite",
    "C113_double"
   ],
   "note": ""
  },
  {
   "property": "C114",
   "status": "proved",
   "theorems": [
    "C114_position",
    "C114_light",
    "C114_half_way_refuted",
    "C114_contact_refuted",
    "C114_larger_refuted"
   ],
   "note": ""
  },
  {
   "property": "C115",
   "status": "proved",
   "theorems": [
    "C115_fit",
    "C115_motion",
    "C115_light",
    "C115_half_way_refuted"
   ],
   "note": ""
  },
  {
   "property": "C116",
   "status": "proved",
   "theorems": [
    "C116_within",
    "C116_error",
    "C116_fill",
    "C116_data",
    "C116_double",
    "C116_between_refuted"
   ],
   "note": ""
  },
  {
   "property": "C117",
   "status": "proved",
   "theorems": [
    "C117_angle",
    "C117_angle_start",
    "C117_angle_default",
    "C117_disk",
    "C117_disk_refuted",
    "C117_limb_dark",
    "C117_limb_dark_start",
    "C117_limb_dark_refuted",
    "C117_impact",
    "C117_impact_start"
   ],
   "note": ""
  },
  {
   "property": "C118",
   "status": "proved",
   "theorems": [
    "C118_flux",
    "C118_dim_refuted",
    "C118_curve",
    "C118_curve_exposures",
    "C118_simple",
    "C118_simple_exposures",
    "C118_simple_default",
    "C118_simple_default_exposures"
   ],
   "note": ""
  },
  {
   "property": "C119",
   "status": "proved",
   "theorems": [
    "C119_constructor",
    "C119_curve",
    "C119_exposures",
    "C119_masked",
    "C119_masked_exposure"
   ],
   "note": ""
  },
  {
   "property": "C120",
   "status": "proved",
   "theorems": [
    "C120_ror",
    "C120_limb_refuted"
   ],
   "note": ""
  },
  {
   "property": "C121",
   "status": "proved",
   "theorems": [
    "C121_aor",
    "C121_grazing_refuted"
   ],
   "note": ""
  }
 ]
}