{
 "claims": [
  {
   "property": "C01",
   "status": "proved",
   "theorems": [
    "C01_source_type_canonical"
   ],
   "note": ""
  },
  {
   "property": "C02",
   "status": "proved",
   "theorems": [
    "C02_same_set_same_source",
    "C02_idempotent"
   ],
   "note": ""
  },
  {
   "property": "C03",
   "status": "proved",
   "theorems": [
    "C03_reaction_names",
    "C03_other_strings_rejected",
    "C03_no_string_is_aneutronic_DD"
   ],
   "note": ""
  },
  {
   "property": "C04",
   "status": "proved",
   "theorems": [
    "C04_reaction_table"
   ],
   "note": ""
  },
  {
   "property": "C05",
   "status": "proved",
   "theorems": [
    "C05_energy_cycle",
    "C05_energy_is_mass_defect",
    "C05_energy_positive",
    "C05_neutron_energy_share",
    "C05_momentum",
    "C05_tt_neutron",
    "C05_neutron_energies",
    "C05_tt_recoil_refuted"
   ],
   "note": ""
  },
  {
   "property": "C06",
   "status": "proved",
   "theorems": [
    "C06_strength_formula",
    "C06_strengths_nonnegative",
    "C06_constructor_succeeds",
    "C06_no_cells_rejected"
   ],
   "note": ""
  },
  {
   "property": "C07",
   "status": "proved",
   "theorems": [
    "C07_rates_agree"
   ],
   "note": ""
  },
  {
   "property": "C08",
   "status": "proved",
   "theorems": [
    "C08_power_reaches_target",
    "C08_normalise_succeeds",
    "C08_constructor_target"
   ],
   "note": ""
  },
  {
   "property": "C09",
   "status": "proved",
   "theorems": [
    "C09_only_rescales",
    "C09_last_target_decides",
    "C09_shares_preserved"
   ],
   "note": ""
  },
  {
   "property": "C10",
   "status": "proved",
   "theorems": [
    "C10_tritium_rate",
    "C10_special_cases"
   ],
   "note": ""
  },
  {
   "property": "C11",
   "status": "proved",
   "theorems": [
    "C11_zero_power_never_finite",
    "C11_zero_target_is_final"
   ],
   "note": ""
  },
  {
   "property": "C12",
   "status": "proved",
   "theorems": [
    "C12_plot_selection"
   ],
   "note": ""
  },
  {
   "property": "C13",
   "status": "proved",
   "theorems": [
    "C13_density_weighting",
    "C13_quadratic_in_density",
    "C13_dt_best_at_5050"
   ],
   "note": ""
  },
  {
   "property": "C14",
   "status": "proved",
   "theorems": [
    "C14_bosch_hale_in_range",
    "C14_empty_array_rejected"
   ],
   "note": ""
  },
  {
   "property": "C15",
   "status": "proved",
   "theorems": [
    "C15_beyond_range",
    "C15_ddn_nonfinite_refuted"
   ],
   "note": ""
  },
  {
   "property": "C16",
   "status": "proved",
   "theorems": [
    "C16_cross_section_reactivity",
    "C16_zero_temperature",
    "C16_linear"
   ],
   "note": ""
  },
  {
   "property": "C17",
   "status": "proved",
   "theorems": [
    "C17_dispatch",
    "C17_reactivity_error"
   ],
   "note": ""
  },
  {
   "property": "C18",
   "status": "proved",
   "theorems": [
    "C18_clamped",
    "C18_clamped_arrays",
    "C18_elementwise"
   ],
   "note": ""
  },
  {
   "property": "C19",
   "status": "proved",
   "theorems": [
    "C19_scales_multiply",
    "C19_order_irrelevant"
   ],
   "note": ""
  },
  {
   "property": "C20",
   "status": "proved",
   "theorems": [
    "C20_parabolic_formula",
    "C20_parabolic_shape"
   ],
   "note": ""
  },
  {
   "property": "C21",
   "status": "proved",
   "theorems": [
    "C21_pedestal_formula",
    "C21_pedestal_shape",
    "C21_jump_at_edge",
    "C21_core_unused",
    "C21_no_pedestal"
   ],
   "note": ""
  },
  {
   "property": "C22",
   "status": "proved",
   "theorems": [
    "C22_nodes",
    "C22_straight_lines",
    "C22_error_iff_outside",
    "C22_between_table_values",
    "C22_monotone",
    "C22_row_order_irrelevant",
    "C22_bad_arrays_rejected"
   ],
   "note": ""
  },
  {
   "property": "C23",
   "status": "proved",
   "theorems": [
    "C23_renormalised",
    "C23_idempotent",
    "C23_zero_sum_rejected"
   ],
   "note": ""
  },
  {
   "property": "C24",
   "status": "proved",
   "theorems": [
    "C24_range",
    "C24_kept_bit_for_bit",
    "C24_accuracy",
    "C24_overflow_refuted",
    "C24_sums_to_one_refuted"
   ],
   "note": ""
  },
  {
   "property": "C25",
   "status": "proved",
   "theorems": [
    "C25_from_parameterisations",
    "C25_from_profiles",
    "C25_densities_add_up"
   ],
   "note": ""
  },
  {
   "property": "C26",
   "status": "proved",
   "theorems": [
    "C26_caller_objects_unchanged",
    "C26_later_calls",
    "C26_density_independent_of_caller",
    "C26_temperature_is_shared"
   ],
   "note": ""
  },
  {
   "property": "C27",
   "status": "proved",
   "theorems": [
    "C27_frame_data",
    "C27_bad_frames",
    "C27_from_jetto_nodes"
   ],
   "note": ""
  },
  {
   "property": "C28",
   "status": "proved",
   "theorems": [
    "C28_distinct_lattice_cells_inside",
    "C28_total"
   ],
   "note": ""
  },
  {
   "property": "C29",
   "status": "proved",
   "theorems": [
    "C29_no_cell_missed",
    "C29_crossing_test_stays_in_box",
    "C29_o_point_sampled",
    "C29_shift_invariance"
   ],
   "note": ""
  },
  {
   "property": "C30",
   "status": "proved",
   "theorems": [
    "C30_sampling_order"
   ],
   "note": ""
  },
  {
   "property": "C31",
   "status": "proved",
   "theorems": [
    "C31_ring_volumes",
    "C31_disjoint_interiors"
   ],
   "note": ""
  },
  {
   "property": "C32",
   "status": "proved",
   "theorems": [
    "C32_lcfs_validation"
   ],
   "note": ""
  },
  {
   "property": "C33",
   "status": "proved",
   "theorems": [
    "C33_closed_surfaces_only"
   ],
   "note": ""
  },
  {
   "property": "C34",
   "status": "proved",
   "theorems": [
    "C34_area_is_boundary_integral",
    "C34_affine",
    "C34_orientation_and_start"
   ],
   "note": ""
  },
  {
   "property": "C35",
   "status": "proved",
   "theorems": [
    "C35_orientation",
    "C35_moves_with_polygon",
    "C35_in_convex_hull",
    "C35_in_bounding_box",
    "C35_degenerate_surface"
   ],
   "note": ""
  },
  {
   "property": "C36",
   "status": "proved",
   "theorems": [
    "C36_volume_of_revolution",
    "C36_volume_star_shaped",
    "C36_shifts_and_orientation",
    "C36_axis_ring"
   ],
   "note": ""
  },
  {
   "property": "C37",
   "status": "proved",
   "theorems": [
    "C37_surface_points",
    "C37_no_points_rejected",
    "C37_axis_is_o_point",
    "C37_bounds",
    "C37_up_down_symmetric"
   ],
   "note": ""
  },
  {
   "property": "C38",
   "status": "proved",
   "theorems": [
    "C38_surface_points",
    "C38_agrees_with_fausser",
    "C38_axis_refuted_by_shift",
    "C38_axis_refuted_by_squareness"
   ],
   "note": ""
  },
  {
   "property": "C39",
   "status": "proved",
   "theorems": [
    "C39_midplane_points",
    "C39_nested",
    "C39_ellipses_nested",
    "C39_large_shift_refuted"
   ],
   "note": ""
  },
  {
   "property": "C40",
   "status": "proved",
   "theorems": [
    "C40_elementwise",
    "C40_flat_flux_not_finite",
    "C40_normalisation",
    "C40_affine_invariant"
   ],
   "note": ""
  },
  {
   "property": "C41",
   "status": "proved",
   "theorems": [
    "C41_sign_convention",
    "C41_any_cocos"
   ],
   "note": ""
  },
  {
   "property": "C42",
   "status": "proved",
   "theorems": [
    "C42_nodes_and_labels",
    "C42_no_positive_radius_rejected",
    "C42_get_surface_linear",
    "C42_sqrt_label_refuted"
   ],
   "note": ""
  },
  {
   "property": "C43",
   "status": "proved",
   "theorems": [
    "C43_axis_and_clamping",
    "C43_nearest_contour",
    "C43_lists_and_volume"
   ],
   "note": ""
  },
  {
   "property": "C44",
   "status": "proved",
   "theorems": [
    "C44_equally_spaced",
    "C44_rejected"
   ],
   "note": ""
  },
  {
   "property": "C45",
   "status": "proved",
   "theorems": [
    "C45_prepared_is_normalised",
    "C45_always_normalisable",
    "C45_energy_spectrum_normalised"
   ],
   "note": ""
  },
  {
   "property": "C46",
   "status": "proved",
   "theorems": [
    "C46_trimming",
    "C46_error_iff_all_zero",
    "C46_single_sample_not_finite"
   ],
   "note": ""
  },
  {
   "property": "C47",
   "status": "proved",
   "theorems": [
    "C47_gaussian",
    "C47_symmetric"
   ],
   "note": ""
  },
  {
   "property": "C48",
   "status": "proved",
   "theorems": [
    "C48_modified_gaussian",
    "C48_peak",
    "C48_too_hot_not_finite",
    "C48_256_keV_refuted",
    "C48_cold_not_finite"
   ],
   "note": ""
  },
  {
   "property": "C49",
   "status": "proved",
   "theorems": [
    "C49_dispatch"
   ],
   "note": ""
  },
  {
   "property": "C50",
   "status": "proved",
   "theorems": [
    "C50_interpolated_table",
    "C50_every_temperature",
    "C50_units"
   ],
   "note": ""
  },
  {
   "property": "C51",
   "status": "proved",
   "theorems": [
    "C51_strengths_sum_to_one"
   ],
   "note": ""
  },
  {
   "property": "C52",
   "status": "proved",
   "theorems": [
    "C52_energy_mixture"
   ],
   "note": ""
  },
  {
   "property": "C53",
   "status": "proved",
   "theorems": [
    "C53_ring_geometry",
    "C53_uniform_per_volume",
    "C53_axis_cell_negative"
   ],
   "note": ""
  },
  {
   "property": "C54",
   "status": "proved",
   "theorems": [
    "C54_one_source_per_emitting_cell",
    "C54_nothing_emitted",
    "C54_conversion_succeeds"
   ],
   "note": ""
  },
  {
   "property": "C55",
   "status": "proved",
   "theorems": [
    "C55_card_survives_wrapping",
    "C55_file_of_cards",
    "C55_small_indent_rejected",
    "C55_long_word_refuted",
    "C55_hyphenated_word_refuted",
    "C55_any_text",
    "C55_rejected"
   ],
   "note": ""
  },
  {
   "property": "C56",
   "status": "proved",
   "theorems": [
    "C56_any_text",
    "C56_line_lengths",
    "C56_documented_bound_refuted"
   ],
   "note": ""
  },
  {
   "property": "C57",
   "status": "proved",
   "theorems": [
    "C57_card_probabilities"
   ],
   "note": ""
  },
  {
   "property": "C58",
   "status": "proved",
   "theorems": [
    "C58_cross_references",
    "C58_unsorted_refuted",
    "C58_no_cells_refuted"
   ],
   "note": ""
  },
  {
   "property": "C59",
   "status": "proved",
   "theorems": [
    "C59_contiguous_bins",
    "C59_gap_widens_bin",
    "C59_sampled_regions_are_cells",
    "C59_bins_cover_cells",
    "C59_no_gaps"
   ],
   "note": ""
  },
  {
   "property": "C60",
   "status": "proved",
   "theorems": [
    "C60_form",
    "C60_reads_back",
    "C60_order_kept",
    "C60_exact_digits"
   ],
   "note": ""
  },
  {
   "property": "C61",
   "status": "proved",
   "theorems": [
    "C61_total_line",
    "C61_total_is_rate_T_T_half",
    "C61_energy_cards"
   ],
   "note": ""
  },
  {
   "property": "C62",
   "status": "proved",
   "theorems": [
    "C62_between_emitting_cells",
    "C62_unchanged_by_normalisation",
    "C62_isothermal",
    "C62_finite_iff_strength",
    "C62_lengths_must_agree",
    "C62_zero_strength_refuted",
    "C62_zero_strength_nan_refuted"
   ],
   "note": ""
  },
  {
   "property": "C63",
   "status": "proved",
   "theorems": [
    "C63_files",
    "C63_one_file_per_channel"
   ],
   "note": ""
  },
  {
   "property": "C64",
   "status": "proved",
   "theorems": [
    "C64_inside_block",
    "C64_exactly_once",
    "C64_nothing_filtered_afterwards",
    "C64_sequence_filter",
    "C64_reentered_object_refuted",
    "C64_openmc_warnings_once"
   ],
   "note": ""
  },
  {
   "property": "C65",
   "status": "proved",
   "theorems": [
    "C65_tables_integrate_to_1000",
    "C65_gaussian_mixture_refuted",
    "C65_other_methods_proportional"
   ],
   "note": ""
  },
  {
   "property": "C66",
   "status": "proved",
   "theorems": [
    "C66_independent_of_power"
   ],
   "note": ""
  },
  {
   "property": "C67",
   "status": "proved",
   "theorems": [
    "C67_file_contents",
    "C67_to_sdef_card",
    "C67_writable_with_shipped_data"
   ],
   "note": ""
  },
  {
   "property": "C68",
   "status": "proved",
   "theorems": [
    "C68_sampled_regions"
   ],
   "note": ""
  },
  {
   "property": "C69",
   "status": "proved",
   "theorems": [
    "C69_fausser_convex",
    "C69_sauter_convex",
    "C69_area_centroid_volume",
    "C69_squareness_refuted"
   ],
   "note": ""
  },
  {
   "property": "C70",
   "status": "proved",
   "theorems": [
    "C70_convex_sampling",
    "C70_axis_inside",
    "C70_axis_inside_sauter",
    "C70_four_points_refuted"
   ],
   "note": ""
  },
  {
   "property": "C71",
   "status": "proved",
   "theorems": [
    "C71_no_gaps"
   ],
   "note": ""
  },
  {
   "property": "C72",
   "status": "proved",
   "theorems": [
    "C72_surfaces_nested"
   ],
   "note": ""
  },
  {
   "property": "C73",
   "status": "proved",
   "theorems": [
    "C73_area_volume_law",
    "C73_volume_increases"
   ],
   "note": ""
  },
  {
   "property": "C74",
   "status": "proved",
   "theorems": [
    "C74_parameterised_source",
    "C74_mcnp_files"
   ],
   "note": ""
  },
  {
   "property": "C75",
   "status": "proved",
   "theorems": [
    "C75_message_printed",
    "C75_words_kept",
    "C75_short_message",
    "C75_no_message_refuted",
    "C75_hyphen_refuted"
   ],
   "note": ""
  },
  {
   "property": "C76",
   "status": "proved",
   "theorems": [
    "C76_indentation"
   ],
   "note": ""
  },
  {
   "property": "C77",
   "status": "proved",
   "theorems": [
    "C77_conversion",
    "C77_unknown_unit",
    "C77_round_trip",
    "C77_composition",
    "C77_one_factor"
   ],
   "note": ""
  },
  {
   "property": "C78",
   "status": "proved",
   "theorems": [
    "C78_compatible_iff_convertible",
    "C78_unknown_unit",
    "C78_equivalence"
   ],
   "note": ""
  },
  {
   "property": "C79",
   "status": "proved",
   "theorems": [
    "C79_library_conversions",
    "C79_models_agree"
   ],
   "note": ""
  },
  {
   "property": "C80",
   "status": "proved",
   "theorems": [
    "C80_finished",
    "C80_interrupted",
    "C80_recovery",
    "C80_encoding_refuted"
   ],
   "note": ""
  },
  {
   "property": "C81",
   "status": "proved",
   "theorems": [
    "C81_location",
    "C81_data_files",
    "C81_egg_refuted",
    "C81_absolute_refuted"
   ],
   "note": ""
  },
  {
   "property": "C82",
   "status": "proved",
   "theorems": [
    "C82_file_name",
    "C82_bad_file_name",
    "C82_labels",
    "C82_import"
   ],
   "note": ""
  },
  {
   "property": "C83",
   "status": "proved",
   "theorems": [
    "C83_reported_power",
    "C83_one_factor",
    "C83_rates_match_strengths",
    "C83_zero_source",
    "C83_no_channel",
    "C83_exact_power_refuted"
   ],
   "note": ""
  },
  {
   "property": "C84",
   "status": "proved",
   "theorems": [
    "C84_area",
    "C84_volume",
    "C84_converges",
    "C84_convex",
    "C84_parameterised",
    "C84_twice_round_refuted",
    "C84_notch_refuted"
   ],
   "note": ""
  },
  {
   "property": "C85",
   "status": "proved",
   "theorems": [
    "C85_integral_exists",
    "C85_cells_converge",
    "C85_first_order",
    "C85_uniform",
    "C85_reaction_rate",
    "C85_power_and_neutrons",
    "C85_normalised"
   ],
   "note": ""
  },
  {
   "property": "C86",
   "status": "proved",
   "theorems": [
    "C86_no_jump",
    "C86_cold_fit",
    "C86_cold_cross_section"
   ],
   "note": ""
  },
  {
   "property": "C87",
   "status": "proved",
   "theorems": [
    "C87_parabolic",
    "C87_pedestal",
    "C87_data",
    "C87_from_parameterisations",
    "C87_from_profiles",
    "C87_totals_converge"
   ],
   "note": ""
  },
  {
   "property": "C88",
   "status": "proved",
   "theorems": [
    "C88_star",
    "C88_two_sided",
    "C88_filled",
    "C88_two_sided_error"
   ],
   "note": ""
  },
  {
   "property": "C89",
   "status": "proved",
   "theorems": [
    "C89_reactivity_rises",
    "C89_hotter_yields_less_refuted",
    "C89_hotter_denser",
    "C89_denser"
   ],
   "note": ""
  },
  {
   "property": "C90",
   "status": "proved",
   "theorems": [
    "C90_similar_plasmas",
    "C90_same_when_normalised",
    "C90_totals",
    "C90_parameterised",
    "C90_squareness_refuted"
   ],
   "note": ""
  },
  {
   "property": "C91",
   "status": "proved",
   "theorems": [
    "C91_mirror",
    "C91_symmetric_plasma",
    "C91_fausser",
    "C91_boundary_refuted"
   ],
   "note": ""
  },
  {
   "property": "C92",
   "status": "proved",
   "theorems": [
    "C92_start",
    "C92_extra_points",
    "C92_direction"
   ],
   "note": ""
  },
  {
   "property": "C93",
   "status": "proved",
   "theorems": [
    "C93_modified_gaussian",
    "C93_gaussian"
   ],
   "note": ""
  },
  {
   "property": "C94",
   "status": "proved",
   "theorems": [
    "C94_rows_used",
    "C94_bad_line"
   ],
   "note": ""
  },
  {
   "property": "C95",
   "status": "proved",
   "theorems": [
    "C95_sampling",
    "C95_O_point_cell",
    "C95_volumes",
    "C95_centre_on_O_point_refuted"
   ],
   "note": ""
  },
  {
   "property": "C96",
   "status": "proved",
   "theorems": [
    "C96_any_curve",
    "C96_fausser",
    "C96_sauter",
    "C96_ellipse"
   ],
   "note": ""
  },
  {
   "property": "C97",
   "status": "proved",
   "theorems": [
    "C97_resampled",
    "C97_flux_map"
   ],
   "note": ""
  },
  {
   "property": "C98",
   "status": "proved",
   "theorems": [
    "C98_reactivity",
    "C98_strengths"
   ],
   "note": ""
  },
  {
   "property": "C99",
   "status": "proved",
   "theorems": [
    "C99_given_profiles",
    "C99_given_power"
   ],
   "note": ""
  },
  {
   "property": "C100",
   "status": "proved",
   "theorems": [
    "C100_openmc_source"
   ],
   "note": ""
  },
  {
   "property": "C101",
   "status": "proved",
   "theorems": [
    "C101_parabola",
    "C101_parabola_falls",
    "C101_pedestal",
    "C101_table",
    "C101_arrays"
   ],
   "note": ""
  },
  {
   "property": "C102",
   "status": "proved",
   "theorems": [
    "C102_closed_surfaces_only",
    "C102_area",
    "C102_orientation",
    "C102_center_of_mass",
    "C102_volume",
    "C102_star_shaped",
    "C102_thin_surface_refuted"
   ],
   "note": ""
  },
  {
   "property": "C103",
   "status": "proved",
   "theorems": [
    "C103_normalised",
    "C103_error_iff_all_zero",
    "C103_single_sample_refuted",
    "C103_mean_and_width",
    "C103_gaussian",
    "C103_modified_gaussian",
    "C103_data_refused"
   ],
   "note": ""
  },
  {
   "property": "C104",
   "status": "proved",
   "theorems": [
    "C104_file_contents",
    "C104_mean_temperature",
    "C104_sampled_cells",
    "C104_adjacent_radii_refuted"
   ],
   "note": ""
  },
  {
   "property": "C105",
   "status": "proved",
   "theorems": [
    "C105_sampled_plasma",
    "C105_convex_no_gaps",
    "C105_sampled_regions",
    "C105_sampled_regions_are_cells",
    "C105_card_probabilities"
   ],
   "note": ""
  },
  {
   "property": "C106",
   "status": "proved",
   "theorems": [
    "C106_sdef_files",
    "C106_near_table",
    "C106_outside",
    "C106_not_a_number",
    "C106_methods",
    "C106_table_ok"
   ],
   "note": ""
  },
  {
   "property": "C107",
   "status": "proved",
   "theorems": [
    "C107_energies",
    "C107_maxwell_average",
    "C107_outside_table"
   ],
   "note": ""
  }
 ]
}