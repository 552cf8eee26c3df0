{
 "claims": [
  {
   "property": "C01",
   "status": "proved",
   "theorems": [
    "C01_garden_only_removes",
    "C01_garden_only_removes_exact",
    "C01_float_formats"
   ],
   "note": ""
  },
  {
   "property": "C02",
   "status": "proved",
   "theorems": [
    "C02_ejecta_shields",
    "C02_ejecta_shields_rounded"
   ],
   "note": ""
  },
  {
   "property": "C03",
   "status": "proved",
   "theorems": [
    "C03_total_bound_refuted",
    "C03_no_multiple_bounds_removal",
    "C03_layer_bound",
    "C03_total_bound_half_eff",
    "C03_thick_top_layer_exact"
   ],
   "note": "The part of the documented behaviour the code violates is refuted by a witness; the rest is proved."
  },
  {
   "property": "C04",
   "status": "proved",
   "theorems": [
    "C04_garden_layerwise",
    "C04_garden_index_error"
   ],
   "note": ""
  },
  {
   "property": "C05",
   "status": "proved",
   "theorems": [
    "C05_erode_total",
    "C05_erode_topdown",
    "C05_erode_never_fails",
    "C05_erode_safe_rounded"
   ],
   "note": ""
  },
  {
   "property": "C06",
   "status": "proved",
   "theorems": [
    "C06_buried_shield_refuted",
    "C06_shield_at_surface"
   ],
   "note": "The part of the documented behaviour the code violates is refuted by a witness; the rest is proved."
  },
  {
   "property": "C07",
   "status": "proved",
   "theorems": [
    "C07_run_never_creates_ice",
    "C07_run_keeps_coldtraps"
   ],
   "note": ""
  },
  {
   "property": "C08",
   "status": "proved",
   "theorems": [
    "C08_coldtraps_independent"
   ],
   "note": ""
  },
  {
   "property": "C09",
   "status": "proved",
   "theorems": [
    "C09_batch_equals_stepwise",
    "C09_run_never_fails"
   ],
   "note": ""
  },
  {
   "property": "C10",
   "status": "proved",
   "theorems": [
    "C10_time_axis",
    "C10_count",
    "C10_errors",
    "C10_ends_ignore_timeend",
    "C10_timeend_refuted"
   ],
   "note": "The part of the documented behaviour the code violates is refuted by a witness; the rest is proved."
  },
  {
   "property": "C11",
   "status": "proved",
   "theorems": [
    "C11_placement",
    "C11_first_nearest_unique",
    "C11_total_preserved",
    "C11_no_times"
   ],
   "note": ""
  },
  {
   "property": "C12",
   "status": "proved",
   "theorems": [
    "C12_perturbed_grid",
    "C12_float32_axis"
   ],
   "note": ""
  },
  {
   "property": "C13",
   "status": "proved",
   "theorems": [
    "C13_round_to_ts",
    "C13_monotone"
   ],
   "note": ""
  },
  {
   "property": "C14",
   "status": "proved",
   "theorems": [
    "C14_random_ages",
    "C14_support_is_error_bar",
    "C14_two_sigma"
   ],
   "note": ""
  },
  {
   "property": "C15",
   "status": "proved",
   "theorems": [
    "C15_square_roots_defined",
    "C15_symmetric",
    "C15_range",
    "C15_cosine",
    "C15_unique",
    "C15_zero",
    "C15_triangle"
   ],
   "note": ""
  },
  {
   "property": "C16",
   "status": "proved",
   "theorems": [
    "C16_coldtrap_dists"
   ],
   "note": ""
  },
  {
   "property": "C17",
   "status": "proved",
   "theorems": [
    "C17_latlon_round_trip",
    "C17_xy_round_trip",
    "C17_north_refuted"
   ],
   "note": "The part of the documented behaviour the code violates is refuted by a witness; the rest is proved."
  },
  {
   "property": "C18",
   "status": "proved",
   "theorems": [
    "C18_youngest_cover",
    "C18_outside",
    "C18_square_only",
    "C18_negative_threshold_refuted",
    "C18_dist_grid"
   ],
   "note": "The part of the documented behaviour the code violates is refuted by a witness; the rest is proved."
  },
  {
   "property": "C19",
   "status": "proved",
   "theorems": [
    "C19_power_law",
    "C19_rim_value",
    "C19_nan_distance",
    "C19_transition_refuted",
    "C19_matrix"
   ],
   "note": "The part of the documented behaviour the code violates is refuted by a witness; the rest is proved."
  },
  {
   "property": "C20",
   "status": "proved",
   "theorems": [
    "C20_basin_defined_positive",
    "C20_basin_thickness_positive"
   ],
   "note": ""
  },
  {
   "property": "C21",
   "status": "proved",
   "theorems": [
    "C21_range_equation",
    "C21_bounds",
    "C21_increasing",
    "C21_escape"
   ],
   "note": ""
  },
  {
   "property": "C22",
   "status": "proved",
   "theorems": [
    "C22_conserves_mass",
    "C22_linear",
    "C22_monotone",
    "C22_other_species"
   ],
   "note": ""
  },
  {
   "property": "C23",
   "status": "proved",
   "theorems": [
    "C23_values",
    "C23_total"
   ],
   "note": ""
  },
  {
   "property": "C24",
   "status": "proved",
   "theorems": [
    "C24_modes",
    "C24_range",
    "C24_at_table_times"
   ],
   "note": ""
  },
  {
   "property": "C25",
   "status": "proved",
   "theorems": [
    "C25_knots",
    "C25_linear",
    "C25_neighbours",
    "C25_monotone",
    "C25_outside",
    "C25_total"
   ],
   "note": ""
  },
  {
   "property": "C26",
   "status": "proved",
   "theorems": [
    "C26_craters",
    "C26_small_impactors",
    "C26_micrometeorites",
    "C26_comet_fraction_twice_refuted"
   ],
   "note": "The part of the documented behaviour the code violates is refuted by a witness; the rest is proved."
  },
  {
   "property": "C27",
   "status": "proved",
   "theorems": [
    "C27_nonnegative",
    "C27_slow",
    "C27_decreasing",
    "C27_fits",
    "C27_fraction_refuted"
   ],
   "note": "The part of the documented behaviour the code violates is refuted by a witness; the rest is proved."
  },
  {
   "property": "C28",
   "status": "proved",
   "theorems": [
    "C28_probabilities",
    "C28_power_law",
    "C28_decreasing",
    "C28_diameters",
    "C28_coarse_step"
   ],
   "note": ""
  },
  {
   "property": "C29",
   "status": "proved",
   "theorems": [
    "C29_positive",
    "C29_increasing",
    "C29_present"
   ],
   "note": ""
  },
  {
   "property": "C30",
   "status": "proved",
   "theorems": [
    "C30_increasing",
    "C30_smaller_than_final",
    "C30_laws",
    "C30_other_transition_refuted"
   ],
   "note": "The part of the documented behaviour the code violates is refuted by a witness; the rest is proved."
  },
  {
   "property": "C31",
   "status": "proved",
   "theorems": [
    "C31_errors",
    "C31_regime_d",
    "C31_regime_e_f",
    "C31_johnson_final_diameter_refuted",
    "C31_collins_monotone",
    "C31_johnson_monotone"
   ],
   "note": "The part of the documented behaviour the code violates is refuted by a witness; the rest is proved."
  },
  {
   "property": "C32",
   "status": "proved",
   "theorems": [
    "C32_table_law",
    "C32_table_increasing",
    "C32_interpolated",
    "C32_scaling",
    "C32_anchor"
   ],
   "note": ""
  },
  {
   "property": "C33",
   "status": "proved",
   "theorems": [
    "C33_values",
    "C33_unknown_coldtrap"
   ],
   "note": ""
  },
  {
   "property": "C34",
   "status": "proved",
   "theorems": [
    "C34_exclusive",
    "C34_labels"
   ],
   "note": ""
  },
  {
   "property": "C35",
   "status": "proved",
   "theorems": [
    "C35_rounding",
    "C35_array",
    "C35_binary64_refuted"
   ],
   "note": "The part of the documented behaviour the code violates is refuted by a witness; the rest is proved."
  },
  {
   "property": "C36",
   "status": "proved",
   "theorems": [
    "C36_supports",
    "C36_comet_range_refuted"
   ],
   "note": "The part of the documented behaviour the code violates is refuted by a witness; the rest is proved."
  },
  {
   "property": "C37",
   "status": "proved",
   "theorems": [
    "C37_weights",
    "C37_default_weights",
    "C37_cdf",
    "C37_samples"
   ],
   "note": ""
  },
  {
   "property": "C38",
   "status": "proved",
   "theorems": [
    "C38_seed",
    "C38_seed_kept",
    "C38_command_line_wins",
    "C38_infinite_seed_refuted"
   ],
   "note": "The part of the documented behaviour the code violates is refuted by a witness; the rest is proved."
  },
  {
   "property": "C39",
   "status": "proved",
   "theorems": [
    "C39_user_wins",
    "C39_mode_fills",
    "C39_pole_fills",
    "C39_unknown_mode",
    "C39_unknown_pole",
    "C39_mode_speed_refuted"
   ],
   "note": "The part of the documented behaviour the code violates is refuted by a witness; the rest is proved."
  },
  {
   "property": "C40",
   "status": "proved",
   "theorems": [
    "C40_named_after_seed",
    "C40_seeds_separate",
    "C40_under_given",
    "C40_default",
    "C40_shown_seed_kept",
    "C40_two_seeds_refuted",
    "C40_numeric_directory_refuted"
   ],
   "note": "The part of the documented behaviour the code violates is refuted by a witness; the rest is proved."
  },
  {
   "property": "C41",
   "status": "proved",
   "theorems": [
    "C41_typed",
    "C41_kept",
    "C41_whole_floats",
    "C41_idempotent",
    "C41_false_text_refuted",
    "C41_error_kind_refuted"
   ],
   "note": "The part of the documented behaviour the code violates is refuted by a witness; the rest is proved."
  },
  {
   "property": "C42",
   "status": "proved",
   "theorems": [
    "C42_comets",
    "C42_seed_shown",
    "C42_dotdot_refuted"
   ],
   "note": "The part of the documented behaviour the code violates is refuted by a witness; the rest is proved."
  },
  {
   "property": "C43",
   "status": "proved",
   "theorems": [
    "C43_transparent",
    "C43_bounded",
    "C43_least_recent_dropped",
    "C43_failures_not_stored",
    "C43_changed_file_refuted",
    "C43_config_keys",
    "C43_reads_compared",
    "C43_regimes_refuted"
   ],
   "note": "The part of the documented behaviour the code violates is refuted by a witness; the rest is proved."
  },
  {
   "property": "C44",
   "status": "proved",
   "theorems": [
    "C44_totals",
    "C44_layers",
    "C44_youngest",
    "C44_formation_row",
    "C44_errors"
   ],
   "note": ""
  },
  {
   "property": "C45",
   "status": "proved",
   "theorems": [
    "C45_depth",
    "C45_depth_steps",
    "C45_layers_nonneg",
    "C45_ice_percentage"
   ],
   "note": ""
  },
  {
   "property": "C46",
   "status": "proved",
   "theorems": [
    "C46_sources",
    "C46_minor_sources",
    "C46_row_label"
   ],
   "note": ""
  },
  {
   "property": "C47",
   "status": "proved",
   "theorems": [
    "C47_labels",
    "C47_split_join",
    "C47_order_refuted",
    "C47_double_comma_refuted"
   ],
   "note": "The part of the documented behaviour the code violates is refuted by a witness; the rest is proved."
  },
  {
   "property": "C48",
   "status": "proved",
   "theorems": [
    "C48_complete",
    "C48_crash_states",
    "C48_config_first",
    "C48_rerun",
    "C48_run_twice",
    "C48_resume",
    "C48_resume_completes_refuted"
   ],
   "note": "The part of the documented behaviour the code violates is refuted by a witness; the rest is proved."
  },
  {
   "property": "C49",
   "status": "proved",
   "theorems": [
    "C49_defined",
    "C49_neighbours",
    "C49_maximum",
    "C49_uniform",
    "C49_hot_refuted",
    "C49_closed_system_refuted"
   ],
   "note": "Exact arithmetic. Stability outside 15-720 K and conservation of heat ('assume closed system') are refuted by witnesses."
  },
  {
   "property": "C50",
   "status": "proved",
   "theorems": [
    "C50_meaning",
    "C50_fraction",
    "C50_cold",
    "C50_at_melting",
    "C50_more_time",
    "C50_minus_one",
    "C50_negative",
    "C50_hot_target_refuted"
   ],
   "note": "Placement of the ejecta is any choice of distinct positions; temperatures in exact arithmetic. A target hot from the start counts as not melted: refuted by a witness."
  },
  {
   "property": "C51",
   "status": "proved",
   "theorems": [
    "C51_same",
    "C51_errors",
    "C51_entries",
    "C51_empty_refuted"
   ],
   "note": "Any process count and any order of reports, for at least one ratio; for an empty list the two ways differ (refuted)."
  },
  {
   "property": "C52",
   "status": "proved",
   "theorems": [
    "C52_mixing_ratio",
    "C52_power_law",
    "C52_petro",
    "C52_default_in_table"
   ],
   "note": ""
  },
  {
   "property": "C53",
   "status": "proved",
   "theorems": [
    "C53_rank_bilinear",
    "C53_errors",
    "C53_table_values",
    "C53_bounds",
    "C53_linear_in_mixing_ratio_refuted",
    "C53_independent_of_other_queries_refuted"
   ],
   "note": "The part of the documented behaviour the code violates is refuted by a witness; the rest is proved."
  },
  {
   "property": "C54",
   "status": "proved",
   "theorems": [
    "C54_values",
    "C54_bounds",
    "C54_no_event",
    "C54_off",
    "C54_off_table",
    "C54_default_total",
    "C54_maximum_depth_refuted"
   ],
   "note": "The part of the documented behaviour the code violates is refuted by a witness; the rest is proved."
  },
  {
   "property": "C55",
   "status": "proved",
   "theorems": [
    "C55_costello",
    "C55_increasing",
    "C55_cannon"
   ],
   "note": ""
  },
  {
   "property": "C56",
   "status": "proved",
   "theorems": [
    "C56_stream_refuted",
    "C56_marks_off"
   ],
   "note": "The part of the documented behaviour the code violates is refuted by a witness; the rest is proved."
  },
  {
   "property": "C57",
   "status": "proved",
   "theorems": [
    "C57_flag_ignored",
    "C57_every_row_counts",
    "C57_basins_excluded_refuted"
   ],
   "note": "Main ignores the flag: both runs are equal, every basin counts, and exclusion of basins is refuted by a run."
  },
  {
   "property": "C58",
   "status": "proved",
   "theorems": [
    "C58_rows",
    "C58_totals",
    "C58_errors",
    "C58_no_thin",
    "C58_run",
    "C58_merged_refuted",
    "C58_all_thin_refuted"
   ],
   "note": "The merging described in the code's comments does not happen (list.extend returns None): refuted by a witness, and the actual result is characterised for all tables."
  },
  {
   "property": "C59",
   "status": "proved",
   "theorems": [
    "C59_exact",
    "C59_amounts",
    "C59_run",
    "C59_errors",
    "C59_no_formation_row",
    "C59_times_refuted"
   ],
   "note": "Proved for consistent tables and, composed with make_strat_col, for the tables of runs. C59_times_refuted: in general the list of times is not filtered like the lists of ice and depths; C59_run shows that this cannot happen for tables of runs with strat_after_age."
  },
  {
   "property": "C60",
   "status": "proved",
   "theorems": [
    "C60_total",
    "C60_ice_bounded"
   ],
   "note": "Saving is C48; column loops of main run in exact arithmetic (rounded loops: C01-C09), the tables use any order-preserving conversion."
  },
  {
   "property": "C61",
   "status": "proved",
   "theorems": [
    "C61_head_only",
    "C61_nk_refuted",
    "C61_unknown"
   ],
   "note": "The part of the documented behaviour the code violates is refuted by a witness; the rest is proved."
  },
  {
   "property": "C62",
   "status": "proved",
   "theorems": [
    "C62_counts_positive"
   ],
   "note": ""
  },
  {
   "property": "C63",
   "status": "proved",
   "theorems": [
    "C63_total_nonnegative",
    "C63_default_sane"
   ],
   "note": ""
  },
  {
   "property": "C64",
   "status": "proved",
   "theorems": [
    "C64_choice"
   ],
   "note": ""
  },
  {
   "property": "C65",
   "status": "proved",
   "theorems": [
    "C65_threshold_ignored",
    "C65_thin_ejecta_removed_refuted"
   ],
   "note": "The part of the documented behaviour the code violates is refuted by a witness; the rest is proved."
  },
  {
   "property": "C66",
   "status": "proved",
   "theorems": [
    "C66_polar_sources",
    "C66_impact_sources"
   ],
   "note": ""
  },
  {
   "property": "C67",
   "status": "proved",
   "theorems": [
    "C67_default_file",
    "C67_portable"
   ],
   "note": ""
  },
  {
   "property": "C68",
   "status": "proved",
   "theorems": [
    "C68_saved_config",
    "C68_new_seed_overwrites_refuted"
   ],
   "note": "The part of the documented behaviour the code violates is refuted by a witness; the rest is proved."
  },
  {
   "property": "C69",
   "status": "proved",
   "theorems": [
    "C69_outputs",
    "C69_inputs",
    "C69_captured_refuted"
   ],
   "note": "The part of the documented behaviour the code violates is refuted by a witness; the rest is proved."
  },
  {
   "property": "C70",
   "status": "proved",
   "theorems": [
    "C70_unknown_option",
    "C70_not_settable"
   ],
   "note": ""
  },
  {
   "property": "C71",
   "status": "proved",
   "theorems": [
    "C71_tables",
    "C71_entries",
    "C71_cold"
   ],
   "note": ""
  },
  {
   "property": "C72",
   "status": "proved",
   "theorems": [
    "C72_hatch",
    "C72_same_hatch",
    "C72_ice_apart",
    "C72_repeats",
    "C72_28_refuted",
    "C72_ranges",
    "C72_run_stacked",
    "C72_source",
    "C72_errors"
   ],
   "note": "The part of the documented behaviour the code violates is refuted by a witness; the rest is proved."
  },
  {
   "property": "C73",
   "status": "proved",
   "theorems": [
    "C73_colour",
    "C73_own_colour",
    "C73_own_colour_refuted",
    "C73_reproducible_refuted"
   ],
   "note": "matplotlib's fill_betweenx is modelled as fills of the intervals between neighbouring rows, later fills on top."
  },
  {
   "property": "C74",
   "status": "proved",
   "theorems": [
    "C74_unaffected",
    "C74_depths",
    "C74_given_melt",
    "C74_unaffected_with_sedimentation_refuted"
   ],
   "note": "C74_unaffected is proved without ballistic sedimentation. With it the claim is false of the code: C74_unaffected_with_sedimentation_refuted gives two full runs that differ in the cold trap's ice (half against a third left); C74_depths and C74_given_melt prove that the melt fractions are the only cause."
  },
  {
   "property": "C75",
   "status": "proved",
   "theorems": [
    "C75_axes",
    "C75_float32",
    "C75_extent",
    "C75_extent_refuted",
    "C75_default",
    "C75_outputs",
    "C75_run_agrees",
    "C75_no_limit_refuted",
    "C75_radius_refuted",
    "C75_rectangular_refuted",
    "C75_labels_refuted",
    "C75_label_range"
   ],
   "note": "The axes are exact for every conversion that keeps integers up to 2^24 (binary32: C75_float32). The distances on the grid are in exact arithmetic. Refuted: the documented extent for steps that do not divide, rectangular grids, labels other than 0..n-1, negative thresholds as no limit, the configured lunar radius."
  },
  {
   "property": "C76",
   "status": "proved",
   "theorems": [
    "C76_labels",
    "C76_samples",
    "C76_others",
    "C76_columns_unchanged",
    "C76_runs_unchanged",
    "C76_unchanged_refuted"
   ],
   "note": "Patches are modelled as fills with a label and a colour. That columns keep their appearance is proved for figures of plot_stratigraphy (C76_columns_unchanged, and for tables of runs C76_runs_unchanged) and refuted for other axes."
  },
  {
   "property": "C77",
   "status": "proved",
   "theorems": [
    "C77_axes",
    "C77_blank",
    "C77_depth",
    "C77_saved",
    "C77_errors",
    "C77_files",
    "C77_files_default",
    "C77_files_given_refuted",
    "C77_one_scale_refuted"
   ],
   "note": "matplotlib's grid is a list of axes per run. Refuted: one depth scale for all runs, and finding the files of a run that was given an out_path."
  },
  {
   "property": "C78",
   "status": "proved",
   "theorems": [
    "C78_code",
    "C78_white_refuted",
    "C78_short_refuted",
    "C78_errors",
    "C78_linear",
    "C78_ends",
    "C78_nan",
    "C78_single_refuted",
    "C78_default"
   ],
   "note": "matplotlib's LinearSegmentedColormap is modelled by its table of 256 entries. Refuted: full white, three-digit codes, lists of one colour."
  },
  {
   "property": "C79",
   "status": "proved",
   "theorems": [
    "C79_column",
    "C79_settings",
    "C79_no_sedimentation",
    "C79_solar_wind",
    "C79_volcanic",
    "C79_hop",
    "C79_overturn",
    "C79_water",
    "C79_linear"
   ],
   "note": "In exact arithmetic; both runs are assumed to succeed (C60 says when they do)."
  },
  {
   "property": "C80",
   "status": "proved",
   "theorems": [
    "C80_rows",
    "C80_numbers",
    "C80_crater_list",
    "C80_basin_list",
    "C80_luminosity",
    "C80_hop",
    "C80_melt",
    "C80_no_file"
   ],
   "note": "Files are texts; left out: lines with more fields than columns, blanks around numbers, infinities, names that are truth values. Numbers are exact; NaN in a needed column is an error in the model."
  },
  {
   "property": "C81",
   "status": "proved",
   "theorems": [
    "C81_finishes",
    "C81_default_traps",
    "C81_traps_listed",
    "C81_north_refuted",
    "C81_nk_refuted"
   ],
   "note": "In exact arithmetic, from the texts of the shipped files. Refuted: the other documented pole and the volcanic mode 'NK'."
  },
  {
   "property": "C82",
   "status": "proved",
   "theorems": [
    "C82_idle",
    "C82_helps",
    "C82_settings",
    "C82_time"
   ],
   "note": "In exact arithmetic. The comparison of ice assumes that both runs finish (the first one always does, C81)."
  },
  {
   "property": "C83",
   "status": "proved",
   "theorems": [
    "C83_tables",
    "C83_aggregate",
    "C83_figure",
    "C83_known"
   ],
   "note": ""
  },
  {
   "property": "C84",
   "status": "proved",
   "theorems": [
    "C84_table",
    "C84_missing_refuted",
    "C84_shipped",
    "C84_ice",
    "C84_ejecta",
    "C84_figure",
    "C84_run"
   ],
   "note": "The part of the documented behaviour the code violates is refuted by a witness; the rest is proved."
  },
  {
   "property": "C85",
   "status": "proved",
   "theorems": [
    "C85_runs",
    "C85_resume",
    "C85_negative",
    "C85_reproducible",
    "C85_campaign",
    "C85_figure"
   ],
   "note": ""
  },
  {
   "property": "C86",
   "status": "proved",
   "theorems": [
    "C86_collected",
    "C86_totals",
    "C86_shipped_totals",
    "C86_again",
    "C86_failed",
    "C86_campaign",
    "C86_reported_refuted"
   ],
   "note": "Pickling is a pair of functions that are inverse on what is dumped; to_csv and read_csv with three lines of headings are modelled on texts; empty frames are left out. Refuted: failures of a cold trap are reported."
  },
  {
   "property": "C87",
   "status": "proved",
   "theorems": [
    "C87_table",
    "C87_seed",
    "C87_twice",
    "C87_total",
    "C87_figure",
    "C87_bars",
    "C87_conserved",
    "C87_seeds",
    "C87_mixing",
    "C87_micrometeorites",
    "C87_volcanic_refuted",
    "C87_comets_off_refuted",
    "C87_max_refuted"
   ],
   "note": "Exact arithmetic, where the text says mean. The random numbers of each seed are a parameter; the comet table of a seed starts again from the draws of the list of craters, whereas a run goes on after the asteroid draws. C87_total is for impact_ice_basins on. Refuted: volcanic ice is that of a run; comets can be switched off; the shade is a maximum."
  },
  {
   "property": "C88",
   "status": "proved",
   "theorems": [
    "C88_saved",
    "C88_saved_again",
    "C88_versions",
    "C88_versions_refuted",
    "C88_guess",
    "C88_guessed",
    "C88_violin",
    "C88_layers",
    "C88_boxes",
    "C88_above",
    "C88_marks",
    "C88_campaign",
    "C88_latest_refuted",
    "C88_violin_guess_refuted",
    "C88_count_refuted",
    "C88_renamed_refuted",
    "C88_p99_refuted"
   ],
   "note": "The numbers handed to the plotting library, in exact arithmetic; how numbers are written and read is a parameter (read_as), rounding to 10 cm is to the nearest tenth. New names of runs are distinct and not old names of others (renames; the other case is refuted). Two slashes at the start of a path, symbolic links and versions with a slash are left out. Refuted: versions keep apart; the last day is taken; all figures guess the day; the title counts what is drawn; names can change places; p99."
  },
  {
   "property": "C89",
   "status": "proved",
   "theorems": [
    "C89_parts",
    "C89_means",
    "C89_sums",
    "C89_even",
    "C89_default",
    "C89_grows",
    "C89_conserved",
    "C89_bins_refuted",
    "C89_max_refuted"
   ],
   "note": "The numbers handed to the plotting library, in exact arithmetic; equal parts as pandas.cut makes them, for an axis with two different times at least. Without seeds all numbers are NaN and the figure is left out. Refuted: the argument bins; the shade of the largest depth on the right."
  },
  {
   "property": "C90",
   "status": "proved",
   "theorems": [
    "C90_basins",
    "C90_total",
    "C90_when",
    "C90_figure",
    "C90_independent",
    "C90_short",
    "C90_line_total",
    "C90_seed_refuted",
    "C90_axis_refuted",
    "C90_ends_refuted",
    "C90_percentile_refuted"
   ],
   "note": "Exact arithmetic; the random numbers of each generator that is made are a parameter. A run on its own (basin_run) is one for some draws. C90_when needs a water content that is positive. No runs at all are left out. Refuted: the same figure each time; the axis of the given configuration; averages at the ends; the percentile."
  },
  {
   "property": "C91",
   "status": "proved",
   "theorems": [
    "C91_ages",
    "C91_finishes",
    "C91_no_traps",
    "C91_star_refuted",
    "C91_errors_refuted",
    "C91_unseeded_refuted",
    "C91_seed",
    "C91_random",
    "C91_twice",
    "C91_counts",
    "C91_inset",
    "C91_all_refuted",
    "C91_run",
    "C91_run_refuted",
    "C91_seed0_refuted"
   ],
   "note": "The numbers handed to the plotting library, in exact arithmetic; the random numbers of each generator that is made, of each seed, and the seed drawn in place of 0 are parameters, and so is which random number an entry of SciPy's two-dimensional sample has. Names of basins do not start with a star. Refuted: stars and ages; error bars; both figures repeatable; all ages counted; seeds as in the run."
  },
  {
   "property": "C92",
   "status": "proved",
   "theorems": [
    "C92_axes",
    "C92_labels",
    "C92_speed",
    "C92_thickness",
    "C92_orientale",
    "C92_energy",
    "C92_depth_refuted",
    "C92_depth_all_refuted",
    "C92_depth",
    "C92_bunte",
    "C92_bunte_refuted",
    "C92_radius",
    "C92_radius_basin",
    "C92_series",
    "C92_units_refuted"
   ],
   "note": "The numbers handed to the plotting library, in exact arithmetic; labels are kept as name and diameter, not as formatted text; shaded areas and legends are left out. Thickness of basins is shown positive for the shipped constants only. Refuted: depth against distance; energy at four radii; units of the axes."
  },
  {
   "property": "C93",
   "status": "proved",
   "theorems": [
    "C93_maps",
    "C93_default",
    "C93_rectangular",
    "C93_ejecta_fixed",
    "C93_settings_refuted",
    "C93_threshold_refuted",
    "C93_start_refuted",
    "C93_unseeded_refuted",
    "C93_distances",
    "C93_lines",
    "C93_lines_refuted",
    "C93_units_refuted"
   ],
   "note": "The numbers handed to the plotting library, in exact arithmetic; random numbers of each generator that is made are a parameter. Colours and the logarithmic scale of the ejecta (which hides cells of 0) are left out; so is an empty pair of files. Refuted: settings; thresholds; start at 4.25 Ga; repeatable ages; labels of vertical lines; unit of the axis."
  },
  {
   "property": "C94",
   "status": "proved",
   "theorems": [
    "C94_scaling",
    "C94_scaling_errors",
    "C94_overlap_refuted",
    "C94_proposal",
    "C94_unit_refuted",
    "C94_retention",
    "C94_fraction_refuted",
    "C94_ong",
    "C94_ong_refuted",
    "C94_hop",
    "C94_hop_missing",
    "C94_hop_shipped"
   ],
   "note": "The numbers handed to the plotting library, in exact arithmetic; np.polyfit is modelled by the normal equations, np.geomspace for positive ends. The shipped table of efficiencies is rounded to six digits where its values matter. The regime c is within a 999th of its largest transient crater of the exact law. Refuted: one regime for each impactor; unit of impactors; fractions at most 1; fit to the last datum."
  },
  {
   "property": "C95",
   "status": "proved",
   "theorems": [
    "C95_round_trip",
    "C95_one_line",
    "C95_saved_text",
    "C95_saved_config",
    "C95_default_text",
    "C95_printable",
    "C95_ascii",
    "C95_not_finite",
    "C95_infinite_refuted",
    "C95_twice",
    "C95_commented"
   ],
   "note": "pprint.pformat (compact, unsorted, width 80) and ast.literal_eval are modelled on bytes; how a finite float is written and what a literal denotes are parameters with the hypothesis that reading gives back what was written. Widths count bytes; line separators beyond ASCII do not split texts; literal_eval is without sets, bytes, complex numbers, prefixes, triple quotes, \\u escapes and items without brackets. Refuted: whatever loads can be saved and loaded again (infinities)."
  },
  {
   "property": "C96",
   "status": "proved",
   "theorems": [
    "C96_figure",
    "C96_fixed",
    "C96_lines",
    "C96_colours",
    "C96_shipped",
    "C96_cold_refuted",
    "C96_nearest_refuted",
    "C96_rows_refuted"
   ],
   "note": "Images are rows of numbers with an extent; which cell lies at a point follows the documentation of imshow (first row at the top, even cells). Colours, ticks and labels are left out; no mixing ratio is -1. Refuted: colours below 110 K, nearest entries, rows that are not evenly spaced."
  },
  {
   "property": "C97",
   "status": "proved",
   "theorems": [
    "C97_seeds",
    "C97_seeds_refuted",
    "C97_seeds_errors",
    "C97_bsed",
    "C97_bsed_few",
    "C97_version",
    "C97_order",
    "C97_fig7",
    "C97_fig8",
    "C97_fig8_errors",
    "C97_version_refuted"
   ],
   "note": "fig.axes is modelled as the list of axes in order of creation, with the twin axes of plot_strat; axes are in one row exactly if their lower edges agree. The csv file between saving and reading is the table itself. Printing with three digits and shades are left out. Refuted: letters for other numbers of cold traps, place of the version."
  },
  {
   "property": "C98",
   "status": "proved",
   "theorems": [
    "C98_curves",
    "C98_bars",
    "C98_limits_refuted"
   ],
   "note": "scipy truncnorm is left abstract: its density, distribution and survival function are any with the laws of the record truncated (support, sign, monotone, total 1), shown to be satisfiable. Histogram bins of numpy are modelled; colours and ticks are left out. Refuted: the limits set for comets are limits of their speeds."
  },
  {
   "property": "C99",
   "status": "proved",
   "theorems": [
    "C99_mark",
    "C99_mark_errors",
    "C99_distinct",
    "C99_default",
    "C99_overwritten_refuted",
    "C99_versions",
    "C99_bsed",
    "C99_comets",
    "C99_craters",
    "C99_order",
    "C99_order_refuted"
   ],
   "note": "The table of public functions, their default file names and whether they pass a version is read off plot_figs.py; processes run one after another, each with its defaults. Text box, font and colours are left out. Refuted: figures of two versions never overwrite each other."
  },
  {
   "property": "C100",
   "status": "proved",
   "theorems": [
    "C100_coefficients",
    "C100_same",
    "C100_rises",
    "C100_rises_refuted",
    "C100_positive",
    "C100_positive_refuted",
    "C100_units"
   ],
   "note": "Real arithmetic. The coefficients are those of the configuration object of C39. Refuted: the capacity rises, or is positive, at all temperatures."
  },
  {
   "property": "C101",
   "status": "proved",
   "theorems": [
    "C101_sane",
    "C101_entries",
    "C101_finishes",
    "C101_no_target",
    "C101_coldest"
   ],
   "note": "Real arithmetic for the axes; printing with six digits and the rounding of the number of ejecta elements are any functions with the stated accuracy. That the printed text is read back as the printed number is part of the printing function."
  },
  {
   "property": "C102",
   "status": "proved",
   "theorems": [
    "C102_spelling",
    "C102_two_seeds",
    "C102_written_out",
    "C102_swallowed_refuted",
    "C102_mistakes",
    "C102_unknown"
   ],
   "note": "argparse modelled from its source for Python 3.8 to 3.11; the argument \"--\" is left out. int of a text is a parameter."
  }
 ]
}