# Formal model of MoonPIES

Subject: `cjtu/moonpies` (python, `/repo`).  Prover: Coq 8.16.1.
`properties.jsonl` lists the properties, `MANIFEST.json` maps them to theorems,
`seeded/LOG.jsonl` records the wrong programs the theorems were tested against.

## Layout

* `rocq/theories/Base.v`, `Arith.v` : generic helpers (results, booleans on R, lists).
* `rocq/theories/Model_*.v` : definitions only; each cites file and lines of `/repo`.
* `rocq/theories/Spec_*.v` : small independent specifications used in statements.
* `rocq/theories/Proofs_*.v` : lemmas.
* `rocq/theories/Props_*.v` : the property theorems (named `Cnn_...`), each closed
  by `exact`, with examples that meet the hypotheses, and `Print Assumptions`.

## Modelling choices

* **Numbers.**  The column loops (gardening, erosion, ballistic sedimentation,
  column update) are written once over an explicit record of arithmetic
  operations and instantiated at (i) exact reals, (ii) reals with every
  operation followed by an arbitrary rounding (`fp_ok`: monotone, idempotent, keeps
  0; two formats because the program stores float32 and computes in float64
  in places), shown non-empty by Flocq's binary32/binary64 rounding, and
  (iii) rationals, for tests by computation.  Safety theorems hold for every
  rounding; conservation laws and closed forms are for exact reals.
  Formulas of physics are modelled in exact reals (simplification: overflow,
  underflow and rounding there are out of scope).
* **NaN** is `None : option R` where the program relies on it.
* **Exceptions** are values of a `result` type.
* **Randomness** is an explicit argument (the draws), with the support of the
  distribution as hypothesis; theorems hold for all draws in the support.
* **Files** are a finite list of (name, content) pairs; a crash is a prefix of the
  list of writes.
* **Strings** are Coq strings; paths are modelled by their text.

Where the code does not do what it documents, the property says so and the
theorem named `..._refuted` gives the witness, next to the strongest statement
that does hold.

## Per property plan

| id | modelled | proof |
|----|----------|-------|
| C01 C02 C03 C04 | `garden_ice_column` loop over the interleaved index with fuel, generic arithmetic | invariant of the loop, layer-wise recursion as specification; witness for C03 |
| C05 C06 | `erode_ice_cannon` loop | closed form by induction; witness |
| C07 C08 C09 | `update_ice_col`, `update_strat_cols`, `remove_ice_overturn` | invariant over timesteps; simulation with an append-only machine |
| C10 | `get_time_array`, `np.linspace` | algebra on IZR |
| C11 C12 | `ages2time` (argmin over absolute difference, grouped aggregation) | induction on events |
| C13 C14 | `round_to_ts` (`rint` half to even), `randomize_crater_ages` | Int_part/up lemmas, stable sort |
| C15 | `gc_dist` | trigonometry of Coq.Reals, Lagrange identity |
| C16 | `get_coldtrap_dists` | case analysis, NaN as None |
| C17 | `latlon2xy`, `xy2latlon`, `arctan2` | trigonometry |
| C18 | `get_age_grid` | induction on crater list |
| C19 C20 C21 | ejecta thickness functions, `ballistic_velocity` | Rpower and trigonometry |
| C22 C23 C24 C25 | `get_ice_thickness`, `volcanic_ice_head`, solar wind, `np.interp` | algebra, induction on table |
| C26-C32 | impactor populations, retention, SFD, flux, scaling laws | Rpower/exp monotonicity |
| C33 | `get_ice_cols_time` | case analysis on flags |
| C34-C37 | random choices, `probabilistic_round`, speed supports, `rv_mixture` | draws as arguments |
| C38-C42 | `Cfg.__post_init__` pipeline, `_get_out_path`, `get_comet_cfg` | field tables, string functions |
| C43 | `functools.lru_cache` | invariant over call histories |
| C44-C47 | `make_strat_col`, `merge_adjacent_strata`, `get_all_labels` | run-length induction |
| C48 | `format_save_outputs`, `save_outputs`, `cli.run` | file system state, crash = prefix |
| C49-C51 | `thermal_eq.py` | convex combination, polynomial bounds |
| C52-C55 | mixing ratio, melt fraction, `get_bsed_depth`, overturn | Rpower, rank interpolation |
| C56 C57 | `get_impact_ice` draw order, `main` data flow | draws tape; equality of runs |
| C58 | `plotting.clean_up_strat_col` | witness and preservation |
| C59 | `agg_coldtrap` | induction on layers |
| C60 | composition of the above | composition |
| C61-C64 | Neukum polynomial, impactor counts, crater totals, weighted choice | induction on tables, cumulative sums |
| C65 | `get_ejecta_thickness_time` | equality for all thresholds; witness against the docstring |
| C66 | `get_polar_ice`, `get_impact_ice` | inversion of the random-stream monad |
| C67-C70 | configuration file of `--cfg`, `to_py`, `from_py`, command line | parser and printer of Python literals, path algebra |
| C71 | tables of `thermal_eq.py` | means and deviations of fractions, schedule independence of `Pool.map` |
| C72 C73 | `get_strat_col_ranges`, `get_lith_key`, `plot_strat` | fills as intervals, later fills on top; hash collision witnesses |
| C74 | two whole runs with different cold trap names | column-wise homomorphism of every step of `main`; two full runs as witness |
| C75 | `get_grid_arrays` (numpy's `arange` with its rounding), `get_gc_dist_grid`, `get_grid_outputs` | sorted integer lists; loop invariant over labels; composition with C16, C17, C18, C19 |
| C76 | `strat_legend`, the patches of `plot_strat` | handles as positions of patches; every recoloured patch is followed by one with the same stretches |
| C77 | `plot_stratigraphy` over a map of files; its paths | fold invariants over cells and runs; parts of paths, composed with C40 |
| C78 | `make_cmap`, matplotlib's table of 256 colours | interpolation lemmas of C25; integer part of 256 x |
| C79 | `update_strat_cols`, `main` twice | layers compared pointwise: gardening and erosion keep the order of two stacks; induction over steps; sources compared one by one; impact ice shown linear in the water contents |
| C80 | pandas' tokenizer, decimal numbers, the five readers | grammar of file texts as inductive relations; the tokenizer is run along them; digits by induction |
| C81 | options and files of a configuration object to `main` | the texts of the shipped files are read by computation; C60 needs bounds for each setting, checked on the rationals |
| C82 | options and files of two configuration objects to `main` | the options are rewritten one by one; C79 lifted from settings to options; tables of modules that are off are irrelevant |
| C83 | `run` (C81), the tables it leaves, `agg_run` (C59), `plot_figure` (C77) and the crater list of the plots | the rows behind each table are followed through `main`: ice and ejecta not negative, sources named in the files, times in order; then the theorems on single tables apply |
| C84 | the text that pandas writes (`to_csv`, quoting), the files of a run as `results` of C48, the reading of a table and the file a figure looks for (C77); how a number is written and read is a parameter | the grammar of comma-separated files of C80 read backwards; file names by C69, the disk after the run by C48 |
| C85 | `cli.run` joined with `Cfg`, `main` and saving on one disk: arguments as argparse takes them, `path.exists` and the data files looked up on that disk, the random stream of a seed; a list of commands | the default configuration in closed form (C67) gives the names of all files; C81 for the run, C82 for its independence of the machine, C48 for the disk; induction over the commands with the readiness of the disk as invariant |
| C86 | all of `aggregate.py` on a disk: `glob` and `rglob` as any listing without repetitions, one process per cold trap, pickles, the two csv files with three lines of headings, reading and flattening them | the columns of the files are blocks of equal length, one per cold trap and run; writing and reading keeps them (C84), flattening gives the rows back up to order; induction over the pickles; joined with C85 for the runs of a day |
| C87 | `plot_by_module` and its helpers: the table of a seed, the loop over the seeds for asteroids and comets, sums of columns, periods as bins, means and error bars | a table is a function of column and row; the loop adds tables; the draws are those of `get_impact_ice` (C63), so columns of a seed add up to it; periods split the time axis (permutation of steps) |
| C88 | `_save_or_show`, `_get_datedir`, `_load_aggregated`, `compare_violin`, `kde_layers` and `surface_boxplot` down to the numbers that are drawn, on a disk; paths as `pathlib` splits them; the listing of a directory is any permutation | the rows that are read are a permutation of the tables of the day (C86); filters and renaming commute with it; quantiles through a sorted copy and counting; joined with C85 and C86 for the commands of a day |
| C89 | `plot_by_module_time` down to the points of both panels: bins of equal width as `pandas.cut` makes them, means in bins, running sums | the bins are a partition of the steps (permutation); the table is the closed form of C87; means and sums of a column as functions of the step; evenly spaced steps fall into the parts in rows of the same length |
| C90 | `get_basin_ice`, `ice_basins` (as in the run) and `plot_figs.basin_ice` down to the points and lines; one tape per generator that is made without a seed | closed form of the placement of ages (C08) with one height per basin; sums over steps exchanged; streams of several runs put together from streams of single runs; window of three as a sum of three terms |
| C91 | `plot_figs.crater_basin_ages` and `plot_figs.random_crater_ages` down to bars, labels and counts, from the crater lists of the run | distances and thickness of the run turned into `ejecta_at` (C57), rows permuted to lines; names that differ make searches by name unique; counts per bin by induction over the edges; multiples of 10 Myr lie in the middle of a bin |
| C92 | `plot_figs.ejecta_distance` and `plot_figs.ejecta_bsed` down to points, markers and axis labels, on the thickness, speed and mixing ratio of the run | points turned into the laws of C19-C21 and C52; monotone mixing ratio for the wrong depth; bounds on a power and a tangent for the energy of Ries; `geomspace` between its ends |
| C93 | `plot_figs.grid_plots` and `plot_figs.distance_bsed` down to grids, points, lines and labels, on the gridded outputs (C75) and distances (C16) of the run | rows of the list matched with lines of the files (C91); sum of grids cell by cell, invariant under the order of rows; the two maps are determined by their description, so settings cannot matter; `nanmax` as an attained bound |
| C94 | `plot_figs.crater_scaling`, `plot_figs.ice_retention` and `plot_figs.ballistic_hop` down to marks, curves and lines, on the scaling laws (C30-C32) and the retention (C27) of the run | laws of the run at both ends of each regime; rational powers bounded by comparing integers; least squares by completing the square |
| C95 | `Cfg.to_string`, `Cfg.to_py`, `_dict2str`, `read_custom_cfg` down to the characters of the file, with `pprint.pformat` and `ast.literal_eval` | relation between values and tokens that any layout satisfies; tokenizer as a state machine with lemmas for what may follow; parser on fuel bounded by the tokens; names the parser accepts for infinities |
| C96 | `volatilized_fraction_bsed` with the tables, images and ranges | least and greatest elements of lists; cells of an image as half-open steps, uniqueness of the cell of a point; shipped table checked by computation on rationals |
| C97 | `strat_cols_bsed`, `strat_cols_seeds`, `ice_pct_fig7`, `ice_pct_fig8` on `plot_stratigraphy` | positions in the list of axes; the keys of the dict by induction on cells and runs; filters of the saved table |
| C98 | `ast_comet_vels` with `asteroid_speed_rv`, `comet_speed_rv`, `rv_mixture` | laws of a truncated distribution under shift and scale; weighted sums; counts of bins |
| C99 | `plot_version`, `_generate_all` with the defaults of all figures, `bsed_sensitivity_violin`, `comet_sensitivity_violin` | cases of the two letters; computed distinctness of the names carried through any directory and version; the violins of C88 with two runs |
| C100 | `specific_heat_capacity`, `m2km`, `km2m` | Simpson's rule is exact for the derivative, which is positive up to 550 K; sign of a cubic |
| C101 | the script part of `thermal_eq`, `make_melt_frac_dfs`, `main` | C71 for the entries; neighbouring labels differ by more than the printing error; the largest mixing ratio is below 39; C60 |
| C102 | `cli.run`, argparse | classification of each spelling; induction over the sayings |

## What is modelled and what is not

Modelled, function by function (file and lines in the comment of each definition):

* `moonpies.py`: the whole run from `main` to the output tables (time axis, crater list,
  distances, ejecta, ice delivery by solar wind, volcanoes, micrometeorites, the five
  impactor regimes and comets, ballistic sedimentation, overturn, stratigraphy, labels,
  saving), the random choices, scaling laws, chronology, projections and gridded outputs.
* `config.py`: `Cfg` with its defaults, `__post_init__`, type enforcement, paths, printing
  and reading of configuration files.
* `cli.py`: argument handling, `run`, resuming.
* `thermal_eq.py`: finite-difference conduction, melt statistics, the pool of processes.
* `plotting.py`: `clean_up_strat_col`, `get_strat_col_ranges`, `get_lith_key`, `plot_strat`
  (colours), `plot_stratigraphy` (files, axes, depths, saved table), `strat_legend`,
  `make_cmap`.
* `notebooks/figure_scripts/aggregate.py`: all of it, on a disk.
* `notebooks/figure_scripts/plot_figs.py`: the numbers drawn by `plot_by_module`,
  `plot_by_module_time`, `basin_ice`, `crater_basin_ages`, `random_crater_ages`, `ejecta_distance`, `ejecta_bsed`, `grid_plots`, `distance_bsed`, `volatilized_fraction_bsed`, `ast_comet_vels`, `plot_version`, `_generate_all`, `bsed_sensitivity_violin`, `comet_sensitivity_violin`, `strat_cols_bsed`, `strat_cols_seeds`, `ice_pct_fig7`, `ice_pct_fig8`, `crater_scaling`, `ice_retention`, `ballistic_hop`, `compare_violin`, `kde_layers` and `surface_boxplot`, the choice of the day and the name of
  the saved figure.

Not modelled:

* floating point in the physics formulas (exact reals there; the column loops and the time
  axis are also proved for rounded arithmetic);
* the text of single numbers as Python prints them (parameters of the models of C84 to C86
  and C95);
* argparse's `--`, and in C85 its abbreviations of options and `--cfg=PATH` (those are in C102);
* `read_volcanic_species` (unreachable past the failing option, see C61_nk_refuted),
  `vprint`, `reset_plot_style` and the drawing calls of matplotlib;
* the other figures of `plot_figs.py` and the notebooks; the operating system beyond a finite map of files and a crash between writes.

numpy, pandas, scipy and functools are modelled by their documented behaviour; orders that
they leave open (unstable sorts, set iteration, hashes) are parameters of the model, so
theorems hold for every choice.

## Trusted base

Coq's kernel; the standard library's axioms printed by `Print Assumptions`
(the classical reals: `ClassicalDedekindReals.sig_not_dec`,
`ClassicalDedekindReals.sig_forall_dec`,
`FunctionalExtensionality.functional_extensionality_dep`; where noted
`Classical_Prop.classic`); and the reading of the Python code recorded in the
comments of the `Model_*.v` files.  numpy, pandas and scipy are modelled by
their documented behaviour, not verified.

## Assumptions of each theorem

As listed by `Print Assumptions` (regenerated by `tools/design.py`).

* none (closed under the global context) (96 theorems):
  C99_distinct, C99_default, C99_overwritten_refuted, C99_versions, C102_spelling, C102_two_seeds, C102_written_out, C102_swallowed_refuted, C102_mistakes, C102_unknown, C43_transparent, C43_bounded, C43_least_recent_dropped, C43_failures_not_stored, C43_changed_file_refuted, C43_config_keys, C43_reads_compared, C43_regimes_refuted, C38_seed, C38_seed_kept, C38_command_line_wins, C38_infinite_seed_refuted, C39_user_wins, C39_mode_fills, C39_pole_fills, C39_unknown_mode, C39_unknown_pole, C39_mode_speed_refuted, C40_named_after_seed, C40_seeds_separate, C40_under_given, C40_default, C40_shown_seed_kept, C40_two_seeds_refuted, C40_numeric_directory_refuted, C41_typed, C41_kept, C41_whole_floats, C41_idempotent, C41_false_text_refuted, C41_error_kind_refuted, C70_unknown_option, C70_not_settable, C42_comets, C42_seed_shown, C42_dotdot_refuted, C68_saved_config, C68_new_seed_overwrites_refuted, C69_outputs, C69_inputs, C69_captured_refuted, C67_default_file, C67_portable, C08_coldtraps_independent, C09_batch_equals_stepwise, C09_run_never_fails, C80_rows, C77_blank, C77_files, C77_files_default, C77_files_given_refuted, C72_28_refuted, C99_craters, C48_complete, C48_crash_states, C48_config_first, C48_rerun, C48_run_twice, C48_resume, C48_resume_completes_refuted, C88_saved, C88_saved_again, C88_versions, C88_versions_refuted, C88_guess, C88_latest_refuted, C47_labels, C47_split_join, C47_order_refuted, C47_double_comma_refuted, C95_round_trip, C95_one_line, C95_saved_text, C95_saved_config, C95_default_text, C95_printable, C95_ascii, C95_not_finite, C95_infinite_refuted, C95_twice, C95_commented, C51_same, C51_errors, C51_entries, C51_empty_refuted, C11_no_times.

* `ClassicalDedekindReals.sig_forall_dec` (7 theorems):
  C76_labels, C76_samples, C76_others, C72_hatch, C72_same_hatch, C72_ice_apart, C72_repeats.

* `ClassicalDedekindReals.sig_forall_dec`, `ClassicalDedekindReals.sig_not_dec`, `Classical_Prop.classic`, `FunctionalExtensionality.functional_extensionality_dep` (227 theorems):
  C91_ages, C91_finishes, C91_no_traps, C91_star_refuted, C91_errors_refuted, C91_unseeded_refuted, C99_bsed, C99_comets, C90_basins, C90_total, C90_when, C90_figure, C90_independent, C90_short, C90_line_total, C90_seed_refuted, C90_axis_refuted, C90_percentile_refuted, C85_runs, C85_resume, C85_negative, C85_reproducible, C85_campaign, C85_figure, C86_collected, C86_shipped_totals, C86_again, C86_campaign, C86_reported_refuted, C01_float_formats, C19_power_law, C19_rim_value, C19_nan_distance, C19_transition_refuted, C19_matrix, C20_basin_defined_positive, C20_basin_thickness_positive, C21_increasing, C30_increasing, C30_smaller_than_final, C30_laws, C30_other_transition_refuted, C31_errors, C31_regime_d, C31_regime_e_f, C31_johnson_final_diameter_refuted, C31_collins_monotone, C31_johnson_monotone, C32_table_law, C32_table_increasing, C32_interpolated, C32_scaling, C32_anchor, C52_mixing_ratio, C52_power_law, C52_petro, C52_default_in_table, C80_numbers, C80_crater_list, C80_basin_list, C80_luminosity, C80_hop, C80_melt, C89_means, C89_sums, C89_default, C89_grows, C89_conserved, C89_bins_refuted, C89_max_refuted, C92_axes, C92_labels, C92_speed, C92_thickness, C92_orientale, C92_energy, C92_depth_refuted, C92_depth_all_refuted, C92_depth, C92_bunte, C92_bunte_refuted, C92_radius, C92_radius_basin, C92_series, C92_units_refuted, C84_table, C84_missing_refuted, C84_shipped, C84_ice, C84_ejecta, C84_figure, C84_run, C15_symmetric, C15_range, C15_cosine, C15_unique, C15_zero, C15_triangle, C16_coldtrap_dists, C17_latlon_round_trip, C17_xy_round_trip, C17_north_refuted, C18_youngest_cover, C18_outside, C18_square_only, C18_negative_threshold_refuted, C18_dist_grid, C75_float32, C75_default, C75_outputs, C75_run_agrees, C75_no_limit_refuted, C75_radius_refuted, C75_rectangular_refuted, C75_labels_refuted, C75_label_range, C26_craters, C26_small_impactors, C26_comet_fraction_twice_refuted, C27_nonnegative, C27_slow, C27_decreasing, C27_fits, C27_fraction_refuted, C28_probabilities, C28_power_law, C28_decreasing, C29_increasing, C29_present, C62_counts_positive, C94_scaling, C94_scaling_errors, C94_overlap_refuted, C94_proposal, C94_unit_refuted, C94_retention, C94_fraction_refuted, C94_ong, C94_ong_refuted, C57_flag_ignored, C57_every_row_counts, C60_total, C60_ice_bounded, C57_basins_excluded_refuted, C93_maps, C93_default, C93_rectangular, C93_ejecta_fixed, C93_settings_refuted, C93_threshold_refuted, C93_start_refuted, C93_unseeded_refuted, C93_distances, C93_lines, C93_lines_refuted, C93_units_refuted, C54_values, C54_bounds, C54_no_event, C54_off, C54_off_table, C54_default_total, C54_maximum_depth_refuted, C87_table, C87_seed, C87_twice, C87_total, C87_figure, C87_conserved, C87_seeds, C87_mixing, C87_micrometeorites, C87_volcanic_refuted, C87_comets_off_refuted, C87_max_refuted, C79_settings, C79_no_sedimentation, C79_solar_wind, C79_volcanic, C79_hop, C79_overturn, C82_idle, C82_helps, C82_settings, C82_time, C83_tables, C83_aggregate, C83_figure, C83_known, C35_binary64_refuted, C56_stream_refuted, C63_total_nonnegative, C63_default_sane, C66_polar_sources, C66_impact_sources, C81_finishes, C81_default_traps, C81_traps_listed, C81_north_refuted, C81_nk_refuted, C101_sane, C101_finishes, C88_violin, C88_layers, C88_boxes, C88_marks, C88_campaign, C88_violin_guess_refuted, C88_count_refuted, C88_renamed_refuted, C46_sources, C65_threshold_ignored, C65_thin_ejecta_removed_refuted, C12_float32_axis, C96_figure, C96_fixed, C96_lines, C96_colours, C96_cold_refuted, C96_nearest_refuted, C96_rows_refuted, C79_water, C79_linear, C74_unaffected, C74_depths, C74_given_melt, C74_unaffected_with_sedimentation_refuted.

* `ClassicalDedekindReals.sig_forall_dec`, `ClassicalDedekindReals.sig_not_dec`, `FunctionalExtensionality.functional_extensionality_dep` (17 theorems):
  C91_all_refuted, C91_run_refuted, C91_seed0_refuted, C21_range_equation, C21_bounds, C21_escape, C15_square_roots_defined, C26_micrometeorites, C29_positive, C36_comet_range_refuted, C101_entries, C101_no_target, C101_coldest, C98_limits_refuted, C71_tables, C71_entries, C71_cold.

* `ClassicalDedekindReals.sig_forall_dec`, `Classical_Prop.classic`, `FunctionalExtensionality.functional_extensionality_dep` (3 theorems):
  C53_errors, C53_table_values, C53_bounds.

* `ClassicalDedekindReals.sig_forall_dec`, `FunctionalExtensionality.functional_extensionality_dep` (183 theorems):
  C91_seed, C91_random, C91_twice, C91_counts, C91_inset, C91_run, C99_mark, C99_mark_errors, C90_ends_refuted, C86_totals, C86_failed, C01_garden_only_removes, C01_garden_only_removes_exact, C02_ejecta_shields, C02_ejecta_shields_rounded, C03_total_bound_refuted, C03_no_multiple_bounds_removal, C03_layer_bound, C03_total_bound_half_eff, C03_thick_top_layer_exact, C04_garden_layerwise, C04_garden_index_error, C05_erode_total, C05_erode_topdown, C05_erode_never_fails, C05_erode_safe_rounded, C06_buried_shield_refuted, C06_shield_at_surface, C07_run_never_creates_ice, C07_run_keeps_coldtraps, C97_seeds, C97_seeds_refuted, C97_seeds_errors, C97_bsed, C97_bsed_few, C97_version, C97_order, C97_fig7, C97_fig8, C97_fig8_errors, C97_version_refuted, C25_knots, C25_linear, C25_neighbours, C25_monotone, C25_outside, C25_total, C80_no_file, C89_parts, C89_even, C76_columns_unchanged, C76_runs_unchanged, C76_unchanged_refuted, C77_axes, C77_depth, C77_saved, C77_errors, C77_one_scale_refuted, C78_code, C78_white_refuted, C78_short_refuted, C78_errors, C78_linear, C78_ends, C78_nan, C78_single_refuted, C78_default, C75_axes, C75_extent, C75_extent_refuted, C100_coefficients, C100_same, C100_rises, C100_rises_refuted, C100_positive, C100_positive_refuted, C100_units, C22_conserves_mass, C22_linear, C22_monotone, C22_other_species, C23_values, C23_total, C61_head_only, C61_nk_refuted, C61_unknown, C24_modes, C24_range, C24_at_table_times, C28_diameters, C28_coarse_step, C33_values, C33_unknown_coldtrap, C55_costello, C55_increasing, C55_cannon, C94_hop, C94_hop_missing, C94_hop_shipped, C53_rank_bilinear, C53_linear_in_mixing_ratio_refuted, C53_independent_of_other_queries_refuted, C87_bars, C79_column, C99_order, C99_order_refuted, C58_rows, C58_totals, C58_errors, C58_no_thin, C58_run, C58_merged_refuted, C58_all_thin_refuted, C59_exact, C59_amounts, C59_run, C59_errors, C59_no_formation_row, C59_times_refuted, C72_ranges, C72_run_stacked, C72_source, C72_errors, C73_colour, C73_own_colour, C73_own_colour_refuted, C73_reproducible_refuted, C34_exclusive, C34_labels, C35_rounding, C35_array, C36_supports, C37_weights, C37_default_weights, C37_cdf, C37_samples, C64_choice, C56_marks_off, C88_guessed, C88_above, C88_p99_refuted, C98_curves, C98_bars, C44_totals, C44_layers, C44_youngest, C44_formation_row, C44_errors, C45_depth, C45_depth_steps, C45_layers_nonneg, C45_ice_percentage, C46_minor_sources, C46_row_label, C49_defined, C49_neighbours, C49_maximum, C49_uniform, C49_hot_refuted, C49_closed_system_refuted, C50_meaning, C50_fraction, C50_cold, C50_at_melting, C50_more_time, C50_minus_one, C50_negative, C50_hot_target_refuted, C10_time_axis, C10_count, C10_errors, C10_ends_ignore_timeend, C10_timeend_refuted, C11_placement, C11_first_nearest_unique, C11_total_preserved, C12_perturbed_grid, C13_round_to_ts, C13_monotone, C14_random_ages, C14_support_is_error_bar, C14_two_sigma, C96_shipped.

## Claims the code violates

Theorems named `..._refuted`, with the comment above each.
* `C03_total_bound_refuted`: One pass can remove more ice than its depth: the depth of the ice that is left, not of the ice removed, is counted, so a pass goes deeper than its depth.
* `C06_buried_shield_refuted`: Ice below a buried layer of ejecta above the shield thickness is eroded: only the youngest layer shields.
* `C100_positive_refuted`: It always takes heat: false at 1 K.
* `C100_rises_refuted`: Warmer regolith always takes more heat: false from 600 K to 640 K.
* `C102_swallowed_refuted`: The number after the options is the seed: false if --cfg is the last of them and has no file; the number is the file then.
* `C10_timeend_refuted`: The documented axis (steps of timestep, ending one step above timeend) fails for a non-zero timeend although timestep divides the span.
* `C17_north_refuted`: North of the equator the latitude comes back with the opposite sign.
* `C18_negative_threshold_refuted`: Negative thresholds mean "no limit" for cold trap distances (C16), but here no crater covers any cell.
* `C19_transition_refuted`: The documented law fails at the transition: such a crater throws no ejecta at any distance.
* `C26_comet_fraction_twice_refuted`: Stochastic regimes: of [nc] comet craters a draw is icy with probability [p] (icy exactly for draws below [p]); the expected number [nc * p] is the square of the comet fraction times the count of a run without comets, not the comet fraction.
* `C27_fraction_refuted`: It is not a fraction: more than all the ice is retained at 10 km/s.
* `C30_other_transition_refuted`: Raising simple2complex, alone, makes the function decrease somewhere: the law inside keeps 18 km.
* `C31_johnson_final_diameter_refuted`: The law is documented (2384-2388) for the final diameter; for every diameter the computed impactor is smaller than that law's.
* `C35_binary64_refuted`: In binary64 the largest draw below 1 rounds the integer 1 up to 2.
* `C36_comet_range_refuted`: Comet speeds need not lie in [comet_speed_min, comet_speed_max]: with the default settings some stream gives a slower comet and some stream a faster one.
* `C38_infinite_seed_refuted`: An infinite seed is neither replaced by a random one nor reported as a bad seed: the OverflowError of int() escapes.
* `C39_mode_speed_refuted`: The impact speed of the mode is never used: without a speed from the user it is 20 km/s in both modes, though the table of the default mode says 17 km/s.
* `C40_numeric_directory_refuted`: ... and a directory named by a number is taken for an old seed and dropped, so that two different out_paths share the directory.
* `C40_two_seeds_refuted`: "Prevent overwrites" fails for a path that shows both seeds ...
* `C41_error_kind_refuted`: Nor is every failure the documented ValueError.
* `C41_false_text_refuted`: "Raise error if invalid" fails: the text 'False' given for a switch turns it on, and a fraction given for an integer is cut.
* `C42_dotdot_refuted`: An out_path that shows the seed only before a ".." breaks this: the comet configuration then points to other output files.
* `C43_changed_file_refuted`: Without the clear a changed file is not seen: this is why main clears the caches.
* `C43_regimes_refuted`: A function that reads impact_regimes could not be: two configurations that differ there are one key.
* `C47_double_comma_refuted`: A cold trap without a source leaves an empty entry between two commas.
* `C47_order_refuted`: The label of one cell depends on the iteration order of a Python set.
* `C48_resume_completes_refuted`: Resuming completes a run that was broken off: false. A run into a new output directory that is broken off after its first step and before its last is never completed: --resume does nothing, and the last file is missing or cut short.
* `C49_closed_system_refuted`: A step does not conserve heat: the warm element loses more than three times what the cold one gains.
* `C49_hot_refuted`: Above that range the step is unstable: it gives a temperature below absolute zero.
* `C50_hot_target_refuted`: "Fraction heated above melt_t": a target that is hot from the start counts as not melted when it is in equilibrium with the ejecta.
* `C51_empty_refuted`: Except for no ratio at all: an empty array from one process, an exception from several.
* `C53_independent_of_other_queries_refuted`: The result for one crater depends on which other craters are in the table: 5 gives 1/2 on its own and 1/3 next to a query of 9.
* `C53_linear_in_mixing_ratio_refuted`: A single query anywhere between the labels 0 and 10 gives the middle of their values, and not the value interpolated at the mixing ratio.
* `C54_maximum_depth_refuted`: Two equal craters of one step stir twice as deep as either of them, not the maximum.
* `C56_stream_refuted`: Same seed, same positions; the asteroid pass with basin ice on ends later on the stream by the number of hydrated C-type basins, so the comet pass that follows reads other random numbers (its position is not kept "for repro"). The part of the asteroid ice that is not from basins is the same.
* `C57_basins_excluded_refuted`: With ejecta_basins off a cold trap still receives the ejecta of a basin.
* `C58_all_thin_refuted`: A column of thin layers only is a KeyError.
* `C58_merged_refuted`: The documented merging of thin layers does not happen: their ice is lost.
* `C59_times_refuted`: The list of times is not cut as the lists of ice and depths are.
* `C61_nk_refuted`: The documented mode "NK" always fails: it reads an option that does not exist.
* `C65_thin_ejecta_removed_refuted`: The docstring's claim: thickness below thickness_min is set to 0.
* `C68_new_seed_overwrites_refuted`: A seed given on the command line with a saved configuration: the second run overwrites the outputs of the first.
* `C69_captured_refuted`: A file that happens to have the default name in the working directory captures the output of a default run: it is not written to the output directory.
* `C72_28_refuted`: The comment in the code says that there are 28 different hatches; there are 35.
* `C73_own_colour_refuted`: Another layer's percentage can show: a fresh sheet of ejecta without ice and a layer that is half ice get the same colour when their names' hashes collide.
* `C73_reproducible_refuted`: The picture of one file depends on the interpreter's hashes, which change from process to process.
* `C74_unaffected_with_sedimentation_refuted`: With the same random numbers, B ends with another amount of ice when C, whose ejecta reach B either way, is also simulated as a cold trap.
* `C75_extent_refuted`: The documented extent (get_grid_arrays: x from -xsize to xsize) is left by every other grid.
* `C75_labels_refuted`: The loop takes the index label of a row as its position. Rows labelled in another order, as after sorting, exchange distances: the thickness of each crater is computed with its own radius at the other's distances.
* `C75_no_limit_refuted`: A negative threshold means no limit for the run (C16), but no ejecta anywhere in the grid.
* `C75_radius_refuted`: Distances on the grid are not those on the configured Moon (cfg.rad_moon), but those of the same coordinates on a Moon of 1737.4 km.
* `C75_rectangular_refuted`: Documented for any sizes (results of shape (Ny, Nx)): a grid with more columns than rows or more rows than columns is an error.
* `C76_unchanged_refuted`: On other axes it recolours what it takes a sample of.
* `C77_files_given_refuted`: A run that was given a directory is not found.
* `C77_one_scale_refuted`: The axes of the runs do not share one depth scale: the depth only grows from run to run.
* `C78_short_refuted`: A short code is not read as matplotlib reads it: "#fff" is almost black.
* `C78_single_refuted`: A list of one colour is a colour map that cannot be used.
* `C78_white_refuted`: So white is not quite white, as 255 stands for the full colour.
* `C81_nk_refuted`: The other documented volcanic mode never works, with any files, options and numbers.
* `C81_north_refuted`: The other documented pole never works with the shipped files: its default cold traps are in neither list.
* `C84_missing_refuted`: A crater whose name pandas takes for a missing value does not come back: its layers have no label.
* `C86_reported_refuted`: The day is aggregated, once and again; Faustini is asked for and left out without an error.
* `C87_comets_off_refuted`: With comets switched off (impact_ice_comets) the figure shows their ice all the same.
* `C87_max_refuted`: What the legend calls the maximum of a depth is the mean of the period.
* `C87_volcanic_refuted`: The volcanic ice (and the solar wind ice) of the figure is twice that of any run.
* `C88_count_refuted`: The title of the violins tells how many runs are in each of them: false. A run with less than 1 m of ice is counted and not drawn.
* `C88_latest_refuted`: The day that is taken is the last one: false, if the operating system lists it first.
* `C88_p99_refuted`: The mark that is named "p99" is the 99th percentile: false, it is the 95th. Of two runs with 0 and 1 m of ice it is at 0.95 m.
* `C88_renamed_refuted`: Runs keep apart when they are renamed: false for names that change places.
* `C88_versions_refuted`: Two versions always give two files: false. A version is taken to be in the path if it is the start of another version there, and the figure of the other version is overwritten.
* `C88_violin_guess_refuted`: Without a day, all figures take the same one: false. The violins are looked for in the working directory.
* `C89_bins_refuted`: The number of bins that is asked for is never used.
* `C89_max_refuted`: The shade "Max Gardening depth" on the right is no depth that is ever reached: it is the sum of the depths of all steps so far, although gardening starts anew at each step.
* `C90_axis_refuted`: The times of the figure are those of the configuration that is given: no. [mp.get_time_array()] is called without it.
* `C90_ends_refuted`: The moving average of equal numbers is this number: no, both ends have two numbers of three, and so a third less.
* `C90_percentile_refuted`: At most 0.3 percent of the runs have more ice than the percentile line: no. Ice of a basin comes in one step, and the mean of three steps is a third of it.
* `C90_seed_refuted`: The figure is made from its arguments: no. [get_crater_basin_list] and [get_basin_ice] are called without a generator, so each makes one with fresh random numbers; the seeds that the figure puts into the configuration are not used.
* `C91_all_refuted`: Refuted: "the counts of a crater are all its ages". The bins end at 4.195 Ga; for Haworth of the crater list, of 4.18 Ga with errors of 0.02, ages of 4.20 Ga are possible, and if all are, none of the 100 is counted.
* `C91_errors_refuted`: Refuted: "the error bars are the intervals of the catalogue". They are drawn around the random age, so a bar can reach beyond the interval, here by its whole lower error.
* `C91_run_refuted`: Refuted: "the ages of a seed are those of the run with this seed". A run first draws a number for each basin.
* `C91_seed0_refuted`: Refuted: "the figure of a configuration is always the same, as its seeds are fixed". The first seed is 0, which the configuration replaces by a random seed.
* `C91_star_refuted`: Refuted: "a star marks a basin that has brought ejecta to a cold trap". The comment in the code says that the basin hits, but the ages are not compared: here every cold trap is younger than the basin with the star, so nothing of it lies on any.
* `C91_unseeded_refuted`: Refuted: "the figure of a configuration is always the same". Its list is made without the seed of the configuration.
* `C92_bunte_refuted`: Should be: "Bunte Breccia, KE_min" is the energy at the end of the deposit, four radii (48 km) from the centre of Ries. To the nearest hundred that is 1400: the line at 1500 is from 120 m closer.
* `C92_depth_all_refuted`: So no point of the panel is right: none is at two radii.
* `C92_depth_refuted`: Should be: the depth at a distance is the thickness there times the mixing ratio there (as in a run, C54). It is the thickness times the mixing ratio at one diameter, wherever the point is: too deep closer than two radii, too shallow beyond.
* `C92_units_refuted`: Should be: numbers along an axis are in the unit that the axis names. The axes name kilometres and hold metres: a crater whose label gives a diameter of 0.2 (km) is at 100 on the axis "Radius [km]", and ejecta that is 4 mm thick 1 km away is at 0.004 of a kilometre.
* `C93_lines_refuted`: Refuted: "a line drawn for a crater is at the distance of that crater". A name that is not a cold trap gets the line of the first cold trap, here a quarter around the Moon.
* `C93_settings_refuted`: Refuted: "the maps are those of the configuration". Of all settings only dtype, the grid and the time step matter: not the thresholds of ejecta, the sizes and densities, the start of time or the radius, with which a run makes its own grids (C75).
* `C93_start_refuted`: Refuted: "ages start at 4.25 Ga". A line can be older and is shown with its own age.
* `C93_threshold_refuted`: Refuted: "no ejecta is shown beyond the threshold of the configuration". Here nothing is within the thresholds, and a run puts no ejecta anywhere.
* `C93_units_refuted`: Refuted: "the axis of the upper panel is in crater radii", as its label says. Every point is at a distance in m; the column of distances in crater radii is not used.
* `C93_unseeded_refuted`: Refuted: "the map of ages of a configuration is always the same". Its list is made without the seed of the configuration.
* `C94_fraction_refuted`: Fractions are between 0 and 1, as written along the axis: just above 10 km/s all three curves are above 1.
* `C94_ong_refuted`: The curves of this work are a fit to those data: at 60 km/s they are more than 90 times the datum there.
* `C94_overlap_refuted`: An impactor size is in one regime: with the shipped regimes the complex craters start (15 km) with impactors of less than 584 m, while the simple ones end, at the same diameter, with more than 740 m.
* `C94_unit_refuted`: The impactors are in km, as written along the axis: those of a crater of 15 km would be larger than 740 km.
* `C95_infinite_refuted`: A configuration file with a literal beyond the doubles loads; the file the run saves does not.
* `C96_cold_refuted`: Refuted: "the image shows the fraction that the model of melting gives". With the shipped table it shows 100 % for 107 K and 99 % ejecta; the fraction is 0 below 110 K.
* `C96_nearest_refuted`: Refuted: "the image shows the entry of the nearest column and row". With the shipped table it shows 67.6 % for 111 K and 97.4 % ejecta, where the entry for 110 K and 97.5 % is 0.
* `C96_rows_refuted`
* `C97_seeds_refuted`: With another number of cold traps they are not: with four, the second letter is on the empty axis between the first two seeds and the third on the last cold trap of the second seed.
* `C97_version_refuted`: The version is not at the right end of the figure if the last cold trap has no file.
* `C98_limits_refuted`
* `C99_order_refuted`: Older craters come first without exception: false, Faustini is before Haworth.
* `C99_overwritten_refuted`: In another directory the figures of two versions are never written over each other: false for the layers of the runs and for the retention of ice, whose names have no version.
