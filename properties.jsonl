{"id": "C01", "title": "Gardening only ever removes ice, never makes a layer negative", "statement": "garden_ice_column(ice, ej, t, depth, eff) with 0<=eff<=1 and non-negative ice returns a column of the same length in which every layer is between 0 and its old value, layers younger than t are untouched, and the ejecta column is not an output. This holds for exact arithmetic and for every monotone rounding of each operation (so also for the float32/float64 mix the program runs with, overflow aside).", "quantifier": "all columns of any length, all t (including -1), all depths and eff in [0,1], all monotone idempotent rounding functions", "why_tests_cant": "The loop interleaves two arrays and a running depth; a rounding slip below zero depends on one particular combination of values.", "anchors": ["moonpies/moonpies.py:garden_ice_column"]}
{"id": "C02", "title": "Ejecta shields deeper ice from gardening", "statement": "In garden_ice_column, an ice layer k<=t for which the ejecta lying above it, ej[k]+...+ej[t], is at least depth is returned unchanged. In floating point the same holds below any single ejecta layer that is at least depth thick.", "quantifier": "all columns, t, depth>0, eff in [0,1], all k", "why_tests_cant": "Needs every placement of the shielding layer in columns of every length.", "anchors": ["moonpies/moonpies.py:garden_ice_column"]}
{"id": "C03", "title": "How much ice one gardening pass can remove", "statement": "The documented bound 'only remove enough to reach depth' (total removed <= depth) is violated by the code: there are columns from which one call removes more than depth metres, because removed ice is not counted towards the depth reached. What holds for all inputs: each single layer loses at most depth minus the ejecta above it, and at most eff times its ice; and if the first ice layer reached holds at least 2*(depth - ejecta above) then exactly depth - ejecta is removed from it and nothing deeper changes (eff=1).", "quantifier": "all non-negative columns, all t, all positive depths; existential witness for the violated bound", "why_tests_cant": "The repository's own test for this function states the bound on fixed arrays; a bound on all columns cannot be sampled.", "anchors": ["moonpies/moonpies.py:garden_ice_column", "test/test_moonpies.py:test_garden_ice_column"]}
{"id": "C04", "title": "Exact effect of one gardening pass, layer by layer", "statement": "The column returned by garden_ice_column equals the one obtained by walking the layers from t downward, once per layer: stop when the depth reached is at least depth; otherwise add the layer's ejecta, stop again if depth is reached, otherwise remove min(ice*eff, depth - reached) and add the ice that is left to the depth reached. It raises IndexError exactly when a visited layer is outside the arrays.", "quantifier": "all columns, t, depth, eff", "why_tests_cant": "Equality with a layer-wise specification for every column, not for samples.", "anchors": ["moonpies/moonpies.py:garden_ice_column"]}
{"id": "C05", "title": "Cannon-style erosion removes exactly the erosion depth, from the top down", "statement": "erode_ice_cannon(ice, ej, t, depth, shield) with non-negative ice changes nothing if the most recent ejecta thicker than shield in 0..t is at t; otherwise the total ice removed is exactly min(depth, total ice in layers 0..t), a layer is touched only if every younger layer up to t is emptied, layers after t are untouched and no layer becomes negative.", "quantifier": "all non-negative columns, t, depth>=0, shield", "why_tests_cant": "The total is a statement about sums over arbitrary columns and partial layers.", "anchors": ["moonpies/moonpies.py:erode_ice_cannon"]}
{"id": "C06", "title": "Cannon-style erosion does not respect a buried shield", "statement": "The documented idea that ejecta thicker than ej_shield is an erosion base that protects the ice below it is violated by the code: there are columns where erosion starting above a shield layer removes ice from below it. What holds: a shield deposited in the current timestep t protects the whole column.", "quantifier": "all columns whose layer t exceeds the shield; existential witness for the violation", "why_tests_cant": "The tests never place enough erosion above a buried shield.", "anchors": ["moonpies/moonpies.py:erode_ice_cannon"]}
{"id": "C07", "title": "A whole simulation never creates ice", "statement": "After update_strat_cols over any number of timesteps and cold traps every ice layer is between 0 and the amount initially delivered to it, and ejecta columns and source labels are unchanged, in both gardening modes, for exact arithmetic and for every monotone rounding.", "quantifier": "all sets of cold traps, all column lengths, all overturn and ballistic sedimentation histories with fractions in [0,1]", "why_tests_cant": "It is an invariant over the whole update history.", "anchors": ["moonpies/moonpies.py:update_strat_cols", "moonpies/moonpies.py:update_ice_col", "moonpies/moonpies.py:remove_ice_overturn"]}
{"id": "C08", "title": "Cold traps evolve independently", "statement": "The column update_strat_cols returns for a cold trap depends only on that cold trap's own initial column, its own column of the ballistic-sedimentation arrays and the overturn history; adding, removing or reordering other cold traps does not change it.", "quantifier": "all lists of distinct cold traps, all histories", "why_tests_cant": "Non-interference quantifies over pairs of runs.", "anchors": ["moonpies/moonpies.py:update_strat_cols"]}
{"id": "C09", "title": "Pre-computing ice delivery is equivalent to depositing ice step by step", "statement": "Running update_strat_cols on full-length pre-computed columns gives the same final column as a simulation that starts empty and at each timestep applies ballistic sedimentation to what is already there, then lays down that timestep's ice and ejecta, then applies overturn: no process ever reads or changes a layer that has not been deposited yet.", "quantifier": "all histories of any length, both gardening modes", "why_tests_cant": "Causality is a relation between two programs over all histories.", "anchors": ["moonpies/moonpies.py:update_ice_col", "moonpies/moonpies.py:update_strat_cols"]}
{"id": "C10", "title": "Model time axis", "statement": "get_time_array returns n = trunc((timestart-timeend)/timestep) times, the first is timestart; if timeend = 0 and timestep divides timestart, time i is exactly timestart - i*timestep and the last is timestep. It raises ValueError for a negative count and ZeroDivisionError for timestep 0. For timeend != 0 the documented axis (steps of timestep down to timeend) is violated: the last time is always timestep, whatever timeend is.", "quantifier": "all integer timestart, timeend, timestep", "why_tests_cant": "Tests use the default axis only.", "anchors": ["moonpies/moonpies.py:get_time_array"]}
{"id": "C11", "title": "Placing dated events on the time axis keeps every in-range event exactly once", "statement": "ages2time drops exactly the events whose age is outside [min(time)-rtol, max(time)+rtol]; every other event contributes exactly once, at the first time nearest to its age, combined in list order with the aggregator; times with no event hold the fill value; with summation the total over time equals the total of the in-range values.", "quantifier": "all time arrays, event lists and aggregators", "why_tests_cant": "Quantifies over all multisets of coinciding ages.", "anchors": ["moonpies/moonpies.py:ages2time"]}
{"id": "C12", "title": "Event placement is immune to time-axis rounding", "statement": "If every stored time differs from the exact grid time by less than half a timestep (as float32 rounding does), an event whose age is an exact grid time is placed at the index of that grid time by ages2time, and nowhere else.", "quantifier": "all uniform time grids, all perturbations below half a step", "why_tests_cant": "All perturbations, not the one float32 produces.", "anchors": ["moonpies/moonpies.py:ages2time", "moonpies/moonpies.py:get_time_array"]}
{"id": "C13", "title": "Rounding ages to the timestep", "statement": "round_to_ts(v, ts) for ts>0 is an integer multiple of ts at distance at most ts/2 from v, is v itself when v is a multiple, breaks ties to the even multiple and is monotone.", "quantifier": "all real v, ts>0", "why_tests_cant": "All reals, ties included.", "anchors": ["moonpies/moonpies.py:round_to_ts"]}
{"id": "C14", "title": "Randomised crater ages stay within their error bars and the list is complete and ordered", "statement": "randomize_crater_ages returns the same craters with only the age column changed, sorted from oldest to youngest, and each new age is a multiple of timestep within half a timestep of [age-age_low, age+age_upp], for every draw the truncated normal can make. Errors that are equal on both sides are two standard deviations of the distribution.", "quantifier": "all crater lists, all draws in the support of the distribution", "why_tests_cant": "All random draws.", "anchors": ["moonpies/moonpies.py:randomize_crater_ages"]}
{"id": "C15", "title": "Great-circle distance is the spherical distance", "statement": "gc_dist is well defined for all coordinates (the arguments of both square roots are never negative), is symmetric, lies in [0, pi*rp], satisfies cos(gc_dist/rp) = dot product of the two unit position vectors, is 0 exactly for coincident points and satisfies the triangle inequality.", "quantifier": "all real longitudes and latitudes, all rp>0", "why_tests_cant": "Metric laws over all coordinates.", "anchors": ["moonpies/moonpies.py:gc_dist"]}
{"id": "C16", "title": "Crater to cold trap distances are kept exactly inside the ejecta blanket", "statement": "Entry (i,j) of get_coldtrap_dists is a number exactly when crater i is not cold trap j and rad_i < d_ij < threshold*rad_i, and then equals the great-circle distance; otherwise it is NaN. The threshold is basin_ej_threshold for basins and ej_threshold for craters, and a negative threshold means no outer limit.", "quantifier": "all crater lists with positive radii, all cold trap lists, all thresholds", "why_tests_cant": "All combinations of flags, thresholds and distances.", "anchors": ["moonpies/moonpies.py:get_coldtrap_dists"]}
{"id": "C17", "title": "Polar map projection round trip", "statement": "xy2latlon(latlon2xy(lat, lon)) = (lat, lon) for -90 < lat <= 0 and -180 < lon <= 180, and latlon2xy(xy2latlon(x,y)) = (x,y) for x^2+y^2 <= rp^2. For northern latitudes the round trip is violated: it returns -lat.", "quantifier": "all reals in the stated ranges", "why_tests_cant": "Round trips over a continuum.", "anchors": ["moonpies/moonpies.py:latlon2xy", "moonpies/moonpies.py:xy2latlon"]}
{"id": "C18", "title": "Age map shows the youngest blanket covering each point", "statement": "Each cell of get_age_grid is the smallest age among craters whose distance to the cell is below rad*threshold, and timestart if there is none. The configured meaning of a negative threshold (no limit) is violated here: a crater with threshold -1 never covers any cell.", "quantifier": "all crater lists, all grids", "why_tests_cant": "All orderings and overlaps of blankets.", "anchors": ["moonpies/moonpies.py:get_age_grid"]}
{"id": "C19", "title": "Ejecta thickness law", "statement": "get_ejecta_thickness for simple and complex craters is positive, strictly decreasing in distance for a negative exponent and continuous-power-law in distance; a NaN distance gives 0; a radius of exactly simple2complex/2 falls between the cases and gives 0 (the documented law is violated there).", "quantifier": "all distances and radii >0, all negative exponents", "why_tests_cant": "All reals; the boundary value has measure zero in samples.", "anchors": ["moonpies/moonpies.py:get_ejecta_thickness", "moonpies/moonpies.py:get_ej_thick_simple", "moonpies/moonpies.py:get_ej_thick_complex"]}
{"id": "C20", "title": "Basin ejecta thickness is positive up to the antipode", "statement": "get_ej_thick_basin is positive for every distance d >= transient radius R>0 with d + R/8 < pi*rad_moon (exponent any real), in particular all the square roots, quotients and tangents in it are well defined there.", "quantifier": "all distances and radii in the range", "why_tests_cant": "Trigonometric formula over a continuum.", "anchors": ["moonpies/moonpies.py:get_ej_thick_basin", "moonpies/moonpies.py:ballistic_velocity"]}
{"id": "C21", "title": "Ballistic velocity", "statement": "ballistic_velocity(d) for 0<d<pi*rad_moon and an angle strictly between 0 and 90 degrees is well defined, positive, strictly increasing in d and below sqrt(g*rad)/cos(angle), the escape velocity at 45 degrees.", "quantifier": "all distances and angles in range", "why_tests_cant": "Continuum.", "anchors": ["moonpies/moonpies.py:ballistic_velocity"]}
{"id": "C22", "title": "Ice mass to thickness", "statement": "get_ice_thickness is linear and monotone in the mass, and thickness*area*density = mass*ballistic_hop_effcy, for non-zero density and area of the chosen species.", "quantifier": "all masses and positive parameters", "why_tests_cant": "All reals.", "anchors": ["moonpies/moonpies.py:get_ice_thickness"]}
{"id": "C23", "title": "Volcanic ice is delivered only inside its epochs", "statement": "volcanic_ice_head delivers ice_late at times in (lmin, lmax], ice_early at times in (emin, emax] not in the late epoch and 0 at every other time, so the total is the number of times in each epoch times its rate.", "quantifier": "all time arrays and epochs, overlapping or empty ones included", "why_tests_cant": "All epoch overlaps.", "anchors": ["moonpies/moonpies.py:volcanic_ice_head"]}
{"id": "C24", "title": "Solar wind ice", "statement": "solar_wind_ice_mass accepts exactly the two mode names (in any letter case) and raises ValueError otherwise; every value lies between the supply per timestep times the smallest and times the largest tabulated luminosity (or equals the supply when faint_young_sun is off).", "quantifier": "all mode strings, all time arrays, all luminosity tables with increasing times", "why_tests_cant": "All strings and tables.", "anchors": ["moonpies/moonpies.py:solar_wind_ice_mass", "moonpies/moonpies.py:get_solar_wind_ice"]}
{"id": "C25", "title": "Linear interpolation", "statement": "np.interp as used by the program (luminosity, impactor length) returns knot values at knots, stays between the neighbouring knot values, is monotone for monotone tables and constant outside the table.", "quantifier": "all tables with strictly increasing abscissae, all query points", "why_tests_cant": "All tables.", "anchors": ["moonpies/moonpies.py:solar_wind_ice_mass", "moonpies/moonpies.py:diam2len_prieur"]}
{"id": "C26", "title": "Every impactor is either an asteroid or a comet", "statement": "For small impactors and for crater populations, the count used in the asteroid pass plus the count used in the comet pass equals the total count of a run without comets. The same accounting is violated for the stochastic regimes (d, e): the comet fraction is applied to the crater count and again to the hydration probability, so the expected number of icy comets is comet_ast_frac^2 times the total.", "quantifier": "all populations and fractions", "why_tests_cant": "All parameter values.", "anchors": ["moonpies/moonpies.py:get_impactors_brown", "moonpies/moonpies.py:get_crater_pop", "moonpies/moonpies.py:get_random_hydrated_craters", "moonpies/moonpies.py:get_ice_stochastic"]}
{"id": "C27", "title": "Ice retention factor", "statement": "ice_retention_factor is never negative, equals 0.5 below 10 km/s for asteroids and 1 for comets, and strictly decreases with speed from 10 km/s on in both modes. That it is a fraction (<= 1) is violated: at 10 km/s it exceeds 1 in both modes.", "quantifier": "all speeds, both modes, asteroids and comets", "why_tests_cant": "Continuum.", "anchors": ["moonpies/moonpies.py:ice_retention_factor"]}
{"id": "C28", "title": "Size-frequency probabilities", "statement": "get_sfd_prob returns one probability per diameter, each positive, summing to 1 and strictly decreasing in diameter for a negative slope; get_diam_array returns sorted diameters starting at dmin and ending at dmax.", "quantifier": "all diameter arrays and slopes", "why_tests_cant": "Sums over arbitrary arrays.", "anchors": ["moonpies/moonpies.py:get_sfd_prob", "moonpies/moonpies.py:get_diam_array"]}
{"id": "C29", "title": "Impact flux", "statement": "impact_flux is positive and strictly increasing in time before present, and impact_flux_scaling is 1 at present and at least 1 in the past.", "quantifier": "all times", "why_tests_cant": "Continuum.", "anchors": ["moonpies/moonpies.py:impact_flux", "moonpies/moonpies.py:impact_flux_scaling"]}
{"id": "C30", "title": "Final to transient crater diameter", "statement": "final2transient assigns every diameter to exactly one scaling law, is strictly increasing over all positive diameters with the default transitions and returns a diameter smaller than the final one. With a changed simple2complex it stops being increasing, because the law inside keeps the default transition.", "quantifier": "all positive diameters", "why_tests_cant": "Monotonicity across the case boundaries.", "anchors": ["moonpies/moonpies.py:final2transient", "moonpies/moonpies.py:f2t_melosh", "moonpies/moonpies.py:f2t_croft"]}
{"id": "C31", "title": "Impactor size scaling", "statement": "diam2len raises ValueError exactly for regimes other than c, d, e, f; the Collins and Johnson laws are positive, strictly increasing in crater diameter and strictly decreasing in speed, and inverting them recovers the crater diameter.", "quantifier": "all positive inputs, all regime strings", "why_tests_cant": "Continuum, all strings.", "anchors": ["moonpies/moonpies.py:diam2len", "moonpies/moonpies.py:diam2len_collins", "moonpies/moonpies.py:diam2len_johnson"]}
{"id": "C32", "title": "Impactor size for small craters is interpolated from an increasing table", "statement": "The table that diam2len_prieur inverts is strictly increasing in impactor length for positive parameters, so the interpolation is well posed and the result is monotone in the crater diameter and lies inside the table.", "quantifier": "all positive inputs", "why_tests_cant": "Continuum.", "anchors": ["moonpies/moonpies.py:diam2len_prieur"]}
{"id": "C33", "title": "Ice reaching each cold trap", "statement": "get_ice_cols_time gives cold trap j at time t polar[t]*hop_j/hop + volc[t]*volc_effcy/hop in the default mode; without use_volc_dep_effcy volcanic ice hops like polar ice; without ballistic_hop_moores all cold traps get the same ice; all entries are non-negative for non-negative inputs.", "quantifier": "all flag combinations, times and cold traps", "why_tests_cant": "All combinations of flags with in-place updates.", "anchors": ["moonpies/moonpies.py:get_ice_cols_time"]}
{"id": "C34", "title": "Basin impactor types are exclusive", "statement": "In a run with comets no basin is marked both hydrated C-type and comet by get_random_hydrated_basins, for every random draw; random_icy_basins marks a basin comet only if both flags are on and hyd_ctype only if basin ice is on.", "quantifier": "all draws in [0,1), all fractions in [0,1], all flags", "why_tests_cant": "All random draws.", "anchors": ["moonpies/moonpies.py:get_random_hydrated_basins", "moonpies/moonpies.py:random_icy_basins"]}
{"id": "C35", "title": "Probabilistic rounding", "statement": "probabilistic_round(x) with a uniform draw u in [0,1) returns floor(x) or floor(x)+1, returns x itself for integer x, and rounds up exactly when u >= 1 - frac(x), an interval of length frac(x). In binary64 arithmetic the integer case is violated: for x=1 and the largest draw below 1 the result is 2.", "quantifier": "all reals x, all draws", "why_tests_cant": "Depends on single extreme draws.", "anchors": ["moonpies/moonpies.py:probabilistic_round"]}
{"id": "C36", "title": "Impactor speed supports", "statement": "Asteroid speeds are never below escape_vel, for every draw. That comet speeds lie in [comet_speed_min, comet_speed_max] is violated: with the defaults the support of both comet populations reaches outside.", "quantifier": "all draws in the support", "why_tests_cant": "The extreme draws have negligible probability in tests.", "anchors": ["moonpies/moonpies.py:asteroid_speed_rv", "moonpies/moonpies.py:comet_speed_rv", "moonpies/moonpies.py:get_random_impactor_speeds"]}
{"id": "C37", "title": "Mixture distributions", "statement": "rv_mixture normalises positive weights to sum 1, raises ValueError exactly when the numbers of weights and submodels differ, its cdf is monotone with values in [0,1] whenever the submodels' are, cdf+sf=1, and each sample is a sample of the chosen submodel.", "quantifier": "all weights and submodels", "why_tests_cant": "All distributions.", "anchors": ["moonpies/moonpies.py:rv_mixture"]}
{"id": "C38", "title": "Seeds", "statement": "A Cfg's seed is the integer given if that is non-zero and otherwise (0, None or not a number) a random one in 1..99998; it is never 0, so rebuilding a Cfg from to_dict() keeps the seed.", "quantifier": "all seed values, all random draws", "why_tests_cant": "All inputs.", "anchors": ["moonpies/config.py:_get_random_seed"]}
{"id": "C39", "title": "Mode and pole defaults never override the user", "statement": "After construction every option of the mode and pole tables holds the user's value if one was given and the table's value if it was None. The mode's impact_speed_mean is never applied (defect): it stays at its field default in both modes.", "quantifier": "all user dictionaries, modes and poles", "why_tests_cant": "All combinations of given options.", "anchors": ["moonpies/config.py:_set_mode_defaults", "moonpies/config.py:_set_pole_defaults"]}
{"id": "C40", "title": "Output directories separate seeds", "statement": "_get_out_path: the default directory ends in the 5-digit seed; a given out_path that does not contain the seed text gets it appended (replacing a trailing numeric directory), so two runs with different seeds and an out_path containing neither get different directories. The claim 'prevent overwrites' is violated for an out_path containing both seed texts: both runs share it.", "quantifier": "all paths and seeds", "why_tests_cant": "All strings.", "anchors": ["moonpies/config.py:_get_out_path"]}
{"id": "C41", "title": "Configuration types are enforced", "statement": "After construction every field holds a value of its declared type or construction failed; values already of the type are kept; int fields given in scientific notation become the same integer; applying it twice is the same as once.", "quantifier": "all field values", "why_tests_cant": "All values.", "anchors": ["moonpies/config.py:_enforce_dataclass_types"]}
{"id": "C42", "title": "Rebuilding a configuration for comets changes only the comet parameters", "statement": "get_comet_cfg changes is_comet, hydrated_wt_pct, impactor_density and impact_mass_retained and no other compared option, except that out_path gains a trailing separator when the output directory already exists (so the rebuilt Cfg differs from the original in out_path).", "quantifier": "all configurations", "why_tests_cant": "All configurations and file-system states.", "anchors": ["moonpies/moonpies.py:get_comet_cfg", "moonpies/config.py:from_dict", "moonpies/config.py:_make_paths_absolute"]}
{"id": "C43", "title": "Memoisation is transparent", "statement": "A function wrapped in lru_cache(k) returns, for every history of calls and cache clears, what the undecorated function returns; the cache never holds more than k entries or two entries for one key, and evicts the least recently used.", "quantifier": "all call histories, all capacities", "why_tests_cant": "All histories.", "anchors": ["moonpies/moonpies.py:neukum", "moonpies/moonpies.py:get_crater_sfd", "moonpies/moonpies.py:diam2len_prieur", "moonpies/moonpies.py:read_ballistic_melt_frac", "moonpies/moonpies.py:clear_cache"]}
{"id": "C44", "title": "Stratigraphy tables account for all labelled ice and ejecta", "statement": "In make_strat_col the ice and ejecta totals of the layers equal the totals of the timesteps (not older than the cold trap) that have ice or ejecta above thickness_min; no two adjacent layers share a label; each layer's time is its youngest timestep; the first row is the formation age with zero thickness.", "quantifier": "all columns and ages", "why_tests_cant": "All run-length patterns.", "anchors": ["moonpies/moonpies.py:make_strat_col", "moonpies/moonpies.py:merge_adjacent_strata"]}
{"id": "C45", "title": "Depth and ice percentage of layers", "statement": "In make_strat_col depth is non-increasing from the bottom row to the top row, the bottom row's depth is the total thickness, consecutive depths differ by the layer thickness, and the ice percentage is between 0 and 100 where thickness is positive and NaN exactly where thickness is 0.", "quantifier": "all columns", "why_tests_cant": "All columns.", "anchors": ["moonpies/moonpies.py:make_strat_col"]}
{"id": "C46", "title": "Ejecta source labels", "statement": "The source label of a timestep lists exactly the craters placed at that timestep whose own thickness exceeds thickness_min, in crater order, comma separated; a stratigraphy row is labelled 'Minor source(s)' exactly when total ejecta exceeds the threshold but no single source does.", "quantifier": "all crater lists and thicknesses", "why_tests_cant": "All coincidence patterns.", "anchors": ["moonpies/moonpies.py:get_ejecta_thickness_time", "moonpies/moonpies.py:make_strat_col"]}
{"id": "C47", "title": "The ej_sources column is not reproducible", "statement": "get_all_labels returns for every timestep the set of source labels of all cold traps, but in an order that depends on the iteration order of a set: for some inputs two orders give different text, and an empty label in the middle leaves a double comma. What holds for every order: splitting the text at commas gives exactly the set of labels (plus possibly the empty one), each once.", "quantifier": "all label arrays, all set iteration orders", "why_tests_cant": "Order depends on interpreter hash seeds.", "anchors": ["moonpies/moonpies.py:get_all_labels"]}
{"id": "C48", "title": "Crash and resume", "statement": "Outputs are written one file after another, config first. Rerunning without --resume after a crash at any point ends with the same files as an uninterrupted run. With --resume the run is skipped as soon as the output directory exists, so after a crash at any point past the directory creation the missing files are never written (resume does not imply completeness).", "quantifier": "all output lists, all crash points", "why_tests_cant": "Crash points.", "anchors": ["moonpies/moonpies.py:format_save_outputs", "moonpies/moonpies.py:save_outputs", "moonpies/cli.py:run"]}
{"id": "C49", "title": "Conduction model obeys the maximum principle", "statement": "heat1d_finite_diff maps temperatures between 15 K and 720 K (the tables use 45 K to 510 K) to weighted means of each element and its two (cyclic) neighbours, so to temperatures between the old minimum and the old maximum; iterating it any number of times stays in the initial range. Above that range it is unstable, and although the code says 'assume closed system' heat is not conserved.", "quantifier": "all temperature arrays of length >= 2, all iteration counts", "why_tests_cant": "All arrays and step counts.", "anchors": ["moonpies/thermal_eq.py:heat1d_finite_diff", "moonpies/thermal_eq.py:thermal_conductivity", "moonpies/thermal_eq.py:sphc"]}
{"id": "C50", "title": "Melt fraction is a fraction and is 0 for cold ejecta", "statement": "For mixing ratios >= 0 melt_frac_teq_1d never divides by zero and returns the fraction, in [0,1], of the elements without ejecta that were at melt_t or above after some step before a reason to stop; it is 0 if ejecta and target are colder than melt_t, and does not decrease with max_iter.", "quantifier": "all mixing ratios >= 0, ejecta temperatures, ejecta placements, iteration limits", "why_tests_cant": "All placements.", "anchors": ["moonpies/thermal_eq.py:melt_frac_teq_1d", "moonpies/thermal_eq.py:rand_positions"]}
{"id": "C51", "title": "Parallel and sequential melt tables agree", "statement": "get_melt_frac_arr returns the same array for any number of processes and any order in which the workers finish.", "quantifier": "all schedules, all process counts", "why_tests_cant": "Schedules.", "anchors": ["moonpies/thermal_eq.py:get_melt_frac_arr", "moonpies/thermal_eq.py:_parallel_melt_frac"]}
{"id": "C52", "title": "Mixing ratio", "statement": "get_mixing_ratio_oberbeck is positive and strictly increasing in distance; with mixing_ratio_petro values above 5 are pulled towards 5, continuously and never above the unadjusted value; with the defaults every distance on the Moon gives a ratio below 39, the end of the melt table.", "quantifier": "all distances up to half the circumference", "why_tests_cant": "Continuum.", "anchors": ["moonpies/moonpies.py:get_mixing_ratio_oberbeck"]}
{"id": "C53", "title": "Melt fraction lookup", "statement": "get_melt_frac returns values between the smallest and largest table entry for every query inside the table and raises KeyError for a query outside. That the value for one crater depends only on that crater is violated: interpolation is by rank among all queried ratios, so another crater's ratio changes it.", "quantifier": "all tables and query sets", "why_tests_cant": "Pairs of query sets.", "anchors": ["moonpies/moonpies.py:get_melt_frac"]}
{"id": "C54", "title": "Ballistic sedimentation inputs to the column update are in range", "statement": "get_bsed_depth returns non-negative depths and melt fractions in [0,1] of shape times x cold traps, zero where no crater reaches, and all zeros when ballistic_sed is off.", "quantifier": "all crater lists and distances", "why_tests_cant": "All inputs.", "anchors": ["moonpies/moonpies.py:get_bsed_depth", "moonpies/moonpies.py:ejecta_temp"]}
{"id": "C55", "title": "Overturn depth", "statement": "overturn_depth_time is the present depth at times up to overturn_ancient_t0, at least the present depth before and strictly increasing with age there (continuous at t0); in Cannon mode it is the constant erosion rate scaled by timestep/10 Myr.", "quantifier": "all times", "why_tests_cant": "Continuum.", "anchors": ["moonpies/moonpies.py:overturn_depth_time", "moonpies/moonpies.py:overturn_depth_costello_time"]}
{"id": "C56", "title": "Toggling a flag changes the random stream", "statement": "The comment that basin ice is always computed 'for repro' (so that switching impact_ice_basins off does not change other random outcomes) is violated: the number of speeds drawn for basins depends on the flag, so the draws of the following comet pass are shifted. What holds: a run is a function of configuration, data files and seed.", "quantifier": "all random streams", "why_tests_cant": "Pairs of runs over all streams.", "anchors": ["moonpies/moonpies.py:get_impact_ice", "moonpies/moonpies.py:ice_basins", "moonpies/moonpies.py:random_icy_basins"]}
{"id": "C57", "title": "ejecta_basins=False does not remove basins", "statement": "main discards the filtered crater list, so basin ejecta reach cold traps also when ejecta_basins is off (as in Cannon mode); the returned columns do not depend on the flag.", "quantifier": "all crater lists", "why_tests_cant": "Pairs of runs.", "anchors": ["moonpies/moonpies.py:main"]}
{"id": "C58", "title": "Thin layers are dropped by the plotting clean-up", "statement": "plotting.clean_up_strat_col is documented to merge layers thinner than min_thick into the layer below; instead the cleaned column consists of exactly the layers at least min_thick thick, unchanged, so the ice and ejecta of every thin layer are lost; if every layer is thin it raises a KeyError. With no thin layer the totals are preserved. For a table of a run these are the layers with at least min_thick metres of ice and ejecta.", "quantifier": "all stratigraphy tables and thresholds", "why_tests_cant": "All tables.", "anchors": ["moonpies/plotting.py:clean_up_strat_col"]}
{"id": "C59", "title": "Ice above a depth in the Monte Carlo aggregation", "statement": "agg_coldtrap's 'total ice <d>m' is the ice above depth d when each layer's ice lies at the bottom of the layer: between 0 and the column's total ice, at most d, non-decreasing in d and equal to the total once d is at least the column depth. For the tables of runs with strat_after_age the lists of layers line up and each file keeps its own statistics; tables without exactly one formation row raise a TypeError.", "quantifier": "all stratigraphy tables with consistent depths, all d", "why_tests_cant": "All tables.", "anchors": ["notebooks/figure_scripts/aggregate.py:agg_coldtrap"]}
{"id": "C60", "title": "End-to-end: a run's stratigraphy never contains more ice than was delivered", "statement": "For every seed, crater list and configuration with sane parameters, the total ice of a cold trap's output table is non-negative and at most the ice delivered to that cold trap.", "quantifier": "all runs", "why_tests_cant": "All seeds and inputs.", "anchors": ["moonpies/moonpies.py:main", "moonpies/moonpies.py:format_save_outputs"]}
{"id": "C61", "title": "Volcanic ice modes", "statement": "get_volcanic_ice succeeds only in mode Head and raises ValueError for an unknown mode. The documented mode NK is violated: it always fails (AttributeError, cfg.species does not exist).", "quantifier": "all mode strings, configurations and time arrays", "why_tests_cant": "All strings; the NK path is untested in the repository.", "anchors": ["moonpies/moonpies.py:get_volcanic_ice", "moonpies/moonpies.py:read_volcanic_species"]}
{"id": "C62", "title": "Default crater chronology gives positive counts", "statement": "With the default Neukum coefficients every impact regime (c, d, e) has a strictly positive number of craters per timestep at every time.", "quantifier": "all times, all three regimes", "why_tests_cant": "All times; the sign rests on a degree-11 polynomial of logarithms.", "anchors": ["moonpies/moonpies.py:get_crater_pop", "moonpies/moonpies.py:neukum", "moonpies/moonpies.py:num_craters_chronology"]}
{"id": "C63", "title": "Ice delivery is total and non-negative", "statement": "For every random stream, crater list and non-empty time axis, get_ice_cols_time with a physically meaningful configuration (the default one is) returns one row per time with one non-negative thickness per cold trap and raises no exception.", "quantifier": "all random streams, crater tables, time axes, cold trap lists and meaningful configurations", "why_tests_cant": "All streams and tables.", "anchors": ["moonpies/moonpies.py:get_ice_cols_time", "moonpies/moonpies.py:get_polar_ice", "moonpies/moonpies.py:get_impact_ice"]}
{"id": "C64", "title": "Weighted choice", "statement": "Sampling crater diameters with probabilities picks element i exactly for draws between the cumulative probabilities before and after i, so with probability p_i, and always returns an element of the pool.", "quantifier": "all pools, probability vectors and draws", "why_tests_cant": "All draws, boundary draws included.", "anchors": ["moonpies/moonpies.py:get_ice_stochastic"]}
{"id": "C65", "title": "Minimum thickness does not affect ejecta thickness over time", "statement": "get_ejecta_thickness_time documents that ejecta layers thinner than cfg.thickness_min are set to 0; in fact the returned thicknesses do not depend on cfg.thickness_min at all (only the returned source labels do), and thinner ejecta is kept.", "quantifier": "all configurations, crater tables and time axes", "why_tests_cant": "A claim of independence over all inputs, contradicting the documentation.", "anchors": ["moonpies/moonpies.py:get_ejecta_thickness_time"]}
{"id": "C66", "title": "Sources of polar ice", "statement": "get_polar_ice adds, at every time, the ice of the asteroid pass, the ice of the comet pass if and only if impact_ice_comets is on, and the solar wind ice; get_impact_ice adds micrometeorites, small impactors, small simple craters, large simple craters, complex craters and, if and only if impact_ice_basins is on, basins. The random stream is consumed in that order whatever the comet flag.", "quantifier": "all configurations, crater tables, time axes and random streams", "why_tests_cant": "All random streams and flag combinations.", "anchors": ["moonpies/moonpies.py:get_polar_ice", "moonpies/moonpies.py:get_impact_ice"]}
{"id": "C67", "title": "The default configuration file is portable", "statement": "make_default_cfg always succeeds; the file it writes names no directory and no seed, and reading it back with read_custom_cfg on any machine gives exactly the configuration Cfg() would give there.", "quantifier": "all machines (working and home directory, file system, clock, random draw) for writing and for reading", "why_tests_cant": "All pairs of machines.", "anchors": ["moonpies/config.py:make_default_cfg", "moonpies/config.py:read_custom_cfg"]}
{"id": "C68", "title": "A saved configuration reproduces the run", "statement": "The configuration dictionary of a run, read back later on the same machine, gives the same value for every option except run_date, run_time and a slash at the end of out_path when the directory exists. Defect: reading it with a new seed keeps the paths of output files that exist, so the second run overwrites the outputs of the first although out_path changed.", "quantifier": "all configurations whose out_path shows the seed, all file-system states", "why_tests_cant": "All configurations and file systems.", "anchors": ["moonpies/config.py:to_dict", "moonpies/config.py:read_custom_cfg", "moonpies/config.py:_make_paths_absolute"]}
{"id": "C69", "title": "Where files are read and written", "statement": "Every *_out option becomes out_path/<name given> and every *_in option data_path/<name given>, absolute, unless the path given already exists, in which case it is used as given. Defect: a file with the default output name in the working directory captures the output of a run.", "quantifier": "all configurations and file-system states", "why_tests_cant": "All path texts and file systems.", "anchors": ["moonpies/config.py:_make_paths_absolute"]}
{"id": "C70", "title": "Unknown options are refused", "statement": "A configuration with any key that is not an option of Cfg is refused with a TypeError; dtype, rtol, ice_species and basin_impact_speed are not options although the class lists them.", "quantifier": "all dictionaries", "why_tests_cant": "All dictionaries.", "anchors": ["moonpies/config.py:Cfg", "moonpies/config.py:from_dict"]}
{"id": "C71", "title": "Melt tables hold means and deviations of fractions", "statement": "make_melt_frac_dfs returns, for non-negative mixing ratios and at least one seed, tables with one row per mixing ratio and one column per temperature and no missing entry; entry (i,j) is the mean (standard deviation) over the seeds of the melt fraction for that ratio and temperature, between 0 and 1 (0 and 1/2), and 0 for ejecta colder than 110 K.", "quantifier": "all lists of ratios and temperatures, all seeds counts, ejecta placements, process counts and schedules", "why_tests_cant": "All tables, placements and schedules.", "anchors": ["moonpies/thermal_eq.py:make_melt_frac_dfs", "moonpies/thermal_eq.py:get_melt_frac_arr"]}
{"id": "C72", "title": "Depth ranges and legend entries of a plotted column", "statement": "get_strat_col_ranges gives each layer a pair of rows from the end of the layer above (or the surface) to its own end, with its label, hatch and ice percentage; the legend entry is the layer's source or, of several, one with the largest diameter; it fails only, with a KeyError, when one of several sources is not in the crater list. Ice is dotted, mixtures are plain, and ejecta have one of seven signs written one to five times; two ejecta share a hatch exactly if the hashes of their labels agree modulo 35 (so each label always has one hatch, and more than 35 sources repeat one), and never that of ice. Fails: there are 28 hatches, as the code's comment says (there are 35).", "quantifier": "all columns with layers of positive thickness, all crater lists, hashes and tie-breakings of the sorts", "why_tests_cant": "All columns and all hash seeds.", "anchors": ["moonpies/plotting.py:get_strat_col_ranges", "moonpies/plotting.py:get_lith_key"]}
{"id": "C73", "title": "Colours of a plotted column", "statement": "plot_strat shows inside a layer the colour of the ice percentage of the deepest layer with the same hatch; a layer shows its own percentage if no deeper layer shares its hatch. As hatches come from Python's per-process string hashes, a layer can show another layer's percentage and the picture of the same file can differ between processes.", "quantifier": "all columns with layers of positive thickness, all depths inside a layer, all hashes", "why_tests_cant": "All columns and all hash seeds.", "anchors": ["moonpies/plotting.py:plot_strat", "moonpies/plotting.py:get_lith_key"]}
{"id": "C74", "title": "What a cold trap's results owe to the other cold traps", "statement": "With the same seed, without ballistic sedimentation, a cold trap's stratigraphy, ice and ejecta columns are the same whichever other cold traps are simulated with it, and the run uses the same random numbers. With ballistic sedimentation the depths are still independent, but the melt fractions are not: adding a second cold trap changes the ice left in the first.", "quantifier": "all configurations, crater tables, random streams and sets of cold traps", "why_tests_cant": "All sets of cold traps and random streams.", "anchors": ["moonpies/moonpies.py:main", "moonpies/moonpies.py:init_strat_columns", "moonpies/moonpies.py:get_bsed_depth", "moonpies/moonpies.py:get_melt_frac"]}
{"id": "C75", "title": "The gridded outputs", "statement": "With write_npy, get_grid_arrays returns y falling from grdysize and x rising from -grdxsize in exact steps (in the default float32), reaching exactly the other ends when the step divides twice the size. get_grid_outputs returns, for craters numbered from 0 on a square grid, one thickness grid per crater in table order: the thickness law at the great circle distance of the cell between rim and threshold, 0 elsewhere; a cell within a crater's threshold is no older than that crater; at a cold trap's position it equals what the run deposits. The documented extent fails when the step does not divide, rectangular grids raise ValueError, row labels other than 0..n-1 exchange the distances of craters or raise IndexError, a negative threshold gives no ejecta at all, and cfg.rad_moon is not used for the distances.", "quantifier": "all sizes and steps up to 2^24 m, crater tables, thresholds and grid points", "why_tests_cant": "All grids, crater tables and label orders; rounding of every grid value.", "anchors": ["moonpies/moonpies.py:get_grid_arrays", "moonpies/moonpies.py:get_grid_outputs", "moonpies/moonpies.py:get_gc_dist_grid", "moonpies/moonpies.py:get_age_grid"]}
{"id": "C76", "title": "The legend of the stratigraphy figure", "statement": "strat_legend lists every public label of the handles it is given exactly once: Ice first, Other last, the rest alphabetically. The sample of a label is the first patch drawn with it, and is coloured as pure ice for Ice and as no ice for every other label; no other patch changes. In a figure of plot_stratigraphy this never changes what a column shows, since the recoloured patches are covered by others. On other axes it does recolour the plot.", "quantifier": "all figures, columns, labels and percentages", "why_tests_cant": "All sets of labels and overlaps of patches; the covering argument is about every depth of every column.", "anchors": ["moonpies/plotting.py:strat_legend", "moonpies/plotting.py:plot_strat", "moonpies/plotting.py:plot_stratigraphy"]}
{"id": "C77", "title": "What a stratigraphy figure shows where", "statement": "plot_stratigraphy gives every run a row of axes on which each cold trap of each seed has its own axis, showing that file's column or nothing if there is no file; exactly the axes between two seeds are blank and switched off. The lower end of a row is the largest depth in it and in the rows above, so rows may have different scales. The saved table has one column per run, seed and cold trap with a file. The files are found for every run of the day in the default directory, from the configuration of any such run, but not for a run that was given an out_path.", "quantifier": "all runs, seeds, cold traps, files, names and configurations", "why_tests_cant": "All numbers of seeds and cold traps, all combinations of missing files and all paths.", "anchors": ["moonpies/plotting.py:plot_stratigraphy", "moonpies/config.py:_get_out_path"]}
{"id": "C78", "title": "The colours of ice percentages", "statement": "make_cmap reads six-digit colour codes with or without '#', raises ValueError for a bad code and IndexError for more locations than colours. With two colours or more a percentage gets a colour between two neighbouring ones, less than 1/255 of the scale from linear; 0 and 100 percent get the first and last colour, NaN is transparent. With the default colours, percentages more than 100/256 apart differ in every channel. White is not full white (division by 256), '#fff' is almost black, and a list of one colour fails when it is used.", "quantifier": "all lists of colour codes and all percentages", "why_tests_cant": "All percentages and colour lists.", "anchors": ["moonpies/plotting.py:make_cmap", "moonpies/plotting.py:get_cmap"]}
{"id": "C79", "title": "What never costs ice", "statement": "For one cold trap, more ice and ejecta delivered in every step, shallower and weaker ballistic sedimentation and shallower overturn never leave less ice in any layer at the end of update_strat_cols, with impact gardening and with Cannon's erosion. Two runs of main with the same files and seed use the same random numbers, and no cold trap ends with less ice in any layer or less ice in its table if the second run has solar wind ice on, a larger volcanic volume, larger ballistic hop efficiencies, smaller overturn depth or erosion rate, ballistic sedimentation off, or wetter impactors: larger hydrated_wt_pct, impact_mass_retained, comet_hydrated_wt_pct or comet_mass_retained. The ice that get_impact_ice delivers in a step is linear in these: hydrated_wt_pct times impact_mass_retained (for comets, their comet counterparts) times a part for small impacts, plus hydrated_wt_pct times a part for larger craters and basins; both parts depend on the random numbers but not on the water contents.", "quantifier": "all configurations with meaningful settings, all crater files, all random streams, all histories of a column", "why_tests_cant": "A comparison of two runs over all configurations, histories and seeds.", "anchors": ["moonpies/moonpies.py:update_strat_cols", "moonpies/moonpies.py:garden_ice_column", "moonpies/moonpies.py:erode_ice_cannon", "moonpies/moonpies.py:main", "moonpies/moonpies.py:get_ice_cols_time", "moonpies/moonpies.py:get_impact_ice"]}
{"id": "C80", "title": "What is in a data file is what is read", "statement": "The crater, basin, solar luminosity, ballistic hop and melt fraction files are read as the table they write: one entry per line in the order of the file, each value the exact decimal number in its configured column, blanks only where no value is needed. Quoting, line ends, blank lines, a byte order mark, the header text and the order of the columns do not matter; anything in a column of numbers that is neither a decimal number nor a mark of a missing value is an error; a missing file is a FileNotFoundError.", "quantifier": "all texts of files, all configured paths and columns", "why_tests_cant": "All files in all layouts.", "anchors": ["moonpies/moonpies.py:read_crater_list", "moonpies/moonpies.py:read_basin_list", "moonpies/moonpies.py:read_solar_luminosity", "moonpies/moonpies.py:read_ballistic_hop_csv", "moonpies/moonpies.py:read_ballistic_melt_frac"]}
{"id": "C81", "title": "The model as shipped always finishes", "statement": "With the shipped data files and physical constants, a run finishes for every machine, seed, mode, every setting of every switch and all random numbers, provided its cold traps are different craters of the shipped list that have a shadowed area (and a hop efficiency where that table is used). It has 425 steps from 4.25 Ga down and a table for each cold trap without negative ice. The default south pole cold traps qualify. A run with a cold trap that is in neither shipped list never finishes; so the default cold traps of the north pole never work, nor does the volcanic mode 'NK'.", "quantifier": "all configurations that change only switches, seeds, cold traps and paths; all random streams", "why_tests_cant": "All seeds and all combinations of switches and cold traps.", "anchors": ["moonpies/moonpies.py:main", "moonpies/config.py:Cfg", "moonpies/data/crater_list.csv", "moonpies/data/basin_list.csv"]}
{"id": "C82", "title": "What an option changes", "statement": "Two configurations that differ only in bookkeeping options (names, dates, seed, output paths, write and plot flags, grid sizes), in options a run never reads (ejecta_basins, heating and melting constants, observed crater parameters, volcanic species table) and in where their data files lie give the same results or the same error from the same random stream; a data file matters only if its module is switched on. From the shipped configuration, turning the solar wind on, raising volc_total_vol, lowering ice_erosion_rate or overturn_depth_present, or turning ballistic_sed off never leaves a cold trap with less ice. Each setting of a run is the option of its name. The time axis starts at timestart and goes down by timestep.", "quantifier": "all pairs of configuration objects, all files, all random streams", "why_tests_cant": "All pairs of configurations and all random streams.", "anchors": ["moonpies/moonpies.py:main", "moonpies/config.py:Cfg"]}
{"id": "C83", "title": "From a run to its totals and figures", "statement": "Every table that a run with the shipped files and numbers leaves (default strat_after_age) begins with a 'Formation age' row without ice and ejecta; its layers have no negative ice or ejecta and are labelled 'Ice', 'Minor source(s)' or with names of other listed craters and basins, each once. Such tables can always be aggregated, and the totals are the sums over the table, its whole depth, and the ice above each depth. plot_stratigraphy on such tables fails only if the figure would have no column (ValueError) or a table has layers but none of min_thick (KeyError). The crater list of the plots has every listed crater and basin once, with its diameter.", "quantifier": "all machines, seeds, modes, switches, cold traps, random streams, depths and figures", "why_tests_cant": "Whether a table of a random run breaks the aggregation or the plot depends on the random stream and the switches.", "anchors": ["moonpies/moonpies.py:main", "moonpies/plotting.py:plot_stratigraphy", "moonpies/plotting.py:CDF", "notebooks/figure_scripts/aggregate.py:agg_coldtrap"]}
{"id": "C84", "title": "What a run writes can be read back", "statement": "The strat_<cold trap>.csv of a table, read with pandas as the plots and the aggregation do, gives the table row by row: same labels (commas and quotes included), a missing icepct as missing, and each number as pandas reads its text. This holds for every table of a run with the shipped files and numbers; it fails for a crater name such as 'NA', which pandas takes for a missing value. ice_columns.csv and ej_columns.csv have one line for each time with that time, (for ejecta) the sources, and the value of each cold trap. After a run with default output names and write on, the figure drawn the same day from the configuration of any default run finds the file of each cold trap and reads its table.", "quantifier": "all tables, machines, configurations, cold traps and disks", "why_tests_cant": "All labels and numbers, all working directories and contents of the disk.", "anchors": ["moonpies/moonpies.py:save_outputs", "moonpies/moonpies.py:format_save_outputs", "moonpies/plotting.py:plot_stratigraphy", "notebooks/figure_scripts/aggregate.py:agg_coldtrap"]}
{"id": "C85", "title": "The command, end to end", "statement": "On a disk where MoonPIES is installed with its data files, with no file of the name of one of its data or output files in the working directory and room for the output directories, `moonpies [SEED] [--resume]` finishes: it writes out/<date>/moonpies/<seed>/ with the configuration, a stratigraphy table for each of the twelve default cold traps and the two column files, changes no other file and makes no other directory. With --resume and that directory present it does nothing. Without a seed, or with seed 0, the drawn seed is used; a negative seed is an error and nothing is written. The tables and ice_columns.csv of a seed are the same text on every machine, disk, day and working directory. Any sequence of such commands in one working directory, with any seeds, order and repetitions, on any days, with or without --resume (if the directories were not there before), finishes and leaves for each the tables that a single run of its seed leaves; the figure drawn that day finds and reads them.", "quantifier": "all machines, disks, arguments, seeds, sequences of commands, random streams and library roundings", "why_tests_cant": "All seeds, sequences of runs and states of the disk; a run takes minutes and depends on the clock, the working directory and numpy.", "anchors": ["moonpies/cli.py:run", "moonpies/config.py:read_custom_cfg", "moonpies/moonpies.py:main", "moonpies/moonpies.py:format_save_outputs", "moonpies/plotting.py:plot_stratigraphy"]}
{"id": "C86", "title": "Collecting many runs", "statement": "aggregate(coldtraps, tmpdir, datedir) on a directory in which every strat_<cold trap>.csv has one row with the age of its cold trap and no older row finishes, whatever the order in which the operating system lists files. read_agg_dfs(datedir, flatten=True, count_runs=True) then returns exactly one row of totals for each such table (under the name of the run directory it lies in, at any depth), and one row for each layer, with the numbers of the table to 32 bits; the count is the largest number of tables of one cold trap in one run directory. Only the pickles, layers.csv and runs.csv are written. Aggregating again, with these files there, gives the same rows. The totals are the sum of the ice, the largest depth and (if no layer holds more ice than it is thick) the ice above 1, 3, 6, 10 and 100 m. For any series of `moonpies` commands of one day this applies: one row per cold trap and distinct seed, from the table that the seed gives on any disk, and the count is the number of seeds. Fails: a cold trap with one table that cannot be read is left out without an error.", "quantifier": "all disks, listings, tables, cold traps, run names, depths of directories and series of commands", "why_tests_cant": "All contents of the disk and orders of listing; a day of Monte Carlo runs takes hours.", "anchors": ["notebooks/figure_scripts/aggregate.py:agg_coldtrap", "notebooks/figure_scripts/aggregate.py:pickles_to_csv", "notebooks/figure_scripts/aggregate.py:aggregate", "notebooks/figure_scripts/aggregate.py:read_agg_dfs", "notebooks/figure_scripts/aggregate.py:flatten_agg_df"]}
{"id": "C87", "title": "Ice by source", "statement": "For meaningful settings and any non-empty list of non-negative seeds plot_by_module(cfg, seeds) finishes. Row by row, each ice column of _get_ice_ast_comet_seeds is the mean over the seeds of the asteroid table plus the mean over the seeds of the comet table, and each depth the mean of both. The asteroid table of a seed holds what a run with this seed computes: its craters and basins, columns of impact ice by size that add up to get_impact_ice of the run, and as depth of ballistic sedimentation the mean over the cold traps of depth times melted part. In each period the figure draws the mean of the steps of this period with error bars that reach every value, and the heights times the numbers of steps add up to the ice of all steps up to 4.26 Gyr. Total ice is the mean impact ice of asteroids and of comets plus twice the volcanic and solar wind ice. A negative seed is a ValueError; without seeds nothing is drawn. Fails: volcanic and solar wind ice are those of a run (both are counted twice); with impact_ice_comets off no comet ice is shown; 'Max Gardening depth' is the largest depth of the period (it is the mean).", "quantifier": "all configurations, crater and basin files, seeds, random number streams, numbers of seeds", "why_tests_cant": "All settings, tables and random streams; the figure is an average over whole ensembles of runs.", "anchors": ["notebooks/figure_scripts/plot_figs.py:plot_by_module", "notebooks/figure_scripts/plot_figs.py:_get_ice_ast_comet_seeds", "notebooks/figure_scripts/plot_figs.py:_get_ice_by_module", "notebooks/figure_scripts/plot_figs.py:_get_agg_bsed_depth", "moonpies/moonpies.py:get_comet_cfg"]}
{"id": "C88", "title": "Figures of collected runs", "statement": "A figure is saved in the directory that was asked for, under the name that was asked for or, if the version is not in the path, with the version before its ending; saving again under the printed path writes the same file, and two versions that are not in the path give two files. If no day is given a day with collected runs is taken if there is one (the last if directories are listed in order). After aggregation of a day: each half of a violin of compare_violin holds log10 of the ice of each run of its name with 1 m of ice or more in the cold trap; kde_layers draws each layer with more than 5 cm of ice that is deeper than 5 cm, rounded to 10 cm, or each 300th of more than 1000; each box of surface_boxplot holds the ice above the depth in each run named moonpies, the fractions over a threshold are between 0 and 1, and the marks at 6 m bound the numbers of runs below and above. After any series of run commands of a day and its aggregation the boxes hold one number per seed, computed from the table that this seed gives on any disk. Fails: two versions never share a file; the day taken is the last; all figures take the same day; the number in the title is that of the runs drawn; runs keep apart when renamed; 'p99' is the 99th percentile (it is the 95th).", "quantifier": "all disks and directory listings, collected days, run names and new names, cold traps, depths, paths and versions, series of commands", "why_tests_cant": "All contents of the output directories, all orders of listing and all numbers of runs; the notebook functions have no tests and draw from gigabytes of output.", "anchors": ["notebooks/figure_scripts/plot_figs.py:_save_or_show", "notebooks/figure_scripts/plot_figs.py:_get_datedir", "notebooks/figure_scripts/plot_figs.py:_load_aggregated", "notebooks/figure_scripts/plot_figs.py:compare_violin", "notebooks/figure_scripts/plot_figs.py:kde_layers", "notebooks/figure_scripts/plot_figs.py:surface_boxplot"]}
{"id": "C89", "title": "Ice by source over time", "statement": "The figure of ice by source over time has two panels with the same curves: the two depths as shades, then the eight sources of ice as lines, labelled after the columns. On the left each curve has 85 points, the means of time and column over the steps in each of 85 equal parts of the time axis; every step is in exactly one part, and with the default axis of 425 steps each point is the mean of five steps in a row at the time of the third. On the right the point of a step is the sum of the column over all steps up to it, the oldest first; lines of ice are never negative and never fall. The points on the left, each times the number of its steps, add up to the last point on the right. Fails: the number of bins asked for is used (it is always 85); the shade 'Max Gardening depth' on the right is a depth that is reached (it is a running sum of depths).", "quantifier": "all configurations with which a run finishes, crater and basin lists, random streams, non-empty lists of seeds that are not negative, numbers of bins", "why_tests_cant": "All time axes, seeds and configurations; the function only draws, has no tests, and needs many slow runs.", "anchors": ["notebooks/figure_scripts/plot_figs.py:plot_by_module_time", "notebooks/figure_scripts/plot_figs.py:_get_ice_ast_comet_seeds"]}
{"id": "C90", "title": "Ice from basins and its figure", "statement": "Ice from basins (get_basin_ice): the ice of a time step is the sum over the basins hit by an impactor of the right kind (comet, or hydrated asteroid) whose age lies on the time axis, up to the tolerance, and for which this step is the first of the nearest; each such basin has an impact speed of its own and brings the ice of a ball of the size its diameter asks for. All steps together hold the ice of each such basin once, and a step has ice exactly if such a basin belongs to it. The figure basin_ice shows for asteroids and for comets the ice of n runs, each with its own list of ages, impactors and speeds: runs of any outcomes can be drawn together. Its lines are means of three steps, of the mean of all runs and of the 99.7th percentile; steps before the first and after the last count as zero, so the mean line never shows more ice in total than the runs have in the mean, and less by a third of the means of the two end steps. With one or two times it fails with ValueError. Fails: the figure is the same each time (no generator is passed on, and the seeds are unused); the times are those of the given configuration; the lines are averages at the ends; at most 0.3 percent of the runs lie above the percentile line.", "quantifier": "all sane configurations, crater and basin lists, time axes, random streams, numbers of runs", "why_tests_cant": "All lists, axes and random streams; the figure only draws and cannot be repeated because its random numbers differ each time.", "anchors": ["moonpies/moonpies.py:get_basin_ice", "moonpies/moonpies.py:ice_basins", "notebooks/figure_scripts/plot_figs.py:basin_ice"]}
{"id": "C91", "title": "The figures of ages", "statement": "The figure crater_basin_ages shows a bar for every line of the crater list and of the basin list and no other, from the youngest to the oldest (equal ages: smaller upper error first). A bar has the errors of its line around a random age, which is a multiple of the time step at most half a step outside the interval of the line. Exactly the basins whose ejecta reach a cold trap have a star. The periods meet at the ages of the bars *Nectaris and Imbrium. The figure is drawn exactly if Nectaris reaches a cold trap and Imbrium reaches none, whatever the random numbers are, and fails with KeyError otherwise; without cold traps it fails with ValueError. The figure random_crater_ages shows for every crater, in the order of the list, how many of the seeds 0 to 99 give it an age in each of 260 bins from 1.595 to 4.195 Ga, and the same for 100000 ages from the random numbers of seed 99 with an inset of those below 3 Ga; the age of crater j for a seed is that of the j-th random number of the seed. With steps of 10 Myr a bin counts one age exactly. All counts together are the ages from 1.595 to 4.195 Ga. The inset agrees with its panel in all bins below 3 Ga and is empty above. Two craters of one name: ValueError. Without basins the ages of a seed are those of the run with this seed. Fails: a star marks a basin that has brought ejecta to a cold trap (ages are not compared); the error bars are the intervals of the catalogue; either figure is the same each time (no generator is passed on; seed 0 means a random seed); all ages are counted (Haworth of the crater list can be 4.20 Ga old); the ages of a seed are those of the run with this seed when there are basins.", "quantifier": "all configurations, crater and basin lists, random streams", "why_tests_cant": "All lists and random streams; the figures only draw, and their random numbers differ each time.", "anchors": ["notebooks/figure_scripts/plot_figs.py:crater_basin_ages", "notebooks/figure_scripts/plot_figs.py:random_crater_ages", "moonpies/moonpies.py:randomize_crater_ages"]}
{"id": "C92", "title": "The figures of ejecta against distance and radius", "statement": "The figure ejecta_distance draws six craters at 1 + 4i/99 crater radii, i = 0..99, and depths only for the four of the Moon. The speed at x radii is the launch speed whose range on a sphere is x radii, with gravity and radius of Earth for Ries Basin and Meteor Crater and of the configuration for the others. The thickness of craters smaller than basins is the value at the rim times x to the configured exponent; Orientale has ejecta at every point with the shipped constants. The energy is half the mass per square metre times the squared speed, in MJ. The depth is the same multiple of the thickness at all distances. With the shipped constants the dashed line 'KE_min' is at 1500 MJ, the energy at 395/99 radii to the nearest hundred. The figure ejecta_bsed has for each of four distances ten simple craters, ten complex craters and ten basins, none at a transition; a marker has the thickness of its law at the distance, 0 inside the crater, and a depth of that thickness times the mixing ratio at the distance. Fails: the depth in ejecta_distance is the thickness times the mixing ratio at that distance (the diameter is used in place of the distance, so it is too deep closer than two radii, too shallow beyond, and right at no point of the figure); the dashed line is the energy at four radii of Ries (which is 1400 to the nearest hundred); the axes of ejecta_bsed are in the kilometres that they name (they are in metres).", "quantifier": "all configurations, craters of the figure, points, distances", "why_tests_cant": "All constants and points; a figure is only looked at, and each curve looks plausible.", "anchors": ["notebooks/figure_scripts/plot_figs.py:ejecta_distance", "notebooks/figure_scripts/plot_figs.py:ejecta_bsed", "moonpies/moonpies.py:get_ejecta_thickness", "moonpies/moonpies.py:get_mixing_ratio_oberbeck", "moonpies/moonpies.py:kinetic_energy"]}
{"id": "C93", "title": "The maps of age and ejecta, and the figure of distances", "statement": "The figure grid_plots shows on a square grid, for each point, the sum over all lines of the crater and the basin file of the ejecta that the default thickness law gives at the great circle distance from the centre (from the rim to 4 radii, 5 for basins, 0 otherwise), and the random age, in Ga, of the youngest line whose centre is closer than these limits, or 4.25 if there is none. With the default grid it is always drawn, with 801 by 801 points that are all on the Moon; a grid with sides of different lengths is a ValueError. The ejecta are the same for all random numbers. The figure distance_bsed shows the Ries data and Oberbeck's law at 1000 times the distances in km, the mixing ratios of the first six cold traps, and thickness and depth (thickness times mixing ratio) of every line at every cold trap, with no limit on the distance for craters; its axis ends at the largest distance from a crater to a cold trap. It is an IndexError if one of the first six cold traps, or Amundsen, is in no line, and otherwise a ValueError if no crater has a distance; in all other cases it is drawn. With the three as cold traps the vertical lines are at the distances from Amundsen to Faustini, Shoemaker and Haworth. Fails: the maps are those of the configuration (of all settings only dtype, grid and time step matter; ejecta is shown beyond the configured thresholds); no age is above 4.25; the map of ages of a configuration is always the same; each vertical line is at the crater it is labelled with (a name that is not a cold trap has the line of the first one); the axis of the mixing ratios is in crater radii as labelled (it is in metres).", "quantifier": "all configurations, crater and basin files, random numbers, grids and points", "why_tests_cant": "Every point of every grid and every file; a map without limits or with the wrong limits looks like a map.", "anchors": ["notebooks/figure_scripts/plot_figs.py:grid_plots", "notebooks/figure_scripts/plot_figs.py:distance_bsed", "moonpies/moonpies.py:get_grid_outputs", "moonpies/moonpies.py:get_coldtrap_dists", "moonpies/moonpies.py:get_mixing_ratio_oberbeck"]}
{"id": "C94", "title": "The figures of laws: impactors, retention and hop efficiency", "statement": "The figure crater_scaling has, for each regime of the configuration other than a and b, a line from the smallest to the largest crater (in km) to the impactors (in metres) that make them at 20 km/s by the laws of Prieur, Collins and Johnson for the transient crater; crosses for the proposed regimes, a mark for each basin and lines at the transitions; each line is labelled with its regime and whose law it is; a regime of another name is a ValueError. With the shipped settings the proposed complex craters start less than 20 m above the end of the simple ones. The figure ice_retention has 7000 points from 0 to 70 km/s; the curves are 1/2 (asteroids) or 1 (comets) below 10 km/s, fall from there on (36.26 exp(-0.3464 v) for Cannon et al., 16600 v^-4.16 for this work), and that of asteroids is then that of comets; the law of this work is within a quarter of the data of Ong et al. up to 45 km/s. The figure ballistic_hop has a marker for each of its twelve names, at its latitude and its efficiency in percent, a horizontal line at 5.4 percent, and a legend at Haworth and Cabeus B only; the fit is the one line closest to the markers of Moores et al. by least squares; the other line joins the markers of Cabeus B and Faustini; a missing name is a KeyError. Fails: an impactor size is in one regime (the shipped complex craters start with impactors of less than 584 m, the simple ones end with more than 740 m); impactors are in km as labelled; fractions are at most 1 as labelled (all three curves are above 1 just above 10 km/s); the curve fits the data (at 60 km/s it is more than 90 times the datum).", "quantifier": "all settings, dictionaries of regimes, basin files and tables of efficiencies; all points of the curves", "why_tests_cant": "Laws with real powers for all settings, a minimum over all lines, and bounds at every point of a curve.", "anchors": ["notebooks/figure_scripts/plot_figs.py:crater_scaling", "notebooks/figure_scripts/plot_figs.py:ice_retention", "notebooks/figure_scripts/plot_figs.py:ballistic_hop", "moonpies/moonpies.py:diam2len", "moonpies/moonpies.py:ice_retention_factor", "moonpies/moonpies.py:read_ballistic_hop_csv"]}
{"id": "C95", "title": "The text of a configuration file", "statement": "The text that a run saves with its configuration (and the default file), as Python's pprint lays it out on lines of 80 characters, is read back by ast.literal_eval as the same dictionary: the same options in the same order with the same values, for all texts, nested tuples, lists and dictionaries, provided repr and literals of finite floats agree. So the options of a saved run come back from the text of its file, and the text of the default file gives the default configuration of the machine that reads it. The text has no characters but printable ones and line feeds, and only ASCII if the texts are ASCII. A value with an infinity or NaN anywhere gives a text that cannot be read. Of an option written twice in a file the last value counts, and comments after the options and in front change nothing. Fails: every configuration that can be loaded can be saved and loaded again (1e999 loads as infinity and is saved as inf).", "quantifier": "all values, all configurations, all layouts", "why_tests_cant": "All nestings and all texts, with quotes, escapes and line breaks wherever the layout puts them.", "anchors": ["moonpies/config.py:Cfg.to_string", "moonpies/config.py:Cfg.to_py", "moonpies/config.py:_dict2str", "moonpies/config.py:_str2py", "moonpies/config.py:read_custom_cfg", "moonpies/config.py:make_default_cfg"]}
{"id": "C96", "title": "The figure of volatilized fractions", "statement": "volatilized_fraction_bsed is drawn exactly if neither table has a column for 100 K, the table of means has a row, and at least one crater and one basin reach a cold trap (otherwise ValueError). Its images hold the tables of means and deviations in per cent after a column of zeros, from the least to the greatest temperature and from 0 to the largest share of ejecta; its lines are at the initial temperatures of polar and of cold and warm basin ejecta, from the least to the greatest share of ejecta, 100/(1 + mixing ratio), among the craters (basins) at all cold traps, strictly between 0 and 100. Nothing depends on random numbers. For regular tables, the shipped one included, the colour at a point is the entry of the next warmer column and the next row above. Fails: the image shows what the model of melting gives (with the shipped table it shows 100 % at 107 K, where the fraction is 0); it shows the nearest entry; at the share of a row it shows that row, for ratios that are not evenly spaced in share.", "quantifier": "all tables, crater and basin lists, settings, seeds and points of the image", "why_tests_cant": "Tests draw one figure and do not compare colours with tables.", "anchors": ["notebooks/figure_scripts/plot_figs.py:volatilized_fraction_bsed", "moonpies/moonpies.py:read_ballistic_melt_frac"]}
{"id": "C97", "title": "The figures of columns that compare runs and seeds", "statement": "strat_cols_seeds puts A, B and C on the first cold trap of the first three seeds in the first run whenever there are three cold traps (the default), at least three seeds and a run; strat_cols_bsed puts A and B on the first cold trap of the first two runs, raises StopIteration for one run and IndexError for none. strat_cols_seeds fails exactly if the columns cannot be drawn or there are fewer than nine axes besides the colour bar. The version is on the last column drawn in the last run. The saved percentages are in the order of runs, seeds and cold traps; ice_pct_fig7 and ice_pct_fig8 show them to two decimals, with as many rows as the longest column and empty cells below the others; ice_pct_fig8 is a KeyError exactly if one of the two runs has no file, and the table cannot be read if both have none. Fails: the letters mark the seeds for other numbers of cold traps (with four, B is on the empty axis between seeds); the version is at the right end of the figure.", "quantifier": "all files, runs, seeds and cold traps", "why_tests_cant": "Tests draw one figure at most and do not look at which axes carry which letters.", "anchors": ["notebooks/figure_scripts/plot_figs.py:strat_cols_bsed", "notebooks/figure_scripts/plot_figs.py:strat_cols_seeds", "notebooks/figure_scripts/plot_figs.py:ice_pct_fig7", "notebooks/figure_scripts/plot_figs.py:ice_pct_fig8", "moonpies/plotting.py:plot_stratigraphy"]}
{"id": "C98", "title": "The figure of impact speeds", "statement": "For settings with positive deviations, fractions and speeds and any truncated normal distribution, ast_comet_vels draws at 10000 even steps from 0 to the largest comet speed: the distribution function of comets, between 0 and 1 and never falling, and the survival function, 1 less the other; densities that are not negative, that of asteroids 0 below the escape speed and positive above, that of comets positive from the least speed below either mean to the largest speed above it and 0 outside. Its bars show 100000 random speeds of each kind: 39 bars of even width up to the largest comet speed and 40 that contain all speeds of comets, each as high as its part of the speeds in range over its width; bars that contain a speed have area 1. Fails: comets have speeds from the least to the largest speed set (with the defaults the density is positive below the least speed, and the distribution function is below 1 at the largest).", "quantifier": "all settings, random numbers and truncated distributions", "why_tests_cant": "Tests draw the figure at most once and check neither the curves nor the bars.", "anchors": ["notebooks/figure_scripts/plot_figs.py:ast_comet_vels", "moonpies/moonpies.py:asteroid_speed_rv", "moonpies/moonpies.py:comet_speed_rv"]}
{"id": "C99", "title": "All figures: version marks, files and sensitivity violins", "statement": "plot_version marks a figure with MoonPIES v and the version at the corner named by the first two letters of loc, 0.02 and 0.035 of the axes inside it, aligned to that side, moved by xy and xyoff, and returns v and the version; a loc that names no corner raises. _generate_all runs the 23 public functions; each writes one file and no two write files of one name, for any directory and version. By default each file is under its own name in the directory of the day and version. In another directory figures whose name gets the version stay apart from those of another version. bsed_sensitivity_violin draws for each crater of the list the logs of the ice of all runs without (0% lost) and with half (50% lost) ballistic sedimentation, comet_sensitivity_violin those of runs of wet comets (100%) and of the default (20%). The figures show the default cold traps of the south pole, each once, older ones first up to 0.1 billion years. Fails: older ones come first without exception; figures of two versions in one directory are never written over each other (kde_layers and ice_retention pass no version).", "quantifier": "all versions, locations, offsets, directories and sets of runs", "why_tests_cant": "Tests draw no figure and check no file name.", "anchors": ["moonpies/plotting.py:plot_version", "notebooks/figure_scripts/plot_figs.py:_generate_all", "notebooks/figure_scripts/plot_figs.py:bsed_sensitivity_violin", "notebooks/figure_scripts/plot_figs.py:comet_sensitivity_violin", "notebooks/figure_scripts/plot_figs.py:CORDER"]}
{"id": "C100", "title": "Heat capacity of regolith and units of length", "statement": "specific_heat_capacity is the polynomial of the temperature with the five configured coefficients, that of the constant first; another number of coefficients raises ValueError. With the default coefficients it rises with temperature from 0 to 550 K, and is positive at every temperature from 2 K on. With them it is also the capacity the conduction model uses (thermal_eq.sphc). m2km and km2m undo each other. Fails: it rises at all temperatures (it falls from 600 to 640 K); it is positive at all temperatures (negative at 1 K).", "quantifier": "all configurations and temperatures", "why_tests_cant": "A test compares a few temperatures; where the polynomial turns and changes its sign is a question about all of them.", "anchors": ["moonpies/moonpies.py:specific_heat_capacity", "moonpies/moonpies.py:m2km", "moonpies/moonpies.py:km2m", "moonpies/thermal_eq.py:sphc"]}
{"id": "C101", "title": "Freshly made melt fraction tables fit the runs", "statement": "Running thermal_eq as a script always makes both tables, wherever the ejecta is placed at random and in whatever order the processors report. Any run that reads the table of means with the default mixing ratio and temperature options finds increasing labels, one value from 0 to 1 for each pair, and no lookup outside the table for any distance on the Moon; so with valid data and times it finishes. The rows are the target fractions 0, 1/40, ..., 39/40 as mixing ratios, the columns 110, 115, ..., 510 K; each entry is the mean, or the standard deviation, of the melt fractions of the seeds 0 to 19. In the table of means the row of mixing ratio 0 is 1, and the column of 110 K is 0 in all other rows.", "quantifier": "all random placements, iteration limits, numbers of processors and orders of reports, configurations and impact lists of a run", "why_tests_cant": "Making the tables takes hours, and a test would see one choice of random placements and distances; the labels are rounded to six digits when written, which could merge two of them.", "anchors": ["moonpies/thermal_eq.py:__main__", "moonpies/thermal_eq.py:make_melt_frac_dfs", "moonpies/moonpies.py:read_ballistic_melt_frac", "moonpies/moonpies.py:get_melt_frac"]}
{"id": "C102", "title": "Spellings of the command line", "statement": "The seed, --resume and --cfg may come in any order; --resume and --cfg may be abbreviated (--r to --resume, --c to --cfg, -c), and the file may follow --cfg as the next argument, after = or directly after -c: the program gets the one seed, the last file and whether to resume. A second seed, a value for --resume or for an option of no name (--=x), or an option that begins like none of the options ends the program. With options written out the result is that of the command of C85. Fails: the number after the options is the seed (moonpies --cfg 5 takes 5 as the file).", "quantifier": "all argument lists made of seeds, files and options in any spelling and order, all file names and numbers", "why_tests_cant": "Tests try a few command lines; the orders, spellings and file names (with =, dashes or spaces) are unbounded.", "anchors": ["moonpies/cli.py:run"]}
