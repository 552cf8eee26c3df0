{
 "C57": {
  "note": "Main ignores the flag: both runs are equal, every basin counts, and exclusion of basins is refuted by a run."
 },
 "C60": {
  "note": "Saving is C48; column loops of main run in exact arithmetic (rounded loops: C01-C09), the tables use any order-preserving conversion."
 },
 "C49": {
  "note": "Exact arithmetic. Stability outside 15-720 K and conservation of heat ('assume closed system') are refuted by witnesses."
 },
 "C50": {
  "note": "Placement of the ejecta is any choice of distinct positions; temperatures in exact arithmetic. A target hot from the start counts as not melted: refuted by a witness."
 },
 "C51": {
  "note": "Any process count and any order of reports, for at least one ratio; for an empty list the two ways differ (refuted)."
 },
 "C58": {
  "note": "The merging described in the code's comments does not happen (list.extend returns None): refuted by a witness, and the actual result is characterised for all tables."
 },
 "C59": {
  "note": "Proved for consistent tables and, composed with make_strat_col, for the tables of runs. C59_times_refuted: in general the list of times is not filtered like the lists of ice and depths; C59_run shows that this cannot happen for tables of runs with strat_after_age."
 },
 "C73": {
  "note": "matplotlib's fill_betweenx is modelled as fills of the intervals between neighbouring rows, later fills on top."
 },
 "C74": {
  "note": "C74_unaffected is proved without ballistic sedimentation. With it the claim is false of the code: C74_unaffected_with_sedimentation_refuted gives two full runs that differ in the cold trap's ice (half against a third left); C74_depths and C74_given_melt prove that the melt fractions are the only cause."
 },
 "C75": {
  "note": "The axes are exact for every conversion that keeps integers up to 2^24 (binary32: C75_float32). The distances on the grid are in exact arithmetic. Refuted: the documented extent for steps that do not divide, rectangular grids, labels other than 0..n-1, negative thresholds as no limit, the configured lunar radius."
 },
 "C76": {
  "note": "Patches are modelled as fills with a label and a colour. That columns keep their appearance is proved for figures of plot_stratigraphy (C76_columns_unchanged, and for tables of runs C76_runs_unchanged) and refuted for other axes."
 },
 "C77": {
  "note": "matplotlib's grid is a list of axes per run. Refuted: one depth scale for all runs, and finding the files of a run that was given an out_path."
 },
 "C78": {
  "note": "matplotlib's LinearSegmentedColormap is modelled by its table of 256 entries. Refuted: full white, three-digit codes, lists of one colour."
 },
 "C79": {
  "note": "In exact arithmetic; both runs are assumed to succeed (C60 says when they do)."
 },
 "C80": {
  "note": "Files are texts; left out: lines with more fields than columns, blanks around numbers, infinities, names that are truth values. Numbers are exact; NaN in a needed column is an error in the model."
 },
 "C81": {
  "note": "In exact arithmetic, from the texts of the shipped files. Refuted: the other documented pole and the volcanic mode 'NK'."
 },
 "C82": {
  "note": "In exact arithmetic. The comparison of ice assumes that both runs finish (the first one always does, C81)."
 },
 "C86": {
  "note": "Pickling is a pair of functions that are inverse on what is dumped; to_csv and read_csv with three lines of headings are modelled on texts; empty frames are left out. Refuted: failures of a cold trap are reported."
 },
 "C87": {
  "note": "Exact arithmetic, where the text says mean. The random numbers of each seed are a parameter; the comet table of a seed starts again from the draws of the list of craters, whereas a run goes on after the asteroid draws. C87_total is for impact_ice_basins on. Refuted: volcanic ice is that of a run; comets can be switched off; the shade is a maximum."
 },
 "C88": {
  "note": "The numbers handed to the plotting library, in exact arithmetic; how numbers are written and read is a parameter (read_as), rounding to 10 cm is to the nearest tenth. New names of runs are distinct and not old names of others (renames; the other case is refuted). Two slashes at the start of a path, symbolic links and versions with a slash are left out. Refuted: versions keep apart; the last day is taken; all figures guess the day; the title counts what is drawn; names can change places; p99."
 },
 "C89": {
  "note": "The numbers handed to the plotting library, in exact arithmetic; equal parts as pandas.cut makes them, for an axis with two different times at least. Without seeds all numbers are NaN and the figure is left out. Refuted: the argument bins; the shade of the largest depth on the right."
 },
 "C90": {
  "note": "Exact arithmetic; the random numbers of each generator that is made are a parameter. A run on its own (basin_run) is one for some draws. C90_when needs a water content that is positive. No runs at all are left out. Refuted: the same figure each time; the axis of the given configuration; averages at the ends; the percentile."
 },
 "C91": {
  "note": "The numbers handed to the plotting library, in exact arithmetic; the random numbers of each generator that is made, of each seed, and the seed drawn in place of 0 are parameters, and so is which random number an entry of SciPy's two-dimensional sample has. Names of basins do not start with a star. Refuted: stars and ages; error bars; both figures repeatable; all ages counted; seeds as in the run."
 },
 "C92": {
  "note": "The numbers handed to the plotting library, in exact arithmetic; labels are kept as name and diameter, not as formatted text; shaded areas and legends are left out. Thickness of basins is shown positive for the shipped constants only. Refuted: depth against distance; energy at four radii; units of the axes."
 },
 "C93": {
  "note": "The numbers handed to the plotting library, in exact arithmetic; random numbers of each generator that is made are a parameter. Colours and the logarithmic scale of the ejecta (which hides cells of 0) are left out; so is an empty pair of files. Refuted: settings; thresholds; start at 4.25 Ga; repeatable ages; labels of vertical lines; unit of the axis."
 },
 "C94": {
  "note": "The numbers handed to the plotting library, in exact arithmetic; np.polyfit is modelled by the normal equations, np.geomspace for positive ends. The shipped table of efficiencies is rounded to six digits where its values matter. The regime c is within a 999th of its largest transient crater of the exact law. Refuted: one regime for each impactor; unit of impactors; fractions at most 1; fit to the last datum."
 },
 "C95": {
  "note": "pprint.pformat (compact, unsorted, width 80) and ast.literal_eval are modelled on bytes; how a finite float is written and what a literal denotes are parameters with the hypothesis that reading gives back what was written. Widths count bytes; line separators beyond ASCII do not split texts; literal_eval is without sets, bytes, complex numbers, prefixes, triple quotes, \\u escapes and items without brackets. Refuted: whatever loads can be saved and loaded again (infinities)."
 },
 "C96": {
  "note": "Images are rows of numbers with an extent; which cell lies at a point follows the documentation of imshow (first row at the top, even cells). Colours, ticks and labels are left out; no mixing ratio is -1. Refuted: colours below 110 K, nearest entries, rows that are not evenly spaced."
 },
 "C97": {
  "note": "fig.axes is modelled as the list of axes in order of creation, with the twin axes of plot_strat; axes are in one row exactly if their lower edges agree. The csv file between saving and reading is the table itself. Printing with three digits and shades are left out. Refuted: letters for other numbers of cold traps, place of the version."
 },
 "C98": {
  "note": "scipy truncnorm is left abstract: its density, distribution and survival function are any with the laws of the record truncated (support, sign, monotone, total 1), shown to be satisfiable. Histogram bins of numpy are modelled; colours and ticks are left out. Refuted: the limits set for comets are limits of their speeds."
 },
 "C99": {
  "note": "The table of public functions, their default file names and whether they pass a version is read off plot_figs.py; processes run one after another, each with its defaults. Text box, font and colours are left out. Refuted: figures of two versions never overwrite each other."
 },
 "C100": {
  "note": "Real arithmetic. The coefficients are those of the configuration object of C39. Refuted: the capacity rises, or is positive, at all temperatures."
 },
 "C101": {
  "note": "Real arithmetic for the axes; printing with six digits and the rounding of the number of ejecta elements are any functions with the stated accuracy. That the printed text is read back as the printed number is part of the printing function."
 },
 "C102": {
  "note": "argparse modelled from its source for Python 3.8 to 3.11; the argument \"--\" is left out. int of a text is a parameter."
 }
}