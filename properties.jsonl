{"id": "C01", "title": "Accumulating and then differencing an incremental triangle gives the triangle back", "statement": "For an incremental triangle, `X.incr_to_cum().cum_to_incr()` equals X in the library's own sense (a missing cell reads as 0) at every index, column, origin and age that is not later than the valuation date, keeps every axis label and the valuation date, and shows no value after the valuation date. This holds whenever the triangle has at least two origins and at least three ages; with exactly two ages or one origin the future cells are not masked and receive a spurious negative amount.", "quantifier": "every triangle shape (index x column x origin x age), every pattern of missing cells, every amount, every valuation date", "why_tests_cant": "a test fixes the shape, the numbers and the location of missing cells; the mask depends on the shape of an intermediate slice, so a law about all shapes cannot be sampled", "anchors": ["chainladder/core/triangle.py::Triangle.incr_to_cum", "chainladder/core/triangle.py::Triangle.cum_to_incr", "chainladder/core/base.py::TriangleBase.nan_triangle", "chainladder/core/dunders.py::TriangleDunders.__sub__"]}
{"id": "C02", "title": "Differencing and then accumulating a cumulative triangle gives the triangle back", "statement": "For a cumulative triangle with at least two ages, `X.cum_to_incr().incr_to_cum()` equals X (missing reads as 0) at every cell up to the valuation date, for every number of origins and ages, and keeps the axis labels and the valuation date; with at least two origins it is missing after the valuation date. A triangle with a single age raises.", "quantifier": "every cumulative triangle, every shape, every amount including negatives and zeros, every placement of missing cells", "why_tests_cant": "same as C01: all shapes and all placements of missing values", "anchors": ["chainladder/core/triangle.py::Triangle.cum_to_incr", "chainladder/core/triangle.py::Triangle.incr_to_cum"]}
{"id": "C03", "title": "Increments of an origin add up to its latest diagonal", "statement": "For a cumulative triangle with at least two origins and at least three ages, summing the increments of `cum_to_incr()` over development gives, for every index, column and origin, the amount on the latest diagonal; for a triangle with exactly two ages the sum is wrong for every origin that has not reached the second age.", "quantifier": "every cumulative triangle in which each origin has exactly one cell at the valuation date", "why_tests_cant": "conservation over arbitrary many origins and ages, and a boundary in the shape of the triangle", "anchors": ["chainladder/core/triangle.py::Triangle.cum_to_incr", "chainladder/core/triangle.py::Triangle.latest_diagonal", "chainladder/core/pandas.py::add_triangle_agg_func"]}
{"id": "C04", "title": "Accumulation and differencing are idempotent", "statement": "`incr_to_cum` on a triangle already flagged cumulative, and `cum_to_incr` on a triangle already flagged incremental, return the same amounts, labels, flags and valuation date; applying either conversion twice is the same as applying it once.", "quantifier": "every triangle and every flag value (True, False, unset)", "why_tests_cant": "a law over all triangles and all flag values", "anchors": ["chainladder/core/triangle.py::Triangle.incr_to_cum", "chainladder/core/triangle.py::Triangle.cum_to_incr"]}
{"id": "C05", "title": "Age-to-age and age-to-ultimate factors determine each other", "statement": "For a pattern, the age-to-ultimate factor at age j given by `incr_to_cum()` is the product of all age-to-age factors from j on (missing factors count as 1), consecutive age-to-ultimate factors divide back to the age-to-age factors via `cum_to_incr()`, and the last factor is kept.", "quantifier": "every number of ages and all non-zero factors, including missing factors", "why_tests_cant": "a product identity over every length of pattern and every factor value", "anchors": ["chainladder/core/triangle.py::Triangle.incr_to_cum", "chainladder/core/triangle.py::Triangle.cum_to_incr", "chainladder/core/common.py::Common.cdf_"]}
{"id": "C06", "title": "Switching between development and valuation view moves every cell to the right date and back", "statement": "`dev_to_val()` puts the amount of (origin, age) at (origin, valuation = origin + age - 1 months), `val_to_dev()` of that returns every original amount to its original age, and no amount is lost, duplicated or moved between origins; a full cumulative triangle shows at each valuation the running total reached by then, and comes back unchanged if it carries ultimates, and otherwise followed by ages that repeat its last totals. Boundaries: some origin other than the first must hold data (otherwise the data is filed under a later valuation), the known valuations must have no gap (otherwise the conversion raises), and a valuation triangle must start with the first origin's first age or be a single diagonal (otherwise every amount comes back at a wrong age).", "quantifier": "every origin grain, development grain, number of origins and ages and every set of known cells", "why_tests_cant": "an index shift has to be right for every grain combination and every coordinate", "anchors": ["chainladder/core/triangle.py::Triangle.dev_to_val", "chainladder/core/triangle.py::Triangle.val_to_dev", "chainladder/core/triangle.py::Triangle._val_dev", "chainladder/core/base.py::TriangleBase.valuation"]}
{"id": "C07", "title": "Coarsening the origin grain adds up exactly the origins in the coarser period", "statement": "`grain()` to a coarser origin gives, at every kept valuation, the sum over the fine origins inside the coarse period (for increments: over the valuations since the previous kept one), no fine origin is counted twice or lost, hence totals per valuation are unchanged, and the result carries the requested grains. This needs coarse origins that show their grain (the library reads the grain off the calendar months of the new origins: a single half-year or quarter reads as a year, two or three quarters over a year end read as months and amounts move to wrong ages), fine origins that start on period boundaries, and either data from the start of the first coarse period or monthly development; quarterly development with a partial first period is relabelled to ages 1, 4, 7.", "quantifier": "every triangle and every assignment of fine origin periods to coarse ones", "why_tests_cant": "partition arguments over arbitrary many periods", "anchors": ["chainladder/core/triangle.py::Triangle.grain", "chainladder/core/pandas.py::add_groupby_agg_func"]}
{"id": "C08", "title": "Coarsening the development grain keeps the latest valuation and the right evaluations", "statement": "Coarsening a cumulative triangle's development keeps exactly every step-th valuation counted back from the latest one, so the latest diagonal is unchanged; coarsening an incremental triangle adds the increments in between, so coarsening commutes with accumulation.", "quantifier": "every number of valuations, every step", "why_tests_cant": "index arithmetic for every length and every step, including lengths that are not a multiple of the step", "anchors": ["chainladder/core/triangle.py::Triangle.grain"]}
{"id": "C09", "title": "Illegal grain requests are rejected and legal ones are not", "statement": "`grain('OxDy')` raises exactly when the requested origin or development grain is finer than (or not nested in) the current one, when the origin grain would be finer than the development grain, or when the cumulative flag is unset and development must change; otherwise it succeeds, on evenly spaced triangles that meet the conditions of C07; half-yearly development with a change of the origin grain is refused although the grains nest, and monthly origins over a year end asked for quarters by quarters fail with KeyError.", "quantifier": "all combinations of current and requested grains and flag values", "why_tests_cant": "the accept/reject table must be right on the whole product of states and requests", "anchors": ["chainladder/core/triangle.py::Triangle.grain"]}
{"id": "C10", "title": "Link ratios are the ratios of neighbouring known cells", "statement": "`link_ratio` at (origin, age j) times the amount at age j is the amount at age j+1 wherever both are known and the current amount is not zero; it is missing when either is missing or zero, and it never uses a cell later than the valuation date.", "quantifier": "every triangle with at least two origins and three ages", "why_tests_cant": "every cell of every triangle; masking depends on the valuation date", "anchors": ["chainladder/core/triangle.py::Triangle.link_ratio", "chainladder/core/dunders.py::TriangleDunders.__rtruediv__"]}
{"id": "C11", "title": "The latest diagonal is the amount of each origin at the valuation date", "statement": "`latest_diagonal` holds for each origin the single amount whose valuation equals the valuation date, is unchanged by moving between development and valuation view, and by discarding earlier valuations.", "quantifier": "every triangle, every valuation date", "why_tests_cant": "holds for all shapes and all valuation dates", "anchors": ["chainladder/core/triangle.py::Triangle.latest_diagonal", "chainladder/core/slice.py::TriangleSlicer._slice_valuation"]}
{"id": "C12", "title": "Triangle addition and subtraction obey the laws of arithmetic", "statement": "For triangles with the same axes, addition is commutative and associative, subtraction undoes addition, X - X is empty, missing cells count as zero, and the result has no value after the later of the two valuation dates; `0 + X` is X so Python's `sum` of a list of triangles is their cell-wise sum.", "quantifier": "all triangles with equal axes, all shapes, all amounts", "why_tests_cant": "algebraic laws over all amounts and shapes", "anchors": ["chainladder/core/dunders.py::TriangleDunders.__add__", "chainladder/core/dunders.py::TriangleDunders.__sub__", "chainladder/core/dunders.py::TriangleDunders.__radd__", "chainladder/core/dunders.py::TriangleDunders._arithmetic_cleanup"]}
{"id": "C13", "title": "Arithmetic on triangles with different origins or ages aligns by label", "statement": "Adding triangles whose origin and age axes are gap-free ranges of the same grain yields for each (origin, age) label the sum of the two amounts carrying that label (0 if absent), for every axis that differs having at least two labels on both sides (a single origin or age is broadcast). If an axis has gaps the alignment can silently be by position instead.", "quantifier": "every pair of gap-free origin ranges and age ranges: disjoint, nested, overlapping, equal", "why_tests_cant": "all overlaps of two ranges; the broadcast test compares labels position by position", "anchors": ["chainladder/core/dunders.py::TriangleDunders._prep_origin_development"]}
{"id": "C14", "title": "Arithmetic on triangles with different columns aligns by column name", "statement": "`x + y` gives under each column name the sum of the two columns with that name whenever the right operand has a column the left one lacks; if the left operand has every column of the right one but more of them, or the same columns in a different order, the operation raises instead, so x + y and y + x do not both succeed.", "quantifier": "all pairs of lists of distinct column names with more than one column each", "why_tests_cant": "all relative orders and overlaps of two column lists", "anchors": ["chainladder/core/dunders.py::TriangleDunders._prep_columns", "chainladder/core/triangle.py::Triangle.reindex"]}
{"id": "C15", "title": "Arithmetic on triangles with different index rows aligns by index key", "statement": "When both triangles carry the same key labels and have at least two rows, `x + y` gives for each key the sum of the rows with that key, also when the rows are in a different order or when a key is missing on one side; if neither set of key labels contains the other the operation raises. A one-row triangle is added to every row whatever its key, so two one-row triangles with different keys are added together.", "quantifier": "all pairs of sets of index keys and all row orders", "why_tests_cant": "alignment over all permutations and subsets", "anchors": ["chainladder/core/dunders.py::TriangleDunders._prep_index", "chainladder/core/dunders.py::TriangleDunders._arithmetic_mapper", "chainladder/core/dunders.py::TriangleDunders._slice_or_nan"]}
{"id": "C16", "title": "Positional slicing returns exactly the requested cells in the requested order", "statement": "`iloc` with an integer, a slice or a list of positions on each axis returns exactly the cells asked for, in the order asked for and with their labels, and sets the valuation date to the latest valuation left if that is earlier; lists of origins or ages must be evenly spaced, otherwise they are refused, and so are positions outside the axis. Exceptions: a slice over a whole axis loses its step, a backward slice that starts at position 0 returns the whole axis, and a list that repeats one position raises.", "quantifier": "every triangle and every integer, slice (any start, stop, step and sign) and list of positions on each axis", "why_tests_cant": "boundary arithmetic for every start, stop, step and sign", "anchors": ["chainladder/core/slice.py::_LocBase._contig_slice", "chainladder/core/slice.py::_LocBase._normalize_index", "chainladder/core/slice.py::_LocBase.get_idx"]}
{"id": "C17", "title": "Filtering on valuation keeps exactly the selected cells", "statement": "`X[X.valuation <= d]` keeps every amount valued at or before d, drops every other, drops only origins and ages without any selected cell, and sets the valuation date to the latest selected valuation not after the old one; filtering twice with d1 and d2 is filtering with the earlier one.", "quantifier": "every triangle and every pair of cut-off dates", "why_tests_cant": "all dates and all shapes", "anchors": ["chainladder/core/slice.py::TriangleSlicer._slice_valuation", "chainladder/core/slice.py::TriangleSlicer.__getitem__"]}
{"id": "C18", "title": "Grouping and summing neither loses nor duplicates amounts", "statement": "For any grouping of index rows, the grouped sums added over the groups equal the sum over all rows, every group row is the sum of exactly its members, and the result does not depend on the row order.", "quantifier": "every assignment of rows to groups and every triangle", "why_tests_cant": "partition identities over all groupings", "anchors": ["chainladder/core/pandas.py::add_groupby_agg_func", "chainladder/core/pandas.py::TriangleGroupBy", "chainladder/core/pandas.py::add_triangle_agg_func"]}
{"id": "C19", "title": "dropna only removes empty edges unless amounts cancel", "statement": "`dropna()` removes leading and trailing origins and ages whose total over index and columns is zero; every non-zero amount of a triangle with non-negative amounts survives, but with amounts of mixed sign a non-empty edge whose amounts cancel is deleted.", "quantifier": "every triangle", "why_tests_cant": "a data-dependent cut over all triangles", "anchors": ["chainladder/core/pandas.py::TrianglePandas.dropna"]}
{"id": "C20", "title": "Building a triangle conserves the data and ignores row order", "statement": "The amount in each (index, column, origin, age) cell of a triangle built from a table is the sum of the table rows that belong there; rows whose development precedes the origin contribute nothing; duplicate rows add up; a column of the triangle has the total of its rows; all origin periods from the first to the valuation date are present; any permutation of the rows gives the same triangle. Origins and developments are years, quarters or months whose origin periods follow the calendar: fiscal-year origins valued after the turn of the calendar year, and half-yearly development dates, are misplaced (both refuted).", "quantifier": "every table (list of records)", "why_tests_cant": "all multisets of records in all orders", "anchors": ["chainladder/core/base.py::TriangleBase._aggregate_data", "chainladder/core/base.py::TriangleBase._set_values", "chainladder/core/triangle.py::Triangle.__init__"]}
{"id": "C21", "title": "Sparse and dense storage give the same results", "statement": "Converting between dense and sparse storage loses nothing, and every composition of additions, subtractions, multiplications, divisions (by triangles or numbers), accumulation, sums along an axis, filters, selections of ages, concatenation and alignment gives the same amounts, or the same error, whether triangles are stored dense or sparse; so does setting a cell to an amount and assigning a column of the same shape. The storages differ for: the mean (the sparse mean skips stored zeros), cumulative factors with a missing factor, cells set to missing, cells set in an empty triangle, a one-row value assigned to a column, and alignment of operands with gaps in their origins (each refuted).", "quantifier": "every program built from these operations, on all arrays and all representations of them as coordinates", "why_tests_cant": "two implementations must agree on all inputs", "anchors": ["chainladder/core/common.py::Common.set_backend", "chainladder/utils/sparse.py::nansum", "chainladder/utils/sparse.py::nanmean", "chainladder/utils/utility_functions.py::num_to_value", "chainladder/core/triangle.py::Triangle.incr_to_cum"]}
{"id": "C22", "title": "Operations without inplace=True leave their operands unchanged", "statement": "After any sequence of copies, conversions, arithmetic, slices, concatenations and in-place changes of any triangles under any names, a triangle that was not itself the target of an assignment or of a call with inplace=True has the same labels, dates, flags and amounts, and results of operations are new objects; a triangle without virtual columns gets none. Exceptions, each refuted: `rename` changes the triangle it is called on; virtual columns added to a copy of a triangle that has some appear in the original, and assigning such a column on the copy removes it from the original; assigning a sparse triangle to a column of a sparse triangle moves the amounts of the assigned triangle; `+x`, `0 + x`, `1 * x` and `sum([x])` return x itself.", "quantifier": "every finite history of operations on any number of triangles, for whatever the operations compute", "why_tests_cant": "aliasing shows only along particular histories", "anchors": ["chainladder/core/triangle.py::Triangle.copy", "chainladder/core/pandas.py::TrianglePandas.rename", "chainladder/core/slice.py::VirtualColumns", "chainladder/core/slice.py::TriangleSlicer.__setitem__", "chainladder/core/slice.py::TriangleSlicer._set_slicers"]}
{"id": "C23", "title": "Concatenation keeps every cell under its own label", "statement": "`concat` along an axis returns the operands' cells under their labels in order, rejects duplicate labels on the concatenation axis and differing labels on the others, and takes the latest valuation date; for axes other than columns this needs the operands to list their columns in the same order - otherwise amounts end up under the wrong column name.", "quantifier": "every list of triangles and every axis", "why_tests_cant": "all lists of all lengths, all label orders", "anchors": ["chainladder/utils/utility_functions.py::concat"]}
{"id": "C24", "title": "Triangle equality and comparison", "statement": "`==` is an equivalence that identifies missing with zero and ignores labels; `<` is strict comparison of amounts; `<=` is implemented as `<`, so comparing X with its own amounts by `<=` is false everywhere.", "quantifier": "all pairs and triples of triangles of one shape", "why_tests_cant": "equivalence laws over all triples", "anchors": ["chainladder/core/dunders.py::TriangleDunders.__eq__", "chainladder/core/dunders.py::TriangleDunders.__le__", "chainladder/core/dunders.py::TriangleDunders.__lt__"]}
{"id": "C25", "title": "Selected development factors are the documented weighted averages", "statement": "For each age the fitted factor is sum(y)/sum(x) for 'volume', the arithmetic mean of y/x for 'simple' and sum(xy)/sum(x^2) for 'regression', taken over exactly the origins with positive weight and both amounts known.", "quantifier": "every column of a triangle, every number of origins, every 0/1 weight pattern", "why_tests_cant": "an algebraic identity over all data", "anchors": ["chainladder/development/development.py::Development.fit", "chainladder/utils/weighted_regression.py::WeightedRegression._fit_OLS_thru_orig"]}
{"id": "C26", "title": "A selected factor lies between the smallest and largest link ratio used", "statement": "With positive amounts, the fitted factor for each of the three averages is at least the smallest and at most the largest link ratio with positive weight; if all included ratios are equal to f the factor is f and the fitted sigma and standard error are 0.", "quantifier": "all positive data, all weights", "why_tests_cant": "an inequality over all data", "anchors": ["chainladder/development/development.py::Development.fit", "chainladder/utils/weighted_regression.py::WeightedRegression._fit_OLS_thru_orig"]}
{"id": "C27", "title": "Excluded link ratios have no influence", "statement": "Changing the amounts of an origin in a way that affects only link ratios with zero weight leaves the fitted factor unchanged: amounts entering only ratios that are listed in `drop` or lie outside `n_periods` may be anything, and with the data-dependent rules (drop_high, drop_low, drop_above, drop_below, drop_valuation) any change that keeps the same ratios selected and their amounts unchanged has no effect.", "quantifier": "all data, all weights, all changes to excluded cells", "why_tests_cant": "non-interference is a statement about pairs of inputs", "anchors": ["chainladder/development/development.py::Development.fit", "chainladder/development/base.py::DevelopmentBase._drop_adjustment"]}
{"id": "C28", "title": "Chain ladder factors do not depend on the currency unit", "statement": "Multiplying every amount by a positive constant leaves factors unchanged and multiplies ultimates, IBNR and run-off by that constant.", "quantifier": "all triangles, all positive constants", "why_tests_cant": "a homogeneity law over all data", "anchors": ["chainladder/development/development.py::Development.fit", "chainladder/methods/chainladder.py::Chainladder._get_ultimate"]}
{"id": "C29", "title": "drop_high / drop_low remove exactly the k highest / lowest ratios, subject to preserve", "statement": "For every age the ratios kept by drop_high=h, drop_low=l are those of rank l..n-h-1 among the n known ratios; exactly n-h-l are kept when that is at least `preserve`, and all of them otherwise. This holds when n_periods is a single number and no age has more known ratios than it (than the number of fitted ages for n_periods=-1); with more origins than ages drop_high discards nearly everything, and with n_periods given per age the fit raises.", "quantifier": "every column of ratios, every h, l, preserve", "why_tests_cant": "ranking and counting over all columns, including ties and missing ratios", "anchors": ["chainladder/development/base.py::DevelopmentBase._drop_n", "chainladder/development/base.py::DevelopmentBase._drop_n_func"]}
{"id": "C30", "title": "drop_above / drop_below keep exactly the ratios strictly inside the bounds, subject to preserve", "statement": "A ratio keeps its weight iff it lies strictly between the bounds; if fewer than `preserve` ratios remain for an age all known ratios of that age are kept. Giving drop_above alone also activates the default lower bound 0, so negative ratios are dropped too.", "quantifier": "every column of ratios, all bounds", "why_tests_cant": "all data and bounds", "anchors": ["chainladder/development/base.py::DevelopmentBase._drop_x", "chainladder/development/base.py::DevelopmentBase._drop_x_func"]}
{"id": "C31", "title": "Chain ladder ultimate and IBNR", "statement": "The ultimate of each origin is its latest amount times the product of the selected factors from its current age on; IBNR is ultimate minus latest; factors all 1 give IBNR 0; factors of at least 1 and non-negative amounts give non-negative IBNR.", "quantifier": "all triangles and factor patterns", "why_tests_cant": "identities and inequalities over all data", "anchors": ["chainladder/methods/chainladder.py::Chainladder._get_ultimate", "chainladder/methods/base.py::MethodBase._align_cdf", "chainladder/core/common.py::Common.ibnr_"]}
{"id": "C32", "title": "Benktander interpolates between expected loss and chain ladder", "statement": "With q = 1 - 1/cdf, the n-iteration Benktander ultimate equals CL + q^n (expectation - CL); n = 0 is the expectation, n = 1 is latest + q*expectation (Bornhuetter-Ferguson); n iterations are n nested Bornhuetter-Ferguson steps; for cdf >= 1 it lies between CL and expectation and its distance to CL shrinks monotonically to 0. An expectation that offsets the latest amount exactly gives a missing ultimate.", "quantifier": "every number of iterations, every latest amount, expectation and cdf", "why_tests_cant": "induction over the number of iterations", "anchors": ["chainladder/methods/benktander.py::Benktander._get_ultimate", "chainladder/methods/bornferg.py::BornhuetterFerguson", "chainladder/methods/expectedloss.py::ExpectedLoss"]}
{"id": "C33", "title": "Cape Cod a-priori is an exposure-weighted average", "statement": "The Cape Cod a-priori of origin i is the average of trended ultimate loss ratios with weights exposure/cdf * decay^|i-j|: it lies between the smallest and largest ratio, with decay 1 it is the same for all origins and equals total latest / total used-up exposure, with decay 0 the method reproduces the chain ladder ultimate for every number of iterations. Origins without exposure, or whose latest amount offsets their exposure exactly, are not used.", "quantifier": "every number of origins, all positive exposures and cdfs, every decay in [0,1]", "why_tests_cant": "inequalities over all data; decay matrix over all index pairs", "anchors": ["chainladder/methods/capecod.py::CapeCod._get_capecod_aprioris"]}
{"id": "C34", "title": "The full triangle keeps what is known and ends at the ultimate", "statement": "`full_triangle_` equals the data at every cell up to the valuation date. Each later column is the latest amount plus the emerged share of ultimate less latest, the share following the remaining factors, and the last column is the ultimate, for every origin whose ultimate is not 0 and whose remaining factors do not multiply to 1. For factors >= 1 the run-off moves steadily from latest to ultimate. With the chain ladder each column is latest times the factors passed. Incremental models hold the differences. An origin with remaining factor exactly 1, or with an ultimate of 0, ends at its latest amount whatever the ultimate is; on a two-by-two triangle the run-off follows factors that are each too large by 1.", "quantifier": "all triangles with at least two origins, at least three known ages in the oldest and two in the next, all evenly spaced patterns with every factor present, all ultimates", "why_tests_cant": "all data and patterns; the exceptional cases need a factor product of exactly 1, a zero ultimate or a very small triangle", "anchors": ["chainladder/core/common.py::_get_full_triangle"]}
{"id": "C35", "title": "Full expectation is the ultimate spread by the pattern", "statement": "For a cumulative model `full_expectation_` at age j is ultimate / cdf_j and ends with the ultimate, so for the chain ladder it reproduces the reported amount at the current age. For an incremental model the columns up to each age add to ultimate / cdf_j; all columns add to the ultimate if the last factor is 1, and otherwise do not because the tail increment is subtracted the wrong way round.", "quantifier": "all patterns and ultimates", "why_tests_cant": "sums over all lengths of pattern", "anchors": ["chainladder/core/common.py::_get_full_expectation"]}
{"id": "C36", "title": "A constant tail multiplies to the requested tail for every decay and projection period", "statement": "After TailConstant the product of the factors from the attachment age on is exactly the requested tail, factors before attachment are unchanged, whatever the decay, projection period and attachment age after the first age; an attachment at the first age is ignored.", "quantifier": "all patterns, tails, decays, projection periods and attachment ages", "why_tests_cant": "a product identity over all lengths", "anchors": ["chainladder/tails/base.py::TailBase._apply_decay", "chainladder/tails/constant.py::TailConstant.fit"]}
{"id": "C37", "title": "Voting is a weighted average of the member ultimates", "statement": "With non-negative weights not all zero the voted ultimate of each origin lies between the smallest and largest member ultimate, giving all weight to one member yields that member, scaling the weights changes nothing and listing members (with their weights) in another order changes nothing; a 'drop'ped member breaks this because weights are then matched by position.", "quantifier": "any number of members, any weights", "why_tests_cant": "all weight vectors and orders", "anchors": ["chainladder/workflow/voting.py::VotingChainladder._get_ultimate", "chainladder/workflow/voting.py::_BaseChainladderVoting.fit"]}
{"id": "C38", "title": "Voting weights are validated and completed", "statement": "Weights given per origin must have one row per origin and one entry per estimator, otherwise fit raises; weights given as a mapping use the default weighting for exactly the origins not mentioned; with no weights given fit succeeds only if the number of origins equals the number of ages.", "quantifier": "all weight specifications and shapes", "why_tests_cant": "all shapes", "anchors": ["chainladder/workflow/voting.py::_BaseChainladderVoting"]}
{"id": "C39", "title": "Mack standard errors follow Mack's formula and are consistent", "statement": "For a triangle with one index row whose factors come from a development and a tail that ends after the last age, MackChainladder returns parameter and process risk per origin and age. They are never negative, and 0 for cells already known. Their squares are the sums, over the steps still open, of the variance of the step carried forward with the later factors; a step's parameter deviation is the projected amount times the standard error of the factor, its process deviation is sigma times the square root of the amount (volume average; 0 for a negative amount), the amount (simple) or 1 (regression), for ratios not excluded from the fit. With volume averages this is Mack's 1993 formula. mack_std_err_ squared is the sum of both squares; total process risk squared is the sum over origins; total parameter risk lies between the root of the sum of squares and the plain sum. With zero sigma and zero std_err all are 0, and each risk is non-decreasing in the sigmas and standard errors. Sigma and standard error of an estimated factor are the root of the residual variance and of that variance over the sum of the averaged weights. Without sigma the fit raises. The formula fails where drop_above excludes nothing (the step at the latest age is lost), where no factor exceeds 1 (the tail has no parameter risk), and the fit raises with a tail that is not projected beyond the last age and with more than one index row.", "quantifier": "all triangles with one index row, all patterns, sigmas and standard errors, averages per age and excluded ratios", "why_tests_cant": "induction over development ages, square roots and sums over all origins", "anchors": ["chainladder/methods/mack.py::MackChainladder._mack_recursion", "chainladder/methods/mack.py::MackChainladder.fit", "chainladder/methods/mack.py::MackChainladder.full_std_err_", "chainladder/utils/weighted_regression.py::WeightedRegression", "chainladder/tails/base.py::TailBase._get_tail_stats"]}
{"id": "C40", "title": "Development constant factors round-trip", "statement": "DevelopmentConstant with style 'cdf' yields age-to-age factors whose products reproduce the given cdfs, and with style 'ldf' reproduces the given ldfs.", "quantifier": "all non-zero patterns of any length", "why_tests_cant": "product identity over all lengths", "anchors": ["chainladder/development/constant.py::DevelopmentConstant.fit"]}
{"id": "C41", "title": "Trending is invertible and composes", "statement": "Each known cell is multiplied by (1+rate)^(months/12), the months running from the cell's date, moved to the nearest date of the trend period, to the start date. Trending by r and then by 1/(1+r)-1 over the same dates restores the triangle; trending by 0 changes nothing; two rates over the same dates are one compound rate; the same rate over adjacent periods is that rate over both; with a rate of at least 0 older dates get at least the factor of later ones. The Trend estimator's factors are the product over all rates and dates, in any order. With ultimate_lag the ultimate column is trended as if it were valued before, not after, the latest development.", "quantifier": "all triangles, amounts, dates, axes and trend rates greater than -1", "why_tests_cant": "real powers over all dates and rates", "anchors": ["chainladder/core/triangle.py::Triangle.trend", "chainladder/adjustments/trend.py::Trend.fit"]}
{"id": "C42", "title": "Shifting a triangle moves cells and fills with empty", "statement": "`shift(k)` with k>0 moves the cell at position i+k to position i (and the reverse for negative k), keeps all labels, and leaves the vacated cells empty; shift(0) is the identity and index and columns cannot be shifted. (Two or more positions on the axis; ages, not valuation dates or pattern labels, when development is shifted.)", "quantifier": "every k, both axes, every triangle", "why_tests_cant": "recursion over k for all lengths", "anchors": ["chainladder/core/triangle.py::Triangle.shift"]}
{"id": "C43", "title": "Sorting an axis permutes labels and cells together", "statement": "`sort_axis` and `sort_index` return the labels in order with each label carrying its own cells. Boundary: the development labels of a pattern are text, so sorting a pattern with ages of three digits puts its factors in text order.", "quantifier": "every triangle and axis", "why_tests_cant": "all permutations", "anchors": ["chainladder/core/triangle.py::Triangle.sort_axis", "chainladder/core/pandas.py::TrianglePandas.sort_index"]}
{"id": "C44", "title": "Grid search evaluates every combination once", "statement": "GridSearch returns one result row per element of the parameter grid, in grid order, with the parameters of that row and every score computed from a model with exactly these parameters; a score named like a parameter overwrites that parameter column.", "quantifier": "every grid and list of scorers", "why_tests_cant": "all grids", "anchors": ["chainladder/workflow/gridsearch.py::GridSearch.fit"]}
{"id": "C45", "title": "Development age is the exact number of months", "statement": "The development age computed from the day difference between origin start and valuation date divided by 365.25/12 and rounded equals the number of calendar months between them.", "quantifier": "every origin month and every later valuation month in the supported calendar range", "why_tests_cant": "the rounding must be right for every pair of months including leap years and century rules", "anchors": ["chainladder/core/base.py::TriangleBase._development_lag"]}
{"id": "C46", "title": "n_periods uses exactly the latest n link ratios", "statement": "On a triangle with evenly spaced origins and ages, `n_periods=n` with 1 <= n < number of origins - 1 gives weight to a known ratio iff fewer than n later origins have reached the same age; other values of n use every known ratio.", "quantifier": "every regular triangle (any origin and development grain), every n, every age", "why_tests_cant": "the window is found by slicing on sorted valuation dates; it must line up with the diagonals for every shape and grain", "anchors": ["chainladder/development/base.py::DevelopmentBase._assign_n_periods_weight"]}
{"id": "C47", "title": "drop_valuation removes exactly the ratios that start on the listed valuation dates", "statement": "For a triangle with equal origin and development periods (years, quarters or months), `drop_valuation` takes the weight from exactly the ratios whose starting amount is valued at the end of a listed period. With development periods finer than origin periods the dropped cells are moved to the corner of the triangle and other ratios are dropped instead.", "quantifier": "every regular triangle, every list of dates on its diagonals", "why_tests_cant": "the rule works by slicing and padding arrays, so its alignment must be settled for all shapes", "anchors": ["chainladder/development/base.py::DevelopmentBase._drop_valuation"]}
{"id": "C48", "title": "Operations called with inplace=True update the triangle", "statement": "A conversion called with inplace=True leaves its result in the triangle it is called on and every other triangle as it was. `incr_to_cum`, `fillna`, `set_index` and `set_backend` do; `cum_to_incr(inplace=True)` leaves a triangle of amounts cumulative, whatever it computes, and in a pattern only turns missing and zero factors into 1 (refuted).", "quantifier": "every triangle in every memory", "why_tests_cant": "an update that is lost is invisible in the returned object", "anchors": ["chainladder/core/triangle.py::Triangle.incr_to_cum", "chainladder/core/triangle.py::Triangle.cum_to_incr"]}
{"id": "C49", "title": "Interpolation of sigma keeps what is known and continues it", "statement": "Development keeps every sigma it can estimate. A missing one is filled: with sigma_interpolation='log-linear' by exp(s x + b), where s x + b is the least-squares line through the logarithms of the known ones against the number of the period; with 'mack' by the root of min(b^4/a^2, a^2, b^2) after two known ones a and b, so never larger than either and continuing their ratio when they fall. If the known ones lie on such a curve, so do all. Refuted: with equal known sigmas the log-linear fill stays missing; 'mack' fills the first of two consecutive missing entries and not the second.", "quantifier": "every triangle, every fitted development, every number and position of missing entries (at least two known, positive)", "why_tests_cant": "the claim is about minimality over all lines and about every pattern of missing entries", "anchors": ["chainladder/utils/weighted_regression.py::WeightedRegression.loglinear_interpolation", "chainladder/utils/weighted_regression.py::WeightedRegression.mack_interpolation", "chainladder/utils/weighted_regression.py::WeightedRegression._fit_OLS", "chainladder/development/development.py::Development.fit"]}
{"id": "C50", "title": "TailCurve continues the least-squares curve of the selected factors", "statement": "TailCurve keeps the factors before the attachment age and the labels, and adds ages at the development grain. From the attachment age on each factor is 1 + exp(s x + b) (exponential) or 1 + exp(b) x^s (inverse_power), where s and b are the unique least-squares line through ln(f - 1) of the factors f that lie in fit_period and reg_threshold; so they exceed 1 and fall when s < 0. The last factor collects the remaining ages, so the product from the last age of the triangle on is the product over extrap_periods ages, whatever projection_period is. Factors on a curve are continued exactly. errors='raise' refuses a factor below 1. Boundary: ages must be 1, 2, 3, ... periods for a fit_period given in ages. Refuted: a factor of exactly 1 passes errors='raise' and makes every fitted factor missing; equal factors make every fitted factor missing; extrap_periods below the projected periods gives fewer factors than ages; fit_period counts positions, not ages, and a start of 0 selects only the last factor.", "quantifier": "every triangle, set of factors, curve, fit period, threshold, attachment age, number of extrapolated and projected periods", "why_tests_cant": "minimality over all lines and independence of projection_period cannot be sampled", "anchors": ["chainladder/tails/curve.py::TailCurve.fit", "chainladder/tails/curve.py::TailCurve._predict_tail", "chainladder/tails/base.py::TailBase._get_tail_prediction", "chainladder/utils/weighted_regression.py::WeightedRegression._fit_OLS"]}
{"id": "C51", "title": "The sigma and standard error of a tail are read off at the time the tail represents", "statement": "A tail estimator keeps the sigma and std_err entries it is given and appends one. With T the time at which the least-squares curve of the factors less 1 equals the tail less 1, the new entry is the least-squares curve of the entries at T; on log-linear data it is exact; it is 0 when every tail factor is 1. All factors must exceed 1 and all entries be positive, with lines that are not flat (else the entry is missing). Refuted: a factor of 1 or less between others shifts the regression, and the entry for the tail can exceed every other entry although it should be the smallest.", "quantifier": "every triangle, set of factors with a tail, sigma and std_err", "why_tests_cant": "the entry depends on two regressions over all entries; tests compare one data set", "anchors": ["chainladder/tails/base.py::TailBase._get_tail_stats", "chainladder/tails/base.py::TailBase._get_tail_weighted_time_period"]}
{"id": "C52", "title": "Applying a fitted method to new data uses its fitted factors by index row and age", "statement": "predict on a new triangle (same key labels, columns and grains; ages covered by the fitted factors; valued no earlier than the fitted triangle) returns that triangle's amounts, with ultimates equal to the latest amount times the product of the fitted factors of the same index row from the origin's age on. Rows the method was not fitted to are dropped; the factors of a single row serve for all rows when their keys differ. On the fitted triangle it gives the fitted ultimates; Benktander and Bornhuetter-Ferguson iterate the same recursion with the fitted factors and the new exposure; an age beyond the factors raises ValueError. Refuted: data valued before the fitted triangle gets no ultimates; a single origin with fewer ages gains an origin; a single origin at a single age has its amount repeated in future ages; a single unknown row gets an ultimate under every fitted key.", "quantifier": "every fitted triangle, set of fitted factors and new triangle", "why_tests_cant": "the result depends on how two triangles with different rows, origins and ages are aligned; tests predict a few slices of sample data", "anchors": ["chainladder/methods/base.py::MethodBase.predict", "chainladder/methods/base.py::MethodBase.intersection", "chainladder/methods/chainladder.py::Chainladder.predict", "chainladder/methods/benktander.py::Benktander.predict"]}
{"id": "C53", "title": "Aggregations along an axis", "statement": "sum, mean, median, max, min, prod and var along any axis return a triangle with one position on that axis (a number if all other axes have length 1, unless keepdims) and every other axis and label unchanged. Each cell is the aggregate of the known cells on its line (missing if there is none; 0 is stored as missing): the mean is the total over the count, the maximum is attained and bounds all, the median halves the known cells, the variance is the mean squared distance from the mean. The order of positions does not matter; sums along different axes commute and add up to the grand total; without an axis the first one with more than one position is used; future cells stay empty along index and columns; groupby(...).agg() gives the same aggregate of exactly the rows of each group. Refuted: prod puts 1 in future cells; zero amounts are missing, so the maximum of 0 and -5 is -5; cumsum and diff always raise TypeError.", "quantifier": "every triangle, axis, aggregate and grouping", "why_tests_cant": "the aggregates must be right for every shape, pattern of missing cells and order of positions", "anchors": ["chainladder/core/pandas.py::add_triangle_agg_func", "chainladder/core/pandas.py::TriangleGroupBy"]}
{"id": "C54", "title": "Selecting by label", "statement": "loc selects, on each of the four axes, exactly the positions named by a label, a list of labels, a label range with both ends included, or a boolean mask; the cells and labels of those positions are returned unchanged and in the order asked for, and the valuation date becomes the latest one left. If several rows are left and all share the first key value, that key label is dropped. An unknown label raises. t['name'] and t[['a','b']] return those columns; the name of a key label returns the rows' values of it; boolean filters on rows, origins and ages keep exactly the positions marked true. Boundaries: origins and ages selected by loc are evenly spaced; ages can be named only on an age axis of a non-pattern triangle. Refuted: a column with the name of a key label cannot be selected; filters on origins and ages keep the old valuation date, so what is left may have no latest diagonal.", "quantifier": "every triangle and every label, list, range or mask on each axis", "why_tests_cant": "selection must be right for every label set, order and shape", "anchors": ["chainladder/core/slice.py::Location", "chainladder/core/slice.py::_LocBase", "chainladder/core/slice.py::TriangleSlicer.__getitem__"]}
{"id": "C55", "title": "Assigning a column", "statement": "t['name'] = value, for a value with one column and the same rows, origins and ages, sets that column to the value (or appends it after the others) and changes no other column, label, date or flag; reading the column returns the value. A value with fewer origins or ages (a new column) is filed under its labels. A number fills a new column where there is data to expect and leaves the future empty; over an existing column it fills every cell. Refuted: a value of the same shape with other origins is filed by position; an assignment that raises leaves the new column name behind; a number over an existing column fills future cells; a value of two columns is accepted for one name.", "quantifier": "every triangle, column name and assigned triangle or number", "why_tests_cant": "every other column must be untouched for every shape and set of names", "anchors": ["chainladder/core/slice.py::TriangleSlicer.__setitem__"]}
{"id": "C56", "title": "On-level factors", "statement": "parallelogram_olf and ParallelogramOLF return, for every origin year, the rate level in force at the end of the last origin divided by the average rate level at which the premium of that year is earned: policies run for a year and are written evenly, so a change earns in along a parallelogram (one change after k months puts (12-k)^2/288 of its year and 1-k^2/288 of the next year on the new level); with vertical_line=True every period counts at its own level. Changes on one date multiply, changes before the first origin count, a year with no change since the start of the year before has factor 1, and the estimator puts the factors on the latest diagonal of every row and column. Holds by month for changes on the first of a month, and by day when the year before the first origin is not a leap year (1 January is not counted if the first origin is a leap year). Refuted: by month a change within a month is ignored; by day, when the first origin follows a leap year, there is a factor too many and fitting raises; quarterly and half-yearly origins raise.", "quantifier": "every rate history with changes above -100 percent, every range of years or months, both approximations, every triangle with yearly origins", "why_tests_cant": "the average runs over the whole history of changes; the failures depend on the calendar position of the first year", "anchors": ["chainladder/utils/utility_functions.py::parallelogram_olf", "chainladder/adjustments/parallelogram.py::ParallelogramOLF.fit"]}
{"id": "C57", "title": "Test for calendar year effects", "statement": "valuation_correlation(p_critical, total=False) ranks the link ratios of every age; the large (small) ones are exactly those above (below) the median of their age. For every calendar period it counts the large and the small link ratios observed in it and reports Z, the smaller count, with the mean and the variance Z has for that many tosses of a fair coin, the probability that Z is at most the observed value, and whether this probability is below p_critical. One result per calendar period, for every row and column; a level outside 0 to 1 raises ValueError. Refuted: with total=True the test never rejects, whatever the data and the level, because the sum of the variances is compared with a range around that same sum instead of Z with a range around its mean.", "quantifier": "every triangle on a regular grid of ages, every level, every number of link ratios per calendar period", "why_tests_cant": "the closed formulas for mean, variance and probability must hold for every count; tests look at one sample triangle; no single run shows that rejection is impossible", "anchors": ["chainladder/core/correlation.py::ValuationCorrelation", "chainladder/core/triangle.py::Triangle.valuation_correlation"]}
{"id": "C58", "title": "Test for correlated development factors", "statement": "development_correlation(p_critical) on a triangle with as many origins as ages (at least four), no gaps and no two equal link ratios of one age: for every row, column and pair of neighbouring ages T_k is the coefficient of correlation between the ranks of the two link ratios over the origins that have both. It is between -1 and 1, exactly 1 for equal and -1 for opposite orders. The weights are the numbers of pairs less one; t_expectation is the weighted mean, between -1 and 1; t_variance is 1 over the total weight; reject says whether the mean of the first row and column is outside the confidence interval. Refuted beyond: more origins than ages raise; with fewer origins than ages the number of pairs is taken from the ages, so opposite orders can give a positive coefficient; equal link ratios throughout count as correlation 1; reject ignores all other rows and columns. Three ages raise.", "quantifier": "every complete triangle of every size, every row and column", "why_tests_cant": "the shortcut formula with squared rank differences is a correlation only if the ranks are 1 to n for every age; tests look at one sample triangle", "anchors": ["chainladder/core/correlation.py::DevelopmentCorrelation", "chainladder/core/triangle.py::Triangle.development_correlation"]}
{"id": "C59", "title": "Incremental additive method", "statement": "IncrementalAdditive(trend, future_trend, average).fit(X, sample_weight=exposure), for a cumulative triangle with as many origins as ages (at least three), a movement in every observed period and a positive exposure for every origin: zeta_ holds for every age the chosen average (volume, simple or regression) of the increments, trended from their date to the valuation date, per unit of exposure. incremental_ has the labels of X, keeps every observed increment and fills every later period with exposure times zeta_, trended with the future trend from the valuation date. Without future trend the latest amounts times the remaining ldf_ equal the latest amounts plus the later increments. Multiplying all exposures by one number changes no increment. The valuation view raises ValueError, a missing exposure AttributeError. Refuted beyond: with a future trend the factors leave the trend out; future_trend=0 means the past trend, not no trend; an origin with an increment of 0 is left out together with its exposure; with two ages the missing increment is taken as minus the amount before; annual origins with finer ages raise.", "quantifier": "every such triangle of every size, every trend, every choice of average per age, every exposure", "why_tests_cant": "the averages run over as many origins as the triangle has; the equality of factors and increments must hold for every origin", "anchors": ["chainladder/development/incremental.py::IncrementalAdditive.fit", "chainladder/development/base.py::DevelopmentBase.fit", "chainladder/utils/weighted_regression.py::WeightedRegression._fit_OLS_thru_orig", "chainladder/core/triangle.py::Triangle.trend"]}
{"id": "C60", "title": "Saving a triangle as JSON and reading it back gives the same triangle", "statement": "read_json(triangle.to_json()) has the same columns, index labels, origins, ages, valuation date, grains and cumulative flag as the triangle that was saved, the same index rows in sorted order, and the same amount in every cell (a zero may come back as missing). This holds for an age-by-origin triangle, cumulative or incremental, of yearly, quarterly or monthly grains and any number of index rows, columns, origins and ages, under these conditions: the index rows and columns are distinct, the origins and ages are regular and reach the valuation date, nothing is recorded after the valuation date, a cumulative triangle has at least three ages and two origins or nothing after the valuation date, amounts have at most ten decimals, the dates lie between 1900 and 2078 and not all in 1970, and there is movement in the first cell, at the valuation date, in every index row, after the first origin and in enough calendar months to show the grains. Outside them it fails: an empty index row, an empty first origin or a quiet latest period is lost; a triangle whose cumulative flag is unset comes back as differences; a cumulative triangle with two ages cannot be saved; quarters with data in one quarter only come back as years; longer decimals are cut.", "quantifier": "every triangle with the listed conditions, of any size", "why_tests_cant": "The JSON holds only a table of nonzero differences; the origin axis, the ages, the grains and the valuation date are inferred anew from it. Tests save the sample triangles; which triangles survive depends on where their zeros are.", "anchors": ["chainladder/core/io.py::TriangleIO.to_json", "chainladder/utils/utility_functions.py::read_json", "chainladder/core/pandas.py::TrianglePandas.to_frame", "chainladder/core/triangle.py::Triangle.__init__"]}
{"id": "C61", "title": "Bondy tail", "statement": "TailBondy(earliest_age, attachment_age).fit(X), for whatever exponents b the optimiser returns: up to the attachment age the factors of ldf_ are those of the development; after it, up to the last age of the triangle, the logarithm of every factor is b times that of the factor before, starting from the factor at the earliest age; the last factor is the one before it to the power b/(1-b), which for |b| < 1 is the limit of the product of all later Bondy factors, so that tail_ is the limit of the product from the last age on. With default parameters and exponent 1/2 the tail is the last factor of the development. If the development factors are themselves such a sequence (at least two of them, the first not 1), least squares finds their exponent and the attached factors equal them. An attachment age before the earliest age raises ValueError. Refuted beyond: an attachment age without an earliest age raises TypeError; unless ages are annual and the projection period is one year the labels of ldf_ outnumber its factors or fall short; attached at the last age the fitted factor there is replaced by 1; attached after it all fitted factors are appended again.", "quantifier": "every triangle in age view with any number of ages, every set of factors, every admissible pair of ages, every exponent", "why_tests_cant": "the tail stands for infinitely many factors; positions of kept and fitted factors depend on the number of ages", "anchors": ["chainladder/tails/bondy.py::TailBondy.fit", "chainladder/tails/bondy.py::TailBondy._solver", "chainladder/tails/base.py::TailBase.fit"]}
{"id": "C62", "title": "Munich chain ladder", "statement": "MunichAdjustment(paid_to_incurred).fit(X), for a triangle with as many origins as ages (at least three) and positive amounts in every observed cell, and pairs made of its first columns, each column at most once as paid and once as incurred: fit succeeds. For every row, pair and age the average ratios are the totals of one amount over all origins known at the age divided by those of the other, inverse to each other; the deviation of the ratios at an age with two or more origins is the root of their weighted squared distances from the average over the number of origins less one. Each coefficient lambda_ is the only slope of least squares, through the origin, of the standardised link ratios on the standardised ratios of the other amount to the own one, over the observed cells whose incurred link ratio differs from its factor; it is missing if it is 0. The completed triangle keeps the observed amounts and takes every later amount from the two before it by the factor plus lambda times the deviations' ratio times the distance of the ratio from its average; if the ratio is the average, this is the chain ladder step. The factors of ldf_ lead from each amount of the completed triangle to the next and, multiplied, to the last. Columns in no pair keep their factors. No pairs, an unknown column and an observed amount of 0 raise ValueError. Refuted beyond: a column in no pair that precedes a column of a pair raises KeyError; if paid and incurred agree for all origins at an age, the default interpolation gives no deviation there and all paid amounts of later ages are lost, the observed ones too.", "quantifier": "every such triangle of every size, every set of factors and deviations, every list of pairs", "why_tests_cant": "each later amount depends on two amounts before it through all ages; the coefficients are sums over all cells; the case of equal amounts is not in the samples", "anchors": ["chainladder/development/munich.py::MunichAdjustment.fit", "chainladder/development/munich.py::MunichAdjustment._get_MCL_model", "chainladder/development/munich.py::MunichAdjustment._get_MCL_resids", "chainladder/development/munich.py::MunichAdjustment._get_MCL_lambda", "chainladder/development/munich.py::MunichAdjustment.munich_full_triangle_", "chainladder/utils/weighted_regression.py::WeightedRegression"]}
{"id": "C63", "title": "Berquist-Sherman adjustment", "statement": "BerquistSherman(paid_amount, incurred_amount, reported_count, closed_count, trend).fit(X), for a triangle with as many origins as ages, two or more, that has the four columns, and positive ultimate numbers of claims (of the estimator of the reported counts): fit succeeds. The adjusted triangle has the labels of X and nothing after the valuation date; the reported counts and all columns not named keep their amounts. Disposal rates are the closed counts over the ultimate numbers; the adjusted closed count of a known cell is the latest disposal rate of its age times the ultimate number of its origin. The adjusted incurred amount is the paid amount and, for each open claim, the latest average outstanding amount of the age, moved back by the trend from the valuation date to the date of the cell, if both cells have open claims and an outstanding amount, and the paid amount alone if not. With three or more ages and closed counts and paid amounts positive and closed counts growing, the adjusted paid amount of an earlier cell is on the exponential curve, as a function of closed counts, through the known amounts of the origin at the only two neighbouring ages whose closed counts enclose the adjusted one (the first or the last two where it is outside), and between them it lies between the two paid amounts; a_ and b_ are the parameters of this curve. The latest amounts are not adjusted, unless there is an outstanding amount without open claims. If the disposal rates are the same for all origins and the average outstanding amounts follow the trend, nothing is adjusted. A missing column raises ValueError. Refuted beyond: with two ages, the adjusted paid amount of the first is added to the latest paid amounts; open claims without an outstanding amount stay without one; an outstanding amount without open claims is lost on the latest diagonal.", "quantifier": "every such triangle of every size, every trend and every power function with the laws of powers", "why_tests_cant": "the two ages of the curve depend on all closed counts of the origin; the case of two ages and cells without open claims are not in the samples", "anchors": ["chainladder/adjustments/berqsherm.py::BerquistSherman.fit", "chainladder/core/triangle.py::Triangle.trend"]}
{"id": "C64", "title": "Clark growth curves and tails", "statement": "ClarkLDF(growth).fit(X, sample_weight) and TailClark(growth, attachment_age, truncation_age).fit, for a cumulative triangle with as many origins as ages, two or more, spaced by its development period, the first age beyond half of it, and any positive parameters omega_, theta_: both growth curves are the documented ones, lie between 0 and 1, increase with age and come as close to 1 as one likes. fit succeeds. Average ages are half a period before the ages. ldf_ has one age less than X; each factor is above 1 and is the growth from its average age to the next one, so products of factors are the growth to the last age. incremental_fits_ are the ultimate amount (latest amount over growth at its age) times the growth over the period, in the known cells only; those of an origin add up to its latest amount if the first age is one period or less. scale_ is the sum of the squared deviations over the fitted increments divided by the known cells less the parameters, not negative for three or more origins; norm_resid_ are the deviations over the square root of scale times fitted increment. The parameters minimise minus the log-likelihood of the known increments where none is 0; the best parameters do not depend on the currency of the amounts; with exposures the best loss ratio for a curve is the sum of the latest amounts over the sum of the exposures times their known shares. The tail keeps the factors before the attachment age, has those of the curve from there on, its factors from an age on multiply to 1 over the growth at that age, an attachment at the first age gives the factors of ClarkLDF, and a truncation age multiplies the last factor by the growth at it. (It does not hold that incremental_fits_ of the Cape Cod method are exposures times loss ratio times growth, that an expected amount for an increment of 0 counts in the likelihood, that the scale of two origins is not negative, that amounts at the truncation age develop no further, or that an attachment age after the last age leaves one factor per age. An unknown growth curve is refused with UnboundLocalError.)", "quantifier": "every such triangle of every size, every grain, every positive parameters, any exposures and every projection period", "why_tests_cant": "the curve is real-valued in two parameters and the likelihood sums over all cells; invariance in the currency and the optimal loss ratio quantify over all parameters", "anchors": ["chainladder/development/clark.py::ClarkLDF.fit", "chainladder/development/clark.py::ClarkLDF._G", "chainladder/development/clark.py::ClarkLDF.G_", "chainladder/development/clark.py::ClarkLDF.scale_", "chainladder/development/clark.py::ClarkLDF.norm_resid_", "chainladder/tails/clark.py::TailClark.fit"]}
{"id": "C65", "title": "Case outstanding development", "statement": "CaseOutstanding(paid_to_incurred, paid_n_periods, case_n_periods).fit(X) and .transform(Y), for cumulative triangles with as many origins as ages, three or more, a paid and an incurred column, known cells whose amounts do not add up to 0 and some outstanding amount (incurred less paid) at the valuation date: fit and transform succeed. case_to_prior_case_ are outstanding amounts over those at the age before, paid_to_prior_case_ payments over the outstanding amounts at the age before, in the known steps of the last n periods where neither is 0 and nowhere else; case_ldf_ and paid_ldf_ are their plain means per index row and age. Where every age has a mean: outstanding amounts of an origin are its own at the valuation date, and each is the one at the age before times the mean; an origin without an outstanding amount at the valuation date has none. Paid amounts up to the valuation date are those of the triangle; after it each payment is the outstanding amount at the age before times the mean paid ratio, if the latest outstanding amounts do not add up to 0. ldf_ has the index and origins of the triangle, its ages but the last, the two columns; its factors are the ratios of the completed paid and incurred triangle from age to age, where incurred is that of the triangle up to the valuation date and outstanding plus paid after it. A transform uses the means of the triangle that was fitted and the outstanding amounts of the triangle it is given. (It does not hold that outstanding amounts at known ages are those of the triangle, that a latest outstanding amount survives an age without a mean, that closed origins count in the means, that payments follow outstanding amounts adding up to 0, or that two ages are enough; an amount of 0 followed by one that is not gets a factor equal to the latter over the last amount.)", "quantifier": "every such pair of triangles of every size, every grain, any index rows and further columns, and any numbers of periods", "why_tests_cant": "the completed triangle chains products over all ages backwards and forwards from the valuation date; boundary cases (zeros, gaps) only show on unusual data", "anchors": ["chainladder/development/outstanding.py::CaseOutstanding.fit", "chainladder/development/outstanding.py::CaseOutstanding._set_ldf", "chainladder/development/outstanding.py::CaseOutstanding.transform"]}
{"id": "C66", "title": "Bootstrap of the over-dispersed Poisson model", "statement": "BootstrapODPSample fits a square cumulative triangle of one index row and column without empty known cells by development age. Its expected increments are those of the chain ladder with the selected link ratios, from the latest amounts back, and stop at the valuation date: those of an origin add up to its latest amount, they are an origin effect times an age effect, and with all link ratios those of an age add up to its actual increments and no other positive origin and age effects have a greater over-dispersed Poisson likelihood. The design matrix has a row per known cell with ones for its origin and for the ages up to its own, and the logarithms of positive expected increments are linear in it. The scale is the sum of squared Pearson residuals over the degrees of freedom (n-1)(n-2)/2, counting the residuals whose link ratio is selected; the residuals drawn are those that are not 0 less their mean. Every sample has, for every seed, in each known cell the sum of expected increments plus drawn residuals times the root of the expected size, none after the valuation date, the labels of the triangle and an index numbered from 0; on average over the residuals the sampled increment is the expected one. Nothing to draw from, no simulations, several index rows and valuation triangles are a ValueError. Boundary: an increment of 0 does not count in the scale, and origins that all develop alike, so also two origins, cannot be sampled.", "quantifier": "every square triangle of any size with nonzero known amounts and room before the ultimate date, every selection of link ratios the development accepts, every number of simulations, every sequence of random draws; the hat matrix adjustment is arbitrary where it does not matter", "why_tests_cant": "Tests compare the mean of a few thousand samples with the chain ladder within a tolerance for fixed seeds; the marginal totals, the likelihood, the residuals that count and every cell of every sample for every draw need a proof.", "anchors": ["chainladder/adjustments/bootstrap.py::BootstrapODPSample.fit", "chainladder/adjustments/bootstrap.py::BootstrapODPSample._get_simulation", "chainladder/adjustments/bootstrap.py::BootstrapODPSample._get_design_matrix", "chainladder/core/common.py::Common.full_expectation_"]}
{"id": "C67", "title": "Filling gaps, dropping columns, first and last rows, minimum and maximum", "statement": "fillna(value) puts the number, or the amount of a triangle that lies over the cell, in every cell that is empty and can hold data; the amounts already there, the labels and the valuation date stay, nothing is written after the valuation date, and filling again changes nothing. drop(labels, axis=1) keeps the other columns, in their order, with all their amounts; labels that are not columns are ignored, dropping every column is a ValueError and any other axis a NotImplementedError. head(n) and tail(n) have the first and the last n rows of the index, for a negative n all but the last or first -n. minimum and maximum compare two triangles with the same labels cell by cell and are empty where either is; with a number they cap or floor the amounts. abs gives absolute values, number - triangle the difference in every cell that can hold data, and triangle ** k the power of every amount. Boundary: with a single origin or a single development age, or from a triangle valued later, fillna also fills cells after the valuation date; from a triangle with more index rows its cells no longer match its index; axis='columns' is documented but refused; tail(0) has all rows; minimum and maximum pair rows by position, not by label; a floor leaves amounts of 0 empty; triangle ** 0 has ones after the valuation date.", "quantifier": "every triangle with an index row and a column, every number, every triangle that lies over it (each axis equal or of length one, same grains, not valued later), all lists of labels, all n and k", "why_tests_cant": "Tests fill one sample triangle and compare a few shapes; that no cell after the valuation date is touched, that every other amount stays and which rows and columns remain must hold for all shapes, labels and n.", "anchors": ["chainladder/core/pandas.py::TrianglePandas.fillna", "chainladder/core/pandas.py::TrianglePandas.drop", "chainladder/core/pandas.py::TrianglePandas.head", "chainladder/core/pandas.py::TrianglePandas.tail", "chainladder/core/pandas.py::TrianglePandas.minimum", "chainladder/core/pandas.py::TrianglePandas.maximum", "chainladder/core/dunders.py::TriangleDunders.__rsub__", "chainladder/core/dunders.py::TriangleDunders.__pow__", "chainladder/core/dunders.py::TriangleDunders.__abs__"]}
{"id": "C68", "title": "Summary of a fitted reserving method", "statement": "model_diagnostics of a method fitted to a triangle gives one row for each column and index row, labelled with the column name and the name of the method in front of the index, at the valuation date of the triangle. For each origin its column Ultimate is the ultimate of the method, IBNR the ultimate less the latest amount, Run Off 1 the amount expected at the age reached next year less the amount expected at the current age (an ultimate divided by the factor to ultimate), and Apriori the expected amount of a method that has one. Boundary: Latest is the sum of the cumulative amounts at all ages, which exceeds the latest amount of every origin with an earlier positive amount; Year Incremental is the latest cumulative amount rather than what came in during the year, equal only if the amount a year earlier is 0; for two origins the one earlier amount is subtracted from both; the run-offs of a quarterly triangle not valued in December begin with quarters already over, and its Year Incremental is 0 if it begins in the current year.", "quantifier": "every square cumulative yearly triangle with at least three origins, any number of index rows and columns, all factors at yearly ages including those of the triangle, all ultimates of which one after the first origin is not 0, with or without expected amounts; the quarterly and two-origin boundaries by example; without groupby", "why_tests_cant": "Tests call the function once and check that it returns; that each named column holds the amount its name says, for each origin, row and column, is a statement over all triangles, factors and ultimates.", "anchors": ["chainladder/utils/utility_functions.py::model_diagnostics", "chainladder/core/common.py::Common.ibnr_", "chainladder/core/common.py::Common.full_expectation_"]}
{"id": "C69", "title": "New labels, missing columns, single cells, appended rows and rounding", "statement": "rename (or assignment to index, columns, origin, development, or set_index) with as many labels as the axis has changes these labels only: every cell, the other labels, the valuation date, flags and grains stay, each amount is found under the label that replaced the old one, and giving the old labels back restores the triangle. New origins are the periods the given dates belong to. Any other number of labels is a ValueError that leaves the triangle unchanged. reindex(columns, fill_value) keeps all columns and adds those that are missing, once each and in the order asked for, holding the fill value up to the valuation date and nothing after it. iat[i, c, o, d] reads exactly one cell and, assigned to, changes exactly that cell; positions outside an axis are an IndexError. append puts the rows of the second triangle after those of the first with all their amounts and refuses a row that is in both. round(d) makes every amount the nearest multiple of ten to the minus d, halves the even one, keeps empty cells empty, and done twice is the same as once. Boundary: a list of labels for the index is documented but a TypeError; a text assigned to columns is measured by its characters, so it is refused for one column and accepted for as many columns as it has characters, leaving one name for all of them; later origins put amounts after the valuation date, which is not moved; new labels for the valuations of a valuation triangle turn them into ages; reindex does not drop columns that were not asked for; iat can write after the valuation date.", "quantifier": "every well-formed triangle, every list of labels of any length, every fill value or none, all integer positions, all numbers of decimals", "why_tests_cant": "Tests rename one sample triangle and compare the labels; that no amount moves to another label, that a refused call leaves no trace and that rounding is idempotent and nearest for every amount are statements over all triangles and labels.", "anchors": ["chainladder/core/pandas.py::TrianglePandas.rename", "chainladder/core/triangle.py::Triangle.index", "chainladder/core/triangle.py::Triangle.columns", "chainladder/core/triangle.py::Triangle.origin", "chainladder/core/triangle.py::Triangle.development", "chainladder/core/triangle.py::Triangle.set_index", "chainladder/core/triangle.py::Triangle.reindex", "chainladder/core/slice.py::Iat", "chainladder/core/pandas.py::TrianglePandas.append", "chainladder/core/dunders.py::TriangleDunders.__round__"]}
{"id": "C70", "title": "Saving estimators and pipelines as JSON and reading them back", "statement": "read_json(e.to_json()) is an estimator of the same class with the same parameters as e, whenever these are None, truth values, numbers (infinite ones too), texts, lists of such, or dictionaries from texts to such; a BerquistSherman may hold another such estimator as its reported_count_estimator, to any depth. The same holds for a Pipeline of such estimators: names, classes, parameters and the order of steps stay. A document with only some of the parameters gives these their values and the others their defaults, in whatever order they are written. A parameter that holds a function, a triangle, a data frame or an estimator of another library, at any depth, makes saving fail; it is never dropped silently; nor can a pipeline be saved in which a parameter is an estimator. An unknown class or parameter in a document is an error. Boundary: tuples come back as lists and the keys of dictionaries as texts. So Development(drop=('2001', 12)), which drops one cell, comes back dropping two items; TailCurve() with its defaults comes back with lists, which are read as flags, for fit_period; DevelopmentConstant(patterns={12: 1.5}) comes back with patterns in which no age is found. A VotingChainladder can be neither saved nor read. set_params of a BerquistSherman is a KeyError unless reported_count_estimator is among the parameters.", "quantifier": "every class of the library that can be made without arguments, all parameter values of any size and nesting, pipelines of any length", "why_tests_cant": "Tests save a few estimators with default parameters; that every combination of parameters of every class survives, and where exactly it does not, is a statement over all values and all depths of nesting.", "anchors": ["chainladder/core/io.py::EstimatorIO.to_json", "chainladder/utils/utility_functions.py::read_json", "chainladder/workflow/gridsearch.py::Pipeline.to_json", "chainladder/adjustments/berqsherm.py::BerquistSherman.set_params"]}
{"id": "C71", "title": "Turning a triangle into a table", "statement": "to_frame() of a triangle with one index row and one column is a table with one line per origin and one column per age, holding every cell unchanged, empty ones empty. If exactly two axes have more than one label and one of them is the index or the columns, the table has the labels of the first of these axes down and those of the second across and every amount under its two labels; if only the index or only the columns have more than one label it is a series of the amounts. With three or four such axes the table is long: exactly one row for each index key, origin and age at which some column has an amount, with the amounts of all columns, no place missing, doubled or added. Boundary: in the tables of two axes and in series empty cells are shown as 0, also those after the valuation date, unlike in the table of a single triangle; a triangle without index rows is a ValueError.", "quantifier": "every well-formed triangle of any shape; the long table for triangles by age with distinct index keys", "why_tests_cant": "Tests compare one or two frames with stored ones; that no amount is lost, doubled or put under a wrong label for any shape is a statement over all triangles.", "anchors": ["chainladder/core/pandas.py::TrianglePandas.to_frame", "chainladder/core/display.py::TriangleDisplay._repr_format"]}
{"id": "C72", "title": "The fitted triangle of a regression estimator covers the square once", "statement": "The fitted triangle of a DevelopmentML estimator, and so of TweedieGLM and BarnettZehnwirth, which use it, is built from exactly one prediction for each index key, origin and age of the whole square of the data, past and future: no cell is missing, none is counted twice, each is found under its own origin and valuation, and its amount is the prediction of the regression at the time of the origin, the age and the time of the valuation of that same cell. This holds for annual, quarterly and monthly triangles with the same grain for origins and ages whose cells up to the latest diagonal are all known. Boundary: for annual origins by quarter only the oldest origin is taken for the latest diagonal, and no future age of any other origin is fitted; for half-yearly triangles the future cells lose their valuation; if the latest amount of an origin is missing none of its later ages is fitted.", "quantifier": "every number of origins and index keys, any starting date, any order of the rows of the data, any regression (as a function of its features)", "why_tests_cant": "Tests fit one or two sample triangles and compare a total; that every future cell is predicted once and under its own date for every size is a statement over all triangles.", "anchors": ["chainladder/development/learning.py::DevelopmentML._get_triangle_ml", "chainladder/development/learning.py::DevelopmentML._prep_X_ml", "chainladder/development/learning.py::DevelopmentML.fit"]}
{"id": "C73", "title": "A pipeline does what its steps do one after the other", "statement": "Fitting a Pipeline fits each estimator to what the estimators before it made of the data, with the same y, and with the sample_weight of the call, or, if the call has none, with the weight given for that step as name__sample_weight; it succeeds exactly if doing so by hand does. Predicting passes the new data through the transform of every step but the last and returns what the last predicts with the sample_weight of the call. Steps set to passthrough or None do nothing. fit_predict is both on the same data. Arguments that name no step, or a step the pipeline does not have, are refused, as are two steps of the same name. Boundary: fit_predict with an argument for a step never succeeds, since the argument is passed to predict as well; a pipeline with a step removed by None cannot be fitted with a sample_weight, nor can one with a step whose name ends in an underscore.", "quantifier": "every number of steps, any estimators (as functions of X, y and sample_weight, which may fail), any names, weights and data", "why_tests_cant": "Tests run two or three pipelines on sample data; that no combination of steps, removed steps and weights departs from the steps by hand is a statement over all pipelines.", "anchors": ["chainladder/workflow/gridsearch.py::Pipeline.fit", "chainladder/workflow/gridsearch.py::Pipeline.predict", "chainladder/workflow/gridsearch.py::Pipeline.fit_predict"]}
{"id": "C74", "title": "Options keep what was set last, and a reset restores the defaults", "statement": "After any history of options.set_option, options.reset_option and the deprecated array_backend and auto_sparse, options.get_option and the library itself see for each option the value it was given last since the last reset, and the documented default if it was given none. Boundary: a misspelled name is accepted without an error and changes none of the options; an option that is assigned instead (options.ULT_VAL = value) is used by the library but not seen by get_option, and no later set_option or reset_option changes it.", "quantifier": "every history of calls, of any length, with any names and values", "why_tests_cant": "Tests set one option and read it; what holds after every sequence of settings and resets is a statement over all histories.", "anchors": ["chainladder/__init__.py::Options.set_option", "chainladder/__init__.py::Options.get_option", "chainladder/__init__.py::Options.reset_option", "chainladder/__init__.py::array_backend", "chainladder/__init__.py::auto_sparse"]}
{"id": "C75", "title": "The automatic choice between dense and sparse storage changes no cell and settles", "statement": "With the option AUTO_SPARSE, operations of the library choose the storage of a triangle anew: numpy and sparse triangles are sparse afterwards exactly if the array is larger than 30 million bytes and fewer than a fifth of its cells are known, and dense otherwise. No cell changes by this, choosing again changes nothing, and with the option off the storage is left as it is. Boundary: this needs a sparse array that stores no missing values; a large one that stores them is made dense although almost nothing in it is known, and sparse again the next time.", "quantifier": "every array of any size with any cells, dense or sparse, with any cells stored", "why_tests_cant": "Tests use sample triangles far below the size at which storage changes; the choice for every size and density is a statement over all arrays.", "anchors": ["chainladder/core/base.py::TriangleBase._auto_sparse", "chainladder/core/common.py::Common.set_backend", "chainladder/__init__.py::Options"]}
