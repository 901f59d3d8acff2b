# Formal model of casact/chainladder-python in Rocq (Coq 8.16.1)

`/repo` is read as text only; it is never built or run. Everything below is
about the Gallina model in `rocq/theories`, whose definitions each cite the
file and lines they model.

## 1. Layout

| files in `rocq/theories` | content |
|---|---|
| `Num Arr Tri Arith Dev Methods View Grain Loc Pandas Voting Const Search Calendar Build Sparse Heap Trend Mack Curve Predict Agg Select Olf Corr Additive Json Bondy Munich Berq Clark Outst Boot Fill Diag Rename Store Table Learn Pipe Options AutoSparse` and later model files | the model: executable definitions, no proofs; every definition cites `/repo` |
| `Spec*.v` | independent, small specifications used in theorem statements |
| `*Facts.v`, `P_*.v`, `DevFit.v` | lemmas and proofs |
| `Ex*.v` | example triangles used to show that hypotheses can be met |
| `Prop_*.v` | only the property theorems (`exact lemma`), the `Example`s that show that hypotheses are satisfiable, refutations, and `Print Assumptions` |

The list with one line per file is in section 6.

## 2. Modelling decisions

* **Amounts.** A cell is `option Qc`: `None` is NaN ("missing"), `Some q` an
  exact rational. IEEE rounding, infinities and overflow are *not* modelled.
  Division by a stored zero gives `None` (numpy: inf/nan); the library turns
  zeros to NaN (`num_to_nan`) before almost every division.
* **Functions that need roots, exp, log or fractional powers** (Mack, trend,
  growth curves) are modelled over `R` from the standard library.
* **Arrays.** A 4-d array is its shape together with an index function
  `nat -> nat -> nat -> nat -> cell`; all statements are restricted to indices
  in range. Shape mismatches that numpy rejects are error values.
* **Dates.** All dates in the library are month starts (origins) or month ends
  (valuations); they are month numbers `12*year + month-1 : Z`. Day arithmetic
  is modelled only where a property is about it (development age, C45).
* **Exceptions** are values (`result`). Warnings are dropped.
* **Labels** are strings (`string`) or integers.
* **pandas / numpy / sparse / scikit-learn** primitives are modelled by their
  documented meaning (index selection, group-by partition, sort, cumulative
  sum). They are part of the trusted reading, not of the proof.
* **Mutation.** Functions return new values. Where the property is about
  aliasing (C22) there is a separate heap model.

## 3. Properties: what is modelled and how it is proved

| id | modelled | proof |
|---|---|---|
| C01-C04 | `nan_triangle`, `valuation`, `iloc` on development, `__sub__`, `concat`, `incr_to_cum`, `cum_to_incr` branch by branch | telescoping sums by induction on the age; mask lemmas; refutation witnesses for two ages / one origin |
| C05, C40 | pattern branches of the two conversions; `DevelopmentConstant` | product telescoping by induction |
| C06 | `_val_dev` as coordinate shift on the stored (sparse) cells, date labels | bijection on coordinates |
| C07-C09 | `grain`: validity table, origin grouping, development thinning, incremental branch | partition sums, arithmetic on `len-1-step*k`, finite case analysis |
| C10, C11, C17 | `link_ratio`, `latest_diagonal`, `_slice_valuation` | pointwise |
| C12-C15, C24 | `dunders.py` | pointwise algebra over `option Qc`; alignment lemmas for integer ranges; label lookup |
| C16 | `_contig_slice`, `_normalize_index`, Python slice semantics | arithmetic progressions by induction |
| C18, C19 | `groupby().sum()`, `dropna` | finite sums over partitions |
| C20, C45 | construction from records; development lag in days | permutation invariance of sums; calendar drift bounds |
| C21 | COO arrays | refinement to the dense array |
| C22 | heap with objects, arrays, virtual-column dictionaries | invariant over operation histories |
| C23, C42, C43 | `concat`, `shift`, `sort_axis` | index arithmetic, permutations |
| C25-C30 | weights, weighted regression, drop rules | field algebra, inequalities over sums, rank counting |
| C31-C36 | methods, full triangle, tails | algebra, induction on iterations / ages |
| C37, C38, C44 | voting, grid search | weighted-average inequalities, list induction |
| C39, C41 | Mack recursion, trend | induction / real powers over `R` |
| C46, C47 | `n_periods`, `drop_valuation` of Development | rank counting per age; label lookup |
| C48 | in-place conversions | heap model of C22 |
| C49, C50, C51 | `WeightedRegression` interpolation, `TailCurve`, tail statistics | general theory of least squares (unique minimum); exponentials and logarithms over R |
| C52 | `predict` of the reserving methods | generalise the chain ladder proof to factors with other rows and origins; alignment lemmas of C13-C15 for the added ages |
| C53 | aggregation methods of `core/pandas.py` and grouped aggregates | one line at a time: list lemmas for sum, extremes, sorted lists (median), permutations; the grouping proof of C18 for any cell relation |
| C54 | `loc` and `__getitem__` of `core/slice.py` | label keys are turned into positions (unique labels), then the positional theorem of C16; masks as increasing position lists |
| C55 | `__setitem__` of `core/slice.py` | the array after the assignment, cell by cell; the alignment theorem of C13 for values with fewer labels |
| C56 | `parallelogram_olf` and `ParallelogramOLF.fit` | Gregorian day numbers; the cumulative product is the rate level up to a constant; rolling means are earning averages; closed form by summing the areas |
| C57 | `ValuationCorrelation` | ranks and medians by counting; the valuation view of C06 for the calendar periods; mean, variance and tail of the smaller count by summing over all outcomes of n coins |
| C58 | `DevelopmentCorrelation` | the triangle one diagonal earlier is a triangle of the same kind (C10, C03); ranks of different numbers are a permutation of 1..n; the formula with squared differences equals the correlation of the ranks |
| C59 | `IncrementalAdditive.fit`, `DevelopmentBase.fit` | cells of every intermediate array by broadcasting; the weighted slope is the average by algebra; the accumulated loss rates are the projected amounts by induction on the age |
| C60 | `to_json`, `read_json`, `to_frame`, the constructor | the table of differences has one row per index row, origin and date with movement; the constructor theorems (C20) give the axes and sums of the triangle read; sums of one row each are the differences and accumulate back to the amounts |
| C61 | `TailBondy.fit`, `TailBase.fit` | positions of kept and fitted factors by counting in sorted ages; the limit from the geometric series and continuity of exp; the minimum of a sum of squares with value 0 |
| C62 | `MunichAdjustment.fit` | the regressions of the ratios reduce to totals; least squares through 0 as a strict minimum of a parabola; induction over ages for the completed triangle; the product of its ratios telescopes |
| C63 | `BerquistSherman.fit` | one-column triangles on the labels of the square triangle are closed under the operations used; counting lemma for the ages of the curve; an exponential is given by two points |
| C64 | `ClarkLDF.fit`, `_G`, `G_`, `scale_`, `norm_resid_`, its likelihood, `TailClark.fit` | real analysis of the two curves; telescoping sums and products over average ages; the loss is an affine function of the loss in another currency; ln x < x - 1 for the best loss ratio |
| C65 | `CaseOutstanding.fit`, `_set_ldf`, `transform`, without `groupby` | every step of the chain of triangle operations is put in closed form on the square; backward and forward products, then the completed triangle and its link ratios |
| C66 | `BootstrapODPSample.fit`, `_get_simulation`, `_get_design_matrix`; the hat matrix and the random draws are parameters | the chain ladder and full expectation lemmas give the expected cells; backward induction over ages for the marginal totals; `ln u <= u - 1` for the likelihood |
| C67 | `fillna`, `drop`, `head`, `tail`, `minimum`, `maximum`, `__abs__`, `__rsub__`, `__pow__` | the broadcasting lemmas for the sum of the triangle and its gaps; the lemmas of C07 and C53 for the rows and columns kept |
| C68 | `model_diagnostics` with the selections, sums, column assignments and concatenation it is made of | the lemmas of C11, C35 and C53 for each column of the summary; the filter by valuation for the current year; concatenation by distinct labels |
| C69 | the setters of `index`, `columns`, `origin`, `development`, `rename`, `set_index`, `reindex`, `iat`, `append`, `__round__` | reading by label under the new names; induction over the columns asked for; the lemmas of C16, C23 and C55; floor of a rational for the nearest whole number |
| C70 | `EstimatorIO.to_json`, `Pipeline.to_json`, `read_json` for estimators and pipelines, the parameters and defaults of 24 classes, `BerquistSherman.set_params` | induction over the nesting of values and of estimators; induction over the parameters set one after the other |
| C71 | `to_frame` for every shape, `_repr_format`, `np.squeeze`; the long table from the model of C60 | case analysis on the axes with several labels; the rows of the long table from C60, no place twice by induction over keys, origins and ages |
| C72 | `DevelopmentML._prep_X_ml`, `_get_triangle_ml` and the encoders of `fit`; the regression is any function of its features | the diagonal as the largest value of a sum; induction over the steps of the projection with the set of rows of each diagonal as invariant; encoders invert each other |
| C73 | `Pipeline.fit`, `predict`, `fit_predict` and the parts of scikit-learn's Pipeline they call; estimators are any functions | fitting and predicting by hand as inductive relations; splitting of argument names by induction on the name; induction on the steps |
| C74 | `Options` and its instance as two dictionaries of attributes; histories of calls | induction on the history from its end; the last call that gave a value |
| C75 | `_auto_sparse` and the conversions of `set_backend` between numpy and sparse on arrays of any size | cells by position before and after; counting of known cells by induction on the array |

If the code violates the natural claim, the exact boundary is proved and the
violation is a `..._refuted` theorem with a computed witness; these are listed
in section 5.

## 4. Trusted base

Coq's kernel (and `vm_compute` for witnesses); the reading of Python, numpy,
pandas and sparse primitives stated in comments; the standard library. Axioms
per theorem are what `Print Assumptions` prints (section 7).

## 5. Violations found

Each entry is a theorem `..._refuted` (or a positive theorem named below) with a
computed witness; the guarded claim is proved beside it. All are statements about
the model, so they hold of the code as far as the model reads it correctly.

* **C01/C03 `two_periods`** - with two development periods (or one origin) `cum_to_incr`
  gives future cells the negative of the latest amount: the mask of known cells is not
  applied. Increments then do not add up to the latest diagonal.
* **C06 `first_origin_only`, `later_valuations`, `few_ages`** - `dev_to_val`/`val_to_dev`
  infer the shift from what is stored: data in the first origin only is shown under a later
  date, valuation triangles starting late come back at later ages, and annual origins with
  fewer ages than a year raise.
* **C07 `quarters_over_year_end`, `partial_first_year`, `single_half_year`** - `grain`
  mis-reads the resulting origins: quarters that straddle a year end are taken for months, a
  partial first year shifts ages, one half-year is taken for a year.
* **C09 `half_years`, `quarters_over_year_end`** - admissible grain changes that raise.
* **C13 `gaps`** - origins with gaps are aligned by position.
* **C14 `contained_columns_raise`** - columns of one operand contained in the other's raise.
* **C15 `single_rows`** - one-row triangles with different keys are added silently.
* **C16 `whole_axis_step`, `backward_from_first`, `repeated_position`** - `iloc` loses the step
  of a whole-axis slice, returns the whole axis for `0::-1`, raises for a repeated position.
* **C19 `cancelling_amounts`** - `dropna` drops an origin whose amounts cancel.
* **C20 `fiscal_years`, `half_years`** - tables with fiscal-year origins or half-yearly
  development dates are put on a wrong grid.
* **C21** `mean_of_zeros`, `missing_factor`, `stored_missing`, `set_cell_of_empty`,
  `set_column_by_one_row`, `gaps` - six differences between sparse and dense storage.
* **C22 `rename`, `virtual_column_of_copy`, `assigned_sparse_column`, `same_object`** -
  operations that change a triangle they were not asked to change.
* **C23 `column_order`** - `concat` of operands listing columns in different orders moves
  amounts between columns.
* **C24 `le`** - `<=` is not reflexive.
* **C29 `more_origins_than_ages`, `n_periods_list`** - `drop_high` drops too much, or raises.
* **C30 `drop_above_alone`** - the default lower limit becomes active.
* **C32 `offsetting_expectation`** - an exact zero ultimate becomes missing.
* **C34 `flat_development`, `zero_ultimate`, `two_by_two`** - the full triangle does not end
  at the ultimate, or runs off wrongly.
* **C35 `incremental_tail`** - the tail increment has the wrong sign.
* **C36 `first_age`** - a tail attached at the first age leaves the factors in place.
* **C37 `dropped_member`**, **C38 `more_origins_than_ages`** - voting with a dropped
  estimator uses the wrong weights; default weights need a square triangle.
* **C39 `unused_limit`, `unprojected_tail`, `no_growth`, `several_lines`** - a limit that
  excludes nothing removes process risk; a tail ending at the last age has labels for a column that is missing; if no factor
  exceeds 1 the tail has no standard error and the parameter risk vanishes; more than one
  index row raises.
* **C41 `ultimate_lag`** - the lag of ultimates is counted the wrong way.
* **C43 `pattern_ages`** - patterns are sorted by text label.
* **C44 `scorer_named_as_parameter`** - the score replaces the parameter.
* **C47 `finer_ages`** - `drop_valuation` removes the wrong ratio when ages are finer than
  origins.
* **C48 `cum_to_incr`, `pattern`** - `inplace=True` does nothing to amounts and half of the
  conversion to patterns.
* **C49 `flat`, `second_missing`** - equal known sigmas are not continued (the regression reads a slope of 0 as missing); Mack's
  interpolation does not use a sigma it has just filled.
* **C50 `one`, `flat`, `short`, `fit_period`** - a factor of exactly 1 is accepted by `errors='raise'` and its infinite logarithm
  makes the tail missing; equal factors make it missing; `extrap_periods` below the projected periods leaves labels without
  factors; `fit_period` is read by position.
* **C51 `gap`** - `_fit_OLS` averages x over all ages but y over the known ones, so a factor of 1 or less in the middle can turn
  the slope round.
* **C52 `older_valuation`, `single_origin`, `single_age`, `unknown_row`** - `predict` on data valued before the fitted triangle
  gives no ultimates; a single origin gains an origin or has its amount repeated in future ages; a single unknown row gets an
  ultimate under every fitted key.
* **C53 `product`, `zero_maximum`, `cumsum_diff`** - `prod` fills future cells with 1; a zero amount is missing, so the maximum of
  0 and -5 is -5; `cumsum` and `diff` pass `keepdims` to functions that do not take it and always raise.
* **C54 `shadowed`, `filter_date`** - a column named like a key label cannot be selected; filters on origins and ages keep the
  valuation date, so `latest_diagonal` of what is left can raise.
* **C55 `same_shape`, `failure`, `future`, `wide`** - a value of the right shape is filed by position whatever its origins; an
  assignment that raises leaves the new name in `columns`; a number over an existing column fills future cells; a value of two
  columns is accepted under one name.
* **C56 `after_leap_year`, `mid_month`, `quarters`** - by day, factors for leap years are joined by row number, and one day too few is
  dropped when the first origin follows a leap year: a factor too many, so `fit` raises for first origins 2001, 2005, ...; by month a
  change within a month is ignored; quarterly origins raise because the period labels do not match the date format.
* **C57 `total`** - `ValuationCorrelation(total=True)` compares the sum of the variances with a range centred on that same sum; the
  statistic Z is not used, so the test never rejects.
* **C58 `more_origins`** - `DevelopmentCorrelation` of a triangle with more origins than ages raises (the two sets of ranks have
  different numbers of columns).
* **C58 `more_ages`** - with fewer origins than ages the number of pairs is computed from the number of ages; link ratios in opposite
  orders can get a positive coefficient.
* **C58 `ties`** - the formula with squared differences assumes different ranks; a triangle whose link ratios do not vary at all is
  reported as perfectly correlated (T = 1).
* **C58 `reject`** - only the first row and column decide, another column of the same triangle may be rejected.
* **C59 `ultimates`** - `ldf_` is built from the loss rates before the future trend is applied, `incremental_` after it; methods that use
  `ldf_` ignore the trend.
* **C59 `zero_future_trend`** - `self.trend if not self.future_trend`: a future trend of 0 (the default) is read as "not given", so the
  past trend is extended although the documentation only says so for None.
* **C59 `zero_increment`** - increments of 0 are stored as missing, so the origin is left out with its exposure: 50 and 0 on exposures
  1000 and 1100 give 5 percent instead of 50/2100.
* **C59 `two_ages`** - differencing two ages leaves minus the amount in the unobserved cell (see C01); it is added to the projection.
* **C59 `finer_ages`** - the latest diagonal of annual origins with half-yearly ages does not cover all ages: shape error.
* **C60 `empty_row`**, **`empty_origin`**, **`quiet_period`** - the JSON table holds only differences that are not missing and all axes are
  inferred from it: an index row or a first origin without amounts, or a latest period without movement, does not come back.
* **C60 `unset`** - `read_json` accumulates only if the flag is true, but `to_json` always takes differences: a triangle built without
  `cumulative=` comes back with differences in place of its amounts.
* **C60 `two_ages`** - `to_json` of a cumulative triangle with two ages raises IndexError (the differences of C01 beyond the valuation date).
* **C60 `third`** - `DataFrame.to_json` writes ten decimals, so 1/3 comes back as 0.3333333333.
* **C60 `quarter`** - quarters with amounts in the same calendar quarter only are read as years.
* **C61 `attachment`** - `self.attachment_age < self.earliest_age` compares with None: an attachment age alone raises TypeError.
* **C61 `labels`** - `fit` always returns one factor more than the triangle has ages, but the labels follow the projection period: quarterly
  ages have three labels too many.
* **C61 `last_age`** - attached at the last age, the placeholder 1 of the base class is kept in place of the fitted factor.
* **C61 `beyond`** - attached after the last age, `fitted[..., -0:]` is the whole fitted curve, appended to all factors.
* **C62 `gap`** - `_reshape` stacks the columns of the pairs and looks them up by their position in the triangle: a column in no pair before
  one of a pair raises KeyError.
* **C62 `known`** - paid equal to incurred for every origin at an age: the deviation of the ratios is 0, its logarithm is dropped by
  `num_to_nan`, and the missing deviation spreads to all later ages of the paid column, over the observed amounts.
* **C63 `two_ages`** - the adjusted paid amounts have the shape of the triangle less the last diagonal; with two ages this is a single cell, which
  broadcasts over the triangle: it is added to the latest paid amounts.
* **C63 `zero_case`** - average outstanding amounts of 0 are missing in `x / x`: open claims without an outstanding amount keep the paid amount.
* **C63 `latest`** - an outstanding amount without open claims has no average: it is lost from the adjusted incurred amounts, on the latest
  diagonal too.
* **C64 `cape_cod`** - with `sample_weight` the fitted increments (and scale and residuals) still come from the latest amounts; `elr_` and the
  exposures are not used for them.
* **C64 `zero_increment`** - increments of 0 are missing, so their term, which includes the expected amount, drops out of the likelihood.
* **C64 `two_origins`** - two origins have three cells and four parameters: the scale is negative.
* **C64 `truncation`** - growth at the truncation age is taken without the half period by which the other ages are lowered: the factor at the
  truncation age is above 1.
* **C64 `tail_beyond`** - with an attachment age after the last age, `fitted[..., -0:]` is the whole curve, appended after all the factors.
* **C64 `unknown_growth`** - a growth curve with another name ends in UnboundLocalError.
* **C65 `restated`** - outstanding amounts at ages before the valuation date are the latest one divided by the means, not those of the triangle.
* **C65 `reopened`** - an age without a mean ratio (nothing outstanding at the age before it) makes the product missing: the latest outstanding
  amount of an origin at that age is lost.
* **C65 `closed_share`** - a ratio of 0 (all claims closed) is missing and left out of the mean, which is too high.
* **C65 `paid_nothing`** - latest outstanding amounts adding up to 0 count as missing: nothing more is paid.
* **C65 `two_ages`** - a triangle of two ages has one link ratio, and the fit ends in AttributeError.
* **C66 `standstill`** - a known increment of 0 is missing from the residuals: the scale is smaller than the sum of squared residuals over the degrees of freedom.
* **C66 `regular`** - where all origins develop alike the residuals are all 0 and the fit ends in ValueError instead of samples equal to the triangle; two origins always do (`C66_two_origins`).
* **C67 `one_origin`** - `fillna` on a triangle with one origin (or one development age) also fills the cells after the valuation date.
* **C67 `later`** - `fillna` from a triangle valued later writes amounts after the valuation date that the result still states.
* **C67 `more_rows`** - `fillna` from a triangle with more index rows: the result has more rows of cells than index rows.
* **C67 `axis_name`** - `drop(labels, axis='columns')` is documented but raises NotImplementedError.
* **C67 `tail_zero`** - `tail(0)` has all rows instead of none (`iloc[-0:]`).
* **C67 `by_position`** - `minimum` and `maximum` pair index rows by position, unlike the arithmetic operators: the same lines in another order are compared with each other's amounts.
* **C67 `floor`** - `maximum(t, 1)` leaves known cells of amount 0 empty.
* **C67 `power_zero`** - `t ** 0` puts 1 in cells after the valuation date.
* **C68 `latest`** - `model_diagnostics`: the column Latest sums the cumulative triangle over development: 425 for an origin with 100, 150, 175.
* **C68 `year`** - `model_diagnostics`: Year Incremental is computed from the cumulative triangle and equals the latest amount: 175 rather than 25.
* **C68 `two_origins`** - with two origins the single cell before the current year is subtracted from every cell: Year Incremental of the second origin is 20 rather than 120.
* **C68 `quarterly`** - the valuations of the run-off are filtered by comparing texts ('2001Q1' > '2001-09-30'): Run Off 1 of a quarterly triangle valued in September is the first quarter of that year; and Year Incremental is 0 when the triangle begins in the current year.
* **C69 `index_list`** - `rename('index', [...])` with a list of labels, as documented, is always a TypeError.
* **C69 `text`** - `t.columns = 'paid'` compares the number of characters with the number of columns: refused for one column, accepted for four, which leaves one name for four columns of cells.
* **C69 `later_origins`** - renaming origins does not move the valuation date: amounts end up after it.
* **C69 `valuations`** - renaming the development axis of a valuation triangle turns its valuations into ages.
* **C69 `reindex_keeps`** - `reindex(columns)` keeps columns that were not asked for, unlike pandas.
* **C69 `iat_future`** - `iat[...] = x` writes cells after the valuation date.
* **C70 `tuple`** - a parameter that is a tuple comes back from JSON as a list; `Development(drop=('2001', 12))` then names two items to drop instead of one cell.
* **C70 `tail_curve`** - `TailCurve()` with its defaults does not survive: `fit_period` comes back as a list, which `fit` takes for a list of flags.
* **C70 `patterns`** - `DevelopmentConstant(patterns={12: ...})` comes back with texts as keys, so that no age is found.
* **C70 `voting`** - `VotingChainladder.to_json()` is a TypeError, and so is reading one.
* **C70 `berquist`** - `BerquistSherman.set_params(trend=...)` is a KeyError unless `reported_count_estimator` is given too.
* **C71 `zeros`** - `to_frame` shows empty cells, also those after the valuation date, as 0 when there are several index rows or columns and as empty when there is one of each.
* **C71 `no_rows`** - `to_frame` of a triangle without index rows is a ValueError.
* **C72 `quarters`** - `DevelopmentML`, `TweedieGLM` and `BarnettZehnwirth` on annual origins by quarter: the diagonal is computed as origin rank plus age rank, whose largest value only the oldest origin has; no future cell of the others is fitted.
* **C72 `half_years`** - on half-yearly triangles valuations are coded in sixths of a year and moved by halves: the fitted future cells have no valuation.
* **C72 `gap`** - an origin whose latest amount is missing gets no future cells at all.
* **C73 `step_weights`** - `Pipeline.fit_predict` passes the arguments for the steps' `fit` to `predict` of the last step, which refuses them: with any such argument it never returns a result.
* **C73 `none`** - a pipeline with a step set to None, as its documentation allows, raises KeyError when fitted with a sample_weight.
* **C73 `underscore`** - so does one with a step whose name ends in an underscore: the argument `dev___sample_weight` is split after `dev`.
* **C74 `misspelled`** - `options.set_option` accepts any name: a misspelled option raises no error and has no effect.
* **C74 `assigned`** - `options.ULT_VAL = value` makes an attribute of the instance: the library uses it, `get_option` does not see it, and neither `set_option` nor `reset_option` can change it again.
* **C75 `stored`** - `_auto_sparse` counts the stored cells of a sparse array, missing ones included: a large sparse array that stores missing values is made dense (more than 30 million bytes) although it is almost empty, and sparse again at the next operation.

## 6. Files

| file | content |
|---|---|
| `Num.v` | Cells, NaN-aware arithmetic, finite sums. |
| `NumFacts.v` | Lemmas about [Num]. |
| `Arr.v` | 4-dimensional arrays (index x column x origin x development) and the numpy primitives used by chainladder. |
| `Tri.v` | The Triangle object and its core operations. |
| `ArrFacts.v` | Lemmas about slices, positions and array concatenation. |
| `Spec.v` | Specification vocabulary, independent of the model's operations: what a well-formed triangle is, when a cell lies in the future, and what it means for two triangles to agree. |
| `TriFacts.v` | Lemmas about valuations, clipping and selection. |
| `ConvFacts.v` | Accumulation and differencing: what the model computes, cell by cell. |
| `SliceFacts.v` | Valuation slicing, latest diagonal, link ratios: cell by cell. |
| `P_Core.v` | Proofs for C01-C04, C10, C11, C17. |
| `P_Pattern.v` | Proofs for C05 (age-to-age factors and cumulative factors). |
| `P_Filter.v` | Proofs for C17 (valuation filters). |
| `Ex.v` | Decision procedures for the specification's side conditions and the example triangles used to show that hypotheses can be met. |
| `Prop_Core.v` | Statements: conversions, latest diagonal, link ratios, valuation filters. |
| `Arith.v` | Arithmetic and comparison between triangles (core/dunders.py), row lookup and sorting. |
| `SpecLabel.v` | Specification vocabulary for operations that align triangles by label. |
| `P_Arith.v` | Arithmetic between triangles with the same axes. |
| `LabelFacts.v` | Facts about [pick] and [amount_at]. |
| `UnionFacts.v` | Sorted union of label lists and the placement of one list inside it. |
| `P_Align.v` | Alignment of the operands of + and - by origin and age. |
| `BcastFacts.v` | Arithmetic between triangles when an operand has a single index row, column, origin or development period. |
| `P_Align2.v` | Alignment of the operands of + and - by column and by index key. |
| `CatFacts.v` | Concatenation of any number of triangles. |
| `P_Align3.v` | Alignment of the operands of + and - by index key. |
| `P_Compare.v` | Comparison of triangles. |
| `ExLabel.v` | Example triangles with several rows and columns, and boolean versions of the label conditions. |
| `Prop_Arith.v` | Statements: arithmetic between triangles, comparison, concatenation. |
| `Dev.v` | The Development estimator: weights, drop rules and the weighted regression. |
| `SpecDev.v` | Specification vocabulary for development factors. |
| `DevFacts.v` | Facts about the Development model. |
| `P_Dev.v` | Development factors are the stated averages (C25) and what follows (C26). |
| `DevFit.v` | The weights of a fit, in terms of labels and ratios. |
| `P_Dev2.v` | Consequences of the closed form of a fit: C26-C30 and n_periods. |
| `ExDev.v` | Example parameters and triangles for the Development estimator. |
| `Prop_Dev.v` | Statements: the Development estimator. |
| `Methods.v` | Tails and reserving methods. |
| `SpecMethods.v` | Specification vocabulary for tails and reserving methods. |
| `P_Methods.v` | Ultimates and IBNR of the chain ladder method. |
| `P_Tail.v` | Constant tails. |
| `P_CL.v` | Chain ladder: ultimates and IBNR together. |
| `P_Benk.v` | Benktander ultimates. |
| `P_CapeCod.v` | Cape Cod. |
| `ExMethods.v` | Example inputs for tails and reserving methods. |
| `Prop_Methods.v` | Properties of tails and reserving methods. |
| `View.v` | Development and valuation view (core/triangle.py 520-637). |
| `SpecView.v` | Specification of the two views of a triangle. |
| `P_View.v` | Proofs about the two views of a triangle. |
| `P_ViewFull.v` | Full cumulative triangles in the valuation view. |
| `P_ViewUlt.v` | Valuation triangles with an ultimate column in the age view. |
| `Prop_View.v` | Property C06: the development and the valuation view. |
| `Grain.v` | Changing the grain of a triangle (core/triangle.py 639-757). |
| `SpecGrain.v` | Specification of a change of grain. |
| `P_Grain.v` | Lemmas about grouping origins. |
| `P_Grain2.v` | The inferred grain, added columns and the development grain. |
| `P_Grain3.v` | Thinning the development axis of a valuation triangle. |
| `P_Grain4.v` | The grain of a triangle. |
| `P_Grain5.v` | Consequences of a change of grain: totals, increments, accumulation. |
| `Prop_Grain.v` | Properties C07, C08 and C09: changing the grain. |
| `Loc.v` | Positional indexing on all four axes. |
| `SpecLoc.v` | Specification of positional indexing. |
| `P_Loc.v` | Positional indexing. |
| `Prop_Loc.v` | Property C16: positional slicing. |
| `Pandas.v` | Grouping, sorting, shifting and trimming. |
| `SpecPandas.v` | Specification of grouping, sorting, shifting and trimming. |
| `P_Group.v` | Order of keys, grouping of index rows. |
| `P_Sort.v` | Sorting an axis. |
| `P_Shift.v` | Shifting along origin or development. |
| `P_Dropna.v` | Trimming empty origins and ages. |
| `Prop_Pandas.v` | Properties C18, C19, C42, C43: grouping, trimming, shifting and sorting. |
| `Voting.v` | Voting between methods (workflow/voting.py). |
| `SpecVoting.v` | Specification of voting. |
| `P_Voting.v` | Proofs for voting. |
| `Prop_Voting.v` | Properties C37 and C38: voting. |
| `Const.v` | External development patterns (development/constant.py). |
| `SpecConst.v` | Specification of external development patterns. |
| `P_Const.v` | Proofs for external development patterns. |
| `Prop_Const.v` | Property C40: external development patterns. |
| `Search.v` | Grid search (workflow/gridsearch.py). |
| `SpecSearch.v` | Specification of the grid search. |
| `P_Search.v` | Proofs for the grid search. |
| `Prop_Search.v` | Property C44: grid search. |
| `Calendar.v` | Development lags from dates (core/base.py 260-264). |
| `P_Calendar.v` | Bounds on development lags. |
| `Prop_Calendar.v` | Property C45: development ages from dates. |
| `Build.v` | Building a triangle from a table (core/triangle.py 108-262, core/base.py 52-205, 267-324). |
| `SpecBuild.v` | Specification of triangles built from tables. |
| `P_Build.v` | Grid of a built triangle: dates, labels, grains. |
| `P_Build2.v` | Cells of a built triangle. |
| `Prop_Build.v` | C20: triangles built from tables. |
| `Sparse.v` | Sparse storage: coordinate arrays (utils/sparse.py) and the code that treats them specially. |
| `SpecSparse.v` | Specification of sparse storage. |
| `P_Sparse.v` | Sparse arrays refine dense ones. |
| `Prop_Sparse.v` | Property C21: sparse and dense storage. |
| `Heap.v` | Objects, arrays and dictionaries in memory: which operations of the library write into what they were given. |
| `SpecHeap.v` | Specification of what operations may change. |
| `P_Heap.v` | Invariants of the memory model. |
| `Prop_Heap.v` | Properties C22 and C48: what operations change. |
| `SpecFull.v` | Specification of the full expectation and the full triangle. |
| `P_FullExp.v` | The full expectation: ultimates divided by cumulative factors. |
| `Prop_Full.v` | Properties of the full expectation. |
| `P_FullTri.v` | The full triangle. |
| `Prop_FullTri.v` | Properties of the full triangle. |
| `Trend.v` | Trending (core/triangle.py 759-827, adjustments/trend.py 42-73). |
| `SpecTrend.v` | Specification of trending. |
| `P_Trend.v` | Trending: proofs. |
| `Prop_Trend.v` | Properties of trending. |
| `Mack.v` | MackChainladder (methods/mack.py), the standard errors of Development (development/development.py 158-176, utils/weighted_regression.py) and of a tail (tails/base.py 32-40, 108-152). |
| `SpecMack.v` | Specification of the Mack standard errors. |
| `P_Mack.v` | Mack standard errors: proofs. |
| `Prop_Mack.v` | Properties of the Mack standard errors. |
| `Curve.v` | TailCurve (tails/curve.py 60-222). |
| `SpecCurve.v` | Specification of regression lines and fitted tails. |
| `P_Curve.v` | Regression lines and fitted tails: proofs. |
| `Prop_Curve.v` | Interpolated deviations, fitted tails and the statistics of a tail. |
| `Predict.v` | Applying a fitted method to another triangle: the reserving methods' [predict] (methods/base.py, chainladder.py, benktander.py). |
| `SpecPredict.v` | Specification vocabulary for applying a fitted method to new data. |
| `P_Predict.v` | Applying fitted factors to new data: proofs. |
| `Prop_Predict.v` | C52: applying a fitted method to new data. |
| `Agg.v` | Aggregating a triangle along an axis. |
| `SpecAgg.v` | Specification of aggregation along an axis. |
| `P_Agg.v` | Proofs about aggregation. |
| `Prop_Agg.v` | Property C53: aggregating along an axis. |
| `Select.v` | Selection by label, boolean filters and column assignment (core/slice.py). |
| `SpecSelect.v` | Specification of selection by label and of column assignment. |
| `P_Select.v` | Proofs about selection by label. |
| `P_Select2.v` | Proofs about filters, named columns and column assignment. |
| `P_Select3.v` | Assignment of numbers, and of triangles with other origins or ages. |
| `Prop_Select.v` | C54 and C55: selection by label, and assignment of a column. |
| `Olf.v` | On-level factors (utils/utility_functions.py 155-263 and adjustments/parallelogram.py). |
| `SpecOlf.v` | Specification of on-level factors. |
| `P_Olf.v` | Proofs about on-level factors. |
| `P_Olf2.v` | On-level factors by day, and closed forms. |
| `P_Olf3.v` | On-level factors: closed form of a single change, and the estimator. |
| `P_Olf4.v` | On-level factors: the estimator's factors on the latest diagonal. |
| `Prop_Olf.v` | Property C56: on-level factors. |
| `Corr.v` | Mack's tests for calendar year effects and for correlated development factors (core/correlation.py). |
| `SpecCorr.v` | Specification of Mack's tests. |
| `P_Corr.v` | Proofs about the calendar year test: the coins. |
| `P_Corr2.v` | Proofs about the calendar year test: which link ratios are counted where. |
| `P_Corr3.v` | The link ratios of a triangle meet the conditions of the calendar year test. |
| `Prop_Corr.v` | Property C57: the test for calendar year effects. |
| `P_Corr4.v` | Proofs about the test for correlated development factors: sums of ranks. |
| `P_Corr5.v` | Proofs about the test for correlated development factors: the triangles it compares. |
| `Prop_Corr2.v` | Property C58: the test for correlated development factors. |
| `Additive.v` | The incremental additive method. |
| `SpecAdditive.v` | Specification of the incremental additive method. |
| `P_Additive.v` | Proofs about the incremental additive method: the loss rates. |
| `P_Additive2.v` | Proofs about the incremental additive method: the completed triangle. |
| `P_Additive3.v` | Proofs about the incremental additive method: increments and development factors. |
| `Prop_Additive.v` | Property C59: the incremental additive method. |
| `P_Build3.v` | Proofs for C20: the development axis of a built triangle. |
| `Json.v` | Saving a triangle as JSON and reading it back (core/io.py 29-54, core/pandas.py 61-110, utils/utility_functions.py 91-151). |
| `SpecJson.v` | Specification of saving and reading back a triangle. |
| `P_Json.v` | Proofs for C60: the saved table. |
| `P_Json2.v` | Proofs for C60: grains and sums of the table. |
| `P_Json3.v` | Proofs for C60: the triangle that is read. |
| `Prop_Json.v` | C60: saving a triangle as JSON and reading it back. |
| `Bondy.v` | TailBondy (tails/bondy.py 48-139). |
| `SpecBondy.v` | Specification of Bondy tails. |
| `P_Bondy.v` | Proofs for C61. |
| `Prop_Bondy.v` | C61: Bondy tails. |
| `Munich.v` | MunichAdjustment (development/munich.py). |
| `SpecMunich.v` | Specification of the Munich chain ladder. |
| `P_Munich1.v` | Proofs about the Munich chain ladder: the triangles the residuals are taken from. |
| `P_Munich2.v` | Proofs about the Munich chain ladder: when the fit succeeds, and the average ratios. |
| `P_Munich3.v` | Proofs about the Munich chain ladder: the slopes. |
| `P_Munich4.v` | Proofs about the Munich chain ladder: the completed triangle and its factors. |
| `P_Munich5.v` | Proofs about the Munich chain ladder: its factors, and what it refuses. |
| `Prop_Munich.v` | C62: the Munich chain ladder. |
| `Berq.v` | BerquistSherman (adjustments/berqsherm.py). |
| `SpecBerq.v` | Specification of the Berquist-Sherman adjustment. |
| `P_Berq1.v` | Proofs about Berquist-Sherman: one-column triangles on the labels of a square triangle. |
| `P_Berq2.v` | Proofs about Berquist-Sherman: columns, diagonals and aggregates of one-column triangles. |
| `P_Berq3.v` | Proofs about Berquist-Sherman: adjusted incurred amounts and closed counts. |
| `P_Berq4.v` | Proofs about Berquist-Sherman: adjusted paid amounts and the whole triangle. |
| `P_Berq5.v` | Proofs about Berquist-Sherman: the fitted adjustment. |
| `P_Berq6.v` | Proofs about Berquist-Sherman: the exponential curve and the ages it goes through. |
| `Prop_Berq.v` | C63: the Berquist-Sherman adjustment. |
| `Clark.v` | ClarkLDF (development/clark.py) and TailClark (tails/clark.py). |
| `SpecClark.v` | Specification of Clark's growth curves and their tails. |
| `P_Clark1.v` | Proofs about Clark's growth curves. |
| `P_Clark2.v` | Proofs about ClarkLDF: the parts of the triangle used by the fit, and the fitted quantities. |
| `P_Clark3.v` | Proofs about ClarkLDF: the fit succeeds, and its factors, fitted increments, scale and residuals. |
| `P_Clark4.v` | Proofs about ClarkLDF: products of factors, totals of fitted increments, and the function it minimises. |
| `P_Clark5.v` | Proofs about TailClark. |
| `Prop_Clark.v` | C64: Clark's growth curves and their tails. |
| `Outst.v` | CaseOutstanding (development/outstanding.py). |
| `P_Out1.v` | Link ratios of outstanding amounts: weights, ratios and their averages. |
| `P_Out2.v` | Outstanding amounts of the known cells, their ratios and the weights of the ratios. |
| `P_Out3.v` | Weights of the ratios of outstanding amounts. |
| `P_Out4.v` | Outstanding amounts of all origins at all ages. |
| `P_Out5.v` | Outstanding amounts of all origins at all ages, forward and backward from the latest ones. |
| `P_Out6.v` | Paid amounts of all origins at all ages. |
| `P_Out7.v` | Paid amounts of all origins at all ages: the payments after the valuation date. |
| `P_Out8.v` | Incurred amounts of all origins at all ages. |
| `P_Out9.v` | Factors from age to age of the completed paid and incurred amounts. |
| `SpecOutst.v` | Specification of the development of outstanding amounts. |
| `P_Out10.v` | The whole fit of outstanding amounts. |
| `P_Out11.v` | Outstanding amounts from age to age. |
| `Prop_Out.v` | C65: development of outstanding amounts. |
| `Boot.v` | BootstrapODPSample (adjustments/bootstrap.py). |
| `SpecBoot.v` | Specification of the bootstrap. |
| `P_Boot1.v` | Expected increments of the bootstrap. |
| `P_Boot2.v` | Expected increments of the bootstrap and its residuals. |
| `P_Boot3.v` | Residuals, scale and samples of the bootstrap. |
| `P_Boot4.v` | The fitted bootstrap, and the totals of its expected increments. |
| `P_Boot5.v` | Design matrix and likelihood of the bootstrap. |
| `Prop_Boot.v` | C66: bootstrap of the over-dispersed Poisson model. |
| `Fill.v` | Filling gaps, dropping columns, first and last rows, minimum and maximum (core/pandas.py, core/base.py). |
| `SpecFill.v` | Specification of filling gaps, dropping columns, first and last rows, minimum and maximum. |
| `P_Fill.v` | Proofs about filling gaps, dropping columns, first and last rows, minimum and maximum. |
| `Prop_Fill.v` | C67: filling gaps, dropping columns, first and last rows, minimum and maximum. |
| `Diag.v` | Summary of a fitted reserving method, [model_diagnostics] (utils/utility_functions.py). |
| `SpecDiag.v` | Specification of the summary of a fitted reserving method. |
| `P_Diag1.v` | Proofs about the summary of a fitted method: the rows of one column. |
| `P_Diag2.v` | Proofs about the summary of a fitted method: sums over development and the amounts since a date. |
| `P_Diag3.v` | Proofs about the summary of a fitted method: all rows. |
| `P_Diag4.v` | Proofs about the summary of a fitted method: the whole summary. |
| `P_Diag5.v` | Proofs about the summary of a fitted method: the expected increments of the next year. |
| `Prop_Diag.v` | Property theorems: summary of a fitted reserving method. |
| `Rename.v` | New labels for an axis, missing columns, single cells, appended rows and rounding. |
| `SpecRename.v` | Specification of new labels, missing columns, single cells and rounding. |
| `P_Rename.v` | Proofs about new labels, missing columns, single cells and rounding. |
| `Prop_Rename.v` | Property theorems: new labels, missing columns, single cells, appended rows and rounding. |
| `Store.v` | Saving estimators and pipelines as JSON and reading them back (core/io.py, workflow/gridsearch.py, utils/utility_functions.py). |
| `SpecStore.v` | Specification: which parameters survive being saved as JSON, and what is read back. |
| `P_Store.v` | Proofs: estimators and pipelines survive being saved as JSON and read back. |
| `Prop_Store.v` | Property theorems: saving estimators and pipelines as JSON and reading them back. |
| `Table.v` | Turning a triangle into a table (core/pandas.py 40-143, core/display.py 77-96). |
| `SpecTable.v` | Specification of the table of a triangle. |
| `P_Table.v` | Proofs: the table of a triangle. |
| `Prop_Table.v` | Property theorems: turning a triangle into a table. |
| `Learn.v` | Fitted triangles of the regression estimators DevelopmentML, TweedieGLM and BarnettZehnwirth (development/learning.py). |
| `SpecLearn.v` | Specification of the fitted triangle of a regression: every cell of the square once. |
| `P_Learn.v` | Proofs: the fitted triangle of a regression has every cell of the square once. |
| `Prop_Learn.v` | Property theorems: the fitted triangle of a regression estimator. |
| `Pipe.v` | Pipelines: fitting and predicting through several steps (workflow/gridsearch.py and scikit-learn's Pipeline). |
| `SpecPipe.v` | Specification of pipelines: the same by hand. |
| `P_Pipe.v` | Proofs: pipelines do the same as by hand. |
| `Prop_Pipe.v` | Property theorems: pipelines do what their steps do one after the other. |
| `Options.v` | The options of the library (chainladder/__init__.py). |
| `SpecOptions.v` | Specification of options: what was set last counts, since the last reset. |
| `P_Options.v` | Proofs: options after any history. |
| `Prop_Options.v` | Property theorems: options. |
| `AutoSparse.v` | The automatic choice between dense and sparse storage (core/base.py, core/common.py, utils/sparse.py). |
| `SpecAutoSparse.v` | Specification of the automatic choice of storage. |
| `P_AutoSparse.v` | Proofs: the automatic choice of storage. |
| `Prop_AutoSparse.v` | Property theorems: the automatic choice of storage. |

## 7. Assumptions printed

`Print Assumptions` after every theorem prints "Closed under the global context", except
for the theorems over the reals (`Prop_Trend.v` C41, `Prop_Mack.v` C39 and later files that
need roots, logarithms or exponentials). Those print only axioms of the standard library:

* `ClassicalDedekindReals.sig_not_dec`, `ClassicalDedekindReals.sig_forall_dec` and
  `FunctionalExtensionality.functional_extensionality_dep` (the construction of the reals),
* `Classical_Prop.classic` (real powers and analysis).

No axiom, `Variable` outside a section, `Admitted` or open obligation is used.

## 8. What is read, not proved

* pandas, numpy, sparse and scikit-learn behave as the comments at the definitions say. In
  particular: `resample("2Q")` bins are anchored at the first origin's quarter; a period of
  frequency `2Q` ends two quarters after the start of its first quarter; `"S-DEC"` is not a
  valid frequency; the `sparse` package keeps explicitly stored missing values and adds
  duplicate coordinates.
* Not modelled: reading of files, plotting and HTML, the text of JSON documents (their trees
  are), cupy and dask back ends, the drawing of random numbers (bootstrap), the regressions of
  the GLM and machine-learning estimators (the table they are given and the triangle made of
  their predictions are), the numerical optimiser of Clark's growth curves, samples and
  `__repr__`.
