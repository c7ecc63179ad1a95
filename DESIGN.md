# Verification design for qp

Source under study: `/repo/src/qp` (LSSTDESC/qp). Line numbers in the Coq comments refer to that tree.
`properties.jsonl` holds the properties, `MANIFEST.json` the theorem names and their status, `seeded/LOG.jsonl` the
wrong programs the theorems were tested against.

## 1. Architecture of the model

* **Numbers.** The numeric code is modelled over a small class `Num` (`theories/Num.v`) of ordered-field
  operations. It has two instances: `Q` (executable; used for examples and refutation witnesses through
  `vm_compute`) and Coq's `R` (used for the general theorems, so that `ln`, powers and the Riemann integral are
  available). The definitions are shared; only the instance differs. In these two
  arithmetic is exact. For C129 - C132, C136, C141 - C146 the same definitions are read in two further instances (`Float.v`): `SFNum`, the IEEE
  binary64 numbers of Coq's SpecFloat (executable), and `DNum`, reals with every operation rounded by Flocq's `round`
  (nearest, ties to even, gradual underflow); `FloatProofs.v` and `FloatMachine.v` prove that they agree when nothing overflows.
  All other properties are about exact arithmetic: rounding is not modelled there. NaN and infinities (`xnum`) are modelled where the code or scipy returns them.
* **Arrays.** 1-d arrays are lists, (npdf, n) arrays are lists of rows, n-d arrays are a shape and a flat row-major
  buffer (`NdArray.v`, `Shapes.v`).
* **Python dictionaries** are insertion-ordered association lists; exceptions are values (`res`, `Py.v`).
* **External libraries** (numpy, scipy's `rv_continuous` wrapper, `interp1d`, tables_io) are modelled by small
  functions of their documented behaviour at the call sites used, or quantified over (section variables that become
  universally quantified arguments of the theorems). Section 5 lists them.
* **Freezing.** An ensemble holds a frozen distribution, and scipy's `rv_frozen` builds a second object from the arrays
  the first one stored. The models have the constructor (`X_init`), the rebuilding (`X_freeze`) and their composition
  (`X_ctor`); theorems about ensembles use `X_ctor`.
* **Ensembles** are a generic record: class name, metadata, object data, shape and the three functions pdf, cdf, ppf
  (`Ensemble.v`); `Classes.v` gives the `create` of every class (histograms, regular and irregular interpolation, packed
  interpolation, splines, quantiles, Gaussian mixtures, sparse, normal) on top of the numeric models. *Reachable* ensembles
  (`ReachProofs.v`, predicate `made X M e`) are those obtained from valid constructor input by any sequence of
  slicing, concatenation, append, update, tables/HDF5 round trips and conversions. `X` is the external `interp1d`
  used for quantile tables and the normal cdf of mixtures, restricted only by the laws stated next to it; `M` is the
  state of the class registry.

Layers: `Num Py NdArray NumpyLib` -> `Utils ScipyWrap Shapes Profile` -> representation classes (`HistPdf InterpPdf
QuantPdf MixmodPdf PackedPdf SplinePdf SplineXy Sparse Voigt`) -> `Values Ensemble Classes Kinds` -> `Registry Convert Hdf5 Alloc DictFile` -> `Metrics Fit
PointMetrics Pit MetricRegistry Moments Rbpe`. Model files hold definitions; proofs are in `*Proofs.v` / `*Theorems.v`; the
final theorems are in `Prop_*.v`, each closed by `exact lemma` and followed by `Print Assumptions`, with an `Example`
that meets its hypotheses.

Naming. `Cnn_…` without suffix proves the property (or a part of it that is stated in full); `_partial` proves the
property under an extra hypothesis that the comment states; `_refuted` is a machine-checked counterexample to the
full statement. Where a property as users would expect it is false of the code, the property stays in the list with
status *partial* and a later property states, and proves, what the code does instead ("exact version").

## 2. Properties: what is modelled, how it is proved

| id | model | proof method | outcome |
|----|-------|--------------|---------|
| C01 | hist constructor over R | finite sums; Riemann integral of the step function | proved |
| C02, C07 | `get_bin_indices` + hist evaluation | floor / search lemmas on the two lookup algorithms | false for bins within numpy's tolerance of equal width; exact: C61, C62 |
| C03, C04 | `_compute_cdfs`, `interp1d` on the cdf table | integral of the step function by induction on bins; search lemma, flat parts | proved |
| C05, C06 | scipy flattening + `get_eval_case` + product/flat evaluators | counting of distinct values | false for unsorted grids / some matrices; exact: C56, C57, C98 |
| C08-C10 | interp constructor, cdf table | trapezoid sums, integral of linear pieces | C08 proved; cdf of the first grid point is not 0; exact: C58, C59 |
| C11 | interp_irregular | same | unit integral false; exact: C60, C55 |
| C12 | `pad_quantiles` | list algebra | proved |
| C13, C14 | quantile cdf/ppf over an abstract interpolating `interp1d`, pdf constructors | oracle law at knots, sign analysis | false at the ends, for 2 quantiles, for negative densities; exact: C63-C66 |
| C15, C68, C69, C54 | mixmod with the normal pdf/cdf as monotone oracle | finite sums, integral | C54 false, exact: C69 |
| C16, C17, C71, C72 | packing over R, packed_interp | rounding lemmas, `ln` monotone | C17 false near the floor, exact: C71 |
| C18-C20, C73-C76 | sparse integer coding over Z, basis index, column swapping, sparse ensemble | shift/mask lemmas, div/mod, permutation invariant | C18-C20 false beyond 16 bits / second PDF; exact: C73-C75 |
| C21-C24, C77-C81 | ensembles as dictionaries of arrays for every class | generic laws + per-class idempotence of constructors; induction over operation sequences (`made`) | false in the corners named in the refutations; exact: C77-C81 |
| C25-C28, C90-C93 | chunk ranges, HDF5 file as a state machine | induction over schedules, interleavings and crash points | C26 false, exact: C90 |
| C29-C31 | ensemble state machine | invariant over operation histories | in-place mutation and failing updates refuted; exact: C79 |
| C32, C33, C82, C83, C87 | class registry and method tables | invariants over histories of add_class/register | C33 false for classes without own tables; exact: C83 |
| C34-C36, C84-C86, C88, C89 | conversions | sums, telescoping | unequal bins refuted; exact: C84 |
| C37-C41, C49, C94-C97 | metrics on grids | finite sums, Gibbs inequality, Cauchy-Schwarz | C38, C39 false in corners; exact: C94-C96 |
| C42, C43, C99, C100 | goodness of fit | sorting, sup over the empirical cdf | ties refuted; exact: C99, C100 |
| C44, C102 | PIT | order statistics, quantile tables | range outside (0,1) refuted; exact: C102 |
| C45, C46, C101 | point-estimate metrics | order statistics | C46 false (last chunk only); exact: C101 |
| C47, C103 | metric factory | invariant over class definitions | names with "Metric"/inherited names refuted; exact: C103 |
| C48, C104 | moments | finite sums | unequal bins and truncation refuted; exact: C104 |
| C50 | iteration protocol | induction with fuel | scalar parameters refuted |
| C51, C106 | reshaping, n-d ensembles | list algebra, broadcasting lemma by induction on the shape | proved |
| C52, C105 | profile | sums over filters | tolerance refuted; exact: C105 |
| C53, C89, C107 | scipy wrapper's treatment of q outside (0,1) | case analysis, filtering lemma | ppf(0), ppf(1) infinite; exact: C89, C107 |
| C108 - C110 | `Derived.v`: scipy's sf, isf, median, interval around the classes | isf = ppf after 1 - q by a change-of-points lemma; inversion of the cdf | isf of a grid comes reversed; exact: C109 |
| C111 - C113 | `Digest.v`: metrics computed from accumulated digests; the digest library (`tdigest`-like) is a parameter with laws | error propagation through order statistics; weighted-quantile search over bins | proved |
| C114, C115 | `SplinePdf.v`: splev and splint of FITPACK over exact numbers | Cox-de Boor recursion, partition of unity, piecewise polynomials integrated exactly by Boole's rule (`SplineMath.v`) | proved |
| C116, C117 | `SplineXy.v`: normalisation and creation from points and samples; splrep, quad and gaussian_kde are parameters | linearity of splines, integral of the interpolant | proved, with negative densities and unnormalised PDFs as witnesses |
| C118 | `Alloc.v`: get_allocation_kwds of the classes | case analysis over the classes | proved, with the classes that misallocate |
| C119 | `DictFile.v`: write_dict, read_dict | round trip per entry, order by name | proved |
| C120 | `Rbpe.v`: risk based point estimates; `quad` and `minimize_scalar` are parameters with laws | products of integrable and Lipschitz functions, continuity and location of the minimum of the risk (`RbpeMath.v`) | proved |
| C121, C122 | `Heap.v`: array buffers, dictionary objects and ensembles as references; views for slices, copies for other keys; the PDFs are only counted | invariant of all histories (who holds which dictionary, whose buffers), frame theorem; `HeapProofs.v`, `HeapTheorems.v`, `HeapSharing.v` | C121 refuted for shared dictionaries, slices and tables; C122 proved |
| C123, C124 | `SampleConvert.v`: `extract_hist_samples`, `extract_mixmod_fit_samples`, `extract_samples`, `extract_fit`; the random samples and the Gaussian fit are parameters; the axis names of `np.vectorize` are modelled | counts specified as sums of indicators, then the histogram and mixture theorems; `SampleConvertTheorems.v`, `SampleConvertExamples.v` | proved |
| C125 | `Gauss.v`: the normal density and its integral | Gaussian integral by the derivative of its square, limits of the cdfs row by row; `Gauss.v`, `GaussTheorems.v` | proved |
| C126 | `Logs.v`: logpdf, logcdf, logsf of the scipy wrapper; logpdf of scipy.stats.norm | wrapper invariant of all classes (`made_kept`), logarithm identity for the normal density; `LogTheorems.v` | proved |
| C127 | `SplineConvert.v`: the spline class among the registered conversions; fits, quadrature, density estimates and samples are parameters | from C116 and C117; the tables of the registry compared class by class | proved |
| C128 | conversion to sparse (SparseConvert.v): the grid, the plan of the basis, the integers, the class built from them; Voigt profile, square root and solver are parameters | ranges and sizes of the plan computed in exact arithmetic, then C74-C76 for the lines and the density | proved |
| C129 - C132 | the same definitions of histograms (normalised by the constructor and again by freezing), packing and grids at the instance `SFNum` of IEEE doubles | `FloatProofs.v`: bounds for rounded operations (Flocq), agreement of the executable operations; sums in any order | proved; the model adds in the order of numpy's pairwise summation along contiguous rows (`npsum`, PairwiseProofs.v), `C132_any_order` covers other orders (other memory layouts) |
| C133 | `MetricObjects`: the 24 classes, their constructors with keywords, attributes and defaults, `evaluate`, `accumulate`, `finalize`, on top of the functions already modelled | by cases on the name; parameters by lookup in the dictionary (`has`) for all dictionaries | proved |
| C134 | the evaluation wrapper `broadcast_points` of all classes | invariant of every reachable object (`refuses`, by cases on the classes) | proved |
| C135 | `FitChecks`: the three checks, the logged warnings, iteration with fuel | induction over the iteration; endless iteration for all fuel | proved |
| C136 | Histogram rows, their cumulative sums (`hist_cdf_row`) and the two interpolation routines (`interp1d`, `interp1d_nd`) executed on IEEE doubles (`SFNum`), through the scalar path of the ensemble. | Rounding-error bounds of sums in any order, of the segment formula and of the normalisation, all in `FloatNorm.v`, `FloatCdf.v`; transfer to the machine in `FloatCdfTheorems.v`; the value above 1 by computation. | proved |
| C137 | The constructors (`X_init`), the rebuilding of the distribution by scipy's `rv_frozen` from `_updated_ctor_param` (`X_freeze`), and their composition (`X_ctor`), which is what an ensemble holds. | Normalising is idempotent over the reals; quantiles once padded are not padded again. | proved |
| C138 | `PitMeta.v`: `quick_anderson_ksamp`, `evaluate_PIT_anderson_ksamp`, `evaluate_PIT_outlier_rate`, `calculate_pit_meta_metrics`; scipy’s `anderson_ksamp` (statistic only, mid-ranks) transcribed and checked against a published value (`C138_published_example`) | `searchsorted` on sorted samples counts; each denominator of the sum is positive; the sum vanishes iff the samples are permutations of one another; the variance is positive by three nested inductions on harmonic sums (`PitVariance.v`) | proved |
| C139 | `SparseShapes.v`: `shapes2pdf`, `create_basis`, `indices2shapes` with its errors | the loop over the shapes as a sum over columns; parameters of a column from its number; integral of a piecewise linear function | proved |
| C140 | `Classes.sparse_create` with `voigtR` (Voigt.v), kinds framework | non-negativity and positivity of the coded sum from those of the cut profiles; reachable-ensemble laws; integral of a broken line | proved |
| C141 | `interp_ctor` (normalisation on creation and again on freezing), the table `_ycumul` and both interpolation routines executed on IEEE doubles (`SFNum`), through the scalar path of the ensemble. | Relative error of the running trapezoid sums, exactness of halving, error of the quotient table and of one interpolation step; the second normalisation changes shares by at most 5·2⁻⁵¹. Witness by computation for the value above 1. | proved |
| C142 | `Ensemble.__getitem__` (`getitem`), `slice_dict`, the class `hist` with its double normalisation, executed on IEEE doubles (`SFNum`). | Invariant over chains of selections: a common factor per PDF plus 2t relative roundings after t normalisations; the factor is pinned down by both areas being 1 up to rounding, so the number of bins enters once. Witness by computation that values change. | proved |
| C143 | `hist_gen._ppf` with the cumulated table (`hist_ppf`, `interpolate_multi_x_y`, `interp1d`) and scipys wrapper for 0 < q < 1, executed on IEEE doubles (`SFNum`). | Every cell of the cumulated table that is not empty is at least 2^-610 wide because distinct doubles above 2^-551 are that far apart, so the slope is finite; relative errors of the five roundings in one cell; the table error of C136 turns the point hit into a statement about areas; monotonicity of rounding for the order. Witnesses by execution. | proved |
| C144 | `interp_ctor`, `interp_ens_pdf` with both interpolation routines executed on IEEE doubles (`SFNum`), through the scalar path of the ensemble. Neighbouring grid points at least 2⁻⁴⁰⁰ apart, so that no slope overflows. | Error of one rising or falling interpolation step relative to the larger end; stored values compared with the exact density after one and after two normalisations; the cell is the one whose right end is the first grid point not below x, which both routines respect. Witness by computation for the negative density. | proved |
| C145 | `interp_ctor`, `interp_ens_ppf` executed on IEEE doubles (`SFNum`), through the scalar path of the ensemble: np.interp on the row of the cumulative table. | Entries of the table are 0 or at least 2⁻⁵⁵¹ (also after the second normalisation), so different neighbours are 2⁻⁶¹⁰ apart and no slope overflows; error of one inverse interpolation step from C143; shares from C141. Witnesses by computation for the answer beyond the grid and the infinite one. | proved |
| C146 | `mixmod_init`, `mixmod_freeze`, `getitem` executed on IEEE doubles (`SFNum`); weights summed in the order of numpy (`npsum`) | `FloatMixTheorems.v`: `npsum` is a tree of additions (PairwiseProofs.v), so that the bound for sums in any order applies; two divisions; the common factor of repeated normalisations cancels (Section Drift of FloatSlice.v) | proved |
| C147 | `cde_terms` (broadcast of the two index lists), `cde_evaluate`, `cde_accumulate`, `cde_finalize` | `CdeTheorems.v`: the four cases of the broadcast computed from the density of the ensemble; counterexample to evaluate = accumulate for one PDF and two references | proved |
| C148 | `Fit.v` | Pinsker inequality and midpoint rule (mean value theorem), pairing of opposite order statistics; each calling form through C99, C100 | proved |
| C149 | `wrap_create`, `wrap_shape`, `param`, `norm_pdf/cdf/ppf` (Classes.v) | the table of every method line by line from the parameters of that line; shapes and keywords decided (NormTheorems.v) | proved |
| C150 | VoigtConvert.v: `extract_voigt_mixmod`, `rebin`, `build_all_of`, `extract_xy_sparse`, `extract_voigt_xy_sparse`, `extract_voigt_xy`; conversions as in C121 | VoigtConvertTheorems.v: by the kind of the ensemble; the resampled densities are those of C128, the decoded words give the means, stds, gammas and weights of the basis functions; the metadata never have the key `z`; the second function registered under a key is not looked up | proved |
| C151 | conversions as in C84 - C88 (Convert.v), `getitem`, `concatenate` (Ensemble.v) | CommuteTheorems.v: the stored line of each PDF is a function of the curve of that PDF on the grid alone; selecting or joining the curves selects or joins the lines, and two ensembles of one class with the same lines answer alike | proved |
| C152 | Metrics.v, Pit.v, Ensemble.v | `MetricSelectTheorems.v`: the value of each metric (C40, C94, C41, C44) for the ensemble of the selected PDFs, whose density and cdf are those of the selected rows (`picked_curves`, C151) | proved |
| C153 | HistPdf.v, InterpPdf.v, MixmodPdf.v | `ScaleTheorems.v`: the normalising functions are homogeneous of degree 0, so the stored rows are equal and with them the objects (`same_rows`) | proved |
| C154 | HistPdf.v, Utils.v, InterpPdf.v, MixmodPdf.v, PackedPdf.v | `UnitTheorems.v`: every search, interpolation and sum under x -> a x + b, row by row (`row_moves`) | proved |
| C155 | `both` (UnitMetricTheorems.v) over the models of the metrics (Metrics.v, Moments.v, Pit.v) | C154 gives densities and distribution functions in the new units; the grid of the metrics moves with them (`units_grid`), then the closed forms of each metric (C40, C41, C94, C104) are compared | proved |
| C156 | `components`, `share` (MixSameTheorems.v) over the model of mixmod (MixmodPdf.v) | sums over components are grouped by curve (`mixed_split`); two lists with equal shares differ by one with all shares 0, whose sum vanishes (`mixed_none`) | proved |
| C157 | `ins`, `on_line` (KnotTheorems.v) over the models of interp and interp_irregular (InterpPdf.v) | a collinear point splits a trapezoid into two of the same total area (`ins_sum_ge`), so normalisation and table agree at the old points; piecewise linear functions with the same lines agree (`ins_interp`); two computed counterexamples | proved |
| C158 | `cut` (SplitBinTheorems.v), `ins` (KnotTheorems.v) over the model of hist (HistPdf.v) | the table of the cdf with the additional edge is the old table with a point on the line (`cut_cum`), then `ins_interp` of C157 in both directions; bins found inside (`cut_point`); computed witness at an edge | proved |
| C159 | `mode`, `gridded` (Ensemble.v), `np_argmax` (NumpyLib.v) | `argmax_from_spec` (the first maximum, by induction over the list with the prefix seen), the cache is right after any history (C29), units by C154, selection by C152 | proved |
| C160 | `factory_convert`, `extract_vals_at_x`, `extract_xy_vals`, `extract_hist_values` (Convert.v) | the curves of the second ensemble are those of the first moved (`moved_curves`), the dictionaries handed to the class differ by a factor and the units (`given_moved`), then C153 and C154 | proved |
| C161 | `pad_locs`, `adjusted_locations`, `cdf_derivatives`, `cdf_2nd_derivatives` (QuantPdf.v), `interp1d` | padding, mid points and quotients commute with the units (`moved_pad`, `moved_adjusted`, `moved_derivatives`), the rows answer alike (`rows_follow`); piecewise_constant: a table where the value in half units is 1/8 instead of 3/16 | partial: false for piecewise_constant |
| C162 | `make_figure_axes`, `get_axes_and_xlims`, `plot_pdf_on_axes`, `plot_dist_pdf`, `Ensemble.plot` (Plotting.v) | selection as in C151 (`selected_pdf`), `np.linspace` as equally spaced points, keywords by lemmas on `pop`; the lines matplotlib takes from a table computed for one and for several rows | partial: several PDFs and axis labels refuted |
| C163 | `plot_native` of interp and packed_interp (PlotNative.v), on the plotting model of C162 | selection by `getitem_rep` (grid kept by `rep_meta`), values as in C162, the polyline by `interp1d_closed` and `interp1d_knot` | proved |
| C164 | `plot_native` of hist, `plot_pdf_histogram_on_axes`, weighted `np.histogram` (PlotHist.v) | every bin has exactly one centre (`center_bin`), so the weighted sum is the stored value (`heights`); the stored values have area 1 and are the density as in C01, C02 | proved |
| C165 | `plot_native` of quant, `plot_pdf_quantiles_on_axes` (PlotQuant.v), on the plotting model of C162 | selection by `getitem_rep` (stored locations: `pad_locs`), values as in C162; the second default label by `labelled` | proved |
| C166 | `plot_native` of interp_irregular for one selected PDF (PlotIrr.v), on the plotting model of C162 | selection by `getitem_rep`; a table with one row of points is a grid for one PDF (`one_row`); the polyline as in C163 (`exact_drawing`) | proved |
| C67, C70 | rvs | inverse-cdf sampling with an arbitrary uniform source | mixtures and single quantile PDFs raise |

## 3. Findings

Every item is a theorem about the model unless marked (read). All follow the Python text; none was found by running it.

Evaluation
* `pdf/cdf/ppf` of two or more PDFs on a grid with distinct but unsorted points: the rows are evaluated at the *sorted*
  grid and returned in that order (`C05_grid_refuted`, exact `C56_*`). A per-PDF matrix of points is wrong iff the number
  of distinct values equals the number of columns and the lines are not all the same increasing line
  (`C06_matrix_refuted`, exact `C57_*`).
* Bin lookup uses `[ )` bins for (nearly) equal widths and `( ]` bins otherwise (`C02_edge_convention`); numpy's absolute
  tolerance takes tiny or nearly equal bins for equal ones and mis-bins (`C07_tiny_bins_refuted`,
  `C07_nearly_equal_bins_refuted`, `C52_tiny_refuted`).
* `ppf(0)` and `ppf(1)` are infinite for every class with bounded support (`C53_ends_refuted`, `C89_infinite_ends`).
* interp: `cdf` at the first grid point is half a cell, not 0, and ppf is flat below it (`C09_first_point_refuted`,
  `C10_interp_ppf_refuted`). interp_irregular: normalised with a rectangle rule, so the trapezoid integral is not 1
  (`C11_irregular_pdf_refuted`).
* quant: quadratic spline overshoots (`C64_overshoot_refuted`: cdf 49/18); two quantiles raise ValueError
  (`C13_two_quantiles_refuted`); the piecewise-constant density is neither constant nor positive (`C14_constant_refuted`);
  spline densities can be negative; the spline constructors return the first PDF's density for every PDF
  (`C65_own_table_refuted`).
* spline: the density is continued outside the knots and can be negative there while the cdf is flat (`C114_example`:
  pdf(2) = -2); non-negative points can give a negative density between them (`C116_negative`: -1/6); points are
  normalised over the range of all PDFs, with the spline continued, so a PDF with a shorter range has a cdf ending
  below 1 (`C116_ranges`: 1/2).
* mixmod: ppf on repeated grids or per-PDF matrices answers with another PDF's quantiles (`C54_*_refuted`, `C69`); a single
  mixture raises ValueError for a grid with an inner and an end probability (`C107_single_mixture`); `rvs` always raises
  (`C67_mixture_rvs_raises`); slicing changes ppf (`C21_mixture_refuted`).
* moments: hist uses the first bin width for all bins (`C48_hist_refuted`), `calculate_moment` overcounts the ends
  (`C48_grid_refuted`), `moment_partial` is smaller by dx/spacing (`C104_ratio`).

Ensembles
* `e[i]` makes ancillary entries 0-d: `e[0][0]` raises, 2-d ancillary columns raise, an empty quant slice raises
  (`C21_*_refuted`). `concatenate/append` drop ancil if any is None (`C22_dropped_refuted`), and accept metadata that are
  only nearly equal (`C22_tolerance_refuted`).
* `check_input=False` has no effect on hist, interp, interp_irregular and packed_interp: scipy's `rv_frozen` rebuilds the
  distribution from its stored arrays with the default `check_input=True` (`C137_same`); only quant hands it on
  (`C137_quant`). The shape of n-d ensembles is lost by the tables (`C24_shape_refuted`).
* The gridded cache goes stale when the grid is mutated in place (`C29_alias_refuted`). A failing `update` leaves the new
  distribution with the old ancil (`C31_update_refuted`).
* Iterating an ensemble with scalar parameters never ends; iterating `e[0]` yields nothing (`C50_*_refuted`).

Conversion, registry
* Histograms with unequal widths do not keep bin probabilities (`C34_widths_refuted`). `convert` and `convert_to` raise
  different exceptions (`C35_exceptions_refuted`). Registration on a class without own tables leaks into the base class
  (`C33_leak_refuted`).

Files
* The iterator yields ensembles that share one ancil dictionary (`C26_refuted`, `C90`). A file counts as complete from the
  first metadata dataset on; an interrupted finalize can be read as another density or not at all, rows never written
  are accepted, finalize cannot be resumed (`C91_*`). A chunk of one PDF is silently replicated (`C93_one`).
* `get_allocation_kwds`: for quant it reserves the quantiles as given although the data hold the padded end points
  (`C118_quantiles`), for spline it ignores `npdf` (`C118_splines`); without `quants` it raises KeyError where the other
  classes raise ValueError (`C118_missing`). For sparse it reserves as many integers as `dims[4]` says, whatever the rows hold (hypothesis `allocated_well` of `C118_allocation`). The class-level functions reserve 4-byte floats (read).
* `read_dict` returns the ensembles in alphabetical order of their names (`C119_roundtrip`).

Packing, sparse
* Log packing drops values within half a step above the floor (`C17_log_packing_refuted`). Basis indices of 65536 or more
  corrupt the coding (`C18_int_coding_refuted`); the first weight is lost (`C74_first_weight_lost`); the dictionary is
  permuted between PDFs (`C20_same_dictionary_refuted`). A basis function below the cut on the whole grid is divided by its norm 0 and its
  column is nan (read; the theorems about sparse ensembles assume `shown` / `visible`). The keyword `cut` of the sparse constructor is
  not stored with the data: selections, appended ensembles and files are rebuilt with 1e-5 (`C140_cut_lost`).

Metrics
* One negative divergence replaces the whole array (`C39_refuted`, `C94`). Brier score of one PDF raises
  (`C38_refuted`, `C95_single`), and is unbounded because densities are compared with 0/1 (`C95_unbounded`).
  Ties give wrong KS/CvM (`C42_refuted`, `C43_refuted`); one sample per PDF is pooled across PDFs (`C100_pooled`).
* `eval_from_iterator` keeps only the last chunk (`C46_refuted`, `C101`). PIT values and end locations lie outside (0,1)
  (`C44_*_refuted`); one PDF and one truth raise (`C102_one`).
* Metric names containing "Metric", or inherited, cannot be created by name (`C47_*_refuted`).
* `isf` of an increasing grid returns the values of two or more PDFs in reverse order (`C108_isf_refuted`, `C109_reversed`).
  `interval(1)` is infinite for bounded PDFs; for `interp` an interval can hold less than alpha (`C110_interp`).
* The chunked sigma-MAD raises IndexError when all residuals are equal, e.g. for perfect estimates, where `evaluate` gives 0
  (`C112_constant`, `C112_perfect`). A PIT chunk of one PDF raises TypeError, one whose PIT values are all 0 or all 1 ValueError,
  although the whole data set is fine (`C113_one`, `C113_zeros`).
* Risk based point estimates: with a first limit of infinity the second one is ignored; one infinite limit otherwise raises
  ValueError (`C120_limits`). Mass outside the 1% - 99% range does not count.
* Ancillary dictionaries are kept by reference: `from_tables(e.build_tables())` and ensembles created with one dictionary share
  their columns, writing into `e[0:2].ancil` changes `e` (`C121_*_refuted`, `C122_window`, `C122_tables`); two ensembles of
  different size created with the same empty dictionary end up with a column of the wrong length (`C121_lengths_refuted`).
* `extract_hist_samples` names the axis of the samples by the number of PDFs: with as many PDFs as bins (and another number of
  samples) the conversion raises ValueError (`C123_same_number`); and since counts are taken for densities, bins of different
  widths do not get their relative frequencies (`C123_formula`, `C123_example`).
- `convert(..., "spline")` has no default method: without `method` it raises KeyError for every source (C127_default), although the class can be created without one. `random_state` is not passed on by the conversion by samples, so that it cannot be reproduced by a seed argument.
- `convert(..., "sparse")` raises KeyError from every class but interp, even when `xvals` and `yvals` are given, because the defaults are looked up first (`C128_sources`). With `nvals` >= 364 there are more than 65536 basis functions, so that codes of different functions coincide without an error (`C128_bases`; the threshold is that of exact arithmetic). The new grid ends at the last positive grid point, so the falling part beyond it is lost (`C128_tail`, `C128_convert`).
- `build_sparse_representation` with `sig` given and `Nsig` not raises UnboundLocalError (`max_sig` is only assigned for the default; lemma `c128_unbound`). `extract_xy_sparse` looks up `sparse_meta["z"]`, a key that is never set, and so would raise KeyError; it is registered under a method name that is already taken and so never called.
- In double precision the lookup of an even histogram divides by the first width, whose relative error is that of the first two edges: an edge of the grid may be answered by the bin below it. With `np.linspace(1, 2, 11)` that is so for the edges 1.2 ... 1.9, and the upper end 2.0 gets the last value instead of 0 (`C129_margin_needed`, lemma `grid11_edges`).
- The number of points of a metric's grid is truncated after a rounded division: `limits=(0, 0.3), dx=0.1` gives a grid of 2 points (`C131_short`).
- Metric objects (C133): only `brier`, `pit` and `point_stats_ez` reject unknown keywords. Every other metric accepts and ignores them, so a misspelt or inapplicable parameter changes nothing without any message: `random_state=` for `ks`, `ad`, `cvm` (only `_random_state` is read, concrete_metric_classes.py 177), `limits=`/`dx=` for `cdeloss`.
- `calculate_goodness_of_fit`, `calculate_outlier_rate` and the metrics `ks`, `ad`, `cvm`, `outlier` never return when an ensemble is `qp.stats.norm` with plain numbers as parameters: the check for nested ensembles iterates over it, and every index is accepted (`C135_endless`).
- With `num_samples=1` the goodness-of-fit metrics compare the samples of all estimates together with each reference PDF, because of `np.squeeze` (`C135_one_sample`).
- **C136** In double precision the cdf of a normalised histogram can exceed 1 and is then not monotone: edges 0, 1, 4, 5 with values 3, 4, 3 give cdf(5) = 1.0000000000000002 while cdf(6) = 1. The excess is at most (4·edges + 16)·2⁻⁵¹. Code that tests `cdf <= 1` or bisects on the cdf sees it.
- **C141** The same happens for interpolated ensembles with several PDFs, and there the answer depends on the company: two PDFs 0, 7, 3 on the grid 0, 1, 7 have cdf(7) = 1.0000000000000002 (scipy's general `interp1d` computes `slope·(x−x0)+y0`), while an ensemble with only that PDF has cdf(7) = 1 (numpy's `interp` returns the last table entry).
- **C142** Selections are not bit-for-bit: `Ensemble(hist, bins=[0,1,4], pdfs=[[1,3]])` has pdf(0.5) = 0.10000000000000002 while its element `[0]` has pdf(0.5) = 0.1, because every new ensemble divides the stored values by their (rounded) area again. Comparing a selection with the original by `==` fails; the drift is bounded (`C142_drift`). Files and `update` go through the same constructor.
- **C143** Quantiles of histograms are not confined to the support: `Ensemble(hist, bins=[-1,0,11], pdfs=[[6,1]]).ppf(1 - 2**-53)` = 11.000000000000002, where pdf is 0. With a bin of area below about 1e-308 quantiles are infinite: `bins=[0,1,2], pdfs=[[2**-1070,1]]`, ppf(2**-1071) = inf.
- `PIT.evaluate_PIT_anderson_ksamp(pit_min, pit_max)` raises IndexError, not ValueError, when exactly one PIT value is left in the range and it is not `pit_min`: scipy takes the last entry of an empty array (`C138_errors`).
- The three ways to the values of a sparse PDF agree only conditionally (C139): `sparse_gen` does not apply the cut of `shapes2pdf` and `pdf_from_sparse` to the sum (`C139_cut_differs`); `indices2shapes` reads the number of levels from the metadata while `decode_sparse_indices` has 32001 built in (`C139_levels_differ`); `shapes2pdf` raises on an integer grid (`pdf += pdft` on an integer array, `C139_integers`).
- **C144** In double precision a density can be negative: two triangles 0, 3, 0 on the grid 0, 0.2, 0.3 have pdf(0.3) = −2⁻⁵⁰ (−8.9e-16), because scipy's general `interp1d` evaluates `slope·(x−x0)+y0` also at the right end of a cell; one such PDF alone gives 0 there. `logpdf` of the pair at 0.3 is then the logarithm of a negative number.
- **C145** In double precision `ppf` of an interpolated ensemble can lie above the last grid point (grid −3, −2, 9, values 5, 1, 0: ppf(1 − 2⁻⁵³) = 9 + 2⁻⁴⁹), where the cdf is already the fill value; with a tiny non-zero area up to a grid point (values 0, 2⁻¹⁰⁷⁰, 1 on 0, 1, 2) ppf(2⁻¹⁰⁷²) is +inf although the density vanishes outside [0, 2].
- **C146** In double precision the stored weights of a mixture can add up to more than 1, and selecting a PDF can change their bits (weights 2, 7, 1: 0.2 + 2⁻⁵⁵ before, 0.2 after). The exact bounds are the theorem.
- **C147** The CDE loss of one PDF and several references is accepted silently, and `accumulate`/`finalize` then disagrees with `evaluate`: it subtracts twice the sum of the densities at the references instead of twice their mean.
- **C149** `qp.stats.norm` accepts zero and negative scales without a message and answers NaN for those PDFs. A column of locations with one common scale, which scipy would broadcast, raises ValueError: `rv_frozen_func` hands the list of parameters to `np.broadcast` as one array.
- **C150** `extract_xy_sparse` (conversion_funcs.py:394-418) can never return. It reads `sparse_meta["z"]`, but `build_sparse_representation` stores the grid under `xvals`: KeyError. It is registered second for the irregular class under the default method, so the first registration is used and no conversion calls it (`C150_never`, `C150_key`, `C150_unused`).
- C152: `calculate_kld` replaces the divergences of **all** PDFs by the machine epsilon as soon as one of them is negative, so the reported value of a PDF depends on which other PDFs are in the ensemble (`C152_kld_spoiled`, with a pair of two-bin histograms as witness).
- **C154** Results for histograms depend on the units of the axis: `get_bin_indices` decides with `np.allclose` (absolute tolerance 1e-8) whether the bins are equally wide. With the edges 0, 1, 3 all is well; with the same edges times 1e-9 the bins count as equal and the density at 2e-9, inside the second bin, is 0 (`C154_tiny`).
- **C157** The density of an irregular grid depends on how finely a straight piece is sampled: `normalize_interp1d` sums right-hand rectangles, while the pdf is piecewise linear. The points (0, 0), (2, 2) give density 1/2 at 2; with (1, 1) added, 2/3. For the regular grid the density does not change, but cdf(xvals[0]) does: it is half of the first step (1/2 for the constant density on [0, 2] with two points, 1/4 with three).
- **C158** Which bin an edge belongs to depends on the other bins: bins of equal width own their lower edge (`floor`), bins of unequal width their upper edge (`searchsorted`). Cutting one bin of a regular histogram in two, with the value kept, therefore changes the density at the edges of the others.
- **C161** The density of a quantile ensemble with the `piecewise_constant` constructor depends on the units of the locations: `prepare_constructor` takes the plain differences of the difference quotients as slopes, without dividing by the distance of the locations. With the quantiles 0, 1/2, 3/4, 1 at 0, 1, 2, 4 the density at 1 is 3/8; with the locations doubled it is 1/8 at 2, not 3/16 (`C161_constant_refuted`).
- **C162** `Ensemble.plot` with a key that selects several PDFs ("Which PDF or PDFs from this ensemble to plot") passes a (PDFs x points) table to matplotlib, which takes the rows as points: it raises ValueError - or, when the number of PDFs equals `npts`, silently draws lines through values of different PDFs (`C162_several_refuted`). `make_figure_axes` reads `xlabel` and `ylabel` from a copy of the keywords, so they are handed to `Axes.plot` as well, which does not know them: the call raises AttributeError and leaves empty labelled axes (`C162_label_refuted`).
- **C163** `plot_native` of interp and packed_interp with a key that selects several PDFs (the docstring's "PDF or PDFs") raises ValueError and leaves empty axes (`C163_several`). **C164** `plot_native` of a histogram with a key that selects several PDFs hands a table of weights to `Axes.hist`: ValueError, leaving axes with the marks of the bin edges (`C164_several`). **C163** `npts`, which `plot` takes, is not removed by `plot_native` of interp, packed_interp and interp_irregular: AttributeError, leaving empty axes (`C163_npts`, `C166_npts`).
- **C165** `plot_pdf_quantiles_on_axes` sets the default label twice: the second one, 'Quantile Interpolated PDF', is never used, marks and curve are both labelled 'Quantiles' (`C165_label`).

## 4. Trusted base

* The Coq 8.16.1 kernel and standard library. No axiom, `Admitted`, functor, module type or plugin is used in this development.
* The hand translation of the Python text to the definitions, each with a file and line citation, and of the library calls
  (section 5).
* What `Print Assumptions` lists, for every final theorem and example (all are axioms of the standard library, most of them
  belong to its real numbers):

| letter | axiom |
|---|---|
| F | `ClassicalDedekindReals.sig_forall_dec` |
| N | `ClassicalDedekindReals.sig_not_dec` |
| C | `Classical_Prop.classic` |
| X | `FunctionalExtensionality.functional_extensionality_dep` |

* **closed under the global context** (139): C02_hist_pdf_is_bin_value_refuted, C05_grid_refuted, C06_matrix_refuted, C07_nearly_equal_bins_refuted, C07_tiny_bins_refuted, C09_first_point_refuted, C10_interp_ppf_refuted, C13_end_quantiles_refuted, C13_two_quantiles_refuted, C14_cdf_spline_refuted, C14_constant_refuted, C14_dual_spline_refuted, C16_example, C16_negative_example, C18_int_coding_partial, C18_int_coding_refuted, C19_example, C20_example, C20_same_dictionary_refuted, C21_ancil_refuted, C21_empty_refuted, C21_mixture_refuted, C21_spline_refuted, C21_twice_refuted, C22_dropped_refuted, C22_tolerance_refuted, C24_shape_refuted, C25_partition, C26_refuted, C29_alias_refuted, C30_accepted, C30_rejected, C31_atomic_partial, C31_update_refuted, C32_add, C32_history, C33_leak_refuted, C33_resolution_partial, C34_widths_refuted, C35_agree_registered, C35_exceptions_refuted, C42_refuted, C43_refuted, C44_outside_refuted, C44_range_refuted, C46_refuted, C47_example, C47_found_partial, C47_hidden_refuted, C47_kept, C47_name_refuted, C47_names, C47_unknown, C50_scalar_refuted, C50_single_refuted, C51_back, C51_frozen, C51_numbering, C51_roundtrip, C51_rows, C54_matrix_refuted, C54_repeated_grid_refuted, C54_single_refuted, C64_overshoot_refuted, C65_own_table_refuted, C66_unknown_constructor, C73_example, C73_int_coding_exact, C73_no_collision, C74_example, C74_first_weight_lost, C75_example, C77_key_positions, C77_keys_example, C79_update, C82_attributes, C82_attributes_example, C83_example, C83_resolution, C83_unique, C87_no_class, C87_no_extraction, C91_silent, C91_unreadable, C91_unwritten, C102_none, C103_create, C103_example, C103_hidden, C103_keep, C103_snapshot, C103_stale, C103_stale_example, C106_hist, C106_interp, C106_irregular, C106_mixmod, C106_quant, C106_rows, C108_isf_refuted, C113_none, C118_missing, C119_others, C121_independent_partial, C121_lengths_refuted, C121_shared_refuted, C121_tables_refuted, C121_view_refuted, C122_both, C122_careful, C122_copies, C122_example, C122_frame, C122_lengths, C122_memory, C122_own_dict, C122_tables, C122_window, C128_bases, C133_arguments, C133_brier, C133_call_example, C133_cde, C133_chunks, C133_create, C133_example, C133_fit, C133_inputs, C133_kld, C133_moment, C133_outlier, C133_pit, C133_points, C133_rbpe, C138_computed_example, C138_published_example, C139_levels_differ, C139_two_ways_example, C140_cut_lost.
* **F** (2): C45_lengths_example, C51_example.
* **F X** (183): C01_example, C01_hist_values_normalised, C02_edge_convention, C02_hist_pdf_is_bin_value_partial, C04_hist_ppf_inverts_cdf, C05_example, C05_hist_grid_partial, C05_hist_unsorted_grid, C05_interp_grid_partial, C05_interp_unsorted_grid, C05_irr_grid_partial, C05_irr_unsorted_grid, C06_example, C06_hist_matrix_mixed, C06_hist_matrix_partial, C06_interp_matrix_mixed, C06_interp_matrix_partial, C06_irr_matrix_mixed, C06_irr_matrix_partial, C07_bin_lookup_partial, C08_example, C10_interp_ppf_partial, C11_example, C12_example, C12_quantile_padding, C13_oracle_example, C13_quantiles_partial, C14_piecewise_constant_value, C14_piecewise_linear_partial, C15_example, C15_negative_weights, C15_weights_normalised, C19_basis_shapes_partial, C19_basis_shapes_refuted, C20_same_dictionary_partial, C28_unfinished, C29_example, C29_gridded_partial, C29_mode_partial, C30_ancil_partial, C30_example, C36_integrate, C37_example, C37_range, C37_range_1d, C37_rejected, C37_score, C42_order, C43_order, C44_table_partial, C45_bias, C45_empty, C45_example, C45_iqr, C45_lengths, C45_mad, C45_move, C45_order, C45_order_example, C45_outliers, C45_unique, C46_by_hand_partial, C46_example, C48_hist_example, C48_interp_example, C49_example, C49_grid, C49_rejected, C49_truth, C53_hist_ppf_ends, C53_interp_ppf_ends, C53_irr_ppf_ends, C54_mixture_ppf_partial, C55_irregular_ppf_inverts_cdf, C56_hist_grid_values, C56_interp_grid_values, C56_irr_grid_values, C57_hist_matrix_values, C57_interp_matrix_values, C57_irr_matrix_values, C59_interp_ppf_values, C61_hist_pdf_sound_bins, C62_bin_lookup_sound_bins, C63_quantile_pairs, C64_quantile_cdf_partial, C65_cdf_spline_first_pdf, C65_dual_spline_first_pdf, C65_own_table_partial, C66_switch_constructor, C67_mixture_rvs_raises, C67_quantile_rvs_partial, C67_quantile_single_rvs_raises, C68_mixture_pointwise, C69_mixture_ppf_rows, C70_example, C70_hist_rvs, C70_interp_rvs, C70_irregular_rvs, C72_example, C74_weights, C75_dictionary_effect, C76_example, C80_example, C95_rejected, C99_unknown, C100_one, C101_example, C101_last, C101_misfit, C101_misfit_example, C101_none, C102_cvm, C102_example, C102_ks, C102_table, C102_trim, C104_hist_example, C104_hist_formula, C104_interp_example, C105_once, C106_example, C107_single_mixture, C108_sf, C110_hist, C110_hist_example, C110_interp, C110_interp_example, C110_irr, C110_irr_example, C111_chunks, C111_exact, C111_example, C112_constant, C112_example, C112_mad, C112_order, C112_perfect, C112_raises, C113_chunks, C114_bounds, C116_shapes, C129_differ_example, C130_example, C132_example, C136_above_one, C136_example, C137_example, C137_hist, C137_interp, C137_irr, C137_quant, C138_errors_example, C138_smallest_example, C138_value_example, C139_density, C139_index, C139_integers, C139_two_ways, C139_value, C141_above_one, C141_builds, C141_example, C142_changes, C142_example, C142_succeeds, C143_beyond, C143_example, C143_infinite, C144_example, C144_negative, C145_beyond, C145_example, C145_infinite, C146_example, C150_never, C154_unequal, C154_uniform, C156_reordered_example, C156_shares_example, C157_example, C158_example, C162_refuses, C165_label.
* **F N X** (20): C01_hist_pdf_integral, C03_hist_cdf_is_integral, C52_profile_partial, C52_tiny_refuted, C105_between, C105_example, C105_lengths, C105_short, C105_table, C115_proper, C115_shape, C138_errors, C138_monotone, C138_smallest, C138_symmetric, C138_value, C139_ensemble_example, C153_example, C154_example, C161_example.
* **F N C X** (381): C08_interp_pdf_normalised, C09_interp_cdf_partial, C11_irregular_partial, C11_irregular_pdf_refuted, C15_laws_example, C15_pdf_cdf, C16_linear_packing, C17_log_packing_partial, C17_log_packing_refuted, C21_example, C21_integer, C21_out_of_range, C21_slice_partial, C22_concatenate_none_partial, C22_concatenate_partial, C22_example, C23_append, C23_example, C24_example, C24_tables_partial, C25_example, C25_iterate, C26_ancil_partial, C27_any_order, C27_example, C27_interleaving, C28_example, C28_finished, C34_example, C34_uniform_partial, C35_agree, C35_example, C35_hist_partial, C35_interp_example, C35_interp_partial, C36_example, C36_reachable, C38_brier_example, C38_brier_partial, C38_cde, C38_cde_example, C38_refuted, C39_example, C39_nonneg, C39_refuted, C39_self, C40_example, C40_metric, C40_triangle, C40_value, C41_example, C41_rate, C41_reachable, C42_example, C42_partial, C43_example, C43_partial, C44_example, C44_samples_partial, C48_grid_refuted, C48_hist_partial, C48_hist_refuted, C48_interp_partial, C48_interp_refuted, C50_example, C50_iterate_partial, C53_ends_refuted, C53_outside_partial, C58_interp_cdf_values, C60_irregular_values, C71_dispatch, C71_example, C71_log_packing_exact, C72_linear_error, C72_packed_is_interp, C76_sparse_density, C77_slice_of_slice, C78_accepted, C78_parts, C78_parts_without_ancil, C80_constructors, C81_example, C81_proper, C84_example, C84_formula, C84_reachable, C85_hist, C85_interp, C86_example, C86_interp, C86_irregular, C87_extraction, C88_example, C88_quantiles, C89_example, C89_infinite_ends, C90_example, C90_shared, C91_again, C91_example, C91_first_dataset, C92_equal_files, C92_example, C92_roundtrip, C93_accepted, C93_example, C93_mismatch, C93_one, C94_broken_example, C94_exact, C94_example, C94_gibbs, C94_other_size, C94_other_size_example, C94_reported, C95_example, C95_rejected_example, C95_score, C95_single, C95_single_example, C95_unbounded, C96_chunks, C96_example, C96_single, C97_example, C97_loss, C98_example, C98_grid, C98_numbers, C98_per_pdf, C98_repeated, C98_single, C99_ad, C99_example, C99_one_reference, C99_paired, C99_paired_example, C99_proper, C99_single, C100_example, C100_pooled, C102_empty, C102_empty_example, C102_ensemble, C102_one, C102_one_example, C102_samples, C102_samples_example, C102_single, C104_grid, C104_grid_example, C104_hist, C104_interp, C104_packed, C104_packed_example, C104_ratio, C107_ends, C107_example, C107_grid, C108_example, C108_scalar_partial, C109_example, C109_isf, C109_reversed, C113_example, C113_one, C113_one_example, C113_reachable, C113_zeros, C113_zeros_example, C114_example, C114_splines, C115_example, C116_example, C116_negative, C116_ranges, C116_xy, C117_example, C117_samples, C118_allocation, C118_example, C118_quantiles, C118_splines, C119_example, C119_roundtrip, C120_central, C120_default, C120_example, C120_histograms, C120_limits, C120_rows, C120_within, C123_default_size, C123_edges, C123_example, C123_formula, C123_same_number, C123_same_number_example, C123_uniform, C124_defaults, C124_example, C124_fit_error, C124_mixture, C125_example, C125_integral, C125_laws, C125_tails, C125_total, C126_example, C126_grid, C126_log, C126_methods, C126_norm, C126_norm_example, C127_default, C127_example, C127_grid, C127_others, C127_samples, C127_samples_example, C127_xy, C128_convert, C128_example, C128_fails, C128_sources, C128_tail, C129_differ, C129_even, C129_example, C129_margin_needed, C130_again, C130_error, C131_default, C131_example, C131_near, C131_points, C131_short, C132_any_order, C132_normal, C134_example, C134_number, C134_one_row, C134_rows, C135_endless, C135_example, C135_mismatch, C135_one_example, C135_one_sample, C135_outlier, C135_value, C136_created, C136_in_bin, C136_order, C136_value, C137_packed, C137_same, C138_meta, C138_order, C138_rows, C138_rows_example, C139_cut_differs, C139_ensemble, C140_errors, C140_made, C140_made_example, C141_area, C141_cdf, C141_in_cell, C141_order, C142_drift, C143_created, C143_order, C143_value, C144_pdf, C144_rising, C144_single, C145_alone, C145_order, C145_ppf, C146_changes, C146_drift, C146_succeeds, C146_weights, C147_differs, C147_example, C147_none, C147_one_example, C147_one_pdf, C147_one_truth, C147_refused, C148_example, C148_least, C148_most, C148_one_reference, C148_paired, C148_pooled, C148_single, C149_columns, C149_example, C149_lengths, C149_loc, C149_mixed, C149_none, C149_numbers, C149_scale, C149_unknown, C150_grid, C150_grid_example, C150_key, C150_key_example, C150_mixture, C150_mixture_example, C150_not_mixture, C150_sources, C150_unused, C151_concatenate, C151_concatenate_example, C151_quantiles, C151_quantiles_example, C151_select, C151_select_example, C152_cdf_example, C152_example, C152_kld, C152_kld_example, C152_kld_spoiled, C152_outlier, C152_pit, C152_rmse, C153_scale, C154_tiny, C154_units, C155_example, C155_kld, C155_kld_example, C155_moment, C155_moment_example, C155_outlier, C155_pit, C155_rmse, C156_reordered, C156_shares, C157_first, C157_interp, C157_irregular, C158_edge, C158_split, C159_example, C159_mode, C159_select, C159_select_example, C159_units, C159_units_example, C160_both, C160_convert, C160_created, C160_example, C161_cdf_ppf, C161_constant_refuted, C161_linear, C162_axes, C162_example, C162_label_refuted, C162_new, C162_several_refuted, C163_axes, C163_example, C163_native, C163_npts, C163_several, C164_axes, C164_example, C164_native, C164_several, C165_axes, C165_example, C165_native, C166_axes, C166_example, C166_native, C166_npts.

## 5. What is modelled and what is not

Modelled function by function (citations at the definitions): utils.py (the kernel estimator itself is a parameter), dict_utils.py (all
but printing), pdf_gen.py (method tables, rows/frozen/wrapped classes, row index), hist_pdf.py, interp_pdf.py,
quant_pdf.py with its four pdf constructors, mixmod_pdf.py, spline_pdf.py, packed_interp_pdf.py, packing_utils.py, sparse_rep.py and
sparse_pdf.py (coding, decoding, dictionary use), ensemble.py, factory.py, conversion_funcs.py (all extractions; the
mixture fit, the kernel estimator and the Voigt profile are parameters), metrics/* as listed in section 2.  The components of a
mixture are evaluated as for positive stds (`comp_pdf`, `comp_cdf`; scipy answers NaN for others, as modelled for `norm` in C149).

Not modelled: plotting.py beyond curves, histograms and quantiles of ensembles (C162 - C166), test_data.py, test_funcs.py, printing, logging and deprecation messages, the bodies of
fits and samplers (`mix_mod_fit`, KDEs, Voigt basis functions (`voigtR`, Voigt.v, is the convolution that `scipy.special.voigt_profile` evaluates; a parameter in C74-C76, C128, C139, C150), `minimize_scalar`, `quad`, pytdigest - oracles where they
occur), the deprecated metrics that only log, MPI (only the ordering of chunk writes), h5py's storage layer, garbage
collection, numpy's error state and dtypes (float32, and float64 rounding outside C129 - C132, C136, C141 - C146; integers are unbounded except where the code
packs bits).

Trusted translations of libraries (each stated where it is used):
* numpy (`NdArray.v`, `NumpyLib.v`, `Shapes.v`): reshape, broadcasting, sort, unique, searchsorted, digitize, linspace,
  interp, cumsum, diff, histogram, quantile, median, allclose, squeeze, vectorize, expand_dims.
* scipy (`ScipyWrap.v`, `Sampling.v`, `Moments.v`): the wrapper methods of `rv_continuous` for frozen distributions with
  loc 0 and scale 1; `interp1d` linear with fill values (`NumpyLib.v`), quadratic `interp1d` and its spline derivatives as oracles with
  the laws stated; `splev`/`splint` computed (`SplinePdf.v`), `splrep`, `quad`, `gaussian_kde` as parameters (`SplineXy.v`); the normal pdf/cdf as oracle with `normal_laws`
  (proved to hold of the normal law itself in `Gauss.v`, `C125_laws`).
* tables_io / h5py (`Hdf5.v`): groups of named datasets; a write of one dataset is atomic; a crash keeps a prefix of the
  writes.
* pytdigest: digests as an abstract type.

Simplifications are marked `SIMPLIFICATION` at the definitions. Where input lies outside the model the model answers the
exception `NotModelled`, never a default value; theorems exclude it by hypothesis or show it does not occur.
