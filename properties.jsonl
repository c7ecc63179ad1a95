{"id": "C01", "title": "Histogram PDFs are normalised", "statement": "Building a histogram ensemble from any strictly increasing bin edges and any non-negative bin values with positive total mass gives PDFs whose integral over the bins is exactly 1, non-negative everywhere, and proportional to the input values.", "quantifier": "every number of bins, every strictly increasing real edge vector, every non-negative value vector with positive mass, every row", "why_tests_cant": "The input space (all real arrays of every length) is infinite; a test samples a handful of grids.", "anchors": ["src/qp/hist_pdf.py:hist_gen.__init__"]}
{"id": "C02", "title": "Histogram pdf(x) is the value of the bin containing x, 0 outside", "statement": "For a histogram ensemble pdf(x) equals the stored value of the bin that contains x and 0 when x is outside the outer edges, whatever the bin widths are.", "quantifier": "every bin vector, every real x, every row", "why_tests_cant": "The input space (all real arrays of every length) is infinite; a test samples a handful of grids. The lookup has two algorithms (arithmetic/binary search) chosen by a tolerance test, so agreement has to be shown for every bin vector.", "anchors": ["src/qp/hist_pdf.py:hist_gen._pdf", "src/qp/utils.py:get_bin_indices", "src/qp/utils.py:evaluate_hist_x_multi_y"]}
{"id": "C03", "title": "Histogram cdf is the integral of the pdf", "statement": "For a histogram ensemble cdf(x) equals the integral of the stored piecewise-constant density from -infinity to x: it is monotone, 0 at and below the first edge, 1 at and above the last edge, and it is the integral of the function ens.pdf for bins that are equal-width or clearly not (see C07).", "quantifier": "every histogram ensemble and every real x", "why_tests_cant": "The input space (all real arrays of every length) is infinite; a test samples a handful of grids.", "anchors": ["src/qp/hist_pdf.py:hist_gen._cdf", "src/qp/hist_pdf.py:hist_gen._compute_cdfs", "src/qp/utils.py:interpolate_x_multi_y"]}
{"id": "C04", "title": "Histogram ppf inverts the cdf", "statement": "For every probability q strictly between 0 and 1, ppf(q) lies between the outer edges and cdf(ppf(q)) = q, even when some bins are empty; ppf is monotone in q, and x <= y is preserved (inverse-transform samples are distributed as the cdf).", "quantifier": "every histogram ensemble, every q in (0,1)", "why_tests_cant": "The input space (all real arrays of every length) is infinite; a test samples a handful of grids.", "anchors": ["src/qp/hist_pdf.py:hist_gen._ppf", "src/qp/utils.py:interpolate_multi_x_y", "src/qp/pdf_gen.py:Pdf_rows_gen._rvs"]}
{"id": "C05", "title": "Evaluating an ensemble on a common grid evaluates every PDF at every requested point, in the requested order", "statement": "ens.pdf/cdf/ppf(grid)[i][j] is PDF i evaluated at grid[j], for every grid.", "quantifier": "every number of PDFs, every grid (any length, order, repetition)", "why_tests_cant": "The dispatch compares only numbers of distinct values, so correctness depends on arithmetic coincidences between npdf and the grid.", "anchors": ["src/qp/utils.py:get_eval_case", "src/qp/utils.py:interpolate_x_multi_y", "src/qp/utils.py:evaluate_hist_x_multi_y"]}
{"id": "C06", "title": "Evaluating an ensemble at per-PDF points evaluates each PDF at its own points", "statement": "ens.pdf/cdf(points) with points of shape (npdf, m) returns PDF i evaluated at points[i][j].", "quantifier": "every npdf, every m, every point matrix", "why_tests_cant": "Correctness depends on coincidences between the number of distinct points and the matrix shape.", "anchors": ["src/qp/utils.py:get_eval_case"]}
{"id": "C07", "title": "Bin lookup returns a valid index and the bin that really contains the point", "statement": "For every edge vector and every x the bin index returned is between 0 and nbins-1; the mask is true exactly when x is inside the range, and then the indexed bin contains x.", "quantifier": "every edge vector (uniform, nearly uniform, irregular) and every x", "why_tests_cant": "The input space (all real arrays of every length) is infinite; a test samples a handful of grids.", "anchors": ["src/qp/utils.py:get_bin_indices"]}
{"id": "C08", "title": "Interpolated-grid PDFs are normalised", "statement": "Building an interpolated ensemble (shared x grid) from strictly increasing x values and non-negative y values with positive area gives piecewise-linear PDFs whose integral is exactly 1.", "quantifier": "every grid, every non-negative y, every row", "why_tests_cant": "The input space (all real arrays of every length) is infinite; a test samples a handful of grids.", "anchors": ["src/qp/interp_pdf.py:interp_gen.__init__", "src/qp/interp_pdf.py:interp_gen._compute_ycumul"]}
{"id": "C09", "title": "Interpolated-grid cdf", "statement": "For an interpolated ensemble the cdf is monotone, 0 below the grid, 1 at and above the end, between 0 and 1, and equals the integral of the pdf up to x at every grid point.", "quantifier": "every interpolated ensemble, every x", "why_tests_cant": "The input space (all real arrays of every length) is infinite; a test samples a handful of grids.", "anchors": ["src/qp/interp_pdf.py:interp_gen._cdf"]}
{"id": "C10", "title": "Interpolated-grid ppf inverts the cdf", "statement": "For every q in (0,1) cdf(ppf(q)) = q and ppf(q) is inside the grid.", "quantifier": "every interpolated ensemble, every q in (0,1)", "why_tests_cant": "The input space (all real arrays of every length) is infinite; a test samples a handful of grids.", "anchors": ["src/qp/interp_pdf.py:interp_gen._ppf"]}
{"id": "C11", "title": "Irregular-grid PDFs are normalised and have a proper cdf", "statement": "Building an ensemble with per-PDF x grids gives PDFs whose integral is 1 and a cdf that is monotone from 0 to 1.", "quantifier": "every irregular grid and non-negative y", "why_tests_cant": "The input space (all real arrays of every length) is infinite; a test samples a handful of grids.", "anchors": ["src/qp/interp_pdf.py:interp_irregular_gen", "src/qp/utils.py:normalize_interp1d"]}
{"id": "C12", "title": "Quantile padding produces a full cdf table and touches nothing else", "statement": "Constructing a quantile ensemble yields a table that starts at probability 0 (within epsilon) and ends at 1, contains the user's (quantile, location) pairs unchanged, keeps strict monotonicity, and padding an already padded table changes nothing.", "quantifier": "every quantile vector and location row", "why_tests_cant": "The input space (all real arrays of every length) is infinite; a test samples a handful of grids.", "anchors": ["src/qp/quant_pdf.py:pad_quantiles", "src/qp/quant_pdf.py:quant_gen.__init__"]}
{"id": "C13", "title": "Quantile ensembles honour the given quantiles", "statement": "cdf(loc_i) = quant_i and ppf(quant_i) = loc_i for every supplied pair.", "quantifier": "every quantile table", "why_tests_cant": "The input space (all real arrays of every length) is infinite; a test samples a handful of grids.", "anchors": ["src/qp/quant_pdf.py:quant_gen._cdf", "src/qp/quant_pdf.py:quant_gen._ppf"]}
{"id": "C14", "title": "PDFs built from quantiles are densities", "statement": "The pdf of a quantile ensemble is never negative, whichever pdf constructor is selected, and the piecewise-constant constructor is constant between derivative points.", "quantifier": "every increasing quantile table, every x, each constructor", "why_tests_cant": "The input space (all real arrays of every length) is infinite; a test samples a handful of grids.", "anchors": ["src/qp/quantile_pdf_constructors/piecewise_linear.py", "src/qp/quantile_pdf_constructors/piecewise_constant.py", "src/qp/quantile_pdf_constructors/dual_spline_average.py"]}
{"id": "C15", "title": "Gaussian mixtures have weights summing to one", "statement": "Any mixture with non-negative weights and positive total is renormalised to weights summing to 1, its cdf is monotone within [0,1], its pdf non-negative; negative weights are rejected with ValueError.", "quantifier": "every number of components, every weight matrix", "why_tests_cant": "The input space (all real arrays of every length) is infinite; a test samples a handful of grids.", "anchors": ["src/qp/mixmod_pdf.py:mixmod_gen.__init__", "src/qp/mixmod_pdf.py:mixmod_gen._pdf", "src/qp/mixmod_pdf.py:mixmod_gen._cdf"]}
{"id": "C16", "title": "Linear 8-bit packing error bound", "statement": "Packing non-negative rows to 8 bits and unpacking changes each value by at most rowmax/510, maps the row maximum exactly, keeps order, and packing an unpacked array gives the same bytes.", "quantifier": "every non-negative row with positive maximum", "why_tests_cant": "The input space (all real arrays of every length) is infinite; a test samples a handful of grids.", "anchors": ["src/qp/packing_utils.py:linear_pack_from_rowmax", "src/qp/packing_utils.py:linear_unpack_from_rowmax"]}
{"id": "C17", "title": "Logarithmic 8-bit packing error bound", "statement": "Log packing keeps every value above the floor within the relative resolution of the code, zeroes values below the floor and never overflows a byte.", "quantifier": "every non-negative row, every negative log floor", "why_tests_cant": "The input space (all real arrays of every length) is infinite; a test samples a handful of grids.", "anchors": ["src/qp/packing_utils.py:log_pack_from_rowmax", "src/qp/packing_utils.py:log_unpack_from_rowmax"]}
{"id": "C18", "title": "Sparse integer coding round trip", "statement": "Packing (coefficient, basis index) into one integer and decoding it gives back both numbers.", "quantifier": "every coefficient, every basis index", "why_tests_cant": "Integer ranges are unbounded; the code uses shifts and masks whose validity range must be derived.", "anchors": ["src/qp/sparse_rep.py:combine_int", "src/qp/sparse_rep.py:get_N"]}
{"id": "C19", "title": "Sparse basis index decoding", "statement": "The (mean, sigma, gamma) recovered from a basis index are those used to build that basis function, for every basis size.", "quantifier": "every Nmu, Nsigma, Nv, every index", "why_tests_cant": "All sizes of a 3-dimensional index space.", "anchors": ["src/qp/sparse_rep.py:create_voigt_basis", "src/qp/sparse_rep.py:indices2shapes"]}
{"id": "C20", "title": "Each PDF is sparsified against the same dictionary", "statement": "Building the sparse representation of a batch gives every PDF the same result it would get alone, independent of the PDFs before it.", "quantifier": "every dictionary, every batch, every selection sequence", "why_tests_cant": "Depends on the whole history of in-place column swaps.", "anchors": ["src/qp/sparse_rep.py:sparse_basis", "src/qp/sparse_rep.py:build_sparse_representation"]}
{"id": "C21", "title": "Slicing an ensemble selects those PDFs", "statement": "ens[key] holds exactly the PDFs and ancillary rows selected by key, in that order, and evaluates as the corresponding rows of ens; an out-of-range integer raises IndexError.", "quantifier": "every representation, every ensemble, every integer (negative too), slice, mask or index array", "why_tests_cant": "Every key of every kind against every ensemble.", "anchors": ["src/qp/ensemble.py:Ensemble.__getitem__", "src/qp/dict_utils.py:slice_dict"]}
{"id": "C22", "title": "Concatenation keeps every PDF in order", "statement": "concatenate([e1..ek]) has npdf = sum of npdfs, evaluates as the rows of e1, then e2, ..., keeps the ancillary columns in the same order, and slicing recovers each part; mismatched metadata or keys are rejected.", "quantifier": "every list of ensembles of one class", "why_tests_cant": "Unbounded lists of ensembles of any size.", "anchors": ["src/qp/factory.py:Factory.concatenate", "src/qp/dict_utils.py:concatenate_dicts", "src/qp/dict_utils.py:compare_dicts"]}
{"id": "C23", "title": "Append is concatenation in place", "statement": "After a.append(b), a equals concatenate([a, b]); on failure a is unchanged.", "quantifier": "every pair of ensembles", "why_tests_cant": "The input space (all real arrays of every length) is infinite; a test samples a handful of grids.", "anchors": ["src/qp/ensemble.py:Ensemble.append", "src/qp/ensemble.py:Ensemble.update_objdata"]}
{"id": "C24", "title": "Tables round trip", "statement": "from_tables(build_tables(e)) is an ensemble of the same class with the same PDFs, same ancillary data, same metadata, and repeating it changes nothing.", "quantifier": "every ensemble of every representation", "why_tests_cant": "Unbounded data; needs idempotence of constructor normalisation for all inputs.", "anchors": ["src/qp/ensemble.py:Ensemble.build_tables", "src/qp/factory.py:Factory.from_tables", "src/qp/factory.py:Factory._build_data_dict"]}
{"id": "C25", "title": "Chunked iteration covers each PDF exactly once", "statement": "Iterating a file with any chunk size over any number of parallel ranks yields ranges that partition the rows, and each yielded ensemble is the slice of the full ensemble.", "quantifier": "every number of rows, chunk size, number of ranks", "why_tests_cant": "Arithmetic over unbounded sizes and ranks.", "anchors": ["src/qp/factory.py:Factory.iterator"]}
{"id": "C26", "title": "Ensembles yielded by the iterator keep their ancillary data", "statement": "Each ensemble yielded by the chunked iterator keeps the ancillary rows of its own range, also after the iteration moved on.", "quantifier": "every file, chunk size, and history of reads", "why_tests_cant": "A property of object identity over the whole iteration history.", "anchors": ["src/qp/factory.py:Factory.iterator"]}
{"id": "C27", "title": "Chunked parallel writing is schedule independent", "statement": "Writing chunks that tile the file in any order (any interleaving of ranks) gives the same stored columns as writing the whole ensemble at once.", "quantifier": "every tiling of the rows and every order of the writes", "why_tests_cant": "The number of schedules is factorial in the number of chunks.", "anchors": ["src/qp/ensemble.py:Ensemble.initializeHdf5Write", "src/qp/ensemble.py:Ensemble.writeHdf5Chunk"]}
{"id": "C28", "title": "An unfinished chunked file is never taken for a complete one", "statement": "At any crash point before finalize, is_qp_file is False; after finalize on a fully written file, reading gives the written ensemble.", "quantifier": "every crash point of every write sequence", "why_tests_cant": "All prefixes of all write sequences.", "anchors": ["src/qp/ensemble.py:Ensemble.finalizeHdf5Write", "src/qp/factory.py:Factory.is_qp_file"]}
{"id": "C29", "title": "gridded() is a transparent cache", "statement": "Whatever sequence of gridded/mode/moment_partial/update/append calls was made, gridded(grid) returns the pdf of the current PDFs at grid.", "quantifier": "every history of operations", "why_tests_cant": "Histories are unbounded; staleness needs particular sequences.", "anchors": ["src/qp/ensemble.py:Ensemble.gridded", "src/qp/ensemble.py:Ensemble.update"]}
{"id": "C30", "title": "Ancillary columns always match the number of PDFs", "statement": "In every reachable state each ancillary column has one entry per PDF; set_ancil/add_to_ancil reject others without changing anything.", "quantifier": "every history of operations", "why_tests_cant": "Unbounded histories, including failing operations.", "anchors": ["src/qp/ensemble.py:Ensemble.set_ancil", "src/qp/ensemble.py:Ensemble.add_to_ancil", "src/qp/dict_utils.py:check_array_shapes"]}
{"id": "C31", "title": "update is atomic", "statement": "If update raises, the ensemble still is what it was before.", "quantifier": "every ensemble, data and ancil argument", "why_tests_cant": "All failing inputs.", "anchors": ["src/qp/ensemble.py:Ensemble.update"]}
{"id": "C32", "title": "Class registry is consistent", "statement": "Registering a class under a used name raises KeyError and changes nothing; otherwise the class becomes available under its name and every other name is untouched.", "quantifier": "every sequence of registrations", "why_tests_cant": "All registration sequences.", "anchors": ["src/qp/factory.py:Factory.add_class"]}
{"id": "C33", "title": "Conversion methods resolve predictably", "statement": "The first function registered under a method name stays the one used; an unregistered name resolves to the default when one exists, otherwise to nothing and conversion raises KeyError.", "quantifier": "every registration history and every method name", "why_tests_cant": "All registration sequences.", "anchors": ["src/qp/dict_utils.py:set_val_or_default", "src/qp/dict_utils.py:get_val_or_default", "src/qp/pdf_gen.py:Pdf_gen.creation_method"]}
{"id": "C34", "title": "Converting to a histogram preserves bin probabilities", "statement": "After converting any ensemble to a histogram whose bins cover its support, the probability of every bin is unchanged.", "quantifier": "every ensemble, every bin vector", "why_tests_cant": "The input space (all real arrays of every length) is infinite; a test samples a handful of grids.", "anchors": ["src/qp/conversion_funcs.py:extract_hist_values", "src/qp/hist_pdf.py:hist_gen"]}
{"id": "C35", "title": "convert and convert_to agree and re-conversion is the identity", "statement": "qp.convert(e, name, **kw) equals e.convert_to(cls, **kw); converting a histogram to a histogram on its own uniform bins, or an interpolated ensemble to its own grid, returns the same PDFs.", "quantifier": "every ensemble and keyword set", "why_tests_cant": "The input space (all real arrays of every length) is infinite; a test samples a handful of grids.", "anchors": ["src/qp/factory.py:Factory.convert", "src/qp/ensemble.py:Ensemble.convert_to", "src/qp/conversion_funcs.py:extract_vals_at_x"]}
{"id": "C36", "title": "integrate is additive and histogramize telescopes", "statement": "integrate((a,b)) + integrate((b,c)) = integrate((a,c)), 0 <= integrate((a,b)) <= 1 for a <= b, and the histogramize values are non-negative and sum to integrate over the full range.", "quantifier": "every ensemble with a proper cdf, all limits", "why_tests_cant": "The input space (all real arrays of every length) is infinite; a test samples a handful of grids.", "anchors": ["src/qp/ensemble.py:Ensemble.integrate", "src/qp/pdf_gen.py:rv_frozen_rows.histogramize"]}
{"id": "C37", "title": "Brier score range and meaning", "statement": "For probability-vector rows and one-hot truth the Brier score is between 0 and 2, is 0 only for a perfect prediction; malformed shapes are rejected.", "quantifier": "every number of rows and bins", "why_tests_cant": "The input space (all real arrays of every length) is infinite; a test samples a handful of grids.", "anchors": ["src/qp/metrics/brier.py", "src/qp/metrics/metrics.py:calculate_brier"]}
{"id": "C38", "title": "Chunked metric evaluation equals whole evaluation", "statement": "Accumulating the Brier (or CDE-loss) metric over any partition into chunks and finalising gives the value computed on the whole ensemble.", "quantifier": "every partition into chunks", "why_tests_cant": "All partitions of all lengths.", "anchors": ["src/qp/metrics/concrete_metric_classes.py:BrierMetric", "src/qp/metrics/concrete_metric_classes.py:CDELossMetric", "src/qp/metrics/metrics.py:calculate_brier_for_accumulation"]}
{"id": "C39", "title": "KLD identities", "statement": "KLD of a PDF with itself is 0, the reported value is never negative, and the value reported for a PDF does not depend on the other PDFs of the ensemble.", "quantifier": "all ensembles and grids", "why_tests_cant": "The input space (all real arrays of every length) is infinite; a test samples a handful of grids.", "anchors": ["src/qp/metrics/array_metrics.py:quick_kld", "src/qp/metrics/metrics.py:calculate_kld"]}
{"id": "C40", "title": "RMSE is a metric", "statement": "The RMSE between gridded PDFs is non-negative, symmetric, zero exactly when the gridded values agree, and satisfies the triangle inequality.", "quantifier": "all vectors of all lengths", "why_tests_cant": "The input space (all real arrays of every length) is infinite; a test samples a handful of grids.", "anchors": ["src/qp/metrics/array_metrics.py:quick_rmse"]}
{"id": "C41", "title": "Outlier rate is a probability", "statement": "For limits lo <= hi the outlier rate of every PDF with a proper cdf is in [0,1] and equals one minus the probability inside the limits.", "quantifier": "every cdf and limits", "why_tests_cant": "The input space (all real arrays of every length) is infinite; a test samples a handful of grids.", "anchors": ["src/qp/metrics/metrics.py:calculate_outlier_rate"]}
{"id": "C42", "title": "Kolmogorov-Smirnov statistic is the sup distance", "statement": "The KS statistic is between 1/(2n) and 1, does not depend on the order of the sample, and bounds |F_n(x) - F(x)| for every x.", "quantifier": "every sample, every cdf, every x", "why_tests_cant": "The input space (all real arrays of every length) is infinite; a test samples a handful of grids.", "anchors": ["src/qp/metrics/goodness_of_fit.py"]}
{"id": "C43", "title": "Cramer-von Mises statistic lower bound and order independence", "statement": "The CvM statistic is at least 1/(12n), order independent, and attains the bound only at the midpoints.", "quantifier": "every sample", "why_tests_cant": "The input space (all real arrays of every length) is infinite; a test samples a handful of grids.", "anchors": ["src/qp/metrics/goodness_of_fit.py"]}
{"id": "C44", "title": "PIT values", "statement": "Each PIT value is the cdf of its own PDF at its own true value, lies in [0,1], and the ensemble produced from them has strictly increasing locations inside (0,1).", "quantifier": "every ensemble and truth vector", "why_tests_cant": "The input space (all real arrays of every length) is infinite; a test samples a handful of grids.", "anchors": ["src/qp/metrics/pit.py"]}
{"id": "C45", "title": "Point-estimate metrics", "statement": "The outlier rate lies in [0,1]; bias, IQR width and MAD are invariant under reordering the sample, shift/scale equivariant; widths are non-negative.", "quantifier": "every sample", "why_tests_cant": "The input space (all real arrays of every length) is infinite; a test samples a handful of grids.", "anchors": ["src/qp/metrics/point_estimate_metric_classes.py"]}
{"id": "C46", "title": "Chunked point metrics use every chunk", "statement": "Evaluating a point metric from an iterator over chunks uses the data of all chunks.", "quantifier": "every sequence of chunks", "why_tests_cant": "All partitions.", "anchors": ["src/qp/metrics/base_metric_classes.py:PointToPointMetric.eval_from_iterator"]}
{"id": "C47", "title": "Metric registry", "statement": "create_metric(name) returns the registered metric of that name, an unknown name raises, and update makes newly defined metrics visible without losing old ones.", "quantifier": "every history of class definitions and lookups", "why_tests_cant": "All histories.", "anchors": ["src/qp/metrics/factory.py"]}
{"id": "C48", "title": "Moments", "statement": "moment(0) of a normalised PDF is 1 and moment(1) is its mean, for every representation and grid.", "quantifier": "every grid", "why_tests_cant": "The input space (all real arrays of every length) is infinite; a test samples a handful of grids.", "anchors": ["src/qp/hist_pdf.py:hist_gen.custom_generic_moment", "src/qp/interp_pdf.py:interp_gen.custom_generic_moment", "src/qp/ensemble.py:Ensemble.moment_partial", "src/qp/metrics/array_metrics.py:quick_moment"]}
{"id": "C49", "title": "Metric grids", "statement": "The evaluation grid starts at the lower limit, ends at the upper, is evenly spaced with the reported resolution, and every truth inside the limits falls in exactly one bin.", "quantifier": "all limits and dx", "why_tests_cant": "The input space (all real arrays of every length) is infinite; a test samples a handful of grids.", "anchors": ["src/qp/metrics/metrics.py:_calculate_grid_parameters", "src/qp/metrics/metrics.py:_prepare_for_brier"]}
{"id": "C50", "title": "Iterating over an ensemble visits each PDF once and stops", "statement": "for pdf in ens yields ens[0] .. ens[npdf-1] and terminates.", "quantifier": "every ensemble", "why_tests_cant": "Termination is a property of unbounded executions.", "anchors": ["src/qp/ensemble.py:Ensemble.__getitem__", "src/qp/dict_utils.py:slice_dict"]}
{"id": "C51", "title": "Reshaping between PDF shape and rows loses nothing", "statement": "Flattening multi-dimensional ensembles to rows and back is the identity, and each PDF keeps its own row.", "quantifier": "every shape, every data", "why_tests_cant": "The input space (all real arrays of every length) is infinite; a test samples a handful of grids.", "anchors": ["src/qp/utils.py:reshape_to_pdf_size", "src/qp/utils.py:reshape_to_pdf_shape", "src/qp/pdf_gen.py:rv_frozen_rows.__init__"]}
{"id": "C52", "title": "Profile means", "statement": "profile(x, y, bins) gives for each bin the mean and spread of exactly the y whose x is in the bin; the mean lies between the smallest and largest of them; empty bins are NaN.", "quantifier": "every data set and bins", "why_tests_cant": "The input space (all real arrays of every length) is infinite; a test samples a handful of grids.", "anchors": ["src/qp/utils.py:profile"]}
{"id": "C53", "title": "Public ppf/cdf edge behaviour", "statement": "For probabilities outside [0,1] ppf is NaN; ppf(0) and ppf(1) return the ends of the support.", "quantifier": "every ensemble", "why_tests_cant": "The input space (all real arrays of every length) is infinite; a test samples a handful of grids.", "anchors": ["src/qp/hist_pdf.py:hist_gen", "src/qp/pdf_gen.py:Pdf_rows_gen"]}
{"id": "C54", "title": "Mixture ppf evaluates the right PDF", "statement": "For a mixture ensemble ppf(q) with per-PDF probabilities inverts the cdf of the PDF it is asked for.", "quantifier": "every npdf, every probability matrix", "why_tests_cant": "Row bookkeeping over all shapes.", "anchors": ["src/qp/mixmod_pdf.py:mixmod_gen._ppf"]}
{"id": "C55", "title": "Irregular-grid ppf inverts the cdf", "statement": "For an ensemble with one x grid per PDF, ppf(q) is inside the grid of its own PDF and cdf(ppf(q)) = q for every q in (0,1); ppf is monotone.", "quantifier": "every irregular ensemble, every q in (0,1)", "why_tests_cant": "The input space (all real arrays of every length) is infinite; a test samples a handful of grids.", "anchors": ["src/qp/interp_pdf.py:interp_irregular_gen._ppf", "src/qp/interp_pdf.py:interp_irregular_gen._cdf"]}
{"id": "C56", "title": "Exact behaviour of ens.pdf/cdf/ppf on a grid", "statement": "On a sorted grid, on a grid with a repeated point, or for one PDF, entry (i,j) of ens.pdf/cdf/ppf(grid) is PDF i at grid[j]; on every other grid the columns are the values at the sorted points.", "quantifier": "every ensemble (histogram, interpolated, irregular), every grid", "why_tests_cant": "The behaviour depends on coincidences between numbers of distinct points; all sizes and orders must be covered.", "anchors": ["src/qp/utils.py:get_eval_case", "src/qp/utils.py:interpolate_x_multi_y"]}
{"id": "C57", "title": "Exact behaviour of ens.pdf/cdf on a matrix of points", "statement": "ens.pdf/cdf(X) with one line of w points per PDF is PDF i at X[i][j] exactly when there is one PDF, w = 1, or the number of distinct points differs from w; otherwise every line holds the values at the sorted distinct points.", "quantifier": "every ensemble (histogram, interpolated, irregular), every matrix", "why_tests_cant": "The behaviour depends on coincidences between numbers of distinct points and the shape; all must be covered.", "anchors": ["src/qp/utils.py:get_eval_case"]}
{"id": "C58", "title": "Interpolated cdf: exact values and error bound", "statement": "The cdf of an interpolated ensemble is monotone, in [0,1], equals the integral of the pdf at every grid point but the first, equals half the first cell's height times width at the first point, and from the second grid point on is within |change of density| * cell width / 8 of the integral.", "quantifier": "every interpolated ensemble, every x", "why_tests_cant": "The input space (all real arrays of every length) is infinite; a test samples a handful of grids.", "anchors": ["src/qp/interp_pdf.py:interp_gen._cdf", "src/qp/interp_pdf.py:interp_gen._compute_ycumul"]}
{"id": "C59", "title": "Interpolated ppf: exact values", "statement": "ppf(q) of an interpolated ensemble is inside the grid, monotone, inverts the cdf for q >= cdf(first grid point), is the first grid point below that, and inverts for every q when the density starts at 0.", "quantifier": "every interpolated ensemble, every q in (0,1)", "why_tests_cant": "The input space (all real arrays of every length) is infinite; a test samples a handful of grids.", "anchors": ["src/qp/interp_pdf.py:interp_gen._ppf"]}
{"id": "C60", "title": "Irregular-grid density and cdf: exact values", "statement": "The cdf of an irregular-grid ensemble is monotone from 0 at its first point to 1 at its last and equals the right Riemann sums of the density at the grid points; the density is non-negative with integral (trapezoid sum)/(right-rectangle sum).", "quantifier": "every irregular grid and non-negative y", "why_tests_cant": "The input space (all real arrays of every length) is infinite; a test samples a handful of grids.", "anchors": ["src/qp/interp_pdf.py:interp_irregular_gen", "src/qp/utils.py:normalize_interp1d"]}
{"id": "C61", "title": "Histogram pdf on equal-width or clearly unequal bins", "statement": "For bins that are exactly equal-width or differ by more than the closeness tolerance, pdf(x) is the stored value of the bin whose interior contains x, 0 outside; at an inner edge it is the right bin for equal-width and the left bin for unequal bins.", "quantifier": "every such bin vector, every real x, every row", "why_tests_cant": "The input space (all real arrays of every length) is infinite; a test samples a handful of grids.", "anchors": ["src/qp/hist_pdf.py:hist_gen._pdf", "src/qp/utils.py:get_bin_indices"]}
{"id": "C62", "title": "Bin lookup on equal-width or clearly unequal bins", "statement": "For such bins the lookup returns a valid index; the mask is true for every point strictly inside the range and false outside; a masked-in point lies in the indexed bin.", "quantifier": "every such edge vector and every x", "why_tests_cant": "The input space (all real arrays of every length) is infinite; a test samples a handful of grids.", "anchors": ["src/qp/utils.py:get_bin_indices"]}
{"id": "C63", "title": "Quantile ensembles honour interior quantiles", "statement": "For a table of at least three padded quantiles, cdf(loc_i) = quant_i for every pair, ppf(quant_i) = loc_i for every quantile inside (0,1), cdf is 0 below the padded table and 1 above it.", "quantifier": "every quantile table, every spline routine that passes through its knots", "why_tests_cant": "The statement ranges over all real-valued tables of every length; a test samples a handful.", "anchors": ["src/qp/quant_pdf.py:quant_gen._cdf", "src/qp/quant_pdf.py:quant_gen._ppf"]}
{"id": "C64", "title": "The cdf of a quantile ensemble is a cdf", "statement": "cdf is monotone and stays within [0,1].", "quantifier": "every quantile table, every x", "why_tests_cant": "The statement ranges over all real-valued tables of every length; a test samples a handful.", "anchors": ["src/qp/quant_pdf.py:quant_gen._cdf"]}
{"id": "C65", "title": "Every PDF of a quantile ensemble is evaluated with its own table", "statement": "pdf, cdf and ppf of PDF r depend on the locations of PDF r only, whichever pdf constructor is selected.", "quantifier": "every ensemble, every grid or matrix of points, each constructor", "why_tests_cant": "The statement ranges over all real-valued tables of every length; a test samples a handful.", "anchors": ["src/qp/quant_pdf.py:quant_gen._pdf", "src/qp/quantile_pdf_constructors"]}
{"id": "C66", "title": "Switching the pdf constructor equals rebuilding", "statement": "Setting pdf_constructor_name gives the ensemble that would have been built with that constructor; an unknown name raises ValueError and changes nothing.", "quantifier": "every ensemble, every pair of names", "why_tests_cant": "Only a proof relates the two construction paths for all tables.", "anchors": ["src/qp/quant_pdf.py:quant_gen.pdf_constructor_name"]}
{"id": "C67", "title": "Sampling works for every representation", "statement": "rvs(size) of an ensemble returns, for PDF r, the quantiles of PDF r at its row of uniform draws.", "quantifier": "every representation with rows, every npdf, every size, every matrix of draws", "why_tests_cant": "The statement ranges over all real-valued tables and draws of every size; a test samples a handful.", "anchors": ["src/qp/pdf_gen.py:Pdf_rows_gen._rvs", "src/qp/ensemble.py:Ensemble.rvs", "src/qp/mixmod_pdf.py:mixmod_gen._ppf"]}
{"id": "C68", "title": "Mixture pdf and cdf are pointwise", "statement": "pdf and cdf of a mixture ensemble on any grid or per-PDF matrix equal the values at the single points.", "quantifier": "every mixture, every grid in any order with or without repetitions, every matrix", "why_tests_cant": "The statement ranges over all real-valued tables and draws of every size; a test samples a handful.", "anchors": ["src/qp/mixmod_pdf.py:mixmod_gen._pdf", "src/qp/mixmod_pdf.py:mixmod_gen._cdf"]}
{"id": "C69", "title": "Which PDF answers a mixture ppf request", "statement": "For w >= 2 probabilities per PDF that do not form one common grid of distinct points, line r of ppf holds quantiles of PDF floor(r / w).", "quantifier": "every mixture of two or more PDFs, every probability matrix in (0,1)", "why_tests_cant": "Row bookkeeping over all shapes.", "anchors": ["src/qp/mixmod_pdf.py:mixmod_gen._ppf", "src/qp/utils.py:get_eval_case"]}
{"id": "C70", "title": "Inverse-cdf sampling of tabulated PDFs", "statement": "Sample (r, i) of a histogram, interpolated or irregular ensemble is ppf_r of draw (r, i), so for histogram and irregular ensembles sample <= x exactly when draw <= cdf_r(x), except possibly for the one draw equal to cdf_r(x).", "quantifier": "every ensemble, every size, every matrix of draws in (0,1)", "why_tests_cant": "The statement ranges over all real-valued tables and draws of every size; a test samples a handful.", "anchors": ["src/qp/pdf_gen.py:Pdf_rows_gen._rvs", "src/qp/hist_pdf.py:hist_gen._ppf", "src/qp/interp_pdf.py:interp_gen._ppf", "src/qp/interp_pdf.py:interp_irregular_gen._ppf"]}
{"id": "C71", "title": "Exact error of logarithmic packing", "statement": "Log packing drops a value x exactly when x + 10^(3f) <= rowmax * 10^(f*509/510) (f the log floor); a kept value comes back between x*10^(f/510) and (x+10^(3f))*10^(-f/510); the row maximum comes back exactly, order is kept, and repacking gives the same bytes when 10^(3f) is small against the floor of the row.", "quantifier": "every non-negative row with a positive entry, every negative log floor", "why_tests_cant": "The statement ranges over all real-valued rows of every length; a test samples a handful.", "anchors": ["src/qp/packing_utils.py:log_pack_from_rowmax", "src/qp/packing_utils.py:log_unpack_from_rowmax", "src/qp/packing_utils.py:pack_array"]}
{"id": "C72", "title": "A packed ensemble is the interpolated ensemble of the unpacked values", "statement": "pdf, cdf and ppf of a packed ensemble equal those of the interpolated ensemble built from the unpacked values; its pdf is non-negative with integral 1; with linear packing it differs from the original pdf by at most rowmax/(510*A)*(1 + L*pdf), A the area of the original row and L the length of the grid.", "quantifier": "every increasing grid, every non-negative table with positive areas, both packing types", "why_tests_cant": "The statement ranges over all real-valued rows of every length; a test samples a handful.", "anchors": ["src/qp/packed_interp_pdf.py:packed_interp_gen.__init__", "src/qp/packed_interp_pdf.py:packed_interp_gen._pdf", "src/qp/packed_interp_pdf.py:packed_interp_gen._unpack"]}
{"id": "C73", "title": "Exact range of the sparse integer coding", "statement": "Decoding a coded (coefficient, index) pair gives it back if and only if 0 <= index < 65536; the coefficient may be any integer. Distinct pairs in that range have distinct codes.", "quantifier": "every integer coefficient and index", "why_tests_cant": "The range of validity is a statement about all integers; tests use a few small ones.", "anchors": ["src/qp/sparse_rep.py:combine_int", "src/qp/sparse_rep.py:get_N"]}
{"id": "C74", "title": "Weights read back from a sparse code", "statement": "Decoding the integers written for one PDF gives the selected basis indices and, for every weight after the first, the coefficient divided by the largest one to within 1/64000; the first weight is read back as 1, so it is right exactly when the first coefficient is the largest.", "quantifier": "every selection of fewer than 65536 columns, every coefficient vector with positive maximum", "why_tests_cant": "The bound is over all real coefficients, and the loss of the first coefficient is invisible when the first is the largest, which every test data set has.", "anchors": ["src/qp/sparse_rep.py:build_sparse_representation", "src/qp/sparse_rep.py:decode_sparse_indices"]}
{"id": "C75", "title": "What coding one PDF does to the shared dictionary", "statement": "After one PDF whose selection is Dind, every column at a selected position, or at a position >= len(Dind), is what it was; a column p < len(Dind) that was not selected is overwritten by column Dind[p].", "quantifier": "every dictionary, PDF, number of columns, tolerance, and solver", "why_tests_cant": "The in-place swaps compose over the iterations; a permutation argument over all runs is needed.", "anchors": ["src/qp/sparse_rep.py:sparse_basis", "src/qp/sparse_rep.py:build_sparse_representation"]}
{"id": "C76", "title": "A sparse ensemble is the normalised weighted sum of its basis functions", "statement": "The pdf of a sparse ensemble is non-negative, integrates to 1 over its grid, and on the grid is a positive multiple of the weighted sum of the Voigt columns named by the indices.", "quantifier": "every increasing grid, every basis size, all coded lines with valid indices whose sum is non-negative and not zero (no named basis function below the cut at every grid point)", "why_tests_cant": "Ranges over all grids, basis sizes and codes.", "anchors": ["src/qp/sparse_pdf.py:sparse_gen.__init__", "src/qp/sparse_rep.py:decode_sparse_indices", "src/qp/sparse_rep.py:create_voigt_basis"]}
{"id": "C77", "title": "Keys select positions as Python sequences do, and slices compose", "statement": "An integer, slice, boolean mask or index list selects the positions Python documents (negative numbers from the end, slices clipped); for every ensemble made by valid calls ens[k1][k2] evaluates as ens at the composed positions, and carries the ancillary rows at the composed positions.", "quantifier": "every n, every key, every ensemble reachable by constructing, slicing, concatenating, appending, updating and storing with valid arguments, every pair of keys with non-empty selection", "why_tests_cant": "Keys, ensembles and nesting are unbounded; tests index one ensemble with a few literals.", "anchors": ["src/qp/ensemble.py:Ensemble.__getitem__", "src/qp/dict_utils.py:slice_dict"]}
{"id": "C78", "title": "Concatenation can be undone by slicing, and what it accepts", "statement": "The slice of concatenate(es) at the place of one member evaluates as that member and has its ancillary rows; concatenate succeeds on ensembles made by valid calls only if they share the class, the widths of all columns, the metadata up to the numpy tolerance, and the ancillary columns.", "quantifier": "every list of ensembles made by valid calls, every member", "why_tests_cant": "Needs all lengths and positions of members and all combinations of classes.", "anchors": ["src/qp/ensemble.py:Ensemble.append", "src/qp/factory.py:Factory.concatenate", "src/qp/dict_utils.py:concatenate_dicts", "src/qp/dict_utils.py:compare_dicts"]}
{"id": "C79", "title": "Exact effect of update", "statement": "update(data, ancil) is: if the constructor rejects data, the exception and no change; otherwise the PDFs are replaced, and if ancil does not fit, ValueError with the old ancillary data and old gridded cache kept beside the new PDFs; otherwise the new PDFs, the new ancil, and an empty cache.", "quantifier": "every ensemble, data dictionary and ancillary table, any class", "why_tests_cant": "The failing path leaves a mixed state that no test looks at; the claim is over all states.", "anchors": ["src/qp/ensemble.py:Ensemble.update"]}
{"id": "C80", "title": "Valid input is always accepted", "statement": "For each of hist, interp, interp_irregular, quant, mixmod, packed_interp, spline and norm, the constructor call with any input satisfying the documented conditions succeeds and gives an ensemble with one PDF per row of the input, the class asked for, and the ancillary table given.", "quantifier": "every valid input of every size, every ancillary table with one row per PDF", "why_tests_cant": "Accepting all valid inputs is a universal claim; tests try single shapes.", "anchors": ["src/qp/factory.py:Factory.create", "src/qp/ensemble.py:Ensemble.__init__"]}
{"id": "C81", "title": "Every reachable ensemble holds proper distributions", "statement": "However an ensemble of class hist, interp, interp_irregular, mixmod, packed_interp or norm was obtained - built from valid input, then sliced, concatenated, appended to, updated or stored and read back in any order - each of its densities is non-negative and each of its cdfs is non-decreasing with values in [0, 1].", "quantifier": "every sequence of valid calls of any length, every point", "why_tests_cant": "An invariant over unbounded histories and all real points; tests check one ensemble straight after construction.", "anchors": ["src/qp/ensemble.py:Ensemble", "src/qp/hist_pdf.py:hist_gen", "src/qp/interp_pdf.py:interp_gen", "src/qp/mixmod_pdf.py:mixmod_gen"]}
{"id": "C82", "title": "Adding a class touches exactly two factory attributes", "statement": "A successful add_class for a class named n sets the factory attributes n and n_gen, whatever they referred to before (a method of the factory or another class's attribute included), and leaves every other attribute as it was.", "quantifier": "every sequence of earlier registrations, every class name", "why_tests_cant": "The effect depends on which classes were added before and on name clashes; tests only add classes with distinct ordinary names.", "anchors": ["src/qp/factory.py:add_class"]}
{"id": "C83", "title": "Which function a conversion lookup returns", "statement": "For a class in the factory, looking up a reader, creation or extraction function under a method name returns the function the class registered first under that name; if there is none, the one registered first without a name; if there is none either, nothing. Exactly one answer satisfies this.", "quantifier": "every class hierarchy, every history in which registrations are made by classes in the factory, every method name", "why_tests_cant": "Quantifies over hierarchies and registration histories; tests look up a handful of existing names.", "anchors": ["src/qp/pdf_gen.py:Pdf_gen", "src/qp/dict_utils.py:get_val_or_default", "src/qp/dict_utils.py:set_val_or_default", "src/qp/factory.py:add_class"]}
{"id": "C84", "title": "Bin probabilities after converting to a histogram", "statement": "Converting any ensemble to class hist with increasing bins gives, for every PDF, bin i the probability p_i w_i / sum_j p_j w_j, where p_i is the probability of the bin before the conversion and w_i its width.", "quantifier": "every ensemble with non-decreasing cdfs, every increasing bin vector, every PDF and bin", "why_tests_cant": "The formula holds for all bin vectors and source classes; tests only compare against equal-width bins within a tolerance.", "anchors": ["src/qp/conversion_funcs.py:extract_hist_values", "src/qp/hist_pdf.py:hist_gen", "src/qp/factory.py:convert"]}
{"id": "C85", "title": "Converting to the own parametrisation changes nothing", "statement": "For every reachable ensemble built with the default options, converting a hist ensemble to its own equal-width bins, or an interp ensemble to its own grid, gives an ensemble with the same data, metadata and answers.", "quantifier": "every sequence of operations leading to the ensemble, every bin vector of equal widths and every grid", "why_tests_cant": "Depends on the normalisation being idempotent on every reachable data table.", "anchors": ["src/qp/conversion_funcs.py:extract_hist_values", "src/qp/conversion_funcs.py:extract_vals_at_x", "src/qp/factory.py:convert"]}
{"id": "C86", "title": "Densities after converting to a grid", "statement": "Converting an ensemble to class interp (interp_irregular) on an increasing grid divides its density at every grid point by the trapezium sum (the sum of right-end values times widths) over the grid and by nothing else; the result is a reachable ensemble of that class.", "quantifier": "every source ensemble with non-negative densities, every grid with a positive sum", "why_tests_cant": "All source classes and grids at once; tests use two or three conversions and a tolerance.", "anchors": ["src/qp/conversion_funcs.py:extract_vals_at_x", "src/qp/conversion_funcs.py:extract_xy_vals", "src/qp/interp_pdf.py:interp_gen", "src/qp/interp_pdf.py:interp_irregular_gen"]}
{"id": "C87", "title": "Which extraction function each class of qp uses", "statement": "For every method name, converting to hist uses extract_hist_samples exactly for the method 'samples' and extract_hist_values otherwise; interp, interp_irregular, mixmod, quant, and packed_interp use their default extraction whatever the method name (so 'xy_sparse' on interp_irregular is never used); converting to norm, or to a name that is not in the factory, raises KeyError.", "quantifier": "every method name, every source ensemble, every keywords", "why_tests_cant": "An unbounded set of method names, and silent fall-backs that succeed with another function than the one asked for.", "anchors": ["src/qp/pdf_gen.py:Pdf_gen", "src/qp/dict_utils.py:get_val_or_default", "src/qp/ensemble.py:convert_to", "src/qp/factory.py:convert"]}
{"id": "C88", "title": "Quantiles survive the conversion to quant", "statement": "Converting an ensemble to class quant with increasing levels strictly between 0 and 1 keeps the ppf at those levels, and the cdf of the result at each quantile is the level.", "quantifier": "every source ensemble with increasing quantiles, every list of levels", "why_tests_cant": "Holds for every level list and every source; tests compare plots or tolerances on one list.", "anchors": ["src/qp/conversion_funcs.py:extract_quantiles", "src/qp/quant_pdf.py:quant_gen"]}
{"id": "C89", "title": "The ppf at 0 and 1 is infinite for classes with bounded support", "statement": "For every reachable ensemble of class hist, interp, interp_irregular, quant or packed_interp, ppf(0) is -inf and ppf(1) is +inf for every PDF, not the ends of the support.", "quantifier": "every sequence of operations, every PDF", "why_tests_cant": "An invariant over all reachable ensembles; tests avoid the end points.", "anchors": ["src/qp/hist_pdf.py:hist_gen", "src/qp/interp_pdf.py:interp_gen", "src/qp/quant_pdf.py:quant_gen", "src/qp/pdf_gen.py:Pdf_gen"]}
{"id": "C90", "title": "Ancillary data of yielded ensembles are shared", "statement": "After any number of steps of Factory.iterator, every ensemble yielded so far shows, as its ancillary data, the rows of the range visited last (columns in the order of their names; an empty dictionary for a file without ancillary data); at the moment of its own yield it showed its own rows.", "quantifier": "every file of an ensemble obtained by valid calls, every chunk size, rank, number of ranks and number of steps", "why_tests_cant": "A statement on object identity over all iteration histories.", "anchors": ["src/qp/factory.py:Factory.iterator"]}
{"id": "C91", "title": "A file counts as complete from the first metadata dataset on", "statement": "While finalizeHdf5Write writes the metadata one after the other, is_qp_file is True as soon as the first dataset is there; such a file may be unreadable or be read, without an exception, as an ensemble with another density; and finalize also accepts a file with rows that were never written.", "quantifier": "every crash point inside finalize", "why_tests_cant": "Crash points between the single dataset writes cannot be reached by unit tests.", "anchors": ["src/qp/ensemble.py:Ensemble.finalizeHdf5Write", "src/qp/factory.py:Factory.is_qp_file", "src/qp/factory.py:Factory.read"]}
{"id": "C92", "title": "HDF5 round trip", "statement": "Every ensemble obtained by valid calls, written with write_to and read with read, has the same metadata, data, ancillary columns and answers; is_qp_file of its file is True and data_length is the number of PDFs.", "quantifier": "every class, every history of valid calls, every ancillary table", "why_tests_cant": "All representations, sizes and histories.", "anchors": ["src/qp/ensemble.py:Ensemble.write_to", "src/qp/factory.py:Factory.read", "src/qp/factory.py:Factory.data_length", "src/qp/factory.py:Factory.is_qp_file"]}
{"id": "C93", "title": "Which chunks a file accepts", "statement": "writeHdf5Chunk of a part with m PDFs to the rows [start, stop) of the file succeeds if m is the width of the range or 1, and is a TypeError that leaves the file unchanged otherwise; one PDF is written to every row of the range, as if it had been repeated.", "quantifier": "every part, every range inside the file, every earlier write", "why_tests_cant": "All widths and all earlier write histories.", "anchors": ["src/qp/ensemble.py:Ensemble.writeHdf5Chunk"]}
{"id": "C94", "title": "Which divergences calculate_kld reports", "statement": "If no raw divergence of the ensemble is negative, the raw values are reported; if one is negative, every PDF of the ensemble is reported as machine epsilon. A raw divergence is at least the mass of p minus the mass of (floored) q on the grid, so it is reported unchanged whenever the grid holds at least as much of p as of q. Ensembles of different sizes are rejected.", "quantifier": "all ensembles obtained by valid calls, all grids", "why_tests_cant": "The input space (all real arrays of every length) is infinite; a test samples a handful of grids.", "anchors": ["src/qp/metrics/array_metrics.py:quick_kld", "src/qp/metrics/metrics.py:calculate_kld"]}
{"id": "C95", "title": "calculate_brier compares densities with the one-hot truth", "statement": "For two or more PDFs calculate_brier is the mean over PDFs of the summed squared differences, on the grid, between the density and the indicator of the truth's bin; it is not bounded by 2. One PDF, another number of truths, or a truth outside the limits is a ValueError.", "quantifier": "all ensembles obtained by valid calls, all truths, all grids", "why_tests_cant": "The input space (all real arrays of every length) is infinite; a test samples a handful of grids.", "anchors": ["src/qp/metrics/metrics.py:calculate_brier", "src/qp/metrics/metrics.py:_prepare_for_brier"]}
{"id": "C96", "title": "Accumulated Brier scores", "statement": "Over any partition of an ensemble into chunks of two or more PDFs, accumulating and finalising the Brier score gives calculate_brier of the whole; a partition with a chunk of one PDF raises ValueError.", "quantifier": "every partition into chunks of every ensemble obtained by valid calls", "why_tests_cant": "All partitions of all lengths.", "anchors": ["src/qp/metrics/metrics.py:calculate_brier_for_accumulation", "src/qp/metrics/concrete_metric_classes.py:BrierMetric"]}
{"id": "C97", "title": "Meaning of the CDE loss", "statement": "The CDE loss is the mean over PDFs of the trapezoid integral of the squared density over the grid, minus twice the mean density at the grid point nearest to the reference value.", "quantifier": "every increasing grid, every ensemble obtained by valid calls, all reference values", "why_tests_cant": "The input space (all real arrays of every length) is infinite; a test samples a handful of grids.", "anchors": ["src/qp/metrics/concrete_metric_classes.py:CDELossMetric"]}
{"id": "C98", "title": "Every form of evaluation points gives the answers at single numbers", "statement": "For every ensemble obtained by valid calls and each of pdf, cdf and ppf (probabilities inside (0,1)): the entry of a strictly increasing grid, of a grid with a repeated point, of a matrix with one line per PDF (when the number of different points is not the number of columns, or all lines are the same increasing one), and of any grid or matrix for an ensemble of one PDF, is the answer of that PDF at that number.", "quantifier": "all ensembles obtained by valid calls, all grids and matrices", "why_tests_cant": "The input space (all real arrays of every length, all ensembles) is infinite; a test samples a handful.", "anchors": ["src/qp/ensemble.py:pdf", "src/qp/ensemble.py:cdf", "src/qp/ensemble.py:ppf", "src/qp/utils.py:get_eval_case"]}
{"id": "C99", "title": "Goodness-of-fit statistics without ties", "statement": "If no PDF repeats a sample, calculate_goodness_of_fit compares each PDF of the estimate with its own reference PDF, an estimate of one PDF with every reference PDF, and every PDF with a single reference PDF: KS is the attained largest distance between empirical and reference distribution function, CvM and AD are the textbook formulas of the order statistics (AD infinite when a sample has probability 0 or 1, and least exactly at the midpoints). An unknown name raises KeyError.", "quantifier": "all references obtained by valid calls, all sample arrays", "why_tests_cant": "The input space (all real arrays of every length, all ensembles) is infinite; a test samples a handful.", "anchors": ["src/qp/metrics/metrics.py:calculate_goodness_of_fit", "src/qp/metrics/goodness_of_fit.py"]}
{"id": "C100", "title": "One sample per PDF is pooled", "statement": "With num_samples = 1 and several PDFs, calculate_goodness_of_fit compares every reference PDF with the pooled samples of all PDFs of the estimate; with one PDF it raises.", "quantifier": "all references obtained by valid calls, all samples", "why_tests_cant": "The failure is silent: shapes agree and a number comes back.", "anchors": ["src/qp/metrics/metrics.py:calculate_goodness_of_fit"]}
{"id": "C101", "title": "Evaluating a point metric from an iterator evaluates the last chunk", "statement": "For every digest implementation and every metric: eval_from_iterator over usable chunks returns the metric of the digest of the last chunk only, whatever the chunks before it hold; with no chunk it raises UnboundLocalError, and a chunk whose arrays do not fit raises ValueError wherever it is.", "quantifier": "all sequences of chunks, all digests", "why_tests_cant": "A single-chunk test passes; the loss is silent with several.", "anchors": ["src/qp/metrics/base_metric_classes.py:PointToPointMetric.eval_from_iterator", "src/qp/metrics/point_estimate_metric_classes.py:PointToPointMetricDigester"]}
{"id": "C102", "title": "What PIT computes", "statement": "For every ensemble of two or more PDFs obtained by valid calls and one true value per PDF, PIT stores the cdf of each PDF at its own true value, and an ensemble of one quantile table holding exactly the sample quantiles (linear interpolation) at the probabilities of the grid that lie strictly between 0 and 1, each once with the least probability that has it, extended by linear extrapolation at each end whose probability 0 or 1 was dropped. One PDF and several true values: its cdf at each; one PDF and one value raise TypeError; all PIT values 0 (or 1) raise ValueError. The KS and CvM statistics are those of the PIT values against the uniform distribution.", "quantifier": "all ensembles obtained by valid calls, all true values, all grids of probabilities", "why_tests_cant": "Ties at the extremes and the extrapolation beyond [0,1] are silent.", "anchors": ["src/qp/metrics/pit.py", "src/qp/quant_pdf.py:pad_quantiles"]}
{"id": "C103", "title": "What the metric factory creates", "statement": "After any history of class definitions, updates, listings and creations: create_metric(name, force_update=True) gives, among all classes derived from BaseMetric whose metric_name without the text \"Metric\" is name, the last one in the depth-first traversal of the class tree; never a class from which another such class is derived; KeyError if there is none. Without force_update the answer is the one for the classes that existed when the dictionary was last filled, and no name is ever lost.", "quantifier": "all histories, all class trees, all names", "why_tests_cant": "The order of a dictionary filled from a recursive walk over subclasses, with names inherited, stripped and colliding, is a statement about all class trees and histories.", "anchors": ["src/qp/metrics/factory.py"]}
{"id": "C104", "title": "What the moments are", "statement": "For every ensemble of histograms on equal bins of width w: moment(0) = 1, moment(1) = mean() = the integral of x f, and moment(2) and var() fall short of the true values by exactly w^2/12. On any bins moment(k) is the sum of midpoint^k times height times the width of the first bin. For piecewise-linear PDFs on a grid of step w the first and second moments differ from the true ones exactly by stated terms of the two end values, the second also by w^2/6; packed PDFs have the moments of the interpolated ensemble of the unpacked values. calculate_moment and moment_partial are the same sum over the same grid times the spacing of the grid and times the requested dx, so moment_partial is always the smaller by dx/r < 1.", "quantifier": "all legal bins, grids, values, orders, limits and spacings", "why_tests_cant": "Discretisation terms vanish in symmetric examples; tests compare to a loose tolerance.", "anchors": ["src/qp/hist_pdf.py:hist_gen.custom_generic_moment", "src/qp/interp_pdf.py:interp_gen.custom_generic_moment", "src/qp/packed_interp_pdf.py", "src/qp/ensemble.py:Ensemble.moment_partial", "src/qp/metrics/metrics.py:calculate_moment"]}
{"id": "C105", "title": "Exactly which values a profile bin averages", "statement": "For every increasing list of bin edges: if all widths are within numpy's tolerance of the first width w, bin i averages exactly the y whose x lies in [b0 + i w, b0 + (i+1) w); otherwise exactly those with b_i < x <= b_(i+1). No value is counted twice, the mean lies between any bounds of the values counted, the spread is their population standard deviation (divided by sqrt(count) when std is false), an empty bin is NaN. Fewer than two edges, or x and y of different lengths with some x counted, are an IndexError.", "quantifier": "all data, all increasing edges", "why_tests_cant": "Which edge belongs to which bin depends on a tolerance test over all the widths; tests use equal bins.", "anchors": ["src/qp/utils.py:profile", "src/qp/utils.py:get_bin_indices"]}
{"id": "C106", "title": "Multi-dimensional ensembles are arrangements of flat ones", "statement": "An ensemble of histograms, interpolations (common or own grids), quantile tables or mixtures built from arrays of shape s + (k,) has shape s, and pdf, cdf and ppf at index [p, j] are the values of the flat ensemble of the sub-arrays a[p] for its PDF number ravel(p) at point j, for scalar points, grids and arrays of points of shape s + (m,).", "quantifier": "every shape, every number of dimensions, every data", "why_tests_cant": "Tests only build one-dimensional ensembles (and one two-dimensional histogram).", "anchors": ["src/qp/utils.py:reshape_to_pdf_size", "src/qp/pdf_gen.py:rv_frozen_rows.__init__", "src/qp/hist_pdf.py:hist_gen.__init__", "src/qp/interp_pdf.py", "src/qp/quant_pdf.py", "src/qp/mixmod_pdf.py"]}
{"id": "C107", "title": "Invalid probabilities do not disturb the valid ones", "statement": "For every reachable ensemble of a class of qp (a mixture must hold more than one PDF), ppf of a grid in which some probabilities are not inside (0,1) is, in the places of the inner ones, exactly ppf of the grid of the inner ones alone (or its error), and elsewhere -inf for 0, inf for 1, NaN otherwise. A mixture of a single PDF instead raises ValueError for every grid that mixes both.", "quantifier": "every sequence of operations, every grid", "why_tests_cant": "scipy removes the invalid entries before calling the class, which changes the shapes the class sees; tests use valid grids.", "anchors": ["src/qp/pdf_gen.py:Pdf_rows_gen", "src/qp/utils.py:get_eval_case", "src/qp/mixmod_pdf.py:mixmod_gen._ppf"]}
{"id": "C108", "title": "isf inverts the survival function", "statement": "sf(x) is 1 - cdf(x), and isf(q)[i, j] is the value of PDF i at which the probability above it is q_j: isf(q)[i, j] = ppf(1 - q_j)[i], for a number and for a grid of probabilities.", "quantifier": "every reachable ensemble, every number and grid of probabilities", "why_tests_cant": "qp's class tests call isf but never look at its values.", "anchors": ["src/qp/ensemble.py:Ensemble.sf", "src/qp/ensemble.py:Ensemble.isf"]}
{"id": "C109", "title": "Exactly what isf returns", "statement": "isf(q) is ppf(1 - q) as whole arrays, for numbers, grids and matrices, failures included. ppf returns its values for the increasingly sorted grid, so for two or more PDFs of any class but norm and mixmod isf of a strictly increasing grid inside (0,1) returns every PDF's values in reverse order.", "quantifier": "every sequence of operations, every q", "why_tests_cant": "The order of the values is lost two layers below isf, in the evaluation case analysis; only wrong values, no error, show it.", "anchors": ["src/qp/ensemble.py:Ensemble.isf", "src/qp/utils.py:get_eval_case"]}
{"id": "C110", "title": "interval and median hold the probability asked for", "statement": "For histograms and PDFs with their own grids, interval(alpha) for 0 <= alpha < 1 gives per PDF a <= b with cdf(a) = (1 - alpha)/2 and cdf(b) - cdf(a) = alpha, median() has cdf 1/2; interval(1) is (-inf, inf) although the support is bounded, alpha outside [0,1] is a ValueError. For PDFs on a shared grid this holds as long as cdf at the first grid point is at most (1 - alpha)/2; when it is larger the interval starts at the first grid point and holds less than alpha.", "quantifier": "all valid data, all alpha", "why_tests_cant": "A statement about a continuum of alphas and all data; the failure needs a PDF with mass at its first grid point.", "anchors": ["src/qp/ensemble.py:Ensemble.interval", "src/qp/ensemble.py:Ensemble.median"]}
{"id": "C111", "title": "Chunked bias, IQR and outlier rate agree with the whole", "statement": "Accumulating chunks of point estimates by hand and finalizing everything returned gives, with digests whose quantiles are within delta of the data's and which keep every value as a centroid, a bias within delta and an IQR width within 2 delta / 1.349 of evaluate on all data, and an outlier rate between those for the cut moved by 6 delta / 1.349 either way; with exact digests all three equal evaluate on the concatenation.", "quantifier": "every list of chunks, every digest implementation obeying the laws, every delta", "why_tests_cant": "Tests compare one data set with a tolerance; they cannot bound the error for all chunkings.", "anchors": ["src/qp/metrics/point_estimate_metric_classes.py:PointBias.compute_from_digest", "src/qp/metrics/point_estimate_metric_classes.py:PointSigmaIQR.compute_from_digest", "src/qp/metrics/point_estimate_metric_classes.py:PointOutlierRate.compute_from_digest", "src/qp/metrics/concrete_metric_classes.py:DistToPointMetricDigester.finalize"]}
{"id": "C112", "title": "The chunked MAD is the digest's MAD to half a bin", "statement": "The MAD computed from a digest is within half a bin width of the median distance from the median of the distribution the digest describes, whatever order numpy's argsort gives equal distances; it raises IndexError exactly when less than half of the digest's weight lies between its smallest and largest value - in particular when all residuals are equal, where evaluate returns 0.", "quantifier": "every digest with a monotone cdf, every number of bins, every argsort", "why_tests_cant": "The discretisation error and the constant-residual failure need all digests, not the one in the test.", "anchors": ["src/qp/metrics/point_estimate_metric_classes.py:PointSigmaMAD.compute_from_digest"]}
{"id": "C113", "title": "Chunked PIT agrees with PIT of the whole, when every chunk can be accumulated", "statement": "With exact digests, accumulating PIT chunk by chunk and finalizing gives the same ensemble as PIT on the concatenated PIT values, provided a PIT ensemble exists for every chunk by itself. A chunk with one PDF raises TypeError and a chunk whose PIT values are all 0 or all 1 raises ValueError although the whole is fine; finalize of nothing raises TypeError.", "quantifier": "every list of chunks of reachable ensembles, every grid of probabilities", "why_tests_cant": "Quantifies over all chunkings; the failing chunks depend on how the data are split.", "anchors": ["src/qp/metrics/concrete_metric_classes.py:PITMetric.accumulate", "src/qp/metrics/concrete_metric_classes.py:PITMetric.compute_from_digest"]}
{"id": "C114", "title": "A spline ensemble evaluates the stored splines", "statement": "For every reachable spline ensemble with ordered knots the pdf of PDF r is, between the first and last base knot, the sum of the stored coefficients times the Cox-de Boor B-splines of the stored knots and order, hence lies between the smallest and largest coefficient; outside it is continued by the polynomials of the two end intervals (so it can be negative there); the cdf is the integral of that density over the part of the base range below the point.", "quantifier": "every spline ensemble reached by creation, slicing, concatenation, append, update and round trips; every point", "why_tests_cant": "Tests evaluate a few splines made from data; the identity with the textbook definition and the behaviour outside the knots concern all tables and points.", "anchors": ["src/qp/spline_pdf.py:spline_gen._pdf", "src/qp/spline_pdf.py:spline_gen._cdf", "src/qp/spline_pdf.py:spline_gen.__init__"]}
{"id": "C115", "title": "Spline cdfs are flat outside the base range and monotone for non-negative coefficients", "statement": "The cdf of a spline is 0 below the base range, constant above it and grows by the integral of the density in between; if no coefficient is negative then the density is not negative in the base range and the cdf is non-decreasing between 0 and its last value.", "quantifier": "every ordered knot vector, every order up to 5, every coefficients", "why_tests_cant": "Monotonicity is a statement about all pairs of points and all coefficient tables.", "anchors": ["src/qp/spline_pdf.py:spline_gen._cdf", "src/qp/spline_pdf.py:spline_gen._pdf"]}
{"id": "C116", "title": "Splines created from points interpolate them up to normalisation", "statement": "create_from_xy_vals gives for every PDF the spline that splrep puts through its points divided by its integral over the range of all points of all PDFs: the pdf at the points is proportional to the given values, its integral over that range is 1, and the cdf ends at 1 when the knots span exactly that range. Neither is the density non-negative for non-negative values, nor does the cdf of a PDF whose points end earlier than another one's reach 1. Arrays of different shapes raise ValueError.", "quantifier": "every table of points, every splrep that interpolates and is homogeneous, exact quad", "why_tests_cant": "The tests use one set of points with a common grid; failure on unequal ranges needs the general statement.", "anchors": ["src/qp/spline_pdf.py:normalize_spline", "src/qp/spline_pdf.py:build_splines", "src/qp/spline_pdf.py:spline_gen.build_normed_splines", "src/qp/spline_pdf.py:spline_gen.create_from_xy_vals"]}
{"id": "C117", "title": "Splines created from samples interpolate the density estimates", "statement": "create_from_samples gives for every row of samples the normalised spline through the values of its kernel density estimate at the given points: the pdf at the points is proportional to the estimate, the integral over their range is 1 and the cdf ends at 1 when the knots span the range.", "quantifier": "every table of samples, every estimator, every grid of points", "why_tests_cant": "Sampling based tests check shapes; proportionality for all rows and estimators is universal.", "anchors": ["src/qp/spline_pdf.py:spline_gen.create_from_samples", "src/qp/utils.py:build_kdes", "src/qp/utils.py:evaluate_kdes"]}
{"id": "C118", "title": "Class-level allocation matches the tables the ensembles write", "statement": "For valid constructor data, get_allocation_kwds(N, **data) of a class names exactly the object-data tables of the ensemble made from the data, each with N rows and the same remaining shape - except for quantiles that do not reach 0 and 1 (the announced width lacks the end points the constructor adds) and for splines when N is not the number of PDFs in the data (N is ignored), where it does not. Without the keyword that gives the width it raises ValueError (KeyError for quantiles).", "quantifier": "every class, all valid constructor data, every N", "why_tests_cant": "The tests only compare sizes with the constructor data for N equal to its number of PDFs, which hides both mismatches.", "anchors": ["src/qp/hist_pdf.py:hist_gen.get_allocation_kwds", "src/qp/quant_pdf.py:quant_gen.get_allocation_kwds", "src/qp/spline_pdf.py:spline_gen.get_allocation_kwds", "src/qp/mixmod_pdf.py:mixmod_gen.get_allocation_kwds", "src/qp/packed_interp_pdf.py:packed_interp_gen.get_allocation_kwds", "src/qp/interp_pdf.py:interp_gen.get_allocation_kwds", "src/qp/pdf_gen.py:Pdf_gen_wrap.get_allocation_kwds"]}
{"id": "C119", "title": "Several ensembles in one file are read back", "statement": "For every dictionary of ensembles obtained by valid calls, whose names are not empty and have no slash, write_dict followed by read_dict gives a dictionary with the same names (in alphabetical order) and under each name an ensemble with the same metadata, data, ancillary columns and answers as the one written. A dictionary with a value that is not an ensemble raises ValueError.", "quantifier": "every number of ensembles, every mixture of classes, every reachable ensemble, all names without slash", "why_tests_cant": "The test writes one dictionary of three similar ensembles; the round trip must hold for all mixtures and histories.", "anchors": ["src/qp/factory.py:Factory.write_dict", "src/qp/factory.py:Factory.read_dict"]}
{"id": "C120", "title": "Risk based point estimates minimise the expected loss", "statement": "For every ensemble obtained by valid calls with non-negative integrable densities whose 1% quantiles lie above -1, calculate_rbpe gives for each PDF a point z that minimises (up to the accuracy of the optimiser) the expected loss, i.e. the integral of pdf(x) L((z - x)/(1 + x)) between the 1% and the 99% quantile, L(t) = t^2/(t^2 + 0.15^2): over all numbers by default, between the limits if finite limits are given. The loss lies between 0 and the probability of that range, its minimum exists and all its minimisers lie between the two quantiles. Each PDF is estimated on its own: the estimates of a selection of the PDFs are the selected estimates. If the first limit is infinite the second is ignored; otherwise limits that are not finite, or not in order, raise ValueError.", "quantifier": "every reachable ensemble with those densities, every optimiser and integrator with the stated accuracy, all limits", "why_tests_cant": "The test compares the estimates of a few normal distributions with recorded numbers.", "anchors": ["src/qp/metrics/metrics.py:calculate_rbpe", "src/qp/metrics/array_metrics.py:quick_rbpe", "src/qp/metrics/concrete_metric_classes.py:RBPEMetric"]}
{"id": "C121", "title": "Ensembles do not interfere through their ancillary data", "statement": "An operation on one ensemble (set_ancil, add_to_ancil, update, append, writing into a column of its ancil) never changes the ancillary data another ensemble shows, and every column keeps one entry per PDF.", "quantifier": "every history of operations on any number of ensembles", "why_tests_cant": "Needs every interleaving of operations on several objects that may share memory.", "anchors": ["src/qp/ensemble.py:Ensemble.set_ancil", "src/qp/ensemble.py:Ensemble.add_to_ancil", "src/qp/ensemble.py:Ensemble.__getitem__", "src/qp/ensemble.py:Ensemble.build_tables", "src/qp/factory.py:Factory.from_tables", "src/qp/dict_utils.py:slice_dict"]}
{"id": "C122", "title": "Exactly which ensembles share ancillary data", "statement": "An operation changes what an ensemble shows in ancil only if it is made on that ensemble, if it is an add_to_ancil on another ensemble holding the same dictionary object, or if it writes into memory one of its columns lies in. A dictionary given to several ensembles, and the dictionary in the tables of build_tables, is held by all of them, so additions appear in all. Columns of a slice e[i:j] are windows on the columns of e: writing entry m of the slice writes the selected entry of e. Integers, masks, lists of positions and concatenate copy. A user who gives each dictionary of new arrays to one ensemble only, makes no copies through tables and does not go on after a failed update, has ensembles with separate dictionaries, with memory shared only between ensembles related by slices, and with one entry per PDF in every column.", "quantifier": "every history of operations, every key, every column", "why_tests_cant": "Needs every interleaving of operations on several objects that may share memory.", "anchors": ["src/qp/ensemble.py:Ensemble.set_ancil", "src/qp/ensemble.py:Ensemble.add_to_ancil", "src/qp/ensemble.py:Ensemble.__getitem__", "src/qp/ensemble.py:Ensemble.build_tables", "src/qp/factory.py:Factory.from_tables", "src/qp/dict_utils.py:slice_dict"]}
{"id": "C123", "title": "Conversion to hist by samples", "statement": "convert_to(qp.hist_gen, method='samples', bins=b, size=n) draws n samples per PDF; in the result the probability of bin i is count_i * width_i / sum_j count_j * width_j, where count_i is the number of samples in the bin (lower edge included, upper edge only for the last bin); for bins of equal width this is the relative frequency among the samples in range. If there are as many PDFs as bins and n is another number, the conversion raises ValueError; so it does without bins or with decreasing bins. Without size, 1000 samples are drawn.", "quantifier": "every ensemble, every list of samples with at least one sample in range per PDF, all increasing bins", "why_tests_cant": "Depends on random samples, on all bin widths and on a coincidence of two sizes.", "anchors": ["src/qp/conversion_funcs.py:extract_hist_samples", "src/qp/hist_pdf.py:hist_gen.__init__", "src/qp/factory.py:convert"]}
{"id": "C124", "title": "Conversion to mixmod fits each PDF's own samples", "statement": "convert_to(qp.mixmod_gen, ncomps=k, nsamples=n, random_state=s) draws n samples per PDF and fits each PDF's samples separately; if every fit gives k components with weights summing to 1 and positive variances, pdf and cdf of the result are for every PDF those of the fitted mixture (weights, means, square roots of the variances). A fit that raises makes the conversion raise. The defaults are 3 components and 1000 samples.", "quantifier": "every ensemble, every list of samples, every fit with the stated laws, all x", "why_tests_cant": "Depends on random samples and on the result of an external fit.", "anchors": ["src/qp/conversion_funcs.py:extract_mixmod_fit_samples", "src/qp/mixmod_pdf.py:mixmod_gen.__init__", "src/qp/factory.py:convert"]}
{"id": "C125", "title": "Total probability one", "statement": "For every ensemble of a class other than quant and spline, the pdf of every PDF is non-negative and its cdf is non-decreasing, tends to 0 at minus infinity and to 1 at infinity. For mixmod and norm (with the normal density exp(-z^2/2)/sqrt(2 pi)) the integral of the pdf over every interval [a,b] is cdf(b)-cdf(a).", "quantifier": "every reachable ensemble, every PDF, all intervals", "why_tests_cant": "A statement about improper integrals over the whole line.", "anchors": ["src/qp/mixmod_pdf.py:mixmod_gen._pdf", "src/qp/mixmod_pdf.py:mixmod_gen._cdf", "src/qp/hist_pdf.py:hist_gen._cdf", "src/qp/interp_pdf.py:interp_gen._cdf"]}
{"id": "C126", "title": "Log functions are logarithms", "statement": "logpdf, logcdf and logsf return, for numbers, grids and matrices of points alike, the logarithms of pdf, cdf and 1-cdf entry by entry: minus infinity exactly where the value is 0, nan exactly where it is negative. They fail exactly when pdf or cdf fail. For every class with proper distributions exp(logpdf), exp(logcdf), exp(logsf) are pdf, cdf, 1-cdf and no log-probability is positive. For norm, whose logpdf scipy computes by a formula of its own, the same holds.", "quantifier": "every reachable ensemble, all points", "why_tests_cant": "All points and all representations; the formula for norm is a real identity.", "anchors": ["src/qp/ensemble.py:Ensemble.logpdf", "src/qp/ensemble.py:Ensemble.logcdf", "src/qp/ensemble.py:Ensemble.logsf"]}
{"id": "C127", "title": "Converting to splines", "statement": "Converting any ensemble to spline with method='xy' and xvals gives PDFs that at every grid point have the density of the source divided by one constant per PDF, that integrate to one over the grid, and whose cdf is the integral of the density (1 beyond the grid when the knots cover it). method='samples' does the same for the density estimate of 1000 samples, or of the given size. There is no default: any other method, or none, raises KeyError whatever the source; without xvals the first raises ValueError and the second KeyError. Registering spline changes no conversion to any other class.", "quantifier": "every ensemble with finite densities, all grids, all fits and quadratures with the stated laws, all keywords", "why_tests_cant": "Tests convert three normal distributions on one grid; the constant, the integral and the independence from the registry are about all inputs.", "anchors": ["src/qp/spline_pdf.py:174-229", "src/qp/spline_pdf.py:311-320", "src/qp/conversion_funcs.py:68-88", "src/qp/conversion_funcs.py:42-65", "src/qp/factory.py:275-305"]}
{"id": "C128", "title": "Converting to the sparse representation", "statement": "convert(ens, 'sparse') raises KeyError for every ensemble that is not interp, whatever keywords are given. For an interp ensemble the result has one PDF per PDF; each density is non-negative, integrates to one between the first grid point and the last grid point at which some PDF is positive, is 0 outside that interval, and at the nvals (300) equally spaced points is proportional to the sum of basis functions coded in its line of integers. The codes can address every basis function exactly when nvals is at most 363. It raises ValueError if no value is positive, if only the first point has a positive value, or for nvals 2 or 3, and IndexError for fewer. If the grid goes on beyond the last positive point, the part of the densities there is lost.", "quantifier": "every interp ensemble reachable by valid calls, all nvals, all basis functions and solvers (no basis function of the dictionary below the cut at every grid point)", "why_tests_cant": "The conversion is excluded from the tests (pragma: no cover); the limit of 363 points and the cut are about all grids.", "anchors": ["src/qp/conversion_funcs.py:320-363", "src/qp/sparse_rep.py:217-295", "src/qp/sparse_pdf.py:34-65", "src/qp/sparse_pdf.py:83-93"]}
{"id": "C129", "title": "Histogram lookup in double precision", "statement": "For a histogram whose bin edges are doubles and evenly spaced up to a deviation d (at most w/2^20, w the first width), ens.pdf(x) for a double x is exactly the stored value of the bin that contains x whenever x is farther than d + (n+2) w 2^-50 from the edges of its bin (n bins), and exactly 0 whenever x is outside by more than that. If some width clearly differs from the first, there is no such margin: the value is exactly that of the bin (b_i, b_i+1] containing x, and 0 outside. The margin is necessary: with edges np.linspace(1, 2, 11) the edges 1.2, ..., 1.9 get the value of the bin below them and 2.0 that of the last bin.", "quantifier": "all finite IEEE doubles of magnitude up to 2^1000, all grids and all values, every rounding error included", "why_tests_cant": "A statement about all doubles; the tests compare at a few points with tolerances and never at computed edges.", "anchors": ["src/qp/utils.py:75-95", "src/qp/hist_pdf.py:107-109"]}
{"id": "C130", "title": "Linear packing in double precision", "statement": "For rows of non-negative doubles whose maximum M is between 2^-1000 and 2^1000, linear packing gives codes between 0 and 255, each within 1/2 + 2^-40 of 255 x / M; unpacking returns x up to M/510 + M 2^-47; and packing the unpacked rows again gives the same bytes.", "quantifier": "all rows of all such doubles, every rounding error included", "why_tests_cant": "Rounding errors could move a value over a boundary between two codes or push the largest value to 256 = 0; random tests cannot exclude that.", "anchors": ["src/qp/packing_utils.py:12-50"]}
{"id": "C131", "title": "The number of points of a metric's grid in double precision", "statement": "The grid of limits (lo, hi) and step dx has n points, n the integer part of (hi - lo)/dx, whenever that quotient of the stored doubles is farther than (n+1) 2^-50 from the integers n and n+1; within that distance of an integer n it has n or n - 1 points. Limits (0, 3) and step 0.01 (the defaults) give 300 points although the exact quotient of the stored numbers is below 300; limits (0, 0.3) and step 0.1 give 2 points, not 3.", "quantifier": "all finite doubles lo, hi, dx with dx > 0 and at most 2^49 points", "why_tests_cant": "The number of points depends on the last bit of a quotient; the tests use the defaults only.", "anchors": ["src/qp/metrics/metrics.py:19-47"]}
{"id": "C132", "title": "Normalisation of histograms in double precision", "statement": "The rows that the histogram constructor stores for non-negative rows of doubles (magnitude up to 2^400, total at least 2^-500, up to 2^40 edges) are finite and non-negative, and the exact total of value times width differs from 1 by at most (number of edges + 3) 2^-51, whatever the order in which the products are summed.", "quantifier": "all such rows and edges, every rounding error included", "why_tests_cant": "The tests check the sum of a few rows with a tolerance.", "anchors": ["src/qp/hist_pdf.py:65-88"]}
{"id": "C133", "title": "Metric objects take the parameters they are given, or their defaults", "statement": "create_metric(name, **kw) creates an object for each of the sixteen names, raises KeyError for every other name, and TypeError exactly if kw repeats self or cls or, for brier, pit and point_stats_ez only, holds a keyword that the metric does not know; every other metric silently ignores unknown keywords. evaluate then returns what the corresponding function returns with the parameters that kw gives and otherwise the documented defaults: limits (0, 3), dx 0.01, moment_order 1 for moment, kld, rmse, brier; limits (inf, inf) for rbpe; cdf_limits (0.0001, 0.9999) for outlier; 100 samples for ad, cvm, ks; eval_grid linspace(0, 1, 100) for pit and linspace(0, 2.5, 301) for cdeloss; compression 1000 and 1000000 bins in chunks. The predicates uses_distribution_for_estimate, ... are true exactly of the inputs that evaluate takes, and a missing or additional reference is a TypeError.", "quantifier": "all names, all dictionaries of keywords, all estimates and references", "why_tests_cant": "Any keyword may be combined with any other; the tests create each metric with a few keywords and never with a wrong one.", "anchors": ["src/qp/metrics/factory.py:45-55", "src/qp/metrics/base_metric_classes.py:30-210", "src/qp/metrics/concrete_metric_classes.py:28-330", "src/qp/metrics/point_estimate_metric_classes.py:10-290"]}
{"id": "C134", "title": "Points of the wrong shape are refused, not broadcast", "statement": "For every ensemble of two or more PDFs obtained by valid calls and each of pdf, cdf and ppf, a two-dimensional array of points whose number of rows is neither 1 nor the number of PDFs raises ValueError, whatever its entries and its number of columns. An array of one row gives exactly what the one-dimensional array gives, and a number what the array of that number gives, including failures.", "quantifier": "all reachable ensembles of all classes, all arrays of points", "why_tests_cant": "The tests use matching shapes; nothing checks that a wrong number of rows cannot be broadcast into a plausible answer in any class.", "anchors": ["src/qp/pdf_gen.py:330-423", "src/qp/ensemble.py:286-330"]}
{"id": "C135", "title": "The checks of the goodness-of-fit metrics", "statement": "calculate_goodness_of_fit logs a warning about the numbers of PDFs exactly if they differ and there is not exactly one reference PDF; otherwise its checks change nothing, and the result is that of the statistic. With N >= 2 estimates, M >= 2 references, M different from N, and two or more samples it raises ValueError. With one sample per PDF the samples of all estimates are treated as samples of one distribution. The check of calculate_outlier_rate changes nothing either. If the estimate or the reference is a normal distribution whose parameters are plain numbers, none of these calls ever returns, because the check iterates over the ensemble without end.", "quantifier": "all reachable ensembles, all samples and metrics", "why_tests_cant": "Whether a call returns at all for every ensemble is beyond a test; the tests use ensembles of matching sizes.", "anchors": ["src/qp/metrics/metrics.py:354-531"]}
{"id": "C136", "title": "Cumulative distribution of histograms in double precision", "statement": "In IEEE double arithmetic, the cdf of a histogram ensemble at any double x of magnitude up to 2^1000 is a finite non-negative double for every PDF: exactly 0 for x left of the first edge, exactly 1 right of the last edge, and in between within (number of edges + 7)*2^-51 of the exact area of the stored histogram left of x; for an ensemble created from non-negative values (which are normalised on creation and once more when the distribution is frozen) it is within (4*number of edges + 16)*2^-51 of the share of the area of the histogram the user supplied. Inside one bin the values never decrease; across bins they decrease, and exceed 1, by at most the rounding bound. They do so: for edges 0, 1, 4, 5 and values 3, 2, 1, cdf(5) = 1 + 2^-52 and cdf(6) = 1.", "quantifier": "for all histograms of at most 2^40 edges of magnitude at most 2^400 and at least 2^-1000 apart, all rows of non-negative doubles (area at least 2^-500 and values at most 2^400 if normalised), all doubles x and numbers of PDFs", "why_tests_cant": "A test compares a few values with a tolerance; it cannot bound the rounding of cumulative sums and interpolation over all edges, values and points, and typically never evaluates exactly at the last edge where the value exceeds 1.", "anchors": ["src/qp/hist_pdf.py:65-117", "src/qp/utils.py:496-602"]}
{"id": "C137", "title": "check_input=False has no effect except for quantile tables", "statement": "An ensemble of class hist, interp, interp_irregular or packed_interp built with check_input=False is the same as the one built with check_input=True: freezing rebuilds the distribution from its stored arrays with the default check_input=True, so the values are divided by their area in any case and no later call can tell the two apart. Only quant hands the keyword on: with check_input=False its quantiles and locations are stored as given, with check_input=True the quantiles 0 and 1 are added where they are missing.", "quantifier": "for all grids, rows of non-zero area (of either sign), numbers of PDFs, packings, and all quantile tables of at least two quantiles between 2^-52 and 1", "why_tests_cant": "The branch check_input=False is excluded from coverage in the source, and a test that passes rows which are already normalised cannot see that they are divided again; that the keyword never matters is a statement about all inputs.", "anchors": ["src/qp/hist_pdf.py:65-90", "src/qp/hist_pdf.py:147-154", "src/qp/interp_pdf.py:60-95", "src/qp/interp_pdf.py:255-300", "src/qp/packed_interp_pdf.py:80-130", "src/qp/quant_pdf.py:100-150", "src/qp/quant_pdf.py:242-251", "src/qp/pdf_gen.py:222-236"]}
{"id": "C138", "title": "Summary statistics of the PIT: value, minimum, failures, independence of order", "statement": "For two or more PIT values in [pit_min, pit_max], pit_min < pit_max, evaluate_PIT_anderson_ksamp returns the normalised two-sample Anderson-Darling statistic (mid-ranks) of these values against equally many equally spaced values between the limits; its variance is positive for every number of values, the statistic is never below -1/sqrt(variance), and it takes this value exactly when the PIT values are the equally spaced ones in some order. With no value in the range, or pit_max <= pit_min, it raises ValueError; with one value it raises ValueError if that is pit_min and IndexError otherwise. quick_anderson_ksamp is symmetric in its arguments and unchanged when both samples undergo the same strictly increasing transformation. Reordering the PDFs of an ensemble together with their true values changes neither the PIT ensemble nor any entry of calculate_pit_meta_metrics, whose entries ad, cvm, ks and outlier_rate are the four statistics of the PIT values (and of the PIT ensemble) under their own names.", "quantifier": "for all ensembles of any kind, numbers of PDFs, true values, orders, ranges and samples (with ties)", "why_tests_cant": "Tests compare single numbers; that the variance stays positive for every sample size, that the minimum is reached only by the uniform grid, and that ranks alone matter are statements about all samples.", "anchors": ["src/qp/metrics/array_metrics.py:11-28", "src/qp/metrics/pit.py:83-129", "src/qp/metrics/pit.py:131-173", "src/qp/metrics/pit.py:226-252"]}
{"id": "C139", "title": "Reconstructing a sparse PDF from its shape parameters", "statement": "For metadata with Ncoef = 32001 and a floating-point grid, shapes2pdf applied to the weights and shapes that indices2shapes returns for a PDF gives the same values as pdf_from_sparse with the dictionary of create_basis, and a basis number outside the dictionary is an IndexError in both. The values are those of the weighted sum of the cut, normalised Voigt profiles the integers name (first weight 1, the others coefficient/32000), set to 0 where it is below the cut and divided by the area under it: if the sum reaches the cut anywhere they are non-negative with unit area. The pdf of the sparse ensemble takes these values at the grid points if the sum nowhere lies strictly between 0 and the cut (it does not apply the second cut, so otherwise the two can differ). With another Ncoef the two reconstructions can differ, and shapes2pdf raises TypeError on a grid of integers.", "quantifier": "for all grids, dictionaries, cuts, Voigt functions, numbers of PDFs and lists of integers (no named basis function below the cut at every grid point)", "why_tests_cant": "The two reconstructions are never compared in the tests, and agreement for every dictionary size, basis number and weight cannot be enumerated; where they part (second cut, number of levels) is not visible from a round trip within tolerance.", "anchors": ["src/qp/sparse_rep.py:17-40", "src/qp/sparse_rep.py:167-214", "src/qp/sparse_rep.py:298-306", "src/qp/sparse_pdf.py:34-56"]}
{"id": "C140", "title": "Sparse ensembles made from integers", "statement": "Constructing \"sparse\" from an increasing grid, dictionary metadata and codes (coefficient, basis number) with non-negative coefficients, basis numbers of the dictionary below 65536 and basis functions that reach the cut 1e-5 somewhere on the grid always succeeds. PDF r is a probability density: at the grid points it is the sum of the normalised Voigt profiles that the codes name (first weight 1, the others coefficient/32000) divided by the area under it, linear in between, 0 outside, with integral one; its cdf is a distribution function; and the ensemble is one to which selection, appending, files and conversions apply as for every other class. A basis number outside the dictionary, fewer than three dimensions (IndexError), a negative dimension (ValueError) and a missing keyword (TypeError) fail. A cut given to the constructor is not stored, so a selection of such an ensemble can have other densities.", "quantifier": "for all grids, dictionary metadata, numbers of PDFs, numbers of integers per PDF and codes", "why_tests_cant": "The tests build sparse ensembles from one data file with one dictionary; that every admissible set of integers yields a normalised density is a statement about all dictionaries and codes.", "anchors": ["src/qp/sparse_pdf.py:34-76", "src/qp/sparse_rep.py:43-74", "src/qp/sparse_rep.py:149-175"]}
{"id": "C141", "title": "Interpolated densities in double precision: normalisation and cdf within a bound from rounding", "statement": "Computed in IEEE double precision, an interpolated ensemble made from non-negative values on an increasing grid stores densities that are finite, non-negative and of area 1 up to (grid points + 2)/2^51. Its cdf at any double is exactly 0 left of the grid and exactly 1 right of it; in between it differs from the exact share of the given area by at most (2 grid points + 12)/2^51, is never negative, never exceeds 1 by more than 2^-49, never decreases inside a cell and decreases across cells by no more than 2^-48. It can exceed 1 at the last grid point when the ensemble has several PDFs.", "quantifier": "for all increasing grids of doubles of magnitude up to 2^200 with steps of at least 2^-1000 and at most 2^40 points, all non-negative rows of doubles up to 2^200 with area at least 2^-500 whose first value is 0 or at least 2^-500, any number of PDFs, both values of check_input, all doubles x", "why_tests_cant": "Tests compare a few values with a tolerance; a bound on accumulated rounding for every grid, and the fact that the cdf of several PDFs can pass 1, need an argument about every intermediate rounding.", "anchors": ["src/qp/interp_pdf.py:60-106", "src/qp/interp_pdf.py:124-130", "src/qp/utils.py:496-602"]}
{"id": "C142", "title": "Selecting PDFs in double precision: the stored values drift by a bounded amount", "statement": "Selecting PDFs of a histogram ensemble (e[key]) builds a new ensemble, which normalises the stored values again. Computed in IEEE double precision the values reported by the selection are therefore not always the values reported before, but after any chain of m selections each value differs from the corresponding one before by at most 3 (edges + m + 2)/2^51 of it, and the area stays 1 up to (edges + 3)/2^51; the bound does not contain the product of edges and selections. Every such selection succeeds.", "quantifier": "for all bin edges of magnitude up to 2^400 at least 2^-800 apart and at most 2^40 of them, all non-negative rows up to 2^400 with area at least 2^-500, any number of PDFs, any ancillary data, any chain of up to 2^40 selections by integers, slices, masks or lists", "why_tests_cant": "Tests select once and compare with a tolerance; that rounding does not accumulate beyond a stated bound over arbitrarily many selections is a statement about all chains.", "anchors": ["src/qp/ensemble.py:46-75", "src/qp/hist_pdf.py:53-82"]}
{"id": "C143", "title": "Quantiles of histograms in double precision", "statement": "For 0 < q < 1 the quantile ppf(q) of a histogram ensemble, computed in IEEE double precision, is finite and within 2^-49 of the largest edge magnitude from a point between the first and the last edge at which the share of the area of the histogram that was given is q, up to (7 edges + 20)/2^51. It is never below the first edge, exceeds the last edge by no more than that rounding (and sometimes does), and larger q never give quantiles smaller by more than that rounding. This needs every bin to be empty or to hold at least 2^-500 of the area: with smaller bins a quantile can be infinite.", "quantifier": "for all bin edges of magnitude up to 2^400 at least 2^-1000 apart and at most 2^40 of them, all non-negative rows up to 2^400 with area at least 2^-500 whose bins are empty or hold at least 2^-500 of the area, any number of PDFs, check_input on or off, every double q in (0, 1)", "why_tests_cant": "Tests evaluate a few quantiles and compare with a tolerance; the statement bounds the rounding of the whole computation (two normalisations, the cumulated table, the interpolation) for every histogram and every q.", "anchors": ["src/qp/hist_pdf.py:53-95", "src/qp/hist_pdf.py:119-130", "src/qp/utils.py:720-832"]}
{"id": "C144", "title": "Densities of interpolated ensembles in double precision", "statement": "pdf(x) of an interpolated ensemble, computed in IEEE double precision, is finite, exactly 0 outside the grid, and inside the cell around x differs from the exact density of the table that was given (values divided by the area, linear between grid points) by at most (grid points + 14)/2^51 of the larger density at the two ends of the cell, plus 2^-590, whether or not check_input normalised the values on creation. It is not negative where the stored values do not fall. An ensemble with one PDF returns exactly the stored value at every grid point. In a falling cell the answer can be negative: two triangles 0, 3, 0 on the grid 0, 0.2, 0.3 have the density -2^-50 at 0.3, where one such PDF alone has the density 0.", "quantifier": "for all grids of at most 2^40 points of magnitude up to 2^200, at least 2^-400 apart; all non-negative values up to 2^200 with area at least 2^-500 and a first value that is 0 or at least 2^-500; any number of PDFs; check_input on or off; every double x", "why_tests_cant": "Tests evaluate a few densities and compare with a tolerance; the statement bounds the rounding of the whole computation (two normalisations and the interpolation) for every table and every x, and a test would have to hit particular values to see the negative density.", "anchors": ["src/qp/interp_pdf.py:60-106", "src/qp/interp_pdf.py:118-122", "src/qp/utils.py:500-560"]}
{"id": "C145", "title": "Quantiles of interpolated ensembles in double precision", "statement": "ppf(q) of an interpolated ensemble, computed in IEEE double precision for 0 < q < 1, is finite, not below the first grid point and above the last one by at most 2^-49 of the largest grid magnitude. Up to 2^-49 of that magnitude it is a point at which the exact cdf of the given table takes the value q up to (3 grid points + 22)/2^51; for q below the cdf at the first grid point, that point. A larger q gives no smaller answer up to 2^-49 of the largest magnitude, and the answer of a PDF has the same bits when it is alone in the ensemble. The answer can lie above the last grid point (grid -3, -2, 9, values 5, 1, 0, q = 1 - 2^-53), and tables with a tiny but non-zero area up to some grid point can give an infinite quantile.", "quantifier": "for all grids of at most 2^40 points of magnitude up to 2^200, at least 2^-1000 apart; all non-negative values up to 2^200 with area at least 2^-500, a first value that is 0 or at least 2^-500, and an area up to each grid point that is 0 or at least 2^-500 of the whole; any number of PDFs; check_input on or off; every double q in (0, 1)", "why_tests_cant": "Tests compare ppf with cdf at a few levels and with a tolerance; the statement bounds the rounding of normalisation, cumulative table and inversion for every table and level, and the answer above the grid or the infinite one appear only for particular values.", "anchors": ["src/qp/interp_pdf.py:60-106", "src/qp/interp_pdf.py:132-144", "src/qp/utils.py:720-832"]}
{"id": "C146", "title": "Weights of Gaussian mixtures in double precision", "statement": "A mixture ensemble normalises its weights when it is created and again with every selection e[key]. Computed in IEEE double precision, the weights reported by a new ensemble are finite and non-negative, their exact sum differs from 1 by at most (components + 4)/2^51, and each differs from the given weight divided by the exact total by at most (components + 4)/2^49 of it (plus 2^-1073). After any chain of m selections each weight differs from the corresponding one before by at most 3 (components + m + 4)/2^51 of it (plus 2^-1000), and the sum stays 1 up to (components + 4)/2^51. Creation and all these selections succeed. The sum can exceed 1 and a selection can change the bits of the weights (2, 7, 1).", "quantifier": "for all numbers of components up to 2^40, all non-negative weights up to 2^400 with total at least 2^-500, any means and standard deviations, any number of PDFs, any ancillary data, any chain of up to 2^40 selections by integers, slices, masks or lists", "why_tests_cant": "Tests look at a few mixtures and compare with a tolerance; that the pairwise summation and the repeated division keep the proportions within a stated bound for every row of weights and every chain of selections is a statement about all of them.", "anchors": ["src/qp/mixmod_pdf.py:42-68", "src/qp/ensemble.py:46-75"]}
{"id": "C147", "title": "CDE loss when the numbers of PDFs and of references differ", "statement": "CDELossMetric pairs PDFs and references by broadcasting. One reference is compared with every PDF of the ensemble: the loss is the mean integral of the squared densities minus twice the mean density at the grid point nearest to it, and accumulate followed by finalize gives the same number. One PDF is compared with every reference: evaluate subtracts twice the mean of the densities at the grid points nearest to the references, but accumulate and finalize subtract twice their sum, so that the two differ (by 1 for the density 1/2 and two references). One PDF and no reference give NaN. All other unequal numbers raise an IndexError in evaluate and in accumulate.", "quantifier": "for all evaluation grids that increase, all ensembles with a density of every modelled class, all numbers of PDFs and of references", "why_tests_cant": "Tests use as many references as PDFs; which of the unequal numbers are accepted silently, and that the accumulated value of accepted ones can disagree with the evaluated one, shows only when all combinations are considered.", "anchors": ["src/qp/metrics/concrete_metric_classes.py:303-345"]}
{"id": "C148", "title": "The three goodness-of-fit metrics bound each other", "statement": "For the same n samples calculate_goodness_of_fit returns values KS, CvM and AD with 1/(12n) <= CvM <= n/3, CvM <= n KS^2, and AD >= 4 CvM (or infinite); in particular AD is never negative, it is at least 1/(3n). CvM = n/3 exactly if the reference gives all samples probability 0 or all of them probability 1. This holds for every PDF of the result in each of the accepted combinations: equal numbers of PDFs without repeated samples, one estimate PDF, one reference PDF, or one sample of each PDF.", "quantifier": "for all references whose cdf is monotone with values in [0,1] (every class except quantile tables), all numbers of PDFs and samples, all samples", "why_tests_cant": "An inequality between three statistics for every number of samples and every distribution; the tests compare single values on one data set.", "anchors": ["src/qp/metrics/metrics.py:382-462", "src/qp/metrics/goodness_of_fit.py:15-60"]}
{"id": "C149", "title": "Normal ensembles: every scale is accepted, but parameters do not broadcast", "statement": "qp.Ensemble(qp.stats.norm, data) accepts columns of locations and scales of equal length and has one PDF for each line; pdf, cdf and ppf are those of the normal distribution with that location and scale if the scale is positive, and NaN if it is zero or negative (nothing is raised). A missing scale is 1 and a missing location is 0 for all PDFs; without both there is one standard normal PDF, two numbers are one PDF. A column with a number, or columns of different lengths, raise ValueError; any keyword other than loc and scale raises TypeError.", "quantifier": "for all locations and scales, all numbers of PDFs, all evaluation grids, all three methods", "why_tests_cant": "The tests build normal ensembles of two positive columns only; that bad scales answer NaN in their own line and nowhere else holds for every combination.", "anchors": ["src/qp/pdf_gen.py:159-182", "src/qp/pdf_gen.py:386-423", "src/qp/ensemble.py:33-75"]}
{"id": "C150", "title": "Extracting Voigt and sparse parameters from mixtures and gridded densities", "statement": "extract_voigt_mixmod of a Gaussian mixture returns its means, stds and weights unchanged and Lorentzian widths (gammas) that are zeros of the same shape; for every other class it raises KeyError. extract_voigt_xy of a gridded (interp) ensemble resamples each density on nz (300) equally spaced points from the first grid point to the last one with positive density, divides by the trapezium sum, and returns the mean, std, gamma and weight of each of the twenty basis functions found; any error of the search is raised unchanged; other classes raise KeyError. extract_xy_sparse raises for every input: it reads a key the sparse metadata never has, so it ends in a KeyError exactly where the same data convert to the sparse class; no qp.convert call depends on it.", "quantifier": "for all ensembles reachable through the API, all keywords, all numbers of points between 4 and 363, all Voigt profiles, solvers and dependence tests", "why_tests_cant": "The extraction of Voigt parameters is exercised by at most one ensemble, and extract_xy_sparse by none; that it can never return, and that no conversion reaches it, is a statement about all inputs.", "anchors": ["src/qp/conversion_funcs.py:243-317", "src/qp/conversion_funcs.py:366-418", "src/qp/sparse_rep.py:177-234", "src/qp/interp_pdf.py:308-320"]}
{"id": "C151", "title": "Conversion works PDF by PDF: it commutes with selection and with concatenation", "statement": "Converting the selected PDFs gives the same ensemble as selecting from the converted ensemble: for every key k (integer, slice, list or mask) qp.convert(ens[k], ...) and qp.convert(ens, ...)[k] have the same class, shape, metadata, parameters and the same pdf, cdf and ppf at all points, for the targets hist, interp and interp_irregular (for quant: the same pdf and cdf at all points, the same ppf at numbers and increasing lists). Likewise qp.convert(qp.concatenate(list), ...) equals qp.concatenate of the converted ensembles for the three gridded targets.", "quantifier": "for all ensembles of every class reachable through the API whose densities (cdfs, quantiles) give valid PDFs on the grid, all keys, all lists of joinable ensembles, all increasing grids of at least two points", "why_tests_cant": "No test converts a part of an ensemble and compares; that no conversion mixes the PDFs or normalises them together is a statement about all ensembles, keys and grids.", "anchors": ["src/qp/conversion_funcs.py:17-72", "src/qp/conversion_funcs.py:91-114", "src/qp/conversion_funcs.py:152-172", "src/qp/factory.py:272-315", "src/qp/factory.py:317-358", "src/qp/ensemble.py:46-74"]}
{"id": "C152", "title": "Which metrics treat the PDFs separately", "statement": "The metric of selected PDFs is the selection of the metrics: calculate_rmse(p[k], q[k], limits) equals calculate_rmse(p, q, limits)[k], calculate_outlier_rate(p[k]) equals calculate_outlier_rate(p)[k], and the PIT values of p[k] against truth[k] are those of p against truth, selected. For calculate_kld this holds as long as no divergence on the grid is negative. If a single PDF has a negative divergence (possible because a density may leave mass outside the limits), the reported divergence of every PDF is the machine epsilon, although those of the other PDFs, asked for alone, are reported unchanged.", "quantifier": "for all ensembles of every class reachable through the API, all slices, lists and masks, all limits and steps that give a grid of at least two points", "why_tests_cant": "Tests compute each metric once on one fixed pair of ensembles; that the value for one PDF depends on which others are in the ensemble shows only when parts are compared with wholes.", "anchors": ["src/qp/metrics/metrics.py:83-129", "src/qp/metrics/metrics.py:132-175", "src/qp/metrics/metrics.py:354-379", "src/qp/metrics/pit.py:175-189", "src/qp/ensemble.py:77-101"]}
{"id": "C153", "title": "Only the shape of the given values matters", "statement": "Multiplying the values of each PDF by a positive number of its own gives the same ensemble for the classes whose constructor normalises: qp.hist(bins, pdfs=c[:, None]*pdfs), qp.interp(xvals, yvals=c[:, None]*yvals), qp.interp_irregular and qp.mixmod(weights=c[:, None]*weights) have the same metadata, the same stored parameters, and the same pdf, cdf and ppf at all points as those without the factors.", "quantifier": "for all valid inputs of the four classes, all lists of positive factors, one per PDF, all evaluation points", "why_tests_cant": "Tests normalise one or two fixed tables; that no trace of the scale is left, for any factors and in any of the stored tables, is a statement about all inputs.", "anchors": ["src/qp/hist_pdf.py:53-88", "src/qp/interp_pdf.py:60-95", "src/qp/interp_pdf.py:258-287", "src/qp/mixmod_pdf.py:mixmod_gen.__init__"]}
{"id": "C154", "title": "Changing the units of the axis", "statement": "Giving the grid, locations or means in other units (x becomes a*x + b with a > 0; stds and scales are multiplied by a) while leaving the values as they are, divides the density by a, leaves the cdf, and moves the quantiles: pdf'(a*x+b) = pdf(x)/a, cdf'(a*x+b) = cdf(x), ppf'(q) = a*ppf(q) + b. This holds for interp, interp_irregular, packed_interp, norm, for mixtures (pdf and cdf) and for histograms whose edges numpy's closeness test judges alike in both units, for instance edges with equal widths. It fails for histograms of unequal bins when the new widths are below the absolute tolerance of np.allclose (1e-8): edges 0, 1, 3 divided by 10^9 have density 0 at 2e-9, inside the second bin.", "quantifier": "for all valid inputs of the six classes, all a > 0 and all b, all numbers and increasing lists of points", "why_tests_cant": "Tests use one unit (redshifts of order 1); equivariance under every change of units, and the absolute tolerance that breaks it, are invisible at any fixed scale.", "anchors": ["src/qp/utils.py:80-95", "src/qp/hist_pdf.py:107-130", "src/qp/interp_pdf.py:309-334", "src/qp/packed_interp_pdf.py:packed_interp_gen.__init__"]}
{"id": "C155", "title": "Metrics in other units", "statement": "Taking every grid, location, truth and limit in other units (x becomes a*x + b, a > 0) leaves the PIT samples and the outlier rates of an ensemble as they are, divides the root mean square difference of two ensembles (with dx multiplied by a) by a, multiplies calculate_moment(p, k, ...) by a**k when b = 0, and leaves calculate_kld as it is when no density on the grid is below np.finfo(float).eps in either unit. Holds for interp, interp_irregular, packed_interp, norm, mixmod and histograms whose edges are judged alike in both units.", "quantifier": "for all valid inputs of the six classes, all a > 0 and b, all truths, limits and steps with at least two grid points, all orders k", "why_tests_cant": "Tests compare metrics with stored numbers at one scale; how each metric transforms under every change of units cannot be read off stored numbers.", "anchors": ["src/qp/metrics/metrics.py:50-80", "src/qp/metrics/metrics.py:83-175", "src/qp/metrics/metrics.py:354-379", "src/qp/metrics/pit.py:176-200"]}
{"id": "C156", "title": "Mixtures written in different ways", "statement": "The pdf and cdf of qp.mixmod ensembles depend, for each PDF, only on the total weight given to each pair of mean and width: reordering the components of a PDF (differently for each PDF), adding or removing components with weight zero whatever their mean and width, and writing one component as several with the same mean and width changes no value, even though the number of components and the stored arrays differ.", "quantifier": "for all valid mixtures with any numbers of components and PDFs, all numbers and increasing lists of points", "why_tests_cant": "Tests use mixtures of two or three components with positive weights; independence of order and of zero-weight padding is a statement about all pairs of arrays.", "anchors": ["src/qp/mixmod_pdf.py:mixmod_gen.__init__", "src/qp/mixmod_pdf.py:mixmod_gen._pdf", "src/qp/mixmod_pdf.py:mixmod_gen._cdf"]}
{"id": "C157", "title": "Additional grid points on the line", "statement": "Adding to xvals a point z strictly between two neighbours, with the linearly interpolated value in every row of yvals, leaves the pdf of qp.interp unchanged at every point, and its cdf unchanged at every x at or above the upper neighbour, and at or below the lower neighbour unless the first interval is the one split. In the first interval it does change cdf(xvals[0]), because the cdf table starts with half the first step instead of 0. For qp.interp_irregular it changes the density itself, because the class normalises with right-hand rectangles: (0, 2) with values (0, 2) has density 1/2 at 2, and (0, 1, 2) with (0, 1, 2) has 2/3.", "quantifier": "for all valid grids and rows, all positions and all points between the neighbours, all numbers and increasing lists of points for the pdf, all numbers for the cdf", "why_tests_cant": "Tests evaluate one grid and never the same function on two grids; that refining the grid is harmless for one class and changes normalisation for the other is a relation between two constructions.", "anchors": ["src/qp/interp_pdf.py:60-95", "src/qp/interp_pdf.py:258-287", "src/qp/utils.py:normalize_interp1d"]}
{"id": "C158", "title": "Cutting a bin of a histogram in two", "statement": "Adding an edge strictly inside a bin and giving both parts the value of that bin leaves the cdf of every PDF of qp.hist unchanged at all points, the pdf unchanged at every point that is not an edge (for bins that are exactly equal or clearly unequal in width, before and after), and the ppf unchanged when no bin is empty. At an edge the density may change: bins of equal width own their lower edge, bins of unequal width their upper edge, so cutting [1, 2] in the histogram with edges 0, 1, 2 and values 1, 3 changes pdf(1) from 3/4 to 1/4.", "quantifier": "for all valid histograms, all bins and all cut points strictly inside, all numbers and increasing lists of points (numbers for the pdf)", "why_tests_cant": "Tests evaluate one set of edges; that two sets of edges describe the same distribution, and where they do not, is a relation between two constructions.", "anchors": ["src/qp/hist_pdf.py:53-88", "src/qp/hist_pdf.py:107-130", "src/qp/utils.py:80-95"]}
{"id": "C159", "title": "What mode returns", "statement": "ens.mode(grid) returns one number per PDF: a point of the grid at which the density of that PDF is at least as large as at all other grid points, and larger than at all earlier ones. This holds after any sequence of calls on the ensemble (gridded, mode, moment_partial, set_ancil, add_to_ancil, and successful update, update_objdata, append), whatever the cache of gridded values holds. The mode moves with the units of the axis, mode'(a*grid + b) = a*mode(grid) + b, and the modes of ens[key] are the modes of ens at the selected positions.", "quantifier": "for all ensembles with densities, all histories of calls, all non-empty increasing grids, all a > 0 and b, all slices, index lists and masks that select something", "why_tests_cant": "The test of mode compares with a stored number for one normal ensemble and never calls it after a change; ties, stale caches and every grid are out of reach of examples.", "anchors": ["src/qp/ensemble.py:302-342"]}
{"id": "C160", "title": "Converting in other units", "statement": "Changing the units of the axis (x becomes a*x + b, a > 0) and converting with qp.convert can be done in either order. If every answer of ens' is the answer of ens in the new units (pdf'(a*x+b) = pdf(x)/a for targets interp and interp_irregular, cdf'(a*x+b) = cdf(x) for target hist), then qp.convert(ens, cls, bins/xvals=g) and qp.convert(ens', cls, bins/xvals=a*g+b) succeed, have the same number of PDFs, and agree in the same sense in pdf, cdf and ppf. Ensembles created from parameters in the two units (histograms, grids, mixtures, packed grids, normals) are such pairs; the conclusion is again the hypothesis, so it holds along chains of conversions.", "quantifier": "for all a > 0 and b, all pairs of ensembles that agree up to units, all increasing grids with at least two points (for hist: edges that numpy's closeness test treats alike in both units), all points of evaluation", "why_tests_cant": "Tests convert on one grid in one unit; a conversion with an absolute tolerance, a constant offset or a normalisation that mixes values of different units would pass them.", "anchors": ["src/qp/conversion_funcs.py:17-65", "src/qp/conversion_funcs.py:91-114", "src/qp/factory.py:272-315"]}
{"id": "C161", "title": "Quantile tables in other units", "statement": "If the locations of a quantile ensemble are given in other units (a*loc + b, a > 0, same quantiles), the default density (piecewise_linear) is the old one in the new units, pdf'(a*x+b) = pdf(x)/a, everywhere, including the padding beyond the first and last quantile; cdf'(a*x+b) = cdf(x) and ppf'(q) = a*ppf(q) + b hold for every pdf constructor provided scipy's quadratic interpolation has this property. It fails for the density of the piecewise_constant constructor.", "quantifier": "for all a > 0 and b, all quantile tables with increasing quantiles and locations, all points of evaluation", "why_tests_cant": "Tests use locations in one unit; the mistake in the piecewise_constant constructor (differences used as slopes without dividing by the distance) shows only when values for two units are compared.", "anchors": ["src/qp/quant_pdf.py:26-73", "src/qp/quantile_pdf_constructors/piecewise_linear.py:31-74", "src/qp/quantile_pdf_constructors/piecewise_constant.py:32-80"]}
{"id": "C162", "title": "What plot draws", "statement": "ens.plot(key, xlim=(lo, hi), npts=n, ...) with a key that selects one PDF makes one new set of axes with the limits lo and hi and the labels 'redshift' and 'p(z)', draws exactly one line on it, through the points (x_i, pdf(x_i)) with x_i the n (101 by default) equally spaced points from lo to hi, and hands all other keywords to matplotlib; ens.plot(key, axes=ax, ...) adds the line for the limits of ax to ax and leaves all other axes alone; with neither or both of xlim and axes it raises ValueError and draws nothing. The docstring also promises several PDFs and the code reads xlabel and ylabel: both fail.", "quantifier": "for all ensembles with densities, all keys, all limits lo < hi, all n >= 2, all canvases and further keywords known to matplotlib", "why_tests_cant": "The plotting tests only check that calls with default keywords do not raise; they look neither at the points drawn nor at keys with several PDFs or keywords for labels.", "anchors": ["src/qp/plotting.py:43-142", "src/qp/ensemble.py:612-630", "src/qp/pdf_gen.py:138-149"]}
{"id": "C163", "title": "The native plot of a gridded ensemble is its density", "statement": "For an ensemble of class interp or packed_interp, ens.plot_native(key, xlim=(lo, hi), ...) with a key that selects one PDF makes one new set of axes with these limits and draws exactly one line, whose vertices are the grid points with the density of the selected PDF there; this line is the whole density: every point (x, pdf(x)) with x on the grid's range lies on it, and pdf is 0 outside that range; ens.plot_native(key, axes=ax, ...) adds the same line to ax, whatever its limits, and leaves all other axes alone. Handing plot_native the keyword npts, which plot accepts, raises AttributeError after the axes have been made; a key that selects several PDFs, but not as many as there are grid points, raises ValueError after the axes have been made.", "quantifier": "for all grids and values these classes accept, all keys that select one PDF, all limits, canvases and further keywords known to matplotlib", "why_tests_cant": "The tests call plot_native with default keywords and only check that nothing is raised; that the drawn line agrees with pdf between the grid points cannot be seen from finitely many evaluations.", "anchors": ["src/qp/interp_pdf.py:187-194", "src/qp/packed_interp_pdf.py:254-261", "src/qp/ensemble.py:622-630", "src/qp/plotting.py:71-109"]}
{"id": "C164", "title": "The native plot of a histogram shows its density as bars of area one", "statement": "For an ensemble of class hist with at least two bins, ens.plot_native(key, xlim=(lo, hi), ...) with a key that selects one PDF makes one new set of axes with these limits, marks every bin edge, and draws exactly one bar per bin, from edge to edge, in order; the bars have total area 1 and every bar is as high as pdf of the selected PDF inside its bin, while pdf is 0 outside all bars; all other keywords are handed on, with defaults only for colour and label. ens.plot_native(key, axes=ax, ...) draws the same on ax, whatever its limits, and makes no axes. A key that selects several PDFs raises ValueError after the axes have been made.", "quantifier": "for all bin edges and values the class accepts (the height inside a bin: for edges that are equally spaced or clearly not), all keys, all limits, canvases and further keywords known to matplotlib", "why_tests_cant": "The tests call plot_native with default keywords and only check that nothing is raised; they do not look at the bars, and the code draws them by binning the bin centres with the stored values as weights.", "anchors": ["src/qp/hist_pdf.py:163-171", "src/qp/plotting.py:71-83", "src/qp/plotting.py:188-229", "src/qp/ensemble.py:622-630"]}
{"id": "C165", "title": "The native plot of quantiles shows the locations and the density", "statement": "For a quantile ensemble with the piecewise_linear or piecewise_constant constructor, ens.plot_native(key, xlim=(lo, hi), npts=n, ...) with a key that selects one PDF makes one new set of axes with these limits, marks the locations given for that PDF in their order (with at most one further location on either side, where the quantiles 0 and 1 were added), and draws exactly one curve through (x, pdf(x)) at the n (101 by default) equally spaced x from lo to hi; both get all other keywords, with defaults only for label and colour. ens.plot_native(key, axes=ax, npts=n, ...) draws the same on ax, the curve over the limits of ax, and makes no axes. Without a label from the user the curve is labelled 'Quantiles' like the marks: the label 'Quantile Interpolated PDF' in the code is never used.", "quantifier": "for all quantiles and locations the class accepts, all keys that select one PDF, all limits lo < hi, all n >= 2, canvases and further keywords known to matplotlib", "why_tests_cant": "The tests call plot_native with default keywords and only check that nothing is raised; they look neither at the marks and the curve nor at the labels.", "anchors": ["src/qp/quant_pdf.py:266-279", "src/qp/plotting.py:71-83", "src/qp/plotting.py:145-185", "src/qp/ensemble.py:622-630"]}
{"id": "C166", "title": "The native plot of an irregular grid is the density of the selected PDF", "statement": "For an ensemble of class interp_irregular, ens.plot_native(key, xlim=(lo, hi), ...) with a key that selects one PDF makes one new set of axes with these limits and draws exactly one line, whose vertices are the grid points of that PDF - not those of another one - with its density there; this line is the whole density: every point (x, pdf(x)) with x on the range of that grid lies on it, and pdf is 0 outside; ens.plot_native(key, axes=ax, ...) adds the same line to ax, whatever its limits, and leaves all other axes alone. Handing plot_native the keyword npts, which plot accepts, raises AttributeError after the axes have been made.", "quantifier": "for all grids and values the class accepts, all keys that select one PDF, all limits, canvases and further keywords known to matplotlib", "why_tests_cant": "The tests call plot_native with default keywords and only check that nothing is raised; every PDF has its own grid here, and the points are handed to pdf as a table, whose evaluation depends on what else is in the table (C06).", "anchors": ["src/qp/interp_pdf.py:363-371", "src/qp/ensemble.py:622-630", "src/qp/plotting.py:71-109"]}
