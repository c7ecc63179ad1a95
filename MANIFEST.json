{
 "claims": [
  {
   "property": "C01",
   "status": "proved",
   "theorems": [
    "C01_hist_values_normalised",
    "C01_hist_pdf_integral"
   ],
   "note": ""
  },
  {
   "property": "C02",
   "status": "partial",
   "theorems": [
    "C02_hist_pdf_is_bin_value_partial",
    "C02_hist_pdf_is_bin_value_refuted",
    "C02_edge_convention"
   ],
   "note": "False for tiny or nearly equal-width bins (witness in _refuted); the _partial theorem assumes sound_bins (exactly equal widths, or some width clearly different). Refined statement: C61."
  },
  {
   "property": "C03",
   "status": "proved",
   "theorems": [
    "C03_hist_cdf_is_integral"
   ],
   "note": ""
  },
  {
   "property": "C04",
   "status": "proved",
   "theorems": [
    "C04_hist_ppf_inverts_cdf"
   ],
   "note": ""
  },
  {
   "property": "C05",
   "status": "partial",
   "theorems": [
    "C05_hist_grid_partial",
    "C05_hist_unsorted_grid",
    "C05_interp_grid_partial",
    "C05_interp_unsorted_grid",
    "C05_irr_grid_partial",
    "C05_irr_unsorted_grid",
    "C05_grid_refuted"
   ],
   "note": "False for unsorted duplicate-free grids with two or more PDFs (witness in _refuted). Exact behaviour proved as C56. Classes: histogram, interpolated, irregular."
  },
  {
   "property": "C06",
   "status": "partial",
   "theorems": [
    "C06_hist_matrix_partial",
    "C06_hist_matrix_mixed",
    "C06_interp_matrix_partial",
    "C06_interp_matrix_mixed",
    "C06_irr_matrix_partial",
    "C06_irr_matrix_mixed",
    "C06_matrix_refuted"
   ],
   "note": "False when the matrix has exactly as many distinct points as columns (witness). Exact behaviour proved as C57."
  },
  {
   "property": "C07",
   "status": "partial",
   "theorems": [
    "C07_bin_lookup_partial",
    "C07_tiny_bins_refuted",
    "C07_nearly_equal_bins_refuted"
   ],
   "note": "Index always valid; mask and containment proved under sound_bins; two witnesses that they fail otherwise. Refined: C62."
  },
  {
   "property": "C08",
   "status": "proved",
   "theorems": [
    "C08_interp_pdf_normalised"
   ],
   "note": ""
  },
  {
   "property": "C09",
   "status": "partial",
   "theorems": [
    "C09_interp_cdf_partial",
    "C09_first_point_refuted"
   ],
   "note": "All clauses proved except the value at the first grid point, which is false (witness). Exact values: C58."
  },
  {
   "property": "C10",
   "status": "partial",
   "theorems": [
    "C10_interp_ppf_partial",
    "C10_interp_ppf_refuted"
   ],
   "note": "Proved for q >= cdf(first grid point) and for densities starting at 0; false below (witness). Exact values: C59."
  },
  {
   "property": "C11",
   "status": "partial",
   "theorems": [
    "C11_irregular_partial",
    "C11_irregular_pdf_refuted"
   ],
   "note": "Proper cdf proved; the integral of the density is not 1 in general (witness); its exact value is proved (C60)."
  },
  {
   "property": "C12",
   "status": "proved",
   "theorems": [
    "C12_quantile_padding"
   ],
   "note": ""
  },
  {
   "property": "C13",
   "status": "partial",
   "theorems": [
    "C13_quantiles_partial",
    "C13_two_quantiles_refuted",
    "C13_end_quantiles_refuted"
   ],
   "note": "False for the two-quantile table (0,1) (ValueError) and for ppf at the quantiles 0 and 1 (infinite); everything else proved, refined as C63. scipy's quadratic spline is a parameter assumed to pass through its knots."
  },
  {
   "property": "C14",
   "status": "partial",
   "theorems": [
    "C14_piecewise_linear_partial",
    "C14_piecewise_constant_value",
    "C14_constant_refuted",
    "C14_cdf_spline_refuted",
    "C14_dual_spline_refuted"
   ],
   "note": "Non-negativity proved for the default piecewise_linear constructor; false for the other three (witnesses), and piecewise_constant is not constant (exact value proved)."
  },
  {
   "property": "C15",
   "status": "proved",
   "theorems": [
    "C15_weights_normalised",
    "C15_pdf_cdf",
    "C15_negative_weights"
   ],
   "note": ""
  },
  {
   "property": "C16",
   "status": "proved",
   "theorems": [
    "C16_linear_packing"
   ],
   "note": "Exact arithmetic; the byte cast is modulo 256 (only 0..255 is used). A row of zeros (0/0) is outside the statement."
  },
  {
   "property": "C17",
   "status": "partial",
   "theorems": [
    "C17_log_packing_partial",
    "C17_log_packing_refuted"
   ],
   "note": "False as stated: see C17_log_packing_refuted (a value above the floor dropped; a zero of a faint row unpacked as the maximum). C71 is the exact statement."
  },
  {
   "property": "C18",
   "status": "partial",
   "theorems": [
    "C18_int_coding_partial",
    "C18_int_coding_refuted"
   ],
   "note": "Holds for indices below 65536 (partial); refuted at 65536. C73 gives the exact range."
  },
  {
   "property": "C19",
   "status": "partial",
   "theorems": [
    "C19_basis_shapes_partial",
    "C19_basis_shapes_refuted"
   ],
   "note": "Holds for dictionaries of at most 65536 columns; refuted beyond. Float division D/n in the code is exact at these sizes (simplification)."
  },
  {
   "property": "C20",
   "status": "partial",
   "theorems": [
    "C20_same_dictionary_partial",
    "C20_same_dictionary_refuted"
   ],
   "note": "False as stated: the swap-back overwrites unselected leading columns (C75); holds when each selection covers the leading positions. Missing for the full claim: the code."
  },
  {
   "property": "C21",
   "status": "partial",
   "theorems": [
    "C21_slice_partial",
    "C21_out_of_range",
    "C21_integer",
    "C21_ancil_refuted",
    "C21_twice_refuted",
    "C21_empty_refuted",
    "C21_spline_refuted",
    "C21_mixture_refuted"
   ],
   "note": "Proved for every ensemble reachable by valid calls and every non-empty selection; false for ancillary columns with several entries per PDF, ens[i][j], empty selections of quantile ensembles, spline densities and mixture ppf."
  },
  {
   "property": "C22",
   "status": "partial",
   "theorems": [
    "C22_concatenate_partial",
    "C22_concatenate_none_partial",
    "C22_tolerance_refuted",
    "C22_dropped_refuted"
   ],
   "note": "Proved for members with equal metadata; false when metadata differ within the comparison tolerance (members silently take the first one's grid), and when one member has no ancillary data (all is dropped). Parts and acceptance: C78."
  },
  {
   "property": "C23",
   "status": "proved",
   "theorems": [
    "C23_append"
   ],
   "note": "For every two ensembles reachable by valid calls (seven classes), including every failing case."
  },
  {
   "property": "C24",
   "status": "partial",
   "theorems": [
    "C24_tables_partial",
    "C24_shape_refuted"
   ],
   "note": "Proved for ensembles reachable by valid calls; false for multi-dimensional ensembles, whose shape is lost."
  },
  {
   "property": "C25",
   "status": "proved",
   "theorems": [
    "C25_partition",
    "C25_iterate"
   ],
   "note": "all sizes and ranks; files of ensembles obtained by valid calls"
  },
  {
   "property": "C26",
   "status": "partial",
   "theorems": [
    "C26_ancil_partial",
    "C26_refuted"
   ],
   "note": "false: the iterator fills one ancillary dictionary anew for every range; exact behaviour is C90"
  },
  {
   "property": "C27",
   "status": "proved",
   "theorems": [
    "C27_interleaving",
    "C27_any_order"
   ],
   "note": "any interleaving of single dataset writes"
  },
  {
   "property": "C28",
   "status": "proved",
   "theorems": [
    "C28_unfinished",
    "C28_finished"
   ],
   "note": "every prefix of every write sequence, also failing ones; inside finalize see C91"
  },
  {
   "property": "C29",
   "status": "partial",
   "theorems": [
    "C29_gridded_partial",
    "C29_mode_partial",
    "C29_alias_refuted"
   ],
   "note": "Proved for histories in which no PDF-replacing call failed; refuted by C31_update_refuted (failed update) and by writing into the array passed to gridded."
  },
  {
   "property": "C30",
   "status": "partial",
   "theorems": [
    "C30_ancil_partial",
    "C30_rejected",
    "C30_accepted"
   ],
   "note": "Proved for histories in which no PDF-replacing call failed; C31_update_refuted shows a failed update leaving a table of the wrong length."
  },
  {
   "property": "C31",
   "status": "partial",
   "theorems": [
    "C31_atomic_partial",
    "C31_update_refuted"
   ],
   "note": "Holds when the constructor fails; false when the ancillary table is rejected. The exact effect is C79."
  },
  {
   "property": "C32",
   "status": "proved",
   "theorems": [
    "C32_add",
    "C32_history"
   ],
   "note": ""
  },
  {
   "property": "C33",
   "status": "partial",
   "theorems": [
    "C33_resolution_partial",
    "C33_leak_refuted"
   ],
   "note": "Proved for classes in the factory and orderly histories; refuted when an unregistered class registers (the entry lands in the shared base table). C83 is the exact statement."
  },
  {
   "property": "C34",
   "status": "partial",
   "theorems": [
    "C34_uniform_partial",
    "C34_widths_refuted"
   ],
   "note": "Proved for equal-width bins; refuted for other bins (1/3, 2/3 become 1/5, 4/5). C84 gives the exact formula for every bin vector."
  },
  {
   "property": "C35",
   "status": "partial",
   "theorems": [
    "C35_agree",
    "C35_agree_registered",
    "C35_hist_partial",
    "C35_interp_partial",
    "C35_exceptions_refuted"
   ],
   "note": "Agreement of the two entry points proved for every class of qp; identity of the re-conversion for default-built ensembles (C85); refuted for classes without a creation function."
  },
  {
   "property": "C36",
   "status": "proved",
   "theorems": [
    "C36_integrate",
    "C36_reachable"
   ],
   "note": ""
  },
  {
   "property": "C37",
   "status": "proved",
   "theorems": [
    "C37_score",
    "C37_range",
    "C37_range_1d",
    "C37_rejected"
   ],
   "note": "Brier.evaluate for 2-d and 1-d arrays: value, range [0,2], zero exactly for the perfect prediction, shape mismatch. The TypeError for non-numeric input is not modelled."
  },
  {
   "property": "C38",
   "status": "partial",
   "theorems": [
    "C38_cde",
    "C38_brier_partial",
    "C38_refuted"
   ],
   "note": "CDE loss: full. Brier: chunks of at least two PDFs; false for a chunk of one PDF (np.squeeze). C96 states the exact behaviour."
  },
  {
   "property": "C39",
   "status": "partial",
   "theorems": [
    "C39_self",
    "C39_nonneg",
    "C39_refuted"
   ],
   "note": "Self-divergence and non-negativity proved; independence of the other PDFs refuted (one negative raw value replaces the whole array). C94 states the exact behaviour."
  },
  {
   "property": "C40",
   "status": "proved",
   "theorems": [
    "C40_value",
    "C40_metric",
    "C40_triangle"
   ],
   "note": "Proved on calculate_rmse for every reachable ensemble and grid."
  },
  {
   "property": "C41",
   "status": "proved",
   "theorems": [
    "C41_rate",
    "C41_reachable"
   ],
   "note": "Through integrate; in [0,1] for all classes but quant, whose spline cdf overshoots (C10)."
  },
  {
   "property": "C42",
   "status": "partial",
   "theorems": [
    "C42_partial",
    "C42_order",
    "C42_refuted"
   ],
   "note": "False when samples repeat so that all PDFs together have exactly n different values (C42_refuted); proved for every other input. Exact: C99."
  },
  {
   "property": "C43",
   "status": "partial",
   "theorems": [
    "C43_partial",
    "C43_order",
    "C43_refuted"
   ],
   "note": "As C42: false with ties, proved otherwise. Exact: C99."
  },
  {
   "property": "C44",
   "status": "partial",
   "theorems": [
    "C44_samples_partial",
    "C44_table_partial",
    "C44_outside_refuted",
    "C44_range_refuted"
   ],
   "note": "Samples and table proved; false of the stored ensemble (extrapolated ends can leave (0,1)), of quantile-table inputs (cdf overshoot) and of one PDF (TypeError, C102_one)."
  },
  {
   "property": "C45",
   "status": "proved",
   "theorems": [
    "C45_bias",
    "C45_iqr",
    "C45_mad",
    "C45_outliers",
    "C45_unique",
    "C45_order",
    "C45_move",
    "C45_empty",
    "C45_lengths"
   ],
   "note": "Bias, IQR width, MAD and outlier rate of the residuals (e-r)/(1+r), with an independent relational definition of the interpolated quantile; order independence, equivariance for every factor k (widths scale by |k|), non-negativity, rate in [0,1]; exact arithmetic; references of -1 not modelled."
  },
  {
   "property": "C46",
   "status": "partial",
   "theorems": [
    "C46_by_hand_partial",
    "C46_refuted"
   ],
   "note": "False of eval_from_iterator (only the last chunk counts, see C101); proved for accumulate on each chunk followed by finalize on all results, for every digest satisfying merge laws."
  },
  {
   "property": "C47",
   "status": "partial",
   "theorems": [
    "C47_found_partial",
    "C47_names",
    "C47_kept",
    "C47_unknown",
    "C47_hidden_refuted",
    "C47_name_refuted"
   ],
   "note": "False when a subclass inherits metric_name (it hides its parent) and when the name contains 'Metric'; proved for names registered once; names listed, kept and unknown proved in full; exact statement C103."
  },
  {
   "property": "C48",
   "status": "partial",
   "theorems": [
    "C48_hist_partial",
    "C48_interp_partial",
    "C48_hist_refuted",
    "C48_interp_refuted",
    "C48_grid_refuted"
   ],
   "note": "False on unequal bins, for piecewise-linear PDFs that do not vanish at the ends, and for sums over a metric grid; proved on equal bins and for PDFs vanishing at the ends; exact statement C104. Numerical integration by scipy (other classes) is not modelled."
  },
  {
   "property": "C49",
   "status": "proved",
   "theorems": [
    "C49_grid",
    "C49_truth",
    "C49_rejected"
   ],
   "note": "Including the rejected limits."
  },
  {
   "property": "C50",
   "status": "partial",
   "theorems": [
    "C50_iterate_partial",
    "C50_scalar_refuted",
    "C50_single_refuted"
   ],
   "note": "Proved for ensembles reachable by valid calls with plain columns; false for scalar scipy parameters (endless) and for e[i] with ancillary data (visits nothing)."
  },
  {
   "property": "C51",
   "status": "proved",
   "theorems": [
    "C51_roundtrip",
    "C51_back",
    "C51_rows",
    "C51_numbering",
    "C51_frozen"
   ],
   "note": "both directions, every shape and split"
  },
  {
   "property": "C52",
   "status": "partial",
   "theorems": [
    "C52_profile_partial",
    "C52_tiny_refuted"
   ],
   "note": "partial on sound bins; exact version is C105"
  },
  {
   "property": "C53",
   "status": "partial",
   "theorems": [
    "C53_outside_partial",
    "C53_ends_refuted",
    "C53_hist_ppf_ends",
    "C53_interp_ppf_ends",
    "C53_irr_ppf_ends"
   ],
   "note": "false at the ends; exact version is C107 with C89"
  },
  {
   "property": "C54",
   "status": "partial",
   "theorems": [
    "C54_mixture_ppf_partial",
    "C54_repeated_grid_refuted",
    "C54_matrix_refuted",
    "C54_single_refuted"
   ],
   "note": "Right for numbers and sorted grids inside (0,1); wrong PDF for repeated grids and per-PDF matrices; ValueError for a single PDF with 0 or 1 in the grid."
  },
  {
   "property": "C55",
   "status": "proved",
   "theorems": [
    "C55_irregular_ppf_inverts_cdf"
   ],
   "note": ""
  },
  {
   "property": "C56",
   "status": "proved",
   "theorems": [
    "C56_hist_grid_values",
    "C56_interp_grid_values",
    "C56_irr_grid_values"
   ],
   "note": ""
  },
  {
   "property": "C57",
   "status": "proved",
   "theorems": [
    "C57_hist_matrix_values",
    "C57_interp_matrix_values",
    "C57_irr_matrix_values"
   ],
   "note": ""
  },
  {
   "property": "C58",
   "status": "proved",
   "theorems": [
    "C58_interp_cdf_values"
   ],
   "note": ""
  },
  {
   "property": "C59",
   "status": "proved",
   "theorems": [
    "C59_interp_ppf_values"
   ],
   "note": ""
  },
  {
   "property": "C60",
   "status": "proved",
   "theorems": [
    "C60_irregular_values"
   ],
   "note": ""
  },
  {
   "property": "C61",
   "status": "proved",
   "theorems": [
    "C61_hist_pdf_sound_bins"
   ],
   "note": ""
  },
  {
   "property": "C62",
   "status": "proved",
   "theorems": [
    "C62_bin_lookup_sound_bins"
   ],
   "note": ""
  },
  {
   "property": "C63",
   "status": "proved",
   "theorems": [
    "C63_quantile_pairs"
   ],
   "note": ""
  },
  {
   "property": "C64",
   "status": "partial",
   "theorems": [
    "C64_quantile_cdf_partial",
    "C64_overshoot_refuted"
   ],
   "note": "Proved at the given locations; false between them: the quadratic spline overshoots (witness)."
  },
  {
   "property": "C65",
   "status": "partial",
   "theorems": [
    "C65_own_table_partial",
    "C65_cdf_spline_first_pdf",
    "C65_dual_spline_first_pdf",
    "C65_own_table_refuted"
   ],
   "note": "Proved for cdf, ppf, piecewise_linear and piecewise_constant; false for the two spline constructors, which return the density of PDF 0 for every PDF (proved for all inputs)."
  },
  {
   "property": "C66",
   "status": "proved",
   "theorems": [
    "C66_switch_constructor",
    "C66_unknown_constructor"
   ],
   "note": ""
  },
  {
   "property": "C67",
   "status": "partial",
   "theorems": [
    "C67_quantile_rvs_partial",
    "C67_quantile_single_rvs_raises",
    "C67_mixture_rvs_raises"
   ],
   "note": "Proved for quantile ensembles with two or more PDFs (tabulated classes in C70); one-PDF quantile ensembles and all mixtures raise ValueError."
  },
  {
   "property": "C68",
   "status": "proved",
   "theorems": [
    "C68_mixture_pointwise"
   ],
   "note": ""
  },
  {
   "property": "C69",
   "status": "proved",
   "theorems": [
    "C69_mixture_ppf_rows"
   ],
   "note": ""
  },
  {
   "property": "C70",
   "status": "proved",
   "theorems": [
    "C70_hist_rvs",
    "C70_interp_rvs",
    "C70_irregular_rvs"
   ],
   "note": ""
  },
  {
   "property": "C71",
   "status": "proved",
   "theorems": [
    "C71_log_packing_exact",
    "C71_dispatch"
   ],
   "note": "log10 and 10^x are the true real functions."
  },
  {
   "property": "C72",
   "status": "proved",
   "theorems": [
    "C72_packed_is_interp",
    "C72_linear_error"
   ],
   "note": "ymax must be the column returned by pack_array."
  },
  {
   "property": "C73",
   "status": "proved",
   "theorems": [
    "C73_int_coding_exact",
    "C73_no_collision"
   ],
   "note": ""
  },
  {
   "property": "C74",
   "status": "proved",
   "theorems": [
    "C74_weights",
    "C74_first_weight_lost"
   ],
   "note": ""
  },
  {
   "property": "C75",
   "status": "proved",
   "theorems": [
    "C75_dictionary_effect"
   ],
   "note": "The Cholesky solve, the square root and the dependence test are arbitrary functions."
  },
  {
   "property": "C76",
   "status": "proved",
   "theorems": [
    "C76_sparse_density"
   ],
   "note": "The Voigt profile and square root are arbitrary functions; the sum is assumed non-negative with a positive value, as a density needs."
  },
  {
   "property": "C77",
   "status": "proved",
   "theorems": [
    "C77_key_positions",
    "C77_slice_of_slice"
   ],
   "note": ""
  },
  {
   "property": "C78",
   "status": "proved",
   "theorems": [
    "C78_parts",
    "C78_parts_without_ancil",
    "C78_accepted"
   ],
   "note": ""
  },
  {
   "property": "C79",
   "status": "proved",
   "theorems": [
    "C79_update"
   ],
   "note": ""
  },
  {
   "property": "C80",
   "status": "proved",
   "theorems": [
    "C80_constructors"
   ],
   "note": ""
  },
  {
   "property": "C81",
   "status": "proved",
   "theorems": [
    "C81_proper"
   ],
   "note": ""
  },
  {
   "property": "C82",
   "status": "proved",
   "theorems": [
    "C82_attributes"
   ],
   "note": ""
  },
  {
   "property": "C83",
   "status": "proved",
   "theorems": [
    "C83_resolution",
    "C83_unique"
   ],
   "note": ""
  },
  {
   "property": "C84",
   "status": "proved",
   "theorems": [
    "C84_formula",
    "C84_reachable"
   ],
   "note": ""
  },
  {
   "property": "C85",
   "status": "proved",
   "theorems": [
    "C85_hist",
    "C85_interp"
   ],
   "note": ""
  },
  {
   "property": "C86",
   "status": "proved",
   "theorems": [
    "C86_interp",
    "C86_irregular"
   ],
   "note": ""
  },
  {
   "property": "C87",
   "status": "proved",
   "theorems": [
    "C87_extraction",
    "C87_no_extraction",
    "C87_no_class"
   ],
   "note": ""
  },
  {
   "property": "C88",
   "status": "proved",
   "theorems": [
    "C88_quantiles"
   ],
   "note": ""
  },
  {
   "property": "C89",
   "status": "proved",
   "theorems": [
    "C89_infinite_ends"
   ],
   "note": ""
  },
  {
   "property": "C90",
   "status": "proved",
   "theorems": [
    "C90_shared"
   ],
   "note": ""
  },
  {
   "property": "C91",
   "status": "proved",
   "theorems": [
    "C91_first_dataset",
    "C91_again",
    "C91_silent",
    "C91_unreadable",
    "C91_unwritten"
   ],
   "note": "exact for every number of written metadata datasets, with witnesses of the consequences"
  },
  {
   "property": "C92",
   "status": "proved",
   "theorems": [
    "C92_roundtrip",
    "C92_equal_files"
   ],
   "note": "up to the order of the ancillary columns"
  },
  {
   "property": "C93",
   "status": "proved",
   "theorems": [
    "C93_accepted",
    "C93_mismatch",
    "C93_one"
   ],
   "note": "trailing shapes equal"
  },
  {
   "property": "C94",
   "status": "proved",
   "theorems": [
    "C94_reported",
    "C94_gibbs",
    "C94_exact",
    "C94_other_size"
   ],
   "note": "Exact behaviour of calculate_kld."
  },
  {
   "property": "C95",
   "status": "proved",
   "theorems": [
    "C95_score",
    "C95_single",
    "C95_rejected",
    "C95_unbounded"
   ],
   "note": "Exact value and rejections; unboundedness."
  },
  {
   "property": "C96",
   "status": "proved",
   "theorems": [
    "C96_chunks",
    "C96_single"
   ],
   "note": "Exact behaviour of the accumulated Brier score."
  },
  {
   "property": "C97",
   "status": "proved",
   "theorems": [
    "C97_loss"
   ],
   "note": "np.trapz and argmin of the code."
  },
  {
   "property": "C98",
   "status": "proved",
   "theorems": [
    "C98_numbers",
    "C98_grid",
    "C98_per_pdf",
    "C98_repeated",
    "C98_single"
   ],
   "note": "Proved for all reachable ensembles (Prop_Fit.v)."
  },
  {
   "property": "C99",
   "status": "proved",
   "theorems": [
    "C99_paired",
    "C99_single",
    "C99_one_reference",
    "C99_proper",
    "C99_ad",
    "C99_unknown"
   ],
   "note": "Samples are the input of the model (what rvs returned)."
  },
  {
   "property": "C100",
   "status": "proved",
   "theorems": [
    "C100_pooled",
    "C100_one"
   ],
   "note": "Pooling is a finding: the statistic is not that of the single PDFs."
  },
  {
   "property": "C101",
   "status": "proved",
   "theorems": [
    "C101_last",
    "C101_none",
    "C101_misfit"
   ],
   "note": "Exact behaviour of eval_from_iterator for arbitrary digest functions (pytdigest is a parameter)."
  },
  {
   "property": "C102",
   "status": "proved",
   "theorems": [
    "C102_samples",
    "C102_single",
    "C102_one",
    "C102_none",
    "C102_table",
    "C102_ensemble",
    "C102_empty",
    "C102_ks",
    "C102_cvm",
    "C102_trim"
   ],
   "note": "Exact behaviour of PIT, including kstest/cramervonmises against the uniform distribution; anderson_ksamp is not modelled."
  },
  {
   "property": "C103",
   "status": "proved",
   "theorems": [
    "C103_create",
    "C103_hidden",
    "C103_snapshot",
    "C103_stale",
    "C103_keep"
   ],
   "note": "Complete for the factory; method resolution of metric_name and the constructors of the metric classes are not modelled."
  },
  {
   "property": "C104",
   "status": "proved",
   "theorems": [
    "C104_hist",
    "C104_hist_formula",
    "C104_interp",
    "C104_packed",
    "C104_grid",
    "C104_ratio"
   ],
   "note": "Complete for hist, interp, packed_interp and the two grid sums; scipy's moment/stats machinery is modelled from its documented behaviour."
  },
  {
   "property": "C105",
   "status": "proved",
   "theorems": [
    "C105_table",
    "C105_once",
    "C105_between",
    "C105_short",
    "C105_lengths"
   ],
   "note": ""
  },
  {
   "property": "C106",
   "status": "proved",
   "theorems": [
    "C106_rows",
    "C106_hist",
    "C106_interp",
    "C106_irregular",
    "C106_quant",
    "C106_mixmod"
   ],
   "note": ""
  },
  {
   "property": "C107",
   "status": "proved",
   "theorems": [
    "C107_grid",
    "C107_ends",
    "C107_single_mixture"
   ],
   "note": ""
  },
  {
   "property": "C108",
   "status": "partial",
   "theorems": [
    "C108_sf",
    "C108_scalar_partial",
    "C108_isf_refuted"
   ],
   "note": "sf for every class and every shape of points; isf at one number. False on grids: C108_isf_refuted; exact: C109."
  },
  {
   "property": "C109",
   "status": "proved",
   "theorems": [
    "C109_isf",
    "C109_reversed"
   ],
   "note": "isf is ppf of the complement, as whole arrays; the reversal for increasing grids."
  },
  {
   "property": "C110",
   "status": "proved",
   "theorems": [
    "C110_hist",
    "C110_irr",
    "C110_interp"
   ],
   "note": "hist, interp_irregular exact; interp with the exact condition."
  },
  {
   "property": "C111",
   "status": "proved",
   "theorems": [
    "C111_chunks",
    "C111_exact"
   ],
   "note": "digest library is a parameter obeying digest_laws/summarises"
  },
  {
   "property": "C112",
   "status": "proved",
   "theorems": [
    "C112_mad",
    "C112_raises",
    "C112_constant",
    "C112_order",
    "C112_perfect"
   ],
   "note": "digest's cdf assumed monotone; argsort any sorting permutation"
  },
  {
   "property": "C113",
   "status": "proved",
   "theorems": [
    "C113_chunks",
    "C113_reachable",
    "C113_one",
    "C113_zeros",
    "C113_none"
   ],
   "note": "digest library is a parameter obeying digest_laws"
  },
  {
   "property": "C114",
   "status": "proved",
   "theorems": [
    "C114_splines",
    "C114_bounds"
   ],
   "note": ""
  },
  {
   "property": "C115",
   "status": "proved",
   "theorems": [
    "C115_shape",
    "C115_proper"
   ],
   "note": ""
  },
  {
   "property": "C116",
   "status": "proved",
   "theorems": [
    "C116_xy",
    "C116_shapes",
    "C116_negative",
    "C116_ranges"
   ],
   "note": "splrep interpolating and homogeneous, quad exact: parameters with these laws"
  },
  {
   "property": "C117",
   "status": "proved",
   "theorems": [
    "C117_samples"
   ],
   "note": "gaussian_kde is an arbitrary parameter"
  },
  {
   "property": "C118",
   "status": "proved",
   "theorems": [
    "C118_allocation",
    "C118_missing",
    "C118_quantiles",
    "C118_splines"
   ],
   "note": ""
  },
  {
   "property": "C119",
   "status": "proved",
   "theorems": [
    "C119_roundtrip",
    "C119_others"
   ],
   "note": ""
  },
  {
   "property": "C120",
   "status": "proved",
   "theorems": [
    "C120_within",
    "C120_default",
    "C120_central",
    "C120_limits",
    "C120_rows",
    "C120_histograms"
   ],
   "note": ""
  },
  {
   "property": "C121",
   "status": "partial",
   "theorems": [
    "C121_independent_partial",
    "C121_shared_refuted",
    "C121_view_refuted",
    "C121_tables_refuted",
    "C121_lengths_refuted"
   ],
   "note": "Proved for users who give each dictionary away once, and ensembles not related by slices (C121_independent_partial). False in general: shared dictionaries, slices and from_tables(build_tables()) (C121_*_refuted). Exact rules are C122."
  },
  {
   "property": "C122",
   "status": "proved",
   "theorems": [
    "C122_frame",
    "C122_own_dict",
    "C122_memory",
    "C122_careful",
    "C122_lengths",
    "C122_window",
    "C122_copies",
    "C122_tables",
    "C122_both"
   ],
   "note": ""
  },
  {
   "property": "C123",
   "status": "proved",
   "theorems": [
    "C123_formula",
    "C123_uniform",
    "C123_same_number",
    "C123_edges",
    "C123_default_size"
   ],
   "note": "samples are a parameter; counts, widths and the clash of axis names are exact"
  },
  {
   "property": "C124",
   "status": "proved",
   "theorems": [
    "C124_mixture",
    "C124_fit_error",
    "C124_defaults"
   ],
   "note": "samples and the Gaussian fit are parameters"
  },
  {
   "property": "C125",
   "status": "proved",
   "theorems": [
    "C125_laws",
    "C125_tails",
    "C125_total",
    "C125_integral"
   ],
   "note": "the normal law is the integral of its density; its total is proved, not assumed"
  },
  {
   "property": "C126",
   "status": "proved",
   "theorems": [
    "C126_methods",
    "C126_log",
    "C126_norm",
    "C126_grid"
   ],
   "note": "Logarithms of pdf, cdf and 1-cdf for every reachable ensemble; normal ensembles: logpdf only."
  },
  {
   "property": "C127",
   "status": "proved",
   "theorems": [
    "C127_xy",
    "C127_samples",
    "C127_default",
    "C127_grid",
    "C127_others"
   ],
   "note": "laws of splrep, quad and gaussian_kde are hypotheses, met by the examples"
  },
  {
   "property": "C128",
   "status": "proved",
   "theorems": [
    "C128_sources",
    "C128_bases",
    "C128_fails",
    "C128_convert",
    "C128_tail"
   ],
   "note": "The integers are those of the modelled pursuit (C74, C75), for any Voigt profile, square root and solver; the result is described when each decoded sum is non-negative and not zero."
  },
  {
   "property": "C129",
   "status": "proved",
   "theorems": [
    "C129_even",
    "C129_differ",
    "C129_margin_needed"
   ],
   "note": "binary64 by Coq's SpecFloat; magnitudes up to 2^1000"
  },
  {
   "property": "C130",
   "status": "proved",
   "theorems": [
    "C130_error",
    "C130_again"
   ],
   "note": "binary64; linear packing only"
  },
  {
   "property": "C131",
   "status": "proved",
   "theorems": [
    "C131_points",
    "C131_near",
    "C131_default",
    "C131_short"
   ],
   "note": "binary64; the number of points only, not the points"
  },
  {
   "property": "C132",
   "status": "proved",
   "theorems": [
    "C132_normal",
    "C132_any_order"
   ],
   "note": "binary64; summation order: any"
  },
  {
   "property": "C133",
   "status": "proved",
   "theorems": [
    "C133_create",
    "C133_inputs",
    "C133_arguments",
    "C133_moment",
    "C133_kld",
    "C133_rbpe",
    "C133_outlier",
    "C133_fit",
    "C133_brier",
    "C133_pit",
    "C133_cde",
    "C133_points",
    "C133_chunks"
   ],
   "note": "For all keyword dictionaries; the functions the metrics call are those of the other properties (C104, C43, C45, C111, ...)."
  },
  {
   "property": "C134",
   "status": "proved",
   "theorems": [
    "C134_rows",
    "C134_one_row",
    "C134_number"
   ],
   "note": "pdf, cdf and ppf of every reachable ensemble."
  },
  {
   "property": "C135",
   "status": "proved",
   "theorems": [
    "C135_value",
    "C135_mismatch",
    "C135_one_sample",
    "C135_outlier",
    "C135_endless"
   ],
   "note": "Includes the calls that never return (scalar parameters of norm)."
  },
  {
   "property": "C136",
   "status": "proved",
   "theorems": [
    "C136_value",
    "C136_in_bin",
    "C136_created",
    "C136_order",
    "C136_above_one"
   ],
   "note": ""
  },
  {
   "property": "C137",
   "status": "proved",
   "theorems": [
    "C137_hist",
    "C137_interp",
    "C137_irr",
    "C137_packed",
    "C137_same",
    "C137_quant"
   ],
   "note": "exact arithmetic; rows of area 0 (divided by 0 in the code) excluded"
  },
  {
   "property": "C138",
   "status": "proved",
   "theorems": [
    "C138_value",
    "C138_smallest",
    "C138_errors",
    "C138_order",
    "C138_rows",
    "C138_meta",
    "C138_symmetric",
    "C138_monotone"
   ],
   "note": "scipy's p-value and critical values are not modelled"
  },
  {
   "property": "C139",
   "status": "proved",
   "theorems": [
    "C139_two_ways",
    "C139_value",
    "C139_density",
    "C139_ensemble",
    "C139_cut_differs",
    "C139_levels_differ",
    "C139_index",
    "C139_integers"
   ],
   "note": "Voigt profile and square root arbitrary functions; division by 0 (no value above the cut, Nsigma*Nv = 0) outside the claims."
  },
  {
   "property": "C140",
   "status": "proved",
   "theorems": [
    "C140_made",
    "C140_cut_lost",
    "C140_errors"
   ],
   "note": "All clauses proved over the real numbers with the true Voigt profile (Voigt.v) and the default cut; the loss of a given cut is a machine-checked example (rational numbers, triangular profile)."
  },
  {
   "property": "C141",
   "status": "proved",
   "theorems": [
    "C141_builds",
    "C141_area",
    "C141_cdf",
    "C141_in_cell",
    "C141_order",
    "C141_above_one"
   ],
   "note": "Double-precision model: bounds hold for every grid and row in the stated range; C141_above_one records that 1 can be exceeded at the last grid point for several PDFs"
  },
  {
   "property": "C142",
   "status": "proved",
   "theorems": [
    "C142_drift",
    "C142_succeeds",
    "C142_changes"
   ],
   "note": ""
  },
  {
   "property": "C143",
   "status": "proved",
   "theorems": [
    "C143_value",
    "C143_created",
    "C143_order",
    "C143_beyond",
    "C143_infinite"
   ],
   "note": ""
  },
  {
   "property": "C144",
   "status": "proved",
   "theorems": [
    "C144_pdf",
    "C144_rising",
    "C144_single",
    "C144_negative"
   ],
   "note": ""
  },
  {
   "property": "C145",
   "status": "proved",
   "theorems": [
    "C145_ppf",
    "C145_order",
    "C145_alone",
    "C145_beyond",
    "C145_infinite"
   ],
   "note": "Proved for all grids and tables in the stated ranges; C145_beyond and C145_infinite are witnesses for what does not hold."
  },
  {
   "property": "C146",
   "status": "proved",
   "theorems": [
    "C146_weights",
    "C146_drift",
    "C146_succeeds",
    "C146_changes"
   ],
   "note": "weights only; means and standard deviations are not changed by these operations. SciPy's normal pdf/cdf are parameters of the model."
  },
  {
   "property": "C147",
   "status": "proved",
   "theorems": [
    "C147_one_truth",
    "C147_one_pdf",
    "C147_refused",
    "C147_none",
    "C147_differs"
   ],
   "note": ""
  },
  {
   "property": "C148",
   "status": "proved",
   "theorems": [
    "C148_paired",
    "C148_single",
    "C148_one_reference",
    "C148_pooled",
    "C148_most",
    "C148_least"
   ],
   "note": "Pinsker's inequality for two coins, midpoint rule for the convex function x ln x - 2x^2 + 2/3 x^3, and the symmetry of the midpoints; then C99/C100 for every calling form."
  },
  {
   "property": "C149",
   "status": "proved",
   "theorems": [
    "C149_columns",
    "C149_loc",
    "C149_scale",
    "C149_numbers",
    "C149_none",
    "C149_mixed",
    "C149_lengths",
    "C149_unknown"
   ],
   "note": "Zero and negative scales are accepted and answer NaN; a column with a scalar is rejected."
  },
  {
   "property": "C150",
   "status": "proved",
   "theorems": [
    "C150_mixture",
    "C150_not_mixture",
    "C150_grid",
    "C150_sources",
    "C150_never",
    "C150_key",
    "C150_unused"
   ],
   "note": "extract_voigt_mixmod, extract_voigt_xy and extract_xy_sparse for all reachable ensembles; the sparse extraction never returns"
  },
  {
   "property": "C151",
   "status": "proved",
   "theorems": [
    "C151_select",
    "C151_concatenate",
    "C151_quantiles"
   ],
   "note": "targets hist, interp, interp_irregular (selection and concatenation) and quant (selection)"
  },
  {
   "property": "C152",
   "status": "proved",
   "theorems": [
    "C152_rmse",
    "C152_kld",
    "C152_kld_spoiled",
    "C152_outlier",
    "C152_pit"
   ],
   "note": "Keys other than integers; KLD law under the hypothesis that no divergence on the grid is negative, and the exact effect of a negative one."
  },
  {
   "property": "C153",
   "status": "proved",
   "theorems": [
    "C153_scale"
   ],
   "note": "Classes hist, interp, interp_irregular, mixmod."
  },
  {
   "property": "C154",
   "status": "proved",
   "theorems": [
    "C154_units",
    "C154_uniform",
    "C154_unequal",
    "C154_tiny"
   ],
   "note": "Classes hist (under the condition on numpy's closeness test), interp, interp_irregular, packed_interp, norm: pdf, cdf, ppf; mixmod: pdf, cdf. Numbers and increasing lists of points."
  },
  {
   "property": "C155",
   "status": "proved",
   "theorems": [
    "C155_pit",
    "C155_outlier",
    "C155_rmse",
    "C155_moment",
    "C155_kld"
   ],
   "note": "PIT, outlier rate, RMSE, moments, KLD under a change of units; the floor of the logarithm limits the KLD clause, and offsets the moments"
  },
  {
   "property": "C156",
   "status": "proved",
   "theorems": [
    "C156_shares",
    "C156_reordered"
   ],
   "note": "pdf and cdf only; the ppf of mixtures interpolates on a grid that depends on all components (C54, C69)"
  },
  {
   "property": "C157",
   "status": "proved",
   "theorems": [
    "C157_interp",
    "C157_first",
    "C157_irregular"
   ],
   "note": "interp: full; the change for the first interval and for interp_irregular is proved by computed witnesses"
  },
  {
   "property": "C158",
   "status": "proved",
   "theorems": [
    "C158_split",
    "C158_edge"
   ],
   "note": "cdf everywhere, pdf off the edges, ppf for positive values; change at an edge proved by a computed witness"
  },
  {
   "property": "C159",
   "status": "proved",
   "theorems": [
    "C159_mode",
    "C159_units",
    "C159_select"
   ],
   "note": "specification of the mode for all histories; NaN densities do not occur in the model"
  },
  {
   "property": "C160",
   "status": "proved",
   "theorems": [
    "C160_convert",
    "C160_both",
    "C160_created"
   ],
   "note": "Targets hist (bins), interp and interp_irregular (xvals); the pair of ensembles is any that answers pdf (or cdf, for hist) alike up to units; C160_both shows that parameters in two units give such pairs."
  },
  {
   "property": "C161",
   "status": "partial",
   "theorems": [
    "C161_linear",
    "C161_cdf_ppf",
    "C161_constant_refuted"
   ],
   "note": "Default density proved in full; cdf and ppf under the stated law of scipy's quadratic interpolation; the claim is refuted for the piecewise_constant constructor."
  },
  {
   "property": "C162",
   "status": "partial",
   "theorems": [
    "C162_new",
    "C162_axes",
    "C162_refuses",
    "C162_several_refuted",
    "C162_label_refuted"
   ],
   "note": "One PDF proved for new and given axes; the promises for several PDFs and for axis labels are refuted. matplotlib's figure, axes and plot calls are translated by hand (Plotting.v); the limits of the user's axes are assumed not to be autoscaled."
  },
  {
   "property": "C163",
   "status": "proved",
   "theorems": [
    "C163_native",
    "C163_axes",
    "C163_several",
    "C163_npts"
   ],
   "note": "plot_native of interp and packed_interp; for hist see C164, for quant C165, for interp_irregular C166; plot_native of spline is not modelled"
  },
  {
   "property": "C164",
   "status": "proved",
   "theorems": [
    "C164_native",
    "C164_axes",
    "C164_several"
   ],
   "note": "plot_native of hist with at least two bins; matplotlib's scatter and hist are part of the trusted translation (PlotHist.v)"
  },
  {
   "property": "C165",
   "status": "proved",
   "theorems": [
    "C165_native",
    "C165_axes",
    "C165_label"
   ],
   "note": "plot_native of quant with the two constructors whose density depends on the selected PDF only; matplotlib's scatter and plot are part of the trusted translation (PlotQuant.v)"
  },
  {
   "property": "C166",
   "status": "proved",
   "theorems": [
    "C166_native",
    "C166_axes",
    "C166_npts"
   ],
   "note": "plot_native of interp_irregular for one selected PDF; several PDFs are not modelled"
  }
 ]
}