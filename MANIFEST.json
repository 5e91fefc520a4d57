{
 "claims": [
  {
   "property": "C02",
   "status": "proved",
   "theorems": [
    "C02_stable_map_history",
    "C02_sizes_history",
    "C02_dimensions_construct"
   ],
   "note": ""
  },
  {
   "property": "C03",
   "status": "proved",
   "theorems": [
    "C03_dict_history",
    "C03_dict_from_list"
   ],
   "note": "reserve() has no observable effect and is not modelled; iterator invalidation checks not modelled"
  },
  {
   "property": "C04",
   "status": "proved",
   "theorems": [
    "C04_merge_fails_iff_conflict",
    "C04_merge_keeps_order_of_both",
    "C04_merge_identity_when_included",
    "C04_merge_commutes_in_extents",
    "C04_merge_associative_in_extents",
    "C04_intersection",
    "C04_includes",
    "C04_sizes_merge"
   ],
   "note": ""
  },
  {
   "property": "C05",
   "status": "proved",
   "theorems": [
    "C05_positions_one_to_one",
    "C05_flat_index_is_row_major",
    "C05_extract_then_flatten",
    "C05_flatten_then_extract",
    "C05_offset_is_stride",
    "C05_volume"
   ],
   "note": "extract_indices is only claimed for shapes without a zero extent (no valid flat index otherwise)"
  },
  {
   "property": "C41",
   "status": "partial",
   "theorems": [
    "C41_rename_dims_partial",
    "C41_rename_dims_refuted"
   ],
   "note": "pairs are applied one after the other, so the statement fails for chains/swaps (refuted); proved for chain-free pairs"
  },
  {
   "property": "C01",
   "status": "partial",
   "theorems": [
    "C01_labels_partial",
    "C01_labels_sequential",
    "C01_construct_succeeds",
    "C01_labels_refuted"
   ],
   "note": "false for schedules in which two threads race on the same new label (refuted); proved for all race-free schedules and for sequential use"
  },
  {
   "property": "C09",
   "status": "proved",
   "theorems": [
    "C09_history",
    "C09_walk",
    "C09_construct"
   ],
   "note": "element addresses relative to the offset; more than six unmergeable dimensions overrun the arrays (C09_rank_seven_refuted)"
  },
  {
   "property": "C10",
   "status": "partial",
   "theorems": [
    "C10_positions_iff",
    "C10_history_partial",
    "C10_block_partial",
    "C10_construct",
    "C10_refuted"
   ],
   "note": "false for stride patterns where flatten_dims merges a dimension broadcast in all operands (refuted, exact condition proved)"
  },
  {
   "property": "C06",
   "status": "proved",
   "theorems": [
    "C06_slice",
    "C06_constructors",
    "C06_compose",
    "C06_commute",
    "C06_range_length"
   ],
   "note": "composition of an empty second range is covered by C06_slice (no elements); offsets of empty slices are not compared"
  },
  {
   "property": "C07",
   "status": "proved",
   "theorems": [
    "C07_chain",
    "C07_step",
    "C07_dims_transpose"
   ],
   "note": "also covers flatten (with its copy, whose contract is that element k of the copy is element k of the view); renaming to the invalid label is excluded"
  },
  {
   "property": "C08",
   "status": "proved",
   "theorems": [
    "C08_writable_one_to_one",
    "C08_readonly_kept",
    "C08_write_rejected",
    "C08_write_local"
   ],
   "note": "shallow copies share all fields, so a copy is the same view"
  },
  {
   "property": "C11",
   "status": "partial",
   "theorems": [
    "C11_block_partial",
    "C11_serial_partial",
    "C11_increments_partial",
    "C11_jump_partial",
    "C11_accept_partial",
    "C11_reject_partial",
    "C11_refuted"
   ],
   "note": "false for stride patterns broadcast in the sense of C10 (refuted); proved for all others, for all bin layouts including arrays without bins"
  },
  {
   "property": "C12",
   "status": "proved",
   "theorems": [
    "C12_transform",
    "C12_transform_total",
    "C12_binned"
   ],
   "note": "dense operands: also never fails for compatible shapes; binned operands: bins of the output do not overlap. In-place on binned data: C12_binned_in_place_partial"
  },
  {
   "property": "C13",
   "status": "partial",
   "theorems": [
    "C13_in_place_partial",
    "C13_total",
    "C13_reject",
    "C13_refuted"
   ],
   "note": "false for a view whose strides are all zero that lies inside the output (refuted, overlaps() misses it); proved for all other operands"
  },
  {
   "property": "C14",
   "status": "partial",
   "theorems": [
    "C14_accumulate",
    "C14_deterministic",
    "C14_data_partial",
    "C14_refuted"
   ],
   "note": "chunking, parallel blocks and scheduling for dense data: proved; false when a dimension is stretched in all operands, e.g. the sum over a broadcast dimension between two others (refuted); binned inputs not modelled here"
  },
  {
   "property": "C45",
   "status": "proved",
   "theorems": [
    "C45_chunks",
    "C45_pretend_bins",
    "C45_grains"
   ],
   "note": "TBB splitting is modelled from its documented semantics"
  },
  {
   "property": "C39",
   "status": "partial",
   "theorems": [
    "C39_division_partial",
    "C39_division_int32_partial",
    "C39_division_refuted",
    "C39_overflow_refuted",
    "C39_power",
    "C39_power_negative"
   ],
   "note": "floor division goes through double: exact for dividends below 2^53, wrong above (refuted); integer powers proved"
  },
  {
   "property": "C40",
   "status": "partial",
   "theorems": [
    "C40_isarange_partial",
    "C40_isarange_sorted_partial",
    "C40_isarange_refuted",
    "C40_islinspace_int_partial",
    "C40_islinspace_int_refuted",
    "C40_islinspace_f64_partial",
    "C40_islinspace_f64_refuted",
    "C40_islinspace_nan_refuted"
   ],
   "note": "the tests look at absolute differences, so zig-zag arrays pass (refuted); proved for sorted integers and for doubles whose spacing is large compared to the tolerance"
  },
  {
   "property": "C19",
   "status": "partial",
   "theorems": [
    "C19_sorted_int",
    "C19_sorted_f64",
    "C19_linspace_int_partial",
    "C19_linspace_f64_partial",
    "C19_nan_edges_refuted",
    "C19_linspace_width_refuted",
    "C19_unsorted_refuted",
    "C19_linspace_f64_refuted"
   ],
   "note": "general lookup proved for all sorted edges without NaN; fast path proved for sorted integer edges of width below 2^63 and for doubles whose spacing is large compared to the tolerance of islinspace; false at large magnitude (refuted)"
  },
  {
   "property": "C20",
   "status": "partial",
   "theorems": [
    "C20_table",
    "C20_mapper",
    "C20_conserved",
    "C20_one_dim",
    "C20_row_major_refuted",
    "C20_groups_refuted"
   ],
   "note": "tables with integer coordinates: proved in full (C20_table), for any number of axes; binned data: see also C23_rebin; events from several rebinned input dimensions are not in row-major input order inside a bin (refuted); duplicate group labels can pass the check for contiguous labels (refuted). Masks and dimensions of the result: C56. Missing: 2-D edges, floating-point axes in one statement (lookup of floats is C19)"
  },
  {
   "property": "C21",
   "status": "proved",
   "theorems": [
    "C21_plus",
    "C21_plus_equals",
    "C21_sum",
    "C21_cumsum_exclusive",
    "C21_add_intersection",
    "C21_scan",
    "C21_flatten",
    "C21_scan_unshifted_refuted"
   ],
   "note": "proved for ranges that shift monotonically, as stated; without that the scan loses entries (refuted)"
  },
  {
   "property": "C22",
   "status": "proved",
   "theorems": [
    "C22_two_stage"
   ],
   "note": "same output buffer and bin sizes as the one-stage mapping, for all shapes, orders of dimensions and targets"
  },
  {
   "property": "C23",
   "status": "partial",
   "theorems": [
    "C23_rebin",
    "C23_target_unique",
    "C23_order_refuted",
    "C23_twice_refuted",
    "C23_zero_width_refuted"
   ],
   "note": "holds when the shortcut axis comes after axes of length 1 only (C23_rebin); otherwise refuted with witnesses. Masks: C56. Missing: 2-D bin-edge coordinates, float coordinates"
  },
  {
   "property": "C24",
   "status": "partial",
   "theorems": [
    "C24_histogram",
    "C24_histogram_f64",
    "C24_total",
    "C24_split",
    "C24_threads",
    "C24_masked",
    "C24_split_float_refuted",
    "C24_unsorted_refuted",
    "C58_histogram",
    "C58_histogram_f64"
   ],
   "note": "per-bin sums hold for any addition, including floating point; splitting holds for associative and commutative addition and is refuted bit by bit for doubles; unsorted edges with even steps are accepted (refuted). Multi-dimensional data, coords and edges in any memory layout: C58_histogram, C58_histogram_f64. Missing: that dimension of the edges in the other dimensions of the data (rejected, see C58)"
  },
  {
   "property": "C25",
   "status": "partial",
   "theorems": [
    "C25_rebin",
    "C25_descending",
    "C25_layout",
    "C25_conserved",
    "C25_identity",
    "C25_variance_refuted",
    "C25_zero_width_refuted",
    "C25_empty_refuted",
    "C25_conserved_float_refuted",
    "C58_rebin",
    "C58_rebin_descending"
   ],
   "note": "over the real numbers for contents with any commutative addition, ascending and descending edges, both code paths; old edges strictly monotonic. Variances depend on the memory layout, old bins of width zero give NaN or the full content depending on it, an empty histogram reads out of bounds, and sums of doubles are conserved only up to rounding (refuted). Other dimensions, 2-D edges and any memory layout: C58_rebin, C58_rebin_descending. Missing: integer and time edges, bounds on rounding"
  },
  {
   "property": "C26",
   "status": "partial",
   "theorems": [
    "C26_accept",
    "C26_no_alias",
    "C26_apart",
    "C26_empty_refuted"
   ],
   "note": "acceptance of index arrays characterised exactly and non-aliasing proved; one-sided corner case with empty bins inside other bins refuted as stated (they are rejected depending on the order)"
  },
  {
   "property": "C27",
   "status": "partial",
   "theorems": [
    "C27_concatenate",
    "C27_shapes",
    "C27_append",
    "C27_append_array",
    "C27_append_array_case",
    "C27_along_dim",
    "C27_nan_refuted",
    "C27_append_transposed_refuted",
    "C27_append_slice_refuted",
    "C27_append_failed_refuted"
   ],
   "note": "two binned arrays of any shapes that agree in common dimensions, with any strides (C27_shapes): every column of every bin joined, for any bin layout incl. gaps and shuffled bins; along a dimension for all shapes and orders of writes. A NaN scalar event coordinate makes concatenation throw (refuted). In place (C27_append) for arrays that are not views; for data arrays exactly when it succeeds and what is kept otherwise (C27_append_array); appending to a transposed array mixes up the bins, appending to a slice throws or, with further dimensions, gives wrong bins, and a failing append of data arrays leaves changed masks (refuted). Missing: units, buffers that are datasets"
  },
  {
   "property": "C37",
   "status": "partial",
   "theorems": [
    "C37_cumsum_dim",
    "C37_cumsum",
    "C37_cumsum_bins",
    "C37_integers",
    "C37_differences",
    "C37_packing",
    "C37_exclusive_float_refuted"
   ],
   "note": "any element type for the inclusive scan and integers for the exclusive one; the exclusive scan of floats subtracts and is refuted (inf gives NaN, large elements hide the prefix)"
  },
  {
   "property": "C15",
   "status": "partial",
   "theorems": [
    "C15_binary",
    "C15_mixed",
    "C15_unary",
    "C15_nonneg",
    "C15_minmax",
    "C15_nonneg_float",
    "C15_mixed_float_refuted",
    "C15_overflow_refuted"
   ],
   "note": "formulas of ValueAndVariance equal first-order propagation (squared partial derivatives times variances) over the real numbers, for both operands with variances, mixed operands and all unary functions; doubles: variances never negative without overflow, but inf and overflow give NaN (refuted). Missing: error bounds of rounding for doubles"
  },
  {
   "property": "C16",
   "status": "proved",
   "theorems": [
    "C16_detects",
    "C16_accepts",
    "C16_in_place",
    "C16_self",
    "C16_unit",
    "C16_length_one_refuted",
    "C16_empty_refuted",
    "C16_unit_none_refuted",
    "C16_self_divide_refuted"
   ],
   "note": "every operand with variances accepted by the check is read once per output element, for all layouts reachable by views; with all extents >= 2 nothing else is rejected. Refuted corner cases: an operand lacking a dimension of extent 1 or of an empty output is rejected, a*a and a/a without unit are rejected, a/a in doubles is 1 with NaN variance at 0"
  },
  {
   "property": "C28",
   "status": "partial",
   "theorems": [
    "C28_set",
    "C28_make",
    "C28_history",
    "C28_rename",
    "C28_sizes_refuted",
    "C28_rename_refuted"
   ],
   "note": "exact acceptance of set; invariant for all histories of set, erase, slice, rename, resize, alignment, merge, copy, as_const under two guards: renamed labels belong to the dictionary, and new dimensions are not extra dimensions of an item. Without the guards refuted with witnesses. Missing: items modified through mutable iterators, binned items (rejected by set)"
  },
  {
   "property": "C29",
   "status": "proved",
   "theorems": [
    "C29_slice",
    "C29_dict",
    "C29_empty_range_refuted"
   ],
   "note": "for data arrays with any coords, masks, attrs: shapes, element addresses, alignment, read-only flags, and exact rejection (out of range, or a step together with bin edges). An empty range keeps no edge (refuted as a bin-edge coord)"
  },
  {
   "property": "C30",
   "status": "proved",
   "theorems": [
    "C30_union",
    "C30_order",
    "C30_attrs",
    "C30_operation",
    "C30_in_place",
    "C30_in_place_nan_refuted"
   ],
   "note": "for all pairs of coordinate dictionaries with distinct keys: exact success condition, exact contents of the result, independence of the operand order; in-place operations need all aligned coords of the right operand in the left one. In-place operations compare with == (NaN coords mismatch with themselves, refuted) while union_ uses equals_nan"
  },
  {
   "property": "C46",
   "status": "partial",
   "theorems": [
    "C46_variables",
    "C46_equivalence",
    "C46_layout",
    "C46_dicts",
    "C46_data_arrays",
    "C46_vectors_refuted"
   ],
   "note": "dense variables of scalar, integer and vector elements, dictionaries and data arrays: == exactly when contents agree, symmetric and transitive, independent of strides and offsets. equals_nan is not reflexive for NaN inside vectors (refuted). Missing: binned variables, datasets"
  },
  {
   "property": "C31",
   "status": "proved",
   "theorems": [
    "C31_union",
    "C31_in_place",
    "C31_in_place_refuted",
    "C31_reduce",
    "C31_serial",
    "C31_parallel",
    "C31_doubles",
    "C31_nansum",
    "C31_nansum_refuted",
    "C31_mean",
    "C31_mean_order_refuted",
    "C31_kept",
    "C31_all"
   ],
   "note": "Masks and dense data by their values at labelled indices. Refuted: in-place combination is not all-or-nothing; nansum with infinities is changed by masked elements; mean with masks may transpose its result."
  },
  {
   "property": "C48",
   "status": "proved",
   "theorems": [
    "C48_nan",
    "C48_nansum_refuted",
    "C48_max",
    "C48_min",
    "C48_extrema_refuted",
    "C48_mean",
    "C48_mean_refuted",
    "C48_mean_empty",
    "C48_nanmean",
    "C48_nanmean_masked",
    "C48_nanmean_infinite_refuted"
   ],
   "note": "Doubles, serial accumulation in order. nansum/nanmax/nanmin equal the plain reduction of the elements that are not NaN (nansum if none is infinite; refuted otherwise). max/min: NaN iff some NaN, otherwise a bound and an element, except that [-inf] has max lowest() and [inf] has min max() (refuted). mean is sum times the reciprocal of the count: within three half-ulps of the quotient, not the rounded quotient (refuted). nanmean with infinities depends on the presence of masks (refuted). float32 and variances not modelled."
  },
  {
   "property": "C33",
   "status": "partial",
   "theorems": [
    "C33_delay",
    "C33_apply",
    "C33_apply_missing",
    "C33_shared_operand_refuted",
    "C33_shared_items_refuted",
    "C33_exchanged_refuted",
    "C33_masks_refuted",
    "C33_no_unit_refuted",
    "C33_coord_refuted"
   ],
   "note": "Proved for all datasets whose items have buffers of their own, for any operand that may be (part of) one item, for all thread schedules: either every item is updated from the values before the operation and nothing else changes, or it throws and nothing changes. The statement for all aliasing patterns is false; each condition is shown to be needed: two items sharing the operand's buffer (one is silently skipped), items sharing a buffer (applied twice), operands exchanged between items, masks that cannot be combined, multiplication with itself without unit, coords sharing memory with data. Dense data, masks by value."
  },
  {
   "property": "C32",
   "status": "partial",
   "theorems": [
    "C32_step",
    "C32_history",
    "C32_item",
    "C32_set_data",
    "C32_set_variable",
    "C32_slice",
    "C32_rename",
    "C32_merge",
    "C32_set_coords_refuted",
    "C32_failure_refuted",
    "C32_aligned_dropped_refuted",
    "C32_slice_item_refuted",
    "C32_merge_sizes_refuted",
    "C32_merge_unaligned_refuted",
    "C32_strip_refuted"
   ],
   "note": "Proved for all histories of setData (variable, data array), erase, extract, clear, setCoord, erase of coords, set_aligned, setCoords, slice, rename_dims, merge and copy, failing calls included: every item has the dataset's dimensions and comes with its coords; a failing call changes nothing. Exact outcomes of each. Needed restriction on setCoords: its argument must have the dataset's dimensions and be writable (refuted otherwise). Further refutations: aligned coords dropped by setData, slicing and item access do not commute, merge changes sizes of datasets without items and refuses unaligned differences, strip_if_broadcast_along always throws. setSlice is C50. Not modelled: values of the data under slicing by reference beyond buffer and address, binned data."
  },
  {
   "property": "C17",
   "status": "partial",
   "theorems": [
    "C17_concat",
    "C17_cover",
    "C17_slices",
    "C17_dims",
    "C17_units",
    "C17_missing_dimension_refuted",
    "C17_order_refuted",
    "C17_units_refuted",
    "C17_sizes",
    "C17_sizes_single_refuted",
    "C17_sizes_empty_refuted"
   ],
   "note": "Proved for all lists of dense variables of any shape and memory layout, and all thread schedules: shape, every element from the input covering its position (exactly one), slices of the result equal the inputs, DimensionError if and only if a dimension of an input is not a dimension of the result. 'Fails exactly when the other dimensions mismatch' is false: inputs lacking a dimension are repeated along it, and whether the same inputs are accepted depends on their order (refuted). Different units are refused unless the first input is empty (refuted). core::concat of sizes proved for two or more inputs. Data arrays with coords and bin edges are C49. Not modelled: dtypes and variances, binned data."
  },
  {
   "property": "C38",
   "status": "partial",
   "theorems": [
    "C38_flatten",
    "C38_fold",
    "C38_fold_flatten",
    "C38_flatten_fold",
    "C38_fold_edges",
    "C38_flatten_edges",
    "C38_edges_fold_flatten",
    "C38_edges_flatten_fold",
    "C38_extra_dimension_refuted",
    "C38_extra_dimension_dropped_refuted",
    "C38_edge_dimension_refuted",
    "C38_no_rows_refuted",
    "C38_fold_volume_refuted",
    "C38_nan_refuted"
   ],
   "note": "Proved for all shapes: elements in row-major order, both round trips for data and metadata, folded edges enclose their data, flattened edges along the last flattened dimension of a coord with flattened dimensions only. Refuted otherwise: edges with a further dimension, along another flattened dimension, without rows, with NaN; fold next to a dimension of extent 0."
  },
  {
   "property": "C18",
   "status": "partial",
   "theorems": [
    "C18_value",
    "C18_bin",
    "C18_bin_unique",
    "C18_range",
    "C18_range_bins",
    "C18_reversed",
    "C18_unsorted",
    "C18_errors",
    "C18_order_integer",
    "C18_order_float",
    "C18_constant_refuted",
    "C18_empty_refuted",
    "C18_empty_range_refuted",
    "C18_empty_bin_refuted",
    "C18_nan_refuted"
   ],
   "note": "Slicing of the data of an array of any shape by label value and label range, for point coords and bin edges, ascending and descending, over any total order of the values (instances: integers and doubles without NaN). False as stated for constant coords and arrays without elements (range slices fail), for empty ranges with bin edges (select a bin, or fail at an empty bin), and for NaN bounds. Coord and label have the same dtype in the model; the slicing of coords and masks of the array is C29 and C32."
  },
  {
   "property": "C36",
   "status": "partial",
   "theorems": [
    "C36_condition",
    "C36_list",
    "C36_bins",
    "C36_errors",
    "C36_py_slice",
    "C36_py_slice_negative",
    "C36_index",
    "C36_nan_refuted",
    "C36_stride_refuted"
   ],
   "note": "Proved for all conditions and position lists: data, coords and masks of the result are exactly the selected rows in order, bin edges are dropped, binned data keep the contents of the selected bins; an error exactly if a position is out of range; Python slices with any bounds and positive steps. False as stated: any item without the dimension that contains NaN makes the selection fail, and a condition with a stride is refused. Rows along the dimension are abstract values; dtypes and units left out."
  },
  {
   "property": "C35",
   "status": "partial",
   "theorems": [
    "C35_sort",
    "C35_dataset",
    "C35_length",
    "C35_order_float",
    "C35_order_integer",
    "C35_nan",
    "C35_exists",
    "C35_unique",
    "C35_dataset_refuted",
    "C35_fixed_nan_refuted"
   ],
   "note": "Proved for every result an unstable sorting algorithm may return (any ordered permutation): one common permutation for data, coords and masks, the key is in order, NaN last (descending: first); such a result exists for every strict weak order, doubles with NaN included. False as stated for datasets with a key of another length (out-of-bounds read or lost rows) and for items without the dimension that contain NaN. parallel_sort itself is trusted to return an ordered permutation."
  },
  {
   "property": "C34",
   "status": "partial",
   "theorems": [
    "C34_groups",
    "C34_exist",
    "C34_partition",
    "C34_order_float",
    "C34_order_integer",
    "C34_bins",
    "C34_bins_partition",
    "C34_edges_float",
    "C34_edges_integer",
    "C34_errors",
    "C34_reduce",
    "C34_reduce_bins",
    "C34_mean",
    "C34_mean_bins",
    "C34_serial",
    "C34_parallel",
    "C34_label",
    "C34_mean_mask_refuted",
    "C34_edge_key_refuted",
    "C34_nan_hash_refuted",
    "C34_infinity_refuted"
   ],
   "note": "Proved for all keys, bin edges, data shapes and masks: the keys are the distinct values in ascending order, every position is in exactly one group (at most one bin), and reductions and means equal filter-then-reduce over the unmasked elements with that key; masked elements are dropped exactly (ignores_for). Refuted: the mean with a mask of further dimensions fails; a bin-edge coord is accepted as key and then fails at the reduction; NaN keys with different hashes form two groups; max of a group of -inf is the lowest finite number. Concat of bins is C57. Missing: copy of a group, datasets, coords and masks of the output, a reduced dimension other than that of the key; the hash of equal keys is assumed equal."
  },
  {
   "property": "C44",
   "status": "partial",
   "theorems": [
    "C44_map_int_partial",
    "C44_map_f64_partial",
    "C44_map_errors",
    "C44_previous_int",
    "C44_previous_f64_partial",
    "C44_scale_int_partial",
    "C44_scale_f64_partial",
    "C44_unsorted_refuted",
    "C44_previous_nan_refuted",
    "C44_previous_edges_refuted",
    "C44_mask_order_refuted",
    "C44_scale_infinity_refuted"
   ],
   "note": "Proved for multi-dimensional functions with masks: every element/event gets the value of the bin that contains it, or of the last point not greater; fill value (or multiplication by zero) outside and in masked bins; errors for coordinates that are not edges and unsorted ones. Missing: evenly spaced edges beyond the limits of C19, the conversions of mixed coordinate dtypes (int32/float points with double edges), the checks of coords and masks at the start of buckets::scale. Refuted: unsorted edges that pass the test of even spacing are accepted; NaN gets the last value in lookup_previous; lookup_previous with bin edges reads behind the end of the data; a mask with transposed dimensions makes the lookup fail; infinite events outside become NaN."
  },
  {
   "property": "C43",
   "status": "partial",
   "theorems": [
    "C43_errors",
    "C43_nearest_partial",
    "C43_finer_partial",
    "C43_round_trip_partial",
    "C43_int32_total",
    "C43_saturates_partial",
    "C43_nearest_refuted",
    "C43_finer_refuted",
    "C43_overflow_refuted",
    "C43_factor_refuted",
    "C43_round_trip_refuted"
   ],
   "note": "Proved for all factors p/q with p <= 2^39, q <= 2^49 given as a double to 2^-51 and scaled values up to 2^49 (integer factors: exact below 2^52): the result is a nearest integer, saturated; forth and back is the identity; int32 never wraps; the double path saturates. The statement for all 64-bit values is false: microseconds to nanoseconds of a present-day time point is off by 24 ns, int64 products overflow (undefined), a factor above 9e24 is an undefined cast, the round trip fails above 2^53. The factor of the external units library is a given double."
  },
  {
   "property": "C47",
   "status": "partial",
   "theorems": [
    "C47_add",
    "C47_none",
    "C47_none_none",
    "C47_defined",
    "C47_commutative",
    "C47_associative",
    "C47_identity",
    "C47_inverse",
    "C47_closed",
    "C47_associative_refuted",
    "C47_identity_refuted",
    "C47_sqrt",
    "C47_pow",
    "C47_pow_refuted",
    "C47_compare",
    "C47_compare_fails",
    "C47_logical",
    "C47_where",
    "C47_isclose",
    "C47_functions",
    "C47_meaning",
    "C47_commensurable",
    "C47_less",
    "C47_pow_meaning",
    "C47_sqrt_meaning",
    "C47_sin",
    "C47_floor_divide_refuted",
    "C47_in_place",
    "C47_pow_in_place_refuted",
    "C47_self",
    "C47_self_refuted"
   ],
   "note": "Proved for all units with exponents within the limits of the external library: adding and comparing fail for different units, none goes only with none, multiplication is commutative, division inverts it, associativity whenever both inner products exist, roots and powers; the result of an operation on data means the operation on quantities (floor_divide excepted). Idealised: multipliers are exact reals. False as stated: associativity when an intermediate exponent overflows, one times none, powers beyond 32 bits, floor_divide under a change of unit, in-place pow with an unsupported result unit, self-multiplication of unit none."
  },
  {
   "property": "C42",
   "status": "proved",
   "theorems": [
    "C42_histories",
    "C42_copy",
    "C42_copy_succeeds",
    "C42_independent",
    "C42_copy_independent",
    "C42_shared",
    "C42_set_slice",
    "C42_set_slice_succeeds",
    "C42_copy_to",
    "C42_unit_whole",
    "C42_flatten_shares_refuted",
    "C42_set_variances_partial",
    "C42_set_variances_refuted"
   ],
   "note": "Proved for all histories of creating, sharing, viewing, copying, assigning and writing dense variables, with any interleaving of the threads of the element loops: a copy shows what the original shows and no writes through variables of one family change the other; a view shows the elements and the unit of the original for all times and single writes are visible exactly at the corresponding elements; assigning to a slice stores the old values of an overlapping source; failing operations change nothing. Also found: flatten shares or copies depending on the layout; setVariances ignores the layout of its argument (wrong variances from slices and transposes, a too small array from a broadcast). Elements of structured dtypes and binned variables are not covered."
  },
  {
   "property": "C49",
   "status": "proved",
   "theorems": [
    "C49_join_edges",
    "C49_join_error",
    "C49_maps",
    "C49_missing",
    "C49_data_array",
    "C49_succeeds",
    "C49_no_bins_refuted",
    "C49_order_refuted",
    "C49_length_refuted",
    "C49_alignment_refuted"
   ],
   "note": "Proved for all lists of consistent data arrays with dense data of at most 5 dimensions, items of a key having one unit: whenever concat gives a result, it is a consistent data array with, in the block of every input, the elements of its data, coords, masks and attributes; bin edges are joined exactly if they meet, otherwise there is an error; concat succeeds for data that fit and items that are coords of the dimension or constant. Hypothesis: if the item of the first input depends on the dimension, so does that of every input of length other than 1 (C49_length_refuted shows that it is needed). Also found: an input without bins between two others is refused although its edges meet; a coord missing in one input is an error or silently dropped, depending on the order of the inputs; unaligned coords become aligned. dtypes and variances of the items and binned data are not modelled."
  },
  {
   "property": "C50",
   "status": "partial",
   "theorems": [
    "C50_variable",
    "C50_data_array",
    "C50_coords",
    "C50_dataset",
    "C50_dataset_missing",
    "C50_dataset_array",
    "C50_dataset_variable",
    "C50_atomic_refuted",
    "C50_dataset_array_coords_refuted",
    "C50_whole_refuted",
    "C50_dataset_variable_refuted"
   ],
   "note": "Proved for all variables, data arrays and datasets with dense data, coords and masks, all slices except the default slice, all strides and all schedules of the element loops: when it succeeds, that all parts in the slice get the values of the right-hand side as they were before, that nothing outside changes (whether it succeeds or not), that nothing changes if a check before the first change fails, and when items are missing. What is assigned to must not share memory with anything but the values assigned to it. Refuted: all or nothing (if data have a dimension that the slice does not have, masks have been changed before the error; for a variable assigned to a dataset, earlier items have been changed); assigning a data array with coords to a slice of a dataset (always an error if there are items: they are checked without the coords of the dataset); assigning with the default slice (masks are not assigned). Not modelled: binned data, attributes."
  },
  {
   "property": "C51",
   "status": "partial",
   "theorems": [
    "C51_to_density",
    "C51_from_density",
    "C51_unchanged",
    "C51_round_trip",
    "C51_round_trip_one",
    "C51_no_edges",
    "C51_no_coord",
    "C51_dataset",
    "C51_dataset_input_refuted",
    "C51_dataset_atomic_refuted",
    "C51_round_trip_refuted",
    "C51_cancel_refuted"
   ],
   "note": "Proved over the real numbers for all shapes, any number of dimensions, multi-dimensional edges and all units: value and unit of the result, exact success condition (exponents of the unit stay in the limits of the units library), data arrays as input unchanged. Refuted: datasets are modified in place although passed as constant, and partly if an item fails; the round trip fails for coords that count things and for units that cancel. Missing: variances, masks, rounding"
  },
  {
   "property": "C52",
   "status": "partial",
   "theorems": [
    "C52_check_variable",
    "C52_check_array",
    "C52_rejected",
    "C52_rejected_array",
    "C52_root",
    "C52_no_cycle",
    "C52_slice_refuted",
    "C52_mixed_refuted",
    "C52_bins_refuted",
    "C52_array_mixed_refuted",
    "C52_set_coord_refuted"
   ],
   "note": "Proved for all histories (any nesting of variables, data arrays, datasets and bins, any views): the checks end and are exact along elements of their own sort; rejected assignments would have made a cycle; no cycles of buffers if one sort of elements is used and views are whole. Refuted: slices of the same buffer, variables within data arrays within variables, bins, and coords set on elements make cycles that are not found; after the last the check does not end"
  },
  {
   "property": "C53",
   "status": "partial",
   "theorems": [
    "C53_apply",
    "C53_rotation",
    "C53_compose",
    "C53_inverse",
    "C53_inverse_right",
    "C53_inverse_exists",
    "C53_closed",
    "C53_to_unit",
    "C53_to_unit_which",
    "C53_normalized_refuted",
    "C53_affine_linear_refuted",
    "C53_linear_unit_refuted",
    "C53_inverse_none_refuted"
   ],
   "note": "Proved over the real numbers for all kinds, vectors and units: what applying does (quaternions against the product of Hamilton), lengths and orientation kept by rotations, composition with units for normalized quaternions and dimensionless rotations and matrices, except affine times matrix; inverses on both sides for all units, and when they exist; conversion of units. Refuted: quaternions that are not normalized, affine times matrix, matrices with a unit times translation, inverse of a matrix without unit. Missing: rounding; the formulas of Eigen are assumed as documented"
  },
  {
   "property": "C54",
   "status": "partial",
   "theorems": [
    "C54_nearest",
    "C54_special",
    "C54_to_int",
    "C54_to_bool",
    "C54_monotone",
    "C54_exact",
    "C54_common",
    "C54_common_when",
    "C54_promoted_less",
    "C54_promoted_exact",
    "C54_variable",
    "C54_fails",
    "C54_array",
    "C54_promotion_refuted",
    "C54_strict_refuted",
    "C54_back_refuted",
    "C54_wrap_refuted"
   ],
   "note": "Proved for all values in IEEE arithmetic: nearest number, infinities, NaN, truncation and exactly when it is undefined, weak order, lossless conversions there and back, algebra of the common dtype, variables with variances and failure conditions, sharing of masks. Promotion never reverses a comparison, and is exact for integers within 2^24 (float) or 2^53 (double). Refuted: an integer coord beyond 2^24 with float edges lands in the wrong bin; int64 to double merges numbers, back is undefined for the largest; int64 to int32 wraps silently. Missing: binned data, payload of NaN"
  },
  {
   "property": "C55",
   "status": "partial",
   "theorems": [
    "C55_item",
    "C55_keys_values",
    "C55_changed_size",
    "C55_find",
    "C55_loop",
    "C55_visits",
    "C55_visits_items",
    "C55_const",
    "C55_contents",
    "C55_history",
    "C55_replaced_refuted",
    "C55_reuse_refuted"
   ],
   "note": "Proved for all histories of operations on any number of dicts and all loop bodies. Iterators over items need an allocator that does not return an address a second time: C55_reuse_refuted shows a loop that reads freed memory with a correct allocator that does (only the vector of keys is checked, the values may have moved). Iterators over keys or values only need no such assumption. C55_replaced_refuted: removing one item and inserting another is not noticed, an item is skipped. Not modelled: destruction of the dict during the iteration, exceptions of the allocator or of copying elements."
  },
  {
   "property": "C56",
   "status": "partial",
   "theorems": [
    "C56_axes",
    "C56_shape",
    "C56_hide",
    "C56_rebin_masked",
    "C56_metadata",
    "C56_rejects",
    "C56_index",
    "C56_existing_mask_refuted",
    "C56_edges_ignored_refuted",
    "C56_table_index_refuted",
    "C56_edge_mask_refuted",
    "C56_coord_attr_refuted"
   ],
   "note": "Proved for binned data of any shape with any edges, groups and erased dimensions: exactly when arguments conflict and the error, order and extent of all axes, unchanged dimensions, which coords, masks and attributes the result has, that it is a consistent data array, which bins are hidden by masks, with C23 the events of all output bins, and the target index for up to 2^63 output bins. Refuted: a mask along an existing dimension inside a rebinned one is applied and also kept; edges are ignored without error if there are groups for the same existing dimension; for tables the type of the index is chosen by the number of rows, so events are lost or put in wrong bins with more than 2^31 output bins; masks with bin edges are an error; an attribute of the events with the name of a new coord gives a result whose meta() throws. Missing: bin with more than one dimension of edges on values (C20, C23), tables (their metadata follows the same code)"
  },
  {
   "property": "C57",
   "status": "partial",
   "theorems": [
    "C57_metadata",
    "C57_conflict",
    "C57_concat",
    "C57_values",
    "C57_bins",
    "C57_masked",
    "C57_explicit_key_refuted",
    "C57_dimension_coord_refuted",
    "C57_unaligned_coord_refuted",
    "C57_unknown_dim_refuted",
    "C57_order_refuted",
    "C57_nan_refuted"
   ],
   "note": "Proved for data arrays of any shape with any coords, masks and attributes: which dimensions the result has and in which order, which metadata it keeps, and that a repeated dimension is a DimensionError (C57_metadata, C57_conflict, C57_concat); for integer keys by value and by sorted edges, all shapes and all orders in which the events are written, that every output bin holds exactly the events of the input bins of its group, in order (C57_values, C57_bins, with masks C57_masked). Missing: keys of other dtypes (NaN is refuted), datasets (a loop over the items), and minimum and maximum of joined coords (a given function of the dimension). Refuted: an explicit key is ignored in favour of a coord of the same name (C57_explicit_key_refuted); grouping by the coord of the reduced dimension and reduced dimensions with a coord of several dimensions are errors (C57_dimension_coord_refuted, C57_unaligned_coord_refuted); a dimension that does not exist is accepted (C57_unknown_dim_refuted); the order of dimensions depends on which coords exist (C57_order_refuted); the events of the group NaN are lost (C57_nan_refuted)."
  },
  {
   "property": "C58",
   "status": "partial",
   "theorems": [
    "C58_spans",
    "C58_as_contiguous",
    "C58_transform",
    "C58_histogram",
    "C58_histogram_f64",
    "C58_rebin",
    "C58_rebin_descending",
    "C58_weights_refuted",
    "C58_both_dims_refuted",
    "C58_stride_refuted",
    "C58_layout_refuted",
    "C58_new_dim_refuted"
   ],
   "note": "Proved for data of any number of dimensions with any strides, coords and edges along any of the dimensions: spans are the lines of elements, the contiguous copy keeps the elements, kernels see the lines that belong together whatever the order of processing, and the results of histogram (integer and double coords) and rebin (real numbers, ascending and descending edges, all three ways through the code) in terms of the elements on the line. Refuted: a coord with one element more than the data along another dimension makes histogram read behind the weights; data with the dimension of the edges besides that of the coord are rejected; spans of one element with another stride are rejected; variances after rebin depend on the layout; new edges with a further dimension are rejected. Missing: masks and the table of one dimension split for threads around the multi-dimensional case (C24 has them for one dimension), kernels running at the same time."
  },
  {
   "property": "C59",
   "status": "partial",
   "theorems": [
    "C59_linspace",
    "C59_linspace_errors",
    "C59_accepted",
    "C59_accepted_small_refuted",
    "C59_accepted_falling_refuted",
    "C59_accepted_case",
    "C59_histogram",
    "C59_histogram_case",
    "C59_linspace_overflow_refuted",
    "C59_linspace_single_refuted",
    "C59_linspace_strict_refuted",
    "C59_linspace_case"
   ],
   "note": "Proved for doubles, all shapes, 2 <= num <= 2^50 + 1 and all finite end points whose difference does not overflow: finite values, first value start, last exactly stop, sorted in the direction of the end points, never outside of them, error at most 2^-49 (|start| + |stop|) + 2^-1072; the arguments that are accepted are exactly those of the statement (C59_linspace_errors); islinspace accepts the result for start < stop, end points up to 2^900 and at least one not below 2^-901 (C59_accepted); a histogram with such edges whose bins are not too narrow counts every event in the bin it lies in (C59_histogram). Refuted for other inputs: islinspace rejects the result for extremely small end points, and always if the values fall; end points whose difference overflows give NaN and infinity; num = 1 gives stop instead of start; values of different end points may repeat. Not modelled: float."
  },
  {
   "property": "C60",
   "status": "proved",
   "theorems": [
    "C60_int",
    "C60_f64",
    "C60_special",
    "C60_special_case",
    "C60_int_laws",
    "C60_f64_laws",
    "C60_laws_case",
    "C60_midpoints",
    "C60_errors",
    "C60_rising",
    "C60_symmetric_refuted",
    "C60_midpoints_case",
    "C60_large_case"
   ],
   "note": "Proved: for integers of any width (also time points) no overflow and the exact rounding; for all pairs of finite doubles no overflow and a single rounding, hence between the arguments; infinities and NaN (C60_special); monotone in both arguments, for doubles also symmetric and odd; for variables of any shape the dimensions, the elements and exactly which arguments are accepted; midpoints of finite rising edges rise and lie in their bins. C60_symmetric_refuted: the midpoint of integers depends on the order of the arguments (a stronger claim than C60). Not modelled: float (same code with other constants), which follow the arithmetic operations."
  }
 ]
}