# Formal model of scipp's core in Rocq (Coq 8.16.1)

The subject is `/repo` (scipp, C++). The code is not built or run here; the only tie between the
theorems and the code is the reading of the source. Every definition of a `*_Model.v` file cites the
file and lines it models and says where it simplifies.

## Layout

* `rocq/theories/Base.v` – result type (`Ok`, `Throw e`, `Ub`), list and `Z` helpers.
* `X_Model.v` – executable model of one part of the code, no proofs.
* `X_Spec.v` – independent, small specification of that part (no model helper used).
* `X_Proofs.v` – lemmas.
* `X_Props.v` – only the property theorems (`exact lemma`), `Print Assumptions`, and examples showing
  the hypotheses are met by a concrete non-trivial case.

Conventions

* `scipp::index` (int64) is modelled by unbounded `Z` unless the property is about overflow.
* An exception is `Throw e`; undefined behaviour (out-of-bounds access, division by zero, ...) is the
  distinct outcome `Ub`. A theorem that says `= Ok ...` therefore also says "no exception, no UB".
* Floating-point data is modelled as (a) an abstract type with the operations as section variables
  where the property does not depend on arithmetic (data movement, partitioning), (b) exact rationals
  `Q` or reals where the property is an algebraic identity (rebin, uncertainty propagation), (c) exact IEEE
  arithmetic where the property is about rounding or NaN. The choice is stated per property.
* Threads: TBB's `parallel_for` is modelled as "some partition of the range into blocks, executed in
  some interleaving of the blocks' element steps".

## Trusted base

* Coq's kernel (`coqc`, `coqchk`) and its `vm_compute`.
* Axioms of the standard library only (classical reals, functional extensionality); see "Axioms used".
  Flocq is used for IEEE arithmetic; it adds no axioms of its own.
* The reading of the C++ code: what each definition models is cited beside it. Nothing connects the
  model to the code mechanically.
* Assumed of libraries the code calls: `std::sort`/TBB sort return an ordered permutation;
  `std::lower_bound`/`upper_bound`/`binary_search` follow their specification on partitioned ranges (modelled as
  bisection where the result on unordered input matters); `std::pow(x, 1) = x` for the one theorem that says so; Eigen multiplies,
  inverts and applies quaternions, matrices and affine transforms by the formulas of its documentation (C53).
* Not modelled anywhere: memory allocation, template dispatch (`dtype` selection), the LLNL units
  library, TBB's scheduler itself, the Python layer except index normalisation.

## Plan per property

| id | what is modelled | how it is proved |
|----|------------------|------------------|
| C01 | `Dim::Dim(string)`, `name()`; steps = locked regions of each thread | invariant over histories for sequential use; counterexample interleaving for the concurrent case, invariant for schedules where first-time constructions of labels do not race |
| C02 | `small_stable_map`, `Sizes::set/resize`, `Dimensions::add/addInner` as two parallel lists | refinement to an abstract finite map + order list, by induction over operation lists |
| C03 | `Dict` of `dict.h` (parallel key/value vectors) | same |
| C04 | `merge`, `intersection`, `includes` | induction over the label lists with a loop invariant for the iterator into `b` |
| C05 | `Strides(Dimensions)`, `flat_index_from_strides`, `extract_indices`, `Dimensions::offset` | induction over the shape |
| C06, C07, C08 | `Variable` views (dims, strides, offset, buffer, readonly) and all view operations | denotational semantics: a labelled index is mapped to an address; per-operation lemma + induction over chains |
| C09 | `ViewIndex` state machine | invariant relating carry chain to the mixed-radix digits of the position |
| C10, C11 | `MultiIndex`, `flatten_dims`, bin stepping | same, with explicit guard where flattening is wrong + counterexample |
| C12 | block loop of `transform_elements` over a shared output | disjointness of written addresses gives commutation of steps; induction over interleavings |
| C13 | `overlaps`, `transform_in_place_impl` on one shared buffer | interval argument on `memory_bounds`; counterexample for all-zero strides |
| C14, C45 | `do_accumulate` chunking, `pretend_bins_for_threading` | arithmetic on chunk bounds, fold lemmas |
| C15 | `ValueAndVariance` operators | over `R`: partial derivatives (stdlib `Reals`), non-negativity |
| C16 | `bad_variance_broadcast`, `correlated` | decision procedure equals spec on strides |
| C17, C38 | `concat`, `fold`, `flatten` on contents | denotational semantics of arrays |
| C18 | `get_slice_params` | lemmas on `lower_bound`/`upper_bound` |
| C19 | `get_bin`, `upper_bound` lookup, linspace fast path | order lemmas over `Q`; NaN as separate case |
| C20, C22, C24 | event mapping, subbin sizes, target indices | list/permutation reasoning: output = concatenation over bins of `filter` |
| C21 | `SubbinSizes` | abstraction to zero-padded function `Z -> Z` |
| C23 | `TargetBinBuilder::build` index arithmetic | mixed-radix arithmetic; counterexample when a non-trivial axis precedes the sparse one |
| C25 | `element::rebin`, `rebin_non_inner` | over `Q`; loop invariant against overlap sum |
| C26 | `expect_valid_bin_indices` | sorting lemma |
| C27 | `combine`, `copy_slices` | list reasoning on bin contents |
| C28–C33 | `SizedDict`, `DataArray`, `Dataset` | invariants over operation lists; equivalences for union/intersection |
| C34 | `MakeGroups`, `MakeBinGroups`, `reduce_` | partition of positions |
| C35, C36 | `IndicesForSorting`, `extract_impl`, `slice_by_list` | permutation / filter equivalence |
| C37 | `cumsum` kernels, `contiguous_indices` | induction |
| C39 | `floor_divide`, `remainder`, `pow` | `Z` arithmetic, IEEE rounding of the integer→double conversion for the counterexample |
| C40 | `islinspace`, `isarange` | list induction; counterexample for `isarange` |
| C41 | `detail::rename_dims` | simulation against simultaneous renaming; counterexample for chains |
| C42 | buffers with several views and copies | heap model |
| C43 | `to_unit` integer kernels | `Z`/`Q` rounding |
| C44 | `event_operations` lookups | reuse of C19 |
| C46 | `Variable::compare` | relation lemmas |
| C47 | unit combination rules on top of an abstract group of unit exponents | the LLNL library is a section parameter (commutative group with partiality) |
| C48 | reductions with NaN | fold lemmas over an option-like value type |

Properties found to be false of the code get a `..._refuted` theorem with an explicit witness and a
positive theorem with the exact guard.

## What is and what is not modelled

| Files | Modelled | Left out or simplified |
|---|---|---|
| `Map`, `Dims` | `small_stable_map`, `Sizes`, `Dimensions`, `Strides` helpers, `Slice` | iterators as indices |
| `Index`, `Machine` | `MultiIndex` (dense and binned), `ViewIndex` | index arithmetic unbounded except in `Machine` |
| `View`, `Reshape` | `ArrayView`/`Variable` views: slice, transpose, broadcast, fold; copies; `flatten`, `fold` of data arrays | dtype and unit; the check of the `DataArray` constructor; every item on its own |
| `Label`, `LabelSlice` | `Dim` registry; `get_slice_params` by value and range | coord and label of one dtype; slicing of the metadata is in `SizedDict`/`Dataset` |
| `Transform`, `BinTransform`, `BinIndex` | `transform`, `transform_in_place`, block-wise parallel loop, binned operands, aliasing check | kernels as functions on elements |
| `Accumulate`, `Reduce`, `NanReduce`, `Parallel` | `accumulate_in_place`, chunking, threads; `sum`, `nansum`, `min`, `max`, `all`, `any`, `mean` | one task runs without interruption; float32 accumulation in double not modelled; `NanReduce` serial only |
| `Float`, `Numeric`, `Linspace`, `Lookup` | binary64 via Flocq; integer division, `remainder`, `pow`; `islinspace`, `isarange`; bin lookup | one NaN (no payloads); integer overflow only where the property is about it |
| `Histogram`, `Rebin`, `Cumsum` | histogram kernels, `rebin` (inner and non-inner), `cumsum` | `rebin` over the reals |
| `Subbin`, `BinKernel`, `Mapper`, `TargetBins` | `SubbinSizes`, bin kernels, `map_to_bins`, `TargetBinBuilder` | `sum` inside the mapper as a sequential fold |
| `Bins`, `BinConcat` | `copy_slices`, `combine`, `concatenate`, `resize_default_init` | event columns as lists of abstract values |
| `ValueVar`, `VarFloat`, `Variance` | `ValueAndVariance`, correlation checks | over the reals (`VarFloat`: binary64); units as powers of one base unit; a copied broadcast operand is not seen as correlated, in code and model |
| `SizedDict`, `Union`, `Equality`, `Dataset`, `DsArith` | `SizedDict`, union of coords and masks, `==`, `Dataset` histories, in-place dataset arithmetic | item names as numbers; mutable iterators; `setSlice`; binned data in `==`; alignment flags where not cited |
| `Mask`, `MaskFloat` | masked reductions, `irreducible_mask`, mask union | masks by value; order of error kinds in `mask_or` not significant; no `DataArray` constructor check after a reduction |
| `Concat` | `concat` of dense variables and of `Sizes` | dtype and variances, binned data, coords of data arrays |
| `Extract`, `Sort` | `extract_ranges`, `extract`, index lists, Python slices, `sort` | rows along the dimension as abstract values; columns of a dataset as one list; sorting as the relation "ordered permutation" |
| `GroupBy` | `groupby`: groups by value and by bins, reductions and mean of dense data | groups processed one after the other; order of the hash map as any permutation; counts as integers; no `concat`, no metadata of the output |
| `EventLookup` | `buckets::map`, `buckets::scale`, `lookup_previous`, `masked_data`, `subspan_view` | one coordinate dtype; units and dtypes as agreement flags; memory only as the stride of the looked-up dimension; coord and mask checks of `scale` |
| `ToUnit` | `to_unit` of integers and time points, `safe_cast`, rounding | the factor of `quick_convert` as a given double with a bounded relative error; float and vector elements |
| `Units` | operators on units, `sqrt`, `pow`, trigonometric functions, units of `transform`, comparison, `where`, `isclose`, self-arithmetic, `pow_handle_unit` | multipliers are exact reals (the external library rounds to doubles and compares approximately); flags, commodities, counting units left out; data elements are reals |
| `Sharing` | histories of `Variable` construction, shallow copy, views (`View`), `copy`, `copy(from, to)`, `setSlice`, in-place operations (`Transform`), element access, `setUnit`, dropping variances, `set_aligned`, assignment; `setVariances` as a separate function | an element is a value with its variance; a failing operation has no effect (dtype or variance errors are raised before the first write); views into structured elements (`x`, `y`, `z` of vectors) and binned variables left out; buffers are never freed |
| `ConcatDa` | concatenation of data arrays (lib/dataset/shape.cpp 21-129): joining bin edges, broadcasting and keeping items, dictionaries, alignment, building the result; memory with the schedules of the element loops as in `Concat` | dtypes and variances left out, elements compared by given functions; binned data not modelled; the memory after an exception is unconstrained; Dataset concat (131-146) not modelled |
| `SetSlice` | assigning to slices: variables (lib/variable/variable.cpp 206-236), masks (lib/dataset/sized_dict.cpp 301-336), data arrays (lib/dataset/data_array.cpp 136-154), datasets (lib/dataset/dataset.cpp 237-263), with the schedules of the element loops | dense data; an element is a value with a variance; dtype, unit and presence of variances of a buffer are fixed; attributes not modelled (they are not assigned) |
| `Density` | lib/dataset/counts.cpp: bin widths, toDensity, fromDensity, for data arrays and datasets; isCounts, isCountDensity of lib/units/unit.cpp | real numbers instead of doubles; arrays are functions of a labelled position; variances and masks are left out; a read-only or partial view is a flag of the data |
| `Nesting` | check_nested_in_assign of variables, data arrays and datasets, and the assignments that call it; setting a coord of an element | a variable is the buffer it refers to and the indices it sees; a data array or dataset is the list of its variables; stack depth is a parameter of the checks |
| `Spatial` | products, application, inverse and conversion of units of rotations, matrices, translations and affine transforms, with units | real numbers; one element; the formulas of Eigen (quaternion product, rotation matrix, inverse by cofactors, affine times matrix as set of points) are taken from its documentation |
| `Astype` | astype of variables and data arrays, common_type, promotion of bin edges and coords before comparing | IEEE conversions, round to nearest even; NaN without payload; buffers are numbers; integer narrowing modulo 2^32; binned data left out |
| `DictIter` | `core::Dict` (dict.h) with the memory of its two vectors: address, capacity, reallocation by insertion, reserve and copy assignment, storage changing hands by move assignment; iterators over items, keys and values with their check for changes, `find`, range-for loops with arbitrary bodies over any number of dicts | addresses counted in elements; allocator and growth policy are parameters; `TransformIterator` (applies a function to the same items) and destruction of dicts left out; a reference or pointer obtained from an iterator is used at once |
| `BinMeta` | what `bin` (dataset/bin.cpp) does around the events: `validate_bin_args`, `axis_actions` and the builder, dimensions of the output, `hide_masked` (bins_util.h), `drop_grouped_event_coords`, `add_metadata`, and the width of the target indices | variables are items (buffer and view) without values, so `allsorted` is a given predicate; indices of bins are functions of the position; the conversion of a single dense table into bins (`pretend_bins_for_threading`) is in `TargetBins`; target indices with two's complement wrap on overflow |
| `GroupConcat` | `GroupBy::concat` (groupby.cpp 111-126) and `groupby_concat_bins` (bin.cpp 546-580) with `join` and `erase` of the builder: axes, joined dimensions, metadata, and the targets of events for groups by value (`groups_to_map`, `update_indices_by_grouping`) and by edges | dimensions and metadata as in `BinMeta`, targets and mapping of events as in `TargetBins` and `Mapper`; edges of a joined dimension are a given item per dimension (min and max are not computed); keys are 1-D; datasets not modelled |
| `Subspan` | `subspan_view`, `make_indices`, `make_range` (subspan_view.cpp), `transform_subspan`, `as_contiguous` and `allsorted` (util.cpp), `histogram` of dense data (histogram.cpp 25-92) and `rebin` (rebin.cpp) for any number of dimensions | units, dtypes and variances (kernels take any type of weights); index and span variables are functions of labelled indices (C10); kernels run one after the other, in any order; a weight read behind its span is reported even if the coordinate is in no bin; masks and splitting for threads are in `Histogram` |
| `BinAppend` | `combine`, `concatenate` and `append` (lib/dataset/bins.cpp 240-320) for binned variables of any shape and layout, `setDataHandle`; order of the steps of `append` for data arrays | the element-wise index arithmetic is that of `Bins` on lists in row-major order; outcome of the comparison of coords is a parameter; units, datasets as buffers |
| `MakeLinspace` | `linspace` (lib/variable/util.cpp 19-44) for `double`, elements at labelled indices | `float`; whether units and dtypes agree are parameters; `copy` into the slices is a function of the index (C10, C37) |
| `Midpoints` | `midpoints` (lib/variable/math.cpp 10-31), element function `midpoint` for integers, time points and `double` (element/math.h 20-46, 178-193; the branch for C++17), slices of labelled arrays | `float`; the branch for C++20; units (both operands are the same variable) |

Properties without a theorem yet are absent from `MANIFEST.json`.

## Axioms used

`Print Assumptions` of every theorem listed in `MANIFEST.json` (each `*_Props.v` file also prints its own):

* Closed under the global context (303 theorems): C02_stable_map_history, C02_sizes_history, C02_dimensions_construct, C03_dict_history, C03_dict_from_list, C04_merge_fails_iff_conflict, C04_merge_keeps_order_of_both, C04_merge_identity_when_included, C04_merge_commutes_in_extents, C04_merge_associative_in_extents, C04_intersection, C04_includes, C04_sizes_merge, C05_positions_one_to_one, C05_flat_index_is_row_major, C05_extract_then_flatten, C05_flatten_then_extract, C05_offset_is_stride, C05_volume, C41_rename_dims_partial, C41_rename_dims_refuted, C01_labels_partial, C01_labels_sequential, C01_construct_succeeds, C01_labels_refuted, C09_history, C09_walk, C09_construct, C10_positions_iff, C10_history_partial, C10_block_partial, C10_construct, C10_refuted, C06_slice, C06_constructors, C06_compose, C06_commute, C06_range_length, C07_chain, C07_step, C07_dims_transpose, C08_writable_one_to_one, C08_readonly_kept, C08_write_rejected, C08_write_local, C11_block_partial, C11_serial_partial, C11_increments_partial, C11_jump_partial, C11_accept_partial, C11_reject_partial, C11_refuted, C12_transform, C12_transform_total, C12_binned, C13_in_place_partial, C13_total, C13_reject, C13_refuted, C14_accumulate, C14_deterministic, C14_data_partial, C14_refuted, C45_chunks, C45_pretend_bins, C45_grains, C39_power, C39_power_negative, C40_isarange_partial, C40_isarange_sorted_partial, C40_isarange_refuted, C40_islinspace_int_partial, C40_islinspace_int_refuted, C19_sorted_int, C20_mapper, C20_conserved, C20_one_dim, C20_row_major_refuted, C21_plus, C21_plus_equals, C21_sum, C21_cumsum_exclusive, C21_add_intersection, C21_scan, C21_flatten, C21_scan_unshifted_refuted, C22_two_stage, C23_target_unique, C26_accept, C26_no_alias, C26_apart, C26_empty_refuted, C27_concatenate, C27_shapes, C27_append, C27_append_array, C27_append_array_case, C27_nan_refuted, C27_append_transposed_refuted, C27_append_slice_refuted, C27_append_failed_refuted, C37_cumsum_dim, C37_cumsum, C37_cumsum_bins, C37_integers, C37_differences, C37_packing, C16_detects, C16_accepts, C16_in_place, C16_unit, C16_length_one_refuted, C16_empty_refuted, C16_unit_none_refuted, C28_set, C28_make, C28_history, C28_rename, C28_sizes_refuted, C28_rename_refuted, C29_slice, C29_dict, C29_empty_range_refuted, C31_union, C31_in_place, C31_in_place_refuted, C31_reduce, C31_serial, C31_parallel, C31_mean, C31_mean_order_refuted, C31_kept, C31_all, C33_delay, C33_apply, C33_apply_missing, C33_shared_operand_refuted, C33_shared_items_refuted, C33_exchanged_refuted, C33_masks_refuted, C33_no_unit_refuted, C33_coord_refuted, C32_item, C32_set_variable, C32_strip_refuted, C17_concat, C17_cover, C17_slices, C17_dims, C17_units, C17_missing_dimension_refuted, C17_order_refuted, C17_units_refuted, C17_sizes, C17_sizes_single_refuted, C17_sizes_empty_refuted, C38_flatten, C38_fold, C38_fold_flatten, C38_flatten_fold, C38_fold_edges, C38_flatten_edges, C38_edges_fold_flatten, C38_edges_flatten_fold, C38_extra_dimension_refuted, C38_extra_dimension_dropped_refuted, C38_edge_dimension_refuted, C38_no_rows_refuted, C38_fold_volume_refuted, C38_nan_refuted, C18_value, C18_bin, C18_bin_unique, C18_range, C18_range_bins, C18_reversed, C18_unsorted, C18_errors, C18_order_integer, C18_constant_refuted, C18_empty_refuted, C18_empty_range_refuted, C18_empty_bin_refuted, C18_nan_refuted, C36_condition, C36_list, C36_bins, C36_errors, C36_py_slice, C36_py_slice_negative, C36_index, C36_nan_refuted, C36_stride_refuted, C35_sort, C35_dataset, C35_length, C35_order_integer, C35_exists, C35_unique, C35_dataset_refuted, C35_fixed_nan_refuted, C34_groups, C34_exist, C34_partition, C34_order_integer, C34_bins, C34_bins_partition, C34_edges_integer, C34_errors, C34_reduce, C34_reduce_bins, C34_mean, C34_mean_bins, C34_serial, C34_parallel, C34_label, C34_mean_mask_refuted, C34_edge_key_refuted, C34_nan_hash_refuted, C44_map_errors, C44_previous_int, C44_previous_nan_refuted, C44_previous_edges_refuted, C42_histories, C42_copy, C42_copy_succeeds, C42_independent, C42_copy_independent, C42_shared, C42_set_slice, C42_set_slice_succeeds, C42_copy_to, C42_unit_whole, C42_flatten_shares_refuted, C42_set_variances_partial, C42_set_variances_refuted, C49_join_edges, C49_join_error, C49_maps, C49_missing, C49_data_array, C49_succeeds, C49_no_bins_refuted, C49_order_refuted, C49_length_refuted, C49_alignment_refuted, C50_variable, C50_dataset_variable, C50_dataset_variable_refuted, C52_check_variable, C52_check_array, C52_rejected, C52_rejected_array, C52_root, C52_no_cycle, C52_slice_refuted, C52_mixed_refuted, C52_bins_refuted, C52_array_mixed_refuted, C52_set_coord_refuted, C54_common, C54_common_when, C55_item, C55_keys_values, C55_changed_size, C55_find, C55_loop, C55_visits, C55_visits_items, C55_const, C55_contents, C55_history, C55_replaced_refuted, C55_reuse_refuted, C56_axes, C56_shape, C56_hide, C56_metadata, C56_rejects, C56_index, C56_existing_mask_refuted, C56_edges_ignored_refuted, C56_table_index_refuted, C56_edge_mask_refuted, C56_coord_attr_refuted, C57_metadata, C57_conflict, C57_concat, C57_dimension_coord_refuted, C57_unaligned_coord_refuted, C57_unknown_dim_refuted, C57_order_refuted, C57_nan_refuted, C58_spans, C58_as_contiguous, C58_transform, C58_stride_refuted, C58_new_dim_refuted, C60_int, C60_int_laws, C60_midpoints, C60_errors, C60_symmetric_refuted.
* Axioms `ClassicalDedekindReals.sig_forall_dec` (1 theorems): C53_to_unit_which.
* Axioms `ClassicalDedekindReals.sig_forall_dec`, `ClassicalDedekindReals.sig_not_dec`, `Classical_Prop.classic`, `FunctionalExtensionality.functional_extensionality_dep` (159 theorems): C39_division_partial, C39_division_int32_partial, C39_division_refuted, C39_overflow_refuted, C40_islinspace_f64_partial, C40_islinspace_f64_refuted, C40_islinspace_nan_refuted, C19_sorted_f64, C19_linspace_int_partial, C19_linspace_f64_partial, C19_nan_edges_refuted, C19_linspace_width_refuted, C19_unsorted_refuted, C19_linspace_f64_refuted, C20_table, C20_groups_refuted, C23_rebin, C23_order_refuted, C23_twice_refuted, C23_zero_width_refuted, C24_histogram, C24_histogram_f64, C24_total, C24_split, C24_threads, C24_masked, C24_split_float_refuted, C24_unsorted_refuted, C58_histogram, C58_histogram_f64, C25_zero_width_refuted, C25_empty_refuted, C25_conserved_float_refuted, C27_along_dim, C37_exclusive_float_refuted, C15_unary, C15_nonneg_float, C15_mixed_float_refuted, C15_overflow_refuted, C16_self, C16_self_divide_refuted, C30_union, C30_order, C30_attrs, C30_operation, C30_in_place, C30_in_place_nan_refuted, C46_variables, C46_equivalence, C46_layout, C46_dicts, C46_data_arrays, C46_vectors_refuted, C31_doubles, C31_nansum, C31_nansum_refuted, C48_nan, C48_nansum_refuted, C48_max, C48_min, C48_extrema_refuted, C48_mean, C48_mean_refuted, C48_mean_empty, C48_nanmean, C48_nanmean_masked, C48_nanmean_infinite_refuted, C32_step, C32_history, C32_set_data, C32_slice, C32_rename, C32_merge, C32_set_coords_refuted, C32_failure_refuted, C32_aligned_dropped_refuted, C32_slice_item_refuted, C32_merge_sizes_refuted, C32_merge_unaligned_refuted, C18_order_float, C35_order_float, C35_nan, C34_order_float, C34_edges_float, C34_infinity_refuted, C44_map_int_partial, C44_map_f64_partial, C44_previous_f64_partial, C44_scale_int_partial, C44_scale_f64_partial, C44_unsorted_refuted, C44_mask_order_refuted, C44_scale_infinity_refuted, C43_errors, C43_nearest_partial, C43_finer_partial, C43_round_trip_partial, C43_int32_total, C43_saturates_partial, C43_nearest_refuted, C43_finer_refuted, C43_overflow_refuted, C43_factor_refuted, C43_round_trip_refuted, C47_pow_in_place_refuted, C47_self, C47_self_refuted, C50_data_array, C50_coords, C50_dataset, C50_dataset_missing, C50_dataset_array, C50_atomic_refuted, C50_dataset_array_coords_refuted, C50_whole_refuted, C54_nearest, C54_special, C54_to_int, C54_to_bool, C54_monotone, C54_exact, C54_promoted_less, C54_promoted_exact, C54_variable, C54_fails, C54_array, C54_promotion_refuted, C54_strict_refuted, C54_back_refuted, C54_wrap_refuted, C56_rebin_masked, C57_values, C57_bins, C57_masked, C57_explicit_key_refuted, C58_histogram, C58_histogram_f64, C58_weights_refuted, C58_both_dims_refuted, C59_linspace, C59_linspace_errors, C59_accepted, C59_accepted_small_refuted, C59_accepted_falling_refuted, C59_accepted_case, C59_histogram, C59_histogram_case, C59_linspace_overflow_refuted, C59_linspace_single_refuted, C59_linspace_strict_refuted, C59_linspace_case, C60_f64, C60_special, C60_special_case, C60_f64_laws, C60_laws_case, C60_rising, C60_midpoints_case, C60_large_case.
* Axioms `ClassicalDedekindReals.sig_forall_dec`, `ClassicalDedekindReals.sig_not_dec`, `FunctionalExtensionality.functional_extensionality_dep` (4 theorems): C47_sqrt, C47_functions, C47_sqrt_meaning, C47_sin.
* Axioms `ClassicalDedekindReals.sig_forall_dec`, `FunctionalExtensionality.functional_extensionality_dep` (63 theorems): C25_rebin, C25_descending, C25_layout, C25_conserved, C25_identity, C25_variance_refuted, C58_rebin, C58_rebin_descending, C15_binary, C15_mixed, C15_nonneg, C15_minmax, C47_add, C47_none, C47_none_none, C47_defined, C47_commutative, C47_associative, C47_identity, C47_inverse, C47_closed, C47_associative_refuted, C47_identity_refuted, C47_pow, C47_pow_refuted, C47_compare, C47_compare_fails, C47_logical, C47_where, C47_isclose, C47_meaning, C47_commensurable, C47_less, C47_pow_meaning, C47_floor_divide_refuted, C47_in_place, C51_to_density, C51_from_density, C51_unchanged, C51_round_trip, C51_round_trip_one, C51_no_edges, C51_no_coord, C51_dataset, C51_dataset_input_refuted, C51_dataset_atomic_refuted, C51_round_trip_refuted, C51_cancel_refuted, C53_apply, C53_rotation, C53_compose, C53_inverse, C53_inverse_right, C53_inverse_exists, C53_closed, C53_to_unit, C53_normalized_refuted, C53_affine_linear_refuted, C53_linear_unit_refuted, C53_inverse_none_refuted, C58_rebin, C58_rebin_descending, C58_layout_refuted.
