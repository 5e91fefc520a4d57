{"id": "C01", "title": "Dimension labels are identified by name, whatever the history of label creation", "statement": "After any history of creating dimension labels from strings, two labels compare equal exactly when they were created from the same string, a label already handed out never changes its identity, and asking a label for its name returns the string it was created from.", "quantifier": "for all finite histories of label constructions (all strings, builtin and custom); for concurrent construction: for all interleavings of the lock-protected steps of any number of threads", "why_tests_cant": "The number of histories and thread interleavings is unbounded; the failing interleaving of two first-time constructions is a window of a few instructions that unit tests do not hit.", "anchors": ["lib/units/dim.cpp: Dim::Dim(const std::string&), Dim::name, custom_ids, builtin_ids", "lib/units/include/scipp/units/dim.h: Dim::Id"]}
{"id": "C02", "title": "Sizes/Dimensions behave as an insertion-ordered map with unique labels", "statement": "After any sequence of insert-left, insert-right, set, resize, assign, erase, rename-key and clear operations (failed ones included), a Sizes/Dimensions object contains every label at most once, lookups return the last extent stored for the label, the order is the insertion order with erased labels removed, a failed operation leaves the object unchanged, no extent is negative when only extents accepted by the API were stored, and index(), contains(), at() and iteration agree with each other.", "quantifier": "for all sequences of operations and all labels and extents", "why_tests_cant": "Tests try a few sequences of a few labels; the claim is about every reachable state.", "anchors": ["lib/core/sizes.cpp: small_stable_map, Sizes::set, Sizes::resize", "lib/core/dimensions.cpp: Dimensions::add, Dimensions::addInner"]}
{"id": "C03", "title": "Coord/mask/attr dictionaries behave as an insertion-ordered map", "statement": "After any sequence of insert-or-assign, erase, extract, reserve and clear, the dictionary holds exactly the last value stored under each key that was not removed since, iteration yields each key once in insertion order, positional access agrees with iteration, and removing or overwriting one entry does not disturb any other.", "quantifier": "for all histories of operations over all keys and values", "why_tests_cant": "Erase swaps/moves elements inside two parallel vectors; only an argument over all positions and all histories excludes a mix-up of keys and values.", "anchors": ["lib/core/include/scipp/core/dict.h: Dict::insert_or_assign, erase, extract, find, item_applies, Dict::Iterator"]}
{"id": "C04", "title": "Combining dimensions of two operands is the labelled union", "statement": "merge(a,b) fails exactly when the operands share a label with different extents; otherwise the result contains exactly the labels of a and b, each once, with their extents, keeps a's labels in a's relative order, keeps the labels only found in b in b's relative order, and equals a when a includes b. intersection(a,b) contains exactly the common labels. The merged extents are the same for merge(b,a), and merging is associative with respect to extents.", "quantifier": "for all pairs/triples of dimension lists of any length and any extents", "why_tests_cant": "The interleaving of labels from two ordered lists has combinatorially many cases (common labels in conflicting orders) of which tests sample few.", "anchors": ["lib/core/dimensions.cpp: merge, intersection", "lib/core/sizes.cpp: merge(Sizes, Sizes), Sizes::includes"]}
{"id": "C05", "title": "Flat index and multi-dimensional index are inverse to each other", "statement": "For every shape the row-major strides map the valid multi-dimensional indices one-to-one onto 0..volume-1, extracting the multi-index from a flat index and re-combining gives the flat index back, and Dimensions::offset agrees with the strides.", "quantifier": "for all shapes of any rank (including zero extents) and all indices", "why_tests_cant": "Unbounded rank and extents.", "anchors": ["lib/core/strides.cpp: Strides(Dimensions)", "lib/common/include/scipp/common/index_composition.h: flat_index_from_strides, extract_indices, memory_bounds", "lib/core/dimensions.cpp: Dimensions::offset"]}
{"id": "C06", "title": "Positional slicing composes and has exactly the advertised extents", "statement": "A slice is accepted exactly when it lies within the dimension; a range slice [b,e) with step s has ceil((e-b)/s) elements and element i is element b+i*s of the original; a point slice removes the dimension; slicing a slice equals one slice with composed begin/end/step; slices along different dimensions commute; all other dimensions keep position and extent.", "quantifier": "for all arrays, all slice parameters and all chains of slices", "why_tests_cant": "The product of ranks, extents, begins, ends, steps and chain lengths is unbounded.", "anchors": ["lib/core/slice.cpp: Slice::Slice", "lib/core/sizes.cpp: Sizes::slice", "lib/core/except.cpp: expect::validSlice", "lib/variable/variable.cpp: Variable::slice"]}
{"id": "C07", "title": "Every chain of view operations addresses exactly the right buffer element, in bounds", "statement": "For any chain of slice, transpose, broadcast, fold, rename and squeeze applied to a freshly created array, the element of the resulting view at a given labelled index is the buffer element obtained by mapping that labelled index back through the chain, and this address is inside the buffer.", "quantifier": "for all initial shapes, all chains of view operations of any length accepted by the API, and all labelled indices", "why_tests_cant": "A test checks a handful of chains; an off-by-one in stride or offset handling may need three composed operations to become visible.", "anchors": ["lib/variable/variable.cpp: slice, broadcast, fold, transpose, rename_dims", "lib/core/dimensions.cpp: transpose, fold", "lib/core/strides.cpp: transpose", "lib/variable/shape.cpp: squeeze, fold, transpose"]}
{"id": "C08", "title": "A writable view never maps two indices to one memory location; read-only is never lost", "statement": "In every view reachable by view operations and shallow copies from a fresh array: if the view is not read-only then distinct labelled indices refer to distinct buffer elements; views of read-only views are read-only; writing through a read-only view is rejected and changes nothing.", "quantifier": "for all chains of view operations and all pairs of indices", "why_tests_cant": "Aliasing shows only for particular combinations of broadcast/slice/fold; absence over all chains is not testable.", "anchors": ["lib/variable/variable.cpp: Variable::broadcast, as_const, is_readonly, expect_writable", "lib/variable/include/scipp/variable/variable.h"]}
{"id": "C09", "title": "Element iteration visits every element once in row-major order", "statement": "Iterating a strided element view from begin to end yields exactly volume elements, the k-th one being the element with row-major index k; jumping to position k gives the same state as k increments; begin equals end exactly for empty views; stepping never evaluates an address outside the buffer for a dereferenced element.", "quantifier": "for all shapes (any rank within the supported maximum, zero extents included), all strides (zero and non-contiguous included), all k", "why_tests_cant": "Iteration state is a carry chain over dimensions; failure may depend on rank, zero extents and length-1 dims in combination.", "anchors": ["lib/core/view_index.cpp: ViewIndex::ViewIndex", "lib/core/include/scipp/core/view_index.h: increment, set_index", "lib/core/element_array_view.cpp"]}
{"id": "C10", "title": "Multi-operand iteration addresses corresponding elements of all operands", "statement": "When several operands (some broadcast, transposed or sliced) are iterated together, after k steps the position in every operand is the address of the element with row-major index k of the iteration space, independent of how dimensions were internally merged, for increments, jumps and end positions.", "quantifier": "for all iteration shapes, all numbers of operands and all combinations of strides", "why_tests_cant": "Merging of contiguous dimensions depends on the stride pattern of all operands; the space of patterns is unbounded and the failing pattern (second-innermost dimension broadcast in all operands) is unusual.", "anchors": ["lib/core/multi_index.cpp: flatten_dims, can_be_flattened, MultiIndex::MultiIndex", "lib/core/include/scipp/core/multi_index.h: increment, set_index, set_to_end"]}
{"id": "C11", "title": "Iterating binned data visits every event of every bin once, bin by bin", "statement": "Iterating binned operands together visits bins in row-major order and inside each bin its events in order, skipping empty bins anywhere (first, last, consecutive); jumping to bin k gives the state reached by iteration; operands with differing bin sizes are rejected before any access.", "quantifier": "for all bin layouts (any number of bins, any begin/end per operand, empty bins anywhere)", "why_tests_cant": "Empty bins at all positions in all dimensions cannot be enumerated.", "anchors": ["lib/core/include/scipp/core/multi_index.h: increment, seek_bin/increment_outer, load_bin_params", "lib/core/multi_index.cpp: validate_bin_indices"]}
{"id": "C12", "title": "Elementwise operations do not depend on the thread schedule", "statement": "The result of an elementwise operation equals the pointwise result, for every way of splitting the iteration range into blocks and every interleaving of the blocks' element updates.", "quantifier": "for all inputs, all partitions of the range, all interleavings", "why_tests_cant": "Thread schedules cannot be enumerated by tests.", "anchors": ["lib/variable/include/scipp/variable/transform.h: transform_elements, do_transform, inner_loop, in_place_transform", "lib/core/include/scipp/core/parallel-tbb.h: blocked_range"]}
{"id": "C13", "title": "In-place operations see the operand values from before the operation", "statement": "`a op= b` leaves in a exactly the values a_old[i] op b_old[i] even if b is a (shifted, transposed, broadcast) view into the same memory as a, and changes no element outside a.", "quantifier": "for all buffers and all pairs of views into them", "why_tests_cant": "Overlap patterns of strided views are unbounded; the missed pattern (a view with all strides zero) is not covered by the tests.", "anchors": ["lib/variable/include/scipp/variable/transform.h: overlaps, transform_in_place_impl", "lib/core/element_array_view.cpp: overlaps", "lib/common/include/scipp/common/index_composition.h: memory_bounds"]}
{"id": "C14", "title": "Parallel reductions equal sequential reductions", "statement": "Reducing along dimensions gives the same result as folding the elements of each output bin one after the other, for every size of the reduced dimensions, with multi-threaded chunking enabled, for operations that are associative and commutative and whose initial value is neutral.", "quantifier": "for all input shapes, all choices of reduced dimensions, all chunkings", "why_tests_cant": "Chunk bounds depend on sizes modulo the chunk count; tests use few sizes; schedules are not enumerable.", "anchors": ["lib/variable/include/scipp/variable/accumulate.h: detail::do_accumulate, accumulate_in_place"]}
{"id": "C15", "title": "Uncertainty propagation is first-order Gaussian propagation and keeps variances non-negative", "statement": "For +,-,*,/, unary minus, pow, sqrt, exp, log, ... on values with variances the resulting value is the operation on the values, the variance is the sum of squared partial derivatives times input variances, and non-negative input variances give non-negative output variances; mixing operands with and without variances equals treating the missing variance as zero.", "quantifier": "for all real values and non-negative variances (where the operation is defined)", "why_tests_cant": "Identity over the reals.", "anchors": ["lib/core/include/scipp/core/value_and_variance.h"]}
{"id": "C16", "title": "Correlations are not silently ignored when broadcasting operands with variances", "statement": "An elementwise operation with an operand that has variances and would be implicitly broadcast (stretched) raises an error, and one that is not broadcast is not rejected for this reason; an operation of an operand with itself (a+a, a-a, a*a, a/a) uses the fully correlated formula.", "quantifier": "for all operand shapes and all variance flags", "why_tests_cant": "All combinations of shapes and flags.", "anchors": ["lib/variable/include/scipp/variable/transform.h: bad_variance_broadcast", "lib/variable/arithmetic.cpp: correlated, operator+,-,*,/"]}
{"id": "C17", "title": "Concatenation places every input element exactly once, in order", "statement": "concat along a dimension yields an array whose extent is the sum of the inputs' extents (1 for inputs lacking the dimension), whose element at a position is the element of the input covering that position, fails exactly when the other dimensions mismatch, and slicing the pieces back out gives the inputs.", "quantifier": "for all lists of inputs and all shapes", "why_tests_cant": "Unbounded number of inputs and shapes.", "anchors": ["lib/variable/shape.cpp: concat", "lib/core/sizes.cpp: concat"]}
{"id": "C18", "title": "Label-based slicing selects exactly the matching elements or bins", "statement": "Slicing by a label value selects the unique element whose coordinate equals it, or the bin containing it for bin-edge coordinates, and fails otherwise; slicing by a label range [b,e) selects exactly the elements with coordinate in [b,e) (for point coordinates), or the bins covering the range for bin edges, for ascending and descending coordinates.", "quantifier": "for all sorted coordinates of any length and all labels", "why_tests_cant": "All placements of the labels relative to the coordinate values, including duplicates and out-of-range labels.", "anchors": ["lib/dataset/slice.cpp: get_slice_params, get_1d_coord", "lib/variable/slice.cpp: get_slice_params"]}
{"id": "C19", "title": "Looking up the bin of a value in sorted or linearly spaced edges is exact", "statement": "For every value and sorted edges the lookup returns the unique bin i with edge[i] <= x < edge[i+1] and reports 'none' exactly if no such bin exists (NaN included); the fast path for linearly spaced edges returns the same bin as the general path.", "quantifier": "for all sorted edge arrays and all values", "why_tests_cant": "Boundary values and rounding for arbitrary edges.", "anchors": ["lib/core/include/scipp/core/histogram.h: get_bin, linear_edge_params", "lib/core/include/scipp/core/element/bin.h: update_indices_by_binning", "lib/core/include/scipp/core/element/histogram.h"]}
{"id": "C20", "title": "Binning is a stable partition of the selected events", "statement": "Binning a table or binned data by edges/groups puts every event whose coordinates fall in some output bin into exactly that bin, keeps all columns of the event together, keeps the input order inside each bin, and drops exactly the events outside all bins.", "quantifier": "for all event lists, all edges/groups, any number of dimensions", "why_tests_cant": "Permutation semantics over unbounded event lists with arbitrary distribution over bins.", "anchors": ["lib/dataset/bin.cpp: SingleStageMapper, TwoStageMapper, make_mapper, bin, TargetBinBuilder", "lib/dataset/bin_detail.cpp: map_to_bins", "lib/core/include/scipp/core/element/map_to_bins.h", "lib/core/include/scipp/core/element/bin.h"]}
{"id": "C21", "title": "Sub-bin size bookkeeping is exact", "statement": "The packed sizes (offset + list) behave as the full, zero-padded list of sizes: addition is elementwise, sums agree, exclusive scan over a sequence gives for every entry the sum of all previous entries at the same index, and no entry is lost or double counted, when the ranges shift monotonically.", "quantifier": "for all sequences of packed size lists", "why_tests_cant": "Offsets of successive rows shift arbitrarily; unbounded lengths.", "anchors": ["lib/core/subbin_sizes.cpp: operator+=, cumsum_exclusive, sum, exclusive_scan, add_intersection", "lib/variable/bin_detail.cpp: subbin_sizes_cumsum_exclusive"]}
{"id": "C22", "title": "Two-stage mapping equals single-stage mapping", "statement": "The memory-saving two-stage event mapping (chunk of output bins first, then bin inside the chunk) yields the same output buffer and bin sizes as the direct mapping.", "quantifier": "for all target-bin assignments (including dropped events), all chunk sizes and all numbers of bins", "why_tests_cant": "The two-stage path is enabled only for very large numbers of bins; tests cannot cover the relation for all sizes.", "anchors": ["lib/dataset/bin.cpp: TwoStageMapper, use_two_stage_remap, make_mapper"]}
{"id": "C23", "title": "Rebinning already binned data equals binning its events", "statement": "Binning data that is already binned (along the same, other or additional dimensions) gives the same bin contents as binning the flat table of its events, provided every event lies in its input bin; the shortcut that looks only at output bins overlapping an input bin loses and misplaces nothing.", "quantifier": "for all inputs, edges and groups", "why_tests_cant": "The shortcut's index arithmetic depends on the order and number of target axes; existing tests exercise orders in which the shortcut axis is outermost.", "anchors": ["lib/dataset/bin.cpp: TargetBinBuilder::build, axis_actions", "lib/core/include/scipp/core/element/bin_detail.h: begin_edge, end_edge"]}
{"id": "C24", "title": "Histogramming counts every event once in the right bin", "statement": "The histogram value (and variance) of bin i is the sum of the weights (and variances) of the events with edge[i] <= coordinate < edge[i+1]; the total over all bins is the sum over events within range; histogramming split and recombined input gives the same result as unsplit.", "quantifier": "for all events, weights, edges, and splits of the input", "why_tests_cant": "Unbounded inputs and splits (multi-threaded chunks).", "anchors": ["lib/core/include/scipp/core/element/histogram.h", "lib/dataset/histogram.cpp", "lib/dataset/bins.cpp: buckets::histogram, pretend_bins_for_threading"]}
{"id": "C25", "title": "Rebinning a histogram distributes counts by overlap and conserves them", "statement": "rebin assigns to each new bin the sum over old bins of content times overlap-width/old-width; when the new edges cover the old ones the total is conserved; rebinning to the same edges is the identity; result is independent of memory order (inner or outer dimension).", "quantifier": "for all sorted old and new edges and all contents", "why_tests_cant": "Arbitrary relative placement of two edge sequences.", "anchors": ["lib/core/include/scipp/core/element/rebin.h", "lib/variable/rebin.cpp: rebin, rebin_non_inner"]}
{"id": "C26", "title": "Bin indices accepted by make_bins are in range and non-overlapping", "statement": "make_bins accepts an index array exactly if every bin is a valid [begin,end) range inside the buffer and no two bins overlap; hence modifying the events of one bin never changes another bin.", "quantifier": "for all index arrays and buffer sizes", "why_tests_cant": "All arrangements of bins, including empty bins and arbitrary order.", "anchors": ["lib/variable/variable_instantiate_bin_elements.cpp: expect_valid_bin_indices", "lib/variable/bins.cpp: make_bins"]}
{"id": "C27", "title": "Bin-wise concatenation appends bin contents", "statement": "Concatenating two binned arrays gives per bin the events of the first followed by those of the second; concatenating along a dimension gives per output bin the events of all input bins along that dimension in order; all columns stay together.", "quantifier": "for all bin layouts and event counts", "why_tests_cant": "Unbounded bin layouts; buffers may contain gaps or shuffled bins.", "anchors": ["lib/dataset/bins.cpp: combine, concatenate, append, copy_slices", "lib/variable/bins.cpp: copy_slices", "lib/dataset/bin.cpp: concat_bins"]}
{"id": "C28", "title": "Coords, masks and attrs always fit their parent", "statement": "After any sequence of set, erase, slice, rename and size updates accepted by the API, every item of a coords/masks dictionary has only dimensions of its parent with matching extents, except for at most one dimension in which it has one more element (bin edges) or is a length-2 edge pair of a removed dimension; a rejected set leaves the dictionary unchanged.", "quantifier": "for all histories", "why_tests_cant": "Invariant over all reachable states.", "anchors": ["lib/dataset/sized_dict.cpp: SizedDict::set, slice, rename_dims, setSizes, extract, erase, merge_sizes_into, is_edges"]}
{"id": "C29", "title": "Slicing a data array slices coordinates consistently, with bin edges kept around the data", "statement": "Slicing along a dimension applies the same slice to every coordinate, mask and attribute depending on it, except bin edges which keep both edges around every kept element (n+1 edges for n >= 1 elements, two for a single element, none for an empty range); items not depending on the dimension are untouched; the sliced dictionary fits the sliced data; scalar coords obtained by point slicing become unaligned.", "quantifier": "for all data arrays and slices", "why_tests_cant": "All combinations of multi-dimensional coords, edges and slices.", "anchors": ["lib/dataset/include/scipp/dataset/sized_dict.h: slice_map", "lib/dataset/sized_dict.cpp: slice, slice_coords", "lib/dataset/data_array.cpp: slice"]}
{"id": "C30", "title": "Binary operations never combine data with mismatching coordinates", "statement": "A binary operation between data arrays succeeds only if all aligned coords present in both are equal; the result has every aligned coord of either operand; unaligned coords are kept only when they agree; whether the operation succeeds does not depend on operand order.", "quantifier": "for all pairs of coordinate dictionaries", "why_tests_cant": "All combinations of presence, alignment and equality per coordinate.", "anchors": ["lib/dataset/sized_dict.cpp: union_, intersection", "lib/dataset/arithmetic.cpp", "lib/dataset/except.cpp: expect::coords_are_superset"]}
{"id": "C31", "title": "Masks are OR-combined and masked elements never contribute to reductions", "statement": "The masks of the result of a binary operation are, per name, the elementwise OR of the operands' masks; reducing a data array along a dimension equals reducing after removing the masked elements; masks not depending on the reduced dimension are kept.", "quantifier": "for all data, masks and reductions", "why_tests_cant": "All mask patterns.", "anchors": ["lib/dataset/dataset.cpp: union_or, union_or_in_place", "lib/dataset/include/scipp/dataset/sized_dict.h: irreducible_mask", "lib/dataset/variable_reduction.cpp: reduce_impl"]}
{"id": "C32", "title": "Dataset items stay consistent with the dataset", "statement": "After any sequence of setData, erase, setCoord, slice, merge and rename accepted by the API, all items have the dataset's dimensions and share its aligned coords; failing operations leave the dataset unchanged.", "quantifier": "for all histories", "why_tests_cant": "Invariant over all histories, failing operations included.", "anchors": ["lib/dataset/dataset.cpp: Dataset::setData, setCoords, slice, setSlice, rename_dims", "lib/dataset/operations.cpp: merge"]}
{"id": "C33", "title": "In-place dataset arithmetic is all-or-nothing and alias-safe", "statement": "`ds op= x` either updates every item with the value computed from the operand values before the operation or throws and leaves every item unchanged, also if x shares memory with items of ds.", "quantifier": "for all datasets and operands, all aliasing patterns", "why_tests_cant": "Aliasing between any subset of items and the operand.", "anchors": ["lib/dataset/arithmetic.cpp: dry_run_op, apply, apply_with_delay"]}
{"id": "C34", "title": "Group-by reductions equal filter-then-reduce", "statement": "groupby(key).op(dim) yields for each distinct key value (in ascending order) or key bin the reduction over exactly the elements with that key; every unmasked element belongs to exactly one group (at most one for bins).", "quantifier": "for all data, keys and bin edges", "why_tests_cant": "Arbitrary key sequences; groups are built as maximal runs.", "anchors": ["lib/dataset/groupby.cpp: MakeGroups, MakeBinGroups, reduce_"]}
{"id": "C35", "title": "Sorting is a permutation ordered by the key", "statement": "sort reorders data, coords and masks along the key's dimension by one common permutation such that the key is ascending (descending), with NaN last (first), for every order among equal keys the sorting algorithm may choose.", "quantifier": "for all keys and data, all admissible tie orders", "why_tests_cant": "Unbounded inputs; the parallel sort is unstable.", "anchors": ["lib/dataset/sort.cpp: IndicesForSorting", "lib/dataset/extract.cpp: extract_ranges"]}
{"id": "C36", "title": "Selecting by a condition or index list returns exactly the selected elements in order", "statement": "Indexing with a boolean array returns exactly the elements whose condition is true, in order; indexing with a list of (possibly negative, repeated) positions returns those elements in list order and fails exactly if a position is out of range.", "quantifier": "for all conditions and index lists", "why_tests_cant": "All run-length patterns of the condition.", "anchors": ["lib/dataset/extract.cpp: extract_impl, extract_ranges", "lib/python/bind_slice_methods.h: slice_by_list, from_py_slice, get_slice"]}
{"id": "C37", "title": "Cumulative sums are prefix sums", "statement": "cumsum (inclusive/exclusive) along a dimension of a dense array yields at position i the sum of elements 0..i (0..i-1); along bins it runs inside each bin; consecutive differences restore the input; exclusive scan of sizes gives offsets of a gap-free packing.", "quantifier": "for all lengths and values", "why_tests_cant": "Unbounded lengths.", "anchors": ["lib/variable/cumulative.cpp: cumsum, cumsum_bins", "lib/core/include/scipp/core/element/cumulative.h", "lib/variable/bin_array_variable.cpp: contiguous_indices"]}
{"id": "C38", "title": "fold and flatten are inverse and keep element order, also for bin edges", "statement": "flatten concatenates the elements of contiguous dimensions in row-major order; fold splits them back; flatten after fold is the identity on data and metadata; folded/flattened bin edges again enclose their data.", "quantifier": "for all shapes and target sizes", "why_tests_cant": "All shapes and splits.", "anchors": ["lib/variable/shape.cpp: fold, flatten", "lib/dataset/shape.cpp: fold, flatten, fold_bin_edge, flatten_bin_edge", "lib/core/dimensions.cpp: fold"]}
{"id": "C39", "title": "Integer floor division and remainder obey the division law", "statement": "For integers a and b != 0: a == b*(a//b) + a%b, the remainder has the sign of b and magnitude below |b|; b == 0 follows the documented convention; integer powers equal repeated multiplication.", "quantifier": "for all 64-bit integers", "why_tests_cant": "2^128 operand pairs; the failure needs large magnitudes.", "anchors": ["lib/common/include/scipp/common/numeric.h: floor_divide, remainder, pow"]}
{"id": "C40", "title": "linspace/arange detection used for fast paths is sound", "statement": "A coordinate classified as linearly spaced has constant spacing; group labels classified as a contiguous integer range are exactly first, first+1, ..., so that index arithmetic on labels selects the group with the event's label.", "quantifier": "for all arrays", "why_tests_cant": "Unbounded arrays; failing patterns are non-monotonic.", "anchors": ["lib/common/include/scipp/common/numeric.h: islinspace, isarange", "lib/dataset/bin_detail.cpp: update_indices_by_grouping"]}
{"id": "C41", "title": "Renaming dimensions and coords renames simultaneously and loses nothing", "statement": "rename_dims with a set of (from,to) pairs gives an object whose dimensions are renamed by the given mapping, keeping order, extents and data, and fails exactly if the result would contain duplicates.", "quantifier": "for all objects and all mappings", "why_tests_cant": "All mappings, including swaps and chains.", "anchors": ["lib/core/rename.h: detail::rename_dims", "lib/dataset/sized_dict.cpp: rename_dims"]}
{"id": "C42", "title": "Deep copies are independent, shallow copies and slices share", "statement": "After copying, no sequence of writes through the original (or its views) changes the copy and vice versa; after slicing, a write through either is visible through the other exactly at the corresponding element and nowhere else.", "quantifier": "for all histories of view creation, copying and writes", "why_tests_cant": "All interleavings of writes and views.", "anchors": ["lib/variable/operations.cpp: copy", "lib/variable/variable.cpp: slice, setSlice", "lib/variable/include/scipp/variable/element_array_model.h"]}
{"id": "C43", "title": "Unit conversion of integers and time points rounds correctly or fails", "statement": "to_unit on integer data gives the nearest representable integer of the exactly scaled value and never silently wraps; conversion forth and back to a finer unit is the identity.", "quantifier": "for all values and scale factors", "why_tests_cant": "All 64-bit values.", "anchors": ["lib/variable/to_unit.cpp", "lib/core/include/scipp/core/element/to_unit.h"]}
{"id": "C44", "title": "Event lookup via a function/histogram equals direct evaluation", "statement": "Mapping or scaling events by a histogram looks up, for every event, the bin containing the event's coordinate (fill value/zero outside); looking up the previous point uses the last point not greater than the coordinate.", "quantifier": "for all events and edges", "why_tests_cant": "All placements.", "anchors": ["lib/core/include/scipp/core/element/event_operations.h", "lib/dataset/bins.cpp: buckets::map, buckets::scale, lookup_previous"]}
{"id": "C45", "title": "Splitting work for threads covers every element exactly once", "statement": "The splitting of a table into pretend-bins for multi-threading, of the accumulate range into chunks and of ranges into grains covers every index exactly once, in order, for every size.", "quantifier": "for all sizes", "why_tests_cant": "All sizes modulo chunk counts.", "anchors": ["lib/dataset/bins.cpp: pretend_bins_for_threading", "lib/variable/include/scipp/variable/accumulate.h", "lib/core/include/scipp/core/parallel-tbb.h"]}
{"id": "C46", "title": "Equality of variables is an equivalence relation consistent with contents", "statement": "== is symmetric and transitive, reflexive except for NaN; equal variables have equal dims, unit, dtype, values, variances independent of memory layout; equals_nan is reflexive.", "quantifier": "for all pairs/triples of variables and layouts", "why_tests_cant": "All layouts.", "anchors": ["lib/variable/variable.cpp: compare, operator==, equals_nan", "lib/core/sizes.cpp: operator==", "lib/core/include/scipp/core/dict.h"]}
{"id": "C47", "title": "Units form a consistent algebra", "statement": "Adding or comparing data with different units always fails; multiplication and division of units are commutative/associative/inverse where defined; None is only compatible with None; an operation on data yields the unit of the operation on units.", "quantifier": "for all units", "why_tests_cant": "All unit exponents.", "anchors": ["lib/units/unit.cpp: operator+,-,*,/,%, sqrt, pow, trigonometric"]}
{"id": "C48", "title": "Reductions with NaN handling ignore exactly the NaNs", "statement": "nansum, nanmean, nanmin, nanmax equal the plain reduction of the input with NaNs removed; mean equals sum divided by the number of elements; min/max return an element of the input (or the documented fill for empty input).", "quantifier": "for all inputs", "why_tests_cant": "All NaN patterns.", "anchors": ["lib/variable/reduction.cpp", "lib/core/include/scipp/core/element/reduction.h", "lib/core/include/scipp/core/element/creation.h"]}
{"id": "C49", "title": "Concatenation of data arrays keeps every input with its coords and masks", "statement": "concat of data arrays along a dimension gives data, coords, masks and attributes in which, in the range of every input, the elements are those of that input: bin edges of consecutive inputs are joined if and only if they meet, items without the dimension are kept if equal in all inputs and repeated along the dimension otherwise; the result is a consistent data array.", "quantifier": "for all lists of data arrays, shapes, memory layouts, sets of coords and masks", "why_tests_cant": "All combinations of edge and non-edge coords, lengths including zero, and missing dimensions.", "anchors": ["lib/dataset/shape.cpp: join_edges, broadcast_along_dim, concat_maps, concat"]}
{"id": "C50", "title": "Assigning to a slice changes exactly the slice", "statement": "Assigning a variable, data array or dataset to a slice changes the elements of the slice (of the data, and of the masks that have the dimension of the slice) to those of the right-hand side and nothing else; it succeeds if and only if the coords of the right-hand side match, its masks exist, and dtype, unit, variances and dimensions agree; coords never change; if a check fails nothing changes.", "quantifier": "for all variables, data arrays and datasets, slices, memory layouts, sets of coords and masks", "why_tests_cant": "All combinations of slices, missing or read-only masks, coords, broadcasting, and shared memory.", "anchors": ["lib/variable/variable.cpp: Variable::setSlice, validateSlice", "lib/dataset/sized_dict.cpp: setSlice, validateSlice", "lib/dataset/data_array.cpp: DataArray::setSlice, validateSlice", "lib/dataset/dataset.cpp: Dataset::setSlice"]}
{"id": "C51", "title": "Counts and densities convert into each other by the bin widths", "statement": "counts_to_density divides every count by the volume of its bin (the product of the bin widths along the given dimensions), so that the density times the volume is the count as quantities with units; counts_from_density multiplies by it, and undoes counts_to_density; data that are not counts stay as they are; the input is not modified; without bin edges or with a dimensionless coord there is an error.", "quantifier": "for all shapes, dimensions, bin edges (also multi-dimensional) and units of the coords", "why_tests_cant": "All combinations of units, cancelling units, and coords; datasets whose items have different units.", "anchors": ["lib/dataset/counts.cpp: getBinWidths, toDensity, fromDensity", "lib/units/unit.cpp: isCounts, isCountDensity"]}
{"id": "C52", "title": "Assignments cannot make variables contain themselves", "statement": "Variables, data arrays and datasets can be elements of variables. In every history of creating such variables and assigning to elements, the check in the assignment ends, and throws if and only if the element assigned to can be reached from the right-hand side; so no element ever contains itself, and no buffer keeps itself alive.", "quantifier": "for all histories of creating nested variables and assigning to their elements, at any depth of nesting, with any views", "why_tests_cant": "The recursion is over graphs of shared buffers of any depth and form; cycles leak memory or overflow the stack.", "anchors": ["lib/variable/variable.cpp: check_nested_in_assign, Variable::operator=", "lib/dataset/include/scipp/dataset/dataset_util.h: check_nested_in_assign", "lib/dataset/data_array.cpp: DataArray::operator=", "lib/dataset/dataset.cpp: Dataset::operator="]}
{"id": "C53", "title": "Products of spatial transforms compose, inverses undo", "statement": "Applying a rotation, linear transform, translation or affine transform does what it should to a vector, with its unit. The product of two transforms applied to a vector is the second, then the first, applied to the vector, with the same unit and failing in the same cases; the inverse undoes the transform on vectors of any unit; converting the unit of a transform commutes with applying it.", "quantifier": "for all transforms of all pairs of kinds, all vectors and all units (real arithmetic)", "why_tests_cant": "There are 16 pairs of kinds with different code for values and units, over continuous parameters; tests apply a few of them to a few vectors.", "anchors": ["lib/core/include/scipp/core/spatial_transforms.h:90-148", "lib/variable/arithmetic.cpp:17-61", "lib/core/include/scipp/core/element/arithmetic.h:99-172", "lib/variable/inv.cpp:14-49", "lib/core/include/scipp/core/element/to_unit.h:52-62"]}
{"id": "C54", "title": "Conversion between dtypes keeps numbers and order", "statement": "astype converts every element and variance to the nearest number of the new dtype (towards zero for integers), keeps the unit, and never changes the order of elements; where the new dtype holds the number the conversion is exact and can be undone. The common dtype of bin edges and coords is independent of their order, and comparing promoted edges and coords gives the same bin as comparing the numbers themselves.", "quantifier": "for all values of double, float, int64, int32 and bool including infinities and NaN, all pairs of dtypes, all variables", "why_tests_cant": "There are 20 conversions over 2^64 values; the ones that lose digits, overflow or are undefined are at the ends of ranges that tests do not reach.", "anchors": ["lib/variable/astype.cpp:20-78", "lib/core/dtype.cpp:44-71", "lib/dataset/astype.cpp:11-19", "lib/dataset/histogram.cpp:70-84", "lib/dataset/bins.cpp:350-353"]}
{"id": "C55", "title": "Iterating over a dict that changes meanwhile is safe", "statement": "An iterator of a dict that is used after the dict changed throws or gives the item at its position, and never touches memory that was given back; if the size changed it throws. A loop over a dict, whatever its body does, ends after at most as many rounds as the dict had items; if the body keeps the keys, it visits every item once and in order.", "quantifier": "for all histories of insertions, removals, clearing, reserving, copies and moves between any number of dicts, before and during the iteration, and all positions", "why_tests_cant": "The checks compare addresses and sizes; whether they suffice depends on when two vectors reallocate and on the addresses the allocator returns, which tests do not control.", "anchors": ["lib/core/include/scipp/core/dict.h:43-143", "lib/core/include/scipp/core/dict.h:264-299", "lib/core/include/scipp/core/dict.h:315-375"]}
{"id": "C56", "title": "Binning keeps what it does not change", "statement": "bin changes only the dimensions it is asked to: the axes of the result are the unchanged dimensions, then existing dimensions with new edges or groups (and those inside them), then new groups, then new edges, and erased dimensions are gone; conflicting arguments are an error. Events of a bin are left out if and only if a mask is set that depends on a dimension that is binned anew. Coords, masks and attributes that do not depend on a changed dimension are kept, others are dropped or replaced by the new edges and groups; the result is a consistent data array. The index of the target bin does not overflow.", "quantifier": "for all shapes, all combinations of edges, groups and erased dimensions (existing or new), all coords, masks and attributes of data and events, all numbers of output bins", "why_tests_cant": "The number of combinations of existing and new dimensions with edges, groups and erased dimensions, and of metadata depending on them, is unlimited; overflow of the target index needs billions of bins.", "anchors": ["lib/dataset/bin.cpp: axis_actions, TargetBinBuilder, TargetBins, add_metadata, drop_grouped_event_coords, validate_bin_args, bin", "lib/dataset/bins_util.h: hide_masked"]}
{"id": "C57", "title": "Concatenating groups of bins keeps every event and puts it into the bin of its group", "statement": "groupby(...).concat(dim) of binned data gives bins that hold, in order, the events of exactly those input bins whose key is in the group (or bin of the key) and whose position along the other dimensions is that of the output bin; events of bins hidden by a mask of a changed dimension, or whose key is in no group, are left out. The reduced dimension is gone; dimensions whose coord depends on the reduced dimension in addition to others become one bin; other dimensions stay. Coords, masks and attributes that depend on none of these are kept. If a dimension would occur twice there is a DimensionError.", "quantifier": "for all shapes, keys, group values and edges, masks, coords, attributes and ways to lay out the events in the output", "why_tests_cant": "The result depends on which coords exist, which of them depend on the reduced dimension, and on the order of the dimensions; tests cover a few of these combinations, with a handful of events.", "anchors": ["lib/dataset/groupby.cpp:111-126", "lib/dataset/bin.cpp:431-437", "lib/dataset/bin.cpp:546-580", "lib/core/include/scipp/core/element/bin.h:85-142"]}
{"id": "C58", "title": "Operations along a dimension treat every line separately, whatever the memory layout", "statement": "Functions that process data along one dimension (histogram of dense data, rebin, and everything built on transform_subspan) give for each position in the other dimensions the result for the line of elements at that position; coords and edges may depend on any of the other dimensions and the lines that belong together are combined. Strides, order of dimensions, readonly views and the order in which lines are processed do not matter, every element of the result is written, and nothing outside of the lines is read.", "quantifier": "for all numbers and orders of dimensions, strides, extents, coords and edges of one or more dimensions, kernels and orders of processing", "why_tests_cant": "The addresses of the lines come from products and sums of strides; tests use two-dimensional contiguous data and their transpose, and wrong addresses give plausible numbers.", "anchors": ["lib/variable/subspan_view.cpp:13-94", "lib/variable/include/scipp/variable/transform_subspan.h:13-48", "lib/variable/util.cpp:60-123", "lib/dataset/histogram.cpp:25-92", "lib/variable/rebin.cpp:21-175"]}
{"id": "C59", "title": "linspace gives sorted, evenly spaced values between its end points", "statement": "linspace(start, stop, dim, num) adds an inner dimension of extent num. Along it, for every position in the other dimensions, the first value is start and the last is exactly stop, the values are finite, do not leave the interval between the end points, rise if start <= stop and fall if stop <= start, and each differs from the exact position by rounding errors only. islinspace accepts the result if start < stop and the end points are not extremely large or small. Different dims, units or dtypes, other dtypes, variances, an existing dimension and num <= 0 are errors.", "quantifier": "for all shapes, all pairs of finite doubles whose difference does not overflow, all num from 2 to 2^50 + 1", "why_tests_cant": "Whether rounding can push a value beyond stop or swap neighbours depends on the low bits of the end points and of i/(num-1); tests compare a few short ranges with a tolerance.", "anchors": ["lib/variable/util.cpp:19-44", "lib/common/include/scipp/common/numeric.h:16-40"]}
{"id": "C60", "title": "Midpoints are the correctly rounded centres of neighbours", "statement": "midpoints(x, dim) gives an array with one element less along dim; each element is the midpoint of two neighbours. For integers and time points nothing overflows and the result is the centre, or the integer next to it on the side of the first argument. For doubles it is the exact centre rounded once; with an infinity it is that infinity, with NaN or opposite infinities NaN. For finite numbers it lies between its neighbours, so midpoints of rising edges rise and lie in their bins. Scalars, a missing dimension argument for several dimensions, a dimension that does not exist or has fewer than two elements, and variances are errors.", "quantifier": "for all shapes and dimensions, all pairs of integers of any width, all pairs of doubles including subnormal and the largest ones, infinities and NaN", "why_tests_cant": "The function has five branches for doubles that differ only for numbers near the limits of the range, and relies on unsigned wrap-around for integers; a test can try a few of 2^128 pairs.", "anchors": ["lib/core/include/scipp/core/element/math.h:16-46", "lib/core/include/scipp/core/element/math.h:170-193", "lib/variable/math.cpp:10-31"]}
