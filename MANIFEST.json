{
 "claims": [
  {
   "property": "C01",
   "status": "proved",
   "theorems": [
    "C01_chunk_partition",
    "C01_chunk_balanced",
    "C01_chunk_unsplit",
    "C01_chunk_sparse_agrees"
   ],
   "note": "comm.chunk for every shape, axis and process count."
  },
  {
   "property": "C02",
   "status": "proved",
   "theorems": [
    "C02_counts_displs_agree_with_chunk"
   ],
   "note": "counts_displs_shape against chunk."
  },
  {
   "property": "C03",
   "status": "proved",
   "theorems": [
    "C03_sanitize_axis_int",
    "C03_sanitize_axis_tuple",
    "C03_sanitize_axis_idempotent",
    "C03_sanitize_axis_other"
   ],
   "note": "sanitize_axis; every legal and illegal argument class."
  },
  {
   "property": "C04",
   "status": "proved",
   "theorems": [
    "C04_broadcast_is_numpy",
    "C04_broadcast_comm",
    "C04_broadcast_assoc",
    "C04_broadcast_unit_idem",
    "C04_broadcast_order_irrelevant"
   ],
   "note": "broadcast_shape(s) against the NumPy rule."
  },
  {
   "property": "C05",
   "status": "partial",
   "theorems": [
    "C05_sanitize_slice_partial",
    "C05_sanitize_slice_refuted"
   ],
   "note": "Full statement refuted: negative steps / out-of-range bounds are not what Python slices select; proved for the slices on which it is right."
  },
  {
   "property": "C06",
   "status": "proved",
   "theorems": [
    "C06_redistribute",
    "C06_redistribute_default_target",
    "C06_redistribute_rejects"
   ],
   "note": "redistribute_ with and without explicit maps, any layouts with equal totals; wrong totals rejected."
  },
  {
   "property": "C07",
   "status": "proved",
   "theorems": [
    "C07_redistribute_terminates"
   ],
   "note": "Termination of the recursive passes, for every pair of layouts."
  },
  {
   "property": "C08",
   "status": "proved",
   "theorems": [
    "C08_plan_deadlock_free",
    "C08_plan_deterministic",
    "C08_plan_terminates",
    "C08_redistribute_all_schedules"
   ],
   "note": "All interleavings of the point-to-point plan, synchronous sends; redistribute_ instance."
  },
  {
   "property": "C09",
   "status": "proved",
   "theorems": [
    "C09_balance",
    "C09_is_balanced_iff"
   ],
   "note": "balance_ and is_balanced."
  },
  {
   "property": "C10",
   "status": "proved",
   "theorems": [
    "C10_collect",
    "C10_collect_out_of_range"
   ],
   "note": "collect_ including the out-of-range target."
  },
  {
   "property": "C11",
   "status": "partial",
   "theorems": [
    "C11_metadata_partial",
    "C11_stale_after_larray_assignment_refuted",
    "C11_target_map_stored_unchecked_refuted",
    "C11_is_balanced_collective_mismatch_refuted",
    "C11_balance_flag_refuted"
   ],
   "note": "Refuted in general (stale map after larray assignment, unchecked target_map, mismatched collective in is_balanced); proved for the listed operation histories."
  },
  {
   "property": "C12",
   "status": "partial",
   "theorems": [
    "C12_get_halo",
    "C12_array_with_halos",
    "C12_halo_too_large",
    "C12_empty_rank",
    "C12_single_populated_rank_refuted",
    "C12_stale_halo_refuted"
   ],
   "note": "Halo exchange proved for at least two populated ranks; single populated rank and stale halos refuted."
  },
  {
   "property": "C13",
   "status": "partial",
   "theorems": [
    "C13_getitem_slice_partial",
    "C13_getitem_slice_refuted",
    "C13_getitem_list_partial",
    "C13_getitem_list_refuted"
   ],
   "note": "Slices with positive step in range proved; refuted for others."
  },
  {
   "property": "C14",
   "status": "proved",
   "theorems": [
    "C14_getitem_int",
    "C14_getitem_split"
   ],
   "note": "Integer indexing incl. rejection."
  },
  {
   "property": "C15",
   "status": "partial",
   "theorems": [
    "C15_setitem_slice_partial",
    "C15_setitem_int",
    "C15_setitem_negative_start_refuted",
    "C15_setitem_unbalanced_refuted",
    "C15_setitem_out_of_range_silent"
   ],
   "note": "Slice and int assignment of scalars; negative starts, unbalanced arrays refuted; out-of-range is silent."
  },
  {
   "property": "C16",
   "status": "proved",
   "theorems": [
    "C16_resplit_to_none",
    "C16_resplit_from_none"
   ],
   "note": "Gather through derived datatypes, all layouts / strides / arrival orders, up to 2^31-1 elements (above: C20); local chunk from a replicated array."
  },
  {
   "property": "C17",
   "status": "partial",
   "theorems": [
    "C17_resplit_inplace_partial",
    "C17_resplit_outofplace_partial",
    "C17_resplit_unbalanced_refuted",
    "C17_float32_tiles_refuted"
   ],
   "note": "In-place resplit_ proved up to extents 2^24 for every layout; out-of-place proved for balanced sources; unbalanced out-of-place and float32 tile extents refuted."
  },
  {
   "property": "C18",
   "status": "proved",
   "theorems": [
    "C18_buffer_addresses",
    "C18_buffer_exists",
    "C18_transport"
   ],
   "note": "Typemap of any strided tensor; transport between different strides."
  },
  {
   "property": "C19",
   "status": "partial",
   "theorems": [
    "C19_large_count_partial",
    "C19_uncommitted_refuted"
   ],
   "note": "Typemap exact; refuted: type not committed when 2^31-1 divides the count."
  },
  {
   "property": "C20",
   "status": "partial",
   "theorems": [
    "C20_counts_partial",
    "C20_counts_refuted"
   ],
   "note": "Correct below 2^31; refuted: int32 product wraps."
  },
  {
   "property": "C21",
   "status": "partial",
   "theorems": [
    "C21_alltoallw_type_partial",
    "C21_alltoallw_type_refuted"
   ],
   "note": "Correct except the 2-D contiguous case with first stride >= 2^31-1, refuted."
  },
  {
   "property": "C22",
   "status": "proved",
   "theorems": [
    "C22_cumulative",
    "C22_cumulative_other_axis",
    "C22_cumulative_axis_none"
   ],
   "note": "cumsum/cumprod along the split axis, another axis, or axis=None rejected; every layout including empty ranks."
  },
  {
   "property": "C23",
   "status": "partial",
   "theorems": [
    "C23_reduce_partial",
    "C23_reduce_keepdims_partial",
    "C23_reduce_all_partial",
    "C23_max_neutral_refuted",
    "C23_one_dimensional_shape_refuted",
    "C23_all_axes_shape_refuted",
    "C23_repeated_axis_refuted",
    "C23_max_empty_rank_shape_refuted"
   ],
   "note": "Proved for non-empty reduced ranks or true neutral elements; refuted: wrong neutral of max/min, wrong local/global shapes in corner cases, repeated axes accepted."
  },
  {
   "property": "C24",
   "status": "partial",
   "theorems": [
    "C24_argmax_partial",
    "C24_argmin_partial",
    "C24_commuted_tree_refuted",
    "C24_double_refuted",
    "C24_neutral_refuted",
    "C24_uneven_refuted",
    "C24_flat_refuted",
    "C24_shape_partial",
    "C24_shape_refuted"
   ],
   "note": "argmax/argmin along the split axis: even layouts, any reduction tree over consecutive ranks (one lane: any tree). Refuted: non-consecutive commuted trees with several lanes, float64 comparison of 64-bit integers, uneven layouts, axis=None flat index."
  },
  {
   "property": "C25",
   "status": "partial",
   "theorems": [
    "C25_mean_partial",
    "C25_var_flat_partial",
    "C25_var_axis_partial",
    "C25_empty_ranks_refuted",
    "C25_one_row_refuted",
    "C25_nan_masked_refuted",
    "C25_split_int",
    "C25_split_tuple_refuted"
   ],
   "note": "Mean and variance over all elements / along the split axis for every division of the sample, exact arithmetic. Refuted: first two ranks empty, one row per rank with ddof=1, NaN masked, split of a tuple-axis reduction."
  },
  {
   "property": "C26",
   "status": "partial",
   "theorems": [
    "C26_bincount",
    "C26_bincount_replicated",
    "C26_dtype_refuted",
    "C26_dtype_partial"
   ],
   "note": "bincount for every division of the data; refuted: float32 weights dtype mismatch on an empty rank."
  },
  {
   "property": "C27",
   "status": "partial",
   "theorems": [
    "C27_rand_partial",
    "C27_any_split_partial",
    "C27_split_axis_refuted",
    "C27_carry_refuted",
    "C27_counter_float32_refuted",
    "C27_starts_float32_refuted"
   ],
   "note": "Proved for splits along axis 0 (and None) on any number of processes, below 2^24 elements and away from a share ending exactly at the counter's low-word overflow; each rank's local values given exactly for any split. Refuted: split along another axis depends on the process count, carry at the overflow, float32 counter advance and start positions above 2^24 elements."
  },
  {
   "property": "C28",
   "status": "proved",
   "theorems": [
    "C28_threefry32_bijective",
    "C28_threefry64_bijective",
    "C28_no_repetition"
   ],
   "note": "Both Threefry widths, all seeds."
  },
  {
   "property": "C29",
   "status": "partial",
   "theorems": [
    "C29_seed",
    "C29_state_round_trip_partial",
    "C29_batchparallel_rewinds_refuted",
    "C29_permutation_rewinds_refuted",
    "C29_set_state_algorithm_refuted"
   ],
   "note": "Seeding: full. State round trip: Threefry and counter-based draws; refuted for Batchparallel, permutations and for switching the algorithm."
  },
  {
   "property": "C30",
   "status": "proved",
   "theorems": [
    "C30_float32",
    "C30_float64"
   ],
   "note": "Flocq model of float32/float64 rounding; uses the axioms of Coq's Reals."
  },
  {
   "property": "C31",
   "status": "partial",
   "theorems": [
    "C31_permutation_partial",
    "C31_sends_received",
    "C31_unbalanced_refuted"
   ],
   "note": "Evenly distributed arrays split along axis 0; refuted for unbalanced ones (row lost / never returns)."
  },
  {
   "property": "C32",
   "status": "partial",
   "theorems": [
    "C32_promote_lattice",
    "C32_promote_associative",
    "C32_promote_smallest",
    "C32_safe_order",
    "C32_rules_nested_partial",
    "C32_safe_not_same_kind_refuted"
   ],
   "note": "All data types. Refuted: a safe cast is not always a same_kind cast (int8 to float32), against the documentation. The rest of the nesting is proved."
  },
  {
   "property": "C33",
   "status": "proved",
   "theorems": [
    "C33_roll_flat",
    "C33_roll_slabs",
    "C33_roll_matched",
    "C33_roll_int",
    "C33_roll_axes",
    "C33_roll_int_axes",
    "C33_roll_back",
    "C33_roll_rejects",
    "C33_shift_list_changed"
   ],
   "note": "roll along any axes, any split, layout (also empty ranks), process count, positive/negative/large shifts; the message exchange always completes, one receive per message. axis=None is flatten+roll+reshape (see C36). MPI's tag upper bound (tags are global indices) is not modelled. C33_shift_list_changed: side effect found. roll without axis is C33_roll_flat (flatten, roll, reshape)."
  },
  {
   "property": "C34",
   "status": "proved",
   "theorems": [
    "C34_flip",
    "C34_flip_twice",
    "C34_flip_rejects",
    "C34_rot90",
    "C34_full_turn"
   ],
   "note": "flip along any axes (incl. the split axis, unbalanced layouts) and rot90 of split arrays; replicated rot90 is torch.rot90 (not modelled)."
  },
  {
   "property": "C35",
   "status": "partial",
   "theorems": [
    "C35_both_split_axis",
    "C35_both_split_other",
    "C35_both_replicated",
    "C35_one_replicated_other",
    "C35_replicated_first",
    "C35_replicated_second",
    "C35_balanced",
    "C35_many",
    "C35_rejects",
    "C35_schedule",
    "C35_unbalanced_refuted",
    "C35_squeeze_refuted"
   ],
   "note": "concatenate (hence hstack/vstack) of any number of balanced operands, every split combination; two operands with arbitrary layout where no rank holds more than its share of the result; exact rejections; exchange completes under every schedule. Dtype promotion unmodelled. Missing because false in the code: C35_unbalanced_refuted (rows silently permuted when a rank holds more than its share), C35_squeeze_refuted (RuntimeError for a replicated operand with another extent 1)."
  },
  {
   "property": "C36",
   "status": "partial",
   "theorems": [
    "C36_reshape_partial",
    "C36_shapes",
    "C36_inferred",
    "C36_scalar_refuted"
   ],
   "note": "reshape of every represented array (any layout, any split, -1 inference, new_split) yields the row-major data in the new shape, in the requested split and balanced layout; C36_shapes/C36_inferred give numpy's shape rule. Missing: the recorded split/shape of the input changes (resplit in place), and one-element distributed arrays to shape () raise (C36_scalar_refuted)."
  },
  {
   "property": "C37",
   "status": "proved",
   "theorems": [
    "C37_sort",
    "C37_negative_axis_refuted",
    "C37_empty_refuted",
    "C37_index_cast_refuted",
    "C37_nan_refuted"
   ],
   "note": "Whole pipeline per lane: local sort, pivots, partition, bucket exchange, rebalancing loop, second exchange, final sort; lifted to n-D. The regular-sampling bound is proved and shown to make the rebalancing loop correct. The _refuted theorems are side findings outside the statement's preconditions: default axis=-1 sorts only locally, an empty distributed axis raises IndexError, indices wrap in narrow element types, NaN with descending=True. Not modelled: axis=None, out=, float rounding of indices other than as the cast parameter."
  },
  {
   "property": "C38",
   "status": "proved",
   "theorems": [
    "C38_unique",
    "C38_unique_axis",
    "C38_other_axis_refuted",
    "C38_inverse",
    "C38_axis_inverse_refuted",
    "C38_axis_inverse_raises"
   ],
   "note": "unique for axis=None (with the inverse indices, canonical layout) and axis=split, every layout incl. empty ranks; torch.unique enters as any function keeping each key once. Side findings outside the statement: an axis other than the split axis returns the first slices instead of the distinct ones (C38_other_axis_refuted); with axis=split the inverse indices are wrong or the call raises (C38_axis_inverse_refuted, C38_axis_inverse_raises)."
  },
  {
   "property": "C39",
   "status": "proved",
   "theorems": [
    "C39_topk",
    "C39_indices_refuted",
    "C39_short_raises",
    "C39_double_refuted",
    "C39_neutral_refuted"
   ],
   "note": "Values for every layout, tree, largest/sorted; indices when dim is not distributed. Side findings outside the statement: indices along a distributed dim are wrong (offset from the local shape times the rank, C39_indices_refuted); vectors with a rank holding fewer than k elements raise (C39_short_raises); integers above 2^53 lose bits (C39_double_refuted); the fill value beats -inf (C39_neutral_refuted). k above the extent and out= are not modelled."
  },
  {
   "property": "C40",
   "status": "proved",
   "theorems": [
    "C40_nonzero_set",
    "C40_nonzero_replicated",
    "C40_nonzero_row_major",
    "C40_order_refuted",
    "C40_unbalanced_refuted"
   ],
   "note": "nonzero on balanced arrays for every split. The _refuted theorems are side findings outside the statement: order is not row-major for split >= 1 (C40_order_refuted), and coordinates are wrong for unbalanced arrays because the balanced offset is used (C40_unbalanced_refuted)."
  },
  {
   "property": "C41",
   "status": "proved",
   "theorems": [
    "C41_tri_nd",
    "C41_tri_vector",
    "C41_fill_diagonal",
    "C41_diag",
    "C41_diagonal",
    "C41_diagonal_same_axis_rejected",
    "C41_fill_diagonal_dims_rejected",
    "C41_tri_unbalanced_refuted",
    "C41_fill_diagonal_unbalanced_refuted"
   ],
   "note": "tril/triu (1-D and n-D), diag of a vector, diagonal over any two axes, fill_diagonal, with their rejections. Side findings outside the statement: for unbalanced arrays the balanced offset is used and wrong elements are kept/filled (C41_tri_unbalanced_refuted, C41_fill_diagonal_unbalanced_refuted). diag of a matrix is diagonal."
  },
  {
   "property": "C42",
   "status": "proved",
   "theorems": [
    "C42_sections",
    "C42_sections_fail_refuted",
    "C42_cut_points",
    "C42_uneven_rejected",
    "C42_decreasing_refuted",
    "C42_empty_refuted",
    "C42_unbalanced_refuted"
   ],
   "note": "split by sections and by cut points for every shape, axis, split and process count, with the exact condition under which k equal sections fail (C42_sections_fail_refuted; numpy would return the pieces). Side findings outside the statement: decreasing cut points and unbalanced arrays raise RuntimeError, an empty axis yields a single piece."
  },
  {
   "property": "C43",
   "status": "proved",
   "theorems": [
    "C43_unfold",
    "C43_rejected",
    "C43_chunk_too_small"
   ],
   "note": "unfold for every shape, axis, split, uneven layout and previous halo state. Not modelled: element types (a rank without windows creates an empty float32 tensor whatever the type of x)."
  },
  {
   "property": "C44",
   "status": "partial",
   "theorems": [
    "C44_transpose",
    "C44_transpose_default",
    "C44_transpose_rejects",
    "C44_expand_dims_partial",
    "C44_expand_dims_unsorted_refuted",
    "C44_squeeze",
    "C44_squeeze_side_effect_refuted",
    "C44_moveaxis",
    "C44_swapaxes",
    "C44_flatten",
    "C44_stack"
   ],
   "note": "transpose, expand_dims, squeeze, moveaxis, swapaxes, flatten, stack. Refuted: expand_dims with unsorted axis tuple, squeeze re-splits its input."
  },
  {
   "property": "C45",
   "status": "partial",
   "theorems": [
    "C45_binary_partial",
    "C45_unsupported_raises",
    "C45_different_splits_refuted",
    "C45_empty_broadcast_refuted",
    "C45_broadcast_split_flag_refuted"
   ],
   "note": "Proved for every supported combination of splits, all layouts; every other combination raises; refuted: different split axes, (0,) with (1,), balanced flag of a result broadcast along the split axis. out= and where= not modelled."
  },
  {
   "property": "C46",
   "status": "partial",
   "theorems": [
    "C46_text_modes",
    "C46_rows_sound",
    "C46_rows_complete_partial",
    "C46_cut_terminator_refuted",
    "C46_cut_header_refuted",
    "C46_small_file_refuted",
    "C46_column_lost_refuted",
    "C46_blank_line_refuted",
    "C46_ragged_refuted"
   ],
   "note": "Proved for all files, tables, headers, both terminators and all process counts: split=None and split=1 in full (C46_text_modes); split=0 with \\n never returns a wrong table (C46_rows_sound: every non-blank line read exactly once, in order) and succeeds whenever lines take at most half a share (C46_rows_complete_partial, also for \\r\\n when no share begins inside a terminator). The property in full is false of the code, and that is proved by counterexamples: a \\r\\n cut by a share boundary loses a digit (cut_terminator) or turns a header line into data (cut_header), a process without line start raises IndexError (small_file), columns are not counted in single-row files (column_lost), blank and ragged lines are treated differently per split. Missing: encodings that are not ASCII compatible, separators of several characters."
  },
  {
   "property": "C47",
   "status": "proved",
   "theorems": [
    "C47_integers",
    "C47_floats",
    "C47_roundtrip",
    "C47_roundtrip_rows",
    "C47_small_numbers_refuted",
    "C47_rounding_refuted",
    "C47_negative_zero_refuted",
    "C47_header_bytes_refuted",
    "C47_header_iterator_refuted",
    "C47_separator_refuted"
   ],
   "note": "C47_integers and C47_floats give the complete file content for every layout, number of processes and order of writes; C47_roundtrip(_rows) composes with load_csv (C46). log10 is a parameter (log10_ok: never too small from 0.11 on; C47_log10 shows an instance), as is float(). The _refuted theorems show that the preconditions of the property are needed: without them the code writes overlapping rows. NaN/inf, other dtypes and more than two dimensions are not modelled."
  },
  {
   "property": "C48",
   "status": "partial",
   "theorems": [
    "C48_symmetric_ring",
    "C48_pair_ring",
    "C48_local_layouts",
    "C48_column_split_refuted",
    "C48_other_layouts_raise",
    "C48_quadratic_expansion"
   ],
   "note": "Ring proved for every process count, schedule and size (one operand and two operands), local layouts too. The last sentence is refuted: X.split=0 with Y.split=1 returns zeros instead of raising (C48_column_split_refuted). Unbalanced operands, Probe/Get_count on non-float types and tile-size dependent rounding of torch.cdist are not modelled."
  },
  {
   "property": "C49",
   "status": "proved",
   "theorems": [
    "C49_cast",
    "C49_cast_rejects"
   ],
   "note": "item/casts: one-element arrays on any layout; others raise."
  },
  {
   "property": "C50",
   "status": "partial",
   "theorems": [
    "C50_delivers",
    "C50_writes_in_place",
    "C50_alltoall_swapped",
    "C50_unchanged",
    "C50_reduce_size_checked",
    "C50_numpy_refuted",
    "C50_in_place_refuted",
    "C50_view_refuted",
    "C50_reshaped_refuted",
    "C50_counts_refuted"
   ],
   "note": "Proved for torch tensors of equal shape with any strides. Refuted: NumPy receive buffers (np.copyto arguments exchanged: the send buffer is overwritten), IN_PLACE gathers raise, non-contiguous receive views of reductions are detached from their base, equal counts in different shapes raise, counts of v-calls ignored."
  },
  {
   "property": "C51",
   "status": "proved",
   "theorems": [
    "C51_randint_range"
   ],
   "note": "The modulo/abs/offset step for every raw word."
  },
  {
   "property": "C52",
   "status": "partial",
   "theorems": [
    "C52_safe_preserves_partial",
    "C52_safe_iff_preserves",
    "C52_int64_float64_refuted",
    "C52_promotion_preserves"
   ],
   "note": "Exact characterisation except int64 to float64/complex128, which is listed as safe and refuted."
  },
  {
   "property": "C53",
   "status": "partial",
   "theorems": [
    "C53_canonical_order_independent",
    "C53_round_trip",
    "C53_own_names_refuted"
   ],
   "note": "Finding: Heat's own names ('int32', 'float32') are not accepted as designations."
  },
  {
   "property": "C54",
   "status": "partial",
   "theorems": [
    "C54_result_kind",
    "C54_result_two",
    "C54_order_refuted"
   ],
   "note": "Kind for any number of arguments, full characterisation for two; refuted: with three arguments the order matters."
  },
  {
   "property": "C55",
   "status": "proved",
   "theorems": [
    "C55_array_split",
    "C55_array_is_split",
    "C55_inconsistent_rejected"
   ],
   "note": "array(split=), array(is_split=) for every layout, exact rejection of inconsistent pieces. Conversion of Python/numpy objects to torch tensors, dtype, device and memory layout are not modelled."
  },
  {
   "property": "C56",
   "status": "partial",
   "theorems": [
    "C56_full",
    "C56_eye",
    "C56_arange",
    "C56_arange_empty_refuted",
    "C56_linspace"
   ],
   "note": "full/zeros/ones, eye, arange on integers, linspace over exact rationals (no rounding). C56_arange_empty_refuted: an empty range raises RuntimeError instead of giving an empty array."
  },
  {
   "property": "C57",
   "status": "proved",
   "theorems": [
    "C57_where",
    "C57_nonboolean_refuted",
    "C57_infinite_refuted"
   ],
   "note": "Side findings outside the statement: a non-boolean condition scales x (C57_nonboolean_refuted); in binary64 an infinite (or NaN) element of the branch not taken gives NaN (C57_infinite_refuted). Scalar x/y and dtype promotion are not modelled."
  },
  {
   "property": "C58",
   "status": "proved",
   "theorems": [
    "C58_split",
    "C58_split_axis",
    "C58_is_split",
    "C58_round_trip",
    "C58_to_sparse_axis"
   ],
   "note": "Construction (split, is_split, replicated) and to_sparse/to_dense round trip, CSR and CSC, every layout. Oracle: torch's own dense-to-compressed conversion ([converts], instance conv_ex). Not modelled: dtype/device conversion, scipy input, the balanced flag (always set True, also for unbalanced is_split pieces)."
  },
  {
   "property": "C59",
   "status": "partial",
   "theorems": [
    "C59_views",
    "C59_global_indptr",
    "C59_views_large_refuted"
   ],
   "note": "Proved for up to 2^24 stored elements; beyond that the code keeps counts and offsets in float32 and the line pointer is wrong (C59_views_large_refuted)."
  },
  {
   "property": "C60",
   "status": "partial",
   "theorems": [
    "C60_binary",
    "C60_binary_shapes",
    "C60_layouts",
    "C60_scalar",
    "C60_scalar_add_refuted",
    "C60_dtype",
    "C60_dtype_refuted"
   ],
   "note": "Element-wise theorems for every operand combination; the operation on one process is an oracle ([elementwise], instance op_ex). Refuted parts: adding a number only changes the stored elements; processes where neither operand stores an element record the first operand's data type; equal shapes with different layouts raise (C60_layouts). out= is not modelled (it raises: device is read-only)."
  },
  {
   "property": "C61",
   "status": "partial",
   "theorems": [
    "C61_matmul_partial",
    "C61_balanced_ready",
    "C61_batch",
    "C61_matrix_vector",
    "C61_vector_matrix",
    "C61_vector_vector",
    "C61_one_process",
    "C61_allow_resplit",
    "C61_rejects_batch",
    "C61_rejects_mismatch",
    "C61_rejects_batch_split",
    "C61_rejects_dims",
    "C61_matrix_vector_error_refuted",
    "C61_unbalanced_refuted",
    "C61_unbalanced_raises_refuted",
    "C61_allow_resplit_batch_refuted",
    "C61_operands_refuted",
    "C61_one_process_split_refuted"
   ],
   "note": "Every split combination for balanced layouts (C61_balanced_ready) and the unbalanced layouts the branches support; addition only assumed associative with zero, so floating point rounding is outside. Refuted parts: unbalanced operands give a silently wrong product (1-None, None-0) or raise (00, 01, 11); allow_resplit on stacks adds all rows to the first ones; vector-vector re-splits both operands in place; a matrix and a vector that do not fit raise IndexError; one process loses the split. Mixed data types are not modelled."
  },
  {
   "property": "C62",
   "status": "partial",
   "theorems": [
    "C62_pad_partial",
    "C62_balanced_ready",
    "C62_rejects",
    "C62_instance",
    "C62_extent_one_refuted",
    "C62_extent_zero_refuted",
    "C62_uninitialised_refuted",
    "C62_unbalanced_refuted",
    "C62_three_values_refuted",
    "C62_fewer_pairs_refuted"
   ],
   "note": "Proved for arrays without empty extents whose layout has data on rank 0 and on the last rank with data (every balanced layout with at least two elements along a padded split axis: C62_balanced_ready), any layout if the split axis is not padded. Refuted: one element along the split axis (end not padded), empty extents (not padded, or uninitialised contents), empty first rank, fill sequences that do not match the number of axes (silently not padded). Modes other than constant are not modelled."
  },
  {
   "property": "C63",
   "status": "partial",
   "theorems": [
    "C63_signal_split",
    "C63_replicated_partial",
    "C63_kernel_split",
    "C63_operand_order",
    "C63_commutative",
    "C63_rejects",
    "C63_replicated_even_kernel_refuted",
    "C63_unbalanced_signal_refuted",
    "C63_empty_signal_rank_refuted"
   ],
   "note": "Proved over any commutative monoid with absorbing zero (integers; floating-point rounding of reordered sums is not modelled): distributed signal with replicated kernel, distributed kernel with replicated or distributed signal, nothing distributed. Refuted: replicated even kernel and signal on several processes with stride 1 (ranks other than 0 drop the first element), unbalanced signal with empty first rank (padding lost), distributed kernel with a signal rank without elements (RuntimeError). Batched (n-D) signals, data types, and the layout of the result for distributed kernels are not modelled."
  },
  {
   "property": "C64",
   "status": "partial",
   "theorems": [
    "C64_diff_partial",
    "C64_balanced_smooth",
    "C64_arguments",
    "C64_hole_refuted",
    "C64_truncation_refuted"
   ],
   "note": "Proved for replicated arrays and for all layouts in which no process needs more than it receives from its right neighbour (all balanced layouts, C64_balanced_smooth). Refuted: an empty process before a non-empty one (axis = split) or a process holding less than the next one (axis <> split) gives an MPI truncation error. prepend/append (concatenate, C54) and data types are not modelled."
  },
  {
   "property": "C65",
   "status": "partial",
   "theorems": [
    "C65_shuffle_corrected",
    "C65_shuffle",
    "C65_pairs_kept",
    "C65_epoch",
    "C65_unbalanced_refuted"
   ],
   "note": "Proved for balanced arrays and all permutations. Refuted: with an unbalanced array the holder of a row is computed from the balanced layout, and a process is asked for memory in front of its data. The MPI struct types are modelled as lists of blocks."
  },
  {
   "property": "C66",
   "status": "partial",
   "theorems": [
    "C66_train_val_split",
    "C66_no_validation_refuted"
   ],
   "note": "Proved for balanced arrays and fractions p < 1 (exact product; the rounding of the float l*p is not modelled). Refuted: p = 1 ends in an AssertionError (perm[-0:] is the whole permutation)."
  },
  {
   "property": "C67",
   "status": "partial",
   "theorems": [
    "C67_shuffle",
    "C67_ishuffle",
    "C67_test_set",
    "C67_last_epoch_refuted",
    "C67_test_set_ishuffle_refuted",
    "C67_ishuffle_remainder_refuted"
   ],
   "note": "Proved for balanced arrays split along axis 0: blocking shuffles keep all pairs, non-blocking ones keep the served pairs. Refuted: last_epoch = True with ishuffle re-inserts the rows received one epoch before (duplicates and losses); ishuffle with test_set raises AttributeError in the second epoch; ishuffle drops a rank's remainder row for good. Batching by torch's DataLoader is not modelled."
  },
  {
   "property": "C68",
   "status": "partial",
   "theorems": [
    "C68_reports",
    "C68_best",
    "C68_checkpoint",
    "C68_reset",
    "C68_max_rel_negative_refuted",
    "C68_docstring_refuted",
    "C68_threshold_one_refuted"
   ],
   "note": "Proved for thresholds in [0,1) with exact arithmetic; mode max/rel for non-negative metrics. Refuted: in mode max/rel with a negative best value a worse value counts as an improvement and replaces it; threshold 1 in min/rel never improves (inf*0 = NaN); the docstring of test_if_improving states the opposite of the answer."
  },
  {
   "property": "C69",
   "status": "partial",
   "theorems": [
    "C69_epoch",
    "C69_fair",
    "C69_pairs_once",
    "C69_pairs_refuted",
    "C69_all_rows_refuted",
    "C69_misaligned_refuted",
    "C69_own_share_refuted"
   ],
   "note": "Proved for every schedule and history: bounded work, no deadlock, all batches with the right indices, elements made of file rows; sample/label pairing only for the first epoch with an index list without repetition. Refuted (schedules exhibited): pairing with repeated indices (torn read), lost notification (rows never loaded, loader waits for ever), misaligned count after a race on used_indices (no further load), wrap-around to rows of other processes. One step per access of shared state; transforms, devices and h5py's own locking not modelled; load_len a multiple of the batch size (L253-256 not modelled)."
  },
  {
   "property": "C70",
   "status": "partial",
   "theorems": [
    "C70_protocol_partial",
    "C70_in_flight",
    "C70_exchanges",
    "C70_local_sync_on",
    "C70_consensus",
    "C70_epoch_consensus",
    "C70_bounds",
    "C70_skips_partial",
    "C70_example",
    "C70_last_batch_as_documented_refuted",
    "C70_no_warmup_no_skips_refuted",
    "C70_skips_vanish_refuted",
    "C70_negative_wait_refuted"
   ],
   "note": "Proved for last_batch = index of the last batch (as the examples set it) and, for the skip range, warmup >= 1 and reduction factor <= 2. Refuted: last_batch = len(dataloader), as step's message and the docs ask (ValueError in the cool-down); warmup_epochs = 0 never skips; a larger reduction factor makes the skip 0 for good; local_skip_factor > max_global_skips gives a negative batches_to_wait. Parameters are exact rationals; casts and chunked buffers not modelled."
  },
  {
   "property": "C71",
   "status": "partial",
   "theorems": [
    "C71_blocking",
    "C71_nonblocking_forward_partial",
    "C71_nonblocking_epochs_partial",
    "C71_processes_agree",
    "C71_example",
    "C71_eval_double_counts_refuted",
    "C71_top_level_parameter_stale_refuted",
    "C71_unused_layer_refuted"
   ],
   "note": "Proved: blocking always; non-blocking: every forward pass of a run, and whole histories of epochs when zero_grad stands between forward and backward, for batches in which every parameter gets a gradient and every layer runs, and parameters that belong to submodules. Refuted: zero_grad before forward (examples/nn/mnist.py): model.eval() applies the sum of the last two gradients; parameters of the top module itself are used before their pending update; a layer without gradient is stepped by the blocking, not by the non-blocking scheme. Equal initial parameters are assumed (the code only resets modules with reset_parameters); reductions match across processes; casts left out."
  },
  {
   "property": "C72",
   "status": "partial",
   "theorems": [
    "C72_percentile_exact_arithmetic",
    "C72_percentile_float32_partial",
    "C72_percentile_dyadic_partial",
    "C72_percentile_list_partial",
    "C72_percentile_flat_partial",
    "C72_median_partial",
    "C72_unsorted_q_refuted",
    "C72_one_q_refuted",
    "C72_long_axis_refuted",
    "C72_long_median_refuted",
    "C72_int_data_refuted",
    "C72_negative_q_refuted",
    "C72_tuple_leading_partial",
    "C72_tuple_split_leading_partial",
    "C72_tuple_shape_refuted",
    "C72_tuple_split_refuted"
   ],
   "note": "Proved: for exact index arithmetic, every scalar q, axis, split and interpolation. With the float32 arithmetic of the code: no failure up to 2^24+1 elements, position within (n-1)/2^22 of the exact one, exact for q/100 = a/2^j with a(n-1) <= 2^24, hence for the median up to 2^24+1 elements (midpoint: up to 2^23+1). Lists: same, but along a distributed axis only for sorted lists with two or more entries. axis=None: same. Tuples of axes: shape and split handed to reshape are right if the axes are the leading ones. Refuted: unsorted list along the split axis comes back in the wrong order; one-element list along the split axis gives empty local arrays; 2^24+4 elements: q=100 raises IndexError; 2^24+2 elements: wrong median; 32-bit integers are rounded to float32; negative q is accepted; tuple of non-leading axes: wrong result shape or an unbound variable. Sorting along the split axis assumes the canonical layout (C37). Not modelled: out=, sketched=True, NaN, GPU."
  },
  {
   "property": "C73",
   "status": "partial",
   "theorems": [
    "C73_elementwise",
    "C73_out_same_layout",
    "C73_out_broadcast",
    "C73_out_other_split_refuted",
    "C73_out_smaller_refuted",
    "C73_out_extra_dimension_refuted"
   ],
   "note": "Proved: without out; with out of the same shape, split and layout; with out of a larger shape and a replicated operand stretched along out's split. Refuted: out with another split silently receives repeated local pieces; out that is smaller, or has an extra leading dimension of extent 1, is resized under its metadata. Dtype casts are part of the function applied (C32)."
  },
  {
   "property": "C74",
   "status": "proved",
   "theorems": [
    "C74_table_unique",
    "C74_bucketize",
    "C74_digitize",
    "C74_layout_independent",
    "C74_unordered_bins_rejected_refuted",
    "C74_no_bins_refuted"
   ],
   "note": "Proved for all rational values: the binary search of torch.bucketize is modelled step by step. Side findings (refuted theorems): unordered bins are accepted where NumPy raises; an empty sequence of bins raises IndexError. NaN is not modelled."
  },
  {
   "property": "C75",
   "status": "partial",
   "theorems": [
    "C75_histogram",
    "C75_out",
    "C75_total",
    "C75_errors",
    "C75_out_one_process_refuted",
    "C75_range_equal_in_float32_refuted"
   ],
   "note": "Proved for exact bin arithmetic and any conversion of min and max to the element type that keeps them different. Refuted: one process and an input with a split: out is returned unwritten; min < max that are equal in float32 (2^24, 2^24+1): every process uses its own range and the result depends on the process count. Counts are exact integers in the model (torch counts in the element type: float32 counts saturate at 2^24)."
  },
  {
   "property": "C76",
   "status": "partial",
   "theorems": [
    "C76_outer",
    "C76_all_schedules",
    "C76_needs_buffering_refuted",
    "C76_never_silently_wrong",
    "C76_unbalanced_refuted",
    "C76_operands_changed_refuted"
   ],
   "note": "Proved: the result is the outer product for every layout of the operand that stays and canonical layout (or replication) of the one that travels; on two or more processes a result that is returned is never wrong, for any layout; with buffered sends every execution makes progress, ends within 2(P-1)P steps, leaves no message and gives that result. Refuted: with synchronous sends (large messages) all processes wait in their first Send; a travelling operand in a non-canonical layout raises RuntimeError; replicated operands come back split (resplit_ in place). Not modelled: dtypes, out=, operands with more than one dimension (flatten is C44), the balanced flag."
  },
  {
   "property": "C77",
   "status": "partial",
   "theorems": [
    "C77_det_tolerance",
    "C77_det_partial",
    "C77_rejects",
    "C77_tolerance_refuted",
    "C77_empty_refuted"
   ],
   "note": "Proved over every field with mathcomp's \\det, for rows or columns of the matrices distributed (elimination with row exchanges) and for distributed stacks: exact with an exact test for 0; with np.isclose the result is the determinant or 0. Refuted: np.isclose takes |pivot| <= 1e-8 for 0, so det of a distributed diag(eps, 1/eps) is 0 although it is 1 on one process; a distributed 0x0 matrix raises ValueError from reshape(-1, 0, 0). Not modelled: rounding, dtype checks; torch.linalg.det of one matrix is taken to be exact."
  },
  {
   "property": "C78",
   "status": "partial",
   "theorems": [
    "C78_inv_tolerance",
    "C78_inv_partial",
    "C78_tolerance_refuted"
   ],
   "note": "Proved over every field with mathcomp's matrices: a returned result is the two-sided inverse of every matrix, whatever the tolerance; with an exact test for 0 the call succeeds iff all matrices are invertible, else RuntimeError. Refuted: with np.isclose an invertible distributed matrix with a small pivot raises RuntimeError; distributed 0x0 matrices raise ValueError (C77_empty_refuted). Not modelled: rounding, dtype checks, the MPS branch; torch.inverse of one matrix is taken to be exact."
  },
  {
   "property": "C79",
   "status": "partial",
   "theorems": [
    "C79_history",
    "C79_raises_iff",
    "C79_batches_equal_fit",
    "C79_refit_partial",
    "C79_refit_refuted",
    "C79_missing_class_refuted",
    "C79_smoothing_refuted"
   ],
   "note": "Proved in exact rational arithmetic for every history: counts, means and priors are those of all samples seen (weighted or not); the variances are those of all samples plus the class-weighted mean of the batches' smoothing terms; a history raises iff some batch's label set is not exactly the class set; without smoothing every cut into batches equals one fit. Refuted: batches lacking a class raise ValueError although partial_fit is meant for them, and the failed call leaves sigma_ lowered by the smoothing term; with smoothing batches and one fit differ; fit on an estimator fitted to other labels raises ValueError instead of starting anew. Not modelled: rounding, shape checks, predict."
  },
  {
   "property": "C80",
   "status": "partial",
   "theorems": [
    "C80_solves_partial",
    "C80_batch_partial",
    "C80_arguments",
    "C80_float64_refuted",
    "C80_unbalanced_refuted",
    "C80_batch_layout_refuted"
   ],
   "note": "Proved over every field: in all layouts with canonical extents the result is the unique solution, distributed along the rows; distributed stacks for equal extents; the accepted shapes and splits. Refuted: A not split and b split with float64 fails on two or more processes, since the receive buffer is float32 (the MPI error of a truncated message, RuntimeError in the model); with unbalanced layouts an update can be broadcast to wrong rows without an exception; stacks with different extents are broadcast. Not modelled: rounding, zero diagonals, the TypeError for arguments that are not DNDarrays."
  },
  {
   "property": "C81",
   "status": "partial",
   "theorems": [
    "C81_fit",
    "C81_monotone",
    "C81_converged",
    "C81_layout",
    "C81_fails_iff",
    "C81_empty_refuted",
    "C81_inertia_refuted",
    "C81_random_init_refuted",
    "C81_medoid_partial",
    "C81_medoid_layout_refuted",
    "C81_medoid_origin_refuted"
   ],
   "note": "Proved in exact rational arithmetic: the meaning of labels and centers, the stopping rule, consistency when the centers did not move, monotone cost, independence of the layout; KMedoids' centers are samples for canonical layouts. Refuted: inertia_ is the movement of the centers, not the documented sum; a cluster without points gets the origin as its center; init='random' never picks the last sample and fails for one sample; max_iter=0 fails (unbound name); KMedoids looks samples up with canonical displacements, so in other layouts it takes a wrong row or raises IndexError, and treats clusters of points in the origin as empty. Not modelled: rounding, x split along the features, k-means|| and batch-parallel initialisation, KMedians' update, KMedoids' median (a parameter)."
  },
  {
   "property": "C82",
   "status": "partial",
   "theorems": [
    "C82_repeat_axis_partial",
    "C82_repeat_flat_partial",
    "C82_repeat_rejects",
    "C82_repeat_axis_rejects",
    "C82_count_mismatch_refuted",
    "C82_unbalanced_refuted",
    "C82_empty_refuted"
   ],
   "note": "Proved: both forms for int, sequence and distributed counts over any layout when counts and array are distributed alike (always so for balanced arrays); balanced result; rejections off the split axis. Refuted: along the split axis a wrong number of counts succeeds when each process happens to hold one count (two counts for four elements on two processes); an unbalanced array with several counts silently uses other elements' counts; an array without elements is returned unchanged (not flattened, extents not multiplied). Not modelled: dtype checks, warnings, conversion of a from Python objects."
  },
  {
   "property": "C83",
   "status": "partial",
   "theorems": [
    "C83_tile_partial",
    "C83_empty_first_refuted",
    "C83_argument_refuted"
   ],
   "note": "Proved for all layouts in which the first process holds at least one slab along the split axis (every balanced layout), all splits and repetitions, whatever memory contained: the Alltoallv calls deliver every copy to the right place. Refuted: if the first process holds nothing, data received in later repetitions is copied from the wrong offset and parts of the result are uninitialised memory; with more repetitions than dimensions the argument itself is re-split along axis 0. Not modelled: conversion of reps and scalars, dtypes, the 32-bit repetition offsets (L4297)."
  },
  {
   "property": "C84",
   "status": "partial",
   "theorems": [
    "C84_equal_partial",
    "C84_allclose_partial",
    "C84_allclose_scalar",
    "C84_isclose_partial",
    "C84_isclose_refuted",
    "C84_equal_splits_refuted",
    "C84_equal_one_element_refuted",
    "C84_allclose_layout_refuted",
    "C84_allclose_broadcast_refuted"
   ],
   "note": "Proved: equal for all shapes and all layouts unless both operands are split along different axes; allclose for operands of one shape when at most one is split, or same split and layout, or different splits with x balanced, and against a number in all layouts; isclose for replicated operands or one process. Refuted: equal raises for different split axes; equal of one-element float64 arrays compares float32 roundings; allclose of equally split but differently laid out arrays (and of a matrix and a vector both split along 0) compares the wrong elements: equal arrays are reported different and different ones equal; isclose of a split operand on several processes returns a DNDarray that is inconsistent for all inputs. Not modelled: type promotion, scalars that are not DNDarrays, different communicators."
  },
  {
   "property": "C85",
   "status": "proved",
   "theorems": [
    "C85_vmap",
    "C85_nothing_split_raises",
    "C85_misaligned_raises"
   ],
   "note": "Proved for all functions whose outputs depend only on the tensors and whose output shapes depend only on the input shapes. Not modelled: chunk_size and randomness (passed to torch), keyword arguments, type checks of the arguments."
  },
  {
   "property": "C86",
   "status": "partial",
   "theorems": [
    "C86_ptp_partial",
    "C86_ptp_keepdims_partial",
    "C86_ptp_all_partial",
    "C86_negative_axis_refuted",
    "C86_negative_split_refuted",
    "C86_keepdims_split_refuted",
    "C86_keepdims_all_refuted",
    "C86_empty_process_refuted",
    "C86_tuple_refuted"
   ],
   "note": "Proved: for all shapes, values, layouts in which every process holds elements, and non-negative axes, ptp(axis) and ptp() give the ranges with correct shape and split, and keepdims=True too if the axis is not before the split axis. Refuted: a negative axis mislabels the split (None becomes 0, or -1); keepdims with an axis before the split axis labels split-1; keepdims without axis gives local shape (1); a process without elements turns the result into NaN or raises; a tuple of axes (0,1) gives wrong values even in one process. Not modelled: out=, integer dtypes, the sizes of halves when 2h overflows."
  },
  {
   "property": "C87",
   "status": "partial",
   "theorems": [
    "C87_out",
    "C87_inplace",
    "C87_where_partial",
    "C87_wrong_buffer_raises",
    "C87_inplace_replicated_raises",
    "C87_where_layout_refuted",
    "C87_where_raises_refuted"
   ],
   "note": "Proved: out= and in-place operations for all shapes and layouts whose operands can follow the buffer (replicated, same split axis, or extent one there), refusal of wrong buffers and of x op= y with replicated x and split y, where= with a mask that is replicated, has extent one along the split axis or has the buffer's layout. Refuted: a mask split like the buffer with another layout is not redistributed: elements that are masked out are overwritten, or one process raises after others wrote. Not modelled: dtype promotion, where= without out= (the unselected elements are uninitialised)."
  },
  {
   "property": "C88",
   "status": "partial",
   "theorems": [
    "C88_broadcast_to_partial",
    "C88_broadcast_to_raises",
    "C88_broadcast_arrays_partial",
    "C88_empty_refuted",
    "C88_docstring_refuted",
    "C88_dimensions_refuted",
    "C88_first_extent_one_refuted"
   ],
   "note": "Proved: broadcast_to for all shapes and layouts except that, on several processes, the split axis may not be broadcast from one to zero; refusal of every other shape; broadcast_arrays for arrays of one dimension, the first of full extent along its split axis, the others able to follow it. Refuted: the 1-to-0 case; broadcast_arrays for arrays of different dimension (sanitize_distribution reads shape[target.split] without aligning axes on the right): the docstring's own example raises ValueError on two processes, and shapes (4,1)/(4) give local tensors that contradict the global shape; a first array of extent one along its split axis raises."
  },
  {
   "property": "C89",
   "status": "proved",
   "theorems": [
    "C89_meshgrid",
    "C89_raises",
    "C89_balanced_flag",
    "C89_flag_refuted"
   ],
   "note": "Proved for all inputs, including the refusals. Side findings: the grids are always flagged balanced, which is proved truthful for a balanced vector (C89_balanced_flag) and refuted for an unbalanced one (C89_flag_refuted). Not modelled: 0-dimensional inputs."
  },
  {
   "property": "C90",
   "status": "partial",
   "theorems": [
    "C90_trace_matrix_partial",
    "C90_trace_partial",
    "C90_trace_split_partial",
    "C90_raises",
    "C90_unbalanced_refuted",
    "C90_axis_order_refuted",
    "C90_axis_order_nd_refuted",
    "C90_split_axis_raises_refuted",
    "C90_split_between_refuted",
    "C90_negative_axis_refuted"
   ],
   "note": "Proved for axes in order or offset 0: matrices in the balanced layout, arrays of any dimension whose split axis lies before or behind both axes (any layout) or that are replicated or on one process, the split axis among the two when no process holds more than one element of it; refusal of bad axes. Refuted: unbalanced matrices (wrong sum: the offset is that of the balanced layout); axis1 > axis2 with an offset (the axes are exchanged without negating it, in matrices ignored); two diagonal elements on a process raise RuntimeError (reshape instead of sum); a split axis between the two axes gives a wrong global shape; axis -4 of a matrix is accepted. Not modelled: dtype=, out=, floating point rounding."
  },
  {
   "property": "C91",
   "status": "partial",
   "theorems": [
    "C91_mask_get_partial",
    "C91_mask_get_permuted_partial",
    "C91_mask_set",
    "C91_single_refuted",
    "C91_order_refuted",
    "C91_unbalanced_set_refuted",
    "C91_empty_refuted"
   ],
   "note": "Proved: reading from a replicated array or one split along axis 0, in any layout, any mask layout, zero or at least two selected elements (any number if not distributed); for other split axes the same elements, ordered by owner; writing a scalar through any mask for every split axis in the library's own layout. Refuted: one selected element of a distributed array gives a vector of advertised length 1 that no process holds; row-major order for split axes other than 0; writing into an unbalanced array sets other elements (local coordinates are computed with the balanced chunk starts); an array with an empty axis raises IndexError. Not modelled: masks of another shape than x's, value arrays, integer coordinate keys."
  },
  {
   "property": "C92",
   "status": "proved",
   "theorems": [
    "C92_fft",
    "C92_errors",
    "C92_roundtrip",
    "C92_empty_refuted"
   ],
   "note": "Proved for every one-dimensional transform F and every split, axis and n; the layout along the transformed axis must be balanced if it is the split axis and there are several processes (C17's condition on resplit). Side finding: a replicated array with an empty axis raises TypeError instead of giving an empty result. Not modelled: dtypes (an empty local tensor keeps the real dtype), rfft and ihfft, fftn."
  },
  {
   "property": "C93",
   "status": "proved",
   "theorems": [
    "C93_tsqr",
    "C93_arguments",
    "C93_short_group_refuted"
   ],
   "note": "Proved for every P, procs_to_merge, layout and every sound local QR (which may raise), provided that every first-level group of at least two processes holds at least n rows together (balanced layouts with at least two columns always do; mode='r' needs no such condition). Side finding: without it the call raises although its own test for TS-QR succeeds, e.g. a 2x1 matrix on 4 processes with the default procs_to_merge=2 (receive buffers are given n columns). Not modelled: batches, floating point, the algorithm for matrices that are not tall-skinny (L240-266)."
  },
  {
   "property": "C94",
   "status": "partial",
   "theorems": [
    "C94_qr_columns_partial",
    "C94_dependent_columns_refuted",
    "C94_wide_refuted"
   ],
   "note": "Proved for at least as many rows as columns, every number of processes and sound local QR: Q R = A, R upper triangular, every block of Q orthonormal, and Q orthonormal if no diagonal entry of R is zero. Refuted: for linearly dependent columns Q is not orthonormal ([[1,1],[0,0]] on two processes gives Q = A); for more columns than rows Q R = A fails when the block that reaches the last row starts with a dependent column (a 3x4 matrix with a zero third column on two processes). Not modelled: batches, floating point, unbalanced layouts (Q and R are created in the canonical one)."
  },
  {
   "property": "C95",
   "status": "partial",
   "theorems": [
    "C95_partitions",
    "C95_float_offsets_refuted",
    "C95_roundtrip_partial",
    "C95_disagreement_refuted",
    "C95_current",
    "C95_stale_refuted"
   ],
   "note": "Proved: the dictionary is right for every distribution when the extent of the split axis is below 2^24 (float32, complex64), 2^53 (float64, complex128) or any size (integer types); the reported dictionary is current after any history of reads and resplit_; the round trip keeps every local tensor, and all processes agree on split and balanced, unless one of several processes holds the whole array. Refuted: float32 offsets above 2^24 are rounded, so elements lie outside every box; redistribute_/balance_ do not clear the cached dictionary, which then shows the old layout; if one process holds everything (e.g. one row on two processes) it infers split=None and the others split=0. Not modelled: numpy data, dictionaries of other libraries, dtype/device entries."
  },
  {
   "property": "C96",
   "status": "partial",
   "theorems": [
    "C96_qr_rows_partial",
    "C96_dependent_columns_refuted",
    "C96_idle_processes_refuted"
   ],
   "note": "Proved for every distribution in which no block is taller than the blocks of a merged group together (all canonical layouts with a row on every process): Q is m x min(m,n), R upper triangular, Q R = A on the first min(m,n) columns (all of them for n <= m), Q orthonormal if no diagonal entry of R is zero, and Q R = A also for m < n if besides Q Q^H = 1. Refuted: with dependent columns Q is not orthonormal ([[1,1],[0,0]] on two processes); with fewer rows than processes it raises RuntimeError (2x3 on four processes). Not modelled: batches, floating point, the final balance() of R (C09)."
  },
  {
   "property": "C97",
   "status": "partial",
   "theorems": [
    "C97_cross_partial",
    "C97_unaligned_refuted",
    "C97_planar_split_refuted"
   ],
   "note": "Proved for every choice of the axis arguments, equal shapes apart from the vector axes, aligned splits and equal row distributions (balanced if an operand holds plane vectors), and for two arrays of plane vectors if the split axis comes before the output axis. Refuted: differently distributed rows are not redistributed (the test uses the methods is_balanced without calling them) and give local results that do not fit the global shape; two arrays of plane vectors split behind the vector axis give a result whose split is one too large. Not modelled: promotion; broadcasting between different extents is in the model but not in the theorem."
  },
  {
   "property": "C98",
   "status": "partial",
   "theorems": [
    "C98_print_partial",
    "C98_short_axis_refuted",
    "C98_format_refuted",
    "C98_layout_refuted"
   ],
   "note": "Proved: the displayed tree of elements (rows, ellipses, nesting) is that of the global array for every layout, unless the array is distributed and summarized and its split axis has more than 2e but fewer than 3e rows on more than two processes. Refuted in that case (7 rows on 3 processes with the default options: row 4 is missing without an ellipsis), and beyond the displayed rows: the number formatter sees different elements on different process counts, and printing rebalances the array. Not modelled: the formatting of numbers and line breaks."
  },
  {
   "property": "C99",
   "status": "partial",
   "theorems": [
    "C99_dot_partial",
    "C99_vecdot_partial",
    "C99_vdot",
    "C99_unbalanced_refuted",
    "C99_lengths_refuted",
    "C99_out_refuted",
    "C99_vdot_lengths_refuted"
   ],
   "note": "vdot: proved for every layout and equal numbers of elements. vecdot: for every layout combination that binary operations support (C45), keepdims or at least two dimensions. dot: proved for vectors of equal length with every split combination and balanced layouts. Refuted: dot of unbalanced vectors drops elements (3 + 1 ones give 3); dot of split vectors of different lengths returns a number, and vdot broadcasts a one-element operand; out= of dot is only rebound and keeps its old contents. Not modelled: promotion; the other branches of dot are multiply (C45) and matmul (C61)."
  },
  {
   "property": "C100",
   "status": "partial",
   "theorems": [
    "C100_standard_roundtrip",
    "C100_minmax_partial",
    "C100_minmax_range_partial",
    "C100_empty_process_refuted"
   ],
   "note": "Proved over exact rationals: fit, transform and inverse_transform of MinMaxScaler for every layout of the fitted data, and for data transformed later whose split along the features agrees with that of the fitted data (both split along the features, or neither); all processes take the same branch on almost constant features; StandardScaler round trip for arbitrary parameters with non-zero scales. Refuted for data split along the features with fewer features than processes: the parameters of a process without features keep the local shape (n, 0). Missing: rounding; StandardScaler.fit (mean, variance: C25; square root); copy=False; Normalizer, MaxAbsScaler and RobustScaler."
  },
  {
   "property": "C101",
   "status": "proved",
   "theorems": [
    "C101_tolerance",
    "C101_converges",
    "C101_exact_start_refuted"
   ],
   "note": "Proved over exact rationals on the global values (the distributed products and element-wise operations that cg composes are C61, C45 and C99): tolerance test for every square matrix, convergence within n iterations for symmetric positive definite ones. Side findings: started at the exact solution, cg divides 0 by 0 and returns no finite vector (refuted variant); out= is only rebound (L57, L64). Not modelled: rounding, layouts, the checks of types and dimensions."
  }
 ]
}