{
 "C01": "comm.chunk for every shape, axis and process count.",
 "C02": "counts_displs_shape against chunk.",
 "C03": "sanitize_axis; every legal and illegal argument class.",
 "C04": "broadcast_shape(s) against the NumPy rule.",
 "C05": "Full statement refuted: negative steps / out-of-range bounds are not what Python slices select; proved for the slices on which it is right.",
 "C06": "redistribute_ with and without explicit maps, any layouts with equal totals; wrong totals rejected.",
 "C07": "Termination of the recursive passes, for every pair of layouts.",
 "C08": "All interleavings of the point-to-point plan, synchronous sends; redistribute_ instance.",
 "C09": "balance_ and is_balanced.",
 "C10": "collect_ including the out-of-range target.",
 "C11": "Refuted in general (stale map after larray assignment, unchecked target_map, mismatched collective in is_balanced); proved for the listed operation histories.",
 "C12": "Halo exchange proved for at least two populated ranks; single populated rank and stale halos refuted.",
 "C13": "Slices with positive step in range proved; refuted for others.",
 "C14": "Integer indexing incl. rejection.",
 "C15": "Slice and int assignment of scalars; negative starts, unbalanced arrays refuted; out-of-range is silent.",
 "C16": "Gather through derived datatypes, all layouts / strides / arrival orders, up to 2^31-1 elements (above: C20); local chunk from a replicated array.",
 "C17": "In-place resplit_ proved up to extents 2^24 for every layout; out-of-place proved for balanced sources; unbalanced out-of-place and float32 tile extents refuted.",
 "C18": "Typemap of any strided tensor; transport between different strides.",
 "C19": "Typemap exact; refuted: type not committed when 2^31-1 divides the count.",
 "C20": "Correct below 2^31; refuted: int32 product wraps.",
 "C21": "Correct except the 2-D contiguous case with first stride >= 2^31-1, refuted.",
 "C22": "cumsum/cumprod along the split axis, another axis, or axis=None rejected; every layout including empty ranks.",
 "C23": "Proved for non-empty reduced ranks or true neutral elements; refuted: wrong neutral of max/min, wrong local/global shapes in corner cases, repeated axes accepted.",
 "C44": "transpose, expand_dims, squeeze, moveaxis, swapaxes, flatten, stack. Refuted: expand_dims with unsorted axis tuple, squeeze re-splits its input.",
 "C49": "item/casts: one-element arrays on any layout; others raise.",
 "C45": "Proved for every supported combination of splits, all layouts; every other combination raises; refuted: different split axes, (0,) with (1,), balanced flag of a result broadcast along the split axis. out= and where= not modelled.",
 "C27": "Proved for splits along axis 0 (and None) on any number of processes, below 2^24 elements and away from a share ending exactly at the counter's low-word overflow; each rank's local values given exactly for any split. Refuted: split along another axis depends on the process count, carry at the overflow, float32 counter advance and start positions above 2^24 elements.",
 "C28": "Both Threefry widths, all seeds.",
 "C29": "Seeding: full. State round trip: Threefry and counter-based draws; refuted for Batchparallel, permutations and for switching the algorithm.",
 "C30": "Flocq model of float32/float64 rounding; uses the axioms of Coq's Reals.",
 "C31": "Evenly distributed arrays split along axis 0; refuted for unbalanced ones (row lost / never returns).",
 "C51": "The modulo/abs/offset step for every raw word.",
 "C32": "All data types. Refuted: a safe cast is not always a same_kind cast (int8 to float32), against the documentation. The rest of the nesting is proved.",
 "C52": "Exact characterisation except int64 to float64/complex128, which is listed as safe and refuted.",
 "C53": "Finding: Heat's own names ('int32', 'float32') are not accepted as designations.",
 "C54": "Kind for any number of arguments, full characterisation for two; refuted: with three arguments the order matters.",
 "C24": "argmax/argmin along the split axis: even layouts, any reduction tree over consecutive ranks (one lane: any tree). Refuted: non-consecutive commuted trees with several lanes, float64 comparison of 64-bit integers, uneven layouts, axis=None flat index.",
 "C25": "Mean and variance over all elements / along the split axis for every division of the sample, exact arithmetic. Refuted: first two ranks empty, one row per rank with ddof=1, NaN masked, split of a tuple-axis reduction.",
 "C26": "bincount for every division of the data; refuted: float32 weights dtype mismatch on an empty rank.",
 "C33": "roll along any axes, any split, layout (also empty ranks), process count, positive/negative/large shifts; the message exchange always completes, one receive per message. axis=None is flatten+roll+reshape (see C36). MPI's tag upper bound (tags are global indices) is not modelled. C33_shift_list_changed: side effect found. roll without axis is C33_roll_flat (flatten, roll, reshape).",
 "C34": "flip along any axes (incl. the split axis, unbalanced layouts) and rot90 of split arrays; replicated rot90 is torch.rot90 (not modelled).",
 "C36": "reshape of every represented array (any layout, any split, -1 inference, new_split) yields the row-major data in the new shape, in the requested split and balanced layout; C36_shapes/C36_inferred give numpy's shape rule. Missing: the recorded split/shape of the input changes (resplit in place), and one-element distributed arrays to shape () raise (C36_scalar_refuted).",
 "C55": "array(split=), array(is_split=) for every layout, exact rejection of inconsistent pieces. Conversion of Python/numpy objects to torch tensors, dtype, device and memory layout are not modelled.",
 "C56": "full/zeros/ones, eye, arange on integers, linspace over exact rationals (no rounding). C56_arange_empty_refuted: an empty range raises RuntimeError instead of giving an empty array.",
 "C35": "concatenate (hence hstack/vstack) of any number of balanced operands, every split combination; two operands with arbitrary layout where no rank holds more than its share of the result; exact rejections; exchange completes under every schedule. Dtype promotion unmodelled. Missing because false in the code: C35_unbalanced_refuted (rows silently permuted when a rank holds more than its share), C35_squeeze_refuted (RuntimeError for a replicated operand with another extent 1).",
 "C40": "[proved] nonzero on balanced arrays for every split. The _refuted theorems are side findings outside the statement: order is not row-major for split >= 1 (C40_order_refuted), and coordinates are wrong for unbalanced arrays because the balanced offset is used (C40_unbalanced_refuted).",
 "C41": "[proved] tril/triu (1-D and n-D), diag of a vector, diagonal over any two axes, fill_diagonal, with their rejections. Side findings outside the statement: for unbalanced arrays the balanced offset is used and wrong elements are kept/filled (C41_tri_unbalanced_refuted, C41_fill_diagonal_unbalanced_refuted). diag of a matrix is diagonal.",
 "C57": "[proved] Side findings outside the statement: a non-boolean condition scales x (C57_nonboolean_refuted); in binary64 an infinite (or NaN) element of the branch not taken gives NaN (C57_infinite_refuted). Scalar x/y and dtype promotion are not modelled.",
 "C42": "[proved] split by sections and by cut points for every shape, axis, split and process count, with the exact condition under which k equal sections fail (C42_sections_fail_refuted; numpy would return the pieces). Side findings outside the statement: decreasing cut points and unbalanced arrays raise RuntimeError, an empty axis yields a single piece.",
 "C43": "unfold for every shape, axis, split, uneven layout and previous halo state. Not modelled: element types (a rank without windows creates an empty float32 tensor whatever the type of x).",
 "C37": "[proved] Whole pipeline per lane: local sort, pivots, partition, bucket exchange, rebalancing loop, second exchange, final sort; lifted to n-D. The regular-sampling bound is proved and shown to make the rebalancing loop correct. The _refuted theorems are side findings outside the statement's preconditions: default axis=-1 sorts only locally, an empty distributed axis raises IndexError, indices wrap in narrow element types, NaN with descending=True. Not modelled: axis=None, out=, float rounding of indices other than as the cast parameter.",
 "C38": "[proved] unique for axis=None (with the inverse indices, canonical layout) and axis=split, every layout incl. empty ranks; torch.unique enters as any function keeping each key once. Side findings outside the statement: an axis other than the split axis returns the first slices instead of the distinct ones (C38_other_axis_refuted); with axis=split the inverse indices are wrong or the call raises (C38_axis_inverse_refuted, C38_axis_inverse_raises).",
 "C39": "[proved] Values for every layout, tree, largest/sorted; indices when dim is not distributed. Side findings outside the statement: indices along a distributed dim are wrong (offset from the local shape times the rank, C39_indices_refuted); vectors with a rank holding fewer than k elements raise (C39_short_raises); integers above 2^53 lose bits (C39_double_refuted); the fill value beats -inf (C39_neutral_refuted). k above the extent and out= are not modelled.",
 "C46": "Proved for all files, tables, headers, both terminators and all process counts: split=None and split=1 in full (C46_text_modes); split=0 with \\n never returns a wrong table (C46_rows_sound: every non-blank line read exactly once, in order) and succeeds whenever lines take at most half a share (C46_rows_complete_partial, also for \\r\\n when no share begins inside a terminator). The property in full is false of the code, and that is proved by counterexamples: a \\r\\n cut by a share boundary loses a digit (cut_terminator) or turns a header line into data (cut_header), a process without line start raises IndexError (small_file), columns are not counted in single-row files (column_lost), blank and ragged lines are treated differently per split. Missing: encodings that are not ASCII compatible, separators of several characters.",
 "C47": "[proved] C47_integers and C47_floats give the complete file content for every layout, number of processes and order of writes; C47_roundtrip(_rows) composes with load_csv (C46). log10 is a parameter (log10_ok: never too small from 0.11 on; C47_log10 shows an instance), as is float(). The _refuted theorems show that the preconditions of the property are needed: without them the code writes overlapping rows. NaN/inf, other dtypes and more than two dimensions are not modelled.",
 "C48": "Ring proved for every process count, schedule and size (one operand and two operands), local layouts too. The last sentence is refuted: X.split=0 with Y.split=1 returns zeros instead of raising (C48_column_split_refuted). Unbalanced operands, Probe/Get_count on non-float types and tile-size dependent rounding of torch.cdist are not modelled.",
 "C50": "Proved for torch tensors of equal shape with any strides. Refuted: NumPy receive buffers (np.copyto arguments exchanged: the send buffer is overwritten), IN_PLACE gathers raise, non-contiguous receive views of reductions are detached from their base, equal counts in different shapes raise, counts of v-calls ignored.",
 "C58": "Construction (split, is_split, replicated) and to_sparse/to_dense round trip, CSR and CSC, every layout. Oracle: torch's own dense-to-compressed conversion ([converts], instance conv_ex). Not modelled: dtype/device conversion, scipy input, the balanced flag (always set True, also for unbalanced is_split pieces).",
 "C59": "Proved for up to 2^24 stored elements; beyond that the code keeps counts and offsets in float32 and the line pointer is wrong (C59_views_large_refuted).",
 "C60": "Element-wise theorems for every operand combination; the operation on one process is an oracle ([elementwise], instance op_ex). Refuted parts: adding a number only changes the stored elements; processes where neither operand stores an element record the first operand's data type; equal shapes with different layouts raise (C60_layouts). out= is not modelled (it raises: device is read-only).",
 "C61": "Every split combination for balanced layouts (C61_balanced_ready) and the unbalanced layouts the branches support; addition only assumed associative with zero, so floating point rounding is outside. Refuted parts: unbalanced operands give a silently wrong product (1-None, None-0) or raise (00, 01, 11); allow_resplit on stacks adds all rows to the first ones; vector-vector re-splits both operands in place; a matrix and a vector that do not fit raise IndexError; one process loses the split. Mixed data types are not modelled.",
 "C62": "Proved for arrays without empty extents whose layout has data on rank 0 and on the last rank with data (every balanced layout with at least two elements along a padded split axis: C62_balanced_ready), any layout if the split axis is not padded. Refuted: one element along the split axis (end not padded), empty extents (not padded, or uninitialised contents), empty first rank, fill sequences that do not match the number of axes (silently not padded). Modes other than constant are not modelled.",
 "C63": "Proved over any commutative monoid with absorbing zero (integers; floating-point rounding of reordered sums is not modelled): distributed signal with replicated kernel, distributed kernel with replicated or distributed signal, nothing distributed. Refuted: replicated even kernel and signal on several processes with stride 1 (ranks other than 0 drop the first element), unbalanced signal with empty first rank (padding lost), distributed kernel with a signal rank without elements (RuntimeError). Batched (n-D) signals, data types, and the layout of the result for distributed kernels are not modelled.",
 "C64": "Proved for replicated arrays and for all layouts in which no process needs more than it receives from its right neighbour (all balanced layouts, C64_balanced_smooth). Refuted: an empty process before a non-empty one (axis = split) or a process holding less than the next one (axis <> split) gives an MPI truncation error. prepend/append (concatenate, C54) and data types are not modelled.",
 "C65": "Proved for balanced arrays and all permutations. Refuted: with an unbalanced array the holder of a row is computed from the balanced layout, and a process is asked for memory in front of its data. The MPI struct types are modelled as lists of blocks.",
 "C66": "Proved for balanced arrays and fractions p < 1 (exact product; the rounding of the float l*p is not modelled). Refuted: p = 1 ends in an AssertionError (perm[-0:] is the whole permutation).",
 "C67": "Proved for balanced arrays split along axis 0: blocking shuffles keep all pairs, non-blocking ones keep the served pairs. Refuted: last_epoch = True with ishuffle re-inserts the rows received one epoch before (duplicates and losses); ishuffle with test_set raises AttributeError in the second epoch; ishuffle drops a rank's remainder row for good. Batching by torch's DataLoader is not modelled.",
 "C68": "Proved for thresholds in [0,1) with exact arithmetic; mode max/rel for non-negative metrics. Refuted: in mode max/rel with a negative best value a worse value counts as an improvement and replaces it; threshold 1 in min/rel never improves (inf*0 = NaN); the docstring of test_if_improving states the opposite of the answer.",
 "C69": "Proved for every schedule and history: bounded work, no deadlock, all batches with the right indices, elements made of file rows; sample/label pairing only for the first epoch with an index list without repetition. Refuted (schedules exhibited): pairing with repeated indices (torn read), lost notification (rows never loaded, loader waits for ever), misaligned count after a race on used_indices (no further load), wrap-around to rows of other processes. One step per access of shared state; transforms, devices and h5py's own locking not modelled; load_len a multiple of the batch size (L253-256 not modelled).",
 "C70": "Proved for last_batch = index of the last batch (as the examples set it) and, for the skip range, warmup >= 1 and reduction factor <= 2. Refuted: last_batch = len(dataloader), as step's message and the docs ask (ValueError in the cool-down); warmup_epochs = 0 never skips; a larger reduction factor makes the skip 0 for good; local_skip_factor > max_global_skips gives a negative batches_to_wait. Parameters are exact rationals; casts and chunked buffers not modelled.",
 "C71": "Proved: blocking always; non-blocking: every forward pass of a run, and whole histories of epochs when zero_grad stands between forward and backward, for batches in which every parameter gets a gradient and every layer runs, and parameters that belong to submodules. Refuted: zero_grad before forward (examples/nn/mnist.py): model.eval() applies the sum of the last two gradients; parameters of the top module itself are used before their pending update; a layer without gradient is stepped by the blocking, not by the non-blocking scheme. Equal initial parameters are assumed (the code only resets modules with reset_parameters); reductions match across processes; casts left out.",
 "C72": "Proved: for exact index arithmetic, every scalar q, axis, split and interpolation. With the float32 arithmetic of the code: no failure up to 2^24+1 elements, position within (n-1)/2^22 of the exact one, exact for q/100 = a/2^j with a(n-1) <= 2^24, hence for the median up to 2^24+1 elements (midpoint: up to 2^23+1). Lists: same, but along a distributed axis only for sorted lists with two or more entries. axis=None: same. Tuples of axes: shape and split handed to reshape are right if the axes are the leading ones. Refuted: unsorted list along the split axis comes back in the wrong order; one-element list along the split axis gives empty local arrays; 2^24+4 elements: q=100 raises IndexError; 2^24+2 elements: wrong median; 32-bit integers are rounded to float32; negative q is accepted; tuple of non-leading axes: wrong result shape or an unbound variable. Sorting along the split axis assumes the canonical layout (C37). Not modelled: out=, sketched=True, NaN, GPU.",
 "C73": "Proved: without out; with out of the same shape, split and layout; with out of a larger shape and a replicated operand stretched along out's split. Refuted: out with another split silently receives repeated local pieces; out that is smaller, or has an extra leading dimension of extent 1, is resized under its metadata. Dtype casts are part of the function applied (C32).",
 "C74": "[proved] Proved for all rational values: the binary search of torch.bucketize is modelled step by step. Side findings (refuted theorems): unordered bins are accepted where NumPy raises; an empty sequence of bins raises IndexError. NaN is not modelled.",
 "C75": "Proved for exact bin arithmetic and any conversion of min and max to the element type that keeps them different. Refuted: one process and an input with a split: out is returned unwritten; min < max that are equal in float32 (2^24, 2^24+1): every process uses its own range and the result depends on the process count. Counts are exact integers in the model (torch counts in the element type: float32 counts saturate at 2^24).",
 "C76": "Proved: the result is the outer product for every layout of the operand that stays and canonical layout (or replication) of the one that travels; on two or more processes a result that is returned is never wrong, for any layout; with buffered sends every execution makes progress, ends within 2(P-1)P steps, leaves no message and gives that result. Refuted: with synchronous sends (large messages) all processes wait in their first Send; a travelling operand in a non-canonical layout raises RuntimeError; replicated operands come back split (resplit_ in place). Not modelled: dtypes, out=, operands with more than one dimension (flatten is C44), the balanced flag.",
 "C77": "Proved over every field with mathcomp's \\det, for rows or columns of the matrices distributed (elimination with row exchanges) and for distributed stacks: exact with an exact test for 0; with np.isclose the result is the determinant or 0. Refuted: np.isclose takes |pivot| <= 1e-8 for 0, so det of a distributed diag(eps, 1/eps) is 0 although it is 1 on one process; a distributed 0x0 matrix raises ValueError from reshape(-1, 0, 0). Not modelled: rounding, dtype checks; torch.linalg.det of one matrix is taken to be exact.",
 "C78": "Proved over every field with mathcomp's matrices: a returned result is the two-sided inverse of every matrix, whatever the tolerance; with an exact test for 0 the call succeeds iff all matrices are invertible, else RuntimeError. Refuted: with np.isclose an invertible distributed matrix with a small pivot raises RuntimeError; distributed 0x0 matrices raise ValueError (C77_empty_refuted). Not modelled: rounding, dtype checks, the MPS branch; torch.inverse of one matrix is taken to be exact.",
 "C79": "Proved in exact rational arithmetic for every history: counts, means and priors are those of all samples seen (weighted or not); the variances are those of all samples plus the class-weighted mean of the batches' smoothing terms; a history raises iff some batch's label set is not exactly the class set; without smoothing every cut into batches equals one fit. Refuted: batches lacking a class raise ValueError although partial_fit is meant for them, and the failed call leaves sigma_ lowered by the smoothing term; with smoothing batches and one fit differ; fit on an estimator fitted to other labels raises ValueError instead of starting anew. Not modelled: rounding, shape checks, predict.",
 "C80": "Proved over every field: in all layouts with canonical extents the result is the unique solution, distributed along the rows; distributed stacks for equal extents; the accepted shapes and splits. Refuted: A not split and b split with float64 fails on two or more processes, since the receive buffer is float32 (the MPI error of a truncated message, RuntimeError in the model); with unbalanced layouts an update can be broadcast to wrong rows without an exception; stacks with different extents are broadcast. Not modelled: rounding, zero diagonals, the TypeError for arguments that are not DNDarrays.",
 "C81": "Proved in exact rational arithmetic: the meaning of labels and centers, the stopping rule, consistency when the centers did not move, monotone cost, independence of the layout; KMedoids' centers are samples for canonical layouts. Refuted: inertia_ is the movement of the centers, not the documented sum; a cluster without points gets the origin as its center; init='random' never picks the last sample and fails for one sample; max_iter=0 fails (unbound name); KMedoids looks samples up with canonical displacements, so in other layouts it takes a wrong row or raises IndexError, and treats clusters of points in the origin as empty. Not modelled: rounding, x split along the features, k-means|| and batch-parallel initialisation, KMedians' update, KMedoids' median (a parameter).",
 "C82": "Proved: both forms for int, sequence and distributed counts over any layout when counts and array are distributed alike (always so for balanced arrays); balanced result; rejections off the split axis. Refuted: along the split axis a wrong number of counts succeeds when each process happens to hold one count (two counts for four elements on two processes); an unbalanced array with several counts silently uses other elements' counts; an array without elements is returned unchanged (not flattened, extents not multiplied). Not modelled: dtype checks, warnings, conversion of a from Python objects.",
 "C83": "Proved for all layouts in which the first process holds at least one slab along the split axis (every balanced layout), all splits and repetitions, whatever memory contained: the Alltoallv calls deliver every copy to the right place. Refuted: if the first process holds nothing, data received in later repetitions is copied from the wrong offset and parts of the result are uninitialised memory; with more repetitions than dimensions the argument itself is re-split along axis 0. Not modelled: conversion of reps and scalars, dtypes, the 32-bit repetition offsets (L4297).",
 "C84": "Proved: equal for all shapes and all layouts unless both operands are split along different axes; allclose for operands of one shape when at most one is split, or same split and layout, or different splits with x balanced, and against a number in all layouts; isclose for replicated operands or one process. Refuted: equal raises for different split axes; equal of one-element float64 arrays compares float32 roundings; allclose of equally split but differently laid out arrays (and of a matrix and a vector both split along 0) compares the wrong elements: equal arrays are reported different and different ones equal; isclose of a split operand on several processes returns a DNDarray that is inconsistent for all inputs. Not modelled: type promotion, scalars that are not DNDarrays, different communicators.",
 "C85": "Proved for all functions whose outputs depend only on the tensors and whose output shapes depend only on the input shapes. Not modelled: chunk_size and randomness (passed to torch), keyword arguments, type checks of the arguments.",
 "C86": "Proved: for all shapes, values, layouts in which every process holds elements, and non-negative axes, ptp(axis) and ptp() give the ranges with correct shape and split, and keepdims=True too if the axis is not before the split axis. Refuted: a negative axis mislabels the split (None becomes 0, or -1); keepdims with an axis before the split axis labels split-1; keepdims without axis gives local shape (1); a process without elements turns the result into NaN or raises; a tuple of axes (0,1) gives wrong values even in one process. Not modelled: out=, integer dtypes, the sizes of halves when 2h overflows.",
 "C87": "Proved: out= and in-place operations for all shapes and layouts whose operands can follow the buffer (replicated, same split axis, or extent one there), refusal of wrong buffers and of x op= y with replicated x and split y, where= with a mask that is replicated, has extent one along the split axis or has the buffer's layout. Refuted: a mask split like the buffer with another layout is not redistributed: elements that are masked out are overwritten, or one process raises after others wrote. Not modelled: dtype promotion, where= without out= (the unselected elements are uninitialised).",
 "C88": "Proved: broadcast_to for all shapes and layouts except that, on several processes, the split axis may not be broadcast from one to zero; refusal of every other shape; broadcast_arrays for arrays of one dimension, the first of full extent along its split axis, the others able to follow it. Refuted: the 1-to-0 case; broadcast_arrays for arrays of different dimension (sanitize_distribution reads shape[target.split] without aligning axes on the right): the docstring's own example raises ValueError on two processes, and shapes (4,1)/(4) give local tensors that contradict the global shape; a first array of extent one along its split axis raises.",
 "C89": "[proved] Proved for all inputs, including the refusals. Side findings: the grids are always flagged balanced, which is proved truthful for a balanced vector (C89_balanced_flag) and refuted for an unbalanced one (C89_flag_refuted). Not modelled: 0-dimensional inputs.",
 "C90": "Proved for axes in order or offset 0: matrices in the balanced layout, arrays of any dimension whose split axis lies before or behind both axes (any layout) or that are replicated or on one process, the split axis among the two when no process holds more than one element of it; refusal of bad axes. Refuted: unbalanced matrices (wrong sum: the offset is that of the balanced layout); axis1 > axis2 with an offset (the axes are exchanged without negating it, in matrices ignored); two diagonal elements on a process raise RuntimeError (reshape instead of sum); a split axis between the two axes gives a wrong global shape; axis -4 of a matrix is accepted. Not modelled: dtype=, out=, floating point rounding.",
 "C91": "Proved: reading from a replicated array or one split along axis 0, in any layout, any mask layout, zero or at least two selected elements (any number if not distributed); for other split axes the same elements, ordered by owner; writing a scalar through any mask for every split axis in the library's own layout. Refuted: one selected element of a distributed array gives a vector of advertised length 1 that no process holds; row-major order for split axes other than 0; writing into an unbalanced array sets other elements (local coordinates are computed with the balanced chunk starts); an array with an empty axis raises IndexError. Not modelled: masks of another shape than x's, value arrays, integer coordinate keys.",
 "C92": "[proved] Proved for every one-dimensional transform F and every split, axis and n; the layout along the transformed axis must be balanced if it is the split axis and there are several processes (C17's condition on resplit). Side finding: a replicated array with an empty axis raises TypeError instead of giving an empty result. Not modelled: dtypes (an empty local tensor keeps the real dtype), rfft and ihfft, fftn.",
 "C93": "[proved] Proved for every P, procs_to_merge, layout and every sound local QR (which may raise), provided that every first-level group of at least two processes holds at least n rows together (balanced layouts with at least two columns always do; mode='r' needs no such condition). Side finding: without it the call raises although its own test for TS-QR succeeds, e.g. a 2x1 matrix on 4 processes with the default procs_to_merge=2 (receive buffers are given n columns). Not modelled: batches, floating point, the algorithm for matrices that are not tall-skinny (L240-266).",
 "C94": "Proved for at least as many rows as columns, every number of processes and sound local QR: Q R = A, R upper triangular, every block of Q orthonormal, and Q orthonormal if no diagonal entry of R is zero. Refuted: for linearly dependent columns Q is not orthonormal ([[1,1],[0,0]] on two processes gives Q = A); for more columns than rows Q R = A fails when the block that reaches the last row starts with a dependent column (a 3x4 matrix with a zero third column on two processes). Not modelled: batches, floating point, unbalanced layouts (Q and R are created in the canonical one).",
 "C95": "Proved: the dictionary is right for every distribution when the extent of the split axis is below 2^24 (float32, complex64), 2^53 (float64, complex128) or any size (integer types); the reported dictionary is current after any history of reads and resplit_; the round trip keeps every local tensor, and all processes agree on split and balanced, unless one of several processes holds the whole array. Refuted: float32 offsets above 2^24 are rounded, so elements lie outside every box; redistribute_/balance_ do not clear the cached dictionary, which then shows the old layout; if one process holds everything (e.g. one row on two processes) it infers split=None and the others split=0. Not modelled: numpy data, dictionaries of other libraries, dtype/device entries.",
 "C96": "Proved for every distribution in which no block is taller than the blocks of a merged group together (all canonical layouts with a row on every process): Q is m x min(m,n), R upper triangular, Q R = A on the first min(m,n) columns (all of them for n <= m), Q orthonormal if no diagonal entry of R is zero, and Q R = A also for m < n if besides Q Q^H = 1. Refuted: with dependent columns Q is not orthonormal ([[1,1],[0,0]] on two processes); with fewer rows than processes it raises RuntimeError (2x3 on four processes). Not modelled: batches, floating point, the final balance() of R (C09).",
 "C97": "Proved for every choice of the axis arguments, equal shapes apart from the vector axes, aligned splits and equal row distributions (balanced if an operand holds plane vectors), and for two arrays of plane vectors if the split axis comes before the output axis. Refuted: differently distributed rows are not redistributed (the test uses the methods is_balanced without calling them) and give local results that do not fit the global shape; two arrays of plane vectors split behind the vector axis give a result whose split is one too large. Not modelled: promotion; broadcasting between different extents is in the model but not in the theorem.",
 "C98": "Proved: the displayed tree of elements (rows, ellipses, nesting) is that of the global array for every layout, unless the array is distributed and summarized and its split axis has more than 2e but fewer than 3e rows on more than two processes. Refuted in that case (7 rows on 3 processes with the default options: row 4 is missing without an ellipsis), and beyond the displayed rows: the number formatter sees different elements on different process counts, and printing rebalances the array. Not modelled: the formatting of numbers and line breaks.",
 "C99": "vdot: proved for every layout and equal numbers of elements. vecdot: for every layout combination that binary operations support (C45), keepdims or at least two dimensions. dot: proved for vectors of equal length with every split combination and balanced layouts. Refuted: dot of unbalanced vectors drops elements (3 + 1 ones give 3); dot of split vectors of different lengths returns a number, and vdot broadcasts a one-element operand; out= of dot is only rebound and keeps its old contents. Not modelled: promotion; the other branches of dot are multiply (C45) and matmul (C61).",
 "C100": "Proved over exact rationals: fit, transform and inverse_transform of MinMaxScaler for every layout of the fitted data, and for data transformed later whose split along the features agrees with that of the fitted data (both split along the features, or neither); all processes take the same branch on almost constant features; StandardScaler round trip for arbitrary parameters with non-zero scales. Refuted for data split along the features with fewer features than processes: the parameters of a process without features keep the local shape (n, 0). Missing: rounding; StandardScaler.fit (mean, variance: C25; square root); copy=False; Normalizer, MaxAbsScaler and RobustScaler.",
 "C101": "[proved] Proved over exact rationals on the global values (the distributed products and element-wise operations that cg composes are C61, C45 and C99): tolerance test for every square matrix, convergence within n iterations for symmetric positive definite ones. Side findings: started at the exact solution, cg divides 0 by 0 and returns no finite vector (refuted variant); out= is only rebound (L57, L64). Not modelled: rounding, layouts, the checks of types and dimensions."
}