{"id": "C01", "title": "chunk partitions the split axis", "statement": "For every shape, split axis and number of processes, the slices that comm.chunk hands to ranks 0..P-1 are consecutive, disjoint and cover 0..n exactly once along the split axis; the sizes differ by at most one, are non-increasing with rank, the returned local shape equals the global one except at the split axis where it is the slice length, and split=None yields the whole array on every rank.", "quantifier": "all shapes (any rank, any extents incl. 0), all axes, all process counts >= 1, all ranks", "why_tests_cant": "Tests run on a few communicator sizes and shapes; the property must hold for every number of processes and every length, including empty ranks and lengths not divisible by the number of processes.", "anchors": ["heat/core/communication.py:MPICommunication.chunk"]}
{"id": "C02", "title": "counts/displacements agree with chunk", "statement": "comm.counts_displs_shape returns, for every rank, exactly the length and offset that comm.chunk gives that rank; displacements are the exclusive prefix sums of the counts, the counts sum to the extent of the axis, and a v-collective using them neither overlaps nor leaves a hole.", "quantifier": "all shapes, axes, process counts, ranks", "why_tests_cant": "Tests run on a few communicator sizes and shapes; the property must hold for every number of processes and every length, including empty ranks and lengths not divisible by the number of processes.", "anchors": ["heat/core/communication.py:MPICommunication.counts_displs_shape"]}
{"id": "C03", "title": "axis sanitation", "statement": "sanitize_axis(shape, axis) accepts an integer axis exactly when -ndim <= axis < ndim, maps it to the unique equivalent non-negative axis, is idempotent, normalises every entry of a tuple the same way, raises ValueError for out-of-range axes and TypeError for non-integers, and maps every legal axis of a 0-d shape to None.", "quantifier": "all shapes and all integer, tuple, None or ill-typed axis arguments", "why_tests_cant": "The range of axis values and tuple lengths is unbounded.", "anchors": ["heat/core/stride_tricks.py:sanitize_axis"]}
{"id": "C04", "title": "shape broadcasting", "statement": "broadcast_shape(a, b) succeeds exactly when, aligned from the right, each pair of extents is equal or contains a 1, raises ValueError otherwise, and the result is the NumPy result; it is commutative and associative, idempotent, and () is its unit; broadcast_shapes over a list is independent of the order.", "quantifier": "all pairs / triples / lists of shapes", "why_tests_cant": "Infinitely many shape pairs of different ranks.", "anchors": ["heat/core/stride_tricks.py:broadcast_shape", "heat/core/stride_tricks.py:broadcast_shapes"]}
{"id": "C05", "title": "slice sanitation", "statement": "sanitize_slice(sl, n) returns a slice with non-None non-negative-normalised start/stop and a step that selects exactly the elements the Python slice selects from a sequence of length n.", "quantifier": "all slices (any integers or None) and lengths", "why_tests_cant": "Unbounded integer space of start, stop, step.", "anchors": ["heat/core/stride_tricks.py:sanitize_slice"]}
{"id": "C06", "title": "redistribute_ delivers the target layout and keeps the data", "statement": "After x.redistribute_(lshape_map, target_map) every rank holds exactly target_map[rank] slabs along the split axis and the concatenation of the local arrays in rank order (the global array) is unchanged, from any initial layout to any target layout with the same total; a target with a different total raises ValueError.", "quantifier": "all process counts, all (unbalanced, empty-rank) source and target layouts, all contents", "why_tests_cant": "The pairwise shuffle loop takes a data-dependent path for every pair of layouts; the space of layouts is infinite.", "anchors": ["heat/core/dndarray.py:DNDarray.redistribute_", "heat/core/dndarray.py:DNDarray.__redistribute_shuffle"]}
{"id": "C07", "title": "redistribute_ terminates", "statement": "redistribute_ performs finitely many passes (its recursive call after an incomplete pass always ends), for every pair of layouts with equal totals.", "quantifier": "all process counts, source and target layouts", "why_tests_cant": "Termination over an unbounded space of layouts cannot be observed by finitely many runs.", "anchors": ["heat/core/dndarray.py:DNDarray.redistribute_"]}
{"id": "C08", "title": "point-to-point schedules cannot deadlock and are schedule independent", "statement": "If every process executes its projection of one global sequence of matched point-to-point exchanges (as redistribute_, flip, concatenate, roll and the pairwise distance ring do), then no interleaving deadlocks, even with synchronous (unbuffered) sends, and every interleaving ends in the same final state.", "quantifier": "all process counts, all message sequences, all interleavings", "why_tests_cant": "The number of interleavings is exponential and MPI picks only a few of them in tests; synchronous-mode deadlocks do not show with eager sends.", "anchors": ["heat/core/dndarray.py:DNDarray.redistribute_", "heat/core/manipulations.py:flip", "heat/spatial/distance.py:_dist"]}
{"id": "C09", "title": "balance_ yields the canonical layout", "statement": "x.balance_() leaves the global array unchanged, afterwards every rank holds exactly the slab that comm.chunk assigns to it, is_balanced is true, and a second balance_ changes nothing.", "quantifier": "all layouts, contents and process counts", "why_tests_cant": "Tests run on a few communicator sizes and shapes; the property must hold for every number of processes and every length, including empty ranks and lengths not divisible by the number of processes.", "anchors": ["heat/core/dndarray.py:DNDarray.balance_", "heat/core/dndarray.py:DNDarray.is_balanced", "heat/core/manipulations.py:balance"]}
{"id": "C10", "title": "collect_ gathers everything on the target rank", "statement": "x.collect_(r) leaves the global array unchanged and afterwards rank r holds all slabs and every other rank holds none.", "quantifier": "all layouts, contents, process counts, target ranks", "why_tests_cant": "Tests run on a few communicator sizes and shapes; the property must hold for every number of processes and every length, including empty ranks and lengths not divisible by the number of processes.", "anchors": ["heat/core/dndarray.py:DNDarray.collect_"]}
{"id": "C11", "title": "layout metadata never goes stale", "statement": "After any sequence of redistribute_, balance_, collect_, resplit_ and local-array assignments the lshape_map / counts / displacements an array reports are those of the actual local arrays.", "quantifier": "all histories of layout operations", "why_tests_cant": "Staleness only shows on particular operation histories; there are infinitely many.", "anchors": ["heat/core/dndarray.py:DNDarray.create_lshape_map", "heat/core/dndarray.py:DNDarray.redistribute_", "heat/core/dndarray.py:DNDarray.larray"]}
{"id": "C12", "title": "halo exchange", "statement": "After x.get_halo(h) every non-empty rank's array_with_halos is the contiguous window of the global array from max(0, start-h) to min(n, end+h) of its own slab; halo sizes bigger than the smallest non-empty chunk are rejected on all ranks, negative sizes raise ValueError and non-integers TypeError; the global array is unchanged.", "quantifier": "all layouts with any pattern of empty ranks, halo sizes, contents", "why_tests_cant": "Tests run on a few communicator sizes and shapes; the property must hold for every number of processes and every length, including empty ranks and lengths not divisible by the number of processes.", "anchors": ["heat/core/dndarray.py:DNDarray.get_halo", "heat/core/dndarray.py:DNDarray.array_with_halos"]}
{"id": "C13", "title": "slicing along the split axis", "statement": "x[start:stop:step] on the split axis gives a distributed array whose global content is the Python slice of the global array and whose reported global shape equals the total of the local shapes, for every layout.", "quantifier": "all layouts, starts, stops, steps >= 1, contents", "why_tests_cant": "The slice/step/rank-boundary alignment space is unbounded.", "anchors": ["heat/core/dndarray.py:DNDarray.__getitem__", "heat/core/dndarray.py:DNDarray.__xitem_get_key_start_stop"]}
{"id": "C14", "title": "integer indexing along the split axis", "statement": "x[i] for -n <= i < n returns on every rank slab i (i+n if negative) of the global array, broadcast from the one rank that owns it; any other i raises IndexError.", "quantifier": "all layouts incl. empty ranks, all integers i", "why_tests_cant": "Tests run on a few communicator sizes and shapes; the property must hold for every number of processes and every length, including empty ranks and lengths not divisible by the number of processes.", "anchors": ["heat/core/dndarray.py:DNDarray.__getitem__"]}
{"id": "C15", "title": "assignment along the split axis", "statement": "x[i] = v and x[a:b:s] = v change exactly the selected global slabs, to the matching slabs of v, and no other element.", "quantifier": "all layouts, keys and values", "why_tests_cant": "Tests run on a few communicator sizes and shapes; the property must hold for every number of processes and every length, including empty ranks and lengths not divisible by the number of processes.", "anchors": ["heat/core/dndarray.py:DNDarray.__setitem__"]}
{"id": "C16", "title": "resplit to None (gather) and back", "statement": "resplit(x, None) gives every rank the full global array; resplit_(axis) of a replicated array keeps on every rank exactly its chunk; a round trip axis -> None -> axis reproduces the canonical layout with unchanged global content.", "quantifier": "all layouts, shapes, contents and process counts", "why_tests_cant": "Tests run on a few communicator sizes and shapes; the property must hold for every number of processes and every length, including empty ranks and lengths not divisible by the number of processes.", "anchors": ["heat/core/manipulations.py:resplit", "heat/core/dndarray.py:DNDarray.resplit_", "heat/core/communication.py:MPICommunication.Allgatherv"]}
{"id": "C17", "title": "resplit between two axes", "statement": "resplit(x, a2) of an array split along a1 != a2 yields on every rank exactly the block comm.chunk assigns it along a2, i.e. the Alltoallw with sub-array types transfers every global element to precisely its destination position and writes every destination position exactly once.", "quantifier": "all n-dimensional shapes, axis pairs and process counts", "why_tests_cant": "Tests run on a few communicator sizes and shapes; the property must hold for every number of processes and every length, including empty ranks and lengths not divisible by the number of processes.", "anchors": ["heat/core/manipulations.py:_axis2axisResplit", "heat/core/tiling.py:SplitTiles.get_subarray_params", "heat/core/communication.py:MPICommunication.Alltoallw"]}
{"id": "C18", "title": "derived MPI datatypes for strided tensors", "statement": "The (type, count) pair Heat builds for a non-contiguous torch tensor addresses exactly the memory locations of the tensor's elements, each once, in row-major order of the logical tensor; two tensors of equal shape but different strides therefore exchange corresponding elements.", "quantifier": "all shapes and stride vectors", "why_tests_cant": "Unbounded space of shapes and strides.", "anchors": ["heat/core/communication.py:MPICommunication.mpi_type_and_elements_of", "heat/core/communication.py:MPICommunication.as_buffer"]}
{"id": "C19", "title": "messages above 2^31-1 elements", "statement": "For a contiguous tensor with more than 2^31-1 elements the derived type built by _handle_large_count has exactly the same typemap (elements 0..n-1 once, in order) as n base elements, whenever it does not raise; it raises only when n > (2^31-1)^2-ish.", "quantifier": "all element counts", "why_tests_cant": "A test would need > 2^31 elements per message.", "anchors": ["heat/core/communication.py:MPICommunication._handle_large_count"]}
{"id": "C20", "title": "v-collective counts do not overflow", "statement": "The per-rank element counts and displacements passed to MPI for a contiguous buffer equal (slabs per rank) x (elements per slab), for every buffer.", "quantifier": "all shapes and counts", "why_tests_cant": "Overflow appears only for very large trailing extents.", "anchors": ["heat/core/communication.py:MPICommunication.mpi_type_and_elements_of"]}
{"id": "C21", "title": "recursive vector types for Alltoallw", "statement": "The derived type used by Alltoallw for a strided tensor (whether or not strides exceed the MPI count limit) addresses exactly the tensor's elements in row-major order.", "quantifier": "all shapes, strides and count limits", "why_tests_cant": "The branch only triggers for strides above 2^31.", "anchors": ["heat/core/communication.py:MPICommunication._create_recursive_vectortype"]}
{"id": "C22", "title": "cumulative operations", "statement": "cumsum / cumprod along the split axis give, for every layout (empty ranks included), the global inclusive scan; concatenating the local results equals scanning the concatenation.", "quantifier": "all layouts, contents, process counts, every monoid", "why_tests_cant": "Tests run on a few communicator sizes and shapes; the property must hold for every number of processes and every length, including empty ranks and lengths not divisible by the number of processes.", "anchors": ["heat/core/_operations.py:__cum_op", "heat/core/arithmetics.py:cumsum", "heat/core/arithmetics.py:cumprod"]}
{"id": "C23", "title": "reductions", "statement": "sum, prod, max, min, all, any over any set of axes equal the reduction of the global array, regardless of layout, process count and empty ranks; result split and shape bookkeeping (keepdims or not) refers to the same remaining axis as before.", "quantifier": "all shapes, axis tuples, layouts, process counts", "why_tests_cant": "Tests run on a few communicator sizes and shapes; the property must hold for every number of processes and every length, including empty ranks and lengths not divisible by the number of processes.", "anchors": ["heat/core/_operations.py:__reduce_op"]}
{"id": "C24", "title": "argmax / argmin", "statement": "argmax/argmin return the smallest (first) global index attaining the extremum, independent of the layout and of the order in which MPI combines partial results (the combination operator is associative and commutative on the states that occur).", "quantifier": "all contents, layouts, process counts, reduction trees", "why_tests_cant": "MPI may associate reductions arbitrarily; ties and empty ranks are combinatorial.", "anchors": ["heat/core/statistics.py:argmax", "heat/core/statistics.py:argmin", "heat/core/statistics.py:mpi_argmax", "heat/core/statistics.py:mpi_argmin"]}
{"id": "C25", "title": "merging of moments", "statement": "mean, var and std over a distributed axis equal the mean / variance of the whole global sample in exact arithmetic; the pairwise merge is independent of how the sample was divided among processes.", "quantifier": "all partitions of all samples (exact rational arithmetic)", "why_tests_cant": "Tests run on a few communicator sizes and shapes; the property must hold for every number of processes and every length, including empty ranks and lengths not divisible by the number of processes.", "anchors": ["heat/core/statistics.py:__merge_moments", "heat/core/statistics.py:__moment_w_axis", "heat/core/statistics.py:mean", "heat/core/statistics.py:var"]}
{"id": "C26", "title": "bincount", "statement": "bincount(x, weights, minlength) counts every value of the global array exactly (or adds up its weights); the length is max(max(x)+1, minlength) for any distribution.", "quantifier": "all non-negative integer arrays, layouts", "why_tests_cant": "Tests run on a few communicator sizes and shapes; the property must hold for every number of processes and every length, including empty ranks and lengths not divisible by the number of processes.", "anchors": ["heat/core/statistics.py:bincount"]}
{"id": "C27", "title": "random numbers are independent of the number of processes", "statement": "For a given seed and counter, the global array produced by ht.random.* is the same for every number of processes and every split axis: rank r's counter sequence consists of exactly the counters of the global positions it owns; after the call the counter advanced by the number of values consumed.", "quantifier": "all shapes, splits, process counts, counter values incl. wrap-around", "why_tests_cant": "Counter wrap-around at 2^64/2^128 and very large arrays cannot be reached in tests.", "anchors": ["heat/core/random.py:__counter_sequence", "heat/core/random.py:rand"]}
{"id": "C28", "title": "Threefry is a bijection", "statement": "For every key the 32- and 64-bit counter-to-value maps are injective on counters, hence distinct counters never give the same output pair and no output pair repeats in a full period.", "quantifier": "all keys, all counters", "why_tests_cant": "2^64 / 2^128 counters.", "anchors": ["heat/core/random.py:__threefry32", "heat/core/random.py:__threefry64"]}
{"id": "C29", "title": "RNG state round trip", "statement": "set_state(get_state()) is the identity on the generator; seed(s) always yields the same stream; equal states yield equal subsequent draws.", "quantifier": "all states and draw histories", "why_tests_cant": "Infinite histories.", "anchors": ["heat/core/random.py:get_state", "heat/core/random.py:set_state", "heat/core/random.py:seed"]}
{"id": "C30", "title": "uniform floats lie in [0,1)", "statement": "The conversion of random words to floats always yields a value in [0,1), is exact (no rounding up to 1.0) and maps the low mantissa bits injectively.", "quantifier": "all 2^32 / 2^64 words", "why_tests_cant": "2^64 inputs.", "anchors": ["heat/core/random.py:__int32_to_float32", "heat/core/random.py:__int64_to_float64"]}
{"id": "C31", "title": "permutation of a distributed array", "statement": "random.permutation(x) rearranges the global slabs by a true permutation: every slab of x appears exactly once in the result, each at the position given by the common random permutation, for every process count; every Isend has exactly one matching Irecv.", "quantifier": "all permutations, sizes, process counts", "why_tests_cant": "Tests run on a few communicator sizes and shapes; the property must hold for every number of processes and every length, including empty ranks and lengths not divisible by the number of processes.", "anchors": ["heat/core/random.py:permutation"]}
{"id": "C32", "title": "type promotion laws", "statement": "promote_types is commutative, idempotent and returns a type to which both arguments can be cast ('intuitively'); can_cast('safe') is reflexive and transitive and implies can_cast('same_kind') implies can_cast('unsafe'); promotion is associative.", "quantifier": "all Heat types (finite, exhaustively decided)", "why_tests_cant": "Combinatorial triples are not enumerated by the tests; exceptional triples hide.", "anchors": ["heat/core/types.py:promote_types", "heat/core/types.py:can_cast"]}
{"id": "C33", "title": "roll along the split axis", "statement": "roll(x, s, axis=split) puts global slab i at position (i+s) mod n; every send has exactly one matching receive; shape and split are unchanged.", "quantifier": "all shifts (negative, > n), layouts, process counts", "why_tests_cant": "Tests run on a few communicator sizes and shapes; the property must hold for every number of processes and every length, including empty ranks and lengths not divisible by the number of processes.", "anchors": ["heat/core/manipulations.py:roll"]}
{"id": "C34", "title": "flip along the split axis", "statement": "flip(x, split) reverses the global order of slabs for every layout, flipping twice is the identity.", "quantifier": "all layouts, process counts, contents", "why_tests_cant": "Tests run on a few communicator sizes and shapes; the property must hold for every number of processes and every length, including empty ranks and lengths not divisible by the number of processes.", "anchors": ["heat/core/manipulations.py:flip"]}
{"id": "C35", "title": "concatenate along the split axis", "statement": "concatenate((a,b), axis=split) has the global content of a followed by that of b, each rank holding its chunk of the combined extent.", "quantifier": "all layouts and process counts", "why_tests_cant": "Tests run on a few communicator sizes and shapes; the property must hold for every number of processes and every length, including empty ranks and lengths not divisible by the number of processes.", "anchors": ["heat/core/manipulations.py:concatenate"]}
{"id": "C36", "title": "reshape", "statement": "reshape of a distributed array preserves the row-major order of all global elements and delivers every element to exactly the rank and local position of the new layout.", "quantifier": "all shape pairs with the same number of elements, all splits and process counts", "why_tests_cant": "Tests run on a few communicator sizes and shapes; the property must hold for every number of processes and every length, including empty ranks and lengths not divisible by the number of processes.", "anchors": ["heat/core/manipulations.py:reshape"]}
{"id": "C37", "title": "sample sort", "statement": "sort(x, axis, descending), for a non-negative axis, returns values in order along the axis together with indices that are a permutation of 0..n-1 and reproduce them, and keeps shape, split and layout. Sorting along the split axis (sample sort) requires the canonical layout, a non-empty axis, totally ordered values (no NaN) and indices representable in the element type.", "quantifier": "all contents, layouts, pivots, process counts", "why_tests_cant": "Tests run on a few communicator sizes and shapes; the property must hold for every number of processes and every length, including empty ranks and lengths not divisible by the number of processes.", "anchors": ["heat/core/manipulations.py:sort"]}
{"id": "C38", "title": "unique", "statement": "unique(x) returns every distinct value of the global array exactly once, for every distribution; unique(x, axis=k) returns every distinct slice along k exactly once, for arrays that are not distributed and for k the (non-negative) split axis. With return_inverse and axis=None on a canonically distributed array, indexing the result with the inverse gives the array back. Elements are compared for equality (no NaN).", "quantifier": "all contents, shapes, splits, layouts and process counts", "why_tests_cant": "Tests run on a few communicator sizes and shapes; the property must hold for every number of processes and every length, including empty ranks and lengths not divisible by the number of processes.", "anchors": ["heat/core/manipulations.py:unique"]}
{"id": "C39", "title": "topk", "statement": "topk(x,k,dim,largest,sorted) returns the k largest (smallest) values along dim, in order if sorted, whatever order MPI combines the ranks in; the result has the split of x. Along a distributed dim every rank must hold at least k elements (or x is a matrix, dim=1 and no element is worse than the fill value), and elements must be exactly representable as doubles. Along a dim that is not distributed the indices returned are distinct positions of the returned values.", "quantifier": "all contents, layouts, k, reduction trees", "why_tests_cant": "MPI may associate reductions arbitrarily.", "anchors": ["heat/core/manipulations.py:topk", "heat/core/manipulations.py:mpi_topk"]}
{"id": "C40", "title": "nonzero / where", "statement": "nonzero(x) returns, over all ranks, exactly the global coordinates of the non-zero elements of x, each once, with the right global extent; in row-major order when x is replicated or split along axis 0.", "quantifier": "all contents, shapes, split axes and process counts, x in the balanced layout", "why_tests_cant": "Tests run on a few communicator sizes and shapes; the property must hold for every number of processes and every length, including empty ranks and lengths not divisible by the number of processes.", "anchors": ["heat/core/indexing.py:nonzero"]}
{"id": "C41", "title": "diag / diagonal / fill_diagonal / tril / triu use global coordinates", "statement": "diag, diagonal, fill_diagonal, tril and triu on a distributed array act on exactly the elements with the right global i-j offset, and give the result the right global shape and split.", "quantifier": "all shapes, offsets, axis pairs, splits, process counts; arrays in the balanced layout (any layout for diagonal over axes that are not split)", "why_tests_cant": "Tests run on a few communicator sizes and shapes; the property must hold for every number of processes and every length, including empty ranks and lengths not divisible by the number of processes.", "anchors": ["heat/core/manipulations.py:diag", "heat/core/manipulations.py:diagonal", "heat/core/dndarray.py:DNDarray.fill_diagonal", "heat/core/linalg/basics.py:tril"]}
{"id": "C42", "title": "split into sections", "statement": "ht.split of a balanced array at increasing non-negative cut points returns NumPy's pieces, each a correctly distributed array with the split of x. An int k dividing a non-empty extent n returns the k equal pieces, unless x is split along that axis over P < k processes with n/k < n/P, where the call raises IndexError. An int that does not divide the extent raises ValueError.", "quantifier": "all section arguments, layouts", "why_tests_cant": "Tests run on a few communicator sizes and shapes; the property must hold for every number of processes and every length, including empty ranks and lengths not divisible by the number of processes.", "anchors": ["heat/core/manipulations.py:split"]}
{"id": "C43", "title": "unfold (sliding windows)", "statement": "unfold(x, axis, size, step) with step >= 1 and 1 < size <= extent yields exactly the windows starting at 0, step, 2 step,... that fit in the global array, in order, each on exactly one rank, in a layout with the split of x; along the split axis every rank must hold at least size-1 elements, else RuntimeError. Other sizes and steps raise ValueError.", "quantifier": "all sizes, steps, layouts, process counts", "why_tests_cant": "Tests run on a few communicator sizes and shapes; the property must hold for every number of processes and every length, including empty ranks and lengths not divisible by the number of processes.", "anchors": ["heat/core/manipulations.py:unfold"]}
{"id": "C44", "title": "split bookkeeping of shape operations", "statement": "expand_dims, squeeze, swapaxes, transpose/permute, moveaxis, flatten keep track of the split axis: the axis reported as split after the operation is the image of the axis split before.", "quantifier": "all ranks, axes, splits", "why_tests_cant": "Combinatorial number of axis permutations of unbounded rank.", "anchors": ["heat/core/manipulations.py:squeeze", "heat/core/manipulations.py:expand_dims", "heat/core/linalg/basics.py:transpose", "heat/core/manipulations.py:swapaxes"]}
{"id": "C45", "title": "binary operations agree with NumPy broadcasting on global arrays", "statement": "a op b on distributed operands equals element-wise the broadcast operation on the global arrays, for any combination of splits and layouts, and the result's split axis is the dominating operand's.", "quantifier": "all shapes, splits, layouts", "why_tests_cant": "Tests run on a few communicator sizes and shapes; the property must hold for every number of processes and every length, including empty ranks and lengths not divisible by the number of processes.", "anchors": ["heat/core/_operations.py:__binary_op", "heat/core/sanitation.py:sanitize_distribution"]}
{"id": "C46", "title": "parallel CSV reading", "statement": "load_csv with split=0 reads every line of the file exactly once on exactly one rank, for every file content, line terminator and process count.", "quantifier": "all files, header sizes, process counts", "why_tests_cant": "Where byte chunks cut lines/terminators depends on file content and process count.", "anchors": ["heat/core/io.py:load_csv"]}
{"id": "C47", "title": "parallel CSV writing", "statement": "save_csv of a 1-D or 2-D array writes the header lines and then every row exactly where the previous one ends: the file is the same text, rows in global order with right justified numbers, whatever the distribution and the order of the writes; integers saved and loaded again come back. Floating point arrays need a largest magnitude of zero or at least 0.11, no rounding up to an additional digit and no negative zero without a negative number; header characters and the separator must be single bytes.", "quantifier": "all contents, headers, layouts, process counts and write orders", "why_tests_cant": "Tests run on a few communicator sizes and shapes; the property must hold for every number of processes and every length, including empty ranks and lengths not divisible by the number of processes.", "anchors": ["heat/core/io.py:save_csv"]}
{"id": "C48", "title": "pairwise distance ring", "statement": "cdist/rbf/manhattan of X (with itself or with Y) where each operand is replicated or split along axis 0 in balanced form: in every interleaving and buffering of the messages no process waits for ever, the run is finite, and each process ends with its rows (columns for replicated X) of the matrix of pairwise distances; for every number of processes, odd or even. Layouts that are not supported raise an error.", "quantifier": "all process counts (odd and even), metrics, sizes", "why_tests_cant": "Blocks and interleavings grow with the number of processes.", "anchors": ["heat/spatial/distance.py:_dist"]}
{"id": "C49", "title": "scalar casts", "statement": "int(x), float(x), bool(x), complex(x), x.item() succeed exactly for arrays with one element and return that element on every rank, whichever rank owns it; otherwise they raise.", "quantifier": "all layouts, process counts", "why_tests_cant": "Tests run on a few communicator sizes and shapes; the property must hold for every number of processes and every length, including empty ranks and lengths not divisible by the number of processes.", "anchors": ["heat/core/dndarray.py:DNDarray.__cast", "heat/core/dndarray.py:DNDarray.item"]}
{"id": "C50", "title": "collectives in a single process are copies", "statement": "With one process every collective leaves in the receive buffer exactly what MPI would have delivered: the elements of the send buffer for reductions, scans, gathers, scatters and all-to-all exchanges, whatever the strides, offsets and axes of the buffers; nothing for Bcast, Exscan and reductions in place. The send buffer and all other memory stay as they were.", "quantifier": "all collectives, all buffers", "why_tests_cant": "Aliasing/argument order errors are data dependent.", "anchors": ["heat/core/communication.py:MPICommunication.__reduce_like", "heat/core/communication.py:_copyto"]}
{"id": "C51", "title": "randint stays in range", "statement": "ht.random.randint(low, high) with the counter-based generator only returns values v with low <= v < high, including for the most negative raw word.", "quantifier": "all low < high representable in the dtype, all raw random words, 32 and 64 bit", "why_tests_cant": "The raw word space has 2^32 or 2^64 elements and the dangerous word (INT_MIN, whose absolute value overflows) is almost never drawn in a test.", "anchors": ["heat/core/random.py:randint", "heat/core/random.py:__counter_sequence"]}
{"id": "C52", "title": "safe casts preserve values", "statement": "can_cast(a, b, 'safe') holds exactly when every number representable in type a is representable in type b; the promoted type of two operands holds all values of both unless a 16/32/64 bit integer meets a floating point type.", "quantifier": "all pairs of data types and all values of the source type", "why_tests_cant": "The value sets are too large to enumerate (2^64 integers, 2^64 doubles).", "anchors": ["heat/core/types.py:can_cast_to", "heat/core/types.py:promote_types"]}
{"id": "C53", "title": "type names are unambiguous", "statement": "Every accepted type designation (string, Python, NumPy or torch type) denotes the same Heat type whatever the order in which Python enumerates the type classes, and each data type is found under its NumPy and torch type.", "quantifier": "all enumeration orders of the class set, all designations", "why_tests_cant": "The classes are collected in a Python set whose iteration order depends on memory addresses, so a run sees one order.", "anchors": ["heat/core/types.py:canonical_heat_type", "heat/core/types.py:__get_all_heat_types"]}
{"id": "C54", "title": "result_type of many operands", "statement": "result_type succeeds for any number of arrays, types and scalars; its kind (bool<int<float<complex) is the highest kind among them; for two operands it is symmetric, promotes operands of equal precedence and keeps the array's type against scalars of the same kind.", "quantifier": "argument lists of any length, all types and precedences", "why_tests_cant": "Argument lists are unbounded.", "anchors": ["heat/core/types.py:result_type"]}
{"id": "C55", "title": "array construction from objects and from local pieces", "statement": "array(obj, split=s) gives every rank its balanced chunk of obj; array(piece, is_split=s) on all ranks yields the array whose pieces along s are the given ones, records whether they are balanced, and raises ValueError on every rank when the pieces do not fit together.", "quantifier": "all shapes, split axes (negative too), piece sizes (also empty), process counts", "why_tests_cant": "Tests run on a few communicator sizes and shapes; the property must hold for every number of processes and every length, including empty ranks and lengths not divisible by the number of processes.", "anchors": ["heat/core/factories.py:array"]}
{"id": "C56", "title": "factory functions describe the same array for every process count", "statement": "zeros/ones/full/eye/arange/linspace produce, for every split and process count, the elements NumPy defines at every global position, in balanced chunks.", "quantifier": "all shapes, splits, ranges, steps, process counts", "why_tests_cant": "Tests run on a few communicator sizes and shapes; the property must hold for every number of processes and every length, including empty ranks and lengths not divisible by the number of processes.", "anchors": ["heat/core/factories.py:full", "heat/core/factories.py:eye", "heat/core/factories.py:arange", "heat/core/factories.py:linspace"]}
{"id": "C57", "title": "where selects element-wise", "statement": "where(cond, x, y) for a 0/1-valued condition returns, in cond's layout, x's element where cond is true and y's element where it is false, whatever layouts the three arrays have along their common split axis.", "quantifier": "all shapes, splits, layouts, process counts, element types in which 0*v=0, 1*v=v, v+0=v", "why_tests_cant": "Tests run on a few communicator sizes and shapes; the property must hold for every number of processes and every length, including empty ranks and lengths not divisible by the number of processes.", "anchors": ["heat/core/indexing.py:where", "heat/core/_operations.py:__binary_op"]}
{"id": "C58", "title": "sparse matrices: construction and conversion", "statement": "sparse_csr_matrix / sparse_csc_matrix distribute a compressed matrix by rows / columns (split along that axis, each process its balanced share of lines; is_split: the given pieces one after the other; otherwise replicated) such that the elements of the global matrix are those of the input; to_sparse_* followed by to_dense gives back every element, whatever the layout of the dense array; shape and number of stored elements are the global ones. Splitting along the other axis, and pieces with different line lengths, raise ValueError.", "quantifier": "all matrices in compressed form, all layouts and process counts", "why_tests_cant": "Tests run on a few communicator sizes and shapes; the property must hold for every number of processes and every length, including empty ranks and lengths not divisible by the number of processes.", "anchors": ["heat/sparse/factories.py:__sparse_matrix", "heat/sparse/manipulations.py:__to_sparse", "heat/sparse/manipulations.py:to_dense"]}
{"id": "C59", "title": "sparse matrices: global views", "statement": "indptr, indices and data of a distributed sparse matrix are the compressed representation of the whole matrix, on every process, for every layout (including processes without lines or stored elements); the distributed line pointer global_indptr concatenates to the same pointer.", "quantifier": "all matrices, layouts, process counts", "why_tests_cant": "Tests run on a few communicator sizes and shapes; the property must hold for every number of processes and every length, including empty ranks and lengths not divisible by the number of processes.", "anchors": ["heat/sparse/dcsx_matrix.py:__DCSX_matrix.indptr", "heat/sparse/dcsx_matrix.py:__DCSX_matrix.global_indptr", "heat/sparse/dcsx_matrix.py:__DCSX_matrix.counts_displs_nnz"]}
{"id": "C60", "title": "sparse matrices: element-wise operations", "statement": "add and mul of two sparse matrices of one shape are the element-wise operations on the matrices they denote for every combination of distributed and replicated operands with matching layouts, with the right number of stored elements, shape, split and one data type on all processes; multiplication with a number multiplies every element, addition of a number adds it to every element. Different shapes raise ValueError.", "quantifier": "all matrices, layouts, process counts", "why_tests_cant": "Tests run on a few communicator sizes and shapes; the property must hold for every number of processes and every length, including empty ranks and lengths not divisible by the number of processes.", "anchors": ["heat/sparse/_operations.py:__binary_op_csx", "heat/sparse/arithmetics.py:add", "heat/sparse/arithmetics.py:mul"]}
{"id": "C61", "title": "matmul", "statement": "matmul(a, b) is the matrix product: for every shape (matrices, stacks of matrices, matrix-vector, vector-matrix, vector-vector), number of processes, layout and combination of splits the result denotes sum over k of a[..., i, k] * b[..., k, j], has the shape numpy gives and is split like a, or like b when a is not split; the operands are left unchanged. allow_resplit=True gives the same product. Shapes that do not fit raise ValueError on every process, stacks split along different stack axes raise NotImplementedError.", "quantifier": "all operands over a type whose addition is associative, all extents, layouts and process counts", "why_tests_cant": "Tests run on a few communicator sizes and shapes; the property must hold for every number of processes and every length, including empty ranks and lengths not divisible by the number of processes.", "anchors": ["heat/core/linalg/basics.py:matmul"]}
{"id": "C62", "title": "pad", "statement": "pad(x, widths, constant_values) is numpy.pad of the global array in constant mode: shape, original elements at their shifted positions, and in the frame the fill value of the last axis along which the position lies outside; widths as integer, pair or list of pairs (a shorter list addresses the last axes); the result keeps the split and is balanced. Malformed width arguments raise TypeError/ValueError.", "quantifier": "all shapes, widths >= 0, fill values, splits, layouts and process counts", "why_tests_cant": "Tests run on a few communicator sizes and shapes; the property must hold for every number of processes and every length, including empty ranks and lengths not divisible by the number of processes.", "anchors": ["heat/core/manipulations.py:pad"]}
{"id": "C63", "title": "convolve", "statement": "convolve(a, v, mode, stride) of two vectors is their discrete linear convolution at the positions of the mode (full, same, valid), every stride-th of them, for replicated and distributed signal and kernel alike and in either order of the operands; a distributed signal with a chunk smaller than the kernel('s chunk), an unknown mode, stride < 1, mode 'same' with an even kernel or a stride, and an unbalanced kernel are refused with ValueError.", "quantifier": "all signals and kernels (lengths, values), modes, strides, splits, layouts and process counts", "why_tests_cant": "Tests run on a few communicator sizes and shapes; the property must hold for every number of processes and every length, including empty ranks and lengths not divisible by the number of processes.", "anchors": ["heat/core/signal.py:convolve, heat/core/signal.py:_sanitize_conv_input, heat/core/dndarray.py:get_halo"]}
{"id": "C64", "title": "diff", "statement": "diff(x, n, axis) is the n times repeated difference a[i+1]-a[i] along the axis: n elements fewer along it, split kept, the result balanced; n = 0 returns x itself, a negative n or an axis out of range raise ValueError.", "quantifier": "all arrays, axes, splits, layouts, n up to the extent and process counts", "why_tests_cant": "Tests run on a few communicator sizes and shapes; the property must hold for every number of processes and every length, including empty ranks and lengths not divisible by the number of processes.", "anchors": ["heat/core/arithmetics.py:diff"]}
{"id": "C65", "title": "DistributedSampler shuffles", "statement": "A global shuffle of a distributed array by a permutation keeps the layout and all rows: with correction row k of the result is row perm[k] of the original, without it every process holds the same rows in some order; two arrays shuffled with the same permutation stay paired row by row; one pass of all samplers yields every row exactly once.", "quantifier": "all arrays, row sizes, permutations, layouts and process counts", "why_tests_cant": "Tests run on a few communicator sizes and shapes; the property must hold for every number of processes and every length, including empty ranks and lengths not divisible by the number of processes.", "anchors": ["heat/utils/data/datatools.py:DistributedSampler._alltoall_shuffle, DistributedSampler._shuffle, DistributedSampler.__iter__"]}
{"id": "C66", "title": "create_train_val_split", "statement": "create_train_val_split(X, Y, p) puts every (sample, target) pair into exactly one of the two sets, each process keeps int(l*p) of its l rows for training and the rest for validation, samples and targets stay paired and both sets are balanced.", "quantifier": "all arrays, fractions below one, permutations, layouts and process counts", "why_tests_cant": "Tests run on a few communicator sizes and shapes; the property must hold for every number of processes and every length, including empty ranks and lengths not divisible by the number of processes.", "anchors": ["heat/utils/data/datatools.py:create_train_val_split"]}
{"id": "C67", "title": "Epoch shuffles of Dataset/DataLoader", "statement": "Whatever the random permutations, after any number of epochs a DataLoader over a Dataset has neither lost nor duplicated a row nor separated a sample from its target, every process serves N//P rows, and a test set is served unchanged; with or without non-blocking shuffles.", "quantifier": "all data, epoch counts, permutations and process counts", "why_tests_cant": "The exchange happens between epochs on all processes with random permutations: a test runs a few epochs on one layout.", "anchors": ["heat/utils/data/datatools.py:Dataset, DataLoader._full_dataset_shuffle_iter, dataset_shuffle, dataset_ishuffle, dataset_irecv"]}
{"id": "C68", "title": "Plateau detection", "statement": "Over any history of metrics DetectMetricPlateau reports a plateau exactly when the last patience+1 epochs brought no improvement by more than the threshold and none of them lies within the cooldown of an earlier report; the best value is never worse than a metric seen; saving the state at any point and loading it into another detector continues identically; reset forgets the history.", "quantifier": "all metric histories (including inf and NaN), patience, cooldown, thresholds, modes and checkpoint points", "why_tests_cant": "The state depends on the whole history: a test feeds a few sequences.", "anchors": ["heat/optim/utils.py:DetectMetricPlateau.test_if_improving, is_better, get_state, set_state, reset"]}
{"id": "C69", "title": "PartialH5Dataset epochs under every thread schedule", "statement": "Iterating over a PartialH5Dataset never deadlocks: under every fair interleaving of the consumer, converter and loader threads an epoch ends with all its batches, batch k built from the k-th group of indices, every element made of rows of the file, sample and label of the same row; an epoch serves the rows of the process's own share.", "quantifier": "all files, index lists, batch and load sizes, epoch histories and thread schedules", "why_tests_cant": "The threads race on the used-index list, the memory and the condition variable: a test sees one schedule.", "anchors": ["heat/utils/data/partial_dataset.py:PartialH5Dataset.thread_replace_converted_batches, PartialH5DataLoaderIter.__thread_convert_all, PartialH5DataLoaderIter._next_data"]}
{"id": "C70", "title": "DASO training runs: transfers, consensus, skips", "statement": "A DASO run never raises and never loses a transfer: between epochs nothing is in flight, each exchange was received once and in order, at most one is in flight inside an epoch; exchanges happen on the batches the skip prescribes, GPU groups in turn, with in-node gradient synchronisation on; after the last batch of an epoch (and every batch of warm-up and cool-down) all processes hold the same parameters, the mean over the nodes; synchronisation keeps parameters inside any bounds the local optimizers keep; warm-up and cool-down do not skip, the phases between do.", "quantifier": "all numbers of nodes and GPUs per node >= 2, epoch lengths, DASO arguments, loss histories and local optimizer steps", "why_tests_cant": "Skips and waits change with the losses; an exchange left over at an epoch's end only shows when phases change.", "anchors": ["heat/optim/dp_optimizer.py:DASO.step, DASO._global_sync, DASO._gs_rcv_update_params, DASO.epoch_loss_logic"]}
{"id": "C71", "title": "DataParallel training equals sequential training with the mean gradient", "statement": "Training a network with DataParallel on P processes gives, on every process, the parameters sequential training with the mean of the processes' gradients gives: with blocking updates after every step, with non-blocking updates in every forward pass and after model.eval().", "quantifier": "all networks (parameters grouped in layers), per-parameter optimizers, gradients, batches, epochs with evaluation phases, and process counts", "why_tests_cant": "Updates are applied layer by layer in the next forward pass; gradients left in .grad or a layer that is skipped only show over a history.", "anchors": ["heat/nn/data_parallel.py:DataParallel.forward, DataParallel._iparam_update, DataParallel._nonblocking_hook, DataParallel._blocking_hook; heat/optim/dp_optimizer.py:DataParallelOptimizer"]}
{"id": "C72", "title": "percentile and median equal NumPy's on the global data", "statement": "ht.percentile(x, q, axis, interpolation, keepdims) returns, for every lane along axis, the q-th percentile as NumPy defines it (position q/100*(n-1) in the sorted lane, interpolated as requested); a list q adds a leading axis with one entry per percentile, in the order of the list; axis=None takes all elements; ht.median is the middle order statistic or the mean of the two middle ones. The result does not depend on split or process count.", "quantifier": "all shapes, data without NaN, splits, process counts, axes, percentiles in [0,100] and lists of them, interpolations, keepdims", "why_tests_cant": "Depends on a distributed sort, on transposition of the split axis, on advanced indexing along a split axis and on float32 index arithmetic; errors show only for particular lengths, lists or splits.", "anchors": ["heat/core/statistics.py:percentile, median; heat/core/dndarray.py:DNDarray.__getitem__"]}
{"id": "C73", "title": "element-wise functions act on every global element", "statement": "An element-wise function (exp, sqrt, abs, ceil, isnan, ...) returns an array of the same global shape, split and layout whose element i is the function of element i of the input, for every distribution (empty processes included); with out= the result is written to out, the operand being broadcast to the shape of out, and out is returned.", "quantifier": "all functions, shapes, splits, layouts, process counts and out arrays", "why_tests_cant": "The out path repeats local pieces according to local shapes, which depend on rank and process count; only some combinations of layouts show the mismatch.", "anchors": ["heat/core/_operations.py:__local_op"]}
{"id": "C74", "title": "bucketize and digitize follow their tables", "statement": "bucketize(x, b, right) gives for every element the index i with b[i-1] < x <= b[i] (right: b[i-1] <= x < b[i]), missing ends being no condition, and digitize(x, bins, right) the index of NumPy's table for increasing and for decreasing bins; for increasing boundaries the index is unique. The result has the layout of x and does not depend on the distribution; distributed boundaries raise RuntimeError.", "quantifier": "all arrays, layouts, boundary sequences (any length, repeated values), values and both settings of right", "why_tests_cant": "The table must hold for every value and boundary sequence, including repeated boundaries, values on a boundary, and flipped sequences.", "anchors": ["heat/core/statistics.py:bucketize, digitize"]}
{"id": "C75", "title": "histc and histogram count the global data", "statement": "histc(x, bins, min, max) returns on every process the number of elements of the global array in each of the equal bins between min and max (right end in the last bin, outside elements ignored); with min == max the range is that of the global data, widened by 1 if they are all equal; out= receives the same values; the counts add up to the number of elements in the range. The result does not depend on the distribution.", "quantifier": "all arrays, layouts (empty processes), process counts, numbers of bins and ranges", "why_tests_cant": "Bin edges, empty or constant pieces on some processes, and ranges that collapse in the element type only matter for particular data and distributions.", "anchors": ["heat/core/statistics.py:histc, histogram"]}
{"id": "C76", "title": "outer is the outer product under every schedule of its ring", "statement": "ht.outer(a, b, split) returns the matrix of all products a[i]*b[j], split as requested (rows by default when an operand is split), for all layouts of the operands, and its ring exchange runs to the end and gives the same result whatever the relative speed of the processes and whatever MPI buffers; the operands are left as they were.", "quantifier": "all vectors, process counts, layouts, split arguments, interleavings of sends and receives, buffering behaviours", "why_tests_cant": "The ring is P-1 rounds of blocking sends and receives; the number of interleavings grows exponentially, small messages are always buffered in tests, and a wrong block shows only for particular lengths and process counts.", "anchors": ["heat/core/linalg/basics.py:outer; heat/core/communication.py:Send, Recv"]}
{"id": "C77", "title": "det is the determinant in every layout", "statement": "For every stack of square matrices in any layout, ht.linalg.det returns, for each matrix of the stack, its determinant (in exact arithmetic), with the stack's shape; fewer than two dimensions or non-square matrices raise RuntimeError.", "quantifier": "all fields of elements, matrix sizes, stack shapes, process counts, split axes, row-exchange histories", "why_tests_cant": "A distributed elimination has one branch per pivot position, per layout and per process boundary; tests compare a few small matrices that need few row exchanges, and cannot exercise every pivot pattern for every process count.", "anchors": ["heat/core/linalg/basics.py:det; heat/core/manipulations.py:reshape; heat/core/dndarray.py:__getitem__, __setitem__"]}
{"id": "C78", "title": "inv is the inverse in every layout, or RuntimeError", "statement": "For every stack of square matrices in any layout, ht.linalg.inv returns matrices that are the two-sided inverses (in exact arithmetic) with unchanged shape and split if all matrices are invertible, and raises RuntimeError if one is singular.", "quantifier": "all fields of elements, matrix sizes, stack shapes, process counts, split axes, row-exchange histories", "why_tests_cant": "The distributed Gauss-Jordan elimination keeps two arrays, a moving cursor for the process that scales and views into both; errors need particular pivot patterns at process boundaries.", "anchors": ["heat/core/linalg/basics.py:inv; heat/core/manipulations.py:reshape"]}
{"id": "C79", "title": "GaussianNB: any history of partial_fit gives the moments of everything seen", "statement": "After any sequence of GaussianNB.partial_fit calls (with or without sample weights, for any cut of the samples into batches) the class counts, means, variances and priors are those of all samples seen so far, as one fit would give; fit always starts anew; a call that raises leaves the fitted model as it was.", "quantifier": "all histories of fit/partial_fit calls, batches, weights, class sets, feature counts, var_smoothing values, priors", "why_tests_cant": "The update is a recurrence over an unbounded history; a test follows one or two batches and compares with a tolerance that hides the effect of the smoothing term.", "anchors": ["heat/naive_bayes/gaussianNB.py:fit, partial_fit, __update_mean_variance, __partial_fit"]}
{"id": "C80", "title": "solve_triangular solves the triangular system in every layout", "statement": "ht.linalg.solve_triangular(A, b) returns the x with triu(A) x = b (in exact arithmetic; A x = b if A is upper triangular) for every accepted layout of A and b, number of processes (also more processes than rows), dtype and stack of systems, and raises ValueError exactly for shapes or splits that do not fit.", "quantifier": "all fields of elements, sizes, numbers of right-hand sides, process counts, layouts of A and b, element sizes", "why_tests_cant": "Every layout has its own block back substitution with scatters or broadcasts; tests use float32 and balanced layouts with a few process counts.", "anchors": ["heat/core/linalg/solver.py:solve_triangular"]}
{"id": "C81", "title": "KMeans: nearest labels, means as centers, never a worse cost, in every layout", "statement": "KMeans.fit on samples in any distribution returns labels that are the nearest of the centers of the last assignment and centers that are the means of the points with each label; the sum of squared distances to the nearest centers never increases from the initial centers or with more iterations; the result does not depend on the distribution; inertia_ is that sum; centers stay meaningful for clusters without points; random initialisation can pick every sample. Every medoid of KMedoids is a sample.", "quantifier": "all data, distributions of the samples, numbers of clusters and features, initial centers, max_iter and tol values", "why_tests_cant": "Monotonicity and layout independence quantify over all data sets, initial centers and iteration counts; tests check shapes or a few blobs.", "anchors": ["heat/cluster/kmeans.py:fit, _update_centroids; heat/cluster/_kcluster.py:_assign_to_cluster, _initialize_cluster_centers, predict; heat/cluster/kmedoids.py:_update_centroids"]}
{"id": "C82", "title": "repeat: every element as often as its count says, in every layout", "statement": "repeat(a, counts, axis) gives the array in which slab i along axis (or element i in row-major order when axis is None) appears counts[i] times consecutively; one count stands for all; counts may be an int, a sequence or a distributed array; the result keeps a's split (a vector split along 0 if a is distributed and axis is None), is balanced and does not depend on the distribution. A number of counts that fits neither case and a wrong axis are rejected. Arrays without elements give the empty result of the right shape.", "quantifier": "all arrays, distributions, axes, counts and distributions of the counts", "why_tests_cant": "The combination of array layout, split, axis and layout of the counts is unbounded; tests try balanced arrays and a few counts.", "anchors": ["heat/core/manipulations.py:repeat"]}
{"id": "C83", "title": "tile: every element comes from the array at the index modulo its shape, in every layout", "statement": "tile(x, reps): shape and repetitions are brought to the same length with ones in front, the extents are multiplied, and the element at idx is x[idx mod shape]; the result is split along the same axis (counted from the end), is balanced (or keeps the layout when nothing is repeated along the split axis), contains no uninitialised memory and does not depend on the distribution of x; x keeps its values and its distribution.", "quantifier": "all arrays, distributions, repetitions (also zero, fewer or more than dimensions) and contents of freshly allocated memory", "why_tests_cant": "Which process sends which slab of which copy to whom depends on the layout, the extents and the repetitions in unboundedly many ways; tests use balanced arrays and a few repetitions.", "anchors": ["heat/core/manipulations.py:tile"]}
{"id": "C84", "title": "equal, allclose, isclose: the answer is the one for the global arrays, in every layout", "statement": "equal(x, y) is True exactly if shapes and all elements agree, allclose(x, y) exactly if all elements (after broadcasting) are within the tolerance, isclose(x, y) is the array of these answers; the answer is the same on every process and does not depend on how x and y are distributed.", "quantifier": "all arrays, distributions of either operand (also unbalanced, with empty processes), element comparisons", "why_tests_cant": "Every combination of two splits and two layouts takes another path (slice, redistribute, balance, resplit, nothing); tests compare balanced arrays with equal splits.", "anchors": ["heat/core/relational.py:equal", "heat/core/logical.py:allclose", "heat/core/logical.py:isclose", "heat/core/logical.py:__sanitize_close_input", "heat/core/sanitation.py:sanitize_distribution"]}
{"id": "C85", "title": "vmap: the user's function is applied to every slice along the split axes, in every layout", "statement": "vmap(func, out_dims)(args): for split arguments with one common layout, the i-th slice of the k-th output along out_dims[k] is the k-th output of func on the i-th slices of the split arguments and on the whole replicated arguments; the output is split along out_dims[k] with that layout and its global shape is right. If nothing is split, or two split arguments hold different numbers of slices on some process, an exception is raised.", "quantifier": "all functions, numbers of arguments and outputs, split axes, out_dims, layouts (also unbalanced, with empty processes)", "why_tests_cant": "The slice that a process passes to func depends on layout and split axes of all arguments; tests use a few functions on balanced arrays.", "anchors": ["heat/core/vmap.py:vmap", "heat/core/factories.py:array"]}
{"id": "C86", "title": "ptp is the range of the global values, along an axis or overall, whatever the distribution", "statement": "ptp(x, axis, keepdims) holds max - min of the values on each line along axis (of all values without an axis), NaN where one of them is NaN; the result's global shape and split describe what the processes hold, and nothing depends on how x is distributed.", "quantifier": "all shapes, float values including NaN, axes (also negative, tuples, none), keepdims, distributions (also unbalanced, with empty processes)", "why_tests_cant": "Minima and maxima travel packed in one buffer through a custom MPI operator, and shape and split are computed by hand; tests use small balanced arrays with non-negative axes.", "anchors": ["heat/core/statistics.py:ptp", "heat/core/communication.py:_minmax_op", "heat/core/_operations.py:__reduce_op"]}
{"id": "C87", "title": "in-place operations and out=: the buffer gets the element-wise result and keeps its layout", "statement": "f(a, b, out=o) and x op= y leave o (x) with its shape, split and layout and with f of the broadcast elements of a and b, however the three arrays are distributed; with where=mask only the selected elements change; a buffer of another shape or split raises before anything is written.", "quantifier": "all element operations, shapes, splits and layouts (also unbalanced) of both operands, the mask and the buffer", "why_tests_cant": "The operands are redistributed to the buffer's layout on paths that depend on three splits and three cached balanced flags; tests use balanced arrays.", "anchors": ["heat/core/_operations.py:__binary_op", "heat/core/sanitation.py:sanitize_out", "heat/core/sanitation.py:sanitize_distribution", "heat/core/arithmetics.py:add_"]}
{"id": "C88", "title": "broadcast_to and broadcast_arrays give NumPy's broadcast, in any layout", "statement": "broadcast_to(x, shape) equals NumPy's broadcast of the assembled x, split along the same data axis and balanced, and raises for a shape x does not broadcast to; broadcast_arrays gives every array broadcast to the joint shape in the layout of the first.", "quantifier": "all shapes, numbers of arrays, splits, layouts and process counts", "why_tests_cant": "The split axis moves when dimensions are added on the left and the data moves between processes; tests use a few shapes and balanced arrays.", "anchors": ["heat/core/manipulations.py:broadcast_to", "heat/core/manipulations.py:broadcast_arrays", "heat/core/sanitation.py:sanitize_distribution"]}
{"id": "C89", "title": "meshgrid: NumPy's coordinate grids, distributed like the one distributed vector", "statement": "meshgrid(v0, ..., vn-1, indexing=...) gives n grids of NumPy's shape; grid k at an index is vk at that index's coordinate along vk's axis (the first two axes exchanged for 'xy'); if one vector is distributed the grids are split along its axis with its layout; two distributed vectors or another indexing raise ValueError.", "quantifier": "all numbers and lengths of vectors, both indexings, every position and layout of the distributed vector, all process counts", "why_tests_cant": "Shape, split and data are permuted independently of each other; tests use two or three short vectors.", "anchors": ["heat/core/factories.py:meshgrid"]}
{"id": "C90", "title": "trace sums the global diagonals, whatever the distribution", "statement": "trace(a, offset, axis1, axis2) is NumPy's: for every index of the remaining axes the sum of the elements with i at axis1 and i+offset at axis2; a matrix gives the same scalar on every process; bad axes raise ValueError.", "quantifier": "all shapes, offsets, pairs of axes (also negative and in either order), splits, layouts and process counts", "why_tests_cant": "The offset is moved by each process' start, three code paths depend on where the split axis lies; tests use square balanced arrays.", "anchors": ["heat/core/linalg/basics.py:trace"]}
{"id": "C91", "title": "boolean masks read and write exactly the selected elements", "statement": "For a boolean DNDarray mask of x's shape, x[mask] is the vector of the elements where mask is True in row-major order, its shape being their number; x[mask] = v makes exactly these elements v and leaves all others alone.", "quantifier": "all shapes, splits and layouts of the array and of the mask, all masks (also with no or one True) and process counts", "why_tests_cant": "Each process filters the global coordinate list by its own range and shifts it; which branch is taken depends on how many elements are selected; tests use few masks in balanced layouts.", "anchors": ["heat/core/dndarray.py:DNDarray.__getitem__", "heat/core/dndarray.py:DNDarray.__setitem__", "heat/core/indexing.py:nonzero"]}
{"id": "C92", "title": "one-dimensional Fourier transforms along any axis", "statement": "ht.fft.fft(x, n, axis) (also ifft, hfft, irfft) applies PyTorch's one-dimensional transform to every lane of the global array along axis: axis gets length n (default its own), the split is kept, other axes stay where they are, and ifft(fft(x)) is x whenever the local inverse transform inverts the local one.", "quantifier": "all shapes without empty axes, splits, axes (also negative), n, layouts and process counts, any one-dimensional transform function", "why_tests_cant": "Along the split axis the array is transposed, resplit, transformed, resplit and transposed back; tests cover few shapes and process counts, the claim is for every lane of every shape.", "anchors": ["heat/fft/fft.py:__fft_op", "heat/fft/fft.py:fft", "heat/fft/fft.py:ifft", "heat/core/manipulations.py:resplit"]}
{"id": "C93", "title": "QR of tall-skinny matrices split along the rows (TS-QR)", "statement": "ht.linalg.qr(A) of a matrix split along its rows whose largest local block has at least as many rows as columns returns Q with A's row distribution and an upper triangular R with Q R = A and orthonormal columns of Q; with mode='r' an upper triangular R with R^H R = A^H A.", "quantifier": "all process counts, merging factors procs_to_merge, row layouts and matrices over any ring with involution, any local QR routine", "why_tests_cant": "The merging tree depends on the process count, the merging factor and on which processes are left over at each level; tests run a handful of process counts.", "anchors": ["heat/core/linalg/qr.py:qr", "heat/core/communication.py:MPICommunication.Scatterv", "heat/core/communication.py:MPICommunication.Gatherv"]}
{"id": "C94", "title": "QR of matrices split along the columns", "statement": "ht.linalg.qr(A) of a matrix split along its columns returns Q and R, split along their columns, with Q R = A, R upper triangular and orthonormal columns of Q.", "quantifier": "all shapes, process counts and matrices over any ring with involution, any local QR routine", "why_tests_cant": "The factorization is a block Gram-Schmidt over the processes; whether all of its guarantees hold depends on the rank of the matrix and on how the blocks meet the last row, which tests with random matrices never vary.", "anchors": ["heat/core/linalg/qr.py:qr"]}
{"id": "C95", "title": "the partition interface describes the array, and the array can be rebuilt from it", "statement": "x.__partitioned__ names the global shape and one box per process; every global element lies in exactly one box, the named process holds it, and the data handed out are its elements, after any history of calls on x; ht.from_partitioned(x) is the same distributed array on every process.", "quantifier": "all arrays, element types, process counts and distributions, all histories of reads, resplit_ and redistribute_/balance_ calls", "why_tests_cant": "Boxes, keys and offsets depend on the distribution and on the precision of the element type (offsets are computed in it); the dictionary is cached, so its truth depends on the history; split is inferred by every process on its own.", "anchors": ["heat/core/dndarray.py:DNDarray.create_partition_interface", "heat/core/dndarray.py:DNDarray.__partitioned__", "heat/core/factories.py:from_partitioned", "heat/core/factories.py:from_partition_dict"]}
{"id": "C96", "title": "QR of a row-split matrix with short blocks", "statement": "For a matrix split along the rows whose local blocks all have fewer rows than the matrix has columns, ht.linalg.qr returns Q with orthonormal columns (min(m,n) of them) and upper triangular R, split along the rows, with Q R = A.", "quantifier": "all matrix sizes, numbers of processes, row distributions, local QR routines and elements of a commutative ring with conjugation", "why_tests_cant": "The block columns are walked through with the row boundaries as column boundaries, each one factored by TS-QR over all processes and projected out of the rest; the number of blocks, the width of the last one and the cut of R depend on sizes and distribution.", "anchors": ["heat/core/linalg/qr.py:qr"]}
{"id": "C97", "title": "cross: the vector product of every pair of vectors, in any layout", "statement": "ht.cross(a, b, axisa, axisb, axisc, axis) holds at every position the vector product of the vectors of a and b there, along axisc; vectors of two components have third component zero, and for two such arrays the result is the third component alone; shape and split of the result describe it.", "quantifier": "all arrays of 2- and 3-component vectors along any axes, element types, process counts, splits and row distributions", "why_tests_cant": "Components, output axis, split axis and row distributions interact: plane vectors are extended by a concatenation, axes are moved on both operands, the product is local and nothing is checked on the way out.", "anchors": ["heat/core/linalg/basics.py:cross"]}
{"id": "C98", "title": "print: the displayed rows are the first and last rows of the global array", "statement": "print(x) (global printing) displays the array in full if it has at most threshold elements and otherwise, along every axis with more than 2*edgeitems rows, the first and last edgeitems rows around an ellipsis - the same text for every split, row distribution and process count; the elements of x stay the same.", "quantifier": "all shapes, splits, row distributions, process counts, edgeitems and thresholds", "why_tests_cant": "The rows of the split axis are chosen by each process from its offset; whether the gathered pieces show the first and last rows depends on where the cuts fall.", "anchors": ["heat/core/printing.py:_torch_data,_tensor_str"]}
{"id": "C99", "title": "dot, vdot, vecdot: inner products of the global arrays", "statement": "ht.dot of two vectors is the sum of the products of their elements, known to every process; ht.vdot pairs the elements of two arrays in row-major order, conjugating the first; ht.vecdot sums the broadcast products along one axis - for every layout.", "quantifier": "all lengths, shapes, element types with an associative and commutative addition, process counts, splits and row distributions", "why_tests_cant": "dot takes slices relative to the balanced chunks on both operands; whether the slices of two layouts pair the same global elements depends on the layouts.", "anchors": ["heat/core/linalg/basics.py:dot,vdot,vecdot"]}
{"id": "C100", "title": "Scalers: MinMaxScaler maps the data onto the requested range, and inverse_transform undoes transform", "statement": "MinMaxScaler(feature_range=(lo, hi)) fitted to a data set maps the minimum of every feature to lo, its maximum to hi and everything else affinely in between (features whose range is below the tolerance are only shifted), in any layout and on any data with that many features; transform keeps shape and split; inverse_transform(transform(Y)) is Y for MinMaxScaler and StandardScaler.", "quantifier": "all numbers of points and features, values, ranges lo < hi, tolerances, process counts, splits and row distributions", "why_tests_cant": "minima come from a reduction that fills empty processes, parameters are replicated or split with the features, and one data-dependent branch must be taken alike by all processes.", "anchors": ["heat/preprocessing/preprocessing.py:MinMaxScaler.fit,MinMaxScaler.transform,MinMaxScaler.inverse_transform,StandardScaler.transform,StandardScaler.inverse_transform"]}
{"id": "C101", "title": "cg: the vector that conjugate gradients returns solves the system up to the tolerance, within n iterations", "statement": "In exact arithmetic, ht.linalg.cg for a symmetric positive definite n x n matrix A and a start vector that does not solve the system already performs only divisions by non-zero numbers, stops through its tolerance test within n iterations, and returns x with |b - A x| below the tolerance; whenever it reports the tolerance, for any A, the true residual is below it.", "quantifier": "all sizes, symmetric positive definite matrices, right-hand sides, start vectors and tolerances", "why_tests_cant": "the residual is updated rather than recomputed and the iteration bound is the dimension: correctness rests on the orthogonality of all residuals and the conjugacy of all directions.", "anchors": ["heat/core/linalg/solver.py:cg"]}
