# Formal model of heat in Rocq (Coq 8.16.1)

Plan per property (written before the proofs; updated as the model grows).

- **C01 chunk partitions the split axis** - chunk as a function on (shape, split, rank, size) over nat; partition lemmas via div/mod arithmetic.
- **C02 counts/displacements agree with chunk** - counts_displs_shape as list functions; equal to map of chunk; prefix-sum lemma.
- **C03 axis sanitation** - axis argument as an inductive (None | int | tuple | bad), results in an exception monad; arithmetic on Z.
- **C04 shape broadcasting** - torch.broadcast_shapes modelled right-to-left; spec via reversed pointwise relation; algebra by induction.
- **C05 slice sanitation** - slice as three optional Z; spec = Python's slice.indices semantics; expected counterexamples where no clamping is done.
- **C06 redistribute_ delivers the target layout and keeps the data** - per-rank lists of slabs; the loop body send-by-send; invariant: concatenation unchanged and first k ranks final; induction over passes.
- **C07 redistribute_ terminates** - measure: number of leading ranks that already match; fuel shown sufficient.
- **C08 point-to-point schedules cannot deadlock and are schedule independent** - small-step semantics of synchronous point-to-point processes; programs as projections of one global list; confluence + progress.
- **C09 balance_ yields the canonical layout** - balance_ = redistribute_ to the chunk map; corollary of C06 and C01.
- **C10 collect_ gathers everything on the target rank** - collect_ = redistribute_ to (0,..,n,..0).
- **C11 layout metadata never goes stale** - object state (local arrays + cached metadata), operations as steps; invariant, refuted where the cache is assigned the user's map.
- **C12 halo exchange** - halo model over list of lists, populated ranks computed as in the code; spec = window of the concatenation.
- **C13 slicing along the split axis** - key start/stop computation per rank over Z; spec = Python slice of concatenation.
- **C14 integer indexing along the split axis** - owner search + Bcast; spec = nth of the concatenation.
- **C15 assignment along the split axis** - same as C13 for writes; spec = pointwise update.
- **C16 resplit to None (gather) and back** - Allgatherv at the level of slabs with counts/displs; local slicing.
- **C17 resplit between two axes** - n-d index functions; subarray types as index boxes; Alltoallw as pointwise copy; proof that boxes tile.
- **C18 derived MPI datatypes for strided tensors** - typemaps as lists of displacements with extents; chain of vectors; induction over dimensions.
- **C19 messages above 2^31-1 elements** - vector + struct typemap vs. contiguous; arithmetic on div/mod.
- **C20 v-collective counts do not overflow** - int32 wrap modelled explicitly: proved under the bound, refuted without it.
- **C21 recursive vector types for Alltoallw** - as C18 for the recursive constructor, with the limit as parameter.
- **C22 cumulative operations** - generic monoid; local scan + Exscan + combine = global scan.
- **C23 reductions** - fold over monoid; axis bookkeeping on lists of nat.
- **C24 argmax / argmin** - states (value,index); first-max operator proven associative/commutative on well-formed states; any reduction tree.
- **C25 merging of moments** - exact rationals Qc; merge formula = moments of concatenation.
- **C26 bincount** - count functions over lists of lists.
- **C27 random numbers are independent of the number of processes** - counter arithmetic mod 2^64/2^128 with float32 cumulative bug stated as hypothesis; slice of the global counter list.
- **C28 Threefry is a bijection** - Threefry rounds over Z mod 2^w; each round bijective; composition.
- **C29 RNG state round trip** - state tuple get/set; trace argument.
- **C30 uniform floats lie in [0,1)** - masking as Z.land; range and injectivity lemmas.
- **C31 permutation of a distributed array** - message sets as lists of (src,dst,tag,payload); matching is a bijection; result = permuted list.
- **C32 type promotion laws** - finite tables transcribed; exhaustive decision by vm_compute lifted with forallb.
- **C33 roll along the split axis** - message model of roll; spec by index arithmetic.
- **C34 flip along the split axis** - mirror exchange; concat(reverse(map reverse)) = reverse concat.
- **C35 concatenate along the split axis** - front-load/back-load loops as redistributions.
- **C36 reshape** - Alltoallv of flattened intervals; interval intersection lemma.
- **C37 sample sort** - pivot partition + exchange + local sort; sortedness and Permutation for any pivots; send-matrix rebalancing.
- **C38 unique** - local unique + gather + unique.
- **C39 topk** - topk as sorted prefix; merge operator; any reduction tree.
- **C40 nonzero / where** - offset addition; proved for balanced arrays, refuted otherwise.
- **C41 diag / diagonal / fill_diagonal / tril / triu use global coordinates** - per-rank predicates on local coordinates with offset vs. global predicate.
- **C42 split into sections** - section computation on nat; concatenation.
- **C43 unfold (sliding windows)** - index arithmetic of windows with halos.
- **C44 split bookkeeping of shape operations** - axis maps on lists; position-of-axis commutation.
- **C45 binary operations agree with NumPy broadcasting on global arrays** - n-d broadcast index map; local restriction commutes with elementwise op.
- **C46 parallel CSV reading** - bytes as lists; line-start scanning per chunk; spec = lines of the file.
- **C47 parallel CSV writing** - fixed-width records, offsets; file as list of bytes with positional writes.
- **C48 pairwise distance ring** - ring indices mod P; coverage of all block pairs exactly once; deadlock via C08.
- **C49 scalar casts** - owner detection via Allreduce sum, Bcast.
- **C50 collectives in a single process are copies** - buffer copy semantics with two buffer kinds; refuted for numpy receive buffers.
- **C51 randint stays in range** - the modulo/abs/offset step on signed words, with wrap-around of the most negative word; bounds by Z.mod lemmas.
- **C52 safe casts preserve values** - the set of numbers of each type as a specification (TypesSpec.v); table transcribed; inclusion of sets proved type by type.
- **C53 type names** - the designation tables transcribed in order of insertion; lookup independent of dictionary order.
- **C54 result_type** - promotion by kind then precision as in the code, lists of arguments; induction over the arguments.
- **C55 array(split=)/array(is_split=)** - construction from a global object or from pieces; neighbour checks and reductions per rank; result stated with `represents`.
- **C56 factories** - local fill per rank with chunk's offsets against the global index formula.
- **C57 where** - the arithmetic formula cond*x + (1-cond)*y of the code on top of C45.
- **C58 sparse construction/conversion, C59 global views, C60 element-wise operations** - compressed matrices as records (pointer, positions, values), denotation by `entry`; distributed form = one record per rank; theorems relate the ranks' parts to the stacked matrix.
- **C61 matmul** - every branch per rank (local products, partial sums with Allreduce, broadcast loops with pre-fetching), element type with an associative addition; loop invariants over the broadcasting process give the partial sums; result compared with the index formula of MatmulSpec.v.
- **C62 pad** - flat width/fill tuples, torch's pad as an index function, one side at a time with an invariant over the sides done; per-rank widths; pieces compared with the global index formula of PadSpec.v.
- **C63 convolve** - on top of pad (C62) and halo exchange (C12): windows of the padded signal cover each output position once (interval telescoping over ranks), strided start positions by counting multiples; distributed kernel by partial-sum invariant over the broadcast pieces; correlation with the reversed kernel equals conv_at of ConvSpec.v by permuting the sum.
- **C64 diff** - invariant over the n rounds: after k rounds the positions below N-k hold the k-th differences (one slab from the right neighbour per round); the slice [:-n] through C13 on slabs, then balance_.
- **C65 DistributedSampler** - messages as lists of rows read at element offsets; the buckets by sender of the rows a process wants, concatenated by rank, are a permutation of those rows (stable argsort inverts it when corrected).
- **C66 create_train_val_split** - C65 without correction for both arrays with the same permutation, then the two index sets partition each rank's permutation.
- **C67 Dataset epochs** - invariant over epochs (data = first N/P rows of the array); one exchange around the ring is a permutation of all rows (the ring map permutes the ranks); pairs by naturality: running on zipped rows and projecting.
- **C68 plateau detector** - the two counters against windows over the history: an invariant after every epoch (bad run, cooldown remaining, last report) gives 'reports iff window'; comparison with margins by rational arithmetic; checkpoint by equality of states.
- **C69 PartialH5Dataset threads** - interleaving semantics with a lock and a condition variable; invariants preserved by every step of every thread (lock ownership, batches so far ++ rest = index list, memory/hold values from the file, rows replaced dataset by dataset), a measure lowered by every step, progress from the lock invariant; fairness by rounds.
- **C70 DASO** - state machine of one run with the local optimizers as arbitrary functions; invariant: outstanding transfers only for the last sending group, at most one, sends = recvs ++ in flight, sends = groups in turn over the exchange batches, local sync on before an exchange; drained at epoch ends, so changed skips cannot strand a transfer; convexity of the merge for the bounds.
- **C71 DataParallel** - per-process state machine with the reductions' results as wait handles; _param_slices proved to be each layer's parameters; invariant 'pending(p, x, layers done)' through the hooks of a forward pass, the backward hooks and eval(); induction over batches and epochs against the sequential fold.
- **C72 percentile, median** - spec PercSpec.v (order statistics of the sorted lane, five interpolations); model: transposition (C44), sort (C37), int and list indexing along axis 0, redistribution of the ceil array to the layout of the floor array, interpolation; float32 rounding as round-to-nearest-even on rationals, with monotonicity, exactness and error lemmas.
- **C73 element-wise functions** - model of __local_op with and without out (local broadcast shape, multiples, torch repeat, torch's resizing of out=); result stated with `represents` and bcast_idx (BinSpec).
- **C74 bucketize, digitize** - spec BucketSpec.v (the four rows of the table); model: torch's binary search, flip and subtraction for decreasing bins, on top of C73.
- **C75 histc** - spec HistSpec.v (edges, half-open bins); model of torch.histc's range selection and bin position, of the extrema and of the Allreduce; the elements of all processes are a permutation of the global elements (NdPerm.v).
- **C76 outer** - model: generic ring of blocking Send/Recv (RingModel.v) on the message-passing semantics of C18, instantiated with the travelling piece, receive buffer and block assignment; invariant over configurations (per-process position in its program, at most one message per edge) gives progress, termination and determinism; values by induction on rounds.
- **C77 det** - model: GaussModel.v, one distributed matrix as local pieces with owner lookup, row exchange, pivot search and elimination on views, det_steps; refinement to the elimination of the global matrix (GaussProofs.v), correctness of that against mathcomp's determinant by the invariant 'product of the pivots so far times the sign is the determinant of the eliminated matrix' (GaussAlg.v), stacks through reshape (C36).
- **C78 inv** - model: as C77 plus scale_row with the cursor over processes, forward and backward elimination on the two arrays; invariant mx A = mx X * A0 with X invertible, unit upper triangular after the forward pass, identity after the backward pass.
- **C79 GaussianNB** - model: GnbModel.v, the state machine of fit/partial_fit with the exception and the state after it; invariant over the history: count, mean, variance of each class = weighted moments of the concatenated batches (parallel-variance identity by field), induction over the calls.
- **C80 solve_triangular** - model: TriModel.v, local tensors with shapes, torch's back substitution, in-place subtraction with broadcasting, Scatterv with counts/displacements/element sizes, the two loops over processes in lockstep; invariant: before step i the local right-hand sides are b minus the columns already solved, by induction over the processes from the last to the first.
- **C81 KMeans/KMedoids** - model: KmModel.v, assignment by argmin, update by masked sums over processes, the loop with tol/max_iter, the medoid lookup; the mean minimises the sum of squares (identity over Q), clusters regrouped, induction over the iterations.
- **C82 repeat** - model: RepeatModel.v, torch.repeat_interleave on every process after aligning counts, then array(is_split) and balance; slabs of the pieces concatenated are the slabs of the whole (SlabLemmas), repetition commutes with concatenation.
- **C83 tile** - model: TileModel.v, padding/reshape (C36), transposition (C44), one Alltoallv per repetition with its counts and displacements, the copy out of the receive buffer, local repetition; invariant over repetitions and sources, sums of clipped intervals, then slabs to arrays (SlabLemmas).
- **C84 equal/allclose/isclose** - model: CloseModel.v, the case analysis on the splits and balanced flags, slicing, sanitize_distribution, balance, local torch comparison with broadcasting, reduction over ranks; proof: both operands represent their arrays with one layout, every global index has one owner.
- **C85 vmap** - model: VmapModel.v, torch.vmap on the local tensors with in_dims = the splits, then array(is_split=out_dims[k]) of C55; proof: slices of local pieces are slices of the global array, re-assembly by C55.
- **C86 ptp** - model: PtpModel.v, floats as option Z (None = NaN), local amin/amax packed by cat along axis 0, the min/max reduction operator on the halves, the split/shape bookkeeping; proof: min and max are characterised as extreme elements of a multiset, the pieces of a line make up the line.
- **C87 out=/in-place** - model: BinOutModel.v, the out= path of __binary_op: broadcast shape, result split, sanitize_out, both operands through sanitize_distribution towards out, local operation, torch.where, copy_; proof: reuses the alignment lemmas of C45 with out's layout as the target.
- **C88 broadcasting** - model: BcModel.v (zeros + in-place add of C87 for split arrays, torch expand otherwise; sanitize_distribution towards the first array and per-process torch.broadcast_tensors); spec: BcSpec.v (joint shape) and BinSpec's bcast_shape/bcast_idx; proof: C87 for broadcast_to, alignment lemmas of C45 for broadcast_arrays.
- **C89 meshgrid** - model: MeshModel.v (search for the distributed vector, torch.meshgrid per process, permuted shape and split); spec: MeshSpec.v (axis of vector k); proof: per-process grids, permutation lemmas.
- **C90 trace** - model: TraceModel.v (local slices and torch.trace with moved offset plus Allreduce; torch.diagonal sums with is_split; the reshape path); spec: TraceSpec.v (sum over i of the elements at (i, i+k)); proof: diagonal of consecutive row or column blocks adds up (diag_rows, diag_cols), C55 for putting the pieces together.
- **C91 boolean masks** - model: MaskModel.v (gathered key, nonzero, filter by the real range, shift by the real start when reading and by comm.chunk's start when writing, the single-element branches); spec: MaskSpec.v (filter of the row-major coordinates); proof: C40 for the coordinates, ranges of consecutive ranks partition the selection (by_owner_perm) and are consecutive along axis 0 (by_owner_0).
- **C92 one-dimensional FFTs** - model: FftModel.v (transform of the local tensor along a non-split axis, empty local tensors, transpose-resplit-transform-resplit-transpose along the split axis); F, torch's transform of one lane, is a parameter; spec: FftSpec.v (F applied to each lane of the global array); proof: fft_local_ok lane by lane, composed with to_split_ok (resplit) and swap_transposed (transpose).
- **C93 TS-QR** - model: QrModel.v (local QR, gather of R factors per group, QR, scatter of Q_buf, broadcast to the leaves, Q_loc @ scattered, next current_procs, final broadcast); the local QR is a parameter, sound but possibly raising; spec: QrSpec.v (is_qr on blocks stacked on top of each other); proof: invariant per level - the blocks of q^l ranks satisfy A_r = Q_r R_j, sum Q_r^H Q_r = 1, sum A_r^H A_r = R_j^H R_j, k_j = min(rows, n) - preserved by a level, and the number of groups decreases.
- **C94 column-split QR** - model: QrColModel.v (A_columns, Q, R per rank; iteration i: local QR on rank i, broadcast, projection on the later ranks, row slices of R cut at k; number of iterations; first k columns of Q); spec: QrSpec.v with blocks side by side (hstack); proof: invariant after i iterations (A_r = A_columns_r + sum_t Q_t R_tr, Q_t^H A_columns_r = 0 if the diagonal is free of zeros).
- **C95 partition interface** - model: PartModel.v (lshape map, offsets rounded to the array's precision, dictionary with replacement of equal keys, helper of from_partition_dict per rank, cache under Read/Resplit/Redistribute); spec: PartSpec.v (in_box, holds_box); proof: keys are distinct along the split axis, prefix sums of the extents; induction over histories.
- **C96 row-split QR with short blocks** - model: QrRowModel.v (column boundaries from the row counts, block Gram-Schmidt loop with TS-QR of C93 as inner call, cut of R); spec: QrSpec.v; proof: loop invariant J (QrRowProofs.v): A = Q R on the columns done, A = A' + Q R on the rest, Q orthonormal and orthogonal to A' as long as the diagonal of R has no zero.
- **C97 cross** - model: CrossModel.v (axis arguments, extension by concat2 of C35, moveaxis of C44, torch.cross with broadcasting, z slice); spec: CrossSpec.v (component, cross3, vector_axes); proof: composition of C35 and C44 for each operand, local product on equal layouts.
- **C98 print** - model: PrintModel.v (balance_ of C09, positions kept per rank and axis, Gatherv as gather of C44, torch's recursive layout); spec: PrintSpec.v (rows_of: tree with ellipses); proof: the display depends only on m > 2e and the first and last e selected positions (rows_sel); the positions of the split axis over all ranks are 0..e followed by a suffix of at least e rows.
- **C99 dot/vdot/vecdot** - model: DotModel.v (slices of dot against chunk, torch.dot, Allreduce; vecdot as binary_op then reduce_op; vdot through flatten); spec: DotSpec.v (inner); proof: the slices of every layout are the same global range, ranges concatenate; vecdot and vdot compose C44, C45 and C23.
- **C100 scalers** - model: ScalerModel.v (fit as column reductions, binary_op, where_op and the branch taken per process; transform and inverse_transform as binary operations with one parameter per column); spec: col_min / col_max (least and greatest element of a column); proof: column reduction (C23), row-wise binary operation (C45), where (C57), field arithmetic in Qc.
- **C101 cg** - model: CgModel.v (the loop of cg on global values, None once a divisor is zero); spec: CgSpec.v (inner product, matrix-vector product), symmetric and positive_definite as bilinear conditions; proof: invariant - updated residual = true residual, all residuals orthogonal, all directions conjugate; Bessel's inequality summed over the standard basis bounds the number of orthogonal non-zero vectors by n.

## Trusted base

1. **Coq 8.16.1's kernel** (coqc, checked again with coqchk) and the OCaml runtime under it. vm_compute is used for finite
   tables and concrete witnesses; native_compute is not used. No axiom, Admitted, open obligation, functor or module type of
   our own; no kernel flag is changed; no plugin.
2. **Axioms.** `Print Assumptions` says "Closed under the global context" for every theorem named in MANIFEST.json except
   `C30_float32` and `C30_float64`, which list the axioms of the standard library's real numbers (Flocq is stated over R):
   `ClassicalDedekindReals.sig_not_dec`, `ClassicalDedekindReals.sig_forall_dec`,
   `FunctionalExtensionality.functional_extensionality_dep`, `Classical_Prop.classic`.
   Libraries used besides the standard library: Flocq (C30, C57's binary64 finding), mathcomp algebra (C77, C78).
3. **The model is faithful to the Python text.** This is by reading: the definitions cite file and lines. Python itself, NumPy,
   torch, mpi4py and h5py are not modelled as programs; the operations Heat calls enter as definitions that follow their
   documentation (e.g. torch.chunk/cat/index_select on index functions, MPI collectives as one lockstep step, MPI typemaps
   as displacement lists) or as parameters with the needed law as an explicit hypothesis of the theorem (torch.unique,
   log10, float(), a local sparse operation), each with a concrete instance beside the theorem.

### Conventions of the model

- *Arrays*: a global array is a shape and an index function; a distributed array is the list of the local arrays of all ranks
  (`represents`, NdSpec.v), in any layout unless a theorem says otherwise. Older files use lists of slabs along the split axis.
- *SPMD*: every rank runs the same program. Where all ranks compute equal bookkeeping it is computed once; where control flow or
  data differ per rank there is one list entry per rank. Collectives are lockstep; point-to-point exchanges have an interleaving
  semantics (SchedModel.v, RollModel.v, RingModel.v, PartModel*.v) and are proved for all schedules.
- *Exceptions* are values (`res`, `exn` in Base.v). A failing process makes the step fail.
- *Arithmetic*: integers exact unless the file models wrap-around (counts of MPI messages, random words, casts, float32 and float64
  bookkeeping); element arithmetic is exact (Z, Q, any monoid / field) unless the theorem has a rounding parameter (C30, C57, C72).
- *Data types* are modelled in C32, C51-C54; in the other properties an operation acts on one element type.
- *Not modelled anywhere*: GPUs and devices, memory layouts other than strides (C18), performance, MPI failures, MPI progress
  beyond "a matched message is delivered", NaN unless stated.

### What is modelled, by file of /repo/heat

| file | modelled | not modelled |
|---|---|---|
| core/communication.py | chunk, counts_displs_shape, derived datatypes, as_buffer/as_mpi_memory counts, Allgather(v)/Alltoall(w/v)/Bcast/Reduce-like copies (C01 C02 C16-C21 C50) | CUDA buffers, group splitting, environment handling |
| core/stride_tricks.py | all five functions (C03-C05) | - |
| core/dndarray.py | layout metadata, redistribute_/balance_/collect_/resplit_, halos, basic get/setitem, casts, fill_diagonal (C06-C17 C41 C49) | other advanced indexing, counts of partitions protocol, printing |
| core/_operations.py | binary, local, reduce and cumulative operations (C22 C23 C45 C73) | where= without out= |
| core/sanitation.py | sanitize_distribution, sanitize_out (in C45, C73) | type checks |
| core/factories.py | array, full family, eye, arange, linspace (C55 C56) | logspace, from_partitioned |
| core/manipulations.py | concatenate, diag(onal), expand_dims, flatten, flip, moveaxis, pad, repeat, reshape, resplit, roll, rot90, sort, split family, squeeze, stack, swapaxes, tile, topk, unfold, unique (C17 C33-C44 C62 C82 C83) | mosaic of vsplit/hsplit argument checks, collect, unique of sparse data |
| core/relational.py, core/logical.py | element-wise comparisons (C45), equal, allclose, isclose (C84), all and any (C23), isfinite etc. (C73) | signbit's dtype checks |
| core/statistics.py | argmax/argmin, mean/var merging, bincount, percentile/median, bucketize/digitize, histc (C24-C26 C72 C74 C75) | cov, skew, kurtosis, average unless listed above |
| core/random.py | Threefry stream, state, uniform/randint conversion, permutation (C27-C31 C51) | normal transform (Kundu), Batchparallel draws except state |
| core/types.py | hierarchy, promotion, casts, names (C32 C52-C54) | finfo/iinfo |
| core/arithmetics.py | diff and, through C22/C23/C45/C73, the functions that are one call of an operation | prepend/append of diff, nan-functions, gcd/lcm |
| core/signal.py | pad-and-convolve 1-D (C63) | convolve2d, batches |
| core/io.py | CSV (C46 C47) | HDF5, netCDF, zarr, npy directories unless listed above |
| core/linalg/basics.py, solver.py | matmul, outer, det, inv, tril/triu, transpose, solve_triangular (C41 C44 C61 C76-C78 C80) | norms, projection, cg, lanczos unless listed above |
| core/linalg/{qr,svd,svdtools,polar,eigh,randomized}.py, fft, decomposition | - | all, unless listed above |
| core/indexing.py | nonzero, where (C40 C57) | - |
| core/vmap.py | vmap (C85) | chunk_size, randomness |
| core/statistics.py ptp | axis, keepdims, NaN, packed min/max reduction (C86) | out=, integer dtypes |
| core/_operations.py __binary_op with out=, where= with out=, in-place operations | C87 | where= without out=, dtype promotion |
| core/manipulations.py broadcast_to, broadcast_arrays | C88 | dtype of the result, views |
| core/factories.py meshgrid | C89 | 0-dimensional inputs |
| core/linalg/basics.py trace | C90 | dtype=, out= |
| core/dndarray.py boolean masks | C91 | value arrays, integer coordinate keys |
| core/linalg/qr.py TS-QR (split=0, tall-skinny) | C93 | batches, row-split matrices that are not tall-skinny |
| core/linalg/qr.py split=1 | C94 | batches, unbalanced layouts |
| dndarray.py create_partition_interface, __partitioned__; factories.py from_partitioned | C95 | numpy data, foreign dictionaries |
| core/linalg/qr.py split=0, not tall-skinny | C96 | batches, the final balance of R |
| core/linalg/basics.py cross | C97 | promotion |
| core/printing.py _torch_data, _tensor_str | C98 | number formatting, local printing |
| core/linalg/basics.py dot (1-D), vdot, vecdot | C99 | promotion |
| preprocessing/preprocessing.py MinMaxScaler, StandardScaler.transform/inverse_transform | C100 | copy=False, StandardScaler.fit, other scalers, rounding |
| core/linalg/solver.py cg | C101 | rounding, layouts, lanczos, solve |
| fft/fft.py __fft_op (fft, ifft, hfft, irfft) | C92 | rfft, ihfft, fftn, fftshift, dtypes |
| sparse/* | construction, conversion, views, element-wise operations (C58-C60) | - |
| spatial/distance.py | ring of cdist/rbf/manhattan (C48) | - |
| cluster | KMeans, KMedoids (C81) | see C81's note |
| naive_bayes | fit/partial_fit (C79) | predict |
| optim, nn | DASO, DetectMetricPlateau, DataParallel(+Optimizer) (C68 C70 C71) | learning rate schedulers, functional wrappers |
| utils/data | sampler, train/val split, Dataset, PartialH5Dataset (C65-C67 C69) | mnist, matrixgallery, spherical, vision transforms |

### Statuses

A property is *partial* in MANIFEST.json either because part of it is not proved or - the usual case here - because the English
property is **false of the code**: then the largest true part is proved (suffix `_partial` or an explicit hypothesis) and a theorem
with suffix `_refuted` proves the negation on a concrete input of the model. The notes in MANIFEST.json say which.

### Model and specification files

Specification files (`*Spec.v`) refer to nothing of Heat; theorems are in `*Props*.v`; proofs in `*Proofs*.v`.

- `ArgModel.v`: argmax / argmin: heat/core/statistics.py L50-206, L1389-1458 and the parts of heat/core/_operations.py L415-545 (__reduce_op) they use.
- `ArgSpec.v`: What argmax and argmin promise.
- `Base.v`: Shared vocabulary: exceptions as values, list helpers, distributed arrays. Heat is SPMD Python: every rank runs the same program. A distributed array (DNDarray, heat/core/dndarray.py L24-140) split along an axis is modelled as the list of its per-rank local arrays ("larray"); a local array is the list of its slabs along the split axis, a slab being an arbitrary value of type [A] (everything at one index of the split axis). The global array is the concatenation of the local ones in rank order.
- `BcModel.v`: Model of heat/core/manipulations.py broadcast_to (L234-301) and broadcast_arrays (L153-231).
- `BcSpec.v`: Broadcasting several global arrays of one dimension to a common shape. Nothing here refers to Heat's code.
- `BinModel.v`: Model of heat/core/_operations.py __binary_op (L22-231, without out= and where=) and heat/core/sanitation.py sanitize_distribution (L33-155). Both operands live on the same communicator of P ranks; dtype promotion is not modelled (the operation [f] is a function on elements).
- `BinOutModel.v`: Model of heat/core/_operations.py __binary_op with out= (L22-231), with and without where=, used by the in-place operations x += y (core/arithmetics.py L135-195 and its siblings, which pass out=t1); core/sanitation.py sanitize_out (L288-345) and sanitize_distribution (L67-155) towards out. Dtype promotion and devices are not modelled.
- `BinSpec.v`: NumPy broadcasting of two global arrays, on shapes and indices. Nothing here refers to Heat's code.
- `BucketModel.v`: Model of bucketize and digitize, heat/core/statistics.py L414-484 and L562-634, on exact values (no NaN). The boundaries are the list every process holds.
- `BucketSpec.v`: Which bucket a value belongs to, as documented; nothing here refers to Heat's code.
- `CdistModel.v`: Model of the pairwise distance ring: heat/spatial/distance.py L209-479, function [_dist], the common back end of cdist, rbf and manhattan. A 2-D operand split along axis 0 is its list of row blocks, one per process. [R] is the type of a row, [V] of an entry of the result. Simplifications. (1) [metric(A, B)] : in the theorems, entry (i,j) is a function of row i of A and row j of B; in particular its rounding does not depend on the other rows of the tile (the [quadratic_expand] variants of L20-200 are of this form up to the BLAS kernel torch picks for a given tile size). (2) L262-263 Probe + Get_count + Recv is one receive of as many rows as were sent. (3) a Python slice assignment whose width differs from the slice raises in torch; here it is [setcols], which would change the row length instead; with X laid out in balanced form (the only case the theorems speak of) the widths agree. (4) the element type promotion of L237-254, L396-410 is not modelled.
- `CgModel.v`: Model of heat/core/linalg/solver.py cg (L16-70) on the values of the global arrays: the distributed products and element-wise operations are C61, C45 and C99. Elements are exact rationals. A division by zero (L50, L60) makes every later value infinite or NaN and no later comparison true: the result [None].
- `CgSpec.v`: Vectors and matrices of rationals.
- `CloseModel.v`: Model of heat/core/relational.py equal (L87-187) and heat/core/logical.py allclose (L109-160), isclose (L229-284), __sanitize_close_input (L470-537). Both operands are DNDarrays on one communicator of P ranks, one list entry per rank; type promotion is not modelled. [eqb] / [close]: the comparison of two elements (torch.equal; \|a-b\| <= atol + rtol*\|b\|).
- `CloseSpec.v`: What ht.equal, ht.allclose and ht.isclose promise, on global arrays (shape and elements). Nothing here refers to Heat's code.
- `CollModel.v`: Model of the collectives in a single process: heat/core/communication.py [__broadcast_like] L816-850, [__reduce_like] L982-1085, [__allgather_like] L1283-1385, [__alltoall_like] L1487-1628, [__gather_like] L1960-2071, [__scatter_like] L2219-2333 and [_copyto] L2553-2564, for [is_distributed() == False] (L191: one process). Memory is a list of storages; a torch tensor or a NumPy array is a strided view of one of them. Simplifications: one element type (casts of [copy_] not modelled), CPU only, a DNDarray argument is its [larray].
- `ConcatModel.v`: Model of heat/core/manipulations.py concatenate L446-770 (and hstack, vstack, column_stack through it). Dtype promotion is not modelled. All ranks compute the same lshape_map and chunk_map, so the point-to-point part is a list of Isend/Recv pairs (a trace of RedistModel.xfer: off the top of the sender onto the bottom of the receiver when the sender has the higher rank, and the other way round).
- `ConcatSpec.v`: What concatenation means, element by element. Nothing here refers to Heat's code.
- `ConvModel.v`: Model of heat/core/signal.py convolve L221-515 for one-dimensional signal and kernel, with the parts of _sanitize_conv_input (L20-174) that concern shapes, mode and stride. Data types are not modelled (both operands have one element type). One list entry per rank.
- `ConvSpec.v`: The discrete linear convolution of two finite sequences. Nothing here refers to Heat's code.
- `CrossModel.v`: Model of heat/core/linalg/basics.py cross (L165-272). One list entry per rank; [sub] and [mul]: the arithmetic of the promoted element type (promotion, devices and communicators are not modelled).
- `CrossSpec.v`: Specification for C97: the cross product of two arrays of vectors, in terms of elements.
- `CsvModel.v`: Model of heat/core/io.py load_csv L968-1191 (all three values of [split]). A file is the list of its bytes (natural numbers). [fl] is Python's float() followed by the conversion to the requested type (L1058, L1146-1147): from the bytes of one field to a value or an exception. Simplifications: the separator is one byte (a longer separator is never counted as a column by L1105); an ASCII compatible encoding, so that decoding a line and splitting it is splitting its bytes; header_lines is not negative; reading and writing the file cannot fail. An exception on one rank is the result of the whole call (the other ranks are then left waiting in Recv or Allreduce).
- `CsvSpec.v`: Specification vocabulary for C46: what a CSV file is. Nothing here refers to the code.
- `DasoModel.v`: Model of heat/optim/dp_optimizer.py DASO: epoch_loss_logic (L353-446), _global_sync (L448-493), _gs_send_params / _gs_rcv_update_params / _gs_rcv_update_params_last_batch / _local_update (L519-690), step (L757-845), for [loc] GPUs per node and [nodes] nodes, loc >= 2 (DASO.__init__ builds its MPI groups only then). Rank = (node, gpu); the MPI group [g] holds the ranks (_, g), which act alike, so outstanding transfers are kept per group. A model parameter is one rational per rank (tensors: pointwise; precision and the bfloat16 cast, the split of the send buffer into chunks and NaNs are left out). The local optimizer's step is an input of every batch: an arbitrary change of all the parameters. The averaged loss of an epoch is an input.
- `DasoSpec.v`: Delayed synchronisation: what a user expects. Nothing here refers to Heat's code.
- `DiagModel.v`: Model of tril/triu (heat/core/linalg/basics.py __tri_op L1923-1990), diag and diagonal (heat/core/manipulations.py L773-923), DNDarray.fill_diagonal (heat/core/dndarray.py L883-921) and nonzero (heat/core/indexing.py L16-82). One list entry per rank.
- `DiagSpec.v`: What the diagonal / triangle operations mean on the global array.
- `DiffModel.v`: Model of heat/core/arithmetics.py diff L916-1051 without prepend/append (these call concatenate, C54). One list entry per rank; [minus] is torch's subtraction.
- `DiffSpec.v`: The n-th discrete difference of an array along an axis. Nothing here refers to Heat's code.
- `DotModel.v`: Model of heat/core/linalg/basics.py dot for two vectors (L388-411), vecdot (L2074-2108) and vdot (L2038-2071). Promotion is not modelled; the other branches of dot are multiply (C45) and matmul (C61).
- `DotSpec.v`: Inner products of sequences.
- `DpModel.v`: Model of heat/nn/data_parallel.py DataParallel (L53-296) with heat/optim/dp_optimizer.py DataParallelOptimizer (L851-892), on P processes. A parameter with its optimizer state is an abstract [PS]; torch optimizers treat the parameters one by one, skipping those without a gradient. A gradient is one rational (tensors: pointwise; casts left out). All processes run the same layers in the same order, so the reductions match; the wait handle of a reduction is its result, read when waited for. Layers are numbers; [mods] tells which of them are submodules (the layer name of a parameter of the top module itself is not).
- `DpSpec.v`: Data-parallel training: what a user expects. Nothing here refers to Heat's code.
- `DsetModel.v`: Model of heat/utils/data/datatools.py: Dataset (L163-263), DataLoader.__iter__ and _full_dataset_shuffle_iter (L125-160), dataset_shuffle (L669-721), dataset_ishuffle (L724-763), dataset_irecv (L766-799), for arrays split along axis 0 with a DNDarray behind every attribute. An attribute: per rank, the rows of the DNDarray ([ht]) and the rows handed out ([data]).
- `DtypeModel.v`: Model of Heat's MPI datatype construction (heat/core/communication.py) and of the collectives behind resplit. An MPI datatype is its typemap: the byte displacements of its basic elements in order, plus its extent and whether it was committed (MPI standard, chapter "Datatypes"; the constructors below are the MPI ones, with lower bound 0).
- `DtypeSpec.v`: Specification of distributed tensors in memory, used by the datatype and resplit theorems.
- `FactoryModel.v`: Model of heat/core/factories.py: array (split / is_split) L411-494, the common factory behind zeros/ones/full/empty L749-802, eye L709-746, arange L95-148 (integers) and linspace L1233-1280 (exact rationals instead of floats). One list entry per rank.
- `FftModel.v`: Model of heat/fft/fft.py __fft_op (L39-142) for the transforms that are not real-to-complex: fft, ifft, and hfft, irfft (L590-592, L928-930, which pass the default n themselves). One list entry per rank. [F n]: torch's one-dimensional transform of a list to n outputs (padding, cropping and norm= included). The dtypes are not modelled; n must be positive (torch raises otherwise).
- `FftSpec.v`: Specification for C92: a one-dimensional transform applied to every lane along an axis.
- `GaussModel.v`: Model of det and inv, heat/core/linalg/basics.py L276-352 and L407-515. Elements are in a type with exact operations (no rounding); [isclose x] models np.isclose(x, 0), that is \|x\| <= 1e-8. dtypes are not modelled. [tdet], [tinv] are torch.linalg.det and torch.inverse on one square matrix.
- `GnbModel.v`: Model of GaussianNB.fit and partial_fit, heat/naive_bayes/gaussianNB.py L71-377, in exact rational arithmetic. x is the list of its rows, y the list of labels (integers here); how means, variances, unique and masks are computed on distributed arrays is the subject of C25, C38 and C14. Shape checks on x, y, sample_weight and empty batches are not modelled.
- `GnbSpec.v`: Weighted moments, the specification of GaussianNB's parameters (C79).
- `HaloModel.v`: Model of DNDarray.get_halo, array_with_halos (heat/core/dndarray.py L364-469). Slabs along the split axis; [d] lists the ranks' local arrays, the cached lshape_map is assumed to be the actual one (C11).
- `HistModel.v`: Model of histc and histogram, heat/core/statistics.py L637-741, on exact values (no NaN). [cast] is the conversion of a Python number to the element type of the tensor; the arithmetic of the bin position is exact; counts are exact integers.
- `HistSpec.v`: Histograms with n equal bins between lo and hi; nothing here refers to Heat's code.
- `IndexModel.v`: Model of DNDarray.__getitem__ / __setitem__ for basic keys (ints and slices) and of the scalar conversions (heat/core/dndarray.py). The key on the split axis decides what happens; the other entries of the key act on every slab in the same way and are left out. [d] lists the local arrays.
- `KmModel.v`: Model of KMeans.fit and predict (heat/cluster/kmeans.py L76-148, heat/cluster/_kcluster.py L352-415) and of the update of KMedoids (heat/cluster/kmedoids.py L57-115), in exact rational arithmetic. x is split along the samples or not split: the list of the local lists of rows, in any layout. Argmin over Euclidean distances is argmin over their squares. Not modelled: x split along the features, the initialisations other than "random" and given centers, the labels' container (keepdims).
- `KmSpec.v`: k-means vocabulary (C81): points and centers are functions from feature index to Q.
- `LayoutModel.v`: Model of the layout arithmetic of heat/core/communication.py and heat/core/stride_tricks.py.
- `LayoutSpec.v`: Independent specification for the layout properties (C01-C05).
- `LocalModel.v`: Model of the element-wise functions: __local_op, heat/core/_operations.py L338-412 (behind exp, sqrt, sin, abs, ceil, isnan, bucketize, ...). [f] is the torch operation composed with the cast of L375-381, applied to one element; dtypes are not modelled here (C32).
- `MaskModel.v`: Model of x[mask] and x[mask] = v (heat/core/dndarray.py __getitem__ L956-972, L1013-1054, L1070-1109, L1169-1177, __setitem__ L1676-1690, L1746-1793, L1896-1905, __setter L1913-1931) where the key is an array of booleans with as many axes as x and v is a scalar. One list entry per rank.
- `MaskSpec.v`: Specification for C91: NumPy's boolean masks.
- `MatmulModel.v`: Model of heat/core/linalg/basics.py matmul, L545-904, on CPU, for operands of one data type (the promotions of L664-682 and the GPU type changes are not modelled). [add] and [mul] are the operations of that type; one list entry per rank. The loops with broadcasts (L839-888) are modelled per rank with their pre-fetching.
- `MatmulSpec.v`: The product of two (stacks of) matrices, element by element. Nothing here refers to Heat's code.
- `MeshModel.v`: Model of heat/core/factories.py meshgrid (L1346-1436).
- `MeshSpec.v`: Coordinate grids. Nothing here refers to Heat's code.
- `MetaModel.v`: Layout metadata kept by a DNDarray next to its local arrays: the cached lshape_map and the per-rank balanced flag (heat/core/dndarray.py). Only sizes matter here, so a local array is represented by its extent along the split axis.
- `NdPerm.v`: The elements held by all processes are the elements of the global array.
- `NdSpec.v`: Specification of distributed n-dimensional arrays by their elements. A local array is a shape and an element function; a distributed array is one local array per rank. Nothing here refers to Heat's code.
- `OpsModel.v`: Model of heat/core/_operations.py: cumulative and reduction operations.
- `OuterModel.v`: Model of outer, heat/core/linalg/basics.py L1273-1499, on two vectors (operands of higher dimension are flattened first, C44; dtypes and out= are not modelled).
- `PadModel.v`: Model of heat/core/manipulations.py pad L1427-1748 (mode "constant"; other modes are not modelled). One list entry per rank. [junk]: the contents of torch.empty.
- `PadSpec.v`: What padding an array means (numpy.pad, mode "constant", with Heat's convention that a shorter list of widths addresses the last axes). Nothing here refers to Heat's code.
- `PartModel.v`: Model of the partition interface: heat/core/dndarray.py create_partition_interface (L745-841), __partitioned__ (L190-205) with its cache, and heat/core/factories.py from_partitioned, from_partition_dict, __from_partition_dict_helper (L917-1070) for torch data. Not modelled: the entries 'dtype', 'device', 'get' (the identity) of the dictionary, numpy data, dictionaries of foreign objects.
- `PartSpec.v`: Descriptions of a distributed array by boxes: what a reader of the [__partitioned__] protocol expects. Nothing here refers to Heat's code.
- `PdsModel.v`: Model of heat/utils/data/partial_dataset.py for a partial dataset: the three threads of one epoch. consumer: PartialH5DataLoaderIter._next_data (L289-306); converter: __thread_convert_all (L327-360); loader: queue_thread (L21-30) running thread_replace_converted_batches (L185-219). Every access to shared state is one step; threads interleave arbitrarily. A condition variable wakes up only when notified (CPython has no spurious wake-ups). [file]: per dataset name the rows of the file; [dataset[ind]] reads one dataset after the other (the user's __getitem__); transforms and devices are left out.
- `PercFloat.v`: float32 rounding: ranges and exactness.
- `PercModel.v`: Model of percentile and median, heat/core/statistics.py L1460-1738 and L1048-1083, for data without NaN, an int axis or axis=None. Data are exact rationals; [cv] is the conversion to the float output type (L1618-1621, L1703), [rnd] the rounding of the float32 index arithmetic (L1683-1694). out= and sketched=True are not modelled; the tuple case of axis is modelled in its shapes only.
- `PercSpec.v`: Specification of percentiles (NumPy's definition) over exact rationals. Nothing here refers to Heat's code.
- `PlatModel.v`: Model of heat/optim/utils.py DetectMetricPlateau (L14-206). Floats are exact extended numbers (no rounding); patience and cooldown are natural numbers.
- `PlatSpec.v`: Plateau detection: what a user expects. Nothing here refers to Heat's code.
- `PrintModel.v`: Model of heat/core/printing.py _torch_data (L187-270) and _tensor_str (L273-300): what rank 0 prints. The result is the displayed tree of elements, the elements the number formatter gets to see, and the array afterwards.
- `PrintSpec.v`: What print displays of an array of shape [sh] with elements [G]: all rows of every axis, or, if the array is summarized and an axis has more than [2 e] rows, its first [e] rows, an ellipsis and its last [e] rows.
- `PtpModel.v`: Model of heat/core/statistics.py ptp (L1740-1903, without out=), the parts of __reduce_op (core/_operations.py L454-512) it uses with keepdims=True and neutral=None, and the reduction operator of core/communication.py _minmax_op (L928-980). Floating point data, [None] is NaN. One list entry per rank.
- `PtpSpec.v`: The range of a collection of floating point numbers. [None] is NaN. Nothing here refers to Heat's code.
- `PySpec.v`: Specification vocabulary taken from the Python language reference, not from heat: which positions of a sequence of length [n] a slice start:stop:step selects (CPython PySlice_AdjustIndices / range).
- `PySpecSel.v`: More specification vocabulary: picking elements by position.
- `QrColModel.v`: Model of heat/core/linalg/qr.py L130-225: qr of a two-dimensional m x n array split along the columns on P processes, mode="reduced". [As]: the local blocks of columns, in the canonical layout, which Q and R also get (L150-163). The final balance() of Q (C09) is left out.
- `QrModel.v`: Model of heat/core/linalg/qr.py (L16-371), two-dimensional arrays. A distributed matrix is the list of its local blocks (rows for split=0, columns for split=1), one entry per rank. [qr]: torch.linalg.qr(., mode="reduced") on a local matrix, None when it raises. For mode="r" the Q factors are not formed; torch's R is the same.
- `QrRowModel.v`: Model of heat/core/linalg/qr.py L227-266: qr of a two-dimensional array split along the rows whose largest local block has fewer rows than the matrix has columns. [As]: the local blocks of rows, any layout. The final balance() of R (C09) is left out: the result is the list of local blocks before it, cut to the first n rows.
- `QrSpec.v`: Specification for C93 and C94: matrices over any ring with an involution, products, Q^H Q = 1, triangular R.
- `RandFloat.v`: random.py L242-269: conversion of random words to floating point numbers. IEEE arithmetic as in Flocq: a float operation is the exact real result rounded to nearest even in the format (float32: 24 bits, emin -149; float64: 53 bits, emin -1074).
- `RandModel.v`: Model of heat/core/random.py: the Threefry generator (counter sequence, cipher, conversion to values, state) and permutation. Words of [b] = 32 or 64 bits are signed integers; torch integer arithmetic wraps.
- `RandSpec.v`: Specification of the counter-based random stream and of permuting rows. Nothing here refers to Heat's code.
- `RedistModel.v`: Model of DNDarray.redistribute_, __redistribute_shuffle, balance_, collect_, is_balanced and the cached layout metadata (heat/core/dndarray.py). All ranks compute the same bookkeeping (lshape_map, target_map, cumsums), so the bookkeeping is one sequential program whose effect on the data is the list of blocking Send/Recv pairs it issues: the trace. [lmap], [target] are the split columns of lshape_map and target_map.
- `RepeatModel.v`: Model of heat/core/manipulations.py repeat L1862-2090. The array is a DNDarray; the repetitions are an int, a sequence of ints (list, tuple, np.ndarray) or a DNDarray of int64. Warnings, dtypes and the conversion of [a] from Python objects are not modelled. One list entry per rank.
- `RepeatSpec.v`: Repeating and tiling, element by element (numpy.repeat, numpy.tile). Nothing here refers to Heat's code.
- `ReshapeModel.v`: Model of heat/core/manipulations.py reshape L2093-2295 (and roll with axis=None, L2353).
- `RingModel.v`: A ring of processes: in every round each process sends to its right neighbour, then receives from its left neighbour (blocking Send, then Recv), heat/core/linalg/basics.py L1449-1479. Programs and executions are those of SchedModel.v.
- `RollModel.v`: Model of heat/core/manipulations.py: roll L2302-2492, flip L1123-1184, rot90 L2495-2583.
- `RollSpec.v`: What roll, flip and rot90 mean, element by element. Nothing here refers to Heat's code.
- `SampModel.v`: Model of heat/utils/data/datatools.py DistributedSampler (L296-583). [d]: per rank, the list of local rows; each row is a block of [bl] elements, so the memory of rank r is [concat (nth r d [])]. Random permutations are inputs.
- `SampSpec.v`: Shuffling rows: what a user expects. Nothing here refers to Heat's code.
- `SaveModel.v`: Model of heat/core/io.py save_csv L1194-1320. A number type is given by its kind (integer or floating with a number of decimals), the value of an element and the text Python's "%d" / "%.<decimals>f" gives it without padding. [lg] is int(log10(x)) computed in floating point. Simplifications: finite elements; dtypes other than integer and floating leave fmt empty (TypeError); 1-D and 2-D arrays only; decimals is not negative once the default -1 is replaced by 7 or 15 (L1274-1275); a header given as Iterable is represented by what its first and its second enumeration yield.
- `SaveSpec.v`: Specification vocabulary for C47: numbers as decimal text and what a set of file writes leaves in a file. Nothing here refers to the code.
- `ScalerModel.v`: Model of heat/preprocessing/preprocessing.py MinMaxScaler (fit L215-241, transform L243-256, inverse_transform L263-276) and of transform / inverse_transform of StandardScaler (L118-151), copy=True, on arrays of shape (n, f). Elements are exact rationals (rounding is not modelled); [top] stands for the infinity with which min and max fill ranks without rows (statistics.py L854, L1215); [tol] is _tol_wrt_dtype. The checks of type and dtype are not modelled.
- `SchedModel.v`: Operational semantics of processes that exchange point-to-point messages with blocking MPI Send / Recv (mpi4py; heat/core/communication.py L600-790 wraps them without reordering). A process is a list of actions. MPI may buffer a standard-mode Send or make it wait for the matching Recv; both behaviours are steps here. Messages between a pair of processes with equal tag are non-overtaking (MPI 3.1, 3.5).
- `ShapeModel.v`: Model of the shape-changing operations that must keep track of the split axis: heat/core/manipulations.py (expand_dims, squeeze, moveaxis, swapaxes, flatten, stack) and heat/core/linalg/basics.py (transpose). Arrays are index functions (NdSpec); torch's view operations are modelled by what they do to indices.
- `ShapeSpec.v`: Specification vocabulary for operations on shapes: axis numbers, permutations of axes, exchanged positions. Nothing here refers to Heat's code.
- `SortModel.v`: Model of ht.sort along the split axis (heat/core/manipulations.py L2606-2900): sample sort. A lane is what one index of the other axes selects: all pivots, counts, displacements and exchanges of the code are computed lane by lane (dim=0 operations and the np.ndindex loops L2775, L2799, L2854). One list entry per rank.
- `SortNd.v`: ht.sort on n-dimensional arrays (heat/core/manipulations.py L2606-2905), return value (values, indices); one list entry per rank. axis=None (flatten first) and out= are not modelled.
- `SortSpec.v`: What sorting means. [lt] is the strict comparison of the elements.
- `SparseModel.v`: Model of heat/sparse: factories.py L164-372 (__sparse_matrix), dcsx_matrix.py L63-95 (global_indptr), L123-205 (data, indices, indptr), L274-291 (counts_displs_nnz), _operations.py L17-209 (__binary_op_csx), manipulations.py L18-61 and L106-173. A torch sparse_csr / sparse_csc tensor is a [csx]; [col] tells which. One list entry per rank. Not modelled: device moves, out= (the assignment to the read-only property device at _operations.py L146 raises), float counts handed to MPI are taken as the integers they are equal to.
- `SparseSpec.v`: Compressed sparse matrices. Nothing here refers to Heat's code. A matrix is stored line by line: a line is a row (CSR) or a column (CSC).
- `SplitModel.v`: Model of ht.split (heat/core/manipulations.py L2903-3134): cutting a distributed array into pieces along an axis. One list entry per rank.
- `SplitSpec.v`: What it means to cut a global array along an axis.
- `StatModel.v`: Moments and bincount: heat/core/statistics.py, in exact rational arithmetic.
- `StatSpec.v`: Sample mean and variance of a list of rationals; counting.
- `TensorSpec.v`: Specification vocabulary for strided tensors in memory: multi-indices, their row-major enumeration, the address of an element, and memory as a function. Nothing here refers to Heat's code.
- `TileModel.v`: Model of heat/core/manipulations.py tile L4152-4404. [reps] is the list of repetitions after its conversion to a list of ints (L4201-4240, not modelled, like the conversion of scalars for x). torch.empty (L4283) leaves arbitrary values in memory: [junk r q] is what rank r finds at its slab q. One list entry per rank.
- `TraceModel.v`: Model of heat/core/linalg/basics.py trace (L1524-1835) without out= and dtype=, elements are integers.
- `TraceSpec.v`: Sums along diagonals, on global arrays. Nothing here refers to Heat's code.
- `TriModel.v`: Model of solve_triangular, heat/core/linalg/solver.py L430-623. Elements are in a type with exact operations. A distributed matrix is given by its global entries and the extents of the local pieces (lshape_map); every process runs in lockstep, a collective is one step. For stacks of matrices with the rows or columns distributed the code does the same for each matrix of the stack, the model has one.
- `TriSpec.v`: Upper triangular systems (C80).
- `TypesModel.v`: Heat's data types: heat/core/types.py.
- `TypesSpec.v`: What the data types mean: the numbers each type can hold. Independent of the tables.
- `UnfoldModel.v`: Model of ht.unfold (heat/core/manipulations.py L3692-3775): sliding windows along an axis. One list entry per rank.
- `UnfoldSpec.v`: Sliding windows: element j of window w along [axis] is x[..., w*step + j, ...]; the windows are counted by [axis], the position inside a window is the new last axis.
- `UniqueInvModel.v`: Model of the inverse indices of ht.unique with axis=None (heat/core/manipulations.py L3462-3478 for an array that is not distributed, L3529-3549 and L3553-3587 otherwise). [reps], [inv]: the two results of torch.unique(l, return_inverse=True), as in UniqueModel.
- `UniqueModel.v`: Model of ht.unique (heat/core/manipulations.py L3423-3645). One list entry per rank. torch.unique is given by [reps]: which positions of a list of keys are kept, and [inv]: the position, among those kept, of every key.
- `UniqueSpec.v`: What unique elements are.
- `VmapModel.v`: Model of heat/core/vmap.py L69-101 (the function returned by vmap). The type checks of the arguments, keyword arguments, randomness and chunk_size (torch's own chunking) are not modelled. [f]: the user's function on torch tensors; one list entry per rank.
- `VmapSpec.v`: Mapping a function over slices, on global arrays. Nothing here refers to Heat's code.
