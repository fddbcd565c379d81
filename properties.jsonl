{"id": "C01", "title": "Traversal visits every element once in row-major order", "statement": "Any operation that walks an array (copy, astype, tolist, flat, element-wise and reduction fallbacks) visits exactly the elements a[i0,...,ik] for 0<=ij<shape[j], each once, in row-major (last index fastest) order, whatever the memory layout of the view.", "quantifier": "every number of dimensions, every shape (including zero-length and length-1 axes), every stride vector (negative, zero, arbitrary)", "why_tests_cant": "Walking uses an incremental odometer with precomputed wrap distances; only a proof by induction over the number of dimensions and steps covers every rank and stride combination.", "anchors": ["src/array/iter.rs: StridedIter::new, advance, next", "src/array/iter.rs: AxisOffsetIter::new", "src/array/mod.rs: increment_indices, byte_offset_for"]}
{"id": "C02", "title": "Row-major and column-major strides address every element exactly once", "statement": "A freshly allocated array of any shape stores its elements in row-major order with no gap and no overlap: the element with linear row-major rank k lives at position k; the column-major strides do the same for the reversed index order.", "quantifier": "every shape and item size", "why_tests_cant": "Requires a bijection argument for every shape.", "anchors": ["src/array/mod.rs: compute_c_strides, compute_f_strides", "src/array/constructors.rs: zeros"]}
{"id": "C03", "title": "Contiguity flags tell the truth", "statement": "Whenever an array reports itself C-contiguous, reading size consecutive items from its data pointer yields its elements in row-major order (so the memcpy / slice fast paths are legal); whenever it reports F-contiguous they come in column-major order.", "quantifier": "every shape and stride vector of a view, including shapes with length-1 or length-0 axes whose strides are arbitrary", "why_tests_cant": "The flag test skips length-1 axes and stops early at length-0 axes; correctness of that for all layouts is not testable exhaustively.", "anchors": ["src/array/mod.rs: is_c_contiguous, is_f_contiguous", "src/array/views.rs: view_with"]}
{"id": "C04", "title": "Transpose and axis permutation only rename indices", "statement": "a.T[i_k,...,i_0] is a[i_0,...,i_k]; transpose(a, axes)[j] reads a at the index whose axes[d]-th coordinate is j[d]; transposing twice gives back the original; swapaxes is its own inverse. No data is moved.", "quantifier": "every array view, every permutation of its axes, every index", "why_tests_cant": "Infinitely many ranks, permutations and layouts.", "anchors": ["src/array/views.rs: transpose, transpose_axes", "src/ops/mod.rs: swapaxes", "src/python/shape.rs: transpose, swapaxes"]}
{"id": "C05", "title": "Slicing selects the Python-slice elements and stays in bounds", "statement": "A slice a[start:stop:step] along an axis (indices already clamped by Python's slice.indices) yields a view whose j-th position is a's position start+j*step, for exactly those j in range, and never addresses memory outside a's buffer.", "quantifier": "every view, axis, start, stop, non-zero step and every previous history of slicing/flipping", "why_tests_cant": "The result depends on the sign of the stride left behind by earlier views; tests only slice fresh arrays.", "anchors": ["src/array/views.rs: slice_axis, flip", "src/python/pyarray/dunder_item.rs: __getitem__", "src/python/pyarray/mod.rs: extract_slice_indices"]}
{"id": "C06", "title": "Flip reverses an axis and is an involution", "statement": "flip(a, axis)[..., i, ...] is a[..., n-1-i, ...] and flipping the same axis twice gives back the original array.", "quantifier": "every view, every axis", "why_tests_cant": "Composition of views over arbitrary histories.", "anchors": ["src/array/views.rs: flip, slice_axis", "src/python/shape.rs: flip"]}
{"id": "C07", "title": "Reshape and ravel keep the row-major element sequence", "statement": "reshape(a, s) with prod(s)=a.size holds the same elements in the same row-major order as a; ravel(a) lists them in row-major order.", "quantifier": "every array including transposed and other non-C-contiguous views, every compatible shape", "why_tests_cant": "Depends on which memory layout the operand happens to have.", "anchors": ["src/array/views.rs: reshape", "src/python/pyarray/mod.rs: reshape, ravel, flatten", "src/python/shape.rs: reshape, ravel"]}
{"id": "C08", "title": "Broadcast shapes follow the NumPy rule", "statement": "The broadcast shape of two shapes exists iff, aligned at the right, every pair of lengths is equal or one of them is 1; it is then the pairwise maximum rule; the operation is commutative, associative, idempotent, and has the empty shape as unit.", "quantifier": "all pairs and triples of shapes of any rank", "why_tests_cant": "Algebraic laws over all shapes.", "anchors": ["src/array/manipulation.rs: broadcast_shapes", "src/ops/gufunc/dims.rs: broadcast_multi_shapes"]}
{"id": "C09", "title": "Broadcasting a view repeats elements without copying", "statement": "broadcast_to(a, s)[i] is a[i'] where i' drops the extra leading coordinates and replaces the coordinate of each stretched length-1 axis by 0; it is rejected exactly when the shapes are incompatible, and stays inside a's buffer.", "quantifier": "every view, every target shape, every index", "why_tests_cant": "All ranks and layouts.", "anchors": ["src/array/views.rs: broadcast_to"]}
{"id": "C10", "title": "Adding and removing length-1 axes never changes the data", "statement": "expand_dims/squeeze/squeeze_axis give a view with the same elements, the index tuple merely gaining or losing zero coordinates; squeeze undoes expand_dims.", "quantifier": "every view, every axis position", "why_tests_cant": "All ranks and layouts.", "anchors": ["src/array/views.rs: expand_dims, squeeze, squeeze_axis"]}
{"id": "C11", "title": "Any history of view operations behaves like the pure array it denotes and never leaves the buffer", "statement": "Starting from a freshly created array, after any sequence of reshape, transpose, permute, slice, flip, broadcast, squeeze, expand_dims and swapaxes operations, reading any valid index of the resulting view gives the element predicted by applying the same operations to the abstract index-to-value function, and no read leaves the allocation.", "quantifier": "every finite sequence of view operations with every argument", "why_tests_cant": "Histories are unbounded; the interaction of operations (slice of a flipped view, reshape of a transposed one) is where the code breaks.", "anchors": ["src/array/views.rs", "src/array/mod.rs: get_element"]}
{"id": "C12", "title": "copy() and flatten() are faithful and independent of layout", "statement": "copy(a) has the same shape, dtype and elements as a for every memory layout (all copy fast paths agree), and the copy owns fresh contiguous storage.", "quantifier": "every view (contiguous, strided, broadcast with zero strides, 2-D row/column broadcasts), every dtype element type", "why_tests_cant": "There are five copy code paths selected by layout and dtype.", "anchors": ["src/array/mod.rs: copy, astype, copy_broadcast_typed"]}
{"id": "C13", "title": "Slices inside an index tuple follow Python slice semantics", "statement": "a[s0, s1, ...] interprets each slice exactly as Python's slice.indices would for that axis length (missing start/stop, negative values, values beyond the ends, negative steps).", "quantifier": "every start/stop/step (present or absent) and every axis length", "why_tests_cant": "Boundary behaviour over unbounded integers with both signs of step.", "anchors": ["src/python/pyarray/mod.rs: normalize_slice, expand_ellipsis", "src/python/pyarray/dunder_item.rs: __getitem__"]}
{"id": "C14", "title": "Integer indices outside the axis are rejected", "statement": "An integer index i with i<-n or i>=n along an axis of length n raises an error and never reads or writes memory outside the array.", "quantifier": "every index, every array, every mix of integers and slices", "why_tests_cant": "Out-of-range reads may return plausible garbage, so tests cannot see them.", "anchors": ["src/python/pyarray/mod.rs: normalize_index", "src/python/pyarray/dunder_item.rs: __getitem__, __setitem__", "src/array/mod.rs: get_element"]}
{"id": "C15", "title": "Assignment through overlapping views reads the right-hand side before writing", "statement": "x[dst] = x[src] stores the values x[src] had before the statement, even when the two views share memory.", "quantifier": "every pair of overlapping views of one buffer", "why_tests_cant": "Depends on aliasing and on the order of element writes.", "anchors": ["src/python/pyarray/mod.rs: fill_view", "src/python/pyarray/dunder_item.rs: __setitem__"]}
{"id": "C16", "title": "Binary element-wise operations do not depend on memory layout", "statement": "For operands already broadcast to a common shape, result[i] = f(a[i], b[i]) for every index, whichever of the contiguous, 1-D strided or N-D strided loops is selected.", "quantifier": "every kernel function, every pair of views of the same shape (contiguous or strided, zero or negative strides)", "why_tests_cant": "Three code paths times all layouts.", "anchors": ["src/ops/dispatch.rs: dispatch_binary_typed", "src/ops/loops/contiguous.rs: map_binary", "src/ops/loops/strided.rs: map_binary_strided"]}
{"id": "C17", "title": "Unary, comparison and predicate operations do not depend on memory layout", "statement": "result[i] = f(a[i]) (respectively a[i] cmp b[i], p(a[i])) for every index, on every layout.", "quantifier": "every kernel, every view", "why_tests_cant": "Same as above for three more families of loops.", "anchors": ["src/ops/dispatch.rs: dispatch_unary_typed, dispatch_compare_typed, dispatch_predicate_typed", "src/ops/loops"]}
{"id": "C18", "title": "Arithmetic never modifies its operands", "statement": "Evaluating x op y leaves every pre-existing array (x, y and every view sharing their buffers) unchanged, whatever the Python reference counts and array sizes (the temporary-elision optimisation is invisible).", "quantifier": "every heap of arrays and views, every reference count, every size", "why_tests_cant": "Depends on a reference-count race between the optimisation and its callers; tests cannot enumerate ownership states.", "anchors": ["src/python/pyarray/mod.rs: try_elision_candidate, binary_op_dispatch_with_elision", "src/ops/ufunc.rs: map_binary_op_inplace", "src/array/mod.rs: can_reuse_for_output"]}
{"id": "C19", "title": "The value of x op y depends only on the operand values", "statement": "The result of an element-wise operator is a function of the element values only: not of the array size, not of how many Python references exist.", "quantifier": "every operator, dtype, size and reference count", "why_tests_cant": "A size threshold (32768) and a refcount test select a different implementation of the operator.", "anchors": ["src/python/pyarray/mod.rs: ELISION_SIZE_THRESHOLD, try_elision_candidate", "src/ops/ufunc.rs: map_binary_op_inplace", "src/ops/kernels/arithmetic.rs: FloorDiv", "src/array/dtype/macros.rs: impl_signed_int_dtype"]}
{"id": "C20", "title": "Integer arithmetic wraps: +, -, * form the ring of integers modulo 2^w", "statement": "For each integer dtype of width w, +, - and * of arrays are exact modulo 2^w and therefore associative, commutative and distributive, and never raise.", "quantifier": "all pairs/triples of representable values of every width", "why_tests_cant": "2^128 pairs of 64-bit values.", "anchors": ["src/ops/kernels/arithmetic.rs: impl_int_arithmetic", "src/array/dtype/macros.rs"]}
{"id": "C21", "title": "Floor division and remainder of integers are consistent and floor-rounded", "statement": "For b != 0: a // b is the floor of the quotient, a % b has the sign of b, and a = (a//b)*b + a%b.", "quantifier": "every pair of representable integers, both signs", "why_tests_cant": "Sign combinations and extreme values over the full range.", "anchors": ["src/ops/kernels/arithmetic.rs: FloorDiv, Mod", "src/array/dtype/macros.rs"]}
{"id": "C22", "title": "where selects per element by truth value", "statement": "where(c, x, y)[i] is x[i] if c[i] is non-zero, else y[i], for every dtype of c and every layout.", "quantifier": "every condition array, dtype and layout", "why_tests_cant": "Two code paths with different truth tests.", "anchors": ["src/ops/dispatch.rs: dispatch_where_typed", "src/ops/mod.rs: where_select"]}
{"id": "C23", "title": "Whole-array reductions equal the mathematical fold", "statement": "sum, prod, max, min of an integer array equal the modular sum, product, maximum, minimum of its elements whatever the length and layout (the 8-lane tree order is invisible).", "quantifier": "every length and every layout, every commutative-associative kernel with identity", "why_tests_cant": "The lane structure changes at lengths 8, 16, 17, ...; all lengths must be covered.", "anchors": ["src/ops/loops/contiguous.rs: reduce", "src/ops/loops/strided.rs: reduce_strided", "src/ops/dispatch.rs: dispatch_reduce_typed"]}
{"id": "C24", "title": "Integer reductions return the exact value", "statement": "sum/max/min of an int64 array returns exactly the integer value (when representable in int64).", "quantifier": "every int64 array", "why_tests_cant": "Only wrong for values above 2^53, which random tests rarely use.", "anchors": ["src/ops/dispatch.rs: dispatch_reduce_to_array", "src/ops/ufunc.rs: reduce_all_op", "src/array/constructors.rs: full"]}
{"id": "C25", "title": "The 2-norm is the square root of the sum of squares", "statement": "norm(x) of any vector or matrix equals sqrt(sum of squares of all its elements), for every length and layout.", "quantifier": "every length and layout", "why_tests_cant": "Correct for short contiguous vectors, wrong beyond a length threshold and for strided matrices.", "anchors": ["src/ops/linalg.rs: norm, vector_norm, matrix_norm", "src/ops/kernels/arithmetic.rs: SumOfSquares", "src/ops/dispatch.rs: dispatch_reduce_sum_of_squares"]}
{"id": "C26", "title": "Axis reductions reduce exactly the elements along that axis", "statement": "a.sum(axis=k)[i] combines exactly the elements a[..., j, ...] for all j along axis k, for each outer index i; the contiguous-axis, row-major-accumulate and strided implementations agree.", "quantifier": "every rank, axis, shape (including zero lengths) and layout", "why_tests_cant": "Three implementations chosen by strides.", "anchors": ["src/ops/dispatch.rs: dispatch_reduce_axis_typed"]}
{"id": "C27", "title": "keepdims preserves the number of dimensions", "statement": "a.sum(axis=k, keepdims=True) has the shape of a with shape[k] replaced by 1.", "quantifier": "every rank and axis", "why_tests_cant": "A special case exists for one-dimensional arrays.", "anchors": ["src/python/pyarray/mod.rs: apply_keepdims", "src/python/pyarray/methods_reductions.rs", "src/ops/dispatch.rs: dispatch_reduce_axis_typed"]}
{"id": "C28", "title": "Cumulative sums and products are prefix folds", "statement": "cumsum(a)[i] combines a[0..i] in order (flat), and along an axis each lane independently; its last entry is the sum, and diff(cumsum(a)) gives back a's tail.", "quantifier": "every length, axis, layout and kernel", "why_tests_cant": "All lengths and layouts.", "anchors": ["src/ops/dispatch.rs: dispatch_cumulative_flat, dispatch_cumulative_axis", "src/ops/loops: cumulative, cumulative_strided"]}
{"id": "C29", "title": "all/any are the conjunction/disjunction of truth values", "statement": "all(a) is true iff every element is non-zero, any(a) iff some element is; along an axis the same per lane, with all of an empty lane true and any of an empty lane false; not any(a) = all(not a).", "quantifier": "every array, axis and layout", "why_tests_cant": "Early exits and three layouts.", "anchors": ["src/ops/dispatch.rs: dispatch_logical_axis_typed", "src/ops/array_methods/logical.rs"]}
{"id": "C30", "title": "argmax/argmin return the first position of the extreme value", "statement": "argmax(a) is the smallest i with a[i] >= a[j] for all j, for every layout; argmin likewise.", "quantifier": "every non-empty array of totally ordered values, every layout", "why_tests_cant": "Ties, layouts.", "anchors": ["src/ops/array_methods/reductions.rs: argmax, argmin, argmax_contiguous, argmin_contiguous, argmax_strided, argmin_strided"]}
{"id": "C31", "title": "argmax/argmin along an axis work on every view", "statement": "argmax(a, axis) returns for each lane the first position of that lane's maximum, without reading memory outside the array, for contiguous and non-contiguous a.", "quantifier": "every view and axis", "why_tests_cant": "The strided code path dereferences a data byte as a pointer; whether it crashes depends on data.", "anchors": ["src/ops/array_methods/reductions.rs: impl_arg_axis"]}
{"id": "C32", "title": "Sorting returns the same multiset in ascending order", "statement": "sort(a) is a non-decreasing rearrangement of a (per lane along the chosen axis); no value is altered.", "quantifier": "every array, every lane length", "why_tests_cant": "Must hold for every permutation and multiplicity of values.", "anchors": ["src/ops/array_methods/sorting.rs: sort"]}
{"id": "C33", "title": "argsort returns a permutation that sorts", "statement": "argsort(a) is a permutation p of 0..n-1 with a[p[0]] <= a[p[1]] <= ...; equal keys keep their original order.", "quantifier": "every array", "why_tests_cant": "All permutations and ties.", "anchors": ["src/ops/array_methods/sorting.rs: argsort"]}
{"id": "C34", "title": "partition places the k-th smallest element", "statement": "partition(a, k) is a rearrangement of a whose k-th entry is the k-th smallest value, everything before it <= and everything after it >= it, for any kth in range; the loop always terminates.", "quantifier": "every array and every k", "why_tests_cant": "Quickselect's behaviour depends on pivot positions; worst cases are exponential in number.", "anchors": ["src/python/pyarray/mod.rs: partition_select, partition_select_indexed", "src/ops/array_methods/sorting.rs: partition_lane_typed"]}
{"id": "C35", "title": "searchsorted returns the insertion point", "statement": "For sorted a, searchsorted(a, v, 'left') is the unique i with a[j] < v for j<i and a[j] >= v for j>=i; 'right' the unique i with a[j] <= v for j<i and a[j] > v for j>=i; the loop terminates and never probes outside the array.", "quantifier": "every sorted array, every value, both sides", "why_tests_cant": "Binary search off-by-one errors need every length and position.", "anchors": ["src/ops/indexing.rs: searchsorted"]}
{"id": "C36", "title": "digitize is consistent with the bin edges", "statement": "digitize(x, bins) returns i such that x lies in the i-th bin of increasing (or decreasing) bins, with the documented side for ties.", "quantifier": "every monotone bins, every x, both values of right", "why_tests_cant": "All lengths, both monotonicities, ties.", "anchors": ["src/ops/indexing.rs: digitize"]}
{"id": "C37", "title": "unique returns each distinct value once, in order", "statement": "unique(a) is strictly increasing and has exactly the values of a; with inverse and index, values[inverse] rebuilds a, a[index] = values, and counts add up to a.size.", "quantifier": "every array", "why_tests_cant": "All multiplicities and orders.", "anchors": ["src/ops/array_methods/sorting.rs: unique, unique_all"]}
{"id": "C38", "title": "Set routines compute mathematical sets", "statement": "intersect1d, union1d, setdiff1d, setxor1d, isin return the sorted intersection, union, difference, symmetric difference and membership of the operands' values.", "quantifier": "every pair of arrays of totally ordered values", "why_tests_cant": "Two-pointer merges with many interleavings.", "anchors": ["src/ops/set_ops.rs"]}
{"id": "C39", "title": "lexsort orders by the last key first, stably", "statement": "lexsort(keys) is a permutation ordering positions by the last key, ties by the previous keys, remaining ties by position.", "quantifier": "every number of keys and elements", "why_tests_cant": "All tie patterns.", "anchors": ["src/ops/array_methods/sorting.rs: lexsort"]}
{"id": "C40", "title": "split undoes concatenate and array_split covers the axis", "statement": "concatenate lists the operands' elements in order along the axis; array_split(a, n) cuts the axis into n consecutive pieces that cover it exactly, the first (len mod n) one longer than the rest; concatenating the pieces gives back a.", "quantifier": "every axis length, every number of sections, every list of arrays", "why_tests_cant": "All divisions with remainder.", "anchors": ["src/array/manipulation.rs: concatenate, stack, split, array_split, split_into_sizes"]}
{"id": "C41", "title": "repeat, tile and roll place elements as documented", "statement": "repeat(a, r)[i] = a[i / r]; tile(a, r)[i] = a[i mod n] along every axis; roll(a, s)[(i+s) mod n] = a[i], roll by s then -s is the identity.", "quantifier": "every array, count and shift (negative, larger than n)", "why_tests_cant": "All modular wrap-arounds.", "anchors": ["src/array/manipulation.rs: repeat, tile, roll"]}
{"id": "C42", "title": "tril and triu split a matrix", "statement": "tril(a,k)[i,j] is a[i,j] when j-i<=k and 0 otherwise, triu(a,k)[i,j] is a[i,j] when j-i>=k and 0 otherwise, so tril(a,k)+triu(a,k+1)=a; tri(n,m,k) is the indicator of j-i<=k; tril_indices/triu_indices list exactly those positions in row-major order.", "quantifier": "every shape and every k", "why_tests_cant": "All k including out of range.", "anchors": ["src/array/manipulation.rs: tri, extract_triangle, tril, triu", "src/ops/indexing.rs: tril_indices, triu_indices"]}
{"id": "C43", "title": "rot90 is a quarter turn", "statement": "rot90(a,k) rotates a matrix by k quarter turns: rot90(a,1)[i,j] = a[j, n-1-i]; it depends only on k mod 4 and four turns are the identity.", "quantifier": "every matrix view and every integer k", "why_tests_cant": "Composition of views.", "anchors": ["src/array/manipulation.rs: rot90"]}
{"id": "C44", "title": "Discrete convolution follows its definition", "statement": "convolve(a,v)[k] = sum over i+j=k of a[i]*v[j]; it is commutative, bilinear and has length n+m-1; correlate is convolution with the reversed kernel.", "quantifier": "every pair of non-empty vectors over any commutative ring", "why_tests_cant": "All lengths.", "anchors": ["src/array/manipulation.rs: convolve, convolve_direct", "src/ops/numerical.rs: correlate, convolve_direct"]}
{"id": "C45", "title": "insert and delete are inverse list edits", "statement": "insert(a, i, v) puts v's elements before position i and leaves the rest in order; delete(a, i) removes exactly position i; deleting what was inserted restores a.", "quantifier": "every one-dimensional array, every position", "why_tests_cant": "All positions and lengths.", "anchors": ["src/array/manipulation.rs: insert, delete, append"]}
{"id": "C46", "title": "take/compress/boolean masks select exactly the requested elements", "statement": "take(a, idx)[i] = a[idx[i]] with negative indices counted from the end and out-of-range indices rejected; a[mask] lists in row-major order exactly the elements whose mask entry is true.", "quantifier": "every array, layout, index list, mask", "why_tests_cant": "Four implementations by layout.", "anchors": ["src/ops/indexing.rs: take, compress_flat, compress_axis", "src/array/mod.rs: select_by_mask, select_by_indices"]}
{"id": "C47", "title": "nonzero, argwhere, flatnonzero and count_nonzero agree", "statement": "flatnonzero lists in increasing order exactly the flat positions of non-zero elements, argwhere the corresponding index tuples in row-major order, and count_nonzero their number.", "quantifier": "every array and layout", "why_tests_cant": "All sparsity patterns.", "anchors": ["src/ops/indexing.rs: argwhere, flatnonzero", "src/ops/mod.rs: nonzero", "src/ops/array_methods/logical.rs: count_nonzero"]}
{"id": "C48", "title": "put writes exactly the addressed elements", "statement": "put(a, idx, v) stores v[i mod len v] at flat position idx[i] (later writes win) and changes nothing else; if any index is out of range nothing is written.", "quantifier": "every array, index list and value list", "why_tests_cant": "Must hold for every duplicate/ordering pattern.", "anchors": ["src/ops/indexing.rs: put"]}
{"id": "C49", "title": "unravel_index and ravel_multi_index are inverse", "statement": "For every shape and order (C or F), ravel_multi_index(unravel_index(k)) = k for all k below the size, and conversely; both reject out-of-range arguments in 'raise' mode.", "quantifier": "every shape, every flat index, both orders", "why_tests_cant": "Bijection over all shapes.", "anchors": ["src/ops/indexing.rs: unravel_index, ravel_multi_index"]}
{"id": "C50", "title": "packbits and unpackbits are inverse", "statement": "unpackbits(packbits(b), count=len(b)) = b for every bit array and both bit orders, and packbits(unpackbits(x)) = x for every byte array; padding bits are zero.", "quantifier": "every length and bit pattern, both bit orders", "why_tests_cant": "2^n bit patterns, every length modulo 8.", "anchors": ["src/ops/indexing.rs: packbits_flat, unpackbits_flat"]}
{"id": "C51", "title": "The random bit generator has full period and is reversible", "statement": "The generator's state update is a bijection on 128-bit states and, for every odd increment, visits all 2^128 states before repeating, so no seed leads to a short cycle; equal states give equal streams.", "quantifier": "every state and every odd increment", "why_tests_cant": "A period of 2^128 cannot be observed.", "anchors": ["src/random/pcg64.rs: step, next_u64"]}
{"id": "C52", "title": "random() is always in [0,1)", "statement": "Every value returned by Generator.random() is a multiple of 2^-53 in [0,1).", "quantifier": "every generator state", "why_tests_cant": "2^128 states.", "anchors": ["src/random/generator.rs: next_f64, random"]}
{"id": "C53", "title": "integers(low, high) is unbiased and in range", "statement": "Every accepted draw is in [low, high) and each value in the range is produced by the same number of accepted 64-bit inputs (Lemire rejection is exactly uniform).", "quantifier": "every range size up to 2^64 and every 64-bit input", "why_tests_cant": "Bias of 2^-64 is invisible to statistical tests.", "anchors": ["src/random/generator.rs: bounded_uint64, integers"]}
{"id": "C54", "title": "shuffle/permutation produces every permutation exactly once", "statement": "The Fisher-Yates loop turns each sequence of bounded draws into a rearrangement of the input, and distinct draw sequences give distinct permutations, so uniform draws give a uniform permutation.", "quantifier": "every length, every draw sequence", "why_tests_cant": "n! outcomes.", "anchors": ["src/random/generator.rs: permutation, shuffle_data"]}
{"id": "C55", "title": "Calendar conversion is exact", "statement": "Converting a day number to year/month/day and back gives the same day for every representable date, the produced month and day are valid for the proleptic Gregorian calendar, and consecutive days give consecutive dates.", "quantifier": "every day number (positive and negative)", "why_tests_cant": "All dates including negative years, century and 400-year rules.", "anchors": ["src/array/dtype/datetime64.rs: days_to_ymd, ymd_to_days"]}
{"id": "C56", "title": "Converting datetimes between units preserves the instant", "statement": "Converting to a finer unit and back is the identity; converting to a coarser unit gives the unit containing the instant (floor), also before 1970; NaT stays NaT.", "quantifier": "every value and every pair of units", "why_tests_cant": "Sign-dependent truncation.", "anchors": ["src/array/dtype/datetime64.rs: convert_datetime64, to_ns_factor, days_to_unit, unit_to_days"]}
{"id": "C57", "title": "NaT propagates through datetime arithmetic", "statement": "Any arithmetic with a NaT operand yields NaT and comparisons with NaT behave as unordered.", "quantifier": "every operand pair", "why_tests_cant": "Several fast paths bypass the NaT test.", "anchors": ["src/array/dtype/datetime64.rs", "src/ops/dispatch.rs: dispatch_datetime_add_timedelta"]}
{"id": "C58", "title": "Type promotion is a consistent join", "statement": "The result dtype of a binary operation does not depend on operand order; promotion is idempotent; and for numeric dtypes the result can represent every value of both operands (up to float rounding).", "quantifier": "all pairs (and triples) of dtypes, all string widths and units", "why_tests_cant": "Quadratic/cubic case analysis plus unbounded string widths.", "anchors": ["src/array/dtype/mod.rs: promote_dtype"]}
{"id": "C59", "title": "polyval, polyder and polyint obey calculus", "statement": "polyval(p,x) = sum p[i] x^(n-1-i); polyder is the formal derivative (linear, product rule instances), and polyder(polyint(p)) = p.", "quantifier": "every coefficient list over any field of characteristic 0, every x", "why_tests_cant": "All degrees.", "anchors": ["src/ops/poly.rs: polyval, polyder, polyint"]}
{"id": "C60", "title": "bincount and histogram count every in-range sample exactly once", "statement": "bincount(x)[v] is the number (or total weight) of entries equal to v, has length max(max(x)+1, minlength), and sums to len(x); histogram counts sum to the number of in-range samples.", "quantifier": "every input array", "why_tests_cant": "All multisets.", "anchors": ["src/array/manipulation.rs: bincount", "src/ops/statistics.rs: histogram"]}
{"id": "C61", "title": "Integer matrix product is the textbook product", "statement": "matmul(a,b)[i,j] = sum_k a[i,k]*b[k,j] for every layout of the operands; it is associative and (a b)^T = b^T a^T.", "quantifier": "every dimension and layout", "why_tests_cant": "All sizes and strides.", "anchors": ["src/ops/matmul.rs: matmul_generic, matmul"]}
{"id": "C62", "title": "Generalised ufunc dimension resolution is sound", "statement": "When a gufunc call is accepted, every named core dimension has one size across all operands and the loop dimensions are the broadcast of the operands' remaining axes; otherwise it is rejected.", "quantifier": "every signature and every list of shapes", "why_tests_cant": "Unbounded signatures and shapes.", "anchors": ["src/ops/gufunc/dims.rs: resolve", "src/ops/gufunc/signature.rs: parse"]}
{"id": "C63", "title": "interp is exact at the knots and stays between them", "statement": "interp(x, xp, fp) returns fp[i] when x = xp[i], fp[0]/fp[-1] outside the range, and between neighbouring knots a value between the neighbouring fp values.", "quantifier": "every strictly increasing knot vector and every x", "why_tests_cant": "All knot counts and positions.", "anchors": ["src/ops/numerical.rs: interp, interp_single"]}
{"id": "C64", "title": "Reshape with -1 infers the unique consistent length", "statement": "reshape with one -1 succeeds iff the known lengths multiply to a divisor of the size and then gives the unique shape with the same number of elements; more than one -1, or an inconsistent shape, is rejected.", "quantifier": "every size and every requested shape", "why_tests_cant": "All divisibility patterns, zero and negative entries.", "anchors": ["src/python/pyarray/mod.rs: resolve_reshape_shape", "src/python/shape.rs: reshape"]}
{"id": "C65", "title": "x.flat lists and indexes the elements in row-major order", "statement": "Iterating x.flat yields every element once in row-major order, and x.flat[i] is element i of that order (negative i from the end); an index outside [-size, size) raises an error.", "quantifier": "every view layout, every rank, every integer index", "why_tests_cant": "The mixed-radix decoding must agree with the traversal order for all shapes.", "anchors": ["src/python/pyarray/mod.rs: PyFlatIter, get_flat_element"]}
{"id": "C66", "title": "Integer power is exact modulo 2^w", "statement": "For integer arrays and a non-negative exponent b, a ** b is the representable value congruent to a^b modulo 2^w.", "quantifier": "every pair of representable integers with b >= 0, every width", "why_tests_cant": "The exponent and base ranges are astronomically large; repeated squaring and casts must be right for all of them.", "anchors": ["src/array/dtype/macros.rs: BinaryOp::Pow", "src/ops/dispatch.rs: dispatch_binary_pow"]}
{"id": "C67", "title": "pad surrounds the array with the padding value or its edge", "statement": "pad(a, widths) has shape s + before + after on every axis; inside the original region it holds a's elements shifted by the before-widths; outside it holds the constant (mode constant) or the element of a nearest to the position (mode edge).", "quantifier": "every array, every width per axis, both modes", "why_tests_cant": "the placement arithmetic differs per axis and per corner; tests cover a few widths", "anchors": ["src/array/manipulation.rs:pad", "src/array/manipulation.rs:copy_region", "src/python/shape.rs:pad"]}
{"id": "C68", "title": "diagflat writes the flattened input on one diagonal", "statement": "diagflat(v, k) is the square matrix of side size(v)+|k| whose entry [i,j] is v.flat[min(i,j)] when j-i = k and zero otherwise.", "quantifier": "every array (any rank and layout), every k", "why_tests_cant": "tests cover k in {-1,0,1} on contiguous vectors", "anchors": ["src/array/manipulation.rs:diagflat"]}
{"id": "C69", "title": "take_along_axis, put_along_axis and choose address the right lane", "statement": "take_along_axis(a, idx, axis) reads, at every position, the element of the same lane at the given index (negative from the end); put_along_axis writes there and nowhere else, or fails without effect; choose(sel, choices) takes each element from the choice its selector names. Out-of-range indices and mismatched shapes are rejected.", "quantifier": "every array, layout, axis, index array and selector", "why_tests_cant": "All combinations of layouts, axes and index patterns.", "anchors": ["src/ops/indexing.rs: take_along_axis, put_along_axis, choose"]}
{"id": "C70", "title": "choice without replacement picks distinct elements, every selection equally often", "statement": "choice(n, size=k, replace=False) returns k distinct positions below n; each of the n!/(n-k)! ordered selections is produced by exactly one of the equally many sequences of bounded draws; k > n is rejected. With replacement every position is below n.", "quantifier": "every n, k, generator state", "why_tests_cant": "The draws are random; a test can only sample them.", "anchors": ["src/python/random.rs: choice"]}
{"id": "C71", "title": "multinomial rows add up to the number of trials", "statement": "Every row of multinomial(n, pvals) has one non-negative count per category and the counts add up to n.", "quantifier": "every n, list of probabilities, sampler outcome and generator state", "why_tests_cant": "The outcome is random and the rounding only shows for counts beyond 2^53.", "anchors": ["src/random/generator.rs: multinomial"]}
{"id": "C72", "title": "Datetime arithmetic is arithmetic on instants", "statement": "Adding a timedelta to a datetime (either way round), subtracting one, subtracting two datetimes and adding or subtracting timedeltas give the value whose instant (or length) is the sum or difference of the operands', also when their units differ; adding b - a to a gives b.", "quantifier": "every pair of values and every pair of units", "why_tests_cant": "Unit pairs and wrap-around; the units are dropped on several paths.", "anchors": ["src/ops/ufunc.rs: map_binary_op_inplace", "src/ops/dispatch.rs: dispatch_datetime_add_timedelta, dispatch_datetime_sub_datetime"]}
{"id": "C73", "title": "Comparing datetimes of different units compares their instants", "statement": "a < b, a <= b and a == b hold exactly if the instants are so ordered, whatever the units of a and b; in particular == is symmetric.", "quantifier": "every pair of values and every pair of units", "why_tests_cant": "The conversion before the comparison loses information for some values only.", "anchors": ["src/ops/ufunc.rs: map_compare_op", "src/array/dtype/datetime64.rs: convert_datetime64"]}
{"id": "C74", "title": "Datetime text round trip", "statement": "Reading the text written for a datetime (same unit) gives the same datetime, NaT included; so different datetimes have different texts.", "quantifier": "every value and every unit", "why_tests_cant": "Fraction digits go through a binary double; failing fractions are scattered.", "anchors": ["src/array/dtype/datetime64.rs: format_datetime64, parse_datetime64, parse_time_part", "src/python/datetime.rs: datetime_as_string"]}
{"id": "C75", "title": "Business days: counting and stepping agree with the calendar", "statement": "is_busday holds for a day iff its weekday is in the mask and it is no holiday; busday_count of a range is the number of such days in it and splits at any day between; busday_offset by n ends on the n-th business day after the start and ends whenever the calendar has a working weekday; n on and n back from a business day is the identity.", "quantifier": "every day, offset, weekmask and holiday list", "why_tests_cant": "Arbitrary holiday lists and offsets; negative days; termination.", "anchors": ["src/python/datetime.rs: is_business_day, busday_count_single, busday_offset_single"]}
{"id": "C76", "title": "Safe casting means no value is lost", "statement": "can_cast(a, b, 'safe') is true exactly if every value of dtype a is also a value of dtype b; it is reflexive and transitive, implied by 'no' and implies 'same_kind' (which also allows every cast within or above one's class among bool, integer, float, complex and none below it), and the promoted dtype of a pair is a safe target for both.", "quantifier": "all pairs and triples of numeric dtypes, every value", "why_tests_cant": "It is a claim about every value of the source dtype, 2^64 of them.", "anchors": ["src/python/dtype.rs: can_cast, can_cast_safe, can_cast_same_kind"]}
{"id": "C77", "title": "roots of linear and quadratic polynomials are exactly its zeros", "statement": "roots(p) ignores leading zero coefficients; for degree one and two the returned values are exactly the zeros of p (with multiplicity: p = c (x-r1)(x-r2)), the larger in magnitude first; constants have none.", "quantifier": "every coefficient vector of degree at most two", "why_tests_cant": "All real coefficients, including every sign of the discriminant.", "anchors": ["src/ops/poly.rs: roots"]}
{"id": "C78", "title": "dot, inner, outer and vdot are the textbook sums and products", "statement": "inner(a,b) and dot(a,b) of vectors and vdot of equal-sized arrays are the sum of the elementwise products; outer(a,b)[i,j] = a[i]*b[j]; inner over stacks of vectors applies per loop position; lengths that differ are refused.", "quantifier": "every length and layout of the operands, every element dtype", "why_tests_cant": "All lengths, strides and dtypes.", "anchors": ["src/ops/dot.rs: dot", "src/ops/inner.rs: InnerKernel, inner", "src/ops/outer.rs: OuterKernel, outer", "src/ops/linalg.rs: vdot"]}
{"id": "C79", "title": "matrix_power is repeated multiplication and multi_dot the product of the chain", "statement": "matrix_power(a, n) is a multiplied by itself n times for every n >= 0, the identity for n = 0, and the (-n)-th power of the inverse for n < 0; powers add up under matmul; multi_dot is the product of its operands in order.", "quantifier": "every exponent, side and layout; every chain of matrices", "why_tests_cant": "Binary exponentiation must agree with repeated multiplication for all 2^63 exponents; chains are unbounded.", "anchors": ["src/ops/linalg.rs: matrix_power, multi_dot"]}
{"id": "C80", "title": "kron, cross and tensordot satisfy their defining equations", "statement": "kron(a,b)[i*p+k, j*q+l] = a[i,j]*b[k,l], and kron(a,b) @ kron(c,d) = kron(a@c, b@d); cross is anticommutative and orthogonal to both arguments; tensordot over k axes is the sum over the last k axes of a and the first k of b, an outer product for k = 0.", "quantifier": "every size and layout", "why_tests_cant": "All sizes; the mixed-product law quantifies over four matrices.", "anchors": ["src/ops/linalg.rs: kron, cross, tensordot"]}
{"id": "C81", "title": "trapezoid integrates every lane by the trapezoidal rule", "statement": "trapezoid(y, x, dx, axis) replaces each lane along the axis by the sum of (y[j]+y[j+1])*(x[j+1]-x[j])/2 (or width dx); it is exact for straight lines, linear in y, additive over adjoining ranges, changes sign when the range is reversed, and agrees between dx and equally spaced x; an axis or an x that does not fit is refused.", "quantifier": "every shape, layout, axis and element type of y, every layout of x", "why_tests_cant": "All lane lengths, layouts and axes; the laws quantify over all values.", "anchors": ["src/ops/numerical.rs: trapezoid, trapezoid_loop_*, trapezoid_fallback"]}
{"id": "C82", "title": "gradient is the central difference of every lane", "statement": "gradient(f, h, axis) has f's shape and holds, in every lane along the axis, (f[j+1]-f[j-1])/(2h) inside and one-sided differences at the ends (difference quotients against coordinates if given); it is exact for straight lines, linear in f, and without an axis gives one array per axis.", "quantifier": "every shape, layout, axis and element type of f", "why_tests_cant": "All layouts and ranks; the result is written through raw pointers at computed byte offsets.", "anchors": ["src/ops/numerical.rs: gradient, gradient_with_coords, gradient_axis, gradient_loop_*"]}
{"id": "C83", "title": "einsum accepts exactly the well-formed subscripts whose sizes agree", "statement": "einsum(text, *arrays) proceeds exactly when the text, spaces removed, is a comma-separated list of groups of lower-case letters, optionally followed by -> and letters that occur in the groups, with one group per array, one letter per axis and one size per letter; without -> the result has the letters that occur once, in alphabetical order; the reading is unique, and any other call is an error.", "quantifier": "every text and every list of shapes", "why_tests_cant": "All strings and all shapes.", "anchors": ["src/ops/einsum.rs: parse_subscript, compute_implicit_output, validate_subscript"]}
{"id": "C84", "title": "einsum of one or two arrays is the Einstein sum", "statement": "Each element of einsum's result is the sum, over all values of the letters that are not in the result, of the products of the operands' elements at the indices their letters name.", "quantifier": "every subscript text, shape and memory layout of one or two operands", "why_tests_cant": "All letters, ranks, sizes and layouts; the library routes them through transposes, diagonals, axis sums, matrix products on reshaped views and a raw copy.", "anchors": ["src/ops/einsum.rs: try_single_operand_optimized, einsum_single, try_binary_optimized, einsum_binary, try_blas_contraction, einsum_binary_elementwise"]}
{"id": "C85", "title": "einsum of several arrays is the Einstein sum", "statement": "With three or more operands, einsum contracts from left to right; the result is the full Einstein sum, whatever names the letters have.", "quantifier": "every chain of operands", "why_tests_cant": "Any number of operands; the intermediate axes are chosen from the letters still needed.", "anchors": ["src/ops/einsum.rs: einsum_multi"]}
{"id": "C86", "title": "save followed by load gives the same array", "statement": "load(f) after save(f, a) returns an array with a's dtype and shape and, at every index, the same element bytes as a; saving the loaded array again writes the same file.", "quantifier": "every array of every dtype, shape and memory layout", "why_tests_cant": "All dtypes, shapes and layouts (views, transposes, negative strides); the header is text that is re-parsed.", "anchors": ["src/ops/io.rs: write_npy, read_npy, parse_npy_header"]}
{"id": "C87", "title": "A saved file is a valid NPY file", "statement": "save writes a file in the published NPY format: magic string, version, length field, a header dictionary naming the dtype, order and shape, padded with blanks and a newline so that the data start at a multiple of 64 bytes, followed by the elements in the stated order.", "quantifier": "every array", "why_tests_cant": "Other programs read the file; the length field, the padding and the version depend on the number of digits in the shape.", "anchors": ["src/ops/io.rs: write_npy"]}
{"id": "C88", "title": "A truncated NPY file is never loaded", "statement": "If only a proper prefix of a saved file reaches the disk (a crash or a full disk during save), load reports an error; bytes after the end of the data change nothing.", "quantifier": "every array and every crash point of the write", "why_tests_cant": "Every byte position is a crash point.", "anchors": ["src/ops/io.rs: save_npy, write_npy, read_npy"]}
{"id": "C89", "title": "Raw bytes: tobytes, tofile, frombuffer and fromfile", "statement": "tobytes and tofile give the elements' bytes in row-major index order whatever the layout; frombuffer(data, dtype, count, offset) gives exactly the count elements that start at the offset, or an error when the data are too short; the two are inverse to each other.", "quantifier": "every array, byte string, element width, count and offset", "why_tests_cant": "All layouts, counts and offsets.", "anchors": ["src/python/pyarray/mod.rs: tobytes", "src/ops/io.rs: tofile, frombuffer, fromfile"]}
{"id": "C90", "title": "savez followed by load gives back every array under its name", "statement": "load of an archive written by savez is a dictionary with exactly the saved names, each mapped to an equal array.", "quantifier": "every list of names and arrays", "why_tests_cant": "Any number of arrays and any names.", "anchors": ["src/ops/io.rs: savez_impl, load_npz", "src/python/io.rs: load, extract_arrays_for_savez"]}
{"id": "C91", "title": "Loading arbitrary bytes never gives an array outside its memory", "statement": "Whatever bytes a .npy file contains, load either reports an error or returns an array all of whose elements lie in memory it owns.", "quantifier": "every file content", "why_tests_cant": "The file is attacker-controlled; sizes come from the header text.", "anchors": ["src/ops/io.rs: read_npy, parse_npy_header, extract_shape"]}
{"id": "C92", "title": "load reads every valid NPY file", "statement": "A file in the NPY format (version 1 or 2) for a dtype the library knows, whichever program wrote it and whether its data are in row-major or column-major order, loads as the array it describes; bytes after the data are ignored.", "quantifier": "every valid file: all shapes, numerals, paddings, orders and contents", "why_tests_cant": "The files come from other programs with other spacing and padding.", "anchors": ["src/ops/io.rs: read_npy, parse_npy_header, extract_string_value, extract_bool_value, extract_shape"]}
{"id": "C93", "title": "array(list) is the array the list describes", "statement": "A rectangular nested list of numbers becomes the array whose shape is the list's nesting and whose element at an index is the number found there; numbers of different types are promoted to a common type; a list that is not rectangular is rejected.", "quantifier": "every nested list, every nesting depth and every requested dtype", "why_tests_cant": "Nested lists of unbounded depth and size.", "anchors": ["src/python/creation.rs: array_impl, from_list, infer_dtype_from_list, flatten_nested_list, flatten_nested_list_i64", "src/array/constructors.rs: from_vec_with_shape, from_vec_i64_with_shape"]}
{"id": "C94", "title": "tolist and array are inverse to each other", "statement": "tolist() of any view gives nested lists of the view's shape that hold its elements as Python numbers of the element's type; array(l).tolist() equals l, and array(a.tolist()) has a's shape and elements.", "quantifier": "every view of every array, every rectangular nested list", "why_tests_cant": "All layouts and nestings.", "anchors": ["src/ops/mod.rs: to_pylist", "src/python/creation.rs: from_list"]}
{"id": "C95", "title": "arange lists exactly the terms before stop", "statement": "arange(start, stop, step) holds start, start+step, start+2*step, ... : every term that lies before stop, no other, each exactly; a zero step is an error and the element type follows the arguments.", "quantifier": "every start, stop and step", "why_tests_cant": "The count is a rounded floating-point quotient: boundary cases for every triple of numbers.", "anchors": ["src/array/constructors.rs: arange", "src/python/creation.rs: arange"]}
{"id": "C96", "title": "linspace is equally spaced from start to stop inclusive", "statement": "linspace(start, stop, num) has num elements, the first is start, the last is stop, and neighbours differ by (stop-start)/(num-1).", "quantifier": "every start, stop and num", "why_tests_cant": "Rounding errors depend on all three arguments.", "anchors": ["src/array/constructors.rs: linspace", "src/python/creation.rs: linspace"]}
{"id": "C97", "title": "full gives the value everywhere", "statement": "full(shape, v, dtype) has the given shape and every element equals v.", "quantifier": "every shape, value and dtype", "why_tests_cant": "All shapes and values.", "anchors": ["src/array/constructors.rs: full", "src/python/creation.rs: full"]}
{"id": "C98", "title": "meshgrid, ix_, mgrid and ogrid put each input along its own axis", "statement": "meshgrid(x0,...,xn-1), mgrid and ogrid return one array per input; all outputs of meshgrid and mgrid have the shape given by the input lengths (first two axes swapped for indexing='xy'), the outputs of ix_ and ogrid have length 1 on every axis but their own, and output d at an index is x_d at the index's coordinate on axis d.", "quantifier": "every number of inputs, every length, both indexing modes", "why_tests_cant": "Any number of axes and any lengths.", "anchors": ["src/array/manipulation.rs: meshgrid", "src/python/indexing.rs: ix_, OGridClass, MGridClass"]}
{"id": "C99", "title": "ndindex, ndenumerate and indices list every index once in row-major order", "statement": "ndindex(shape) yields exactly the index tuples of the shape in row-major order and stops; ndenumerate(a) pairs each of them with the element a holds there; indices(dims)[d, i0, ..., ik] is i_d.", "quantifier": "every shape and every view", "why_tests_cant": "The iterators carry a hand-written odometer whose state must stay right for any number of steps.", "anchors": ["src/python/indexing.rs: NdIndex, NdEnumerate, ndindex, ndenumerate", "src/array/manipulation.rs: indices"]}
{"id": "C100", "title": "fill_diagonal writes the diagonal and nothing else", "statement": "fill_diagonal(a, val, wrap) sets the t-th element of the diagonal (continued below with wrap on tall matrices) to val[t mod len(val)] and leaves every other element, and all memory that is not part of a, unchanged; arrays with more than two axes must have equal lengths.", "quantifier": "every view a, every val, both settings of wrap", "why_tests_cant": "All shapes, strides and lengths of val.", "anchors": ["src/python/indexing.rs: fill_diagonal"]}
{"id": "C101", "title": "mgrid and ogrid slices list the right numbers", "statement": "A slice start:stop:step stands for the terms start, start+step, ... before stop; start:stop:n*1j stands for n equally spaced numbers from start to stop inclusive; the request always returns.", "quantifier": "every start, stop and step", "why_tests_cant": "The loop runs on rounded floating-point sums, whose end depends on all three arguments.", "anchors": ["src/python/indexing.rs: GridSlice, parse_grid_key, parse_single_slice, generate_range_array"]}
{"id": "C102", "title": "eye, identity and diag_indices describe the main diagonal", "statement": "eye(n) and identity(n) are n by n with one exactly where row equals column and zero elsewhere; diag_indices(n, ndim) is ndim copies of 0, 1, ..., n-1.", "quantifier": "every n and ndim", "why_tests_cant": "All sizes.", "anchors": ["src/array/constructors.rs: eye", "src/ops/indexing.rs: diag_indices"]}
{"id": "C103", "title": "array, asarray, ascontiguousarray, asfortranarray and require keep the elements and give the requested dtype and layout", "statement": "Each of these returns an array of the same shape whose elements are those of the argument converted to the requested dtype; the result of ascontiguousarray is row-major, that of asfortranarray column-major, that of require as its flags say; array() returns a copy.", "quantifier": "every view, every pair of dtypes, every set of requirement flags", "why_tests_cant": "All layouts and values; conversions go through binary64.", "anchors": ["src/python/creation.rs: array_impl, ascontiguousarray, asfortranarray, require", "src/array/mod.rs: astype"]}
{"id": "C104", "title": "copyto copies exactly the selected elements", "statement": "copyto(dst, src, casting, where): every element of dst where the mask is true becomes the broadcast element of src in dst's dtype, every other element and all other memory is unchanged; overlapping src and dst behave as if src were copied first; a cast the casting rule forbids and a src that does not broadcast are rejected.", "quantifier": "every view dst, src and mask, every pair of dtypes", "why_tests_cant": "All overlaps, layouts and values.", "anchors": ["src/python/creation.rs: copyto"]}
{"id": "C105", "title": "Arrays survive the array interface", "statement": "An array handed to another library and back through __array_interface__ has the same dtype, shape and elements; an array imported from any exporter has, at every index, the exporter's element, converted when a dtype is requested.", "quantifier": "every view and dtype; every exporter dictionary", "why_tests_cant": "All layouts, dtypes and byte orders.", "anchors": ["src/python/pyarray/mod.rs: __array_interface__", "src/python/creation.rs: from_array_interface, dtype_from_typestr"]}
{"id": "C106", "title": "Case mappings of strings work element by element", "statement": "char.upper, lower, swapcase, capitalize and title return, at every index, the full Unicode case mapping of the string at that index, whatever view is passed; on ASCII, upper and lower are idempotent and undo each other's effect, swapcase is its own inverse.", "quantifier": "every array of strings, every view of it, every string", "why_tests_cant": "All strings, widths, shapes and strides.", "anchors": ["src/ops/char.rs: upper, lower, swapcase, capitalize, title", "src/python/char.rs"]}
{"id": "C107", "title": "strip, lstrip and rstrip remove exactly the requested characters", "statement": "The result at every index is the string without its longest leading and/or trailing run of white space (or of the characters given), and nothing else is removed.", "quantifier": "every view of every array of strings, every chars argument", "why_tests_cant": "All strings and character sets.", "anchors": ["src/ops/char.rs: strip, lstrip, rstrip, strip_fast", "src/python/char.rs: strip"]}
{"id": "C108", "title": "find, rfind, index and rindex report the first and last occurrence", "statement": "find gives at every index the smallest (rfind: the largest) position within start..end at which the substring occurs, -1 when there is none; index and rindex give the same but raise as soon as one element has no occurrence.", "quantifier": "every view, substring, start and end", "why_tests_cant": "All strings and substrings, including the empty one.", "anchors": ["src/ops/char.rs: find, rfind", "src/python/char.rs: find, rfind, index, rindex"]}
{"id": "C109", "title": "startswith and endswith depend on the element alone", "statement": "startswith (endswith) is true at an index exactly when the string there begins (ends) with the given text; no other element and no memory outside the array is looked at.", "quantifier": "every view, every prefix or suffix, of any length", "why_tests_cant": "Out-of-bounds reads give whatever the memory holds.", "anchors": ["src/ops/char.rs: startswith, endswith"]}
{"id": "C110", "title": "count and replace agree on non-overlapping occurrences", "statement": "count is the number of occurrences found by scanning left to right without overlap; replace substitutes exactly (the first n of) these and keeps the rest, whatever the length of the replacement; an empty pattern occurs between all characters.", "quantifier": "every view, pattern, replacement and count", "why_tests_cant": "All strings and overlapping patterns; result widths.", "anchors": ["src/ops/char.rs: count, replace"]}
{"id": "C111", "title": "partition and rpartition cut without loss, join interleaves", "statement": "partition returns for every string the part before the first (rpartition: last) separator, the separator, and the rest, and the whole string with two empty ones when there is no separator; concatenating the three gives the string back; join puts the separator between all characters; an empty separator raises.", "quantifier": "every view, every separator", "why_tests_cant": "All strings and shapes; results are written at computed places.", "anchors": ["src/ops/char.rs: partition, rpartition, join", "src/python/char.rs: partition, rpartition, join"]}
{"id": "C112", "title": "center, ljust, rjust and zfill pad like Python's str", "statement": "Every result is the string padded to the width on the side and with the character Python's method of the same name uses, never truncated.", "quantifier": "every view, width and fill character", "why_tests_cant": "All strings, widths, layouts.", "anchors": ["src/ops/char.rs: center, ljust, rjust, zfill, apply_unary_string_op, read_string"]}
{"id": "C113", "title": "char.add, multiply and expandtabs work element by element", "statement": "add concatenates the strings at corresponding indices of the broadcast arguments, multiply repeats, expandtabs replaces every tab by the spaces up to the next tab stop counted from the last line break.", "quantifier": "every pair of views with broadcastable shapes, every count and tab size", "why_tests_cant": "All layouts and shapes.", "anchors": ["src/ops/char.rs: add, multiply, expandtabs, apply_binary_string_op"]}
{"id": "C114", "title": "String comparisons are the lexicographic order", "statement": "char.equal, not_equal, less, less_equal, greater and greater_equal compare the strings at corresponding indices by code points; less is a strict total order; arrays that are not strings are rejected.", "quantifier": "every pair of views of equal shapes", "why_tests_cant": "All strings and layouts.", "anchors": ["src/ops/char.rs: compare_strings"]}
{"id": "C115", "title": "String predicates agree with Python's", "statement": "isalpha, isdigit, isdecimal, isnumeric, isalnum, isspace, isupper, islower and istitle answer at every index what the str method of that name answers; upper gives strings for which isupper is true as soon as they contain a letter.", "quantifier": "every view of every array of strings", "why_tests_cant": "All code points and strings.", "anchors": ["src/ops/char.rs: apply_predicate_fast, isalpha, isdigit, isupper, islower, istitle"]}
{"id": "C116", "title": "Arrays of strings keep their strings", "statement": "array(list of strings) is wide enough for every string and each element reads back as given; dtype 'U<n>' truncates to n characters; str_len is the length of each string.", "quantifier": "every list of strings, every dtype spelling, every view for str_len", "why_tests_cant": "All lengths and contents, including NUL.", "anchors": ["src/python/creation.rs: array_impl", "src/array/constructors.rs: from_vec_str", "src/ops/char.rs: str_len"]}
{"id": "C117", "title": "extract, place and putmask act exactly on the true positions", "statement": "extract(cond, a) returns the elements of a at the true positions of cond in index order. place(a, mask, vals) replaces the element at each true position by vals[j mod len(vals)] where j counts the true positions before it; putmask(a, mask, vals) uses the element's own flat position instead. Every other element, and all memory of the base array outside the view, is untouched. place(a, m, extract(m, a)) changes nothing.", "quantifier": "every array or strided view, every mask of the same size and every values array, of every dtype", "why_tests_cant": "Whether the k-th true position meets the right value depends on the whole mask, on the strides of three arrays and on the dtype branch taken; tests use short contiguous arrays.", "anchors": ["src/python/misc.rs: extract, place, putmask"]}
{"id": "C118", "title": "select takes the first true condition, piecewise the only one", "statement": "select(conds, choices, default) has at each index the element of the choice belonging to the first true condition, or the default when none is true. piecewise(x, conds, funcs) applies, at each index where exactly one condition holds, that condition's function, the extra function where none holds, and gives zero without an extra function. Mismatched list lengths are rejected.", "quantifier": "every number of conditions, every shape, every pattern of truth values, every choice array layout", "why_tests_cant": "The number of truth patterns is exponential in the number of conditions; overlapping conditions and strided choices are rarely tested.", "anchors": ["src/python/misc.rs: select, piecewise"]}
{"id": "C119", "title": "resize repeats, trim_zeros trims only the ends, ediff1d telescopes", "statement": "resize(a, shape) lists the elements of a cyclically in index order. trim_zeros(a, trim) removes all leading (f) and trailing (b) zeros and nothing else. ediff1d(a, to_begin, to_end) is to_begin, the consecutive differences, to_end; with to_begin = a[0] its running sums give a back in wrapping integer arithmetic.", "quantifier": "every array or view, every target shape, every placement of zeros, every trim mode", "why_tests_cant": "Zeros inside the array, all-zero arrays, strided views and integer wrap-around interact; a test fixes one pattern.", "anchors": ["src/python/misc.rs: resize, trim_zeros, ediff1d"]}
{"id": "C120", "title": "unstack takes an array apart and block puts matrices together", "statement": "unstack(a, axis) returns one view per index of the axis, with element idx of piece i equal to the element of a with i inserted at the axis; stacking the pieces along the same axis gives a back. block of a two-level list of matrices (rows of equal height and equal total width) places element (i, j) of piece q of row p at (heights above + i, widths to the left + j).", "quantifier": "every array and axis; every grid of matrices, with differently cut rows", "why_tests_cant": "The position of an element depends on the sizes of all pieces before it; tests use two-by-two grids of equal blocks.", "anchors": ["src/python/misc.rs: unstack, block, process_block", "src/array/manipulation.rs: concatenate"]}
{"id": "C121", "title": "unwrap adds whole periods and leaves no long step", "statement": "unwrap(a, discont, axis, period) keeps the first element of each lane, moves every element by a whole number of periods, keeps every step not longer than discont and turns every longer one into a step of at most half a period; with the default limit it is idempotent.", "quantifier": "every lane of every array, every period and limit", "why_tests_cant": "The correction accumulates along the lane: an error at one step shifts everything after it, and ties at half a period are easily missed.", "anchors": ["src/python/misc.rs: unwrap"]}
{"id": "C122", "title": "apply_along_axis calls the function once per lane and keeps the results in place", "statement": "apply_along_axis(f, axis, a) calls f once for every lane of a along the axis, in row-major order of the other axes, with exactly the lane's elements; the entry of the result at each position is f's result for that lane, and array-valued results take the place of the axis, so that the identity gives a back. apply_over_axes applies a reduction over the axes in turn and keeps the rank. An axis out of range is an error.", "quantifier": "every function, array, strided view, axis and list of axes", "why_tests_cant": "The statement is about an arbitrary function passed in by the user, including the number and order of its calls; tests use sum or mean on one small contiguous array, where several wrong orders give the same result.", "anchors": ["src/python/functional.rs: apply_along_axis, apply_over_axes", "src/array/mod.rs: get_slice_along_axis"]}
{"id": "C123", "title": "vectorize and frompyfunc call the function once per broadcast element", "statement": "vectorize(f)(args) broadcasts its array arguments together and calls f once per index of the broadcast shape, in row-major order, with each array's element and every other argument in its own position; the result holds f's value at each index. frompyfunc does the same with nout outputs, and rejects the wrong number of arguments. With a signature such as (n),(n)->() the function gets whole lanes. Shapes that do not broadcast are an error.", "quantifier": "every function, every number, order and shape of array and other arguments", "why_tests_cant": "Positions of scalars between arrays, stretched axes and the order of calls combine freely; tests use one or two equal arrays with a commutative function.", "anchors": ["src/python/functional.rs: PyVectorize::__call__, call_with_signature, PyFrompyfunc::__call__, broadcast_shapes, flat_to_indices"]}
{"id": "C124", "title": "fftn and ifftn are the Fourier transform along the listed axes and undo each other", "statement": "fftn(a, axes) has a's shape and holds, at every index, the discrete Fourier transform along each listed axis (all of them by default); ifftn uses the conjugate roots and divides by the product of the lengths; each undoes the other for every axis list, the order of the axes does not matter, fft/ifft and fft2/ifft2 are the 1-D and 2-D cases, and an empty or out-of-range axis list or a 0-d array is an error.", "quantifier": "every shape, strided layout, axis list (also with repeated axes) and element values, over exact arithmetic", "why_tests_cant": "Lane addressing depends on all strides of all other axes and the transforms along different axes have to commute; tests compare a few small arrays with NumPy up to a tolerance.", "anchors": ["src/ops/fft.rs: fftn, ifftn, fft, ifft, fft2, ifft2, fft_along_axis, index_from_transform_idx, validate_axes, to_complex_buffer"]}
{"id": "C125", "title": "real transforms keep half the spectrum and come back", "statement": "rfft and rfftn give the first n/2+1 entries of the full transform along the last listed axis; the spectrum of real data is conjugate-symmetric; irfft(rfft(a)), irfftn(rfftn(a)) and hfft(ihfft(a)) give a back for real a whenever the length is known, and none of these functions panics.", "quantifier": "every real array, length, axis list and shape hint, over exact arithmetic", "why_tests_cant": "The mirrored half is filled with an index range that is right for one parity only, so round trips of even lengths hide the error; empty axes and short hints are rarely tried.", "anchors": ["src/ops/fft.rs: rfft, irfft, rfftn, irfftn, hfft, ihfft, rfft_along_axis"]}
{"id": "C126", "title": "fftshift and ifftshift rotate by half and are inverse; fftfreq lists the frequencies in transform order", "statement": "fftshift moves element i of every axis of length n to (i + n/2) mod n and ifftshift moves it back, for every parity and number of axes; entry k of fftfreq(n, d) is z/(n d) for the integer z congruent to k modulo n with -n <= 2z < n, fftshift(fftfreq) increases by one step from -(n/2), and rfftfreq lists 0 to n/2.", "quantifier": "every shape and parity of lengths, every strided layout, every n and step", "why_tests_cant": "The two shifts differ only for odd lengths and combine over axes; a test with even lengths cannot tell them apart.", "anchors": ["src/ops/fft.rs: fftshift, ifftshift, shift_array, fftfreq, rfftfreq"]}
{"id": "C127", "title": "median returns the middle value and nanmedian the middle of the values that are numbers", "statement": "median(a) is the middle element of the sorted values, or the midpoint of the two middle ones, of all elements or of every lane along an axis; at most half of the values lie below and at most half above; nanmedian does the same after dropping NaNs; NaN input, empty input and one-dimensional arrays with axis=0 are handled like any other input.", "quantifier": "every shape, strided layout, axis and element order, for any total preorder on the elements", "why_tests_cant": "Selection of the k-th smallest has to be right for every ordering and every amount of ties, lanes depend on strides, and NaN breaks the ordering the algorithm relies on.", "anchors": ["src/ops/statistics.rs: median, median_axis, nanmedian, nanmedian_axis", "src/python/reductions.rs: median, nanmedian"]}
{"id": "C128", "title": "percentile and quantile interpolate linearly between order statistics", "statement": "percentile(a, q) lies on the polygon through the sorted values at position q/100 (n-1), over all elements or every lane; it is monotone in q, lies between minimum and maximum, gives minimum, median and maximum at 0, 50 and 100; several q's give one leading axis; q outside [0,100] is an error; quantile(q) is percentile(100 q); the nan variants drop NaNs first.", "quantifier": "every non-empty array, layout, axis and q list, over exact rationals", "why_tests_cant": "Interpolation, ordering and layout of the result interact; tests use a handful of q values on short arrays.", "anchors": ["src/array/manipulation.rs: percentile, percentile_axis, nanpercentile", "src/python/reductions.rs: percentile, quantile, nanpercentile, nanquantile"]}
{"id": "C129", "title": "mean, var and average compute the mean, the mean squared deviation and the weighted mean", "statement": "mean and var of an array, or of every lane along an axis, equal the sum over the count and the mean squared deviation from the mean; var is never negative and zero only when all elements are equal; scaling by a and adding c maps them to a*mean+c and a^2*var; average with weights is sum(w x)/sum(w), also for weights that broadcast, and equal weights give the mean; integer arrays do not lose the carry.", "quantifier": "every shape, strided layout and axis, over exact rationals", "why_tests_cant": "Contiguous and strided arrays take different code paths and the axis versions go through broadcasting; the values depend on every element.", "anchors": ["src/ops/array_methods/reductions.rs: mean, mean_axis, var, var_axis, moment_axis", "src/ops/statistics.rs: average, average_axis", "src/ops/ufunc.rs: variance_f64_contiguous"]}
{"id": "C130", "title": "reducing over several axes reduces each cell as a whole", "statement": "For a tuple of distinct axes, sum, prod, max, min, mean, var, ptp and median reduce, for every index of the remaining axes, all elements that share it; the order in which the axes are named and their sign do not matter, and an axis named twice is an error.", "quantifier": "every rank, shape, strided layout and tuple of axes", "why_tests_cant": "The reductions are done one axis at a time, which is only right for some of them; axes shift as others disappear.", "anchors": ["src/python/reductions.rs: parse_axis, reduce_multi_axis, sum, prod, max, min, mean, var, ptp, median"]}
{"id": "C131", "title": "cov and corrcoef are the covariance and correlation of the rows", "statement": "Entry (i, j) of cov(x, ddof) is the sum of (x_ik - mean_i)(x_jk - mean_j) over the observations, divided by n - ddof; the matrix is symmetric with a non-negative diagonal, bilinear in the rows and satisfies Cauchy-Schwarz; corrcoef divides by the standard deviations, has ones on the diagonal and entries between -1 and 1; every number of dimensions is accepted or rejected with an error.", "quantifier": "every number of variables and observations, strided layout and ddof, over exact rationals", "why_tests_cant": "The result is a chain of a mean per row, a broadcast subtraction, a transposed product and a division; inequalities over all inputs cannot be sampled.", "anchors": ["src/ops/statistics.rs: cov, corrcoef", "src/ops/matmul.rs: matmul"]}
{"id": "C132", "title": "A text file written by savetxt is read back by loadtxt as the same array", "statement": "For a non-empty 1-D or 2-D array of any memory layout, loadtxt applied to the file savetxt wrote with the default format (or any %.{p}e format with at least 17 significant digits) returns the same shape and bit-identical elements, including -0.0, infinities, NaN and subnormals, for every header, footer, comment mark and separator that cannot be confused with a number.", "quantifier": "every shape, layout, double, integer or boolean content, header, footer, comment mark, separator and precision", "why_tests_cant": "The claim combines correct decimal rounding of all 2^64 doubles with an unbounded text grammar; tests sample a few doubles and one delimiter.", "anchors": ["src/ops/io.rs: savetxt, loadtxt, format_value", "src/python/io.rs: savetxt, loadtxt"]}
{"id": "C133", "title": "Integer arrays written with %d are read back exactly", "statement": "savetxt with format %d writes the decimal numerals of an integer or boolean array, and loadtxt with the same dtype returns the same integers.", "quantifier": "every integer dtype, value, shape, layout and separator", "why_tests_cant": "Integers pass through double precision and through a saturating cast on the way to the text; only a proof over the whole range locates where this stops being exact.", "anchors": ["src/ops/io.rs: savetxt, format_value, loadtxt"]}
{"id": "C134", "title": "loadtxt takes the right lines and columns", "statement": "Blank and comment lines change nothing; line ends and a missing last line end do not matter; skiprows drops leading lines; max_rows keeps the first rows; usecols selects existing columns in the given order and rejects others; a file loads exactly when its data lines form a rectangle of numbers.", "quantifier": "every file, comment mark, delimiter, number of skipped lines, row limit and column list", "why_tests_cant": "The options interact in one loop over the lines; tests fix a single file.", "anchors": ["src/ops/io.rs: loadtxt", "src/python/io.rs: loadtxt"]}
{"id": "C135", "title": "genfromtxt agrees with loadtxt and fills what is missing", "statement": "Whatever loadtxt reads, genfromtxt reads identically; skip_header and skip_footer drop lines at the ends; a missing or unreadable field gets the filling value and leaves every other field in its place.", "quantifier": "every file, delimiter, missing-value text, filling value and pattern of missing fields", "why_tests_cant": "The patterns of missing fields are unbounded, and whether a field is lost depends on how white space and delimiters meet at the ends of a line.", "anchors": ["src/ops/io.rs: genfromtxt", "src/python/io.rs: genfromtxt"]}
{"id": "C136", "title": "Moving axes rearranges shape and indices alike", "statement": "moveaxis(a, s, d) takes axis s out and puts it back at place d, for several axes at once each listed axis ends at its destination and the others keep their order; moving back restores the array; rollaxis puts an axis in front of another; matrix_transpose exchanges the last two axes; axes that do not exist are errors.", "quantifier": "every rank, shape, memory layout, list of axes counted from either end and start", "why_tests_cant": "The number of permutations grows factorially with the rank and axes may be negative; tests cover a few triples.", "anchors": ["src/python/shape.rs: moveaxis, rollaxis, matrix_transpose"]}
{"id": "C137", "title": "atleast_1d, atleast_2d and atleast_3d add axes without touching the elements", "statement": "The result has at least the required number of dimensions, the documented shape and the same elements in the same order; an array that already has enough dimensions is returned as it is.", "quantifier": "every shape and memory layout", "why_tests_cant": "Whether the axes can be added depends on the memory layout of the view, which tests hardly vary.", "anchors": ["src/python/shape.rs: atleast_1d, atleast_2d, atleast_3d"]}
{"id": "C138", "title": "Stacking puts the operands side by side and splitting takes them apart", "statement": "vstack lists the operands' rows one after the other, hstack joins every row, column_stack treats 1-D operands as columns, dstack joins along the third axis; operands that do not fit are errors; hsplit, vsplit and dsplit of a stack give the operands back.", "quantifier": "every number of operands, shape, memory layout and element type", "why_tests_cant": "The ranks, shapes and layouts of several operands combine freely; a test fixes one combination.", "anchors": ["src/python/shape.rs: vstack, hstack, column_stack, dstack, hsplit, vsplit, dsplit", "src/array/manipulation.rs: concatenate, split"]}
{"id": "C139", "title": "flip mirrors axes and broadcasting several arrays gives the least common shape", "statement": "flip without an axis mirrors all of them, with an axis only that one, flipud and fliplr the first and second; broadcast_arrays shows every operand with the least common shape and broadcast_shapes computes it; both fail exactly when there is none.", "quantifier": "every rank, shape, stride pattern and number of operands", "why_tests_cant": "Common shapes are a least upper bound over arbitrarily many operands; mirrored views depend on the sign of strides.", "anchors": ["src/python/shape.rs: flip, flipud, fliplr, broadcast_arrays, broadcast_shapes", "src/array/views.rs: flip"]}
{"id": "C140", "title": "astype keeps every value the new dtype can hold", "statement": "a.astype(t) has the shape of a, and every element keeps its exact value when dtype t has that value; conversion to an integer dtype truncates toward zero and saturates, to bool it is True exactly for non-zero elements; converting to a dtype that holds all the values and back changes nothing.", "quantifier": "every pair of numeric dtypes, shape, memory layout and element, NaN and infinities included", "why_tests_cant": "Conversions go through an intermediate double, so failures sit at particular values (above 53 bits, at format boundaries) among 2^64 of them.", "anchors": ["src/array/mod.rs: astype", "src/array/dtype: read_f64, write_f64"]}
{"id": "C141", "title": "Comparisons compare the numbers, not their representations", "statement": "a < b, a == b and the others give, at every position of the broadcast shape, the outcome of comparing the exact numbers stored there, whatever their dtypes; NaN compares with nothing; complex numbers are equal when both parts are.", "quantifier": "every pair of numeric dtypes, every value, shape and memory layout, array or Python scalar operands", "why_tests_cant": "Mixed dtypes are converted first; wrong answers appear only where a conversion is inexact.", "anchors": ["src/ops/ufunc.rs: map_compare_op", "src/ops/kernels/comparison.rs", "src/ops/mod.rs: compare, compare_scalar"]}
{"id": "C142", "title": "Comparison operators obey the laws of comparison and array_equal is an equivalence", "statement": "a != b is the negation of a == b, a < b is b > a, a <= b is a < b or a == b; array_equal is True exactly for equal shapes with equal numbers, is symmetric, transitive, and reflexive for arrays without NaN.", "quantifier": "every pair of numeric arrays, broadcast shapes and layouts", "why_tests_cant": "Laws relate the outcomes of different calls on all inputs.", "anchors": ["src/ops/comparison.rs: equal, not_equal, less, less_equal, greater, greater_equal, array_equal"]}
{"id": "C143", "title": "isclose and allclose decide closeness by the documented rule", "statement": "Elements are close when |a - b| <= atol + rtol*|b|; equal numbers are always close, NaN is close to NaN only with equal_nan, an infinity only to itself; allclose is True exactly when isclose is True everywhere.", "quantifier": "every pair of numeric arrays, tolerance and broadcast shape", "why_tests_cant": "Depends on special values and on rounding of a sum, product and difference of arbitrary doubles.", "anchors": ["src/ops/comparison.rs: isclose, allclose, map_binary_to_bool"]}
{"id": "C144", "title": "Logical operations work on truth values", "statement": "logical_and, logical_or, logical_xor and logical_not combine the truth values of the elements (non-zero is true, NaN included), with broadcasting, and satisfy De Morgan's laws and double negation.", "quantifier": "every pair of numeric dtypes, shapes and memory layouts", "why_tests_cant": "The truth test is per dtype and the laws range over all arrays.", "anchors": ["src/ops/comparison.rs: logical_and, logical_or, logical_xor, logical_not", "src/array/dtype: is_truthy"]}
{"id": "C145", "title": "Bitwise operations combine the bits of the integers, shifts multiply and divide by powers of two", "statement": "x & y, x | y and x ^ y give, at every position of the broadcast shape, the integer whose every bit is the combination of the operands' bits in two's complement, ~x turns every bit of the dtype over, x << n is x*2^n modulo the width and x >> n the floor of x/2^n; the operations commute, satisfy De Morgan's laws, ~~x is x and x ^ y ^ y is x. Operands of different integer dtypes and Python integers are converted first, and a shift by the width or more leaves no bits.", "quantifier": "every integer dtype and bool, every pair of values, shape and memory layout, every shift count and Python integer", "why_tests_cant": "2^128 pairs of operands; operands of different dtypes take another path through memory than equal ones.", "anchors": ["src/ops/bitwise.rs: bitwise_and, bitwise_or, bitwise_xor, bitwise_not, left_shift, right_shift", "src/ops/kernels/bitwise.rs", "src/python/pyarray/mod.rs: bitwise_binary_op_dispatch, rbitwise_binary_op_dispatch"]}
{"id": "C146", "title": "floor, ceil, trunc and rint give the whole numbers they name", "statement": "floor(a), ceil(a), trunc(a) and rint(a) keep dtype and shape and give at every position the greatest whole number not above the element, the least not below it, the one toward zero, and a nearest one (the even one of two equally near); infinities and NaN stay, integers stay. floor <= trunc, rint <= ceil; rounding twice is rounding once; the order of elements is kept; ceil(a) is -floor(-a); complex arrays have no floor or ceil.", "quantifier": "every real dtype, every element including subnormals, infinities and NaN, every shape and memory layout", "why_tests_cant": "2^64 doubles with boundary behaviour at every whole and half; contiguous and strided arrays and each dtype take different loops.", "anchors": ["src/ops/kernels/math.rs: impl_float_math, Floor, Ceil, Trunc, Rint", "src/ops/ufunc.rs: map_unary_op", "src/ops/dispatch.rs: dispatch_unary_kernel_float"]}
{"id": "C147", "title": "round(a, decimals) gives the nearest multiple of the power of ten", "statement": "round(a) gives a nearest whole number and keeps dtype and shape; round(a, d) leaves unchanged every number with at most d decimals and every integer when d >= 0; with negative d it gives the nearest multiple of 10^-d, the even one of two; and the result is a new array.", "quantifier": "every real dtype, every element and every number of decimals", "why_tests_cant": "the product and the quotient by a power of ten are themselves rounded, so that decimals survive is a statement about error bounds for all of them.", "anchors": ["src/ops/mod.rs: round", "src/ops/dispatch.rs: dispatch_round, impl_round_float, impl_round_int"]}
{"id": "C148", "title": "clip(a, lo, hi) limits every element", "statement": "clip keeps dtype and shape; every element of the result lies between the bounds (at the upper one when they cross), elements already between them are unchanged and the others become the bound they crossed; NaN stays NaN and a NaN bound gives NaN; no bounds change nothing, clipping twice is clipping once, and the order of elements is kept.", "quantifier": "every real dtype, every element, every pair of bounds present or absent, every layout", "why_tests_cant": "the bounds are converted to the element type first; every pair of bounds and every element is covered only by the statement for all of them.", "anchors": ["src/ops/mod.rs: clip", "src/ops/dispatch.rs: dispatch_clip, dispatch_clip_typed"]}
{"id": "C149", "title": "negative, absolute and sign are exact", "statement": "-a is the opposite, abs(a) the size and sign(a) the sign of every element, exactly, in every real dtype, infinities, NaN and signed zeros included; -(-a) has the values of a for every dtype.", "quantifier": "every numeric dtype, every element, shape and layout", "why_tests_cant": "each dtype has its own kernel, float16 through float32; the integers at the ends of their range are one in 2^64.", "anchors": ["src/ops/kernels/math.rs: Neg, Abs, Sign", "src/array/dtype/bool.rs", "src/ops/ufunc.rs: map_unary_op"]}
{"id": "C150", "title": "Addition, subtraction, multiplication and division are correctly rounded", "statement": "a + b, a - b, a * b and a / b broadcast the shapes, give the promoted dtype (quotients of integers are floats) and at every position the exact result of the two elements, rounded once to the nearest element of the dtype with ties to even, overflow to infinity, and IEEE results for infinities, NaN and zero divisors; results the dtype can hold are exact in every real dtype and mixture of dtypes; + and * do not depend on the order of the operands.", "quantifier": "every pair of real dtypes, all elements including subnormals, infinities and NaN, all broadcastable shapes and layouts", "why_tests_cant": "2^128 pairs of doubles, and mixed dtypes take another route through float64 with conversions before and after.", "anchors": ["src/ops/ufunc.rs: map_binary_op_inplace", "src/ops/kernels/arithmetic.rs: impl_float_arithmetic, impl_int_arithmetic", "src/ops/dispatch.rs: dispatch_binary_kernel"]}
{"id": "C151", "title": "maximum, minimum, fmax and fmin pick the right element", "statement": "maximum(a, b) and minimum(a, b) give at every position of the broadcast shape the larger (smaller) of the two elements, NaN if either is NaN; fmax and fmin give the other element where one is NaN; the values do not depend on the order of the operands and an array with itself gives its own values; mixed dtypes lose nothing.", "quantifier": "every pair of real dtypes, all elements, all broadcastable shapes and layouts", "why_tests_cant": "each dtype has its own kernel and mixed dtypes a conversion; NaN, infinities and wide integers in every combination.", "anchors": ["src/ops/kernels/arithmetic.rs: Maximum, Minimum, FMax, FMin", "src/ops/ufunc.rs: map_binary_op_inplace"]}
{"id": "C152", "title": "remainder and floor_divide of floats belong together", "statement": "a % b is the exact remainder of the division, a // b the floor of the exact quotient, for whole numbers and fractions, and (a // b) * b + a % b is a.", "quantifier": "every float dtype, all pairs of elements including infinities, NaN and zero, all broadcastable shapes", "why_tests_cant": "the quotient is rounded before it is floored, so the statement is about every pair of floats with a quotient close to a whole number.", "anchors": ["src/ops/kernels/arithmetic.rs: Mod, FloorDiv", "src/ops/ufunc.rs: map_binary_op_inplace"]}
{"id": "C153", "title": "copysign takes the size of one operand and the sign of the other; nextafter gives the neighbouring number", "statement": "np.copysign(a, b) has the absolute value of a and the sign of b, in the promoted dtype, whenever that dtype holds |a|; copysign(a, a) is a. np.nextafter(a, b) is the number of the result dtype nearest to a in the direction of b: nothing lies between; it is b when they are equal and NaN when either is NaN.", "quantifier": "all shapes, dtypes, layouts and element values including subnormals, infinities, zeros and the borders between exponents", "why_tests_cant": "The neighbour relation must hold at each of 2^64 patterns, in both directions and for three formats; tests try a few", "anchors": ["src/ops/kernels/arithmetic.rs: Copysign, Nextafter", "src/ops/ufunc.rs: map_binary_op", "src/array/dtype/macros.rs: binary_op"]}
{"id": "C154", "title": "isnan, isinf, isfinite, signbit, isposinf, isneginf, isreal and iscomplex", "statement": "For an array of any numeric dtype, each test returns a bool array of the same shape whose element says whether the test holds of the corresponding element: a complex number is NaN (infinite) when either part is, and finite when both are. isfinite is the negation of isnan or isinf; for real dtypes isinf is isposinf or isneginf. isreal holds where the imaginary part is zero, iscomplex where it is not.", "quantifier": "every test, array, dtype, shape, layout and element, with signed zeros, NaNs and infinities", "why_tests_cant": "The answer depends on dtype and on every part of every element; tests use float64 examples and never a bool or complex one.", "anchors": ["src/ops/array_methods/unary.rs: isnan isinf isfinite signbit isposinf isneginf isreal iscomplex", "src/python/ufuncs.rs: isnan isreal iscomplex isposinf isneginf"]}
{"id": "C155", "title": "real, imag, conj and nan_to_num", "statement": "real and imag return the parts of every element exactly, in the float dtype of the complex one (a real array is its own real part, and its imaginary part is zero); conj negates the imaginary part and is its own inverse. nan_to_num leaves finite parts alone and replaces NaN, +inf and -inf with the given numbers, or with 0 and the largest finite numbers of the dtype, so that with the defaults the result is finite and a second application changes nothing.", "quantifier": "every numeric array, dtype, shape and layout, every choice of replacements", "why_tests_cant": "A conversion that loses bits or a replacement outside the dtype's range is seen only at particular values, dtypes and layouts.", "anchors": ["src/ops/array_methods/unary.rs: real imag conj nan_to_num", "src/python/ufuncs.rs: nan_to_num conj conjugate", "src/python/pyarray/mod.rs: conj"]}
{"id": "C156", "title": "Arithmetic of complex arrays", "statement": "Adding and subtracting arrays of which one is complex rounds each part once; a product (quotient) is the exact complex product (quotient) whenever it and the steps that lead to it are numbers of the dtype, in particular for Gaussian integers of moderate size; + and * commute and conjugation distributes over them; maximum, minimum, fmax and fmin order complex numbers lexicographically, NaNs winning in the first two and losing in the others. Shapes broadcast, others are rejected.", "quantifier": "every pair of arrays, dtypes, shapes, layouts and elements, with infinities and NaNs", "why_tests_cant": "Rounding, overflow in intermediate squares and NaN handling are visible only at particular values.", "anchors": ["src/ops/kernels/arithmetic.rs: impl_complex_arithmetic", "src/ops/ufunc.rs: map_binary_op", "src/ops/dispatch.rs: dispatch_binary_add dispatch_binary_mul"]}
{"id": "C157", "title": "Complex reductions keep the complex value", "statement": "The sum, product, greatest and least element of a complex array, over all elements or along an axis, are those of its complex elements (sums part by part; order by real part, then imaginary part).", "quantifier": "every complex array in any layout, every axis", "why_tests_cant": "needs all element values, layouts and axes; a test of one shape cannot show that a result never depends on the data", "anchors": ["src/ops/ufunc.rs: reduce_all_op, reduce_axis_op", "src/array/dtype/complex128.rs: reduce_init, reduce_acc"]}
{"id": "C158", "title": "Float sums and products are exact when they can be", "statement": "When the elements are multiples of a common unit and their magnitudes add up within the dtype's precision, a.sum() is the exact total whatever the memory layout or axis, and likewise for products; a NaN element makes the result NaN.", "quantifier": "all float arrays, layouts and axes", "why_tests_cant": "the order of additions depends on layout and length (eight lanes, then a tail), so all lengths and layouts matter", "anchors": ["src/ops/dispatch.rs: dispatch_reduce_sum, dispatch_reduce_axis_sum", "src/ops/loops/contiguous.rs: reduce", "src/ops/kernels/arithmetic.rs: Sum, Prod"]}
{"id": "C159", "title": "max and min of floats", "statement": "a.max() and a.min() return the greatest and the least element, and NaN when any element is NaN, over all elements or along an axis, in any layout.", "quantifier": "all non-empty float arrays, layouts and axes", "why_tests_cant": "needs every position of the extreme and every NaN position across lanes and tails", "anchors": ["src/ops/kernels/arithmetic.rs: Max, Min", "src/ops/dispatch.rs: dispatch_reduce_max, dispatch_reduce_axis_max", "src/ops/ufunc.rs: reduce_all_op"]}
{"id": "C160", "title": "NaN-skipping reductions see exactly the numbers", "statement": "nansum, nanprod, nanmax, nanmin, nanargmax and nanargmin give the sum, product, extreme and first position of the extreme of the elements that are not NaN, infinities included, in any layout.", "quantifier": "all float arrays, NaN placements and layouts", "why_tests_cant": "needs all placements of NaN and infinities across layouts", "anchors": ["src/python/reductions.rs: nansum, nanprod, nanmax, nanmin, nanargmax, nanargmin", "src/ops/array_methods/reductions.rs: nan_reduce_full, nansum, nanmax"]}
{"id": "C161", "title": "Reductions of bool arrays", "statement": "The sum of a bool array counts its true elements, the product is 1 exactly if all are true, and max and min are the greatest and least element, over all elements or along an axis.", "quantifier": "all bool arrays, layouts and axes", "why_tests_cant": "needs every combination of true elements and every axis, including empty ones", "anchors": ["src/ops/registry.rs: init_default_loops", "src/array/dtype/bool.rs: reduce_init, reduce_acc", "src/ops/ufunc.rs: reduce_axis_op"]}
{"id": "C162", "title": "repeat, tile, roll and pad keep every dtype's elements", "statement": "The results of repeat, tile, roll and pad consist of the very elements of the argument (and the padding value), whatever its dtype: sign of zero, NaN, large integers and complex parts included.", "quantifier": "all numeric dtypes, arrays, layouts, counts, shifts and widths", "why_tests_cant": "needs every dtype and every value; a test with small integers cannot tell a copy from a journey through double", "anchors": ["src/array/manipulation.rs: repeat, tile, pad, roll", "src/array/dtype/complex128.rs: read_f64, write_f64"]}
{"id": "C163", "title": "the printed form of an array shows its elements in index order", "statement": "str of a non-empty array reads back as the nested list of the texts of its elements, one bracket level per axis, in index order and whatever the memory layout; repr wraps the same list in array(...) with the dtype when it is not int64, float64 or bool; above 1000 elements axes longer than six show their first and last three; equal texts mean equal shapes and equal element texts; an empty array shows its shape.", "quantifier": "all arrays, dtypes with one-word element texts, shapes and layouts", "why_tests_cant": "needs every shape, rank and layout; tests print a few small arrays", "anchors": ["src/array/format.rs: format_repr, format_str, format_data, format_recursive, display_indices, collect_elements"]}
{"id": "C164", "title": "the text of an element identifies it", "statement": "In a printed array an integer appears as its decimal numeral, a bool as True or False, a float as a decimal fraction from which the number can be recovered, NaN and infinities by name, and a complex number as its two signed parts.", "quantifier": "all elements of all numeric dtypes", "why_tests_cant": "needs every value of every dtype; rounding to a fixed number of places loses exactly the values tests do not print", "anchors": ["src/array/dtype/macros.rs: format_element", "src/array/dtype/float16.rs: format_element", "src/array/dtype/bool.rs: format_element", "src/array/dtype/complex128.rs: format_element", "src/array/dtype/complex64.rs: format_element"]}
{"id": "C165", "title": "differences along an axis are the differences of the numbers", "statement": "diff(x, n, axis) has the dtype of x and n fewer elements along the axis (none when there are n or fewer); its elements are the n-th differences of the numbers along the axis whenever the dtype has every number met on the way, whatever the layout; diff(a + b) is diff(b) of diff(a).", "quantifier": "all arrays of numeric dtypes, orders n, axes and layouts", "why_tests_cant": "needs every order, rank, layout and value, including the switch between the typed loop and doubles", "anchors": ["src/ops/array_methods/cumulative.rs: diff, diff_1d_contiguous, diff_strided", "src/python/reductions.rs: diff"]}
{"id": "C166", "title": "running totals are the totals of every prefix", "statement": "nancumsum and nancumprod give, at every place, the total of the elements up to it that are not NaN, flattened in index order or along an axis, in any layout, whenever a double and the dtype have the totals; cumsum and cumprod of float arrays are exact where no rounding is needed and NaN once a NaN was met; cumsum and cumprod of bool and int8 arrays are exact where the dtype has the total, of other integers wrap around modulo 2 to the width, and sums of complex arrays are exact part by part where no rounding is needed; shape and dtype are those of the input (flattened: one axis).", "quantifier": "all real arrays, axes, layouts and values", "why_tests_cant": "needs every prefix of every lane in every layout", "anchors": ["src/ops/array_methods/cumulative.rs: cumulative_op, nan_cumulative_op, cumsum, cumprod, nancumsum, nancumprod", "src/ops/dispatch.rs: dispatch_cumulative_kernel, dispatch_cumulative_flat, dispatch_cumulative_axis", "src/python/reductions.rs: nancumsum, nancumprod"]}
{"id": "C167", "title": "running totals with the identity in front", "statement": "cumulative_sum and cumulative_prod with include_initial=True give an array of the same dtype that is one longer along the axis: its first entry is 0 (for products 1) and entry j+1 is entry j of the running totals along that axis, for every real dtype, shape and axis, without reading or writing outside the array.", "quantifier": "all real arrays, shapes and axes, any layout", "why_tests_cant": "every place of every shape, empty axes included, must land where its row-major position says", "anchors": ["src/ops/array_methods/cumulative.rs: cumulative_sum, cumulative_prod, prepend_identity_along_axis, prepend_identity_typed, prepend_identity_fallback", "src/python/reductions.rs: cumulative_sum, cumulative_prod"]}
{"id": "C168", "title": "Functions are applied to every element in the right dtype", "statement": "exp, log, sqrt, the trigonometric and hyperbolic functions and their relatives of an array give an array of the same shape whose every element is the function of the corresponding element. Float and complex arrays keep their dtype; bool and integer arrays give the float dtype numpy uses (float16 for one byte, float32 for two, float64 for more), the function being applied to exactly the element whenever a double holds it. Memory layout does not matter.", "quantifier": "every dtype, shape, strides and offset, every element, and every function of the float and complex formats", "why_tests_cant": "The dispatch chooses among typed contiguous loops, strided loops and casts first; which elements a function reaches and in which dtype depends on the combination of dtype, function and layout.", "anchors": ["src/ops/ufunc.rs: map_unary_op, is_transcendental", "src/ops/dispatch.rs: dispatch_unary_kernel_float, dispatch_unary_typed", "src/array/dtype/macros.rs: unary_op", "src/array/dtype/bool.rs: unary_op"]}
{"id": "C169", "title": "emath functions turn complex exactly when an element needs it", "statement": "emath.sqrt, log, log2, log10, arccos, arcsin and arctanh of a real array with every element in the function's real domain equal the ordinary function of the array. If some element is outside (negative; beyond -1 or 1; at or beyond -1 or 1), the result is complex and every element is the complex function of exactly that element. Complex arrays give the complex function at every element in their own dtype.", "quantifier": "every dtype, shape, strides and offset, and every position of an element outside the domain", "why_tests_cant": "A single element anywhere decides the dtype of the whole result, including NaN and signed zero at the edge of the domain; tests place it at one position.", "anchors": ["src/python/emath.rs: sqrt, log, log2, log10, arccos, arcsin, arctanh, has_negative_values, has_values_outside_unit, has_values_outside_open_unit, get_complex_dtype", "src/ops/ufunc.rs: map_unary_op"]}
{"id": "C170", "title": "Square roots are correctly rounded", "statement": "sqrt of a real array gives, at every position, NaN for a negative element and otherwise the number of the result's dtype nearest to the true square root of the element (of every element a double can hold, for 64-bit integers); when the true root is a number of that dtype the result is exactly that root. Infinity gives infinity and NaN gives NaN.", "quantifier": "every real dtype, shape, strides and offset, and every element", "why_tests_cant": "There are 2^64 doubles; a wrong rounding shows only for rare operands, and a cast in front of the root changes the answer only for elements the intermediate dtype cannot hold.", "anchors": ["src/ops/kernels/math.rs: Sqrt", "src/ops/ufunc.rs: map_unary_op, is_transcendental"]}
{"id": "C171", "title": "emath.sqrt gives the roots of negative numbers", "statement": "emath.sqrt of a real array without negative elements gives the correctly rounded real square roots. With a negative element anywhere it gives a complex array in which every nonnegative element has its correctly rounded root as real part and imaginary part zero, and every negative element real part zero and the correctly rounded root of its magnitude as imaginary part.", "quantifier": "every real dtype, shape, strides and offset, and every element that is not NaN (of every element a double can hold, for 64-bit integers)", "why_tests_cant": "One negative element anywhere changes how all the others are computed; rounding errors of a complex root show up only for rare operands.", "anchors": ["src/python/emath.rs: sqrt, has_negative_values, get_complex_dtype", "src/ops/kernels/math.rs: Sqrt", "src/ops/ufunc.rs: map_unary_op"]}
{"id": "C172", "title": "Variance and standard deviation of floats", "statement": "The variance of all elements of a float array is never negative; of no elements it is NaN. The standard deviation is the correctly rounded square root of that variance, NaN exactly when the variance is. For whole numbers with a whole mean the variance is the exact one rounded once. The variance depends on the elements only, not on how they lie in memory.", "quantifier": "every float dtype, shape, strides and offset and all elements, NaN and infinities included; exactness for whole numbers whose sizes add up to less than the precision allows and whose squared deviations add up to less than 2^53", "why_tests_cant": "Rounded sums of squares that turn negative, roots off by one bit and results that change when the same numbers are reached through a strided view appear only for rare operands and layouts.", "anchors": ["src/ops/array_methods/reductions.rs: var, std, mean", "src/ops/ufunc.rs: variance_f64_contiguous"]}
{"id": "C173", "title": "The mean of floats", "statement": "The mean of all elements of a float array whose sum needs no more bits than the dtype has is the exact mean rounded once, in any layout. The mean of no elements is NaN, and a NaN element makes it NaN. The mean of finite elements is finite and lies between the least and the greatest, and it depends on the elements only, not on how they lie in memory.", "quantifier": "every float dtype, shape, strides and offset, every number of elements below 2^53 and all elements", "why_tests_cant": "Overflow of the running sum and rounding that follows the memory layout need particular magnitudes and particular strides together.", "anchors": ["src/ops/array_methods/reductions.rs: mean, sum", "src/ops/kernels/arithmetic.rs: Sum"]}
{"id": "C174", "title": "The mean of floats along an axis", "statement": "The mean of a float array along an axis has the shape with that axis dropped and the dtype of the array. The entry of every lane whose sum needs no more bits than the dtype has is the exact mean of that lane's elements, rounded once; a lane of no elements gives NaN. The mean of finite elements is finite and lies between the least and the greatest.", "quantifier": "every float dtype, shape, strides, offset and axis, every length of the axis below the precision, and all elements", "why_tests_cant": "Tests look at a few small arrays; mixing up lanes of strided arrays, dividing by the wrong count or overflowing the running sum needs particular shapes and magnitudes.", "anchors": ["src/ops/array_methods/reductions.rs: mean_axis, sum_axis", "src/array/constructors.rs: full"]}
{"id": "C175", "title": "nanmean, nanvar and nanstd take NaN elements for absent", "statement": "nanmean, nanvar and nanstd of all elements of an array are those of an array holding only the elements that are not NaN, whatever the shapes and layouts; of an array without numbers they are NaN. nanvar is never negative and nanstd is its correctly rounded square root. The mean of numbers whose sum needs no more than 53 bits is their exact mean rounded once, and the variance of whole numbers with a whole mean is the exact one rounded once.", "quantifier": "every real dtype, shape, strides and offset, any number and placing of NaN elements; exactness for elements a double holds and sums below the bounds stated", "why_tests_cant": "NaN can be anywhere and in any number, in any layout; a count that includes a NaN or a mean taken over other elements than the squares shows only for some placings.", "anchors": ["src/ops/array_methods/reductions.rs: nanmean, nanvar, nanstd"]}
{"id": "C176", "title": "nanmean, nanvar and nanstd along an axis are those of each lane", "statement": "nanmean and nanvar along an axis give a float64 array with that axis dropped, whose every entry is what nanmean or nanvar gives for an array holding the elements of that lane, in whatever shape and layout; so NaN elements count for nothing and a lane without numbers gives NaN, also when it has no elements at all. nanstd along the axis gives the square root of each entry of nanvar, rounded once. An axis the array does not have is refused.", "quantifier": "every real dtype, shape, strides, offset and axis, any placing of NaN elements", "why_tests_cant": "Which elements belong to a lane depends on rank, axis and strides together, and the loop builds each index by hand; lanes of length zero take a path of their own.", "anchors": ["src/ops/array_methods/reductions.rs: nanmean_axis, nanvar_axis, nanstd_axis, nan_reduce_axis"]}
{"id": "C177", "title": "nansum, nanprod, nanmin and nanmax along an axis, for float16 and integers", "statement": "Along an axis, nansum, nanprod, nanmin and nanmax of an array that is neither float64 nor float32 give an array of the same dtype with that axis dropped, whose every entry is what the whole-array function gives for an array with the elements of that lane, converted to the dtype. So integer lanes give their sum, and a lane of no elements gives what an array of no elements gives. An axis the array does not have is refused.", "quantifier": "every real dtype other than float64 and float32, shape, strides, offset and axis", "why_tests_cant": "Integers take a path meant for floats: each lane is reduced in double precision and written back to the dtype, which only shows for sums the dtype or a double cannot hold, and for lanes of length zero.", "anchors": ["src/ops/array_methods/reductions.rs: nansum_axis, nanprod_axis, nanmin_axis, nanmax_axis, nan_reduce_axis"]}
