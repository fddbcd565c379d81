# Formal model of mrocklin/rumpy: design

## What this is

`rocq/theories` holds an executable Gallina model of the parts of rumpy
(a NumPy clone in Rust) that are index arithmetic, layout dispatch, integer
arithmetic, searching/sorting, random-bit and calendar logic, together with
theorems about the model.  Nothing here runs the Rust code: the tie between the
model and `/repo` is the citation on every definition (file and lines).

## Conventions

* One directory-less namespace `Verif`.  For each area `X`:
  * `X_Model.v`  definitions only, each citing `/repo` file:lines;
  * `X_Spec.v`   (when the spec is more than a line) an independent
    specification that does not mention the model;
  * `X_Proofs.v` lemmas;
  * `X_Props.v`  only `Theorem … exact lemma.` + `Print Assumptions`, plus the
    `Example`s showing that hypotheses are inhabited.
* `usize` lengths and indices are `nat`; `isize` strides/offsets are `Z`.
  Overflow is modelled (`mod 2^64`) only where a property is about it
  (casts of negative numbers to `usize`, integer dtypes, PCG64, Lemire).
  Element counts that do not fit `usize` are outside the model.
* A Rust panic is `Panic`, an `Option::None`/`Err` returned to the Python layer
  is `Err`, an access outside an allocation is `Fault` (type `res` in `Base.v`).
* A buffer is a `list V` of items; a byte address `p` is readable iff
  `0 <= p`, `item | p` and `p/item < length`.  Views are records
  (offset, shape, strides, itemsize, contiguity flags) exactly as `RumpyArray`.
  Dtype-reinterpreting views (`view(dtype)`) are not modelled.
* Kernels (`K::apply`, `K::combine`, comparison) are parameters of the loop
  models (ordinary function arguments, universally quantified in the theorems).
  Theorems that need algebraic laws of a kernel take them as explicit premises
  and each is instantiated for the integer kernels.
* Floating point: where rounding matters (values passed through `f64`) the
  model uses an explicit round-to-nearest-even on 53-bit significands over `Z`,
  or the standard library's `SpecFloat`.  The
  FFT branch of convolve (n*m > 500000) is a function argument.
  Transcendental functions, faer
  linear algebra, FFT and formatting are not modelled.
* If the code violates a property, the full property is kept in
  `properties.jsonl`, the strongest true part is proved with suffix `_partial`,
  and a theorem `…_refuted` exhibits the violation on the faithful model.

## Trusted base

* Coq 8.16.1's kernel (and `vm_compute`).
* `Print Assumptions` output under every property theorem: "Closed under the
  global context" for all of them (no axioms at all) unless listed in the
  section "Axioms used" below.
* The reading of the Rust source: each definition cites the lines it models.
* Rust language facts: `as` casts wrap, `%`/`/` truncate, `wrapping_*` is
  modulo 2^w, float-to-int `as` saturates, slices are bounds checked while raw
  pointers are not, allocations are smaller than 2^63 bytes.
* Rust standard library contracts: `sort_by` is a stable sort (modelled by
  insertion, which the contract determines), `select_nth_unstable_by` is a
  hypothesis (`select_contract`) of the two theorems that use it, `HashSet`
  membership is equality of the stored bit patterns.
* Random: `rand_pcg` and `rand_distr` are outside the model; theorems quantify over
  the source of 64-bit numbers, or speak of the generator in `pcg64.rs`.
* PyO3/CPython: `slice.indices` semantics, `Py_REFCNT` is an arbitrary number.
* Decimal text: `f64::from_str` on "0.ddd" is the correctly rounded quotient. In text
  files (`Txt_Model`) `{:.pe}` and `{:.p}` are correctly rounded decimals and `from_str`
  is the nearest double, ties to even, as Rust documents; `{}` and `powi` are parameters
  that the proved formats do not use. Text is ASCII.

Axioms used: none by any theorem of a property.  The examples `C124_nonvacuous`,
`C125_nonvacuous` and `C125_odd_length_nonvacuous`, which instantiate the transform
theorems at the complex numbers over Coq's reals, use the standard library's
`ClassicalDedekindReals.sig_forall_dec`, `ClassicalDedekindReals.sig_not_dec` and
`FunctionalExtensionality.functional_extensionality_dep`.  (The standard library's `ssrunder` module, loaded through
`ssreflect` notations of a dependency, declares the abstract `Under_rel` constants;
no theorem here depends on them.)

## Modelled / not modelled

Modelled: array core and views (`src/array/{mod,iter,views}.rs`), basic indexing
(`src/python/pyarray/{mod,dunder_item}.rs`), element-wise and reduction dispatch
and loops (`src/ops/{dispatch,ufunc,loops}`), integer kernels, cumulative and
logical reductions, arg-reductions, sorting/partition/search/unique/set
routines, manipulation (`src/array/manipulation.rs`), take/put/pack/ravel
(`src/ops/indexing.rs`), PCG64/Lemire/Fisher-Yates, datetime calendar and unit
logic, dtype promotion, polynomial/convolution/interp over exact arithmetic,
gufunc dimension resolution, matrix products, interpolation/trapezoid/gradient,
histograms, vector products, einsum, NPY/NPZ files and raw byte buffers
(`src/ops/io.rs` from line 366), array construction and conversion, grids, the array
interface, string arrays and the char submodule (`src/ops/char.rs`; Unicode property
tables are a record parameter constrained on ASCII only), masked assignment, selection,
trimming, blocks and phase unwrapping (`src/python/misc.rs`), functions applied along
axes and element by element (`src/python/functional.rs`; the Python function is a
parameter that may carry state), Fourier transforms (`src/ops/fft.rs`; a rustfft plan is
the defining sum over exact arithmetic), text files (`src/ops/io.rs` lines 13-363), axis
moving, stacking and mirroring wrappers (`src/python/shape.rs`), conversion between dtypes,
comparison, closeness and logical operations (`src/ops/comparison.rs`; `f16::from_f64` rounds
to nearest even), bitwise operations and shifts (`src/ops/bitwise.rs`), central moments, rounding, clipping, sign
and absolute value (`src/ops/kernels/math.rs`, `src/ops/mod.rs`; `powi` is compiler-rt's loop), arithmetic, extrema, remainder and floor division of
real dtypes, copysign and nextafter on bit patterns (`src/ops/kernels/arithmetic.rs`, `src/ops/ufunc.rs`),
floating-point tests, parts of complex numbers and nan_to_num (`src/ops/array_methods/unary.rs`), complex arithmetic, reductions of float, complex and bool arrays, mean, variance and standard deviation of all elements and the mean along an axis of float arrays
and the NaN-skipping reductions (`src/ops/array_methods/reductions.rs`; NaN-skipping sums, products and extrema along an axis for float64 and float32; nanmean and nanvar along an axis for every real dtype), differences along an axis and running totals of every dtype (`src/ops/array_methods/cumulative.rs`), the dispatch of element-wise functions and their complex
extensions (`src/ops/ufunc.rs`, `src/python/emath.rs` without logn and power; the function itself is a parameter, except the real square root and the complex root on the real axis, which follows the published source of num-complex 0.4), and the printed form of arrays of numbers (`src/array/format.rs`).

Not modelled: faer/BLAS linear algebra, special functions, the rounding of FFTs, the values of the transcendental
element-wise kernels other than the real square root, the text mode of tofile/fromfile,
the operating system's files and the
zip container, PyO3 glue other
than the parts listed above, Python object life-times other than the reference
counts in C18/C19, thread interleavings (the library is called under the GIL).

## Plan per property

| id | model | proof |
|----|-------|-------|
| C01 | `Arr_Model`: odometer `advance`, `StridedIter`, `increment_indices`, `AxisOffsetIter` | the k-th state is the mixed-radix representation of k; induction on rank and on steps |
| C02 | `c_strides`, `f_strides` | dot product with c-strides = row-major rank (Horner); bijection |
| C03 | `is_c_contiguous`, `is_f_contiguous` | if the test succeeds every in-range index has the dot product of the true strides |
| C04 | `transpose`, `transpose_axes`, `swapaxes` | dot product invariant under simultaneous permutation |
| C05 | `slice_axis` with the `usize` cast | proved for non-negative stride (partial), refuted for negative stride by a witness |
| C06 | `flip` | as C05: involution fails on the model (refuted), single flip of non-negative strides proved |
| C07 | `reshape` | C-contiguous case proved; F-contiguous case refuted |
| C08 | `broadcast_shapes` | pointwise spec on right-aligned lists; laws from the spec |
| C09 | `broadcast_to` | index map, in-bounds |
| C10 | `expand_dims`, `squeeze`, `squeeze_axis` | dot product ignores zero coordinates |
| C11 | `run : list vop -> arr -> res arr` | refinement to abstract arrays by induction over the operation list under the exact guard of C05/C07 (partial) + refutation |
| C12 | `astype` same dtype paths | all paths equal `map get (all_idx shape)` |
| C13 | `normalize_slice` against CPython's `PySlice_AdjustIndices` | equality under exact guard (partial) + refutation for negative steps |
| C14 | `normalize_index`, `get_element`, `__getitem__` | scalar path panics (proved); mixed int/slice path refuted |
| C15 | `fill_view` over a shared buffer | refuted by a witness; proved for disjoint views (partial) |
| C16,C17 | `dispatch_*_typed` | every path equals the row-major map |
| C18,C19 | heap with Arc counts, elision guard | `Arc::get_mut` always fails while the operand is alive => operands untouched; value dependence refuted for `//` |
| C20,C21 | w-bit integer kernels | modular arithmetic; floor-div refuted, truncated law proved |
| C22 | where dispatch | path agreement for bool conditions; first-byte test refuted |
| C23-C25 | 8-lane reduce, sum-of-squares | monoid argument; refutations for f64 round trip and sum of squares |
| C26,C27 | axis reduction paths, keepdims | path agreement by index bijection; 1-D keepdims refuted |
| C28,C29 | cumulative, logical axis | prefix-fold characterisation |
| C30,C31 | argmax loops, arg axis | first-maximum characterisation; strided path refuted |
| C32-C39 | sort/argsort/partition/search/unique/sets | permutation + sortedness; loop invariants with fuel shown sufficient |
| C40-C43,C45 | `Man_Model`: concatenate, stack, split, repeat, tile, roll, triangles, rot90, insert/delete | element-wise index characterisations of the lists of writes; lanes of the result are list edits of lanes of the argument |
| C44 | `Conv_Model`: direct method; FFT an argument | finite sums over a commutative ring |
| C46-C50 | `Sel_Model` (take, masks, put), `Ravel_Model`, `Bits_Model` | element-wise characterisations, bijections |
| C51-C54 | `Rng_Model`: PCG64, next_f64 (SpecFloat), Lemire, Fisher-Yates | Hull-Dobell full period (`Rng_Lcg`); counting; bijection |
| C55-C57, C72-C75 | `Date_Model`: days_to_ymd, ymd_to_days, convert, NaT paths, format/parse, business days | `Date_Spec`: leap years, `tomorrow`, instants in ns; era arithmetic for all i64 (`Date_Proofs`), unit pairs (`Date_Units`), digits and splitting (`Date_Str`), counting and termination (`Date_Bus`) |
| C58, C76 | `Promo_Model`: promote_dtype, result_type, can_cast | `Promo_Spec`: the set of values of each dtype (integers scaled by 2^1074); case analysis over dtypes with inclusion lemmas and missing-value witnesses |
| C59, C77 | `Poly_Model`: polyval, polyder, polyint, roots up to degree 2 | `Poly_Spec`: sum of p[i] x^(n-1-i) over any commutative ring; product rule through the dual numbers R[e]/e^2; fields of characteristic 0 for integrals |
| C60 | `Hist_Model`: bincount, histogram, histogram_bin_edges, histogram2d, histogramdd | counting loops as lists of increments, for arbitrary arithmetic; bin contents over Q; double-precision counterexamples with SpecFloat |
| C63 | `Num_Model`: interp and its bisection | exact arithmetic over Q (segments, knots, monotonicity) and double precision with SpecFloat at the knots |
| C81, C82 | `Num_Model`: trapezoid and gradient with lane reads and byte-offset writes | `Num_Spec`: trapezoidal sums and difference quotients; arithmetic is an argument, laws over commutative rings with one half, derivatives over Q. Typed loops only: the fallback loops for bool, int8, float16 and complex differ in truncating byte offsets |
| C62 | `Gu_Model`: signature parser, dimension resolution, sub-array extraction, the loop over positions | `Gu_Spec`: sizes per name and least common broadcast; resolution proved sound and complete; kernels as arguments |
| C78, C80 | `Prod_Model`: dot, inner, outer, vdot, kron, cross, tensordot with their two read paths (pointer arithmetic on contiguous float64, get_element otherwise) and their writes of doubles into the result | `Prod_Spec`: sums of products, Kronecker entry, three-dimensional vector product; arbitrary arithmetic for the formulas, commutative rings for the laws, 53-bit rounding over Z for int64. faer is assumed to compute the textbook sum in vdot |
| C83, C84, C85 | `Ein_Model`: subscript parser and validator on ASCII text, the single-operand shortcuts (transpose, trace, diagonal, axis sum, total sum) and element loop, the pair shortcuts (outer, elementwise product), the matrix-product route with its transposes, reshapes and raw copy, the element loop, left-to-right contraction of several operands through generated text | `Ein_Spec`: what a text says, Einstein sum over letters; parser by structural recursion on text; values over an arbitrary commutative ring on float64 arrays with explicit layouts; summation order by permutation, distributivity for chains (induction on the chain); refutations on the rounding instance over Z. einsum_path (cost report) not modelled; HashMap iteration order is irrelevant because the code sorts; text outside ASCII not modelled |
| C86–C92 | `Io_Model`: dtype codes and their parser, header text, length field, padding, the byte layout written, the reader with its text searches and buffer sizes, frombuffer/fromfile, archive names | `Io_Spec`: the NPY format (numerals, tuple, dictionary, preamble, data order); induction on texts and numerals; a crash during save is a proper prefix of the file; arbitrary file contents for memory safety. Strings outside ASCII in headers, the zip container and OS files not modelled |
| C93–C94 | `New_Model`: Python values as a tree, PyO3 extraction to i64/f64, dtype inference from the first scalar, the two flattening loops, from_vec + reshape with fallback, to_pylist | `New_Spec`: `rect`, `nests`, `at_` (indexing a nested list) and `stores`; induction on the nesting; leaves in row-major order equal the buffer |
| C95–C97 | `Span_Model`: arange, linspace, full over binary64 (`SpecFloat`), the usize count, the allocation size | `SF_Arith`: sums, differences, products of integers below 2^53 are exact and quotients are rounded to nearest; the ceiling of the rounded quotient is the ceiling of the quotient |
| C98 | `Grid_Model`: meshgrid, ix_, the dense and open grids over views (reshape without copy, broadcast, then copy) | `Grid_Spec.only_axis`, `mesh_axis`; reshape and broadcast views composed, read off at the coordinate of the axis |
| C99 | `Grid_Model`: the ndindex and ndenumerate iterators as state machines with a wrapping usize counter, the two write paths of indices | the odometer state after k steps is the k-th index tuple, by induction on the steps; `lists_indices` states the order |
| C100 | `Grid_Model.fill_diagonal`: the 2-D loop with wrap, the n-D loop, reads of val by flat position | the writes go to distinct addresses (`stores_ok`), position equation `diag_pos` characterises the (wrapped) diagonal |
| C101 | `Grid_Model`: slice parsing (step truncated to an integer), the floating-point while loop with fuel, the complex-step formula | `SF_Cmp`: comparisons of integers below 2^53; induction on the number of terms left; divergence as `None` for every fuel |
| C102 | `Grid_Model`: eye, diag_indices | row and column of a flat position |
| C103 | `Lay_Model`: array_impl on arrays, ascontiguousarray, asfortranarray, require, astype through binary64; the result says whether it shares the argument's buffer | `Lay_Spec.converts`, `row_major`, `col_major`; transposing a row-major copy is column-major |
| C104 | `Lay_Model.copyto`: broadcast of src and mask, the memcpy path (overlap = fault), the element loops; src and mask may live in dst's buffer | stores at distinct addresses whose sources are never overwritten (`guarded_stores`); overlap of contiguous ranges contradicts disjoint elements |
| C105 | `Lay_Model`: export dictionary, type string parser, byte-wise import | address of an element in the concatenated buffer; type strings of all fixed-size dtypes parse back |
| C106 | `Char_Model`: code point transforms over strided strings; Unicode tables are a parameter, fixed on ASCII only | per-string loop equals map; placement of padded strings; laws by composing results |
| C107 | strip_fast, ignored chars argument | longest run characterised by a cut of the string; refuted for chars and U+001F |
| C108,C109 | find/rfind/index/rindex, startswith/endswith with raw reads | least/greatest occurrence; out-of-bounds witness |
| C110 | count and replace scanning loops with fuel | scan = inductive relation `pieces` (unique), joined by the replacement |
| C111 | partition, rpartition, join | three-way cut at the first/last occurrence; result shape ++ [3] |
| C112,C113 | `apply_unary_string_op`/`apply_binary_string_op` with flat element numbers | contiguous arrays proved; strided, reversed and broadcast operands refuted |
| C114 | compare_strings | comparison loop = lexicographic relation, shown to be a strict total order |
| C115 | predicate loops | against `all_of`, `some_cased`, `is_titled` specifications |
| C116 | from_vec_str, string branch of array() | every string fits its slot; width-0 and NUL witnesses |
| C117 | `Msk_Model`: `extract`, `masked_assign` (place, putmask); masks as bytes | offsets equal element positions; loop invariant over the mask prefix; place after extract |
| C118 | `select`, `piecewise` with its assigned flags | first true condition by induction on the condition list; pass invariant |
| C119 | `resize`, `trim_zeros` (two scans, slice, copy), `ediff1d` | cyclic tiling; scan bounds give the trimmed middle; telescoping sums |
| C120 | `unstack`, `block` (recursive join) | composition of view lemmas; concatenation lanes twice |
| C121 | `unwrap` over exact numbers | step invariant of the running correction; lanes do not interfere |
| C122 | `Fn_Model`: `apply_along_axis`, `apply_over_axes` with an arbitrary stateful function | the fold of calls equals the list of lanes; `rank_app` for array results |
| C123 | `Fn_Model`: `vectorize`, `frompyfunc`, their own broadcasting | the shape fold computes the least common shape; positions of scalars by induction on the arguments |
| C124 | `Fft_Model`: per-axis loops over lanes of a row-major buffer, any ring with roots of unity | a loop invariant gives the transform of every lane; orthogonality of roots; transforms along different axes commute; the complex numbers over Coq's reals meet the hypotheses (`Fft_Complex`) |
| C125 | half spectra, their mirrored extension, rfftn/irfftn lane maps | Hermitian symmetry of real data; even lengths proved, odd lengths and empty axes refuted |
| C126 | `shift_array`, `fftfreq` | rotations modulo n; more than two axes refuted |
| C127 | `Stat_Model`: `median`, `nanmedian` and their axis versions, selection as sorting | for any total preorder; the overflow of the midpoint, NaN order, empty input and the one-dimensional axis case refuted |
| C128 | `Stat_Model`: `percentile`, `quantile`, nan variants | over exact rationals (`Qc`): the value lies on the polygon of the sorted list; monotonicity, bounds, end points; rounding and shapes refuted |
| C129 | `Mean_Model`: `mean`, `var`, `average` through the reduction and broadcasting models | over `Qc`: arrays denote functions from indices (`is_nda`); each array operation is composed at the level of functions; one-dimensional `var(axis)`, broadcast weights and integer means refuted |
| C130 | `Axes_Model`: `parse_axis`, `reduce_multi_axis` over any single-axis reduction | cells (indices agreeing on the kept axes) are permuted concatenations of lanes; any commutative monoid; mean over `Qc`; ptp, var, median and duplicate axes refuted |
| C131 | `Cov_Model`: `cov`, `corrcoef` composed from the mean, broadcasting, transpose and matmul models | over `Qc`: `is_nda` composition and `Mat_Laws.ring_product`; Cauchy-Schwarz by expanding a square; correlation for samples whose standard deviations are rational; other ranks refuted |
| C132, C133 | `Txt_Model`: decimal writing ({:.pe}, {:.p}) and reading of doubles, format_value, savetxt with header, footer, separator and comment marks, lines, fields, the loadtxt loop and the shape rule | `Txt_Float`: a decimal of 17 significant digits lies within half an ulp, so the nearest double is the original (over `Q`); `Txt_Proofs`/`Txt_Save`: splitting undoes joining for separators that do not begin like a number; induction over rows |
| C134, C135 | `Txt_Model`: loadtxt and genfromtxt with skiprows, usecols, max_rows, comments, missing and filling values | `Txt_Load`: the loop over lines equals a loop over data rows; laws by induction on the rows; missing columns, white delimiters and one-column tables refuted |
| C136 | `Shp_Model`: `moveaxis` (wrapping axis numbers, clamped inserts), `rollaxis`, `matrix_transpose` | insertions in ascending order put every axis at its destination (`moves`); a permutation of axes acts on shape and index alike; unsorted destinations and missing axes refuted |
| C137 | `Shp_Model`: `atleast_*` through reshape with fallback | reshape of contiguous arrays keeps the row-major list; strided views refuted |
| C138 | `Shp_Model`: the stacking wrappers over `concat_nd`, the splitting wrappers over `split` | lanes of a concatenation; row-major list of an axis-0 concatenation; split of a concatenation of equal shapes; strided 1-D and 0-d operands refuted |
| C139 | `Shp_Model`: `flip` over all axes, `broadcast_arrays`, `broadcast_shapes` | induction over the axes; `broadcastable` is an order with least upper bounds (`common_shape`); reversed views refuted |
| C140 | `Cast_Model`: `read_f64`, `write_f64`, `astype` | floats as `SpecFloat` of any format; rounding a representable number is exact; wide integers and complex refuted |
| C141 | `Cast_Model`: `compare`, `compare_scalar` with promotion and broadcasting | `SFcompare` of canonical floats is comparison of their values; exact when the promoted dtype has both; refuted otherwise |
| C142 | `Cast_Model`: `compare`, `array_equal` | pointwise laws lifted through the broadcast; transitivity across dtypes refuted |
| C143 | `Cast_Model`: `isclose`, `allclose` | signs of rounded sums and products; exact on whole numbers; symmetry, 64-bit integers and complex refuted |
| C144 | `Cast_Model`: `truthy`, `logical`, `logical_not` | truth value = value differs from zero; De Morgan through the broadcast |
| C145 | `Bitw_Model`: `bitwise`, `bitwise_not`, memory as bytes for mixed dtypes | representable = high bits agree; patterns against unbounded two's complement; wide shifts, mixed dtypes and Python scalars refuted |
| C146 | `Rnd_Model`: `round_float`, `float_kernel`, `unary` | relations floor_of, ceil_of, trunc_of, nearest_of on values; every format by one argument; laws from the relations; ties refuted |
| C147 | `Rnd_Model`: `powi10`, `round_scaled`, `round_int`, `round` | multiplying and dividing by one; error bounds of quotient and product make k/10^d a fixed point; ties, integer tens, wide powers and shared memory refuted |
| C148 | `Rnd_Model`: `clip_elem`, `clip_f64`, `clip` | refinement to the clip of extended numbers; idempotent and monotone; fractions on integers, NaN bounds, complex refuted |
| C149 | `Rnd_Model`: `float_unary`, `int_unary`, `unary` | exact on values; wrapping negation an involution; least integer and bool refuted |
| C150 | `Ari_Model.binary`: dtype conversions of division, kernels of one dtype, f64 route of mixed dtypes | `SF_Round`: the SpecFloat operations round to the nearest number (ties, overflow, subnormals); `Ari_Proofs` lifts to arrays |
| C151 | `float_bin`, `int_bin`, `bool_bin` of Ari_Model | the pick is characterised by <= on values; uniqueness gives the laws |
| C152 | `float_rem`, floor of the rounded quotient | exact remainder by alignment; rounding error of a quotient of whole numbers is smaller than its distance to the next whole number |
| C153 | Ari_Model (copysign, bit patterns, nextafter) | patterns of non-negative floats are strictly increasing numbers and every number of the format has one, so the neighbouring pattern is the neighbouring number; copysign value by value through the f16 and mixed paths |
| C154 | `predicate`, `reality` of `Cpx_Model.v` | per element by `test_holds` on both parts; laws between the tests; bool arrays and the result dtype of isreal refuted |
| C155 | `real_part`, `imag_part`, `conj`, `nan_to_num` of `Cpx_Model.v` | refinement to exact parts, conjugation an involution, replaced parts rounded to the dtype; finite and idempotent with the defaults |
| C156 | `cbinary` of `Cpx_Model.v` (kernels in the format of the parts, mixed dtypes through double) | correct rounding of sums, exactness of products and quotients step by step, uniqueness of rounding for the conjugation laws, lexicographic order |
| C157 | Complex reductions over all elements and along an axis (Cpx_Model, Fred_Model) | `_total_refuted`: over all elements the result is always 0.0; `_max_refuted`: always minus infinity along an axis; `_min_refuted`: by size; `_sum_partial`: sums along an axis exact |
| C158 | Float sum and product kernels with eight lanes, strided loops and the per-dtype fallback | any-order invariant of the eight-lane reduction: exact totals and products, NaN kept |
| C159 | Float max and min | `_partial`: greatest and least without NaN; `_nan_refuted`: NaN is passed over |
| C160 | nansum, nanprod, nanmax, nanmin, nanargmax, nanargmin | invariant over the numbers seen so far; `_partial` and `_refuted` around infinities |
| C161 | Bool reductions | fold invariant; `_sum_refuted`: the sum stops at one; `_empty_refuted` |
| C162 | repeat, tile, roll, pad of Man_Model with the conversion of Cast_Model for each dtype | an element that fits a double is unchanged by the journey (equal values, equal signs); `_partial`: real dtypes; `_complex_*_refuted`: complex elements become zero |
| C163 | format_repr, format_str, format_data, display_indices, collect_elements and format_recursive as functions on texts, the text of an element a parameter | a separate tokenizer reads the text back as the nested list (induction over the axes; texts of parts compose when separators separate); texts of shapes and elements are recovered from the tokens; `_empty_refuted`: shapes (0,) and (2,0) print alike |
| C164 | format_element of every numeric dtype on Txt_Model's fixed-point decimal texts | integer numerals are read back and are injective; a float is within half a unit of the last of eight (float16: four) places; `_float_refuted`: 0 and 1e-9 print alike; `_complex_refuted`: parts without a sign or with two |
| C165 | diff with its two loops (typed for contiguous rows, doubles otherwise) and the recursion on n, for every numeric dtype | induction on n: one pass is the first difference of the numbers along the axis (exactness of subtraction from C150), the next pass works on a fresh array; `_layout_refuted`: uint8 wraps in a row and is cut off at 0 in a view, int64 along an axis is rounded to a double; `_complex_refuted`: zeros |
| C166 | cumulative_op and nan_cumulative_op through doubles, the typed loops of C29 on floats, integers and complex numbers, cumsum/cumprod choosing between them | the loops through doubles equal the strided typed loop, so every entry is the fold of a prefix (C29); the fold of a prefix is its exact total by the invariants of C158/C160; `_refuted`: bools do not count, int8 sticks at its limit, int64 loses units beyond 2^53, complex arrays give zeros |
| C167 | prepend_identity_along_axis: rows of the last axis, lanes of any other axis, the fallback through doubles; cumulative_sum/prod with include_initial | the writes of the lanes are a bijection with the indices of the longer shape, so every place holds the identity or the shifted total; elements through doubles keep their value (C133); `_refuted`: a shape that is empty across the axis is read and written outside its buffer, complex totals become zeros |
| C168 | `fun_map`: dispatch of element-wise functions (cast first for the listed functions, typed loops, strided loop), the function itself a parameter | every element through any layout; dtypes; exactness of the cast; refuted for exp2, expm1, log1p, cbrt, arcsinh, arccosh, arctanh of integers and bools |
| C169 | `fun_extended`: emath functions with their tests for elements outside the real domain | the test finds exactly the arrays with an element outside; both branches reduced to C168; refuted for arctanh of integers |
| C170 | `sqrt_float`: the IEEE square root in float32 and float64, through float32 in float16, under the dispatch of C168 | integer root with remainder decides the side of every midpoint; nearest number by comparison with a stand-in fraction; the float32 root never hides the side of a float16 midpoint |
| C171 | `fun_extended` with `sqrt_float` and `sqrt_complex` (num-complex's root on the real axis; its other branches are a parameter) | C169 and C170 combined; the complex root of y + 0i reduced to a real root |
| C172 | `float_var` with both of its paths (contiguous float64, and any other layout with the mean of C158), `float_std` | signs of IEEE operations; exact whole-number sums, one rounding in the last division; C170's root; two layouts of the same eight numbers refute independence of layout |
| C173 | `float_mean` over C158's `float_total` | C158's exact sums and one correctly rounded division; NaN carried through the sum; a float16 array and two layouts of eight numbers as counterexamples |
| C174 | `float_mean_axis`: C158's `float_axis`, then C150's division by a one-element array holding the length of the axis | the sums form an array of valid elements; C158 for each lane and C150 for its quotient, a common factor cancelled |
| C175 | `nan_mean`, `nan_var`, `nan_std`: the loops with a sum and a count over elements read as f64 | each loop is a fold over the elements that are numbers, so equal lists of numbers give equal results; signs and roots as in C172; exact sums as in C158 |
| C176 | `nan_reduce_lanes`: the loop over output indices, the index of each lane, `get_element` along it; `lane_mean`, `lane_var`, `nan_std_axis` | the index built by hand is the output index with the axis inserted; the loop closures equal C175's functions of the numbers in the lane; nanstd is C170's square root of the result |
| C177 | `nan_reduce_lanes` with the dtype of the array, `lane_red`, `nan_red_axis` | lane by lane as C176, with `nan_total` of the lane converted by `write_f64`; integer sums and extremes are exact in doubles below 2^53 |
| C61, C79 | `Mat_Model`: matmul with its pointer arithmetic for each dtype, matrix_power, multi_dot | `Mat_Spec`: sums over index ranges, powers; integers modulo the width, other kinds over any commutative ring. faer is assumed to compute the textbook sum; the BLAS build is not modelled; inv is an argument |
| C64 | resolve_reshape_shape | divisibility |
| C65 | PyFlatIter | mixed-radix decoding equals row-major enumeration |
| C66 | wrapping_pow | repeated squaring modulo 2^w; 32-bit exponent cast refuted |
| C67,C68 | pad, diagflat | scattered writes: every result position is written once or keeps its initial value |
| C69 | `Sel_Model`: take_along_axis, put_along_axis, choose | same-lane index map; sequence of element writes equals a list of replacements |
| C70,C71 | `Rng_Model`: choice, multinomial | swap_remove on the list of remaining positions; the binomial sampler is a function argument |
