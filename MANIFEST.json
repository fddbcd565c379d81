{
 "claims": [
  {
   "property": "C01",
   "status": "proved",
   "theorems": [
    "C01_all_idx_is_row_major",
    "C01_strided_iter_row_major",
    "C01_odometer_row_major"
   ],
   "note": "iterator and odometer for every shape/stride vector; all_idx itself shown to be every index once in lexicographic order"
  },
  {
   "property": "C02",
   "status": "proved",
   "theorems": [
    "C02_fresh_row_major",
    "C02_column_major_strides",
    "C02_rank_bijective"
   ],
   "note": "c/f strides; rank is a bijection"
  },
  {
   "property": "C03",
   "status": "proved",
   "theorems": [
    "C03_c_contiguous_sound",
    "C03_f_contiguous_sound",
    "C03_c_contiguous_complete"
   ],
   "note": "soundness for both flags, completeness for the C flag; every view operation keeps wf (flags only set when the test succeeds)"
  },
  {
   "property": "C04",
   "status": "proved",
   "theorems": [
    "C04_transpose",
    "C04_permute",
    "C04_transpose_involutive",
    "C04_swapaxes",
    "C04_swap_involutive"
   ],
   "note": "transpose, permutation, swapaxes (different axes; equal axes copy)"
  },
  {
   "property": "C05",
   "status": "partial",
   "theorems": [
    "C05_slice_partial",
    "C05_slice_refuted",
    "C05_slice_fault_refuted"
   ],
   "note": "Holds when the axis stride is non-negative or start=0. Missing: negative strides, where the code adds start*|stride| (views.rs:73) and reads the wrong or no memory (two refutations)."
  },
  {
   "property": "C06",
   "status": "partial",
   "theorems": [
    "C06_flip_partial",
    "C06_flip_twice_refuted"
   ],
   "note": "Holds for non-negative strides; flipping twice leaves the buffer (refuted) because of the same offset bug."
  },
  {
   "property": "C07",
   "status": "partial",
   "theorems": [
    "C07_reshape_partial",
    "C07_reshape_size_mismatch_partial",
    "C07_reshape_overflow_refuted",
    "C07_reshape_transposed_refuted",
    "C07_reshape_strided_refuted"
   ],
   "note": "Holds for C-contiguous views. F-contiguous views keep memory order (refuted), other views are rejected (refuted). Size mismatch is rejected below 2^64 elements; beyond, the usize products wrap (refuted)."
  },
  {
   "property": "C08",
   "status": "proved",
   "theorems": [
    "C08_rule",
    "C08_rejects",
    "C08_commutative",
    "C08_associative",
    "C08_idempotent",
    "C08_unit",
    "C08_least_upper_bound",
    "C08_multi_order_independent"
   ],
   "note": "rule as iff, rejection as iff, commutative/associative/idempotent/unit, least upper bound, order independence of the n-ary fold"
  },
  {
   "property": "C09",
   "status": "proved",
   "theorems": [
    "C09_broadcast_to"
   ],
   "note": "exact accept/reject condition and element map"
  },
  {
   "property": "C10",
   "status": "proved",
   "theorems": [
    "C10_expand_dims",
    "C10_squeeze_axis",
    "C10_squeeze",
    "C10_squeeze_expand"
   ],
   "note": "expand_dims, squeeze_axis, squeeze; all-ones squeeze gives shape [1] as in the code"
  },
  {
   "property": "C11",
   "status": "partial",
   "theorems": [
    "C11_history_partial",
    "C11_forward_history_partial",
    "C11_history_refuted"
   ],
   "note": "Refinement for all histories satisfying an executable guard; unconditional for histories without flip/negative step/reshape; unguarded claim refuted."
  },
  {
   "property": "C12",
   "status": "proved",
   "theorems": [
    "C12_copy_faithful",
    "C12_copy_paths_agree",
    "C12_copy_wf",
    "C12_astype",
    "C12_copy_after_history",
    "C12_swapaxes_equal_axes_copies"
   ],
   "note": "all copy paths; element conversion of astype is a parameter"
  },
  {
   "property": "C13",
   "status": "partial",
   "theorems": [
    "C13_tuple_partial",
    "C13_forward_slices",
    "C13_single_slice",
    "C13_assignment_target",
    "C13_start_beyond_end_refuted",
    "C13_empty_axis_refuted",
    "C13_huge_start_refuted",
    "C13_start_before_begin_refuted",
    "C13_slice_len_exact",
    "C13_huge_step_refuted"
   ],
   "note": "Shape and every element of a[tuple] (integers, slices, None, ellipsis) for all forward slices and for negative steps with start inside the axis; single slices and assignment targets for every slice. Refuted: start beyond either end with a negative step, empty axis, start >= 2^63, step near 2^63. Negative strides are C05's limitation."
  },
  {
   "property": "C14",
   "status": "partial",
   "theorems": [
    "C14_all_integers",
    "C14_single_integer_partial",
    "C14_too_many_indices",
    "C14_set_element",
    "C14_single_integer_refuted",
    "C14_mixed_tuple_refuted",
    "C14_assignment_refuted"
   ],
   "note": "Full integer tuples and element assignment: exact in/out of range. Too many indices: always an error. Refuted: a single integer, and integers mixed with slices (read and write), are not range-checked."
  },
  {
   "property": "C15",
   "status": "partial",
   "theorems": [
    "C15_assign_partial",
    "C15_assign_disjoint",
    "C15_assign_safe",
    "C15_assign_scalar",
    "C15_overlap_refuted"
   ],
   "note": "Exact when no cell is read after being written (covers disjoint views and forward shifts); memory-safe for every overlap; a[1:] = a[:-1] refuted."
  },
  {
   "property": "C16",
   "status": "proved",
   "theorems": [
    "C16_binary_layout_independent",
    "C16_binary_panics",
    "C16_paths_agree",
    "C16_binary_broadcast"
   ],
   "note": "dispatch_binary_typed, trait and get_element loops; kernels that panic covered; composed with broadcasting"
  },
  {
   "property": "C17",
   "status": "proved",
   "theorems": [
    "C17_unary_layout_independent",
    "C17_unary_paths_agree",
    "C17_compare",
    "C17_unary_commutes_with_views"
   ],
   "note": "dispatch_unary_typed/compare/predicate and the trait fallback; commutes with views"
  },
  {
   "property": "C18",
   "status": "proved",
   "theorems": [
    "C18_operands_unchanged",
    "C18_history"
   ],
   "note": "Heap of allocations with Arc strong counts; the in-place branch is modelled and shown unreachable because the elision clone itself raises the count. Not modelled: int/int true division and datetime fast paths (both only allocate)."
  },
  {
   "property": "C19",
   "status": "partial",
   "theorems": [
    "C19_refcount_invisible_partial",
    "C19_int_operators_agree",
    "C19_floor_div_nonneg_partial",
    "C19_refcount_visible_refuted",
    "C19_small_arrays"
   ],
   "note": "Holds whenever the kernel and the trait implementation of the operator agree (all integer operators except signed //), and for every array below 32768 elements. Refuted for signed // (trunc vs Euclid)."
  },
  {
   "property": "C20",
   "status": "proved",
   "theorems": [
    "C20_wrapping_exact",
    "C20_exact_when_fits",
    "C20_ring",
    "C20_arrays"
   ],
   "note": "both implementations, all widths; arrays with broadcasting on all layouts"
  },
  {
   "property": "C21",
   "status": "partial",
   "theorems": [
    "C21_floor_partial",
    "C21_floor_unsigned",
    "C21_identity",
    "C21_by_zero",
    "C21_floor_refuted",
    "C21_panic_refuted",
    "C21_trait_identity_refuted",
    "C21_trait_floor_refuted",
    "C21_arrays"
   ],
   "note": "Unsigned and same-sign operands floor correctly and a=(a//b)*b+a%b always holds. Refuted for mixed signs (truncation), MIN//-1 panics, trait implementation inconsistent."
  },
  {
   "property": "C22",
   "status": "partial",
   "theorems": [
    "C22_byte_condition_partial",
    "C22_fallback",
    "C22_wide_condition_refuted",
    "C22_negative_zero_refuted"
   ],
   "note": "One-byte conditions on all paths and any condition dtype on the fallback path. Refuted: wide conditions on the strided path (first byte only), -0.0 on the contiguous path."
  },
  {
   "property": "C23",
   "status": "proved",
   "theorems": [
    "C23_lanes_invisible",
    "C23_order_independent",
    "C23_sum",
    "C23_prod",
    "C23_max",
    "C23_min",
    "C23_layout"
   ],
   "note": "Any commutative monoid kernel, any length; integers of every layout and rank; exact for dtypes up to 53 bits, layout independence at every width (64-bit values are returned as doubles: C24)."
  },
  {
   "property": "C24",
   "status": "partial",
   "theorems": [
    "C24_sum_partial",
    "C24_max_partial",
    "C24_min_partial",
    "C24_exact_refuted",
    "C24_max_refuted"
   ],
   "note": "Nearest double always, exact up to 2^53; refuted above (the Python layer returns an f64). Axis reductions are exact (C26)."
  },
  {
   "property": "C25",
   "status": "partial",
   "theorems": [
    "C25_norm_partial",
    "C25_norm_long_refuted",
    "C25_norm_transposed_refuted",
    "C25_norm_strided_refuted"
   ],
   "note": "Exact for fewer than 8 elements on contiguous or 1-D arrays, any arithmetic. Refuted: from 8 elements the lane sums are squared again; non-contiguous arrays of 2 or more dimensions always give 0."
  },
  {
   "property": "C26",
   "status": "partial",
   "theorems": [
    "C26_lanes_only",
    "C26_axis_fold",
    "C26_int_sum",
    "C26_int_max",
    "C26_trait_partial",
    "C26_trait_empty_refuted"
   ],
   "note": "Any kernel: each output is a reduction of exactly its lane, all three traversals; with monoid laws equal to the fold; empty lanes give the identity. Bool/datetime loops leave zeros for empty lanes (refuted)."
  },
  {
   "property": "C27",
   "status": "partial",
   "theorems": [
    "C27_keepdims_partial",
    "C27_keepdims_1d_refuted",
    "C27_keepdims_all"
   ],
   "note": "Rank >= 2: shape and values. 1-D gives (1,1) (refuted)."
  },
  {
   "property": "C28",
   "status": "partial",
   "theorems": [
    "C28_flat",
    "C28_axis",
    "C28_last",
    "C28_diff_cumsum_partial",
    "C28_diff",
    "C28_diff_cumsum_refuted"
   ],
   "note": "Prefix folds for every kernel, layout and axis; last entry is the sum; diff(cumsum) for the flat case; n-D and int8 differences go through f64 and saturate (refuted)."
  },
  {
   "property": "C29",
   "status": "partial",
   "theorems": [
    "C29_all",
    "C29_any",
    "C29_de_morgan",
    "C29_count_nonzero",
    "C29_axis",
    "C29_axis_slow_partial",
    "C29_axis_slow_refuted"
   ],
   "note": "Whole-array, De Morgan, count_nonzero, axis with typed dispatch including empty lanes. int8/datetime: empty lanes of all() are False (refuted)."
  },
  {
   "property": "C30",
   "status": "proved",
   "theorems": [
    "C30_argmax",
    "C30_layout",
    "C30_int_argmax"
   ],
   "note": "Strict weak orders (NaN-free values), all layouts agree, first position."
  },
  {
   "property": "C31",
   "status": "partial",
   "theorems": [
    "C31_axis_partial",
    "C31_strided_refuted",
    "C31_axis_slow"
   ],
   "note": "C-contiguous arrays, contiguous axes and length-1 axes; untyped implementation for every view. Every other view dereferences a data byte as a pointer (refuted, for all such views)."
  },
  {
   "property": "C32",
   "status": "partial",
   "theorems": [
    "C32_sort_partial",
    "C32_sort_flat_partial",
    "C32_sort_int_partial",
    "C32_sort_int64_refuted",
    "C32_sort_flat_strided_refuted"
   ],
   "note": "sort along an axis and flat, all layouts and lane lengths: each lane of the result is a non-decreasing rearrangement, provided items survive read_f64/write_f64 (C32_sort_int_partial discharges this for integers up to 2^53). Refuted without it: int64 values beyond 2^53 are altered (C32_sort_int64_refuted); axis=None on a strided view panics. NaN ordering is not modelled."
  },
  {
   "property": "C33",
   "status": "partial",
   "theorems": [
    "C33_argsort_partial",
    "C33_argsort_flat_partial",
    "C33_unique",
    "C33_argsort_int64_refuted",
    "C33_argsort_flat_fortran_refuted"
   ],
   "note": "argsort returns the unique stable sorting permutation of each lane when the f64 keys order the values as the values themselves (true for integers up to 2^53). Refuted: int64 beyond 2^53; a.argsort() of an F-contiguous array numbers elements in memory order."
  },
  {
   "property": "C34",
   "status": "partial",
   "theorems": [
    "C34_select",
    "C34_kth",
    "C34_partition",
    "C34_argpartition",
    "C34_method_partial",
    "C34_argmethod",
    "C34_method_int64_refuted",
    "C34_method_rows_refuted"
   ],
   "note": "The quickselect loop terminates, stays in bounds and partitions for every list, order and k; numpy-level partition/argpartition along any axis under the documented contract of select_nth_unstable_by (std, hypothesis select_contract); the in-place method under the f64 round trip. Refuted: method alters int64 beyond 2^53; method works on the flattened array of a 2-D array."
  },
  {
   "property": "C35",
   "status": "partial",
   "theorems": [
    "C35_insertion",
    "C35_insertion_mixed_partial",
    "C35_left_unique",
    "C35_right_unique",
    "C35_scalar_int64_refuted"
   ],
   "note": "Left and right insertion points, all layouts; the index is unique; the fuel n suffices, no out-of-range probe. Mixed dtypes: correct for the converted values only; refuted for an int64 array searched for a Python integer (converted to float64)."
  },
  {
   "property": "C36",
   "status": "partial",
   "theorems": [
    "C36_increasing",
    "C36_decreasing_partial",
    "C36_decreasing_ties_refuted",
    "C36_bins_2d_refuted"
   ],
   "note": "Increasing edges: the documented bin, ties included. Decreasing edges: the documented bin when no value equals an edge; with ties the code uses the opposite side (refuted). 2-D bins are accepted and read out of bounds (refuted)."
  },
  {
   "property": "C37",
   "status": "partial",
   "theorems": [
    "C37_unique_partial",
    "C37_unique_all_partial",
    "C37_close_floats_refuted",
    "C37_int64_refuted"
   ],
   "note": "Strictly increasing, same values, inverse rebuilds, index is the first occurrence, counts count and add up, for arrays on which the closeness test separates different values. Refuted: float64 values closer than 2^-52 and int64 values beyond 2^53 are merged."
  },
  {
   "property": "C38",
   "status": "partial",
   "theorems": [
    "C38_set_ops",
    "C38_int_set_ops_partial",
    "C38_isin",
    "C38_int64_refuted",
    "C38_isin_negative_zero_refuted"
   ],
   "note": "All four merges and isin compute the mathematical set on the f64 keys; on the values themselves for integers up to 2^53. Refuted: int64 beyond 2^53; isin distinguishes -0.0 from 0.0."
  },
  {
   "property": "C39",
   "status": "proved",
   "theorems": [
    "C39_lexsort"
   ],
   "note": "Every number of keys, lengths and layouts; order is by last key, then previous keys, then position."
  },
  {
   "property": "C40",
   "status": "partial",
   "theorems": [
    "C40_concatenate_partial",
    "C40_concatenate_mixed_refuted",
    "C40_stack",
    "C40_array_split_partial",
    "C40_pieces_cover",
    "C40_concatenate_split_partial",
    "C40_array_split_refuted",
    "C40_split"
   ],
   "note": "Proved for operands of one dtype and any layout, ranks and lengths, including exactly when concatenate/stack answer an error; array_split/split and the round trip for axes whose stride is not negative. Refuted and hence missing: mixed dtypes (items read with the first operand's item size, out-of-bounds read) and splitting a reversed axis."
  },
  {
   "property": "C41",
   "status": "partial",
   "theorems": [
    "C41_survives_small",
    "C41_repeat_flat_partial",
    "C41_repeat_axis_partial",
    "C41_tile_partial",
    "C41_roll_axis_partial",
    "C41_roll_flat_partial",
    "C41_roll_inverse_partial",
    "C41_int64_refuted",
    "C41_repeat_zero_refuted",
    "C41_tile_ones_refuted",
    "C41_roll_fortran_refuted"
   ],
   "note": "Proved for all shapes, layouts, counts and shifts, for values that survive the f64 round trip (integers up to 2^53). Refuted: int64 beyond 2^53, repeat by 0 along an axis, tile with all-ones longer reps, roll without axis of an F-ordered array."
  },
  {
   "property": "C42",
   "status": "partial",
   "theorems": [
    "C42_tril_triu_partial",
    "C42_split_partial",
    "C42_tri_partial",
    "C42_indices_partial",
    "C42_overflow_refuted"
   ],
   "note": "Proved for every shape, layout and every k with n + k < 2^63. Refuted: k near 2^63 wraps (tril(a, 2^63-1) is all zeros)."
  },
  {
   "property": "C43",
   "status": "partial",
   "theorems": [
    "C43_rot90_partial",
    "C43_quarter_turn_partial",
    "C43_mod4",
    "C43_four_turns",
    "C43_composition_refuted"
   ],
   "note": "k mod 4 and four-turns identity proved for every array; the rotation itself for arrays of any rank whose two axes have non-negative strides. Refuted: rotating a view with negative strides (rot90 composed with itself three times)."
  },
  {
   "property": "C44",
   "status": "partial",
   "theorems": [
    "C44_convolve_partial",
    "C44_commutative_partial",
    "C44_linear_partial",
    "C44_correlate",
    "C44_modes_partial",
    "C44_long_kernel_refuted",
    "C44_empty_refuted"
   ],
   "note": "Proved over any commutative ring for the direct method; the FFT path (n*m > 500000) is covered only under the hypothesis that it computes the same list. 'same'/'valid' for kernels not longer than the data; refuted for longer kernels and for two empty operands."
  },
  {
   "property": "C45",
   "status": "partial",
   "theorems": [
    "C45_insert_partial",
    "C45_delete_partial",
    "C45_delete_insert_partial",
    "C45_insert_axis_partial",
    "C45_delete_axis_partial",
    "C45_append",
    "C45_append_axis",
    "C45_insert_negative_refuted",
    "C45_insert_empty_refuted",
    "C45_delete_range_refuted",
    "C45_delete_reversed_refuted"
   ],
   "note": "insert/delete/append as list edits and delete-after-insert = identity for every vector view and position 0..n (delete also negative). Refuted: negative insert positions are off by one, insert into an empty vector with axis panics, out-of-range delete is silently ignored or deletes element 0, axis variant on reversed vectors."
  },
  {
   "property": "C46",
   "status": "partial",
   "theorems": [
    "C46_take_partial",
    "C46_take_fresh_packed",
    "C46_take_expanded_refuted",
    "C46_take_overrun_refuted",
    "C46_take_flat_refuted",
    "C46_mask",
    "C46_compress_flat",
    "C46_compress_axis",
    "C46_rows_partial",
    "C46_rows_empty_refuted",
    "C46_rows_shape_refuted"
   ],
   "note": "take with an axis, boolean masks, compress (flat and axis) and a[index array]. take needs a first stride equal to one row when the C flag is set; the code copies strides[0] bytes, refuted for expand_dims and strided single rows. a[index array] needs non-empty rows (refuted). take without axis uses axis 0 (refuted against flattening)."
  },
  {
   "property": "C47",
   "status": "partial",
   "theorems": [
    "C47_flatnonzero",
    "C47_positions",
    "C47_argwhere_partial",
    "C47_nonzero_partial",
    "C47_agree",
    "C47_argwhere_0d_refuted",
    "C47_nonzero_complex_refuted"
   ],
   "note": "flatnonzero, argwhere, nonzero, count_nonzero for every layout. argwhere of a 0-d array has shape (1,1) (refuted); nonzero tests with read_f64, which is zero for complex (refuted)."
  },
  {
   "property": "C48",
   "status": "partial",
   "theorems": [
    "C48_put_partial",
    "C48_last_wins",
    "C48_put_int64_refuted",
    "C48_put_empty_refuted",
    "C48_put_broadcast_refuted"
   ],
   "note": "put for every layout without aliasing positions, values unchanged by double precision, at least one value. Refuted: int64 above 2^53, empty values panic, broadcast views."
  },
  {
   "property": "C49",
   "status": "partial",
   "theorems": [
    "C49_unravel_partial",
    "C49_unravel_reject_partial",
    "C49_positions",
    "C49_ravel_partial",
    "C49_ravel_modes_partial",
    "C49_roundtrip_partial",
    "C49_overflow_refuted",
    "C49_degenerate_refuted",
    "C49_index_array_partial",
    "C49_index_array_strided_refuted"
   ],
   "note": "unravel_index and ravel_multi_index in both orders, all three modes, for shapes of fewer than 2^63 elements with at least one dimension; round trip both ways; rejection. Refuted: larger shapes (wrapped size), no dimensions and clip/wrap on an empty dimension panic, strided index arrays are read as contiguous."
  },
  {
   "property": "C50",
   "status": "proved",
   "theorems": [
    "C50_packbits",
    "C50_unpackbits",
    "C50_packbits_axis",
    "C50_unpackbits_axis",
    "C50_packed_unique",
    "C50_unpack_pack",
    "C50_pack_unpack",
    "C50_axis_out_of_range"
   ],
   "note": "Flat and axis versions for every layout, both bit orders, any count; round trips both ways (if the results fit in the address space); padding is zero. unpackbits is modelled for uint8 arrays."
  },
  {
   "property": "C51",
   "status": "proved",
   "theorems": [
    "C51_step_bijective",
    "C51_full_period",
    "C51_equidistributed",
    "C51_resume"
   ],
   "note": "Step is a bijection for every increment; period exactly 2^128 and a single orbit for odd increments; for every lower half the output is a bijection of the upper half; streams resume. Stated for the numpy-compatible generator written in this repository (from_numpy_state); the seeded one is in the rand_pcg crate."
  },
  {
   "property": "C52",
   "status": "proved",
   "theorems": [
    "C52_unit_interval",
    "C52_even"
   ],
   "note": "Against SpecFloat's binary64 multiplication, for every source of 64-bit numbers; each of the 2^53 values comes from exactly 2^11 inputs."
  },
  {
   "property": "C53",
   "status": "partial",
   "theorems": [
    "C53_in_range",
    "C53_uniform",
    "C53_restart",
    "C53_terminates",
    "C53_integers_partial",
    "C53_integers_refuted",
    "C53_empty_range_refuted"
   ],
   "note": "bounded_uint64: in range, exactly floor(2^64/r) accepted inputs per value, a rejected input restarts the draw, and the loop ends from every state of the PCG64 generator with odd increment. integers(low, high) for -2^53 <= low < high <= 2^53; beyond, values are rounded through binary64 and high itself can be returned (refuted). An empty range is not rejected (refuted)."
  },
  {
   "property": "C54",
   "status": "partial",
   "theorems": [
    "C54_permutes",
    "C54_bijection",
    "C54_generator",
    "C54_permutation_partial",
    "C54_shuffle_partial",
    "C54_shuffle_strided_refuted",
    "C54_permutation_array_refuted"
   ],
   "note": "shuffle_data permutes, every order of distinct entries arises from exactly one sequence of draws, and the generator supplies such sequences. permutation(n) for n <= 2^53. shuffle(a) for C-contiguous arrays with 8-byte items; strided views are refuted (elements outside the view move). permutation(array) rounds int64 values through binary64 (refuted)."
  },
  {
   "property": "C55",
   "status": "partial",
   "theorems": [
    "C55_epoch",
    "C55_next_partial",
    "C55_valid_partial",
    "C55_round_trip_partial",
    "C55_date_round_trip_partial",
    "C55_count_partial",
    "C55_end_refuted"
   ],
   "note": "Proved for every day number but the last 719468 of i64: the epoch, each next day is the calendar's next day, validity, both round trips, and agreement with the day count of the specification. At the far end the code's arithmetic wraps (refuted)."
  },
  {
   "property": "C56",
   "status": "partial",
   "theorems": [
    "C56_convert_partial",
    "C56_round_trip",
    "C56_nat",
    "C56_before_1970_refuted",
    "C56_year_refuted",
    "C56_overflow_refuted",
    "C56_early_months_refuted"
   ],
   "note": "Proved: the result is the tick containing the instant, for values from 1970 on and for exact conversions before, for every pair of units; round trips. Refuted: before 1970 an inexact conversion lands one tick late (general statement for fixed-length units), overflow wraps, February of years before 0."
  },
  {
   "property": "C57",
   "status": "partial",
   "theorems": [
    "C57_kept_partial",
    "C57_only_partial",
    "C57_arithmetic_refuted",
    "C57_path_refuted",
    "C57_compare_refuted",
    "C57_max_refuted"
   ],
   "note": "Proved: conversion, text, business-day functions and arithmetic with a supplied result keep NaT. Refuted: the ordinary arithmetic path has no NaT test, comparisons order NaT, max ignores it."
  },
  {
   "property": "C58",
   "status": "partial",
   "theorems": [
    "C58_idempotent",
    "C58_commutative_partial",
    "C58_numeric",
    "C58_represents_partial",
    "C58_close",
    "C58_least_partial",
    "C58_result_type",
    "C58_grouping_refuted",
    "C58_datetime_refuted",
    "C58_string_refuted"
   ],
   "note": "Proved for numeric dtypes: commutative, idempotent, represents both operands exactly (64-bit integers up to one part in 2^52), least among integer dtypes, result_type of any list. Refuted: datetime, timedelta and string dtypes give the first operand's dtype; three or more dtypes depend on the order."
  },
  {
   "property": "C59",
   "status": "partial",
   "theorems": [
    "C59_polyval",
    "C59_derivative",
    "C59_linear",
    "C59_product_rule",
    "C59_integral",
    "C59_constants",
    "C59_constant_order_refuted"
   ],
   "note": "polyval on every layout; derivative by coefficients, by first-order expansion, linear, product rule for convolve; polyder(polyint(p,m,k),m) = p over any field of characteristic 0; the constants end in the reverse of NumPy's order and a scalar constant is not repeated (refuted). f64 operations are those of a field; polyfit not modelled."
  },
  {
   "property": "C60",
   "status": "partial",
   "theorems": [
    "C60_bincount",
    "C60_bincount_other",
    "C60_histogram_total",
    "C60_histogram_auto",
    "C60_bin_edges",
    "C60_histogram2d",
    "C60_histogramdd_partial",
    "C60_histogram_bins_partial",
    "C60_edge_refuted",
    "C60_constant_refuted",
    "C60_nan_refuted"
   ],
   "note": "bincount in full for integer dtypes; histogram totals for any arithmetic, bin contents for exact arithmetic; in doubles a sample equal to an edge can be counted in the bin below it, constant data gives coinciding edges, histogramdd counts NaN (refuted)."
  },
  {
   "property": "C61",
   "status": "partial",
   "theorems": [
    "C61_product_partial",
    "C61_exact_partial",
    "C61_associative_partial",
    "C61_transpose_partial",
    "C61_identity_partial",
    "C61_vector_matrix",
    "C61_matrix_vector",
    "C61_vector_vector_partial",
    "C61_refuted_scalar_shape",
    "C61_bool",
    "C61_ring",
    "C61_refuted_small",
    "C61_refuted_mixed",
    "C61_mismatch",
    "C61_stack_partial",
    "C61_stack_refuted_left_aligned",
    "C61_stack_refuted_reversed",
    "C61_stack_refuted_squeeze"
   ],
   "note": "For int64 and int32 operands of any layout the model of matmul returns the textbook sum modulo the width (C61_product_partial), from which associativity, the transpose law and the identity law follow; vectors, booleans (exists-and) and stacks of matrices likewise; float and complex kinds over any commutative ring (rounding of faer not modelled). Shape mismatches are errors. Refuted: int8/int16/unsigned dtypes return zeros, mixed dtypes reinterpret memory, 1-D @ 1-D has shape (1,), batch axes are left-aligned, reversed batch axes are clamped, size-1 batch axes are dropped with a 1-D operand."
  },
  {
   "property": "C62",
   "status": "partial",
   "theorems": [
    "C62_accepts",
    "C62_resolved",
    "C62_rejects",
    "C62_one_size_per_name",
    "C62_core_partial",
    "C62_call",
    "C62_core_refuted_left_aligned",
    "C62_core_refuted_reversed",
    "C62_parse",
    "C62_parse_balanced"
   ],
   "note": "Acceptance is exactly the existence of sizes and loop axes that fit the signature, the result is determined by them, anything else is an error for every kernel; the call theorem turns a per-position kernel specification into one for the whole result. The sub-array handed to the kernel is the broadcast one when loop ranks agree and strides are non-negative (C62_core_partial); left alignment and clamped negative offsets are refuted."
  },
  {
   "property": "C63",
   "status": "partial",
   "theorems": [
    "C63_segment",
    "C63_knots",
    "C63_outside",
    "C63_between",
    "C63_affine",
    "C63_monotone",
    "C63_array",
    "C63_rejects",
    "C63_left_refuted",
    "C63_double_knots_partial",
    "C63_double_knots_refuted"
   ],
   "note": "Proved over exact rationals for every strictly increasing knot vector and every layout of the three arrays: the value on a segment is the chord, exact at knots, clamped outside, between neighbouring values, exact for straight lines, monotone. In double precision the knot value is exact unless a difference of neighbouring fp overflows (refuted: NaN at a knot). An explicit left value replaces fp[0] at x = xp[0] (refuted)."
  },
  {
   "property": "C64",
   "status": "partial",
   "theorems": [
    "C64_infer_partial",
    "C64_unique",
    "C64_explicit",
    "C64_rejects",
    "C64_overflow_refuted"
   ],
   "note": "Exact accept condition, element count and uniqueness for known products below 2^64; wrap-around refuted with 274177*67280421310721."
  },
  {
   "property": "C65",
   "status": "proved",
   "theorems": [
    "C65_flat_index",
    "C65_flat_iterates"
   ],
   "note": "get_flat_element's mixed-radix decoding and the iterator, for every well-formed view"
  },
  {
   "property": "C66",
   "status": "partial",
   "theorems": [
    "C66_power_partial",
    "C66_power_narrow",
    "C66_power_wide_refuted"
   ],
   "note": "Exact for exponents below 2^32 (all of them for dtypes up to 32 bits); 64-bit exponents are truncated to 32 bits (refuted)."
  },
  {
   "property": "C67",
   "status": "partial",
   "theorems": [
    "C67_pad_constant_partial",
    "C67_pad_edge_partial",
    "C67_pad_edge_empty_refuted",
    "C67_pad_int64_refuted"
   ],
   "note": "Both modes proved for every rank and width, for values that survive the f64 round trip and (edge) non-empty axes. Refuted: edge mode with an empty axis reads out of bounds; int64 values beyond 2^53 are rounded."
  },
  {
   "property": "C68",
   "status": "proved",
   "theorems": [
    "C68_diagflat"
   ],
   "note": "Full statement."
  },
  {
   "property": "C69",
   "status": "partial",
   "theorems": [
    "C69_take_along_axis",
    "C69_take_along_axis_mismatch",
    "C69_choose_partial",
    "C69_choose_broadcast_refuted",
    "C69_put_along_axis_partial",
    "C69_put_along_axis_partial_write_refuted"
   ],
   "note": "take_along_axis fully (error cases included), choose for equal shapes and one dtype, put_along_axis when all indices are in range; the partial write on a bad index is refuted, and so is broadcasting in choose."
  },
  {
   "property": "C70",
   "status": "proved",
   "theorems": [
    "C70_distinct",
    "C70_bijection",
    "C70_generator",
    "C70_too_many"
   ],
   "note": "choice with p=None."
  },
  {
   "property": "C71",
   "status": "partial",
   "theorems": [
    "C71_total_partial",
    "C71_total_refuted",
    "C71_empty_refuted"
   ],
   "note": "For totals up to 2^53 and any binomial sampler that stays within 0..n (the sampler is rand_distr's); larger totals are stored rounded (refuted), no categories panics (refuted)."
  },
  {
   "property": "C72",
   "status": "partial",
   "theorems": [
    "C72_arithmetic_partial",
    "C72_difference",
    "C72_units_refuted",
    "C72_difference_units_refuted"
   ],
   "note": "Proved for operands of one fixed-length unit without overflow, and a + (b - a) = b for all i64 values. Refuted for differing units."
  },
  {
   "property": "C73",
   "status": "partial",
   "theorems": [
    "C73_exact_partial",
    "C73_order_partial",
    "C73_equal_refuted",
    "C73_less_refuted"
   ],
   "note": "Proved when the second operand is exactly representable in the first one's unit, and for <= from 1970 on. Refuted: == is not symmetric, < fails."
  },
  {
   "property": "C74",
   "status": "partial",
   "theorems": [
    "C74_round_trip_partial",
    "C74_nat",
    "C74_injective_partial",
    "C74_micro_refuted",
    "C74_nano_refuted",
    "C74_negative_year_refuted"
   ],
   "note": "Proved for years 0 and later and units down to milliseconds (all thousandths through a double, by computation). Refuted: microseconds 249, nanoseconds 15, negative years."
  },
  {
   "property": "C75",
   "status": "partial",
   "theorems": [
    "C75_day",
    "C75_count_partial",
    "C75_count_splits_partial",
    "C75_reversed_refuted",
    "C75_forward",
    "C75_inverse",
    "C75_no_business_day_refuted"
   ],
   "note": "Proved: membership, counting, splitting, stepping forward with termination, inverse. Refuted: a reversed range counts 0; an empty weekmask never ends."
  },
  {
   "property": "C76",
   "status": "partial",
   "theorems": [
    "C76_safe_partial",
    "C76_preorder",
    "C76_promote",
    "C76_same_kind",
    "C76_same_kind_class",
    "C76_same_kind_up_refuted",
    "C76_complex_refuted"
   ],
   "note": "Proved with value sets given by explicit ranges and binary formats (finite values), and that same-kind casting never goes to a lower class (bool, integer, float, complex). Refuted: 32/64-bit integers to complex64 and 64-bit integers to complex128 are called safe; a cast up to a higher class is not always same-kind."
  },
  {
   "property": "C77",
   "status": "partial",
   "theorems": [
    "C77_linear",
    "C77_quadratic_partial",
    "C77_constant",
    "C77_complex_refuted"
   ],
   "note": "Over any field with exact zero test and square roots of its squares; complex roots are not returned and tiny leading coefficients are dropped (refuted). Degree 3 and more (QR iteration) not modelled."
  },
  {
   "property": "C78",
   "status": "partial",
   "theorems": [
    "C78_dot_partial",
    "C78_dot_exact_partial",
    "C78_dot_int_partial",
    "C78_inner_partial",
    "C78_inner_dot",
    "C78_outer_partial",
    "C78_vdot",
    "C78_rejects",
    "C78_dot_int_refuted",
    "C78_inner_int_refuted",
    "C78_inner_narrow_refuted",
    "C78_outer_strided_refuted",
    "C78_outer_transposed_refuted",
    "C78_scalar_dot_refuted"
   ],
   "note": "Formulas proved for every length and layout: dot and vdot for all dtypes (values read as doubles), inner over stacks and outer for float64 (operands of outer C-contiguous), lengths that differ refused. Refuted: int64 dot rounds through doubles; inner/outer store double bit patterns into int64 results and write past narrower ones; outer refuses strided vectors and lists transposed matrices in memory order; dot of two 0-d arrays has shape (1,)."
  },
  {
   "property": "C79",
   "status": "partial",
   "theorems": [
    "C79_power_partial",
    "C79_negative_partial",
    "C79_power_adds",
    "C79_multi_dot",
    "C79_rejects",
    "C79_power_refuted_int"
   ],
   "note": "matrix_power over float64 matrices with entries in any commutative ring: equals the n-fold product for all 0 <= n < 2^63 (binary exponentiation loop invariant), powers add up, negative exponents go through the inverse (an argument); multi_dot is the left-nested product of any chain. Refuted for integer matrices (float64 identity times integer bytes)."
  },
  {
   "property": "C80",
   "status": "partial",
   "theorems": [
    "C80_kron_partial",
    "C80_mixed_product",
    "C80_cross",
    "C80_cross_laws",
    "C80_cross_rejects",
    "C80_tensordot_partial",
    "C80_kron_mixed_rank_refuted",
    "C80_tensordot_axes0_refuted",
    "C80_tensordot_default_refuted"
   ],
   "note": "kron entry formula for vectors and matrices of every dtype and layout, mixed-product law over commutative rings, cross formula and laws, tensordot over one axis proved. Refuted: kron of a vector and a matrix panics unless both are contiguous float64; tensordot with axes=0 on vectors is not the outer product; the default axes=2 is refused for matrices; full contraction has shape (1,). Operands of more than two dimensions are refused by the code."
  },
  {
   "property": "C81",
   "status": "partial",
   "theorems": [
    "C81_coordinates",
    "C81_spacing",
    "C81_bad_axis",
    "C81_affine",
    "C81_linear",
    "C81_split",
    "C81_reverse",
    "C81_uniform",
    "C81_wrong_length_refuted",
    "C81_vector_shape_refuted"
   ],
   "note": "Trapezoidal sum of every lane for every layout, axis and arithmetic; affine exactness, linearity, additivity, reversal and dx/x agreement over any commutative ring containing one half. Refuted: coordinates of the wrong length are ignored instead of refused; the integral of a vector has shape (1,)."
  },
  {
   "property": "C82",
   "status": "partial",
   "theorems": [
    "C82_vector",
    "C82_row_major_partial",
    "C82_default_spacing",
    "C82_coordinates_partial",
    "C82_rejects",
    "C82_affine",
    "C82_parabola",
    "C82_affine_coordinates",
    "C82_linear",
    "C82_uneven_refuted",
    "C82_narrow_refuted",
    "C82_reversed_refuted",
    "C82_transposed_refuted"
   ],
   "note": "Correct for vectors of any layout and for row-major arrays of 8-byte items of any rank; exact for straight lines (and parabolas inside, uniform spacing). Refuted: narrower element types, reversed and transposed arrays (results are written at the source's byte offsets, possibly outside the buffer); unevenly spaced coordinates use a first-order formula."
  },
  {
   "property": "C83",
   "status": "partial",
   "theorems": [
    "C83_accepted_partial",
    "C83_reading",
    "C83_unambiguous",
    "C83_rejected",
    "C83_repeated_output_refuted"
   ],
   "note": "Acceptance is characterised exactly; a result letter that occurs twice is accepted (NumPy refuses it), refuted."
  },
  {
   "property": "C84",
   "status": "partial",
   "theorems": [
    "C84_one_partial",
    "C84_products_partial",
    "C84_matrices_partial",
    "C84_blocks_partial",
    "C84_order_refuted",
    "C84_double_contraction_refuted",
    "C84_shared_refuted",
    "C84_lonely_refuted",
    "C84_repeated_refuted",
    "C84_empty_refuted",
    "C84_batch_refuted",
    "C84_integers_refuted"
   ],
   "note": "Proved on float64 over exact arithmetic: one operand in every layout unless a result letter is repeated in the operand while another is summed; element products in every layout; one summed letter between vectors/matrices in every layout and transposition; block contraction on C-contiguous operands. Refuted: permuted results, double contraction with crossed letters, letters shared with the result, letters of one operand only, repeated letters, empty summed axis, one-batch products, integer outer products."
  },
  {
   "property": "C85",
   "status": "partial",
   "theorems": [
    "C85_chain_partial",
    "C85_letters_refuted"
   ],
   "note": "Proved for matrix chains of any length with increasing letters; refuted for other letter names (intermediate axes are sorted)."
  },
  {
   "property": "C86",
   "status": "partial",
   "theorems": [
    "C86_roundtrip_partial",
    "C86_stable_partial",
    "C86_fortran_scrambled",
    "C86_fortran_refuted",
    "C86_strings_refuted"
   ],
   "note": "Proved for row-major data (every layout whose file is written as row-major) and every dtype but strings. False for column-major arrays: the header says fortran_order True but the bytes are those of a row-major copy, so the loaded array is scrambled (C86_fortran_scrambled says exactly how, C86_fortran_refuted is a witness). Strings: dtype code '<U4' is read back with width 4 code units, elements lost (C86_strings_refuted)."
  },
  {
   "property": "C87",
   "status": "partial",
   "theorems": [
    "C87_format_partial",
    "C87_aligned_partial",
    "C87_alignment_refuted",
    "C87_newline_refuted"
   ],
   "note": "Format proved for arrays not saved as column-major; alignment proved for version 1. Refuted: version 2 headers are aligned for a 10-byte prefix but have 12 bytes; when no padding is needed the final newline is missing."
  },
  {
   "property": "C88",
   "status": "partial",
   "theorems": [
    "C88_truncated_partial",
    "C88_trailing_partial",
    "C88_strings_refuted"
   ],
   "note": "Proved for all dtypes except strings and all crash points; strings refuted."
  },
  {
   "property": "C89",
   "status": "partial",
   "theorems": [
    "C89_tobytes",
    "C89_frombuffer",
    "C89_fromfile",
    "C89_roundtrip",
    "C89_back",
    "C89_leftover_refuted",
    "C89_width_refuted"
   ],
   "note": "All layouts, counts and offsets. Leftover bytes are dropped silently (NumPy raises) and a zero-width dtype divides by zero: both stated as refutations."
  },
  {
   "property": "C90",
   "status": "partial",
   "theorems": [
    "C90_archive_partial",
    "C90_lookup_partial",
    "C90_no_overwrite",
    "C90_name_refuted",
    "C90_lost_refuted"
   ],
   "note": "Proved for names not ending in .npy; no two members ever share a name, so nothing is overwritten inside the archive. The zip container is assumed to return the members it was given. Refuted: a name ending in .npy is changed, and two names that differ by the suffix collide so that an array is lost."
  },
  {
   "property": "C91",
   "status": "partial",
   "theorems": [
    "C91_memory_partial",
    "C91_overflow_refuted"
   ],
   "note": "Proved when the byte count does not overflow; refuted otherwise: the product of the header's sizes wraps around and the array reaches outside its buffer (release build)."
  },
  {
   "property": "C92",
   "status": "proved",
   "theorems": [
    "C92_reads"
   ],
   "note": "String dtypes excluded; text in the header outside ASCII not modelled."
  },
  {
   "property": "C93",
   "status": "partial",
   "theorems": [
    "C93_dtype_partial",
    "C93_array_partial",
    "C93_mixed_refuted",
    "C93_ragged_refuted",
    "C93_uint64_refuted",
    "C93_saturates_refuted"
   ],
   "note": "Proved for rectangular nested lists of any depth whose numbers fit the dtype (given or inferred from a single Python type). Refuted: mixed int/float lists truncate, ragged and mixed-depth lists are accepted, uint64 values from 2^63 on are rounded, integers beyond int64 saturate. String, bytes, datetime and complex lists are not modelled."
  },
  {
   "property": "C94",
   "status": "partial",
   "theorems": [
    "C94_tolist_partial",
    "C94_roundtrip_partial",
    "C94_back_partial",
    "C94_bool_refuted",
    "C94_uint64_refuted"
   ],
   "note": "Proved for every well-formed view of integer (values within int64) and float64 arrays; both round trips. Refuted: bool arrays come back as floats, large uint64 values come back negative."
  },
  {
   "property": "C95",
   "status": "partial",
   "theorems": [
    "C95_arange_partial",
    "C95_default_partial",
    "C95_float_refuted",
    "C95_precision_refuted",
    "C95_zero_step_refuted",
    "C95_overflow_refuted"
   ],
   "note": "Proved for all integers below 2^53 in binary64 arithmetic (SpecFloat): the rounded quotient has the right ceiling. Refuted: float arguments without dtype, integers beyond 2^53, zero step, size overflow."
  },
  {
   "property": "C96",
   "status": "partial",
   "theorems": [
    "C96_linspace_partial",
    "C96_length",
    "C96_first_partial",
    "C96_endpoint_refuted",
    "C96_integer_refuted"
   ],
   "note": "Proved exactly when the spacing is an integer, plus length and first element for any floats. Refuted: linspace(0,1,50) does not end at 1; integer dtypes truncate toward zero."
  },
  {
   "property": "C97",
   "status": "partial",
   "theorems": [
    "C97_full_partial",
    "C97_precision_refuted"
   ],
   "note": "Proved for integers below 2^53. Refuted beyond."
  },
  {
   "property": "C98",
   "status": "partial",
   "theorems": [
    "C98_meshgrid_partial",
    "C98_ix_partial",
    "C98_ix_cross",
    "C98_grid",
    "C98_strided_refuted"
   ],
   "note": "Proved for contiguous inputs (what the Python layer builds from lists, ranges and whole arrays); C98_strided_refuted: x[::2] makes meshgrid fail and ix_ panic, because both reshape without copying. Mixed dtypes between meshgrid inputs are not modelled (each output keeps its input's dtype)."
  },
  {
   "property": "C99",
   "status": "partial",
   "theorems": [
    "C99_ndindex_partial",
    "C99_overflow_refuted",
    "C99_ndenumerate_partial",
    "C99_ndenumerate_refuted",
    "C99_indices"
   ],
   "note": "ndindex up to 2^64 index tuples (C99_overflow_refuted beyond), ndenumerate of integers below 2^53 (C99_ndenumerate_refuted: larger ones are rounded because elements are read as binary64), indices in full."
  },
  {
   "property": "C100",
   "status": "partial",
   "theorems": [
    "C100_matrix_partial",
    "C100_diagonal",
    "C100_cube_partial",
    "C100_strided_refuted",
    "C100_reversed_refuted",
    "C100_empty_refuted",
    "C100_unequal_refuted"
   ],
   "note": "Proved for contiguous val that does not share memory with a. Refuted: strided val is read with the wrong stride, reversed val is read outside its buffer, empty val panics, unequal axis lengths are accepted for three or more axes."
  },
  {
   "property": "C101",
   "status": "partial",
   "theorems": [
    "C101_range_partial",
    "C101_points_partial",
    "C101_float_step_refuted",
    "C101_diverges_refuted",
    "C101_endpoint_refuted"
   ],
   "note": "Proved for integers below 2^51 and integer spacing. Refuted: a float step is truncated to an integer (0.5 gives an empty range), starting at 2^53 the loop never ends, n*1j does not always end at stop."
  },
  {
   "property": "C102",
   "status": "proved",
   "theorems": [
    "C102_eye",
    "C102_diag_indices"
   ],
   "note": "Proved in full; diag_indices for n up to 2^53, beyond which no such array can be allocated."
  },
  {
   "property": "C103",
   "status": "partial",
   "theorems": [
    "C103_array_partial",
    "C103_contiguous_partial",
    "C103_fortran_partial",
    "C103_require_partial",
    "C103_copy_refuted",
    "C103_owndata_refuted",
    "C103_both_refuted",
    "C103_zero_d_refuted",
    "C103_large_refuted"
   ],
   "note": "Elements and layout proved for integer, bool and float64 dtypes (conversion exact for integers below 2^53, same dtype exact always). Refuted: array(a) aliases a, require ignores 'O' and mishandles 'CF', a 0-d array stays 0-d, int64 to uint64 goes through binary64."
  },
  {
   "property": "C104",
   "status": "partial",
   "theorems": [
    "C104_copyto_partial",
    "C104_contiguous",
    "C104_rejects",
    "C104_large_refuted",
    "C104_overlap_refuted",
    "C104_reverse_refuted",
    "C104_casting_refuted"
   ],
   "note": "Proved for src and mask that do not touch dst's elements (also views of the same buffer). Refuted: same-dtype strided copies round integers from 2^53 on, overlapping contiguous memory is undefined behaviour, overlapping strided copies read overwritten elements, the casting rule is not checked."
  },
  {
   "property": "C105",
   "status": "partial",
   "theorems": [
    "C105_round_trip_partial",
    "C105_import_partial",
    "C105_dtype_refuted",
    "C105_bytes_refuted",
    "C105_byte_order_refuted",
    "C105_string_refuted"
   ],
   "note": "Round trip for every layout and all fixed-size dtypes, import for every dictionary without a requested dtype. Refuted: a requested dtype reinterprets the bytes (and reads outside the exporter's memory), byte order is ignored, strings come back empty."
  },
  {
   "property": "C106",
   "status": "partial",
   "theorems": [
    "C106_case_partial",
    "C106_laws",
    "C106_upper_refuted"
   ],
   "note": "Partial: proved for characters whose case mapping is one character; refuted for the sharp s (several characters are dropped to the original)."
  },
  {
   "property": "C107",
   "status": "partial",
   "theorems": [
    "C107_strip_partial",
    "C107_chars_refuted",
    "C107_space_refuted"
   ],
   "note": "Partial: without chars argument and without U+001C..U+001F; refuted: chars is ignored, U+001F is not white space."
  },
  {
   "property": "C108",
   "status": "partial",
   "theorems": [
    "C108_find_partial",
    "C108_index_partial",
    "C108_start_refuted"
   ],
   "note": "Partial: without start/end; refuted: start is ignored."
  },
  {
   "property": "C109",
   "status": "partial",
   "theorems": [
    "C109_endswith",
    "C109_startswith_partial",
    "C109_startswith_refuted",
    "C109_overrun_refuted"
   ],
   "note": "endswith proved in full; startswith for prefixes that fit the width; refuted: longer prefixes read the next element, or past the end of the buffer."
  },
  {
   "property": "C110",
   "status": "partial",
   "theorems": [
    "C110_count_partial",
    "C110_replace_partial",
    "C110_empty_refuted"
   ],
   "note": "Partial: start/end ignored by count, empty old not inserted by replace (refuted)."
  },
  {
   "property": "C111",
   "status": "proved",
   "theorems": [
    "C111_partition",
    "C111_rejects",
    "C111_join"
   ],
   "note": "Proved in full, for every view."
  },
  {
   "property": "C112",
   "status": "partial",
   "theorems": [
    "C112_justify_partial",
    "C112_center_refuted",
    "C112_view_refuted",
    "C112_overrun_refuted"
   ],
   "note": "Partial: C-contiguous arrays; refuted on views (wrong elements, reads outside the buffer) and for center with odd width."
  },
  {
   "property": "C113",
   "status": "partial",
   "theorems": [
    "C113_add_partial",
    "C113_unary_partial",
    "C113_broadcast_refuted",
    "C113_view_refuted"
   ],
   "note": "Partial: C-contiguous arrays of equal shapes; refuted: no broadcasting, wrong elements on views."
  },
  {
   "property": "C114",
   "status": "partial",
   "theorems": [
    "C114_compare_partial",
    "C114_order",
    "C114_view_refuted",
    "C114_dtype_refuted"
   ],
   "note": "Partial: C-contiguous arrays; refuted on views; arrays that are not strings compare equal."
  },
  {
   "property": "C115",
   "status": "partial",
   "theorems": [
    "C115_letters",
    "C115_digits_partial",
    "C115_digits_refuted",
    "C115_space_refuted",
    "C115_after_case"
   ],
   "note": "Letters proved in full for every view relative to Unicode tables; digits and white space for ASCII; refuted for other digits and U+001C."
  },
  {
   "property": "C116",
   "status": "partial",
   "theorems": [
    "C116_array_partial",
    "C116_str_len",
    "C116_dtype_refuted",
    "C116_nul_refuted"
   ],
   "note": "Partial: strings without NUL; dtype 'str' loses every string, text after a NUL is lost (refuted)."
  },
  {
   "property": "C117",
   "status": "partial",
   "theorems": [
    "C117_extract_partial",
    "C117_place_partial",
    "C117_putmask_partial",
    "C117_place_extract_partial",
    "C117_conditions_refuted"
   ],
   "note": "Masks of one byte per element, values of the destination's dtype stored elsewhere or in disjoint cells, dtypes of the typed list. Refuted: conditions of other dtypes are read byte by byte, complex elements become 0, untyped dtypes on contiguous operands are not assigned, mixed dtypes over-read, overlapping values are read after being overwritten, empty values are accepted."
  },
  {
   "property": "C118",
   "status": "partial",
   "theorems": [
    "C118_select_partial",
    "C118_rejects",
    "C118_piecewise_partial",
    "C118_select_refuted"
   ],
   "note": "Conditions and choices of one shape and dtype. Refuted: no broadcasting (index out of bounds), mixed dtypes over-read, with overlapping conditions piecewise lets the first win where NumPy lets the last win."
  },
  {
   "property": "C119",
   "status": "partial",
   "theorems": [
    "C119_resize",
    "C119_trim_zeros_partial",
    "C119_trim_rejects",
    "C119_trim_zeros_refuted",
    "C119_ediff1d_partial",
    "C119_ediff1d_sums",
    "C119_ediff1d_refuted"
   ],
   "note": "resize in full. trim_zeros for non-negative strides (refuted: reversed views fault). ediff1d for edges of the array's dtype (refuted: others over-read)."
  },
  {
   "property": "C120",
   "status": "partial",
   "theorems": [
    "C120_unstack_partial",
    "C120_unstack_rejects",
    "C120_stack_unstack_partial",
    "C120_unstack_refuted",
    "C120_block_partial",
    "C120_block_refuted"
   ],
   "note": "unstack for non-negative strides along the axis (refuted otherwise). block for two-level grids of matrices of one dtype (refuted: one level of matrices stacks the wrong way, nested 1-D arrays lose a dimension)."
  },
  {
   "property": "C121",
   "status": "partial",
   "theorems": [
    "C121_unwrap_partial",
    "C121_idempotent_partial",
    "C121_half_period_refuted"
   ],
   "note": "Exact arithmetic in place of f64 rounding. Refuted: a step of an odd multiple of half a period upwards becomes a step down."
  },
  {
   "property": "C122",
   "status": "partial",
   "theorems": [
    "C122_along_numbers_partial",
    "C122_along_arrays_partial",
    "C122_along_last_identity_partial",
    "C122_along_axis_error",
    "C122_over_axes_partial",
    "C122_axis_position_refuted",
    "C122_single_element_refuted",
    "C122_ragged_refuted",
    "C122_integer_results_refuted",
    "C122_large_integers_refuted",
    "C122_over_axes_refuted"
   ],
   "note": "Proved for an arbitrary function, with its calls recorded: one call per lane in row-major order, numbers and arrays of one shape land at their lane, the identity along the last axis gives the array back, axis errors, apply_over_axes equals the fold of the axis-keeping reduction. Refuted: result axes go to the end instead of the axis position (identity along axis 0 transposes); a one-element array result loses its axis; results of different lengths are accepted if the total fits; results are stored in the input's integer dtype (a mean of 1.5 becomes 1); integers beyond 2^53 reach the function changed; apply_over_axes accepts a result short of two axes."
  },
  {
   "property": "C123",
   "status": "partial",
   "theorems": [
    "C123_broadcast",
    "C123_vectorize",
    "C123_vectorize_mismatch",
    "C123_vectorize_scalars",
    "C123_frompyfunc_partial",
    "C123_frompyfunc_nin",
    "C123_signature_partial",
    "C123_signature_bounds_refuted",
    "C123_signature_mismatch_refuted",
    "C123_signature_empty_refuted",
    "C123_otypes_refuted",
    "C123_frompyfunc_0d_refuted",
    "C123_frompyfunc_items_refuted"
   ],
   "note": "Proved for arbitrary functions with recorded calls: the broadcast shape is the joint shape and an error otherwise; vectorize passes each array's element and each other argument in its own position; frompyfunc's columns; the signature form for equal loop shapes. Refuted: the signature form reads outside the second operand for loop shapes (2,) and (1,), accepts loop shapes (2,) and (3,), panics on an empty loop; an empty otypes list panics; frompyfunc on a 0-d array returns shape (1,); tuples with too many or too few items are accepted. Array elements are taken as get_element converts them (float64)."
  },
  {
   "property": "C124",
   "status": "partial",
   "theorems": [
    "C124_fftn",
    "C124_ifftn",
    "C124_errors",
    "C124_one_two_d",
    "C124_last_axes_refuted",
    "C124_inverse",
    "C124_axis_order"
   ],
   "note": "Exact arithmetic: any commutative ring with inverse primitive roots of unity for the lengths; rustfft plans are the defining sum. C124_nonvacuous instantiates the theorem at the complex numbers over Coq's reals and is the only statement that uses the real-number axioms of the standard library. Refuted: fft/fft2 reject arrays of more dimensions instead of transforming the last axes."
  },
  {
   "property": "C125",
   "status": "partial",
   "theorems": [
    "C125_irfft",
    "C125_rfft",
    "C125_hermitian",
    "C125_irfft_rfft_partial",
    "C125_rfftn",
    "C125_irfft_rfft_refuted",
    "C125_irfftn_rfftn_partial",
    "C125_hfft_ihfft_partial",
    "C125_odd_length_refuted",
    "C125_panics_refuted"
   ],
   "note": "Round trips proved for even lengths, also with several axes and shape hints. Refuted for odd lengths: irfft(rfft(a)) is one entry short and panics on length 1; irfftn with an odd shape hint and hfft with odd n drop the top frequency; rfftn panics on empty axes and irfftn on a hint shorter than the spectrum."
  },
  {
   "property": "C126",
   "status": "partial",
   "theorems": [
    "C126_fftshift_partial",
    "C126_ifftshift_partial",
    "C126_inverse_partial",
    "C126_shift_dims_refuted",
    "C126_fftfreq",
    "C126_fftshift_fftfreq"
   ],
   "note": "Positions, inverses and fftfreq proved for 1-D and 2-D arrays of every parity and layout; three or more dimensions are an error (refuted). The product with 1/(n d) is one uninterpreted multiplication."
  },
  {
   "property": "C127",
   "status": "partial",
   "theorems": [
    "C127_median",
    "C127_nanmedian",
    "C127_median_axis_partial",
    "C127_nanmedian_axis",
    "C127_axis_1d_refuted",
    "C127_halves",
    "C127_nan_refuted",
    "C127_empty_refuted",
    "C127_overflow_refuted"
   ],
   "note": "Proved for every total preorder and layout: flat median and nanmedian, lanes of nanmedian, lanes of median for two or more dimensions, and the halves property. Refuted: axis=0 of a one-dimensional array panics, NaN makes the comparison panic or order arbitrary, empty input, and the midpoint overflows for large doubles."
  },
  {
   "property": "C128",
   "status": "partial",
   "theorems": [
    "C128_range",
    "C128_flat",
    "C128_axis_partial",
    "C128_nan_flat",
    "C128_nan_axis_partial",
    "C128_quantile",
    "C128_monotone",
    "C128_between",
    "C128_endpoints",
    "C128_unique",
    "C128_bound_refuted",
    "C128_monotone_refuted",
    "C128_shape_refuted",
    "C128_empty_refuted"
   ],
   "note": "Proved over exact rationals: range check, flat and per-lane values on the polygon, nan variants, quantile = percentile, monotone in q, between min and max, end points, uniqueness. Refuted for doubles: rounding breaks the bound and monotonicity; shape of the result and empty input differ."
  },
  {
   "property": "C129",
   "status": "partial",
   "theorems": [
    "C129_mean",
    "C129_mean_axis",
    "C129_var",
    "C129_var_axis_partial",
    "C129_var_1d_refuted",
    "C129_var_nonneg",
    "C129_var_zero",
    "C129_affine",
    "C129_average_partial",
    "C129_average_axis_partial",
    "C129_average_mean",
    "C129_average_broadcast_refuted",
    "C129_average_axis_refuted",
    "C129_int_mean_refuted",
    "C129_moment",
    "C129_kurtosis",
    "C129_first_moment",
    "C129_moment_affine",
    "C129_kurtosis_affine"
   ],
   "note": "Proved over exact rationals for all layouts: mean (flat, axis), var (flat, both code paths), var per lane for two or more dimensions, non-negativity, zero iff constant, affine maps, averages with weights of the same shape. Refuted: var(axis=0) of a one-dimensional array returns the n summands, broadcast weights divide by the wrong total or panic, integer means wrap."
  },
  {
   "property": "C130",
   "status": "partial",
   "theorems": [
    "C130_axes",
    "C130_int_sum",
    "C130_int_extremes",
    "C130_mean",
    "C130_duplicate_refuted",
    "C130_ptp_refuted",
    "C130_var_refuted",
    "C130_median_refuted",
    "C130_ptp_axis"
   ],
   "note": "Proved for every commutative monoid kernel (integer sum, max, min spelled out) and for the mean over exact rationals, for every tuple of distinct axes in any order and sign. Refuted: duplicate axes are accepted or panic; ptp, var and median over several axes are not those of the cell."
  },
  {
   "property": "C131",
   "status": "partial",
   "theorems": [
    "C131_cov",
    "C131_cov_1d",
    "C131_symmetric",
    "C131_cauchy_schwarz",
    "C131_bilinear",
    "C131_corrcoef",
    "C131_corr_range",
    "C131_ndim_refuted",
    "C131_corr_1d_refuted"
   ],
   "note": "Proved over exact rationals for every layout: entries of cov, symmetry, bilinearity, non-negative diagonal, Cauchy-Schwarz; entries of corrcoef, unit diagonal, symmetry and range when the square roots are exact. Refuted: 0-d and 3-d input panics; one-dimensional corrcoef ignores its input."
  },
  {
   "property": "C132",
   "status": "partial",
   "theorems": [
    "C132_roundtrip_partial",
    "C132_plus_sign",
    "C132_column_refuted",
    "C132_rank_refuted",
    "C132_digits_refuted",
    "C132_newline_refuted",
    "C132_mark_refuted",
    "C132_complex_refuted"
   ],
   "note": "Proved for non-empty 1-D arrays and 2-D arrays of two or more columns, any layout, header, footer, separator not beginning like a number and comment mark without white space, 17 digits or more. Refuted: one column, 0-d, empty and 3-D arrays come back with another shape; 16 digits lose bits; other line ends; comment marks with white space; complex arrays are written as zeros."
  },
  {
   "property": "C133",
   "status": "partial",
   "theorems": [
    "C133_roundtrip_partial",
    "C133_text_partial",
    "C133_large_refuted"
   ],
   "note": "Proved for integers below 2^53 in size and booleans, and the text itself for 1-D arrays. Refuted beyond: 2^53+1 comes back as 2^53, large uint64 saturate."
  },
  {
   "property": "C134",
   "status": "partial",
   "theorems": [
    "C134_no_data_partial",
    "C134_line_ends",
    "C134_last_line",
    "C134_skiprows",
    "C134_max_rows",
    "C134_usecols_partial",
    "C134_rectangle",
    "C134_usecols_refuted",
    "C134_edges_refuted"
   ],
   "note": "Proved: blank and comment lines, line ends, skiprows, max_rows, usecols in range, rectangle criterion. Refuted: columns out of range are dropped silently, comments after data are errors, max_rows=0 gives shape (0,0)."
  },
  {
   "property": "C135",
   "status": "partial",
   "theorems": [
    "C135_same",
    "C135_skip",
    "C135_missing_partial",
    "C135_tab_refuted",
    "C135_column_refuted"
   ],
   "note": "Proved: agreement with loadtxt, header and footer skipping, filling for delimiters without white space and two or more columns. Refuted: with a tab, missing fields at line ends disappear; one-column tables lose missing rows."
  },
  {
   "property": "C136",
   "status": "partial",
   "theorems": [
    "C136_moveaxis_one",
    "C136_moveaxis_back",
    "C136_moveaxis_partial",
    "C136_moveaxis_refuted",
    "C136_moveaxis_range_refuted",
    "C136_rollaxis_partial",
    "C136_rollaxis_refuted",
    "C136_matrix_transpose"
   ],
   "note": "Ascending destinations and existing axes proved; unsorted destinations, out-of-range axes and starts refuted."
  },
  {
   "property": "C137",
   "status": "partial",
   "theorems": [
    "C137_atleast_partial",
    "C137_atleast_same",
    "C137_atleast_refuted"
   ],
   "note": "Contiguous arrays proved; strided 1-D views keep their rank (refuted)."
  },
  {
   "property": "C138",
   "status": "partial",
   "theorems": [
    "C138_vstack_partial",
    "C138_vstack_refuted",
    "C138_scalars_refuted",
    "C138_hstack_1d",
    "C138_hstack",
    "C138_column_stack_partial",
    "C138_dstack_partial",
    "C138_split_undoes_stack"
   ],
   "note": "vstack, column_stack and dstack for operands whose reshape succeeds; strided one-dimensional and zero-dimensional operands refuted."
  },
  {
   "property": "C139",
   "status": "partial",
   "theorems": [
    "C139_flip_all_partial",
    "C139_flip_all_refuted",
    "C139_flip_axis_partial",
    "C139_flipud_fliplr",
    "C139_broadcast_arrays",
    "C139_broadcast_shapes"
   ],
   "note": "flip for non-negative strides; reversed views refuted; broadcasting proved in full."
  },
  {
   "property": "C140",
   "status": "partial",
   "theorems": [
    "C140_astype_partial",
    "C140_same_dtype",
    "C140_round_trip",
    "C140_to_integer",
    "C140_to_bool",
    "C140_wide_integers_refuted",
    "C140_complex_refuted"
   ],
   "note": "Partial: real dtypes, values that are doubles. Refuted: 64-bit integers between dtypes lose precision, complex arrays become zeros."
  },
  {
   "property": "C141",
   "status": "partial",
   "theorems": [
    "C141_compare_partial",
    "C141_same_or_narrow",
    "C141_scalar_partial",
    "C141_complex_equality",
    "C141_wide_integers_refuted",
    "C141_mixed_complex_refuted",
    "C141_complex_order_refuted"
   ],
   "note": "Partial: exact when the promoted dtype holds both numbers (always for one dtype or without 64-bit integers). Refuted: 64-bit integers against other dtypes or Python numbers, mixed complex dtypes, complex ordering."
  },
  {
   "property": "C142",
   "status": "partial",
   "theorems": [
    "C142_not_equal",
    "C142_exchange",
    "C142_less_or_equal",
    "C142_array_equal_partial",
    "C142_reflexive",
    "C142_symmetric",
    "C142_transitive_partial",
    "C142_transitive_refuted"
   ],
   "note": "Laws hold for all numeric dtypes (<= only for real ones); array_equal's meaning and transitivity partial to one dtype; transitivity across dtypes refuted."
  },
  {
   "property": "C143",
   "status": "partial",
   "theorems": [
    "C143_isclose_partial",
    "C143_whole_numbers",
    "C143_allclose",
    "C143_symmetric_refuted",
    "C143_wide_integers_refuted",
    "C143_complex_refuted"
   ],
   "note": "Partial: real dtypes and values that are doubles; exact rule proved for whole numbers. Refuted: symmetry, 64-bit integers, complex arrays."
  },
  {
   "property": "C144",
   "status": "proved",
   "theorems": [
    "C144_logical",
    "C144_not",
    "C144_de_morgan",
    "C144_double_negation"
   ],
   "note": "Proved for all numeric dtypes."
  },
  {
   "property": "C145",
   "status": "partial",
   "theorems": [
    "C145_bits_partial",
    "C145_not",
    "C145_float_error",
    "C145_shift_partial",
    "C145_scalar_partial",
    "C145_commutative",
    "C145_de_morgan",
    "C145_double_complement",
    "C145_xor_cancels",
    "C145_wide_shift_refuted",
    "C145_bool_shift_refuted",
    "C145_mixed_refuted",
    "C145_narrow_scalar_refuted",
    "C145_big_scalar_refuted"
   ],
   "note": "Partial: operands of one dtype, shift counts below the width, Python integers that are doubles with int64 arrays. Refuted: shifts by the width, bool shifts, operands of two dtypes (misread memory), Python integers with narrow arrays (reads out of bounds) or above 2^53."
  },
  {
   "property": "C146",
   "status": "partial",
   "theorems": [
    "C146_floor",
    "C146_ceil",
    "C146_trunc",
    "C146_rint_partial",
    "C146_sign",
    "C146_ties_refuted",
    "C146_half_refuted",
    "C146_complex",
    "C146_mirror",
    "C146_order",
    "C146_idempotent",
    "C146_monotone"
   ],
   "note": "rint: ties go away from zero in the code (refuted against NumPy's even rule); everything else is for all real dtypes."
  },
  {
   "property": "C147",
   "status": "partial",
   "theorems": [
    "C147_round_partial",
    "C147_tie_refuted",
    "C147_integers",
    "C147_own_memory_refuted",
    "C147_decimals_fixed",
    "C147_tens_refuted",
    "C147_int_tens_partial",
    "C147_toward_zero_refuted",
    "C147_wide_refuted"
   ],
   "note": "nearest whole number and decimals of float64 up to 15 proved; ties, negative decimals of integers (toward zero), powers of ten outside the dtype and aliasing of integer arrays refuted."
  },
  {
   "property": "C148",
   "status": "partial",
   "theorems": [
    "C148_clip_partial",
    "C148_unbounded",
    "C148_idempotent",
    "C148_monotone",
    "C148_fraction_refuted",
    "C148_nan_refuted",
    "C148_complex_refuted"
   ],
   "note": "bounds that are values of the dtype; fractional bounds on integers, NaN bounds and complex arrays refuted."
  },
  {
   "property": "C149",
   "status": "partial",
   "theorems": [
    "C149_floats",
    "C149_signs",
    "C149_negative_partial",
    "C149_absolute_partial",
    "C149_sign",
    "C149_involution",
    "C149_least_refuted",
    "C149_bool_refuted"
   ],
   "note": "floats and sign complete; negative and absolute of integers when the dtype has the result; least integer and bool refuted."
  },
  {
   "property": "C150",
   "status": "partial",
   "theorems": [
    "C150_rounded_partial",
    "C150_exact_partial",
    "C150_commutative",
    "C150_wide_integers_refuted",
    "C150_zero_divisor_refuted",
    "C150_bool",
    "C150_bool_division_refuted"
   ],
   "note": "Correct rounding proved for float32 pairs and for every mixture whose result is float64 and whose operands are doubles; exact results for every real dtype. Missing: float16 (rounded through float32) and mixed float32 results; wide integers, mixed zero divisors and bool division refuted."
  },
  {
   "property": "C151",
   "status": "partial",
   "theorems": [
    "C151_picks_partial",
    "C151_commutative",
    "C151_idempotent",
    "C151_wide_integers_refuted"
   ],
   "note": "All real dtypes of up to 53 bits, and equal dtypes of any width. 64-bit integers mixed with another dtype refuted."
  },
  {
   "property": "C152",
   "status": "partial",
   "theorems": [
    "C152_remainder",
    "C152_floor_partial",
    "C152_identity_refuted",
    "C152_fraction_refuted"
   ],
   "note": "Remainder exact for all floats; floor exact for whole numbers within the significand. The identity and fractions are refuted."
  },
  {
   "property": "C153",
   "status": "partial",
   "theorems": [
    "C153_copysign_partial",
    "C153_copysign_self",
    "C153_least_refuted",
    "C153_next_partial",
    "C153_next_mixed_partial",
    "C153_negative_refuted",
    "C153_zero_refuted",
    "C153_lost_step_refuted"
   ],
   "note": "copysign proved wherever the dtype holds |a| (wide mixed integers excluded); nextafter proved for positive a of one float dtype and for all non-zero a of mixed dtypes giving float64. Refuted: negative a moves away, zeros give NaN or the wrong side, float32 with int16 does not move, int8 copysign(-128,1) is negative."
  },
  {
   "property": "C154",
   "status": "partial",
   "theorems": [
    "C154_tests_partial",
    "C154_signbit_partial",
    "C154_laws",
    "C154_bool_refuted",
    "C154_reality_partial",
    "C154_reality_refuted"
   ],
   "note": "Proved for every dtype but bool and every layout; a NaN's sign bit is not modelled. Refuted: bool arrays are returned unchanged (isnan([True]) is [True]); isreal/iscomplex return the argument's dtype, not bool."
  },
  {
   "property": "C155",
   "status": "partial",
   "theorems": [
    "C155_parts",
    "C155_conj_twice",
    "C155_nan_to_num",
    "C155_nan_to_num_finite",
    "C155_overflow_refuted"
   ],
   "note": "Proved for every numeric dtype and layout. Refuted: a replacement too large for float32 becomes inf again."
  },
  {
   "property": "C156",
   "status": "partial",
   "theorems": [
    "C156_sum_partial",
    "C156_product_partial",
    "C156_integers",
    "C156_commutative",
    "C156_conjugate",
    "C156_quotient_partial",
    "C156_quotient_refuted",
    "C156_extrema_partial"
   ],
   "note": "Sums and extrema proved for operands of one dtype and complex128 results; products and quotients proved when exact. Refuted: x/x when x squared overflows or vanishes, and division by zero (NaN instead of infinity)."
  },
  {
   "property": "C157",
   "status": "partial",
   "theorems": [
    "C157_total_refuted",
    "C157_max_refuted",
    "C157_min_refuted",
    "C157_sum_partial"
   ],
   "note": "Sums along an axis are exact when the parts need no more bits than the dtype has. Over all elements every reduction of a complex array gives 0.0; along an axis max gives minus infinity and min goes by magnitude."
  },
  {
   "property": "C158",
   "status": "proved",
   "theorems": [
    "C158_sum",
    "C158_sum_axis",
    "C158_prod",
    "C158_prod_axis",
    "C158_nan"
   ],
   "note": "Any layout, any axis, any order of additions. The hypothesis is that the magnitudes' total fits the precision in a common unit; rounding of inexact sums is not bounded here."
  },
  {
   "property": "C159",
   "status": "partial",
   "theorems": [
    "C159_extreme_partial",
    "C159_extreme_axis_partial",
    "C159_nan_refuted"
   ],
   "note": "Holds without NaN. With NaN the code passes over it; an all-NaN array gives the opposite infinity."
  },
  {
   "property": "C160",
   "status": "partial",
   "theorems": [
    "C160_nansum",
    "C160_nanprod",
    "C160_nansum_axis",
    "C160_nanmax_partial",
    "C160_nanmax_axis_partial",
    "C160_nanarg_partial",
    "C160_infinity_refuted"
   ],
   "note": "Along an axis for float64 and float32. nanmax of only minus infinities is NaN or minus infinity depending on layout, nanargmax then raises, and an all-NaN lane gives an infinity."
  },
  {
   "property": "C161",
   "status": "partial",
   "theorems": [
    "C161_prod",
    "C161_extreme",
    "C161_sum_partial",
    "C161_sum_refuted",
    "C161_axis_partial",
    "C161_empty_refuted"
   ],
   "note": "The sum stops at one, and along an axis of length zero the product is False."
  },
  {
   "property": "C162",
   "status": "partial",
   "theorems": [
    "C162_repeat_partial",
    "C162_roll_partial",
    "C162_tile_partial",
    "C162_pad_partial",
    "C162_complex_repeat_refuted",
    "C162_complex_pad_refuted",
    "C162_complex_roll_refuted"
   ],
   "note": "Bool, floats and integers up to 32 bits without restriction; 64-bit integers when they are representable as doubles (C41_int64_refuted otherwise). Complex elements become zero in repeat, pad, roll along an axis and the general case of tile."
  },
  {
   "property": "C163",
   "status": "partial",
   "theorems": [
    "C163_str",
    "C163_repr",
    "C163_faithful",
    "C163_layout",
    "C163_empty_refuted"
   ],
   "note": "Element texts must be single words (printable), which C164_printable proves of all real dtypes. Empty arrays print [] whatever their shape (refuted)."
  },
  {
   "property": "C164",
   "status": "partial",
   "theorems": [
    "C164_integer",
    "C164_bool",
    "C164_distinct",
    "C164_float",
    "C164_special",
    "C164_printable",
    "C164_str",
    "C164_integers_equal",
    "C164_float_refuted",
    "C164_complex_refuted"
   ],
   "note": "Floats are shown to 8 places (float16: 4), so texts do not determine them (refuted); the error bound is proved. Complex texts: witness of a double and of a missing sign."
  },
  {
   "property": "C165",
   "status": "partial",
   "theorems": [
    "C165_shape",
    "C165_exact_partial",
    "C165_steps",
    "C165_layout_refuted",
    "C165_complex_refuted"
   ],
   "note": "Missing: 64-bit integers a double cannot hold unless the array is one-dimensional and contiguous, and complex arrays (both refuted)."
  },
  {
   "property": "C166",
   "status": "partial",
   "theorems": [
    "C166_nan_partial",
    "C166_small_partial",
    "C166_float_partial",
    "C166_int",
    "C166_complex_partial",
    "C166_refuted"
   ],
   "note": "Integer cumsum and cumprod are complete (C166_int). Missing: float totals that need rounding, nancumsum of 64-bit integers that are not doubles, complex products. Refuted for bool, int8, large int64 and complex (nancumsum)."
  },
  {
   "property": "C167",
   "status": "partial",
   "theorems": [
    "C167_initial_partial",
    "C167_refuted"
   ],
   "note": "Missing: shapes that are empty across an axis other than the last (refuted: out-of-bounds access) and complex arrays (refuted: zeros)."
  },
  {
   "property": "C168",
   "status": "partial",
   "theorems": [
    "C168_float",
    "C168_int",
    "C168_integer_refuted",
    "C168_bool_refuted"
   ],
   "note": "The values of the mathematical functions are parameters (any functions on the formats). Proved for float and complex arrays and for the fourteen functions that convert integers first; refuted for the seven others (exp2, expm1, log1p, cbrt, arcsinh, arccosh, arctanh) on integer arrays (results stay integers) and bool arrays (copied unchanged)."
  },
  {
   "property": "C169",
   "status": "partial",
   "theorems": [
    "C169_within",
    "C169_outside",
    "C169_complex",
    "C169_integer_refuted"
   ],
   "note": "Proved for real arrays inside and outside the domain and for complex arrays; refuted: emath.arctanh of an integer array inside the domain is an integer array. emath.logn and emath.power are not modelled."
  },
  {
   "property": "C170",
   "status": "proved",
   "theorems": [
    "C170_float",
    "C170_int",
    "C170_exact"
   ],
   "note": "Nearest root for every real dtype, exact where the root is representable; elements of 64-bit integer arrays that no double holds are excluded. The complex square root is not modelled."
  },
  {
   "property": "C171",
   "status": "proved",
   "theorems": [
    "C171_real",
    "C171_complex"
   ],
   "note": "The branch of num-complex's square root for numbers on the real axis is modelled from the published source of num-complex 0.4, which is not in the repository; its other branches are a parameter and play no part."
  },
  {
   "property": "C172",
   "status": "partial",
   "theorems": [
    "C172_var",
    "C172_std",
    "C172_empty",
    "C172_nan",
    "C172_whole_partial",
    "C172_layout_refuted"
   ],
   "note": "Never negative and std = rounded root of var proved for every float array; exact value for whole numbers with a whole mean (partial: other elements, where the mean is rounded, have no error bound here). That var depends on the elements only is refuted: contiguous float64 arrays add up the mean one by one, others with eight accumulators. var of integer arrays in floating point and var along an axis in floating point are not modelled (C129 covers them over exact arithmetic)."
  },
  {
   "property": "C173",
   "status": "partial",
   "theorems": [
    "C173_mean_partial",
    "C173_empty",
    "C173_nan",
    "C173_bounded_refuted",
    "C173_layout_refuted"
   ],
   "note": "Proved where the sum is exact (partial: no error bound for rounded sums). Refuted: the mean can leave the range of the elements (a float16 array is added up in float16, so the mean of 60000 and 60000 is infinite), and it depends on the memory layout (eight accumulators for contiguous and one-dimensional arrays, one for the others). Along an axis: C174. Means of integer arrays: C129, over exact arithmetic."
  },
  {
   "property": "C174",
   "status": "partial",
   "theorems": [
    "C174_axis_partial",
    "C174_bounded_refuted"
   ],
   "note": "Proved for float32 and float64 lanes whose sum is exact (partial: float16 quotients are rounded twice, and rounded sums have no error bound). Refuted: the mean of float16 elements along an axis can be infinite although all elements are finite, because lanes are added up in float16."
  },
  {
   "property": "C175",
   "status": "partial",
   "theorems": [
    "C175_skip",
    "C175_layout",
    "C175_none",
    "C175_std",
    "C175_mean_partial",
    "C175_whole_partial"
   ],
   "note": "Skipping, independence of layout, NaN for no numbers, sign of the variance and the root proved for every real array. Exact values where the sums are exact (partial: no error bound for rounded sums). Along an axis: C176."
  },
  {
   "property": "C176",
   "status": "partial",
   "theorems": [
    "C176_mean",
    "C176_var",
    "C176_axis",
    "C176_empty_refuted",
    "C176_std"
   ],
   "note": "Proved lane by lane for every real array and axis of nonzero length; nanstd is the root of each entry of nanvar. Refuted for an axis of length zero: the entries are 0, where NaN is expected."
  },
  {
   "property": "C177",
   "status": "partial",
   "theorems": [
    "C177_lanes",
    "C177_sum_partial",
    "C177_extreme_partial",
    "C177_extreme_refuted",
    "C177_sum_refuted",
    "C177_empty_refuted",
    "C177_axis"
   ],
   "note": "Proved lane by lane for axes of nonzero length. Integers are partial: sums need the sizes of the elements to add up to less than 2^53 and the dtype to hold the sum, extremes need elements of less than 2^53 in size; outside that both are refuted (int8 sums stop at 127, int64 elements and sums are rounded to doubles). Refuted for an axis of length zero: every entry is 0, also for nanprod."
  }
 ]
}