{
 "claims": [
  {
   "property": "C01",
   "status": "proved",
   "theorems": [
    "C01_dense_addressing_bijective"
   ],
   "note": ""
  },
  {
   "property": "C02",
   "status": "proved",
   "theorems": [
    "C02_documented_strides"
   ],
   "note": ""
  },
  {
   "property": "C03",
   "status": "proved",
   "theorems": [
    "C03_ravel_unravel_inverse",
    "C03_ravel_is_lexicographic_rank",
    "C03_unravel_rejects_other_layouts",
    "C03_unravel_indices_pointwise"
   ],
   "note": ""
  },
  {
   "property": "C04",
   "status": "partial",
   "theorems": [
    "C04_short_and_long_access",
    "C04_trailing_missing_refuted"
   ],
   "note": "Everything holds except that a trailing xt::missing after as many indices as dimensions is not neutral (refuted with a witness)."
  },
  {
   "property": "C05",
   "status": "proved",
   "theorems": [
    "C05_unchecked_agrees"
   ],
   "note": ""
  },
  {
   "property": "C06",
   "status": "proved",
   "theorems": [
    "C06_no_overflow",
    "C06_size_wraps_refuted",
    "C06_empty_overflow_refuted"
   ],
   "note": "The refuted theorems are the witnesses the statement asks for (wrap-around without the hypothesis)."
  },
  {
   "property": "C07",
   "status": "partial",
   "theorems": [
    "C07_broadcast_shape",
    "C07_common_shape_unique",
    "C07_order_independent",
    "C07_fixed_shapes_partial",
    "C07_fixed_zero_refuted"
   ],
   "note": "Proved in full for run-time shapes. Compile-time (fixed) shapes: proved for positive extents, refuted when an extent is 0."
  },
  {
   "property": "C08",
   "status": "proved",
   "theorems": [
    "C08_trivial_broadcast_exact"
   ],
   "note": ""
  },
  {
   "property": "C09",
   "status": "proved",
   "theorems": [
    "C09_broadcastable_decides",
    "C09_broadcastable_agrees"
   ],
   "note": ""
  },
  {
   "property": "C10",
   "status": "partial",
   "theorems": [
    "C10_periodic_wraps",
    "C10_in_bounds_decides",
    "C10_in_bounds_missing",
    "C10_in_bounds_short_refuted",
    "C10_periodic_short_refuted"
   ],
   "note": "Holds for full index lists, for too long lists and with xt::missing. With fewer indices than dimensions the checks use the leading axes while access uses the trailing ones: refuted with witnesses (in_bounds wrong both ways, periodic addresses outside the buffer)."
  },
  {
   "property": "C11",
   "status": "proved",
   "theorems": [
    "C11_container_iteration"
   ],
   "note": ""
  },
  {
   "property": "C12",
   "status": "proved",
   "theorems": [
    "C12_container_random_access"
   ],
   "note": ""
  },
  {
   "property": "C13",
   "status": "proved",
   "theorems": [
    "C13_operand_pointer",
    "C13_expression_value"
   ],
   "note": ""
  },
  {
   "property": "C14",
   "status": "partial",
   "theorems": [
    "C14_assignment_pointwise_partial",
    "C14_independent_operands_partial",
    "C14_offset_strided_view_refuted",
    "C14_generator_0d_refuted"
   ],
   "note": "Proved for every assignment loop and schedule at the level of assign_data; SIMD on offset static-layout strided views and 0-d generators are refuted. Resizing and aliasing are treated in C16 and C36."
  },
  {
   "property": "C15",
   "status": "proved",
   "theorems": [
    "C15_computed_contiguous",
    "C15_contiguous_gaps",
    "C15_dynamic_not_contiguous",
    "C15_every_strategy_agrees",
    "C15_builds_agree"
   ],
   "note": ""
  },
  {
   "property": "C16",
   "status": "partial",
   "theorems": [
    "C16_compound_assign",
    "C16_noalias_compound_partial",
    "C16_noalias_vanishing_refuted",
    "C16_view_compound_partial",
    "C16_scalar_compound_partial",
    "C16_scalar_element_refuted"
   ],
   "note": "Compound assignment (a += e) is proved in full for containers; noalias(a) += e except when an axis of extent 1 of a meets extent 0 (refuted: undefined behaviour); view += e for views whose strides do not mix signs; a += s for a scalar that is not an element of a (refuted otherwise)."
  },
  {
   "property": "C17",
   "status": "partial",
   "theorems": [
    "C17_range_is_python_partial",
    "C17_wrong_direction_refuted",
    "C17_wrong_direction_always",
    "C17_zero_step_undefined",
    "C17_range_queries",
    "C17_negative_step_queries_refuted",
    "C17_slice_comparison",
    "C17_newaxis_comparison_refuted"
   ],
   "note": "Proved for every range whose step does not point away from stop by a whole step or more (exact: outside it the size is proved negative), queries proved for positive steps. Refuted: wrong-direction stepped ranges, contains/revert_index with a negative step, newaxis !=."
  },
  {
   "property": "C18",
   "status": "partial",
   "theorems": [
    "C18_keep",
    "C18_drop_partial",
    "C18_drop_unsorted_refuted",
    "C18_drop_duplicate_refuted",
    "C18_drop_revert_refuted",
    "C18_drop_empty_revert_undefined",
    "C18_drop_reuse_refuted"
   ],
   "note": "keep proved in full; drop proved for increasing positions. Refuted: unsorted or repeated positions, revert_index, reuse on another axis."
  },
  {
   "property": "C19",
   "status": "partial",
   "theorems": [
    "C19_strided_view_partial",
    "C19_strided_view_throws",
    "C19_strided_view_injective",
    "C19_strided_view_write_partial",
    "C19_strided_view_of_view_partial",
    "C19_strided_view_negative_integer_refuted",
    "C19_newaxis_layout_refuted",
    "C19_view_partial",
    "C19_view_data_partial",
    "C19_view_write_partial",
    "C19_row",
    "C19_col",
    "C19_row_col_throw",
    "C19_two_newaxis_refuted",
    "C19_int_after_newaxis_refuted",
    "C19_view_offset_refuted",
    "C19_short_call_refuted",
    "C19_short_element_refuted",
    "C19_no_argument_refuted"
   ],
   "note": "Strided views of any expression with any mix of integers, ranges, all, newaxis and ellipsis: shape, addressed elements, layout, writes, exceptions, composition; the statically sliced view() with keep and drop too: shape, element, operator(), unchecked, strides, offset, layout, linear access, writes, row and col. Missing, each refuted with a witness: negative integers in strided views, two newaxis or an integer after a newaxis in view(), more slices than axes for data_offset, fewer indices than dimensions; and ranges that run backwards (C17)."
  },
  {
   "property": "C20",
   "status": "partial",
   "theorems": [
    "C20_reshape_keeps_elements",
    "C20_reshape_signed_partial",
    "C20_reshape_zero_extent_refuted",
    "C20_reshape_negative_extents_refuted",
    "C20_reshape_signed_layout_refuted"
   ],
   "note": "Unsigned shapes in full. Signed shapes for positive extents with at most one -1 and an acceptable layout; the other signed shapes are refuted: zero extents divide by zero, other negative extents and wrong layouts are accepted."
  },
  {
   "property": "C21",
   "status": "partial",
   "theorems": [
    "C21_resize",
    "C21_history_partial",
    "C21_custom_strides_refuted"
   ],
   "note": "Any history without user-given strides and with the signed reshapes of C20; both exclusions are refuted in general. Allocation failure is not modelled."
  },
  {
   "property": "C22",
   "status": "partial",
   "theorems": [
    "C22_history_partial",
    "C22_observers",
    "C22_memory_returned",
    "C22_self_reference_refuted",
    "C22_nontrivial_elements_refuted"
   ],
   "note": "Any history over any number of svectors of trivial elements; observers; memory returned. Missing: self-referencing push_back/insert when full and on the heap (refuted: use after free), non-trivial element types (refuted: assignment to raw memory; use after move)."
  },
  {
   "property": "C23",
   "status": "proved",
   "theorems": [
    "C23_transpose",
    "C23_lazy_layout_refuted",
    "C23_transpose_full",
    "C23_transpose_none",
    "C23_repeated_axis_refuted",
    "C23_transpose_twice",
    "C23_transpose_inverse",
    "C23_swapaxes",
    "C23_moveaxis"
   ],
   "note": "Expressions with a data interface for the versions taking axes (transpose(e) alone also lazy ones). The permutation is checked with check_policy::full; without it a repeated axis gives an out-of-bounds view (C23_repeated_axis_refuted), which the property does not claim. The reported layout of the transpose of a lazy column-major expression is wrong (C23_lazy_layout_refuted)."
  },
  {
   "property": "C24",
   "status": "partial",
   "theorems": [
    "C24_flip",
    "C24_flip_twice",
    "C24_rot90",
    "C24_rot90_compose",
    "C24_four_turns",
    "C24_flip_all_refuted"
   ],
   "note": "flip(e, axis) and rot90<N> for expressions with a data interface and valid axes. flip(e) without an axis modifies its argument (C24_flip_all_refuted)."
  },
  {
   "property": "C25",
   "status": "partial",
   "theorems": [
    "C25_roll_flat_partial",
    "C25_roll_flat_empty_refuted",
    "C25_roll_axis_partial",
    "C25_roll_axis_throws",
    "C25_negative_axis_refuted",
    "C25_large_shift_refuted",
    "C25_endless_refuted",
    "C25_column_major_refuted"
   ],
   "note": "Flat roll of non-empty arrays for every shift; along an axis for non-negative axes, shifts up to the extent and row-major default traversal. Each excluded case is refuted: negative axes throw, larger shifts read out of bounds, extent 0 with a negative shift does not end, empty arrays divide by zero."
  },
  {
   "property": "C26",
   "status": "partial",
   "theorems": [
    "C26_squeeze_partial",
    "C26_squeeze_offset_refuted",
    "C26_squeeze_empty_refuted",
    "C26_squeeze_axes_partial",
    "C26_squeeze_full_partial",
    "C26_squeeze_axis_refuted",
    "C26_expand_dims",
    "C26_squeeze_expand_partial",
    "C26_atleast"
   ],
   "note": "squeeze: expressions without data offset whose strides are 0 exactly on the axes of extent 1; the two other cases are refuted (wrong elements for views, undefined for empty arrays). squeeze(e, axes), expand_dims, atleast_Nd: all axes in range."
  },
  {
   "property": "C27",
   "status": "partial",
   "theorems": [
    "C27_concatenate_partial",
    "C27_concatenate_throws",
    "C27_split_concatenate_partial",
    "C27_extra_indices_partial",
    "C27_extra_element_refuted",
    "C27_large_refuted",
    "C27_axis_refuted",
    "C27_split"
   ],
   "note": "split: full. concatenate and split-then-concatenate: operands of fewer than 2^31 elements (C27_large_refuted shows the int stride accumulator is wrong beyond); an axis out of range and element() with indices in excess are refuted."
  },
  {
   "property": "C28",
   "status": "proved",
   "theorems": [
    "C28_layout_table",
    "C28_layout_of_operands",
    "C28_layout_grouping",
    "C28_layout_order",
    "C28_layout_defaults"
   ],
   "note": ""
  },
  {
   "property": "C29",
   "status": "proved",
   "theorems": [
    "C29_reported_layout_truthful",
    "C29_own_strides_recognised",
    "C29_reported_layout_exact"
   ],
   "note": ""
  },
  {
   "property": "C30",
   "status": "proved",
   "theorems": [
    "C30_strides_accessors"
   ],
   "note": ""
  },
  {
   "property": "C31",
   "status": "partial",
   "theorems": [
    "C31_element_checked",
    "C31_element_short_refuted",
    "C31_element_negative_refuted",
    "C31_at_checked",
    "C31_at_short",
    "C31_at_always_checks_refuted"
   ],
   "note": "Exact characterisation for full, too long and shorter index lists (no empty leading axis). With fewer indices than dimensions and an empty leading axis at() addresses outside the (empty) buffer: refuted with a witness. The check of element(), run with assertions: exact for at least as many indices as dimensions; with fewer it uses the wrong axes, and negative indices pass (both refuted)."
  },
  {
   "property": "C32",
   "status": "partial",
   "theorems": [
    "C32_expression_shape_current_partial",
    "C32_stale_cache_refuted"
   ],
   "note": "Holds while no operand is resized after the first shape() call; otherwise the cached shape is stale (refuted with a witness)."
  },
  {
   "property": "C33",
   "status": "partial",
   "theorems": [
    "C33_broadcast_view_shape",
    "C33_broadcast_view_elements",
    "C33_requested_shape_refuted"
   ],
   "note": "Elements and error cases proved; the requested shape is silently enlarged where it has extent 1 and e does not (refuted with a witness)."
  },
  {
   "property": "C34",
   "status": "partial",
   "theorems": [
    "C34_expression_iteration_partial",
    "C34_indexed_0d_refuted"
   ],
   "note": "Proved for every tree without 0-dimensional operands that use the indexed stepper (generators, index views); for those end() writes out of bounds, proved by C34_indexed_0d_refuted."
  },
  {
   "property": "C35",
   "status": "partial",
   "theorems": [
    "C35_expression_random_access_partial",
    "C35_reverse_broadcast_scalar_refuted",
    "C35_reverse_indexed_column_refuted"
   ],
   "note": "Proved for every expression except two families where backward traversal really fails: 0-d containers seen through a larger shape, and indexed operands traversed in column major order (refutation theorems)."
  },
  {
   "property": "C36",
   "status": "partial",
   "theorems": [
    "C36_container_assign_partial",
    "C36_generator_alias_refuted",
    "C36_view_assign_partial",
    "C36_view_throws_partial",
    "C36_mixed_strides_refuted",
    "C36_overlapping_larger_refuted",
    "C36_noalias_view_partial",
    "C36_noalias_view_throws",
    "C36_noalias_smaller_refuted"
   ],
   "note": "operator= of containers and views against evaluating the right-hand side first, for every build, schedule and partition. Excluded and refuted with witnesses: generators reading the destination, strides of mixed sign in views, overlapping right-hand sides larger than the view, noalias(view) with a smaller shape."
  },
  {
   "property": "C37",
   "status": "partial",
   "theorems": [
    "C37_stack_partial",
    "C37_hstack_partial",
    "C37_vstack_rows_partial",
    "C37_vstack_partial",
    "C37_mismatch_refuted",
    "C37_extra_indices_refuted"
   ],
   "note": "Operands of fewer than 2^31 elements and, for stack, equal shapes: mismatched shapes are not rejected (C37_mismatch_refuted)."
  },
  {
   "property": "C38",
   "status": "partial",
   "theorems": [
    "C38_eye_n",
    "C38_eye",
    "C38_diag",
    "C38_diagonal_partial",
    "C38_beyond_refuted",
    "C38_tril",
    "C38_triu",
    "C38_one_axis_refuted",
    "C38_last_axes_refuted"
   ],
   "note": "diagonal with an offset beyond the last diagonal is refuted (C38_beyond_refuted), as are tril, triu and eye with one axis (C38_one_axis_refuted); everything else is full. tril and triu of more than two axes use the first two (C38_last_axes_refuted)."
  },
  {
   "property": "C39",
   "status": "partial",
   "theorems": [
    "C39_arange_signed_partial",
    "C39_arange_unsigned",
    "C39_arange_assign",
    "C39_linspace",
    "C39_short_refuted",
    "C39_extra_index_refuted"
   ],
   "note": "Signed arange with 0 < |stop - start| < |step| is refuted (C39_short_refuted); the rest is full."
  },
  {
   "property": "C40",
   "status": "proved",
   "theorems": [
    "C40_meshgrid"
   ],
   "note": ""
  },
  {
   "property": "C41",
   "status": "partial",
   "theorems": [
    "C41_elements",
    "C41_iteration_partial",
    "C41_bad_axes_partial",
    "C41_negative_axis",
    "C41_keep_broadcast_refuted",
    "C41_reverse_refuted",
    "C41_many_axes_refuted",
    "C41_axis_0d_refuted"
   ],
   "note": "Element access proved for all valid axes; iteration proved over every shape except when a kept axis is itself broadcast, and forwards only: both exceptions are refuted with witnesses (out of bounds reads). Invalid axes: runtime_error except more axes than dimensions (bad_alloc) and keep_dims on 0-dimensional expressions (accepted). Static axes (xt::fixed shapes) and the mean/variance built from reducers are not modelled."
  },
  {
   "property": "C42",
   "status": "partial",
   "theorems": [
    "C42_elements_partial",
    "C42_unit_strides",
    "C42_agrees_with_lazy_partial",
    "C42_bad_axes",
    "C42_empty_refuted",
    "C42_copy_functor_refuted",
    "C42_copy_initial_refuted"
   ],
   "note": "reduce_immediate for row and column major containers, all axes subsets, keep_dims, initial values. Missing (refuted): empty arguments with non-empty results, the copy shortcut with transforming functors or initial values."
  },
  {
   "property": "C43",
   "status": "partial",
   "theorems": [
    "C43_axis_partial",
    "C43_bad_axis",
    "C43_documented_strides",
    "C43_flat_partial",
    "C43_flat_tensor_refuted",
    "C43_dynamic_refuted",
    "C43_init_unit_refuted"
   ],
   "note": "Missing (refuted): dynamic layout types, unit extents with an initialisation functor, flat accumulation of N-d xtensor."
  },
  {
   "property": "C44",
   "status": "partial",
   "theorems": [
    "C44_sort_partial",
    "C44_sort_flat",
    "C44_sort_dynamic_refuted",
    "C44_sort_scalar_refuted",
    "C44_sort_unsupported"
   ],
   "note": "Proved for arrays of static layout and dynamic ones holding the default layout; other dynamic layouts and 0-d arrays refuted."
  },
  {
   "property": "C45",
   "status": "partial",
   "theorems": [
    "C45_argsort_partial",
    "C45_argsort_dynamic_refuted"
   ],
   "note": "As C44; stability for the stable method."
  },
  {
   "property": "C46",
   "status": "partial",
   "theorems": [
    "C46_partition_partial",
    "C46_partition_flat",
    "C46_argpartition_partial",
    "C46_argpartition_flat_partial",
    "C46_argpartition_unit_refuted",
    "C46_argpartition_column_refuted"
   ],
   "note": "Along an axis as C44; without axis argpartition only for row major arrays whose last extent is not 1, other cases refuted."
  },
  {
   "property": "C47",
   "status": "partial",
   "theorems": [
    "C47_argmin_partial",
    "C47_argmax_partial",
    "C47_argmin_flat",
    "C47_argmax_flat",
    "C47_argmin_column_refuted",
    "C47_argmin_empty_refuted"
   ],
   "note": "Traversal in the layout of the array; other traversal layouts and empty lanes refuted."
  },
  {
   "property": "C48",
   "status": "proved",
   "theorems": [
    "C48_unique",
    "C48_setdiff1d"
   ],
   "note": "Any conforming std::sort."
  },
  {
   "property": "C49",
   "status": "partial",
   "theorems": [
    "C49_isin",
    "C49_searchsorted_partial",
    "C49_searchsorted_side_refuted",
    "C49_searchsorted_unit_refuted",
    "C49_searchsorted_column_refuted"
   ],
   "note": "searchsorted gives the first suitable position for right = true, the last for false: the documented meaning is refuted; values of other layouts refuted."
  },
  {
   "property": "C50",
   "status": "proved",
   "theorems": [
    "C50_median",
    "C50_median_empty_refuted"
   ],
   "note": "For non-empty arrays; the empty one is undefined (C50_median_empty_refuted)."
  },
  {
   "property": "C51",
   "status": "partial",
   "theorems": [
    "C51_whole",
    "C51_whole_empty_refuted",
    "C51_history",
    "C51_create",
    "C51_chunk_iterator",
    "C51_view_assign",
    "C51_view_assign_chunked",
    "C51_missing_indices_refuted",
    "C51_extra_indices_refuted",
    "C51_chunk_layout_refuted",
    "C51_assign_column_major_refuted",
    "C51_assign_more_dimensions_refuted",
    "C51_column_traversal_refuted"
   ],
   "note": "Proved for positive chunk extents of the dimension of the array, full index lists and the row major default traversal; indices in defect or excess, other chunk layouts, more dimensions and column major traversal are refuted. Without a chunk shape (C51_whole) for arrays with no extent 0; with one, it divides by 0 (C51_whole_empty_refuted). File-backed chunks are not modelled."
  },
  {
   "property": "C52",
   "status": "proved",
   "theorems": [
    "C52_argwhere",
    "C52_nonzero",
    "C52_flatnonzero",
    "C52_ravel_indices",
    "C52_flatten_indices"
   ],
   "note": "All shapes with fewer than 2^64 elements; from_indices is not modelled."
  },
  {
   "property": "C53",
   "status": "partial",
   "theorems": [
    "C53_inside",
    "C53_read",
    "C53_fill",
    "C53_scalar",
    "C53_compound",
    "C53_assign_partial",
    "C53_aliasing_refuted",
    "C53_scalar_like_array_refuted",
    "C53_extra_arguments_refuted",
    "C53_filter_fill",
    "C53_filter_scalar",
    "C53_filter_assign",
    "C53_filter_order_refuted",
    "C53_filtration",
    "C53_filtration_global_refuted"
   ],
   "note": "Reads, scalar assignments, compound assignments, filters in storage order and filtrations with a local condition are proved. Plain assignment of an expression reading the array is proved when the first and last selected elements enclose the others in memory; otherwise it is false (C53_aliasing_refuted, C53_filter_order_refuted). Assignments that broadcast the right-hand side are not modelled."
  },
  {
   "property": "C54",
   "status": "proved",
   "theorems": [
    "C54_equality",
    "C54_trim_zeros"
   ],
   "note": "Elements compared with the given comparison; that both operands are iterated in one order is C11 and C34."
  },
  {
   "property": "C55",
   "status": "partial",
   "theorems": [
    "C55_pad_constant",
    "C55_pad_partial",
    "C55_pad_wide_refuted",
    "C55_pad_same_partial"
   ],
   "note": "constant mode proved for all widths; the other modes for widths the axis can show. Wider widths read elements never written: C55_pad_wide_refuted."
  },
  {
   "property": "C56",
   "status": "proved",
   "theorems": [
    "C56_tile",
    "C56_tile_first",
    "C56_tile_zero_refuted"
   ],
   "note": "for repetitions >= 1; 0 repetitions throw: C56_tile_zero_refuted."
  },
  {
   "property": "C57",
   "status": "partial",
   "theorems": [
    "C57_dump",
    "C57_load_partial",
    "C57_roundtrip_partial",
    "C57_roundtrip_small",
    "C57_roundtrip_refuted",
    "C57_column_vector_refuted",
    "C57_reload_refuted"
   ],
   "note": "Dump: full for row and column major arrays below 2^27 dimensions. Load: any well formed file whose header length is readable with the platform's chars (always when unsigned). Round trip: complete for short headers (C57_roundtrip_small); refuted for long ones with signed chars, for 1-d column major arrays loaded as column major and for arrays loaded from Fortran order files."
  },
  {
   "property": "C58",
   "status": "partial",
   "theorems": [
    "C58_not_npy",
    "C58_version",
    "C58_wrong_type_partial",
    "C58_wrong_order_partial",
    "C58_truncated_partial",
    "C58_truncated_refuted",
    "C58_cut_header_refuted"
   ],
   "note": "Rejection of short files, other magic, versions, types and orders proved; truncated data and headers are not rejected (refuted, with the exact result for every cut point)."
  },
  {
   "property": "C59",
   "status": "partial",
   "theorems": [
    "C59_shape",
    "C59_mismatch",
    "C59_single_count",
    "C59_element_partial",
    "C59_iteration_partial",
    "C59_assign_partial",
    "C59_moves_1d_partial",
    "C59_first_zero_refuted",
    "C59_last_zero_refuted",
    "C59_few_arguments_refuted",
    "C59_many_indices_refuted",
    "C59_reverse_refuted",
    "C59_broadcast_refuted",
    "C59_temporary_refuted"
   ],
   "note": "Element access is proved for every expression and every list of counts except the first position when the first count is 0; iteration and assignment for counts whose first and last are not 0; backward moves on one axis. The excluded cases really fail: see the _refuted theorems."
  },
  {
   "property": "C60",
   "status": "partial",
   "theorems": [
    "C60_iteration",
    "C60_assigned",
    "C60_target",
    "C60_moves_partial",
    "C60_reverse_step_refuted",
    "C60_reverse_keep_refuted",
    "C60_reverse_integer_refuted",
    "C60_reverse_integer_keep_refuted",
    "C60_reverse_scalar_refuted",
    "C60_reverse_newaxis_refuted",
    "C60_reverse_single_refuted",
    "C60_broadcast_refuted",
    "C60_empty_keep_refuted"
   ],
   "note": "Forward iteration, assignment from the view and the places written through the view are proved for all slices but an empty keep(). Backward and random moves are proved for the views described by reverse_ok (VStep_Spec.v); for the others, and for broadcasting, the claim is false and refuted."
  },
  {
   "property": "C61",
   "status": "partial",
   "theorems": [
    "C61_axis_slices",
    "C61_axis_end_partial",
    "C61_axis_end_refuted",
    "C61_slices_partial",
    "C61_slices_refuted",
    "C61_slice_end_partial",
    "C61_slices_empty_refuted",
    "C61_slices_fixed_refuted",
    "C61_slices_strides_refuted"
   ],
   "note": "axis_begin: full, for all strides. axis_end: for expressions with data_offset 0; with another offset the iterators never meet (C61_axis_end_refuted, proved for all of them). Slice iterators: contiguous row or column major tensors of dynamic dimension without extents 0, exactly when slices_ok holds (C61_slices_partial, C61_slices_refuted); refuted for extents 0, fixed dimension and other strides."
  },
  {
   "property": "C62",
   "status": "partial",
   "theorems": [
    "C62_fill",
    "C62_slice_fill_refuted",
    "C62_axis_fill_refuted"
   ],
   "note": "C62_fill: every strided_view(e, slices) of an expression with a buffer whose slices are valid. Refuted for the views that the axis and slice iterators give, which carry the layout of the whole tensor."
  },
  {
   "property": "C63",
   "status": "partial",
   "theorems": [
    "C63_edges",
    "C63_between_partial",
    "C63_bins_partial",
    "C63_overflow_refuted",
    "C63_wrong_bin_refuted",
    "C63_int_edges_refuted",
    "C63_density_partial",
    "C63_density_weights_refuted",
    "C63_density_outside_refuted",
    "C63_digitize_partial"
   ],
   "note": "proved in full for explicit edges; bins of equal width and the unit integral in exact arithmetic, refuted for double (out-of-bounds write, wrong bin), for integer edges and for weights or items outside; digitize for row major data whose last extent is not one"
  },
  {
   "property": "C64",
   "status": "partial",
   "theorems": [
    "C64_bincount",
    "C64_bincount_negative",
    "C64_bincount_empty_refuted",
    "C64_uniform_partial",
    "C64_uniform_refuted",
    "C64_uniform_few_refuted",
    "C64_bin_items_partial",
    "C64_bin_items_refuted"
   ],
   "note": "bincount proved for non-empty data and refuted for empty data; uniform edges and bin_items proved in exact arithmetic and refuted for integer weights and double"
  },
  {
   "property": "C65",
   "status": "partial",
   "theorems": [
    "C65_one_dimension",
    "C65_every_order",
    "C65_rows",
    "C65_permutation",
    "C65_permutation_container",
    "C65_permutation_view_refuted",
    "C65_empty_refuted",
    "C65_no_rows_refuted"
   ],
   "note": "Proved for expressions with at least one element, every engine whose draws are in range, and exactly one sequence of draws per order. Refuted: shuffle of an empty expression and permutation(n), n <= 0, access memory out of bounds; permutation of a view shuffles the viewed array. Not covered: the quality of the engines themselves."
  },
  {
   "property": "C66",
   "status": "partial",
   "theorems": [
    "C66_replace",
    "C66_replace_draws",
    "C66_distinct",
    "C66_every_sample",
    "C66_view_refuted",
    "C66_empty_refuted",
    "C66_weights_replace_partial",
    "C66_weights_zero_refuted",
    "C66_weights_distinct_partial",
    "C66_weights_positive_partial"
   ],
   "note": "Without weights: proved for one-dimensional containers, including the count (N-n)! of draw sequences per subset. With weights: proved in exact rational arithmetic (hence _partial), not for rounded doubles. Refuted: choice of a view samples from the first elements of the viewed storage; sampling from an empty container or with all weights zero reads out of bounds."
  },
  {
   "property": "C67",
   "status": "partial",
   "theorems": [
    "C67_elements",
    "C67_missing",
    "C67_missing_overflow_refuted",
    "C67_missing_zero_refuted",
    "C67_missing_twice_refuted",
    "C67_missing_rest_refuted",
    "C67_size_refuted",
    "C67_order_refuted",
    "C67_position",
    "C67_reverse_refuted",
    "C67_flat_refuted",
    "C67_ravel_partial"
   ],
   "note": "Elements, -1 and forward positions for all shapes of the right size; ravel for expressions that can be traversed backwards. False and refuted: reverse iteration, flat() of other strided views, -1 with overflow, zero or a remainder, unchecked sizes, the overload with an order."
  },
  {
   "property": "C68",
   "status": "partial",
   "theorems": [
    "C68_elements_partial",
    "C68_throws",
    "C68_scalar_refuted",
    "C68_unchecked_refuted",
    "C68_missing_refuted",
    "C68_flat_refuted",
    "C68_negative_int_refuted"
   ],
   "note": "C68_elements_partial: v(ix...) and v.element(ix), with any extra leading arguments, for all in-range slices with integers that are not negative; C68_throws. The rest of the statement is refuted: v() of a view without axes (C68_scalar_refuted, for every such view), unchecked (C68_unchecked_refuted), missing leading arguments after a keep or drop (C68_missing_refuted), flat and data_offset (C68_flat_refuted), negative integers (C68_negative_int_refuted). Iterators (steppers) of dynamic views are not modelled."
  },
  {
   "property": "C69",
   "status": "partial",
   "theorems": [
    "C69_multiindex",
    "C69_blocks",
    "C69_reduction",
    "C69_sum",
    "C69_prod",
    "C69_amin",
    "C69_amax",
    "C69_norms",
    "C69_lp_partial",
    "C69_mean",
    "C69_variance",
    "C69_stddev",
    "C69_empty_refuted",
    "C69_negative_axis_refuted",
    "C69_lp_refuted"
   ],
   "note": "Proved for sum, prod, amin, amax, l0, l1, l2, sq, linf over Z, mean, variance and stddev in exact arithmetic (Q), and for any functor in the form of C69_blocks. False where a reduced axis has extent 0 (C69_empty_refuted), for negative axes (C69_negative_axis_refuted) and for norm_lp of negative elements (C69_lp_refuted; C69_lp_partial covers the others). The lazy reducer over each block is taken as the fold of its elements (proved in C41); rounding is not modelled."
  },
  {
   "property": "C70",
   "status": "partial",
   "theorems": [
    "C70_full",
    "C70_dimension",
    "C70_valid_partial",
    "C70_valid_flip_refuted",
    "C70_valid_length_refuted"
   ],
   "note": "full mode and the dimension check proved; valid mode only for equal lengths and a palindromic second operand: refuted otherwise (computes a correlation, reads out of bounds for different lengths). Over integers."
  },
  {
   "property": "C71",
   "status": "partial",
   "theorems": [
    "C71_interp",
    "C71_left_right",
    "C71_ends_refuted"
   ],
   "note": "the piecewise linear function proved for the default ends; with left and right the values exactly at the end points are left and right, refuted as documented. Exact rational arithmetic."
  },
  {
   "property": "C72",
   "status": "partial",
   "theorems": [
    "C72_mean",
    "C72_mean_all",
    "C72_variance_partial",
    "C72_variance_all",
    "C72_ddof_refuted",
    "C72_negative_refuted",
    "C72_braces_refuted",
    "C72_average_axis",
    "C72_average_weights_partial",
    "C72_average_all",
    "C72_weights",
    "C72_average_axes_refuted",
    "C72_average_keep_refuted"
   ],
   "note": "Exact arithmetic on rationals. Means for every valid axes; variances for ddof 0 and 1 or one result, and axes counted from the front; averages with weights of one axis and, without keep_dims, of the shape of e. The rest is refuted."
  },
  {
   "property": "C73",
   "status": "partial",
   "theorems": [
    "C73_lazy",
    "C73_immediate_partial",
    "C73_copy_nansum_refuted",
    "C73_count",
    "C73_count_immediate_partial",
    "C73_copy_count_refuted",
    "C73_mean",
    "C73_variance_partial",
    "C73_variance_all",
    "C73_negative_refuted",
    "C73_minmax",
    "C73_cumulated_partial",
    "C73_cumulated_refuted"
   ],
   "note": "Exact arithmetic on rationals and NaN. Lazy reductions, counts, means and minmax in full; immediate sums, products and counts unless the reduction copies the elements; nanvar for axes counted from the front; cumulated sums and products without extents of 1 among others. The rest is refuted."
  },
  {
   "property": "C74",
   "status": "partial",
   "theorems": [
    "C74_diff_partial",
    "C74_diff_binomial",
    "C74_diff_empty_refuted",
    "C74_trapz",
    "C74_trapz_line",
    "C74_trapz_points_partial"
   ],
   "note": "diff: arrays empty because of another axis are excluded (refuted: shape (0,3) along axis 1 gives (0,0)). trapz with x of the shape of y: the same exclusion, and one-dimensional x is a separate theorem; x of a third shape is missing."
  },
  {
   "property": "C75",
   "status": "partial",
   "theorems": [
    "C75_transform",
    "C75_radix2",
    "C75_fft_partial",
    "C75_ifft_partial",
    "C75_round_trip_partial",
    "C75_inverse_refuted",
    "C75_convolve_partial",
    "C75_axis_refuted",
    "C75_ifft_default_refuted",
    "C75_convolve_default_refuted",
    "C75_convolve_shapes_refuted",
    "C75_convolve_rejects",
    "C75_empty_refuted"
   ],
   "note": "Every length is proved for a line. Arrays: the axes whose slices are enumerated correctly (C61; refuted for the others), extents above 0, non-negative axes for ifft and convolve (refuted for negative ones). The arithmetic is exact: any commutative ring with the laws of complex_laws, which the pairs of real numbers satisfy; rounding is not modelled."
  },
  {
   "property": "C76",
   "status": "partial",
   "theorems": [
    "C76_load_partial",
    "C76_load_no_row",
    "C76_load_rejects_partial",
    "C76_load_bad_cell",
    "C76_ragged_refuted",
    "C76_trailing_cell_refuted",
    "C76_empty_line_refuted",
    "C76_max_rows_refuted",
    "C76_empty_mark",
    "C76_dump",
    "C76_dump_dimension",
    "C76_round_trip_partial",
    "C76_integers_partial",
    "C76_strings_partial",
    "C76_round_trip_refuted",
    "C76_delimiter_refuted",
    "C76_trim",
    "C76_trim_blank",
    "C76_trim_refuted",
    "C76_numerals",
    "C76_unsigned_int_refuted",
    "C76_short_refuted"
   ],
   "note": "Reading is proved against a description of texts by lines and cells that requires the last cell of a row to be non-empty and each line to differ from the comment mark or start with it; ragged rows, trailing empty cells, empty lines, max_rows = 0, the delimiter when writing, empty matrices, blanks around strings, unsigned int and short are refuted with witnesses. Floating-point cells are covered by the generic round trip under the assumption that the conversion inverts the output."
  },
  {
   "property": "C77",
   "status": "partial",
   "theorems": [
    "C77_vectors",
    "C77_vectors_no_leak",
    "C77_vectors_answers",
    "C77_throwing_element_refuted",
    "C77_resize_keeps_refuted",
    "C77_buffers_partial",
    "C77_buffers_refuted",
    "C77_buffers_leak_refuted",
    "C77_buffers_resize_refuted",
    "C77_view",
    "C77_view_size"
   ],
   "note": "uvector: proved for every program and every pattern of failing allocations; refuted when an element constructor throws (the block is lost). Owning buffers: proved for programs that never give a value to a moved-from buffer, refuted for the others. resize keeps nothing of the contents."
  },
  {
   "property": "C78",
   "status": "partial",
   "theorems": [
    "C78_equality",
    "C78_vectors",
    "C78_buffers_less",
    "C78_buffers_greater_partial",
    "C78_buffers_greater_refuted",
    "C78_buffers_at_most_refuted",
    "C78_buffers_reflexive_refuted"
   ],
   "note": "uvector: all comparisons proved. Buffer adaptors: == and < proved, > between equal lengths only; >, <= and >= refuted in general."
  },
  {
   "property": "C79",
   "status": "partial",
   "theorems": [
    "C79_to_json",
    "C79_from_json",
    "C79_round_trip_partial",
    "C79_empty_refuted",
    "C79_ragged_refuted",
    "C79_into_view_partial",
    "C79_view_shape_refuted",
    "C79_view_depth_refuted"
   ],
   "note": "to_json and from_json are proved for all shapes; arrays with an extent 0 are not read back, shapes of views are not checked and lists deeper than four levels overflow the shape of a view (refuted theorems)."
  },
  {
   "property": "C80",
   "status": "partial",
   "theorems": [
    "C80_all",
    "C80_all_methods",
    "C80_quantile",
    "C80_range",
    "C80_monotone",
    "C80_methods",
    "C80_column_major_refuted",
    "C80_empty_refuted"
   ],
   "note": "Exact rationals instead of floating point; NaN is left out; e is a container; row-major default traversal and layout (with column-major ones the claim is refuted), and at least one element along the axis (otherwise refuted). The versions without axis (C80_all, C80_all_methods) take ravel(e) as a container with the elements of e in the order of iteration."
  },
  {
   "property": "C81",
   "status": "partial",
   "theorems": [
    "C81_strides",
    "C81_construct",
    "C81_reshape_partial",
    "C81_reshape_longer_refuted",
    "C81_is_contiguous",
    "C81_assign_partial",
    "C81_one_level",
    "C81_hidden_broadcast_refuted",
    "C81_shape_mismatch_refuted",
    "C81_zero_d_scalar_refuted"
   ],
   "note": "Strides, size, construction and is_contiguous in full. Assignment: expressions of another shape than an xtensor_fixed destination, broadcasting hidden below the outermost function and 0-dimensional operands are excluded, each refuted. reshape: longer shapes excluded, refuted."
  },
  {
   "property": "C82",
   "status": "partial",
   "theorems": [
    "C82_rectangular_list",
    "C82_fixed_list_partial",
    "C82_ragged_refuted",
    "C82_fixed_list_refuted"
   ],
   "note": "Proved for xarray and xtensor for all rectangular lists. For xtensor_fixed the list must have the shape of the type; that lists of other shapes are rejected is refuted, as is any check of ragged lists."
  },
  {
   "property": "C83",
   "status": "partial",
   "theorems": [
    "C83_lazy_partial",
    "C83_all_partial",
    "C83_immediate_partial",
    "C83_induced_partial",
    "C83_induced_dimension",
    "C83_overflow_refuted",
    "C83_unsigned_squares_refuted",
    "C83_bad_axes_refuted",
    "C83_negative_braces_refuted",
    "C83_braces"
   ],
   "note": "Element norms and totals must be values of the types they are computed in: int squares overflow, unsigned ones wrap, the least int has no absolute value (all refuted). Invalid axes, and negative axes in braces, end the program (refuted). norm_l2 and norm_lp need roots and are not modelled."
  },
  {
   "property": "C84",
   "status": "partial",
   "theorems": [
    "C84_read",
    "C84_fill",
    "C84_scalar",
    "C84_assign_partial",
    "C84_compound",
    "C84_complex",
    "C84_shape_error",
    "C84_proxy_partial",
    "C84_proxy_refuted",
    "C84_mixed_strides_refuted",
    "C84_iterator_equality",
    "C84_iterator_order_refuted",
    "C84_adaptor_partial",
    "C84_adaptor_dynamic_refuted",
    "C84_adaptor_broadcast_refuted"
   ],
   "note": "Assignment proved for strides of one sign and functors with an address; compound assignment for any strides; proxies only for aligned operands; adaptors for static layouts and operands of one shape. The rest is refuted (C84_*_refuted)."
  },
  {
   "property": "C85",
   "status": "partial",
   "theorems": [
    "C85_text_partial",
    "C85_layout",
    "C85_aligned_integers",
    "C85_aligned_texts_partial",
    "C85_aligned_texts_refuted",
    "C85_faithful",
    "C85_line_width_partial",
    "C85_line_width_refuted",
    "C85_edge_one_refuted",
    "C85_least_refuted",
    "C85_empty",
    "C85_aligned_booleans"
   ],
   "note": "Text proved except for one edge item (refuted: reads out of bounds); exact layout, alignment and faithfulness for arrays printed in full; line width for one dimension only (refuted for more). Floating-point and complex printers are not modelled."
  },
  {
   "property": "C86",
   "status": "partial",
   "theorems": [
    "C86_elements",
    "C86_where_refuted",
    "C86_assign_partial",
    "C86_compound_partial",
    "C86_alias_refuted",
    "C86_grow_refuted",
    "C86_filled",
    "C86_of_values",
    "C86_moved_refuted",
    "C86_write",
    "C86_reshape",
    "C86_flat_partial",
    "C86_flat_refuted",
    "C86_value_partial",
    "C86_value_refuted",
    "C86_reduce"
   ],
   "note": "Elements, values and flags of expressions, construction, element writes, reshape and reductions in full; assignment where no operand is stored in the destination, or only the destination itself with the same shape. where, overlapping operands, a destination that grows, moved xarrays, mixed layouts and dynamic layouts are refuted. xtl's optional value is assumed as described."
  },
  {
   "property": "C87",
   "status": "partial",
   "theorems": [
    "C87_read",
    "C87_fill",
    "C87_scalar",
    "C87_lazy_refuted",
    "C87_assign_partial",
    "C87_compound_partial",
    "C87_shape_error",
    "C87_alias_refuted",
    "C87_shared_flag_refuted",
    "C87_copy_partial",
    "C87_copy_shape_refuted",
    "C87_wide_mask_refuted"
   ],
   "note": "Proved for reading, fill, scalar compound assignment and shape errors; assignment proved for operands that are aligned with the data or disjoint from it, and for hidden values only when every element has its own flag. The excluded cases are false of the code (the _refuted theorems). Masked views over assemblies are not modelled."
  },
  {
   "property": "C88",
   "status": "partial",
   "theorems": [
    "C88_power",
    "C88_power_int_partial",
    "C88_power_narrow_refuted",
    "C88_power_unsigned",
    "C88_extrema",
    "C88_clip",
    "C88_amax",
    "C88_amin",
    "C88_amax_inf_refuted",
    "C88_amax_nan_refuted",
    "C88_sign",
    "C88_nan_to_num",
    "C88_isclose",
    "C88_isclose_doc_refuted",
    "C88_isclose_inf_refuted",
    "C88_allclose",
    "C88_all_any"
   ],
   "note": "Exact arithmetic: numbers, infinities and NaN without rounding. Integer powers are exact when half the power fits the element type; for narrow types refuted. amax/amin need an order whose extreme value is the initial value: refuted for infinities and NaN. The documented formula of isclose is refuted; an infinity is close to every number."
  },
  {
   "property": "C89",
   "status": "proved",
   "theorems": [
    "C89_unwrap",
    "C89_unique",
    "C89_steps",
    "C89_small_discontinuity",
    "C89_idempotent",
    "C89_argument_refuted",
    "C89_integer_refuted"
   ],
   "note": "Exact arithmetic (rationals); for arrays of integers the period is an integer, and C89_integer_refuted shows what happens otherwise. C89_argument_refuted: an argument that is a variable is overwritten."
  },
  {
   "property": "C90",
   "status": "partial",
   "theorems": [
    "C90_adapt",
    "C90_adapt_throws",
    "C90_adapt_strides_partial",
    "C90_strides_refuted",
    "C90_assign_partial",
    "C90_size",
    "C90_size_refuted",
    "C90_dynamic_layout_refuted",
    "C90_copy_refuted"
   ],
   "note": "Missing: shapes with strides that leave gaps (refuted: C90_strides_refuted), the reported layout of adaptors with a dynamic layout (refuted: C90_dynamic_layout_refuted), generators that read the buffer (C36_generator_alias_refuted), buffers with ownership of a pointer. C90_size_refuted: after the exception the adaptor has the new shape. C90_copy_refuted: assigning a pointer adaptor rebinds it."
  },
  {
   "property": "C91",
   "status": "partial",
   "theorems": [
    "C91_cov_partial",
    "C91_vectors_partial",
    "C91_symmetric",
    "C91_semidefinite_partial",
    "C91_affine_partial",
    "C91_one_refuted",
    "C91_empty_refuted",
    "C91_integer_refuted"
   ],
   "note": "Exact arithmetic (rationals); at least two observations (C91_one_refuted, C91_empty_refuted), elements that are not integers (C91_integer_refuted)."
  },
  {
   "property": "C92",
   "status": "partial",
   "theorems": [
    "C92_values",
    "C92_to_json",
    "C92_from_json",
    "C92_made",
    "C92_copy",
    "C92_round_trip_partial",
    "C92_scalar_refuted",
    "C92_read_refuted",
    "C92_empty_refuted",
    "C92_copy_refuted",
    "C92_assign_back_refuted"
   ],
   "note": "C92_round_trip_partial covers arrays with at least one axis and no empty axis; what an array holds after its own from_json threw is not described. Refuted parts: reading into an empty holder throws in every case, copies of holders that are not const are references."
  },
  {
   "property": "C93",
   "status": "partial",
   "theorems": [
    "C93_cells_partial",
    "C93_complete",
    "C93_titles",
    "C93_rectangular_partial",
    "C93_empty_refuted",
    "C93_escape_refuted",
    "C93_edge_one_refuted"
   ],
   "note": "Missing: one edge item and arrays without elements (both refuted), element types whose printer uses the precision; rectangularity is proved for matrices."
  },
  {
   "property": "C94",
   "status": "proved",
   "theorems": [
    "C94_safe",
    "C94_freed",
    "C94_use_count",
    "C94_share",
    "C94_value",
    "C94_self_contained",
    "C94_apply",
    "C94_stable",
    "C94_write_seen",
    "C94_share_again_refuted",
    "C94_share_copy_refuted",
    "C94_const_handle_refuted",
    "C94_documented_count_refuted"
   ],
   "note": "All statements proved for programs of any length; sharing is modelled for arrays (not for functions), functions have two arguments, the value of an array is one abstract value. Four statements users may expect are refuted (C94_share_again_refuted, C94_share_copy_refuted, C94_const_handle_refuted, C94_documented_count_refuted)."
  },
  {
   "property": "C95",
   "status": "partial",
   "theorems": [
    "C95_history",
    "C95_observers",
    "C95_iteration",
    "C95_positions",
    "C95_equality",
    "C95_order",
    "C95_hidden_refuted",
    "C95_total_refuted",
    "C95_lengths_refuted"
   ],
   "note": "The parts are uvectors of equal length (parts of different lengths are accepted by the constructor and then overrun: C95_lengths_refuted). As an order or equality of the visible elements the claim is refuted (C95_hidden_refuted, C95_total_refuted). data() has no return statement and is not modelled."
  },
  {
   "property": "C96",
   "status": "partial",
   "theorems": [
    "C96_temporary",
    "C96_variable",
    "C96_iterators",
    "C96_at_once",
    "C96_list_refuted",
    "C96_begin_end_refuted",
    "C96_moved_refuted"
   ],
   "note": "Full for temporary containers, variables and iterator variables. Refuted for stored results of lists in braces and of begin(), end() (C96_list_refuted, C96_begin_end_refuted: for every later program) and for moved iterator variables (C96_moved_refuted)."
  },
  {
   "property": "C97",
   "status": "partial",
   "theorems": [
    "C97_moves",
    "C97_element",
    "C97_compare_partial",
    "C97_loop_partial",
    "C97_difference_partial",
    "C97_negative_difference_refuted",
    "C97_scalars_first",
    "C97_loop_refuted"
   ],
   "note": "Moves and elements proved for every tree. Comparison and loops hold when the first non-scalar operand leads to an array (array_first), and are shown to fail whenever it does not (C97_scalars_first, C97_loop_refuted). Differences are right when not negative; negative ones are 0 (C97_negative_difference_refuted)."
  },
  {
   "property": "C98",
   "status": "partial",
   "theorems": [
    "C98_text_partial",
    "C98_format",
    "C98_zero_ignored",
    "C98_zero_refuted"
   ],
   "note": "Full for programs that use no manipulator of value 0; with 0 the global value is used, in every program (C98_zero_ignored, C98_zero_refuted). C98_format (precision, flags, options carried) holds for all programs. Printers that throw are not modelled."
  },
  {
   "property": "C99",
   "status": "partial",
   "theorems": [
    "C99_eval_copy",
    "C99_eval_reference",
    "C99_strided_copy",
    "C99_strided_reference",
    "C99_layout",
    "C99_temporary_refuted",
    "C99_strided_temporary_refuted"
   ],
   "note": "Copies, references and layout are proved; that the result bound with auto&& can be read is refuted for temporary containers (eval) and temporary containers and views of the layout (as_strided). Views and functions are of container variables, not of one another."
  },
  {
   "property": "C100",
   "status": "partial",
   "theorems": [
    "C100_value",
    "C100_defined",
    "C100_operand_refuted"
   ],
   "note": "The value is proved for every program in which the variables among the operands are there when the result is read; that it can be read whenever the result exists is refuted (C100_operand_refuted). The element-wise application is an abstract function of the operands (C34, C88); operands are arrays and scalars, not lazy results."
  }
 ]
}