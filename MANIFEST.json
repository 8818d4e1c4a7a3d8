{
 "claims": [
  {
   "property": "C01",
   "status": "partial",
   "theorems": [
    "C01_domain_equality_sound",
    "C01_domain_equality_decides_index_sets",
    "C01_domain_equality_refuted"
   ],
   "note": "Sound for all domains; complete for length >= 2 and non-zero strides. The documented contract is false for domains of length 0 or 1 (C01_domain_equality_refuted)."
  },
  {
   "property": "C02",
   "status": "partial",
   "theorems": [
    "C02_domain_shift",
    "C02_domain_shift_back",
    "C02_domain_scale",
    "C02_domain_div_undoes_mul",
    "C02_domain_div_negative_refuted"
   ],
   "note": "Shift and scale proved for all domains; division proved for non-negative strides and refuted for negative strides (unsigned division of a signed stride)."
  },
  {
   "property": "C03",
   "status": "partial",
   "theorems": [
    "C03_intersect_exact",
    "C03_intersect_exact_multi",
    "C03_intersect_empty_refuted",
    "C03_intersect_negative_stride_refuted"
   ],
   "note": "Exact for unit-stride first argument, positive second stride, non-empty domains, including unsigned wrap-around; refuted for an empty domain at 0 and for negative strides, which the code does not reject."
  },
  {
   "property": "C04",
   "status": "proved",
   "theorems": [
    "C04_apply_intr_positions",
    "C04_subset_from_intr_positions",
    "C04_apply_intr_positions_multi",
    "C04_subset_from_intr_positions_multi"
   ],
   "note": "Domains must be non-empty; product of strides representable."
  },
  {
   "property": "C05",
   "status": "proved",
   "theorems": [
    "C05_traversal_exactly_once_in_order"
   ],
   "note": ""
  },
  {
   "property": "C06",
   "status": "partial",
   "theorems": [
    "C06_distinct_cells_inside_allocation",
    "C06_dense_uses_every_cell",
    "C06_runtime_layout_distinct_cells",
    "C06_column_aligned_two_arg_ctor_refuted",
    "C06_two_arg_ctor_agrees",
    "C06_empty_aligned_allocation_refuted"
   ],
   "note": "Proved for every layout built from an extent (1-3 D, all orders, dense/unit-stride/aligned, compile-time and run-time). Refuted for the two-argument constructor of the 2-D column-major aligned layout, and total_size wraps for an empty aligned matrix."
  },
  {
   "property": "C07",
   "status": "partial",
   "theorems": [
    "C07_lines_aligned_and_padding_bounded",
    "C07_runtime_lines_aligned",
    "C07_runtime_padding_bounded",
    "C07_aligned_512_runtime_refuted"
   ],
   "note": "Proved for all layouts; refuted for the run-time description of aligned_512 blocks (missing trait specialisation)."
  },
  {
   "property": "C08",
   "status": "proved",
   "theorems": [
    "C08_offset_is_dot_product_of_strides",
    "C08_runtime_offset_is_dot_product",
    "C08_user_strides_dot_product"
   ],
   "note": ""
  },
  {
   "property": "C09",
   "status": "proved",
   "theorems": [
    "C09_block_partition",
    "C09_block_contiguous_in_order"
   ],
   "note": ""
  },
  {
   "property": "C10",
   "status": "proved",
   "theorems": [
    "C10_cyclic_partition",
    "C10_cyclic_patch_sizes"
   ],
   "note": ""
  },
  {
   "property": "C11",
   "status": "proved",
   "theorems": [
    "C11_block_balanced",
    "C11_cyclic_balanced"
   ],
   "note": ""
  },
  {
   "property": "C12",
   "status": "partial",
   "theorems": [
    "C12_map_partitions",
    "C12_block_patch_query_refuted"
   ],
   "note": "The block_patch global query of a cyclic dimension is refuted; everything else proved."
  },
  {
   "property": "C13",
   "status": "partial",
   "theorems": [
    "C13_owners_agree",
    "C13_replicated_owners_agree",
    "C13_repeated_processor_refuted"
   ],
   "note": "Holds for maps whose processor list has no repetition; a repeated processor is refuted."
  },
  {
   "property": "C14",
   "status": "proved",
   "theorems": [
    "C14_equal_maps_place_identically",
    "C14_equivalent_maps_place_identically",
    "C14_map_equiv_defined"
   ],
   "note": ""
  },
  {
   "property": "C15",
   "status": "partial",
   "theorems": [
    "C15_assignment_delivers",
    "C15_interleaved_refuted"
   ],
   "note": "Proved for the element type the chains are built for; the interleaved-complex chain is refuted (byte lengths of one component)."
  },
  {
   "property": "C16",
   "status": "proved",
   "theorems": [
    "C16_messages_match"
   ],
   "note": ""
  },
  {
   "property": "C17",
   "status": "partial",
   "theorems": [
    "C17_build_size",
    "C17_build_bytes",
    "C17_gather",
    "C17_chain_to_chain",
    "C17_empty_records_refuted",
    "C17_no_records_refuted"
   ],
   "note": "Empty records and chains without records are refuted (the size arithmetic divides by zero or wraps)."
  },
  {
   "property": "C18",
   "status": "proved",
   "theorems": [
    "C18_foreach_point_exactly_once",
    "C18_foreach_patch_tiles"
   ],
   "note": ""
  },
  {
   "property": "C19",
   "status": "partial",
   "theorems": [
    "C19_each_element_names_one",
    "C19_get_reads_named_element",
    "C19_put_writes_named_element",
    "C19_distinct_elements",
    "C19_view_put_get",
    "C19_zero_stride_refuted"
   ],
   "note": "Distinctness needs non-zero strides; stride 0 is refuted as a counterexample to independence."
  },
  {
   "property": "C20",
   "status": "proved",
   "theorems": [
    "C20_pointer_addresses_named_element"
   ],
   "note": ""
  },
  {
   "property": "C21",
   "status": "partial",
   "theorems": [
    "C21_diag_exact",
    "C21_offset_beyond_matrix_refuted"
   ],
   "note": "Offsets beyond the matrix are refuted (the size wraps)."
  },
  {
   "property": "C22",
   "status": "proved",
   "theorems": [
    "C22_component_write",
    "C22_component_read",
    "C22_component_pointer"
   ],
   "note": ""
  },
  {
   "property": "C23",
   "status": "partial",
   "theorems": [
    "C23_put_get",
    "C23_cells",
    "C23_conversion",
    "C23_any_format_refuted"
   ],
   "note": "Proved for the three static formats; the run-time format's get/put ignore the index (refuted)."
  },
  {
   "property": "C24",
   "status": "partial",
   "theorems": [
    "C24_history",
    "C24_idempotent",
    "C24_release_without_user_storage_refuted"
   ],
   "note": "Proved for every history of a block with user storage; release(true) on a block without user storage is refuted (null user pointer)."
  },
  {
   "property": "C25",
   "status": "partial",
   "theorems": [
    "C25_sync_policy",
    "C25_direct_or_copy_unobservable",
    "C25_out_copy_observable_refuted"
   ],
   "note": "in/out/inout proved for every view, program and window; direct versus copy proved unobservable for inout. Refuted for out alone: unwritten elements of a copy access become the temporary's previous content."
  },
  {
   "property": "C26",
   "status": "partial",
   "theorems": [
    "C26_window_has_requested_layout",
    "C26_is_compatible_sound",
    "C26_type_layout_sound",
    "C26_alignment_of_storage_refuted",
    "C26_user_storage_alignment_refuted"
   ],
   "note": "Soundness of the compile-time and run-time choice proved for every view and request. Refuted only for the base address: aligned packings are not checked against user storage nor against the default allocation alignment."
  },
  {
   "property": "C27",
   "status": "partial",
   "theorems": [
    "C27_no_use_after_free",
    "C27_exists_while_referenced",
    "C27_exists_exactly_while_reachable",
    "C27_destroyed_once",
    "C27_assign_null_refuted",
    "C27_reset_self_refuted",
    "C27_assign_own_member_refuted"
   ],
   "note": "Proved for all interleavings (sequentially consistent) of legal operations. The class's own preconditions are shown necessary by refutations: assigning null, reset to self, assigning from a member of the released object."
  },
  {
   "property": "C28",
   "status": "partial",
   "theorems": [
    "C28_sumval",
    "C28_sumsqval",
    "C28_meanval",
    "C28_meansqval",
    "C28_sum_of_magsq",
    "C28_sumval_bool",
    "C28_float_sum_unit_stride",
    "C28_float_sumsq_unit_stride",
    "C28_float_mean_unit_stride",
    "C28_float_meansq_unit_stride",
    "C28_float_strided_refuted",
    "C28_float_complex_meansq_refuted"
   ],
   "note": "Proved for the generic evaluators, all dimensions and dimension orders, and for single-precision vectors of any length with unit stride. Refuted for single-precision vectors of 4096 or more elements that are not adjacent in memory, and for meansqval of long complex single-precision vectors."
  },
  {
   "property": "C29",
   "status": "proved",
   "theorems": [
    "C29_alltrue",
    "C29_anytrue",
    "C29_alltrue_bool",
    "C29_anytrue_bool"
   ],
   "note": "Bitwise characterisation for integers, forall/exists for bool, with the early exits."
  },
  {
   "property": "C30",
   "status": "partial",
   "theorems": [
    "C30_extremum",
    "C30_empty_view_refuted"
   ],
   "note": "Proved for non-empty views under any strict weak order; on an empty view the search reads index zero (refuted)."
  },
  {
   "property": "C31",
   "status": "proved",
   "theorems": [
    "C31_indexbool_vector",
    "C31_indexbool_matrix",
    "C31_first",
    "C31_first_past_the_end",
    "C31_gather",
    "C31_scatter",
    "C31_gather_after_scatter"
   ],
   "note": "indexbool for vectors and matrices, first, gather, scatter, gather after scatter."
  },
  {
   "property": "C32",
   "status": "partial",
   "theorems": [
    "C32_ramp",
    "C32_clip",
    "C32_clip_saturates",
    "C32_invclip",
    "C32_invclip_excludes",
    "C32_swap",
    "C32_swap_orders_refuted",
    "C32_swap_padded_refuted"
   ],
   "note": "Clip over integers, ramp over any commutative ring, swap of dense blocks of equal dimension order. Refuted: swap of matrices of different dimension order or padded layout exchanges storage cells, not elements."
  },
  {
   "property": "C33",
   "status": "proved",
   "theorems": [
    "C33_pieces_equal_whole",
    "C33_no_save_zero_history",
    "C33_reset_forgets",
    "C33_constructible",
    "C33_strided_data"
   ],
   "note": "All kernels, symmetries, decimations, block sizes and numbers of calls, over any commutative ring; input and output vectors do not overlap."
  },
  {
   "property": "C34",
   "status": "proved",
   "theorems": [
    "C34_counts"
   ],
   "note": "Per-call and total counts; the assertion in apply never fires."
  },
  {
   "property": "C35",
   "status": "partial",
   "theorems": [
    "C35_conv_full_kernel",
    "C35_conv_full_kernel_matrix",
    "C35_conv_kernel_size_refuted",
    "C35_fir_full_kernel_unique",
    "C35_fir_uses_full_kernel"
   ],
   "note": "Proved for Fir and for vector and matrix convolution. Refuted for conv_kernel_size of an even symmetric matrix kernel (wrong number of columns)."
  },
  {
   "property": "C36",
   "status": "proved",
   "theorems": [
    "C36_pieces_equal_whole",
    "C36_response_unique",
    "C36_no_save_zero_state",
    "C36_reset_forgets",
    "C36_in_place",
    "C36_constructible"
   ],
   "note": "Any number of sections and calls, over any commutative ring; input and output separate or identical."
  },
  {
   "property": "C37",
   "status": "partial",
   "theorems": [
    "C37_vector",
    "C37_matrix",
    "C37_min_long_kernel_refuted",
    "C37_min_wide_kernel_refuted"
   ],
   "note": "Vectors and matrices, all symmetries, supports, decimations and address patterns (strides, split storage), over any commutative ring; output disjoint from input. Minimal support needs the full kernel to fit in the input; the constructor does not check that, and the output size then wraps (refuted)."
  },
  {
   "property": "C38",
   "status": "partial",
   "theorems": [
    "C38_interior_plus_edges",
    "C38_tall_kernel_refuted"
   ],
   "note": "Proved when half the kernel fits in the input; refuted for taller kernels (unsigned wrap)."
  },
  {
   "property": "C39",
   "status": "partial",
   "theorems": [
    "C39_vector",
    "C39_matrix",
    "C39_even_same_divisor",
    "C39_even_same_refuted",
    "C39_long_reference_refuted"
   ],
   "note": "Vectors and matrices, biased and unbiased, for references no longer than the input. Refuted for 1-D same support with even reference length (divisor one less than the number of terms; the source says this is the C-VSIPL definition) and for same support with a longer reference."
  },
  {
   "property": "C40",
   "status": "partial",
   "theorems": [
    "C40_real_samples",
    "C40_int_samples",
    "C40_from_counts",
    "C40_one_bin",
    "C40_counts_add_up",
    "C40_int_samples_refuted",
    "C40_float_rounding_refuted"
   ],
   "note": "Proved for exact real samples and for int samples whose range is a multiple of the number of inner bins, over all call sequences. Refuted for general int samples (bin out of range, division by zero) and, by rounding, for float samples."
  },
  {
   "property": "C41",
   "status": "partial",
   "theorems": [
    "C41_vector",
    "C41_matrix_in_place",
    "C41_matrix_out_of_place",
    "C41_vector_twice",
    "C41_matrix_twice",
    "C41_axis_row",
    "C41_axis_col_square",
    "C41_axis_col_refuted",
    "C41_equal_subviews_refuted",
    "C41_empty_refuted"
   ],
   "note": "Proved for vectors and matrices, in place and out of place. Refuted for freqswap<col> on non-square matrices (loops over rows), for two equal subviews of odd size (not recognised as the same block) and for empty vectors (reads element 0)."
  },
  {
   "property": "C42",
   "status": "partial",
   "theorems": [
    "C42_leapfrog",
    "C42_leapfrog_partition",
    "C42_full_period",
    "C42_streams_disjoint",
    "C42_first_numbers_refuted",
    "C42_portable",
    "C42_portable_disjoint",
    "C42_adders",
    "C42_zero_processors_refuted"
   ],
   "note": "Leap-frog positions, full period, disjointness, jump-ahead and the portable combination proved for all seeds, k, ids and calls. Refuted: the first k-1 numbers of the single sequence belong to no generator; numprocs=0 does not return (non-portable) or divides by zero (portable)."
  },
  {
   "property": "C43",
   "status": "partial",
   "theorems": [
    "C43_uniform_range",
    "C43_normal",
    "C43_normal_complex",
    "C43_uniform_complex",
    "C43_float_refuted"
   ],
   "note": "Exact arithmetic, all states. Refuted in single precision: the number 1 is returned (rounding)."
  },
  {
   "property": "C44",
   "status": "partial",
   "theorems": [
    "C44_dot",
    "C44_cvjdot",
    "C44_outer",
    "C44_kron_vectors",
    "C44_kron_matrices",
    "C44_gemp",
    "C44_gems",
    "C44_prod",
    "C44_prodj",
    "C44_prodh",
    "C44_prodt",
    "C44_matrix_vector",
    "C44_vector_matrix",
    "C44_cumsum_vector",
    "C44_cumsum_matrix",
    "C44_in_place_refuted",
    "C44_gemp_in_place_refuted",
    "C44_gems_in_place_refuted",
    "C44_prod3",
    "C44_prod4",
    "C44_prod3_vector",
    "C44_prod4_vector",
    "C44_prod_mismatch",
    "C44_short_operand",
    "C44_cumsum_short",
    "C44_inner_size_refuted"
   ],
   "note": "All generic evaluators, all shapes and address patterns, over any commutative ring and any conjugation; destination apart from the operands (cumsum, gems: apart or identical). Refuted in place: A = prod(A,A), gemp with C among the operands and gems with transposed C give wrong results, since the destination is written while the operands are read. Mismatched inner sizes: prod refuses them all (C44_prod_mismatch) and every variant refuses an operand that is too short (C44_short_operand), but prodj, prodh, prodt, prod3 and prod4 accept one that is too long and use only a part of it (C44_inner_size_refuted)."
  },
  {
   "property": "C45",
   "status": "partial",
   "theorems": [
    "C45_solves",
    "C45_total",
    "C45_rank_error",
    "C45_definite",
    "C45_indefinite_refuted",
    "C45_order_one_refuted",
    "C45_zero_diagonal_refuted"
   ],
   "note": "toepsol over an arbitrary field with conjugation: any returned vector solves the system; total for order >= 2 and nonzero real t_0; the error implies a singular leading block; definite matrices never raise it. Refuted parts: order one reads out of range, a zero diagonal is divided by, an indefinite matrix is not reported although documented."
  },
  {
   "property": "C46",
   "status": "partial",
   "theorems": [
    "C46_runtime_description_of_dense_layout",
    "C46_runtime_description_of_aligned_layout_partial",
    "C46_alignment_units_refuted"
   ],
   "note": "Dense layouts: all. Aligned: only for one-byte elements and not aligned_512; the compile-time classes take the alignment in elements, the run-time class in bytes (refuted)."
  },
  {
   "property": "C47",
   "status": "partial",
   "theorems": [
    "C47_assign",
    "C47_constant_refuted"
   ],
   "note": "Assignment proved; constancy of a random view is refuted (each read draws a new number)."
  },
  {
   "property": "C48",
   "status": "proved",
   "theorems": [
    "C48_modulate",
    "C48_frames"
   ],
   "note": "Exact arithmetic; the complex exponential is an arbitrary function."
  },
  {
   "property": "C49",
   "status": "proved",
   "theorems": [
    "C49_size_counts_indices"
   ],
   "note": "size(Domain<D>) equals the number of distinct index tuples for every dimension count."
  },
  {
   "property": "C50",
   "status": "proved",
   "theorems": [
    "C50_one_dim",
    "C50_one_dim_in_place",
    "C50_real_to_complex",
    "C50_complex_to_real",
    "C50_two_dim",
    "C50_two_dim_in_place",
    "C50_two_dim_real_axis0",
    "C50_two_dim_real_axis1",
    "C50_three_dim",
    "C50_three_dim_in_place",
    "C50_three_dim_real_axis0",
    "C50_three_dim_real_axis1",
    "C50_three_dim_real_axis2",
    "C50_two_dim_complex_to_real_axis0",
    "C50_two_dim_complex_to_real_axis1",
    "C50_three_dim_complex_to_real_axis0",
    "C50_three_dim_complex_to_real_axis1",
    "C50_three_dim_complex_to_real_axis2",
    "C50_reals_formula"
   ],
   "note": "Exact arithmetic over an arbitrary ring with given cosine and sine tables. The theorem C50_reals_formula uses the axioms of Coq's reals. Three-dimensional transforms and complex-to-real ones of split storage need offsets that fit int (see C52_int_offset_refuted)."
  },
  {
   "property": "C51",
   "status": "proved",
   "theorems": [
    "C51_one_dim",
    "C51_one_dim_in_place",
    "C51_one_dim_real",
    "C51_two_dim",
    "C51_two_dim_real_axis0",
    "C51_two_dim_real_axis1",
    "C51_three_dim",
    "C51_three_dim_real_axis0",
    "C51_three_dim_real_axis1",
    "C51_three_dim_real_axis2",
    "C51_reals_exact"
   ],
   "note": "Twiddle factors satisfy the laws of roots of unity (shown for the real sine and cosine by C51_reals_exact, which uses the axioms of Coq's reals)."
  },
  {
   "property": "C52",
   "status": "partial",
   "theorems": [
    "C52_rows",
    "C52_rows_in_place",
    "C52_rows_real_to_complex",
    "C52_rows_complex_to_real",
    "C52_columns",
    "C52_columns_in_place",
    "C52_columns_real_to_complex",
    "C52_columns_complex_to_real",
    "C52_int_offset_refuted"
   ],
   "note": "All variants proved; for split storage the real-to-complex variant needs row offsets that fit int. Refuted without that: the helper offset(data, int) narrows 64-bit offsets."
  },
  {
   "property": "C53",
   "status": "proved",
   "theorems": [
    "C53_scaled_transform",
    "C53_scaled_real_to_complex",
    "C53_scaled_complex_to_real",
    "C53_scaled_in_place",
    "C53_wrong_size_rejected",
    "C53_round_trip",
    "C53_round_trip_reals"
   ],
   "note": "One-dimensional front end. C53_round_trip_reals uses the axioms of Coq's reals."
  },
  {
   "property": "C54",
   "status": "partial",
   "theorems": [
    "C54_vector_copy",
    "C54_matrix_copy_partial",
    "C54_row_from_column_refuted",
    "C54_matrix_self_copy",
    "C54_transpose_in_place",
    "C54_split_copy"
   ],
   "note": "Missing: a row-major destination that is not contiguous, from a column-major source, when the matrix is not square; refuted by C54_row_from_column_refuted (copy.hpp passes the extents in the wrong order in that branch)."
  },
  {
   "property": "C55",
   "status": "proved",
   "theorems": [
    "C55_vector_assign",
    "C55_matrix_assign",
    "C55_tensor_assign",
    "C55_defined"
   ],
   "note": "Expressions of any depth with elementwise, sub-view, vmmul and whole-view (cached) nodes; exact arithmetic; the destination may be an operand at the same index. Overlap with different indices, which the library leaves undefined, is excluded (C55_overlap_example)."
  },
  {
   "property": "C56",
   "status": "partial",
   "theorems": [
    "C56_operators",
    "C56_operator_size",
    "C56_size",
    "C56_scalar_operand",
    "C56_vector_compound",
    "C56_matrix_compound",
    "C56_element_loops_partial",
    "C56_element_loops_reject",
    "C56_tensor_own_element_refuted",
    "C56_bitwise_own_element_refuted",
    "C56_vmmul"
   ],
   "note": "Missing: tensors' compound operators and the bitwise ones with a scalar argument that refers to an element of the destination; refuted (the scalar is taken by reference and changes during the loop)."
  },
  {
   "property": "C57",
   "status": "partial",
   "theorems": [
    "C57_subview_placement",
    "C57_subview_local",
    "C57_subview_of_subview",
    "C57_subblock_domain_refuted",
    "C57_reversed_subview_refuted",
    "C57_empty_subview_refuted"
   ],
   "note": "Proved for non-empty sub-domains with positive strides. Refuted: negative strides (the map loses every element), empty sub-domains starting at 0, and the subblock size the map reports. Cyclic maps throw. The local view of a sub-view of a sub-view is unimplemented in the library (throws)."
  },
  {
   "property": "C58",
   "status": "proved",
   "theorems": [
    "C58_slice_placement",
    "C58_line_placement"
   ],
   "note": "All five one-index and three two-index projections; any mix of distributions. That copy_dist names the right class per dimension is a compile-time matter and not modelled."
  },
  {
   "property": "C59",
   "status": "partial",
   "theorems": [
    "C59_calls_defined_partial",
    "C59_chunks_exclusive_partial",
    "C59_contents_kept_partial",
    "C59_request_met_partial",
    "C59_total_avail_partial",
    "C59_merge_overlap_refuted",
    "C59_free_last_refuted",
    "C59_lost_memory_refuted",
    "C59_huge_request_refuted",
    "C59_page_count_refuted"
   ],
   "note": "Proved for histories in which each return happens while some memory above the chunk is unused and the byte below it is in use (or the unused run below has the size of the chunk); refuted outside these: overlapping chunks, a wild pointer, lost memory; also for requests near 2^64 and pools of 2 GB and more. Thread safety is not modelled."
  },
  {
   "property": "C60",
   "status": "partial",
   "theorems": [
    "C60_aligned",
    "C60_huge_array_refuted",
    "C60_no_double_free",
    "C60_owned_once",
    "C60_no_leak"
   ],
   "note": "Everything proved for sizes whose byte count is below 2^64; refuted beyond (the multiplication wraps)."
  },
  {
   "property": "C61",
   "status": "partial",
   "theorems": [
    "C61_arithmetic_exact",
    "C61_result_type",
    "C61_promotion_maximum",
    "C61_division",
    "C61_division_undefined",
    "C61_comparisons",
    "C61_logical",
    "C61_complement",
    "C61_magnitudes",
    "C61_fused",
    "C61_complex_functions",
    "C61_promotion_order_refuted",
    "C61_promotion_loses_kind_refuted",
    "C61_mixed_comparison_refuted",
    "C61_unsigned_short_product_refuted",
    "C61_least_magnitude_refuted",
    "C61_bool_complement_refuted"
   ],
   "note": "Integer and algebraic functions for all twelve integer types. The order-independence of the result type, mixed signed/unsigned comparisons, products of unsigned short, the magnitude of the least value and the complement of bool fail and are refuted. Floating-point library functions are not modelled."
  },
  {
   "property": "C62",
   "status": "partial",
   "theorems": [
    "C62_program_partial",
    "C62_strided_vector_refuted",
    "C62_generator_refuted"
   ],
   "note": "Holds when a contiguous destination is used for block-vector assignment and every processor belongs to a replicated destination of a generator; both restrictions are necessary (C62_strided_vector_refuted, C62_generator_refuted). Views are assumed not to share storage; transport is reliable and in order per pair."
  },
  {
   "property": "C63",
   "status": "partial",
   "theorems": [
    "C63_lifecycle_partial",
    "C63_usable",
    "C63_first_objects_race_refuted",
    "C63_last_objects_race_refuted",
    "C63_reinitialization_refuted",
    "C63_allocator_leak_refuted",
    "C63_other_thread_refuted"
   ],
   "note": "Proved for programs whose main thread holds an object around everything else; simultaneous first or last objects, re-initialization with MPI, the allocator without MPI and threads without an object of their own are refuted."
  },
  {
   "property": "C64",
   "status": "partial",
   "theorems": [
    "C64_matrix_matrix_partial",
    "C64_gemp_partial",
    "C64_matrix_vector_partial",
    "C64_vector_matrix_partial",
    "C64_outer",
    "C64_dot",
    "C64_complex_dot_partial",
    "C64_double_complex_dot_refuted",
    "C64_submatrix_vector_refuted",
    "C64_vector_submatrix_refuted",
    "C64_reversed_vector_refuted",
    "C64_strided_result_refuted",
    "C64_reversed_rows_refuted"
   ],
   "note": "Proved for all sizes, orders and values under the layout conditions BLAS needs (unit minor stride of the result, non-overlapping rows, for matrix-vector products adjacent rows and positive vector strides). False outside them: five refuted theorems show sub-matrices, reversed vectors, strided results and reversed rows give wrong results, stray writes or an abort with BLAS; double-precision complex dot is rounded to single precision."
  },
  {
   "property": "C65",
   "status": "partial",
   "theorems": [
    "C65_llsqsol",
    "C65_covsol",
    "C65_qrd_lsqsol",
    "C65_qrd_covsol",
    "C65_qrd_rsol",
    "C65_qrd_prodq_partial",
    "C65_lud_solve",
    "C65_chold_solve",
    "C65_prodq_saveq1_refuted",
    "C65_prodq_saveq1_right_refuted"
   ],
   "note": "exact arithmetic over a commutative ring; LAPACK and BLAS routines by their documented contract; prodq with the thin Q reads outside its buffer for two of the four combinations (refuted)"
  },
  {
   "property": "C66",
   "status": "partial",
   "theorems": [
    "C66_type_match",
    "C66_compatible_reads_partial",
    "C66_dimension",
    "C66_round_trip",
    "C66_storage_size",
    "C66_describe_data",
    "C66_describe_direct",
    "C66_tensor_stride_refuted",
    "C66_integer_dimension_refuted",
    "C66_user_code_refuted",
    "C66_view_storage_refuted",
    "C66_aligned_storage_refuted",
    "C66_complex_storage_refuted"
   ],
   "note": "The round trip of dense blocks and the two-dimensional and one-dimensional reader tests are proved in full; for tensors the reader test ignores the middle stride, for integers it ignores the dimension, and storage sizes are wrong for sub-views and padded blocks (refuted)."
  },
  {
   "property": "C67",
   "status": "partial",
   "theorems": [
    "C67_blackman",
    "C67_hanning",
    "C67_hanning_long_refuted",
    "C67_bessel",
    "C67_bessel_accuracy_refuted",
    "C67_kaiser"
   ],
   "note": "Formulas, symmetry, range and termination are proved over the reals; the promised error of the Bessel function is refuted and a correct bound of 2e-4 proved instead; Hanning windows of 2^32 or more elements do not return. Missing: rounding (the Chebyshev window is C68)."
  },
  {
   "property": "C68",
   "status": "proved",
   "theorems": [
    "C68_shape",
    "C68_spectrum",
    "C68_sidelobes"
   ],
   "note": "Proved over the reals; rounding is not modelled."
  },
  {
   "property": "C69",
   "status": "partial",
   "theorems": [
    "C69_elements",
    "C69_filled",
    "C69_proxies",
    "C69_repeated_processor_refuted",
    "C69_repeated_replica_refuted"
   ],
   "note": "Holds for maps without repeated processors; with a repeated processor, which the constructors accept, elements can neither be read nor written."
  },
  {
   "property": "C70",
   "status": "partial",
   "theorems": [
    "C70_construct",
    "C70_svd",
    "C70_refused",
    "C70_in_place_refuted"
   ],
   "note": "Proved over exact arithmetic from the documented behaviour of gebrd, orgbr/ungbr and bdsqr, for every shape, storage choice and history. Overlapping operands of produ give a wrong result (refuted)."
  },
  {
   "property": "C71",
   "status": "partial",
   "theorems": [
    "C71_created",
    "C71_many_created",
    "C71_complex",
    "C71_real_to_complex",
    "C71_complex_to_real",
    "C71_in_place",
    "C71_many_complex",
    "C71_many_real_to_complex",
    "C71_many_complex_to_real",
    "C71_many_in_place",
    "C71_refused",
    "C71_many_refused",
    "C71_rigor",
    "C71_long_refuted",
    "C71_distributed_real_refuted",
    "C71_library"
   ],
   "note": "Proved for every size that fits an int, every layout, every FFT library that keeps what FFTW's manual promises. Refuted: lengths that do not fit an int are planned for a different length; real transforms of the rows of a distributed matrix are always refused."
  },
  {
   "property": "C72",
   "status": "proved",
   "theorems": [
    "C72_sumval",
    "C72_sumsqval",
    "C72_sum_of_magsq",
    "C72_meanval",
    "C72_meansqval",
    "C72_sumval_bool",
    "C72_alltrue_bool",
    "C72_anytrue_bool",
    "C72_alltrue",
    "C72_anytrue",
    "C72_extremum"
   ],
   "note": "Exact arithmetic; blocking broadcasts as in C69; single-precision vectors of 4096 or more elements, which go through a local copy (C73), are not covered here."
  },
  {
   "property": "C73",
   "status": "partial",
   "theorems": [
    "C73_program",
    "C73_storage",
    "C73_padded_refuted"
   ],
   "note": "The program theorem holds for all schedules; the allocation is large enough for dense layouts only (C73_padded_refuted). The work on the local copies is the same function on every processor."
  },
  {
   "property": "C74",
   "status": "partial",
   "theorems": [
    "C74_matrix_matrix_partial",
    "C74_gemp_partial",
    "C74_matrix_vector_partial",
    "C74_vector_matrix_partial",
    "C74_outer_partial",
    "C74_dot_partial",
    "C74_documented_ex",
    "C74_reversed_refuted",
    "C74_split_stride_refuted",
    "C74_not_admitted_refuted"
   ],
   "note": "For libraries that accept blocks that were not admitted, views with non-negative strides, and split complex vectors of unit stride. Refuted: negative strides (the view lies outside the bound block), split complex operands with other strides (the stride is dropped), libraries that insist on admitted blocks (nothing is ever admitted)."
  },
  {
   "property": "C75",
   "status": "partial",
   "theorems": [
    "C75_convolution_partial",
    "C75_correlation_partial",
    "C75_fir_pieces_partial",
    "C75_fir_no_save_partial",
    "C75_fir_reset_partial",
    "C75_documented_ex",
    "C75_many_fixups_refuted",
    "C75_fir_reversed_refuted",
    "C75_copy_refuted",
    "C75_hint_refuted"
   ],
   "note": "Proved for every library that keeps the standard's promises and takes blocks that were not admitted, its known-wrong convolution outputs being arbitrary. Missing: negative strides, full support with decimation above 4 (refuted: more outputs are recomputed than there are), copying of state-saving filters (refuted: always throws), hints (refuted: swapped), unbiased same-support correlation with even reference length."
  },
  {
   "property": "C76",
   "status": "partial",
   "theorems": [
    "C76_complex",
    "C76_in_place",
    "C76_real_partial",
    "C76_many_partial",
    "C76_many_in_place",
    "C76_documented_ex",
    "C76_real_length_refuted",
    "C76_odd_refuted",
    "C76_split_stride_refuted"
   ],
   "note": "Proved for complex transforms and for all transforms of the rows or columns of a matrix (out of place and in place). Partial: 1-D real transforms give the half spectrum a view of the full length, which a checking library refuses beyond two elements (C76_real_length_refuted); odd lengths of real transforms (C76_odd_refuted); split complex matrices of different strides (C76_split_stride_refuted)."
  },
  {
   "property": "C77",
   "status": "partial",
   "theorems": [
    "C77_assign",
    "C77_reads",
    "C77_kept",
    "C77_copy",
    "C77_snapshot_refuted",
    "C77_mixture_refuted",
    "C77_copies_refuted",
    "C77_lifetime_refuted",
    "C77_local_refuted",
    "C77_overlap_refuted"
   ],
   "note": "Assignment, kept values and copies proved for all expressions and histories. Refuted: snapshot at the call, mixtures of old and new values, agreement of copies taken before the first read, reading after the transform object is gone, local views of evaluated results, misaligned elementwise overlap."
  },
  {
   "property": "C78",
   "status": "partial",
   "theorems": [
    "C78_host_only_plain",
    "C78_host_only_user",
    "C78_device_plain_partial",
    "C78_device_user_partial",
    "C78_reference_refuted",
    "C78_admit_refuted",
    "C78_release_refuted",
    "C78_rebind_refuted",
    "C78_kept_buffer_refuted"
   ],
   "note": "Host-only programs behave as with one copy. Programs using the device do so if careful (defined in Device.v); five refuted theorems give programs outside that condition where a value is lost."
  },
  {
   "property": "C79",
   "status": "partial",
   "theorems": [
    "C79_vector_slices",
    "C79_part_slices",
    "C79_matrix_slices_partial",
    "C79_reversed_refuted",
    "C79_lines_partial",
    "C79_diagonal_partial",
    "C79_submatrix_row_refuted",
    "C79_strided_row_refuted",
    "C79_row_range_refuted",
    "C79_negative_index_refuted",
    "C79_slice_assign",
    "C79_slice_fill",
    "C79_overlap_refuted",
    "C79_line_assign_partial",
    "C79_line_fill_partial",
    "C79_submatrix_assign_partial",
    "C79_submatrix_fill_partial",
    "C79_shape_refuted",
    "C79_copy",
    "C79_matrix_copy_partial",
    "C79_rows",
    "C79_complex_elements",
    "C79_matrix_parts_partial",
    "C79_part_copy_refuted",
    "C79_construct_partial",
    "C79_fill_zero_refuted",
    "C79_fill_integer_refuted",
    "C79_rows_refuted",
    "C79_submatrix_method_refuted"
   ],
   "note": "Full statement proved for vectors (slices, parts, assignment, copy) and for slices of matrices unless columns were reversed before; rows, columns and diagonals only of whole matrices. Refuted: lines of submatrices, reversed columns sliced again, out-of-range rows, negative element indices, overlapping assignment, shape mismatch, copies of parts, zero and integer fill values, submatrix(), size of a matrix without rows."
  },
  {
   "property": "C80",
   "status": "partial",
   "theorems": [
    "C80_round_trip",
    "C80_file_contents",
    "C80_refusals",
    "C80_reading_keeps_disk",
    "C80_second_write_refuted",
    "C80_same_name_refuted",
    "C80_write_to_reader_refuted",
    "C80_incompatible_type_refuted",
    "C80_png_rows",
    "C80_png_round_trip_partial",
    "C80_png_rectangular_refuted",
    "C80_png_wide_refuted",
    "C80_png_low_depth_refuted",
    "C80_png_byte_order_refuted"
   ],
   "note": "HDF5: proved for all views with at least one element, with the libraries as documented. Refuted: failures to create a dataset or to convert it are not reported, the short-hand write empties the file. PNG: rows proved for all shapes; the round trip is proved for square images and refuted for others."
  },
  {
   "property": "C81",
   "status": "partial",
   "theorems": [
    "C81_counts",
    "C81_held_is_there",
    "C81_all_released",
    "C81_only_faults",
    "C81_null_refuted",
    "C81_buffer_assignment_refuted",
    "C81_device_copy_refuted",
    "C81_default_device",
    "C81_defaults_agree",
    "C81_no_queue_refuted"
   ],
   "note": "Reference counts proved for all histories whose devices are root devices. Refuted: destroying an empty program, kernel or device, assigning buffers, copying sub-devices, default queue where the platform's default device is not the first."
  },
  {
   "property": "C82",
   "status": "partial",
   "theorems": [
    "C82_fir",
    "C82_fft_forward",
    "C82_fftm_forward",
    "C82_fft_inverse",
    "C82_fftm_inverse",
    "C82_fftm_complex",
    "C82_unary",
    "C82_binary",
    "C82_ternary",
    "C82_other_result_type",
    "C82_result_type_refuted",
    "C82_mixed_types_rejected",
    "C82_unexported_refuted",
    "C82_ite_mask_refuted",
    "C82_reductions",
    "C82_complex_reductions_refuted",
    "C82_dot",
    "C82_transposes",
    "C82_products",
    "C82_matvec_missing_refuted",
    "C82_mixed_prod_refuted",
    "C82_silent_none_refuted",
    "C82_llsqsol",
    "C82_covsol_toepsol_refuted",
    "C82_lud_refuted",
    "C82_chold_refuted",
    "C82_qrd",
    "C82_qrd_prodq",
    "C82_qrd_rsol_refuted",
    "C82_svd",
    "C82_svd_produ_refuted",
    "C82_conv_refuted",
    "C82_corr_refuted",
    "C82_complex_fft_corr_refuted",
    "C82_iir_refuted",
    "C82_freqswap",
    "C82_windows",
    "C82_clip",
    "C82_rand",
    "C82_other_types_refuted",
    "C82_bool_slices_refuted",
    "C82_slices"
   ],
   "note": "Proved for fir, fft, fftm, the elementwise functions, reductions, dot, transposes, products, llsqsol, qrd, svd, freqswap, windows, clip, rand and slices, for every type, shape, state of the module table and behaviour of the C++ functions. Refuted, with the exact exception, for the functions that can never work (lud, chold, covsol, toepsol, conv, corr, iir from matrices, complex fft, kron, outer, prodh/j/t, mixed products) and for results whose type has not been loaded. cast.py is not modelled (its import always fails)."
  },
  {
   "property": "C83",
   "status": "partial",
   "theorems": [
    "C83_each_element_in_one_patch",
    "C83_element_stays_on_its_processor",
    "C83_patches_match_the_storage",
    "C83_extent_is_what_the_processor_has",
    "C83_local_indices",
    "C83_foreach_point_of_the_transpose",
    "C83_transposed_twice",
    "C83_where_is_element_refuted",
    "C83_global_index_refuted",
    "C83_no_subblock_refuted",
    "C83_permuted_map_refuted",
    "C83_diag_map_refuted",
    "C83_map_outlives_the_matrix",
    "C83_map_of_temporary_refuted"
   ],
   "note": "Placement, patches, extents, local indices and foreach_point of the transpose proved for all maps; the look-up by global index, processors without a subblock, temporaries, permuted tensors and diagonals are refuted."
  },
  {
   "property": "C84",
   "status": "partial",
   "theorems": [
    "C84_ranks",
    "C84_include",
    "C84_include_accepts",
    "C84_exclude_accepts",
    "C84_exclude",
    "C84_exclude_nothing_refuted",
    "C84_union",
    "C84_intersection",
    "C84_difference",
    "C84_translate",
    "C84_translate_outside_refuted",
    "C84_processor_numbers",
    "C84_subgroup",
    "C84_group",
    "C84_split",
    "C84_split_order",
    "C84_equality",
    "C84_duplicate_differs",
    "C84_default_communicator_refuted",
    "C84_null_communicator_refuted",
    "C84_element_sizes",
    "C84_allreduce",
    "C84_allreduce_bool",
    "C84_allreduce_complex_refuted",
    "C84_allreduce_small_types_refuted",
    "C84_all_true_bitwise_refuted",
    "C84_type_after_first_use",
    "C84_type_first_use_refuted",
    "C84_lifetimes",
    "C84_after_finalize"
   ],
   "note": "Groups, communicators, reductions, lifetimes proved; refuted: exclude of an empty sequence, translate_ranks of outsiders, default communicator's processor set, null communicators, allreduce of complex, char and bool, first use of a type by two threads."
  },
  {
   "property": "C85",
   "status": "partial",
   "theorems": [
    "C85_vector_can_be_read_back",
    "C85_vector_format",
    "C85_matrix_can_be_read_back",
    "C85_matrix_format",
    "C85_lines_are_unique",
    "C85_output_is_appended",
    "C85_integers",
    "C85_tensor_of_fixed_width",
    "C85_tensor_format",
    "C85_tensor_refuted",
    "C85_domains_can_be_read_back",
    "C85_indices_can_be_read_back",
    "C85_domain_format",
    "C85_index_format"
   ],
   "note": "Proved for vectors, matrices, domains, indices and lengths, and for tensors whose elements have text of equal length; refuted for tensors in general (no separator between the elements). The stream's own formatting of numbers is taken to be decimal notation; that of floating-point numbers is a parameter."
  },
  {
   "property": "C86",
   "status": "partial",
   "theorems": [
    "C86_symmetric",
    "C86_reflexive",
    "C86_meaning",
    "C86_meaning_rounded",
    "C86_transitive_refuted",
    "C86_infinity_refuted",
    "C86_complex",
    "C86_integers",
    "C86_mixed_signs_refuted",
    "C86_long_long_refuted",
    "C86_long_long_zero_refuted",
    "C86_vectors",
    "C86_matrices",
    "C86_tensors"
   ],
   "note": "Proved: symmetry for all floats and doubles, reflexivity for the finite ones, the exact meaning with and without rounding, integers of like signs, views of any size. Refuted: transitivity, infinities, integers of different signedness, long long against double."
  },
  {
   "property": "C87",
   "status": "partial",
   "theorems": [
    "C87_one_processor",
    "C87_all_processors",
    "C87_steps_over_values",
    "C87_steps_over_vectors",
    "C87_element",
    "C87_distance_partial",
    "C87_order",
    "C87_distance_refuted",
    "C87_long_vector_refuted",
    "C87_equality_refuted"
   ],
   "note": "Proved: the ranges of processors for all maps, steps, elements, distances for steps of one and forward distances. Refuted: backward distances for longer steps, distances from 2^31 on, equality of iterators over different vectors. Postfix ++ and -- return a reference to a local variable and are not modelled."
  },
  {
   "property": "C88",
   "status": "partial",
   "theorems": [
    "C88_elapsed",
    "C88_nonnegative",
    "C88_differences",
    "C88_rate",
    "C88_rate_refuted",
    "C88_tsc_refuted",
    "C88_before_init_refuted"
   ],
   "note": "Proved for the POSIX clock (exact quotient; the rounding to double is not modelled). Refuted for the time stamp counter: precision of a float, rate of 1000 MHz assumed after an empty line, undefined before initialisation. The OVXX_TIMER_SYSTEM branch names a namespace that does not exist."
  },
  {
   "property": "C89",
   "status": "partial",
   "theorems": [
    "C89_round_trip",
    "C89_written",
    "C89_read",
    "C89_not_wav",
    "C89_overrun_refuted",
    "C89_long_format_refuted",
    "C89_no_data_refuted",
    "C89_small_samples_refuted",
    "C89_padding_refuted",
    "C89_riff_size_refuted",
    "C89_channels_refuted"
   ],
   "note": "Proved: round trip, form of the written file, reading of every file with unpadded other chunks, refusal. Refuted: buffer overrun on partial samples, overrun on long format chunks, endless loop without a data chunk, division by zero, padding not skipped, wrong RIFF size, number of channels. Little endian only."
  },
  {
   "property": "C90",
   "status": "partial",
   "theorems": [
    "C90_closed_once_partial",
    "C90_complex_refuted",
    "C90_copy_refuted",
    "C90_assignment_refuted",
    "C90_value_type_refuted",
    "C90_failed_create_refuted",
    "C90_extent_refuted"
   ],
   "note": "Proved for programs without copies of datasets, complex values or type queries; the rest is refuted by witnesses."
  },
  {
   "property": "C91",
   "status": "partial",
   "theorems": [
    "C91_storage_lives_partial",
    "C91_array_refuted",
    "C91_array_end_refuted"
   ],
   "note": "Proved for programs in which arrays go before the block they were made of; refuted without."
  },
  {
   "property": "C92",
   "status": "partial",
   "theorems": [
    "C92_same_data_partial",
    "C92_wrong_format_partial",
    "C92_null",
    "C92_pointer_cast",
    "C92_aligned",
    "C92_const_format_refuted",
    "C92_const_split_refuted",
    "C92_null_split_refuted"
   ],
   "note": "All conversions and formats, by induction on the sequence. Refuted for const_pointer, which does not check the format it is asked for (C92_const_format_refuted, C92_const_split_refuted), and for null pointers of split format, whose second half is never set (C92_null_split_refuted)."
  },
  {
   "property": "C93",
   "status": "partial",
   "theorems": [
    "C93_lud",
    "C93_chold",
    "C93_qrd_lsqsol",
    "C93_qrd_covsol",
    "C93_again",
    "C93_copy",
    "C93_destroy",
    "C93_no_leak",
    "C93_assign_refuted"
   ],
   "note": "Proved for all histories, given the factorizations LAPACK documents (getrf_for, potrf_for, geqrf_for for the matrices concerned): what an object solves depends only on the last matrix given to it or to its original before the copy; objects can always be decomposed again, copied and destroyed; no leak, no double free. Refuted for assignment: the operators have no return statement (chold, qrd) or do not compile (lud)."
  },
  {
   "property": "C94",
   "status": "partial",
   "theorems": [
    "C94_upsample_filter_downsample",
    "C94_decimating_filter",
    "C94_polyphase_filter",
    "C94_all_equal",
    "C94_refused_refuted"
   ],
   "note": "All three ways are proved equal to one specification for every ring of numbers, rate, length, filter and signal that the library accepts. Refuted: decimation by the length of the filter or more, and phases of one coefficient, are refused by some of the ways but not by others."
  },
  {
   "property": "C95",
   "status": "proved",
   "theorems": [
    "C95_fir",
    "C95_iir",
    "C95_fir_answer_unique",
    "C95_iir_answer_unique",
    "C95_iir_sections"
   ],
   "note": "Proved for every program over any number of Fir variables (shared backends with reference counts, kernel blocks shared by clones) and Iir variables, and for every commutative ring. The C-VSIPL backend, whose clone() throws, is in CVsipSig.v."
  },
  {
   "property": "C96",
   "status": "partial",
   "theorems": [
    "C96_program_partial",
    "C96_settings_lost_refuted",
    "C96_clip_refuted"
   ],
   "note": "Programs without clip and invclip are correct for every memory contents; with them the settings are lost (two refutations): the local expression is rebuilt without its operation."
  },
  {
   "property": "C97",
   "status": "partial",
   "theorems": [
    "C97_local_product",
    "C97_carried_out",
    "C97_replicated_refuted",
    "C97_same_placement_refuted"
   ],
   "note": "Proved: whenever the assignment is carried out every processor stores the right products, and it is carried out in the two cases the code documents. Refuted: vectors replicated on the processors of the matrix only, and vectors placed alike by a map of another class, are refused."
  },
  {
   "property": "C98",
   "status": "partial",
   "theorems": [
    "C98_results_partial",
    "C98_result_changes_refuted",
    "C98_copy_shares_refuted",
    "C98_assign_sizes_refuted"
   ],
   "note": "Proved for programs without copy construction of histograms: results read before the next call or assignment of their histogram, or after its end, contain the right counts, and storage is freed. Refuted: a result changes with the next call; a copied histogram shares its counters with the original; assignment between different numbers of bins fails."
  },
  {
   "property": "C99",
   "status": "partial",
   "theorems": [
    "C99_undivided_partial",
    "C99_carried_out",
    "C99_divided_refuted",
    "C99_divided_overrun_refuted"
   ],
   "note": "Proved for equal maps (Map class) that do not divide the transformed dimension: no processor fails and every element of the output holds its point of the transform of its whole line, for complex, real-to-complex and complex-to-real transforms along either dimension. Refuted: maps dividing the transforms are accepted and the pieces transformed separately; real-to-complex then writes out of bounds."
  },
  {
   "property": "C100",
   "status": "partial",
   "theorems": [
    "C100_plain",
    "C100_filled_partial",
    "C100_unfit",
    "C100_zero_refuted",
    "C100_integer_refuted",
    "C100_tensor_refuted",
    "C100_complex_refuted",
    "C100_array_refuted",
    "C100_subblock_refuted"
   ],
   "note": "Proved: without a value, and with a value that is a nonzero float or, for single-precision complex, a nonzero complex number (or for matrices a nonzero integer), the C++ constructor of the right shape is called with length, value and map in their places, for single and double precision, int and single-precision complex; values the element type cannot hold raise ArgumentError. Refuted: zero is not stored, an integer value turns a vector into a matrix, three lengths give a filled matrix, double-precision complex blocks cannot be made, block(array, map) and subblock always raise exceptions."
  },
  {
   "property": "C101",
   "status": "partial",
   "theorems": [
    "C101_to_polar",
    "C101_in_place",
    "C101_from_parts",
    "C101_cmplx",
    "C101_round_trip",
    "C101_round_trip_reals",
    "C101_sizes",
    "C101_longer_refuted",
    "C101_shifted_refuted"
   ],
   "note": "Proved: modulus and argument of the old elements at every index with nothing else changed, also in place over real() and imag(), for vectors; polartorect and cmplx for vectors and matrices in both orders; the round trip for any scalar functions inverse to each other and for the reals; length mismatch diagnosed with assertions. Refuted: without assertions longer results keep old elements; results overlapping the data at other indices. polartorect(view) with one argument has a result type that no program can be compiled with, and is not modelled."
  },
  {
   "property": "C102",
   "status": "partial",
   "theorems": [
    "C102_pointers",
    "C102_pointers_detect_partial",
    "C102_detects_partial",
    "C102_agree",
    "C102_left_refuted",
    "C102_missed_refuted",
    "C102_right_refuted",
    "C102_false_alarm_refuted",
    "C102_four_refuted",
    "C102_columns_refuted"
   ],
   "note": "Proved for every gate but those where the cells on one side exist only in part, and the agreement of the three versions at all gates; the version on pointers of cfar_c.cpp is proved equal to the one by vectors, whatever its scratch memory holds (C102_pointers, C102_pointers_detect_partial); its version with vector instructions is not modelled. At the left boundary the mean is taken over one cell fewer than summed and at the right over one cell more (with a missed target and a false alarm as witnesses); bins not a multiple of four and more than thirty targets at a gate lead out of bounds. Arithmetic is exact; the kernels are written for header names of the predecessor library."
  },
  {
   "property": "C103",
   "status": "partial",
   "theorems": [
    "C103_full",
    "C103_expression",
    "C103_expression_reals",
    "C103_row_by_row_refuted",
    "C103_wrong_filter_refuted",
    "C103_row_by_row_partial",
    "C103_lengths_refuted"
   ],
   "note": "Proved in exact arithmetic for the Fir objects and for the expression of matrix transforms (by the convolution theorem, over any ring with exact twiddle factors and over the real numbers). Row by row, the code multiplies every row by the response of filter 0: the theorem holds only if all filters are the same. One processor; rounding and the distributed form are not modelled."
  },
  {
   "property": "C104",
   "status": "partial",
   "theorems": [
    "C104_versions",
    "C104_matrix",
    "C104_versions_reals",
    "C104_impulse",
    "C104_check_refuted",
    "C104_timed_refuted"
   ],
   "note": "All eight versions with one replica, and the version with a replica for every pulse, are proved to convolve each pulse with its replica once per repetition (C104_versions, C104_matrix; over the reals for every length in C104_versions_reals), and to leave the pulses alone with a unit impulse (C104_impulse). What the property asks of the check is refuted: without the product the check passes all the same (C104_check_refuted), and what is timed is all zeros (C104_timed_refuted). Exact arithmetic; one processor; the timing and random data are not modelled."
  }
 ]
}