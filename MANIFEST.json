{
 "claims": [
  {
   "property": "C01",
   "status": "proved",
   "theorems": [
    "C01_chunks_cover_exactly"
   ],
   "note": "all schemes; float formulas as oracle; row count below 2^64"
  },
  {
   "property": "C02",
   "status": "proved",
   "theorems": [
    "C02_chunks_terminate_and_min_size",
    "C02_min_size_zero_refuted"
   ],
   "note": "termination and minimum size for minimum >= 1; the claimed failure for minimum 0 is proved for every fuel"
  },
  {
   "property": "C03",
   "status": "proved",
   "theorems": [
    "C03_single_queue_partition",
    "C03_multi_queue_partition"
   ],
   "note": ""
  },
  {
   "property": "C04",
   "status": "proved",
   "theorems": [
    "C04_exactly_once_fifo"
   ],
   "note": "interleaving semantics with condition variable wait set and spurious wake-ups"
  },
  {
   "property": "C05",
   "status": "proved",
   "theorems": [
    "C05_no_deadlock",
    "C05_terminates",
    "C05_consumers_get_eof",
    "C05_engine",
    "C05_small_capacity_refuted"
   ],
   "note": "capacity at least the number of tasks; deadlock witness for capacity 1"
  },
  {
   "property": "C06",
   "status": "proved",
   "theorems": [
    "C06_stop_only_when_drained",
    "C06_exactly_once",
    "C06_never_twice",
    "C06_no_overflow",
    "C06_progress",
    "C06_bounded",
    "C06_more_than_256_queues_refuted"
   ],
   "note": "queue operations atomic (justified by C04/C05); out-of-bounds finding for more than 256 queues"
  },
  {
   "property": "C07",
   "status": "proved",
   "theorems": [
    "C07_rows",
    "C07_cols",
    "C07_engine_rows",
    "C07_engine_rows_multi"
   ],
   "note": "One dense output; any interleaving of the individual element assignments of all tasks; engine theorems use the tasks created by the queues' partitioning (C03). The compiled body is any row-wise function."
  },
  {
   "property": "C08",
   "status": "proved",
   "theorems": [
    "C08_aggregate",
    "C08_engine"
   ],
   "note": "The element operation must be associative and commutative (so not IEEE addition). Completion order arbitrary; result preallocated with a neutral element or not allocated."
  },
  {
   "property": "C09",
   "status": "proved",
   "theorems": [
    "C09_rows",
    "C09_cols",
    "C09_order_irrelevant",
    "C09_pipeline_rows",
    "C09_pipeline_cols",
    "C09_no_parts_throws",
    "C09_view_parts_refuted"
   ],
   "note": "The refuted theorem shows that row-combining views corrupts memory; the positive theorems exclude such parts (row_part has offset 0)."
  },
  {
   "property": "C10",
   "status": "proved",
   "theorems": [
    "C10_rows_evenly_partitioned",
    "C10_outputs_evenly_partitioned",
    "C10_distribute_enough_rows",
    "C10_distribute_few_rows_refuted"
   ],
   "note": "Includes the exact condition under which distribution throws."
  },
  {
   "property": "C11",
   "status": "proved",
   "theorems": [
    "C11_set_get_history",
    "C11_new_covers",
    "C11_full_matrix_refuted"
   ],
   "note": "Holds for every history as long as there is room for every write. Finding: at full capacity, setting a cell back to zero reads past the arrays and inserting writes past them (C11_full_matrix_refuted)."
  },
  {
   "property": "C12",
   "status": "proved",
   "theorems": [
    "C12_append_builds",
    "C12_append_builds_view",
    "C12_empty_matrix_refuted"
   ],
   "note": "For whole matrices with arbitrary previous array contents and for views. Finding: with 0 rows the protocol writes out of bounds."
  },
  {
   "property": "C13",
   "status": "proved",
   "theorems": [
    "C13_view_shows_rows",
    "C13_view_set_is_set",
    "C13_nested_view_refuted"
   ],
   "note": "Nested views are covered because a view is again an object covering the same rows. Finding: a view of a view starting at row 0 of a view does not know that rows precede it; appending through it corrupts the base."
  },
  {
   "property": "C14",
   "status": "proved",
   "theorems": [
    "C14_same_contents_compare_equal",
    "C14_compare_equal_sound_if_row_counts_agree",
    "C14_compare_equal_refuted"
   ],
   "note": "The converse direction is refuted in general: row offsets are not compared."
  },
  {
   "property": "C15",
   "status": "proved",
   "theorems": [
    "C15_views_alias_window",
    "C15_windows_inside",
    "C15_shrink_keeps_cells",
    "C15_shrink_view_refuted"
   ],
   "note": "Chain of slices; the row-count reduction of a view is refuted with a witness."
  },
  {
   "property": "C16",
   "status": "proved",
   "theorems": [
    "C16_append_fills_window",
    "C16_strided_refuted",
    "C16_strided_empty_history_refuted"
   ],
   "note": "Full for windows with full rows; for windows with partial rows the claim is false of the code (witnesses) and proved under the extra condition that rows start without a gap."
  },
  {
   "property": "C17",
   "status": "proved",
   "theorems": [
    "C17_create",
    "C17_create_default",
    "C17_cbind",
    "C17_set_labels",
    "C17_select_dedup",
    "C17_select_dedup_refuted",
    "C17_rejected_set_labels_refuted"
   ],
   "note": "The unconditional form of deduplication is false of the code (witness); proved when labels cannot collide with default labels."
  },
  {
   "property": "C18",
   "status": "proved",
   "theorems": [
    "C18_no_use_after_free",
    "C18_not_freed_early",
    "C18_exactly_needed_exist",
    "C18_destruction_terminates",
    "C18_freed_when_last_reference_gone"
   ],
   "note": "All histories of clients using only objects they hold, any interleaving of the locked decrements and deletions; buffers shared through std::shared_ptr are not modelled."
  },
  {
   "property": "C19",
   "status": "proved",
   "theorems": [
    "C19_freed_with_last_reference",
    "C19_no_entries_left",
    "C19_answers_exist"
   ],
   "note": "All histories of well-behaved clients; each counter operation is atomic (mutex)."
  },
  {
   "property": "C20",
   "status": "proved",
   "theorems": [
    "C20_lookup",
    "C20_lookup_with_table",
    "C20_leaving_restores",
    "C20_popScope_result",
    "C20_extractScope_result",
    "C20_block",
    "C20_getSymbol_shadowed_refuted"
   ],
   "note": "All proper histories; getSymbol does not invert get when the symbol is shadowed (refuted)."
  },
  {
   "property": "C21",
   "status": "proved",
   "theorems": [
    "C21_distinct_pushes",
    "C21_always",
    "C21_repeated_pushes_refuted",
    "C21_zero_bound_refuted"
   ],
   "note": "Holds for distinct pushes; for repeated pushes the set loses values (refuted with a witness); what always holds is C21_always."
  },
  {
   "property": "C22",
   "status": "proved",
   "theorems": [
    "C22_chunks",
    "C22_whole",
    "C22_type_checked",
    "C22_small_chunk_throws",
    "C22_strided_view_refuted",
    "C22_large_dims_refuted"
   ],
   "note": "Byte-level model. Round trip for every contiguous matrix with dimensions below 2^32, every admissible chunk size and every re-cutting of the bytes; refuted for views with gaps between rows and for dimensions of 2^32 or more."
  },
  {
   "property": "C23",
   "status": "proved",
   "theorems": [
    "C23_dense",
    "C23_sparse",
    "C23_slack_refuted"
   ],
   "note": "Any delivery order, any chunk size that holds header twice plus index, messages with or without unused space at the end. Refuted for sparse matrices with more allocated than stored entries: the sending loop never ends."
  },
  {
   "property": "C24",
   "status": "proved",
   "theorems": [
    "C24_chunks",
    "C24_whole",
    "C24_alloc_dense",
    "C24_alloc_sparse_refuted"
   ],
   "note": "Round trip for every valid sparse matrix or view (also with unused space), at once or in chunks; cells read through get agree. Refuted: the overload that allocates the buffer reserves 8 bytes and overruns it on every call."
  },
  {
   "property": "C25",
   "status": "proved",
   "theorems": [
    "C25_strings",
    "C25_never_read",
    "C25_backslash_quote_refuted",
    "C25_backslash_end_refuted",
    "C25_cr_refuted",
    "C25_nul_refuted"
   ],
   "note": "whole files of dense string matrices; WriteCsv.h, ReadCsvFile.h, utils.h"
  },
  {
   "property": "C26",
   "status": "proved",
   "theorems": [
    "C26_sorted",
    "C26_unsorted",
    "C26_unsorted_range",
    "C26_sorted_range_refuted",
    "C26_sorted_col_refuted",
    "C26_row_sorted_refuted",
    "C26_unsorted_empty_refuted"
   ],
   "note": "file as bytes; entries printed in decimal; the priority queue is a sorted list"
  },
  {
   "property": "C27",
   "status": "proved",
   "theorems": [
    "C27_dense",
    "C27_dense_twice",
    "C27_sparse",
    "C27_sparse_twice"
   ],
   "note": "Dense (any stride, vector shortcut) and sparse (counting sort, views of rows) transpose; swapped cells and entries, validity, involution."
  },
  {
   "property": "C28",
   "status": "proved",
   "theorems": [
    "C28_dense_to_sparse",
    "C28_sparse_to_dense",
    "C28_dense_round_trip",
    "C28_sparse_round_trip",
    "C28_dense_to_dense",
    "C28_frame_round_trip",
    "C28_column_round_trip",
    "C28_sparse_to_sparse",
    "C28_sparse_to_sparse_tall_refuted",
    "C28_sparse_to_sparse_shape_refuted",
    "C28_sparse_to_sparse_view_refuted"
   ],
   "note": "Dense<->sparse, dense<->frame, dense<->column. Sparse to sparse holds for square matrices starting at the first row and is refuted for the others."
  },
  {
   "property": "C29",
   "status": "proved",
   "theorems": [
    "C29_all",
    "C29_rows",
    "C29_cols",
    "C29_no_columns_sparse",
    "C29_no_columns_dense_refuted",
    "C29_no_rows_refuted",
    "C29_int64",
    "C29_rational"
   ],
   "note": "One value type for argument, intermediate and result; arithmetic laws are hypotheses, shown met by wrapping int64 and exact rationals; the empty-shape differences are refuted cases."
  },
  {
   "property": "C30",
   "status": "proved",
   "theorems": [
    "C30_sparse_dense",
    "C30_parallel",
    "C30_blocked",
    "C30_dense_sparse",
    "C30_sparse_sparse",
    "C30_generic",
    "C30_shapes",
    "C30_int64",
    "C30_nan_refuted",
    "C30_flags_ignored",
    "C30_transposed_refuted"
   ],
   "note": "Kernels with two dense operands call BLAS and are not modelled. Parallel loops: every interleaving of single loads and stores of the iterations."
  },
  {
   "property": "C31",
   "status": "proved",
   "theorems": [
    "C31_order_index",
    "C31_order_matrix",
    "C31_unique",
    "C31_no_keys",
    "C31_nan_refuted"
   ],
   "note": "std::stable_sort is modelled as insertion sort; < must be a strict weak order. Frames: per key column, own value type. The copying of the result rows of a frame is C45."
  },
  {
   "property": "C32",
   "status": "proved",
   "theorems": [
    "C32_inner_join",
    "C32_too_small",
    "C32_rejects",
    "C32_semi_join",
    "C32_semi_too_small",
    "C32_other_types_refuted",
    "C32_semi_types_refuted"
   ],
   "note": "InnerJoin.h and SemiJoin.h with the frame accessors; strings and int64 keys compared by equality"
  },
  {
   "property": "C33",
   "status": "proved",
   "theorems": [
    "C33_plain",
    "C33_order_preserving",
    "C33_dense_codes",
    "C33_rejects",
    "C33_nan_refuted"
   ],
   "note": "Recode.h; the hash map may be iterated in any order; NaN counterexample in C33_nan_refuted"
  },
  {
   "property": "C34",
   "status": "proved",
   "theorems": [
    "C34_to_bitmap",
    "C34_to_positions",
    "C34_positions_round_trip",
    "C34_bitmap_round_trip",
    "C34_too_large",
    "C34_boundary_refuted"
   ],
   "note": "A position equal to the length passes the check and writes outside the bitmap (refuted)."
  },
  {
   "property": "C35",
   "status": "proved",
   "theorems": [
    "C35_sample_distinct",
    "C35_sample_all",
    "C35_with_replacement",
    "C35_rejects",
    "C35_float"
   ],
   "note": "Random streams are arbitrary functions or lists; std::shuffle is any permutation; fmod is exact (operands below 2^53)."
  },
  {
   "property": "C36",
   "status": "proved",
   "theorems": [
    "C36_dense",
    "C36_any_matrix",
    "C36_not_square",
    "C36_sparse_true",
    "C36_sparse_complete",
    "C36_sparse_refuted"
   ],
   "note": "Sparse check refuted in both directions; the two implications that do hold are proved."
  },
  {
   "property": "C37",
   "status": "proved",
   "theorems": [
    "C37_static_at_most_two_per_worker",
    "C37_one_chunk_per_worker_refuted"
   ],
   "note": ""
  },
  {
   "property": "C38",
   "status": "proved",
   "theorems": [
    "C38_equal_iff_same_shape_and_cells",
    "C38_shortcut_agrees"
   ],
   "note": "Both directions."
  },
  {
   "property": "C39",
   "status": "proved",
   "theorems": [
    "C39_collect_any_order",
    "C39_collect_mpi_any_order",
    "C39_collect_add_any_order",
    "C39_collect_mpi_add_enough_columns",
    "C39_collect_mpi_add_refuted"
   ],
   "note": "Addition assumed associative and commutative with a unit; the MPI loss of contributions is shown by a witness."
  },
  {
   "property": "C40",
   "status": "proved",
   "theorems": [
    "C40_select_cells",
    "C40_select_shape",
    "C40_select_rejects",
    "C40_slice_cells",
    "C40_cbind_cells"
   ],
   "note": "Columns are references into shared buffers, so aliasing under later writes is covered."
  },
  {
   "property": "C41",
   "status": "proved",
   "theorems": [
    "C41_idx_rows",
    "C41_idx_cols",
    "C41_idx_sparse",
    "C41_cumulative",
    "C41_cumulative_no_rows_refuted",
    "C41_int64"
   ],
   "note": "Dense kernels AggCum, AggRow and AggCol."
  },
  {
   "property": "C42",
   "status": "proved",
   "theorems": [
    "C42_dense",
    "C42_sparse",
    "C42_sparse_zero_refuted"
   ],
   "note": "The rounding of sparsity times number of cells is an input of the model."
  },
  {
   "property": "C43",
   "status": "proved",
   "theorems": [
    "C43_extract_rows",
    "C43_extract_cols",
    "C43_rejects",
    "C43_any_stride",
    "C43_strided_refuted",
    "C43_cols_unchecked_refuted"
   ],
   "note": "integer position columns; result pointer null on entry"
  },
  {
   "property": "C44",
   "status": "proved",
   "theorems": [
    "C44_filter_rows",
    "C44_filter_cols",
    "C44_rejects",
    "C44_not_bits_refuted"
   ],
   "note": "integer selections; result pointer null on entry"
  },
  {
   "property": "C45",
   "status": "proved",
   "theorems": [
    "C45_extract",
    "C45_filter",
    "C45_slack_refuted"
   ],
   "note": "one column; columns are independent; string columns are copied element by element and not modelled"
  },
  {
   "property": "C46",
   "status": "proved",
   "theorems": [
    "C46_integers",
    "C46_uint32",
    "C46_int64_refuted",
    "C46_uint64_refuted"
   ],
   "note": "atoi outside of int is undefined behaviour; %d for a 64-bit argument is modelled as printing its low 32 bits"
  },
  {
   "property": "C47",
   "status": "proved",
   "theorems": [
    "C47_reverse",
    "C47_reverse_twice",
    "C47_diag_matrix_dense",
    "C47_diag_matrix_to_sparse",
    "C47_diag_matrix_sparse",
    "C47_diag_vector_dense",
    "C47_diag_vector_sparse",
    "C47_diag_roundtrip",
    "C47_diag_throws",
    "C47_reverse_empty_view_refuted"
   ],
   "note": "Frame and generic Matrix variants are not modelled."
  },
  {
   "property": "C48",
   "status": "proved",
   "theorems": [
    "C48_tri_dense",
    "C48_tri_sparse",
    "C48_tri_throws"
   ],
   "note": "The sparse variant needs that the zero is recognised as zero (viszero vzero)."
  },
  {
   "property": "C49",
   "status": "proved",
   "theorems": [
    "C49_rbind_dense",
    "C49_cbind_dense",
    "C49_rbind_sparse",
    "C49_cbind_sparse",
    "C49_throws",
    "C49_rbind_view_refuted",
    "C49_rbind_view_of_view_refuted"
   ],
   "note": "Two code defects are stated as refutations; the positive theorems exclude exactly these arguments."
  },
  {
   "property": "C50",
   "status": "proved",
   "theorems": [
    "C50_reshape_dense",
    "C50_reshape_sparse",
    "C50_throws",
    "C50_reshape_view_of_view_refuted",
    "C50_overflow_refuted"
   ],
   "note": "The values array shared by a sparse result is modelled as its first nnz elements."
  },
  {
   "property": "C51",
   "status": "proved",
   "theorems": [
    "C51_slice_row",
    "C51_slice_col",
    "C51_slice_throws",
    "C51_insert_row",
    "C51_insert_col",
    "C51_insert_row_sparse",
    "C51_insert_throws",
    "C51_insert_slice",
    "C51_slice_insert",
    "C51_negative_zero_refuted",
    "C51_sparse_empty_refuted"
   ],
   "note": "Dense matrices and views, sparse argument of row insertion; bounds int64, sizes below 2^63. Findings: lo:0 with lo < -1 addresses different rows when slicing and inserting; inserting nothing into a sparse matrix with 0 rows throws."
  },
  {
   "property": "C52",
   "status": "proved",
   "theorems": [
    "C52_dense",
    "C52_dense_throws",
    "C52_dense_scalar",
    "C52_add_sparse",
    "C52_mul_sparse",
    "C52_mul_sparse_dense",
    "C52_sparse_dense",
    "C52_sparse_scalar",
    "C52_sparse_throws",
    "C52_lhs_vector_refuted",
    "C52_lhs_row_empty_refuted",
    "C52_sparse_dense_refuted",
    "C52_nan_refuted"
   ],
   "note": "Zeros are compared up to viszero; the false parts are refuted with witnesses."
  },
  {
   "property": "C53",
   "status": "proved",
   "theorems": [
    "C53_function",
    "C53_safe",
    "C53_no_leak",
    "C53_all_destroyed",
    "C53_if_twice_refuted",
    "C53_for_outer_refuted",
    "C53_return_thrice_refuted"
   ],
   "note": "Positive theorems under the proviso of the statement; the general claim is refuted by three programs in SSA form."
  },
  {
   "property": "C54",
   "status": "proved",
   "theorems": [
    "C54_translation",
    "C54_if_selects",
    "C54_range",
    "C54_read_only_refuted",
    "C54_ex",
    "C54_ex_spec",
    "C54_ex_range"
   ],
   "note": "Values, operations and conversions are arbitrary; integers are unbounded; fuel bounds the iterations of while loops on both sides. The read-only guarantee for loop variables is refuted."
  },
  {
   "property": "C55",
   "status": "proved",
   "theorems": [
    "C55_group",
    "C55_unique",
    "C55_no_keys",
    "C55_min",
    "C55_max",
    "C55_key",
    "C55_keys_refuted",
    "C55_empty_refuted",
    "C55_ex_hyp",
    "C55_ex",
    "C55_ex_groups"
   ],
   "note": "Any number of key columns and rows, any aggregation function; the groups are determined by a separate specification (C55_unique). The two _refuted theorems show the failing cases named in the statement. Lookup of labels and the expansion of the star are not modelled."
  },
  {
   "property": "C56",
   "status": "proved",
   "theorems": [
    "C56_fold",
    "C56_error",
    "C56_defined",
    "C56_cast",
    "C56_cast_float",
    "C56_minus",
    "C56_float",
    "C56_widen_refuted",
    "C56_cast_refuted",
    "C56_bool_refuted",
    "C56_mod_refuted",
    "C56_index_refuted",
    "C56_float_cast_refuted",
    "C56_nan_refuted",
    "C56_ex"
   ],
   "note": "All types and values; signed overflow in a kernel is undefined, so folding may give any value there. Every exception named in the statement has a _refuted theorem with a witness. Floating-point arithmetic itself and strings are not modelled."
  },
  {
   "property": "C57",
   "status": "proved",
   "theorems": [
    "C57_reorder",
    "C57_conserve",
    "C57_fuse",
    "C57_step",
    "C57_ex",
    "C57_ex_step",
    "C57_ex_step_hyps",
    "C57_effects_refuted",
    "C57_order_refuted",
    "C57_nested_refuted",
    "C57_cycle_refuted",
    "C57_twice_refuted",
    "C57_whole_refuted"
   ],
   "note": "One block, one result per operation; the operations computing result sizes and the casts of scalar results are not modelled. The whole-pass theorem is for values used at most once; with shared values the theorem is about one pipeline, and the _refuted theorems show where the whole pass fails."
  },
  {
   "property": "C58",
   "status": "proved",
   "theorems": [
    "C58_early",
    "C58_verified",
    "C58_no_return",
    "C58_nested_refuted",
    "C58_inner_use_refuted",
    "C58_void_refuted",
    "C58_arity_refuted"
   ],
   "note": "Partial correctness: the number of rounds of the loop is bounded by a parameter; its termination is not proved. Returns inside loops, which the code rejects, are not modelled."
  },
  {
   "property": "C59",
   "status": "proved",
   "theorems": [
    "C59_op_shapes",
    "C59_op_rejects",
    "C59_program_shapes",
    "C59_final_shapes",
    "C59_nrow_ncol",
    "C59_rounds",
    "C59_hang",
    "C59_terminates_refuted",
    "C59_cartesian_refuted",
    "C59_seq_refuted",
    "C59_seq_zero_refuted",
    "C59_scalar_left_refuted",
    "C59_pool_refuted",
    "C59_conv_refuted",
    "C59_ctable_refuted",
    "C59_bitmap_refuted",
    "C59_ex_applies",
    "C59_known"
   ],
   "note": "Proved for all programs over the modelled operations with structured control flow, under the stated conditions on single calls; each excluded call and the endless search have a refutation with a program. Value types, sparsity, labels and later runs of the pass are not modelled."
  },
  {
   "property": "C60",
   "status": "proved",
   "theorems": [
    "C60_matmul_float",
    "C60_matmul_int",
    "C60_matmul_int_transposed",
    "C60_rejects",
    "C60_syrk",
    "C60_gemv",
    "C60_gemv_row",
    "C60_gemv_sparse",
    "C60_compiled",
    "C60_compiled_int",
    "C60_int64",
    "C60_gemv_row_refuted",
    "C60_gemv_mismatch_refuted",
    "C60_gemv_sparse_refuted",
    "C60_empty_refuted",
    "C60_int_refuted"
   ],
   "note": "BLAS and Eigen are modelled by their documentation, sums in index order; the compiler's choice is proved to keep the product except in the refuted cases"
  },
  {
   "property": "C61",
   "status": "proved",
   "theorems": [
    "C61_compare",
    "C61_logical",
    "C61_extract",
    "C61_extract_rejects",
    "C61_filter",
    "C61_inner_join",
    "C61_inner_join_refuted",
    "C61_join_size_refuted",
    "C61_semi_join",
    "C61_semi_size_refuted",
    "C61_group",
    "C61_group_same_groups",
    "C61_logical_columns_refuted",
    "C61_logical_broadcast_refuted",
    "C61_extract_negative_refuted",
    "C61_filter_length_refuted",
    "C61_join_duplicates_refuted",
    "C61_semi_columns_refuted",
    "C61_group_order_refuted",
    "C61_agg_bound_refuted",
    "C61_agg_bound"
   ],
   "note": "Columns as lists of values, keys compared by equality, hash maps as association lists, fuel for the two-pointer loops; sums without optimistic splitting (C62)."
  },
  {
   "property": "C62",
   "status": "proved",
   "theorems": [
    "C62_wrapping",
    "C62_signed",
    "C62_half_refuted",
    "C62_half_overflow_refuted",
    "C62_full_refuted",
    "C62_bound_refuted"
   ],
   "note": "Integers as mathematical integers with the conversions and overflows of C++; signed overflow undefined or wrapping as a parameter."
  },
  {
   "property": "C63",
   "status": "proved",
   "theorems": [
    "C63_keeps",
    "C63_anywhere",
    "C63_add_unknown_refuted",
    "C63_add_unknown_row_refuted",
    "C63_add_unknown_string_refuted",
    "C63_add_string_matrix_refuted",
    "C63_sub_unsigned_refuted",
    "C63_sub_narrow_refuted",
    "C63_sub_min_refuted",
    "C63_div_refuted",
    "C63_div_rounding_refuted",
    "C63_div_single_refuted",
    "C63_cond_refuted"
   ],
   "note": "Each rule and any sequence of rules at any place keep every value under explicit conditions; every condition is shown to be needed by a refutation, except the sign of zero in a - X. Division has no positive part: no condition is given under which a / X keeps its value."
  },
  {
   "property": "C64",
   "status": "proved",
   "theorems": [
    "C64_fuse",
    "C64_effects",
    "C64_none",
    "C64_ex",
    "C64_ex_effects",
    "C64_ex_none",
    "C64_followed_refuted",
    "C64_transitive_refuted",
    "C64_independent_refuted",
    "C64_effects_refuted",
    "C64_nested_refuted"
   ],
   "note": "Whole pass over one block; the wiring inside the fused pipeline is C65. Hypotheses shown on a concrete block; each dropped hypothesis has a witness."
  },
  {
   "property": "C65",
   "status": "proved",
   "theorems": [
    "C65_build",
    "C65_merge",
    "C65_canon",
    "C65_all",
    "C65_canon_done",
    "C65_ex",
    "C65_canon_refuted",
    "C65_canon_once_refuted",
    "C65_merge_unwired_refuted"
   ],
   "note": "Meaning of operations, parts and combining are arbitrary functions; that an operation distributes over chunks is a hypothesis here. Operations have one result; casts of scalar results are left out."
  },
  {
   "property": "C66",
   "status": "proved",
   "theorems": [
    "C66_op",
    "C66_pipeline",
    "C66_pipelines",
    "C66_length",
    "C66_scheduled",
    "C66_exact64",
    "C66_case",
    "C66_trans_left_refuted",
    "C66_syrk_refuted",
    "C66_row_vector_refuted",
    "C66_empty_refuted"
   ],
   "note": "Dense matrices over an abstract element type with associative, commutative sums, minima and maxima; chunk results are combined one after the other (their order and the partial results of tasks are C07 and C08); single task queue (C03). The flag for a transposed left operand is not set by the compiler today; X @ t(X) is."
  },
  {
   "property": "C67",
   "status": "proved",
   "theorems": [
    "C67_create",
    "C67_new",
    "C67_history",
    "C67_chunks_for",
    "C67_chunks_in",
    "C67_outside_refuted",
    "C67_set_chunk_refuted",
    "C67_scalar_refuted"
   ],
   "note": "what holds is proved for all shapes, chunk shapes and histories of legal writes; the failures are refuted by witnesses. Asynchronous reads are not modelled."
  },
  {
   "property": "C68",
   "status": "proved",
   "theorems": [
    "C68_rechunk",
    "C68_rechunk_flags_refuted",
    "C68_dice_to_contiguous",
    "C68_contiguous",
    "C68_convert",
    "C68_compare_elements",
    "C68_contiguous_eq",
    "C68_chunked_eq",
    "C68_dice",
    "C68_dice_one_dimension",
    "C68_dice_chunks_refuted",
    "C68_reduce_rank",
    "C68_reverse_refuted",
    "C68_from_matrix_refuted",
    "C68_dice_refuted",
    "C68_chunked_eq_refuted",
    "C68_view_refuted",
    "C68_contiguous_outside"
   ],
   "note": "positive theorems for all tensors of the library's form; refutations are general where possible (rechunk flags, whole chunks, byte order, from matrix, reduceRank) and by witness otherwise"
  },
  {
   "property": "C69",
   "status": "proved",
   "theorems": [
    "C69_query_answer",
    "C69_query_answer_examples",
    "C69_distinct_group_refuted",
    "C69_distinct_order_refuted",
    "C69_between_refuted",
    "C69_alias_shadows_refuted",
    "C69_table_twice_refuted",
    "C69_unqualified_refuted",
    "C69_unqualified_example",
    "C69_star_group_refuted",
    "C69_count_one_refuted",
    "C69_total_literal_refuted",
    "C69_bang_refuted",
    "C69_join_sides_refuted",
    "C69_reserved_refuted"
   ],
   "note": "The translation executed together with its kernels returns the answer of SqlSpec for every well-formed query; the refuted cases are shown by queries on a small database."
  },
  {
   "property": "C70",
   "status": "proved",
   "theorems": [
    "C70_theta_join",
    "C70_theta_join_unknown_column",
    "C70_theta_join_rejects",
    "C70_theta_join_no_condition",
    "C70_cartesian",
    "C70_cartesian_other_types_refuted",
    "C70_cartesian_rejects",
    "C70_mixed_types_refuted"
   ],
   "note": "Theta join: exact list of row pairs in lexicographic order, all rejections, null dereference without conditions, asymmetric comparison of mixed types. Cartesian product: right for int64/double columns, other columns uninitialised for every input."
  },
  {
   "property": "C71",
   "status": "proved",
   "theorems": [
    "C71_never_fails",
    "C71_coherent",
    "C71_write_once",
    "C71_write_shared_refuted",
    "C71_host_write_lost_refuted",
    "C71_stale_refill_refuted",
    "C71_host_reads_grow_refuted",
    "C71_row_view_refuted",
    "C71_column_view_refuted"
   ],
   "note": "Invariant over all histories of reads and writes on the host and on any number of devices. Coherence for the histories the tracker allows (including fill once, then read anywhere); the forbidden accesses are refuted in general, after every allowed history."
  },
  {
   "property": "C72",
   "status": "proved",
   "theorems": [
    "C72_one_hot",
    "C72_one_hot_rejects",
    "C72_one_hot_string",
    "C72_one_hot_string_view_refuted",
    "C72_one_hot_nonvacuous",
    "C72_ctable",
    "C72_ctable_rejects",
    "C72_ctable_negative_refuted",
    "C72_ctable_empty_refuted",
    "C72_ctable_negative_cell_refuted",
    "C72_ctable_view_refuted",
    "C72_ctable_nonvacuous",
    "C72_seq_int",
    "C72_seq_rejects",
    "C72_seq_int_overflow_refuted",
    "C72_seq_exact",
    "C72_seq_exact_refuted",
    "C72_seq_double_refuted",
    "C72_seq_nonvacuous",
    "C72_replace_dense",
    "C72_replace_csr",
    "C72_replace_empty_refuted",
    "C72_replace_csr_view_refuted",
    "C72_replace_nonvacuous",
    "C72_bin",
    "C72_bin_point",
    "C72_bin_rejects",
    "C72_bin_range_refuted",
    "C72_bin_nonvacuous"
   ],
   "note": "Numeric element types abstract (conversion to an index, equality, addition are parameters); fresh memory arbitrary; sequences once for integers with overflow, once in exact rational arithmetic, one instance with IEEE doubles (counterexample); binning in exact rational arithmetic. The _refuted theorems show where the code violates the property."
  },
  {
   "property": "C73",
   "status": "proved",
   "theorems": [
    "C73_binary",
    "C73_binary_across_refuted",
    "C73_csv",
    "C73_csv_large_refuted",
    "C73_distributed_csv",
    "C73_distributed_binary",
    "C73_unplaced_refuted",
    "C73_unplaced_read_refuted",
    "C73_csv_large_witness",
    "C73_binary_repartition_refuted",
    "C73_csv_view_refuted",
    "C73_csv_int8_refuted",
    "C73_csv_double_refuted"
   ],
   "note": "Holds for CSV segments that fit in the buffer and for binary ranges that begin with or lie within a segment; the refuted theorems give the ranges, sizes, value types and views that fail."
  },
  {
   "property": "C74",
   "status": "proved",
   "theorems": [
    "C74_compute_returns_node_value",
    "C74_names_distinct",
    "C74_clear_removes_names",
    "C74_compute_after_failure_refuted",
    "C74_setitem_consumers",
    "C74_setitem_hangs_refuted",
    "C74_setitem_literal_refuted",
    "C74_example",
    "C74_assign_part_refuted",
    "C74_loop_input_refuted",
    "C74_swap_refuted",
    "C74_nested_refuted"
   ],
   "note": "Statements of the generated script as syntax trees with an abstract interpretation of operations, literals, ranges and updates; positive theorem for callbacks without nested control structures; refutations with concrete graphs. Transfer of data between Python and DAPHNE is not modelled."
  },
  {
   "property": "C75",
   "status": "proved",
   "theorems": [
    "C75_inferred_columns_are_those_of_the_result",
    "C75_programs_with_known_labels_are_accepted",
    "C75_simplifications_keep_the_result",
    "C75_different_numbers_of_columns_give_no_types",
    "C75_inner_join_with_unknown_labels_wrong_type_refuted",
    "C75_join_labels_read_out_of_bounds_refuted",
    "C75_colbind_of_a_slice_is_rejected_refuted",
    "C75_set_labels_null_dereference_refuted",
    "C75_wildcard_of_unknown_labels_refuted",
    "C75_count_has_another_type_refuted",
    "C75_group_by_star_too_many_columns_refuted",
    "C75_relabelled_slice_is_rejected_refuted",
    "C75_simplification_of_a_wildcard_label_refuted",
    "C75_simplification_removes_an_error_refuted",
    "C75_example"
   ],
   "note": "Soundness of the inferred types and labels, acceptance of labelled programs and simplifications, for all expressions; the refutations give the cases in which they fail."
  },
  {
   "property": "C76",
   "status": "proved",
   "theorems": [
    "C76_specialization_keeps_the_value",
    "C76_every_called_function_is_there",
    "C76_arguments_have_the_types_of_the_parameters",
    "C76_results_have_the_types_of_the_calls",
    "C76_specialized_program_is_the_program",
    "C76_specialization_ends",
    "C76_call_is_resolved_to_the_first_that_fits",
    "C76_known_types_resolve_exactly",
    "C76_first_untyped_takes_all_refuted",
    "C76_unknown_argument_takes_the_first_refuted",
    "C76_example",
    "C76_example_results",
    "C76_typed_function_called_with_a_constant_is_removed_refuted",
    "C76_result_of_a_result_stays_unknown_refuted",
    "C76_arguments_of_typed_functions_are_not_checked_refuted",
    "C76_call_with_a_map_is_specialized_too_early_refuted",
    "C76_result_depends_on_the_order_refuted",
    "C76_declared_result_type_is_dropped_refuted",
    "C76_counting_recursion_is_never_compiled_refuted"
   ],
   "note": "Proved for all programs of single-expression functions; agreement of types for programs whose functions are all templates; the failures of the code are the refuted theorems."
  },
  {
   "property": "C77",
   "status": "proved",
   "theorems": [
    "C77_convolution_computes_the_convolution",
    "C77_convolution_example",
    "C77_pooling_runs_over_the_windows",
    "C77_average_pooling_computes_averages",
    "C77_average_pooling_example",
    "C77_max_pooling_computes_the_largest_of_zero_and_the_window",
    "C77_max_pooling_is_right_if_a_cell_is_not_negative",
    "C77_max_pooling_of_negative_cells_is_zero",
    "C77_max_pooling_returns_the_largest_cell_refuted",
    "C77_max_pooling_of_one_column_returns_the_largest_number_refuted",
    "C77_max_pooling_of_one_column_example",
    "C77_average_pooling_with_padding_refuted",
    "C77_pooling_exchanges_the_strides",
    "C77_pooling_with_different_strides_stays_inside_its_operands_refuted",
    "C77_pooling_with_different_strides_has_the_right_shape_refuted"
   ],
   "note": "All sizes and cells. The exchanged strides, the maximum of negative cells, and the quick path for images of one column are refuted."
  },
  {
   "property": "C78",
   "status": "proved",
   "theorems": [
    "C78_gradient_of_average_pooling",
    "C78_gradient_of_average_pooling_example",
    "C78_gradient_of_max_pooling",
    "C78_gradient_of_max_pooling_example",
    "C78_pooling_gradients_with_different_strides_refuted",
    "C78_gradient_of_the_filters",
    "C78_gradient_of_the_filters_example",
    "C78_gradient_of_the_filters_refuted",
    "C78_gradient_of_the_images",
    "C78_gradient_of_the_images_example",
    "C78_gradient_of_the_images_refuted"
   ],
   "note": "All sizes and cells; the cases in which the kernels are wrong are refuted."
  },
  {
   "property": "C79",
   "status": "proved",
   "theorems": [
    "C79_meaning",
    "C79_dense",
    "C79_sparse",
    "C79_frame",
    "C79_dense_sparse",
    "C79_cut_off_refuted",
    "C79_duplicate_refuted",
    "C79_zero_position_refuted",
    "C79_range_refuted",
    "C79_too_long_refuted",
    "C79_hermitian_refuted",
    "C79_not_square_refuted",
    "C79_large_refuted",
    "C79_ex_array",
    "C79_ex_coord",
    "C79_ex_pattern"
   ],
   "note": "All well-formed files of the array and coordinate formats into dense, sparse and frame results; the failing cases are stated as refuted theorems."
  },
  {
   "property": "C80",
   "status": "proved",
   "theorems": [
    "C80_most_general",
    "C80_order_of_arguments",
    "C80_frames_column_by_column",
    "C80_frames_of_different_width",
    "C80_type_of_expression",
    "C80_types_agree",
    "C80_exact",
    "C80_lossless",
    "C80_safe_mixture",
    "C80_logical_on_integers",
    "C80_negative_with_unsigned_refuted",
    "C80_logical_on_fractions_refuted",
    "C80_modulo_refuted",
    "C80_grouping_refuted",
    "C80_safe_mixture_nonvacuous",
    "C80_frames_nonvacuous",
    "C80_nearest"
   ],
   "note": "exact for all expressions whose arguments and results fit; exact table of lossless mixtures; four refutations"
  },
  {
   "property": "C81",
   "status": "proved",
   "theorems": [
    "C81_round_trip",
    "C81_six_places",
    "C81_every_short_decimal",
    "C81_big_integers_refuted",
    "C81_small_numbers_refuted",
    "C81_fixed_strings_refuted",
    "C81_no_rows_refuted",
    "C81_labels_refuted",
    "C81_lost_rows_refuted",
    "C81_round_trip_nonvacuous"
   ],
   "note": "Round trip proved for all frames within the stated limits, and up to rounding to six places beyond; the cases in which it fails are proved as refutations."
  },
  {
   "property": "C82",
   "status": "proved",
   "theorems": [
    "C82_exact",
    "C82_outer_product",
    "C82_range",
    "C82_product_average",
    "C82_sum_average",
    "C82_symmetry",
    "C82_unknown_refuted",
    "C82_unknown_operands_refuted",
    "C82_dependent_refuted",
    "C82_seq_refuted",
    "C82_diag_refuted",
    "C82_tri_refuted",
    "C82_branches_refuted",
    "C82_branches",
    "C82_matmul_refuted"
   ],
   "note": "Exactness, averages, range and symmetry proved for all expressions; the cases where sparsity() is wrong are proved as refutations."
  },
  {
   "property": "C83",
   "status": "proved",
   "theorems": [
    "C83_choice",
    "C83_error",
    "C83_extension",
    "C83_operands",
    "C83_hint",
    "C83_hint_refuted",
    "C83_pack_refuted",
    "C83_catalog",
    "C83_skipped_refuted",
    "C83_ext_priority",
    "C83_ext_plain",
    "C83_ext_colon_refuted",
    "C83_library",
    "C83_library_refuted",
    "C83_example",
    "C83_pack_example"
   ],
   "note": "Choice, errors, extensions, operands, hints, catalog files and libraries, for all catalogs and operations; five refutations with the strongest true variants."
  },
  {
   "property": "C84",
   "status": "proved",
   "theorems": [
    "C84_order",
    "C84_keyword_order",
    "C84_positional",
    "C84_named",
    "C84_udf",
    "C84_udf_arity",
    "C84_hides",
    "C84_builtin",
    "C84_overload_refuted",
    "C84_recursion_refuted",
    "C84_cast_refuted",
    "C84_specific_refuted",
    "C84_map",
    "C84_map_refuted",
    "C84_example",
    "C84_udf_example"
   ],
   "note": "Binding of arguments, independence of keyword order, choice among definitions, hiding of built-ins; five refutations."
  },
  {
   "property": "C85",
   "status": "proved",
   "theorems": [
    "C85_int",
    "C85_int_tokens",
    "C85_all_integers",
    "C85_int_refuted",
    "C85_suffix_refuted",
    "C85_float",
    "C85_special_refuted",
    "C85_string_tokens",
    "C85_string",
    "C85_string_refuted",
    "C85_args",
    "C85_arg_value",
    "C85_arg_missing",
    "C85_comma_refuted",
    "C85_matrix",
    "C85_matrix_exact",
    "C85_matrix_error",
    "C85_dims_refuted",
    "C85_size_refuted",
    "C85_text_refuted",
    "C85_frame",
    "C85_frame_text_refuted",
    "C85_example",
    "C85_float_example"
   ],
   "note": "Values of literals and script arguments, matrix and frame literals; counterexamples for the largest integers, nanf/inff, escaped backslashes, commas, negative dimensions, sizes and strings."
  },
  {
   "property": "C86",
   "status": "proved",
   "theorems": [
    "C86_read",
    "C86_read_error",
    "C86_label",
    "C86_filter",
    "C86_assign",
    "C86_read_back",
    "C86_assign_error",
    "C86_assign_refused",
    "C86_omit_refuted",
    "C86_several",
    "C86_several_refuted",
    "C86_several_lost",
    "C86_fraction_refuted",
    "C86_huge_refuted",
    "C86_column_refuted",
    "C86_negative_zero_refuted",
    "C86_example"
   ],
   "note": "Reading and assigning parts of matrices at the level of DaphneDSL; counterexamples for assignments to several variables, omitted indexes, negative fractions, huge positions, columns as lists of positions and -2:0."
  },
  {
   "property": "C87",
   "status": "proved",
   "theorems": [
    "C87_group_join",
    "C87_same_label",
    "C87_as_join",
    "C87_overflow_refuted",
    "C87_types_refuted",
    "C87_error",
    "C87_example",
    "C87_duplicates_refuted",
    "C87_example_overflow"
   ],
   "note": "One row per common key with the sum and the first left row, for every iteration order; equal to join and grouping for unique left keys. Refuted: duplicate left keys, other types, overflow."
  },
  {
   "property": "C88",
   "status": "proved",
   "theorems": [
    "C88_matrix",
    "C88_matrix_error",
    "C88_scalar",
    "C88_scalar_error",
    "C88_both_evaluated",
    "C88_lazy_refuted",
    "C88_types",
    "C88_types_error",
    "C88_properties_refuted",
    "C88_scalar_types",
    "C88_compile_refuted",
    "C88_frames",
    "C88_type_error",
    "C88_shape",
    "C88_sparse",
    "C88_sparse_empty_refuted",
    "C88_sparse_error",
    "C88_example"
   ],
   "note": "the value that is not chosen is evaluated too; properties of the condition are inferred for the result: see the refuted theorems"
  },
  {
   "property": "C89",
   "status": "proved",
   "theorems": [
    "C89_types",
    "C89_unknown_refuted",
    "C89_first_column_refuted",
    "C89_once",
    "C89_twice_refuted",
    "C89_objects",
    "C89_defined",
    "C89_chain",
    "C89_labels_refuted",
    "C89_column_refuted",
    "C89_scalar_chain",
    "C89_scalar_chain_refuted",
    "C89_to_scalar",
    "C89_column_to_scalar",
    "C89_from_scalar",
    "C89_frame_to_scalar",
    "C89_frame_ui64_refuted",
    "C89_frame_narrow_refuted",
    "C89_frame_zeros",
    "C89_frame_error",
    "C89_example"
   ],
   "note": "double evaluation, lost targets and wrong memory accesses: see the refuted theorems"
  },
  {
   "property": "C90",
   "status": "proved",
   "theorems": [
    "C90_order",
    "C90_matrix",
    "C90_matrix_concat",
    "C90_matrix_scalar",
    "C90_scalar_eq",
    "C90_scalar_concat",
    "C90_scalar_value",
    "C90_neq_different",
    "C90_neq_refuted",
    "C90_neq_variables_refuted",
    "C90_scalar_order_error",
    "C90_case_refuted",
    "C90_fold",
    "C90_case",
    "C90_case_255",
    "C90_letters",
    "C90_fixed",
    "C90_fixed_c",
    "C90_fixed_default",
    "C90_fixed_cmp",
    "C90_fixed_eq_c",
    "C90_fixed_case",
    "C90_fixed_nul_refuted",
    "C90_fixed_print_refuted",
    "C90_example"
   ],
   "note": "Equality, order and concatenation by characters proved for all strings; != of string scalars refuted in general."
  },
  {
   "property": "C91",
   "status": "proved",
   "theorems": [
    "C91_bias",
    "C91_bias_empty_refuted",
    "C91_test_rows_refuted",
    "C91_test_images_refuted",
    "C91_test_large_refuted",
    "C91_train",
    "C91_back",
    "C91_softmax",
    "C91_softmax_empty_refuted",
    "C91_softmax_max",
    "C91_softmax_sparse",
    "C91_softmax_sparse_max",
    "C91_bias_rest_refuted",
    "C91_bias_view_refuted",
    "C91_test_channels_refuted",
    "C91_train_example",
    "C91_back_hypotheses",
    "C91_softmax_example",
    "C91_softmax_sparse_overflow_refuted",
    "C91_softmax_dense_no_overflow"
   ],
   "note": "Proved over any field; rounding is not modelled."
  },
  {
   "property": "C92",
   "status": "proved",
   "theorems": [
    "C92_sequences",
    "C92_remove_outside",
    "C92_no_leak",
    "C92_types",
    "C92_not_matrix",
    "C92_two_types",
    "C92_accepted",
    "C92_unknown_refuted",
    "C92_mixed_refuted",
    "C92_sparse_refuted",
    "C92_append_types",
    "C92_example"
   ],
   "note": "Sequence semantics, absence of use after free and of leaks for all scripts without control flow; typing accepted/rejected cases; three findings refuted."
  },
  {
   "property": "C93",
   "status": "proved",
   "theorems": [
    "C93_given",
    "C93_own_sparsity",
    "C93_empty_refuted",
    "C93_same_results",
    "C93_no_effect_refuted",
    "C93_dense",
    "C93_sparse",
    "C93_view_refuted",
    "C93_example",
    "C93_record_unchanged",
    "C93_inserted",
    "C93_all_inserted"
   ],
   "note": "Alignment of entries and values, unchanged results and the recorded fractions are proved for all programs; three findings refuted."
  },
  {
   "property": "C94",
   "status": "proved",
   "theorems": [
    "C94_kinds",
    "C94_bad_file",
    "C94_command_line_wins",
    "C94_file_used",
    "C94_file_ignored_refuted",
    "C94_cascade_refuted",
    "C94_unset_refuted",
    "C94_tile_sizes",
    "C94_tiling_in_file_refuted",
    "C94_device",
    "C94_refused",
    "C94_missing_file_refuted",
    "C94_columnar_in_file_refuted",
    "C94_no_configuration",
    "C94_example"
   ],
   "note": "The documented cascade is proved where it holds and refuted, for all files and command lines, for the keys that are overwritten; see C94_file_ignored_refuted, C94_unset_refuted, C94_missing_file_refuted"
  },
  {
   "property": "C95",
   "status": "proved",
   "theorems": [
    "C95_search_dense",
    "C95_search_sparse",
    "C95_approx_dense",
    "C95_nan_refuted",
    "C95_approx_sparse",
    "C95_sparse_shapes",
    "C95_columns_refuted",
    "C95_stored_zero_refuted",
    "C95_approx_generic",
    "C95_approx_frame",
    "C95_unsigned_refuted",
    "C95_unsigned",
    "C95_unsigned_example",
    "C95_example"
   ],
   "note": "Searching is proved for dense and sparse matrices; approximate comparison is characterised for dense matrices, sparse ones with the same stored columns, generic matrices and frames, and refuted for not-a-number, other columns, stored zeros and unsigned numbers"
  }
 ]
}