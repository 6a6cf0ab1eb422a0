{
 "claims": [
  {
   "property": "C01",
   "status": "proved",
   "theorems": [
    "C01_write_read",
    "C01_index_position"
   ],
   "note": "All dimensions whose element count fits an int, any element type."
  },
  {
   "property": "C02",
   "status": "proved",
   "theorems": [
    "C02_set_entries",
    "C02_set_entries_mismatch",
    "C02_construct",
    "C02_construct_mismatch"
   ],
   "note": "Constructor and setEntries, including the exceptions and the unchanged matrix after one."
  },
  {
   "property": "C03",
   "status": "partial",
   "theorems": [
    "C03_iteration_partial",
    "C03_empty_refuted"
   ],
   "note": "Proved for every shape with no zero dimension or zero depth; refuted for matrices with x=0 or y=0 and z>0 (C03_empty_refuted)."
  },
  {
   "property": "C04",
   "status": "proved",
   "theorems": [
    "C04_reshape"
   ],
   "note": "Exact success condition, value, exception and inverse."
  },
  {
   "property": "C05",
   "status": "partial",
   "theorems": [
    "C05_history_partial",
    "C05_resize_refuted"
   ],
   "note": "Invariant over all histories of operations except a resize/assignment to a negative element count, where it is refuted (C05_resize_refuted)."
  },
  {
   "property": "C06",
   "status": "proved",
   "theorems": [
    "C06_resize",
    "C06_resize_depth"
   ],
   "note": "Storage prefix and depth growth."
  },
  {
   "property": "C07",
   "status": "proved",
   "theorems": [
    "C07_move"
   ],
   "note": "Move gives exact contents and an empty reusable source."
  },
  {
   "property": "C08",
   "status": "partial",
   "theorems": [
    "C08_view_exact_partial",
    "C08_subview_exact_partial",
    "C08_nested_inside",
    "C08_slices_exact",
    "C08_negative_refuted"
   ],
   "note": "Exact success condition for non-negative starts and sizes, and every nesting depth; negative starts are accepted by the code (C08_negative_refuted)."
  },
  {
   "property": "C09",
   "status": "proved",
   "theorems": [
    "C09_read",
    "C09_fill",
    "C09_assign",
    "C09_assign_mismatch"
   ],
   "note": "Read, fill and assign with frame conditions; non-empty views."
  },
  {
   "property": "C10",
   "status": "partial",
   "theorems": [
    "C10_at_partial",
    "C10_negative_refuted"
   ],
   "note": "Exact for non-negative indices; negative indices are accepted (C10_negative_refuted)."
  },
  {
   "property": "C11",
   "status": "partial",
   "theorems": [
    "C11_pointwise_assign_partial",
    "C11_pointwise_compound_partial",
    "C11_assign_partial",
    "C11_compound_partial",
    "C11_compound_mismatch",
    "C11_transpose_refuted",
    "C11_subview_refuted"
   ],
   "note": "Right whenever element k is computed from cells at or after k (covers all element-wise expressions); refuted for M = transpose(M) and M = view of M."
  },
  {
   "property": "C12",
   "status": "partial",
   "theorems": [
    "C12_view_copy_partial",
    "C12_overlap_refuted"
   ],
   "note": "Right when the destination does not start after the source or regions are disjoint; refuted for the remaining overlaps."
  },
  {
   "property": "C13",
   "status": "partial",
   "theorems": [
    "C13_scalar_partial",
    "C13_alias_refuted"
   ],
   "note": "Right for scalars outside the matrix and for its last element; refuted for references to earlier elements."
  },
  {
   "property": "C14",
   "status": "partial",
   "theorems": [
    "C14_expression_partial",
    "C14_convert_partial",
    "C14_value_unique"
   ],
   "note": "All expression trees over named matrices, temporaries, views, named expressions, element-wise operators, scalars, apply and transposes of named objects; transposes of temporaries are refuted (C16_temporary_refuted)."
  },
  {
   "property": "C15",
   "status": "partial",
   "theorems": [
    "C15_multiply_partial",
    "C15_mismatch",
    "C15_associative",
    "C15_transpose",
    "C15_temporary_refuted"
   ],
   "note": "Exact product and size exception, associativity and transposition law for named operands; with temporaries the result may be empty (C15_temporary_refuted)."
  },
  {
   "property": "C16",
   "status": "partial",
   "theorems": [
    "C16_transpose_partial",
    "C16_involution_partial",
    "C16_temporary_refuted"
   ],
   "note": "Exact for named operands; refuted for every temporary."
  },
  {
   "property": "C17",
   "status": "proved",
   "theorems": [
    "C17_rotate",
    "C17_not_square",
    "C17_compose",
    "C17_full_turn"
   ],
   "note": "rotate<n> is n quarter turns; composition and full turn; non-square rejected."
  },
  {
   "property": "C18",
   "status": "partial",
   "theorems": [
    "C18_convolve",
    "C18_real_sum",
    "C18_flat",
    "C18_stride_partial",
    "C18_stride_refuted"
   ],
   "note": "Exact for unit stride, and for windows inside A for any stride; refuted for strides above one, because the output size ignores the stride."
  },
  {
   "property": "C19",
   "status": "partial",
   "theorems": [
    "C19_dot_int_partial",
    "C19_dot_whole_partial",
    "C19_mismatch",
    "C19_float_refuted"
   ],
   "note": "Exact for int vectors and for float vectors holding whole numbers, exact size condition; refuted for fractional floats, which are truncated each step."
  },
  {
   "property": "C20",
   "status": "partial",
   "theorems": [
    "C20_sum",
    "C20_mean",
    "C20_real_sum",
    "C20_mean_int_partial",
    "C20_negative_refuted"
   ],
   "note": "Sum and floating-point mean exact; integer mean exact for non-negative sums, refuted for negative ones."
  },
  {
   "property": "C21",
   "status": "proved",
   "theorems": [
    "C21_max",
    "C21_min",
    "C21_ordered",
    "C21_member",
    "C21_finite"
   ],
   "note": "First largest/smallest element and index, member and free functions, any strict weak order; reals and integers are instances. Finite doubles: C21_finite."
  },
  {
   "property": "C22",
   "status": "proved",
   "theorems": [
    "C22_equal",
    "C22_tolerant",
    "C22_symmetric",
    "C22_reflexive"
   ],
   "note": "Exact characterisation, tolerant version, symmetry, reflexivity; shapes that can be iterated (no zero row or column count unless depth is zero)."
  },
  {
   "property": "C23",
   "status": "partial",
   "theorems": [
    "C23_forward_partial",
    "C23_channels",
    "C23_narrow_input_refuted",
    "C23_stride_refuted"
   ],
   "note": "Exact output for stride one and inputs at least as large as the filter, any number type; channel mismatch rejected. Refuted: an input one column narrower than the filter and any stride above one read outside the input."
  },
  {
   "property": "C24",
   "status": "proved",
   "theorems": [
    "C24_exists",
    "C24_weight_gradient",
    "C24_weight_gradient_sum",
    "C24_backward_stores"
   ],
   "note": "Derivative over the reals for every weight, plus the exact sum of products for any number type."
  },
  {
   "property": "C25",
   "status": "partial",
   "theorems": [
    "C25_input_gradient_partial",
    "C25_not_square_refuted"
   ],
   "note": "Derivative for outputs with as many rows as columns; refuted for all other shapes (MatrixTransformException)."
  },
  {
   "property": "C26",
   "status": "proved",
   "theorems": [
    "C26_bias_gradient"
   ],
   "note": "Sum and derivative over the reals."
  },
  {
   "property": "C27",
   "status": "partial",
   "theorems": [
    "C27_forward",
    "C27_storage_order",
    "C27_first_partial",
    "C27_new_layer",
    "C27_reject",
    "C27_history",
    "C27_empty_refuted"
   ],
   "note": "Exact output, rejection and unchanged layer over every history of calls; a first input without elements is outside (C27_empty_refuted)."
  },
  {
   "property": "C28",
   "status": "partial",
   "theorems": [
    "C28_exists",
    "C28_weight_gradient_partial",
    "C28_bias_gradient",
    "C28_input_gradient_partial",
    "C28_backward_stores",
    "C28_move_order_refuted",
    "C28_shape_refuted"
   ],
   "note": "Derivatives when the compiler evaluates the dimensions before moving the temporary (g++) and the input has the shape of the first one; refuted for the other order and for other shapes."
  },
  {
   "property": "C29",
   "status": "partial",
   "theorems": [
    "C29_double",
    "C29_kernel_values",
    "C29_norm_one_partial"
   ],
   "note": "Exact over the reals for any rand sequence and odd RAND_MAX. C29_double: with doubles the sum of squares differs from 1 by at most 2^-50 for every parameter. Refuted for an even RAND_MAX (NaN, C29_ex_double)."
  },
  {
   "property": "C30",
   "status": "partial",
   "theorems": [
    "C30_output_size_partial",
    "C30_count",
    "C30_windows_inside_partial",
    "C30_large_refuted",
    "C30_stride_zero_refuted",
    "C30_inside_refuted"
   ],
   "note": "Exact for sizes up to 2^24 and strides 1..2^24; refuted above 2^24 (float arithmetic) and for stride 0."
  },
  {
   "property": "C31",
   "status": "partial",
   "theorems": [
    "C31_max_min_partial",
    "C31_selected_partial",
    "C31_average_partial",
    "C31_mean_value",
    "C31_finite_partial"
   ],
   "note": "Exact under C30's size bounds, for reals and finite doubles; above them the pass can fail (C30_inside_refuted)."
  },
  {
   "property": "C32",
   "status": "partial",
   "theorems": [
    "C32_gradient_partial",
    "C32_selected_unique",
    "C32_exists",
    "C32_history_partial",
    "C32_history_finite_partial"
   ],
   "note": "Exact under C30's size bounds, including independence of slot contents (also for finite doubles); also the derivative where the extremum is strict."
  },
  {
   "property": "C33",
   "status": "partial",
   "theorems": [
    "C33_gradient_partial"
   ],
   "note": "Exact under C30's size bounds."
  },
  {
   "property": "C34",
   "status": "partial",
   "theorems": [
    "C34_undersized_partial",
    "C34_large_partial",
    "C34_overflow_refuted",
    "C34_columns_refuted",
    "C34_check_partial"
   ],
   "note": "Proved if max(X, qx) * max(Y, qy) * C is below 2^29, or below 2^31 with sizes up to 2^24. Refuted above: the product of the sizes, or the rounded size, is not an int."
  },
  {
   "property": "C35",
   "status": "proved",
   "theorems": [
    "C35_elementwise",
    "C35_ranges",
    "C35_sigmoid_value",
    "C35_monotone"
   ],
   "note": "Element-wise for any number type; ranges and monotonicity over the reals."
  },
  {
   "property": "C36",
   "status": "partial",
   "theorems": [
    "C36_backward_value",
    "C36_size",
    "C36_table_partial",
    "C36_output_partial",
    "C36_leaky_partial",
    "C36_sigmoid_refuted",
    "C36_tanh_refuted"
   ],
   "note": "The layer evaluates the derivative function at its output: right for relu and linear, off by less than 2e-9 for leaky relu, refuted for sigmoid and tanh."
  },
  {
   "property": "C37",
   "status": "proved",
   "theorems": [
    "C37_roundtrip",
    "C37_total",
    "C37_different",
    "C37_reject",
    "C37_numbers"
   ],
   "note": "All kinds, texts and enum numbers."
  },
  {
   "property": "C38",
   "status": "proved",
   "theorems": [
    "C38_value",
    "C38_properties"
   ],
   "note": "Over the reals."
  },
  {
   "property": "C39",
   "status": "proved",
   "theorems": [
    "C39_gradient"
   ],
   "note": "Over the reals."
  },
  {
   "property": "C40",
   "status": "proved",
   "theorems": [
    "C40_protocol",
    "C40_reject_label",
    "C40_input"
   ],
   "note": "All histories of label assignments; exact condition on inputs."
  },
  {
   "property": "C41",
   "status": "partial",
   "theorems": [
    "C41_value",
    "C41_properties_partial",
    "C41_bounds_refuted"
   ],
   "note": "All clauses with the float constant 1e-5f in place of 1e-5; with 1e-5 itself the bounds are missed slightly (C41_bounds_refuted)."
  },
  {
   "property": "C42",
   "status": "partial",
   "theorems": [
    "C42_gradient_refuted",
    "C42_proportional_partial"
   ],
   "note": "Refuted; proved to be proportional by a factor given in the theorem."
  },
  {
   "property": "C43",
   "status": "proved",
   "theorems": [
    "C43_apply_batch",
    "C43_mismatch",
    "C43_rate_zero"
   ],
   "note": "Any number type, any number of slots; for zero slots the mean is 0/0."
  },
  {
   "property": "C44",
   "status": "partial",
   "theorems": [
    "C44_gradient_partial",
    "C44_probability",
    "C44_configurations",
    "C44_activation_refuted",
    "C44_bent_refuted",
    "C44_not_square_refuted"
   ],
   "note": "Any number of layers, any sizes, over the reals. Hypotheses: activations relu (no pre-activation 0) or linear, no pooling ties, square outputs for every convolution but the first layer; refuted for sigmoid, tanh and leaky relu (C44_activation_refuted) and for every convolution after the first layer whose output is not square (C44_not_square_refuted)."
  },
  {
   "property": "C45",
   "status": "partial",
   "theorems": [
    "C45_descent_partial",
    "C45_batch_partial",
    "C45_norm",
    "C45_sigmoid_refuted"
   ],
   "note": "False with sigmoid activations: C45_sigmoid_refuted is a network where every small rate raises the loss of the batch. Otherwise: derivative and strict decrease, for the formulas and for the layers after any execution of a full batch. Same hypotheses as C44 (differentiable activations, no ties, square convolution outputs) and no overlapping label hand-overs."
  },
  {
   "property": "C46",
   "status": "partial",
   "theorems": [
    "C46_result",
    "C46_records",
    "C46_forward_keeps_partial",
    "C46_backward_keeps",
    "C46_first_pass_refuted"
   ],
   "note": "Proved except that weights are unchanged: the first pass through a fresh fully connected layer initialises them (C46_first_pass_refuted); afterwards no pass changes them."
  },
  {
   "property": "C47",
   "status": "partial",
   "theorems": [
    "C47_position",
    "C47_unknown_label_refuted",
    "C47_reject_partial"
   ],
   "note": "Refuted: lossFcn reads outside the probabilities before the label is rejected. Proved: once past lossFcn, the label is rejected before any gradient is stored."
  },
  {
   "property": "C48",
   "status": "proved",
   "theorems": [
    "C48_names_distinct",
    "C48_names_values",
    "C48_insertion_order",
    "C48_failed_call",
    "C48_two_calls"
   ],
   "note": "All histories of calls, failed ones included. Names are distinct if setOutputLabels was called at most once; C48_two_calls shows that this is needed."
  },
  {
   "property": "C49",
   "status": "partial",
   "theorems": [
    "C49_ranges_partial",
    "C49_disjoint",
    "C49_cover",
    "C49_refuted"
   ],
   "note": "Disjoint always; exact cover for batch sizes below 2^24 and 1 to 2^24 threads; refuted at batch size 2^24+1 (C49_refuted)."
  },
  {
   "property": "C50",
   "status": "partial",
   "theorems": [
    "C50_ceil_partial",
    "C50_pool_partial",
    "C50_near_partial",
    "C50_pool_near_partial",
    "C50_refuted",
    "C50_pool_refuted"
   ],
   "note": "Exact for numerators below 2^24 and denominators 1 to 2^24; refuted at 2^24+1 (C50_refuted, C50_pool_refuted). For all sizes the error is at most one plus 2^-22 (2^-21 for pooling) of the quotient (C50_near_partial, C50_pool_near_partial)."
  },
  {
   "property": "C51",
   "status": "partial",
   "theorems": [
    "C51_taken",
    "C51_bounded",
    "C51_no_deadlock",
    "C51_writes_partial",
    "C51_epoch_ends_partial",
    "C51_epoch_partial",
    "C51_refuted"
   ],
   "note": "Every interleaving, any number type, any network. Sizes below 2^24; refuted for 2^24+1 data points (C51_refuted). C51_writes_partial assumes that fully connected layers are initialised."
  },
  {
   "property": "C52",
   "status": "proved",
   "theorems": [
    "C52_count",
    "C52_predictions"
   ],
   "note": "Every interleaving and every state of the layers; with initialised layers the predictions are those of the parameters at the start of the batch."
  },
  {
   "property": "C53",
   "status": "partial",
   "theorems": [
    "C53_refuted",
    "C53_own_label_partial",
    "C53_single_thread",
    "C53_some_label",
    "C53_mixed_refuted",
    "C53_always_refuted"
   ],
   "note": "Refuted (C53_refuted): the output layer's label is shared. This is so for every network and any two data points with different labels (C53_mixed_refuted, C53_always_refuted). Proved for executions without overlapping hand-overs, in particular one thread; in general the label is that of some data point."
  },
  {
   "property": "C54",
   "status": "partial",
   "theorems": [
    "C54_schedule_partial",
    "C54_value_partial",
    "C54_train_partial"
   ],
   "note": "Over the reals, for initialised layers of fitting shapes: same parameters for all schedules and thread counts, equal to sequential gradient descent, for one batch and for whole calls of train with full batches. With doubles the order changes the result (C101_same_update_refuted), by a bounded amount (C101_order)."
  },
  {
   "property": "C55",
   "status": "partial",
   "theorems": [
    "C55_any_batch_partial",
    "C55_refuted",
    "C55_first_batch_refuted"
   ],
   "note": "Refuted (stale slots, and an exception in a first incomplete batch). C55_any_batch_partial gives the exact update after any batch; C54_value_partial shows the claim for full batches."
  },
  {
   "property": "C56",
   "status": "partial",
   "theorems": [
    "C56_exception_refuted",
    "C56_zero_weights_refuted",
    "C56_alone",
    "C56_first_use_partial",
    "C56_initialised_partial",
    "C56_initialised_safe"
   ],
   "note": "Refuted: another thread may get an exception or use weights that are not filled yet. Proved when one thread has completed a forward pass before."
  },
  {
   "property": "C57",
   "status": "partial",
   "theorems": [
    "C57_round_trip_partial",
    "C57_written_value",
    "C57_half_millionth_refuted",
    "C57_empty_refuted"
   ],
   "note": "Proved for matrices with at least one element: same dimensions, exact consumption for any following text, same text when written again, error at most 5e-7 plus the rounding of the decimal number to a double (always below 1e-6). Half a millionth exactly is refuted, and so is exact consumption for matrices without elements."
  },
  {
   "property": "C58",
   "status": "partial",
   "theorems": [
    "C58_int",
    "C58_unsigned",
    "C58_line",
    "C58_other_text_partial",
    "C58_blank_refuted"
   ],
   "note": "Round trip proved for every label, int, unsigned and following text. Other text raises a runtime error for every label that is not empty and does not end in a blank; refuted for a label that ends in a blank."
  },
  {
   "property": "C59",
   "status": "partial",
   "theorems": [
    "C59_round_trip_partial",
    "C59_pool_stride_refuted",
    "C59_stride_refuted",
    "C59_activation_refuted",
    "C59_unused_refuted",
    "C59_empty_refuted",
    "C59_empty_kernel_refuted"
   ],
   "note": "Refuted: strides, the activation function and layers whose weights have no elements (such as a connected layer that was never used) are not restored. Proved: everything else is restored for all layers whose matrices have elements, all finite."
  },
  {
   "property": "C60",
   "status": "partial",
   "theorems": [
    "C60_save_load_partial",
    "C60_label_types",
    "C60_activation_refuted",
    "C60_label_refuted",
    "C60_unused_refuted",
    "C60_softmax_inside_refuted"
   ],
   "note": "Refuted: activations are left out, labels with white space change, never used connected layers and layers after the Softmax make loading fail. Proved for all other models: true, the same layers in order (up to C59), the same labels and regular names."
  },
  {
   "property": "C61",
   "status": "partial",
   "theorems": [
    "C61_outcomes_partial",
    "C61_no_layer",
    "C61_pool_type",
    "C61_crlf_refuted",
    "C61_missing_refuted",
    "C61_exception_refuted",
    "C61_undefined_refuted",
    "C61_overflow_refuted",
    "C61_incomplete_refuted"
   ],
   "note": "Refuted: a missing file, texts without layers and saved models with carriage returns at the ends of the lines give true, length_error can leave the call, and missing values or too large sizes are undefined behaviour. Proved: no other exception leaves the call, for every content."
  },
  {
   "property": "C62",
   "status": "partial",
   "theorems": [
    "C62_connected_partial",
    "C62_model_refuted"
   ],
   "note": "Refuted: after loading, the backward pass of a connected layer that is not the first layer always raises an exception. Proved: as first layer it works."
  },
  {
   "property": "C63",
   "status": "proved",
   "theorems": [
    "C63_open",
    "C63_stop",
    "C63_missing",
    "C63_short"
   ],
   "note": "For all files with complete headers, for both byte orders of the machine; numbers are signed 32-bit. Missing files stop the program too; a file shorter than its magic number is undefined behaviour (C63_short)."
  },
  {
   "property": "C64",
   "status": "partial",
   "theorems": [
    "C64_history_partial",
    "C64_get_image_partial",
    "C64_pixel",
    "C64_far_refuted",
    "C64_truncated_refuted",
    "C64_large_refuted"
   ],
   "note": "Proved for all complete files with less than 2^31 pixels per image and all histories of calls with indices whose offsets the file system can represent. Refuted beyond: after such an index every image is undefined, as are missing data and larger images."
  },
  {
   "property": "C65",
   "status": "partial",
   "theorems": [
    "C65_generator_partial",
    "C65_no_images",
    "C65_truncated_refuted"
   ],
   "note": "Proved for all complete files with at least one image and all histories; with no image the constructor raises an exception. Refuted for files shorter than their headers say."
  },
  {
   "property": "C66",
   "status": "partial",
   "theorems": [
    "C66_bar_partial",
    "C66_any_count_partial",
    "C66_occupied",
    "C66_many_batches_refuted"
   ],
   "note": "Proved exactly for up to 2^24 batches; refuted above (101%, one column more). Between 1 and 101% for every count. The count of = signs is exact for all arguments, with undefined conversions."
  },
  {
   "property": "C67",
   "status": "proved",
   "theorems": [
    "C67_forward",
    "C67_main"
   ],
   "note": "Any number type, any network whose sizes fit, fresh or used; the network of main.cpp as an instance."
  },
  {
   "property": "C68",
   "status": "proved",
   "theorems": [
    "C68_backward"
   ],
   "note": "Any number type and network; square outputs are part of the statement because of C25. The order of evaluation of C28 is a hypothesis."
  },
  {
   "property": "C69",
   "status": "partial",
   "theorems": [
    "C69_training_partial",
    "C69_exists_partial"
   ],
   "note": "Every interleaving, any number type. Hypotheses: batch size, threads and data points below 2^24 (C50) and at least one full batch of data (C55_first_batch_refuted)."
  },
  {
   "property": "C70",
   "status": "partial",
   "theorems": [
    "C70_one_thread_partial",
    "C70_exists_partial"
   ],
   "note": "Any number type, new networks included. Hypotheses: batch size and data points below 2^24 and at least one full batch of data."
  },
  {
   "property": "C71",
   "status": "partial",
   "theorems": [
    "C71_main_partial",
    "C71_threads_refuted"
   ],
   "note": "Proved for one thread and up to 2^24 images. Refuted for two or more threads (C71_threads_refuted; the code uses hardware_concurrency): the label of the output layer and the first use of the fully connected layer are data races."
  },
  {
   "property": "C72",
   "status": "partial",
   "theorems": [
    "C72_no_failure_partial"
   ],
   "note": "Every interleaving of single accesses, any number type, n + threads at most 2^31. Missing: the effects that C++ allows for the data race of C75."
  },
  {
   "property": "C73",
   "status": "proved",
   "theorems": [
    "C73_progress"
   ],
   "note": "Every reachable state; the bound on the number of steps is explicit. Same interleaving semantics and hypotheses as C72."
  },
  {
   "property": "C74",
   "status": "partial",
   "theorems": [
    "C74_count_partial",
    "C74_alone"
   ],
   "note": "Every interleaving of single accesses, though threads overwrite each other's indices in the pooling layers. Missing: the effects that C++ allows for the data race of C75."
  },
  {
   "property": "C75",
   "status": "partial",
   "theorems": [
    "C75_refuted",
    "C75_partial"
   ],
   "note": "Refuted for every network with a pooling layer for maxima or minima (also that of main.cpp), two threads and two images: the index slot 0 is written by all threads. Proved: the reader is used by one thread at a time, all other layers and parameters are only read."
  },
  {
   "property": "C76",
   "status": "partial",
   "theorems": [
    "C76_accuracy_partial",
    "C76_near_partial",
    "C76_below_partial",
    "C76_refuted",
    "C76_no_images_refuted"
   ],
   "note": "Proved exactly for up to 671088 images; refuted for 671091 images (more than 100) and for none (not a number). For any number of images the relative error is at most 5 * 2^-24 (C76_near_partial) and the number at most 100.00003."
  },
  {
   "property": "C77",
   "status": "partial",
   "theorems": [
    "C77_valid_partial",
    "C77_exact_partial",
    "C77_gnu_partial",
    "C77_refuted",
    "C77_exact_refuted"
   ],
   "note": "Valid for all values of rand() below RAND_MAX; exact for up to 2^20 images unless r n / RAND_MAX is an integer, where it may be one less (never for the RAND_MAX of the GNU C library, C77_gnu_partial). Refuted for RAND_MAX, which selects image n."
  },
  {
   "property": "C78",
   "status": "partial",
   "theorems": [
    "C78_gray_partial",
    "C78_colour_partial",
    "C78_constant_refuted",
    "C78_negative_refuted",
    "C78_white_refuted"
   ],
   "note": "Proved for floats: gray images with values up to 2^24 that are not constant with a value of at least 1, colour images without negative values. Refuted: constant images of value at least 1 and negative colour values are undefined; the largest value is not white if below 1, for MNIST at most 169 of 255. Integers: C93."
  },
  {
   "property": "C79",
   "status": "partial",
   "theorems": [
    "C79_samples_partial",
    "C79_refuted",
    "C79_no_images_refuted"
   ],
   "note": "Proved for at least one image and values of rand() below RAND_MAX, for any number type; refuted for RAND_MAX and for no images: an exception ends the program."
  },
  {
   "property": "C80",
   "status": "partial",
   "theorems": [
    "C80_main_partial",
    "C80_exists_partial",
    "C80_refuted"
   ],
   "note": "One thread, 33 to 2^24 training images of 28 x 28 with digits as labels, at least one test image, values of rand() below RAND_MAX. Refuted for RAND_MAX: the model is not saved. Several threads: refuted by C71_threads_refuted."
  },
  {
   "property": "C81",
   "status": "partial",
   "theorems": [
    "C81_refuted",
    "C81_kernel"
   ],
   "note": "Refuted: the file has a line for the activation function that Kernel::deserialize does not expect; the call returns false and leaves one kernel in the model. Proved for every text with such a line."
  },
  {
   "property": "C82",
   "status": "proved",
   "theorems": [
    "C82_finite",
    "C82_ranges",
    "C82_gradients",
    "C82_monotone",
    "C82_correctly_rounded"
   ],
   "note": "exp, tanh: any functions with the stated ranges (C82_correctly_rounded: correctly rounded functions have them); for the last part also monotone."
  },
  {
   "property": "C83",
   "status": "proved",
   "theorems": [
    "C83_softmax"
   ],
   "note": "Same assumptions on exp as C82."
  },
  {
   "property": "C84",
   "status": "partial",
   "theorems": [
    "C84_label_partial",
    "C84_largest_refuted"
   ],
   "note": "Refuted: 0 and 2^-60 give equal probabilities, also with a correctly rounded exp. Proved: the label has the largest probability, and no other input is larger by 2^-50 or more (if exp(x) <= 1 - 2^-51 for x <= -2^-50)."
  },
  {
   "property": "C85",
   "status": "proved",
   "theorems": [
    "C85_forward",
    "C85_main",
    "C85_env"
   ],
   "note": "Square roots and conversions to float are correctly rounded. C85_main: the network of main.cpp on images with values up to 256."
  },
  {
   "property": "C86",
   "status": "proved",
   "theorems": [
    "C86_loss",
    "C86_value"
   ],
   "note": "log2: any function that is exact at powers of two and between them otherwise."
  },
  {
   "property": "C87",
   "status": "partial",
   "theorems": [
    "C87_label_refuted",
    "C87_first_use_refuted",
    "C87_shared_partial"
   ],
   "note": "Refuted for every network that fits its data, two or more threads, a batch size of at least two and two data points: the label of the output layer is written by all threads; also the first use of a fully connected layer. Proved: the data source is used by one thread at a time, the slots by one thread each, and parameters of used layers do not change."
  },
  {
   "property": "C88",
   "status": "proved",
   "theorems": [
    "C88_backward",
    "C88_update",
    "C88_batches",
    "C88_threads",
    "C88_main",
    "C88_unbounded_refuted"
   ],
   "note": "One thread; any number of threads if all layers have their parameters. C88_main: the first batch of main.cpp. C88_unbounded_refuted: bounds are needed."
  },
  {
   "property": "C89",
   "status": "proved",
   "theorems": [
    "C89_number",
    "C89_form",
    "C89_validation",
    "C89_confidence"
   ],
   "note": "The text is that of printf in the C locale; the sign of a NaN is not modelled."
  },
  {
   "property": "C90",
   "status": "partial",
   "theorems": [
    "C90_double_partial",
    "C90_float_partial",
    "C90_int_partial",
    "C90_stream_refuted",
    "C90_wide_refuted",
    "C90_min_refuted"
   ],
   "note": "Proved for std::cout and absolute values below 9999.995 (doubles, floats), and for ints up to 9999 on any stream, sizes not zero. Refuted: other streams (the format is set for std::cout), wider numbers, the smallest int, and matrices without columns."
  },
  {
   "property": "C91",
   "status": "partial",
   "theorems": [
    "C91_format_partial",
    "C91_refuted"
   ],
   "note": "Refuted for the notation of std::cout, which is reset. Proved: its precision and all other streams keep their format."
  },
  {
   "property": "C92",
   "status": "proved",
   "theorems": [
    "C92_epoch",
    "C92_all"
   ],
   "note": "Batch size, threads and data points below 2^24."
  },
  {
   "property": "C93",
   "status": "partial",
   "theorems": [
    "C93_colour",
    "C93_gray_partial",
    "C93_white_refuted",
    "C93_int_refuted"
   ],
   "note": "Gray images: some value below 255, none at or below 255 - 2^31. Refuted: images that are white everywhere, images whose values are all larger, values below that, and negative values in colour images are undefined."
  },
  {
   "property": "C94",
   "status": "proved",
   "theorems": [
    "C94_norms"
   ],
   "note": "For every square root function and text of a number; addition in the order of the code."
  },
  {
   "property": "C95",
   "status": "proved",
   "theorems": [
    "C95_lines",
    "C95_columns",
    "C95_wide_refuted"
   ],
   "note": "The limit on the elements is part of the statement; C95_wide_refuted shows that wider elements break the columns."
  },
  {
   "property": "C96",
   "status": "partial",
   "theorems": [
    "C96_few_partial",
    "C96_smaller_partial",
    "C96_empty_refuted"
   ],
   "note": "Proved for results with at least one matrix. Refuted for results without matrices: back() of an empty vector is undefined."
  },
  {
   "property": "C97",
   "status": "partial",
   "theorems": [
    "C97_train_partial",
    "C97_validation_partial",
    "C97_main_partial",
    "C97_threads_refuted"
   ],
   "note": "Proved for one thread and any type of numbers, also for runs that fail. Refuted for two threads and doubles: the order of the data points in a batch changes the sum of the gradients. In exact arithmetic: C54."
  },
  {
   "property": "C98",
   "status": "proved",
   "theorems": [
    "C98_load",
    "C98_stop",
    "C98_number",
    "C98_too_large",
    "C98_no_number",
    "C98_no_digits",
    "C98_no_exponent",
    "C98_malformed",
    "C98_number_or_not",
    "C98_size",
    "C98_size_malformed",
    "C98_sizes",
    "C98_sizes_or_not",
    "C98_kernel",
    "C98_connected",
    "C98_layer_weights",
    "C98_layer_biases",
    "C98_line",
    "C98_line_limit"
   ],
   "note": "What is malformed is given exactly (C98_malformed): the end of the text, a character that starts no number, a sign, point or exponent without digits, or a value above the largest double. Numbers need not be followed by white space, only by a character that continues no number."
  },
  {
   "property": "C99",
   "status": "partial",
   "theorems": [
    "C99_read",
    "C99_reader_refuted",
    "C99_refuted",
    "C99_exists",
    "C99_feed",
    "C99_validate_refuted",
    "C99_test_refuted"
   ],
   "note": "The images before the end are delivered. Refuted otherwise: the read is not checked, and the behaviour of the reader, of validate (any number of threads) and of the program (with one thread; short files for training or for validation) is undefined."
  },
  {
   "property": "C100",
   "status": "proved",
   "theorems": [
    "C100_size",
    "C100_position",
    "C100_element",
    "C100_dim",
    "C100_iterator",
    "C100_difference",
    "C100_view",
    "C100_copy"
   ],
   "note": ""
  },
  {
   "property": "C101",
   "status": "proved",
   "theorems": [
    "C101_multiply",
    "C101_convolve",
    "C101_sum",
    "C101_mean",
    "C101_kernel_forward",
    "C101_kernel_dw",
    "C101_kernel_db",
    "C101_kernel_dx",
    "C101_connected_forward",
    "C101_connected_dw",
    "C101_connected_dx",
    "C101_average",
    "C101_average_dx",
    "C101_extremum_dx",
    "C101_update",
    "C101_order",
    "C101_same_update_refuted"
   ],
   "note": ""
  },
  {
   "property": "C102",
   "status": "proved",
   "theorems": [
    "C102_environment",
    "C102_sigmoid",
    "C102_softmax",
    "C102_layer",
    "C102_pass",
    "C102_label",
    "C102_main"
   ],
   "note": ""
  },
  {
   "property": "C103",
   "status": "proved",
   "theorems": [
    "C103_activation",
    "C103_layer",
    "C103_passes",
    "C103_derivative",
    "C103_main"
   ],
   "note": ""
  },
  {
   "property": "C104",
   "status": "proved",
   "theorems": [
    "C104_layer",
    "C104_layer_negative",
    "C104_other",
    "C104_model",
    "C104_model_negative",
    "C104_train_negative"
   ],
   "note": ""
  },
  {
   "property": "C105",
   "status": "proved",
   "theorems": [
    "C105_batch",
    "C105_derivative",
    "C105_main"
   ],
   "note": ""
  },
  {
   "property": "C106",
   "status": "proved",
   "theorems": [
    "C106_count",
    "C106_bytes",
    "C106_main"
   ],
   "note": ""
  },
  {
   "property": "C107",
   "status": "partial",
   "theorems": [
    "C107_kernel_partial",
    "C107_count_partial",
    "C107_count_word_partial",
    "C107_end_refuted",
    "C107_count_refuted",
    "C107_pool_partial",
    "C107_pool_refuted",
    "C107_pool_word_refuted",
    "C107_pool_end_refuted",
    "C107_connected",
    "C107_connected_end_refuted"
   ],
   "note": "For missing labels, for numbers written in decimal that do not fit int (or unsigned, from 2^32 on) and for words in place of numbers. Refuted otherwise: a negative number of filters is stored modulo 2^32 and loading goes on, the last number of a pooling layer is accepted as the nearest int or 0, and a text that ends after a label leads to undefined behaviour."
  },
  {
   "property": "C108",
   "status": "proved",
   "theorems": [
    "C108_kind",
    "C108_broken",
    "C108_other",
    "C108_pool",
    "C108_activation",
    "C108_known"
   ],
   "note": "All kinds of layers, any element type, any text."
  }
 ]
}