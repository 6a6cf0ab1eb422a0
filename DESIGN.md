# Verification of cnn_from_scratch in Rocq (Coq 8.16.1)

What is modelled, how each property is proved, and what has to be trusted. The properties are in
`properties.jsonl`, their proof status in `MANIFEST.json`, the log of wrong programs in `seeded/LOG.jsonl`,
the Coq development in `rocq/theories`. `tools/` holds the scripts that write `properties.jsonl`,
`MANIFEST.json` and the table of assumptions at the end of this file.

## Modelling approach

* The C++ sources are read as text; each function is transcribed by hand into a total Gallina function.
  Every definition cites file and lines of `/repo`.
* **Outcomes** (`Base.v`): a computation ends normally, with an exception (together with the state the object
  has after the exception), or in undefined behaviour `UB`. `UB` is produced by every out-of-bounds access of
  a vector, signed overflow, integer division by zero, conversion of a float to an integer type that cannot
  hold it, use of an indeterminate value, and non-terminating iteration. Theorems that state a normal result
  therefore also state memory safety.
* **Integers**: `int` values are `Z` with explicit range checks, `size_t`/`uint32_t` arithmetic is modulo
  2^64/2^32. `int` has 32 bits, `size_t` 64.
* **Elements**: an abstract type `T` with the operations the library uses (class `Num`). Structural theorems
  hold for every such `T`, so also for floats, in the evaluation order of the code. Theorems about
  derivatives, probabilities and gradient descent are over the real numbers `R`: rounding is idealised there.
  `Double.v` is the instance of IEEE doubles (Flocq), used for saving and loading, for the ranges and error bounds of
  C29 and C82-C86 and in examples.
* **Sizes computed in float** (`Float32.v`, `Bar.v`): `ceil((float)a/b)` and the progress bar are modelled in
  IEEE binary32/binary64 with Flocq, not idealised; this is where the bounds 2^24 come from.
* **Lazy expressions** are functions of the memory state at the time an element is read, so aliasing between
  target and operands is visible. Value categories (named object or temporary) are modelled where the code
  reads an object after moving from it.
* **Threads** (`Train.v`): all interleavings of atomic steps; one step is one operation on one layer, and the
  lock around the data source is modelled. `LazyInit.v` models the racy initialisation of the fully connected
  layer statement by statement. C++ gives data races no meaning; the interleavings are those of a sequentially
  consistent memory in which a step is not interrupted. `wstep_frame` (TrainInv.v) proves which steps of
  different threads touch the same object (only the label of the output layer, once layers are initialised).
  `Validate.v` models the threads of the validation, which all use slot 0: a pooling layer makes one step for each
  index that it writes to the shared slot (resizing the slot is one step; it changes nothing when the slot has
  the right size already).
* **Library functions** (`std::copy`, `std::transform`, `std::max_element`, streams, `strtod`, `printf`-style
  output, ...) are modelled after libstdc++ and glibc, "C" locale, no exception masks on streams. Allocation
  succeeds except for sizes above `max_size()`.
* **External inputs** are arguments that the theorems quantify over: `std::rand` values, `exp`, `log`, `tanh`
  and `sqrt` on elements (for `R`: the real functions), conversion between float and the element type, the data
  source, file contents, largest seek offset, byte order of the machine.

## Code that is modelled

| File in /repo | Lines | Coq file |
|---|---|---|
| include/.../exceptions.h | all (message texts left out) | Base.v |
| include/.../Matrix/dim.h | all | Dim.v |
| include/.../Matrix/MatrixBase.h, MatrixIterator.h | all (iterators as index sequences) | Dim.v, Matrix.v, View.v |
| include/.../Matrix/SimpleMatrix.h, src/SimpleMatrix.tpp | all | Matrix.v; Text.v for serialize/deserialize; Print.v for operator<< (134-163), with Decimal.v (numbers as text) |
| include/.../Matrix/SubMatrixView.h, src/SubMatrixView.tpp | all | View.v |
| include/.../Matrix/MatrixMath.h | all | Expr.v (operations), Tree.v (nesting of expression objects) |
| include/.../Layers/ModelLayer.h, ModelFlow.h | all | Batch.v, Model.v |
| Layers/Kernel.h, Kernel.cpp | all | Kernel.v, Batch.v; Text.v |
| Layers/ConnectedLayer.h, ConnectedLayer.cpp | all | Connected.v, Batch.v, LazyInit.v; Text.v |
| Layers/Pooling.h, Pooling.cpp | all | Pooling.v, Float32.v; Text.v |
| Layers/Activation.h, Activation.cpp | all | Activation.v; Text.v |
| Layers/Softmax.h, Softmax.cpp | all | Softmax.v; Text.v |
| ModelDescription.h, ModelDescription.tpp | all | Softmax.v (lossFcn), Model.v, Train.v, Text.v (saveModel, loadModel) |
| Serialization.h | all | Stream.v |
| DataGenerator.h | all | Train.v |
| LoadingBar.h | all | Bar.v |
| MNISTReader.h, MNISTReader.cpp | all | Mnist.v |
| src/main.cpp | 112-142 (MNistGenerator), 147-176 (network, parameters, training), 57-91 (validate up to the count), 39-51 and 93-105 (accuracy, samples), 178-195 (validation, saving), 24-34 (debugLayerWeights) | Mnist.v, Main.v, Validate.v, Report.v, Program.v, Print.v |
| imageUtil.h | all, for float elements and for integers | Report.v, Print.v |

Not modelled: timer macros (empty unless TIMEIT is defined), console output other than the progress bar, the
accuracy of an epoch and that of validate, time measurement, `src/rvalue_detection.cpp` (a separate experiment), the tests,
`scripts/cnn_from_keras.py`, the build files.

Points where the text of the code is not followed exactly (also in comments at the definitions):

* `loadModel` calls `addKernel` with three arguments, but the function takes two: the template does not compile
  when it is instantiated. The model leaves the third argument (the stride) out (Text.v).
* Evaluation order of function arguments is unspecified in `ConnectedLayer::propagateBackward`; it is a
  parameter of the model (C28 is proved for one order, refuted for the other).
* The member `loss_function` of ModelDescription is never initialised; reading it is ignored, since every value
  leads to the same case of the switch in `lossFcn` (Softmax.v).
* An indeterminate byte is `UB` when the value is used (Mnist.v); files do not change while they are open;
  the device reports no errors.

## Plan and proof per property

Proof files: facts about the model are in `*Facts.v`/`*Thms.v`; the `Props_*.v` files contain the statements with
their examples, and `Spec.v`, `TreeSpec.v`, `Net.v` the vocabulary of the statements.

| Property | Proof |
|---|---|
| C01-C07 | Props_Matrix.v, from Iter.v, MatFacts.v, MatThms.v: storage, iterators and mutators as state transformers with exception states; index arithmetic; C05 by induction over histories of operations |
| C08-C13 | Props_View.v, from ViewThms.v: views and lazy reads over the current memory; copy loops by invariants; refutations by computed witnesses |
| C14-C22 | Props_Expr.v, from TreeThms.v, ExprThms.v, Sums.v: expression trees by induction, products, rotations and convolution from element formulas, reductions by fold lemmas |
| C23-C26, C29 | Props_Kernel.v, from KernelThms.v (any element type), KernelGrad.v, Calc.v (derivatives along differentiable curves), BatchThms.v (initialisation and update) |
| C27, C28, C29 | Props_Connected.v, from ConnectedThms.v |
| C30-C34 | Props_Pooling.v, from PoolingThms.v, PoolGrad.v, FloatFacts.v (float ceiling), CeilBound.v (error for all ints), PoolLarge.v (sizes above 2^24) |
| C35-C42 | Props_Output.v, from ActivationThms.v, SoftmaxThms.v (Coquelicot derivatives) |
| C43 | Props_Kernel.v, Props_Connected.v, from BatchThms.v |
| C44, C46-C48 | Props_Model.v, from Net.v, NetThms.v, NetPass.v, NetGrad.v, NetFresh.v (chain rule by induction over the layer list), ModelThms.v (histories of calls); Props_NetWrong.v, from NetWrong.v (networks outside the proved class of C44: other activations, convolutions with non-square output) |
| C45, C49-C56 | Props_Train.v, from Train*.v, LazyInit.v: invariants of the interleaving semantics, permutations of the data points, termination measure, refinement to sequential gradient descent; Props_TrainMix.v, from TrainMix.v (C53 fails for every network with two threads); Props_TrainAscent.v, from TrainAscent.v (C45 fails with sigmoid activations) |
| C57-C62 | Props_Text.v, from Double*.v, Stream*.v, Text*.v, EmptyText.v, LayerText.v, Load*.v (also C81): character-level round trips, rounding to millionths, exceptions on arbitrary files |
| C63-C66 | Props_Data.v, from MnistFacts.v, BarFacts.v: file positions and byte decoding, histories of calls, float arithmetic of the progress bar |
| C67-C71 | Props_Safe.v, from Shapes.v, ShapeNet.v (every operation succeeds when the sizes fit, for any number type), TrainSafe.v, TrainOne.v (invariants of the interleavings), Main.v (the program's network and data) |
| C72-C75 | Props_Validate.v, from ValidateFacts.v (networks that differ in the slots of pooling layers behave alike), ValidateStep.v, ValidateRun.v (invariant, measure), ValidateThms.v, ValidateRace.v |
| C76-C80 | Props_Report.v, from ReportFacts.v (float and double arithmetic of accuracy, sample numbers and brightness), Sample.v (RAND_MAX of the GNU C library), AccNear.v (accuracy for any number of images), ReportThms.v (samples), ProgramThms.v (the program) |
| C29, C82-C86 | Props_Finite.v, from FiniteFacts.v (bounds for sums and products of doubles, activation functions), FiniteSoft.v, FiniteInit.v, FiniteNet.v (whole forward passes), FiniteReal.v (correctly rounded exp, tanh, log2), FiniteMain.v (labels, loss, network of main.cpp) |
| C88 | Props_FiniteBack.v, from FiniteBack.v (backward pass, update) and FiniteTrain.v (batches, threads, main.cpp, overflow) |
| C89-C94 | Props_Print.v, from DecimalFacts.v (the text of a number denotes it up to the last digit), PrintFacts.v (tables), PrintImage.v (integer images, norms), EpochText.v (accuracy of every execution of an epoch) |
| C95 | Props_Save.v, from SaveLayout.v: the lines of the saved text, widths of the numerals |
| C96 | Props_Safe.v, from ShortResult.v |
| C97 | Props_Repeat.v, from Repeat.v (one step function: two paths to an end are equal), RepeatEx.v |
| C98 | Props_Free.v, from FreeText.v (numerals, white space and lines of any layout) and FreeLayer.v (layers with parameters) |
| C99 | Props_Truncated.v, from MnistCut.v (the reader), ProgramFeed.v (the data that training gets) Truncated.v (training and the program) and ValidateCut.v (validate) |
| C100 | Props_Access.v, from Access.v |
| C101 | Props_Round.v, from Rounding.v, RoundLayers.v |
| C102 | Props_RoundNet.v, from RoundNet.v, RoundPass.v |
| C103 | Props_RoundBack.v, from RoundBack.v, RoundMain.v |
| C104 | Props_SetBatch.v, from SetBatch.v |
| C105 | Props_RoundTrain.v, from RoundTrain.v |
| C106 | Props_RoundValidate.v, from RoundValidate.v |
| C107 | Props_FreeSize.v, from FreeSize.v (sizes of layers that are missing, too large or no numbers) |
| C108 | Props_Kind.v, from LoadKind.v (texts of other kinds of layers, unknown types) |
| C87, C71 (several threads) | Props_TrainRace.v, from TrainRace.v (executions that reach two unordered accesses) |

Properties that the code violates are kept as stated; there is a `_refuted` theorem with a concrete witness, and
the strongest version that was proved has the suffix `_partial`. The note in `MANIFEST.json` says what is missing.

## Trusted base

* The Coq 8.16.1 kernel (`coqc`; `vcheck` runs `coqchk`). No axioms of our own, no plugins, no switched-off checks.
* The hand transcription of the C++ code and of the library functions named above.
* Axioms, all from the standard library, as listed by `Print Assumptions` below each theorem:
  * **E** `FunctionalExtensionality.functional_extensionality_dep`
  * **F** `ClassicalDedekindReals.sig_forall_dec` (reals)
  * **N** `ClassicalDedekindReals.sig_not_dec` (reals)
  * **C** `Classical_Prop.classic`

  Coquelicot and Flocq are used as libraries; they add no axioms of their own.

What `Print Assumptions` lists for each theorem of the `Props_*.v` files:

<!-- assumptions: begin -->
* **none: closed under the global context** (188): C01_index_position, C01_write_read, C02_construct, C02_construct_mismatch, C02_set_entries, C02_set_entries_mismatch, C03_empty_refuted, C03_iteration_partial, C04_reshape, C05_history_partial, C05_resize_refuted, C06_resize, C06_resize_depth, C07_move, C08_negative_refuted, C08_nested_inside, C08_slices_exact, C08_subview_exact_partial, C08_view_exact_partial, C09_assign, C09_assign_mismatch, C09_fill, C09_read, C100_copy, C100_difference, C100_dim, C100_element, C100_iterator, C100_position, C100_size, C100_view, C104_layer, C104_layer_negative, C104_model, C104_model_negative, C104_other, C107_connected, C107_connected_end_refuted, C107_count_partial, C107_count_refuted, C107_count_word_partial, C107_end_refuted, C107_kernel_partial, C107_pool_end_refuted, C107_pool_partial, C107_pool_refuted, C107_pool_word_refuted, C108_activation, C108_broken, C108_kind, C108_known, C108_other, C108_pool, C10_at_partial, C10_negative_refuted, C11_assign_partial, C11_compound_mismatch, C11_compound_partial, C11_pointwise_assign_partial, C11_pointwise_compound_partial, C11_subview_refuted, C11_transpose_refuted, C12_overlap_refuted, C12_view_copy_partial, C13_alias_refuted, C13_scalar_partial, C14_convert_partial, C14_expression_partial, C14_value_unique, C15_mismatch, C15_multiply_partial, C15_temporary_refuted, C16_involution_partial, C16_temporary_refuted, C16_transpose_partial, C17_compose, C17_full_turn, C17_not_square, C17_rotate, C18_convolve, C18_flat, C18_stride_partial, C18_stride_refuted, C19_dot_int_partial, C19_mismatch, C20_mean, C20_mean_int_partial, C20_negative_refuted, C20_sum, C21_member, C21_ordered, C22_equal, C22_reflexive, C22_symmetric, C23_channels, C23_forward_partial, C23_narrow_input_refuted, C23_stride_refuted, C24_backward_stores, C24_weight_gradient_sum, C25_not_square_refuted, C27_empty_refuted, C27_first_partial, C27_forward, C27_history, C27_new_layer, C27_reject, C27_storage_order, C28_backward_stores, C28_move_order_refuted, C28_shape_refuted, C29_kernel_values, C30_count, C30_windows_inside_partial, C32_selected_unique, C34_check_partial, C35_elementwise, C36_backward_value, C36_size, C37_different, C37_numbers, C37_reject, C37_roundtrip, C37_total, C40_reject_label, C43_apply_batch, C43_mismatch, C44_configurations, C46_backward_keeps, C47_position, C47_reject_partial, C48_failed_call, C48_insertion_order, C48_names_distinct, C48_names_values, C48_two_calls, C49_cover, C49_disjoint, C56_alone, C56_exception_refuted, C56_first_use_partial, C56_initialised_partial, C56_initialised_safe, C56_zero_weights_refuted, C57_empty_refuted, C58_blank_refuted, C58_int, C58_line, C58_other_text_partial, C58_unsigned, C59_activation_refuted, C59_empty_kernel_refuted, C59_empty_refuted, C59_pool_stride_refuted, C59_unused_refuted, C60_label_types, C61_crlf_refuted, C61_exception_refuted, C61_incomplete_refuted, C61_missing_refuted, C61_no_layer, C61_outcomes_partial, C61_overflow_refuted, C61_pool_type, C61_undefined_refuted, C62_connected_partial, C63_missing, C63_open, C63_short, C63_stop, C81_kernel, C81_refuted, C90_min_refuted, C91_format_partial, C94_norms, C95_lines, C95_wide_refuted, C96_empty_refuted, C96_few_partial, C98_line, C98_line_limit, C98_no_digits, C98_no_exponent, C98_no_number, C98_size, C98_size_malformed, C98_sizes, C98_sizes_or_not
* **E + F** (20): C15_associative, C15_transpose, C18_real_sum, C19_dot_whole_partial, C19_float_refuted, C20_real_sum, C21_max, C21_min, C22_tolerant, C24_exists, C31_mean_value, C40_protocol, C43_rate_zero, C45_norm, C57_written_value, C89_confidence, C89_form, C89_number, C90_int_partial, C95_columns
* **E + F + N** (11): C24_weight_gradient, C25_input_gradient_partial, C26_bias_gradient, C28_bias_gradient, C28_exists, C28_input_gradient_partial, C28_weight_gradient_partial, C29_norm_one_partial, C35_ranges, C35_sigmoid_value, C40_input
* **C + E + F + N** (226): C101_average, C101_average_dx, C101_connected_dw, C101_connected_dx, C101_connected_forward, C101_convolve, C101_extremum_dx, C101_kernel_db, C101_kernel_dw, C101_kernel_dx, C101_kernel_forward, C101_mean, C101_multiply, C101_order, C101_same_update_refuted, C101_sum, C101_update, C102_environment, C102_label, C102_layer, C102_main, C102_pass, C102_sigmoid, C102_softmax, C103_activation, C103_derivative, C103_layer, C103_main, C103_passes, C104_train_negative, C105_batch, C105_derivative, C105_main, C106_bytes, C106_count, C106_main, C21_finite, C29_double, C30_inside_refuted, C30_large_refuted, C30_output_size_partial, C30_stride_zero_refuted, C31_average_partial, C31_finite_partial, C31_max_min_partial, C31_selected_partial, C32_exists, C32_gradient_partial, C32_history_finite_partial, C32_history_partial, C33_gradient_partial, C34_columns_refuted, C34_large_partial, C34_overflow_refuted, C34_undersized_partial, C35_monotone, C36_leaky_partial, C36_output_partial, C36_sigmoid_refuted, C36_table_partial, C36_tanh_refuted, C38_properties, C38_value, C39_gradient, C41_bounds_refuted, C41_properties_partial, C41_value, C42_gradient_refuted, C42_proportional_partial, C44_activation_refuted, C44_bent_refuted, C44_gradient_partial, C44_not_square_refuted, C44_probability, C45_batch_partial, C45_descent_partial, C45_sigmoid_refuted, C46_first_pass_refuted, C46_forward_keeps_partial, C46_records, C46_result, C47_unknown_label_refuted, C49_ranges_partial, C49_refuted, C50_ceil_partial, C50_near_partial, C50_pool_near_partial, C50_pool_partial, C50_pool_refuted, C50_refuted, C51_bounded, C51_epoch_ends_partial, C51_epoch_partial, C51_no_deadlock, C51_refuted, C51_taken, C51_writes_partial, C52_count, C52_predictions, C53_always_refuted, C53_mixed_refuted, C53_own_label_partial, C53_refuted, C53_single_thread, C53_some_label, C54_schedule_partial, C54_train_partial, C54_value_partial, C55_any_batch_partial, C55_first_batch_refuted, C55_refuted, C57_half_millionth_refuted, C57_round_trip_partial, C59_round_trip_partial, C59_stride_refuted, C60_activation_refuted, C60_label_refuted, C60_save_load_partial, C60_softmax_inside_refuted, C60_unused_refuted, C62_model_refuted, C64_far_refuted, C64_get_image_partial, C64_history_partial, C64_large_refuted, C64_pixel, C64_truncated_refuted, C65_generator_partial, C65_no_images, C65_truncated_refuted, C66_any_count_partial, C66_bar_partial, C66_many_batches_refuted, C66_occupied, C67_forward, C67_main, C68_backward, C69_exists_partial, C69_training_partial, C70_exists_partial, C70_one_thread_partial, C71_main_partial, C71_threads_refuted, C72_no_failure_partial, C73_progress, C74_alone, C74_count_partial, C75_partial, C75_refuted, C76_accuracy_partial, C76_below_partial, C76_near_partial, C76_no_images_refuted, C76_refuted, C77_exact_partial, C77_exact_refuted, C77_gnu_partial, C77_refuted, C77_valid_partial, C78_colour_partial, C78_constant_refuted, C78_gray_partial, C78_negative_refuted, C78_white_refuted, C79_no_images_refuted, C79_refuted, C79_samples_partial, C80_exists_partial, C80_main_partial, C80_refuted, C82_correctly_rounded, C82_finite, C82_gradients, C82_monotone, C82_ranges, C83_softmax, C84_label_partial, C84_largest_refuted, C85_env, C85_forward, C85_main, C86_loss, C86_value, C87_first_use_refuted, C87_label_refuted, C87_shared_partial, C88_backward, C88_batches, C88_main, C88_threads, C88_unbounded_refuted, C88_update, C89_validation, C90_double_partial, C90_float_partial, C90_stream_refuted, C90_wide_refuted, C91_refuted, C92_all, C92_epoch, C93_colour, C93_gray_partial, C93_int_refuted, C93_white_refuted, C96_smaller_partial, C97_main_partial, C97_threads_refuted, C97_train_partial, C97_validation_partial, C98_connected, C98_kernel, C98_layer_biases, C98_layer_weights, C98_load, C98_malformed, C98_number, C98_number_or_not, C98_stop, C98_too_large, C99_exists, C99_feed, C99_read, C99_reader_refuted, C99_refuted, C99_test_refuted, C99_validate_refuted
<!-- assumptions: end -->
