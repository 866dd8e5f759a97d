c("C01", "proved", ["C01_layers_after_their_producers"])
c("C02", "proved", ["C02_input_first_and_no_exception", "C02_constant_expression_refuted"],
  "The refutation shows that the hypothesis 'every reading layer reads a non-constant' is needed: otherwise importing raises the internal assertion.")
c("C03", "proved", ["C03_needed_buffers_are_not_overwritten"])
c("C04", "proved", ["C04_number_of_buffers_is_minimal"])
c("C05", "proved", ["C05_buffers_used_are_declared"])
c("C06", "proved", ["C06_tensors_preserved_until_last_reader"])
c("C07", "partial", ["C07_repeated_input_refuted", "C07_repeated_input_saved_refuted"],
  "Refuted: the property is false of the code; concrete graphs where a repeated input makes the allocator hand out one buffer twice.")
c("C11", "proved", ["C11_dense"])
c("C12", "proved", ["C12_matmul", "C12_matmul_python", "C12_matmul_broadcast_refuted"],
  "Equal channel counts. The refutation shows that a single-channel right operand, accepted by the constructor, is read out of bounds.")
c("C13", "proved", ["C13_gemm","C13_gemm_any_arithmetic", "C13_gemm_python", "C13_gemm_scalar_bias_refuted", "C13_gemm_constructor_refuted"],
  "Bias of one entry per output column; any arithmetic when alpha is 1, exact arithmetic (ring laws) otherwise: C scales each term by alpha, Python the sum. Two refutations: a bias of shape (1,) is read out of bounds; alpha<>1 with beta=1 cannot be constructed.")
c("C23", "proved", ["C23_transpose"])
c("C24", "proved", ["C24_concatenate", "C24_concatenate_python", "C24_slice"])
c("C25", "proved", ["C25_gather", "C25_gather_elements"])
c("C26", "proved", ["C26_tile"])
c("C28", "proved", ["C28_batch_normalisation", "C28_batch_normalisation_python"],
  "The comparison with Python needs exact arithmetic (field laws): C multiplies by the scale before dividing, Python after.")
c("C33", "partial", ["C33_flatten_partial", "C33_flatten_refuted"],
  "Holds when the layer shares its predecessor's array; refuted in general: the generated code never reads the predecessor's array.")
c("C34", "proved", ["C34_layout_conversions", "C34_conversions_are_inverse"])
c("C14", "proved", ["C14_six_loops", "C14_python", "C14_python_dilation_refuted"],
  "Six-loop code for every stride/dilation/padding; equality with Python for dilation 1 (the refutation shows Python ignores the dilation). One group.")
c("C15", "proved", ["C15_std_gemm_nn", "C15_input_is_in_own_array", "C15_dilation_refuted"],
  "Dilation 1, as the property says; the refutation shows the restriction is needed.")
c("C16", "partial", ["C16_transposed_gemm_refuted"],
  "Refuted for each of nt, tn, tt: concrete convolutions whose result differs (or that read out of bounds).")
c("C19", "proved", ["C19_same_upper", "C19_same_lower", "C19_valid_and_explicit", "C19_dilation_refuted"])
c("C33", "partial", ["C33_flatten_partial", "C33_flatten_single_reader_partial", "C33_flatten_refuted"],
  "Holds when the layer shares its predecessor's array, in particular whenever nobody else reads the predecessor; refuted in general: the generated code never reads the predecessor's array.")
c("C17", "partial", ["C17_pointer_table", "C17_indirect_gemm_nn", "C17_overlapping_windows_cover", "C17_stride_1_covers", "C17_skipped_elements_refuted"],
  "Proved without padding and, with padding, whenever every input row and column is read by some window (in particular stride 1, or overlapping windows reaching the end); refuted otherwise: the table is renumbered by rank among the elements met. The emitted initialiser of ppatches names output_k, a member of the context struct, so parameters.c does not compile as is; the model takes it as the context array.")
c("C18", "partial", ["C18_tile_identity", "C18_winograd_even_partial", "C18_odd_height_refuted"],
  "The tile identity holds in every commutative ring with one half; the whole layer is correct for even output sizes; the covering claim is false for odd output heights, which the template selection does not exclude.")
c("C49", "proved", ["C49_direct_block", "C49_depthwise"], "Exact arithmetic (ring laws): the order of summation differs from the definition.")

c("C27", "partial", ["C27_broadcast", "C27_broadcast_python", "C27_small_first_operand_refuted", "C27_average_aliasing_refuted"],
  "The generated code is proved for every accepted shape; the Python layer is proved equal when the first operand has the output's shape; refuted otherwise (Python raises, or mutates its first input).")
c("C32", "proved", ["C32_activation_exact", "C32_activation", "C32_activation_compound", "C32_activation_layer", "C32_activation_real"])
c("C50", "partial", ["C50_mul_initializer_partial", "C50_sub_initializer_refuted", "C50_div_initializer_refuted", "C50_constant_dropped_refuted"],
  "Mul is right when no element of the constant equals one; Sub and Div are refuted: x-c is imported as x+c and x/c as x*c; constants having an element equal to the neutral element are dropped.")
c("C20", "proved", ["C20_max_pool", "C20_average_pool", "C20_pool_any_padding", "C20_max_pool_channels_last", "C20_unequal_pads_refuted", "C20_average_layouts_differ_refuted"],
  "Equal top and left pads, as the property says; the refutation shows the restriction is needed. C20_pool_any_padding also says what is computed for any pads. The channels-last average divides by the whole window area.")
c("C21", "partial", ["C21_no_padding_partial", "C21_average_padding_refuted", "C21_max_padding_refuted", "C21_partial_padding_refuted", "C21_activation_refuted"],
  "Equal without padding and with a linear activation; refuted in the four other situations.")
c("C22", "partial", ["C22_constant_pad", "C22_edge_pad", "C22_reflect_pad", "C22_mirrored_exists", "C22_wrap_pad_partial", "C22_activation_applied_twice_refuted", "C22_wrap_out_of_bounds_refuted", "C22_reflect_single_channel_refuted"],
  "Constant mode: complete. Edge: for idempotent activations. Reflect: at least two channels, rows, columns. Wrap: padding before the data shorter than the data. Each restriction is shown necessary by a refutation.")
c("C29", "partial", ["C29_softmax", "C29_distribution", "C29_distribution_flat", "C29_axis_ignored_refuted"],
  "Generated code = Python for every shape and axis (no fused activation); distribution along the axis proved in the reals for non-flat tensors and for flat ones along their long axis; refuted for flat tensors and another axis.")
c("C30", "partial", ["C30_reduce", "C30_reduce_cells", "C30_max_min", "C30_two_axes_max_refuted", "C30_two_axes_max_in_place_refuted", "C30_two_axes_max_out_of_bounds_refuted", "C30_noop_refuted", "C30_batch_axis_refuted"],
  "Proved for all kinds on one or all axes and sum/mean/product on two axes; refuted for max/min on two axes (wrong value and out-of-bounds read), for noop_with_empty_axes and for axis 0.")

c("C31", "partial", ["C31_nearest_partial", "C31_align_corners_inside", "C31_half_pixel_floor_refuted", "C31_half_pixel_floor_fault_refuted", "C31_asymmetric_refuted", "C31_align_corners_refuted"],
  "Proved, with exact coordinates, for the combinations of always_inside; refuted for half_pixel+floor when enlarging, asymmetric+rounding above factor 2 and align_corners with a rounding other than floor. half_pixel_symmetric and tf_crop_and_resize do not generate valid C and are not modelled.")
c("C51", "partial", ["C51_linear_partial", "C51_cubic_partial", "C51_linear_one_row_refuted", "C51_one_by_one_refuted", "C51_align_corners_refuted"],
  "Coordinate modes half_pixel, pytorch_half_pixel, asymmetric. Linear: two-dimensional inputs; cubic: every input but 1x1, in exact arithmetic. The three restrictions are shown necessary.")
c("C08", "proved", ["C08_inference_computes_the_network", "C08_value_unique"],
  "Every model made of the layer classes of LayerKinds.v (28 of the generated layer classes; not LSTM, AddBias, Dot, Conv2DGemmTarget, quantised layers, nor code generated in channels_last order).")
c("C10", "proved", ["C10_calls_are_independent", "C10_normalized_second_call_refuted"], "Same scope as C08, the caller filling nn_input before each call. Finding: with NNet normalisation the code overwrites nn_input, so a second call on an array that was not refilled normalises twice.")
c("C47", "proved", ["C47_every_layer_reads_its_producers", "C47_missing_input_raises"])

c("C35", "proved", ["C35_every_sample_once_in_order", "C35_predictions_for_every_schedule", "C35_printed"],
  "For every interleaving of the parallel iterations of a batch at the granularity of layer calls. Reading the data set and the printf formatting are abstract.")
c("C40", "proved", ["C40_selection", "C40_others_unaffected"])
c("C41", "proved", ["C41_no_replacement", "C41_first_registration_wins", "C41_listing", "C41_factories"])
c("C42", "partial", ["C42_existing_file_raises", "C42_no_existing_file_changes", "C42_binary_files_overwritten_refuted"],
  "Proved for the checked files; refuted with bin_dataset: parameters.dat and test_dataset.dat are overwritten without a check.")
c("C48", "proved", ["C48_first_lines_in_order", "C48_number_of_samples", "C48_declared_samples_of_array", "C48_declared_samples_refuted"],
  "The loader is proved. Finding: the number of samples written into the generated code is the requested one even when the file is shorter.")
c("C52", "partial", ["C52_documented_custom_functions_refuted", "C52_name_and_functions"],
  "Refuted: every documented form raises; the form the code does accept is proved to work.")

c("C43", "partial", ["C43_render_parse", "C43_accepted_strings", "C43_final_newline_refuted", "C43_shift_nonnegative", "C43_shift_rescales", "C43_shift_clamped_refuted", "C43_shift_c_equals_python", "C43_wide_shift_refuted", "C43_parameter_half_ulp", "C43_unreported_truncation_refuted", "C43_unreported_output_truncation_refuted"],
  "ASCII strings, rational parameters. Round trip, shift and half-ulp bound proved where the format allows it; refuted: final newline accepted, negative shifts clamped to 0, shifts not below the width, truncation reported only if all values are truncated.")
c("C44", "proved", ["C44_align_up", "C44_sections", "C44_disjoint", "C44_other_alignment_refuted"], "The refuted theorem concerns alignments that are not powers of two, outside the property.")
c("C53", "partial", ["C53_c_file_matches_header", "C53_binary_file_partial", "C53_binary_file_refuted", "C53_direct_block_binary", "C53_direct_block_c_file_refuted"],
  "Declared = defined is proved for parameters.c; refuted for parameters.dat (Broadcast constants and ppatches missing) and, for the layout, for direct_block convolutions in parameters.c.")
c("C54", "partial", ["C54_matmul", "C54_matmul_value", "C54_wide_data_refuted", "C54_add_partial", "C54_add_refuted"],
  "MatMul proved for data of at most 16 bits and refuted for 32-bit data with a 64-bit accumulator; Add proved when the sum fits the data type and refuted otherwise. C overflow is modelled as wrapping.")

c("C45", "partial", ["C45_pre_processing", "C45_post_processing", "C45_normalized_model", "C45_nan_refuted"],
  "Proved for totally ordered numbers and every channels_first model of C08's scope; refuted for a NaN input (Python clamps it to the upper bound, C keeps it).")
c("C55", "proved", ["C55_nnet_import"], "Lines are given as lists of numbers; splitting at commas and the decimal notation are not modelled.")
c("C46", "partial", ["C46_onnx_linked", "C46_onnx_inputs", "C46_onnx_layer_is_unique", "C46_onnx_reduce_refuted", "C46_onnx_reduce_wrong_inputs_refuted", "C46_onnx_bypass_refuted", "C46_onnx_constant_refuted", "C46_onnx_initializer_inputs_refuted", "C46_json_refuted", "C46_json_layers_partial", "C46_json_batch_normalization_refuted", "C46_json_skip_refuted", "C46_keras_sequential", "C46_keras_functional", "C46_keras_dropout_refuted", "C46_keras_softmax_refuted", "C46_pytorch", "C46_pytorch_layer_is_unique", "C46_pytorch_activation_refuted", "C46_pytorch_second_activation_refuted"],
  "Proved for every ONNX model (symmetric links, positions as identifiers) and, for well-formed ones, that every layer reads the layers holding its node's tensors; the same for Sequential and functional Keras models and for PyTorch programs. False for JSON (the InputLayer call always raises; BatchNormalization and skipped entries break identifiers), and the refuted theorems give ONNX, Keras and PyTorch models that are rejected or linked wrongly.")

c("C36", "partial", ["C36_optimised_inference_partial", "C36_same_output_partial", "C36_input_activation_refuted", "C36_lost_input_activation_refuted", "C36_lost_flatten_activation_refuted", "C36_lost_softmax_activation_refuted", "C36_output_order_refuted", "C36_python_activation_refuted"],
  "The whole pass (activation and batch-normalisation fusions together) is proved to preserve the output of the generated code and of Python for every model meeting the conditions of fusion_safe / python_safe and whose layers are listed in increasing identifier order. False in general: six families of models on which the optimiser raises or changes the result.")
c("C37", "proved", ["C37_fused_weights", "C36_optimised_inference_partial"],
  "Exact arithmetic (field laws). The first theorem is the property; the second covers the fusion inside a whole optimised model.")
c("C38", "partial", ["C38_sigmoid_multiply_is_silu", "C38_matmul_add_never_replaced", "C38_silu_reads_unwritten_array_refuted", "C38_silu_constant_refuted"],
  "The identity x*sigmoid(x) = SiLU(x) is proved for the tensors; the MatMul+Add pattern is proved never to apply. Refuted at network level: after the replacement the generated code reads an array nothing writes, and a constant factor of the Multiply is dropped.")
c("C39", "partial", ["C39_renumbering", "C39_after_the_pass_partial", "C39_duplicate_identifiers_refuted"],
  "Proved when identifiers increase along the layer list; refuted otherwise (two layers get the same identifier).")
c("C57", "proved", ["C57_optimiser_terminates", "C57_bound_is_enough"])
c("C09","partial",["C09_inference_stays_inside_partial","C09_supported_models_are_covered","C09_two_axes_max_network_refuted"],
  "Any arithmetic (no law assumed), any contents, any weights: every access of the generated inference function is inside its array for every model with consistent shapes over the modelled layer classes (laid_out). Partial: LSTM/AddBias/Dot/Conv2DGemmTarget not modelled; some accepted parameters do leave the arrays (C09_two_axes_max_network_refuted, C22_wrap_out_of_bounds_refuted, C31_half_pixel_floor_fault_refuted).")
C["C52"]["theorems"].append("C52_functions_append_in_order")
C["C53"]["theorems"].append("C53_names_hold_attributes")
C["C20"]["theorems"] += ["C20_average_pool_channels_last", "C20_no_padding_windows_are_full"]
C["C43"]["theorems"].append("C43_nearest_ties_to_even")
c("C56","partial",["C56_gather","C56_gather_elements","C56_concat","C56_tile","C56_transpose","C56_gather_default_axis_refuted","C56_gather_elements_default_axis_refuted","C56_gather_scalar_refuted","C56_transpose_low_rank_refuted"],
  "Proved for explicit axes that are not the batch axis. Refuted: default axis of Gather/GatherElements and Transpose of rank below four are rejected; a scalar Gather index keeps the axis and shifts the following ones.")
c("C60","partial",["C60_reduce","C60_softmax","C60_reduce_old_opset_refuted","C60_reduce_matrix_max_refuted","C60_softmax_old_opset_refuted","C60_softmax_default_axis_refuted"],
  "Proved for listed or absent axes from the opset that has them as an input, and Softmax from opset 13 (before: last axis only). Refuted: older opsets, Max/Min over exactly two axes, Softmax before opset 13 on an inner or default axis.")
c("C58","partial",["C58_conv","C58_group_refuted","C58_kernel_shape_refuted","C58_strides_refuted","C58_dilations_refuted","C58_same_dilation_refuted"],
  "Proved for one group, one stride and one dilation for both directions (dilation 1 under SAME padding), explicit kernel_shape. Refuted: grouped convolutions and nodes without kernel_shape are rejected; the second stride and the second dilation are ignored; SAME padding with a dilation is rejected.")
c("C59","partial",["C59_max_pool","C59_average_pool","C59_global_average_pool","C59_global_average_pool_refuted","C59_kernel_shape_refuted","C59_strides_refuted","C59_dilations_refuted","C59_count_include_pad_refuted"],
  "Proved for square windows, one stride, no dilation, as much padding above as on the left, count_include_pad 0, and for the global average of square images. Refuted: the other cases are accepted with another meaning (second kernel length, second stride, dilations, count_include_pad), global averages of images that are not square are rejected.")
c("C61","partial",["C61_elementwise","C61_mean_refuted"],
  "Proved for Add, Sub, Mul, Div, Max, Min over any number of computed tensors (initialisers: C50). Refuted for Mean, which is never imported.")
c("C62","partial",["C62_gemm","C62_gemm_no_bias_refuted","C62_gemm_alpha_refuted","C62_gemm_row_bias_refuted","C62_gemm_matrix_bias_refuted","C62_matmul","C62_matmul_stack_refuted","C62_matmul_left_matrix_refuted","C62_batch_normalisation","C62_batch_normalisation_low_rank_refuted"],
  "Proved: Gemm with a one-dimensional C (alpha 1 or beta different from 1), MatMul of as many matrices on both sides (vectors included), BatchNormalization of images. Refuted: Gemm without C, with alpha only, with a row C (rejected) or a square C (first row used); a stack times one matrix (generated code leaves the weights), one matrix times a stack (rejected); BatchNormalization of rank two and three (rejected).")
c("C63","partial",["C63_pad","C63_default_mode_refuted","C63_default_value_refuted","C63_rank_refuted","C63_negative_axes_refuted","C63_axes_order_refuted"],
  "Proved for one image of rank four with pads that are not negative and not on the batch axis, the four modes (wrap: less padding before the data than data; reflect: at least two channels, rows and columns), constant given. Refuted: absent mode or constant, lower ranks, pads for some axes only, negative axes are rejected; axes in another order are accepted with the pads on the wrong axes.")
c("C64","partial",["C64_activation_partial","C64_clip_scalar_refuted","C64_clip_open_refuted","C64_parameters_refuted"],
  "Proved for all activations; for Clip when both bounds are vectors of one element, in order. Refuted: Clip bounds of rank zero (the only ones ONNX allows), absent bounds and bounds in the wrong order are rejected, an empty bound gives code that is not C, negative slopes of LeakyRelu are rejected.")
c("C65","partial",["C65_reshape","C65_flatten","C65_unsqueeze","C65_lrn_refuted","C65_shape_refuted","C65_constant_scalar","C65_constant_refuted","C65_constant_dims_refuted"],
  "Proved for Reshape, Flatten, Unsqueeze of any rank and scalar constants stored as raw data (the names and links are C46). Refuted: LRN and Shape nodes are replaced by the identity; every other constant cannot be read back or loses its dimension.")
c("C66","partial",["C66_resize_nearest_partial","C66_scales_only_refuted","C66_default_mode_refuted","C66_policy_refuted","C66_roi_refuted","C66_axes_refuted","C66_rebuilt_power_of_two","C66_rebuilt_partial","C66_rebuilt_refuted"],
  "Proved (exact scales) for nearest mode with four inputs, sizes or scales as initialisers, no axes, within the combinations of C31. Refuted: nodes with scales as last input, without mode, with a policy, region or axes are rejected. The rebuilt size is proved (binary64, Flocq) exact for scales that are multiples of a power of two and at most one too small in general; it is one too small, hence rejected, e.g. from 11 to 15 rows.")
c("C67","partial",["C67_export_well_formed","C67_sorted_layers","C67_linear_layer_refuted","C67_layers_without_export_refuted"],
  "Proved: every graph the exporter returns for a topologically listed network is well formed (unique names, no dangling input, outputs defined), provided no activation layer is linear. Refuted: an activation layer with the identity leaves its consumers reading an undefined name; MatMul, Add, Constant and Resize layers without axes make the exporter raise.")
c("C68","partial",["C68_exported_graph_partial","C68_integer_inputs_refuted","C68_no_such_node_refuted","C68_concat_of_dense_refuted","C68_declared_shape_refuted","C68_activation_layer_refuted","C68_flatten_refuted","C68_softmax_axis_refuted","C68_channel_constant_refuted","C68_pads_refuted"],
  "Proved over the reals: for networks whose layers and tensor dimensions satisfy exportable (ExportRun.v), the exporter returns a graph that has a run on the network input, and every run gives every layer's output name the layer's value. Refuted, each by a theorem on every run of a concrete graph: Gather, GatherElements and Tile get floating-point integer inputs; Gemm with alpha 1 gets an INT attribute; Average becomes operator Ave; Concatenate of Dense outputs has an axis out of range; declared output shapes; activation layers lose Clip bounds and LeakyRelu slope; channels_last Flatten; Softmax axis; per-channel constants are squeezed onto the last axis; pads are written in the order right, left, bottom, top. Resize is exported but its ONNX semantics is not in ExportSpec.v.")
c("C69","partial",["C69_import_keeps_the_function_partial","C69_generated_program_partial","C69_runs_exist","C69_rejected_layers_refuted","C69_valid_models_rejected_refuted","C69_vector_merge_refuted","C69_channels_first_refuted","C69_pool_size_refuted","C69_normalization_axis_refuted","C69_softmax_axis_refuted"],
  "Proved over the reals: for well-formed models whose layers satisfy importable (KerasOps.v: channels_last, equal strides/dilations/pool sizes, one group, bias present, padding same only undilated, merges of images, axis of Concatenate at least 1, BatchNormalization on the channels with gamma and beta, softmax on vectors; no Dropout/Reshape), import succeeds and the imported network has Keras's output; with generable options (C18, one reader of a Flatten operand, no repeated operand) the generated C program (six-loop convolution) and the Python inference return it. Keras's semantics is written independently in KerasSpec.v. Refuted outside those options: valid layers on which import raises, and accepted models computed wrongly (Flatten channels_first, second entry of pool_size, axis of BatchNormalization, softmax of a convolution). Float rounding, h5/JSON file reading and fixed batch sizes are not modelled.")
c("C70","partial",["C70_channels_last_program_partial","C70_dense_after_image_refuted","C70_keras_flatten_refuted","C70_default_convolution_refuted","C70_other_layers_refuted"],
  "Proved over any field with one half: for supported models whose layers satisfy in_channels_last (HwcNet.v: direct_block convolutions with equal top/left padding, dilation 1, filters a multiple of the block, even outputs when Winograd is selected; depth-wise convolutions; channels_last poolings without activation, averages without padding; element-wise operations of tensors of one shape or scalars; any layer between tensors whose two orders coincide), the program returns the documented value, which is also that of the channels_first program and of Python. Refuted outside these conditions, which the tool does not check: a Dense layer right after an image, the Flatten layer of a Keras model, default convolutions, BatchNormalization and default poolings give other results.")
c("C71","partial",["C71_import_keeps_the_function_partial", "C71_generated_program_partial", "C71_runs_exist", "C71_valid_programs_rejected_refuted", "C71_leaky_relu_refuted", "C71_last_operation_dropped_refuted", "C71_input_activation_refuted", "C71_second_activation_refuted", "C71_shared_operand_refuted", "C71_norm_after_activation_refuted", "C71_norm_of_linear_refuted", "C71_add_alpha_refuted", "C71_pool_dilation_refuted", "C71_adaptive_pool_refuted", "C71_flattened_output_refuted", "C71_returned_input_refuted"],
  "Proved over the reals: for well-formed programs whose calls satisfy importable (TorchOps.v: square kernels, strides and dilations, one group, padding given as numbers or valid, bias of linear present, clamp with two bounds, batch_norm of an image with affine parameters, add with alpha 1, cat along dimension at least 1, undilated max_pool2d with explicit stride, adaptive_avg_pool2d of a square image to 1 x 1), where relu, clamp, batch_norm, dropout and flatten are the only readers of their operand (exclusive) and are merged into a layer that can take them (absorbable), import succeeds and the imported network has PyTorch's output in the memory format of the example input; with equal paddings of the poolings (C18) and no repeated operand the generated C program (six-loop convolution) and the Python inference return it. PyTorch's semantics is written independently in TorchSpec.v. Refuted outside those options: 16 valid programs on which import raises, and accepted programs computed wrongly (leaky_relu, trailing unknown operations, activated inputs, second activations, shared operands, batch_norm after an activation or a linear operation, alpha of add, dilation of max_pool2d, adaptive_avg_pool2d of other images, output order of flattened or returned channels_last images). Not modelled: float rounding, batch sizes other than 1, grouped convolutions.")
c("C72","partial",["C72_import_keeps_the_function_partial", "C72_generated_program_partial", "C72_pad_without_mode_refuted", "C72_operand_name_refuted", "C72_input_dimensions"],
  "Proved over the reals, for every model file with one input and one output whose names are defined once and before use, whose announced dimensions (shape inference) are right and have one to four entries, whose nodes are the 35 operators of covered (OnnxModelSpec.v) with the options listed there (Tile and Reduce: the operand has a name of one character, as the importer looks every character of the name up as a tensor; any other file with such a node is refused, proved as _refuted), and where nothing else reads the operand of Dropout, Unsqueeze, Reshape or Flatten: import succeeds, and the imported network has the output ONNX specifies for the whole graph, for every run; when no node reads a tensor twice, the generated C program (six-loop convolution) and the Python inference return it. The semantics of the operators (ExportSpec.v, OnnxModelSpec.v) is independent of the layers. Missing: Resize, Clip, Mean (see C61, C64, C66), the Constant node, initialisers of Sub, Mul and Div, several inputs or outputs, grouped convolutions, batches, float rounding; C46, C58-C66 refute the property outside the listed options.")
c("C73","partial",["C73_variants_agree_partial", "C73_onnx_partial", "C73_keras_partial", "C73_pytorch_partial"],
  "Proved for 6loops, std_gemm_nn and indirect_gemm_nn chosen layer by layer through versions (by number, by type name or by default), in any network of C08's scope, over any arithmetic where products commute and vanish with a zero factor; and for every model of C69, C71, C72: the program with the chosen variants returns the framework's output. Conditions (applicable, Variants.v): dilation 1 for the matrix products, usual output sizes and no padding or every pixel read for the indirect one. Missing: the transposed gemm variants (refuted in C16), the indirect one outside its conditions (C17), direct_block (channels_last, C70).")
c("C74","proved",["C74_literals_exact","C74_literals_injective","C74_not_finite_refuted"],
  "Proved for every finite binary64 number with to_hex=True (the default): float.hex followed by replace('0000000p','p') is a C11 hexadecimal constant and a float.fromhex text of exactly that value. CPython's float.hex and str.replace are modelled on characters (HexLit.v). Refuted for infinities and NaN, written inf and nan, which are no constants (C74_not_finite_refuted). Integers and to_hex=False (decimal repr) are not modelled.")
c("C75","partial",["C75_reports_the_errors_partial","C75_blanks_ignored","C75_what_is_compared","C75_missing_lines_refuted","C75_nan_refuted","C75_one_line_too_many_refuted","C75_additional_values_refuted","C75_decimals_refuted"],
  "Proved over the reals for files of finite binary64 numbers written by the two programs with to_hex, of the same shape and of nb_tests lines: the texts are read exactly and the report is the greatest errors; True iff all values are similar. Refuted outside: a missing or truncated output file is an error of zero, a NaN is hidden by the next value (the command ignores the boolean), nb_tests + 1 lines are compared, additional values are ignored, decimal outputs are read as hexadecimal. Rounding of the subtractions and divisions, and other spellings of inf and nan, are not modelled; float32 is any function that keeps the values.")
c("C76","partial",["C76_pipeline_partial","C76_onnx_partial","C76_keras_partial","C76_pytorch_partial"],
  "Proved for every model of C08's scope, and for every ONNX, Keras and PyTorch model of C72, C69, C71: imported, sorted, optimised and versioned, its C program and its Python inference return the framework's output, over any arithmetic with a commutative product that vanishes with a zero factor (the reals for the importers). Conditions beyond those of the importers: those of C36 on the imported model (fusion_safe, layer numbers increasing along the order) and of C73 on the remaining convolutions; both are needed (refuted theorems of C36, C39, C16, C17). Missing: implementations outside C73, floating-point rounding.")
c("C77","partial",["C77_targets","C77_python_records","C77_c_prints_partial","C77_file_read_back","C77_compare_result","C77_c_and_python_agree_partial","C77_python_selection_partial","C77_python_selection_refuted","C77_softmax_first_refuted","C77_array_name_refuted"],
  "Proved for every model of C08's scope and every input: the Python recording is the value of every shown layer with its label; the C prints, with the array read as ctx->output_p, are the same tensors and leave the computation unchanged; the file, whose values survive the text %.9g (all float values do: C82_debug_file), is read back sorted by number and agrees with the Python recording; compare_result is exact. Refuted: the array printed, output_p, is no declared name, so the C code of the debug mode does not compile (C77_array_name_refuted); selecting layers by number looks at the last digit only (C77_python_selection_refuted, proved below 10); a Softmax after the input is an exception in mode keras. Not modelled: the mode time, running the frameworks (debug_onnx.py, debug_keras.py), several inferences writing the same file, the loss of doubles by %.9g.")
c("C78","proved",["C78_program","C78_dense","C78_gemm","C78_convolution","C78_sigmoid","C78_algorithms_agree"],
  "Proved for every rounding to nearest with relative error u and absolute error eta on tiny results, instantiated by Flocq's binary32 and binary64 (exponents unbounded above: no overflow; no fused multiply-add; zeros not signed; exp of relative error eps), every supported network whose layers compute in the data type: no cubic Resize, no Sigmoid and TanH (expf and double literals, C78_sigmoid and C86_tanh bound them one number at a time), no linear Resize in double precision (C83), no Silu, Softmax, BatchNormalization and no Gemm with beta in single precision, where C computes with doubles (C86), and no Gemm whose alpha is not 1 (whose code is only proved equal to the documented function in exact arithmetic), every input and every known error of the input. The propagated bound of a logarithm, of a quotient by an uncertain number other than in Softmax, Silu and tanh, and of what is computed from them is 'unknown': nothing is then claimed. Coordinates of Resize are exact rationals here (C81 for their rounding).")
c("C79","partial",["C79_command","C79_order","C79_formats","C79_generated_partial","C79_json_refuted","C79_normalize_refuted","C79_booleans_refuted"],
  "Proved: which command lines are accepted and what their settings are (argparse's reading of long options, '=' forms and abbreviations is modelled), the choice of the loader from the file name, and that ONNX, H5 and NNET networks reach the generator with the asked optimisation, normaliser and convolution algorithm. Refuted by the code: a JSON file is never loaded, since load_json calls InputLayer with four of its five required arguments (the README's commands for acas and lenet5 name JSON files); --normalize with another format than NNET raises ValueError; --optimization, --bin_dataset and --verbose followed by False are on, like any non-empty value. Values beginning with a dash, -- and the loaders themselves (other properties) are outside the statement.")
c("C80","partial",["C80_round_trip_partial","C80_generated_programs_partial","C80_not_read_back_refuted","C80_changed_refuted"],
  "Proved over the reals, for opset 13 and above, for networks with one input and one used output made of convolutions (with their fused activations), pools, batch normalisations, activations, transpositions, concatenations, flattenings, Softmax along the last axis, Gemm and Sub, Mul, Div of two layers, Max, Min: the exported file is imported and the network and its C program return the same values (float32 storage of the weights is not modelled; shape inference is assumed to give the tensors their dimensions). Refuted by the code: a network with a Dense, Average, Silu, Reduce or Tile layer is written and not read back (C80_not_read_back_refuted), and the axis of a Softmax is lost (C80_changed_refuted). Missing: Pad, Gather, GatherElements, Resize, operands stored in a layer, outputs of one dimension whose declaration has four.")

c("C81","partial",["C81_c_pixel_partial","C81_python_pixel_partial","C81_layer_partial","C81_python_refuted","C81_large_refuted"],
  "Proved for C (binary64 operations to nearest even, the position then rounded to binary32) whenever the product of the two sizes of an axis is at most 2^22, and for Python (binary64) when in addition the quotient of the sizes is represented exactly. False of Python otherwise: in an asymmetric enlargement from 18 to 42 pixels with floor, Python takes pixel 14 for position 35 where the documentation and the C code take 15. False of C for very large axes: 2^24+2 pixels copied to 2^24+2 pixels. The layer statement keeps C31's condition that positions stay inside the input; align_corners only with floor (C31). Scales given instead of sizes, linear and cubic modes are not covered. FLT_EVAL_METHOD is taken to be 0.")
c("C82","partial",["C82_constants","C82_constants_exist","C82_constants_injective","C82_debug_float","C82_debug_file","C82_debug_double_refuted","C82_output_partial","C82_output_refuted"],
  "Proved on the characters of the texts, with the roundings of Flocq (binary64 and binary32): parameters (Python's repr, specified as a shortest decimal that is read as the number; such a text exists for every number) and the debugging file of data_type float (%.9g read by np.float32, double rounding included). Refuted: the debugging file of data_type double (nine digits), and the output file, written with %9g, keeps six digits (relative error at most 5e-6 proved) so different outputs are written alike. Integers, infinities and NaN are not covered. That acetone_compare reads the decimal digits of the output file as hexadecimal ones is C75_decimals_refuted.")
c("C83","partial",["C83_sigmoid","C83_tanh","C83_sigmoid_refuted","C83_tanh_refuted","C83_linear","C83_linear_grid","C83_linear_refuted"],
  "Refuted by the code: Sigmoid and TanH call expf whatever data_type, and the linear (and cubic) Resize holds pixels and positions in variables declared float. Proved, on Flocq's binary32 and binary64: the double program's sigmoid and tanh are still within 2^-21 and 2^-20 of the mathematical ones for every double, but not within 2^-50 (near 0 the tanh of a small number is 0); a pixel of the linear Resize is within 2^-18 M of the bilinear interpolation (M the largest pixel), and at a pixel's position it is that pixel converted to float. Not covered: overflow of the conversion to float (large pixels become infinite), the error of expf of the C library (assumed correctly rounded), the rounding of the position itself (C81), cubic Resize.")
c("C84","partial",["C84_save","C84_copy","C84_replaces_partial","C84_saved_file_partial","C84_batch","C84_replaces_refuted","C84_copy_constants_refuted","C84_saved_file_refuted","C84_batch_double_refuted"],
  "Proved for every network whose arrays have distinct names (C85): saving, copying (parameters from parameters.dat), the replaced program is the other one when all layers have weights, biases or constants only, the saved file is parameters.dat when each array fills whole pages, and batch_loop in single precision. Refuted by the code: mean, variance and scale of BatchNormalization layers are not parameters of the hook; the arrays of parameters.c are const, so copy_weights is undefined without bin_dataset; parameters.dat has gaps that the saved file has not; batch_loop takes float pointers whatever data_type, so with double rows overlap and the last one leaves the arrays. Files and endianness of the elements are abstract.")
c("C85","partial",["C85_program_links","C85_library_links","C85_makefile","C85_external_input_refuted","C85_binary_refuted","C85_makefile_refuted"],
  "Proved for the target 'generic' and layers of distinct identifiers (C39, C46): the program without external inputs and the library define every name once, with parameters.c, or with parameters.dat when there is neither a constant operand nor an indirect convolution; make finds every file, custom ones included, as long as the category Inference is not replaced. Refuted by the code: with external inputs test_dataset.h defines nn_test_inputs in main.c and in train_hook.c (linkers that merge common symbols accept it); parameters.dat lacks the constants of Broadcast layers; the rule of the shared library names the default inference files. The names used inside a function (compilation of the C code), the symbols of target.c and those objcopy adds are not covered.")
c("C86","proved",["C86_activations","C86_tanh","C78_sigmoid","C86_softmax","C86_batchnorm","C86_covered"],
  "The emitted texts are parsed and evaluated with C's usual arithmetic conversions over Flocq's binary32 and binary64. Literals are Python floats (binary64). Softmax: at most 2^20 elements, each at least -64 (below, exp underflows in a float sum); the slices of a three-dimensional Softmax are such sums. BatchNormalization: var + epsilon at least 2^-40 and scale at most 2^20 in magnitude. Not covered: overflow (exp of large numbers, conversion to float), the errors of exp, log and sqrt of the C library (assumed correctly rounded), contraction into fused operations, FLT_EVAL_METHOD different from 0, Gemm with beta, the propagation of these errors through a network.")
c("C87","partial",["C87_sequential_partial","C87_functional_partial","C87_order_refuted","C87_shared_refuted","C87_inputs_refuted","C87_softmax_refuted","C87_dense","C87_format_refuted","C87_bias_refuted","C87_convolution_refuted"],
  "Proved for every model of supported layers where only the last may have a softmax activation: a Sequential model is read back as the chain it is; a functional model whose layers have distinct names and are each called once on earlier layers is read back with the right layers behind each layer, in the right order just when the operands are in the order of the layers. Reading is the loop of C46 (the importer's own InputLayer call raises: C46_json_refuted). Refuted: the operands are listed in the order of the layers (b - a becomes a - b), a second call is dropped, a second input and a softmax in the middle are misread, the data format is always channels_last, a layer without bias cannot be written, and the kernel of a convolution is written [channels, height, width, filters]: the importer rejects it, or misreads it when the four are equal. The kernel of a Dense layer is proved to be read as it was. BatchNormalization layers are not covered.")
