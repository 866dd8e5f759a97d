# Output of Print Assumptions for every theorem of MANIFEST.json

Generated by tools/assumptions.py. All axioms are those of Coq's standard library.

## Closed under the global context (no axiom)

C01_layers_after_their_producers, C02_constant_expression_refuted, C02_input_first_and_no_exception, C03_needed_buffers_are_not_overwritten, C04_number_of_buffers_is_minimal, C05_buffers_used_are_declared, C06_tensors_preserved_until_last_reader, C07_repeated_input_refuted, C07_repeated_input_saved_refuted, C08_inference_computes_the_network, C08_value_unique, C09_inference_stays_inside_partial, C09_supported_models_are_covered, C09_two_axes_max_network_refuted, C10_calls_are_independent, C10_normalized_second_call_refuted, C11_dense, C12_matmul, C12_matmul_broadcast_refuted, C12_matmul_python, C13_gemm, C13_gemm_any_arithmetic, C13_gemm_constructor_refuted, C13_gemm_python, C13_gemm_scalar_bias_refuted, C14_python, C14_python_dilation_refuted, C14_six_loops, C15_dilation_refuted, C15_input_is_in_own_array, C15_std_gemm_nn, C16_transposed_gemm_refuted, C17_indirect_gemm_nn, C17_overlapping_windows_cover, C17_pointer_table, C17_skipped_elements_refuted, C17_stride_1_covers, C18_odd_height_refuted, C18_tile_identity, C18_winograd_even_partial, C19_dilation_refuted, C19_same_lower, C19_same_upper, C19_valid_and_explicit, C20_average_layouts_differ_refuted, C20_average_pool, C20_average_pool_channels_last, C20_max_pool, C20_max_pool_channels_last, C20_no_padding_windows_are_full, C20_pool_any_padding, C20_unequal_pads_refuted, C21_activation_refuted, C21_average_padding_refuted, C21_max_padding_refuted, C21_no_padding_partial, C21_partial_padding_refuted, C22_activation_applied_twice_refuted, C22_constant_pad, C22_edge_pad, C22_mirrored_exists, C22_reflect_pad, C22_reflect_single_channel_refuted, C22_wrap_out_of_bounds_refuted, C22_wrap_pad_partial, C23_transpose, C24_concatenate, C24_concatenate_python, C24_slice, C25_gather, C25_gather_elements, C26_tile, C27_average_aliasing_refuted, C27_broadcast, C27_broadcast_python, C27_small_first_operand_refuted, C28_batch_normalisation, C28_batch_normalisation_python, C29_softmax, C30_batch_axis_refuted, C30_max_min, C30_noop_refuted, C30_reduce, C30_reduce_cells, C30_two_axes_max_in_place_refuted, C30_two_axes_max_out_of_bounds_refuted, C30_two_axes_max_refuted, C31_align_corners_inside, C31_align_corners_refuted, C31_asymmetric_refuted, C31_half_pixel_floor_fault_refuted, C31_half_pixel_floor_refuted, C31_nearest_partial, C32_activation, C32_activation_compound, C32_activation_exact, C32_activation_layer, C33_flatten_partial, C33_flatten_refuted, C33_flatten_single_reader_partial, C34_conversions_are_inverse, C34_layout_conversions, C35_every_sample_once_in_order, C35_predictions_for_every_schedule, C35_printed, C36_input_activation_refuted, C36_lost_flatten_activation_refuted, C36_lost_input_activation_refuted, C36_lost_softmax_activation_refuted, C36_optimised_inference_partial, C36_optimised_inference_partial, C36_output_order_refuted, C36_python_activation_refuted, C36_same_output_partial, C37_fused_weights, C38_matmul_add_never_replaced, C38_sigmoid_multiply_is_silu, C38_silu_constant_refuted, C38_silu_reads_unwritten_array_refuted, C39_after_the_pass_partial, C39_duplicate_identifiers_refuted, C39_renumbering, C40_others_unaffected, C40_selection, C41_factories, C41_first_registration_wins, C41_listing, C41_no_replacement, C42_binary_files_overwritten_refuted, C42_existing_file_raises, C42_no_existing_file_changes, C43_accepted_strings, C43_final_newline_refuted, C43_nearest_ties_to_even, C43_parameter_half_ulp, C43_render_parse, C43_shift_c_equals_python, C43_shift_clamped_refuted, C43_shift_nonnegative, C43_shift_rescales, C43_unreported_output_truncation_refuted, C43_unreported_truncation_refuted, C43_wide_shift_refuted, C44_align_up, C44_disjoint, C44_other_alignment_refuted, C44_sections, C45_nan_refuted, C45_normalized_model, C45_post_processing, C45_pre_processing, C46_json_batch_normalization_refuted, C46_json_layers_partial, C46_json_refuted, C46_json_skip_refuted, C46_keras_dropout_refuted, C46_keras_functional, C46_keras_sequential, C46_keras_softmax_refuted, C46_onnx_bypass_refuted, C46_onnx_constant_refuted, C46_onnx_initializer_inputs_refuted, C46_onnx_inputs, C46_onnx_layer_is_unique, C46_onnx_linked, C46_onnx_reduce_refuted, C46_onnx_reduce_wrong_inputs_refuted, C46_pytorch, C46_pytorch_activation_refuted, C46_pytorch_layer_is_unique, C46_pytorch_second_activation_refuted, C47_every_layer_reads_its_producers, C47_missing_input_raises, C48_declared_samples_of_array, C48_declared_samples_refuted, C48_first_lines_in_order, C48_number_of_samples, C49_depthwise, C49_direct_block, C50_constant_dropped_refuted, C50_div_initializer_refuted, C50_mul_initializer_partial, C50_sub_initializer_refuted, C51_align_corners_refuted, C51_cubic_partial, C51_linear_one_row_refuted, C51_linear_partial, C51_one_by_one_refuted, C52_documented_custom_functions_refuted, C52_functions_append_in_order, C52_name_and_functions, C53_binary_file_partial, C53_binary_file_refuted, C53_c_file_matches_header, C53_direct_block_binary, C53_direct_block_c_file_refuted, C53_names_hold_attributes, C54_add_partial, C54_add_refuted, C54_matmul, C54_matmul_value, C54_wide_data_refuted, C55_nnet_import, C56_concat, C56_gather, C56_gather_default_axis_refuted, C56_gather_elements, C56_gather_elements_default_axis_refuted, C56_gather_scalar_refuted, C56_tile, C56_transpose, C56_transpose_low_rank_refuted, C57_bound_is_enough, C57_optimiser_terminates, C58_conv, C58_dilations_refuted, C58_group_refuted, C58_kernel_shape_refuted, C58_same_dilation_refuted, C58_strides_refuted, C59_average_pool, C59_count_include_pad_refuted, C59_dilations_refuted, C59_global_average_pool, C59_global_average_pool_refuted, C59_kernel_shape_refuted, C59_max_pool, C59_strides_refuted, C60_reduce, C60_reduce_matrix_max_refuted, C60_reduce_old_opset_refuted, C60_softmax, C61_elementwise, C61_mean_refuted, C62_batch_normalisation, C62_batch_normalisation_low_rank_refuted, C62_gemm, C62_gemm_alpha_refuted, C62_gemm_matrix_bias_refuted, C62_gemm_no_bias_refuted, C62_gemm_row_bias_refuted, C62_matmul, C62_matmul_left_matrix_refuted, C62_matmul_stack_refuted, C63_axes_order_refuted, C63_default_mode_refuted, C63_default_value_refuted, C63_negative_axes_refuted, C63_pad, C63_rank_refuted, C64_clip_scalar_refuted, C65_constant_dims_refuted, C65_constant_refuted, C65_constant_scalar, C65_flatten, C65_reshape, C65_shape_refuted, C65_unsqueeze, C66_axes_refuted, C66_default_mode_refuted, C66_policy_refuted, C66_resize_nearest_partial, C66_roi_refuted, C66_scales_only_refuted, C70_channels_last_program_partial, C70_default_convolution_refuted, C70_dense_after_image_refuted, C70_keras_flatten_refuted, C70_other_layers_refuted, C73_variants_agree_partial, C74_literals_exact, C74_literals_injective, C74_not_finite_refuted, C77_array_name_refuted, C77_c_and_python_agree_partial, C77_c_prints_partial, C77_compare_result, C77_file_read_back, C77_python_records, C77_python_selection_partial, C77_python_selection_refuted, C77_softmax_first_refuted, C77_targets, C79_booleans_refuted, C79_command, C79_formats, C79_generated_partial, C79_json_refuted, C79_normalize_refuted, C79_order, C84_batch, C84_batch_double_refuted, C84_copy, C84_copy_constants_refuted, C84_replaces_partial, C84_replaces_refuted, C84_save, C84_saved_file_partial, C84_saved_file_refuted, C85_binary_refuted, C85_external_input_refuted, C85_library_links, C85_makefile, C85_makefile_refuted, C85_program_links, C87_bias_refuted, C87_convolution_refuted, C87_dense, C87_format_refuted, C87_functional_partial, C87_inputs_refuted, C87_order_refuted, C87_sequential_partial, C87_shared_refuted, C87_softmax_refuted

## ClassicalDedekindReals.sig_forall_dec, ClassicalDedekindReals.sig_not_dec, Classical_Prop.classic, FunctionalExtensionality.functional_extensionality_dep

C29_axis_ignored_refuted, C29_distribution, C29_distribution_flat, C32_activation_real, C60_softmax_default_axis_refuted, C60_softmax_old_opset_refuted, C64_activation_partial, C64_clip_open_refuted, C64_parameters_refuted, C66_rebuilt_partial, C66_rebuilt_power_of_two, C66_rebuilt_refuted, C67_export_well_formed, C67_layers_without_export_refuted, C67_linear_layer_refuted, C67_sorted_layers, C68_activation_layer_refuted, C68_channel_constant_refuted, C68_concat_of_dense_refuted, C68_declared_shape_refuted, C68_exported_graph_partial, C68_flatten_refuted, C68_integer_inputs_refuted, C68_no_such_node_refuted, C68_pads_refuted, C68_softmax_axis_refuted, C69_channels_first_refuted, C69_generated_program_partial, C69_import_keeps_the_function_partial, C69_normalization_axis_refuted, C69_pool_size_refuted, C69_rejected_layers_refuted, C69_runs_exist, C69_softmax_axis_refuted, C69_valid_models_rejected_refuted, C69_vector_merge_refuted, C71_adaptive_pool_refuted, C71_add_alpha_refuted, C71_flattened_output_refuted, C71_generated_program_partial, C71_import_keeps_the_function_partial, C71_input_activation_refuted, C71_last_operation_dropped_refuted, C71_leaky_relu_refuted, C71_norm_after_activation_refuted, C71_norm_of_linear_refuted, C71_pool_dilation_refuted, C71_returned_input_refuted, C71_runs_exist, C71_second_activation_refuted, C71_shared_operand_refuted, C71_valid_programs_rejected_refuted, C72_generated_program_partial, C72_import_keeps_the_function_partial, C72_input_dimensions, C72_operand_name_refuted, C72_pad_without_mode_refuted, C73_keras_partial, C73_onnx_partial, C73_pytorch_partial, C76_keras_partial, C76_onnx_partial, C76_pytorch_partial, C78_convolution, C78_program, C78_sigmoid, C78_sigmoid, C80_changed_refuted, C80_generated_programs_partial, C80_not_read_back_refuted, C80_round_trip_partial, C81_c_pixel_partial, C81_large_refuted, C81_layer_partial, C81_python_pixel_partial, C81_python_refuted, C82_constants, C82_constants_exist, C82_constants_injective, C82_debug_double_refuted, C82_debug_file, C82_debug_float, C82_output_refuted, C83_linear, C83_linear_grid, C83_linear_refuted, C83_sigmoid, C83_sigmoid_refuted, C83_tanh, C83_tanh_refuted, C86_activations, C86_batchnorm, C86_covered, C86_softmax, C86_tanh

## ClassicalDedekindReals.sig_forall_dec, ClassicalDedekindReals.sig_not_dec, FunctionalExtensionality.functional_extensionality_dep

C78_algorithms_agree, C78_dense, C78_gemm

## ClassicalDedekindReals.sig_forall_dec, FunctionalExtensionality.functional_extensionality_dep

C65_lrn_refuted, C75_additional_values_refuted, C75_blanks_ignored, C75_decimals_refuted, C75_missing_lines_refuted, C75_nan_refuted, C75_one_line_too_many_refuted, C75_reports_the_errors_partial, C75_what_is_compared, C82_output_partial

## FunctionalExtensionality.functional_extensionality_dep

C76_pipeline_partial
