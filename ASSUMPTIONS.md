# What `Print Assumptions` lists for each theorem

Generated by tools/assumptions.py from the output of the Prop*.v files.

## no axioms ("Closed under the global context") — 185 theorems

C63_freeze, C63_defrost, C63_freeze_defrost_partial, C63_assignment, C63_history_partial, C63_item_refuted, C63_merge_refuted, C63_list_refuted, C63_nested_in_list_refuted, C63_exact_undo_refuted, C64_leaves, C64_subtrees, C64_rest_kept, C64_errors, C64_unknown_key, C64_not_a_config, C64_terminates, C64_from_file, C64_bad_file, C64_failure_refuted, C64_own_clone_refuted, C64_new_subtree_refuted, C65_types, C65_mismatch, C65_list_types, C65_new_key_refuted, C66_overrides, C66_one_override, C66_in_order, C66_odd_length, C66_unknown_key, C66_failure_partial, C66_failure_refuted, C66_shared_list_refuted, C67_merge_deprecated_partial, C67_merge_renamed_partial, C67_merge_key_errors, C67_list_deprecated, C67_list_renamed, C67_register_deprecated, C67_register_renamed, C67_key_is, C67_present_key_refuted, C67_new_key_refuted, C68_clone, C68_independent, C68_dump_load_partial, C68_tuples, C68_attributes, C68_round_trip_refuted, C69_attribute_is_item, C69_assignment, C69_rejected, C69_method_names_refuted, C70_constructor, C70_invalid_value, C70_not_a_dict, C70_empty, C56_windows, C56_tum, C56_tum_sequences, C56_tum_bad_file, C56_icl, C56_icl_sequences, C56_arguments, C56_bad_values, C56_bad_types, C56_bad_range_types, C56_default_stride, C56_stride_zero_refuted, C56_seqlen_zero_refuted, C57_pose_lines_partial, C59_range_partial, C59_whole_scenes_partial, C59_arguments, C59_too_short, C59_lengths_refuted, C59_cut_refuted, C59_past_refuted, C60_remap, C60_palettes, C60_range, C60_onto, C60_other_labels_refuted, C60_paint_partial, C60_paint_dict_refuted, C62_file_list, C62_rows, C62_separators, C74_tum, C74_tum_all, C74_tum_requested, C74_tum_accepted_partial, C74_tum_missing, C74_tum_errors, C74_tum_twice_refuted, C74_tum_newline_refuted, C74_tum_other_folder_refuted, C74_tum_index_refuted, C74_icl, C74_icl_all, C74_icl_requested, C74_icl_accepted_partial, C74_icl_basedir_refuted, C74_icl_contents, C74_scannet, C74_scannet_missing_refuted, C74_selection_type, C39_one_row_per_pixel, C02_accepts_exactly, C02_rejects_with, C02_fresh_object, C03_views_agree_partial, C03_history_determines_views_partial, C03_stale_padded_refuted, C04_padding_zero_partial, C04_mask_exact_partial, C04_oversized_offset_refuted, C04_oversized_batch_refuted, C05_reads_pure_partial, C05_read_order_refuted, C06_calls_act_pointwise, C06_meaning_is_pointwise, C07_operators_partial, C07_out_of_place_partial, C07_after_rotate_refuted, C08_clone_equal_partial, C08_detach_is_clone, C08_clone_mask_refuted, C09_append, C09_append_meaning, C09_append_rejects, C10_getitem, C10_getitem_rejects, C11_set_padded_partial, C11_set_padded_rejects, C11_set_list_rejects, C11_set_points_list_partial, C11_set_list_partial, C11_add_list_partial, C11_feature_widths_refuted, C12_has_truthful_partial, C12_stale_flag_refuted, C13_points_padded_keeps, C13_points_list_keeps_partial, C13_normals_lost_refuted, C92_layout, C92_order, C92_faithful, C92_pure, C92_cycle, C92_types_lost, C92_forged, C32_depth_setter_refuted, C34_bare_slice_refuted, C45_odometry_names, C85_valid, C85_private, C85_nowrite, C85_call, C85_call_device, C85_call_uses, C85_make, C85_copy_forward, C85_copy_backward, C85_append, C85_append_device, C85_append_self, C85_append_self_shows, C85_to_self, C85_to_copy, C85_to_move, C85_to_alias, C85_to_refuted, C85_detach, C85_detach_refuted, C85_view_value, C85_getitem, C85_ctor_keeps, C01_padded_entries, C01_roundtrip_sizes, C01_roundtrip_lengths, C01_roundtrip_default_size, C01_roundtrip_back, C01_all_empty_refuted

## `ClassicalDedekindReals.sig_forall_dec` — 31 theorems

C57_start_zero_partial, C57_short_pose_file_refuted, C58_poses, C58_any_request, C58_faulty_line, C58_past_end_refuted, C58_cut_refuted, C61_channels_first, C61_channels_inverse, C61_rank, C16_unproject_uses_own_camera_partial, C16_unproject_rejects, C19_inverse_batch_refuted, C19_compose_batch_refuted, C19_malformed_refuted, C20_pointcloud_and_normals, C20_pointcloud_rejects, C27_entries, C27_rejects, C71_label_shape_refuted, C29_default_pixel_grid, C86_make, C86_make_value, C86_to_self, C86_to_same, C86_detach, C86_getitem_live, C86_getitem_uses, C86_ctor_keeps, C86_ctor_device, C46_composition_affine

## `ClassicalDedekindReals.sig_forall_dec`, `FunctionalExtensionality.functional_extensionality_dep` — 100 theorems

C55_associate, C55_not_a_number, C55_empty, C55_rgbd, C55_rgbd_pose, C55_rgbd_pose_gaps, C57_start_refuted, C58_request_order_refuted, C61_range, C61_order, C61_recover, C61_types, C62_trajectory_partial, C62_blank_line_refuted, C62_not_a_number, C74_tum_contents, C90_open3d, C90_plotly, C90_unit_range, C90_unit_kept, C90_unit_scaled, C90_bytes_range, C90_agree, C90_not_int, C90_bad_index, C90_no_points_refuted, C90_negative_refuted, C90_sample_colour_refuted, C90_threshold_refuted, C75_zero_error, C75_on_target, C75_none_kept, C37_indices_in_range, C37_to_camera_is_inverse, C14_unhomogenize_homogenize, C14_divides_above_threshold, C14_scale_invariant, C14_rank, C15_pinhole_equation, C15_unproject_project, C15_project_unproject, C16_project_uses_own_camera_partial, C16_project_rejects, C16_project_incompatible, C16_leading_shape_refuted, C17_exact_for_zero_eps_partial, C17_round_trip_error_partial, C17_eps_refuted, C17_rejects, C18_inverse, C18_compose, C18_associative, C18_relative, C18_relative_transformation, C20_pts_3d_partial, C20_pts_3d_other_ranks_refuted, C20_pts_3d_homogeneous, C20_pts_3d_width, C20_pts_3d_rejects, C20_pts_nd, C20_pts_nd_rejects, C21_Pointclouds_transform, C26_mutually_inverse, C26_range, C26_rejects, C26_meshgrid, C26_meshgrid_once, C26_meshgrid_normalized, C27_commutes_with_perspective, C27_commutes_with_project_points, C28_poses_to_transforms, C28_ground_truth_provider, C28_ground_truth_rejects, C71_icl, C71_scannet_partial, C72_icl_partial, C72_scannet, C72_agree, C72_short_file_refuted, C73_icl, C73_scannet, C73_native_size, C73_depth_values, C73_color_range, C73_projection_scaled, C47_solve, C47_solve_any_damping, C47_types, C47_shapes, C48_types, C48_shapes, C49_no_threshold, C53_frames_type, C53_map, C53_map_types, C53_map_shape, C53_map_zero, C45_type, C46_composition, C76_tiny_focal_refuted

## `ClassicalDedekindReals.sig_forall_dec`, `Classical_Prop.classic`, `FunctionalExtensionality.functional_extensionality_dep` — 5 theorems

C55_associate_exactly, C55_maximal, C55_input_order, C55_sorted_by_time, C55_sorted_by_time_refuted

## `ClassicalDedekindReals.sig_forall_dec`, `ClassicalDedekindReals.sig_not_dec`, `FunctionalExtensionality.functional_extensionality_dep` — 104 theorems

C62_trajectory_matrix_partial, C62_nan_refuted, C75_icp, C36_alpha_rejects, C37_active_points, C37_empty_map, C37_rejections, C38_similar, C38_similar_pixels_valid_partial, C38_valid_depth_refuted, C38_trivial, C38_rejections, C43_aggregate_pure, C44_aggregate_step, C44_aggregate_frames, C21_functions, C22_matrix, C22_is_rotation, C22_scale, C22_product, C22_tum_loader, C22_icl_loader, C22_tum_tiny, C22_below_threshold_refuted, C22_leading_dims_flattened, C24_so3_exp, C24_se3_exp, C24_hat, C24_so3_one_parameter_group, C24_se3_one_parameter_group, C25_small_angles_refuted, C82_maps, C82_depth_derivative, C82_depth_kink_refuted, C82_depth_jump_refuted, C71_tum, C71_index_error, C71_negative_index, C72_tum, C73_tum, C73_tum_frames, C48_rows, C48_exponential_curve, C49_threshold_partial, C49_distance_refuted, C50_total, C50_error_never_increases, C50_one_iteration, C50_iterations, C50_rigid_partial, C50_rigid_refuted, C51_icp_types, C51_positive_iterations_partial, C53_frames_partial, C53_frames_length, C53_frames_ratio, C53_frames_channels_first_refuted, C29_vertex_coordinates, C29_projection_error_partial, C29_projects_back_refuted, C30_global_vertex, C30_global_normal, C31_normal_map, C31_thin_images, C32_reads_mean_inputs_partial, C32_same_as_fresh_partial, C32_setters_accept, C32_setters_reject, C32_reads_keep_inputs, C32_depth_setter_partial, C32_stale_mask_refuted, C33_elements_move, C33_to_first, C33_to_last, C33_mutually_inverse, C33_idempotent, C33_in_place_partial, C33_clone, C33_in_place_first_refuted, C33_in_place_last_refuted, C33_in_place_vertex_map_refuted, C34_selects_partial, C34_maps_sliced, C34_rejects, C34_last_item_refuted, C35_clouds_partial, C35_frame_not_mutated, C35_sequence_length, C35_thin_images_refuted, C86_valid, C86_private, C86_nowrite, C86_call, C86_setter_keeps, C86_copy_forward, C86_copy_backward, C86_cached, C86_stale_refuted, C86_follows, C86_does_not_follow, C84_icp, C45_fusion_arguments, C76_own_points, C77_no_growth

## `ClassicalDedekindReals.sig_forall_dec`, `ClassicalDedekindReals.sig_not_dec`, `Classical_Prop.classic`, `FunctionalExtensionality.functional_extensionality_dep` — 144 theorems

C78_same_sequence, C78_alone, C78_zero_confidence_refuted, C80_ground_truth, C80_same_in_both_layouts, C80_one_frame, C80_step, C80_registration_step_refuted, C80_registration_refuted, C80_fusion_step_refuted, C80_fusion_refuted, C81_geometry, C81_linear, C91_frames, C91_rgb_only, C91_rejects, C91_no_depth_refuted, C91_channels_first_refuted, C91_channels_first_small_refuted, C75_gradicp, C75_providers, C36_alpha, C36_alpha_bounds, C36_alpha_monotone, C39_best_partial, C39_viewing_ray_refuted, C40_small_maps_partial, C40_big_maps_refuted, C41_fuse, C41_zero_confidence_refuted, C42_update, C42_many_frames, C43_fusion_pure_partial, C43_fuse_pure_partial, C43_fusion_refuted, C22_rejects, C23_axisangle, C23_opposite, C25_error_bound_partial, C82_aggregate, C82_fusion, C82_fusion_still, C82_fusion_step, C82_fusion_loop, C82_association_refuted, C79_convex_hull, C79_colours, C79_normals, C79_confidence, C79_normals_shrink, C79_unit_normals_refuted, C93_value, C93_gradient, C93_missing, C93_hole, C93_degenerate, C93_nan_spreads_refuted, C51_initial_transform_none_refuted, C51_numiters_zero_refuted, C51_gradicp_types, C51_initial_transform_shape, C51_zero_parameters, C52_one_step, C52_iterations, C52_total, C52_rigid_up_to_eps, C52_no_overflow_partial, C52_overflow_refuted, C52_step_grows_with_error, C52_damping_grows_with_error, C54_provide, C54_first_error, C54_batch_mismatch, C54_no_normals, C54_total, C84_gradicp, C84_shift_refuted, C84_slam, C83_forward, C45_fold, C45_forward, C45_client, C45_ground_truth, C45_ground_truth_map, C45_ground_truth_poses, C45_aggregated, C45_ground_truth_without_poses, C46_step_partial, C46_frame_changed, C46_frame_refuted, C46_map_refuted, C46_previous_without_poses, C46_frame_without_poses, C46_empty_map, C46_same_frame, C46_inputs_kept, C46_types, C76_still_camera, C77_average, C87_tape, C87_unhomogenize, C87_unhomogenize_grad, C87_unhomogenize_infinity_refuted, C87_project, C87_project_grad, C87_focal, C87_centre, C87_focal_refuted, C87_axisangle, C87_axisangle_grad, C87_axisangle_identity_refuted, C87_normalize, C87_normalize_grad, C87_normal, C87_normal_grad, C87_rodrigues, C87_alpha, C87_alpha_grad, C87_alpha_refuted, C87_fuse, C87_fuse_grad, C87_damp, C87_damp_grad, C87_gate, C87_gate_grad, C87_pixel, C87_pixel_refuted, C88_tape, C88_unhomogenize, C88_project, C88_focal, C88_centre, C88_axisangle, C88_normalize, C88_normal, C88_rodrigues, C88_alpha, C88_fuse, C88_damp, C88_gate, C88_pixel, C89_value, C89_gradient, C89_missing, C89_nan_depth_refuted
