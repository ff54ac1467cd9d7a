{
 "claims": [
  {
   "property": "C01",
   "status": "proved",
   "theorems": [
    "C01_padded_entries",
    "C01_roundtrip_sizes",
    "C01_roundtrip_lengths",
    "C01_roundtrip_default_size",
    "C01_roundtrip_back",
    "C01_all_empty_refuted"
   ],
   "note": "C01_all_empty_refuted shows why the default-size round trip needs a non-empty cloud"
  },
  {
   "property": "C02",
   "status": "proved",
   "theorems": [
    "C02_accepts_exactly",
    "C02_rejects_with",
    "C02_fresh_object"
   ],
   "note": ""
  },
  {
   "property": "C03",
   "status": "partial",
   "theorems": [
    "C03_views_agree_partial",
    "C03_history_determines_views_partial",
    "C03_stale_padded_refuted"
   ],
   "note": "holds for every history in Hist; refuted for normals/colors/features list setters after a padded read (typo _noramls_padded)"
  },
  {
   "property": "C04",
   "status": "partial",
   "theorems": [
    "C04_padding_zero_partial",
    "C04_mask_exact_partial",
    "C04_oversized_offset_refuted",
    "C04_oversized_batch_refuted"
   ],
   "note": "holds for every history in Hist; refuted when an operand broadcasts beyond (B,N,3)"
  },
  {
   "property": "C05",
   "status": "partial",
   "theorems": [
    "C05_reads_pure_partial",
    "C05_read_order_refuted"
   ],
   "note": "holds for every history in Hist; refuted after points_list is assigned on a padded-only object"
  },
  {
   "property": "C06",
   "status": "proved",
   "theorems": [
    "C06_calls_act_pointwise",
    "C06_meaning_is_pointwise"
   ],
   "note": ""
  },
  {
   "property": "C07",
   "status": "partial",
   "theorems": [
    "C07_operators_partial",
    "C07_out_of_place_partial",
    "C07_after_rotate_refuted"
   ],
   "note": "proved when points_list was read just before or all clouds have equal size; refuted otherwise (clone rebuilds from the padded tensor)"
  },
  {
   "property": "C08",
   "status": "partial",
   "theorems": [
    "C08_clone_equal_partial",
    "C08_detach_is_clone",
    "C08_clone_mask_refuted"
   ],
   "note": "proved when points_list was read just before or all clouds have equal size; refuted otherwise. Absence of sharing is by construction of the value model"
  },
  {
   "property": "C09",
   "status": "proved",
   "theorems": [
    "C09_append",
    "C09_append_meaning",
    "C09_append_rejects"
   ],
   "note": ""
  },
  {
   "property": "C10",
   "status": "proved",
   "theorems": [
    "C10_getitem",
    "C10_getitem_rejects"
   ],
   "note": ""
  },
  {
   "property": "C11",
   "status": "partial",
   "theorems": [
    "C11_set_padded_partial",
    "C11_set_padded_rejects",
    "C11_set_list_rejects",
    "C11_set_points_list_partial",
    "C11_set_list_partial",
    "C11_add_list_partial",
    "C11_feature_widths_refuted"
   ],
   "note": "padded setters: present attributes; list setters: while no padded view exists, or points_list after reading the lists; rejection in all states; feature widths refuted"
  },
  {
   "property": "C12",
   "status": "partial",
   "theorems": [
    "C12_has_truthful_partial",
    "C12_stale_flag_refuted"
   ],
   "note": "holds for every history in Hist; refuted after has_x was asked before x was assigned"
  },
  {
   "property": "C13",
   "status": "partial",
   "theorems": [
    "C13_points_padded_keeps",
    "C13_points_list_keeps_partial",
    "C13_normals_lost_refuted"
   ],
   "note": "points_padded setter proved; points_list setter proved after reading the lists, refuted otherwise"
  },
  {
   "property": "C14",
   "status": "proved",
   "theorems": [
    "C14_unhomogenize_homogenize",
    "C14_divides_above_threshold",
    "C14_scale_invariant",
    "C14_rank"
   ],
   "note": ""
  },
  {
   "property": "C15",
   "status": "proved",
   "theorems": [
    "C15_pinhole_equation",
    "C15_unproject_project",
    "C15_project_unproject"
   ],
   "note": ""
  },
  {
   "property": "C16",
   "status": "partial",
   "theorems": [
    "C16_project_uses_own_camera_partial",
    "C16_unproject_uses_own_camera_partial",
    "C16_project_rejects",
    "C16_project_incompatible",
    "C16_unproject_rejects",
    "C16_leading_shape_refuted"
   ],
   "note": "own-camera rule and rejections proved whenever the camera extents equal the points extents or 1; refuted when a camera extent exceeds the points extent (the output broadcasts, leading shape changes)"
  },
  {
   "property": "C17",
   "status": "partial",
   "theorems": [
    "C17_exact_for_zero_eps_partial",
    "C17_round_trip_error_partial",
    "C17_eps_refuted",
    "C17_rejects"
   ],
   "note": "exact inverse for eps = 0 and exact error formula for every eps; refuted for every non-zero eps, in particular the default 1e-6"
  },
  {
   "property": "C18",
   "status": "proved",
   "theorems": [
    "C18_inverse",
    "C18_compose",
    "C18_associative",
    "C18_relative",
    "C18_relative_transformation"
   ],
   "note": ""
  },
  {
   "property": "C19",
   "status": "partial",
   "theorems": [
    "C19_inverse_batch_refuted",
    "C19_compose_batch_refuted",
    "C19_malformed_refuted"
   ],
   "note": "refuted: batched inverse/compose raise for every batch size; malformed shapes raise other errors or nothing"
  },
  {
   "property": "C20",
   "status": "partial",
   "theorems": [
    "C20_pts_3d_partial",
    "C20_pts_3d_other_ranks_refuted",
    "C20_pts_3d_homogeneous",
    "C20_pts_3d_width",
    "C20_pts_3d_rejects",
    "C20_pts_nd",
    "C20_pts_nd_rejects",
    "C20_pointcloud_and_normals",
    "C20_pointcloud_rejects"
   ],
   "note": "transform_pts_nd, pointcloud/normals proved for all ranks; transform_pts_3d proved for B x H x W x 3, refuted for every other rank"
  },
  {
   "property": "C21",
   "status": "proved",
   "theorems": [
    "C21_functions",
    "C21_Pointclouds_transform"
   ],
   "note": ""
  },
  {
   "property": "C22",
   "status": "partial",
   "theorems": [
    "C22_matrix",
    "C22_is_rotation",
    "C22_scale",
    "C22_product",
    "C22_tum_loader",
    "C22_icl_loader",
    "C22_tum_tiny",
    "C22_rejects",
    "C22_below_threshold_refuted",
    "C22_leading_dims_flattened"
   ],
   "note": "proved for quaternions of norm >= 1e-12; refuted below the normalisation threshold"
  },
  {
   "property": "C23",
   "status": "proved",
   "theorems": [
    "C23_axisangle",
    "C23_opposite"
   ],
   "note": ""
  },
  {
   "property": "C24",
   "status": "proved",
   "theorems": [
    "C24_so3_exp",
    "C24_se3_exp",
    "C24_hat",
    "C24_so3_one_parameter_group",
    "C24_se3_one_parameter_group"
   ],
   "note": ""
  },
  {
   "property": "C25",
   "status": "partial",
   "theorems": [
    "C25_small_angles_refuted",
    "C25_error_bound_partial"
   ],
   "note": "refuted for every rotation vector of norm in (0, 1e-6); explicit error bound proved"
  },
  {
   "property": "C26",
   "status": "proved",
   "theorems": [
    "C26_mutually_inverse",
    "C26_range",
    "C26_rejects",
    "C26_meshgrid",
    "C26_meshgrid_once",
    "C26_meshgrid_normalized"
   ],
   "note": ""
  },
  {
   "property": "C27",
   "status": "proved",
   "theorems": [
    "C27_entries",
    "C27_commutes_with_perspective",
    "C27_commutes_with_project_points",
    "C27_rejects"
   ],
   "note": ""
  },
  {
   "property": "C28",
   "status": "proved",
   "theorems": [
    "C28_poses_to_transforms",
    "C28_ground_truth_provider",
    "C28_ground_truth_rejects"
   ],
   "note": ""
  },
  {
   "property": "C29",
   "status": "partial",
   "theorems": [
    "C29_vertex_coordinates",
    "C29_default_pixel_grid",
    "C29_projection_error_partial",
    "C29_projects_back_refuted"
   ],
   "note": "explicit coordinates and zero at invalid pixels proved for every history; exact projection back to the pixel refuted (inverse_intrinsics adds 1e-6 to the focal lengths), exact error proved"
  },
  {
   "property": "C30",
   "status": "proved",
   "theorems": [
    "C30_global_vertex",
    "C30_global_normal"
   ],
   "note": ""
  },
  {
   "property": "C31",
   "status": "proved",
   "theorems": [
    "C31_normal_map",
    "C31_thin_images"
   ],
   "note": "H or W below 2 raises IndexError (C31_thin_images)"
  },
  {
   "property": "C32",
   "status": "partial",
   "theorems": [
    "C32_reads_mean_inputs_partial",
    "C32_same_as_fresh_partial",
    "C32_setters_accept",
    "C32_setters_reject",
    "C32_reads_keep_inputs",
    "C32_depth_setter_partial",
    "C32_depth_setter_refuted",
    "C32_stale_mask_refuted"
   ],
   "note": "proved for every history in RHist; refuted for the depth setter on never-converted objects (AttributeError) and for stale masks"
  },
  {
   "property": "C33",
   "status": "partial",
   "theorems": [
    "C33_elements_move",
    "C33_to_first",
    "C33_to_last",
    "C33_mutually_inverse",
    "C33_idempotent",
    "C33_in_place_partial",
    "C33_clone",
    "C33_in_place_first_refuted",
    "C33_in_place_last_refuted",
    "C33_in_place_vertex_map_refuted"
   ],
   "note": "out-of-place conversions proved from every history; in-place ones proved while the mask was not read, refuted afterwards"
  },
  {
   "property": "C34",
   "status": "partial",
   "theorems": [
    "C34_selects_partial",
    "C34_maps_sliced",
    "C34_rejects",
    "C34_last_item_refuted",
    "C34_bare_slice_refuted"
   ],
   "note": "proved for ints other than -1 and slices; -1 and bare slices/lists refuted; tuple elements that are lists, tensors, None or Ellipsis not modelled"
  },
  {
   "property": "C35",
   "status": "partial",
   "theorems": [
    "C35_clouds_partial",
    "C35_frame_not_mutated",
    "C35_sequence_length",
    "C35_thin_images_refuted"
   ],
   "note": "proved for batches with at least one element and images of at least 2x2; thin images refuted (normal map raises IndexError)"
  },
  {
   "property": "C36",
   "status": "proved",
   "theorems": [
    "C36_alpha",
    "C36_alpha_bounds",
    "C36_alpha_monotone",
    "C36_alpha_rejects"
   ],
   "note": ""
  },
  {
   "property": "C37",
   "status": "proved",
   "theorems": [
    "C37_active_points",
    "C37_indices_in_range",
    "C37_to_camera_is_inverse",
    "C37_empty_map",
    "C37_rejections"
   ],
   "note": ""
  },
  {
   "property": "C38",
   "status": "partial",
   "theorems": [
    "C38_similar",
    "C38_similar_pixels_valid_partial",
    "C38_valid_depth_refuted",
    "C38_trivial",
    "C38_rejections"
   ],
   "note": "the kept rows are exactly the close and similarly oriented ones; the valid-depth clause is proved for dot_th >= 0 and refuted for dot_th < 0"
  },
  {
   "property": "C39",
   "status": "partial",
   "theorems": [
    "C39_best_partial",
    "C39_one_row_per_pixel",
    "C39_viewing_ray_refuted"
   ],
   "note": "one row per pixel, highest confidence; ties are broken by distance to the pixel's 3-D point, the docstring's distance to the viewing ray is refuted"
  },
  {
   "property": "C40",
   "status": "partial",
   "theorems": [
    "C40_small_maps_partial",
    "C40_big_maps_refuted"
   ],
   "note": "proved while all index extents are at most 2^24 (float32 modelled with Flocq rounding); refuted beyond"
  },
  {
   "property": "C41",
   "status": "partial",
   "theorems": [
    "C41_fuse",
    "C41_zero_confidence_refuted"
   ],
   "note": "proved for every complete map; the clause on unmatched points is refuted for points of confidence 0 (they are moved to the origin)"
  },
  {
   "property": "C42",
   "status": "proved",
   "theorems": [
    "C42_update",
    "C42_many_frames"
   ],
   "note": "one update and any number of frames, for dot_th >= 0 and maps of at most 2^24 points (beyond that C40 fails)"
  },
  {
   "property": "C43",
   "status": "partial",
   "theorems": [
    "C43_aggregate_pure",
    "C43_fusion_pure_partial",
    "C43_fuse_pure_partial",
    "C43_fusion_refuted"
   ],
   "note": "aggregate proved for every outcome; fusion with inplace=False modifies the map passed in as soon as a point is matched (refuted); unchanged when nothing is matched"
  },
  {
   "property": "C44",
   "status": "proved",
   "theorems": [
    "C44_aggregate_step",
    "C44_aggregate_frames"
   ],
   "note": ""
  },
  {
   "property": "C45",
   "status": "proved",
   "theorems": [
    "C45_fold",
    "C45_forward",
    "C45_client",
    "C45_ground_truth",
    "C45_ground_truth_map",
    "C45_ground_truth_poses",
    "C45_aggregated",
    "C45_ground_truth_without_poses",
    "C45_type",
    "C45_odometry_names",
    "C45_fusion_arguments"
   ],
   "note": "forward = loop of step calls (equation for every object), full characterisation of maps and poses for channels-last sequences of any length/batch/size with every odometry; under ground truth a returning call reproduces the poses for every layout, size and mapper (C45_ground_truth_poses). fusion: sizes below 2^24 as in C36-C44. channels-first maps: C80."
  },
  {
   "property": "C46",
   "status": "partial",
   "theorems": [
    "C46_step_partial",
    "C46_frame_changed",
    "C46_frame_refuted",
    "C46_map_refuted",
    "C46_composition",
    "C46_composition_affine",
    "C46_previous_without_poses",
    "C46_frame_without_poses",
    "C46_empty_map",
    "C46_same_frame",
    "C46_inputs_kept",
    "C46_types"
   ],
   "note": "localisation rule, errors (empty map, missing poses), inplace for aggregation, frames in both roles, untouched inputs proved; 'inplace=False leaves arguments alone' is false of the code (frame always re-posed, PointFusion map modified): refuted theorems. Channels-first frames: see C80."
  },
  {
   "property": "C47",
   "status": "proved",
   "theorems": [
    "C47_solve",
    "C47_solve_any_damping",
    "C47_types",
    "C47_shapes"
   ],
   "note": ""
  },
  {
   "property": "C48",
   "status": "proved",
   "theorems": [
    "C48_rows",
    "C48_exponential_curve",
    "C48_types",
    "C48_shapes"
   ],
   "note": "over the reals; the nearest-neighbour search of chamferdist is any function returning a closest target point"
  },
  {
   "property": "C49",
   "status": "partial",
   "theorems": [
    "C49_threshold_partial",
    "C49_no_threshold",
    "C49_distance_refuted"
   ],
   "note": "dist_thresh is compared with squared distances: kept = closer than sqrt(dist_thresh); the Euclidean reading is refuted"
  },
  {
   "property": "C50",
   "status": "partial",
   "theorems": [
    "C50_total",
    "C50_error_never_increases",
    "C50_one_iteration",
    "C50_iterations",
    "C50_rigid_partial",
    "C50_rigid_refuted"
   ],
   "note": "monotone error, acceptance rule, damping schedule and bookkeeping proved for all inputs; rotation part only near-rigid (factor (1+1e-12)^n), exact rigidity refuted"
  },
  {
   "property": "C51",
   "status": "partial",
   "theorems": [
    "C51_initial_transform_none_refuted",
    "C51_numiters_zero_refuted",
    "C51_icp_types",
    "C51_gradicp_types",
    "C51_initial_transform_shape",
    "C51_zero_parameters",
    "C51_positive_iterations_partial"
   ],
   "note": "refuted: initial_transform=None raises AttributeError, numiters=0 raises UnboundLocalError; total for numiters>0 and a 4x4 start"
  },
  {
   "property": "C52",
   "status": "partial",
   "theorems": [
    "C52_one_step",
    "C52_iterations",
    "C52_total",
    "C52_rigid_up_to_eps",
    "C52_no_overflow_partial",
    "C52_overflow_refuted",
    "C52_step_grows_with_error",
    "C52_damping_grows_with_error"
   ],
   "note": "factors and damping bounds proved; no-overflow proved for B, B2 in [0,1] and refuted for 2"
  },
  {
   "property": "C53",
   "status": "partial",
   "theorems": [
    "C53_frames_partial",
    "C53_frames_type",
    "C53_frames_length",
    "C53_frames_ratio",
    "C53_frames_channels_first_refuted",
    "C53_map",
    "C53_map_types",
    "C53_map_shape",
    "C53_map_zero"
   ],
   "note": "downsample_rgbdimages for channels-last frames of at least 2x2 pixels; channels-first frames always raise IndexError (refuted); downsample_pointclouds for any table"
  },
  {
   "property": "C54",
   "status": "proved",
   "theorems": [
    "C54_provide",
    "C54_first_error",
    "C54_batch_mismatch",
    "C54_no_normals",
    "C54_total"
   ],
   "note": ""
  },
  {
   "property": "C55",
   "status": "partial",
   "theorems": [
    "C55_associate",
    "C55_associate_exactly",
    "C55_maximal",
    "C55_input_order",
    "C55_sorted_by_time",
    "C55_sorted_by_time_refuted",
    "C55_not_a_number",
    "C55_empty",
    "C55_rgbd",
    "C55_rgbd_pose",
    "C55_rgbd_pose_gaps"
   ],
   "note": "soundness, one-to-one, threshold, maximality, precedence of closer pairs and the order of the result proved for all inputs; 'sorted by time' holds when keys of the same sign/width compare like their values, and is refuted in general (keys are compared as strings)"
  },
  {
   "property": "C56",
   "status": "proved",
   "theorems": [
    "C56_windows",
    "C56_tum",
    "C56_tum_sequences",
    "C56_tum_bad_file",
    "C56_icl",
    "C56_icl_sequences",
    "C56_arguments",
    "C56_bad_values",
    "C56_bad_types",
    "C56_bad_range_types",
    "C56_default_stride",
    "C56_stride_zero_refuted",
    "C56_seqlen_zero_refuted"
   ],
   "note": "windows of TUM and ICL characterised for all lengths, seqlen, dilation, stride; errors characterised; stride=0 and seqlen=0 pass validation (refuted theorems)"
  },
  {
   "property": "C57",
   "status": "partial",
   "theorems": [
    "C57_start_zero_partial",
    "C57_pose_lines_partial",
    "C57_start_refuted",
    "C57_short_pose_file_refuted"
   ],
   "note": "true for start = 0 with a long enough pose file; refuted for start > 0 and for a short pose file (poses of another frame are returned)"
  },
  {
   "property": "C58",
   "status": "partial",
   "theorems": [
    "C58_poses",
    "C58_any_request",
    "C58_request_order_refuted",
    "C58_faulty_line",
    "C58_past_end_refuted",
    "C58_cut_refuted"
   ],
   "note": "every request of lines inside the file in ascending order; descending requests, lines past the end and cut blocks refuted"
  },
  {
   "property": "C59",
   "status": "partial",
   "theorems": [
    "C59_range_partial",
    "C59_whole_scenes_partial",
    "C59_arguments",
    "C59_too_short",
    "C59_lengths_refuted",
    "C59_cut_refuted",
    "C59_past_refuted"
   ],
   "note": "range of each scene proved when all scenes are long enough; refuted: different lengths, cut ranges, start past the end"
  },
  {
   "property": "C60",
   "status": "partial",
   "theorems": [
    "C60_remap",
    "C60_palettes",
    "C60_range",
    "C60_onto",
    "C60_other_labels_refuted",
    "C60_paint_partial",
    "C60_paint_dict_refuted"
   ],
   "note": "table, palette agreement, range and surjectivity proved; labels above 40 are kept (refuted); create_label_image proved for list palettes, the dict palettes of the module raise (refuted)"
  },
  {
   "property": "C61",
   "status": "proved",
   "theorems": [
    "C61_range",
    "C61_order",
    "C61_recover",
    "C61_channels_first",
    "C61_channels_inverse",
    "C61_rank",
    "C61_types"
   ],
   "note": "all images, ranks and types; rounding of the division is an arbitrary monotone function exact on the values it represents"
  },
  {
   "property": "C62",
   "status": "partial",
   "theorems": [
    "C62_file_list",
    "C62_rows",
    "C62_separators",
    "C62_trajectory_partial",
    "C62_trajectory_matrix_partial",
    "C62_nan_refuted",
    "C62_blank_line_refuted",
    "C62_not_a_number"
   ],
   "note": "files of lines without NaN or blank comment-free lines; refuted: a NaN line raises NameError, a blank line raises IndexError; a line that begins with a separator is outside the trajectory model"
  },
  {
   "property": "C63",
   "status": "partial",
   "theorems": [
    "C63_freeze",
    "C63_defrost",
    "C63_freeze_defrost_partial",
    "C63_assignment",
    "C63_history_partial",
    "C63_item_refuted",
    "C63_merge_refuted",
    "C63_list_refuted",
    "C63_nested_in_list_refuted",
    "C63_exact_undo_refuted"
   ],
   "note": "Attribute assignment at any depth and any history of attribute assignments, reads, clones, dumps, freezes and registrations leave a frozen config's entries unchanged. Refuted in the code: item assignment and merges ignore the frozen flag (C63_item_refuted, C63_merge_refuted, C63_list_refuted), freeze does not reach CfgNodes inside lists, defrost is an exact undo only when nothing was frozen before."
  },
  {
   "property": "C64",
   "status": "partial",
   "theorems": [
    "C64_leaves",
    "C64_subtrees",
    "C64_rest_kept",
    "C64_errors",
    "C64_unknown_key",
    "C64_not_a_config",
    "C64_terminates",
    "C64_from_file",
    "C64_bad_file",
    "C64_failure_refuted",
    "C64_own_clone_refuted",
    "C64_new_subtree_refuted"
   ],
   "note": "Proved for tree-shaped configurations without plain dicts and an other config that shares no dict with the target, below the recursion limit. Merging that fails is not atomic, strings are decoded again on every merge, strings inside new subtrees are not decoded (refuted theorems)."
  },
  {
   "property": "C65",
   "status": "proved",
   "theorems": [
    "C65_types",
    "C65_mismatch",
    "C65_list_types",
    "C65_new_key_refuted"
   ],
   "note": "Types of all existing entries are kept whatever the outcome; a value that cannot be cast makes the merge fail. Exceptions: list and tuple are converted to each other (cast); new keys (new_allowed) can get any type (C65_new_key_refuted)."
  },
  {
   "property": "C66",
   "status": "partial",
   "theorems": [
    "C66_overrides",
    "C66_one_override",
    "C66_in_order",
    "C66_odd_length",
    "C66_unknown_key",
    "C66_failure_partial",
    "C66_failure_refuted",
    "C66_shared_list_refuted"
   ],
   "note": "In-order overrides, frame, odd length, unknown key, mismatch are proved. On failure the pairs before the failing one stay applied (C66_failure_partial; atomicity refuted). List values are stored by reference (refuted)."
  },
  {
   "property": "C67",
   "status": "partial",
   "theorems": [
    "C67_merge_deprecated_partial",
    "C67_merge_renamed_partial",
    "C67_merge_key_errors",
    "C67_list_deprecated",
    "C67_list_renamed",
    "C67_register_deprecated",
    "C67_register_renamed",
    "C67_key_is",
    "C67_present_key_refuted",
    "C67_new_key_refuted"
   ],
   "note": "merge_from_list: proved in full. merge_from_other_cfg: the registries are consulted only for keys that the config does not have and where new keys are not allowed (C67_present_key_refuted, C67_new_key_refuted)."
  },
  {
   "property": "C68",
   "status": "partial",
   "theorems": [
    "C68_clone",
    "C68_independent",
    "C68_dump_load_partial",
    "C68_tuples",
    "C68_attributes",
    "C68_round_trip_refuted"
   ],
   "note": "clone: proved (equal tree with attributes, no object shared). dump/load: same configuration up to tuples, which come back as lists, and CfgNode attributes, which are lost; assumes that yaml reads back what it wrote (yaml_faithful)."
  },
  {
   "property": "C69",
   "status": "partial",
   "theorems": [
    "C69_attribute_is_item",
    "C69_assignment",
    "C69_rejected",
    "C69_method_names_refuted"
   ],
   "note": "Proved for names that are not attributes of the class; names of methods are stored but shadowed (refuted). Double-underscore names are left open."
  },
  {
   "property": "C70",
   "status": "proved",
   "theorems": [
    "C70_constructor",
    "C70_invalid_value",
    "C70_not_a_dict",
    "C70_empty"
   ],
   "note": "For every init value that is tree-readable and below the recursion limit."
  },
  {
   "property": "C71",
   "status": "partial",
   "theorems": [
    "C71_tum",
    "C71_icl",
    "C71_scannet_partial",
    "C71_label_shape_refuted",
    "C71_index_error",
    "C71_negative_index"
   ],
   "note": "Proved for TUM and ICL. ScanNet labels have shape (L,H,W,1), documented (L,H,W): refuted. Images of one sequence have one size."
  },
  {
   "property": "C72",
   "status": "partial",
   "theorems": [
    "C72_tum",
    "C72_icl_partial",
    "C72_scannet",
    "C72_agree",
    "C72_short_file_refuted"
   ],
   "note": "TUM and ScanNet proved; ICL if the pose file covers the item (a short file is not noticed: refuted)."
  },
  {
   "property": "C73",
   "status": "proved",
   "theorems": [
    "C73_tum",
    "C73_icl",
    "C73_scannet",
    "C73_native_size",
    "C73_depth_values",
    "C73_color_range",
    "C73_projection_scaled",
    "C73_tum_frames"
   ],
   "note": "cv2.resize enters through what is stated in ItemSpec (nearest_ok, linear_ok): target size, nearest repeats pixels, linear stays in range, same size unchanged."
  },
  {
   "property": "C74",
   "status": "partial",
   "theorems": [
    "C74_tum",
    "C74_tum_all",
    "C74_tum_requested",
    "C74_tum_accepted_partial",
    "C74_tum_missing",
    "C74_tum_errors",
    "C74_tum_twice_refuted",
    "C74_tum_newline_refuted",
    "C74_tum_other_folder_refuted",
    "C74_tum_index_refuted",
    "C74_tum_contents",
    "C74_icl",
    "C74_icl_all",
    "C74_icl_requested",
    "C74_icl_accepted_partial",
    "C74_icl_basedir_refuted",
    "C74_icl_contents",
    "C74_scannet",
    "C74_scannet_missing_refuted",
    "C74_selection_type"
   ],
   "note": "Characterised by iff for TUM and ICL. Refuted: repeated names, name files ending in a newline, unrelated folders in a TUM basedir, ICL basedirs containing living_room_traj, missing ScanNet scenes (ignored). glob and natsorted of ScanNet metadata are given as an ordered list."
  },
  {
   "property": "C75",
   "status": "proved",
   "theorems": [
    "C75_icp",
    "C75_gradicp",
    "C75_zero_error",
    "C75_on_target",
    "C75_none_kept",
    "C75_providers"
   ],
   "note": "Exact reals. The zero twist is the unique solution of the damped normal equations at a balanced position; its exponential is the identity."
  },
  {
   "property": "C76",
   "status": "proved",
   "theorems": [
    "C76_own_points",
    "C76_still_camera",
    "C76_tiny_focal_refuted"
   ],
   "note": "exact real arithmetic; the refuted theorem shows that the bound on the focal length is needed"
  },
  {
   "property": "C77",
   "status": "proved",
   "theorems": [
    "C77_average",
    "C77_no_growth"
   ],
   "note": "exact real arithmetic; the hypothesis on the normals excludes pixels whose normal is zero when dot_th >= 0"
  },
  {
   "property": "C78",
   "status": "proved",
   "theorems": [
    "C78_same_sequence",
    "C78_alone",
    "C78_zero_confidence_refuted"
   ],
   "note": "Two runs from the empty map related frame by frame: the same correspondences, registration and fused cloud for the same sequence. Over the reals and for channels-last frames, as in C45."
  },
  {
   "property": "C79",
   "status": "proved",
   "theorems": [
    "C79_convex_hull",
    "C79_colours",
    "C79_normals",
    "C79_confidence",
    "C79_normals_shrink",
    "C79_unit_normals_refuted"
   ],
   "note": "Induction over the frames of a run; a merge is a convex combination because confidences are positive (no point of a run has confidence 0). Over the reals and for channels-last frames, as in C45."
  },
  {
   "property": "C80",
   "status": "partial",
   "theorems": [
    "C80_ground_truth",
    "C80_same_in_both_layouts",
    "C80_one_frame",
    "C80_step",
    "C80_registration_step_refuted",
    "C80_registration_refuted",
    "C80_fusion_step_refuted",
    "C80_fusion_refuted"
   ],
   "note": "ground truth + aggregation, and single frames: proved for both layouts; registration and fusion of channels-first frames always raise (refuted theorems). Not covered: PointFusion on channels-first images exactly 3 pixels wide, channels-first frames of width 1 with registration."
  },
  {
   "property": "C81",
   "status": "proved",
   "theorems": [
    "C81_geometry",
    "C81_linear"
   ],
   "note": "geometry for every odometry and mapper, including which runs fail (the error itself may be any); linearity by the weights of each fusion step, which depend on the geometry only. Real arithmetic: float rounding not modelled."
  },
  {
   "property": "C82",
   "status": "partial",
   "theorems": [
    "C82_maps",
    "C82_depth_derivative",
    "C82_depth_kink_refuted",
    "C82_depth_jump_refuted",
    "C82_aggregate",
    "C82_fusion",
    "C82_fusion_still",
    "C82_fusion_step",
    "C82_fusion_loop",
    "C82_association_refuted"
   ],
   "note": "Proved where no depth is 0 and no fusion decision is on its boundary (with ground-truth odometry; real numbers, not autograd); differentiability everywhere is refuted (C82_depth_kink_refuted, C82_depth_jump_refuted, C82_association_refuted)."
  },
  {
   "property": "C83",
   "status": "proved",
   "theorems": [
    "C83_forward"
   ],
   "note": "C83_forward: complete for ground-truth odometry, both mapping modes. Exact real arithmetic (rounding would break exact equivariance). The condition 0 <= dot_th is the documented range of angle_th (0 to 90 degrees); outside it pixels without depth, which all have the world origin as vertex, can be fused. ICP odometry: see C84."
  },
  {
   "property": "C84",
   "status": "proved",
   "theorems": [
    "C84_icp",
    "C84_gradicp",
    "C84_shift_refuted",
    "C84_slam"
   ],
   "note": "Exact real arithmetic; the linear system of an iteration has a unique solution because the damping is positive. A nearest-neighbour search that breaks ties by anything but distances and indices is not covered. The failing case of a run is a frame with valid pixels on the grid while no map point is visible on the grid: the model does not say what the library does there and reports it in both runs."
  },
  {
   "property": "C85",
   "status": "proved",
   "theorems": [
    "C85_valid",
    "C85_private",
    "C85_nowrite",
    "C85_call",
    "C85_call_device",
    "C85_call_uses",
    "C85_make",
    "C85_copy_forward",
    "C85_copy_backward",
    "C85_append",
    "C85_append_device",
    "C85_append_self",
    "C85_append_self_shows",
    "C85_to_self",
    "C85_to_copy",
    "C85_to_move",
    "C85_to_alias",
    "C85_to_refuted",
    "C85_detach",
    "C85_detach_refuted",
    "C85_view_value",
    "C85_getitem",
    "C85_ctor_keeps"
   ],
   "note": ""
  },
  {
   "property": "C86",
   "status": "proved",
   "theorems": [
    "C86_valid",
    "C86_private",
    "C86_nowrite",
    "C86_call",
    "C86_setter_keeps",
    "C86_make",
    "C86_make_value",
    "C86_copy_forward",
    "C86_copy_backward",
    "C86_to_self",
    "C86_to_same",
    "C86_detach",
    "C86_getitem_live",
    "C86_getitem_uses",
    "C86_ctor_keeps",
    "C86_ctor_device",
    "C86_cached",
    "C86_stale_refuted",
    "C86_follows",
    "C86_does_not_follow"
   ],
   "note": ""
  },
  {
   "property": "C87",
   "status": "partial",
   "theorems": [
    "C87_tape",
    "C87_unhomogenize",
    "C87_unhomogenize_grad",
    "C87_unhomogenize_infinity_refuted",
    "C87_project",
    "C87_project_grad",
    "C87_focal",
    "C87_centre",
    "C87_focal_refuted",
    "C87_axisangle",
    "C87_axisangle_grad",
    "C87_axisangle_identity_refuted",
    "C87_normalize",
    "C87_normalize_grad",
    "C87_normal",
    "C87_normal_grad",
    "C87_rodrigues",
    "C87_alpha",
    "C87_alpha_grad",
    "C87_alpha_refuted",
    "C87_fuse",
    "C87_fuse_grad",
    "C87_damp",
    "C87_damp_grad",
    "C87_gate",
    "C87_gate_grad",
    "C87_pixel",
    "C87_pixel_refuted"
   ],
   "note": "inf and nan are values of the model (xr); finite values are exact reals, so overflow and rounding are outside. The element-wise formulas are written as tapes of PyTorch operations; torch.matmul, solve, grid_sample and indexing are not tapes. Two parts are refuted: n_unhomog, n_axisangle; and the inputs excluded by the statement are shown to give inf or nan."
  },
  {
   "property": "C88",
   "status": "partial",
   "theorems": [
    "C88_tape",
    "C88_unhomogenize",
    "C88_project",
    "C88_focal",
    "C88_centre",
    "C88_axisangle",
    "C88_normalize",
    "C88_normal",
    "C88_rodrigues",
    "C88_alpha",
    "C88_fuse",
    "C88_damp",
    "C88_gate",
    "C88_pixel"
   ],
   "note": "the backward formulas are those of derivatives.yaml (PyTorch 1.6), trusted as part of the model; the formulas f_... are written with the value-level models of the same code. Differentiability of whole SLAM runs is C82; here it is what autograd accumulates for the element-wise formulas only. At qw = 0 (rotation by pi) quaternion_to_axisangle is a switching point and is excluded."
  },
  {
   "property": "C89",
   "status": "partial",
   "theorems": [
    "C89_value",
    "C89_gradient",
    "C89_missing",
    "C89_nan_depth_refuted"
   ],
   "note": "C89_value, C89_gradient and C89_missing prove the claim for every real depth. Not proved because false: nan depths (C89_nan_depth_refuted): the mask is multiplied in, and 0 * nan is nan, so a nan depth makes a nan vertex."
  },
  {
   "property": "C90",
   "status": "partial",
   "theorems": [
    "C90_open3d",
    "C90_plotly",
    "C90_unit_range",
    "C90_unit_kept",
    "C90_unit_scaled",
    "C90_bytes_range",
    "C90_agree",
    "C90_not_int",
    "C90_bad_index",
    "C90_no_points_refuted",
    "C90_negative_refuted",
    "C90_sample_colour_refuted",
    "C90_threshold_refuted"
   ],
   "note": "Proved for every reachable object and every permutation: number of points and which, row pairing of points, normals and colours, colour ranges, agreement of the two exports, object unchanged, exceptions. Refuted: an empty selection with colours raises RuntimeError (max of an empty tensor); a negative limit is accepted and drops that many points; the colour of a point depends on which other points are sampled; a largest value of exactly 1.1 gives white in open3d and black in plotly."
  },
  {
   "property": "C91",
   "status": "partial",
   "theorems": [
    "C91_frames",
    "C91_rgb_only",
    "C91_rejects",
    "C91_no_depth_refuted",
    "C91_channels_first_refuted",
    "C91_channels_first_small_refuted"
   ],
   "note": "Proved for channels-last objects with nonnegative depths of which one is positive: frames, order, bytes, scale, no wrap-around, object unchanged, exceptions. Refuted: a sequence whose depths are all zero raises OverflowError (log10 0); channels-first images raise, or, if 3 or 4 pixels wide, give pictures of three rows with the columns as channels. Not modelled: layout, sliders and the JPEG encoding of the frames."
  },
  {
   "property": "C92",
   "status": "proved",
   "theorems": [
    "C92_layout",
    "C92_order",
    "C92_faithful",
    "C92_pure",
    "C92_cycle",
    "C92_types_lost",
    "C92_forged"
   ],
   "note": "C92_layout (keys without line breaks), C92_order (no restriction), C92_faithful (plain keys, any values), C92_pure, C92_cycle. C92_types_lost and C92_forged show the limits: the text does not tell the int 1 from the str '1', and with a colon in a key different configs can have the same text. The text Python gives to a non-config value is a parameter; __repr__ is not modelled."
  },
  {
   "property": "C93",
   "status": "partial",
   "theorems": [
    "C93_value",
    "C93_gradient",
    "C93_missing",
    "C93_hole",
    "C93_degenerate",
    "C93_nan_spreads_refuted"
   ],
   "note": "Proved for the whole chain of operations (intrinsics, three vertices, differences, cross product, norm, quotient, mask). The derivative is claimed where the three depths are not 0 (the mask has a corner there) and the cross product is not 0. Refuted part: a nan depth of the right neighbour makes the normal nan, also at pixels without depth, since 0 * nan = nan."
  }
 ]
}