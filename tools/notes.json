{
 "C01": {
  "status": "proved",
  "note": "C01_all_empty_refuted shows why the default-size round trip needs a non-empty cloud"
 },
 "C03": {
  "note": "holds for every history in Hist; refuted for normals/colors/features list setters after a padded read (typo _noramls_padded)"
 },
 "C04": {
  "note": "holds for every history in Hist; refuted when an operand broadcasts beyond (B,N,3)"
 },
 "C05": {
  "note": "holds for every history in Hist; refuted after points_list is assigned on a padded-only object"
 },
 "C07": {
  "note": "proved when points_list was read just before or all clouds have equal size; refuted otherwise (clone rebuilds from the padded tensor)"
 },
 "C08": {
  "note": "proved when points_list was read just before or all clouds have equal size; refuted otherwise. Absence of sharing is by construction of the value model"
 },
 "C11": {
  "note": "padded setters: present attributes; list setters: while no padded view exists, or points_list after reading the lists; rejection in all states; feature widths refuted"
 },
 "C12": {
  "note": "holds for every history in Hist; refuted after has_x was asked before x was assigned"
 },
 "C13": {
  "note": "points_padded setter proved; points_list setter proved after reading the lists, refuted otherwise"
 },
 "C16": {
  "note": "own-camera rule and rejections proved whenever the camera extents equal the points extents or 1; refuted when a camera extent exceeds the points extent (the output broadcasts, leading shape changes)"
 },
 "C17": {
  "note": "exact inverse for eps = 0 and exact error formula for every eps; refuted for every non-zero eps, in particular the default 1e-6"
 },
 "C19": {
  "note": "refuted: batched inverse/compose raise for every batch size; malformed shapes raise other errors or nothing"
 },
 "C20": {
  "note": "transform_pts_nd, pointcloud/normals proved for all ranks; transform_pts_3d proved for B x H x W x 3, refuted for every other rank"
 },
 "C22": {
  "note": "proved for quaternions of norm >= 1e-12; refuted below the normalisation threshold"
 },
 "C25": {
  "note": "refuted for every rotation vector of norm in (0, 1e-6); explicit error bound proved"
 },
 "C29": {
  "note": "explicit coordinates and zero at invalid pixels proved for every history; exact projection back to the pixel refuted (inverse_intrinsics adds 1e-6 to the focal lengths), exact error proved"
 },
 "C31": {
  "status": "proved",
  "note": "H or W below 2 raises IndexError (C31_thin_images)"
 },
 "C32": {
  "note": "proved for every history in RHist; refuted for the depth setter on never-converted objects (AttributeError) and for stale masks"
 },
 "C33": {
  "note": "out-of-place conversions proved from every history; in-place ones proved while the mask was not read, refuted afterwards"
 },
 "C34": {
  "note": "proved for ints other than -1 and slices; -1 and bare slices/lists refuted; tuple elements that are lists, tensors, None or Ellipsis not modelled"
 },
 "C35": {
  "note": "proved for batches with at least one element and images of at least 2x2; thin images refuted (normal map raises IndexError)"
 },
 "C38": {
  "note": "the kept rows are exactly the close and similarly oriented ones; the valid-depth clause is proved for dot_th >= 0 and refuted for dot_th < 0"
 },
 "C39": {
  "note": "one row per pixel, highest confidence; ties are broken by distance to the pixel's 3-D point, the docstring's distance to the viewing ray is refuted"
 },
 "C40": {
  "note": "proved while all index extents are at most 2^24 (float32 modelled with Flocq rounding); refuted beyond"
 },
 "C41": {
  "note": "proved for every complete map; the clause on unmatched points is refuted for points of confidence 0 (they are moved to the origin)"
 },
 "C42": {
  "status": "proved",
  "note": "one update and any number of frames, for dot_th >= 0 and maps of at most 2^24 points (beyond that C40 fails)"
 },
 "C43": {
  "note": "aggregate proved for every outcome; fusion with inplace=False modifies the map passed in as soon as a point is matched (refuted); unchanged when nothing is matched"
 },
 "C48": {
  "note": "over the reals; the nearest-neighbour search of chamferdist is any function returning a closest target point"
 },
 "C49": {
  "note": "dist_thresh is compared with squared distances: kept = closer than sqrt(dist_thresh); the Euclidean reading is refuted",
  "status": "partial"
 },
 "C50": {
  "note": "monotone error, acceptance rule, damping schedule and bookkeeping proved for all inputs; rotation part only near-rigid (factor (1+1e-12)^n), exact rigidity refuted",
  "status": "partial"
 },
 "C51": {
  "note": "refuted: initial_transform=None raises AttributeError, numiters=0 raises UnboundLocalError; total for numiters>0 and a 4x4 start",
  "status": "partial"
 },
 "C52": {
  "note": "factors and damping bounds proved; no-overflow proved for B, B2 in [0,1] and refuted for 2",
  "status": "partial"
 },
 "C53": {
  "note": "downsample_rgbdimages for channels-last frames of at least 2x2 pixels; channels-first frames always raise IndexError (refuted); downsample_pointclouds for any table",
  "status": "partial"
 },
 "C45": {
  "note": "forward = loop of step calls (equation for every object), full characterisation of maps and poses for channels-last sequences of any length/batch/size with every odometry; under ground truth a returning call reproduces the poses for every layout, size and mapper (C45_ground_truth_poses). fusion: sizes below 2^24 as in C36-C44. channels-first maps: C80.",
  "status": "proved"
 },
 "C46": {
  "note": "localisation rule, errors (empty map, missing poses), inplace for aggregation, frames in both roles, untouched inputs proved; 'inplace=False leaves arguments alone' is false of the code (frame always re-posed, PointFusion map modified): refuted theorems. Channels-first frames: see C80.",
  "status": "partial"
 },
 "C55": {
  "note": "soundness, one-to-one, threshold, maximality, precedence of closer pairs and the order of the result proved for all inputs; 'sorted by time' holds when keys of the same sign/width compare like their values, and is refuted in general (keys are compared as strings)",
  "status": "partial"
 },
 "C56": {
  "note": "windows of TUM and ICL characterised for all lengths, seqlen, dilation, stride; errors characterised; stride=0 and seqlen=0 pass validation (refuted theorems)",
  "status": "proved"
 },
 "C57": {
  "note": "true for start = 0 with a long enough pose file; refuted for start > 0 and for a short pose file (poses of another frame are returned)",
  "status": "partial"
 },
 "C58": {
  "note": "every request of lines inside the file in ascending order; descending requests, lines past the end and cut blocks refuted",
  "status": "partial"
 },
 "C59": {
  "note": "range of each scene proved when all scenes are long enough; refuted: different lengths, cut ranges, start past the end",
  "status": "partial"
 },
 "C60": {
  "note": "table, palette agreement, range and surjectivity proved; labels above 40 are kept (refuted); create_label_image proved for list palettes, the dict palettes of the module raise (refuted)",
  "status": "partial"
 },
 "C61": {
  "note": "all images, ranks and types; rounding of the division is an arbitrary monotone function exact on the values it represents",
  "status": "proved"
 },
 "C62": {
  "note": "files of lines without NaN or blank comment-free lines; refuted: a NaN line raises NameError, a blank line raises IndexError; a line that begins with a separator is outside the trajectory model",
  "status": "partial"
 },
 "C63": {
  "note": "Attribute assignment at any depth and any history of attribute assignments, reads, clones, dumps, freezes and registrations leave a frozen config's entries unchanged. Refuted in the code: item assignment and merges ignore the frozen flag (C63_item_refuted, C63_merge_refuted, C63_list_refuted), freeze does not reach CfgNodes inside lists, defrost is an exact undo only when nothing was frozen before.",
  "status": "partial"
 },
 "C64": {
  "note": "Proved for tree-shaped configurations without plain dicts and an other config that shares no dict with the target, below the recursion limit. Merging that fails is not atomic, strings are decoded again on every merge, strings inside new subtrees are not decoded (refuted theorems).",
  "status": "partial"
 },
 "C65": {
  "note": "Types of all existing entries are kept whatever the outcome; a value that cannot be cast makes the merge fail. Exceptions: list and tuple are converted to each other (cast); new keys (new_allowed) can get any type (C65_new_key_refuted).",
  "status": "proved"
 },
 "C66": {
  "note": "In-order overrides, frame, odd length, unknown key, mismatch are proved. On failure the pairs before the failing one stay applied (C66_failure_partial; atomicity refuted). List values are stored by reference (refuted).",
  "status": "partial"
 },
 "C67": {
  "note": "merge_from_list: proved in full. merge_from_other_cfg: the registries are consulted only for keys that the config does not have and where new keys are not allowed (C67_present_key_refuted, C67_new_key_refuted).",
  "status": "partial"
 },
 "C68": {
  "note": "clone: proved (equal tree with attributes, no object shared). dump/load: same configuration up to tuples, which come back as lists, and CfgNode attributes, which are lost; assumes that yaml reads back what it wrote (yaml_faithful).",
  "status": "partial"
 },
 "C69": {
  "note": "Proved for names that are not attributes of the class; names of methods are stored but shadowed (refuted). Double-underscore names are left open.",
  "status": "partial"
 },
 "C70": {
  "note": "For every init value that is tree-readable and below the recursion limit.",
  "status": "proved"
 },
 "C71": {
  "status": "partial",
  "note": "Proved for TUM and ICL. ScanNet labels have shape (L,H,W,1), documented (L,H,W): refuted. Images of one sequence have one size."
 },
 "C72": {
  "status": "partial",
  "note": "TUM and ScanNet proved; ICL if the pose file covers the item (a short file is not noticed: refuted)."
 },
 "C73": {
  "status": "proved",
  "note": "cv2.resize enters through what is stated in ItemSpec (nearest_ok, linear_ok): target size, nearest repeats pixels, linear stays in range, same size unchanged."
 },
 "C74": {
  "note": "Characterised by iff for TUM and ICL. Refuted: repeated names, name files ending in a newline, unrelated folders in a TUM basedir, ICL basedirs containing living_room_traj, missing ScanNet scenes (ignored). glob and natsorted of ScanNet metadata are given as an ordered list.",
  "status": "partial"
 },
 "C75": {
  "note": "Exact reals. The zero twist is the unique solution of the damped normal equations at a balanced position; its exponential is the identity.",
  "status": "proved"
 },
 "C76": {
  "note": "exact real arithmetic; the refuted theorem shows that the bound on the focal length is needed",
  "status": "proved"
 },
 "C77": {
  "note": "exact real arithmetic; the hypothesis on the normals excludes pixels whose normal is zero when dot_th >= 0",
  "status": "proved"
 },
 "C78": {
  "note": "Two runs from the empty map related frame by frame: the same correspondences, registration and fused cloud for the same sequence. Over the reals and for channels-last frames, as in C45.",
  "status": "proved"
 },
 "C79": {
  "note": "Induction over the frames of a run; a merge is a convex combination because confidences are positive (no point of a run has confidence 0). Over the reals and for channels-last frames, as in C45.",
  "status": "proved"
 },
 "C80": {
  "note": "ground truth + aggregation, and single frames: proved for both layouts; registration and fusion of channels-first frames always raise (refuted theorems). Not covered: PointFusion on channels-first images exactly 3 pixels wide, channels-first frames of width 1 with registration.",
  "status": "partial"
 },
 "C81": {
  "note": "geometry for every odometry and mapper, including which runs fail (the error itself may be any); linearity by the weights of each fusion step, which depend on the geometry only. Real arithmetic: float rounding not modelled.",
  "status": "proved"
 },
 "C82": {
  "note": "Proved where no depth is 0 and no fusion decision is on its boundary (with ground-truth odometry; real numbers, not autograd); differentiability everywhere is refuted (C82_depth_kink_refuted, C82_depth_jump_refuted, C82_association_refuted).",
  "status": "partial"
 },
 "C83": {
  "note": "C83_forward: complete for ground-truth odometry, both mapping modes. Exact real arithmetic (rounding would break exact equivariance). The condition 0 <= dot_th is the documented range of angle_th (0 to 90 degrees); outside it pixels without depth, which all have the world origin as vertex, can be fused. ICP odometry: see C84.",
  "status": "proved"
 },
 "C84": {
  "note": "Exact real arithmetic; the linear system of an iteration has a unique solution because the damping is positive. A nearest-neighbour search that breaks ties by anything but distances and indices is not covered. The failing case of a run is a frame with valid pixels on the grid while no map point is visible on the grid: the model does not say what the library does there and reports it in both runs.",
  "status": "proved"
 },
 "C85": {
  "note": "",
  "status": "proved"
 },
 "C86": {
  "note": "",
  "status": "proved"
 },
 "C87": {
  "note": "inf and nan are values of the model (xr); finite values are exact reals, so overflow and rounding are outside. The element-wise formulas are written as tapes of PyTorch operations; torch.matmul, solve, grid_sample and indexing are not tapes. Two parts are refuted: n_unhomog, n_axisangle; and the inputs excluded by the statement are shown to give inf or nan.",
  "status": "partial"
 },
 "C88": {
  "note": "the backward formulas are those of derivatives.yaml (PyTorch 1.6), trusted as part of the model; the formulas f_... are written with the value-level models of the same code. Differentiability of whole SLAM runs is C82; here it is what autograd accumulates for the element-wise formulas only. At qw = 0 (rotation by pi) quaternion_to_axisangle is a switching point and is excluded.",
  "status": "partial"
 },
 "C89": {
  "note": "C89_value, C89_gradient and C89_missing prove the claim for every real depth. Not proved because false: nan depths (C89_nan_depth_refuted): the mask is multiplied in, and 0 * nan is nan, so a nan depth makes a nan vertex.",
  "status": "partial"
 },
 "C90": {
  "note": "Proved for every reachable object and every permutation: number of points and which, row pairing of points, normals and colours, colour ranges, agreement of the two exports, object unchanged, exceptions. Refuted: an empty selection with colours raises RuntimeError (max of an empty tensor); a negative limit is accepted and drops that many points; the colour of a point depends on which other points are sampled; a largest value of exactly 1.1 gives white in open3d and black in plotly.",
  "status": "partial"
 },
 "C91": {
  "note": "Proved for channels-last objects with nonnegative depths of which one is positive: frames, order, bytes, scale, no wrap-around, object unchanged, exceptions. Refuted: a sequence whose depths are all zero raises OverflowError (log10 0); channels-first images raise, or, if 3 or 4 pixels wide, give pictures of three rows with the columns as channels. Not modelled: layout, sliders and the JPEG encoding of the frames.",
  "status": "partial"
 },
 "C92": {
  "note": "C92_layout (keys without line breaks), C92_order (no restriction), C92_faithful (plain keys, any values), C92_pure, C92_cycle. C92_types_lost and C92_forged show the limits: the text does not tell the int 1 from the str '1', and with a colon in a key different configs can have the same text. The text Python gives to a non-config value is a parameter; __repr__ is not modelled.",
  "status": "proved"
 },
 "C93": {
  "note": "Proved for the whole chain of operations (intrinsics, three vertices, differences, cross product, norm, quotient, mask). The derivative is claimed where the three depths are not 0 (the mask has a corner there) and the cross product is not 0. Refuted part: a nan depth of the right neighbour makes the normal nan, also at pixels without depth, since 0 * nan = nan.",
  "status": "partial"
 }
}