{"id": "C01", "title": "List/padded conversion is lossless", "statement": "Padding a list of per-batch tensors to a common size and splitting the result with the original lengths gives back the original list; every padded slab has the common (or requested) size, its first N_b rows are the b-th tensor and all remaining entries equal the pad value.", "quantifier": "every list of row-tensors of any lengths (including empty ones) with a common width, every pad value, every admissible pad size", "why_tests_cant": "the number of clouds and their lengths are unbounded; tests use a handful of sizes", "anchors": ["gradslam/structures/structutils.py:list_to_padded", "gradslam/structures/structutils.py:padded_to_list"]}
{"id": "C02", "title": "Pointclouds construction accepts exactly the consistent inputs and the fresh object is coherent", "statement": "Pointclouds(...) raises for inconsistent shapes/lengths/types of points, normals, colors or features and succeeds otherwise; immediately after success the list view returns the input clouds, the padded view is their zero padding, num_points_per_cloud are their lengths and the non-pad mask is true exactly at real points.", "quantifier": "every combination of points/normals/colors/features given as None, list or batched tensor, of any sizes", "why_tests_cant": "input combinations and sizes are unbounded", "anchors": ["gradslam/structures/pointclouds.py:Pointclouds.__init__", "gradslam/structures/pointclouds.py:Pointclouds.nonpad_mask"]}
{"id": "C03", "title": "List view and padded view always describe the same clouds", "statement": "Whatever sequence of in-place operations, setters, appends and reads a Pointclouds object went through, points_list[b] equals the first N_b rows of points_padded[b], and likewise for normals, colors and features.", "quantifier": "every reachable Pointclouds state: every finite history of public operations with every argument", "why_tests_cant": "the caches make the outcome depend on the order of the whole history; histories are unbounded", "anchors": ["gradslam/structures/pointclouds.py:Pointclouds._compute_padded", "gradslam/structures/pointclouds.py:Pointclouds.points_list", "gradslam/structures/pointclouds.py:Pointclouds.normals_list"]}
{"id": "C04", "title": "Padding stays zero and the mask exact", "statement": "In every reachable Pointclouds state the padded views are zero at every index past the number of points of the cloud, and nonpad_mask is true exactly at the indices below it.", "quantifier": "every finite history of public operations with every argument", "why_tests_cant": "histories and sizes are unbounded; a single op that leaks into padding corrupts later masked ops", "anchors": ["gradslam/structures/pointclouds.py:Pointclouds.nonpad_mask", "gradslam/structures/pointclouds.py:Pointclouds.offset_", "gradslam/structures/pointclouds.py:Pointclouds.rotate_", "gradslam/structures/pointclouds.py:Pointclouds.pinhole_projection_"]}
{"id": "C05", "title": "Reading a Pointclouds never changes what it contains", "statement": "Reading any view or flag (lists, padded, counts, mask, has_*, len) any number of times in any order leaves the value returned by every later read unchanged.", "quantifier": "every reachable state and every sequence of reads", "why_tests_cant": "reads populate lazily computed caches, so a read may alter later reads depending on history", "anchors": ["gradslam/structures/pointclouds.py:Pointclouds.points_list", "gradslam/structures/pointclouds.py:Pointclouds.points_padded", "gradslam/structures/pointclouds.py:Pointclouds._compute_padded", "gradslam/structures/pointclouds.py:Pointclouds.has_normals"]}
{"id": "C06", "title": "Arithmetic and rigid operations act pointwise", "statement": "offset/scale/rotate/transform/pinhole_projection and the operators +,-,*,/,@ map each real point of each cloud through the corresponding mathematical function (p+t, s*p, R p or p R, R p + t, projection), rotate normals with the points, and change nothing else: counts, colors, features and batch order are preserved.", "quantifier": "every point cloud batch (any sizes) whose views are coherent (C03), every operand whose shape broadcasts to the padded shape (B,N,3) resp. is one (k,k) or (B,k,k) matrix", "why_tests_cant": "quantifies over all clouds and operands, and over internal representation states in which the operation runs", "anchors": ["gradslam/structures/pointclouds.py:Pointclouds.offset_", "gradslam/structures/pointclouds.py:Pointclouds.scale_", "gradslam/structures/pointclouds.py:Pointclouds.rotate_", "gradslam/structures/pointclouds.py:Pointclouds.transform_", "gradslam/structures/pointclouds.py:Pointclouds.__add__", "gradslam/structures/pointclouds.py:Pointclouds.__matmul__"]}
{"id": "C07", "title": "Out-of-place operations equal in-place ones on a copy and leave the original alone", "statement": "offset/scale/rotate/transform/+,-,*,/,@ return an object observably equal to the result of the in-place version on the same clouds, and the receiver's observable value is unchanged.", "quantifier": "every reachable state of the receiver and every accepted operand", "why_tests_cant": "depends on the receiver's history through its caches", "anchors": ["gradslam/structures/pointclouds.py:Pointclouds.clone", "gradslam/structures/pointclouds.py:Pointclouds.rotate", "gradslam/structures/pointclouds.py:Pointclouds.offset"]}
{"id": "C08", "title": "clone() is observably equal to the original", "statement": "The object returned by clone() (and detach()) has the same lists, padded views, counts, mask and flags as the original, and later operations on one do not affect the other.", "quantifier": "every reachable Pointclouds state", "why_tests_cant": "the copy is rebuilt from whichever cache happens to be present, so the result depends on the history", "anchors": ["gradslam/structures/pointclouds.py:Pointclouds.clone", "gradslam/structures/pointclouds.py:Pointclouds.detach"]}
{"id": "C09", "title": "append_points concatenates cloud by cloud", "statement": "After pc.append_points(other), cloud b holds pc's old points followed by other's points, with normals/colors/features aligned in the same way and counts added; other is unchanged; an append with mismatched batch size or attributes raises and leaves pc unchanged; appending to an empty map copies other and appending an empty one is a no-op.", "quantifier": "every pair of point clouds reachable with coherent views (C03)", "why_tests_cant": "map growth is an unbounded history of appends; sizes and representation states are unbounded", "anchors": ["gradslam/structures/pointclouds.py:Pointclouds.append_points"]}
{"id": "C10", "title": "Indexing selects whole clouds", "statement": "pc[i], pc[slice], pc[list], pc[index tensor], pc[bool mask] return the point clouds at exactly those positions, in order, with all attributes; selecting nothing or a bad index type raises.", "quantifier": "every Pointclouds state reachable with coherent views (C03) and every index expression", "why_tests_cant": "all index expressions over all batch sizes", "anchors": ["gradslam/structures/pointclouds.py:Pointclouds.__getitem__"]}
{"id": "C11", "title": "Setters validate and are read back", "statement": "A view setter (lists or padded) that accepts its value makes the same view return that value; a rejected value raises and leaves the object unchanged; the accepted values are exactly those whose counts, widths and zero padding match the cloud.", "quantifier": "every reachable state, every assigned value", "why_tests_cant": "values and states unbounded", "anchors": ["gradslam/structures/pointclouds.py:Pointclouds._assert_set_padded", "gradslam/structures/pointclouds.py:Pointclouds._assert_set_list", "gradslam/structures/pointclouds.py:Pointclouds.points_padded"]}
{"id": "C12", "title": "has_points/has_normals/has_colors/has_features tell the truth", "statement": "In every reachable state has_X is true exactly when the X view is present (not None).", "quantifier": "every finite history of public operations", "why_tests_cant": "the flag is cached at the first query; only a history-dependent sequence exposes a stale value", "anchors": ["gradslam/structures/pointclouds.py:Pointclouds.has_normals", "gradslam/structures/pointclouds.py:Pointclouds.has_colors", "gradslam/structures/pointclouds.py:Pointclouds.has_features"]}
{"id": "C13", "title": "Updating points never loses normals, colors or features", "statement": "Assigning points (list or padded view) keeps the other attributes readable with their previous value.", "quantifier": "every reachable state, every accepted new points value", "why_tests_cant": "whether data is lost depends on which representation was cached at that time", "anchors": ["gradslam/structures/pointclouds.py:Pointclouds.points_list", "gradslam/structures/pointclouds.py:Pointclouds._compute_padded"]}
{"id": "C14", "title": "Homogenize / unhomogenize", "statement": "unhomogenize_points(homogenize_points(p)) = p; unhomogenize divides by the last coordinate whenever its magnitude exceeds 1e-6 (hence is invariant to rescaling by any factor keeping it above the threshold) and by 1 otherwise.", "quantifier": "all points of every dimension, all non-degenerate scales", "why_tests_cant": "real-valued inputs", "anchors": ["gradslam/geometry/geometryutils.py:homogenize_points", "gradslam/geometry/geometryutils.py:unhomogenize_points"]}
{"id": "C15", "title": "Projection and unprojection are mutually inverse", "statement": "project_points implements u=fx x/z+cx, v=fy y/z+cy for z != 0 and never divides by zero; unprojecting a pixel with its depth through the exact inverse intrinsics gives a point whose projection is the pixel and whose depth is that depth, and projecting then unprojecting a 3D point returns the point.", "quantifier": "all invertible pinhole intrinsics, all pixels, all non-zero depths", "why_tests_cant": "real-valued inputs", "anchors": ["gradslam/geometry/projutils.py:project_points", "gradslam/geometry/projutils.py:unproject_points"]}
{"id": "C16", "title": "Projection broadcasting applies the right camera to the right points", "statement": "project_points/unproject_points accept exactly the documented shape combinations (raise otherwise), the result has the leading shape of the points, and entry [b,...] is computed with camera b (or the single shared camera).", "quantifier": "all tensor ranks, batch sizes and extents", "why_tests_cant": "all shapes", "anchors": ["gradslam/geometry/projutils.py:project_points", "gradslam/geometry/projutils.py:unproject_points"]}
{"id": "C17", "title": "inverse_intrinsics inverts the intrinsics", "statement": "inverse_intrinsics(K) is a matrix inverse of K, in particular round-tripping any pixel through it is exact; it raises for non 3x3/4x4 input.", "quantifier": "all zero-skew intrinsics with positive focal lengths, all eps >= 0", "why_tests_cant": "real-valued inputs", "anchors": ["gradslam/geometry/projutils.py:inverse_intrinsics"]}
{"id": "C18", "title": "Rigid transforms form a group under the API", "statement": "For rigid 4x4 transforms: inverse(T) composed with T in either order is the identity, composition is associative and agrees with applying the transforms in sequence, relative_transformation(T1,T2) is the unique T with T1 o T = T2, and the results are again rigid.", "quantifier": "all rigid transforms", "why_tests_cant": "real-valued inputs; algebraic identities", "anchors": ["gradslam/geometry/geometryutils.py:inverse_transfom_3d", "gradslam/geometry/geometryutils.py:compose_transforms_3d", "gradslam/geometry/geometryutils.py:relative_transform_3d", "gradslam/geometry/geometryutils.py:relative_transformation"]}
{"id": "C19", "title": "Transform helpers work on batches as documented", "statement": "inverse_transfom_3d and compose_transforms_3d accept (N,4,4) batches and act slice-wise; malformed shapes raise ValueError.", "quantifier": "all batch sizes", "why_tests_cant": "all batch sizes, shape-dependent failure", "anchors": ["gradslam/geometry/geometryutils.py:inverse_transfom_3d", "gradslam/geometry/geometryutils.py:compose_transforms_3d"]}
{"id": "C20", "title": "Point transformation helpers transform every point", "statement": "transform_pts_3d, transform_pts_nd_KF and transform_pointcloud return, for every input point p, R p + t in the same position (documented input ranks); transform_normals returns R n; bad shapes raise.", "quantifier": "all numbers of points, all transforms", "why_tests_cant": "unbounded sizes", "anchors": ["gradslam/geometry/geometryutils.py:transform_pts_3d", "gradslam/geometry/geometryutils.py:transform_pts_nd_KF", "gradslam/geometry/geometryutils.py:transform_pointcloud", "gradslam/geometry/geometryutils.py:transform_normals"]}
{"id": "C21", "title": "Rigid motions preserve distances, angles and normals", "statement": "Transforming a cloud with a rigid transform preserves all pairwise distances, inner products of normals and unit length of normals.", "quantifier": "all rigid transforms, all clouds", "why_tests_cant": "real-valued inputs", "anchors": ["gradslam/structures/pointclouds.py:Pointclouds.transform_", "gradslam/geometry/geometryutils.py:transform_pointcloud", "gradslam/geometry/geometryutils.py:transform_normals"]}
{"id": "C22", "title": "Quaternion conversions give rotations and agree with each other", "statement": "quaternion_to_rotation_matrix returns, for every non-zero quaternion, an orthogonal matrix with determinant 1, q and c*q (c<>0) give the same one, composition of unit quaternions maps to the matrix product; the TUM and ICL loaders' own quaternion-to-pose routines produce the same rotation.", "quantifier": "all quaternions above the loaders' thresholds", "why_tests_cant": "real-valued inputs; three separate implementations", "anchors": ["gradslam/geometry/geometryutils.py:quaternion_to_rotation_matrix", "gradslam/geometry/geometryutils.py:normalize_quaternion", "gradslam/datasets/tumutils.py:transform44", "gradslam/datasets/datautils.py:pointquaternion_to_homogeneous"]}
{"id": "C23", "title": "Quaternion to axis-angle", "statement": "quaternion_to_axisangle returns a vector along the quaternion's axis with norm in [0, pi] whose exponential is the rotation matrix of the quaternion; q and -q give the same rotation.", "quantifier": "all unit quaternions", "why_tests_cant": "real-valued inputs, branch cut at w=0 and at the identity", "anchors": ["gradslam/geometry/geometryutils.py:quaternion_to_axisangle"]}
{"id": "C24", "title": "se3_exp/so3_exp are exponential maps into rigid transforms", "statement": "For rotation magnitude at least 1e-6 the returned matrix is exactly the matrix exponential: rotation block orthogonal with determinant 1, fixes the axis, exp(-w) is its inverse, exp((s+t)w)=exp(sw)exp(tw), translation block V v with w^ V = R - I; se3_exp output is rigid.", "quantifier": "all twists above the threshold", "why_tests_cant": "real-valued inputs", "anchors": ["gradslam/geometry/se3utils.py:so3_hat", "gradslam/geometry/se3utils.py:se3_hat", "gradslam/geometry/se3utils.py:so3_exp", "gradslam/geometry/se3utils.py:se3_exp"]}
{"id": "C25", "title": "se3_exp is rigid for arbitrarily small rotations", "statement": "The small-angle branch also returns a rigid transform (orthogonal rotation block) and the exact exponential.", "quantifier": "all twists below the threshold", "why_tests_cant": "branch at 1e-6", "anchors": ["gradslam/geometry/se3utils.py:so3_exp", "gradslam/geometry/se3utils.py:se3_exp"]}
{"id": "C26", "title": "Pixel normalisation and mesh grids", "statement": "normalize_pixel_coords and unnormalize_pixel_coords are mutually inverse and map the image exactly to [-1,1]; create_meshgrid enumerates each pixel exactly once with the documented coordinates.", "quantifier": "all image sizes, all coordinates", "why_tests_cant": "all sizes", "anchors": ["gradslam/geometry/geometryutils.py:normalize_pixel_coords", "gradslam/geometry/geometryutils.py:unnormalize_pixel_coords", "gradslam/geometry/geometryutils.py:create_meshgrid"]}
{"id": "C27", "title": "scale_intrinsics commutes with projection", "statement": "Projecting with the scaled intrinsics gives exactly the pixel scaled by the ratios (zero skew); all other matrix entries are unchanged; input not mutated; bad shapes raise.", "quantifier": "all intrinsics, ratios and points", "why_tests_cant": "real-valued inputs", "anchors": ["gradslam/datasets/datautils.py:scale_intrinsics"]}
{"id": "C28", "title": "Relative transforms chain back to poses", "statement": "poses_to_transforms gives identity first and then frame-to-frame transforms whose running product from the first pose reproduces each pose; GroundTruthOdometryProvider returns T with (previous pose) o T = current pose.", "quantifier": "all pose sequences of any length", "why_tests_cant": "unbounded sequence length", "anchors": ["gradslam/datasets/datautils.py:poses_to_transforms", "gradslam/odometry/groundtruth.py:GroundTruthOdometryProvider.provide"]}
{"id": "C29", "title": "Vertex map back-projects every valid pixel and only those", "statement": "vertex_map at pixel (h,w) is depth * K^-1 [w,h,1]; it projects through K back to (w,h) with z equal to the depth; it is exactly zero where depth is not positive.", "quantifier": "all image sizes, depths, invertible intrinsics", "why_tests_cant": "all images", "anchors": ["gradslam/structures/rgbdimages.py:RGBDImages._compute_vertex_map", "gradslam/structures/rgbdimages.py:RGBDImages.vertex_map"]}
{"id": "C30", "title": "Global maps are the local maps moved by the frame pose", "statement": "global_vertex_map = R v + t at valid pixels and zero elsewhere (equal to vertex_map if there are no poses); global_normal_map = R n; frame (b,l) uses pose (b,l).", "quantifier": "all batches, sequences, sizes", "why_tests_cant": "all images and poses", "anchors": ["gradslam/structures/rgbdimages.py:RGBDImages._compute_global_vertex_map", "gradslam/structures/rgbdimages.py:RGBDImages._compute_global_normal_map"]}
{"id": "C31", "title": "Normal map is unit or zero and orthogonal to the surface tangents", "statement": "At each pixel the normal has norm 0 or 1, is zero at invalid pixels and is orthogonal to the horizontal and vertical vertex differences used there; last row/column replicate their neighbours.", "quantifier": "all vertex maps with H,W >= 2", "why_tests_cant": "all images", "anchors": ["gradslam/structures/rgbdimages.py:RGBDImages._compute_normal_map"]}
{"id": "C32", "title": "RGBDImages derived maps always match the current inputs", "statement": "After any sequence of setter assignments and reads, vertex/normal/global maps and valid_depth_mask equal what a freshly constructed object with the same inputs returns.", "quantifier": "every finite history of setters and reads", "why_tests_cant": "cache invalidation depends on history", "anchors": ["gradslam/structures/rgbdimages.py:RGBDImages.depth_image", "gradslam/structures/rgbdimages.py:RGBDImages.intrinsics", "gradslam/structures/rgbdimages.py:RGBDImages.poses", "gradslam/structures/rgbdimages.py:RGBDImages.valid_depth_mask"]}
{"id": "C33", "title": "Channel-order conversion is a lossless permutation", "statement": "to_channels_first and to_channels_last are mutually inverse, move element [b,l,h,w,c] to [b,l,c,h,w], leave the source untouched when out of place, are idempotent and keep every derived map consistent.", "quantifier": "all shapes, all states", "why_tests_cant": "all images and cache states", "anchors": ["gradslam/structures/rgbdimages.py:RGBDImages.to_channels_first_", "gradslam/structures/rgbdimages.py:RGBDImages.to_channels_last_"]}
{"id": "C34", "title": "RGBDImages indexing selects the addressed batch and time slice", "statement": "rgbd[i], rgbd[i,j], rgbd[slices] return the addressed frames with all inputs and cached maps sliced consistently; out-of-range or malformed indices raise.", "quantifier": "all index expressions", "why_tests_cant": "all index expressions and cache states", "anchors": ["gradslam/structures/rgbdimages.py:RGBDImages.__getitem__"]}
{"id": "C35", "title": "Pointclouds from RGB-D frames contain exactly the valid pixels", "statement": "pointclouds_from_rgbdimages yields, per batch element, one point per pixel of positive depth in row-major order, with the global vertex, global normal and color of that pixel (all pixels if filtering is off); the frame is not mutated; sequence length other than one raises.", "quantifier": "all frames", "why_tests_cant": "all images", "anchors": ["gradslam/structures/utils.py:pointclouds_from_rgbdimages"]}
{"id": "C36", "title": "Confidence weight alpha is bounded and monotone", "statement": "get_alpha lies in [eps, 1.01] (the upper clamp never acts), is non-increasing in the distance from the camera centre and equals the Gaussian exp(-|v|^2/(2 sigma^2)) wherever that is above eps.", "quantifier": "all points, all sigma<>0, eps<=1.01", "why_tests_cant": "real-valued inputs", "anchors": ["gradslam/slam/fusionutils.py:get_alpha"]}
{"id": "C37", "title": "Active map points are exactly those visible in the frame", "statement": "find_active_map_points returns exactly the real (non-padding) map points with positive camera depth whose projection lies, up to 1e-3, in the rectangle of pixel centres of the image, each once, with the nearest pixel; indices are always in range.", "quantifier": "all maps, poses, intrinsics, image sizes", "why_tests_cant": "all maps and frames", "anchors": ["gradslam/slam/fusionutils.py:find_active_map_points"]}
{"id": "C38", "title": "Similarity filter keeps exactly the close and similarly oriented pairs", "statement": "find_similar_map_points keeps the rows whose map point is within dist_th of the frame vertex and whose normals' inner product exceeds dot_th, and where the frame pixel has valid depth; the output is an order-preserving subset.", "quantifier": "all maps, frames, thresholds", "why_tests_cant": "all maps and frames", "anchors": ["gradslam/slam/fusionutils.py:find_similar_map_points", "gradslam/slam/fusionutils.py:are_points_close", "gradslam/slam/fusionutils.py:are_normals_similar"]}
{"id": "C39", "title": "Best correspondences are unique per pixel and optimal", "statement": "find_best_unique_correspondences returns a subset of its input with exactly one row for every pixel occurring in the input, namely the candidate with highest confidence, ties broken by smallest distance to the viewing ray.", "quantifier": "all correspondence tables", "why_tests_cant": "all tables; sorting ties", "anchors": ["gradslam/slam/fusionutils.py:find_best_unique_correspondences"]}
{"id": "C40", "title": "Correspondence indices survive the floating-point round trip", "statement": "Every row returned by find_best_unique_correspondences is literally a row of its input, whatever the size of the map.", "quantifier": "all map sizes", "why_tests_cant": "fails only for maps beyond 2^24 points", "anchors": ["gradslam/slam/fusionutils.py:find_best_unique_correspondences"]}
{"id": "C41", "title": "Map fusion computes the confidence-weighted average and appends the rest", "statement": "fuse_with_map replaces each matched map point by (c*p + a*q)/(c+a) (normals, colors likewise), adds a to its confidence, leaves unmatched map points unchanged and appends exactly the valid unmatched frame pixels with confidence a, in order.", "quantifier": "all maps, frames, correspondence tables", "why_tests_cant": "all maps", "anchors": ["gradslam/slam/fusionutils.py:fuse_with_map"]}
{"id": "C42", "title": "Fusion conserves confidence and never drops a measurement", "statement": "The total confidence of each cloud after fusing equals that before plus the sum of alpha over valid frame pixels; the map never shrinks; every valid pixel is either merged into exactly one map point or appended exactly once.", "quantifier": "all maps, frames; any number of frames", "why_tests_cant": "global sum over unbounded histories", "anchors": ["gradslam/slam/fusionutils.py:fuse_with_map", "gradslam/slam/fusionutils.py:update_map_fusion"]}
{"id": "C43", "title": "Out-of-place map updates do not mutate their inputs", "statement": "update_map_fusion/update_map_aggregate with inplace=False leave the passed map and frame unchanged.", "quantifier": "all maps and frames", "why_tests_cant": "aliasing", "anchors": ["gradslam/slam/fusionutils.py:fuse_with_map", "gradslam/slam/fusionutils.py:update_map_aggregate"]}
{"id": "C44", "title": "Aggregation over a sequence is the concatenation of all frames", "statement": "After aggregating L frames the map of batch b is the concatenation, in time order, of the valid points of frames 1..L.", "quantifier": "all sequence lengths", "why_tests_cant": "unbounded history", "anchors": ["gradslam/slam/fusionutils.py:update_map_aggregate", "gradslam/slam/icpslam.py:ICPSLAM.forward"]}
{"id": "C45", "title": "SLAM forward is the fold of step, with ground-truth poses reproduced", "statement": "ICPSLAM/PointFusion forward over L frames equals L calls of step starting from the empty map; with odom='gt' the recovered poses are exactly the input poses; wrong input types raise; the input sequence object is not modified.", "quantifier": "all sequence lengths, all odometry providers", "why_tests_cant": "unbounded history", "anchors": ["gradslam/slam/icpslam.py:ICPSLAM.forward", "gradslam/slam/icpslam.py:ICPSLAM.step", "gradslam/slam/pointfusion.py:PointFusion"]}
{"id": "C46", "title": "step localises with the documented fall-backs and leaves its arguments alone when inplace=False", "statement": "step uses the ground-truth pose, or identity for the first frame, or transform o previous pose for ICP odometry; it raises if poses are required but missing; with inplace=False neither the map nor the frames passed in are changed.", "quantifier": "all maps, frames, providers", "why_tests_cant": "all states; aliasing", "anchors": ["gradslam/slam/icpslam.py:ICPSLAM.step", "gradslam/slam/icpslam.py:ICPSLAM._localize"]}
{"id": "C47", "title": "Damped least squares is always solvable and optimal", "statement": "solve_linear_system with damp>0 has exactly one solution, which satisfies (A^T A + damp I) x = A^T b and minimises |Ax-b|^2 + damp |x|^2; wrong shapes raise.", "quantifier": "all A (any number of rows, rank-deficient or not), b, damp>0", "why_tests_cant": "real matrices of any size", "anchors": ["gradslam/odometry/icputils.py:solve_linear_system"]}
{"id": "C48", "title": "Gauss-Newton rows linearise the point-to-plane residual", "statement": "Each row of the linear system is the exact first-order expansion of the point-to-plane residual n.(T s - d) at the identity; the residual vector and rows are aligned with the kept correspondences.", "quantifier": "all clouds", "why_tests_cant": "derivative statement", "anchors": ["gradslam/odometry/icputils.py:gauss_newton_solve"]}
{"id": "C49", "title": "dist_thresh is a distance threshold", "statement": "gauss_newton_solve with dist_thresh=t keeps exactly the source points whose nearest target point is closer than t (Euclidean distance).", "quantifier": "all clouds, thresholds", "why_tests_cant": "units of an external function", "anchors": ["gradslam/odometry/icputils.py:gauss_newton_solve"]}
{"id": "C50", "title": "ICP never increases the error and returns the transform it applied", "statement": "point_to_plane_ICP performs numiters iterations; the residual error of the accepted estimate never increases, damping is halved on acceptance and doubled on rejection, and the returned transform maps the original source to the internally held source; its rotation part stays rigid.", "quantifier": "all clouds, numbers of iterations, starting transforms", "why_tests_cant": "unbounded iterations", "anchors": ["gradslam/odometry/icputils.py:point_to_plane_ICP"]}
{"id": "C51", "title": "ICP argument defaults work", "statement": "point_to_plane_ICP/gradICP accept the documented initial_transform=None (identity) and every numiters >= 0.", "quantifier": "all arguments", "why_tests_cant": "argument combinations", "anchors": ["gradslam/odometry/icputils.py:point_to_plane_ICP", "gradslam/odometry/icputils.py:point_to_plane_gradICP"]}
{"id": "C52", "title": "gradICP's soft step and damping stay bounded", "statement": "In gradICP each step scales the twist by a factor strictly between 0 and 1, the damping stays strictly positive and is multiplied each iteration by a factor within [lambda_min, lambda_max] for positive parameters; no overflow of the exponential occurs.", "quantifier": "all residuals, parameters, iterations", "why_tests_cant": "unbounded iterations", "anchors": ["gradslam/odometry/icputils.py:point_to_plane_gradICP"]}
{"id": "C53", "title": "Downsampling keeps exactly the grid points", "statement": "downsample_rgbdimages/downsample_pointclouds keep exactly the valid pixels (or active map points) with row and column divisible by ds_ratio, in order, with aligned normals and colors; bad arguments raise.", "quantifier": "all images, ratios", "why_tests_cant": "all sizes", "anchors": ["gradslam/odometry/icputils.py:downsample_rgbdimages", "gradslam/odometry/icputils.py:downsample_pointclouds"]}
{"id": "C54", "title": "Odometry providers treat batch elements independently", "statement": "ICP/gradICP providers return, for each batch element b, the transform computed from map b and frame b alone, stacked in batch order with shape (B,1,4,4); mismatched batch sizes raise.", "quantifier": "all batches", "why_tests_cant": "unbounded batch", "anchors": ["gradslam/odometry/icp.py:ICPOdometryProvider.provide", "gradslam/odometry/gradicp.py:GradICPOdometryProvider.provide"]}
{"id": "C55", "title": "Timestamp association is a sound one-to-one greedy matching", "statement": "associate returns pairs sorted by time, each timestamp used at most once on each side, each pair closer than max_difference; the matching is maximal: no admissible pair of unused timestamps remains; closer pairs take precedence.", "quantifier": "all pairs of timestamp lists, offsets, thresholds", "why_tests_cant": "all lists", "anchors": ["gradslam/datasets/tumutils.py:associate"]}
{"id": "C56", "title": "Dataset sequence windows are exactly the documented ones", "statement": "The k-th sample of TUM/ICL sequences consists of frames start_k + i*(dilation+1), with starts 0, stride, 2*stride,... as long as the whole window fits; every such window and no other appears; argument validation rejects the rest.", "quantifier": "all lengths, seqlen, dilation, stride", "why_tests_cant": "all parameter combinations", "anchors": ["gradslam/datasets/tum.py:TUM.__init__", "gradslam/datasets/icl.py:ICL.__init__"]}
{"id": "C57", "title": "ICL poses belong to the frames they are returned with", "statement": "For every start/end range, the pose returned with a frame is the pose of that frame in the trajectory file.", "quantifier": "all start/end values", "why_tests_cant": "argument combinations", "anchors": ["gradslam/datasets/icl.py:ICL.__init__", "gradslam/datasets/icl.py:ICL._loadPoses"]}
{"id": "C58", "title": "Pose file parsing", "statement": "ICL _loadPoses turns 3 lines of 4 numbers starting at each requested line into a 4x4 matrix with last row (0,0,0,1), in order.", "quantifier": "all files and start lines", "why_tests_cant": "all files", "anchors": ["gradslam/datasets/icl.py:ICL._loadPoses"]}
{"id": "C59", "title": "ScanNet sequences all have the requested length", "statement": "For every set of scenes and start/end, sample i has frames start..end of scene i.", "quantifier": "all scene collections", "why_tests_cant": "several scenes of different lengths", "anchors": ["gradslam/datasets/scannet.py:Scannet.__init__"]}
{"id": "C60", "title": "Label remapping nyu40 to scannet20 is a function of the label", "statement": "nyu40_to_scannet20 maps each pixel independently by a fixed table that agrees with the class names of both palettes and sends all other labels to 0; create_label_image paints each pixel with its label's palette color.", "quantifier": "all label images", "why_tests_cant": "in-place sequential remapping could chain", "anchors": ["gradslam/datasets/scannet.py"]}
{"id": "C61", "title": "Image helpers are exact", "statement": "normalize_image divides by 255 (result in [0,1] for bytes, input not mutated), channels_first moves the channel axis and is inverted by the reverse permutation; other ranks/types raise.", "quantifier": "all images, ranks", "why_tests_cant": "all shapes", "anchors": ["gradslam/datasets/datautils.py:normalize_image", "gradslam/datasets/datautils.py:channels_first"]}
{"id": "C62", "title": "Trajectory and file-list parsing", "statement": "read_file_list/read_trajectory keep exactly the well-formed non-comment lines keyed by timestamp, in a way that ignores separators; lines with NaN are skipped.", "quantifier": "all files", "why_tests_cant": "all text files", "anchors": ["gradslam/datasets/tumutils.py:read_file_list", "gradslam/datasets/tumutils.py:read_trajectory"]}
{"id": "C63", "title": "A frozen config cannot be changed", "statement": "After freeze(), no attribute assignment, item assignment or merge at any depth changes the config until defrost() (a recursive, exact undo of freeze).", "quantifier": "every config tree, every sequence of API calls", "why_tests_cant": "unbounded trees and histories", "anchors": ["gradslam/config/cfgnode.py:CfgNode.freeze", "gradslam/config/cfgnode.py:CfgNode.__setattr__", "gradslam/config/cfgnode.py:CfgNode.merge_from_other_cfg"]}
{"id": "C64", "title": "Merging is a recursive override", "statement": "merge_from_other_cfg(a) makes every leaf of a present in the config with a's (decoded, coerced) value, keeps every other leaf, keeps key order and never adds keys unless new_allowed; on unknown keys it raises KeyError.", "quantifier": "every pair of config trees", "why_tests_cant": "unbounded trees", "anchors": ["gradslam/config/cfgnode.py:_merge_a_into_b", "gradslam/config/cfgnode.py:CfgNode.merge_from_other_cfg"]}
{"id": "C65", "title": "Merging preserves value types", "statement": "After any successful merge every previously existing leaf has the same type as before (up to the documented exceptions); type mismatches raise ValueError.", "quantifier": "every pair of config trees", "why_tests_cant": "unbounded trees", "anchors": ["gradslam/config/cfgnode.py:_check_and_coerce_cfg_value_type"]}
{"id": "C66", "title": "merge_from_list applies dotted overrides", "statement": "merge_from_list([k1,v1,...]) equals applying each override in order to the addressed leaf and changes nothing else; odd-length lists, unknown keys or type mismatches raise; on failure the config is unchanged.", "quantifier": "every list and config", "why_tests_cant": "unbounded lists", "anchors": ["gradslam/config/cfgnode.py:CfgNode.merge_from_list"]}
{"id": "C67", "title": "Deprecated and renamed keys", "statement": "A registered deprecated key is ignored in merges, a renamed key raises KeyError naming the new key, and both checks are independent of the config's other contents.", "quantifier": "every config and registry", "why_tests_cant": "unbounded trees", "anchors": ["gradslam/config/cfgnode.py:CfgNode.key_is_deprecated", "gradslam/config/cfgnode.py:CfgNode.key_is_renamed", "gradslam/config/cfgnode.py:CfgNode.register_renamed_key"]}
{"id": "C68", "title": "clone and dump preserve a config", "statement": "clone() yields an equal, independent tree; loading the YAML produced by dump() gives back an equal config.", "quantifier": "every valid config tree", "why_tests_cant": "unbounded trees", "anchors": ["gradslam/config/cfgnode.py:CfgNode.clone", "gradslam/config/cfgnode.py:CfgNode.dump", "gradslam/config/cfgnode.py:CfgNode.load_cfg"]}
{"id": "C69", "title": "Attribute and item access agree", "statement": "cfg.k and cfg['k'] are the same entry for every key that is not a name of the class; assigning cfg.k = v stores v under k and changes nothing else; internal names and values of invalid types are rejected and change nothing.", "quantifier": "every config, name and value", "why_tests_cant": "unbounded configs and names", "anchors": ["gradslam/config/cfgnode.py:CfgNode.__getattr__", "gradslam/config/cfgnode.py:CfgNode.__setattr__"]}
{"id": "C70", "title": "Constructing a config copies its input", "statement": "CfgNode(d) turns every nested dict into a CfgNode, keeps all leaves and key order, rejects values of invalid types and shares no object with d.", "quantifier": "every nested dict", "why_tests_cant": "unbounded nesting", "anchors": ["gradslam/config/cfgnode.py:CfgNode.__init__", "gradslam/config/cfgnode.py:CfgNode._create_config_tree_from_dict"]}
{"id": "C71", "title": "Dataset items have the documented parts and shapes", "statement": "dataset[i] of TUM, ICL and ScanNet is the tuple (colors, depths, intrinsics, poses, transforms, names, timestamps or labels) without the parts that were not asked for, with the documented shapes for either channel order; dataset[-k] is dataset[len - k]; an index outside the dataset raises IndexError.", "quantifier": "every option combination, size, sequence length, index, and contents of the files", "why_tests_cant": "unbounded sizes, 2^10 option combinations, arbitrary files", "anchors": ["gradslam/datasets/tum.py:TUM.__getitem__", "gradslam/datasets/icl.py:ICL.__getitem__", "gradslam/datasets/scannet.py:Scannet.__getitem__"]}
{"id": "C72", "title": "Poses and transforms of a dataset item agree", "statement": "In every item the first pose and the first transform are the identity, pose i is the pose of frame i relative to frame 0, transform i+1 the motion from frame i to frame i+1, pose i composed with transform i+1 is pose i+1, and rigid input poses give rigid output poses; there is one of each per frame.", "quantifier": "every sequence of poses, every sequence length", "why_tests_cant": "all real-valued poses, unbounded length", "anchors": ["gradslam/datasets/tum.py:TUM._preprocess_poses", "gradslam/datasets/icl.py:ICL._preprocess_poses", "gradslam/datasets/scannet.py:Scannet._preprocess_poses", "gradslam/datasets/datautils.py:poses_to_transforms"]}
{"id": "C73", "title": "Images and intrinsics of a dataset item are those of its frames", "statement": "Colors are the images of the frames resized to (height, width), in 0..255 or 0..1; depths are values of the depth image divided by the depth scale, never interpolated, missing depth stays 0; the intrinsics are the camera scaled to the same size, so projections scale with the image; frame f of item k is the association k * stride + f * (dilation + 1).", "quantifier": "every image, size, and index", "why_tests_cant": "all images and sizes", "anchors": ["gradslam/datasets/tum.py:TUM._preprocess_color", "gradslam/datasets/tum.py:TUM._preprocess_depth", "gradslam/datasets/datautils.py:scale_intrinsics"]}
{"id": "C74", "title": "A dataset contains exactly the sequences asked for", "statement": "TUM, ICL and ScanNet use exactly the sequences, trajectories or scenes named in their argument (a tuple, or the lines of a file), or all of them for None, each once; a name that is not available or a directory without its index files raises ValueError, a selection of another type TypeError; each sequence is read from its own files, an ICL trajectory living_room_trajX from livingRoomXn.gt.sim.", "quantifier": "every directory listing, selection and file system", "why_tests_cant": "arbitrary directory contents and selections", "anchors": ["gradslam/datasets/tum.py:TUM.__init__", "gradslam/datasets/icl.py:ICL.__init__", "gradslam/datasets/scannet.py:Scannet.__init__"]}
{"id": "C75", "title": "Aligned clouds stay where they are", "statement": "If the source, moved by the initial transform, needs no correction (the residual forces and torques of the points that take part sum to zero; in particular if every such point lies on the plane of its nearest target point, if every source point is a target point, or if no point is within dist_thresh), point_to_plane_ICP and point_to_plane_gradICP return the initial transform and the correspondences at it, for every numiters >= 1, every positive damping and every valid value of the other parameters. Both odometry providers return the identity for a frame all of whose points are map points.", "quantifier": "all clouds, normals, nearest-neighbour choices, thresholds, initial transforms, iteration counts, dampings and parameters; all batches for the providers", "why_tests_cant": "a test fixes clouds, a number of iterations and parameters; the statement is about every fixed point of the loop", "anchors": ["gradslam/odometry/icputils.py: point_to_plane_ICP, point_to_plane_gradICP, gauss_newton_solve, solve_linear_system", "gradslam/odometry/icp.py: ICPOdometryProvider.provide", "gradslam/odometry/gradicp.py: GradICPOdometryProvider.provide", "gradslam/geometry/se3utils.py: se3_exp"]}
{"id": "C76", "title": "A camera that does not move keeps its pose", "statement": "Every valid pixel of a frame, back-projected to a world point and projected again with the same camera and pose, is found at that pixel and at no other, although back-projection and projection use focal lengths that differ by 1e-6. Hence SLAM over a sequence of frames with the same depth images (colours may change), with ICP or gradICP odometry and with the aggregating or the fusing mapper, never fails, returns for every frame the pose of the first one, and its map has exactly the positions of the first frame.", "quantifier": "every sequence of frames with equal valid depth images (any sizes of at least 2x2, batch and length), skew-free pinhole cameras with positive focal lengths and no pixel 1000 focal lengths from the principal point, rigid first poses (or none), both registration methods with documented parameters and any nearest-neighbour choice, both mappers, every downsampling ratio whose grid has a valid pixel in each frame", "why_tests_cant": "The statement is about every scene, camera, image size, sequence length and every tie-breaking of the nearest-neighbour search; the drift appears only for special focal lengths.", "anchors": ["gradslam/slam/icpslam.py:ICPSLAM.forward", "gradslam/slam/pointfusion.py:PointFusion", "gradslam/slam/fusionutils.py:find_active_map_points", "gradslam/odometry/icp.py", "gradslam/odometry/gradicp.py", "gradslam/structures/rgbdimages.py:RGBDImages._compute_vertex_map", "gradslam/odometry/icputils.py:downsample_rgbdimages"]}
{"id": "C77", "title": "PointFusion of a motionless scene averages and does not grow", "statement": "When PointFusion processes frames with the same depth images and returns the same pose for all of them, the resulting map has exactly one point per valid pixel of the first frame, in row-major order, however many frames are fused; positions and normals are those of the first frame, the colour of each point is the mean of its pixel's colours over the frames, and its confidence is the number of frames times the confidence of one observation.", "quantifier": "as C76 with the fusing mapper, any odometry, dist_th > 0, dot_th below the squared length of the normals of the valid pixels, every sigma other than 0, every length", "why_tests_cant": "Holds for every number of frames, scene and colour sequence; a test sees a few frames of one scene.", "anchors": ["gradslam/slam/pointfusion.py:PointFusion._map", "gradslam/slam/fusionutils.py:update_map_fusion", "gradslam/slam/fusionutils.py:find_correspondences", "gradslam/slam/fusionutils.py:fuse_with_map"]}
{"id": "C78", "title": "The sequences of a batch do not influence each other", "statement": "Running ICPSLAM or PointFusion on a batch of sequences gives, for every sequence, the same poses and the same map (attributes and tensors) as running it on this sequence alone (frames[b]) or as part of any other batch at any other position; the run on the batch raises an error exactly when the run on one of its sequences alone raises that error. (A single fusion step on a map that already contains a point of confidence 0 does not have this property: a match in another cloud of the batch resets that point. Maps built by a run contain no such point.)", "quantifier": "every batch of channels-last sequences (every batch size, length, image size from 2 x 2, depth, colours, intrinsics, poses or none), every odometry provider, both mappers, every downsampling ratio >= 1; for the fusing mapper every sigma other than 0, and at most 2^24 map points, rows, columns and sequences", "why_tests_cant": "Two runs are compared for every batch composition and content; a test compares one batch with its elements, and padding, masks and the flattened correspondence table can leak only for particular sizes and matches.", "anchors": ["gradslam/slam/icpslam.py:ICPSLAM.forward", "gradslam/slam/icpslam.py:ICPSLAM.step", "gradslam/slam/pointfusion.py:PointFusion._map", "gradslam/slam/fusionutils.py:update_map_fusion", "gradslam/slam/fusionutils.py:find_best_unique_correspondences", "gradslam/slam/fusionutils.py:fuse_with_map", "gradslam/odometry/icp.py:ICPOdometryProvider.provide", "gradslam/structures/rgbdimages.py:RGBDImages.__getitem__"]}
{"id": "C79", "title": "Every map point is an average of observations", "statement": "In the map returned by ICPSLAM or PointFusion, the position (normal, colour) of every point lies in every convex set that contains the positions (normals, colours) of all pixels with depth of that sequence, placed with the returned poses. Hence colours never leave the range of the input colours, normals are never longer than 1 (for poses that are rotations), and positions stay in the bounding box of the observations. With PointFusion every confidence lies between 1e-7 and the number of frames. (Fused normals are not normalised: merging two different unit normals gives a shorter one.)", "quantifier": "every batch of channels-last sequences (every batch size, length >= 1, image size from 2 x 2), every odometry provider for which forward returns, both mappers, every convex set; for the fusing mapper angle_th such that its cosine is not negative, every sigma other than 0, at most 2^24 map points, rows, columns and sequences", "why_tests_cant": "It is an invariant of arbitrarily many merges with data-dependent weights, for every convex set; a test checks a few merges.", "anchors": ["gradslam/slam/fusionutils.py:fuse_with_map", "gradslam/slam/fusionutils.py:update_map_fusion", "gradslam/slam/fusionutils.py:update_map_aggregate", "gradslam/slam/fusionutils.py:get_alpha", "gradslam/slam/icpslam.py:ICPSLAM.forward", "gradslam/slam/pointfusion.py:PointFusion._map"]}
{"id": "C80", "title": "SLAM does not depend on the memory layout of the images", "statement": "Running ICPSLAM or PointFusion on a sequence stored channels first gives the same poses and the same map as on the same images stored channels last. With ground-truth odometry and aggregation (and for single-frame sequences) this holds; registration of a channels-first frame always raises IndexError and fusion of one (width other than 3) always raises ValueError, so with ICP/gradICP odometry or PointFusion the claim is false of the code.", "quantifier": "all sequences (batch, length, size at least 2 x 2, depths, intrinsics, poses), both layouts, all odometry providers and downsampling ratios", "why_tests_cant": "all sequences and all ratios; tests use channels-last data", "anchors": ["gradslam/slam/icpslam.py:ICPSLAM.forward", "gradslam/slam/icpslam.py:ICPSLAM.step", "gradslam/odometry/icputils.py:downsample_rgbdimages", "gradslam/slam/fusionutils.py:fuse_with_map", "gradslam/slam/fusionutils.py:get_alpha"]}
{"id": "C81", "title": "Colours do not influence the geometry and are mixed linearly", "statement": "Running ICPSLAM or PointFusion on two batches of sequences that differ only in their colour images gives the same poses and maps that differ only in the values of their colours (same number of points, equal points, normals and features), or raises an error for both. If the colours of a third batch are lam * (colours of the first) + mu * (colours of the second) + nu (nu a fixed colour), then the colours of its map are lam * (colours of the first map) + mu * (colours of the second map) + nu: the map commutes with every affine change of the colour scale and with blending.", "quantifier": "all batches of sequences of any batch size, length and size at least 2x2 (channels last), all depths, poses, intrinsics and colours, all real lam, mu, nu; ground-truth, ICP and gradICP odometry; aggregating and fusing mapper with any thresholds and sigma (sizes below 2^24 for fusion)", "why_tests_cant": "It relates the whole run on all colour images of a geometry; a test sees finitely many images, and the association, the order of the points and the weights could depend on colours in cases it does not contain.", "anchors": ["gradslam/slam/icpslam.py:ICPSLAM.forward", "gradslam/slam/fusionutils.py:fuse_with_map", "gradslam/slam/fusionutils.py:update_map_fusion", "gradslam/slam/fusionutils.py:update_map_aggregate", "gradslam/odometry/icp.py:ICPOdometryProvider.provide"]}
{"id": "C82", "title": "Differentiability of the whole pipeline", "statement": "gradslam is advertised as fully differentiable: when colours, depths, intrinsics and poses depend smoothly on a parameter, the vertex and normal maps of RGBDImages and the map returned by the SLAM systems (number of points locally constant; points, normals, colours, confidences) have derivatives with respect to it. The derivative of a vertex with respect to its depth is the viewing ray. As the code is written this holds where no depth is exactly 0 and no decision of the fusion (visible, close, similar, best candidate) is exactly on its boundary; at depth 0 the vertex map has a kink and the global vertex map jumps, and the number of fused points jumps where associations change.", "quantifier": "all families of RGBDImages with differentiable inputs, all parameter values, all pixels, all map points, all sequence lengths", "why_tests_cant": "Existence of a derivative is a limit statement about all nearby inputs; gradient checks sample a few finite differences and cannot rule out kinks or jumps.", "anchors": ["gradslam/structures/rgbdimages.py:vertex_map", "gradslam/structures/rgbdimages.py:normal_map", "gradslam/structures/rgbdimages.py:_compute_global_vertex_map", "gradslam/slam/fusionutils.py:update_map_fusion", "gradslam/slam/pointfusion.py:PointFusion", "gradslam/slam/icpslam.py:ICPSLAM.forward"]}
{"id": "C83", "title": "World coordinates and the unit of length are conventions", "statement": "With ground-truth odometry, expressing the same recording in other world coordinates (rotating or reflecting and translating all given poses) and another unit of length (multiplying depths, camera positions, the distance threshold and sigma by s > 0) changes the map built by ICPSLAM / PointFusion exactly accordingly: the same number of points in the same order, points moved by the similarity, normals rotated, colours and confidences equal.", "quantifier": "all sequences of RGB-D frames with poses (any batch size, length, image size of at least 2 x 2), all orthogonal matrices, translations and scales, all fusion settings with an angle threshold of at most 90 degrees; a change of the unit requires intrinsics with third row (0 0 1 0) and no fourth column", "why_tests_cant": "It relates the runs on every pair of recordings that describe the same scene; a test compares the two runs for a few transformations and inputs only, and a decision near a threshold could differ for others.", "anchors": ["gradslam/slam/fusionutils.py: update_map_fusion, update_map_aggregate, find_correspondences", "gradslam/slam/icpslam.py: ICPSLAM.forward", "gradslam/slam/pointfusion.py: PointFusion", "gradslam/structures/rgbdimages.py: global_vertex_map, global_normal_map"]}
{"id": "C84", "title": "The orientation of the world is a convention for registration, its origin is not", "statement": "Turning or mirroring the world (both clouds, the normals and the initial transform) turns the transform that point_to_plane_ICP and point_to_plane_gradICP return and leaves the returned correspondences as they are. A whole run of ICPSLAM or PointFusion with ICP or gradICP odometry on the same images whose first poses are turned returns the turned trajectory and the turned map (same points in the same order, same colours and confidences), or raises the same error. Moving the origin instead of turning does change the result: after one damped iteration on shifted clouds the returned transform is not the shifted transform, for either function.", "quantifier": "all orthogonal matrices, clouds of any sizes, normals, initial transforms, thresholds, dampings, numbers of iterations, gradICP parameters; every choice of nearest neighbour that depends on distances only; all sequences of any batch size and length and of at least 2 x 2 pixels, both mappers (fusion with an angle threshold of at most 90 degrees)", "why_tests_cant": "It relates two runs of an iterative algorithm for every rotation, every pair of clouds and every number of iterations; one pair of runs checks one rotation up to rounding.", "anchors": ["gradslam/odometry/icputils.py: point_to_plane_ICP, point_to_plane_gradICP, gauss_newton_solve, solve_linear_system", "gradslam/geometry/se3utils.py: se3_exp", "gradslam/slam/icpslam.py: ICPSLAM.forward, _localize", "gradslam/slam/pointfusion.py: PointFusion"]}
{"id": "C85", "title": "Which Pointclouds objects share memory", "statement": "Let a program make tensors, build Pointclouds objects from them, call any of the methods (reads, setters, in-place operations, clone, detach, to, cpu, cuda, arithmetic, rotate, transform, projection, indexing, append_points) and write into tensors in place, in any order. The library never writes into an existing tensor. The object returned by clone() or by an out-of-place operation consists of tensors no other object has, so nothing done later to it or to its tensors shows in the others, and the other way round. Setters and append_points never keep the tensors of their argument; an object may be appended to itself, each of its clouds is then followed by itself; appending an object on another device raises and changes nothing. to(device) returns self, a copy, or an object on the new device, as documented, when device is given as the torch.device of the object or lies elsewhere. The constructor and indexing keep the given tensors without copying. Contrary to the documentation, to('cpu', copy=True) on a CPU object (a string, or 'cuda' without index on the current GPU) returns an object that shares padded tensors, mask and counts with self but not its lists, and so does detach(): one in-place write then makes the list view and the padded view of the result disagree.", "quantifier": "all programs: all finite sequences of API calls and in-place writes on any number of objects and tensors, all shapes, strides and values, all devices, also one object in both roles of append_points", "why_tests_cant": "Aliasing shows only when a particular write follows a particular sequence of calls; a test checks one such sequence, while the absence of sharing is a statement about every later sequence of calls and writes.", "anchors": ["gradslam/structures/pointclouds.py: Pointclouds.__init__, clone, detach, to, cpu, cuda, __getitem__, append_points, points_list setters, offset_, scale_, rotate_, transform_", "gradslam/structures/structutils.py: list_to_padded, padded_to_list"]}
{"id": "C86", "title": "Which RGBDImages objects share memory", "statement": "Let a program make tensors, build RGBDImages objects from them, read properties, assign them, convert the channel order, call clone, detach, to, cpu, cuda, to_channels_last/first and index, and write into tensors in place, in any order. The library never writes into an existing tensor, and every object's tensors are on its device. The object returned by clone(), by to(device) for another device, and by to_channels_last/first (when it is not self) consists of tensors no other object has, so nothing done later to it or to its tensors shows in the others, and the other way round. to(device) without copy returns self exactly when the object is on that device, however the device is written. The constructor and the setters keep the very tensors they are given, frames[ix] consists of slices that show whatever the tensors of frames hold later, and tensors on different devices are rejected by the constructor. Contrary to the documentation, to(device, copy=True) on the device of the object is not a copy: it has the very tensors of self, like detach(). A map that has been read (vertex_map, global_vertex_map, ...) is kept: writing into frames.poses in place, as the documentation of ICPSLAM does, does not update it, unlike an assignment to frames.poses.", "quantifier": "all programs (finite sequences of constructor calls, reads, setters, conversions, copies, slices and in-place tensor writes, also those that raise), all objects, tensors, devices and indices, and either outcome of every contiguity question", "why_tests_cant": "aliasing shows only after a later write through some other object; a test looks at one sequence of calls, while whether two objects can ever influence each other ranges over all programs that continue from there", "anchors": ["gradslam/structures/rgbdimages.py:RGBDImages", "gradslam/structures/rgbdimages.py:RGBDImages.clone", "gradslam/structures/rgbdimages.py:RGBDImages.detach", "gradslam/structures/rgbdimages.py:RGBDImages.to", "gradslam/structures/rgbdimages.py:RGBDImages.__getitem__", "gradslam/structures/rgbdimages.py:RGBDImages.to_channels_last"]}
{"id": "C87", "title": "No inf or nan, forward or backward", "statement": "For finite inputs, unhomogenize_points, project_points, quaternion_to_axisangle, normalize_quaternion (eps > 0), normal maps, the weighted mean of map fusion and the damping/step factors of gradICP produce finite numbers, including at their special cases (w = 0, z = 0, zero rotation, zero quaternion, vanishing normal, zero confidence); inverse_intrinsics does unless fx = -eps, get_alpha unless sigma = 0, normalize_pixel_coords unless the image has one row or column, the exponential-map coefficients unless omega = 0 (which the code branches away). The gradients that backward() computes for them are finite as well at those special cases, with two exceptions that are refuted: at w = 0 the gradient of unhomogenize_points with respect to w is nan, and at the identity rotation all gradients of quaternion_to_axisangle are nan.", "quantifier": "every finite input value, every eps/sigma/lambda/B/nu in the stated ranges, every tape of the listed operations", "why_tests_cant": "the inputs are real numbers; the failures sit on measure-zero sets and only in the backward pass", "anchors": ["gradslam/geometry/projutils.py:unhomogenize_points, project_points, inverse_intrinsics", "gradslam/geometry/geometryutils.py:quaternion_to_axisangle, normalize_quaternion, normalize_pixel_coords", "gradslam/geometry/se3utils.py:so3_exp, se3_exp", "gradslam/structures/rgbdimages.py:_compute_normal_map", "gradslam/slam/fusionutils.py:get_alpha, fuse_with_map", "gradslam/odometry/icputils.py:point_to_plane_gradICP"]}
{"id": "C88", "title": "backward() computes the derivative", "statement": "Away from switching points of where/clamp and from zero norms, the gradients that reverse-mode accumulation computes for unhomogenize_points, project_points, inverse_intrinsics, quaternion_to_axisangle, normalize_quaternion, normal maps, the Rodrigues coefficients, get_alpha (with respect to the points and sigma), map fusion (with respect to confidence, alpha, map and frame values), the gradICP damping and gating factors and normalize_pixel_coords are the partial derivatives of the formula: along every differentiable curve of inputs the output is differentiable, with slope the inner product of gradients and velocities.", "quantifier": "every input satisfying the stated inequalities and every differentiable curve through it; every tape of the listed operations (C88_tape)", "why_tests_cant": "gradcheck compares finite differences at chosen points up to a tolerance", "anchors": ["gradslam/geometry/projutils.py:unhomogenize_points, project_points, inverse_intrinsics", "gradslam/geometry/geometryutils.py:quaternion_to_axisangle, normalize_quaternion, normalize_pixel_coords", "gradslam/geometry/se3utils.py:so3_exp, se3_exp", "gradslam/structures/rgbdimages.py:_compute_normal_map", "gradslam/slam/fusionutils.py:get_alpha, fuse_with_map", "gradslam/odometry/icputils.py:point_to_plane_gradICP"]}
{"id": "C89", "title": "Gradients of the global vertex map", "statement": "Every entry of RGBDImages.global_vertex_map is a real number whose gradients with respect to the depth of its pixel, fx, fy, cx, cy and the row of the pose are real numbers, for every real depth. Where there is depth, those gradients are the partial derivatives of the back-projected, pose-transformed pixel. A pixel without depth (zero, negative or nan) contributes the zero vertex and sends exactly zero gradient to the intrinsics and the pose, so that holes of the depth image cannot disturb training.", "quantifier": "all images, batch/time/row/column/channel positions, depths, intrinsics (fx, fy different from -1e-6) and poses", "why_tests_cant": "a gradient check samples a few depths; the claim is a derivative at every point and an exact zero at every missing pixel", "anchors": ["gradslam/structures/rgbdimages.py:_compute_vertex_map", "gradslam/structures/rgbdimages.py:_compute_global_vertex_map", "gradslam/geometry/projutils.py:inverse_intrinsics"]}
{"id": "C90", "title": "Exporting a cloud to Open3D and plotly", "statement": "Pointclouds.open3d(i, max_num_points=m) and Pointclouds.plotly(i, ...) show at most m distinct points of cloud i (all of them, in order, when there are no more than m), each with its own normal and colour; colours are in 0..1 for Open3D and bytes 0..255 for plotly, and both show the same colours; the Pointclouds object still means the same clouds afterwards. A non-integer index raises TypeError, an out-of-range one IndexError. Exporting an empty cloud, or max_num_points = 0, gives an empty picture.", "quantifier": "all Pointclouds objects reachable by public calls, all indices, limits, flags, and every permutation torch.randperm may draw", "why_tests_cant": "the subsample is random: a test sees a few permutations, sizes and colour ranges", "anchors": ["gradslam/structures/pointclouds.py:Pointclouds.open3d", "gradslam/structures/pointclouds.py:Pointclouds.plotly"]}
{"id": "C91", "title": "Animating an image sequence", "statement": "RGBDImages.plotly(i) yields one frame per time step, in order; each shows the colours of that frame as bytes (times 255 when the sequence is in 0..1) and, with include_depth, its depth image times the largest power of ten that keeps the sequence's depths within a byte, so nothing wraps around. The RGBDImages object is unchanged. This holds for both channel layouts and also when no pixel has depth.", "quantifier": "all RGBDImages objects reachable by public calls, all indices, all nonnegative depth values, frame counts and image sizes", "why_tests_cant": "wrap-around of bytes and the choice of scale depend on the data of the whole sequence", "anchors": ["gradslam/structures/rgbdimages.py:RGBDImages.plotly"]}
{"id": "C92", "title": "Printing a config", "statement": "str(cfg) shows the keys in increasing order, `key: value` for values and `key:` followed by the entries two blanks further right for nested configs; further lines of a value are indented below its key in the same way. The text does not depend on the order in which the config was filled. Two configs (keys without newline, colon and leading blank) have the same text if and only if they have the same keys at every depth and the values print the same. Printing never changes the config; a config that contains itself raises RecursionError.", "quantifier": "all configs of any depth and size, all keys, all orders of insertion, any text Python gives to a value", "why_tests_cant": "a test compares the text of a few configs; that the text identifies a config is a statement about all pairs", "anchors": ["gradslam/config/cfgnode.py:CfgNode.__str__"]}
{"id": "C93", "title": "Gradients of the normal map", "statement": "Every entry of RGBDImages.normal_map is a real number whose gradients with respect to the three depths it is computed from, fx, fy, cx and cy are real numbers, for every real depth, also where the surface is degenerate (the cross product vanishes). Where there is depth and the surface is not degenerate, those gradients are the partial derivatives of the unit normal of the two differences of back-projected pixels. A pixel without depth sends exactly zero gradient to its own depth, its neighbours and the intrinsics, a neighbour without depth receives none, and holes of the depth image do not disturb the normals.", "quantifier": "all images of at least 2 x 2 pixels, batch/time/row/column/channel positions (including the last row and column), depths and intrinsics (fx, fy different from -1e-6)", "why_tests_cant": "a gradient check samples a few depths; the claim is a derivative at every regular point and real gradients at every degenerate one", "anchors": ["gradslam/structures/rgbdimages.py:_compute_normal_map", "gradslam/structures/rgbdimages.py:_compute_vertex_map", "gradslam/geometry/projutils.py:inverse_intrinsics"]}
