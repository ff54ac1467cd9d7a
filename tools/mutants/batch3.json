[
{
"file": "SolveModel",
"definition": "gauss",
"old": "(b1 0%nat - rsum m",
"new": "(b1 0%nat + rsum m",
"edit": "back-substitution adds",
"claim": "the solver solves the system (C36 exactness of the step)"
},
{
"file": "SolveModel",
"definition": "gauss",
"old": "let b1 := swap0 p b in",
"new": "let b1 := b in",
"edit": "right-hand side not permuted with the rows",
"claim": "the solver solves the system"
},
{
"file": "SolveModel",
"definition": "gauss",
"old": "(fun i => b1 (S i) - f i * b1 0%nat)",
"new": "(fun i => b1 (S i))",
"edit": "right-hand side not eliminated",
"claim": "the solver solves the system"
},
{
"file": "IcpModel",
"definition": "solve_linear_system",
"old": "(scaled_eye (nth 0 (dims A) 0) (damp_val damp))",
"new": "(scaled_eye (nth 0 (dims A) 0) (- damp_val damp))",
"edit": "damping subtracted",
"claim": "damped normal equations"
},
{
"file": "IcpModel",
"definition": "solve_linear_system",
"old": "let? m := tmap2 Rplus ata (scaled_eye (nth 0 (dims A) 0) (damp_val damp)) in",
"new": "let m := ata in",
"edit": "damping dropped",
"claim": "damped normal equations"
},
{
"file": "IcpModel",
"definition": "solve_linear_system",
"old": "guard (nth 1 (dims A) 0 =? nth 1 (dims b) 0) ValueError ;;?\n",
"new": "",
"edit": "row mismatch not rejected",
"claim": "bad shapes raise ValueError"
},
{
"file": "IcpModel",
"definition": "solve_linear_system",
"old": "guard (nth 0 (dims b) 0 =? 1) ValueError ;;?\n",
"new": "",
"edit": "wide b accepted",
"claim": "bad shapes raise ValueError"
},
{
"file": "IcpModel",
"definition": "solve_linear_system",
"old": "guard (match damp with DTen nd _ => nd =? 0 | _ => true end) ValueError ;;?\n",
"new": "",
"edit": "non-scalar damp accepted",
"claim": "bad arguments raise"
},
{
"file": "IcpModel",
"definition": "kept",
"old": "dist2 3 (point src i) (point tgt (nn (npts tgt) (point tgt) (point src i)))) t then",
"new": "dist2 3 (point src i) (point tgt (nn (npts tgt) (point tgt) (point src i)))) (t * t) then",
"edit": "threshold compared with the distance instead of the squared distance",
"claim": "only pairs within the (squared) threshold are used"
},
{
"file": "IcpModel",
"definition": "kept",
"old": "    | _ => true end) (seq 0 (npts src)).",
"new": "    | _ => false end) (seq 0 (npts src)).",
"edit": "no threshold keeps nothing",
"claim": "None keeps all pairs"
},
{
"file": "IcpModel",
"definition": "gn_row",
"old": "nz * sy - ny * sz;",
"new": "ny * sz - nz * sy;",
"edit": "sign of the first rotation column",
"claim": "rows are the linearised residual"
},
{
"file": "IcpModel",
"definition": "gn_row",
"old": "ny * sx - nx * sy]",
"new": "nx * sy - ny * sx]",
"edit": "sign of the last rotation column",
"claim": "rows are the linearised residual"
},
{
"file": "IcpModel",
"definition": "gn_res",
"old": "(d 2%nat - s 2%nat)",
"new": "(s 2%nat - d 2%nat)",
"edit": "sign of one term of b",
"claim": "b is the point-to-plane distance"
},
{
"file": "IcpModel",
"definition": "gauss_newton_solve",
"old": "gn_row (point src i) (point nor (idx i))",
"new": "gn_row (point src i) (point nor i)",
"edit": "normal of the source index",
"claim": "normals belong to the matched target"
},
{
"file": "IcpModel",
"definition": "gauss_newton_solve",
"old": "gn_res (point src i) (point tgt (idx i)) (point nor (idx i))",
"new": "gn_res (point src i) (point tgt (idx i)) (point nor i)",
"edit": "normal of the source index in b",
"claim": "normals belong to the matched target"
},
{
"file": "IcpModel",
"definition": "gauss_newton_solve",
"old": "Ok (A, b, map idx ks).",
"new": "Ok (A, b, ks).",
"edit": "source indices returned",
"claim": "the returned indices are target indices"
},
{
"file": "IcpModel",
"definition": "gauss_newton_solve",
"old": "  guard (npts tgt =? npts nor) ValueError ;;?\n",
"new": "",
"edit": "number of normals not checked",
"claim": "mismatching shapes raise ValueError"
},
{
"file": "IcpModel",
"definition": "icp_iter",
"old": "if Rlt_dec (l_new l) (l_err l)",
"new": "if Rlt_dec (l_err l) (l_new l)",
"edit": "accepts steps that increase the error",
"claim": "ICP only accepts improving steps"
},
{
"file": "IcpModel",
"definition": "icp_iter",
"old": "if Rlt_dec (l_new l) (l_err l)",
"new": "if Rle_dec (l_new l) (l_err l)",
"edit": "accepts equal errors",
"claim": "ICP only accepts strictly improving steps"
},
{
"file": "IcpModel",
"definition": "icp_iter",
"old": "matmul (l_T l) (i_T s)",
"new": "matmul (i_T s) (l_T l)",
"edit": "composition order",
"claim": "the transform maps the source to its current position"
},
{
"file": "IcpModel",
"definition": "icp_iter",
"old": "Ok (mkIcp (l_pc l) (i_damp s / 2)%R T",
"new": "Ok (mkIcp (i_src s) (i_damp s / 2)%R T",
"edit": "source not moved",
"claim": "the transform maps the source to its current position"
},
{
"file": "IcpModel",
"definition": "icp_iter",
"old": "(i_damp s / 2)%R",
"new": "(i_damp s * 2)%R",
"edit": "damping doubled on success",
"claim": "Levenberg-Marquardt damping schedule"
},
{
"file": "IcpModel",
"definition": "icp_iter",
"old": "else Ok (mkIcp (i_src s) (i_damp s * 2)%R",
"new": "else Ok (mkIcp (i_src s) (i_damp s)%R",
"edit": "damping unchanged on failure",
"claim": "Levenberg-Marquardt damping schedule"
},
{
"file": "IcpModel",
"definition": "err_diff",
"old": "clampR (-70) 70 (l_new l - l_err l)",
"new": "clampR (-70) 70 (l_err l - l_new l)",
"edit": "difference reversed",
"claim": "gradICP damping grows when the error grows"
},
{
"file": "IcpModel",
"definition": "err_diff",
"old": "clampR (-70) 70",
"new": "clampR (-7) 7",
"edit": "clamped to 7",
"claim": "damping factor in the stated range"
},
{
"file": "IcpModel",
"definition": "damp_factor",
"old": "(lmax - 1 / lmax) / (1 + exp (- B * e))",
"new": "(lmax - 1 / lmax) / (1 + exp (B * e))",
"edit": "sign in the damping",
"claim": "gradICP damping grows when the error grows"
},
{
"file": "IcpModel",
"definition": "damp_factor",
"old": "(1 / lmax + (lmax - 1 / lmax)",
"new": "(lmax + (lmax - 1 / lmax)",
"edit": "offset of the damping",
"claim": "damping factor between 1/lmax and lmax"
},
{
"file": "IcpModel",
"definition": "soft_step",
"old": "Rpower (1 + exp (- B2 * e)) (1 / nu)",
"new": "Rpower (1 + exp (- B2 * e)) nu",
"edit": "exponent inverted",
"claim": "step factor formula"
},
{
"file": "IcpModel",
"definition": "grad_iter",
"old": "let? T' := matmul T (i_T s) in",
"new": "let? T' := matmul (i_T s) T in",
"edit": "composition order",
"claim": "the transform maps the source to its current position"
},
{
"file": "IcpModel",
"definition": "grad_iter",
"old": "let? pc := move (i_src s) T in",
"new": "let pc := l_pc l in",
"edit": "source moved by the full step",
"claim": "the transform maps the source to its current position"
},
{
"file": "IcpModel",
"definition": "grad_iter",
"old": "guard (nonzero_dec nu) ZeroDivisionError ;;?\n",
"new": "",
"edit": "nu = 0 accepted",
"claim": "nu = 0 raises"
},
{
"file": "IcpModel",
"definition": "check_init",
"old": "guard ((nth 1 (dims t) 0 =? 4) && (nth 0 (dims t) 0 =? 4)) ValueError ;;? Ok t",
"new": "Ok t",
"edit": "shape of the initial transform not checked",
"claim": "bad initial transforms are rejected"
},
{
"file": "IcpModel",
"definition": "start",
"old": "Ok (mkIcp pc damp init None)",
"new": "Ok (mkIcp pc damp (mat_ten mI) None)",
"edit": "initial transform forgotten",
"claim": "the result includes the initial transform"
},
{
"file": "IcpModel",
"definition": "start",
"old": "let? pc := move src init in",
"new": "let pc := src in",
"edit": "source not moved by the initial transform",
"claim": "the result includes the initial transform"
},
{
"file": "IcpModel",
"definition": "finish",
"old": "None => Err UnboundLocalError",
"new": "None => Ok (i_T s, [])",
"edit": "zero iterations succeed",
"claim": "numiters = 0 raises UnboundLocalError"
},
{
"file": "IcpModel",
"definition": "downsample_pointclouds",
"old": "let rows1 := filter (fun r => divides_z d (rh r)) rows in",
"new": "let rows1 := rows in",
"edit": "row filter dropped",
"claim": "downsampling keeps the points on the grid"
},
{
"file": "IcpModel",
"definition": "downsample_pointclouds",
"old": "let rows2 := filter (fun r => divides_z d (rw r)) rows1 in",
"new": "let rows2 := filter (fun r => divides_z d (rh r)) rows1 in",
"edit": "columns filtered by rows",
"claim": "downsampling keeps the points on the grid"
},
{
"file": "IcpModel",
"definition": "index_clouds",
"old": "filter (fun r => rb r =? b) rows",
"new": "rows",
"edit": "points of all batch elements",
"claim": "downsampling keeps the batch element"
},
{
"file": "IcpModel",
"definition": "downsample_pointclouds",
"old": "lift (ctor RF (t2_inp (Some pts)) (t2_inp nrm) (t2_inp col) (INone RF))",
"new": "lift (ctor RF (t2_inp (Some pts)) (t2_inp col) (t2_inp nrm) (INone RF))",
"edit": "normals and colors swapped",
"claim": "downsampling keeps the attributes"
},
{
"file": "IcpModel",
"definition": "strided",
"old": "((n + ds - 1) / ds)",
"new": "(n / ds)",
"edit": "last position dropped",
"claim": "downsampling keeps the pixels on the grid"
},
{
"file": "IcpModel",
"definition": "downsample_rgbdimages",
"old": "list_prod (strided k (r_h s)) (strided k (r_w s))",
"new": "list_prod (strided k (r_w s)) (strided k (r_h s))",
"edit": "height and width swapped",
"claim": "downsampling keeps the pixels on the grid"
},
{
"file": "IcpModel",
"definition": "downsample_rgbdimages",
"old": "let ps b := filter (fun q => at_ m [0; snd q; fst q; 0; b]) (list_prod",
"new": "let ps b := filter (fun _ => true) (list_prod",
"edit": "invalid depth kept",
"claim": "downsampling drops invalid pixels"
},
{
"file": "IcpModel",
"definition": "downsample_rgbdimages",
"old": "lift (guard (r_L s =? 1) ValueError) ;;;\n",
"new": "",
"edit": "long sequences accepted",
"claim": "sequence length 1 is required"
},
{
"file": "IcpModel",
"definition": "provide",
"old": "let? src := nth_cloud fl b in\n        let? tgt := nth_cloud ml b in",
"new": "let? src := nth_cloud ml b in\n        let? tgt := nth_cloud fl b in",
"edit": "source and target swapped",
"claim": "the provider aligns frames to maps"
},
{
"file": "IcpModel",
"definition": "provide",
"old": "lift (guard (len RF (fst s) =? len RF (snd s)) ValueError) ;;;\n",
"new": "",
"edit": "batch sizes not compared",
"claim": "batch sizes must agree"
},
{
"file": "IcpModel",
"definition": "stack_transforms",
"old": "at_ (nth b l t) [j; i]",
"new": "at_ t [j; i]",
"edit": "first transform for all",
"claim": "each batch element gets its transform"
},
{
"file": "IcpModel",
"definition": "stack_transforms",
"old": "at_ (nth b l t) [j; i]",
"new": "at_ (nth b l t) [i; j]",
"edit": "transposed",
"claim": "each batch element gets its transform"
},
{
"file": "IcpModel",
"definition": "run_icp",
"old": "| MIcp n d th => point_to_plane_ICP nn src tgt nor init n d th",
"new": "| MIcp n d th => point_to_plane_ICP nn src tgt nor init n d ThrNone",
"edit": "distance threshold ignored",
"claim": "the provider passes its options"
},
{
"file": "IcpModel",
"definition": "move",
"old": "let? c := select_first src in",
"new": "let c := src in",
"edit": "batch dimension not removed",
"claim": "points are moved by the transform"
},
{
"file": "SlamModel",
"definition": "choose_odom",
"old": "| NIcp => Ok (OIcp (MIcp numiters damp th))",
"new": "| NIcp => Ok (OIcp (MGradIcp numiters damp th lmax B B2 nu))",
"edit": "icp builds gradicp",
"claim": "odom selects the provider"
},
{
"file": "SlamModel",
"definition": "choose_odom",
"old": "| NOther => Err ValueError",
"new": "| NOther => Ok OGt",
"edit": "unknown names fall back to gt",
"claim": "unknown odometry raises ValueError"
},
{
"file": "SlamModel",
"definition": "pointfusion_new",
"old": "cos (a * PI / 180)",
"new": "cos a",
"edit": "degrees not converted",
"claim": "angle_th is in degrees"
},
{
"file": "SlamModel",
"definition": "localize",
"old": "kornia_compose (squeeze1 x) (squeeze1 t)",
"new": "kornia_compose (squeeze1 t) (squeeze1 x)",
"edit": "composition order",
"claim": "pose = transform * previous pose"
},
{
"file": "SlamModel",
"definition": "localize",
"old": "on_live (set_poses (match r_poses g with Some t => TTen t | None => TNone end)) ;;;\n",
"new": "",
"edit": "live frame not given the previous pose",
"claim": "registration starts at the previous pose"
},
{
"file": "SlamModel",
"definition": "localize",
"old": "do rows <- on_mp find_active_map_points;",
"new": "do rows <- on_ml find_active_map_points;",
"edit": "active points of the live frame",
"claim": "active map points are those seen by the previous frame"
},
{
"file": "SlamModel",
"definition": "localize",
"old": "None => raise ValueError end\n   | None",
"new": "None => ret tt end\n   | None",
"edit": "missing pose of the previous frame accepted",
"claim": "prev_frame must have poses"
},
{
"file": "SlamModel",
"definition": "step",
"old": "  on_live (set_poses (TTen t)) ;;;\n  do o",
"new": "  do o",
"edit": "pose not written to the frame",
"claim": "the live frame gets the recovered pose"
},
{
"file": "SlamModel",
"definition": "map_step",
"old": "| Aggregate => update_map_aggregate inplace",
"new": "| Aggregate => update_map_aggregate true",
"edit": "always in place",
"claim": "inplace=False leaves the map alone"
},
{
"file": "SlamModel",
"definition": "eye_poses",
"old": "if i =? j then 1%R else 0%R",
"new": "if i =? j then 2%R else 0%R",
"edit": "scaled identity",
"claim": "first pose defaults to the identity"
},
{
"file": "SlamModel",
"definition": "forward_loop",
"old": "if s =? 0 then",
"new": "if true then",
"edit": "every frame without pose gets the identity",
"claim": "only the first frame gets the default pose"
},
{
"file": "SlamModel",
"definition": "forward_loop",
"old": "if is_gt (s_odom c) then None else Some live'",
"new": "if is_gt (s_odom c) then None else Some live",
"edit": "previous frame without recovered pose",
"claim": "tracking continues from the recovered pose"
},
{
"file": "SlamModel",
"definition": "forward_loop",
"old": "let prev' := if is_gt (s_odom c) then None else Some live' in",
"new": "let prev' := None in",
"edit": "no previous frame",
"claim": "tracking uses the previous frame"
},
{
"file": "SlamModel",
"definition": "forward_loop",
"old": "do r <- forward_loop c n' (S s) p2 prev';",
"new": "do r <- forward_loop c n' s p2 prev';",
"edit": "frame index not advanced",
"claim": "every frame is used once"
},
{
"file": "SlamModel",
"definition": "forward_loop",
"old": "ret (fst r, t :: snd r)",
"new": "ret (fst r, snd r ++ [t])",
"edit": "poses in reverse order",
"claim": "recovered poses in frame order"
},
{
"file": "SlamModel",
"definition": "forward",
"old": "forward_loop c (r_L fr) 0 p None",
"new": "forward_loop c (r_L fr - 1) 0 p None",
"edit": "last frame dropped",
"claim": "every frame is used once"
},
{
"file": "SlamModel",
"definition": "stack_poses",
"old": "at_ t [j; i; 0; b]",
"new": "at_ t [j; i; 0; 0]",
"edit": "pose of batch element 0",
"claim": "every batch element gets its poses"
},
{
"file": "SlamModel",
"definition": "frame_at",
"old": "ESlice None None None; EInt",
"new": "ESlice None None None; ESlice None (Some (Z.of_nat s + 1)%Z) None] ) g. Definition unused_frame (s:nat) (g:rgbd) := rgbd_getitem (RTuple [EInt",
"edit": "frames[:, :s+1]",
"claim": "frame s alone is used"
},
{
"file": "Se3Model",
"definition": "so3_hat_mat",
"old": "| 0%nat, 2%nat => w1   | 2%nat, 0%nat => - w1",
"new": "| 0%nat, 2%nat => - w1   | 2%nat, 0%nat => w1",
"edit": "sign",
"claim": "so3_hat is the cross product"
},
{
"file": "Se3Model",
"definition": "so3_hat_mat",
"old": "| 1%nat, 2%nat => - w0 | 2%nat, 1%nat => w0",
"new": "| 1%nat, 2%nat => w0 | 2%nat, 1%nat => w0",
"edit": "not skew",
"claim": "so3_hat is the cross product"
},
{
"file": "Se3Model",
"definition": "se3_hat",
"old": "else if Nat.eqb j 3 then at1 v i else 0) else 0)",
"new": "else if Nat.eqb j 3 then at1 v i else 0) else if Nat.eqb j 3 then 1 else 0)",
"edit": "last row of a transform",
"claim": "se3_hat last row is zero"
},
{
"file": "Se3Model",
"definition": "rodA",
"old": "sin theta / theta",
"new": "sin theta",
"edit": "not divided",
"claim": "se3_exp is the exponential"
},
{
"file": "Se3Model",
"definition": "rodB",
"old": "(1 - cos theta) / theta ^ 2",
"new": "(1 - cos theta) / theta",
"edit": "power",
"claim": "se3_exp is the exponential"
},
{
"file": "Se3Model",
"definition": "rodC",
"old": "(theta - sin theta) / theta ^ 3",
"new": "(theta - sin theta) / theta ^ 2",
"edit": "power",
"claim": "se3_exp is the exponential"
},
{
"file": "Se3Model",
"definition": "se3_exp",
"old": "let t := mvec 3 V (at1 v) in",
"new": "let t := mvec 3 Rm (at1 v) in",
"edit": "R instead of V",
"claim": "se3_exp is the exponential"
},
{
"file": "Se3Model",
"definition": "se3_exp",
"old": "else if Nat.eqb j 3 then 1 else 0).",
"new": "else 0).",
"edit": "last row zero",
"claim": "se3_exp is a rigid transform"
},
{
"file": "Se3Model",
"definition": "se3_exp",
"old": "let omega := skipn 3 xi in",
"new": "let omega := firstn 3 xi in",
"edit": "rotation from the first three",
"claim": "se3_exp splits translation and rotation"
},
{
"file": "Se3Model",
"definition": "se3_eps",
"old": "/ 1000000",
"new": "/ 10",
"edit": "threshold 0.1",
"claim": "small-angle threshold"
},
{
"file": "Se3Model",
"definition": "so3_exp",
"old": "then Ok (madd mI wh)",
"new": "then Ok mI",
"edit": "identity for small angles",
"claim": "small-angle approximation to first order"
},
{
"file": "ProjModel",
"definition": "homogenize_points",
"old": "if i <? d then at_ pts (i :: r) else 1%R",
"new": "if i <? d then at_ pts (i :: r) else 0%R",
"edit": "padded with 0",
"claim": "homogenize appends 1"
},
{
"file": "ProjModel",
"definition": "homogenize_points",
"old": "if ndim pts <? 2 then Err ValueError\n  else match dims pts with\n       | d :: s => Ok (mkTen (S d",
"new": "if ndim pts <? 1 then Err ValueError\n  else match dims pts with\n       | d :: s => Ok (mkTen (S d",
"edit": "1-d accepted",
"claim": "bad shapes raise"
},
{
"file": "ProjModel",
"definition": "unhomog_scale",
"old": "if Rlt_dec eps (Rabs w)",
"new": "if Rlt_dec eps w",
"edit": "negative w not divided",
"claim": "unhomogenize divides by w"
},
{
"file": "ProjModel",
"definition": "unhomog_scale",
"old": "then (1 / w)%R else 1%R",
"new": "then (1 / w)%R else 0%R",
"edit": "points at infinity go to 0",
"claim": "unhomogenize leaves points with tiny w"
},
{
"file": "ProjModel",
"definition": "apply_mat",
"old": "(if d =? k - 1 then homogenize_points pts else Ok pts)",
"new": "(homogenize_points pts)",
"edit": "homogenised twice",
"claim": "both point formats are accepted"
},
{
"file": "ProjModel",
"definition": "check_mat",
"old": "guard ((d =? k - 1) || (d =? k)) ValueError",
"new": "guard (d =? k - 1) ValueError",
"edit": "homogeneous points rejected",
"claim": "both point formats are accepted"
},
{
"file": "ProjModel",
"definition": "check_mat",
"old": "  guard (negb ((2 <? ndim m) && negb (m0 =? p0))) ValueError.",
"new": "  Ok tt.",
"edit": "batch sizes not compared",
"claim": "bad shapes raise"
},
{
"file": "ProjModel",
"definition": "check_mat",
"old": "guard ((a =? k) && (b =? k)) ValueError ;;?\n",
"new": "",
"edit": "matrix size not checked",
"claim": "bad shapes raise"
},
{
"file": "ProjModel",
"definition": "safe_div",
"old": "then (x / 1)%R",
"new": "then 0%R",
"edit": "zero depth projects to 0",
"claim": "zero depth leaves x"
},
{
"file": "ProjModel",
"definition": "project_points",
"old": "let? z := select_m1 2 pts in",
"new": "let? z := select_m1 3 pts in",
"edit": "divides by w",
"claim": "projection divides by depth"
},
{
"file": "ProjModel",
"definition": "project_points",
"old": "Ok (stack_m1 u v).",
"new": "Ok (stack_m1 v u).",
"edit": "swapped",
"claim": "projection returns (u, v)"
},
{
"file": "ProjModel",
"definition": "unproject_points",
"old": "tmap2 Rmult pts (unsqueeze_m1 depths).",
"new": "Ok pts.",
"edit": "not scaled by depth",
"claim": "unprojection scales by depth"
},
{
"file": "ProjModel",
"definition": "unproject_points",
"old": "guard (if list_eq_dec Nat.eq_dec (tl (dims pixel_coords)) (dims depths) then true else false) ValueError ;;?\n",
"new": "",
"edit": "shapes of depth not compared",
"claim": "bad shapes raise"
},
{
"file": "ProjModel",
"definition": "inverse_intrinsics",
"old": "(fun r => -1 * cx r / (fx r + eps))",
"new": "(fun r => cx r / (fx r + eps))",
"edit": "sign of cx",
"claim": "inverse of the intrinsics"
},
{
"file": "ProjModel",
"definition": "inverse_intrinsics",
"old": "(fun r => -1 * cy r / (fy r + eps))",
"new": "(fun r => -1 * cy r / (fx r + eps))",
"edit": "cy divided by fx",
"claim": "inverse of the intrinsics"
},
{
"file": "ProjModel",
"definition": "inverse_intrinsics",
"old": "(fun r => 1 / (fy r + eps))",
"new": "(fun r => 1 / (fx r + eps))",
"edit": "fx for fy",
"claim": "inverse of the intrinsics"
},
{
"file": "ProjModel",
"definition": "inverse_intrinsics",
"old": "Ok (set_ent k5 (d1 - 1) (d0 - 1) (fun _ => 1%R))",
"new": "Ok k5",
"edit": "last entry not set",
"claim": "inverse of the intrinsics"
},
{
"file": "GTOdomModel",
"definition": "gt_provide",
"old": "relative_transformation (view_44 (ps_B r1) (ps_L r1) p1) (view_44 (ps_B r2) (ps_L r2) p2) false",
"new": "relative_transformation (view_44 (ps_B r2) (ps_L r2) p2) (view_44 (ps_B r1) (ps_L r1) p1) false",
"edit": "arguments swapped",
"claim": "ground-truth transform from frame1 to frame2"
},
{
"file": "GTOdomModel",
"definition": "gt_provide",
"old": "guard (ps_L r2 =? 1) ValueError ;;?\n",
"new": "",
"edit": "length of the second not checked",
"claim": "bad arguments raise"
},
{
"file": "GTOdomModel",
"definition": "gt_provide",
"old": "guard (ps_B r1 =? ps_B r2) ValueError ;;?\n",
"new": "",
"edit": "batch sizes not compared",
"claim": "bad arguments raise"
},
{
"file": "GTOdomModel",
"definition": "view_BL44",
"old": "b * L + l",
"new": "l * L + b",
"edit": "batch and sequence swapped",
"claim": "each batch element gets its transform"
},
{
"file": "DataUtilsModel",
"definition": "scale_intrinsics",
"old": "let k1 := scale_ent K 0 0 w_ratio in",
"new": "let k1 := scale_ent K 0 0 h_ratio in",
"edit": "height ratio for fx",
"claim": "scaled intrinsics"
},
{
"file": "DataUtilsModel",
"definition": "scale_intrinsics",
"old": "Ok (scale_ent k3 1 2 h_ratio)",
"new": "Ok k3",
"edit": "cy not scaled",
"claim": "scaled intrinsics"
},
{
"file": "DataUtilsModel",
"definition": "pq_scale",
"old": "5 / 10",
"new": "1",
"edit": "quaternion normalised without the half",
"claim": "rotation of the quaternion"
},
{
"file": "DataUtilsModel",
"definition": "pointquaternion_to_homogeneous",
"old": "| 0, 1 => o 0%nat 1%nat - o 2%nat 3%nat\n           | 0, 2 => o 0%nat 2%nat + o 1%nat 3%nat\n           | 1, 0 => o 0%nat 1%nat + o 2%nat 3%nat\n           | 1, 1 => 1 - (",
"new": "| 0, 1 => o 0%nat 1%nat + o 2%nat 3%nat\n           | 0, 2 => o 0%nat 2%nat + o 1%nat 3%nat\n           | 1, 0 => o 0%nat 1%nat + o 2%nat 3%nat\n           | 1, 1 => 1 - (",
"edit": "sign of an entry",
"claim": "rotation of the quaternion"
},
{
"file": "DataUtilsModel",
"definition": "pointquaternion_to_homogeneous",
"old": "let t k := comp x r k in",
"new": "let t k := comp x r (4 + k) in",
"edit": "translation from the wrong columns",
"claim": "translation of the pose"
},
{
"file": "DataUtilsModel",
"definition": "transform44",
"old": "let s := sqrt (2 / nq) in",
"new": "let s := 2 / nq in",
"edit": "no square root",
"claim": "rotation of the quaternion"
},
{
"file": "DataUtilsModel",
"definition": "transform44",
"old": "| 1, 1 => 1 - o 0%nat 0%nat - o 2%nat 2%nat",
"new": "| 1, 1 => 1 - o 0%nat 0%nat - o 1%nat 1%nat",
"edit": "wrong diagonal",
"claim": "rotation of the quaternion"
},
{
"file": "DataUtilsModel",
"definition": "p2t_loop",
"old": "let? rest := p2t_loop p ps in\n      Ok (mmul",
"new": "let? rest := p2t_loop prev ps in\n      Ok (mmul",
"edit": "transforms relative to the first pose",
"claim": "transforms between consecutive poses"
},
{
"file": "DataUtilsModel",
"definition": "p2t_loop",
"old": "Ok (mmul 4 inv p :: rest)",
"new": "Ok (mmul 4 p inv :: rest)",
"edit": "order",
"claim": "transforms between consecutive poses"
},
{
"file": "DataUtilsModel",
"definition": "poses_to_transforms",
"old": "Ok (mI :: rest)",
"new": "Ok (p :: rest)",
"edit": "first pose kept",
"claim": "first transform is the identity"
},
{
"file": "TextModel",
"definition": "strip",
"old": "rev (lstrip (rev (lstrip s)))",
"new": "lstrip s",
"edit": "only leading blanks stripped",
"claim": "files are parsed as Python does"
},
{
"file": "TextModel",
"definition": "is_space",
"old": "((9 <=? n) && (n <=? 13)) ||",
"new": "((9 <=? n) && (n <=? 12)) ||",
"edit": "carriage return is not white space",
"claim": "files are parsed as Python does"
},
{
"file": "TextModel",
"definition": "split_ws",
"old": "filter nonempty (split_if is_space s)",
"new": "split_if is_space s",
"edit": "empty words kept",
"claim": "files are parsed as Python does"
},
{
"file": "TextModel",
"definition": "readlines",
"old": "if nonempty (last l []) then l else removelast l",
"new": "l",
"edit": "empty last line kept",
"claim": "files are parsed as Python does"
},
{
"file": "TextModel",
"definition": "slice_end",
"old": "Z.to_nat (Z.of_nat n + e) else",
"new": "n else",
"edit": "negative end ignored",
"claim": "slices as in Python"
},
{
"file": "TextModel",
"definition": "slice",
"old": "(slice_end (length l) e - start)",
"new": "(slice_end (length l) e)",
"edit": "length not reduced by start",
"claim": "slices as in Python"
},
{
"file": "TextModel",
"definition": "dict_set",
"old": "if text_eqb k k' then (k', v) :: d'",
"new": "if text_eqb k k' then (k', v') :: d'",
"edit": "first value kept",
"claim": "a repeated key gets the last value"
},
{
"file": "TextModel",
"definition": "text_cmp",
"old": "| [], [] => Eq | [], _ => Lt | _, [] => Gt",
"new": "| [], [] => Eq | [], _ => Gt | _, [] => Lt",
"edit": "prefix order reversed",
"claim": "lexicographic order"
},
{
"file": "TextModel",
"definition": "last_n",
"old": "skipn (length s - n) s",
"new": "skipn n s",
"edit": "suffix",
"claim": "s[-n:]"
},
{
"file": "TextModel",
"definition": "item",
"old": "None => Err IndexError",
"new": "None => Err KeyError",
"edit": "wrong exception",
"claim": "IndexError for a missing position"
},
{
"file": "ItemModel",
"definition": "pyitem",
"old": "(if idx <? 0 then idx + n else idx)%Z",
"new": "idx",
"edit": "negative indices rejected",
"claim": "negative indices count from the end"
},
{
"file": "ItemModel",
"definition": "stack_0",
"old": "(fun ix => at_ (nth (last ix 0) l x) (removelast ix))",
"new": "(fun ix => at_ x (removelast ix))",
"edit": "first frame repeated",
"claim": "frames of the item in order"
},
{
"file": "ItemModel",
"definition": "preprocess_color",
"old": "cv_linear o (c_width c) (c_height c) x",
"new": "cv_linear o (c_height c) (c_width c) x",
"edit": "height and width swapped",
"claim": "images have the requested size"
},
{
"file": "ItemModel",
"definition": "preprocess_color",
"old": "if c_norm c then",
"new": "if negb (c_norm c) then",
"edit": "normalisation inverted",
"claim": "normalize_color"
},
{
"file": "ItemModel",
"definition": "preprocess_color",
"old": "if c_first c then channels_first (Img y) else Ok y.",
"new": "Ok y.",
"edit": "channels_first ignored",
"claim": "channels_first"
},
{
"file": "ItemModel",
"definition": "preprocess_depth",
"old": "(fun v => v / scaling)",
"new": "(fun v => v)",
"edit": "depth not scaled",
"claim": "depth in metres"
},
{
"file": "ItemModel",
"definition": "preprocess_depth",
"old": "cv_nearest o (c_width c) (c_height c) x",
"new": "cv_linear o (c_width c) (c_height c) x",
"edit": "linear interpolation of depth",
"claim": "depth is resized with nearest neighbour"
},
{
"file": "ItemModel",
"definition": "preprocess_poses",
"old": "let? p0 := select_first p in",
"new": "let? p0 := select_first (mkTen (dims p) (fun ix => at_ p (removelast ix ++ [nth 2 (dims p) 0 - 1 - last ix 0]))) in",
"edit": "poses relative to the last frame",
"claim": "poses relative to the first frame"
},
{
"file": "ItemModel",
"definition": "preprocess_label",
"old": "v mod 256",
"new": "v mod 128",
"edit": "label truncation",
"claim": "labels"
},
{
"file": "ItemModel",
"definition": "read_frames",
"old": "let? p := item depth_path i in",
"new": "let? p := item depth_path 0 in",
"edit": "depth of the first frame",
"claim": "depth belongs to the color image"
},
{
"file": "ItemModel",
"definition": "item_intrinsics",
"old": "(INR (c_height c) / 480)%R (INR (c_width c) / 640)%R",
"new": "(INR (c_width c) / 640)%R (INR (c_height c) / 480)%R",
"edit": "ratios swapped",
"claim": "intrinsics of the resized image"
},
{
"file": "ItemModel",
"definition": "K_of",
"old": "0, 2 => cx | 1, 1 => fy | 1, 2 => cy",
"new": "0, 2 => cy | 1, 1 => fy | 1, 2 => cx",
"edit": "principal point swapped",
"claim": "intrinsics of the camera"
},
{
"file": "ItemModel",
"definition": "pose_outputs",
"old": "Ok (a ++ b).",
"new": "Ok (b ++ a).",
"edit": "transforms before poses",
"claim": "order of the outputs"
},
{
"file": "ItemModel",
"definition": "tum_item",
"old": "read_frames rnd o c 5000 seqlen cp dp in\n  let? ms := (if load then homogen_poses",
"new": "read_frames rnd o c 1000 seqlen cp dp in\n  let? ms := (if load then homogen_poses",
"edit": "scale 1000",
"claim": "depth in metres"
},
{
"file": "ItemModel",
"definition": "tum_item",
"old": "let? st := pyitem (t_stamps d) idx in",
"new": "let? st := pyitem (t_stamps d) 0 in",
"edit": "timestamps of item 0",
"claim": "timestamps belong to the item"
},
{
"file": "ItemModel",
"definition": "tum_item",
"old": "Ok (OTen color :: depth ++ intr ++ pt ++ names ++ stamps).",
"new": "Ok (OTen color :: intr ++ depth ++ pt ++ names ++ stamps).",
"edit": "order",
"claim": "order of the outputs"
},
{
"file": "ItemModel",
"definition": "icl_item",
"old": "(K_of (4812 / 10) (- 480) (639 / 2) (479 / 2))",
"new": "(K_of (4812 / 10) 480 (639 / 2) (479 / 2))",
"edit": "sign of fy",
"claim": "intrinsics of the camera"
},
{
"file": "ItemModel",
"definition": "icl_item",
"old": "load_poses value f (snd meta)",
"new": "load_poses value f (map (fun l => l) (rev (snd meta)))",
"edit": "poses reversed",
"claim": "poses belong to the frames"
},
{
"file": "ItemModel",
"definition": "scan_item",
"old": "read_frames rnd o c 1000 seqlen (map sf_color fs) (map sf_depth fs)",
"new": "read_frames rnd o c 5000 seqlen (map sf_color fs) (map sf_depth fs)",
"edit": "scale 5000",
"claim": "depth in metres"
},
{
"file": "ItemModel",
"definition": "scan_item",
"old": "let? ip := pyitem (sd_intr d) idx in",
"new": "let? ip := pyitem (sd_intr d) 0 in",
"edit": "intrinsics of scene 0",
"claim": "intrinsics belong to the scene"
},
{
"file": "ItemModel",
"definition": "stamp_line",
"old": "txt \"rgb \" ++ r ++ txt \" depth \" ++ d",
"new": "txt \"rgb \" ++ d ++ txt \" depth \" ++ r",
"edit": "swapped",
"claim": "timestamps text"
},
{
"file": "DirModel",
"definition": "selected",
"old": "guard (isfile fs p) ValueError ;;? Ok",
"new": "Ok",
"edit": "missing file accepted",
"claim": "a missing selection file raises"
},
{
"file": "DirModel",
"definition": "chosen",
"old": "Some l => mem name l",
"new": "Some l => true",
"edit": "selection ignored",
"claim": "only the selected sequences"
},
{
"file": "DirModel",
"definition": "tum_folder",
"old": "  guard (negb (length split <? 4)) ValueError.",
"new": "  Ok tt.",
"edit": "length not checked",
"claim": "bad folder names rejected"
},
{
"file": "DirModel",
"definition": "tum_folder",
"old": "text_eqb (but_last_n 1 c) (txt \"freiburg\")",
"new": "text_eqb c (txt \"freiburg\")",
"edit": "digit not dropped",
"claim": "folder names"
},
{
"file": "DirModel",
"definition": "tum_list",
"old": "if isdir then",
"new": "if negb isdir then",
"edit": "files instead of directories",
"claim": "only directories are sequences"
},
{
"file": "DirModel",
"definition": "tum_check",
"old": "guard (negb load || isfile fs (pjoin p (txt \"groundtruth.txt\"))) ValueError.",
"new": "guard (isfile fs (pjoin p (txt \"groundtruth.txt\"))) ValueError.",
"edit": "ground truth always required",
"claim": "ground truth only needed for poses"
},
{
"file": "DirModel",
"definition": "tum_check",
"old": "guard (isfile fs (pjoin p (txt \"depth.txt\"))) ValueError ;;?\n",
"new": "",
"edit": "depth.txt not required",
"claim": "missing files raise"
},
{
"file": "DirModel",
"definition": "tum_dirs",
"old": "guard (match sel with Some l => length names =? length l | None => true end) ValueError ;;?\n  let? _",
"new": "let? _",
"edit": "missing sequences ignored",
"claim": "a selected sequence that does not exist raises"
},
{
"file": "DirModel",
"definition": "tum_open",
"old": "(contents fs (pjoin p (txt \"rgb.txt\"))) (contents fs (pjoin p (txt \"depth.txt\")))",
"new": "(contents fs (pjoin p (txt \"depth.txt\"))) (contents fs (pjoin p (txt \"rgb.txt\")))",
"edit": "files swapped",
"claim": "associations of rgb and depth"
},
{
"file": "DirModel",
"definition": "icl_folder",
"old": "text_eqb (firstn 16 f) (txt \"living_room_traj\") &&",
"new": "",
"edit": "prefix not checked",
"claim": "folder names"
},
{
"file": "DirModel",
"definition": "icl_posefile",
"old": "txt \"livingRoom\" ++ num ++ txt \"n.gt.sim\"",
"new": "txt \"livingRoom\" ++ num ++ txt \".gt.sim\"",
"edit": "name of the pose file",
"claim": "pose file of the trajectory"
},
{
"file": "DirModel",
"definition": "icl_check",
"old": "guard (isfile fs f) ValueError ;;? Ok (n, Some f)",
"new": "Ok (n, Some f)",
"edit": "missing pose file accepted",
"claim": "missing files raise"
},
{
"file": "DirModel",
"definition": "icl_dirs",
"old": "guard (match sel with Some l => length names =? length l | None => true end) ValueError ;;?\n  mapM",
"new": "mapM",
"edit": "missing trajectories ignored",
"claim": "a selected trajectory that does not exist raises"
},
{
"file": "DirModel",
"definition": "scene_of",
"old": "hd [] (split_on \"-\"%char file)",
"new": "file",
"edit": "whole name",
"claim": "scenes selected by the part before the dash"
},
{
"file": "DirModel",
"definition": "scannet_open",
"old": "filter (fun m => chosen sel (scene_of m)) metas",
"new": "metas",
"edit": "selection ignored",
"claim": "only the selected scenes"
}
]