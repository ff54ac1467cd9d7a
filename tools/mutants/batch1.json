[
 {
  "file": "StructUtilsModel",
  "definition": "list_to_padded",
  "old": "let? d0 := py_max (map t2n ne) in",
  "new": "let? d0 := py_max (map t2n (firstn 1 ne)) in",
  "edit": "default pad size taken from the first item only",
  "claim": "C01: padding then unpadding restores every item"
 },
 {
  "file": "StructUtilsModel",
  "definition": "fill_row",
  "old": "firstn d1 r ++ repeat v (d1 - length r)",
  "new": "repeat v (d1 - length r) ++ firstn d1 r",
  "edit": "pad value put before the data instead of after it",
  "claim": "C01: layout of padded tensors"
 },
 {
  "file": "StructUtilsModel",
  "definition": "padded_to_list",
  "old": "if negb (t3b x =? length ss) then Err ValueError",
  "new": "if (t3b x <? length ss) then Err ValueError",
  "edit": "length check of split_size accepts too few entries",
  "claim": "C02: a split of the wrong length is rejected"
 },
 {
  "file": "StructUtilsModel",
  "definition": "split_item",
  "old": "(map (prefix k1) (prefix k0 m))",
  "new": "(map (prefix k0) (prefix k1 m))",
  "edit": "row and column split sizes swapped",
  "claim": "C02/C01: split sizes select rows first"
 },
 {
  "file": "PointcloudsModel",
  "definition": "ctor_list",
  "old": "guard (forallb (fun sh => lastdim sh =? 3) pshapes) ValueError ;;?\n  let nums",
  "new": "let nums",
  "edit": "missing check that points have 3 columns",
  "claim": "C03: constructor accepts exactly the meaningful arguments"
 },
 {
  "file": "PointcloudsModel",
  "definition": "ctor_list",
  "old": "(length pl) (max_list nums) (Some (all_equal nums))",
  "new": "(length pl) (hd 0 nums) (Some (all_equal nums))",
  "edit": "max number of points taken from the first cloud",
  "claim": "C04/C05: padded view holds every point"
 },
 {
  "file": "PointcloudsModel",
  "definition": "unpad",
  "old": "(firstn (snd q) (fst q))",
  "new": "(firstn (S (snd q)) (fst q))",
  "edit": "one padding row leaks into the list view",
  "claim": "C05: padding never appears in the list view"
 },
 {
  "file": "PointcloudsModel",
  "definition": "mask_row",
  "old": "map (fun j => j <? n) (seq 0 N)",
  "new": "map (fun j => j <=? n) (seq 0 N)",
  "edit": "mask boundary off by one",
  "claim": "C05: mask marks exactly the real points"
 },
 {
  "file": "PointcloudsModel",
  "definition": "offset_",
  "old": "masked_update (fun p x m => fadd p (fmul x m)) o",
  "new": "masked_update (fun p x m => fadd p x) o",
  "edit": "offset also moves the padding",
  "claim": "C04: padding stays zero"
 },
 {
  "file": "PointcloudsModel",
  "definition": "scale_",
  "old": "masked_update (fun p x m => fmul (fmul p x) m) o",
  "new": "masked_update (fun p x m => fmul p m) o",
  "edit": "scale factor dropped",
  "claim": "C09: scale multiplies every coordinate"
 },
 {
  "file": "PointcloudsModel",
  "definition": "rotate_",
  "old": "let r := fun b i j => if pre then mat_el sh el b j i else mat_el sh el b i j in",
  "new": "let r := fun b i j => if pre then mat_el sh el b i j else mat_el sh el b j i in",
  "edit": "pre- and post-multiplication swapped",
  "claim": "C09: rotate applies R p"
 },
 {
  "file": "PointcloudsModel",
  "definition": "rotate_",
  "old": "modify (set_pad Normals (option_map (fun n => rot3 n r) np)) ;;;",
  "new": "",
  "edit": "normals not rotated",
  "claim": "C09: rotation also rotates the normals"
 },
 {
  "file": "PointcloudsModel",
  "definition": "rotate_",
  "old": "                modify (set_lst Points None) ;;;\n                modify (set_lst Normals None)",
  "new": "                modify (set_lst Points None)",
  "edit": "stale normals list kept after a rotation",
  "claim": "C04: views stay consistent"
 },
 {
  "file": "PointcloudsModel",
  "definition": "transform_",
  "old": "rotate_ rmat pre ;;; offset_ tvec",
  "new": "offset_ tvec ;;; rotate_ rmat pre",
  "edit": "translation applied before rotation",
  "claim": "C09: transform is R p + t"
 },
 {
  "file": "PointcloudsModel",
  "definition": "masked_update",
  "old": "            modify (set_pad Points (Some p')) ;;;\n            modify (set_lst Points None)\n        | _, _ => raise TypeError",
  "new": "            modify (set_pad Points (Some p'))\n        | _, _ => raise TypeError",
  "edit": "list cache not invalidated after arithmetic",
  "claim": "C04: views stay consistent"
 },
 {
  "file": "PointcloudsModel",
  "definition": "assert_set_padded",
  "old": "if negb z then raise ValueError else ret v",
  "new": "ret v",
  "edit": "padding-is-zero check dropped in the padded setters",
  "claim": "C11: setters reject non-zero padding"
 },
 {
  "file": "PointcloudsModel",
  "definition": "copy_tensors",
  "old": "(or_else (mask from) (mask to)) (flg to) (num from)",
  "new": "(or_else (mask from) (mask to)) (flg to) (num to)",
  "edit": "clone keeps the constructor-computed counts",
  "claim": "C07/C08: clone shows the same content"
 },
 {
  "file": "PointcloudsModel",
  "definition": "set_list",
  "old": "modify (set_pad Points None)",
  "new": "ret tt",
  "edit": "points_list setter keeps the old padded tensor",
  "claim": "C13: points_list assignment visible in the padded view"
 },
 {
  "file": "PointcloudsModel",
  "definition": "project1",
  "old": "let d := if feq_dec z f0 then f1 else z in",
  "new": "let d := z in",
  "edit": "division by zero depth not guarded",
  "claim": "C10: pinhole projection of depth 0"
 },
 {
  "file": "GeomModel",
  "definition": "inverse_transfom_3d",
  "old": "matmul (tmap Ropp rmat_inv) tvec",
  "new": "matmul rmat_inv tvec",
  "edit": "sign of the inverse translation dropped",
  "claim": "C20: inverse composes to the identity"
 },
 {
  "file": "GeomModel",
  "definition": "compose_transforms_3d",
  "old": "let? rmat_cat := matmul rmat1 rmat2 in",
  "new": "let? rmat_cat := matmul rmat2 rmat1 in",
  "edit": "rotation order swapped",
  "claim": "C20: composition is matrix product"
 },
 {
  "file": "GeomModel",
  "definition": "compose_transforms_3d",
  "old": "let? rt := matmul rmat1 tvec2 in",
  "new": "let? rt := matmul rmat2 tvec2 in",
  "edit": "translation rotated by the wrong matrix",
  "claim": "C20: composition"
 },
 {
  "file": "GeomModel",
  "definition": "quat_entries",
  "old": "[1 - (tyy + tzz); txy - twz; txz + twy;",
  "new": "[1 - (tyy + tzz); txy + twz; txz + twy;",
  "edit": "sign error in the rotation matrix",
  "claim": "C19: quaternion gives a rotation"
 },
 {
  "file": "GeomModel",
  "definition": "axisangle_k",
  "old": "(if Rlt_dec qw 0 then atan2 (- s) (- qw) else atan2 s qw)",
  "new": "(atan2 s qw)",
  "edit": "double-cover branch dropped",
  "claim": "C18: axis-angle bounded by pi"
 },
 {
  "file": "GeomModel",
  "definition": "transform_pts_3d",
  "old": "(if d =? 3 then homogenize_points pts_b else Ok pts_b)",
  "new": "(homogenize_points pts_b)",
  "edit": "homogeneous inputs homogenised again",
  "claim": "C22: transform of homogeneous points"
 },
 {
  "file": "GeomModel",
  "definition": "transform_pointcloud",
  "old": "tmap2 Rplus m (unsqueeze_m1 tvec)",
  "new": "Ok m",
  "edit": "translation dropped",
  "claim": "C23: transform_pointcloud is R p + t"
 },
 {
  "file": "GeomModel",
  "definition": "normalize_pixel_coords",
  "old": "(pix_norm height width i * comp p r i - 1)",
  "new": "(pix_norm width height i * comp p r i - 1)",
  "edit": "height and width swapped",
  "claim": "C25: normalised coordinates in [-1,1]"
 },
 {
  "file": "GeomModel",
  "definition": "create_meshgrid",
  "old": "linspace 0 (INR height - 1) height",
  "new": "linspace 0 (INR height) height",
  "edit": "last grid coordinate is H instead of H-1",
  "claim": "C26: pixel grid"
 },
 {
  "file": "RgbdModel",
  "definition": "set_poses",
  "old": "modify (fun s => with_maps (r_vm s) (r_nm s) None None (with_poses (Some t) s))",
  "new": "modify (with_poses (Some t))",
  "edit": "cached global maps kept after assigning poses",
  "claim": "C32: reads mean the current inputs"
 },
 {
  "file": "RgbdModel",
  "definition": "set_intr",
  "old": "modify (fun s => with_maps None None None None (with_intr (Some t) s))",
  "new": "modify (fun s => with_maps None (r_nm s) None (r_gnm s) (with_intr (Some t) s))",
  "edit": "normal maps kept after assigning intrinsics",
  "claim": "C32: reads mean the current inputs"
 },
 {
  "file": "RgbdModel",
  "definition": "convert_",
  "old": "do s <- get; do x <- lift (permute_if_not_None p (r_gnm s)); modify (with_gnm x) ;;;\n",
  "new": "",
  "edit": "global normal map not permuted",
  "claim": "C33: channel conversion keeps the content"
 },
 {
  "file": "RgbdModel",
  "definition": "to_channels_last",
  "old": "if negb (copy || r_cf s) then Ok Self",
  "new": "if negb (r_cf s) then Ok Self",
  "edit": "copy flag ignored",
  "claim": "C33/C34: copy=True returns a new object"
 },
 {
  "file": "RgbdModel",
  "definition": "elem_pos",
  "old": "slice_pos (Some i) (Some (i + 1)%Z) None n",
  "new": "slice_pos (Some i) None None n",
  "edit": "int index selects the tail",
  "claim": "C35: indexing selects the addressed frames"
 },
 {
  "file": "RgbdModel",
  "definition": "rgbd_getitem",
  "old": "let? p := take_opt kb kl (r_poses s) in",
  "new": "let? p := take_opt kb (seq 0 (length kl)) (r_poses s) in",
  "edit": "poses taken from the first frames",
  "claim": "C35: indexing keeps poses aligned"
 },
 {
  "file": "RgbdModel",
  "definition": "pixel_grid",
  "old": "if c =? 0 then at_ mg [1; j; i; 0] else if c =? 1 then at_ mg [0; j; i; 0]",
  "new": "if c =? 0 then at_ mg [0; j; i; 0] else if c =? 1 then at_ mg [1; j; i; 0]",
  "edit": "row and column swapped in the pixel grid",
  "claim": "C29: vertex projects to its pixel"
 },
 {
  "file": "RgbdModel",
  "definition": "compute_vertex_map",
  "old": "          do v' <- masked v;\n          modify (with_vm (Some v'))",
  "new": "          ret tt",
  "edit": "invalid depth not masked in the vertex map",
  "claim": "C29: invalid pixels have vertex 0"
 },
 {
  "file": "RgbdModel",
  "definition": "copy_last",
  "old": "at_ y (upd p (n - 2) ix)",
  "new": "at_ y (upd p 0 ix)",
  "edit": "last difference copied from the first column",
  "claim": "C31: normals at the border"
 },
 {
  "file": "FusionModel",
  "definition": "alpha_of",
  "old": "/ (2 * (sigma ^ 2))",
  "new": "/ (sigma ^ 2)",
  "edit": "factor 2 dropped in the Gaussian",
  "claim": "C36: alpha is the Gaussian"
 },
 {
  "file": "FusionModel",
  "definition": "is_in_frame",
  "old": "(if Rlt_dec u (INR width - 999 / 1000)%R then true else false)",
  "new": "(if Rlt_dec u (INR height - 999 / 1000)%R then true else false)",
  "edit": "width compared with height",
  "claim": "C37: active points are those inside the image"
 },
 {
  "file": "FusionModel",
  "definition": "find_active_map_points",
  "old": "                  pos_dec (get3 RF cam (fst q) (snd q) 2) &&\n",
  "new": "",
  "edit": "points behind the camera kept",
  "claim": "C37: positive depth"
 },
 {
  "file": "FusionModel",
  "definition": "find_active_map_points",
  "old": "nth (snd q) (nth (fst q) m []) false in",
  "new": "true in",
  "edit": "padding points kept",
  "claim": "C37: only real points"
 },
 {
  "file": "FusionModel",
  "definition": "find_similar_map_points",
  "old": "at_ cl [rn r; rb r] && at_ si [rn r; rb r]",
  "new": "at_ cl [rn r; rb r] || at_ si [rn r; rb r]",
  "edit": "and replaced by or",
  "claim": "C38: both thresholds"
 },
 {
  "file": "FusionModel",
  "definition": "criteria",
  "old": "(1 / (get3 RF feat (rb r) (rn r) c + / 10 ^ 20))%R",
  "new": "(get3 RF feat (rb r) (rn r) c)%R",
  "edit": "lowest confidence preferred",
  "claim": "C39: highest confidence wins"
 },
 {
  "file": "FusionModel",
  "definition": "differs",
  "old": "[0; 1; 2]",
  "new": "[0; 1]",
  "edit": "uniqueness per row of the image instead of per pixel",
  "claim": "C39: one row for every pixel"
 },
 {
  "file": "FusionModel",
  "definition": "weighted",
  "old": "let? b := zip3 Rmult alphas frame in",
  "new": "let? b := zip3 Rmult counts frame in",
  "edit": "wrong weight of the new measurement",
  "claim": "C41: weighted mean"
 },
 {
  "file": "FusionModel",
  "definition": "merge_points",
  "old": "      onp (set_padded RF Colors (SP RF (AT3 RF v3))) ;;;\n",
  "new": "",
  "edit": "colors not merged",
  "claim": "C41: colors merged likewise"
 },
 {
  "file": "FusionModel",
  "definition": "fuse_with_map",
  "old": "filter (fun q => negb (taken b q) && at_ valid [0; snd (snd q); fst (snd q); fst q; b])",
  "new": "filter (fun q => at_ valid [0; snd (snd q); fst (snd q); fst q; b])",
  "edit": "matched pixels appended as well",
  "claim": "C41/C42: each pixel merged or appended once"
 },
 {
  "file": "FusionModel",
  "definition": "fuse_with_map",
  "old": "negb (taken b q) && at_ valid [0; snd (snd q); fst (snd q); fst q; b]",
  "new": "negb (taken b q)",
  "edit": "invalid pixels appended",
  "claim": "C41/C42: only valid pixels"
 },
 {
  "file": "FusionModel",
  "definition": "append_to",
  "old": "    do o <- onp (clone RF);\n    match append_points RF (o, new) with\n    | (Ok _, (o', _)) => ret (PNew o')\n    | (Err e, _) => raise e\n    end.",
  "new": "    fun s => match append_points RF (fst s, new) with\n             | (Ok _, (p, _)) => (Ok (PNew p), (p, snd s))\n             | (Err e, (p, _)) => (Err e, (p, snd s))\n             end.",
  "edit": "clone dropped when inplace=False",
  "claim": "C43: out-of-place updates leave the map unchanged"
 },
 {
  "file": "FusionModel",
  "definition": "update_map_aggregate",
  "old": "pointclouds_from_rgbdimages true true",
  "new": "pointclouds_from_rgbdimages false true",
  "edit": "local instead of global coordinates",
  "claim": "C44: frames aggregated in the global frame"
 }
]