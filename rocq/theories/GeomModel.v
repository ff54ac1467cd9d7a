(* Model of gradslam/geometry/geometryutils.py (tensors over R, arguments are tensors).
   homogenize_points / unhomogenize_points (11-76) are textually those of projutils.py: see ProjModel. *)
From Coq Require Import Reals List Arith Bool ZArith.
From Verif Require Import Res MatSpec TensorModel LinAlgModel ProjModel.
Import ListNotations.
Local Open Scope nat_scope.

(* ---------------------------------------------------------------- quaternions, axis-angle *)
(* C's atan2 (torch.atan2) *)
Definition atan2 (y x : R) : R :=
  (if Rlt_dec 0 x then atan (y / x)
   else if Rlt_dec x 0 then (if Rle_dec 0 y then atan (y / x) + PI else atan (y / x) - PI)
   else if Rlt_dec 0 y then PI / 2 else if Rlt_dec y 0 then - (PI / 2) else 0)%R.

(* geometryutils.py:102-118 at one quaternion (qx,qy,qz,qw): the factor k *)
Definition axisangle_k (qx qy qz qw : R) : R :=
  (let s2 := qx * qx + qy * qy + qz * qz in
   let s := sqrt s2 in
   let two_theta := 2 * (if Rlt_dec qw 0 then atan2 (- s) (- qw) else atan2 s qw) in
   if Rlt_dec 0 s2 then two_theta / s else 2)%R.

(* geometryutils.py:79-124 *)
Definition quaternion_to_axisangle (q : ten R) : res (ten R) :=
  let? d := size_m1 q in
  if d =? 4 then
    Ok (mkTen (3 :: tl (dims q)) (fun ix => match ix with
      | i :: r => (comp q r i * axisangle_k (comp q r 0) (comp q r 1) (comp q r 2) (comp q r 3))%R
      | [] => 0%R end))
  else Err ValueError.

(* geometryutils.py:127-145: torch.nn.functional.normalize(q, p=2, dim=-1, eps) = q / max(||q||, eps) *)
Definition quat_norm (q : ten R) (r : list nat) : R :=
  sqrt (rsum 4 (fun i => comp q r i * comp q r i))%R.
(* geometryutils.py:127-145 *)
Definition normalize_quaternion (q : ten R) (eps : R) : res (ten R) :=
  let? d := size_m1 q in
  if d =? 4 then
    Ok (mkTen (dims q) (fun ix => match ix with
      | i :: r => (comp q r i / Rmax (quat_norm q r) eps)%R
      | [] => 0%R end))
  else Err ValueError.

(* the default eps = 1e-12 (geometryutils.py:127) *)
Definition eps12 : R := (/ 1000000000000)%R.

(* geometryutils.py:171-199: the nine entries, from the components of the normalised quaternion *)
Definition quat_entries (x y z w : R) : list R :=
  (let tx := 2 * x in let ty := 2 * y in let tz := 2 * z in
   let twx := tx * w in let twy := ty * w in let twz := tz * w in
   let txx := tx * x in let txy := ty * x in let txz := tz * x in
   let tyy := ty * y in let tyz := tz * y in let tzz := tz * z in
   [1 - (tyy + tzz); txy - twz; txz + twy;
    txy + twz; 1 - (txx + tzz); tyz - twx;
    txz - twy; tyz + twx; 1 - (txx + tyy)])%R.

(* geometryutils.py:148-202.  stack(..., dim=-1) has shape (..., 1, 9); view(-1, 3, 3) flattens all leading
   dimensions (row-major); a 1-d input is squeezed back to (3, 3). *)
Definition quaternion_to_rotation_matrix (q : ten R) : res (ten R) :=
  let? d := size_m1 q in
  guard (d =? 4) ValueError ;;?
  let? qn := normalize_quaternion q eps12 in
  let s := tl (dims q) in
  let m := mkTen [3; 3; prod_list s] (fun ix => match ix with
      | j :: i :: k :: _ =>
          let r := unravel s k in
          nth (3 * i + j) (quat_entries (comp qn r 0) (comp qn r 1) (comp qn r 2) (comp qn r 3)) 0%R
      | _ => 0%R end) in
  if ndim q =? 1 then Ok (mkTen [3; 3] (fun ix => match ix with [j; i] => at_ m [j; i; 0] | _ => 0%R end))
  else Ok m.

(* ---------------------------------------------------------------- transforms *)
(* "if not trans.dim() in (2, 3) and trans.shape[-2, :] == (4, 4): raise ValueError" (219, 265, 277):
   for 2 or 3 dims nothing is checked; otherwise evaluating shape[-2, :] raises TypeError *)
Definition dim_check (t : ten R) : res unit :=
  guard ((ndim t =? 2) || (ndim t =? 3)) TypeError.

(* x[..., :3, :3] *)
Definition block3 (x : ten R) : res (ten R) :=
  match dims x with
  | d0 :: d1 :: _ => Ok (narrow_m1 0 (Nat.min 3 d0) (narrow_m2 0 (Nat.min 3 d1) x))
  | _ => Err IndexError
  end.
(* x[..., :3, 3] *)
Definition col3 (x : ten R) : res (ten R) :=
  match dims x with
  | _ :: d1 :: _ => select_m1 3 (narrow_m2 0 (Nat.min 3 d1) x)
  | _ => Err IndexError
  end.
(* zeros_like(x); [..., :3, :3] = r; [..., :3, 3] = t; [..., -1, -1] = 1.0 *)
Definition pack_transform (x r t : ten R) : res (ten R) :=
  let? a := set_block3 (zeros_like x) r in
  let? b := set_col3 a t in
  match dims x with
  | d0 :: d1 :: _ => if (d0 =? 0) || (d1 =? 0) then Err IndexError
                     else Ok (set_ent b (d1 - 1) (d0 - 1) (fun _ => 1%R))
  | _ => Err IndexError
  end.

(* geometryutils.py:205-241 *)
Definition inverse_transfom_3d (trans : ten R) : res (ten R) :=
  dim_check trans ;;?
  let? rmat := block3 trans in
  let? tvec := col3 trans in
  let rmat_inv := transpose_m rmat in
  let? tvec_inv := matmul (tmap Ropp rmat_inv) tvec in
  pack_transform trans rmat_inv tvec_inv.

(* geometryutils.py:244-301 *)
Definition compose_transforms_3d (trans1 trans2 : ten R) : res (ten R) :=
  dim_check trans1 ;;?
  dim_check trans2 ;;?
  guard (if list_eq_dec Nat.eq_dec (dims trans1) (dims trans2) then true else false) AssertionError ;;?
  let? rmat1 := block3 trans1 in
  let? rmat2 := block3 trans2 in
  let? tvec1 := col3 trans1 in
  let? tvec2 := col3 trans2 in
  let? rmat_cat := matmul rmat1 rmat2 in
  let? rt := matmul rmat1 tvec2 in
  let? tvec_cat := tmap2 Rplus rt tvec1 in
  pack_transform trans1 rmat_cat tvec_cat.

(* geometryutils.py:393-410 *)
Definition relative_transform_3d (trans_01 trans_02 : ten R) : res (ten R) :=
  let? i := inverse_transfom_3d trans_01 in compose_transforms_3d i trans_02.

(* x.shape[-2:] == (4, 4) *)
Definition is44 (x : ten R) : bool :=
  match dims x with d0 :: d1 :: _ => (d0 =? 4) && (d1 =? 4) | _ => false end.
(* kornia.geometry.linalg (external): the guard of its functions on one argument *)
Definition kornia_guard (x : ten R) : res unit :=
  guard (((ndim x =? 2) || (ndim x =? 3)) && is44 x) ValueError.
(* kornia.geometry.linalg.inverse_transformation (external): R^T, -R^T t (as a column), last row 0 0 0 1 *)
Definition kornia_inverse (x : ten R) : res (ten R) :=
  kornia_guard x ;;?
  Ok (mkTen (dims x) (fun ix => match ix with
    | j :: i :: r =>
        if i <? 3 then
          if j <? 3 then ent x r j i
          else (rsum 3 (fun k => - ent x r k i * ent x r k 3))%R
        else if j <? 3 then 0%R else 1%R
    | _ => 0%R end)).
(* kornia.geometry.linalg.compose_transformations (external): R1 R2, R1 t2 + t1, last row 0 0 0 1.
   Batches broadcast; for the equal batch sizes used here slice by slice. *)
Definition kornia_compose (x y : ten R) : res (ten R) :=
  kornia_guard x ;;? kornia_guard y ;;?
  guard (ndim x =? ndim y) ValueError ;;?
  match dims x, dims y with
  | _ :: _ :: sx, _ :: _ :: sy =>
      let? s := bshape sx sy in
      Ok (mkTen (4 :: 4 :: s) (fun ix => match ix with
        | j :: i :: r =>
            if i <? 3 then
              if j <? 3 then (rsum 3 (fun k => ent x (bix sx r) i k * ent y (bix sy r) k j))%R
              else (rsum 3 (fun k => ent x (bix sx r) i k * ent y (bix sy r) k 3) + ent x (bix sx r) i 3)%R
            else if j <? 3 then 0%R else 1%R
        | _ => 0%R end))
  | _, _ => Err ValueError
  end.

(* geometryutils.py:413-478.  torch.inverse is external (LinAlgModel).
   "not dim in (2,3) and shape[-2:] == (4,4)" raises only for 4x4 tensors of other rank. *)
Definition relative_transformation (trans_01 trans_02 : ten R)
    (orthogonal_rotations : bool) : res (ten R) :=
  guard (negb (negb ((ndim trans_01 =? 2) || (ndim trans_01 =? 3)) && is44 trans_01)) ValueError ;;?
  guard (negb (negb ((ndim trans_02 =? 2) || (ndim trans_02 =? 3)) && is44 trans_02)) ValueError ;;?
  guard (ndim trans_01 =? ndim trans_02) ValueError ;;?
  let? trans_10 := (if orthogonal_rotations then kornia_inverse trans_01 else torch_inverse trans_01) in
  kornia_compose trans_10 trans_02.

(* ---------------------------------------------------------------- points *)
(* geometryutils.py:304-358 *)
Definition transform_pts_3d (pts_b t_ab : ten R) : res (ten R) :=
  guard (negb (ndim pts_b <? 2)) ValueError ;;?
  guard (ndim t_ab =? 2) ValueError ;;?
  guard (is44 t_ab) ValueError ;;?
  let? d := size_m1 pts_b in
  let? p := (if d =? 3 then homogenize_points pts_b else Ok pts_b) in
  let? a := (if ndim p =? 4
             then rmap squeeze_m1 (matmul (unsqueeze_0 (unsqueeze_0 t_ab)) (unsqueeze_m1 p))
             else matmul (unsqueeze_0 t_ab) (unsqueeze_m1 p)) in
  let? u := unhomogenize_points a eps6 in
  match dims u with
  | e :: _ => Ok (narrow_m1 0 (Nat.min 3 e) u)
  | [] => Err IndexError
  end.

(* geometryutils.py:361-390 *)
Definition transform_pts_nd_KF (pts tform : ten R) : res (ten R) :=
  let? p0 := size_0 pts in
  let? t0 := size_0 tform in
  guard (p0 =? t0) ValueError ;;?
  let? pd := size_m1 pts in
  let? td := size_m1 tform in
  guard (pd + 1 =? td) ValueError ;;?
  let? h := homogenize_points pts in
  let? a := matmul (unsqueeze_1 tform) (unsqueeze_m1 h) in
  unhomogenize_points (squeeze_m1 a) eps6.

(* geometryutils.py:755-794 / 815-837: shape checks of transform_pointcloud and transform_normals.
   A transform of rank above 2 passes the check "shape[-2:] == (4, 4)" but then transform[:3, :3] slices
   the two leading dimensions, the last extent stays 4 and torch.matmul with a (3, N) matrix raises. *)
Definition cloud_check (cloud transform : ten R) : res unit :=
  guard (ndim cloud =? 2) ValueError ;;?
  let? d := size_m1 cloud in
  guard (d =? 3) ValueError ;;?
  guard (is44 transform) ValueError ;;?
  guard (ndim transform =? 2) RuntimeError.

(* geometryutils.py:737-794 *)
Definition transform_pointcloud (pointcloud transform : ten R) : res (ten R) :=
  cloud_check pointcloud transform ;;?
  let? rmat := block3 transform in
  let? tvec := col3 transform in
  let? m := matmul rmat (transpose_m pointcloud) in
  let? t := tmap2 Rplus m (unsqueeze_m1 tvec) in
  Ok (transpose_m t).

(* geometryutils.py:797-837 *)
Definition transform_normals (normals transform : ten R) : res (ten R) :=
  cloud_check normals transform ;;?
  let? rmat := block3 transform in
  let? m := matmul rmat (transpose_m normals) in
  Ok (transpose_m m).

(* geometryutils.py:611-652: cam2pixel; needs a 4-d cam_coords_src ("_, h, w, _ = shape": ValueError
   for 3 dims after the assertion let it through); "shape[0] == 4 and shape[0] == 4" checks rows twice *)
Definition perspective (pts : ten R) : res (ten R) :=
  let? x := select_m1 0 pts in
  let? y := select_m1 1 pts in
  let? z := select_m1 2 pts in
  let? u := tmap2 safe_div x z in
  let? v := tmap2 safe_div y z in
  Ok (stack_m1 u v).
(* geometryutils.py:611-652 *)
Definition cam2pixel (cam_coords_src dst_proj_src : ten R) : res (ten R) :=
  guard ((ndim cam_coords_src =? 3) || (ndim cam_coords_src =? 4)) AssertionError ;;?
  let? d := size_m1 cam_coords_src in
  guard (d =? 3) AssertionError ;;?
  guard (ndim dst_proj_src =? 2) AssertionError ;;?
  let? d0 := size_0 dst_proj_src in
  guard (d0 =? 4) AssertionError ;;?
  guard (ndim cam_coords_src =? 4) ValueError ;;?
  let? pts := transform_pts_3d cam_coords_src dst_proj_src in
  perspective pts.

(* depth.permute(0, 2, 3, 1): (B, C, H, W) -> (B, H, W, C); RuntimeError for another rank *)
Definition permute_0231 (x : ten R) : res (ten R) :=
  match dims x with
  | [w; h; c; b] => Ok (mkTen [c; w; h; b] (fun ix => match ix with
        | [k; j; i; n] => at_ x [j; i; k; n] | _ => 0%R end))
  | _ => Err RuntimeError
  end.
(* geometryutils.py:655-700: pixel2cam *)
Definition pixel2cam (depth intrinsics_inv pixel_coords : ten R) : res (ten R) :=
  let? d0 := size_0 intrinsics_inv in
  guard (d0 =? 4) AssertionError ;;?
  let? d1 := (match shape intrinsics_inv with _ :: d1 :: _ => Ok d1 | _ => Err IndexError end) in
  guard ((d1 =? 4) && (ndim intrinsics_inv =? 2)) AssertionError ;;?
  let? cam := transform_pts_3d pixel_coords intrinsics_inv in
  let? dp := permute_0231 depth in
  tmap2 Rmult cam dp.

(* geometryutils.py:703-734: cam2pixel_KF *)
Definition cam2pixel_KF (cam_coords_src P : ten R) : res (ten R) :=
  let? d := size_m1 cam_coords_src in
  guard (d =? 3) AssertionError ;;?
  guard (negb (ndim P <? 2) && is44 P) AssertionError ;;?
  let? pts := transform_pts_nd_KF cam_coords_src P in
  perspective pts.

(* ---------------------------------------------------------------- pixel grids *)
(* geometryutils.py:481-528; height and width are Python ints.  norm = 2 / (wh - 1), entry 0 height, entry 1
   width.  The division by zero for an extent of 1 gives inf in torch (excluded in the theorems). *)
Definition pix_norm (height width : Z) (i : nat) : R :=
  (2 / (IZR (if i =? 0 then height else width) - 1))%R.
(* geometryutils.py:481-528 *)
Definition normalize_pixel_coords (p : ten R) (height width : Z) : res (ten R) :=
  let? d := size_m1 p in
  if d =? 2 then
    Ok (mkTen (dims p) (fun ix => match ix with
      | i :: r => (pix_norm height width i * comp p r i - 1)%R | [] => 0%R end))
  else Err ValueError.
(* geometryutils.py:531-573 *)
Definition unnormalize_pixel_coords (p : ten R) (height width : Z) : res (ten R) :=
  let? d := size_m1 p in
  if d =? 2 then
    Ok (mkTen (dims p) (fun ix => match ix with
      | i :: r => (1 / pix_norm height width i * (comp p r i + 1))%R | [] => 0%R end))
  else Err ValueError.

(* torch.linspace(a, b, steps)[i]: a + i (b - a) / (steps - 1), just a for one step *)
Definition linspace (a b : R) (steps i : nat) : R :=
  if steps =? 1 then a else (a + INR i * ((b - a) / (INR steps - 1)))%R.
(* geometryutils.py:576-608; heights and widths are non-negative (linspace raises otherwise).
   Output shape 1 x H x W x 2, entry [0, i, j] = (xs[i], ys[j]). *)
Definition create_meshgrid (height width : nat) (normalized_coords : bool) : ten R :=
  let xs := if normalized_coords then linspace (-1) 1 height else linspace 0 (INR height - 1) height in
  let ys := if normalized_coords then linspace (-1) 1 width else linspace 0 (INR width - 1) width in
  mkTen [2; width; height; 1] (fun ix => match ix with
    | [k; j; i; _] => if k =? 0 then xs i else ys j | _ => 0%R end).
