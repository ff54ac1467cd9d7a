(* Model of gradslam/geometry/projutils.py (its homogenize/unhomogenize are textually the same as
   geometryutils.py:11-76).  Tensors are TensorModel tensors over R; the type checks
   (TypeError when an argument is not a tensor) are not represented: arguments are tensors. *)
From Coq Require Import Reals List Arith Bool.
From Verif Require Import Res MatSpec TensorModel.
Import ListNotations.
Local Open Scope nat_scope.

(* the default eps = 1e-6 (projutils.py:46, 405) *)
Definition eps6 : R := (/ 1000000)%R.

(* projutils.py:32-43; geometryutils.py:25-36.  torch.nn.functional.pad(pts, (0, 1), "constant", 1.0) *)
Definition homogenize_points (pts : ten R) : res (ten R) :=
  if ndim pts <? 2 then Err ValueError
  else match dims pts with
       | d :: s => Ok (mkTen (S d :: s) (fun ix => match ix with
                        | i :: r => if i <? d then at_ pts (i :: r) else 1%R
                        | [] => 1%R end))
       | [] => Err ValueError
       end.

(* torch.where(|w| > eps, 1/w, 1) at one entry *)
Definition unhomog_scale (eps w : R) : R := if Rlt_dec eps (Rabs w) then (1 / w)%R else 1%R.

(* projutils.py:69-89; geometryutils.py:57-76.  w = pts[..., -1:], result scale * pts[..., :-1] *)
Definition unhomogenize_points (pts : ten R) (eps : R) : res (ten R) :=
  if ndim pts <? 2 then Err ValueError
  else match dims pts with
       | d :: s =>
           let w := narrow_m1 (d - Nat.min 1 d) (Nat.min 1 d) pts in
           let scale := tmap (unhomog_scale eps) w in
           tmap2 Rmult scale (narrow_m1 0 (d - 1) pts)
       | [] => Err ValueError
       end.

(* while proj_mat.dim() < pts.dim(): proj_mat = proj_mat.unsqueeze(0) *)
Definition expand_front (n : nat) (x : ten R) : ten R := Nat.iter (n - ndim x) unsqueeze_0 x.

(* projutils.py:206-226 / 371-399: homogenize when the last extent is [dim - 1], expand the matrix, batch
   matmul, drop the last dimension.  [k] is the size of the matrix (4 / 3). *)
Definition apply_mat (k : nat) (m pts : ten R) : res (ten R) :=
  let? d := size_m1 pts in
  let? pts_homo := (if d =? k - 1 then homogenize_points pts else Ok pts) in
  let m := if (ndim m =? 2) && (2 <? ndim pts_homo) then expand_front (ndim pts_homo) m else m in
  let? p := (if negb (2 <? ndim pts_homo)
             then matmul (unsqueeze_0 m) (unsqueeze_m1 pts_homo)
             else matmul (unsqueeze_m3 m) (unsqueeze_m1 pts_homo)) in
  Ok (squeeze_m1 p).

(* projutils.py:172-203 / 327-358: the shape checks shared by both functions *)
Definition check_mat (k : nat) (m pts : ten R) : res unit :=
  guard (negb (ndim pts <? 2)) ValueError ;;?
  let? d := size_m1 pts in
  guard ((d =? k - 1) || (d =? k)) ValueError ;;?
  guard (negb (ndim m <? 2)) ValueError ;;?
  let? a := size_m1 m in
  let? b := size_m2 m in
  guard ((a =? k) && (b =? k)) ValueError ;;?
  guard (negb ((2 <? ndim m) && negb (ndim m =? ndim pts))) ValueError ;;?
  let? m0 := size_0 m in
  let? p0 := size_0 pts in
  guard (negb ((2 <? ndim m) && negb (m0 =? p0))) ValueError.

(* x / torch.where(z != 0, z, 1) *)
Definition safe_div (x z : R) : R := if Req_EM_T z 0 then (x / 1)%R else (x / z)%R.

(* projutils.py:92-238 (eps is not used by the code) *)
Definition project_points (cam_coords proj_mat : ten R) : res (ten R) :=
  check_mat 4 proj_mat cam_coords ;;?
  let? pts := apply_mat 4 proj_mat cam_coords in
  let? x := select_m1 0 pts in
  let? y := select_m1 1 pts in
  let? z := select_m1 2 pts in
  let? u := tmap2 safe_div x z in
  let? v := tmap2 safe_div y z in
  Ok (stack_m1 u v).

(* projutils.py:241-402.  The shape comparison pixel_coords.shape[:-1] != depths.shape comes last. *)
Definition unproject_points (pixel_coords intrinsics_inv depths : ten R) : res (ten R) :=
  check_mat 3 intrinsics_inv pixel_coords ;;?
  guard (if list_eq_dec Nat.eq_dec (tl (dims pixel_coords)) (dims depths) then true else false) ValueError ;;?
  let? pts := apply_mat 3 intrinsics_inv pixel_coords in
  tmap2 Rmult pts (unsqueeze_m1 depths).

(* projutils.py:405-450 *)
Definition inverse_intrinsics (K : ten R) (eps : R) : res (ten R) :=
  guard (negb (ndim K <? 2)) ValueError ;;?
  match dims K with
  | d0 :: d1 :: s =>
      if ((d0 =? 3) && (d1 =? 3)) || ((d0 =? 4) && (d1 =? 4)) then
        let fx r := ent K r 0 0 in
        let fy r := ent K r 1 1 in
        let cx r := ent K r 0 2 in
        let cy r := ent K r 1 2 in
        let k0 := zeros_like K in
        let k1 := set_ent k0 0 0 (fun r => 1 / (fx r + eps))%R in
        let k2 := set_ent k1 1 1 (fun r => 1 / (fy r + eps))%R in
        let k3 := set_ent k2 0 2 (fun r => -1 * cx r / (fx r + eps))%R in
        let k4 := set_ent k3 1 2 (fun r => -1 * cy r / (fy r + eps))%R in
        let k5 := set_ent k4 2 2 (fun _ => 1%R) in
        Ok (set_ent k5 (d1 - 1) (d0 - 1) (fun _ => 1%R))
      else Err ValueError
  | _ => Err ValueError
  end.
