(* The operations that PyTorch runs for one entry of the global vertex map, and for one entry of the vertex map. *)
From Coq Require Import Reals List Arith Bool.
From Verif Require Import TapeModel.
Import ListNotations.
Local Open Scope R_scope.

(* rgbdimages.py:643-708 with projutils.py:437-450, at one pixel: inputs depth, fx, fy, cx, cy (0-4), row j of the pose r0, r1, r2, t (5-8);
   (p0, p1, p2) is the pixel position, a constant.  Simplification: the products with the constant entries 0 and 1 of the
   inverse intrinsics are left out. *)
Definition eps6 : R := / 1000000.
Definition t_ray (p0 p1 p2 : R) : list op :=
  [OAddC eps6 1; ORecip 9; OScale 1 10;                       (* 11: 1.0 / (fx + eps) *)
   OAddC eps6 2; ORecip 12; OScale 1 13;                      (* 14: 1.0 / (fy + eps) *)
   OScale (-1) 3; OAddC eps6 1; ODiv 15 16;                   (* 17: -1.0 * cx / (fx + eps) *)
   OScale (-1) 4; OAddC eps6 2; ODiv 18 19;                   (* 20: -1.0 * cy / (fy + eps) *)
   OScale p0 11; OScale p2 17; OAdd 21 22;                    (* 23: einsum, j = 0 *)
   OScale p1 14; OScale p2 20; OAdd 24 25;                    (* 26: j = 1 *)
   OConst p2].                                                (* 27: j = 2 *)
(* the mask (no gradient) and the vertex *)
Definition t_vertex3 : list op :=
  [OConst 1; OConst 0; OWhere (CGt 0 0) 28 29;                (* 30: valid_depth_mask.to(dtype) *)
   OMul 23 0; OMul 31 30; OMul 26 0; OMul 33 30; OMul 27 0; OMul 35 30].   (* 32, 34, 36: the vertex *)
(* the pose, and the mask again *)
Definition t_pose : list op :=
  [OMul 5 32; OMul 6 34; OAdd 37 38; OMul 7 36; OAdd 39 40; OAdd 41 8; OMul 42 30].
Definition t_gvertex (p0 p1 p2 : R) : list op := t_ray p0 p1 p2 ++ t_vertex3 ++ t_pose.
