(* The formulas of C87 and C88, written with the functions of the models of the files they come from. *)
From Coq Require Import Reals List Arith Bool.
From Verif Require Import MatSpec GeomModel ProjModel FusionModel IcpModel Se3Model TapeModel TapeSpec.
Import ListNotations.
Local Open Scope R_scope.

(* unhomogenize_points: inputs x, w *)
Definition f_unhomog (eps : R) (e : list R) : R := rget e 0 * unhomog_scale eps (rget e 1).
(* project_points and the two projections of geometryutils: inputs x, z *)
Definition f_project (e : list R) : R := safe_div (rget e 0) (rget e 1).
(* inverse_intrinsics: input fx; inputs cx, fx *)
Definition f_focal (eps : R) (e : list R) : R := 1 / (rget e 0 + eps).
Definition f_centre (eps : R) (e : list R) : R := -1 * rget e 0 / (rget e 1 + eps).
(* quaternion_to_axisangle: inputs qx, qy, qz, qw, entry j *)
Definition f_axisangle (j : nat) (e : list R) : R := rget e j * axisangle_k (rget e 0) (rget e 1) (rget e 2) (rget e 3).
(* the length of the first n inputs *)
Definition length_of (n : nat) (e : list R) : R := norm n (rget e).
(* normalize_quaternion: inputs qx, qy, qz, qw, entry j *)
Definition f_normalize (eps : R) (j : nat) (e : list R) : R := rget e j / Rmax (length_of 4 e) eps.
(* normal maps: inputs the entries of the cross product, entry j *)
Definition f_normal (j : nat) (e : list R) : R := rget e j / (if Req_EM_T (length_of 3 e) 0 then 1 else length_of 3 e).
(* so3_exp, se3_exp: inputs omega *)
Definition f_rodA (e : list R) : R := rodA (length_of 3 e).
Definition f_rodB (e : list R) : R := rodB (length_of 3 e).
Definition f_rodC (e : list R) : R := rodC (length_of 3 e).
(* get_alpha: inputs x, y, z, sigma *)
Definition f_alpha (eps : R) (e : list R) : R := alpha_of (rget e 3) eps (rget e).
(* fuse_with_map: inputs the count, alpha, map value, frame value *)
Definition f_fuse (e : list R) : R :=
  let s := rget e 0 + rget e 1 in (rget e 0 * rget e 2 + rget e 1 * rget e 3) * (1 / (if Req_EM_T s 0 then 1 else s)).
(* point_to_plane_gradICP: inputs new error, error, damping; new error, error, entry of xi *)
Definition f_damp (lmax B : R) (e : list R) : R := rget e 2 * damp_factor lmax B (clampR (-70) 70 (rget e 0 - rget e 1)).
Definition f_gate (B2 nu : R) (e : list R) : R := soft_step B2 nu (clampR (-70) 70 (rget e 0 - rget e 1)) * rget e 2.
(* normalize_pixel_coords: input a coordinate *)
Definition f_pixel (n : R) (e : list R) : R := 2 / (n - 1) * rget e 0 - 1.
