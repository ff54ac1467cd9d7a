(* Model of gradslam/datasets/datautils.py:73-239 (scale_intrinsics, pointquaternion_to_homogeneous,
   poses_to_transforms) and gradslam/datasets/tumutils.py:54-92 (transform44).
   The casts to float32 are not modelled, nor the warnings. *)
From Coq Require Import Reals List Arith Bool.
From Verif Require Import Res MatSpec TensorModel LinAlgModel.
Import ListNotations.
Local Open Scope nat_scope.

(* datautils.py:73-117.  x[..., i, j] *= c *)
Definition scale_ent (x : ten R) (i j : nat) (c : R) : ten R :=
  set_ent x i j (fun r => ent x r i j * c)%R.
(* datautils.py:73-117 *)
Definition scale_intrinsics (K : ten R) (h_ratio w_ratio : R) : res (ten R) :=
  match dims K with
  | d0 :: d1 :: _ =>
      if ((d0 =? 3) && (d1 =? 3)) || ((d0 =? 4) && (d1 =? 4)) then
        let k1 := scale_ent K 0 0 w_ratio in
        let k2 := scale_ent k1 1 1 h_ratio in
        let k3 := scale_ent k2 0 2 w_ratio in
        Ok (scale_ent k3 1 2 h_ratio)
      else Err ValueError
  | _ => Err ValueError
  end.

(* datautils.py:120-215.  q_norm = sqrt(0.5 sum q^2); q / max(q_norm, eps); outer product *)
Definition pq_scale (q : nat -> R) (eps : R) : R := (
  Rmax (sqrt (5 / 10 * rsum 4 (fun i => q i * q i))) eps)%R.
(* datautils.py:120-215 *)
Definition pointquaternion_to_homogeneous (x : ten R) (eps : R) : res (ten R) :=
  let? d := size_m1 x in
  if d =? 7 then
    Ok (mkTen (4 :: 4 :: tl (dims x)) (fun ix => match ix with
      | j :: i :: r =>
          let t k := comp x r k in
          let q k := (comp x r (3 + k) / pq_scale (fun k => comp x r (3 + k)) eps)%R in
          let o a b := (q a * q b)%R in
          (match i, j with
           | 0, 0 => 1 - (o 1%nat 1%nat + o 2%nat 2%nat)
           | 0, 1 => o 0%nat 1%nat - o 2%nat 3%nat
           | 0, 2 => o 0%nat 2%nat + o 1%nat 3%nat
           | 1, 0 => o 0%nat 1%nat + o 2%nat 3%nat
           | 1, 1 => 1 - (o 0%nat 0%nat + o 2%nat 2%nat)
           | 1, 2 => o 1%nat 2%nat - o 0%nat 3%nat
           | 2, 0 => o 0%nat 2%nat - o 1%nat 3%nat
           | 2, 1 => o 1%nat 2%nat + o 0%nat 3%nat
           | 2, 2 => 1 - (o 0%nat 0%nat + o 1%nat 1%nat)
           | 3, 3 => 1
           | 3, _ => 0
           | _, _ => t i
           end)%R
      | _ => 0%R end))
  else Err ValueError.

(* tumutils.py:54: numpy.finfo(float).eps * 4.0 = 2^-50 *)
Definition tum_eps : R := (/ 2 ^ 50)%R.
(* tumutils.py:57-92; l = (stamp, tx, ty, tz, qx, qy, qz, qw); t and q are its slices.  The branch for a
   tiny quaternion calls a tuple ("(1.0, ...)(0.0, ...)"): TypeError. *)
Definition transform44 (t q : nat -> R) : res mat :=
  let nq := rsum 4 (fun i => q i * q i)%R in
  if Rlt_dec nq tum_eps then Err TypeError
  else
    let s := sqrt (2 / nq) in
    let o a b := (q a * s * (q b * s))%R in
    Ok (fun i j =>
      (match i, j with
       | 0, 0 => 1 - o 1%nat 1%nat - o 2%nat 2%nat
       | 0, 1 => o 0%nat 1%nat - o 2%nat 3%nat
       | 0, 2 => o 0%nat 2%nat + o 1%nat 3%nat
       | 1, 0 => o 0%nat 1%nat + o 2%nat 3%nat
       | 1, 1 => 1 - o 0%nat 0%nat - o 2%nat 2%nat
       | 1, 2 => o 1%nat 2%nat - o 0%nat 3%nat
       | 2, 0 => o 0%nat 2%nat - o 1%nat 3%nat
       | 2, 1 => o 1%nat 2%nat + o 0%nat 3%nat
       | 2, 2 => 1 - o 0%nat 0%nat - o 1%nat 1%nat
       | 3, 3 => 1
       | 3, _ => 0
       | _, _ => t i
       end)%R).

(* datautils.py:218-239: the loop over i; the previous pose is poses[i-1] *)
Fixpoint p2t_loop (prev : mat) (poses : list mat) : res (list mat) :=
  match poses with
  | [] => Ok []
  | p :: ps =>
      let? inv := np_inv prev in
      let? rest := p2t_loop p ps in
      Ok (mmul 4 inv p :: rest)
  end.
(* datautils.py:218-239 *)
Definition poses_to_transforms (poses : list mat) : res (list mat) :=
  match poses with
  | [] => Ok []
  | p :: ps => let? rest := p2t_loop p ps in Ok (mI :: rest)
  end.
