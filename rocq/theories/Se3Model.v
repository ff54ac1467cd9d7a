(* Model of gradslam/geometry/se3utils.py.  One-dimensional tensors are lists of reals, matrices are
   functions of two indices (3x3 or 4x4). *)
From Coq Require Import Reals List Arith Bool.
From Verif Require Import Res MatSpec.
Import ListNotations.
Local Open Scope R_scope.

(* se3utils.py:8 *)
Definition se3_eps : R := / 1000000.

(* v[i] *)
Definition at1 (v : list R) (i : nat) : R := nth i v 0.

(* torch.Tensor.norm: Euclidean norm of the whole vector *)
Definition tnorm (v : list R) : R := sqrt (fold_right (fun x s => x * x + s) 0 v).

(* se3utils.py:11-26; IndexError when omega has fewer than three entries *)
Definition so3_hat_mat (w0 w1 w2 : R) : mat := fun i j =>
  match i, j with
  | 0%nat, 1%nat => - w2 | 1%nat, 0%nat => w2
  | 0%nat, 2%nat => w1   | 2%nat, 0%nat => - w1
  | 1%nat, 2%nat => - w0 | 2%nat, 1%nat => w0
  | _, _ => 0
  end.
(* se3utils.py:11-26 *)
Definition so3_hat (omega : list R) : res mat :=
  if Nat.ltb (length omega) 3 then Err IndexError
  else Ok (so3_hat_mat (at1 omega 0) (at1 omega 1) (at1 omega 2)).

(* se3utils.py:29-44: xi[:3] is assigned to a column of three (RuntimeError otherwise unless broadcast;
   fewer than 6 entries already raise IndexError in so3_hat) *)
Definition se3_hat (xi : list R) : res mat :=
  let v := firstn 3 xi in
  let? wh := so3_hat (skipn 3 xi) in
  Ok (fun i j => if Nat.ltb i 3 then (if Nat.ltb j 3 then wh i j else if Nat.eqb j 3 then at1 v i else 0) else 0).

(* the Rodrigues coefficients, se3utils.py:63-69 / 93-99 *)
Definition rodA (theta : R) : R := sin theta / theta.
(* (1 - cos t) / t^2 (se3utils.py:63-69) *)
Definition rodB (theta : R) : R := (1 - cos theta) / theta ^ 2.
(* (t - sin t) / t^3 (se3utils.py:93-99) *)
Definition rodC (theta : R) : R := (theta - sin theta) / theta ^ 3.

(* se3utils.py:47-74 *)
Definition so3_exp (omega : list R) : res mat :=
  let? wh := so3_hat omega in
  if Rlt_dec (tnorm omega) se3_eps then Ok (madd mI wh)
  else
    let theta := tnorm omega in
    let wh2 := mmul 3 wh wh in
    Ok (madd (madd mI (mscale (rodA theta) wh)) (mscale (rodB theta) wh2)).

(* se3utils.py:77-115 *)
Definition se3_exp (xi : list R) : res mat :=
  let v := firstn 3 xi in
  let omega := skipn 3 xi in
  let? wh := so3_hat omega in
  let (Rm, V) :=
    if Rlt_dec (tnorm omega) se3_eps then (madd mI wh, madd mI wh)
    else
      let theta := tnorm omega in
      let wh2 := mmul 3 wh wh in
      (madd (madd mI (mscale (rodA theta) wh)) (mscale (rodB theta) wh2),
       madd (madd mI (mscale (rodB theta) wh)) (mscale (rodC theta) wh2)) in
  let t := mvec 3 V (at1 v) in
  Ok (fun i j => if Nat.ltb i 3 then (if Nat.ltb j 3 then Rm i j else t i)
                 else if Nat.eqb j 3 then 1 else 0).
