(* Specification vocabulary for the geometry properties. *)
From Coq Require Import Reals List Arith.
From Verif Require Import MatSpec.
Import ListNotations.
Local Open Scope R_scope.

(* homogeneous coordinates of a point with d components: a trailing 1 is appended *)
Definition hom (d : nat) (p : vec) : vec := fun i => if Nat.ltb i d then p i else 1.

(* perspective division that never divides by zero *)
Definition persp (q : vec) : vec := fun i => if Req_EM_T (q 2%nat) 0 then q i else q i / q 2%nat.

(* projection of a point in homogeneous coordinates by a 4x4 matrix: (u, v) *)
Definition project_spec (P : mat) (p : vec) : vec := persp (mvec 4 P p).

(* a pinhole camera: focal lengths, principal point, skew; zero elsewhere except ones on the diagonal *)
Definition pinhole (fx fy cx cy skew : R) : mat := fun i j =>
  match i, j with
  | 0%nat, 0%nat => fx | 0%nat, 1%nat => skew | 0%nat, 2%nat => cx
  | 1%nat, 1%nat => fy | 1%nat, 2%nat => cy
  | 2%nat, 2%nat => 1 | 3%nat, 3%nat => 1
  | _, _ => 0
  end.

(* a 4x4 projection matrix whose 3x3 block is K, with K's last row (0,0,1), and no translation *)
Definition proj_of (P K : mat) : Prop :=
  (forall i j, (i < 3)%nat -> (j < 3)%nat -> P i j = K i j) /\
  (forall i, (i < 3)%nat -> P i 3%nat = 0) /\
  K 2%nat 0%nat = 0 /\ K 2%nat 1%nat = 0 /\ K 2%nat 2%nat = 1.

(* the standard rotation matrix of a unit quaternion (x,y,z,w) *)
Definition quat_rot (x y z w : R) : mat := fun i j =>
  match i, j with
  | 0%nat, 0%nat => 1 - 2*(y*y + z*z) | 0%nat, 1%nat => 2*(x*y - z*w) | 0%nat, 2%nat => 2*(x*z + y*w)
  | 1%nat, 0%nat => 2*(x*y + z*w) | 1%nat, 1%nat => 1 - 2*(x*x + z*z) | 1%nat, 2%nat => 2*(y*z - x*w)
  | 2%nat, 0%nat => 2*(x*z - y*w) | 2%nat, 1%nat => 2*(y*z + x*w) | 2%nat, 2%nat => 1 - 2*(x*x + y*y)
  | _, _ => 0
  end.

(* Hamilton product of (x,y,z,w) quaternions, component k *)
Definition qmul (a b : vec) : vec := fun k =>
  match k with
  | 0%nat => a 3%nat * b 0%nat + a 0%nat * b 3%nat + a 1%nat * b 2%nat - a 2%nat * b 1%nat
  | 1%nat => a 3%nat * b 1%nat - a 0%nat * b 2%nat + a 1%nat * b 3%nat + a 2%nat * b 0%nat
  | 2%nat => a 3%nat * b 2%nat + a 0%nat * b 1%nat - a 1%nat * b 0%nat + a 2%nat * b 3%nat
  | _ => a 3%nat * b 3%nat - a 0%nat * b 0%nat - a 1%nat * b 1%nat - a 2%nat * b 2%nat
  end.

(* the rotation a non-zero quaternion (x,y,z,w) stands for: that of the normalised quaternion *)
Definition rot_of_quat (q : vec) : mat :=
  quat_rot (q 0%nat / norm 4 q) (q 1%nat / norm 4 q) (q 2%nat / norm 4 q) (q 3%nat / norm 4 q).

(* row-major position of an index among extents s (both listed from the last dimension to the first) *)
Fixpoint ravel (s ix : list nat) : nat :=
  match s, ix with d :: s', i :: r => (i + d * ravel s' r)%nat | _, _ => 0%nat end.
(* index of the matrix for position ix in an output whose leading dimensions are flattened; a single
   input gives a single matrix *)
Definition flat_ix (s ix : list nat) : list nat := match s with [] => [] | _ => [ravel s ix] end.

(* the skew-symmetric matrix of a 3-vector: hat w * v = w x v *)
Definition skew (w : vec) : mat := fun i j =>
  match i, j with
  | 0%nat, 1%nat => - w 2%nat | 0%nat, 2%nat => w 1%nat
  | 1%nat, 0%nat => w 2%nat | 1%nat, 2%nat => - w 0%nat
  | 2%nat, 0%nat => - w 1%nat | 2%nat, 1%nat => w 0%nat
  | _, _ => 0
  end.
(* the 4x4 matrix of a twist: [skew w, v; 0, 0] *)
Definition twist (v w : vec) : mat := fun i j =>
  if Nat.ltb i 3 then (if Nat.ltb j 3 then skew w i j else v i) else 0.

(* zero-skew intrinsics (k x k, k = 3 or 4) *)
Definition zero_skew (k : nat) (K : mat) : Prop :=
  K 0%nat 1%nat = 0 /\ K 1%nat 0%nat = 0 /\ (k = 4%nat -> K 0%nat 3%nat = 0 /\ K 1%nat 3%nat = 0).

(* the running products T l0, T l0 l1, T l0 l1 l2, ... *)
Fixpoint running (T : mat) (l : list mat) : list mat :=
  match l with [] => [] | x :: l' => let T' := mmul 4 T x in T' :: running T' l' end.

(* an invertible affine pose *)
Definition pose_ok (A : mat) : Prop := affine4 A /\ det3 (rot_of A) <> 0.

(* a point row as a vector *)
Definition rowv (r : list R) : vec := fun k => nth k r 0.

