(* Specification vocabulary for the odometry properties (C47-C54). *)
From Coq Require Import Reals List Arith Bool ZArith.
From Verif Require Import Res MatSpec TensorModel Se3Model IcpModel.
Import ListNotations.
Local Open Scope R_scope.

(* ---------------------------------------------------------------- damped least squares *)
(* the matrix A^T A + d I of an n x k system *)
Definition normal_mat (n : nat) (A : mat) (d : R) : mat := fun i j => rsum n (fun r => A r i * A r j) + delta i j * d.
(* (A^T A + d I) x = A^T b *)
Definition normal_eq (n k : nat) (A : mat) (b : vec) (d : R) (x : vec) : Prop :=
  forall i, (i < k)%nat -> mvec k (normal_mat n A d) x i = rsum n (fun r => A r i * b r).
(* |A x - b|^2 + d |x|^2 *)
Definition ridge_cost (n k : nat) (A : mat) (b : vec) (d : R) (x : vec) : R :=
  rsum n (fun r => (mvec k A x r - b r) * (mvec k A x r - b r)) + d * dot k x x.
(* only the zero vector is mapped to zero *)
Definition injective_mat (n : nat) (M : mat) : Prop :=
  forall x, veq n (mvec n M x) (fun _ => 0) -> veq n x (fun _ => 0).

(* ---------------------------------------------------------------- point clouds and planes *)
(* a choice of nearest neighbour: a closest target point, decided by the coordinates alone *)
Definition nearest (nn : nat -> (nat -> vec) -> vec -> nat) : Prop :=
  (forall n t p, (0 < n)%nat -> (nn n t p < n)%nat /\ forall j, (j < n)%nat -> dist2 3 p (t (nn n t p)) <= dist2 3 p (t j)) /\
  (forall n t t' p p', (forall j, (j < n)%nat -> veq 3 (t j) (t' j)) -> veq 3 p p' -> nn n t p = nn n t' p').
(* the threshold as the code applies it: on squared distances *)
Definition keep_sq (th : thr_arg) (d2 : R) : bool :=
  match th with Thr t => if Rlt_dec d2 t then true else false | _ => true end.
(* Euclidean distance *)
Definition edist (u v : vec) : R := sqrt (dist2 3 u v).

(* the 3 x 3 transform acts on each point of a cloud *)
Definition moved (T : mat) (s : nat -> vec) : nat -> vec := fun i => act T (s i).
(* signed distance of the transformed point to the plane through d with normal n *)
Definition plane_res (n d : vec) (p : vec) : R := dot 3 n (fun k => p k - d k).
(* a six-vector as translation part and rotation part *)
Definition twist_v (xi : vec) : vec := fun k => xi k.
Definition twist_w (xi : vec) : vec := fun k => xi (3 + k)%nat.
Definition six (xi : vec) : list R := [xi 0; xi 1; xi 2; xi 3; xi 4; xi 5]%nat.
Definition scaled (c : R) (xi : vec) : vec := fun k => c * xi k.
(* a (1, N, 3) tensor *)
Definition cloud_of (x : ten R) (n : nat) : Prop := dims x = [3%nat; n; 1%nat].
Definition pts_of (x : ten R) : nat -> vec := fun k => comp x [k; 0%nat].
Definition mat44 (x : ten R) : Prop := dims x = [4%nat; 4%nat].

Section Error.
  Variables (nn : nat -> (nat -> vec) -> vec -> nat) (keep : R -> bool) (ns nt : nat) (d n : nat -> vec).
  (* the target point chosen for a source point *)
  Definition match_of (p : vec) : nat := nn nt d p.
  (* the source points that take part, in order *)
  Definition kept_pts (s : nat -> vec) : list nat := filter (fun i => keep (dist2 3 (s i) (d (match_of (s i))))) (seq 0 ns).
  (* sum of squared point-to-plane residuals over the kept source points *)
  Definition plane_err (s : nat -> vec) : R :=
    rsum ns (fun i => let j := match_of (s i) in
      if keep (dist2 3 (s i) (d j)) then plane_res (n j) (d j) (s i) * plane_res (n j) (d j) (s i) else 0).
  (* one row per source point: zero when the point is dropped *)
  Definition lin_row (s : nat -> vec) (i : nat) : vec := fun k =>
    let j := match_of (s i) in
    if keep (dist2 3 (s i) (d j)) then (if Nat.ltb k 3 then n j k else cross (s i) (n j) (k - 3)%nat) else 0.
  Definition lin_rhs (s : nat -> vec) (i : nat) : R :=
    let j := match_of (s i) in
    if keep (dist2 3 (s i) (d j)) then - plane_res (n j) (d j) (s i) else 0.
  (* the Levenberg-Marquardt twist at the source positions s *)
  Definition lm_step (s : nat -> vec) (damp : R) (xi : vec) : Prop :=
    normal_eq ns 6 (lin_row s) (lin_rhs s) damp xi.
End Error.

(* well-formed inputs of the registration functions: a (1, ns, 3) source, a (1, nt, 3) target with normals that is
   not empty unless the source is, a threshold that is a number or None, a nearest-neighbour choice *)
Definition icp_input (nn : nat -> (nat -> vec) -> vec -> nat) (src tgt nor : ten R) (ns nt : nat) (th : thr_arg) : Prop :=
  nearest nn /\ cloud_of src ns /\ cloud_of tgt nt /\ cloud_of nor nt /\ ((0 < nt)%nat \/ ns = 0%nat) /\ th <> ThrBad.
(* lengths are preserved up to the factor c: |v|^2 <= |Q v|^2 <= c |v|^2 *)
Definition near_isometry (c : R) (Q : mat) : Prop :=
  forall v, dot 3 v v <= dot 3 (mvec 3 Q v) (mvec 3 Q v) <= c * dot 3 v v.
(* the damped Gauss-Newton transform at the positions s, and the error before and after applying it *)
Definition proposal (nn : nat -> (nat -> vec) -> vec -> nat) (keep : R -> bool) (ns nt : nat) (d n s : nat -> vec) (damp : R)
    (xi : vec) (E : mat) : Prop :=
  lm_step nn keep ns nt d n s damp xi /\ se3_exp (six xi) = Ok E.
(* the change of error of the proposal, clamped to [-70, 70] *)
Definition clamped_change (e0 e1 : R) : R := Rmax (-70) (Rmin 70 (e1 - e0)).
(* the largest finite float32 *)
Definition float32_max : R := IZR (2 ^ 128 - 2 ^ 104).
