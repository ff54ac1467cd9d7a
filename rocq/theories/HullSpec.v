(* Specification vocabulary for C79: every map point is an average of observations. *)
From Coq Require Import Reals List Arith Bool ZArith.
From Verif Require Import Res Fld PointcloudsModel PointcloudsSpec MatSpec GeomSpec TensorModel RgbdModel RgbdSpec FusionModel FusionSpec Se3Model SolveModel IcpModel SlamModel.
Import ListNotations.
Local Open Scope nat_scope.

(* a convex set of 3-vectors (only the first three entries count) *)
Definition convex (S : vec -> Prop) : Prop :=
  (forall u v, veq 3 u v -> S u -> S v) /\
  (forall u v s, (0 <= s <= 1)%R -> S u -> S v -> S (fun i => (1 - s) * u i + s * v i)%R).
(* pixel (h, w) of frame l of sequence b has a depth *)
Definition measured (fr : frames) (b l h w : nat) : Prop := l < fL fr /\ h < fH fr /\ w < fW fr /\ (0 < fdep fr b l h w)%R.
(* what that pixel says about attribute x, in the world of the poses T *)
Definition observed (fr : frames) (T : nat -> nat -> mat) (x : attr) (b l h w : nat) : vec :=
  match x with
  | Points => act (T b l) (vertex fr b l h w)
  | Normals => mvec 3 (rot_of (T b l)) (normal fr b l h w)
  | Colors => frgb fr b l h w
  | Features => fun _ => 0%R
  end.
(* the PointFusion option angle_th is such that the threshold on the inner product of the normals is not negative (at most 90 degrees) *)
Definition facing (c : slam) : Prop := match s_map c with Aggregate => True | Fusion _ t _ => (0 <= t)%R end.
