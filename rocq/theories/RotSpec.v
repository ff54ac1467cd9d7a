(* Specification vocabulary for C84: registration in turned or mirrored world coordinates. *)
From Coq Require Import Reals List Arith Bool ZArith.
From Verif Require Import Res Fld StructUtilsModel PointcloudsModel PointcloudsSpec MatSpec GeomSpec TensorModel RgbdModel RgbdSpec FusionModel FusionSpec Se3Model SolveModel IcpModel IcpSpec SlamModel SlamSpec SimSpec.
Import ListNotations.
Local Open Scope R_scope.

(* the 4 x 4 transform p |-> Q p *)
Definition turn4 (Q : mat) : mat := fun i j => if Nat.ltb i 3 then (if Nat.ltb j 3 then Q i j else 0) else if Nat.eqb j 3 then 1 else 0.
(* x' is the (1, n, 3) cloud of the points (or normals) of x turned by Q *)
Definition turned_cloud (Q : mat) (n : nat) (x x' : ten R) : Prop :=
  cloud_of x' n /\ forall i, (i < n)%nat -> veq 3 (pts_of x' i) (mvec 3 Q (pts_of x i)).
(* T' is T in the new coordinates: T' after Q is Q after T *)
Definition turned_tf (Q T T' : mat) : Prop := meq 4 4 (mmul 4 T' (turn4 Q)) (mmul 4 (turn4 Q) T).
(* the choice of nearest neighbour looks at distances only *)
Definition by_distance (nn : nat -> (nat -> vec) -> vec -> nat) : Prop :=
  forall n t t' p p', (forall j, (j < n)%nat -> dist2 3 p (t j) = dist2 3 p' (t' j)) -> nn n t p = nn n t' p'.
(* the 4 x 4 transform p |-> p + t *)
Definition shift4 (t : vec) : mat := fun i j => if Nat.eqb j 3 then (if Nat.ltb i 3 then t i else 1) else delta i j.
(* x' is the cloud of the points of x shifted by t; T' is T in shifted coordinates *)
Definition shifted_cloud (t : vec) (n : nat) (x x' : ten R) : Prop :=
  cloud_of x' n /\ forall i, (i < n)%nat -> veq 3 (pts_of x' i) (fun k => pts_of x i k + t k).
Definition shifted_tf (t : vec) (T T' : mat) : Prop := meq 4 4 (mmul 4 T' (shift4 t)) (mmul 4 (shift4 t) T).
(* whole sequences: the same images seen by the same cameras; the first poses are given and turned; those given for later frames, if any, are not compared *)
Definition origin : vec := fun _ => 0.
Definition turned_run (Q : mat) (fr fr' : frames) : Prop :=
  sim_frames 1 Q origin (with_fpose None fr) (with_fpose None fr') /\
  exists T T', fpose fr = Some T /\ fpose fr' = Some T' /\ forall b, (b < fB fr)%nat -> sim_pose 1 Q origin (T b 0%nat) (T' b 0%nat).
