(* Specification vocabulary for C82: families of image sequences that depend on a real parameter. *)
From Coq Require Import Reals List Arith Bool ZArith.
From Verif Require Import Res Fld StructUtilsModel PointcloudsModel PointcloudsSpec MatSpec GeomSpec TensorModel RgbdModel RgbdSpec FusionModel FusionSpec Se3Model SolveModel IcpModel SlamModel SlamSpec.
Import ListNotations.
Local Open Scope nat_scope.

(* f has a derivative at x *)
Definition differentiable (f : R -> R) (x : R) : Prop := exists l, derivable_pt_lim f x l.
(* for all y close to x *)
Definition near (x : R) (P : R -> Prop) : Prop := exists eps, (0 < eps)%R /\ forall y, (Rabs (y - x) < eps)%R -> P y.
(* all values of an optional image-like or pose-like family are differentiable: absent for all parameters, or present for all *)
Definition smooth_opt {A} (P : (R -> A) -> Prop) (o : R -> option A) : Prop :=
  (forall x, o x = None) \/ exists T, (forall x, o x = Some (T x)) /\ P T.
(* F x is a batch of sequences for every x, always of the same sizes; colours, depths, intrinsics, poses and pixel positions have derivatives at x0;
   the focal lengths (as the code uses them) are not 0 *)
Definition smooth_frames (F : R -> frames) (x0 : R) : Prop :=
  (forall x, fB (F x) = fB (F x0) /\ fL (F x) = fL (F x0) /\ fH (F x) = fH (F x0) /\ fW (F x) = fW (F x0)) /\
  (forall b l h w c, inside (F x0) b l h w -> c < 3 -> differentiable (fun x => frgb (F x) b l h w c) x0) /\
  (forall b l h w, inside (F x0) b l h w -> differentiable (fun x => fdep (F x) b l h w) x0) /\
  (forall b i j, b < fB (F x0) -> i < 4 -> j < 4 -> differentiable (fun x => fK (F x) b i j) x0) /\
  (forall b, b < fB (F x0) -> (fK (F x0) b 0%nat 0%nat + / 1000000 <> 0 /\ fK (F x0) b 1%nat 1%nat + / 1000000 <> 0)%R) /\
  smooth_opt (fun T => forall b l i j, b < fB (F x0) -> l < fL (F x0) -> i < 4 -> j < 4 -> differentiable (fun x => T x b l i j) x0) (fun x => fpose (F x)) /\
  smooth_opt (fun p => forall b l h w i, inside (F x0) b l h w -> i < 3 -> differentiable (fun x => p x b l h w i) x0) (fun x => fpix (F x)).
(* no measured depth is exactly 0 (missing depth may be coded by a negative number) *)
Definition no_zero_depth (fr : frames) : Prop := forall b l h w, inside fr b l h w -> fdep fr b l h w <> 0%R.
(* the sequences fr with another depth at one pixel *)
Definition set_depth (b l h w : nat) (d : R) (fr : frames) : frames :=
  with_fdep (fun b' l' h' w' => if (b' =? b) && (l' =? l) && (h' =? h) && (w' =? w) then d else fdep fr b' l' h' w') fr.
(* the viewing ray of a pixel: the direction along which its vertex moves *)
Definition ray (fr : frames) (b l h w : nat) : vec := mvec 3 (kinv (fK fr b)) (pixel fr b l h w).

(* ---------------- fusion *)
(* the table of correspondences does not change when the inputs move a little.  For map a and frame fr with poses T, thresholds d (distance) and t (dot product):
   - no map point lies in the plane of the camera; those in front of it do not project to the border of the image or exactly between two pixels;
   - no visible point is exactly at the distance threshold from its pixel's vertex or exactly at the threshold of the normals;
   - competing points have different confidences;
   - the confidence of no valid pixel is exactly at the clamp 1e-7, and every valid pixel has a normal *)
Definition candidate (a : batch RF) (fr : frames) (T : nat -> nat -> mat) (d t : R) (b n h w : nat) : Prop :=
  real_point a b n /\ seen_at a fr T b n h w /\ similar a fr d t (mkRow b n h w).
Definition generic_step (a : batch RF) (fr : frames) (T : nat -> nat -> mat) (d t sg : R) : Prop :=
  (forall b n, real_point a b n -> let q := to_camera (T b 0) (attr_at a Points b n) in let uv := image_pos (fK fr b) q in
     q 2%nat <> 0%R /\
     ((0 < q 2%nat)%R -> mvec 4 (fK fr b) (hom 3 q) 2%nat <> 0%R /\
        (uv 0%nat <> - / 1000 /\ uv 0%nat <> INR (fW fr) - 1 + / 1000 /\ uv 1%nat <> - / 1000 /\ uv 1%nat <> INR (fH fr) - 1 + / 1000)%R /\
        forall k, Rabs (uv 0%nat - INR k) <> (1 / 2)%R /\ Rabs (uv 1%nat - INR k) <> (1 / 2)%R)) /\
  (forall b n h w, real_point a b n -> seen_at a fr T b n h w ->
     distance (global_vertex fr b 0 h w) (attr_at a Points b n) <> d /\ dot 3 (global_normal fr b 0 h w) (attr_at a Normals b n) <> t) /\
  (forall b n n' h w, n <> n' -> candidate a fr T d t b n h w -> candidate a fr T d t b n' h w -> conf a b n <> conf a b n') /\
  (forall b h w, inside fr b 0 h w -> (0 < fdep fr b 0 h w)%R -> gaussian sg (vertex fr b 0 h w) <> (/ 10000000)%R /\ exists k, k < 3 /\ normal fr b 0 h w k <> 0%R).
(* a family of maps of B clouds: near x0 the number of points does not change, and every value has a derivative at x0 *)
Definition smooth_map (B : nat) (A : R -> batch RF) (x0 : R) : Prop :=
  forall b, b < B -> near x0 (fun x => npoints (A x) b = npoints (A x0) b) /\
    forall x n j, n < npoints (A x0) b -> j < wd x -> differentiable (fun y => attr_at (A y) x b n j) x0.
(* all steps of the run of a SLAM system on the sequences fr are generic: maps l is the map after l frames, T b l the pose of frame l *)
Definition generic_run (c : slam) (fr : frames) (d t sg : R) : Prop :=
  forall maps T, Trajectory c fr (fL fr) maps T -> forall l, l < fL fr ->
    generic_step (maps l) (posed (fun b => T b l) (moment l fr)) (fun b _ => T b l) d t sg.
