(* Specification vocabulary for C76, C77: a camera that does not move. *)
From Coq Require Import Reals List Arith Bool ZArith.
From Verif Require Import Res Fld StructUtilsModel PointcloudsModel PointcloudsSpec MatSpec GeomSpec TensorModel
  RgbdModel RgbdSpec FusionModel FusionSpec Se3Model SolveModel IcpModel IcpSpec OdomSpec SlamModel SlamSpec.
Import ListNotations.
Local Open Scope nat_scope.

(* a pinhole camera without skew, and no pixel of the image is 1000 focal lengths away from the principal point *)
Definition ordinary_camera (H W : nat) (K : mat) : Prop :=
  exists fx fy cx cy, meq 4 4 K (pinhole fx fy cx cy 0) /\ (0 < fx)%R /\ (0 < fy)%R /\
    (forall w, w < W -> (Rabs (INR w - cx) < 1000 * fx)%R) /\ (forall h, h < H -> (Rabs (INR h - cy) < 1000 * fy)%R).
(* the world point p lies in front of camera b with pose T, inside its image, and its image position rounds to pixel (h, w) *)
Definition imaged_at (fr : frames) (T : mat) (b : nat) (p : vec) (h w : nat) : Prop :=
  let q := to_camera T p in
  let uv := image_pos (fK fr b) q in
  (0 < q 2%nat)%R /\ in_rectangle (fH fr) (fW fr) (uv 0%nat) (uv 1%nat) /\ FusionSpec.nearest (uv 1%nat) h /\ FusionSpec.nearest (uv 0%nat) w.

(* all images of a sequence show the same depth *)
Definition same_depth (fr : frames) : Prop :=
  forall b l h w, inside fr b l h w -> fdep fr b l h w = fdep fr b 0 h w.
(* the pose of the first frame; the identity if the frames have none *)
Definition first_pose (fr : frames) (b : nat) : mat := match fpose fr with Some T => T b 0 | None => mI end.
(* the first frame, with its pose *)
Definition first_frame (fr : frames) : frames := posed (first_pose fr) (moment 0 fr).
(* the pixels with a positive depth, row by row; the point and the normal there *)
Definition pixels (fr : frames) (b : nat) : list (nat * nat) := chosen true (first_frame fr) b.
Definition point_at (fr : frames) (b : nat) (q : nat * nat) : vec := frame_attr (first_frame fr) Points b (fst q) (snd q).
Definition normal_at (fr : frames) (b : nat) (q : nat * nat) : vec := frame_attr (first_frame fr) Normals b (fst q) (snd q).
(* each frame's pose is the first one *)
Definition unmoved (fr : frames) (n : nat) (T : nat -> nat -> mat) : Prop :=
  forall b l, b < fB fr -> l < n -> meq 4 4 (T b l) (first_pose fr b).
(* the conditions on a sequence of images of a motionless scene *)
Definition still_scene (fr : frames) : Prop :=
  same_depth fr /\ fpix fr = None /\ forall b, b < fB fr -> ordinary_camera (fH fr) (fW fr) (fK fr b) /\ rigid4 (first_pose fr b).
(* mean colour of a pixel over the first n frames *)
Definition mean_colour (fr : frames) (n b : nat) (q : nat * nat) : vec :=
  fun c => (rsum n (fun l => frgb fr b l (fst q) (snd q) c) / INR n)%R.
(* a map with one point per valid pixel of the first frame, in row-major order: its point, its normal, the mean colour over n frames,
   and n times the confidence of one observation *)
Definition Averaged (sigma : R) (fr : frames) (n : nat) (a : batch RF) : Prop :=
  len_view RF a = fB fr /\
  forall b, b < fB fr -> npoints a b = length (pixels fr b) /\
    forall i q, nth_error (pixels fr b) i = Some q ->
      veq 3 (attr_at a Points b i) (point_at fr b q) /\ veq 3 (attr_at a Normals b i) (normal_at fr b q) /\
      veq 3 (attr_at a Colors b i) (mean_colour fr n b q) /\
      conf a b i = (INR n * frame_alpha sigma (first_frame fr) b (fst q) (snd q))%R.
