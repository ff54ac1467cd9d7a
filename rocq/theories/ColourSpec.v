(* Specification vocabulary for C81: the colours of the images and the geometry of the map. *)
From Coq Require Import Reals List Arith Bool ZArith.
From Verif Require Import Res Fld StructUtilsModel PointcloudsModel PointcloudsSpec MatSpec GeomSpec TensorModel RgbdModel RgbdSpec FusionModel FusionSpec.
Import ListNotations.
Local Open Scope nat_scope.

(* the same sequences with other colours: number and size of the images, depth and pixel position of every pixel, intrinsics, poses (or no poses) agree *)
Definition same_geometry (fr fr' : frames) : Prop :=
  fB fr = fB fr' /\ fL fr = fL fr' /\ fH fr = fH fr' /\ fW fr = fW fr' /\
  (forall b, b < fB fr -> meq 4 4 (fK fr b) (fK fr' b)) /\
  (forall b l h w, inside fr b l h w -> fdep fr b l h w = fdep fr' b l h w /\ veq 3 (pixel fr b l h w) (pixel fr' b l h w)) /\
  opt_rel (fun T T' => forall b l, b < fB fr -> l < fL fr -> meq 4 4 (T b l) (T' b l)) (fpose fr) (fpose fr').
(* two maps that differ at most in the values of their colours: the same attributes; equal points, normals and features; equally many rows of colours *)
Definition same_but_colours (a a' : batch RF) : Prop :=
  len_view RF a = len_view RF a' /\
  forall x, match qget x a, qget x a' with
            | None, None => True
            | Some L, Some L' => (x <> Colors -> L = L') /\ map (fun y => length (t2r y)) L = map (fun y => length (t2r y)) L'
            | _, _ => False
            end.
(* the colours of fr3 are lam * (colours of fr1) + mu * (colours of fr2) + nu *)
Definition mixed_colours (lam mu : R) (nu : vec) (fr1 fr2 fr3 : frames) : Prop :=
  forall b l h w c, inside fr1 b l h w -> c < 3 -> frgb fr3 b l h w c = (lam * frgb fr1 b l h w c + mu * frgb fr2 b l h w c + nu c)%R.
