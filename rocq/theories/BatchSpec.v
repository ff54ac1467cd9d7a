(* Specification vocabulary for C78: the elements of a batch do not influence each other. *)
From Coq Require Import Reals List Arith Bool ZArith.
From Verif Require Import Res Fld StructUtilsModel PointcloudsModel PointcloudsSpec MatSpec GeomSpec TensorModel
  RgbdModel RgbdSpec FusionModel FusionSpec.
Import ListNotations.
Local Open Scope nat_scope.

(* sequence number b of fr and sequence number b' of fr' are the same: number and size of the images, depth, colour and pixel position
   of every pixel, intrinsics, poses (or no poses) *)
Definition same_sequence (fr : frames) (b : nat) (fr' : frames) (b' : nat) : Prop :=
  b < fB fr /\ b' < fB fr' /\ fL fr = fL fr' /\ fH fr = fH fr' /\ fW fr = fW fr' /\ meq 4 4 (fK fr b) (fK fr' b') /\
  (forall l h w, l < fL fr -> h < fH fr -> w < fW fr ->
     fdep fr b l h w = fdep fr' b' l h w /\ veq 3 (frgb fr b l h w) (frgb fr' b' l h w) /\ veq 3 (pixel fr b l h w) (pixel fr' b' l h w)) /\
  opt_rel (fun T T' => forall l, l < fL fr -> meq 4 4 (T b l) (T' b' l)) (fpose fr) (fpose fr').
(* cloud number b of batch a and cloud number b' of batch a' are the same: the same attributes, the same tensors *)
Definition same_cloud (a : batch RF) (b : nat) (a' : batch RF) (b' : nat) : Prop :=
  forall x, match qget x a, qget x a' with
            | None, None => True
            | Some L, Some L' => exists y, nth_error L b = Some y /\ nth_error L' b' = Some y
            | _, _ => False
            end.
(* sequence number b as a batch of one, frames[b] *)
Definition only (b : nat) (fr : frames) : frames := pick [b] (seq 0 (fL fr)) fr.
