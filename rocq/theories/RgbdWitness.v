(* A concrete pair of 2 x 3 RGB-D frames, used to show that the hypotheses of the C29-C35 theorems can be met. *)
From Coq Require Import Reals List Arith Bool ZArith.
From Verif Require Import Res Fld StructUtilsModel PointcloudsModel PointcloudsSpec MatSpec GeomSpec TensorModel RgbdModel RgbdSpec.
Import ListNotations.
Local Open Scope nat_scope.

(* B = 1, L frames, H x W pixels; depth is the column number (so column 0 is invalid) plus the time *)
Definition wfr (L H W : nat) : frames :=
  mkFrames 1 L H W (fun b l h w c => INR (c + h + 2 * w)) (fun b l h w => INR (l + w))
    (fun _ => pinhole 2 4 1 3 0) (Some (fun b l => pinhole 1 1 0 0 0)) None.
Definition img (a : frames) (C : nat) (f : nat -> nat -> nat -> nat -> nat -> R) : ten R :=
  mkTen [C; fW a; fH a; fL a; fB a] (fun ix => match ix with [c; w; h; l; b] => f b l h w c | _ => 0%R end).
Definition wimg_rgb a := img a 3 (frgb a).
Definition wimg_depth a := img a 1 (fun b l h w _ => fdep a b l h w).
Definition wimg_intr a : ten R := mkTen [4; 4; 1; fB a] (fun ix => match ix with [j; i; _; b] => fK a b i j | _ => 0%R end).
Definition wimg_poses a : ten R := mkTen [4; 4; fL a; fB a] (fun ix => match ix with
  | [j; i; l; b] => match fpose a with Some T => T b l i j | None => 0%R end | _ => 0%R end).
Definition wobj (L H W : nat) : res rgbd :=
  let a := wfr L H W in
  rgbd_new (TTen (wimg_rgb a)) (TTen (wimg_depth a)) (TTen (wimg_intr a)) (TTen (wimg_poses a)) false TNone.
