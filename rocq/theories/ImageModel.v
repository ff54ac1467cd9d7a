(* Model of gradslam/datasets/datautils.py:19-70 (normalize_image, channels_first).  Warnings are not modelled. *)
From Coq Require Import Reals List Arith Bool.
From Verif Require Import Res MatSpec TensorModel.
Import ListNotations.
Local Open Scope nat_scope.

(* the argument: an array or tensor, or something else *)
Inductive image_arg := ImgBad | Img (x : ten R).
(* datautils.py:19-37; [rnd] rounds the division *)
Definition normalize_image (rnd : R -> R) (a : image_arg) : res (ten R) :=
  match a with ImgBad => Err TypeError | Img x => Ok (mkTen (dims x) (fun ix => rnd (at_ x ix / 255)%R)) end.
(* datautils.py:40-70.  ordering[-2], ordering[-1], ordering[-3] = ordering[-3], ordering[-2], ordering[-1]: output
   axis -3 is input axis -1, output axis -2 is input axis -3, output axis -1 is input axis -2.  dims is the shape
   from the last axis to the first, and indices are in the same order. *)
Definition channels_first (a : image_arg) : res (ten R) :=
  match a with
  | ImgBad => Err TypeError
  | Img x => match dims x with
             | c :: w :: h :: r => Ok (mkTen (w :: h :: c :: r) (fun ix => match ix with
                 | w' :: h' :: c' :: ix' => at_ x (c' :: w' :: h' :: ix') | _ => 0%R end))
             | _ => Err ValueError
             end
  end.
