(* One entry of the normal map as a function of three depths and the intrinsics. *)
From Coq Require Import Reals List Arith Bool.
From Verif Require Import MatSpec GeomSpec RgbdSpec TapeModel TapeSpec VertexTape NormalTape.
Import ListNotations.
Local Open Scope R_scope.

(* the pixel next to h (or w) that the differences use: the following one, or in the last row / column the one before *)
Definition beside (h n : nat) : nat := if (S h <? n)%nat then S h else (h - 1)%nat.
(* the images fr with e = [depth; depth of the neighbour in the row; depth of the neighbour in the column; fx; fy; cx; cy] *)
Definition put3 (fr : frames) (h w : nat) (e : list R) : frames :=
  with_fdep (fun b l h' w' =>
      if ((h' =? h) && (w' =? w))%nat then rget e 0
      else if ((h' =? h) && (w' =? beside w (fW fr)))%nat then rget e 1
      else if ((h' =? beside h (fH fr)) && (w' =? w))%nat then rget e 2 else fdep fr b l h' w')
   (with_fK (fun b i k => match i, k with O, O => rget e 3 | 1%nat, 1%nat => rget e 4 | O, 2%nat => rget e 5 | 1%nat, 2%nat => rget e 6 | _, _ => fK fr b i k end) fr).
Definition f_nrm (fr : frames) (b l h w j : nat) (e : list R) : R := normal (put3 fr h w e) b l h w j.
(* the length of the cross product of the two differences *)
Definition steep (fr : frames) (b l h w : nat) (e : list R) : R :=
  norm 3 (cross (tangent_h (put3 fr h w e) b l h w) (tangent_v (put3 fr h w e) b l h w)).
(* the operations, with the pixel positions of the frame *)
Definition t_pixel_normal (fr : frames) (b l h w j : nat) : list op :=
  t_nrm (pixel fr b l h w) (pixel fr b l h (beside w (fW fr))) (pixel fr b l (beside h (fH fr)) w) (negb (S w <? fW fr)%nat) (negb (S h <? fH fr)%nat) j.
