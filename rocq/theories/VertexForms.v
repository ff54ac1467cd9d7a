(* One entry of the global vertex map as a function of the depth, the intrinsics and a row of the pose. *)
From Coq Require Import Reals List Arith Bool.
From Verif Require Import MatSpec GeomSpec RgbdSpec TapeModel TapeSpec VertexTape.
Import ListNotations.
Local Open Scope R_scope.

(* the images fr with depth, intrinsics and row j of the poses taken from e = [depth; fx; fy; cx; cy; r0; r1; r2; t] *)
Definition put (fr : frames) (j : nat) (e : list R) : frames :=
  with_fdep (fun _ _ _ _ => rget e 0)
   (with_fK (fun b i k => match i, k with O, O => rget e 1 | 1%nat, 1%nat => rget e 2 | O, 2%nat => rget e 3 | 1%nat, 2%nat => rget e 4 | _, _ => fK fr b i k end)
    (with_fpose (Some (fun b l i k => if (i =? j)%nat then rget e (5 + k) else match fpose fr with Some T => T b l i k | None => 0 end)) fr)).
Definition f_gvertex (fr : frames) (b l h w j : nat) (e : list R) : R := global_vertex (put fr j e) b l h w j.
(* the operations, with the pixel position of the frame *)
Definition t_pixel_vertex (fr : frames) (b l h w : nat) : list op :=
  let p := pixel fr b l h w in t_gvertex (p 0%nat) (p 1%nat) (p 2%nat).
