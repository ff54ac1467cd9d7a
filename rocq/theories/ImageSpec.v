(* Specification vocabulary for the image helpers (C61). *)
From Coq Require Import Reals List Arith.
From Verif Require Import TensorModel.
Import ListNotations.
Local Open Scope nat_scope.

(* (..., C, H, W) back to (..., H, W, C) *)
Definition channels_last (x : ten R) : ten R :=
  match dims x with
  | w :: h :: c :: r => mkTen (c :: w :: h :: r) (fun ix => match ix with c' :: w' :: h' :: ix' => at_ x (w' :: h' :: c' :: ix') | _ => 0%R end)
  | _ => x
  end.
(* the entry (..., i, j, k) of an array *)
Definition entry3 (x : ten R) (pre : list nat) (i j k : nat) : R := at_ x (k :: j :: i :: rev pre).
(* a rounding of real numbers *)
Definition Rounds (rnd : R -> R) : Prop := (forall x y, x <= y -> rnd x <= rnd y)%R /\ rnd 0%R = 0%R /\ rnd 1%R = 1%R.
