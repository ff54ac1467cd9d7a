(* Specification vocabulary for C80. *)
From Coq Require Import Reals.
From Verif Require Import MatSpec RgbdSpec.
(* the given poses of a sequence, or the identity *)
Definition first_poses (fr : frames) : nat -> nat -> mat := match fpose fr with Some T => T | None => fun _ _ => mI end.
