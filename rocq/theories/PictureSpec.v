(* What the animation of an image sequence should contain. *)
From Coq Require Import List Arith ZArith Reals Bool.
From Verif Require Import Res TensorModel RgbdModel RgbdSpec ExportModel ExportSpec.
Import ListNotations.
Local Open Scope R_scope.

(* every colour value of sequence b is below 1.1: the colours are taken to be in 0 .. 1 *)
Definition dim_sequence (a : frames) (b : nat) : Prop :=
  forall l h w c, inside a b l h w -> (c < 3)%nat -> frgb a b l h w c < 11 / 10.
(* the scale of depth images: the largest power of ten that keeps sequence b within a byte *)
Definition right_scale (a : frames) (b : nat) (sc : R) : Prop :=
  (exists e : Z, sc = powerRZ 10 e) /\
  (forall l h w, inside a b l h w -> fdep a b l h w * sc <= 255) /\
  (exists l h w, inside a b l h w /\ 255 < fdep a b l h w * (10 * sc)).
(* z is x rounded down *)
Definition floor_of (x : R) (z : Z) : Prop := IZR z <= x < IZR z + 1.
(* frame l of sequence b: channels last, colours as bytes *)
Definition shows_rgb (a : frames) (b l : nat) (img : ten Z) : Prop :=
  shape img = [fH a; fW a; 3%nat] /\
  forall h w c, inside a b l h w -> (c < 3)%nat ->
    (dim_sequence a b -> byte_of (255 * frgb a b l h w c) (at_ img [c; w; h])) /\
    (~ dim_sequence a b -> byte_of (frgb a b l h w c) (at_ img [c; w; h])).
Definition shows_depth (a : frames) (b l : nat) (sc : R) (img : ten Z) : Prop :=
  shape img = [fH a; fW a] /\
  forall h w, inside a b l h w -> floor_of (fdep a b l h w * sc) (at_ img [w; h]) /\ (0 <= at_ img [w; h] <= 255)%Z.
