(* Model of gradslam/odometry/groundtruth.py.  Of an RGBDImages argument only batch size, sequence length
   and poses are used. *)
From Coq Require Import Reals List Arith Bool.
From Verif Require Import Res MatSpec TensorModel LinAlgModel ProjModel GeomModel.
Import ListNotations.
Local Open Scope nat_scope.

(* an RGBDImages argument: batch size, length and poses (groundtruth.py:15-75) *)
Record posed := mkPosed { ps_B : nat; ps_L : nat; ps_poses : option (ten R) }.

(* x.view(-1, 4, 4) of a (B, L, 4, 4) tensor and y.view(B, L, 4, 4) of a (B * L, 4, 4) tensor, row-major *)
Definition view_44 (B L : nat) (x : ten R) : ten R :=
  mkTen [4; 4; B * L] (fun ix => match ix with
    | j :: i :: k :: _ => at_ x [j; i; k mod L; k / L] | _ => 0%R end).
(* x.view(B, L, 4, 4) *)
Definition view_BL44 (B L : nat) (y : ten R) : ten R :=
  mkTen [4; 4; L; B] (fun ix => match ix with
    | j :: i :: l :: b :: _ => at_ y [j; i; b * L + l] | _ => 0%R end).

(* groundtruth.py:15-75; isinstance checks not represented *)
Definition gt_provide (r1 r2 : posed) : res (ten R) :=
  match ps_poses r1, ps_poses r2 with
  | None, _ => Err ValueError
  | _, None => Err ValueError
  | Some p1, Some p2 =>
      guard (ps_L r1 =? 1) ValueError ;;?
      guard (ps_L r2 =? 1) ValueError ;;?
      guard (ps_B r1 =? ps_B r2) ValueError ;;?
      let? t := relative_transformation (view_44 (ps_B r1) (ps_L r1) p1) (view_44 (ps_B r2) (ps_L r2) p2) false in
      Ok (view_BL44 (ps_B r1) (ps_L r1) t)
  end.
