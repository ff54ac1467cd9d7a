(* Concrete rational point clouds used as witnesses and counterexamples. *)
From Coq Require Import List Arith ZArith Bool QArith Qcanon.
From Verif Require Import Res Fld StructUtilsModel PointcloudsModel PointcloudsSpec PointcloudsCtorSpec
  PointcloudsSetSpec PointcloudsHist.
Import ListNotations.
Local Open Scope nat_scope.

Definition q (z : Z) : Qc := Q2Qc (inject_Z z).
Definition row (l : list Z) : list Qc := map q l.
Definition cloud (l : list (list Z)) : t2 QcF := mkT2 3 (map row l : list (list QcF)).

(* two clouds with 2 and 1 points, with normals *)
Definition P21 : list (t2 QcF) := [cloud [[1; 2; 3]; [4; 5; 6]]%Z; cloud [[7; 8; 9]]%Z].
Definition N21 : list (t2 QcF) := [cloud [[1; 0; 0]; [0; 1; 0]]%Z; cloud [[0; 0; 1]]%Z].
Definition N21' : list (t2 QcF) := [cloud [[0; 1; 0]; [0; 1; 0]]%Z; cloud [[0; 0; 1]]%Z].
Definition a21 : batch QcF := mkQ (Some P21) (Some N21) None None.
Definition a21p : batch QcF := mkQ (Some P21) None None None.
Definition inL (l : list (t2 QcF)) : inp QcF := IList QcF (map (AT2 QcF) l).

(* a (3,3) matrix given by rows; a (1,4,4) one *)
Definition mat (rows : list (list Z)) (ix : list nat) : QcF :=
  match ix with [i; j] => q (nth j (nth i rows []) 0%Z) | [_; i; j] => q (nth j (nth i rows []) 0%Z) | _ => q 0 end.
Definition Rz : operand QcF := OT QcF [3; 3] (mat [[0; -1; 0]; [1; 0; 0]; [0; 0; 1]]%Z).

(* evaluation helpers: the object after the calls that succeed *)
Definition fresh (p n c f : inp QcF) : pc QcF := match ctor QcF p n c f with Ok s => s | Err _ => empty_pc QcF end.
Definition s21 : pc QcF := fresh (inL P21) (inL N21) (INone QcF) (INone QcF).
Definition s21p : pc QcF := fresh (inL P21) (INone QcF) (INone QcF) (INone QcF).
(* numbers read off as rationals *)
Definition num3 (o : option (t3 QcF)) : list (list (list Q)) :=
  match o with None => [] | Some p => map (map (map this)) (t3d p) end.
Definition num2 (o : option (list (t2 QcF))) : list (list (list Q)) :=
  match o with None => [] | Some l => map (fun y => map (map this) (t2r y)) l end.
(* one cloud with one point *)
Definition P1 : list (t2 QcF) := [cloud [[1; 2; 3]]%Z].
Definition a1 : batch QcF := mkQ (Some P1) None None None.
Definition s1 : pc QcF := fresh (inL P1) (INone QcF) (INone QcF) (INone QcF).
Definition ones (sh : list nat) : operand QcF := OT QcF sh (fun _ => q 1).
(* the same two clouds' worth of data given as (2,1,3) tensors *)
Definition PT : t3 QcF := mkT3 1 3 ([[row [1; 2; 3]]; [row [4; 5; 6]]]%Z : list (list (list QcF))).
Definition NT : t3 QcF := mkT3 1 3 ([[row [1; 0; 0]]; [row [0; 1; 0]]]%Z : list (list (list QcF))).
Definition slabs_of (p : t3 QcF) : list (t2 QcF) := map (mkT2 (t3c p)) (t3d p).
Definition aT : batch QcF := mkQ (Some (slabs_of PT)) (Some (slabs_of NT)) None None.
Definition sT : pc QcF := fresh (ITensor QcF (AT3 QcF PT)) (ITensor QcF (AT3 QcF NT)) (INone QcF) (INone QcF).
(* features of widths 1 and 2 *)
Definition Fbad : list (t2 QcF) := [mkT2 1 [row [1]; row [2]]; mkT2 2 [row [3; 4]]]%Z.
Definition vl (l : list (t2 QcF)) : setval_list QcF := SL QcF (map (AT2 QcF) l).
