(* Which values may be assigned to a list or padded view, and what they mean. *)
From Coq Require Import List Arith ZArith Bool.
From Verif Require Import Res Fld StructUtilsModel PointcloudsModel PointcloudsSpec PointcloudsCtorSpec.
Import ListNotations.
Local Open Scope nat_scope.

Section SetSpec.
Variable F : Fld.
Notation T2 := (t2 F).
Notation T3 := (t3 F).
(* the clouds L have the counts of P and width w; for points, normals and colors w must be 3 *)
Definition fits_clouds (P : list T2) (x : attr) (w : nat) (L : list T2) : Prop :=
  counts_of F L = counts_of F P /\
  Forall (fun y => t2c y = w /\ Forall (fun r => length r = w) (t2r y)) L /\
  (x <> Features -> w = 3).
(* a padded value that may be assigned: the zero padding of such clouds *)
Definition pad_value (P : list T2) (x : attr) (v : setval_pad F) (L : list T2) : Prop :=
  exists w, fits_clouds P x w L /\ v = SP F (AT3 F (pad_to F (biggest (counts_of F P)) w L)).
(* a list value that may be assigned *)
Definition list_value (P : list T2) (x : attr) (v : setval_list F) (L : list T2) : Prop :=
  exists w, fits_clouds P x w L /\ v = SL F (map (AT2 F) L).
Definition real_pad (v : setval_pad F) : Prop := match v with SP _ x => real_tensor F x | SPBad _ => True end.
Definition real_list (v : setval_list F) : Prop := match v with SL _ l => Forall (real_tensor F) l | SLBad _ => True end.
(* what the list setters check.  Differs from list_value for features only: several widths are let through *)
Definition list_shape_ok (P : list T2) (x : attr) (v : setval_list F) : Prop :=
  exists L, v = SL F (map (AT2 F) L) /\ counts_of F L = counts_of F P /\
    (x <> Features -> Forall (fun y => t2c y = 3) L).
End SetSpec.

