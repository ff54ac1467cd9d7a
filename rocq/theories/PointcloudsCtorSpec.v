(* Which constructor arguments denote a batch of clouds, and which one. *)
From Coq Require Import List Arith ZArith Bool.
From Verif Require Import Res Fld StructUtilsModel PointcloudsModel PointcloudsSpec.
Import ListNotations.
Local Open Scope nat_scope.

Section CtorSpec.
Variable F : Fld.
Notation T2 := (t2 F).
Notation T3 := (t3 F).

(* every tensor value satisfies this: nested lists have the declared extents, and [ATn] is used only
   for ranks other than 2 and 3 *)
Definition real_tensor (x : anyt F) : Prop :=
  match x with
  | AT2 _ y => t2wf y
  | AT3 _ y => t3wf y
  | ATn _ sh => length sh <> 2 /\ length sh <> 3
  end.
Definition real_inp (i : inp F) : Prop :=
  match i with
  | IList _ l => Forall real_tensor l
  | ITensor _ x => real_tensor x
  | _ => True
  end.

(* the argument i stands for the (possibly absent) list of clouds o *)
Definition as_list (i : inp F) (o : option (list T2)) : Prop :=
  match o with None => i = INone F | Some L => i = IList F (map (AT2 F) L) end.
(* the argument i is a (B, N, c) tensor whose slabs are the clouds *)
Definition as_tensor (i : inp F) (o : option (list T2)) : Prop :=
  match o with
  | None => i = INone F
  | Some L => exists p, i = ITensor F (AT3 F p) /\ L = map (mkT2 (t3c p)) (t3d p)
  end.

(* Pointclouds(points, normals, colors, features) is meaningful and means batch a: all four absent,
   or all present ones lists (resp. batched tensors) that agree in number of clouds and points *)
Definition Denotes (p n c f : inp F) (a : batch F) : Prop :=
  (p = INone F /\ n = INone F /\ c = INone F /\ f = INone F /\ a = no_batch F) \/
  (exists P, valid_batch F P a /\
     as_list p (qp a) /\ as_list n (qn a) /\ as_list c (qc a) /\ as_list f (qf a)) \/
  (exists P, valid_batch F P a /\
     as_tensor p (qp a) /\ as_tensor n (qn a) /\ as_tensor c (qc a) /\ as_tensor f (qf a)).

End CtorSpec.
