(* What the exports of clouds and images should contain. *)
From Coq Require Import List Arith ZArith Reals Bool Permutation.
From Verif Require Import Res Fld TensorModel StructUtilsModel PointcloudsModel PointcloudsSpec.
Import ListNotations.
Local Open Scope nat_scope.

(* torch.randperm(n) is a permutation of 0 .. n-1, any one *)
Definition shuffles (perm : nat -> list nat) : Prop := forall n, Permutation (perm n) (seq 0 n).
(* inds are the positions of at most max points (all of them, in order, if there are no more): no point twice *)
Definition chosen (n : nat) (max : option Z) (inds : list nat) : Prop :=
  NoDup inds /\ (forall i, In i inds -> i < n) /\
  match max with
  | None => inds = seq 0 n
  | Some m => length inds = Nat.min (Z.to_nat m) n /\ ((Z.of_nat n <= m)%Z -> inds = seq 0 n)
  end.
(* rows inds of attribute x of cloud k *)
Definition rows_of (a : batch RF) (x : attr) (k : nat) (inds : list nat) : option (list (list R)) :=
  option_map (fun L => map (fun i => nth i (t2r (nth k L (mkT2 3 []))) []) inds) (qget x a).
(* number of points of cloud k *)
Definition size_of (a : batch RF) (k : nat) : nat := nth k (counts_view RF a) 0.

Local Open Scope R_scope.
(* some colour value is above 1.1: the colours are taken to be in 0 .. 255 *)
Definition bright (rows : list (list R)) : Prop := exists r c, In r rows /\ In c r /\ 11 / 10 < c.
Definition into (lo hi c : R) : R := if Rlt_dec c lo then lo else if Rlt_dec hi c then hi else c.
(* the colours of open3d: numbers in 0 .. 1 *)
Definition Unit (rows out : list (list R)) : Prop :=
  (bright rows /\ out = map (map (fun c => into 0 1 (c / 255))) rows) \/
  (~ bright rows /\ out = map (map (into 0 1)) rows).
(* the colours of plotly: bytes; z is c rounded down *)
Definition byte_of (c : R) (z : Z) : Prop := IZR z <= into 0 255 c < IZR z + 1.
Definition dim (rows : list (list R)) : Prop := forall r c, In r rows -> In c r -> c < 11 / 10.
Definition Bytes (rows : list (list R)) (out : list (list Z)) : Prop :=
  (dim rows /\ Forall2 (Forall2 (fun c z => byte_of (255 * c) z)) rows out) \/
  (~ dim rows /\ Forall2 (Forall2 byte_of) rows out).
Local Open Scope nat_scope.
