(* Which clouds an index expression selects (Python semantics), independently of the implementation. *)
From Coq Require Import List Arith ZArith Bool Sorting.Sorted.
From Verif Require Import Res Fld StructUtilsModel PointcloudsModel PointcloudsSpec.
Import ListNotations.
Local Open Scope nat_scope.

(* integer i denotes position k of a sequence of n items (negative integers count from the end) *)
Definition resolves (n : nat) (i : Z) (k : nat) : Prop :=
  k < n /\ (Z.of_nat k = i \/ Z.of_nat k = i + Z.of_nat n)%Z.

(* Python's documentation of slices: bounds are clipped; items lo, lo+step, lo+2 step, ... up to hi *)
Definition clip_up (n x : Z) : Z := if (x <? 0)%Z then Z.max 0 (x + n) else Z.min x n.
Definition clip_down (n x : Z) : Z := if (x <? 0)%Z then Z.max (-1) (x + n) else Z.min x (n - 1).
Definition slice_sel (start stop : option Z) (step : Z) (n : nat) (ks : list nat) : Prop :=
  let m := Z.of_nat n in
  ((0 < step)%Z /\
   StronglySorted lt ks /\
   let lo := match start with None => 0 | Some x => clip_up m x end%Z in
   let hi := match stop with None => m | Some x => clip_up m x end%Z in
   forall k, In k ks <-> (Z.of_nat k < hi)%Z /\ exists j, (0 <= j)%Z /\ Z.of_nat k = (lo + j * step)%Z) \/
  ((step < 0)%Z /\
   StronglySorted gt ks /\
   let lo := match start with None => m - 1 | Some x => clip_down m x end%Z in
   let hi := match stop with None => -1 | Some x => clip_down m x end%Z in
   forall k, In k ks <-> (hi < Z.of_nat k)%Z /\ exists j, (0 <= j)%Z /\ Z.of_nat k = (lo + j * step)%Z).

Definition Selects (ix : index) (n : nat) (ks : list nat) : Prop :=
  match ix with
  | XInt i => exists k, resolves n i k /\ ks = [k]
  | XSlice start stop step => slice_sel start stop (match step with None => 1%Z | Some st => st end) n ks
  | XList l => Forall2 (resolves n) l ks
  | XIntTensor d l => d = 1 /\ Forall2 (resolves n) l ks
  | XBoolTensor d l => d = 1 /\ StronglySorted lt ks /\ Forall (fun k => k < n) ks /\
                       (forall k, In k ks <-> nth_error l k = Some true)
  | XFloatTensor => False
  | XOther => False
  end.

Section Picked.
Variable F : Fld.
(* batch c consists of the clouds of a at positions ks, in that order, with all attributes *)
Definition Picked (ks : list nat) (a c : batch F) : Prop :=
  forall x, match qget x a with
            | None => qget x c = None
            | Some L => exists L', qget x c = Some L' /\ map Some L' = map (nth_error L) ks
            end.
End Picked.
