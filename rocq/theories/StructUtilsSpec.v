(* Specification vocabulary for padded/list conversion, independent of the model's helpers. *)
From Coq Require Import List Arith ZArith Bool.
From Verif Require Import StructUtilsModel.
Import ListNotations.

(* element access; None outside the tensor *)
Definition elem2 {A} (x : t2 A) (i j : nat) : option A :=
  match nth_error (t2r x) i with Some r => nth_error r j | None => None end.
Definition elem3 {A} (x : t3 A) (b i j : nat) : option A :=
  match nth_error (t3d x) b with
  | Some m => match nth_error m i with Some r => nth_error r j | None => None end
  | None => None
  end.

(* [d0 x d1] is large enough for every item *)
Definition fits {A} (x : list (t2 A)) (d0 d1 : nat) : Prop :=
  Forall (fun y => length (t2r y) <= d0 /\ t2c y <= d1) x.

(* the list of original sizes, in the two forms padded_to_list accepts *)
Definition sizes2 {A} (x : list (t2 A)) : list split :=
  map (fun y => SplitSeq [Z.of_nat (length (t2r y)); Z.of_nat (t2c y)]) x.
Definition sizes1 {A} (x : list (t2 A)) : list split :=
  map (fun y => SplitInt (Z.of_nat (length (t2r y)))) x.
