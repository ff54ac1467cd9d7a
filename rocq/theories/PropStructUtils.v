(* C01: list/padded conversion is lossless. *)
From Coq Require Import List Arith ZArith Bool QArith Qcanon.
From Verif Require Import Res Fld StructUtilsModel StructUtilsSpec StructUtilsProofs.
Import ListNotations.
Local Open Scope nat_scope.

(* whatever list_to_padded returns, entry (b,i,j) is the (i,j) entry of the b-th tensor, or the pad value *)
Theorem C01_padded_entries : forall (A : Type) (x : list (t2 A)) ps v p,
  list_to_padded x ps v false = Ok p ->
  t3b p = length x /\ t3wf p /\
  forall b i j y, nth_error x b = Some y -> i < t3n p -> j < t3c p ->
    elem3 p b i j = Some (match elem2 y i j with Some a => a | None => v end).
Proof. exact @list_to_padded_elements. Qed.
Print Assumptions C01_padded_entries.

(* with a requested size that is large enough: the slabs have that size, and splitting with the
   original (rows, columns) sizes gives the original list back *)
Theorem C01_roundtrip_sizes : forall (A : Type) v d0 d1 (x : list (t2 A)),
  x <> [] -> Forall t2wf x -> fits x d0 d1 ->
  exists p, list_to_padded x (Some [d0; d1]) v false = Ok p /\
    t3shape p = (length x, d0, d1) /\
    padded_to_list p (Some (sizes2 x)) = Ok x.
Proof. exact @roundtrip2. Qed.
Print Assumptions C01_roundtrip_sizes.

(* common width: the row counts suffice *)
Theorem C01_roundtrip_lengths : forall (A : Type) v d0 d1 (x : list (t2 A)),
  x <> [] -> Forall t2wf x -> fits x d0 d1 -> Forall (fun y => t2c y = d1) x ->
  exists p, list_to_padded x (Some [d0; d1]) v false = Ok p /\
    padded_to_list p (Some (sizes1 x)) = Ok x.
Proof. exact @roundtrip1. Qed.
Print Assumptions C01_roundtrip_lengths.

(* without a requested size the slabs have the common (largest) size.  The row counts must be
   positive: with every item empty the code raises (see C01_all_empty_refuted) *)
Theorem C01_roundtrip_default_size : forall (A : Type) v (x : list (t2 A)),
  x <> [] -> Forall t2wf x -> Forall (fun y => 0 < t2n y) x ->
  exists p d0 d1, list_to_padded x None v false = Ok p /\
    t3shape p = (length x, d0, d1) /\
    fits x d0 d1 /\ (exists y, In y x /\ t2n y = d0) /\ (exists y, In y x /\ t2c y = d1) /\
    padded_to_list p (Some (sizes2 x)) = Ok x.
Proof. exact @roundtrip_none. Qed.
Print Assumptions C01_roundtrip_default_size.

(* the other direction: a padded tensor whose padding holds the pad value survives the round trip *)
Theorem C01_roundtrip_back : forall (A : Type) v (p : t3 A) (ns : list nat),
  t3wf p -> ns <> [] -> t3b p = length ns -> Forall (fun n => n <= t3n p) ns ->
  (forall b i j n, nth_error ns b = Some n -> n <= i -> i < t3n p -> j < t3c p ->
     elem3 p b i j = Some v) ->
  exists x, padded_to_list p (Some (map (fun n => SplitInt (Z.of_nat n)) ns)) = Ok x /\
    map t2n x = ns /\
    list_to_padded x (Some [t3n p; t3c p]) v false = Ok p.
Proof. exact @roundtrip_back. Qed.
Print Assumptions C01_roundtrip_back.

(* the size requirement is necessary: a list of empty clouds cannot be padded without a requested size *)
Theorem C01_all_empty_refuted : exists (x : list (t2 nat)),
  x <> [] /\ Forall t2wf x /\ list_to_padded x None 0 false = Err ValueError.
Proof.
  exists [mkT2 3 []; mkT2 3 []]. split; [discriminate|]. split; [|reflexivity].
  repeat constructor.
Qed.
Print Assumptions C01_all_empty_refuted.

(* non-vacuity: three clouds of 2, 0 and 1 points *)
Example C01_witness :
  let x := [mkT2 2 [[1; 2]; [3; 4]]; mkT2 2 []; mkT2 2 [[5; 6]]] in
  x <> [] /\ Forall t2wf x /\ fits x 3 2 /\ Forall (fun y => t2c y = 2) x /\
  list_to_padded x (Some [3; 2]) 9 false =
    Ok (mkT3 3 2 [[[1; 2]; [3; 4]; [9; 9]]; [[9; 9]; [9; 9]; [9; 9]]; [[5; 6]; [9; 9]; [9; 9]]]) /\
  (let y := [mkT2 2 [[1; 2]; [3; 4]]; mkT2 2 [[5; 6]]] in
   Forall (fun z => 0 < t2n z) y /\
   list_to_padded y None 9 false = Ok (mkT3 2 2 [[[1; 2]; [3; 4]]; [[5; 6]; [9; 9]]])).
Proof. cbn. repeat split; try discriminate; repeat constructor. Qed.
