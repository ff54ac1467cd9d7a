(* Programs that show the sharing. *)
From Coq Require Import List Arith ZArith Bool Lia Field_theory.
From Verif Require Import Res Fld StructUtilsModel PointcloudsModel PointcloudsSpec StoreModel StoreSpec.
Import ListNotations.
Local Open Scope nat_scope.

(* a program starts with no tensor and no object *)
Definition nothing (F : Fld) : world F := mkW F [] [].
(* x = torch.ones(1, 3); p = Pointclouds([x]); p.points_padded; then m *)
Definition one_cloud (F : Fld) (m : make F) : list (op F) :=
  [OTensor F (CF F Cpu [f1; f1; f1]);
   ONew F (HList [H2 (mkV2 0 0 3 1 1 3)]) HNone HNone HNone None;
   OCall F 0 (CPadded F Points);
   OMake F 0 m].
(* p.points_padded.zero_() *)
Definition zero_padded (F : Fld) : op F := OWrite F 2 (CF F Cpu [f0; f0; f0]).
(* what a read of object k answers *)
Definition sees (F : Fld) (w : world F) (k : nat) (c : call F) : option (res (ans F)) :=
  match nth_error (wobjs F w) k with Some o => Some (fst (run_call F c (wheap F w, o))) | None => None end.

Lemma one_zero (F : Fld) : f1 <> f0 :> F.
Proof. exact (F_1_neq_0 (fth F)). Qed.

Lemma p_detach_refuted (F : Fld) cur :
  let w := steps F cur (one_cloud F (MDetach F)) (nothing F) in
  let w' := step F cur (zero_padded F) w in
  sees F w' 1 (CList F Points) = sees F w 1 (CList F Points) /\
  sees F w' 1 (CPadded F Points) <> sees F w 1 (CPadded F Points).
Proof.
  cbv -[f0 f1 car]. split; [reflexivity|]. pose proof (one_zero F). congruence.
Qed.
Lemma p_to_refuted (F : Fld) cur copy :
  let w := steps F cur (one_cloud F (MTo F (DStr SCpu) copy)) (nothing F) in
  let w' := step F cur (zero_padded F) w in
  sees F w' 1 (CList F Points) = sees F w 1 (CList F Points) /\
  sees F w' 1 (CPadded F Points) <> sees F w 1 (CPadded F Points).
Proof.
  destruct copy; (cbv -[f0 f1 car]; split; [reflexivity|]; pose proof (one_zero F); congruence).
Qed.
Lemma p_clone_case (F : Fld) cur :
  let w := steps F cur (one_cloud F (MClone F)) (nothing F) in
  let w' := step F cur (zero_padded F) w in
  sees F w' 1 (CPadded F Points) = sees F w 1 (CPadded F Points) /\
  sees F w' 0 (CPadded F Points) <> sees F w 0 (CPadded F Points).
Proof.
  cbv -[f0 f1 car]. split; [reflexivity|]. pose proof (one_zero F). congruence.
Qed.
