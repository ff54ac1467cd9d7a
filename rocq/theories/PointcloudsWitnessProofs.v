(* The witnesses are reachable. *)
From Coq Require Import List Arith ZArith Bool QArith Qcanon Lia.
From Verif Require Import Res Fld StructUtilsModel PointcloudsModel PointcloudsSpec PointcloudsCtorSpec
  PointcloudsSetSpec PointcloudsHist PointcloudsHistProofs PointcloudsPropProofs PointcloudsWitness.
Import ListNotations.
Local Open Scope nat_scope.

Lemma v21 : valid_batch QcF P21 a21.
Proof.
  split; [reflexivity|]. split; [discriminate|]. intros [| | |] L E; cbn in E; try discriminate; injection E as <-;
  (split; [reflexivity|repeat constructor]).
Qed.
Lemma v21p : valid_batch QcF P21 a21p.
Proof.
  split; [reflexivity|]. split; [discriminate|]. intros [| | |] L E; cbn in E; try discriminate; injection E as <-;
  (split; [reflexivity|repeat constructor]).
Qed.
Lemma realL21 : real_inp QcF (inL P21).
Proof. repeat constructor. Qed.
Lemma realN21 : real_inp QcF (inL N21).
Proof. repeat constructor. Qed.
Lemma ctor21 : ctor QcF (inL P21) (inL N21) (INone QcF) (INone QcF) = Ok s21.
Proof. reflexivity. Qed.
Lemma ctor21p : ctor QcF (inL P21) (INone QcF) (INone QcF) (INone QcF) = Ok s21p.
Proof. reflexivity. Qed.
Lemma d21 : Denotes QcF (inL P21) (inL N21) (INone QcF) (INone QcF) a21.
Proof. right. left. exists P21. split; [exact v21|repeat split]. Qed.
Lemma d21p : Denotes QcF (inL P21) (INone QcF) (INone QcF) (INone QcF) a21p.
Proof. right. left. exists P21. split; [exact v21p|repeat split]. Qed.
Lemma lo21 : ListOnly QcF s21 a21.
Proof.
  eapply lo_new; try exact v21; try exact ctor21; try exact realL21; try exact realN21; try exact I; reflexivity.
Qed.
Lemma h21 : Hist QcF s21 a21.
Proof. apply h_list, lo21. Qed.
Lemma h21p : Hist QcF s21p a21p.
Proof. eapply h_new; try exact d21p; try exact ctor21p; try exact realL21; exact I. Qed.

(* a longer history: build, read the mask, rotate, then append the original clouds *)
Lemma long_history : exists s a P, Hist QcF s a /\ qp a = Some P /\ counts_of QcF P = [4; 2] /\
  is_some (qn a) = true /\ all_equal (counts_of QcF P) = false.
Proof.
  pose proof (h_read QcF RdMask _ _ h21) as H1.
  destruct (p_call QcF (Rotate QcF Rz true) _ a21
    (rotate_spec QcF [3; 3] (mat [[0; -1; 0]; [1; 0; 0]; [0; 0; 1]]%Z) true a21) H1) as (s2 & E2 & H2 & _).
  { split; [now left|reflexivity]. }
  destruct (p_append QcF _ _ _ _ H2 h21) as (s3 & o3 & E3 & _ & _ & H3 & _).
  { right. right. split; [reflexivity|]. split; [intros [| | |]; reflexivity|reflexivity]. }
  eexists _, _, _. split; [exact H3|]. split; [reflexivity|]. split; [reflexivity|split; reflexivity].
Qed.

Lemma h1 : Hist QcF s1 a1.
Proof.
  apply (h_new QcF (inL P1) (INone QcF) (INone QcF) (INone QcF)); try exact I; [repeat constructor| |reflexivity].
  right. left. exists P1. split; [|repeat split]. split; [reflexivity|]. split; [discriminate|].
  intros [| | |] L E; cbn in E; try discriminate; injection E as <-; (split; [reflexivity|repeat constructor]).
Qed.
Lemma hT : Hist QcF sT aT.
Proof.
  apply (h_new QcF (ITensor QcF (AT3 QcF PT)) (ITensor QcF (AT3 QcF NT)) (INone QcF) (INone QcF));
    try exact I; [repeat constructor|repeat constructor| |reflexivity].
  right. right. exists (slabs_of PT). split.
  - split; [reflexivity|]. split; [discriminate|].
    intros [| | |] L E; cbn in E; try discriminate; injection E as <-; (split; [reflexivity|repeat constructor]).
  - repeat split; eexists; split; reflexivity.
Qed.

Lemma okp {A S} (r : res A * S) x : fst r = Ok x -> r = (Ok x, snd r).
Proof. destruct r; cbn; congruence. Qed.
(* the object after rotating s21 *)
Definition s21r : pc QcF := snd (rotate_ QcF Rz true s21).
Definition a21r : batch QcF := rotate_spec QcF [3; 3] (mat [[0; -1; 0]; [1; 0; 0]; [0; 0; 1]]%Z) true a21.
Lemma m21r : Means QcF (Rotate QcF Rz true) a21 a21r.
Proof. split; [now left|reflexivity]. Qed.
Lemma e21r : rotate_ QcF Rz true s21 = (Ok tt, s21r).
Proof. apply okp. vm_compute. reflexivity. Qed.
Lemma h21r : Hist QcF s21r a21r.
Proof. exact (h_call QcF _ _ _ _ _ h21 m21r e21r). Qed.

Lemma ok_unwrap {A} (r : res A) d : is_ok r = true -> r = Ok (match r with Ok o => o | Err _ => d end).
Proof. destruct r; cbn; congruence. Qed.
