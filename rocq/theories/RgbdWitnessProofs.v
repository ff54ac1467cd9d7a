From Coq Require Import Reals List Arith Bool ZArith Lia Lra.
From Verif Require Import Res Fld StructUtilsModel PointcloudsModel PointcloudsSpec PointcloudsIndexSpec MatSpec GeomSpec TensorModel
  RgbdModel RgbdSpec RgbdProofs RgbdOps RgbdWitness.
Import ListNotations.
Local Open Scope nat_scope.
Lemma w_inputs L H W : let a := wfr L H W in
  Inputs false a (wimg_rgb a) (wimg_depth a) (wimg_intr a) (Some (wimg_poses a)) None.
Proof. cbv zeta. repeat split; auto. Qed.
Lemma w_hist L H W : exists s, wobj L H W = Ok s /\ RHist false s false (wfr L H W).
Proof.
  destruct (new_ok false (wfr L H W) (wimg_rgb (wfr L H W)) (wimg_depth (wfr L H W)) (wimg_intr (wfr L H W)) (TTen (wimg_poses (wfr L H W))) TNone) as (s & E & _).
  - apply w_inputs.
  - discriminate.
  - discriminate.
  - exists s. split; [exact E|]. eapply h_new; [|exact E]. apply w_inputs.
Qed.
