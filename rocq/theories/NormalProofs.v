(* Gradients of normal maps. *)
From Coq Require Import Reals List Arith Bool Lia Lra.
From Verif Require Import MatSpec GeomSpec RgbdSpec TapeModel TapeSpec TapeForms GradSpec GradProofs TapeProofs TapeProofs2 TapeProofs3 TapeProofs4 TapeProofs5 TapeProofs6
  VertexTape VertexForms VertexProofs NormalTape NormalForms.
Import ListNotations.
Local Open Scope R_scope.

Lemma rfwd_app p : forall q env, rfwd (p ++ q) env = rfwd q (rfwd p env).
Proof. induction p as [|o p IH]; intros q env; [reflexivity|]. cbn [app rfwd]. apply IH. Qed.
Lemma ralong_app P p : forall q env, ralong P (p ++ q) env <-> ralong P p env /\ ralong P q (rfwd p env).
Proof. induction p as [|o p IH]; intros q env; cbn [app ralong rfwd]; [tauto|]. rewrite IH. tauto. Qed.
Lemma rfwd_length p : forall env, length (rfwd p env) = (length env + length p)%nat.
Proof. induction p as [|o p IH]; intros env; cbn [rfwd]; [cbn; lia|]. rewrite IH, app_length. cbn. lia. Qed.

(* the vertex of a pixel p with depth d *)
Definition vtx (p : nat -> R) (d fx fy cx cy : R) (j : nat) : R :=
  keep d (d * mvec 3 (pinhole (/ (fx + eps6)) (/ (fy + eps6)) (- cx / (fx + eps6)) (- cy / (fy + eps6)) 0) p j).

Section Front.
  Variables (p q s : nat -> R) (d0 d1 d2 fx fy cx cy : R).
  Hypotheses (Hx : fx + eps6 <> 0) (Hy : fy + eps6 <> 0).
  Let e := [d0; d1; d2; fx; fy; cx; cy].
  Lemma front_tame : ralong tame_op (t_front p q s) e.
  Proof.
    unfold t_front, t_intr, t_vtx, e. cbn [app Nat.add].
    do 8 ras. ras; [congruence|]. do 2 ras. ras; [congruence|]. do 48 ras. exact Logic.I.
  Qed.
  Lemma front_smooth : d0 <> 0 -> d1 <> 0 -> d2 <> 0 -> ralong smooth_op (t_front p q s) e.
  Proof.
    intros N0 N1 N2. unfold t_front, t_intr, t_vtx, e. cbn [app Nat.add].
    do 8 ras. ras; [split; [congruence|exact Logic.I]|]. do 2 ras. ras; [split; [congruence|exact Logic.I]|]. do 48 ras. exact Logic.I.
  Qed.
  Lemma front_facts : let v := rget (rfwd (t_front p q s) e) in
    v 28%nat = (if Rlt_dec 0 d0 then 1 else 0) /\
    (v 30%nat = vtx p d0 fx fy cx cy 0 /\ v 32%nat = vtx p d0 fx fy cx cy 1 /\ v 34%nat = vtx p d0 fx fy cx cy 2) /\
    (v 46%nat = vtx q d1 fx fy cx cy 0 /\ v 48%nat = vtx q d1 fx fy cx cy 1 /\ v 50%nat = vtx q d1 fx fy cx cy 2) /\
    (v 62%nat = vtx s d2 fx fy cx cy 0 /\ v 64%nat = vtx s d2 fx fy cx cy 1 /\ v 66%nat = vtx s d2 fx fy cx cy 2).
  Proof.
    cbv zeta. unfold t_front, t_intr, t_vtx, e. cbn [app Nat.add]. do 60 rfs. cbn [rfwd]. unfold rget. cbn [nth].
    unfold vtx, keep, mvec, pinhole. cbn [rsum]. subst.
    destruct (Rlt_dec 0 d0), (Rlt_dec 0 d1), (Rlt_dec 0 d2); repeat split; try (field; split; assumption); try (field; assumption); ring.
  Qed.
End Front.
