(* Unique choice for maps: a function can be read off a functional relation with values in lists of real numbers, with no axiom beyond those of the real numbers. *)
From Coq Require Import Reals List Arith Bool ZArith Lia Lra.
From Verif Require Import Res Fld StructUtilsModel PointcloudsModel PointcloudsSpec.
Import ListNotations.

Definition describable (A : Type) : Type := forall P : A -> Prop, (exists! a, P a) -> {a | P a}.
Lemma dd_R : describable R.
Proof.
  intros P H. assert (Bd : bound P) by (destruct H as (v & _ & U); exists v; intros y Hy; rewrite (U y Hy); lra).
  assert (Ne : exists v, P v) by (destruct H as (v & Hv & _); now exists v).
  destruct (completeness P Bd Ne) as (m & Hm). exists m. destruct H as (v & Hv & U).
  assert (E : m = v); [|rewrite E; exact Hv]. destruct Hm as [H1 H2]. apply Rle_antisym; [apply H2; intros y Hy; rewrite (U y Hy); lra|apply H1; exact Hv].
Qed.
(* along an injection with a left inverse *)
Lemma dd_retract {A B} (f : A -> B) (g : B -> A) : (forall a, g (f a) = a) -> describable B -> describable A.
Proof.
  intros E D P H. destruct (D (fun b => exists a, P a /\ b = f a)) as (b & Hb).
  - destruct H as (a & Ha & U). exists (f a). split; [now exists a|]. intros b (a' & Ha' & ->). f_equal. now apply U.
  - exists (g b). destruct Hb as (a & Ha & ->). now rewrite E.
Qed.
Lemma dd_nat : describable nat.
Proof.
  apply (dd_retract INR (fun r => Z.to_nat (up r - 1))); [|exact dd_R]. intros n.
  assert (E : up (INR n) = (Z.of_nat n + 1)%Z); [|rewrite E; lia]. symmetry. apply tech_up; rewrite plus_IZR, <- INR_IZR_INZ; lra.
Qed.
Lemma dd_bool : describable bool.
Proof. apply (dd_retract (fun b : bool => if b then 1%nat else 0%nat) (fun n => Nat.eqb n 1)); [intros []; reflexivity|exact dd_nat]. Qed.
Lemma dd_prod {A B} : describable A -> describable B -> describable (A * B).
Proof.
  intros DA DB P H. destruct (DA (fun a => exists b, P (a, b))) as (a & Ha).
  - destruct H as ([a b] & Hp & U). exists a. split; [now exists b|]. intros a' (b' & H'). now injection (U _ H').
  - destruct (DB (fun b => P (a, b))) as (b & Hb); [|now exists (a, b)]. destruct Ha as (b & Hb). exists b. split; [exact Hb|]. intros b' Hb'. destruct H as (p & _ & U).
    assert (E : (a, b) = (a, b')) by (transitivity p; [symmetry; now apply U|now apply U]). now injection E.
Qed.
Lemma dd_list {A} : describable A -> describable (list A).
Proof.
  intros D P H. destruct (dd_nat (fun n => exists l, P l /\ length l = n)) as (n & Hn).
  { destruct H as (l & Hl & U). exists (length l). split; [now exists l|]. intros n (l' & Hl' & <-). now rewrite (U l' Hl'). }
  revert P H Hn. induction n as [|n IH]; intros P H Hn.
  - exists []. destruct Hn as (l & Hl & E). destruct l; [exact Hl|discriminate].
  - destruct (D (fun a => exists l, P (a :: l))) as (a & Ha).
    + destruct Hn as ([|a l] & Hl & E); [discriminate|]. exists a. split; [now exists l|]. intros a' (l' & Hl'). destruct H as (p & _ & U).
      assert (K : a :: l = a' :: l') by (transitivity p; [symmetry; now apply U|now apply U]). now injection K.
    + assert (U : forall l l', P (a :: l) -> P (a :: l') -> l = l'). { intros l l' H1 H2. destruct H as (p & _ & U). assert (K : a :: l = a :: l') by (transitivity p; [symmetry; now apply U|now apply U]). now injection K. }
      destruct (IH (fun l => P (a :: l))) as (l & Hl).
      * destruct Ha as (l & Hl). exists l. split; [exact Hl|]. intros l' Hl'. now apply U.
      * destruct Ha as (l & Hl). exists l. split; [exact Hl|]. destruct Hn as (l0 & H0 & E). destruct H as (p & _ & U'). assert (K : a :: l = l0) by (transitivity p; [symmetry; now apply U'|now apply U']). rewrite <- K in E. now injection E.
      * now exists (a :: l).
Qed.
Lemma dd_option {A} : describable A -> describable (option A).
Proof.
  intros D. apply (dd_retract (fun o : option A => match o with Some a => [a] | None => [] end) (fun l : list A => match l with a :: _ => Some a | [] => None end)); [intros []; reflexivity|now apply dd_list].
Qed.
Lemma dd_t2 : describable (t2 RF).
Proof.
  apply (dd_retract (fun y : t2 RF => (t2c y, t2r y)) (fun p => mkT2 (fst p) (snd p) : t2 RF)); [intros []; reflexivity|]. apply dd_prod; [exact dd_nat|]. exact (dd_list (dd_list dd_R)).
Qed.
Lemma dd_batch : describable (batch RF).
Proof.
  apply (dd_retract (fun a : batch RF => (qp a, qn a, qc a, qf a)) (fun p => mkQ (fst (fst (fst p))) (snd (fst (fst p))) (snd (fst p)) (snd p) : batch RF)); [intros []; reflexivity|].
  repeat apply dd_prod; exact (dd_option (dd_list dd_t2)).
Qed.
