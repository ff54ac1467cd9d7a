(* Storage-level properties of Pointclouds. *)
From Coq Require Import List Arith ZArith Bool Lia.
From Verif Require Import Res Fld StructUtilsModel StructUtilsProofs PointcloudsModel PointcloudsSpec
  PointcloudsProofs StoreModel StoreSpec StoreProofs StoreProofs2 StoreProofs3 StoreProofs4 StoreProofs5.
Import ListNotations.
Local Open Scope nat_scope.

Lemma p_private (F : Fld) cur (O P : nat -> Prop) w0 ops :
  (forall k, length (wobjs F w0) <= k -> O k) ->
  (forall l, length (wheap F w0) <= l -> P l) ->
  (forall k o, O k -> nth_error (wobjs F w0) k = Some o ->
     valid F (wheap F w0) o /\ forall l, uses o l -> P l) ->
  all_allowed F cur O P ops w0 ->
  forall k o, ~ O k -> nth_error (wobjs F w0) k = Some o -> (forall l, uses o l -> ~ P l) ->
  nth_error (wobjs F (steps F cur ops w0)) k = Some o /\
  abs F (wheap F (steps F cur ops w0)) o = abs F (wheap F w0) o.
Proof.
  intros HO HP H A k o Nk E U.
  assert (I : inv F P (length (wheap F w0)) O (length (wobjs F w0)) w0).
  { split; [apply le_n|]. split; [apply le_n|]. intros k' o' Ok' E'. destruct (H k' o' Ok' E') as [V U'].
    exists (odev o'). now apply ok_valid. }
  destruct (steps_inv F P _ HP cur O _ HO ops w0 I A) as (_ & [K1 K2] & _).
  split; [now rewrite K2|]. apply abs_same. intros l Ul. apply K1. now apply U.
Qed.

Lemma p_reachable (F : Fld) cur (O P : nat -> Prop) w0 ops :
  (forall k, length (wobjs F w0) <= k -> O k) ->
  (forall l, length (wheap F w0) <= l -> P l) ->
  (forall k o, O k -> nth_error (wobjs F w0) k = Some o ->
     valid F (wheap F w0) o /\ forall l, uses o l -> P l) ->
  all_allowed F cur O P ops w0 ->
  forall k o, O k -> nth_error (wobjs F (steps F cur ops w0)) k = Some o ->
  valid F (wheap F (steps F cur ops w0)) o /\ forall l, uses o l -> P l.
Proof.
  intros HO HP H A k o Ok E.
  assert (I : inv F P (length (wheap F w0)) O (length (wobjs F w0)) w0).
  { split; [apply le_n|]. split; [apply le_n|]. intros k' o' Ok' E'. destruct (H k' o' Ok' E') as [V U'].
    exists (odev o'). now apply ok_valid. }
  destruct (steps_inv F P _ HP cur O _ HO ops w0 I A) as ((_ & _ & I') & _ & _).
  destruct (I' k o Ok E) as [d D]. split; [eapply valid_ok; exact D|]. intros l U. eapply own_ok; eauto.
Qed.

Lemma p_valid (F : Fld) cur w0 ops :
  all_valid F w0 -> all_allowed F cur (fun _ => True) (fun _ => True) ops w0 ->
  all_valid F (steps F cur ops w0).
Proof.
  intros V A k o E.
  eapply (p_reachable F cur (fun _ => True) (fun _ => True) w0 ops); eauto.
Qed.

(* methods never write into a storage that exists *)
Lemma p_nowrite (F : Fld) cur w0 ops :
  all_valid F w0 -> all_allowed F cur (fun _ => True) (fun _ => True) ops w0 ->
  (forall l c, ~ In (OWrite F l c) ops) ->
  (forall l, l < length (wheap F w0) -> nth_error (wheap F (steps F cur ops w0)) l = nth_error (wheap F w0) l) /\
  (forall o, valid F (wheap F w0) o -> abs F (wheap F (steps F cur ops w0)) o = abs F (wheap F w0) o).
Proof.
  intros V A NW.
  assert (I : inv F (fun _ => True) 0 (fun _ => True) 0 w0).
  { split; [lia|]. split; [lia|]. intros k o _ E. exists (odev o). apply ok_valid; auto; [lia|]. now apply (V k). }
  destruct (steps_inv F (fun _ => True) 0 (fun _ _ => Logic.I) cur (fun _ => True) 0 (fun _ _ => Logic.I) ops w0 I A) as (_ & _ & X).
  assert (W : forallb (fun s => negb (is_write F s)) ops = true).
  { apply forallb_forall. intros s Hs. destruct s; try reflexivity. elim (NW l c Hs). }
  specialize (X W). split.
  - intros l L. now apply (ext_nth F).
  - intros o Vo. apply abs_same. intros l U. apply (ext_nth F); [exact X|]. now apply Vo.
Qed.

(* ---- values: a call answers, and leaves the object with, what the value-level model says ---- *)
Lemma p_call (F : Fld) h o c r h' o' :
  valid F h o -> call_args F h c -> on_device F h (odev o) c ->
  run_call F c (h, o) = (r, (h', o')) ->
  (r, abs F h' o') = pure_call F h c (abs F h o).
Proof.
  intros V A D E.
  assert (Ok0 : ok F (fun _ => True) 0 (odev o) h o) by (apply ok_valid; auto; lia).
  destruct (call_ok F _ 0 (odev o) (fun _ _ => Logic.I) h o c Ok0 A D) as (_ & _ & S & H). rewrite E in *. cbn [fst snd] in *.
  destruct (pure_call F h c (abs F h o)) as [r' s]. cbn [fst snd] in *. subst s.
  destruct r, r'; try contradiction; congruence.
Qed.
Lemma p_call_device (F : Fld) h o a x :
  valid F h o -> devof F h (anyl x) <> odev o ->
  exists o', run_call F (CSetPadded F a (HP x)) (h, o) = (Err ValueError, (h, o')) /\
    abs F h o' = snd (has F Points (abs F h o)).
Proof.
  intros V D.
  assert (Ok0 : ok F (fun _ => True) 0 (odev o) h o) by (apply ok_valid; auto; lia).
  destruct (hset_padded_device F _ 0 (odev o) h o a x Ok0 D) as (o' & E & _ & S).
  exists o'. cbn [run_call]. unfold mbind. rewrite E. auto.
Qed.

(* ---- methods that return a new object ---- *)
Lemma owning_copies F m : owning F m -> copies F m = true.
Proof. destruct m; cbn; easy. Qed.

(* self only has its flags filled *)
Section KEEP.
Variable F : Fld.
Notation MO := (M (heap F * obj)).
Definition keepsobj {A} (m : MO A) : Prop := forall h o, snd (snd (m (h, o))) = o.
Lemma ko_bind {A B} (m : MO A) (k : A -> MO B) : keepsobj m -> (forall a, keepsobj (k a)) -> keepsobj (mbind m k).
Proof.
  intros Hm Hk h o. unfold mbind. specialize (Hm h o). destruct (m (h, o)) as [[a|e] [h1 o1]]; cbn in *; [|exact Hm].
  subst o1. apply Hk.
Qed.
Lemma ko_ret {A} (a : A) : keepsobj (ret a). Proof. now intros h o. Qed.
Lemma ko_raise {A} e : keepsobj (@raise (heap F * obj) A e). Proof. now intros h o. Qed.
Lemma ko_onh {A} (m : M (heap F) A) : keepsobj (onh F m).
Proof. intros h o. unfold onh. cbn. now destruct (m h). Qed.
Lemma ko_geto : keepsobj (geto F). Proof. now intros h o. Qed.

Definition flagsonly {A} (m : MO A) : Prop := forall h o, exists f, snd (snd (m (h, o))) = owith_flg f o.
Lemma fo_keep {A} (m : MO A) : keepsobj m -> flagsonly m.
Proof. intros H h o. exists (oflg o). rewrite H. now destruct o. Qed.
Lemma fo_bind {A B} (m : MO A) (k : A -> MO B) : flagsonly m -> (forall a, flagsonly (k a)) -> flagsonly (mbind m k).
Proof.
  intros Hm Hk h o. unfold mbind. specialize (Hm h o). destruct (m (h, o)) as [[a|e] [h1 o1]]; cbn in *; [|exact Hm].
  destruct Hm as [f ->]. destruct (Hk a h1 (owith_flg f o)) as [f2 E]. exists f2. rewrite E. now destruct o.
Qed.
Lemma fo_has a : flagsonly (hhas F a).
Proof.
  intros h o. unfold hhas, mbind, geto, modo, ret. cbn. destruct (qget a (oflg o)); cbn.
  - exists (oflg o). now destruct o.
  - eexists. reflexivity.
Qed.
Lemma fo_clone : flagsonly (hclone F).
Proof.
  unfold hclone. apply fo_bind; [apply fo_has|]. intros b.
  apply fo_bind; [apply fo_keep, ko_geto|]. intros s.
  destruct (negb b); [apply fo_keep, ko_onh|].
  apply fo_bind; [|intros x; apply fo_keep, ko_onh].
  destruct (qp (olst s)); [apply fo_keep, ko_onh|]. destruct (qp (opad s)); [apply fo_keep, ko_onh|apply fo_keep, ko_raise].
Qed.
Lemma fo_oop op : flagsonly (hout_of_place F op).
Proof.
  unfold hout_of_place. apply fo_bind; [apply fo_clone|]. intros x h o. cbn [fst snd].
  destruct (op (h, x)) as [[u|e] [h1 x1]]; exists (oflg o); now destruct o.
Qed.
Lemma fo_catch {A} (m : MO A) : flagsonly m -> flagsonly (hcatch_type F m).
Proof.
  intros H h o. specialize (H h o). unfold hcatch_type. destruct (m (h, o)) as [[a|e] w]; [exact H|].
  destruct e; exact H.
Qed.
Lemma fo_some (m : MO obj) : flagsonly m -> flagsonly (do o <- m; ret (Some o)).
Proof. intros H. apply fo_bind; [exact H|]. intros a. apply fo_keep, ko_ret. Qed.
Lemma fo_make cur m : owning F m -> flagsonly (run_make F cur m).
Proof.
  destruct m; cbn; try easy; intros _; apply fo_some.
  - apply fo_clone.
  - apply fo_catch, fo_oop.
  - apply fo_catch, fo_oop.
  - apply fo_catch, fo_oop.
  - unfold htruediv. destruct o; [apply fo_keep, ko_raise|]. apply fo_catch, fo_oop.
  - unfold hmatmul. destruct o as [|sh el]; [apply fo_keep, ko_raise|].
    destruct (mat_shape_ok 3 sh); [apply fo_oop|]. destruct (mat_shape_ok 4 sh); [apply fo_oop|apply fo_keep, ko_raise].
  - apply fo_oop.
  - apply fo_oop.
  - apply fo_oop.
Qed.
Lemma uses_flg f o l : uses (owith_flg f o) l <-> uses o l.
Proof. now destruct o. Qed.
End KEEP.

(* the result is made of storages that did not exist before, and has the value the model says *)
Lemma p_make (F : Fld) cur m h o r h' o' :
  owning F m -> valid F h o -> run_make F cur m (h, o) = (r, (h', o')) ->
  abs F h' o' = snd (pure_make F m (abs F h o)) /\
  (forall l, uses o' l <-> uses o l) /\
  match r, fst (pure_make F m (abs F h o)) with
  | Ok (Some c), Ok s => abs F h' c = s /\ odev c = odev o /\ valid F h' c /\ forall l, uses c l -> length h <= l
  | Err e, Err e' => e = e'
  | _, _ => False
  end.
Proof.
  intros Ow V E.
  assert (Ok0 : ok F (fun _ => True) 0 (odev o) h o) by (apply ok_valid; auto; lia).
  destruct (make_copies F _ 0 (odev o) cur (length h) h o m Ok0 (le_n _) (owning_copies _ _ Ow)) as (_ & _ & S & H).
  rewrite E in *. cbn [fst snd] in *. split; [exact S|]. split.
  - intros l. destruct (fo_make F cur m Ow h o) as [f Ef]. rewrite E in Ef. cbn in Ef. subst o'. apply uses_flg.
  - destruct r as [r|e], (fst (pure_make F m (abs F h o))) as [s|e']; try contradiction; [|exact H].
    destruct H as (c & -> & [Oc Ac]). split; [exact Ac|]. split; [eapply ok_dev; exact Oc|].
    split; [eapply valid_ok; exact Oc|]. intros l U. eapply own_ok in U; [|exact Oc]. exact U.
Qed.

Lemma make_push (F : Fld) cur i m w w1 c :
  step F cur (OMake F i m) w = w1 -> nth_error (wobjs F w1) (length (wobjs F w)) = Some c ->
  exists o h' o', nth_error (wobjs F w) i = Some o /\ run_make F cur m (wheap F w, o) = (Ok (Some c), (h', o')) /\
    w1 = mkW F h' (upd i o' (wobjs F w) ++ [c]).
Proof.
  intros <-. cbn [step]. unfold at_. destruct (nth_error (wobjs F w) i) as [o|] eqn:Ei.
  2:{ cbn. intros E. assert (L : length (wobjs F w) < length (wobjs F w)) by (apply nth_error_Some; now rewrite E). lia. }
  destruct (run_make F cur m (wheap F w, o)) as [r [h' o']] eqn:Er.
  destruct r as [[c'|]|e]; cbn [push wobjs wheap].
  - intros E. rewrite nth_error_app2 in E by (rewrite upd_length; lia). rewrite upd_length, Nat.sub_diag in E.
    injection E as ->. exists o, h', o'. auto.
  - intros E. assert (L : length (wobjs F w) < length (upd i o' (wobjs F w))) by (apply nth_error_Some; now rewrite E).
    rewrite upd_length in L. lia.
  - intros E. assert (L : length (wobjs F w) < length (upd i o' (wobjs F w))) by (apply nth_error_Some; now rewrite E).
    rewrite upd_length in L. lia.
Qed.

Lemma make_world (F : Fld) cur i m w w1 c :
  owning F m -> all_valid F w -> step F cur (OMake F i m) w = w1 ->
  nth_error (wobjs F w1) (length (wobjs F w)) = Some c ->
  all_valid F w1 /\ length (wobjs F w1) = S (length (wobjs F w)) /\
  length (wheap F w) <= length (wheap F w1) /\
  (forall l, uses c l -> length (wheap F w) <= l) /\
  (forall k o, k < length (wobjs F w) -> nth_error (wobjs F w1) k = Some o -> forall l, uses o l -> l < length (wheap F w)).
Proof.
  intros Ow V Es Ec. pose proof Es as Es'. 
  destruct (make_push F cur i m w w1 c Es Ec) as (o & h' & o' & Ei & Er & ->).
  destruct (p_make F cur m (wheap F w) o _ h' o' Ow (V i o Ei) Er) as (_ & Us & Hc).
  destruct (fst (pure_make F m (abs F (wheap F w) o))) as [s|]; [|contradiction]. destruct Hc as (_ & _ & Vc & Fc).
  assert (Vw : all_valid F (mkW F h' (upd i o' (wobjs F w) ++ [c]))).
  { rewrite <- Es'. change (step F cur (OMake F i m) w) with (steps F cur [OMake F i m] w).
    apply p_valid; [exact V|]. cbn. auto. }
  split; [exact Vw|]. cbn [wobjs wheap]. split; [rewrite app_length, upd_length; cbn; lia|]. split.
  { assert (Ok0 : ok F (fun _ => True) 0 (odev o) (wheap F w) o) by (apply ok_valid; auto; [lia|now apply (V i)]).
    destruct (make_copies F _ 0 (odev o) cur 0 (wheap F w) o m Ok0 (Nat.le_0_l _) (owning_copies _ _ Ow)) as (X & _).
    rewrite Er in X. cbn in X. now apply (ext_len F). }
  split; [exact Fc|].
  intros k q Lk Ek l U. rewrite nth_error_app1 in Ek by (now rewrite upd_length).
  destruct (Nat.eq_dec k i) as [->|N].
  - rewrite (upd_same i o' o _ Ei) in Ek. injection Ek as <-. apply Us in U. now apply (V i o Ei).
  - rewrite upd_other in Ek by exact N. now apply (V k q Ek).
Qed.

(* nothing done with the copy shows in the objects that existed before *)
Lemma p_copy_forward (F : Fld) cur i m w w1 c ops :
  owning F m -> all_valid F w -> step F cur (OMake F i m) w = w1 ->
  nth_error (wobjs F w1) (length (wobjs F w)) = Some c ->
  all_allowed F cur (fun k => length (wobjs F w) <= k) (fun l => length (wheap F w) <= l) ops w1 ->
  forall k o, k < length (wobjs F w) -> nth_error (wobjs F w1) k = Some o ->
  nth_error (wobjs F (steps F cur ops w1)) k = Some o /\
  abs F (wheap F (steps F cur ops w1)) o = abs F (wheap F w1) o.
Proof.
  intros Ow V Es Ec A k o Lk Ek.
  destruct (make_world F cur i m w w1 c Ow V Es Ec) as (V1 & L1 & Lh & Fc & Fo).
  apply (p_private F cur (fun k => length (wobjs F w) <= k) (fun l => length (wheap F w) <= l) w1 ops); auto.
  - intros k' H. lia.
  - intros l H. lia.
  - intros k' q Hk E. assert (k' = length (wobjs F w)) as ->.
    { assert (k' < length (wobjs F w1)) by (apply nth_error_Some; now rewrite E). lia. }
    split; [now apply (V1 _ _ E)|]. rewrite Ec in E. injection E as <-. exact Fc.
  - lia.
  - intros l U. specialize (Fo k o Lk Ek l U). lia.
Qed.
(* nothing done with the other objects shows in the copy *)
Lemma p_copy_backward (F : Fld) cur i m w w1 c ops :
  owning F m -> all_valid F w -> step F cur (OMake F i m) w = w1 ->
  nth_error (wobjs F w1) (length (wobjs F w)) = Some c ->
  all_allowed F cur (fun k => k <> length (wobjs F w)) (fun l => ~ uses c l) ops w1 ->
  nth_error (wobjs F (steps F cur ops w1)) (length (wobjs F w)) = Some c /\
  abs F (wheap F (steps F cur ops w1)) c = abs F (wheap F w1) c.
Proof.
  intros Ow V Es Ec A.
  destruct (make_world F cur i m w w1 c Ow V Es Ec) as (V1 & L1 & Lh & Fc & Fo).
  apply (p_private F cur (fun k => k <> length (wobjs F w)) (fun l => ~ uses c l) w1 ops); auto.
  - intros k' H. lia.
  - intros l H U. destruct (V1 _ _ Ec l U). lia.
  - intros k' q Hk E. split; [now apply (V1 _ _ E)|]. intros l U Uc.
    assert (k' < length (wobjs F w1)) by (apply nth_error_Some; now rewrite E).
    specialize (Fo k' q ltac:(lia) E l U). specialize (Fc l Uc). lia.
Qed.
