(* Property C85: which Pointclouds objects share memory.
   Vocabulary: StoreModel.v (heap, view2, view3, obj, abs: the value of an object in a heap), StoreSpec.v (uses, valid, call, make, run_call, pure_call, op, step, steps, allowed, owning, half_shared, keeps_list), StoreCases.v (programs). *)
From Coq Require Import List Arith ZArith Bool Lia.
From Verif Require Import Res Fld StructUtilsModel PointcloudsModel PointcloudsSpec PointcloudsHist StoreModel StoreSpec
  StoreProofs StorePropProofs StorePropProofs2 StorePropProofs3 StoreCases.
Import ListNotations.
Local Open Scope nat_scope.

(* ------------------------------------------------------------------ C85 *)
(* programs: every object is made of existing tensors on its device *)
Theorem C85_valid : forall (F : Fld) cur w0 ops,
  all_valid F w0 -> all_allowed F cur (fun _ => True) (fun _ => True) ops w0 ->
  all_valid F (steps F cur ops w0).
Proof. exact p_valid. Qed.
Print Assumptions C85_valid.

(* part of a program working with the objects O and the storages P cannot change an object that is neither in O nor made of storages in P *)
Theorem C85_private : forall (F : Fld) cur (O P : nat -> Prop) w0 ops,
  (forall k, length (wobjs F w0) <= k -> O k) ->
  (forall l, length (wheap F w0) <= l -> P l) ->
  (forall k o, O k -> nth_error (wobjs F w0) k = Some o ->
     valid F (wheap F w0) o /\ forall l, uses o l -> P l) ->
  all_allowed F cur O P ops w0 ->
  forall k o, ~ O k -> nth_error (wobjs F w0) k = Some o -> (forall l, uses o l -> ~ P l) ->
  nth_error (wobjs F (steps F cur ops w0)) k = Some o /\
  abs F (wheap F (steps F cur ops w0)) o = abs F (wheap F w0) o.
Proof. exact p_private. Qed.
Print Assumptions C85_private.

(* the library itself never writes into a tensor: a program without in-place writes of its own leaves every tensor as it was *)
Theorem C85_nowrite : forall (F : Fld) cur w0 ops,
  all_valid F w0 -> all_allowed F cur (fun _ => True) (fun _ => True) ops w0 ->
  (forall l c, ~ In (OWrite F l c) ops) ->
  (forall l, l < length (wheap F w0) -> nth_error (wheap F (steps F cur ops w0)) l = nth_error (wheap F w0) l) /\
  (forall o, valid F (wheap F w0) o -> abs F (wheap F (steps F cur ops w0)) o = abs F (wheap F w0) o).
Proof. exact p_nowrite. Qed.
Print Assumptions C85_nowrite.

(* reads, setters and in-place operations: answer and new value are those of the value-level model *)
Theorem C85_call : forall (F : Fld) h o c r h' o',
  valid F h o -> call_args F h c -> on_device F h (odev o) c ->
  run_call F c (h, o) = (r, (h', o')) ->
  (r, abs F h' o') = pure_call F h c (abs F h o).
Proof. exact p_call. Qed.
Print Assumptions C85_call.

(* a padded setter given a tensor on another device raises *)
Theorem C85_call_device : forall (F : Fld) h o a x,
  valid F h o -> devof F h (anyl x) <> odev o ->
  exists o', run_call F (CSetPadded F a (HP x)) (h, o) = (Err ValueError, (h, o')) /\
    abs F h o' = snd (has F Points (abs F h o)).
Proof. exact p_call_device. Qed.
Print Assumptions C85_call_device.

(* a setter never keeps the tensor it is given *)
Theorem C85_call_uses : forall (F : Fld) h o c r h' o',
  valid F h o -> call_args F h c -> run_call F c (h, o) = (r, (h', o')) ->
  (forall l, l < length h -> nth_error h' l = nth_error h l) /\
  valid F h' o' /\ odev o' = odev o /\
  forall l, uses o' l -> uses o l \/ length h <= l.
Proof. exact p_call_uses. Qed.
Print Assumptions C85_call_uses.

(* clone, +, -, *, /, @, rotate, transform, pinhole_projection: a new object made of new storages, with the right value *)
Theorem C85_make : forall (F : Fld) cur m h o r h' o',
  owning F m -> valid F h o -> run_make F cur m (h, o) = (r, (h', o')) ->
  abs F h' o' = snd (pure_make F m (abs F h o)) /\
  (forall l, uses o' l <-> uses o l) /\
  match r, fst (pure_make F m (abs F h o)) with
  | Ok (Some c), Ok s => abs F h' c = s /\ odev c = odev o /\ valid F h' c /\ forall l, uses c l -> length h <= l
  | Err e, Err e' => e = e'
  | _, _ => False
  end.
Proof. exact p_make. Qed.
Print Assumptions C85_make.

(* whatever is done afterwards with the new object and its tensors does not show in the objects that were there *)
Theorem C85_copy_forward : forall (F : Fld) cur i m w w1 c ops,
  owning F m -> all_valid F w -> step F cur (OMake F i m) w = w1 ->
  nth_error (wobjs F w1) (length (wobjs F w)) = Some c ->
  all_allowed F cur (fun k => length (wobjs F w) <= k) (fun l => length (wheap F w) <= l) ops w1 ->
  forall k o, k < length (wobjs F w) -> nth_error (wobjs F w1) k = Some o ->
  nth_error (wobjs F (steps F cur ops w1)) k = Some o /\
  abs F (wheap F (steps F cur ops w1)) o = abs F (wheap F w1) o.
Proof. exact p_copy_forward. Qed.
Print Assumptions C85_copy_forward.

(* whatever is done afterwards with the other objects does not show in the new one *)
Theorem C85_copy_backward : forall (F : Fld) cur i m w w1 c ops,
  owning F m -> all_valid F w -> step F cur (OMake F i m) w = w1 ->
  nth_error (wobjs F w1) (length (wobjs F w)) = Some c ->
  all_allowed F cur (fun k => k <> length (wobjs F w)) (fun l => ~ uses c l) ops w1 ->
  nth_error (wobjs F (steps F cur ops w1)) (length (wobjs F w)) = Some c /\
  abs F (wheap F (steps F cur ops w1)) c = abs F (wheap F w1) c.
Proof. exact p_copy_backward. Qed.
Print Assumptions C85_copy_backward.

(* append_points takes new storages only; the argument keeps its own *)
Theorem C85_append : forall (F : Fld) w i j oi oj r w',
  i <> j -> nth_error (wobjs F w) i = Some oi -> nth_error (wobjs F w) j = Some oj ->
  valid F (wheap F w) oi -> valid F (wheap F w) oj -> odev oi = odev oj ->
  happend_points F i j w = (r, w') ->
  exists oi' oj',
    wobjs F w' = upd i oi' (upd j oj' (wobjs F w)) /\
    (forall l, l < length (wheap F w) -> nth_error (wheap F w') l = nth_error (wheap F w) l) /\
    (r, (abs F (wheap F w') oi', abs F (wheap F w') oj')) =
      append_points F (abs F (wheap F w) oi, abs F (wheap F w) oj) /\
    valid F (wheap F w') oi' /\ valid F (wheap F w') oj' /\
    (forall l, uses oi' l -> uses oi l \/ length (wheap F w) <= l) /\
    (forall l, uses oj' l -> uses oj l).
Proof. exact p_append. Qed.
Print Assumptions C85_append.

Theorem C85_append_device : forall (F : Fld) w i j oi oj,
  nth_error (wobjs F w) i = Some oi -> nth_error (wobjs F w) j = Some oj -> odev oj <> odev oi ->
  happend_points F i j w = (Err ValueError, w).
Proof. exact p_append_device. Qed.
Print Assumptions C85_append_device.

(* an object may be appended to itself: as if to an object of the same value *)
Theorem C85_append_self : forall (F : Fld) w i o r w',
  nth_error (wobjs F w) i = Some o -> valid F (wheap F w) o ->
  fst (has F Points (abs F (wheap F w) o)) = Ok true ->
  happend_points F i i w = (r, w') ->
  exists o', wobjs F w' = upd i o' (wobjs F w) /\
    (forall l, l < length (wheap F w) -> nth_error (wheap F w') l = nth_error (wheap F w) l) /\
    (r, abs F (wheap F w') o') =
      (let '(r, (s, _)) := append_points F (abs F (wheap F w) o, abs F (wheap F w) o) in (r, s)) /\
    valid F (wheap F w') o' /\ (forall l, uses o' l -> uses o l \/ length (wheap F w) <= l).
Proof. exact p_append_self. Qed.
Print Assumptions C85_append_self.

Theorem C85_append_self_shows : forall (F : Fld) w i o a,
  nth_error (wobjs F w) i = Some o -> valid F (wheap F w) o -> Hist F (abs F (wheap F w) o) a -> qp a <> None ->
  exists w' o', happend_points F i i w = (Ok tt, w') /\ nth_error (wobjs F w') i = Some o' /\
    Hist F (abs F (wheap F w') o') (append_spec F a a) /\ Shows F (abs F (wheap F w') o') (append_spec F a a).
Proof. exact p_append_self_shows. Qed.
Print Assumptions C85_append_self_shows.

(* to(device): self when device is the torch.device of self and copy is not asked for *)
Theorem C85_to_self : forall (F : Fld) cur h o a,
  same_dev (odev o) a = true ->
  run_make F cur (MTo F a false) (h, o) = (Ok None, (h, o)).
Proof. exact p_to_self. Qed.
Print Assumptions C85_to_self.

Theorem C85_to_copy : forall (F : Fld) cur h o a,
  same_dev (odev o) a = true ->
  run_make F cur (MTo F a true) (h, o) = run_make F cur (MClone F) (h, o).
Proof. exact p_to_copy. Qed.
Print Assumptions C85_to_copy.

(* another device: a new object there, of new storages *)
Theorem C85_to_move : forall (F : Fld) cur h o a copy r h' o',
  valid F h o -> resolve cur (spec_of a) <> odev o ->
  run_make F cur (MTo F a copy) (h, o) = (r, (h', o')) ->
  match r, fst (detach F (abs F h o)) with
  | Ok (Some c), Ok s => abs F h' c = s /\ odev c = resolve cur (spec_of a) /\ valid F h' c /\ forall l, uses c l -> length h <= l
  | Err e, Err e' => e = e'
  | _, _ => False
  end.
Proof. exact p_to_move. Qed.
Print Assumptions C85_to_move.

(* the device of self, given as a string or without index: the result shares the padded tensors, the mask and the counts with self, also when copy=True *)
Theorem C85_to_alias : forall (F : Fld) cur h o a copy c h' o',
  valid F h o -> same_dev (odev o) a = false -> resolve cur (spec_of a) = odev o ->
  run_make F cur (MTo F a copy) (h, o) = (Ok (Some c), (h', o')) -> half_shared F h o c.
Proof. exact p_to_alias. Qed.
Print Assumptions C85_to_alias.

(* to("cpu", copy=True) is not a copy: writing into p.points_padded changes the padded view of the result, and not its list *)
Theorem C85_to_refuted : forall (F : Fld) cur copy,
  let w := steps F cur (one_cloud F (MTo F (DStr SCpu) copy)) (nothing F) in
  let w' := step F cur (zero_padded F) w in
  sees F w' 1 (CList F Points) = sees F w 1 (CList F Points) /\
  sees F w' 1 (CPadded F Points) <> sees F w 1 (CPadded F Points).
Proof. exact p_to_refuted. Qed.
Print Assumptions C85_to_refuted.

(* detach(): the padded tensors, mask and counts of self, the lists of a clone *)
Theorem C85_detach : forall (F : Fld) cur h o c h' o',
  valid F h o -> run_make F cur (MDetach F) (h, o) = (Ok (Some c), (h', o')) -> half_shared F h o c.
Proof. exact p_detach. Qed.
Print Assumptions C85_detach.

Theorem C85_detach_refuted : forall (F : Fld) cur,
  let w := steps F cur (one_cloud F (MDetach F)) (nothing F) in
  let w' := step F cur (zero_padded F) w in
  sees F w' 1 (CList F Points) = sees F w 1 (CList F Points) /\
  sees F w' 1 (CPadded F Points) <> sees F w 1 (CPadded F Points).
Proof. exact p_detach_refuted. Qed.
Print Assumptions C85_detach_refuted.

(* values of detach, to, [] *)
Theorem C85_view_value : forall (F : Fld) cur m h o r h' o',
  match m with MDetach _ | MItem _ _ => True | MTo _ a _ => same_dev (odev o) a = false | _ => False end ->
  valid F h o -> run_make F cur m (h, o) = (r, (h', o')) ->
  abs F h' o' = snd (pure_make F m (abs F h o)) /\
  match r, fst (pure_make F m (abs F h o)) with
  | Ok (Some c), Ok s => abs F h' c = s
  | Err e, Err e' => e = e'
  | _, _ => False
  end.
Proof. exact p_view_value. Qed.
Print Assumptions C85_view_value.

(* p[ix]: the tensors of p, not copies *)
Theorem C85_getitem : forall (F : Fld) cur ix h o c h' o',
  valid F h o -> run_make F cur (MItem F ix) (h, o) = (Ok (Some c), (h', o')) ->
  (forall a vs v, qget a (olst c) = Some vs -> In v vs ->
     exists vs', qget a (olst o') = Some vs' /\ In v vs' /\ uses o (v2l v)) /\
  (forall a, qget a (opad c) = None) /\ omask c = None /\ onum c = length h.
Proof. exact p_getitem. Qed.
Print Assumptions C85_getitem.

(* Pointclouds(...): the tensors given, not copies *)
Theorem C85_ctor_keeps : forall (F : Fld) pa na ca fa d h o h',
  hctor F pa na ca fa d h = (Ok o, h') ->
  (forall a l, In l (arg_stores (arg_of pa na ca fa a)) -> devof F h l = odev o) ->
  (forall a, keeps_list (arg_of pa na ca fa a) (qget a (olst o))) /\
  (forall a, keeps_tensor (arg_of pa na ca fa a) (qget a (opad o))) /\
  omask o = None /\ onum o = length h /\ firstn (length h) h' = h.
Proof. exact p_ctor_keeps. Qed.
Print Assumptions C85_ctor_keeps.

(* one cloud, its clone; then the clone is overwritten, appended to itself and offset *)
Definition later (F : Fld) : list (op F) :=
  [OWrite F 4 (CF F Cpu [f0; f0; f0]); OWrite F 6 (CF F Cpu [f0; f0; f0]); OAppend F 1 1; OCall F 1 (CPadded F Points)].
Example C85_witness : forall (F : Fld) cur,
  let w := steps F cur (firstn 3 (one_cloud F (MClone F))) (nothing F) in
  let w1 := step F cur (OMake F 0 (MClone F)) w in
  all_valid F w /\ (exists c, nth_error (wobjs F w1) (length (wobjs F w)) = Some c) /\
  all_allowed F cur (fun k => length (wobjs F w) <= k) (fun l => length (wheap F w) <= l) (later F) w1 /\
  sees F (steps F cur (later F) w1) 1 (CList F Points) <> sees F w1 1 (CList F Points) /\
  sees F (steps F cur (later F) w1) 0 (CList F Points) = sees F w1 0 (CList F Points).
Proof.
  intros F cur w w1. split.
  { apply p_valid; [intros [] o E; discriminate|]. cbv -[f0 f1 car lt]. repeat split; auto; match goal with H : _ \/ False |- _ => destruct H as [<-|[]] end; lia. }
  split; [eexists; subst w w1; cbv -[f0 f1 car]; reflexivity|]. split.
  { subst w w1. cbv -[f0 f1 car]. repeat split; lia. }
  pose proof (one_zero F) as N. split; subst w w1; cbv -[f0 f1 car].
  { intros E. injection E as E. apply N. congruence. }
  reflexivity.
Qed.
