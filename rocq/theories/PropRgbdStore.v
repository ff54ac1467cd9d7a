(* Property C86: which RGBDImages objects share memory.
   Vocabulary: RgbdStoreModel.v (iheap, ref, iobj, iabs: the value of an object in a heap), RgbdStoreSpec.v (iuses, ivalid, icall, imake, run_icall, pure_icall, run_imake, pure_imake, iop, istep, isteps, iallowed, icopying, returns_self), RgbdStoreCases.v (programs).
   [ctg]: whether a permuted tensor happens to be contiguous; [cur]: the current cuda device. *)
From Coq Require Import Reals List Arith ZArith Bool Lia.
From Verif Require Import Res TensorModel RgbdModel RgbdStoreModel RgbdStoreSpec RgbdStorePropProofs RgbdStorePropProofs2
  RgbdStorePropProofs3 RgbdStoreCases.
From Verif Require StoreModel.
Import ListNotations.
Local Open Scope nat_scope.

(* ------------------------------------------------------------------ C86 *)
(* programs: every object is made of existing tensors on its device *)
Theorem C86_valid : forall ctg cur w0 ops,
  iall_valid w0 -> iall_allowed ctg cur (fun _ => True) (fun _ => True) ops w0 ->
  iall_valid (isteps ctg cur ops w0).
Proof. exact p_ivalid. Qed.
Print Assumptions C86_valid.

(* part of a program working with the objects O and the storages P cannot change an object that is neither in O nor made of storages in P *)
Theorem C86_private : forall ctg cur (O P : nat -> Prop) w0 ops,
  (forall k, length (iwo w0) <= k -> O k) ->
  (forall l, length (iwh w0) <= l -> P l) ->
  (forall k o, O k -> nth_error (iwo w0) k = Some o ->
     ivalid (iwh w0) o /\ forall l, iuses o l -> P l) ->
  iall_allowed ctg cur O P ops w0 ->
  forall k o, ~ O k -> nth_error (iwo w0) k = Some o -> (forall l, iuses o l -> ~ P l) ->
  nth_error (iwo (isteps ctg cur ops w0)) k = Some o /\
  iabs (iwh (isteps ctg cur ops w0)) o = iabs (iwh w0) o.
Proof. exact p_iprivate. Qed.
Print Assumptions C86_private.

(* the library itself never writes into a tensor that exists: a program without in-place writes of its own leaves every tensor as it was *)
Theorem C86_nowrite : forall ctg cur w0 ops,
  iall_valid w0 -> iall_allowed ctg cur (fun _ => True) (fun _ => True) ops w0 ->
  (forall l c, ~ In (PWrite l c) ops) ->
  (forall l, l < length (iwh w0) -> nth_error (iwh (isteps ctg cur ops w0)) l = nth_error (iwh w0) l) /\
  (forall o, ivalid (iwh w0) o -> iabs (iwh (isteps ctg cur ops w0)) o = iabs (iwh w0) o).
Proof. exact p_inowrite. Qed.
Print Assumptions C86_nowrite.

(* reads, setters and in-place conversions: answer and new value are those of the value-level model; only storages of the object, new ones, and the tensor given *)
Theorem C86_call : forall ctg h o c r h' o',
  ivalid h o -> (forall l, In l (arg_locs (set_arg c)) -> l < length h /\ idev h l = o_dev o) ->
  run_icall ctg c (h, o) = (r, (h', o')) ->
  (r, iabs h' o') = pure_icall h c (iabs h o) /\
  (forall l, l < length h -> nth_error h' l = nth_error h l) /\
  ivalid h' o' /\ o_dev o' = o_dev o /\
  forall l, iuses o' l -> iuses o l \/ length h <= l \/ In l (arg_locs (set_arg c)).
Proof. exact p_icall. Qed.
Print Assumptions C86_call.

(* a setter keeps the tensor it is given, not a copy *)
Theorem C86_setter_keeps : forall ctg h o c k r r1 h' o',
  setter_slot c = Some (k, ATen r) -> run_icall ctg c (h, o) = (Ok r1, (h', o')) ->
  h' = h /\ o_t o' k = Some r.
Proof. exact p_isetter_keeps. Qed.
Print Assumptions C86_setter_keeps.

(* clone, to another device, to_channels_last/first: a new object made of new storages, with the right value and device *)
Theorem C86_make : forall ctg cur m h o r h' o',
  icopying cur (o_dev o) m -> ivalid h o -> run_imake ctg cur m (h, o) = (r, (h', o')) ->
  o' = o /\ (forall l, l < length h -> nth_error h' l = nth_error h l) /\
  match r, pure_imake m (iabs h o) with
  | Ok None, Ok Self => True
  | Ok (Some c), Ok (New s) => iabs h' c = s /\ o_dev c = make_dev cur (o_dev o) m /\ ivalid h' c /\
                               forall l, iuses c l -> length h <= l
  | Err e, Err e' => e = e'
  | _, _ => False
  end.
Proof. exact p_imake. Qed.
Print Assumptions C86_make.

(* value and device of every method that returns another object *)
Theorem C86_make_value : forall ctg cur m h o r h' o',
  returns_self cur (o_dev o) m = false -> ivalid h o -> run_imake ctg cur m (h, o) = (r, (h', o')) ->
  o' = o /\ (forall l, l < length h -> nth_error h' l = nth_error h l) /\
  match r, pure_imake m (iabs h o) with
  | Ok None, Ok Self => True
  | Ok (Some c), Ok (New s) => iabs h' c = s /\ o_dev c = make_dev cur (o_dev o) m /\ ivalid h' c /\
                               forall l, iuses c l -> iuses o l \/ length h <= l
  | Err e, Err e' => e = e'
  | _, _ => False
  end.
Proof. exact p_imake_value. Qed.
Print Assumptions C86_make_value.

(* whatever is done afterwards with the copy and its tensors does not show in the objects that were there *)
Theorem C86_copy_forward : forall ctg cur i m w w1 c ops,
  (forall o, nth_error (iwo w) i = Some o -> icopying cur (o_dev o) m) -> iall_valid w ->
  istep ctg cur (PMake i m) w = w1 ->
  nth_error (iwo w1) (length (iwo w)) = Some c ->
  iall_allowed ctg cur (fun k => length (iwo w) <= k) (fun l => length (iwh w) <= l) ops w1 ->
  forall k o, k < length (iwo w) -> nth_error (iwo w1) k = Some o ->
  nth_error (iwo (isteps ctg cur ops w1)) k = Some o /\
  iabs (iwh (isteps ctg cur ops w1)) o = iabs (iwh w1) o.
Proof. exact p_icopy_forward. Qed.
Print Assumptions C86_copy_forward.

(* whatever is done afterwards with the other objects does not show in the copy *)
Theorem C86_copy_backward : forall ctg cur i m w w1 c ops,
  (forall o, nth_error (iwo w) i = Some o -> icopying cur (o_dev o) m) -> iall_valid w ->
  istep ctg cur (PMake i m) w = w1 ->
  nth_error (iwo w1) (length (iwo w)) = Some c ->
  iall_allowed ctg cur (fun k => k <> length (iwo w)) (fun l => ~ iuses c l) ops w1 ->
  nth_error (iwo (isteps ctg cur ops w1)) (length (iwo w)) = Some c /\
  iabs (iwh (isteps ctg cur ops w1)) c = iabs (iwh w1) c.
Proof. exact p_icopy_backward. Qed.
Print Assumptions C86_copy_backward.

(* to(device), cpu(), cuda(): self when the object is there, however the device is written *)
Theorem C86_to_self : forall ctg cur m h o,
  returns_self cur (o_dev o) m = true -> run_imake ctg cur m (h, o) = (Ok None, (h, o)).
Proof. exact p_ito_self. Qed.
Print Assumptions C86_to_self.

(* to(device, copy=True) with the device of self: not a copy, it has the very tensors of self *)
Theorem C86_to_same : forall ctg cur a h o c h' o',
  ivalid h o -> resolve cur (spec_of a) = o_dev o ->
  run_imake ctg cur (JTo a true) (h, o) = (Ok (Some c), (h', o')) ->
  forall k, o_t c k = o_t o k.
Proof. exact p_ito_same. Qed.
Print Assumptions C86_to_same.

(* detach(): the very tensors of self *)
Theorem C86_detach : forall ctg cur h o c h' o',
  ivalid h o -> run_imake ctg cur JDetach (h, o) = (Ok (Some c), (h', o')) ->
  forall k, o_t c k = o_t o k.
Proof. exact p_idetach. Qed.
Print Assumptions C86_detach.

(* frames[ix]: slices, which show whatever the tensors of frames hold later *)
Theorem C86_getitem_live : forall ctg cur ix h o c h' o' h2 s,
  ivalid h o -> run_imake ctg cur (JItem ix) (h, o) = (Ok (Some c), (h', o')) ->
  rgbd_getitem ix (iabs h2 o) = Ok s ->
  forall k, field (iabs h2 c) k = field s k.
Proof. exact p_igetitem_live. Qed.
Print Assumptions C86_getitem_live.

Theorem C86_getitem_uses : forall ctg cur ix h o c h' o',
  ivalid h o -> run_imake ctg cur (JItem ix) (h, o) = (Ok (Some c), (h', o')) ->
  h' = h /\ o' = o /\ forall l, iuses c l <-> exists k r, o_t o k = Some r /\ rloc r = l.
Proof. exact p_igetitem_uses. Qed.
Print Assumptions C86_getitem_uses.

(* RGBDImages(...): the tensors given, not copies *)
Theorem C86_ctor_keeps : forall rgb depth intr poses cf pix device h o h',
  inew rgb depth intr poses cf pix device h = (Ok o, h') ->
  (forall k l, In l (arg_locs (ctor_arg rgb depth intr poses pix k)) -> idev h l = o_dev o) ->
  h' = h /\ (forall k, o_t o k = arg_ref (ctor_arg rgb depth intr poses pix k)) /\ o_mask o = None.
Proof. exact p_inew_keeps. Qed.
Print Assumptions C86_ctor_keeps.

(* tensors on different devices are rejected *)
Theorem C86_ctor_device : forall rgb depth intr poses cf pix device h k l k' l',
  In l (arg_locs (ctor_arg rgb depth intr poses pix k)) -> In l' (arg_locs (ctor_arg rgb depth intr poses pix k')) ->
  idev h l <> idev h l' ->
  inew rgb depth intr poses cf pix device h =
    (match rgbd_new (rdinp h rgb) (rdinp h depth) (rdinp h intr) (rdinp h poses) cf (rdinp h pix) with
     | Ok _ => Err ValueError | Err e => Err e end, h).
Proof. exact p_inew_device. Qed.
Print Assumptions C86_ctor_device.

(* a map that is there is answered as it is *)
Theorem C86_cached : forall ctg c k r h o,
  map_slot c = Some k -> o_t o k = Some r -> run_icall ctg c (h, o) = (Ok (vten (rread h r)), (h, o)).
Proof. exact p_icached. Qed.
Print Assumptions C86_cached.

(* a map that has been read is kept: a later in-place write into poses, depth or intrinsics (rather than an assignment) does not change the answer *)
Theorem C86_stale_refuted : forall ctg c k v h o h1 o1 l x,
  map_slot c = Some k -> ivalid h o -> o_t o k = None ->
  run_icall ctg c (h, o) = (Ok v, (h1, o1)) -> l < length h ->
  run_icall ctg c (ipoke l x h1, o1) = (Ok v, (ipoke l x h1, o1)).
Proof. exact p_istale. Qed.
Print Assumptions C86_stale_refuted.

(* frames.detach(), frames.to("cpu", copy=True), frames[0], frames[:, 1] follow frames.poses.zero_() *)
Theorem C86_follows : forall ctg cur m,
  In m [JDetach; JTo (StoreModel.DStr StoreModel.SCpu) true; JItem (RInt 0);
        JItem (RTuple [ESlice None None None; EInt 1])] ->
  let w := isteps ctg cur (two_frames ++ [PMake 0 m]) no_objects in
  let w' := istep ctg cur zero_poses w in
  entry (isees ctg w 1 IPoses) = 1%R /\ entry (isees ctg w' 1 IPoses) = 0%R.
Proof. exact p_follows. Qed.
Print Assumptions C86_follows.

(* frames.clone(), frames.to_channels_last(copy=True), frames.to("cuda") do not *)
Theorem C86_does_not_follow : forall ctg cur m,
  In m [JClone; JLast true; JTo (StoreModel.DStr (StoreModel.SCuda None)) false] ->
  let w := isteps ctg cur (two_frames ++ [PMake 0 m]) no_objects in
  let w' := istep ctg cur zero_poses w in
  entry (isees ctg w' 0 IPoses) = 0%R /\ entry (isees ctg w 1 IPoses) = 1%R /\ entry (isees ctg w' 1 IPoses) = 1%R.
Proof. exact p_does_not_follow. Qed.
Print Assumptions C86_does_not_follow.

(* two frames and a clone; then the clone is overwritten, given other poses, and sliced *)
Definition later : list iop :=
  [PWrite 7 (full [1; 2; 4; 4] 0); PTensor (full [1; 2; 4; 4] 0); PCall 1 (ISetPoses (whole 8));
   PMake 1 (JItem (RInt 0)); PWrite 8 (full [1; 2; 4; 4] 3)].
Example C86_witness : forall ctg cur,
  let w := isteps ctg cur two_frames no_objects in
  let w1 := istep ctg cur (PMake 0 JClone) w in
  let w2 := isteps ctg cur later w1 in
  iall_valid w /\ (exists c, nth_error (iwo w1) (length (iwo w)) = Some c) /\
  (forall o, nth_error (iwo w) 0 = Some o -> icopying cur (o_dev o) JClone) /\
  iall_allowed ctg cur (fun k => length (iwo w) <= k) (fun l => length (iwh w) <= l) later w1 /\
  entry (isees ctg w2 0 IPoses) = 1%R /\ entry (isees ctg w2 1 IPoses) = 3%R /\ entry (isees ctg w2 2 IPoses) = 3%R.
Proof.
  intros ctg cur w w1 w2.
  assert (L1 : length (iwo w) = 1) by reflexivity. assert (L2 : length (iwh w) = 4) by reflexivity.
  assert (L4 : length (iwo w1) = 2) by reflexivity. split.
  { clear. apply p_ivalid; [intros [] o E; discriminate|]. cbn -[lt]. repeat split; auto; repeat match goal with H : _ \/ _ |- _ => destruct H as [<-|H] end; try lia; try contradiction. }
  rewrite L1, L2. split.
  { destruct (nth_error (iwo w1) 1) as [c|] eqn:E; [exists c; reflexivity|]. apply nth_error_None in E. clearbody w1. lia. }
  split; [intros o _; exact Logic.I|]. split.
  { clear L1 L2 L4. cbn [later iall_allowed iallowed set_arg arg_locs whole In rloc].
    split; [clear; lia|]. split; [exact Logic.I|]. split; [|split; [clear; lia|split; [clear; lia|exact Logic.I]]].
    split; [clear; lia|]. intros l [<-|[]]. set (w3 := istep _ _ _ _).
    assert (L3 : length (iwh w3) = 9) by reflexivity. rewrite L3.
    assert (D : match nth_error (iwo w3) 1 with Some o => o_dev o | None => cpu end = cpu) by reflexivity.
    assert (D' : idev (iwh w3) 8 = cpu) by reflexivity.
    clearbody w3. split; [lia|]. split; [lia|]. intros o E. rewrite E in D. congruence. }
  repeat split; reflexivity.
Qed.
