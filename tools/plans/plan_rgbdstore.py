import sys; sys.path.insert(0,'/verif/tools')
from genprop import gen
H=lambda t:('h',t)
def Tm(th,lem,f,com=''): return ('t',th,lem,f,com)
def sec(c): return H('(* ------------------------------------------------------------------ %s *)'%c)
P,P2,P3,C='RgbdStorePropProofs','RgbdStorePropProofs2','RgbdStorePropProofs3','RgbdStoreCases'
plan=[H(r'''(* Property C86: which RGBDImages objects share memory.
   Vocabulary: RgbdStoreModel.v (iheap, ref, iobj, iabs: the value of an object in a heap), RgbdStoreSpec.v (iuses, ivalid, icall, imake, run_icall, pure_icall, run_imake, pure_imake, iop, istep, isteps, iallowed, icopying, returns_self), RgbdStoreCases.v (programs).
   [ctg]: whether a permuted tensor happens to be contiguous; [cur]: the current cuda device. *)
From Coq Require Import Reals List Arith ZArith Bool Lia.
From Verif Require Import Res TensorModel RgbdModel RgbdStoreModel RgbdStoreSpec RgbdStorePropProofs RgbdStorePropProofs2
  RgbdStorePropProofs3 RgbdStoreCases.
From Verif Require StoreModel.
Import ListNotations.
Local Open Scope nat_scope.
'''),
sec('C86'),
Tm('C86_valid','p_ivalid',P,'programs: every object is made of existing tensors on its device'),
Tm('C86_private','p_iprivate',P,'part of a program working with the objects O and the storages P cannot change an object that is neither in O nor made of storages in P'),
Tm('C86_nowrite','p_inowrite',P,'the library itself never writes into a tensor that exists: a program without in-place writes of its own leaves every tensor as it was'),
Tm('C86_call','p_icall',P,'reads, setters and in-place conversions: answer and new value are those of the value-level model; only storages of the object, new ones, and the tensor given'),
Tm('C86_setter_keeps','p_isetter_keeps',P,'a setter keeps the tensor it is given, not a copy'),
Tm('C86_make','p_imake',P,'clone, to another device, to_channels_last/first: a new object made of new storages, with the right value and device'),
Tm('C86_make_value','p_imake_value',P,'value and device of every method that returns another object'),
Tm('C86_copy_forward','p_icopy_forward',P,'whatever is done afterwards with the copy and its tensors does not show in the objects that were there'),
Tm('C86_copy_backward','p_icopy_backward',P,'whatever is done afterwards with the other objects does not show in the copy'),
Tm('C86_to_self','p_ito_self',P,'to(device), cpu(), cuda(): self when the object is there, however the device is written'),
Tm('C86_to_same','p_ito_same',P2,'to(device, copy=True) with the device of self: not a copy, it has the very tensors of self'),
Tm('C86_detach','p_idetach',P2,'detach(): the very tensors of self'),
Tm('C86_getitem_live','p_igetitem_live',P3,'frames[ix]: slices, which show whatever the tensors of frames hold later'),
Tm('C86_getitem_uses','p_igetitem_uses',P3),
Tm('C86_ctor_keeps','p_inew_keeps',P2,'RGBDImages(...): the tensors given, not copies'),
Tm('C86_ctor_device','p_inew_device',P2,'tensors on different devices are rejected'),
Tm('C86_cached','p_icached',P3,'a map that is there is answered as it is'),
Tm('C86_stale_refuted','p_istale',P3,'a map that has been read is kept: a later in-place write into poses, depth or intrinsics (rather than an assignment) does not change the answer'),
Tm('C86_follows','p_follows',C,'frames.detach(), frames.to("cpu", copy=True), frames[0], frames[:, 1] follow frames.poses.zero_()'),
Tm('C86_does_not_follow','p_does_not_follow',C,'frames.clone(), frames.to_channels_last(copy=True), frames.to("cuda") do not'),
H(r'''(* two frames and a clone; then the clone is overwritten, given other poses, and sliced *)
Definition later : list iop :=
  [PWrite 7 (full [1; 2; 4; 4] 0); PTensor (full [1; 2; 4; 4] 0); PCall 1 (ISetPoses (whole 8));
   PMake 1 (JItem (RInt 0)); PWrite 8 (full [1; 2; 4; 4] 3)].
Example C86_witness : forall ctg cur,
  let w := isteps ctg cur two_frames no_objects in
  let w1 := istep ctg cur (PMake 0 JClone) w in
  let w2 := isteps ctg cur later w1 in
  iall_valid w /\ (exists c, nth_error (iwo w1) (length (iwo w)) = Some c) /\
  (forall o, nth_error (iwo w) 0 = Some o -> icopying cur (o_dev o) JClone) /\
  iall_allowed ctg cur (fun k => length (iwo w) <= k) (fun l => length (iwh w) <= l) later w1 /\
  entry (isees ctg w2 0 IPoses) = 1%R /\ entry (isees ctg w2 1 IPoses) = 3%R /\ entry (isees ctg w2 2 IPoses) = 3%R.
Proof.
  intros ctg cur w w1 w2.
  assert (L1 : length (iwo w) = 1) by reflexivity. assert (L2 : length (iwh w) = 4) by reflexivity.
  assert (L4 : length (iwo w1) = 2) by reflexivity. split.
  { clear. apply p_ivalid; [intros [] o E; discriminate|]. cbn -[lt]. repeat split; auto; repeat match goal with H : _ \/ _ |- _ => destruct H as [<-|H] end; try lia; try contradiction. }
  rewrite L1, L2. split.
  { destruct (nth_error (iwo w1) 1) as [c|] eqn:E; [exists c; reflexivity|]. apply nth_error_None in E. clearbody w1. lia. }
  split; [intros o _; exact Logic.I|]. split.
  { clear L1 L2 L4. cbn [later iall_allowed iallowed set_arg arg_locs whole In rloc].
    split; [clear; lia|]. split; [exact Logic.I|]. split; [|split; [clear; lia|split; [clear; lia|exact Logic.I]]].
    split; [clear; lia|]. intros l [<-|[]]. set (w3 := istep _ _ _ _).
    assert (L3 : length (iwh w3) = 9) by reflexivity. rewrite L3.
    assert (D : match nth_error (iwo w3) 1 with Some o => o_dev o | None => cpu end = cpu) by reflexivity.
    assert (D' : idev (iwh w3) 8 = cpu) by reflexivity.
    clearbody w3. split; [lia|]. split; [lia|]. intros o E. rewrite E in D. congruence. }
  repeat split; reflexivity.
Qed.
'''),
]
gen('/verif/rocq/theories/PropRgbdStore.v',plan)
