import sys; sys.path.insert(0,'/verif/tools')
from genprop import gen
H=lambda t:('h',t)
def Tm(th,lem,f,com=''): return ('t',th,lem,f,com)
def sec(c): return H('(* ------------------------------------------------------------------ %s *)'%c)
P,P2,P3,C='StorePropProofs','StorePropProofs2','StorePropProofs3','StoreCases'
plan=[H(r'''(* Property C85: which Pointclouds objects share memory.
   Vocabulary: StoreModel.v (heap, view2, view3, obj, abs: the value of an object in a heap), StoreSpec.v (uses, valid, call, make, run_call, pure_call, op, step, steps, allowed, owning, half_shared, keeps_list), StoreCases.v (programs). *)
From Coq Require Import List Arith ZArith Bool Lia.
From Verif Require Import Res Fld StructUtilsModel PointcloudsModel PointcloudsSpec PointcloudsHist StoreModel StoreSpec
  StoreProofs StorePropProofs StorePropProofs2 StorePropProofs3 StoreCases.
Import ListNotations.
Local Open Scope nat_scope.
'''),
sec('C85'),
Tm('C85_valid','p_valid',P,'programs: every object is made of existing tensors on its device'),
Tm('C85_private','p_private',P,'part of a program working with the objects O and the storages P cannot change an object that is neither in O nor made of storages in P'),
Tm('C85_nowrite','p_nowrite',P,'the library itself never writes into a tensor: a program without in-place writes of its own leaves every tensor as it was'),
Tm('C85_call','p_call',P,'reads, setters and in-place operations: answer and new value are those of the value-level model'),
Tm('C85_call_device','p_call_device',P,'a padded setter given a tensor on another device raises'),
Tm('C85_call_uses','p_call_uses',P2,'a setter never keeps the tensor it is given'),
Tm('C85_make','p_make',P,'clone, +, -, *, /, @, rotate, transform, pinhole_projection: a new object made of new storages, with the right value'),
Tm('C85_copy_forward','p_copy_forward',P,'whatever is done afterwards with the new object and its tensors does not show in the objects that were there'),
Tm('C85_copy_backward','p_copy_backward',P,'whatever is done afterwards with the other objects does not show in the new one'),
Tm('C85_append','p_append',P2,'append_points takes new storages only; the argument keeps its own'),
Tm('C85_append_device','p_append_device',P2),
Tm('C85_append_self','p_append_self',P2,'an object may be appended to itself: as if to an object of the same value'),
Tm('C85_append_self_shows','p_append_self_shows',P3),
Tm('C85_to_self','p_to_self',P2,'to(device): self when device is the torch.device of self and copy is not asked for'),
Tm('C85_to_copy','p_to_copy',P2),
Tm('C85_to_move','p_to_move',P2,'another device: a new object there, of new storages'),
Tm('C85_to_alias','p_to_alias',P2,'the device of self, given as a string or without index: the result shares the padded tensors, the mask and the counts with self, also when copy=True'),
Tm('C85_to_refuted','p_to_refuted',C,'to("cpu", copy=True) is not a copy: writing into p.points_padded changes the padded view of the result, and not its list'),
Tm('C85_detach','p_detach',P2,'detach(): the padded tensors, mask and counts of self, the lists of a clone'),
Tm('C85_detach_refuted','p_detach_refuted',C),
Tm('C85_view_value','p_view_value',P2,'values of detach, to, []'),
Tm('C85_getitem','p_getitem',P3,'p[ix]: the tensors of p, not copies'),
Tm('C85_ctor_keeps','p_ctor_keeps',P3,'Pointclouds(...): the tensors given, not copies'),
H(r'''(* one cloud, its clone; then the clone is overwritten, appended to itself and offset *)
Definition later (F : Fld) : list (op F) :=
  [OWrite F 4 (CF F Cpu [f0; f0; f0]); OWrite F 6 (CF F Cpu [f0; f0; f0]); OAppend F 1 1; OCall F 1 (CPadded F Points)].
Example C85_witness : forall (F : Fld) cur,
  let w := steps F cur (firstn 3 (one_cloud F (MClone F))) (nothing F) in
  let w1 := step F cur (OMake F 0 (MClone F)) w in
  all_valid F w /\ (exists c, nth_error (wobjs F w1) (length (wobjs F w)) = Some c) /\
  all_allowed F cur (fun k => length (wobjs F w) <= k) (fun l => length (wheap F w) <= l) (later F) w1 /\
  sees F (steps F cur (later F) w1) 1 (CList F Points) <> sees F w1 1 (CList F Points) /\
  sees F (steps F cur (later F) w1) 0 (CList F Points) = sees F w1 0 (CList F Points).
Proof.
  intros F cur w w1. split.
  { apply p_valid; [intros [] o E; discriminate|]. cbv -[f0 f1 car lt]. repeat split; auto; match goal with H : _ \/ False |- _ => destruct H as [<-|[]] end; lia. }
  split; [eexists; subst w w1; cbv -[f0 f1 car]; reflexivity|]. split.
  { subst w w1. cbv -[f0 f1 car]. repeat split; lia. }
  pose proof (one_zero F) as N. split; subst w w1; cbv -[f0 f1 car].
  { intros E. injection E as E. apply N. congruence. }
  reflexivity.
Qed.
'''),
]
gen('/verif/rocq/theories/PropStore.v',plan)
