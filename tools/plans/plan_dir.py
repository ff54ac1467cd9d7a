import sys; sys.path.insert(0,'/verif/tools')
from genprop import gen
H=lambda t:('h',t)
def Tm(th,lem,f,com=''): return ('t',th,lem,f,com)
def sec(c): return H('(* ------------------------------------------------------------------ %s *)'%c)
P='DirPropProofs'
plan=[H(r'''(* Property C74: which sequences of the disk a dataset contains.
   Vocabulary (DirSpec.v): subdir = a subdirectory of basedir; tum_name / icl_dirname = the documented names; Wanted = what the argument
   asks for (None: everything); Listed = the subdirectories with a property, in the order of the listing; tum_complete / icl_complete =
   the directory has its index files; pose_file n f = f is livingRoomXn.gt.sim for n = living_room_trajX_...; Occurs = is a part of. *)
From Coq Require Import Ascii String List Arith Bool Reals ZArith Lia Permutation.
From Verif Require Import Res TextModel TumModel DatasetModel DataSpec DatasetSpec DirModel DirSpec DirProofs DirPropProofs.
Import ListNotations.
Local Open Scope nat_scope.
'''),
sec('C74'),
Tm('C74_tum','q_tum_dirs',P,'TUM: exactly when the directory is accepted, and with which sequences'),
Tm('C74_tum_all','q_tum_none',P,'without a selection: all subdirectories'),
Tm('C74_tum_requested','q_tum_exactly',P,'with a selection without repetitions: exactly the names asked for, each once'),
Tm('C74_tum_accepted_partial','q_tum_accepts',P,'such a selection is accepted if all are there.  Missing: repeated names (C74_tum_twice_refuted), files that end with a newline (C74_tum_newline_refuted), other folders in basedir (C74_tum_other_folder_refuted)'),
Tm('C74_tum_missing','q_tum_missing',P,'a name that is not there raises ValueError'),
Tm('C74_tum_errors','q_tum_errors',P,'if all folders have documented names only ValueError or, for a selection of a wrong type, TypeError'),
Tm('C74_tum_twice_refuted','r_tum_twice',P,'a name given twice is rejected'),
Tm('C74_tum_newline_refuted','r_tum_newline',P,'a file of names that ends with a newline is rejected'),
Tm('C74_tum_other_folder_refuted','r_tum_other_folder',P,'one other folder in basedir makes every selection fail'),
Tm('C74_tum_index_refuted','r_tum_index',P,'for some names with IndexError instead of ValueError'),
Tm('C74_tum_contents','q_tum_open',P,'the dataset is the concatenation of the sequences, each read from its own files'),
Tm('C74_icl','q_icl_dirs',P,'ICL; basedir does not contain "living_room_traj" (C74_icl_basedir_refuted)'),
Tm('C74_icl_all','q_icl_none',P),
Tm('C74_icl_requested','q_icl_exactly',P),
Tm('C74_icl_accepted_partial','q_icl_accepts',P,'Missing: as for TUM, and basedirs that contain "living_room_traj"'),
Tm('C74_icl_basedir_refuted','r_icl_basedir',P,'a complete directory whose path contains "living_room_traj" before the last part is rejected when poses are asked for'),
Tm('C74_icl_contents','q_icl_open',P),
Tm('C74_scannet','q_scannet_open',P,'ScanNet: the metadata files whose scene is asked for, in their order'),
Tm('C74_scannet_missing_refuted','r_scannet_missing',P,'a scene that is not there is not noticed: the dataset is empty'),
Tm('C74_selection_type','q_selection_type',P,'a selection that is neither None, a tuple nor a str raises TypeError'),
H(r'''Example C74_witness : (let fs := disk_of [b_seq; a_seq] [] in listing_ok fs /\ (forall n, subdir fs n -> tum_name n) /\ Forall (subdir fs) [a_seq; b_seq] /\ NoDup [a_seq; b_seq] /\
    Forall (tum_complete fs (txt "d") true) [a_seq; b_seq] /\ tum_dirs fs (txt "d") (STuple [a_seq; b_seq]) true = Ok [b_seq; a_seq] /\
    ~ subdir fs t2 /\ Wanted fs (STuple [a_seq; t2]) (Some [a_seq; t2])) /\
  (subdir (disk_of [a_seq; txt "cache"] []) (txt "cache") /\ ~ tum_name (txt "cache")) /\
  (let fs := icl_disk (txt "/data") in ~ Occurs (txt "living_room_traj") (txt "/data") /\ listing_ok fs /\ subdir fs t2 /\ icl_dirname t2 /\ icl_complete fs (txt "/data") true t2 /\
    icl_dirs fs (txt "/data") SNone true = Ok [(t2, Some (txt "/data/" ++ t2 ++ txt "/livingRoom2n.gt.sim"))]) /\
  (forall m x, In m [txt "scene0000_00-seq_0.txt"] -> Before "-"%char m x -> ~ In x [txt "scene0001_00"]).
Proof.
  split; [|split; [|split]].
  - cbv zeta. split; [repeat constructor; cbn; intuition discriminate|].
    split; [intros n [K|[K|[K|[]]]]; injection K as <-; try discriminate; [apply b_seq_name|apply a_seq_name]|]. split; [repeat constructor; cbn; tauto|].
    split; [repeat constructor; cbn; intuition discriminate|]. split; [repeat constructor|]. split; [vm_compute; reflexivity|].
    split; [intros [K|[K|[K|[]]]]; discriminate|reflexivity].
  - split; [right; now left|]. intros K. apply tum_folder_spec in K. vm_compute in K. discriminate.
  - cbv zeta. split; [|split; [repeat constructor; cbn; intuition discriminate|]].
    + intros (a & b & K). apply (f_equal (@length _)) in K. rewrite !app_length in K. cbn in K. lia.
    + split; [now left|]. split; [apply t2_name|]. split; [|vm_compute; reflexivity]. split; [vm_compute; reflexivity|]. intros _ f Hf. rewrite (t2_pose f Hf). vm_compute. reflexivity.
  - intros m x [<-|[]] Hx. rewrite (before_det "-"%char _ x (txt "scene0000_00") Hx); [cbn; intuition discriminate|]. split; [cbn; intuition discriminate|]. right. exists (txt "seq_0.txt"). reflexivity.
Qed.
'''),
]
gen('/verif/rocq/theories/PropDir.v',plan)
