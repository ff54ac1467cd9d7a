(* Property C74: which sequences of the disk a dataset contains.
   Vocabulary (DirSpec.v): subdir = a subdirectory of basedir; tum_name / icl_dirname = the documented names; Wanted = what the argument
   asks for (None: everything); Listed = the subdirectories with a property, in the order of the listing; tum_complete / icl_complete =
   the directory has its index files; pose_file n f = f is livingRoomXn.gt.sim for n = living_room_trajX_...; Occurs = is a part of. *)
From Coq Require Import Ascii String List Arith Bool Reals ZArith Lia Permutation.
From Verif Require Import Res TextModel TumModel DatasetModel DataSpec DatasetSpec DirModel DirSpec DirProofs DirPropProofs.
Import ListNotations.
Local Open Scope nat_scope.

(* ------------------------------------------------------------------ C74 *)
(* TUM: exactly when the directory is accepted, and with which sequences *)
Theorem C74_tum : forall fs basedir s load names, tum_dirs fs basedir s load = Ok names <->
  exists w, Wanted fs s w /\ (forall n, subdir fs n -> tum_name n) /\ Listed fs (uses w) names /\ names <> [] /\
    (forall l, w = Some l -> length names = length l) /\ Forall (tum_complete fs basedir load) names.
Proof. exact q_tum_dirs. Qed.
Print Assumptions C74_tum.

(* without a selection: all subdirectories *)
Theorem C74_tum_all : forall fs basedir load names, tum_dirs fs basedir SNone load = Ok names -> forall n, In n names <-> subdir fs n.
Proof. exact q_tum_none. Qed.
Print Assumptions C74_tum_all.

(* with a selection without repetitions: exactly the names asked for, each once *)
Theorem C74_tum_requested : forall fs basedir s load l names, listing_ok fs -> Wanted fs s (Some l) -> NoDup l ->
  tum_dirs fs basedir s load = Ok names -> Permutation names l.
Proof. exact q_tum_exactly. Qed.
Print Assumptions C74_tum_requested.

(* such a selection is accepted if all are there.  Missing: repeated names (C74_tum_twice_refuted), files that end with a newline (C74_tum_newline_refuted), other folders in basedir (C74_tum_other_folder_refuted) *)
Theorem C74_tum_accepted_partial : forall fs basedir s load l, listing_ok fs -> Wanted fs s (Some l) -> NoDup l -> l <> [] ->
  (forall n, subdir fs n -> tum_name n) -> Forall (subdir fs) l -> Forall (tum_complete fs basedir load) l ->
  exists names, tum_dirs fs basedir s load = Ok names /\ Permutation names l.
Proof. exact q_tum_accepts. Qed.
Print Assumptions C74_tum_accepted_partial.

(* a name that is not there raises ValueError *)
Theorem C74_tum_missing : forall fs basedir s load l x, (forall n, subdir fs n -> tum_name n) -> listing_ok fs -> Wanted fs s (Some l) -> NoDup l ->
  In x l -> ~ subdir fs x -> tum_dirs fs basedir s load = Err ValueError.
Proof. exact q_tum_missing. Qed.
Print Assumptions C74_tum_missing.

(* if all folders have documented names only ValueError or, for a selection of a wrong type, TypeError *)
Theorem C74_tum_errors : forall fs basedir s load e, (forall n, subdir fs n -> tum_name n) -> tum_dirs fs basedir s load = Err e ->
  (s = SOther /\ e = TypeError) \/ (s <> SOther /\ e = ValueError).
Proof. exact q_tum_errors. Qed.
Print Assumptions C74_tum_errors.

(* a name given twice is rejected *)
Theorem C74_tum_twice_refuted : tum_dirs (disk_of [a_seq; b_seq] []) (txt "d") (STuple [a_seq]) true = Ok [a_seq] /\
  tum_dirs (disk_of [a_seq; b_seq] []) (txt "d") (STuple [a_seq; a_seq]) true = Err ValueError.
Proof. exact r_tum_twice. Qed.
Print Assumptions C74_tum_twice_refuted.

(* a file of names that ends with a newline is rejected *)
Theorem C74_tum_newline_refuted : tum_dirs (disk_of [a_seq; b_seq] a_seq) (txt "d") (SStr (txt "split.txt")) true = Ok [a_seq] /\
  tum_dirs (disk_of [a_seq; b_seq] (a_seq ++ [newline])) (txt "d") (SStr (txt "split.txt")) true = Err ValueError.
Proof. exact r_tum_newline. Qed.
Print Assumptions C74_tum_newline_refuted.

(* one other folder in basedir makes every selection fail *)
Theorem C74_tum_other_folder_refuted : forall fs basedir s load n, subdir fs n -> ~ tum_name n -> exists e, tum_dirs fs basedir s load = Err e.
Proof. exact r_tum_other_folder. Qed.
Print Assumptions C74_tum_other_folder_refuted.

(* for some names with IndexError instead of ValueError *)
Theorem C74_tum_index_refuted : tum_dirs (disk_of [a_seq; txt "rgbd"] []) (txt "d") (STuple [a_seq]) true = Err IndexError /\
  tum_dirs (disk_of [a_seq; txt "cache"] []) (txt "d") (STuple [a_seq]) true = Err ValueError.
Proof. exact r_tum_index. Qed.
Print Assumptions C74_tum_index_refuted.

(* the dataset is the concatenation of the sequences, each read from its own files *)
Theorem C74_tum_contents : forall rnd value fs basedir s seqlen dilation stride start end_ load w names rs,
  window_args seqlen dilation stride start end_ = Ok w -> tum_dirs fs basedir s load = Ok names ->
  Forall2 (fun n r => let file f := contents fs (basedir ++ txt "/" ++ n ++ txt "/" ++ f) in exists a t,
     find_associations rnd value (2 / 100)%R (file (txt "rgb.txt")) (file (txt "depth.txt")) (if load then Some (file (txt "groundtruth.txt")) else None) (Some (w_start w)) (w_end w) = Ok (a, t) /\
     tum_sequence w (basedir ++ txt "/" ++ n) n load a t = Ok r) names rs ->
  tum_open rnd value fs basedir s seqlen dilation stride start end_ load =
    Ok (mkTum (concat (map t_color rs)) (concat (map t_depth rs)) (concat (map t_names rs)) (concat (map t_stamps rs)) (concat (map t_poses rs))).
Proof. exact q_tum_open. Qed.
Print Assumptions C74_tum_contents.

(* ICL; basedir does not contain "living_room_traj" (C74_icl_basedir_refuted) *)
Theorem C74_icl : forall fs basedir s load r, ~ Occurs (txt "living_room_traj") basedir ->
  (icl_dirs fs basedir s load = Ok r <->
   exists w names, Wanted fs s w /\ (exists n, subdir fs n /\ icl_dirname n) /\ (forall l, w = Some l -> Forall icl_dirname l) /\
     Listed fs (fun n => icl_dirname n /\ uses w n) names /\ names <> [] /\ (forall l, w = Some l -> length names = length l) /\
     Forall (icl_complete fs basedir load) names /\ Forall2 (icl_kept basedir load) names r).
Proof. exact q_icl_dirs. Qed.
Print Assumptions C74_icl.

Theorem C74_icl_all : forall fs basedir load r, ~ Occurs (txt "living_room_traj") basedir -> icl_dirs fs basedir SNone load = Ok r ->
  forall n, In n (map fst r) <-> subdir fs n /\ icl_dirname n.
Proof. exact q_icl_none. Qed.
Print Assumptions C74_icl_all.

Theorem C74_icl_requested : forall fs basedir s load l r, ~ Occurs (txt "living_room_traj") basedir -> listing_ok fs -> Wanted fs s (Some l) -> NoDup l ->
  icl_dirs fs basedir s load = Ok r -> Permutation (map fst r) l.
Proof. exact q_icl_exactly. Qed.
Print Assumptions C74_icl_requested.

(* Missing: as for TUM, and basedirs that contain "living_room_traj" *)
Theorem C74_icl_accepted_partial : forall fs basedir s load l, ~ Occurs (txt "living_room_traj") basedir -> listing_ok fs -> Wanted fs s (Some l) -> NoDup l -> l <> [] ->
  Forall icl_dirname l -> Forall (subdir fs) l -> Forall (icl_complete fs basedir load) l ->
  exists r, icl_dirs fs basedir s load = Ok r /\ Permutation (map fst r) l.
Proof. exact q_icl_accepts. Qed.
Print Assumptions C74_icl_accepted_partial.

(* a complete directory whose path contains "living_room_traj" before the last part is rejected when poses are asked for *)
Theorem C74_icl_basedir_refuted : exists b, let fs := icl_disk b in Forall (icl_complete fs b true) [t2] /\ subdir fs t2 /\ icl_dirs fs b (STuple [t2]) false = Ok [(t2, None)] /\
  icl_dirs fs b (STuple [t2]) true = Err ValueError.
Proof. exact r_icl_basedir. Qed.
Print Assumptions C74_icl_basedir_refuted.

Theorem C74_icl_contents : forall fs basedir s seqlen dilation stride start end_ load w ds rs,
  window_args seqlen dilation stride start end_ = Ok w -> icl_dirs fs basedir s load = Ok ds ->
  Forall2 (fun d r => let p := basedir ++ txt "/" ++ fst d in let f := match snd d with Some f => f | None => [] end in
     icl_traj w load (mkTraj p (fst d) (contents fs (p ++ txt "/associations.txt")) f (contents fs f)) = Ok r) ds rs ->
  icl_open fs basedir s seqlen dilation stride start end_ load =
    Ok (mkIcl (concat (map i_color rs)) (concat (map i_depth rs)) (concat (map i_names rs)) (concat (map i_poses rs))).
Proof. exact q_icl_open. Qed.
Print Assumptions C74_icl_contents.

(* ScanNet: the metadata files whose scene is asked for, in their order *)
Theorem C74_scannet : forall fs basedir metadir metas s w start end_, Wanted fs s w -> exists scs used,
  (exists f, (forall m, f m = true <-> exists x, Before "-"%char m x /\ uses w x) /\ used = filter f metas) /\
  Forall2 (fun m sc => Before "."%char m (sc_name sc) /\ FileLines (contents fs (metadir ++ txt "/" ++ m)) (sc_lines sc)) used scs /\
  scannet_open fs basedir metadir metas s start end_ = scannet_new basedir start end_ scs.
Proof. exact q_scannet_open. Qed.
Print Assumptions C74_scannet.

(* a scene that is not there is not noticed: the dataset is empty *)
Theorem C74_scannet_missing_refuted : forall fs basedir metadir metas l (start end_ : nat), start < end_ -> (forall m x, In m metas -> Before "-"%char m x -> ~ In x l) ->
  exists r, scannet_open fs basedir metadir metas (STuple l) (Z.of_nat start) (Z.of_nat end_) = Ok r /\ sd_frames r = [].
Proof. exact r_scannet_missing. Qed.
Print Assumptions C74_scannet_missing_refuted.

(* a selection that is neither None, a tuple nor a str raises TypeError *)
Theorem C74_selection_type : forall fs basedir metadir metas load start end_, 
  tum_dirs fs basedir SOther load = Err TypeError /\
  ((exists n, subdir fs n /\ icl_dirname n) -> icl_dirs fs basedir SOther load = Err TypeError) /\
  ((0 <= start)%Z -> end_ = (-1)%Z \/ (start < end_)%Z -> scannet_open fs basedir metadir metas SOther start end_ = Err TypeError).
Proof. exact q_selection_type. Qed.
Print Assumptions C74_selection_type.

Example C74_witness : (let fs := disk_of [b_seq; a_seq] [] in listing_ok fs /\ (forall n, subdir fs n -> tum_name n) /\ Forall (subdir fs) [a_seq; b_seq] /\ NoDup [a_seq; b_seq] /\
    Forall (tum_complete fs (txt "d") true) [a_seq; b_seq] /\ tum_dirs fs (txt "d") (STuple [a_seq; b_seq]) true = Ok [b_seq; a_seq] /\
    ~ subdir fs t2 /\ Wanted fs (STuple [a_seq; t2]) (Some [a_seq; t2])) /\
  (subdir (disk_of [a_seq; txt "cache"] []) (txt "cache") /\ ~ tum_name (txt "cache")) /\
  (let fs := icl_disk (txt "/data") in ~ Occurs (txt "living_room_traj") (txt "/data") /\ listing_ok fs /\ subdir fs t2 /\ icl_dirname t2 /\ icl_complete fs (txt "/data") true t2 /\
    icl_dirs fs (txt "/data") SNone true = Ok [(t2, Some (txt "/data/" ++ t2 ++ txt "/livingRoom2n.gt.sim"))]) /\
  (forall m x, In m [txt "scene0000_00-seq_0.txt"] -> Before "-"%char m x -> ~ In x [txt "scene0001_00"]).
Proof.
  split; [|split; [|split]].
  - cbv zeta. split; [repeat constructor; cbn; intuition discriminate|].
    split; [intros n [K|[K|[K|[]]]]; injection K as <-; try discriminate; [apply b_seq_name|apply a_seq_name]|]. split; [repeat constructor; cbn; tauto|].
    split; [repeat constructor; cbn; intuition discriminate|]. split; [repeat constructor|]. split; [vm_compute; reflexivity|].
    split; [intros [K|[K|[K|[]]]]; discriminate|reflexivity].
  - split; [right; now left|]. intros K. apply tum_folder_spec in K. vm_compute in K. discriminate.
  - cbv zeta. split; [|split; [repeat constructor; cbn; intuition discriminate|]].
    + intros (a & b & K). apply (f_equal (@length _)) in K. rewrite !app_length in K. cbn in K. lia.
    + split; [now left|]. split; [apply t2_name|]. split; [|vm_compute; reflexivity]. split; [vm_compute; reflexivity|]. intros _ f Hf. rewrite (t2_pose f Hf). vm_compute. reflexivity.
  - intros m x [<-|[]] Hx. rewrite (before_det "-"%char _ x (txt "scene0000_00") Hx); [cbn; intuition discriminate|]. split; [cbn; intuition discriminate|]. right. exists (txt "seq_0.txt"). reflexivity.
Qed.
