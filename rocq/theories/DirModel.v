(* Model of the rest of the constructors: which directories and files of the disk a dataset uses.
   gradslam/datasets/tum.py:137-328, icl.py:146-376, scannet.py:86-186.
   basedir is a normalised path other than "/"; names of directory entries contain no "/". *)
From Coq Require Import Ascii String List Arith Bool Reals ZArith.
From Verif Require Import Res TextModel TumModel DatasetModel.
Import ListNotations.
Local Open Scope nat_scope.

(* the disk: os.listdir(basedir) with os.path.isdir of each entry, os.path.isfile, and open(path).read() *)
Record disk : Type := mkDisk { listing : list (text * bool); isfile : text -> bool; contents : text -> text }.
(* the argument sequences / trajectories / scenes: None, a tuple, a str, anything else *)
Inductive selection := SNone | STuple (l : list text) | SStr (path : text) | SOther.
(* os.path.join(a, b) *)
Definition pjoin (a b : text) : text := a ++ txt "/" ++ b.
(* tum.py:195-207, icl.py:211-223, scannet.py:118-127 *)
Definition selected (fs : disk) (s : selection) : res (option (list text)) :=
  match s with
  | SStr p => guard (isfile fs p) ValueError ;;? Ok (Some (split_on newline (contents fs p)))
  | SOther => Err TypeError
  | SNone => Ok None
  | STuple l => Ok (Some l)
  end.
(* item in sequences, if sequences is not None *)
Definition chosen (sel : option (list text)) (name : text) : bool := match sel with None => true | Some l => mem name l end.

(* ---------------------------------------------------------------- TUM *)
(* tum.py:224-238: the check of a folder name; split[1] and split[2] may not exist *)
Definition tum_folder (name : text) : res unit :=
  let split := split_on "_"%char name in
  let? a := item split 0 in
  guard (text_eqb a (txt "rgbd")) ValueError ;;?
  let? b := item split 1 in
  guard (text_eqb b (txt "dataset")) ValueError ;;?
  let? c := item split 2 in
  guard (text_eqb (but_last_n 1 c) (txt "freiburg")) ValueError ;;?
  guard (negb (length split <? 4)) ValueError.
(* tum.py:222-240: the names of the sequences that are used *)
Fixpoint tum_list (sel : option (list text)) (l : list (text * bool)) : res (list text) :=
  match l with
  | [] => Ok []
  | (name, isdir) :: l' =>
      if isdir then
        tum_folder name ;;?
        let? r := tum_list sel l' in
        Ok (if chosen sel name then name :: r else r)
      else tum_list sel l'
  end.
(* tum.py:258-276: the files that the directory p must contain *)
Definition tum_check (fs : disk) (load : bool) (p : text) : res unit :=
  guard (isfile fs (pjoin p (txt "rgb.txt"))) ValueError ;;?
  guard (isfile fs (pjoin p (txt "depth.txt"))) ValueError ;;?
  guard (negb load || isfile fs (pjoin p (txt "groundtruth.txt"))) ValueError.
(* tum.py:195-276 *)
Definition tum_dirs (fs : disk) (basedir : text) (s : selection) (load : bool) : res (list text) :=
  let? sel := selected fs s in
  guard (match sel with Some [] => false | _ => true end) ValueError ;;?
  let? names := tum_list sel (listing fs) in
  guard (nonempty names) ValueError ;;?
  guard (match sel with Some l => length names =? length l | None => true end) ValueError ;;?
  let? _ := mapM (fun n => tum_check fs load (pjoin basedir n)) names in
  Ok names.
(* tum.py:137-328, the constructor; _findAssociations with its default max_difference 0.02, start and end of the object *)
Definition tum_open (rnd : R -> R) (value : text -> res (option R)) (fs : disk) (basedir : text) (s : selection)
    (seqlen dilation stride start end_ : iarg) (load : bool) : res tumdata :=
  let? w := window_args seqlen dilation stride start end_ in
  let? names := tum_dirs fs basedir s load in
  let? seqs := mapM (fun n => let p := pjoin basedir n in
    let? a := find_associations rnd value (2 / 100)%R (contents fs (pjoin p (txt "rgb.txt"))) (contents fs (pjoin p (txt "depth.txt")))
      (if load then Some (contents fs (pjoin p (txt "groundtruth.txt"))) else None) (Some (w_start w)) (w_end w) in
    Ok (p, n, fst a, snd a)) names in
  tum_all w load seqs.

(* ---------------------------------------------------------------- ICL *)
(* f[:16] == "living_room_traj" and f[-9:] == "_frei_png" (icl.py:201-202, 232) *)
Definition icl_folder (f : text) : bool :=
  text_eqb (firstn 16 f) (txt "living_room_traj") && text_eqb (last_n 9 f) (txt "_frei_png").
(* s.index(p): the first position where p occurs *)
Fixpoint index_of (p s : text) : res nat :=
  if text_eqb (firstn (length p) s) p then Ok 0
  else match s with [] => Err ValueError | _ :: s' => let? i := index_of p s' in Ok (S i) end.
(* icl.py:280-285: the pose file of a trajectory *)
Definition icl_posefile (trajectory_path : text) : res text :=
  let? i := index_of (txt "living_room_traj") trajectory_path in
  let? num := item (split_on "_"%char (skipn (i + 16) trajectory_path)) 0 in
  Ok (pjoin trajectory_path (txt "livingRoom" ++ num ++ txt "n.gt.sim")).
(* icl.py:271-291: the files that the directory of the trajectory n must contain *)
Definition icl_check (fs : disk) (basedir : text) (load : bool) (n : text) : res (text * option text) :=
  let p := pjoin basedir n in
  guard (isfile fs (pjoin p (txt "associations.txt"))) ValueError ;;?
  if load then let? f := icl_posefile p in guard (isfile fs f) ValueError ;;? Ok (n, Some f) else Ok (n, None).
(* icl.py:196-291: the names of the trajectories that are used, with their pose files *)
Definition icl_dirs (fs : disk) (basedir : text) (s : selection) (load : bool) : res (list (text * option text)) :=
  let dirs := map fst (filter snd (listing fs)) in
  let valid := filter icl_folder dirs in
  guard (nonempty valid) ValueError ;;?
  let? sel := selected fs s in
  guard (match sel with Some [] => false | _ => true end) ValueError ;;?
  guard (match sel with Some l => forallb icl_folder l | None => true end) ValueError ;;?
  let valid := match sel with Some l => l | None => valid end in
  let names := filter (fun n => mem n valid) dirs in
  guard (nonempty names) ValueError ;;?
  guard (match sel with Some l => length names =? length l | None => true end) ValueError ;;?
  mapM (icl_check fs basedir load) names.
(* icl.py:146-376, the constructor *)
Definition icl_open (fs : disk) (basedir : text) (s : selection) (seqlen dilation stride start end_ : iarg) (load : bool) : res icldata :=
  let? w := window_args seqlen dilation stride start end_ in
  let? dirs := icl_dirs fs basedir s load in
  icl_all w load (map (fun d => let p := pjoin basedir (fst d) in let f := match snd d with Some f => f | None => [] end in
    mkTraj p (fst d) (contents fs (pjoin p (txt "associations.txt"))) f (contents fs f)) dirs).

(* ---------------------------------------------------------------- ScanNet *)
(* scannet.py:134: os.path.basename(seqmetapath).split("-")[0] *)
Definition scene_of (file : text) : text := hd [] (split_on "-"%char file).
(* scannet.py:118-186; [metas] are the names of the files of seqmetadir that match "*.txt", in natural order.  The checks of
   start and end come before those of scenes. *)
Definition scannet_open (fs : disk) (basedir metadir : text) (metas : list text) (s : selection) (start end_ : Z) : res scandata :=
  guard (negb (start <? 0)%Z) ValueError ;;?
  guard ((end_ =? -1)%Z || (start <? end_)%Z) ValueError ;;?
  let? sel := selected fs s in
  let metas := filter (fun m => chosen sel (scene_of m)) metas in
  scannet_new basedir start end_
    (map (fun m => mkScene (hd [] (split_on "."%char m)) (readlines (contents fs (pjoin metadir m)))) metas).
