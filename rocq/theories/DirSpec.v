(* Specification vocabulary for the choice of directories (C74). *)
From Coq Require Import Ascii String List Arith Bool Permutation.
From Verif Require Import Res TextModel DataSpec DatasetSpec DirModel.
Import ListNotations.
Local Open Scope nat_scope.

(* a subdirectory of basedir *)
Definition subdir (fs : disk) (n : text) : Prop := In (n, true) (listing fs).
(* rgbd_dataset_freiburgX_NAME, living_room_trajX_frei_png *)
Definition tum_name (n : text) : Prop := exists x name, x <> "_"%char /\ n = txt "rgbd_dataset_freiburg" ++ [x] ++ txt "_" ++ name.
Definition icl_dirname (n : text) : Prop := exists x, n = txt "living_room_traj" ++ x ++ txt "_frei_png".
(* what the argument asks for: None = everything, Some l = the names l (the lines of the file if it is a path) *)
Definition Wanted (fs : disk) (s : selection) (w : option (list text)) : Prop :=
  match s with
  | SNone => w = None
  | STuple l => w = Some l
  | SStr p => isfile fs p = true /\ exists ls, Lines (contents fs p) ls /\ w = Some ls
  | SOther => False
  end.
Definition uses (w : option (list text)) (n : text) : Prop := match w with None => True | Some l => In n l end.
(* names = the subdirectories with property P, in the order of the listing *)
Definition Listed (fs : disk) (P : text -> Prop) (names : list text) : Prop :=
  exists f, (forall n, f n = true <-> P n) /\ names = filter f (map fst (filter snd (listing fs))).
Definition has (fs : disk) (dir file : text) : Prop := isfile fs (dir ++ txt "/" ++ file) = true.
(* no entry occurs twice in the listing *)
Definition listing_ok (fs : disk) : Prop := NoDup (map fst (listing fs)).
(* p occurs in s *)
Definition Occurs (p s : text) : Prop := exists a b, s = a ++ p ++ b.
(* the part of s before the first c (all of s if there is none) *)
Definition Before (c : ascii) (s x : text) : Prop := ~ In c x /\ (s = x \/ exists r, s = x ++ c :: r).
(* the pose file of the trajectory directory n: livingRoomXn.gt.sim *)
Definition pose_file (n f : text) : Prop := exists x rest, ~ In "_"%char x /\ n = txt "living_room_traj" ++ x ++ txt "_" ++ rest /\
  f = txt "livingRoom" ++ x ++ txt "n.gt.sim".
(* the files of a sequence of TUM and of a trajectory of ICL *)
Definition tum_complete (fs : disk) (basedir : text) (load : bool) (n : text) : Prop :=
  has fs (basedir ++ txt "/" ++ n) (txt "rgb.txt") /\ has fs (basedir ++ txt "/" ++ n) (txt "depth.txt") /\
  (load = true -> has fs (basedir ++ txt "/" ++ n) (txt "groundtruth.txt")).
Definition icl_complete (fs : disk) (basedir : text) (load : bool) (n : text) : Prop :=
  has fs (basedir ++ txt "/" ++ n) (txt "associations.txt") /\
  (load = true -> forall f, pose_file n f -> has fs (basedir ++ txt "/" ++ n) f).
(* what is kept of a trajectory: its name and the path of its pose file, if poses are asked for *)
Definition icl_kept (basedir : text) (load : bool) (n : text) (d : text * option text) : Prop :=
  fst d = n /\ (if load then exists f, pose_file n f /\ snd d = Some (basedir ++ txt "/" ++ n ++ txt "/" ++ f) else snd d = None).
