(* Model of gradslam/datasets/tumutils.py:95-216 and gradslam/datasets/tum.py:517-569 (_findAssociations).
   [value v] models float(v): Err = raises ValueError, Ok None = NaN, Ok (Some x) = a finite number.  Infinite time
   stamps are not modelled.  [rnd] rounds the result of each float operation. *)
From Coq Require Import Ascii String List Arith Bool Reals ZArith.
From Verif Require Import Res MatSpec DataUtilsModel TextModel.
Import ListNotations.
Local Open Scope nat_scope.

(* abs(float(a) - (float(b) + offset)) *)
Definition time_diff (rnd : R -> R) (value : text -> res (option R)) (offset : R) (a b : text) : res (option R) :=
  let? x := value a in
  let? y := value b in
  Ok (match x, y with Some x, Some y => Some (Rabs (rnd (x - rnd (y + offset)))%R) | _, _ => None end).

(* (diff, a, b) <= (diff', a', b') as Python tuples *)
Definition text_pair_le (p q : text * text) : bool :=
  match text_cmp (fst p) (fst q) with
  | Lt => true | Gt => false
  | Eq => match text_cmp (snd p) (snd q) with Gt => false | _ => true end
  end.
(* comparison of the tuples (diff, a, b) (tumutils.py:207) *)
Definition match_le (p q : R * (text * text)) : bool :=
  if Rlt_dec (fst p) (fst q) then true else if Rlt_dec (fst q) (fst p) then false else text_pair_le (snd p) (snd q).
(* list.sort() with <= as given *)
Fixpoint insert {A} (le : A -> A -> bool) (x : A) (l : list A) : list A :=
  match l with [] => [x] | y :: l' => if le x y then x :: l else y :: insert le x l' end.
(* list.sort() (tumutils.py:207, 215) *)
Fixpoint sort {A} (le : A -> A -> bool) (l : list A) : list A :=
  match l with [] => [] | x :: l' => insert le x (sort le l') end.
(* list.remove(x): the first occurrence *)
Fixpoint remove_first (x : text) (l : list text) : list text :=
  match l with [] => [] | y :: l' => if text_eqb x y then l' else y :: remove_first x l' end.
(* x in l (tumutils.py:210) *)
Definition mem (x : text) (l : list text) : bool := existsb (text_eqb x) l.

(* tumutils.py:199-207 *)
Definition potential (rnd : R -> R) (value : text -> res (option R)) (first second : list text) (offset max_difference : R)
    : res (list (R * (text * text))) :=
  let? ds := mapM (fun p => let? d := time_diff rnd value offset (fst p) (snd p) in Ok (d, p)) (list_prod first second) in
  Ok (flat_map (fun dp => match fst dp with Some d => if Rlt_dec d max_difference then [(d, snd dp)] else [] | None => [] end) ds).
(* tumutils.py:208-213: the loop, with the unused keys *)
Fixpoint greedy (pm : list (R * (text * text))) (first second : list text) : list (text * text) :=
  match pm with
  | [] => []
  | (_, (a, b)) :: pm' =>
      if mem a first && mem b second then (a, b) :: greedy pm' (remove_first a first) (remove_first b second)
      else greedy pm' first second
  end.
(* tumutils.py:182-216; the dictionaries matter only through their keys *)
Definition associate (rnd : R -> R) (value : text -> res (option R)) (first second : list text) (offset max_difference : R)
    : res (list (text * text)) :=
  let? pm := potential rnd value first second offset max_difference in
  Ok (sort text_pair_le (greedy (sort match_le pm) first second)).

(* data.replace(",", " ").replace("\t", " ").split("\n") *)
Definition data_lines (file : text) : list text := split_on newline (replace tab space (replace ","%char space file)).
(* len(line) > 0 and line[0] != "#" *)
Definition is_row (line : text) : bool := match line with [] => false | c :: _ => negb (Ascii.eqb c "#"%char) end.
(* tumutils.py:146-179 for start >= 0 (or None) *)
Definition read_file_list (file : text) (start : option nat) (end_ : option Z) : dict (list text) :=
  let lines := data_lines file in
  let rows := map (fun line => filter nonempty (map strip (split_on space line))) (filter is_row lines) in
  let start := match start with Some k => k | None => 0 end in
  let e := match end_ with Some k => k | None => Z.of_nat (length lines) end in
  let rows := slice start e rows in
  dict_of (flat_map (fun l => match l with k :: (_ :: _) as l' => [(k, tl l)] | _ => [] end) rows).

(* one entry of a trajectory row: the first column stays a string *)
Inductive tok := TStr (s : text) | TNum (x : option R).
(* tumutils.py:117-121: column n of the line *)
Fixpoint traj_row (value : text -> res (option R)) (n : nat) (cols : list text) : res (list tok) :=
  match cols with
  | [] => Ok []
  | v :: cols' =>
      let v := strip v in
      if nonempty v then
        let? t := (if 0 <? n then let? x := value v in Ok (TNum x) else Ok (TStr v)) in
        let? r := traj_row value (S n) cols' in
        Ok (t :: r)
      else traj_row value (S n) cols'
  end.
(* v == 0 (tumutils.py:125) *)
Definition tok_zero (t : tok) : bool := match t with TNum (Some x) => if Req_EM_T x 0 then true else false | _ => false end.
(* np.isnan(v) (tumutils.py:129) *)
Definition tok_nan (t : tok) : bool := match t with TNum None => true | _ => false end.
(* l[4:8] == [0, 0, 0, 0] *)
Definition zero_quat (l : list tok) : bool :=
  let q := firstn 4 (skipn 4 l) in (length q =? 4) && forallb tok_zero q.
(* tumutils.py:123-142: np.isnan of a string raises TypeError (a string can only be in column 0); the module does
   not import sys, so a NaN raises NameError *)
Fixpoint traj_ok (l : list (list tok)) : res (list (list tok)) :=
  match l with
  | [] => Ok []
  | r :: l' =>
      if zero_quat r then traj_ok l'
      else if existsb tok_nan (tl r) then Err NameError
      else let? l'' := traj_ok l' in Ok (r :: l'')
  end.
(* the rows of the trajectory file, as read_trajectory collects them (tumutils.py:113-122) *)
Definition traj_rows (value : text -> res (option R)) (file : text) : res (list (list tok)) :=
  mapM (fun line => traj_row value 0 (split_on space line)) (filter is_row (data_lines file)).
(* dictionary key: a string, or a float when the line starts with a separator *)
Definition tok_key (l : list tok) : res text :=
  match l with
  | [] => Err IndexError
  | TStr s :: _ => Ok s
  | TNum _ :: _ => Err Unmodelled
  end.
(* the number in an entry *)
Definition tok_val (t : tok) : res R := match t with TNum (Some x) => Ok x | _ => Err Unmodelled end.
(* tumutils.py:95-143, matrix=False: {stamp: l[1:8]} *)
Definition read_trajectory (value : text -> res (option R)) (file : text) : res (dict (list R)) :=
  let? rows := traj_rows value file in
  let? rows := traj_ok rows in
  let? l := mapM (fun r => let? k := tok_key r in let? v := mapM tok_val (firstn 7 (tl r)) in Ok (k, v)) rows in
  Ok (dict_of l).
(* matrix=True: {stamp: transform44(l)}; rows with fewer than 8 entries are not modelled *)
Definition read_trajectory_matrix (value : text -> res (option R)) (file : text) : res (dict mat) :=
  let? rows := traj_rows value file in
  let? rows := traj_ok rows in
  let? l := mapM (fun r => let? k := tok_key r in let? v := mapM tok_val (firstn 7 (tl r)) in
                           if length v <? 7 then Err Unmodelled else
                           let? m := transform44 (fun i => nth i v 0%R) (fun i => nth (3 + i) v 0%R) in Ok (k, m)) rows in
  Ok (dict_of l).

(* tum.py:517-569: associations (color, depth, pose) and timestamps (rgb, depth, pose) *)
Definition find_associations (rnd : R -> R) (value : text -> res (option R)) (max_difference : R) (rgb_file depth_file : text)
    (pose_file : option text) (start : option nat) (end_ : option Z)
    : res (list (text * text * option (list R)) * list (text * text * option text)) :=
  let rgb := read_file_list rgb_file start end_ in
  let depth := read_file_list depth_file None None in
  let? matches := associate rnd value (keys rgb) (keys depth) 0 max_difference in
  let first d k := let? l := dict_get k d in item l 0 in
  match pose_file with
  | None =>
      let? a := mapM (fun m => let? c := first rgb (fst m) in let? d := first depth (snd m) in Ok (c, d, None)) matches in
      Ok (a, map (fun m => (fst m, snd m, None)) matches)
  | Some f =>
      let? poses := read_trajectory value f in
      let md := dict_of (map (fun m => (snd m, fst m)) matches) in
      let? matches := associate rnd value (keys md) (keys poses) 0 max_difference in
      let? matches := mapM (fun m => let? r := dict_get (fst m) md in Ok (r, fst m, snd m)) matches in
      let? a := mapM (fun m => match m with (r, d, p) =>
                        let? c := first rgb r in let? e := first depth d in let? x := dict_get p poses in Ok (c, e, Some x) end) matches in
      Ok (a, map (fun m => match m with (r, d, p) => (r, d, Some p) end) matches)
  end.
