(* Specification vocabulary for the datasets (C55-C62). *)
From Coq Require Import Ascii String List Arith Bool Reals ZArith Sorting.Sorted.
From Verif Require Import Res TextModel.
Import ListNotations.
Local Open Scope nat_scope.

(* ---------------- text *)
(* alphabetical order by code point *)
Inductive alpha_lt : text -> text -> Prop :=
| lt_nil y b : alpha_lt [] (y :: b)
| lt_head x y a b : nat_of_ascii x < nat_of_ascii y -> alpha_lt (x :: a) (y :: b)
| lt_tail x a b : alpha_lt a b -> alpha_lt (x :: a) (x :: b).
(* s cut at every character with property p *)
Inductive Pieces (p : ascii -> Prop) : text -> list text -> Prop :=
| p_one s : Forall (fun c => ~ p c) s -> Pieces p s [s]
| p_more s c r ps : Forall (fun c => ~ p c) s -> p c -> Pieces p r ps -> Pieces p (s ++ c :: r) (s :: ps).
(* white space of Python below code point 256: tab, line feed, vertical tab, form feed, carriage return, the four separators 28-31, blank, next line, no-break space *)
Definition blank (c : ascii) : Prop := In (nat_of_ascii c) [9; 10; 11; 12; 13; 28; 29; 30; 31; 32; 133; 160].
(* core is s without the white space around it *)
Definition Trimmed (s core : text) : Prop := exists l r, s = l ++ core ++ r /\ Forall blank l /\ Forall blank r /\
  match core with [] => True | c :: _ => ~ blank c /\ ~ blank (last core c) end.
Definition separator (c : ascii) : Prop := c = " "%char \/ c = ","%char \/ c = ascii_of_nat 9.
(* the entries of a line *)
Definition Fields (line : text) (fs : list text) : Prop :=
  exists ps cores, Pieces separator line ps /\ Forall2 Trimmed ps cores /\ fs = filter nonempty cores.
(* lines that carry data: not empty, not a comment *)
Definition data_line (line : text) : bool := match line with [] => false | c :: _ => negb (Ascii.eqb c "#"%char) end.

(* d is the dictionary of the pairs l: the last value of each key, keys in order of first appearance *)
Definition DictOf {V} (l : list (text * V)) (d : list (text * V)) : Prop :=
  map fst d = rev (nodup (list_eq_dec ascii_dec) (rev (map fst l))) /\
  forall k v, In (k, v) d -> exists l1 l2, l = l1 ++ (k, v) :: l2 /\ ~ In k (map fst l2).

(* ---------------- association of time stamps *)
Section Association.
Variables (rnd : R -> R) (value : text -> res (option R)) (offset maxd : R).
(* the time difference of two stamps, when both are numbers *)
Definition Gap (a b : text) (d : R) : Prop :=
  exists x y, value a = Ok (Some x) /\ value b = Ok (Some y) /\ d = Rabs (rnd (x - rnd (y + offset)))%R.
Definition pair_lt (p q : text * text) : Prop := alpha_lt (fst p) (fst q) \/ (fst p = fst q /\ alpha_lt (snd p) (snd q)).
(* p is closer than q; equal differences are decided alphabetically *)
Definition closer (p q : text * text) : Prop :=
  exists d e, Gap (fst p) (snd p) d /\ Gap (fst q) (snd q) e /\ ((d < e)%R \/ (d = e /\ pair_lt p q)).
Definition candidate (first second : list text) (a b : text) : Prop :=
  In a first /\ In b second /\ exists d, Gap a b d /\ (d < maxd)%R.
Definition Association (first second : list text) (m : list (text * text)) : Prop :=
  (forall a b, In (a, b) m -> candidate first second a b) /\
  NoDup (map fst m) /\ NoDup (map snd m) /\
  (forall a b, candidate first second a b -> In (a, b) m \/
     exists a' b', In (a', b') m /\ (a' = a \/ b' = b) /\ closer (a', b') (a, b)) /\
  StronglySorted pair_lt m.
End Association.

(* ---------------- text files of rows *)
(* the lines of a file *)
Definition Lines (file : text) (ls : list text) : Prop := Pieces (fun c => c = ascii_of_nat 10) file ls.
(* the fields of its data lines *)
Definition Rows (file : text) (rows : list (list text)) : Prop :=
  exists ls, Lines file ls /\ Forall2 Fields (filter data_line ls) rows.
(* the entries of a file list: the first field is the key, the others are the value *)
Definition entries (rows : list (list text)) : list (text * list text) :=
  map (fun fs => (hd [] fs, tl fs)) (filter (fun fs => 2 <=? length fs) rows).
(* a line of a trajectory file: it begins with its stamp; the other fields read as [vals] (None: NaN) *)
Definition TrajLine (value : text -> res (option R)) (line stamp : text) (vals : list (option R)) : Prop :=
  exists p ps cores, Pieces separator line (p :: ps) /\ Trimmed p stamp /\ stamp <> [] /\ Forall2 Trimmed ps cores /\
    Forall2 (fun f v => value f = Ok v) (filter nonempty cores) vals.
(* a row whose quaternion (fields 4 to 7) is zero *)
Definition no_rotation (vals : list (option R)) : Prop := firstn 4 (skipn 3 vals) = [Some 0; Some 0; Some 0; Some 0]%R.
(* the sublist of the elements without property P *)
Inductive Without {A} (P : A -> Prop) : list A -> list A -> Prop :=
| wo_nil : Without P [] []
| wo_drop x l l' : P x -> Without P l l' -> Without P (x :: l) l'
| wo_keep x l l' : ~ P x -> Without P l l' -> Without P (x :: l) (x :: l').
(* the rows of a trajectory file *)
Definition TrajFile (value : text -> res (option R)) (file : text) (rows : list (text * list (option R))) : Prop :=
  exists ls, Lines file ls /\ Forall2 (fun line r => TrajLine value line (fst r) (snd r)) (filter data_line ls) rows.
(* every stamp reads as a number or NaN *)
Definition readable (value : text -> res (option R)) (l : list text) : Prop := forall a, In a l -> exists v, value a = Ok v.
Definition num (v : option R) : R := match v with Some x => x | None => 0%R end.
