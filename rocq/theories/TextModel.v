(* Strings and text files, as used by gradslam/datasets.
   Python str restricted to code points below 256 ([ascii] = one such code point).  A file is the text that
   open(..., "r").read() returns, i.e. after universal-newline translation. *)
From Coq Require Import Ascii String List Arith Bool Reals ZArith.
From Verif Require Import Res.
Import ListNotations.
Local Open Scope nat_scope.

(* a Python str as a list of characters *)
Definition text := list ascii.
(* string literals *)
Definition txt (s : string) : text := list_ascii_of_string s.
(* \n *)
Definition newline : ascii := ascii_of_nat 10.
(* \t *)
Definition tab : ascii := ascii_of_nat 9.
(*   *)
Definition space : ascii := " "%char.
(* str.isspace for one code point below 256 *)
Definition is_space (c : ascii) : bool :=
  let n := nat_of_ascii c in ((9 <=? n) && (n <=? 13)) || ((28 <=? n) && (n <=? 32)) || (n =? 133) || (n =? 160).
(* a == b *)
Definition text_eqb (a b : text) : bool := if list_eq_dec ascii_dec a b then true else false.

(* str < str and tuple comparison rest on this three-way comparison by code points *)
Fixpoint text_cmp (a b : text) : comparison :=
  match a, b with
  | [], [] => Eq | [], _ => Lt | _, [] => Gt
  | x :: a', y :: b' => match nat_of_ascii x ?= nat_of_ascii y with Eq => text_cmp a' b' | c => c end
  end.

(* s.split(sep) for a one-character separator, here any character with p *)
Fixpoint split_if (p : ascii -> bool) (s : text) : list text :=
  match s with
  | [] => [[]]
  | x :: s' => match split_if p s' with
               | w :: ws => if p x then [] :: w :: ws else (x :: w) :: ws
               | [] => []
               end
  end.
(* s.split(c) *)
Definition split_on (c : ascii) : text -> list text := split_if (Ascii.eqb c).
(* s.replace(c, d) for one-character strings *)
Definition replace (c d : ascii) : text -> text := map (fun x => if Ascii.eqb c x then d else x).
(* s.lstrip() *)
Fixpoint lstrip (s : text) : text := match s with x :: s' => if is_space x then lstrip s' else s | [] => [] end.
(* s.strip() *)
Definition strip (s : text) : text := rev (lstrip (rev (lstrip s))).
(* len(s) > 0 *)
Definition nonempty {A} (s : list A) : bool := match s with [] => false | _ => true end.
(* s.split() *)
Definition split_ws (s : text) : list text := filter nonempty (split_if is_space s).
(* file.readlines(), without the line terminators (every caller strips them) *)
Definition readlines (file : text) : list text :=
  let l := split_on newline file in if nonempty (last l []) then l else removelast l.
(* sep.join(l) *)
Fixpoint join (sep : text) (l : list text) : text :=
  match l with [] => [] | [x] => x | x :: l' => x ++ sep ++ join sep l' end.
(* s[-n:] and s[:-n] for n > 0 *)
Definition last_n (n : nat) (s : text) : text := skipn (length s - n) s.
(* s[:-n] *)
Definition but_last_n (n : nat) (s : text) : text := firstn (length s - n) s.

(* l[start:end] for 0 <= start and any end *)
Definition slice_end (n : nat) (e : Z) : nat := if (e <? 0)%Z then Z.to_nat (Z.of_nat n + e) else Z.to_nat e.
(* l[start:e] *)
Definition slice {A} (start : nat) (e : Z) (l : list A) : list A := firstn (slice_end (length l) e - start) (skipn start l).
(* l[i] for i >= 0 *)
Definition item {A} (l : list A) (i : nat) : res A := match nth_error l i with Some x => Ok x | None => Err IndexError end.

(* dict(list of pairs): a repeated key keeps its first position and gets the last value *)
Definition dict (V : Type) := list (text * V).
(* d[k] = v *)
Fixpoint dict_set {V} (k : text) (v : V) (d : dict V) : dict V :=
  match d with
  | [] => [(k, v)]
  | (k', v') :: d' => if text_eqb k k' then (k', v) :: d' else (k', v') :: dict_set k v d'
  end.
(* dict(l) *)
Definition dict_of {V} (l : list (text * V)) : dict V := fold_left (fun d kv => dict_set (fst kv) (snd kv) d) l [].
(* d[k] *)
Fixpoint dict_find {V} (k : text) (d : dict V) : option V :=
  match d with [] => None | (k', v) :: d' => if text_eqb k k' then Some v else dict_find k d' end.
(* d[k] *)
Definition dict_get {V} (k : text) (d : dict V) : res V := match dict_find k d with Some v => Ok v | None => Err KeyError end.
(* d.keys() *)
Definition keys {V} (d : dict V) : list text := map fst d.
