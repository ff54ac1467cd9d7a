(* What the text of a configuration should be. *)
From Coq Require Import String Ascii List Bool Arith Sorted Permutation.
From Verif Require Import ConfigModel ConfigSpec.
Import ListNotations.
Local Open Scope string_scope.
Local Open Scope list_scope.
Local Open Scope nat_scope.

Definition newline : ascii := "010"%char.
Fixpoint occurs (c : ascii) (s : string) : Prop := match s with EmptyString => False | String a r => a = c \/ occurs c r end.
Definition one_line (s : string) : Prop := ~ occurs newline s.
(* a key without newline and colon that does not begin with a blank *)
Definition plain_key (k : string) : Prop := one_line k /\ ~ occurs ":" k /\ (forall r, k <> String " " r).

(* text x is what str(x) gives for a value that is not a CfgNode; str_of computes it *)
Definition prints (str_of : heap -> val -> string) (text : tree -> string) : Prop :=
  forall h v t, Reads h v t -> ~ is_cfg t -> str_of h v = text t.

(* all keys, down to the leaves, satisfy Q *)
Inductive keys_are (Q : string -> Prop) : tree -> Prop :=
| K_leaf t : ~ is_cfg t -> keys_are Q t
| K_node m d : (forall k x, In (k, x) d -> Q k /\ keys_are Q x) -> keys_are Q (TNode m d).

(* the same keys with values that print the same, at every depth; the order of the entries does not matter *)
Inductive alike (text : tree -> string) : tree -> tree -> Prop :=
| Al_leaf t t' : ~ is_cfg t -> ~ is_cfg t' -> text t = text t' -> alike text t t'
| Al_node m d m' d' : (forall k, In k (keys d) <-> In k (keys d')) ->
    (forall k x x', In (k, x) d -> In (k, x') d' -> alike text x x') -> alike text (TNode m d) (TNode m' d').

(* the lines of the text with their depth: keys in increasing order, the first line of a value after its key, its other
   lines below and one level deeper, as are the entries of a CfgNode; an empty CfgNode is an empty line *)
Definition joined (l : list string) : string := String.concat (String newline EmptyString) l.
Definition deeper (ls : list (nat * string)) : list (nat * string) := map (fun q => (S (fst q), snd q)) ls.
Inductive Shows (text : tree -> string) : tree -> list (nat * string) -> Prop :=
| Sh_empty m : Shows text (TNode m []) [(0, EmptyString)]
| Sh_node m d d' ls : d <> [] -> Permutation d d' -> StronglySorted (fun a b => String.compare a b = Lt) (keys d') ->
    Shows_items text d' ls -> Shows text (TNode m d) ls
with Shows_items (text : tree -> string) : list (string * tree) -> list (nat * string) -> Prop :=
| Si_nil : Shows_items text [] []
| Si_leaf k x d s more ls : ~ is_cfg x -> text x = joined (s :: more) -> Forall one_line (s :: more) -> Shows_items text d ls ->
    Shows_items text ((k, x) :: d) ((0, (k ++ ": " ++ s)%string) :: deeper (map (fun r => (0, r)) more) ++ ls)
| Si_node k x d lx ls : Shows text x lx -> Shows_items text d ls ->
    Shows_items text ((k, x) :: d) ((0, (k ++ ":")%string) :: deeper lx ++ ls).
(* two blanks per level *)
Fixpoint margin (n : nat) : string := match n with 0 => EmptyString | S m => ("  " ++ margin m)%string end.
Definition page (ls : list (nat * string)) : string :=
  joined (map (fun q => (margin (fst q) ++ snd q)%string) ls).
