(* Model of CfgNode.__str__, cfgnode.py:144-163.
   Simplifications: keys are strings (as in ConfigModel.v), so sorted(self.items()) never compares two values: keys are
   distinct; the text Python gives for a value that is not a CfgNode (str(v)) is the parameter str_of. *)
From Coq Require Import String Ascii List Bool Arith.
From Verif Require Import ConfigModel.
Import ListNotations.
Local Open Scope string_scope.
Local Open Scope list_scope.
Local Open Scope nat_scope.

(* "\n" *)
Definition nl : ascii := "010"%char.
(* s.split("\n") *)
Fixpoint split_nl (s : string) : list string :=
  match s with
  | EmptyString => [EmptyString]
  | String c r => if Ascii.eqb c nl then EmptyString :: split_nl r
                  else match split_nl r with [] => [String c EmptyString] | x :: l => String c x :: l end
  end.
(* "\n".join(l) *)
Definition join_nl (l : list string) : string := String.concat (String nl EmptyString) l.
(* num_spaces * " " *)
Fixpoint blanks (n : nat) : string := match n with 0 => EmptyString | S m => String " "%char (blanks m) end.
(* cfgnode.py:145-153 _indent *)
Definition indent (s_ : string) (num_spaces : nat) : string :=
  match split_nl s_ with
  | [] | [_] => s_
  | first :: s => (first ++ String nl EmptyString ++ join_nl (map (fun line => blanks num_spaces ++ line) s))%string
  end.
(* sorted(self.items()): by key, code point by code point *)
Fixpoint insert {A} (e : string * A) (l : list (string * A)) : list (string * A) :=
  match l with [] => [e] | x :: r => if String.leb (fst e) (fst x) then e :: l else x :: insert e r end.
(* see insert *)
Definition sorted {A} (l : list (string * A)) : list (string * A) := fold_right insert [] l.
(* the loop of cfgnode.py:157-161 *)
Fixpoint each (f : string -> val -> M string) (l : items) : M (list string) :=
  match l with [] => ret [] | (k, v) :: r => let! s := f k v in let! ss := each f r in ret (s :: ss) end.

(* cfgnode.py:144-163 __str__ *)
Fixpoint cfg_str (str_of : heap -> val -> string) (fuel : nat) (self : val) : M string :=
  match fuel with
  | 0 => throw XRecursion
  | S n => fun h =>
      match self with
      | VRef l =>
          match nth_error h l with
          | Some (ONode _ d) =>
              (let! s := each (fun k v => fun h =>
                 match type_of h v with
                 | TyNode => (let! t := cfg_str str_of n v in ret (indent (k ++ ":" ++ String nl EmptyString ++ t)%string 2)) h
                 | _ => ret (indent (k ++ ":" ++ " " ++ str_of h v)%string 2) h
                 end) (sorted d) in
               ret (join_nl s)) h
          | _ => throw XStuck h
          end
      | _ => throw XStuck h
      end
  end.
