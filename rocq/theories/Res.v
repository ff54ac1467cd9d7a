(* Exceptions as values, and a small state-and-exception monad in which the state
   survives an exception (as it does for a Python object). *)
From Coq Require Import List.
Import ListNotations.

(* Python exception classes that the modelled code can raise.  Messages are not modelled. *)
Inductive exn : Type :=
| TypeError | ValueError | IndexError | KeyError | AttributeError | AssertionError
| RuntimeError | NotImplementedError | NameError | UnboundLocalError | ZeroDivisionError
| Unmodelled.   (* the code would go on, but outside what the model represents *)

(* result or exception *)
Inductive res (A : Type) : Type :=
| Ok (a : A)
| Err (e : exn).
Arguments Ok {A} a.
Arguments Err {A} e.

(* sequencing; an exception skips the rest *)
Definition rbind {A B} (r : res A) (k : A -> res B) : res B :=
  match r with Ok a => k a | Err e => Err e end.
(* apply a function to the result *)
Definition rmap {A B} (f : A -> B) (r : res A) : res B :=
  match r with Ok a => Ok (f a) | Err e => Err e end.
(* if not b: raise e *)
Definition guard (b : bool) (e : exn) : res unit := if b then Ok tt else Err e.
(* no exception *)
Definition is_ok {A} (r : res A) : bool := match r with Ok _ => true | Err _ => false end.

Declare Scope res_scope.
Delimit Scope res_scope with res.
Notation "'let?' x ':=' e 'in' f" := (rbind e (fun x => f))
  (at level 200, x pattern, right associativity) : res_scope.
Notation "e ';;?' f" := (rbind e (fun _ => f)) (at level 100, right associativity) : res_scope.
Open Scope res_scope.

(* a Python [for] loop / list comprehension whose body may raise: left to right, first error wins *)
Fixpoint mapM {A B} (f : A -> res B) (l : list A) : res (list B) :=
  match l with
  | [] => Ok []
  | x :: l' => let? y := f x in let? ys := mapM f l' in Ok (y :: ys)
  end.

(* State and exceptions: [M S A] *)
Definition M (S A : Type) : Type := S -> res A * S.
(* return a *)
Definition ret {S A} (a : A) : M S A := fun s => (Ok a, s).
(* raise e *)
Definition raise {S A} (e : exn) : M S A := fun s => (Err e, s).
(* sequencing of methods on an object; an exception keeps the changes made so far *)
Definition mbind {S A B} (m : M S A) (k : A -> M S B) : M S B :=
  fun s => match m s with (Ok a, s') => k a s' | (Err e, s') => (Err e, s') end.
(* a call that does not touch the object *)
Definition lift {S A} (r : res A) : M S A := fun s => (r, s).
(* read the object *)
Definition get {S} : M S S := fun s => (Ok s, s).
(* replace the object *)
Definition put {S} (s : S) : M S unit := fun _ => (Ok tt, s).
(* update the object *)
Definition modify {S} (f : S -> S) : M S unit := fun s => (Ok tt, f s).

Declare Scope m_scope.
Delimit Scope m_scope with m.
Notation "'do' x '<-' e ';' f" := (mbind e (fun x => f))
  (at level 200, x pattern, e at level 99, right associativity) : m_scope.
Notation "e ';;;' f" := (mbind e (fun _ => f)) (at level 100, right associativity) : m_scope.
Open Scope m_scope.
