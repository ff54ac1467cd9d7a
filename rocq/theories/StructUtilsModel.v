(* Model of gradslam/structures/structutils.py: list_to_padded, padded_to_list.
   Tensors are row-major nested lists that carry the extents which the nested list alone
   does not determine (the number of columns of a tensor without rows, ...). *)
From Coq Require Import List Arith ZArith Bool.
From Verif Require Import Res Fld.
Import ListNotations.
Local Open Scope nat_scope.

Section StructUtils.
Context {A : Type}.

(* a 2-D tensor of shape (length rows, cols) *)
Record t2 : Type := mkT2 { t2c : nat; t2r : list (list A) }.
(* a 3-D tensor of shape (length slabs, rows, cols) *)
Record t3 : Type := mkT3 { t3n : nat; t3c : nat; t3d : list (list (list A)) }.

(* x.shape[0] *)
Definition t2n (x : t2) : nat := length (t2r x).
(* x.shape of a 2-d tensor *)
Definition t2shape (x : t2) : nat * nat := (t2n x, t2c x).
(* x.shape[0] of a 3-d tensor *)
Definition t3b (x : t3) : nat := length (t3d x).
(* x.shape of a 3-d tensor *)
Definition t3shape (x : t3) : nat * nat * nat := (t3b x, t3n x, t3c x).

(* well-formed: the nested lists have the declared extents (always true of a tensor) *)
Definition t2wf (x : t2) : Prop := Forall (fun r => length r = t2c x) (t2r x).
(* the rows and slabs have the extents that the shape says *)
Definition t3wf (x : t3) : Prop :=
  Forall (fun m => length m = t3n x /\ Forall (fun r => length r = t3c x) m) (t3d x).

(* equality of shapes *)
Definition pair_eqb (p q : nat * nat) : bool :=
  (fst p =? fst q) && (snd p =? snd q).

(* max of a Python iterable: ValueError when empty *)
Definition py_max (l : list nat) : res nat :=
  match l with [] => Err ValueError | x :: l' => Ok (fold_left Nat.max l' x) end.

(* structutils.py:85: x_padded[i, : y.shape[0], : y.shape[1]] = y.
   The slice is clipped to the slab (d0 x d1); torch accepts the assignment when each extent of y
   equals the clipped extent or is 1 (broadcast). *)
Definition assign_ok (n d : nat) : bool := (n <=? d) || (n =? 1).
(* structutils.py:78-85: one row of the padded slab *)
Definition fill_row (v : A) (d1 : nat) (r : list A) : list A :=
  firstn d1 r ++ repeat v (d1 - length r).
(* structutils.py:78-85: one slab, full_like(pad_value) overwritten by the rows *)
Definition fill_slab (v : A) (d0 d1 : nat) (rows : list (list A)) : list (list A) :=
  firstn d0 (map (fill_row v d1) rows) ++ repeat (repeat v d1) (d0 - length rows).

(* structutils.py:85: the slice assignment for one item, RuntimeError when it does not fit *)
Definition fill_item (v : A) (d0 d1 : nat) (y : t2) : res (list (list A)) :=
  if t2n y =? 0 then Ok (repeat (repeat v d1) d0)
  else if assign_ok (t2n y) d0 && assign_ok (t2c y) d1
       then Ok (fill_slab v d0 d1 (t2r y))
       else Err RuntimeError.

(* torch.stack(x, 0) *)
Definition stack (x : list t2) : res t3 :=
  match x with
  | [] => Err RuntimeError
  | y :: _ =>
      if forallb (fun z => pair_eqb (t2shape z) (t2shape y)) x
      then Ok (mkT3 (t2n y) (t2c y) (map t2r x))
      else Err RuntimeError
  end.

(* structutils.py:47-86.  Items are 2-D here (the code raises ValueError for non-empty items of
   another rank when not equisized). *)
Definition list_to_padded (x : list t2) (pad_size : option (list nat)) (pad_value : A)
    (equisized : bool) : res t3 :=
  if equisized then stack x
  else
    let? (d0, d1) :=
      match pad_size with
      | None =>
          let ne := filter (fun y => negb (t2n y =? 0)) x in
          let? d0 := py_max (map t2n ne) in
          let? d1 := py_max (map t2c ne) in
          Ok (d0, d1)
      | Some ps =>
          match ps with [d0; d1] => Ok (d0, d1) | _ => Err ValueError end
      end in
    match x with
    | [] => Err IndexError
    | _ => let? slabs := mapM (fill_item pad_value d0 d1) x in Ok (mkT3 d0 d1 slabs)
    end.

(* Python/torch prefix slice [: k] *)
Definition prefix {B} (k : Z) (l : list B) : list B :=
  if (k <? 0)%Z then firstn (length l - Z.to_nat (- k)) l else firstn (Z.to_nat k) l.
(* length of x[:k] for k of either sign *)
Definition prefix_len (k : Z) (n : nat) : nat :=
  if (k <? 0)%Z then n - Z.to_nat (- k) else Nat.min (Z.to_nat k) n.

(* structutils.py:89-124: an entry of split_size: int or sequence of ints *)
Inductive split := SplitInt (k : Z) | SplitSeq (ks : list Z).

(* structutils.py:89-124 *)
Definition split_item (c : nat) (m : list (list A)) (s : split) : res t2 :=
  match s with
  | SplitInt k => Ok (mkT2 c (prefix k m))
  | SplitSeq [k0; k1] => Ok (mkT2 (prefix_len k1 c) (map (prefix k1) (prefix k0 m)))
  | SplitSeq _ => Err ValueError
  end.

(* structutils.py:89-124 padded_to_list *)
Definition padded_to_list (x : t3) (split_size : option (list split)) : res (list t2) :=
  match split_size with
  | None => Ok (map (mkT2 (t3c x)) (t3d x))
  | Some ss =>
      if negb (t3b x =? length ss) then Err ValueError
      else mapM (fun p => split_item (t3c x) (fst p) (snd p)) (combine (t3d x) ss)
  end.

End StructUtils.
Arguments t2 A : clear implicits.
Arguments t3 A : clear implicits.
