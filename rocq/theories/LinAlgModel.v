(* External linear algebra used by the code: torch.inverse and numpy.linalg.inv on 4x4 matrices, modelled
   by the exact inverse (adjugate over determinant), with an error for singular matrices. *)
From Coq Require Import Reals List Arith Bool.
From Verif Require Import Res MatSpec TensorModel.
Import ListNotations.
Local Open Scope R_scope.

(* the 3x3 matrix left after deleting row i and column j *)
Definition submat (A : mat) (i j : nat) : mat :=
  fun a b => A (if Nat.ltb a i then a else S a) (if Nat.ltb b j then b else S b).
(* 4x4 cofactor (external: torch.inverse) *)
Definition cofactor (A : mat) (i j : nat) : R :=
  (if Nat.even (i + j) then 1 else -1) * det3 (submat A i j).
(* determinant *)
Definition det4 (A : mat) : R := rsum 4 (fun j => A 0%nat j * cofactor A 0 j).
(* inverse by cofactors *)
Definition inv4 (A : mat) : mat := fun i j => cofactor A j i / det4 A.

(* all indices of a tensor with extents s *)
Fixpoint all_ix (s : list nat) : list (list nat) :=
  match s with
  | [] => [[]]
  | d :: s' => flat_map (fun r => map (fun i => i :: r) (seq 0 d)) (all_ix s')
  end.

(* torch.inverse: batches of square matrices, RuntimeError when some slice is singular or not square.
   Only the 4x4 case is modelled. *)
Definition torch_inverse (x : ten R) : res (ten R) :=
  match dims x with
  | d0 :: d1 :: s =>
      if Nat.eqb d0 d1 then
        if Nat.eqb d0 4 then
          if forallb (fun r => if Req_EM_T (det4 (ent x r)) 0 then false else true) (all_ix s)
          then Ok (mkTen (dims x) (fun ix => match ix with
                     | j :: i :: r => inv4 (ent x r) i j | _ => 0 end))
          else Err RuntimeError
        else Err Unmodelled
      else Err RuntimeError
  | _ => Err RuntimeError
  end.

(* numpy.linalg.inv on one 4x4 matrix; LinAlgError is a subclass of ValueError *)
Definition np_inv (A : mat) : res mat :=
  if Req_EM_T (det4 A) 0 then Err ValueError else Ok (inv4 A).
