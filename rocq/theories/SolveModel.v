(* torch.inverse on square matrices of any size (external library), modelled by exact Gaussian elimination.
   torch pivots on the entry of largest magnitude; over exact reals every non-zero pivot gives the same inverse,
   so the first non-zero one is used. *)
From Coq Require Import Reals List Arith Bool.
From Verif Require Import Res MatSpec TensorModel.
Import ListNotations.
Local Open Scope R_scope.

(* pivot test of the elimination that stands for torch.inverse *)
Definition nonzero_dec (x : R) : bool := if Req_EM_T x 0 then false else true.
(* exchange rows 0 and p *)
Definition swap0 {X} (p : nat) (f : nat -> X) : nat -> X :=
  fun i => f (if Nat.eqb i 0 then p else if Nat.eqb i p then 0%nat else i).
(* the solution of M x = b for an n x n matrix; None when M is singular *)
Fixpoint gauss (n : nat) (M : mat) (b : vec) : option vec :=
  match n with
  | O => Some (fun _ => 0)
  | S m =>
      match find (fun i => nonzero_dec (M i 0%nat)) (seq 0 n) with
      | None => None
      | Some p =>
          let M1 := swap0 p M in
          let b1 := swap0 p b in
          let f i := M1 (S i) 0%nat / M1 0%nat 0%nat in
          match gauss m (fun i j => M1 (S i) (S j) - f i * M1 0%nat (S j)) (fun i => b1 (S i) - f i * b1 0%nat) with
          | None => None
          | Some x => Some (fun j => match j with
              | O => (b1 0%nat - rsum m (fun k => M1 0%nat (S k) * x k)) / M1 0%nat 0%nat
              | S k => x k
              end)
          end
      end
  end.

(* torch.inverse did not raise *)
Definition is_solved (o : option vec) : bool := match o with Some _ => true | None => false end.
(* torch.inverse of one square matrix: column j solves M x = e_j; RuntimeError when singular or not square *)
Definition torch_inverse_2d (x : ten R) : res (ten R) :=
  match dims x with
  | [d0; d1] =>
      if Nat.eqb d0 d1 then
        let col j := gauss d0 (ent x []) (fun i => delta i j) in
        if forallb (fun j => is_solved (col j)) (seq 0 d0)
        then Ok (mkTen [d0; d0] (fun ix => match ix with
               | [j; i] => match col j with Some v => v i | None => 0 end | _ => 0 end))
        else Err RuntimeError
      else Err RuntimeError
  | _ => Err Unmodelled
  end.
