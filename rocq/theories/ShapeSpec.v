(* Which shapes of points and matrices the projection functions are documented to combine.
   Extents are listed from the last dimension to the first (TensorModel). *)
From Coq Require Import Reals List Arith.
From Verif Require Import TensorModel.
Import ListNotations.
Local Open Scope nat_scope.

Definition sub_or_one (p c : nat) : Prop := p = c \/ p = 1.
(* the documented shapes: points (..., k-1) or (..., k) of rank at least 2; one k x k matrix, or a batch of
   matrices of the same rank as the points with the same first extent *)
Definition doc_shapes (k : nat) (m pts : ten R) : Prop :=
  exists d n cb pb, dims pts = d :: n :: cb /\ (d = k - 1 \/ d = k) /\ dims m = k :: k :: pb /\
    (pb = [] \/ (length pb = length cb /\ last pb 0 = last cb 0)).

(* one shared matrix, or a batch of matrices that broadcasts to the points' leading extents *)
Definition cameras (pb cb : list nat) : Prop :=
  pb = [] \/ (Forall2 sub_or_one pb cb /\ last pb 0 = last cb 0).

