(* Specification vocabulary for C75: source positions at which registration has nothing to correct. *)
From Coq Require Import Reals List Arith Bool ZArith.
From Verif Require Import Res MatSpec TensorModel IcpModel IcpSpec.
Import ListNotations.
Local Open Scope R_scope.

(* source point i takes part in the registration at the positions s *)
Definition takes_part (nn : nnfun) (keep : R -> bool) (ns nt : nat) (d s : nat -> vec) (i : nat) : Prop :=
  (i < ns)%nat /\ keep (dist2 3 (s i) (d (match_of nn nt d (s i)))) = true.
(* the force (the residual along the normal) and the torque of the residuals of the points that take part sum to zero:
   the gradient of the linearised error at the identity twist vanishes *)
Definition balanced (nn : nnfun) (keep : R -> bool) (ns nt : nat) (d n s : nat -> vec) : Prop :=
  let kept i := keep (dist2 3 (s i) (d (match_of nn nt d (s i)))) in
  let normal i := n (match_of nn nt d (s i)) in
  let res i := plane_res (normal i) (d (match_of nn nt d (s i))) (s i) in
  forall k, (k < 3)%nat ->
    rsum ns (fun i => if kept i then res i * normal i k else 0) = 0 /\
    rsum ns (fun i => if kept i then res i * cross (s i) (normal i) k else 0) = 0.
(* every position of the source is a position of the target *)
Definition on_target (ns nt : nat) (d s : nat -> vec) : Prop :=
  forall i, (i < ns)%nat -> exists j, (j < nt)%nat /\ veq 3 (s i) (d j).
