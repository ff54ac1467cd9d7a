(* Elementary mathematics used in statements: finite sums, matrices as functions of two indices,
   rotations, rigid 4x4 transforms, matrix powers and the exponential series. No code is modelled here. *)
From Coq Require Import Reals List Arith.
Import ListNotations.
Local Open Scope R_scope.

(* f 0 + f 1 + ... + f (n-1) *)
Fixpoint rsum (n : nat) (f : nat -> R) : R :=
  match n with O => 0 | S k => rsum k f + f k end.

Definition vec := nat -> R.
Definition mat := nat -> nat -> R.

Definition delta (i j : nat) : R := if Nat.eqb i j then 1 else 0.
Definition mI : mat := delta.
Definition mmul (n : nat) (A B : mat) : mat := fun i j => rsum n (fun k => A i k * B k j).
Definition mvec (n : nat) (A : mat) (v : vec) : vec := fun i => rsum n (fun k => A i k * v k).
Definition mtr (A : mat) : mat := fun i j => A j i.
Definition madd (A B : mat) : mat := fun i j => A i j + B i j.
Definition mscale (c : R) (A : mat) : mat := fun i j => c * A i j.
Definition dot (n : nat) (u v : vec) : R := rsum n (fun k => u k * v k).
Definition norm (n : nat) (u : vec) : R := sqrt (dot n u u).
Definition dist2 (n : nat) (u v : vec) : R := rsum n (fun k => (u k - v k) * (u k - v k)).

(* equality on the n x m block *)
Definition meq (n m : nat) (A B : mat) : Prop := forall i j, (i < n)%nat -> (j < m)%nat -> A i j = B i j.
Definition veq (n : nat) (u v : vec) : Prop := forall i, (i < n)%nat -> u i = v i.

Definition det3 (A : mat) : R :=
  A 0%nat 0%nat * (A 1%nat 1%nat * A 2%nat 2%nat - A 1%nat 2%nat * A 2%nat 1%nat)
  - A 0%nat 1%nat * (A 1%nat 0%nat * A 2%nat 2%nat - A 1%nat 2%nat * A 2%nat 0%nat)
  + A 0%nat 2%nat * (A 1%nat 0%nat * A 2%nat 1%nat - A 1%nat 1%nat * A 2%nat 0%nat).

Definition orthogonal3 (Q : mat) : Prop := meq 3 3 (mmul 3 (mtr Q) Q) mI /\ meq 3 3 (mmul 3 Q (mtr Q)) mI.
Definition rotation3 (Q : mat) : Prop := orthogonal3 Q /\ det3 Q = 1.

(* the 3x3 block, the translation column *)
Definition rot_of (T : mat) : mat := T.
Definition tr_of (T : mat) : vec := fun i => T i 3%nat.

(* last row (0,0,0,1) *)
Definition affine4 (T : mat) : Prop :=
  T 3%nat 0%nat = 0 /\ T 3%nat 1%nat = 0 /\ T 3%nat 2%nat = 0 /\ T 3%nat 3%nat = 1.
Definition rigid4 (T : mat) : Prop := affine4 T /\ rotation3 (rot_of T).

(* the action of a 4x4 affine transform on a 3-vector: R p + t *)
Definition act (T : mat) (p : vec) : vec := fun i => mvec 3 (rot_of T) p i + tr_of T i.

(* matrix inverse (both sides) on n x n *)
Definition inverse_of (n : nat) (A B : mat) : Prop :=
  meq n n (mmul n A B) mI /\ meq n n (mmul n B A) mI.

(* powers and the exponential series: E is exp(A) on the n x n block *)
Fixpoint mpow (n : nat) (A : mat) (k : nat) : mat :=
  match k with O => mI | S k' => mmul n (mpow n A k') A end.
Definition is_mexp (n : nat) (A E : mat) : Prop :=
  forall i j, (i < n)%nat -> (j < n)%nat ->
    infinite_sum (fun k => / INR (fact k) * mpow n A k i j) (E i j).

(* cross product of 3-vectors *)
Definition cross (u v : vec) : vec := fun i =>
  match i with
  | 0%nat => u 1%nat * v 2%nat - u 2%nat * v 1%nat
  | 1%nat => u 2%nat * v 0%nat - u 0%nat * v 2%nat
  | _ => u 0%nat * v 1%nat - u 1%nat * v 0%nat
  end.

(* vectors and matrices written by components *)
Definition vec3 (x y z : R) : vec := fun i => match i with 0%nat => x | 1%nat => y | _ => z end.
