(* Vocabulary for C87 and C88: when a tape runs without inf and nan, and the slope along a curve. *)
From Coq Require Import Reals List Arith Bool.
From Verif Require Import TapeModel.
Import ListNotations.
Local Open Scope R_scope.

(* real numbers, as inputs *)
Definition reals (env : list R) : list xr := map Fin env.
(* neither inf nor nan *)
Definition is_real (a : xr) : Prop := exists r, a = Fin r.
(* entry i of the inputs and results so far *)
Definition rget (env : list R) (i : nat) : R := nth i env 0.

(* the operation has a real result and real partial derivatives *)
Definition tame_op (o : op) (env : list R) : Prop :=
  let v := rget env in
  match o with
  | ODiv _ j => v j <> 0
  | ORecip i => v i <> 0
  | OSqrt i => 0 < v i
  | OAtan2 i j => v i <> 0 \/ v j <> 0
  | OPowR i _ => 0 < v i
  | _ => True
  end.
(* a condition that does not switch at this very value *)
Definition away (c : cond) (env : list R) : Prop :=
  let v := rget env in
  match c with
  | CGt i r | CLt i r => v i <> r
  | CAbsGt i r => Rabs (v i) <> r
  | CEq0 i | CNe0 i => v i <> 0
  end.
(* the operation is moreover differentiable there *)
Definition smooth_op (o : op) (env : list R) : Prop :=
  tame_op o env /\
  let v := rget env in
  match o with
  | OAtan2 i j => v j <> 0 /\ (0 < v j \/ v i <> 0)
  | ONorm l => exists i, In i l /\ v i <> 0
  | OWhere c _ _ => away c env
  | OClamp lo hi i => (forall r, lo = Some r -> v i <> r) /\ (forall r, hi = Some r -> v i <> r)
  | _ => True
  end.
(* the result of an operation, when it is a real number *)
Definition real_of (a : xr) : R := match a with Fin r => r | _ => 0 end.
(* every operation of the tape satisfies P *)
Fixpoint along (P : op -> list R -> Prop) (p : list op) (env : list R) : Prop :=
  match p with [] => True | o :: p' => P o env /\ along P p' (env ++ [real_of (xop o (reals env))]) end.
Definition tame : list op -> list R -> Prop := along tame_op.
Definition smooth : list op -> list R -> Prop := along smooth_op.

(* the output, as a function of real inputs *)
Definition value (p : list op) (env : list R) : R := real_of (xout p (reals env)).
(* the gradients of the inputs *)
Definition grads (p : list op) (env : list R) : list xr := xbwd p (reals env).
(* x_0 d_0 + x_1 d_1 + ... *)
Fixpoint inner (a b : list R) : R := match a, b with x :: a', y :: b' => x * y + inner a' b' | _, _ => 0 end.
(* the inputs move along a curve, with velocities d *)
Definition moves (e : list (R -> R)) (t0 : R) (d : list R) : Prop := Forall2 (fun f v => derivable_pt_lim f t0 v) e d.
Definition at_time (e : list (R -> R)) (t : R) : list R := map (fun f => f t) e.
(* the gradients are real numbers and predict the slope of f along every curve through env *)
Definition right_gradient (p : list op) (f : list R -> R) (env : list R) : Prop :=
  exists g, grads p env = reals g /\ length g = length env /\
  forall e t0 d, at_time e t0 = env -> moves e t0 d ->
  derivable_pt_lim (fun t => f (at_time e t)) t0 (inner g d).
