(* Model of what PyTorch computes, forward and backward, for the element-wise formulas of gradslam, with the special
   values inf and nan.
   A tape is the list of operations in the order in which they run; the operands are earlier results.  The
   backward pass visits them in reverse and adds to the gradient of each operand (torch.autograd, the formulas of
   derivatives.yaml of PyTorch 1.6, the oldest version gradslam accepts, requirements.txt).
   Simplifications: finite values are exact (no rounding, overflow or underflow); zero has no sign (1/0 is +inf);
   atan2 of infinite arguments is not modelled (nan). *)
From Coq Require Import Reals List Arith Bool.
From Verif Require Import GeomModel.
Import ListNotations.
Local Open Scope R_scope.

(* ---------------- numbers ---------------- *)
Inductive xr := Fin (r : R) | PInf | NInf | NaN.
(* x > 0, as a boolean *)
Definition pos (r : R) : bool := if Rlt_dec 0 r then true else false.
(* x == 0 *)
Definition zero (r : R) : bool := if Req_EM_T r 0 then true else false.
(* -x *)
Definition xopp (a : xr) : xr := match a with Fin r => Fin (- r) | PInf => NInf | NInf => PInf | NaN => NaN end.
(* x + y *)
Definition xadd (a b : xr) : xr :=
  match a, b with
  | Fin r, Fin s => Fin (r + s)
  | NaN, _ | _, NaN => NaN
  | PInf, NInf | NInf, PInf => NaN
  | PInf, _ | _, PInf => PInf
  | NInf, _ | _, NInf => NInf
  end.
(* an infinity with the sign of r (r = 0 counts as positive) *)
Definition inf_of (r : R) : xr := if Rlt_dec r 0 then NInf else PInf.
(* x * y: 0 * inf is nan *)
Definition xmul (a b : xr) : xr :=
  match a, b with
  | Fin r, Fin s => Fin (r * s)
  | NaN, _ | _, NaN => NaN
  | Fin r, i | i, Fin r => if zero r then NaN else if pos r then i else xopp i
  | PInf, PInf | NInf, NInf => PInf
  | _, _ => NInf
  end.
(* x / y: 0/0 and inf/inf are nan, x/0 is an infinity *)
Definition xdiv (a b : xr) : xr :=
  match a, b with
  | NaN, _ | _, NaN => NaN
  | Fin r, Fin s => if zero s then (if zero r then NaN else inf_of r) else Fin (r / s)
  | Fin r, _ => Fin 0
  | i, Fin s => if Rlt_dec s 0 then xopp i else i
  | _, _ => NaN
  end.
(* sqrt(x) *)
Definition xsqrt (a : xr) : xr :=
  match a with Fin r => if Rlt_dec r 0 then NaN else Fin (sqrt r) | PInf => PInf | _ => NaN end.
(* exp(x) *)
Definition xexp (a : xr) : xr := match a with Fin r => Fin (exp r) | PInf => PInf | NInf => Fin 0 | NaN => NaN end.
(* a function without limits at infinity *)
Definition xfun (f : R -> R) (a : xr) : xr := match a with Fin r => Fin (f r) | _ => NaN end.
(* atan2(x, y) *)
Definition xatan2 (a b : xr) : xr := match a, b with Fin r, Fin s => Fin (atan2 r s) | _, _ => NaN end.
(* the entries of a gradient or a result *)
Fixpoint xsum (l : list xr) : xr := match l with [] => Fin 0 | a :: l' => xadd a (xsum l') end.
(* x ** n for an integer n *)
Fixpoint xpow (a : xr) (n : nat) : xr := match n with O => Fin 1 | S n' => xmul a (xpow a n') end.
(* x ** r for a real r, x > 0 *)
Definition xpowr (r : R) (a : xr) : xr :=
  match a with Fin x => if pos x then Fin (Rpower x r) else NaN | _ => NaN end.

(* ---------------- operations ---------------- *)
(* the condition of torch.where: x > r, x < r, |x| > r, x == 0, x != 0 *)
Inductive cond := CGt (i : nat) (r : R) | CLt (i : nat) (r : R) | CAbsGt (i : nat) (r : R) | CEq0 (i : nat) | CNe0 (i : nat).
Inductive op :=
| OConst (r : R)                                   (* ones_like, a Python number *)
| OAdd (i j : nat) | OSub (i j : nat) | OMul (i j : nat) | ODiv (i j : nat)
| OAddC (r : R) (i : nat)                          (* x + r *)
| OScale (r : R) (i : nat)                         (* r * x, x / (1/r) for a number *)
| ORecip (i : nat)                                 (* 1 / x is x.reciprocal() * 1 *)
| OSqrt (i : nat) | OExp (i : nat) | OSin (i : nat) | OCos (i : nat)
| OAtan2 (i j : nat)
| OPow (i : nat) (n : nat)                         (* x ** n *)
| OPowR (i : nat) (r : R)                          (* x ** r *)
| ONorm (l : list nat)                             (* x.norm(dim) *)
| OWhere (c : cond) (i j : nat)                    (* torch.where *)
| OClamp (lo : option R) (hi : option R) (i : nat).  (* x.clamp(lo, hi) *)

(* an earlier result *)
Definition xget (env : list xr) (i : nat) : xr := nth i env (Fin 0).
(* x > r; false for nan *)
Definition xgt (a : xr) (r : R) : bool :=
  match a with Fin x => if Rlt_dec r x then true else false | PInf => true | _ => false end.
(* x < r *)
Definition xlt (a : xr) (r : R) : bool :=
  match a with Fin x => if Rlt_dec x r then true else false | NInf => true | _ => false end.
(* x == 0 *)
Definition xis0 (a : xr) : bool := match a with Fin x => zero x | _ => false end.
(* the boolean tensor *)
Definition xcond (c : cond) (env : list xr) : bool :=
  match c with
  | CGt i r => xgt (xget env i) r
  | CLt i r => xlt (xget env i) r
  | CAbsGt i r => match xget env i with Fin x => if Rlt_dec r (Rabs x) then true else false | NaN => false | _ => true end
  | CEq0 i => xis0 (xget env i)
  | CNe0 i => negb (xis0 (xget env i))
  end.
(* x below lo, above hi *)
Definition below (lo : option R) (a : xr) : bool := match lo with Some r => xlt a r | None => false end.
Definition above (hi : option R) (a : xr) : bool := match hi with Some r => xgt a r | None => false end.
(* max(x, lo), min(x, hi) *)
Definition xclamp (lo hi : option R) (a : xr) : xr :=
  let b := if below lo a then match lo with Some r => Fin r | None => a end else a in
  if above hi b then match hi with Some r => Fin r | None => b end else b.
(* forward *)
Definition xop (o : op) (env : list xr) : xr :=
  let v := xget env in
  match o with
  | OConst r => Fin r
  | OAdd i j => xadd (v i) (v j)
  | OSub i j => xadd (v i) (xopp (v j))
  | OMul i j => xmul (v i) (v j)
  | ODiv i j => xdiv (v i) (v j)
  | OAddC r i => xadd (v i) (Fin r)
  | OScale r i => xmul (Fin r) (v i)
  | ORecip i => xdiv (Fin 1) (v i)
  | OSqrt i => xsqrt (v i)
  | OExp i => xexp (v i)
  | OSin i => xfun sin (v i)
  | OCos i => xfun cos (v i)
  | OAtan2 i j => xatan2 (v i) (v j)
  | OPow i n => xpow (v i) n
  | OPowR i r => xpowr r (v i)
  | ONorm l => xsqrt (xsum (map (fun i => xmul (v i) (v i)) l))
  | OWhere c i j => if xcond c env then v i else v j
  | OClamp lo hi i => xclamp lo hi (v i)
  end.
(* backward: what is added to the gradient of each operand, given the result y and its gradient g *)
Definition xback (o : op) (env : list xr) (y g : xr) : list (nat * xr) :=
  let v := xget env in
  match o with
  | OConst _ => []
  | OAdd i j => [(i, g); (j, g)]
  | OSub i j => [(i, g); (j, xopp g)]
  | OMul i j => [(i, xmul g (v j)); (j, xmul g (v i))]
  | ODiv i j => [(i, xdiv g (v j)); (j, xmul (xopp g) (xdiv (xdiv (v i) (v j)) (v j)))]
  | OAddC _ i => [(i, g)]
  | OScale r i => [(i, xmul g (Fin r))]
  | ORecip i => [(i, xmul (xopp g) (xmul y y))]
  | OSqrt i => [(i, xdiv g (xmul (Fin 2) y))]
  | OExp i => [(i, xmul g y)]
  | OSin i => [(i, xmul g (xfun cos (v i)))]
  | OCos i => [(i, xmul g (xopp (xfun sin (v i))))]
  | OAtan2 i j =>
      let q := xdiv (Fin 1) (xadd (xmul (v i) (v i)) (xmul (v j) (v j))) in
      [(i, xmul g (xmul (v j) q)); (j, xmul g (xmul (xopp (v i)) q))]
  | OPow i n => [(i, match n with O => Fin 0 | S m => xmul g (xmul (Fin (INR n)) (xpow (v i) m)) end)]
  | OPowR i r => [(i, if zero r then Fin 0 else xmul g (xmul (Fin r) (xpowr (r - 1) (v i))))]
  | ONorm l => map (fun i => (i, xmul (v i) (if xis0 y then Fin 0 else xdiv g y))) l
  | OWhere c i j => if xcond c env then [(i, g); (j, Fin 0)] else [(i, Fin 0); (j, g)]
  | OClamp lo hi i => [(i, if below lo (v i) || above hi (v i) then Fin 0 else g)]
  end.

(* ---------------- tapes ---------------- *)
(* the results, after the inputs *)
Fixpoint xfwd (p : list op) (env : list xr) : list xr :=
  match p with [] => env | o :: p' => xfwd p' (env ++ [xop o env]) end.
(* the output is the last result *)
Definition xout (p : list op) (env : list xr) : xr := last (xfwd p env) (Fin 0).
(* gradient k += c *)
Fixpoint add_at (k : nat) (c : xr) (adj : list xr) : list xr :=
  match adj with
  | [] => []
  | a :: adj' => match k with O => xadd a c :: adj' | S k' => a :: add_at k' c adj' end
  end.
(* all contributions of an operation *)
Definition accum (l : list (nat * xr)) (adj : list xr) : list xr :=
  fold_left (fun a kc => add_at (fst kc) (snd kc) a) l adj.
(* output.backward(): the gradients of the entries of env *)
Fixpoint xbwd (p : list op) (env : list xr) : list xr :=
  match p with
  | [] => repeat (Fin 0) (length env - 1) ++ [Fin 1]
  | o :: p' =>
      let y := xop o env in
      let G := xbwd p' (env ++ [y]) in
      accum (xback o env y (last G (Fin 0))) (removelast G)
  end.

(* ---------------- the formulas of gradslam ---------------- *)
(* projutils.py:80-89, geometryutils.py:66-76 unhomogenize_points, inputs x, w:
   torch.where(|w| > eps, 1.0 / w, ones_like(w)) * x *)
Definition t_unhomog (eps : R) : list op :=
  [ORecip 1; OScale 1 2; OConst 1; OWhere (CAbsGt 1 eps) 3 4; OMul 5 0].
(* projutils.py:232-236, geometryutils.py:646-650, 728-732: x / torch.where(z != 0, z, ones_like(z)), inputs x, z *)
Definition t_project : list op := [OConst 1; OWhere (CNe0 1) 1 2; ODiv 0 3].
(* projutils.py:444-445: 1.0 / (fx + eps), input fx *)
Definition t_focal (eps : R) : list op := [OAddC eps 0; ORecip 1; OScale 1 2].
(* projutils.py:446-447: -1.0 * cx / (fx + eps), inputs cx, fx *)
Definition t_centre (eps : R) : list op := [OScale (-1) 0; OAddC eps 1; ODiv 2 3].
(* geometryutils.py:102-122 quaternion_to_axisangle, inputs qx, qy, qz, qw; the entry q_j * k *)
Definition t_axisangle (j : nat) : list op :=
  [OMul 0 0; OMul 1 1; OAdd 4 5; OMul 2 2; OAdd 6 7;          (* 8: sin_sq_theta *)
   OSqrt 8;                                                   (* 9: sin_theta *)
   OScale (-1) 9; OScale (-1) 3; OAtan2 10 11; OAtan2 9 3;    (* 12, 13: the two arctangents *)
   OWhere (CLt 3 0) 12 13; OScale 2 14;                       (* 15: two_theta *)
   ODiv 15 9; OConst 1; OScale 2 17;                          (* 16: k_pos, 18: k_neg *)
   OWhere (CGt 8 0) 16 18; OMul j 19].                        (* 19: k *)
(* geometryutils.py:145 nn.functional.normalize(q, p=2, dim=-1, eps): q / q.norm().clamp_min(eps), entry j of 4 *)
Definition t_normalize (eps : R) (j : nat) : list op :=
  [ONorm [0; 1; 2; 3]%nat; OClamp (Some eps) None 4; ODiv j 5].
(* rgbdimages.py:734-739, inputs the three entries of the cross product: n / where(norm == 0, 1, norm), entry j *)
Definition t_normal (j : nat) : list op :=
  [ONorm [0; 1; 2]%nat; OConst 1; OWhere (CEq0 3) 4 3; ODiv j 5].
(* se3utils.py:60-67, 93-100 (omega.norm() >= _eps), inputs the three entries of omega: the coefficients A, B, C *)
Definition t_rodA : list op := [ONorm [0; 1; 2]%nat; OSin 3; ODiv 4 3].
Definition t_rodB : list op := [ONorm [0; 1; 2]%nat; OCos 3; OScale (-1) 4; OAddC 1 5; OPow 3 2; ODiv 6 7].
Definition t_rodC : list op := [ONorm [0; 1; 2]%nat; OSin 3; OSub 3 4; OPow 3 3; ODiv 5 6].
(* fusionutils.py:69-72 get_alpha, inputs x, y, z and sigma (a tensor); [eps] is the lower bound *)
Definition t_alpha (eps : R) : list op :=
  [OPow 0 2; OPow 1 2; OAdd 4 5; OPow 2 2; OAdd 6 7; OScale (-1) 8;   (* 9: -sum *)
   OPow 3 2; OScale 2 10; ODiv 9 11; OExp 12; OClamp (Some eps) (Some (101 / 100)) 13].
(* fusionutils.py:677-697, inputs c (confidence), a (alpha), p (map), q (frame):
   (c * p + a * q) * (1 / where(c + a == 0, 1, c + a)) *)
Definition t_fuse : list op :=
  [OMul 0 2; OMul 1 3; OAdd 4 5; OAdd 0 1; OConst 1; OWhere (CEq0 7) 8 7; ORecip 9; OScale 1 10; OMul 6 11].
(* icputils.py:527-534, inputs new_err, err and damp: damp * (lambda_min + (lambda_max - lambda_min) / (1 + exp(-B * errdiff))) *)
Definition t_damp (lmin lmax B : R) : list op :=
  [OSub 0 1; OClamp (Some (-70)) (Some 70) 3; OScale (- B) 4; OExp 5; OAddC 1 6; ORecip 7; OScale (lmax - lmin) 8;
   OAddC lmin 9; OMul 2 10].
(* icputils.py:538-541, inputs new_err, err and an entry of xi: 1 / ((1 + exp(-B2 * errdiff)) ** (1 / nu)) * xi *)
Definition t_gate (B2 nu : R) : list op :=
  [OSub 0 1; OClamp (Some (-70)) (Some 70) 3; OScale (- B2) 4; OExp 5; OAddC 1 6; OPowR 7 (1 / nu); ORecip 8; OScale 1 9; OMul 10 2].
(* geometryutils.py:526-528 normalize_pixel_coords, input a coordinate, [n] the number of rows or columns:
   2.0 / (n - 1) * x - 1 *)
Definition t_pixel (n : R) : list op := [OConst n; OAddC (-1) 1; ORecip 2; OScale 2 3; OMul 4 0; OAddC (-1) 5].
