(* The operations that PyTorch runs for one entry of the normal map, from the depths of the pixel and two of its neighbours and the intrinsics. *)
From Coq Require Import Reals List Arith Bool.
From Verif Require Import TapeModel VertexTape.
Import ListNotations.
Local Open Scope R_scope.

(* projutils.py:437-450: inputs depth of the pixel (0), of its neighbour in the row (1), of its neighbour in the column (2), fx, fy, cx, cy (3-6).
   Simplification: the products with the constant entries 0 and 1 of the inverse intrinsics are left out. *)
Definition t_intr : list op :=
  [OAddC eps6 3; ORecip 7; OScale 1 8;                        (* 9: 1.0 / (fx + eps) *)
   OAddC eps6 4; ORecip 10; OScale 1 11;                      (* 12: 1.0 / (fy + eps) *)
   OScale (-1) 5; OAddC eps6 3; ODiv 13 14;                   (* 15: -1.0 * cx / (fx + eps) *)
   OScale (-1) 6; OAddC eps6 4; ODiv 16 17].                  (* 18: -1.0 * cy / (fy + eps) *)
(* rgbdimages.py:643-676: the vertex of pixel number i, whose position is (p0, p1, p2); its results begin at B; entries B+11, B+13, B+15; mask B+9 *)
Definition t_vtx (B i : nat) (p : nat -> R) : list op :=
  [OScale (p 0%nat) 9; OScale (p 2%nat) 15; OAdd B (B + 1);
   OScale (p 1%nat) 12; OScale (p 2%nat) 18; OAdd (B + 3) (B + 4);
   OConst (p 2%nat); OConst 1; OConst 0; OWhere (CGt i 0) (B + 7) (B + 8);
   OMul (B + 2) i; OMul (B + 10) (B + 9); OMul (B + 5) i; OMul (B + 12) (B + 9); OMul (B + 6) i; OMul (B + 14) (B + 9)].
(* the three vertices: 30, 32, 34; 46, 48, 50; 62, 64, 66 *)
Definition t_front (p q s : nat -> R) : list op := t_intr ++ t_vtx 19 0 p ++ t_vtx 35 1 q ++ t_vtx 51 2 s.
(* rgbdimages.py:710-756: the differences (in the last column / row the neighbour comes first), cross product, norm, quotient, mask *)
Definition sub_if (last : bool) (i j : nat) : op := if last then OSub j i else OSub i j.
Definition t_back (lastcol lastrow : bool) (j : nat) : list op :=
  [sub_if lastcol 46 30; sub_if lastcol 48 32; sub_if lastcol 50 34;      (* 67-69: dhoriz *)
   sub_if lastrow 62 30; sub_if lastrow 64 32; sub_if lastrow 66 34;      (* 70-72: dverti *)
   OMul 68 72; OMul 69 71; OSub 73 74; OMul 69 70; OMul 67 72; OSub 76 77; OMul 67 71; OMul 68 70; OSub 79 80;   (* 75, 78, 81: cross *)
   ONorm [75%nat; 78%nat; 81%nat]; OConst 1; OWhere (CEq0 82) 83 82; ODiv (75 + 3 * j) 84; OMul 85 28].
Definition t_nrm (p q s : nat -> R) (lastcol lastrow : bool) (j : nat) : list op := t_front p q s ++ t_back lastcol lastrow j.
