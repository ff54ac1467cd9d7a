import sys; sys.path.insert(0,'/verif/tools')
from genprop import gen
H=lambda t:('h',t)
def Tm(th,lem,f,com=''): return ('t',th,lem,f,com)
P='VertexProofs'
plan=[H(r'''(* Property C89: what autograd sends from one entry of the global vertex map of RGB-D images to the depth, the intrinsics and the pose.
   Vocabulary: TapeModel.v (op, xop, xback, xout, reals), TapeSpec.v (grads, is_real, right_gradient), VertexTape.v (the operations of
   rgbdimages.py:643-708), VertexForms.v (f_gvertex: the entry as the global vertex of RgbdSpec.v, as a function of
   [depth; fx; fy; cx; cy; r0; r1; r2; t], where (r0, r1, r2, t) is row j of the pose). *)
From Coq Require Import Reals List Arith Bool Lia Lra.
From Verif Require Import MatSpec GeomSpec RgbdSpec TapeModel TapeSpec TapeProofs TapeProofs3 VertexTape VertexForms VertexProofs.
Import ListNotations.
'''),
Tm('C89_value','v_gvertex',P,'the value is the global vertex, and it and the gradients are real numbers, whatever the depth'),
Tm('C89_gradient','d_gvertex',P,'at pixels with depth the gradients are the derivatives of the global vertex'),
Tm('C89_missing','n_gvertex',P,'a pixel without depth sends exactly no gradient'),
Tm('C89_nan_depth_refuted','nan_gvertex',P,'but a nan depth is not masked out'),
H(r'''Local Open Scope R_scope.
(* depth 2 at row 1, column 3, focal lengths 1 (plus 1e-6 each), centre (1, 1): x = 2 * (3 - 1) / (1 + 1e-6), moved by 5 *)
Definition wit89 : frames := mkFrames 1 1 2 4 (fun _ _ _ _ _ => 0) (fun _ _ _ _ => 0) (fun _ _ _ => 0) None None.
Example C89_witness :
  xout (t_pixel_vertex wit89 0 0 1 3) (reals [2; 1; 1; 1; 1; 1; 0; 0; 5]) = Fin (4 / (1 + / 1000000) + 5) /\
  grads (t_pixel_vertex wit89 0 0 1 3) [0; 1; 1; 1; 1; 1; 0; 0; 5] = reals [0; 0; 0; 0; 0; 0; 0; 0; 0] /\
  exists g, grads (t_pixel_vertex wit89 0 0 1 3) [2; 1; 1; 1; 1; 1; 0; 0; 5] = reals g /\
    derivable_pt_lim (fun x => f_gvertex wit89 0 0 1 3 0 [x; 1; 1; 1; 1; 1; 0; 0; 5]) 2 (nth 0 g 0).
Proof.
  split; [|split].
  - rewrite (proj1 (C89_value wit89 0 0 1 3 0 2 1 1 1 1 1 0 0 5 ltac:(lra) ltac:(lra))). f_equal.
    unfold f_gvertex, put, global_vertex, vertex, keep, kinv, pinhole, act, mvec, pixel, vec3, wit89, rget. cbn.
    destruct (Rlt_dec 0 2); [|lra]. field.
  - apply C89_missing; lra.
  - destruct (C89_gradient wit89 0 0 1 3 0 2 1 1 1 1 1 0 0 5) as (g & E & L & D); [lra|lra|lra|]. exists g. split; [exact E|].
    specialize (D ((fun x => x) :: map (fun c (_ : R) => c) [1; 1; 1; 1; 1; 0; 0; 5]) 2 [1; 0; 0; 0; 0; 0; 0; 0; 0]).
    do 9 (destruct g as [|? g]; [discriminate|]). destruct g; [|discriminate].
    assert (D' := D eq_refl). refine (TapeProofs2.lim_eq _ _ _ _ _ (D' _)); [cbn; ring|].
    constructor; [apply derivable_pt_lim_id|]. cbn [map]. repeat (constructor; [apply derivable_pt_lim_const|]). constructor.
Qed.
'''),
]
gen('/verif/rocq/theories/PropVertex.v',plan)
