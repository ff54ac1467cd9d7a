(* Property C89: what autograd sends from one entry of the global vertex map of RGB-D images to the depth, the intrinsics and the pose.
   Vocabulary: TapeModel.v (op, xop, xback, xout, reals), TapeSpec.v (grads, is_real, right_gradient), VertexTape.v (the operations of
   rgbdimages.py:643-708), VertexForms.v (f_gvertex: the entry as the global vertex of RgbdSpec.v, as a function of
   [depth; fx; fy; cx; cy; r0; r1; r2; t], where (r0, r1, r2, t) is row j of the pose). *)
From Coq Require Import Reals List Arith Bool Lia Lra.
From Verif Require Import MatSpec GeomSpec RgbdSpec TapeModel TapeSpec TapeProofs TapeProofs3 VertexTape VertexForms VertexProofs.
Import ListNotations.

(* the value is the global vertex, and it and the gradients are real numbers, whatever the depth *)
Local Open Scope R_scope.
Theorem C89_value : forall fr b l h w j d fx fy cx cy r0 r1 r2 t,
  fx <> - / 1000000 -> fy <> - / 1000000 ->
  xout (t_pixel_vertex fr b l h w) (reals [d; fx; fy; cx; cy; r0; r1; r2; t]) = Fin (f_gvertex fr b l h w j [d; fx; fy; cx; cy; r0; r1; r2; t]) /\
  Forall is_real (grads (t_pixel_vertex fr b l h w) [d; fx; fy; cx; cy; r0; r1; r2; t]).
Proof. exact v_gvertex. Qed.
Print Assumptions C89_value.

Local Close Scope R_scope.
(* at pixels with depth the gradients are the derivatives of the global vertex *)
Local Open Scope R_scope.
Theorem C89_gradient : forall fr b l h w j d fx fy cx cy r0 r1 r2 t,
  fx <> - / 1000000 -> fy <> - / 1000000 -> d <> 0 ->
  right_gradient (t_pixel_vertex fr b l h w) (f_gvertex fr b l h w j) [d; fx; fy; cx; cy; r0; r1; r2; t].
Proof. exact d_gvertex. Qed.
Print Assumptions C89_gradient.

Local Close Scope R_scope.
(* a pixel without depth sends exactly no gradient *)
Local Open Scope R_scope.
Theorem C89_missing : forall fr b l h w d fx fy cx cy r0 r1 r2 t,
  fx <> - / 1000000 -> fy <> - / 1000000 -> d <= 0 ->
  grads (t_pixel_vertex fr b l h w) [d; fx; fy; cx; cy; r0; r1; r2; t] = reals [0; 0; 0; 0; 0; 0; 0; 0; 0].
Proof. exact n_gvertex. Qed.
Print Assumptions C89_missing.

Local Close Scope R_scope.
(* but a nan depth is not masked out *)
Local Open Scope R_scope.
Theorem C89_nan_depth_refuted : forall fr b l h w fx fy cx cy r0 r1 r2 t,
  xout (t_pixel_vertex fr b l h w) (NaN :: reals [fx; fy; cx; cy; r0; r1; r2; t]) = NaN.
Proof. exact nan_gvertex. Qed.
Print Assumptions C89_nan_depth_refuted.

Local Close Scope R_scope.
Local Open Scope R_scope.
(* depth 2 at row 1, column 3, focal lengths 1 (plus 1e-6 each), centre (1, 1): x = 2 * (3 - 1) / (1 + 1e-6), moved by 5 *)
Definition wit89 : frames := mkFrames 1 1 2 4 (fun _ _ _ _ _ => 0) (fun _ _ _ _ => 0) (fun _ _ _ => 0) None None.
Example C89_witness :
  xout (t_pixel_vertex wit89 0 0 1 3) (reals [2; 1; 1; 1; 1; 1; 0; 0; 5]) = Fin (4 / (1 + / 1000000) + 5) /\
  grads (t_pixel_vertex wit89 0 0 1 3) [0; 1; 1; 1; 1; 1; 0; 0; 5] = reals [0; 0; 0; 0; 0; 0; 0; 0; 0] /\
  exists g, grads (t_pixel_vertex wit89 0 0 1 3) [2; 1; 1; 1; 1; 1; 0; 0; 5] = reals g /\
    derivable_pt_lim (fun x => f_gvertex wit89 0 0 1 3 0 [x; 1; 1; 1; 1; 1; 0; 0; 5]) 2 (nth 0 g 0).
Proof.
  split; [|split].
  - rewrite (proj1 (C89_value wit89 0 0 1 3 0 2 1 1 1 1 1 0 0 5 ltac:(lra) ltac:(lra))). f_equal.
    unfold f_gvertex, put, global_vertex, vertex, keep, kinv, pinhole, act, mvec, pixel, vec3, wit89, rget. cbn.
    destruct (Rlt_dec 0 2); [|lra]. field.
  - apply C89_missing; lra.
  - destruct (C89_gradient wit89 0 0 1 3 0 2 1 1 1 1 1 0 0 5) as (g & E & L & D); [lra|lra|lra|]. exists g. split; [exact E|].
    specialize (D ((fun x => x) :: map (fun c (_ : R) => c) [1; 1; 1; 1; 1; 0; 0; 5]) 2 [1; 0; 0; 0; 0; 0; 0; 0; 0]).
    do 9 (destruct g as [|? g]; [discriminate|]). destruct g; [|discriminate].
    assert (D' := D eq_refl). refine (TapeProofs2.lim_eq _ _ _ _ _ (D' _)); [cbn; ring|].
    constructor; [apply derivable_pt_lim_id|]. cbn [map]. repeat (constructor; [apply derivable_pt_lim_const|]). constructor.
Qed.
