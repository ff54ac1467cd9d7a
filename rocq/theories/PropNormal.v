(* Property C93: what autograd sends from one entry of the normal map of RGB-D images to the depths and the intrinsics.
   Vocabulary: TapeModel.v (op, xop, xback, xout, reals), TapeSpec.v (grads, is_real, right_gradient), NormalTape.v (the operations of
   projutils.py:437-450 and rgbdimages.py:643-676, 710-756), NormalForms.v (f_nrm: the entry as the normal of RgbdSpec.v, as a function of
   [depth; depth of the neighbour in the row; depth of the neighbour in the column; fx; fy; cx; cy]; steep: the length of the cross product). *)
From Coq Require Import Reals List Arith Bool Lia Lra.
From Verif Require Import MatSpec GeomSpec RgbdSpec TapeModel TapeSpec TapeProofs TapeProofs3 VertexTape NormalTape NormalForms NormalProofs3 NormalProofs4 NormalProofs5.
Import ListNotations.

(* the value is the normal, and it and the gradients are real numbers, whatever the depths, also where the surface is degenerate *)
Local Open Scope R_scope.
Theorem C93_value : forall fr b l h w j d0 d1 d2 fx fy cx cy,
  (h < fH fr)%nat -> (w < fW fr)%nat -> (2 <= fH fr)%nat -> (2 <= fW fr)%nat -> (j < 3)%nat ->
  fx <> - / 1000000 -> fy <> - / 1000000 ->
  xout (t_pixel_normal fr b l h w j) (reals [d0; d1; d2; fx; fy; cx; cy]) = Fin (f_nrm fr b l h w j [d0; d1; d2; fx; fy; cx; cy]) /\
  Forall is_real (grads (t_pixel_normal fr b l h w j) [d0; d1; d2; fx; fy; cx; cy]).
Proof. exact v_normal. Qed.
Print Assumptions C93_value.

Local Close Scope R_scope.
(* where the three depths are not 0 and the cross product does not vanish the gradients are the derivatives of the normal *)
Local Open Scope R_scope.
Theorem C93_gradient : forall fr b l h w j d0 d1 d2 fx fy cx cy,
  (h < fH fr)%nat -> (w < fW fr)%nat -> (2 <= fH fr)%nat -> (2 <= fW fr)%nat -> (j < 3)%nat ->
  fx <> - / 1000000 -> fy <> - / 1000000 -> d0 <> 0 -> d1 <> 0 -> d2 <> 0 -> steep fr b l h w [d0; d1; d2; fx; fy; cx; cy] <> 0 ->
  right_gradient (t_pixel_normal fr b l h w j) (f_nrm fr b l h w j) [d0; d1; d2; fx; fy; cx; cy].
Proof. exact d_normal. Qed.
Print Assumptions C93_gradient.

Local Close Scope R_scope.
(* a pixel without depth sends exactly no gradient, to itself, to its neighbours and to the intrinsics *)
Local Open Scope R_scope.
Theorem C93_missing : forall fr b l h w j d0 d1 d2 fx fy cx cy,
  (j < 3)%nat -> fx <> - / 1000000 -> fy <> - / 1000000 -> d0 <= 0 ->
  grads (t_pixel_normal fr b l h w j) [d0; d1; d2; fx; fy; cx; cy] = reals [0; 0; 0; 0; 0; 0; 0].
Proof. exact n_normal. Qed.
Print Assumptions C93_missing.

Local Close Scope R_scope.
(* a neighbour without depth receives exactly no gradient *)
Local Open Scope R_scope.
Theorem C93_hole : forall fr b l h w j n d0 d1 d2 fx fy cx cy,
  (j < 3)%nat -> fx <> - / 1000000 -> fy <> - / 1000000 -> (n = 1%nat /\ d1 <= 0) \/ (n = 2%nat /\ d2 <= 0) ->
  nth_error (grads (t_pixel_normal fr b l h w j) [d0; d1; d2; fx; fy; cx; cy]) n = Some (Fin 0).
Proof. exact no_neighbour. Qed.
Print Assumptions C93_hole.

Local Close Scope R_scope.
(* where the cross product vanishes the normal is 0 *)
Local Open Scope R_scope.
Theorem C93_degenerate : forall fr b l h w j d0 d1 d2 fx fy cx cy,
  (h < fH fr)%nat -> (w < fW fr)%nat -> (2 <= fH fr)%nat -> (2 <= fW fr)%nat -> (j < 3)%nat ->
  fx <> - / 1000000 -> fy <> - / 1000000 -> steep fr b l h w [d0; d1; d2; fx; fy; cx; cy] = 0 ->
  xout (t_pixel_normal fr b l h w j) (reals [d0; d1; d2; fx; fy; cx; cy]) = Fin 0.
Proof. exact flat_normal. Qed.
Print Assumptions C93_degenerate.

Local Close Scope R_scope.
(* but the nan depth of a neighbour makes the normal nan, even at a pixel without depth *)
Local Open Scope R_scope.
Theorem C93_nan_spreads_refuted : forall fr b l h w j d0 d2 fx fy cx cy,
  (j < 3)%nat ->
  xout (t_pixel_normal fr b l h w j) (Fin d0 :: NaN :: reals [d2; fx; fy; cx; cy]) = NaN.
Proof. exact nan_normal. Qed.
Print Assumptions C93_nan_spreads_refuted.

Local Close Scope R_scope.
Local Open Scope R_scope.
(* a 2 x 2 image at depth 2, focal lengths 1 (plus 1e-6 each): the plane z = 2, whose normal is (0, 0, 1) *)
Definition wit93 : frames := mkFrames 1 1 2 2 (fun _ _ _ _ _ => 0) (fun _ _ _ _ => 0) (fun _ _ _ => 0) None None.
Lemma wit93_cross : forall j, cross (tangent_h (put3 wit93 0 0 [2; 2; 2; 1; 1; 0; 0]) 0 0 0 0) (tangent_v (put3 wit93 0 0 [2; 2; 2; 1; 1; 0; 0]) 0 0 0 0) j =
  match j with 0%nat | 1%nat => 0 | _ => (2 / (1 + / 1000000)) * (2 / (1 + / 1000000)) end.
Proof.
  intros j. unfold cross, tangent_h, tangent_v, vertex, keep, kinv, pinhole, mvec, pixel, put3, wit93, beside, vec3, rget. cbn. destruct (Rlt_dec 0 2); [|lra].
  destruct j as [|[|j]]; field; lra.
Qed.
Lemma wit93_steep : steep wit93 0 0 0 0 [2; 2; 2; 1; 1; 0; 0] = (2 / (1 + / 1000000)) * (2 / (1 + / 1000000)).
Proof.
  unfold steep. assert (P : 0 <= 2 / (1 + / 1000000)) by (apply Rlt_le, Rdiv_lt_0_compat; lra).
  unfold norm, dot. cbn [rsum]. rewrite !wit93_cross. cbv iota.
  replace (0 + 0 * 0 + 0 * 0 + _) with ((2 / (1 + / 1000000) * (2 / (1 + / 1000000))) * (2 / (1 + / 1000000) * (2 / (1 + / 1000000)))) by ring.
  apply sqrt_square. now apply Rmult_le_pos.
Qed.
Example C93_witness :
  xout (t_pixel_normal wit93 0 0 0 0 2) (reals [2; 2; 2; 1; 1; 0; 0]) = Fin 1 /\
  grads (t_pixel_normal wit93 0 0 0 0 2) [0; 2; 2; 1; 1; 0; 0] = reals [0; 0; 0; 0; 0; 0; 0] /\
  nth_error (grads (t_pixel_normal wit93 0 0 0 0 2) [2; 0; 2; 1; 1; 0; 0]) 1 = Some (Fin 0) /\
  xout (t_pixel_normal wit93 0 0 0 0 2) (reals [2; 0; 0; 1; 1; 0; 0]) = Fin 0 /\
  right_gradient (t_pixel_normal wit93 0 0 0 0 0) (f_nrm wit93 0 0 0 0 0) [2; 2; 2; 1; 1; 0; 0].
Proof.
  assert (P : 0 < 2 / (1 + / 1000000)) by (apply Rdiv_lt_0_compat; lra). assert (Q := Rmult_lt_0_compat _ _ P P).
  split; [|split; [|split; [|split]]].
  - rewrite (proj1 (C93_value wit93 0 0 0 0 2 2 2 2 1 1 0 0 ltac:(cbn; lia) ltac:(cbn; lia) ltac:(cbn; lia) ltac:(cbn; lia) ltac:(lia) ltac:(lra) ltac:(lra))). f_equal.
    unfold f_nrm, normal, unitize. fold (steep wit93 0 0 0 0 [2; 2; 2; 1; 1; 0; 0]). rewrite wit93_steep, wit93_cross.
    destruct (Req_EM_T _ 0) as [E|N]; [rewrite E in Q; lra|]. unfold keep. cbn [put3 fdep with_fdep]. cbn.
    destruct (Rlt_dec 0 2); [|lra]. field.
  - apply C93_missing; lia || lra.
  - apply C93_hole; [lia|lra|lra|left; split; [reflexivity|lra]].
  - apply C93_degenerate; try (cbn; lia); try lra. unfold steep, norm. replace (dot 3 _ _) with 0; [apply sqrt_0|].
    unfold dot, cross, tangent_h, tangent_v, vertex, keep, kinv, pinhole, mvec, pixel, put3, wit93, beside, vec3, rget. cbn. destruct (Rlt_dec 0 2); [|lra].
    destruct (Rlt_dec 0 0); [lra|]. ring.
  - apply C93_gradient; try (cbn; lia); try lra. rewrite wit93_steep. lra.
Qed.
