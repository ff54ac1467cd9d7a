(* Properties C87 and C88: inf and nan, and the gradients autograd computes, for the element-wise formulas of the library.
   Vocabulary: TapeModel.v (xr: reals, inf, nan; op, xop: forward, xback: backward; xout, xbwd; the tapes t_...: the operations
   PyTorch runs), TapeForms.v (the formulas f_..., in terms of the models of the files they come from), TapeSpec.v (is_real, grads, tame, smooth,
   right_gradient: the gradients are real numbers, and the slope of the formula along any curve is their inner product with the velocity). *)
From Coq Require Import Reals List Arith Bool Lia Lra.
From Verif Require Import TapeModel TapeSpec TapeForms TapeProofs TapeProofs3 TapeProofs4 TapeProofs5 TapeProofs6 TapeProofs7.
Import ListNotations.

(* ------------------------------------------------------------------ C87 *)
(* any tape: without division by zero, roots of 0, atan2(0, 0), everything is a real number *)
Local Open Scope R_scope.
Theorem C87_tape : forall p env,
  tame p env -> is_real (xout p (reals env)) /\ Forall is_real (grads p env).
Proof. exact p_tame. Qed.
Print Assumptions C87_tape.

Local Close Scope R_scope.
(* unhomogenize_points: always a real number *)
Local Open Scope R_scope.
Theorem C87_unhomogenize : forall eps x w,
  0 <= eps -> xout (t_unhomog eps) (reals [x; w]) = Fin (f_unhomog eps [x; w]).
Proof. exact v_unhomog. Qed.
Print Assumptions C87_unhomogenize.

Local Close Scope R_scope.
Local Open Scope R_scope.
Theorem C87_unhomogenize_grad : forall eps x w,
  w <> 0 -> Forall is_real (grads (t_unhomog eps) [x; w]).
Proof. exact g_unhomog. Qed.
Print Assumptions C87_unhomogenize_grad.

Local Close Scope R_scope.
(* a point at infinity (w = 0, which the function documents): the gradient of w is nan *)
Local Open Scope R_scope.
Theorem C87_unhomogenize_infinity_refuted : forall eps x,
  0 <= eps -> grads (t_unhomog eps) [x; 0] = [Fin 1; NaN].
Proof. exact n_unhomog. Qed.
Print Assumptions C87_unhomogenize_infinity_refuted.

Local Close Scope R_scope.
(* project_points: always a real number *)
Local Open Scope R_scope.
Theorem C87_project : forall x z,
  xout t_project (reals [x; z]) = Fin (f_project [x; z]).
Proof. exact v_project. Qed.
Print Assumptions C87_project.

Local Close Scope R_scope.
(* and always real gradients, z = 0 included *)
Local Open Scope R_scope.
Theorem C87_project_grad : forall x z,
  Forall is_real (grads t_project [x; z]).
Proof. exact g_project. Qed.
Print Assumptions C87_project_grad.

Local Close Scope R_scope.
(* inverse_intrinsics *)
Local Open Scope R_scope.
Theorem C87_focal : forall eps fx,
  fx <> - eps -> xout (t_focal eps) (reals [fx]) = Fin (f_focal eps [fx]).
Proof. exact v_focal. Qed.
Print Assumptions C87_focal.

Local Close Scope R_scope.
Local Open Scope R_scope.
Theorem C87_centre : forall eps cx fx,
  fx <> - eps -> xout (t_centre eps) (reals [cx; fx]) = Fin (f_centre eps [cx; fx]).
Proof. exact v_centre. Qed.
Print Assumptions C87_centre.

Local Close Scope R_scope.
(* fx = -eps *)
Local Open Scope R_scope.
Theorem C87_focal_refuted : forall eps,
  xout (t_focal eps) (reals [- eps]) = PInf.
Proof. exact n_focal. Qed.
Print Assumptions C87_focal_refuted.

Local Close Scope R_scope.
(* quaternion_to_axisangle: always a real number *)
Local Open Scope R_scope.
Theorem C87_axisangle : forall j a b c w,
  (j < 3)%nat -> xout (t_axisangle j) (reals [a; b; c; w]) = Fin (f_axisangle j [a; b; c; w]).
Proof. exact p_v_axisangle. Qed.
Print Assumptions C87_axisangle.

Local Close Scope R_scope.
Local Open Scope R_scope.
Theorem C87_axisangle_grad : forall j a b c w,
  (j < 3)%nat -> a <> 0 \/ b <> 0 \/ c <> 0 -> Forall is_real (grads (t_axisangle j) [a; b; c; w]).
Proof. exact g_axisangle. Qed.
Print Assumptions C87_axisangle_grad.

Local Close Scope R_scope.
(* the identity rotation: every gradient is nan *)
Local Open Scope R_scope.
Theorem C87_axisangle_identity_refuted : forall j w,
  (j < 3)%nat -> grads (t_axisangle j) [0; 0; 0; w] = [NaN; NaN; NaN; NaN].
Proof. exact n_axisangle. Qed.
Print Assumptions C87_axisangle_identity_refuted.

Local Close Scope R_scope.
(* normalize_quaternion: always real numbers, the zero quaternion included *)
Local Open Scope R_scope.
Theorem C87_normalize : forall eps j a b c d,
  (j < 4)%nat -> 0 < eps -> xout (t_normalize eps j) (reals [a; b; c; d]) = Fin (f_normalize eps j [a; b; c; d]).
Proof. exact v_normalize. Qed.
Print Assumptions C87_normalize.

Local Close Scope R_scope.
Local Open Scope R_scope.
Theorem C87_normalize_grad : forall eps j a b c d,
  (j < 4)%nat -> 0 < eps -> Forall is_real (grads (t_normalize eps j) [a; b; c; d]).
Proof. exact g_normalize. Qed.
Print Assumptions C87_normalize_grad.

Local Close Scope R_scope.
(* normal maps: always real numbers, vanishing cross products included *)
Local Open Scope R_scope.
Theorem C87_normal : forall j a b c,
  (j < 3)%nat -> xout (t_normal j) (reals [a; b; c]) = Fin (f_normal j [a; b; c]).
Proof. exact v_normal. Qed.
Print Assumptions C87_normal.

Local Close Scope R_scope.
Local Open Scope R_scope.
Theorem C87_normal_grad : forall j a b c,
  (j < 3)%nat -> Forall is_real (grads (t_normal j) [a; b; c]).
Proof. exact g_normal. Qed.
Print Assumptions C87_normal_grad.

Local Close Scope R_scope.
(* so3_exp, se3_exp *)
Local Open Scope R_scope.
Theorem C87_rodrigues : forall a b c,
  length_of 3 [a; b; c] <> 0 ->
  xout t_rodA (reals [a; b; c]) = Fin (f_rodA [a; b; c]) /\ xout t_rodB (reals [a; b; c]) = Fin (f_rodB [a; b; c]) /\
  xout t_rodC (reals [a; b; c]) = Fin (f_rodC [a; b; c]).
Proof. exact v_rod. Qed.
Print Assumptions C87_rodrigues.

Local Close Scope R_scope.
(* get_alpha *)
Local Open Scope R_scope.
Theorem C87_alpha : forall eps x y z s,
  eps <= 101 / 100 -> s <> 0 -> xout (t_alpha eps) (reals [x; y; z; s]) = Fin (f_alpha eps [x; y; z; s]).
Proof. exact v_alpha. Qed.
Print Assumptions C87_alpha.

Local Close Scope R_scope.
Local Open Scope R_scope.
Theorem C87_alpha_grad : forall eps x y z s,
  s <> 0 -> Forall is_real (grads (t_alpha eps) [x; y; z; s]).
Proof. exact g_alpha. Qed.
Print Assumptions C87_alpha_grad.

Local Close Scope R_scope.
(* sigma = 0 *)
Local Open Scope R_scope.
Theorem C87_alpha_refuted : forall eps,
  xout (t_alpha eps) (reals [0; 0; 0; 0]) = NaN.
Proof. exact n_alpha. Qed.
Print Assumptions C87_alpha_refuted.

Local Close Scope R_scope.
(* the weighted mean of fusion: always real numbers, vanishing counts included *)
Local Open Scope R_scope.
Theorem C87_fuse : forall c a p q,
  xout t_fuse (reals [c; a; p; q]) = Fin (f_fuse [c; a; p; q]).
Proof. exact v_fuse. Qed.
Print Assumptions C87_fuse.

Local Close Scope R_scope.
Local Open Scope R_scope.
Theorem C87_fuse_grad : forall c a p q,
  Forall is_real (grads t_fuse [c; a; p; q]).
Proof. exact g_fuse. Qed.
Print Assumptions C87_fuse_grad.

Local Close Scope R_scope.
(* gradICP: damping and step *)
Local Open Scope R_scope.
Theorem C87_damp : forall lmax B a b m,
  xout (t_damp (1 / lmax) lmax B) (reals [a; b; m]) = Fin (f_damp lmax B [a; b; m]).
Proof. exact v_damp. Qed.
Print Assumptions C87_damp.

Local Close Scope R_scope.
Local Open Scope R_scope.
Theorem C87_damp_grad : forall lmax B a b m,
  Forall is_real (grads (t_damp (1 / lmax) lmax B) [a; b; m]).
Proof. exact g_damp. Qed.
Print Assumptions C87_damp_grad.

Local Close Scope R_scope.
Local Open Scope R_scope.
Theorem C87_gate : forall B nu a b m,
  xout (t_gate B nu) (reals [a; b; m]) = Fin (f_gate B nu [a; b; m]).
Proof. exact v_gate. Qed.
Print Assumptions C87_gate.

Local Close Scope R_scope.
Local Open Scope R_scope.
Theorem C87_gate_grad : forall B nu a b m,
  Forall is_real (grads (t_gate B nu) [a; b; m]).
Proof. exact g_gate. Qed.
Print Assumptions C87_gate_grad.

Local Close Scope R_scope.
(* normalize_pixel_coords *)
Local Open Scope R_scope.
Theorem C87_pixel : forall n x,
  n <> 1 -> xout (t_pixel n) (reals [x]) = Fin (f_pixel n [x]).
Proof. exact v_pixel. Qed.
Print Assumptions C87_pixel.

Local Close Scope R_scope.
(* an image of one row or column *)
Local Open Scope R_scope.
Theorem C87_pixel_refuted : forall x,
  ~ is_real (xout (t_pixel 1) (reals [x])).
Proof. exact n_pixel. Qed.
Print Assumptions C87_pixel_refuted.

Local Close Scope R_scope.
(* ------------------------------------------------------------------ C88 *)
(* any tape, away from the switching points of where and clamp *)
Local Open Scope R_scope.
Theorem C88_tape : forall p env,
  p <> [] -> smooth p env -> right_gradient p (value p) env.
Proof. exact p_smooth. Qed.
Print Assumptions C88_tape.

Local Close Scope R_scope.
Local Open Scope R_scope.
Theorem C88_unhomogenize : forall eps x w,
  w <> 0 -> Rabs w <> eps -> right_gradient (t_unhomog eps) (f_unhomog eps) [x; w].
Proof. exact d_unhomog. Qed.
Print Assumptions C88_unhomogenize.

Local Close Scope R_scope.
Local Open Scope R_scope.
Theorem C88_project : forall x z,
  z <> 0 -> right_gradient t_project f_project [x; z].
Proof. exact d_project. Qed.
Print Assumptions C88_project.

Local Close Scope R_scope.
Local Open Scope R_scope.
Theorem C88_focal : forall eps fx,
  fx <> - eps -> right_gradient (t_focal eps) (f_focal eps) [fx].
Proof. exact d_focal. Qed.
Print Assumptions C88_focal.

Local Close Scope R_scope.
Local Open Scope R_scope.
Theorem C88_centre : forall eps cx fx,
  fx <> - eps -> right_gradient (t_centre eps) (f_centre eps) [cx; fx].
Proof. exact d_centre. Qed.
Print Assumptions C88_centre.

Local Close Scope R_scope.
Local Open Scope R_scope.
Theorem C88_axisangle : forall j a b c w,
  (j < 3)%nat -> a <> 0 \/ b <> 0 \/ c <> 0 -> w <> 0 ->
  right_gradient (t_axisangle j) (f_axisangle j) [a; b; c; w].
Proof. exact d_axisangle. Qed.
Print Assumptions C88_axisangle.

Local Close Scope R_scope.
Local Open Scope R_scope.
Theorem C88_normalize : forall eps j a b c d,
  (j < 4)%nat -> 0 < eps -> length_of 4 [a; b; c; d] <> 0 -> length_of 4 [a; b; c; d] <> eps ->
  right_gradient (t_normalize eps j) (f_normalize eps j) [a; b; c; d].
Proof. exact d_normalize. Qed.
Print Assumptions C88_normalize.

Local Close Scope R_scope.
Local Open Scope R_scope.
Theorem C88_normal : forall j a b c,
  (j < 3)%nat -> length_of 3 [a; b; c] <> 0 -> right_gradient (t_normal j) (f_normal j) [a; b; c].
Proof. exact d_normal. Qed.
Print Assumptions C88_normal.

Local Close Scope R_scope.
Local Open Scope R_scope.
Theorem C88_rodrigues : forall a b c,
  length_of 3 [a; b; c] <> 0 ->
  right_gradient t_rodA f_rodA [a; b; c] /\ right_gradient t_rodB f_rodB [a; b; c] /\ right_gradient t_rodC f_rodC [a; b; c].
Proof. exact d_rod. Qed.
Print Assumptions C88_rodrigues.

Local Close Scope R_scope.
Local Open Scope R_scope.
Theorem C88_alpha : forall eps x y z s,
  eps <= 101 / 100 -> s <> 0 -> exp (- (x ^ 2 + y ^ 2 + z ^ 2) / (2 * s ^ 2)) <> eps ->
  right_gradient (t_alpha eps) (f_alpha eps) [x; y; z; s].
Proof. exact d_alpha. Qed.
Print Assumptions C88_alpha.

Local Close Scope R_scope.
Local Open Scope R_scope.
Theorem C88_fuse : forall c a p q,
  c + a <> 0 -> right_gradient t_fuse f_fuse [c; a; p; q].
Proof. exact d_fuse. Qed.
Print Assumptions C88_fuse.

Local Close Scope R_scope.
Local Open Scope R_scope.
Theorem C88_damp : forall lmax B a b m,
  Rabs (a - b) <> 70 -> right_gradient (t_damp (1 / lmax) lmax B) (f_damp lmax B) [a; b; m].
Proof. exact d_damp. Qed.
Print Assumptions C88_damp.

Local Close Scope R_scope.
Local Open Scope R_scope.
Theorem C88_gate : forall B nu a b m,
  Rabs (a - b) <> 70 -> right_gradient (t_gate B nu) (f_gate B nu) [a; b; m].
Proof. exact d_gate. Qed.
Print Assumptions C88_gate.

Local Close Scope R_scope.
Local Open Scope R_scope.
Theorem C88_pixel : forall n x,
  n <> 1 -> right_gradient (t_pixel n) (f_pixel n) [x].
Proof. exact d_pixel. Qed.
Print Assumptions C88_pixel.

Local Close Scope R_scope.
Local Open Scope R_scope.
(* the point (3, 2) in homogeneous coordinates: 3/2, with gradients 1/2 and -3/4 *)
Example C87_witness : xout (t_unhomog (/ 1000000)) (reals [3; 2]) = Fin (3 / 2) /\
  xout (t_unhomog (/ 1000000)) (reals [3; 0]) = Fin 3.
Proof.
  split; (rewrite C87_unhomogenize by lra); unfold f_unhomog, rget, ProjModel.unhomog_scale; cbn [nth].
  - rewrite Rabs_right by lra. destruct (Rlt_dec _ _); [f_equal; lra|lra].
  - rewrite Rabs_R0. destruct (Rlt_dec _ _); [lra|f_equal; lra].
Qed.
Example C88_witness : grads (t_unhomog (/ 1000000)) [3; 2] = reals [1 / 2; - (3 / 4)] /\
  derivable_pt_lim (fun t => f_unhomog (/ 1000000) [3 * t; 1 + t]) 1 (1 / 2 * 3 + (- (3 / 4) * 1 + 0)).
Proof.
  assert (G : grads (t_unhomog (/ 1000000)) [3; 2] = reals [1 / 2; - (3 / 4)]).
  { unfold grads. rewrite xbwd_reals; [|apply tame_r; unfold t_unhomog; run; repeat split; lra]. unfold t_unhomog. cbn. rewrite Rabs_right by lra.
    destruct (Rlt_dec (/ 1000000) 2); [|lra]. cbn. unfold reals. cbn. f_equal; [f_equal; lra|f_equal; f_equal; lra]. }
  split; [exact G|].
  destruct (C88_unhomogenize (/ 1000000) 3 2) as (g & E & _ & D); [lra|rewrite Rabs_right by lra; lra|].
  rewrite G in E. unfold reals in E. destruct g as [|a [|b [|]]]; try discriminate E. injection E as <- <-.
  specialize (D [(fun t => 3 * t); (fun t => 1 + t)] 1 [3; 1]). apply D.
  - unfold at_time. cbn. repeat f_equal; lra.
  - constructor; [|constructor; [|constructor]].
    + apply TapeProofs2.lim_eq with (3 * 1); [lra|]. exact (derivable_pt_lim_scal id 3 1 1 (derivable_pt_lim_id 1)).
    + apply TapeProofs2.lim_eq with (0 + 1); [lra|]. exact (derivable_pt_lim_plus (fun _ => 1) id 1 0 1 (derivable_pt_lim_const 1 1) (derivable_pt_lim_id 1)).
Qed.
