import sys; sys.path.insert(0,'/verif/tools')
from genprop import gen
H=lambda t:('h',t)
def Tm(th,lem,f,com=''): return ('t',th,lem,f,com)
def sec(c): return H('(* ------------------------------------------------------------------ %s *)'%c)
P3,P4,P5,P6,P7='TapeProofs3','TapeProofs4','TapeProofs5','TapeProofs6','TapeProofs7'
plan=[H(r'''(* Properties C87 and C88: inf and nan, and the gradients autograd computes, for the element-wise formulas of the library.
   Vocabulary: TapeModel.v (xr: reals, inf, nan; op, xop: forward, xback: backward; xout, xbwd; the tapes t_...: the operations
   PyTorch runs), TapeForms.v (the formulas f_..., in terms of the models of the files they come from), TapeSpec.v (is_real, grads, tame, smooth,
   right_gradient: the gradients are real numbers, and the slope of the formula along any curve is their inner product with the velocity). *)
From Coq Require Import Reals List Arith Bool Lia Lra.
From Verif Require Import TapeModel TapeSpec TapeForms TapeProofs TapeProofs3 TapeProofs4 TapeProofs5 TapeProofs6 TapeProofs7.
Import ListNotations.
'''),
sec('C87'),
Tm('C87_tape','p_tame',P3,'any tape: without division by zero, roots of 0, atan2(0, 0), everything is a real number'),
Tm('C87_unhomogenize','v_unhomog',P4,'unhomogenize_points: always a real number'),
Tm('C87_unhomogenize_grad','g_unhomog',P4),
Tm('C87_unhomogenize_infinity_refuted','n_unhomog',P4,'a point at infinity (w = 0, which the function documents): the gradient of w is nan'),
Tm('C87_project','v_project',P4,'project_points: always a real number'),
Tm('C87_project_grad','g_project',P4,'and always real gradients, z = 0 included'),
Tm('C87_focal','v_focal',P4,'inverse_intrinsics'),
Tm('C87_centre','v_centre',P4),
Tm('C87_focal_refuted','n_focal',P4,'fx = -eps'),
Tm('C87_axisangle','p_v_axisangle',P7,'quaternion_to_axisangle: always a real number'),
Tm('C87_axisangle_grad','g_axisangle',P6),
Tm('C87_axisangle_identity_refuted','n_axisangle',P7,'the identity rotation: every gradient is nan'),
Tm('C87_normalize','v_normalize',P5,'normalize_quaternion: always real numbers, the zero quaternion included'),
Tm('C87_normalize_grad','g_normalize',P5),
Tm('C87_normal','v_normal',P5,'normal maps: always real numbers, vanishing cross products included'),
Tm('C87_normal_grad','g_normal',P5),
Tm('C87_rodrigues','v_rod',P5,'so3_exp, se3_exp'),
Tm('C87_alpha','v_alpha',P5,'get_alpha'),
Tm('C87_alpha_grad','g_alpha',P5),
Tm('C87_alpha_refuted','n_alpha',P5,'sigma = 0'),
Tm('C87_fuse','v_fuse',P4,'the weighted mean of fusion: always real numbers, vanishing counts included'),
Tm('C87_fuse_grad','g_fuse',P4),
Tm('C87_damp','v_damp',P5,'gradICP: damping and step'),
Tm('C87_damp_grad','g_damp',P5),
Tm('C87_gate','v_gate',P5),
Tm('C87_gate_grad','g_gate',P5),
Tm('C87_pixel','v_pixel',P4,'normalize_pixel_coords'),
Tm('C87_pixel_refuted','n_pixel',P4,'an image of one row or column'),
sec('C88'),
Tm('C88_tape','p_smooth',P3,'any tape, away from the switching points of where and clamp'),
Tm('C88_unhomogenize','d_unhomog',P4),
Tm('C88_project','d_project',P4),
Tm('C88_focal','d_focal',P4),
Tm('C88_centre','d_centre',P4),
Tm('C88_axisangle','d_axisangle',P6),
Tm('C88_normalize','d_normalize',P5),
Tm('C88_normal','d_normal',P5),
Tm('C88_rodrigues','d_rod',P5),
Tm('C88_alpha','d_alpha',P5),
Tm('C88_fuse','d_fuse',P4),
Tm('C88_damp','d_damp',P5),
Tm('C88_gate','d_gate',P5),
Tm('C88_pixel','d_pixel',P4),
H(r'''Local Open Scope R_scope.
(* the point (3, 2) in homogeneous coordinates: 3/2, with gradients 1/2 and -3/4 *)
Example C87_witness : xout (t_unhomog (/ 1000000)) (reals [3; 2]) = Fin (3 / 2) /\
  xout (t_unhomog (/ 1000000)) (reals [3; 0]) = Fin 3.
Proof.
  split; (rewrite C87_unhomogenize by lra); unfold f_unhomog, rget, ProjModel.unhomog_scale; cbn [nth].
  - rewrite Rabs_right by lra. destruct (Rlt_dec _ _); [f_equal; lra|lra].
  - rewrite Rabs_R0. destruct (Rlt_dec _ _); [lra|f_equal; lra].
Qed.
Example C88_witness : grads (t_unhomog (/ 1000000)) [3; 2] = reals [1 / 2; - (3 / 4)] /\
  derivable_pt_lim (fun t => f_unhomog (/ 1000000) [3 * t; 1 + t]) 1 (1 / 2 * 3 + (- (3 / 4) * 1 + 0)).
Proof.
  assert (G : grads (t_unhomog (/ 1000000)) [3; 2] = reals [1 / 2; - (3 / 4)]).
  { unfold grads. rewrite xbwd_reals; [|apply tame_r; unfold t_unhomog; run; repeat split; lra]. unfold t_unhomog. cbn. rewrite Rabs_right by lra.
    destruct (Rlt_dec (/ 1000000) 2); [|lra]. cbn. unfold reals. cbn. f_equal; [f_equal; lra|f_equal; f_equal; lra]. }
  split; [exact G|].
  destruct (C88_unhomogenize (/ 1000000) 3 2) as (g & E & _ & D); [lra|rewrite Rabs_right by lra; lra|].
  rewrite G in E. unfold reals in E. destruct g as [|a [|b [|]]]; try discriminate E. injection E as <- <-.
  specialize (D [(fun t => 3 * t); (fun t => 1 + t)] 1 [3; 1]). apply D.
  - unfold at_time. cbn. repeat f_equal; lra.
  - constructor; [|constructor; [|constructor]].
    + apply TapeProofs2.lim_eq with (3 * 1); [lra|]. exact (derivable_pt_lim_scal id 3 1 1 (derivable_pt_lim_id 1)).
    + apply TapeProofs2.lim_eq with (0 + 1); [lra|]. exact (derivable_pt_lim_plus (fun _ => 1) id 1 0 1 (derivable_pt_lim_const 1 1) (derivable_pt_lim_id 1)).
Qed.
'''),
]
gen('/verif/rocq/theories/PropTape.v',plan)
