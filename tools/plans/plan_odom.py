import sys; sys.path.insert(0,'/verif/tools')
from genprop import gen
H=lambda t:('h',t)
def Tm(th,lem,f,com=''): return ('t',th,lem,f,com)
def sec(c): return H('(* ------------------------------------------------------------------ %s *)'%c)
S='IcpSolveProofs'; G='IcpPropProofs'; A='IcpArgProofs'; O='OdomPropProofs'; D='DownProofs'
plan=[H(r'''(* Properties C47-C54: odometry.
   Vocabulary (IcpSpec.v, OdomSpec.v): pts_of x = the points of a (1, N, 3) tensor; ent T [] = a 4 x 4 tensor as a
   matrix; moved T s = every point transformed; plane_res n d p = n . (p - d); plane_err = sum of squared residuals of
   the kept source points against the plane of their nearest target point; match_of = that target point;
   normal_eq n k A b damp x = (A^T A + damp I) x = A^T b; lm_step = the damped Gauss-Newton twist; proposal = that
   twist and its se3 exponential; nn is any function that returns a nearest target point (chamferdist's knn_points). *)
From Coq Require Import Reals List Arith ZArith Bool Lia Lra.
From Verif Require Import Res Fld StructUtilsModel PointcloudsModel PointcloudsSpec PointcloudsHist
  MatSpec GeomSpec TensorModel RgbdModel RgbdSpec RgbdWitness RgbdWitnessProofs ExpProofs
  FusionModel FusionSpec FusionMap FusionPropProofs2 FusionWitness Se3Model SolveModel IcpModel IcpSpec OdomSpec SolveProofs
  IcpSolveProofs IcpPropProofs IcpRunProofs2 IcpArgProofs DownProofs OdomPropProofs.
Import ListNotations.
Local Open Scope nat_scope.
'''),
sec('C47'),
Tm('C47_solve','p_solve',S,'exists, is the unique solution of the normal equations, is the unique minimiser'),
Tm('C47_solve_any_damping','p_solve_any',S,'any damping: solved when A^T A + damp I is injective, RuntimeError when it is singular'),
Tm('C47_types','p_solve_rejects',S),
Tm('C47_shapes','p_solve_shapes',S),
H(r'''(* a rank-deficient 1 x 2 system: x + 0 y = 3 with damping 1 has the solution (3/2, 0) *)
Example C47_witness : let A := mkTen [2; 1] (fun ix => match ix with 0 :: _ => 1%R | _ => 0%R end) in let b := mkTen [1; 1] (fun _ => 3%R) in
  shape A = [1; 2] /\ shape b = [1; 1] /\ damp_ok (DFloat 1%R) /\ (0 < damp_val (DFloat 1))%R /\
  normal_eq 1 2 (ent A []) (fun r => at_ b [0; r]) 1 (fun i => match i with 0 => 3/2 | _ => 0 end)%R.
Proof.
  cbv zeta. split; [reflexivity|]. split; [reflexivity|]. split; [exact I|]. split; [cbn; lra|].
  intros [|[|i]] Hi; [| |lia]; unfold mvec, normal_mat, delta, ent; cbn; lra.
Qed.
'''),
sec('C48'),
Tm('C48_rows','p_gn',G,'row r: the linear part of the residual at the identity twist; entry r of b: minus the residual'),
Tm('C48_exponential_curve','p_exp_curve',G,'the transform curve whose residual the rows differentiate is the code\'s se3 exponential'),
Tm('C48_types','p_gn_types',G),
Tm('C48_shapes','p_gn_shapes',G),
H(r'''Example C48_witness : icp_input first_closest (one_pt 1 2 3) (one_pt 0 0 0) (one_pt 0 0 1) 1 1 ThrNone /\
  kept_pts first_closest (keep_sq ThrNone) 1 1 (pts_of (one_pt 0 0 0)) (pts_of (one_pt 1 2 3)) = [0].
Proof. split; [apply one_input|reflexivity]. Qed.
'''),
sec('C49'),
Tm('C49_threshold_partial','p_threshold',G,'the kept points are those closer than the square root of dist_thresh'),
Tm('C49_no_threshold','p_threshold_none',G),
Tm('C49_distance_refuted','p_threshold_refuted',G,'points closer than dist_thresh are dropped, points farther than dist_thresh are kept'),
H(r'''Example C49_witness : icp_input first_closest (one_pt 1 2 3) (one_pt 0 0 0) (one_pt 0 0 1) 1 1 (Thr 2).
Proof. destruct (one_input 1 2 3 0 0 0 0 0 1) as (H1 & H2 & H3 & H4 & H5 & _). repeat (split; [assumption|]). discriminate. Qed.
'''),
sec('C50'),
Tm('C50_total','p_icp_total',O,'every positive number of iterations terminates with a 4 x 4 transform'),
Tm('C50_error_never_increases','p_icp_mono',O,'the error of the source moved by the returned transform, after n and after m >= n iterations'),
Tm('C50_one_iteration','p_icp_one',O,'the proposal is applied exactly when it lowers the error'),
Tm('C50_iterations','p_icp_restart',O,'1 + n iterations: one iteration, then n from its result, with the damping halved when the error fell and doubled otherwise'),
Tm('C50_rigid_partial','p_icp_near',O,'lengths are preserved up to (1 + 1e-12)^n; exact rigidity is refuted below'),
Tm('C50_rigid_refuted','p_rigid_refuted',A,'below |omega| = 1e-6 the exponential uses I + skew(omega), which is no rotation'),
H(r'''Example C50_witness : icp_input first_closest (one_pt 1 2 3) (one_pt 0 0 0) (one_pt 0 0 1) 1 1 ThrNone /\
  mat44 eye4 /\ affine4 (ent eye4 []) /\ near_isometry 1 (rot_of (ent eye4 [])).
Proof. split; [apply one_input|]. split; [exact eye_mat44|]. split; [apply eye_rigid|exact near_eye]. Qed.
'''),
sec('C51'),
Tm('C51_initial_transform_none_refuted','p_init_none',A,'the documented default initial_transform=None raises AttributeError'),
Tm('C51_numiters_zero_refuted','p_no_iterations',A,'numiters <= 0 raises UnboundLocalError'),
Tm('C51_icp_types','p_icp_types',A),
Tm('C51_gradicp_types','p_grad_types',A),
Tm('C51_initial_transform_shape','p_init_shape',A),
Tm('C51_zero_parameters','p_zero_division',A,'lambda_max = 0 and nu = 0'),
Tm('C51_positive_iterations_partial','p_icp_total',O,'missing: numiters = 0 and initial_transform = None, refuted above'),
H(r'''Example C51_witness : icp_input first_closest (one_pt 1 2 3) (one_pt 0 0 0) (one_pt 0 0 1) 1 1 ThrNone /\ mat44 eye4 /\
  ~ mat44 (mkTen [3; 4] (fun _ => 0%R)).
Proof. split; [apply one_input|]. split; [exact eye_mat44|]. unfold mat44. cbn. congruence. Qed.
'''),
sec('C52'),
Tm('C52_one_step','p_grad_one',A,'the twist is scaled by q with 0 < q < 1'),
Tm('C52_iterations','p_grad_restart',A,'1 + n iterations: one iteration, then n from its result, with the damping times a factor between 1/lambda_max and lambda_max, still positive'),
Tm('C52_total','p_grad_total',O),
Tm('C52_rigid_up_to_eps','p_grad_near',O),
Tm('C52_no_overflow_partial','p_no_overflow',O,'B and B2 up to 1, the default; refuted for 2'),
Tm('C52_overflow_refuted','p_overflow_refuted',A,'B = 2 (a positive parameter): the exponential of the clamped error exceeds the largest float32'),
Tm('C52_step_grows_with_error','p_soft_step_increasing',O,'observation: the step factor is larger the more the proposal would increase the error'),
Tm('C52_damping_grows_with_error','p_damp_factor_increasing',O),
H(r'''Example C52_witness : icp_input first_closest (one_pt 1 2 3) (one_pt 0 0 0) (one_pt 0 0 1) 1 1 ThrNone /\ mat44 eye4 /\ affine4 (ent eye4 []) /\
  (0 < 2 /\ 0 < 200 /\ 0 <= 1 <= 1)%R.
Proof. split; [apply one_input|]. split; [exact eye_mat44|]. split; [apply eye_rigid|lra]. Qed.
'''),
sec('C53'),
Tm('C53_frames_partial','p_down_frames',D,'channels-last frames; channels-first frames are not downsampled, see below'),
Tm('C53_frames_type','p_down_frames_type',D),
Tm('C53_frames_length','p_down_frames_length',D),
Tm('C53_frames_ratio','p_down_frames_ratio',D),
Tm('C53_frames_channels_first_refuted','p_down_frames_cf',D,'channels-first frames are not downsampled: indexing fails for every ratio'),
Tm('C53_map','p_thin_map',O,'any table of active points'),
Tm('C53_map_types','p_down_map_types',D),
Tm('C53_map_shape','p_down_map_shape',D),
Tm('C53_map_zero','p_down_map_zero',D),
H(r'''Example C53_witness : (exists g, RHist false g false (wfr 1 2 3) /\ fL (wfr 1 2 3) = 1) /\
  chosen true (wfr 1 2 3) 0 = [(0, 1); (0, 2); (1, 1); (1, 2)] /\ grid_pixels 2 (wfr 1 2 3) 0 = [(0, 2)] /\
  (exists s, ReadyToClone RF s m1) /\ in_map m1 (mkRow 0 0 0 1) /\ thinned 2 [mkRow 0 0 0 1; mkRow 0 0 4 2] 0 = [0].
Proof.
  assert (Hc : chosen true (wfr 1 2 3) 0 = [(0, 1); (0, 2); (1, 1); (1, 2)]) by exact wfr_chosen.
  split; [destruct w13 as (g & Hg); exists g; split; [exact Hg|reflexivity]|]. split; [exact Hc|].
  split; [unfold grid_pixels; rewrite Hc; reflexivity|]. split; [exact (map_exists _ _ m1_valid)|].
  split; [split; [unfold len_view; cbn; lia|unfold npoints; cbn; lia]|reflexivity].
Qed.
'''),
sec('C54'),
Tm('C54_provide','p_provide',O,'entry b of the (B, 1, 4, 4) result is the transform of clouds b alone'),
Tm('C54_first_error','p_provide_err',O),
Tm('C54_batch_mismatch','p_provide_mismatch',O),
Tm('C54_no_normals','p_provide_no_normals',O),
Tm('C54_total','p_provide_total',O,'documented parameters, no empty map cloud beside a frame with points: succeeds, every bottom row is (0, 0, 0, 1)'),
H(r'''Example C54_witness : exists s t, Hist RF s m1 /\ Hist RF t m0 /\ qp m1 <> None /\ qn m1 <> None /\ qp m0 <> None /\
  IcpSpec.nearest first_closest /\ good_method (MIcp (IntV 20) 1 ThrNone) /\ (forall P, qp m1 = Some P -> forall b, (b < length P)%nat -> t2r (nth b P (mkT2 0 [] : t2 RF)) <> []).
Proof.
  destruct (map_exists _ _ m1_valid) as (s & Hs). destruct (map_exists _ _ m0_valid) as (t & Ht). apply ready_iff in Hs, Ht. destruct Hs as [Hs _], Ht as [Ht _]. exists s, t.
  split; [exact Hs|]. split; [exact Ht|]. repeat (split; [discriminate|]). split; [exact first_closest_nearest|].
  split; [cbn; split; [lia|split; [lra|discriminate]]|]. intros P HP. cbn in HP. injection HP as <-. intros b Hb. destruct b; [discriminate|cbn in Hb; lia].
Qed.
'''),
]
gen('PropOdometry.v',plan)
