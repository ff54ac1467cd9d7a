import sys; sys.path.insert(0,'/verif/tools')
from genprop import gen
H=lambda t:('h',t)
def Tm(th,lem,f,com=''): return ('t',th,lem,f,com)
def sec(c): return H('(* ------------------------------------------------------------------ %s *)'%c)
M='GradMapProofs'; F='GradFuseProofs'
plan=[H(r'''(* Property C82: differentiability.  The images, depths, intrinsics and poses depend on a real parameter x; the results of the system have derivatives with respect to x.
   Vocabulary (GradSpec.v): differentiable f x = f has a derivative at x; near x P = P holds around x; smooth_frames F x0 = the sequences F x have the same sizes for all x, and
   colours, depths, intrinsics and poses have derivatives at x0; smooth_map B A x0 = near x0 the maps A x have the same number of points, and every value of the map has a derivative at x0;
   generic_step / generic_run = no decision of the fusion (visible, close, similar, best) is exactly on its boundary. *)
From Coq Require Import Reals List Arith ZArith Bool Lia Lra.
From Verif Require Import Res Fld StructUtilsModel PointcloudsModel PointcloudsSpec PointcloudsHist MatSpec GeomSpec TensorModel RgbdModel RgbdSpec RgbdPropProofs
  FusionModel FusionSpec FusionMap Se3Model SolveModel IcpModel IcpSpec OdomSpec SlamModel SlamSpec SlamProofs SlamPropProofs StillSpec StillPropProofs
  GradSpec GradProofs GradMapProofs GradFuseProofs GradRunProofs GradStillProofs GradWitness GradJumpProofs.
Import ListNotations.
Import FusionSpec.
Local Open Scope nat_scope.
'''),
sec('C82'),
Tm('C82_maps','p_grad_maps',M,'vertex map, normal map and their global versions have derivatives wherever the depth is not 0'),
Tm('C82_depth_derivative','p_depth_derivative',M,'the derivative with respect to the depth of one pixel: the viewing ray (rotated, for the global map); 0 where there is no depth; other pixels do not move'),
Tm('C82_depth_kink_refuted','p_depth_kink',M,'at depth 0 the vertex map has no derivative'),
Tm('C82_depth_jump_refuted','p_depth_jump',M,'at depth 0 the global vertex map is not even continuous, when the camera is not at the origin'),
Tm('C82_aggregate','p_grad_aggregate',M,'ICPSLAM-style aggregation with ground-truth odometry'),
Tm('C82_fusion','p_grad_forward','GradRunProofs','PointFusion with ground-truth odometry'),
Tm('C82_fusion_still','still_generic','GradStillProofs','a camera that does not move meets the condition generic_run of C82_fusion'),
Tm('C82_fusion_step','p_grad_update',F,'one call of update_map_fusion'),
Tm('C82_fusion_loop','p_grad_fusion',F,'a loop of calls of update_map_fusion, started with an empty map'),
Tm('C82_association_refuted','r_association','GradJumpProofs','generic_run cannot be dropped: with positive depths throughout, the number of points of the fused map jumps somewhere'),
H(r'''(* the family swing L: L frames of 2 x 3 pixels of a flat scene at depth x, seen by a camera that moves by x - 1 per frame *)
Example C82_witness : smooth_frames (swing 3) 1 /\ (forall x, RHist false (made (swing 3 x)) false (swing 3 x)) /\ no_zero_depth (swing 3 1) /\ live (moment 0 (swing 3 1)) /\
  generic_run grad_slam (swing 3 1) 1 (1 / 2) 1 /\ still_scene (swing 3 1) /\
  exists m ps a, (forall x, forward grad_slam true (made (swing 3 x)) = (Ok (m x, ps x), made (swing 3 x))) /\ (forall x, Shows RF (m x) (a x)) /\ smooth_map 1 a 1 /\ npoints (a 1%R) 0 = 6.
Proof.
  assert (NZ : no_zero_depth (swing 3 1)) by (intros b l h w _; cbn; lra).
  split; [apply swing_smooth|]. split; [intros x; exact (made_hist (swing 3 x) _ eq_refl eq_refl)|]. split; [exact NZ|]. split; [repeat split; cbn; lia|].
  split; [apply swing_generic; lia|]. split; [apply swing_still|]. destruct (swing_witness 3 ltac:(lia) ltac:(lia)) as (m & ps & a & HI & HF & HS). exists m, ps, a. split; [exact HF|]. split; [exact HS|]. split.
  - apply (p_grad_forward grad_slam (swing 3) 1 (fun _ => false) (fun x => made (swing 3 x)) m ps a 1 (1 / 2) 1); try reflexivity; try assumption; try (cbn; lia); try discriminate.
    + apply swing_smooth.
    + cbn [Sizes grad_slam gt_slam s_map fB fH fW fL swing]. split; [exists 1%R; split; [reflexivity|lra]|]. repeat split; discriminate.
    + apply swing_generic. lia.
  - destruct (swing_run 3 1 (m 1%R) (ps 1%R) (a 1%R) ltac:(lia) ltac:(lia) (HF 1%R) (HS 1%R)) as (maps & TR & ->).
    destruct (StillFuseProofs.averaged_trajectory grad_slam (swing 3 1) 3 maps (fun _ l => drift 1 l) 1 (1 / 2) (SigNum 1) (swing_still 3) ltac:(cbn; lia) ltac:(cbn; lia) eq_refl ltac:(lra)) as [_ A]; [|exact TR| |cbn; lia|].
    + intros b [h w] Hb _. assert (b = 0) as -> by (cbn in Hb; lia). destruct (swing_normal 3 h w) as (E2 & E0 & E1). unfold dot. cbn [rsum]. rewrite E0, E1, E2. lra.
    + intros b l Hb Hl i j Hi Hj. change (drift 1 l i j = drift 1 0 i j). rewrite !drift_I by assumption. reflexivity.
    + destruct (A 0 ltac:(cbn; lia)) as [-> _]. rewrite swing_pixels by lra. reflexivity.
Qed.
(* one depth of the second of three frames varies; the camera is then at (2 - 1, 0, 0) *)
Example C82_depth_witness : inside (swing 3 2) 0 1 0 2 /\ (forall x, RHist false (made (set_depth 0 1 0 2 x (swing 3 2))) false (set_depth 0 1 0 2 x (swing 3 2))) /\
  fpose (swing 3 2) = Some (fun _ l => drift 2 l) /\ fpix (swing 3 2) = None /\ drift 2 1 0 3 <> 0%R /\ ray (swing 3 2) 0 1 0 2 2 = 1%R.
Proof.
  split; [repeat split; cbn; lia|]. split; [intros x; exact (made_hist (set_depth 0 1 0 2 x (swing 3 2)) _ eq_refl eq_refl)|]. do 2 (split; [reflexivity|]). split; [unfold drift; cbn; lra|].
  unfold ray, mvec, kinv, pinhole, pixel. cbn. ring.
Qed.
'''),
]
gen('/verif/rocq/theories/PropGrad.v',plan)
