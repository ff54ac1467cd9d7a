import sys; sys.path.insert(0,'/verif/tools')
from genprop import gen
H=lambda t:('h',t)
def Tm(th,lem,f,com=''): return ('t',th,lem,f,com)
def sec(c): return H('(* ------------------------------------------------------------------ %s *)'%c)
P='SlamPropProofs'; S='SlamProofs'; K='KeepProofs'
plan=[H(r'''(* Properties C45, C46: the SLAM loop.
   Vocabulary (SlamSpec.v): slam = the configured object (nearest-neighbour function, odometry, downsampling ratio, map
   update); client = the loop of the documentation, one step per frame, with any inplace argument per call; moment l fr
   = frame l of the sequences; posed T = with poses T; Localised = which poses step determines; Mapped = what the map
   update does with the frame; Trajectory = all maps and poses of a run; RegistrationFails = the ICP run of some batch
   element raises; Shows / RShows / Poses = what an object shows to the user. *)
From Coq Require Import Reals List Arith ZArith Bool Lia Lra.
From Verif Require Import Res Fld StructUtilsModel PointcloudsModel PointcloudsSpec PointcloudsHist
  MatSpec GeomSpec TensorModel RgbdModel RgbdSpec RgbdPropProofs RgbdWitness RgbdWitnessProofs
  FusionModel FusionSpec FusionMap FusionPropProofs2 FusionWitness Se3Model SolveModel IcpModel IcpSpec OdomSpec
  IcpPropProofs SlamModel SlamSpec SlamProofs SlamPropProofs KeepProofs.
Import ListNotations.
Local Open Scope nat_scope.
'''),
sec('C45'),
Tm('C45_fold','p_forward_fold',P,'forward is the loop of step calls from the empty map, and hands the sequence object back unchanged'),
Tm('C45_forward','p_forward',P,'what forward returns: the last map and all poses of a trajectory; it raises only if a registration does'),
Tm('C45_client','p_client',P,'the same for a client that calls step itself, in place or not, in any mixture'),
Tm('C45_ground_truth','p_forward_gt',P,'ground truth: never raises, and the recovered poses are exactly the input poses'),
Tm('C45_ground_truth_map','p_forward_gt_map',P,'ground truth and aggregation: the map is exactly the valid pixels of all frames in order'),
Tm('C45_ground_truth_poses','p_gt_any',K,'ground truth: whatever the layout, image size and map update, a call that returns reproduces the input poses'),
Tm('C45_aggregated','p_aggregated',P,'aggregation with any odometry'),
Tm('C45_ground_truth_without_poses','p_forward_gt_none',P),
Tm('C45_type','p_forward_type',P),
Tm('C45_odometry_names','p_new_odom',P),
Tm('C45_fusion_arguments','p_new_fusion',P),
H(r'''Example C45_witness : exists g fr T0, RHist false g false fr /\ fL fr = 2 /\ 0 < fB fr /\ 2 <= fH fr /\ 2 <= fW fr /\ fpose fr = Some T0 /\
  Sizes (gt_slam (Fusion 1 (-1) (SigNum 1))) (fB fr) (fH fr) (fW fr) (fL fr * (fH fr * fW fr)) /\
  s_odom (gt_slam Aggregate) = OGt /\ s_map (gt_slam Aggregate) = Aggregate /\ Ratio icp_slam.
Proof.
  destruct (w_hist 2 2 3) as (g & _ & Hg). exists g, (wfr 2 2 3). eexists. split; [exact Hg|]. split; [reflexivity|]. split; [cbn; lia|]. split; [cbn; lia|]. split; [cbn; lia|].
  split; [reflexivity|]. split; [split; [exists 1%R; split; [reflexivity|lra]|cbn; lia]|]. split; [reflexivity|]. split; [reflexivity|].
  exists 1%Z. split; [reflexivity|lia].
Qed.
'''),
H(r"""Example C45_witness_poses : exists g fr T0 m t, RHist false g true fr /\ fH fr = 2 /\ fW fr = 3 /\ fL fr = 2 /\ fpose fr = Some T0 /\ forward (gt_slam Aggregate) true g = (Ok (m, t), g).
Proof.
  destruct (w_hist 2 2 3) as (g & _ & Hg). destruct (p_to_first false g (wfr 2 2 3) true Hg) as (g' & _ & Hg' & _). exists g', (wfr 2 2 3). eexists.
  assert (K : exists m t, forward (gt_slam Aggregate) true g' = (Ok (m, t), g')).
  { pose proof (p_forward_cf (gt_slam Aggregate) g' false true (wfr 2 2 3) ltac:(intros _; split; [reflexivity|left; reflexivity]) Hg' ltac:(cbn; lia) ltac:(cbn; lia) ltac:(cbn; lia) I I ltac:(discriminate)) as K.
    destruct (forward (gt_slam Aggregate) true g') as [[[m t]|e] g2]; [destruct K as [-> _]; eauto|destruct K as (_ & l & maps & T & _ & _ & o & pf & Tp & ds & rows & b & K & _); discriminate]. }
  destruct K as (m & t & E). exists m, t. repeat (split; [first [exact Hg'|reflexivity]|]). exact E.
Qed.
"""),
sec('C46'),
Tm('C46_step_partial','p_step',P,'the pose rule, the map update, what is in place and what is not; with aggregation and inplace=False the map object keeps its contents.  Missing: the frame object is always changed (C46_frame_refuted), and so is the map under PointFusion (C46_map_refuted)'),
Tm('C46_frame_changed','p_step_poses',P,'with registration the frame handed in always gets new poses, even if the step raises'),
Tm('C46_frame_refuted','r_step_frame',P,'inplace=False changes the live frame'),
Tm('C46_map_refuted','r_step_map',P,'PointFusion with inplace=False changes the map it was given'),
Tm('C46_composition','compose_pose_mul',S,'for affine transforms the composition rule is the matrix product transform * previous pose'),
Tm('C46_composition_affine','compose_pose_affine',S),
Tm('C46_previous_without_poses','p_step_no_prev_pose',P),
Tm('C46_frame_without_poses','p_step_no_pose',P),
Tm('C46_empty_map','p_step_empty_map',K,'registration against an empty map raises ValueError, after the live frame has taken the poses of the previous frame'),
Tm('C46_same_frame','p_step_same',K,'one frame object in both roles: the effect is that of a separate copy as previous frame, whatever the objects'),
Tm('C46_inputs_kept','p_step_keeps',K,'whatever the objects, arguments and outcome, step changes no image, intrinsics or layout, and nothing of the previous frame'),
Tm('C46_types','p_step_types',P),
H(r'''Example C46_witness : exists s g v, ReadyToClone RF s m1 /\ RHist false g false (wfr 1 2 3) /\ live (wfr 1 2 3) /\ MapFor icp_slam 1 m1 /\ Ratio icp_slam /\
  RHist false v false (wfr 1 2 3) /\ fpose (wfr 1 2 3) <> None /\ qp m1 <> None /\ Sizes icp_slam 1 2 3 1 /\ npoints m1 0 <= 1.
Proof.
  destruct (map_exists _ _ m1_valid) as (s & Hs). destruct w13 as (g & Hg). exists s, g, g. split; [exact Hs|]. split; [exact Hg|]. split; [exact wfr_live|].
  split; [eapply (m1_mapfor icp_slam); reflexivity|]. split; [exists 1%Z; split; [reflexivity|lia]|]. split; [exact Hg|]. split; [discriminate|]. split; [discriminate|].
  split; [split; [exists 1%R; split; [reflexivity|lra]|lia]|]. cbn. lia.
Qed.
'''),
H(r"""Example C46_witness_empty : exists s g Tp, ReadyToClone RF s (no_batch RF) /\ RHist false g false (wfr 1 2 3) /\ live (wfr 1 2 3) /\ fL (wfr 1 2 3) = 1 /\ fpose (wfr 1 2 3) = Some Tp /\
  Ratio icp_slam /\ exists o, s_odom icp_slam = OIcp o.
Proof.
  destruct p_forward_fold as (s & _ & Hs & _). destruct w13 as (g & Hg). exists s, g. eexists. split; [exact Hs|]. split; [exact Hg|]. split; [exact wfr_live|]. split; [reflexivity|].
  split; [reflexivity|]. split; [exists 1%Z; split; [reflexivity|lia]|]. eexists. reflexivity.
Qed.
"""),
]
gen('PropSlam.v',plan)
