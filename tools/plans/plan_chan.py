import sys; sys.path.insert(0,'/verif/tools')
from genprop import gen
H=lambda t:('h',t)
def Tm(th,lem,f,com=''): return ('t',th,lem,f,com)
def sec(c): return H('(* ------------------------------------------------------------------ %s *)'%c)
P='ChanProofs'
plan=[H(r'''(* Property C80: SLAM on sequences whose images are stored channels first.
   Vocabulary: RHist q g cf fr = the object g was obtained through the API and holds the frames fr, channels first when cf = true; first_poses fr (ChanSpec.v) = the poses
   of fr, the identity when it has none; frame_rows fr x b = the valid pixels of the first frame of sequence b in row-major order (FusionSpec.v). *)
From Coq Require Import Reals List Arith ZArith Bool Lia Lra.
From Verif Require Import Res Fld StructUtilsModel PointcloudsModel PointcloudsSpec PointcloudsHist MatSpec GeomSpec TensorModel RgbdModel RgbdSpec RgbdPropProofs
  FusionModel FusionSpec FusionWitness Se3Model SolveModel IcpModel IcpSpec OdomSpec SlamModel SlamSpec SlamProofs SlamPropProofs IcpPropProofs BatchWitness ChanSpec ChanProofs.
Import ListNotations.
Local Open Scope nat_scope.
'''),
sec('C80'),
Tm('C80_ground_truth','p_chan_forward_gt',P,'ground truth and aggregation, whatever the layout: the given poses are returned and the map is the valid pixels of all frames'),
Tm('C80_same_in_both_layouts','p_chan_same',P,'the same images stored channels first and channels last: the same poses and the same map'),
Tm('C80_one_frame','p_chan_one_frame',P,'a single frame, whatever the layout and the odometry'),
Tm('C80_step','p_chan_step',P,'one step, whatever the layout of the live and of the previous frame, as long as no channels-first frame has to be registered or fused'),
Tm('C80_registration_step_refuted','p_chan_step_registration',P,'a channels-first frame cannot be registered: every step with a previous frame raises IndexError, after the frame has been given the previous poses'),
Tm('C80_registration_refuted','p_chan_forward_registration',P,'hence ICP and gradICP odometry never get past the first frame'),
Tm('C80_fusion_step_refuted','p_chan_step_fusion',P,'PointFusion rejects channels-first frames (of a width other than 3)'),
Tm('C80_fusion_refuted','p_chan_forward_fusion',P),
H(r'''(* two sequences of three frames in both layouts: ICPSLAM with the given poses agrees; ICP and PointFusion reject the channels-first one; 2 x 4 pixels for the latter *)
Definition wide_seq : frames :=
  mkFrames 1 2 2 4 (fun b l h w c => INR (c + h + 2 * w + l + b)) (fun b l h w => INR (l + w + b)) (fun b => pinhole 2 4 1 1 0) (Some (fun b l => pinhole 1 1 (INR l) 0 0)) None.
Example C80_witness : exists g g', RHist false g false (many 2 3) /\ RHist false g' true (many 2 3) /\
  (exists m t, forward (gt_slam Aggregate) true g' = (Ok (m, t), g')) /\ forward (mkSlam first_closest (OIcp (MIcp (IntV 1) 1 ThrNone)) (IntV 1) Aggregate) true g' = (Err IndexError, g').
Proof.
  destruct (many_hist 2 3) as (g & Hg). destruct (p_to_first false g (many 2 3) true Hg) as (g' & _ & Hg' & _). exists g, g'. split; [exact Hg|]. split; [exact Hg'|]. split.
  - destruct (p_chan_forward_gt (gt_slam Aggregate) g' false true (many 2 3) _ Hg' ltac:(cbn; lia) ltac:(cbn; lia) ltac:(cbn; lia) eq_refl eq_refl eq_refl) as (m & t & _ & E & _). eauto.
  - apply (p_chan_forward_registration (mkSlam first_closest (OIcp (MIcp (IntV 1) 1 ThrNone)) (IntV 1) Aggregate) (MIcp (IntV 1) 1 ThrNone) g' false (many 2 3) 1 eq_refl eq_refl eq_refl ltac:(lia) Hg'); cbn; lia.
Qed.
Example C80_witness_fusion : exists g, RHist false g true wide_seq /\ forward (gt_slam (Fusion 1 (-1) (SigNum 1))) true g = (Err ValueError, g).
Proof.
  destruct (StillPropProofs.frames_hist wide_seq _ eq_refl eq_refl) as (g & Hg). destruct (p_to_first false g wide_seq true Hg) as (g' & _ & Hg' & _). exists g'. split; [exact Hg'|].
  apply (p_chan_forward_fusion (gt_slam (Fusion 1 (-1) (SigNum 1))) 1 (-1) (SigNum 1) g' false wide_seq eq_refl ltac:(discriminate) Hg'); cbn; lia.
Qed.
'''),
]
gen('/verif/rocq/theories/PropChan.v',plan)
