import sys; sys.path.insert(0,'/verif/tools')
from genprop import gen
H=lambda t:('h',t)
def Tm(th,lem,f,com=''): return ('t',th,lem,f,com)
def sec(c): return H('(* ------------------------------------------------------------------ %s *)'%c)
P='StillPropProofs'
plan=[H(r'''(* Properties C76, C77: a motionless camera.
   Vocabulary (StillSpec.v): ordinary_camera = pinhole without skew, no pixel 1000 focal lengths from the principal point; imaged_at = in front of the
   camera, inside the image, nearest to that pixel; still_scene = the same depth in every frame, an ordinary camera and a rigid first pose;
   first_pose = the pose of frame 0 (the identity without poses); pixels = the valid pixels of frame 0 row by row; point_at / normal_at = the world
   point / normal of frame 0 there; grid_pixels ds = those on the downsampling grid; Averaged sigma fr n a = map a has exactly one point per valid
   pixel, in that order, with that point and normal, the mean colour of n frames and n times the confidence of one observation. *)
From Coq Require Import Reals List Arith ZArith Bool Lia Lra.
From Verif Require Import Res Fld StructUtilsModel PointcloudsModel PointcloudsSpec PointcloudsHist MatSpec GeomSpec TensorModel RgbdModel RgbdSpec
  FusionModel FusionSpec FusionMap FusionWitness Se3Model SolveModel IcpModel IcpSpec OdomSpec SlamModel SlamSpec StillSpec SlamProofs SlamPropProofs IcpArgProofs IcpPropProofs IcpRunProofs StillProofs StillMapProofs StillPropProofs.
Import ListNotations.
Local Open Scope nat_scope.
'''),
sec('C76'),
Tm('C76_own_points','p_own_points',P,'a frame against a map made of its own points: every point is found at the pixel it comes from, and at no other'),
Tm('C76_still_camera','p_still',P,'both registration methods, both mappers, any length: every returned pose is the first one, registration never fails,\n   and the positions of the map are the positions of the first frame'),
Tm('C76_tiny_focal_refuted','r_tiny_focal',P,'without the bound on the focal length a frame does not find its own points at their pixels: a pixel in column 2 is found in column 1'),
sec('C77'),
Tm('C77_average','p_still_fused',P,'PointFusion with any odometry that returns the constant pose: one point per valid pixel, however many frames are fused;\n   points and normals stay, colours are averaged and confidences add up'),
Tm('C77_no_growth','p_averaged_size',P),
H(r'''(* three frames of 2 x 3 pixels, one of them without depth, with changing colours *)
Definition still_slam : slam := mkSlam first_closest (OIcp (MIcp (IntV 20) 1 ThrNone)) (IntV 2) (Fusion (/ 20) (9 / 10) (SigNum (3 / 5))).
Example C77_witness : exists g m t a, RHist false g false (still_fr 3) /\ forward still_slam true g = (Ok (m, t), g) /\ Poses (still_fr 3) t (fun _ _ => mI) /\
  ReadyToClone RF m a /\ Averaged (3 / 5) (still_fr 3) 3 a /\ npoints a 0 = 5 /\ attr_at a Colors 0 0 0 = 1%R.
Proof.
  destruct (frames_hist (still_fr 3) _ eq_refl eq_refl) as (g & Hg).
  assert (HS : Sizes still_slam (fB (still_fr 3)) (fH (still_fr 3)) (fW (still_fr 3)) (fL (still_fr 3) * (fH (still_fr 3) * fW (still_fr 3)))).
  { cbn [Sizes still_slam s_map fB fH fW fL still_fr]. split; [exists (3 / 5)%R; split; [reflexivity|lra]|]. repeat split; discriminate. }
  destruct (p_still still_slam (MIcp (IntV 20) 1 ThrNone) 2 g false (still_fr 3) Hg) as (m & t & a0 & E & HP & _ & _); try exact HS; try reflexivity; try (cbn; lia).
  - apply still_fr_still.
  - cbn. split; [lia|split; [lra|discriminate]].
  - exact first_closest_nearest.
  - destruct (p_still_fused still_slam g false (still_fr 3) (/ 20) (9 / 10) (SigNum (3 / 5)) m t (fun b _ => first_pose (still_fr 3) b) Hg) as (a & A1 & A2 & A3); try exact HS; try exact HP; try exact E; try reflexivity; try (cbn; lia); try lra; try discriminate.
    + apply still_fr_still.
    + exists 2%Z. split; [reflexivity|lia].
    + intros b q Hb Hq. cbn [fB still_fr] in Hb. assert (b = 0) as -> by lia. rewrite still_fr_normal by exact Hq. lra.
    + intros b l Hb Hl i j Hi Hj. reflexivity.
    + exists g, m, t, a. split; [exact Hg|]. split; [exact E|]. split; [exact HP|]. split; [exact A1|]. split; [exact A3|].
      destruct A3 as [_ A3]. destruct (A3 0 ltac:(cbn; lia)) as [N Q]. rewrite N, still_fr_pixels. split; [reflexivity|].
      destruct (Q 0 (0, 0)) as (_ & _ & C & _); [rewrite still_fr_pixels; reflexivity|]. rewrite C by lia. unfold mean_colour. cbn. lra.
Qed.
(* one frame with an ordinary camera and the map that ICPSLAM makes of it *)
Example C76_witness : still_scene (still_fr 3) /\ (forall b, b < 1 -> grid_pixels 2 (first_frame (still_fr 3)) b <> []) /\ good_method (MIcp (IntV 20) 1 ThrNone) /\
  exists s a g, ReadyToClone RF s a /\ RHist false g false (still_fr 1) /\ fB (still_fr 1) = len_view RF a /\ qp a <> None /\
    (forall b, b < 1 -> ordinary_camera 2 3 (fK (still_fr 1) b) /\ rigid4 mI) /\ rows_of a Points 0 = frame_rows (still_fr 1) Points 0 /\ npoints a 0 = 5.
Proof.
  split; [apply still_fr_still|]. split; [intros b Hb; apply still_fr_grid; exact Hb|]. split; [cbn; split; [lia|split; [lra|discriminate]]|].
  destruct (frames_hist (still_fr 1) _ eq_refl eq_refl) as (g & Hg).
  destruct (p_forward_gt (gt_slam Aggregate) g false (still_fr 1) (fun _ _ => mI) Hg) as (m & t & maps & T & E & H1 & H2 & H3 & H4 & H5); try reflexivity; try (cbn; lia).
  destruct H2 as [M0 H2]. destruct (H2 0 ltac:(cbn; lia)) as [_ [_ [(K1 & _ & K3) K4]]]. cbn [fL still_fr] in H3.
  assert (R : rows_of (maps 1) Points 0 = frame_rows (still_fr 1) Points 0).
  { rewrite (K4 Points 0 ltac:(discriminate) ltac:(cbn; lia)), M0. cbn [rows_of qget qp no_batch app]. unfold frame_rows. apply map_ext. intros q. apply map_ext. intros k.
    cbn [frame_attr]. unfold global_vertex. cbn [fpose posed with_fpose still_fr]. rewrite (H5 0 0) by (cbn; lia). reflexivity. }
  exists m, (maps 1), g. split; [exact H3|]. split; [exact Hg|]. split; [symmetry; exact K3|]. split; [exact (K1 Points ltac:(discriminate))|].
  split; [intros b Hb; exact (proj2 (proj2 (still_fr_still 1)) b Hb)|]. split; [exact R|].
  rewrite StillMapProofs.npoints_rows, R. unfold frame_rows. rewrite map_length. change (chosen true (still_fr 1) 0) with (pixels (still_fr 1) 0). rewrite still_fr_pixels. reflexivity.
Qed.
'''),
]
gen('/verif/rocq/theories/PropStill.v',plan)
