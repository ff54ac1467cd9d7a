(* Properties C45, C46: the SLAM loop.
   Vocabulary (SlamSpec.v): slam = the configured object (nearest-neighbour function, odometry, downsampling ratio, map
   update); client = the loop of the documentation, one step per frame, with any inplace argument per call; moment l fr
   = frame l of the sequences; posed T = with poses T; Localised = which poses step determines; Mapped = what the map
   update does with the frame; Trajectory = all maps and poses of a run; RegistrationFails = the ICP run of some batch
   element raises; Shows / RShows / Poses = what an object shows to the user. *)
From Coq Require Import Reals List Arith ZArith Bool Lia Lra.
From Verif Require Import Res Fld StructUtilsModel PointcloudsModel PointcloudsSpec PointcloudsHist
  MatSpec GeomSpec TensorModel RgbdModel RgbdSpec RgbdPropProofs RgbdWitness RgbdWitnessProofs
  FusionModel FusionSpec FusionMap FusionPropProofs2 FusionWitness Se3Model SolveModel IcpModel IcpSpec OdomSpec
  IcpPropProofs SlamModel SlamSpec SlamProofs SlamPropProofs KeepProofs.
Import ListNotations.
Local Open Scope nat_scope.

(* ------------------------------------------------------------------ C45 *)
(* forward is the loop of step calls from the empty map, and hands the sequence object back unchanged *)
Theorem C45_fold : exists p, empty_cloud = Ok p /\ ReadyToClone RF p (no_batch RF) /\
  forall c g, forward c true g = (match client c (fun _ => true) g (r_L g) 0 p None with
                                  | Ok (m, poses) => Ok (m, stack_poses (r_B g) poses) | Err e => Err e end, g).
Proof. exact p_forward_fold. Qed.
Print Assumptions C45_fold.

(* what forward returns: the last map and all poses of a trajectory; it raises only if a registration does *)
Theorem C45_forward : forall c g q fr,
  RHist q g false fr -> 0 < fB fr -> 2 <= fH fr -> 2 <= fW fr -> Ratio c ->
  Sizes c (fB fr) (fH fr) (fW fr) (fL fr * (fH fr * fW fr)) -> (s_odom c = OGt -> 2 <= fL fr -> fpose fr <> None) ->
  match forward c true g with
  | (Ok (m, t), g') => g' = g /\ exists maps T, Trajectory c fr (fL fr) maps T /\ ReadyToClone RF m (maps (fL fr)) /\ Shows RF m (maps (fL fr)) /\ Poses fr t T
  | (Err e, g') => g' = g /\ exists l maps T, l < fL fr /\ Trajectory c fr l maps T /\ RegistrationFails c (maps l) (previous c fr T l) (input_frame fr l) e
  end.
Proof. exact p_forward. Qed.
Print Assumptions C45_forward.

(* the same for a client that calls step itself, in place or not, in any mixture *)
Theorem C45_client : forall c inpl g q fr p,
  RHist q g false fr -> 0 < fB fr -> 2 <= fH fr -> 2 <= fW fr -> Ratio c ->
  Sizes c (fB fr) (fH fr) (fW fr) (fL fr * (fH fr * fW fr)) -> (s_odom c = OGt -> 2 <= fL fr -> fpose fr <> None) ->
  ReadyToClone RF p (no_batch RF) ->
  match client c inpl g (fL fr) 0 p None with
  | Ok (m, poses) => length poses = fL fr /\ exists maps T, Trajectory c fr (fL fr) maps T /\ ReadyToClone RF m (maps (fL fr)) /\ Shows RF m (maps (fL fr)) /\
      forall l, l < fL fr -> exists t, nth_error poses l = Some t /\ Poses (moment l fr) t (fun b _ => T b l)
  | Err e => exists l maps T, l < fL fr /\ Trajectory c fr l maps T /\ RegistrationFails c (maps l) (previous c fr T l) (input_frame fr l) e
  end.
Proof. exact p_client. Qed.
Print Assumptions C45_client.

(* ground truth: never raises, and the recovered poses are exactly the input poses *)
Theorem C45_ground_truth : forall c g q fr T0,
  RHist q g false fr -> 0 < fB fr -> 2 <= fH fr -> 2 <= fW fr -> s_odom c = OGt ->
  Sizes c (fB fr) (fH fr) (fW fr) (fL fr * (fH fr * fW fr)) -> fpose fr = Some T0 ->
  exists m t maps T, forward c true g = (Ok (m, t), g) /\ Poses fr t T0 /\ Trajectory c fr (fL fr) maps T /\ ReadyToClone RF m (maps (fL fr)) /\
    Shows RF m (maps (fL fr)) /\ forall b l, b < fB fr -> l < fL fr -> T b l = T0 b l.
Proof. exact p_forward_gt. Qed.
Print Assumptions C45_ground_truth.

(* ground truth and aggregation: the map is exactly the valid pixels of all frames in order *)
Theorem C45_ground_truth_map : forall c g q fr T0,
  RHist q g false fr -> 0 < fB fr -> 2 <= fH fr -> 2 <= fW fr -> s_odom c = OGt -> s_map c = Aggregate -> fpose fr = Some T0 ->
  exists m t a, forward c true g = (Ok (m, t), g) /\ Poses fr t T0 /\ ReadyToClone RF m a /\ Shows RF m a /\
    forall x b, x <> Features -> b < fB fr -> rows_of a x b = concat (map (fun l => frame_rows (moment l fr) x b) (seq 0 (fL fr))).
Proof. exact p_forward_gt_map. Qed.
Print Assumptions C45_ground_truth_map.

(* ground truth: whatever the layout, image size and map update, a call that returns reproduces the input poses *)
Theorem C45_ground_truth_poses : forall c q g cf fr T0 m t g',
  RHist q g cf fr -> 0 < fB fr -> s_odom c = OGt -> fpose fr = Some T0 -> forward c true g = (Ok (m, t), g') -> g' = g /\ Poses fr t T0.
Proof. exact p_gt_any. Qed.
Print Assumptions C45_ground_truth_poses.

(* aggregation with any odometry *)
Theorem C45_aggregated : forall c fr n maps T x b,
  s_map c = Aggregate -> Trajectory c fr n maps T -> x <> Features -> b < fB fr ->
  rows_of (maps n) x b = concat (map (fun l => frame_rows (posed (fun b => T b l) (moment l fr)) x b) (seq 0 n)).
Proof. exact p_aggregated. Qed.
Print Assumptions C45_aggregated.

Theorem C45_ground_truth_without_poses : forall c g q fr,
  RHist q g false fr -> 0 < fB fr -> 2 <= fH fr -> 2 <= fW fr -> s_odom c = OGt -> fpose fr = None -> 
  Sizes c (fB fr) (fH fr) (fW fr) (fH fr * fW fr) -> 2 <= fL fr -> forward c true g = (Err ValueError, g).
Proof. exact p_forward_gt_none. Qed.
Print Assumptions C45_ground_truth_without_poses.

Theorem C45_type : forall c g,
  forward c false g = (Err TypeError, g).
Proof. exact p_forward_type. Qed.
Print Assumptions C45_type.

Theorem C45_odometry_names : forall nn ds n damp th lmax B B2 nu,
  icpslam_new nn NOther ds n damp th lmax B B2 nu = Err ValueError /\
  icpslam_new nn NGt ds n damp th lmax B B2 nu = Ok (mkSlam nn OGt ds Aggregate) /\
  icpslam_new nn NIcp ds n damp th lmax B B2 nu = Ok (mkSlam nn (OIcp (MIcp n damp th)) ds Aggregate) /\
  icpslam_new nn NGradIcp ds n damp th lmax B B2 nu = Ok (mkSlam nn (OIcp (MGradIcp n damp th lmax B B2 nu)) ds Aggregate).
Proof. exact p_new_odom. Qed.
Print Assumptions C45_odometry_names.

Theorem C45_fusion_arguments : forall nn name dth ath sg ds n damp th lmax B B2 nu,
  (name = NOther -> pointfusion_new nn name dth ath sg ds n damp th lmax B B2 nu = Err ValueError) /\
  (name <> NOther -> dth = NumBad \/ ath = NumBad -> pointfusion_new nn name dth ath sg ds n damp th lmax B B2 nu = Err TypeError) /\
  (forall d a, name <> NOther -> dth = Num d -> ath = Num a -> exists o, 
     icpslam_new nn name ds n damp th lmax B B2 nu = Ok (mkSlam nn o ds Aggregate) /\
     pointfusion_new nn name dth ath sg ds n damp th lmax B B2 nu = Ok (mkSlam nn o ds (Fusion d (cos (a * PI / 180)) sg))).
Proof. exact p_new_fusion. Qed.
Print Assumptions C45_fusion_arguments.

Example C45_witness : exists g fr T0, RHist false g false fr /\ fL fr = 2 /\ 0 < fB fr /\ 2 <= fH fr /\ 2 <= fW fr /\ fpose fr = Some T0 /\
  Sizes (gt_slam (Fusion 1 (-1) (SigNum 1))) (fB fr) (fH fr) (fW fr) (fL fr * (fH fr * fW fr)) /\
  s_odom (gt_slam Aggregate) = OGt /\ s_map (gt_slam Aggregate) = Aggregate /\ Ratio icp_slam.
Proof.
  destruct (w_hist 2 2 3) as (g & _ & Hg). exists g, (wfr 2 2 3). eexists. split; [exact Hg|]. split; [reflexivity|]. split; [cbn; lia|]. split; [cbn; lia|]. split; [cbn; lia|].
  split; [reflexivity|]. split; [split; [exists 1%R; split; [reflexivity|lra]|cbn; lia]|]. split; [reflexivity|]. split; [reflexivity|].
  exists 1%Z. split; [reflexivity|lia].
Qed.

Example C45_witness_poses : exists g fr T0 m t, RHist false g true fr /\ fH fr = 2 /\ fW fr = 3 /\ fL fr = 2 /\ fpose fr = Some T0 /\ forward (gt_slam Aggregate) true g = (Ok (m, t), g).
Proof.
  destruct (w_hist 2 2 3) as (g & _ & Hg). destruct (p_to_first false g (wfr 2 2 3) true Hg) as (g' & _ & Hg' & _). exists g', (wfr 2 2 3). eexists.
  assert (K : exists m t, forward (gt_slam Aggregate) true g' = (Ok (m, t), g')).
  { pose proof (p_forward_cf (gt_slam Aggregate) g' false true (wfr 2 2 3) ltac:(intros _; split; [reflexivity|left; reflexivity]) Hg' ltac:(cbn; lia) ltac:(cbn; lia) ltac:(cbn; lia) I I ltac:(discriminate)) as K.
    destruct (forward (gt_slam Aggregate) true g') as [[[m t]|e] g2]; [destruct K as [-> _]; eauto|destruct K as (_ & l & maps & T & _ & _ & o & pf & Tp & ds & rows & b & K & _); discriminate]. }
  destruct K as (m & t & E). exists m, t. repeat (split; [first [exact Hg'|reflexivity]|]). exact E.
Qed.

(* ------------------------------------------------------------------ C46 *)
(* the pose rule, the map update, what is in place and what is not; with aggregation and inplace=False the map object keeps its contents.  Missing: the frame object is always changed (C46_frame_refuted), and so is the map under PointFusion (C46_map_refuted) *)
Theorem C46_step_partial : forall c s a g q fr v pf n inplace,
  ReadyToClone RF s a -> RHist q g false fr -> live fr -> MapFor c (fB fr) a -> Ratio c ->
  opt_rel (fun v pf => (exists q, RHist q v false pf) /\ fL pf = 1 /\ fB pf = fB fr /\ fpose pf <> None) v pf ->
  (s_odom c <> OGt -> pf <> None -> qp a <> None) -> (s_odom c = OGt \/ pf = None -> fpose fr <> None) ->
  Sizes c (fB fr) (fH fr) (fW fr) n -> (forall b, b < fB fr -> npoints a b <= n) ->
  match step c true true true inplace (s, g, v) with
  | (Ok (o, t), (s', g', v')) => (o = PSelf <-> inplace = true) /\ v' = v /\ exists T a', 
      ReadyToClone RF (returned o s') a' /\ Shows RF (returned o s') a' /\ Poses fr t (fun b _ => T b) /\
      Localised c a pf fr T /\ Mapped c a (posed T fr) a' /\ MapFor c (fB fr) a' /\ qp a' <> None /\
      (forall b, b < fB fr -> npoints a' b <= npoints a b + fH fr * fW fr) /\ RShows g' false (posed T fr) /\
      (s_map c = Aggregate -> inplace = false -> Shows RF s' a)
  | (Err e, (s', g', v')) => RegistrationFails c a pf fr e /\ v' = v /\ Shows RF s' a /\ exists P, RShows g' false (posed P fr)
  end.
Proof. exact p_step. Qed.
Print Assumptions C46_step_partial.

(* with registration the frame handed in always gets new poses, even if the step raises *)
Theorem C46_frame_changed : forall c o s a g q fr v pf n inplace,
  s_odom c = OIcp o -> ReadyToClone RF s a -> RHist q g false fr -> live fr -> MapFor c (fB fr) a -> Ratio c ->
  (exists q, RHist q v false pf) -> fL pf = 1 -> fB pf = fB fr -> fpose pf <> None -> qp a <> None ->
  Sizes c (fB fr) (fH fr) (fW fr) n -> (forall b, b < fB fr -> npoints a b <= n) ->
  exists P, RShows (snd (fst (snd (step c true true true inplace (s, g, Some v))))) false (posed P fr).
Proof. exact p_step_poses. Qed.
Print Assumptions C46_frame_changed.

(* inplace=False changes the live frame *)
Theorem C46_frame_refuted : exists s a g fr v, ReadyToClone RF s a /\ RHist false g false fr /\ live fr /\ RHist false v false (wfr 1 2 3) /\
  Ratio icp_slam /\ r_poses g = None /\ r_poses (snd (fst (snd (step icp_slam true true true false (s, g, Some v))))) <> None.
Proof. exact r_step_frame. Qed.
Print Assumptions C46_frame_refuted.

(* PointFusion with inplace=False changes the map it was given *)
Theorem C46_map_refuted : let c := gt_slam (Fusion 1 (-1) (SigNum 1)) in exists s a g fr o t s' g' v a1, ReadyToClone RF s a /\ RHist false g false fr /\ live fr /\ MapFor c (fB fr) a /\
  Sizes c (fB fr) (fH fr) (fW fr) 1 /\ step c true true true false (s, g, None) = (Ok (PNew o, t), (s', g', v)) /\
  Shows RF s a /\ Shows RF s' a1 /\ (conf a 0 0 < conf a1 0 0)%R.
Proof. exact r_step_map. Qed.
Print Assumptions C46_map_refuted.

(* for affine transforms the composition rule is the matrix product transform * previous pose *)
Theorem C46_composition : forall X P, affine4 X -> affine4 P -> meq 4 4 (compose_pose X P) (mmul 4 X P).
Proof. exact compose_pose_mul. Qed.
Print Assumptions C46_composition.

Theorem C46_composition_affine : forall X P,
  affine4 (compose_pose X P).
Proof. exact compose_pose_affine. Qed.
Print Assumptions C46_composition_affine.

Theorem C46_previous_without_poses : forall c o s g v inplace,
  s_odom c = OIcp o -> r_poses v = None ->
  step c true true true inplace (s, g, Some v) = (Err ValueError, (s, g, Some v)).
Proof. exact p_step_no_prev_pose. Qed.
Print Assumptions C46_previous_without_poses.

Theorem C46_frame_without_poses : forall c s a g v inplace,
  ReadyToClone RF s a -> s_odom c = OGt \/ v = None -> r_poses g = None ->
  exists s', step c true true true inplace (s, g, v) = (Err ValueError, (s', g, v)) /\ ReadyToClone RF s' a /\ Shows RF s' a.
Proof. exact p_step_no_pose. Qed.
Print Assumptions C46_frame_without_poses.

(* registration against an empty map raises ValueError, after the live frame has taken the poses of the previous frame *)
Theorem C46_empty_map : forall c o s g q fr v qv cfv pf Tp inplace,
  s_odom c = OIcp o -> Ratio c -> ReadyToClone RF s (no_batch RF) -> RHist q g false fr -> live fr ->
  RHist qv v cfv pf -> fL pf = 1 -> fB pf = fB fr -> fpose pf = Some Tp ->
  exists s' g', step c true true true inplace (s, g, Some v) = (Err ValueError, (s', g', Some v)) /\ ReadyToClone RF s' (no_batch RF) /\
    RShows g' false (posed (fun b => Tp b 0) fr).
Proof. exact p_step_empty_map. Qed.
Print Assumptions C46_empty_map.

(* one frame object in both roles: the effect is that of a separate copy as previous frame, whatever the objects *)
Theorem C46_same_frame : forall c inplace s g,
  exists r s1 g1,
  step_same c inplace (s, g) = (r, (s1, g1)) /\ step c true true true inplace (s, g, Some g) = (r, (s1, g1, Some g)).
Proof. exact p_step_same. Qed.
Print Assumptions C46_same_frame.

(* whatever the objects, arguments and outcome, step changes no image, intrinsics or layout, and nothing of the previous frame *)
Theorem C46_inputs_kept : forall c b1 b2 b3 inplace s g v,
  let w := snd (step c b1 b2 b3 inplace (s, g, v)) in
  r_rgb (snd (fst w)) = r_rgb g /\ r_depth (snd (fst w)) = r_depth g /\ r_intr (snd (fst w)) = r_intr g /\ r_cf (snd (fst w)) = r_cf g /\
  match v, snd w with
  | None, None => True
  | Some v, Some v' => r_rgb v' = r_rgb v /\ r_depth v' = r_depth v /\ r_intr v' = r_intr v /\ r_poses v' = r_poses v /\ r_cf v' = r_cf v
  | _, _ => False
  end.
Proof. exact p_step_keeps. Qed.
Print Assumptions C46_inputs_kept.

Theorem C46_types : forall c pc_ok live_ok prev_ok inplace w,
  pc_ok = false \/ live_ok = false \/ prev_ok = false ->
  step c pc_ok live_ok prev_ok inplace w = (Err TypeError, w).
Proof. exact p_step_types. Qed.
Print Assumptions C46_types.

Example C46_witness : exists s g v, ReadyToClone RF s m1 /\ RHist false g false (wfr 1 2 3) /\ live (wfr 1 2 3) /\ MapFor icp_slam 1 m1 /\ Ratio icp_slam /\
  RHist false v false (wfr 1 2 3) /\ fpose (wfr 1 2 3) <> None /\ qp m1 <> None /\ Sizes icp_slam 1 2 3 1 /\ npoints m1 0 <= 1.
Proof.
  destruct (map_exists _ _ m1_valid) as (s & Hs). destruct w13 as (g & Hg). exists s, g, g. split; [exact Hs|]. split; [exact Hg|]. split; [exact wfr_live|].
  split; [eapply (m1_mapfor icp_slam); reflexivity|]. split; [exists 1%Z; split; [reflexivity|lia]|]. split; [exact Hg|]. split; [discriminate|]. split; [discriminate|].
  split; [split; [exists 1%R; split; [reflexivity|lra]|lia]|]. cbn. lia.
Qed.

Example C46_witness_empty : exists s g Tp, ReadyToClone RF s (no_batch RF) /\ RHist false g false (wfr 1 2 3) /\ live (wfr 1 2 3) /\ fL (wfr 1 2 3) = 1 /\ fpose (wfr 1 2 3) = Some Tp /\
  Ratio icp_slam /\ exists o, s_odom icp_slam = OIcp o.
Proof.
  destruct p_forward_fold as (s & _ & Hs & _). destruct w13 as (g & Hg). exists s, g. eexists. split; [exact Hs|]. split; [exact Hg|]. split; [exact wfr_live|]. split; [reflexivity|].
  split; [reflexivity|]. split; [exists 1%Z; split; [reflexivity|lia]|]. eexists. reflexivity.
Qed.
