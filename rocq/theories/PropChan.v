(* Property C80: SLAM on sequences whose images are stored channels first.
   Vocabulary: RHist q g cf fr = the object g was obtained through the API and holds the frames fr, channels first when cf = true; first_poses fr (ChanSpec.v) = the poses
   of fr, the identity when it has none; frame_rows fr x b = the valid pixels of the first frame of sequence b in row-major order (FusionSpec.v). *)
From Coq Require Import Reals List Arith ZArith Bool Lia Lra.
From Verif Require Import Res Fld StructUtilsModel PointcloudsModel PointcloudsSpec PointcloudsHist MatSpec GeomSpec TensorModel RgbdModel RgbdSpec RgbdPropProofs
  FusionModel FusionSpec FusionWitness Se3Model SolveModel IcpModel IcpSpec OdomSpec SlamModel SlamSpec SlamProofs SlamPropProofs IcpPropProofs BatchWitness ChanSpec ChanProofs.
Import ListNotations.
Local Open Scope nat_scope.

(* ------------------------------------------------------------------ C80 *)
(* ground truth and aggregation, whatever the layout: the given poses are returned and the map is the valid pixels of all frames *)
Theorem C80_ground_truth : forall c g q cf fr T0,
  RHist q g cf fr -> 0 < fB fr -> 2 <= fH fr -> 2 <= fW fr -> s_odom c = OGt -> s_map c = Aggregate -> fpose fr = Some T0 ->
  exists m t a, forward c true g = (Ok (m, t), g) /\ Poses fr t T0 /\ ReadyToClone RF m a /\ Shows RF m a /\
    forall x b, x <> Features -> b < fB fr -> rows_of a x b = concat (map (fun l => frame_rows (moment l fr) x b) (seq 0 (fL fr))).
Proof. exact p_chan_forward_gt. Qed.
Print Assumptions C80_ground_truth.

(* the same images stored channels first and channels last: the same poses and the same map *)
Theorem C80_same_in_both_layouts : forall c g q cf g' q' cf' fr T0,
  RHist q g cf fr -> RHist q' g' cf' fr -> 0 < fB fr -> 2 <= fH fr -> 2 <= fW fr -> s_odom c = OGt -> s_map c = Aggregate ->
  fpose fr = Some T0 ->
  exists m t a m' t' a', forward c true g = (Ok (m, t), g) /\ forward c true g' = (Ok (m', t'), g') /\ Shows RF m a /\ Shows RF m' a' /\
    (forall b l, b < fB fr -> l < fL fr -> meq 4 4 (ent t [l; b]) (ent t' [l; b])) /\
    (forall x b, x <> Features -> b < fB fr -> rows_of a x b = rows_of a' x b).
Proof. exact p_chan_same. Qed.
Print Assumptions C80_same_in_both_layouts.

(* a single frame, whatever the layout and the odometry *)
Theorem C80_one_frame : forall c g q cf fr,
  RHist q g cf fr -> 0 < fB fr -> 2 <= fH fr -> 2 <= fW fr -> fL fr = 1 -> s_map c = Aggregate -> Ratio c ->
  exists m t a, forward c true g = (Ok (m, t), g) /\ Poses fr t (first_poses fr) /\ ReadyToClone RF m a /\ Shows RF m a /\
    forall x b, x <> Features -> b < fB fr -> rows_of a x b = frame_rows (with_fpose (Some (first_poses fr)) fr) x b.
Proof. exact p_chan_one_frame. Qed.
Print Assumptions C80_one_frame.

(* one step, whatever the layout of the live and of the previous frame, as long as no channels-first frame has to be registered or fused *)
Theorem C80_step : forall c s a g q cf fr v pf n inplace,
  (cf = true -> s_map c = Aggregate /\ (s_odom c = OGt \/ pf = None)) ->
  ReadyToClone RF s a -> RHist q g cf fr -> live fr -> MapFor c (fB fr) a -> Ratio c ->
  opt_rel (fun v pf => (exists q cf, RHist q v cf pf) /\ fL pf = 1 /\ fB pf = fB fr /\ fpose pf <> None) v pf ->
  (s_odom c <> OGt -> pf <> None -> qp a <> None) -> (s_odom c = OGt \/ pf = None -> fpose fr <> None) ->
  Sizes c (fB fr) (fH fr) (fW fr) n -> (forall b, b < fB fr -> npoints a b <= n) ->
  match step c true true true inplace (s, g, v) with
  | (Ok (o, t), (s', g', v')) => (o = PSelf <-> inplace = true) /\ v' = v /\ exists T a', 
      ReadyToClone RF (returned o s') a' /\ Shows RF (returned o s') a' /\ Poses fr t (fun b _ => T b) /\
      Localised c a pf fr T /\ Mapped c a (posed T fr) a' /\ MapFor c (fB fr) a' /\ qp a' <> None /\
      (forall b, b < fB fr -> npoints a' b <= npoints a b + fH fr * fW fr) /\ RShows g' cf (posed T fr) /\
      (s_map c = Aggregate -> inplace = false -> Shows RF s' a)
  | (Err e, (s', g', v')) => RegistrationFails c a pf fr e /\ v' = v /\ Shows RF s' a /\ exists P, RShows g' cf (posed P fr)
  end.
Proof. exact p_chan_step. Qed.
Print Assumptions C80_step.

(* a channels-first frame cannot be registered: every step with a previous frame raises IndexError, after the frame has been given the previous poses *)
Theorem C80_registration_step_refuted : forall c o s g q fr v pf q0 cf0 ds inplace,
  s_odom c = OIcp o -> s_ds c = IntV ds -> (0 < ds)%Z ->
  RHist q g true fr -> live fr -> RHist q0 v cf0 pf -> fL pf = 1 -> fB pf = fB fr -> fpose pf <> None ->
  exists g' P, step c true true true inplace (s, g, Some v) = (Err IndexError, (s, g', Some v)) /\ RShows g' true (posed P fr).
Proof. exact p_chan_step_registration. Qed.
Print Assumptions C80_registration_step_refuted.

(* hence ICP and gradICP odometry never get past the first frame *)
Theorem C80_registration_refuted : forall c o g q fr ds,
  s_odom c = OIcp o -> s_map c = Aggregate -> s_ds c = IntV ds -> (0 < ds)%Z -> RHist q g true fr ->
  0 < fB fr -> 2 <= fH fr -> 2 <= fW fr -> 2 <= fL fr -> forward c true g = (Err IndexError, g).
Proof. exact p_chan_forward_registration. Qed.
Print Assumptions C80_registration_refuted.

(* PointFusion rejects channels-first frames (of a width other than 3) *)
Theorem C80_fusion_step_refuted : forall c d t sigma s g q fr inplace,
  s_map c = Fusion d t sigma -> sigma <> SigBad -> ReadyToClone RF s (no_batch RF) -> RHist q g true fr -> live fr ->
  fpose fr <> None -> fW fr <> 3 ->
  exists s' g', step c true true true inplace (s, g, None) = (Err ValueError, (s', g', None)) /\ Shows RF s' (no_batch RF) /\ RShows g' true fr.
Proof. exact p_chan_step_fusion. Qed.
Print Assumptions C80_fusion_step_refuted.

Theorem C80_fusion_refuted : forall c d t sigma g q fr,
  s_map c = Fusion d t sigma -> sigma <> SigBad -> RHist q g true fr -> 0 < fB fr -> 2 <= fH fr -> 2 <= fW fr -> fW fr <> 3 -> 0 < fL fr ->
  forward c true g = (Err ValueError, g).
Proof. exact p_chan_forward_fusion. Qed.
Print Assumptions C80_fusion_refuted.

(* two sequences of three frames in both layouts: ICPSLAM with the given poses agrees; ICP and PointFusion reject the channels-first one; 2 x 4 pixels for the latter *)
Definition wide_seq : frames :=
  mkFrames 1 2 2 4 (fun b l h w c => INR (c + h + 2 * w + l + b)) (fun b l h w => INR (l + w + b)) (fun b => pinhole 2 4 1 1 0) (Some (fun b l => pinhole 1 1 (INR l) 0 0)) None.
Example C80_witness : exists g g', RHist false g false (many 2 3) /\ RHist false g' true (many 2 3) /\
  (exists m t, forward (gt_slam Aggregate) true g' = (Ok (m, t), g')) /\ forward (mkSlam first_closest (OIcp (MIcp (IntV 1) 1 ThrNone)) (IntV 1) Aggregate) true g' = (Err IndexError, g').
Proof.
  destruct (many_hist 2 3) as (g & Hg). destruct (p_to_first false g (many 2 3) true Hg) as (g' & _ & Hg' & _). exists g, g'. split; [exact Hg|]. split; [exact Hg'|]. split.
  - destruct (p_chan_forward_gt (gt_slam Aggregate) g' false true (many 2 3) _ Hg' ltac:(cbn; lia) ltac:(cbn; lia) ltac:(cbn; lia) eq_refl eq_refl eq_refl) as (m & t & _ & E & _). eauto.
  - apply (p_chan_forward_registration (mkSlam first_closest (OIcp (MIcp (IntV 1) 1 ThrNone)) (IntV 1) Aggregate) (MIcp (IntV 1) 1 ThrNone) g' false (many 2 3) 1 eq_refl eq_refl eq_refl ltac:(lia) Hg'); cbn; lia.
Qed.
Example C80_witness_fusion : exists g, RHist false g true wide_seq /\ forward (gt_slam (Fusion 1 (-1) (SigNum 1))) true g = (Err ValueError, g).
Proof.
  destruct (StillPropProofs.frames_hist wide_seq _ eq_refl eq_refl) as (g & Hg). destruct (p_to_first false g wide_seq true Hg) as (g' & _ & Hg' & _). exists g'. split; [exact Hg'|].
  apply (p_chan_forward_fusion (gt_slam (Fusion 1 (-1) (SigNum 1))) 1 (-1) (SigNum 1) g' false wide_seq eq_refl ltac:(discriminate) Hg'); cbn; lia.
Qed.
