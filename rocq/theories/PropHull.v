(* Property C79: every map point is an average of observations.
   Vocabulary (HullSpec.v): convex; measured = a pixel with depth; observed fr T x b l h w = what pixel (h, w) of frame l says about attribute x in the world
   of the poses T; facing = PointFusion's threshold on the inner product of normals is not negative. *)
From Coq Require Import Reals List Arith ZArith Bool Lia Lra.
From Verif Require Import Res Fld StructUtilsModel PointcloudsModel PointcloudsSpec PointcloudsIndexSpec PointcloudsHist MatSpec GeomSpec TensorModel RgbdModel RgbdSpec
  FusionModel FusionSpec FusionMap FusionWitness Se3Model SolveModel IcpModel IcpSpec OdomSpec SlamModel SlamSpec MatProofs SlamProofs SlamPropProofs StillPropProofs HullSpec HullPropProofs HullWitness.
Import ListNotations.
Local Open Scope nat_scope.

(* ------------------------------------------------------------------ C79 *)
(* both mappers, every odometry: a convex set that contains attribute x of every measured pixel contains attribute x of every map point *)
Theorem C79_convex_hull : forall c g q fr m t,
  RHist q g false fr -> 0 < fB fr -> 0 < fL fr -> 2 <= fH fr -> 2 <= fW fr -> Ratio c -> facing c ->
  Sizes c (fB fr) (fH fr) (fW fr) (fL fr * (fH fr * fW fr)) -> (s_odom c = OGt -> 2 <= fL fr -> fpose fr <> None) ->
  forward c true g = (Ok (m, t), g) ->
  exists a T, ReadyToClone RF m a /\ Shows RF m a /\ len_view RF a = fB fr /\ Poses fr t T /\
    forall S x b, convex S -> x <> Features -> b < fB fr ->
      (forall l h w, measured fr b l h w -> S (observed fr T x b l h w)) -> forall i, i < npoints a b -> S (attr_at a x b i).
Proof. exact p_hull. Qed.
Print Assumptions C79_convex_hull.

(* in particular colours stay in their range *)
Theorem C79_colours : forall c g q fr m t lo hi,
  RHist q g false fr -> 0 < fB fr -> 0 < fL fr -> 2 <= fH fr -> 2 <= fW fr -> Ratio c -> facing c ->
  Sizes c (fB fr) (fH fr) (fW fr) (fL fr * (fH fr * fW fr)) -> (s_odom c = OGt -> 2 <= fL fr -> fpose fr <> None) ->
  (forall b l h w j, b < fB fr -> measured fr b l h w -> j < 3 -> (lo <= frgb fr b l h w j <= hi)%R) ->
  forward c true g = (Ok (m, t), g) ->
  exists a, Shows RF m a /\ len_view RF a = fB fr /\ forall b i j, b < fB fr -> i < npoints a b -> j < 3 -> (lo <= attr_at a Colors b i j <= hi)%R.
Proof. exact p_colours. Qed.
Print Assumptions C79_colours.

(* and normals are at most 1 long when the returned poses are rotations *)
Theorem C79_normals : forall c g q fr m t,
  RHist q g false fr -> 0 < fB fr -> 0 < fL fr -> 2 <= fH fr -> 2 <= fW fr -> Ratio c -> facing c ->
  Sizes c (fB fr) (fH fr) (fW fr) (fL fr * (fH fr * fW fr)) -> (s_odom c = OGt -> 2 <= fL fr -> fpose fr <> None) ->
  forward c true g = (Ok (m, t), g) -> (forall b l, b < fB fr -> l < fL fr -> orthogonal3 (rot_of (ent t [l; b]))) ->
  exists a, Shows RF m a /\ len_view RF a = fB fr /\ forall b i, b < fB fr -> i < npoints a b -> (norm 3 (attr_at a Normals b i) <= 1)%R.
Proof. exact p_normals. Qed.
Print Assumptions C79_normals.

(* PointFusion: every confidence lies between 1e-7 and the number of frames *)
Theorem C79_confidence : forall c g q fr m t d th s,
  RHist q g false fr -> 0 < fB fr -> 0 < fL fr -> 2 <= fH fr -> 2 <= fW fr -> Ratio c -> s_map c = Fusion d th s ->
  Sizes c (fB fr) (fH fr) (fW fr) (fL fr * (fH fr * fW fr)) -> (s_odom c = OGt -> 2 <= fL fr -> fpose fr <> None) ->
  forward c true g = (Ok (m, t), g) ->
  exists a, Shows RF m a /\ len_view RF a = fB fr /\ forall b i, b < fB fr -> i < npoints a b -> (/ 10000000 <= conf a b i <= INR (fL fr))%R.
Proof. exact p_confidence. Qed.
Print Assumptions C79_confidence.

(* merging two different unit normals makes the normal shorter than 1: the fused normals are not normalised *)
Theorem C79_normals_shrink : forall s a g fr q rows sigma inplace,
  ReadyToClone RF s a -> RHist q g false fr -> live fr -> sigma <> 0%R -> qp a <> None -> full_map a -> fB fr = len_view RF a ->
  Forall (in_map a) rows -> Forall (in_image fr) rows -> points_once rows ->
  exists o s' g' a', fuse_with_map (Tbl rows) (SigNum sigma) inplace (s, g) = (Ok o, (s', g')) /\ Shows RF (returned o s') a' /\
    forall b n h w, b < fB fr -> matched rows b n h w -> (0 < conf a b n)%R ->
      norm 3 (attr_at a Normals b n) = 1%R -> norm 3 (global_normal fr b 0 h w) = 1%R ->
      ~ veq 3 (attr_at a Normals b n) (global_normal fr b 0 h w) -> (norm 3 (attr_at a' Normals b n) < 1)%R.
Proof. exact p_shrink. Qed.
Print Assumptions C79_normals_shrink.

Theorem C79_unit_normals_refuted : exists s a g fr r o s' g' a', ReadyToClone RF s a /\ RHist false g false fr /\ live fr /\ full_map a /\ in_map a r /\ in_image fr r /\
  norm 3 (attr_at a Normals 0 0) = 1%R /\ norm 3 (frame_normal fr r) = 1%R /\ rb r = 0 /\ rn r = 0 /\
  fuse_with_map (Tbl [r]) (SigNum 1) true (s, g) = (Ok o, (s', g')) /\ Shows RF (returned o s') a' /\ (norm 3 (attr_at a' Normals 0 0) < 1)%R.
Proof. exact r_unit_normals. Qed.
Print Assumptions C79_unit_normals_refuted.

(* three frames, PointFusion with the given poses *)
Example C79_witness : let c := gt_slam (Fusion 1 0 (SigNum 1)) in exists g m t, RHist false g false (still_fr 3) /\ Ratio c /\ facing c /\ Sizes c 1 2 3 (3 * (2 * 3)) /\
  forward c true g = (Ok (m, t), g) /\ (forall b l, b < 1 -> l < 3 -> orthogonal3 (rot_of (ent t [l; b]))) /\
  (forall b l h w j, measured (still_fr 3) b l h w -> j < 3 -> (0 <= frgb (still_fr 3) b l h w j <= 9)%R) /\ measured (still_fr 3) 0 2 1 1.
Proof.
  intros c. destruct (frames_hist (still_fr 3) _ eq_refl eq_refl) as (g & Hg).
  assert (HS : Sizes c 1 2 3 (3 * (2 * 3))). { split; [exists 1%R; split; [reflexivity|lra]|]. repeat split; discriminate. }
  destruct (p_forward_gt c g false (still_fr 3) (fun _ _ => mI) Hg) as (m & t & _ & _ & E & HP & _); [cbn; lia|cbn; lia|cbn; lia|reflexivity|exact HS|reflexivity|].
  exists g, m, t. split; [exact Hg|]. split; [exact I|]. split; [cbn; lra|]. split; [exact HS|]. split; [exact E|]. split.
  - intros b l Hb Hl. apply (orth_ext mI); [|apply rigid_I]. intros i j Hi Hj. symmetry. apply (proj2 HP); [exact Hb|exact Hl|lia|lia].
  - split.
    + intros b l h w j (H1 & H2 & H3 & _) Hj. cbn in H1, H2, H3. cbn [frgb still_fr]. split; [apply pos_INR|]. replace 9%R with (INR 9) by (cbn; lra). apply le_INR. lia.
    + split; [cbn; lia|]. split; [cbn; lia|]. split; [cbn; lia|]. cbn. lra.
Qed.
