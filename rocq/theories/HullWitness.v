(* Concrete cases for C79. *)
From Coq Require Import Reals List Arith Bool ZArith Lia Lra Sorting.Sorted.
From Verif Require Import Res Fld StructUtilsModel StructUtilsSpec PointcloudsModel PointcloudsSpec PointcloudsIndexSpec PointcloudsHist PointcloudsPropProofs
  MatSpec GeomSpec TensorModel TensorProofs RgbdModel RgbdSpec RgbdProofs RgbdPropProofs FusionModel FusionSpec FusionMap FusionPropProofs FusionPropProofs2 FusionWitness
  Se3Model SolveModel IcpModel IcpSpec OdomSpec SlamModel SlamSpec SlamProofs SlamPropProofs StillSpec StillPropProofs HullSpec HullProofs HullPropProofs.
Import ListNotations.
Local Open Scope nat_scope.

Definition corner : vec := global_normal (still_fr 1) 0 0 0 0.
Lemma corner_unit : norm 3 corner = 1%R.
Proof.
  unfold norm. replace (dot 3 corner corner) with 1%R; [apply sqrt_1|]. symmetry. apply (still_fr_normal 1 (0, 0)). rewrite still_fr_pixels. now left.
Qed.
(* a point whose normal looks away from that of pixel (0, 0) *)
Definition away : batch RF := one_cloud [zero3] [[- corner 0%nat; - corner 1%nat; - corner 2%nat]%R] [zero3] [[1%R]].
Lemma r_unit_normals : exists s a g fr r o s' g' a', ReadyToClone RF s a /\ RHist false g false fr /\ live fr /\ full_map a /\ in_map a r /\ in_image fr r /\
  norm 3 (attr_at a Normals 0 0) = 1%R /\ norm 3 (frame_normal fr r) = 1%R /\ rb r = 0 /\ rn r = 0 /\
  fuse_with_map (Tbl [r]) (SigNum 1) true (s, g) = (Ok o, (s', g')) /\ Shows RF (returned o s') a' /\ (norm 3 (attr_at a' Normals 0 0) < 1)%R.
Proof.
  assert (V : valid_batch RF [mkT2 3 [zero3] : t2 RF] away) by (apply (one_valid 1); rect).
  assert (F : full_map away) by (apply (one_full 1); try rect; intros [|i] Hi; [cbn; lra|lia]).
  destruct (map_exists _ _ V) as (s & Hs). destruct (frames_hist (still_fr 1) _ eq_refl eq_refl) as (g & Hg). set (r := mkRow 0 0 0 0).
  assert (M : in_map away r) by (apply (one_in_map 1); [rect|reflexivity|lia]). assert (I : in_image (still_fr 1) r) by (repeat split; cbn; lia).
  assert (O : points_once [r]) by (unfold points_once; cbn; constructor; [intros []|constructor]).
  assert (L : live (still_fr 1)) by (repeat split; cbn; lia).
  destruct (p_shrink s away g (still_fr 1) false [r] 1 true Hs Hg L ltac:(lra) ltac:(discriminate) F eq_refl ltac:(constructor; [exact M|constructor]) ltac:(constructor; [exact I|constructor]) O)
    as (o & s' & g' & a' & E & Sh & K).
  assert (N : norm 3 (attr_at away Normals 0 0) = 1%R).
  { rewrite <- corner_unit. unfold norm. f_equal. unfold dot. cbn [rsum]. unfold attr_at, row_at. cbn [away one_cloud qget qn nth t2r]. ring. }
  exists s, away, g, (still_fr 1), r, o, s', g', a'. do 6 (split; [assumption|]). split; [exact N|]. split; [exact corner_unit|]. split; [reflexivity|]. split; [reflexivity|].
  split; [exact E|]. split; [exact Sh|]. apply (K 0 0 0 0); [cbn; lia|now left|unfold conf, attr_at, row_at; cbn; lra|exact N|exact corner_unit|].
  intros Q. pose proof corner_unit as C. pose proof (norm3_sq corner) as Sq. rewrite C in Sq.
  pose proof (Q 0 ltac:(lia)) as Q0. pose proof (Q 1 ltac:(lia)) as Q1. pose proof (Q 2 ltac:(lia)) as Q2. fold corner in Q0, Q1, Q2.
  unfold attr_at, row_at in Q0, Q1, Q2. cbn [away one_cloud qget qn nth t2r] in Q0, Q1, Q2.
  assert (corner 0%nat = 0%R) as Z0 by lra. assert (corner 1%nat = 0%R) as Z1 by lra. assert (corner 2%nat = 0%R) as Z2 by lra. rewrite Z0, Z1, Z2 in Sq. lra.
Qed.
