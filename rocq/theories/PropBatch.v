(* Property C78: the elements of a batch do not influence each other.
   Vocabulary (BatchSpec.v): same_sequence fr b fr' b' = sequence b of fr and sequence b' of fr' have the same images, intrinsics and poses;
   same_cloud a b a' b' = cloud b of a and cloud b' of a' have the same attributes with the same tensors; only b fr = the batch frames[b]. *)
From Coq Require Import Reals List Arith ZArith Bool Lia Lra.
From Verif Require Import Res Fld StructUtilsModel PointcloudsModel PointcloudsSpec PointcloudsIndexSpec PointcloudsHist MatSpec GeomSpec TensorModel RgbdModel RgbdSpec
  FusionModel FusionSpec FusionMap FusionWitness Se3Model SolveModel IcpModel IcpSpec OdomSpec SlamModel SlamSpec SlamProofs SlamPropProofs StillPropProofs BatchSpec BatchPropProofs BatchWitness.
Import ListNotations.
Local Open Scope nat_scope.

(* ------------------------------------------------------------------ C78 *)
(* a sequence that occurs in two batches gets the same poses and the same map in both, whatever the other sequences are and whatever its position *)
Theorem C78_same_sequence : forall c g q fr g' q' fr' b b' m t m' t',
  RHist q g false fr -> RHist q' g' false fr' -> same_sequence fr b fr' b' ->
  0 < fL fr -> 2 <= fH fr -> 2 <= fW fr -> Ratio c -> (s_odom c = OGt -> 2 <= fL fr -> fpose fr <> None) ->
  Sizes c (fB fr) (fH fr) (fW fr) (fL fr * (fH fr * fW fr)) -> Sizes c (fB fr') (fH fr') (fW fr') (fL fr' * (fH fr' * fW fr')) ->
  forward c true g = (Ok (m, t), g) -> forward c true g' = (Ok (m', t'), g') ->
  (forall l, l < fL fr -> meq 4 4 (ent t [l; b]) (ent t' [l; b'])) /\
  exists a a', Shows RF m a /\ Shows RF m' a' /\ same_cloud a b a' b'.
Proof. exact p_batch_same. Qed.
Print Assumptions C78_same_sequence.

(* running a batch and running its sequences one by one: the same poses, the same maps, and the batch raises an error exactly when some sequence
   raises this error alone *)
Theorem C78_alone : forall c g q fr,
  RHist q g false fr -> 0 < fB fr -> 0 < fL fr -> 2 <= fH fr -> 2 <= fW fr -> Ratio c ->
  Sizes c (fB fr) (fH fr) (fW fr) (fL fr * (fH fr * fW fr)) -> (s_odom c = OGt -> 2 <= fL fr -> fpose fr <> None) ->
  match forward c true g with
  | (Ok (m, t), _) => forall b, b < fB fr -> exists g1 m1 t1, rgbd_getitem (RInt (Z.of_nat b)) g = Ok g1 /\ forward c true g1 = (Ok (m1, t1), g1) /\
      shape t1 = [1; fL fr; 4; 4] /\ (forall l, l < fL fr -> meq 4 4 (ent t1 [l; 0]) (ent t [l; b])) /\
      exists a a1, Shows RF m a /\ Shows RF m1 a1 /\ len_view RF a1 = 1 /\ same_cloud a1 0 a b
  | (Err e, _) => exists b g1, b < fB fr /\ rgbd_getitem (RInt (Z.of_nat b)) g = Ok g1 /\ forward c true g1 = (Err e, g1)
  end.
Proof. exact p_batch_alone. Qed.
Print Assumptions C78_alone.

(* a single fusion step on a map with a point of confidence 0 is not independent: a match in another cloud of the batch resets that point *)
Theorem C78_zero_confidence_refuted : exists s a g fr o s' g' a' s1 a1 g1 fr1 o1 s1' g1' a1' r,
  ReadyToClone RF s a /\ RHist false g false fr /\ live fr /\ full_map a /\ in_map a r /\ in_image fr r /\ rb r = 1 /\
  ReadyToClone RF s1 a1 /\ RHist false g1 false fr1 /\ live fr1 /\ full_map a1 /\ same_sequence fr 0 fr1 0 /\ same_cloud a 0 a1 0 /\
  fuse_with_map (Tbl [r]) (SigNum 1) true (s, g) = (Ok o, (s', g')) /\ Shows RF (returned o s') a' /\
  fuse_with_map (Tbl []) (SigNum 1) true (s1, g1) = (Ok o1, (s1', g1')) /\ Shows RF (returned o1 s1') a1' /\
  attr_at a' Points 0 0 0 = 0%R /\ attr_at a1' Points 0 0 0 = 5%R.
Proof. exact r_zero_batch. Qed.
Print Assumptions C78_zero_confidence_refuted.

(* two different sequences of three frames, PointFusion with the given poses *)
Example C78_witness : let c := gt_slam (Fusion 1 (-1) (SigNum 1)) in exists g m t g1 m1 t1, RHist false g false (many 2 3) /\ ~ same_sequence (many 2 3) 0 (many 2 3) 1 /\
  Ratio c /\ Sizes c 2 2 3 (3 * (2 * 3)) /\ forward c true g = (Ok (m, t), g) /\ RHist false g1 false (only 1 (many 2 3)) /\
  same_sequence (many 2 3) 1 (only 1 (many 2 3)) 0 /\ forward c true g1 = (Ok (m1, t1), g1).
Proof.
  intros c. destruct (many_hist 2 3) as (g & Hg).
  assert (HS : Sizes c 2 2 3 (3 * (2 * 3))). { split; [exists 1%R; split; [reflexivity|lra]|]. repeat split; discriminate. }
  destruct (p_forward_gt c g false (many 2 3) (fun b l => pinhole 1 1 (INR l) (INR b) 0) Hg) as (m & t & _ & _ & E & _); [cbn; lia|cbn; lia|cbn; lia|reflexivity|exact HS|reflexivity|].
  pose proof (p_batch_alone c g false (many 2 3) Hg ltac:(cbn; lia) ltac:(cbn; lia) ltac:(cbn; lia) ltac:(cbn; lia) I HS ltac:(discriminate)) as K.
  rewrite E in K. destruct (K 1 ltac:(cbn; lia)) as (g1 & m1 & t1 & E1 & F1 & _).
  destruct (item_only false g (many 2 3) 1 Hg) as (g2 & E2 & H2); [cbn; lia|cbn; lia|]. rewrite E1 in E2. injection E2 as <-.
  exists g, m, t, g1, m1, t1. split; [exact Hg|]. split.
  - intros (_ & _ & _ & _ & _ & _ & Hp & _). destruct (Hp 0 0 0) as (D & _); [cbn; lia|cbn; lia|cbn; lia|]. cbn in D. lra.
  - split; [exact I|]. split; [exact HS|]. split; [exact E|]. split; [exact H2|]. split; [apply only_same; cbn; lia|exact F1].
Qed.
