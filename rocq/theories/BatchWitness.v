(* Concrete batches for C78: a batch of two different sequences; a map of two clouds one of which has a point without confidence. *)
From Coq Require Import Reals List Arith Bool ZArith Lia Lra Sorting.Sorted.
From Verif Require Import Res Fld StructUtilsModel StructUtilsSpec PointcloudsModel PointcloudsSpec PointcloudsIndexSpec PointcloudsHist PointcloudsPropProofs
  MatSpec GeomSpec TensorModel TensorProofs RgbdModel RgbdSpec RgbdProofs RgbdPropProofs FusionModel FusionSpec FusionMap FusionPropProofs FusionPropProofs2 FusionWitness
  Se3Model SolveModel IcpModel IcpSpec OdomSpec SlamModel SlamSpec SlamProofs SlamPropProofs StillPropProofs BatchSpec BatchProofs BatchSlamProofs BatchPropProofs.
Import ListNotations.
Local Open Scope nat_scope.

(* L frames of 2 x 3 pixels in each of B sequences; depth, colours and poses depend on the sequence and on the time *)
Definition many (B L : nat) : frames :=
  mkFrames B L 2 3 (fun b l h w c => INR (c + h + 2 * w + l + b)) (fun b l h w => INR (l + w + b))
    (fun b => pinhole 2 4 1 (1 + INR b) 0) (Some (fun b l => pinhole 1 1 (INR l) (INR b) 0)) None.
Lemma many_hist B L : exists g, RHist false g false (many B L).
Proof. exact (frames_hist (many B L) _ eq_refl eq_refl). Qed.

(* one point without confidence at (5, 5, 5); the map of two clouds has in addition a point with confidence in cloud 1 *)
Definition lone : batch RF := one_cloud [[5; 5; 5]%R] [zero3] [zero3] [[0%R]].
Definition pair_map : batch RF :=
  mkQ (Some [mkT2 3 [[5; 5; 5]%R] : t2 RF; mkT2 3 [[0; 0; 1]%R] : t2 RF]) (Some [mkT2 3 [zero3] : t2 RF; mkT2 3 [zero3] : t2 RF])
      (Some [mkT2 3 [zero3] : t2 RF; mkT2 3 [zero3] : t2 RF]) (Some [mkT2 1 [[0%R]] : t2 RF; mkT2 1 [[1%R]] : t2 RF]).
Lemma lone_valid : valid_batch RF [mkT2 3 [[5; 5; 5]%R] : t2 RF] lone. Proof. apply (one_valid 1); rect. Qed.
Lemma lone_full : full_map lone. Proof. apply (one_full 1); try rect. intros [|i] Hi; [cbn; lra|lia]. Qed.
Lemma pair_valid : valid_batch RF [mkT2 3 [[5; 5; 5]%R] : t2 RF; mkT2 3 [[0; 0; 1]%R] : t2 RF] pair_map.
Proof.
  split; [reflexivity|]. split; [discriminate|]. intros x L HL.
  destruct x; cbn in HL; injection HL as <-; cbn; (split; [reflexivity|]); repeat (constructor; [reflexivity||(repeat (constructor; [reflexivity|]); constructor)|]); try constructor;
    repeat split; repeat constructor.
Qed.
Lemma pair_full : full_map pair_map.
Proof.
  split; [intros []; discriminate|]. split; [reflexivity|]. intros b n [Hb Hn]. unfold len_view in Hb. cbn in Hb. unfold conf, attr_at, row_at.
  destruct b as [|[|b]]; [| |lia]; unfold npoints in Hn; cbn in Hn; (destruct n as [|n]; [|lia]); cbn; lra.
Qed.

(* fusing with the map of two clouds moves the point without confidence of cloud 0 to the origin although nothing is matched with cloud 0;
   with cloud 0 alone it stays *)
Lemma r_zero_batch : exists s a g fr o s' g' a' s1 a1 g1 fr1 o1 s1' g1' a1' r,
  ReadyToClone RF s a /\ RHist false g false fr /\ live fr /\ full_map a /\ in_map a r /\ in_image fr r /\ rb r = 1 /\
  ReadyToClone RF s1 a1 /\ RHist false g1 false fr1 /\ live fr1 /\ full_map a1 /\ same_sequence fr 0 fr1 0 /\ same_cloud a 0 a1 0 /\
  fuse_with_map (Tbl [r]) (SigNum 1) true (s, g) = (Ok o, (s', g')) /\ Shows RF (returned o s') a' /\
  fuse_with_map (Tbl []) (SigNum 1) true (s1, g1) = (Ok o1, (s1', g1')) /\ Shows RF (returned o1 s1') a1' /\
  attr_at a' Points 0 0 0 = 0%R /\ attr_at a1' Points 0 0 0 = 5%R.
Proof.
  destruct (map_exists _ _ pair_valid) as (s & Hs). destruct (map_exists _ _ lone_valid) as (s1 & Hs1).
  destruct (many_hist 2 1) as (g & Hg). destruct (many_hist 1 1) as (g1 & Hg1). set (r := mkRow 1 0 0 1).
  assert (M : in_map pair_map r). { split; [unfold len_view; cbn; lia|]. unfold npoints. cbn. lia. }
  assert (I : in_image (many 2 1) r) by (repeat split; cbn; lia).
  assert (O : points_once [r]) by (unfold points_once; cbn; constructor; [intros []|constructor]).
  assert (L2 : live (many 2 1)) by (repeat split; cbn; lia). assert (L1 : live (many 1 1)) by (repeat split; cbn; lia).
  destruct (p_fuse s pair_map g (many 2 1) false [r] 1 true Hs Hg L2 ltac:(lra) (fun _ => conj pair_full eq_refl) ltac:(constructor; [exact M|constructor]) ltac:(constructor; [exact I|constructor]) O)
    as (o & s' & g' & a' & E & _ & _ & Sh & HF & _).
  destruct (p_fuse s1 lone g1 (many 1 1) false [] 1 true Hs1 Hg1 L1 ltac:(lra) (fun _ => conj lone_full eq_refl) ltac:(constructor) ltac:(constructor) ltac:(constructor))
    as (o1 & s1' & g1' & a1' & E1 & _ & _ & Sh1 & HF1 & _).
  exists s, pair_map, g, (many 2 1), o, s', g', a', s1, lone, g1, (many 1 1), o1, s1', g1', a1', r.
  do 6 (split; [assumption||exact pair_full|]). split; [reflexivity|]. do 4 (split; [assumption||exact lone_full|]).
  split; [|split; [|split; [exact E|split; [exact Sh|split; [exact E1|split; [exact Sh1|split]]]]]].
  - unfold same_sequence. cbn [many fB fL fH fW fK fdep frgb fpose opt_rel]. repeat split; try lia; intros; reflexivity.
  - intros x. destruct x; cbn; eexists; split; reflexivity.
  - destruct HF as [_ HF]. destruct (HF 0 ltac:(cbn; lia)) as (_ & _ & H0 & _).
    apply (H0 0); [unfold npoints; cbn; lia|intros h w [H|[]]; discriminate H|reflexivity|discriminate|cbn; lia].
  - destruct HF1 as [_ HF1]. destruct (HF1 0 ltac:(cbn; lia)) as (_ & H0 & _).
    rewrite (H0 0); [reflexivity|unfold npoints; cbn; lia|intros h w []|now right|cbn; lia].
Qed.
