import sys; sys.path.insert(0,'/verif/tools')
from genprop import gen
H=lambda t:('h',t)
def Tm(th,lem,f,com=''): return ('t',th,lem,f,com)
def sec(c): return H('(* ------------------------------------------------------------------ %s *)'%c)
P='BatchPropProofs'
plan=[H(r'''(* Property C78: the elements of a batch do not influence each other.
   Vocabulary (BatchSpec.v): same_sequence fr b fr' b' = sequence b of fr and sequence b' of fr' have the same images, intrinsics and poses;
   same_cloud a b a' b' = cloud b of a and cloud b' of a' have the same attributes with the same tensors; only b fr = the batch frames[b]. *)
From Coq Require Import Reals List Arith ZArith Bool Lia Lra.
From Verif Require Import Res Fld StructUtilsModel PointcloudsModel PointcloudsSpec PointcloudsIndexSpec PointcloudsHist MatSpec GeomSpec TensorModel RgbdModel RgbdSpec
  FusionModel FusionSpec FusionMap FusionWitness Se3Model SolveModel IcpModel IcpSpec OdomSpec SlamModel SlamSpec SlamProofs SlamPropProofs StillPropProofs BatchSpec BatchPropProofs BatchWitness.
Import ListNotations.
Local Open Scope nat_scope.
'''),
sec('C78'),
Tm('C78_same_sequence','p_batch_same',P,'a sequence that occurs in two batches gets the same poses and the same map in both, whatever the other sequences are and whatever its position'),
Tm('C78_alone','p_batch_alone',P,'running a batch and running its sequences one by one: the same poses, the same maps, and the batch raises an error exactly when some sequence\n   raises this error alone'),
Tm('C78_zero_confidence_refuted','r_zero_batch','BatchWitness','a single fusion step on a map with a point of confidence 0 is not independent: a match in another cloud of the batch resets that point'),
H(r'''(* two different sequences of three frames, PointFusion with the given poses *)
Example C78_witness : let c := gt_slam (Fusion 1 (-1) (SigNum 1)) in exists g m t g1 m1 t1, RHist false g false (many 2 3) /\ ~ same_sequence (many 2 3) 0 (many 2 3) 1 /\
  Ratio c /\ Sizes c 2 2 3 (3 * (2 * 3)) /\ forward c true g = (Ok (m, t), g) /\ RHist false g1 false (only 1 (many 2 3)) /\
  same_sequence (many 2 3) 1 (only 1 (many 2 3)) 0 /\ forward c true g1 = (Ok (m1, t1), g1).
Proof.
  intros c. destruct (many_hist 2 3) as (g & Hg).
  assert (HS : Sizes c 2 2 3 (3 * (2 * 3))). { split; [exists 1%R; split; [reflexivity|lra]|]. repeat split; discriminate. }
  destruct (p_forward_gt c g false (many 2 3) (fun b l => pinhole 1 1 (INR l) (INR b) 0) Hg) as (m & t & _ & _ & E & _); [cbn; lia|cbn; lia|cbn; lia|reflexivity|exact HS|reflexivity|].
  pose proof (p_batch_alone c g false (many 2 3) Hg ltac:(cbn; lia) ltac:(cbn; lia) ltac:(cbn; lia) ltac:(cbn; lia) I HS ltac:(discriminate)) as K.
  rewrite E in K. destruct (K 1 ltac:(cbn; lia)) as (g1 & m1 & t1 & E1 & F1 & _).
  destruct (item_only false g (many 2 3) 1 Hg) as (g2 & E2 & H2); [cbn; lia|cbn; lia|]. rewrite E1 in E2. injection E2 as <-.
  exists g, m, t, g1, m1, t1. split; [exact Hg|]. split.
  - intros (_ & _ & _ & _ & _ & _ & Hp & _). destruct (Hp 0 0 0) as (D & _); [cbn; lia|cbn; lia|cbn; lia|]. cbn in D. lra.
  - split; [exact I|]. split; [exact HS|]. split; [exact E|]. split; [exact H2|]. split; [apply only_same; cbn; lia|exact F1].
Qed.
'''),
]
gen('/verif/rocq/theories/PropBatch.v',plan)
