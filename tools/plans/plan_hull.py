import sys; sys.path.insert(0,'/verif/tools')
from genprop import gen
H=lambda t:('h',t)
def Tm(th,lem,f,com=''): return ('t',th,lem,f,com)
def sec(c): return H('(* ------------------------------------------------------------------ %s *)'%c)
P='HullPropProofs'
plan=[H(r'''(* Property C79: every map point is an average of observations.
   Vocabulary (HullSpec.v): convex; measured = a pixel with depth; observed fr T x b l h w = what pixel (h, w) of frame l says about attribute x in the world
   of the poses T; facing = PointFusion's threshold on the inner product of normals is not negative. *)
From Coq Require Import Reals List Arith ZArith Bool Lia Lra.
From Verif Require Import Res Fld StructUtilsModel PointcloudsModel PointcloudsSpec PointcloudsIndexSpec PointcloudsHist MatSpec GeomSpec TensorModel RgbdModel RgbdSpec
  FusionModel FusionSpec FusionMap FusionWitness Se3Model SolveModel IcpModel IcpSpec OdomSpec SlamModel SlamSpec MatProofs SlamProofs SlamPropProofs StillPropProofs HullSpec HullPropProofs HullWitness.
Import ListNotations.
Local Open Scope nat_scope.
'''),
sec('C79'),
Tm('C79_convex_hull','p_hull',P,'both mappers, every odometry: a convex set that contains attribute x of every measured pixel contains attribute x of every map point'),
Tm('C79_colours','p_colours',P,'in particular colours stay in their range'),
Tm('C79_normals','p_normals',P,'and normals are at most 1 long when the returned poses are rotations'),
Tm('C79_confidence','p_confidence',P,'PointFusion: every confidence lies between 1e-7 and the number of frames'),
Tm('C79_normals_shrink','p_shrink',P,'merging two different unit normals makes the normal shorter than 1: the fused normals are not normalised'),
Tm('C79_unit_normals_refuted','r_unit_normals','HullWitness'),
H(r'''(* three frames, PointFusion with the given poses *)
Example C79_witness : let c := gt_slam (Fusion 1 0 (SigNum 1)) in exists g m t, RHist false g false (still_fr 3) /\ Ratio c /\ facing c /\ Sizes c 1 2 3 (3 * (2 * 3)) /\
  forward c true g = (Ok (m, t), g) /\ (forall b l, b < 1 -> l < 3 -> orthogonal3 (rot_of (ent t [l; b]))) /\
  (forall b l h w j, measured (still_fr 3) b l h w -> j < 3 -> (0 <= frgb (still_fr 3) b l h w j <= 9)%R) /\ measured (still_fr 3) 0 2 1 1.
Proof.
  intros c. destruct (frames_hist (still_fr 3) _ eq_refl eq_refl) as (g & Hg).
  assert (HS : Sizes c 1 2 3 (3 * (2 * 3))). { split; [exists 1%R; split; [reflexivity|lra]|]. repeat split; discriminate. }
  destruct (p_forward_gt c g false (still_fr 3) (fun _ _ => mI) Hg) as (m & t & _ & _ & E & HP & _); [cbn; lia|cbn; lia|cbn; lia|reflexivity|exact HS|reflexivity|].
  exists g, m, t. split; [exact Hg|]. split; [exact I|]. split; [cbn; lra|]. split; [exact HS|]. split; [exact E|]. split.
  - intros b l Hb Hl. apply (orth_ext mI); [|apply rigid_I]. intros i j Hi Hj. symmetry. apply (proj2 HP); [exact Hb|exact Hl|lia|lia].
  - split.
    + intros b l h w j (H1 & H2 & H3 & _) Hj. cbn in H1, H2, H3. cbn [frgb still_fr]. split; [apply pos_INR|]. replace 9%R with (INR 9) by (cbn; lra). apply le_INR. lia.
    + split; [cbn; lia|]. split; [cbn; lia|]. split; [cbn; lia|]. cbn. lra.
Qed.
'''),
]
gen('/verif/rocq/theories/PropHull.v',plan)
