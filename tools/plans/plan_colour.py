import sys; sys.path.insert(0,'/verif/tools')
from genprop import gen
H=lambda t:('h',t)
def Tm(th,lem,f,com=''): return ('t',th,lem,f,com)
def sec(c): return H('(* ------------------------------------------------------------------ %s *)'%c)
P='ColourProofs'
plan=[H(r'''(* Property C81: colours do not influence the geometry, and the colours of the map are linear in the colours of the images.
   Vocabulary (ColourSpec.v): same_geometry = the same sequences up to their colours; same_but_colours = two maps equal up to the values of their colours;
   mixed_colours lam mu nu fr1 fr2 fr3 = the colours of fr3 are lam * those of fr1 + mu * those of fr2 + nu. *)
From Coq Require Import Reals List Arith ZArith Bool Lia Lra.
From Verif Require Import Res Fld StructUtilsModel PointcloudsModel PointcloudsSpec PointcloudsIndexSpec PointcloudsHist MatSpec GeomSpec TensorModel RgbdModel RgbdSpec RgbdPropProofs
  FusionModel FusionSpec FusionMap FusionWitness Se3Model SolveModel IcpModel IcpSpec OdomSpec SlamModel SlamSpec SlamProofs SlamPropProofs StillPropProofs BatchSpec BatchPropProofs BatchWitness
  ColourSpec ColourProofs.
Import ListNotations.
Local Open Scope nat_scope.
'''),
sec('C81'),
Tm('C81_geometry','p_colour_geometry',P,'two runs on images that differ only in their colours: both fail, or both return the same poses and maps that differ only in their colours'),
Tm('C81_linear','p_colour_linear',P,'mixing the colours of two sequences of images with the same geometry mixes the colours of the maps'),
H(r'''(* two sequences of three frames; the colours of `tinted` are computed from those of `many` and those of the grey sequence `grey` *)
Definition recolour (f : nat -> nat -> nat -> nat -> vec) (fr : frames) : frames := mkFrames (fB fr) (fL fr) (fH fr) (fW fr) f (fdep fr) (fK fr) (fpose fr) (fpix fr).
Definition grey : frames := recolour (fun _ _ h w _ => (INR (3 * h + w))%R) (many 2 3).
Definition tinted : frames := recolour (fun b l h w c => (3 * INR (c + h + 2 * w + l + b) + (- 2) * INR (3 * h + w) + INR c)%R) (many 2 3).
Example C81_witness : let c := gt_slam (Fusion 1 (-1) (SigNum 1)) in exists g1 g2 g3 m1 t1 m2 t2 m3 t3,
  RHist false g1 false (many 2 3) /\ RHist false g2 false grey /\ RHist false g3 false tinted /\
  same_geometry (many 2 3) grey /\ same_geometry (many 2 3) tinted /\ mixed_colours 3 (- 2) (fun c => INR c) (many 2 3) grey tinted /\
  Ratio c /\ Sizes c 2 2 3 (3 * (2 * 3)) /\ forward c true g1 = (Ok (m1, t1), g1) /\ forward c true g2 = (Ok (m2, t2), g2) /\ forward c true g3 = (Ok (m3, t3), g3) /\
  frgb (many 2 3) 0 0 0 1 1 <> frgb tinted 0 0 0 1 1.
Proof.
  intros c. destruct (many_hist 2 3) as (g1 & H1). destruct (frames_hist grey _ eq_refl eq_refl) as (g2 & H2). destruct (frames_hist tinted _ eq_refl eq_refl) as (g3 & H3).
  assert (HS : Sizes c 2 2 3 (3 * (2 * 3))). { split; [exists 1%R; split; [reflexivity|lra]|]. repeat split; discriminate. }
  destruct (p_forward_gt c g1 false (many 2 3) (fun b l => pinhole 1 1 (INR l) (INR b) 0) H1) as (m1 & t1 & _ & _ & E1 & _); [cbn; lia|cbn; lia|cbn; lia|reflexivity|exact HS|reflexivity|].
  destruct (p_forward_gt c g2 false grey (fun b l => pinhole 1 1 (INR l) (INR b) 0) H2) as (m2 & t2 & _ & _ & E2 & _); [cbn; lia|cbn; lia|cbn; lia|reflexivity|exact HS|reflexivity|].
  destruct (p_forward_gt c g3 false tinted (fun b l => pinhole 1 1 (INR l) (INR b) 0) H3) as (m3 & t3 & _ & _ & E3 & _); [cbn; lia|cbn; lia|cbn; lia|reflexivity|exact HS|reflexivity|].
  exists g1, g2, g3, m1, t1, m2, t2, m3, t3. do 3 (split; [assumption|]).
  assert (SG : forall f, same_geometry (many 2 3) (recolour f (many 2 3))).
  { intros f. do 4 (split; [reflexivity|]). split; [intros b _ i j _ _; reflexivity|]. split; [intros b l h w _; split; [reflexivity|intros i _; reflexivity]|]. cbn. intros b l _ _ i j _ _. reflexivity. }
  split; [apply SG|]. split; [apply SG|]. split; [intros b l h w k _ _; reflexivity|]. split; [exact I|]. do 4 (split; [assumption|]). cbn. lra.
Qed.
'''),
]
gen('/verif/rocq/theories/PropColour.v',plan)
