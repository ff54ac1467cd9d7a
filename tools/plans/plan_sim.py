import sys; sys.path.insert(0,'/verif/tools')
from genprop import gen
H=lambda t:('h',t)
def Tm(th,lem,f,com=''): return ('t',th,lem,f,com)
def sec(c): return H('(* ------------------------------------------------------------------ %s *)'%c)
plan=[H(r'''(* Property C83: the world coordinates and the unit of length are conventions.  Vocabulary: SimSpec.v (sim_pt, sim_pose, sim_frames, sim_map, sim_mapping, central). *)
From Coq Require Import Reals List Arith ZArith Bool Lia Lra.
From Verif Require Import Res Fld StructUtilsModel PointcloudsModel PointcloudsSpec PointcloudsHist MatSpec GeomSpec TensorModel RgbdModel RgbdSpec RgbdPropProofs
  FusionModel FusionSpec FusionMap Se3Model SolveModel IcpModel IcpSpec OdomSpec SlamModel SlamSpec SlamProofs SlamPropProofs StillSpec StillPropProofs
  GradSpec GradRunProofs GradWitness GradJumpProofs SimSpec SimProofs.
Import ListNotations.
Import FusionSpec.
Local Open Scope nat_scope.
'''),
sec('C83'),
Tm('C83_forward','p_sim_forward','SimProofs','a similarity of the world (scale s, rotation or reflection Q, translation t) moves the points, turns the normals and changes nothing else; the number and order of the points, colours and confidences are the same'),
H(r'''(* three frames of 2 x 3 pixels seen by a moving camera; the world is turned by 90 degrees, shifted, and lengths are measured in half the unit *)
Example C83_witness : let fr := swing 3 2 in let fr' := moved 2 quarter (vec3 1 2 3) fr in let c' := gt_slam (Fusion (2 * 1) (1 / 2) (SigNum (2 * 1))) in
  orthogonal3 quarter /\ sim_mapping 2 (s_map grad_slam) (s_map c') /\ RHist false (made fr) false fr /\ RHist false (made fr') false fr' /\ sim_frames 2 quarter (vec3 1 2 3) fr fr' /\
  (forall b, b < fB fr -> central (fK fr b)) /\ Sizes grad_slam (fB fr) (fH fr) (fW fr) (fL fr * (fH fr * fW fr)) /\
  exists m ps m' ps' a a', forward grad_slam true (made fr) = (Ok (m, ps), made fr) /\ forward c' true (made fr') = (Ok (m', ps'), made fr') /\ Shows RF m a /\ Shows RF m' a' /\
    sim_map 2 quarter (vec3 1 2 3) 1 a a' /\ 0 < npoints a 0.
Proof.
  intros fr fr' c'.
  assert (H1 : orthogonal3 quarter) by apply quarter_orth.
  assert (H2 : sim_mapping 2 (s_map grad_slam) (s_map c')) by (cbn; repeat split; lra).
  assert (H3 : RHist false (made fr) false fr) by exact (made_hist fr _ eq_refl eq_refl).
  assert (H4 : RHist false (made fr') false fr') by exact (made_hist fr' _ eq_refl eq_refl).
  assert (H5 : sim_frames 2 quarter (vec3 1 2 3) fr fr') by apply moved_sim.
  assert (H6 : forall b, b < fB fr -> central (fK fr b)) by (intros b _; repeat split).
  assert (H7 : Sizes grad_slam (fB fr) (fH fr) (fW fr) (fL fr * (fH fr * fW fr))) by (cbn [Sizes grad_slam gt_slam s_map fB fH fW fL fr swing]; split; [exists 1%R; split; [reflexivity|lra]|]; repeat split; discriminate).
  do 7 (split; [assumption|]).
  destruct (p_sim_forward grad_slam c' 2 quarter (vec3 1 2 3) (made fr) false fr _ (made fr') false fr' _ ltac:(lra) H1 eq_refl eq_refl H2 H3 H4 eq_refl eq_refl H5 (or_intror H6) ltac:(cbn; lia) ltac:(cbn; lia) ltac:(cbn; lia) H7) as (m & ps & m' & ps' & a & a' & K1 & K2 & _ & _ & K3 & K4 & K5).
  exists m, ps, m', ps', a, a'. do 5 (split; [assumption|]).
  destruct (GradJumpProofs.swing_run 3 2 m ps a ltac:(lia) ltac:(lia) K1 K3) as (maps & TR & ->). pose proof (GradJumpProofs.swing_map1 3 2 maps ltac:(lia) TR) as [_ A]. destruct (A 0 ltac:(cbn; lia)) as [N _].
  rewrite GradJumpProofs.swing_pixels in N by lra. destruct TR as [_ TR]. destruct (TR 1 ltac:(lia)) as [_ [_ M1]]. destruct (TR 2 ltac:(lia)) as [_ [_ M2]]. cbn in M1, M2.
  destruct M1 as (_ & r1 & [_ F1] & _), M2 as (_ & r2 & [_ F2] & _). destruct (F1 0 ltac:(cbn; lia)) as [N1 _]. destruct (F2 0 ltac:(cbn; lia)) as [N2 _]. rewrite N2, N1, N. cbn [length]. lia.
Qed.
'''),
]
gen('/verif/rocq/theories/PropSim.v',plan)
