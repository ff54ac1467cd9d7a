import sys; sys.path.insert(0,'/verif/tools')
from genprop import gen
H=lambda t:('h',t)
def Tm(th,lem,f,com=''): return ('t',th,lem,f,com)
def sec(c): return H('(* ------------------------------------------------------------------ %s *)'%c)
plan=[H(r'''(* Property C84: registration in turned or mirrored world coordinates.
   Vocabulary: RotSpec.v (turn4, turned_cloud, turned_tf, by_distance, shift4, shifted_cloud, shifted_tf, turned_run), IcpSpec.v (icp_input, pts_of), SimSpec.v (sim_pose, sim_map). *)
From Coq Require Import Reals List Arith ZArith Bool Lia Lra.
From Verif Require Import Res Fld StructUtilsModel PointcloudsModel PointcloudsSpec PointcloudsHist MatSpec GeomSpec TensorModel RgbdModel RgbdSpec RgbdPropProofs
  FusionModel FusionSpec FusionMap Se3Model SolveModel IcpModel IcpSpec OdomSpec SlamModel SlamSpec SlamProofs SlamPropProofs StillSpec StillPropProofs
  IcpArgProofs IcpPropProofs GradSpec GradRunProofs GradWitness SimSpec SimProofs RotSpec RotProofs RotShiftProofs RotSlamProofs.
Import ListNotations.
Import FusionSpec.
Local Open Scope R_scope.
'''),
sec('C84'),
Tm('C84_icp','p_turn_icp','RotProofs','point-to-plane ICP: turning (or mirroring) both clouds, the normals and the start turns the result; the correspondences are the same'),
Tm('C84_gradicp','p_turn_grad','RotProofs'),
Tm('C84_shift_refuted','p_shift_refuted','RotShiftProofs','moving the origin does change the result, also after it has been brought back: both functions, one iteration, clouds of one point'),
H('Local Open Scope nat_scope.\n'),
Tm('C84_slam','p_turn_forward','RotSlamProofs','whole runs of ICPSLAM and PointFusion with either registration: turning the first pose turns the trajectory and the map and changes nothing else'),
H(r'''(* one-point clouds and a quarter turn; three frames of 2 x 3 pixels of a motionless scene, the first pose given and turned *)
Example C84_witness : orthogonal3 quarter /\ icp_input first_closest (one_pt 1 2 3) (one_pt 0 0 0) (one_pt 1 0 0) 1 1 ThrNone /\ by_distance first_closest /\
  turned_cloud quarter 1 (one_pt 1 2 3) (one_pt (-2) 1 3) /\ turned_cloud quarter 1 (one_pt 0 0 0) (one_pt 0 0 0) /\ turned_cloud quarter 1 (one_pt 1 0 0) (one_pt 0 1 0) /\
  turned_tf quarter (ent eye4 []) (ent eye4 []) /\
  let fr := still_fr 3 in let fr' := moved 1 quarter origin fr in
  let c := mkSlam first_closest (OIcp (MIcp (IntV 20) 1 ThrNone)) (IntV 2) (Fusion (/ 20) (9 / 10) (SigNum (3 / 5))) in
  turned_run quarter fr fr' /\ RHist false (made fr) false fr /\ RHist false (made fr') false fr' /\
  exists m ps m' ps' a a', fst (forward c true (made fr)) = Ok (m, ps) /\ fst (forward c true (made fr')) = Ok (m', ps') /\ Shows RF m a /\ Shows RF m' a' /\ sim_map 1 quarter origin 1 a a'.
Proof.
  split; [exact quarter_orth|]. split; [apply one_input|]. split; [exact first_closest_by_distance|].
  do 3 (split; [split; [reflexivity|]; intros i Hi k Hk; assert (i = 0) as -> by lia; destruct k as [|[|[|k]]]; [| | |lia]; unfold mvec, quarter; cbn; ring|]).
  split; [apply turned_eye|]. intros fr fr' c.
  assert (H1 : RHist false (made fr) false fr) by exact (made_hist fr _ eq_refl eq_refl).
  assert (H2 : RHist false (made fr') false fr') by exact (made_hist fr' _ eq_refl eq_refl).
  assert (TR : turned_run quarter fr fr').
  { split; [|eexists _, _; split; [reflexivity|]; split; [reflexivity|]; intros b Hb; destruct (moved_sim 1 quarter origin fr) as (_ & _ & _ & _ & _ & _ & S7); cbn [fpose fr fr' still_fr moved option_map opt_rel] in S7; apply (S7 b 0 Hb); cbn; lia].
    destruct (moved_sim 1 quarter origin fr) as (S1 & S2 & S3 & S4 & S5 & S6 & _). repeat (split; [assumption|]). exact I. }
  split; [exact TR|]. split; [exact H1|]. split; [exact H2|].
  assert (HS : Sizes c (fB fr) (fH fr) (fW fr) (fL fr * (fH fr * fW fr))).
  { cbn [Sizes c s_map]. split; [exists (3 / 5)%R; split; [reflexivity|lra]|]. repeat split; discriminate. }
  assert (HG : good_method (MIcp (IntV 20) 1 ThrNone)) by (cbn; split; [lia|split; [lra|discriminate]]).
  destruct (p_still c (MIcp (IntV 20) 1 ThrNone) 2 (made fr) false fr H1) as (m & ps & a & E & _ & _ & Hsh & _); try exact HS; try exact HG; try reflexivity; try (cbn; lia); try exact first_closest_nearest.
  { exact (still_fr_still 3). }
  pose proof (p_turn_forward c (MIcp (IntV 20) 1 ThrNone) 2 quarter (made fr) false fr (made fr') false fr' quarter_orth H1 H2 TR ltac:(cbn; lia) ltac:(cbn; lia) ltac:(cbn; lia) eq_refl HG first_closest_nearest first_closest_by_distance eq_refl ltac:(lia) ltac:(cbn; lra) HS) as K.
  clearbody c. generalize dependent (made fr). intros g1 _ E K. generalize dependent (made fr'). intros g2 _ K.
  destruct (forward c true g1) as [r1 g1']. injection E as -> ->. cbn [fst] in K |- *. destruct (fst (forward c true g2)) as [[m' ps']|e]; [|contradiction]. destruct K as (a1 & a1' & T & T' & K1 & K2 & K3 & _). exists m, ps, m', ps', a1, a1'. auto.
Qed.
'''),
]
gen('/verif/rocq/theories/PropRot.v',plan)
