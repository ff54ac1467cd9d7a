(* Property C84: registration in turned or mirrored world coordinates.
   Vocabulary: RotSpec.v (turn4, turned_cloud, turned_tf, by_distance, shift4, shifted_cloud, shifted_tf, turned_run), IcpSpec.v (icp_input, pts_of), SimSpec.v (sim_pose, sim_map). *)
From Coq Require Import Reals List Arith ZArith Bool Lia Lra.
From Verif Require Import Res Fld StructUtilsModel PointcloudsModel PointcloudsSpec PointcloudsHist MatSpec GeomSpec TensorModel RgbdModel RgbdSpec RgbdPropProofs
  FusionModel FusionSpec FusionMap Se3Model SolveModel IcpModel IcpSpec OdomSpec SlamModel SlamSpec SlamProofs SlamPropProofs StillSpec StillPropProofs
  IcpArgProofs IcpPropProofs GradSpec GradRunProofs GradWitness SimSpec SimProofs RotSpec RotProofs RotShiftProofs RotSlamProofs.
Import ListNotations.
Import FusionSpec.
Local Open Scope R_scope.

(* ------------------------------------------------------------------ C84 *)
(* point-to-plane ICP: turning (or mirroring) both clouds, the normals and the start turns the result; the correspondences are the same *)
Local Open Scope R_scope.
Theorem C84_icp : forall Q nn src tgt nor src' tgt' nor' ns nt th init init' damp n,
  orthogonal3 Q -> icp_input nn src tgt nor ns nt th -> by_distance nn ->
  turned_cloud Q ns src src' -> turned_cloud Q nt tgt tgt' -> turned_cloud Q nt nor nor' ->
  mat44 init -> mat44 init' -> turned_tf Q (ent init []) (ent init' []) -> 0 < damp -> (0 < n)%Z ->
  exists T T' idx, point_to_plane_ICP nn (TTen src) (TTen tgt) (TTen nor) (TTen init) (IntV n) damp th = Ok (T, idx) /\
    point_to_plane_ICP nn (TTen src') (TTen tgt') (TTen nor') (TTen init') (IntV n) damp th = Ok (T', idx) /\
    mat44 T /\ mat44 T' /\ turned_tf Q (ent T []) (ent T' []).
Proof. exact p_turn_icp. Qed.
Print Assumptions C84_icp.

Local Close Scope R_scope.
Local Open Scope R_scope.
Theorem C84_gradicp : forall Q nn src tgt nor src' tgt' nor' ns nt th init init' damp n lmax B B2 nu,
  orthogonal3 Q -> icp_input nn src tgt nor ns nt th -> by_distance nn ->
  turned_cloud Q ns src src' -> turned_cloud Q nt tgt tgt' -> turned_cloud Q nt nor nor' ->
  mat44 init -> mat44 init' -> turned_tf Q (ent init []) (ent init' []) -> 0 < damp -> (0 < n)%Z -> 0 < lmax -> nu <> 0 ->
  exists T T' idx, point_to_plane_gradICP nn (TTen src) (TTen tgt) (TTen nor) (TTen init) (IntV n) damp th (Num lmax) (Num B) (Num B2) (Num nu) = Ok (T, idx) /\
    point_to_plane_gradICP nn (TTen src') (TTen tgt') (TTen nor') (TTen init') (IntV n) damp th (Num lmax) (Num B) (Num B2) (Num nu) = Ok (T', idx) /\
    mat44 T /\ mat44 T' /\ turned_tf Q (ent T []) (ent T' []).
Proof. exact p_turn_grad. Qed.
Print Assumptions C84_gradicp.

Local Close Scope R_scope.
(* moving the origin does change the result, also after it has been brought back: both functions, one iteration, clouds of one point *)
Local Open Scope R_scope.
Theorem C84_shift_refuted : exists nn src tgt nor src' tgt' t T T' idx idx' G G' gidx gidx',
  icp_input nn src tgt nor 1 1 ThrNone /\ by_distance nn /\ shifted_cloud t 1 src src' /\ shifted_cloud t 1 tgt tgt' /\ shifted_tf t (ent eye4 []) (ent eye4 []) /\
  (point_to_plane_ICP nn (TTen src) (TTen tgt) (TTen nor) (TTen eye4) (IntV 1) 1 ThrNone = Ok (T, idx) /\
   point_to_plane_ICP nn (TTen src') (TTen tgt') (TTen nor) (TTen eye4) (IntV 1) 1 ThrNone = Ok (T', idx') /\ ~ shifted_tf t (ent T []) (ent T' [])) /\
  (point_to_plane_gradICP nn (TTen src) (TTen tgt) (TTen nor) (TTen eye4) (IntV 1) 1 ThrNone (Num 2) (Num 1) (Num 1) (Num 200) = Ok (G, gidx) /\
   point_to_plane_gradICP nn (TTen src') (TTen tgt') (TTen nor) (TTen eye4) (IntV 1) 1 ThrNone (Num 2) (Num 1) (Num 1) (Num 200) = Ok (G', gidx') /\ ~ shifted_tf t (ent G []) (ent G' [])).
Proof. exact p_shift_refuted. Qed.
Print Assumptions C84_shift_refuted.

Local Close Scope R_scope.
Local Open Scope nat_scope.

(* whole runs of ICPSLAM and PointFusion with either registration: turning the first pose turns the trajectory and the map and changes nothing else *)
Theorem C84_slam : forall c o ds Q g q fr g' q' fr',
  orthogonal3 Q -> RHist q g false fr -> RHist q' g' false fr' -> turned_run Q fr fr' ->
  0 < fB fr -> 2 <= fH fr -> 2 <= fW fr -> s_odom c = OIcp o -> good_method o -> IcpSpec.nearest (s_nn c) -> by_distance (s_nn c) -> s_ds c = IntV ds -> (0 < ds)%Z ->
  match s_map c with Aggregate => True | Fusion _ dot_th _ => (0 <= dot_th)%R end ->
  Sizes c (fB fr) (fH fr) (fW fr) (fL fr * (fH fr * fW fr)) ->
  match fst (forward c true g), fst (forward c true g') with
  | Ok (m, ps), Ok (m', ps') => exists a a' T T', Shows RF m a /\ Shows RF m' a' /\ sim_map 1 Q origin (fB fr) a a' /\
      Poses fr ps T /\ Poses fr' ps' T' /\ forall b l, b < fB fr -> l < fL fr -> sim_pose 1 Q origin (T b l) (T' b l)
  | Err e, Err e' => e = e'
  | _, _ => False
  end.
Proof. exact p_turn_forward. Qed.
Print Assumptions C84_slam.

(* one-point clouds and a quarter turn; three frames of 2 x 3 pixels of a motionless scene, the first pose given and turned *)
Example C84_witness : orthogonal3 quarter /\ icp_input first_closest (one_pt 1 2 3) (one_pt 0 0 0) (one_pt 1 0 0) 1 1 ThrNone /\ by_distance first_closest /\
  turned_cloud quarter 1 (one_pt 1 2 3) (one_pt (-2) 1 3) /\ turned_cloud quarter 1 (one_pt 0 0 0) (one_pt 0 0 0) /\ turned_cloud quarter 1 (one_pt 1 0 0) (one_pt 0 1 0) /\
  turned_tf quarter (ent eye4 []) (ent eye4 []) /\
  let fr := still_fr 3 in let fr' := moved 1 quarter origin fr in
  let c := mkSlam first_closest (OIcp (MIcp (IntV 20) 1 ThrNone)) (IntV 2) (Fusion (/ 20) (9 / 10) (SigNum (3 / 5))) in
  turned_run quarter fr fr' /\ RHist false (made fr) false fr /\ RHist false (made fr') false fr' /\
  exists m ps m' ps' a a', fst (forward c true (made fr)) = Ok (m, ps) /\ fst (forward c true (made fr')) = Ok (m', ps') /\ Shows RF m a /\ Shows RF m' a' /\ sim_map 1 quarter origin 1 a a'.
Proof.
  split; [exact quarter_orth|]. split; [apply one_input|]. split; [exact first_closest_by_distance|].
  do 3 (split; [split; [reflexivity|]; intros i Hi k Hk; assert (i = 0) as -> by lia; destruct k as [|[|[|k]]]; [| | |lia]; unfold mvec, quarter; cbn; ring|]).
  split; [apply turned_eye|]. intros fr fr' c.
  assert (H1 : RHist false (made fr) false fr) by exact (made_hist fr _ eq_refl eq_refl).
  assert (H2 : RHist false (made fr') false fr') by exact (made_hist fr' _ eq_refl eq_refl).
  assert (TR : turned_run quarter fr fr').
  { split; [|eexists _, _; split; [reflexivity|]; split; [reflexivity|]; intros b Hb; destruct (moved_sim 1 quarter origin fr) as (_ & _ & _ & _ & _ & _ & S7); cbn [fpose fr fr' still_fr moved option_map opt_rel] in S7; apply (S7 b 0 Hb); cbn; lia].
    destruct (moved_sim 1 quarter origin fr) as (S1 & S2 & S3 & S4 & S5 & S6 & _). repeat (split; [assumption|]). exact I. }
  split; [exact TR|]. split; [exact H1|]. split; [exact H2|].
  assert (HS : Sizes c (fB fr) (fH fr) (fW fr) (fL fr * (fH fr * fW fr))).
  { cbn [Sizes c s_map]. split; [exists (3 / 5)%R; split; [reflexivity|lra]|]. repeat split; discriminate. }
  assert (HG : good_method (MIcp (IntV 20) 1 ThrNone)) by (cbn; split; [lia|split; [lra|discriminate]]).
  destruct (p_still c (MIcp (IntV 20) 1 ThrNone) 2 (made fr) false fr H1) as (m & ps & a & E & _ & _ & Hsh & _); try exact HS; try exact HG; try reflexivity; try (cbn; lia); try exact first_closest_nearest.
  { exact (still_fr_still 3). }
  pose proof (p_turn_forward c (MIcp (IntV 20) 1 ThrNone) 2 quarter (made fr) false fr (made fr') false fr' quarter_orth H1 H2 TR ltac:(cbn; lia) ltac:(cbn; lia) ltac:(cbn; lia) eq_refl HG first_closest_nearest first_closest_by_distance eq_refl ltac:(lia) ltac:(cbn; lra) HS) as K.
  clearbody c. generalize dependent (made fr). intros g1 _ E K. generalize dependent (made fr'). intros g2 _ K.
  destruct (forward c true g1) as [r1 g1']. injection E as -> ->. cbn [fst] in K |- *. destruct (fst (forward c true g2)) as [[m' ps']|e]; [|contradiction]. destruct K as (a1 & a1' & T & T' & K1 & K2 & K3 & _). exists m, ps, m', ps', a1, a1'. auto.
Qed.
