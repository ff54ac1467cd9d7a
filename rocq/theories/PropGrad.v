(* Property C82: differentiability.  The images, depths, intrinsics and poses depend on a real parameter x; the results of the system have derivatives with respect to x.
   Vocabulary (GradSpec.v): differentiable f x = f has a derivative at x; near x P = P holds around x; smooth_frames F x0 = the sequences F x have the same sizes for all x, and
   colours, depths, intrinsics and poses have derivatives at x0; smooth_map B A x0 = near x0 the maps A x have the same number of points, and every value of the map has a derivative at x0;
   generic_step / generic_run = no decision of the fusion (visible, close, similar, best) is exactly on its boundary. *)
From Coq Require Import Reals List Arith ZArith Bool Lia Lra.
From Verif Require Import Res Fld StructUtilsModel PointcloudsModel PointcloudsSpec PointcloudsHist MatSpec GeomSpec TensorModel RgbdModel RgbdSpec RgbdPropProofs
  FusionModel FusionSpec FusionMap Se3Model SolveModel IcpModel IcpSpec OdomSpec SlamModel SlamSpec SlamProofs SlamPropProofs StillSpec StillPropProofs
  GradSpec GradProofs GradMapProofs GradFuseProofs GradRunProofs GradStillProofs GradWitness GradJumpProofs.
Import ListNotations.
Import FusionSpec.
Local Open Scope nat_scope.

(* ------------------------------------------------------------------ C82 *)
(* vertex map, normal map and their global versions have derivatives wherever the depth is not 0 *)
Theorem C82_maps : forall F x0 q g (cf : bool) v gv nm gn,
  smooth_frames F x0 -> (forall x, RHist (q x) (g x) cf (F x)) -> 2 <= fH (F x0) -> 2 <= fW (F x0) ->
  (forall x, fst (vertex_map (g x)) = Ok (v x)) -> (forall x, fst (global_vertex_map (g x)) = Ok (gv x)) ->
  (forall x, fst (normal_map (g x)) = Ok (nm x)) -> (forall x, fst (global_normal_map (g x)) = Ok (gn x)) ->
  forall b l h w j, inside (F x0) b l h w -> j < 3 -> fdep (F x0) b l h w <> 0%R ->
    differentiable (fun x => px cf (v x) b l h w j) x0 /\ differentiable (fun x => px cf (gv x) b l h w j) x0 /\
    (no_zero_depth (F x0) -> ((0 < fdep (F x0) b l h w)%R -> exists k, k < 3 /\ px cf (nm x0) b l h w k <> 0%R) ->
       differentiable (fun x => px cf (nm x) b l h w j) x0 /\ differentiable (fun x => px cf (gn x) b l h w j) x0).
Proof. exact p_grad_maps. Qed.
Print Assumptions C82_maps.

(* the derivative with respect to the depth of one pixel: the viewing ray (rotated, for the global map); 0 where there is no depth; other pixels do not move *)
Theorem C82_depth_derivative : forall fr b l h w q g (cf : bool) v gv T,
  inside fr b l h w -> (forall x, RHist (q x) (g x) cf (set_depth b l h w x fr)) -> fpose fr = Some T ->
  (forall x, fst (vertex_map (g x)) = Ok (v x)) -> (forall x, fst (global_vertex_map (g x)) = Ok (gv x)) ->
  forall j, j < 3 ->
    (forall d, (0 < d)%R -> derivable_pt_lim (fun x => px cf (v x) b l h w j) d (ray fr b l h w j) /\
       derivable_pt_lim (fun x => px cf (gv x) b l h w j) d (mvec 3 (rot_of (T b l)) (ray fr b l h w) j)) /\
    (forall d, (d < 0)%R -> derivable_pt_lim (fun x => px cf (v x) b l h w j) d 0%R /\ derivable_pt_lim (fun x => px cf (gv x) b l h w j) d 0%R) /\
    continuity_pt (fun x => px cf (v x) b l h w j) 0%R /\
    forall b' l' h' w' x y, inside fr b' l' h' w' -> (b', l', h', w') <> (b, l, h, w) ->
      px cf (v x) b' l' h' w' j = px cf (v y) b' l' h' w' j /\ px cf (gv x) b' l' h' w' j = px cf (gv y) b' l' h' w' j.
Proof. exact p_depth_derivative. Qed.
Print Assumptions C82_depth_derivative.

(* at depth 0 the vertex map has no derivative *)
Theorem C82_depth_kink_refuted : forall fr b l h w q g (cf : bool) v,
  inside fr b l h w -> (forall x, RHist (q x) (g x) cf (set_depth b l h w x fr)) -> fpix fr = None ->
  (forall x, fst (vertex_map (g x)) = Ok (v x)) -> ~ differentiable (fun x => px cf (v x) b l h w 2) 0%R.
Proof. exact p_depth_kink. Qed.
Print Assumptions C82_depth_kink_refuted.

(* at depth 0 the global vertex map is not even continuous, when the camera is not at the origin *)
Theorem C82_depth_jump_refuted : forall fr b l h w q g (cf : bool) gv T j,
  inside fr b l h w -> (forall x, RHist (q x) (g x) cf (set_depth b l h w x fr)) -> fpose fr = Some T ->
  (forall x, fst (global_vertex_map (g x)) = Ok (gv x)) -> j < 3 -> T b l j 3%nat <> 0%R -> ~ continuity_pt (fun x => px cf (gv x) b l h w j) 0%R.
Proof. exact p_depth_jump. Qed.
Print Assumptions C82_depth_jump_refuted.

(* ICPSLAM-style aggregation with ground-truth odometry *)
Theorem C82_aggregate : forall c F x0 q g m t a,
  s_odom c = OGt -> s_map c = Aggregate -> smooth_frames F x0 -> (forall x, RHist (q x) (g x) false (F x)) -> fpose (F x0) <> None ->
  0 < fB (F x0) -> 2 <= fH (F x0) -> 2 <= fW (F x0) -> no_zero_depth (F x0) ->
  (forall x, forward c true (g x) = (Ok (m x, t x), g x)) -> (forall x, Shows RF (m x) (a x)) ->
  forall b, b < fB (F x0) -> near x0 (fun x => npoints (a x) b = npoints (a x0) b) /\
    forall n j, n < npoints (a x0) b -> j < 3 ->
      differentiable (fun x => attr_at (a x) Points b n j) x0 /\ differentiable (fun x => attr_at (a x) Colors b n j) x0 /\
      ((exists k, k < 3 /\ attr_at (a x0) Normals b n k <> 0%R) -> differentiable (fun x => attr_at (a x) Normals b n j) x0).
Proof. exact p_grad_aggregate. Qed.
Print Assumptions C82_aggregate.

(* PointFusion with ground-truth odometry *)
Theorem C82_fusion : forall c F x0 q g m ps a d t sg,
  s_odom c = OGt -> s_map c = Fusion d t (SigNum sg) -> smooth_frames F x0 -> (forall x, RHist (q x) (g x) false (F x)) -> fpose (F x0) <> None ->
  0 < fB (F x0) -> 2 <= fH (F x0) -> 2 <= fW (F x0) -> Sizes c (fB (F x0)) (fH (F x0)) (fW (F x0)) (fL (F x0) * (fH (F x0) * fW (F x0))) ->
  no_zero_depth (F x0) -> generic_run c (F x0) d t sg ->
  (forall x, forward c true (g x) = (Ok (m x, ps x), g x)) -> (forall x, Shows RF (m x) (a x)) -> smooth_map (fB (F x0)) a x0.
Proof. exact p_grad_forward. Qed.
Print Assumptions C82_fusion.

(* a camera that does not move meets the condition generic_run of C82_fusion *)
Theorem C82_fusion_still : forall c fr T0 d t sg,
  s_odom c = OGt -> s_map c = Fusion d t (SigNum sg) -> still_scene fr -> 0 < fL fr -> 2 <= fH fr -> 2 <= fW fr -> fpose fr = Some T0 -> unmoved fr (fL fr) T0 ->
  (0 < d)%R -> (0 <= t)%R -> (forall b q, b < fB fr -> In q (pixels fr b) -> (t < dot 3 (normal_at fr b q) (normal_at fr b q))%R) ->
  (forall b q, b < fB fr -> In q (pixels fr b) -> gaussian sg (vertex (first_frame fr) b 0 (fst q) (snd q)) <> (/ 10000000)%R) -> generic_run c fr d t sg.
Proof. exact still_generic. Qed.
Print Assumptions C82_fusion_still.

(* one call of update_map_fusion *)
Theorem C82_fusion_step : forall F T A A' s g q o s' g' x0 B dist_th dot_th sg inplace,
  smooth_frames F x0 -> live (F x0) -> fB (F x0) = B -> no_zero_depth (F x0) -> (forall x, fpose (F x) = Some (T x)) -> sg <> 0%R ->
  (forall x, RHist (q x) (g x) false (F x)) -> (forall x, ReadyToClone RF (s x) (A x)) -> (forall x, fits_float32 (A x) (F x)) ->
  (forall x, qp (A x) <> None -> full_map (A x) /\ len_view RF (A x) = B) -> (forall x, positive (A x)) -> smooth_map B A x0 ->
  generic_step (A x0) (F x0) (T x0) dist_th dot_th sg ->
  (forall x, update_map_fusion f32 dist_th dot_th (SigNum sg) inplace (s x, g x) = (Ok (o x), (s' x, g' x))) -> (forall x, Shows RF (returned (o x) (s' x)) (A' x)) ->
  smooth_map B A' x0 /\ forall x, ReadyToClone RF (returned (o x) (s' x)) (A' x) /\ full_map (A' x) /\ len_view RF (A' x) = B /\ positive (A' x) /\
    forall b, b < B -> npoints (A' x) b <= npoints (A x) b + fH (F x0) * fW (F x0).
Proof. exact p_grad_update. Qed.
Print Assumptions C82_fusion_step.

(* a loop of calls of update_map_fusion, started with an empty map *)
Theorem C82_fusion_loop : forall L F T p A g q o s' g' x0 B H W dist_th dot_th sg inplace,
  sg <> 0%R -> (Z.of_nat B <= 2 ^ 24)%Z -> (Z.of_nat H <= 2 ^ 24)%Z -> (Z.of_nat W <= 2 ^ 24)%Z -> (Z.of_nat (L * (H * W)) <= 2 ^ 24)%Z ->
  (forall l, l < L -> smooth_frames (F l) x0 /\ live (F l x0) /\ fB (F l x0) = B /\ fH (F l x0) = H /\ fW (F l x0) = W /\ no_zero_depth (F l x0)) ->
  (forall l x, l < L -> fpose (F l x) = Some (T l x) /\ RHist (q l x) (g l x) false (F l x)) ->
  (forall x, ReadyToClone RF (p 0 x) (no_batch RF) /\ A 0 x = no_batch RF) ->
  (forall l x, l < L -> update_map_fusion f32 dist_th dot_th (SigNum sg) inplace (p l x, g l x) = (Ok (o l x), (s' l x, g' l x)) /\ p (S l) x = returned (o l x) (s' l x) /\ Shows RF (p (S l) x) (A (S l) x)) ->
  (forall l, l < L -> generic_step (A l x0) (F l x0) (T l x0) dist_th dot_th sg) ->
  smooth_map B (A L) x0.
Proof. exact p_grad_fusion. Qed.
Print Assumptions C82_fusion_loop.

(* generic_run cannot be dropped: with positive depths throughout, the number of points of the fused map jumps somewhere *)
Theorem C82_association_refuted : exists F : R -> frames, (forall x0, smooth_frames F x0) /\ (forall x b l h w, (1 <= x <= 3)%R -> inside (F x) b l h w -> (0 < fdep (F x) b l h w)%R) /\
  exists c g m ps (a : R -> batch RF), s_odom c = OGt /\ s_map c = Fusion 1 (1 / 2) (SigNum 1) /\ (forall x, RHist false (g x) false (F x)) /\
    (forall x, forward c true (g x) = (Ok (m x, ps x), g x)) /\ (forall x, Shows RF (m x) (a x)) /\
    exists x1, (1 <= x1 <= 3)%R /\ ~ near x1 (fun x => npoints (a x) 0 = npoints (a x1) 0).
Proof. exact r_association. Qed.
Print Assumptions C82_association_refuted.

(* the family swing L: L frames of 2 x 3 pixels of a flat scene at depth x, seen by a camera that moves by x - 1 per frame *)
Example C82_witness : smooth_frames (swing 3) 1 /\ (forall x, RHist false (made (swing 3 x)) false (swing 3 x)) /\ no_zero_depth (swing 3 1) /\ live (moment 0 (swing 3 1)) /\
  generic_run grad_slam (swing 3 1) 1 (1 / 2) 1 /\ still_scene (swing 3 1) /\
  exists m ps a, (forall x, forward grad_slam true (made (swing 3 x)) = (Ok (m x, ps x), made (swing 3 x))) /\ (forall x, Shows RF (m x) (a x)) /\ smooth_map 1 a 1 /\ npoints (a 1%R) 0 = 6.
Proof.
  assert (NZ : no_zero_depth (swing 3 1)) by (intros b l h w _; cbn; lra).
  split; [apply swing_smooth|]. split; [intros x; exact (made_hist (swing 3 x) _ eq_refl eq_refl)|]. split; [exact NZ|]. split; [repeat split; cbn; lia|].
  split; [apply swing_generic; lia|]. split; [apply swing_still|]. destruct (swing_witness 3 ltac:(lia) ltac:(lia)) as (m & ps & a & HI & HF & HS). exists m, ps, a. split; [exact HF|]. split; [exact HS|]. split.
  - apply (p_grad_forward grad_slam (swing 3) 1 (fun _ => false) (fun x => made (swing 3 x)) m ps a 1 (1 / 2) 1); try reflexivity; try assumption; try (cbn; lia); try discriminate.
    + apply swing_smooth.
    + cbn [Sizes grad_slam gt_slam s_map fB fH fW fL swing]. split; [exists 1%R; split; [reflexivity|lra]|]. repeat split; discriminate.
    + apply swing_generic. lia.
  - destruct (swing_run 3 1 (m 1%R) (ps 1%R) (a 1%R) ltac:(lia) ltac:(lia) (HF 1%R) (HS 1%R)) as (maps & TR & ->).
    destruct (StillFuseProofs.averaged_trajectory grad_slam (swing 3 1) 3 maps (fun _ l => drift 1 l) 1 (1 / 2) (SigNum 1) (swing_still 3) ltac:(cbn; lia) ltac:(cbn; lia) eq_refl ltac:(lra)) as [_ A]; [|exact TR| |cbn; lia|].
    + intros b [h w] Hb _. assert (b = 0) as -> by (cbn in Hb; lia). destruct (swing_normal 3 h w) as (E2 & E0 & E1). unfold dot. cbn [rsum]. rewrite E0, E1, E2. lra.
    + intros b l Hb Hl i j Hi Hj. change (drift 1 l i j = drift 1 0 i j). rewrite !drift_I by assumption. reflexivity.
    + destruct (A 0 ltac:(cbn; lia)) as [-> _]. rewrite swing_pixels by lra. reflexivity.
Qed.
(* one depth of the second of three frames varies; the camera is then at (2 - 1, 0, 0) *)
Example C82_depth_witness : inside (swing 3 2) 0 1 0 2 /\ (forall x, RHist false (made (set_depth 0 1 0 2 x (swing 3 2))) false (set_depth 0 1 0 2 x (swing 3 2))) /\
  fpose (swing 3 2) = Some (fun _ l => drift 2 l) /\ fpix (swing 3 2) = None /\ drift 2 1 0 3 <> 0%R /\ ray (swing 3 2) 0 1 0 2 2 = 1%R.
Proof.
  split; [repeat split; cbn; lia|]. split; [intros x; exact (made_hist (set_depth 0 1 0 2 x (swing 3 2)) _ eq_refl eq_refl)|]. do 2 (split; [reflexivity|]). split; [unfold drift; cbn; lra|].
  unfold ray, mvec, kinv, pinhole, pixel. cbn. ring.
Qed.
