(* C76, C77 in the form of the API. *)
From Coq Require Import Reals List Arith Bool ZArith Lia Lra Sorting.Sorted.
From Verif Require Import Res Fld StructUtilsModel PointcloudsModel PointcloudsSpec PointcloudsHist MatSpec GeomSpec TensorModel
  RgbdModel RgbdSpec RgbdWitness RgbdOps RgbdPropProofs RgbdWitnessProofs FusionModel FusionSpec FusionPropProofs Se3Model SolveModel IcpModel IcpSpec OdomSpec SlamModel SlamSpec StillSpec MatProofs IcpGnProofs FusionCorr
  SlamProofs SlamPropProofs StillProofs StillMapProofs StillSlamProofs StillFuseProofs.
Import ListNotations.
Local Open Scope nat_scope.

(* a frame against a map made of its own points *)
Lemma p_own_points s a g cf fr q T : ReadyToClone RF s a -> RHist q g cf fr -> fL fr = 1 -> fB fr = len_view RF a -> fpose fr = Some T -> qp a <> None ->
  fpix fr = None -> (forall b, b < fB fr -> ordinary_camera (fH fr) (fW fr) (fK fr b) /\ rigid4 (T b 0)) ->
  (forall b, b < fB fr -> rows_of a Points b = frame_rows fr Points b) ->
  exists rows s', find_active_map_points (s, g) = (Ok rows, (s', g)) /\
    forall b n h w, In (mkRow b n h w) rows <-> b < fB fr /\ nth_error (chosen true fr b) n = Some (h, w).
Proof.
  intros HR HI HL HB HT HP Hx HC HA. destruct (p_active s a g cf fr q T HR HI HL HB HT HP) as (rows & s' & E & _ & _ & _ & HS).
  exists rows, s'. split; [exact E|]. intros b n h w. rewrite HS.
  assert (NP : b < fB fr -> npoints a b = length (chosen true fr b)).
  { intros Hb. rewrite StillMapProofs.npoints_rows, (HA b Hb). unfold frame_rows. apply map_length. }
  assert (PT : forall i q', b < fB fr -> nth_error (chosen true fr b) i = Some q' ->
    (fst q' < fH fr /\ snd q' < fW fr /\ (0 < fdep fr b 0 (fst q') (snd q'))%R) /\ veq 3 (attr_at a Points b i) (act (T b 0) (vertex fr b 0 (fst q') (snd q')))).
  { intros i q' Hb Ei. pose proof (proj1 (chosen_in fr b q') (nth_error_In _ _ Ei)) as (B1 & B2 & B3). split; [auto|].
    intros k Hk. rewrite attr_rows, (HA b Hb). unfold frame_rows.
    rewrite (nth_error_nth (map _ (chosen true fr b)) i [] (x := map (frame_attr fr Points b (fst q') (snd q')) [0; 1; 2])) by (rewrite nth_error_map, Ei; reflexivity).
    transitivity (frame_attr fr Points b (fst q') (snd q') k); [destruct k as [|[|[|k]]]; [| | |lia]; reflexivity|].
    cbn [frame_attr]. unfold global_vertex. rewrite HT. unfold keep. destruct (Rlt_dec _ _); [reflexivity|contradiction]. }
  split.
  - intros [[Hb Hn] S]. rewrite <- HB in Hb. split; [exact Hb|]. rewrite (NP Hb) in Hn.
    destruct (nth_error (chosen true fr b) n) as [q'|] eqn:Ei; [|apply nth_error_None in Ei; lia]. destruct (PT n q' Hb Ei) as ((B1 & B2 & B3) & V).
    assert (I : imaged_at fr (T b 0) b (act (T b 0) (vertex fr b 0 (fst q') (snd q'))) h w) by exact (imaged_ext fr (T b 0) (T b 0) b _ _ h w (meq_refl _ _ _) V S).
    destruct (HC b Hb) as [C1 C2]. destruct (own_only fr (T b 0) b (fst q') (snd q') Hx C1 C2 B1 B2 B3 h w I) as [-> ->]. destruct q'; reflexivity.
  - intros [Hb Ei]. split; [split; [lia|]; rewrite (NP Hb); apply nth_error_Some; congruence|]. destruct (PT n (h, w) Hb Ei) as ((B1 & B2 & B3) & V). cbn [fst snd] in *.
    destruct (HC b Hb) as [C1 C2]. exact (imaged_ext fr (T b 0) (T b 0) b _ _ h w (meq_refl _ _ _) (veq_sym _ _ _ V) (own_pixel fr (T b 0) b h w Hx C1 C2 B1 B2 B3)).
Qed.

Lemma p_still c o ds g q fr : RHist q g false fr -> 0 < fB fr -> 0 < fL fr -> 2 <= fH fr -> 2 <= fW fr -> still_scene fr ->
  s_odom c = OIcp o -> good_method o -> IcpSpec.nearest (s_nn c) -> s_ds c = IntV ds -> (0 < ds)%Z ->
  Sizes c (fB fr) (fH fr) (fW fr) (fL fr * (fH fr * fW fr)) ->
  exists m t a, forward c true g = (Ok (m, t), g) /\ Poses fr t (fun b _ => first_pose fr b) /\ ReadyToClone RF m a /\ Shows RF m a /\
    forall b p, b < fB fr -> (exists n, n < npoints a b /\ veq 3 (attr_at a Points b n) p) <-> (exists q, In q (pixels fr b) /\ veq 3 (point_at fr b q) p).
Proof.
  intros HI HB HL HH HW Hs Ho Hg Hnn Hds Hd HS.
  pose proof (p_forward c g q fr HI HB HH HW ltac:(unfold Ratio; rewrite Ho; eauto) HS ltac:(congruence)) as K.
  destruct (forward c true g) as [[[m t]|e] g'].
  - destruct K as (-> & maps & T & K1 & K2 & K3 & [K4 K5]).
    destruct (still_trajectory fr Hs HL HH HW c o ds Ho Hds Hg Hnn (fL fr) maps T K1 ltac:(lia)) as [U W].
    exists m, t, (maps (fL fr)). split; [reflexivity|]. split; [|split; [exact K2|split; [exact K3|]]].
    + split; [exact K4|]. intros b l Hb Hl. eapply meq_trans; [apply K5; assumption|apply U; assumption].
    + destruct (W ltac:(lia)) as ((_ & W1) & _). intros b p Hb. destruct (W1 b Hb) as [W2 W3]. split.
      * intros (n & Hn & E). destruct (W3 n Hn) as (q' & Hq & E' & _). exists q'. split; [exact Hq|]. eapply veq_trans; [apply veq_sym; exact E'|exact E].
      * intros (q' & Hq & E). destruct (W2 q' Hq) as (n & Hn & E'). exists n. split; [exact Hn|]. eapply veq_trans; eassumption.
  - exfalso. destruct K as (_ & l & maps & T & Hl & K1 & K2). exact (still_no_failure fr Hs HL HH HW c o ds Ho Hds Hg Hnn l maps T e Hl K1 K2).
Qed.

(* the fused map, with any odometry *)
Lemma p_still_fused c g q fr d t sg m ps T0 : RHist q g false fr -> 0 < fB fr -> 0 < fL fr -> 2 <= fH fr -> 2 <= fW fr -> still_scene fr -> Ratio c ->
  Sizes c (fB fr) (fH fr) (fW fr) (fL fr * (fH fr * fW fr)) -> (s_odom c = OGt -> 2 <= fL fr -> fpose fr <> None) ->
  s_map c = Fusion d t sg -> (0 < d)%R ->
  (forall b q, b < fB fr -> In q (pixels fr b) -> (t < dot 3 (normal_at fr b q) (normal_at fr b q))%R) ->
  forward c true g = (Ok (m, ps), g) -> Poses fr ps T0 -> unmoved fr (fL fr) T0 ->
  exists a, ReadyToClone RF m a /\ Shows RF m a /\ Averaged (sigma_val sg) fr (fL fr) a.
Proof.
  intros HI HB HL HH HW Hs Hr HS Hgt Hm Hd Ht E [_ HP] U. pose proof (p_forward c g q fr HI HB HH HW Hr HS Hgt) as K. rewrite E in K.
  destruct K as (_ & maps & T & K1 & K2 & K3 & [K4 K5]). exists (maps (fL fr)). split; [exact K2|]. split; [exact K3|].
  eapply (averaged_trajectory c fr (fL fr) maps T d t sg); try eassumption; [|lia].
  intros b l Hb Hl i j Hi Hj. rewrite <- (K5 b l Hb Hl i j Hi Hj), (HP b l Hb Hl i j Hi Hj). apply U; assumption.
Qed.
(* the map stops growing after the first frame *)
Lemma p_averaged_size sigma fr n n' a a' : Averaged sigma fr n a -> Averaged sigma fr n' a' -> forall b, b < fB fr -> npoints a b = npoints a' b.
Proof. intros [_ H] [_ H'] b Hb. rewrite (proj1 (H b Hb)), (proj1 (H' b Hb)). reflexivity. Qed.

(* ---------------- a camera whose own points fall on other pixels *)
Definition tiny_fr : frames := mkFrames 1 1 2 3 (fun _ _ _ _ _ => 0%R) (fun _ _ _ _ => 1%R) (fun _ => pinhole (/ 1000000) 1 0 0 0) (Some (fun _ _ => mI)) None.
Lemma r_tiny_focal : exists fr T, fpix fr = None /\ fpose fr = Some (fun _ _ => T) /\ rigid4 T /\ (exists fx fy cx cy, fK fr 0 = pinhole fx fy cx cy 0 /\ (0 < fx)%R /\ (0 < fy)%R) /\
  exists h w, h < fH fr /\ w < fW fr /\ (0 < fdep fr 0 0 h w)%R /\ imaged_at fr T 0 (act T (vertex fr 0 0 h w)) h 1 /\ w = 2.
Proof.
  exists tiny_fr, mI. split; [reflexivity|]. split; [reflexivity|].
  assert (RI : rigid4 mI).
  { split; [repeat split|]. split; [split|].
    - intros i j Hi Hj. unfold mmul, mtr, rot_of, mI, delta. destruct i as [|[|[|i]]]; [| | |lia]; (destruct j as [|[|[|j]]]; [| | |lia]); cbn; ring.
    - intros i j Hi Hj. unfold mmul, mtr, rot_of, mI, delta. destruct i as [|[|[|i]]]; [| | |lia]; (destruct j as [|[|[|j]]]; [| | |lia]); cbn; ring.
    - unfold det3, rot_of, mI, delta. cbn. ring. }
  split; [exact RI|]. split.
  - eexists _, _, _, _. split; [reflexivity|]. split; lra.
  - exists 0, 2. split; [cbn; lia|]. split; [cbn; lia|]. split; [cbn; lra|]. split; [|reflexivity].
    assert (EK : meq 4 4 (fK tiny_fr 0) (pinhole (/ 1000000) 1 0 0 0)) by apply meq_refl.
    destruct (vertex_pos tiny_fr 0 0 2 (/ 1000000) 1 0 0 eq_refl EK ltac:(cbn; lra)) as (V0 & V1 & V2).
    unfold imaged_at. cbv zeta. rewrite (image_pos_ext _ _ _ (to_camera_act mI (vertex tiny_fr 0 0 0 2) RI)), (to_camera_act mI (vertex tiny_fr 0 0 0 2) RI 2%nat) by lia.
    assert (P : (0 < vertex tiny_fr 0 0 0 2 2%nat)%R) by (rewrite V2; cbn; lra).
    destruct (image_exact (fK tiny_fr 0) (/ 1000000) 1 0 0 _ EK P) as [-> ->]. rewrite V0, V1, V2. cbn [fdep tiny_fr fH fW].
    split; [lra|]. split; [unfold in_rectangle; cbn [INR]; split; lra|].
    replace ((1 * (1 * (/ (1 + / 1000000) * INR 0 + - 0 / (1 + / 1000000))) + 0 * 1) / 1)%R with 0%R by (cbn [INR]; field; lra).
    replace ((/ 1000000 * (1 * (/ (/ 1000000 + / 1000000) * INR 2 + - 0 / (/ 1000000 + / 1000000))) + 0 * 1) / 1)%R with 1%R by (cbn [INR]; field; lra).
    split; apply near_int; cbn [INR]; unfold Rabs; destruct (Rcase_abs _); lra.
Qed.

(* ---------------- a still scene *)
Lemma frames_hist a T : fpose a = Some T -> fpix a = None -> exists s, RHist false s false a.
Proof.
  intros HT HX. assert (I : Inputs false a (wimg_rgb a) (wimg_depth a) (wimg_intr a) (Some (wimg_poses a)) None).
  { destruct a as [fb fl fh fw rgb dep fk po px]. cbn in HT, HX. subst. repeat split; auto. }
  destruct (new_ok false a (wimg_rgb a) (wimg_depth a) (wimg_intr a) (TTen (wimg_poses a)) TNone I ltac:(discriminate) ltac:(discriminate)) as (s & E & _).
  exists s. eapply h_new; [|exact E]. exact I.
Qed.
Definition still_fr (L : nat) : frames := mkFrames 1 L 2 3 (fun _ l h w c => INR (c + h + 2 * w + l)) (fun _ _ h w => if (h =? 1) && (w =? 2) then 0%R else 1%R)
  (fun _ => pinhole 2 4 1 1 0) (Some (fun _ _ => mI)) None.
Lemma rigid_I : rigid4 mI.
Proof.
  split; [repeat split|]. split; [split|].
  - intros i j Hi Hj. unfold mmul, mtr, rot_of, mI, delta. destruct i as [|[|[|i]]]; [| | |lia]; (destruct j as [|[|[|j]]]; [| | |lia]); cbn; ring.
  - intros i j Hi Hj. unfold mmul, mtr, rot_of, mI, delta. destruct i as [|[|[|i]]]; [| | |lia]; (destruct j as [|[|[|j]]]; [| | |lia]); cbn; ring.
  - unfold det3, rot_of, mI, delta. cbn. ring.
Qed.
Lemma still_fr_still L : still_scene (still_fr L).
Proof.
  split; [intros b l h w _; reflexivity|]. split; [reflexivity|]. intros b Hb. split; [|exact rigid_I].
  exists 2%R, 4%R, 1%R, 1%R. split; [apply meq_refl|]. split; [lra|]. split; [lra|]. cbn [fH fW still_fr].
  split; intros [|[|[|x]]] Hx; try lia; cbn; unfold Rabs; destruct (Rcase_abs _); lra.
Qed.
Lemma still_fr_pixels L : pixels (still_fr L) 0 = [(0, 0); (0, 1); (0, 2); (1, 0); (1, 1)].
Proof.
  unfold pixels, chosen, row_major. cbn [fH fW first_frame posed with_fpose moment pick still_fr seq list_prod map app].
  assert (D : forall h w, fdep (first_frame (still_fr L)) 0 0 h w = if (h =? 1) && (w =? 2) then 0%R else 1%R) by reflexivity.
  cbn [filter fst snd]. rewrite !D. cbn [Nat.eqb andb]. repeat match goal with |- context[Rlt_dec ?a ?b] => destruct (Rlt_dec a b); try lra end. reflexivity.
Qed.
Lemma still_fr_grid L b : b < 1 -> grid_pixels 2 (first_frame (still_fr L)) b <> [].
Proof.
  intros Hb. assert (b = 0) as -> by lia. change (chosen true (first_frame (still_fr L)) 0) with (pixels (still_fr L) 0).
  unfold grid_pixels. fold (pixels (still_fr L) 0). rewrite still_fr_pixels. cbn [filter fst snd]. unfold divisible at 1 2.
  destruct (Znumtheory.Zdivide_dec 2 (Z.of_nat 0)) as [|N]; [discriminate|]. exfalso. apply N. exists 0%Z. reflexivity.
Qed.
Lemma still_fr_vertex L h w k : k < 3 -> vertex (first_frame (still_fr L)) 0 0 h w k =
  if (h =? 1) && (w =? 2) then 0%R else match k with 0 => (/ (2 + / 1000000) * INR w + - 1 / (2 + / 1000000))%R | 1 => (/ (4 + / 1000000) * INR h + - 1 / (4 + / 1000000))%R | _ => 1%R end.
Proof.
  intros Hk. destruct ((h =? 1) && (w =? 2)) eqn:E.
  - unfold vertex, keep. change (fdep (first_frame (still_fr L)) 0 0 h w) with (if (h =? 1) && (w =? 2) then 0%R else 1%R). rewrite E. destruct (Rlt_dec 0 0); [lra|reflexivity].
  - assert (D : fdep (first_frame (still_fr L)) 0 0 h w = 1%R) by (change (fdep (first_frame (still_fr L)) 0 0 h w) with (if (h =? 1) && (w =? 2) then 0%R else 1%R); rewrite E; reflexivity).
    destruct (vertex_pos (first_frame (still_fr L)) 0 h w 2 4 1 1 eq_refl (meq_refl _ _ _) ltac:(rewrite D; lra)) as (V0 & V1 & V2). cbv zeta in *. rewrite D in V0, V1, V2.
    destruct k as [|[|[|k]]]; [rewrite V0; apply Rmult_1_l|rewrite V1; apply Rmult_1_l|exact V2|lia].
Qed.
Lemma still_fr_normal L q : In q (pixels (still_fr L) 0) -> dot 3 (normal_at (still_fr L) 0 q) (normal_at (still_fr L) 0 q) = 1%R.
Proof.
  intros Hq. set (N := normal (first_frame (still_fr L)) 0 0 (fst q) (snd q)).
  assert (E : dot 3 (normal_at (still_fr L) 0 q) (normal_at (still_fr L) 0 q) = (norm 3 N * norm 3 N)%R).
  { unfold norm. rewrite sqrt_sqrt by (unfold dot; cbn [rsum]; nra). change (normal_at (still_fr L) 0 q) with (mvec 3 (rot_of mI) N).
    unfold dot, mvec, rot_of, mI, delta. cbn [rsum Nat.eqb]. ring. }
  rewrite E. clear E. unfold N, normal, keep.
  assert (D : fdep (first_frame (still_fr L)) 0 0 (fst q) (snd q) = 1%R).
  { rewrite still_fr_pixels in Hq. cbn [In] in Hq. change (fdep (first_frame (still_fr L)) 0 0 (fst q) (snd q)) with (if (fst q =? 1) && (snd q =? 2) then 0%R else 1%R).
    repeat (destruct Hq as [<-|Hq]; [reflexivity|]). destruct Hq. }
  rewrite D. destruct (Rlt_dec 0 1); [|lra].
  set (th := tangent_h _ _ _ _ _). set (tv := tangent_v _ _ _ _ _).
  assert (C : cross th tv 1 <> 0%R \/ cross th tv 2 <> 0%R \/ cross th tv 0 <> 0%R).
  { rewrite still_fr_pixels in Hq. cbn [In] in Hq. unfold th, tv, tangent_h, tangent_v. cbn [fH fW first_frame posed with_fpose moment pick still_fr].
    assert (P1 : (0 < / (2 + / 1000000))%R) by (apply Rinv_0_lt_compat; lra). assert (P2 : (0 < / (4 + / 1000000))%R) by (apply Rinv_0_lt_compat; lra).
    repeat (destruct Hq as [<-|Hq]; [cbn [fst snd Nat.sub Nat.min]; unfold cross; rewrite !still_fr_vertex by lia; cbn [Nat.eqb andb INR]; 
       set (x := (/ (2 + / 1000000))%R) in *; set (y := (/ (4 + / 1000000))%R) in *; unfold Rdiv; fold x y; first [left; nra|right; left; nra|right; right; nra]|]). destruct Hq. }
  destruct (unitize_norm (cross th tv)) as [[_ Z]|[Z _]]; [|].
  - exfalso. assert (Z2 : dot 3 (cross th tv) (cross th tv) = 0%R). { rewrite <- dot3_self_norm, Z. ring. }
    unfold dot in Z2. cbn [rsum] in Z2. destruct C as [C|[C|C]]; nra.
  - assert (norm 3 (fun k => unitize (cross th tv) k) = 1%R) as -> by exact Z. ring.
Qed.
