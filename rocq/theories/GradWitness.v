(* A concrete family of sequences for C82: a flat scene at depth x seen by a camera that drifts by (x - 1) per frame; colours proportional to x. *)
From Coq Require Import Reals List Arith Bool ZArith Lia Lra Sorting.Sorted.
From Verif Require Import Res Fld StructUtilsModel PointcloudsModel PointcloudsSpec PointcloudsHist MatSpec GeomSpec TensorModel
  RgbdModel RgbdSpec RgbdWitness RgbdOps RgbdPropProofs FusionModel FusionSpec FusionMap FusionPropProofs FusionPropProofs2 Se3Model SolveModel IcpModel IcpSpec OdomSpec SlamModel SlamSpec SlamProofs SlamPropProofs
  StillSpec StillProofs StillMapProofs StillFuseProofs StillPropProofs GradSpec GradProofs GradMapProofs GradFuseProofs GradRunProofs GradStillProofs.
Import ListNotations.
Import FusionSpec.
Local Open Scope nat_scope.

Definition got {A} (d : A) (r : res A) : A := match r with Ok a => a | Err _ => d end.
(* the RGBDImages object made of given frames *)
Definition dull : rgbd := mkRGBD false None None None None None None None None None None [] None [] [] 0 0 0 0.
Definition made (a : frames) : rgbd := got dull (rgbd_new (TTen (wimg_rgb a)) (TTen (wimg_depth a)) (TTen (wimg_intr a)) (TTen (wimg_poses a)) false TNone).
Lemma made_hist a T : fpose a = Some T -> fpix a = None -> RHist false (made a) false a.
Proof.
  intros HT HX. assert (I : Inputs false a (wimg_rgb a) (wimg_depth a) (wimg_intr a) (Some (wimg_poses a)) None).
  { destruct a as [fb fl fh fw rgb dep fk po px]. cbn in HT, HX. subst. repeat split; auto. }
  destruct (new_ok false a (wimg_rgb a) (wimg_depth a) (wimg_intr a) (TTen (wimg_poses a)) TNone I ltac:(discriminate) ltac:(discriminate)) as (s & E & _).
  unfold made. rewrite E. cbn [got]. eapply h_new; [|exact E]. exact I.
Qed.

Definition drift (x : R) (l : nat) : mat := fun i j => if (i =? 0) && (j =? 3) then ((x - 1) * INR l)%R else mI i j.
Definition swing (L : nat) (x : R) : frames :=
  mkFrames 1 L 2 3 (fun _ l h w c => (x * INR (c + h + 2 * w + l))%R) (fun _ _ _ _ => x) (fun _ => pinhole 2 4 1 1 0) (Some (fun _ l => drift x l)) None.
Lemma swing_smooth L x0 : smooth_frames (swing L) x0.
Proof.
  split; [intros x; cbn; auto|]. split; [intros; cbn [swing frgb]; apply diff_mult; [apply diff_id|apply diff_const]|]. split; [intros; cbn [swing fdep]; apply diff_id|].
  split; [intros; cbn [swing fK]; apply diff_const|]. split; [intros b _; cbn; lra|]. split; [|left; reflexivity].
  right. exists (fun x _ l => drift x l). split; [reflexivity|]. intros b l i j _ _ _ _. unfold drift. destruct ((i =? 0) && (j =? 3)); [|apply diff_const]. apply diff_mult; [|apply diff_const]. apply diff_minus; [apply diff_id|apply diff_const].
Qed.
Lemma drift_I l i j : i < 4 -> j < 4 -> drift 1 l i j = mI i j.
Proof. intros Hi Hj. unfold drift. destruct (Nat.eqb_spec i 0) as [->|]; [|reflexivity]. destruct (Nat.eqb_spec j 3) as [->|]; [|reflexivity]. cbn. unfold mI, delta. cbn. ring. Qed.
Lemma drift_rigid x l : rigid4 (drift x l).
Proof.
  split; [repeat split|]. split; [split|].
  - intros i j Hi Hj. unfold mmul, mtr, rot_of, drift, mI, delta. destruct i as [|[|[|i]]]; [| | |lia]; (destruct j as [|[|[|j]]]; [| | |lia]); cbn; ring.
  - intros i j Hi Hj. unfold mmul, mtr, rot_of, drift, mI, delta. destruct i as [|[|[|i]]]; [| | |lia]; (destruct j as [|[|[|j]]]; [| | |lia]); cbn; ring.
  - unfold det3, rot_of, drift, mI, delta. cbn. ring.
Qed.
Lemma swing_still L : still_scene (swing L 1).
Proof.
  split; [intros b l h w _; reflexivity|]. split; [reflexivity|]. intros b Hb. split; [|apply drift_rigid].
  exists 2%R, 4%R, 1%R, 1%R. split; [apply MatProofs.meq_refl|]. split; [lra|]. split; [lra|]. cbn [fH fW swing].
  split; intros [|[|[|x]]] Hx; try lia; cbn; unfold Rabs; destruct (Rcase_abs _); lra.
Qed.
Lemma swing_vertex L h w k : k < 3 -> vertex (first_frame (swing L 1)) 0 0 h w k =
  match k with 0 => (/ (2 + / 1000000) * INR w + - 1 / (2 + / 1000000))%R | 1 => (/ (4 + / 1000000) * INR h + - 1 / (4 + / 1000000))%R | _ => 1%R end.
Proof.
  intros Hk. assert (D : fdep (first_frame (swing L 1)) 0 0 h w = 1%R) by reflexivity.
  destruct (vertex_pos (first_frame (swing L 1)) 0 h w 2 4 1 1 eq_refl (MatProofs.meq_refl _ _ _) ltac:(rewrite D; lra)) as (V0 & V1 & V2). cbv zeta in *. rewrite D in V0, V1, V2.
  destruct k as [|[|[|k]]]; [rewrite V0; apply Rmult_1_l|rewrite V1; apply Rmult_1_l|exact V2|lia].
Qed.
Lemma swing_normal L h w : normal_at (swing L 1) 0 (h, w) 2 = 1%R /\ normal_at (swing L 1) 0 (h, w) 0 = 0%R /\ normal_at (swing L 1) 0 (h, w) 1 = 0%R.
Proof.
  assert (P1 : (0 < / (2 + / 1000000))%R) by (apply Rinv_0_lt_compat; lra). assert (P2 : (0 < / (4 + / 1000000))%R) by (apply Rinv_0_lt_compat; lra).
  set (x := (/ (2 + / 1000000))%R) in *. set (y := (/ (4 + / 1000000))%R) in *.
  set (N := normal (first_frame (swing L 1)) 0 0 h w).
  assert (E : forall k, k < 3 -> normal_at (swing L 1) 0 (h, w) k = N k).
  { intros k Hk. change (normal_at (swing L 1) 0 (h, w)) with (mvec 3 (rot_of (drift 1 0)) N). unfold mvec, rot_of. cbn [rsum]. rewrite !drift_I by lia. unfold mI, delta. destruct k as [|[|[|k]]]; [| | |lia]; cbn; ring. }
  assert (CV : forall k, k < 3 -> cross (tangent_h (first_frame (swing L 1)) 0 0 h w) (tangent_v (first_frame (swing L 1)) 0 0 h w) k = match k with 2 => (x * y)%R | _ => 0%R end).
  { intros k Hk. assert (V := fun h w k => swing_vertex L h w k). unfold tangent_h, tangent_v. set (w' := Nat.min w _). set (h' := Nat.min h _). unfold cross, vec3. destruct k as [|[|[|k]]]; [| | |lia];
      rewrite !V by lia; unfold Rdiv; fold x y; rewrite ?S_INR; ring. }
  assert (NV : norm 3 (cross (tangent_h (first_frame (swing L 1)) 0 0 h w) (tangent_v (first_frame (swing L 1)) 0 0 h w)) = (x * y)%R).
  { unfold norm, dot. cbn [rsum]. rewrite !CV by lia. replace (0 + 0 * 0 + 0 * 0 + x * y * (x * y))%R with ((x * y) * (x * y))%R by ring. apply sqrt_square. nra. }
  assert (EN : forall k, k < 3 -> N k = match k with 2 => 1%R | _ => 0%R end).
  { intros k Hk. unfold N, normal, keep. change (fdep (first_frame (swing L 1)) 0 0 h w) with 1%R. destruct (Rlt_dec 0 1); [|lra]. unfold unitize. rewrite NV, CV by exact Hk.
    assert (0 < x * y)%R by nra. destruct (Req_EM_T (x * y) 0); [lra|]. destruct k as [|[|[|k]]]; [| | |lia]; field; lra. }
  rewrite !E, !EN by lia. auto.
Qed.
Definition grad_slam : slam := gt_slam (Fusion 1 (1 / 2) (SigNum 1)).
Lemma swing_generic L : 0 < L -> generic_run grad_slam (swing L 1) 1 (1 / 2) 1.
Proof.
  intros HL. apply (still_generic grad_slam (swing L 1) (fun _ l => drift 1 l)); try reflexivity; try exact HL; try lra; try (cbn; lia).
  - apply swing_still.
  - intros b l Hb Hl i j Hi Hj. change (drift 1 l i j = drift 1 0 i j). rewrite !drift_I by assumption. reflexivity.
  - intros b [h w] Hb _. assert (b = 0) as -> by (cbn in Hb; lia). destruct (swing_normal L h w) as (E2 & E0 & E1). unfold dot. cbn [rsum]. rewrite E0, E1, E2. lra.
  - intros b [h w] Hb Hq. assert (b = 0) as -> by (cbn in Hb; lia). cbn [fst snd]. unfold gaussian, norm. rewrite pow2_sqrt by (unfold dot; cbn [rsum]; nra).
    apply StillMapProofs.chosen_in in Hq. destruct Hq as (H1 & H2 & _). cbn [fst snd] in *. change (h < 2) in H1. change (w < 3) in H2.
    assert (P1 : (0 < / (2 + / 1000000) < 1)%R) by (split; [apply Rinv_0_lt_compat; lra|rewrite <- Rinv_1; apply Rinv_lt_contravar; lra]).
    assert (P2 : (0 < / (4 + / 1000000) < / 2)%R) by (split; [apply Rinv_0_lt_compat; lra|apply Rinv_lt_contravar; lra]).
    assert (P3 : (/ (2 + / 1000000) < / (8 / 5))%R) by (apply Rinv_lt_contravar; lra).
    set (v := vertex _ _ _ _ _). assert (B0 : (Rabs (v 0%nat) <= 5 / 8)%R /\ (Rabs (v 1%nat) <= 1 / 2)%R /\ v 2 = 1%R).
    { unfold v. rewrite !swing_vertex by lia. unfold Rdiv. set (x := (/ (2 + / 1000000))%R) in *. set (y := (/ (4 + / 1000000))%R) in *.
      split; [|split; [|reflexivity]].
      - destruct w as [|[|[|w]]]; [| | |lia]; cbn [INR]; unfold Rabs; destruct (Rcase_abs _); lra.
      - destruct h as [|[|h]]; [| |lia]; cbn [INR]; unfold Rabs; destruct (Rcase_abs _); lra. }
    destruct B0 as (B0 & B1 & B2). assert (C0 : (- (5 / 8) <= v 0%nat <= 5 / 8)%R) by (unfold Rabs in B0; destruct (Rcase_abs _); lra). assert (C1 : (- (1 / 2) <= v 1%nat <= 1 / 2)%R) by (unfold Rabs in B1; destruct (Rcase_abs _); lra). assert (DV : (dot 3 v v <= 7 / 4)%R) by (unfold dot; cbn [rsum]; rewrite B2; nra).
    pose proof (exp_ineq1_le (- dot 3 v v / (2 * 1 ^ 2)))%R as X. set (e := exp _) in *. lra.
Qed.
Lemma swing_witness L : 0 < L -> (3 * (2 * (Z.of_nat L)) <= 2 ^ 24)%Z -> exists m ps (a : R -> batch RF),
  (forall x, RHist false (made (swing L x)) false (swing L x)) /\ (forall x, forward grad_slam true (made (swing L x)) = (Ok (m x, ps x), made (swing L x))) /\ (forall x, Shows RF (m x) (a x)).
Proof.
  intros HL HZ. assert (HI : forall x, RHist false (made (swing L x)) false (swing L x)) by (intros x; exact (made_hist (swing L x) _ eq_refl eq_refl)).
  assert (K : forall x, exists m t a, forward grad_slam true (made (swing L x)) = (Ok (m, t), made (swing L x)) /\ Shows RF m a).
  { intros x. destruct (p_forward_gt grad_slam (made (swing L x)) false (swing L x) (fun _ l => drift x l) (HI x)) as (m & t & maps & T & E1 & _ & _ & _ & E2 & _); try reflexivity; try (cbn; lia).
    - cbn [Sizes grad_slam gt_slam s_map fB fH fW fL swing]. split; [exists 1%R; split; [reflexivity|lra]|]. split; [discriminate|]. split; [discriminate|]. split; [discriminate|]. lia.
    - exists m, t, (maps (fL (swing L x))). auto. }
  set (pd := mkPC RF (mkQ None None None None) (mkQ None None None None) None (mkQ None None None None) [] 0 0 None : pc RF). set (td := mkTen [] (fun _ => 0%R)).
  set (r := fun x => got (pd, td) (fst (forward grad_slam true (made (swing L x))))).
  assert (D : forall x, exists! a, Shows RF (fst (r x)) a).
  { intros x. destruct (K x) as (m & t & a & E & S). exists a. unfold r. rewrite E. cbn [fst got]. split; [exact S|]. intros a' S'. exact (shows_one _ _ _ S S'). }
  exists (fun x => fst (r x)), (fun x => snd (r x)), (fun x => proj1_sig (UniqueProofs.dd_batch _ (D x))). split; [exact HI|]. split.
  - intros x. unfold r. destruct (K x) as (m & t & a & E & S). rewrite E. reflexivity.
  - intros x. destruct (UniqueProofs.dd_batch _ (D x)) as (a & S). exact S.
Qed.
