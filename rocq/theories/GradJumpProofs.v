(* C82: the number of points of a fused map is not locally constant: somewhere the association between map and frame changes. *)
From Coq Require Import Reals List Arith Bool ZArith Lia Lra Sorting.Sorted.
From Verif Require Import Res Fld StructUtilsModel PointcloudsModel PointcloudsSpec PointcloudsHist MatSpec GeomSpec TensorModel
  RgbdModel RgbdSpec RgbdWitness RgbdOps RgbdPropProofs FusionModel FusionSpec FusionMap FusionPropProofs FusionPropProofs2 Se3Model SolveModel IcpModel IcpSpec OdomSpec SlamModel SlamSpec SlamProofs SlamPropProofs
  StillSpec StillProofs StillMapProofs StillFuseProofs StillPropProofs GradSpec GradProofs GradMapProofs GradFuseProofs GradRunProofs GradStillProofs GradWitness.
Import ListNotations.
Import FusionSpec.
Local Open Scope nat_scope.

(* an integer function that is locally constant on an interval is constant there *)
Lemma locally_constant (f : R -> nat) u v : (u <= v)%R -> (forall x, (u <= x <= v)%R -> near x (fun y => f y = f x)) -> f u = f v.
Proof.
  intros Huv H. destruct (Req_dec u v) as [->|N]; [reflexivity|].
  assert (D : forall x, (u <= x <= v)%R -> derivable_pt_lim (fun y => INR (f y)) x 0%R).
  { intros x Hx e He. destruct (H x Hx) as (d & Hd & E). exists (mkposreal d Hd). intros h Hh Hd'. cbn in Hd'. rewrite (E (x + h)%R) by (replace (x + h - x)%R with h by ring; exact Hd').
    replace ((INR (f x) - INR (f x)) / h - 0)%R with 0%R by (field; exact Hh). rewrite Rabs_R0. exact He. }
  destruct (MVT_cor2 (fun y => INR (f y)) (fun _ => 0%R) u v ltac:(lra) D) as (z & E & _). apply INR_eq. lra.
Qed.

Lemma swing_still_at L x : still_scene (swing L x).
Proof.
  split; [intros b l h w _; reflexivity|]. split; [reflexivity|]. intros b Hb. split; [|apply drift_rigid].
  exists 2%R, 4%R, 1%R, 1%R. split; [apply MatProofs.meq_refl|]. split; [lra|]. split; [lra|]. cbn [fH fW swing].
  split; intros [|[|[|k]]] Hk; try lia; cbn; unfold Rabs; destruct (Rcase_abs _); lra.
Qed.
Lemma swing_pixels L x : (0 < x)%R -> pixels (swing L x) 0 = [(0, 0); (0, 1); (0, 2); (1, 0); (1, 1); (1, 2)].
Proof.
  intros Hx. unfold pixels, chosen, row_major. cbn [fH fW first_frame posed with_fpose moment pick swing seq list_prod map app].
  assert (D : forall h w, fdep (first_frame (swing L x)) 0 0 h w = x) by reflexivity.
  cbn [filter fst snd]. rewrite !D. destruct (Rlt_dec 0 x); [reflexivity|contradiction].
Qed.
(* the maps of the run *)
Lemma swing_run L x m ps a : 0 < L -> (3 * (2 * Z.of_nat L) <= 2 ^ 24)%Z -> forward grad_slam true (made (swing L x)) = (Ok (m, ps), made (swing L x)) -> Shows RF m a ->
  exists maps, Trajectory grad_slam (swing L x) L maps (fun _ l => drift x l) /\ a = maps L.
Proof.
  intros HL HZ E S. destruct (p_forward_gt grad_slam (made (swing L x)) false (swing L x) (fun _ l => drift x l) (made_hist (swing L x) _ eq_refl eq_refl)) as (m' & t & maps & T & E1 & _ & E2 & _ & E3 & E4); try reflexivity; try (cbn; lia).
  - cbn [Sizes grad_slam gt_slam s_map fB fH fW fL swing]. split; [exists 1%R; split; [reflexivity|lra]|]. split; [discriminate|]. split; [discriminate|]. split; [discriminate|]. lia.
  - rewrite E in E1. injection E1 as <- <-. exists maps. split; [|exact (shows_one _ _ _ S E3)].
    apply (traj_pose grad_slam (swing L x) L maps T (fun _ l => drift x l) 1 (1 / 2) (SigNum 1) eq_refl eq_refl (le_n _)); [|exact E2]. intros b l Hb Hl. now apply E4.
Qed.
Lemma swing_map1 L x maps : 0 < L -> Trajectory grad_slam (swing L x) L maps (fun _ l => drift x l) -> Averaged 1 (swing L x) 1 (maps 1).
Proof.
  intros HL [H0 H]. destruct (H 0 HL) as [_ M]. unfold Mapped in M. cbn [grad_slam gt_slam s_map] in M. destruct M as (_ & _ & rows & M1 & M2). rewrite H0 in M1, M2. cbn in M2.
  apply (fused_first (swing L x) (swing_still_at L x) HL ltac:(cbn; lia) ltac:(cbn; lia) 1 (fun _ => drift x 0) rows (no_batch RF)); [intros b Hb; apply MatProofs.meq_refl|reflexivity|exact M2|exact M1].
Qed.
Lemma swing_count1 m ps a : forward grad_slam true (made (swing 2 1)) = (Ok (m, ps), made (swing 2 1)) -> Shows RF m a -> npoints a 0 = 6.
Proof.
  intros E S. destruct (swing_run 2 1 m ps a ltac:(lia) ltac:(lia) E S) as (maps & TR & ->).
  destruct (averaged_trajectory grad_slam (swing 2 1) 2 maps (fun _ l => drift 1 l) 1 (1 / 2) (SigNum 1) (swing_still 2) ltac:(cbn; lia) ltac:(cbn; lia) eq_refl ltac:(lra)) as [_ A]; [|exact TR| |cbn; lia|].
  - intros b [h w] Hb _. assert (b = 0) as -> by (cbn in Hb; lia). destruct (swing_normal 2 h w) as (E2 & E0 & E1). unfold dot. cbn [rsum]. rewrite E0, E1, E2. lra.
  - intros b l Hb Hl i j Hi Hj. change (drift 1 l i j = drift 1 0 i j). rewrite !drift_I by assumption. reflexivity.
  - destruct (A 0 ltac:(cbn; lia)) as [-> _]. rewrite swing_pixels by lra. reflexivity.
Qed.
Lemma swing_count3 m ps a : forward grad_slam true (made (swing 2 3)) = (Ok (m, ps), made (swing 2 3)) -> Shows RF m a -> 6 < npoints a 0.
Proof.
  intros E S. destruct (swing_run 2 3 m ps a ltac:(lia) ltac:(lia) E S) as (maps & TR & ->). pose proof (swing_map1 2 3 maps ltac:(lia) TR) as [A1 A2]. destruct (A2 0 ltac:(cbn; lia)) as [A3 A4]. clear A2.
  rewrite swing_pixels in A3, A4 by lra. cbn [length] in A3. destruct TR as [_ H]. destruct (H 1 ltac:(lia)) as [_ M]. unfold Mapped in M. cbn [grad_slam gt_slam s_map] in M. destruct M as (_ & _ & rows & [_ M1] & M2).
  destruct (qp (maps 1)) as [P|] eqn:EP; [|unfold npoints in A3; rewrite EP in A3; discriminate]. destruct M2 as (T & ET & (_ & _ & C & _)). cbn in ET. injection ET as <-.
  destruct (M1 0 ltac:(cbn; lia)) as [N _]. rewrite N, A3. set (fr := posed _ _) in *.
  assert (I : In (0, 2) (fresh_pixels rows fr 0)); [|destruct (fresh_pixels rows fr 0); [destruct I|cbn; lia]].
  unfold fresh_pixels. apply filter_In. split; [apply StillMapProofs.chosen_in; cbn; repeat split; lia || lra|].
  apply Bool.negb_true_iff. apply Bool.not_true_iff_false. intros X. apply existsb_exists in X. destruct X as ([b n h w] & IR & X). cbn [fst snd rb rh rw] in X. apply Bool.andb_true_iff in X. destruct X as [X X3]. apply Bool.andb_true_iff in X. destruct X as [X1 X2].
  apply Nat.eqb_eq in X1, X2, X3. subst b h w. destruct (C _ _ _ _ IR) as ([_ R2] & _ & [D _]). cbn [rb rn rh rw] in D. rewrite A3 in R2.
  assert (Q : exists q, nth_error [(0, 0); (0, 1); (0, 2); (1, 0); (1, 1); (1, 2)] n = Some q /\ snd q < 3) by (do 6 (destruct n as [|n]; [eexists; split; [reflexivity|cbn; lia]|]); lia).
  destruct Q as ([h w] & Eq & Hw). cbn [snd] in Hw. destruct (A4 n (h, w) Eq) as (V & _).
  assert (P1 : (/ 3 < / (2 + / 1000000) < / 2)%R) by (split; apply Rinv_lt_contravar; lra).
  assert (X1 : (attr_at (maps 1%nat) Points 0 n 0%nat <= 3 / 2)%R).
  { rewrite V by lia. change (keep 3 (act (drift 3 0) (vertex (first_frame (swing 2 3)) 0 0 h w) 0%nat) <= 3 / 2)%R. unfold keep. destruct (Rlt_dec 0 3); [|lra].
    destruct (vertex_pos (first_frame (swing 2 3)) 0 h w 2 4 1 1 eq_refl (MatProofs.meq_refl _ _ _) ltac:(cbn; lra)) as (V0 & V1 & V2). cbv zeta in *. change (fdep (first_frame (swing 2 3)) 0 0 h w) with 3%R in *.
    unfold act, mvec, rot_of, tr_of, drift, mI, delta. cbn. rewrite V0. unfold Rdiv. set (x := (/ (2 + / 1000000))%R) in *. destruct w as [|[|[|w]]]; [| | |lia]; cbn [INR]; lra. }
  assert (X2 : (3 <= frame_point fr (mkRow 0 n 0 2) 0%nat)%R).
  { unfold frame_point. cbn [rb rh rw]. change (3 <= keep 3 (act (drift 3 1) (vertex fr 0 0 0 2) 0%nat))%R. unfold keep. destruct (Rlt_dec 0 3); [|lra].
    destruct (vertex_pos fr 0 0 2 2 4 1 1 eq_refl (MatProofs.meq_refl _ _ _) ltac:(cbn; lra)) as (V0 & V1 & V2). cbv zeta in *. change (fdep fr 0 0 0 2) with 3%R in *.
    unfold act, mvec, rot_of, tr_of, drift, mI, delta. cbn. rewrite V0. unfold Rdiv. set (x := (/ (2 + / 1000000))%R) in *. cbn [INR]. lra. }
  unfold distance in D. set (u := frame_point fr (mkRow 0 n 0 2)) in *. set (v := attr_at (maps 1) Points 0 n) in *.
  assert (Z : (1 <= norm 3 (fun k => u k - v k))%R); [|lra]. unfold norm, dot. cbn [rsum]. rewrite <- sqrt_1. apply sqrt_le_1_alt.
  pose proof (Rle_0_sqr (u 1%nat - v 1%nat)) as Q1. pose proof (Rle_0_sqr (u 2%nat - v 2%nat)) as Q2. unfold Rsqr in Q1, Q2. nra.
Qed.
(* for no function of the parameter that gives the results of the runs is the number of points locally constant between x = 1 and x = 3, although all depths are positive there *)
Lemma r_association : exists F : R -> frames, (forall x0, smooth_frames F x0) /\ (forall x b l h w, (1 <= x <= 3)%R -> inside (F x) b l h w -> (0 < fdep (F x) b l h w)%R) /\
  exists c g m ps (a : R -> batch RF), s_odom c = OGt /\ s_map c = Fusion 1 (1 / 2) (SigNum 1) /\ (forall x, RHist false (g x) false (F x)) /\
    (forall x, forward c true (g x) = (Ok (m x, ps x), g x)) /\ (forall x, Shows RF (m x) (a x)) /\
    exists x1, (1 <= x1 <= 3)%R /\ ~ near x1 (fun x => npoints (a x) 0 = npoints (a x1) 0).
Proof.
  destruct (swing_witness 2 ltac:(lia) ltac:(lia)) as (m & ps & a & HI & HF & HS).
  exists (swing 2). split; [intros; apply swing_smooth|]. split; [intros x b l h w Hx _; cbn; lra|].
  exists grad_slam, (fun x => made (swing 2 x)), m, ps, a. do 2 (split; [reflexivity|]). do 3 (split; [assumption|]).
  apply Classical_Prop.NNPP. intros N. pose proof (swing_count1 _ _ _ (HF 1%R) (HS 1%R)) as C1. pose proof (swing_count3 _ _ _ (HF 3%R) (HS 3%R)) as C3.
  assert (E : npoints (a 1%R) 0 = npoints (a 3%R) 0); [|lia]. apply (locally_constant (fun x => npoints (a x) 0)); [lra|]. intros x Hx. apply Classical_Prop.NNPP. intros N'. apply N. exists x. auto.
Qed.
