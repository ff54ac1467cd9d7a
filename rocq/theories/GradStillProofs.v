(* C82: a motionless camera meets the conditions of the theorem on runs. *)
From Coq Require Import Reals List Arith Bool ZArith Lia Lra Sorting.Sorted.
From Verif Require Import Res Fld StructUtilsModel PointcloudsModel PointcloudsSpec PointcloudsHist MatSpec GeomSpec TensorModel
  RgbdModel RgbdSpec RgbdOps RgbdPropProofs FusionModel FusionSpec FusionMap FusionPropProofs FusionPropProofs2 Se3Model SolveModel IcpModel IcpSpec OdomSpec SlamModel SlamSpec SlamProofs SlamPropProofs
  StillSpec StillProofs StillMapProofs StillFuseProofs StillPropProofs BatchSpec BatchProofs BatchSlamProofs BatchPropProofs GradSpec GradProofs GradMapProofs TableProofs GradFuseProofs UniqueProofs GradRunProofs.
Import ListNotations.
Import FusionSpec.
Local Open Scope nat_scope.

Lemma off_grid u k : (Rabs (u - INR k) < / 1000)%R -> forall k', (Rabs (u - INR k') <> 1 / 2)%R.
Proof.
  intros H k' E. assert (A : (Rabs (INR k' - INR k) < 1)%R).
  { replace (INR k' - INR k)%R with ((u - INR k) + - (u - INR k'))%R by ring. eapply Rle_lt_trans; [apply Rabs_triang|]. rewrite Rabs_Ropp. lra. }
  assert (EK : k' = k). { apply Rabs_def2 in A. destruct (Nat.lt_trichotomy k k') as [Z|[->|Z]]; [|reflexivity|]; apply le_INR in Z; rewrite S_INR in Z; lra. }
  subst. lra.
Qed.
Lemma still_generic c fr T0 d t sg : s_odom c = OGt -> s_map c = Fusion d t (SigNum sg) -> still_scene fr -> 0 < fL fr -> 2 <= fH fr -> 2 <= fW fr -> fpose fr = Some T0 -> unmoved fr (fL fr) T0 ->
  (0 < d)%R -> (0 <= t)%R -> (forall b q, b < fB fr -> In q (pixels fr b) -> (t < dot 3 (normal_at fr b q) (normal_at fr b q))%R) ->
  (forall b q, b < fB fr -> In q (pixels fr b) -> gaussian sg (vertex (first_frame fr) b 0 (fst q) (snd q)) <> (/ 10000000)%R) -> generic_run c fr d t sg.
Proof.
  intros Ho Hm Hs HL HH HW HT HU Hd Ht Hn Hg maps T TR l Hl. pose proof (gt_poses_of c fr T0 maps T Ho HT TR) as ET.
  assert (U : forall b k, b < fB fr -> k < fL fr -> meq 4 4 (T b k) (first_pose fr b)) by (intros b k Hb Hk; rewrite ET by assumption; now apply HU).
  set (shot := posed (fun b => T b l) (moment l fr)).
  assert (AV : forall b n, real_point (maps l) b n -> b < fB fr /\ exists q, nth_error (pixels fr b) n = Some q /\ In q (pixels fr b) /\ veq 3 (attr_at (maps l) Points b n) (point_at fr b q) /\ veq 3 (attr_at (maps l) Normals b n) (normal_at fr b q)).
  { intros b n RP. destruct l as [|l'].
    - destruct TR as [E _]. rewrite E in RP. destruct RP as [_ Z]. cbn in Z. lia.
    - assert (TR' : Trajectory c fr (S l') maps T) by (destruct TR as [H0 H]; split; [exact H0|intros k Hk; apply H; lia]).
      destruct (averaged_trajectory c fr (S l') maps T d t (SigNum sg) Hs HH HW Hm Hd Hn TR' ltac:(intros b' k Hb Hk; apply U; [exact Hb|lia]) ltac:(lia)) as [A1 A2].
      destruct RP as [R1 R2]. rewrite A1 in R1. split; [exact R1|]. destruct (A2 b R1) as [A3 A4]. rewrite A3 in R2. destruct (nth_error (pixels fr b) n) as [q|] eqn:E; [|apply nth_error_None in E; lia].
      exists q. split; [reflexivity|]. split; [exact (nth_error_In _ _ E)|]. destruct (A4 n q E) as (K1 & K2 & _). auto. }
  assert (SE : forall b n h w, real_point (maps l) b n -> seen_at (maps l) shot (fun b _ => T b l) b n h w -> b < fB fr /\ nth_error (pixels fr b) n = Some (h, w) /\ h < fH fr /\ w < fW fr /\ (0 < fdep fr b 0 h w)%R /\
     veq 3 (attr_at (maps l) Points b n) (point_at fr b (h, w)) /\ veq 3 (attr_at (maps l) Normals b n) (normal_at fr b (h, w))).
  { intros b n h w RP S. destruct (AV b n RP) as (Hb & q & E & Hq & P & N).
    pose proof (pix_only fr Hs HL HH HW (fun b => T b l) l b q _ h w Hb Hl (U b l Hb Hl) Hq P S) as ->. destruct (pixels_in fr Hs HL HH HW b (h, w) Hb Hq) as (H1 & H2 & H3). cbn [fst snd] in *. auto 10. }
  assert (PX : forall b h w, b < fB fr -> h < fH fr -> w < fW fr -> (0 < fdep fr b 0 h w)%R -> In (h, w) (pixels fr b)).
  { intros b h w Hb Hh Hw Hp. apply StillMapProofs.chosen_in. cbn [fst snd]. rewrite (f_dep fr Hs HL HH HW) by assumption. auto. }
  split; [|split; [|split]].
  - intros b n RP. cbv zeta. destruct (AV b n RP) as (Hb & q & E & Hq & P & N). destruct (pixels_in fr Hs HL HH HW b q Hb Hq) as (H1 & H2 & H3).
    set (qv := to_camera (T b l) (attr_at (maps l) Points b n)).
    assert (V : veq 3 qv (to_camera (first_pose fr b) (act (first_pose fr b) (vertex (first_frame fr) b 0 (fst q) (snd q))))).
    { apply to_camera_ext; [now apply U|]. eapply IcpGnProofs.veq_trans; [exact P|]. now apply point_act. }
    destruct (own_close (first_frame fr) (first_pose fr b) b (fst q) (snd q) (m_pix fr Hs HL HH HW _ _) (cam_first fr Hs HL HH HW b Hb) (proj2 (proj2 (proj2 Hs) b Hb)) H1 H2
      (eq_ind_r (fun x => (0 < x)%R) H3 (f_dep fr Hs HL HH HW b _ _ Hb H1 H2))) as (C1 & C2 & C3).
    unfold shot. rewrite (m_K fr Hs HL HH HW) by exact Hb. change (fK (first_frame fr) b) with (fK (posed (first_pose fr) (moment 0 fr)) b) in C2, C3. rewrite (m_K fr Hs HL HH HW) in C2, C3 by exact Hb.
    rewrite <- (image_pos_ext (fK fr b) _ _ V) in C2, C3. rewrite <- (V 2) in C1 by lia.
    change (fH (posed (fun b0 => T b0 l) (moment l fr))) with (fH fr). change (fW (posed (fun b0 => T b0 l) (moment l fr))) with (fW fr).
    split; [lra|]. intros _. split; [|split].
    + destruct (proj1 (proj2 (proj2 Hs) b Hb)) as (fx & fy & cx & cy & EK & _). assert (EM : mvec 4 (fK fr b) (hom 3 qv) 2 = qv 2); [|rewrite EM; lra].
      unfold mvec, hom. cbn. rewrite !EK by lia. cbn. ring.
    + pose proof C2 as D2. pose proof C3 as D3. apply Rabs_def2 in D2, D3. pose proof (pos_INR (snd q)). pose proof (pos_INR (fst q)). pose proof (le_INR _ _ H2) as L1. pose proof (le_INR _ _ H1) as L2. rewrite S_INR in L1, L2.
      repeat split; intros Z; rewrite Z in *; lra.
    + intros k. split; [exact (off_grid _ _ C2 k)|exact (off_grid _ _ C3 k)].
  - intros b n h w RP S. destruct (SE b n h w RP S) as (Hb & _ & Hh & Hw & Hp & P & N). split.
    + assert (Z : distance (global_vertex shot b 0 h w) (attr_at (maps l) Points b n) = 0%R); [|rewrite Z; lra].
      unfold distance, norm, dot. cbn [rsum]. pose proof (m_points fr Hs HL HH HW (fun b => T b l) l b h w Hb Hl Hh Hw (U b l Hb Hl)) as E. cbn [frame_attr] in E. fold shot in E.
      rewrite !E, !P by lia. match goal with |- sqrt ?e = _ => replace e with 0%R by ring end. apply sqrt_0.
    + pose proof (m_normals fr Hs HL HH HW (fun b => T b l) l b h w Hb Hl Hh Hw (U b l Hb Hl)) as E. cbn [frame_attr] in E. fold shot in E.
      assert (Z : dot 3 (global_normal shot b 0 h w) (attr_at (maps l) Normals b n) = dot 3 (normal_at fr b (h, w)) (normal_at fr b (h, w))) by (unfold dot; cbn [rsum]; rewrite !E, !N by lia; reflexivity).
      rewrite Z. apply Rgt_not_eq. apply Hn; [exact Hb|now apply PX].
  - intros b n n' h w NE (R1 & S1 & _) (R2 & S2 & _). destruct (SE b n h w R1 S1) as (Hb & E1 & _). destruct (SE b n' h w R2 S2) as (_ & E2 & _). destruct NE.
    assert (ND : NoDup (pixels fr b)) by (unfold pixels, chosen; apply NoDup_filter; unfold row_major; apply FusionCorr.nodup_prod; apply seq_NoDup).
    apply (proj1 (NoDup_nth_error _) ND); [apply nth_error_Some; congruence|congruence].
  - intros b h w (H1 & H2 & H3 & H4) Hp. unfold shot in *. cbn [fB fL fH fW posed with_fpose moment pick] in H1, H2, H3, H4. rewrite seq_length in H1. rewrite (m_dep fr Hs HL HH HW) in Hp by assumption.
    pose proof (PX b h w H1 H3 H4 Hp) as Hq. split; [rewrite (m_vertex fr Hs HL HH HW) by assumption; exact (Hg b (h, w) H1 Hq)|].
    pose proof (Hn b (h, w) H1 Hq) as N. pose proof (m_normals fr Hs HL HH HW (fun b => T b l) l b h w H1 Hl H3 H4 (U b l H1 Hl)) as E. cbn [frame_attr] in E.
    set (nv := normal (posed (fun b0 => T b0 l) (moment l fr)) b 0 h w).
    destruct (Req_dec (nv 0) 0) as [Z0|Z0]; [|exists 0; auto]. destruct (Req_dec (nv 1) 0) as [Z1|Z1]; [|exists 1; auto]. destruct (Req_dec (nv 2) 0) as [Z2|Z2]; [|exists 2; auto]. exfalso.
    assert (Z : forall k, k < 3 -> normal_at fr b (h, w) k = 0%R). { intros k Hk. rewrite <- E by exact Hk. unfold global_normal. cbn [fpose posed with_fpose]. unfold mvec. cbn [rsum]. fold nv. rewrite Z0, Z1, Z2. ring. }
    unfold dot in N. cbn [rsum] in N. rewrite !Z in N by lia. lra.
Qed.
