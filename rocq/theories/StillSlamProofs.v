(* C76: registration against the map of a motionless scene is the identity, and the trajectory stays. *)
From Coq Require Import Reals List Arith Bool ZArith Lia Lra Sorting.Sorted.
From Verif Require Import Res Fld StructUtilsModel PointcloudsModel PointcloudsSpec PointcloudsHist MatSpec GeomSpec TensorModel
  RgbdModel RgbdSpec FusionModel FusionSpec Se3Model SolveModel IcpModel IcpSpec IcpFixSpec OdomSpec SlamModel SlamSpec StillSpec MatProofs IcpGnProofs IcpLoopProofs IcpRunProofs
  IcpArgProofs ProvideProofs SlamProofs SlamPropProofs IcpFixProofs IcpFixPropProofs FusionMap StillProofs StillMapProofs.
Import ListNotations.
Local Open Scope nat_scope.

Lemma run_on_target nn o (src tgt nor : t2 R) : IcpSpec.nearest nn -> good_method o -> t2c src = 3 -> t2c tgt = 3 -> t2c nor = 3 ->
  length (t2r nor) = length (t2r tgt) ->
  on_target (length (t2r src)) (length (t2r tgt)) (pts_of (cloud_ten tgt)) (pts_of (cloud_ten src)) ->
  exists T idx, run_icp nn o (TTen (cloud_ten src)) (TTen (cloud_ten tgt)) (TTen (cloud_ten nor)) (TTen eye4) = Ok (T, idx) /\ meq 4 4 (ent T []) mI.
Proof.
  intros Hnn Hg Q1 P1 N1 C1 Hot.
  assert (H0 : 0 < length (t2r tgt) \/ length (t2r src) = 0).
  { destruct (length (t2r src)) eqn:E; [right; reflexivity|]. left. destruct (Hot 0 ltac:(lia)) as (j & Hj & _). lia. }
  assert (Hin : forall th, th <> ThrBad -> icp_input nn (cloud_ten src) (cloud_ten tgt) (cloud_ten nor) (length (t2r src)) (length (t2r tgt)) th).
  { intros th Hth. split; [exact Hnn|]. split; [apply cloud_ten_cloud; auto|]. split; [apply cloud_ten_cloud; auto|]. split; [apply cloud_ten_cloud; auto|].
    split; [exact H0|exact Hth]. }
  assert (HI : meq 4 4 (ent eye4 []) mI) by (intros p q Hp Hq; reflexivity).
  assert (Ht0 : on_target (length (t2r src)) (length (t2r tgt)) (pts_of (cloud_ten tgt)) (moved (ent eye4 []) (pts_of (cloud_ten src)))).
  { intros i Hi. destruct (Hot i Hi) as (j & Hj & Ej). exists j. split; [exact Hj|].
    eapply veq_trans; [apply (moved_id (length (t2r src))); [exact HI|exact Hi]|exact Ej]. }
  destruct o as [[|n] d th|[|n] d th [|l] [|B] [|B2] [|nu]]; cbn in Hg; try contradiction.
  - destruct Hg as (G1 & G2 & G3). cbn [run_icp]. eexists _, _. split; [|exact HI].
    apply (p_fix_icp nn _ _ _ _ _ th eye4 n d (Hin th G3) eye_mat44 G2 G1). apply p_fix_on_target; assumption.
  - destruct Hg as (G1 & G2 & G3 & G4 & G5). cbn [run_icp].
    destruct (p_fix_grad nn _ _ _ _ _ th l B B2 nu eye4 n d (Hin th G3) G4 G5 eye_mat44 G2 G1) as (T & E & _ & M).
    + apply p_fix_on_target; assumption.
    + eexists _, _. split; [exact E|]. eapply meq_trans; [exact M|exact HI].
Qed.
Lemma compose_id X P : meq 4 4 X mI -> affine4 P -> meq 4 4 (compose_pose X P) P.
Proof.
  intros HX HP i j Hi Hj. unfold compose_pose. cbn [rsum]. destruct i as [|[|[|[|i]]]]; [| | | |lia]; cbn [Nat.ltb Nat.leb];
    try (rewrite !HX by lia; destruct j as [|[|[|[|j]]]]; [| | | |lia]; unfold mI, delta; cbn; ring).
  destruct j as [|[|[|[|j]]]]; [| | | |lia]; cbn [Nat.ltb Nat.leb]; symmetry; apply HP; lia.
Qed.

Section StillRun.
  Variable fr : frames.
  Hypothesis Hs : still_scene fr.
  Hypothesis HL : 0 < fL fr.
  Hypothesis HH : 2 <= fH fr.
  Hypothesis HW : 2 <= fW fr.
  Notation shot T l := (posed T (moment l fr)).
  Notation Covers := (Covers fr).

  Lemma grid_in d T l b q : b < fB fr -> l < fL fr -> In q (grid_pixels d (shot T l) b) <-> In q (pixels fr b) /\ divisible d (fst q) = true /\ divisible d (snd q) = true.
  Proof. intros Hb Hl. unfold grid_pixels. rewrite filter_In, (m_chosen fr Hs HL HH HW T l b Hb Hl), andb_true_iff. reflexivity. Qed.

  Lemma registration_still c o ds rows a T k l b : IcpSpec.nearest (s_nn c) -> good_method o -> Covers a -> qp a <> None -> qn a <> None ->
    k < fL fr -> l < fL fr -> (forall b, b < fB fr -> meq 4 4 (T b) (first_pose fr b)) -> active_spec a (shot T k) (fun b _ => T b) rows ->
    b < fB fr ->
    exists X idx, registration c o ds rows a (shot T l) b = Ok (X, idx) /\ meq 4 4 (ent X []) mI.
  Proof.
    intros Hnn Hg HC HP HN Hk Hl HT [_ HA] Hb.
    destruct (qp a) as [P|] eqn:EP; [clear HP|congruence]. destruct (qn a) as [N|] eqn:EN; [clear HN|congruence].
    unfold registration, one_run_of, thin_map, thin_attr. cbn [qget]. rewrite EP, EN.
    rewrite !(nth_map' _ (seq 0 (len_view RF a)) b (mkT2 0 [] : t2 R) 0) by (rewrite seq_length, (proj1 HC); exact Hb).
    rewrite seq_nth by (rewrite (proj1 HC); exact Hb). unfold grid_attr. change (fB (shot T l)) with (length (seq 0 (fB fr))). rewrite seq_length.
    rewrite (nth_map' _ (seq 0 (fB fr)) b (mkT2 0 [] : t2 R) 0) by (rewrite seq_length; exact Hb). rewrite seq_nth by exact Hb. cbn [Nat.add].
    assert (Hthin : forall q, In q (grid_pixels ds (shot T l) b) -> exists n, In n (thinned ds rows b) /\ veq 3 (attr_at a Points b n) (point_at fr b q)).
    { intros q Hq. apply grid_in in Hq; [|assumption..]. destruct Hq as (Hq & D1 & D2).
      destruct (covers_seen fr Hs HL HH HW a T k b q HC Hb Hk (HT b Hb) Hq) as (n & RP & S & E). exists n. split; [|exact E].
      unfold thinned. apply in_map_iff. exists (mkRow b n (fst q) (snd q)). split; [reflexivity|]. apply filter_In. split; [apply HA; auto|].
      cbn [rb rh rw]. rewrite Nat.eqb_refl, D1, D2. reflexivity. }
    apply run_on_target; try assumption; try reflexivity.
    - cbn [t2r]. rewrite !map_length. reflexivity.
    - cbn [t2r]. rewrite !map_length. intros i Hi.
      destruct (nth_error (grid_pixels ds (shot T l) b) i) as [[h w]|] eqn:Ei; [|apply nth_error_None in Ei; lia].
      pose proof (nth_error_In _ _ Ei) as Iq. destruct (Hthin (h, w) Iq) as (n & In_n & E). destruct (In_nth_error _ _ In_n) as (j & Ej).
      exists j. split; [apply nth_error_Some; congruence|]. apply grid_in in Iq; [|assumption..]. destruct Iq as (Iq & _).
      destruct (pixels_in fr Hs HL HH HW b (h, w) Hb Iq) as (B1 & B2 & _). cbn [fst snd] in B1, B2.
      intros x Hx.
      change (nth x (nth i (map (fun q => map (frame_attr (shot T l) Points b (fst q) (snd q)) [0; 1; 2]) (grid_pixels ds (shot T l) b)) []) 0%R = nth x (nth j (map (row_at P b) (thinned ds rows b)) []) 0%R).
      rewrite (nth_error_nth (map _ (thinned ds rows b)) j [] (x := row_at P b n)) by (rewrite nth_error_map, Ej; reflexivity).
      rewrite (nth_error_nth (map _ (grid_pixels ds (shot T l) b)) i [] (x := map (frame_attr (shot T l) Points b h w) [0; 1; 2])) by (rewrite nth_error_map, Ei; reflexivity).
      transitivity (attr_at a Points b n x); [|unfold attr_at; cbn [qget]; rewrite EP; reflexivity].
      rewrite (E x Hx). transitivity (frame_attr (shot T l) Points b h w x); [destruct x as [|[|[|x]]]; [| | |lia]; reflexivity|].
      apply m_points; auto.
  Qed.

  (* ---------------- the trajectory *)
  Variable c : slam.
  Variables (o : odom_method) (ds : Z).
  Hypothesis Ho : s_odom c = OIcp o.
  Hypothesis Hds : s_ds c = IntV ds.
  Hypothesis Hg : good_method o.
  Hypothesis Hnn : IcpSpec.nearest (s_nn c).
  Definition Whole (a : batch RF) : Prop := Covers a /\ qp a <> None /\ qn a <> None /\ match s_map c with Aggregate => True | Fusion _ _ _ => positive a end.

  Lemma first_localised a T : Localised c a None (input_frame fr 0) T -> forall b, b < fB fr -> T b = first_pose fr b.
  Proof.
    unfold Localised. rewrite Ho. intros (T0 & E & H) b Hb. rewrite (H b ltac:(rewrite input_B; exact Hb)). unfold first_pose. unfold input_frame in E.
    destruct (fpose fr) as [P|] eqn:EP.
    - cbn [fpose moment pick] in E. rewrite EP in E. cbn [option_map] in E. injection E as <-. cbn [nth]. rewrite seq_nth by exact Hb. reflexivity.
    - cbn in E. injection E as <-. reflexivity.
  Qed.
  Lemma unmoved_step maps T n : Trajectory c fr (S n) maps T -> S n <= fL fr -> unmoved fr n T -> (n <> 0 -> Whole (maps n)) -> unmoved fr (S n) T.
  Proof.
    intros [_ H] Hn U W. destruct (H n ltac:(lia)) as [HLoc _].
    assert (K : forall b, b < fB fr -> meq 4 4 (T b n) (first_pose fr b)).
    { destruct n as [|k].
      - intros b Hb. replace (previous c fr T 0) with (@None frames) in HLoc by (unfold previous; rewrite Ho; reflexivity).
        rewrite (first_localised _ (fun b => T b 0) HLoc b Hb). apply meq_refl.
      - intros b Hb. unfold Localised in HLoc. rewrite Ho in HLoc. unfold previous in HLoc. rewrite Ho in HLoc. destruct HLoc as (Tp & ds' & rows & E1 & E2 & E3 & E4).
        rewrite input_B in E4. cbn [fpose posed with_fpose] in E1. injection E1 as <-. rewrite Hds in E2. injection E2 as <-.
        destruct (E4 b Hb) as (X & idx & E5 & E6). destruct (W ltac:(lia)) as (W1 & W2 & W3 & _).
        assert (EI : posed (fun b => T b k) (input_frame fr (S k)) = shot (fun b => T b k) (S k)) by (unfold input_frame; destruct (fpose fr); reflexivity).
        rewrite EI in E5.
        destruct (registration_still c o ds rows (maps (S k)) (fun b => T b k) k (S k) b Hnn Hg W1 W2 W3 ltac:(lia) ltac:(lia) ltac:(intros; apply U; lia) E3 Hb) as (X' & idx' & F1 & F2).
        rewrite E5 in F1. injection F1 as <- _. eapply meq_trans; [exact E6|].
        assert (UT : meq 4 4 (T b k) (first_pose fr b)) by (apply U; lia).
        assert (AT : affine4 (T b k)). { destruct (proj1 (proj2 (proj2 (proj2 Hs) b Hb))) as (A1 & A2 & A3 & A4). unfold affine4. rewrite !UT by lia. auto. }
        eapply meq_trans; [apply compose_id; [exact F2|exact AT]|exact UT]. }
    intros b l Hb Hl. destruct (Nat.eq_dec l n) as [->|]; [apply K; exact Hb|apply U; lia].
  Qed.
  Lemma whole_step maps T n : Trajectory c fr (S n) maps T -> S n <= fL fr -> unmoved fr (S n) T -> (n <> 0 -> Whole (maps n)) -> Whole (maps (S n)).
  Proof.
    intros HT Hn U W. pose proof HT as [H0 H]. destruct (H n ltac:(lia)) as [_ HM]. unfold Mapped in HM. destruct HM as [_ HM]. unfold Whole.
    destruct (s_map c) as [|d t sg] eqn:Em.
    - destruct HM as [(P1 & _ & P3) _]. change (len_view RF (maps (S n)) = fB (moment n fr)) in P3. rewrite moment_B in P3. split; [|split; [exact (P1 Points ltac:(discriminate))|split; [exact (P1 Normals ltac:(discriminate))|exact I]]].
      apply (aggregate_covers fr Hs HL HH HW T (S n)); [lia|intros; apply U; assumption|exact P3|].
      intros x b Hx Hb. apply (p_aggregated c); assumption.
    - destruct HM as [(F1 & F2 & F3) (rows & HF & HR)]. enough (K : Covers (maps (S n)) /\ forall b m, real_point (maps (S n)) b m -> (0 < conf (maps (S n)) b m)%R).
      { destruct K as [K1 K2]. split; [exact K1|]. split; [exact (F1 Points)|]. split; [exact (F1 Normals)|exact K2]. }
      eapply (fuse_covers fr Hs HL HH HW (sigma_val sg) (fun b => T b n) n rows (maps n)); [lia|intros; apply U; [assumption|lia]|exact HF|].
      destruct n as [|n].
      + left. rewrite H0 in *. cbn in HR. split; [intros b Hb; reflexivity|exact HR].
      + right. destruct (W ltac:(lia)) as (W1 & W2 & W3 & W4). rewrite Em in W4. split; [exact W1|]. split; [exact W4|].
        intros b m h w M. destruct (qp (maps (S n))); [|congruence]. destruct HR as (T' & ET & _ & _ & HC & _). cbn in ET. injection ET as <-.
        destruct (HC b m h w M) as (R1 & R2 & _). auto.
  Qed.
  Lemma still_trajectory n maps T : Trajectory c fr n maps T -> n <= fL fr -> unmoved fr n T /\ (n <> 0 -> Whole (maps n)).
  Proof.
    induction n as [|n IH]; intros HT Hn; [split; [intros b l Hb Hl; lia|congruence]|].
    assert (HT' : Trajectory c fr n maps T) by (destruct HT as [H0 H]; split; [exact H0|intros; apply H; lia]).
    destruct (IH HT' ltac:(lia)) as [U W]. pose proof (unmoved_step maps T n HT Hn U W) as U'. split; [exact U'|]. intros _. exact (whole_step maps T n HT Hn U' W).
  Qed.
  Lemma still_no_failure l maps T e : l < fL fr -> Trajectory c fr l maps T -> ~ RegistrationFails c (maps l) (previous c fr T l) (input_frame fr l) e.
  Proof.
    intros Hl HT (o' & pf & Tp & ds' & rows & b & E1 & E2 & E3 & E4 & E5 & E6 & E7).
    destruct (still_trajectory l maps T HT ltac:(lia)) as [U W]. rewrite Ho in E1. injection E1 as <-. rewrite Hds in E4. injection E4 as <-.
    rewrite input_B in E6. unfold previous in E2. rewrite Ho in E2. destruct l as [|k]; [discriminate|]. injection E2 as <-. cbn [fpose posed with_fpose] in E3. injection E3 as <-.
    destruct (W ltac:(lia)) as (W1 & W2 & W3 & _).
    assert (EI : posed (fun b => T b k) (input_frame fr (S k)) = shot (fun b => T b k) (S k)) by (unfold input_frame; destruct (fpose fr); reflexivity).
    rewrite EI in E7.
    destruct (registration_still c o ds rows (maps (S k)) (fun b => T b k) k (S k) b Hnn Hg W1 W2 W3 ltac:(lia) ltac:(lia) ltac:(intros; apply U; [assumption|lia]) E5 E6) as (X' & idx' & F1 & F2).
    congruence.
  Qed.
End StillRun.
