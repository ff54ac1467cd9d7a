(* C80: SLAM on channels-first images. *)
From Coq Require Import Reals List Arith Bool ZArith Lia Lra.
From Verif Require Import Res Fld StructUtilsModel PointcloudsModel PointcloudsSpec PointcloudsIndexSpec PointcloudsCtorSpec
  PointcloudsHist PointcloudsPropProofs MatSpec GeomSpec TensorModel TensorProofs ProjModel GeomModel GeomProofs RgbdModel RgbdSpec RgbdProofs RgbdOps RgbdCloud RgbdPropProofs
  FusionModel FusionSpec FusionMap FusionActive FusionFuse FusionCorr FusionPropProofs FusionPropProofs2
  SolveModel Se3Model IcpModel IcpSpec OdomSpec DownProofs ProvideProofs SlamModel SlamSpec SlamProofs SlamPropProofs ChanSpec.
Import ListNotations.
Local Open Scope nat_scope.

(* ---------------- one step *)
Lemma p_chan_step c s a g q cf fr v pf n inplace : (cf = true -> s_map c = Aggregate /\ (s_odom c = OGt \/ pf = None)) ->
  ReadyToClone RF s a -> RHist q g cf fr -> live fr -> MapFor c (fB fr) a -> Ratio c ->
  opt_rel (fun v pf => (exists q cf, RHist q v cf pf) /\ fL pf = 1 /\ fB pf = fB fr /\ fpose pf <> None) v pf ->
  (s_odom c <> OGt -> pf <> None -> qp a <> None) -> (s_odom c = OGt \/ pf = None -> fpose fr <> None) ->
  Sizes c (fB fr) (fH fr) (fW fr) n -> (forall b, b < fB fr -> npoints a b <= n) ->
  match step c true true true inplace (s, g, v) with
  | (Ok (o, t), (s', g', v')) => (o = PSelf <-> inplace = true) /\ v' = v /\ exists T a', 
      ReadyToClone RF (returned o s') a' /\ Shows RF (returned o s') a' /\ Poses fr t (fun b _ => T b) /\
      Localised c a pf fr T /\ Mapped c a (posed T fr) a' /\ MapFor c (fB fr) a' /\ qp a' <> None /\
      (forall b, b < fB fr -> npoints a' b <= npoints a b + fH fr * fW fr) /\ RShows g' cf (posed T fr) /\
      (s_map c = Aggregate -> inplace = false -> Shows RF s' a)
  | (Err e, (s', g', v')) => RegistrationFails c a pf fr e /\ v' = v /\ Shows RF s' a /\ exists P, RShows g' cf (posed P fr)
  end.
Proof.
  intros Hcf HR HI HL HM Hds Hprev Hne Hpose HS Hn. apply ready_iff in HR.
  assert (K1 : opt_rel (prev_ok fr) v pf).
  { destruct v as [v|]; destruct pf as [pf|]; cbn [opt_rel] in *; try contradiction; [|exact I].
    destruct Hprev as ((q0 & cf0 & H0) & H). split; [exists q0, cf0; apply hist_inv, H0|exact H]. }
  assert (EQ : v <> None <-> pf <> None) by (destruct v; destruct pf; cbn [opt_rel] in Hprev; try contradiction; split; congruence).
  assert (Hcf' : cf = true -> s_map c = Aggregate /\ (is_gt (s_odom c) = true \/ v = None)).
  { intros Ec. destruct (Hcf Ec) as [C1 C2]. split; [exact C1|]. destruct C2 as [C2|C2]; [left; now rewrite C2|right]. subst pf. destruct v; [destruct Hprev|reflexivity]. }
  pose proof (step_cf c s a g q cf fr v pf n inplace Hcf' HR (hist_inv _ _ _ _ HI) HL HM Hds K1) as K.
  specialize (K ltac:(intros G V; apply Hne; [destruct (s_odom c); [discriminate|discriminate]|tauto])).
  specialize (K ltac:(intros G; apply Hpose; destruct G as [G|G]; [left; destruct (s_odom c); [reflexivity|discriminate]|right; destruct pf; [destruct v; [discriminate|destruct Hprev]|reflexivity]]) HS Hn).
  destruct (step c true true true inplace (s, g, v)) as [[[o t]|e] [[s' g'] v']].
  - destruct K as (H1 & H2 & T & a' & H3 & H4 & H5 & H6 & H7 & H8 & H9 & H10 & H11). split; [exact H1|]. split; [exact H2|]. exists T, a'.
    split; [now apply ready_iff|]. split; [apply p_hist_shows, H3|]. repeat (split; [assumption|]). split; [exact (inv_shows _ _ _ _ H10)|].
    intros E1 E2. apply p_hist_shows. auto.
  - destruct K as (H1 & H2 & H3 & P & H4). split; [exact H1|]. split; [exact H2|]. split; [apply p_hist_shows, H3|]. exists P. exact (inv_shows _ _ _ _ H4).
Qed.

(* registration of a channels-first frame: the frame has been given the previous poses when indexing fails; the map is not touched *)
Lemma step_reg_cf c o s g q fr v pf q0 cf0 Tp ds inplace : s_odom c = OIcp o -> Inv q g true fr -> live fr -> Inv q0 v cf0 pf -> fL pf = 1 -> fB pf = fB fr ->
  fpose pf = Some Tp -> s_ds c = IntV ds -> (0 < ds)%Z ->
  exists g', step c true true true inplace (s, g, Some v) = (Err IndexError, (s, g', Some v)) /\ Inv true g' true (posed (fun b => Tp b 0) fr).
Proof.
  intros Eo HI (HL1 & HB0 & HH & HW) HI0 HpL HpB ETp Eds Hd.
  pose proof HI0 as (_ & _ & _ & _ & _ & Apo & _). rewrite ETp in Apo. destruct (r_poses v) as [tp|] eqn:Etp; [|destruct Apo]. cbn [opt_rel] in Apo.
  pose proof (poses_of_prev fr pf tp Tp HL1 HpL HpB Apo) as Hpo.
  destruct (set_poses_inv _ _ _ _ _ _ HI Hpo) as (g1 & E1 & HI1). fold (posed (fun b => Tp b 0) fr) in HI1.
  destruct (down_frames_cf q g1 (posed (fun b => Tp b 0) fr) ds HI1 HL1 HB0 HW Hd) as (g2 & E2 & HI2).
  exists g2. split; [|exact HI2]. unfold step. cbn [guard]. rewrite !(mb_lift _ _ _ tt eq_refl).
  assert (EL : localize c (s, g, Some v) = (Err IndexError, (s, g2, Some v))).
  { unfold localize, get_prev. unfold mbind at 1 2. cbn [get ret snd]. rewrite Eo. cbn [is_gt]. rewrite Etp. unfold mbind at 1. cbn [ret].
    rewrite (mb_ok _ _ _ _ _ (live_ok' _ s g _ _ _ E1)). rewrite Eds. rewrite (mb_err _ _ _ _ _ (live_ok' _ s g1 _ _ _ E2)). reflexivity. }
  rewrite (mb_err _ _ _ _ _ EL). reflexivity.
Qed.
Lemma p_chan_step_registration c o s g q fr v pf q0 cf0 ds inplace : s_odom c = OIcp o -> s_ds c = IntV ds -> (0 < ds)%Z ->
  RHist q g true fr -> live fr -> RHist q0 v cf0 pf -> fL pf = 1 -> fB pf = fB fr -> fpose pf <> None ->
  exists g' P, step c true true true inplace (s, g, Some v) = (Err IndexError, (s, g', Some v)) /\ RShows g' true (posed P fr).
Proof.
  intros Eo Eds Hd HI HL HV H1 H2 H3. destruct (fpose pf) as [Tp|] eqn:ET; [|congruence].
  destruct (step_reg_cf c o s g q fr v pf q0 cf0 Tp ds inplace Eo (hist_inv _ _ _ _ HI) HL (hist_inv _ _ _ _ HV) H1 H2 ET Eds Hd) as (g' & E & K).
  exists g', (fun b => Tp b 0). split; [exact E|exact (inv_shows _ _ _ _ K)].
Qed.

(* fusion of a channels-first frame into an empty map *)
Lemma fuse_cf s g q fr d t sigma inplace : Ready (no_batch RF) s -> Inv q g true fr -> live fr -> fW fr <> 3 -> sigma <> SigBad ->
  exists s' g', update_map_fusion f32 d t sigma inplace (s, g) = (Err ValueError, (s', g')) /\ Ready (no_batch RF) s' /\ Inv true g' true fr.
Proof.
  intros HR HI (HL & HB & HH & HW) H3 Hs. unfold update_map_fusion.
  destruct (corr_empty f32 s (no_batch RF) g fr q d t HR HI HL eq_refl) as (s1 & E & HR1). rewrite (mb_ok _ _ _ _ _ E).
  unfold fuse_with_map. cbn [table_rows]. rewrite (mb_lift _ _ _ [] eq_refl).
  destruct (rd_has (no_batch RF) s1 HR1 Points) as (s2 & E1 & HR2). rewrite (mb_ok _ _ _ _ _ (onp_ok _ s1 g _ _ E1)).
  cbn [qget no_batch qp is_some]. rewrite (mb_ok _ _ _ tt (s2, g) eq_refl).
  destruct (gvertex_read _ _ _ _ HI) as (vm & g1 & Ev & Hvm & HI1). rewrite (mb_ok _ _ _ _ _ (onr_ok _ s2 g _ _ Ev)).
  destruct (proj1 (gnormal_read _ _ _ _ HI1) HH HW) as (nm & g2 & En & Hnm & HI2). rewrite (mb_ok _ _ _ _ _ (onr_ok _ s2 g1 _ _ En)).
  destruct (inv_inputs _ _ _ _ HI2) as (rgb & dep & intr & Er & _ & _ & Hrgb & _ & _).
  rewrite (mb_ok _ _ _ rgb (s2, g2)) by (apply onr_ok; rewrite mb_get, Er; reflexivity).
  destruct (vertex_read _ _ _ _ HI2) as (v & g3 & Evm & Hv & HI3 & _). rewrite (mb_ok _ _ _ _ _ (onr_ok _ s2 g2 _ _ Evm)).
  assert (Ea : get_alpha v sigma 4 true eps7 = Err ValueError).
  { destruct Hv as [Hsh _]. unfold shape in Hsh. apply (f_equal (@rev nat)) in Hsh. rewrite rev_involutive in Hsh. cbn in Hsh.
    unfold get_alpha. destruct sigma; [congruence| |]; cbn [guard rbind]; unfold ndim; rewrite Hsh; cbn; destruct (Nat.eqb_spec (fW fr) 3); try congruence; reflexivity. }
  exists s2, g3. split; [|split; assumption]. unfold mbind at 1. cbn [lift]. rewrite Ea. reflexivity.
Qed.
Lemma localize_direct c s a g q cf fr : Ready a s -> Inv q g cf fr -> live fr -> fpose fr <> None ->
  exists s1 t T, localize c (s, g, None) = (Ok t, (s1, g, None)) /\ Ready a s1 /\ fpose fr = Some T /\ Poses fr t T.
Proof.
  intros HR HI _ HT. pose proof HI as (_ & _ & _ & _ & _ & Apo & _). destruct (fpose fr) as [T|] eqn:ET; [|congruence]. destruct (r_poses g) as [t|] eqn:Et; [|destruct Apo].
  cbn [opt_rel] in Apo. destruct (rd_has a s HR Points) as (s1 & Eh & HR1). exists s1, t, T. split; [|auto].
  unfold localize, get_prev. unfold mbind at 1 2. cbn [get ret snd].
  rewrite (mb_ok _ _ _ tt (s1, g, None)) by (rewrite (mb_ok _ _ _ _ _ (map_ok' _ s g None _ _ Eh)); reflexivity).
  destruct (s_odom c); rewrite (mb_ok _ _ _ _ _ (live_ok' get s1 g _ _ _ eq_refl)); rewrite Et; reflexivity.
Qed.
Lemma same_pose fr T : fpose fr = Some T -> with_fpose (Some T) fr = fr.
Proof. destruct fr. cbn. intros ->. reflexivity. Qed.
Lemma step_fusion_cf c d t sigma s g q fr inplace : s_map c = Fusion d t sigma -> Ready (no_batch RF) s -> Inv q g true fr -> live fr -> fpose fr <> None -> fW fr <> 3 -> sigma <> SigBad ->
  exists s' g', step c true true true inplace (s, g, None) = (Err ValueError, (s', g', None)) /\ Ready (no_batch RF) s' /\ Inv true g' true fr.
Proof.
  intros Ec HR HI HL HT H3 Hs. destruct (localize_direct c s _ g q true fr HR HI HL HT) as (s1 & x & T & E & HR1 & ET & Hx).
  destruct (set_poses_inv _ _ _ _ _ _ HI Hx) as (g1 & E1 & HI1).
  rewrite (same_pose fr T ET) in HI1.
  destruct (fuse_cf s1 g1 q fr d t sigma inplace HR1 HI1 HL H3 Hs) as (s2 & g2 & E2 & HR2 & HI2).
  exists s2, g2. split; [|auto]. unfold step. cbn [guard]. rewrite !(mb_lift _ _ _ tt eq_refl). rewrite (mb_ok _ _ _ _ _ E).
  rewrite (mb_ok _ _ _ _ _ (live_ok' _ s1 g _ _ _ E1)). unfold map_step. rewrite Ec. rewrite (mb_err _ _ _ _ _ (ml_ok _ _ _ None _ _ _ E2)). reflexivity.
Qed.
Lemma p_chan_step_fusion c d t sigma s g q fr inplace : s_map c = Fusion d t sigma -> sigma <> SigBad -> ReadyToClone RF s (no_batch RF) -> RHist q g true fr -> live fr ->
  fpose fr <> None -> fW fr <> 3 ->
  exists s' g', step c true true true inplace (s, g, None) = (Err ValueError, (s', g', None)) /\ Shows RF s' (no_batch RF) /\ RShows g' true fr.
Proof.
  intros Ec Hs HR HI HL HT H3. apply ready_iff in HR. destruct (step_fusion_cf c d t sigma s g q fr inplace Ec HR (hist_inv _ _ _ _ HI) HL HT H3 Hs) as (s' & g' & E & K1 & K2).
  exists s', g'. split; [exact E|]. split; [apply p_hist_shows, K1|exact (inv_shows _ _ _ _ K2)].
Qed.

(* ---------------- sequences *)
Lemma input0_pose fr : fpose (input_frame fr 0) <> None.
Proof. unfold input_frame. destruct (fpose fr) as [T|] eqn:E; [cbn [fpose moment pick]; rewrite E|cbn]; discriminate. Qed.
Lemma input0_dims fr : fB (input_frame fr 0) = fB fr /\ fH (input_frame fr 0) = fH fr /\ fW (input_frame fr 0) = fW fr.
Proof. unfold input_frame. destruct (fpose fr); cbn [fB fH fW moment pick Nat.eqb posed with_fpose]; rewrite seq_length; auto. Qed.
Lemma input0_live fr : wide fr -> live (input_frame fr 0).
Proof. intros H. destruct (input0_dims fr) as (E1 & E2 & E3). unfold live. rewrite E1, E2, E3. split; [unfold input_frame; destruct (fpose fr); reflexivity|exact H]. Qed.

Lemma p_chan_forward_fusion c d t sigma g q fr : s_map c = Fusion d t sigma -> sigma <> SigBad -> RHist q g true fr -> 0 < fB fr -> 2 <= fH fr -> 2 <= fW fr -> fW fr <> 3 -> 0 < fL fr ->
  forward c true g = (Err ValueError, g).
Proof.
  intros Ec Hs HI HB HH HW H3 HL. destruct p_forward_fold as (p & _ & Hp & E). rewrite E. apply hist_inv in HI. pose proof HI as ((_ & EB & EL & _) & _). rewrite EL.
  apply ready_iff in Hp. destruct (fL fr) as [|n] eqn:EF; [lia|]. cbn [client].
  destruct (frame_at_ok q g true fr 0 HI HB ltac:(lia)) as (g0 & E0 & HI0). rewrite E0. cbn [rbind].
  destruct (start_frame_ok q g true fr 0 g0 HI HI0) as (g1 & E1 & HI1). fold (start_frame g 0 g0). rewrite E1. cbn [rbind].
  destruct (input0_dims fr) as (D1 & D2 & D3).
  destruct (step_fusion_cf c d t sigma p g1 false (input_frame fr 0) true Ec Hp HI1 (input0_live fr (conj HB (conj HH HW))) (input0_pose fr) ltac:(rewrite D3; exact H3) Hs) as (s' & g' & E2 & _).
  rewrite E2. reflexivity.
Qed.

Lemma p_chan_forward_registration c o g q fr ds : s_odom c = OIcp o -> s_map c = Aggregate -> s_ds c = IntV ds -> (0 < ds)%Z -> RHist q g true fr ->
  0 < fB fr -> 2 <= fH fr -> 2 <= fW fr -> 2 <= fL fr -> forward c true g = (Err IndexError, g).
Proof.
  intros Eo Em Eds Hd HI HB HH HW HL. destruct p_forward_fold as (p & _ & Hp & E). rewrite E. apply hist_inv in HI. pose proof HI as ((_ & EB & EL & _) & _). rewrite EL.
  apply ready_iff in Hp. destruct (fL fr) as [|[|n]] eqn:EF; [lia|lia|]. cbn [client].
  destruct (frame_at_ok q g true fr 0 HI HB ltac:(lia)) as (g0 & E0 & HI0). rewrite E0. cbn [rbind].
  destruct (start_frame_ok q g true fr 0 g0 HI HI0) as (g1 & E1 & HI1). fold (start_frame g 0 g0). rewrite E1. cbn [rbind]. rewrite Eo. cbn [is_gt].
  destruct (input0_dims fr) as (D1 & D2 & D3). pose proof (input0_live fr (conj HB (conj HH HW))) as HLv.
  pose proof (step_cf c p (no_batch RF) g1 false true (input_frame fr 0) None None 0 true) as K.
  specialize (K ltac:(auto) Hp HI1 HLv ltac:(intros K'; now cbn in K')).
  specialize (K ltac:(unfold Ratio; rewrite Eo; eauto) I ltac:(congruence) ltac:(intros _; apply input0_pose) ltac:(unfold Sizes; rewrite Em; exact I) ltac:(intros b Hb; cbn; lia)).
  destruct (step c true true true true (p, g1, None)) as [[[oo t]|e] [[p1 g2] v1]].
  - destruct K as (_ & _ & T & a' & HR' & HP & _ & _ & _ & _ & _ & HI2 & _).
    destruct (set_poses_inv _ _ _ _ t (fun b _ => T b) HI2 HP) as (g3 & E3 & HI3). rewrite E3. cbn [rbind].
    change (with_fpose (Some (fun b _ => T b)) (posed T (input_frame fr 0))) with (posed T (input_frame fr 0)) in HI3.
    destruct (frame_at_ok q g true fr 1 HI HB ltac:(lia)) as (h0 & F0 & HI4). rewrite F0. cbn [rbind].
    destruct (start_frame_ok q g true fr 1 h0 HI HI4) as (h1 & F1 & HI5). fold (start_frame g 1 h0). rewrite F1. cbn [rbind].
    assert (EQ1 : input_frame fr 1 = moment 1 fr) by (unfold input_frame; destruct (fpose fr); reflexivity). rewrite EQ1 in HI5.
    destruct (step_reg_cf c o (returned oo p1) h1 false (moment 1 fr) g3 (posed T (input_frame fr 0)) true true (fun b _ => T b) ds true Eo HI5 (moment_live 1 fr (conj HB (conj HH HW))) HI3) as (g' & E4 & _);
      [apply HLv|cbn [fB posed with_fpose]; rewrite D1, moment_B; reflexivity|reflexivity|exact Eds|exact Hd|].
    rewrite E4. reflexivity.
  - destruct K as ((o1 & pf & Tp & ds1 & rows & b & _ & K & _) & _). discriminate.
Qed.

(* ground truth and aggregation, either layout *)
Lemma p_chan_forward_gt c g q cf fr T0 : RHist q g cf fr -> 0 < fB fr -> 2 <= fH fr -> 2 <= fW fr -> s_odom c = OGt -> s_map c = Aggregate -> fpose fr = Some T0 ->
  exists m t a, forward c true g = (Ok (m, t), g) /\ Poses fr t T0 /\ ReadyToClone RF m a /\ Shows RF m a /\
    forall x b, x <> Features -> b < fB fr -> rows_of a x b = concat (map (fun l => frame_rows (moment l fr) x b) (seq 0 (fL fr))).
Proof.
  intros HI HB HH HW Ho Hm HT.
  pose proof (p_forward_cf c g q cf fr ltac:(intros _; split; [exact Hm|left; now rewrite Ho]) HI HB HH HW ltac:(unfold Ratio; rewrite Ho; exact I) ltac:(unfold Sizes; rewrite Hm; exact I) ltac:(congruence)) as K.
  destruct (forward c true g) as [[[m t]|e] g'].
  2: { destruct K as (_ & l & maps & T & _ & _ & o & pf & Tp & ds & rows & b & K & _). congruence. }
  destruct K as (-> & maps & T & K1 & K2 & K3 & K4). exact (gt_map_of c fr T0 m t maps T g Ho Hm HT K1 K2 K3 K4).
Qed.
(* the same images in two layouts *)
Lemma p_chan_same c g q cf g' q' cf' fr T0 : RHist q g cf fr -> RHist q' g' cf' fr -> 0 < fB fr -> 2 <= fH fr -> 2 <= fW fr -> s_odom c = OGt -> s_map c = Aggregate ->
  fpose fr = Some T0 ->
  exists m t a m' t' a', forward c true g = (Ok (m, t), g) /\ forward c true g' = (Ok (m', t'), g') /\ Shows RF m a /\ Shows RF m' a' /\
    (forall b l, b < fB fr -> l < fL fr -> meq 4 4 (ent t [l; b]) (ent t' [l; b])) /\
    (forall x b, x <> Features -> b < fB fr -> rows_of a x b = rows_of a' x b).
Proof.
  intros H H' HB HH HW Ho Hm HT.
  destruct (p_chan_forward_gt c g q cf fr T0 H HB HH HW Ho Hm HT) as (m & t & a & E1 & [_ E2] & _ & E3 & E4).
  destruct (p_chan_forward_gt c g' q' cf' fr T0 H' HB HH HW Ho Hm HT) as (m' & t' & a' & F1 & [_ F2] & _ & F3 & F4).
  exists m, t, a, m', t', a'. repeat (split; [assumption|]). split.
  - intros b l Hb Hl i j Hi Hj. rewrite (E2 b l Hb Hl i j Hi Hj), (F2 b l Hb Hl i j Hi Hj). reflexivity.
  - intros x b Hx Hb. rewrite E4, F4 by assumption. reflexivity.
Qed.
Lemma vertex0 P fr b h w : b < fB fr -> vertex (posed P (moment 0 fr)) b 0 h w = vertex fr b 0 h w.
Proof.
  intros Hb. unfold vertex, pixel. cbn [fdep fK fpix posed with_fpose moment pick nth]. destruct (fpix fr); cbn [option_map nth]; rewrite !seq_nth by exact Hb; reflexivity.
Qed.
(* sequences of one frame, any odometry: the poses are those given, or the identity *)
Lemma p_chan_one_frame c g q cf fr : RHist q g cf fr -> 0 < fB fr -> 2 <= fH fr -> 2 <= fW fr -> fL fr = 1 -> s_map c = Aggregate -> Ratio c ->
  exists m t a, forward c true g = (Ok (m, t), g) /\ Poses fr t (first_poses fr) /\ ReadyToClone RF m a /\ Shows RF m a /\
    forall x b, x <> Features -> b < fB fr -> rows_of a x b = frame_rows (with_fpose (Some (first_poses fr)) fr) x b.
Proof.
  intros HI HB HH HW HL Hm HRa.
  pose proof (p_forward_cf c g q cf fr ltac:(intros _; split; [exact Hm|right; lia]) HI HB HH HW HRa ltac:(unfold Sizes; rewrite Hm; exact I) ltac:(lia)) as K.
  destruct (forward c true g) as [[[m t]|e] g'].
  2: { destruct K as (_ & l & maps & T & Hl & _ & o & pf & Tp & ds & rows & b & Ko & Kp & _). replace l with 0 in Kp by lia. unfold previous in Kp. destruct (s_odom c); discriminate. }
  destruct K as (-> & maps & T & K1 & K2 & K3 & K4).
  assert (KT : forall b, b < fB fr -> T b 0 = first_poses fr b 0).
  { intros b Hb. destruct K1 as [_ K1]. destruct (K1 0 ltac:(lia)) as [K _]. unfold Localised in K.
    replace (previous c fr T 0) with (@None frames) in K by (unfold previous; destruct (s_odom c); reflexivity).
    assert (K' : exists T1, fpose (input_frame fr 0) = Some T1 /\ forall b, b < fB (input_frame fr 0) -> T b 0 = T1 b 0) by (destruct (s_odom c); exact K).
    destruct K' as (T1 & E1 & K'). rewrite (proj1 (input0_dims fr)) in K'. specialize (K' b Hb). rewrite K'. unfold input_frame in E1. unfold first_poses.
    destruct (fpose fr) as [T0|] eqn:ET.
    - cbn [fpose moment pick] in E1. rewrite ET in E1. cbn [option_map] in E1. injection E1 as <-. cbn [nth]. rewrite seq_nth by exact Hb. reflexivity.
    - cbn in E1. injection E1 as <-. reflexivity. }
  exists m, t, (maps (fL fr)). split; [reflexivity|]. split.
  { destruct K4 as [P1 P2]. split; [exact P1|]. intros b l Hb Hl. assert (l = 0) by lia. subst l. rewrite <- KT by exact Hb. apply P2; lia. }
  split; [exact K2|]. split; [exact K3|]. intros x b Hx Hb. rewrite (p_aggregated c fr (fL fr) maps T x b Hm K1 Hx Hb). rewrite HL. cbn [seq map concat]. rewrite app_nil_r.
  clear - KT Hb HL HB. unfold frame_rows.
  assert (Hpt : forall h w, frame_attr (posed (fun b => T b 0) (moment 0 fr)) x b h w = frame_attr (with_fpose (Some (first_poses fr)) fr) x b h w).
  { intros h w. assert (HV : forall h w, vertex (posed (fun b => T b 0) (moment 0 fr)) b 0 h w = vertex fr b 0 h w) by (intros; now apply vertex0).
    assert (HD : fdep (posed (fun b => T b 0) (moment 0 fr)) b 0 h w = fdep fr b 0 h w) by (cbn [fdep posed with_fpose moment pick nth]; rewrite seq_nth by exact Hb; reflexivity).
    destruct x; cbn [frame_attr].
    - unfold global_vertex. cbn [fpose with_fpose posed]. rewrite HV. change (fdep (with_fpose (Some (fun b _ => T b 0)) (moment 0 fr)) b 0 h w) with (fdep (posed (fun b => T b 0) (moment 0 fr)) b 0 h w).
      rewrite HD, (KT b Hb). reflexivity.
    - unfold global_normal. cbn [fpose with_fpose posed]. rewrite (KT b Hb). unfold normal, tangent_h, tangent_v. 
      change (with_fpose (Some (fun b _ => T b 0)) (moment 0 fr)) with (posed (fun b => T b 0) (moment 0 fr)). rewrite HD, !HV. reflexivity.
    - cbn [frgb posed with_fpose moment pick nth]. rewrite seq_nth by exact Hb. reflexivity.
    - reflexivity. }
  assert (Hch : chosen true (posed (fun b => T b 0) (moment 0 fr)) b = chosen true (with_fpose (Some (first_poses fr)) fr) b).
  { unfold chosen. cbn [fdep fH fW posed with_fpose moment pick]. cbn [nth]. rewrite seq_nth by exact Hb. reflexivity. }
  rewrite Hch. apply map_ext. intros z. rewrite Hpt. reflexivity.
Qed.
