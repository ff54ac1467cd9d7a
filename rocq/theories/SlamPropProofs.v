(* C45, C46: closed statements. *)
From Coq Require Import Reals List Arith Bool ZArith Lia Lra.
From Verif Require Import Res Fld StructUtilsModel PointcloudsModel PointcloudsSpec PointcloudsIndexSpec PointcloudsCtorSpec
  PointcloudsHist PointcloudsPropProofs MatSpec GeomSpec TensorModel TensorProofs ProjModel GeomModel GeomProofs RgbdModel RgbdSpec RgbdProofs RgbdOps RgbdCloud RgbdPropProofs
  RgbdWitness RgbdWitnessProofs FusionModel FusionSpec FusionMap FusionActive FusionFuse FusionCorr FusionPropProofs FusionPropProofs2 FusionWitness
  SolveModel Se3Model IcpModel IcpSpec OdomSpec DownProofs ProvideProofs IcpPropProofs IcpArgProofs OdomPropProofs SlamModel SlamSpec SlamProofs.
Import ListNotations.
Local Open Scope nat_scope.

(* ---------------- constructors *)
Lemma p_new_odom nn ds n damp th lmax B B2 nu : 
  icpslam_new nn NOther ds n damp th lmax B B2 nu = Err ValueError /\
  icpslam_new nn NGt ds n damp th lmax B B2 nu = Ok (mkSlam nn OGt ds Aggregate) /\
  icpslam_new nn NIcp ds n damp th lmax B B2 nu = Ok (mkSlam nn (OIcp (MIcp n damp th)) ds Aggregate) /\
  icpslam_new nn NGradIcp ds n damp th lmax B B2 nu = Ok (mkSlam nn (OIcp (MGradIcp n damp th lmax B B2 nu)) ds Aggregate).
Proof. repeat split. Qed.
Lemma p_new_fusion nn name dth ath sg ds n damp th lmax B B2 nu :
  (name = NOther -> pointfusion_new nn name dth ath sg ds n damp th lmax B B2 nu = Err ValueError) /\
  (name <> NOther -> dth = NumBad \/ ath = NumBad -> pointfusion_new nn name dth ath sg ds n damp th lmax B B2 nu = Err TypeError) /\
  (forall d a, name <> NOther -> dth = Num d -> ath = Num a -> exists o, 
     icpslam_new nn name ds n damp th lmax B B2 nu = Ok (mkSlam nn o ds Aggregate) /\
     pointfusion_new nn name dth ath sg ds n damp th lmax B B2 nu = Ok (mkSlam nn o ds (Fusion d (cos (a * PI / 180)) sg))).
Proof.
  split; [intros ->; reflexivity|]. split.
  - intros H K. destruct name; try congruence; unfold pointfusion_new; cbn [choose_odom rbind]; destruct K as [ -> | -> ]; cbn [need_num rbind]; try reflexivity; destruct dth; reflexivity.
  - intros d a H -> ->. destruct name; try congruence; eexists; split; reflexivity.
Qed.

(* ---------------- step *)
Lemma p_step c s a g q fr v pf n inplace : ReadyToClone RF s a -> RHist q g false fr -> live fr -> MapFor c (fB fr) a -> Ratio c ->
  opt_rel (fun v pf => (exists q, RHist q v false pf) /\ fL pf = 1 /\ fB pf = fB fr /\ fpose pf <> None) v pf ->
  (s_odom c <> OGt -> pf <> None -> qp a <> None) -> (s_odom c = OGt \/ pf = None -> fpose fr <> None) ->
  Sizes c (fB fr) (fH fr) (fW fr) n -> (forall b, b < fB fr -> npoints a b <= n) ->
  match step c true true true inplace (s, g, v) with
  | (Ok (o, t), (s', g', v')) => (o = PSelf <-> inplace = true) /\ v' = v /\ exists T a', 
      ReadyToClone RF (returned o s') a' /\ Shows RF (returned o s') a' /\ Poses fr t (fun b _ => T b) /\
      Localised c a pf fr T /\ Mapped c a (posed T fr) a' /\ MapFor c (fB fr) a' /\ qp a' <> None /\
      (forall b, b < fB fr -> npoints a' b <= npoints a b + fH fr * fW fr) /\ RShows g' false (posed T fr) /\
      (s_map c = Aggregate -> inplace = false -> Shows RF s' a)
  | (Err e, (s', g', v')) => RegistrationFails c a pf fr e /\ v' = v /\ Shows RF s' a /\ exists P, RShows g' false (posed P fr)
  end.
Proof.
  intros HR HI HL HM Hds Hprev Hne Hpose HS Hn. apply ready_iff in HR.
  assert (K1 : opt_rel (prev_ok fr) v pf).
  { destruct v as [v|]; destruct pf as [pf|]; cbn [opt_rel] in *; try contradiction; [|exact I].
    destruct Hprev as ((q0 & H0) & H). split; [exists q0, false; apply hist_inv, H0|exact H]. }
  pose proof (step_ok c s a g q fr v pf n inplace HR (hist_inv _ _ _ _ HI) HL HM Hds K1) as K.
  assert (EQ : v <> None <-> pf <> None) by (destruct v; destruct pf; cbn [opt_rel] in Hprev; try contradiction; split; congruence).
  specialize (K ltac:(intros G V; apply Hne; [destruct (s_odom c); [discriminate|discriminate]|tauto])).
  specialize (K ltac:(intros G; apply Hpose; destruct G as [G|G]; [left; destruct (s_odom c); [reflexivity|discriminate]|right; destruct pf; [destruct v; [discriminate|destruct Hprev]|reflexivity]]) HS Hn).
  destruct (step c true true true inplace (s, g, v)) as [[[o t]|e] [[s' g'] v']].
  - destruct K as (H1 & H2 & T & a' & H3 & H4 & H5 & H6 & H7 & H8 & H9 & H10 & H11). split; [exact H1|]. split; [exact H2|]. exists T, a'.
    split; [now apply ready_iff|]. split; [apply p_hist_shows, H3|]. repeat (split; [assumption|]). split; [exact (inv_shows _ _ _ _ H10)|].
    intros E1 E2. apply p_hist_shows. auto.
  - destruct K as (H1 & H2 & H3 & P & H4). split; [exact H1|]. split; [exact H2|]. split; [apply p_hist_shows, H3|]. exists P. exact (inv_shows _ _ _ _ H4).
Qed.
Lemma p_step_types c pc_ok live_ok prev_ok inplace w : pc_ok = false \/ live_ok = false \/ prev_ok = false ->
  step c pc_ok live_ok prev_ok inplace w = (Err TypeError, w).
Proof. intros H. unfold step. destruct live_ok; [|reflexivity]. destruct pc_ok; [|reflexivity]. destruct prev_ok; [|reflexivity]. intuition discriminate. Qed.
(* poses that are required but missing: nothing is changed *)
Lemma p_step_no_prev_pose c o s g v inplace : s_odom c = OIcp o -> r_poses v = None ->
  step c true true true inplace (s, g, Some v) = (Err ValueError, (s, g, Some v)).
Proof.
  intros E H. unfold step. cbn [guard]. rewrite !(mb_lift _ _ _ tt eq_refl). unfold localize, get_prev. unfold mbind at 1 2 3 4. cbn [get ret snd]. rewrite E. cbn [is_gt].
  unfold mbind at 1. rewrite H. reflexivity.
Qed.
Lemma p_step_no_pose c s a g v inplace : ReadyToClone RF s a -> s_odom c = OGt \/ v = None -> r_poses g = None ->
  exists s', step c true true true inplace (s, g, v) = (Err ValueError, (s', g, v)) /\ ReadyToClone RF s' a /\ Shows RF s' a.
Proof.
  intros HR Ho H. apply ready_iff in HR. destruct (rd_has a s HR Points) as (s1 & Eh & HR1).
  assert (K : exists s', localize c (s, g, v) = (Err ValueError, (s', g, v)) /\ Ready a s').
  { unfold localize, get_prev. unfold mbind at 1 2. cbn [get ret snd]. destruct v as [v|].
    - destruct Ho as [Ho|Ho]; [|discriminate]. rewrite Ho. cbn [is_gt]. exists s. split; [|exact HR]. unfold mbind at 1. cbn [ret].
      rewrite (mb_ok _ _ _ _ _ (live_ok' get s g _ _ _ eq_refl)). rewrite H. reflexivity.
    - exists s1. split; [|exact HR1].
      rewrite (mb_ok _ _ _ tt (s1, g, None)) by (rewrite (mb_ok _ _ _ _ _ (map_ok' _ s g None _ _ Eh)); reflexivity).
      destruct (s_odom c); rewrite (mb_ok _ _ _ _ _ (live_ok' get s1 g _ _ _ eq_refl)); rewrite H; reflexivity. }
  destruct K as (s' & E & HR'). exists s'. split; [|split; [now apply ready_iff|apply p_hist_shows, HR']].
  unfold step. cbn [guard]. rewrite !(mb_lift _ _ _ tt eq_refl). rewrite (mb_err _ _ _ _ _ E). reflexivity.
Qed.
(* with registration the frame handed in gets poses, whatever inplace says and even when the step raises *)
Lemma p_step_poses c o s a g q fr v pf n inplace : s_odom c = OIcp o -> ReadyToClone RF s a -> RHist q g false fr -> live fr -> MapFor c (fB fr) a -> Ratio c ->
  (exists q, RHist q v false pf) -> fL pf = 1 -> fB pf = fB fr -> fpose pf <> None -> qp a <> None ->
  Sizes c (fB fr) (fH fr) (fW fr) n -> (forall b, b < fB fr -> npoints a b <= n) ->
  exists P, RShows (snd (fst (snd (step c true true true inplace (s, g, Some v))))) false (posed P fr).
Proof.
  intros Eo HR HI HL HM Hds H1 H2 H3 H4 Hq HS Hn.
  pose proof (p_step c s a g q fr (Some v) (Some pf) n inplace HR HI HL HM Hds (conj H1 (conj H2 (conj H3 H4))) (fun _ _ => Hq)) as K.
  specialize (K ltac:(intros [G|G]; [rewrite Eo in G|]; discriminate) HS Hn).
  destruct (step c true true true inplace (s, g, Some v)) as [[[o' t]|e] [[s' g'] v']]; cbn [fst snd].
  - destruct K as (_ & _ & T & a' & _ & _ & _ & _ & _ & _ & _ & _ & K & _). eauto.
  - destruct K as (_ & _ & _ & P & K). eauto.
Qed.

(* ---------------- forward *)
Lemma empty_ok : exists p, empty_cloud = Ok p /\ ReadyToClone RF p (no_batch RF).
Proof.
  assert (D : Denotes RF (INone RF) (INone RF) (INone RF) (INone RF) (no_batch RF)) by (left; auto).
  destruct (proj2 (p_accepts RF (INone RF) (INone RF) (INone RF) (INone RF) I I I I) (ex_intro _ _ D)) as (np & Ep).
  exists np. split; [exact Ep|]. left. exists np. split; [exact (PointcloudsHist.h_new RF (INone RF) (INone RF) (INone RF) (INone RF) _ _ I I I I D Ep)|].
  pose proof Ep as K. unfold ctor in K. cbn in K. injection K as <-. reflexivity.
Qed.
Lemma p_forward_fold : exists p, empty_cloud = Ok p /\ ReadyToClone RF p (no_batch RF) /\
  forall c g, forward c true g = (match client c (fun _ => true) g (r_L g) 0 p None with
                                  | Ok (m, poses) => Ok (m, stack_poses (r_B g) poses) | Err e => Err e end, g).
Proof.
  destruct empty_ok as (p & E & H). exists p. split; [exact E|]. split; [exact H|]. intros c g. unfold forward. cbn [guard].
  rewrite (mb_lift _ _ _ tt eq_refl). rewrite (mb_lift _ _ _ p E). rewrite mb_get. unfold mbind. rewrite forward_client.
  destruct (client c (fun _ => true) g (r_L g) 0 p None) as [[m poses]|e]; reflexivity.
Qed.
Lemma p_forward_type c g : forward c false g = (Err TypeError, g).
Proof. reflexivity. Qed.

Lemma p_client_cf c inpl g q cf fr p : (cf = true -> s_map c = Aggregate /\ (is_gt (s_odom c) = true \/ fL fr <= 1)) -> RHist q g cf fr -> 0 < fB fr -> 2 <= fH fr -> 2 <= fW fr -> Ratio c ->
  Sizes c (fB fr) (fH fr) (fW fr) (fL fr * (fH fr * fW fr)) -> (s_odom c = OGt -> 2 <= fL fr -> fpose fr <> None) ->
  ReadyToClone RF p (no_batch RF) ->
  match client c inpl g (fL fr) 0 p None with
  | Ok (m, poses) => length poses = fL fr /\ exists maps T, Trajectory c fr (fL fr) maps T /\ ReadyToClone RF m (maps (fL fr)) /\ Shows RF m (maps (fL fr)) /\
      forall l, l < fL fr -> exists t, nth_error poses l = Some t /\ Poses (moment l fr) t (fun b _ => T b l)
  | Err e => exists l maps T, l < fL fr /\ Trajectory c fr l maps T /\ RegistrationFails c (maps l) (previous c fr T l) (input_frame fr l) e
  end.
Proof.
  intros Hcf HI HB HH HW Hds HS Hgt HR. apply ready_iff in HR.
  pose proof (loop_cf c inpl g q cf fr (hist_inv _ _ _ _ HI) Hcf (conj HB (conj HH HW)) Hds HS) as K.
  specialize (K ltac:(intros G; apply Hgt; destruct (s_odom c); [reflexivity|discriminate])).
  specialize (K (fL fr) 0 p None (fun _ => no_batch RF) (fun _ _ => mI) eq_refl HR).
  specialize (K ltac:(split; [reflexivity|lia])).
  specialize (K ltac:(unfold prev_now, previous; destruct (s_odom c); exact I)).
  specialize (K ltac:(intros K'; now cbn in K') ltac:(lia)).
  specialize (K ltac:(intros b Hb; cbn; lia)).
  destruct (client c inpl g (fL fr) 0 p None) as [[m poses]|e].
  - destruct K as (K1 & maps & U & K2 & K3 & _ & K4). split; [exact K1|]. exists maps, (UT U). split; [exact K2|]. split; [now apply ready_iff|].
    split; [apply p_hist_shows, K3|]. exact K4.
  - destruct K as (l & maps & U & K1 & K2 & K3). exists l, maps, (UT U). auto.
Qed.
Lemma p_client c inpl g q fr p : RHist q g false fr -> 0 < fB fr -> 2 <= fH fr -> 2 <= fW fr -> Ratio c ->
  Sizes c (fB fr) (fH fr) (fW fr) (fL fr * (fH fr * fW fr)) -> (s_odom c = OGt -> 2 <= fL fr -> fpose fr <> None) ->
  ReadyToClone RF p (no_batch RF) ->
  match client c inpl g (fL fr) 0 p None with
  | Ok (m, poses) => length poses = fL fr /\ exists maps T, Trajectory c fr (fL fr) maps T /\ ReadyToClone RF m (maps (fL fr)) /\ Shows RF m (maps (fL fr)) /\
      forall l, l < fL fr -> exists t, nth_error poses l = Some t /\ Poses (moment l fr) t (fun b _ => T b l)
  | Err e => exists l maps T, l < fL fr /\ Trajectory c fr l maps T /\ RegistrationFails c (maps l) (previous c fr T l) (input_frame fr l) e
  end.
Proof. apply p_client_cf. discriminate. Qed.
Lemma stack_ok fr poses T : length poses = fL fr -> (forall l, l < fL fr -> exists t, nth_error poses l = Some t /\ Poses (moment l fr) t (fun b _ => T b l)) ->
  Poses fr (stack_poses (fB fr) poses) T.
Proof.
  intros H1 H2. split; [unfold shape, stack_poses; cbn; rewrite H1; reflexivity|]. intros b l Hb Hl i j Hi Hj.
  destruct (H2 l Hl) as (t & E & _ & Ht). unfold ent, stack_poses. cbn [at_ app]. rewrite E. apply (Ht b 0); try assumption; [rewrite moment_B; exact Hb|cbn; lia].
Qed.
Lemma p_forward_cf c g q cf fr : (cf = true -> s_map c = Aggregate /\ (is_gt (s_odom c) = true \/ fL fr <= 1)) -> RHist q g cf fr -> 0 < fB fr -> 2 <= fH fr -> 2 <= fW fr -> Ratio c ->
  Sizes c (fB fr) (fH fr) (fW fr) (fL fr * (fH fr * fW fr)) -> (s_odom c = OGt -> 2 <= fL fr -> fpose fr <> None) ->
  match forward c true g with
  | (Ok (m, t), g') => g' = g /\ exists maps T, Trajectory c fr (fL fr) maps T /\ ReadyToClone RF m (maps (fL fr)) /\ Shows RF m (maps (fL fr)) /\ Poses fr t T
  | (Err e, g') => g' = g /\ exists l maps T, l < fL fr /\ Trajectory c fr l maps T /\ RegistrationFails c (maps l) (previous c fr T l) (input_frame fr l) e
  end.
Proof.
  intros Hcf HI HB HH HW Hds HS Hgt. destruct p_forward_fold as (p & _ & Hp & E). rewrite E. pose proof (hist_inv _ _ _ _ HI) as ((_ & EB & EL & _) & _). rewrite EL, EB.
  pose proof (p_client_cf c (fun _ => true) g q cf fr p Hcf HI HB HH HW Hds HS Hgt Hp) as K.
  destruct (client c (fun _ => true) g (fL fr) 0 p None) as [[m poses]|e]; (split; [reflexivity|]); [|exact K].
  destruct K as (K1 & maps & T & K2 & K3 & K4 & K5). exists maps, T. split; [exact K2|]. split; [exact K3|]. split; [exact K4|]. now apply stack_ok.
Qed.
Lemma p_forward c g q fr : RHist q g false fr -> 0 < fB fr -> 2 <= fH fr -> 2 <= fW fr -> Ratio c ->
  Sizes c (fB fr) (fH fr) (fW fr) (fL fr * (fH fr * fW fr)) -> (s_odom c = OGt -> 2 <= fL fr -> fpose fr <> None) ->
  match forward c true g with
  | (Ok (m, t), g') => g' = g /\ exists maps T, Trajectory c fr (fL fr) maps T /\ ReadyToClone RF m (maps (fL fr)) /\ Shows RF m (maps (fL fr)) /\ Poses fr t T
  | (Err e, g') => g' = g /\ exists l maps T, l < fL fr /\ Trajectory c fr l maps T /\ RegistrationFails c (maps l) (previous c fr T l) (input_frame fr l) e
  end.
Proof. apply p_forward_cf. discriminate. Qed.
(* ground truth *)
Lemma p_forward_gt c g q fr T0 : RHist q g false fr -> 0 < fB fr -> 2 <= fH fr -> 2 <= fW fr -> s_odom c = OGt ->
  Sizes c (fB fr) (fH fr) (fW fr) (fL fr * (fH fr * fW fr)) -> fpose fr = Some T0 ->
  exists m t maps T, forward c true g = (Ok (m, t), g) /\ Poses fr t T0 /\ Trajectory c fr (fL fr) maps T /\ ReadyToClone RF m (maps (fL fr)) /\
    Shows RF m (maps (fL fr)) /\ forall b l, b < fB fr -> l < fL fr -> T b l = T0 b l.
Proof.
  intros HI HB HH HW Ho HS HT. pose proof (p_forward c g q fr HI HB HH HW ltac:(unfold Ratio; rewrite Ho; exact I) HS ltac:(congruence)) as K.
  destruct (forward c true g) as [[[m t]|e] g'].
  - destruct K as (-> & maps & T & K1 & K2 & K3 & K4).
    assert (KT : forall b l, b < fB fr -> l < fL fr -> T b l = T0 b l).
    { intros b l Hb Hl. destruct K1 as [_ K1]. destruct (K1 l Hl) as [K _]. unfold Localised in K. rewrite Ho in K. destruct K as (T1 & E1 & K).
      rewrite input_B in K. specialize (K b Hb). unfold input_frame in E1. rewrite HT in E1. cbn [fpose moment pick] in E1. rewrite HT in E1. cbn [option_map] in E1. injection E1 as <-.
      rewrite K. cbn [nth]. rewrite seq_nth by exact Hb. reflexivity. }
    exists m, t, maps, T. split; [reflexivity|]. split; [|auto]. destruct K4 as [K4 K5]. split; [exact K4|]. intros b l Hb Hl. rewrite <- KT by assumption. auto.
  - destruct K as (_ & l & maps & T & _ & _ & o & pf & Tp & ds & rows & b & K & _). congruence.
Qed.
(* the aggregated map of every sequence: the frames' points one after the other *)
Lemma p_aggregated c fr n maps T x b : s_map c = Aggregate -> Trajectory c fr n maps T -> x <> Features -> b < fB fr ->
  rows_of (maps n) x b = concat (map (fun l => frame_rows (posed (fun b => T b l) (moment l fr)) x b) (seq 0 n)).
Proof.
  intros Hc [H0 H] Hx Hb. induction n as [|n IH].
  - rewrite H0. destruct x; reflexivity.
  - rewrite seq_S, map_app, concat_app. cbn [map concat Nat.add]. rewrite app_nil_r. rewrite <- IH by (intros l Hl; apply H; lia).
    destruct (H n ltac:(lia)) as [_ K]. unfold Mapped in K. rewrite Hc in K. destruct K as [_ [_ K]]. apply K; [exact Hx|]. cbn [fB posed with_fpose]. rewrite moment_B. exact Hb.
Qed.
Lemma frame_rows_ext fr T T' x b : (forall l, l < fL fr -> T b l = T' b l) -> 0 < fL fr -> frame_rows (with_fpose (Some T) fr) x b = frame_rows (with_fpose (Some T') fr) x b.
Proof.
  intros H HL. unfold frame_rows. change (chosen true (with_fpose (Some T) fr) b) with (chosen true (with_fpose (Some T') fr) b). apply map_ext. intros [h w].
  apply map_ext. intros j. unfold frame_attr, global_vertex, global_normal. cbn [fpose with_fpose]. destruct x; try reflexivity.
  - rewrite H by exact HL. reflexivity.
  - rewrite H by exact HL. reflexivity.
Qed.
(* what the trajectory says under ground truth *)
Lemma gt_poses_of c fr T0 maps T : s_odom c = OGt -> fpose fr = Some T0 -> Trajectory c fr (fL fr) maps T -> forall b l, b < fB fr -> l < fL fr -> T b l = T0 b l.
Proof.
  intros Ho HT [_ K1] b l Hb Hl. destruct (K1 l Hl) as [K _]. unfold Localised in K. rewrite Ho in K. destruct K as (T1 & E1 & K).
  rewrite input_B in K. specialize (K b Hb). unfold input_frame in E1. rewrite HT in E1. cbn [fpose moment pick] in E1. rewrite HT in E1. cbn [option_map] in E1. injection E1 as <-.
  rewrite K. cbn [nth]. rewrite seq_nth by exact Hb. reflexivity.
Qed.
Lemma gt_map_of c fr T0 m t maps T g : s_odom c = OGt -> s_map c = Aggregate -> fpose fr = Some T0 -> Trajectory c fr (fL fr) maps T -> ReadyToClone RF m (maps (fL fr)) ->
  Shows RF m (maps (fL fr)) -> Poses fr t T ->
  exists m' t' a, ((Ok (m, t) : res (pc RF * ten R)), (g : rgbd)) = (Ok (m', t'), g) /\ Poses fr t' T0 /\ ReadyToClone RF m' a /\ Shows RF m' a /\
    forall x b, x <> Features -> b < fB fr -> rows_of a x b = concat (map (fun l => frame_rows (moment l fr) x b) (seq 0 (fL fr))).
Proof.
  intros Ho Hm HT H2 H3 H4 [P1 P2]. pose proof (gt_poses_of c fr T0 maps T Ho HT H2) as H5.
  exists m, t, (maps (fL fr)). split; [reflexivity|]. split; [split; [exact P1|]; intros b l Hb Hl; rewrite <- H5 by assumption; auto|]. split; [exact H3|]. split; [exact H4|]. intros x b Hx Hb. rewrite (p_aggregated c fr (fL fr) maps T x b Hm H2 Hx Hb). f_equal.
  apply map_ext_in. intros l Hl. apply in_seq in Hl. destruct fr as [fb fl fh fw rgb dep fk po px]. cbn [fpose] in HT. subst po. cbn [fB fL] in *.
  unfold posed, moment, pick at 2. cbn [fB fL fH fW frgb fdep fK fpose fpix option_map].
  match goal with |- frame_rows (with_fpose (Some ?t1) ?f) _ _ = frame_rows ?f2 _ _ => change f2 with (with_fpose (fpose f2) f2); cbn [fpose] end.
  match goal with |- frame_rows (with_fpose (Some ?t1) ?f) _ _ = frame_rows (with_fpose (Some ?t2) ?f2) _ _ => change (frame_rows (with_fpose (Some t1) f2) x b = frame_rows (with_fpose (Some t2) f2) x b) end.
  apply frame_rows_ext; [|cbn; lia]. intros k Hk. cbn [fL length] in Hk. replace k with 0 by lia. cbn [nth]. rewrite seq_nth by exact Hb. apply H5; [exact Hb|lia].
Qed.
(* ground truth and aggregation: the map is exactly the valid pixels of all frames, placed with the given poses *)
Lemma p_forward_gt_map c g q fr T0 : RHist q g false fr -> 0 < fB fr -> 2 <= fH fr -> 2 <= fW fr -> s_odom c = OGt -> s_map c = Aggregate -> fpose fr = Some T0 ->
  exists m t a, forward c true g = (Ok (m, t), g) /\ Poses fr t T0 /\ ReadyToClone RF m a /\ Shows RF m a /\
    forall x b, x <> Features -> b < fB fr -> rows_of a x b = concat (map (fun l => frame_rows (moment l fr) x b) (seq 0 (fL fr))).
Proof.
  intros HI HB HH HW Ho Hm HT. destruct (p_forward_gt c g q fr T0 HI HB HH HW Ho ltac:(unfold Sizes; rewrite Hm; exact I) HT) as (m & t & maps & T & E & H1 & H2 & H3 & H4 & H5).
  exists m, t, (maps (fL fr)). repeat (split; [assumption|]). intros x b Hx Hb. rewrite (p_aggregated c fr (fL fr) maps T x b Hm H2 Hx Hb). f_equal.
  apply map_ext_in. intros l Hl. apply in_seq in Hl. destruct fr as [fb fl fh fw rgb dep fk po px]. cbn [fpose] in HT. subst po. cbn [fB fL] in *.
  unfold posed, moment, pick at 2. cbn [fB fL fH fW frgb fdep fK fpose fpix option_map].
  match goal with |- frame_rows (with_fpose (Some ?t1) ?f) _ _ = frame_rows ?f2 _ _ => change f2 with (with_fpose (fpose f2) f2); cbn [fpose] end.
  match goal with |- frame_rows (with_fpose (Some ?t1) ?f) _ _ = frame_rows (with_fpose (Some ?t2) ?f2) _ _ => change (frame_rows (with_fpose (Some t1) f2) x b = frame_rows (with_fpose (Some t2) f2) x b) end.
  apply frame_rows_ext; [|cbn; lia]. intros k Hk. cbn [fL length] in Hk. replace k with 0 by lia. cbn [nth]. rewrite seq_nth by exact Hb. apply H5; [exact Hb|lia].
Qed.
(* ground truth without poses *)
Lemma p_forward_gt_none c g q fr : RHist q g false fr -> 0 < fB fr -> 2 <= fH fr -> 2 <= fW fr -> s_odom c = OGt -> fpose fr = None -> 
  Sizes c (fB fr) (fH fr) (fW fr) (fH fr * fW fr) -> 2 <= fL fr -> forward c true g = (Err ValueError, g).
Proof.
  intros HI HB HH HW Ho HT HS HL. destruct p_forward_fold as (p & _ & Hp & E). rewrite E. apply hist_inv in HI. pose proof HI as ((_ & EB & EL & _) & _). rewrite EL.
  apply ready_iff in Hp. destruct (fL fr) as [|[|n]] eqn:EF; [lia|lia|]. cbn [client].
  destruct (frame_at_ok q g false fr 0 HI HB ltac:(lia)) as (g0 & E0 & HI0). rewrite E0. cbn [rbind].
  destruct (start_frame_ok q g false fr 0 g0 HI HI0) as (g1 & E1 & HI1). fold (start_frame g 0 g0). rewrite E1. cbn [rbind]. rewrite Ho. cbn [is_gt].
  assert (EI : input_frame fr 0 = posed (fun _ => mI) (moment 0 fr)) by (unfold input_frame; rewrite HT; reflexivity).
  rewrite EI in HI1.
  pose proof (step_ok c p (no_batch RF) g1 false (posed (fun _ => mI) (moment 0 fr)) None None (fH fr * fW fr) true Hp HI1) as K.
  cbn [fB fH fW posed with_fpose] in K. rewrite moment_B in K.
  specialize (K (moment_live 0 fr (conj HB (conj HH HW))) ltac:(intros K'; now cbn in K') ltac:(unfold Ratio; rewrite Ho; exact I) I ltac:(congruence) ltac:(discriminate) HS ltac:(intros b Hb; cbn; lia)).
  destruct (step c true true true true (p, g1, None)) as [[[o t]|e] [[p1 g2] v1]].
  - destruct K as (_ & _ & T & a' & HR' & HP & _ & _ & _ & _ & _ & HI2 & _).
    destruct (set_poses_inv _ _ _ _ t (fun b _ => T b) HI2 HP) as (g3 & E3 & _). rewrite E3. cbn [rbind].
    destruct (frame_at_ok q g false fr 1 HI HB ltac:(lia)) as (h0 & F0 & HI3). rewrite F0. cbn [rbind].
    assert (N : r_poses h0 = None).
    { destruct HI3 as (_ & _ & _ & _ & _ & Apo & _). cbn [fpose moment pick] in Apo. rewrite HT in Apo. destruct (r_poses h0); [destruct Apo|reflexivity]. }
    rewrite N. cbn [Nat.eqb rbind]. apply ready_iff in HR'.
    destruct (p_step_no_pose c (returned o p1) a' h0 None true HR' (or_intror eq_refl) N) as (s' & E4 & _). rewrite E4. reflexivity.
  - destruct K as ((o & pf & Tp & ds & rows & b & K & _) & _). congruence.
Qed.

(* ---------------- inplace=False does not protect the arguments *)
Definition icp_slam : slam := mkSlam first_closest (OIcp (MIcp (IntV 1) 1 ThrNone)) (IntV 1) (Fusion 1 (-1) (SigNum 1)).
Definition gt_slam (m : mapper) : slam := mkSlam first_closest OGt (IntV 1) m.
Lemma m1_mapfor c d t sg : s_map c = Fusion d t sg -> MapFor c 1 m1.
Proof. intros E _. split; [reflexivity|]. rewrite E. exact (proj1 m1_full). Qed.
Lemma r_step_frame : exists s a g fr v, ReadyToClone RF s a /\ RHist false g false fr /\ live fr /\ RHist false v false (wfr 1 2 3) /\
  Ratio icp_slam /\ r_poses g = None /\ r_poses (snd (fst (snd (step icp_slam true true true false (s, g, Some v))))) <> None.
Proof.
  destruct (map_exists _ _ m1_valid) as (s & Hs). destruct w13 as (v & Hv).
  assert (E : set_poses TNone v = (Ok tt, snd (set_poses TNone v))) by reflexivity.
  pose proof (h_drop_poses _ _ _ _ _ Hv E) as Hg. exists s, m1, (snd (set_poses TNone v)), (with_fpose None (wfr 1 2 3)), v.
  assert (HRa : Ratio icp_slam) by (exists 1%Z; split; [reflexivity|lia]).
  assert (HLv : live (with_fpose None (wfr 1 2 3))) by exact wfr_live.
  split; [exact Hs|]. split; [exact Hg|]. split; [exact HLv|]. split; [exact Hv|]. split; [exact HRa|]. split; [reflexivity|].
  destruct (p_step_poses icp_slam (MIcp (IntV 1) 1 ThrNone) s m1 (snd (set_poses TNone v)) false (with_fpose None (wfr 1 2 3)) v (wfr 1 2 3) 1 false eq_refl Hs Hg HLv) as (P & K).
  - eapply (m1_mapfor icp_slam). reflexivity.
  - exact HRa.
  - eauto.
  - reflexivity.
  - reflexivity.
  - discriminate.
  - discriminate.
  - split; [exists 1%R; split; [reflexivity|lra]|cbn; lia].
  - intros b Hb. assert (b = 0) by (cbn in Hb; lia). subst b. cbn. lia.
  - destruct K as (_ & _ & _ & _ & _ & K & _). intros N. rewrite N in K. exact K.
Qed.
Lemma r_step_map : let c := gt_slam (Fusion 1 (-1) (SigNum 1)) in exists s a g fr o t s' g' v a1, ReadyToClone RF s a /\ RHist false g false fr /\ live fr /\ MapFor c (fB fr) a /\
  Sizes c (fB fr) (fH fr) (fW fr) 1 /\ step c true true true false (s, g, None) = (Ok (PNew o, t), (s', g', v)) /\
  Shows RF s a /\ Shows RF s' a1 /\ (conf a 0 0 < conf a1 0 0)%R.
Proof.
  cbv zeta. set (c := gt_slam _).
  destruct (map_exists _ _ m1_valid) as (s & Hs). destruct w13 as (g & Hg).
  pose proof Hs as HR. apply ready_iff in HR. destruct (rd_has m1 s HR Points) as (s1 & Eh & HR1). apply ready_iff in HR1.
  pose proof (hist_inv _ _ _ _ Hg) as (_ & _ & _ & _ & _ & Apo & _). destruct (r_poses g) as [t|] eqn:Et; [|destruct Apo]. cbn [opt_rel] in Apo.
  destruct (set_poses_inv _ _ _ _ t _ (hist_inv _ _ _ _ Hg) Apo) as (g1 & E1 & _).
  pose proof (h_set_poses _ _ _ _ _ _ _ Hg E1 Apo) as Hg1. change (with_fpose (Some (fun _ _ : nat => pinhole 1 1 0 0 0)) (wfr 1 2 3)) with (wfr 1 2 3) in Hg1.
  destruct m1_seen as (T & HT & Hseen).
  destruct (p_update_copy s1 m1 g1 (wfr 1 2 3) false 1 (-1) 1 T HR1 Hg1 wfr_live ltac:(lra) (proj1 m1_full) eq_refl ltac:(discriminate) HT m1_fits)
    as (rows & o & s' & g' & a1 & E & (_ & _ & HCm & HC) & _ & Sh & Sg & _ & Hlt).
  assert (Pg : exists t', r_poses g' = Some t').
  { destruct Sg as (_ & _ & _ & _ & _ & K & _). destruct (r_poses g') as [t'|]; [eauto|destruct K]. }
  destruct Pg as (t' & Et').
  exists s, m1, g, (wfr 1 2 3), o, t', s', g', None, a1. split; [exact Hs|]. split; [exact Hg|]. split; [exact wfr_live|]. split; [eapply (m1_mapfor c); reflexivity|].
  split; [split; [exists 1%R; split; [reflexivity|lra]|cbn; lia]|]. split.
  - unfold step. cbn [guard]. rewrite !(mb_lift _ _ _ tt eq_refl).
    assert (EL : localize c (s, g, None) = (Ok t, (s1, g, None))).
    { unfold localize, get_prev. unfold mbind at 1 2. cbn [get ret snd].
      rewrite (mb_ok _ _ _ tt (s1, g, None)) by (rewrite (mb_ok _ _ _ _ _ (map_ok' _ s g None _ _ Eh)); reflexivity).
      cbn [s_odom c gt_slam]. rewrite (mb_ok _ _ _ _ _ (live_ok' get s1 g _ _ _ eq_refl)). rewrite Et. reflexivity. }
    rewrite (mb_ok _ _ _ _ _ EL). rewrite (mb_ok _ _ _ _ _ (live_ok' _ s1 g _ _ _ E1)). unfold map_step. cbn [s_map c gt_slam].
    rewrite (mb_ok _ _ _ _ _ (ml_ok _ _ _ None _ _ _ E)). rewrite (mb_ok _ _ _ _ _ (live_ok' get s' g' _ _ _ eq_refl)). rewrite Et'. reflexivity.
  - split; [apply p_hist_shows, ready_iff, Hs|]. split; [exact Sh|].
    destruct (HC 0 0 0 1) as (n' & Hm & _).
    + split; [unfold len_view; cbn; lia|unfold npoints; cbn; lia].
    + exact Hseen.
    + split.
      * unfold distance, norm, dot. cbn [rsum]. rewrite !wfr_v1 by lia. unfold attr_at, row_at. cbn -[sqrt Rplus Rmult Rminus IZR Rdiv].
        replace (0 + (0 - 0) * (0 - 0) + (wY - wY) * (wY - wY) + (1 - 1) * (1 - 1))%R with 0%R by ring. rewrite sqrt_0. lra.
      * unfold dot. cbn [rsum]. unfold attr_at, row_at. cbn -[Rplus Rmult Rminus IZR Rdiv]. rewrite !Rmult_0_r. lra.
    + assert (n' = 0). { destruct (HCm 0 n' 0 1 Hm) as ([_ Hn] & _). unfold npoints in Hn. cbn in Hn. lia. }
      subst n'. exact (Hlt 0 0 0 1 Hm).
Qed.
