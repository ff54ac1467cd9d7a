(* C45, C46: proofs about the SLAM step. *)
From Coq Require Import Reals List Arith Bool ZArith Lia Lra.
From Verif Require Import Res Fld StructUtilsModel PointcloudsModel PointcloudsSpec PointcloudsIndexSpec PointcloudsCtorSpec
  PointcloudsHist PointcloudsPropProofs MatSpec GeomSpec TensorModel TensorProofs ProjModel GeomModel GeomProofs RgbdModel RgbdSpec RgbdProofs RgbdOps RgbdCloud RgbdPropProofs
  FusionModel FusionSpec FusionMap FusionActive FusionFuse FusionCorr FusionPropProofs FusionPropProofs2
  SolveModel Se3Model IcpModel IcpSpec OdomSpec DownProofs ProvideProofs SlamModel SlamSpec.
Import ListNotations.
Local Open Scope nat_scope.

(* ---------------- composition of poses *)
Lemma compose_pose_mul : forall X P, affine4 X -> affine4 P -> meq 4 4 (compose_pose X P) (mmul 4 X P).
Proof.
  intros X P (A0 & A1 & A2 & A3) (B0 & B1 & B2 & B3) i j Hi Hj. unfold compose_pose, mmul.
  destruct i as [|[|[|[|i]]]]; [..|lia]; destruct j as [|[|[|[|j]]]]; try lia; cbn [Nat.ltb Nat.leb rsum];
    rewrite ?A0, ?A1, ?A2, ?A3, ?B0, ?B1, ?B2, ?B3; ring.
Qed.
Lemma compose_pose_affine X P : affine4 (compose_pose X P).
Proof. repeat split. Qed.
Lemma compose_form X P : meq 4 4 (comp_form X P) (compose_pose X P).
Proof. intros i j Hi Hj. unfold comp_form, compose_pose, mmul, mvec, tr_of. reflexivity. Qed.

(* ---------------- running *)
Lemma ml_ok {A} (m : MS A) s g v r s' g' : m (s, g) = (r, (s', g')) -> on_ml m (s, g, v) = (r, (s', g', v)).
Proof. intros E. unfold on_ml. cbn [fst snd]. rewrite E. reflexivity. Qed.
Lemma map_ok' {A} (m : M (pc RF) A) s g v r s' : m s = (r, s') -> on_map m (s, g, v) = (r, (s', g, v)).
Proof. intros E. apply ml_ok, onp_ok, E. Qed.
Lemma live_ok' {A} (m : M rgbd A) s g v r g' : m g = (r, g') -> on_live m (s, g, v) = (r, (s, g', v)).
Proof. intros E. apply ml_ok, onr_ok, E. Qed.
Lemma mp_ok {A} (m : MS A) s g v r s' v' : m (s, v) = (r, (s', v')) -> on_mp m (s, g, Some v) = (r, (s', g, Some v')).
Proof. intros E. unfold on_mp. cbn [fst snd]. rewrite E. reflexivity. Qed.

(* all positions succeed, or there is a first one that does not *)
Lemma first_fail {Y} (f : nat -> res Y) n : (forall b, b < n -> exists y, f b = Ok y) \/
  exists b e, b < n /\ f b = Err e /\ forall k, k < b -> exists y, f k = Ok y.
Proof.
  induction n as [|n [IH|(b & e & H1 & H2 & H3)]]; [left; lia| |right; exists b, e; auto with arith].
  destruct (f n) as [y|e] eqn:E; [left|right; exists n, e; auto with arith].
  intros b Hb. destruct (Nat.eq_dec b n) as [->|]; [eauto|]. apply IH. lia.
Qed.

Lemma thin_qp d rows a P : qp a = Some P -> qp (thin_clouds d rows a) = Some (thin_map d rows a Points) /\ length (thin_map d rows a Points) = len_view RF a.
Proof. intros E. unfold thin_map, thin_clouds, thin_attr. cbn [qp qget]. rewrite E. split; [reflexivity|]. now rewrite map_length, seq_length. Qed.
Lemma thin_qn d rows a N : qn a = Some N -> qn (thin_clouds d rows a) = Some (thin_map d rows a Normals).
Proof. intros E. unfold thin_map, thin_clouds, thin_attr. cbn [qn qget]. rewrite E. reflexivity. Qed.

(* the poses of the previous frame as poses of the live frame *)
Lemma poses_of_prev fr pf t Tp : fL fr = 1 -> fL pf = 1 -> fB pf = fB fr -> Poses pf t Tp -> Poses fr t (fun b _ => Tp b 0).
Proof.
  intros H1 H2 H3 [Hs Hp]. split; [rewrite Hs, H1, H2, H3; reflexivity|]. intros b l Hb Hl. replace l with 0 by lia. apply Hp; lia.
Qed.
Lemma poses_dims fr t T : fL fr = 1 -> Poses fr t T -> dims t = [4; 4; 1; fB fr].
Proof. intros H1 [Hs _]. unfold shape in Hs. apply (f_equal (@rev nat)) in Hs. rewrite rev_involutive in Hs. rewrite Hs, H1. reflexivity. Qed.

(* step with registration: the composed tensor *)
Lemma compose_ok B X t : dims X = [4; 4; 1; B] -> dims t = [4; 4; 1; B] -> exists y, kornia_compose (squeeze1 X) (squeeze1 t) = Ok y /\
  dims (unsqueeze1 y) = [4; 4; 1; B] /\ forall b, b < B -> meq 4 4 (ent (unsqueeze1 y) [0; b]) (compose_pose (ent X [0; b]) (ent t [0; b])).
Proof.
  intros HX Ht. unfold squeeze1. rewrite HX, Ht.
  match goal with |- exists y, kornia_compose ?x ?z = _ /\ _ => destruct (kornia_compose_ok x z [B] eq_refl eq_refl ltac:(cbn; lia)) as (y & Ey & Dy & My) end.
  exists y. split; [exact Ey|]. unfold unsqueeze1. rewrite Dy. split; [reflexivity|]. intros b Hb.
  assert (Hv : vix [B] [b]) by (constructor; [exact Hb|constructor]).
  intros i j Hi Hj. unfold ent at 1. cbn [at_ app]. change (at_ y [j; i; b]) with (ent y [b] i j). rewrite (My [b] Hv i j Hi Hj).
  rewrite compose_form by assumption. reflexivity.
Qed.

Section Step.
Variables (c : slam) (s : pc RF) (a : batch RF) (g : rgbd) (q cf : bool) (fr : frames) (v : option rgbd) (pf : option frames).
Hypothesis HR : Ready a s.
Hypothesis HI : Inv q g cf fr.
Hypothesis HL : live fr.
Hypothesis HM : MapFor c (fB fr) a.
Hypothesis Hds : Ratio c.
(* previous frame *)
Definition prev_ok (fr : frames) (v : rgbd) (pf : frames) : Prop :=
  (exists q cf, Inv q v cf pf) /\ fL pf = 1 /\ fB pf = fB fr /\ fpose pf <> None.
Definition same_prev (v : rgbd) (pf : frames) : Prop := exists q cf, Inv q v cf pf.
Hypothesis Hprev : opt_rel (prev_ok fr) v pf.
Hypothesis Hne : is_gt (s_odom c) = false -> v <> None -> qp a <> None.
Hypothesis Hpose : is_gt (s_odom c) = true \/ v = None -> fpose fr <> None.
Hypothesis Hcf : cf = true -> is_gt (s_odom c) = true \/ v = None.

Lemma localize_cf :
  match localize c (s, g, v) with
  | (Ok t, (s1, g1, v1)) => v1 = v /\ Ready a s1 /\ exists T, Poses fr t (fun b _ => T b) /\ Localised c a pf fr T /\
      exists po, Inv true g1 cf (with_fpose po fr)
  | (Err e, (s1, g1, v1)) => RegistrationFails c a pf fr e /\ v1 = v /\ Ready a s1 /\ exists P, Inv true g1 cf (posed P fr)
  end.
Proof.
  destruct HL as (HL1 & HB0 & HH & HW).
  assert (Direct : is_gt (s_odom c) = true \/ v = None -> forall s1, Ready a s1 ->
    exists t T, r_poses g = Some t /\ Poses fr t (fun b _ => T b) /\ Localised c a pf fr T).
  { intros Hd s1 H1. pose proof HI as (_ & _ & _ & _ & _ & Apo & _). specialize (Hpose Hd). destruct (fpose fr) as [T0|] eqn:ET; [|congruence].
    destruct (r_poses g) as [t|]; [|destruct Apo]. cbn [opt_rel] in Apo. exists t, (fun b => T0 b 0). split; [reflexivity|]. split.
    - exact (poses_of_prev fr fr t T0 HL1 HL1 eq_refl Apo).
    - unfold Localised. destruct (s_odom c) as [|o] eqn:Eo.
      + exists T0. split; [exact ET|]. intros b Hb. reflexivity.
      + destruct Hd as [Hd|Hd]; [discriminate|]. rewrite Hd in Hprev. destruct pf; [destruct Hprev|]. exists T0. split; [exact ET|]. intros b Hb. reflexivity. }
  assert (Inv0 : Inv true g cf (with_fpose (fpose fr) fr)) by (destruct fr; exact (inv_mono _ _ _ _ HI)).
  unfold localize, get_prev. unfold mbind at 1 2. cbn [get ret snd]. 
  destruct v as [g0|] eqn:Ev.
  - destruct (s_odom c) as [|o] eqn:Eo.
    + destruct (Direct (or_introl eq_refl) s HR) as (t & T & E1 & H1 & H2).
      cbn [is_gt]. unfold mbind at 1. cbn [ret]. rewrite (mb_ok _ _ _ _ _ (live_ok' get s g _ _ _ eq_refl)). rewrite E1. cbn [ret].
      split; [reflexivity|]. split; [exact HR|]. exists T. split; [exact H1|]. split; [exact H2|]. eexists. exact Inv0.
    + assert (Ecf : cf = false) by (destruct cf; [destruct (Hcf eq_refl); discriminate|reflexivity]). clear Hcf. subst cf.
      cbn [is_gt]. destruct pf as [pf0|] eqn:Epf; [|destruct Hprev]. cbn [opt_rel] in Hprev. destruct Hprev as ((q0 & cf0 & HI0) & HpL & HpB & HpT).
      pose proof HI0 as (_ & _ & _ & _ & _ & Apo & _). destruct (fpose pf0) as [Tp|] eqn:ETp; [|congruence].
      destruct (r_poses g0) as [tp|] eqn:Etp; [|destruct Apo]. cbn [opt_rel] in Apo.
      unfold mbind at 1. cbn [ret].
      pose proof (poses_of_prev fr pf0 tp Tp HL1 HpL HpB Apo) as Hpo.
      destruct (set_poses_inv _ _ _ _ _ _ HI Hpo) as (g1 & E1 & HI1). fold (posed (fun b => Tp b 0) fr) in HI1.
      rewrite (mb_ok _ _ _ _ _ (live_ok' _ s g _ _ _ E1)).
      assert (Hds' : exists d, s_ds c = IntV d /\ (0 < d)%Z) by (unfold Ratio in Hds; rewrite Eo in Hds; exact Hds).
      destruct Hds' as (ds & Eds & Hd0). rewrite Eds.
      destruct (down_frames_inv q g1 (posed (fun b => Tp b 0) fr) ds HI1 HL1 HB0 HH HW Hd0) as (fpc & g2 & E2 & Hf & HI2 & _).
      rewrite (mb_ok _ _ _ _ _ (live_ok' _ s g1 _ _ _ E2)).
      assert (Hq : qp a <> None) by (apply Hne; [reflexivity|discriminate]). destruct (qp a) as [P|] eqn:EP; [clear Hq|congruence].
      destruct (HM ltac:(rewrite EP; discriminate)) as [HB Hk].
      assert (HN : exists N, qn a = Some N).
      { assert (K : qget Normals a <> None) by (destruct (s_map c); [apply (proj1 Hk); discriminate|apply (proj1 Hk)]). cbn [qget] in K. destruct (qn a); [eauto|congruence]. }
      destruct HN as (N & EN).
      destruct (active_nonempty s a g0 cf0 pf0 q0 Tp P HR HI0 HpL (eq_trans HpB (eq_sym HB)) ETp EP) as (rows & s1 & E3 & HR1 & Hact).
      rewrite (mb_ok _ _ _ _ _ (mp_ok _ s g2 g0 _ _ _ E3)).
      assert (Hrows : Forall (in_map a) rows).
      { apply Forall_forall. intros [b n h w] Hin. apply (proj2 Hact) in Hin. apply Hin. }
      destruct (p_down_map s1 a P ds rows HR1 EP Hrows ltac:(lia)) as (mpc & s2 & E4 & Hm & HR2).
      rewrite (mb_ok _ _ _ _ _ (map_ok' _ s1 g2 _ _ _ E4)).
      destruct (thin_qp ds rows a P EP) as [Q1 Q2]. pose proof (thin_qn ds rows a N EN) as Q3.
      assert (Q4 : qp (grid_clouds ds (posed (fun b => Tp b 0) fr)) = Some (grid_attr ds (posed (fun b => Tp b 0) fr) Points)) by reflexivity.
      assert (Q5 : length (thin_map ds rows a Points) = length (grid_attr ds (posed (fun b => Tp b 0) fr) Points)).
      { unfold grid_attr. rewrite map_length, seq_length. cbn [fB posed with_fpose]. congruence. }
      destruct (first_fail (one_run_of (s_nn c) o (thin_map ds rows a Points) (thin_map ds rows a Normals) (grid_attr ds (posed (fun b => Tp b 0) fr) Points)) (length (thin_map ds rows a Points))) as [Hall|(b & e & Hb & He & Hk')].
      * destruct (provide_ok (s_nn c) o mpc fpc _ _ _ _ _ Hm Hf Q1 Q3 Q4 Q5) as (X & m' & f' & E5 & _ & _ & DX & HX).
        { intros b Hb. destruct (Hall b Hb) as ([T idx] & ET). eauto. }
        rewrite E5. cbn [fst]. unfold mbind at 1. cbn [lift].
        rewrite Q2, HB in DX. destruct (compose_ok (fB fr) X tp DX) as (y & Ey & Dy & My).
        { rewrite <- HpB. exact (poses_dims pf0 tp Tp HpL Apo). }
        unfold mbind at 1. cbn [lift]. rewrite Ey. cbn [ret].
        split; [reflexivity|]. split; [exact HR2|]. exists (fun b => ent (unsqueeze1 y) [0; b]). split; [|split].
        -- split; [unfold shape; rewrite Dy, HL1; reflexivity|]. intros b l Hb Hl. replace l with 0 by lia. intros i j _ _. reflexivity.
        -- unfold Localised. rewrite Eo. exists Tp, ds, rows. split; [exact ETp|]. split; [exact Eds|]. split; [exact Hact|]. intros b Hb.
           destruct (HX b ltac:(lia)) as (T & idx & ET & HT). exists T, idx. split; [exact ET|].
           intros i j Hi Hj. rewrite (My b Hb i j Hi Hj). destruct Apo as [_ Apo]. pose proof (Apo b 0 ltac:(lia) ltac:(lia)) as Mp.
           unfold compose_pose. destruct i as [|[|[|i]]]; cbn [Nat.ltb Nat.leb]; [..|reflexivity]; destruct (j <? 3) eqn:Ej; cbn [rsum]; rewrite ?HT by lia; rewrite ?Mp by lia; reflexivity.
        -- eexists. exact HI2.
      * pose proof (provide_err (s_nn c) o mpc fpc _ _ _ _ _ Hm Hf Q1 Q3 Q4 b e Q5 Hb) as K.
        unfold mbind at 1. cbn [lift]. rewrite K; [| |exact He].
        -- split; [|split; [reflexivity|]; split; [exact HR2|]; eexists; exact HI2].
           exists o, pf0, Tp, ds, rows, b. repeat (split; [first [reflexivity|assumption]|]). split; [lia|exact He].
        -- intros k Hk2. destruct (Hk' k Hk2) as ([T idx] & ET). eauto.
  - destruct (rd_has a s HR Points) as (s1 & Eh & HR1). destruct (Direct (or_intror eq_refl) s1 HR1) as (t & T & E1 & H1 & H2).
    rewrite (mb_ok _ _ _ tt (s1, g, None)) by (rewrite (mb_ok _ _ _ _ _ (map_ok' _ s g None _ _ Eh)); reflexivity).
    rewrite (mb_ok _ _ _ _ _ (live_ok' get s1 g _ _ _ eq_refl)). rewrite E1. cbn [ret].
    split; [reflexivity|]. split; [exact HR1|]. exists T. split; [exact H1|]. split; [exact H2|]. eexists. exact Inv0.
Qed.

(* ---------------- the map update *)
End Step.
Lemma npoints_rows a b : npoints a b = length (rows_of a Points b).
Proof. unfold npoints, rows_of. cbn [qget]. destruct (qp a); reflexivity. Qed.
Lemma chosen_bound fr b : length (chosen true fr b) <= fH fr * fW fr.
Proof. unfold chosen. etransitivity; [apply filter_len|]. unfold row_major. rewrite prod_length, !seq_length. lia. Qed.
Lemma aggregate_keeps s a g r s' g' : Hist RF s a -> update_map_aggregate false (s, g) = (r, (s', g')) -> Hist RF s' a.
Proof.
  intros HS E. unfold update_map_aggregate, mbind, onr in E. cbn [snd] in E. destruct (pointclouds_from_rgbdimages true true g) as [[np|e] g1] eqn:Ec.
  - cbn [fst] in E. unfold append_to, mbind, onp in E. cbn [fst snd] in E.
    destruct (clone RF s) as [[c|e] s1] eqn:E1.
    + pose proof (h_clone_self RF _ _ _ _ HS E1) as HS1. destruct (append_points RF (c, np)) as [[u|e] [c' np']]; cbn in E; injection E as <- <- <-; auto.
    + pose proof (h_clone_self RF _ _ _ _ HS E1) as HS1. injection E as <- <- <-. auto.
  - injection E as <- <- <-. exact HS.
Qed.
Lemma map_step_cf c s a g q cf fr v n inplace : (cf = true -> s_map c = Aggregate) -> Ready a s -> Inv q g cf fr -> live fr -> fpose fr <> None -> MapFor c (fB fr) a ->
  Sizes c (fB fr) (fH fr) (fW fr) n -> (forall b, b < fB fr -> npoints a b <= n) ->
  exists o s' g' a', map_step c inplace (s, g, v) = (Ok o, (s', g', v)) /\ (o = PSelf <-> inplace = true) /\ Ready a' (returned o s') /\
    Mapped c a fr a' /\ MapFor c (fB fr) a' /\ qp a' <> None /\ (forall b, b < fB fr -> npoints a' b <= npoints a b + fH fr * fW fr) /\ Inv true g' cf fr /\
    (s_map c = Aggregate -> inplace = false -> Hist RF s' a).
Proof.
  intros Hcf HR HI HL HT HM HS Hn. unfold map_step, Mapped, MapFor, Sizes in *. destruct (s_map c) as [|d t sg].
  - destruct (aggregate_inv s a g cf fr q inplace HR HI HL) as (o & s' & g' & a' & E & H1 & H2 & H3 & H4 & H5); [intros K; apply (HM K)|].
    exists o, s', g', a'. split; [apply ml_ok, E|]. split; [exact H1|]. split; [exact H2|]. split; [split; [apply (PointcloudsProofs.Rep_Batch RF _ _ (PointcloudsHistProofs.Hist_Rep RF _ _ (proj1 H2)))|split; assumption]|].
    split; [intros _; split; [apply H3|exact H3]|]. split; [apply (proj1 H3 Points); discriminate|]. split; [|split; [exact H4|intros _ ->; exact (aggregate_keeps _ _ _ _ _ _ (proj1 HR) E)]].
    intros b Hb. rewrite !npoints_rows, (H5 Points b ltac:(discriminate) Hb), app_length. unfold frame_rows. rewrite map_length. pose proof (chosen_bound fr b). lia.
  - assert (Ecf : cf = false) by (destruct cf; [discriminate (Hcf eq_refl)|reflexivity]). clear Hcf. subst cf. destruct HS as ((x & -> & Hx) & S1 & S2 & S3 & S4). destruct HL as (HL1 & HB0 & HH & HW).
    assert (Hfit : fits_float32 a fr) by (repeat split; try assumption; intros b Hb; specialize (Hn b Hb); lia).
    destruct (update_ok f32 s a g fr q d t x inplace HR HI HL1 HB0 HH HW Hx) as (rows & o & s' & g' & a' & E & Ho & HC & H1 & H2 & H3 & H4).
    + intros K. destruct (HM K) as [K1 K2]. auto.
    + apply fits_small, Hfit.
    + exists o, s', g', a'. split; [apply ml_ok, E|].
      assert (K : (o = PSelf <-> inplace = true) /\ Ready a' (returned o s')).
      { destruct o; cbn [returned]; [destruct Ho as [-> Ho]; tauto|]. destruct Ho as (-> & Ho & _). split; [split; discriminate|exact Ho]. }
      destruct K as [K1 K2]. split; [exact K1|]. split; [exact K2|]. split; [split; [apply (PointcloudsProofs.Rep_Batch RF _ _ (PointcloudsHistProofs.Hist_Rep RF _ _ (proj1 K2)))|]; split; [exact H2|]; exists rows; split; [exact H1|exact HC]|].
      split; [intros _; split; [apply H1|exact H2]|]. split; [apply (proj1 H2 Points)|]. split; [|split; [exact H4|discriminate]].
      intros b Hb. destruct H1 as [_ H1]. destruct (H1 b Hb) as [-> _]. apply Nat.add_le_mono_l. unfold fresh_pixels. etransitivity; [apply filter_len|]. apply chosen_bound.
Qed.

Definition keeps_prev (v : option rgbd) (pf : option frames) : Prop := opt_rel (fun v pf => exists q cf, Inv q v cf pf) v pf.
Lemma step_cf c s a g q cf fr v pf n inplace : (cf = true -> s_map c = Aggregate /\ (is_gt (s_odom c) = true \/ v = None)) -> Ready a s -> Inv q g cf fr -> live fr -> MapFor c (fB fr) a -> Ratio c ->
  opt_rel (prev_ok fr) v pf -> (is_gt (s_odom c) = false -> v <> None -> qp a <> None) -> (is_gt (s_odom c) = true \/ v = None -> fpose fr <> None) ->
  Sizes c (fB fr) (fH fr) (fW fr) n -> (forall b, b < fB fr -> npoints a b <= n) ->
  match step c true true true inplace (s, g, v) with
  | (Ok (o, t), (s', g', v')) => (o = PSelf <-> inplace = true) /\ v' = v /\ exists T a', Ready a' (returned o s') /\ Poses fr t (fun b _ => T b) /\
      Localised c a pf fr T /\ Mapped c a (posed T fr) a' /\ MapFor c (fB fr) a' /\ qp a' <> None /\
      (forall b, b < fB fr -> npoints a' b <= npoints a b + fH fr * fW fr) /\ Inv true g' cf (posed T fr) /\
      (s_map c = Aggregate -> inplace = false -> Hist RF s' a)
  | (Err e, (s', g', v')) => RegistrationFails c a pf fr e /\ v' = v /\ Ready a s' /\ exists P, Inv true g' cf (posed P fr)
  end.
Proof.
  intros Hcf HR HI HL HM Hds Hprev Hne Hpose HS Hn. unfold step. cbn [guard]. rewrite !(mb_lift _ _ _ tt eq_refl).
  pose proof (localize_cf c s a g q cf fr v pf HR HI HL HM Hds Hprev Hne Hpose (fun H => proj2 (Hcf H))) as K.
  destruct (localize c (s, g, v)) as [[t|e] [[s1 g1] v1]] eqn:E; [|rewrite (mb_err _ _ _ _ _ E); exact K].
  destruct K as (-> & HR1 & T & HP & HLo & po & HI1). rewrite (mb_ok _ _ _ _ _ E).
  destruct (set_poses_inv _ _ _ _ t (fun b _ => T b) HI1 HP) as (g2 & E2 & HI2). change (with_fpose (Some (fun b _ => T b)) (with_fpose po fr)) with (posed T fr) in HI2.
  rewrite (mb_ok _ _ _ _ _ (live_ok' _ s1 g1 _ _ _ E2)).
  destruct (map_step_cf c s1 a g2 true cf (posed T fr) v n inplace (fun H => proj1 (Hcf H)) HR1 HI2 HL ltac:(discriminate) HM HS Hn) as (o & s3 & g3 & a' & E3 & H1 & H2 & H3 & H4 & H5 & H6 & H7 & H8).
  rewrite (mb_ok _ _ _ _ _ E3). rewrite (mb_ok _ _ _ _ _ (live_ok' get s3 g3 _ _ _ eq_refl)).
  pose proof H7 as (_ & _ & _ & _ & _ & Apo & _). cbn [fpose posed with_fpose] in Apo.
  destruct (r_poses g3) as [t'|]; [|destruct Apo]. cbn [opt_rel] in Apo. cbn [ret].
  split; [exact H1|]. split; [reflexivity|]. exists T, a'. split; [exact H2|]. split; [exact Apo|]. repeat (split; [assumption|]). exact H8.
Qed.

Lemma step_ok c s a g q fr v pf n inplace : Ready a s -> Inv q g false fr -> live fr -> MapFor c (fB fr) a -> Ratio c ->
  opt_rel (prev_ok fr) v pf -> (is_gt (s_odom c) = false -> v <> None -> qp a <> None) -> (is_gt (s_odom c) = true \/ v = None -> fpose fr <> None) ->
  Sizes c (fB fr) (fH fr) (fW fr) n -> (forall b, b < fB fr -> npoints a b <= n) ->
  match step c true true true inplace (s, g, v) with
  | (Ok (o, t), (s', g', v')) => (o = PSelf <-> inplace = true) /\ v' = v /\ exists T a', Ready a' (returned o s') /\ Poses fr t (fun b _ => T b) /\
      Localised c a pf fr T /\ Mapped c a (posed T fr) a' /\ MapFor c (fB fr) a' /\ qp a' <> None /\
      (forall b, b < fB fr -> npoints a' b <= npoints a b + fH fr * fW fr) /\ Inv true g' false (posed T fr) /\
      (s_map c = Aggregate -> inplace = false -> Hist RF s' a)
  | (Err e, (s', g', v')) => RegistrationFails c a pf fr e /\ v' = v /\ Ready a s' /\ exists P, Inv true g' false (posed P fr)
  end.
Proof. apply step_cf. discriminate. Qed.

(* ---------------- sequences *)
Definition wide (fr : frames) : Prop := 0 < fB fr /\ 2 <= fH fr /\ 2 <= fW fr.
Lemma frame_at_ok q g cf fr l : Inv q g cf fr -> 0 < fB fr -> l < fL fr -> exists o, frame_at l g = Ok o /\ Inv false o cf (moment l fr).
Proof.
  intros HI HB Hl. unfold frame_at, moment.
  assert (A0 : Addresses1 (ESlice None None None) (fB fr) (seq 0 (fB fr))) by apply full_slice.
  assert (A1 : Addresses1 (EInt (Z.of_nat l)) (fL fr) [l]).
  { exists l. split; [|reflexivity]. split; [exact Hl|]. left. reflexivity. }
  destruct (elem_pos_ok _ _ _ A0 ltac:(discriminate)) as [P0 F0].
  destruct (elem_pos_ok _ _ _ A1 ltac:(intros K; injection K as K; lia)) as [P1 F1].
  destruct (getitem_pos _ _ _ _ (RTuple [ESlice None None None; EInt (Z.of_nat l)]) _ _ _ _ HI eq_refl P0 P1 F0 F1) as [_ G].
  apply G; [|discriminate]. destruct (fB fr); [lia|discriminate].
Qed.
Lemma moment_B l fr : fB (moment l fr) = fB fr.
Proof. cbn. apply seq_length. Qed.
Lemma moment_live l fr : wide fr -> live (moment l fr).
Proof. intros (H1 & H2 & H3). split; [reflexivity|]. rewrite moment_B. auto. Qed.
Lemma eye_poses_ok l fr : Poses (moment l fr) (eye_poses (fB fr)) (fun _ _ => mI).
Proof.
  split; [rewrite moment_B; reflexivity|]. intros b k Hb Hk i j Hi Hj. unfold ent, eye_poses, mI. reflexivity.
Qed.

Definition start_frame (seq_ : rgbd) (s : nat) (g : rgbd) : res rgbd :=
  match r_poses g with
  | None => if s =? 0 then match set_poses (TTen (eye_poses (r_B seq_))) g with (Ok _, g) => Ok g | (Err e, _) => Err e end else Ok g
  | Some _ => Ok g
  end.
Lemma start_frame_ok q seq_ cf fr l g : Inv q seq_ cf fr -> Inv false g cf (moment l fr) ->
  exists g', start_frame seq_ l g = Ok g' /\ Inv false g' cf (input_frame fr l).
Proof.
  intros Hs HI. pose proof HI as (_ & _ & _ & _ & _ & Apo & _). unfold start_frame, input_frame.
  destruct Hs as ((_ & EB & _) & _). destruct (r_poses g) as [t|] eqn:Et; cbn [fpose moment pick] in Apo; destruct (fpose fr) as [T0|]; cbn [option_map opt_rel] in Apo; try contradiction.
  - eauto.
  - destruct l as [|l]; cbn [Nat.eqb]; [|eauto]. rewrite EB.
    destruct (set_poses_inv _ _ _ _ _ _ HI (eye_poses_ok 0 fr)) as (g1 & E1 & HI1). rewrite E1. exists g1. split; [reflexivity|exact HI1].
Qed.

Section Loop.
Variables (c : slam) (inpl : nat -> bool) (seq_ : rgbd) (q cf : bool) (fr : frames).
Hypothesis HI : Inv q seq_ cf fr.
(* channels-first images: aggregation only, and no registration *)
Hypothesis Hcf : cf = true -> s_map c = Aggregate /\ (is_gt (s_odom c) = true \/ fL fr <= 1).
Hypothesis HW : wide fr.
Hypothesis Hds : Ratio c.
Hypothesis HS : Sizes c (fB fr) (fH fr) (fW fr) (fL fr * (fH fr * fW fr)).
(* ground truth needs poses, except for the first frame *)
Hypothesis Hgt : is_gt (s_odom c) = true -> 2 <= fL fr -> fpose fr <> None.

Definition UT (U : nat -> nat -> mat) : nat -> nat -> mat := fun b l => U l b.
Definition prev_now (s : nat) (U : nat -> nat -> mat) (prev : option rgbd) : Prop := opt_rel (fun v pf => exists q, Inv q v cf pf) prev (previous c fr (UT U) s).
Definition upd {A} (f : nat -> A) (s : nat) (x : A) : nat -> A := fun l => if l =? s then x else f l.

Lemma input_frame_posed U l : posed (fun b => UT U b l) (input_frame fr l) = posed (fun b => UT U b l) (moment l fr).
Proof. clear Hgt Hcf. unfold input_frame. destruct (fpose fr); [reflexivity|]. destruct l; reflexivity. Qed.
Lemma input_B l : fB (input_frame fr l) = fB fr.
Proof. clear Hgt Hcf. unfold input_frame. destruct (fpose fr); [apply moment_B|]. destruct (Nat.eqb_spec l 0); cbn [fB posed with_fpose]; apply moment_B. Qed.
Lemma input_live l : live (input_frame fr l).
Proof. clear Hgt Hcf. unfold input_frame. destruct (fpose fr); [now apply moment_live|]. destruct (Nat.eqb_spec l 0); [exact (moment_live 0 fr HW)|now apply moment_live]. Qed.
Lemma input_HW l : fH (input_frame fr l) = fH fr /\ fW (input_frame fr l) = fW fr.
Proof. clear Hgt Hcf. unfold input_frame. destruct (fpose fr); [split; reflexivity|]. destruct (Nat.eqb_spec l 0); split; reflexivity. Qed.
Lemma input_pose l : l < fL fr -> is_gt (s_odom c) = true \/ l = 0 -> fpose (input_frame fr l) <> None.
Proof.
  intros Hl Hx. unfold input_frame. destruct (fpose fr) as [T|] eqn:E; [cbn [fpose moment pick]; rewrite E; discriminate|].
  destruct (Nat.eqb_spec l 0); [discriminate|]. destruct Hx as [Hx|]; [|lia]. specialize (Hgt Hx ltac:(lia)). congruence.
Qed.

Lemma traj_ext n maps U maps' U' : (forall l, l <= n -> maps' l = maps l) -> (forall l, l < n -> U' l = U l) ->
  Trajectory c fr n maps (UT U) -> Trajectory c fr n maps' (UT U').
Proof.
  intros Hm HU [H0 H]. split; [rewrite Hm by lia; exact H0|]. intros l Hl. destruct (H l Hl) as [H1 H2].
  rewrite !Hm by lia. change (fun b => UT U' b l) with (U' l). change (fun b => UT U b l) with (U l) in *.
  rewrite !HU by lia. split; [|exact H2]. unfold previous in *. destruct (s_odom c); [exact H1|]. destruct l as [|k]; [exact H1|].
  change (fun b => UT U' b k) with (U' k). change (fun b => UT U b k) with (U k) in *. rewrite HU by lia. exact H1.
Qed.

Lemma loop_cf n : forall s p prev maps U, s + n = fL fr -> Ready (maps s) p -> Trajectory c fr s maps (UT U) -> prev_now s U prev ->
  MapFor c (fB fr) (maps s) -> (0 < s -> qp (maps s) <> None) -> (forall b, b < fB fr -> npoints (maps s) b <= s * (fH fr * fW fr)) ->
  match client c inpl seq_ n s p prev with
  | Ok (p', ts) => length ts = n /\ exists maps' U', Trajectory c fr (fL fr) maps' (UT U') /\ Ready (maps' (fL fr)) p' /\ (forall l, l < s -> U' l = U l) /\
      forall k, k < n -> exists t, nth_error ts k = Some t /\ Poses (moment (s + k) fr) t (fun b _ => U' (s + k) b)
  | Err e => exists l maps' U', l < fL fr /\ Trajectory c fr l maps' (UT U') /\ RegistrationFails c (maps' l) (previous c fr (UT U') l) (input_frame fr l) e
  end.
Proof.
  induction n as [|n IH]; intros s p prev maps U Hsn HR HTr Hpv HM Hqp Hnp; cbn [client].
  { replace s with (fL fr) in * by lia. split; [reflexivity|]. exists maps, U. split; [exact HTr|]. split; [exact HR|]. split; [reflexivity|]. intros k Hk. lia. }
  pose proof HW as (HB0 & HH & HWW).
  destruct (frame_at_ok q seq_ cf fr s HI HB0 ltac:(lia)) as (g0 & E0 & HI0). rewrite E0. cbn [rbind].
  destruct (start_frame_ok q seq_ cf fr s g0 HI HI0) as (g & E1 & HI1). fold (start_frame seq_ s g0). rewrite E1. cbn [rbind].
  pose proof (input_HW s) as [EH EW].
  assert (Hpv0 : match previous c fr (UT U) s with Some _ => 0 < s /\ is_gt (s_odom c) = false | None => is_gt (s_odom c) = true \/ s = 0 end).
  { unfold previous. destruct (s_odom c); [now left|]. destruct s; [now right|]. cbn. split; [lia|reflexivity]. }
  assert (Hcf' : cf = true -> s_map c = Aggregate /\ (is_gt (s_odom c) = true \/ prev = None)).
  { intros Ec. destruct (Hcf Ec) as [C1 C2]. split; [exact C1|]. destruct C2 as [C2|C2]; [now left|]. right. assert (s = 0) by lia. subst s.
    unfold prev_now, previous in Hpv. destruct prev as [v|]; [|reflexivity]. destruct (s_odom c); destruct Hpv. }
  pose proof (step_cf c p (maps s) g false cf (input_frame fr s) prev (previous c fr (UT U) s) (fL fr * (fH fr * fW fr)) (inpl s) Hcf' HR HI1 (input_live s)) as K.
  rewrite input_B, EH, EW in K.
  specialize (K HM Hds).
  assert (K1 : opt_rel (prev_ok (input_frame fr s)) prev (previous c fr (UT U) s)).
  { unfold prev_now in Hpv. unfold previous in *. destruct (s_odom c); [destruct prev; [destruct Hpv|exact I]|]. destruct s as [|k]; [destruct prev; [destruct Hpv|exact I]|].
    destruct prev as [v|]; [|destruct Hpv]. cbn [opt_rel] in *. destruct Hpv as (q' & Hv). split; [eauto|]. split; [reflexivity|]. split; [|discriminate].
    rewrite input_B. cbn [fB posed with_fpose]. apply moment_B. }
  specialize (K K1).
  assert (K2 : is_gt (s_odom c) = false -> prev <> None -> qp (maps s) <> None).
  { intros G P. apply Hqp. unfold prev_now in Hpv. destruct (previous c fr (UT U) s); [apply Hpv0|destruct prev; [destruct Hpv|congruence]]. }
  specialize (K K2).
  assert (K3 : is_gt (s_odom c) = true \/ prev = None -> fpose (input_frame fr s) <> None).
  { intros P. apply input_pose; [lia|]. destruct P as [P|P]; [now left|]. subst prev. unfold prev_now in Hpv. destruct (previous c fr (UT U) s); [destruct Hpv|exact Hpv0]. }
  specialize (K K3 HS). 
  assert (K4 : forall b, b < fB fr -> npoints (maps s) b <= fL fr * (fH fr * fW fr)).
  { intros b Hb. etransitivity; [apply Hnp, Hb|]. apply Nat.mul_le_mono_r. lia. }
  specialize (K K4). unfold start_frame in E1.
  destruct (step c true true true (inpl s) (p, g, prev)) as [[[o t]|e] [[p1 g1] v1]].
  - destruct K as (Ho & -> & T & a' & HR' & HP & HLo & HMa & HMF & Hqa & Hna & HI2 & _).
    assert (EQ : posed T (input_frame fr s) = posed T (moment s fr)).
    { pose proof (input_frame_posed (fun _ => T) s) as Q. exact Q. }
    rewrite EQ in *.
    assert (HP' : Poses (posed T (moment s fr)) t (fun b _ => T b)).
    { destruct HP as [HP1 HP2]. split; [|intros b l Hb Hl; apply HP2]; cbn [fB fL posed with_fpose] in *.
      - rewrite HP1. rewrite input_B, moment_B. unfold input_frame. destruct (fpose fr); [reflexivity|]. destruct (Nat.eqb_spec s 0); reflexivity.
      - rewrite input_B. rewrite moment_B in Hb. exact Hb.
      - destruct (input_live s) as [-> _]. exact Hl. }
    destruct (set_poses_inv _ _ _ _ t (fun b _ => T b) HI2 HP') as (g2 & E2 & HI3). rewrite E2. cbn [rbind].
    change (with_fpose (Some (fun b _ => T b)) (posed T (moment s fr))) with (posed T (moment s fr)) in HI3.
    assert (HT2 : Trajectory c fr (S s) (upd maps (S s) a') (UT (upd U s T))).
    { destruct (traj_ext s maps U (upd maps (S s) a') (upd U s T)) as [Z0 Z]; [..|exact HTr|].
      - intros l Hl. unfold upd. destruct (Nat.eqb_spec l (S s)); [lia|reflexivity].
      - intros l Hl. unfold upd. destruct (Nat.eqb_spec l s); [lia|reflexivity].
      - split; [exact Z0|]. intros l Hl. destruct (Nat.eq_dec l s) as [->|]; [|apply Z; lia].
        change (fun b => UT (upd U s T) b s) with (upd U s T s).
        replace (upd U s T s) with T by (unfold upd; now rewrite Nat.eqb_refl).
        replace (upd maps (S s) a' (S s)) with a' by (unfold upd; now rewrite Nat.eqb_refl).
        replace (upd maps (S s) a' s) with (maps s) by (unfold upd; destruct (Nat.eqb_spec s (S s)); [lia|reflexivity]).
        split; [|exact HMa].
        replace (previous c fr (UT (upd U s T)) s) with (previous c fr (UT U) s); [exact HLo|].
        unfold previous. destruct (s_odom c); [reflexivity|]. destruct s as [|k]; [reflexivity|].
        change (fun b => UT (upd U (S k) T) b k) with (upd U (S k) T k). replace (upd U (S k) T k) with (U k); [reflexivity|].
        unfold upd. destruct (Nat.eqb_spec k (S k)); [lia|reflexivity]. }
    assert (Eup : upd maps (S s) a' (S s) = a') by (unfold upd; now rewrite Nat.eqb_refl).
    specialize (IH (S s) (returned o p1) (if is_gt (s_odom c) then None else Some g2) (upd maps (S s) a') (upd U s T)).
    rewrite Eup in IH. specialize (IH ltac:(lia) HR' HT2).
    assert (K5 : prev_now (S s) (upd U s T) (if is_gt (s_odom c) then None else Some g2)).
    { unfold prev_now, previous. destruct (s_odom c); [exact I|]. cbn [is_gt opt_rel]. exists true.
      change (fun b => UT (upd U s T) b s) with (upd U s T s). replace (upd U s T s) with T by (unfold upd; now rewrite Nat.eqb_refl). exact HI3. }
    specialize (IH K5 HMF ltac:(auto)).
    assert (K6 : forall b, b < fB fr -> npoints a' b <= S s * (fH fr * fW fr)).
    { intros b Hb. specialize (Hna b Hb). specialize (Hnp b Hb). cbn [Nat.mul]. lia. }
    specialize (IH K6).
    destruct (client c inpl seq_ n (S s) (returned o p1) (if is_gt (s_odom c) then None else Some g2)) as [[p' ts]|e]; cbn [rbind fst snd]; [|exact IH].
    destruct IH as (Hlen & maps' & U' & I1 & I2 & I3 & I4). split; [cbn [length]; lia|]. exists maps', U'. split; [exact I1|]. split; [exact I2|]. split.
    + intros l Hl. rewrite I3 by lia. unfold upd. destruct (Nat.eqb_spec l s); [lia|reflexivity].
    + intros [|k] Hk.
      * exists t. split; [reflexivity|]. rewrite Nat.add_0_r. rewrite I3 by lia. replace (upd U s T s) with T by (unfold upd; now rewrite Nat.eqb_refl). exact HP'.
      * replace (s + S k) with (S s + k) by lia. apply I4. lia.
  - exists s, maps, U. split; [lia|]. split; [exact HTr|apply K].
Qed.
End Loop.

Lemma forward_client c seq_ n : forall s p prev, forward_loop c n s p prev seq_ = (client c (fun _ => true) seq_ n s p prev, seq_).
Proof.
  induction n as [|n IH]; intros s p prev; [reflexivity|]. cbn [forward_loop client]. rewrite mb_get.
  destruct (frame_at s seq_) as [g|e] eqn:E0; [|reflexivity]. rewrite (mb_lift _ _ _ g eq_refl). cbn [rbind].
  match goal with |- context [lift ?x] => destruct x as [g1|e] eqn:E1 end; [|reflexivity].
  rewrite (mb_lift _ _ _ g1 eq_refl). cbn [rbind].
  destruct (step c true true true true (p, g1, prev)) as [[[o t]|e] [[p1 g2] v1]]; [|reflexivity].
  match goal with |- context [lift ?x] => destruct x as [g3|e] eqn:E2 end; [|reflexivity].
  rewrite (mb_lift _ _ _ g3 eq_refl). cbn [rbind]. unfold mbind at 1. rewrite IH. unfold returned.
  destruct (client c (fun _ => true) seq_ n (S s) match o with PSelf => p1 | PNew q => q end (if is_gt (s_odom c) then None else Some g3)); reflexivity.
Qed.
