(* C45, C46: no map update and no localisation changes the images, intrinsics or layout of the frame it is given, whatever the outcome. *)
From Coq Require Import Reals List Arith Bool ZArith Lia.
From Verif Require Import Res Fld StructUtilsModel PointcloudsModel PointcloudsSpec PointcloudsHist PointcloudsPropProofs MatSpec GeomSpec TensorModel GeomModel RgbdModel RgbdSpec RgbdProofs RgbdOps RgbdCloud RgbdPropProofs
  FusionModel FusionSpec FusionMap Se3Model SolveModel IcpModel OdomSpec SlamModel SlamSpec FusionPropProofs DownProofs SlamProofs SlamPropProofs.
Import ListNotations.
Local Open Scope nat_scope.

(* the inputs of a frame object *)
Definition inputs_of (g : rgbd) := (r_rgb g, r_depth g, r_intr g, r_poses g, r_cf g, (r_B g, r_L g, r_h g, r_w g)).
Definition KR {A} (m : M rgbd A) : Prop := forall g, inputs_of (snd (m g)) = inputs_of g.
Definition KS {A} (m : MS A) : Prop := forall w, inputs_of (snd (snd (m w))) = inputs_of (snd w).

Lemma kr_bind {A B} (m : M rgbd A) (k : A -> M rgbd B) : KR m -> (forall x, KR (k x)) -> KR (mbind m k).
Proof. intros H K g. unfold mbind. specialize (H g). destruct (m g) as [[x|e] g']; cbn [snd] in *; [rewrite K|]; exact H. Qed.
Lemma kr_ret {A} (x : A) : KR (ret x). Proof. intros g. reflexivity. Qed.
Lemma kr_raise {A} e : KR (@raise rgbd A e). Proof. intros g. reflexivity. Qed.
Lemma kr_lift {A} (r : res A) : KR (lift r). Proof. intros g. reflexivity. Qed.
Lemma kr_get : KR get. Proof. intros g. reflexivity. Qed.
Lemma kr_mod f : (forall g, inputs_of (f g) = inputs_of g) -> KR (modify f). Proof. intros H g. apply H. Qed.
Ltac kr := repeat first [ apply kr_bind; [|intros ?] | apply kr_ret | apply kr_raise | apply kr_lift | apply kr_get | (apply kr_mod; intros ?; reflexivity)
  | match goal with |- KR (match ?x with _ => _ end) => destruct x end ].
Lemma kr_mask : KR valid_depth_mask. Proof. unfold valid_depth_mask. kr. Qed.
Lemma kr_masked x : KR (masked x). Proof. unfold masked. apply kr_bind; [apply kr_mask|intros ?; kr]. Qed.
Lemma kr_cached f m : KR m -> KR (cached f m). Proof. intros H. unfold cached. apply kr_bind; [apply kr_get|intros s]. destruct (f s); [apply kr_ret|]. apply kr_bind; [exact H|intros ?; kr]. Qed.
Ltac kr' := repeat first [ apply kr_mask | apply kr_masked | apply kr_cached | progress kr ].
Lemma kr_vm : KR vertex_map. Proof. unfold vertex_map, compute_vertex_map. kr'. Qed.
Lemma kr_gvm : KR global_vertex_map. Proof. unfold global_vertex_map, compute_global_vertex_map. kr'; try apply kr_vm; kr'. Qed.
Lemma kr_nm : KR normal_map. Proof. unfold normal_map, compute_normal_map. apply kr_cached. apply kr_bind; [apply kr_vm|intros ?]. kr'. Qed.
Lemma kr_gnm : KR global_normal_map. Proof. unfold global_normal_map, compute_global_normal_map. apply kr_cached. apply kr_bind; [apply kr_get|intros s]. destruct (r_poses s); (apply kr_bind; [apply kr_nm|intros ?]); kr'. Qed.
Lemma kr_parts glob : KR (cloud_parts glob).
Proof. unfold cloud_parts. apply kr_bind; [destruct glob; [apply kr_gvm|apply kr_vm]|intros ?]. apply kr_bind; [destruct glob; [apply kr_gnm|apply kr_nm]|intros ?]. kr. Qed.
Lemma kr_clouds glob filt : KR (pointclouds_from_rgbdimages glob filt).
Proof.
  unfold pointclouds_from_rgbdimages. apply kr_bind; [apply kr_get|intros s]. apply kr_bind; [apply kr_lift|intros _]. apply kr_bind; [apply kr_lift|intros o]. destruct o as [|s']; [|apply kr_lift].
  destruct (negb filt && (r_B s =? 0)); [apply kr_bind; [apply kr_parts|intros ?; apply kr_raise]|].
  unfold build_clouds. apply kr_bind; [apply kr_parts|intros [v n]]. destruct filt; kr'.
Qed.

Lemma ks_bind {A B} (m : MS A) (k : A -> MS B) : KS m -> (forall x, KS (k x)) -> KS (mbind m k).
Proof. intros H K w. unfold mbind. specialize (H w). destruct (m w) as [[x|e] w']; cbn [snd] in *; [rewrite K|]; exact H. Qed.
Lemma ks_ret {A} (x : A) : KS (ret x). Proof. intros g. reflexivity. Qed.
Lemma ks_raise {A} e : KS (@raise (pc RF * rgbd) A e). Proof. intros g. reflexivity. Qed.
Lemma ks_lift {A} (r : res A) : KS (lift r). Proof. intros g. reflexivity. Qed.
Lemma ks_onp {A} (m : M (pc RF) A) : KS (onp m). Proof. intros [p g]. unfold onp. cbn [fst snd]. destruct (m p). reflexivity. Qed.
Lemma ks_onr {A} (m : M rgbd A) : KR m -> KS (onr m). Proof. intros H [p g]. unfold onr. cbn [fst snd]. specialize (H g). destruct (m g). exact H. Qed.
Lemma ks_obj {A} (m : M (pc RF) A) o : KS (on_obj m o). Proof. intros w. unfold on_obj. destruct (m o) as [[x|e] o']; reflexivity. Qed.
Ltac ks := repeat first [ apply ks_bind; [|intros ?] | apply ks_ret | apply ks_raise | apply ks_lift | apply ks_onp | apply ks_obj
  | (apply ks_onr; first [apply kr_get|apply kr_vm|apply kr_gvm|apply kr_nm|apply kr_gnm|apply kr_mask|apply kr_clouds|kr; fail])
  | match goal with |- KS (match ?x with _ => _ end) => destruct x end ].
Lemma ks_active : KS find_active_map_points. Proof. unfold find_active_map_points. cbv zeta. ks. Qed.
Lemma ks_similar t d a : KS (find_similar_map_points t d a). Proof. unfold find_similar_map_points. cbv zeta. ks. Qed.
Lemma ks_best rnd t : KS (find_best_unique_correspondences rnd t). Proof. unfold find_best_unique_correspondences. ks. Qed.
Lemma ks_corr rnd d a : KS (find_correspondences rnd d a).
Proof. unfold find_correspondences. apply ks_bind; [apply ks_active|intros t]. apply ks_bind; [apply ks_similar|intros [t' m]]. apply ks_best. Qed.
Lemma ks_append np inplace : KS (append_to np inplace).
Proof.
  unfold append_to. destruct inplace.
  - intros [p g]. cbn [fst snd]. destruct (append_points RF (p, np)) as [[u|e] [p' n']]; reflexivity.
  - ks.
Qed.
Lemma ks_merge vm nm rgb al rows : KS (merge_points vm nm rgb al rows). Proof. unfold merge_points. cbv zeta. ks. Qed.
Lemma ks_fuse t sg inplace : KS (fuse_with_map t sg inplace).
Proof.
  unfold fuse_with_map. cbv zeta. repeat (first [apply ks_merge | apply ks_append | progress ks | (apply ks_onr; apply kr_bind; [apply kr_get|intros s]; destruct (r_rgb s); [apply kr_ret|apply kr_raise])]).
Qed.
Lemma ks_map c inplace : KS (match s_map c with Aggregate => update_map_aggregate inplace | Fusion d t s => update_map_fusion f32 d t s inplace end).
Proof.
  destruct (s_map c).
  - unfold update_map_aggregate. apply ks_bind; [apply ks_onr, kr_clouds|intros ?; apply ks_append].
  - unfold update_map_fusion. apply ks_bind; [apply ks_corr|intros ?; apply ks_fuse].
Qed.

(* ---------------------------------------------------------------- step with ground-truth odometry *)
Lemma on_ml_keep {A} (m : MS A) w : KS m -> inputs_of (snd (fst (snd (on_ml m w)))) = inputs_of (snd (fst w)).
Proof. intros H. unfold on_ml. specialize (H (fst w)). destruct (m (fst w)) as [r ml]. exact H. Qed.
Lemma map_step_keep c inplace w : inputs_of (snd (fst (snd (map_step c inplace w)))) = inputs_of (snd (fst w)).
Proof. apply on_ml_keep, ks_map. Qed.
Lemma mb_inv {S A B} (m : M S A) (k : A -> M S B) s v s' : mbind m k s = (Ok v, s') -> exists x s1, m s = (Ok x, s1) /\ k x s1 = (Ok v, s').
Proof. unfold mbind. destruct (m s) as [[x|e] s1]; [|discriminate]. intros H. exists x, s1. split; [reflexivity|exact H]. Qed.
Lemma localize_gt c w r w' : s_odom c = OGt -> localize c w = (Ok r, w') -> r_poses (snd (fst w)) = Some r /\ snd (fst w') = snd (fst w).
Proof.
  intros Ho H. unfold localize, get_prev in H. rewrite Ho in H. cbn [is_gt] in H.
  apply mb_inv in H. destruct H as (v & w1 & H1 & H). apply mb_inv in H1. destruct H1 as (w0 & w2 & H1 & H2). injection H1 as <- <-. injection H2 as <- <-.
  apply mb_inv in H. destruct H as (u & w2 & H1 & H).
  assert (E : snd (fst w2) = snd (fst w)).
  { destruct w as [[p g] prev]. cbn [snd fst] in *. destruct prev as [v|].
    - injection H1 as _ <-. reflexivity.
    - apply mb_inv in H1. destruct H1 as (u2 & w3 & H1 & H2). injection H2 as _ <-. unfold on_map, on_ml, onp in H1. cbn [fst snd] in H1. destruct (has RF Points p) as [r0 p0]. injection H1 as _ <-. reflexivity. }
  rewrite <- E. clear E H1.
  assert (H' : (do g <- on_live get; match r_poses g with Some t => ret t | None => raise ValueError end) w2 = (Ok r, w')) by (destruct (snd w); exact H).
  clear H. apply mb_inv in H'. destruct H' as (g & w3 & H1 & H). unfold on_live, on_ml, onr in H1. destruct w2 as [[p g2] prev]. cbn in H1. injection H1 as <- <-.
  cbn [fst snd]. destruct (r_poses g2); [|discriminate]. injection H as <- <-. split; reflexivity.
Qed.
Lemma step_gt c inplace w o t w' : s_odom c = OGt -> step c true true true inplace w = (Ok (o, t), w') -> r_poses (snd (fst w)) = Some t.
Proof.
  intros Ho H. unfold step in H. do 3 (apply mb_inv in H; destruct H as (? & ? & HH & H); injection HH as _ <-).
  apply mb_inv in H. destruct H as (t1 & w1 & H1 & H). apply (localize_gt c _ _ _ Ho) in H1. destruct H1 as [E1 E2].
  apply mb_inv in H. destruct H as (u & w2 & H1 & H).
  assert (E3 : r_poses (snd (fst w2)) = Some t1).
  { destruct w1 as [[p g] prev]. unfold on_live, on_ml, onr in H1. cbn [fst snd] in H1. destruct (set_poses (TTen t1) g) as [r0 g0] eqn:ES. injection H1 as -> <-. cbn [fst snd].
    unfold set_poses in ES. apply mb_inv in ES. destruct ES as (s1 & s2 & ES1 & ES). injection ES1 as <- <-. apply mb_inv in ES. destruct ES as (s1 & s2 & ES1 & ES). injection ES as _ <-. reflexivity. }
  apply mb_inv in H. destruct H as (o2 & w3 & H2 & H). pose proof (map_step_keep c inplace w2) as K. rewrite H2 in K. cbn [snd] in K.
  assert (E4 : r_poses (snd (fst w3)) = Some t1) by (rewrite <- E3; unfold inputs_of in K; congruence).
  apply mb_inv in H. destruct H as (g3 & w4 & H3 & H). unfold on_live, on_ml, onr in H3. destruct w3 as [[p g] prev]. cbn in H3. injection H3 as <- <-. cbn [fst snd] in E4. rewrite E4 in H. injection H as _ <- _. congruence.
Qed.
Lemma client_gt c inpl q g cf fr T0 : s_odom c = OGt -> Inv q g cf fr -> 0 < fB fr -> fpose fr = Some T0 -> forall n s p prev m ts, s + n <= fL fr ->
  client c inpl g n s p prev = Ok (m, ts) -> length ts = n /\ forall k, k < n -> exists t, nth_error ts k = Some t /\ Poses (moment (s + k) fr) t (fun b _ => T0 b (s + k)).
Proof.
  intros Ho HI HB HT. induction n as [|n IH]; intros s p prev m ts Hs H.
  - cbn in H. injection H as <- <-. split; [reflexivity|]. intros k Hk. lia.
  - cbn [client] in H. destruct (frame_at_ok q g cf fr s HI HB ltac:(lia)) as (g0 & E0 & HI0). rewrite E0 in H. cbn [rbind] in H.
    assert (EP : exists t, r_poses g0 = Some t /\ Poses (moment s fr) t (fun b _ => T0 b s)).
    { destruct HI0 as (_ & _ & _ & _ & _ & HP & _). destruct (r_poses g0) as [t|]; unfold opt_rel in HP; cbn [moment pick fpose] in HP; rewrite HT in HP; cbn [option_map] in HP; [|contradiction].
      exists t. split; [reflexivity|]. destruct HP as [HP1 HP2]. split; [exact HP1|]. intros b l Hb Hl. specialize (HP2 b l Hb Hl).
      assert (Eb : nth b (seq 0 (fB fr)) 0 = b) by (rewrite seq_nth; [reflexivity|cbn [moment pick fB] in Hb; rewrite seq_length in Hb; exact Hb]).
      rewrite Eb in HP2. cbn [moment pick fL length] in Hl. replace l with 0 in HP2 |- * by lia. exact HP2. }
    destruct EP as (t0 & EP & HP). rewrite EP in H. cbn [rbind] in H.
    destruct (step c true true true (inpl s) (p, g0, prev)) as [[[o t]|e] [[p' g'] prev']] eqn:ES; [|discriminate].
    pose proof (step_gt c _ _ _ _ _ Ho ES) as E1. cbn [fst snd] in E1. rewrite EP in E1. injection E1 as <-.
    destruct (set_poses (TTen t0) g') as [[u|e] g2]; cbn [rbind] in H; [|discriminate].
    destruct (client c inpl g n (S s) (returned o p') (if is_gt (s_odom c) then None else Some g2)) as [[m1 ts1]|e] eqn:EC; cbn [rbind] in H; [|discriminate].
    injection H as <- <-. cbn [fst snd]. apply IH in EC; [|lia]. destruct EC as [L1 L2]. split; [cbn [length]; lia|]. intros [|k] Hk.
    + exists t0. split; [reflexivity|]. rewrite Nat.add_0_r. exact HP.
    + cbn [nth_error]. destruct (L2 k ltac:(lia)) as (t & K1 & K2). exists t. split; [exact K1|]. replace (s + S k) with (S s + k) by lia. exact K2.
Qed.
(* every successful call reproduces the given poses, whatever the layout, image size and mapper *)
Lemma p_gt_any c q g cf fr T0 m t g' : RHist q g cf fr -> 0 < fB fr -> s_odom c = OGt -> fpose fr = Some T0 -> forward c true g = (Ok (m, t), g') -> g' = g /\ Poses fr t T0.
Proof.
  intros HR HB Ho HT H. apply hist_inv in HR. rename HR into HI. unfold forward in H.
  apply mb_inv in H. destruct H as (u & s1 & H1 & H). injection H1 as _ <-. apply mb_inv in H. destruct H as (p & s1 & H1 & H). unfold lift in H1. injection H1 as _ <-.
  rewrite mb_get in H. apply mb_inv in H. destruct H as ([m1 ts] & s1 & H1 & H). rewrite forward_client in H1. injection H1 as H1 <-. injection H as <- <- <-. cbn [fst snd].
  assert (EL : r_L g = fL fr) by (apply HI). assert (EB : r_B g = fB fr) by (apply HI). rewrite EL in H1. rewrite EB.
  destruct (client_gt c _ q g cf fr T0 Ho HI HB HT (fL fr) 0 p None m1 ts ltac:(lia) H1) as [L1 L2]. split; [reflexivity|]. split.
  - unfold shape, stack_poses. cbn [dims rev app]. rewrite L1. reflexivity.
  - intros b l Hb Hl. destruct (L2 l Hl) as (t & K1 & [_ K2]). assert (Hb' : b < fB (moment (0 + l) fr)) by (cbn [moment pick fB]; rewrite seq_length; exact Hb).
    specialize (K2 b 0 Hb' ltac:(cbn; lia)). intros i j Hi Hj. specialize (K2 i j Hi Hj). cbn [Nat.add] in K2. rewrite <- K2. unfold ent, stack_poses. cbn [at_ app]. rewrite K1. reflexivity.
Qed.

(* ---------------------------------------------------------------- what a step leaves alone *)
(* the images, intrinsics, layout and sizes of a frame object *)
Definition images_of (g : rgbd) := (r_rgb g, r_depth g, r_intr g, r_cf g, (r_B g, r_L g, r_h g, r_w g)).
Lemma inputs_images g g' : inputs_of g = inputs_of g' -> images_of g = images_of g'.
Proof. unfold inputs_of, images_of. intros H. injection H as E1 E2 E3 E4 E5 E6 E7 E8 E9. congruence. Qed.
Definition KW {A} (m : MW A) : Prop := forall w, images_of (snd (fst (snd (m w)))) = images_of (snd (fst w)) /\ option_map inputs_of (snd (snd (m w))) = option_map inputs_of (snd w).
Lemma kw_bind {A B} (m : MW A) (k : A -> MW B) : KW m -> (forall x, KW (k x)) -> KW (mbind m k).
Proof. intros H K w. unfold mbind. specialize (H w). destruct (m w) as [[x|e] w']; cbn [snd] in *; [|exact H]. destruct H as [H1 H2]. destruct (K x w') as [K1 K2]. split; [rewrite K1|rewrite K2]; assumption. Qed.
Lemma kw_ret {A} (x : A) : KW (ret x). Proof. intros g. split; reflexivity. Qed.
Lemma kw_raise {A} e : KW (@raise world A e). Proof. intros g. split; reflexivity. Qed.
Lemma kw_lift {A} (r : res A) : KW (lift r). Proof. intros g. split; reflexivity. Qed.
Lemma kw_get : KW get. Proof. intros g. split; reflexivity. Qed.
Lemma kw_map {A} (m : M (pc RF) A) : KW (on_map m).
Proof. intros [[p g] v]. unfold on_map, on_ml, onp. cbn [fst snd]. destruct (m p). split; reflexivity. Qed.
Lemma kw_live {A} (m : M rgbd A) : (forall g, images_of (snd (m g)) = images_of g) -> KW (on_live m).
Proof. intros H [[p g] v]. unfold on_live, on_ml, onr. cbn [fst snd]. specialize (H g). destruct (m g). split; [exact H|reflexivity]. Qed.
Lemma kw_ml {A} (m : MS A) : KS m -> KW (on_ml m).
Proof. intros H [[p g] v]. unfold on_ml. cbn [fst snd]. specialize (H (p, g)). destruct (m (p, g)) as [r [p' g']]. cbn [fst snd] in *. split; [apply inputs_images; exact H|reflexivity]. Qed.
Lemma kw_mp {A} (m : MS A) : KS m -> KW (on_mp m).
Proof. intros H [[p g] v]. unfold on_mp. cbn [fst snd]. destruct v as [v|]; [|split; reflexivity]. specialize (H (p, v)). destruct (m (p, v)) as [r [p' g']]. cbn [fst snd option_map] in *. split; [reflexivity|]. f_equal. exact H. Qed.
Lemma images_set x g : images_of (snd (set_poses x g)) = images_of g.
Proof.
  unfold set_poses, mbind, get. destruct x as [|t|]; [reflexivity| |reflexivity]. unfold lift. destruct (assert_shape t (r_posesh g)); reflexivity.
Qed.
Lemma kr_down ds : KR (downsample_rgbdimages ds).
Proof. unfold downsample_rgbdimages. cbv zeta. kr'; try apply kr_gvm; try apply kr_gnm; try apply kr_vm; try apply kr_nm; kr'. Qed.
Lemma kw_localize c : KW (localize c).
Proof.
  unfold localize, get_prev. apply kw_bind; [apply kw_bind; [apply kw_get|intros ?; apply kw_ret]|intros v]. apply kw_bind.
  - destruct v as [g|]; [destruct (is_gt (s_odom c)); [apply kw_ret|destruct (r_poses g); [apply kw_ret|apply kw_raise]]|apply kw_bind; [apply kw_map|intros ?; apply kw_ret]].
  - intros _.
    assert (D : KW (do g <- on_live get; match r_poses g with Some t => ret t | None => raise ValueError end)).
    { apply kw_bind; [apply kw_live; reflexivity|intros g; destruct (r_poses g); [apply kw_ret|apply kw_raise]]. }
    destruct v as [g|]; [|exact D]. destruct (s_odom c) as [|o]; [exact D|].
    apply kw_bind; [apply kw_live; apply images_set|intros ?]. apply kw_bind; [apply kw_live; intros ?; apply inputs_images, kr_down|intros ?].
    apply kw_bind; [apply kw_mp, ks_active|intros ?]. apply kw_bind; [apply kw_map|intros ?]. apply kw_bind; [apply kw_lift|intros ?].
    destruct (r_poses g); [|apply kw_raise]. apply kw_bind; [apply kw_lift|intros ?; apply kw_ret].
Qed.
Lemma kw_step c b1 b2 b3 inplace : KW (step c b1 b2 b3 inplace).
Proof.
  unfold step. do 3 (apply kw_bind; [apply kw_lift|intros ?]). apply kw_bind; [apply kw_localize|intros ?]. apply kw_bind; [apply kw_live; apply images_set|intros ?].
  apply kw_bind; [apply kw_ml, ks_map|intros ?]. apply kw_bind; [apply kw_live; reflexivity|intros g]. destruct (r_poses g); [apply kw_ret|apply kw_raise].
Qed.
(* whatever the objects, arguments and outcome: images, intrinsics, layout of the live frame stay; the previous frame keeps its poses too *)
Lemma p_step_keeps c b1 b2 b3 inplace s g v : let w := snd (step c b1 b2 b3 inplace (s, g, v)) in
  r_rgb (snd (fst w)) = r_rgb g /\ r_depth (snd (fst w)) = r_depth g /\ r_intr (snd (fst w)) = r_intr g /\ r_cf (snd (fst w)) = r_cf g /\
  match v, snd w with
  | None, None => True
  | Some v, Some v' => r_rgb v' = r_rgb v /\ r_depth v' = r_depth v /\ r_intr v' = r_intr v /\ r_poses v' = r_poses v /\ r_cf v' = r_cf v
  | _, _ => False
  end.
Proof.
  intros w. destruct (kw_step c b1 b2 b3 inplace (s, g, v)) as [H1 H2]. fold w in H1, H2. cbn [fst snd] in H1, H2. unfold images_of in H1. injection H1 as E1 E2 E3 E4 _ _ _ _.
  repeat (split; [assumption|]). destruct v as [v|], (snd w) as [v'|]; cbn [option_map] in H2; try discriminate; [|exact I]. unfold inputs_of in H2. injection H2 as F1 F2 F3 F4 F5 _ _ _ _. auto.
Qed.

(* ---------------------------------------------------------------- one frame object in both roles *)
(* results of two runs on frames with equal inputs agree, and the frames are untouched *)
Definition SameF {A} (m : MS A) : Prop := forall p g g', inputs_of g = inputs_of g' ->
  fst (m (p, g)) = fst (m (p, g')) /\ fst (snd (m (p, g))) = fst (snd (m (p, g'))) /\ snd (snd (m (p, g))) = g.
Lemma sf_bind {A B} (m : MS A) (k : A -> MS B) : SameF m -> (forall x, SameF (k x)) -> SameF (mbind m k).
Proof.
  intros H K p g g' E. unfold mbind. destruct (H p g g' E) as (H1 & H2 & H3). destruct (H p g' g (eq_sym E)) as (_ & _ & H4).
  destruct (m (p, g)) as [r [p1 g1]], (m (p, g')) as [r' [p1' g1']]. cbn [fst snd] in *. subst r' p1' g1 g1'. destruct r as [x|e]; [apply K; exact E|repeat split].
Qed.
Lemma sf_ret {A} (x : A) : SameF (ret x). Proof. intros p g g' E. repeat split. Qed.
Lemma sf_raise {A} e : SameF (@raise (pc RF * rgbd) A e). Proof. intros p g g' E. repeat split. Qed.
Lemma sf_lift {A} (r : res A) : SameF (lift r). Proof. intros p g g' E. repeat split. Qed.
Lemma sf_onp {A} (m : M (pc RF) A) : SameF (onp m). Proof. intros p g g' E. unfold onp. cbn [fst snd]. destruct (m p). repeat split. Qed.
Lemma sf_obj {A} (m : M (pc RF) A) o : SameF (on_obj m o). Proof. intros p g g' E. unfold on_obj. destruct (m o) as [[x|e] o']; repeat split. Qed.
Lemma sf_active : SameF find_active_map_points.
Proof.
  unfold find_active_map_points.
  assert (K : forall k : rgbd -> MS (list row), (forall g g', inputs_of g = inputs_of g' -> k g = k g') -> (forall g, SameF (k g)) -> SameF (mbind (onr get) k)).
  { intros k H1 H2 p g g' E. unfold mbind, onr. cbn [fst snd get]. rewrite (H1 g g' E). exact (H2 g' p g g' E). }
  apply K; clear K.
  - intros g g' E. unfold inputs_of in E. injection E as E1 E2 E3 E4 E5 E6 E7 E8 E9. rewrite E3, E4, E6, E7, E8, E9. reflexivity.
  - intros g. repeat first [apply sf_bind; [|intros ?] | apply sf_ret | apply sf_raise | apply sf_lift | apply sf_onp | apply sf_obj | match goal with |- context [if ?b then _ else _] => destruct b | |- context [match ?x with _ => _ end] => destruct x end].
Qed.
Lemma set_own t g : r_poses g = Some t -> match set_poses (TTen t) g with (Ok _, g') => inputs_of g' = inputs_of g | (Err _, g') => g' = g end.
Proof. intros E. unfold set_poses, mbind, get, lift. destruct (assert_shape t (r_posesh g)); [|reflexivity]. unfold modify, inputs_of. cbn. rewrite E. reflexivity. Qed.
Definition Two {A} (m1 : MS A) (m2 : MW A) (s : pc RF) (g v : rgbd) : Prop := exists r s1 g1, m1 (s, g) = (r, (s1, g1)) /\ m2 (s, g, Some v) = (r, (s1, g1, Some v)).
Lemma two_bind {A B} (m1 : MS A) m2 (k1 : A -> MS B) k2 s g v r s1 g1 : m1 (s, g) = (r, (s1, g1)) -> m2 (s, g, Some v) = (r, (s1, g1, Some v)) ->
  (forall x, r = Ok x -> Two (k1 x) (k2 x) s1 g1 v) -> Two (mbind m1 k1) (mbind m2 k2) s g v.
Proof.
  intros E1 E2 K. unfold Two, mbind. rewrite E1, E2. destruct r as [x|e]; [exact (K x eq_refl)|]. exists (Err e), s1, g1. split; reflexivity.
Qed.
Lemma two_live {A B} (m : M rgbd A) (k1 : A -> MS B) k2 s g v : (forall x, fst (m g) = Ok x -> Two (k1 x) (k2 x) s (snd (m g)) v) -> Two (mbind (onr m) k1) (mbind (on_live m) k2) s g v.
Proof.
  intros K. destruct (m g) as [r g1] eqn:E. apply (two_bind _ _ _ _ _ _ _ r s g1); [unfold onr; cbn [fst snd]; rewrite E; reflexivity|unfold on_live, on_ml, onr; cbn [fst snd]; rewrite E; reflexivity|exact K].
Qed.
Lemma two_map {A B} (m : M (pc RF) A) (k1 : A -> MS B) k2 s g v : (forall x, fst (m s) = Ok x -> Two (k1 x) (k2 x) (snd (m s)) g v) -> Two (mbind (onp m) k1) (mbind (on_map m) k2) s g v.
Proof.
  intros K. destruct (m s) as [r s1] eqn:E. apply (two_bind _ _ _ _ _ _ _ r s1 g); [unfold onp; cbn [fst snd]; rewrite E; reflexivity|unfold on_map, on_ml, onp; cbn [fst snd]; rewrite E; reflexivity|exact K].
Qed.
Lemma two_lift {A B} (m : res A) (k1 : A -> MS B) k2 s g v : (forall x, m = Ok x -> Two (k1 x) (k2 x) s g v) -> Two (mbind (lift m) k1) (mbind (lift m) k2) s g v.
Proof. intros K. apply (two_bind _ _ _ _ _ _ _ m s g); [reflexivity|reflexivity|exact K]. Qed.
Lemma two_ml {A B} (m : MS A) (k1 : A -> MS B) k2 s g v : (forall x s1 g1, Two (k1 x) (k2 x) s1 g1 v) -> Two (mbind m k1) (mbind (on_ml m) k2) s g v.
Proof.
  intros K. destruct (m (s, g)) as [r [s1 g1]] eqn:E. apply (two_bind _ _ _ _ _ _ _ r s1 g1); [exact E|unfold on_ml; cbn [fst snd]; rewrite E; reflexivity|intros; apply K].
Qed.
Lemma two_end {A} (r : res A) m1 m2 s g v : m1 (s, g) = (r, (s, g)) -> m2 (s, g, Some v) = (r, (s, g, Some v)) -> Two m1 m2 s g v.
Proof. intros. exists r, s, g. split; assumption. Qed.
Lemma two_conv {A} (m1 m1' : MS A) m2 m2' s g v : m1 (s, g) = m1' (s, g) -> m2 (s, g, Some v) = m2' (s, g, Some v) -> Two m1' m2' s g v -> Two m1 m2 s g v.
Proof. intros E1 E2 (r & s1 & g1 & K1 & K2). exists r, s1, g1. split; congruence. Qed.
Lemma two_localize c s g : Two (localize_same c) (localize c) s g g.
Proof.
  unfold localize_same, localize, get_prev.
  match goal with |- Two (mbind _ ?k1) (mbind _ ?k2) _ _ _ => apply (two_conv _ (k1 g) _ (k2 (Some g)) s g g (eq_refl _) (eq_refl _)) end.
  apply (two_bind _ _ _ _ _ _ _ (if is_gt (s_odom c) then Ok tt else match r_poses g with Some _ => Ok tt | None => Err ValueError end) s g);
    [destruct (s_odom c); [reflexivity|cbn [is_gt]; destruct (r_poses g); reflexivity]|destruct (s_odom c); [reflexivity|cbn [is_gt]; destruct (r_poses g); reflexivity]|].
  intros u HH. destruct (s_odom c) as [|o]; cbn [is_gt] in HH.
  - apply two_live. intros g1 E. cbn in E. injection E as <-. cbn [snd get]. destruct (r_poses g); eapply two_end; reflexivity.
  - destruct (r_poses g) as [t|] eqn:EP; [|discriminate]. apply two_live. intros u1 E1. pose proof (set_own t g EP) as K.
    destruct (set_poses (TTen t) g) as [[u2|e] g1]; [|discriminate]. cbn [snd]. apply two_live. intros fpc E2. pose proof (kr_down (s_ds c) g1) as K2.
    destruct (downsample_rgbdimages (s_ds c) g1) as [r2 g2]. cbn [fst snd] in *. clear r2 E2 E1 u1 u2.
    assert (E2 : inputs_of g2 = inputs_of g) by congruence. destruct (sf_active s g2 g E2) as (A1 & A2 & A3). destruct (sf_active s g g2 (eq_sym E2)) as (_ & _ & A4).
    destruct (find_active_map_points (s, g2)) as [r [p1 g3]] eqn:F1, (find_active_map_points (s, g)) as [r' [p1' g3']] eqn:F2. cbn [fst snd] in *. subst r' p1' g3 g3'.
    apply (two_bind _ _ _ _ _ _ _ r p1 g2 F1); [unfold on_mp; cbn [fst snd]; rewrite F2; reflexivity|]. intros rows _.
    apply two_map. intros mpc _. apply two_lift. intros x _.
    match goal with |- Two (mbind _ ?k1) ?k2 ?p _ _ => apply (two_conv _ (k1 g2) _ k2 p g2 g (eq_refl _) (eq_refl _)) end.
    assert (E3 : r_poses g2 = Some t) by (rewrite <- EP; unfold inputs_of in E2; congruence). rewrite E3. apply two_lift. intros y _. eapply two_end; reflexivity.
Qed.
(* passing the live frame as previous frame has the effect of passing a separate copy of it *)
Lemma p_step_same c inplace s g : exists r s1 g1,
  step_same c inplace (s, g) = (r, (s1, g1)) /\ step c true true true inplace (s, g, Some g) = (r, (s1, g1, Some g)).
Proof.
  fold (Two (step_same c inplace) (step c true true true inplace) s g g). unfold step_same, step.
  match goal with |- Two ?k1 (mbind _ ?k2) _ _ _ => apply (two_conv _ k1 _ (k2 tt) s g g (eq_refl _) (eq_refl _)) end.
  match goal with |- Two ?k1 (mbind _ ?k2) _ _ _ => apply (two_conv _ k1 _ (k2 tt) s g g (eq_refl _) (eq_refl _)) end.
  match goal with |- Two ?k1 (mbind _ ?k2) _ _ _ => apply (two_conv _ k1 _ (k2 tt) s g g (eq_refl _) (eq_refl _)) end.
  destruct (two_localize c s g) as (r & s1 & g1 & L1 & L2). apply (two_bind _ _ _ _ _ _ _ r s1 g1 L1 L2). intros t _.
  apply two_live. intros u _. unfold map_step. apply two_ml. intros o s2 g2. apply two_live. intros g3 _. cbn [snd get]. destruct (r_poses g3); eapply two_end; reflexivity.
Qed.

(* ---------------------------------------------------------------- a previous frame with an empty map *)
Lemma down_empty s ds : Ready (no_batch RF) s -> exists s', downsample_pointclouds (Tbl []) (IntV ds) s = (Err ValueError, s') /\ Ready (no_batch RF) s'.
Proof.
  intros HR. unfold downsample_pointclouds. cbn [table_type need_int table_rows].
  rewrite (mb_lift _ _ _ tt eq_refl), (mb_lift _ _ _ ds eq_refl), (mb_lift _ _ _ [] eq_refl), mb_get. rewrite (rd_len _ s HR).
  rewrite (mb_lift _ _ _ tt) by (cbn [length Nat.eqb negb]; rewrite andb_false_r; reflexivity). cbv zeta. cbn [filter].
  change (len_view RF (no_batch RF)) with 0. cbn [Nat.eqb]. rewrite (mb_ok (ret None) _ _ None s eq_refl). rewrite (mb_lift (index_clouds None 0 []) _ _ [] eq_refl).
  destruct (rd_list _ s Normals HR) as (s2 & E2 & R2). rewrite (mb_ok _ _ _ _ _ E2). cbn [qget no_batch qn]. rewrite (mb_ok (ret None) _ _ None s2 eq_refl).
  destruct (rd_list _ s2 Colors R2) as (s3 & E3 & R3). rewrite (mb_ok _ _ _ _ _ E3). cbn [qget no_batch qc]. rewrite (mb_ok (ret None) _ _ None s3 eq_refl).
  exists s3. split; [reflexivity|exact R3].
Qed.
(* registration against an empty map: ValueError, after the live frame has taken the poses of the previous frame *)
Lemma p_step_empty_map c o s g q fr v qv cfv pf Tp inplace : s_odom c = OIcp o -> Ratio c -> ReadyToClone RF s (no_batch RF) -> RHist q g false fr -> live fr ->
  RHist qv v cfv pf -> fL pf = 1 -> fB pf = fB fr -> fpose pf = Some Tp ->
  exists s' g', step c true true true inplace (s, g, Some v) = (Err ValueError, (s', g', Some v)) /\ ReadyToClone RF s' (no_batch RF) /\
    RShows g' false (posed (fun b => Tp b 0) fr).
Proof.
  intros Eo Hds HS HI HL HV HpL HpB HT. apply hist_inv in HI. destruct HL as (HL1 & HB0 & HH & HW).
  pose proof (hist_inv _ _ _ _ HV) as HI0. pose proof HI0 as (_ & _ & _ & _ & _ & Apo & _). rewrite HT in Apo.
  destruct (r_poses v) as [tp|] eqn:Etp; [|destruct Apo]. cbn [opt_rel] in Apo.
  pose proof (poses_of_prev fr pf tp Tp HL1 HpL HpB Apo) as Hpo.
  destruct (set_poses_inv _ _ _ _ _ _ HI Hpo) as (g1 & E1 & HI1). fold (posed (fun b => Tp b 0) fr) in HI1.
  assert (Hds' : exists d, s_ds c = IntV d /\ (0 < d)%Z) by (unfold Ratio in Hds; rewrite Eo in Hds; exact Hds).
  destruct Hds' as (ds & Eds & Hd0).
  destruct (down_frames_inv q g1 (posed (fun b => Tp b 0) fr) ds HI1 HL1 HB0 HH HW Hd0) as (fpc & g2 & E2 & Hf & HI2 & _).
  destruct (p_active_empty s (no_batch RF) v cfv pf qv HS HV HpL eq_refl) as (s1 & E3 & HS1). apply ready_iff in HS1.
  destruct (down_empty s1 ds HS1) as (s2 & E4 & HS2). exists s2, g2. split; [|split; [now apply ready_iff|exact (inv_shows _ _ _ _ HI2)]].
  unfold step. cbn [guard]. rewrite !(mb_lift _ _ _ tt eq_refl). apply (mb_err _ _ _ _ (s2, g2, Some v)).
  unfold localize, get_prev. unfold mbind at 1 2. cbn [get ret snd]. rewrite Eo. cbn [is_gt]. rewrite Etp. unfold mbind at 1. cbn [ret].
  rewrite (mb_ok _ _ _ _ _ (live_ok' _ s g _ _ _ E1)). rewrite Eds. rewrite (mb_ok _ _ _ _ _ (live_ok' _ s g1 _ _ _ E2)).
  rewrite (mb_ok _ _ _ _ _ (mp_ok _ s g2 v _ _ _ E3)). apply mb_err. unfold on_map, on_ml, onp. cbn [fst snd]. rewrite E4. reflexivity.
Qed.
