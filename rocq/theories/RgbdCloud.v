(* Point clouds built from frames. *)
From Coq Require Import Reals List Arith Bool ZArith Lia Lra Sorting.Sorted.
From Verif Require Import Res Fld StructUtilsModel PointcloudsModel PointcloudsSpec PointcloudsIndexSpec PointcloudsCtorSpec
  PointcloudsHist PointcloudsPropProofs MatSpec GeomSpec TensorModel TensorProofs ProjModel GeomModel RgbdModel RgbdSpec RgbdProofs RgbdOps.
Import ListNotations.
Local Open Scope nat_scope.

Lemma in_pixels H W q : In q (pixels H W) -> fst q < H /\ snd q < W.
Proof. destruct q as [h w]. unfold pixels. intros Hq. apply in_prod_iff in Hq. rewrite !in_seq in Hq. cbn. lia. Qed.
Lemma filter_ext_in' {A} (f g : A -> bool) l : (forall x, In x l -> f x = g x) -> filter f l = filter g l.
Proof.
  induction l as [|x l IH]; cbn; intros H; [reflexivity|]. rewrite (H x) by auto.
  rewrite IH by auto. reflexivity.
Qed.
Lemma gather_img a x f ps b : fL a = 1 -> Image false a 3 x f -> b < fB a ->
  (forall q, In q ps -> fst q < fH a /\ snd q < fW a) ->
  gather x ps b = mkT2 3 (map (fun q => map (f b 0 (fst q) (snd q)) [0; 1; 2]) ps).
Proof.
  intros HL [_ H] Hb Hp. unfold gather. f_equal. apply map_ext_in. intros [h w] Hq. specialize (Hp _ Hq). cbn [fst snd] in *.
  unfold row3. apply map_ext_in. intros c Hc. cbn [fst snd].
  apply (H b 0 h w c); [repeat split; lia|]. cbn in Hc. destruct Hc as [<-|[<-|[<-|[]]]]; lia.
Qed.

Lemma valid_frame_batch (g f : bool) a : 0 < fB a -> valid_batch RF (per_pixel f a (if g then global_vertex a else vertex a)) (frame_clouds g f a).
Proof.
  intros HB. unfold frame_clouds. split; [reflexivity|]. split.
  { unfold per_pixel. destruct (fB a); [lia|]. discriminate. }
  assert (Hl : forall (x : nat -> nat -> nat -> nat -> vec) (L : list (t2 R)) (k : nat -> nat -> nat -> nat -> vec) (W : nat), L = per_pixel f a k -> W = 3 ->
    counts_of RF L = counts_of RF (per_pixel f a x) /\
    Forall (fun y => t2c y = W /\ Forall (fun r => length r = W) (t2r y)) L).
  { intros x L k W -> ->. split.
    - unfold counts_of, per_pixel. rewrite !map_map. apply map_ext. intros b. cbn [t2r]. rewrite !map_length. reflexivity.
    - unfold per_pixel. apply Forall_map, Forall_forall. intros b _. cbn [t2c t2r]. split; [reflexivity|].
      apply Forall_map, Forall_forall. intros q _. reflexivity. }
  intros x L HL. destruct x; cbn [qget qp qn qc qf] in HL; try discriminate; injection HL as <-; eapply Hl; reflexivity.
Qed.

Lemma build_filt g s a : Inv true s false a -> fL a = 1 -> 0 < fB a ->
  2 <= fH a -> 2 <= fW a -> forall f,
  exists p s', build_clouds g f s = (Ok p, s') /\ Hist RF p (frame_clouds g f a) /\ Inv true s' false a.
Proof.
  intros Hi HL HB HH HW f.
  assert (Cp : exists v n s1, cloud_parts g s = (Ok (v, n), s1) /\ Inv true s1 false a /\
    Image false a 3 v (if g then global_vertex a else vertex a) /\ Image false a 3 n (if g then global_normal a else normal a)).
  { unfold cloud_parts. destruct g.
    - destruct (gvertex_read _ _ _ _ Hi) as (v & s1 & E1 & Hv & Hi1).
      destruct (gnormal_read _ _ _ _ Hi1) as [N _]. destruct (N HH HW) as (n & s2 & E2 & Hn & Hi2).
      exists v, n, s2. rewrite (mb_ok _ _ _ _ _ E1), (mb_ok _ _ _ _ _ E2). auto.
    - destruct (vertex_read _ _ _ _ Hi) as (v & s1 & E1 & Hv & Hi1 & _).
      destruct (normal_read _ _ _ _ Hi1) as [N _]. destruct (N HH HW) as (n & s2 & E2 & Hn & Hi2 & _).
      exists v, n, s2. rewrite (mb_ok _ _ _ _ _ E1), (mb_ok _ _ _ _ _ E2). auto. }
  destruct Cp as (v & n & s1 & Ec & Hi1 & Hv & Hn).
  unfold build_clouds. rewrite (mb_ok _ _ _ _ _ Ec). destruct f.
  - destruct (mask_read _ _ _ _ Hi1) as (m & Em & Hm). rewrite (mb_ok _ _ _ _ _ Em), mb_get.
    pose proof (inv_vmask _ _ _ _ _ Hi1 Hm) as Hi2.
    destruct (inv_inputs _ _ _ _ Hi2) as (r & d & i & E1 & E2 & E3 & H1 & H2 & H3). rewrite E1.
    pose proof Hi2 as ((_ & AB & _ & Ah & Aw) & _). rewrite AB, Ah, Aw.
    cbv zeta.
    assert (Hps : forall b, b < fB a ->
      filter (fun q => at_ m [0; snd q; fst q; 0; b]) (pixels (fH a) (fW a)) = chosen true a b).
    { intros b Hb. apply filter_ext_in'. intros q Hq. apply in_pixels in Hq. destruct Hm as [_ Hm].
      apply (Hm b 0 (fst q) (snd q) 0); [repeat split; lia|lia]. }
    assert (Hl : forall x fx, Image false a 3 x fx ->
      IList RF (map (fun b => AT2 RF (gather x (filter (fun q => at_ m [0; snd q; fst q; 0; b]) (pixels (fH a) (fW a))) b)) (seq 0 (fB a)))
      = IList RF (map (AT2 RF) (per_pixel true a fx))).
    { intros x fx Hx. f_equal. unfold per_pixel. rewrite map_map. apply map_ext_in. intros b Hb. apply in_seq in Hb.
      f_equal. rewrite (Hps b) by lia. apply (gather_img a); try assumption; [lia|].
      intros q Hq. apply filter_In in Hq. apply in_pixels. apply Hq. }
    rewrite (Hl v _ Hv), (Hl n _ Hn), (Hl r _ H1).
    assert (D : Denotes RF (IList RF (map (AT2 RF) (per_pixel true a (if g then global_vertex a else vertex a))))
      (IList RF (map (AT2 RF) (per_pixel true a (if g then global_normal a else normal a))))
      (IList RF (map (AT2 RF) (per_pixel true a (frgb a)))) (INone RF) (frame_clouds g true a)).
    { right. left. eexists. split; [apply valid_frame_batch; exact HB|]. repeat split. }
    assert (Rr : forall k, real_inp RF (IList RF (map (AT2 RF) (per_pixel true a k)))).
    { intros k. cbn. apply Forall_map. unfold per_pixel. apply Forall_map, Forall_forall. intros b _. cbn.
      unfold t2wf. cbn. apply Forall_map, Forall_forall. reflexivity. }
    destruct (proj2 (p_accepts RF _ _ _ (INone RF) (Rr _) (Rr _) (Rr _) I) (ex_intro _ _ D)) as (p & Ep).
    exists p, (with_vmask (Some m) s1). split; [unfold lift; f_equal; exact Ep|].
    split; [exact (PointcloudsHist.h_new RF _ _ _ (INone RF) _ _ (Rr _) (Rr _) (Rr _) I D Ep)|exact Hi2].
  - rewrite mb_get. destruct (inv_inputs _ _ _ _ Hi1) as (r & d & i & E1 & E2 & E3 & H1 & H2 & H3). rewrite E1.
    pose proof Hi1 as ((_ & AB & _ & Ah & Aw) & _). rewrite AB, Ah, Aw. cbv zeta.
    assert (Hc : forall b, chosen false a b = pixels (fH a) (fW a)).
    { intros b. unfold chosen, row_major, pixels. induction (list_prod _ _) as [|q l IH]; cbn; [reflexivity|]. rewrite IH. reflexivity. }
    set (fl := fun k => mkT3 (length (pixels (fH a) (fW a))) 3 (map t2r (per_pixel false a k))).
    assert (Hl : forall x fx, Image false a 3 x fx ->
      mkT3 (length (pixels (fH a) (fW a))) 3 (map (fun b => t2r (gather x (pixels (fH a) (fW a)) b)) (seq 0 (fB a))) = fl fx).
    { intros x fx Hx. unfold fl, per_pixel. f_equal. rewrite map_map. apply map_ext_in. intros b Hb. apply in_seq in Hb.
      rewrite Hc. rewrite (gather_img a x fx) by (try assumption; try lia; intros q Hq; apply in_pixels; exact Hq). reflexivity. }
    rewrite (Hl v _ Hv), (Hl n _ Hn), (Hl r _ H1).
    assert (Rr : forall k, real_inp RF (ITensor RF (AT3 RF (fl k)))).
    { intros k. cbn. unfold t3wf, fl, per_pixel. cbn. rewrite map_map. apply Forall_map, Forall_forall. intros b _. cbn [t2r].
      rewrite Hc, map_length. split; [reflexivity|]. apply Forall_map, Forall_forall. reflexivity. }
    assert (At : forall k, as_tensor RF (ITensor RF (AT3 RF (fl k))) (Some (per_pixel false a k))).
    { intros k. exists (fl k). split; [reflexivity|]. unfold fl, per_pixel. cbn [t3c t3d]. rewrite !map_map. reflexivity. }
    assert (D : Denotes RF (ITensor RF (AT3 RF (fl (if g then global_vertex a else vertex a))))
      (ITensor RF (AT3 RF (fl (if g then global_normal a else normal a))))
      (ITensor RF (AT3 RF (fl (frgb a)))) (INone RF) (frame_clouds g false a)).
    { right. right. eexists. split; [apply valid_frame_batch; exact HB|].
      split; [apply At|]. split; [apply At|]. split; [apply At|reflexivity]. }
    destruct (proj2 (p_accepts RF _ _ _ (INone RF) (Rr _) (Rr _) (Rr _) I) (ex_intro _ _ D)) as (p & Ep).
    exists p, s1. split; [unfold lift; f_equal; exact Ep|].
    split; [exact (PointcloudsHist.h_new RF _ _ _ (INone RF) _ _ (Rr _) (Rr _) (Rr _) I D Ep)|exact Hi1].
Qed.

Lemma last_new q s cf a copy o : Inv q s cf a -> to_channels_last copy s = Ok o ->
  match o with Self => cf = false /\ copy = false | New s' => Inv false s' false a end.
Proof.
  intros Hi. pose proof Hi as ((A0 & _) & _). unfold to_channels_last. rewrite A0.
  destruct (negb (copy || cf)) eqn:E.
  - intros H. injection H as <-. destruct copy, cf; try discriminate. auto.
  - destruct (clone_inv _ _ _ _ Hi) as (c & E1 & Hc & _). rewrite E1. cbn [rbind]. unfold run_on.
    destruct (last_inv _ _ _ Hc) as (s' & E2 & Hs & _). rewrite E2. cbn [rbind]. intros H. injection H as <-. exact Hs.
Qed.
Lemma first_new q s cf a copy o : Inv q s cf a -> to_channels_first copy s = Ok o ->
  match o with Self => cf = true /\ copy = false | New s' => Inv false s' true a end.
Proof.
  intros Hi. pose proof Hi as ((A0 & _) & _). unfold to_channels_first. rewrite A0.
  destruct (negb copy && cf) eqn:E.
  - intros H. injection H as <-. destruct copy, cf; try discriminate. auto.
  - destruct (clone_inv _ _ _ _ Hi) as (c & E1 & Hc & _). rewrite E1. cbn [rbind]. unfold run_on.
    destruct (first_inv _ _ _ Hc) as (s' & E2 & Hs & _). rewrite E2. cbn [rbind]. intros H. injection H as <-. exact Hs.
Qed.
Lemma last_total q s cf a copy : Inv q s cf a -> exists o, to_channels_last copy s = Ok o.
Proof.
  intros Hi. unfold to_channels_last. destruct (negb _); [eauto|].
  destruct (clone_inv _ _ _ _ Hi) as (c & E1 & Hc & _). rewrite E1. cbn [rbind]. unfold run_on.
  destruct (last_inv _ _ _ Hc) as (s' & E2 & Hs & _). rewrite E2. cbn. eauto.
Qed.
Lemma first_total q s cf a copy : Inv q s cf a -> exists o, to_channels_first copy s = Ok o.
Proof.
  intros Hi. unfold to_channels_first. destruct (negb _ && _); [eauto|].
  destruct (clone_inv _ _ _ _ Hi) as (c & E1 & Hc & _). rewrite E1. cbn [rbind]. unfold run_on.
  destruct (first_inv _ _ _ Hc) as (s' & E2 & Hs & _). rewrite E2. cbn. eauto.
Qed.

Lemma cloud_ok q s cf a g f : Inv q s cf a -> fL a = 1 -> 0 < fB a -> 2 <= fH a -> 2 <= fW a ->
  exists p s', pointclouds_from_rgbdimages g f s = (Ok p, s') /\ Hist RF p (frame_clouds g f a) /\ Inv true s' cf a /\
    (cf = true -> s' = s).
Proof.
  intros Hi HL HB HH HW. pose proof Hi as ((A0 & AB & AL & _) & _).
  unfold pointclouds_from_rgbdimages. rewrite mb_get, AL, HL. cbn [Nat.eqb guard].
  rewrite (mb_lift _ _ _ tt eq_refl). destruct (last_total _ _ _ _ false Hi) as (o & Eo).
  rewrite (mb_lift _ _ _ _ Eo). replace (r_B s =? 0) with false by (symmetry; apply Nat.eqb_neq; lia).
  rewrite andb_false_r. cbv zeta. pose proof (last_new _ _ _ _ _ _ Hi Eo) as Hn. destruct o as [|s1].
  - destruct Hn as [-> _]. destruct (build_filt g s a (inv_mono _ _ _ _ Hi) HL HB HH HW f) as (p & s' & E & Hs & Hi').
    exists p, s'. split; [exact E|]. split; [exact Hs|]. split; [exact Hi'|discriminate].
  - destruct (build_filt g s1 a (inv_mono _ _ _ _ Hn) HL HB HH HW f) as (p & s' & E & Hs & Hi').
    exists p, s. rewrite E. cbn [fst]. split; [reflexivity|]. split; [exact Hs|]. split; [eapply inv_mono; exact Hi|auto].
Qed.
Lemma cloud_parts_inv g s a : Inv true s false a -> forall r s', cloud_parts g s = (r, s') -> Inv true s' false a.
Proof.
  intros Hi r s'. unfold cloud_parts. 
  assert (N : forall s1, Inv true s1 false a -> forall (k : ten R) (r : res (ten R * ten R)) s', 
     mbind (if g then global_normal_map else normal_map) (fun n => ret (k, n)) s1 = (r, s') -> @Inv true s' false a).
  { intros s1 Hi1 k r0 s0. destruct g.
    - pose proof (inv_read _ _ _ _ RdGlobalNormal Hi1) as H. unfold after_read in H. unfold mbind.
      destruct (global_normal_map s1) as [[x|e] s2]; cbn in *; intros E; injection E as _ <-; exact H.
    - pose proof (inv_read _ _ _ _ RdNormal Hi1) as H. unfold after_read in H. unfold mbind.
      destruct (normal_map s1) as [[x|e] s2]; cbn in *; intros E; injection E as _ <-; exact H. }
  destruct g.
  - destruct (gvertex_read _ _ _ _ Hi) as (v & s1 & E1 & Hv & Hi1). rewrite (mb_ok _ _ _ _ _ E1). apply N; exact Hi1.
  - destruct (vertex_read _ _ _ _ Hi) as (v & s1 & E1 & Hv & Hi1 & _). rewrite (mb_ok _ _ _ _ _ E1). apply N; exact Hi1.
Qed.
Lemma cloud_inv q s cf a g f r s' : Inv q s cf a -> pointclouds_from_rgbdimages g f s = (r, s') -> Inv true s' cf a.
Proof.
  intros Hi. unfold pointclouds_from_rgbdimages. rewrite mb_get. unfold lift at 1.
  destruct (r_L s =? 1); cbn [guard]; [|intros E; injection E as _ <-; eapply inv_mono; exact Hi].
  change (fun s0 : rgbd => (Ok tt, s0)) with (@lift rgbd unit (Ok tt)). rewrite (mb_lift _ _ _ tt eq_refl).
  destruct (last_total _ _ _ _ false Hi) as (o & Eo). rewrite (mb_lift _ _ _ _ Eo). cbv zeta.
  pose proof (last_new _ _ _ _ _ _ Hi Eo) as Hn. destruct o as [|s1].
  2:{ intros E. injection E as _ <-. eapply inv_mono; exact Hi. }
  destruct Hn as [-> _]. pose proof (inv_mono _ _ _ _ Hi) as Hi1.
  destruct (negb f && (r_B s =? 0)).
  - unfold mbind. destruct (cloud_parts g s) as [x s1] eqn:E. pose proof (cloud_parts_inv _ _ _ Hi1 _ _ E) as Hs1.
    destruct x; intros E'; injection E' as _ <-; exact Hs1.
  - unfold build_clouds, mbind at 1. destruct (cloud_parts g s) as [x s1] eqn:E. pose proof (cloud_parts_inv _ _ _ Hi1 _ _ E) as Hs1.
    destruct x as [[v n]|e]; [|intros E'; injection E' as _ <-; exact Hs1]. destruct f.
    + destruct (mask_read _ _ _ _ Hs1) as (m & Em & Hm). rewrite (mb_ok _ _ _ _ _ Em), mb_get.
      pose proof (inv_vmask _ _ _ _ _ Hs1 Hm) as Hi2. destruct (r_rgb _); intros E'; injection E' as _ <-; exact Hi2.
    + rewrite mb_get. destruct (r_rgb s1); intros E'; injection E' as _ <-; exact Hs1.
Qed.

(* ---------------- histories *)
Lemma addresses_elems ix a kb kl : Addresses ix a kb kl ->
  exists e0 e1, elems ix = Some (e0, e1) /\ Addresses1 e0 (fB a) kb /\ Addresses1 e1 (fL a) kl.
Proof.
  destruct ix as [i|l|]; cbn [Addresses elems]; [| |contradiction].
  - intros [H ->]. do 2 eexists. split; [reflexivity|]. split; [exact H|]. split; [exact I|]. cbn.
    left. split; [lia|]. split; [clear; generalize 0 at 1; induction (fL a) as [|n IH]; intros k; cbn; constructor; [apply IH|];
      apply Forall_forall; intros x Hx; apply in_seq in Hx; lia|].
    intros lo hi k. unfold lo, hi. rewrite in_seq. split.
    + intros Hk. split; [lia|]. exists (Z.of_nat k). lia.
    + intros [Hk _]. lia.
  - destruct l as [|x [|y [|? ?]]]; try contradiction. intros [H0 H1]. eauto.
Qed.
Lemma item_inv q s cf a ix kb kl o : Inv q s cf a -> Addresses ix a kb kl -> rgbd_getitem ix s = Ok o ->
  Inv false o cf (pick kb kl a).
Proof.
  intros Hi Ha Ho. destruct (addresses_elems _ _ _ _ Ha) as (e0 & e1 & Ee & H0 & H1).
  assert (Bad : forall e n ks, Addresses1 e n ks -> elem_pos e n = Ok ks /\ Forall (fun k => k < n) ks \/ elem_pos e n = Ok []).
  { intros e n ks H. destruct e as [i|x y z|]; [|left|contradiction].
    - destruct (Z.eq_dec i (-1)) as [->|Hne]; [right; apply elem_pos_bad; auto|left; apply elem_pos_ok; [exact H|congruence]].
    - apply elem_pos_ok; [exact H|discriminate]. }
  destruct (Bad _ _ _ H0) as [[P0 F0]|P0].
  - destruct (Bad _ _ _ H1) as [[P1 F1]|P1].
    + destruct (getitem_pos _ _ _ _ _ _ _ _ _ Hi Ee P0 P1 F0 F1) as [G1 G2].
      destruct kb as [|b0 kb]; [rewrite G1 in Ho by auto; discriminate|].
      destruct kl as [|l0 kl]; [rewrite G1 in Ho by auto; discriminate|].
      destruct G2 as (o' & E & Hi'); try discriminate. congruence.
    + destruct (getitem_pos _ _ _ _ _ _ _ _ _ Hi Ee P0 P1 F0 ltac:(constructor)) as [G1 _].
      rewrite G1 in Ho by auto. discriminate.
  - assert (Q : exists kl', elem_pos e1 (fL a) = Ok kl' /\ Forall (fun k => k < fL a) kl').
    { destruct (Bad _ _ _ H1) as [[P1 F1]|P1]; [eauto|]. exists []. split; [exact P1|constructor]. }
    destruct Q as (kl' & P1 & F1).
    destruct (getitem_pos _ _ _ _ _ _ _ _ _ Hi Ee P0 P1 ltac:(constructor) F1) as [G1 _].
    rewrite G1 in Ho by auto. discriminate.
Qed.

Lemma hist_inv q s cf a : RHist q s cf a -> Inv q s cf a.
Proof.
  induction 1.
  - eapply new_inv; eassumption.
  - eapply inv_read; eassumption.
  - eapply cloud_inv; eassumption.
  - destruct (set_rgb_inv _ _ _ _ t f IHRHist H1) as (s2 & E & Hi). congruence.
  - eapply set_depth_inv; eassumption.
  - destruct (set_intr_inv _ _ _ _ t K IHRHist H1) as (s2 & E & Hi). congruence.
  - destruct (set_poses_inv _ _ _ _ t T IHRHist H1) as (s2 & E & Hi). congruence.
  - eapply drop_poses_inv; eassumption.
  - apply set_fail in H0. subst. exact IHRHist.
  - destruct (last_inv _ _ _ IHRHist) as (s2 & E & Hi & _). congruence.
  - destruct (first_inv _ _ _ IHRHist) as (s2 & E & Hi & _). congruence.
  - pose proof IHRHist as ((E & _) & _). unfold to_channels_last_ in H0. rewrite mb_get, E in H0. injection H0 as _ <-. exact IHRHist.
  - pose proof IHRHist as ((E & _) & _). unfold to_channels_first_ in H0. rewrite mb_get, E in H0. injection H0 as _ <-. exact IHRHist.
  - exact (last_new _ _ _ _ _ _ IHRHist H0).
  - exact (first_new _ _ _ _ _ _ IHRHist H0).
  - destruct (clone_inv _ _ _ _ IHRHist) as (o' & E & Hi & _). congruence.
  - eapply item_inv; eassumption.
Qed.
