(* find_active_map_points (C37). *)
From Coq Require Import Reals List Arith Bool ZArith Lia Lra Sorting.Sorted.
From Verif Require Import Res Fld StructUtilsModel StructUtilsSpec StructUtilsProofs PointcloudsModel PointcloudsSpec
  PointcloudsCtorSpec PointcloudsSetSpec PointcloudsIndexSpec PointcloudsHist PointcloudsProofs PointcloudsOps
  PointcloudsSet PointcloudsClone PointcloudsAppend PointcloudsHistProofs PointcloudsPropProofs
  MatSpec GeomSpec TensorModel TensorProofs GeomModel GeomProofs GeomPtsProofs RgbdModel RgbdSpec RgbdProofs RgbdCloud FusionModel FusionSpec FusionMap.
Import ListNotations.
Local Open Scope nat_scope.

(* ---------------- rounding *)
Lemma rint_spec x : (Rabs (x - IZR (rint x)) <= 1 / 2)%R /\ ((Rabs (x - IZR (rint x)) = 1 / 2)%R -> Z.even (rint x) = true).
Proof.
  unfold rint. destruct (base_Int_part x) as [H1 H2]. set (f := Int_part x) in *.
  assert (E1 : IZR (f + 1) = (IZR f + 1)%R) by (rewrite plus_IZR; reflexivity).
  destruct (Rlt_dec (x - IZR f) (1 / 2)) as [L|L].
  - split; [rewrite Rabs_pos_eq; lra|]. rewrite Rabs_pos_eq by lra. lra.
  - destruct (Rlt_dec (1 / 2) (x - IZR f)) as [G|G].
    + rewrite E1. rewrite Rabs_left1 by lra. split; lra.
    + assert (E : (x - IZR f = 1 / 2)%R) by lra. destruct (Z.even f) eqn:Ev.
      * rewrite E, Rabs_pos_eq by lra. split; [lra|auto].
      * rewrite E1. rewrite Rabs_left1 by lra. split; [lra|]. intros _. replace (f + 1)%Z with (Z.succ f) by lia.
        rewrite Z.even_succ, <- Z.negb_even, Ev. reflexivity.
Qed.
Lemma near_lt (j k : Z) x : (Rabs (x - IZR k) <= 1 / 2)%R -> (IZR j - 1 / 2 < x)%R -> (j <= k)%Z.
Proof.
  intros H1 H2. apply Z.lt_succ_r. apply lt_IZR. rewrite succ_IZR.
  pose proof (Rle_abs (x - IZR k)). lra.
Qed.
Lemma near_gt (j k : Z) x : (Rabs (x - IZR k) <= 1 / 2)%R -> (x < IZR j + 1 / 2)%R -> (k <= j)%Z.
Proof.
  intros H1 H2. apply Z.lt_succ_r. apply lt_IZR. rewrite succ_IZR.
  pose proof (Rle_abs (- (x - IZR k))). rewrite Rabs_Ropp in H. lra.
Qed.
Lemma even_nat_Z k : Z.even (Z.of_nat k) = Nat.even k.
Proof.
  destruct (Nat.Even_or_Odd k) as [E|O].
  - rewrite (proj2 (Nat.even_spec k) E). apply Z.even_spec. destruct E as [m ->]. exists (Z.of_nat m). lia.
  - rewrite <- Nat.negb_odd, (proj2 (Nat.odd_spec k) O). cbn [negb]. rewrite <- Z.negb_odd.
    apply Bool.negb_false_iff. apply Z.odd_spec. destruct O as [m ->]. exists (Z.of_nat m). lia.
Qed.
Lemma rint_nearest x k : rint x = Z.of_nat k -> nearest x k.
Proof.
  intros E. destruct (rint_spec x) as [H1 H2]. rewrite E in H1, H2. rewrite <- INR_IZR_INZ in H1, H2.
  split; [exact H1|]. intros K. rewrite <- even_nat_Z. auto.
Qed.
Lemma even_add1 k : Nat.even k = true -> Nat.even (S k) = true -> False.
Proof. intros H1 H2. rewrite Nat.even_succ, <- Nat.negb_even, H1 in H2. discriminate. Qed.
Lemma nearest_unique x k k' : nearest x k -> nearest x k' -> k = k'.
Proof.
  assert (W : forall k k', nearest x k -> nearest x k' -> k < k' -> False).
  { intros j j' [A1 A2] [B1 B2] Hlt. assert (Hj : (INR j + 1 <= INR j')%R) by (rewrite <- S_INR; apply le_INR; lia).
    pose proof (Rle_abs (x - INR j)) as C1. pose proof (Rle_abs (- (x - INR j'))) as C2. rewrite Rabs_Ropp in C2.
    assert (E1 : (x - INR j = 1 / 2)%R) by lra. assert (E2 : (x - INR j' = - (1 / 2))%R) by lra.
    assert (S1 : Nat.even j = true) by (apply A2; rewrite E1, Rabs_pos_eq; lra).
    assert (S2 : Nat.even j' = true) by (apply B2; rewrite E2, Rabs_left1; lra).
    assert (E3 : INR j' = INR (S j)) by (rewrite S_INR; lra). apply INR_eq in E3. subst j'.
    eapply even_add1; eassumption. }
  intros H H'. destruct (Nat.lt_trichotomy k k') as [L|[E|L]]; [exfalso; eauto|exact E|exfalso; eauto].
Qed.
Lemma clamped_nearest n x : (- / 1000 < x < INR n - 1 + / 1000)%R -> clamped n x < n /\ nearest x (clamped n x).
Proof.
  intros [H1 H2]. destruct (rint_spec x) as [R1 _].
  assert (Hn : (0 <= rint x)%Z) by (apply (near_lt 0 (rint x) x R1); cbn; lra).
  assert (Hn' : (rint x <= Z.of_nat n - 1)%Z).
  { apply (near_gt (Z.of_nat n - 1) (rint x) x R1). rewrite minus_IZR, <- INR_IZR_INZ. lra. }
  unfold clamped, clampZ. rewrite Z.min_r, Z.max_r by lia. split; [lia|]. apply rint_nearest. lia.
Qed.
Lemma Int_part_INR n : Int_part (INR n) = Z.of_nat n.
Proof.
  destruct (base_Int_part (INR n)) as [H1 H2]. rewrite INR_IZR_INZ in *.
  apply le_IZR in H1. assert (H3 : (IZR (Z.of_nat n) < IZR (Int_part (IZR (Z.of_nat n)) + 1))%R) by (rewrite plus_IZR; lra).
  apply lt_IZR in H3. lia.
Qed.
Lemma in_frame_iff H W u v : is_in_frame H W u v = true <-> in_rectangle H W u v.
Proof.
  unfold is_in_frame, in_rectangle.
  repeat match goal with |- context [Rlt_dec ?x ?y] => destruct (Rlt_dec x y) end; cbn [andb]; split; intros HH; try discriminate; try reflexivity;
    try (exfalso; lra).
  split; split; lra.
Qed.

(* ---------------- sorted products *)
Lemma sorted_filter {X} (lt : X -> X -> Prop) f l : StronglySorted lt l -> StronglySorted lt (filter f l).
Proof.
  induction 1 as [|x l S IH F]; cbn; [constructor|]. destruct (f x); [|exact IH]. constructor; [exact IH|].
  apply Forall_forall. intros y Hy. apply filter_In in Hy. rewrite Forall_forall in F. apply F. apply Hy.
Qed.
Lemma sorted_map {X Y} (lt : X -> X -> Prop) (lt' : Y -> Y -> Prop) (f : X -> Y) l :
  (forall x y, In x l -> In y l -> lt x y -> lt' (f x) (f y)) -> StronglySorted lt l -> StronglySorted lt' (map f l).
Proof.
  intros H S. induction S as [|x l S IH F]; cbn; [constructor|]. constructor.
  - apply IH. intros; apply H; [right|right|]; assumption.
  - apply Forall_forall. intros y Hy. apply in_map_iff in Hy. destruct Hy as (z & <- & Hz). rewrite Forall_forall in F.
    apply H; [left; reflexivity|right; exact Hz|auto].
Qed.
Lemma seq_sorted n : forall k, StronglySorted lt (seq k n).
Proof.
  induction n as [|n IH]; intros k; cbn; constructor; [apply IH|]. apply Forall_forall. intros x Hx. apply in_seq in Hx. lia.
Qed.
Lemma sorted_app {X} (lt : X -> X -> Prop) l1 l2 : StronglySorted lt l1 -> StronglySorted lt l2 ->
  (forall x y, In x l1 -> In y l2 -> lt x y) -> StronglySorted lt (l1 ++ l2).
Proof.
  intros S1 S2 H. induction S1 as [|x l S IH F]; cbn; [exact S2|]. constructor.
  - apply IH. intros; apply H; [right|]; assumption.
  - apply Forall_app. split; [exact F|]. apply Forall_forall. intros y Hy. apply H; [left; reflexivity|exact Hy].
Qed.
Definition lex2 (p q : nat * nat) : Prop := fst p < fst q \/ fst p = fst q /\ snd p < snd q.
Lemma prod_sorted l1 l2 : StronglySorted lt l1 -> StronglySorted lt l2 -> StronglySorted lex2 (list_prod l1 l2).
Proof.
  intros S1 S2. induction S1 as [|x l S IH F]; cbn [list_prod]; [constructor|]. apply sorted_app.
  - eapply sorted_map; [|exact S2]. intros y z _ _ Hlt. right. cbn. auto.
  - exact IH.
  - intros p q Hp Hq. apply in_map_iff in Hp. destruct Hp as (y & <- & Hy). destruct q as [q1 q2].
    apply in_prod_iff in Hq. destruct Hq as [Hq1 _]. left. cbn. rewrite Forall_forall in F. auto.
Qed.

(* ---------------- moved attributes *)
Lemma attr_moved a x L h b n c : qget x a = Some L -> b < length L -> n < length (t2r (nth b L (mkT2 0 []))) -> c < 3 ->
  attr_at (move_attr RF x h a) x b n c = h b n (attr_at a x b n) c.
Proof.
  intros HL Hb Hn Hc. unfold attr_at, move_attr. rewrite HL, qget_qset_same. cbn [option_map]. unfold row_at, move.
  rewrite (nth_imap _ L b (mkT2 0 []) (mkT2 0 [])) by exact Hb. cbn [t2r]. rewrite (nth_imap _ _ n [] []) by exact Hn.
  rewrite (nth_map_seq _ 3 c) by exact Hc. reflexivity.
Qed.
Lemma attr_moved_other a x y h b n : x <> y -> attr_at (move_attr RF y h a) x b n = attr_at a x b n.
Proof. intros H. unfold attr_at, move_attr. rewrite qget_qset_other by exact H. reflexivity. Qed.
Lemma npoints_moved a x h b : npoints (move_attr RF x h a) b = npoints a b.
Proof.
  destruct (attr_dec x Points) as [->|H].
  - unfold npoints, move_attr. cbn [qget qset qp]. destruct (qp a) as [P|]; cbn [option_map]; [|reflexivity].
    destruct (lt_dec b (length P)).
    + unfold move. rewrite (nth_imap _ P b (mkT2 0 []) (mkT2 0 [])) by assumption. cbn [t2r]. apply imap_length.
    + rewrite !nth_overflow; [reflexivity|lia|rewrite move_length; lia].
  - unfold npoints, move_attr. destruct x; try congruence; reflexivity.
Qed.

(* ---------------- the function *)
Lemma squeeze1_dims (x : ten R) d0 d1 b : dims x = [d0; d1; 1; b] -> dims (squeeze1 x) = [d0; d1; b] /\
  forall j i k, at_ (squeeze1 x) [j; i; k] = at_ x [j; i; 0; k].
Proof. intros E. unfold squeeze1. rewrite E. split; reflexivity. Qed.

Lemma to_camera_inv (M T : mat) p k : k < 3 -> meq 4 4 M (inv_form T) ->
  (rot_fun RF M true p k + M k 3%nat)%R = to_camera T p k.
Proof.
  intros Hk HM. unfold rot_fun. cbn [fadd fmul RF]. rewrite !HM by lia. unfold inv_form, to_camera. cbn [rsum].
  replace (k <? 3) with true by (symmetry; apply Nat.ltb_lt; exact Hk). cbn [Nat.ltb Nat.leb]. unfold mvec, mtr, tr_of. cbn [rsum]. ring.
Qed.

Lemma pinhole_pos (K K' : mat) p k : k < 2 -> meq 4 4 K K' -> pinhole_fun RF K p k = image_pos K' p k.
Proof.
  intros Hk HK. unfold pinhole_fun, image_pos, project_spec, persp, hom_row, mvec. cbn [rsum Nat.ltb Nat.leb hom].
  cbn [fadd fmul fdiv f0 f1 feq_dec RF]. unfold hom. cbn [Nat.ltb Nat.leb]. rewrite !HK by lia.
  assert (E : forall i, i < 3 -> (K' i 0%nat * p 0%nat + K' i 1%nat * p 1%nat + K' i 2%nat * p 2%nat + K' i 3%nat =
     0 + K' i 0%nat * p 0%nat + K' i 1%nat * p 1%nat + K' i 2%nat * p 2%nat + K' i 3%nat * 1)%R) by (intros; ring).
  rewrite !E by lia. replace (k =? 2) with false by (symmetry; apply Nat.eqb_neq; lia).
  change R0 with 0%R. change R1 with 1%R. destruct (Req_EM_T _ 0) as [Z|Z]; [unfold Rdiv; rewrite Rinv_1; apply Rmult_1_r|reflexivity].
Qed.

Lemma mapmask P a b n : valid_batch RF P a -> b < length P -> n < biggest (counts_of RF P) ->
  forall m, mask_view RF a = Some m -> nth n (nth b m []) false = (n <? npoints a b).
Proof.
  intros Hv Hb Hn m Hm. unfold mask_view in Hm. rewrite (valid_qp _ _ _ Hv) in Hm. cbn [option_map] in Hm.
  injection Hm as <-. unfold counts_of at 2. rewrite map_map.
  rewrite (nth_map' _ P b [] (mkT2 0 [])) by exact Hb.
  pose proof (np_le P a Hv b Hb) as Hle. rewrite <- (np_eq P a Hv b). set (k := npoints a b) in *. set (N := biggest (counts_of RF P)) in *.
  destruct (Nat.ltb_spec n k).
  - rewrite app_nth1 by (rewrite repeat_length; lia). rewrite (nth_indep _ false true) by (rewrite repeat_length; lia). apply nth_repeat.
  - rewrite app_nth2 by (rewrite repeat_length; lia). apply nth_repeat.
Qed.

Lemma active_nonempty s a g cf fr q T P :
  Ready a s -> Inv q g cf fr -> fL fr = 1 -> fB fr = len_view RF a -> fpose fr = Some T -> qp a = Some P ->
  exists rows s', find_active_map_points (s, g) = (Ok rows, (s', g)) /\ Ready a s' /\ active_spec a fr T rows.
Proof.
  intros HR HI HL HB HT HP. pose proof (batch_valid s a P (proj1 HR) HP) as Hv.
  pose proof HI as ((A0 & AB & AL & Ah & Aw) & _ & _ & _ & (K & AK & HK) & Apo & _).
  rewrite HT in Apo. destruct (r_poses g) as [po|] eqn:Epo; [|destruct Apo]. cbn [opt_rel] in Apo.
  pose proof (len_P P a Hv) as HlP.
  unfold find_active_map_points.
  rewrite (mb_ok _ _ _ _ _ (onr_ok get s g _ _ eq_refl)).
  rewrite (mb_lift _ _ _ tt) by (rewrite AL, HL; reflexivity).
  destruct (rd_has a s HR Points) as (s1 & E1 & HR1). cbn [qget] in E1. rewrite HP in E1. cbn [is_some] in E1.
  rewrite (mb_ok _ _ _ _ _ (onp_ok _ s g _ _ E1)). cbn [negb].
  rewrite (mb_ok _ _ _ _ _ (onp_ok get s1 g _ _ eq_refl)).
  rewrite (mb_lift _ _ _ tt) by (rewrite AB, (rd_len a s1 HR1), HB, Nat.eqb_refl; reflexivity).
  rewrite Epo.
  destruct Apo as [Sp Ep]. pose proof (shape_dims _ _ Sp) as Dp. rewrite HL in Dp. cbn in Dp.
  destruct (squeeze1_dims po 4 4 (fB fr) Dp) as [Ds Es].
  destruct (kornia_inverse_ok (squeeze1 po) [fB fr] Ds (le_n 1)) as (z & Ez & Dz & Mz).
  rewrite (mb_lift _ _ _ z Ez).
  assert (Shz : shape z = [len_view RF a; 4; 4]) by (unfold shape; rewrite Dz; cbn; rewrite HB; reflexivity).
  set (elz := fun ix => at_ z (rev ix)).
  assert (Oz : ten_operand z = OT RF [len_view RF a; 4; 4] elz) by (unfold ten_operand; rewrite Shz; reflexivity).
  set (a1 := transform_spec RF [len_view RF a; 4; 4] elz true a).
  destruct (rd_oop a s1 HR1 (Transform RF (OT RF [len_view RF a; 4; 4] elz) true) a1) as (t0 & s2 & E2 & Ht0 & HR2).
  { split; [right; reflexivity|reflexivity]. }
  rewrite Oz. unfold transform. cbn [run] in E2. rewrite (mb_ok _ _ _ _ _ (onp_ok _ s1 g _ _ E2)).
  assert (EP1 : qp a1 = Some (move RF (fun b i r k => fadd (rot_fun RF (mat_of RF [len_view RF a; 4; 4] elz b) true r k) (mat_of RF [len_view RF a; 4; 4] elz b k 3)) P)).
  { unfold a1, transform_spec, move_attr. cbn [qget qset qp]. rewrite HP. reflexivity. }
  set (P1 := move RF _ P) in EP1.
  pose proof (batch_valid t0 a1 P1 Ht0 EP1) as Hv1.
  assert (Lv1 : length P1 = length P) by (unfold P1; apply move_length).
  assert (N1 : biggest (counts_of RF P1) = biggest (counts_of RF P)) by (unfold P1; rewrite move_counts; reflexivity).
  destruct (p_hist_shows RF t0 a1 Ht0) as (_ & S2 & _). specialize (S2 Points).
  destruct (get_padded RF Points t0) as [r3 t1] eqn:E3. cbn [fst] in S2. subst r3.
  assert (Ht1 : Hist RF t1 a1).
  { replace t1 with (after RF (RdPadded Points) t0) by (cbn [after]; now rewrite E3). now apply PointcloudsHist.h_read. }
  rewrite (mb_ok _ _ _ _ _ (onobj_ok _ t0 _ _ _ E3)). cbv beta iota.
  rewrite AK.
  destruct HK as [SK EK]. pose proof (shape_dims _ _ SK) as DK. cbn in DK.
  destruct (squeeze1_dims K 4 4 (fB fr) DK) as [DsK EsK].
  set (elK := fun ix => at_ (squeeze1 K) (rev ix)).
  assert (OK : ten_operand (squeeze1 K) = OT RF [len_view RF a; 4; 4] elK).
  { unfold ten_operand, shape. rewrite DsK. cbn. rewrite HB. reflexivity. }
  set (a2 := pinhole_spec RF [len_view RF a; 4; 4] elK a1).
  assert (Lv : len_view RF a1 = len_view RF a) by (rewrite (len_P P1 a1 Hv1), HlP; exact Lv1).
  destruct (p_call RF (Pinhole RF (OT RF [len_view RF a; 4; 4] elK)) t1 a1 a2 Ht1) as (t2' & E4 & Ht2 & _).
  { split; [right; rewrite Lv; reflexivity|reflexivity]. }
  rewrite OK. cbn [run] in E4. rewrite (mb_ok _ _ _ _ _ (onobj_ok _ t1 _ _ _ E4)). cbv beta iota.
  assert (EP2 : qp a2 = Some (move RF (fun b _ r => pinhole_fun RF (mat_of RF [len_view RF a; 4; 4] elK b) r) P1)).
  { unfold a2, pinhole_spec, move_attr. cbn [qget qset qp]. rewrite EP1. reflexivity. }
  set (P2 := move RF _ P1) in EP2.
  pose proof (batch_valid t2' a2 P2 Ht2 EP2) as Hv2.
  assert (Lv2 : length P2 = length P) by (unfold P2; rewrite move_length; exact Lv1).
  assert (N2 : biggest (counts_of RF P2) = biggest (counts_of RF P)) by (unfold P2; rewrite move_counts; exact N1).
  destruct (p_hist_shows RF t2' a2 Ht2) as (_ & S5 & _). specialize (S5 Points).
  destruct (get_padded RF Points t2') as [r5 t3'] eqn:E5. cbn [fst] in S5. subst r5.
  rewrite (mb_ok _ _ _ _ _ (onobj_ok _ t2' _ _ _ E5)). cbv beta iota.
  destruct (rd_mask a s2 HR2) as (s3 & E6 & HR3).
  rewrite (mb_ok _ _ _ _ _ (onp_ok _ s2 g _ _ E6)).
  rewrite (padded_some RF P1 a1 Points P1 Hv1 EP1), (padded_some RF P2 a2 Points P2 Hv2 EP2).
  destruct (mask_view RF a) as [m|] eqn:Em; [|unfold mask_view in Em; rewrite HP in Em; discriminate].
  rewrite N1, N2. set (N := biggest (counts_of RF P)).
  cbn [width]. cbn [t3n]. rewrite pad_to_b, Lv2. change (t3n (pad_to RF N 3 P2)) with N.
  assert (Hm1 : length m = length P).
  { unfold mask_view in Em. rewrite HP in Em. injection Em as <-. unfold counts_of. rewrite !map_length. reflexivity. }
  assert (Hm2 : mask_n m = N).
  { assert (Eml : m = mask_list RF P) by (unfold mask_view in Em; rewrite HP in Em; injection Em as <-; reflexivity).
    rewrite Eml. apply mask_list_n. apply (valid_ne _ _ _ Hv). }
  rewrite Hm1, Hm2, !Nat.eqb_refl. cbn [andb negb].
  (* entries *)
  assert (Np1 : forall b, npoints a1 b = npoints a b) by (intros b; unfold a1, transform_spec; rewrite !npoints_moved; reflexivity).
  assert (Np2 : forall b, npoints a2 b = npoints a b) by (intros b; unfold a2, pinhole_spec; rewrite npoints_moved; apply Np1).
  assert (Cam : forall b n c, real_point a b n -> c < 3 ->
     get3 RF (pad_to RF N 3 P1) b n c = to_camera (T b 0) (attr_at a Points b n) c /\ n < N).
  { intros b n c [Hb Hn] Hc. rewrite HlP in Hb. assert (HnN : n < N) by (pose proof (np_le P a Hv b Hb); unfold N; lia).
    split; [|exact HnN].
    pose proof (padded_entry P1 a1 Hv1 Points P1 b n c EP1) as PE. rewrite N1, Np1, Lv1 in PE. fold N in PE. cbn [width] in PE.
    rewrite PE by assumption. destruct (Nat.ltb_spec n (npoints a b)); [|lia].
    unfold a1, transform_spec. rewrite attr_moved_other by discriminate.
    rewrite (attr_moved a Points P) by (try assumption; rewrite <- (np_eq P a Hv); assumption).
    cbn [mat_of]. apply (to_camera_inv (fun i j => elz [b; i; j]) (T b 0)); [exact Hc|].
    intros i j Hi Hj. unfold elz. cbn [rev app]. change (at_ z [j; i; b]) with (ent z [b] i j). rewrite Mz by assumption.
    assert (EE : meq 4 4 (ent (squeeze1 po) [b]) (T b 0)).
    { intros i' j' Hi' Hj'. unfold ent. rewrite Es. apply (Ep b 0); lia. }
    unfold inv_form. destruct (i <? 3) eqn:Q1; destruct (j <? 3) eqn:Q2; try reflexivity.
    - apply EE; assumption.
    - unfold mvec, mtr, tr_of. cbn [rsum]. rewrite !EE by lia. reflexivity. }
  assert (Img : forall b n c, real_point a b n -> c < 2 ->
     get3 RF (pad_to RF N 3 P2) b n c = image_pos (fK fr b) (to_camera (T b 0) (attr_at a Points b n)) c).
  { intros b n c Hrp Hc. pose proof Hrp as [Hb Hn]. rewrite HlP in Hb.
    assert (HnN : n < N) by (pose proof (np_le P a Hv b Hb); unfold N; lia).
    pose proof (padded_entry P2 a2 Hv2 Points P2 b n c EP2) as PE. rewrite N2, Np2, Lv2 in PE. fold N in PE. cbn [width] in PE.
    rewrite PE by (try assumption; lia). destruct (Nat.ltb_spec n (npoints a b)); [|lia].
    unfold a2, pinhole_spec.
    rewrite (attr_moved a1 Points P1) by (try assumption; try lia; rewrite <- (np_eq P1 a1 Hv1), Np1; assumption).
    cbn [mat_of]. rewrite (pinhole_pos (fun i j => elK [b; i; j]) (fK fr b)) by
      (try exact Hc; intros i j Hi Hj; unfold elK; cbn [rev app]; rewrite EsK; apply (EK b); lia).
    unfold image_pos, project_spec, persp.
    assert (EV : forall k, mvec 4 (fK fr b) (hom 3 (attr_at a1 Points b n)) k =
       mvec 4 (fK fr b) (hom 3 (to_camera (T b 0) (attr_at a Points b n))) k).
    { intros k. unfold mvec. cbn [rsum]. unfold hom. cbn [Nat.ltb Nat.leb].
      assert (Q : forall c, c < 3 -> attr_at a1 Points b n c = to_camera (T b 0) (attr_at a Points b n) c).
      { intros c' Hc'. destruct (Cam b n c' Hrp Hc') as [<- _].
        pose proof (padded_entry P1 a1 Hv1 Points P1 b n c' EP1) as PE1. rewrite N1, Np1, Lv1 in PE1. fold N in PE1. cbn [width] in PE1.
        rewrite PE1 by assumption. destruct (Nat.ltb_spec n (npoints a b)); [reflexivity|lia]. }
      rewrite !Q by lia. reflexivity. }
    rewrite !EV. reflexivity. }
  eexists. exists s3. split; [reflexivity|]. split; [exact HR3|].
  set (ok := fun q : nat * nat => _ && _ && _).
  assert (Hok : forall b n, b < length P -> n < N -> ok (b, n) = true <->
     real_point a b n /\ in_rectangle (fH fr) (fW fr) (image_pos (fK fr b) (to_camera (T b 0) (attr_at a Points b n)) 0%nat)
        (image_pos (fK fr b) (to_camera (T b 0) (attr_at a Points b n)) 1%nat) /\
     (0 < to_camera (T b 0%nat) (attr_at a Points b n) 2%nat)%R).
  { intros b n Hb HnN. unfold ok. cbn [fst snd]. rewrite (mapmask P a b n Hv Hb HnN m Em).
    destruct (Nat.ltb_spec n (npoints a b)) as [Hn|Hn].
    - assert (Hrp : real_point a b n) by (split; [rewrite HlP|]; assumption).
      rewrite !(Img b n) by (try exact Hrp; lia). destruct (Cam b n 2 Hrp) as [Ec _]; [lia|]. rewrite Ec.
      rewrite Ah, Aw, Bool.andb_true_r, andb_true_iff, in_frame_iff. unfold pos_dec.
      destruct (Rlt_dec 0 (to_camera (T b 0) (attr_at a Points b n) 2)); split; intros HH; try tauto; destruct HH as [_ HH]; try discriminate; tauto.
    - rewrite Bool.andb_false_r. split; [discriminate|]. intros [[_ Hc] _]. lia. }
  assert (Idx : forall b n, b < length P -> n < N -> forall k, k < 2 ->
     Z.to_nat (Int_part (at_ (create_meshgrid (length P) N false) [k; n; b; 0])) = if k =? 0 then b else n).
  { intros b n Hb HnN k Hk. destruct (p_meshgrid (length P) N) as [_ PM]. destruct (PM b n Hb HnN) as [PM1 PM2]. unfold comp in PM1, PM2.
    destruct k as [|[|k]]; [|  |lia]; cbn [Nat.eqb].
    - rewrite PM1, Int_part_INR. apply Nat2Z.id.
    - rewrite PM2, Int_part_INR. apply Nat2Z.id. }
  split.
  - apply (sorted_map lex2).
    + intros [b n] [b' n'] Hx Hy Hlex. apply filter_In in Hx, Hy. destruct Hx as [Hx _], Hy as [Hy _].
      apply in_prod_iff in Hx, Hy. rewrite !in_seq in Hx, Hy. unfold before_point. cbn [rb rn fst snd].
      rewrite !(Idx b n), !(Idx b' n') by lia. cbn [Nat.eqb]. exact Hlex.
    + apply sorted_filter, prod_sorted; apply seq_sorted.
  - intros b n h w. rewrite in_map_iff. split.
    + intros ([b' n'] & E & Hin). apply filter_In in Hin. destruct Hin as [Hin Hk]. apply in_prod_iff in Hin. rewrite !in_seq in Hin.
      cbn [fst snd] in E. rewrite !(Idx b' n') in E by lia. cbn [Nat.eqb] in E. injection E as E1' E2' E3' E4'. subst b' n'.
      apply Hok in Hk; [|lia|lia]. destruct Hk as (Hrp & Hrect & Hz). split; [exact Hrp|].
      rewrite !(Img b n) in E3', E4' by (try exact Hrp; lia). rewrite Ah in E3'. rewrite Aw in E4'.
      unfold seen_at. split; [exact Hz|]. split; [exact Hrect|]. destruct Hrect as [Hu Hvv]. subst h w.
      split; apply clamped_nearest; assumption.
    + intros (Hrp & Hz & Hrect & Hh & Hw). pose proof Hrp as [Hb Hn]. rewrite HlP in Hb.
      assert (HnN : n < N) by (pose proof (np_le P a Hv b Hb); unfold N; lia).
      exists (b, n). split.
      * cbn [fst snd]. rewrite !(Idx b n) by lia. cbn [Nat.eqb]. rewrite !(Img b n) by (try exact Hrp; lia).
        rewrite Ah, Aw. destruct Hrect as [Hu Hvv].
        f_equal; eapply nearest_unique; try eassumption; apply clamped_nearest; assumption.
      * apply filter_In. split; [apply in_prod_iff; rewrite !in_seq; lia|]. apply Hok; [exact Hb|exact HnN|]. auto.
Qed.
