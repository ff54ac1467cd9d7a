(* find_similar_map_points (C38). *)
From Coq Require Import Reals List Arith Bool ZArith Lia Lra Sorting.Sorted.
From Verif Require Import Res Fld StructUtilsModel StructUtilsSpec StructUtilsProofs PointcloudsModel PointcloudsSpec
  PointcloudsCtorSpec PointcloudsSetSpec PointcloudsIndexSpec PointcloudsHist PointcloudsProofs PointcloudsOps
  PointcloudsSet PointcloudsClone PointcloudsAppend PointcloudsHistProofs PointcloudsPropProofs
  MatSpec GeomSpec TensorModel TensorProofs GeomModel GeomProofs GeomPtsProofs RgbdModel RgbdSpec RgbdProofs RgbdCloud FusionModel FusionSpec FusionMap FusionActive.
Import ListNotations.
Local Open Scope nat_scope.

(* ---------------- last_row *)
Lemma last_row_in rows b n r : last_row rows b n = Some r -> In r rows /\ rb r = b /\ rn r = n.
Proof.
  intros H. unfold last_row in H. apply find_some in H. destruct H as [H1 H2]. apply in_rev in H1.
  apply andb_true_iff in H2. rewrite !Nat.eqb_eq in H2. tauto.
Qed.
Lemma last_row_none rows b n : last_row rows b n = None -> forall h w, ~ In (mkRow b n h w) rows.
Proof.
  intros H h w Hin. unfold last_row in H. apply in_rev in Hin. apply (find_none _ _ H) in Hin. cbn [rb rn] in Hin.
  rewrite !Nat.eqb_refl in Hin. discriminate.
Qed.
Lemma nodup_same {X Y} (f : X -> Y) l x y : NoDup (map f l) -> In x l -> In y l -> f x = f y -> x = y.
Proof.
  induction l as [|z l IH]; [contradiction|]. cbn. intros H. inversion H as [|? ? Hn Hd]; subst. intros [->|Hx] [->|Hy] E; auto.
  - exfalso. apply Hn. rewrite E. apply List.in_map. exact Hy.
  - exfalso. apply Hn. rewrite <- E. apply List.in_map. exact Hx.
Qed.
Lemma last_row_once rows r : points_once rows -> In r rows -> last_row rows (rb r) (rn r) = Some r.
Proof.
  intros H Hin. destruct (last_row rows (rb r) (rn r)) as [r'|] eqn:E.
  - destruct (last_row_in _ _ _ _ E) as (H1 & H2 & H3). f_equal. apply (nodup_same (fun r => (rb r, rn r)) rows); auto; congruence.
  - exfalso. destruct r as [b n h w]. cbn in E. exact (last_row_none _ _ _ E h w Hin).
Qed.

(* ---------------- scatter *)
Lemma pad_b N w (L : list (t2 RF)) : @t3b R (pad_to RF N w L) = length L.
Proof. exact (pad_to_b RF N w L). Qed.
Lemma tab_b B N w g : @t3b R (tab3 RF B N w g) = B.
Proof. exact (tab3_b RF B N w g). Qed.
Lemma forallb_true {X} (f : X -> bool) l : (forall x, In x l -> f x = true) -> forallb f l = true.
Proof. intros H. apply forallb_forall. exact H. Qed.
Lemma rows_image_ok {A} fr C (x : ten A) f rows : Image false fr C x f -> fL fr = 1 -> Forall (in_image fr) rows -> rows_in_image x rows = true.
Proof.
  intros HI HL HF. unfold rows_in_image. rewrite (img_dims _ _ _ _ _ HI), HL. apply forallb_true. intros r Hr.
  rewrite Forall_forall in HF. destruct (HF r Hr) as (H1 & H2 & H3).
  rewrite !andb_true_iff, !Nat.ltb_lt. repeat split; auto.
Qed.
Lemma img_at_ok {A} fr C (x : ten A) f r c : Image false fr C x f -> fL fr = 1 -> in_image fr r -> c < C ->
  img_at x r c = f (rb r) 0 (rh r) (rw r) c.
Proof.
  intros [_ HI] HL (H1 & H2 & H3) Hc. unfold img_at. apply (HI (rb r) 0 (rh r) (rw r) c); [|exact Hc].
  repeat split; auto. rewrite HL. lia.
Qed.
Lemma scatter_ok fr N w (L : list (t2 RF)) C x f rows : Image false fr C x f -> fL fr = 1 -> Forall (in_image fr) rows ->
  Forall (fun r => rb r < length L /\ rn r < N) rows -> C = w \/ C = 1 ->
  exists g, scatter (pad_to RF N w L) x rows = Ok (tab3 RF (length L) N w g) /\
    forall b n c, c < w -> g b n c = match last_row rows b n with
                            | Some r => f (rb r) 0 (rh r) (rw r) (if C =? 1 then 0 else c) | None => 0%R end.
Proof.
  intros HI HL HF HM HC. unfold scatter. rewrite (rows_image_ok fr C x f rows HI HL HF). cbn [guard rbind].
  rewrite pad_b. cbn [pad_to t3n t3c]. rewrite forallb_true.
  2:{ intros r Hr. rewrite Forall_forall in HM. destruct (HM r Hr). rewrite andb_true_iff, !Nat.ltb_lt. auto. }
  cbn [guard rbind]. rewrite (img_dims _ _ _ _ _ HI). cbn [hd].
  replace ((C =? w) || (C =? 1)) with true.
  2:{ symmetry. apply orb_true_iff. rewrite !Nat.eqb_eq. exact HC. }
  cbn [guard rbind]. eexists. split; [reflexivity|]. intros b n c Hc. cbv beta.
  destruct (last_row rows b n) as [r|] eqn:E; [|reflexivity]. destruct (last_row_in _ _ _ _ E) as (Hr & _).
  rewrite Forall_forall in HF. unfold bidx. apply (img_at_ok fr C x f r _ HI HL (HF r Hr)).
  destruct (Nat.eqb_spec C 1); lia.
Qed.

Lemma norm_eq u v : (forall k, k < 3 -> u k = v k) -> norm 3 u = norm 3 v.
Proof. intros H. unfold norm, dot. cbn [rsum]. rewrite !H by lia. reflexivity. Qed.
Lemma dot_eq u v u' v' : (forall k, k < 3 -> u k = u' k) -> (forall k, k < 3 -> v k = v' k) -> rsum 3 (fun k => (u k * v k)%R) = dot 3 u' v'.
Proof. intros H H'. unfold dot. cbn [rsum]. rewrite !H, !H' by lia. reflexivity. Qed.

Lemma filter_combine_map {X} (f : X -> bool) l : map fst (filter snd (combine l (map f l))) = filter f l.
Proof. induction l as [|x l IH]; cbn; [reflexivity|]. destruct (f x) eqn:E; cbn; [f_equal|]; exact IH. Qed.

Lemma real_in_pad P a r : valid_batch RF P a -> in_map a r -> rb r < length P /\ rn r < biggest (counts_of RF P).
Proof.
  intros Hv [H1 H2]. rewrite (len_P P a Hv) in H1. split; [exact H1|]. pose proof (np_le P a Hv (rb r) H1). lia.
Qed.

Lemma similar_ok s a g fr q P rows dist_th dot_th :
  Ready a s -> Inv q g false fr -> fL fr = 1 -> fB fr = len_view RF a -> qp a = Some P -> qn a <> None ->
  2 <= fH fr -> 2 <= fW fr -> Forall (in_map a) rows -> Forall (in_image fr) rows -> points_once rows -> rows <> [] ->
  exists test s' g', find_similar_map_points (Tbl rows) dist_th dot_th (s, g) = (Ok (filter test rows, map test rows), (s', g')) /\
    Ready a s' /\ Inv true g' false fr /\
    forall r, In r rows -> (test r = true <-> similar a fr dist_th dot_th r).
Proof.
  intros HR HI HL HB HP HN HH HW HM HF HO Hne. pose proof (batch_valid s a P (proj1 HR) HP) as Hv.
  pose proof HI as ((A0 & AB & AL & _ & _) & _). pose proof (len_P P a Hv) as HlP.
  destruct (qn a) as [LN|] eqn:EN; [clear HN|congruence].
  unfold find_similar_map_points. cbn [table_type table_rows].
  rewrite (mb_lift _ _ _ tt eq_refl).
  rewrite (mb_ok _ _ _ _ _ (onr_ok get s g _ _ eq_refl)).
  rewrite (mb_lift _ _ _ tt) by (rewrite AL, HL; reflexivity).
  rewrite (mb_lift _ _ _ rows eq_refl).
  destruct (rd_has a s HR Points) as (s1 & E1 & HR1). cbn [qget] in E1. rewrite HP in E1. cbn [is_some] in E1.
  rewrite (mb_ok _ _ _ _ _ (onp_ok _ s g _ _ E1)).
  replace (negb true || (length rows =? 0)) with false by (destruct rows; [congruence|reflexivity]).
  rewrite (mb_ok _ _ _ _ _ (onp_ok get s1 g _ _ eq_refl)).
  rewrite (mb_lift _ _ _ tt) by (rewrite AB, (rd_len a s1 HR1), HB, Nat.eqb_refl; reflexivity).
  destruct (rd_has a s1 HR1 Normals) as (s2 & E2 & HR2). cbn [qget] in E2. rewrite EN in E2. cbn [is_some] in E2.
  rewrite (mb_ok _ _ _ _ _ (onp_ok _ s1 g _ _ E2)). rewrite (mb_lift _ _ _ tt eq_refl).
  destruct (gvertex_read _ _ _ _ HI) as (vm & g1 & Ev & Hvm & HI1).
  rewrite (mb_ok _ _ _ _ _ (onr_ok _ s2 g _ _ Ev)).
  destruct (proj1 (gnormal_read _ _ _ _ HI1) HH HW) as (nm & g2 & En & Hnm & HI2).
  rewrite (mb_ok _ _ _ _ _ (onr_ok _ s2 g1 _ _ En)).
  destruct (rd_padded a s2 HR2 Points) as (s3 & E3 & HR3). rewrite (mb_ok _ _ _ _ _ (onp_ok _ s2 g2 _ _ E3)).
  destruct (rd_padded a s3 HR3 Normals) as (s4 & E4 & HR4). rewrite (mb_ok _ _ _ _ _ (onp_ok _ s3 g2 _ _ E4)).
  rewrite (padded_some RF P a Points P Hv HP), (padded_some RF P a Normals LN Hv EN). cbn [width].
  set (N := biggest (counts_of RF P)).
  pose proof (valid_len _ _ _ Normals _ Hv EN) as HlN.
  destruct (scatter_ok fr N 3 P 3 vm (global_vertex fr) rows Hvm HL HF) as (fp & Efp & Hfp); [|auto|].
  { rewrite Forall_forall in *. intros r Hr. apply (real_in_pad P a r Hv); auto. }
  rewrite (mb_lift _ _ _ _ Efp).
  destruct (scatter_ok fr N 3 LN 3 nm (global_normal fr) rows Hnm HL HF) as (fn & Efn & Hfn); [|auto|].
  { rewrite Forall_forall in *. intros r Hr. rewrite HlN. apply (real_in_pad P a r Hv); auto. }
  rewrite (mb_lift _ _ _ _ Efn).
  (* the comparisons *)
  assert (D1 : forall g0, dims (ten3 (tab3 RF (length P) N 3 g0)) = [3; N; length P]).
  { intros g0. unfold ten3. cbn [dims]. rewrite tab_b. reflexivity. }
  assert (D2 : dims (ten3 (pad_to RF N 3 P)) = [3; N; length P]) by (unfold ten3; cbn [dims]; rewrite pad_b; reflexivity).
  assert (D3 : dims (ten3 (pad_to RF N 3 LN)) = [3; N; length P]) by (unfold ten3; cbn [dims]; rewrite pad_b, HlN; reflexivity).
  assert (SE : forall l, shape_eqb l l = true) by (intros l; unfold shape_eqb; destruct (list_eq_dec _ l l); congruence).
  assert (PC : forall t1 t2, dims t1 = [3; N; length P] -> dims t2 = [3; N; length P] -> pair_check t1 t2 (-1) = Ok 0).
  { intros t1 t2 Q1 Q2. unfold pair_check. rewrite Q1, Q2, SE. cbn [guard rbind]. unfold dim_pos, ndim. rewrite Q1. reflexivity. }
  unfold are_points_close, are_normals_similar. rewrite HlN.
  rewrite (mb_lift _ _ _ _) by (rewrite (PC _ _ (D1 _) D2); reflexivity).
  rewrite (mb_lift _ _ _ _) by (rewrite (PC _ _ (D1 _) D3); reflexivity).
  cbn [at_]. unfold ten3, ins_at. cbn [firstn skipn app at_].
  set (test := fun r => _ && _).
  exists test, s4, g2. split; [unfold ret; rewrite filter_combine_map; reflexivity|]. split; [exact HR4|]. split; [exact HI2|].
  intros r Hr. rewrite Forall_forall in HM, HF. pose proof (HM r Hr) as Hmr. pose proof (HF r Hr) as Hir.
  destruct (real_in_pad P a r Hv Hmr) as [Hb Hn]. fold N in Hn. destruct Hmr as [_ Hnp].
  assert (Hlr : last_row rows (rb r) (rn r) = Some r) by (apply last_row_once; assumption).
  assert (V1 : forall k, k < 3 -> get3 RF (tab3 RF (length P) N 3 fp) (rb r) (rn r) k = frame_point fr r k).
  { intros k Hk. rewrite get3_tab3 by assumption. rewrite (Hfp _ _ _ Hk), Hlr. reflexivity. }
  assert (V2 : forall k, k < 3 -> get3 RF (tab3 RF (length P) N 3 fn) (rb r) (rn r) k = frame_normal fr r k).
  { intros k Hk. rewrite get3_tab3 by assumption. rewrite (Hfn _ _ _ Hk), Hlr. reflexivity. }
  assert (V3 : forall k, k < 3 -> get3 RF (pad_to RF N 3 P) (rb r) (rn r) k = attr_at a Points (rb r) (rn r) k).
  { intros k Hk. pose proof (padded_entry P a Hv Points P (rb r) (rn r) k HP Hb Hn Hk) as PE. cbn [width] in PE. fold N in PE.
    rewrite PE. destruct (Nat.ltb_spec (rn r) (npoints a (rb r))); [reflexivity|lia]. }
  assert (V4 : forall k, k < 3 -> get3 RF (pad_to RF N 3 LN) (rb r) (rn r) k = attr_at a Normals (rb r) (rn r) k).
  { intros k Hk. pose proof (padded_entry P a Hv Normals LN (rb r) (rn r) k EN Hb Hn Hk) as PE. cbn [width] in PE. fold N in PE.
    rewrite PE. destruct (Nat.ltb_spec (rn r) (npoints a (rb r))); [reflexivity|lia]. }
  unfold test, similar, distance.
  rewrite (norm_eq _ (fun k => (frame_point fr r k - attr_at a Points (rb r) (rn r) k)%R)) by (intros k Hk; rewrite V1, V3 by exact Hk; reflexivity).
  rewrite (dot_eq _ _ (frame_normal fr r) (attr_at a Normals (rb r) (rn r)) V2 V4).
  destruct (Rlt_dec _ dist_th); destruct (Rlt_dec dot_th _); cbn [andb]; split; intros K; try discriminate; try tauto.
Qed.
