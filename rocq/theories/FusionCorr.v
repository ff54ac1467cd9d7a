(* The three correspondence steps together, and update_map_fusion (C42). *)
From Coq Require Import Reals List Arith Bool ZArith Lia Lra Sorting.Sorted Sorting.Permutation.
From Verif Require Import Res Fld StructUtilsModel StructUtilsSpec StructUtilsProofs PointcloudsModel PointcloudsSpec
  PointcloudsCtorSpec PointcloudsSetSpec PointcloudsIndexSpec PointcloudsHist PointcloudsProofs PointcloudsOps
  PointcloudsSet PointcloudsClone PointcloudsAppend PointcloudsHistProofs PointcloudsPropProofs PointcloudsCloneAppend
  MatSpec GeomSpec TensorModel TensorProofs GeomModel GeomProofs GeomPtsProofs RgbdModel RgbdSpec RgbdProofs RgbdOps RgbdCloud
  FusionModel FusionSpec FusionMap FusionActive FusionSimilar FusionBest FusionMerge FusionFuse.
Import ListNotations.
Local Open Scope nat_scope.

Lemma nearest_lt u k W : (u < INR W - 1 + / 1000)%R -> nearest u k -> k < W.
Proof.
  intros H [Hn _]. apply INR_lt. pose proof (Rle_abs (- (u - INR k))) as Ha. rewrite Rabs_Ropp in Ha. 
  assert (INR k < INR (W))%R; [|assumption].
  destruct (Rlt_or_le (INR k) (INR W)) as [|Hge]; [assumption|]. exfalso. lra.
Qed.
Lemma seen_in_image a fr T b n h w : fB fr = len_view RF a -> real_point a b n -> seen_at a fr T b n h w -> in_image fr (mkRow b n h w).
Proof.
  intros HB [Hb _] (_ & ((_ & H1) & (_ & H2)) & N1 & N2). unfold in_image. cbn [rb rh rw]. split; [congruence|].
  split; eapply nearest_lt; eassumption.
Qed.
Lemma sorted_once rows : StronglySorted before_point rows -> points_once rows.
Proof.
  induction 1 as [|r rows Hs IH Hf]; [constructor|]. cbn. constructor; [|exact IH].
  intros Hin. apply in_map_iff in Hin. destruct Hin as (r' & E & Hr). rewrite Forall_forall in Hf. specialize (Hf r' Hr).
  injection E as E1 E2. unfold before_point in Hf. lia.
Qed.
Lemma sorted_pixels rows : StronglySorted before_pixel rows -> pixels_once rows.
Proof.
  induction 1 as [|r rows Hs IH Hf]; [constructor|]. cbn. constructor; [|exact IH].
  intros Hin. apply in_map_iff in Hin. destruct Hin as (r' & E & Hr). rewrite Forall_forall in Hf. specialize (Hf r' Hr).
  injection E as E1 E2 E3. unfold before_pixel in Hf. lia.
Qed.
Lemma once_filter rows f : points_once rows -> points_once (filter f rows).
Proof.
  unfold points_once. induction rows as [|r rows IH]; cbn; [auto|]. intros H. inversion H as [|? ? H1 H2]; subst.
  destruct (f r); [|auto]. cbn. constructor; [|auto]. intros Hin. apply H1. apply in_map_iff in Hin. destruct Hin as (r' & E & Hr).
  apply filter_In in Hr. apply in_map_iff. exists r'. tauto.
Qed.
Lemma once_sub rows out : points_once rows -> pixels_once out -> (forall r, In r out -> In r rows) -> points_once out.
Proof.
  intros Hp Hx Hs. unfold points_once, pixels_once in *. induction out as [|r out IH]; cbn; [constructor|].
  inversion Hx as [|? ? H1 H2]; subst. constructor; [|apply IH; auto; intros; apply Hs; now right].
  intros Hin. apply in_map_iff in Hin. destruct Hin as (r' & E & Hr).
  assert (r' = r). { apply (nodup_same (fun r => (rb r, rn r)) rows); auto; [apply Hs; now right|apply Hs; now left]. }
  subst r'. apply H1. apply in_map_iff. exists r. auto.
Qed.

(* rounding is exact on all indices that occur *)
Definition small_enough (rnd : R -> R) (a : batch RF) (fr : frames) : Prop :=
  forall k, k < fB fr \/ k < fH fr \/ k < fW fr \/ (exists b, b < fB fr /\ k < npoints a b) -> rnd (INR k) = INR k.

Lemma corr_ok rnd s a g fr q T P dist_th dot_th :
  Ready a s -> Inv q g false fr -> fL fr = 1 -> fB fr = len_view RF a -> qp a = Some P -> fpose fr = Some T ->
  full_map a -> 2 <= fH fr -> 2 <= fW fr -> small_enough rnd a fr ->
  exists rows s' g', find_correspondences rnd dist_th dot_th (s, g) = (Ok rows, (s', g')) /\
    Ready a s' /\ (exists q', Inv q' g' false fr) /\ Correspondences a fr T dist_th dot_th rows.
Proof.
  intros HR HI HL HB HP HT (Hall & Hw & Hpos) HH HW Hrnd. unfold find_correspondences.
  destruct (active_nonempty s a g false fr q T P HR HI HL HB HT HP) as (act & s1 & E1 & HR1 & Hs1 & Hact).
  rewrite (mb_ok _ _ _ _ _ E1).
  assert (HM : Forall (in_map a) act).
  { apply Forall_forall. intros [b n h w] Hr. apply Hact in Hr. exact (proj1 Hr). }
  assert (HF : Forall (in_image fr) act).
  { apply Forall_forall. intros [b n h w] Hr. apply Hact in Hr. eapply seen_in_image; [exact HB| |]; apply Hr. }
  pose proof (sorted_once _ Hs1) as HO.
  assert (E2 : exists test s2 g2 q2 mask, find_similar_map_points (Tbl act) dist_th dot_th (s1, g) = (Ok (filter test act, mask), (s2, g2)) /\
     Ready a s2 /\ Inv q2 g2 false fr /\ forall r, In r act -> (test r = true <-> similar a fr dist_th dot_th r)).
  { destruct act as [|r0 act0] eqn:EA.
    - exists (fun _ => true). unfold find_similar_map_points. cbn [table_type table_rows]. pose proof HI as ((A0 & AB & AL & _ & _) & _).
      rewrite (mb_lift _ _ _ tt eq_refl).
      rewrite (mb_ok _ _ _ _ _ (onr_ok get s1 g _ _ eq_refl)).
      rewrite (mb_lift _ _ _ tt) by (rewrite AL, HL; reflexivity).
      rewrite (mb_lift _ _ _ [] eq_refl).
      destruct (rd_has a s1 HR1 Points) as (s2 & F2 & HR2). rewrite (mb_ok _ _ _ _ _ (onp_ok _ s1 g _ _ F2)).
      cbn [length Nat.eqb]. rewrite orb_true_r. exists s2, g, q, []. split; [reflexivity|]. split; [exact HR2|]. split; [exact HI|]. intros r [].
    - destruct (similar_ok s1 a g fr q P (r0 :: act0) dist_th dot_th HR1 HI HL HB HP) as (test & s2 & g2 & F & HR2 & HI2 & Ht); auto; [exact (Hall Normals)|discriminate|].
      exists test, s2, g2, true, (map test (r0 :: act0)). auto. }
  destruct E2 as (test & s2 & g2 & q2 & mask & E2 & HR2 & HI2 & Ht). rewrite (mb_ok _ _ _ _ _ E2).
  assert (HM2 : Forall (in_map a) (filter test act)) by (rewrite Forall_forall in *; intros r Hr; apply filter_In in Hr; apply HM, Hr).
  assert (HF2 : Forall (in_image fr) (filter test act)) by (rewrite Forall_forall in *; intros r Hr; apply filter_In in Hr; apply HF, Hr).
  destruct (best_rows rnd s2 a g2 fr q2 P (filter test act) HR2 HI2 HL HB HP (Hall Features) HM2 HF2) as (out & s3 & g3 & E3 & HR3 & HI3 & Hsub & Hsort & _ & Hbest).
  { rewrite Forall_forall in *. intros r Hr. pose proof (HM2 r Hr) as [K1 K2]. pose proof (HF2 r Hr) as (K3 & K4 & K5).
    unfold exact_on. repeat split; apply Hrnd; auto. right. right. right. exists (rb r). auto. }
  exists out, s3, g3. split; [exact E3|]. split; [exact HR3|]. split; [exact HI3|].
  split; [eapply once_sub; [apply (once_filter act test HO)|apply sorted_pixels; exact Hsort|exact Hsub]|].
  split; [exact Hsort|]. split.
  - intros b n h w Hm. apply Hsub in Hm. apply filter_In in Hm. destruct Hm as [Hin Htr].
    pose proof (proj1 (Hact b n h w) Hin) as [K1 K2]. split; [exact K1|]. split; [exact K2|]. apply Ht; assumption.
  - intros b n h w Hr Hsee Hsim.
    destruct (Hbest Hw) with (r := mkRow b n h w) as (r' & Hin & (E4 & E5 & E6) & Hg).
    { intros r Hin. rewrite Forall_forall in HM2. apply Hpos. apply (HM2 r Hin). }
    { apply filter_In. assert (Hin : In (mkRow b n h w) act) by (apply Hact; auto). split; [exact Hin|]. apply Ht; assumption. }
    cbn [rb rh rw] in E4, E5, E6. destruct r' as [b' n' h' w']. cbn [rb rh rw] in *. subst b' h' w'. exists n'. split; assumption.
Qed.
Lemma corr_empty {cf} rnd s a g fr q dist_th dot_th :
  Ready a s -> Inv q g cf fr -> fL fr = 1 -> qp a = None ->
  exists s', find_correspondences rnd dist_th dot_th (s, g) = (Ok [], (s', g)) /\ Ready a s'.
Proof.
  intros HR HI HL HP. pose proof HI as ((A0 & AB & AL & _ & _) & _).
  assert (Hh : forall s, Ready a s -> exists s', has RF Points s = (Ok false, s') /\ Ready a s').
  { intros s0 H0. destruct (rd_has a s0 H0 Points) as (s1 & E & H1). change (qget Points a) with (qp a) in E. rewrite HP in E. eauto. }
  unfold find_correspondences.
  destruct (Hh s HR) as (s1 & E1 & H1). destruct (Hh s1 H1) as (s2 & E2 & H2). destruct (Hh s2 H2) as (s3 & E3 & H3).
  assert (F1 : find_active_map_points (s, g) = (Ok [], (s1, g))).
  { unfold find_active_map_points. rewrite (mb_ok _ _ _ _ _ (onr_ok get s g _ _ eq_refl)).
    rewrite (mb_lift _ _ _ tt) by (rewrite AL, HL; reflexivity). rewrite (mb_ok _ _ _ _ _ (onp_ok _ s g _ _ E1)). reflexivity. }
  assert (F2 : find_similar_map_points (Tbl []) dist_th dot_th (s1, g) = (Ok ([], []), (s2, g))).
  { unfold find_similar_map_points. cbn [table_type table_rows]. rewrite (mb_lift _ _ _ tt eq_refl).
    rewrite (mb_ok _ _ _ _ _ (onr_ok get s1 g _ _ eq_refl)). rewrite (mb_lift _ _ _ tt) by (rewrite AL, HL; reflexivity).
    rewrite (mb_lift _ _ _ [] eq_refl). rewrite (mb_ok _ _ _ _ _ (onp_ok _ s1 g _ _ E2)). reflexivity. }
  assert (F3 : find_best_unique_correspondences rnd (Tbl []) (s2, g) = (Ok [], (s3, g))).
  { unfold find_best_unique_correspondences. cbn [table_type table_rows]. rewrite (mb_lift _ _ _ tt eq_refl).
    rewrite (mb_ok _ _ _ _ _ (onr_ok get s2 g _ _ eq_refl)). rewrite (mb_lift _ _ _ tt) by (rewrite AL, HL; reflexivity).
    rewrite (mb_lift _ _ _ [] eq_refl). rewrite (mb_ok _ _ _ _ _ (onp_ok _ s2 g _ _ E3)). reflexivity. }
  rewrite (mb_ok _ _ _ _ _ F1), (mb_ok _ _ _ _ _ F2), F3. exists s3. auto.
Qed.

(* update_map_fusion *)
Definition corr_table (a : batch RF) (fr : frames) (dist_th dot_th : R) (rows : list row) : Prop :=
  match qp a with
  | None => rows = []
  | Some _ => exists T, fpose fr = Some T /\ Correspondences a fr T dist_th dot_th rows
  end.
Lemma table_facts a fr dist_th dot_th rows : (qp a <> None -> fB fr = len_view RF a) -> corr_table a fr dist_th dot_th rows ->
  Forall (in_map a) rows /\ Forall (in_image fr) rows /\ points_once rows /\ pixels_once rows /\
  Forall (similar a fr dist_th dot_th) rows.
Proof.
  unfold corr_table. intros HB H. destruct (qp a).
  - specialize (HB ltac:(discriminate)). destruct H as (T & _ & H1 & H2 & H3 & _).
    split; [apply Forall_forall; intros [b n h w] Hr; apply (H3 b n h w Hr)|].
    split; [apply Forall_forall; intros [b n h w] Hr; destruct (H3 b n h w Hr) as (K1 & K2 & _); eapply seen_in_image; eassumption|].
    split; [exact H1|]. split; [apply sorted_pixels; exact H2|].
    apply Forall_forall. intros [b n h w] Hr. apply (H3 b n h w Hr).
  - subst rows. repeat (split; [constructor|]). constructor.
Qed.
Lemma update_ok rnd s a g fr q dist_th dot_th sigma inplace :
  Ready a s -> Inv q g false fr -> fL fr = 1 -> 0 < fB fr -> 2 <= fH fr -> 2 <= fW fr -> sigma <> 0%R ->
  (qp a <> None -> full_map a /\ fB fr = len_view RF a /\ fpose fr <> None) -> small_enough rnd a fr ->
  exists rows o s' g' a', update_map_fusion rnd dist_th dot_th (SigNum sigma) inplace (s, g) = (Ok o, (s', g')) /\
    match o with
    | PSelf => inplace = true /\ Ready a' s'
    | PNew p => inplace = false /\ Ready a' p /\ exists a1, Hist RF s' a1 /\ Merged sigma fr rows a a1 /\ (rows = [] -> a1 = a)
    end /\ corr_table a fr dist_th dot_th rows /\ Fused sigma fr rows a a' /\ full_map a' /\ (positive a -> positive a') /\ Inv true g' false fr.
Proof.
  intros HR HI HL HB0 HH HW Hs Hfull Hrnd. unfold update_map_fusion.
  assert (E : exists rows s1 g1 q1, find_correspondences rnd dist_th dot_th (s, g) = (Ok rows, (s1, g1)) /\ Ready a s1 /\ Inv q1 g1 false fr /\
     corr_table a fr dist_th dot_th rows).
  { unfold corr_table. destruct (qp a) as [P|] eqn:EP.
    - destruct (Hfull ltac:(discriminate)) as (Hfm & HB & HT). destruct (fpose fr) as [T|] eqn:ET; [|congruence].
      destruct (corr_ok rnd s a g fr q T P dist_th dot_th HR HI HL HB EP ET Hfm HH HW Hrnd) as (rows & s1 & g1 & E & H1 & (q1 & H2) & H3).
      exists rows, s1, g1, q1. split; [exact E|]. split; [exact H1|]. split; [exact H2|]. exists T. auto.
    - destruct (corr_empty rnd s a g fr q dist_th dot_th HR HI HL EP) as (s1 & E & H1). exists [], s1, g, q. auto. }
  destruct E as (rows & s1 & g1 & q1 & E & HR1 & HI1 & HC). rewrite (mb_ok _ _ _ _ _ E).
  destruct (table_facts a fr dist_th dot_th rows (fun Hq => proj1 (proj2 (Hfull Hq))) HC) as (HM & HF & HO & _).
  destruct (fuse_ok s1 a g1 fr q1 rows sigma inplace HR1 HI1 HL HB0 HH HW Hs) as (o & s' & g' & a' & Ef & Ho & HFu & HFm & HPos & HI'); auto.
  { intros Hq. destruct (Hfull Hq) as (K1 & K2 & _). auto. }
  exists rows, o, s', g', a'. auto 10.
Qed.

(* ---------------- conservation *)
Lemma rsum_plus n f g : rsum n (fun k => (f k + g k)%R) = (rsum n f + rsum n g)%R.
Proof. induction n as [|n IH]; cbn; [ring|]. rewrite IH. ring. Qed.
Lemma rsum_ext' n f g : (forall k, k < n -> f k = g k) -> rsum n f = rsum n g.
Proof. induction n as [|n IH]; cbn; intros H; [reflexivity|]. rewrite IH by (intros; apply H; lia). rewrite H by lia. reflexivity. Qed.
Lemma rsum_app n m f : rsum (n + m) f = (rsum n f + rsum m (fun k => f (n + k)%nat))%R.
Proof. induction m as [|m IH]; cbn; [rewrite Nat.add_0_r; ring|]. rewrite Nat.add_succ_r. cbn. rewrite IH. ring. Qed.
Lemma rsum_zero n : rsum n (fun _ => 0%R) = 0%R.
Proof. induction n as [|n IH]; cbn; [reflexivity|]. rewrite IH. ring. Qed.
Lemma rsum_point n k x : k < n -> rsum n (fun j => if k =? j then x else 0%R) = x.
Proof.
  induction n as [|n IH]; [lia|]. intros Hk. cbn. destruct (Nat.eq_dec k n) as [->|Hn].
  - rewrite Nat.eqb_refl. rewrite (rsum_ext' n _ (fun _ => 0%R)) by (intros j Hj; destruct (Nat.eqb_spec n j); [lia|reflexivity]). rewrite rsum_zero. ring.
  - rewrite IH by lia. destruct (Nat.eqb_spec k n); [lia|ring].
Qed.
Lemma rsum_list {X} n (l : list X) f : rsum n (fun k => sum_list (map (fun x => f x k) l)) = sum_list (map (fun x => rsum n (f x)) l).
Proof. induction l as [|x l IH]; cbn; [apply rsum_zero|]. refine (eq_trans (rsum_plus _ _ _) _). f_equal. exact IH. Qed.
Lemma sum_nth l : rsum (length l) (fun k => nth k l 0%R) = sum_list l.
Proof.
  induction l as [|x l IH]; [reflexivity|]. cbn [length]. change (S (length l)) with (1 + length l). rewrite rsum_app. cbn [rsum nth Nat.add sum_list fold_right].
  fold (sum_list l). rewrite <- IH. ring.
Qed.
Lemma sum_perm l l' : Permutation l l' -> sum_list l = sum_list l'.
Proof. unfold sum_list. induction 1; cbn; lra. Qed.
Lemma sum_split {X} (f : X -> R) p l : sum_list (map f l) = (sum_list (map f (filter p l)) + sum_list (map f (filter (fun x => negb (p x)) l)))%R.
Proof. unfold sum_list. induction l as [|x l IH]; cbn; [lra|]. destruct (p x); cbn; rewrite IH; ring. Qed.
Lemma nodup_app {X} (l l' : list X) : NoDup l -> NoDup l' -> (forall x, In x l -> ~ In x l') -> NoDup (l ++ l').
Proof.
  intros H H' D. induction H as [|x l Hx Hl IH]; cbn; [exact H'|]. constructor.
  - rewrite in_app_iff. intros [K|K]; [auto|]. apply (D x); [now left|exact K].
  - apply IH. intros y Hy. apply D. now right.
Qed.
Lemma nodup_prod {X Y} (l : list X) (l' : list Y) : NoDup l -> NoDup l' -> NoDup (list_prod l l').
Proof.
  intros H H'. induction H as [|x l Hx Hl IH]; cbn; [constructor|]. apply nodup_app; [|exact IH|].
  - apply FinFun.Injective_map_NoDup; [intros y y' E; congruence|exact H'].
  - intros [x' y] Hin Hin2. apply in_map_iff in Hin. destruct Hin as (y' & E & _). injection E as <- <-.
    apply in_prod_iff in Hin2. tauto.
Qed.
Lemma nodup_chosen fr b : NoDup (chosen true fr b).
Proof. unfold chosen, row_major. apply NoDup_filter. apply nodup_prod; apply seq_NoDup. Qed.

(* the increment of the confidence of one point *)
Definition gain sigma fr (rows : list row) (b n : nat) : R :=
  sum_list (map (fun r => if rn r =? n then frame_alpha sigma fr b (rh r) (rw r) else 0%R) (filter (fun r => rb r =? b) rows)).
Lemma gain_none sigma fr rows b n : unmatched rows b n -> gain sigma fr rows b n = 0%R.
Proof.
  unfold unmatched, gain, sum_list. induction rows as [|r rows IH]; cbn; intros H; [reflexivity|].
  assert (IH' : forall h w, ~ In (mkRow b n h w) rows) by (intros h w Hin; apply (H h w); now right).
  destruct (Nat.eqb_spec (rb r) b); cbn; rewrite ?IH by exact IH'; [|reflexivity].
  destruct (Nat.eqb_spec (rn r) n); [|ring]. exfalso. apply (H (rh r) (rw r)). left. subst. destruct r; reflexivity.
Qed.
Lemma gain_some sigma fr rows b n h w : points_once rows -> matched rows b n h w -> gain sigma fr rows b n = frame_alpha sigma fr b h w.
Proof.
  unfold matched. induction rows as [|r rows IH]; [contradiction|]. intros Hp Hm. inversion Hp as [|? ? H1 H2]; subst.
  assert (Hg : gain sigma fr (r :: rows) b n = ((if (rb r =? b) && (rn r =? n) then frame_alpha sigma fr b (rh r) (rw r) else 0) + gain sigma fr rows b n)%R).
  { unfold gain, sum_list. cbn. destruct (rb r =? b); cbn; [reflexivity|ring]. }
  rewrite Hg. destruct Hm as [->|Hm].
  - cbn [rb rn rh rw]. rewrite !Nat.eqb_refl. cbn [andb]. rewrite gain_none; [ring|]. intros h' w' Hin. apply H1.
    apply in_map_iff. exists (mkRow b n h' w'). auto.
  - rewrite (IH H2 Hm). destruct (Nat.eqb_spec (rb r) b); cbn [andb]; [|ring]. destruct (Nat.eqb_spec (rn r) n); [|ring].
    exfalso. apply H1. apply in_map_iff. exists (mkRow b n h w). cbn. subst. auto.
Qed.
Lemma match_dec rows b n : (exists h w, matched rows b n h w) \/ unmatched rows b n.
Proof.
  unfold matched, unmatched. destruct (existsb (fun r => (rb r =? b) && (rn r =? n)) rows) eqn:E.
  - left. apply existsb_exists in E. destruct E as ([b' n' h w] & Hin & E). apply andb_true_iff in E. destruct E as [E1 E2].
    apply Nat.eqb_eq in E1, E2. cbn in *. subst. eauto.
  - right. intros h w Hin. assert (K : existsb (fun r => (rb r =? b) && (rn r =? n)) rows = true).
    { apply existsb_exists. exists (mkRow b n h w). cbn. rewrite !Nat.eqb_refl. auto. } congruence.
Qed.

(* all pixels of the table have valid depth *)
Definition valid_pixels fr (rows : list row) : Prop := Forall (fun r => (0 < fdep fr (rb r) 0 (rh r) (rw r))%R) rows.
Lemma similar_valid a fr dist_th dot_th rows : (0 <= dot_th)%R -> Forall (similar a fr dist_th dot_th) rows -> valid_pixels fr rows.
Proof.
  intros Hd H. apply Forall_forall. rewrite Forall_forall in H. intros r Hr. destruct (H r Hr) as [_ Hs].
  destruct (Rlt_dec 0 (fdep fr (rb r) 0 (rh r) (rw r))) as [K|K]; [exact K|]. exfalso.
  assert (Z : forall j, normal fr (rb r) 0 (rh r) (rw r) j = 0%R).
  { intros j. unfold normal, keep. destruct (Rlt_dec 0 (fdep fr (rb r) 0 (rh r) (rw r))); [contradiction|reflexivity]. }
  assert (Z2 : forall j, frame_normal fr r j = 0%R).
  { intros j. unfold frame_normal, global_normal. destruct (fpose fr) as [T|]; [|apply Z].
    unfold mvec. cbn [rsum]. rewrite !Z. ring. }
  unfold dot in Hs. cbn [rsum] in Hs. rewrite !Z2 in Hs. lra.
Qed.

(* the pixels of the table in frame b *)
Definition table_pixels (rows : list row) (b : nat) : list (nat * nat) := map (fun r => (rh r, rw r)) (filter (fun r => rb r =? b) rows).
Lemma nodup_table rows b : pixels_once rows -> NoDup (table_pixels rows b).
Proof.
  unfold pixels_once, table_pixels. induction rows as [|r rows IH]; cbn; intros H; [constructor|]. inversion H as [|? ? H1 H2]; subst.
  destruct (Nat.eqb_spec (rb r) b); [|auto]. cbn. constructor; [|auto]. intros Hin. apply H1. apply in_map_iff in Hin.
  destruct Hin as (r' & E & Hr). apply filter_In in Hr. destruct Hr as [Hr Eb]. apply Nat.eqb_eq in Eb.
  apply in_map_iff. exists r'. split; [|exact Hr]. injection E as E1 E2. congruence.
Qed.
Definition used (rows : list row) (b : nat) (q : nat * nat) : bool := existsb (fun r => (rb r =? b) && (rh r =? fst q) && (rw r =? snd q)) rows.
Lemma used_iff rows b q : used rows b q = true <-> In q (table_pixels rows b).
Proof.
  unfold used, table_pixels. rewrite existsb_exists, in_map_iff. split.
  - intros (r & Hr & E). apply andb_true_iff in E. destruct E as [E E3]. apply andb_true_iff in E. destruct E as [E1 E2].
    apply Nat.eqb_eq in E2, E3. exists r. split; [destruct q; cbn in *; congruence|]. apply filter_In. auto.
  - intros (r & E & Hr). apply filter_In in Hr. destruct Hr as [Hr Eb]. exists r. split; [exact Hr|]. subst q. cbn. now rewrite Eb, !Nat.eqb_refl.
Qed.
Lemma table_perm rows fr b : pixels_once rows -> Forall (in_image fr) rows -> valid_pixels fr rows ->
  Permutation (filter (used rows b) (chosen true fr b)) (table_pixels rows b).
Proof.
  intros Hp HF Hv. apply NoDup_Permutation; [apply NoDup_filter, nodup_chosen|now apply nodup_table|].
  intros q. rewrite filter_In, used_iff. split; [tauto|]. intros Hq. split; [|exact Hq].
  unfold table_pixels in Hq. apply in_map_iff in Hq. destruct Hq as (r & <- & Hr). apply filter_In in Hr. destruct Hr as [Hr Eb].
  apply Nat.eqb_eq in Eb. unfold valid_pixels in Hv. rewrite Forall_forall in HF, Hv. destruct (HF r Hr) as (_ & K1 & K2). specialize (Hv r Hr).
  rewrite Eb in Hv. apply filter_In. split.
  - unfold row_major. apply in_prod; apply in_seq; lia.
  - cbn [fst snd]. destruct (Rlt_dec _ _); [reflexivity|contradiction].
Qed.

Lemma conserve sigma fr rows a a' : Fused sigma fr rows a a' ->
  Forall (in_map a) rows -> Forall (in_image fr) rows -> points_once rows -> pixels_once rows -> valid_pixels fr rows ->
  forall b, b < fB fr -> total a' b = (total a b + total_alpha sigma fr b)%R.
Proof.
  intros (_ & HFu) HM HF HO HP HV b Hb. destruct (HFu b Hb) as (Hn & Hun & Hun0 & Hma & Hnew). clear HFu. cbv zeta in *.
  set (al := fun q : nat * nat => frame_alpha sigma fr b (fst q) (snd q)).
  unfold total. rewrite Hn, rsum_app.
  assert (E1 : rsum (npoints a b) (fun n => conf a' b n) = (rsum (npoints a b) (fun n => conf a b n) + rsum (npoints a b) (gain sigma fr rows b))%R).
  { rewrite <- rsum_plus. apply rsum_ext'. intros n Hlt. destruct (match_dec rows b n) as [(h & w & Hm)|Hu].
    - destruct (Hma n h w Hm) as [-> _]. now rewrite (gain_some sigma fr rows b n h w HO Hm).
    - rewrite (gain_none _ _ _ _ _ Hu), Rplus_0_r. destruct (Req_dec (conf a b n) 0) as [Hz|Hz].
      + destruct rows as [|r0 rows0]; [exact (Hun n Hlt Hu (or_intror eq_refl) Features 0 ltac:(cbn; lia))|].
        rewrite Hz. exact (Hun0 n Hlt Hu Hz ltac:(discriminate) Features 0 ltac:(cbn; lia)).
      + exact (Hun n Hlt Hu (or_introl Hz) Features 0 ltac:(cbn; lia)). }
  rewrite E1.
  assert (E2 : rsum (npoints a b) (gain sigma fr rows b) = sum_list (map al (table_pixels rows b))).
  { unfold gain. rewrite rsum_list. unfold table_pixels. rewrite map_map. f_equal. apply map_ext_in. intros r Hr.
    apply filter_In in Hr. destruct Hr as [Hr Eb]. apply Nat.eqb_eq in Eb. rewrite Forall_forall in HM. destruct (HM r Hr) as [_ Hlt]. rewrite Eb in Hlt.
    rewrite rsum_point by exact Hlt. reflexivity. }
  rewrite E2.
  assert (E3 : rsum (length (fresh_pixels rows fr b)) (fun k => conf a' b (npoints a b + k)) = sum_list (map al (fresh_pixels rows fr b))).
  { rewrite <- sum_nth, map_length. apply rsum_ext'. intros k Hk.
    destruct (nth_error (fresh_pixels rows fr b) k) as [[h w]|] eqn:E; [|apply nth_error_None in E; lia].
    destruct (Hnew k h w E) as [-> _]. erewrite nth_error_nth; [|rewrite nth_error_map, E; reflexivity]. reflexivity. }
  rewrite E3. unfold total_alpha. fold al. rewrite (sum_split al (used rows b) (chosen true fr b)).
  rewrite (sum_perm _ _ (Permutation_map al (table_perm rows fr b HP HF HV))).
  change (filter (fun x => negb (used rows b x)) (chosen true fr b)) with (fresh_pixels rows fr b). ring.
Qed.
