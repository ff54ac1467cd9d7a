(* fuse_with_map (C41). *)
From Coq Require Import Reals List Arith Bool ZArith Lia Lra Sorting.Sorted.
From Verif Require Import Res Fld StructUtilsModel StructUtilsSpec StructUtilsProofs PointcloudsModel PointcloudsSpec
  PointcloudsCtorSpec PointcloudsSetSpec PointcloudsIndexSpec PointcloudsHist PointcloudsProofs PointcloudsOps
  PointcloudsSet PointcloudsClone PointcloudsAppend PointcloudsHistProofs PointcloudsPropProofs PointcloudsCloneAppend
  MatSpec GeomSpec TensorModel TensorProofs GeomModel GeomProofs GeomPtsProofs RgbdModel RgbdSpec RgbdProofs RgbdOps RgbdCloud
  FusionModel FusionSpec FusionMap FusionActive FusionSimilar FusionMerge.
Import ListNotations.
Local Open Scope nat_scope.

(* ---------------- the appended points *)
Definition new_attr (fr : frames) (sigma : R) (x : attr) (b h w : nat) : vec :=
  match x with Features => fun _ => frame_alpha sigma fr b h w | _ => frame_attr fr x b h w end.
Definition new_list (fr : frames) (sigma : R) (rows : list row) (x : attr) : list (t2 R) :=
  map (fun b => mkT2 (wd x) (map (fun q => map (new_attr fr sigma x b (fst q) (snd q)) (seq 0 (wd x))) (fresh_pixels rows fr b)))
    (seq 0 (fB fr)).
Definition new_batch fr sigma rows : batch RF :=
  let L x := Some (new_list fr sigma rows x : list (t2 RF)) in mkQ (L Points) (L Normals) (L Colors) (L Features).

Lemma new_valid fr sigma rows : 0 < fB fr -> valid_batch RF (new_list fr sigma rows Points) (new_batch fr sigma rows).
Proof.
  intros HB. split; [reflexivity|]. split; [unfold new_list; destruct (fB fr); [lia|discriminate]|].
  intros x L HL.
  assert (EL : L = new_list fr sigma rows x) by (destruct x; cbn in HL; injection HL as <-; reflexivity).
  subst L. split.
  - unfold counts_of, new_list. rewrite !map_map. apply map_ext. intros b. cbn [t2r]. now rewrite !map_length.
  - replace (width RF (new_batch fr sigma rows) x) with (wd x).
    2:{ destruct x; try reflexivity. cbn [width new_batch qf wd]. unfold new_list. destruct (fB fr); [lia|reflexivity]. }
    unfold new_list. apply Forall_map, Forall_forall. intros b _. split; [reflexivity|]. cbn [t2r].
    apply Forall_map, Forall_forall. intros n _. now rewrite map_length, seq_length.
Qed.
Lemma new_len fr sigma rows : len_view RF (new_batch fr sigma rows) = fB fr.
Proof. unfold len_view, new_batch, new_list. cbn [qp]. now rewrite map_length, seq_length. Qed.
Lemma new_np fr sigma rows b : b < fB fr -> npoints (new_batch fr sigma rows) b = length (fresh_pixels rows fr b).
Proof.
  intros Hb. unfold npoints, new_batch, new_list. cbn [qp]. rewrite (nth_map' _ (seq 0 (fB fr)) b _ 0) by (rewrite seq_length; exact Hb).
  rewrite seq_nth by exact Hb. cbn [t2r Nat.add]. now rewrite map_length.
Qed.
Lemma new_at fr sigma rows x b k h w c : b < fB fr -> nth_error (fresh_pixels rows fr b) k = Some (h, w) -> c < wd x ->
  attr_at (new_batch fr sigma rows) x b k c = new_attr fr sigma x b h w c.
Proof.
  intros Hb Hk Hc. unfold attr_at.
  replace (qget x (new_batch fr sigma rows)) with (Some (new_list fr sigma rows x)) by (destruct x; reflexivity).
  unfold row_at, new_list. rewrite (nth_map' _ (seq 0 (fB fr)) b _ 0) by (rewrite seq_length; exact Hb).
  rewrite seq_nth by exact Hb. cbn [t2r Nat.add].
  assert (Hl : k < length (fresh_pixels rows fr b)) by (apply nth_error_Some; congruence).
  rewrite (nth_map' _ (fresh_pixels rows fr b) k _ (0, 0)) by exact Hl.
  rewrite (nth_error_nth _ _ (0, 0) Hk). cbn [fst snd]. apply nth_map_seq'. exact Hc.
Qed.

Lemma filter_map {X Y} (f : Y -> bool) (g : X -> Y) l : filter f (map g l) = map g (filter (fun x => f (g x)) l).
Proof. induction l as [|x l IH]; cbn; [reflexivity|]. destruct (f (g x)); cbn; now rewrite IH. Qed.
Lemma filter_filter {X} (f g : X -> bool) l : filter f (filter g l) = filter (fun x => f x && g x) l.
Proof. induction l as [|x l IH]; cbn; [reflexivity|]. destruct (g x) eqn:E; cbn; rewrite IH; destruct (f x); reflexivity. Qed.
Lemma positions_one H W : positions 1 H W = map (pair 0) (pixels H W).
Proof. unfold positions. cbn. apply app_nil_r. Qed.
Lemma in_fresh rows fr b q : In q (fresh_pixels rows fr b) -> fst q < fH fr /\ snd q < fW fr /\ (0 < fdep fr b 0 (fst q) (snd q))%R.
Proof.
  intros H. apply filter_In in H. destruct H as [H _]. apply filter_In in H. destruct H as [H1 H2].
  apply in_pixels in H1. destruct (Rlt_dec _ _); [tauto|discriminate].
Qed.

Lemma pick_ok fr x C f L b : fL fr = 1 -> Image false fr C x f -> b < fB fr ->
  (forall q, In q L -> fst q < fH fr /\ snd q < fW fr) ->
  pick_rows x C b (map (pair 0) L) = mkT2 C (map (fun q => map (f b 0 (fst q) (snd q)) (seq 0 C)) L).
Proof.
  intros HL [_ Hx] Hb Hp. unfold pick_rows. f_equal. rewrite map_map. apply map_ext_in. intros [h w] Hq.
  specialize (Hp _ Hq). cbn [fst snd] in *. apply map_ext_in. intros c Hc. apply in_seq in Hc.
  apply (Hx b 0 h w c); [repeat split; lia|lia].
Qed.
Lemma existsb_ext' {X} (f g : X -> bool) l : (forall x, f x = g x) -> existsb f l = existsb g l.
Proof. intros H. induction l as [|x l IH]; cbn; [reflexivity|]. now rewrite H, IH. Qed.
Lemma fresh_ok rows fr m (mt : bool) b : Image false fr 1 m (maskf fr) -> fL fr = 1 -> b < fB fr -> (mt = false -> rows = []) ->
  filter (fun q => negb (mt && existsb (fun r => (rb r =? b) && (0 =? fst q) && (rh r =? fst (snd q)) && (rw r =? snd (snd q))) rows) &&
      at_ m [0; snd (snd q); fst (snd q); fst q; b]) (positions (fL fr) (fH fr) (fW fr))
  = map (pair 0) (fresh_pixels rows fr b).
Proof.
  intros [_ Hm] HL Hb Hmt. rewrite HL, positions_one, filter_map. f_equal. unfold fresh_pixels, chosen.
  rewrite filter_filter. unfold row_major, pixels. apply filter_ext_in'. intros [h w] Hq. apply in_pixels in Hq. cbn [fst snd] in *.
  f_equal.
  - f_equal. destruct mt.
    + cbn [andb]. apply existsb_ext'. intros r. cbn [Nat.eqb]. now rewrite andb_true_r.
    + rewrite (Hmt eq_refl). reflexivity.
  - apply (Hm b 0 h w 0); [repeat split; lia|lia].
Qed.

(* ---------------- concatenated clouds, entry by entry *)
Section App.
Context (a b : batch RF) (P Q : list (t2 RF)).
Context (Ha : valid_batch RF P a) (Hb : valid_batch RF Q b) (Hs : same_attrs RF a b).
Lemma app_len : len_view RF (append_spec RF a b) = len_view RF a.
Proof.
  destruct Hs as [Hl _]. unfold len_view in *. cbn [append_spec qp]. rewrite (proj1 Ha), (proj1 Hb) in *. cbn [cat_clouds].
  rewrite map_length, combine_length. lia.
Qed.
Lemma nth_combine {X Y} (l : list X) (l' : list Y) k d d' : length l = length l' -> k < length l -> nth k (combine l l') (d, d') = (nth k l d, nth k l' d').
Proof. intros H _. now apply combine_nth. Qed.
Lemma app_row x k : qget x a <> None -> k < len_view RF a ->
  exists L1 L2 L : list (t2 R), qget x a = Some L1 /\ qget x b = Some L2 /\ qget x (append_spec RF a b) = Some L /\
    @t2r R (nth k L (mkT2 0 [])) = t2r (nth k L1 (mkT2 0 [])) ++ t2r (nth k L2 (mkT2 0 [])).
Proof.
  intros Hx Hk. destruct Hs as (Hl & Hat & _). specialize (Hat x). destruct (qget x a) as [L1|] eqn:E1; [|congruence].
  destruct (qget x b) as [L2|] eqn:E2; [|discriminate].
  exists L1, L2, (map (fun q => cat_cloud RF (fst q) (snd q)) (combine L1 L2)). split; [reflexivity|]. split; [reflexivity|].
  split. { replace (qget x (append_spec RF a b)) with (cat_clouds RF (qget x a) (qget x b)) by (destruct x; reflexivity). now rewrite E1, E2. }
  pose proof (valid_len _ _ _ _ _ Ha E1) as N1. pose proof (valid_len _ _ _ _ _ Hb E2) as N2.
  unfold len_view in Hl, Hk. rewrite (proj1 Ha), (proj1 Hb) in Hl. rewrite (proj1 Ha) in Hk.
  rewrite (nth_map' _ (combine L1 L2) k _ (mkT2 0 [], mkT2 0 [])) by (rewrite combine_length; lia).
  rewrite combine_nth by lia. reflexivity.
Qed.
Lemma app_np k : k < len_view RF a -> npoints (append_spec RF a b) k = npoints a k + npoints b k.
Proof.
  intros Hk. destruct (app_row Points k) as (L1 & L2 & L & E1 & E2 & E3 & E); [intros Z; pose proof (proj1 Ha) as Z'; cbn [qget] in Z; congruence|exact Hk|].
  cbn [qget] in *. unfold npoints. rewrite E1, E2, E3. exact (eq_trans (f_equal (@length (list R)) E) (app_length _ _)).
Qed.
Lemma app_at x k n : qget x a <> None -> k < len_view RF a ->
  attr_at (append_spec RF a b) x k n = if n <? npoints a k then attr_at a x k n else attr_at b x k (n - npoints a k).
Proof.
  intros Hx Hk. destruct (app_row x k Hx Hk) as (L1 & L2 & L & E1 & E2 & E3 & E).
  assert (HkP : k < length P) by (rewrite <- (len_P P a Ha); exact Hk).
  assert (Hn : length (@t2r R (nth k L1 (mkT2 0 []))) = npoints a k) by exact (attr_len P a Ha x L1 k E1 HkP).
  unfold attr_at. rewrite E1, E2, E3. unfold row_at. rewrite E. destruct (Nat.ltb_spec n (npoints a k)).
  - rewrite app_nth1 by lia. reflexivity.
  - rewrite app_nth2 by lia. rewrite Hn. reflexivity.
Qed.
End App.

(* ---------------- appending *)
Lemma has_points s b : Hist RF s b -> qp b <> None -> exists s1, has RF Points s = (Ok true, s1).
Proof.
  intros H Hb. pose proof (p_hist_shows RF s b H) as (_ & _ & Hh & _). specialize (Hh Points). cbn [qget] in Hh.
  destruct (has RF Points s) as [r s1]. cbn in Hh. exists s1. f_equal. refine (eq_trans Hh _). destruct b as [[l|] ? ? ?]; [reflexivity|]. exfalso. apply Hb. reflexivity.
Qed.
Lemma append_ready s o a b r s' o' : Hist RF s a -> Hist RF o b -> qp b <> None ->
  append_points RF (s, o) = (Ok r, (s', o')) -> forall c, Hist RF s' c -> Ready c s'.
Proof.
  intros _ Ho Hb E c Hc. split; [exact Hc|]. intros _. left.
  destruct (has_points o b Ho Hb) as (o1 & E1). eapply append_caches; eassumption.
Qed.
(* both ways to append new points to the map *)
Lemma append_to_ok s a g np nb inplace : Hist RF s a -> (qp a = None -> Ready a s) -> Hist RF np nb -> qp nb <> None ->
  (qp a <> None -> same_attrs RF a nb) ->
  let a' := match qp a with None => nb | Some _ => append_spec RF a nb end in
  exists o s', append_to np inplace (s, g) = (Ok o, (s', g)) /\
    match o with
    | PSelf => inplace = true /\ Ready a' s'
    | PNew p => inplace = false /\ Ready a' p /\ Hist RF s' a
    end.
Proof.
  intros Hs Hr Hn Hb Hsa a'. unfold append_to. destruct inplace.
  - destruct (p_append RF s np a nb Hs Hn) as (s' & o' & E & _ & _ & H1 & _).
    { destruct (qp a) eqn:Ea; [right; right; apply Hsa; discriminate|left; reflexivity]. }
    cbn [fst snd]. rewrite E. exists PSelf, s'. split; [reflexivity|]. split; [reflexivity|].
    refine (append_ready s np a nb tt s' o' Hs Hn Hb E _ _). unfold a'. destruct (qp a); [|exact H1]. destruct (qp nb); [exact H1|congruence].
  - destruct (qp a) as [P|] eqn:Ea.
    + assert (Na : qp a <> None) by congruence.
      destruct (p_clonable RF s a Hs) as [_ _].
      assert (Ec : exists c s', clone RF s = (Ok c, s')).
      { destruct (clone RF s) as [[c|e] s'] eqn:E; [eauto|]. exfalso.
        pose proof (Hist_Rep RF s a Hs) as HR. pose proof (Rep_RepN RF _ _ _ Ea HR) as H1.
        destruct (qp (lst RF s)) as [l|] eqn:El.
        - destruct (clone_ok RF P a s H1) as (c0 & s0 & Ec & _); [left; congruence|]. congruence.
        - destruct (clone_padded RF P a s H1 El) as (f & c0 & Ec & _). congruence. }
      destruct Ec as (c & s' & Ec). rewrite (mb_ok _ _ _ _ _ (onp_ok _ s g _ _ Ec)).
      destruct (clone_append RF a nb s np c s' (Hist_Rep RF s a Hs) (Hist_Rep RF np nb Hn) Na Hb (Hsa ltac:(discriminate)) Ec) as (c' & o' & Ea' & _).
      rewrite Ea'. exists (PNew c'), s'. split; [reflexivity|]. split; [reflexivity|].
      split; [|eapply h_clone_self; eassumption].
      pose proof (h_clone_append RF s np a nb c s' tt c' o' Hs Hn Na Hb Ec Ea') as Hh.
      split; [exact Hh|]. intros _. left. destruct (has_points np nb Hn Hb) as (o1 & E1). eapply append_caches; eassumption.
    + destruct (rd_clone a s (Hr eq_refl)) as (c & s' & Ec & Hc & Hs'). rewrite (mb_ok _ _ _ _ _ (onp_ok _ s g _ _ Ec)).
      destruct (p_append RF c np a nb Hc Hn (or_introl Ea)) as (c' & o' & E & _ & _ & H1 & _). rewrite E.
      exists (PNew c'), s'. split; [reflexivity|]. split; [reflexivity|]. split; [|exact (proj1 Hs')].
      refine (append_ready c np a nb tt c' o' Hc Hn Hb E _ _). unfold a'. rewrite Ea in H1. exact H1.
Qed.

(* ---------------- the whole function *)
(* the map between merging and appending *)
Definition Merged sigma fr rows (a a1 : batch RF) : Prop :=
  len_view RF a1 = len_view RF a /\ (forall b, npoints a1 b = npoints a b) /\
  forall x b n c, real_point a b n -> c < wd x -> attr_at a1 x b n c = merged_at a fr sigma rows x b n c.

Lemma merged_ok P a fr sigma rows : valid_batch RF P a -> Merged sigma fr rows a (merged a fr sigma rows).
Proof.
  intros Hv. assert (El : len_view RF (merged a fr sigma rows) = len_view RF a).
  { unfold len_view at 1, merged, merged_list, build. cbn [qp]. now rewrite map_length, seq_length. }
  split; [exact El|]. split.
  - intros b. destruct (Nat.lt_ge_cases b (len_view RF a)) as [Hb|Hb].
    + unfold npoints at 1, merged, merged_list, build. cbn [qp]. rewrite (nth_map' _ (seq 0 (len_view RF a)) b _ 0) by (rewrite seq_length; exact Hb).
      rewrite seq_nth by exact Hb. cbn [t2r Nat.add]. now rewrite map_length, seq_length.
    + unfold npoints. rewrite (proj1 Hv). unfold merged, merged_list, build. cbn [qp].
      rewrite (nth_overflow (map _ _)) by (rewrite map_length, seq_length; exact Hb).
      rewrite (nth_overflow P) by (rewrite <- (len_P P a Hv); exact Hb). reflexivity.
  - intros x b n c [Hb Hn] Hc. unfold attr_at.
    replace (qget x (merged a fr sigma rows)) with (Some (merged_list a fr sigma rows x)) by (destruct x; reflexivity).
    unfold merged_list. rewrite build_row by assumption. apply nth_map_seq'. exact Hc.
Qed.
Lemma last_row_nil b n : last_row [] b n = None. Proof. reflexivity. Qed.

Lemma all_wd a x P : valid_batch RF P a -> full_map a -> width RF a x = wd x.
Proof. intros _ (_ & Hw & _). destruct x; try reflexivity. exact Hw. Qed.

Lemma fused_of sigma fr rows a a1 P P1 : points_once rows -> Forall (in_map a) rows ->
  valid_batch RF P a -> valid_batch RF P1 a1 -> full_map a -> (forall x, qget x a1 <> None) -> width RF a1 Features = 1 ->
  fB fr = len_view RF a -> Merged sigma fr rows a a1 ->
  let a' := append_spec RF a1 (new_batch fr sigma rows) in
  same_attrs RF a1 (new_batch fr sigma rows) /\ Fused sigma fr rows a a' /\ full_map a' /\ (positive a -> positive a').
Proof.
  intros HO HM Hv Hv1 (Hall & Hw & Hpos) Hall1 Hw1 HB (Ml & Mn & Ma) a'.
  assert (HB0 : 0 < fB fr) by (rewrite HB, (len_P P a Hv); pose proof (valid_ne _ _ _ Hv); destruct P; [congruence|cbn; lia]).
  pose proof (new_valid fr sigma rows HB0) as Hvn.
  assert (HS : same_attrs RF a1 (new_batch fr sigma rows)).
  { split; [rewrite new_len; congruence|]. split.
    - intros x. specialize (Hall1 x). destruct (qget x a1); [|congruence]. destruct x; reflexivity.
    - rewrite Hw1. cbn [width new_batch qf]. unfold new_list. destruct (fB fr); [lia|reflexivity]. }
  assert (EL : len_view RF a' = fB fr) by (unfold a'; rewrite (app_len _ _ _ _ Hv1 Hvn HS); congruence).
  assert (NP : forall b, b < fB fr -> npoints a' b = npoints a b + length (fresh_pixels rows fr b)).
  { intros b Hb. unfold a'. rewrite (app_np _ _ _ _ Hv1 Hvn HS) by congruence. now rewrite Mn, new_np. }
  assert (OLD : forall x b n c, real_point a b n -> c < wd x -> attr_at a' x b n c = merged_at a fr sigma rows x b n c).
  { intros x b n c Hr Hc. unfold a'. pose proof Hr as [Hrb Hrn]. rewrite (app_at _ _ _ _ Hv1 Hvn HS) by (try apply Hall1; congruence).
    rewrite Mn. destruct (Nat.ltb_spec n (npoints a b)); [|lia]. now apply Ma. }
  assert (NEW : forall x b k h w c, b < fB fr -> nth_error (fresh_pixels rows fr b) k = Some (h, w) -> c < wd x ->
     attr_at a' x b (npoints a b + k) c = new_attr fr sigma x b h w c).
  { intros x b k h w c Hb Hk Hc. unfold a'. rewrite (app_at _ _ _ _ Hv1 Hvn HS) by (try apply Hall1; congruence).
    rewrite Mn. destruct (Nat.ltb_spec (npoints a b + k) (npoints a b)); [lia|].
    replace (npoints a b + k - npoints a b) with k by lia. now apply new_at. }
  assert (LR : forall b n h w, In (mkRow b n h w) rows -> last_row rows b n = Some (mkRow b n h w)).
  { intros b n h w Hin. exact (last_row_once rows (mkRow b n h w) HO Hin). }
  assert (LN : forall b n, unmatched rows b n -> last_row rows b n = None).
  { intros b n Hu. destruct (last_row rows b n) as [r|] eqn:E; [|reflexivity]. exfalso.
    destruct (last_row_in _ _ _ _ E) as (Hin & E1 & E2). apply (Hu (rh r) (rw r)). subst b n. destruct r; exact Hin. }
  assert (CO : forall b n, real_point a b n -> conf a' b n = match last_row rows b n with Some r => (conf a b n + frame_alpha sigma fr b (rh r) (rw r))%R | None => conf a b n end).
  { intros b n Hr. unfold conf at 1. rewrite OLD by (try exact Hr; cbn; lia). unfold merged_at. destruct (last_row rows b n); [reflexivity|]. destruct rows; reflexivity. }
  assert (CN : forall b n, b < fB fr -> n < npoints a' b -> ~ n < npoints a b -> (0 < conf a' b n)%R).
  { intros b n Hb Hn Hge. rewrite NP in Hn by exact Hb.
    destruct (nth_error (fresh_pixels rows fr b) (n - npoints a b)) as [[h w]|] eqn:E.
    2:{ apply nth_error_None in E. lia. }
    replace n with (npoints a b + (n - npoints a b)) by lia. unfold conf. rewrite (NEW Features b _ h w 0 Hb E) by (cbn; lia).
    apply alpha_pos. }
  split; [exact HS|]. split; [|split].
  - split; [exact EL|]. intros b Hb fresh. split; [now apply NP|]. split; [|split; [|split]].
    + intros n Hn Hu Hz x c Hc. rewrite OLD by (try split; congruence || assumption). unfold merged_at.
      rewrite (LN b n Hu). destruct rows as [|r0 rows0]; [reflexivity|]. destruct Hz as [Hz|Hz]; [|discriminate].
      destruct (Req_EM_T (conf a b n) 0); [contradiction|]. destruct x; reflexivity.
    + intros n Hn Hu Hz Hr x c Hc. rewrite OLD by (try split; congruence || assumption). unfold merged_at.
      rewrite (LN b n Hu). destruct rows as [|r0 rows0]; [congruence|].
      destruct (Req_EM_T (conf a b n) 0) as [_|Hn0]; [|contradiction]. destruct x; try reflexivity. cbn in Hc. replace c with 0 by lia. exact Hz.
    + intros n h w Hm c0 al. unfold matched in Hm. rewrite Forall_forall in HM. pose proof (HM _ Hm) as Hr. unfold in_map in Hr. cbn [rb rn] in Hr.
      split.
      * unfold conf at 1. rewrite OLD by (try exact Hr; cbn; lia). unfold merged_at. rewrite (LR _ _ _ _ Hm). reflexivity.
      * intros x c Hx Hc. rewrite OLD by (try exact Hr; destruct x; cbn; congruence || lia). unfold merged_at. rewrite (LR _ _ _ _ Hm).
        destruct x; reflexivity || congruence.
    + intros k h w Hk. split.
      * unfold conf. rewrite (NEW Features b k h w 0 Hb Hk) by (cbn; lia). reflexivity.
      * intros x c Hx Hc. rewrite (NEW x b k h w c Hb Hk) by (destruct x; cbn; congruence || lia). destruct x; reflexivity || congruence.
  - split; [|split].
    + intros x. pose proof (p_append_spec RF a1 _ P1 _ x (proj1 Hv1) (proj1 Hvn) Hv1 Hvn HS) as K. specialize (Hall1 x).
      destruct (qget x a1); [|congruence]. destruct (qget x (new_batch fr sigma rows)); [|contradiction]. destruct K as (L & K & _).
      unfold a'. rewrite K. discriminate.
    + unfold a'. cbn [append_spec width qf].
      destruct (qf a1) as [LF|] eqn:EF; [|exfalso; apply (Hall1 Features); exact EF].
      cbn [width] in Hw1. rewrite EF in Hw1. destruct LF as [|y LF]; [discriminate|].
      cbn [new_batch qf cat_clouds]. unfold new_list. destruct (fB fr); [lia|]. exact Hw1.
    + intros b n [Hb Hn]. rewrite EL in Hb. destruct (lt_dec n (npoints a b)) as [Hlt|Hge]; [|left; now apply CN].
      assert (Hr : real_point a b n) by (split; congruence). rewrite (CO b n Hr). specialize (Hpos b n Hr).
      destruct (last_row rows b n) as [r|]; [|exact Hpos].
      pose proof (alpha_pos sigma (vertex fr b 0 (rh r) (rw r))). unfold frame_alpha. lra.
  - intros Hp b n [Hb Hn]. rewrite EL in Hb. destruct (lt_dec n (npoints a b)) as [Hlt|Hge]; [|now apply CN].
    assert (Hr : real_point a b n) by (split; congruence). rewrite (CO b n Hr). specialize (Hp b n Hr).
    destruct (last_row rows b n) as [r|]; [|exact Hp].
    pose proof (alpha_pos sigma (vertex fr b 0 (rh r) (rw r))). unfold frame_alpha. lra.
Qed.
Lemma fused_first sigma fr a : qp a = None -> 0 < fB fr -> Fused sigma fr [] a (new_batch fr sigma []) /\ full_map (new_batch fr sigma []) /\ positive (new_batch fr sigma []).
Proof.
  intros Ha HB. pose proof (new_valid fr sigma [] HB) as Hv.
  assert (N0 : forall b, npoints a b = 0) by (intros b; unfold npoints; now rewrite Ha).
  assert (HP : positive (new_batch fr sigma [])).
  { intros b n [Hb Hn]. rewrite new_len in Hb. rewrite new_np in Hn by exact Hb.
    destruct (nth_error (fresh_pixels [] fr b) n) as [[h w]|] eqn:E; [|apply nth_error_None in E; lia].
    unfold conf. rewrite (new_at fr sigma [] Features b n h w 0 Hb E) by (cbn; lia). apply alpha_pos. }
  split; [split; [apply new_len|]|split].
  - intros b Hb fresh. rewrite N0. split; [now apply new_np|]. split; [lia|]. split; [lia|]. split; [contradiction|].
    intros k h w Hk. cbn [Nat.add]. split.
    + unfold conf. rewrite (new_at fr sigma [] Features b k h w 0 Hb Hk) by (cbn; lia). reflexivity.
    + intros x c Hx Hc. rewrite (new_at fr sigma [] x b k h w c Hb Hk) by (destruct x; cbn; congruence || lia). destruct x; reflexivity || congruence.
  - split; [|split].
    + intros x. destruct x; discriminate.
    + cbn [width new_batch qf]. unfold new_list. destruct (fB fr); [lia|reflexivity].
    + intros b n Hr. left. exact (HP b n Hr).
  - exact HP.
Qed.

Lemma fuse_ok s a g fr q rows sigma inplace :
  Ready a s -> Inv q g false fr -> fL fr = 1 -> 0 < fB fr -> 2 <= fH fr -> 2 <= fW fr -> sigma <> 0%R ->
  (qp a <> None -> full_map a /\ fB fr = len_view RF a) ->
  Forall (in_map a) rows -> Forall (in_image fr) rows -> points_once rows ->
  exists o s' g' a', fuse_with_map (Tbl rows) (SigNum sigma) inplace (s, g) = (Ok o, (s', g')) /\
    match o with
    | PSelf => inplace = true /\ Ready a' s'
    | PNew p => inplace = false /\ Ready a' p /\ exists a1, Hist RF s' a1 /\ Merged sigma fr rows a a1 /\ (rows = [] -> a1 = a)
    end /\ Fused sigma fr rows a a' /\ full_map a' /\ (positive a -> positive a') /\ Inv true g' false fr.
Proof.
  intros HR HI HL HB0 HH HW Hs Hfull HM HF HO. unfold fuse_with_map. cbn [table_rows].
  rewrite (mb_lift _ _ _ rows eq_refl).
  destruct (rd_has a s HR Points) as (s1 & E1 & HR1). rewrite (mb_ok _ _ _ _ _ (onp_ok _ s g _ _ E1)).
  change (qget Points a) with (qp a) in *.
  match goal with |- context [mbind (if ?h then ?m else ?k) _ (s1, g)] =>
    assert (EH : exists s2, (if h then m else k) (s1, g) = (Ok tt, (s2, g)) /\ Ready a s2) end.
  { destruct (qp a) as [P|] eqn:EP; [|exists s1; split; [reflexivity|exact HR1]]. cbn [is_some].
    destruct (Hfull ltac:(discriminate)) as [(Hall & _) _].
    assert (HS : forall x, is_some (qget x a) = true) by (intros x; specialize (Hall x); destruct (qget x a); [reflexivity|congruence]).
    destruct (rd_has a s1 HR1 Normals) as (s2 & F2 & HR2). rewrite (mb_ok _ _ _ _ _ (onp_ok _ s1 g _ _ F2)).
    rewrite (mb_lift _ _ _ tt) by (rewrite HS; reflexivity).
    destruct (rd_has a s2 HR2 Colors) as (s3 & F3 & HR3). rewrite (mb_ok _ _ _ _ _ (onp_ok _ s2 g _ _ F3)).
    rewrite (mb_lift _ _ _ tt) by (rewrite HS; reflexivity).
    destruct (rd_has a s3 HR3 Features) as (s4 & F4 & HR4). rewrite (mb_ok _ _ _ _ _ (onp_ok _ s3 g _ _ F4)).
    exists s4. rewrite HS. split; [reflexivity|exact HR4]. }
  destruct EH as (s2 & E2 & HR2). rewrite (mb_ok _ _ _ _ _ E2). clear E2.
  destruct (gvertex_read _ _ _ _ HI) as (vm & g1 & Ev & Hvm & HI1). rewrite (mb_ok _ _ _ _ _ (onr_ok _ s2 g _ _ Ev)).
  destruct (proj1 (gnormal_read _ _ _ _ HI1) HH HW) as (nm & g2 & En & Hnm & HI2). rewrite (mb_ok _ _ _ _ _ (onr_ok _ s2 g1 _ _ En)).
  destruct (inv_inputs _ _ _ _ HI2) as (rgb & dep & intr & Er & _ & _ & Hrgb & _ & _).
  rewrite (mb_ok _ _ _ rgb (s2, g2)) by (apply onr_ok; rewrite mb_get, Er; reflexivity).
  destruct (vertex_read _ _ _ _ HI2) as (v & g3 & Evm & Hv & HI3 & _). rewrite (mb_ok _ _ _ _ _ (onr_ok _ s2 g2 _ _ Evm)).
  destruct (alpha_img fr v sigma Hs Hv) as (al & Eal & Hal). rewrite (mb_lift _ _ _ _ Eal).
  rewrite (mb_ok _ _ _ _ _ (onr_ok get s2 g3 _ _ eq_refl)).
  pose proof HI3 as ((Acf & AB & AL & Ah & Aw) & _). rewrite Acf.
  destruct (rd_has a s2 HR2 Points) as (s3 & E3 & HR3). rewrite (mb_ok _ _ _ _ _ (onp_ok _ s2 g3 _ _ E3)).
  change (qget Points a) with (qp a) in *. cbv zeta.
  (* the merged map *)
  match goal with |- context [mbind (if ?h then ?m else ?k) _ (s3, g3)] =>
    assert (EM : exists s4 a1, (if h then m else k) (s3, g3) = (Ok tt, (s4, g3)) /\ Hist RF s4 a1 /\ Merged sigma fr rows a a1 /\
      (qp a = None -> Ready a s4 /\ a1 = a) /\ (qp a <> None -> exists P1, valid_batch RF P1 a1 /\ (forall x, qget x a1 <> None) /\ width RF a1 Features = 1) /\ (rows = [] -> a1 = a)) end.
  { destruct (is_some (qp a) && negb (length rows =? 0)) eqn:Em.
    - destruct (qp a) as [P|] eqn:EP; [|discriminate]. destruct (Hfull ltac:(discriminate)) as [Hfm HB].
      destruct (merge_ok s3 a g3 fr sigma P rows vm nm rgb al HR3 EP Hfm HL HB Hs Hvm Hnm Hrgb Hal HM HF) as (s4 & Em4 & H4); [intros ->; discriminate Em|]. 
      pose proof (batch_valid s a P (proj1 HR) EP) as Hva.
      exists s4, (merged a fr sigma rows). split; [exact Em4|]. split; [exact H4|]. split; [exact (merged_ok P a fr sigma rows Hva)|].
      split; [discriminate|]. split.
      + intros _. exists (merged_list a fr sigma rows Points). pose proof (merged_valid P a fr sigma rows Hva) as Hvm'. split; [exact Hvm'|]. split; [intros x; destruct x; discriminate|].
        cbn [width merged qf]. unfold merged_list, build. rewrite <- HB. destruct (fB fr); [lia|reflexivity].
      + intros ->. rewrite andb_false_r in Em. discriminate.
    - assert (Hnil : rows = []).
      { destruct rows as [|r rows]; [reflexivity|]. exfalso. cbn [length Nat.eqb negb] in Em. rewrite andb_true_r in Em.
        destruct (qp a) eqn:EP; [discriminate|]. rewrite Forall_forall in HM. destruct (HM r (or_introl eq_refl)) as [_ Hn].
        unfold npoints in Hn. rewrite EP in Hn. lia. }
      subst rows. exists s3, a. split; [reflexivity|]. split; [exact (proj1 HR3)|]. split.
      { split; [reflexivity|]. split; [reflexivity|]. intros x b n c _ _. reflexivity. }
      split; [auto|]. split; [|auto]. intros Hq. destruct (qp a) as [P|] eqn:EP; [|congruence].
      exists P. split; [exact (batch_valid s a P (proj1 HR) EP)|]. destruct (Hfull Hq) as [(Hall & Hw & _) _]. auto. }
  destruct EM as (s4 & a1 & E4 & H4 & HMg & Hno & Hsome & Hid). rewrite (mb_ok _ _ _ _ _ E4). clear E4.
  assert (Hq1 : is_some (qp a1) = is_some (qp a)).
  { destruct (qp a) eqn:EP; [|destruct (Hno eq_refl) as [_ ->]; now rewrite EP].
    destruct (Hsome ltac:(discriminate)) as (P1 & (Hv1 & _) & _). now rewrite Hv1. }
  assert (E5 : exists s5, has RF Points s4 = (Ok (is_some (qp a)), s5) /\ Hist RF s5 a1 /\ (qp a = None -> Ready a s5)).
  { pose proof (p_hist_shows RF s4 a1 H4) as (_ & _ & Hh & _). specialize (Hh Points).
    exists (after RF (RdHas Points) s4). split.
    - change (qget Points a1) with (qp a1) in Hh. rewrite Hq1 in Hh. cbn [after]. destruct (has RF Points s4). cbn in *. now f_equal.
    - split; [apply (PointcloudsHist.h_read RF (RdHas Points)); exact H4|]. intros HN. destruct (Hno HN) as [Hr4 ->].
      split; [apply (PointcloudsHist.h_read RF (RdHas Points)); exact H4|]. intros Hq. congruence. }
  destruct E5 as (s5 & E5 & H5 & Hr5). rewrite (mb_ok _ _ _ _ _ (onp_ok _ s4 g3 _ _ E5)).
  rewrite (mb_ok _ _ _ tt (s5, g3)).
  2:{ destruct (is_some (qp a) && negb (length rows =? 0)); [|reflexivity]. unfold lift. now rewrite (rows_image_ok fr 3 vm _ rows Hvm HL HF). }
  destruct (mask_read _ _ _ _ HI3) as (m & Em & Hm). rewrite (mb_ok _ _ _ _ _ (onr_ok _ s5 g3 _ _ Em)).
  pose proof (inv_vmask _ _ _ _ _ HI3 Hm) as HI4. set (g4 := with_vmask (Some m) g3) in *. clearbody g4.
  rewrite AB, AL, Ah, Aw.
  assert (Hmt : is_some (qp a) && negb (length rows =? 0) = false -> rows = []).
  { intros Hmt. destruct rows as [|r rows]; [reflexivity|]. exfalso. cbn [length Nat.eqb negb] in Hmt. rewrite andb_true_r in Hmt.
    destruct (qp a) eqn:EP; [discriminate|]. rewrite Forall_forall in HM. destruct (HM r (or_introl eq_refl)) as [_ Hn].
    unfold npoints in Hn. rewrite EP in Hn. lia. }
  assert (NL : forall x C t f, wd x = C -> Image false fr C t f ->
    (forall b h w c, c < C -> f b 0 h w c = new_attr fr sigma x b h w c) ->
    map (fun b => AT2 RF (pick_rows t C b (filter (fun q0 =>
      negb (is_some (qp a) && negb (length rows =? 0) && existsb (fun r => (rb r =? b) && (0 =? fst q0) && (rh r =? fst (snd q0)) && (rw r =? snd (snd q0))) rows) &&
      at_ m [0; snd (snd q0); fst (snd q0); fst q0; b]) (positions (fL fr) (fH fr) (fW fr))))) (seq 0 (fB fr))
    = map (AT2 RF) (new_list fr sigma rows x)).
  { intros x C t f <- Ht Hf. unfold new_list. rewrite map_map. apply map_ext_in. intros b Hb. apply in_seq in Hb. f_equal.
    rewrite (fresh_ok rows fr m (is_some (qp a) && negb (length rows =? 0)) b Hm HL ltac:(lia) Hmt).
    rewrite (pick_ok fr t (wd x) f _ b HL Ht ltac:(lia)) by (intros q0 Hq; destruct (in_fresh _ _ _ _ Hq); tauto).
    f_equal. apply map_ext_in. intros q0 _. apply map_ext_in. intros c Hc. apply in_seq in Hc. apply Hf. lia. }
  rewrite (NL Points 3 vm _ eq_refl Hvm) by reflexivity. rewrite (NL Normals 3 nm _ eq_refl Hnm) by reflexivity.
  rewrite (NL Colors 3 rgb _ eq_refl Hrgb) by reflexivity. rewrite (NL Features 1 al _ eq_refl Hal) by reflexivity. clear NL.
  pose proof (new_valid fr sigma rows HB0) as Hvn.
  assert (D : Denotes RF (IList RF (map (AT2 RF) (new_list fr sigma rows Points))) (IList RF (map (AT2 RF) (new_list fr sigma rows Normals)))
      (IList RF (map (AT2 RF) (new_list fr sigma rows Colors))) (IList RF (map (AT2 RF) (new_list fr sigma rows Features))) (new_batch fr sigma rows)).
  { right. left. eexists. split; [exact Hvn|]. repeat split. }
  assert (Rr : forall x, real_inp RF (IList RF (map (AT2 RF) (new_list fr sigma rows x)))).
  { intros x. cbn. apply Forall_map. unfold new_list. apply Forall_map, Forall_forall. intros b _. cbn.
    unfold t2wf. cbn. apply Forall_map, Forall_forall. intros q0 _. now rewrite map_length, seq_length. }
  destruct (proj2 (p_accepts RF _ _ _ _ (Rr Points) (Rr Normals) (Rr Colors) (Rr Features)) (ex_intro _ _ D)) as (np & Ep).
  pose proof (PointcloudsHist.h_new RF _ _ _ _ _ _ (Rr Points) (Rr Normals) (Rr Colors) (Rr Features) D Ep) as Hnp.
  rewrite (mb_lift _ _ _ np) by exact Ep.
  destruct (qp a) as [P|] eqn:EP.
  - destruct (Hfull ltac:(discriminate)) as [Hfm HB]. destruct (Hsome ltac:(discriminate)) as (P1 & Hv1 & Hall1 & Hw1).
    pose proof (batch_valid s a P (proj1 HR) EP) as Hva.
    destruct (fused_of sigma fr rows a a1 P P1 HO HM Hva Hv1 Hfm Hall1 Hw1 HB HMg) as (HSA & HFu & HFM & HPos).
    destruct (append_to_ok s5 a1 g4 np (new_batch fr sigma rows) inplace H5) as (o & s' & Eo & Ho).
    { intros HN. rewrite (proj1 Hv1) in HN. discriminate. } { exact Hnp. } { discriminate. } { intros _. exact HSA. }
    rewrite (proj1 Hv1) in Ho.
    exists o, s', g4, (append_spec RF a1 (new_batch fr sigma rows)). split; [exact Eo|]. split; [|auto].
    destruct o; [exact Ho|]. destruct Ho as (Ho1 & Ho2 & Ho3). split; [exact Ho1|]. split; [exact Ho2|]. exists a1. auto.
  - destruct (Hno eq_refl) as [_ ->].
    assert (rows = []) by (apply Hmt; reflexivity). subst rows.
    destruct (append_to_ok s5 a g4 np (new_batch fr sigma []) inplace H5) as (o & s' & Eo & Ho).
    { intros _. exact (Hr5 eq_refl). } { exact Hnp. } { discriminate. } { intros K. congruence. }
    rewrite EP in Ho. destruct (fused_first sigma fr a EP HB0) as (HFu & HFM & HPos).
    exists o, s', g4, (new_batch fr sigma []). split; [exact Eo|]. split; [|auto].
    destruct o; [exact Ho|]. destruct Ho as (Ho1 & Ho2 & Ho3). split; [exact Ho1|]. split; [exact Ho2|]. exists a. auto.
Qed.
