(* Proofs for the fusion properties, part 2 (C38-C44). *)
From Coq Require Import Reals List Arith Bool ZArith Lia Lra Sorting.Sorted Permutation.
From Verif Require Import Res Fld StructUtilsModel StructUtilsSpec PointcloudsModel PointcloudsSpec PointcloudsCtorSpec
  PointcloudsSetSpec PointcloudsIndexSpec PointcloudsHist PointcloudsProofs PointcloudsPropProofs PointcloudsHistProofs
  MatSpec GeomSpec TensorModel GeomModel RgbdModel RgbdSpec RgbdProofs RgbdCloud RgbdPropProofs
  FusionModel FusionSpec FusionMap FusionActive FusionSimilar FusionBest FusionMerge FusionFuse FusionCorr FusionFloat FusionPropProofs.
Import ListNotations.
Local Open Scope nat_scope.

(* every valid batch is the content of some map *)
Lemma map_exists a P : valid_batch RF P a -> exists s, ReadyToClone RF s a.
Proof.
  intros Hv. pose proof Hv as (HP & _ & Hx).
  pose (inp := fun x => match qget x a with Some L => IList RF (map (AT2 RF) L) | None => INone RF end).
  assert (D : Denotes RF (inp Points) (inp Normals) (inp Colors) (inp Features) a).
  { right. left. exists P. split; [exact Hv|]. unfold inp. cbn [qget]. split; [rewrite HP; reflexivity|].
    split; [|split]; match goal with |- context [match ?o with _ => _ end] => destruct o; reflexivity end. }
  assert (Rr : forall x, real_inp RF (inp x)).
  { intros x. unfold inp. destruct (qget x a) as [L|] eqn:E; [|exact I]. destruct (Hx x L E) as [_ Hw]. cbn. apply Forall_map.
    eapply Forall_impl; [|exact Hw]. intros y [H1 H2]. exact (eq_ind_r (fun w => Forall (fun r : list R => length r = w) (t2r y)) H2 H1). }
  destruct (proj2 (p_accepts RF _ _ _ _ (Rr Points) (Rr Normals) (Rr Colors) (Rr Features)) (ex_intro _ _ D)) as (np & Ep).
  pose proof (PointcloudsHist.h_new RF _ _ _ _ _ _ (Rr Points) (Rr Normals) (Rr Colors) (Rr Features) D Ep) as Hnp.
  eexists. left. exists np. split; [exact Hnp|reflexivity].
Qed.

Lemma filter_len {X} (f : X -> bool) l : length (filter f l) <= length l.
Proof. induction l as [|x l IH]; cbn; [lia|]. destruct (f x); cbn; lia. Qed.

(* ---------------- C41 *)
Lemma p_fuse s a g fr q rows sigma inplace : ReadyToClone RF s a -> RHist q g false fr -> live fr -> sigma <> 0%R ->
  (qp a <> None -> full_map a /\ fB fr = len_view RF a) ->
  Forall (in_map a) rows -> Forall (in_image fr) rows -> points_once rows ->
  exists o s' g' a', fuse_with_map (Tbl rows) (SigNum sigma) inplace (s, g) = (Ok o, (s', g')) /\
    (o = PSelf <-> inplace = true) /\ ReadyToClone RF (returned o s') a' /\ Shows RF (returned o s') a' /\
    Fused sigma fr rows a a' /\ full_map a' /\ (positive a -> positive a') /\ RShows g' false fr.
Proof.
  intros HR HI (HL & HB & HH & HW) Hs Hf HM HF HO. apply ready_iff in HR.
  destruct (fuse_ok s a g fr q rows sigma inplace HR (hist_inv _ _ _ _ HI) HL HB HH HW Hs Hf HM HF HO) as (o & s' & g' & a' & E & Ho & H1 & H2 & H3 & H4).
  exists o, s', g', a'. split; [exact E|].
  assert (K : (o = PSelf <-> inplace = true) /\ Ready a' (returned o s')).
  { destruct o; cbn [returned]; [destruct Ho as [-> Ho]; tauto|]. destruct Ho as (-> & Ho & _). split; [split; discriminate|exact Ho]. }
  destruct K as [K1 K2]. split; [exact K1|]. split; [now apply ready_iff|]. split; [apply p_hist_shows, K2|].
  split; [exact H1|]. split; [exact H2|]. split; [exact H3|]. exact (inv_shows _ _ _ _ H4).
Qed.

(* ---------------- C42 *)
Lemma fits_small a fr : fits_float32 a fr -> small_enough f32 a fr.
Proof.
  intros (H1 & H2 & H3 & H4) k Hk. apply f32_exact. destruct Hk as [Hk|[Hk|[Hk|(b & Hb & Hk)]]]; [lia..|]. specialize (H4 b Hb). lia.
Qed.
Lemma p_update s a g fr q dist_th dot_th sigma inplace : ReadyToClone RF s a -> RHist q g false fr -> live fr -> sigma <> 0%R ->
  (qp a <> None -> full_map a /\ fB fr = len_view RF a /\ fpose fr <> None) -> fits_float32 a fr ->
  exists rows o s' g' a', update_map_fusion f32 dist_th dot_th (SigNum sigma) inplace (s, g) = (Ok o, (s', g')) /\
    (o = PSelf <-> inplace = true) /\ ReadyToClone RF (returned o s') a' /\ Shows RF (returned o s') a' /\
    match qp a with
    | None => rows = []
    | Some _ => exists T, fpose fr = Some T /\ Correspondences a fr T dist_th dot_th rows
    end /\
    Fused sigma fr rows a a' /\ full_map a' /\ (positive a -> positive a') /\ RShows g' false fr /\
    forall b, b < fB fr -> npoints a b <= npoints a' b <= npoints a b + fH fr * fW fr /\
      ((0 <= dot_th)%R -> total a' b = (total a b + total_alpha sigma fr b)%R /\
       forall h w, h < fH fr -> w < fW fr -> (0 < fdep fr b 0 h w)%R -> handled_once rows fr b h w).
Proof.
  intros HR HI (HL & HB & HH & HW) Hs Hf Hfit. apply ready_iff in HR.
  destruct (update_ok f32 s a g fr q dist_th dot_th sigma inplace HR (hist_inv _ _ _ _ HI) HL HB HH HW Hs Hf (fits_small _ _ Hfit))
    as (rows & o & s' & g' & a' & E & Ho & HC & H1 & H2 & H3 & H4).
  exists rows, o, s', g', a'. split; [exact E|].
  assert (K : (o = PSelf <-> inplace = true) /\ Ready a' (returned o s')).
  { destruct o; cbn [returned]; [destruct Ho as [-> Ho]; tauto|]. destruct Ho as (-> & Ho & _). split; [split; discriminate|exact Ho]. }
  destruct K as [K1 K2]. split; [exact K1|]. split; [now apply ready_iff|]. split; [apply p_hist_shows, K2|]. split; [exact HC|].
  split; [exact H1|]. split; [exact H2|]. split; [exact H3|]. split; [exact (inv_shows _ _ _ _ H4)|].
  destruct (table_facts a fr dist_th dot_th rows (fun Hq => proj1 (proj2 (Hf Hq))) HC) as (HM & HF & HO & HPx & Hsim).
  intros b Hb. split.
  - pose proof H1 as [_ H5]. destruct (H5 b Hb) as [-> _]. split; [lia|]. apply Nat.add_le_mono_l.
    unfold fresh_pixels, chosen. etransitivity; [apply filter_len|]. etransitivity; [apply filter_len|].
    unfold row_major. rewrite prod_length, !seq_length. lia.
  - intros Hd. pose proof (similar_valid a fr dist_th dot_th rows Hd Hsim) as HV.
    split; [exact (conserve sigma fr rows a a' H1 HM HF HO HPx HV b Hb)|].
    intros h w Hh Hw Hv.
    assert (Hin : In (h, w) (chosen true fr b)).
    { unfold chosen. apply filter_In. split; [apply in_prod; apply in_seq; lia|]. cbn [fst snd]. destruct (Rlt_dec _ _); [reflexivity|contradiction]. }
    destruct (used rows b (h, w)) eqn:Eu; [left|right].
    + pose proof (proj1 (used_iff rows b (h, w)) Eu) as Ht. unfold table_pixels in Ht. apply in_map_iff in Ht.
      destruct Ht as (r & Er & Hr). injection Er as E1 E2. apply filter_In in Hr. destruct Hr as [Hr Eb]. apply Nat.eqb_eq in Eb.
      split.
      * exists (rn r). split; [unfold matched; destruct r; cbn in *; subst; exact Hr|].
        intros n Hn. unfold matched in Hn.
        assert (X : r = mkRow b n h w) by (apply (nodup_same (fun r => (rb r, (rh r, rw r))) rows); auto; cbn; congruence).
        now subst r.
      * unfold fresh_pixels. rewrite filter_In. intros [_ Hx]. unfold used in Eu. rewrite Eu in Hx. discriminate.
    + split.
      * intros (n & Hn). assert (used rows b (h, w) = true); [|congruence]. unfold used. apply existsb_exists. exists (mkRow b n h w).
        split; [exact Hn|]. cbn. now rewrite !Nat.eqb_refl.
      * assert (Hfr : In (h, w) (fresh_pixels rows fr b)).
        { unfold fresh_pixels. apply filter_In. split; [exact Hin|]. unfold used in Eu. now rewrite Eu. }
        destruct (In_nth_error _ _ Hfr) as (k & Hk). exists k. split; [exact Hk|]. intros k' Hk'.
        assert (ND : NoDup (fresh_pixels rows fr b)) by (unfold fresh_pixels; apply NoDup_filter, nodup_chosen).
        rewrite NoDup_nth_error in ND. apply ND; [apply nth_error_Some; congruence|congruence].
Qed.

Lemma p_fuse_frames B dist_th dot_th sigma gs frs : Forall2 (fusable B) gs frs -> sigma <> 0%R -> (0 <= dot_th)%R ->
  forall s a, ReadyToClone RF s a -> (qp a <> None -> full_map a /\ len_view RF a = B) ->
  (forall b, b < B -> (Z.of_nat (npoints a b + sum_pixels frs) <= 2 ^ 24)%Z) ->
  exists s' a', fuse_frames dist_th dot_th sigma gs s = Ok s' /\ ReadyToClone RF s' a' /\ Shows RF s' a' /\
    (frs <> [] \/ full_map a /\ len_view RF a = B -> full_map a' /\ len_view RF a' = B) /\ (positive a -> positive a') /\
    forall b, b < B -> total a' b = (total a b + sum_alpha sigma frs b)%R /\
      npoints a b <= npoints a' b <= npoints a b + sum_pixels frs.
Proof.
  intros HF Hs Hd. induction HF as [|g fr gs frs Hg HF IH]; intros s a HR Ha Hn.
  - exists s, a. split; [reflexivity|]. split; [exact HR|]. split; [apply p_hist_shows, ready_iff, HR|]. split; [intros [K|K]; [congruence|exact K]|]. split; [auto|].
    intros b Hb. unfold sum_alpha, sum_list. cbn [sum_pixels fold_right map]. split; [lra|lia].
  - destruct Hg as ((q & HI) & HL & HB & HT & K1 & K2 & K3).
    assert (Hf : fits_float32 a fr).
    { split; [exact K1|]. split; [exact K2|]. split; [exact K3|]. intros b Hb. rewrite HB in Hb. specialize (Hn b Hb). lia. }
    destruct (p_update s a g fr q dist_th dot_th sigma true HR HI HL Hs) as (rows & o & s1 & g1 & a1 & E & Ho & HR1 & _ & _ & HFu & Hfm & Hpos & _ & Htot); [|exact Hf|].
    { intros Hq. destruct (Ha Hq) as [A1 A2]. split; [exact A1|]. split; [congruence|exact HT]. }
    assert (o = PSelf) by tauto. subst o. cbn [returned] in HR1.
    pose proof HFu as [HLn _].
    destruct (IH s1 a1 HR1) as (s' & a' & E' & HR' & HS' & H1 & H2 & H3).
    { intros _. split; [exact Hfm|congruence]. }
    { intros b Hb. assert (Hb' : b < fB fr) by (rewrite HB; exact Hb). destruct (Htot b Hb') as [[_ N2] _]. specialize (Hn b Hb). cbn [sum_pixels fold_right] in Hn.
      fold (sum_pixels frs) in Hn. lia. }
    exists s', a'. cbn [fuse_frames]. rewrite E. split; [exact E'|]. split; [exact HR'|]. split; [exact HS'|]. split; [|split; [auto|]].
    { intros _. apply H1. right. split; [exact Hfm|congruence]. }
    intros b Hb. assert (Hb' : b < fB fr) by (rewrite HB; exact Hb). destruct (Htot b Hb') as [N Hc]. destruct (Hc Hd) as [Hc1 _]. destruct (H3 b Hb) as [T1 T2].
    split; [|cbn [sum_pixels fold_right]; fold (sum_pixels frs); lia].
    rewrite T1, Hc1. unfold sum_alpha, sum_list. cbn [map fold_right]. lra.
Qed.

(* ---------------- C43 *)
Lemma p_aggregate_pure s a g cf fr q r s' g' : Hist RF s a -> RHist q g cf fr ->
  update_map_aggregate false (s, g) = (r, (s', g')) -> Hist RF s' a /\ Shows RF s' a /\ RShows g' cf fr.
Proof.
  intros HS HI E. assert (K : Hist RF s' a /\ RHist true g' cf fr).
  { unfold update_map_aggregate, mbind, onr in E. cbn [snd] in E. destruct (pointclouds_from_rgbdimages true true g) as [[np|e] g1] eqn:Ec.
    - pose proof (h_cloud _ _ _ _ _ _ _ _ HI Ec) as HI1. cbn [fst] in E. unfold append_to, mbind, onp in E. cbn [fst snd] in E.
      destruct (clone RF s) as [[c|e] s1] eqn:E1.
      + pose proof (h_clone_self RF _ _ _ _ HS E1) as HS1. destruct (append_points RF (c, np)) as [[u|e] [c' np']]; cbn in E; injection E as <- <- <-; auto.
      + pose proof (h_clone_self RF _ _ _ _ HS E1) as HS1. injection E as <- <- <-. auto.
    - pose proof (h_cloud _ _ _ _ _ _ _ _ HI Ec) as HI1. injection E as <- <- <-. auto. }
  destruct K as [K1 K2]. split; [exact K1|]. split; [now apply p_hist_shows|]. exact (inv_shows _ _ _ _ (hist_inv _ _ _ _ K2)).
Qed.
Lemma p_fuse_copy s a g fr q rows sigma : ReadyToClone RF s a -> RHist q g false fr -> live fr -> sigma <> 0%R ->
  full_map a -> fB fr = len_view RF a -> qp a <> None ->
  Forall (in_map a) rows -> Forall (in_image fr) rows -> points_once rows ->
  exists o s' g' a1, fuse_with_map (Tbl rows) (SigNum sigma) false (s, g) = (Ok (PNew o), (s', g')) /\
    Hist RF s' a1 /\ Shows RF s' a1 /\ RShows g' false fr /\ (rows = [] -> a1 = a) /\
    (forall b n h w, matched rows b n h w -> (conf a b n < conf a1 b n)%R).
Proof.
  intros HR HI (HL & HB & HH & HW) Hs Hf HBl Hq HM HF HO. apply ready_iff in HR.
  destruct (fuse_ok s a g fr q rows sigma false HR (hist_inv _ _ _ _ HI) HL HB HH HW Hs (fun _ => conj Hf HBl) HM HF HO) as (o & s' & g' & a' & E & Ho & H1 & H2 & H3 & H4).
  destruct o as [|o]; [destruct Ho; discriminate|]. destruct Ho as (_ & _ & a1 & Ha1 & (Hln & Hnp & Hme) & Hnil).
  exists o, s', g', a1. split; [exact E|]. split; [exact Ha1|]. split; [now apply p_hist_shows|]. split; [exact (inv_shows _ _ _ _ H4)|]. split; [exact Hnil|].
  intros b n h w Hm. rewrite Forall_forall in HM. pose proof (HM _ Hm) as Hr. cbn in Hr.
  unfold conf at 2. rewrite (Hme Features b n 0 Hr) by (cbn; lia).
  pose proof (last_row_once rows (mkRow b n h w) HO Hm : last_row rows b n = _) as EL. unfold merged_at. rewrite EL. cbn [rh rw].
  pose proof (alpha_pos sigma (vertex fr b 0 h w)). unfold frame_alpha. lra.
Qed.
Lemma p_update_copy s a g fr q dist_th dot_th sigma T : ReadyToClone RF s a -> RHist q g false fr -> live fr -> sigma <> 0%R ->
  full_map a -> fB fr = len_view RF a -> qp a <> None -> fpose fr = Some T -> fits_float32 a fr ->
  exists rows o s' g' a1, update_map_fusion f32 dist_th dot_th (SigNum sigma) false (s, g) = (Ok (PNew o), (s', g')) /\
    Correspondences a fr T dist_th dot_th rows /\
    Hist RF s' a1 /\ Shows RF s' a1 /\ RShows g' false fr /\ (rows = [] -> a1 = a) /\
    (forall b n h w, matched rows b n h w -> (conf a b n < conf a1 b n)%R).
Proof.
  intros HR HI (HL & HB & HH & HW) Hs Hf HBl Hq HT Hfit. apply ready_iff in HR.
  destruct (update_ok f32 s a g fr q dist_th dot_th sigma false HR (hist_inv _ _ _ _ HI) HL HB HH HW Hs) as (rows & o & s' & g' & a' & E & Ho & HC & H1 & H2 & H3 & H4).
  { intros _. split; [exact Hf|]. split; [exact HBl|congruence]. } { now apply fits_small. }
  destruct (table_facts a fr dist_th dot_th rows (fun _ => HBl) HC) as (HM & HF & HO & HPx & Hsim).
  destruct o as [|o]; [destruct Ho; discriminate|]. destruct Ho as (_ & _ & a1 & Ha1 & (Hln & Hnp & Hme) & Hnil).
  exists rows, o, s', g', a1. split; [exact E|]. split.
  { unfold corr_table in HC. destruct (qp a); [|congruence]. destruct HC as (T' & ET & HC). rewrite HT in ET. injection ET as <-. exact HC. }
  split; [exact Ha1|]. split; [now apply p_hist_shows|]. split; [exact (inv_shows _ _ _ _ H4)|]. split; [exact Hnil|].
  intros b n h w Hm. rewrite Forall_forall in HM. pose proof (HM _ Hm) as Hr. cbn in Hr.
  unfold conf at 2. rewrite (Hme Features b n 0 Hr) by (cbn; lia).
  pose proof (last_row_once rows (mkRow b n h w) HO Hm : last_row rows b n = _) as EL. unfold merged_at. rewrite EL. cbn [rh rw].
  pose proof (alpha_pos sigma (vertex fr b 0 h w)). unfold frame_alpha. lra.
Qed.

(* ---------------- C44 *)
Lemma cloud_rows fr x b : x <> Features -> b < fB fr -> rows_of (frame_clouds true true fr) x b = frame_rows fr x b.
Proof.
  intros Hx Hb. unfold rows_of, frame_rows. destruct x; [| | |congruence]; cbn [qget frame_clouds qp qn qc]; unfold per_pixel;
    rewrite (nth_map' _ (seq 0 (fB fr)) b _ 0) by (rewrite seq_length; exact Hb); rewrite seq_nth by exact Hb; reflexivity.
Qed.
Lemma cloud_plain fr : plain (fB fr) (frame_clouds true true fr).
Proof.
  split; [|split; [reflexivity|]].
  - intros x Hx. destruct x; [discriminate..|congruence].
  - unfold len_view. cbn [frame_clouds qp]. unfold per_pixel. now rewrite map_length, seq_length.
Qed.
Lemma app_rows a b P Q x k : valid_batch RF P a -> valid_batch RF Q b -> same_attrs RF a b -> qget x a <> None -> k < len_view RF a ->
  rows_of (append_spec RF a b) x k = rows_of a x k ++ rows_of b x k.
Proof.
  intros Ha Hb Hs Hx Hk. destruct (app_row a b P Q Ha Hb Hs x k Hx Hk) as (L1 & L2 & L & E1 & E2 & E3 & E).
  unfold rows_of. rewrite E1, E2, E3. exact E.
Qed.
Lemma aggregate_inv s a g cf fr q inplace : Ready a s -> Inv q g cf fr -> live fr ->
  (qp a <> None -> plain (fB fr) a) ->
  exists o s' g' a', update_map_aggregate inplace (s, g) = (Ok o, (s', g')) /\ (o = PSelf <-> inplace = true) /\
    Ready a' (returned o s') /\ plain (fB fr) a' /\ Inv true g' cf fr /\
    forall x b, x <> Features -> b < fB fr -> rows_of a' x b = rows_of a x b ++ frame_rows fr x b.
Proof.
  intros HR HI (HL & HB & HH & HW) Ha.
  destruct (cloud_ok _ _ _ _ true true HI HL HB HH HW) as (np & g' & E & Hnp & HI' & _).
  pose proof (cloud_plain fr) as (C1 & C2 & C3).
  assert (Hsa : qp a <> None -> same_attrs RF a (frame_clouds true true fr)).
  { intros Hq. destruct (Ha Hq) as (A1 & A2 & A3). split; [congruence|]. split; [|cbn [width]; rewrite A2, C2; reflexivity].
    intros x. destruct x; cbn [qget]; [..|rewrite A2; reflexivity];
    match goal with |- is_some (?f a) = _ => match f with qp => pose proof (A1 Points) as A | qn => pose proof (A1 Normals) as A | qc => pose proof (A1 Colors) as A end end;
    cbn [qget] in A; match goal with |- is_some ?o = _ => destruct o; [reflexivity|exfalso; apply A; congruence] end. }
  destruct (append_to_ok s a g' np (frame_clouds true true fr) inplace (proj1 HR) (fun _ => HR) Hnp) as (o & s' & Eo & Ho); [discriminate|exact Hsa|].
  set (a' := match qp a with None => _ | Some _ => _ end) in Ho.
  exists o, s', g', a'. split.
  { unfold update_map_aggregate. rewrite (mb_ok _ _ _ _ _ (onr_ok _ s g _ _ E)). exact Eo. }
  assert (K : (o = PSelf <-> inplace = true) /\ Ready a' (returned o s')).
  { destruct o; cbn [returned]; [destruct Ho as [-> Ho]; tauto|]. destruct Ho as (-> & Ho & _). split; [split; discriminate|exact Ho]. }
  destruct K as [K1 K2]. split; [exact K1|]. split; [exact K2|].
  pose proof (valid_frame_batch true true fr HB) as Hvn.
  unfold a' in *. destruct (qp a) as [P|] eqn:EP.
  - specialize (Hsa ltac:(discriminate)). destruct (Ha ltac:(discriminate)) as (A1 & A2 & A3). pose proof (batch_valid s a P (proj1 HR) EP) as Hva.
    split; [split; [|split]|split; [exact (inv_mono _ _ _ _ HI')|]].
    + intros x Hx. destruct (app_row a _ P _ Hva Hvn Hsa x 0 (A1 x Hx)) as (L1 & L2 & L & _ & _ & E3 & _); [rewrite A3; exact HB|]. rewrite E3. discriminate.
    + cbn [append_spec qf]. rewrite A2. reflexivity.
    + rewrite (app_len a _ P _ Hva Hvn Hsa). exact A3.
    + intros x b Hx Hb. rewrite (app_rows a _ P _ x b Hva Hvn Hsa (A1 x Hx)) by (rewrite A3; exact Hb). now rewrite cloud_rows.
  - split; [exact (conj C1 (conj C2 C3))|]. split; [exact (inv_mono _ _ _ _ HI')|].
    intros x b Hx Hb. rewrite cloud_rows by assumption.
    pose proof (Hist_Rep RF s a (proj1 HR)) as Hrp. unfold Rep in Hrp. rewrite EP in Hrp. destruct Hrp as [Hrp _]. subst a. destruct x; reflexivity.
Qed.
Lemma p_aggregate s a g cf fr q inplace : ReadyToClone RF s a -> RHist q g cf fr -> live fr ->
  (qp a <> None -> plain (fB fr) a) ->
  exists o s' g' a', update_map_aggregate inplace (s, g) = (Ok o, (s', g')) /\ (o = PSelf <-> inplace = true) /\
    ReadyToClone RF (returned o s') a' /\ Shows RF (returned o s') a' /\ plain (fB fr) a' /\ RShows g' cf fr /\
    forall x b, x <> Features -> b < fB fr -> rows_of a' x b = rows_of a x b ++ frame_rows fr x b.
Proof.
  intros HR HI Hl Ha. apply ready_iff in HR. destruct (aggregate_inv s a g cf fr q inplace HR (hist_inv _ _ _ _ HI) Hl Ha) as (o & s' & g' & a' & E & H1 & H2 & H3 & H4 & H5).
  exists o, s', g', a'. split; [exact E|]. split; [exact H1|]. split; [now apply ready_iff|]. split; [apply p_hist_shows, H2|]. split; [exact H3|].
  split; [exact (inv_shows _ _ _ _ H4)|exact H5].
Qed.
Lemma p_aggregate_frames B gs frs : Forall2 (fun g fr => (exists q cf, RHist q g cf fr) /\ live fr /\ fB fr = B) gs frs ->
  forall s a, ReadyToClone RF s a -> (qp a <> None -> plain B a) ->
  exists s' a', aggregate_frames gs s = Ok s' /\ ReadyToClone RF s' a' /\ Shows RF s' a' /\ (qp a <> None \/ frs <> [] -> plain B a') /\
    forall x b, x <> Features -> b < B -> rows_of a' x b = rows_of a x b ++ concat (map (fun fr => frame_rows fr x b) frs).
Proof.
  intros HF. induction HF as [|g fr gs frs ((q & cf & HI) & HL & HB) HF IH]; intros s a HR Ha.
  - exists s, a. split; [reflexivity|]. split; [exact HR|]. split; [apply p_hist_shows, ready_iff, HR|]. split; [intros [K|K]; [auto|congruence]|].
    intros x b _ _. cbn. now rewrite app_nil_r.
  - destruct (p_aggregate s a g cf fr q true HR HI HL) as (o & s1 & g1 & a1 & E & Ho & HR1 & _ & Hpl & _ & Hrow); [rewrite HB; exact Ha|].
    assert (o = PSelf) by tauto. subst o. cbn [returned] in HR1. rewrite HB in Hpl.
    destruct (IH s1 a1 HR1 (fun _ => Hpl)) as (s' & a' & E' & HR' & HS' & H1 & H2).
    exists s', a'. cbn [aggregate_frames]. rewrite E. split; [exact E'|]. split; [exact HR'|]. split; [exact HS'|]. split.
    { intros _. apply H1. left. exact (proj1 Hpl Points ltac:(discriminate)). }
    intros x b Hx Hb. rewrite (H2 x b Hx Hb), (Hrow x b Hx) by congruence. cbn [map concat]. now rewrite app_assoc.
Qed.
