(* Properties C36-C44: building the map.
   Vocabulary (FusionSpec.v): a map a is a batch of clouds; attr_at a x b n = attribute x of point n of cloud b;
   conf = confidence (the single feature); real_point a b n = the point exists; frames fr with fL = 1 are one
   image per cloud; seen_at, similar, at_least_as_good, Correspondences, Fused as defined there.
   ReadyToClone s a = object s holds map a (any history) and its lists are loaded or equally long;
   RHist q g cf fr = object g holds frames fr; Shows / RShows = every public read gives that content. *)
From Coq Require Import Reals List Arith ZArith Bool Lia Lra Sorting.Sorted.
From Verif Require Import Res Fld StructUtilsModel PointcloudsModel PointcloudsSpec PointcloudsHist
  MatSpec GeomSpec TensorModel RgbdModel RgbdSpec RgbdWitness RgbdWitnessProofs
  FusionModel FusionSpec FusionPropProofs FusionPropProofs2 FusionWitness.
Import ListNotations.
Local Open Scope nat_scope.

(* the hypotheses of C37-C43 are met: a map with one point, seen at pixel (0, 1) of the 2 x 3 frame *)
Example C36_C43_witness : exists s g T, ReadyToClone RF s m1 /\ RHist false g false (wfr 1 2 3) /\ live (wfr 1 2 3) /\
  fB (wfr 1 2 3) = len_view RF m1 /\ fpose (wfr 1 2 3) = Some T /\ full_map m1 /\ positive m1 /\ fits_float32 m1 (wfr 1 2 3) /\
  (forall x, qget x m1 <> None) /\ seen_at m1 (wfr 1 2 3) T 0 0 0 1 /\
  in_map m1 (mkRow 0 0 0 1) /\ in_image (wfr 1 2 3) (mkRow 0 0 0 1) /\ points_once [mkRow 0 0 0 1].
Proof.
  destruct (map_exists _ _ m1_valid) as (s & Hs). destruct w13 as (g & Hg). destruct m1_seen as (T & HT & Hseen).
  exists s, g, T. split; [exact Hs|]. split; [exact Hg|]. split; [exact wfr_live|]. split; [reflexivity|]. split; [exact HT|].
  split; [exact (proj1 m1_full)|]. split; [exact (proj2 m1_full)|]. split; [exact m1_fits|]. split; [exact (proj1 (proj1 m1_full))|].
  split; [exact Hseen|]. split; [split; [unfold len_view; cbn; lia|unfold npoints; cbn; lia]|]. split; [repeat split; cbn; lia|].
  unfold points_once. cbn. constructor; [intros []|constructor].
Qed.

(* ------------------------------------------------------------------ C36 *)
(* the clamp at 1.01 never acts; dim is the last dimension *)
Theorem C36_alpha : forall (x : ten R) s dim (sigma eps : R), dims x = 3 :: s -> dim = (-1)%Z \/ dim = Z.of_nat (length s) ->
  sigma <> 0%R -> (eps <= 101 / 100)%R ->
  exists y z, get_alpha x (SigNum sigma) dim false eps = Ok y /\ get_alpha x (SigNum sigma) dim true eps = Ok z /\
    dims y = s /\ dims z = 1 :: s /\
    forall ix, let v := fun k => at_ x (k :: ix) in
      at_ y ix = Rmax (gaussian sigma v) eps /\ at_ z (0 :: ix) = Rmax (gaussian sigma v) eps.
Proof. exact p_alpha. Qed.
Print Assumptions C36_alpha.

Theorem C36_alpha_bounds : forall sigma eps v, sigma <> 0%R -> (eps <= 1)%R ->
  (eps <= Rmax (gaussian sigma v) eps <= 1)%R /\ ((eps <= gaussian sigma v)%R -> Rmax (gaussian sigma v) eps = gaussian sigma v).
Proof. exact p_alpha_bounds. Qed.
Print Assumptions C36_alpha_bounds.

Theorem C36_alpha_monotone : forall sigma eps u v, sigma <> 0%R -> (norm 3 u <= norm 3 v)%R ->
  (Rmax (gaussian sigma v) eps <= Rmax (gaussian sigma u) eps)%R.
Proof. exact p_alpha_mono. Qed.
Print Assumptions C36_alpha_monotone.

Theorem C36_alpha_rejects : forall (x : ten R) dim keep eps,
  get_alpha x SigBad dim keep eps = Err TypeError /\
  (forall sigma p, sigma <> SigBad -> dim_pos dim (ndim x) = Ok p -> nth p (dims x) 0 <> 3 -> get_alpha x sigma dim keep eps = Err ValueError) /\
  (forall nd v p, nd <> 0 -> dim_pos dim (ndim x) = Ok p -> get_alpha x (SigTen nd v) dim keep eps = Err ValueError).
Proof. exact p_alpha_rej. Qed.
Print Assumptions C36_alpha_rejects.

Example C36_witness : (gaussian 1 (fun _ => 0) = 1 /\ / 10000000 <= 101 / 100 /\ / 10000000 <= 1)%R.
Proof. unfold gaussian, norm, dot. cbn [rsum]. replace (0 + 0 * 0 + 0 * 0 + 0 * 0)%R with 0%R by ring. rewrite sqrt_0. split; [|lra].
  replace (- 0 ^ 2 / (2 * 1 ^ 2))%R with 0%R by field. apply exp_0. Qed.

(* ------------------------------------------------------------------ C37 *)
(* active_spec: exactly the real points seen in the image, each once, in map order *)
Theorem C37_active_points : forall s a g cf fr q T,
  ReadyToClone RF s a -> RHist q g cf fr -> fL fr = 1 -> fB fr = len_view RF a ->
  fpose fr = Some T -> qp a <> None ->
  exists rows s', find_active_map_points (s, g) = (Ok rows, (s', g)) /\ ReadyToClone RF s' a /\ Shows RF s' a /\
    active_spec a fr T rows.
Proof. exact p_active. Qed.
Print Assumptions C37_active_points.

Theorem C37_indices_in_range : forall a fr T rows b n h w,
  fB fr = len_view RF a -> active_spec a fr T rows -> In (mkRow b n h w) rows ->
  b < fB fr /\ n < npoints a b /\ h < fH fr /\ w < fW fr.
Proof. exact p_active_range. Qed.
Print Assumptions C37_indices_in_range.

(* to_camera T undoes the rigid pose T *)
Theorem C37_to_camera_is_inverse : forall T p,
  rigid4 T -> forall i, i < 3 -> act T (to_camera T p) i = p i.
Proof. exact p_camera. Qed.
Print Assumptions C37_to_camera_is_inverse.

Theorem C37_empty_map : forall s a g cf fr q,
  ReadyToClone RF s a -> RHist q g cf fr -> fL fr = 1 -> qp a = None ->
  exists s', find_active_map_points (s, g) = (Ok [], (s', g)) /\ ReadyToClone RF s' a.
Proof. exact p_active_empty. Qed.
Print Assumptions C37_empty_map.

Theorem C37_rejections : forall s a g cf fr q,
  ReadyToClone RF s a -> RHist q g cf fr ->
  (fL fr <> 1 -> fst (find_active_map_points (s, g)) = Err ValueError) /\
  (fL fr = 1 -> qp a <> None -> fB fr <> len_view RF a -> fst (find_active_map_points (s, g)) = Err ValueError) /\
  (fL fr = 1 -> qp a <> None -> fB fr = len_view RF a -> fpose fr = None -> fst (find_active_map_points (s, g)) = Err AttributeError).
Proof. exact p_active_rej. Qed.
Print Assumptions C37_rejections.

(* ------------------------------------------------------------------ C38 *)
(* the kept rows are those that pass, in their order *)
Theorem C38_similar : forall s a g fr q rows dist_th dot_th,
  ReadyToClone RF s a -> RHist q g false fr -> live fr -> fB fr = len_view RF a ->
  qp a <> None -> qn a <> None -> Forall (in_map a) rows -> Forall (in_image fr) rows -> points_once rows -> rows <> [] ->
  exists test s' g', find_similar_map_points (Tbl rows) dist_th dot_th (s, g) = (Ok (filter test rows, map test rows), (s', g')) /\
    (forall r, In r rows -> (test r = true <-> similar a fr dist_th dot_th r)) /\
    ReadyToClone RF s' a /\ Shows RF s' a /\ RShows g' false fr.
Proof. exact p_similar. Qed.
Print Assumptions C38_similar.

(* missing: negative dot_th, refuted below *)
Theorem C38_similar_pixels_valid_partial : forall a fr dist_th dot_th r,
  (0 <= dot_th)%R -> similar a fr dist_th dot_th r -> (0 < fdep fr (rb r) 0 (rh r) (rw r))%R.
Proof. exact p_similar_valid. Qed.
Print Assumptions C38_similar_pixels_valid_partial.

(* with dot_th < 0 a pixel without depth is kept *)
Theorem C38_valid_depth_refuted : exists s a g fr r s' g', ReadyToClone RF s a /\ RHist false g false fr /\ live fr /\ in_map a r /\ in_image fr r /\
  find_similar_map_points (Tbl [r]) 1 (-1) (s, g) = (Ok ([r], [true]), (s', g')) /\ fdep fr (rb r) 0 (rh r) (rw r) = 0%R.
Proof. exact r_similar_invalid. Qed.
Print Assumptions C38_valid_depth_refuted.

Theorem C38_trivial : forall s a g cf fr q rows dist_th dot_th,
  ReadyToClone RF s a -> RHist q g cf fr -> fL fr = 1 ->
  qp a = None \/ rows = [] ->
  exists s', find_similar_map_points (Tbl rows) dist_th dot_th (s, g) = (Ok ([], []), (s', g)) /\ ReadyToClone RF s' a.
Proof. exact p_similar_trivial. Qed.
Print Assumptions C38_trivial.

Theorem C38_rejections : forall s a g cf fr q rows dist_th dot_th,
  ReadyToClone RF s a -> RHist q g cf fr ->
  fst (find_similar_map_points TblBad dist_th dot_th (s, g)) = Err TypeError /\
  fst (find_similar_map_points TblShape dist_th dot_th (s, g)) = Err ValueError /\
  (fL fr <> 1 -> fst (find_similar_map_points (Tbl rows) dist_th dot_th (s, g)) = Err ValueError) /\
  (qp a <> None -> rows <> [] -> fB fr <> len_view RF a \/ qn a = None ->
     fst (find_similar_map_points (Tbl rows) dist_th dot_th (s, g)) = Err ValueError).
Proof. exact p_similar_rej. Qed.
Print Assumptions C38_rejections.

(* ------------------------------------------------------------------ C39 *)
(* ties are broken by the distance to the 3-D point of the pixel, not to its viewing ray *)
Theorem C39_best_partial : forall s a g fr q rows,
  ReadyToClone RF s a -> RHist q g false fr -> fL fr = 1 -> fB fr = len_view RF a ->
  qp a <> None -> qf a <> None -> fits_float32 a fr -> Forall (in_map a) rows -> Forall (in_image fr) rows ->
  exists out s' g', find_best_unique_correspondences f32 (Tbl rows) (s, g) = (Ok out, (s', g')) /\
    (forall r, In r out -> In r rows) /\ StronglySorted before_pixel out /\
    (forall r, In r rows -> exists r', In r' out /\ same_pixel r' r) /\
    (width RF a Features = 1 -> (forall r, In r rows -> (0 <= conf a (rb r) (rn r))%R) ->
     forall r, In r rows -> exists r', In r' out /\ same_pixel r' r /\ at_least_as_good a fr r' r) /\
    ReadyToClone RF s' a /\ Shows RF s' a /\ RShows g' false fr.
Proof. exact p_best. Qed.
Print Assumptions C39_best_partial.

Theorem C39_one_row_per_pixel : forall out r r',
  StronglySorted before_pixel out -> In r out -> In r' out -> same_pixel r r' -> r = r'.
Proof. exact p_best_once. Qed.
Print Assumptions C39_one_row_per_pixel.

(* a point on the viewing ray loses against one of equal confidence that is not on it *)
Theorem C39_viewing_ray_refuted : exists s a g fr T rA rB s' g', ReadyToClone RF s a /\ RHist false g false fr /\ live fr /\ fits_float32 a fr /\
  fpose fr = Some T /\ in_map a rA /\ in_map a rB /\ in_image fr rA /\ same_pixel rA rB /\
  conf a (rb rA) (rn rA) = conf a (rb rB) (rn rB) /\
  on_ray (T 0 0) (frame_point fr rA) (attr_at a Points (rb rA) (rn rA)) /\
  ~ on_ray (T 0 0) (frame_point fr rB) (attr_at a Points (rb rB) (rn rB)) /\
  find_best_unique_correspondences f32 (Tbl [rA; rB]) (s, g) = (Ok [rB], (s', g')).
Proof. exact r_ray. Qed.
Print Assumptions C39_viewing_ray_refuted.

(* ------------------------------------------------------------------ C40 *)
(* maps of at most 2^24 points: C39_best_partial with hypothesis fits_float32 says that every returned row is a row of
   the input *)
Theorem C40_small_maps_partial : forall s a g fr q rows, ReadyToClone RF s a -> RHist q g false fr -> fL fr = 1 -> fB fr = len_view RF a ->
  qp a <> None -> qf a <> None -> fits_float32 a fr -> Forall (in_map a) rows -> Forall (in_image fr) rows ->
  forall out s' g', find_best_unique_correspondences f32 (Tbl rows) (s, g) = (Ok out, (s', g')) -> incl out rows.
Proof.
  intros s a g fr q rows H1 H2 H3 H4 H5 H6 H7 H8 H9 out s' g' E.
  destruct (p_best s a g fr q rows H1 H2 H3 H4 H5 H6 H7 H8 H9) as (out' & s2 & g2 & E' & Hin & _). rewrite E in E'. injection E' as <- _ _. exact Hin.
Qed.
Print Assumptions C40_small_maps_partial.

(* map point 2^24 + 1 comes back as map point 2^24 *)
Theorem C40_big_maps_refuted : exists s a g fr r r' s' g', ReadyToClone RF s a /\ RHist false g false fr /\ live fr /\ fB fr = len_view RF a /\
  in_map a r /\ in_image fr r /\ Z.of_nat (rn r) = (2 ^ 24 + 1)%Z /\
  find_best_unique_correspondences f32 (Tbl [r]) (s, g) = (Ok [r'], (s', g')) /\ Z.of_nat (rn r') = (2 ^ 24)%Z.
Proof. exact r_big. Qed.
Print Assumptions C40_big_maps_refuted.

(* ------------------------------------------------------------------ C41 *)
(* Fused: matched points averaged, unmatched ones unchanged unless their confidence is 0, fresh pixels appended *)
Theorem C41_fuse : forall s a g fr q rows sigma inplace,
  ReadyToClone RF s a -> RHist q g false fr -> live fr -> sigma <> 0%R ->
  (qp a <> None -> full_map a /\ fB fr = len_view RF a) ->
  Forall (in_map a) rows -> Forall (in_image fr) rows -> points_once rows ->
  exists o s' g' a', fuse_with_map (Tbl rows) (SigNum sigma) inplace (s, g) = (Ok o, (s', g')) /\
    (o = PSelf <-> inplace = true) /\ ReadyToClone RF (returned o s') a' /\ Shows RF (returned o s') a' /\
    Fused sigma fr rows a a' /\ full_map a' /\ (positive a -> positive a') /\ RShows g' false fr.
Proof. exact p_fuse. Qed.
Print Assumptions C41_fuse.

(* an unmatched point of confidence 0 is moved to the origin *)
Theorem C41_zero_confidence_refuted : exists s a g fr rows o s' g' a', ReadyToClone RF s a /\ RHist false g false fr /\ live fr /\ full_map a /\
  Forall (in_map a) rows /\ Forall (in_image fr) rows /\ points_once rows /\
  fuse_with_map (Tbl rows) (SigNum 1) true (s, g) = (Ok o, (s', g')) /\ Shows RF (returned o s') a' /\
  real_point a 0 0 /\ unmatched rows 0 0 /\ attr_at a Points 0 0 0 = 5%R /\ attr_at a' Points 0 0 0 = 0%R.
Proof. exact r_zero_conf. Qed.
Print Assumptions C41_zero_confidence_refuted.

(* ------------------------------------------------------------------ C42 *)
Theorem C42_update : forall s a g fr q dist_th dot_th sigma inplace,
  ReadyToClone RF s a -> RHist q g false fr -> live fr -> sigma <> 0%R ->
  (qp a <> None -> full_map a /\ fB fr = len_view RF a /\ fpose fr <> None) -> fits_float32 a fr ->
  exists rows o s' g' a', update_map_fusion f32 dist_th dot_th (SigNum sigma) inplace (s, g) = (Ok o, (s', g')) /\
    (o = PSelf <-> inplace = true) /\ ReadyToClone RF (returned o s') a' /\ Shows RF (returned o s') a' /\
    match qp a with
    | None => rows = []
    | Some _ => exists T, fpose fr = Some T /\ Correspondences a fr T dist_th dot_th rows
    end /\
    Fused sigma fr rows a a' /\ full_map a' /\ (positive a -> positive a') /\ RShows g' false fr /\
    forall b, b < fB fr -> npoints a b <= npoints a' b <= npoints a b + fH fr * fW fr /\
      ((0 <= dot_th)%R -> total a' b = (total a b + total_alpha sigma fr b)%R /\
       forall h w, h < fH fr -> w < fW fr -> (0 < fdep fr b 0 h w)%R -> handled_once rows fr b h w).
Proof. exact p_update. Qed.
Print Assumptions C42_update.

Theorem C42_many_frames : forall B dist_th dot_th sigma gs frs,
  Forall2 (fusable B) gs frs -> sigma <> 0%R -> (0 <= dot_th)%R ->
  forall s a, ReadyToClone RF s a -> (qp a <> None -> full_map a /\ len_view RF a = B) ->
  (forall b, b < B -> (Z.of_nat (npoints a b + sum_pixels frs) <= 2 ^ 24)%Z) ->
  exists s' a', fuse_frames dist_th dot_th sigma gs s = Ok s' /\ ReadyToClone RF s' a' /\ Shows RF s' a' /\
    (frs <> [] \/ full_map a /\ len_view RF a = B -> full_map a' /\ len_view RF a' = B) /\ (positive a -> positive a') /\
    forall b, b < B -> total a' b = (total a b + sum_alpha sigma frs b)%R /\
      npoints a b <= npoints a' b <= npoints a b + sum_pixels frs.
Proof. exact p_fuse_frames. Qed.
Print Assumptions C42_many_frames.

Example C42_witness : exists g s, Forall2 (fusable 1) [g; g] [wfr 1 2 3; wfr 1 2 3] /\ ReadyToClone RF s m1 /\
  full_map m1 /\ len_view RF m1 = 1 /\ forall b, b < 1 -> (Z.of_nat (npoints m1 b + sum_pixels [wfr 1 2 3; wfr 1 2 3]) <= 2 ^ 24)%Z.
Proof.
  destruct (map_exists _ _ m1_valid) as (s & Hs). destruct w13 as (g & Hg). exists g, s.
  assert (F : fusable 1 g (wfr 1 2 3)).
  { split; [exists false; exact Hg|]. split; [exact wfr_live|]. split; [reflexivity|]. split; [discriminate|]. cbn. lia. }
  split; [constructor; [exact F|constructor; [exact F|constructor]]|]. split; [exact Hs|]. split; [exact (proj1 m1_full)|]. split; [reflexivity|].
  intros b Hb. assert (b = 0) by lia. subst b. unfold npoints. cbn. lia.
Qed.

(* ------------------------------------------------------------------ C43 *)
(* whatever the outcome *)
Theorem C43_aggregate_pure : forall s a g cf fr q r s' g',
  Hist RF s a -> RHist q g cf fr ->
  update_map_aggregate false (s, g) = (r, (s', g')) -> Hist RF s' a /\ Shows RF s' a /\ RShows g' cf fr.
Proof. exact p_aggregate_pure. Qed.
Print Assumptions C43_aggregate_pure.

(* missing: when a point is matched the map passed in is modified (last conjunct) *)
Theorem C43_fusion_pure_partial : forall s a g fr q dist_th dot_th sigma T,
  ReadyToClone RF s a -> RHist q g false fr -> live fr -> sigma <> 0%R ->
  full_map a -> fB fr = len_view RF a -> qp a <> None -> fpose fr = Some T -> fits_float32 a fr ->
  exists rows o s' g' a1, update_map_fusion f32 dist_th dot_th (SigNum sigma) false (s, g) = (Ok (PNew o), (s', g')) /\
    Correspondences a fr T dist_th dot_th rows /\
    Hist RF s' a1 /\ Shows RF s' a1 /\ RShows g' false fr /\ (rows = [] -> a1 = a) /\
    (forall b n h w, matched rows b n h w -> (conf a b n < conf a1 b n)%R).
Proof. exact p_update_copy. Qed.
Print Assumptions C43_fusion_pure_partial.

(* missing: as above *)
Theorem C43_fuse_pure_partial : forall s a g fr q rows sigma,
  ReadyToClone RF s a -> RHist q g false fr -> live fr -> sigma <> 0%R ->
  full_map a -> fB fr = len_view RF a -> qp a <> None ->
  Forall (in_map a) rows -> Forall (in_image fr) rows -> points_once rows ->
  exists o s' g' a1, fuse_with_map (Tbl rows) (SigNum sigma) false (s, g) = (Ok (PNew o), (s', g')) /\
    Hist RF s' a1 /\ Shows RF s' a1 /\ RShows g' false fr /\ (rows = [] -> a1 = a) /\
    (forall b n h w, matched rows b n h w -> (conf a b n < conf a1 b n)%R).
Proof. exact p_fuse_copy. Qed.
Print Assumptions C43_fuse_pure_partial.

Theorem C43_fusion_refuted : exists s a g fr o s' g' a1, ReadyToClone RF s a /\ RHist false g false fr /\ live fr /\ full_map a /\ fits_float32 a fr /\
  update_map_fusion f32 1 (-1) (SigNum 1) false (s, g) = (Ok (PNew o), (s', g')) /\ Shows RF s a /\ Shows RF s' a1 /\
  (conf a 0 0 < conf a1 0 0)%R.
Proof. exact r_update_copy. Qed.
Print Assumptions C43_fusion_refuted.

(* ------------------------------------------------------------------ C44 *)
Theorem C44_aggregate_step : forall s a g cf fr q inplace,
  ReadyToClone RF s a -> RHist q g cf fr -> live fr ->
  (qp a <> None -> plain (fB fr) a) ->
  exists o s' g' a', update_map_aggregate inplace (s, g) = (Ok o, (s', g')) /\ (o = PSelf <-> inplace = true) /\
    ReadyToClone RF (returned o s') a' /\ Shows RF (returned o s') a' /\ plain (fB fr) a' /\ RShows g' cf fr /\
    forall x b, x <> Features -> b < fB fr -> rows_of a' x b = rows_of a x b ++ frame_rows fr x b.
Proof. exact p_aggregate. Qed.
Print Assumptions C44_aggregate_step.

(* started on an empty map, rows_of a x b is [] and the rows are exactly those of the frames *)
Theorem C44_aggregate_frames : forall B gs frs,
  Forall2 (fun g fr => (exists q cf, RHist q g cf fr) /\ live fr /\ fB fr = B) gs frs ->
  forall s a, ReadyToClone RF s a -> (qp a <> None -> plain B a) ->
  exists s' a', aggregate_frames gs s = Ok s' /\ ReadyToClone RF s' a' /\ Shows RF s' a' /\ (qp a <> None \/ frs <> [] -> plain B a') /\
    forall x b, x <> Features -> b < B -> rows_of a' x b = rows_of a x b ++ concat (map (fun fr => frame_rows fr x b) frs).
Proof. exact p_aggregate_frames. Qed.
Print Assumptions C44_aggregate_frames.

Example C44_witness : exists g s a, Forall2 (fun g fr => (exists q cf, RHist q g cf fr) /\ live fr /\ fB fr = 1) [g; g] [wfr 1 2 3; wfr 1 2 3] /\
  ReadyToClone RF s a /\ qp a = None /\ length (frame_rows (wfr 1 2 3) Points 0) = 4.
Proof.
  destruct w13 as (g & Hg). destruct empty_map as (s & Hs). exists g, s, (no_batch RF).
  assert (F : (exists q cf, RHist q g cf (wfr 1 2 3)) /\ live (wfr 1 2 3) /\ fB (wfr 1 2 3) = 1) by (split; [exists false, false; exact Hg|split; [exact wfr_live|reflexivity]]).
  split; [constructor; [exact F|constructor; [exact F|constructor]]|]. split; [exact Hs|]. split; [reflexivity|].
  unfold frame_rows. rewrite map_length. exact wfr_count.
Qed.
