import sys; sys.path.insert(0,'/verif/tools')
from genprop import gen
H=lambda t:('h',t)
def Tm(th,lem,f,com=''): return ('t',th,lem,f,com)
def sec(c): return H('(* ------------------------------------------------------------------ %s *)'%c)
P='FusionPropProofs'; Q='FusionPropProofs2'; W='FusionWitness'
plan=[H(r'''(* Properties C36-C44: building the map.
   Vocabulary (FusionSpec.v): a map a is a batch of clouds; attr_at a x b n = attribute x of point n of cloud b;
   conf = confidence (the single feature); real_point a b n = the point exists; frames fr with fL = 1 are one
   image per cloud; seen_at, similar, at_least_as_good, Correspondences, Fused as defined there.
   ReadyToClone s a = object s holds map a (any history) and its lists are loaded or equally long;
   RHist q g cf fr = object g holds frames fr; Shows / RShows = every public read gives that content. *)
From Coq Require Import Reals List Arith ZArith Bool Lia Lra Sorting.Sorted.
From Verif Require Import Res Fld StructUtilsModel PointcloudsModel PointcloudsSpec PointcloudsHist
  MatSpec GeomSpec TensorModel RgbdModel RgbdSpec RgbdWitness RgbdWitnessProofs
  FusionModel FusionSpec FusionPropProofs FusionPropProofs2 FusionWitness.
Import ListNotations.
Local Open Scope nat_scope.

(* the hypotheses of C37-C43 are met: a map with one point, seen at pixel (0, 1) of the 2 x 3 frame *)
Example C36_C43_witness : exists s g T, ReadyToClone RF s m1 /\ RHist false g false (wfr 1 2 3) /\ live (wfr 1 2 3) /\
  fB (wfr 1 2 3) = len_view RF m1 /\ fpose (wfr 1 2 3) = Some T /\ full_map m1 /\ positive m1 /\ fits_float32 m1 (wfr 1 2 3) /\
  (forall x, qget x m1 <> None) /\ seen_at m1 (wfr 1 2 3) T 0 0 0 1 /\
  in_map m1 (mkRow 0 0 0 1) /\ in_image (wfr 1 2 3) (mkRow 0 0 0 1) /\ points_once [mkRow 0 0 0 1].
Proof.
  destruct (map_exists _ _ m1_valid) as (s & Hs). destruct w13 as (g & Hg). destruct m1_seen as (T & HT & Hseen).
  exists s, g, T. split; [exact Hs|]. split; [exact Hg|]. split; [exact wfr_live|]. split; [reflexivity|]. split; [exact HT|].
  split; [exact (proj1 m1_full)|]. split; [exact (proj2 m1_full)|]. split; [exact m1_fits|]. split; [exact (proj1 (proj1 m1_full))|].
  split; [exact Hseen|]. split; [split; [unfold len_view; cbn; lia|unfold npoints; cbn; lia]|]. split; [repeat split; cbn; lia|].
  unfold points_once. cbn. constructor; [intros []|constructor].
Qed.
'''),
sec('C36'),
Tm('C36_alpha','p_alpha',P,'the clamp at 1.01 never acts; dim is the last dimension'),
Tm('C36_alpha_bounds','p_alpha_bounds',P),
Tm('C36_alpha_monotone','p_alpha_mono',P),
Tm('C36_alpha_rejects','p_alpha_rej',P),
H(r'''Example C36_witness : (gaussian 1 (fun _ => 0) = 1 /\ / 10000000 <= 101 / 100 /\ / 10000000 <= 1)%R.
Proof. unfold gaussian, norm, dot. cbn [rsum]. replace (0 + 0 * 0 + 0 * 0 + 0 * 0)%R with 0%R by ring. rewrite sqrt_0. split; [|lra].
  replace (- 0 ^ 2 / (2 * 1 ^ 2))%R with 0%R by field. apply exp_0. Qed.
'''),
sec('C37'),
Tm('C37_active_points','p_active',P,'active_spec: exactly the real points seen in the image, each once, in map order'),
Tm('C37_indices_in_range','p_active_range',P),
Tm('C37_to_camera_is_inverse','p_camera',P,'to_camera T undoes the rigid pose T'),
Tm('C37_empty_map','p_active_empty',P),
Tm('C37_rejections','p_active_rej',P),
sec('C38'),
Tm('C38_similar','p_similar',P,'the kept rows are those that pass, in their order'),
Tm('C38_similar_pixels_valid_partial','p_similar_valid',P,'missing: negative dot_th, refuted below'),
Tm('C38_valid_depth_refuted','r_similar_invalid',W,'with dot_th < 0 a pixel without depth is kept'),
Tm('C38_trivial','p_similar_trivial',P),
Tm('C38_rejections','p_similar_rej',P),
sec('C39'),
Tm('C39_best_partial','p_best',P,'ties are broken by the distance to the 3-D point of the pixel, not to its viewing ray'),
Tm('C39_one_row_per_pixel','p_best_once',P),
Tm('C39_viewing_ray_refuted','r_ray',W,'a point on the viewing ray loses against one of equal confidence that is not on it'),
sec('C40'),
H(r'''(* maps of at most 2^24 points: C39_best_partial with hypothesis fits_float32 says that every returned row is a row of
   the input *)
Theorem C40_small_maps_partial : forall s a g fr q rows, ReadyToClone RF s a -> RHist q g false fr -> fL fr = 1 -> fB fr = len_view RF a ->
  qp a <> None -> qf a <> None -> fits_float32 a fr -> Forall (in_map a) rows -> Forall (in_image fr) rows ->
  forall out s' g', find_best_unique_correspondences f32 (Tbl rows) (s, g) = (Ok out, (s', g')) -> incl out rows.
Proof.
  intros s a g fr q rows H1 H2 H3 H4 H5 H6 H7 H8 H9 out s' g' E.
  destruct (p_best s a g fr q rows H1 H2 H3 H4 H5 H6 H7 H8 H9) as (out' & s2 & g2 & E' & Hin & _). rewrite E in E'. injection E' as <- _ _. exact Hin.
Qed.
Print Assumptions C40_small_maps_partial.
'''),
Tm('C40_big_maps_refuted','r_big',W,'map point 2^24 + 1 comes back as map point 2^24'),
sec('C41'),
Tm('C41_fuse','p_fuse',Q,'Fused: matched points averaged, unmatched ones unchanged unless their confidence is 0, fresh pixels appended'),
Tm('C41_zero_confidence_refuted','r_zero_conf',W,'an unmatched point of confidence 0 is moved to the origin'),
sec('C42'),
Tm('C42_update','p_update',Q),
Tm('C42_many_frames','p_fuse_frames',Q),
H(r'''Example C42_witness : exists g s, Forall2 (fusable 1) [g; g] [wfr 1 2 3; wfr 1 2 3] /\ ReadyToClone RF s m1 /\
  full_map m1 /\ len_view RF m1 = 1 /\ forall b, b < 1 -> (Z.of_nat (npoints m1 b + sum_pixels [wfr 1 2 3; wfr 1 2 3]) <= 2 ^ 24)%Z.
Proof.
  destruct (map_exists _ _ m1_valid) as (s & Hs). destruct w13 as (g & Hg). exists g, s.
  assert (F : fusable 1 g (wfr 1 2 3)).
  { split; [exists false; exact Hg|]. split; [exact wfr_live|]. split; [reflexivity|]. split; [discriminate|]. cbn. lia. }
  split; [constructor; [exact F|constructor; [exact F|constructor]]|]. split; [exact Hs|]. split; [exact (proj1 m1_full)|]. split; [reflexivity|].
  intros b Hb. assert (b = 0) by lia. subst b. unfold npoints. cbn. lia.
Qed.
'''),
sec('C43'),
Tm('C43_aggregate_pure','p_aggregate_pure',Q,'whatever the outcome'),
Tm('C43_fusion_pure_partial','p_update_copy',Q,'missing: when a point is matched the map passed in is modified (last conjunct)'),
Tm('C43_fuse_pure_partial','p_fuse_copy',Q,'missing: as above'),
Tm('C43_fusion_refuted','r_update_copy',W),
sec('C44'),
Tm('C44_aggregate_step','p_aggregate',Q),
Tm('C44_aggregate_frames','p_aggregate_frames',Q,'started on an empty map, rows_of a x b is [] and the rows are exactly those of the frames'),
H(r'''Example C44_witness : exists g s a, Forall2 (fun g fr => (exists q cf, RHist q g cf fr) /\ live fr /\ fB fr = 1) [g; g] [wfr 1 2 3; wfr 1 2 3] /\
  ReadyToClone RF s a /\ qp a = None /\ length (frame_rows (wfr 1 2 3) Points 0) = 4.
Proof.
  destruct w13 as (g & Hg). destruct empty_map as (s & Hs). exists g, s, (no_batch RF).
  assert (F : (exists q cf, RHist q g cf (wfr 1 2 3)) /\ live (wfr 1 2 3) /\ fB (wfr 1 2 3) = 1) by (split; [exists false, false; exact Hg|split; [exact wfr_live|reflexivity]]).
  split; [constructor; [exact F|constructor; [exact F|constructor]]|]. split; [exact Hs|]. split; [reflexivity|].
  unfold frame_rows. rewrite map_length. exact wfr_count.
Qed.
'''),
]
gen('PropFusion.v',plan)
