import sys; sys.path.insert(0,'/verif/tools')
from genprop import gen
H=lambda t:('h',t)
def Tm(th,lem,f,com=''): return ('t',th,lem,f,com)
def sec(c): return H('(* ------------------------------------------------------------------ %s *)'%c)
P='RgbdPropProofs'
plan=[H(r'''(* Properties C29-C35: RGBDImages.
   Vocabulary (RgbdSpec.v): frames a = B sequences of L frames of H x W pixels; RShows s cf a = every public
   read of object s gives what frames a say, in channel order cf (cf = true: channels first);
   RHist q s cf a = s was obtained from constructors, setters, reads, conversions, clones, indexing in any
   order and means a; px cf t b l h w c = channel c of pixel (h,w) of frame (b,l). *)
From Coq Require Import Reals List Arith ZArith Bool Lia Lra.
From Verif Require Import Res Fld StructUtilsModel PointcloudsModel PointcloudsSpec PointcloudsIndexSpec
  MatSpec GeomSpec TensorModel RgbdModel RgbdSpec RgbdPropProofs RgbdWitness RgbdWitnessProofs.
Import ListNotations.
Local Open Scope nat_scope.

(* the hypotheses RHist, 2 <= H, 2 <= W, L = 1, 0 < B of the theorems below are met by wobj (RgbdWitness.v) *)
Example C29_C35_witness : exists s, wobj 1 2 3 = Ok s /\ RHist false s false (wfr 1 2 3) /\
  fpix (wfr 1 2 3) = None /\ fL (wfr 1 2 3) = 1 /\ 0 < fB (wfr 1 2 3) /\ 2 <= fH (wfr 1 2 3) /\ 2 <= fW (wfr 1 2 3) /\
  inside (wfr 1 2 3) 0 0 1 2 /\ (0 < fdep (wfr 1 2 3) 0 0 1 2)%R /\ (fdep (wfr 1 2 3) 0 0 1 0 <= 0)%R /\
  (0 < fK (wfr 1 2 3) 0 0%nat 0%nat)%R /\ fK (wfr 1 2 3) 0 0%nat 1%nat = 0%R /\ INR 2 <> fK (wfr 1 2 3) 0 0%nat 2%nat.
Proof.
  destruct (w_hist 1 2 3) as (s & E & Hs). exists s. split; [exact E|]. split; [exact Hs|].
  cbn. repeat split; cbn; try lia; try lra.
Qed.
'''),
sec('C29'),
Tm('C29_vertex_coordinates','p_vertex',P,'the camera used is K with 1e-6 added to both focal lengths'),
Tm('C29_default_pixel_grid','p_pixel',P,'without user-supplied pixel positions, pixel (h, w) is the homogeneous vector (w, h, 1)'),
Tm('C29_projection_error_partial','p_vertex_default',P,'projecting the vertex through K gives the pixel up to an explicit error'),
Tm('C29_projects_back_refuted','p_vertex_inexact',P,'the round trip through K is never exact off the principal column'),
sec('C30'),
Tm('C30_global_vertex','p_global',P),
Tm('C30_global_normal','p_global_normal',P),
H(r'''Example C30_witness : exists s T, wobj 2 2 3 = Ok s /\ RHist false s false (wfr 2 2 3) /\ fpose (wfr 2 2 3) = Some T.
Proof. destruct (w_hist 2 2 3) as (s & E & Hs). exists s. eexists. split; [exact E|]. split; [exact Hs|reflexivity]. Qed.
'''),
sec('C31'),
Tm('C31_normal_map','p_normal',P,'diff_h, diff_v (RgbdSpec.v): differences of neighbouring vertices; the last column/row repeats its neighbour'),
Tm('C31_thin_images','p_normal_thin',P),
sec('C32'),
Tm('C32_reads_mean_inputs_partial','p_shows',P,'missing: histories that convert in place or set the depth after the mask was read (refuted below)'),
Tm('C32_same_as_fresh_partial','p_fresh_same',P,'missing: as above'),
Tm('C32_setters_accept','p_setters',P),
Tm('C32_setters_reject','p_bad_shape',P),
Tm('C32_reads_keep_inputs','p_reads_pure',P,'for every state, reachable or not'),
Tm('C32_depth_setter_partial','p_set_depth',P,'the depth setter, on an object produced by a channel conversion and not read since'),
Tm('C32_depth_setter_refuted','p_depth_setter_fresh',P,'on an object that was never converted the depth setter raises'),
Tm('C32_stale_mask_refuted','p_depth_stale',P,'after the mask was read, assigning depth leaves the old mask in place'),
H(r'''Example C32_witness : exists s o t s', wobj 1 2 3 = Ok s /\ RHist false s false (wfr 1 2 3) /\
  to_channels_first true s = Ok (New o) /\ RHist false o true (wfr 1 2 3) /\
  Image true (wfr 1 2 3) 1 t (fun _ _ _ _ _ => 1%R) /\ set_depth (TTen t) (after_read RdMask o) = (Ok tt, s') /\
  inside (wfr 1 2 3) 0 0 0 0 /\ ~ ((0 < 1)%R <-> (0 < fdep (wfr 1 2 3) 0 0 0 0)%R).
Proof.
  destruct (w_hist 1 2 3) as (s & E & Hs). destruct (p_to_first _ _ _ true Hs) as (o & Eo & Ho & _).
  pose (t := mkTen [3; 2; 1; 1; 1] (fun _ => 1%R)).
  assert (Ht : Image true (wfr 1 2 3) 1 t (fun _ _ _ _ _ => 1%R)) by (split; [reflexivity|intros; reflexivity]).
  destruct (p_set_depth _ _ _ _ true Hs o (or_introl (conj Eo eq_refl)) t (fun _ _ _ _ => 1%R) Ht) as (o' & E' & _).
  destruct (set_depth_after_read RdMask _ _ _ E') as (s2 & E2).
  exists s, o, t, s2. split; [exact E|]. split; [exact Hs|]. split; [exact Eo|]. split; [exact Ho|]. split; [exact Ht|].
  split; [exact E2|]. split; [repeat split; cbn; lia|]. cbn. lra.
Qed.
'''),
sec('C33'),
Tm('C33_elements_move','p_moves_first',P),
Tm('C33_to_first','p_to_first',P,'every read of the converted object is the original one, permuted'),
Tm('C33_to_last','p_to_last',P),
Tm('C33_mutually_inverse','p_round_trip',P),
Tm('C33_idempotent','p_idempotent',P),
Tm('C33_in_place_partial','p_in_place',P,'missing: objects whose mask was read (refuted below)'),
Tm('C33_clone','p_clone',P),
Tm('C33_in_place_first_refuted','p_first_stale',P,'in place, the cached mask keeps its old layout'),
Tm('C33_in_place_last_refuted','p_last_stale',P),
Tm('C33_in_place_vertex_map_refuted','p_first_stale_error',P,'and then the vertex map cannot be read'),
H(r'''Example C33_witness : exists s, wobj 1 2 3 = Ok s /\ RHist false s false (wfr 1 2 3) /\
  ~ (fH (wfr 1 2 3) = 1 /\ fW (wfr 1 2 3) = 1) /\ fH (wfr 1 2 3) <> fW (wfr 1 2 3).
Proof. destruct (w_hist 1 2 3) as (s & E & Hs). exists s. repeat split; auto; cbn; lia. Qed.
'''),
sec('C34'),
Tm('C34_selects_partial','p_item',P,'missing: indices containing the integer -1 (refuted below)'),
Tm('C34_maps_sliced','p_item_maps',P),
Tm('C34_rejects','p_item_rejects',P),
Tm('C34_last_item_refuted','p_item_last',P,'-1 addresses the last item but raises'),
Tm('C34_bare_slice_refuted','p_item_bare',P,'bare slices, lists and tensors, documented as allowed, raise'),
H(r'''Example C34_witness : exists s, wobj 4 2 3 = Ok s /\ RHist false s false (wfr 4 2 3) /\
  Addresses (RTuple [EInt 0; ESlice (Some 1%Z) None (Some 2%Z)]) (wfr 4 2 3) [0] [1; 3] /\
  ~ last_item (RTuple [EInt 0; ESlice (Some 1%Z) None (Some 2%Z)]).
Proof.
  destruct (w_hist 4 2 3) as (s & E & Hs). exists s. split; [exact E|]. split; [exact Hs|]. split.
  - split.
    + exists 0. split; [split; [cbn; lia|left; reflexivity]|reflexivity].
    + split; [reflexivity|]. left. split; [lia|]. split; [repeat constructor|]. intros lo hi k.
      change lo with 1%Z. change hi with 4%Z. cbn [In]. split.
      * intros [<- |[<- |[]]]; (split; [lia|]); [exists 0%Z|exists 1%Z]; lia.
      * intros [Hk (j & Hj & Ek)]. assert (j = 0 \/ j = 1)%Z by lia. lia.
  - cbn. intros [Q|[Q|[]]]; discriminate.
Qed.
'''),
sec('C35'),
Tm('C35_clouds_partial','p_cloud',P,'missing: images with fewer than two rows or columns (refuted below) and empty batches'),
Tm('C35_frame_not_mutated','p_cloud_pure',P),
Tm('C35_sequence_length','p_cloud_length',P),
Tm('C35_thin_images_refuted','p_cloud_thin',P),
H(r'''Example C35_witness : exists s, wobj 1 1 3 = Ok s /\ RHist false s false (wfr 1 1 3) /\ fL (wfr 1 1 3) = 1 /\ fH (wfr 1 1 3) < 2.
Proof. destruct (w_hist 1 1 3) as (s & E & Hs). exists s. repeat split; auto. Qed.
'''),
]
gen('PropRgbd.v', plan)
