(* Properties C29-C35: RGBDImages.
   Vocabulary (RgbdSpec.v): frames a = B sequences of L frames of H x W pixels; RShows s cf a = every public
   read of object s gives what frames a say, in channel order cf (cf = true: channels first);
   RHist q s cf a = s was obtained from constructors, setters, reads, conversions, clones, indexing in any
   order and means a; px cf t b l h w c = channel c of pixel (h,w) of frame (b,l). *)
From Coq Require Import Reals List Arith ZArith Bool Lia Lra.
From Verif Require Import Res Fld StructUtilsModel PointcloudsModel PointcloudsSpec PointcloudsIndexSpec
  MatSpec GeomSpec TensorModel RgbdModel RgbdSpec RgbdPropProofs RgbdWitness RgbdWitnessProofs.
Import ListNotations.
Local Open Scope nat_scope.

(* the hypotheses RHist, 2 <= H, 2 <= W, L = 1, 0 < B of the theorems below are met by wobj (RgbdWitness.v) *)
Example C29_C35_witness : exists s, wobj 1 2 3 = Ok s /\ RHist false s false (wfr 1 2 3) /\
  fpix (wfr 1 2 3) = None /\ fL (wfr 1 2 3) = 1 /\ 0 < fB (wfr 1 2 3) /\ 2 <= fH (wfr 1 2 3) /\ 2 <= fW (wfr 1 2 3) /\
  inside (wfr 1 2 3) 0 0 1 2 /\ (0 < fdep (wfr 1 2 3) 0 0 1 2)%R /\ (fdep (wfr 1 2 3) 0 0 1 0 <= 0)%R /\
  (0 < fK (wfr 1 2 3) 0 0%nat 0%nat)%R /\ fK (wfr 1 2 3) 0 0%nat 1%nat = 0%R /\ INR 2 <> fK (wfr 1 2 3) 0 0%nat 2%nat.
Proof.
  destruct (w_hist 1 2 3) as (s & E & Hs). exists s. split; [exact E|]. split; [exact Hs|].
  cbn. repeat split; cbn; try lia; try lra.
Qed.

(* ------------------------------------------------------------------ C29 *)
(* the camera used is K with 1e-6 added to both focal lengths *)
Theorem C29_vertex_coordinates : forall q s (cf : bool) a,
  RHist q s cf a ->
  Reads (fst (vertex_map s)) (fun t => shape t = img_shape cf a 3 /\
    forall b l h w, inside a b l h w ->
      let d := fdep a b l h w in
      let K := fK a b in
      let u := pixel a b l h w in
      let fx := (K 0%nat 0%nat + / 1000000)%R in
      let fy := (K 1%nat 1%nat + / 1000000)%R in
      ((d <= 0)%R -> forall c, c < 3 -> px cf t b l h w c = 0%R) /\
      ((0 < d)%R -> fx <> 0%R -> fy <> 0%R ->
         px cf t b l h w 0 = (d * (u 0%nat - K 0%nat 2%nat * u 2%nat) / fx)%R /\
         px cf t b l h w 1 = (d * (u 1%nat - K 1%nat 2%nat * u 2%nat) / fy)%R /\
         px cf t b l h w 2 = (d * u 2%nat)%R)).
Proof. exact p_vertex. Qed.
Print Assumptions C29_vertex_coordinates.

(* without user-supplied pixel positions, pixel (h, w) is the homogeneous vector (w, h, 1) *)
Theorem C29_default_pixel_grid : forall a b l h w,
  fpix a = None ->
  pixel a b l h w 0 = INR w /\ pixel a b l h w 1 = INR h /\ pixel a b l h w 2 = 1%R.
Proof. exact p_pixel. Qed.
Print Assumptions C29_default_pixel_grid.

(* projecting the vertex through K gives the pixel up to an explicit error *)
Theorem C29_projection_error_partial : forall q s (cf : bool) a,
  RHist q s cf a -> fpix a = None ->
  Reads (fst (vertex_map s)) (fun t => forall b l h w, inside a b l h w ->
      let d := fdep a b l h w in
      let K := fK a b in
      (0 < d)%R -> (0 < K 0%nat 0%nat)%R -> (0 < K 1%nat 1%nat)%R -> K 0%nat 1%nat = 0%R -> K 1%nat 0%nat = 0%R ->
      let p := px cf t b l h w in
      let u := ((K 0%nat 0%nat * p 0%nat + K 0%nat 1%nat * p 1%nat + K 0%nat 2%nat * p 2%nat) / p 2%nat)%R in
      let v := ((K 1%nat 0%nat * p 0%nat + K 1%nat 1%nat * p 1%nat + K 1%nat 2%nat * p 2%nat) / p 2%nat)%R in
      p 2%nat = d /\
      u = (INR w - (INR w - K 0%nat 2%nat) * / 1000000 / (K 0%nat 0%nat + / 1000000))%R /\
      v = (INR h - (INR h - K 1%nat 2%nat) * / 1000000 / (K 1%nat 1%nat + / 1000000))%R /\
      (INR w <> K 0%nat 2%nat -> u <> INR w) /\ (INR h <> K 1%nat 2%nat -> v <> INR h)).
Proof. exact p_vertex_default. Qed.
Print Assumptions C29_projection_error_partial.

(* the round trip through K is never exact off the principal column *)
Theorem C29_projects_back_refuted : forall q s (cf : bool) a,
  RHist q s cf a -> fpix a = None ->
  Reads (fst (vertex_map s)) (fun t => forall b l h w, inside a b l h w ->
      let K := fK a b in
      (0 < fdep a b l h w)%R -> (0 < K 0%nat 0%nat)%R -> (0 < K 1%nat 1%nat)%R -> K 0%nat 1%nat = 0%R -> K 1%nat 0%nat = 0%R ->
      INR w <> K 0%nat 2%nat ->
      let p := px cf t b l h w in
      ((K 0%nat 0%nat * p 0%nat + K 0%nat 1%nat * p 1%nat + K 0%nat 2%nat * p 2%nat) / p 2%nat)%R <> INR w).
Proof. exact p_vertex_inexact. Qed.
Print Assumptions C29_projects_back_refuted.

(* ------------------------------------------------------------------ C30 *)
Theorem C30_global_vertex : forall q s (cf : bool) a,
  RHist q s cf a ->
  exists v g, fst (vertex_map s) = Ok v /\ fst (global_vertex_map s) = Ok g /\
    shape g = img_shape cf a 3 /\
    forall b l h w c, inside a b l h w -> c < 3 ->
      match fpose a with
      | None => px cf g b l h w c = px cf v b l h w c
      | Some T =>
          px cf g b l h w c =
          (if Rlt_dec 0 (fdep a b l h w)
           then T b l c 0%nat * px cf v b l h w 0%nat + T b l c 1%nat * px cf v b l h w 1%nat + T b l c 2%nat * px cf v b l h w 2%nat + T b l c 3%nat
           else 0)%R
      end.
Proof. exact p_global. Qed.
Print Assumptions C30_global_vertex.

Theorem C30_global_normal : forall q s (cf : bool) a,
  RHist q s cf a -> 2 <= fH a -> 2 <= fW a ->
  exists n g, fst (normal_map s) = Ok n /\ fst (global_normal_map s) = Ok g /\
    shape g = img_shape cf a 3 /\
    forall b l h w c, inside a b l h w -> c < 3 ->
      match fpose a with
      | None => px cf g b l h w c = px cf n b l h w c
      | Some T => px cf g b l h w c =
          (T b l c 0%nat * px cf n b l h w 0%nat + T b l c 1%nat * px cf n b l h w 1%nat + T b l c 2%nat * px cf n b l h w 2%nat)%R
      end.
Proof. exact p_global_normal. Qed.
Print Assumptions C30_global_normal.

Example C30_witness : exists s T, wobj 2 2 3 = Ok s /\ RHist false s false (wfr 2 2 3) /\ fpose (wfr 2 2 3) = Some T.
Proof. destruct (w_hist 2 2 3) as (s & E & Hs). exists s. eexists. split; [exact E|]. split; [exact Hs|reflexivity]. Qed.

(* ------------------------------------------------------------------ C31 *)
(* diff_h, diff_v (RgbdSpec.v): differences of neighbouring vertices; the last column/row repeats its neighbour *)
Theorem C31_normal_map : forall q s (cf : bool) a,
  RHist q s cf a -> 2 <= fH a -> 2 <= fW a ->
  exists v n, fst (vertex_map s) = Ok v /\ fst (normal_map s) = Ok n /\ shape n = img_shape cf a 3 /\
    forall b l h w, inside a b l h w ->
      let N := px cf n b l h w in
      let th := diff_h cf a v b l h w in
      let tv := diff_v cf a v b l h w in
      let C := cross th tv in
      (norm 3 N = 0 \/ norm 3 N = 1)%R /\
      dot 3 N th = 0%R /\ dot 3 N tv = 0%R /\
      ((fdep a b l h w <= 0)%R -> forall c, c < 3 -> N c = 0%R) /\
      ((0 < fdep a b l h w)%R -> norm 3 C <> 0%R -> norm 3 N = 1%R /\ forall c, c < 3 -> N c = (C c / norm 3 C)%R) /\
      ((0 < fdep a b l h w)%R -> norm 3 C = 0%R -> forall c, c < 3 -> N c = 0%R).
Proof. exact p_normal. Qed.
Print Assumptions C31_normal_map.

Theorem C31_thin_images : forall q s cf a,
  RHist q s cf a -> fH a < 2 \/ fW a < 2 ->
  fst (normal_map s) = Err IndexError /\ fst (global_normal_map s) = Err IndexError.
Proof. exact p_normal_thin. Qed.
Print Assumptions C31_thin_images.

(* ------------------------------------------------------------------ C32 *)
(* missing: histories that convert in place or set the depth after the mask was read (refuted below) *)
Theorem C32_reads_mean_inputs_partial : forall q s cf a,
  RHist q s cf a -> RShows s cf a.
Proof. exact p_shows. Qed.
Print Assumptions C32_reads_mean_inputs_partial.

(* missing: as above *)
Theorem C32_same_as_fresh_partial : forall q s cf a,
  RHist q s cf a ->
  exists rgb depth intr o,
    r_rgb s = Some rgb /\ r_depth s = Some depth /\ r_intr s = Some intr /\
    rgbd_new (TTen rgb) (TTen depth) (TTen intr) (arg (r_poses s)) (r_cf s) (arg (r_pix s)) = Ok o /\
    same_read (fst (valid_depth_mask s)) (fst (valid_depth_mask o)) /\
    same_read (fst (vertex_map s)) (fst (vertex_map o)) /\
    same_read (fst (normal_map s)) (fst (normal_map o)) /\
    same_read (fst (global_vertex_map s)) (fst (global_vertex_map o)) /\
    same_read (fst (global_normal_map s)) (fst (global_normal_map o)).
Proof. exact p_fresh_same. Qed.
Print Assumptions C32_same_as_fresh_partial.

Theorem C32_setters_accept : forall q s cf a,
  RHist q s cf a ->
  (forall t f, Image cf a 3 t f -> exists s', set_rgb (TTen t) s = (Ok tt, s') /\ RHist q s' cf (with_frgb f a)) /\
  (forall t K, Intr a t K -> exists s', set_intr (TTen t) s = (Ok tt, s') /\ RHist q s' cf (with_fK K a)) /\
  (forall t T, Poses a t T -> exists s', set_poses (TTen t) s = (Ok tt, s') /\ RHist q s' cf (with_fpose (Some T) a)) /\
  (exists s', set_poses TNone s = (Ok tt, s') /\ RHist q s' cf (with_fpose None a)).
Proof. exact p_setters. Qed.
Print Assumptions C32_setters_accept.

Theorem C32_setters_reject : forall q s cf a t,
  RHist q s cf a ->
  (shape t <> img_shape cf a 3 -> set_rgb (TTen t) s = (Err ValueError, s)) /\
  (shape t <> [fB a; 1; 4; 4] -> set_intr (TTen t) s = (Err ValueError, s)) /\
  (shape t <> [fB a; fL a; 4; 4] -> set_poses (TTen t) s = (Err ValueError, s)) /\
  set_rgb TOther s = (Err TypeError, s) /\ set_intr TOther s = (Err TypeError, s) /\ set_poses TOther s = (Err TypeError, s).
Proof. exact p_bad_shape. Qed.
Print Assumptions C32_setters_reject.

(* for every state, reachable or not *)
Theorem C32_reads_keep_inputs : forall r s,
  let s' := after_read r s in
  r_cf s' = r_cf s /\ r_rgb s' = r_rgb s /\ r_depth s' = r_depth s /\ r_intr s' = r_intr s /\ r_poses s' = r_poses s.
Proof. exact p_reads_pure. Qed.
Print Assumptions C32_reads_keep_inputs.

(* the depth setter, on an object produced by a channel conversion and not read since *)
Theorem C32_depth_setter_partial : forall q s cf a copy,
  RHist q s cf a ->
  forall o, (to_channels_first copy s = Ok (New o) /\ cf = false) \/ (to_channels_last copy s = Ok (New o) /\ cf = true) ->
  forall t f, Image (negb cf) a 1 t (fun b l h w _ => f b l h w) ->
  exists o', set_depth (TTen t) o = (Ok tt, o') /\ RHist false o' (negb cf) (with_fdep f a).
Proof. exact p_set_depth. Qed.
Print Assumptions C32_depth_setter_partial.

(* on an object that was never converted the depth setter raises *)
Theorem C32_depth_setter_refuted : forall rgb depth intr poses cf pix s v,
  v <> TNone ->
  rgbd_new rgb depth intr poses cf pix = Ok s -> set_depth v s = (Err AttributeError, s).
Proof. exact p_depth_setter_fresh. Qed.
Print Assumptions C32_depth_setter_refuted.

(* after the mask was read, assigning depth leaves the old mask in place *)
Theorem C32_stale_mask_refuted : forall q s cf a t f s',
  RHist q s cf a ->
  set_depth (TTen t) (after_read RdMask s) = (Ok tt, s') ->
  fst (valid_depth_mask s') = fst (valid_depth_mask s) /\
  ((exists b l h w, inside a b l h w /\ ~ ((0 < f b l h w)%R <-> (0 < fdep a b l h w)%R)) -> ~ RShows s' cf (with_fdep f a)).
Proof. exact p_depth_stale. Qed.
Print Assumptions C32_stale_mask_refuted.

Example C32_witness : exists s o t s', wobj 1 2 3 = Ok s /\ RHist false s false (wfr 1 2 3) /\
  to_channels_first true s = Ok (New o) /\ RHist false o true (wfr 1 2 3) /\
  Image true (wfr 1 2 3) 1 t (fun _ _ _ _ _ => 1%R) /\ set_depth (TTen t) (after_read RdMask o) = (Ok tt, s') /\
  inside (wfr 1 2 3) 0 0 0 0 /\ ~ ((0 < 1)%R <-> (0 < fdep (wfr 1 2 3) 0 0 0 0)%R).
Proof.
  destruct (w_hist 1 2 3) as (s & E & Hs). destruct (p_to_first _ _ _ true Hs) as (o & Eo & Ho & _).
  pose (t := mkTen [3; 2; 1; 1; 1] (fun _ => 1%R)).
  assert (Ht : Image true (wfr 1 2 3) 1 t (fun _ _ _ _ _ => 1%R)) by (split; [reflexivity|intros; reflexivity]).
  destruct (p_set_depth _ _ _ _ true Hs o (or_introl (conj Eo eq_refl)) t (fun _ _ _ _ => 1%R) Ht) as (o' & E' & _).
  destruct (set_depth_after_read RdMask _ _ _ E') as (s2 & E2).
  exists s, o, t, s2. split; [exact E|]. split; [exact Hs|]. split; [exact Eo|]. split; [exact Ho|]. split; [exact Ht|].
  split; [exact E2|]. split; [repeat split; cbn; lia|]. cbn. lra.
Qed.

(* ------------------------------------------------------------------ C33 *)
Theorem C33_elements_move : forall q s a copy,
  RHist q s false a ->
  exists o, to_channels_first copy s = Ok (New o) /\
    (exists t u, r_rgb s = Some t /\ r_rgb o = Some u /\ shape t = [fB a; fL a; fH a; fW a; 3] /\ shape u = [fB a; fL a; 3; fH a; fW a] /\
       forall b l h w c, inside a b l h w -> c < 3 -> at_ u (rev [b; l; c; h; w]) = at_ t (rev [b; l; h; w; c])) /\
    (exists t u, r_depth s = Some t /\ r_depth o = Some u /\ shape t = [fB a; fL a; fH a; fW a; 1] /\ shape u = [fB a; fL a; 1; fH a; fW a] /\
       forall b l h w, inside a b l h w -> at_ u (rev [b; l; 0; h; w]) = at_ t (rev [b; l; h; w; 0])).
Proof. exact p_moves_first. Qed.
Print Assumptions C33_elements_move.

(* every read of the converted object is the original one, permuted *)
Theorem C33_to_first : forall q s a copy,
  RHist q s false a ->
  exists o, to_channels_first copy s = Ok (New o) /\ RHist false o true a /\ RShows o true a.
Proof. exact p_to_first. Qed.
Print Assumptions C33_to_first.

Theorem C33_to_last : forall q s a copy,
  RHist q s true a ->
  exists o, to_channels_last copy s = Ok (New o) /\ RHist false o false a /\ RShows o false a.
Proof. exact p_to_last. Qed.
Print Assumptions C33_to_last.

Theorem C33_mutually_inverse : forall q s cf a copy copy',
  RHist q s cf a ->
  exists o o', (if cf then to_channels_last copy s else to_channels_first copy s) = Ok (New o) /\
    (if cf then to_channels_first copy' o else to_channels_last copy' o) = Ok (New o') /\
    RShows o (negb cf) a /\ RShows o' cf a /\
    opt_rel teq (r_rgb o') (r_rgb s) /\ opt_rel teq (r_depth o') (r_depth s) /\
    same_read (fst (vertex_map o')) (fst (vertex_map s)) /\ same_read (fst (normal_map o')) (fst (normal_map s)) /\
    same_read (fst (global_vertex_map o')) (fst (global_vertex_map s)) /\
    same_read (fst (global_normal_map o')) (fst (global_normal_map s)) /\
    same_read (fst (valid_depth_mask o')) (fst (valid_depth_mask s)).
Proof. exact p_round_trip. Qed.
Print Assumptions C33_mutually_inverse.

Theorem C33_idempotent : forall q s cf a,
  RHist q s cf a ->
  (if cf then to_channels_first false s else to_channels_last false s) = Ok Self /\
  (if cf then to_channels_first_ s else to_channels_last_ s) = (Ok tt, s) /\
  exists o, (if cf then to_channels_first true s else to_channels_last true s) = Ok (New o) /\ RShows o cf a.
Proof. exact p_idempotent. Qed.
Print Assumptions C33_idempotent.

(* missing: objects whose mask was read (refuted below) *)
Theorem C33_in_place_partial : forall s cf a,
  RHist false s cf a ->
  (exists s', to_channels_first_ s = (Ok tt, s') /\ RHist false s' true a /\ RShows s' true a) /\
  (exists s', to_channels_last_ s = (Ok tt, s') /\ RHist false s' false a /\ RShows s' false a).
Proof. exact p_in_place. Qed.
Print Assumptions C33_in_place_partial.

Theorem C33_clone : forall q s cf a,
  RHist q s cf a -> exists o, rgbd_clone s = Ok o /\ RHist false o cf a /\ RShows o cf a /\
  r_rgb o = r_rgb s /\ r_depth o = r_depth s /\ r_intr o = r_intr s /\ r_poses o = r_poses s.
Proof. exact p_clone. Qed.
Print Assumptions C33_clone.

(* in place, the cached mask keeps its old layout *)
Theorem C33_in_place_first_refuted : forall q s a,
  RHist q s false a ->
  exists s', to_channels_first_ (after_read RdMask s) = (Ok tt, s') /\
    fst (valid_depth_mask s') = fst (valid_depth_mask s) /\
    (~ (fH a = 1 /\ fW a = 1) -> ~ RShows s' true a).
Proof. exact p_first_stale. Qed.
Print Assumptions C33_in_place_first_refuted.

Theorem C33_in_place_last_refuted : forall q s a,
  RHist q s true a ->
  exists s', to_channels_last_ (after_read RdMask s) = (Ok tt, s') /\
    fst (valid_depth_mask s') = fst (valid_depth_mask s) /\
    (~ (fH a = 1 /\ fW a = 1) -> ~ RShows s' false a).
Proof. exact p_last_stale. Qed.
Print Assumptions C33_in_place_last_refuted.

(* and then the vertex map cannot be read *)
Theorem C33_in_place_vertex_map_refuted : forall rgb depth intr poses pix a s,
  Inputs false a rgb depth intr (ten_of poses) (ten_of pix) ->
  rgbd_new (TTen rgb) (TTen depth) (TTen intr) poses false pix = Ok s ->
  2 <= fH a -> 2 <= fW a -> fH a <> fW a ->
  exists s', to_channels_first_ (after_read RdMask s) = (Ok tt, s') /\ fst (vertex_map s') = Err RuntimeError.
Proof. exact p_first_stale_error. Qed.
Print Assumptions C33_in_place_vertex_map_refuted.

Example C33_witness : exists s, wobj 1 2 3 = Ok s /\ RHist false s false (wfr 1 2 3) /\
  ~ (fH (wfr 1 2 3) = 1 /\ fW (wfr 1 2 3) = 1) /\ fH (wfr 1 2 3) <> fW (wfr 1 2 3).
Proof. destruct (w_hist 1 2 3) as (s & E & Hs). exists s. repeat split; auto; cbn; lia. Qed.

(* ------------------------------------------------------------------ C34 *)
(* missing: indices containing the integer -1 (refuted below) *)
Theorem C34_selects_partial : forall q s cf a ix kb kl,
  RHist q s cf a -> Addresses ix a kb kl -> ~ last_item ix -> kb <> [] -> kl <> [] ->
  exists o, rgbd_getitem ix s = Ok o /\ RHist false o cf (pick kb kl a) /\ RShows o cf (pick kb kl a).
Proof. exact p_item. Qed.
Print Assumptions C34_selects_partial.

Theorem C34_maps_sliced : forall q s cf a ix kb kl o,
  RHist q s cf a -> Addresses ix a kb kl -> rgbd_getitem ix s = Ok o ->
  exists v v' g g', fst (vertex_map s) = Ok v /\ fst (vertex_map o) = Ok v' /\
    fst (global_vertex_map s) = Ok g /\ fst (global_vertex_map o) = Ok g' /\
    forall b l h w c, b < length kb -> l < length kl -> h < fH a -> w < fW a -> c < 3 ->
      px cf v' b l h w c = px cf v (nth b kb 0) (nth l kl 0) h w c /\
      px cf g' b l h w c = px cf g (nth b kb 0) (nth l kl 0) h w c.
Proof. exact p_item_maps. Qed.
Print Assumptions C34_maps_sliced.

Theorem C34_rejects : forall q s cf a ix,
  RHist q s cf a -> plain ix ->
  ~ (exists kb kl, Addresses ix a kb kl /\ kb <> [] /\ kl <> []) ->
  exists e, rgbd_getitem ix s = Err e /\ (e = IndexError \/ e = ValueError).
Proof. exact p_item_rejects. Qed.
Print Assumptions C34_rejects.

(* -1 addresses the last item but raises *)
Theorem C34_last_item_refuted : forall q s cf a,
  RHist q s cf a -> 0 < fB a -> 0 < fL a ->
  Addresses (RInt (-1)) a [fB a - 1] (seq 0 (fL a)) /\ rgbd_getitem (RInt (-1)) s = Err IndexError /\
  Addresses (RTuple [EInt 0; EInt (-1)]) a [0] [fL a - 1] /\ rgbd_getitem (RTuple [EInt 0; EInt (-1)]) s = Err IndexError.
Proof. exact p_item_last. Qed.
Print Assumptions C34_last_item_refuted.

(* bare slices, lists and tensors, documented as allowed, raise *)
Theorem C34_bare_slice_refuted : forall s,
  rgbd_getitem ROther s = Err IndexError.
Proof. exact p_item_bare. Qed.
Print Assumptions C34_bare_slice_refuted.

Example C34_witness : exists s, wobj 4 2 3 = Ok s /\ RHist false s false (wfr 4 2 3) /\
  Addresses (RTuple [EInt 0; ESlice (Some 1%Z) None (Some 2%Z)]) (wfr 4 2 3) [0] [1; 3] /\
  ~ last_item (RTuple [EInt 0; ESlice (Some 1%Z) None (Some 2%Z)]).
Proof.
  destruct (w_hist 4 2 3) as (s & E & Hs). exists s. split; [exact E|]. split; [exact Hs|]. split.
  - split.
    + exists 0. split; [split; [cbn; lia|left; reflexivity]|reflexivity].
    + split; [reflexivity|]. left. split; [lia|]. split; [repeat constructor|]. intros lo hi k.
      change lo with 1%Z. change hi with 4%Z. cbn [In]. split.
      * intros [<- |[<- |[]]]; (split; [lia|]); [exists 0%Z|exists 1%Z]; lia.
      * intros [Hk (j & Hj & Ek)]. assert (j = 0 \/ j = 1)%Z by lia. lia.
  - cbn. intros [Q|[Q|[]]]; discriminate.
Qed.

(* ------------------------------------------------------------------ C35 *)
(* missing: images with fewer than two rows or columns (refuted below) and empty batches *)
Theorem C35_clouds_partial : forall q s (cf : bool) a g f,
  RHist q s cf a -> fL a = 1 -> 0 < fB a -> 2 <= fH a -> 2 <= fW a ->
  exists p s', pointclouds_from_rgbdimages g f s = (Ok p, s') /\ Shows RF p (frame_clouds g f a).
Proof. exact p_cloud. Qed.
Print Assumptions C35_clouds_partial.

Theorem C35_frame_not_mutated : forall q s (cf : bool) a g f r s',
  RHist q s cf a -> pointclouds_from_rgbdimages g f s = (r, s') ->
  RShows s' cf a /\ (cf = true -> s' = s) /\
  r_cf s' = r_cf s /\ r_rgb s' = r_rgb s /\ r_depth s' = r_depth s /\ r_intr s' = r_intr s /\ r_poses s' = r_poses s.
Proof. exact p_cloud_pure. Qed.
Print Assumptions C35_frame_not_mutated.

Theorem C35_sequence_length : forall q s cf a g f,
  RHist q s cf a -> fL a <> 1 -> pointclouds_from_rgbdimages g f s = (Err ValueError, s).
Proof. exact p_cloud_length. Qed.
Print Assumptions C35_sequence_length.

Theorem C35_thin_images_refuted : forall q s cf a g f,
  RHist q s cf a -> fL a = 1 -> fH a < 2 \/ fW a < 2 ->
  fst (pointclouds_from_rgbdimages g f s) = Err IndexError.
Proof. exact p_cloud_thin. Qed.
Print Assumptions C35_thin_images_refuted.

Example C35_witness : exists s, wobj 1 1 3 = Ok s /\ RHist false s false (wfr 1 1 3) /\ fL (wfr 1 1 3) = 1 /\ fH (wfr 1 1 3) < 2.
Proof. destruct (w_hist 1 1 3) as (s & E & Hs). exists s. repeat split; auto. Qed.
