(* Specification vocabulary for map building (C36-C44).  Nothing of the code of fusionutils.py is used here
   except the type of table rows. *)
From Coq Require Import Reals List Arith Bool ZArith Sorting.Sorted.
From Verif Require Import Res Fld StructUtilsModel PointcloudsModel PointcloudsSpec PointcloudsHist MatSpec GeomSpec TensorModel
  RgbdModel RgbdSpec FusionModel.
Import ListNotations.
Local Open Scope nat_scope.

(* ---------------- maps *)
(* row n of cloud b *)
Definition row_at (L : list (t2 R)) (b n : nat) : list R := nth n (t2r (nth b L (mkT2 0 []))) [].
(* attribute x of point n of cloud b *)
Definition attr_at (a : batch RF) (x : attr) (b n : nat) : vec :=
  match qget x a with Some L => fun j => nth j (row_at L b n) 0%R | None => fun _ => 0%R end.
Definition npoints (a : batch RF) (b : nat) : nat :=
  match qp a with Some P => length (t2r (nth b P (mkT2 0 []))) | None => 0 end.
Definition real_point (a : batch RF) (b n : nat) : Prop := b < len_view RF a /\ n < npoints a b.
(* confidence of a map point: its (single) feature *)
Definition conf (a : batch RF) (b n : nat) : R := attr_at a Features b n 0.

(* ---------------- cameras *)
(* world to camera coordinates for a camera-to-world pose T: R^T (p - t) *)
Definition to_camera (T : mat) (p : vec) : vec := fun i => rsum 3 (fun k => T k i * (p k - T k 3%nat))%R.
(* (u, v): column and row in the image, for camera coordinates q *)
Definition image_pos (K : mat) (q : vec) : vec := project_spec K (hom 3 q).
(* k is the integer nearest to x, the even one in the middle *)
Definition nearest (x : R) (k : nat) : Prop :=
  (Rabs (x - INR k) <= 1 / 2)%R /\ ((Rabs (x - INR k) = 1 / 2)%R -> Nat.even k = true).
(* within 1/1000 of the rectangle of pixel centres *)
Definition in_rectangle (H W : nat) (u v : R) : Prop :=
  (- / 1000 < u < INR W - 1 + / 1000)%R /\ (- / 1000 < v < INR H - 1 + / 1000)%R.
(* map point n of cloud b is seen at pixel (h, w) of frame b of fr *)
Definition seen_at (a : batch RF) (fr : frames) (T : nat -> nat -> mat) (b n h w : nat) : Prop :=
  let q := to_camera (T b 0) (attr_at a Points b n) in
  let uv := image_pos (fK fr b) q in
  (0 < q 2%nat)%R /\ in_rectangle (fH fr) (fW fr) (uv 0%nat) (uv 1%nat) /\
  nearest (uv 1%nat) h /\ nearest (uv 0%nat) w.

(* ---------------- tables *)
Definition in_map (a : batch RF) (r : row) : Prop := real_point a (rb r) (rn r).
Definition in_image (fr : frames) (r : row) : Prop := rb r < fB fr /\ rh r < fH fr /\ rw r < fW fr.
Definition same_point (r r' : row) : Prop := rb r = rb r' /\ rn r = rn r'.
Definition same_pixel (r r' : row) : Prop := rb r = rb r' /\ rh r = rh r' /\ rw r = rw r'.
(* lexicographic order on (b, n) and on (b, h, w) *)
Definition before_point (r r' : row) : Prop := rb r < rb r' \/ rb r = rb r' /\ rn r < rn r'.
Definition before_pixel (r r' : row) : Prop :=
  rb r < rb r' \/ rb r = rb r' /\ (rh r < rh r' \/ rh r = rh r' /\ rw r < rw r').
(* every map point at most once; every pixel at most once *)
Definition points_once (rows : list row) : Prop := NoDup (map (fun r => (rb r, rn r)) rows).
Definition pixels_once (rows : list row) : Prop := NoDup (map (fun r => (rb r, (rh r, rw r))) rows).

(* the frame's 3-D point and normal at the pixel of a row *)
Definition frame_point (fr : frames) (r : row) : vec := global_vertex fr (rb r) 0 (rh r) (rw r).
Definition frame_normal (fr : frames) (r : row) : vec := global_normal fr (rb r) 0 (rh r) (rw r).
Definition distance (u v : vec) : R := norm 3 (fun k => (u k - v k)%R).
(* close and similarly oriented *)
Definition similar (a : batch RF) (fr : frames) (dist_th dot_th : R) (r : row) : Prop :=
  (distance (frame_point fr r) (attr_at a Points (rb r) (rn r)) < dist_th)%R /\
  (dot_th < dot 3 (frame_normal fr r) (attr_at a Normals (rb r) (rn r)))%R.

(* r beats r': higher confidence; at equal confidence closer; at equal distance the earlier point *)
Definition at_least_as_good (a : batch RF) (fr : frames) (r r' : row) : Prop :=
  let c := conf a (rb r) (rn r) in let c' := conf a (rb r') (rn r') in
  let d := distance (attr_at a Points (rb r) (rn r)) (frame_point fr r) in
  let d' := distance (attr_at a Points (rb r') (rn r')) (frame_point fr r') in
  (c' < c)%R \/ c = c' /\ ((d < d')%R \/ d = d' /\ rn r <= rn r').

(* ---------------- fusion *)
(* the sample confidence of Keller et al.: exp(-|v|^2 / (2 sigma^2)), at least 1e-7 *)
Definition alpha_spec (sigma : R) (v : vec) : R :=
  Rmax (exp (- (norm 3 v) ^ 2 / (2 * sigma ^ 2))) (/ 10000000)%R.
Definition frame_alpha (sigma : R) (fr : frames) (b h w : nat) : R := alpha_spec sigma (vertex fr b 0 h w).
(* the values of the frame at a pixel *)
Definition frame_attr (fr : frames) (x : attr) (b h w : nat) : vec :=
  match x with
  | Points => global_vertex fr b 0 h w | Normals => global_normal fr b 0 h w | Colors => frgb fr b 0 h w
  | Features => fun _ => 0%R
  end.
(* number of columns of attribute x *)
Definition wd (x : attr) : nat := match x with Features => 1 | _ => 3 end.
(* matched to pixel (h, w) by the table *)
Definition matched (rows : list row) (b n h w : nat) : Prop := In (mkRow b n h w) rows.
Definition unmatched (rows : list row) (b n : nat) : Prop := forall h w, ~ In (mkRow b n h w) rows.
Definition pixel_used (rows : list row) (b h w : nat) : Prop := exists n, In (mkRow b n h w) rows.
(* the pixels of frame b that are appended: valid depth, not used, row by row *)
Definition fresh_pixels (rows : list row) (fr : frames) (b : nat) : list (nat * nat) :=
  filter (fun q => negb (existsb (fun r => (rb r =? b) && (rh r =? fst q) && (rw r =? snd q)) rows))
    (chosen true fr b).

(* weighted mean *)
Definition wmean (c p a q : R) : R := ((c * p + a * q) / (c + a))%R.

(* total confidence of cloud b *)
Definition total (a : batch RF) (b : nat) : R := rsum (npoints a b) (fun n => conf a b n).
Definition sum_list (l : list R) : R := fold_right Rplus 0%R l.
(* sum of the sample confidences over the valid pixels of frame b *)
Definition total_alpha (sigma : R) (fr : frames) (b : nat) : R :=
  sum_list (map (fun q => frame_alpha sigma fr b (fst q) (snd q)) (chosen true fr b)).

(* a complete map: points, normals, colors and one non-negative confidence per point *)
Definition full_map (a : batch RF) : Prop :=
  (forall x, qget x a <> None) /\ width RF a Features = 1 /\
  forall b n, real_point a b n -> (0 <= conf a b n)%R.
Definition positive (a : batch RF) : Prop := forall b n, real_point a b n -> (0 < conf a b n)%R.

(* map a' is map a after merging the pixels of the table into their map points and appending one point for
   every other valid pixel; an unmatched point of confidence 0 is reset to 0 *)
Definition Fused (sigma : R) (fr : frames) (rows : list row) (a a' : batch RF) : Prop :=
  len_view RF a' = fB fr /\
  forall b, b < fB fr ->
    let fresh := fresh_pixels rows fr b in
    npoints a' b = npoints a b + length fresh /\
    (forall n, n < npoints a b -> unmatched rows b n -> conf a b n <> 0%R \/ rows = [] ->
       forall x c, c < wd x -> attr_at a' x b n c = attr_at a x b n c) /\
    (forall n, n < npoints a b -> unmatched rows b n -> conf a b n = 0%R -> rows <> [] ->
       forall x c, c < wd x -> attr_at a' x b n c = 0%R) /\
    (forall n h w, matched rows b n h w ->
       let c0 := conf a b n in let al := frame_alpha sigma fr b h w in
       conf a' b n = (c0 + al)%R /\
       forall x c, x <> Features -> c < 3 ->
         attr_at a' x b n c = wmean c0 (attr_at a x b n c) al (frame_attr fr x b h w c)) /\
    (forall k h w, nth_error fresh k = Some (h, w) ->
       conf a' b (npoints a b + k) = frame_alpha sigma fr b h w /\
       forall x c, x <> Features -> c < 3 -> attr_at a' x b (npoints a b + k) c = frame_attr fr x b h w c).

(* the visible points of the map, each once, in order *)
Definition active_spec (a : batch RF) (fr : frames) (T : nat -> nat -> mat) (rows : list row) : Prop :=
  StronglySorted before_point rows /\
  forall b n h w, In (mkRow b n h w) rows <-> real_point a b n /\ seen_at a fr T b n h w.

(* the table that the three steps compute together: matched points are visible and similar, no point and no
   pixel occurs twice, and every visible similar point is matched or beaten at its pixel *)
Definition Correspondences (a : batch RF) (fr : frames) (T : nat -> nat -> mat) (dist_th dot_th : R) (rows : list row) : Prop :=
  points_once rows /\ StronglySorted before_pixel rows /\
  (forall b n h w, matched rows b n h w ->
     real_point a b n /\ seen_at a fr T b n h w /\ similar a fr dist_th dot_th (mkRow b n h w)) /\
  (forall b n h w, real_point a b n -> seen_at a fr T b n h w -> similar a fr dist_th dot_th (mkRow b n h w) ->
     exists n', matched rows b n' h w /\ at_least_as_good a fr (mkRow b n' h w) (mkRow b n h w)).

(* the general weight: exp(-|v|^2 / (2 sigma^2)) clamped to [eps, 1.01] *)
Definition gaussian (sigma : R) (v : vec) : R := exp (- (norm 3 v) ^ 2 / (2 * sigma ^ 2)).

(* every index is an integer that float32 represents *)
Definition fits_float32 (a : batch RF) (fr : frames) : Prop :=
  (Z.of_nat (fB fr) <= 2 ^ 24 /\ Z.of_nat (fH fr) <= 2 ^ 24 /\ Z.of_nat (fW fr) <= 2 ^ 24 /\
   forall b, (b < fB fr)%nat -> Z.of_nat (npoints a b) <= 2 ^ 24)%Z.

(* one image per batch element, big enough for normals *)
Definition live (fr : frames) : Prop := fL fr = 1 /\ 0 < fB fr /\ 2 <= fH fr /\ 2 <= fW fr.

(* the map a call returns, when it leaves the object it was given as s *)
Definition returned (o : pobj) (s : pc RF) : pc RF := match o with PSelf => s | PNew p => p end.
(* p lies on the ray from the camera centre of pose T through v *)
Definition on_ray (T : mat) (v p : vec) : Prop :=
  exists t, (0 <= t)%R /\ forall k, k < 3 -> p k = (T k 3%nat + t * (v k - T k 3%nat))%R.
(* what a list of corresponding points per pixel must satisfy: pixel (h, w) of frame b is merged into exactly
   one map point and not appended, or appended exactly once and merged into none *)
Definition handled_once (rows : list row) (fr : frames) (b h w : nat) : Prop :=
  (exists! n, matched rows b n h w) /\ ~ In (h, w) (fresh_pixels rows fr b) \/
  ~ pixel_used rows b h w /\ exists! k, nth_error (fresh_pixels rows fr b) k = Some (h, w).

(* a client: fuse, or aggregate, a list of live frames into one map, in place *)
Fixpoint fuse_frames (dist_th dot_th sigma : R) (gs : list rgbd) (s : pc RF) : res (pc RF) :=
  match gs with
  | [] => Ok s
  | g :: gs' => match update_map_fusion f32 dist_th dot_th (SigNum sigma) true (s, g) with
                | (Ok _, (s', _)) => fuse_frames dist_th dot_th sigma gs' s'
                | (Err e, _) => Err e
                end
  end.
Fixpoint aggregate_frames (gs : list rgbd) (s : pc RF) : res (pc RF) :=
  match gs with
  | [] => Ok s
  | g :: gs' => match update_map_aggregate true (s, g) with
                | (Ok _, (s', _)) => aggregate_frames gs' s'
                | (Err e, _) => Err e
                end
  end.
Definition sum_alpha (sigma : R) (frs : list frames) (b : nat) : R := sum_list (map (fun fr => total_alpha sigma fr b) frs).
Definition sum_pixels (frs : list frames) : nat := fold_right (fun fr k => fH fr * fW fr + k) 0 frs.
(* the rows of attribute x of cloud b *)
Definition rows_of (a : batch RF) (x : attr) (b : nat) : list (list R) :=
  match qget x a with Some L => t2r (nth b L (mkT2 0 [])) | None => [] end.
(* the valid pixels of frame b of fr as rows of attribute x *)
Definition frame_rows (fr : frames) (x : attr) (b : nat) : list (list R) :=
  map (fun q => map (frame_attr fr x b (fst q) (snd q)) [0; 1; 2]) (chosen true fr b).

(* one image per cloud of a batch of B, with a pose, of a size that float32 indexes exactly *)
Definition fusable (B : nat) (g : rgbd) (fr : frames) : Prop :=
  (exists q, RHist q g false fr) /\ live fr /\ fB fr = B /\ fpose fr <> None /\
  (Z.of_nat (fB fr) <= 2 ^ 24 /\ Z.of_nat (fH fr) <= 2 ^ 24 /\ Z.of_nat (fW fr) <= 2 ^ 24)%Z.
(* a map of B clouds with points, normals and colors, without features *)
Definition plain (B : nat) (a : batch RF) : Prop := (forall x, x <> Features -> qget x a <> None) /\ qf a = None /\ len_view RF a = B.
