(* Specification vocabulary for dataset items (C71-C73). *)
From Coq Require Import Reals ZArith Ascii String List Arith Bool.
From Verif Require Import Res MatSpec TextModel TensorModel GeomSpec ItemModel.
Import ListNotations.
Local Open Scope nat_scope.

(* everything an item can contain *)
Record item_parts : Type := mkItem {
  p_color : ten R; p_depth : ten R; p_intr : ten R; p_pose : ten R; p_trans : ten R; p_names : text; p_last : out }.
Definition when {A} (b : bool) (x : A) : list A := if b then [x] else [].
(* the documented tuple: colors, depths, intrinsics, poses, transforms, names, and timestamps or labels, without the parts
   that were not asked for *)
Definition documented (c : conf) (it : item_parts) : list out :=
  [OTen (p_color it)] ++ when (c_depth c) (OTen (p_depth it)) ++ when (c_intr c) (OTen (p_intr it)) ++
  when (c_pose c) (OTen (p_pose it)) ++ when (c_trans c) (OTen (p_trans it)) ++
  when (c_names c) (OText (p_names it)) ++ when (c_last c) (p_last it).

(* images (L, H, W, C), or (L, C, H, W) if channels_first: shape, and the value of channel k at row i and column j of
   frame f *)
Definition image_shape (c : conf) (L ch : nat) : list nat :=
  if c_first c then [L; ch; c_height c; c_width c] else [L; c_height c; c_width c; ch].
Definition pixel (c : conf) (x : ten R) (f i j k : nat) : R :=
  if c_first c then at_ x [j; i; k; f] else at_ x [k; j; i; f].

(* what is used of cv2.resize: for a non-empty image and a non-empty target it returns an image of the target size;
   the same size gives the same image; INTER_NEAREST only repeats pixels; INTER_LINEAR stays between the smallest and the
   largest value of the channel *)
Definition nearest_ok (o : io) : Prop := forall w h x W H, 0 < w -> 0 < h -> 0 < W -> 0 < H -> dims x = [W; H] ->
  exists y, cv_nearest o w h x = Ok y /\ dims y = [w; h] /\
    (forall i j, i < h -> j < w -> exists i' j', i' < H /\ j' < W /\ at_ y [j; i] = at_ x [j'; i']) /\
    (W = w -> H = h -> teq y x).
Definition linear_ok (o : io) : Prop := forall w h x W H ch, 0 < w -> 0 < h -> 0 < W -> 0 < H -> dims x = [ch; W; H] ->
  exists y, cv_linear o w h x = Ok y /\ dims y = [ch; w; h] /\
    (forall k a b, k < ch -> (forall i j, i < H -> j < W -> (a <= at_ x [k; j; i] <= b)%R) ->
       forall i j, i < h -> j < w -> (a <= at_ y [k; j; i] <= b)%R) /\
    (W = w -> H = h -> teq y x).
Definition labels_ok (o : io) : Prop := forall w h (x : list (list nat)) W H, 0 < w -> 0 < h -> 0 < W -> 0 < H ->
  length x = H -> Forall (fun r => length r = W) x ->
  exists y, cv_labels o w h x = Ok y /\ length y = h /\ Forall (fun r => length r = w) y /\
    (forall i j, i < h -> j < w -> exists i' j', i' < H /\ j' < W /\ nth j (nth i y []) 0 = nth j' (nth i' x []) 0) /\
    (W = w -> H = h -> y = x).
(* the files of a sequence hold images of one size *)
Definition color_files (o : io) (W H : nat) (paths : list text) (xs : list (ten R)) : Prop :=
  Forall2 (fun p x => rd_color o p = Ok x /\ dims x = [3; W; H]) paths xs.
Definition depth_files (o : io) (W H : nat) (paths : list text) (xs : list (ten R)) : Prop :=
  Forall2 (fun p x => rd_depth o p = Ok x /\ dims x = [W; H]) paths xs.
Definition label_files (o : io) (W H : nat) (paths : list text) (xs : list (list (list nat))) : Prop :=
  Forall2 (fun p x => rd_label o p = Ok x /\ length x = H /\ Forall (fun r => length r = W) x /\ Forall (Forall (fun v => v < 256)) x) paths xs.

(* poses of an item for the poses ms of its frames (camera to world): the first is the identity, and pose i takes frame i
   to frame 0 *)
Definition pose_seq (ms : list mat) (x : ten R) : Prop :=
  shape x = [length ms; 4; 4] /\
  meq 4 4 (ent x [0]) mI /\
  (forall i m, nth_error ms i = Some m -> affine4 (ent x [i]) /\ meq 4 4 (mmul 4 (nth 0 ms mI) (ent x [i])) m /\
     (rigid4 (nth 0 ms mI) -> rigid4 m -> rigid4 (ent x [i]))).
(* transforms: the first is the identity, transform i+1 takes frame i+1 to frame i *)
Definition transform_seq (ms : list mat) (x : ten R) : Prop :=
  shape x = [length ms; 4; 4] /\
  meq 4 4 (ent x [0]) mI /\
  (forall i m m', nth_error ms i = Some m -> nth_error ms (S i) = Some m' -> meq 4 4 (mmul 4 m (ent x [S i])) m').
(* the running products of the transforms are the poses *)
Definition chained (n : nat) (pose trans : ten R) : Prop :=
  meq 4 4 (ent pose [0]) (ent trans [0]) /\
  forall i, S i < n -> meq 4 4 (mmul 4 (ent pose [i]) (ent trans [S i])) (ent pose [S i]).
(* a camera matrix (1, 4, 4) with the given focal lengths and principal point *)
Definition camera (fx fy cx cy : R) (x : ten R) : Prop :=
  shape x = [1; 4; 4] /\ meq 4 4 (ent x [0]) (pinhole fx fy cx cy 0).
(* a TUM pose tx ty tz qx qy qz qw with a quaternion that is not tiny, and its camera-to-world matrix *)
Definition quat_line (q : list R) : Prop := exists tx ty tz x y z w,
  q = [tx; ty; tz; x; y; z; w] /\ (/ 10 ^ 20 <= x * x + y * y + z * z + w * w)%R.
Definition quat_pose (q : list R) (m : mat) : Prop := exists tx ty tz x y z w,
  q = [tx; ty; tz; x; y; z; w] /\ affine4 m /\ veq 3 (tr_of m) (vec3 tx ty tz) /\
  meq 3 3 (rot_of m) (rot_of_quat (fun k => nth k [x; y; z; w] 0%R)) /\ rigid4 m.
(* the camera-to-world matrix of a pose of the ICL file *)
Definition rows_pose (rows : list (R * R * R * R)) (m : mat) : Prop := forall i a b c d,
  nth_error rows i = Some (a, b, c, d) -> m i 0 = a /\ m i 1 = b /\ m i 2 = c /\ m i 3 = d.
(* the images of an item for the raw images xs: the resized image, divided by 255 if colors are normalised; the resized depth
   divided by the depth scale *)
Definition color_out (rnd : R -> R) (o : io) (c : conf) (xs : list (ten R)) (t : ten R) : Prop :=
  shape t = image_shape c (length xs) 3 /\
  forall f x, nth_error xs f = Some x -> exists r, cv_linear o (c_width c) (c_height c) x = Ok r /\
    forall i j k, pixel c t f i j k = (if c_norm c then rnd (at_ r [k; j; i] / 255)%R else at_ r [k; j; i]).
Definition depth_out (o : io) (c : conf) (sc : R) (xs : list (ten R)) (t : ten R) : Prop :=
  shape t = image_shape c (length xs) 1 /\
  forall f x, nth_error xs f = Some x -> exists r, cv_nearest o (c_width c) (c_height c) x = Ok r /\
    forall i j, pixel c t f i j 0 = (at_ r [j; i] / sc)%R.

(* the files of a sequence can be read: at least one frame, one raw image size, a non-empty target size *)
Definition images_readable (o : io) (c : conf) (W H : nat) (color_paths depth_paths : list text) (colors depths : list (ten R)) : Prop :=
  linear_ok o /\ nearest_ok o /\ 0 < c_width c /\ 0 < c_height c /\ 0 < W /\ 0 < H /\ color_paths <> [] /\
  color_files o W H color_paths colors /\
  (c_depth c = true -> length depth_paths = length color_paths /\ depth_files o W H depth_paths depths).
(* poses are read *)
Definition loads (c : conf) : Prop := c_pose c = true \/ c_trans c = true.
(* shapes of an item of L frames *)
Definition shapes (c : conf) (L : nat) (it : item_parts) : Prop :=
  shape (p_color it) = image_shape c L 3 /\
  (c_depth c = true -> shape (p_depth it) = image_shape c L 1) /\
  (c_intr c = true -> shape (p_intr it) = [1; 4; 4]) /\
  (c_pose c = true -> shape (p_pose it) = [L; 4; 4]) /\
  (c_trans c = true -> shape (p_trans it) = [L; 4; 4]).
(* one line of the timestamps *)
Definition Stamp (t : text * text * option text) (line : text) : Prop := exists r d p,
  (t = (r, d, Some p) \/ (t = (r, d, None) /\ p = txt "None")) /\
  line = txt "rgb " ++ r ++ txt " depth " ++ d ++ txt " pose " ++ p.
(* poses and transforms of an item *)
Definition motion (c : conf) (ms : list mat) (it : item_parts) : Prop :=
  (c_pose c = true -> pose_seq ms (p_pose it)) /\ (c_trans c = true -> transform_seq ms (p_trans it)) /\
  (c_pose c = true -> c_trans c = true -> chained (length ms) (p_pose it) (p_trans it)).
(* shapes when the number of poses n may differ from the number of frames L *)
Definition shapes_poses (c : conf) (L n : nat) (it : item_parts) : Prop :=
  shape (p_color it) = image_shape c L 3 /\
  (c_depth c = true -> shape (p_depth it) = image_shape c L 1) /\
  (c_intr c = true -> shape (p_intr it) = [1; 4; 4]) /\
  (c_pose c = true -> shape (p_pose it) = [n; 4; 4]) /\
  (c_trans c = true -> shape (p_trans it) = [n; 4; 4]).
(* the labels of an item: (L, H, W, 1), the resized label image, mapped to scannet20 if asked for *)
Definition label_out (o : io) (c : conf) (scannet20 : bool) (to20 : nat -> nat) (xs : list (list (list nat))) (t : ten R) : Prop :=
  shape t = [length xs; c_height c; c_width c; 1] /\
  forall f x, nth_error xs f = Some x -> exists r, cv_labels o (c_width c) (c_height c) x = Ok r /\
    forall i j, i < c_height c -> j < c_width c ->
      at_ t [0; j; i; f] = INR (let v := nth j (nth i r []) 0 in if scannet20 then to20 v else v).
