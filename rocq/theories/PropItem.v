(* Properties C71-C73: the items of the datasets.
   Vocabulary (ItemSpec.v): documented c it = the documented tuple of the parts of it that were asked for; shapes, image_shape,
   pixel = shape and value in either channel order; images_readable = the image files of the sequence can be read, with what is
   used of cv2.resize; quat_line / quat_pose = a TUM pose and its matrix; pose_seq / transform_seq / chained = relative poses,
   frame-to-frame transforms, and that they agree; camera = intrinsics with given focal lengths and principal point;
   color_out / depth_out / label_out = the images for the raw images.  o : io = reading files and resizing. *)
From Coq Require Import Reals ZArith Ascii String List Arith Bool Lia Lra.
From Verif Require Import Res MatSpec TextModel TumModel TensorModel LinAlgModel DataUtilsModel ImageModel GeomSpec GeomModel IcpModel DatasetModel
  MatProofs GeomProofs DataSpec DatasetSpec DataPropProofs ItemModel ItemSpec ItemProofs ItemPropProofs ItemWitness.
Import ListNotations.
Local Open Scope nat_scope.

(* ------------------------------------------------------------------ C71 *)
(* TUM: the documented tuple, with the documented shapes, the names of the item, and one timestamp line per frame *)
Theorem C71_tum : forall rnd o c d i cp dp nm st pq W H xs ys,
  images_readable o c W H cp dp xs ys ->
  nth_error (t_color d) i = Some cp -> nth_error (t_depth d) i = Some dp -> nth_error (t_names d) i = Some nm -> nth_error (t_stamps d) i = Some st ->
  (loads c -> nth_error (t_poses d) i = Some pq /\ length pq = length cp /\ Forall quat_line pq) ->
  exists it lines, tum_item rnd o c (length cp) d (Z.of_nat i) = Ok (documented c it) /\
    shapes c (length cp) it /\ p_names it = nm /\ p_last it = OText (join [newline] lines) /\ Forall2 Stamp st lines.
Proof. exact q_tum_item. Qed.
Print Assumptions C71_tum.

(* ICL *)
Theorem C71_icl : forall rnd value o c d i cp dp nm file f lines ls rows W H xs ys,
  images_readable o c W H cp dp xs ys -> c_last c = false ->
  nth_error (i_color d) i = Some cp -> nth_error (i_depth d) i = Some dp -> nth_error (i_names d) i = Some nm ->
  (loads c -> nth_error (i_poses d) i = Some (file, ls) /\ length ls = length cp /\ rd_text o file = Ok f /\ FileLines f lines /\ Spaced ls /\
     Forall2 (PoseAt value lines) ls rows /\ Forall (fun r => exists m, rows_pose r m /\ det3 (rot_of m) <> 0%R) rows) ->
  exists it, icl_item rnd value o c (length cp) d (Z.of_nat i) = Ok (documented c it) /\ shapes c (length cp) it /\ p_names it = nm.
Proof. exact q_icl_item. Qed.
Print Assumptions C71_icl.

(* ScanNet.  Missing: labels have the documented shape (C71_label_shape_refuted) *)
Theorem C71_scannet_partial : forall rnd o c s20 d i fs ip nm W H WL HL xs ys ps ls K fx fy cx cy,
  images_readable o c W H (map sf_color fs) (map sf_depth fs) xs ys ->
  nth_error (sd_frames d) i = Some fs -> nth_error (sd_intr d) i = Some ip -> nth_error (sd_names d) i = Some nm -> sd_seqlen d = Z.of_nat (length fs) ->
  (loads c -> Forall2 (fun f p => rd_matrix o (sf_pose f) = Ok p /\ dims p = [4; 4] /\ pose_ok (ent p [])) fs ps) ->
  (c_intr c = true -> rd_matrix o ip = Ok K /\ dims K = [4; 4] /\ meq 4 4 (ent K []) (pinhole fx fy cx cy 0)) ->
  (c_last c = true -> labels_ok o /\ 0 < WL /\ 0 < HL /\ label_files o WL HL (map sf_label fs) ls) ->
  exists it labels, scan_item rnd o c s20 d (Z.of_nat i) = Ok (documented c it) /\
    shapes c (length fs) it /\ p_names it = nm /\ p_last it = OTen labels /\ (c_last c = true -> label_out o c s20 class20 ls labels).
Proof. exact q_scan_item. Qed.
Print Assumptions C71_scannet_partial.

(* documented: (L, H, W); returned: (L, H, W, 1) *)
Theorem C71_label_shape_refuted : forall o c s20 to20 xs t, label_out o c s20 to20 xs t -> shape t <> [length xs; c_height c; c_width c].
Proof. exact r_label_shape. Qed.
Print Assumptions C71_label_shape_refuted.

(* an index outside the dataset raises IndexError *)
Theorem C71_index_error : forall rnd value o c L s20 dt di ds idx,
  ((Z.of_nat (length (t_color dt)) <= idx \/ idx < - Z.of_nat (length (t_color dt)))%Z -> tum_item rnd o c L dt idx = Err IndexError) /\
  ((Z.of_nat (length (i_color di)) <= idx \/ idx < - Z.of_nat (length (i_color di)))%Z -> icl_item rnd value o c L di idx = Err IndexError) /\
  ((Z.of_nat (length (sd_frames ds)) <= idx \/ idx < - Z.of_nat (length (sd_frames ds)))%Z -> scan_item rnd o c s20 ds idx = Err IndexError).
Proof. exact q_index_error. Qed.
Print Assumptions C71_index_error.

(* item -k is item len - k *)
Theorem C71_negative_index : forall rnd value o c L s20 dt di ds n k, 0 < k <= n ->
  (length (t_color dt) = n -> length (t_depth dt) = n -> length (t_names dt) = n -> length (t_stamps dt) = n -> (loads c -> length (t_poses dt) = n) ->
     tum_item rnd o c L dt (- Z.of_nat k) = tum_item rnd o c L dt (Z.of_nat (n - k))) /\
  (length (i_color di) = n -> length (i_depth di) = n -> length (i_names di) = n -> (loads c -> length (i_poses di) = n) ->
     icl_item rnd value o c L di (- Z.of_nat k) = icl_item rnd value o c L di (Z.of_nat (n - k))) /\
  (length (sd_frames ds) = n -> length (sd_intr ds) = n -> length (sd_names ds) = n ->
     scan_item rnd o c s20 ds (- Z.of_nat k) = scan_item rnd o c s20 ds (Z.of_nat (n - k))).
Proof. exact q_negative_index. Qed.
Print Assumptions C71_negative_index.

Example C71_witness : let c := w_conf true true in
  images_readable w_io (c false) 3 3 [txt "a"; txt "b"] [txt "c"; txt "d"] [w_color; w_color] [w_depth; w_depth] /\
  (nth_error (t_color w_tum) 0 = Some [txt "a"; txt "b"] /\ nth_error (t_depth w_tum) 0 = Some [txt "c"; txt "d"] /\ nth_error (t_names w_tum) 0 = Some (txt "n") /\
   nth_error (t_poses w_tum) 0 = Some w_quats /\ length w_quats = 2 /\ Forall quat_line w_quats) /\
  (let d := w_icl (txt "p") in nth_error (i_color d) 0 = Some [txt "a"; txt "b"] /\ nth_error (i_poses d) 0 = Some (txt "p", [0; 4]) /\
   rd_text w_io (txt "p") = Ok two_poses /\ FileLines two_poses two_poses_lines /\ Spaced [0; 4] /\
   Forall2 (PoseAt small_value two_poses_lines) [0; 4] [pose0; pose1] /\ Forall (fun r => exists m, rows_pose r m /\ det3 (rot_of m) <> 0%R) [pose0; pose1]) /\
  (let fs := [w_frame (txt "a") (txt "c"); w_frame (txt "b") (txt "d")] in
   images_readable w_io (c true) 3 3 (map sf_color fs) (map sf_depth fs) [w_color; w_color] [w_depth; w_depth] /\ nth_error (sd_frames w_scan) 0 = Some fs /\
   sd_seqlen w_scan = Z.of_nat (length fs) /\ Forall2 (fun f p => rd_matrix w_io (sf_pose f) = Ok p /\ dims p = [4; 4] /\ pose_ok (ent p [])) fs [w_pose; w_pose] /\
   (rd_matrix w_io (txt "k") = Ok w_intr /\ dims w_intr = [4; 4] /\ meq 4 4 (ent w_intr []) (pinhole 500 400 300 200 0)) /\
   labels_ok w_io /\ label_files w_io 2 2 (map sf_label fs) [[[14; 0]; [14; 14]]; [[14; 0]; [14; 14]]]).
Proof.
  intros c. split; [apply w_readable|]. split; [repeat (split; [reflexivity|]); exact w_quats_ok|]. split.
  - split; [reflexivity|]. split; [reflexivity|]. split; [reflexivity|]. split; [exact two_poses_file|]. split; [constructor; [lia|constructor]|].
    split; [constructor; [exact two_poses_0|constructor; [exact two_poses_1|constructor]]|]. constructor; [apply pose_mat; auto|constructor; [apply pose_mat; auto|constructor]].
  - split; [apply w_readable|]. split; [reflexivity|]. split; [reflexivity|].
    split; [repeat constructor; apply w_pose_ok|]. split; [split; [reflexivity|split; [reflexivity|]]; intros i j _ _; reflexivity|].
    split; [exact w_labels_ok|]. repeat constructor.
Qed.

(* ------------------------------------------------------------------ C72 *)
(* poses relative to the first frame, transforms relative to the frame before, and their products agree *)
Theorem C72_tum : forall rnd o c d i cp dp nm st pq W H xs ys,
  images_readable o c W H cp dp xs ys ->
  nth_error (t_color d) i = Some cp -> nth_error (t_depth d) i = Some dp -> nth_error (t_names d) i = Some nm -> nth_error (t_stamps d) i = Some st ->
  loads c -> nth_error (t_poses d) i = Some pq -> length pq = length cp -> Forall quat_line pq ->
  exists it ms, tum_item rnd o c (length cp) d (Z.of_nat i) = Ok (documented c it) /\ Forall2 quat_pose pq ms /\ motion c ms it.
Proof. exact q_tum_motion. Qed.
Print Assumptions C72_tum.

(* ICL.  Missing: pose files that end before the last frame of the item (C72_short_file_refuted), and the frames with which the poses are paired when start > 0 (C57_start_refuted) *)
Theorem C72_icl_partial : forall rnd value o c d i cp dp nm file f lines ls rows W H xs ys,
  images_readable o c W H cp dp xs ys -> c_last c = false ->
  nth_error (i_color d) i = Some cp -> nth_error (i_depth d) i = Some dp -> nth_error (i_names d) i = Some nm ->
  loads c -> nth_error (i_poses d) i = Some (file, ls) -> length ls = length cp -> rd_text o file = Ok f -> FileLines f lines -> Spaced ls ->
  Forall2 (PoseAt value lines) ls rows -> Forall (fun r => exists m, rows_pose r m /\ det3 (rot_of m) <> 0%R) rows ->
  exists it ms, icl_item rnd value o c (length cp) d (Z.of_nat i) = Ok (documented c it) /\ Forall2 rows_pose rows ms /\ motion c ms it.
Proof. exact q_icl_motion. Qed.
Print Assumptions C72_icl_partial.

(* ScanNet *)
Theorem C72_scannet : forall rnd o c s20 d i fs ip nm W H WL HL xs ys ps ls K fx fy cx cy,
  images_readable o c W H (map sf_color fs) (map sf_depth fs) xs ys ->
  nth_error (sd_frames d) i = Some fs -> nth_error (sd_intr d) i = Some ip -> nth_error (sd_names d) i = Some nm -> sd_seqlen d = Z.of_nat (length fs) ->
  (loads c -> Forall2 (fun f p => rd_matrix o (sf_pose f) = Ok p /\ dims p = [4; 4] /\ pose_ok (ent p [])) fs ps) ->
  (c_intr c = true -> rd_matrix o ip = Ok K /\ dims K = [4; 4] /\ meq 4 4 (ent K []) (pinhole fx fy cx cy 0)) ->
  (c_last c = true -> labels_ok o /\ 0 < WL /\ 0 < HL /\ label_files o WL HL (map sf_label fs) ls) ->
  exists it, scan_item rnd o c s20 d (Z.of_nat i) = Ok (documented c it) /\ motion c (map (fun p => ent p []) ps) it.
Proof. exact q_scan_motion. Qed.
Print Assumptions C72_scannet.

(* any two such sequences for the same poses agree: pose i times transform i+1 is pose i+1 *)
Theorem C72_agree : forall ms pose trans, ms <> [] -> Forall pose_ok ms -> pose_seq ms pose -> transform_seq ms trans -> chained (length ms) pose trans.
Proof. exact seqs_chained. Qed.
Print Assumptions C72_agree.

(* a pose file that is too short is not noticed: the item has fewer poses than frames *)
Theorem C72_short_file_refuted : forall rnd value o c d i cp dp nm file f lines ls sorted rows W H xs ys,
  images_readable o c W H cp dp xs ys -> c_last c = false -> c_pose c = true ->
  nth_error (i_color d) i = Some cp -> nth_error (i_depth d) i = Some dp -> nth_error (i_names d) i = Some nm ->
  nth_error (i_poses d) i = Some (file, ls) -> rd_text o file = Ok f -> FileLines f lines ->
  (forall s, s < length lines -> (In s ls <-> In s sorted)) ->
  Spaced sorted -> sorted <> [] -> length sorted < length cp -> Forall2 (PoseAt value lines) sorted rows ->
  Forall (fun r => exists m, rows_pose r m /\ det3 (rot_of m) <> 0%R) rows ->
  exists it, icl_item rnd value o c (length cp) d (Z.of_nat i) = Ok (documented c it) /\
    shape (p_color it) = image_shape c (length cp) 3 /\ shape (p_pose it) = [length sorted; 4; 4] /\ length sorted <> length cp.
Proof. exact r_icl_fewer_poses. Qed.
Print Assumptions C72_short_file_refuted.

Example C72_witness : (exists m m', Forall2 quat_pose w_quats [m; m'] /\ ~ meq 4 4 m m') /\
  (let d := w_icl (txt "short") in nth_error (i_color d) 0 = Some [txt "a"; txt "b"] /\ nth_error (i_poses d) 0 = Some (txt "short", [0; 4]) /\
   exists f lines, rd_text w_io (txt "short") = Ok f /\ FileLines f lines /\ (forall s, s < length lines -> (In s [0; 4] <-> In s [0])) /\
     Forall2 (PoseAt small_value lines) [0] [pose0] /\ length [0] < length [txt "a"; txt "b"]).
Proof.
  split.
  - destruct (C72_tum (fun x => x) w_io (w_conf false true false) w_tum 0 _ _ _ _ w_quats _ _ _ _ (w_readable false true false) eq_refl eq_refl eq_refl eq_refl
      (or_introl eq_refl) eq_refl eq_refl w_quats_ok) as (it & ms & _ & F & _).
    inversion F as [|? m ? l P1 F1]; subst. inversion F1 as [|? m' ? l' P2 F2]; subst. inversion F2; subst. exists m, m'. split; [exact F|].
    intros K. destruct P1 as (a & b & c & ? & ? & ? & ? & E & _ & T & _). destruct P2 as (a' & b' & c' & ? & ? & ? & ? & E' & _ & T' & _).
    injection E as <- <- <- _ _ _ _. injection E' as <- <- <- _ _ _ _. specialize (T 0 ltac:(lia)). specialize (T' 0 ltac:(lia)). unfold tr_of in *. cbn in T, T'.
    rewrite (K 0 3 ltac:(lia) ltac:(lia)) in T. lra.
  - split; [reflexivity|]. split; [reflexivity|]. do 2 eexists. split; [reflexivity|]. split; [exact w_short_file|].
    split; [intros s Hs; cbn in *; lia|]. split; [constructor; [exact w_short_pose|constructor]|cbn; lia].
Qed.

(* ------------------------------------------------------------------ C73 *)
(* TUM: color is the resized image (divided by 255 if asked), depth the resized depth divided by 5000, the TUM camera scaled to the size asked for *)
Theorem C73_tum : forall rnd o c d i cp dp nm st pq W H xs ys,
  images_readable o c W H cp dp xs ys ->
  nth_error (t_color d) i = Some cp -> nth_error (t_depth d) i = Some dp -> nth_error (t_names d) i = Some nm -> nth_error (t_stamps d) i = Some st ->
  (loads c -> nth_error (t_poses d) i = Some pq /\ length pq = length cp /\ Forall quat_line pq) ->
  exists it, tum_item rnd o c (length cp) d (Z.of_nat i) = Ok (documented c it) /\
    color_out rnd o c xs (p_color it) /\ (c_depth c = true -> depth_out o c 5000 ys (p_depth it)) /\
    camera (525 * (INR (c_width c) / 640)) (525 * (INR (c_height c) / 480)) (639 / 2 * (INR (c_width c) / 640)) (479 / 2 * (INR (c_height c) / 480)) (p_intr it).
Proof. exact q_tum_images. Qed.
Print Assumptions C73_tum.

Theorem C73_icl : forall rnd value o c d i cp dp nm file f lines ls rows W H xs ys,
  images_readable o c W H cp dp xs ys -> c_last c = false ->
  nth_error (i_color d) i = Some cp -> nth_error (i_depth d) i = Some dp -> nth_error (i_names d) i = Some nm ->
  (loads c -> nth_error (i_poses d) i = Some (file, ls) /\ length ls = length cp /\ rd_text o file = Ok f /\ FileLines f lines /\ Spaced ls /\
     Forall2 (PoseAt value lines) ls rows /\ Forall (fun r => exists m, rows_pose r m /\ det3 (rot_of m) <> 0%R) rows) ->
  exists it, icl_item rnd value o c (length cp) d (Z.of_nat i) = Ok (documented c it) /\
    color_out rnd o c xs (p_color it) /\ (c_depth c = true -> depth_out o c 5000 ys (p_depth it)) /\
    camera (4812 / 10 * (INR (c_width c) / 640)) (- 480 * (INR (c_height c) / 480)) (639 / 2 * (INR (c_width c) / 640)) (479 / 2 * (INR (c_height c) / 480)) (p_intr it).
Proof. exact q_icl_images. Qed.
Print Assumptions C73_icl.

Theorem C73_scannet : forall rnd o c s20 d i fs ip nm W H WL HL xs ys ps ls K fx fy cx cy,
  images_readable o c W H (map sf_color fs) (map sf_depth fs) xs ys ->
  nth_error (sd_frames d) i = Some fs -> nth_error (sd_intr d) i = Some ip -> nth_error (sd_names d) i = Some nm -> sd_seqlen d = Z.of_nat (length fs) ->
  (loads c -> Forall2 (fun f p => rd_matrix o (sf_pose f) = Ok p /\ dims p = [4; 4] /\ pose_ok (ent p [])) fs ps) ->
  (c_intr c = true -> rd_matrix o ip = Ok K /\ dims K = [4; 4] /\ meq 4 4 (ent K []) (pinhole fx fy cx cy 0)) ->
  (c_last c = true -> labels_ok o /\ 0 < WL /\ 0 < HL /\ label_files o WL HL (map sf_label fs) ls) ->
  exists it, scan_item rnd o c s20 d (Z.of_nat i) = Ok (documented c it) /\
    color_out rnd o c xs (p_color it) /\ (c_depth c = true -> depth_out o c 1000 ys (p_depth it)) /\
    (c_intr c = true -> camera (fx * (INR (c_width c) / 640)) (fy * (INR (c_height c) / 480)) (cx * (INR (c_width c) / 640)) (cy * (INR (c_height c) / 480)) (p_intr it)).
Proof. exact q_scan_images. Qed.
Print Assumptions C73_scannet.

(* at the size of the files the pixels are those of the files *)
Theorem C73_native_size : forall rnd o c sc xs ys t u, linear_ok o -> nearest_ok o -> 0 < c_width c -> 0 < c_height c ->
  Forall (fun x => dims x = [3; c_width c; c_height c]) xs -> Forall (fun x => dims x = [c_width c; c_height c]) ys ->
  color_out rnd o c xs t -> depth_out o c sc ys u ->
  forall f i j, i < c_height c -> j < c_width c ->
    (forall x k, nth_error xs f = Some x -> k < 3 -> pixel c t f i j k = (if c_norm c then rnd (at_ x [k; j; i] / 255)%R else at_ x [k; j; i])) /\
    (forall y, nth_error ys f = Some y -> pixel c u f i j 0 = (at_ y [j; i] / sc)%R).
Proof. exact q_native. Qed.
Print Assumptions C73_native_size.

(* depth is never interpolated: every value is the depth of a pixel of the file; missing stays missing, positive stays positive *)
Theorem C73_depth_values : forall o c sc W H ys u, nearest_ok o -> 0 < c_width c -> 0 < c_height c -> 0 < W -> 0 < H -> (0 < sc)%R ->
  Forall (fun x => dims x = [W; H]) ys -> depth_out o c sc ys u ->
  forall f y i j, nth_error ys f = Some y -> i < c_height c -> j < c_width c ->
    exists i' j', i' < H /\ j' < W /\ pixel c u f i j 0 = (at_ y [j'; i'] / sc)%R /\
      ((pixel c u f i j 0 = 0)%R <-> at_ y [j'; i'] = 0%R) /\ ((0 < pixel c u f i j 0)%R <-> (0 < at_ y [j'; i'])%R).
Proof. exact q_depth_values. Qed.
Print Assumptions C73_depth_values.

(* colors stay in 0..255, or 0..1 if normalised *)
Theorem C73_color_range : forall rnd o c W H xs t, linear_ok o -> 0 < c_width c -> 0 < c_height c -> 0 < W -> 0 < H ->
  (forall x y, (x <= y)%R -> (rnd x <= rnd y)%R) -> rnd 0%R = 0%R -> rnd 1%R = 1%R ->
  Forall (fun x => dims x = [3; W; H] /\ forall k i j, k < 3 -> i < H -> j < W -> (0 <= at_ x [k; j; i] <= 255)%R) xs -> color_out rnd o c xs t ->
  forall f x i j k, nth_error xs f = Some x -> i < c_height c -> j < c_width c -> k < 3 ->
    (if c_norm c then (0 <= pixel c t f i j k <= 1)%R else (0 <= pixel c t f i j k <= 255)%R).
Proof. exact q_color_range. Qed.
Print Assumptions C73_color_range.

(* projecting with the scaled camera gives the pixel coordinates of the original camera, scaled *)
Theorem C73_projection_scaled : forall fx fy cx cy sw sh k, camera (fx * sw) (fy * sh) (cx * sw) (cy * sh) k ->
  forall p, persp (mvec 4 (ent k [0]) p) 0 = (sw * persp (mvec 4 (pinhole fx fy cx cy 0) p) 0%nat)%R /\
            persp (mvec 4 (ent k [0]) p) 1 = (sh * persp (mvec 4 (pinhole fx fy cx cy 0) p) 1%nat)%R.
Proof. exact q_camera_scale. Qed.
Print Assumptions C73_projection_scaled.

(* frame f of item k of a TUM sequence is association k * stride + f * (dilation + 1), in its color, depth, pose and transform *)
Theorem C73_tum_frames : forall rnd o c w dir name assoc stamps fs r k W H colors depths,
  0 < w_len w -> 0 < w_stride w -> length stamps = length assoc ->
  Forall2 (tum_frame dir name (c_pose c || c_trans c)) assoc fs ->
  tum_sequence w dir name (c_pose c || c_trans c) assoc stamps = Ok r ->
  linear_ok o -> nearest_ok o -> 0 < c_width c -> 0 < c_height c -> 0 < W -> 0 < H ->
  color_files o W H (map (fun f => fst (fst (fst f))) fs) colors -> depth_files o W H (map (fun f => snd (fst (fst f))) fs) depths ->
  (loads c -> Forall (fun f => quat_line (snd (fst f))) fs) ->
  k * w_stride w + (w_len w - 1) * (w_dil w + 1) < length fs ->
  exists it poses, tum_item rnd o c (w_len w) r (Z.of_nat k) = Ok (documented c it) /\ shapes c (w_len w) it /\
    (loads c -> Forall2 (fun f m => quat_pose (snd (fst f)) m) fs poses) /\
    forall f n, f < w_len w -> n = k * w_stride w + f * (w_dil w + 1) ->
      (forall x, nth_error colors n = Some x -> exists y, cv_linear o (c_width c) (c_height c) x = Ok y /\
         forall i j ch, pixel c (p_color it) f i j ch = (if c_norm c then rnd (at_ y [ch; j; i] / 255)%R else at_ y [ch; j; i])) /\
      (c_depth c = true -> forall x, nth_error depths n = Some x -> exists y, cv_nearest o (c_width c) (c_height c) x = Ok y /\
         forall i j, pixel c (p_depth it) f i j 0 = (at_ y [j; i] / 5000)%R) /\
      (c_pose c = true -> meq 4 4 (mmul 4 (nth (k * w_stride w) poses mI) (ent (p_pose it) [f])) (nth n poses mI)) /\
      (c_trans c = true -> meq 4 4 (ent (p_trans it) [0]) mI /\
         (S f < w_len w -> meq 4 4 (mmul 4 (nth n poses mI) (ent (p_trans it) [S f])) (nth (n + (w_dil w + 1)) poses mI))).
Proof. exact q_tum_frames. Qed.
Print Assumptions C73_tum_frames.

Example C73_witness : images_readable w_io (w_conf false false true) 3 3 [txt "a"; txt "b"] [txt "c"; txt "d"] [w_color; w_color] [w_depth; w_depth] /\
  Forall (fun x => dims x = [3; 3; 3] /\ forall k i j, k < 3 -> i < 3 -> j < 3 -> (0 <= at_ x [k; j; i] <= 255)%R) [w_color; w_color] /\
  (exists t u, color_out (fun x => x) w_io (w_conf false false true) [w_color; w_color] t /\ depth_out w_io (w_conf false false true) 5000 [w_depth; w_depth] u) /\
  (exists fs, Forall2 (tum_frame (txt "d") (txt "n") true) [(txt "rgb/0.png", txt "depth/0.png", Some (nth 0 w_quats [])); (txt "rgb/1.png", txt "depth/1.png", Some (nth 1 w_quats []))] fs /\
     length fs = 2 /\ Forall (fun f => quat_line (snd (fst f))) fs /\ 0 * 1 + (2 - 1) * (0 + 1) < length fs).
Proof.
  split; [apply w_readable|]. split.
  - assert (B : dims w_color = [3; 3; 3] /\ forall k i j, k < 3 -> i < 3 -> j < 3 -> (0 <= at_ w_color [k; j; i] <= 255)%R); [|constructor; [exact B|constructor; [exact B|constructor]]].
    split; [reflexivity|]. intros k i j Hk Hi Hj. cbn -[INR Nat.mul Nat.add]. split; [apply pos_INR|].
    apply Rle_trans with (INR 255); [apply le_INR; lia|]. apply Req_le. rewrite INR_IZR_INZ. reflexivity.
  - split.
    + destruct (C73_tum (fun x => x) w_io (w_conf false false true) w_tum 0 _ _ _ _ w_quats _ _ _ _ (w_readable false false true) eq_refl eq_refl eq_refl eq_refl
        (fun _ => conj eq_refl (conj eq_refl w_quats_ok))) as (it & _ & A & B & _). do 2 eexists. split; [exact A|exact (B eq_refl)].
    + eexists. split; [constructor; [do 3 eexists; split; [reflexivity|split; [reflexivity|split; reflexivity]]|constructor; [do 3 eexists; split; [reflexivity|split; [reflexivity|split; reflexivity]]|constructor]]|].
      split; [reflexivity|]. split; [|cbn; lia]. pose proof w_quats_ok as Q. inversion Q as [|? ? Q1 Q']; subst. inversion Q' as [|? ? Q2 _]; subst. repeat constructor; assumption.
Qed.
