import sys; sys.path.insert(0,'/verif/tools')
from genprop import gen
H=lambda t:('h',t)
def Tm(th,lem,f,com=''): return ('t',th,lem,f,com)
def sec(c): return H('(* ------------------------------------------------------------------ %s *)'%c)
P='ItemPropProofs'
plan=[H(r'''(* Properties C71-C73: the items of the datasets.
   Vocabulary (ItemSpec.v): documented c it = the documented tuple of the parts of it that were asked for; shapes, image_shape,
   pixel = shape and value in either channel order; images_readable = the image files of the sequence can be read, with what is
   used of cv2.resize; quat_line / quat_pose = a TUM pose and its matrix; pose_seq / transform_seq / chained = relative poses,
   frame-to-frame transforms, and that they agree; camera = intrinsics with given focal lengths and principal point;
   color_out / depth_out / label_out = the images for the raw images.  o : io = reading files and resizing. *)
From Coq Require Import Reals ZArith Ascii String List Arith Bool Lia Lra.
From Verif Require Import Res MatSpec TextModel TumModel TensorModel LinAlgModel DataUtilsModel ImageModel GeomSpec GeomModel IcpModel DatasetModel
  MatProofs GeomProofs DataSpec DatasetSpec DataPropProofs ItemModel ItemSpec ItemProofs ItemPropProofs ItemWitness.
Import ListNotations.
Local Open Scope nat_scope.
'''),
sec('C71'),
Tm('C71_tum','q_tum_item',P,'TUM: the documented tuple, with the documented shapes, the names of the item, and one timestamp line per frame'),
Tm('C71_icl','q_icl_item',P,'ICL'),
Tm('C71_scannet_partial','q_scan_item',P,'ScanNet.  Missing: labels have the documented shape (C71_label_shape_refuted)'),
Tm('C71_label_shape_refuted','r_label_shape',P,'documented: (L, H, W); returned: (L, H, W, 1)'),
Tm('C71_index_error','q_index_error',P,'an index outside the dataset raises IndexError'),
Tm('C71_negative_index','q_negative_index',P,'item -k is item len - k'),
H(r'''Example C71_witness : let c := w_conf true true in
  images_readable w_io (c false) 3 3 [txt "a"; txt "b"] [txt "c"; txt "d"] [w_color; w_color] [w_depth; w_depth] /\
  (nth_error (t_color w_tum) 0 = Some [txt "a"; txt "b"] /\ nth_error (t_depth w_tum) 0 = Some [txt "c"; txt "d"] /\ nth_error (t_names w_tum) 0 = Some (txt "n") /\
   nth_error (t_poses w_tum) 0 = Some w_quats /\ length w_quats = 2 /\ Forall quat_line w_quats) /\
  (let d := w_icl (txt "p") in nth_error (i_color d) 0 = Some [txt "a"; txt "b"] /\ nth_error (i_poses d) 0 = Some (txt "p", [0; 4]) /\
   rd_text w_io (txt "p") = Ok two_poses /\ FileLines two_poses two_poses_lines /\ Spaced [0; 4] /\
   Forall2 (PoseAt small_value two_poses_lines) [0; 4] [pose0; pose1] /\ Forall (fun r => exists m, rows_pose r m /\ det3 (rot_of m) <> 0%R) [pose0; pose1]) /\
  (let fs := [w_frame (txt "a") (txt "c"); w_frame (txt "b") (txt "d")] in
   images_readable w_io (c true) 3 3 (map sf_color fs) (map sf_depth fs) [w_color; w_color] [w_depth; w_depth] /\ nth_error (sd_frames w_scan) 0 = Some fs /\
   sd_seqlen w_scan = Z.of_nat (length fs) /\ Forall2 (fun f p => rd_matrix w_io (sf_pose f) = Ok p /\ dims p = [4; 4] /\ pose_ok (ent p [])) fs [w_pose; w_pose] /\
   (rd_matrix w_io (txt "k") = Ok w_intr /\ dims w_intr = [4; 4] /\ meq 4 4 (ent w_intr []) (pinhole 500 400 300 200 0)) /\
   labels_ok w_io /\ label_files w_io 2 2 (map sf_label fs) [[[14; 0]; [14; 14]]; [[14; 0]; [14; 14]]]).
Proof.
  intros c. split; [apply w_readable|]. split; [repeat (split; [reflexivity|]); exact w_quats_ok|]. split.
  - split; [reflexivity|]. split; [reflexivity|]. split; [reflexivity|]. split; [exact two_poses_file|]. split; [constructor; [lia|constructor]|].
    split; [constructor; [exact two_poses_0|constructor; [exact two_poses_1|constructor]]|]. constructor; [apply pose_mat; auto|constructor; [apply pose_mat; auto|constructor]].
  - split; [apply w_readable|]. split; [reflexivity|]. split; [reflexivity|].
    split; [repeat constructor; apply w_pose_ok|]. split; [split; [reflexivity|split; [reflexivity|]]; intros i j _ _; reflexivity|].
    split; [exact w_labels_ok|]. repeat constructor.
Qed.
'''),
sec('C72'),
Tm('C72_tum','q_tum_motion',P,'poses relative to the first frame, transforms relative to the frame before, and their products agree'),
Tm('C72_icl_partial','q_icl_motion',P,'ICL.  Missing: pose files that end before the last frame of the item (C72_short_file_refuted), and the frames with which the poses are paired when start > 0 (C57_start_refuted)'),
Tm('C72_scannet','q_scan_motion',P,'ScanNet'),
Tm('C72_agree','seqs_chained','ItemProofs','any two such sequences for the same poses agree: pose i times transform i+1 is pose i+1'),
Tm('C72_short_file_refuted','r_icl_fewer_poses',P,'a pose file that is too short is not noticed: the item has fewer poses than frames'),
H(r'''Example C72_witness : (exists m m', Forall2 quat_pose w_quats [m; m'] /\ ~ meq 4 4 m m') /\
  (let d := w_icl (txt "short") in nth_error (i_color d) 0 = Some [txt "a"; txt "b"] /\ nth_error (i_poses d) 0 = Some (txt "short", [0; 4]) /\
   exists f lines, rd_text w_io (txt "short") = Ok f /\ FileLines f lines /\ (forall s, s < length lines -> (In s [0; 4] <-> In s [0])) /\
     Forall2 (PoseAt small_value lines) [0] [pose0] /\ length [0] < length [txt "a"; txt "b"]).
Proof.
  split.
  - destruct (C72_tum (fun x => x) w_io (w_conf false true false) w_tum 0 _ _ _ _ w_quats _ _ _ _ (w_readable false true false) eq_refl eq_refl eq_refl eq_refl
      (or_introl eq_refl) eq_refl eq_refl w_quats_ok) as (it & ms & _ & F & _).
    inversion F as [|? m ? l P1 F1]; subst. inversion F1 as [|? m' ? l' P2 F2]; subst. inversion F2; subst. exists m, m'. split; [exact F|].
    intros K. destruct P1 as (a & b & c & ? & ? & ? & ? & E & _ & T & _). destruct P2 as (a' & b' & c' & ? & ? & ? & ? & E' & _ & T' & _).
    injection E as <- <- <- _ _ _ _. injection E' as <- <- <- _ _ _ _. specialize (T 0 ltac:(lia)). specialize (T' 0 ltac:(lia)). unfold tr_of in *. cbn in T, T'.
    rewrite (K 0 3 ltac:(lia) ltac:(lia)) in T. lra.
  - split; [reflexivity|]. split; [reflexivity|]. do 2 eexists. split; [reflexivity|]. split; [exact w_short_file|].
    split; [intros s Hs; cbn in *; lia|]. split; [constructor; [exact w_short_pose|constructor]|cbn; lia].
Qed.
'''),
sec('C73'),
Tm('C73_tum','q_tum_images',P,'TUM: color is the resized image (divided by 255 if asked), depth the resized depth divided by 5000, the TUM camera scaled to the size asked for'),
Tm('C73_icl','q_icl_images',P),
Tm('C73_scannet','q_scan_images',P),
Tm('C73_native_size','q_native',P,'at the size of the files the pixels are those of the files'),
Tm('C73_depth_values','q_depth_values',P,'depth is never interpolated: every value is the depth of a pixel of the file; missing stays missing, positive stays positive'),
Tm('C73_color_range','q_color_range',P,'colors stay in 0..255, or 0..1 if normalised'),
Tm('C73_projection_scaled','q_camera_scale',P,'projecting with the scaled camera gives the pixel coordinates of the original camera, scaled'),
Tm('C73_tum_frames','q_tum_frames',P,'frame f of item k of a TUM sequence is association k * stride + f * (dilation + 1), in its color, depth, pose and transform'),
H(r'''Example C73_witness : images_readable w_io (w_conf false false true) 3 3 [txt "a"; txt "b"] [txt "c"; txt "d"] [w_color; w_color] [w_depth; w_depth] /\
  Forall (fun x => dims x = [3; 3; 3] /\ forall k i j, k < 3 -> i < 3 -> j < 3 -> (0 <= at_ x [k; j; i] <= 255)%R) [w_color; w_color] /\
  (exists t u, color_out (fun x => x) w_io (w_conf false false true) [w_color; w_color] t /\ depth_out w_io (w_conf false false true) 5000 [w_depth; w_depth] u) /\
  (exists fs, Forall2 (tum_frame (txt "d") (txt "n") true) [(txt "rgb/0.png", txt "depth/0.png", Some (nth 0 w_quats [])); (txt "rgb/1.png", txt "depth/1.png", Some (nth 1 w_quats []))] fs /\
     length fs = 2 /\ Forall (fun f => quat_line (snd (fst f))) fs /\ 0 * 1 + (2 - 1) * (0 + 1) < length fs).
Proof.
  split; [apply w_readable|]. split.
  - assert (B : dims w_color = [3; 3; 3] /\ forall k i j, k < 3 -> i < 3 -> j < 3 -> (0 <= at_ w_color [k; j; i] <= 255)%R); [|constructor; [exact B|constructor; [exact B|constructor]]].
    split; [reflexivity|]. intros k i j Hk Hi Hj. cbn -[INR Nat.mul Nat.add]. split; [apply pos_INR|].
    apply Rle_trans with (INR 255); [apply le_INR; lia|]. apply Req_le. rewrite INR_IZR_INZ. reflexivity.
  - split.
    + destruct (C73_tum (fun x => x) w_io (w_conf false false true) w_tum 0 _ _ _ _ w_quats _ _ _ _ (w_readable false false true) eq_refl eq_refl eq_refl eq_refl
        (fun _ => conj eq_refl (conj eq_refl w_quats_ok))) as (it & _ & A & B & _). do 2 eexists. split; [exact A|exact (B eq_refl)].
    + eexists. split; [constructor; [do 3 eexists; split; [reflexivity|split; [reflexivity|split; reflexivity]]|constructor; [do 3 eexists; split; [reflexivity|split; [reflexivity|split; reflexivity]]|constructor]]|].
      split; [reflexivity|]. split; [|cbn; lia]. pose proof w_quats_ok as Q. inversion Q as [|? ? Q1 Q']; subst. inversion Q' as [|? ? Q2 _]; subst. repeat constructor; assumption.
Qed.
'''),
]
gen('/verif/rocq/theories/PropItem.v',plan)
