import sys; sys.path.insert(0,'/verif/tools')
from genprop import gen
H=lambda t:('h',t)
def Tm(th,lem,f,com=''): return ('t',th,lem,f,com)
def sec(c): return H('(* ------------------------------------------------------------------ %s *)'%c)
D='DataPropProofs'; I='ImageProofs'
plan=[H(r'''(* Properties C55-C62: the datasets.
   Vocabulary (DataSpec.v, DatasetSpec.v, ImageSpec.v): Gap = time difference of two stamps; candidate = a pair within the search radius;
   closer = the order in which pairs are preferred; Association = the matching; Lines / Rows / Fields / Words = the lines of
   a text and their entries; DictOf = dictionary of a list of pairs; Sampled = the windows of a sequence; PoseAt = a pose in a file.
   value = what float(s) gives for each string (any function); rnd = the rounding of float arithmetic (any function). *)
From Coq Require Import Ascii String List Arith Bool Reals ZArith Lia Lra Sorting.Sorted.
From Verif Require Import Res MatSpec DataUtilsModel TensorModel TextModel TumModel DatasetModel ImageModel DataSpec DatasetSpec ImageSpec
  TextProofs FileProofs PoseFileProofs DataPropProofs ImageProofs.
Import ListNotations.
Local Open Scope nat_scope.
'''),
sec('C55'),
Tm('C55_associate','q_associate',D,'the result is the matching of the specification'),
Tm('C55_associate_exactly','q_associate_iff',D,'there is only one such matching'),
Tm('C55_maximal','q_maximal',D,'no admissible pair of unused stamps remains'),
Tm('C55_input_order','q_associate_order',D,'the order of the keys does not matter'),
Tm('C55_sorted_by_time','q_sorted_by_time',D,'sorted by time, when the text order of the keys is the order of time (stamps of equal length)'),
Tm('C55_sorted_by_time_refuted','r_sorted_by_time',D,'in general the pairs are sorted as texts: 10 comes before 9'),
Tm('C55_not_a_number','q_associate_err',D,'a key that is not a number'),
Tm('C55_empty','q_associate_empty',D),
Tm('C55_rgbd','q_find_rgbd',D,'TUM: colour and depth frames'),
Tm('C55_rgbd_pose','q_find_rgbd_pose',D,'TUM: colour, depth and pose; the pose is matched with the depth frame'),
Tm('C55_rgbd_pose_gaps','q_find_gaps',D,'stamps that are returned together are within the search radius'),
H(r'''Example C55_witness : NoDup nine_ten /\ readable small_number nine_ten /\ candidate (fun x => x) small_number 0 (/ 2) nine_ten nine_ten (txt "9") (txt "9") /\
  ~ readable small_number [txt "x"].
Proof.
  destruct nine_ten_ok as [N Rd]. split; [exact N|]. split; [exact Rd|]. split.
  - split; [cbn; auto|]. split; [cbn; auto|]. exists 0%R. split; [|lra]. exists 9%R, 9%R. split; [reflexivity|]. split; [reflexivity|]. replace (9 - (9 + 0))%R with 0%R by lra. now rewrite Rabs_R0.
  - intros K. destruct (K (txt "x") (or_introl eq_refl)) as (v & E). discriminate.
Qed.
'''),
sec('C56'),
Tm('C56_windows','q_windows',D,'the windows of a sequence of n frames'),
Tm('C56_tum','q_tum',D,'TUM: colours, depths, stamps, names and poses are all cut into the same windows'),
Tm('C56_tum_sequences','q_tum_all',D,'several sequences: one after the other'),
Tm('C56_tum_bad_file','q_tum_bad_name',D),
Tm('C56_icl','q_icl',D,'ICL: the same; the pose lines are those of C57'),
Tm('C56_icl_sequences','q_icl_all',D),
Tm('C56_arguments','q_args_ok',D,'accepted arguments and their defaults'),
Tm('C56_bad_values','q_args_values',D,'every other combination of integers is rejected'),
Tm('C56_bad_types','q_args_types',D),
Tm('C56_bad_range_types','q_args_range_types',D),
Tm('C56_default_stride','q_default_stride',D,'with the default stride consecutive windows share no frame'),
Tm('C56_stride_zero_refuted','q_stride0',D,'stride 0 passes the validation and fails in range()'),
Tm('C56_seqlen_zero_refuted','q_seqlen0',D,'so does seqlen 0, with IndexError'),
H(r'''Example C56_witness : args_ok 2 None (Some 3%Z) None None /\ args_ok 0 None (Some 1%Z) None None /\ args_ok 2 None (Some 0%Z) None None /\ ~ args_ok 2 (Some (-1)%Z) None None None /\
  windows 2 1 3 9 = Ok [[0; 2]; [3; 5]; [6; 8]] /\
  tum_frame (txt "d") (txt "n") true (txt "rgb/1.png", txt "depth/1.png", Some []) (txt "d/rgb/1.png", txt "d/depth/1.png", [], txt "n//1").
Proof.
  split; [unfold args_ok; cbn; lia|]. split; [unfold args_ok; cbn; lia|]. split; [unfold args_ok; cbn; lia|]. split; [unfold args_ok; cbn; lia|]. split; [reflexivity|].
  exists (txt "/1.png"), (txt "/1.png"), []. repeat split.
Qed.
'''),
sec('C57'),
Tm('C57_start_zero_partial','q_icl_start0',D,'with start = 0: the pose of the frame of line j is pose j of the file.  Missing: start > 0 (C57_start_refuted)'),
Tm('C57_pose_lines_partial','q_icl',D,'in general: the frames are those of the lines start, start+1, ..., the pose lines are 0, 4, 8, ...'),
Tm('C57_start_refuted','r_icl_pose',D,'with start = 1 the frame of line 1 is returned with pose 0'),
Tm('C57_short_pose_file_refuted','r_icl_short',D,'a pose file that is one pose short is accepted; the last frame then has no pose'),
H(r'''Example C57_witness : FileLines two_poses two_poses_lines /\ PoseAt small_value two_poses_lines 0 pose0 /\ PoseAt small_value two_poses_lines 4 pose1 /\
  (exists lines, FileLines two_frames lines /\ Forall2 (fun line f => IclFrame line (fst f) (snd f)) (icl_used (two_traj two_poses) (mkW 2 0 1 0 None) lines)
    [(txt "rgb/0.png", txt "depth/0.png"); (txt "rgb/1.png", txt "depth/1.png")]).
Proof.
  split; [exact two_poses_file|]. split; [exact two_poses_0|]. split; [exact two_poses_1|].
  exists [txt "0 depth/0.png 0 rgb/0.png"; txt "1 depth/1.png 1 rgb/1.png"]. split; [apply filelines_eq'; vm_compute; reflexivity|].
  constructor; [|constructor; [|constructor]]; cbn [fst snd]; do 3 eexists.
  - exists (txt "/0.png"), (txt "/0.png"). split; [apply words_eq'; vm_compute; reflexivity|]. split; reflexivity.
  - exists (txt "/1.png"), (txt "/1.png"). split; [apply words_eq'; vm_compute; reflexivity|]. split; reflexivity.
Qed.
'''),
sec('C58'),
Tm('C58_poses','q_load_poses',D,'one pose per requested line, in order'),
Tm('C58_any_request','q_load_any_order',D,'any request: the order and repetitions of the requested lines do not matter'),
Tm('C58_request_order_refuted','r_load_order',D,'so the poses come in file order, not in the order requested'),
Tm('C58_faulty_line','q_load_faulty',D,'a line without four entries'),
Tm('C58_past_end_refuted','q_load_past_end',D,'lines past the end of the file are silently ignored'),
Tm('C58_cut_refuted','q_load_cut',D,'so is a pose that the end of the file cuts off'),
H(r'''Example C58_witness : FileLines two_poses two_poses_lines /\ Spaced [0; 4] /\ Forall2 (PoseAt small_value two_poses_lines) [0; 4] [pose0; pose1] /\ pose0 <> pose1.
Proof.
  split; [exact two_poses_file|]. split; [constructor; [lia|constructor]|]. split; [constructor; [exact two_poses_0|constructor; [exact two_poses_1|constructor]]|].
  unfold pose0, pose1. intros K. injection K. intros. lra.
Qed.
'''),
sec('C59'),
Tm('C59_range_partial','q_scannet',D,'a range that every scene contains: sample i has the frames start .. end - 1 of scene i.  Missing: end = -1 with scenes of different lengths (C59_lengths_refuted), ranges that a scene does not contain (C59_cut_refuted)'),
Tm('C59_whole_scenes_partial','q_scannet_full',D,'end = -1 with scenes of one length'),
Tm('C59_arguments','q_scannet_args',D),
Tm('C59_too_short','q_scannet_too_short',D,'a scene with fewer frames than the range has'),
Tm('C59_lengths_refuted','r_scannet_two',D,'end = -1 with two scenes: sample 0 has as many frames as the last scene, or IndexError'),
Tm('C59_cut_refuted','r_scannet_cut',D,'a scene that ends inside the range is accepted, and reading it raises IndexError'),
Tm('C59_past_refuted','r_scannet_past',D,'a scene that ends before start: IndexError instead of ValueError'),
H(r'''Example C59_witness : scene_frame (txt "b") one_line one_frame /\ frames_of (txt "b") 1 2 (mkScene (txt "s") [one_line; one_line; one_line]) [one_frame; one_frame] /\
  (let sc := mkScene (txt "s") [one_line; one_line] in 1 < length (sc_lines sc) /\ length (sc_lines sc) < 3 /\ 3 - 1 <= length (sc_lines sc)).
Proof. split; [exact one_line_ok|]. split; [|cbn; lia]. unfold frames_of. cbn [sc_lines skipn firstn]. constructor; [exact one_line_ok|constructor; [exact one_line_ok|constructor]]. Qed.
'''),
sec('C60'),
Tm('C60_remap','q_remap',D,'each pixel on its own, by the table class20'),
Tm('C60_palettes','q_palettes_agree',D,'the table keeps name and colour of the class; classes without a counterpart become 0'),
Tm('C60_range','q_class20_range',D),
Tm('C60_onto','q_class20_onto',D),
Tm('C60_other_labels_refuted','r_remap_large',D,'labels above 40 are kept, not sent to 0'),
Tm('C60_paint_partial','q_label_image',D,'with a list of colours: each pixel gets the colour of its label.  Missing: the documented argument, a dictionary (C60_paint_dict_refuted)'),
Tm('C60_paint_dict_refuted','r_label_image_dict',D,'with the documented argument, an OrderedDict, the call fails'),
H(r'''Example C60_witness : nth_error palette_nyu40 14 = Some ("desk"%string, (247, 182, 210)) /\ position "desk" palette_scannet20 = Some 13 /\ class20 14 = 13 /\ class20 13 = 0 /\ class20 41 = 41.
Proof. repeat split. Qed.
'''),
sec('C61'),
Tm('C61_range','p_normalize_range',I,'same shape, values in [0, 1]'),
Tm('C61_order','p_normalize_order',I),
Tm('C61_recover','p_normalize_exact',I,'the bytes can be recovered from the result'),
Tm('C61_channels_first','p_channels_first',I),
Tm('C61_channels_inverse','p_channels_inverse',I),
Tm('C61_rank','p_channels_rank',I),
Tm('C61_types','p_image_types',I),
H(r'''Example C61_witness : Rounds rnd32 /\ (forall z, (0 <= z <= 1 -> Rabs (rnd32 z - z) <= / 1024)%R) /\ shape (mkTen [3; 4; 5; 2] (fun _ => 0%R)) = [2] ++ [5; 4; 3].
Proof. split; [exact rnd32_rounds|]. split; [exact rnd32_close|reflexivity]. Qed.
'''),
sec('C62'),
Tm('C62_file_list','q_read_file_list',D,'the dictionary of the selected data lines with at least two entries'),
Tm('C62_rows','q_rows_exist',D,'every file has exactly one list of rows'),
Tm('C62_separators','q_separators',D,'files with the same rows give the same result, whatever the separators'),
Tm('C62_trajectory_partial','q_read_trajectory',D,'trajectory files: rows without a rotation are dropped.  Missing: rows with NaN are not skipped (C62_nan_refuted)'),
Tm('C62_trajectory_matrix_partial','q_read_trajectory_matrix',D),
Tm('C62_nan_refuted','r_trajectory_nan',D,'a row with NaN: NameError instead of a warning'),
Tm('C62_blank_line_refuted','r_trajectory_blank',D,'a line of blanks: IndexError'),
Tm('C62_not_a_number','q_trajectory_bad',D),
H(r'''Example C62_witness : TrajFile small_number good_file [(txt "9", map Some [1; 0; 0; 0; 0; 0; 1]%R)] /\
  ~ no_rotation (map Some [1; 0; 0; 0; 0; 0; 1]%R) /\
  TrajFile small_number nan_file [(txt "9", [None; Some 0; Some 0; Some 0; Some 0; Some 0; Some 1]%R)] /\
  ~ no_rotation [None; Some 0; Some 0; Some 0; Some 0; Some 0; Some 1]%R /\
  Fields (txt " ") [] /\ data_line (txt " ") = true /\
  read_file_list (txt "1 a,b" ++ [newline] ++ txt "2 c") None None = [(txt "1", [txt "a"; txt "b"]); (txt "2", [txt "c"])].
Proof.
  split; [exact good_file_ok|]. split; [unfold no_rotation; cbn; intros K; injection K; intros; lra|]. split; [exact nan_file_ok|].
  split; [unfold no_rotation; cbn; intros K; injection K; intros; lra|]. split; [|split; [reflexivity|vm_compute; reflexivity]].
  exists [[]; []], [[]; []]. split; [apply pieces_sep; vm_compute; reflexivity|]. split; [apply trim_all; reflexivity|reflexivity].
Qed.
'''),
]
gen('PropData.v',plan)
