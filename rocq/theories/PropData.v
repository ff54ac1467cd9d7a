(* Properties C55-C62: the datasets.
   Vocabulary (DataSpec.v, DatasetSpec.v, ImageSpec.v): Gap = time difference of two stamps; candidate = a pair within the search radius;
   closer = the order in which pairs are preferred; Association = the matching; Lines / Rows / Fields / Words = the lines of
   a text and their entries; DictOf = dictionary of a list of pairs; Sampled = the windows of a sequence; PoseAt = a pose in a file.
   value = what float(s) gives for each string (any function); rnd = the rounding of float arithmetic (any function). *)
From Coq Require Import Ascii String List Arith Bool Reals ZArith Lia Lra Sorting.Sorted.
From Verif Require Import Res MatSpec DataUtilsModel TensorModel TextModel TumModel DatasetModel ImageModel DataSpec DatasetSpec ImageSpec
  TextProofs FileProofs PoseFileProofs DataPropProofs ImageProofs.
Import ListNotations.
Local Open Scope nat_scope.

(* ------------------------------------------------------------------ C55 *)
(* the result is the matching of the specification *)
Theorem C55_associate : forall rnd value offset maxd first second,
  NoDup first -> NoDup second -> readable value first -> readable value second ->
  exists m, associate rnd value first second offset maxd = Ok m /\ Association rnd value offset maxd first second m.
Proof. exact q_associate. Qed.
Print Assumptions C55_associate.

(* there is only one such matching *)
Theorem C55_associate_exactly : forall rnd value offset maxd first second m,
  NoDup first -> NoDup second -> readable value first -> readable value second ->
  (associate rnd value first second offset maxd = Ok m <-> Association rnd value offset maxd first second m).
Proof. exact q_associate_iff. Qed.
Print Assumptions C55_associate_exactly.

(* no admissible pair of unused stamps remains *)
Theorem C55_maximal : forall rnd value offset maxd first second m a b,
  NoDup first -> NoDup second -> readable value first -> readable value second ->
  associate rnd value first second offset maxd = Ok m -> candidate rnd value offset maxd first second a b -> In a (map fst m) \/ In b (map snd m).
Proof. exact q_maximal. Qed.
Print Assumptions C55_maximal.

(* the order of the keys does not matter *)
Theorem C55_input_order : forall rnd value offset maxd first second first' second',
  NoDup first -> NoDup second -> readable value first -> readable value second ->
  NoDup first' -> NoDup second' -> (forall a, In a first <-> In a first') -> (forall b, In b second <-> In b second') ->
  associate rnd value first second offset maxd = associate rnd value first' second' offset maxd.
Proof. exact q_associate_order. Qed.
Print Assumptions C55_input_order.

(* sorted by time, when the text order of the keys is the order of time (stamps of equal length) *)
Theorem C55_sorted_by_time : forall rnd value offset maxd first second m,
  NoDup first -> NoDup second -> readable value first -> readable value second ->
  associate rnd value first second offset maxd = Ok m ->
  (forall a b x y, In a first -> In b first -> alpha_lt a b -> value a = Ok (Some x) -> value b = Ok (Some y) -> (x <= y)%R) ->
  forall i j a b a' b' x y, i <= j -> nth_error m i = Some (a, b) -> nth_error m j = Some (a', b') -> value a = Ok (Some x) -> value a' = Ok (Some y) -> (x <= y)%R.
Proof. exact q_sorted_by_time. Qed.
Print Assumptions C55_sorted_by_time.

(* in general the pairs are sorted as texts: 10 comes before 9 *)
Theorem C55_sorted_by_time_refuted : exists m, associate (fun x => x) small_number nine_ten nine_ten 0 (/ 2) = Ok m /\
  exists a b a' b' x y, nth_error m 0 = Some (a, b) /\ nth_error m 1 = Some (a', b') /\ small_number a = Ok (Some x) /\ small_number a' = Ok (Some y) /\ (y < x)%R.
Proof. exact r_sorted_by_time. Qed.
Print Assumptions C55_sorted_by_time_refuted.

(* a key that is not a number *)
Theorem C55_not_a_number : forall rnd value offset maxd first second e,
  first <> [] -> second <> [] -> (forall k e', value k = Err e' -> e' = e) ->
  (exists k, (In k first \/ In k second) /\ value k = Err e) -> associate rnd value first second offset maxd = Err e.
Proof. exact q_associate_err. Qed.
Print Assumptions C55_not_a_number.

Theorem C55_empty : forall rnd value offset maxd first second,
  first = [] \/ second = [] -> associate rnd value first second offset maxd = Ok [].
Proof. exact q_associate_empty. Qed.
Print Assumptions C55_empty.

(* TUM: colour and depth frames *)
Theorem C55_rgbd : forall rnd value maxd rgbf depthf start e,
  let rgb := read_file_list rgbf start e in let depth := read_file_list depthf None None in
  readable value (keys rgb) -> readable value (keys depth) ->
  exists a m, find_associations rnd value maxd rgbf depthf None start e = Ok (a, map (fun p => (fst p, snd p, None)) m) /\
    Association rnd value 0 maxd (keys rgb) (keys depth) m /\
    Forall2 (fun p x => exists c cs d ds, In (fst p, c :: cs) rgb /\ In (snd p, d :: ds) depth /\ x = (c, d, None)) m a.
Proof. exact q_find_rgbd. Qed.
Print Assumptions C55_rgbd.

(* TUM: colour, depth and pose; the pose is matched with the depth frame *)
Theorem C55_rgbd_pose : forall rnd value maxd rgbf depthf posef start e poses,
  let rgb := read_file_list rgbf start e in let depth := read_file_list depthf None None in
  readable value (keys rgb) -> readable value (keys depth) -> read_trajectory value posef = Ok poses -> readable value (keys poses) ->
  exists a ts m1 m2, find_associations rnd value maxd rgbf depthf (Some posef) start e = Ok (a, ts) /\
    Association rnd value 0 maxd (keys rgb) (keys depth) m1 /\ Association rnd value 0 maxd (map snd m1) (keys poses) m2 /\
    Forall2 (fun p t => exists r, In (r, fst p) m1 /\ t = (r, fst p, Some (snd p))) m2 ts /\
    Forall2 (fun t x => exists r d p c cs f fs q, t = (r, d, Some p) /\ In (r, c :: cs) rgb /\ In (d, f :: fs) depth /\ In (p, q) poses /\ x = (c, f, Some q)) ts a.
Proof. exact q_find_rgbd_pose. Qed.
Print Assumptions C55_rgbd_pose.

(* stamps that are returned together are within the search radius *)
Theorem C55_rgbd_pose_gaps : forall rnd value maxd rgbf depthf posef start e poses a ts r d p,
  readable value (keys (read_file_list rgbf start e)) -> readable value (keys (read_file_list depthf None None)) ->
  read_trajectory value posef = Ok poses -> readable value (keys poses) ->
  find_associations rnd value maxd rgbf depthf (Some posef) start e = Ok (a, ts) -> In (r, d, Some p) ts ->
  (exists g, Gap rnd value 0 r d g /\ (g < maxd)%R) /\ (exists g, Gap rnd value 0 d p g /\ (g < maxd)%R).
Proof. exact q_find_gaps. Qed.
Print Assumptions C55_rgbd_pose_gaps.

Example C55_witness : NoDup nine_ten /\ readable small_number nine_ten /\ candidate (fun x => x) small_number 0 (/ 2) nine_ten nine_ten (txt "9") (txt "9") /\
  ~ readable small_number [txt "x"].
Proof.
  destruct nine_ten_ok as [N Rd]. split; [exact N|]. split; [exact Rd|]. split.
  - split; [cbn; auto|]. split; [cbn; auto|]. exists 0%R. split; [|lra]. exists 9%R, 9%R. split; [reflexivity|]. split; [reflexivity|]. replace (9 - (9 + 0))%R with 0%R by lra. now rewrite Rabs_R0.
  - intros K. destruct (K (txt "x") (or_introl eq_refl)) as (v & E). discriminate.
Qed.

(* ------------------------------------------------------------------ C56 *)
(* the windows of a sequence of n frames *)
Theorem C56_windows : forall L d s n,
  0 < L -> 0 < s -> exists ws, windows L d s n = Ok ws /\
  forall k w, nth_error ws k = Some w <-> k * s + (L - 1) * (d + 1) < n /\ w = map (fun i => k * s + i * (d + 1)) (seq 0 L).
Proof. exact q_windows. Qed.
Print Assumptions C56_windows.

(* TUM: colours, depths, stamps, names and poses are all cut into the same windows *)
Theorem C56_tum : forall w dir name load assoc stamps fs,
  0 < w_len w -> 0 < w_stride w -> length stamps = length assoc ->
  Forall2 (tum_frame dir name load) assoc fs ->
  exists r nm, tum_sequence w dir name load assoc stamps = Ok r /\
    Sampled (w_len w) (w_dil w) (w_stride w) (map (fun f => fst (fst (fst f))) fs) (t_color r) /\
    Sampled (w_len w) (w_dil w) (w_stride w) (map (fun f => snd (fst (fst f))) fs) (t_depth r) /\
    Sampled (w_len w) (w_dil w) (w_stride w) stamps (t_stamps r) /\
    Sampled (w_len w) (w_dil w) (w_stride w) (map snd fs) nm /\ t_names r = map (join (txt ", ")) nm /\
    (if load then Sampled (w_len w) (w_dil w) (w_stride w) (map (fun f => snd (fst f)) fs) (t_poses r) else t_poses r = []).
Proof. exact q_tum. Qed.
Print Assumptions C56_tum.

(* several sequences: one after the other *)
Theorem C56_tum_sequences : forall w load seqs rs,
  Forall2 (fun s r => match s with (dir, name, assoc, stamps) => tum_sequence w dir name load assoc stamps = Ok r end) seqs rs ->
  tum_all w load seqs = Ok (mkTum (concat (map t_color rs)) (concat (map t_depth rs)) (concat (map t_names rs)) (concat (map t_stamps rs)) (concat (map t_poses rs))).
Proof. exact q_tum_all. Qed.
Print Assumptions C56_tum_sequences.

Theorem C56_tum_bad_file : forall w dir name assoc stamps c d p,
  In (c, d, p) assoc -> ~ ((exists x, c = txt "rgb" ++ x) /\ (exists y, d = txt "depth" ++ y)) ->
  tum_sequence w dir name false assoc stamps = Err ValueError.
Proof. exact q_tum_bad_name. Qed.
Print Assumptions C56_tum_bad_file.

(* ICL: the same; the pose lines are those of C57 *)
Theorem C56_icl : forall tr w load lines fs plines,
  0 < w_len w -> 0 < w_stride w -> match w_end w with Some e => (0 <= e)%Z | None => True end ->
  FileLines (tr_assoc tr) lines -> FileLines (tr_poses tr) plines ->
  Forall2 (fun line f => IclFrame line (fst f) (snd f)) (icl_used tr w lines) fs -> (load = true -> (length fs - 1) * 4 <= length plines) ->
  exists r nm, icl_traj w load tr = Ok r /\
    Sampled (w_len w) (w_dil w) (w_stride w) (map (fun f => icl_path (tr_dir tr) (fst f)) fs) (i_color r) /\
    Sampled (w_len w) (w_dil w) (w_stride w) (map (fun f => icl_path (tr_dir tr) (snd f)) fs) (i_depth r) /\
    Sampled (w_len w) (w_dil w) (w_stride w) (map (fun f => icl_name (tr_name tr) (snd f)) fs) nm /\ i_names r = map (join (txt ", ")) nm /\
    (if load then exists ls, Sampled (w_len w) (w_dil w) (w_stride w) (map (fun j => j * 4) (seq 0 (length fs))) ls /\ i_poses r = map (fun l => (tr_posefile tr, l)) ls else i_poses r = []).
Proof. exact q_icl. Qed.
Print Assumptions C56_icl.

Theorem C56_icl_sequences : forall w load trs rs,
  Forall2 (fun t r => icl_traj w load t = Ok r) trs rs ->
  icl_all w load trs = Ok (mkIcl (concat (map i_color rs)) (concat (map i_depth rs)) (concat (map i_names rs)) (concat (map i_poses rs))).
Proof. exact q_icl_all. Qed.
Print Assumptions C56_icl_sequences.

(* accepted arguments and their defaults *)
Theorem C56_arguments : forall L d s st e,
  args_ok L d s st e ->
  window_args (AInt L) (arg d) (arg s) (arg st) (arg e) = Ok (mkW (Z.to_nat L) (Z.to_nat (def d 0)) (Z.to_nat (def s (L * (def d 0 + 1)))) (Z.to_nat (def st 0)) e).
Proof. exact q_args_ok. Qed.
Print Assumptions C56_arguments.

(* every other combination of integers is rejected *)
Theorem C56_bad_values : forall L d s st e,
  ~ args_ok L d s st e -> window_args (AInt L) (arg d) (arg s) (arg st) (arg e) = Err ValueError.
Proof. exact q_args_values. Qed.
Print Assumptions C56_bad_values.

Theorem C56_bad_types : forall L d s st e,
  L = ANone \/ L = ABad \/ d = ABad \/ s = ABad -> window_args L d s st e = Err TypeError.
Proof. exact q_args_types. Qed.
Print Assumptions C56_bad_types.

Theorem C56_bad_range_types : forall L d s st e,
  st = ABad \/ e = ABad -> (exists x, window_args (AInt L) (arg d) (arg s) ANone ANone = Ok x) ->
  window_args (AInt L) (arg d) (arg s) st e = Err TypeError.
Proof. exact q_args_range_types. Qed.
Print Assumptions C56_bad_range_types.

(* with the default stride consecutive windows share no frame *)
Theorem C56_default_stride : forall L d k i j,
  i < L -> j < L -> 0 < L -> k * (L * (d + 1)) + i * (d + 1) < (k + 1) * (L * (d + 1)) + j * (d + 1).
Proof. exact q_default_stride. Qed.
Print Assumptions C56_default_stride.

(* stride 0 passes the validation and fails in range() *)
Theorem C56_stride_zero_refuted : forall L d n,
  windows L d 0 n = Err ValueError.
Proof. exact q_stride0. Qed.
Print Assumptions C56_stride_zero_refuted.

(* so does seqlen 0, with IndexError *)
Theorem C56_seqlen_zero_refuted : forall d s n,
  0 < s -> windows 0 d s n = if n =? 0 then Ok [] else Err IndexError.
Proof. exact q_seqlen0. Qed.
Print Assumptions C56_seqlen_zero_refuted.

Example C56_witness : args_ok 2 None (Some 3%Z) None None /\ args_ok 0 None (Some 1%Z) None None /\ args_ok 2 None (Some 0%Z) None None /\ ~ args_ok 2 (Some (-1)%Z) None None None /\
  windows 2 1 3 9 = Ok [[0; 2]; [3; 5]; [6; 8]] /\
  tum_frame (txt "d") (txt "n") true (txt "rgb/1.png", txt "depth/1.png", Some []) (txt "d/rgb/1.png", txt "d/depth/1.png", [], txt "n//1").
Proof.
  split; [unfold args_ok; cbn; lia|]. split; [unfold args_ok; cbn; lia|]. split; [unfold args_ok; cbn; lia|]. split; [unfold args_ok; cbn; lia|]. split; [reflexivity|].
  exists (txt "/1.png"), (txt "/1.png"), []. repeat split.
Qed.

(* ------------------------------------------------------------------ C57 *)
(* with start = 0: the pose of the frame of line j is pose j of the file.  Missing: start > 0 (C57_start_refuted) *)
Theorem C57_start_zero_partial : forall value tr w lines fs plines (pose : nat -> list row4),
  0 < w_len w -> 0 < w_stride w -> w_start w = 0 -> match w_end w with Some e => (0 <= e)%Z | None => True end ->
  FileLines (tr_assoc tr) lines -> FileLines (tr_poses tr) plines ->
  Forall2 (fun line f => IclFrame line (fst f) (snd f)) (icl_used tr w lines) fs ->
  (forall j, j < length fs -> PoseAt value plines (j * 4) (pose j)) ->
  exists r, icl_traj w true tr = Ok r /\
    forall k c, nth_error (i_color r) k = Some c -> exists frames ls,
      nth_error (i_poses r) k = Some (tr_posefile tr, ls) /\
      Forall2 (fun i j => j = k * w_stride w + i * (w_dil w + 1)) (seq 0 (w_len w)) frames /\
      Forall2 (fun j x => exists line f d, nth_error lines j = Some line /\ IclFrame line f d /\ x = icl_path (tr_dir tr) f) frames c /\
      load_poses value (tr_poses tr) ls = Ok (map pose frames).
Proof. exact q_icl_start0. Qed.
Print Assumptions C57_start_zero_partial.

(* in general: the frames are those of the lines start, start+1, ..., the pose lines are 0, 4, 8, ... *)
Theorem C57_pose_lines_partial : forall tr w load lines fs plines,
  0 < w_len w -> 0 < w_stride w -> match w_end w with Some e => (0 <= e)%Z | None => True end ->
  FileLines (tr_assoc tr) lines -> FileLines (tr_poses tr) plines ->
  Forall2 (fun line f => IclFrame line (fst f) (snd f)) (icl_used tr w lines) fs -> (load = true -> (length fs - 1) * 4 <= length plines) ->
  exists r nm, icl_traj w load tr = Ok r /\
    Sampled (w_len w) (w_dil w) (w_stride w) (map (fun f => icl_path (tr_dir tr) (fst f)) fs) (i_color r) /\
    Sampled (w_len w) (w_dil w) (w_stride w) (map (fun f => icl_path (tr_dir tr) (snd f)) fs) (i_depth r) /\
    Sampled (w_len w) (w_dil w) (w_stride w) (map (fun f => icl_name (tr_name tr) (snd f)) fs) nm /\ i_names r = map (join (txt ", ")) nm /\
    (if load then exists ls, Sampled (w_len w) (w_dil w) (w_stride w) (map (fun j => j * 4) (seq 0 (length fs))) ls /\ i_poses r = map (fun l => (tr_posefile tr, l)) ls else i_poses r = []).
Proof. exact q_icl. Qed.
Print Assumptions C57_pose_lines_partial.

(* with start = 1 the frame of line 1 is returned with pose 0 *)
Theorem C57_start_refuted : exists r ls, icl_traj (mkW 1 0 1 1 None) true (two_traj two_poses) = Ok r /\
  nth_error (i_color r) 0 = Some [txt "d/rgb/1.png"] /\ nth_error (i_poses r) 0 = Some (txt "p", ls) /\
  load_poses small_value two_poses ls = Ok [pose0] /\ load_poses small_value two_poses [4] = Ok [pose1] /\ pose0 <> pose1.
Proof. exact r_icl_pose. Qed.
Print Assumptions C57_start_refuted.

(* a pose file that is one pose short is accepted; the last frame then has no pose *)
Theorem C57_short_pose_file_refuted : exists file r, let tr := two_traj file in icl_traj (mkW 1 0 1 0 None) true tr = Ok r /\
  nth_error (i_color r) 1 = Some [txt "d/rgb/1.png"] /\ nth_error (i_poses r) 1 = Some (txt "p", [4]) /\ load_poses small_value file [4] = Ok [].
Proof. exact r_icl_short. Qed.
Print Assumptions C57_short_pose_file_refuted.

Example C57_witness : FileLines two_poses two_poses_lines /\ PoseAt small_value two_poses_lines 0 pose0 /\ PoseAt small_value two_poses_lines 4 pose1 /\
  (exists lines, FileLines two_frames lines /\ Forall2 (fun line f => IclFrame line (fst f) (snd f)) (icl_used (two_traj two_poses) (mkW 2 0 1 0 None) lines)
    [(txt "rgb/0.png", txt "depth/0.png"); (txt "rgb/1.png", txt "depth/1.png")]).
Proof.
  split; [exact two_poses_file|]. split; [exact two_poses_0|]. split; [exact two_poses_1|].
  exists [txt "0 depth/0.png 0 rgb/0.png"; txt "1 depth/1.png 1 rgb/1.png"]. split; [apply filelines_eq'; vm_compute; reflexivity|].
  constructor; [|constructor; [|constructor]]; cbn [fst snd]; do 3 eexists.
  - exists (txt "/0.png"), (txt "/0.png"). split; [apply words_eq'; vm_compute; reflexivity|]. split; reflexivity.
  - exists (txt "/1.png"), (txt "/1.png"). split; [apply words_eq'; vm_compute; reflexivity|]. split; reflexivity.
Qed.

(* ------------------------------------------------------------------ C58 *)
(* one pose per requested line, in order *)
Theorem C58_poses : forall value file lines starts poses,
  FileLines file lines -> Spaced starts -> Forall2 (PoseAt value lines) starts poses ->
  load_poses value file starts = Ok poses.
Proof. exact q_load_poses. Qed.
Print Assumptions C58_poses.

(* any request: the order and repetitions of the requested lines do not matter *)
Theorem C58_any_request : forall value file lines starts sorted poses,
  FileLines file lines -> Spaced sorted -> (forall s, In s starts <-> In s sorted) ->
  Forall2 (PoseAt value lines) sorted poses -> load_poses value file starts = Ok poses.
Proof. exact q_load_any_order. Qed.
Print Assumptions C58_any_request.

(* so the poses come in file order, not in the order requested *)
Theorem C58_request_order_refuted : exists starts poses, Forall2 (PoseAt small_value two_poses_lines) starts poses /\ FileLines two_poses two_poses_lines /\
  load_poses small_value two_poses starts <> Ok poses.
Proof. exact r_load_order. Qed.
Print Assumptions C58_request_order_refuted.

(* a line without four entries *)
Theorem C58_faulty_line : forall value file lines s k l,
  FileLines file lines -> k < 3 -> nth_error lines (s + k) = Some l -> (forall ws, Words l ws -> length ws <> 4) ->
  (forall j x, j < k -> nth_error lines (s + j) = Some x -> exists ws, Words x ws /\ length ws = 4) -> load_poses value file [s] = Err ValueError.
Proof. exact q_load_faulty. Qed.
Print Assumptions C58_faulty_line.

(* lines past the end of the file are silently ignored *)
Theorem C58_past_end_refuted : forall value file lines starts,
  FileLines file lines -> (forall s, In s starts -> length lines <= s) -> load_poses value file starts = Ok [].
Proof. exact q_load_past_end. Qed.
Print Assumptions C58_past_end_refuted.

(* so is a pose that the end of the file cuts off *)
Theorem C58_cut_refuted : forall value file lines s l0,
  FileLines file lines -> length lines = s + 1 -> nth_error lines s = Some l0 -> (exists r, NumRow value l0 r) -> load_poses value file [s] = Ok [].
Proof. exact q_load_cut. Qed.
Print Assumptions C58_cut_refuted.

Example C58_witness : FileLines two_poses two_poses_lines /\ Spaced [0; 4] /\ Forall2 (PoseAt small_value two_poses_lines) [0; 4] [pose0; pose1] /\ pose0 <> pose1.
Proof.
  split; [exact two_poses_file|]. split; [constructor; [lia|constructor]|]. split; [constructor; [exact two_poses_0|constructor; [exact two_poses_1|constructor]]|].
  unfold pose0, pose1. intros K. injection K. intros. lra.
Qed.

(* ------------------------------------------------------------------ C59 *)
(* a range that every scene contains: sample i has the frames start .. end - 1 of scene i.  Missing: end = -1 with scenes of different lengths (C59_lengths_refuted), ranges that a scene does not contain (C59_cut_refuted) *)
Theorem C59_range_partial : forall basedir (start e : nat) scs fss,
  start < e ->
  Forall2 (fun sc fs => e <= length (sc_lines sc) /\ frames_of basedir start (e - start) sc fs) scs fss ->
  exists d, scannet_new basedir (Z.of_nat start) (Z.of_nat e) scs = Ok d /\ sd_seqlen d = Z.of_nat (e - start) /\ sd_names d = map sc_name scs /\
    sd_intr d = map first_intr fss /\ sd_frames d = fss /\ forall i fs, nth_error fss i = Some fs -> scannet_frames d i = Ok fs.
Proof. exact q_scannet. Qed.
Print Assumptions C59_range_partial.

(* end = -1 with scenes of one length *)
Theorem C59_whole_scenes_partial : forall basedir (start e : nat) scs fss,
  start < e -> scs <> [] ->
  Forall2 (fun sc fs => length (sc_lines sc) = e /\ frames_of basedir start (e - start) sc fs) scs fss ->
  exists d, scannet_new basedir (Z.of_nat start) (-1) scs = Ok d /\ sd_seqlen d = Z.of_nat (e - start) /\ sd_names d = map sc_name scs /\
    sd_intr d = map first_intr fss /\ sd_frames d = fss /\ forall i fs, nth_error fss i = Some fs -> scannet_frames d i = Ok fs.
Proof. exact q_scannet_full. Qed.
Print Assumptions C59_whole_scenes_partial.

Theorem C59_arguments : forall basedir start e scs,
  (start < 0 \/ (e <> -1 /\ e <= start))%Z -> scannet_new basedir start e scs = Err ValueError.
Proof. exact q_scannet_args. Qed.
Print Assumptions C59_arguments.

(* a scene with fewer frames than the range has *)
Theorem C59_too_short : forall basedir (start e : nat) pre fss sc post,
  start < e ->
  Forall2 (fun sc fs => e <= length (sc_lines sc) /\ frames_of basedir start (e - start) sc fs) pre fss ->
  length (sc_lines sc) < e - start -> scannet_new basedir (Z.of_nat start) (Z.of_nat e) (pre ++ sc :: post) = Err ValueError.
Proof. exact q_scannet_too_short. Qed.
Print Assumptions C59_too_short.

(* end = -1 with two scenes: sample 0 has as many frames as the last scene, or IndexError *)
Theorem C59_lengths_refuted : forall basedir sc1 sc2 fs1 fs2,
  0 < length (sc_lines sc1) -> 0 < length (sc_lines sc2) ->
  Forall2 (scene_frame basedir) (sc_lines sc1) fs1 -> Forall2 (scene_frame basedir) (sc_lines sc2) fs2 ->
  exists d, scannet_new basedir 0 (-1) [sc1; sc2] = Ok d /\
    scannet_frames d 0 = (if length fs1 <? length fs2 then Err IndexError else Ok (firstn (length fs2) fs1)).
Proof. exact r_scannet_two. Qed.
Print Assumptions C59_lengths_refuted.

(* a scene that ends inside the range is accepted, and reading it raises IndexError *)
Theorem C59_cut_refuted : forall basedir (start e : nat) sc fs,
  start < length (sc_lines sc) -> length (sc_lines sc) < e -> e - start <= length (sc_lines sc) ->
  frames_of basedir start (e - start) sc fs -> exists d, scannet_new basedir (Z.of_nat start) (Z.of_nat e) [sc] = Ok d /\ scannet_frames d 0 = Err IndexError.
Proof. exact r_scannet_cut. Qed.
Print Assumptions C59_cut_refuted.

(* a scene that ends before start: IndexError instead of ValueError *)
Theorem C59_past_refuted : forall basedir (start e : nat) sc,
  length (sc_lines sc) <= start -> start < e -> e - start <= length (sc_lines sc) ->
  scannet_new basedir (Z.of_nat start) (Z.of_nat e) [sc] = Err IndexError.
Proof. exact r_scannet_past. Qed.
Print Assumptions C59_past_refuted.

Example C59_witness : scene_frame (txt "b") one_line one_frame /\ frames_of (txt "b") 1 2 (mkScene (txt "s") [one_line; one_line; one_line]) [one_frame; one_frame] /\
  (let sc := mkScene (txt "s") [one_line; one_line] in 1 < length (sc_lines sc) /\ length (sc_lines sc) < 3 /\ 3 - 1 <= length (sc_lines sc)).
Proof. split; [exact one_line_ok|]. split; [|cbn; lia]. unfold frames_of. cbn [sc_lines skipn firstn]. constructor; [exact one_line_ok|constructor; [exact one_line_ok|constructor]]. Qed.

(* ------------------------------------------------------------------ C60 *)
(* each pixel on its own, by the table class20 *)
Theorem C60_remap : forall img,
  nyu40_to_scannet20 img = map (map class20) img.
Proof. exact q_remap. Qed.
Print Assumptions C60_remap.

(* the table keeps name and colour of the class; classes without a counterpart become 0 *)
Theorem C60_palettes : forall x name c,
  nth_error palette_nyu40 x = Some (name, c) ->
  (forall k, position name palette_scannet20 = Some k -> nth_error palette_scannet20 k = Some (name, c) /\ class20 x = k) /\
  (position name palette_scannet20 = None -> class20 x = 0).
Proof. exact q_palettes_agree. Qed.
Print Assumptions C60_palettes.

Theorem C60_range : forall x,
  x <= 40 -> class20 x <= 20.
Proof. exact q_class20_range. Qed.
Print Assumptions C60_range.

Theorem C60_onto : forall k,
  k <= 20 -> exists x, x <= 40 /\ class20 x = k.
Proof. exact q_class20_onto. Qed.
Print Assumptions C60_onto.

(* labels above 40 are kept, not sent to 0 *)
Theorem C60_other_labels_refuted : forall x,
  40 < x -> nyu40_to_scannet20 [[x]] = [[x]].
Proof. exact r_remap_large. Qed.
Print Assumptions C60_other_labels_refuted.

(* with a list of colours: each pixel gets the colour of its label.  Missing: the documented argument, a dictionary (C60_paint_dict_refuted) *)
Theorem C60_paint_partial : forall pred colors,
  create_label_image pred (PColors colors) = Ok (map (map (fun x => nth x colors (0, 0, 0))) pred).
Proof. exact q_label_image. Qed.
Print Assumptions C60_paint_partial.

(* with the documented argument, an OrderedDict, the call fails *)
Theorem C60_paint_dict_refuted : forall pred names r x,
  In r pred -> In x r -> x < length names -> create_label_image pred (PDict names) = Err ValueError.
Proof. exact r_label_image_dict. Qed.
Print Assumptions C60_paint_dict_refuted.

Example C60_witness : nth_error palette_nyu40 14 = Some ("desk"%string, (247, 182, 210)) /\ position "desk" palette_scannet20 = Some 13 /\ class20 14 = 13 /\ class20 13 = 0 /\ class20 41 = 41.
Proof. repeat split. Qed.

(* ------------------------------------------------------------------ C61 *)
(* same shape, values in [0, 1] *)
Theorem C61_range : forall rnd x,
  Rounds rnd -> exists y, normalize_image rnd (Img x) = Ok y /\ dims y = dims x /\
  forall ix, (0 <= at_ x ix <= 255 -> 0 <= at_ y ix <= 1)%R.
Proof. exact p_normalize_range. Qed.
Print Assumptions C61_range.

Theorem C61_order : forall rnd x y,
  Rounds rnd -> normalize_image rnd (Img x) = Ok y -> forall ix jx, (at_ x ix <= at_ x jx -> at_ y ix <= at_ y jx)%R.
Proof. exact p_normalize_order. Qed.
Print Assumptions C61_order.

(* the bytes can be recovered from the result *)
Theorem C61_recover : forall rnd x y,
  (forall z, (0 <= z <= 1 -> Rabs (rnd z - z) <= / 1024)%R) -> normalize_image rnd (Img x) = Ok y ->
  forall ix (n : nat), n <= 255 -> at_ x ix = INR n -> (Rabs (255 * at_ y ix - INR n) < / 2)%R.
Proof. exact p_normalize_exact. Qed.
Print Assumptions C61_recover.

Theorem C61_channels_first : forall x pre h w c,
  shape x = pre ++ [h; w; c] ->
  exists y, channels_first (Img x) = Ok y /\ shape y = pre ++ [c; h; w] /\ forall p i j k, entry3 y p k i j = entry3 x p i j k.
Proof. exact p_channels_first. Qed.
Print Assumptions C61_channels_first.

Theorem C61_channels_inverse : forall x y,
  channels_first (Img x) = Ok y -> dims (channels_last y) = dims x /\ forall ix, length ix = length (dims x) -> at_ (channels_last y) ix = at_ x ix.
Proof. exact p_channels_inverse. Qed.
Print Assumptions C61_channels_inverse.

Theorem C61_rank : forall x,
  length (shape x) < 3 -> channels_first (Img x) = Err ValueError.
Proof. exact p_channels_rank. Qed.
Print Assumptions C61_rank.

Theorem C61_types : forall rnd,
  normalize_image rnd ImgBad = Err TypeError /\ channels_first ImgBad = Err TypeError.
Proof. exact p_image_types. Qed.
Print Assumptions C61_types.

Example C61_witness : Rounds rnd32 /\ (forall z, (0 <= z <= 1 -> Rabs (rnd32 z - z) <= / 1024)%R) /\ shape (mkTen [3; 4; 5; 2] (fun _ => 0%R)) = [2] ++ [5; 4; 3].
Proof. split; [exact rnd32_rounds|]. split; [exact rnd32_close|reflexivity]. Qed.

(* ------------------------------------------------------------------ C62 *)
(* the dictionary of the selected data lines with at least two entries *)
Theorem C62_file_list : forall file rows start e,
  Rows file rows ->
  DictOf (entries (firstn (match e with None => length rows | Some z => if (z <? 0)%Z then Z.to_nat (Z.of_nat (length rows) + z) else Z.to_nat z end - match start with Some k => k | None => 0 end)
                    (skipn (match start with Some k => k | None => 0 end) rows)))
         (read_file_list file start e).
Proof. exact q_read_file_list. Qed.
Print Assumptions C62_file_list.

(* every file has exactly one list of rows *)
Theorem C62_rows : forall file,
  exists rows, Rows file rows /\ forall rows', Rows file rows' -> rows' = rows.
Proof. exact q_rows_exist. Qed.
Print Assumptions C62_rows.

(* files with the same rows give the same result, whatever the separators *)
Theorem C62_separators : forall file file' start e,
  (forall rows, Rows file rows <-> Rows file' rows) -> read_file_list file start e = read_file_list file' start e.
Proof. exact q_separators. Qed.
Print Assumptions C62_separators.

(* trajectory files: rows without a rotation are dropped.  Missing: rows with NaN are not skipped (C62_nan_refuted) *)
Theorem C62_trajectory_partial : forall value file rows kept,
  TrajFile value file rows -> Without (fun r => no_rotation (snd r)) rows kept ->
  Forall (fun r => Forall (fun v => v <> None) (snd r)) kept ->
  exists d, read_trajectory value file = Ok d /\ DictOf (map (fun r => (fst r, map num (firstn 7 (snd r)))) kept) d.
Proof. exact q_read_trajectory. Qed.
Print Assumptions C62_trajectory_partial.

Theorem C62_trajectory_matrix_partial : forall value file rows kept (m : text * list (option R) -> mat),
  TrajFile value file rows -> Without (fun r => no_rotation (snd r)) rows kept ->
  Forall (fun r => Forall (fun v => v <> None) (snd r) /\ 7 <= length (snd r)) kept ->
  (forall r, In r kept -> let v := map num (firstn 7 (snd r)) in transform44 (fun i => nth i v 0%R) (fun i => nth (3 + i) v 0%R) = Ok (m r)) ->
  exists d, read_trajectory_matrix value file = Ok d /\ DictOf (map (fun r => (fst r, m r)) kept) d.
Proof. exact q_read_trajectory_matrix. Qed.
Print Assumptions C62_trajectory_matrix_partial.

(* a row with NaN: NameError instead of a warning *)
Theorem C62_nan_refuted : forall value file rows r,
  TrajFile value file rows -> In r rows -> ~ no_rotation (snd r) -> In None (snd r) ->
  read_trajectory value file = Err NameError /\ read_trajectory_matrix value file = Err NameError.
Proof. exact r_trajectory_nan. Qed.
Print Assumptions C62_nan_refuted.

(* a line of blanks: IndexError *)
Theorem C62_blank_line_refuted : forall value file ls,
  Lines file ls -> (exists line, In line ls /\ data_line line = true /\ Fields line []) ->
  (forall line, In line ls -> data_line line = true -> Fields line [] \/ exists stamp vals, TrajLine value line stamp (map Some vals)) ->
  read_trajectory value file = Err IndexError.
Proof. exact r_trajectory_blank. Qed.
Print Assumptions C62_blank_line_refuted.

Theorem C62_not_a_number : forall value file ls line p ps cores f,
  (forall g e, value g = Err e -> e = ValueError) -> Lines file ls -> In line ls -> data_line line = true ->
  Pieces separator line (p :: ps) -> Forall2 Trimmed ps cores -> In f cores -> f <> [] -> value f = Err ValueError ->
  read_trajectory value file = Err ValueError.
Proof. exact q_trajectory_bad. Qed.
Print Assumptions C62_not_a_number.

Example C62_witness : TrajFile small_number good_file [(txt "9", map Some [1; 0; 0; 0; 0; 0; 1]%R)] /\
  ~ no_rotation (map Some [1; 0; 0; 0; 0; 0; 1]%R) /\
  TrajFile small_number nan_file [(txt "9", [None; Some 0; Some 0; Some 0; Some 0; Some 0; Some 1]%R)] /\
  ~ no_rotation [None; Some 0; Some 0; Some 0; Some 0; Some 0; Some 1]%R /\
  Fields (txt " ") [] /\ data_line (txt " ") = true /\
  read_file_list (txt "1 a,b" ++ [newline] ++ txt "2 c") None None = [(txt "1", [txt "a"; txt "b"]); (txt "2", [txt "c"])].
Proof.
  split; [exact good_file_ok|]. split; [unfold no_rotation; cbn; intros K; injection K; intros; lra|]. split; [exact nan_file_ok|].
  split; [unfold no_rotation; cbn; intros K; injection K; intros; lra|]. split; [|split; [reflexivity|vm_compute; reflexivity]].
  exists [[]; []], [[]; []]. split; [apply pieces_sep; vm_compute; reflexivity|]. split; [apply trim_all; reflexivity|reflexivity].
Qed.
