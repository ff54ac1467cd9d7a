(* Model of __getitem__ of the three datasets: gradslam/datasets/tum.py:337-515, icl.py:378-533,
   scannet.py:195-394.  Image decoding (imageio), number parsing of whole files (np.loadtxt) and cv2.resize are
   external and given by [io]; casts between float types are not modelled, nor are negative heights and widths. *)
From Coq Require Import Reals ZArith Ascii String List Arith Bool.
From Verif Require Import Res MatSpec TextModel TumModel TensorModel LinAlgModel DataUtilsModel ImageModel GeomModel IcpModel DatasetModel.
Import ListNotations.
Local Open Scope nat_scope.

(* external: imageio.imread as an array of floats (color, depth) or of integers (labels), open(path).readlines() as the
   contents of the file, np.loadtxt, cv2.resize(x, (width, height)) with INTER_LINEAR and INTER_NEAREST *)
Record io : Type := mkIo {
  rd_color : text -> res (ten R); rd_depth : text -> res (ten R); rd_label : text -> res (list (list nat));
  rd_text : text -> res text; rd_matrix : text -> res (ten R);
  cv_linear : nat -> nat -> ten R -> res (ten R); cv_nearest : nat -> nat -> ten R -> res (ten R);
  cv_labels : nat -> nat -> list (list nat) -> res (list (list nat)) }.
(* the options of the object (tum.py:137-153, icl.py:144-160, scannet.py:86-101); c_last is return_timestamps (TUM) or
   return_labels (ScanNet), unused by ICL *)
Record conf : Type := mkConf {
  c_height : nat; c_width : nat; c_first : bool; c_norm : bool;
  c_depth : bool; c_intr : bool; c_pose : bool; c_trans : bool; c_names : bool; c_last : bool }.
(* one element of the returned tuple *)
Inductive out := OTen (x : ten R) | OText (s : text).

(* self.colorfiles[idx] for any integer idx *)
Definition pyitem {A} (l : list A) (idx : Z) : res A :=
  let n := Z.of_nat (length l) in
  let i := (if idx <? 0 then idx + n else idx)%Z in
  if (i <? 0)%Z then Err IndexError else item l (Z.to_nat i).
(* torch.stack(l, 0) *)
Definition stack_0 (l : list (ten R)) : res (ten R) :=
  match l with
  | [] => Err RuntimeError
  | x :: _ => if forallb (fun y => if list_eq_dec Nat.eq_dec (dims y) (dims x) then true else false) l
              then Ok (mkTen (dims x ++ [length l]) (fun ix => at_ (nth (last ix 0) l x) (removelast ix)))
              else Err RuntimeError
  end.
(* a 1-d array *)
Definition vec_ten (l : list R) : ten R := mkTen [length l] (fun ix => match ix with [i] => nth i l 0%R | _ => 0%R end).

(* tum.py:436-457, icl.py:468-489, scannet.py:289-310: _preprocess_color; [rnd] rounds the division *)
Definition preprocess_color (rnd : R -> R) (o : io) (c : conf) (x : ten R) : res (ten R) :=
  let? y := cv_linear o (c_width c) (c_height c) x in
  let? y := (if c_norm c then normalize_image rnd (Img y) else Ok y) in
  if c_first c then channels_first (Img y) else Ok y.
(* tum.py:459-481, icl.py:491-513, scannet.py:312-334: _preprocess_depth *)
Definition preprocess_depth (o : io) (c : conf) (scaling : R) (x : ten R) : res (ten R) :=
  let? y := cv_nearest o (c_width c) (c_height c) x in
  let y := unsqueeze_m1 y in
  let? y := (if c_first c then channels_first (Img y) else Ok y) in
  Ok (tmap (fun v => v / scaling)%R y).
(* tum.py:483-499, icl.py:515-533, scannet.py:358-373: _preprocess_poses; the default of orthogonal_rotations is False *)
Definition preprocess_poses (p : ten R) : res (ten R) :=
  let? p0 := select_first p in
  let? n := size_0 p in
  relative_transformation (mkTen (dims p0 ++ [n]) (fun ix => at_ p0 (removelast ix))) p false.
(* scannet.py:375-394: _preprocess_label with np.expand_dims(label, -1); np.asarray(..., dtype=np.uint8) at scannet.py:250 *)
Definition preprocess_label (o : io) (c : conf) (scannet20 : bool) (x : list (list nat)) : res (ten R) :=
  let x := map (map (fun v => v mod 256)) x in
  let? y := cv_labels o (c_width c) (c_height c) x in
  let y := if scannet20 then nyu40_to_scannet20 y else y in
  Ok (mkTen [1; length (hd [] y); length y] (fun ix => match ix with
    | [_; j; i] => INR (nth j (nth i y []) 0) | _ => 0%R end)).

(* the loop over the frames of the sequence: tum.py:386-396, icl.py:424-434, scannet.py:231-241 *)
Definition read_frames (rnd : R -> R) (o : io) (c : conf) (scaling : R) (seqlen : nat) (color_path depth_path : list text)
    : res (list (ten R) * list (ten R)) :=
  let? fs := mapM (fun i =>
    let? p := item color_path i in let? x := rd_color o p in let? x := preprocess_color rnd o c x in
    let? y := (if c_depth c then let? p := item depth_path i in let? y := rd_depth o p in
                 let? y := preprocess_depth o c scaling y in Ok [y] else Ok []) in
    Ok (x, y)) (seq 0 seqlen) in
  Ok (map fst fs, concat (map snd fs)).
(* scale_intrinsics(...).unsqueeze(0): tum.py:341-343, icl.py:382-384, scannet.py:336-356 *)
Definition item_intrinsics (c : conf) (K : ten R) : res (ten R) :=
  let? k := scale_intrinsics K (INR (c_height c) / 480)%R (INR (c_width c) / 640)%R in Ok (unsqueeze_0 k).
(* the matrix with the given focal lengths and principal point: tum.py:338-340, icl.py:379-381 *)
Definition K_of (fx fy cx cy : R) : ten R := mat_ten (fun i j =>
  match i, j with 0, 0 => fx | 0, 2 => cx | 1, 1 => fy | 1, 2 => cy | 2, 2 => 1 | 3, 3 => 1 | _, _ => 0 end)%R.
(* tum.py:414-423, icl.py:452-461, scannet.py:269-278: the pose and transform outputs for poses ms *)
Definition pose_outputs (c : conf) (ps : list (ten R)) (ms : list mat) : res (list out) :=
  let? a := (if c_pose c then let? s := stack_0 ps in let? s := preprocess_poses s in Ok [OTen s] else Ok []) in
  let? b := (if c_trans c then let? t := poses_to_transforms ms in let? s := stack_0 (map mat_ten t) in Ok [OTen s] else Ok []) in
  Ok (a ++ b).
(* an output that is only returned on request *)
Definition on (b : bool) (r : res out) : res (list out) := if b then let? x := r in Ok [x] else Ok [].

(* tum.py:428-431: "rgb {} depth {} pose {}".format of one triple *)
Definition stamp_line (t : text * text * option text) : text :=
  let '(r, d, p) := t in
  txt "rgb " ++ r ++ txt " depth " ++ d ++ txt " pose " ++ match p with Some p => p | None => txt "None" end.
(* tum.py:501-515: _homogenPoses; the default eps of pointquaternion_to_homogeneous is 1e-12 *)
Definition homogen_poses (l : list (list R)) : res (list mat) :=
  mapM (fun q => let? m := pointquaternion_to_homogeneous (vec_ten q) (/ 10 ^ 12)%R in Ok (ent m [])) l.
(* tum.py:352-434 *)
Definition tum_item (rnd : R -> R) (o : io) (c : conf) (seqlen : nat) (d : tumdata) (idx : Z) : res (list out) :=
  let load := c_pose c || c_trans c in
  let? cp := pyitem (t_color d) idx in
  let? dp := pyitem (t_depth d) idx in
  let? pq := (if load then pyitem (t_poses d) idx else Ok []) in
  let? nm := pyitem (t_names d) idx in
  let? st := pyitem (t_stamps d) idx in
  let? fr := read_frames rnd o c 5000 seqlen cp dp in
  let? ms := (if load then homogen_poses pq else Ok []) in
  let? color := stack_0 (fst fr) in
  let? depth := on (c_depth c) (let? s := stack_0 (snd fr) in Ok (OTen s)) in
  let? intr := on (c_intr c) (let? k := item_intrinsics c (K_of 525 525 (639 / 2) (479 / 2)) in Ok (OTen k)) in
  let? pt := pose_outputs c (map mat_ten ms) ms in
  let? names := on (c_names c) (Ok (OText nm)) in
  let? stamps := on (c_last c) (Ok (OText (join [newline] (map stamp_line st)))) in
  Ok (OTen color :: depth ++ intr ++ pt ++ names ++ stamps).

(* a pose read from the file as a matrix (icl.py:566-568) *)
Definition rows_mat (l : list row4) : mat := fun i j =>
  match nth_error l i with
  | Some (a, b, c, d) => match j with 0 => a | 1 => b | 2 => c | 3 => d | _ => 0%R end
  | None => 0%R
  end.
(* icl.py:393-466; [value] is the conversion of an entry of the pose file to a number *)
Definition icl_item (rnd : R -> R) (value : text -> res R) (o : io) (c : conf) (seqlen : nat) (d : icldata) (idx : Z) : res (list out) :=
  let load := c_pose c || c_trans c in
  let? cp := pyitem (i_color d) idx in
  let? dp := pyitem (i_depth d) idx in
  let? meta := (if load then pyitem (i_poses d) idx else Ok ([], [])) in
  let? nm := pyitem (i_names d) idx in
  let? fr := read_frames rnd o c 5000 seqlen cp dp in
  let? ms := (if load then let? f := rd_text o (fst meta) in let? l := load_poses value f (snd meta) in Ok (map rows_mat l)
              else Ok []) in
  let? color := stack_0 (fst fr) in
  let? depth := on (c_depth c) (let? s := stack_0 (snd fr) in Ok (OTen s)) in
  let? intr := on (c_intr c) (let? k := item_intrinsics c (K_of (4812 / 10) (- 480) (639 / 2) (479 / 2)) in Ok (OTen k)) in
  let? pt := pose_outputs c (map mat_ten ms) ms in
  let? names := on (c_names c) (Ok (OText nm)) in
  Ok (OTen color :: depth ++ intr ++ pt ++ names).

(* np.loadtxt of a pose as a 4x4 matrix; other shapes go on outside the model *)
Definition as_mat (x : ten R) : res mat := match dims x with [4; 4] => Ok (ent x []) | _ => Err Unmodelled end.
(* scannet.py:195-287.  Each frame's color, depth, pose and label are read in one loop; here one loop per kind, which
   only matters for which of two unreadable files is reported.  [scannet20]: seg_classes.lower() == "scannet20" *)
Definition scan_item (rnd : R -> R) (o : io) (c : conf) (scannet20 : bool) (d : scandata) (idx : Z) : res (list out) :=
  let load := c_pose c || c_trans c in
  let seqlen := Z.to_nat (sd_seqlen d) in
  let? fs := pyitem (sd_frames d) idx in
  let? ip := pyitem (sd_intr d) idx in
  let? nm := pyitem (sd_names d) idx in
  let? fr := read_frames rnd o c 1000 seqlen (map sf_color fs) (map sf_depth fs) in
  let? ps := (if load then mapM (fun i => let? f := item fs i in rd_matrix o (sf_pose f)) (seq 0 seqlen) else Ok []) in
  let? ls := (if c_last c then mapM (fun i => let? f := item fs i in let? x := rd_label o (sf_label f) in
                preprocess_label o c scannet20 x) (seq 0 seqlen) else Ok []) in
  let? color := stack_0 (fst fr) in
  let? depth := on (c_depth c) (let? s := stack_0 (snd fr) in Ok (OTen s)) in
  let? intr := on (c_intr c) (let? k := rd_matrix o ip in let? k := item_intrinsics c k in Ok (OTen k)) in
  let? ms := (if c_trans c then mapM as_mat ps else Ok []) in
  let? pt := pose_outputs c ps ms in
  let? names := on (c_names c) (Ok (OText nm)) in
  let? labels := on (c_last c) (let? s := stack_0 ls in Ok (OTen s)) in
  Ok (OTen color :: depth ++ intr ++ pt ++ names ++ labels).
