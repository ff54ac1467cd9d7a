(* Model of the index arithmetic of gradslam/datasets/tum.py, icl.py and scannet.py.
   Files and directories are given by their contents; paths are joined with "/" (os.path.join and normpath of
   relative names); image decoding, resizing and warnings are not modelled. *)
From Coq Require Import Ascii String List Arith Bool Reals ZArith.
From Verif Require Import Res TextModel.
Import ListNotations.
Local Open Scope nat_scope.

(* ---------------------------------------------------------------- arguments *)
Inductive iarg := ANone | ABad | AInt (z : Z).
(* isinstance(x, int) check (tum.py:155-164) *)
Definition need_int (x : iarg) : res Z := match x with AInt z => Ok z | _ => Err TypeError end.
(* isinstance(x, int) or x is None (tum.py:155-164) *)
Definition need_opt_int (x : iarg) : res (option Z) := match x with AInt z => Ok (Some z) | ANone => Ok None | ABad => Err TypeError end.
(* the checked arguments (tum.py:165-193) *)
Record wargs : Type := mkW { w_len : nat; w_dil : nat; w_stride : nat; w_start : nat; w_end : option Z }.
(* tum.py:155-193, icl.py:162-194 *)
Definition window_args (seqlen dilation stride start end_ : iarg) : res wargs :=
  let? L := need_int seqlen in
  let? s := need_opt_int stride in
  let? d := need_opt_int dilation in
  let d := match d with Some d => d | None => 0%Z end in
  let s := match s with Some s => s | None => (L * (d + 1))%Z end in
  guard (negb (L <? 0)%Z) ValueError ;;?
  guard (negb (d <? 0)%Z) ValueError ;;?
  guard (negb (s <? 0)%Z) ValueError ;;?
  let? st := need_opt_int start in
  let? e := need_opt_int end_ in
  let st := match st with Some st => st | None => 0%Z end in
  guard (negb (st <? 0)%Z) ValueError ;;?
  guard (match e with None => true | Some e => (st <? e)%Z end) ValueError ;;?
  Ok (mkW (Z.to_nat L) (Z.to_nat d) (Z.to_nat s) (Z.to_nat st) e).

(* ---------------------------------------------------------------- windows *)
(* range(0, n, stride) *)
Definition range_step (n stride : nat) : res (list nat) :=
  if stride =? 0 then Err ValueError else Ok (map (fun k => k * stride) (seq 0 ((n + stride - 1) / stride))).
(* idx = np.arange(seqlen) * (dilation + 1) *)
Definition window_idx (seqlen dilation : nat) : list nat := map (fun i => i * (dilation + 1)) (seq 0 seqlen).
(* tum.py:316-326, icl.py:354-368: the loop with its break; idx[-1] of an empty array raises IndexError *)
Fixpoint window_loop (starts idx : list nat) (n : nat) : res (list (list nat)) :=
  match starts with
  | [] => Ok []
  | s :: starts' =>
      match idx with
      | [] => Err IndexError
      | _ :: _ => if n <=? s + last idx 0 then Ok []
                  else let? r := window_loop starts' idx n in Ok (map (fun i => s + i) idx :: r)
      end
  end.
(* tum.py:316-326, icl.py:354-368: all windows *)
Definition windows (seqlen dilation stride n : nat) : res (list (list nat)) :=
  let? starts := range_step n stride in window_loop starts (window_idx seqlen dilation) n.
(* [l[i] for i in inds] *)
Definition gather {A} (l : list A) (inds : list nat) : res (list A) := mapM (item l) inds.

(* ---------------------------------------------------------------- TUM, tum.py:278-328 *)
Record tumdata : Type := mkTum {
  t_color : list (list text); t_depth : list (list text); t_names : list text;
  t_stamps : list (list (text * text * option text)); t_poses : list (list (list R)) }.
(* tum.py:279-280 *)
Definition tum_nil := mkTum [] [] [] [] [].
(* the appends of tum.py:321-326 *)
Definition tum_app (a b : tumdata) : tumdata :=
  mkTum (t_color a ++ t_color b) (t_depth a ++ t_depth b) (t_names a ++ t_names b) (t_stamps a ++ t_stamps b) (t_poses a ++ t_poses b).
(* one sequence: name, directory, associations and timestamps of _findAssociations; [load] = load_poses.
   sequence_name.strip("/\\") of a directory name is the name. *)
Definition tum_files (dir name : text) (load : bool) (assoc : list (text * text * option (list R)))
    : res (list (text * text * list R * text)) :=
  mapM (fun a => match a with (c, d, p) =>
    guard (text_eqb (firstn 3 c) (txt "rgb")) ValueError ;;?
    guard (text_eqb (firstn 5 d) (txt "depth")) ValueError ;;?
    let? q := (if load then match p with Some q => Ok q | None => Err IndexError end else Ok []) in
    Ok (dir ++ txt "/" ++ c, dir ++ txt "/" ++ d, q, name ++ txt "/" ++ but_last_n 4 (skipn 3 c)) end) assoc.
(* tum.py:298-326 for one sequence *)
Definition tum_sequence (w : wargs) (dir name : text) (load : bool) (assoc : list (text * text * option (list R)))
    (stamps : list (text * text * option text)) : res tumdata :=
  let? fs := tum_files dir name load assoc in
  let color := map (fun f => fst (fst (fst f))) fs in
  let depth := map (fun f => snd (fst (fst f))) fs in
  let poses := map (fun f => snd (fst f)) fs in
  let names := map snd fs in
  let? ws := windows (w_len w) (w_dil w) (w_stride w) (length color) in
  let? c := mapM (gather color) ws in
  let? d := mapM (gather depth) ws in
  let? nm := mapM (fun inds => let? l := gather names inds in Ok (join (txt ", ") l)) ws in
  let? t := mapM (gather stamps) ws in
  let? p := (if load then mapM (gather poses) ws else Ok []) in
  Ok (mkTum c d nm t p).
(* all sequences, in the order of the directory listing *)
Fixpoint tum_all (w : wargs) (load : bool)
    (seqs : list (text * text * list (text * text * option (list R)) * list (text * text * option text))) : res tumdata :=
  match seqs with
  | [] => Ok tum_nil
  | (dir, name, assoc, stamps) :: seqs' =>
      let? a := tum_sequence w dir name load assoc stamps in
      let? b := tum_all w load seqs' in
      Ok (tum_app a b)
  end.

(* ---------------------------------------------------------------- ICL, icl.py:293-370 *)
Record icldata : Type := mkIcl {
  i_color : list (list text); i_depth : list (list text); i_names : list text; i_poses : list (text * list nat) }.
(* icl.py:294 *)
Definition icl_nil := mkIcl [] [] [] [].
(* the appends of icl.py:359-368 *)
Definition icl_app (a b : icldata) : icldata :=
  mkIcl (i_color a ++ i_color b) (i_depth a ++ i_depth b) (i_names a ++ i_names b) (i_poses a ++ i_poses b).
(* one trajectory directory: its name and the contents of its files (icl.py:296-321) *)
Record icltraj : Type := mkTraj { tr_dir : text; tr_name : text; tr_assoc : text; tr_posefile : text; tr_poses : text }.
(* icl.py:306-316: the lines of the associations file that are used *)
Definition icl_lines (w : wargs) (tr : icltraj) : list text :=
  let lines := readlines (tr_assoc tr) in
  let e := match w_end w with Some e => e | None => Z.of_nat (length lines) end in
  let lines := if text_eqb (tr_name tr) (txt "living_room_traj0_frei_png") then removelast lines else lines in
  slice (w_start w) e lines.
(* icl.py:323-352: line number k (after slicing) *)
Definition icl_frame (load : bool) (tr : icltraj) (len_posesfile : nat) (k : nat) (line : text) : res (text * text * nat * text) :=
  let ws := split_ws line in
  let? c := item ws 3 in
  guard (text_eqb (firstn 3 c) (txt "rgb")) ValueError ;;?
  let? d := item ws 1 in
  guard (text_eqb (firstn 5 d) (txt "depth")) ValueError ;;?
  guard (negb (load && (len_posesfile <? k * 4))) ValueError ;;?
  Ok (tr_dir tr ++ txt "/" ++ c, tr_dir tr ++ txt "/" ++ d, k * 4,
      tr_name tr ++ txt "/" ++ hd [] (split_on "."%char (skipn 6 d))).
(* icl.py:323-352: the loop over lines *)
Fixpoint icl_frames (load : bool) (tr : icltraj) (len_posesfile k : nat) (lines : list text) : res (list (text * text * nat * text)) :=
  match lines with
  | [] => Ok []
  | line :: lines' =>
      let? f := icl_frame load tr len_posesfile k line in
      let? r := icl_frames load tr len_posesfile (S k) lines' in
      Ok (f :: r)
  end.
(* icl.py:304-368 for one trajectory *)
Definition icl_traj (w : wargs) (load : bool) (tr : icltraj) : res icldata :=
  let? fs := icl_frames load tr (length (readlines (tr_poses tr))) 0 (icl_lines w tr) in
  let color := map (fun f => fst (fst (fst f))) fs in
  let depth := map (fun f => snd (fst (fst f))) fs in
  let pl := map (fun f => snd (fst f)) fs in
  let names := map snd fs in
  let? ws := windows (w_len w) (w_dil w) (w_stride w) (length color) in
  let? c := mapM (gather color) ws in
  let? d := mapM (gather depth) ws in
  let? nm := mapM (fun inds => let? l := gather names inds in Ok (join (txt ", ") l)) ws in
  let? p := (if load then mapM (fun inds => let? l := gather pl inds in Ok (tr_posefile tr, l)) ws else Ok []) in
  Ok (mkIcl c d nm p).
(* icl.py:296-368 *)
Fixpoint icl_all (w : wargs) (load : bool) (trs : list icltraj) : res icldata :=
  match trs with
  | [] => Ok icl_nil
  | tr :: trs' => let? a := icl_traj w load tr in let? b := icl_all w load trs' in Ok (icl_app a b)
  end.

(* icl.py:535-572: _loadPoses on the lines of the file.  [value] is the conversion of one entry to a number.
   State of the loop: the rows of the pose being read (parsing_pose = there are any). *)
Definition row4 := (R * R * R * R)%type.
(* the row 0 0 0 1 appended to each pose (icl.py:535-572) *)
Definition last_row : row4 := (0, 0, 0, 1)%R.
(* one line of four numbers (icl.py:535-572) *)
Definition parse_row (value : text -> res R) (ws : list text) : res row4 :=
  match ws with
  | [a; b; c; d] => let? a := value a in let? b := value b in let? c := value c in let? d := value d in Ok (a, b, c, d)
  | _ => Err ValueError
  end.
(* icl.py:535-572: the loop over the lines of the file *)
Fixpoint load_loop (value : text -> res R) (start_lines : list nat) (i : nat) (lines : list text) (pose : list (list text))
    : res (list (list row4)) :=
  match lines with
  | [] => Ok []
  | line :: lines' =>
      if existsb (Nat.eqb i) start_lines || nonempty pose then
        let ws := split_ws line in
        if negb (length ws =? 4) then Err ValueError else
        let pose := pose ++ [ws] in
        if length pose =? 3 then
          let? m := mapM (parse_row value) pose in
          let? r := load_loop value start_lines (S i) lines' [] in
          Ok ((m ++ [last_row]) :: r)
        else load_loop value start_lines (S i) lines' pose
      else load_loop value start_lines (S i) lines' pose
  end.
(* icl.py:535-572 *)
Definition load_poses (value : text -> res R) (file : text) (start_lines : list nat) : res (list (list row4)) :=
  load_loop value start_lines 0 (readlines file) [].

(* ---------------------------------------------------------------- ScanNet, scannet.py:104-178 *)
Record scene : Type := mkScene { sc_name : text; sc_lines : list text }.
(* scannet.py:152-169: one line of the metadata *)
Record scanframe : Type := mkSF { sf_color : text; sf_depth : text; sf_pose : text; sf_label : text; sf_intr : text }.
(* scannet.py:178-186: the lists kept by the object *)
Record scandata : Type := mkScan { sd_seqlen : Z; sd_frames : list (list scanframe); sd_intr : list text; sd_names : list text }.
(* scannet.py:152-169 *)
Definition scan_line (basedir line : text) : res scanframe :=
  let ws := split_ws line in
  let path x := basedir ++ txt "/" ++ x in
  let? w0 := item ws 0 in guard (text_eqb w0 (txt "color")) ValueError ;;?
  let? c := item ws 1 in
  let? w2 := item ws 2 in guard (text_eqb w2 (txt "depth")) ValueError ;;?
  let? d := item ws 3 in
  let? w4 := item ws 4 in guard (text_eqb w4 (txt "pose")) ValueError ;;?
  let? p := item ws 5 in
  let? w6 := item ws 6 in guard (text_eqb w6 (txt "label-filt")) ValueError ;;?
  let? l := item ws 7 in
  let? w14 := item ws 14 in guard (text_eqb w14 (txt "intrinsic_depth")) ValueError ;;?
  let? i := item ws 15 in
  Ok (mkSF (path c) (path d) (path p) (path l) (path i)).
(* scannet.py:129-178; (end, seqlen) are attributes of the object, overwritten by every scene when end = -1.
   The scenes are those selected, in natural order. *)
Fixpoint scan_loop (basedir : text) (full : bool) (start : nat) (end_ seqlen : Z) (scs : list scene) : res scandata :=
  match scs with
  | [] => Ok (mkScan seqlen [] [] [])
  | sc :: scs' =>
      let lines := sc_lines sc in
      let end_ := if full then Z.of_nat (length lines) else end_ in
      let seqlen := if full then (end_ - Z.of_nat start)%Z else seqlen in
      guard (negb (Z.of_nat (length lines) <? seqlen)%Z) ValueError ;;?
      let? fs := mapM (scan_line basedir) (slice start end_ lines) in
      let? f0 := item fs 0 in
      let? r := scan_loop basedir full start end_ seqlen scs' in
      Ok (mkScan (sd_seqlen r) (fs :: sd_frames r) (sf_intr f0 :: sd_intr r) (sc_name sc :: sd_names r))
  end.
(* scannet.py:104-186 *)
Definition scannet_new (basedir : text) (start end_ : Z) (scs : list scene) : res scandata :=
  guard (negb (start <? 0)%Z) ValueError ;;?
  guard ((end_ =? -1)%Z || (start <? end_)%Z) ValueError ;;?
  scan_loop basedir (end_ =? -1)%Z (Z.to_nat start) end_ (end_ - start)%Z scs.
(* scannet.py:222-253: the frames that __getitem__ reads: range(self.seqlen) of sequence i *)
Definition scannet_frames (d : scandata) (i : nat) : res (list scanframe) :=
  let? fs := item (sd_frames d) i in
  gather fs (seq 0 (Z.to_nat (sd_seqlen d))).

(* ---------------------------------------------------------------- labels *)
(* scannet.py:482-527: one pass per entry of the table over the whole image *)
Definition remapping : list (nat * nat) :=
  [(0, 0); (13, 0); (15, 0); (17, 0); (18, 0); (19, 0); (20, 0); (21, 0); (22, 0); (23, 0); (25, 0); (26, 0); (27, 0);
   (29, 0); (30, 0); (31, 0); (32, 0); (35, 0); (37, 0); (38, 0); (40, 0);
   (14, 13); (16, 14); (24, 15); (28, 16); (33, 17); (34, 18); (36, 19); (39, 20)].
(* scannet.py:482-527: one pass *)
Definition remap_pass (img : list (list nat)) (st : nat * nat) : list (list nat) :=
  map (map (fun x => if x =? fst st then snd st else x)) img.
(* scannet.py:482-527 *)
Definition nyu40_to_scannet20 (img : list (list nat)) : list (list nat) := fold_left remap_pass remapping img.

(* an RGB colour *)
Definition color3 := (nat * nat * nat)%type.
(* scannet.py:397-479 *)
Definition palette_nyu40 : list (string * color3) :=
  [("unlabeled", (0, 0, 0)); ("wall", (174, 199, 232)); ("floor", (152, 223, 138)); ("cabinet", (31, 119, 180));
   ("bed", (255, 187, 120)); ("chair", (188, 189, 34)); ("sofa", (140, 86, 75)); ("table", (255, 152, 150));
   ("door", (214, 39, 40)); ("window", (197, 176, 213)); ("bookshelf", (148, 103, 189)); ("picture", (196, 156, 148));
   ("counter", (23, 190, 207)); ("blinds", (178, 76, 76)); ("desk", (247, 182, 210)); ("shelves", (66, 188, 102));
   ("curtain", (219, 219, 141)); ("dresser", (140, 57, 197)); ("pillow", (202, 185, 52)); ("mirror", (51, 176, 203));
   ("floormat", (200, 54, 131)); ("clothes", (92, 193, 61)); ("ceiling", (78, 71, 183)); ("books", (172, 114, 82));
   ("refrigerator", (255, 127, 14)); ("television", (91, 163, 138)); ("paper", (153, 98, 156)); ("towel", (140, 153, 101));
   ("showercurtain", (158, 218, 229)); ("box", (100, 125, 154)); ("whiteboard", (178, 127, 135)); ("person", (120, 185, 128));
   ("nightstand", (146, 111, 194)); ("toilet", (44, 160, 44)); ("sink", (112, 128, 144)); ("lamp", (96, 207, 209));
   ("bathtub", (227, 119, 194)); ("bag", (213, 92, 176)); ("otherstructure", (94, 106, 211)); ("otherfurniture", (82, 84, 163));
   ("otherprop", (100, 85, 144))]%string.
(* scannet.py:397-479 *)
Definition palette_scannet20 : list (string * color3) :=
  [("unlabeled", (0, 0, 0)); ("wall", (174, 199, 232)); ("floor", (152, 223, 138)); ("cabinet", (31, 119, 180));
   ("bed", (255, 187, 120)); ("chair", (188, 189, 34)); ("sofa", (140, 86, 75)); ("table", (255, 152, 150));
   ("door", (214, 39, 40)); ("window", (197, 176, 213)); ("bookshelf", (148, 103, 189)); ("picture", (196, 156, 148));
   ("counter", (23, 190, 207)); ("desk", (247, 182, 210)); ("curtain", (219, 219, 141)); ("refrigerator", (255, 127, 14));
   ("showercurtain", (158, 218, 229)); ("toilet", (44, 160, 44)); ("sink", (112, 128, 144)); ("bathtub", (227, 119, 194));
   ("otherfurniture", (82, 84, 163))]%string.
(* datautils.py:242-263.  Iterating over an OrderedDict gives its keys, which are names: storing a string in a
   uint8 array raises ValueError (if no pixel has any of the labels, what numpy does is not modelled); a list of
   colours works. *)
Inductive palette := PDict (names : list string) | PColors (colors : list color3).
(* datautils.py:242-263: the loop over classes *)
Fixpoint paint_loop (pred : list (list nat)) (idx : nat) (colors : list color3) (img : list (list color3)) : list (list color3) :=
  match colors with
  | [] => img
  | c :: colors' =>
      paint_loop pred (S idx) colors'
        (map (fun pr => map (fun px => if fst px =? idx then c else snd px) (combine (fst pr) (snd pr))) (combine pred img))
  end.
(* datautils.py:242-263 *)
Definition create_label_image (pred : list (list nat)) (p : palette) : res (list (list color3)) :=
  match p with
  | PDict names => if existsb (existsb (fun x => x <? length names)) pred then Err ValueError else Err Unmodelled
  | PColors colors => Ok (paint_loop pred 0 colors (map (map (fun _ => (0, 0, 0))) pred))
  end.
