[
 {
  "file": "DatasetModel",
  "definition": "window_args",
  "old": "let s := match s with Some s => s | None => (L * (d + 1))%Z end in",
  "new": "let s := match s with Some s => s | None => L end in",
  "edit": "default stride ignores the dilation",
  "claim": "C56: default stride is seqlen * (dilation + 1)"
 },
 {
  "file": "DatasetModel",
  "definition": "window_args",
  "old": "guard (negb (d <? 0)%Z) ValueError ;;?\n",
  "new": "",
  "edit": "negative dilation accepted",
  "claim": "C56: bad arguments rejected"
 },
 {
  "file": "DatasetModel",
  "definition": "window_args",
  "old": "(st <? e)%Z end) ValueError",
  "new": "(st <=? e)%Z end) ValueError",
  "edit": "end = start accepted",
  "claim": "C56: end must be greater than start"
 },
 {
  "file": "DatasetModel",
  "definition": "window_loop",
  "old": "if n <=? s + last idx 0 then Ok []",
  "new": "if n <? s + last idx 0 then Ok []",
  "edit": "break test off by one",
  "claim": "C56: windows lie inside the sequence"
 },
 {
  "file": "DatasetModel",
  "definition": "window_loop",
  "old": "if n <=? s + last idx 0 then Ok []",
  "new": "if n <=? S (s + last idx 0) then Ok []",
  "edit": "last full window dropped",
  "claim": "C56: every full window is present"
 },
 {
  "file": "DatasetModel",
  "definition": "window_idx",
  "old": "map (fun i => i * (dilation + 1)) (seq 0 seqlen)",
  "new": "map (fun i => i * dilation) (seq 0 seqlen)",
  "edit": "dilation off by one",
  "claim": "C56: frames of a window are dilation + 1 apart"
 },
 {
  "file": "DatasetModel",
  "definition": "range_step",
  "old": "seq 0 ((n + stride - 1) / stride)",
  "new": "seq 0 (n / stride)",
  "edit": "range rounded down",
  "claim": "C56: every full window is present"
 },
 {
  "file": "DatasetModel",
  "definition": "tum_sequence",
  "old": "let? t := mapM (gather stamps) ws in",
  "new": "let? t := mapM (gather stamps) (map (map S) ws) in",
  "edit": "timestamps of the next frames",
  "claim": "C56: timestamps belong to the frames"
 },
 {
  "file": "DatasetModel",
  "definition": "tum_sequence",
  "old": "let? p := (if load then mapM (gather poses) ws else Ok []) in\n  Ok (mkTum c d nm t p)",
  "new": "let? p := (if load then mapM (gather poses) ws else Ok []) in\n  Ok (mkTum c c nm t p)",
  "edit": "colour files stored as depth files",
  "claim": "C56: depth files of the window"
 },
 {
  "file": "DatasetModel",
  "definition": "icl_lines",
  "old": "slice (w_start w) e lines",
  "new": "slice 0 e lines",
  "edit": "start ignored",
  "claim": "C56: ICL frames in [start, end)"
 },
 {
  "file": "DatasetModel",
  "definition": "icl_lines",
  "old": "removelast lines else lines",
  "new": "lines else lines",
  "edit": "extra frame of traj0 kept",
  "claim": "C56: ICL traj0 drops the last frame"
 },
 {
  "file": "DatasetModel",
  "definition": "icl_frame",
  "old": "(len_posesfile <? k * 4)",
  "new": "(k * 4 <? len_posesfile)",
  "edit": "pose-file length test reversed",
  "claim": "C56/C57: pose lines exist"
 },
 {
  "file": "DatasetModel",
  "definition": "icl_frame",
  "old": "txt \"/\" ++ d, k * 4,",
  "new": "txt \"/\" ++ d, k * 3,",
  "edit": "three lines per pose",
  "claim": "C57: pose of a frame"
 },
 {
  "file": "DatasetModel",
  "definition": "load_loop",
  "old": "if length pose =? 3 then",
  "new": "if length pose =? 4 then",
  "edit": "pose block of four lines",
  "claim": "C58: three lines make a pose"
 },
 {
  "file": "DatasetModel",
  "definition": "load_loop",
  "old": "Ok ((m ++ [last_row]) :: r)",
  "new": "Ok (m :: r)",
  "edit": "last row not appended",
  "claim": "C58: poses are 4x4"
 },
 {
  "file": "DatasetModel",
  "definition": "last_row",
  "old": "(0, 0, 0, 1)%R",
  "new": "(0, 0, 0, 0)%R",
  "edit": "last row 0 0 0 0",
  "claim": "C58: homogeneous last row"
 },
 {
  "file": "DatasetModel",
  "definition": "parse_row",
  "old": "Ok (a, b, c, d)",
  "new": "Ok (b, a, c, d)",
  "edit": "columns swapped",
  "claim": "C58: entries in file order"
 },
 {
  "file": "DatasetModel",
  "definition": "scan_loop",
  "old": "let seqlen := if full then (end_ - Z.of_nat start)%Z else seqlen in",
  "new": "let seqlen := if full then end_ else seqlen in",
  "edit": "start not subtracted for whole scenes",
  "claim": "C59: whole scenes from start"
 },
 {
  "file": "DatasetModel",
  "definition": "scan_loop",
  "old": "slice start end_ lines",
  "new": "slice 0 end_ lines",
  "edit": "start ignored",
  "claim": "C59: frames [start, end)"
 },
 {
  "file": "DatasetModel",
  "definition": "scan_loop",
  "old": "guard (negb (Z.of_nat (length lines) <? seqlen)%Z) ValueError ;;?\n",
  "new": "",
  "edit": "short scenes accepted",
  "claim": "C59: too short scenes are rejected"
 },
 {
  "file": "DatasetModel",
  "definition": "scan_line",
  "old": "let? p := item ws 5 in",
  "new": "let? p := item ws 7 in",
  "edit": "label file used as pose file",
  "claim": "C59: paths of a frame"
 },
 {
  "file": "DatasetModel",
  "definition": "scannet_new",
  "old": "(start <? end_)%Z",
  "new": "(start <=? end_)%Z",
  "edit": "empty range accepted",
  "claim": "C59: end must be greater than start"
 },
 {
  "file": "DatasetModel",
  "definition": "scannet_frames",
  "old": "gather fs (seq 0",
  "new": "gather fs (seq 1",
  "edit": "first frame skipped",
  "claim": "C59: frames returned"
 },
 {
  "file": "DatasetModel",
  "definition": "remapping",
  "old": "(39, 20)]",
  "new": "(39, 19)]",
  "edit": "otherfurniture mapped to bathtub",
  "claim": "C60: the table"
 },
 {
  "file": "DatasetModel",
  "definition": "remapping",
  "old": "(14, 13); (16, 14)",
  "new": "(16, 14); (14, 13)",
  "edit": "two entries in the other order (no effect expected)",
  "claim": "C60: none (equivalent)"
 },
 {
  "file": "DatasetModel",
  "definition": "remapping",
  "old": "(0, 0); (13, 0)",
  "new": "(0, 0)",
  "edit": "blinds not removed",
  "claim": "C60: the table"
 },
 {
  "file": "DatasetModel",
  "definition": "remap_pass",
  "old": "if x =? fst st then snd st else x",
  "new": "if x =? fst st then snd st else 0",
  "edit": "all other labels erased",
  "claim": "C60: the table"
 },
 {
  "file": "DatasetModel",
  "definition": "palette_scannet20",
  "old": "(\"toilet\", (44, 160, 44)); (\"sink\", (112, 128, 144))",
  "new": "(\"toilet\", (112, 128, 144)); (\"sink\", (44, 160, 44))",
  "edit": "two colours swapped",
  "claim": "C60: palettes agree"
 },
 {
  "file": "DatasetModel",
  "definition": "paint_loop",
  "old": "paint_loop pred (S idx) colors'",
  "new": "paint_loop pred idx colors'",
  "edit": "class counter not advanced",
  "claim": "C60: label image"
 },
 {
  "file": "TumModel",
  "definition": "time_diff",
  "old": "rnd (y + offset)",
  "new": "rnd (y - offset)",
  "edit": "sign of the offset",
  "claim": "C55: difference uses the offset"
 },
 {
  "file": "TumModel",
  "definition": "potential",
  "old": "Rlt_dec d max_difference",
  "new": "Rle_dec d max_difference",
  "edit": "threshold not strict",
  "claim": "C55: pairs closer than max_difference"
 },
 {
  "file": "TumModel",
  "definition": "greedy",
  "old": "(remove_first a first) (remove_first b second)",
  "new": "(remove_first a first) second",
  "edit": "second key not removed",
  "claim": "C55: one-to-one"
 },
 {
  "file": "TumModel",
  "definition": "greedy",
  "old": "mem a first && mem b second",
  "new": "mem a first",
  "edit": "second key not checked",
  "claim": "C55: one-to-one"
 },
 {
  "file": "TumModel",
  "definition": "associate",
  "old": "greedy (sort match_le pm) first second",
  "new": "greedy pm first second",
  "edit": "candidates not sorted by difference",
  "claim": "C55: closest pairs first"
 },
 {
  "file": "TumModel",
  "definition": "associate",
  "old": "Ok (sort text_pair_le (greedy",
  "new": "Ok (id (greedy",
  "edit": "result not sorted",
  "claim": "C55: order of the result"
 },
 {
  "file": "TumModel",
  "definition": "read_file_list",
  "old": "slice start e rows",
  "new": "rows",
  "edit": "start and end ignored",
  "claim": "C62: file list restricted to [start, end)"
 },
 {
  "file": "TumModel",
  "definition": "read_file_list",
  "old": "[(k, tl l)]",
  "new": "[(k, l)]",
  "edit": "stamp kept in the data",
  "claim": "C62: file list entries"
 },
 {
  "file": "TumModel",
  "definition": "is_row",
  "old": "negb (Ascii.eqb c \"#\"%char)",
  "new": "true",
  "edit": "comments read as data",
  "claim": "C62: comment lines skipped"
 },
 {
  "file": "TumModel",
  "definition": "data_lines",
  "old": "(replace tab space (replace \",\"%char space file))",
  "new": "(replace \",\"%char space file)",
  "edit": "tabs not separators",
  "claim": "C62: separators"
 },
 {
  "file": "TumModel",
  "definition": "zero_quat",
  "old": "firstn 4 (skipn 4 l)",
  "new": "firstn 4 (skipn 3 l)",
  "edit": "wrong columns tested for zero quaternion",
  "claim": "C62: rows with zero quaternion skipped"
 },
 {
  "file": "TumModel",
  "definition": "traj_row",
  "old": "if 0 <? n then",
  "new": "if 1 <? n then",
  "edit": "first number kept as string",
  "claim": "C62: trajectory values"
 },
 {
  "file": "TumModel",
  "definition": "read_trajectory",
  "old": "firstn 7 (tl r)",
  "new": "firstn 6 (tl r)",
  "edit": "last quaternion entry dropped",
  "claim": "C62: trajectory rows",
  "section": "Definition read_trajectory ("
 },
 {
  "file": "TumModel",
  "definition": "read_trajectory_matrix",
  "old": "(fun i => nth (3 + i) v 0%R)",
  "new": "(fun i => nth (4 + i) v 0%R)",
  "edit": "quaternion taken one column late",
  "claim": "C62: trajectory matrices"
 },
 {
  "file": "TumModel",
  "definition": "find_associations",
  "old": "let depth := read_file_list depth_file None None in",
  "new": "let depth := read_file_list depth_file start end_ in",
  "edit": "depth list cut like the colour list",
  "claim": "C55/C56: associations over all depth frames"
 },
 {
  "file": "TumModel",
  "definition": "find_associations",
  "old": "dict_of (map (fun m => (snd m, fst m)) matches)",
  "new": "dict_of (map (fun m => (fst m, fst m)) matches)",
  "edit": "poses matched with colour stamps",
  "claim": "C55: pose is matched with the depth stamp"
 },
 {
  "file": "TumModel",
  "definition": "find_associations",
  "old": "Ok (a, map (fun m => match m with (r, d, p) => (r, d, Some p) end) matches)",
  "new": "Ok (a, map (fun m => match m with (r, d, p) => (d, r, Some p) end) matches)",
  "edit": "stamps swapped",
  "claim": "C55: timestamps"
 },
 {
  "file": "ImageModel",
  "definition": "normalize_image",
  "old": "/ 255",
  "new": "/ 256",
  "edit": "divided by 256",
  "claim": "C61: normalised to [0,1]"
 },
 {
  "file": "ImageModel",
  "definition": "channels_first",
  "old": "at_ x (c' :: w' :: h' :: ix')",
  "new": "at_ x (c' :: h' :: w' :: ix')",
  "edit": "height and width swapped",
  "claim": "C61: channels_first moves the channel axis"
 },
 {
  "file": "ImageModel",
  "definition": "channels_first",
  "old": "| _ => Err ValueError",
  "new": "| _ => Ok x",
  "edit": "rank check dropped",
  "claim": "C61: rank below 3 rejected"
 },
 {
  "file": "ConfigModel",
  "definition": "mk_node",
  "old": "if (isd : bool) then let! n := mk_node f (snd kv) false in ret (fst kv, n)",
  "new": "if (isd : bool) then ret kv",
  "edit": "nested dicts not converted",
  "claim": "C70: nested dicts become nodes"
 },
 {
  "file": "ConfigModel",
  "definition": "mk_node",
  "old": "assert_ ok ;;! ret kv) kvs in",
  "new": "ret kv) kvs in",
  "edit": "invalid values accepted",
  "claim": "C70: invalid values rejected"
 },
 {
  "file": "ConfigModel",
  "definition": "mk_node",
  "old": "let! d := deepcopy f init_dict in\n      let! kvs := items_of d in",
  "new": "let! d := ret init_dict in\n      let! kvs := items_of d in",
  "edit": "init dict not copied",
  "claim": "C70: constructing copies its input"
 },
 {
  "file": "ConfigModel",
  "definition": "mk_node",
  "old": "mkMeta false new_allowed [] []",
  "new": "mkMeta new_allowed new_allowed [] []",
  "edit": "new_allowed configs start frozen",
  "claim": "C70: fresh config is not frozen"
 },
 {
  "file": "ConfigModel",
  "definition": "getattr_",
  "old": "None => throw XAttribute",
  "new": "None => ret (Some (VAtom ANone))",
  "edit": "missing attribute reads as None",
  "claim": "C69: missing attribute raises AttributeError"
 },
 {
  "file": "ConfigModel",
  "definition": "setattr_",
  "old": "if (fr : bool) then throw XAttribute\n  else assert_",
  "new": "if (fr : bool) then ret tt\n  else assert_",
  "edit": "assignment to a frozen config ignored silently",
  "claim": "C63: assignment to a frozen config raises"
 },
 {
  "file": "ConfigModel",
  "definition": "setattr_",
  "old": "let! fr := is_frozen self in\n  if (fr : bool) then throw XAttribute\n  else assert_",
  "new": "assert_",
  "edit": "frozen flag not checked",
  "claim": "C63: a frozen config cannot be changed"
 },
 {
  "file": "ConfigModel",
  "definition": "setattr_",
  "old": "assert_ ok ;;! setitem self name value",
  "new": "setitem self name value",
  "edit": "value type not checked",
  "claim": "C69: invalid values rejected"
 },
 {
  "file": "ConfigModel",
  "definition": "immutable_",
  "old": "if (isn : bool) then immutable_ f b (snd kv) else ret tt",
  "new": "ret tt",
  "edit": "freeze does not recurse",
  "claim": "C63: freeze reaches nested configs"
 },
 {
  "file": "ConfigModel",
  "definition": "immutable_",
  "old": "if (isn : bool) then immutable_ f b (snd kv) else ret tt",
  "new": "if (isn : bool) then immutable_ f true (snd kv) else ret tt",
  "edit": "defrost freezes the children",
  "claim": "C63: defrost reaches nested configs"
 },
 {
  "file": "ConfigModel",
  "definition": "clone",
  "old": "Definition clone (fuel : nat) (self : val) : M val := deepcopy fuel self",
  "new": "Definition clone (fuel : nat) (self : val) : M val := ret self",
  "edit": "clone returns the object itself",
  "claim": "C68: clone is independent"
 },
 {
  "file": "ConfigModel",
  "definition": "dcopy",
  "old": "let! l' := alloc (ONode mt []) in",
  "new": "let! l' := alloc (ONode (mkMeta false (m_new mt) (m_dep mt) (m_ren mt)) []) in",
  "edit": "clone is not frozen",
  "claim": "C68: clone has the same attributes (equivalent: overwritten by the store)"
 },
 {
  "file": "ConfigModel",
  "definition": "dcopy",
  "old": "store l' (ONode mt (snd p))",
  "new": "store l' (ONode (mkMeta false (m_new mt) (m_dep mt) (m_ren mt)) (snd p))",
  "edit": "clone of a frozen config is not frozen",
  "claim": "C68: clone has the same attributes"
 },
 {
  "file": "ConfigModel",
  "definition": "dcopy",
  "old": "store l' (OList (snd p)) ;;! ret (fst p, VRef l')",
  "new": "store l' (OList (snd p)) ;;! ret (fst p, VRef l)",
  "edit": "lists shared with the copy",
  "claim": "C68: clone shares nothing"
 },
 {
  "file": "ConfigModel",
  "definition": "register_deprecated_key",
  "old": "assert_ (negb (has (m_dep m) key)) ;;!\n",
  "new": "",
  "edit": "duplicate registration accepted",
  "claim": "C67: duplicate registration fails"
 },
 {
  "file": "ConfigModel",
  "definition": "register_renamed_key",
  "old": "m_ren m ++ [(old_name, (new_name, message))]",
  "new": "m_ren m ++ [(new_name, (old_name, message))]",
  "edit": "old and new name swapped",
  "claim": "C67: renamed keys"
 },
 {
  "file": "ConfigModel",
  "definition": "raise_key_rename_error",
  "old": "throw (XRenamed full_key new msg)",
  "new": "throw (XMissing full_key)",
  "edit": "rename error without the new name",
  "claim": "C67: rename error names the new key"
 },
 {
  "file": "ConfigModel",
  "definition": "decode",
  "old": "| Raise XValue | Raise XSyntax => ret value",
  "new": "| Raise XValue => ret value",
  "edit": "syntax errors not caught",
  "claim": "C64: undecodable strings stay strings"
 },
 {
  "file": "ConfigModel",
  "definition": "decode",
  "old": "if (isd : bool) then mk_node fuel value false\n",
  "new": "if (isd : bool) then ret value\n",
  "edit": "dict values stay plain dicts",
  "claim": "C64: dict values become configs"
 },
 {
  "file": "ConfigModel",
  "definition": "check_and_coerce",
  "old": "else throw XValue.",
  "new": "else ret replacement.",
  "edit": "type mismatch accepted",
  "claim": "C65: types kept"
 },
 {
  "file": "ConfigModel",
  "definition": "check_and_coerce",
  "old": "match o with OList vs => ret (VTup vs)",
  "new": "match o with OList vs => ret replacement",
  "edit": "list not cast to tuple",
  "claim": "C65: types kept"
 },
 {
  "file": "ConfigModel",
  "definition": "merge_entry",
  "old": "if (isn : bool) then rec v bk (key_list ++ [k]) else setitem b k v",
  "new": "setitem b k v",
  "edit": "subtree replaced instead of merged",
  "claim": "C64: recursive override"
 },
 {
  "file": "ConfigModel",
  "definition": "merge_entry",
  "old": "let! v := check_and_coerce v bk in\n",
  "new": "",
  "edit": "types not checked",
  "claim": "C65: types kept"
 },
 {
  "file": "ConfigModel",
  "definition": "merge_entry",
  "old": "if (isn : bool) then rec v bk (key_list ++ [k])",
  "new": "if (isn : bool) then rec v bk key_list",
  "edit": "full key lost in the recursion",
  "claim": "C67: registries use the full dotted key"
 },
 {
  "file": "ConfigModel",
  "definition": "merge_entry",
  "old": "if (nw : bool) then setitem b k v\n      else",
  "new": "if (nw : bool) then ret tt\n      else",
  "edit": "new keys dropped",
  "claim": "C64: new keys added when allowed"
 },
 {
  "file": "ConfigModel",
  "definition": "merge_entry",
  "old": "else throw (XMissing full_key)",
  "new": "else setitem b k v",
  "edit": "unknown keys added",
  "claim": "C64: unknown keys rejected"
 },
 {
  "file": "ConfigModel",
  "definition": "merge_entry",
  "old": "if (dep : bool) then ret tt\n           else",
  "new": "if (dep : bool) then throw (XMissing full_key)\n           else",
  "edit": "deprecated keys rejected",
  "claim": "C67: deprecated keys ignored"
 },
 {
  "file": "ConfigModel",
  "definition": "merge_entry",
  "old": "let! v := deepcopy fuel v_ in",
  "new": "let! v := ret v_ in",
  "edit": "values not copied",
  "claim": "C64: the other config shares nothing afterwards"
 },
 {
  "file": "ConfigModel",
  "definition": "merge_from_other_cfg",
  "old": "merge_a_into_b fuel self cfg_other self []",
  "new": "merge_a_into_b fuel self self cfg_other []",
  "edit": "arguments swapped",
  "claim": "C64: other overrides self"
 },
 {
  "file": "ConfigModel",
  "definition": "each_item",
  "old": "if negb (length d =? n) then throw XRuntime\n",
  "new": "if false then throw XRuntime\n",
  "edit": "size change during iteration not noticed",
  "claim": "C64 (self-merge): RuntimeError"
 },
 {
  "file": "ConfigModel",
  "definition": "override",
  "old": "if (dep : bool) then ret tt\n  else",
  "new": "if false then ret tt\n  else",
  "edit": "deprecated keys not skipped",
  "claim": "C67: deprecated keys ignored in lists"
 },
 {
  "file": "ConfigModel",
  "definition": "override",
  "old": "let! value := check_and_coerce value orig in\n       setitem d subkey value",
  "new": "setitem d subkey value",
  "edit": "types not checked",
  "claim": "C65/C66: types kept"
 },
 {
  "file": "ConfigModel",
  "definition": "override",
  "old": "assert_ c ;;!\n       let! value",
  "new": "let! value",
  "edit": "unknown last key not rejected",
  "claim": "C66: unknown keys rejected"
 },
 {
  "file": "ConfigModel",
  "definition": "override",
  "old": "let! value := decode fuel v in\n       let! orig",
  "new": "let! value := ret v in\n       let! orig",
  "edit": "values not decoded",
  "claim": "C66: values are decoded"
 },
 {
  "file": "ConfigModel",
  "definition": "walk",
  "old": "walk x r",
  "new": "walk d r",
  "edit": "walk does not descend",
  "claim": "C66: dotted path"
 },
 {
  "file": "ConfigModel",
  "definition": "overrides",
  "old": "override_any fuel self k v ;;! overrides fuel self r",
  "new": "overrides fuel self r ;;! override_any fuel self k v",
  "edit": "pairs applied in reverse order",
  "claim": "C66: in order"
 },
 {
  "file": "ConfigModel",
  "definition": "merge_from_list",
  "old": "assert_ (Nat.even (length cfg_list)) ;;! ",
  "new": "",
  "edit": "odd length accepted",
  "claim": "C66: odd length rejected"
 },
 {
  "file": "ConfigModel",
  "definition": "convert_to_dict",
  "old": "assert_ ok ;;! plain f v",
  "new": "plain f v",
  "edit": "invalid types dumped",
  "claim": "C68: dump"
 },
 {
  "file": "ConfigModel",
  "definition": "plain",
  "old": "let! ls := mapM (plain f) vs in ret (LTup ls)",
  "new": "let! ls := mapM (plain f) vs in ret (LList ls)",
  "edit": "tuples dumped as lists",
  "claim": "C68: tuples"
 },
 {
  "file": "ConfigModel",
  "definition": "load_yaml",
  "old": "Done (LAtom ANone) => new_cfg fuel None false",
  "new": "Done (LAtom ANone) => throw XType",
  "edit": "empty file rejected",
  "claim": "C64/C68: empty yaml is an empty config"
 },
 {
  "file": "ConfigModel",
  "definition": "load_file",
  "old": "if has yaml_exts ext",
  "new": "if String.eqb ext \".yaml\"",
  "edit": ".yml files rejected",
  "claim": "C64: merge_from_file accepts .yml"
 },
 {
  "file": "ConfigModel",
  "definition": "merge_from_file",
  "old": "merge_from_other_cfg fuel self cfg.",
  "new": "merge_from_other_cfg fuel cfg self.",
  "edit": "merged the wrong way round",
  "claim": "C64: file overrides self"
 }
]