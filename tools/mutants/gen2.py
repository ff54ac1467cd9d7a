import json
M=[]
def m(f,d,old,new,edit,claim,**k): M.append(dict(file=f,definition=d,old=old,new=new,edit=edit,claim=claim,**k))
D='DatasetModel'
m(D,'window_args','let s := match s with Some s => s | None => (L * (d + 1))%Z end in','let s := match s with Some s => s | None => L end in','default stride ignores the dilation','C56: default stride is seqlen * (dilation + 1)')
m(D,'window_args','guard (negb (d <? 0)%Z) ValueError ;;?\n','','negative dilation accepted','C56: bad arguments rejected')
m(D,'window_args','(st <? e)%Z end) ValueError','(st <=? e)%Z end) ValueError','end = start accepted','C56: end must be greater than start')
m(D,'window_loop','if n <=? s + last idx 0 then Ok []','if n <? s + last idx 0 then Ok []','break test off by one','C56: windows lie inside the sequence')
m(D,'window_loop','if n <=? s + last idx 0 then Ok []','if n <=? S (s + last idx 0) then Ok []','last full window dropped','C56: every full window is present')
m(D,'window_idx','map (fun i => i * (dilation + 1)) (seq 0 seqlen)','map (fun i => i * dilation) (seq 0 seqlen)','dilation off by one','C56: frames of a window are dilation + 1 apart')
m(D,'range_step','seq 0 ((n + stride - 1) / stride)','seq 0 (n / stride)','range rounded down','C56: every full window is present')
m(D,'tum_sequence','let? t := mapM (gather stamps) ws in','let? t := mapM (gather stamps) (map (map S) ws) in','timestamps of the next frames','C56: timestamps belong to the frames')
m(D,'tum_sequence','let? p := (if load then mapM (gather poses) ws else Ok []) in\n  Ok (mkTum c d nm t p)','let? p := (if load then mapM (gather poses) ws else Ok []) in\n  Ok (mkTum c c nm t p)','colour files stored as depth files','C56: depth files of the window')
m(D,'icl_lines','slice (w_start w) e lines','slice 0 e lines','start ignored','C56: ICL frames in [start, end)')
m(D,'icl_lines','removelast lines else lines','lines else lines','extra frame of traj0 kept','C56: ICL traj0 drops the last frame')
m(D,'icl_frame','(len_posesfile <? k * 4)','(k * 4 <? len_posesfile)','pose-file length test reversed','C56/C57: pose lines exist')
m(D,'icl_frame','txt "/" ++ d, k * 4,','txt "/" ++ d, k * 3,','three lines per pose','C57: pose of a frame')
m(D,'load_loop','if length pose =? 3 then','if length pose =? 4 then','pose block of four lines','C58: three lines make a pose')
m(D,'load_loop','Ok ((m ++ [last_row]) :: r)','Ok (m :: r)','last row not appended','C58: poses are 4x4')
m(D,'last_row','(0, 0, 0, 1)%R','(0, 0, 0, 0)%R','last row 0 0 0 0','C58: homogeneous last row')
m(D,'parse_row','Ok (a, b, c, d)','Ok (b, a, c, d)','columns swapped','C58: entries in file order')
m(D,'scan_loop','let seqlen := if full then (end_ - Z.of_nat start)%Z else seqlen in','let seqlen := if full then end_ else seqlen in','start not subtracted for whole scenes','C59: whole scenes from start')
m(D,'scan_loop','slice start end_ lines','slice 0 end_ lines','start ignored','C59: frames [start, end)')
m(D,'scan_loop','guard (negb (Z.of_nat (length lines) <? seqlen)%Z) ValueError ;;?\n','','short scenes accepted','C59: too short scenes are rejected')
m(D,'scan_line','let? p := item ws 5 in','let? p := item ws 7 in','label file used as pose file','C59: paths of a frame')
m(D,'scannet_new','(start <? end_)%Z','(start <=? end_)%Z','empty range accepted','C59: end must be greater than start')
m(D,'scannet_frames','gather fs (seq 0','gather fs (seq 1','first frame skipped','C59: frames returned')
m(D,'remapping','(39, 20)]','(39, 19)]','otherfurniture mapped to bathtub','C60: the table')
m(D,'remapping','(14, 13); (16, 14)','(16, 14); (14, 13)','two entries in the other order (no effect expected)','C60: none (equivalent)')
m(D,'remapping','(0, 0); (13, 0)','(0, 0)','blinds not removed','C60: the table')
m(D,'remap_pass','if x =? fst st then snd st else x','if x =? fst st then snd st else 0','all other labels erased','C60: the table')
m(D,'palette_scannet20','("toilet", (44, 160, 44)); ("sink", (112, 128, 144))','("toilet", (112, 128, 144)); ("sink", (44, 160, 44))','two colours swapped','C60: palettes agree')
m(D,'paint_loop','paint_loop pred (S idx) colors\'','paint_loop pred idx colors\'','class counter not advanced','C60: label image')
T='TumModel'
m(T,'time_diff','rnd (y + offset)','rnd (y - offset)','sign of the offset','C55: difference uses the offset')
m(T,'potential','Rlt_dec d max_difference','Rle_dec d max_difference','threshold not strict','C55: pairs closer than max_difference')
m(T,'greedy','(remove_first a first) (remove_first b second)','(remove_first a first) second','second key not removed','C55: one-to-one')
m(T,'greedy','mem a first && mem b second','mem a first','second key not checked','C55: one-to-one')
m(T,'associate','greedy (sort match_le pm) first second','greedy pm first second','candidates not sorted by difference','C55: closest pairs first')
m(T,'associate','Ok (sort text_pair_le (greedy','Ok (id (greedy','result not sorted','C55: order of the result')
m(T,'read_file_list','slice start e rows','rows','start and end ignored','C62: file list restricted to [start, end)')
m(T,'read_file_list','[(k, tl l)]','[(k, l)]','stamp kept in the data','C62: file list entries')
m(T,'is_row','negb (Ascii.eqb c "#"%char)','true','comments read as data','C62: comment lines skipped')
m(T,'data_lines','(replace tab space (replace ","%char space file))','(replace ","%char space file)','tabs not separators','C62: separators')
m(T,'zero_quat','firstn 4 (skipn 4 l)','firstn 4 (skipn 3 l)','wrong columns tested for zero quaternion','C62: rows with zero quaternion skipped')
m(T,'traj_row','if 0 <? n then','if 1 <? n then','first number kept as string','C62: trajectory values')
m(T,'read_trajectory','firstn 7 (tl r)','firstn 6 (tl r)','last quaternion entry dropped','C62: trajectory rows',section='Definition read_trajectory (')
m(T,'read_trajectory_matrix','(fun i => nth (3 + i) v 0%R)','(fun i => nth (4 + i) v 0%R)','quaternion taken one column late','C62: trajectory matrices')
m(T,'find_associations','let depth := read_file_list depth_file None None in','let depth := read_file_list depth_file start end_ in','depth list cut like the colour list','C55/C56: associations over all depth frames')
m(T,'find_associations','dict_of (map (fun m => (snd m, fst m)) matches)','dict_of (map (fun m => (fst m, fst m)) matches)','poses matched with colour stamps','C55: pose is matched with the depth stamp')
m(T,'find_associations','Ok (a, map (fun m => match m with (r, d, p) => (r, d, Some p) end) matches)','Ok (a, map (fun m => match m with (r, d, p) => (d, r, Some p) end) matches)','stamps swapped','C55: timestamps')
I='ImageModel'
m(I,'normalize_image','/ 255','/ 256','divided by 256','C61: normalised to [0,1]')
m(I,'channels_first','at_ x (c\' :: w\' :: h\' :: ix\')','at_ x (c\' :: h\' :: w\' :: ix\')','height and width swapped','C61: channels_first moves the channel axis')
m(I,'channels_first','| _ => Err ValueError','| _ => Ok x','rank check dropped','C61: rank below 3 rejected')
C='ConfigModel'
m(C,'mk_node','if (isd : bool) then let! n := mk_node f (snd kv) false in ret (fst kv, n)','if (isd : bool) then ret kv','nested dicts not converted','C70: nested dicts become nodes')
m(C,'mk_node','assert_ ok ;;! ret kv) kvs in','ret kv) kvs in','invalid values accepted','C70: invalid values rejected')
m(C,'mk_node','let! d := deepcopy f init_dict in\n      let! kvs := items_of d in','let! d := ret init_dict in\n      let! kvs := items_of d in','init dict not copied','C70: constructing copies its input')
m(C,'mk_node','mkMeta false new_allowed [] []','mkMeta new_allowed new_allowed [] []','new_allowed configs start frozen','C70: fresh config is not frozen')
m(C,'getattr_','None => throw XAttribute','None => ret (Some (VAtom ANone))','missing attribute reads as None','C69: missing attribute raises AttributeError')
m(C,'setattr_','if (fr : bool) then throw XAttribute\n  else assert_','if (fr : bool) then ret tt\n  else assert_','assignment to a frozen config ignored silently','C63: assignment to a frozen config raises')
m(C,'setattr_','let! fr := is_frozen self in\n  if (fr : bool) then throw XAttribute\n  else assert_','assert_','frozen flag not checked','C63: a frozen config cannot be changed')
m(C,'setattr_','assert_ ok ;;! setitem self name value','setitem self name value','value type not checked','C69: invalid values rejected')
m(C,'immutable_','if (isn : bool) then immutable_ f b (snd kv) else ret tt','ret tt','freeze does not recurse','C63: freeze reaches nested configs')
m(C,'immutable_','if (isn : bool) then immutable_ f b (snd kv) else ret tt','if (isn : bool) then immutable_ f true (snd kv) else ret tt','defrost freezes the children','C63: defrost reaches nested configs')
m(C,'clone','Definition clone (fuel : nat) (self : val) : M val := deepcopy fuel self','Definition clone (fuel : nat) (self : val) : M val := ret self','clone returns the object itself','C68: clone is independent')
m(C,'dcopy','let! l\' := alloc (ONode mt []) in','let! l\' := alloc (ONode (mkMeta false (m_new mt) (m_dep mt) (m_ren mt)) []) in','clone is not frozen',"C68: clone has the same attributes (equivalent: overwritten by the store)")
m(C,'dcopy','store l\' (ONode mt (snd p))','store l\' (ONode (mkMeta false (m_new mt) (m_dep mt) (m_ren mt)) (snd p))','clone of a frozen config is not frozen','C68: clone has the same attributes')
m(C,'dcopy','store l\' (OList (snd p)) ;;! ret (fst p, VRef l\')','store l\' (OList (snd p)) ;;! ret (fst p, VRef l)','lists shared with the copy','C68: clone shares nothing')
m(C,'register_deprecated_key','assert_ (negb (has (m_dep m) key)) ;;!\n','','duplicate registration accepted','C67: duplicate registration fails')
m(C,'register_renamed_key','m_ren m ++ [(old_name, (new_name, message))]','m_ren m ++ [(new_name, (old_name, message))]','old and new name swapped','C67: renamed keys')
m(C,'raise_key_rename_error','throw (XRenamed full_key new msg)','throw (XMissing full_key)','rename error without the new name','C67: rename error names the new key')
m(C,'decode','| Raise XValue | Raise XSyntax => ret value','| Raise XValue => ret value','syntax errors not caught','C64: undecodable strings stay strings')
m(C,'decode','if (isd : bool) then mk_node fuel value false\n','if (isd : bool) then ret value\n','dict values stay plain dicts','C64: dict values become configs')
m(C,'check_and_coerce','else throw XValue.','else ret replacement.','type mismatch accepted','C65: types kept')
m(C,'check_and_coerce','match o with OList vs => ret (VTup vs)','match o with OList vs => ret replacement','list not cast to tuple','C65: types kept')
m(C,'merge_entry','if (isn : bool) then rec v bk (key_list ++ [k]) else setitem b k v','setitem b k v','subtree replaced instead of merged','C64: recursive override')
m(C,'merge_entry','let! v := check_and_coerce v bk in\n','','types not checked','C65: types kept')
m(C,'merge_entry','if (isn : bool) then rec v bk (key_list ++ [k])','if (isn : bool) then rec v bk key_list','full key lost in the recursion','C67: registries use the full dotted key')
m(C,'merge_entry','if (nw : bool) then setitem b k v\n      else','if (nw : bool) then ret tt\n      else','new keys dropped','C64: new keys added when allowed')
m(C,'merge_entry','else throw (XMissing full_key)','else setitem b k v','unknown keys added','C64: unknown keys rejected')
m(C,'merge_entry','if (dep : bool) then ret tt\n           else','if (dep : bool) then throw (XMissing full_key)\n           else','deprecated keys rejected','C67: deprecated keys ignored')
m(C,'merge_entry','let! v := deepcopy fuel v_ in','let! v := ret v_ in','values not copied','C64: the other config shares nothing afterwards')
m(C,'merge_from_other_cfg','merge_a_into_b fuel self cfg_other self []','merge_a_into_b fuel self self cfg_other []','arguments swapped','C64: other overrides self')
m(C,'each_item','if negb (length d =? n) then throw XRuntime\n','if false then throw XRuntime\n','size change during iteration not noticed','C64 (self-merge): RuntimeError')
m(C,'override','if (dep : bool) then ret tt\n  else','if false then ret tt\n  else','deprecated keys not skipped','C67: deprecated keys ignored in lists')
m(C,'override','let! value := check_and_coerce value orig in\n       setitem d subkey value','setitem d subkey value','types not checked','C65/C66: types kept')
m(C,'override','assert_ c ;;!\n       let! value','let! value','unknown last key not rejected','C66: unknown keys rejected')
m(C,'override','let! value := decode fuel v in\n       let! orig','let! value := ret v in\n       let! orig','values not decoded','C66: values are decoded')
m(C,'walk','walk x r','walk d r','walk does not descend','C66: dotted path')
m(C,'overrides','override_any fuel self k v ;;! overrides fuel self r','overrides fuel self r ;;! override_any fuel self k v','pairs applied in reverse order','C66: in order')
m(C,'merge_from_list','assert_ (Nat.even (length cfg_list)) ;;! ','','odd length accepted','C66: odd length rejected')
m(C,'convert_to_dict','assert_ ok ;;! plain f v','plain f v','invalid types dumped','C68: dump')
m(C,'plain','let! ls := mapM (plain f) vs in ret (LTup ls)','let! ls := mapM (plain f) vs in ret (LList ls)','tuples dumped as lists','C68: tuples')
m(C,'load_yaml','Done (LAtom ANone) => new_cfg fuel None false','Done (LAtom ANone) => throw XType','empty file rejected','C64/C68: empty yaml is an empty config')
m(C,'load_file','if has yaml_exts ext','if String.eqb ext ".yaml"','.yml files rejected','C64: merge_from_file accepts .yml')
m(C,'merge_from_file','merge_from_other_cfg fuel self cfg.','merge_from_other_cfg fuel cfg self.','merged the wrong way round','C64: file overrides self')
json.dump(M,open('/verif/tools/mutants/batch2.json','w'),indent=1)
print(len(M))
