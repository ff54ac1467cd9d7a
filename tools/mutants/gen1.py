import json
M=[]
def m(f,d,old,new,edit,claim,**k): M.append(dict(file=f,definition=d,old=old,new=new,edit=edit,claim=claim,**k))
S='StructUtilsModel'
m(S,'list_to_padded','let? d0 := py_max (map t2n ne) in','let? d0 := py_max (map t2n (firstn 1 ne)) in','default pad size taken from the first item only','C01: padding then unpadding restores every item')
m(S,'fill_row','firstn d1 r ++ repeat v (d1 - length r)','repeat v (d1 - length r) ++ firstn d1 r','pad value put before the data instead of after it','C01: layout of padded tensors')
m(S,'padded_to_list','if negb (t3b x =? length ss) then Err ValueError','if (t3b x <? length ss) then Err ValueError','length check of split_size accepts too few entries','C02: a split of the wrong length is rejected')
m(S,'split_item','(map (prefix k1) (prefix k0 m))','(map (prefix k0) (prefix k1 m))','row and column split sizes swapped','C02/C01: split sizes select rows first')
P='PointcloudsModel'
m(P,'ctor_list','guard (forallb (fun sh => lastdim sh =? 3) pshapes) ValueError ;;?\n  let nums','let nums','missing check that points have 3 columns','C03: constructor accepts exactly the meaningful arguments')
m(P,'ctor_list','(length pl) (max_list nums) (Some (all_equal nums))','(length pl) (hd 0 nums) (Some (all_equal nums))','max number of points taken from the first cloud','C04/C05: padded view holds every point')
m(P,'unpad','(firstn (snd q) (fst q))','(firstn (S (snd q)) (fst q))','one padding row leaks into the list view','C05: padding never appears in the list view')
m(P,'mask_row','map (fun j => j <? n) (seq 0 N)','map (fun j => j <=? n) (seq 0 N)','mask boundary off by one','C05: mask marks exactly the real points')
m(P,'offset_','masked_update (fun p x m => fadd p (fmul x m)) o','masked_update (fun p x m => fadd p x) o','offset also moves the padding','C04: padding stays zero')
m(P,'scale_','masked_update (fun p x m => fmul (fmul p x) m) o','masked_update (fun p x m => fmul p m) o','scale factor dropped','C09: scale multiplies every coordinate')
m(P,'rotate_','let r := fun b i j => if pre then mat_el sh el b j i else mat_el sh el b i j in','let r := fun b i j => if pre then mat_el sh el b i j else mat_el sh el b j i in','pre- and post-multiplication swapped','C09: rotate applies R p')
m(P,'rotate_','modify (set_pad Normals (option_map (fun n => rot3 n r) np)) ;;;','','normals not rotated','C09: rotation also rotates the normals')
m(P,'rotate_','                modify (set_lst Points None) ;;;\n                modify (set_lst Normals None)','                modify (set_lst Points None)','stale normals list kept after a rotation','C04: views stay consistent')
m(P,'transform_','rotate_ rmat pre ;;; offset_ tvec','offset_ tvec ;;; rotate_ rmat pre','translation applied before rotation','C09: transform is R p + t')
m(P,'masked_update','            modify (set_pad Points (Some p\')) ;;;\n            modify (set_lst Points None)\n        | _, _ => raise TypeError','            modify (set_pad Points (Some p\'))\n        | _, _ => raise TypeError','list cache not invalidated after arithmetic','C04: views stay consistent')
m(P,'assert_set_padded','if negb z then raise ValueError else ret v','ret v','padding-is-zero check dropped in the padded setters','C11: setters reject non-zero padding')
m(P,'copy_tensors','(or_else (mask from) (mask to)) (flg to) (num from)','(or_else (mask from) (mask to)) (flg to) (num to)','clone keeps the constructor-computed counts','C07/C08: clone shows the same content')
m(P,'set_list','modify (set_pad Points None)','ret tt','points_list setter keeps the old padded tensor','C13: points_list assignment visible in the padded view')
m(P,'project1','let d := if feq_dec z f0 then f1 else z in','let d := z in','division by zero depth not guarded','C10: pinhole projection of depth 0')
G='GeomModel'
m(G,'inverse_transfom_3d','matmul (tmap Ropp rmat_inv) tvec','matmul rmat_inv tvec','sign of the inverse translation dropped','C20: inverse composes to the identity')
m(G,'compose_transforms_3d','let? rmat_cat := matmul rmat1 rmat2 in','let? rmat_cat := matmul rmat2 rmat1 in','rotation order swapped','C20: composition is matrix product')
m(G,'compose_transforms_3d','let? rt := matmul rmat1 tvec2 in','let? rt := matmul rmat2 tvec2 in','translation rotated by the wrong matrix','C20: composition')
m(G,'quat_entries','[1 - (tyy + tzz); txy - twz; txz + twy;','[1 - (tyy + tzz); txy + twz; txz + twy;','sign error in the rotation matrix','C19: quaternion gives a rotation')
m(G,'axisangle_k','(if Rlt_dec qw 0 then atan2 (- s) (- qw) else atan2 s qw)','(atan2 s qw)','double-cover branch dropped','C18: axis-angle bounded by pi')
m(G,'transform_pts_3d','(if d =? 3 then homogenize_points pts_b else Ok pts_b)','(homogenize_points pts_b)','homogeneous inputs homogenised again','C22: transform of homogeneous points')
m(G,'transform_pointcloud','tmap2 Rplus m (unsqueeze_m1 tvec)','Ok m','translation dropped','C23: transform_pointcloud is R p + t')
m(G,'normalize_pixel_coords','(pix_norm height width i * comp p r i - 1)','(pix_norm width height i * comp p r i - 1)','height and width swapped','C25: normalised coordinates in [-1,1]')
m(G,'create_meshgrid','linspace 0 (INR height - 1) height','linspace 0 (INR height) height','last grid coordinate is H instead of H-1','C26: pixel grid')
R='RgbdModel'
m(R,'set_poses','modify (fun s => with_maps (r_vm s) (r_nm s) None None (with_poses (Some t) s))','modify (with_poses (Some t))','cached global maps kept after assigning poses','C32: reads mean the current inputs')
m(R,'set_intr','modify (fun s => with_maps None None None None (with_intr (Some t) s))','modify (fun s => with_maps None (r_nm s) None (r_gnm s) (with_intr (Some t) s))','normal maps kept after assigning intrinsics','C32: reads mean the current inputs')
m(R,'convert_','do s <- get; do x <- lift (permute_if_not_None p (r_gnm s)); modify (with_gnm x) ;;;\n','','global normal map not permuted','C33: channel conversion keeps the content')
m(R,'to_channels_last','if negb (copy || r_cf s) then Ok Self','if negb (r_cf s) then Ok Self','copy flag ignored','C33/C34: copy=True returns a new object')
m(R,'elem_pos','slice_pos (Some i) (Some (i + 1)%Z) None n','slice_pos (Some i) None None n','int index selects the tail','C35: indexing selects the addressed frames')
m(R,'rgbd_getitem','let? p := take_opt kb kl (r_poses s) in','let? p := take_opt kb (seq 0 (length kl)) (r_poses s) in','poses taken from the first frames','C35: indexing keeps poses aligned')
m(R,'pixel_grid','if c =? 0 then at_ mg [1; j; i; 0] else if c =? 1 then at_ mg [0; j; i; 0]','if c =? 0 then at_ mg [0; j; i; 0] else if c =? 1 then at_ mg [1; j; i; 0]','row and column swapped in the pixel grid','C29: vertex projects to its pixel')
m(R,'compute_vertex_map','          do v\' <- masked v;\n          modify (with_vm (Some v\'))','          ret tt','invalid depth not masked in the vertex map','C29: invalid pixels have vertex 0')
m(R,'copy_last','at_ y (upd p (n - 2) ix)','at_ y (upd p 0 ix)','last difference copied from the first column','C31: normals at the border')
F='FusionModel'
m(F,'alpha_of','/ (2 * (sigma ^ 2))','/ (sigma ^ 2)','factor 2 dropped in the Gaussian','C36: alpha is the Gaussian')
m(F,'is_in_frame','(if Rlt_dec u (INR width - 999 / 1000)%R then true else false)','(if Rlt_dec u (INR height - 999 / 1000)%R then true else false)','width compared with height','C37: active points are those inside the image')
m(F,'find_active_map_points','                  pos_dec (get3 RF cam (fst q) (snd q) 2) &&\n','','points behind the camera kept','C37: positive depth')
m(F,'find_active_map_points','nth (snd q) (nth (fst q) m []) false in','true in','padding points kept','C37: only real points')
m(F,'find_similar_map_points','at_ cl [rn r; rb r] && at_ si [rn r; rb r]','at_ cl [rn r; rb r] || at_ si [rn r; rb r]','and replaced by or','C38: both thresholds')
m(F,'criteria','(1 / (get3 RF feat (rb r) (rn r) c + / 10 ^ 20))%R','(get3 RF feat (rb r) (rn r) c)%R','lowest confidence preferred','C39: highest confidence wins')
m(F,'differs','[0; 1; 2]','[0; 1]','uniqueness per row of the image instead of per pixel','C39: one row for every pixel')
m(F,'weighted','let? b := zip3 Rmult alphas frame in','let? b := zip3 Rmult counts frame in','wrong weight of the new measurement','C41: weighted mean')
m(F,'merge_points','  onp (set_padded RF Features (SP RF (AT3 RF counts)))','  ret tt','confidence not updated',"C41/C42: confidence grows by alpha",count=0)
m(F,'merge_points','      onp (set_padded RF Colors (SP RF (AT3 RF v3))) ;;;\n','','colors not merged','C41: colors merged likewise')
m(F,'fuse_with_map','filter (fun q => negb (taken b q) && at_ valid [0; snd (snd q); fst (snd q); fst q; b])','filter (fun q => at_ valid [0; snd (snd q); fst (snd q); fst q; b])','matched pixels appended as well','C41/C42: each pixel merged or appended once')
m(F,'fuse_with_map','negb (taken b q) && at_ valid [0; snd (snd q); fst (snd q); fst q; b]','negb (taken b q)','invalid pixels appended','C41/C42: only valid pixels')
m(F,'append_to','    do o <- onp (clone RF);\n    match append_points RF (o, new) with\n    | (Ok _, (o\', _)) => ret (PNew o\')\n    | (Err e, _) => raise e\n    end.','    fun s => match append_points RF (fst s, new) with\n             | (Ok _, (p, _)) => (Ok (PNew p), (p, snd s))\n             | (Err e, (p, _)) => (Err e, (p, snd s))\n             end.','clone dropped when inplace=False','C43: out-of-place updates leave the map unchanged')
m(F,'update_map_aggregate','pointclouds_from_rgbdimages true true','pointclouds_from_rgbdimages false true','local instead of global coordinates','C44: frames aggregated in the global frame')
M=[x for x in M if x.get('count')!=0]
json.dump(M,open('batch1.json','w'),indent=1)
print(len(M))
