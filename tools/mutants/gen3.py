import json
M=[]
def m(f,d,old,new,edit,claim,**k): M.append(dict(file=f,definition=d,old=old,new=new,edit=edit,claim=claim,**k))
S='SolveModel'
m(S,'gauss','(b1 0%nat - rsum m','(b1 0%nat + rsum m','back-substitution adds','the solver solves the system (C36 exactness of the step)')
m(S,'gauss','let b1 := swap0 p b in','let b1 := b in','right-hand side not permuted with the rows','the solver solves the system')
m(S,'gauss','(fun i => b1 (S i) - f i * b1 0%nat)','(fun i => b1 (S i))','right-hand side not eliminated','the solver solves the system')
I='IcpModel'
m(I,'solve_linear_system','(scaled_eye (nth 0 (dims A) 0) (damp_val damp))','(scaled_eye (nth 0 (dims A) 0) (- damp_val damp))','damping subtracted','damped normal equations')
m(I,'solve_linear_system','let? m := tmap2 Rplus ata (scaled_eye (nth 0 (dims A) 0) (damp_val damp)) in','let m := ata in','damping dropped','damped normal equations')
m(I,'solve_linear_system','guard (nth 1 (dims A) 0 =? nth 1 (dims b) 0) ValueError ;;?\n','','row mismatch not rejected','bad shapes raise ValueError')
m(I,'solve_linear_system','guard (nth 0 (dims b) 0 =? 1) ValueError ;;?\n','','wide b accepted','bad shapes raise ValueError')
m(I,'solve_linear_system','guard (match damp with DTen nd _ => nd =? 0 | _ => true end) ValueError ;;?\n','','non-scalar damp accepted','bad arguments raise')
m(I,'kept','then true else false) (seq' if False else 'dist2 3 (point src i) (point tgt (nn (npts tgt) (point tgt) (point src i)))) t then','dist2 3 (point src i) (point tgt (nn (npts tgt) (point tgt) (point src i)))) (t * t) then','threshold compared with the distance instead of the squared distance','only pairs within the (squared) threshold are used')
m(I,'kept','    | _ => true end) (seq 0 (npts src)).','    | _ => false end) (seq 0 (npts src)).','no threshold keeps nothing','None keeps all pairs')
m(I,'gn_row','nz * sy - ny * sz;','ny * sz - nz * sy;','sign of the first rotation column','rows are the linearised residual')
m(I,'gn_row','ny * sx - nx * sy]','nx * sy - ny * sx]','sign of the last rotation column','rows are the linearised residual')
m(I,'gn_res','(d 2%nat - s 2%nat)','(s 2%nat - d 2%nat)','sign of one term of b','b is the point-to-plane distance')
m(I,'gauss_newton_solve','gn_row (point src i) (point nor (idx i))','gn_row (point src i) (point nor i)','normal of the source index','normals belong to the matched target')
m(I,'gauss_newton_solve','gn_res (point src i) (point tgt (idx i)) (point nor (idx i))','gn_res (point src i) (point tgt (idx i)) (point nor i)','normal of the source index in b','normals belong to the matched target')
m(I,'gauss_newton_solve','Ok (A, b, map idx ks).','Ok (A, b, ks).','source indices returned','the returned indices are target indices')
m(I,'gauss_newton_solve','  guard (npts tgt =? npts nor) ValueError ;;?\n','','number of normals not checked','mismatching shapes raise ValueError')
m(I,'icp_iter','if Rlt_dec (l_new l) (l_err l)','if Rlt_dec (l_err l) (l_new l)','accepts steps that increase the error','ICP only accepts improving steps')
m(I,'icp_iter','if Rlt_dec (l_new l) (l_err l)','if Rle_dec (l_new l) (l_err l)','accepts equal errors','ICP only accepts strictly improving steps')
m(I,'icp_iter','matmul (l_T l) (i_T s)','matmul (i_T s) (l_T l)','composition order','the transform maps the source to its current position')
m(I,'icp_iter','Ok (mkIcp (l_pc l) (i_damp s / 2)%R T','Ok (mkIcp (i_src s) (i_damp s / 2)%R T','source not moved','the transform maps the source to its current position')
m(I,'icp_iter','(i_damp s / 2)%R','(i_damp s * 2)%R','damping doubled on success','Levenberg-Marquardt damping schedule')
m(I,'icp_iter','else Ok (mkIcp (i_src s) (i_damp s * 2)%R','else Ok (mkIcp (i_src s) (i_damp s)%R','damping unchanged on failure','Levenberg-Marquardt damping schedule')
m(I,'err_diff','clampR (-70) 70 (l_new l - l_err l)','clampR (-70) 70 (l_err l - l_new l)','difference reversed','gradICP damping grows when the error grows')
m(I,'err_diff','clampR (-70) 70','clampR (-7) 7','clamped to 7','damping factor in the stated range')
m(I,'damp_factor','(lmax - 1 / lmax) / (1 + exp (- B * e))','(lmax - 1 / lmax) / (1 + exp (B * e))','sign in the damping','gradICP damping grows when the error grows')
m(I,'damp_factor','(1 / lmax + (lmax - 1 / lmax)','(lmax + (lmax - 1 / lmax)','offset of the damping','damping factor between 1/lmax and lmax')
m(I,'soft_step','Rpower (1 + exp (- B2 * e)) (1 / nu)','Rpower (1 + exp (- B2 * e)) nu','exponent inverted','step factor formula')
m(I,'grad_iter','let? T\' := matmul T (i_T s) in','let? T\' := matmul (i_T s) T in','composition order','the transform maps the source to its current position')
m(I,'grad_iter','let? pc := move (i_src s) T in','let pc := l_pc l in','source moved by the full step','the transform maps the source to its current position')
m(I,'grad_iter','guard (nonzero_dec nu) ZeroDivisionError ;;?\n','','nu = 0 accepted','nu = 0 raises')
m(I,'check_init','guard ((nth 1 (dims t) 0 =? 4) && (nth 0 (dims t) 0 =? 4)) ValueError ;;? Ok t','Ok t','shape of the initial transform not checked','bad initial transforms are rejected')
m(I,'start','Ok (mkIcp pc damp init None)','Ok (mkIcp pc damp (mat_ten mI) None)','initial transform forgotten','the result includes the initial transform')
m(I,'start','let? pc := move src init in','let pc := src in','source not moved by the initial transform','the result includes the initial transform')
m(I,'finish','None => Err UnboundLocalError','None => Ok (i_T s, [])','zero iterations succeed','numiters = 0 raises UnboundLocalError')
m(I,'downsample_pointclouds','let rows1 := filter (fun r => divides_z d (rh r)) rows in','let rows1 := rows in','row filter dropped','downsampling keeps the points on the grid')
m(I,'downsample_pointclouds','let rows2 := filter (fun r => divides_z d (rw r)) rows1 in','let rows2 := filter (fun r => divides_z d (rh r)) rows1 in','columns filtered by rows','downsampling keeps the points on the grid')
m(I,'index_clouds','filter (fun r => rb r =? b) rows','rows','points of all batch elements','downsampling keeps the batch element')
m(I,'downsample_pointclouds','lift (ctor RF (t2_inp (Some pts)) (t2_inp nrm) (t2_inp col) (INone RF))','lift (ctor RF (t2_inp (Some pts)) (t2_inp col) (t2_inp nrm) (INone RF))','normals and colors swapped','downsampling keeps the attributes')
m(I,'strided','((n + ds - 1) / ds)','(n / ds)','last position dropped','downsampling keeps the pixels on the grid')
m(I,'downsample_rgbdimages','list_prod (strided k (r_h s)) (strided k (r_w s))','list_prod (strided k (r_w s)) (strided k (r_h s))','height and width swapped','downsampling keeps the pixels on the grid')
m(I,'downsample_rgbdimages','let ps b := filter (fun q => at_ m [0; snd q; fst q; 0; b]) (list_prod','let ps b := filter (fun _ => true) (list_prod','invalid depth kept','downsampling drops invalid pixels')
m(I,'downsample_rgbdimages','lift (guard (r_L s =? 1) ValueError) ;;;\n','','long sequences accepted','sequence length 1 is required')
m(I,'provide','let? src := nth_cloud fl b in\n        let? tgt := nth_cloud ml b in','let? src := nth_cloud ml b in\n        let? tgt := nth_cloud fl b in','source and target swapped','the provider aligns frames to maps')
m(I,'provide','lift (guard (len RF (fst s) =? len RF (snd s)) ValueError) ;;;\n','','batch sizes not compared','batch sizes must agree')
m(I,'stack_transforms','at_ (nth b l t) [j; i]','at_ t [j; i]','first transform for all','each batch element gets its transform')
m(I,'stack_transforms','at_ (nth b l t) [j; i]','at_ (nth b l t) [i; j]','transposed','each batch element gets its transform')
m(I,'run_icp','| MIcp n d th => point_to_plane_ICP nn src tgt nor init n d th','| MIcp n d th => point_to_plane_ICP nn src tgt nor init n d ThrNone','distance threshold ignored','the provider passes its options')
m(I,'move','let? c := select_first src in','let c := src in','batch dimension not removed','points are moved by the transform')
L='SlamModel'
m(L,'choose_odom','| NIcp => Ok (OIcp (MIcp numiters damp th))','| NIcp => Ok (OIcp (MGradIcp numiters damp th lmax B B2 nu))','icp builds gradicp','odom selects the provider')
m(L,'choose_odom','| NOther => Err ValueError','| NOther => Ok OGt','unknown names fall back to gt','unknown odometry raises ValueError')
m(L,'pointfusion_new','cos (a * PI / 180)','cos a','degrees not converted','angle_th is in degrees')
m(L,'localize','kornia_compose (squeeze1 x) (squeeze1 t)','kornia_compose (squeeze1 t) (squeeze1 x)','composition order','pose = transform * previous pose')
m(L,'localize','on_live (set_poses (match r_poses g with Some t => TTen t | None => TNone end)) ;;;\n','','live frame not given the previous pose','registration starts at the previous pose')
m(L,'localize','do rows <- on_mp find_active_map_points;','do rows <- on_ml find_active_map_points;','active points of the live frame','active map points are those seen by the previous frame')
m(L,'localize','None => raise ValueError end\n   | None','None => ret tt end\n   | None','missing pose of the previous frame accepted','prev_frame must have poses')
m(L,'step','  on_live (set_poses (TTen t)) ;;;\n  do o','  do o','pose not written to the frame','the live frame gets the recovered pose')
m(L,'map_step','| Aggregate => update_map_aggregate inplace','| Aggregate => update_map_aggregate true','always in place','inplace=False leaves the map alone')
m(L,'eye_poses','if i =? j then 1%R else 0%R','if i =? j then 2%R else 0%R','scaled identity','first pose defaults to the identity')
m(L,'forward_loop','if s =? 0 then','if true then','every frame without pose gets the identity','only the first frame gets the default pose')
m(L,'forward_loop','if is_gt (s_odom c) then None else Some live\'','if is_gt (s_odom c) then None else Some live','previous frame without recovered pose','tracking continues from the recovered pose')
m(L,'forward_loop','let prev\' := if is_gt (s_odom c) then None else Some live\' in','let prev\' := None in','no previous frame','tracking uses the previous frame')
m(L,'forward_loop','do r <- forward_loop c n\' (S s) p2 prev\';','do r <- forward_loop c n\' s p2 prev\';','frame index not advanced','every frame is used once')
m(L,'forward_loop','ret (fst r, t :: snd r)','ret (fst r, snd r ++ [t])','poses in reverse order','recovered poses in frame order')
m(L,'forward','forward_loop c (r_L fr) 0 p None','forward_loop c (r_L fr - 1) 0 p None','last frame dropped','every frame is used once')
m(L,'stack_poses','at_ t [j; i; 0; b]','at_ t [j; i; 0; 0]','pose of batch element 0','every batch element gets its poses')
m(L,'frame_at','ESlice None None None; EInt','ESlice None None None; ESlice None (Some (Z.of_nat s + 1)%Z) None] ) g. Definition unused_frame (s:nat) (g:rgbd) := rgbd_getitem (RTuple [EInt','frames[:, :s+1]','frame s alone is used')
E='Se3Model'
m(E,'so3_hat_mat','| 0%nat, 2%nat => w1   | 2%nat, 0%nat => - w1','| 0%nat, 2%nat => - w1   | 2%nat, 0%nat => w1','sign','so3_hat is the cross product')
m(E,'so3_hat_mat','| 1%nat, 2%nat => - w0 | 2%nat, 1%nat => w0','| 1%nat, 2%nat => w0 | 2%nat, 1%nat => w0','not skew','so3_hat is the cross product')
m(E,'se3_hat','else if Nat.eqb j 3 then at1 v i else 0) else 0)','else if Nat.eqb j 3 then at1 v i else 0) else if Nat.eqb j 3 then 1 else 0)','last row of a transform','se3_hat last row is zero')
m(E,'rodA','sin theta / theta','sin theta','not divided','se3_exp is the exponential')
m(E,'rodB','(1 - cos theta) / theta ^ 2','(1 - cos theta) / theta','power','se3_exp is the exponential')
m(E,'rodC','(theta - sin theta) / theta ^ 3','(theta - sin theta) / theta ^ 2','power','se3_exp is the exponential')
m(E,'se3_exp','let t := mvec 3 V (at1 v) in','let t := mvec 3 Rm (at1 v) in','R instead of V','se3_exp is the exponential')
m(E,'se3_exp','else if Nat.eqb j 3 then 1 else 0).','else 0).','last row zero','se3_exp is a rigid transform')
m(E,'se3_exp','let omega := skipn 3 xi in','let omega := firstn 3 xi in','rotation from the first three','se3_exp splits translation and rotation')
m(E,'se3_eps','/ 1000000','/ 10','threshold 0.1','small-angle threshold')
m(E,'so3_exp','then Ok (madd mI wh)','then Ok mI','identity for small angles','small-angle approximation to first order')
P='ProjModel'
m(P,'homogenize_points','if i <? d then at_ pts (i :: r) else 1%R','if i <? d then at_ pts (i :: r) else 0%R','padded with 0','homogenize appends 1')
m(P,'homogenize_points','if ndim pts <? 2 then Err ValueError\n  else match dims pts with\n       | d :: s => Ok (mkTen (S d','if ndim pts <? 1 then Err ValueError\n  else match dims pts with\n       | d :: s => Ok (mkTen (S d','1-d accepted','bad shapes raise')
m(P,'unhomog_scale','if Rlt_dec eps (Rabs w)','if Rlt_dec eps w','negative w not divided','unhomogenize divides by w')
m(P,'unhomog_scale','then (1 / w)%R else 1%R','then (1 / w)%R else 0%R','points at infinity go to 0','unhomogenize leaves points with tiny w')
m(P,'apply_mat','(if d =? k - 1 then homogenize_points pts else Ok pts)','(homogenize_points pts)','homogenised twice','both point formats are accepted')
m(P,'check_mat','guard ((d =? k - 1) || (d =? k)) ValueError','guard (d =? k - 1) ValueError','homogeneous points rejected','both point formats are accepted')
m(P,'check_mat','  guard (negb ((2 <? ndim m) && negb (m0 =? p0))) ValueError.','  Ok tt.','batch sizes not compared','bad shapes raise')
m(P,'check_mat','guard ((a =? k) && (b =? k)) ValueError ;;?\n','','matrix size not checked','bad shapes raise')
m(P,'safe_div','then (x / 1)%R','then 0%R','zero depth projects to 0','zero depth leaves x')
m(P,'project_points','let? z := select_m1 2 pts in','let? z := select_m1 3 pts in','divides by w','projection divides by depth')
m(P,'project_points','Ok (stack_m1 u v).','Ok (stack_m1 v u).','swapped','projection returns (u, v)')
m(P,'unproject_points','tmap2 Rmult pts (unsqueeze_m1 depths).','Ok pts.','not scaled by depth','unprojection scales by depth')
m(P,'unproject_points','guard (if list_eq_dec Nat.eq_dec (tl (dims pixel_coords)) (dims depths) then true else false) ValueError ;;?\n','','shapes of depth not compared','bad shapes raise')
m(P,'inverse_intrinsics','(fun r => -1 * cx r / (fx r + eps))','(fun r => cx r / (fx r + eps))','sign of cx','inverse of the intrinsics')
m(P,'inverse_intrinsics','(fun r => -1 * cy r / (fy r + eps))','(fun r => -1 * cy r / (fx r + eps))','cy divided by fx','inverse of the intrinsics')
m(P,'inverse_intrinsics','(fun r => 1 / (fy r + eps))','(fun r => 1 / (fx r + eps))','fx for fy','inverse of the intrinsics')
m(P,'inverse_intrinsics','Ok (set_ent k5 (d1 - 1) (d0 - 1) (fun _ => 1%R))','Ok k5','last entry not set','inverse of the intrinsics')
G='GTOdomModel'
m(G,'gt_provide','relative_transformation (view_44 (ps_B r1) (ps_L r1) p1) (view_44 (ps_B r2) (ps_L r2) p2) false','relative_transformation (view_44 (ps_B r2) (ps_L r2) p2) (view_44 (ps_B r1) (ps_L r1) p1) false','arguments swapped','ground-truth transform from frame1 to frame2')
m(G,'gt_provide','guard (ps_L r2 =? 1) ValueError ;;?\n','','length of the second not checked','bad arguments raise')
m(G,'gt_provide','guard (ps_B r1 =? ps_B r2) ValueError ;;?\n','','batch sizes not compared','bad arguments raise')
m(G,'view_BL44','b * L + l','l * L + b','batch and sequence swapped','each batch element gets its transform')
D='DataUtilsModel'
m(D,'scale_intrinsics','let k1 := scale_ent K 0 0 w_ratio in','let k1 := scale_ent K 0 0 h_ratio in','height ratio for fx','scaled intrinsics')
m(D,'scale_intrinsics','Ok (scale_ent k3 1 2 h_ratio)','Ok k3','cy not scaled','scaled intrinsics')
m(D,'pq_scale','5 / 10','1','quaternion normalised without the half','rotation of the quaternion')
m(D,'pointquaternion_to_homogeneous','| 0, 1 => o 0%nat 1%nat - o 2%nat 3%nat\n           | 0, 2 => o 0%nat 2%nat + o 1%nat 3%nat\n           | 1, 0 => o 0%nat 1%nat + o 2%nat 3%nat\n           | 1, 1 => 1 - (','| 0, 1 => o 0%nat 1%nat + o 2%nat 3%nat\n           | 0, 2 => o 0%nat 2%nat + o 1%nat 3%nat\n           | 1, 0 => o 0%nat 1%nat + o 2%nat 3%nat\n           | 1, 1 => 1 - (','sign of an entry','rotation of the quaternion')
m(D,'pointquaternion_to_homogeneous','let t k := comp x r k in','let t k := comp x r (4 + k) in','translation from the wrong columns','translation of the pose')
m(D,'transform44','let s := sqrt (2 / nq) in','let s := 2 / nq in','no square root','rotation of the quaternion')
m(D,'transform44','| 1, 1 => 1 - o 0%nat 0%nat - o 2%nat 2%nat','| 1, 1 => 1 - o 0%nat 0%nat - o 1%nat 1%nat','wrong diagonal','rotation of the quaternion')
m(D,'p2t_loop','let? rest := p2t_loop p ps in\n      Ok (mmul','let? rest := p2t_loop prev ps in\n      Ok (mmul','transforms relative to the first pose','transforms between consecutive poses')
m(D,'p2t_loop','Ok (mmul 4 inv p :: rest)','Ok (mmul 4 p inv :: rest)','order','transforms between consecutive poses')
m(D,'poses_to_transforms','Ok (mI :: rest)','Ok (p :: rest)','first pose kept','first transform is the identity')
T='TextModel'
m(T,'strip','rev (lstrip (rev (lstrip s)))','lstrip s','only leading blanks stripped','files are parsed as Python does')
m(T,'is_space','((9 <=? n) && (n <=? 13)) ||','((9 <=? n) && (n <=? 12)) ||','carriage return is not white space','files are parsed as Python does')
m(T,'split_ws','filter nonempty (split_if is_space s)','split_if is_space s','empty words kept','files are parsed as Python does')
m(T,'readlines','if nonempty (last l []) then l else removelast l','l','empty last line kept','files are parsed as Python does')
m(T,'slice_end','Z.to_nat (Z.of_nat n + e) else','n else','negative end ignored','slices as in Python')
m(T,'slice','(slice_end (length l) e - start)','(slice_end (length l) e)','length not reduced by start','slices as in Python')
m(T,'dict_set','if text_eqb k k\' then (k\', v) :: d\'','if text_eqb k k\' then (k\', v\') :: d\'','first value kept','a repeated key gets the last value')
m(T,'text_cmp','| [], [] => Eq | [], _ => Lt | _, [] => Gt','| [], [] => Eq | [], _ => Gt | _, [] => Lt','prefix order reversed','lexicographic order')
m(T,'last_n','skipn (length s - n) s','skipn n s','suffix','s[-n:]')
m(T,'item','None => Err IndexError','None => Err KeyError','wrong exception','IndexError for a missing position')
X='ItemModel'
m(X,'pyitem','(if idx <? 0 then idx + n else idx)%Z','idx','negative indices rejected','negative indices count from the end')
m(X,'stack_0','(fun ix => at_ (nth (last ix 0) l x) (removelast ix))','(fun ix => at_ x (removelast ix))','first frame repeated','frames of the item in order')
m(X,'preprocess_color','cv_linear o (c_width c) (c_height c) x','cv_linear o (c_height c) (c_width c) x','height and width swapped','images have the requested size')
m(X,'preprocess_color','if c_norm c then','if negb (c_norm c) then','normalisation inverted','normalize_color')
m(X,'preprocess_color','if c_first c then channels_first (Img y) else Ok y.','Ok y.','channels_first ignored','channels_first')
m(X,'preprocess_depth','(fun v => v / scaling)','(fun v => v)','depth not scaled','depth in metres')
m(X,'preprocess_depth','cv_nearest o (c_width c) (c_height c) x','cv_linear o (c_width c) (c_height c) x','linear interpolation of depth','depth is resized with nearest neighbour')
m(X,'preprocess_poses','let? p0 := select_first p in','let? p0 := select_first (mkTen (dims p) (fun ix => at_ p (removelast ix ++ [nth 2 (dims p) 0 - 1 - last ix 0]))) in','poses relative to the last frame','poses relative to the first frame')
m(X,'preprocess_label','v mod 256','v mod 128','label truncation','labels')
m(X,'read_frames','let? p := item depth_path i in','let? p := item depth_path 0 in','depth of the first frame','depth belongs to the color image')
m(X,'item_intrinsics','(INR (c_height c) / 480)%R (INR (c_width c) / 640)%R','(INR (c_width c) / 640)%R (INR (c_height c) / 480)%R','ratios swapped','intrinsics of the resized image')
m(X,'K_of','0, 2 => cx | 1, 1 => fy | 1, 2 => cy','0, 2 => cy | 1, 1 => fy | 1, 2 => cx','principal point swapped','intrinsics of the camera')
m(X,'pose_outputs','Ok (a ++ b).','Ok (b ++ a).','transforms before poses','order of the outputs')
m(X,'tum_item','read_frames rnd o c 5000 seqlen cp dp in\n  let? ms := (if load then homogen_poses','read_frames rnd o c 1000 seqlen cp dp in\n  let? ms := (if load then homogen_poses','scale 1000','depth in metres')
m(X,'tum_item','let? st := pyitem (t_stamps d) idx in','let? st := pyitem (t_stamps d) 0 in','timestamps of item 0','timestamps belong to the item')
m(X,'tum_item','Ok (OTen color :: depth ++ intr ++ pt ++ names ++ stamps).','Ok (OTen color :: intr ++ depth ++ pt ++ names ++ stamps).','order','order of the outputs')
m(X,'icl_item','(K_of (4812 / 10) (- 480) (639 / 2) (479 / 2))','(K_of (4812 / 10) 480 (639 / 2) (479 / 2))','sign of fy','intrinsics of the camera')
m(X,'icl_item','load_poses value f (snd meta)','load_poses value f (map (fun l => l) (rev (snd meta)))','poses reversed','poses belong to the frames')
m(X,'scan_item','read_frames rnd o c 1000 seqlen (map sf_color fs) (map sf_depth fs)','read_frames rnd o c 5000 seqlen (map sf_color fs) (map sf_depth fs)','scale 5000','depth in metres')
m(X,'scan_item','let? ip := pyitem (sd_intr d) idx in','let? ip := pyitem (sd_intr d) 0 in','intrinsics of scene 0','intrinsics belong to the scene')
m(X,'stamp_line','txt "rgb " ++ r ++ txt " depth " ++ d','txt "rgb " ++ d ++ txt " depth " ++ r','swapped','timestamps text')
Y='DirModel'
m(Y,'selected','guard (isfile fs p) ValueError ;;? Ok','Ok','missing file accepted','a missing selection file raises')
m(Y,'chosen','Some l => mem name l','Some l => true','selection ignored','only the selected sequences')
m(Y,'tum_folder','  guard (negb (length split <? 4)) ValueError.','  Ok tt.','length not checked','bad folder names rejected')
m(Y,'tum_folder','text_eqb (but_last_n 1 c) (txt "freiburg")','text_eqb c (txt "freiburg")','digit not dropped','folder names')
m(Y,'tum_list','if isdir then','if negb isdir then','files instead of directories','only directories are sequences')
m(Y,'tum_check','guard (negb load || isfile fs (pjoin p (txt "groundtruth.txt"))) ValueError.','guard (isfile fs (pjoin p (txt "groundtruth.txt"))) ValueError.','ground truth always required','ground truth only needed for poses')
m(Y,'tum_check','guard (isfile fs (pjoin p (txt "depth.txt"))) ValueError ;;?\n','','depth.txt not required','missing files raise')
m(Y,'tum_dirs','guard (match sel with Some l => length names =? length l | None => true end) ValueError ;;?\n  let? _','let? _','missing sequences ignored','a selected sequence that does not exist raises')
m(Y,'tum_open','(contents fs (pjoin p (txt "rgb.txt"))) (contents fs (pjoin p (txt "depth.txt")))','(contents fs (pjoin p (txt "depth.txt"))) (contents fs (pjoin p (txt "rgb.txt")))','files swapped','associations of rgb and depth')
m(Y,'icl_folder','text_eqb (firstn 16 f) (txt "living_room_traj") &&','','prefix not checked','folder names')
m(Y,'icl_posefile','txt "livingRoom" ++ num ++ txt "n.gt.sim"','txt "livingRoom" ++ num ++ txt ".gt.sim"','name of the pose file','pose file of the trajectory')
m(Y,'icl_check','guard (isfile fs f) ValueError ;;? Ok (n, Some f)','Ok (n, Some f)','missing pose file accepted','missing files raise')
m(Y,'icl_dirs','guard (match sel with Some l => length names =? length l | None => true end) ValueError ;;?\n  mapM','mapM','missing trajectories ignored','a selected trajectory that does not exist raises')
m(Y,'scene_of','hd [] (split_on "-"%char file)','file','whole name','scenes selected by the part before the dash')
m(Y,'scannet_open','filter (fun m => chosen sel (scene_of m)) metas','metas','selection ignored','only the selected scenes')
json.dump(M,open('/verif/tools/mutants/batch3.json','w'),indent=0)
# check
import collections
c=collections.Counter()
for x in M:
    s=open('/verif/rocq/theories/%s.v'%x['file']).read()
    if s.count(x['old'])!=1: print('BAD',s.count(x['old']),x['definition'],x['edit'])
    c[x['file']]+=1
print(len(M),c)
