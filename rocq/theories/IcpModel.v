(* Model of gradslam/odometry/icputils.py and of the two ICP odometry providers.
   Tensors are [ten R] (exact reals); dtypes, devices, contiguity and gradients are not modelled. *)
From Coq Require Import Reals List Arith Bool ZArith.
From Verif Require Import Res Fld StructUtilsModel PointcloudsModel MatSpec TensorModel GeomModel RgbdModel FusionModel
  Se3Model SolveModel.
Import ListNotations.
Local Open Scope nat_scope.

(* Python values an argument may be *)
Inductive damp_arg := DBad | DFloat (d : R) | DTen (nd : nat) (d : R).   (* the value of a 0-d tensor *)
Inductive num_arg := NumBad | Num (x : R).                               (* float or int *)
Inductive int_arg := IntBad | IntV (z : Z).
(* dist_thresh: wrong type, None or a number (icputils.py:93-232) *)
Inductive thr_arg := ThrBad | ThrNone | Thr (t : R).
(* torch.is_tensor check *)
Definition need_tensor (x : tinp) : res (ten R) := match x with TTen t => Ok t | _ => Err TypeError end.
(* isinstance(x, (int, float)) check *)
Definition need_num (x : num_arg) : res R := match x with Num r => Ok r | NumBad => Err TypeError end.
(* isinstance(x, int) check *)
Definition need_int (x : int_arg) : res Z := match x with IntV z => Ok z | IntBad => Err TypeError end.
(* the number in damp (icputils.py:22-90) *)
Definition damp_val (d : damp_arg) : R := match d with DBad => 0%R | DFloat x => x | DTen _ x => x end.

(* torch.eye(k) * c *)
Definition scaled_eye (k : nat) (c : R) : ten R :=
  mkTen [k; k] (fun ix => match ix with [j; i] => (delta i j * c)%R | _ => 0%R end).

(* icputils.py:22-90 *)
Definition solve_linear_system (A b : tinp) (damp : damp_arg) : res (ten R) :=
  let? A := need_tensor A in
  let? b := need_tensor b in
  guard (match damp with DBad => false | _ => true end) TypeError ;;?
  guard (match damp with DTen nd _ => nd =? 0 | _ => true end) ValueError ;;?
  guard (ndim A =? 2) ValueError ;;?
  guard (ndim b =? 2) ValueError ;;?
  guard (nth 0 (dims b) 0 =? 1) ValueError ;;?
  guard (nth 1 (dims A) 0 =? nth 1 (dims b) 0) ValueError ;;?
  let A_t := transpose_m A in
  let? ata := matmul A_t A in
  let? m := tmap2 Rplus ata (scaled_eye (nth 0 (dims A) 0) (damp_val damp)) in
  let? inv := torch_inverse_2d m in
  let? atb := matmul A_t b in
  matmul inv atb.

(* knn_points(src, tgt) with K = 1 (chamferdist, external): for each source point the squared distance to a
   nearest target point and its index.  [nn n tgt p] is the index chosen for p among tgt 0 .. tgt (n-1);
   how ties are broken is left open.  An empty target (with a non-empty source) is not modelled. *)
Definition nnfun := nat -> (nat -> vec) -> vec -> nat.
(* the k-th point of a (1, N, 3) cloud *)
Definition point (x : ten R) (k : nat) : vec := comp x [k; 0].
(* x.shape[1] *)
Definition npts (x : ten R) : nat := nth 1 (dims x) 0.
(* x.ndim != 3 raises ValueError (icputils.py:150-180) *)
Definition cloud3_check (x : ten R) : res unit := guard (ndim x =? 3) ValueError.
(* x.shape[0] != 1 raises ValueError (icputils.py:150-180) *)
Definition batch1_check (x : ten R) : res unit := guard (nth 2 (dims x) 0 =? 1) ValueError.
(* x.shape[2] != 3 raises ValueError (icputils.py:181-194) *)
Definition width3_check (x : ten R) : res unit := guard (nth 0 (dims x) 0 =? 3) ValueError.

(* icputils.py:203-212: the source points that are kept; dist1 holds squared distances *)
Definition kept (nn : nnfun) (src tgt : ten R) (th : thr_arg) : list nat :=
  filter (fun i => match th with
    | Thr t => if Rlt_dec (dist2 3 (point src i) (point tgt (nn (npts tgt) (point tgt) (point src i)))) t then true else false
    | _ => true end) (seq 0 (npts src)).
(* icputils.py:227-229: one row of A, from source point s, associated normal n *)
Definition gn_row (s n : vec) : list R :=
  let sx := s 0 in let sy := s 1 in let sz := s 2 in
  let nx := n 0 in let ny := n 1 in let nz := n 2 in
  [nx; ny; nz; nz * sy - ny * sz; nx * sz - nz * sx; ny * sx - nx * sy]%R.
(* icputils.py:230 *)
Definition gn_res (s d n : vec) : R :=
  (n 0%nat * (d 0%nat - s 0%nat) + n 1%nat * (d 1%nat - s 1%nat) + n 2%nat * (d 2%nat - s 2%nat))%R.

(* icputils.py:93-232 *)
Definition gauss_newton_solve (nn : nnfun) (src tgt nor : tinp) (th : thr_arg) : res (ten R * ten R * list nat) :=
  let? src := need_tensor src in
  let? tgt := need_tensor tgt in
  let? nor := need_tensor nor in
  guard (match th with ThrBad => false | _ => true end) TypeError ;;?
  cloud3_check src ;;? cloud3_check tgt ;;? cloud3_check nor ;;?
  batch1_check src ;;? batch1_check tgt ;;? batch1_check nor ;;?
  guard (npts tgt =? npts nor) ValueError ;;?
  width3_check src ;;? width3_check tgt ;;? width3_check nor ;;?
  guard (negb ((npts tgt =? 0) && negb (npts src =? 0))) Unmodelled ;;?
  let ks := kept nn src tgt th in
  let idx i := nn (npts tgt) (point tgt) (point src i) in
  let A := mkTen [6; length ks] (fun ix => match ix with
             | [j; r] => let i := nth r ks 0 in nth j (gn_row (point src i) (point nor (idx i))) 0%R | _ => 0%R end) in
  let b := mkTen [1; length ks] (fun ix => match ix with
             | [_; r] => let i := nth r ks 0 in gn_res (point src i) (point tgt (idx i)) (point nor (idx i))
             | _ => 0%R end) in
  Ok (A, b, map idx ks).

(* ---------------------------------------------------------------- the two ICP loops *)
(* x[0] *)
Definition select_first (x : ten R) : res (ten R) :=
  match rev (dims x) with
  | S _ :: r => Ok (mkTen (rev r) (fun ix => at_ x (ix ++ [0])))
  | _ => Err IndexError
  end.
(* a 4x4 matrix as a tensor *)
Definition mat_ten (T : mat) : ten R :=
  mkTen [4; 4] (fun ix => match ix with [j; i] => T i j | _ => 0%R end).
(* the entries of a (6, 1) tensor *)
Definition column (x : ten R) : list R := map (fun i => at_ x [0; i]) (seq 0 (nth 1 (dims x) 0)).
(* torch.dot(b[:, 0], b[:, 0]) *)
Definition sq_err (b : ten R) : R := rsum (nth 1 (dims b) 0) (fun i => Rmult (at_ b [0; i]) (at_ b [0; i])).

(* the variables of the loop: src_pc, damp, transform, chamfer_indices *)
Record icp_state := mkIcp { i_src : ten R; i_damp : R; i_T : ten R; i_idx : option (list nat) }.

(* se3_exp(s * xi) and the moved source transform_pointcloud(src_pc[0], T).unsqueeze(0) *)
Definition step_transform (s : R) (xi : ten R) : res (ten R) :=
  rmap mat_ten (se3_exp (map (Rmult s) (column xi))).
(* transform_pointcloud(src_pc[0], T).unsqueeze(0) (icputils.py:323, 345) *)
Definition move (src T : ten R) : res (ten R) :=
  let? c := select_first src in
  let? c' := transform_pointcloud c T in
  Ok (unsqueeze_0 c').

(* the part of the loop bodies that the two functions share (icputils.py:327-354 / 497-524):
   xi, err, new_err, the residual transform of a full step, the moved source, the indices.
   se3_exp multiplies nothing for ICP; the factor 1 stands for xi itself. *)
Record look := mkLook { l_xi : ten R; l_err : R; l_new : R; l_T : ten R; l_pc : ten R; l_idx : list nat }.
(* icputils.py:327-354 / 497-524 *)
Definition lookahead (nn : nnfun) (tgt nor : ten R) (th : thr_arg) (src : ten R) (damp : R) : res look :=
  let? (A, b, idx) := gauss_newton_solve nn (TTen src) (TTen tgt) (TTen nor) th in
  let? xi := solve_linear_system (TTen A) (TTen b) (DTen 0 damp) in
  let? T := rmap mat_ten (se3_exp (column xi)) in
  let? pc := move src T in
  let? (_, b1, _) := gauss_newton_solve nn (TTen pc) (TTen tgt) (TTen nor) th in
  Ok (mkLook xi (sq_err b) (sq_err b1) T pc idx).

(* icputils.py:326-365, one iteration *)
Definition icp_iter (nn : nnfun) (tgt nor : ten R) (th : thr_arg) (s : icp_state) : res icp_state :=
  let? l := lookahead nn tgt nor th (i_src s) (i_damp s) in
  if Rlt_dec (l_new l) (l_err l)
  then let? T := matmul (l_T l) (i_T s) in
       Ok (mkIcp (l_pc l) (i_damp s / 2)%R T (Some (l_idx l)))
  else Ok (mkIcp (i_src s) (i_damp s * 2)%R (i_T s) (Some (l_idx l))).

(* errdiff.clamp(-70, 70) *)
Definition err_diff (l : look) : R := clampR (-70) 70 (l_new l - l_err l)%R.
(* icputils.py:532-535 *)
Definition damp_factor (lmax B e : R) : R :=
  (1 / lmax + (lmax - 1 / lmax) / (1 + exp (- B * e)))%R.
(* icputils.py:538; Python raises ZeroDivisionError for nu = 0 *)
Definition soft_step (B2 nu e : R) : R := (1 / Rpower (1 + exp (- B2 * e)) (1 / nu))%R.
(* icputils.py:496-543, one iteration *)
Definition grad_iter (nn : nnfun) (tgt nor : ten R) (th : thr_arg) (lmax B B2 nu : R) (s : icp_state) : res icp_state :=
  let? l := lookahead nn tgt nor th (i_src s) (i_damp s) in
  let e := err_diff l in
  let damp := (i_damp s * damp_factor lmax B e)%R in
  guard (nonzero_dec nu) ZeroDivisionError ;;?
  let? T := step_transform (soft_step B2 nu e) (l_xi l) in
  let? pc := move (i_src s) T in
  let? T' := matmul T (i_T s) in
  Ok (mkIcp pc damp T' (Some (l_idx l))).

(* for it in range(n) *)
Fixpoint iterate {S : Type} (f : S -> res S) (n : nat) (s : S) : res S :=
  match n with O => Ok s | S k => let? s1 := f s in iterate f k s1 end.
(* return transform, chamfer_indices: the second is unbound when the loop did not run *)
Definition finish (s : icp_state) : res (ten R * list nat) :=
  match i_idx s with Some l => Ok (i_T s, l) | None => Err UnboundLocalError end.

(* the initial_transform argument: "initial_transform.ndim" is evaluated before None is replaced *)
Definition check_init (x : tinp) : res (ten R) :=
  match x with
  | TTen t => guard (ndim t =? 2) ValueError ;;?
              guard ((nth 1 (dims t) 0 =? 4) && (nth 0 (dims t) 0 =? 4)) ValueError ;;? Ok t
  | _ => Err AttributeError
  end.
(* icputils.py:318-324 / 488-494 *)
Definition start (src init : ten R) (damp : R) : res icp_state :=
  let? pc := move src init in Ok (mkIcp pc damp init None).

(* icputils.py:235-367; damp is a number *)
Definition point_to_plane_ICP (nn : nnfun) (src tgt nor init : tinp) (numiters : int_arg) (damp : R) (th : thr_arg)
    : res (ten R * list nat) :=
  let? src := need_tensor src in
  let? tgt := need_tensor tgt in
  let? nor := need_tensor nor in
  guard (opt_tensor init) TypeError ;;?
  let? n := need_int numiters in
  let? init := check_init init in
  let? s0 := start src init damp in
  let? s := iterate (icp_iter nn tgt nor th) (Z.to_nat n) s0 in
  finish s.

(* icputils.py:370-545; 1 / lambda_max raises ZeroDivisionError for 0 *)
Definition point_to_plane_gradICP (nn : nnfun) (src tgt nor init : tinp) (numiters : int_arg) (damp : R) (th : thr_arg)
    (lambda_max B B2 nu : num_arg) : res (ten R * list nat) :=
  let? src := need_tensor src in
  let? tgt := need_tensor tgt in
  let? nor := need_tensor nor in
  guard (opt_tensor init) TypeError ;;?
  let? n := need_int numiters in
  let? lmax := need_num lambda_max in
  let? B := need_num B in
  let? B2 := need_num B2 in
  let? nu := need_num nu in
  let? init := check_init init in
  guard (nonzero_dec lmax) ZeroDivisionError ;;?
  let? s0 := start src init damp in
  let? s := iterate (grad_iter nn tgt nor th lmax B B2 nu) (Z.to_nat n) s0 in
  finish s.

(* ---------------------------------------------------------------- downsampling *)
(* x % ds_ratio == 0 on non-negative integers *)
Definition divides_z (ds : Z) (x : nat) : bool := (Z.of_nat x mod ds =? 0)%Z.
(* l[idx] for a (N, C) tensor *)
Definition index_rows (x : t2 R) (idx : list nat) : res (t2 R) :=
  let? rows := mapM (fun n => match nth_error (t2r x) n with Some r => Ok r | None => Err IndexError end) idx in
  Ok (mkT2 (t2c x) rows).
(* the list comprehension over b in range(B) *)
Definition index_clouds (l : option (list (t2 R))) (B : nat) (rows : list row) : res (list (t2 R)) :=
  mapM (fun b => match l with
    | None => Err TypeError
    | Some l => match nth_error l b with
                | None => Err IndexError
                | Some x => index_rows x (map rn (filter (fun r => rb r =? b) rows))
                end
    end) (seq 0 B).
(* a list of 2-d tensors as a constructor argument (icputils.py:600-620) *)
Definition t2_inp (o : option (list (t2 R))) : inp RF :=
  match o with None => INone RF | Some l => IList RF (map (AT2 RF) l) end.

(* icputils.py:548-620.  The table is an integer tensor with non-negative entries; remainder by 0 raises
   RuntimeError ("ZeroDivisionError") as soon as there is a row. *)
Definition downsample_pointclouds (t : table) (ds : int_arg) : M (pc RF) (pc RF) :=
  lift (table_type t) ;;;
  do d <- lift (need_int ds);
  do rows <- lift (table_rows t);
  do s <- get;
  let B := len RF s in
  lift (guard (negb ((d =? 0)%Z && negb (length rows =? 0))) RuntimeError) ;;;
  let rows1 := filter (fun r => divides_z d (rh r)) rows in
  let rows2 := filter (fun r => divides_z d (rw r)) rows1 in
  do pl <- (if B =? 0 then ret None else get_list RF Points);
  do pts <- lift (index_clouds pl B rows2);
  do nl <- get_list RF Normals;
  do nrm <- (match nl with None => ret None | Some _ => do x <- lift (index_clouds nl B rows2); ret (Some x) end);
  do cl <- get_list RF Colors;
  do col <- (match cl with None => ret None | Some _ => do x <- lift (index_clouds cl B rows2); ret (Some x) end);
  lift (ctor RF (t2_inp (Some pts)) (t2_inp nrm) (t2_inp col) (INone RF)).

(* the row (or column) positions start, start + ds, ... of ::ds on an extent n *)
Definition strided (ds n : nat) : list nat := map (fun k => k * ds) (seq 0 ((n + ds - 1) / ds)).
(* icputils.py:623-669.  For a channels-first frame the mask (B, 1, 1, H, W), whose last axis is not removed by squeeze(-1)
   when W <> 1, is strided on its last two axes, the map (1, 3, H, W) of element b on its second and third: the two shapes
   never agree and indexing raises IndexError.  Channels-first frames of width below 2 or with an empty batch are not modelled. *)
Definition downsample_rgbdimages (ds : int_arg) : M rgbd (pc RF) :=
  do d <- lift (need_int ds);
  do s <- get;
  lift (guard (r_L s =? 1) ValueError) ;;;
  do m <- valid_depth_mask;
  lift (guard (0 <? d)%Z ValueError) ;;;                    (* slice step must be positive *)
  lift (guard (negb (r_cf s) || (0 <? r_B s) && (1 <? r_w s)) Unmodelled) ;;;
  let k := Z.to_nat d in
  let ps b := filter (fun q => at_ m [0; snd q; fst q; 0; b]) (list_prod (strided k (r_h s)) (strided k (r_w s))) in
  let pick x := IList RF (map (fun b => AT2 RF (gather x (ps b) b)) (seq 0 (r_B s))) in
  do v <- global_vertex_map;
  lift (guard (negb (r_cf s)) IndexError) ;;;               (* the mask does not fit the channels-first map *)
  do n <- global_normal_map;
  do s' <- get;
  match r_rgb s' with
  | None => raise TypeError
  | Some rgb => lift (ctor RF (pick v) (pick n) (pick rgb) (INone RF))
  end.

(* ---------------------------------------------------------------- providers *)
Inductive odom_method :=
| MIcp (numiters : int_arg) (damp : R) (th : thr_arg)
| MGradIcp (numiters : int_arg) (damp : R) (th : thr_arg) (lambda_max B B2 nu : num_arg).
(* icp.py:36-97 / gradicp.py:57-122: which of the two functions is called *)
Definition run_icp (nn : nnfun) (o : odom_method) (src tgt nor init : tinp) : res (ten R * list nat) :=
  match o with
  | MIcp n d th => point_to_plane_ICP nn src tgt nor init n d th
  | MGradIcp n d th l B B2 nu => point_to_plane_gradICP nn src tgt nor init n d th l B B2 nu
  end.

(* points_list[b].unsqueeze(0) as a (1, N, C) tensor *)
Definition cloud_ten (x : t2 R) : ten R :=
  mkTen [t2c x; length (t2r x); 1] (fun ix => match ix with j :: i :: _ => nth j (nth i (t2r x) []) 0%R | _ => 0%R end).
(* xs[b].unsqueeze(0) (icp.py:70-90) *)
Definition nth_cloud (l : option (list (t2 R))) (b : nat) : res tinp :=
  match l with
  | None => Err TypeError
  | Some l => match nth_error l b with None => Err IndexError | Some x => Ok (TTen (cloud_ten x)) end
  end.
(* torch.eye(4) *)
Definition eye4 : ten R := mat_ten mI.
(* torch.stack(transforms).unsqueeze(1) *)
Definition stack_transforms (l : list (ten R)) : res (ten R) :=
  match l with
  | [] => Err RuntimeError
  | t :: _ => Ok (mkTen [4; 4; 1; length l] (fun ix => match ix with
        | [j; i; _; b] => at_ (nth b l t) [j; i] | _ => 0%R end))
  end.

(* icp.py:36-97 and gradicp.py:57-122; state: (maps, frames).  The lists are read once instead of once per
   batch element (reading a list does not change it). *)
Definition provide (nn : nnfun) (o : odom_method) : M (pc RF * pc RF) (ten R) :=
  do nl <- on1 RF (get_list RF Normals);
  match nl with
  | None => raise ValueError
  | Some _ =>
      do s <- get;
      lift (guard (len RF (fst s) =? len RF (snd s)) ValueError) ;;;
      let B := len RF (fst s) in
      do fl <- (if B =? 0 then ret None else on2 RF (get_list RF Points));
      do ml <- (if B =? 0 then ret None else on1 RF (get_list RF Points));
      do ts <- lift (mapM (fun b =>
        let? src := nth_cloud fl b in
        let? tgt := nth_cloud ml b in
        let? nor := nth_cloud nl b in
        let? (t, _) := run_icp nn o src tgt nor (TTen eye4) in Ok t) (seq 0 B));
      lift (stack_transforms ts)
  end.
