(* Model of gradslam/structures/rgbdimages.py and gradslam/structures/utils.py.
   Tensors are TensorModel tensors over R (extents and indices listed from the last dimension to the first).
   Simplifications: one device (device checks, to/cpu/cuda not modelled); autograd not modelled (detach is
   clone); plotly export not modelled; tensors are immutable values (the class never writes into a tensor
   it shares). *)
From Coq Require Import Reals List Arith Bool ZArith.
From Verif Require Import Res Fld StructUtilsModel PointcloudsModel MatSpec TensorModel ProjModel GeomModel.
Import ListNotations.
Local Open Scope nat_scope.

(* a Python argument: None, a tensor, anything else *)
Inductive tinp := TNone | TTen (t : ten R) | TOther.
(* torch.is_tensor(x) (rgbdimages.py:79-100) *)
Definition is_tensor (x : tinp) : bool := match x with TTen _ => true | _ => false end.
(* x is None or torch.is_tensor(x) (rgbdimages.py:79-100) *)
Definition opt_tensor (x : tinp) : bool := match x with TOther => false | _ => true end.
(* the tensor in an argument *)
Definition ten_of (x : tinp) : option (ten R) := match x with TTen t => Some t | _ => None end.

(* rgbdimages.py:120-183: the private fields.  [r_depsh] is self._depth_image_shape, an attribute that
   does not exist until to_channels_last_/to_channels_first_ creates it. *)
Record rgbd : Type := mkRGBD {
  r_cf : bool;
  r_rgb : option (ten R); r_depth : option (ten R); r_intr : option (ten R);
  r_poses : option (ten R); r_pix : option (ten R);
  r_vm : option (ten R); r_nm : option (ten R); r_gvm : option (ten R); r_gnm : option (ten R);
  r_mask : option (ten bool);
  r_rgbsh : list nat; r_depsh : option (list nat); r_intrsh : list nat; r_posesh : list nat;
  r_B : nat; r_L : nat; r_h : nat; r_w : nat
}.

(* rgbdimages.py:250-257 *)
Definition cdim (cf : bool) : nat := if cf then 2 else 4.

(* tuple(v if i != cdim else 1 for i, v in enumerate(shape)) *)
Definition set_nth (k v : nat) (l : list nat) : list nat := firstn k l ++ v :: skipn (S k) l.
(* the shape without extent k (rgbdimages.py:126-130) *)
Definition del_nth (k : nat) (l : list nat) : list nat := firstn k l ++ skipn (S k) l.

(* rgbdimages.py:67-183 *)
Definition rgbd_new (rgb depth intr poses : tinp) (cf : bool) (pix : tinp) : res rgbd :=
  guard (is_tensor rgb) TypeError ;;?
  guard (is_tensor depth) TypeError ;;?
  guard (is_tensor intr) TypeError ;;?
  guard (opt_tensor poses) TypeError ;;?
  guard (opt_tensor pix) TypeError ;;?
  match rgb, depth, intr with
  | TTen rgb, TTen depth, TTen intr =>
      guard (ndim rgb =? 5) ValueError ;;?
      guard (ndim depth =? 5) ValueError ;;?
      guard (ndim intr =? 4) ValueError ;;?
      guard (match poses with TTen p => ndim p =? 4 | _ => true end) ValueError ;;?
      let sh := shape rgb in
      let dsh := set_nth (cdim cf) 1 sh in
      let ish := [nth 0 sh 0; 1; 4; 4] in
      let psh := [nth 0 sh 0; nth 1 sh 0; 4; 4] in
      let pixsh := del_nth (cdim cf) sh ++ [3] in
      guard (nth (cdim cf) sh 0 =? 3) ValueError ;;?
      guard (shape_eqb (shape depth) dsh) ValueError ;;?
      guard (shape_eqb (shape intr) ish) ValueError ;;?
      guard (match poses with TTen p => shape_eqb (shape p) psh | _ => true end) ValueError ;;?
      guard (match pix with TTen p => shape_eqb (shape p) pixsh | _ => true end) ValueError ;;?
      Ok (mkRGBD cf (Some rgb) (Some depth) (Some intr) (ten_of poses) (ten_of pix)
            None None None None None
            sh None ish psh
            (nth 0 sh 0) (nth 1 sh 0) (if cf then nth 3 sh 0 else nth 2 sh 0)
            (if cf then nth 4 sh 0 else nth 3 sh 0))
  | _, _, _ => Err TypeError
  end.

(* field updates *)
Definition with_rgb v s := mkRGBD (r_cf s) v (r_depth s) (r_intr s) (r_poses s) (r_pix s) (r_vm s) (r_nm s)
  (r_gvm s) (r_gnm s) (r_mask s) (r_rgbsh s) (r_depsh s) (r_intrsh s) (r_posesh s) (r_B s) (r_L s) (r_h s) (r_w s).
(* assignment of self._depth_image (rgbdimages.py:413-429) *)
Definition with_depth v s := mkRGBD (r_cf s) (r_rgb s) v (r_intr s) (r_poses s) (r_pix s) (r_vm s) (r_nm s)
  (r_gvm s) (r_gnm s) (r_mask s) (r_rgbsh s) (r_depsh s) (r_intrsh s) (r_posesh s) (r_B s) (r_L s) (r_h s) (r_w s).
(* assignment of self._intrinsics (rgbdimages.py:431-447) *)
Definition with_intr v s := mkRGBD (r_cf s) (r_rgb s) (r_depth s) v (r_poses s) (r_pix s) (r_vm s) (r_nm s)
  (r_gvm s) (r_gnm s) (r_mask s) (r_rgbsh s) (r_depsh s) (r_intrsh s) (r_posesh s) (r_B s) (r_L s) (r_h s) (r_w s).
(* assignment of self._poses (rgbdimages.py:449-463) *)
Definition with_poses v s := mkRGBD (r_cf s) (r_rgb s) (r_depth s) (r_intr s) v (r_pix s) (r_vm s) (r_nm s)
  (r_gvm s) (r_gnm s) (r_mask s) (r_rgbsh s) (r_depsh s) (r_intrsh s) (r_posesh s) (r_B s) (r_L s) (r_h s) (r_w s).
(* assignment of self._pixel_pos (rgbdimages.py:647-661) *)
Definition with_pix v s := mkRGBD (r_cf s) (r_rgb s) (r_depth s) (r_intr s) (r_poses s) v (r_vm s) (r_nm s)
  (r_gvm s) (r_gnm s) (r_mask s) (r_rgbsh s) (r_depsh s) (r_intrsh s) (r_posesh s) (r_B s) (r_L s) (r_h s) (r_w s).
(* assignment of the four cached maps (rgbdimages.py:166-169) *)
Definition with_maps vm nm gvm gnm s := mkRGBD (r_cf s) (r_rgb s) (r_depth s) (r_intr s) (r_poses s) (r_pix s)
  vm nm gvm gnm (r_mask s) (r_rgbsh s) (r_depsh s) (r_intrsh s) (r_posesh s) (r_B s) (r_L s) (r_h s) (r_w s).
(* assignment of self._vertex_map *)
Definition with_vm v s := with_maps v (r_nm s) (r_gvm s) (r_gnm s) s.
(* assignment of self._normal_map *)
Definition with_nm v s := with_maps (r_vm s) v (r_gvm s) (r_gnm s) s.
(* assignment of self._global_vertex_map *)
Definition with_gvm v s := with_maps (r_vm s) (r_nm s) v (r_gnm s) s.
(* assignment of self._global_normal_map *)
Definition with_gnm v s := with_maps (r_vm s) (r_nm s) (r_gvm s) v s.
(* assignment of self._valid_depth_mask (rgbdimages.py:319-332) *)
Definition with_vmask v s := mkRGBD (r_cf s) (r_rgb s) (r_depth s) (r_intr s) (r_poses s) (r_pix s) (r_vm s) (r_nm s)
  (r_gvm s) (r_gnm s) v (r_rgbsh s) (r_depsh s) (r_intrsh s) (r_posesh s) (r_B s) (r_L s) (r_h s) (r_w s).
(* assignment of _channels_first and the two image shapes (rgbdimages.py:575-617) *)
Definition with_layout cf rgbsh depsh s := mkRGBD cf (r_rgb s) (r_depth s) (r_intr s) (r_poses s) (r_pix s) (r_vm s)
  (r_nm s) (r_gvm s) (r_gnm s) (r_mask s) rgbsh depsh (r_intrsh s) (r_posesh s) (r_B s) (r_L s) (r_h s) (r_w s).

Notation MR := (M rgbd).

(* ---------------------------------------------------------------- setters *)
(* rgbdimages.py:904-915 *)
Definition assert_shape (v : ten R) (sh : list nat) : res unit := guard (shape_eqb (shape v) sh) ValueError.

(* rgbdimages.py:399-411 *)
Definition set_rgb (v : tinp) : MR unit :=
  do s <- get;
  match v with
  | TOther => raise TypeError
  | TTen t => lift (assert_shape t (r_rgbsh s)) ;;; modify (with_rgb (Some t))
  | TNone => modify (with_rgb None)
  end.
(* rgbdimages.py:413-429: self._depth_image_shape may not exist; _valid_depth_mask is not reset *)
Definition set_depth (v : tinp) : MR unit :=
  do s <- get;
  match v with
  | TNone => modify (fun s => with_maps None None None None (with_depth None s))
  | _ =>
      match r_depsh s with
      | None => raise AttributeError
      | Some sh =>
          match v with
          | TTen t => lift (assert_shape t sh) ;;;
                      modify (fun s => with_maps None None None None (with_depth (Some t) s))
          | _ => raise TypeError
          end
      end
  end.
(* rgbdimages.py:431-447 *)
Definition set_intr (v : tinp) : MR unit :=
  do s <- get;
  match v with
  | TOther => raise TypeError
  | TTen t => lift (assert_shape t (r_intrsh s)) ;;;
              modify (fun s => with_maps None None None None (with_intr (Some t) s))
  | TNone => modify (fun s => with_maps None None None None (with_intr None s))
  end.
(* rgbdimages.py:449-463 *)
Definition set_poses (v : tinp) : MR unit :=
  do s <- get;
  match v with
  | TOther => raise TypeError
  | TTen t => lift (assert_shape t (r_posesh s)) ;;;
              modify (fun s => with_maps (r_vm s) (r_nm s) None None (with_poses (Some t) s))
  | TNone => modify (fun s => with_maps (r_vm s) (r_nm s) None None (with_poses None s))
  end.

(* ---------------------------------------------------------------- clone, channel order *)
(* rgbdimages.py:479-497 (and detach, 465-477) *)
Definition rgbd_clone (s : rgbd) : res rgbd :=
  match r_rgb s, r_depth s, r_intr s with
  | Some a, Some b, Some c =>
      let? o := rgbd_new (TTen a) (TTen b) (TTen c) TNone (r_cf s) TNone in
      Ok (with_maps (r_vm s) (r_nm s) (r_gvm s) (r_gnm s) (with_pix (r_pix s) (with_poses (r_poses s) o)))
  | _, _, _ => Err AttributeError
  end.

(* tensor.permute(0, 1, 3, 4, 2) and tensor.permute(0, 1, 4, 2, 3); RuntimeError for another rank *)
Definition permute_last (x : ten R) : res (ten R) :=
  match dims x with
  | [w; h; c; l; b] => Ok (mkTen [c; w; h; l; b] (fun ix => match ix with
        | [kc; kw; kh; kl; kb] => at_ x [kw; kh; kc; kl; kb] | _ => 0%R end))
  | _ => Err RuntimeError
  end.
(* rgbdimages.py:619-641 with the order (0, 1, 4, 2, 3) *)
Definition permute_first (x : ten R) : res (ten R) :=
  match dims x with
  | [c; w; h; l; b] => Ok (mkTen [w; h; c; l; b] (fun ix => match ix with
        | [kw; kh; kc; kl; kb] => at_ x [kc; kw; kh; kl; kb] | _ => 0%R end))
  | _ => Err RuntimeError
  end.
(* rgbdimages.py:619-641 *)
Definition permute_if_not_None (p : ten R -> res (ten R)) (x : option (ten R)) : res (option (ten R)) :=
  match x with None => Ok None | Some t => rmap Some (p t) end.

(* rgbdimages.py:575-617: both in-place conversions; _valid_depth_mask and _pixel_pos are not permuted.
   The fields are assigned one by one, so an exception leaves the earlier ones changed. *)
Definition convert_ (p : ten R -> res (ten R)) (cf : bool) : MR unit :=
  do s <- get; do x <- lift (permute_if_not_None p (r_rgb s)); modify (with_rgb x) ;;;
  do s <- get; do x <- lift (permute_if_not_None p (r_depth s)); modify (with_depth x) ;;;
  do s <- get; do x <- lift (permute_if_not_None p (r_vm s)); modify (with_vm x) ;;;
  do s <- get; do x <- lift (permute_if_not_None p (r_gvm s)); modify (with_gvm x) ;;;
  do s <- get; do x <- lift (permute_if_not_None p (r_nm s)); modify (with_nm x) ;;;
  do s <- get; do x <- lift (permute_if_not_None p (r_gnm s)); modify (with_gnm x) ;;;
  modify (fun s => with_layout cf (r_rgbsh s) (r_depsh s) s) ;;;
  do s <- get;
  match r_rgb s with
  | None => raise AttributeError
  | Some a =>
      modify (fun s => with_layout cf (shape a) (r_depsh s) s) ;;;
      match r_depth s with
      | None => raise AttributeError
      | Some b => modify (fun s => with_layout cf (r_rgbsh s) (Some (shape b)) s)
      end
  end.
(* rgbdimages.py:575-595 *)
Definition to_channels_last_ : MR unit :=
  do s <- get; if r_cf s then convert_ permute_last false else ret tt.
(* rgbdimages.py:597-617 *)
Definition to_channels_first_ : MR unit :=
  do s <- get; if r_cf s then ret tt else convert_ permute_first true.

(* an object-valued result: the receiver itself, or a new object *)
Inductive obj := Self | New (s : rgbd).
(* run an in-place method on a copy (rgbdimages.py:543-573) *)
Definition run_on (m : MR unit) (s : rgbd) : res rgbd :=
  match m s with (Ok _, s') => Ok s' | (Err e, _) => Err e end.
(* rgbdimages.py:543-557 *)
Definition to_channels_last (copy : bool) (s : rgbd) : res obj :=
  if negb (copy || r_cf s) then Ok Self
  else let? o := rgbd_clone s in let? o' := run_on to_channels_last_ o in Ok (New o').
(* rgbdimages.py:559-573 *)
Definition to_channels_first (copy : bool) (s : rgbd) : res obj :=
  if negb copy && r_cf s then Ok Self
  else let? o := rgbd_clone s in let? o' := run_on to_channels_first_ o in Ok (New o').

(* ---------------------------------------------------------------- indexing *)
Inductive ielem := EInt (i : Z) | ESlice (start stop step : option Z) | EOther.
(* rgbdimages.py:185-236: the argument of __getitem__ *)
Inductive rindex := RInt (i : Z) | RTuple (l : list ielem) | ROther.

(* the positions a slice selects along a tensor dimension; torch rejects steps that are not positive *)
Definition slice_pos (start stop step : option Z) (n : nat) : res (list nat) :=
  guard (match step with None => true | Some k => (0 <? k)%Z end) ValueError ;;?
  rmap (map Z.to_nat) (slice_idx start stop step n).
(* rgbdimages.py:194-205: an int x is turned into slice(x, x + 1).  Elements of a tuple that are neither
   int nor slice (lists, tensors, None, Ellipsis) are not modelled. *)
Definition elem_pos (e : ielem) (n : nat) : res (list nat) :=
  match e with
  | EInt i => slice_pos (Some i) (Some (i + 1)%Z) None n
  | ESlice a b c => slice_pos a b c n
  | EOther => Err Unmodelled
  end.
(* x[sl0, sl1] with slices selecting positions kb, kl of the first two dimensions *)
Definition take_BL (kb kl : list nat) (x : ten R) : res (ten R) :=
  match shape x with
  | _ :: _ :: rest =>
      Ok (mkTen (rev (length kb :: length kl :: rest)) (fun ix => match rev ix with
            | b :: l :: r => at_ x (rev (nth b kb 0 :: nth l kl 0 :: r)) | _ => 0%R end))
  | _ => Err IndexError
  end.
(* rgbdimages.py:216-236: x[i, j] if x is not None *)
Definition take_opt (kb kl : list nat) (x : option (ten R)) : res (option (ten R)) :=
  match x with None => Ok None | Some t => rmap Some (take_BL kb kl t) end.

(* rgbdimages.py:185-236 *)
Definition rgbd_getitem (ix : rindex) (s : rgbd) : res rgbd :=
  match ix with
  | ROther => Err IndexError
  | _ =>
      let? (e0, e1) :=
        match ix with
        | RInt i => Ok (EInt i, ESlice None None None)
        | RTuple (_ :: _ :: _ :: _) => Err IndexError
        | RTuple [a; b] => Ok (a, b)
        | _ => Err IndexError                          (* _index_slices[0] or [1] of a shorter tuple *)
        end in
      match r_rgb s with
      | None => Err TypeError
      | Some rgb =>
          let? kb := elem_pos e0 (r_B s) in
          let? kl := elem_pos e1 (r_L s) in
          let? new_rgb := take_BL kb kl rgb in
          guard (negb (length kb =? 0)) IndexError ;;?
          guard (negb (length kl =? 0)) IndexError ;;?
          match r_depth s with
          | None => Err TypeError
          | Some depth =>
              let? new_depth := take_BL kb kl depth in
              match r_intr s with
              | None => Err TypeError
              | Some intr =>
                  let? new_intr := take_BL kb [0] intr in
                  let? o := rgbd_new (TTen new_rgb) (TTen new_depth) (TTen new_intr) TNone (r_cf s) TNone in
                  let? p := take_opt kb kl (r_poses s) in
                  let? px := take_opt kb kl (r_pix s) in
                  let? vm := take_opt kb kl (r_vm s) in
                  let? nm := take_opt kb kl (r_nm s) in
                  let? gvm := take_opt kb kl (r_gvm s) in
                  let? gnm := take_opt kb kl (r_gnm s) in
                  Ok (with_maps vm nm gvm gnm (with_pix px (with_poses p o)))
              end
          end
      end
  end.

(* ---------------------------------------------------------------- derived maps *)
Definition R_of_bool (b : bool) : R := if b then 1%R else 0%R.
(* depth > 0 (rgbdimages.py:319-332) *)
Definition pos_dec (d : R) : bool := if Rlt_dec 0 d then true else false.

(* rgbdimages.py:319-332 *)
Definition valid_depth_mask : MR (ten bool) :=
  do s <- get;
  match r_mask s with
  | Some m => ret m
  | None =>
      match r_depth s with
      | None => raise TypeError
      | Some d => let m := tmap pos_dec d in modify (with_vmask (Some m)) ;;; ret m
      end
  end.
(* x * self.valid_depth_mask.to(x.dtype) *)
Definition masked (x : ten R) : MR (ten R) :=
  do m <- valid_depth_mask; lift (tmap2 Rmult x (tmap R_of_bool m)).

(* rgbdimages.py:647-661: meshgrid[..., 1:], meshgrid[..., 0:1], ones *)
Definition pixel_grid (B L h w : nat) : ten R :=
  let mg := create_meshgrid h w false in
  mkTen [3; w; h; L; B] (fun ix => match ix with
    | [c; j; i; _; _] => if c =? 0 then at_ mg [1; j; i; 0] else if c =? 1 then at_ mg [0; j; i; 0] else 1%R
    | _ => 0%R end).

(* equality of shapes *)
Definition dims_eqb (a b : list nat) : bool := if list_eq_dec Nat.eq_dec a b then true else false.

(* einsum("bsjc,bshwc->bsjhw") resp. "->bshwj": a (B,L,3,3) matrix tensor applied to (B,L,H,W,3) vectors *)
Definition einsum_last (cf : bool) (K P : ten R) : res (ten R) :=
  match dims P with
  | [c; w; h; l; b] =>
      guard ((c =? 3) && dims_eqb (dims K) [3; 3; l; b]) RuntimeError ;;?
      Ok (if cf then mkTen [w; h; 3; l; b] (fun ix => match ix with
                [kw; kh; j; kl; kb] => rsum 3 (fun c => at_ K [c; j; kl; kb] * at_ P [c; kw; kh; kl; kb])%R
                | _ => 0%R end)
          else mkTen [3; w; h; l; b] (fun ix => match ix with
                [j; kw; kh; kl; kb] => rsum 3 (fun c => at_ K [c; j; kl; kb] * at_ P [c; kw; kh; kl; kb])%R
                | _ => 0%R end))
  | _ => Err RuntimeError
  end.
(* einsum("bsjc,bschw->bsjhw") *)
Definition einsum_first (K P : ten R) : res (ten R) :=
  match dims P with
  | [w; h; c; l; b] =>
      guard ((c =? 3) && dims_eqb (dims K) [3; 3; l; b]) RuntimeError ;;?
      Ok (mkTen [w; h; 3; l; b] (fun ix => match ix with
            [kw; kh; j; kl; kb] => rsum 3 (fun c => at_ K [c; j; kl; kb] * at_ P [kw; kh; c; kl; kb])%R
            | _ => 0%R end))
  | _ => Err RuntimeError
  end.

(* Kinv[..., :3, :3].repeat(1, L, 1, 1) of a (B, 1, 4, 4) tensor *)
Definition kinv_rep (L : nat) (x : ten R) : res (ten R) :=
  match dims x with
  | [4; 4; 1; b] => Ok (mkTen [3; 3; L; b] (fun ix => match ix with
        | [c; j; _; kb] => at_ x [c; j; 0; kb] | _ => 0%R end))
  | _ => Err RuntimeError
  end.

(* rgbdimages.py:643-679.  _vertex_map is assigned before it is masked. *)
Definition compute_vertex_map : MR unit :=
  do s <- get;
  match r_depth s with
  | None => raise AttributeError
  | Some d =>
      (match r_pix s with
       | None => modify (with_pix (Some (pixel_grid (r_B s) (r_L s) (r_h s) (r_w s))))
       | Some _ => ret tt
       end) ;;;
      do s <- get;
      match r_intr s, r_pix s with
      | Some K, Some P =>
          do ki <- lift (inverse_intrinsics K eps6);
          do kr <- lift (kinv_rep (r_L s) ki);
          do e <- lift (einsum_last (r_cf s) kr P);
          do v <- lift (tmap2 Rmult e d);
          modify (with_vm (Some v)) ;;;
          do v' <- masked v;
          modify (with_vm (Some v'))
      | _, _ => raise TypeError
      end
  end.
(* a cached map: compute when absent, then return it *)
Definition cached (f : rgbd -> option (ten R)) (compute : MR unit) : MR (ten R) :=
  do s <- get;
  match f s with
  | Some v => ret v
  | None => compute ;;; do s' <- get; match f s' with Some v => ret v | None => raise Unmodelled end
  end.
(* rgbdimages.py:343-355 *)
Definition vertex_map : MR (ten R) := cached r_vm compute_vertex_map.

(* poses[..., :3, :3], poses[..., :3, 3] *)
Definition pose_rot (p : ten R) : ten R :=
  mkTen (3 :: 3 :: skipn 2 (dims p)) (fun ix => at_ p ix).
(* the translation column of a pose (rgbdimages.py:681-708) *)
Definition pose_tr (p : ten R) (kb kl j : nat) : R := at_ p [3; j; kl; kb].
(* rmat applied, in either layout *)
Definition rotate_map (cf : bool) (p x : ten R) : res (ten R) :=
  if cf then einsum_first (pose_rot p) x else einsum_last false (pose_rot p) x.
(* x + tvec.view(B, L, 3, 1, 1) resp. tvec.view(B, L, 1, 1, 3) *)
Definition add_tvec (cf : bool) (p x : ten R) : ten R :=
  mkTen (dims x) (fun ix => match ix with
    | [k0; k1; k2; kl; kb] => (at_ x ix + pose_tr p kb kl (if cf then k2 else k0))%R | _ => 0%R end).

(* rgbdimages.py:681-708 *)
Definition compute_global_vertex_map : MR unit :=
  do s <- get;
  match r_poses s with
  | None => do v <- vertex_map; modify (with_gvm (Some v))
  | Some p =>
      do v <- vertex_map;
      do e <- lift (rotate_map (r_cf s) p v);
      modify (with_gvm (Some e)) ;;;
      let g := add_tvec (r_cf s) p e in
      modify (with_gvm (Some g)) ;;;
      do g' <- masked g;
      modify (with_gvm (Some g'))
  end.
(* rgbdimages.py:371-383 *)
Definition global_vertex_map : MR (ten R) := cached r_gvm compute_global_vertex_map.

(* position p (from the last dimension) of an index or shape *)
Definition upd (p v : nat) (ix : list nat) : list nat := firstn p ix ++ v :: skipn (S p) ix.
(* zeros_like(x); [:-1] = x[1:] - x[:-1] along dimension p *)
Definition fwd_diff (p : nat) (x : ten R) : ten R :=
  mkTen (dims x) (fun ix => let i := nth p ix 0 in
    if S i <? nth p (dims x) 0 then (at_ x (upd p (S i) ix) - at_ x ix)%R else 0%R).
(* y[-1] = y[-2] along dimension p: IndexError when there is no entry -2 *)
Definition copy_last (p : nat) (y : ten R) : res (ten R) :=
  let n := nth p (dims y) 0 in
  if n <? 2 then Err IndexError
  else Ok (mkTen (dims y) (fun ix => if nth p ix 0 =? n - 1 then at_ y (upd p (n - 2) ix) else at_ y ix)).
(* torch.cross(x, y, dim) *)
Definition cross_at (p : nat) (x y : ten R) : res (ten R) :=
  guard (nth p (dims x) 0 =? 3) RuntimeError ;;?
  Ok (mkTen (dims x) (fun ix =>
        cross (fun k => at_ x (upd p k ix)) (fun k => at_ y (upd p k ix)) (nth p ix 0))).
(* x / where(norm == 0, 1, norm), norm = x.norm(dim).unsqueeze(dim) *)
Definition unit_at (p : nat) (x : ten R) : ten R :=
  mkTen (dims x) (fun ix =>
    let n := norm 3 (fun k => at_ x (upd p k ix)) in
    (at_ x ix / (if Req_EM_T n 0 then 1 else n))%R).

(* rgbdimages.py:710-743.  Width is dimension 0 from the end and height 1 when channels come first, else 1
   and 2; the channel dimension is 2 resp. 0. *)
Definition compute_normal_map : MR unit :=
  do v <- vertex_map;
  do s <- get;
  let pw := if r_cf s then 0 else 1 in
  let ph := if r_cf s then 1 else 2 in
  let pc := if r_cf s then 2 else 0 in
  do dh <- lift (copy_last pw (fwd_diff pw v));
  do dv <- lift (copy_last ph (fwd_diff ph v));
  do n <- lift (cross_at pc dh dv);
  let u := unit_at pc n in
  modify (with_nm (Some u)) ;;;
  do u' <- masked u;
  modify (with_nm (Some u')).
(* rgbdimages.py:357-369 *)
Definition normal_map : MR (ten R) := cached r_nm compute_normal_map.

(* rgbdimages.py:745-762 *)
Definition compute_global_normal_map : MR unit :=
  do s <- get;
  match r_poses s with
  | None => do n <- normal_map; modify (with_gnm (Some n))
  | Some p =>
      do n <- normal_map;
      do e <- lift (rotate_map (r_cf s) p n);
      modify (with_gnm (Some e))
  end.
(* rgbdimages.py:385-397 *)
Definition global_normal_map : MR (ten R) := cached r_gnm compute_global_normal_map.

(* ---------------------------------------------------------------- structures/utils.py *)
(* the (h, w) positions of an image, row by row *)
Definition pixels (h w : nat) : list (nat * nat) := list_prod (seq 0 h) (seq 0 w).
(* the three channels of x[b, 0, i, j] (channels last) *)
Definition row3 (x : ten R) (b : nat) (q : nat * nat) : list R :=
  map (fun c => at_ x [c; snd q; fst q; 0; b]) [0; 1; 2].
(* x[b][mask[b]] and x.reshape(B, -1, 3)[b] *)
Definition gather (x : ten R) (ps : list (nat * nat)) (b : nat) : t2 R := mkT2 3 (map (row3 x b) ps).

(* utils.py:40-57, on an object in channels-last layout *)
Definition cloud_parts (glob : bool) : MR (ten R * ten R) :=
  do v <- (if glob then global_vertex_map else vertex_map);
  do n <- (if glob then global_normal_map else normal_map);
  ret (v, n).
(* utils.py:40-57 *)
Definition build_clouds (glob filt : bool) : MR (pc RF) :=
  do (v, n) <- cloud_parts glob;
  if filt then
    do m <- valid_depth_mask;
    do s <- get;
    match r_rgb s with
    | None => raise TypeError
    | Some rgb =>
        let ps b := filter (fun q => at_ m [0; snd q; fst q; 0; b]) (pixels (r_h s) (r_w s)) in
        let bs := seq 0 (r_B s) in
        let lst x := IList RF (map (fun b => AT2 RF (gather x (ps b) b)) bs) in
        lift (ctor RF (lst v) (lst n) (lst rgb) (INone RF))
    end
  else
    do s <- get;
    match r_rgb s with
    | None => raise AttributeError
    | Some rgb =>
        let ps := pixels (r_h s) (r_w s) in
        let bs := seq 0 (r_B s) in
        let flat x := ITensor RF (AT3 RF (mkT3 (length ps) 3 (map (fun b => t2r (gather x ps b)) bs))) in
        lift (ctor RF (flat v) (flat n) (flat rgb) (INone RF))
    end.
(* utils.py:7-57.  reshape(B, -1, 3) for B = 0 raises RuntimeError (ambiguous -1). *)
Definition pointclouds_from_rgbdimages (glob filt : bool) : MR (pc RF) :=
  do s <- get;
  lift (guard (r_L s =? 1) ValueError) ;;;
  do o <- lift (to_channels_last false s);
  let body := (if negb filt && (r_B s =? 0)
               then (do _ <- cloud_parts glob; raise RuntimeError) else build_clouds glob filt) in
  match o with
  | Self => body
  | New s' => lift (fst (body s'))
  end.
