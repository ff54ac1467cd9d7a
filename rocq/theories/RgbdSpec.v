(* What an RGBDImages object means, independently of its caches and its channel order: a batch of B
   sequences of L frames of H x W pixels, and the maps derived from them. *)
From Coq Require Import Reals List Arith Bool ZArith.
From Verif Require Import Res Fld StructUtilsModel PointcloudsModel PointcloudsSpec PointcloudsIndexSpec
  MatSpec GeomSpec TensorModel RgbdModel.
Import ListNotations.
Local Open Scope nat_scope.

Record frames : Type := mkFrames {
  fB : nat; fL : nat; fH : nat; fW : nat;
  frgb : nat -> nat -> nat -> nat -> nat -> R;          (* batch, time, row, column, channel *)
  fdep : nat -> nat -> nat -> nat -> R;
  fK : nat -> mat;                                        (* intrinsics of each batch element *)
  fpose : option (nat -> nat -> mat);                     (* pose of each frame *)
  fpix : option (nat -> nat -> nat -> nat -> vec)         (* user-supplied pixel positions *)
}.
Definition with_frgb f a := mkFrames (fB a) (fL a) (fH a) (fW a) f (fdep a) (fK a) (fpose a) (fpix a).
Definition with_fdep f a := mkFrames (fB a) (fL a) (fH a) (fW a) (frgb a) f (fK a) (fpose a) (fpix a).
Definition with_fK f a := mkFrames (fB a) (fL a) (fH a) (fW a) (frgb a) (fdep a) f (fpose a) (fpix a).
Definition with_fpose f a := mkFrames (fB a) (fL a) (fH a) (fW a) (frgb a) (fdep a) (fK a) f (fpix a).
(* the frames at batch positions kb and times kl *)
Definition pick (kb kl : list nat) (a : frames) : frames :=
  let b' b := nth b kb 0 in let l' l := nth l kl 0 in
  mkFrames (length kb) (length kl) (fH a) (fW a)
    (fun b l => frgb a (b' b) (l' l)) (fun b l => fdep a (b' b) (l' l)) (fun b => fK a (b' b))
    (option_map (fun p b l => p (b' b) (l' l)) (fpose a))
    (option_map (fun p b l => p (b' b) (l' l)) (fpix a)).

Definition inside (a : frames) (b l h w : nat) : Prop := b < fB a /\ l < fL a /\ h < fH a /\ w < fW a.

(* ---------------- mathematics of the derived maps ---------------- *)
Local Open Scope R_scope.
(* keep x only at pixels of positive depth *)
Definition keep (d x : R) : R := if Rlt_dec 0 d then x else 0.
(* the pixel as a homogeneous vector (column, row, 1) *)
Definition pixel (a : frames) (b l h w : nat) : vec :=
  match fpix a with Some p => p b l h w | None => vec3 (INR w) (INR h) 1 end.
(* the inverse of the pinhole camera whose focal lengths are those of K plus 1e-6 *)
Definition kinv (K : mat) : mat :=
  let fx := K 0%nat 0%nat + / 1000000 in
  let fy := K 1%nat 1%nat + / 1000000 in
  pinhole (/ fx) (/ fy) (- K 0%nat 2%nat / fx) (- K 1%nat 2%nat / fy) 0.
Definition vertex (a : frames) (b l h w : nat) : vec := fun j =>
  keep (fdep a b l h w) (fdep a b l h w * mvec 3 (kinv (fK a b)) (pixel a b l h w) j).
Definition global_vertex (a : frames) (b l h w : nat) : vec :=
  match fpose a with
  | None => vertex a b l h w
  | Some T => fun j => keep (fdep a b l h w) (act (T b l) (vertex a b l h w) j)
  end.
(* horizontal and vertical vertex differences; the last column / row repeats its neighbour *)
Definition tangent_h (a : frames) (b l h w : nat) : vec :=
  let w' := Nat.min w (fW a - 2) in fun j => vertex a b l h (S w') j - vertex a b l h w' j.
Definition tangent_v (a : frames) (b l h w : nat) : vec :=
  let h' := Nat.min h (fH a - 2) in fun j => vertex a b l (S h') w j - vertex a b l h' w j.
Definition unitize (v : vec) : vec := fun j => v j / (if Req_EM_T (norm 3 v) 0 then 1 else norm 3 v).
Definition normal (a : frames) (b l h w : nat) : vec := fun j =>
  keep (fdep a b l h w) (unitize (cross (tangent_h a b l h w) (tangent_v a b l h w)) j).
Definition global_normal (a : frames) (b l h w : nat) : vec :=
  match fpose a with
  | None => normal a b l h w
  | Some T => mvec 3 (rot_of (T b l)) (normal a b l h w)
  end.
Local Open Scope nat_scope.

(* ---------------- tensors that hold images ---------------- *)
(* channel c of pixel (h, w) of frame (b, l) in a tensor of shape (B,L,C,H,W) resp. (B,L,H,W,C) *)
Definition px {A} (cf : bool) (t : ten A) (b l h w c : nat) : A :=
  if cf then at_ t [w; h; c; l; b] else at_ t [c; w; h; l; b].
Definition img_shape (cf : bool) (a : frames) (C : nat) : list nat :=
  if cf then [fB a; fL a; C; fH a; fW a] else [fB a; fL a; fH a; fW a; C].
Definition Image {A} (cf : bool) (a : frames) (C : nat) (t : ten A) (f : nat -> nat -> nat -> nat -> nat -> A) : Prop :=
  shape t = img_shape cf a C /\
  forall b l h w c, inside a b l h w -> c < C -> px cf t b l h w c = f b l h w c.
Definition Intr (a : frames) (t : ten R) (K : nat -> mat) : Prop :=
  shape t = [fB a; 1; 4; 4] /\ forall b, b < fB a -> meq 4 4 (ent t [0; b]) (K b).
Definition Poses (a : frames) (t : ten R) (T : nat -> nat -> mat) : Prop :=
  shape t = [fB a; fL a; 4; 4] /\ forall b l, b < fB a -> l < fL a -> meq 4 4 (ent t [l; b]) (T b l).
Definition opt_rel {A B} (P : A -> B -> Prop) (x : option A) (y : option B) : Prop :=
  match x, y with None, None => True | Some a, Some b => P a b | _, _ => False end.

(* these input tensors hold the frames a *)
Definition Inputs (cf : bool) (a : frames) (rgb depth intr : ten R) (poses pix : option (ten R)) : Prop :=
  Image cf a 3 rgb (frgb a) /\
  Image cf a 1 depth (fun b l h w _ => fdep a b l h w) /\
  Intr a intr (fK a) /\
  opt_rel (Poses a) poses (fpose a) /\
  opt_rel (Image false a 3) pix (fpix a).

(* everything the API lets one read from s is what frames a, in channel order cf, say *)
Definition Reads {A} (r : res A) (P : A -> Prop) : Prop := exists v, r = Ok v /\ P v.
Definition RShows (s : rgbd) (cf : bool) (a : frames) : Prop :=
  r_cf s = cf /\ (r_B s, r_L s, r_h s, r_w s) = (fB a, fL a, fH a, fW a) /\
  (exists t, r_rgb s = Some t /\ Image cf a 3 t (frgb a)) /\
  (exists t, r_depth s = Some t /\ Image cf a 1 t (fun b l h w _ => fdep a b l h w)) /\
  (exists t, r_intr s = Some t /\ Intr a t (fK a)) /\
  opt_rel (Poses a) (r_poses s) (fpose a) /\
  Reads (fst (valid_depth_mask s))
    (fun m => Image cf a 1 m (fun b l h w _ => if Rlt_dec 0 (fdep a b l h w) then true else false)) /\
  Reads (fst (vertex_map s)) (fun t => Image cf a 3 t (vertex a)) /\
  Reads (fst (global_vertex_map s)) (fun t => Image cf a 3 t (global_vertex a)) /\
  (2 <= fH a -> 2 <= fW a ->
     Reads (fst (normal_map s)) (fun t => Image cf a 3 t (normal a)) /\
     Reads (fst (global_normal_map s)) (fun t => Image cf a 3 t (global_normal a))) /\
  (fH a < 2 \/ fW a < 2 ->
     fst (normal_map s) = Err IndexError /\ fst (global_normal_map s) = Err IndexError).

(* the differences of neighbouring vertices used at pixel (h, w) *)
Definition diff_h (cf : bool) (a : frames) (v : ten R) (b l h w : nat) : vec := fun c =>
  if S w <? fW a then (px cf v b l h (S w) c - px cf v b l h w c)%R else (px cf v b l h w c - px cf v b l h (w - 1) c)%R.
Definition diff_v (cf : bool) (a : frames) (v : ten R) (b l h w : nat) : vec := fun c =>
  if S h <? fH a then (px cf v b l (S h) w c - px cf v b l h w c)%R else (px cf v b l h w c - px cf v b l (h - 1) w c)%R.

(* two reads agree: same exception, or tensors of equal shape and entries *)
Definition same_read {A} (x y : res (ten A)) : Prop :=
  match x, y with Ok u, Ok v => teq u v | Err e, Err e' => e = e' | _, _ => False end.
(* an optional tensor as a Python argument *)
Definition arg (o : option (ten R)) : tinp := match o with Some t => TTen t | None => TNone end.

(* ---------------- index expressions ---------------- *)
(* Python / PyTorch semantics: integers address one position, negative ones count from the end *)
Definition Addresses1 (e : ielem) (n : nat) (ks : list nat) : Prop :=
  match e with
  | EInt i => exists k, resolves n i k /\ ks = [k]
  | ESlice start stop step => match step with None => True | Some k => (0 < k)%Z end /\
      slice_sel start stop (match step with None => 1%Z | Some k => k end) n ks
  | EOther => False
  end.
Definition Addresses (ix : rindex) (a : frames) (kb kl : list nat) : Prop :=
  match ix with
  | RInt i => Addresses1 (EInt i) (fB a) kb /\ kl = seq 0 (fL a)
  | RTuple [e0; e1] => Addresses1 e0 (fB a) kb /\ Addresses1 e1 (fL a) kl
  | _ => False
  end.

(* some element of the index is the integer -1 *)
Definition last_item (ix : rindex) : Prop :=
  match ix with RInt i => i = (-1)%Z | RTuple l => In (EInt (-1)) l | ROther => False end.
(* elements that are neither int nor slice are not modelled *)
Definition plain (ix : rindex) : Prop := match ix with RTuple l => ~ In EOther l | _ => True end.

(* ---------------- histories ---------------- *)
Inductive rread := RdMask | RdVertex | RdNormal | RdGlobalVertex | RdGlobalNormal.
Definition after_read (r : rread) (s : rgbd) : rgbd :=
  match r with
  | RdMask => snd (valid_depth_mask s)
  | RdVertex => snd (vertex_map s)
  | RdNormal => snd (normal_map s)
  | RdGlobalVertex => snd (global_vertex_map s)
  | RdGlobalNormal => snd (global_normal_map s)
  end.

(* RHist q s cf a: object s was obtained by some finite sequence of public calls documented to yield the
   frames a in channel order cf; q = true if a derived map or the mask may have been read from this very
   object (not from the object it was copied or sliced from).  The two rules that need q = false are the
   in-place channel conversions and the depth setter (which keep a stale mask, see C32 and C33). *)
Inductive RHist : bool -> rgbd -> bool -> frames -> Prop :=
| h_new rgb depth intr poses pix cf a s :
    Inputs cf a rgb depth intr (ten_of poses) (ten_of pix) ->
    rgbd_new (TTen rgb) (TTen depth) (TTen intr) poses cf pix = Ok s -> RHist false s cf a
| h_read q s cf a r : RHist q s cf a -> RHist true (after_read r s) cf a
| h_cloud q s cf a g f r s' :
    RHist q s cf a -> pointclouds_from_rgbdimages g f s = (r, s') -> RHist true s' cf a
| h_set_rgb q s cf a t f s' :
    RHist q s cf a -> set_rgb (TTen t) s = (Ok tt, s') -> Image cf a 3 t f -> RHist q s' cf (with_frgb f a)
| h_set_depth s cf a t f s' :
    RHist false s cf a -> set_depth (TTen t) s = (Ok tt, s') -> Image cf a 1 t (fun b l h w _ => f b l h w) ->
    RHist false s' cf (with_fdep f a)
| h_set_intr q s cf a t K s' :
    RHist q s cf a -> set_intr (TTen t) s = (Ok tt, s') -> Intr a t K -> RHist q s' cf (with_fK K a)
| h_set_poses q s cf a t T s' :
    RHist q s cf a -> set_poses (TTen t) s = (Ok tt, s') -> Poses a t T -> RHist q s' cf (with_fpose (Some T) a)
| h_drop_poses q s cf a s' :
    RHist q s cf a -> set_poses TNone s = (Ok tt, s') -> RHist q s' cf (with_fpose None a)
| h_set_fail q s cf a v e s' :
    RHist q s cf a ->
    (set_rgb v s = (Err e, s') \/ set_depth v s = (Err e, s') \/ set_intr v s = (Err e, s') \/
     set_poses v s = (Err e, s')) -> RHist q s' cf a
| h_last_ s cf a r s' : RHist false s cf a -> to_channels_last_ s = (r, s') -> RHist false s' false a
| h_first_ s cf a r s' : RHist false s cf a -> to_channels_first_ s = (r, s') -> RHist false s' true a
| h_last_noop q s a r s' : RHist q s false a -> to_channels_last_ s = (r, s') -> RHist q s' false a
| h_first_noop q s a r s' : RHist q s true a -> to_channels_first_ s = (r, s') -> RHist q s' true a
| h_last q s cf a copy o : RHist q s cf a -> to_channels_last copy s = Ok (New o) -> RHist false o false a
| h_first q s cf a copy o : RHist q s cf a -> to_channels_first copy s = Ok (New o) -> RHist false o true a
| h_clone q s cf a o : RHist q s cf a -> rgbd_clone s = Ok o -> RHist false o cf a
| h_item q s cf a ix kb kl o :
    RHist q s cf a -> Addresses ix a kb kl -> rgbd_getitem ix s = Ok o -> RHist false o cf (pick kb kl a).

(* ---------------- point clouds of a frame ---------------- *)
(* the (row, column) positions, row by row *)
Definition row_major (H W : nat) : list (nat * nat) := list_prod (seq 0 H) (seq 0 W).
Definition chosen (filt : bool) (a : frames) (b : nat) : list (nat * nat) :=
  filter (fun q => if filt then (if Rlt_dec 0 (fdep a b 0 (fst q) (snd q)) then true else false) else true)
    (row_major (fH a) (fW a)).
(* one three-column row per chosen pixel of batch element b *)
Definition per_pixel (filt : bool) (a : frames) (x : nat -> nat -> nat -> nat -> vec) : list (t2 R) :=
  map (fun b => mkT2 3 (map (fun q => map (x b 0 (fst q) (snd q)) [0; 1; 2]) (chosen filt a b))) (seq 0 (fB a)).
Definition frame_clouds (glob filt : bool) (a : frames) : batch RF :=
  mkQ (Some (per_pixel filt a (if glob then global_vertex a else vertex a)))
      (Some (per_pixel filt a (if glob then global_normal a else normal a)))
      (Some (per_pixel filt a (frgb a))) None.
