(* Model of the conversions to open3d and plotly: pointclouds.py:1239-1383, rgbdimages.py:764-900,
   structutils.py:126-178 (numpy_to_plotly_image, img_to_b64str).
   Simplifications: the permutation torch.randperm draws is a parameter; Vector3dVector and go.Scatter3d, which hold
   the array they are given, and the JPEG string, which is a function of the array, are left out; so are the layout,
   the buttons and the hover text of the figures (a figure shows the traces and frames modelled here). *)
From Coq Require Import List Arith ZArith Reals Bool.
From Verif Require Import Res Fld TensorModel StructUtilsModel PointcloudsModel RgbdModel.
Import ListNotations.
Local Open Scope nat_scope.

(* the index argument: isinstance(index, int) or not *)
Inductive iarg := AInt (i : Z) | ANotInt.
(* what the returned object holds *)
Record cloud3d (C : Type) : Type := mkCloud3d { g_points : t2 R; g_colors : option C; g_normals : option (t2 R) }.
Arguments mkCloud3d {C}. Arguments g_points {C}. Arguments g_colors {C}. Arguments g_normals {C}.

(* perm[:k] for a tensor perm *)
Definition upto (k : Z) (perm : list nat) : list nat :=
  if (k <? 0)%Z then firstn (Z.to_nat (Z.of_nat (length perm) + k)) perm else firstn (Z.to_nat k) perm.
(* x[inds] *)
Definition take_rows (inds : option (list nat)) (x : t2 R) : t2 R :=
  match inds with None => x | Some l => mkT2 (t2c x) (map (fun i => nth i (t2r x) []) l) end.
(* x.max(); of a tensor without entries an exception *)
Definition tmax (x : list R) : res R :=
  match x with [] => Err RuntimeError | a :: l => Ok (fold_left Rmax l a) end.
(* torch.clamp(x, lo, hi) *)
Definition clampR (lo hi x : R) : R := Rmin hi (Rmax lo x).
(* every entry *)
Definition t2map {B} (f : R -> B) (x : t2 R) : t2 B := mkT2 (t2c x) (map (map f) (t2r x)).
(* colors.detach().cpu().numpy().astype("uint8"), of numbers between 0 and 255: rounding toward 0 *)
Definition to_uint8 (x : R) : Z := Int_part x.

(* pointclouds.py:1280-1284 *)
Definition unit_colors (x : t2 R) : res (t2 R) :=
  let? m := tmax (concat (t2r x)) in
  Ok (t2map (clampR 0 1) (if Rlt_dec (11 / 10) m then t2map (fun c => c / 255)%R x else x)).
(* pointclouds.py:1340-1344 *)
Definition byte_colors (x : t2 R) : res (t2 Z) :=
  let? m := tmax (concat (t2r x)) in
  Ok (t2map to_uint8 (t2map (clampR 0 255) (if Rlt_dec m (11 / 10) then t2map (fun c => c * 255)%R x else x))).

(* the attribute list of one cloud: self.colors_list[index] *)
Definition cloud_of (x : attr) (i : Z) : M (pc RF) (t2 R) :=
  do l <- get_list RF x; match l with None => raise TypeError | Some l => lift (py_nth l i) end.
(* the common part of pointclouds.py:1261-1294 and 1323-1345 *)
Definition export {C} (perm : nat -> list nat) (paint : t2 R -> res C) (ix : iarg) (include_colors : bool)
    (max_num_points : option Z) (include_normals : bool) : M (pc RF) (cloud3d C) :=
  match ix with
  | ANotInt => raise TypeError
  | AInt i =>
      do s <- get;
      do n <- lift (py_nth (num RF s) i);
      do p <- cloud_of Points i;
      let inds := match max_num_points with
                  | Some m => if (m <? Z.of_nat n)%Z then Some (upto m (perm n)) else None
                  | None => None end in
      do hc <- has RF Colors;
      do c <- (if hc && include_colors
               then do x <- cloud_of Colors i; do y <- lift (paint (take_rows inds x)); ret (Some y) else ret None);
      do hn <- has RF Normals;
      do v <- (if hn && include_normals then do x <- cloud_of Normals i; ret (Some (take_rows inds x)) else ret None);
      ret (mkCloud3d (take_rows inds p) c v)
  end.
(* pointclouds.py:1239-1294 *)
Definition open3d (perm : nat -> list nat) (ix : iarg) (include_colors : bool) (max_num_points : option Z) (include_normals : bool) :
  M (pc RF) (cloud3d (t2 R)) := export perm unit_colors ix include_colors max_num_points include_normals.
(* pointclouds.py:1296-1383 *)
Definition plotly (perm : nat -> list nat) (ix : iarg) (include_colors : bool) (max_num_points : option Z) :
  M (pc RF) (cloud3d (t2 Z)) := export perm byte_colors ix include_colors max_num_points false.

(* ---------------- rgbdimages.py:764-900 ---------------- *)
(* a scale: a number, inf or nan *)
Inductive scale := Times (r : R) | InfScale | NanScale.
(* log10 *)
Definition log10 (x : R) : R := (ln x / ln 10)%R.
(* rgbdimages.py:823: 10 ** log10(255.0 / max).floor(); for max = 0 this is inf, for a negative one nan *)
Definition depth_scale (m : R) : scale :=
  if Rlt_dec 0 m then Times (powerRZ 10 (Int_part (log10 (255 / m)))) else if Req_EM_T m 0 then InfScale else NanScale.
(* the entries of a tensor, the last dimension fastest *)
Fixpoint entries {A} (ds : list nat) (f : list nat -> A) : list A :=
  match ds with [] => [f []] | d :: ds' => concat (map (fun i => entries ds' (fun ix => f (i :: ix))) (seq 0 d)) end.
(* an array of bytes *)
Definition bytes := ten Z.
(* x[index] for a tensor: one extent less; its entries *)
Definition first_at {A} (t : ten A) (i : nat) : ten A := mkTen (removelast (dims t)) (fun ix => at_ t (ix ++ [i])).
(* x[..., 0] *)
Definition last_at {A} (t : ten A) (c : nat) : ten A := mkTen (tl (dims t)) (fun ix => at_ t (c :: ix)).
(* the largest entry of a tensor *)
Definition tenmax (t : ten R) : res R := tmax (entries (rev (dims t)) (fun ix => at_ t (rev ix))).
(* structutils.py:161-178 img_to_b64str: arrays of rank 2 or 3; cv2.cvtColor(RGB2BGR) needs 3 or 4 channels (cv2.error) *)
Definition encodes (img : bytes) : res bytes :=
  if ndim img =? 2 then Ok img
  else if ndim img =? 3 then (if (hd 0 (dims img) =? 3) || (hd 0 (dims img) =? 4) then Ok img else Err RuntimeError)
  else Err ValueError.
(* one entry of frames: the name, the image and the depth image with its scale *)
Record frame2d : Type := mkFrame { fr_name : nat; fr_rgb : bytes; fr_depth : option (bytes * R) }.
(* astype("uint8") of any finite number: toward 0, modulo 256 *)
Definition wrap_uint8 (x : R) : Z := ((if Rlt_dec x 0 then - Int_part (- x) else Int_part x) mod 256)%Z.

(* the frames, or OverflowError *)
Inductive shown := Frames (l : list frame2d) | RaisedOverflow.

(* rgbdimages.py:801-835; int(scale) of structutils.py:152 is an OverflowError for inf, a ValueError for nan *)
Definition rgbd_plotly (ix : iarg) (include_depth : bool) : MR shown :=
  match ix with
  | ANotInt => raise TypeError
  | AInt i =>
      do s <- get;
      match r_rgb s, r_depth s with
      | Some rgb, Some dep =>
          do b <- lift (py_nth (seq 0 (hd 0 (shape rgb))) i);
          let x := first_at rgb b in
          do m <- lift (tenmax x);
          let y := mkTen (dims x) (fun j => to_uint8 (clampR 0 255 (if Rlt_dec m (11 / 10) then at_ x j * 255 else at_ x j)%R)) in
          do imgs <- lift (mapM (fun l => encodes (first_at y l)) (seq 0 (last (dims y) 0)));
          if negb include_depth then ret (Frames (map (fun q => mkFrame (fst q) (snd q) None) (combine (seq 0 (length imgs)) imgs)))
          else
            let d := last_at (first_at dep b) 0 in
            do m <- lift (tenmax d);
            match depth_scale m with
            | InfScale => ret RaisedOverflow
            | NanScale => raise ValueError
            | Times sc =>
                let z := mkTen (dims d) (fun j => wrap_uint8 (at_ d j * sc)%R) in
                do deps <- lift (mapM (fun l => encodes (first_at z l)) (seq 0 (last (dims z) 0)));
                ret (Frames (map (fun q => mkFrame (fst q) (fst (snd q)) (Some (snd (snd q), sc)))
                         (combine (seq 0 (length imgs)) (combine imgs deps))))
            end
      | _, _ => raise AttributeError
      end
  end.
