(* Model of gradslam/slam/icpslam.py and gradslam/slam/pointfusion.py.
   State of step: the map, the live frame and the previous frame (three different objects; [step_same]: one frame in both roles).
   Simplifications: one device (.to(device) returns its receiver); warnings and nn.Module are not modelled;
   dist_th and angle_th are numbers. *)
From Coq Require Import Reals List Arith Bool ZArith.
From Verif Require Import Res Fld StructUtilsModel PointcloudsModel MatSpec TensorModel GeomModel RgbdModel FusionModel Se3Model SolveModel IcpModel.
Import ListNotations.
Local Open Scope nat_scope.

(* icpslam.py:80-97: self.odom and self.odomprov *)
Inductive odometry := OGt | OIcp (o : odom_method).
(* the class: ICPSLAM._map (icpslam.py:249-264) or PointFusion._map (pointfusion.py:107-112) *)
Inductive mapper := Aggregate | Fusion (dist_th dot_th : R) (sigma : sigma_arg).
(* icpslam.py:80-97: the object *)
Record slam : Type := mkSlam { s_nn : nnfun; s_odom : odometry; s_ds : int_arg; s_map : mapper }.

(* icpslam.py:65-97.  [name] is the odom argument; the provider constructors only store their arguments
   (icp.py:17-34, gradicp.py:25-55). *)
Inductive odom_name := NGt | NIcp | NGradIcp | NOther.
(* icpslam.py:80-95 *)
Definition choose_odom (name : odom_name) (numiters : int_arg) (damp : R) (th : thr_arg) (lmax B B2 nu : num_arg) : res odometry :=
  match name with
  | NGt => Ok OGt
  | NIcp => Ok (OIcp (MIcp numiters damp th))
  | NGradIcp => Ok (OIcp (MGradIcp numiters damp th lmax B B2 nu))
  | NOther => Err ValueError
  end.
(* icpslam.py:65-97 *)
Definition icpslam_new (nn : nnfun) (name : odom_name) (ds numiters : int_arg) (damp : R) (th : thr_arg) (lmax B B2 nu : num_arg) : res slam :=
  let? o := choose_odom name numiters damp th lmax B B2 nu in Ok (mkSlam nn o ds Aggregate).
(* pointfusion.py:53-105 *)
Definition pointfusion_new (nn : nnfun) (name : odom_name) (dist_th angle_th : num_arg) (sigma : sigma_arg) (ds numiters : int_arg)
    (damp : R) (th : thr_arg) (lmax B B2 nu : num_arg) : res slam :=
  let? o := choose_odom name numiters damp th lmax B B2 nu in
  let? d := need_num dist_th in
  let? a := need_num angle_th in
  Ok (mkSlam nn o ds (Fusion d (cos (a * PI / 180)) sigma)).

Notation world := (pc RF * rgbd * option rgbd)%type.
Notation MW := (M world).
(* code on the map and the live frame; on the map; on the live frame; on the map and the previous frame *)
Definition on_ml {A} (m : MS A) : MW A := fun w => let (r, ml) := m (fst w) in (r, (ml, snd w)).
(* a method of the map object *)
Definition on_map {A} (m : M (pc RF) A) : MW A := on_ml (onp m).
(* a method of the live frame *)
Definition on_live {A} (m : M rgbd A) : MW A := on_ml (onr m).
(* an operation on map and previous frame *)
Definition on_mp {A} (m : MS A) : MW A := fun w =>
  match snd w with
  | None => (Err AttributeError, w)
  | Some v => match m (fst (fst w), v) with (r, (p, v')) => (r, (p, snd (fst w), Some v')) end
  end.
(* the previous frame *)
Definition get_prev : MW (option rgbd) := do w <- get; ret (snd w).

(* x.unsqueeze(1) of a (B, 4, 4) tensor *)
Definition unsqueeze1 (x : ten R) : ten R :=
  match dims x with
  | [d0; d1; b] => mkTen [d0; d1; 1; b] (fun ix => match ix with [j; i; _; k] => at_ x [j; i; k] | _ => 0%R end)
  | _ => x
  end.
(* self.odom == gt *)
Definition is_gt (o : odometry) : bool := match o with OGt => true | OIcp _ => false end.

(* icpslam.py:180-247 for arguments of the right types *)
Definition localize (c : slam) : MW (ten R) :=
  do v <- get_prev;
  (match v with
   | Some g => if is_gt (s_odom c) then ret tt
               else match r_poses g with Some _ => ret tt | None => raise ValueError end
   | None => on_map (has RF Points) ;;; ret tt
   end) ;;;
  match v, s_odom c with
  | Some g, OIcp o =>
      on_live (set_poses (match r_poses g with Some t => TTen t | None => TNone end)) ;;;
      do fpc <- on_live (downsample_rgbdimages (s_ds c));
      do rows <- on_mp find_active_map_points;
      do mpc <- on_map (downsample_pointclouds (Tbl rows) (s_ds c));
      do x <- lift (fst (provide (s_nn c) o (mpc, fpc)));
      match r_poses g with
      | None => raise AttributeError
      | Some t => do y <- lift (kornia_compose (squeeze1 x) (squeeze1 t)); ret (unsqueeze1 y)
      end
  | _, _ =>
      do g <- on_live get;
      match r_poses g with Some t => ret t | None => raise ValueError end
  end.

(* icpslam.py:249-264, pointfusion.py:107-112 *)
Definition map_step (c : slam) (inplace : bool) : MW pobj :=
  on_ml (match s_map c with
         | Aggregate => update_map_aggregate inplace
         | Fusion d t s => update_map_fusion f32 d t s inplace
         end).

(* icpslam.py:140-178; the flags say whether pointclouds, live_frame and prev_frame have the documented types *)
Definition step (c : slam) (pc_ok live_ok prev_ok inplace : bool) : MW (pobj * ten R) :=
  lift (guard live_ok TypeError) ;;;
  lift (guard pc_ok TypeError) ;;;
  lift (guard prev_ok TypeError) ;;;
  do t <- localize c;
  on_live (set_poses (TTen t)) ;;;
  do o <- map_step c inplace;
  do g <- on_live get;
  match r_poses g with Some t => ret (o, t) | None => raise AttributeError end.

(* icpslam.py:180-247 and 140-178 again, for prev_frame and live_frame being the same object (arguments of the right types) *)
Definition localize_same (c : slam) : MS (ten R) :=
  do g <- onr get;
  (if is_gt (s_odom c) then ret tt else match r_poses g with Some _ => ret tt | None => raise ValueError end) ;;;
  match s_odom c with
  | OIcp o =>
      onr (set_poses (match r_poses g with Some t => TTen t | None => TNone end)) ;;;
      do fpc <- onr (downsample_rgbdimages (s_ds c));
      do rows <- find_active_map_points;
      do mpc <- onp (downsample_pointclouds (Tbl rows) (s_ds c));
      do x <- lift (fst (provide (s_nn c) o (mpc, fpc)));
      do g <- onr get;
      match r_poses g with
      | None => raise AttributeError
      | Some t => do y <- lift (kornia_compose (squeeze1 x) (squeeze1 t)); ret (unsqueeze1 y)
      end
  | OGt =>
      do g <- onr get;
      match r_poses g with Some t => ret t | None => raise ValueError end
  end.
(* icpslam.py:140-178 for prev_frame is live_frame *)
Definition step_same (c : slam) (inplace : bool) : MS (pobj * ten R) :=
  do t <- localize_same c;
  onr (set_poses (TTen t)) ;;;
  do o <- (match s_map c with
           | Aggregate => update_map_aggregate inplace
           | Fusion d t s => update_map_fusion f32 d t s inplace
           end);
  do g <- onr get;
  match r_poses g with Some t => ret (o, t) | None => raise AttributeError end.

(* torch.eye(4).view(1, 1, 4, 4).repeat(batch_size, 1, 1, 1) *)
Definition eye_poses (B : nat) : ten R :=
  mkTen [4; 4; 1; B] (fun ix => match ix with [j; i; _; _] => if i =? j then 1%R else 0%R | _ => 0%R end).
(* frames[:, s] *)
Definition frame_at (s : nat) (g : rgbd) : res rgbd := rgbd_getitem (RTuple [ESlice None None None; EInt (Z.of_nat s)]) g.
(* recovered_poses *)
Definition stack_poses (B : nat) (l : list (ten R)) : ten R :=
  mkTen [4; 4; length l; B] (fun ix => match ix with
    | [j; i; s; b] => match nth_error l s with Some t => at_ t [j; i; 0; b] | None => 0%R end | _ => 0%R end).
(* Pointclouds(device=self.device) (icpslam.py:121) *)
Definition empty_cloud : res (pc RF) := ctor RF (INone RF) (INone RF) (INone RF) (INone RF).

(* icpslam.py:123-138: the loop from frame s on, n frames left *)
Fixpoint forward_loop (c : slam) (n s : nat) (p : pc RF) (prev : option rgbd) : M rgbd (pc RF * list (ten R)) :=
  match n with
  | 0 => ret (p, [])
  | S n' =>
      do fr <- get;
      do live <- lift (frame_at s fr);
      do live <- lift (match r_poses live with
                       | None => if s =? 0 then
                                   match set_poses (TTen (eye_poses (r_B fr))) live with (Ok _, g) => Ok g | (Err e, _) => Err e end
                                 else Ok live
                       | Some _ => Ok live
                       end);
      match step c true true true true (p, live, prev) with
      | (Ok (o, t), (p', live', _)) =>
          do live' <- lift (match set_poses (TTen t) live' with (Ok _, g) => Ok g | (Err e, _) => Err e end);
          let p2 := match o with PSelf => p' | PNew q => q end in
          let prev' := if is_gt (s_odom c) then None else Some live' in
          do r <- forward_loop c n' (S s) p2 prev';
          ret (fst r, t :: snd r)
      | (Err e, _) => raise e
      end
  end.
(* icpslam.py:99-138; [ok]: frames is an RGBDImages.  frames.shape[:2] is the (B, L) of the object. *)
Definition forward (c : slam) (ok : bool) : M rgbd (pc RF * ten R) :=
  lift (guard ok TypeError) ;;;
  do p <- lift empty_cloud;
  do fr <- get;
  do r <- forward_loop c (r_L fr) 0 p None;
  ret (fst r, stack_poses (r_B fr) (snd r)).
