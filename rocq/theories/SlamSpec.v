(* Specification vocabulary for the SLAM loop (C45, C46). *)
From Coq Require Import Reals List Arith Bool ZArith.
From Verif Require Import Res Fld StructUtilsModel PointcloudsModel PointcloudsSpec PointcloudsHist MatSpec GeomSpec TensorModel
  RgbdModel RgbdSpec FusionModel FusionSpec Se3Model SolveModel IcpModel IcpSpec OdomSpec SlamModel.
Import ListNotations.
Local Open Scope nat_scope.

(* frame number l of the sequences: one image per batch element *)
Definition moment (l : nat) (fr : frames) : frames := pick (seq 0 (fB fr)) [l] fr.
(* the frames with poses T *)
Definition posed (T : nat -> mat) (fr : frames) : frames := with_fpose (Some (fun b _ => T b)) fr.

(* the map that a registration against frame pf sees: every ds-th visible point *)
Definition thin_map (ds : Z) (rows : list row) (a : batch RF) (x : attr) : list (t2 RF) :=
  match thin_attr ds rows a x with Some l => l | None => [] end.
(* registration of frame fr (placed with the poses Tp of the previous frame) against map a *)
Definition registration (c : slam) (o : odom_method) (ds : Z) (rows : list row) (a : batch RF) (fr : frames) (b : nat) : res (ten R * list nat) :=
  one_run_of (s_nn c) o (thin_map ds rows a Points) (thin_map ds rows a Normals) (grid_attr ds fr Points) b.

(* pose P followed by transform X: rotations multiplied, translations composed, bottom row 0 0 0 1 *)
Definition compose_pose (X P : mat) : mat := fun i j =>
  if i <? 3 then (if j <? 3 then rsum 3 (fun k => X i k * P k j) else rsum 3 (fun k => X i k * P k 3%nat) + X i 3%nat)%R
  else if j <? 3 then 0%R else 1%R.
(* the poses T that step determines for frame fr:
   - ground truth, or no previous frame: those of the frame;
   - otherwise the registration transform of each batch element composed with its previous pose. *)
Definition Localised (c : slam) (a : batch RF) (prev : option frames) (fr : frames) (T : nat -> mat) : Prop :=
  match s_odom c, prev with
  | OIcp o, Some pf =>
      exists Tp ds rows, fpose pf = Some Tp /\ s_ds c = IntV ds /\ active_spec a pf Tp rows /\
        forall b, b < fB fr -> exists X idx,
          registration c o ds rows a (posed (fun b => Tp b 0) fr) b = Ok (X, idx) /\
          meq 4 4 (T b) (compose_pose (ent X []) (Tp b 0))
  | _, _ => exists T0, fpose fr = Some T0 /\ forall b, b < fB fr -> T b = T0 b 0
  end.
(* the registration of some batch element raises e *)
Definition RegistrationFails (c : slam) (a : batch RF) (prev : option frames) (fr : frames) (e : exn) : Prop :=
  exists o pf Tp ds rows b, s_odom c = OIcp o /\ prev = Some pf /\ fpose pf = Some Tp /\ s_ds c = IntV ds /\
    active_spec a pf Tp rows /\ b < fB fr /\ registration c o ds rows a (posed (fun b => Tp b 0) fr) b = Err e.

(* map a' is map a after the frame fr (with poses) has been entered; Batch: equally many rows in every attribute, of equal width *)
Definition Mapped (c : slam) (a : batch RF) (fr : frames) (a' : batch RF) : Prop :=
  Batch RF a' /\
  match s_map c with
  | Aggregate => plain (fB fr) a' /\ forall x b, x <> Features -> b < fB fr -> rows_of a' x b = rows_of a x b ++ frame_rows fr x b
  | Fusion d t s => full_map a' /\ exists rows, Fused (sigma_val s) fr rows a a' /\
      match qp a with None => rows = [] | Some _ => exists T, fpose fr = Some T /\ Correspondences a fr T d t rows end
  end.
(* the maps such a step can be applied to *)
Definition MapFor (c : slam) (B : nat) (a : batch RF) : Prop :=
  qp a <> None -> len_view RF a = B /\ match s_map c with Aggregate => plain B a | Fusion _ _ _ => full_map a end.
(* sizes that the fusion of B images of H x W pixels into maps of at most n points handles exactly *)
Definition Sizes (c : slam) (B H W n : nat) : Prop :=
  match s_map c with
  | Aggregate => True
  | Fusion _ _ s => (exists x, s = SigNum x /\ x <> 0%R) /\ (Z.of_nat B <= 2 ^ 24 /\ Z.of_nat H <= 2 ^ 24 /\ Z.of_nat W <= 2 ^ 24 /\ Z.of_nat n <= 2 ^ 24)%Z
  end.
(* the downsampling ratio is a positive integer when registration is used *)
Definition Ratio (c : slam) : Prop := match s_odom c with OGt => True | OIcp _ => exists d, s_ds c = IntV d /\ (0 < d)%Z end.

(* ---------------- a client that calls step once per frame *)
(* as in the docstring of ICPSLAM: take frames[:, s], give the first frame the identity if it has no pose, call step,
   keep the returned map, and store the returned poses in the frame used as previous frame; [inpl s] is the inplace
   argument of call s *)
Fixpoint client (c : slam) (inpl : nat -> bool) (seq_ : rgbd) (n s : nat) (p : pc RF) (prev : option rgbd) : res (pc RF * list (ten R)) :=
  match n with
  | 0 => Ok (p, [])
  | S n' =>
      let? g := frame_at s seq_ in
      let? g := (match r_poses g with
                 | None => if s =? 0 then match set_poses (TTen (eye_poses (r_B seq_))) g with (Ok _, g) => Ok g | (Err e, _) => Err e end else Ok g
                 | Some _ => Ok g
                 end) in
      match step c true true true (inpl s) (p, g, prev) with
      | (Ok (o, t), (p', g', _)) =>
          let? g' := match set_poses (TTen t) g' with (Ok _, g) => Ok g | (Err e, _) => Err e end in
          let? r := client c inpl seq_ n' (S s) (returned o p') (if is_gt (s_odom c) then None else Some g') in
          Ok (fst r, t :: snd r)
      | (Err e, _) => Err e
      end
  end.

(* frame l as the loop sees it: without poses it starts at the identity *)
Definition input_frame (fr : frames) (l : nat) : frames :=
  match fpose fr with
  | Some _ => moment l fr
  | None => if l =? 0 then posed (fun _ => mI) (moment 0 fr) else moment l fr
  end.
Definition previous (c : slam) (fr : frames) (T : nat -> nat -> mat) (l : nat) : option frames :=
  match s_odom c, l with OIcp _, S k => Some (posed (fun b => T b k) (moment k fr)) | _, _ => None end.
(* maps and poses after the first n frames *)
Definition Trajectory (c : slam) (fr : frames) (n : nat) (maps : nat -> batch RF) (T : nat -> nat -> mat) : Prop :=
  maps 0 = no_batch RF /\
  forall l, l < n -> Localised c (maps l) (previous c fr T l) (input_frame fr l) (fun b => T b l) /\
    Mapped c (maps l) (posed (fun b => T b l) (moment l fr)) (maps (S l)).
