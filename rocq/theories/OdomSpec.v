(* Specification vocabulary for downsampling and the odometry providers (C53-C54). *)
From Coq Require Import Reals List Arith Bool ZArith.
From Verif Require Import Res Fld StructUtilsModel PointcloudsModel PointcloudsSpec MatSpec GeomSpec TensorModel
  RgbdModel RgbdSpec FusionModel FusionSpec Se3Model SolveModel IcpModel.
Import ListNotations.
Local Open Scope nat_scope.

Definition divisible (d : Z) (x : nat) : bool := if Znumtheory.Zdivide_dec d (Z.of_nat x) then true else false.
(* the pixels of frame b with positive depth on the grid of step d, row by row *)
Definition grid_pixels (d : Z) (fr : frames) (b : nat) : list (nat * nat) :=
  filter (fun q => divisible d (fst q) && divisible d (snd q)) (chosen true fr b).
Definition grid_attr (d : Z) (fr : frames) (x : attr) : list (t2 R) :=
  map (fun b => mkT2 3 (map (fun q => map (frame_attr fr x b (fst q) (snd q)) [0; 1; 2]) (grid_pixels d fr b))) (seq 0 (fB fr)).
Definition grid_clouds (d : Z) (fr : frames) : batch RF :=
  mkQ (Some (grid_attr d fr Points)) (Some (grid_attr d fr Normals)) (Some (grid_attr d fr Colors)) None.

(* the point numbers of cloud b that a table lists at pixels of the grid, in table order *)
Definition thinned (d : Z) (rows : list row) (b : nat) : list nat :=
  map rn (filter (fun r => (rb r =? b) && divisible d (rh r) && divisible d (rw r)) rows).
Definition thin_attr (d : Z) (rows : list row) (a : batch RF) (x : attr) : option (list (t2 R)) :=
  match qget x a with
  | None => None
  | Some L => Some (map (fun b => mkT2 3 (map (row_at L b) (thinned d rows b))) (seq 0 (len_view RF a)))
  end.
Definition thin_clouds (d : Z) (rows : list row) (a : batch RF) : batch RF :=
  mkQ (thin_attr d rows a Points) (thin_attr d rows a Normals) (thin_attr d rows a Colors) None.

(* the run on clouds number b alone: points Q of the frame against points P with normals N of the map, from the identity *)
Definition one_run_of (nn : nnfun) (o : odom_method) (P N Q : list (t2 RF)) (b : nat) : res (ten R * list nat) :=
  run_icp nn o (TTen (cloud_ten (nth b Q (mkT2 0 [] : t2 R)))) (TTen (cloud_ten (nth b P (mkT2 0 [] : t2 R))))
    (TTen (cloud_ten (nth b N (mkT2 0 [] : t2 R)))) (TTen eye4).
(* parameters of the documented types and signs *)
Definition good_method (o : odom_method) : Prop :=
  match o with
  | MIcp (IntV n) d th => (0 < n)%Z /\ (0 < d)%R /\ th <> ThrBad
  | MGradIcp (IntV n) d th (Num l) (Num _) (Num _) (Num nu) => (0 < n)%Z /\ (0 < d)%R /\ th <> ThrBad /\ (0 < l)%R /\ (nu <> 0)%R
  | _ => False
  end.
