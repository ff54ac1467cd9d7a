(* Specification vocabulary for C83: another choice of world coordinates and of the unit of length. *)
From Coq Require Import Reals List Arith Bool ZArith.
From Verif Require Import Res Fld StructUtilsModel PointcloudsModel PointcloudsSpec MatSpec GeomSpec TensorModel RgbdModel RgbdSpec FusionModel FusionSpec Se3Model SolveModel IcpModel SlamModel SlamSpec.
Import ListNotations.
Local Open Scope nat_scope.

(* p |-> s Q p + t *)
Definition sim_pt (s : R) (Q : mat) (t p : vec) : vec := fun i => (s * mvec 3 Q p i + t i)%R.
(* the camera-to-world pose T in the new coordinates: the camera is turned by Q, its centre moves with the similarity *)
Definition sim_pose (s : R) (Q : mat) (t : vec) (T T' : mat) : Prop :=
  meq 3 3 (rot_of T') (mmul 3 Q (rot_of T)) /\ veq 3 (tr_of T') (sim_pt s Q t (tr_of T)).
(* the same sequences of images, lengths measured in another unit (depths multiplied by s), poses given in other world coordinates *)
Definition sim_frames (s : R) (Q : mat) (t : vec) (fr fr' : frames) : Prop :=
  fB fr' = fB fr /\ fL fr' = fL fr /\ fH fr' = fH fr /\ fW fr' = fW fr /\
  (forall b, b < fB fr -> meq 4 4 (fK fr' b) (fK fr b)) /\
  (forall b l h w, inside fr b l h w -> fdep fr' b l h w = (s * fdep fr b l h w)%R /\ veq 3 (frgb fr' b l h w) (frgb fr b l h w) /\ veq 3 (pixel fr' b l h w) (pixel fr b l h w)) /\
  opt_rel (fun T T' => forall b l, b < fB fr -> l < fL fr -> sim_pose s Q t (T b l) (T' b l)) (fpose fr) (fpose fr').
(* intrinsics for which the image of a point in front of the camera depends on its direction only: third row (0 0 1 0), no fourth column *)
Definition central (K : mat) : Prop := K 0%nat 3%nat = 0%R /\ K 1%nat 3%nat = 0%R /\ K 2%nat 0%nat = 0%R /\ K 2%nat 1%nat = 0%R /\ K 2%nat 2%nat = 1%R /\ K 2%nat 3%nat = 0%R.
(* map a' of B clouds is map a in the new coordinates: the same points in the same order, with the same colours and confidences *)
Definition sim_map (s : R) (Q : mat) (t : vec) (B : nat) (a a' : batch RF) : Prop :=
  forall b, b < B -> npoints a' b = npoints a b /\ forall n, n < npoints a b ->
    veq 3 (attr_at a' Points b n) (sim_pt s Q t (attr_at a Points b n)) /\ veq 3 (attr_at a' Normals b n) (mvec 3 Q (attr_at a Normals b n)) /\
    veq 3 (attr_at a' Colors b n) (attr_at a Colors b n) /\ conf a' b n = conf a b n.
(* the settings for the new unit of length: the distance threshold and sigma are lengths *)
Definition sim_mapping (s : R) (m m' : mapper) : Prop :=
  match m, m' with
  | Aggregate, Aggregate => True
  | Fusion d t (SigNum sg), Fusion d' t' (SigNum sg') => d' = (s * d)%R /\ t' = t /\ sg' = (s * sg)%R /\ (0 <= t)%R
  | _, _ => False
  end.
