(* Properties C14-C28: geometry utilities over the reals.
   Tensors list extents and indices from the last dimension to the first (TensorModel.v); comp x r i is
   x[..., i], ent x r i j is x[..., i, j] at leading index r; vix s r says r is a legal index for extents s.
   Statement vocabulary: MatSpec.v (matrices, rotations, rigid transforms, matrix exponential as a power
   series), GeomSpec.v (cameras, quaternions), ShapeSpec.v (documented shapes). *)
From Coq Require Import Reals List Arith ZArith Bool Lia Lra.
From Verif Require Import Res Fld StructUtilsModel PointcloudsModel PointcloudsSpec PointcloudsHist
  MatSpec TensorModel ShapeSpec LinAlgModel ProjModel GeomModel Se3Model DataUtilsModel GTOdomModel GeomSpec
  MatProofs ProjProofs ProjPropProofs GeomProofs GeomPtsProofs QuatProofs Se3Proofs AxisAngleProofs GeomMiscProofs GeomRefute.
Import ListNotations.
Local Open Scope nat_scope.

(* concrete tensors used to show that hypotheses can be met *)
Definition w_pts : ten R := mkTen [3; 2] (fun ix => match ix with [i; n] => INR (1 + i + 2 * n) | _ => 0%R end).
Definition w_T : ten R := mkTen [4; 4] (fun ix => match ix with   (* quarter turn about z, then (1,2,3) *)
  | [1; 0] => (-1)%R | [0; 1] => 1%R | [2; 2] => 1%R | [3; 3] => 1%R
  | [3; 0] => 1%R | [3; 1] => 2%R | [3; 2] => 3%R | _ => 0%R end).
Lemma w_T_rigid : rigid4 (ent w_T []).
Proof.
  split; [repeat split|]. split; [split|].
  - intros i j Hi Hj. unfold mmul, mtr, rot_of, ent, w_T, mI, delta. cbn [rsum at_].
    idx3 i Hi; idx3 j Hj; cbn [Nat.eqb]; ring.
  - intros i j Hi Hj. unfold mmul, mtr, rot_of, ent, w_T, mI, delta. cbn [rsum at_].
    idx3 i Hi; idx3 j Hj; cbn [Nat.eqb]; ring.
  - unfold det3, rot_of, ent, w_T. cbn [at_]. ring.
Qed.
Definition w_K (k : nat) : ten R := mkTen [k; k] (fun ix => match ix with [j; i] => pinhole 2 4 1 3 0 i j | _ => 0%R end).
Definition w_Ki : ten R := mkTen [3; 3] (fun ix => match ix with
  [j; i] => pinhole (1 / 2) (1 / 4) (- 1 / 2) (- 3 / 4) 0 i j | _ => 0%R end).
Lemma w_inv : proj_of (ent (w_K 4) []) (ent (w_K 3) []) /\ inverse_of 3 (ent (w_K 3) []) (ent w_Ki []).
Proof.
  split; [split; [intros i j Hi Hj; idx3 i Hi; idx3 j Hj; reflexivity|split; [intros i Hi; idx3 i Hi; reflexivity|repeat split]]|].
  split; intros i j Hi Hj; idx3 i Hi; idx3 j Hj; unfold mmul, ent, w_K, w_Ki, pinhole, mI, delta; cbn [rsum at_ Nat.eqb]; field.
Qed.
Lemma w_pts_z : forall r, vix [2] r -> comp w_pts r 2 <> 0%R.
Proof. intros [|n [|? ?]] H; cbn in H; try tauto. unfold comp, w_pts. cbn [at_]. apply not_0_INR. lia. Qed.

(* ------------------------------------------------------------------ C14 *)
Theorem C14_unhomogenize_homogenize : forall (pts : ten R) eps, 2 <= ndim pts -> (eps < 1)%R ->
  exists h u, homogenize_points pts = Ok h /\ unhomogenize_points h eps = Ok u /\ teq u pts.
Proof. exact p_hom_unhom. Qed.
Print Assumptions C14_unhomogenize_homogenize.

Theorem C14_divides_above_threshold : forall (pts : ten R) eps e n s, dims pts = S e :: n :: s ->
  exists u, unhomogenize_points pts eps = Ok u /\ dims u = e :: n :: s /\
    forall r, vix (n :: s) r ->
      ((eps < Rabs (comp pts r e))%R -> forall i, i < e -> (comp u r i = comp pts r i / comp pts r e)%R) /\
      ((Rabs (comp pts r e) <= eps)%R -> forall i, i < e -> comp u r i = comp pts r i).
Proof. exact p_unhom. Qed.
Print Assumptions C14_divides_above_threshold.

(* c r is the factor by which the point at index r is rescaled *)
Theorem C14_scale_invariant : forall (x y : ten R) (c : list nat -> R) eps e n s,
  (0 <= eps)%R -> dims x = S e :: n :: s -> dims y = dims x ->
  (forall i r, i <= e -> vix (n :: s) r -> comp y r i = (c r * comp x r i)%R) ->
  (forall r, vix (n :: s) r -> eps < Rabs (comp x r e) /\ eps < Rabs (comp y r e))%R ->
  exists u v, unhomogenize_points x eps = Ok u /\ unhomogenize_points y eps = Ok v /\ teq u v.
Proof. exact p_unhom_scale. Qed.
Print Assumptions C14_scale_invariant.

Theorem C14_rank : forall (pts : ten R) eps, ndim pts < 2 ->
  homogenize_points pts = Err ValueError /\ unhomogenize_points pts eps = Err ValueError.
Proof. exact p_hom_rank. Qed.
Print Assumptions C14_rank.

Example C14_witness : exists x y : ten R, dims x = [3; 2] /\ dims y = dims x /\ (0 <= eps6)%R /\
  (forall i r, i <= 2 -> vix [2] r -> comp y r i = (-5 * comp x r i)%R) /\
  (forall r, vix [2] r -> (eps6 < Rabs (comp x r 2) /\ eps6 < Rabs (comp y r 2))%R).
Proof.
  exists w_pts, (tmap (Rmult (-5)) w_pts). split; [reflexivity|]. split; [reflexivity|].
  split; [unfold eps6; lra|]. split; [reflexivity|].
  intros [|n [|? ?]] H; cbn in H; try tauto. unfold comp, tmap, w_pts, eps6. cbn [at_].
  assert (3 <= INR (1 + 2 + 2 * n))%R by (replace 3%R with (INR 3) by (cbn; lra); apply le_INR; lia).
  rewrite Rabs_mult, (Rabs_right (INR _)), Rabs_left; lra.
Qed.

(* ------------------------------------------------------------------ C15 *)
(* one camera per leading index (or a shared one); z = 0 does not divide *)
Theorem C15_pinhole_equation : forall (cam P : ten R) d n cb pb (fx fy cx cy : list nat -> R),
  dims cam = d :: n :: cb -> (d = 3 \/ d = 4) -> dims P = 4 :: 4 :: pb -> cameras pb cb ->
  (forall c, vix pb c -> meq 4 4 (ent P c) (pinhole (fx c) (fy c) (cx c) (cy c) 0)) ->
  exists out, project_points cam P = Ok out /\ dims out = 2 :: n :: cb /\
    forall j r, j < n -> vix cb r ->
      let c := bix pb r in let p := comp cam (j :: r) in
      (p 2%nat <> 0 -> comp out (j :: r) 0%nat = fx c * p 0%nat / p 2%nat + cx c /\
                   comp out (j :: r) 1%nat = fy c * p 1%nat / p 2%nat + cy c)%R /\
      (p 2 = 0%R -> comp out (j :: r) 0 = (fx c * p 0%nat)%R /\ comp out (j :: r) 1 = (fy c * p 1%nat)%R).
Proof. exact p_project_pinhole. Qed.
Print Assumptions C15_pinhole_equation.

(* pixel + depth -> point -> the same pixel, with that depth *)
Theorem C15_unproject_project : forall (pix Ki dep P : ten R) n cb pb (K : list nat -> mat),
  dims pix = 2 :: n :: cb -> dims dep = n :: cb -> dims Ki = 3 :: 3 :: pb -> dims P = 4 :: 4 :: pb ->
  cameras pb cb ->
  (forall c, vix pb c -> proj_of (ent P c) (K c) /\ inverse_of 3 (K c) (ent Ki c)) ->
  (forall r, vix (n :: cb) r -> at_ dep r <> 0%R) ->
  exists X q, unproject_points pix Ki dep = Ok X /\ project_points X P = Ok q /\
    teq q pix /\ forall r, vix (n :: cb) r -> comp X r 2 = at_ dep r.
Proof. exact p_unproject_project. Qed.
Print Assumptions C15_unproject_project.

(* point -> pixel -> the same point *)
Theorem C15_project_unproject : forall (cam Ki dep P : ten R) n cb pb (K : list nat -> mat),
  dims cam = 3 :: n :: cb -> dims dep = n :: cb -> dims Ki = 3 :: 3 :: pb -> dims P = 4 :: 4 :: pb ->
  cameras pb cb ->
  (forall c, vix pb c -> proj_of (ent P c) (K c) /\ inverse_of 3 (K c) (ent Ki c)) ->
  (forall r, vix (n :: cb) r -> at_ dep r = comp cam r 2 /\ comp cam r 2 <> 0%R) ->
  exists q X, project_points cam P = Ok q /\ unproject_points q Ki dep = Ok X /\ teq X cam.
Proof. exact p_project_unproject. Qed.
Print Assumptions C15_project_unproject.

Example C15_witness : exists (cam Ki P dep : ten R), dims cam = [3; 2] /\ dims dep = [2] /\
  dims Ki = [3; 3] /\ dims P = [4; 4] /\ cameras [] [] /\
  (proj_of (ent P []) (ent (w_K 3) []) /\ inverse_of 3 (ent (w_K 3) []) (ent Ki [])) /\
  (forall r, vix [2] r -> at_ dep r = comp cam r 2 /\ comp cam r 2 <> 0%R).
Proof.
  exists w_pts, w_Ki, (w_K 4), (mkTen [2] (fun r => comp w_pts r 2)). repeat (split; [reflexivity|]).
  split; [left; reflexivity|]. split; [exact w_inv|]. intros r Hr. split; [reflexivity|apply w_pts_z, Hr].
Qed.

(* ------------------------------------------------------------------ C16 *)
(* bix pb r is the camera index for leading index r: r itself, 0 where the camera extent is 1, nothing for a
   shared camera.  Missing for the full property: see C16_leading_shape_refuted. *)
Theorem C16_project_uses_own_camera_partial : forall (cam P : ten R) d n cb pb,
  dims cam = d :: n :: cb -> (d = 3 \/ d = 4) -> dims P = 4 :: 4 :: pb -> cameras pb cb ->
  exists out, project_points cam P = Ok out /\ dims out = 2 :: n :: cb /\
    forall j r, j < n -> vix cb r -> veq 2 (comp out (j :: r))
      (project_spec (ent P (bix pb r)) (hom d (comp cam (j :: r)))).
Proof. exact p_project. Qed.
Print Assumptions C16_project_uses_own_camera_partial.

Theorem C16_unproject_uses_own_camera_partial : forall (pix Ki dep : ten R) d n cb pb,
  dims pix = d :: n :: cb -> (d = 2 \/ d = 3) -> dims Ki = 3 :: 3 :: pb -> cameras pb cb -> dims dep = n :: cb ->
  exists out, unproject_points pix Ki dep = Ok out /\ dims out = 3 :: n :: cb /\
    forall j r, j < n -> vix cb r -> veq 3 (comp out (j :: r))
      (fun i => mvec 3 (ent Ki (bix pb r)) (hom d (comp pix (j :: r))) i * at_ dep (j :: r))%R.
Proof. exact p_unproject. Qed.
Print Assumptions C16_unproject_uses_own_camera_partial.

(* ValueError exactly for undocumented shapes *)
Theorem C16_project_rejects : forall (cam P : ten R),
  project_points cam P = Err ValueError <-> ~ doc_shapes 4 P cam.
Proof. exact project_value_error. Qed.
Print Assumptions C16_project_rejects.

(* documented ranks whose middle extents do not broadcast *)
Theorem C16_project_incompatible : forall (cam P : ten R) d n cb pb,
  dims P = 4 :: 4 :: pb -> dims cam = d :: n :: cb -> (d = 3 \/ d = 4) ->
  pb <> [] -> length pb = length cb -> last pb 0 = last cb 0 ->
  ~ Forall2 (fun x y => x = y \/ x = 1 \/ y = 1) pb cb ->
  project_points cam P = Err RuntimeError.
Proof. exact project_runtime_error. Qed.
Print Assumptions C16_project_incompatible.

Theorem C16_unproject_rejects : forall (pix Ki dep : ten R),
  ~ doc_shapes 3 Ki pix \/ tl (dims pix) <> dims dep ->
  unproject_points pix Ki dep = Err ValueError.
Proof. exact unproject_value_error. Qed.
Print Assumptions C16_unproject_rejects.

(* the leading shape of the points is not preserved when a camera extent is larger than the points extent *)
Theorem C16_leading_shape_refuted : exists cam P out : ten R,
  shape cam = [2; 1; 5; 3] /\ shape P = [2; 7; 4; 4] /\ doc_shapes 4 P cam /\
  project_points cam P = Ok out /\ shape out = [2; 7; 5; 2].
Proof. exact p_project_leading. Qed.
Print Assumptions C16_leading_shape_refuted.

Example C16_witness : exists cam P : ten R, dims cam = [3; 5; 2; 6] /\ dims P = [4; 4; 1; 6] /\
  cameras [1; 6] [2; 6] /\ bix [1; 6] [1; 3] = [0; 3] /\ doc_shapes 4 P cam.
Proof.
  exists (mkTen [3; 5; 2; 6] (fun _ => 1%R)), (mkTen [4; 4; 1; 6] (fun ix => INR (last ix 0))).
  repeat (split; [reflexivity|]). split; [|split; [reflexivity|]].
  - right. split; [constructor; [right; reflexivity|constructor; [left; reflexivity|constructor]]|reflexivity].
  - exists 3, 5, [2; 6], [1; 6]. cbn. auto 6.
Qed.

(* ------------------------------------------------------------------ C17 *)
(* for eps = 0 the result is the inverse *)
Theorem C17_exact_for_zero_eps_partial : forall (K : ten R) k s (fx fy cx cy : list nat -> R),
  (k = 3 \/ k = 4) -> dims K = k :: k :: s ->
  (forall r, vix s r -> meq k k (ent K r) (pinhole (fx r) (fy r) (cx r) (cy r) 0) /\ fx r <> 0 /\ fy r <> 0)%R ->
  exists Ki, inverse_intrinsics K 0 = Ok Ki /\ dims Ki = dims K /\
    forall r, vix s r -> inverse_of k (ent K r) (ent Ki r).
Proof. exact p_inv_intr_exact. Qed.
Print Assumptions C17_exact_for_zero_eps_partial.

(* for any eps, the exact error of the round trip of a pixel *)
Theorem C17_round_trip_error_partial : forall (K : ten R) eps k s (fx fy cx cy : list nat -> R),
  (k = 3 \/ k = 4) -> dims K = k :: k :: s ->
  (forall r, vix s r -> meq k k (ent K r) (pinhole (fx r) (fy r) (cx r) (cy r) 0) /\
     fx r + eps <> 0 /\ fy r + eps <> 0)%R ->
  exists Ki, inverse_intrinsics K eps = Ok Ki /\ dims Ki = dims K /\
    forall r u v, vix s r ->
      veq 3 (mvec 3 (ent K r) (mvec 3 (ent Ki r) (vec3 u v 1)))
        (vec3 (u - (u - cx r) * (eps / (fx r + eps))) (v - (v - cy r) * (eps / (fy r + eps))) 1)%R.
Proof. exact p_inv_intr_error. Qed.
Print Assumptions C17_round_trip_error_partial.

(* for every non-zero eps (the default is 1e-6) the result is never an inverse *)
Theorem C17_eps_refuted : forall (K : ten R) eps k s (fx fy cx cy : list nat -> R),
  (k = 3 \/ k = 4) -> dims K = k :: k :: s -> (eps <> 0)%R ->
  (forall r, vix s r -> meq k k (ent K r) (pinhole (fx r) (fy r) (cx r) (cy r) 0) /\ fx r + eps <> 0)%R ->
  exists Ki, inverse_intrinsics K eps = Ok Ki /\ forall r, vix s r -> ~ inverse_of k (ent K r) (ent Ki r).
Proof. exact p_inv_intr_wrong. Qed.
Print Assumptions C17_eps_refuted.

Theorem C17_rejects : forall (K : ten R) eps,
  inverse_intrinsics K eps = Err ValueError <->
  ~ exists k s, (k = 3 \/ k = 4) /\ dims K = k :: k :: s.
Proof. exact p_inv_intr_rej. Qed.
Print Assumptions C17_rejects.

Example C17_witness : dims (w_K 4) = [4; 4] /\ (eps6 <> 0)%R /\
  (meq 4 4 (ent (w_K 4) []) (pinhole 2 4 1 3 0) /\ 2 <> 0 /\ 4 <> 0 /\ 2 + eps6 <> 0 /\ 4 + eps6 <> 0)%R.
Proof. unfold eps6. split; [reflexivity|]. split; [lra|]. split; [intros i j _ _; reflexivity|]. repeat split; lra. Qed.

(* ------------------------------------------------------------------ C18 *)
Theorem C18_inverse : forall T : ten R, shape T = [4; 4] -> rigid4 (ent T []) ->
  exists Ti I1 I2, inverse_transfom_3d T = Ok Ti /\ shape Ti = [4; 4] /\ rigid4 (ent Ti []) /\
    compose_transforms_3d Ti T = Ok I1 /\ compose_transforms_3d T Ti = Ok I2 /\
    shape I1 = [4; 4] /\ shape I2 = [4; 4] /\ meq 4 4 (ent I1 []) mI /\ meq 4 4 (ent I2 []) mI.
Proof. exact p_inverse_group. Qed.
Print Assumptions C18_inverse.

Theorem C18_compose : forall A B : ten R, shape A = [4; 4] -> shape B = [4; 4] ->
  exists C, compose_transforms_3d A B = Ok C /\ shape C = [4; 4] /\
    (forall p, veq 3 (act (ent C []) p) (act (ent A []) (act (ent B []) p))) /\
    (affine4 (ent A []) -> affine4 (ent B []) -> meq 4 4 (ent C []) (mmul 4 (ent A []) (ent B []))) /\
    (rigid4 (ent A []) -> rigid4 (ent B []) -> rigid4 (ent C [])).
Proof. exact p_compose. Qed.
Print Assumptions C18_compose.

Theorem C18_associative : forall A B C : ten R, shape A = [4; 4] -> shape B = [4; 4] -> shape C = [4; 4] ->
  exists AB BC X Y, compose_transforms_3d A B = Ok AB /\ compose_transforms_3d B C = Ok BC /\
    compose_transforms_3d AB C = Ok X /\ compose_transforms_3d A BC = Ok Y /\ teq X Y.
Proof. exact p_compose_assoc. Qed.
Print Assumptions C18_associative.

Theorem C18_relative : forall T1 T2 : ten R, shape T1 = [4; 4] -> shape T2 = [4; 4] ->
  rigid4 (ent T1 []) -> affine4 (ent T2 []) ->
  exists T Y, relative_transform_3d T1 T2 = Ok T /\ compose_transforms_3d T1 T = Ok Y /\ teq Y T2 /\
    (rigid4 (ent T2 []) -> rigid4 (ent T [])) /\
    (forall T' Y', shape T' = [4; 4] -> affine4 (ent T' []) -> compose_transforms_3d T1 T' = Ok Y' -> teq Y' T2 -> teq T' T).
Proof. exact p_relative_3d. Qed.
Print Assumptions C18_relative.

(* single transforms (s = []) and batches (s = [N]), both settings of orthogonal_rotations *)
Theorem C18_relative_transformation : forall (T1 T2 : ten R) (s : list nat) (orth : bool),
  length s <= 1 -> dims T1 = 4 :: 4 :: s -> dims T2 = 4 :: 4 :: s ->
  (forall r, vix s r -> affine4 (ent T1 r) /\ affine4 (ent T2 r) /\
     (if orth then rigid4 (ent T1 r) else (det3 (rot_of (ent T1 r)) <> 0)%R)) ->
  exists T, relative_transformation T1 T2 orth = Ok T /\ dims T = 4 :: 4 :: s /\
    forall r, vix s r -> affine4 (ent T r) /\
      meq 4 4 (mmul 4 (ent T1 r) (ent T r)) (ent T2 r) /\
      (forall X, affine4 X -> meq 4 4 (mmul 4 (ent T1 r) X) (ent T2 r) -> meq 4 4 X (ent T r)) /\
      (rigid4 (ent T1 r) -> rigid4 (ent T2 r) -> rigid4 (ent T r)).
Proof. exact p_relative_transformation. Qed.
Print Assumptions C18_relative_transformation.

Example C18_witness : shape w_T = [4; 4] /\ rigid4 (ent w_T []) /\
  (det3 (rot_of (ent w_T [])) <> 0)%R /\ veq 3 (act (ent w_T []) (vec3 1 0 0)) (vec3 1 3 3).
Proof.
  split; [reflexivity|]. split; [exact w_T_rigid|]. split; [rewrite (proj2 (proj2 w_T_rigid)); lra|].
  intros i Hi. unfold act, mvec, rot_of, tr_of, ent, w_T, vec3. cbn [rsum at_]. idx3 i Hi; ring.
Qed.

(* ------------------------------------------------------------------ C19 *)
(* batches are documented but never work, for any batch size *)
Theorem C19_inverse_batch_refuted : forall (N : nat) (T : ten R), shape T = [N; 4; 4] ->
  inverse_transfom_3d T = Err RuntimeError.
Proof. exact p_inverse_batch_fails. Qed.
Print Assumptions C19_inverse_batch_refuted.

Theorem C19_compose_batch_refuted : forall (N : nat) (A B : ten R), shape A = [N; 4; 4] -> shape B = [N; 4; 4] ->
  compose_transforms_3d A B = Err RuntimeError.
Proof. exact p_compose_batch_fails. Qed.
Print Assumptions C19_compose_batch_refuted.

(* malformed shapes: IndexError, TypeError or a silent result instead of ValueError *)
Theorem C19_malformed_refuted : (forall T : ten R, shape T = [3; 3] -> inverse_transfom_3d T = Err IndexError) /\
  (forall (T : ten R) a b, shape T = [a; b; 4; 4] -> inverse_transfom_3d T = Err TypeError) /\
  (forall T : ten R, shape T = [5; 5] -> exists out, inverse_transfom_3d T = Ok out /\ shape out = [5; 5]).
Proof. exact p_shape_errors. Qed.
Print Assumptions C19_malformed_refuted.

Example C19_witness : exists T : ten R, shape T = [7; 4; 4] /\ forall b, b < 7 -> rigid4 (ent T [b]).
Proof.
  exists (mkTen [4; 4; 7] (fun ix => match ix with [j; i; _] => ent w_T [] i j | _ => 0%R end)).
  split; [reflexivity|]. intros b _. exact w_T_rigid.
Qed.

(* ------------------------------------------------------------------ C20 *)
(* transform_pts_3d on B x H x W x 3 inputs *)
Theorem C20_pts_3d_partial : forall (pts T : ten R) b h w,
  shape pts = [b; h; w; 3] -> shape T = [4; 4] -> affine4 (ent T []) ->
  exists out, transform_pts_3d pts T = Ok out /\ shape out = [b; h; w; 3] /\
    forall x y z, x < b -> y < h -> z < w ->
      veq 3 (comp out [z; y; x]) (act (ent T []) (comp pts [z; y; x])).
Proof. exact p_transform_pts_4d. Qed.
Print Assumptions C20_pts_3d_partial.

(* on every other rank, in particular the documented (N, 3), the result has no entries *)
Theorem C20_pts_3d_other_ranks_refuted : forall (pts T : ten R) n s,
  dims pts = 3 :: n :: s -> length s <> 2 -> shape T = [4; 4] ->
  exists out, transform_pts_3d pts T = Ok out /\ dims out = 0 :: 4 :: n :: s.
Proof. exact p_transform_pts_other. Qed.
Print Assumptions C20_pts_3d_other_ranks_refuted.

(* homogeneous B x H x W x 4 inputs, any 4x4 matrix *)
Theorem C20_pts_3d_homogeneous : forall (pts T : ten R) b h w,
  shape pts = [b; h; w; 4] -> shape T = [4; 4] ->
  exists out, transform_pts_3d pts T = Ok out /\ shape out = [b; h; w; 3] /\
    forall x y z, x < b -> y < h -> z < w ->
      let q := mvec 4 (ent T []) (comp pts [z; y; x]) in
      ((/ 1000000 < Rabs (q 3%nat))%R -> forall i, i < 3 -> (comp out [z; y; x] i = q i / q 3%nat)%R) /\
      ((Rabs (q 3%nat) <= / 1000000)%R -> forall i, i < 3 -> (comp out [z; y; x] i = q i)%R).
Proof. exact p_transform_pts_hom. Qed.
Print Assumptions C20_pts_3d_homogeneous.

(* any other last extent raises *)
Theorem C20_pts_3d_width : forall (pts T : ten R) d n s,
  dims pts = d :: n :: s -> d <> 3 -> d <> 4 -> shape T = [4; 4] ->
  transform_pts_3d pts T = Err RuntimeError.
Proof. exact p_transform_pts_width. Qed.
Print Assumptions C20_pts_3d_width.

Theorem C20_pts_3d_rejects : forall pts T : ten R, ndim pts < 2 \/ shape T <> [4; 4] ->
  transform_pts_3d pts T = Err ValueError.
Proof. exact p_transform_pts_rej. Qed.
Print Assumptions C20_pts_3d_rejects.

Theorem C20_pts_nd : forall (pts T : ten R) B N D,
  shape pts = [B; N; D] -> shape T = [B; D + 1; D + 1] ->
  (forall b, b < B -> forall j, j <= D -> ent T [b] D j = delta D j) ->
  exists out, transform_pts_nd_KF pts T = Ok out /\ shape out = [B; N; D] /\
    forall b n, b < B -> n < N ->
      veq D (comp out [n; b]) (fun i => mvec D (ent T [b]) (comp pts [n; b]) i + ent T [b] i D)%R.
Proof. exact p_transform_nd. Qed.
Print Assumptions C20_pts_nd.

Theorem C20_pts_nd_rejects : forall (pts T : ten R) p0 ps t0 ts, shape pts = p0 :: ps -> shape T = t0 :: ts ->
  p0 <> t0 \/ last (shape pts) 0 + 1 <> last (shape T) 0 -> transform_pts_nd_KF pts T = Err ValueError.
Proof. exact p_transform_nd_rej. Qed.
Print Assumptions C20_pts_nd_rejects.

Theorem C20_pointcloud_and_normals : forall (cloud T : ten R) n, shape cloud = [n; 3] -> shape T = [4; 4] ->
  (exists out, transform_pointcloud cloud T = Ok out /\ shape out = [n; 3] /\
     forall k, k < n -> veq 3 (comp out [k]) (act (ent T []) (comp cloud [k]))) /\
  (exists out, transform_normals cloud T = Ok out /\ shape out = [n; 3] /\
     forall k, k < n -> veq 3 (comp out [k]) (mvec 3 (rot_of (ent T [])) (comp cloud [k]))).
Proof. exact p_transform_cloud. Qed.
Print Assumptions C20_pointcloud_and_normals.

Theorem C20_pointcloud_rejects : forall cloud T : ten R,
  (forall n, shape cloud <> [n; 3]) \/ shape T <> [4; 4] ->
  exists e, transform_pointcloud cloud T = Err e /\ transform_normals cloud T = Err e /\
    (e = ValueError \/ e = RuntimeError).
Proof. exact p_transform_cloud_rej. Qed.
Print Assumptions C20_pointcloud_rejects.

Example C20_witness : shape w_pts = [2; 3] /\ shape w_T = [4; 4] /\ affine4 (ent w_T []) /\
  dims w_pts = 3 :: 2 :: [] /\ length (@nil nat) <> 2 /\
  (forall j, j <= 3 -> ent w_T [] 3 j = delta 3 j).
Proof.
  repeat (split; [first [reflexivity|exact (proj1 w_T_rigid)|discriminate]|]).
  intros j Hj. destruct j as [|[|[|[|j]]]]; [| | | |lia]; reflexivity.
Qed.

(* ------------------------------------------------------------------ C21 *)
Theorem C21_functions : forall (cloud T : ten R) n, shape cloud = [n; 3] -> shape T = [4; 4] -> rigid4 (ent T []) ->
  exists out nor, transform_pointcloud cloud T = Ok out /\ transform_normals cloud T = Ok nor /\
    forall a b, a < n -> b < n ->
      dist2 3 (comp out [a]) (comp out [b]) = dist2 3 (comp cloud [a]) (comp cloud [b]) /\
      dot 3 (comp nor [a]) (comp nor [b]) = dot 3 (comp cloud [a]) (comp cloud [b]) /\
      norm 3 (comp nor [a]) = norm 3 (comp cloud [a]).
Proof. exact p_isometry. Qed.
Print Assumptions C21_functions.

(* the same for the class: transform_ on any reachable object, both conventions *)
Local Open Scope R_scope.
Theorem C21_Pointclouds_transform : forall (s : pc RF) a sh el pre x P N,
  Hist RF s a -> is_mat 4 sh (len_view RF a) -> (forall b, orthogonal3 (mat_of RF sh el b)) ->
  qp a = Some P -> qget x a = Some N -> (x = Points \/ x = Normals) ->
  exists s' L, run RF (Transform RF (OT RF sh el) pre) s = (Ok tt, s') /\ fst (get_list RF x s') = Ok (Some L) /\
    counts_of RF L = counts_of RF N /\
    forall b y i j p q, nth_error N b = Some y -> nth_error (t2r y) i = Some p -> nth_error (t2r y) j = Some q ->
      exists y' p' q', nth_error L b = Some y' /\ nth_error (t2r y') i = Some p' /\ nth_error (t2r y') j = Some q' /\
        (x = Points -> dist2 3 (rowv p') (rowv q') = dist2 3 (rowv p) (rowv q)) /\
        (x = Normals -> dot 3 (rowv p') (rowv q') = dot 3 (rowv p) (rowv q)).
Proof. exact p_class_isometry. Qed.
Print Assumptions C21_Pointclouds_transform.

Local Close Scope R_scope.
Example C21_witness : exists el : list nat -> R, is_mat 4 [4; 4] 3 /\
  (forall b, orthogonal3 (mat_of RF [4; 4] el b)) /\ el [0; 1] = (-1)%R /\ el [0; 3] = 1%R.
Proof.
  exists (fun ix => match ix with [i; j] => ent w_T [] i j | _ => 0%R end). split; [left; reflexivity|].
  split; [intros b; exact (proj1 (proj2 w_T_rigid))|]. split; reflexivity.
Qed.

(* ------------------------------------------------------------------ C22 *)
(* every quaternion of norm at least 1e-12: the rotation of the normalised quaternion; leading dimensions are flattened *)
Local Open Scope R_scope.
Theorem C22_matrix : forall (q : ten R) s, dims q = (4 :: s)%nat ->
  exists M, quaternion_to_rotation_matrix q = Ok M /\
    dims M = (3 :: 3 :: (match s with [] => [] | _ => [prod_list s] end))%nat /\
    forall r, vix s r -> / 1000000000000 <= norm 4 (comp q r) ->
      meq 3 3 (ent M (flat_ix s r)) (rot_of_quat (comp q r)).
Proof. exact p_quat_rot. Qed.
Print Assumptions C22_matrix.

Local Close Scope R_scope.
Local Open Scope R_scope.
Theorem C22_is_rotation : forall q,
  norm 4 q <> 0 -> rotation3 (rot_of_quat q).
Proof. exact rot_of_quat_rotation. Qed.
Print Assumptions C22_is_rotation.

Local Close Scope R_scope.
Local Open Scope R_scope.
Theorem C22_scale : forall (q : ten R) c s, dims q = (4 :: s)%nat -> c <> 0 ->
  exists M Mc, quaternion_to_rotation_matrix q = Ok M /\
    quaternion_to_rotation_matrix (tmap (Rmult c) q) = Ok Mc /\
    forall r, vix s r -> / 1000000000000 <= norm 4 (comp q r) -> / 1000000000000 <= Rabs c * norm 4 (comp q r) ->
      meq 3 3 (ent Mc (flat_ix s r)) (ent M (flat_ix s r)).
Proof. exact p_quat_scale. Qed.
Print Assumptions C22_scale.

Local Close Scope R_scope.
Local Open Scope R_scope.
Theorem C22_product : forall (a b c : ten R), shape a = [4%nat] -> shape b = [4%nat] -> shape c = [4%nat] ->
  dot 4 (comp a []) (comp a []) = 1 -> dot 4 (comp b []) (comp b []) = 1 ->
  veq 4 (comp c []) (qmul (comp a []) (comp b [])) ->
  exists Ma Mb Mc, quaternion_to_rotation_matrix a = Ok Ma /\ quaternion_to_rotation_matrix b = Ok Mb /\
    quaternion_to_rotation_matrix c = Ok Mc /\ meq 3 3 (ent Mc []) (mmul 3 (ent Ma []) (ent Mb [])).
Proof. exact p_quat_mul. Qed.
Print Assumptions C22_product.

Local Close Scope R_scope.
(* tumutils.transform44 gives the same rotation *)
Local Open Scope R_scope.
Theorem C22_tum_loader : forall t q, / 2 ^ 50 <= dot 4 q q ->
  exists M, transform44 t q = Ok M /\ affine4 M /\ rigid4 M /\ veq 3 (tr_of M) t /\
    meq 3 3 (rot_of M) (rot_of_quat q).
Proof. exact p_transform44. Qed.
Print Assumptions C22_tum_loader.

Local Close Scope R_scope.
(* datautils.pointquaternion_to_homogeneous gives the same rotation *)
Local Open Scope R_scope.
Theorem C22_icl_loader : forall (x : ten R) eps s, 0 < eps -> dims x = (7 :: s)%nat ->
  exists M, pointquaternion_to_homogeneous x eps = Ok M /\ dims M = (4 :: 4 :: s)%nat /\
    forall r, vix s r -> 2 * eps * eps <= dot 4 (fun k => comp x r (3 + k)) (fun k => comp x r (3 + k)) ->
      rigid4 (ent M r) /\ veq 3 (tr_of (ent M r)) (comp x r) /\
      meq 3 3 (rot_of (ent M r)) (rot_of_quat (fun k => comp x r (3 + k))).
Proof. exact p_pq. Qed.
Print Assumptions C22_icl_loader.

Local Close Scope R_scope.
Local Open Scope R_scope.
Theorem C22_tum_tiny : forall t q, dot 4 q q < / 2 ^ 50 -> transform44 t q = Err TypeError.
Proof. exact p_transform44_tiny. Qed.
Print Assumptions C22_tum_tiny.

Local Close Scope R_scope.
Local Open Scope R_scope.
Theorem C22_rejects : forall (q : ten R) d s, dims q = (d :: s)%nat -> d <> 4%nat ->
  quaternion_to_rotation_matrix q = Err ValueError /\ quaternion_to_axisangle q = Err ValueError.
Proof. exact p_quat_rej. Qed.
Print Assumptions C22_rejects.

Local Close Scope R_scope.
(* a non-zero quaternion below the normalisation threshold does not give a rotation *)
Theorem C22_below_threshold_refuted : exists q M, shape q = [4] /\ norm 4 (comp q []) <> 0%R /\
  quaternion_to_rotation_matrix q = Ok M /\ ~ orthogonal3 (ent M []).
Proof. exact p_quat_tiny. Qed.
Print Assumptions C22_below_threshold_refuted.

Theorem C22_leading_dims_flattened : forall (q : ten R) a b, shape q = [a; b; 4] ->
  exists M, quaternion_to_rotation_matrix q = Ok M /\ shape M = [a * b; 3; 3].
Proof. exact p_quat_flat. Qed.
Print Assumptions C22_leading_dims_flattened.

Example C22_witness : exists q : ten R, dims q = [4; 2] /\ (forall r, vix [2] r -> (eps12 <= norm 4 (comp q r))%R) /\
  dot 4 (qmul (comp q [0]) (comp q [0])) (qmul (comp q [0]) (comp q [0])) = 1%R /\ (tum_eps <= dot 4 (comp q [0%nat]) (comp q [0%nat]))%R.
Proof.
  exists (mkTen [4; 2] (fun ix => match ix with 0 :: _ => (3 / 5)%R | 3 :: _ => (4 / 5)%R | _ => 0%R end)).
  assert (E : forall r, vix [2] r -> dot 4 (comp (mkTen [4; 2] (fun ix => match ix with 0 :: _ => (3 / 5)%R | 3 :: _ => (4 / 5)%R | _ => 0%R end)) r) (comp (mkTen [4; 2] (fun ix => match ix with 0 :: _ => (3 / 5)%R | 3 :: _ => (4 / 5)%R | _ => 0%R end)) r) = 1%R).
  { intros r _. unfold dot, comp. cbn [rsum at_]. field. }
  split; [reflexivity|]. split; [intros r Hr; rewrite (dot1_norm _ (E r Hr)); unfold eps12; lra|].
  split; [rewrite qmul_norm2, (E [0]) by (cbn; auto); ring|]. rewrite (E [0]) by (cbn; auto).
  unfold tum_eps. rewrite <- Rinv_1. apply Rinv_le_contravar; [lra|]. apply pow_R1_Rle. lra.
Qed.

(* ------------------------------------------------------------------ C23 *)
(* norm in [0, pi], along the axis, and its matrix exponential is the rotation of the quaternion *)
Local Open Scope R_scope.
Theorem C23_axisangle : forall (q : ten R) s, dims q = (4 :: s)%nat ->
  exists a, quaternion_to_axisangle q = Ok a /\ dims a = (3 :: s)%nat /\
    forall r, vix s r -> dot 4 (comp q r) (comp q r) = 1 ->
      0 <= norm 3 (comp a r) <= PI /\
      (exists k, veq 3 (comp a r) (fun i => k * comp q r i)) /\
      is_mexp 3 (skew (comp a r)) (quat_rot (comp q r 0%nat) (comp q r 1%nat) (comp q r 2%nat) (comp q r 3%nat)).
Proof. exact p_axisangle. Qed.
Print Assumptions C23_axisangle.

Local Close Scope R_scope.
Local Open Scope R_scope.
Theorem C23_opposite : forall (q : ten R) s, dims q = (4 :: s)%nat ->
  exists a a', quaternion_to_axisangle q = Ok a /\ quaternion_to_axisangle (tmap Ropp q) = Ok a' /\
    forall r, vix s r -> dot 4 (comp q r) (comp q r) = 1 ->
      exists Q, is_mexp 3 (skew (comp a r)) Q /\ is_mexp 3 (skew (comp a' r)) Q.
Proof. exact p_axisangle_neg. Qed.
Print Assumptions C23_opposite.

Local Close Scope R_scope.
Example C23_witness : exists q : ten R, dims q = [4] /\ dot 4 (comp q []) (comp q []) = 1%R /\ (comp q [] 3 < 0)%R.
Proof.
  exists (mkTen [4] (fun ix => match ix with [0] => (3 / 5)%R | [3] => (- 4 / 5)%R | _ => 0%R end)).
  split; [reflexivity|]. split; [unfold dot, comp; cbn [rsum at_]; field|unfold comp; cbn [at_]; lra].
Qed.

(* ------------------------------------------------------------------ C24 *)
Local Open Scope R_scope.
Theorem C24_so3_exp : forall a b c, / 1000000 <= norm 3 (vec3 a b c) ->
  exists Q, so3_exp [a; b; c] = Ok Q /\ is_mexp 3 (skew (vec3 a b c)) Q /\ rotation3 Q /\
    veq 3 (mvec 3 Q (vec3 a b c)) (vec3 a b c).
Proof. exact p_so3_exp. Qed.
Print Assumptions C24_so3_exp.

Local Close Scope R_scope.
Local Open Scope R_scope.
Theorem C24_se3_exp : forall x y z a b c, / 1000000 <= norm 3 (vec3 a b c) ->
  exists T, se3_exp [x; y; z; a; b; c] = Ok T /\ is_mexp 4 (twist (vec3 x y z) (vec3 a b c)) T /\ rigid4 T /\
    (exists Q, so3_exp [a; b; c] = Ok Q /\ meq 3 3 (rot_of T) Q) /\
    exists V, veq 3 (tr_of T) (mvec 3 V (vec3 x y z)) /\
      meq 3 3 (mmul 3 (skew (vec3 a b c)) V) (madd (rot_of T) (mscale (-1) mI)).
Proof. exact p_se3_exp. Qed.
Print Assumptions C24_se3_exp.

Local Close Scope R_scope.
(* the hat operators build the matrices whose exponential is computed; vectors that are too short fail *)
Local Open Scope R_scope.
Theorem C24_hat : (forall a b c, exists M, so3_hat [a; b; c] = Ok M /\ meq 3 3 M (skew (vec3 a b c))) /\
  (forall x y z a b c, exists M, se3_hat [x; y; z; a; b; c] = Ok M /\ meq 4 4 M (twist (vec3 x y z) (vec3 a b c))) /\
  (forall w, (length w < 3)%nat -> so3_hat w = Err IndexError /\ so3_exp w = Err IndexError) /\
  (forall xi, (length xi < 6)%nat -> se3_hat xi = Err IndexError /\ se3_exp xi = Err IndexError).
Proof. exact p_hat. Qed.
Print Assumptions C24_hat.

Local Close Scope R_scope.
(* exp((s+t)w) = exp(sw) exp(tw); exp(sw) and exp(-sw) are inverse *)
Local Open Scope R_scope.
Theorem C24_so3_one_parameter_group : forall a b c s t,
  / 1000000 <= Rabs s * norm 3 (vec3 a b c) -> / 1000000 <= Rabs t * norm 3 (vec3 a b c) ->
  exists Qs Qt, so3_exp [s * a; s * b; s * c] = Ok Qs /\ so3_exp [t * a; t * b; t * c] = Ok Qt /\
    (/ 1000000 <= Rabs (s + t) * norm 3 (vec3 a b c) ->
      exists Qst, so3_exp [(s + t) * a; (s + t) * b; (s + t) * c] = Ok Qst /\ meq 3 3 Qst (mmul 3 Qs Qt)) /\
    (s + t = 0 -> inverse_of 3 Qs Qt).
Proof. exact p_so3_group. Qed.
Print Assumptions C24_so3_one_parameter_group.

Local Close Scope R_scope.
Local Open Scope R_scope.
Theorem C24_se3_one_parameter_group : forall x y z a b c s t,
  / 1000000 <= Rabs s * norm 3 (vec3 a b c) -> / 1000000 <= Rabs t * norm 3 (vec3 a b c) ->
  exists Ts Tt, se3_exp [s * x; s * y; s * z; s * a; s * b; s * c] = Ok Ts /\
    se3_exp [t * x; t * y; t * z; t * a; t * b; t * c] = Ok Tt /\
    (/ 1000000 <= Rabs (s + t) * norm 3 (vec3 a b c) ->
      exists Tst, se3_exp [(s + t) * x; (s + t) * y; (s + t) * z; (s + t) * a; (s + t) * b; (s + t) * c] = Ok Tst /\
        meq 4 4 Tst (mmul 4 Ts Tt)) /\
    (s + t = 0 -> inverse_of 4 Ts Tt).
Proof. exact p_se3_group. Qed.
Print Assumptions C24_se3_one_parameter_group.

Local Close Scope R_scope.
Example C24_witness : (/ 1000000 <= norm 3 (vec3 2 (-1) 2) /\ / 1000000 <= Rabs (-1) * norm 3 (vec3 2 (-1) 2))%R.
Proof.
  assert (E : norm 3 (vec3 2 (-1) 2) = 3%R).
  { unfold norm, dot, vec3. cbn [rsum]. replace (0 + 2 * 2 + -1 * -1 + 2 * 2)%R with (3 * 3)%R by ring. apply sqrt_square. lra. }
  rewrite E, (Rabs_left (-1)) by lra. lra.
Qed.

(* ------------------------------------------------------------------ C25 *)
(* below 1e-6 (and not zero) the result is never rigid and never the exponential *)
Local Open Scope R_scope.
Theorem C25_small_angles_refuted : forall x y z a b c, 0 < norm 3 (vec3 a b c) < / 1000000 ->
  (exists Q, so3_exp [a; b; c] = Ok Q /\ ~ orthogonal3 Q /\ ~ is_mexp 3 (skew (vec3 a b c)) Q) /\
  exists T, se3_exp [x; y; z; a; b; c] = Ok T /\ ~ rigid4 T /\ ~ is_mexp 4 (twist (vec3 x y z) (vec3 a b c)) T.
Proof. exact p_small_not_rigid. Qed.
Print Assumptions C25_small_angles_refuted.

Local Close Scope R_scope.
(* how far it is from the exponential; a zero rotation is exact *)
Local Open Scope R_scope.
Theorem C25_error_bound_partial : forall x y z a b c, norm 3 (vec3 a b c) < / 1000000 ->
  exists T E, se3_exp [x; y; z; a; b; c] = Ok T /\ affine4 T /\
    is_mexp 4 (twist (vec3 x y z) (vec3 a b c)) E /\ rigid4 E /\
    (let th := norm 3 (vec3 a b c) in
     det3 (rot_of T) = 1 + th * th /\
     (forall i j, (i < 3)%nat -> (j < 3)%nat -> Rabs (mmul 3 (mtr (rot_of T)) (rot_of T) i j - mI i j) <= th * th) /\
     (forall i j, (i < 3)%nat -> (j < 3)%nat -> Rabs (rot_of T i j - rot_of E i j) <= th * th) /\
     (forall i, (i < 3)%nat -> Rabs (tr_of T i - tr_of E i) <= th * (Rabs x + Rabs y + Rabs z)) /\
     (th = 0 -> meq 4 4 T E)).
Proof. exact p_small_bound. Qed.
Print Assumptions C25_error_bound_partial.

Local Close Scope R_scope.
Example C25_witness : (0 < norm 3 (vec3 0 (/ 10000000) 0) < / 1000000)%R.
Proof.
  assert (E : norm 3 (vec3 0 (/ 10000000) 0) = (/ 10000000)%R).
  { unfold norm, dot, vec3. cbn [rsum]. replace (0 + 0 * 0 + / 10000000 * / 10000000 + 0 * 0)%R with (/ 10000000 * / 10000000)%R by ring.
    apply sqrt_square. lra. }
  rewrite E. lra.
Qed.

(* ------------------------------------------------------------------ C26 *)
Theorem C26_mutually_inverse : forall (p : ten R) (h w : Z) s, (h > 1)%Z -> (w > 1)%Z -> dims p = 2 :: s ->
  exists q p1 u q1, normalize_pixel_coords p h w = Ok q /\ unnormalize_pixel_coords q h w = Ok p1 /\ teq p1 p /\
    unnormalize_pixel_coords p h w = Ok u /\ normalize_pixel_coords u h w = Ok q1 /\ teq q1 p.
Proof. exact p_normalize_inverse. Qed.
Print Assumptions C26_mutually_inverse.

Theorem C26_range : forall (p : ten R) (h w : Z) s, (h > 1)%Z -> (w > 1)%Z -> dims p = 2 :: s ->
  exists q, normalize_pixel_coords p h w = Ok q /\ dims q = dims p /\
    forall r, vix s r ->
      (-1 <= comp q r 0%nat <= 1 <-> 0 <= comp p r 0%nat <= IZR h - 1)%R /\
      (-1 <= comp q r 1%nat <= 1 <-> 0 <= comp p r 1%nat <= IZR w - 1)%R /\
      (comp p r 0%nat = 0 -> comp q r 0%nat = -1)%R /\ (comp p r 0%nat = IZR h - 1 -> comp q r 0%nat = 1)%R /\
      (comp p r 1%nat = 0 -> comp q r 1%nat = -1)%R /\ (comp p r 1%nat = IZR w - 1 -> comp q r 1%nat = 1)%R.
Proof. exact p_normalize_range. Qed.
Print Assumptions C26_range.

Theorem C26_rejects : forall (p : ten R) h w d s, dims p = d :: s -> d <> 2 ->
  normalize_pixel_coords p h w = Err ValueError /\ unnormalize_pixel_coords p h w = Err ValueError.
Proof. exact p_normalize_rej. Qed.
Print Assumptions C26_rejects.

Theorem C26_meshgrid : forall h w,
  let g := create_meshgrid h w false in
  shape g = [1; h; w; 2] /\
  (forall i j, i < h -> j < w -> comp g [j; i; 0] 0 = INR i /\ comp g [j; i; 0] 1 = INR j).
Proof. exact p_meshgrid. Qed.
Print Assumptions C26_meshgrid.

Theorem C26_meshgrid_once : forall h w i j, i < h -> j < w ->
  exists! ij : nat * nat, fst ij < h /\ snd ij < w /\
    comp (create_meshgrid h w false) [snd ij; fst ij; 0] 0 = INR i /\
    comp (create_meshgrid h w false) [snd ij; fst ij; 0] 1 = INR j.
Proof. exact p_meshgrid_once. Qed.
Print Assumptions C26_meshgrid_once.

Theorem C26_meshgrid_normalized : forall h w, 1 < h -> 1 < w ->
  exists q, normalize_pixel_coords (create_meshgrid h w false) (Z.of_nat h) (Z.of_nat w) = Ok q /\
    teq q (create_meshgrid h w true).
Proof. exact p_meshgrid_norm. Qed.
Print Assumptions C26_meshgrid_normalized.

Example C26_witness : exists p : ten R, dims p = 2 :: [3] /\ vix [3] [1] /\ comp p [1] 0 = 1%R /\ (480 > 1)%Z.
Proof. exists (mkTen [2; 3] (fun ix => match ix with [i; n] => INR (n + i) | _ => 0%R end)). repeat split; cbn; auto. Qed.

(* ------------------------------------------------------------------ C27 *)
Local Open Scope R_scope.
Theorem C27_entries : forall (K : ten R) hr wr k s, (k = 3 \/ k = 4)%nat -> dims K = (k :: k :: s)%nat ->
  exists K', scale_intrinsics K hr wr = Ok K' /\ dims K' = dims K /\
    forall r i j, (i < k)%nat -> (j < k)%nat -> ent K' r i j =
      match i, j with
      | 0%nat, 0%nat | 0%nat, 2%nat => ent K r i j * wr
      | 1%nat, 1%nat | 1%nat, 2%nat => ent K r i j * hr
      | _, _ => ent K r i j
      end.
Proof. exact p_scale_entries. Qed.
Print Assumptions C27_entries.

Local Close Scope R_scope.
(* 3x3 and 4x4 matrices *)
Local Open Scope R_scope.
Theorem C27_commutes_with_perspective : forall (K : ten R) hr wr k s, (k = 3 \/ k = 4)%nat -> dims K = (k :: k :: s)%nat ->
  (forall r, vix s r -> zero_skew k (ent K r)) ->
  exists K', scale_intrinsics K hr wr = Ok K' /\ dims K' = dims K /\
    forall r p, vix s r ->
      persp (mvec k (ent K' r) p) 0%nat = wr * persp (mvec k (ent K r) p) 0%nat /\
      persp (mvec k (ent K' r) p) 1%nat = hr * persp (mvec k (ent K r) p) 1%nat.
Proof. exact p_scale_persp. Qed.
Print Assumptions C27_commutes_with_perspective.

Local Close Scope R_scope.
Local Open Scope R_scope.
Theorem C27_commutes_with_project_points : forall (cam K : ten R) hr wr d n cb pb,
  dims cam = (d :: n :: cb)%nat -> (d = 3 \/ d = 4)%nat -> dims K = (4 :: 4 :: pb)%nat -> cameras pb cb ->
  (forall c, vix pb c -> zero_skew 4 (ent K c)) ->
  exists K' q q', scale_intrinsics K hr wr = Ok K' /\ project_points cam K = Ok q /\ project_points cam K' = Ok q' /\
    dims q' = (2 :: n :: cb)%nat /\
    forall r, vix (n :: cb) r -> comp q' r 0%nat = wr * comp q r 0%nat /\ comp q' r 1%nat = hr * comp q r 1%nat.
Proof. exact p_scale_project. Qed.
Print Assumptions C27_commutes_with_project_points.

Local Close Scope R_scope.
Local Open Scope R_scope.
Theorem C27_rejects : forall (K : ten R) hr wr,
  scale_intrinsics K hr wr = Err ValueError <-> ~ exists k s, (k = 3 \/ k = 4)%nat /\ dims K = (k :: k :: s)%nat.
Proof. exact p_scale_rej. Qed.
Print Assumptions C27_rejects.

Local Close Scope R_scope.
Example C27_witness : dims (w_K 4) = [4; 4] /\ zero_skew 4 (ent (w_K 4) []) /\ ent (w_K 4) [] 0 0 = 2%R /\ cameras [] [5].
Proof. split; [reflexivity|]. split; [repeat split|]. split; [reflexivity|left; reflexivity]. Qed.

(* ------------------------------------------------------------------ C28 *)
Local Open Scope R_scope.
Theorem C28_poses_to_transforms : forall p ps, pose_ok p -> Forall pose_ok ps ->
  exists l, poses_to_transforms (p :: ps) = Ok (mI :: l) /\ length l = length ps /\
    Forall2 (meq 4 4) (running p (mI :: l)) (p :: ps).
Proof. exact p_poses_to_transforms. Qed.
Print Assumptions C28_poses_to_transforms.

Local Close Scope R_scope.
Local Open Scope R_scope.
Theorem C28_ground_truth_provider : forall B (p1 p2 : ten R), dims p1 = [4; 4; 1; B]%nat -> dims p2 = [4; 4; 1; B]%nat ->
  (forall b, (b < B)%nat -> pose_ok (ent p1 [0%nat; b]) /\ affine4 (ent p2 [0%nat; b])) ->
  exists T, gt_provide (mkPosed B 1 (Some p1)) (mkPosed B 1 (Some p2)) = Ok T /\ shape T = [B; 1; 4; 4]%nat /\
    forall b, (b < B)%nat -> affine4 (ent T [0%nat; b]) /\
      meq 4 4 (mmul 4 (ent p1 [0%nat; b]) (ent T [0%nat; b])) (ent p2 [0%nat; b]) /\
      (forall X, affine4 X -> meq 4 4 (mmul 4 (ent p1 [0%nat; b]) X) (ent p2 [0%nat; b]) -> meq 4 4 X (ent T [0%nat; b])) /\
      (rigid4 (ent p1 [0%nat; b]) -> rigid4 (ent p2 [0%nat; b]) -> rigid4 (ent T [0%nat; b])).
Proof. exact p_gt. Qed.
Print Assumptions C28_ground_truth_provider.

Local Close Scope R_scope.
Local Open Scope R_scope.
Theorem C28_ground_truth_rejects : forall r1 r2, ps_poses r1 = None \/ ps_poses r2 = None \/ ps_L r1 <> 1%nat \/ ps_L r2 <> 1%nat \/ ps_B r1 <> ps_B r2 ->
  gt_provide r1 r2 = Err ValueError.
Proof. exact p_gt_rej. Qed.
Print Assumptions C28_ground_truth_rejects.

Local Close Scope R_scope.
Example C28_witness : exists ps, length ps = 3 /\ Forall pose_ok ps /\ pose_ok (ent w_T []).
Proof.
  assert (H : pose_ok (ent w_T [])) by (split; [exact (proj1 w_T_rigid)|rewrite (proj2 (proj2 w_T_rigid)); apply R1_neq_R0]).
  exists [ent w_T []; ent w_T []; ent w_T []]. split; [reflexivity|]. split; [repeat constructor; apply H|exact H].
Qed.
