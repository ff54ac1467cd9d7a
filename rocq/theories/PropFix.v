(* Property C75: registration of aligned clouds.
   Vocabulary (IcpSpec.v, IcpFixSpec.v): pts_of x = the points of a (1, N, 3) tensor; moved T s = every point transformed; plane_res n d p = n . (p - d);
   match_of = the nearest target point; takes_part = not dropped by the threshold; plane_err = sum of squared residuals;
   balanced = residual forces and torques sum to zero; on_target = every source position is a target position. *)
From Coq Require Import Reals List Arith ZArith Bool Lia Lra.
From Verif Require Import Res Fld StructUtilsModel PointcloudsModel PointcloudsSpec PointcloudsHist MatSpec GeomSpec TensorModel RgbdModel
  FusionModel FusionSpec FusionMap FusionPropProofs2 FusionWitness Se3Model SolveModel IcpModel IcpSpec OdomSpec IcpFixSpec
  IcpGnProofs IcpArgProofs IcpPropProofs IcpFixProofs IcpFixPropProofs.
Import ListNotations.
Local Open Scope R_scope.

(* ------------------------------------------------------------------ C75 *)
(* any number of iterations, any damping: a balanced start is returned as it is, with its correspondences *)
Local Open Scope R_scope.
Theorem C75_icp : forall nn src tgt nor ns nt th init n damp, icp_input nn src tgt nor ns nt th -> mat44 init -> 0 < damp -> (0 < n)%Z ->
  let s := moved (ent init []) (pts_of src) in
  balanced nn (keep_sq th) ns nt (pts_of tgt) (pts_of nor) s ->
  point_to_plane_ICP nn (TTen src) (TTen tgt) (TTen nor) (TTen init) (IntV n) damp th =
    Ok (init, map (fun i => match_of nn nt (pts_of tgt) (s i)) (kept_pts nn (keep_sq th) ns nt (pts_of tgt) s)).
Proof. exact p_fix_icp. Qed.
Print Assumptions C75_icp.

Local Close Scope R_scope.
Local Open Scope R_scope.
Theorem C75_gradicp : forall nn src tgt nor ns nt th lmax B B2 nu init n damp, icp_input nn src tgt nor ns nt th -> 0 < lmax -> nu <> 0 ->
  mat44 init -> 0 < damp -> (0 < n)%Z ->
  let s := moved (ent init []) (pts_of src) in
  balanced nn (keep_sq th) ns nt (pts_of tgt) (pts_of nor) s ->
  exists T, point_to_plane_gradICP nn (TTen src) (TTen tgt) (TTen nor) (TTen init) (IntV n) damp th (Num lmax) (Num B) (Num B2) (Num nu) =
    Ok (T, map (fun i => match_of nn nt (pts_of tgt) (s i)) (kept_pts nn (keep_sq th) ns nt (pts_of tgt) s)) /\
    mat44 T /\ meq 4 4 (ent T []) (ent init []).
Proof. exact p_fix_grad. Qed.
Print Assumptions C75_gradicp.

Local Close Scope R_scope.
(* zero error: every point that takes part lies on the plane of its match, and the start is balanced *)
Local Open Scope R_scope.
Theorem C75_zero_error : forall nn (keep : R -> bool) ns nt d n s, plane_err nn keep ns nt d n s = 0 ->
  (forall i, takes_part nn keep ns nt d s i -> plane_res (n (match_of nn nt d (s i))) (d (match_of nn nt d (s i))) (s i) = 0) /\
  balanced nn keep ns nt d n s.
Proof. exact p_fix_zero_error. Qed.
Print Assumptions C75_zero_error.

Local Close Scope R_scope.
(* source positions that are target positions (a cloud against itself, any normals, any threshold): zero error, balanced *)
Local Open Scope R_scope.
Theorem C75_on_target : forall nn (keep : R -> bool) ns nt d n s, nearest nn -> on_target ns nt d s ->
  plane_err nn keep ns nt d n s = 0 /\ balanced nn keep ns nt d n s.
Proof. exact p_fix_on_target. Qed.
Print Assumptions C75_on_target.

Local Close Scope R_scope.
(* no source point within the threshold: balanced, so the initial transform is returned without a sign of failure *)
Local Open Scope R_scope.
Theorem C75_none_kept : forall nn (keep : R -> bool) ns nt d n s, (forall i, ~ takes_part nn keep ns nt d s i) -> balanced nn keep ns nt d n s.
Proof. exact p_fix_none_kept. Qed.
Print Assumptions C75_none_kept.

Local Close Scope R_scope.
(* both providers: a frame all of whose points are map points gets the identity *)
Local Open Scope R_scope.
Theorem C75_providers : forall nn o s t a c P N Q, Hist RF s a -> Hist RF t c -> qp a = Some P -> qn a = Some N -> qp c = Some Q -> length P = length Q ->
  nearest nn -> good_method o ->
  (forall b, (b < length P)%nat -> incl (t2r (nth b Q (mkT2 0 [] : t2 R))) (t2r (nth b P (mkT2 0 [] : t2 R)))) ->
  exists X s' t', provide nn o (s, t) = (Ok X, (s', t')) /\ shape X = [length P; 1; 4; 4]%nat /\
    forall b, (b < length P)%nat -> meq 4 4 (ent X [0%nat; b]) mI.
Proof. exact p_fix_provide. Qed.
Print Assumptions C75_providers.

Local Close Scope R_scope.
Local Open Scope R_scope.
Example C75_witness : icp_input first_closest (one_pt 1 2 3) (one_pt 1 2 3) (one_pt 0 0 1) 1 1 ThrNone /\ mat44 eye4 /\
  on_target 1 1 (pts_of (one_pt 1 2 3)) (moved (ent eye4 []) (pts_of (one_pt 1 2 3))) /\
  (* on the plane z = 3 but at another place *)
  plane_err first_closest (keep_sq ThrNone) 1 1 (pts_of (one_pt 1 2 3)) (pts_of (one_pt 0 0 1)) (pts_of (one_pt 5 6 3)) = 0 /\
  (forall i, ~ takes_part first_closest (keep_sq (Thr 1)) 1 1 (pts_of (one_pt 1 2 3)) (pts_of (one_pt 5 6 3)) i) /\
  (exists s t, Hist RF s m1 /\ Hist RF t m1 /\ qp m1 <> None /\ qn m1 <> None /\ nearest first_closest /\ good_method (MIcp (IntV 20) 1 ThrNone)) /\
  (* balanced although the error is not zero: two points at distance 1 on the two sides of one plane *)
  (let two := fun i => match i with O => vec3 0 0 1 | _ => vec3 0 0 (-1) end in
   balanced first_closest (keep_sq ThrNone) 2 1 (fun _ => vec3 0 0 0) (fun _ => vec3 0 0 1) two /\
   plane_err first_closest (keep_sq ThrNone) 2 1 (fun _ => vec3 0 0 0) (fun _ => vec3 0 0 1) two = 2).
Proof.
  split; [apply one_input|]. split; [exact eye_mat44|].
  split; [intros i Hi; exists 0%nat; split; [lia|]; assert (i = 0%nat) as -> by lia; apply (moved_id 1); [intros p q Hp Hq; reflexivity|lia]|].
  split; [unfold plane_err, plane_res, dot; cbn; lra|].
  split; [intros i [Hi K]; assert (i = 0%nat) as -> by lia; cbn in K; unfold dist2 in K; cbn in K; destruct (Rlt_dec _ _) as [Hl|]; [lra|discriminate]|].
  split.
  - destruct (map_exists _ _ m1_valid) as (s & Hs). apply ready_iff in Hs. destruct Hs as [Hs _]. exists s, s.
    split; [exact Hs|]. split; [exact Hs|]. repeat (split; [discriminate|]). split; [exact first_closest_nearest|]. cbn. split; [lia|split; [lra|discriminate]].
  - cbv zeta. split; [|unfold plane_err, plane_res, dot; cbn; lra].
    intros k Hk. cbv zeta. unfold plane_res, dot, cross, vec3. cbn [rsum keep_sq]. destruct k as [|[|[|k]]]; [| | |lia]; cbn; split; lra.
Qed.
