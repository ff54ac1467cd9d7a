import sys; sys.path.insert(0,'/verif/tools')
from genprop import gen
H=lambda t:('h',t)
def Tm(th,lem,f,com=''): return ('t',th,lem,f,com)
def sec(c): return H('(* ------------------------------------------------------------------ %s *)'%c)
PP='ProjPropProofs'; G='GeomProofs'; GP='GeomPtsProofs'; Q='QuatProofs'; S='Se3Proofs'; A='AxisAngleProofs'; M='GeomMiscProofs'; X='GeomRefute'
plan=[H('''(* Properties C14-C28: geometry utilities over the reals.
   Tensors list extents and indices from the last dimension to the first (TensorModel.v); comp x r i is
   x[..., i], ent x r i j is x[..., i, j] at leading index r; vix s r says r is a legal index for extents s.
   Statement vocabulary: MatSpec.v (matrices, rotations, rigid transforms, matrix exponential as a power
   series), GeomSpec.v (cameras, quaternions), ShapeSpec.v (documented shapes). *)
From Coq Require Import Reals List Arith ZArith Bool Lia Lra.
From Verif Require Import Res Fld StructUtilsModel PointcloudsModel PointcloudsSpec PointcloudsHist
  MatSpec TensorModel ShapeSpec LinAlgModel ProjModel GeomModel Se3Model DataUtilsModel GTOdomModel GeomSpec
  MatProofs ProjProofs ProjPropProofs GeomProofs GeomPtsProofs QuatProofs Se3Proofs AxisAngleProofs GeomMiscProofs GeomRefute.
Import ListNotations.
Local Open Scope nat_scope.

(* concrete tensors used to show that hypotheses can be met *)
Definition w_pts : ten R := mkTen [3; 2] (fun ix => match ix with [i; n] => INR (1 + i + 2 * n) | _ => 0%R end).
Definition w_T : ten R := mkTen [4; 4] (fun ix => match ix with   (* quarter turn about z, then (1,2,3) *)
  | [1; 0] => (-1)%R | [0; 1] => 1%R | [2; 2] => 1%R | [3; 3] => 1%R
  | [3; 0] => 1%R | [3; 1] => 2%R | [3; 2] => 3%R | _ => 0%R end).
Lemma w_T_rigid : rigid4 (ent w_T []).
Proof.
  split; [repeat split|]. split; [split|].
  - intros i j Hi Hj. unfold mmul, mtr, rot_of, ent, w_T, mI, delta. cbn [rsum at_].
    idx3 i Hi; idx3 j Hj; cbn [Nat.eqb]; ring.
  - intros i j Hi Hj. unfold mmul, mtr, rot_of, ent, w_T, mI, delta. cbn [rsum at_].
    idx3 i Hi; idx3 j Hj; cbn [Nat.eqb]; ring.
  - unfold det3, rot_of, ent, w_T. cbn [at_]. ring.
Qed.
Definition w_K (k : nat) : ten R := mkTen [k; k] (fun ix => match ix with [j; i] => pinhole 2 4 1 3 0 i j | _ => 0%R end).
Definition w_Ki : ten R := mkTen [3; 3] (fun ix => match ix with
  [j; i] => pinhole (1 / 2) (1 / 4) (- 1 / 2) (- 3 / 4) 0 i j | _ => 0%R end).
Lemma w_inv : proj_of (ent (w_K 4) []) (ent (w_K 3) []) /\\ inverse_of 3 (ent (w_K 3) []) (ent w_Ki []).
Proof.
  split; [split; [intros i j Hi Hj; idx3 i Hi; idx3 j Hj; reflexivity|split; [intros i Hi; idx3 i Hi; reflexivity|repeat split]]|].
  split; intros i j Hi Hj; idx3 i Hi; idx3 j Hj; unfold mmul, ent, w_K, w_Ki, pinhole, mI, delta; cbn [rsum at_ Nat.eqb]; field.
Qed.
Lemma w_pts_z : forall r, vix [2] r -> comp w_pts r 2 <> 0%R.
Proof. intros [|n [|? ?]] H; cbn in H; try tauto. unfold comp, w_pts. cbn [at_]. apply not_0_INR. lia. Qed.
'''),
sec('C14'),
Tm('C14_unhomogenize_homogenize','p_hom_unhom',PP),
Tm('C14_divides_above_threshold','p_unhom',PP),
Tm('C14_scale_invariant','p_unhom_scale',PP,'c r is the factor by which the point at index r is rescaled'),
Tm('C14_rank','p_hom_rank',PP),
H('''Example C14_witness : exists x y : ten R, dims x = [3; 2] /\\ dims y = dims x /\\ (0 <= eps6)%R /\\
  (forall i r, i <= 2 -> vix [2] r -> comp y r i = (-5 * comp x r i)%R) /\\
  (forall r, vix [2] r -> (eps6 < Rabs (comp x r 2) /\\ eps6 < Rabs (comp y r 2))%R).
Proof.
  exists w_pts, (tmap (Rmult (-5)) w_pts). split; [reflexivity|]. split; [reflexivity|].
  split; [unfold eps6; lra|]. split; [reflexivity|].
  intros [|n [|? ?]] H; cbn in H; try tauto. unfold comp, tmap, w_pts, eps6. cbn [at_].
  assert (3 <= INR (1 + 2 + 2 * n))%R by (replace 3%R with (INR 3) by (cbn; lra); apply le_INR; lia).
  rewrite Rabs_mult, (Rabs_right (INR _)), Rabs_left; lra.
Qed.
'''),
sec('C15'),
Tm('C15_pinhole_equation','p_project_pinhole',PP,'one camera per leading index (or a shared one); z = 0 does not divide'),
Tm('C15_unproject_project','p_unproject_project',PP,'pixel + depth -> point -> the same pixel, with that depth'),
Tm('C15_project_unproject','p_project_unproject',PP,'point -> pixel -> the same point'),
H('''Example C15_witness : exists (cam Ki P dep : ten R), dims cam = [3; 2] /\\ dims dep = [2] /\\
  dims Ki = [3; 3] /\\ dims P = [4; 4] /\\ cameras [] [] /\\
  (proj_of (ent P []) (ent (w_K 3) []) /\\ inverse_of 3 (ent (w_K 3) []) (ent Ki [])) /\\
  (forall r, vix [2] r -> at_ dep r = comp cam r 2 /\\ comp cam r 2 <> 0%R).
Proof.
  exists w_pts, w_Ki, (w_K 4), (mkTen [2] (fun r => comp w_pts r 2)). repeat (split; [reflexivity|]).
  split; [left; reflexivity|]. split; [exact w_inv|]. intros r Hr. split; [reflexivity|apply w_pts_z, Hr].
Qed.
'''),
sec('C16'),
Tm('C16_project_uses_own_camera_partial','p_project',PP,'bix pb r is the camera index for leading index r: r itself, 0 where the camera extent is 1, nothing for a\n   shared camera.  Missing for the full property: see C16_leading_shape_refuted.'),
Tm('C16_unproject_uses_own_camera_partial','p_unproject',PP),
Tm('C16_project_rejects','project_value_error','ProjProofs','ValueError exactly for undocumented shapes'),
Tm('C16_project_incompatible','project_runtime_error','ProjProofs','documented ranks whose middle extents do not broadcast'),
Tm('C16_unproject_rejects','unproject_value_error','ProjProofs'),
Tm('C16_leading_shape_refuted','p_project_leading',X,'the leading shape of the points is not preserved when a camera extent is larger than the points extent'),
H('''Example C16_witness : exists cam P : ten R, dims cam = [3; 5; 2; 6] /\\ dims P = [4; 4; 1; 6] /\\
  cameras [1; 6] [2; 6] /\\ bix [1; 6] [1; 3] = [0; 3] /\\ doc_shapes 4 P cam.
Proof.
  exists (mkTen [3; 5; 2; 6] (fun _ => 1%R)), (mkTen [4; 4; 1; 6] (fun ix => INR (last ix 0))).
  repeat (split; [reflexivity|]). split; [|split; [reflexivity|]].
  - right. split; [constructor; [right; reflexivity|constructor; [left; reflexivity|constructor]]|reflexivity].
  - exists 3, 5, [2; 6], [1; 6]. cbn. auto 6.
Qed.
'''),
sec('C17'),
Tm('C17_exact_for_zero_eps_partial','p_inv_intr_exact',PP,'for eps = 0 the result is the inverse'),
Tm('C17_round_trip_error_partial','p_inv_intr_error',PP,'for any eps, the exact error of the round trip of a pixel'),
Tm('C17_eps_refuted','p_inv_intr_wrong',X,'for every non-zero eps (the default is 1e-6) the result is never an inverse'),
Tm('C17_rejects','p_inv_intr_rej',PP),
H('''Example C17_witness : dims (w_K 4) = [4; 4] /\\ (eps6 <> 0)%R /\\
  (meq 4 4 (ent (w_K 4) []) (pinhole 2 4 1 3 0) /\\ 2 <> 0 /\\ 4 <> 0 /\\ 2 + eps6 <> 0 /\\ 4 + eps6 <> 0)%R.
Proof. unfold eps6. split; [reflexivity|]. split; [lra|]. split; [intros i j _ _; reflexivity|]. repeat split; lra. Qed.
'''),
sec('C18'),
Tm('C18_inverse','p_inverse_group',G),
Tm('C18_compose','p_compose',G),
Tm('C18_associative','p_compose_assoc',G),
Tm('C18_relative','p_relative_3d',G),
Tm('C18_relative_transformation','p_relative_transformation',G,'single transforms (s = []) and batches (s = [N]), both settings of orthogonal_rotations'),
H('''Example C18_witness : shape w_T = [4; 4] /\\ rigid4 (ent w_T []) /\\
  (det3 (rot_of (ent w_T [])) <> 0)%R /\\ veq 3 (act (ent w_T []) (vec3 1 0 0)) (vec3 1 3 3).
Proof.
  split; [reflexivity|]. split; [exact w_T_rigid|]. split; [rewrite (proj2 (proj2 w_T_rigid)); lra|].
  intros i Hi. unfold act, mvec, rot_of, tr_of, ent, w_T, vec3. cbn [rsum at_]. idx3 i Hi; ring.
Qed.
'''),
sec('C19'),
H('(* batches are documented but never work, for any batch size *)'),
Tm('C19_inverse_batch_refuted','p_inverse_batch_fails',GP),
Tm('C19_compose_batch_refuted','p_compose_batch_fails',GP),
Tm('C19_malformed_refuted','p_shape_errors',X,'malformed shapes: IndexError, TypeError or a silent result instead of ValueError'),
H('''Example C19_witness : exists T : ten R, shape T = [7; 4; 4] /\\ forall b, b < 7 -> rigid4 (ent T [b]).
Proof.
  exists (mkTen [4; 4; 7] (fun ix => match ix with [j; i; _] => ent w_T [] i j | _ => 0%R end)).
  split; [reflexivity|]. intros b _. exact w_T_rigid.
Qed.
'''),
sec('C20'),
Tm('C20_pts_3d_partial','p_transform_pts_4d',GP,'transform_pts_3d on B x H x W x 3 inputs'),
Tm('C20_pts_3d_other_ranks_refuted','p_transform_pts_other',GP,'on every other rank, in particular the documented (N, 3), the result has no entries'),
Tm('C20_pts_3d_homogeneous','p_transform_pts_hom',GP,'homogeneous B x H x W x 4 inputs, any 4x4 matrix'),
Tm('C20_pts_3d_width','p_transform_pts_width',GP,'any other last extent raises'),
Tm('C20_pts_3d_rejects','p_transform_pts_rej',GP),
Tm('C20_pts_nd','p_transform_nd',GP),
Tm('C20_pts_nd_rejects','p_transform_nd_rej',GP),
Tm('C20_pointcloud_and_normals','p_transform_cloud',GP),
Tm('C20_pointcloud_rejects','p_transform_cloud_rej',GP),
H('''Example C20_witness : shape w_pts = [2; 3] /\\ shape w_T = [4; 4] /\\ affine4 (ent w_T []) /\\
  dims w_pts = 3 :: 2 :: [] /\\ length (@nil nat) <> 2 /\\
  (forall j, j <= 3 -> ent w_T [] 3 j = delta 3 j).
Proof.
  repeat (split; [first [reflexivity|exact (proj1 w_T_rigid)|discriminate]|]).
  intros j Hj. destruct j as [|[|[|[|j]]]]; [| | | |lia]; reflexivity.
Qed.
'''),
sec('C21'),
Tm('C21_functions','p_isometry',GP),
Tm('C21_Pointclouds_transform','p_class_isometry',M,'the same for the class: transform_ on any reachable object, both conventions'),
H('''Example C21_witness : exists el : list nat -> R, is_mat 4 [4; 4] 3 /\\
  (forall b, orthogonal3 (mat_of RF [4; 4] el b)) /\\ el [0; 1] = (-1)%R /\\ el [0; 3] = 1%R.
Proof.
  exists (fun ix => match ix with [i; j] => ent w_T [] i j | _ => 0%R end). split; [left; reflexivity|].
  split; [intros b; exact (proj1 (proj2 w_T_rigid))|]. split; reflexivity.
Qed.
'''),
sec('C22'),
Tm('C22_matrix','p_quat_rot',Q,'every quaternion of norm at least 1e-12: the rotation of the normalised quaternion; leading dimensions are flattened'),
Tm('C22_is_rotation','rot_of_quat_rotation',Q),
Tm('C22_scale','p_quat_scale',Q),
Tm('C22_product','p_quat_mul',Q),
Tm('C22_tum_loader','p_transform44',Q,'tumutils.transform44 gives the same rotation'),
Tm('C22_icl_loader','p_pq',Q,'datautils.pointquaternion_to_homogeneous gives the same rotation'),
Tm('C22_tum_tiny','p_transform44_tiny',Q),
Tm('C22_rejects','p_quat_rej',Q),
Tm('C22_below_threshold_refuted','p_quat_tiny',X,'a non-zero quaternion below the normalisation threshold does not give a rotation'),
Tm('C22_leading_dims_flattened','p_quat_flat',X),
H('''Example C22_witness : exists q : ten R, dims q = [4; 2] /\\ (forall r, vix [2] r -> (eps12 <= norm 4 (comp q r))%R) /\\
  dot 4 (qmul (comp q [0]) (comp q [0])) (qmul (comp q [0]) (comp q [0])) = 1%R /\\ (tum_eps <= dot 4 (comp q [0%nat]) (comp q [0%nat]))%R.
Proof.
  exists (mkTen [4; 2] (fun ix => match ix with 0 :: _ => (3 / 5)%R | 3 :: _ => (4 / 5)%R | _ => 0%R end)).
  assert (E : forall r, vix [2] r -> dot 4 (comp (mkTen [4; 2] (fun ix => match ix with 0 :: _ => (3 / 5)%R | 3 :: _ => (4 / 5)%R | _ => 0%R end)) r) (comp (mkTen [4; 2] (fun ix => match ix with 0 :: _ => (3 / 5)%R | 3 :: _ => (4 / 5)%R | _ => 0%R end)) r) = 1%R).
  { intros r _. unfold dot, comp. cbn [rsum at_]. field. }
  split; [reflexivity|]. split; [intros r Hr; rewrite (dot1_norm _ (E r Hr)); unfold eps12; lra|].
  split; [rewrite qmul_norm2, (E [0]) by (cbn; auto); ring|]. rewrite (E [0]) by (cbn; auto).
  unfold tum_eps. rewrite <- Rinv_1. apply Rinv_le_contravar; [lra|]. apply pow_R1_Rle. lra.
Qed.
'''),
sec('C23'),
Tm('C23_axisangle','p_axisangle',A,'norm in [0, pi], along the axis, and its matrix exponential is the rotation of the quaternion'),
Tm('C23_opposite','p_axisangle_neg',A),
H('''Example C23_witness : exists q : ten R, dims q = [4] /\\ dot 4 (comp q []) (comp q []) = 1%R /\\ (comp q [] 3 < 0)%R.
Proof.
  exists (mkTen [4] (fun ix => match ix with [0] => (3 / 5)%R | [3] => (- 4 / 5)%R | _ => 0%R end)).
  split; [reflexivity|]. split; [unfold dot, comp; cbn [rsum at_]; field|unfold comp; cbn [at_]; lra].
Qed.
'''),
sec('C24'),
Tm('C24_so3_exp','p_so3_exp',S),
Tm('C24_se3_exp','p_se3_exp',S),
Tm('C24_hat','p_hat',S,'the hat operators build the matrices whose exponential is computed; vectors that are too short fail'),
Tm('C24_so3_one_parameter_group','p_so3_group',S,'exp((s+t)w) = exp(sw) exp(tw); exp(sw) and exp(-sw) are inverse'),
Tm('C24_se3_one_parameter_group','p_se3_group',S),
H('''Example C24_witness : (/ 1000000 <= norm 3 (vec3 2 (-1) 2) /\\ / 1000000 <= Rabs (-1) * norm 3 (vec3 2 (-1) 2))%R.
Proof.
  assert (E : norm 3 (vec3 2 (-1) 2) = 3%R).
  { unfold norm, dot, vec3. cbn [rsum]. replace (0 + 2 * 2 + -1 * -1 + 2 * 2)%R with (3 * 3)%R by ring. apply sqrt_square. lra. }
  rewrite E, (Rabs_left (-1)) by lra. lra.
Qed.
'''),
sec('C25'),
Tm('C25_small_angles_refuted','p_small_not_rigid',S,'below 1e-6 (and not zero) the result is never rigid and never the exponential'),
Tm('C25_error_bound_partial','p_small_bound',S,'how far it is from the exponential; a zero rotation is exact'),
H('''Example C25_witness : (0 < norm 3 (vec3 0 (/ 10000000) 0) < / 1000000)%R.
Proof.
  assert (E : norm 3 (vec3 0 (/ 10000000) 0) = (/ 10000000)%R).
  { unfold norm, dot, vec3. cbn [rsum]. replace (0 + 0 * 0 + / 10000000 * / 10000000 + 0 * 0)%R with (/ 10000000 * / 10000000)%R by ring.
    apply sqrt_square. lra. }
  rewrite E. lra.
Qed.
'''),
sec('C26'),
Tm('C26_mutually_inverse','p_normalize_inverse',GP),
Tm('C26_range','p_normalize_range',GP),
Tm('C26_rejects','p_normalize_rej',GP),
Tm('C26_meshgrid','p_meshgrid',GP),
Tm('C26_meshgrid_once','p_meshgrid_once',GP),
Tm('C26_meshgrid_normalized','p_meshgrid_norm',GP),
H('''Example C26_witness : exists p : ten R, dims p = 2 :: [3] /\\ vix [3] [1] /\\ comp p [1] 0 = 1%R /\\ (480 > 1)%Z.
Proof. exists (mkTen [2; 3] (fun ix => match ix with [i; n] => INR (n + i) | _ => 0%R end)). repeat split; cbn; auto. Qed.
'''),
sec('C27'),
Tm('C27_entries','p_scale_entries',M),
Tm('C27_commutes_with_perspective','p_scale_persp',M,'3x3 and 4x4 matrices'),
Tm('C27_commutes_with_project_points','p_scale_project',M),
Tm('C27_rejects','p_scale_rej',M),
H('''Example C27_witness : dims (w_K 4) = [4; 4] /\\ zero_skew 4 (ent (w_K 4) []) /\\ ent (w_K 4) [] 0 0 = 2%R /\\ cameras [] [5].
Proof. split; [reflexivity|]. split; [repeat split|]. split; [reflexivity|left; reflexivity]. Qed.
'''),
sec('C28'),
Tm('C28_poses_to_transforms','p_poses_to_transforms',M),
Tm('C28_ground_truth_provider','p_gt',M),
Tm('C28_ground_truth_rejects','p_gt_rej',M),
H('''Example C28_witness : exists ps, length ps = 3 /\\ Forall pose_ok ps /\\ pose_ok (ent w_T []).
Proof.
  assert (H : pose_ok (ent w_T [])) by (split; [exact (proj1 w_T_rigid)|rewrite (proj2 (proj2 w_T_rigid)); apply R1_neq_R0]).
  exists [ent w_T []; ent w_T []; ent w_T []]. split; [reflexivity|]. split; [repeat constructor; apply H|exact H].
Qed.
'''),
]
gen('PropGeometry.v',plan)
