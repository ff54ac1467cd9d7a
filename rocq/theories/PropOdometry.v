(* Properties C47-C54: odometry.
   Vocabulary (IcpSpec.v, OdomSpec.v): pts_of x = the points of a (1, N, 3) tensor; ent T [] = a 4 x 4 tensor as a
   matrix; moved T s = every point transformed; plane_res n d p = n . (p - d); plane_err = sum of squared residuals of
   the kept source points against the plane of their nearest target point; match_of = that target point;
   normal_eq n k A b damp x = (A^T A + damp I) x = A^T b; lm_step = the damped Gauss-Newton twist; proposal = that
   twist and its se3 exponential; nn is any function that returns a nearest target point (chamferdist's knn_points). *)
From Coq Require Import Reals List Arith ZArith Bool Lia Lra.
From Verif Require Import Res Fld StructUtilsModel PointcloudsModel PointcloudsSpec PointcloudsHist
  MatSpec GeomSpec TensorModel RgbdModel RgbdSpec RgbdWitness RgbdWitnessProofs ExpProofs
  FusionModel FusionSpec FusionMap FusionPropProofs2 FusionWitness Se3Model SolveModel IcpModel IcpSpec OdomSpec SolveProofs
  IcpSolveProofs IcpPropProofs IcpRunProofs2 IcpArgProofs DownProofs OdomPropProofs.
Import ListNotations.
Local Open Scope nat_scope.

(* ------------------------------------------------------------------ C47 *)
(* exists, is the unique solution of the normal equations, is the unique minimiser *)
Local Open Scope R_scope.
Theorem C47_solve : forall (A b : ten R) (d : damp_arg) n k, shape A = [n; k] -> shape b = [n; 1%nat] -> damp_ok d -> 0 < damp_val d ->
  exists x, solve_linear_system (TTen A) (TTen b) d = Ok x /\ shape x = [k; 1%nat] /\
    let M := ent A [] in let rhs := fun r => at_ b [0%nat; r] in let sol := fun i => at_ x [0%nat; i] in
    normal_eq n k M rhs (damp_val d) sol /\
    (forall y, normal_eq n k M rhs (damp_val d) y -> veq k y sol) /\
    (forall y, ridge_cost n k M rhs (damp_val d) sol <= ridge_cost n k M rhs (damp_val d) y) /\
    (forall y, ridge_cost n k M rhs (damp_val d) y <= ridge_cost n k M rhs (damp_val d) sol -> veq k y sol).
Proof. exact p_solve. Qed.
Print Assumptions C47_solve.

Local Close Scope R_scope.
(* any damping: solved when A^T A + damp I is injective, RuntimeError when it is singular *)
Local Open Scope R_scope.
Theorem C47_solve_any_damping : forall (A b : ten R) (d : damp_arg) n k, shape A = [n; k] -> shape b = [n; 1%nat] -> damp_ok d ->
  (injective_mat k (normal_mat n (ent A []) (damp_val d)) ->
   exists x, solve_linear_system (TTen A) (TTen b) d = Ok x /\ shape x = [k; 1%nat] /\
     normal_eq n k (ent A []) (fun r => at_ b [0%nat; r]) (damp_val d) (fun i => at_ x [0%nat; i])) /\
  (~ injective_mat k (normal_mat n (ent A []) (damp_val d)) ->
   solve_linear_system (TTen A) (TTen b) d = Err RuntimeError).
Proof. exact p_solve_any. Qed.
Print Assumptions C47_solve_any_damping.

Local Close Scope R_scope.
Local Open Scope R_scope.
Theorem C47_types : forall (A b : tinp) (d : damp_arg),
  (forall x, A <> TTen x) \/ (forall x, b <> TTen x) \/ d = DBad -> solve_linear_system A b d = Err TypeError.
Proof. exact p_solve_rejects. Qed.
Print Assumptions C47_types.

Local Close Scope R_scope.
Local Open Scope R_scope.
Theorem C47_shapes : forall (A b : ten R) (d : damp_arg),
  d <> DBad ->
  (forall n k, ~ (shape A = [n; k] /\ shape b = [n; 1%nat])) \/ (exists nd v, d = DTen nd v /\ nd <> 0%nat) ->
  solve_linear_system (TTen A) (TTen b) d = Err ValueError.
Proof. exact p_solve_shapes. Qed.
Print Assumptions C47_shapes.

Local Close Scope R_scope.
(* a rank-deficient 1 x 2 system: x + 0 y = 3 with damping 1 has the solution (3/2, 0) *)
Example C47_witness : let A := mkTen [2; 1] (fun ix => match ix with 0 :: _ => 1%R | _ => 0%R end) in let b := mkTen [1; 1] (fun _ => 3%R) in
  shape A = [1; 2] /\ shape b = [1; 1] /\ damp_ok (DFloat 1%R) /\ (0 < damp_val (DFloat 1))%R /\
  normal_eq 1 2 (ent A []) (fun r => at_ b [0; r]) 1 (fun i => match i with 0 => 3/2 | _ => 0 end)%R.
Proof.
  cbv zeta. split; [reflexivity|]. split; [reflexivity|]. split; [exact I|]. split; [cbn; lra|].
  intros [|[|i]] Hi; [| |lia]; unfold mvec, normal_mat, delta, ent; cbn; lra.
Qed.

(* ------------------------------------------------------------------ C48 *)
(* row r: the linear part of the residual at the identity twist; entry r of b: minus the residual *)
Local Open Scope R_scope.
Theorem C48_rows : forall nn src tgt nor ns nt th, icp_input nn src tgt nor ns nt th ->
  let s := pts_of src in let d := pts_of tgt in let n := pts_of nor in
  let ks := kept_pts nn (keep_sq th) ns nt d s in
  exists A b, gauss_newton_solve nn (TTen src) (TTen tgt) (TTen nor) th = Ok (A, b, map (fun i => match_of nn nt d (s i)) ks) /\
    shape A = [length ks; 6%nat] /\ shape b = [length ks; 1%nat] /\
    forall r, (r < length ks)%nat ->
      let i := nth r ks 0%nat in let j := match_of nn nt d (s i) in
      ((i < ns)%nat /\ (j < nt)%nat /\ forall j', (j' < nt)%nat -> edist (s i) (d j) <= edist (s i) (d j')) /\
      at_ b [0%nat; r] = - plane_res (n j) (d j) (s i) /\
      (forall xi, dot 6 (fun k => ent A [] r k) xi - at_ b [0%nat; r] =
                  plane_res (n j) (d j) (fun k => s i k + cross (twist_w xi) (s i) k + twist_v xi k)) /\
      (forall xi (T : R -> mat), meq 4 4 (T 0) mI ->
         (forall a c, (a < 3)%nat -> (c < 4)%nat -> derivable_pt_lim (fun t => T t a c) 0 (twist (twist_v xi) (twist_w xi) a c)) ->
         derivable_pt_lim (fun t => plane_res (n j) (d j) (act (T t) (s i))) 0 (dot 6 (fun k => ent A [] r k) xi)).
Proof. exact p_gn. Qed.
Print Assumptions C48_rows.

Local Close Scope R_scope.
(* the transform curve whose residual the rows differentiate is the code's se3 exponential *)
Local Open Scope R_scope.
Theorem C48_exponential_curve : forall xi : vec, exists T : R -> mat, (forall t, se3_exp (map (Rmult t) (six xi)) = Ok (T t)) /\
  meq 4 4 (T 0) mI /\
  forall i j, (i < 3)%nat -> (j < 4)%nat -> derivable_pt_lim (fun t => T t i j) 0 (twist (twist_v xi) (twist_w xi) i j).
Proof. exact p_exp_curve. Qed.
Print Assumptions C48_exponential_curve.

Local Close Scope R_scope.
Local Open Scope R_scope.
Theorem C48_types : forall nn src tgt nor th,
  (forall x, src <> TTen x) \/ (forall x, tgt <> TTen x) \/ (forall x, nor <> TTen x) \/ th = ThrBad ->
  gauss_newton_solve nn src tgt nor th = Err TypeError.
Proof. exact p_gn_types. Qed.
Print Assumptions C48_types.

Local Close Scope R_scope.
Local Open Scope R_scope.
Theorem C48_shapes : forall nn src tgt nor th, th <> ThrBad ->
  ~ (exists ns nt, shape src = [1; ns; 3]%nat /\ shape tgt = [1; nt; 3]%nat /\ shape nor = [1; nt; 3]%nat) ->
  gauss_newton_solve nn (TTen src) (TTen tgt) (TTen nor) th = Err ValueError.
Proof. exact p_gn_shapes. Qed.
Print Assumptions C48_shapes.

Local Close Scope R_scope.
Example C48_witness : icp_input first_closest (one_pt 1 2 3) (one_pt 0 0 0) (one_pt 0 0 1) 1 1 ThrNone /\
  kept_pts first_closest (keep_sq ThrNone) 1 1 (pts_of (one_pt 0 0 0)) (pts_of (one_pt 1 2 3)) = [0].
Proof. split; [apply one_input|reflexivity]. Qed.

(* ------------------------------------------------------------------ C49 *)
(* the kept points are those closer than the square root of dist_thresh *)
Local Open Scope R_scope.
Theorem C49_threshold_partial : forall nn src tgt nor ns nt t, icp_input nn src tgt nor ns nt (Thr t) -> 0 <= t ->
  exists A b idx, gauss_newton_solve nn (TTen src) (TTen tgt) (TTen nor) (Thr t) = Ok (A, b, idx) /\
    idx = map (fun i => match_of nn nt (pts_of tgt) (pts_of src i))
           (filter (fun i => if Rlt_dec (edist (pts_of src i) (pts_of tgt (match_of nn nt (pts_of tgt) (pts_of src i)))) (sqrt t) then true else false) (seq 0 ns)).
Proof. exact p_threshold. Qed.
Print Assumptions C49_threshold_partial.

Local Close Scope R_scope.
Local Open Scope R_scope.
Theorem C49_no_threshold : forall nn src tgt nor ns nt, icp_input nn src tgt nor ns nt ThrNone ->
  exists A b, gauss_newton_solve nn (TTen src) (TTen tgt) (TTen nor) ThrNone =
    Ok (A, b, map (fun i => match_of nn nt (pts_of tgt) (pts_of src i)) (seq 0 ns)).
Proof. exact p_threshold_none. Qed.
Print Assumptions C49_no_threshold.

Local Close Scope R_scope.
(* points closer than dist_thresh are dropped, points farther than dist_thresh are kept *)
Local Open Scope R_scope.
Theorem C49_distance_refuted : (exists nn src tgt nor t A b, icp_input nn src tgt nor 1 1 (Thr t) /\ edist (pts_of src 0) (pts_of tgt 0) < t /\
     gauss_newton_solve nn (TTen src) (TTen tgt) (TTen nor) (Thr t) = Ok (A, b, [])) /\
  (exists nn src tgt nor t A b, icp_input nn src tgt nor 1 1 (Thr t) /\ t <= edist (pts_of src 0) (pts_of tgt 0) /\
     gauss_newton_solve nn (TTen src) (TTen tgt) (TTen nor) (Thr t) = Ok (A, b, [0%nat])).
Proof. exact p_threshold_refuted. Qed.
Print Assumptions C49_distance_refuted.

Local Close Scope R_scope.
Example C49_witness : icp_input first_closest (one_pt 1 2 3) (one_pt 0 0 0) (one_pt 0 0 1) 1 1 (Thr 2).
Proof. destruct (one_input 1 2 3 0 0 0 0 0 1) as (H1 & H2 & H3 & H4 & H5 & _). repeat (split; [assumption|]). discriminate. Qed.

(* ------------------------------------------------------------------ C50 *)
(* every positive number of iterations terminates with a 4 x 4 transform *)
Local Open Scope R_scope.
Theorem C50_total : forall nn src tgt nor ns nt th init n damp, icp_input nn src tgt nor ns nt th -> mat44 init -> 0 < damp -> (0 < n)%Z ->
  exists T idx, point_to_plane_ICP nn (TTen src) (TTen tgt) (TTen nor) (TTen init) (IntV n) damp th = Ok (T, idx) /\
    mat44 T /\ (affine4 (ent init []) -> affine4 (ent T [])).
Proof. exact p_icp_total. Qed.
Print Assumptions C50_total.

Local Close Scope R_scope.
(* the error of the source moved by the returned transform, after n and after m >= n iterations *)
Local Open Scope R_scope.
Theorem C50_error_never_increases : forall nn src tgt nor ns nt th init n m damp, icp_input nn src tgt nor ns nt th ->
  mat44 init -> affine4 (ent init []) -> 0 < damp -> (0 < n <= m)%Z ->
  let err := plane_err nn (keep_sq th) ns nt (pts_of tgt) (pts_of nor) in
  let run k := point_to_plane_ICP nn (TTen src) (TTen tgt) (TTen nor) (TTen init) (IntV k) damp th in
  exists T1 i1 T2 i2, run n = Ok (T1, i1) /\ run m = Ok (T2, i2) /\
    err (moved (ent T2 []) (pts_of src)) <= err (moved (ent T1 []) (pts_of src)) <= err (moved (ent init []) (pts_of src)).
Proof. exact p_icp_mono. Qed.
Print Assumptions C50_error_never_increases.

Local Close Scope R_scope.
(* the proposal is applied exactly when it lowers the error *)
Local Open Scope R_scope.
Theorem C50_one_iteration : forall nn src tgt nor ns nt th init damp, icp_input nn src tgt nor ns nt th -> mat44 init -> 0 < damp ->
  let err := plane_err nn (keep_sq th) ns nt (pts_of tgt) (pts_of nor) in
  let s := moved (ent init []) (pts_of src) in
  exists T idx xi E, point_to_plane_ICP nn (TTen src) (TTen tgt) (TTen nor) (TTen init) (IntV 1) damp th = Ok (T, idx) /\
    proposal nn (keep_sq th) ns nt (pts_of tgt) (pts_of nor) s damp xi E /\
    idx = map (fun i => match_of nn nt (pts_of tgt) (s i)) (kept_pts nn (keep_sq th) ns nt (pts_of tgt) s) /\
    ((err (moved E s) < err s /\ meq 4 4 (ent T []) (mmul 4 E (ent init []))) \/
     (err s <= err (moved E s) /\ meq 4 4 (ent T []) (ent init []))).
Proof. exact p_icp_one. Qed.
Print Assumptions C50_one_iteration.

Local Close Scope R_scope.
(* 1 + n iterations: one iteration, then n from its result, with the damping halved when the error fell and doubled otherwise *)
Local Open Scope R_scope.
Theorem C50_iterations : forall nn src tgt nor ns nt th init damp n, icp_input nn src tgt nor ns nt th ->
  mat44 init -> affine4 (ent init []) -> 0 < damp -> (0 < n)%Z ->
  let err := plane_err nn (keep_sq th) ns nt (pts_of tgt) (pts_of nor) in
  let s := moved (ent init []) (pts_of src) in
  let run T k d := point_to_plane_ICP nn (TTen src) (TTen tgt) (TTen nor) (TTen T) (IntV k) d th in
  exists T1 i1 T T' idx, run init 1%Z damp = Ok (T1, i1) /\ run init (1 + n)%Z damp = Ok (T, idx) /\
    run T1 n (if Rlt_dec (err (moved (ent T1 []) (pts_of src))) (err s) then damp / 2 else damp * 2) = Ok (T', idx) /\
    mat44 T1 /\ affine4 (ent T1 []) /\ meq 4 4 (ent T []) (ent T' []).
Proof. exact p_icp_restart. Qed.
Print Assumptions C50_iterations.

Local Close Scope R_scope.
(* lengths are preserved up to (1 + 1e-12)^n; exact rigidity is refuted below *)
Local Open Scope R_scope.
Theorem C50_rigid_partial : forall nn src tgt nor ns nt th init n damp d, icp_input nn src tgt nor ns nt th ->
  mat44 init -> affine4 (ent init []) -> 0 <= d -> near_isometry d (rot_of (ent init [])) -> 0 < damp -> (0 < n)%Z ->
  exists T idx, point_to_plane_ICP nn (TTen src) (TTen tgt) (TTen nor) (TTen init) (IntV n) damp th = Ok (T, idx) /\
    affine4 (ent T []) /\ near_isometry ((1 + / 1000000 * / 1000000) ^ Z.to_nat n * d) (rot_of (ent T [])).
Proof. exact p_icp_near. Qed.
Print Assumptions C50_rigid_partial.

Local Close Scope R_scope.
(* below |omega| = 1e-6 the exponential uses I + skew(omega), which is no rotation *)
Local Open Scope R_scope.
Theorem C50_rigid_refuted : exists nn src tgt nor T idx, icp_input nn src tgt nor 1 1 ThrNone /\
  point_to_plane_ICP nn (TTen src) (TTen tgt) (TTen nor) (TTen eye4) (IntV 1) 1 ThrNone = Ok (T, idx) /\
  rigid4 (ent eye4 []) /\ ~ rigid4 (ent T []).
Proof. exact p_rigid_refuted. Qed.
Print Assumptions C50_rigid_refuted.

Local Close Scope R_scope.
Example C50_witness : icp_input first_closest (one_pt 1 2 3) (one_pt 0 0 0) (one_pt 0 0 1) 1 1 ThrNone /\
  mat44 eye4 /\ affine4 (ent eye4 []) /\ near_isometry 1 (rot_of (ent eye4 [])).
Proof. split; [apply one_input|]. split; [exact eye_mat44|]. split; [apply eye_rigid|exact near_eye]. Qed.

(* ------------------------------------------------------------------ C51 *)
(* the documented default initial_transform=None raises AttributeError *)
Local Open Scope R_scope.
Theorem C51_initial_transform_none_refuted : forall nn src tgt nor n damp th lmax B B2 nu,
  point_to_plane_ICP nn (TTen src) (TTen tgt) (TTen nor) TNone (IntV n) damp th = Err AttributeError /\
  point_to_plane_gradICP nn (TTen src) (TTen tgt) (TTen nor) TNone (IntV n) damp th (Num lmax) (Num B) (Num B2) (Num nu) = Err AttributeError.
Proof. exact p_init_none. Qed.
Print Assumptions C51_initial_transform_none_refuted.

Local Close Scope R_scope.
(* numiters <= 0 raises UnboundLocalError *)
Local Open Scope R_scope.
Theorem C51_numiters_zero_refuted : forall nn src tgt nor init ns nt th damp n lmax B B2 nu, icp_input nn src tgt nor ns nt th -> mat44 init -> (n <= 0)%Z -> lmax <> 0 ->
  point_to_plane_ICP nn (TTen src) (TTen tgt) (TTen nor) (TTen init) (IntV n) damp th = Err UnboundLocalError /\
  point_to_plane_gradICP nn (TTen src) (TTen tgt) (TTen nor) (TTen init) (IntV n) damp th (Num lmax) (Num B) (Num B2) (Num nu) = Err UnboundLocalError.
Proof. exact p_no_iterations. Qed.
Print Assumptions C51_numiters_zero_refuted.

Local Close Scope R_scope.
Local Open Scope R_scope.
Theorem C51_icp_types : forall nn src tgt nor init n damp th,
  (forall x, src <> TTen x) \/ (forall x, tgt <> TTen x) \/ (forall x, nor <> TTen x) \/ init = TOther \/ n = IntBad ->
  point_to_plane_ICP nn src tgt nor init n damp th = Err TypeError.
Proof. exact p_icp_types. Qed.
Print Assumptions C51_icp_types.

Local Close Scope R_scope.
Local Open Scope R_scope.
Theorem C51_gradicp_types : forall nn src tgt nor init n damp th lmax B B2 nu,
  (forall x, src <> TTen x) \/ (forall x, tgt <> TTen x) \/ (forall x, nor <> TTen x) \/ init = TOther \/ n = IntBad \/
  lmax = NumBad \/ B = NumBad \/ B2 = NumBad \/ nu = NumBad ->
  point_to_plane_gradICP nn src tgt nor init n damp th lmax B B2 nu = Err TypeError.
Proof. exact p_grad_types. Qed.
Print Assumptions C51_gradicp_types.

Local Close Scope R_scope.
Local Open Scope R_scope.
Theorem C51_initial_transform_shape : forall nn src tgt nor init n damp th lmax B B2 nu, ~ mat44 init ->
  point_to_plane_ICP nn (TTen src) (TTen tgt) (TTen nor) (TTen init) (IntV n) damp th = Err ValueError /\
  point_to_plane_gradICP nn (TTen src) (TTen tgt) (TTen nor) (TTen init) (IntV n) damp th (Num lmax) (Num B) (Num B2) (Num nu) = Err ValueError.
Proof. exact p_init_shape. Qed.
Print Assumptions C51_initial_transform_shape.

Local Close Scope R_scope.
(* lambda_max = 0 and nu = 0 *)
Local Open Scope R_scope.
Theorem C51_zero_parameters : forall nn src tgt nor init n damp th B B2 lmax nu, mat44 init ->
  point_to_plane_gradICP nn (TTen src) (TTen tgt) (TTen nor) (TTen init) (IntV n) damp th (Num 0) (Num B) (Num B2) (Num nu) = Err ZeroDivisionError /\
  forall ns nt, icp_input nn src tgt nor ns nt th -> lmax <> 0 -> 0 < damp -> (0 < n)%Z ->
  point_to_plane_gradICP nn (TTen src) (TTen tgt) (TTen nor) (TTen init) (IntV n) damp th (Num lmax) (Num B) (Num B2) (Num 0) = Err ZeroDivisionError.
Proof. exact p_zero_division. Qed.
Print Assumptions C51_zero_parameters.

Local Close Scope R_scope.
(* missing: numiters = 0 and initial_transform = None, refuted above *)
Local Open Scope R_scope.
Theorem C51_positive_iterations_partial : forall nn src tgt nor ns nt th init n damp, icp_input nn src tgt nor ns nt th -> mat44 init -> 0 < damp -> (0 < n)%Z ->
  exists T idx, point_to_plane_ICP nn (TTen src) (TTen tgt) (TTen nor) (TTen init) (IntV n) damp th = Ok (T, idx) /\
    mat44 T /\ (affine4 (ent init []) -> affine4 (ent T [])).
Proof. exact p_icp_total. Qed.
Print Assumptions C51_positive_iterations_partial.

Local Close Scope R_scope.
Example C51_witness : icp_input first_closest (one_pt 1 2 3) (one_pt 0 0 0) (one_pt 0 0 1) 1 1 ThrNone /\ mat44 eye4 /\
  ~ mat44 (mkTen [3; 4] (fun _ => 0%R)).
Proof. split; [apply one_input|]. split; [exact eye_mat44|]. unfold mat44. cbn. congruence. Qed.

(* ------------------------------------------------------------------ C52 *)
(* the twist is scaled by q with 0 < q < 1 *)
Local Open Scope R_scope.
Theorem C52_one_step : forall nn src tgt nor ns nt th lmax B B2 nu init damp,
  icp_input nn src tgt nor ns nt th -> 0 < lmax -> 0 < nu -> mat44 init -> 0 < damp ->
  let err := plane_err nn (keep_sq th) ns nt (pts_of tgt) (pts_of nor) in
  let s := moved (ent init []) (pts_of src) in
  exists T idx xi E q E', point_to_plane_gradICP nn (TTen src) (TTen tgt) (TTen nor) (TTen init) (IntV 1) damp th (Num lmax) (Num B) (Num B2) (Num nu) = Ok (T, idx) /\
    proposal nn (keep_sq th) ns nt (pts_of tgt) (pts_of nor) s damp xi E /\
    idx = map (fun i => match_of nn nt (pts_of tgt) (s i)) (kept_pts nn (keep_sq th) ns nt (pts_of tgt) s) /\
    q = / Rpower (1 + exp (- B2 * clamped_change (err s) (err (moved E s)))) (/ nu) /\ 0 < q < 1 /\
    se3_exp (six (scaled q xi)) = Ok E' /\ meq 4 4 (ent T []) (mmul 4 E' (ent init [])).
Proof. exact p_grad_one. Qed.
Print Assumptions C52_one_step.

Local Close Scope R_scope.
(* 1 + n iterations: one iteration, then n from its result, with the damping times a factor between 1/lambda_max and lambda_max, still positive *)
Local Open Scope R_scope.
Theorem C52_iterations : forall nn src tgt nor ns nt th lmax B B2 nu init damp n,
  icp_input nn src tgt nor ns nt th -> 0 < lmax -> nu <> 0 -> mat44 init -> affine4 (ent init []) -> 0 < damp -> (0 < n)%Z ->
  let err := plane_err nn (keep_sq th) ns nt (pts_of tgt) (pts_of nor) in
  let s := moved (ent init []) (pts_of src) in
  let run T k d := point_to_plane_gradICP nn (TTen src) (TTen tgt) (TTen nor) (TTen T) (IntV k) d th (Num lmax) (Num B) (Num B2) (Num nu) in
  exists T1 i1 T T' idx xi E f, run init 1%Z damp = Ok (T1, i1) /\ run init (1 + n)%Z damp = Ok (T, idx) /\
    proposal nn (keep_sq th) ns nt (pts_of tgt) (pts_of nor) s damp xi E /\
    f = / lmax + (lmax - / lmax) / (1 + exp (- B * clamped_change (err s) (err (moved E s)))) /\
    0 < damp * f /\ Rmin (/ lmax) lmax <= f <= Rmax (/ lmax) lmax /\
    run T1 n (damp * f) = Ok (T', idx) /\
    mat44 T1 /\ affine4 (ent T1 []) /\ meq 4 4 (ent T []) (ent T' []).
Proof. exact p_grad_restart. Qed.
Print Assumptions C52_iterations.

Local Close Scope R_scope.
Local Open Scope R_scope.
Theorem C52_total : forall nn src tgt nor ns nt th lmax B B2 nu init n damp, icp_input nn src tgt nor ns nt th ->
  0 < lmax -> nu <> 0 -> mat44 init -> 0 < damp -> (0 < n)%Z ->
  exists T idx, point_to_plane_gradICP nn (TTen src) (TTen tgt) (TTen nor) (TTen init) (IntV n) damp th (Num lmax) (Num B) (Num B2) (Num nu) = Ok (T, idx) /\
    mat44 T /\ (affine4 (ent init []) -> affine4 (ent T [])).
Proof. exact p_grad_total. Qed.
Print Assumptions C52_total.

Local Close Scope R_scope.
Local Open Scope R_scope.
Theorem C52_rigid_up_to_eps : forall nn src tgt nor ns nt th lmax B B2 nu init n damp d, icp_input nn src tgt nor ns nt th ->
  0 < lmax -> nu <> 0 -> mat44 init -> affine4 (ent init []) -> 0 <= d -> near_isometry d (rot_of (ent init [])) -> 0 < damp -> (0 < n)%Z ->
  exists T idx, point_to_plane_gradICP nn (TTen src) (TTen tgt) (TTen nor) (TTen init) (IntV n) damp th (Num lmax) (Num B) (Num B2) (Num nu) = Ok (T, idx) /\
    affine4 (ent T []) /\ near_isometry ((1 + / 1000000 * / 1000000) ^ Z.to_nat n * d) (rot_of (ent T [])).
Proof. exact p_grad_near. Qed.
Print Assumptions C52_rigid_up_to_eps.

Local Close Scope R_scope.
(* B and B2 up to 1, the default; refuted for 2 *)
Local Open Scope R_scope.
Theorem C52_no_overflow_partial : forall B e0 e1, 0 <= B <= 1 -> exp (- B * clamped_change e0 e1) <= float32_max.
Proof. exact p_no_overflow. Qed.
Print Assumptions C52_no_overflow_partial.

Local Close Scope R_scope.
(* B = 2 (a positive parameter): the exponential of the clamped error exceeds the largest float32 *)
Local Open Scope R_scope.
Theorem C52_overflow_refuted : exists nn src tgt nor xi E, icp_input nn src tgt nor 1 1 ThrNone /\
  let s := moved (ent eye4 []) (pts_of src) in
  let err := plane_err nn (keep_sq ThrNone) 1 1 (pts_of tgt) (pts_of nor) in
  proposal nn (keep_sq ThrNone) 1 1 (pts_of tgt) (pts_of nor) s 1 xi E /\
  float32_max < exp (- 2 * clamped_change (err s) (err (moved E s))).
Proof. exact p_overflow_refuted. Qed.
Print Assumptions C52_overflow_refuted.

Local Close Scope R_scope.
(* observation: the step factor is larger the more the proposal would increase the error *)
Local Open Scope R_scope.
Theorem C52_step_grows_with_error : forall B2 nu e e', 0 < B2 -> 0 < nu -> e < e' ->
  / Rpower (1 + exp (- B2 * e)) (/ nu) < / Rpower (1 + exp (- B2 * e')) (/ nu).
Proof. exact p_soft_step_increasing. Qed.
Print Assumptions C52_step_grows_with_error.

Local Close Scope R_scope.
Local Open Scope R_scope.
Theorem C52_damping_grows_with_error : forall lmax B e e', 1 < lmax -> 0 < B -> e < e' ->
  / lmax + (lmax - / lmax) / (1 + exp (- B * e)) < / lmax + (lmax - / lmax) / (1 + exp (- B * e')).
Proof. exact p_damp_factor_increasing. Qed.
Print Assumptions C52_damping_grows_with_error.

Local Close Scope R_scope.
Example C52_witness : icp_input first_closest (one_pt 1 2 3) (one_pt 0 0 0) (one_pt 0 0 1) 1 1 ThrNone /\ mat44 eye4 /\ affine4 (ent eye4 []) /\
  (0 < 2 /\ 0 < 200 /\ 0 <= 1 <= 1)%R.
Proof. split; [apply one_input|]. split; [exact eye_mat44|]. split; [apply eye_rigid|lra]. Qed.

(* ------------------------------------------------------------------ C53 *)
(* channels-last frames; channels-first frames are not downsampled, see below *)
Theorem C53_frames_partial : forall q s a d,
  RHist q s false a -> fL a = 1 -> 0 < fB a -> 2 <= fH a -> 2 <= fW a -> (0 < d)%Z ->
  exists p s', downsample_rgbdimages (IntV d) s = (Ok p, s') /\ Hist RF p (grid_clouds d a) /\ RHist true s' false a.
Proof. exact p_down_frames. Qed.
Print Assumptions C53_frames_partial.

Theorem C53_frames_type : forall s,
  downsample_rgbdimages IntBad s = (Err TypeError, s).
Proof. exact p_down_frames_type. Qed.
Print Assumptions C53_frames_type.

Theorem C53_frames_length : forall q s cf a d,
  RHist q s cf a -> fL a <> 1 -> downsample_rgbdimages (IntV d) s = (Err ValueError, s).
Proof. exact p_down_frames_length. Qed.
Print Assumptions C53_frames_length.

Theorem C53_frames_ratio : forall q s cf a d,
  RHist q s cf a -> fL a = 1 -> (d <= 0)%Z -> fst (downsample_rgbdimages (IntV d) s) = Err ValueError.
Proof. exact p_down_frames_ratio. Qed.
Print Assumptions C53_frames_ratio.

(* channels-first frames are not downsampled: indexing fails for every ratio *)
Theorem C53_frames_channels_first_refuted : forall q s a d,
  RHist q s true a -> fL a = 1 -> 0 < fB a -> 2 <= fW a -> (0 < d)%Z ->
  fst (downsample_rgbdimages (IntV d) s) = Err IndexError.
Proof. exact p_down_frames_cf. Qed.
Print Assumptions C53_frames_channels_first_refuted.

(* any table of active points *)
Local Open Scope R_scope.
Theorem C53_map : forall s a P d rows, ReadyToClone RF s a -> qp a = Some P -> Forall (in_map a) rows -> d <> 0%Z ->
  exists p s', downsample_pointclouds (Tbl rows) (IntV d) s = (Ok p, s') /\ Hist RF p (thin_clouds d rows a) /\ ReadyToClone RF s' a.
Proof. exact p_thin_map. Qed.
Print Assumptions C53_map.

Local Close Scope R_scope.
Theorem C53_map_types : forall s t ds,
  t = TblBad \/ t <> TblBad /\ ds = IntBad -> downsample_pointclouds t ds s = (Err TypeError, s).
Proof. exact p_down_map_types. Qed.
Print Assumptions C53_map_types.

Theorem C53_map_shape : forall s d,
  downsample_pointclouds TblShape (IntV d) s = (Err ValueError, s).
Proof. exact p_down_map_shape. Qed.
Print Assumptions C53_map_shape.

Theorem C53_map_zero : forall s r rows,
  downsample_pointclouds (Tbl (r :: rows)) (IntV 0) s = (Err RuntimeError, s).
Proof. exact p_down_map_zero. Qed.
Print Assumptions C53_map_zero.

Example C53_witness : (exists g, RHist false g false (wfr 1 2 3) /\ fL (wfr 1 2 3) = 1) /\
  chosen true (wfr 1 2 3) 0 = [(0, 1); (0, 2); (1, 1); (1, 2)] /\ grid_pixels 2 (wfr 1 2 3) 0 = [(0, 2)] /\
  (exists s, ReadyToClone RF s m1) /\ in_map m1 (mkRow 0 0 0 1) /\ thinned 2 [mkRow 0 0 0 1; mkRow 0 0 4 2] 0 = [0].
Proof.
  assert (Hc : chosen true (wfr 1 2 3) 0 = [(0, 1); (0, 2); (1, 1); (1, 2)]) by exact wfr_chosen.
  split; [destruct w13 as (g & Hg); exists g; split; [exact Hg|reflexivity]|]. split; [exact Hc|].
  split; [unfold grid_pixels; rewrite Hc; reflexivity|]. split; [exact (map_exists _ _ m1_valid)|].
  split; [split; [unfold len_view; cbn; lia|unfold npoints; cbn; lia]|reflexivity].
Qed.

(* ------------------------------------------------------------------ C54 *)
(* entry b of the (B, 1, 4, 4) result is the transform of clouds b alone *)
Local Open Scope R_scope.
Theorem C54_provide : forall nn o s t a c P N Q, Hist RF s a -> Hist RF t c -> qp a = Some P -> qn a = Some N -> qp c = Some Q -> length P = length Q ->
  (forall b, (b < length P)%nat -> exists T idx, one_run_of nn o P N Q b = Ok (T, idx)) ->
  exists X s' t', provide nn o (s, t) = (Ok X, (s', t')) /\ Hist RF s' a /\ Hist RF t' c /\ shape X = [length P; 1; 4; 4]%nat /\
    forall b, (b < length P)%nat -> exists T idx, one_run_of nn o P N Q b = Ok (T, idx) /\
      forall i j, (i < 4)%nat -> (j < 4)%nat -> ent X [0%nat; b] i j = ent T [] i j.
Proof. exact p_provide. Qed.
Print Assumptions C54_provide.

Local Close Scope R_scope.
Local Open Scope R_scope.
Theorem C54_first_error : forall nn o s t a c P N Q b e, Hist RF s a -> Hist RF t c -> qp a = Some P -> qn a = Some N -> qp c = Some Q -> length P = length Q ->
  (b < length P)%nat -> (forall k, (k < b)%nat -> exists T idx, one_run_of nn o P N Q k = Ok (T, idx)) -> one_run_of nn o P N Q b = Err e ->
  fst (provide nn o (s, t)) = Err e.
Proof. exact p_provide_err. Qed.
Print Assumptions C54_first_error.

Local Close Scope R_scope.
Local Open Scope R_scope.
Theorem C54_batch_mismatch : forall nn o s t a c P N Q, Hist RF s a -> Hist RF t c -> qp a = Some P -> qn a = Some N -> qp c = Some Q ->
  length P <> length Q -> fst (provide nn o (s, t)) = Err ValueError.
Proof. exact p_provide_mismatch. Qed.
Print Assumptions C54_batch_mismatch.

Local Close Scope R_scope.
Local Open Scope R_scope.
Theorem C54_no_normals : forall nn o s t a, Hist RF s a -> qn a = None -> fst (provide nn o (s, t)) = Err ValueError.
Proof. exact p_provide_no_normals. Qed.
Print Assumptions C54_no_normals.

Local Close Scope R_scope.
(* documented parameters, no empty map cloud beside a frame with points: succeeds, every bottom row is (0, 0, 0, 1) *)
Local Open Scope R_scope.
Theorem C54_total : forall nn o s t a c P N Q, Hist RF s a -> Hist RF t c -> qp a = Some P -> qn a = Some N -> qp c = Some Q -> length P = length Q ->
  IcpSpec.nearest nn -> good_method o ->
  (forall b, (b < length P)%nat -> t2r (nth b P (mkT2 0 [] : t2 R)) <> [] \/ t2r (nth b Q (mkT2 0 [] : t2 R)) = []) ->
  exists X s' t', provide nn o (s, t) = (Ok X, (s', t')) /\ shape X = [length P; 1; 4; 4]%nat /\
    forall b, (b < length P)%nat -> affine4 (ent X [0%nat; b]).
Proof. exact p_provide_total. Qed.
Print Assumptions C54_total.

Local Close Scope R_scope.
Example C54_witness : exists s t, Hist RF s m1 /\ Hist RF t m0 /\ qp m1 <> None /\ qn m1 <> None /\ qp m0 <> None /\
  IcpSpec.nearest first_closest /\ good_method (MIcp (IntV 20) 1 ThrNone) /\ (forall P, qp m1 = Some P -> forall b, (b < length P)%nat -> t2r (nth b P (mkT2 0 [] : t2 RF)) <> []).
Proof.
  destruct (map_exists _ _ m1_valid) as (s & Hs). destruct (map_exists _ _ m0_valid) as (t & Ht). apply ready_iff in Hs, Ht. destruct Hs as [Hs _], Ht as [Ht _]. exists s, t.
  split; [exact Hs|]. split; [exact Ht|]. repeat (split; [discriminate|]). split; [exact first_closest_nearest|].
  split; [cbn; split; [lia|split; [lra|discriminate]]|]. intros P HP. cbn in HP. injection HP as <-. intros b Hb. destruct b; [discriminate|cbn in Hb; lia].
Qed.
