(* C50-C52: refutations, argument errors, and the statements as used by the property file. *)
From Coq Require Import Reals List Arith Bool ZArith Lra Lia.
From Verif Require Import Res MatSpec TensorModel GeomModel RgbdModel GeomSpec MatProofs TensorProofs GeomProofs GeomPtsProofs Se3Model Se3Proofs ExpProofs
  SolveModel FusionModel IcpModel IcpSpec SolveProofs IcpSolveProofs IcpGnProofs IcpLoopProofs IcpPropProofs IcpRunProofs IcpRunProofs2.
Import ListNotations.
Local Open Scope R_scope.

(* ---------------------------------------------------------------- C51 *)
Lemma p_init_none : forall nn src tgt nor n damp th lmax B B2 nu,
  point_to_plane_ICP nn (TTen src) (TTen tgt) (TTen nor) TNone (IntV n) damp th = Err AttributeError /\
  point_to_plane_gradICP nn (TTen src) (TTen tgt) (TTen nor) TNone (IntV n) damp th (Num lmax) (Num B) (Num B2) (Num nu) = Err AttributeError.
Proof. intros. split; reflexivity. Qed.
Lemma p_no_iterations : forall nn src tgt nor init ns nt th damp n lmax B B2 nu, icp_input nn src tgt nor ns nt th -> mat44 init -> (n <= 0)%Z -> lmax <> 0 ->
  point_to_plane_ICP nn (TTen src) (TTen tgt) (TTen nor) (TTen init) (IntV n) damp th = Err UnboundLocalError /\
  point_to_plane_gradICP nn (TTen src) (TTen tgt) (TTen nor) (TTen init) (IntV n) damp th (Num lmax) (Num B) (Num B2) (Num nu) = Err UnboundLocalError.
Proof.
  intros nn src tgt nor init ns nt th damp n lmax B B2 nu H Hi Hn Hl. rewrite icp_unfold, grad_unfold by assumption.
  replace (Z.to_nat n) with 0%nat by lia. unfold start. destruct (move_ok src init ns (proj1 (proj2 H)) Hi) as (pc & -> & _). split; reflexivity.
Qed.
Lemma p_icp_types : forall nn src tgt nor init n damp th,
  (forall x, src <> TTen x) \/ (forall x, tgt <> TTen x) \/ (forall x, nor <> TTen x) \/ init = TOther \/ n = IntBad ->
  point_to_plane_ICP nn src tgt nor init n damp th = Err TypeError.
Proof.
  intros nn src tgt nor init n damp th H. unfold point_to_plane_ICP.
  destruct src as [|src|]; try reflexivity. destruct tgt as [|tgt|]; try reflexivity. destruct nor as [|nor|]; try reflexivity. cbn [need_tensor rbind].
  destruct init as [|init|]; try reflexivity; destruct n as [|n]; try reflexivity;
  (destruct H as [H|[H|[H|[H|H]]]]; [destruct (H src eq_refl)|destruct (H tgt eq_refl)|destruct (H nor eq_refl)|discriminate|discriminate]).
Qed.
Lemma p_grad_types : forall nn src tgt nor init n damp th lmax B B2 nu,
  (forall x, src <> TTen x) \/ (forall x, tgt <> TTen x) \/ (forall x, nor <> TTen x) \/ init = TOther \/ n = IntBad \/
  lmax = NumBad \/ B = NumBad \/ B2 = NumBad \/ nu = NumBad ->
  point_to_plane_gradICP nn src tgt nor init n damp th lmax B B2 nu = Err TypeError.
Proof.
  intros nn src tgt nor init n damp th lmax B B2 nu H. unfold point_to_plane_gradICP.
  destruct src as [|src|]; try reflexivity. destruct tgt as [|tgt|]; try reflexivity. destruct nor as [|nor|]; try reflexivity. cbn [need_tensor rbind].
  destruct init as [|init|]; try reflexivity; destruct n as [|n]; try reflexivity;
  destruct lmax; try reflexivity; destruct B; try reflexivity; destruct B2; try reflexivity; destruct nu; try reflexivity;
  (destruct H as [H|[H|[H|[H|[H|[H|[H|[H|H]]]]]]]]; [destruct (H src eq_refl)|destruct (H tgt eq_refl)|destruct (H nor eq_refl)|discriminate..]).
Qed.
Lemma p_init_shape : forall nn src tgt nor init n damp th lmax B B2 nu, ~ mat44 init ->
  point_to_plane_ICP nn (TTen src) (TTen tgt) (TTen nor) (TTen init) (IntV n) damp th = Err ValueError /\
  point_to_plane_gradICP nn (TTen src) (TTen tgt) (TTen nor) (TTen init) (IntV n) damp th (Num lmax) (Num B) (Num B2) (Num nu) = Err ValueError.
Proof.
  intros nn src tgt nor init n damp th lmax B B2 nu H.
  assert (E : check_init (TTen init) = Err ValueError).
  { unfold check_init, ndim. unfold mat44 in H. destruct (dims init) as [|a [|b [|c l]]]; try reflexivity. cbn [length Nat.eqb guard rbind nth].
    destruct (Nat.eqb_spec b 4) as [->|]; [|reflexivity]. destruct (Nat.eqb_spec a 4) as [->|]; [|reflexivity]. congruence. }
  unfold point_to_plane_ICP, point_to_plane_gradICP. cbn [need_tensor rbind opt_tensor guard need_int need_num]. rewrite E. split; reflexivity.
Qed.
Lemma p_zero_division : forall nn src tgt nor init n damp th B B2 lmax nu, mat44 init ->
  point_to_plane_gradICP nn (TTen src) (TTen tgt) (TTen nor) (TTen init) (IntV n) damp th (Num 0) (Num B) (Num B2) (Num nu) = Err ZeroDivisionError /\
  forall ns nt, icp_input nn src tgt nor ns nt th -> lmax <> 0 -> 0 < damp -> (0 < n)%Z ->
  point_to_plane_gradICP nn (TTen src) (TTen tgt) (TTen nor) (TTen init) (IntV n) damp th (Num lmax) (Num B) (Num B2) (Num 0) = Err ZeroDivisionError.
Proof.
  intros nn src tgt nor init n damp th B B2 lmax nu H. split.
  - unfold point_to_plane_gradICP. cbn [need_tensor rbind opt_tensor guard need_int need_num check_init]. unfold ndim. rewrite H.
    cbn [length Nat.eqb guard rbind nth andb]. unfold nonzero_dec. destruct (Req_EM_T 0 0); [reflexivity|congruence].
  - intros ns nt Hin Hl Hd Hn. rewrite grad_unfold by assumption.
    destruct (start_ok src init damp ns (proj1 (proj2 Hin)) H Hd) as (s0 & -> & (Gs & GT & Gd) & _). cbn [rbind].
    replace (Z.to_nat n) with (S (Z.to_nat (n - 1))) by lia. cbn [iterate].
    destruct Hin as (Hnn & Hs & Ht & Hno & H0 & Hth).
    destruct (look_ok nn (i_src s0) tgt nor th ns nt (i_damp s0) Gs Ht Hno H0 Hth Gd Hnn) as (l & xi & E & Hlk & _).
    unfold grad_iter. rewrite Hlk. cbn [rbind]. unfold nonzero_dec. destruct (Req_EM_T 0 0); [reflexivity|congruence].
Qed.

(* ---------------------------------------------------------------- C52 *)
Lemma p_grad_one : forall nn src tgt nor ns nt th lmax B B2 nu init damp,
  icp_input nn src tgt nor ns nt th -> 0 < lmax -> 0 < nu -> mat44 init -> 0 < damp ->
  let err := plane_err nn (keep_sq th) ns nt (pts_of tgt) (pts_of nor) in
  let s := moved (ent init []) (pts_of src) in
  exists T idx xi E q E', point_to_plane_gradICP nn (TTen src) (TTen tgt) (TTen nor) (TTen init) (IntV 1) damp th (Num lmax) (Num B) (Num B2) (Num nu) = Ok (T, idx) /\
    proposal nn (keep_sq th) ns nt (pts_of tgt) (pts_of nor) s damp xi E /\
    idx = map (fun i => match_of nn nt (pts_of tgt) (s i)) (kept_pts nn (keep_sq th) ns nt (pts_of tgt) s) /\
    q = / Rpower (1 + exp (- B2 * clamped_change (err s) (err (moved E s)))) (/ nu) /\ 0 < q < 1 /\
    se3_exp (six (scaled q xi)) = Ok E' /\ meq 4 4 (ent T []) (mmul 4 E' (ent init [])).
Proof.
  intros nn src tgt nor ns nt th lmax B B2 nu init damp Hin Hl Hnu Hi Hd. cbv zeta.
  assert (Hn0 : nu <> 0) by lra.
  destruct (g_one nn src tgt nor ns nt th Hin lmax B B2 nu Hl Hn0 init damp Hi Hd) as (T & idx & xi & E & E' & H1 & H2 & H3 & H4 & H5).
  eexists T, idx, xi, E, _, E'. split; [exact H1|]. split; [exact H2|]. split; [exact H3|]. split; [|split; [|split; [exact H4|exact H5]]].
  - unfold soft_step, Rdiv. rewrite !Rmult_1_l. reflexivity.
  - apply soft_step_between. exact Hnu.
Qed.
Lemma p_grad_restart : forall nn src tgt nor ns nt th lmax B B2 nu init damp n,
  icp_input nn src tgt nor ns nt th -> 0 < lmax -> nu <> 0 -> mat44 init -> affine4 (ent init []) -> 0 < damp -> (0 < n)%Z ->
  let err := plane_err nn (keep_sq th) ns nt (pts_of tgt) (pts_of nor) in
  let s := moved (ent init []) (pts_of src) in
  let run T k d := point_to_plane_gradICP nn (TTen src) (TTen tgt) (TTen nor) (TTen T) (IntV k) d th (Num lmax) (Num B) (Num B2) (Num nu) in
  exists T1 i1 T T' idx xi E f, run init 1%Z damp = Ok (T1, i1) /\ run init (1 + n)%Z damp = Ok (T, idx) /\
    proposal nn (keep_sq th) ns nt (pts_of tgt) (pts_of nor) s damp xi E /\
    f = / lmax + (lmax - / lmax) / (1 + exp (- B * clamped_change (err s) (err (moved E s)))) /\
    0 < damp * f /\ Rmin (/ lmax) lmax <= f <= Rmax (/ lmax) lmax /\
    run T1 n (damp * f) = Ok (T', idx) /\
    mat44 T1 /\ affine4 (ent T1 []) /\ meq 4 4 (ent T []) (ent T' []).
Proof.
  intros nn src tgt nor ns nt th lmax B B2 nu init damp n Hin Hl Hnu Hi Ha Hd Hn. cbv zeta.
  destruct (g_restart nn src tgt nor ns nt th Hin lmax B B2 nu Hl Hnu init damp n Hi Ha Hd Hn) as (T1 & i1 & T & T' & idx & xi & E & H1 & H2 & H3 & H4 & H5 & H6 & H7).
  set (e := clamped_change _ _) in *.
  exists T1, i1, T, T', idx, xi, E, (damp_factor lmax B e). split; [exact H1|]. split; [exact H2|]. split; [exact H3|]. fold e.
  assert (D : 1 / lmax = / lmax) by (unfold Rdiv; ring).
  split; [unfold damp_factor; rewrite D; reflexivity|].
  split; [apply Rmult_lt_0_compat; [exact Hd|apply damp_factor_pos; exact Hl]|].
  split; [rewrite <- D; apply damp_factor_between; exact Hl|]. auto.
Qed.

(* ---------------------------------------------------------------- one source point, one target point *)
Definition pt1 (x y z : R) : ten R := one_pt x y z.
Lemma pts1 x y z : veq 3 (pts_of (one_pt x y z) 0) (vec3 x y z).
Proof. intros k Hk. reflexivity. Qed.
Lemma one_input (a b c x y z p q r : R) : icp_input first_closest (one_pt a b c) (one_pt x y z) (one_pt p q r) 1 1 ThrNone.
Proof. split; [apply first_closest_nearest|]. repeat split; try lia. discriminate. Qed.
Lemma eye_moved x y z : same_pts 1 (moved (ent eye4 []) (pts_of (one_pt x y z))) (fun _ => vec3 x y z).
Proof.
  intros i Hi. replace i with 0%nat by lia. intros k Hk. unfold moved, act, mvec, rot_of, tr_of, ent, eye4, mat_ten, mI, delta, pts_of, comp, one_pt.
  destruct k as [|[|[|k]]]; [| | |lia]; cbn [rsum at_ app Nat.eqb vec3]; unfold vec3; ring.
Qed.
(* the damped step for one point: the row scaled by residual / (|row|^2 + damp) *)
Lemma one_lm (s d n : vec) (damp : R) (x : vec) : 
  (forall k, (k < 6)%nat -> x k = (if Nat.ltb k 3 then n k else cross s n (k - 3)%nat) * (- plane_res n d s / (dot 3 n n + dot 3 (cross s n) (cross s n) + damp))) ->
  dot 3 n n + dot 3 (cross s n) (cross s n) + damp <> 0 ->
  lm_step first_closest (keep_sq ThrNone) 1 1 (fun _ => d) (fun _ => n) (fun _ => s) damp x.
Proof.
  intros Hx Hne i Hi. unfold mvec, normal_mat, lin_row, lin_rhs, match_of. cbn [rsum first_closest Nat.eqb keep_sq].
  rewrite (Hx 0%nat), (Hx 1%nat), (Hx 2%nat), (Hx 3%nat), (Hx 4%nat), (Hx 5%nat) by lia. cbn [Nat.ltb Nat.leb Nat.sub].
  set (r := plane_res n d s). unfold delta.
  destruct i as [|[|[|[|[|[|i]]]]]]; [| | | | | |lia]; cbn [Nat.ltb Nat.leb Nat.sub Nat.eqb]; unfold dot, cross in *; cbn [rsum] in *; field; intro Hz; apply Hne; (etransitivity; [|exact Hz]); ring.
Qed.
Lemma one_err (s d n : vec) : plane_err first_closest (keep_sq ThrNone) 1 1 (fun _ => d) (fun _ => n) (fun _ => s) = plane_res n d s * plane_res n d s.
Proof. unfold plane_err, match_of. cbn [rsum first_closest Nat.eqb keep_sq]. ring. Qed.
Lemma pts_one x y z : pts_of (one_pt x y z) = fun _ => vec3 x y z. Proof. reflexivity. Qed.
Lemma one_run (a b c x y z p q r damp : R) : 0 < damp ->
  let s := vec3 a b c in let d := vec3 x y z in let n := vec3 p q r in
  let k := - plane_res n d s / (dot 3 n n + dot 3 (cross s n) (cross s n) + damp) in
  forall xi E, proposal first_closest (keep_sq ThrNone) 1 1 (pts_of (one_pt x y z)) (pts_of (one_pt p q r)) (moved (ent eye4 []) (pts_of (one_pt a b c))) damp xi E ->
  six xi = [p * k; q * k; r * k; cross s n 0%nat * k; cross s n 1%nat * k; cross s n 2%nat * k] /\
  se3_exp [p * k; q * k; r * k; cross s n 0%nat * k; cross s n 1%nat * k; cross s n 2%nat * k] = Ok E.
Proof.
  intros Hd s d n k xi E [L HE]. rewrite !pts_one in L.
  set (x0 := fun i : nat => (if Nat.ltb i 3 then n i else cross s n (i - 3)%nat) * k).
  assert (L0 : lm_step first_closest (keep_sq ThrNone) 1 1 (fun _ => d) (fun _ => n) (fun _ => s) damp x0).
  { apply one_lm; [reflexivity|]. pose proof (dot3_nonneg n). pose proof (dot3_nonneg (cross s n)). lra. }
  pose proof (lm_same first_closest (one_pt a b c) (one_pt x y z) (one_pt p q r) 1 1 ThrNone (one_input a b c x y z p q r) _ (fun _ => s) damp xi x0 Hd
    (eye_moved a b c) L L0) as Hs.
  assert (H6 : six x0 = [p * k; q * k; r * k; cross s n 0%nat * k; cross s n 1%nat * k; cross s n 2%nat * k]) by reflexivity.
  rewrite <- H6. split; [exact Hs|rewrite <- Hs; exact HE].
Qed.
Lemma eye_mat44 : mat44 eye4. Proof. reflexivity. Qed.
Lemma eye_rigid : rigid4 (ent eye4 []).
Proof.
  split; [repeat split|]. split; [split|].
  1,2: intros i j Hi Hj; unfold mmul, mtr, rot_of, ent, eye4, mat_ten, mI, delta; destruct i as [|[|[|i]]]; [| | |lia]; (destruct j as [|[|[|j]]]; [| | |lia]; cbn [rsum at_ app Nat.eqb]; ring).
  unfold det3, rot_of, ent, eye4, mat_ten, mI, delta. cbn [at_ app Nat.eqb]. ring.
Qed.
Lemma mul_eye E : meq 4 4 (mmul 4 E (ent eye4 [])) E.
Proof.
  intros i j Hi Hj. unfold mmul, ent, eye4, mat_ten, mI, delta. destruct j as [|[|[|[|j]]]]; [| | | |lia]; cbn [rsum at_ app Nat.eqb]; ring.
Qed.
Lemma p_rigid_refuted : exists nn src tgt nor T idx, icp_input nn src tgt nor 1 1 ThrNone /\
  point_to_plane_ICP nn (TTen src) (TTen tgt) (TTen nor) (TTen eye4) (IntV 1) 1 ThrNone = Ok (T, idx) /\
  rigid4 (ent eye4 []) /\ ~ rigid4 (ent T []).
Proof.
  set (h := / 10000000).
  exists first_closest, (one_pt 1 0 0), (one_pt 1 0 (3 * h)), (one_pt 0 0 1).
  pose proof (one_input 1 0 0 1 0 (3 * h) 0 0 1) as Hin.
  destruct (r_one first_closest _ _ _ 1 1 ThrNone Hin eye4 1 eye_mat44 Rlt_0_1) as (T & idx & xi & E & HR & HP & _ & HC).
  exists T, idx. split; [exact Hin|]. split; [exact HR|]. split; [apply eye_rigid|].
  destruct (one_run _ _ _ _ _ _ _ _ _ 1 Rlt_0_1 xi E HP) as [_ HE].
  set (k := _ / _) in HE.
  assert (Hk : k = h).
  { unfold k, plane_res, dot, cross, vec3. cbn [rsum]. field. }
  rewrite Hk in HE. unfold cross, vec3 in HE.
  replace (0 * h) with 0 in HE by ring. replace (1 * h) with h in HE by ring.
  replace ((0 * 1 - 0 * 0) * h) with 0 in HE by ring. replace ((0 * 0 - 1 * 1) * h) with (- h) in HE by ring. replace ((1 * 0 - 0 * 0) * h) with 0 in HE by ring.
  assert (Hnorm : norm 3 (vec3 0 (- h) 0) = h).
  { unfold norm, dot, vec3. cbn [rsum]. replace (0 + 0 * 0 + - h * - h + 0 * 0) with (h * h) by ring. apply sqrt_square. unfold h. lra. }
  assert (Hb : 0 < norm 3 (vec3 0 (- h) 0) < se3_eps) by (rewrite Hnorm; unfold h, se3_eps; lra).
  destruct (p_small_not_rigid 0 0 h 0 (- h) 0 Hb) as (_ & E' & HE' & NR & _).
  rewrite HE in HE'. injection HE' as <-.
  destruct HC as [(_ & M)|(HC & _)].
  - intros HT. apply NR. apply (rigid4_ext _ _ (meq_trans _ _ _ _ _ M (mul_eye E)) HT).
  - exfalso. destruct (se3_exp_small 0 0 h 0 (- h) 0 (proj2 Hb)) as (E2 & HE2 & ME). rewrite HE in HE2. injection HE2 as <-.
    pose proof (eye_moved 1 0 0) as P0.
    assert (P1 : same_pts 1 (moved E (moved (ent eye4 []) (pts_of (one_pt 1 0 0)))) (fun _ => vec3 (1 - h * h) 0 (2 * h))).
    { eapply same_trans; [apply moved_ext; [exact ME|exact P0]|]. intros i Hi j Hj.
      unfold moved, act, mvec, rot_of, tr_of, twist_exp, mvec, madd, mI, delta, skew, at1.
      destruct j as [|[|[|j]]]; [| | |lia]; cbn [rsum Nat.ltb Nat.leb Nat.eqb nth vec3]; unfold vec3; ring. }
    rewrite (err_same _ _ _ _ _ _ _ Hin _ _ P0), (err_same _ _ _ _ _ _ _ Hin _ _ P1), !pts_one, !one_err in HC.
    unfold plane_res, dot, vec3 in HC. cbn [rsum] in HC. unfold h in HC. lra.
Qed.

(* a large drop of the error makes the exponential overflow float32 when B = 2 *)
Lemma p_overflow_refuted : exists nn src tgt nor xi E, icp_input nn src tgt nor 1 1 ThrNone /\
  let s := moved (ent eye4 []) (pts_of src) in
  let err := plane_err nn (keep_sq ThrNone) 1 1 (pts_of tgt) (pts_of nor) in
  proposal nn (keep_sq ThrNone) 1 1 (pts_of tgt) (pts_of nor) s 1 xi E /\
  float32_max < exp (- 2 * clamped_change (err s) (err (moved E s))).
Proof.
  exists first_closest, (one_pt 0 0 0), (one_pt 10 0 0), (one_pt 1 0 0).
  pose proof (one_input 0 0 0 10 0 0 1 0 0) as Hin.
  destruct (r_one first_closest _ _ _ 1 1 ThrNone Hin eye4 1 eye_mat44 Rlt_0_1) as (T & idx & xi & E & HR & HP & _ & HC).
  exists xi, E. split; [exact Hin|]. cbv zeta. split; [exact HP|].
  destruct (one_run _ _ _ _ _ _ _ _ _ 1 Rlt_0_1 xi E HP) as [_ HE].
  set (k := _ / _) in HE.
  assert (Hk : k = 5).
  { unfold k, plane_res, dot, cross, vec3. cbn [rsum]. field. }
  rewrite Hk in HE. unfold cross, vec3 in HE.
  replace (0 * 5) with 0 in HE by ring. replace (1 * 5) with 5 in HE by ring.
  replace ((0 * 0 - 0 * 0) * 5) with 0 in HE by ring. replace ((0 * 1 - 0 * 0) * 5) with 0 in HE by ring. replace ((0 * 0 - 0 * 1) * 5) with 0 in HE by ring.
  assert (Hnorm : norm 3 (vec3 0 0 0) = 0).
  { unfold norm, dot, vec3. cbn [rsum]. replace (0 + 0 * 0 + 0 * 0 + 0 * 0) with 0 by ring. apply sqrt_0. }
  assert (Hb : norm 3 (vec3 0 0 0) < se3_eps) by (rewrite Hnorm; apply eps_pos).
  destruct (se3_exp_small 5 0 0 0 0 0 Hb) as (E2 & HE2 & ME). rewrite HE in HE2. injection HE2 as <-.
  pose proof (eye_moved 0 0 0) as P0.
  assert (P1 : same_pts 1 (moved E (moved (ent eye4 []) (pts_of (one_pt 0 0 0)))) (fun _ => vec3 5 0 0)).
  { eapply same_trans; [apply moved_ext; [exact ME|exact P0]|]. intros i Hi j Hj.
    unfold moved, act, mvec, rot_of, tr_of, twist_exp, mvec, madd, mI, delta, skew, at1.
    destruct j as [|[|[|j]]]; [| | |lia]; cbn [rsum Nat.ltb Nat.leb Nat.eqb nth vec3]; unfold vec3; ring. }
  rewrite (err_same _ _ _ _ _ _ _ Hin _ _ P0), (err_same _ _ _ _ _ _ _ Hin _ _ P1), !pts_one, !one_err.
  replace (clamped_change _ _) with (-70).
  - replace (-2 * -70) with 140 by ring. apply exp140.
  - unfold clamped_change, plane_res, dot, vec3. cbn [rsum]. unfold Rmax, Rmin. repeat destruct (Rle_dec _ _); lra.
Qed.
