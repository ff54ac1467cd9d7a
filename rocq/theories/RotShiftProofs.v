(* Proofs for C84: registration is not equivariant under shifts of the origin. *)
From Coq Require Import Reals List Arith Bool ZArith Lra Lia.
From Verif Require Import Res MatSpec TensorModel GeomModel RgbdModel GeomSpec MatProofs TensorProofs GeomProofs GeomPtsProofs Se3Model ExpProofs Se3Proofs
  SolveModel FusionModel IcpModel IcpSpec SolveProofs IcpSolveProofs IcpGnProofs IcpLoopProofs IcpPropProofs IcpRunProofs IcpRunProofs2 IcpArgProofs RotSpec.
Import ListNotations.
Local Open Scope R_scope.

(* a rotation about the z axis shows in the matrix *)
Lemma exp_z x y z c E : 0 <= c <= 1 -> se3_exp [x; y; z; 0; 0; - c] = Ok E -> (c = 0 -> E 0%nat 1%nat = 0) /\ (0 < c -> 0 < E 0%nat 1%nat).
Proof.
  intros Hc HE.
  assert (Hn : norm 3 (vec3 0 0 (- c)) = c).
  { unfold norm, dot, vec3. cbn [rsum]. replace (0 + 0 * 0 + 0 * 0 + - c * - c) with (c * c) by ring. apply sqrt_square. lra. }
  destruct (Rlt_dec c se3_eps) as [Hb|Hb].
  - destruct (se3_exp_small x y z 0 0 (- c)) as (F & HF & MF); [rewrite Hn; exact Hb|]. rewrite HE in HF. injection HF as <-.
    rewrite (MF 0%nat 1%nat) by lia. unfold twist_exp, madd, mI, delta, skew, vec3. cbn [Nat.ltb Nat.leb Nat.eqb]. split; intros; lra.
  - destruct (se3_exp_big x y z 0 0 (- c)) as (F & HF & MF); [rewrite Hn; lra|]. rewrite HE in HF. injection HF as <-.
    pose proof eps_pos. rewrite (MF 0%nat 1%nat) by lia. split; [intros; lra|intros _].
    unfold twist_exp, rodR, madd, mscale, mI, delta, skew, mmul. cbn [Nat.ltb Nat.leb Nat.eqb rsum]. rewrite Hn. unfold vec3.
    assert (Hs : 0 < sin c) by (apply sin_gt_0; [lra|]; pose proof PI_RGT_0; pose proof PI2_1; unfold PI2 in *; lra).
    assert (Ha : 0 < rodA c) by (apply Rdiv_lt_0_compat; lra).
    pose proof (Rmult_lt_0_compat _ _ Ha (ltac:(lra) : 0 < c)). nra.
Qed.
Lemma shift_entry t T T' : shifted_tf t T T' -> T' 0%nat 1%nat = T 0%nat 1%nat + t 0%nat * T 3%nat 1%nat.
Proof. intros H. pose proof (H 0%nat 1%nat ltac:(lia) ltac:(lia)) as E. unfold mmul, shift4, delta in E. cbn [rsum Nat.eqb Nat.ltb Nat.leb] in E. lra. Qed.
Lemma shift_entry3 t T T' : shifted_tf t T T' ->
  T' 0%nat 0%nat * t 0%nat + T' 0%nat 1%nat * t 1%nat + T' 0%nat 2%nat * t 2%nat + T' 0%nat 3%nat = T 0%nat 3%nat + t 0%nat * T 3%nat 3%nat.
Proof. intros H. pose proof (H 0%nat 3%nat ltac:(lia) ltac:(lia)) as E. unfold mmul, shift4, delta in E. cbn [rsum Nat.eqb Nat.ltb Nat.leb] in E. lra. Qed.
Lemma affine_31 (T : mat) : affine4 T -> T 3%nat 1%nat = 0. Proof. intros (_ & H & _). exact H. Qed.

Lemma six_scaled q xi l : six xi = l -> six (scaled q xi) = map (Rmult q) l.
Proof. intros <-. reflexivity. Qed.
Lemma p_shift_refuted : exists nn src tgt nor src' tgt' t T T' idx idx' G G' gidx gidx',
  icp_input nn src tgt nor 1 1 ThrNone /\ by_distance nn /\ shifted_cloud t 1 src src' /\ shifted_cloud t 1 tgt tgt' /\ shifted_tf t (ent eye4 []) (ent eye4 []) /\
  (point_to_plane_ICP nn (TTen src) (TTen tgt) (TTen nor) (TTen eye4) (IntV 1) 1 ThrNone = Ok (T, idx) /\
   point_to_plane_ICP nn (TTen src') (TTen tgt') (TTen nor) (TTen eye4) (IntV 1) 1 ThrNone = Ok (T', idx') /\ ~ shifted_tf t (ent T []) (ent T' [])) /\
  (point_to_plane_gradICP nn (TTen src) (TTen tgt) (TTen nor) (TTen eye4) (IntV 1) 1 ThrNone (Num 2) (Num 1) (Num 1) (Num 200) = Ok (G, gidx) /\
   point_to_plane_gradICP nn (TTen src') (TTen tgt') (TTen nor) (TTen eye4) (IntV 1) 1 ThrNone (Num 2) (Num 1) (Num 1) (Num 200) = Ok (G', gidx') /\ ~ shifted_tf t (ent G []) (ent G' [])).
Proof.
  pose proof (one_input 0 0 0 1 0 0 1 0 0) as Hin. pose proof (one_input 0 1 0 1 1 0 1 0 0) as Hin'.
  destruct (r_one first_closest _ _ _ 1 1 ThrNone Hin eye4 1 eye_mat44 Rlt_0_1) as (T & idx & xi & E & HR & HP & _ & HC).
  destruct (r_one first_closest _ _ _ 1 1 ThrNone Hin' eye4 1 eye_mat44 Rlt_0_1) as (T' & idx' & xi' & E' & HR' & HP' & _ & HC').
  assert (L2 : 0 < 2) by lra. assert (L200 : 0 < 200) by lra.
  destruct (p_grad_one first_closest _ _ _ 1 1 ThrNone 2 1 1 200 eye4 1 Hin L2 L200 eye_mat44 Rlt_0_1) as (G & gi & gx & GE & q & GE' & HG & GP & _ & _ & Hq & HGE & MG).
  destruct (p_grad_one first_closest _ _ _ 1 1 ThrNone 2 1 1 200 eye4 1 Hin' L2 L200 eye_mat44 Rlt_0_1) as (G' & gi' & gx' & GF & q' & GF' & HG' & GP' & _ & _ & Hq' & HGF & MG').
  exists first_closest, (one_pt 0 0 0), (one_pt 1 0 0), (one_pt 1 0 0), (one_pt 0 1 0), (one_pt 1 1 0), (vec3 0 1 0), T, T', idx, idx', G, G', gi, gi'.
  split; [exact Hin|]. split; [intros n t t' p p' H; induction n as [|m IH]; [reflexivity|]; cbn [first_closest]; rewrite IH by (intros j Hj; apply H; lia);
    destruct (Nat.eqb_spec m 0) as [|Hm]; [reflexivity|]; assert (L : (first_closest m t' p' < m)%nat) by (apply (proj1 first_closest_nearest); lia); rewrite !H by lia; reflexivity|].
  split; [split; [reflexivity|intros i Hi k Hk; rewrite !pts_one; unfold vec3; destruct k as [|[|[|k]]]; [| | |lia]; ring]|].
  split; [split; [reflexivity|intros i Hi k Hk; rewrite !pts_one; unfold vec3; destruct k as [|[|[|k]]]; [| | |lia]; ring]|].
  split.
  { intros i j Hi Hj. unfold mmul, shift4, ent, eye4, mat_ten, mI, delta, vec3.
    destruct i as [|[|[|[|i]]]]; [| | | |lia]; (destruct j as [|[|[|[|j]]]]; [| | | |lia]; cbn [rsum at_ app Nat.eqb Nat.ltb Nat.leb]; ring). }
  assert (K : forall x y, six x = y -> forall k, (k = 5)%nat -> six x = y) by auto. clear K.
  assert (X : forall y F, proposal first_closest (keep_sq ThrNone) 1 1 (pts_of (one_pt 1 0 0)) (pts_of (one_pt 1 0 0)) (moved (ent eye4 []) (pts_of (one_pt 0 0 0))) 1 y F ->
    six y = [/ 2; 0; 0; 0; 0; - 0] /\ se3_exp [/ 2; 0; 0; 0; 0; - 0] = Ok F).
  { intros y F HF. destruct (one_run _ _ _ _ _ _ _ _ _ 1 Rlt_0_1 y F HF) as [H1 H2]. set (k := _ / _) in *.
    assert (Hk : k = / 2) by (unfold k, plane_res, dot, cross, vec3; cbn [rsum]; field).
    rewrite Hk in H1, H2. unfold cross, vec3 in H1, H2. 
    assert (EL : [1 * / 2; 0 * / 2; 0 * / 2; (0 * 0 - 0 * 0) * / 2; (0 * 1 - 0 * 0) * / 2; (0 * 0 - 0 * 1) * / 2] = [/ 2; 0; 0; 0; 0; - 0]) by (repeat f_equal; ring).
    rewrite EL in H1, H2. auto. }
  assert (X' : forall y F, proposal first_closest (keep_sq ThrNone) 1 1 (pts_of (one_pt 1 1 0)) (pts_of (one_pt 1 0 0)) (moved (ent eye4 []) (pts_of (one_pt 0 1 0))) 1 y F ->
    six y = [/ 3; 0; 0; 0; 0; - / 3] /\ se3_exp [/ 3; 0; 0; 0; 0; - / 3] = Ok F).
  { intros y F HF. destruct (one_run _ _ _ _ _ _ _ _ _ 1 Rlt_0_1 y F HF) as [H1 H2]. set (k := _ / _) in *.
    assert (Hk : k = / 3) by (unfold k, plane_res, dot, cross, vec3; cbn [rsum]; field).
    rewrite Hk in H1, H2. unfold cross, vec3 in H1, H2. 
    assert (EL : [1 * / 3; 0 * / 3; 0 * / 3; (1 * 0 - 0 * 0) * / 3; (0 * 1 - 0 * 0) * / 3; (0 * 0 - 1 * 1) * / 3] = [/ 3; 0; 0; 0; 0; - / 3]) by (repeat f_equal; ring).
    rewrite EL in H1, H2. auto. }
  split.
  - split; [exact HR|]. split; [exact HR'|]. intros S.
    destruct (X _ _ HP) as [_ HE]. destruct (X' _ _ HP') as [_ HE'].
    destruct (exp_z _ _ _ 0 E ltac:(lra) HE) as [Z _]. specialize (Z eq_refl). destruct (exp_z _ _ _ (/ 3) E' ltac:(lra) HE') as [_ Z']. specialize (Z' ltac:(lra)).
    assert (Hb : norm 3 (vec3 0 0 (- 0)) < se3_eps).
    { unfold norm, dot, vec3. cbn [rsum]. replace (0 + 0 * 0 + 0 * 0 + - 0 * - 0) with 0 by ring. rewrite sqrt_0. apply eps_pos. }
    destruct (se3_exp_small (/ 2) 0 0 0 0 (- 0) Hb) as (F & HF & MF). rewrite HE in HF. injection HF as <-.
    assert (MT : meq 4 4 (ent T []) E).
    { destruct HC as [(_ & M)|(HC & _)]; [exact (meq_trans _ _ _ _ _ M (mul_eye E))|]. exfalso.
      pose proof (eye_moved 0 0 0) as P0.
      assert (P1 : same_pts 1 (moved E (moved (ent eye4 []) (pts_of (one_pt 0 0 0)))) (fun _ => vec3 (/ 2) 0 0)).
      { eapply same_trans; [apply moved_ext; [exact MF|exact P0]|]. intros i Hi j Hj.
        unfold moved, act, mvec, rot_of, tr_of, twist_exp, mvec, madd, mI, delta, skew, at1.
        destruct j as [|[|[|j]]]; [| | |lia]; cbn [rsum Nat.ltb Nat.leb Nat.eqb nth vec3]; unfold vec3; ring. }
      rewrite (err_same _ _ _ _ _ _ _ Hin _ _ P0), (err_same _ _ _ _ _ _ _ Hin _ _ P1), !pts_one, !one_err in HC.
      unfold plane_res, dot, vec3 in HC. cbn [rsum] in HC. lra. }
    assert (E3 : E 0%nat 3%nat = / 2 /\ E 3%nat 1%nat = 0 /\ E 3%nat 3%nat = 1).
    { rewrite !MF by lia. unfold twist_exp, mvec, madd, mI, delta, skew, at1, vec3. cbn [rsum Nat.ltb Nat.leb Nat.eqb nth]. repeat split; ring. }
    destruct E3 as (E3 & E31 & E33).
    destruct HC' as [(_ & M)|(_ & M)].
    + pose proof (shift_entry _ _ _ S) as SE. rewrite (MT 0%nat 1%nat), (MT 3%nat 1%nat), (meq_trans _ _ _ _ _ M (mul_eye E') 0%nat 1%nat) in SE by lia. unfold vec3 in SE. lra.
    + pose proof (shift_entry3 _ _ _ S) as SE. rewrite (MT 0%nat 3%nat), (MT 3%nat 3%nat) in SE by lia.
      assert (ET : forall i j, (i < 4)%nat -> (j < 4)%nat -> ent T' [] i j = delta i j).
      { intros i j Hi Hj. first [rewrite M; reflexivity | rewrite (M i j Hi Hj); reflexivity]. }
      rewrite !ET in SE by lia. unfold vec3, delta in SE. cbn [Nat.eqb] in SE. lra.
  - split; [exact HG|]. split; [exact HG'|]. intros S. pose proof (shift_entry _ _ _ S) as SE.
    destruct (X _ _ GP) as [HS _]. destruct (X' _ _ GP') as [HS' _].
    rewrite (six_scaled q gx _ HS) in HGE. rewrite (six_scaled q' gx' _ HS') in HGF. cbn [map] in HGE, HGF.
    replace (q * 0) with 0 in HGE by ring. replace (q' * 0) with 0 in HGF by ring. replace (q * - 0) with (- 0) in HGE by ring. replace (q' * - / 3) with (- (q' / 3)) in HGF by (unfold Rdiv; ring).
    destruct (exp_z _ _ _ 0 GE' ltac:(lra) HGE) as [Z _]. specialize (Z eq_refl). destruct (exp_z _ _ _ (q' / 3) GF' ltac:(lra) HGF) as [_ Z']. specialize (Z' ltac:(lra)).
    rewrite (meq_trans _ _ _ _ _ MG (mul_eye GE') 0%nat 1%nat), (meq_trans _ _ _ _ _ MG' (mul_eye GF') 0%nat 1%nat) in SE by lia. unfold vec3 in SE. lra.
Qed.
