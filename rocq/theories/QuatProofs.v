(* Proofs of C22: quaternions to rotation matrices. *)
From Coq Require Import Reals List Arith Bool Lia Lra.
From Verif Require Import Res MatSpec TensorModel TensorProofs LinAlgModel ProjModel GeomModel Se3Model
  DataUtilsModel GeomSpec MatProofs.
Import ListNotations.
Local Open Scope R_scope.

Lemma quat_entries_rot x y z w i j : (i < 3)%nat -> (j < 3)%nat ->
  nth (3 * i + j) (quat_entries x y z w) 0 = quat_rot x y z w i j.
Proof.
  intros Hi Hj. destruct i as [|[|[|i]]]; [| | |lia]; (destruct j as [|[|[|j]]]; [| | |lia]);
  cbn; ring.
Qed.

Ltac idx3 i H := destruct i as [|[|[|i]]]; [| | |exfalso; clear - H; lia].

Lemma quat_rot_rotation x y z w : x*x + y*y + z*z + w*w = 1 -> rotation3 (quat_rot x y z w).
Proof.
  intros H.
  assert (Hx : x*x = 1 - (y*y + z*z + w*w)) by lra.
  assert (E : w*w = 1 - x*x - y*y - z*z) by lra.
  split; [split|].
  - intros i j Hi Hj. idx3 i Hi; idx3 j Hj; unfold mmul, mtr, quat_rot, mI, delta; cbn [rsum Nat.eqb]; ring [E].
  - intros i j Hi Hj. idx3 i Hi; idx3 j Hj; unfold mmul, mtr, quat_rot, mI, delta; cbn [rsum Nat.eqb]; ring [E].
  - unfold det3, quat_rot. ring [E].
Qed.

Lemma norm4_sq (q : vec) : norm 4 q * norm 4 q = dot 4 q q.
Proof. apply sqrt_sqrt. apply rsum_nonneg. intros. apply Rle_0_sqr. Qed.

Definition uq (q : vec) : vec := fun i => q i / norm 4 q.
Lemma uq_unit q : norm 4 q <> 0 -> uq q 0%nat * uq q 0%nat + uq q 1%nat * uq q 1%nat + uq q 2%nat * uq q 2%nat + uq q 3%nat * uq q 3%nat = 1.
Proof.
  intros H. unfold uq. pose proof (norm4_sq q) as E. unfold dot in E. cbn [rsum] in E.
  set (n := norm 4 q) in *.
  replace (q 0%nat / n * (q 0%nat / n) + q 1%nat / n * (q 1%nat / n) + q 2%nat / n * (q 2%nat / n) + q 3%nat / n * (q 3%nat / n))
    with ((0 + q 0%nat * q 0%nat + q 1%nat * q 1%nat + q 2%nat * q 2%nat + q 3%nat * q 3%nat) / (n * n)) by (field; exact H).
  rewrite <- E. field. exact H.
Qed.

(* the rotation a non-zero quaternion stands for *)
Lemma rot_of_quat_rotation q : norm 4 q <> 0 -> rotation3 (rot_of_quat q).
Proof. intros H. apply quat_rot_rotation. apply (uq_unit q H). Qed.

Lemma unravel_ravel s r : vix s r -> unravel s (ravel s r) = r.
Proof.
  revert r. induction s as [|d s IH]; intros [|i r]; cbn; try contradiction; [reflexivity|].
  intros [Hi Hr]. assert (d <> 0)%nat by lia. rewrite (Nat.mul_comm d), Nat.mod_add, Nat.div_add by assumption.
  rewrite Nat.mod_small, Nat.div_small by assumption. cbn. rewrite IH by assumption. reflexivity.
Qed.
Lemma ravel_lt s r : vix s r -> (ravel s r < prod_list s)%nat.
Proof.
  revert r. induction s as [|d s IH]; intros [|i r]; cbn; try contradiction; [lia|].
  intros [Hi Hr]. specialize (IH r Hr). unfold prod_list in *. nia.
Qed.

Lemma eps12_pos : 0 < eps12. Proof. unfold eps12. lra. Qed.

Lemma quat_norm_norm q r : quat_norm q r = norm 4 (comp q r).
Proof. reflexivity. Qed.

Lemma p_quat_rot : forall (q : ten R) s, dims q = (4 :: s)%nat ->
  exists M, quaternion_to_rotation_matrix q = Ok M /\
    dims M = (3 :: 3 :: (match s with [] => [] | _ => [prod_list s] end))%nat /\
    forall r, vix s r -> eps12 <= norm 4 (comp q r) ->
      meq 3 3 (ent M (flat_ix s r)) (rot_of_quat (comp q r)).
Proof.
  intros [d f] s E. cbn [dims] in E. subst d.
  unfold quaternion_to_rotation_matrix, normalize_quaternion, size_m1, ndim. cbn [dims rbind Nat.eqb guard tl].
  assert (Hb : forall k r, vix s r -> unravel s k = r -> eps12 <= norm 4 (comp (mkTen (4%nat :: s) f) r) ->
     forall i j, (i < 3)%nat -> (j < 3)%nat ->
      nth (3 * i + j) (quat_entries
       (comp (mkTen (4%nat :: s) f) r 0 / Rmax (quat_norm (mkTen (4%nat :: s) f) r) eps12)
       (comp (mkTen (4%nat :: s) f) r 1 / Rmax (quat_norm (mkTen (4%nat :: s) f) r) eps12)
       (comp (mkTen (4%nat :: s) f) r 2 / Rmax (quat_norm (mkTen (4%nat :: s) f) r) eps12)
       (comp (mkTen (4%nat :: s) f) r 3 / Rmax (quat_norm (mkTen (4%nat :: s) f) r) eps12)) 0
      = rot_of_quat (comp (mkTen (4%nat :: s) f) r) i j).
  { intros k r Hr Ek Hn i j Hi Hj. rewrite quat_norm_norm, Rmax_left by exact Hn.
    rewrite quat_entries_rot by assumption. reflexivity. }
  destruct s as [|n s].
  - cbn [length Nat.eqb]. eexists. split; [reflexivity|]. split; [reflexivity|].
    intros [|? ?] Hr Hn; [|destruct Hr]. intros i j Hi Hj.
    exact (Hb 0%nat [] Hr eq_refl Hn i j Hi Hj).
  - cbn [length Nat.eqb]. eexists. split; [reflexivity|]. split; [reflexivity|].
    intros r Hr Hn i j Hi Hj.
    pose proof (unravel_ravel _ _ Hr) as Eu.
    pose proof (Hb (ravel (n :: s) r) r Hr Eu Hn i j Hi Hj) as H.
    unfold ent, flat_ix. cbn [at_]. rewrite Eu. exact H.
Qed.

Lemma norm_scale n c q : norm n (fun i => c * q i) = Rabs c * norm n q.
Proof.
  unfold norm. rewrite <- sqrt_Rsqr_abs, <- sqrt_mult_alt by apply Rle_0_sqr. f_equal.
  unfold dot, Rsqr. rewrite <- rsum_mult_l. apply rsum_ext. intros. ring.
Qed.

Lemma p_quat_scale_spec c q : c <> 0 -> norm 4 q <> 0 ->
  meq 3 3 (rot_of_quat (fun i => c * q i)) (rot_of_quat q).
Proof.
  intros Hc Hn i j Hi Hj. unfold rot_of_quat. rewrite norm_scale.
  assert (Ha : Rabs c <> 0) by (apply Rabs_no_R0; exact Hc).
  assert (E : Rabs c * Rabs c = c * c) by (rewrite <- Rabs_mult; apply Rabs_right; nra).
  assert (Hq : forall a b, (c * a / (Rabs c * norm 4 q)) * (c * b / (Rabs c * norm 4 q)) = a / norm 4 q * (b / norm 4 q)).
  { intros a b. replace (c * a / (Rabs c * norm 4 q) * (c * b / (Rabs c * norm 4 q)))
      with (c * c * a * b / (Rabs c * Rabs c * norm 4 q * norm 4 q)) by (field; auto).
    rewrite E. field. auto. }
  unfold quat_rot. idx3 i Hi; idx3 j Hj; rewrite ?Hq; reflexivity.
Qed.

Lemma p_quat_scale : forall (q : ten R) c s, dims q = (4 :: s)%nat -> c <> 0 ->
  exists M Mc, quaternion_to_rotation_matrix q = Ok M /\
    quaternion_to_rotation_matrix (tmap (Rmult c) q) = Ok Mc /\
    forall r, vix s r -> eps12 <= norm 4 (comp q r) -> eps12 <= Rabs c * norm 4 (comp q r) ->
      meq 3 3 (ent Mc (flat_ix s r)) (ent M (flat_ix s r)).
Proof.
  intros q c s E Hc. destruct (p_quat_rot q s E) as (M & HM & _ & H1).
  destruct (p_quat_rot (tmap (Rmult c) q) s E) as (Mc & HMc & _ & H2).
  exists M, Mc. split; [exact HM|]. split; [exact HMc|]. intros r Hr Hn Hn'. pose proof eps12_pos.
  change (comp (tmap (Rmult c) q)) with (fun r i => c * comp q r i) in H2. cbv beta in H2.
  eapply meq_trans; [apply H2; [exact Hr|rewrite norm_scale; exact Hn']|].
  eapply meq_trans; [apply p_quat_scale_spec; [exact Hc|lra]|]. apply meq_sym, H1; assumption.
Qed.

Lemma qmul_norm2 a b : dot 4 (qmul a b) (qmul a b) = dot 4 a a * dot 4 b b.
Proof. unfold dot, qmul. cbn [rsum]. ring. Qed.

Lemma quat_rot_mul a b : dot 4 a a = 1 -> dot 4 b b = 1 ->
  meq 3 3 (quat_rot (qmul a b 0%nat) (qmul a b 1%nat) (qmul a b 2%nat) (qmul a b 3%nat))
    (mmul 3 (quat_rot (a 0%nat) (a 1%nat) (a 2%nat) (a 3%nat)) (quat_rot (b 0%nat) (b 1%nat) (b 2%nat) (b 3%nat))).
Proof.
  unfold dot. cbn [rsum]. intros Ha Hb i j Hi Hj.
  assert (E1 : a 3%nat * a 3%nat = 1 - a 0%nat * a 0%nat - a 1%nat * a 1%nat - a 2%nat * a 2%nat) by lra.
  assert (E2 : b 3%nat * b 3%nat = 1 - b 0%nat * b 0%nat - b 1%nat * b 1%nat - b 2%nat * b 2%nat) by lra.
  unfold mmul, qmul, quat_rot. cbn [rsum].
  idx3 i Hi; idx3 j Hj; ring [E1 E2].
Qed.

Lemma dot1_norm q : dot 4 q q = 1 -> norm 4 q = 1.
Proof. intros H. unfold norm. rewrite H. apply sqrt_1. Qed.

Lemma rot_of_unit q : dot 4 q q = 1 -> meq 3 3 (rot_of_quat q) (quat_rot (q 0%nat) (q 1%nat) (q 2%nat) (q 3%nat)).
Proof.
  intros H i j Hi Hj. unfold rot_of_quat. rewrite (dot1_norm q H). unfold Rdiv. rewrite Rinv_1, !Rmult_1_r. reflexivity.
Qed.

Lemma eps12_le1 : eps12 <= 1. Proof. unfold eps12. lra. Qed.

Lemma p_quat_mul : forall (a b c : ten R), shape a = [4%nat] -> shape b = [4%nat] -> shape c = [4%nat] ->
  dot 4 (comp a []) (comp a []) = 1 -> dot 4 (comp b []) (comp b []) = 1 ->
  veq 4 (comp c []) (qmul (comp a []) (comp b [])) ->
  exists Ma Mb Mc, quaternion_to_rotation_matrix a = Ok Ma /\ quaternion_to_rotation_matrix b = Ok Mb /\
    quaternion_to_rotation_matrix c = Ok Mc /\ meq 3 3 (ent Mc []) (mmul 3 (ent Ma []) (ent Mb [])).
Proof.
  intros a b c Ea Eb Ec Ha Hb Hc.
  assert (Hd : forall x : ten R, shape x = [4%nat] -> dims x = [4%nat]).
  { intros x E. unfold shape in E. rewrite <- (rev_involutive (dims x)), E. reflexivity. }
  apply Hd in Ea, Eb, Ec.
  destruct (p_quat_rot a [] Ea) as (Ma & HMa & _ & H1). destruct (p_quat_rot b [] Eb) as (Mb & HMb & _ & H2).
  destruct (p_quat_rot c [] Ec) as (Mc & HMc & _ & H3).
  exists Ma, Mb, Mc. repeat (split; [assumption|]). pose proof eps12_le1.
  assert (Hcc : dot 4 (comp c []) (comp c []) = 1).
  { rewrite (dot_ext 4 _ _ _ _ Hc Hc), qmul_norm2, Ha, Hb. ring. }
  specialize (H1 [] I). specialize (H2 [] I). specialize (H3 [] I). cbn [flat_ix] in *.
  rewrite (dot1_norm _ Ha) in H1. rewrite (dot1_norm _ Hb) in H2. rewrite (dot1_norm _ Hcc) in H3.
  specialize (H1 H). specialize (H2 H). specialize (H3 H).
  eapply meq_trans; [exact H3|]. eapply meq_trans; [apply rot_of_unit; exact Hcc|].
  eapply meq_trans; [|apply mmul_ext; [|]; apply meq_sym].
  2: { eapply meq_trans; [exact H1|]. apply rot_of_unit, Ha. }
  2: { eapply meq_trans; [exact H2|]. apply rot_of_unit, Hb. }
  eapply meq_trans; [|apply quat_rot_mul; assumption].
  intros i j Hi Hj. rewrite !Hc by lia. reflexivity.
Qed.

Lemma rot_of_quat_form q : norm 4 q <> 0 ->
  meq 3 3 (rot_of_quat q) (fun i j =>
    let o a b := 2 * (q a * q b) / dot 4 q q in
    match i, j with
    | 0%nat, 0%nat => 1 - (o 1%nat 1%nat + o 2%nat 2%nat) | 0%nat, 1%nat => o 0%nat 1%nat - o 2%nat 3%nat | 0%nat, 2%nat => o 0%nat 2%nat + o 1%nat 3%nat
    | 1%nat, 0%nat => o 0%nat 1%nat + o 2%nat 3%nat | 1%nat, 1%nat => 1 - (o 0%nat 0%nat + o 2%nat 2%nat) | 1%nat, 2%nat => o 1%nat 2%nat - o 0%nat 3%nat
    | 2%nat, 0%nat => o 0%nat 2%nat - o 1%nat 3%nat | 2%nat, 1%nat => o 1%nat 2%nat + o 0%nat 3%nat | 2%nat, 2%nat => 1 - (o 0%nat 0%nat + o 1%nat 1%nat)
    | _, _ => 0 end).
Proof.
  intros H i j Hi Hj. rewrite <- norm4_sq. unfold rot_of_quat, quat_rot.
  idx3 i Hi; idx3 j Hj; field; exact H.
Qed.

Lemma norm4_pos_iff q : 0 < dot 4 q q -> norm 4 q <> 0.
Proof. intros H E. rewrite <- norm4_sq, E in H. lra. Qed.

Lemma p_transform44 : forall t q, tum_eps <= dot 4 q q ->
  exists M, transform44 t q = Ok M /\ affine4 M /\ rigid4 M /\ veq 3 (tr_of M) t /\
    meq 3 3 (rot_of M) (rot_of_quat q).
Proof.
  intros t q H. unfold transform44. change (rsum 4 (fun i => q i * q i)) with (dot 4 q q).
  assert (Ht : 0 < tum_eps) by (unfold tum_eps; apply Rinv_0_lt_compat, pow_lt; lra).
  destruct (Rlt_dec (dot 4 q q) tum_eps) as [C|_]; [lra|].
  assert (Hpos : 0 < dot 4 q q) by lra.
  assert (Hs : sqrt (2 / dot 4 q q) * sqrt (2 / dot 4 q q) = 2 / dot 4 q q).
  { apply sqrt_sqrt. apply Rlt_le, Rdiv_lt_0_compat; lra. }
  assert (Ho : forall a b : nat, q a * sqrt (2 / dot 4 q q) * (q b * sqrt (2 / dot 4 q q)) = 2 * (q a * q b) / dot 4 q q).
  { intros a b. transitivity (q a * q b * (sqrt (2 / dot 4 q q) * sqrt (2 / dot 4 q q))); [ring|]. rewrite Hs. field. lra. }
  eexists. split; [reflexivity|].
  match goal with |- affine4 ?M /\ _ => set (X := M) end.
  assert (HR : meq 3 3 (rot_of X) (rot_of_quat q)).
  { eapply meq_trans; [|apply meq_sym, rot_of_quat_form, norm4_pos_iff, Hpos].
    intros i j Hi Hj. unfold rot_of, X. cbv zeta. idx3 i Hi; idx3 j Hj; cbv beta iota; rewrite !Ho; ring. }
  assert (HA : affine4 X) by (repeat split).
  split; [exact HA|]. split; [|split].
  - split; [exact HA|]. eapply rot_ext; [apply meq_sym, HR|]. apply rot_of_quat_rotation, norm4_pos_iff, Hpos.
  - intros i Hi. idx3 i Hi; reflexivity.
  - exact HR.
Qed.

Lemma p_transform44_tiny : forall t q, dot 4 q q < tum_eps -> transform44 t q = Err TypeError.
Proof.
  intros t q H. unfold transform44. change (rsum 4 (fun i => q i * q i)) with (dot 4 q q).
  destruct (Rlt_dec (dot 4 q q) tum_eps); [reflexivity|contradiction].
Qed.

Lemma p_pq : forall (x : ten R) eps s, 0 < eps -> dims x = (7 :: s)%nat ->
  exists M, pointquaternion_to_homogeneous x eps = Ok M /\ dims M = (4 :: 4 :: s)%nat /\
    forall r, vix s r -> 2 * eps * eps <= dot 4 (fun k => comp x r (3 + k)) (fun k => comp x r (3 + k)) ->
      rigid4 (ent M r) /\ veq 3 (tr_of (ent M r)) (comp x r) /\
      meq 3 3 (rot_of (ent M r)) (rot_of_quat (fun k => comp x r (3 + k))).
Proof.
  intros x eps s He E. unfold pointquaternion_to_homogeneous, size_m1. rewrite E. cbn [rbind Nat.eqb tl].
  eexists. split; [reflexivity|]. split; [reflexivity|]. intros r Hr H.
  set (q := fun k => comp x r (3 + k)) in *. unfold ent. cbn [at_].
  assert (Hpos : 0 < dot 4 q q) by nra.
  assert (Hsc : pq_scale q eps = sqrt (5 / 10 * dot 4 q q)).
  { unfold pq_scale. apply Rmax_left. change (rsum 4 (fun i => q i * q i)) with (dot 4 q q).
    rewrite <- (sqrt_Rsqr eps) by lra. apply sqrt_le_1_alt. unfold Rsqr. lra. }
  assert (Hsq : pq_scale q eps * pq_scale q eps = dot 4 q q / 2).
  { rewrite Hsc, sqrt_sqrt by lra. field. }
  assert (Hne : pq_scale q eps <> 0) by (intros C; rewrite C in Hsq; lra).
  assert (Ho : forall a b : nat, q a / pq_scale q eps * (q b / pq_scale q eps) = 2 * (q a * q b) / dot 4 q q).
  { intros a b. transitivity (q a * q b / (pq_scale q eps * pq_scale q eps)); [field; exact Hne|]. rewrite Hsq. field. lra. }
  match goal with |- rigid4 ?M /\ _ => set (X := M) end.
  assert (HR : meq 3 3 (rot_of X) (rot_of_quat q)).
  { eapply meq_trans; [|apply meq_sym, rot_of_quat_form, norm4_pos_iff, Hpos].
    intros i j Hi Hj. unfold rot_of, X. change (fun k => comp x r (3 + k)) with q.
    assert (Hq : forall k, comp x r (3 + k) = q k) by reflexivity.
    idx3 i Hi; idx3 j Hj; cbv beta iota zeta; rewrite !Hq, !Ho; reflexivity. }
  split; [|split].
  - split; [repeat split|]. eapply rot_ext; [apply meq_sym, HR|]. apply rot_of_quat_rotation, norm4_pos_iff, Hpos.
  - intros i Hi. idx3 i Hi; reflexivity.
  - exact HR.
Qed.

Lemma p_quat_rej : forall (q : ten R) d s, dims q = (d :: s)%nat -> d <> 4%nat ->
  quaternion_to_rotation_matrix q = Err ValueError /\ quaternion_to_axisangle q = Err ValueError.
Proof.
  intros q d s E H. unfold quaternion_to_rotation_matrix, quaternion_to_axisangle, size_m1. rewrite E. cbn [rbind].
  destruct (Nat.eqb_spec d 4); [contradiction|]. auto.
Qed.
