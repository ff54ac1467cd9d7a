(* Proofs of C23 (quaternion_to_axisangle). *)
From Coq Require Import Reals List Arith Bool Lia Lra.
From Verif Require Import Res MatSpec TensorModel TensorProofs ProjModel GeomModel Se3Model GeomSpec MatProofs
  QuatProofs ExpProofs Se3Proofs.
Import ListNotations.
Local Open Scope R_scope.

(* angle of a point of the right half of the unit circle *)
Lemma atan2_unit y x : 0 <= x -> x * x + y * y = 1 -> (x = 0 -> 0 <= y) ->
  sin (atan2 y x) = y /\ cos (atan2 y x) = x /\ - (PI / 2) <= atan2 y x <= PI / 2.
Proof.
  intros Hx H Hy. unfold atan2. destruct (Rlt_dec 0 x) as [Hp|Hn].
  - assert (E : sqrt (1 + (y / x) ^ 2) = / x).
    { apply Rsqr_inj; [apply sqrt_pos|apply Rlt_le, Rinv_0_lt_compat, Hp|].
      rewrite Rsqr_sqrt by nra. unfold Rsqr.
      replace (1 + (y / x) ^ 2) with ((x * x + y * y) / (x * x)) by (field; lra). rewrite H. field. lra. }
    pose proof (atan_bound (y / x)) as HB. rewrite sin_atan, cos_atan.
    replace (1 + (y / x)²) with (1 + (y / x) ^ 2) by (unfold Rsqr; ring). rewrite E.
    split; [field; lra|]. split; [field; lra|]. lra.
  - assert (x = 0) by lra. subst x. specialize (Hy eq_refl).
    assert (y = 1) by nra. subst y. destruct (Rlt_dec 0 0); [lra|]. destruct (Rlt_dec 0 1); [|lra].
    rewrite sin_PI2, cos_PI2. pose proof PI_RGT_0. repeat split; lra.
Qed.

Section One.
Variables x y z w : R.
Hypothesis U : x*x + y*y + z*z + w*w = 1.
Let v := vec3 x y z.
Let s := sqrt (x*x + y*y + z*z).
Let phi := if Rlt_dec w 0 then atan2 (- s) (- w) else atan2 s w.
Let sg := if Rlt_dec w 0 then -1 else 1.

Lemma s_sq : s * s = x*x + y*y + z*z. Proof. unfold s. apply sqrt_sqrt. nra. Qed.
Lemma s_norm : norm 3 v = s. Proof. unfold norm, dot, s, v. cbn. f_equal. ring. Qed.
Lemma s_pos : 0 <= s. Proof. apply sqrt_pos. Qed.

Lemma phi_facts : sin phi = sg * s /\ cos phi = sg * w /\ - (PI / 2) <= phi <= PI / 2.
Proof.
  pose proof s_sq as S. pose proof s_pos as P. unfold phi, sg. destruct (Rlt_dec w 0) as [Hw|Hw].
  - destruct (atan2_unit (- s) (- w)) as (A & B & C); [lra|nra|lra|]. rewrite A, B. repeat split; lra.
  - destruct (atan2_unit s w) as (A & B & C); [lra|nra|lra|]. rewrite A, B. repeat split; lra.
Qed.

Lemma aa_k : axisangle_k x y z w = if Rlt_dec 0 (x*x + y*y + z*z) then 2 * phi / s else 2.
Proof. reflexivity. Qed.

Lemma sg_sq : sg * sg = 1. Proof. unfold sg. destruct (Rlt_dec w 0); ring. Qed.

Lemma aa_one : let k := axisangle_k x y z w in
  norm 3 (vec3 (k * x) (k * y) (k * z)) <= PI /\
  is_mexp 3 (skew (vec3 (k * x) (k * y) (k * z))) (quat_rot x y z w).
Proof.
  cbv zeta. rewrite aa_k. pose proof PI_RGT_0 as HP. pose proof s_sq as S. pose proof s_pos as P.
  destruct (Rlt_dec 0 (x*x + y*y + z*z)) as [Hs|Hs].
  - assert (Hs0 : 0 < s) by nra. destruct phi_facts as (A & B & C). set (k := 2 * phi / s).
    assert (Hks : k * s = 2 * phi) by (unfold k; field; lra).
    assert (Hphi : phi <> 0).
    { intros E. rewrite E, sin_0 in A. pose proof sg_sq. nra. }
    assert (Hk : k <> 0) by (intros E; rewrite E in Hks; lra).
    assert (Hn : norm 3 (vec3 x y z) = s) by apply s_norm.
    split.
    + rewrite norm3_scale, Hn.
      assert (E : Rabs k * s = Rabs (2 * phi)) by (rewrite <- Hks, Rabs_mult, (Rabs_right s) by lra; reflexivity).
      rewrite E. apply Rabs_le. lra.
    + eapply mexp_ext; [apply meq_refl| |apply skew_exp].
      2: { rewrite norm3_scale, Hn. apply Rmult_integral_contrapositive_currified; [apply Rabs_no_R0, Hk|lra]. }
      eapply meq_trans; [apply gR_rod; [exact Hk|rewrite Hn; lra]|].
      intros i j Hi Hj. unfold gR. rewrite Hn, Hks, sin_2a, A, B.
      replace (1 - cos (2 * phi)) with (2 * (s * s)).
      2: { rewrite cos_2a_sin, A. transitivity (2 * (sg * sg) * (s * s)); [rewrite sg_sq; ring|ring]. }
      replace (2 * (sg * s) * (sg * w) / s) with (2 * w).
      2: { transitivity (2 * (sg * sg) * w); [rewrite sg_sq; ring|field; lra]. }
      replace (2 * (s * s) / s ^ 2) with 2 by (field; lra).
      unfold madd, mscale, mmul, skew, vec3, mI, delta, quat_rot. idx3 i Hi; idx3 j Hj; cbn [rsum Nat.eqb]; ring.
  - assert (x = 0) by nra. assert (y = 0) by nra. assert (z = 0) by nra. 
    assert (Hz0 : norm 3 (vec3 (2 * x) (2 * y) (2 * z)) = 0).
    { rewrite norm3_scale. change (vec3 x y z) with v. rewrite s_norm. assert (s = 0) as -> by nra. ring. }
    split; [rewrite Hz0; lra|].
    eapply mexp_ext; [apply meq_refl| |apply mexp_zero, skew_zero, Hz0].
    intros i j Hi Hj. subst. unfold quat_rot, mI, delta. idx3 i Hi; idx3 j Hj; cbn [Nat.eqb]; ring.
Qed.
End One.

Lemma skew_ext u v : veq 3 u v -> meq 3 3 (skew u) (skew v).
Proof. intros H i j Hi Hj. unfold skew. idx3 i Hi; idx3 j Hj; rewrite ?H by lia; reflexivity. Qed.

Lemma norm_ext n u v : veq n u v -> norm n u = norm n v.
Proof. intros H. unfold norm. rewrite (dot_ext n u v u v H H). reflexivity. Qed.

Lemma p_axisangle : forall (q : ten R) s, dims q = (4 :: s)%nat ->
  exists a, quaternion_to_axisangle q = Ok a /\ dims a = (3 :: s)%nat /\
    forall r, vix s r -> dot 4 (comp q r) (comp q r) = 1 ->
      0 <= norm 3 (comp a r) <= PI /\
      (exists k, veq 3 (comp a r) (fun i => k * comp q r i)) /\
      is_mexp 3 (skew (comp a r)) (quat_rot (comp q r 0%nat) (comp q r 1%nat) (comp q r 2%nat) (comp q r 3%nat)).
Proof.
  intros q s E. unfold quaternion_to_axisangle, size_m1. rewrite E. cbn [rbind Nat.eqb tl].
  eexists. split; [reflexivity|]. split; [reflexivity|]. intros r Hr U. unfold dot in U. cbn [rsum] in U.
  set (x := comp q r 0%nat) in *. set (y := comp q r 1%nat) in *. set (z := comp q r 2%nat) in *. set (w := comp q r 3%nat) in *.
  assert (U' : x*x + y*y + z*z + w*w = 1) by lra.
  destruct (aa_one x y z w U') as [H1 H2]. cbv zeta in H1, H2. set (k := axisangle_k x y z w) in *.
  assert (V : veq 3 (vec3 (k * x) (k * y) (k * z)) (fun i => comp q r i * k)).
  { intros i Hi. idx3 i Hi; cbn; unfold x, y, z; ring. }
  split; [|split].
  - split; [apply sqrt_pos|]. unfold comp at 1. cbn [at_]. eapply Rle_trans; [apply Req_le|exact H1]. apply norm_ext. intros i Hi. rewrite (V i Hi). reflexivity.
  - exists k. intros i Hi. unfold comp at 1. cbn [at_]. fold x y z w. fold k. ring.
  - eapply mexp_ext; [|apply meq_refl|exact H2]. apply skew_ext. exact V.
Qed.

(* q and -q: the same rotation *)
Lemma p_axisangle_neg : forall (q : ten R) s, dims q = (4 :: s)%nat ->
  exists a a', quaternion_to_axisangle q = Ok a /\ quaternion_to_axisangle (tmap Ropp q) = Ok a' /\
    forall r, vix s r -> dot 4 (comp q r) (comp q r) = 1 ->
      exists Q, is_mexp 3 (skew (comp a r)) Q /\ is_mexp 3 (skew (comp a' r)) Q.
Proof.
  intros q s E. destruct (p_axisangle q s E) as (a & Ha & _ & H).
  destruct (p_axisangle (tmap Ropp q) s E) as (a' & Ha' & _ & H').
  exists a, a'. split; [exact Ha|]. split; [exact Ha'|]. intros r Hr U.
  destruct (H r Hr U) as (_ & _ & H1).
  destruct (H' r Hr) as (_ & _ & H2).
  { rewrite <- U. unfold dot, comp, tmap. cbn [at_]. apply rsum_ext. intros. ring. }
  eexists. split; [exact H1|]. eapply mexp_ext; [apply meq_refl| |exact H2].
  intros i j Hi Hj. unfold quat_rot, tmap, comp. cbn [at_]. idx3 i Hi; idx3 j Hj; ring.
Qed.
