(* Proofs of C24, C25 (so3_exp, se3_exp) and C23 (quaternion_to_axisangle). *)
From Coq Require Import Reals List Arith Bool Lia Lra.
From Verif Require Import Res MatSpec TensorModel TensorProofs ProjModel GeomModel Se3Model GeomSpec MatProofs
  QuatProofs ExpProofs.
Import ListNotations.
Local Open Scope R_scope.

Lemma tnorm3 a b c : tnorm [a; b; c] = norm 3 (vec3 a b c).
Proof. unfold tnorm, norm, dot. cbn. f_equal. ring. Qed.

Lemma hat_skew a b c : meq 3 3 (so3_hat_mat a b c) (skew (vec3 a b c)).
Proof. intros i j Hi Hj. idx3 i Hi; idx3 j Hj; reflexivity. Qed.

Lemma eps_pos : 0 < se3_eps. Proof. unfold se3_eps. lra. Qed.

Lemma madd_ext n m A A' B B' : meq n m A A' -> meq n m B B' -> meq n m (madd A B) (madd A' B').
Proof. intros H H' i j Hi Hj. unfold madd. rewrite H, H' by assumption. reflexivity. Qed.
Lemma mscale_ext n m c A A' : meq n m A A' -> meq n m (mscale c A) (mscale c A').
Proof. intros H i j Hi Hj. unfold mscale. rewrite H by assumption. reflexivity. Qed.

(* what the code returns above the threshold *)
Lemma so3_exp_big a b c : se3_eps <= norm 3 (vec3 a b c) ->
  exists Q, so3_exp [a; b; c] = Ok Q /\ meq 3 3 Q (rodR (vec3 a b c)).
Proof.
  intros H. unfold so3_exp, so3_hat. cbn [length Nat.ltb Nat.leb at1 nth rbind]. rewrite tnorm3.
  destruct (Rlt_dec (norm 3 (vec3 a b c)) se3_eps); [lra|]. eexists. split; [reflexivity|].
  unfold rodR. apply madd_ext; [apply madd_ext; [apply meq_refl|]|]; apply mscale_ext; [apply hat_skew|].
  apply mmul_ext; apply hat_skew.
Qed.
Lemma so3_exp_small a b c : norm 3 (vec3 a b c) < se3_eps ->
  exists Q, so3_exp [a; b; c] = Ok Q /\ meq 3 3 Q (madd mI (skew (vec3 a b c))).
Proof.
  intros H. unfold so3_exp, so3_hat. cbn [length Nat.ltb Nat.leb at1 nth rbind]. rewrite tnorm3.
  destruct (Rlt_dec (norm 3 (vec3 a b c)) se3_eps); [|lra]. eexists. split; [reflexivity|].
  apply madd_ext; [apply meq_refl|apply hat_skew].
Qed.

Lemma meq_twist_exp A A' V V' v : meq 3 3 A A' -> meq 3 3 V V' ->
  meq 4 4 (fun i j => if Nat.ltb i 3 then (if Nat.ltb j 3 then A i j else mvec 3 V v i) else if Nat.eqb j 3 then 1 else 0)
    (twist_exp A' V' v).
Proof.
  intros H H' i j Hi Hj. unfold twist_exp. destruct (Nat.ltb_spec i 3) as [Hi'|]; [|reflexivity].
  destruct (Nat.ltb_spec j 3) as [Hj'|]; [apply H; assumption|].
  apply (mvec_ext_mat 3 3 V V' v H' i Hi').
Qed.

Lemma se3_exp_big x y z a b c : se3_eps <= norm 3 (vec3 a b c) ->
  exists T, se3_exp [x; y; z; a; b; c] = Ok T /\
    meq 4 4 T (twist_exp (rodR (vec3 a b c)) (rodV (vec3 a b c)) (at1 [x; y; z])).
Proof.
  intros H. unfold se3_exp, so3_hat. cbn [firstn skipn length Nat.ltb Nat.leb rbind].
  change (at1 [a; b; c] 0) with a. change (at1 [a; b; c] 1) with b. change (at1 [a; b; c] 2) with c.
  rewrite tnorm3.
  destruct (Rlt_dec (norm 3 (vec3 a b c)) se3_eps); [lra|]. eexists. split; [reflexivity|].
  apply meq_twist_exp.
  - unfold rodR. apply madd_ext; [apply madd_ext; [apply meq_refl|]|]; apply mscale_ext; [apply hat_skew|].
    apply mmul_ext; apply hat_skew.
  - unfold rodV. apply madd_ext; [apply madd_ext; [apply meq_refl|]|]; apply mscale_ext; [apply hat_skew|].
    apply mmul_ext; apply hat_skew.
Qed.
Lemma se3_exp_small x y z a b c : norm 3 (vec3 a b c) < se3_eps ->
  exists T, se3_exp [x; y; z; a; b; c] = Ok T /\
    meq 4 4 T (twist_exp (madd mI (skew (vec3 a b c))) (madd mI (skew (vec3 a b c))) (at1 [x; y; z])).
Proof.
  intros H. unfold se3_exp, so3_hat. cbn [firstn skipn length Nat.ltb Nat.leb rbind].
  change (at1 [a; b; c] 0) with a. change (at1 [a; b; c] 1) with b. change (at1 [a; b; c] 2) with c.
  rewrite tnorm3.
  destruct (Rlt_dec (norm 3 (vec3 a b c)) se3_eps); [|lra]. eexists. split; [reflexivity|].
  apply meq_twist_exp; apply madd_ext; try apply meq_refl; apply hat_skew.
Qed.

Lemma twist_ext3 v v' w : veq 3 v v' -> meq 4 4 (twist v w) (twist v' w).
Proof.
  intros H i j Hi Hj. unfold twist. destruct (Nat.ltb_spec i 3); [|reflexivity].
  destruct (Nat.ltb j 3); [reflexivity|apply H; assumption].
Qed.
Lemma at1_vec3 x y z : veq 3 (at1 [x; y; z]) (vec3 x y z).
Proof. intros i Hi. idx3 i Hi; reflexivity. Qed.

(* ------------------------------------------------------------------ C24 *)
Lemma p_so3_exp : forall a b c, se3_eps <= norm 3 (vec3 a b c) ->
  exists Q, so3_exp [a; b; c] = Ok Q /\ is_mexp 3 (skew (vec3 a b c)) Q /\ rotation3 Q /\
    veq 3 (mvec 3 Q (vec3 a b c)) (vec3 a b c).
Proof.
  intros a b c H. destruct (so3_exp_big a b c H) as (Q & HQ & E). exists Q. pose proof eps_pos.
  assert (Hn : norm 3 (vec3 a b c) <> 0) by lra.
  split; [exact HQ|]. split; [|split].
  - eapply mexp_ext; [apply meq_refl|apply meq_sym, E|]. apply skew_exp, Hn.
  - eapply rot_ext; [apply meq_sym, E|]. apply rodR_rot, Hn.
  - intros i Hi. rewrite (mvec_ext_mat 3 3 Q _ _ E i Hi). unfold rodR, mvec, madd, mscale, mmul, mI, delta, skew, vec3.
    cbn [rsum]. idx3 i Hi; cbn [Nat.eqb]; ring.
Qed.

Lemma twist_exp_rigid Q V v : rotation3 Q -> rigid4 (twist_exp Q V v).
Proof.
  intros H. split; [repeat split|]. eapply rot_ext; [|exact H]. intros i j Hi Hj. unfold rot_of, twist_exp.
  rewrite (proj2 (Nat.ltb_lt i 3) Hi), (proj2 (Nat.ltb_lt j 3) Hj). reflexivity.
Qed.

Lemma rigid4_ext A B : meq 4 4 A B -> rigid4 A -> rigid4 B.
Proof.
  intros H [(a & b & c & d) HR]. split.
  - repeat split; rewrite <- H by lia; assumption.
  - eapply rot_ext; [|exact HR]. intros i j Hi Hj. apply H; lia.
Qed.

Lemma rodV_id w : norm 3 w <> 0 -> meq 3 3 (mmul 3 (skew w) (rodV w)) (madd (rodR w) (mscale (-1) mI)).
Proof.
  intros H. assert (Hc : 1 - sq3 w * rodC (norm 3 w) = rodA (norm 3 w)).
  { rewrite <- norm3_sq. unfold rodA, rodC. field. exact H. }
  unfold sq3 in Hc. assert (E : rodA (norm 3 w) = 1 - (w 0%nat * w 0%nat + w 1%nat * w 1%nat + w 2%nat * w 2%nat) * rodC (norm 3 w)) by lra.
  intros i j Hi Hj. unfold rodR, rodV. rewrite E. unfold mmul, madd, mscale, skew, mI, delta.
  idx3 i Hi; idx3 j Hj; cbn [rsum Nat.eqb]; ring.
Qed.

Lemma p_se3_exp : forall x y z a b c, se3_eps <= norm 3 (vec3 a b c) ->
  exists T, se3_exp [x; y; z; a; b; c] = Ok T /\ is_mexp 4 (twist (vec3 x y z) (vec3 a b c)) T /\ rigid4 T /\
    (exists Q, so3_exp [a; b; c] = Ok Q /\ meq 3 3 (rot_of T) Q) /\
    exists V, veq 3 (tr_of T) (mvec 3 V (vec3 x y z)) /\
      meq 3 3 (mmul 3 (skew (vec3 a b c)) V) (madd (rot_of T) (mscale (-1) mI)).
Proof.
  intros x y z a b c H. destruct (se3_exp_big x y z a b c H) as (T & HT & E). exists T. pose proof eps_pos.
  assert (Hn : norm 3 (vec3 a b c) <> 0) by lra.
  assert (HR : meq 3 3 (rot_of T) (rodR (vec3 a b c))).
  { intros i j Hi Hj. unfold rot_of. rewrite E by lia. unfold twist_exp.
    rewrite (proj2 (Nat.ltb_lt i 3) Hi), (proj2 (Nat.ltb_lt j 3) Hj). reflexivity. }
  split; [exact HT|]. split; [|split; [|split]].
  - eapply mexp_ext; [apply twist_ext3, at1_vec3|apply meq_sym, E|].
    apply twist_is_exp; [apply skew_exp, Hn|apply skew_int, Hn].
  - eapply rigid4_ext; [apply meq_sym, E|]. apply twist_exp_rigid, rodR_rot, Hn.
  - destruct (so3_exp_big a b c H) as (Q & HQ & EQ). exists Q. split; [exact HQ|].
    eapply meq_trans; [exact HR|apply meq_sym, EQ].
  - exists (rodV (vec3 a b c)). split.
    + intros i Hi. unfold tr_of. rewrite E by lia. unfold twist_exp.
      rewrite (proj2 (Nat.ltb_lt i 3) Hi). change (Nat.ltb 3 3) with false. cbv iota.
      apply mvec_ext_v, at1_vec3.
    + eapply meq_trans; [apply rodV_id, Hn|]. apply madd_ext; [apply meq_sym, HR|apply meq_refl].
Qed.

(* one-parameter groups *)
Definition gR (w : vec) (s : R) : mat := let th := norm 3 w in
  madd (madd mI (mscale (sin (s * th) / th) (skew w))) (mscale ((1 - cos (s * th)) / th ^ 2) (mmul 3 (skew w) (skew w))).
Definition gV (w : vec) (s : R) : mat := let th := norm 3 w in
  madd (madd (mscale s mI) (mscale ((1 - cos (s * th)) / th ^ 2) (skew w)))
    (mscale ((s * th - sin (s * th)) / th ^ 3) (mmul 3 (skew w) (skew w))).

Lemma norm3_scale s a b c : norm 3 (vec3 (s * a) (s * b) (s * c)) = Rabs s * norm 3 (vec3 a b c).
Proof.
  rewrite <- norm_scale. unfold norm. f_equal.
Qed.

Lemma gR_rod s a b c : s <> 0 -> norm 3 (vec3 a b c) <> 0 ->
  meq 3 3 (rodR (vec3 (s * a) (s * b) (s * c))) (gR (vec3 a b c) s) /\
  meq 3 3 (mscale s (rodV (vec3 (s * a) (s * b) (s * c)))) (gV (vec3 a b c) s).
Proof.
  intros Hs Hn. unfold rodR, rodV, gR, gV. rewrite norm3_scale. set (th := norm 3 (vec3 a b c)) in *.
  assert (HA : rodA (Rabs s * th) * s = sin (s * th) / th).
  { unfold rodA, Rabs. destruct (Rcase_abs s).
    - replace (- s * th) with (- (s * th)) by ring. rewrite sin_neg. field. auto.
    - field. auto. }
  assert (HB : rodB (Rabs s * th) * s * s = (1 - cos (s * th)) / th ^ 2).
  { unfold rodB, Rabs. destruct (Rcase_abs s).
    - replace (- s * th) with (- (s * th)) by ring. rewrite cos_neg. field. auto.
    - field. auto. }
  assert (HC : rodC (Rabs s * th) * s * s * s = (s * th - sin (s * th)) / th ^ 3).
  { unfold rodC, Rabs. destruct (Rcase_abs s).
    - replace (- s * th) with (- (s * th)) by ring. rewrite sin_neg. field. auto.
    - field. auto. }
  cbv zeta. rewrite <- HA, <- HB, <- HC. unfold madd, mscale, mmul, skew, vec3, mI, delta.
  split; intros i j Hi Hj; idx3 i Hi; idx3 j Hj; cbn [rsum Nat.eqb]; ring.
Qed.

Lemma gR_add w s t : norm 3 w <> 0 -> meq 3 3 (gR w (s + t)) (mmul 3 (gR w s) (gR w t)) /\
  meq 3 3 (gV w (s + t)) (madd (mmul 3 (gR w s) (gV w t)) (gV w s)).
Proof.
  intros Hn. pose proof (norm3_sq w) as E. unfold sq3 in E. unfold gR, gV. set (th := norm 3 w) in *. cbv zeta.
  rewrite Rmult_plus_distr_r, sin_plus, cos_plus.
  set (s1 := sin (s * th)). set (c1 := cos (s * th)). set (s2 := sin (t * th)). set (c2 := cos (t * th)).
  set (a1 := s1 / th). set (b1 := (1 - c1) / th ^ 2). set (a2 := s2 / th). set (b2 := (1 - c2) / th ^ 2).
  set (d1 := (s * th - s1) / th ^ 3). set (d2 := (t * th - s2) / th ^ 3).
  assert (Ha : (s1 * c2 + c1 * s2) / th = a1 + a2 - th * th * (a1 * b2 + b1 * a2)).
  { unfold a1, a2, b1, b2. field. exact Hn. }
  assert (Hb : (1 - (c1 * c2 - s1 * s2)) / th ^ 2 = b1 + b2 + a1 * a2 - th * th * b1 * b2).
  { unfold a1, a2, b1, b2. field. exact Hn. }
  assert (Hd : (s * th + t * th - (s1 * c2 + c1 * s2)) / th ^ 3 = d1 + d2 + a1 * b2 + b1 * (t - th * th * d2)).
  { unfold a1, a2, b1, b2, d1, d2. field. exact Hn. }
  assert (Hb2 : (1 - (c1 * c2 - s1 * s2)) / th ^ 2 = b1 + b2 - th * th * b1 * b2 + a1 * (t - th * th * d2)).
  { unfold a1, a2, b1, b2, d1, d2. field. exact Hn. }
  split.
  - rewrite Ha, Hb, E. clearbody a1 a2 b1 b2. clear. intros i j Hi Hj.
    unfold madd, mscale, mmul, skew, mI, delta. idx3 i Hi; idx3 j Hj; cbn [rsum Nat.eqb]; ring.
  - rewrite Hd, Hb2, E. clearbody a1 a2 b1 b2 d1 d2. clear. intros i j Hi Hj.
    unfold madd, mscale, mmul, skew, mI, delta. idx3 i Hi; idx3 j Hj; cbn [rsum Nat.eqb]; ring.
Qed.

Lemma gR_0 w : norm 3 w <> 0 -> meq 3 3 (gR w 0) mI /\ meq 3 3 (gV w 0) (fun _ _ => 0).
Proof.
  intros H. unfold gR, gV, madd, mscale. rewrite Rmult_0_l, sin_0, cos_0.
  split; intros i j Hi Hj; field; exact H.
Qed.

Lemma p_so3_group : forall a b c s t,
  se3_eps <= Rabs s * norm 3 (vec3 a b c) -> se3_eps <= Rabs t * norm 3 (vec3 a b c) ->
  exists Qs Qt, so3_exp [s * a; s * b; s * c] = Ok Qs /\ so3_exp [t * a; t * b; t * c] = Ok Qt /\
    (se3_eps <= Rabs (s + t) * norm 3 (vec3 a b c) ->
      exists Qst, so3_exp [(s + t) * a; (s + t) * b; (s + t) * c] = Ok Qst /\ meq 3 3 Qst (mmul 3 Qs Qt)) /\
    (s + t = 0 -> inverse_of 3 Qs Qt).
Proof.
  intros a b c s t Hs Ht. pose proof eps_pos as He.
  assert (Hn : norm 3 (vec3 a b c) <> 0) by (intros C; rewrite C in *; lra).
  assert (Hs0 : s <> 0) by (intros C; rewrite C, Rabs_R0 in *; lra).
  assert (Ht0 : t <> 0) by (intros C; rewrite C, Rabs_R0 in *; lra).
  rewrite <- norm3_scale in Hs, Ht.
  destruct (so3_exp_big _ _ _ Hs) as (Qs & HQs & Es). destruct (so3_exp_big _ _ _ Ht) as (Qt & HQt & Et).
  exists Qs, Qt. split; [exact HQs|]. split; [exact HQt|].
  pose proof (meq_trans _ _ _ _ _ Es (proj1 (gR_rod s a b c Hs0 Hn))) as Fs.
  pose proof (meq_trans _ _ _ _ _ Et (proj1 (gR_rod t a b c Ht0 Hn))) as Ft.
  split.
  - intros Hst. assert (Hst0 : s + t <> 0) by (intros C; rewrite C, Rabs_R0 in *; lra).
    rewrite <- norm3_scale in Hst. destruct (so3_exp_big _ _ _ Hst) as (Qst & HQ & E).
    exists Qst. split; [exact HQ|]. eapply meq_trans; [exact E|].
    eapply meq_trans; [apply (gR_rod (s + t) a b c Hst0 Hn)|].
    eapply meq_trans; [apply (gR_add _ s t Hn)|]. apply mmul_ext; apply meq_sym; assumption.
  - intros H0. split; (eapply meq_trans; [apply mmul_ext; eassumption|]);
    (eapply meq_trans; [apply meq_sym, (gR_add (vec3 a b c)), Hn|]).
    + rewrite H0. apply gR_0, Hn.
    + rewrite Rplus_comm, H0. apply gR_0, Hn.
Qed.

(* se3: exp(s xi) = (gR s, gV s v) *)
Lemma mvec_mscale n c A v i : mvec n (mscale c A) v i = mvec n A (fun k => c * v k) i.
Proof. unfold mvec, mscale. apply rsum_ext. intros. ring. Qed.
Lemma mvec_madd n A B v i : mvec n (madd A B) v i = mvec n A v i + mvec n B v i.
Proof. unfold mvec, madd. rewrite <- rsum_plus. apply rsum_ext. intros. ring. Qed.

Lemma twist_exp_mul A B V W v i j : (i < 4)%nat -> (j < 4)%nat ->
  mmul 4 (twist_exp A V v) (twist_exp B W v) i j =
  twist_exp (mmul 3 A B) (madd (mmul 3 A W) V) v i j.
Proof.
  intros Hi Hj. unfold mmul at 1. change (rsum 4) with (fun g => rsum 3 g + g 3%nat). cbv beta.
  assert (H3 : twist_exp B W v 3%nat j = if Nat.eqb j 3 then 1 else 0) by reflexivity. rewrite H3.
  unfold twist_exp at 4.
  destruct (Nat.ltb_spec i 3) as [Hi'|Hi'].
  - assert (Ei : forall l, (l < 3)%nat -> twist_exp A V v i l = A i l).
    { intros l Hl. unfold twist_exp. rewrite (proj2 (Nat.ltb_lt i 3) Hi'), (proj2 (Nat.ltb_lt l 3) Hl). reflexivity. }
    assert (E3 : twist_exp A V v i 3%nat = mvec 3 V v i).
    { unfold twist_exp. rewrite (proj2 (Nat.ltb_lt i 3) Hi'). reflexivity. }
    rewrite E3. destruct (Nat.ltb_spec j 3) as [Hj'|Hj'].
    + destruct (Nat.eqb_spec j 3); [lia|]. rewrite Rmult_0_r, Rplus_0_r. unfold mmul. apply rsum_ext. intros l Hl.
      rewrite Ei by assumption. unfold twist_exp. rewrite (proj2 (Nat.ltb_lt l 3) Hl), (proj2 (Nat.ltb_lt j 3) Hj'). reflexivity.
    + assert (j = 3%nat) by lia. subst j. cbn [Nat.eqb]. rewrite Rmult_1_r, mvec_madd, mvec_mmul. f_equal.
      unfold mvec at 2. apply rsum_ext. intros l Hl. rewrite Ei by assumption. unfold twist_exp.
      rewrite (proj2 (Nat.ltb_lt l 3) Hl). reflexivity.
  - assert (i = 3%nat) by lia. subst i. cbn [rsum].
    change (twist_exp A V v 3%nat 0%nat) with 0. change (twist_exp A V v 3%nat 1%nat) with 0.
    change (twist_exp A V v 3%nat 2%nat) with 0. change (twist_exp A V v 3%nat 3%nat) with 1. ring.
Qed.

Lemma twist_exp_ext A A' V V' v : meq 3 3 A A' -> meq 3 3 V V' -> meq 4 4 (twist_exp A V v) (twist_exp A' V' v).
Proof. apply meq_twist_exp. Qed.

Lemma twist_exp_gen s x y z a b c : s <> 0 -> norm 3 (vec3 a b c) <> 0 ->
  meq 4 4 (twist_exp (rodR (vec3 (s * a) (s * b) (s * c))) (rodV (vec3 (s * a) (s * b) (s * c))) (at1 [s * x; s * y; s * z]))
    (twist_exp (gR (vec3 a b c) s) (gV (vec3 a b c) s) (vec3 x y z)).
Proof.
  intros Hs Hn. destruct (gR_rod s a b c Hs Hn) as [H1 H2]. intros i j Hi Hj. unfold twist_exp.
  destruct (Nat.ltb_spec i 3) as [Hi'|]; [|reflexivity]. destruct (Nat.ltb_spec j 3) as [Hj'|]; [apply H1; assumption|].
  rewrite <- (mvec_ext_mat 3 3 _ _ (vec3 x y z) H2 i Hi'). rewrite mvec_mscale. apply mvec_ext_v.
  intros k Hk. idx3 k Hk; reflexivity.
Qed.

Lemma p_se3_group : forall x y z a b c s t,
  se3_eps <= Rabs s * norm 3 (vec3 a b c) -> se3_eps <= Rabs t * norm 3 (vec3 a b c) ->
  exists Ts Tt, se3_exp [s * x; s * y; s * z; s * a; s * b; s * c] = Ok Ts /\
    se3_exp [t * x; t * y; t * z; t * a; t * b; t * c] = Ok Tt /\
    (se3_eps <= Rabs (s + t) * norm 3 (vec3 a b c) ->
      exists Tst, se3_exp [(s + t) * x; (s + t) * y; (s + t) * z; (s + t) * a; (s + t) * b; (s + t) * c] = Ok Tst /\
        meq 4 4 Tst (mmul 4 Ts Tt)) /\
    (s + t = 0 -> inverse_of 4 Ts Tt).
Proof.
  intros x y z a b c s t Hs Ht. pose proof eps_pos as He.
  assert (Hn : norm 3 (vec3 a b c) <> 0) by (intros C; rewrite C in *; lra).
  assert (Hs0 : s <> 0) by (intros C; rewrite C, Rabs_R0 in *; lra).
  assert (Ht0 : t <> 0) by (intros C; rewrite C, Rabs_R0 in *; lra).
  rewrite <- norm3_scale in Hs, Ht.
  destruct (se3_exp_big (s * x) (s * y) (s * z) _ _ _ Hs) as (Ts & HTs & Es).
  destruct (se3_exp_big (t * x) (t * y) (t * z) _ _ _ Ht) as (Tt & HTt & Et).
  exists Ts, Tt. split; [exact HTs|]. split; [exact HTt|].
  pose proof (meq_trans _ _ _ _ _ Es (twist_exp_gen s x y z a b c Hs0 Hn)) as Fs.
  pose proof (meq_trans _ _ _ _ _ Et (twist_exp_gen t x y z a b c Ht0 Hn)) as Ft.
  assert (Hadd : forall p q, meq 4 4 (twist_exp (gR (vec3 a b c) (p + q)) (gV (vec3 a b c) (p + q)) (vec3 x y z))
     (mmul 4 (twist_exp (gR (vec3 a b c) p) (gV (vec3 a b c) p) (vec3 x y z))
        (twist_exp (gR (vec3 a b c) q) (gV (vec3 a b c) q) (vec3 x y z)))).
  { intros p q i j Hi Hj. rewrite twist_exp_mul by assumption. destruct (gR_add (vec3 a b c) p q Hn) as [H1 H2].
    apply twist_exp_ext; assumption. }
  split.
  - intros Hst. assert (Hst0 : s + t <> 0) by (intros C; rewrite C, Rabs_R0 in *; lra).
    rewrite <- norm3_scale in Hst.
    destruct (se3_exp_big ((s + t) * x) ((s + t) * y) ((s + t) * z) _ _ _ Hst) as (Tst & HT & E).
    exists Tst. split; [exact HT|]. eapply meq_trans; [exact E|].
    eapply meq_trans; [apply (twist_exp_gen (s + t) x y z a b c Hst0 Hn)|].
    eapply meq_trans; [apply Hadd|]. apply mmul_ext; apply meq_sym; assumption.
  - intros H0.
    assert (HI : meq 4 4 (twist_exp (gR (vec3 a b c) 0) (gV (vec3 a b c) 0) (vec3 x y z)) mI).
    { destruct (gR_0 (vec3 a b c) Hn) as [H1 H2]. eapply meq_trans; [apply twist_exp_ext; eassumption|].
      intros i j Hi Hj. unfold twist_exp, mI, delta, mvec. cbn [rsum].
      destruct (Nat.ltb_spec i 3).
      - destruct (Nat.ltb_spec j 3); [reflexivity|]. destruct (Nat.eqb_spec i j); [lia|ring].
      - assert (i = 3%nat) by lia. subst. rewrite Nat.eqb_sym. reflexivity. }
    split; (eapply meq_trans; [apply mmul_ext; eassumption|]); (eapply meq_trans; [apply meq_sym, Hadd|]).
    + rewrite H0. exact HI.
    + rewrite Rplus_comm, H0. exact HI.
Qed.

(* ------------------------------------------------------------------ C25 *)
Lemma small_ortho w : orthogonal3 (madd mI (skew w)) -> sq3 w = 0.
Proof.
  intros [H _]. pose proof (H 0%nat 0%nat ltac:(lia) ltac:(lia)) as H0. pose proof (H 1%nat 1%nat ltac:(lia) ltac:(lia)) as H1.
  pose proof (H 2%nat 2%nat ltac:(lia) ltac:(lia)) as H2.
  unfold mmul, mtr, madd, mI, delta, skew in *. cbn [rsum Nat.eqb] in *. unfold sq3. lra.
Qed.
Lemma norm3_0 w : sq3 w = 0 -> norm 3 w = 0.
Proof. intros H. unfold norm. rewrite sq3_dot, H. apply sqrt_0. Qed.

Lemma p_small_not_rigid : forall x y z a b c, 0 < norm 3 (vec3 a b c) < se3_eps ->
  (exists Q, so3_exp [a; b; c] = Ok Q /\ ~ orthogonal3 Q /\ ~ is_mexp 3 (skew (vec3 a b c)) Q) /\
  exists T, se3_exp [x; y; z; a; b; c] = Ok T /\ ~ rigid4 T /\ ~ is_mexp 4 (twist (vec3 x y z) (vec3 a b c)) T.
Proof.
  intros x y z a b c [H0 H]. assert (Hn : norm 3 (vec3 a b c) <> 0) by lra.
  assert (Ho : ~ orthogonal3 (madd mI (skew (vec3 a b c)))).
  { intros C. apply small_ortho, norm3_0 in C. contradiction. }
  split.
  - destruct (so3_exp_small a b c H) as (Q & HQ & E). exists Q. split; [exact HQ|]. 
    assert (HO : ~ orthogonal3 Q) by (intros C; apply Ho; eapply orth_ext; [exact E|exact C]).
    split; [exact HO|]. intros C. apply HO. eapply orth_ext; [|apply rodR_rot, Hn].
    eapply mexp_unique; [apply skew_exp, Hn|exact C].
  - destruct (se3_exp_small x y z a b c H) as (T & HT & E). exists T. split; [exact HT|].
    assert (HO : ~ rigid4 T).
    { intros [_ [C _]]. apply Ho. eapply orth_ext; [|exact C]. intros i j Hi Hj. unfold rot_of. rewrite E by lia.
      unfold twist_exp. rewrite (proj2 (Nat.ltb_lt i 3) Hi), (proj2 (Nat.ltb_lt j 3) Hj). reflexivity. }
    split; [exact HO|]. intros C. apply HO. eapply rigid4_ext; [|apply (twist_exp_rigid (rodR (vec3 a b c)) (rodV (vec3 a b c)) (vec3 x y z)), rodR_rot, Hn].
    eapply mexp_unique; [|exact C]. apply twist_is_exp; [apply skew_exp, Hn|apply skew_int, Hn].
Qed.

(* bounds on the coefficients for small angles *)
Lemma sin_lo x : 0 <= x <= 1 -> x - x ^ 3 / 6 <= sin x.
Proof.
  intros H. assert (HP : 1 <= PI) by (pose proof PI2_1; lra).
  destruct (sin_bound x 0 ltac:(lra) ltac:(lra)) as [H1 _]. unfold sin_approx, sum_f_R0, sin_term in H1. cbn in H1. 
  eapply Rle_trans; [|exact H1]. apply Req_le. field.
Qed.
Lemma sin_hi x : 0 <= x <= 1 -> sin x <= x.
Proof.
  intros H. destruct (Req_EM_T x 0) as [->|]; [rewrite sin_0; lra|]. apply Rlt_le, sin_lt_x. lra.
Qed.
Lemma cos_lo x : 0 <= x <= 1 -> 1 - x ^ 2 / 2 <= cos x.
Proof.
  intros H. assert (HP : 1 < PI / 2) by exact PI2_1.
  destruct (cos_bound x 0 ltac:(lra) ltac:(lra)) as [H1 _]. unfold cos_approx, sum_f_R0, cos_term in H1. cbn in H1.
  eapply Rle_trans; [|exact H1]. apply Req_le. field.
Qed.

Lemma cos_hi x : 0 <= x <= 1 -> cos x <= 1 - x ^ 2 / 2 + x ^ 4 / 24.
Proof.
  intros H. assert (HP : 1 < PI / 2) by exact PI2_1.
  destruct (cos_bound x 0 ltac:(lra) ltac:(lra)) as [_ H1]. unfold cos_approx, sum_f_R0, cos_term in H1. cbn in H1.
  eapply Rle_trans; [exact H1|]. apply Req_le. field.
Qed.

Lemma rodA_bd x : 0 < x <= 1 -> 0 <= 1 - rodA x <= x * x / 6.
Proof.
  intros H. pose proof (sin_lo x ltac:(lra)). pose proof (sin_hi x ltac:(lra)). unfold rodA.
  assert (E : sin x / x * x = sin x) by (field; lra). set (q := sin x / x) in *. split; [nra|].
  apply (Rmult_le_reg_r x); [lra|]. replace (x * x / 6 * x) with (x ^ 3 / 6) by field. nra.
Qed.
Lemma rodB_bd x : 0 < x <= 1 -> 11 / 24 <= rodB x <= / 2.
Proof.
  intros H. pose proof (cos_lo x ltac:(lra)). pose proof (cos_hi x ltac:(lra)). unfold rodB.
  assert (E : (1 - cos x) / x ^ 2 * x ^ 2 = 1 - cos x) by (field; lra). set (q := (1 - cos x) / x ^ 2) in *.
  assert (0 < x ^ 2) by (apply pow_lt; lra). assert (x ^ 2 <= 1) by nra.
  replace (x ^ 4) with (x ^ 2 * x ^ 2) in * by ring. set (y := x ^ 2) in *. split; nra.
Qed.
Lemma rodC_bd x : 0 < x <= 1 -> 0 <= rodC x <= / 6.
Proof.
  intros H. pose proof (sin_lo x ltac:(lra)). pose proof (sin_hi x ltac:(lra)). unfold rodC.
  assert (E : (x - sin x) / x ^ 3 * x ^ 3 = x - sin x) by (field; lra). set (q := (x - sin x) / x ^ 3) in *.
  assert (0 < x ^ 3) by (apply pow_lt; lra). split; nra.
Qed.

Lemma skew_bd w i j : (i < 3)%nat -> (j < 3)%nat ->
  Rabs (skew w i j) <= norm 3 w /\ Rabs (mmul 3 (skew w) (skew w) i j) <= norm 3 w * norm 3 w.
Proof.
  intros Hi Hj. pose proof (norm3_sq w) as E. unfold sq3 in E. pose proof (sqrt_pos (dot 3 w w)) as Hp.
  fold (norm 3 w) in Hp. set (n := norm 3 w) in *. clearbody n.
  assert (Hk : forall k, (k < 3)%nat -> Rabs (w k) <= n).
  { intros k Hk. idx3 k Hk; apply Rabs_le; split; nra. }
  split.
  - unfold skew. idx3 i Hi; idx3 j Hj; rewrite ?Rabs_Ropp; try (apply Hk; lia); rewrite ?Rabs_R0; assumption.
  - unfold mmul, skew. idx3 i Hi; idx3 j Hj; cbn [rsum]; apply Rabs_le; split; nra.
Qed.

Lemma norm0_zero w : norm 3 w = 0 -> veq 3 w (fun _ => 0).
Proof.
  intros H. pose proof (norm3_sq w) as E. rewrite H in E. unfold sq3 in E.
  intros i Hi. idx3 i Hi; nra.
Qed.
Lemma skew_zero w : norm 3 w = 0 -> meq 3 3 (skew w) (fun _ _ => 0).
Proof.
  intros H i j Hi Hj. pose proof (norm0_zero w H) as Z. unfold skew.
  idx3 i Hi; idx3 j Hj; rewrite ?Z by lia; lra.
Qed.
Lemma skew_int0 w : norm 3 w = 0 -> forall i j, (i < 3)%nat -> (j < 3)%nat ->
  infinite_sum (fun k => / INR (fact (S k)) * mpow 3 (skew w) k i j) (mI i j).
Proof.
  intros H i j Hi Hj. apply is_shift. cbv beta. cbn [mpow fact INR]. cbn [Nat.add Nat.mul INR]. rewrite Rinv_1.
  replace (mI i j - 1 * mI i j) with 0 by ring.
  eapply is_ext; [|exact is_zero]. intros k. cbv beta. cbn [mpow]. unfold mmul.
  rewrite (rsum_ext 3 _ (fun _ => 0)); [rewrite rsum_0; ring|]. intros l Hl. rewrite (skew_zero w H l j Hl Hj). ring.
Qed.

Lemma Rabs_sum2 a b p q x y : Rabs a <= p -> Rabs b <= q -> 0 <= x -> 0 <= y -> Rabs (x * a + y * b) <= x * p + y * q.
Proof.
  intros Ha Hb Hx Hy. eapply Rle_trans; [apply Rabs_triang|]. rewrite !Rabs_mult, (Rabs_right x), (Rabs_right y) by lra.
  apply Rplus_le_compat; apply Rmult_le_compat_l; assumption.
Qed.

Lemma p_small_bound : forall x y z a b c, norm 3 (vec3 a b c) < se3_eps ->
  exists T E, se3_exp [x; y; z; a; b; c] = Ok T /\ affine4 T /\
    is_mexp 4 (twist (vec3 x y z) (vec3 a b c)) E /\ rigid4 E /\
    (let th := norm 3 (vec3 a b c) in
     det3 (rot_of T) = 1 + th * th /\
     (forall i j, (i < 3)%nat -> (j < 3)%nat -> Rabs (mmul 3 (mtr (rot_of T)) (rot_of T) i j - mI i j) <= th * th) /\
     (forall i j, (i < 3)%nat -> (j < 3)%nat -> Rabs (rot_of T i j - rot_of E i j) <= th * th) /\
     (forall i, (i < 3)%nat -> Rabs (tr_of T i - tr_of E i) <= th * (Rabs x + Rabs y + Rabs z)) /\
     (th = 0 -> meq 4 4 T E)).
Proof.
  intros x y z a b c H. destruct (se3_exp_small x y z a b c H) as (T & HT & ET).
  set (w := vec3 a b c) in *. pose proof (sqrt_pos (dot 3 w w)) as Hp. fold (norm 3 w) in Hp.
  assert (He1 : se3_eps <= 1) by (unfold se3_eps; lra).
  assert (HA : affine4 T) by (repeat split; rewrite ET by lia; reflexivity).
  assert (HR : meq 3 3 (rot_of T) (madd mI (skew w))).
  { intros i j Hi Hj. unfold rot_of. rewrite ET by lia. unfold twist_exp.
    rewrite (proj2 (Nat.ltb_lt i 3) Hi), (proj2 (Nat.ltb_lt j 3) Hj). reflexivity. }
  assert (Ht : forall i, (i < 3)%nat -> tr_of T i = mvec 3 (madd mI (skew w)) (vec3 x y z) i).
  { intros i Hi. unfold tr_of. rewrite ET by lia. unfold twist_exp. rewrite (proj2 (Nat.ltb_lt i 3) Hi).
    change (Nat.ltb 3 3) with false. cbv iota. apply mvec_ext_v, at1_vec3. }
  assert (Hdet : det3 (rot_of T) = 1 + norm 3 w * norm 3 w).
  { rewrite (det3_ext _ _ HR), norm3_sq. unfold det3, madd, mI, delta, skew, sq3. cbn [Nat.eqb]. ring. }
  assert (Horth : forall i j, (i < 3)%nat -> (j < 3)%nat -> Rabs (mmul 3 (mtr (rot_of T)) (rot_of T) i j - mI i j) <= norm 3 w * norm 3 w).
  { intros i j Hi Hj. rewrite (mmul_ext 3 _ _ _ _ (meq_tr 3 3 _ _ HR) HR i j Hi Hj).
    replace (mmul 3 (mtr (madd mI (skew w))) (madd mI (skew w)) i j - mI i j) with (- mmul 3 (skew w) (skew w) i j).
    2: { unfold mmul, mtr, madd, mI, delta, skew. idx3 i Hi; idx3 j Hj; cbn [rsum Nat.eqb]; ring. }
    rewrite Rabs_Ropp. apply skew_bd; assumption. }
  assert (Hrot : forall (Q V : mat) (v : vec) i j, (i < 3)%nat -> (j < 3)%nat -> rot_of (twist_exp Q V v) i j = Q i j).
  { intros Q V v i j Hi Hj. unfold rot_of, twist_exp. rewrite (proj2 (Nat.ltb_lt i 3) Hi), (proj2 (Nat.ltb_lt j 3) Hj). reflexivity. }
  assert (Htr : forall (Q V : mat) (v : vec) i, (i < 3)%nat -> tr_of (twist_exp Q V v) i = mvec 3 V v i).
  { intros Q V v i Hi. unfold tr_of, twist_exp. rewrite (proj2 (Nat.ltb_lt i 3) Hi). reflexivity. }
  destruct (Req_EM_T (norm 3 w) 0) as [Hn|Hn].
  - exists T, (twist_exp mI mI (vec3 x y z)). split; [exact HT|]. split; [exact HA|].
    assert (EE : meq 4 4 T (twist_exp mI mI (vec3 x y z))).
    { intros i j Hi Hj. rewrite ET by assumption. unfold twist_exp.
      destruct (Nat.ltb_spec i 3) as [Hi'|]; [|reflexivity]. destruct (Nat.ltb_spec j 3) as [Hj'|].
      - unfold madd. rewrite (skew_zero w Hn i j Hi' Hj'). ring.
      - rewrite (mvec_ext_v 3 _ _ _ i (at1_vec3 x y z)). apply (mvec_ext_mat 3 3); [|exact Hi'].
        intros i' j' A B. unfold madd. rewrite (skew_zero w Hn i' j' A B). ring. }
    split; [|split; [apply twist_exp_rigid, rot_I|]].
    { apply twist_is_exp; [apply mexp_zero, skew_zero, Hn|apply skew_int0, Hn]. }
    cbv zeta. split; [exact Hdet|]. split; [exact Horth|]. split; [|split].
    + intros i j Hi Hj. unfold rot_of. rewrite EE by lia. rewrite Rminus_diag_eq, Rabs_R0 by reflexivity. nra.
    + intros i Hi. unfold tr_of. rewrite EE by lia. rewrite Rminus_diag_eq, Rabs_R0 by reflexivity.
      rewrite Hn, Rmult_0_l. apply Rle_refl.
    + intros _. exact EE.
  - assert (Hpos : 0 < norm 3 w <= 1) by lra.
    exists T, (twist_exp (rodR w) (rodV w) (vec3 x y z)). split; [exact HT|]. split; [exact HA|].
    split; [|split; [apply twist_exp_rigid, rodR_rot, Hn|]].
    { apply twist_is_exp; [apply skew_exp, Hn|apply skew_int, Hn]. }
    cbv zeta. split; [exact Hdet|]. split; [exact Horth|].
    pose proof (rodA_bd _ Hpos) as BA. pose proof (rodB_bd _ Hpos) as BB. pose proof (rodC_bd _ Hpos) as BC.
    split; [|split; [|intros C; contradiction]].
    + intros i j Hi Hj. rewrite (HR i j Hi Hj), Hrot by assumption. destruct (skew_bd w i j Hi Hj) as [K1 K2].
      replace (madd mI (skew w) i j - rodR w i j) with ((1 - rodA (norm 3 w)) * skew w i j + rodB (norm 3 w) * - mmul 3 (skew w) (skew w) i j).
      2: { unfold rodR, madd, mscale. ring. }
      eapply Rle_trans; [apply Rabs_sum2; [exact K1|rewrite Rabs_Ropp; exact K2|lra|lra]|].
      set (n := norm 3 w) in *. assert (n * n * n <= n * n) by nra. nra.
    + intros i Hi. rewrite (Ht i Hi), Htr by assumption.
      set (D := fun i j => (1 - rodB (norm 3 w)) * skew w i j + rodC (norm 3 w) * - mmul 3 (skew w) (skew w) i j).
      assert (HD : forall j, (j < 3)%nat -> Rabs (D i j) <= norm 3 w).
      { intros j Hj. destruct (skew_bd w i j Hi Hj) as [K1 K2]. unfold D.
        eapply Rle_trans; [apply Rabs_sum2; [exact K1|rewrite Rabs_Ropp; exact K2|lra|lra]|].
        set (n := norm 3 w) in *. assert (n * n <= n) by nra. assert (rodC n * (n * n) <= / 6 * n) by nra. nra. }
      replace (mvec 3 (madd mI (skew w)) (vec3 x y z) i - mvec 3 (rodV w) (vec3 x y z) i) with (D i 0%nat * x + D i 1%nat * y + D i 2%nat * z).
      2: { unfold D, mvec, rodV, madd, mscale, vec3. cbn [rsum]. ring. }
      eapply Rle_trans; [apply Rabs_triang|]. eapply Rle_trans; [apply Rplus_le_compat_r, Rabs_triang|].
      rewrite !Rabs_mult. pose proof (HD 0%nat ltac:(lia)). pose proof (HD 1%nat ltac:(lia)). pose proof (HD 2%nat ltac:(lia)).
      pose proof (Rabs_pos x). pose proof (Rabs_pos y). pose proof (Rabs_pos z). nra.
Qed.

(* the hat operators build the matrices whose exponential the exp functions compute; too short vectors fail *)
Lemma p_hat : (forall a b c, exists M, so3_hat [a; b; c] = Ok M /\ meq 3 3 M (skew (vec3 a b c))) /\
  (forall x y z a b c, exists M, se3_hat [x; y; z; a; b; c] = Ok M /\ meq 4 4 M (twist (vec3 x y z) (vec3 a b c))) /\
  (forall w, (length w < 3)%nat -> so3_hat w = Err IndexError /\ so3_exp w = Err IndexError) /\
  (forall xi, (length xi < 6)%nat -> se3_hat xi = Err IndexError /\ se3_exp xi = Err IndexError).
Proof.
  split; [|split; [|split]].
  - intros a b c. eexists. split; [reflexivity|]. intros [|[|[|i]]] [|[|[|j]]] Hi Hj; try lia; reflexivity.
  - intros x y z a b c. eexists. split; [reflexivity|]. intros [|[|[|[|i]]]] [|[|[|[|j]]]] Hi Hj; try lia; reflexivity.
  - intros w Hw. unfold so3_exp, so3_hat. destruct (Nat.ltb_spec (length w) 3); [|lia]. split; reflexivity.
  - intros xi Hx. unfold se3_hat, se3_exp, so3_hat. rewrite skipn_length. destruct (Nat.ltb_spec (length xi - 3) 3); [|lia]. split; reflexivity.
Qed.
