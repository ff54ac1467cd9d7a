(* Power series facts and the closed form of the exponential of a skew matrix / twist. *)
From Coq Require Import Reals List Arith Bool Lia Lra.
From Verif Require Import Res MatSpec TensorModel TensorProofs Se3Model GeomSpec MatProofs QuatProofs.
Import ListNotations.
Local Open Scope R_scope.

(* ---------------------------------------------------------------- series *)
Lemma is_ext (f g : nat -> R) l : (forall k, f k = g k) -> infinite_sum f l -> infinite_sum g l.
Proof.
  intros E H eps He. destruct (H eps He) as [N HN]. exists N. intros n Hn. specialize (HN n Hn).
  rewrite <- (sum_eq f g n (fun i _ => E i)). exact HN.
Qed.

Lemma is_cv f l : infinite_sum f l <-> Un_cv (sum_f_R0 f) l.
Proof. split; intros H eps He; exact (H eps He). Qed.

Lemma is_scale c f l : infinite_sum f l -> infinite_sum (fun k => f k * c) (l * c).
Proof.
  rewrite !is_cv. intros H.
  assert (H1 : Un_cv (fun n => sum_f_R0 f n * c) (l * c)).
  { apply CV_mult; [exact H|]. intros eps He. exists 0%nat. intros. unfold R_dist. rewrite Rminus_diag_eq, Rabs_R0; auto. }
  intros eps He. destruct (H1 eps He) as [N HN]. exists N. intros n Hn. specialize (HN n Hn).
  replace (sum_f_R0 (fun k => f k * c) n) with (sum_f_R0 f n * c); [exact HN|].
  rewrite (Rmult_comm _ c), scal_sum. reflexivity.
Qed.

Lemma is_plus f g l m : infinite_sum f l -> infinite_sum g m -> infinite_sum (fun k => f k + g k) (l + m).
Proof.
  rewrite !is_cv. intros H H'. pose proof (CV_plus _ _ _ _ H H') as H1.
  intros eps He. destruct (H1 eps He) as [N HN]. exists N. intros n Hn. specialize (HN n Hn).
  rewrite sum_plus. exact HN.
Qed.

(* dropping / adding the first term *)
Lemma sum_shift f n : sum_f_R0 f (S n) = f 0%nat + sum_f_R0 (fun k => f (S k)) n.
Proof. induction n; [reflexivity|]. rewrite tech5, IHn. cbn [sum_f_R0]. ring. Qed.

Lemma is_shift f l : infinite_sum f l <-> infinite_sum (fun k => f (S k)) (l - f 0%nat).
Proof.
  split; intros H eps He; destruct (H eps He) as [N HN].
  - exists N. intros n Hn. specialize (HN (S n) ltac:(lia)). rewrite sum_shift in HN.
    unfold R_dist in *. replace (sum_f_R0 (fun k => f (S k)) n - (l - f 0%nat)) with (f 0%nat + sum_f_R0 (fun k => f (S k)) n - l) by ring. exact HN.
  - exists (S N). intros n Hn. destruct n as [|n]; [lia|]. specialize (HN n ltac:(lia)). rewrite sum_shift.
    unfold R_dist in *. replace (f 0%nat + sum_f_R0 (fun k => f (S k)) n - l) with (sum_f_R0 (fun k => f (S k)) n - (l - f 0%nat)) by ring. exact HN.
Qed.

(* interleaving of the even and the odd terms *)
Lemma sum_split f n : sum_f_R0 f (2 * n + 1) = sum_f_R0 (fun k => f (2 * k)%nat) n + sum_f_R0 (fun k => f (2 * k + 1)%nat) n.
Proof.
  induction n as [|n IH]; [reflexivity|].
  replace (2 * S n + 1)%nat with (S (S (2 * n + 1))) by lia. rewrite !tech5, IH.
  replace (S (2 * n + 1)) with (2 * S n)%nat by lia. replace (S (2 * S n)) with (2 * S n + 1)%nat by lia. ring.
Qed.
Lemma is_interleave f a b : infinite_sum (fun k => f (2 * k)%nat) a -> infinite_sum (fun k => f (2 * k + 1)%nat) b ->
  infinite_sum f (a + b).
Proof.
  intros Ha Hb eps He.
  destruct (Ha (eps / 2) ltac:(lra)) as [N1 H1]. destruct (Hb (eps / 2) ltac:(lra)) as [N2 H2].
  exists (2 * (N1 + N2) + 4)%nat. intros n Hn.
  destruct (Nat.Even_or_Odd n) as [[m Em]|[m Em]].
  - (* n = 2 m: drop the last odd term *)
    destruct m as [|m]; [lia|].
    assert (E : sum_f_R0 f n = sum_f_R0 (fun k => f (2 * k)%nat) (S m) + sum_f_R0 (fun k => f (2 * k + 1)%nat) m).
    { rewrite Em. replace (2 * S m)%nat with (S (2 * m + 1)) by lia. rewrite tech5, sum_split, tech5.
      replace (S (2 * m + 1)) with (2 * S m)%nat by lia. ring. }
    rewrite E. specialize (H1 (S m) ltac:(lia)). specialize (H2 m ltac:(lia)). unfold R_dist in *.
    replace (sum_f_R0 (fun k => f (2 * k)%nat) (S m) + sum_f_R0 (fun k => f (2 * k + 1)%nat) m - (a + b))
      with ((sum_f_R0 (fun k => f (2 * k)%nat) (S m) - a) + (sum_f_R0 (fun k => f (2 * k + 1)%nat) m - b)) by ring.
    eapply Rle_lt_trans; [apply Rabs_triang|]. lra.
  - rewrite Em, sum_split. specialize (H1 m ltac:(lia)). specialize (H2 m ltac:(lia)). unfold R_dist in *.
    replace (sum_f_R0 (fun k => f (2 * k)%nat) m + sum_f_R0 (fun k => f (2 * k + 1)%nat) m - (a + b))
      with ((sum_f_R0 (fun k => f (2 * k)%nat) m - a) + (sum_f_R0 (fun k => f (2 * k + 1)%nat) m - b)) by ring.
    eapply Rle_lt_trans; [apply Rabs_triang|]. lra.
Qed.

(* the three Rodrigues series *)
Lemma serA th : th <> 0 -> infinite_sum (fun m => / INR (fact (2 * m + 1)) * ((- (th * th)) ^ m)) (rodA th).
Proof.
  intros H. unfold rodA, sin. destruct (exist_sin (Rsqr th)) as [l Hl]. unfold sin_in in Hl.
  replace (th * l / th) with l by (field; exact H).
  eapply is_ext; [|exact Hl]. intros k. cbv beta. unfold sin_n.
  replace (- (th * th)) with (-1 * Rsqr th) by (unfold Rsqr; ring). rewrite Rpow_mult_distr. unfold Rdiv. ring.
Qed.
Lemma ser_cos th : infinite_sum (fun m => / INR (fact (2 * m)) * ((- (th * th)) ^ m)) (cos th).
Proof.
  unfold cos. destruct (exist_cos (Rsqr th)) as [l Hl]. unfold cos_in in Hl.
  eapply is_ext; [|exact Hl]. intros k. cbv beta. unfold cos_n.
  replace (- (th * th)) with (-1 * Rsqr th) by (unfold Rsqr; ring). rewrite Rpow_mult_distr. unfold Rdiv. ring.
Qed.
Lemma serB th : th <> 0 -> infinite_sum (fun m => / INR (fact (2 * m + 2)) * ((- (th * th)) ^ m)) (rodB th).
Proof.
  intros H. pose proof (proj1 (is_shift _ _) (ser_cos th)) as H1. cbv beta in H1.
  apply (is_scale (/ - (th * th))) in H1.
  replace ((cos th - / INR (fact (2 * 0)) * (- (th * th)) ^ 0) * / - (th * th)) with (rodB th) in H1.
  2: { unfold rodB. cbn. field. exact H. }
  eapply is_ext; [|exact H1]. intros k. cbv beta. replace (2 * S k)%nat with (2 * k + 2)%nat by lia.
  cbn [pow]. field. split; [apply INR_fact_neq_0|exact H].
Qed.
Lemma serC th : th <> 0 -> infinite_sum (fun m => / INR (fact (2 * m + 3)) * ((- (th * th)) ^ m)) (rodC th).
Proof.
  intros H. pose proof (proj1 (is_shift _ _) (serA th H)) as H1. cbv beta in H1.
  apply (is_scale (/ - (th * th))) in H1.
  replace ((rodA th - / INR (fact (2 * 0 + 1)) * (- (th * th)) ^ 0) * / - (th * th)) with (rodC th) in H1.
  2: { unfold rodC, rodA. cbn. field. exact H. }
  eapply is_ext; [|exact H1]. intros k. cbv beta. replace (2 * S k + 1)%nat with (2 * k + 3)%nat by lia.
  cbn [pow]. field. split; [apply INR_fact_neq_0|exact H].
Qed.

(* ---------------------------------------------------------------- powers of a skew matrix *)
Definition sq3 (w : vec) : R := w 0%nat * w 0%nat + w 1%nat * w 1%nat + w 2%nat * w 2%nat.
Lemma sq3_dot w : dot 3 w w = sq3 w. Proof. unfold dot, sq3. cbn [rsum]. ring. Qed.
Lemma sq3_pos w : 0 <= sq3 w. Proof. unfold sq3. nra. Qed.

Lemma skew_cube w : meq 3 3 (mmul 3 (mmul 3 (skew w) (skew w)) (skew w)) (mscale (- sq3 w) (skew w)).
Proof. intros i j Hi Hj. unfold mmul, mscale, skew, sq3. cbn [rsum]. idx3 i Hi; idx3 j Hj; ring. Qed.

Lemma mmul_scale_l n c A B i j : mmul n (mscale c A) B i j = c * mmul n A B i j.
Proof. unfold mmul, mscale. rewrite <- rsum_mult_l. apply rsum_ext. intros. ring. Qed.
Lemma mmul_scale_r n c A B i j : mmul n A (mscale c B) i j = c * mmul n A B i j.
Proof. unfold mmul, mscale. rewrite <- rsum_mult_l. apply rsum_ext. intros. ring. Qed.

Lemma mpow_ext n A B k : meq n n A B -> meq n n (mpow n A k) (mpow n B k).
Proof. intros H. induction k as [|k IH]; [apply meq_refl|]. cbn [mpow]. apply mmul_ext; assumption. Qed.

Lemma skew_pow w m :
  meq 3 3 (mpow 3 (skew w) (2 * m + 1)) (mscale ((- sq3 w) ^ m) (skew w)) /\
  meq 3 3 (mpow 3 (skew w) (2 * m + 2)) (mscale ((- sq3 w) ^ m) (mmul 3 (skew w) (skew w))).
Proof.
  induction m as [|m [IH1 IH2]].
  - split.
    + intros i j Hi Hj. change (2 * 0 + 1)%nat with 1%nat. cbn [mpow]. rewrite (mmul_I_l 3 (skew w) i j Hi Hj).
      unfold mscale. rewrite pow_O. ring.
    + change (2 * 0 + 2)%nat with 2%nat. cbn [mpow]. intros i j Hi Hj.
      rewrite (mmul_ext 3 _ (skew w) _ (skew w) (mmul_I_l 3 _) (meq_refl _ _ _) i j Hi Hj). unfold mscale. rewrite pow_O. ring.
  - assert (H1 : meq 3 3 (mpow 3 (skew w) (2 * S m + 1)) (mscale ((- sq3 w) ^ S m) (skew w))).
    { replace (2 * S m + 1)%nat with (S (2 * m + 2)) by lia. cbn [mpow]. intros i j Hi Hj.
      rewrite (mmul_ext 3 _ _ _ (skew w) IH2 (meq_refl _ _ _) i j Hi Hj).
      rewrite mmul_scale_l, (skew_cube w i j Hi Hj). unfold mscale. cbn [pow]. ring. }
    split; [exact H1|].
    replace (2 * S m + 2)%nat with (S (2 * S m + 1)) by lia. cbn [mpow]. intros i j Hi Hj.
    rewrite (mmul_ext 3 _ _ _ (skew w) H1 (meq_refl _ _ _) i j Hi Hj), mmul_scale_l. reflexivity.
Qed.

(* the closed forms *)
Definition rodR (w : vec) : mat := let th := norm 3 w in
  madd (madd mI (mscale (rodA th) (skew w))) (mscale (rodB th) (mmul 3 (skew w) (skew w))).
Definition rodV (w : vec) : mat := let th := norm 3 w in
  madd (madd mI (mscale (rodB th) (skew w))) (mscale (rodC th) (mmul 3 (skew w) (skew w))).

Lemma norm3_sq w : norm 3 w * norm 3 w = sq3 w.
Proof. unfold norm. rewrite sqrt_sqrt, sq3_dot; [reflexivity|]. rewrite sq3_dot. apply sq3_pos. Qed.

(* sum over k of 1/(k+d)! skew^k, d = 0 or 1 *)
Lemma ser_skew w d cO cE :
  infinite_sum (fun m => / INR (fact (2 * m + 1 + d)) * (- sq3 w) ^ m) cO ->
  infinite_sum (fun m => / INR (fact (2 * m + 2 + d)) * (- sq3 w) ^ m) cE ->
  forall i j, (i < 3)%nat -> (j < 3)%nat ->
  infinite_sum (fun k => / INR (fact (k + d)) * mpow 3 (skew w) k i j)
    (/ INR (fact d) * mI i j + cO * skew w i j + cE * mmul 3 (skew w) (skew w) i j).
Proof.
  intros HO HE i j Hi Hj.
  replace (/ INR (fact d) * mI i j + cO * skew w i j + cE * mmul 3 (skew w) (skew w) i j) with
    ((/ INR (fact d) * mI i j + cE * mmul 3 (skew w) (skew w) i j) + cO * skew w i j) by ring.
  apply is_interleave.
  - apply is_shift. cbv beta.
    change (mpow 3 (skew w) (2 * 0) i j) with (mI i j). change (2 * 0 + d)%nat with d.
    replace (/ INR (fact d) * mI i j + cE * mmul 3 (skew w) (skew w) i j - / INR (fact d) * mI i j)
      with (cE * mmul 3 (skew w) (skew w) i j) by ring.
    eapply is_ext; [|apply is_scale, HE]. intros k. cbv beta.
    replace (2 * S k)%nat with (2 * k + 2)%nat by lia.
    rewrite (proj2 (skew_pow w k) i j Hi Hj). unfold mscale. ring.
  - eapply is_ext; [|apply is_scale, HO]. intros k. cbv beta.
    rewrite (proj1 (skew_pow w k) i j Hi Hj). unfold mscale. ring.
Qed.

Lemma skew_exp w : norm 3 w <> 0 -> is_mexp 3 (skew w) (rodR w).
Proof.
  intros H i j Hi Hj.
  assert (H1 : infinite_sum (fun m => / INR (fact (2 * m + 1 + 0)) * (- sq3 w) ^ m) (rodA (norm 3 w))).
  { eapply is_ext; [|apply (serA _ H)]. intros k. cbv beta. rewrite norm3_sq, Nat.add_0_r. reflexivity. }
  assert (H2 : infinite_sum (fun m => / INR (fact (2 * m + 2 + 0)) * (- sq3 w) ^ m) (rodB (norm 3 w))).
  { eapply is_ext; [|apply (serB _ H)]. intros k. cbv beta. rewrite norm3_sq, Nat.add_0_r. reflexivity. }
  pose proof (ser_skew w 0 _ _ H1 H2 i j Hi Hj) as H3.
  replace (rodR w i j) with (/ INR (fact 0) * mI i j + rodA (norm 3 w) * skew w i j + rodB (norm 3 w) * mmul 3 (skew w) (skew w) i j).
  2: { unfold rodR, madd, mscale. cbn [fact INR]. rewrite Rinv_1. ring. }
  eapply is_ext; [|exact H3]. intros k. cbv beta. rewrite Nat.add_0_r. reflexivity.
Qed.

Lemma skew_int w : norm 3 w <> 0 -> forall i j, (i < 3)%nat -> (j < 3)%nat ->
  infinite_sum (fun k => / INR (fact (S k)) * mpow 3 (skew w) k i j) (rodV w i j).
Proof.
  intros H i j Hi Hj.
  assert (H1 : infinite_sum (fun m => / INR (fact (2 * m + 1 + 1)) * (- sq3 w) ^ m) (rodB (norm 3 w))).
  { eapply is_ext; [|apply (serB _ H)]. intros k. cbv beta. rewrite norm3_sq.
    replace (2 * k + 1 + 1)%nat with (2 * k + 2)%nat by lia. reflexivity. }
  assert (H2 : infinite_sum (fun m => / INR (fact (2 * m + 2 + 1)) * (- sq3 w) ^ m) (rodC (norm 3 w))).
  { eapply is_ext; [|apply (serC _ H)]. intros k. cbv beta. rewrite norm3_sq.
    replace (2 * k + 2 + 1)%nat with (2 * k + 3)%nat by lia. reflexivity. }
  pose proof (ser_skew w 1 _ _ H1 H2 i j Hi Hj) as H3.
  replace (rodV w i j) with (/ INR (fact 1) * mI i j + rodB (norm 3 w) * skew w i j + rodC (norm 3 w) * mmul 3 (skew w) (skew w) i j).
  2: { unfold rodV, madd, mscale. cbn [fact INR]. cbn. rewrite Rinv_1. ring. }
  eapply is_ext; [|exact H3]. intros k. cbv beta. rewrite Nat.add_1_r. reflexivity.
Qed.

Lemma is_zero : infinite_sum (fun _ => 0) 0.
Proof.
  intros eps He. exists 0%nat. intros n _. rewrite (sum_eq (fun _ => 0) (fun _ => 0 * 0) n) by (intros; ring).
  unfold R_dist. rewrite <- scal_sum, Rmult_0_l, Rminus_0_r, Rabs_R0. exact He.
Qed.

Lemma mexp_zero n A : meq n n A (fun _ _ => 0) -> is_mexp n A mI.
Proof.
  intros H i j Hi Hj. apply is_shift. cbv beta. cbn [mpow fact INR]. rewrite Rinv_1.
  replace (mI i j - 1 * mI i j) with 0 by ring.
  eapply is_ext; [|exact is_zero]. intros k. cbv beta. cbn [mpow]. unfold mmul.
  rewrite (rsum_ext n _ (fun _ => 0)); [rewrite rsum_0; ring|]. intros l Hl. rewrite (H l j Hl Hj). ring.
Qed.

Lemma mexp_unique n A E1 E2 : is_mexp n A E1 -> is_mexp n A E2 -> meq n n E1 E2.
Proof. intros H1 H2 i j Hi Hj. eapply uniqueness_sum; [apply H1|apply H2]; assumption. Qed.
Lemma mexp_ext n A B E F : meq n n A B -> meq n n E F -> is_mexp n A E -> is_mexp n B F.
Proof.
  intros HA HE H i j Hi Hj. rewrite <- (HE i j Hi Hj). eapply is_ext; [|apply (H i j Hi Hj)].
  intros k. cbv beta. rewrite (mpow_ext n A B k HA i j Hi Hj). reflexivity.
Qed.

(* ---------------------------------------------------------------- twists *)
Lemma twist_pow v w k : forall i j, (i < 4)%nat -> (j < 4)%nat ->
  mpow 4 (twist v w) (S k) i j =
    if Nat.ltb i 3 then (if Nat.ltb j 3 then mpow 3 (skew w) (S k) i j else mvec 3 (mpow 3 (skew w) k) v i) else 0.
Proof.
  induction k as [|k IH]; intros i j Hi Hj.
  - cbn [mpow]. rewrite (mmul_I_l 4 (twist v w) i j Hi Hj). unfold twist.
    destruct (Nat.ltb_spec i 3) as [H|H]; [|reflexivity]. destruct (Nat.ltb_spec j 3) as [H'|H'].
    + rewrite (mmul_I_l 3 (skew w) i j H H'). reflexivity.
    + rewrite (mvec_I 3 v i H). reflexivity.
  - change (mpow 4 (twist v w) (S (S k))) with (mmul 4 (mpow 4 (twist v w) (S k)) (twist v w)).
    unfold mmul at 1.
    rewrite (rsum_ext 4 _ (fun l => (if Nat.ltb i 3 then (if Nat.ltb l 3 then mpow 3 (skew w) (S k) i l else mvec 3 (mpow 3 (skew w) k) v i) else 0) * twist v w l j)).
    2: { intros l Hl. rewrite IH by assumption. reflexivity. }
    destruct (Nat.ltb_spec i 3) as [H|H].
    2: { rewrite (rsum_ext 4 _ (fun _ => 0)); [apply rsum_0|]. intros; ring. }
    change (rsum 4) with (fun g => rsum 3 g + g 3%nat). cbv beta. unfold twist at 2. change (Nat.ltb 3 3) with false. cbv iota.
    rewrite Rmult_0_r, Rplus_0_r.
    destruct (Nat.ltb_spec j 3) as [H'|H'].
    + change (mpow 3 (skew w) (S (S k)) i j) with (rsum 3 (fun l => mpow 3 (skew w) (S k) i l * skew w l j)).
      apply rsum_ext. intros l Hl. unfold twist. rewrite (proj2 (Nat.ltb_lt l 3) Hl), (proj2 (Nat.ltb_lt j 3) H'). reflexivity.
    + unfold mvec. apply rsum_ext. intros l Hl. unfold twist.
      rewrite (proj2 (Nat.ltb_lt l 3) Hl), (proj2 (Nat.ltb_ge j 3) H'). reflexivity.
Qed.

Definition twist_exp (Rm V : mat) (v : vec) : mat := fun i j =>
  if Nat.ltb i 3 then (if Nat.ltb j 3 then Rm i j else mvec 3 V v i) else if Nat.eqb j 3 then 1 else 0.

Lemma twist_is_exp v w Rm V : is_mexp 3 (skew w) Rm ->
  (forall i j, (i < 3)%nat -> (j < 3)%nat -> infinite_sum (fun k => / INR (fact (S k)) * mpow 3 (skew w) k i j) (V i j)) ->
  is_mexp 4 (twist v w) (twist_exp Rm V v).
Proof.
  intros HR HV i j Hi Hj. unfold twist_exp. apply is_shift. cbv beta.
  cbn [fact INR mpow]. rewrite Rinv_1, Rmult_1_l.
  destruct (Nat.ltb_spec i 3) as [H|H].
  - destruct (Nat.ltb_spec j 3) as [H'|H'].
    + pose proof (proj1 (is_shift _ _) (HR i j H H')) as H1. cbv beta in H1. cbn [fact INR mpow] in H1.
      rewrite Rinv_1, Rmult_1_l in H1. eapply is_ext; [|exact H1]. intros k. cbv beta. f_equal.
      pose proof (twist_pow v w k i j Hi Hj) as E. cbn [mpow] in E. rewrite E.
      rewrite (proj2 (Nat.ltb_lt i 3) H), (proj2 (Nat.ltb_lt j 3) H'). reflexivity.
    + replace (mvec 3 V v i - mI i j) with (mvec 3 V v i).
      2: { unfold mI, delta. destruct (Nat.eqb_spec i j); [lia|ring]. }
      assert (H1 : infinite_sum (fun k => / INR (fact (S k)) * mvec 3 (mpow 3 (skew w) k) v i) (mvec 3 V v i)).
      { unfold mvec at 2. cbn [rsum].
        eapply is_ext.
        2: { apply is_plus; [apply is_plus; [apply is_plus; [exact is_zero|]|]|].
             - apply (is_scale (v 0%nat)). apply (HV i 0%nat H ltac:(lia)).
             - apply (is_scale (v 1%nat)). apply (HV i 1%nat H ltac:(lia)).
             - apply (is_scale (v 2%nat)). apply (HV i 2%nat H ltac:(lia)). }
        intros k. cbv beta. unfold mvec. cbn [rsum]. ring. }
      eapply is_ext; [|exact H1]. intros k. cbv beta. f_equal.
      pose proof (twist_pow v w k i j Hi Hj) as E. cbn [mpow] in E. rewrite E.
      rewrite (proj2 (Nat.ltb_lt i 3) H), (proj2 (Nat.ltb_ge j 3) H'). reflexivity.
  - replace ((if Nat.eqb j 3 then 1 else 0) - mI i j) with 0.
    2: { unfold mI, delta. assert (i = 3%nat) by lia. subst i. rewrite (Nat.eqb_sym 3 j). ring. }
    eapply is_ext; [|exact is_zero]. intros k. cbv beta.
    pose proof (twist_pow v w k i j Hi Hj) as E. cbn [mpow] in E. rewrite E.
    rewrite (proj2 (Nat.ltb_ge i 3) H). ring.
Qed.

(* ---------------------------------------------------------------- algebra of the closed form *)
Lemma rodrigues_rot w a b : 2 * b = sq3 w * b * b + a * a -> 
  rotation3 (madd (madd mI (mscale a (skew w))) (mscale b (mmul 3 (skew w) (skew w)))).
Proof.
  intros H. unfold sq3 in H.
  assert (E : a * a = 2 * b - (w 0%nat * w 0%nat + w 1%nat * w 1%nat + w 2%nat * w 2%nat) * b * b) by lra.
  split; [split|].
  - intros i j Hi Hj. idx3 i Hi; idx3 j Hj; unfold mmul, mtr, madd, mscale, skew, mI, delta; cbn [rsum Nat.eqb]; ring [E].
  - intros i j Hi Hj. idx3 i Hi; idx3 j Hj; unfold mmul, mtr, madd, mscale, skew, mI, delta; cbn [rsum Nat.eqb]; ring [E].
  - unfold det3, mmul, madd, mscale, skew, mI, delta; cbn [rsum Nat.eqb]. ring [E].
Qed.

Lemma rod_id th : th <> 0 -> 2 * rodB th = th * th * rodB th * rodB th + rodA th * rodA th.
Proof.
  intros H. unfold rodA, rodB. pose proof (sin2_cos2 th) as E. unfold Rsqr in E.
  apply (Rmult_eq_reg_r (th * th)); [|nra].
  replace (2 * ((1 - cos th) / th ^ 2) * (th * th)) with (2 * (1 - cos th)) by (field; exact H).
  replace ((th * th * ((1 - cos th) / th ^ 2) * ((1 - cos th) / th ^ 2) + sin th / th * (sin th / th)) * (th * th))
    with ((1 - cos th) * (1 - cos th) + sin th * sin th) by (field; exact H).
  nra.
Qed.

Lemma rodR_rot w : norm 3 w <> 0 -> rotation3 (rodR w).
Proof. intros H. apply rodrigues_rot. rewrite <- norm3_sq. apply rod_id, H. Qed.
