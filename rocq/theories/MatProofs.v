(* Elementary matrix lemmas. *)
From Coq Require Import Reals List Arith Lia Lra.
From Verif Require Import MatSpec TensorProofs.
Import ListNotations.
Local Open Scope R_scope.

Lemma rsum_0 n : rsum n (fun _ => 0) = 0.
Proof. induction n as [|n IH]; cbn; [reflexivity|rewrite IH; ring]. Qed.
Lemma rsum_plus n f g : rsum n (fun k => f k + g k) = rsum n f + rsum n g.
Proof. induction n as [|n IH]; cbn; [ring|rewrite IH; ring]. Qed.
Lemma rsum_mult_l n c f : rsum n (fun k => c * f k) = c * rsum n f.
Proof. induction n as [|n IH]; cbn; [ring|rewrite IH; ring]. Qed.
Lemma rsum_mult_r n c f : rsum n (fun k => f k * c) = rsum n f * c.
Proof. induction n as [|n IH]; cbn; [ring|rewrite IH; ring]. Qed.
Lemma rsum_swap n m f : rsum n (fun i => rsum m (fun j => f i j)) = rsum m (fun j => rsum n (fun i => f i j)).
Proof.
  induction n as [|n IH]; cbn [rsum]; [rewrite rsum_0; reflexivity|].
  rewrite IH, <- rsum_plus. reflexivity.
Qed.
Lemma rsum_delta_l n i f : (i < n)%nat -> rsum n (fun k => delta i k * f k) = f i.
Proof.
  induction n as [|n IH]; intros H; [lia|]. cbn [rsum]. unfold delta at 2.
  destruct (Nat.eqb_spec i n) as [->|Hne].
  - rewrite (rsum_ext n _ (fun _ => 0)); [rewrite rsum_0; ring|].
    intros k Hk. unfold delta. destruct (Nat.eqb_spec n k); [lia|ring].
  - rewrite IH by lia. ring.
Qed.
Lemma rsum_delta_r n i f : (i < n)%nat -> rsum n (fun k => f k * delta k i) = f i.
Proof.
  intros H. rewrite <- (rsum_delta_l n i f H). apply rsum_ext. intros k _. unfold delta.
  rewrite Nat.eqb_sym. ring.
Qed.
Lemma rsum_nonneg n f : (forall k, (k < n)%nat -> 0 <= f k) -> 0 <= rsum n f.
Proof. induction n as [|n IH]; cbn; intros H; [lra|]. specialize (H n ltac:(lia)) as H1. assert (0 <= rsum n f) by (apply IH; intros; apply H; lia). lra. Qed.

Lemma meq_refl n m A : meq n m A A. Proof. intros i j _ _. reflexivity. Qed.
Lemma meq_sym n m A B : meq n m A B -> meq n m B A.
Proof. intros H i j Hi Hj. symmetry. auto. Qed.
Lemma meq_trans n m A B C : meq n m A B -> meq n m B C -> meq n m A C.
Proof. intros H1 H2 i j Hi Hj. rewrite H1, H2 by auto. reflexivity. Qed.
Lemma meq_tr n m A B : meq n m A B -> meq m n (mtr A) (mtr B).
Proof. intros H i j Hi Hj. apply H; auto. Qed.

Lemma mmul_ext n A A' B B' : meq n n A A' -> meq n n B B' -> meq n n (mmul n A B) (mmul n A' B').
Proof. intros HA HB i j Hi Hj. apply rsum_ext. intros k Hk. rewrite HA, HB by auto. reflexivity. Qed.
Lemma mmul_assoc n A B C i j : mmul n (mmul n A B) C i j = mmul n A (mmul n B C) i j.
Proof.
  unfold mmul.
  transitivity (rsum n (fun k => rsum n (fun l => A i l * B l k * C k j))).
  { apply rsum_ext. intros k _. rewrite <- rsum_mult_r. reflexivity. }
  rewrite rsum_swap. apply rsum_ext. intros l _. rewrite <- rsum_mult_l. apply rsum_ext. intros; ring.
Qed.
Lemma mmul_I_l n A : meq n n (mmul n mI A) A.
Proof. intros i j Hi Hj. unfold mmul, mI. exact (rsum_delta_l n i (fun k => A k j) Hi). Qed.
Lemma mmul_I_r n A : meq n n (mmul n A mI) A.
Proof. intros i j Hi Hj. unfold mmul, mI. exact (rsum_delta_r n j (fun k => A i k) Hj). Qed.
Lemma mtr_mmul n A B i j : mtr (mmul n A B) i j = mmul n (mtr B) (mtr A) i j.
Proof. unfold mtr, mmul. apply rsum_ext. intros; ring. Qed.
Lemma mvec_mmul n A B v i : mvec n (mmul n A B) v i = mvec n A (mvec n B v) i.
Proof.
  unfold mvec, mmul.
  transitivity (rsum n (fun k => rsum n (fun l => A i l * B l k * v k))).
  { apply rsum_ext. intros k _. rewrite <- rsum_mult_r. reflexivity. }
  rewrite rsum_swap. apply rsum_ext. intros l _. rewrite <- rsum_mult_l. apply rsum_ext. intros; ring.
Qed.
Lemma mvec_ext_v n A u v i : veq n u v -> mvec n A u i = mvec n A v i.
Proof. intros H. apply rsum_ext. intros k Hk. rewrite H by exact Hk. reflexivity. Qed.
Lemma mvec_ext_mat n m A B v : meq m n A B -> veq m (mvec n A v) (mvec n B v).
Proof. intros H i Hi. apply rsum_ext. intros k Hk. rewrite H by auto. reflexivity. Qed.
Lemma mvec_plus n A u v i : mvec n A (fun k => u k + v k) i = mvec n A u i + mvec n A v i.
Proof. unfold mvec. rewrite <- rsum_plus. apply rsum_ext. intros; ring. Qed.
Lemma mvec_opp n A v i : mvec n A (fun k => - v k) i = - mvec n A v i.
Proof. unfold mvec. transitivity (-1 * rsum n (fun k => A i k * v k)); [|ring]. rewrite <- rsum_mult_l. apply rsum_ext. intros; ring. Qed.
Lemma mvec_I n v : veq n (mvec n mI v) v.
Proof. intros i Hi. unfold mvec, mI. exact (rsum_delta_l n i v Hi). Qed.
Lemma mvec_scale_r n A v c i : mvec n A (fun k => c * v k) i = c * mvec n A v i.
Proof. unfold mvec. rewrite <- rsum_mult_l. apply rsum_ext. intros; ring. Qed.

(* adjointness: <A u, v> = <u, A^T v> *)
Lemma dot_mvec n A u v : dot n (mvec n A u) v = dot n u (mvec n (mtr A) v).
Proof.
  unfold dot, mvec, mtr.
  transitivity (rsum n (fun i => rsum n (fun k => A i k * u k * v i))).
  { apply rsum_ext. intros i _. rewrite <- rsum_mult_r. reflexivity. }
  rewrite rsum_swap. apply rsum_ext. intros k _. rewrite <- rsum_mult_l. apply rsum_ext. intros; ring.
Qed.
Lemma dot_ext n u u' v v' : veq n u u' -> veq n v v' -> dot n u v = dot n u' v'.
Proof. intros H1 H2. apply rsum_ext. intros k Hk. rewrite H1, H2 by exact Hk. reflexivity. Qed.

Lemma orth_dot Q u v : meq 3 3 (mmul 3 (mtr Q) Q) mI -> dot 3 (mvec 3 Q u) (mvec 3 Q v) = dot 3 u v.
Proof.
  intros H. rewrite dot_mvec. apply dot_ext; [intros i _; reflexivity|].
  intros i Hi. rewrite <- mvec_mmul. rewrite (mvec_ext_mat 3 3 _ _ v H i Hi). apply mvec_I, Hi.
Qed.

Lemma dist2_dot n u v : dist2 n u v = dot n (fun k => u k - v k) (fun k => u k - v k).
Proof. reflexivity. Qed.
Lemma mvec_minus n A u v i : mvec n A (fun k => u k - v k) i = mvec n A u i - mvec n A v i.
Proof. unfold mvec. unfold Rminus. rewrite <- Rmult_1_l, Rmult_1_l. rewrite (rsum_ext n _ (fun k => A i k * u k + -1 * (A i k * v k))) by (intros; ring). rewrite rsum_plus, rsum_mult_l. ring. Qed.
Lemma orth_dist Q t p q : meq 3 3 (mmul 3 (mtr Q) Q) mI ->
  dist2 3 (fun i => mvec 3 Q p i + t i) (fun i => mvec 3 Q q i + t i) = dist2 3 p q.
Proof.
  intros H. rewrite !dist2_dot. rewrite <- (orth_dot Q (fun k => p k - q k) (fun k => p k - q k) H). apply dot_ext; intros i Hi;
  rewrite mvec_minus; ring.
Qed.

Lemma orth_mul A B : orthogonal3 A -> orthogonal3 B -> orthogonal3 (mmul 3 A B).
Proof.
  intros [A1 A2] [B1 B2]. split; intros i j Hi Hj.
  - transitivity (mmul 3 (mmul 3 (mtr B) (mtr A)) (mmul 3 A B) i j).
    { apply rsum_ext. intros k _. rewrite mtr_mmul. reflexivity. }
    rewrite mmul_assoc. transitivity (mmul 3 (mtr B) B i j); [|apply B1; auto].
    apply mmul_ext; auto; [apply meq_refl|]. intros a b Ha Hb.
    rewrite <- mmul_assoc. transitivity (mmul 3 mI B a b); [|apply mmul_I_l; auto].
    apply mmul_ext; auto. apply meq_refl.
  - transitivity (mmul 3 (mmul 3 A B) (mmul 3 (mtr B) (mtr A)) i j).
    { apply rsum_ext. intros k _. rewrite mtr_mmul. reflexivity. }
    rewrite mmul_assoc. transitivity (mmul 3 A (mtr A) i j); [|apply A2; auto].
    apply mmul_ext; auto; [apply meq_refl|]. intros a b Ha Hb.
    rewrite <- mmul_assoc. transitivity (mmul 3 mI (mtr A) a b); [|apply mmul_I_l; auto].
    apply mmul_ext; auto. apply meq_refl.
Qed.
Lemma orth_tr A : orthogonal3 A -> orthogonal3 (mtr A).
Proof. intros [H1 H2]. split; assumption. Qed.
Lemma det3_tr A : det3 (mtr A) = det3 A.
Proof. unfold det3, mtr. ring. Qed.
Lemma det3_mul A B : det3 (mmul 3 A B) = det3 A * det3 B.
Proof. unfold det3, mmul. cbn [rsum]. ring. Qed.
Lemma det3_ext A B : meq 3 3 A B -> det3 A = det3 B.
Proof. intros H. unfold det3. rewrite !H by lia. reflexivity. Qed.
Lemma orth_ext A B : meq 3 3 A B -> orthogonal3 A -> orthogonal3 B.
Proof.
  intros H [H1 H2]. split.
  - eapply meq_trans; [|exact H1]. apply mmul_ext; [apply meq_tr|]; apply meq_sym; exact H.
  - eapply meq_trans; [|exact H2]. apply mmul_ext; [|apply meq_tr]; apply meq_sym; exact H.
Qed.
Lemma rot_ext A B : meq 3 3 A B -> rotation3 A -> rotation3 B.
Proof. intros H [H1 H2]. split; [eapply orth_ext; eauto|]. rewrite <- (det3_ext _ _ H). exact H2. Qed.
Lemma rot_mul A B : rotation3 A -> rotation3 B -> rotation3 (mmul 3 A B).
Proof. intros [A1 A2] [B1 B2]. split; [apply orth_mul; auto|]. rewrite det3_mul, A2, B2. ring. Qed.
Lemma rot_tr A : rotation3 A -> rotation3 (mtr A).
Proof. intros [H1 H2]. split; [apply orth_tr; auto|]. rewrite det3_tr. exact H2. Qed.
Lemma rot_I : rotation3 mI.
Proof.
  split; [split|]; [| |unfold det3, mI, delta; cbn; ring];
  intros i j Hi Hj; destruct i as [|[|[|i]]]; try lia; destruct j as [|[|[|j]]]; try lia; cbn; ring.
Qed.
