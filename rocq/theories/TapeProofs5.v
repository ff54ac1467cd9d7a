(* The formulas of gradslam, continued. *)
From Coq Require Import Reals List Arith Bool Lia Lra.
From Verif Require Import MatSpec GeomModel ProjModel FusionModel IcpModel Se3Model TapeModel TapeSpec TapeForms GradSpec GradProofs
  TapeProofs TapeProofs2 TapeProofs3 TapeProofs4.
Import ListNotations.
Local Open Scope R_scope.

(* ---------------------------------------------------------------- lengths *)
Lemma norm_rsq n e : norm n (rget e) = sqrt (rsq (rget e) (seq 0 n)).
Proof.
  unfold norm, dot. f_equal. induction n as [|n IH]; [reflexivity|]. rewrite seq_S. cbn [rsum].
  assert (A : forall l k, rsq (rget e) (l ++ [k]) = rsq (rget e) l + rget e k * rget e k).
  { induction l as [|a l H]; intros k; [cbn; ring|]. change (rget e a * rget e a + rsq (rget e) (l ++ [k]) = rget e a * rget e a + rsq (rget e) l + rget e k * rget e k). rewrite H. ring. }
  rewrite A, IH. reflexivity.
Qed.
Lemma length3 e : length_of 3 e = sqrt (rsq (rget e) [0; 1; 2]%nat).
Proof. apply norm_rsq. Qed.
Lemma length4 e : length_of 4 e = sqrt (rsq (rget e) [0; 1; 2; 3]%nat).
Proof. apply norm_rsq. Qed.
Lemma norm_nz n e : norm n (rget e) <> 0 -> exists i, In i (seq 0 n) /\ rget e i <> 0.
Proof.
  intros H. destruct (Exists_dec (fun i => rget e i <> 0) (seq 0 n)) as [X|X]; [intros i; destruct (Req_EM_T (rget e i) 0); [now right; intros []|now left]|now apply Exists_exists|].
  exfalso. apply H. rewrite norm_rsq. replace (rsq (rget e) (seq 0 n)) with 0; [apply sqrt_0|]. symmetry.
  assert (Z : forall l, (forall i, In i l -> rget e i = 0) -> rsq (rget e) l = 0).
  { induction l as [|a l IHl]; intros A; [reflexivity|]. change (rget e a * rget e a + rsq (rget e) l = 0). rewrite (A a (or_introl eq_refl)), IHl; [ring|]. intros i Hi. apply A. now right. }
  apply Z. intros i Hi. destruct (Req_EM_T (rget e i) 0) as [E|N]; [exact E|]. exfalso. apply X. apply Exists_exists. now exists i.
Qed.
(* ---------------------------------------------------------------- normals *)
Section Normal.
  Variables (j : nat) (a b c : R).
  Hypothesis Hj : (j < 3)%nat.
  Lemma t_normal_tame : tame (t_normal j) [a; b; c].
  Proof.
    apply tame_r. unfold t_normal. destruct j as [|[|[|]]]; [| | |lia]; run;
    (unfold zero; destruct (Req_EM_T _ 0) as [E|N]; cbn; repeat split; lra || assumption).
  Qed.
  Lemma t_normal_value : last (rfwd (t_normal j) [a; b; c]) 0 = f_normal j [a; b; c].
  Proof.
    unfold t_normal, f_normal. rewrite length3. destruct j as [|[|[|]]]; [| | |lia]; run;
    (unfold zero; destruct (Req_EM_T _ 0) as [E|N]; cbn; reflexivity).
  Qed.
  Lemma t_normal_smooth : length_of 3 [a; b; c] <> 0 -> smooth (t_normal j) [a; b; c].
  Proof.
    intros N. pose proof (norm_nz 3 _ N) as X. rewrite length3 in N. cbn [seq] in X. unfold rget in X. cbn [nth] in X.
    apply smooth_r. unfold t_normal. run. rewrite (zero_false _ N). cbn [nth]. repeat split; try exact X; try exact N.
  Qed.
End Normal.
Lemma v_normal j a b c : (j < 3)%nat -> xout (t_normal j) (reals [a; b; c]) = Fin (f_normal j [a; b; c]).
Proof. intros H. apply value_of; [now apply t_normal_tame|now apply t_normal_value]. Qed.
Lemma g_normal j a b c : (j < 3)%nat -> Forall is_real (grads (t_normal j) [a; b; c]).
Proof. intros H. now apply p_tame, t_normal_tame. Qed.
Lemma d_normal j a b c : (j < 3)%nat -> length_of 3 [a; b; c] <> 0 -> right_gradient (t_normal j) (f_normal j) [a; b; c].
Proof. intros H N. apply right_of; [discriminate|now apply t_normal_smooth|]. env3 E. intros _. now apply t_normal_value. Qed.
(* ---------------------------------------------------------------- quaternions *)
Lemma rclamp_lo lo r : rclamp (Some lo) None r = Rmax r lo.
Proof. unfold rclamp, xclamp, Rmax. cbn. destruct (Rlt_dec r lo), (Rle_dec r lo); cbn; lra. Qed.
Section Quat.
  Variables (eps : R) (j : nat) (a b c d : R).
  Hypotheses (Hj : (j < 4)%nat) (He : 0 < eps).
  Lemma t_normalize_tame : tame (t_normalize eps j) [a; b; c; d].
  Proof.
    apply tame_r. unfold t_normalize. run. rewrite rclamp_lo. repeat split. apply Rgt_not_eq. eapply Rlt_le_trans; [exact He|apply Rmax_r].
  Qed.
  Lemma t_normalize_value : last (rfwd (t_normalize eps j) [a; b; c; d]) 0 = f_normalize eps j [a; b; c; d].
  Proof. unfold t_normalize, f_normalize. rewrite length4. destruct j as [|[|[|[|]]]]; [| | | |lia]; run; now rewrite rclamp_lo. Qed.
  Lemma t_normalize_smooth : length_of 4 [a; b; c; d] <> 0 -> length_of 4 [a; b; c; d] <> eps -> smooth (t_normalize eps j) [a; b; c; d].
  Proof.
    intros N N'. pose proof (norm_nz 4 _ N) as X. rewrite length4 in N, N'. cbn [seq] in X. unfold rget in X. cbn [nth] in X.
    apply smooth_r. unfold t_normalize. run. rewrite rclamp_lo. repeat split; try exact X; try (intros r E; injection E as <-; exact N'); try discriminate.
    apply Rgt_not_eq. eapply Rlt_le_trans; [exact He|apply Rmax_r].
  Qed.
End Quat.
Lemma v_normalize eps j a b c d : (j < 4)%nat -> 0 < eps -> xout (t_normalize eps j) (reals [a; b; c; d]) = Fin (f_normalize eps j [a; b; c; d]).
Proof. intros H H'. apply value_of; [now apply t_normalize_tame|now apply t_normalize_value]. Qed.
Lemma g_normalize eps j a b c d : (j < 4)%nat -> 0 < eps -> Forall is_real (grads (t_normalize eps j) [a; b; c; d]).
Proof. intros H H'. now apply p_tame, t_normalize_tame. Qed.
Lemma d_normalize eps j a b c d : (j < 4)%nat -> 0 < eps -> length_of 4 [a; b; c; d] <> 0 -> length_of 4 [a; b; c; d] <> eps ->
  right_gradient (t_normalize eps j) (f_normalize eps j) [a; b; c; d].
Proof. intros H H' N N'. apply right_of; [discriminate|now apply t_normalize_smooth|]. env4 E. intros _. now apply t_normalize_value. Qed.
(* ---------------------------------------------------------------- exponential map *)
Lemma v_rod a b c : length_of 3 [a; b; c] <> 0 ->
  xout t_rodA (reals [a; b; c]) = Fin (f_rodA [a; b; c]) /\ xout t_rodB (reals [a; b; c]) = Fin (f_rodB [a; b; c]) /\
  xout t_rodC (reals [a; b; c]) = Fin (f_rodC [a; b; c]).
Proof.
  intros N. rewrite length3 in N. split; [|split]; (apply value_of; [apply tame_r|unfold f_rodA, f_rodB, f_rodC, rodA, rodB, rodC; rewrite length3]).
  - unfold t_rodA. run. repeat split; exact N.
  - unfold t_rodA. run. reflexivity.
  - unfold t_rodB. run. repeat split; try apply pow_nonzero; exact N.
  - unfold t_rodB. run. f_equal. ring.
  - unfold t_rodC. run. repeat split; try apply pow_nonzero; exact N.
  - unfold t_rodC. run. reflexivity.
Qed.
Lemma d_rod a b c : length_of 3 [a; b; c] <> 0 ->
  right_gradient t_rodA f_rodA [a; b; c] /\ right_gradient t_rodB f_rodB [a; b; c] /\ right_gradient t_rodC f_rodC [a; b; c].
Proof.
  intros N. pose proof (norm_nz 3 _ N) as X. rewrite length3 in N. cbn [seq] in X. unfold rget in X. cbn [nth] in X.
  split; [|split]; (apply right_of; [discriminate|apply smooth_r|env3 E; intros _; unfold f_rodA, f_rodB, f_rodC, rodA, rodB, rodC; rewrite length3]).
  - unfold t_rodA. run. repeat split; assumption.
  - unfold t_rodA. run. reflexivity.
  - unfold t_rodB. run. repeat split; try apply pow_nonzero; assumption.
  - unfold t_rodB. run. f_equal. ring.
  - unfold t_rodC. run. repeat split; try apply pow_nonzero; assumption.
  - unfold t_rodC. run. reflexivity.
Qed.
(* ---------------------------------------------------------------- weights *)
Lemma rclamp_both lo hi r : lo <= hi -> rclamp (Some lo) (Some hi) r = clampR lo hi r.
Proof.
  intros H. unfold rclamp, xclamp, clampR, Rmax, Rmin. cbn. destruct (Rlt_dec r lo), (Rle_dec r lo); cbn; try lra;
  repeat (destruct (Rlt_dec _ _) || destruct (Rle_dec _ _); cbn); lra.
Qed.
Section Alpha.
  Variables (eps x y z s : R).
  Hypotheses (He : eps <= 101 / 100) (Hs : s <> 0).
  Let Q : 2 * s ^ 2 <> 0.
  Proof. pose proof (pow_nonzero s 2 Hs). lra. Qed.
  Lemma t_alpha_tame : tame (t_alpha eps) [x; y; z; s].
  Proof. apply tame_r. unfold t_alpha. run. repeat split. exact Q. Qed.
  Lemma t_alpha_value : last (rfwd (t_alpha eps) [x; y; z; s]) 0 = f_alpha eps [x; y; z; s].
  Proof. unfold t_alpha, f_alpha, alpha_of. run. rewrite rclamp_both by exact He. f_equal. f_equal. cbn [rsum nth]. unfold rget. cbn [nth]. field. exact Hs. Qed.
  Lemma t_alpha_smooth : exp (- (x ^ 2 + y ^ 2 + z ^ 2) / (2 * s ^ 2)) <> eps -> smooth (t_alpha eps) [x; y; z; s].
  Proof.
    intros N. assert (E : -1 * (x ^ 2 + y ^ 2 + z ^ 2) / (2 * s ^ 2) = - (x ^ 2 + y ^ 2 + z ^ 2) / (2 * s ^ 2)) by (field; exact Hs).
    apply smooth_r. unfold t_alpha. run. rewrite E. repeat split; try exact Q; intros r H; injection H as <-; [exact N|].
    apply Rlt_not_eq. apply Rle_lt_trans with 1; [|lra]. rewrite <- exp_0. 
    assert (M : - (x ^ 2 + y ^ 2 + z ^ 2) / (2 * s ^ 2) <= 0).
    { assert (P : 0 < 2 * s ^ 2) by (pose proof (Rsqr_pos_lt _ Hs) as P; unfold Rsqr in P; lra).
      apply Rmult_le_reg_r with (2 * s ^ 2); [exact P|]. unfold Rdiv. rewrite Rmult_assoc, Rinv_l, Rmult_0_l by lra. pose proof (pow2_ge_0 x). pose proof (pow2_ge_0 y). pose proof (pow2_ge_0 z). lra. }
    destruct M as [M| ->]; [left; now apply exp_increasing|right; reflexivity].
  Qed.
End Alpha.
Lemma v_alpha eps x y z s : eps <= 101 / 100 -> s <> 0 -> xout (t_alpha eps) (reals [x; y; z; s]) = Fin (f_alpha eps [x; y; z; s]).
Proof. intros H N. apply value_of; [now apply t_alpha_tame|now apply t_alpha_value]. Qed.
Lemma g_alpha eps x y z s : s <> 0 -> Forall is_real (grads (t_alpha eps) [x; y; z; s]).
Proof. intros N. now apply p_tame, t_alpha_tame. Qed.
Lemma d_alpha eps x y z s : eps <= 101 / 100 -> s <> 0 -> exp (- (x ^ 2 + y ^ 2 + z ^ 2) / (2 * s ^ 2)) <> eps ->
  right_gradient (t_alpha eps) (f_alpha eps) [x; y; z; s].
Proof.
  intros H N N'. apply right_of; [discriminate|now apply t_alpha_smooth|]. env4 E. intros T. apply t_alpha_value; [exact H|].
  apply tame_r in T. revert T. unfold t_alpha. run. intros T. decompose [and] T. intros ->. match goal with F : 2 * 0 ^ 2 <> 0 |- _ => apply F end. ring.
Qed.
Lemma n_alpha eps : xout (t_alpha eps) (reals [0; 0; 0; 0]) = NaN.
Proof. unfold xout, t_alpha. cbn. unfold zero. repeat (destruct (Req_EM_T _ _); cbn; try lra); reflexivity. Qed.
(* ---------------------------------------------------------------- gradICP *)
Lemma one_exp r : 0 < 1 + exp r.
Proof. pose proof (exp_pos r). lra. Qed.
Section Damp.
  Variables (lmax B a b m : R).
  Lemma t_damp_tame : tame (t_damp (1 / lmax) lmax B) [a; b; m].
  Proof. apply tame_r. unfold t_damp. run. repeat split. pose proof (one_exp (- B * rclamp (Some (-70)) (Some 70) (a + - b))). lra. Qed.
  Lemma t_damp_value : last (rfwd (t_damp (1 / lmax) lmax B) [a; b; m]) 0 = f_damp lmax B [a; b; m].
  Proof.
    unfold t_damp, f_damp, damp_factor. run. rewrite rclamp_both by lra. change (a + - b) with (a - b). unfold Rdiv.
    rewrite (Rplus_comm (exp _) 1). ring.
  Qed.
  Lemma t_damp_smooth : Rabs (a - b) <> 70 -> smooth (t_damp (1 / lmax) lmax B) [a; b; m].
  Proof.
    intros N. apply smooth_r. unfold t_damp. run. repeat split; try (intros r E; injection E as <-; intros E; apply N; change (a + - b) with (a - b) in E; rewrite E; unfold Rabs; destruct (Rcase_abs _); lra).
    pose proof (one_exp (- B * rclamp (Some (-70)) (Some 70) (a + - b))). lra.
  Qed.
End Damp.
Lemma v_damp lmax B a b m : xout (t_damp (1 / lmax) lmax B) (reals [a; b; m]) = Fin (f_damp lmax B [a; b; m]).
Proof. apply value_of; [apply t_damp_tame|apply t_damp_value]. Qed.
Lemma g_damp lmax B a b m : Forall is_real (grads (t_damp (1 / lmax) lmax B) [a; b; m]).
Proof. apply p_tame, t_damp_tame. Qed.
Lemma d_damp lmax B a b m : Rabs (a - b) <> 70 -> right_gradient (t_damp (1 / lmax) lmax B) (f_damp lmax B) [a; b; m].
Proof. intros N. apply right_of; [discriminate|now apply t_damp_smooth|]. env3 E. intros _. apply t_damp_value. Qed.
Section Gate.
  Variables (B nu a b m : R).
  Lemma t_gate_tame : tame (t_gate B nu) [a; b; m].
  Proof.
    apply tame_r. unfold t_gate. run. pose proof (one_exp (- B * rclamp (Some (-70)) (Some 70) (a + - b))). repeat split; [lra|].
    apply Rgt_not_eq. unfold Rpower. apply exp_pos.
  Qed.
  Lemma t_gate_value : last (rfwd (t_gate B nu) [a; b; m]) 0 = f_gate B nu [a; b; m].
  Proof. unfold t_gate, f_gate, soft_step. run. rewrite rclamp_both by lra. change (a + - b) with (a - b). rewrite (Rplus_comm (exp _) 1). ring. Qed.
  Lemma t_gate_smooth : Rabs (a - b) <> 70 -> smooth (t_gate B nu) [a; b; m].
  Proof.
    intros N. apply smooth_r. unfold t_gate. run. repeat split; try (intros r E; injection E as <-; intros E; apply N; change (a + - b) with (a - b) in E; rewrite E; unfold Rabs; destruct (Rcase_abs _); lra).
    - pose proof (one_exp (- B * rclamp (Some (-70)) (Some 70) (a + - b))). lra.
    - apply Rgt_not_eq. unfold Rpower. apply exp_pos.
  Qed.
End Gate.
Lemma v_gate B nu a b m : xout (t_gate B nu) (reals [a; b; m]) = Fin (f_gate B nu [a; b; m]).
Proof. apply value_of; [apply t_gate_tame|apply t_gate_value]. Qed.
Lemma g_gate B nu a b m : Forall is_real (grads (t_gate B nu) [a; b; m]).
Proof. apply p_tame, t_gate_tame. Qed.
Lemma d_gate B nu a b m : Rabs (a - b) <> 70 -> right_gradient (t_gate B nu) (f_gate B nu) [a; b; m].
Proof. intros N. apply right_of; [discriminate|now apply t_gate_smooth|]. env3 E. intros _. apply t_gate_value. Qed.
