(* Proofs for C84. *)
From Coq Require Import Reals List Arith Bool ZArith Lra Lia.
From Verif Require Import Res MatSpec TensorModel GeomModel RgbdModel GeomSpec MatProofs TensorProofs GeomProofs GeomPtsProofs Se3Model ExpProofs Se3Proofs
  SolveModel FusionModel IcpModel IcpSpec SolveProofs IcpSolveProofs IcpGnProofs IcpLoopProofs IcpPropProofs IcpRunProofs IcpRunProofs2 IcpArgProofs SimProofs RotSpec.
Import ListNotations.
Import IcpSpec.
Local Open Scope R_scope.

(* ---------------- orthogonal matrices *)
Lemma orth_rows Q i j : orthogonal3 Q -> (i < 3)%nat -> (j < 3)%nat -> Q i 0%nat * Q j 0%nat + Q i 1%nat * Q j 1%nat + Q i 2%nat * Q j 2%nat = delta i j.
Proof. intros [_ H] Hi Hj. pose proof (H i j Hi Hj) as E. unfold mmul, mtr, mI in E. cbn [rsum] in E. lra. Qed.
Lemma det3_tr_mul Q : det3 (mmul 3 (mtr Q) Q) = det3 Q * det3 Q.
Proof. unfold det3, mmul, mtr. cbn [rsum]. ring. Qed.
Lemma orth_det Q : orthogonal3 Q -> det3 Q * det3 Q = 1.
Proof.
  intros [H _]. rewrite <- det3_tr_mul. unfold det3. rewrite !H by lia. unfold mI, delta. cbn [Nat.eqb]. ring.
Qed.
Lemma orth_inv Q v i : orthogonal3 Q -> (i < 3)%nat -> mvec 3 Q (mvec 3 (mtr Q) v) i = v i.
Proof.
  intros HQ Hi. rewrite <- mmul_vec. unfold mvec. cbn [rsum]. rewrite !(proj2 HQ) by lia. unfold mI, delta.
  destruct i as [|[|[|i]]]; [| | |lia]; cbn [Nat.eqb]; ring.
Qed.
Lemma cross_tr Q u v i : (i < 3)%nat -> mvec 3 (mtr Q) (cross (mvec 3 Q u) (mvec 3 Q v)) i = det3 Q * cross u v i.
Proof. intros Hi. unfold mvec, mtr, cross, det3. destruct i as [|[|[|i]]]; [| | |lia]; cbn [rsum]; ring. Qed.
Lemma cross_orth Q u v i : orthogonal3 Q -> (i < 3)%nat -> cross (mvec 3 Q u) (mvec 3 Q v) i = det3 Q * mvec 3 Q (cross u v) i.
Proof.
  intros HQ Hi. rewrite <- (orth_inv Q (cross (mvec 3 Q u) (mvec 3 Q v)) i HQ Hi).
  rewrite (SimProofs.mvec_ext Q _ (fun k => det3 Q * cross u v k)) by (intros k Hk; apply cross_tr; exact Hk). unfold mvec. cbn [rsum]. ring.
Qed.
Lemma cross_ext u u' v v' : veq 3 u u' -> veq 3 v v' -> cross u v = cross u' v'.
Proof. intros H H'. unfold cross. rewrite (H 0%nat), (H 1%nat), (H 2%nat), (H' 0%nat), (H' 1%nat), (H' 2%nat) by lia. reflexivity. Qed.
Lemma dist2_dot u v : dist2 3 u v = dot 3 (fun k => u k - v k) (fun k => u k - v k).
Proof. reflexivity. Qed.
Lemma dist2_orth Q u v : orthogonal3 Q -> dist2 3 (mvec 3 Q u) (mvec 3 Q v) = dist2 3 u v.
Proof.
  intros HQ. rewrite !dist2_dot. rewrite <- (orth_dot Q (fun k => u k - v k) (fun k => u k - v k) HQ). apply dot_ext; intros k Hk; unfold mvec; cbn [rsum]; ring.
Qed.

(* ---------------- matrices that agree after turning *)
Definition comm (Q A A' : mat) : Prop := meq 3 3 (mmul 3 A' Q) (mmul 3 Q A).
Lemma comm_I Q : comm Q mI mI.
Proof. intros i j Hi Hj. unfold mmul, mI, delta. destruct i as [|[|[|i]]]; [| | |lia]; (destruct j as [|[|[|j]]]; [| | |lia]; cbn [rsum Nat.eqb]; ring). Qed.
Lemma comm_add Q A A' B B' : comm Q A A' -> comm Q B B' -> comm Q (madd A B) (madd A' B').
Proof. intros H1 H2 i j Hi Hj. pose proof (H1 i j Hi Hj) as E1. pose proof (H2 i j Hi Hj) as E2. unfold mmul, madd in *. cbn [rsum] in *. lra. Qed.
Lemma comm_scale Q c A A' : comm Q A A' -> comm Q (mscale c A) (mscale c A').
Proof.
  intros H i j Hi Hj. pose proof (H i j Hi Hj) as E. unfold mmul, mscale in *. cbn [rsum] in *.
  transitivity (c * (0 + A' i 0%nat * Q 0%nat j + A' i 1%nat * Q 1%nat j + A' i 2%nat * Q 2%nat j)); [ring|]. rewrite E. ring.
Qed.
Lemma mmul_assoc3 A B C i j : mmul 3 (mmul 3 A B) C i j = mmul 3 A (mmul 3 B C) i j.
Proof. unfold mmul. cbn [rsum]. ring. Qed.
Lemma comm_mul Q A A' B B' : comm Q A A' -> comm Q B B' -> comm Q (mmul 3 A B) (mmul 3 A' B').
Proof.
  intros H1 H2 i j Hi Hj. rewrite mmul_assoc3.
  transitivity (mmul 3 A' (mmul 3 Q B) i j); [unfold mmul at 1 3; cbn [rsum]; rewrite !(H2 _ j) by lia; reflexivity|].
  rewrite <- mmul_assoc3. transitivity (mmul 3 (mmul 3 Q A) B i j); [|apply mmul_assoc3].
  unfold mmul at 1 3; cbn [rsum]. rewrite !(H1 i _) by lia. reflexivity.
Qed.
Lemma skew_vec w v i : (i < 3)%nat -> mvec 3 (skew w) v i = cross w v i.
Proof. intros Hi. unfold mvec, skew, cross. destruct i as [|[|[|i]]]; [| | |lia]; cbn [rsum]; ring. Qed.
Lemma col_vec A Q i j : mmul 3 A Q i j = mvec 3 A (fun k => Q k j) i.
Proof. reflexivity. Qed.
(* a rotation vector is an axial vector *)
Definition axial (Q : mat) (w w' : vec) : Prop := veq 3 w' (fun k => det3 Q * mvec 3 Q w k).
Lemma comm_skew Q w w' : orthogonal3 Q -> axial Q w w' -> comm Q (skew w) (skew w').
Proof.
  intros HQ Hw i j Hi Hj. rewrite col_vec, skew_vec by exact Hi.
  set (u := fun k => delta k j). assert (Hu : veq 3 (fun k => Q k j) (mvec 3 Q u)).
  { intros k Hk. unfold mvec, u, delta. destruct j as [|[|[|j]]]; [| | |lia]; cbn [rsum Nat.eqb]; ring. }
  rewrite (cross_ext w' _ _ _ Hw Hu).
  transitivity (det3 Q * cross (mvec 3 Q w) (mvec 3 Q u) i); [unfold cross; destruct i as [|[|[|i]]]; [| | |lia]; ring|].
  rewrite (cross_orth Q w u i HQ Hi), <- Rmult_assoc, (orth_det Q HQ), Rmult_1_l. unfold mvec at 1, mmul. cbn [rsum].
  rewrite <- !skew_vec by lia. unfold mvec, u, delta. destruct j as [|[|[|j]]]; [| | |lia]; cbn [rsum Nat.eqb]; ring.
Qed.
Lemma axial_norm Q w w' : orthogonal3 Q -> axial Q w w' -> norm 3 w' = norm 3 w.
Proof.
  intros HQ Hw. unfold norm. rewrite (dot_ext _ _ _ _ Hw Hw). f_equal.
  transitivity (det3 Q * det3 Q * dot 3 (mvec 3 Q w) (mvec 3 Q w)); [unfold dot; cbn [rsum]; ring|]. rewrite orth_det, orth_dot by exact HQ. ring.
Qed.

(* ---------------- 4 x 4 transforms *)
Lemma turned_iff Q T T' : affine4 T -> affine4 T' ->
  comm Q (rot_of T) (rot_of T') -> veq 3 (tr_of T') (mvec 3 Q (tr_of T)) -> turned_tf Q T T'.
Proof.
  intros (a0 & a1 & a2 & a3) (b0 & b1 & b2 & b3) HR HT i j Hi Hj.
  destruct (Nat.eq_dec i 3) as [->|Hi3].
  - unfold turn4, mmul. destruct j as [|[|[|[|j]]]]; [| | | |lia]; cbn [rsum Nat.ltb Nat.leb Nat.eqb]; rewrite ?a0, ?a1, ?a2, ?a3, ?b0, ?b1, ?b2, ?b3; ring.
  - destruct (Nat.eq_dec j 3) as [->|Hj3].
    + pose proof (HT i ltac:(lia)) as E. unfold tr_of, mvec in E. unfold turn4, mmul. destruct i as [|[|[|i]]]; [| | |lia]; cbn [rsum Nat.ltb Nat.leb Nat.eqb] in *; lra.
    + pose proof (HR i j ltac:(lia) ltac:(lia)) as E. unfold mmul, rot_of in E. unfold turn4, mmul.
      destruct i as [|[|[|i]]]; [| | |lia]; (destruct j as [|[|[|j]]]; [| | |lia]; cbn [rsum Nat.ltb Nat.leb Nat.eqb] in *; lra).
Qed.
Lemma mmul_assoc4 A B C i j : mmul 4 (mmul 4 A B) C i j = mmul 4 A (mmul 4 B C) i j.
Proof. unfold mmul. cbn [rsum]. ring. Qed.
Lemma turned_mul Q A A' B B' : turned_tf Q A A' -> turned_tf Q B B' -> turned_tf Q (mmul 4 A B) (mmul 4 A' B').
Proof.
  intros H1 H2 i j Hi Hj. rewrite mmul_assoc4.
  transitivity (mmul 4 A' (mmul 4 (turn4 Q) B) i j); [unfold mmul at 1 3; cbn [rsum]; rewrite !(H2 _ j) by lia; reflexivity|].
  rewrite <- mmul_assoc4. transitivity (mmul 4 (mmul 4 (turn4 Q) A) B i j); [|apply mmul_assoc4].
  unfold mmul at 1 3; cbn [rsum]. rewrite !(H1 i _) by lia. reflexivity.
Qed.
Lemma turned_ext Q A A' B B' : meq 4 4 A B -> meq 4 4 A' B' -> turned_tf Q A A' -> turned_tf Q B B'.
Proof.
  intros H1 H2 H i j Hi Hj. pose proof (H i j Hi Hj) as E. unfold mmul in *. cbn [rsum] in *. rewrite <- !(H1 _ j), <- !(H2 i _) by lia. exact E.
Qed.
Lemma turned_act Q T T' p p' : turned_tf Q T T' -> veq 3 p' (mvec 3 Q p) -> veq 3 (act T' p') (mvec 3 Q (act T p)).
Proof.
  intros H Hp i Hi. rewrite (act_ext_p T' _ _ Hp i Hi).
  pose proof (H i 0%nat ltac:(lia) ltac:(lia)) as E0. pose proof (H i 1%nat ltac:(lia) ltac:(lia)) as E1.
  pose proof (H i 2%nat ltac:(lia) ltac:(lia)) as E2. pose proof (H i 3%nat ltac:(lia) ltac:(lia)) as E3.
  assert (Ht : forall k, turn4 Q i k = if Nat.ltb k 3 then Q i k else 0) by (intros k; unfold turn4; destruct (Nat.ltb_spec i 3); [reflexivity|lia]).
  unfold mmul in *. cbn [rsum] in *. rewrite !Ht in *. unfold turn4 in *. cbn [Nat.ltb Nat.leb Nat.eqb] in *.
  unfold act, mvec, rot_of, tr_of. cbn [rsum].
  match type of E0 with ?l0 = ?r0 => match type of E1 with ?l1 = ?r1 => match type of E2 with ?l2 = ?r2 => match type of E3 with ?l3 = ?r3 =>
    transitivity (l0 * p 0%nat + l1 * p 1%nat + l2 * p 2%nat + l3); [ring|rewrite E0, E1, E2, E3; ring] end end end end.
Qed.

(* ---------------- the exponential map *)
Definition twist_turned (Q : mat) (xi xi' : vec) : Prop :=
  veq 3 (twist_v xi') (mvec 3 Q (twist_v xi)) /\ axial Q (twist_w xi) (twist_w xi').
Lemma axial_ext Q w w' u u' : veq 3 w u -> veq 3 w' u' -> axial Q w w' -> axial Q u u'.
Proof. intros H H' A k Hk. rewrite <- (H' k Hk), (A k Hk). rewrite (SimProofs.mvec_ext Q w u H). reflexivity. Qed.
Lemma twist_exp_turned Q A A' V V' v v' : comm Q A A' -> comm Q V V' -> veq 3 v' (mvec 3 Q v) -> turned_tf Q (twist_exp A V v) (twist_exp A' V' v').
Proof.
  intros HA HV Hv. apply turned_iff; try (repeat split; fail).
  - intros i j Hi Hj. pose proof (HA i j Hi Hj) as E. unfold mmul, rot_of, twist_exp in *. 
    destruct i as [|[|[|i]]]; [| | |lia]; (destruct j as [|[|[|j]]]; [| | |lia]; cbn [rsum Nat.ltb Nat.leb] in *; exact E).
  - intros i Hi. unfold tr_of, twist_exp. change (3 <? 3)%nat with false. destruct (Nat.ltb_spec i 3); [|lia].
    rewrite (SimProofs.mvec_ext V' _ _ Hv), <- mmul_vec.
    transitivity (mvec 3 (mmul 3 Q V) v i); [unfold mvec; cbn [rsum]; rewrite !(HV i _) by lia; reflexivity|].
    rewrite mmul_vec. unfold mvec at 1 3. cbn [rsum Nat.ltb Nat.leb]. reflexivity.
Qed.
Lemma exp_turned Q xi xi' E E' : orthogonal3 Q -> twist_turned Q xi xi' -> se3_exp (six xi) = Ok E -> se3_exp (six xi') = Ok E' -> turned_tf Q E E'.
Proof.
  intros HQ [Hv Hw] HE HE'. unfold six in *.
  set (w := vec3 (xi 3%nat) (xi 4%nat) (xi 5%nat)). set (w' := vec3 (xi' 3%nat) (xi' 4%nat) (xi' 5%nat)).
  assert (HA : axial Q w w').
  { apply (axial_ext Q (twist_w xi) (twist_w xi')); [| |exact Hw]; intros k Hk; unfold w, w', twist_w, vec3; destruct k as [|[|[|k]]]; [| | |lia| | | |lia]; reflexivity. }
  pose proof (axial_norm Q w w' HQ HA) as Hn. pose proof (comm_skew Q w w' HQ HA) as HS.
  assert (Hv' : veq 3 (at1 [xi' 0%nat; xi' 1%nat; xi' 2%nat]) (mvec 3 Q (at1 [xi 0%nat; xi 1%nat; xi 2%nat]))).
  { intros k Hk. rewrite (SimProofs.mvec_ext Q _ (twist_v xi)) by (intros l Hl; destruct l as [|[|[|l]]]; [| | |lia]; reflexivity).
    rewrite <- (Hv k Hk). destruct k as [|[|[|k]]]; [| | |lia]; reflexivity. }
  destruct (Rlt_dec (norm 3 w) se3_eps) as [Hb|Hb].
  - destruct (se3_exp_small (xi 0%nat) (xi 1%nat) (xi 2%nat) _ _ _ Hb) as (F & HF & MF). rewrite HE in HF. injection HF as <-.
    assert (Hb' : norm 3 w' < se3_eps) by lra.
    destruct (se3_exp_small (xi' 0%nat) (xi' 1%nat) (xi' 2%nat) _ _ _ Hb') as (F & HF & MF'). rewrite HE' in HF. injection HF as <-.
    eapply turned_ext; [apply meq_sym; exact MF|apply meq_sym; exact MF'|]. apply twist_exp_turned; [| |exact Hv']; apply comm_add; try apply comm_I; exact HS.
  - assert (Hb1 : se3_eps <= norm 3 w) by lra. assert (Hb' : se3_eps <= norm 3 w') by lra.
    destruct (se3_exp_big (xi 0%nat) (xi 1%nat) (xi 2%nat) _ _ _ Hb1) as (F & HF & MF). rewrite HE in HF. injection HF as <-.
    destruct (se3_exp_big (xi' 0%nat) (xi' 1%nat) (xi' 2%nat) _ _ _ Hb') as (F & HF & MF'). rewrite HE' in HF. injection HF as <-.
    eapply turned_ext; [apply meq_sym; exact MF|apply meq_sym; exact MF'|]. fold w w'. apply twist_exp_turned; [| |exact Hv'];
      unfold rodR, rodV; rewrite ?Hn; apply comm_add; try (apply comm_add; [apply comm_I|]); apply comm_scale; try exact HS; apply comm_mul; exact HS.
Qed.

(* ---------------- the damped step *)
Lemma normal_eq_iff n k A b d x : normal_eq n k A b d x <-> forall i, (i < k)%nat -> rsum n (fun r => A r i * (dot k (A r) x - b r)) + d * x i = 0.
Proof.
  unfold normal_eq. split; intros H i Hi; specialize (H i Hi); rewrite normal_row in * by exact Hi.
  - transitivity (rsum n (fun r => A r i * mvec k A x r) - rsum n (fun r => A r i * b r) + d * x i); [|lra].
    f_equal. rewrite <- rsum_minus. apply rsum_ext. intros r Hr. unfold mvec, dot. ring.
  - assert (E : rsum n (fun r => A r i * (dot k (A r) x - b r)) = rsum n (fun r => A r i * mvec k A x r) - rsum n (fun r => A r i * b r)).
    { rewrite <- rsum_minus. apply rsum_ext. intros r Hr. unfold mvec, dot. ring. }
    lra.
Qed.

Definition turned_pts (Q : mat) (n : nat) (s s' : nat -> vec) : Prop := forall i, (i < n)%nat -> veq 3 (s' i) (mvec 3 Q (s i)).
Lemma turned_moved Q n T T' s s' : turned_tf Q T T' -> turned_pts Q n s s' -> turned_pts Q n (moved T s) (moved T' s').
Proof. intros HT Hs i Hi. apply turned_act; [exact HT|apply Hs, Hi]. Qed.
Lemma turned_same Q n s s' t t' : same_pts n t s -> same_pts n t' s' -> turned_pts Q n s s' -> turned_pts Q n t t'.
Proof. intros H H' Hs i Hi k Hk. rewrite (H' i Hi k Hk), (Hs i Hi k Hk). apply (mvec_ext_v 3). apply veq_sym, H, Hi. Qed.
(* (v, w) |-> (Q v, det Q Q w) *)
Definition turn6 (Q : mat) (xi : vec) : vec := fun k => if Nat.ltb k 3 then mvec 3 Q (twist_v xi) k else det3 Q * mvec 3 Q (twist_w xi) (k - 3)%nat.
Lemma turn6_turned Q xi xi' : veq 6 xi' (turn6 Q xi) -> twist_turned Q xi xi'.
Proof.
  intros H. split; intros k Hk; unfold twist_v, twist_w; rewrite H by lia; unfold turn6.
  - destruct (Nat.ltb_spec k 3); [reflexivity|lia].
  - destruct (Nat.ltb_spec (3 + k) 3); [lia|]. replace (3 + k - 3)%nat with k by lia. reflexivity.
Qed.
Lemma turn6_scaled Q xi xi' c : twist_turned Q xi xi' -> twist_turned Q (scaled c xi) (scaled c xi').
Proof.
  intros [H1 H2]. split; intros k Hk; [pose proof (H1 k Hk) as E|pose proof (H2 k Hk) as E]; unfold twist_v, twist_w, scaled, mvec in *; rewrite E; cbn [rsum]; ring.
Qed.
Lemma turn6_dot Q a a' xi xi' : orthogonal3 Q -> twist_turned Q a a' -> twist_turned Q xi xi' -> dot 6 a' xi' = dot 6 a xi.
Proof.
  intros HQ [A1 A2] [X1 X2].
  assert (S : forall u v, dot 6 u v = dot 3 (twist_v u) (twist_v v) + dot 3 (twist_w u) (twist_w v)) by (intros; unfold dot, twist_v, twist_w; cbn [rsum Nat.add]; ring).
  rewrite !S, (dot_ext _ _ _ _ A1 X1), (dot_ext _ _ _ _ A2 X2), (orth_dot Q _ _ HQ). f_equal.
  transitivity (det3 Q * det3 Q * dot 3 (mvec 3 Q (twist_w a)) (mvec 3 Q (twist_w xi))); [unfold dot; cbn [rsum]; ring|]. rewrite orth_det, orth_dot by exact HQ. ring.
Qed.

Section Turn.
  Variables (Q : mat) (nn : nnfun) (keep : R -> bool) (ns nt : nat) (d n d' n' : nat -> vec).
  Hypothesis HQ : orthogonal3 Q.
  Hypothesis Hbd : by_distance nn.
  Hypothesis Hnn : nearest nn.
  Hypothesis H0 : (0 < nt)%nat \/ ns = 0%nat.
  Hypothesis Hd : turned_pts Q nt d d'.
  Hypothesis Hn : turned_pts Q nt n n'.
  Variables (s s' : nat -> vec).
  Hypothesis Hs : turned_pts Q ns s s'.

  Lemma t_dist i j : (i < ns)%nat -> (j < nt)%nat -> dist2 3 (s' i) (d' j) = dist2 3 (s i) (d j).
  Proof. intros Hi Hj. rewrite (dist2_ext _ _ _ _ (Hs i Hi) (Hd j Hj)). apply dist2_orth, HQ. Qed.
  Lemma t_match i : (i < ns)%nat -> match_of nn nt d' (s' i) = match_of nn nt d (s i) /\ (match_of nn nt d (s i) < nt)%nat.
  Proof. intros Hi. split; [apply Hbd; intros j Hj; apply t_dist; assumption|apply (proj1 Hnn); lia]. Qed.
  Lemma t_keep i : (i < ns)%nat -> keep (dist2 3 (s' i) (d' (match_of nn nt d' (s' i)))) = keep (dist2 3 (s i) (d (match_of nn nt d (s i)))).
  Proof. intros Hi. destruct (t_match i Hi) as [E L]. rewrite E, t_dist by assumption. reflexivity. Qed.
  Lemma t_res i j : (i < ns)%nat -> (j < nt)%nat -> plane_res (n' j) (d' j) (s' i) = plane_res (n j) (d j) (s i).
  Proof.
    intros Hi Hj. unfold plane_res. rewrite <- (orth_dot Q (n j) _ HQ). apply dot_ext; [apply Hn, Hj|].
    intros k Hk. rewrite (Hs i Hi k Hk), (Hd j Hj k Hk). unfold mvec. cbn [rsum]. ring.
  Qed.
  Lemma t_err : plane_err nn keep ns nt d' n' s' = plane_err nn keep ns nt d n s.
  Proof.
    unfold plane_err. apply rsum_ext. intros i Hi. cbv zeta. rewrite (t_keep i Hi). destruct (t_match i Hi) as [E L]. rewrite E, t_res by assumption. reflexivity.
  Qed.
  Lemma t_kept : kept_pts nn keep ns nt d' s' = kept_pts nn keep ns nt d s.
  Proof. unfold kept_pts. apply filter_ext_in. intros i Hi. apply in_seq in Hi. apply t_keep. lia. Qed.
  Lemma t_idx : map (fun i => match_of nn nt d' (s' i)) (kept_pts nn keep ns nt d' s') = map (fun i => match_of nn nt d (s i)) (kept_pts nn keep ns nt d s).
  Proof.
    rewrite t_kept. apply map_ext_in. intros i Hi. unfold kept_pts in Hi. apply filter_In in Hi. destruct Hi as [Hi _]. apply in_seq in Hi. apply t_match. lia.
  Qed.
  Lemma t_row i : (i < ns)%nat -> veq 6 (lin_row nn keep nt d' n' s' i) (turn6 Q (lin_row nn keep nt d n s i)).
  Proof.
    intros Hi k Hk. destruct (t_match i Hi) as [E L]. pose proof (t_keep i Hi) as K. unfold lin_row, turn6, twist_v, twist_w. cbv zeta. rewrite K. clear K. 
    destruct (keep (dist2 3 (s i) (d (match_of nn nt d (s i))))).
    - destruct (Nat.ltb_spec k 3) as [H3|H3].
      + rewrite E, (Hn _ L k H3). unfold mvec. cbn [rsum Nat.ltb Nat.leb]. reflexivity.
      + rewrite E, (cross_ext _ _ _ _ (Hs i Hi) (Hn _ L)), (cross_orth Q _ _ (k - 3) HQ) by lia. unfold mvec. cbn [rsum Nat.ltb Nat.leb Nat.add Nat.sub]. reflexivity.
    - unfold mvec. cbn [rsum]. destruct (Nat.ltb k 3); ring.
  Qed.
  Lemma t_rhs i : (i < ns)%nat -> lin_rhs nn keep nt d' n' s' i = lin_rhs nn keep nt d n s i.
  Proof.
    intros Hi. destruct (t_match i Hi) as [E L]. unfold lin_rhs. cbv zeta. rewrite (t_keep i Hi), E, t_res by assumption. reflexivity.
  Qed.
  Lemma t_lm damp xi : lm_step nn keep ns nt d n s damp xi -> lm_step nn keep ns nt d' n' s' damp (turn6 Q xi).
  Proof.
    intros H. apply normal_eq_iff. pose proof (proj1 (normal_eq_iff _ _ _ _ _ _) H) as HL. clear H.
    set (g := fun r => dot 6 (lin_row nn keep nt d n s r) xi - lin_rhs nn keep nt d n s r).
    assert (Hg : forall i, (i < 6)%nat -> rsum ns (fun r => lin_row nn keep nt d n s r i * g r) + damp * xi i = 0) by exact HL.
    intros i Hi.
    rewrite (rsum_ext ns _ (fun r => turn6 Q (lin_row nn keep nt d n s r) i * g r)).
    2:{ intros r Hr. rewrite (t_row r Hr i Hi). f_equal. unfold g. f_equal; [|apply t_rhs, Hr].
        apply (turn6_dot Q); [exact HQ|apply turn6_turned, t_row, Hr|apply turn6_turned; apply veq_refl]. }
    unfold turn6, twist_v, twist_w, mvec. destruct (Nat.ltb_spec i 3) as [H3|H3]; cbn [rsum Nat.add].
    - pose proof (Hg 0%nat ltac:(lia)) as G0. pose proof (Hg 1%nat ltac:(lia)) as G1. pose proof (Hg 2%nat ltac:(lia)) as G2.
      rewrite (rsum_ext ns _ (fun r => Q i 0%nat * (lin_row nn keep nt d n s r 0%nat * g r) + (Q i 1%nat * (lin_row nn keep nt d n s r 1%nat * g r) + Q i 2%nat * (lin_row nn keep nt d n s r 2%nat * g r))))
        by (intros r Hr; ring).
      rewrite rsum_plus, rsum_plus, !rsum_mult_l.
      transitivity (Q i 0%nat * (rsum ns (fun r => lin_row nn keep nt d n s r 0%nat * g r) + damp * xi 0%nat) + Q i 1%nat * (rsum ns (fun r => lin_row nn keep nt d n s r 1%nat * g r) + damp * xi 1%nat) +
        Q i 2%nat * (rsum ns (fun r => lin_row nn keep nt d n s r 2%nat * g r) + damp * xi 2%nat)); [ring|]. rewrite G0, G1, G2. ring.
    - pose proof (Hg 3%nat ltac:(lia)) as G0. pose proof (Hg 4%nat ltac:(lia)) as G1. pose proof (Hg 5%nat ltac:(lia)) as G2. set (j := (i - 3)%nat).
      rewrite (rsum_ext ns _ (fun r => det3 Q * Q j 0%nat * (lin_row nn keep nt d n s r 3%nat * g r) + (det3 Q * Q j 1%nat * (lin_row nn keep nt d n s r 4%nat * g r) + det3 Q * Q j 2%nat * (lin_row nn keep nt d n s r 5%nat * g r))))
        by (intros r Hr; ring).
      rewrite rsum_plus, rsum_plus, !rsum_mult_l.
      transitivity (det3 Q * (Q j 0%nat * (rsum ns (fun r => lin_row nn keep nt d n s r 3%nat * g r) + damp * xi 3%nat) + Q j 1%nat * (rsum ns (fun r => lin_row nn keep nt d n s r 4%nat * g r) + damp * xi 4%nat) +
        Q j 2%nat * (rsum ns (fun r => lin_row nn keep nt d n s r 5%nat * g r) + damp * xi 5%nat))); [ring|]. rewrite G0, G1, G2. ring.
  Qed.
  Lemma t_twist damp xi xi' : 0 < damp -> lm_step nn keep ns nt d n s damp xi -> lm_step nn keep ns nt d' n' s' damp xi' -> twist_turned Q xi xi'.
  Proof. intros Hp H H'. apply turn6_turned. apply (lm_step_unique nn keep ns nt d' n' s' damp); [exact Hp|exact H'|apply t_lm, H]. Qed.
End Turn.

(* ---------------- the loops *)
Definition tsim (Q : mat) (ns : nat) (s t : icp_state) : Prop :=
  turned_pts Q ns (pts_of (i_src s)) (pts_of (i_src t)) /\ i_damp s = i_damp t /\ turned_tf Q (ent (i_T s) []) (ent (i_T t) []).
Section TLoop.
  Variables (Q : mat) (nn : nnfun) (src tgt nor src' tgt' nor' : ten R) (ns nt : nat) (th : thr_arg).
  Hypothesis HQ : orthogonal3 Q.
  Hypothesis Hbd : by_distance nn.
  Hypothesis Hin : icp_input nn src tgt nor ns nt th.
  Hypothesis Hs : turned_cloud Q ns src src'.
  Hypothesis Ht : turned_cloud Q nt tgt tgt'.
  Hypothesis Hn : turned_cloud Q nt nor nor'.
  Lemma t_input : icp_input nn src' tgt' nor' ns nt th.
  Proof. destruct Hin as (A & B & C & D & E & F). repeat split; try apply A; try assumption; [apply Hs|apply Ht|apply Hn]. Qed.
  Let N0 : (0 < nt)%nat \/ ns = 0%nat := proj1 (proj2 (proj2 (proj2 (proj2 Hin)))).
  Lemma t_icp_iter s t a b : good ns s -> good ns t -> tsim Q ns s t ->
    icp_iter nn tgt nor th s = Ok a -> icp_iter nn tgt' nor' th t = Ok b -> tsim Q ns a b /\ i_idx a = i_idx b.
  Proof.
    intros Gs Gt (P & D & T) Ea Eb.
    destruct (icp_iter_ok nn src tgt nor ns nt th Hin s Gs) as (a' & xi & E & Ha & _ & L & HE & AE & Ia & Ca).
    destruct (icp_iter_ok nn src' tgt' nor' ns nt th t_input t Gt) as (b' & xi' & E' & Hb & _ & L' & HE' & AE' & Ib & Cb).
    rewrite Ea in Ha. rewrite Eb in Hb. injection Ha as <-. injection Hb as <-.
    pose proof (t_twist Q nn (keep_sq th) ns nt (pts_of tgt) (pts_of nor) (pts_of tgt') (pts_of nor') HQ Hbd (proj1 Hin) N0 (proj2 Ht) (proj2 Hn)
      _ _ P (i_damp t) xi xi' (proj2 (proj2 Gt))) as Hx. rewrite D in L. specialize (Hx L L').
    pose proof (exp_turned Q xi xi' E E' HQ Hx HE HE') as HEt.
    pose proof (turned_moved Q ns E E' _ _ HEt P) as Pm.
    pose proof (t_err Q nn (keep_sq th) ns nt (pts_of tgt) (pts_of nor) (pts_of tgt') (pts_of nor') HQ Hbd (proj1 Hin) N0 (proj2 Ht) (proj2 Hn)) as Te.
    rewrite (Te _ _ P), (Te _ _ Pm) in Cb.
    split; [|rewrite Ia, Ib; f_equal; symmetry; apply (t_idx Q); auto; [apply (proj1 Hin)|exact (proj2 Ht)]].
    destruct Ca as [(C1 & C2 & C3 & C4)|(C1 & C2 & C3 & C4)], Cb as [(D1 & D2 & D3 & D4)|(D1 & D2 & D3 & D4)]; try contradiction.
    - split; [|split].
      + apply (turned_same Q ns _ _ _ _ C4 D4 Pm).
      + rewrite C2, D2, D. reflexivity.
      + eapply turned_ext; [apply meq_sym, C3|apply meq_sym, D3|]. apply turned_mul; assumption.
    - split; [|split].
      + rewrite C4, D4. exact P.
      + rewrite C2, D2, D. reflexivity.
      + rewrite C3, D3. exact T.
  Qed.
  Lemma t_grad_iter lmax B B2 nu s t a b : 0 < lmax -> nu <> 0 -> good ns s -> good ns t -> tsim Q ns s t ->
    grad_iter nn tgt nor th lmax B B2 nu s = Ok a -> grad_iter nn tgt' nor' th lmax B B2 nu t = Ok b -> tsim Q ns a b /\ i_idx a = i_idx b.
  Proof.
    intros Hl Hnu Gs Gt (P & D & T) Ea Eb.
    destruct (grad_iter_ok nn src tgt nor ns nt th Hin lmax B B2 nu Hl Hnu s Gs) as (a' & xi & E & Es & Ha & _ & L & HE & HEs & AE & Ia & Da & Ca & Pa).
    destruct (grad_iter_ok nn src' tgt' nor' ns nt th t_input lmax B B2 nu Hl Hnu t Gt) as (b' & xi' & E' & Et & Hb & _ & L' & HE' & HEt & AE' & Ib & Db & Cb & Pb).
    rewrite Ea in Ha. rewrite Eb in Hb. injection Ha as <-. injection Hb as <-.
    pose proof (t_twist Q nn (keep_sq th) ns nt (pts_of tgt) (pts_of nor) (pts_of tgt') (pts_of nor') HQ Hbd (proj1 Hin) N0 (proj2 Ht) (proj2 Hn)
      _ _ P (i_damp t) xi xi' (proj2 (proj2 Gt))) as Hx. rewrite D in L. specialize (Hx L L').
    pose proof (exp_turned Q xi xi' E E' HQ Hx HE HE') as HEE.
    pose proof (turned_moved Q ns E E' _ _ HEE P) as Pm.
    pose proof (t_err Q nn (keep_sq th) ns nt (pts_of tgt) (pts_of nor) (pts_of tgt') (pts_of nor') HQ Hbd (proj1 Hin) N0 (proj2 Ht) (proj2 Hn)) as Te.
    cbv zeta in *. rewrite (Te _ _ P), (Te _ _ Pm) in HEt. rewrite (Te _ _ P), (Te _ _ Pm) in Db.
    set (e := clampR _ _ _) in *. cbv beta in *.
    pose proof (exp_turned Q _ _ Es Et HQ (turn6_scaled Q xi xi' (soft_step B2 nu e) Hx) HEs HEt) as HEE'.
    split; [|rewrite Ia, Ib; f_equal; symmetry; apply (t_idx Q); auto; [apply (proj1 Hin)|exact (proj2 Ht)]].
    split; [|split].
    - apply (turned_same Q ns _ _ _ _ Pa Pb). apply turned_moved; assumption.
    - rewrite Da, Db, D. reflexivity.
    - eapply turned_ext; [apply meq_sym, Ca|apply meq_sym, Cb|]. apply turned_mul; assumption.
  Qed.
End TLoop.
Section TIter.
  Variables (Q : mat) (ns : nat) (f f' : icp_state -> res icp_state).
  Hypothesis Hok : forall s, good ns s -> exists s', f s = Ok s' /\ good ns s' /\ i_idx s' <> None.
  Hypothesis Hok' : forall s, good ns s -> exists s', f' s = Ok s' /\ good ns s' /\ i_idx s' <> None.
  Hypothesis Hsim : forall s t a b, good ns s -> good ns t -> tsim Q ns s t -> f s = Ok a -> f' t = Ok b -> tsim Q ns a b /\ i_idx a = i_idx b.
  Lemma t_iter n s t : good ns s -> good ns t -> tsim Q ns s t -> n <> 0%nat ->
    exists a b idx, iterate f n s = Ok a /\ iterate f' n t = Ok b /\ tsim Q ns a b /\ good ns a /\ good ns b /\ i_idx a = Some idx /\ i_idx b = Some idx.
  Proof.
    revert s t. induction n as [|n IH]; intros s t Gs Gt S Hn; [congruence|]. cbn [iterate].
    destruct (Hok s Gs) as (s1 & Es & Gs1 & Is). destruct (Hok' t Gt) as (t1 & Et & Gt1 & _).
    destruct (Hsim s t s1 t1 Gs Gt S Es Et) as [S1 I1]. rewrite Es, Et. cbn [rbind]. destruct n as [|n].
    - cbn [iterate]. destruct (i_idx s1) as [idx|] eqn:Ei; [|destruct (Is eq_refl)]. exists s1, t1, idx. repeat split; auto; try apply Gs1; try apply Gt1; try apply S1.
    - apply IH; auto.
  Qed.
  Lemma t_run n src src' init init' damp : cloud_of src ns -> turned_cloud Q ns src src' -> mat44 init -> mat44 init' -> turned_tf Q (ent init []) (ent init' []) -> 0 < damp -> n <> 0%nat ->
    exists T T' idx, (let? s0 := start src init damp in let? s := iterate f n s0 in finish s) = Ok (T, idx) /\
      (let? s0 := start src' init' damp in let? s := iterate f' n s0 in finish s) = Ok (T', idx) /\ mat44 T /\ mat44 T' /\ turned_tf Q (ent T []) (ent T' []).
  Proof.
    intros Hs Ht Hi Hi' HT Hd Hn. destruct (start_ok src init damp ns Hs Hi Hd) as (s0 & E0 & G0 & T0 & D0 & _ & P0).
    destruct (start_ok src' init' damp ns (proj1 Ht) Hi' Hd) as (t0 & F0 & K0 & U0 & V0 & _ & Q0).
    destruct (t_iter n s0 t0 G0 K0) as (a & b & idx & Ea & Eb & (_ & _ & S) & Ga & Gb & Ia & Ib); [|exact Hn|].
    - split; [|split].
      + apply (turned_same Q ns _ _ _ _ P0 Q0). apply turned_moved; [exact HT|exact (proj2 Ht)].
      + congruence.
      + rewrite T0, U0. exact HT.
    - exists (i_T a), (i_T b), idx. rewrite E0, F0. cbn [rbind]. rewrite Ea, Eb. cbn [rbind]. unfold finish. rewrite Ia, Ib. repeat split; auto; [apply Ga|apply Gb].
  Qed.
End TIter.

Lemma p_turn_icp : forall Q nn src tgt nor src' tgt' nor' ns nt th init init' damp n,
  orthogonal3 Q -> icp_input nn src tgt nor ns nt th -> by_distance nn ->
  turned_cloud Q ns src src' -> turned_cloud Q nt tgt tgt' -> turned_cloud Q nt nor nor' ->
  mat44 init -> mat44 init' -> turned_tf Q (ent init []) (ent init' []) -> 0 < damp -> (0 < n)%Z ->
  exists T T' idx, point_to_plane_ICP nn (TTen src) (TTen tgt) (TTen nor) (TTen init) (IntV n) damp th = Ok (T, idx) /\
    point_to_plane_ICP nn (TTen src') (TTen tgt') (TTen nor') (TTen init') (IntV n) damp th = Ok (T', idx) /\
    mat44 T /\ mat44 T' /\ turned_tf Q (ent T []) (ent T' []).
Proof.
  intros Q nn src tgt nor src' tgt' nor' ns nt th init init' damp n HQ Hin Hbd Hs Ht Hn Hi Hi' HT Hd Hp.
  rewrite !icp_unfold by assumption. pose proof (t_input Q nn src tgt nor src' tgt' nor' ns nt th Hin Hs Ht Hn) as Hin'.
  apply (t_run Q ns (icp_iter nn tgt nor th) (icp_iter nn tgt' nor' th)); auto; [| | |apply Hin|lia].
  - intros s G. destruct (icp_iter_ok nn src tgt nor ns nt th Hin s G) as (a & _ & _ & Ha & Ga & _ & _ & _ & Ia & _). exists a. rewrite Ia. repeat split; auto; try apply Ga. discriminate.
  - intros s G. destruct (icp_iter_ok nn src' tgt' nor' ns nt th Hin' s G) as (a & _ & _ & Ha & Ga & _ & _ & _ & Ia & _). exists a. rewrite Ia. repeat split; auto; try apply Ga. discriminate.
  - intros s t a b. apply (t_icp_iter Q nn src tgt nor src' tgt' nor' ns nt th HQ Hbd Hin Hs Ht Hn).
Qed.
Lemma p_turn_grad : forall Q nn src tgt nor src' tgt' nor' ns nt th init init' damp n lmax B B2 nu,
  orthogonal3 Q -> icp_input nn src tgt nor ns nt th -> by_distance nn ->
  turned_cloud Q ns src src' -> turned_cloud Q nt tgt tgt' -> turned_cloud Q nt nor nor' ->
  mat44 init -> mat44 init' -> turned_tf Q (ent init []) (ent init' []) -> 0 < damp -> (0 < n)%Z -> 0 < lmax -> nu <> 0 ->
  exists T T' idx, point_to_plane_gradICP nn (TTen src) (TTen tgt) (TTen nor) (TTen init) (IntV n) damp th (Num lmax) (Num B) (Num B2) (Num nu) = Ok (T, idx) /\
    point_to_plane_gradICP nn (TTen src') (TTen tgt') (TTen nor') (TTen init') (IntV n) damp th (Num lmax) (Num B) (Num B2) (Num nu) = Ok (T', idx) /\
    mat44 T /\ mat44 T' /\ turned_tf Q (ent T []) (ent T' []).
Proof.
  intros Q nn src tgt nor src' tgt' nor' ns nt th init init' damp n lmax B B2 nu HQ Hin Hbd Hs Ht Hn Hi Hi' HT Hd Hp Hl Hnu.
  rewrite !grad_unfold by (assumption || lra). pose proof (t_input Q nn src tgt nor src' tgt' nor' ns nt th Hin Hs Ht Hn) as Hin'.
  apply (t_run Q ns (grad_iter nn tgt nor th lmax B B2 nu) (grad_iter nn tgt' nor' th lmax B B2 nu)); auto; [| | |apply Hin|lia].
  - intros s G. destruct (grad_iter_ok nn src tgt nor ns nt th Hin lmax B B2 nu Hl Hnu s G) as (a & xi & E & E' & Ha & Ga & _ & _ & H). cbv zeta in H. destruct H as (_ & _ & Ia & _).
    exists a. rewrite Ia. repeat split; auto; try apply Ga. discriminate.
  - intros s G. destruct (grad_iter_ok nn src' tgt' nor' ns nt th Hin' lmax B B2 nu Hl Hnu s G) as (a & xi & E & E' & Ha & Ga & _ & _ & H). cbv zeta in H. destruct H as (_ & _ & Ia & _).
    exists a. rewrite Ia. repeat split; auto; try apply Ga. discriminate.
  - intros s t a b. apply (t_grad_iter Q nn src tgt nor src' tgt' nor' ns nt th HQ Hbd Hin Hs Ht Hn); assumption.
Qed.
Lemma first_closest_by_distance : by_distance first_closest.
Proof.
  intros n t t' p p' H. induction n as [|m IH]; [reflexivity|]. cbn [first_closest]. rewrite IH by (intros j Hj; apply H; lia).
  destruct (Nat.eqb_spec m 0) as [E|E]; [reflexivity|].
  assert (L : (first_closest m t' p' < m)%nat) by (apply (proj1 first_closest_nearest); lia).
  rewrite !H by lia. reflexivity.
Qed.
