(* Counterexamples for C16, C17, C19, C20, C22. *)
From Coq Require Import Reals List Arith Bool Lia Lra ZArith.
From Verif Require Import Res MatSpec TensorModel ShapeSpec TensorProofs LinAlgModel ProjModel GeomModel GeomSpec
  MatProofs ProjProofs ProjPropProofs GeomProofs GeomPtsProofs QuatProofs.
Import ListNotations.
Local Open Scope nat_scope.

(* C16 *)
Lemma p_project_leading : exists cam P out : ten R,
  shape cam = [2; 1; 5; 3] /\ shape P = [2; 7; 4; 4] /\ doc_shapes 4 P cam /\
  project_points cam P = Ok out /\ shape out = [2; 7; 5; 2].
Proof.
  exists (mkTen [3; 5; 1; 2] (fun _ => 0%R)), (mkTen [4; 4; 7; 2] (fun _ => 0%R)).
  eexists. split; [reflexivity|]. split; [reflexivity|]. split.
  - exists 3, 5, [1; 2], [7; 2]. cbn. repeat split; auto.
  - split; [reflexivity|reflexivity].
Qed.

(* C17 *)
Lemma p_inv_intr_wrong : forall (K : ten R) eps k s (fx fy cx cy : list nat -> R),
  (k = 3 \/ k = 4) -> dims K = k :: k :: s -> (eps <> 0)%R ->
  (forall r, vix s r -> meq k k (ent K r) (pinhole (fx r) (fy r) (cx r) (cy r) 0) /\ fx r + eps <> 0)%R ->
  exists Ki, inverse_intrinsics K eps = Ok Ki /\ forall r, vix s r -> ~ inverse_of k (ent K r) (ent Ki r).
Proof.
  intros K eps k s fx fy cx cy Hk E He HK. destruct (inv_intr_ok K eps k s E Hk) as (Ki & Hi & Ei & Hat).
  exists Ki. split; [exact Hi|]. intros r Hr [HI _]. destruct (HK r Hr) as [Hm Hx].
  specialize (HI 0 0 ltac:(lia) ltac:(lia)).
  assert (E00 : ent K r 0 0 = fx r) by (rewrite Hm by lia; reflexivity).
  assert (HS : mmul k (ent K r) (ent Ki r) 0 0 = (fx r * (1 / (fx r + eps)))%R).
  { unfold mmul. rewrite (rsum_ext k _ (fun l => delta 0 l * (fx r * (1 / (fx r + eps)))))%R.
    - rewrite (rsum_delta_l k 0 (fun _ => fx r * (1 / (fx r + eps)))%R) by lia. reflexivity.
    - intros l Hl. rewrite (Hat r l 0) by lia. rewrite Hm by lia. destruct l as [|[|[|[|l]]]]; cbn; rewrite ?E00; try ring; lia. }
  rewrite HS in HI. unfold mI, delta in HI. cbn in HI. apply He.
  assert (fx r * (1 / (fx r + eps)) * (fx r + eps) = fx r)%R by (field; exact Hx). rewrite HI in H. lra.
Qed.

(* C19 *)
Lemma p_shape_errors :
  (forall T : ten R, shape T = [3; 3] -> inverse_transfom_3d T = Err IndexError) /\
  (forall (T : ten R) a b, shape T = [a; b; 4; 4] -> inverse_transfom_3d T = Err TypeError) /\
  (forall T : ten R, shape T = [5; 5] -> exists out, inverse_transfom_3d T = Ok out /\ shape out = [5; 5]).
Proof.
  assert (H : forall (T : ten R) s, shape T = s -> dims T = rev s).
  { intros T s E. rewrite <- E. unfold shape. rewrite rev_involutive. reflexivity. }
  split; [|split].
  - intros [d f] E. apply H in E. cbn [dims] in E. subst d. reflexivity.
  - intros [d f] a b E. apply H in E. cbn [dims] in E. subst d. reflexivity.
  - intros [d f] E. apply H in E. cbn [dims] in E. subst d. eexists. split; reflexivity.
Qed.

(* C22 *)
Lemma p_quat_tiny : exists q M, shape q = [4] /\ norm 4 (comp q []) <> 0%R /\
  quaternion_to_rotation_matrix q = Ok M /\ ~ orthogonal3 (ent M []).
Proof.
  set (e := (/ 10000000000000)%R).
  exists (mkTen [4] (fun ix => match ix with [0] => e | _ => 0%R end)).
  eexists. split; [reflexivity|].
  assert (Hn : norm 4 (fun i => match i with 0 => e | _ => 0%R end) = e).
  { unfold norm, dot. cbn [rsum]. replace (0 + e * e + 0 * 0 + 0 * 0 + 0 * 0)%R with (e * e)%R by ring.
    apply sqrt_square. unfold e. lra. }
  assert (Hc : forall i, comp (mkTen [4] (fun ix => match ix with [0] => e | _ => 0%R end)) [] i = match i with 0 => e | _ => 0%R end).
  { intros [|i]; reflexivity. }
  assert (Hn' : norm 4 (comp (mkTen [4] (fun ix => match ix with [0] => e | _ => 0%R end)) []) = e).
  { transitivity (norm 4 (fun i => match i with 0 => e | _ => 0%R end)); [|exact Hn]. unfold norm. f_equal. }
  split; [rewrite Hn'; unfold e; lra|]. split; [reflexivity|].
  intros [H _]. specialize (H 1 1 ltac:(lia) ltac:(lia)). revert H.
  unfold mmul, mtr, ent. cbn [rsum at_ unravel nth Nat.mul Nat.add quat_entries tl dims mI].
  unfold comp. cbn [at_]. unfold comp. cbn [at_]. rewrite quat_norm_norm, Hn'.
  unfold Rmax. destruct (Rle_dec e eps12) as [_|C]; [|unfold e, eps12 in C; lra].
  assert (Hq : (e / eps12 = 1 / 10)%R) by (unfold e, eps12; field). rewrite Hq.
  unfold mI, delta. cbn [Nat.eqb]. unfold Rdiv. rewrite !Rmult_0_l. intros H. lra.
Qed.

Lemma p_quat_flat : forall (q : ten R) a b, shape q = [a; b; 4] ->
  exists M, quaternion_to_rotation_matrix q = Ok M /\ shape M = [a * b; 3; 3].
Proof.
  intros q a b E. assert (Ed : dims q = [4; b; a]) by (rewrite <- (rev_involutive (dims q)); unfold shape in E; rewrite E; reflexivity).
  destruct (p_quat_rot q [b; a] Ed) as (M & HM & EM & _). exists M. split; [exact HM|].
  unfold shape. rewrite EM. cbn. f_equal. lia.
Qed.
