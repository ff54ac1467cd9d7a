(* C47: solve_linear_system. *)
From Coq Require Import Reals List Arith Bool Lra Lia.
From Verif Require Import Res MatSpec TensorModel RgbdModel MatProofs TensorProofs SolveModel IcpModel IcpSpec SolveProofs.
Import ListNotations.
Local Open Scope R_scope.

Definition damp_ok (d : damp_arg) : Prop := match d with DFloat _ => True | DTen 0 _ => True | _ => False end.

Lemma normal_row n k A d x i : (i < k)%nat ->
  mvec k (normal_mat n A d) x i = rsum n (fun r => A r i * mvec k A x r) + d * x i.
Proof.
  intros Hi. unfold mvec, normal_mat.
  rewrite (rsum_ext k _ (fun j => rsum n (fun r => A r i * A r j) * x j + d * (delta i j * x j))) by (intros; lra).
  rewrite rsum_plus, rsum_mult_l. rewrite (rsum_delta_l k i x Hi). f_equal.
  rewrite (rsum_ext k _ (fun j => rsum n (fun r => A r i * (A r j * x j)))) by (intros; rewrite <- rsum_mult_r; apply rsum_ext; intros; lra).
  rewrite rsum_swap. apply rsum_ext. intros r _. apply rsum_mult_l.
Qed.

(* the cost of y exceeds that of the solution by |A (y - x)|^2 + d |y - x|^2 *)
Lemma ridge_gap n k A b d x y : normal_eq n k A b d x ->
  ridge_cost n k A b d y = ridge_cost n k A b d x +
    (dot n (mvec k A (fun i => y i - x i)) (mvec k A (fun i => y i - x i)) + d * dot k (fun i => y i - x i) (fun i => y i - x i)).
Proof.
  intros H. set (e := fun i => y i - x i).
  assert (Hy : forall r, mvec k A y r = mvec k A x r + mvec k A e r).
  { intros r. unfold e. rewrite mvec_minus. lra. }
  assert (Hb : rsum n (fun r => (mvec k A x r - b r) * mvec k A e r) + d * dot k x e = 0).
  { assert (H1 : rsum n (fun r => (mvec k A x r - b r) * mvec k A e r) = rsum k (fun i => e i * rsum n (fun r => A r i * (mvec k A x r - b r)))).
    { rewrite (rsum_ext n _ (fun r => rsum k (fun i => e i * (A r i * (mvec k A x r - b r))))).
      2:{ intros r _. unfold mvec at 2. rewrite <- rsum_mult_l. apply rsum_ext. intros; lra. }
      rewrite rsum_swap. apply rsum_ext. intros i _. rewrite rsum_mult_l. reflexivity. }
    rewrite H1. unfold dot. rewrite <- rsum_mult_l, <- rsum_plus.
    rewrite (rsum_ext k _ (fun _ => 0)); [apply rsum_0|]. intros i Hi. specialize (H i Hi). rewrite normal_row in H by exact Hi.
    rewrite (rsum_ext n _ (fun r => A r i * mvec k A x r - A r i * b r)) by (intros; lra). rewrite rsum_minus.
    replace (rsum n (fun r => A r i * b r)) with (rsum n (fun r => A r i * mvec k A x r) + d * x i) by exact H. lra. }
  unfold ridge_cost.
  rewrite (rsum_ext n _ (fun r => (mvec k A x r - b r) * (mvec k A x r - b r) + (mvec k A e r * mvec k A e r + 2 * ((mvec k A x r - b r) * mvec k A e r))))
    by (intros r _; rewrite Hy; lra).
  rewrite !rsum_plus, rsum_mult_l.
  assert (Hd : dot k y y = dot k x x + 2 * dot k x e + dot k e e).
  { unfold dot. rewrite <- rsum_mult_l, <- !rsum_plus. apply rsum_ext. intros i _. unfold e. lra. }
  rewrite Hd. fold e. change (rsum n (fun r => mvec k A e r * mvec k A e r)) with (dot n (mvec k A e) (mvec k A e)). lra.
Qed.

Lemma right_inv_injective n M N : meq n n (mmul n M N) mI -> injective_mat n M.
Proof.
  intros H. assert (HN : injective_mat n N) by (apply (inverse_injective n N M H)).
  destruct (inverse_2d_ok (mkTen [n; n] (fun ix => match ix with [j; i] => N i j | _ => 0 end)) n eq_refl) as (y & _ & _ & H1 & H2).
  { exact HN. }
  (* N P = I, hence M = M N P = P and N M = I *)
  set (P := ent y []) in *. apply (inverse_injective n M N).
  intros i j Hi Hj. assert (H1' : meq n n (mmul n N P) mI) by exact H1.
  assert (HMP : meq n n M P).
  { intros a c Ha Hc. transitivity (mmul n M (mmul n N P) a c).
    - unfold mmul at 1. rewrite (rsum_ext n _ (fun l => M a l * delta l c)) by (intros l Hl; rewrite (H1' l c Hl Hc); reflexivity).
      symmetry. apply (rsum_delta_r n c (fun l => M a l) Hc).
    - rewrite <- mmul_assoc. unfold mmul at 1.
      rewrite (rsum_ext n _ (fun l => delta a l * P l c)) by (intros l Hl; rewrite (H a l Ha Hl); reflexivity).
      apply (rsum_delta_l n a (fun l => P l c) Ha). }
  transitivity (mmul n N P i j); [|apply (H1' i j Hi Hj)].
  unfold mmul. apply rsum_ext. intros l Hl. rewrite (HMP l j Hl Hj). reflexivity.
Qed.
Lemma inverse_2d_err (x : ten R) n : dims x = [n; n] -> ~ injective_mat n (ent x []) -> torch_inverse_2d x = Err RuntimeError.
Proof.
  intros Ed Hn. unfold torch_inverse_2d. rewrite Ed, Nat.eqb_refl.
  destruct (forallb _ _) eqn:Ef; [|reflexivity]. exfalso. apply Hn.
  apply (right_inv_injective n _ (fun i j => match gauss n (ent x []) (fun i => delta i j) with Some v => v i | None => 0 end)).
  intros i j Hi Hj. rewrite forallb_forall in Ef. specialize (Ef j (proj2 (in_seq n 0 j) (conj (Nat.le_0_l _) Hj))).
  cbv beta in Ef. unfold mmul, mI. destruct (gauss n (ent x []) (fun i0 => delta i0 j)) as [v|] eqn:E; [|discriminate].
  apply gauss_sound in E. exact (E i Hi).
Qed.

Lemma bshape_sq k : bshape [k; k] [k; k] = Ok [k; k].
Proof. apply bshape_refl. Qed.
Lemma bix_sq k i j : (i < k)%nat -> (j < k)%nat -> bix [k; k] [j; i] = [j; i].
Proof. intros. apply (bix_refl [k; k]). cbn. auto. Qed.

Lemma sls_form (A b : ten R) (d : damp_arg) n k : dims A = [k; n] -> dims b = [1%nat; n] -> damp_ok d ->
  exists m, dims m = [k; k] /\ meq k k (ent m []) (normal_mat n (ent A []) (damp_val d)) /\
  solve_linear_system (TTen A) (TTen b) d =
    (let? inv := torch_inverse_2d m in
     let? atb := matmul (transpose_m A) b in matmul inv atb).
Proof.
  intros EA Eb Hd. destruct A as [dA fA], b as [db fb]. cbn [dims] in EA, Eb. subst dA db.
  unfold solve_linear_system. cbn [need_tensor rbind].
  replace (guard (match d with DBad => false | _ => true end) TypeError) with (Ok tt)
    by (destruct d; [destruct Hd|reflexivity|reflexivity]).
  replace (guard (match d with DTen nd _ => Nat.eqb nd 0 | _ => true end) ValueError) with (Ok tt)
    by (destruct d as [| |[|nd] ?]; [destruct Hd|reflexivity|reflexivity|destruct Hd]).
  cbn [rbind ndim dims length Nat.eqb guard nth]. rewrite Nat.eqb_refl. cbn [guard rbind transpose_m dims].
  unfold matmul at 1. cbn [dims]. rewrite Nat.eqb_refl. cbn [bshape rbind].
  unfold tmap2. cbn [dims scaled_eye]. rewrite bshape_sq. cbn [rbind].
  eexists. split; [|split; [|reflexivity]]; [reflexivity|].
  intros i j Hi Hj. unfold ent. cbn [at_]. rewrite bix_sq by assumption. unfold normal_mat, ent. f_equal.
Qed.

(* the value of matmul (inverse) (A^T b) *)
Lemma sls_tail (A b m inv : ten R) n k d : dims A = [k; n] -> dims b = [1%nat; n] -> dims m = [k; k] ->
  meq k k (ent m []) (normal_mat n (ent A []) d) -> dims inv = [k; k] ->
  meq k k (mmul k (ent m []) (ent inv [])) mI ->
  exists x, (let? atb := matmul (transpose_m A) b in matmul inv atb) = Ok x /\ dims x = [1%nat; k] /\
    normal_eq n k (ent A []) (fun r => at_ b [0%nat; r]) d (fun i => at_ x [0%nat; i]).
Proof.
  intros EA Eb Em Hm Ei Hi. destruct A as [dA fA], b as [db fb], inv as [di fi]. cbn [dims] in EA, Eb, Ei. subst dA db di.
  cbn [transpose_m dims]. unfold matmul. cbn [dims]. rewrite Nat.eqb_refl. cbn [bshape rbind dims].
  rewrite Nat.eqb_refl. cbn [bshape rbind]. eexists. split; [reflexivity|]. split; [reflexivity|].
  intros i Hik. unfold mvec. cbn [at_].
  set (g := fun l => rsum n (fun r => fA (l :: r :: bix [] []) * fb (0%nat :: r :: bix [] []))).
  transitivity (mvec k (mmul k (ent m []) (ent (mkTen [k; k] fi) [])) g i).
  - rewrite mvec_mmul. unfold mvec. apply rsum_ext. intros l Hl. rewrite (Hm i l Hik Hl). reflexivity.
  - rewrite (mvec_ext_mat k k _ mI g Hi i Hik). rewrite mvec_I by exact Hik. reflexivity.
Qed.

(* C47: existence, normal equations *)
Lemma sls_ok (A b : ten R) (d : damp_arg) n k : dims A = [k; n] -> dims b = [1%nat; n] -> damp_ok d ->
  injective_mat k (normal_mat n (ent A []) (damp_val d)) ->
  exists x, solve_linear_system (TTen A) (TTen b) d = Ok x /\ dims x = [1%nat; k] /\
    normal_eq n k (ent A []) (fun r => at_ b [0%nat; r]) (damp_val d) (fun i => at_ x [0%nat; i]).
Proof.
  intros EA Eb Hd Hinj. destruct (sls_form A b d n k EA Eb Hd) as (m & Em & Hm & ->).
  assert (Hinj' : injective_mat k (ent m [])).
  { intros x Hx. apply Hinj. intros i Hi. rewrite <- (Hx i Hi). symmetry. apply (mvec_ext_mat k k _ _ x Hm i Hi). }
  destruct (inverse_2d_ok m k Em Hinj') as (inv & -> & Ei & H1 & _). cbn [rbind].
  apply (sls_tail A b m inv n k _ EA Eb Em Hm Ei H1).
Qed.
Lemma sls_singular (A b : ten R) (d : damp_arg) n k : dims A = [k; n] -> dims b = [1%nat; n] -> damp_ok d ->
  ~ injective_mat k (normal_mat n (ent A []) (damp_val d)) ->
  solve_linear_system (TTen A) (TTen b) d = Err RuntimeError.
Proof.
  intros EA Eb Hd Hinj. destruct (sls_form A b d n k EA Eb Hd) as (m & Em & Hm & ->).
  rewrite (inverse_2d_err m k Em); [reflexivity|]. intros H. apply Hinj. intros x Hx. apply H. intros i Hi.
  rewrite <- (Hx i Hi). apply (mvec_ext_mat k k _ _ x Hm i Hi).
Qed.
Lemma normal_eq_unique n k A b d x y : injective_mat k (normal_mat n A d) -> normal_eq n k A b d x -> normal_eq n k A b d y -> veq k x y.
Proof. intros Hi Hx Hy. apply (inj_unique k (normal_mat n A d) x y Hi). intros i Hk. rewrite (Hx i Hk), (Hy i Hk). reflexivity. Qed.

Lemma p_solve : forall (A b : ten R) (d : damp_arg) n k, shape A = [n; k] -> shape b = [n; 1%nat] -> damp_ok d -> 0 < damp_val d ->
  exists x, solve_linear_system (TTen A) (TTen b) d = Ok x /\ shape x = [k; 1%nat] /\
    let M := ent A [] in let rhs := fun r => at_ b [0%nat; r] in let sol := fun i => at_ x [0%nat; i] in
    normal_eq n k M rhs (damp_val d) sol /\
    (forall y, normal_eq n k M rhs (damp_val d) y -> veq k y sol) /\
    (forall y, ridge_cost n k M rhs (damp_val d) sol <= ridge_cost n k M rhs (damp_val d) y) /\
    (forall y, ridge_cost n k M rhs (damp_val d) y <= ridge_cost n k M rhs (damp_val d) sol -> veq k y sol).
Proof.
  intros A b d n k EA Eb Hd Hp.
  assert (DA : dims A = [k; n]) by (unfold shape in EA; rewrite <- (rev_involutive (dims A)), EA; reflexivity).
  assert (DB : dims b = [1%nat; n]) by (unfold shape in Eb; rewrite <- (rev_involutive (dims b)), Eb; reflexivity).
  pose proof (normal_injective n k (ent A []) (damp_val d) Hp) as Hinj.
  destruct (sls_ok A b d n k DA DB Hd Hinj) as (x & H1 & H2 & H3). exists x. split; [exact H1|].
  split; [unfold shape; rewrite H2; reflexivity|]. cbv zeta. split; [exact H3|].
  split; [intros y Hy; apply (normal_eq_unique _ _ _ _ _ _ _ Hinj Hy H3)|].
  split; intros y; rewrite (ridge_gap n k _ _ _ _ y H3).
  - pose proof (dot_self_nonneg n (mvec k (ent A []) (fun i => y i - at_ x [0%nat; i]))).
    pose proof (dot_self_nonneg k (fun i => y i - at_ x [0%nat; i])). nra.
  - intros Hle. pose proof (dot_self_nonneg n (mvec k (ent A []) (fun i => y i - at_ x [0%nat; i]))).
    pose proof (dot_self_nonneg k (fun i => y i - at_ x [0%nat; i])).
    assert (Hz : dot k (fun i => y i - at_ x [0%nat; i]) (fun i => y i - at_ x [0%nat; i]) = 0) by nra.
    intros i Hi. pose proof (dot_self_zero k _ Hz i Hi) as Hzi. cbn beta in Hzi. lra.
Qed.

(* any damping: solvable exactly when A^T A + d I is non-singular *)
Lemma p_solve_any : forall (A b : ten R) (d : damp_arg) n k, shape A = [n; k] -> shape b = [n; 1%nat] -> damp_ok d ->
  (injective_mat k (normal_mat n (ent A []) (damp_val d)) ->
   exists x, solve_linear_system (TTen A) (TTen b) d = Ok x /\ shape x = [k; 1%nat] /\
     normal_eq n k (ent A []) (fun r => at_ b [0%nat; r]) (damp_val d) (fun i => at_ x [0%nat; i])) /\
  (~ injective_mat k (normal_mat n (ent A []) (damp_val d)) ->
   solve_linear_system (TTen A) (TTen b) d = Err RuntimeError).
Proof.
  intros A b d n k EA Eb Hd.
  assert (DA : dims A = [k; n]) by (unfold shape in EA; rewrite <- (rev_involutive (dims A)), EA; reflexivity).
  assert (DB : dims b = [1%nat; n]) by (unfold shape in Eb; rewrite <- (rev_involutive (dims b)), Eb; reflexivity).
  split; [|apply (sls_singular A b d n k DA DB Hd)].
  intros Hinj. destruct (sls_ok A b d n k DA DB Hd Hinj) as (x & H1 & H2 & H3). exists x. split; [exact H1|].
  split; [unfold shape; rewrite H2; reflexivity|exact H3].
Qed.

Lemma p_solve_rejects : forall (A b : tinp) (d : damp_arg),
  (forall x, A <> TTen x) \/ (forall x, b <> TTen x) \/ d = DBad -> solve_linear_system A b d = Err TypeError.
Proof.
  intros A b d H. unfold solve_linear_system.
  destruct A as [|A|]; try reflexivity. destruct b as [|b|]; try reflexivity. cbn [need_tensor rbind].
  destruct H as [H|[H| ->]]; [destruct (H A eq_refl)|destruct (H b eq_refl)|reflexivity].
Qed.
Lemma p_solve_shapes : forall (A b : ten R) (d : damp_arg),
  d <> DBad ->
  (forall n k, ~ (shape A = [n; k] /\ shape b = [n; 1%nat])) \/ (exists nd v, d = DTen nd v /\ nd <> 0%nat) ->
  solve_linear_system (TTen A) (TTen b) d = Err ValueError.
Proof.
  intros A b d Hd H. unfold solve_linear_system. cbn [need_tensor rbind].
  replace (guard (match d with DBad => false | _ => true end) TypeError) with (Ok tt) by (destruct d; congruence || reflexivity).
  cbn [rbind].
  destruct (match d with DTen nd _ => Nat.eqb nd 0 | _ => true end) eqn:En; [|reflexivity].
  destruct H as [H|(nd & v & -> & Hn)]; [|apply Nat.eqb_eq in En; contradiction].
  cbn [guard rbind]. unfold ndim, shape in *. destruct A as [dA fA], b as [db fb]. cbn [dims] in *.
  destruct dA as [|k [|n [|c s]]]; try reflexivity. cbn [length Nat.eqb guard rbind].
  destruct db as [|o [|n' [|c s]]]; try reflexivity. cbn [length Nat.eqb guard rbind nth].
  destruct (Nat.eqb_spec o 1) as [->|]; [|reflexivity]. cbn [guard rbind].
  destruct (Nat.eqb_spec n n') as [->|]; [|reflexivity]. exfalso. apply (H n' k). split; reflexivity.
Qed.
