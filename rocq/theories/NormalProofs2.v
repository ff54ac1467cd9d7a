(* Gradients of normal maps: cross product, norm and mask. *)
From Coq Require Import Reals List Arith Bool Lia Lra.
From Verif Require Import MatSpec GeomSpec RgbdSpec TapeModel TapeSpec TapeForms GradSpec GradProofs TapeProofs TapeProofs2 TapeProofs3 TapeProofs4 TapeProofs5 TapeProofs6
  VertexTape VertexForms VertexProofs NormalTape NormalForms NormalProofs.
Import ListNotations.
Local Open Scope R_scope.

Definition at3 (env : list R) (k : nat) : vec := fun j => rget env (k + 2 * j).
Definition diff (last : bool) (u v : vec) : vec := fun j => if last then v j - u j else u j - v j.
Definition env_cross (lc lr : bool) (env : list R) : vec := cross (diff lc (at3 env 46) (at3 env 30)) (diff lr (at3 env 62) (at3 env 30)).
Lemma norm_rsum c : norm 3 c = sqrt (c 0%nat * c 0%nat + (c 1%nat * c 1%nat + (c 2%nat * c 2%nat + 0))).
Proof. unfold norm, dot. cbn [rsum]. f_equal. ring. Qed.

(* results stay where they are *)
Lemma rget_app_lt env l n : (n < length env)%nat -> rget (env ++ l) n = rget env n.
Proof. intros H. unfold rget. now rewrite app_nth1. Qed.
Lemma rget_app_eq env x l : rget (env ++ x :: l) (length env) = x.
Proof. unfold rget. rewrite app_nth2 by lia. now rewrite Nat.sub_diag. Qed.
Lemma rfwd_old p : forall env i, (i < length env)%nat -> rget (rfwd p env) i = rget env i.
Proof. induction p as [|o p IH]; intros env i H; [reflexivity|]. cbn [rfwd]. rewrite IH by (rewrite app_length; cbn; lia). now apply rget_app_lt. Qed.
Lemma rfwd_step p k o env : nth_error p k = Some o -> rget (rfwd p env) (length env + k) = rop o (rfwd (firstn k p) env).
Proof.
  intros H. rewrite <- (firstn_skipn k p) at 1. rewrite rfwd_app. destruct (skipn k p) as [|o' q] eqn:E.
  - exfalso. assert (k < length p)%nat by (apply nth_error_Some; congruence). assert (length (skipn k p) = 0)%nat by now rewrite E. rewrite skipn_length in *. lia.
  - assert (o' = o).
    { rewrite <- (firstn_skipn k p), nth_error_app2, E in H by (rewrite firstn_length; lia). rewrite firstn_length in H.
      assert (k < length p)%nat. { assert (0 < length (skipn k p))%nat by (rewrite E; cbn; lia). rewrite skipn_length in *. lia. }
      replace (k - Nat.min k (length p))%nat with 0%nat in H by lia. now injection H. }
    subst o'. cbn [rfwd]. assert (Lk : (length (rfwd (firstn k p) env) = length env + k)%nat).
    { rewrite rfwd_length, firstn_length. assert (k < length p)%nat. { assert (0 < length (skipn k p))%nat by (rewrite E; cbn; lia). rewrite skipn_length in *. lia. } lia. }
    rewrite rfwd_old by (rewrite app_length, Lk; cbn; lia). rewrite <- Lk. apply rget_app_eq.
Qed.
Lemma rfwd_early p k i env : (k <= length p)%nat -> (i < length env + k)%nat -> rget (rfwd (firstn k p) env) i = rget (rfwd p env) i.
Proof.
  intros Hk H. rewrite <- (firstn_skipn k p) at 2. rewrite rfwd_app. symmetry. apply rfwd_old. rewrite rfwd_length, firstn_length. lia.
Qed.
Lemma ralong_all (P : op -> list R -> Prop) p : forall env, (forall k o, nth_error p k = Some o -> P o (rfwd (firstn k p) env)) -> ralong P p env.
Proof.
  induction p as [|o p IH]; intros env H; cbn [ralong]; [exact Logic.I|]. split; [exact (H 0%nat o eq_refl)|]. apply IH. intros k o' E. exact (H (S k) o' E).
Qed.

Section Back.
  Variables (lc lr : bool) (j : nat) (env : list R).
  Hypotheses (L : length env = 67%nat) (Hj : (j < 3)%nat).
  Let T := t_back lc lr j.
  Let e' := rfwd T env.
  Let LT : length T = 20%nat. Proof. reflexivity. Qed.
  Lemma b_old i : (i < 67)%nat -> rget e' i = rget env i.
  Proof. intros H. apply rfwd_old. lia. Qed.
  Lemma b_sub b k x y : nth_error T k = Some (sub_if b x y) -> (x < 67)%nat -> (y < 67)%nat -> rget e' (67 + k) = if b then rget env y - rget env x else rget env x - rget env y.
  Proof.
    intros H Hx Hy. assert (k < 20)%nat by (rewrite <- LT; apply nth_error_Some; congruence). rewrite <- L at 1. unfold e'. rewrite (rfwd_step _ _ _ _ H). unfold sub_if.
    destruct b; cbn [rop]; rewrite !rfwd_early by lia; fold e'; rewrite !b_old by lia; reflexivity.
  Qed.
  Lemma b_sub2 k x y : nth_error T k = Some (OSub x y) -> (x < 67 + k)%nat -> (y < 67 + k)%nat -> rget e' (67 + k) = rget e' x - rget e' y.
  Proof.
    intros H Hx Hy. assert (k < 20)%nat by (rewrite <- LT; apply nth_error_Some; congruence). rewrite <- L at 1. unfold e'. rewrite (rfwd_step _ _ _ _ H). cbn [rop].
    rewrite !rfwd_early by lia. reflexivity.
  Qed.
  Lemma b_mul k x y : nth_error T k = Some (OMul x y) -> (x < 67 + k)%nat -> (y < 67 + k)%nat -> rget e' (67 + k) = rget e' x * rget e' y.
  Proof.
    intros H Hx Hy. assert (k < 20)%nat by (rewrite <- LT; apply nth_error_Some; congruence). rewrite <- L at 1. unfold e'. rewrite (rfwd_step _ _ _ _ H). cbn [rop].
    rewrite !rfwd_early by lia. reflexivity.
  Qed.
  Let c := env_cross lc lr env.
  Lemma b_cross : rget e' 75 = c 0%nat /\ rget e' 78 = c 1%nat /\ rget e' 81 = c 2%nat.
  Proof.
    pose proof (b_sub lc 0 46 30 eq_refl ltac:(lia) ltac:(lia)) as E67. pose proof (b_sub lc 1 48 32 eq_refl ltac:(lia) ltac:(lia)) as E68.
    pose proof (b_sub lc 2 50 34 eq_refl ltac:(lia) ltac:(lia)) as E69. pose proof (b_sub lr 3 62 30 eq_refl ltac:(lia) ltac:(lia)) as E70.
    pose proof (b_sub lr 4 64 32 eq_refl ltac:(lia) ltac:(lia)) as E71. pose proof (b_sub lr 5 66 34 eq_refl ltac:(lia) ltac:(lia)) as E72.
    pose proof (b_mul 6 68 72 eq_refl ltac:(lia) ltac:(lia)) as E73. pose proof (b_mul 7 69 71 eq_refl ltac:(lia) ltac:(lia)) as E74. pose proof (b_sub2 8 73 74 eq_refl ltac:(lia) ltac:(lia)) as E75.
    pose proof (b_mul 9 69 70 eq_refl ltac:(lia) ltac:(lia)) as E76. pose proof (b_mul 10 67 72 eq_refl ltac:(lia) ltac:(lia)) as E77. pose proof (b_sub2 11 76 77 eq_refl ltac:(lia) ltac:(lia)) as E78.
    pose proof (b_mul 12 67 71 eq_refl ltac:(lia) ltac:(lia)) as E79. pose proof (b_mul 13 68 70 eq_refl ltac:(lia) ltac:(lia)) as E80. pose proof (b_sub2 14 79 80 eq_refl ltac:(lia) ltac:(lia)) as E81.
    cbn [Nat.add] in *. rewrite E75, E78, E81, E73, E74, E76, E77, E79, E80, E67, E68, E69, E70, E71, E72.
    unfold c, env_cross, cross, diff, at3. cbn [Nat.add Nat.mul]. repeat split; reflexivity.
  Qed.
  Let n := norm 3 c.
  Let m := if Req_EM_T n 0 then 1 else n.
  Lemma b_norm : rget e' 82 = n.
  Proof.
    destruct b_cross as (A & B & C). change 82%nat with (67 + 15)%nat. rewrite <- L. unfold e'. rewrite (rfwd_step T 15 _ env eq_refl). cbn [rop fold_right rsq].
    rewrite !rfwd_early by lia. fold e'. rewrite A, B, C. unfold n. symmetry. apply norm_rsum.
  Qed.
  Lemma b_one : rget e' 83 = 1.
  Proof. change 83%nat with (67 + 16)%nat. rewrite <- L. unfold e'. now rewrite (rfwd_step T 16 _ env eq_refl). Qed.
  Lemma b_den : rget e' 84 = m.
  Proof.
    change 84%nat with (67 + 17)%nat. rewrite <- L. unfold e'. rewrite (rfwd_step T 17 _ env eq_refl). cbn [rop xcond]. rewrite xget_reals. cbn [xis0].
    rewrite !rfwd_early by lia. fold e'. rewrite b_norm, b_one. unfold m, zero. destruct (Req_EM_T n 0); reflexivity.
  Qed.
  Lemma b_den_nz : m <> 0.
  Proof. unfold m. destruct (Req_EM_T n 0); lra. Qed.
  Lemma b_comp : rget e' (75 + 3 * j) = c j.
  Proof. destruct b_cross as (A & B & C). destruct j as [|[|[|]]]; [exact A|exact B|exact C|lia]. Qed.
  Lemma b_last : last e' 0 = c j / m * rget env 28.
  Proof.
    assert (Le : length e' = 87%nat) by (unfold e'; rewrite rfwd_length, L; reflexivity).
    assert (E : last e' 0 = rget e' 86).
    { unfold rget. destruct (@exists_last _ e') as (l & x & ->); [intros E; rewrite E in Le; discriminate|]. rewrite last_last. rewrite app_length in Le. cbn in Le.
      rewrite app_nth2 by lia. replace (86 - length l)%nat with 0%nat by lia. reflexivity. }
    rewrite E. assert (H3 : (75 + 3 * j < 67 + 18)%nat) by lia.
    assert (E85 : rget e' 85 = c j / m).
    { change 85%nat with (67 + 18)%nat. rewrite <- L at 1. unfold e' at 1. rewrite (rfwd_step T 18 (ODiv (75 + 3 * j) 84) env eq_refl). cbn [rop].
      rewrite (rfwd_early T 18 (75 + 3 * j) env) by (rewrite ?L; lia). rewrite (rfwd_early T 18 84 env) by (rewrite ?L; lia). fold e'. now rewrite b_comp, b_den. }
    pose proof (b_mul 19 85 28 eq_refl ltac:(lia) ltac:(lia)) as E86. cbn [Nat.add] in E86. rewrite E86, E85, b_old by lia. reflexivity.
  Qed.
  (* the division is the operation number 18; the norm 15, the choice 17 *)
  Lemma b_tame : ralong tame_op T env.
  Proof.
    apply ralong_all. intros k o H. assert (Hk : (k < 20)%nat) by (rewrite <- LT; apply nth_error_Some; congruence).
    destruct (Nat.eq_dec k 18) as [->|N18].
    - cbn [nth_error T t_back] in H. injection H as <-. cbn [tame_op]. rewrite rfwd_early by lia. fold e'. rewrite b_den. apply b_den_nz.
    - do 20 (destruct k as [|k]; [first [lia|unfold T, t_back, sub_if in H; cbn [nth_error] in H; injection H as <-; first [exact Logic.I|destruct lc; exact Logic.I|destruct lr; exact Logic.I]]|]). lia.
  Qed.
  Lemma b_smooth : n <> 0 -> ralong smooth_op T env.
  Proof.
    intros N. apply ralong_all. intros k o H. assert (Hk : (k < 20)%nat) by (rewrite <- LT; apply nth_error_Some; congruence).
    destruct (Nat.eq_dec k 15) as [->|N15]; [|destruct (Nat.eq_dec k 17) as [->|N17]; [|destruct (Nat.eq_dec k 18) as [->|N18]]].
    - cbn [nth_error T t_back] in H. injection H as <-. split; [exact Logic.I|]. cbv zeta. destruct b_cross as (A & B & C).
      destruct (Req_EM_T (c 0%nat) 0) as [Ea|Na]; [destruct (Req_EM_T (c 1%nat) 0) as [Eb|Nb]; [destruct (Req_EM_T (c 2%nat) 0) as [Ec|Nc]|]|].
      + exfalso. apply N. unfold n. rewrite norm_rsum, Ea, Eb, Ec. replace (0 * 0 + (0 * 0 + (0 * 0 + 0))) with 0 by ring. apply sqrt_0.
      + exists 81%nat. split; [right; right; now left|]. rewrite rfwd_early by lia. fold e'. now rewrite C.
      + exists 78%nat. split; [right; now left|]. rewrite rfwd_early by lia. fold e'. now rewrite B.
      + exists 75%nat. split; [now left|]. rewrite rfwd_early by lia. fold e'. now rewrite A.
    - cbn [nth_error T t_back] in H. injection H as <-. split; [exact Logic.I|]. cbn [away]. rewrite rfwd_early by lia. fold e'. now rewrite b_norm.
    - cbn [nth_error T t_back] in H. injection H as <-. split; [|exact Logic.I]. cbn [tame_op]. rewrite rfwd_early by lia. fold e'. rewrite b_den. apply b_den_nz.
    - do 20 (destruct k as [|k]; [first [lia|unfold T, t_back, sub_if in H; cbn [nth_error] in H; injection H as <-; unfold smooth_op; cbn [tame_op];
        first [split; exact Logic.I|destruct lc; split; exact Logic.I|destruct lr; split; exact Logic.I]]|]). lia.
  Qed.
End Back.
