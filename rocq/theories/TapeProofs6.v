(* quaternion_to_axisangle. *)
From Coq Require Import Reals List Arith Bool Lia Lra.
From Verif Require Import MatSpec GeomModel TapeModel TapeSpec TapeForms GradSpec GradProofs TapeProofs TapeProofs2 TapeProofs3 TapeProofs4.
Import ListNotations.
Local Open Scope R_scope.

Lemma z3 : 0 * 0 + 0 * 0 + 0 * 0 = 0. Proof. ring. Qed.
Lemma step o p env : xfwd (o :: p) env = xfwd p (env ++ [xop o env]).
Proof. reflexivity. Qed.
Ltac st y := rewrite step; match goal with |- context [xop ?o ?e] => replace (xop o e) with y;
  [cbn [app]|cbn [xop xget nth xmul xadd xopp xdiv xsqrt xatan2 xcond xlt xgt];
    repeat match goal with |- context [if if Rlt_dec ?u ?v then true else false then _ else _] => destruct (Rlt_dec u v) end;
    repeat match goal with |- context [if Rlt_dec ?u ?v then _ else _] => destruct (Rlt_dec u v) end;
    try lra; try reflexivity; try (f_equal; try ring)] end.
Lemma rstep o p env : rfwd (o :: p) env = rfwd p (env ++ [rop o env]).
Proof. reflexivity. Qed.
Lemma astep (P : op -> list R -> Prop) o p env y : rop o env = y -> P o env -> ralong P p (env ++ [y]) -> ralong P (o :: p) env.
Proof. intros <-. now split. Qed.
Lemma askip (P : op -> list R -> Prop) o p env : ralong P (o :: p) env -> ralong P p (env ++ [rop o env]).
Proof. now intros [_ H]. Qed.
Lemma ahead (P : op -> list R -> Prop) o p env : ralong P (o :: p) env -> P o env.
Proof. now intros [H _]. Qed.
(* the results, by name *)
Ltac rs y := rewrite rstep; match goal with |- context [rop ?o ?e] => replace (rop o e) with y; [cbn [app]|cbn [rop rget nth xcond xget reals map xlt xgt]; try reflexivity] end.
Ltac ra y := apply (astep _ _ _ _ y); [cbn [rop rget nth xcond xget reals map xlt xgt]; try reflexivity|unfold smooth_op; cbn [tame_op rget nth away]; try tauto|cbn [app]].
Section AA.
  Variables (j : nat) (a b c w : R).
  Hypothesis Hj : (j < 3)%nat.
  Let s2 := a * a + b * b + c * c.
  Lemma s2_zero : s2 <= 0 -> a = 0 /\ b = 0 /\ c = 0.
  Proof. unfold s2. intros H. pose proof (Rle_0_sqr a) as A. pose proof (Rle_0_sqr b) as B. pose proof (Rle_0_sqr c) as C. unfold Rsqr in *. repeat split; apply Rsqr_0_uniq; unfold Rsqr; lra. Qed.
  Let s := sqrt s2.
  Let t1 := atan2 (-1 * s) (-1 * w).
  Let t2 := atan2 s w.
  Let t3 := if Rlt_dec w 0 then t1 else t2.
  Lemma t_aa_tame : 0 < s2 -> tame (t_axisangle j) [a; b; c; w].
  Proof.
    intros P. assert (Q : 0 < s) by exact (sqrt_lt_R0 _ P). apply tame_r. unfold t_axisangle.
    ra (a * a). ra (b * b). ra (a * a + b * b). ra (c * c). ra s2. ra s. ra (-1 * s). ra (-1 * w).
    ra t1; [left; lra|]. ra t2; [left; lra|]. ra t3; [unfold t3; destruct (Rlt_dec w 0); reflexivity|]. ra (2 * t3). ra (2 * t3 / s); [lra|]. ra 1. ra (2 * 1).
    ra (2 * t3 / s); [destruct (Rlt_dec 0 s2); [reflexivity|contradiction]|]. cbn [ralong tame_op]. tauto.
  Qed.
  Lemma t_aa_smooth : 0 < s2 -> w <> 0 -> smooth (t_axisangle j) [a; b; c; w].
  Proof.
    intros P N. assert (Q : 0 < s) by exact (sqrt_lt_R0 _ P). apply smooth_r. unfold t_axisangle.
    ra (a * a). ra (b * b). ra (a * a + b * b). ra (c * c). ra s2. ra s. ra (-1 * s). ra (-1 * w).
    ra t1; [repeat split; try (left; lra); try (right; lra); lra|]. ra t2; [repeat split; try (left; lra); try (right; lra); lra|].
    ra t3; [unfold t3; destruct (Rlt_dec w 0); reflexivity|]. ra (2 * t3). ra (2 * t3 / s); [split; [lra|exact Logic.I]|]. ra 1. ra (2 * 1).
    ra (2 * t3 / s); [destruct (Rlt_dec 0 s2); [reflexivity|contradiction]|split; [exact Logic.I|lra]|]. cbn [ralong]. unfold smooth_op. cbn [tame_op]. tauto.
  Qed.
  Lemma t_aa_value : 0 < s2 -> last (rfwd (t_axisangle j) [a; b; c; w]) 0 = f_axisangle j [a; b; c; w].
  Proof.
    intros P. unfold t_axisangle.
    rs (a * a). rs (b * b). rs (a * a + b * b). rs (c * c). rs s2. rs s. rs (-1 * s). rs (-1 * w).
    rs t1. rs t2. rs t3; [|unfold t3; destruct (Rlt_dec w 0); reflexivity]. rs (2 * t3). rs (2 * t3 / s). rs 1. rs (2 * 1).
    rs (2 * t3 / s); [|destruct (Rlt_dec 0 s2); [reflexivity|contradiction]].
    assert (F : axisangle_k a b c w = 2 * t3 / s).
    { unfold axisangle_k. cbv zeta. fold s2. fold s. destruct (Rlt_dec 0 s2); [|contradiction]. unfold t3, t1, t2. replace (-1 * s) with (- s) by ring. replace (-1 * w) with (- w) by ring. reflexivity. }
    unfold f_axisangle. change (rget [a; b; c; w] 0) with a. change (rget [a; b; c; w] 1) with b. change (rget [a; b; c; w] 2) with c. change (rget [a; b; c; w] 3) with w. rewrite F.
    destruct j as [|[|[|]]]; [| | |lia]; cbn [rfwd rop rget nth app last]; reflexivity.
  Qed.
  Lemma v_axisangle : xout (t_axisangle j) (reals [a; b; c; w]) = Fin (f_axisangle j [a; b; c; w]).
  Proof.
    destruct (Rlt_dec 0 s2) as [P|P]; [apply value_of; [now apply t_aa_tame|now apply t_aa_value]|].
    destruct (s2_zero ltac:(lra)) as (Ea & Eb & Ec). clear P. subst a b c. unfold f_axisangle, axisangle_k. cbv zeta.
    change (rget [0; 0; 0; w] 0) with 0. change (rget [0; 0; 0; w] 1) with 0. change (rget [0; 0; 0; w] 2) with 0. rewrite z3.
    destruct (Rlt_dec 0 0) as [L|_]; [lra|]. unfold xout, t_axisangle, reals. cbn [map].
    st (Fin 0). st (Fin 0). st (Fin 0). st (Fin 0). st (Fin 0).
    st (Fin 0); [|f_equal; symmetry; apply sqrt_0].
    st (Fin 0). st (Fin (-1 * w)). st (Fin (atan2 0 (-1 * w))). st (Fin (atan2 0 w)).
    set (u1 := atan2 0 (-1 * w)). set (u2 := atan2 0 w). st (Fin (if Rlt_dec w 0 then u1 else u2)).
    set (u3 := if Rlt_dec w 0 then u1 else u2). st (Fin (2 * u3)).
    rewrite step. cbn [app]. set (x16 := xop _ _). clearbody x16. st (Fin 1). st (Fin (2 * 1)). st (Fin (2 * 1)).
    destruct j as [|[|[|]]]; [| | |lia]; cbn [xfwd xop xget nth app last xmul]; unfold rget; cbn [nth]; f_equal; ring.
  Qed.
End AA.
Lemma g_axisangle j a b c w : (j < 3)%nat -> a <> 0 \/ b <> 0 \/ c <> 0 -> Forall is_real (grads (t_axisangle j) [a; b; c; w]).
Proof.
  intros Hj N. apply p_tame, t_aa_tame. destruct (Rlt_dec 0 (a * a + b * b + c * c)) as [P|P]; [exact P|].
  destruct (s2_zero a b c ltac:(lra)) as (-> & -> & ->). exfalso. destruct N as [N|[N|N]]; now apply N.
Qed.
Lemma d_axisangle j a b c w : (j < 3)%nat -> a <> 0 \/ b <> 0 \/ c <> 0 -> w <> 0 ->
  right_gradient (t_axisangle j) (f_axisangle j) [a; b; c; w].
Proof.
  intros Hj N W. assert (P : 0 < a * a + b * b + c * c).
  { destruct (Rlt_dec 0 (a * a + b * b + c * c)) as [P|P]; [exact P|]. destruct (s2_zero a b c ltac:(lra)) as (-> & -> & ->). exfalso. destruct N as [N|[N|N]]; now apply N. }
  apply right_of; [discriminate|now apply t_aa_smooth|]. env4 E. intros T. apply t_aa_value; [exact Hj|].
  apply tame_r in T. unfold t_axisangle in T. do 5 (apply askip in T; cbn [app rop rget nth] in T). apply ahead in T. exact T.
Qed.
(* ---------------------------------------------------------------- nan spreads *)
Definition nanat (G : list xr) (i : nat) : Prop := nth_error G i = Some NaN.
Lemma xadd_nan_r a : xadd a NaN = NaN. Proof. destruct a; reflexivity. Qed.
Lemma xadd_nan_l a : xadd NaN a = NaN. Proof. destruct a; reflexivity. Qed.
Lemma add_keep k c : forall adj i, nanat adj i -> nanat (add_at k c adj) i.
Proof.
  intros adj. revert k. induction adj as [|a adj IH]; intros k i H; [destruct i; discriminate H|]. cbn [add_at]. destruct k as [|k], i as [|i]; try exact H.
  - injection H as ->. reflexivity.
  - now apply IH.
Qed.
Lemma add_push k : forall adj, (k < length adj)%nat -> nanat (add_at k NaN adj) k.
Proof. intros adj. revert k. induction adj as [|a adj IH]; intros k H; [cbn in H; lia|]. destruct k as [|k]; cbn; [unfold nanat; cbn; now rewrite xadd_nan_r|]. apply IH. cbn in H. lia. Qed.
Lemma add_len k c adj : length (add_at k c adj) = length adj.
Proof. revert k. induction adj as [|a adj IH]; intros [|k]; cbn; auto. Qed.
Lemma acc_keep l : forall adj i, nanat adj i -> nanat (accum l adj) i.
Proof. unfold accum. induction l as [|[k c] l IH]; intros adj i H; cbn; [exact H|]. apply IH, add_keep, H. Qed.
Lemma acc_push l : forall adj i, (i < length adj)%nat -> In (i, NaN) l -> nanat (accum l adj) i.
Proof.
  unfold accum. induction l as [|[k c] l IH]; intros adj i H; [intros []|]. intros [E|E]; cbn.
  - injection E as -> ->. apply acc_keep, add_push, H.
  - apply IH; [now rewrite add_len|exact E].
Qed.
Lemma acc_len l : forall adj, length (accum l adj) = length adj.
Proof. unfold accum. induction l as [|[k c] l IH]; intros adj; cbn; [reflexivity|]. now rewrite IH, add_len. Qed.
Lemma xbwd_len p : forall env, (0 < length env)%nat -> length (xbwd p env) = length env.
Proof.
  induction p as [|o p IH]; intros env H; cbn [xbwd].
  - rewrite app_length, repeat_length. cbn. lia.
  - cbv zeta. rewrite acc_len, removelast_len, IH; rewrite app_length; cbn; lia.
Qed.
Lemma nth_removelast {A} (l : list A) i : (S i < length l)%nat -> nth_error (removelast l) i = nth_error l i.
Proof. revert i. induction l as [|a l IH]; intros i H; [reflexivity|]. destruct l as [|b l]; [cbn in H; lia|]. destruct i as [|i]; [reflexivity|]. apply IH. cbn in H |- *. lia. Qed.
Lemma bk_keep o p env i : (i < length env)%nat -> nanat (xbwd p (env ++ [xop o env])) i -> nanat (xbwd (o :: p) env) i.
Proof.
  intros L H. cbn [xbwd]. cbv zeta. apply acc_keep. unfold nanat. rewrite nth_removelast; [exact H|]. rewrite xbwd_len; rewrite app_length; cbn; lia.
Qed.
Lemma bk_push o p env i : (i < length env)%nat -> nanat (xbwd p (env ++ [xop o env])) (length env) ->
  In (i, NaN) (xback o env (xop o env) NaN) -> nanat (xbwd (o :: p) env) i.
Proof.
  intros L H Q. cbn [xbwd]. cbv zeta. set (G := xbwd p (env ++ [xop o env])) in *.
  assert (LG : length G = S (length env)) by (unfold G; rewrite xbwd_len; rewrite app_length; cbn; lia).
  assert (E : last G (Fin 0) = NaN). { clearbody G. unfold nanat in H. assert (Gn : G <> []) by (intros ->; discriminate LG). rewrite (app_removelast_last (Fin 0) Gn) in H. rewrite nth_error_app2 in H by (rewrite removelast_len; lia). rewrite removelast_len, LG in H. replace (length env - (S (length env) - 1))%nat with 0%nat in H by lia. now injection H. }
  rewrite E. apply acc_push; [rewrite removelast_len; lia|exact Q].
Qed.
