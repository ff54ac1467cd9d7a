(* A tape: the gradients are the derivatives. *)
From Coq Require Import Reals List Arith Bool Lia Lra.
From Verif Require Import GeomModel TapeModel TapeSpec GradSpec GradProofs TapeProofs TapeProofs2.
Import ListNotations.
Local Open Scope R_scope.

Lemma nth_last (l : list R) : last l 0 = nth (length l - 1) l 0.
Proof. induction l as [|a l IH]; [reflexivity|]. destruct l as [|b l]; [reflexivity|]. change (last (a :: b :: l) 0) with (last (b :: l) 0). rewrite IH. cbn [length nth]. now replace (S (S (length l)) - 1)%nat with (S (S (length l) - 1)) by lia. Qed.
Lemma rget_snoc env r i : rget (env ++ [r]) i = if (i <? length env)%nat then rget env i else if (i =? length env)%nat then r else 0.
Proof.
  unfold rget. destruct (Nat.ltb_spec i (length env)) as [L|L]; [now rewrite app_nth1|]. rewrite app_nth2 by exact L.
  destruct (Nat.eqb_spec i (length env)) as [->|N]; [now rewrite Nat.sub_diag|]. destruct (i - length env)%nat as [|[|k]] eqn:Q; [lia|reflexivity|reflexivity].
Qed.
Lemma split_last (G : list R) n : length G = S n -> G = removelast G ++ [last G 0].
Proof. intros H. apply app_removelast_last. intros ->. discriminate. Qed.

Lemma op_tame_near o (E : R -> list R) t0 d : (forall i, derivable_pt_lim (fun t => rget (E t) i) t0 (nth i d 0)) ->
  smooth_op o (E t0) -> near t0 (fun t => tame_op o (E t)).
Proof.
  intros HD [T S]. pose proof (fun i => lim_diff _ _ _ (HD i)) as D. destruct o; cbn [tame_op] in *; try (apply near_all; intros; exact Logic.I).
  - now apply (near_ne (fun t => rget (E t) j)).
  - now apply (near_ne (fun t => rget (E t) i)).
  - now apply (near_gt (fun t => rget (E t) i)).
  - destruct S as [SJ _]. apply (near_imp t0 (fun t => rget (E t) j <> 0)); [intros; now right|]. now apply (near_ne (fun t => rget (E t) j)).
  - now apply (near_gt (fun t => rget (E t) i)).
Qed.
Lemma tape_lim p : forall (E : R -> list R) t0 d n,
  (forall t, length (E t) = n) -> length d = n -> (0 < n)%nat \/ p <> [] ->
  (forall i, derivable_pt_lim (fun t => rget (E t) i) t0 (nth i d 0)) -> smooth p (E t0) ->
  derivable_pt_lim (fun t => last (rfwd p (E t)) 0) t0 (inner (rbwd p (E t0)) d) /\ near t0 (fun t => tame p (E t)).
Proof.
  induction p as [|o p IH]; intros E t0 d n HE Hd Hn HD HS.
  - split; [|apply near_all; intros; exact Logic.I]. cbn [rfwd rbwd]. destruct Hn as [Hn|Hn]; [|contradiction]. rewrite (HE t0).
    assert (Dn : d <> []) by (intros ->; cbn in Hd; lia). rewrite (app_removelast_last 0 Dn) at 1.
    rewrite inner_snoc by (rewrite repeat_length, removelast_len; lia). rewrite inner_zeros, nth_last, Hd.
    eapply lim_near; [apply near_all|]; [intros t; rewrite nth_last, HE; reflexivity|]. eapply lim_eq; [|exact (HD (n - 1)%nat)]. ring.
  - destruct HS as [S1 S2]. destruct (op_lim E t0 d HD o S1) as (s & L & C).
    rewrite (xop_reals o (E t0)) in S2 by apply S1. cbn [real_of] in S2.
    assert (HD' : forall i, derivable_pt_lim (fun t => rget (E t ++ [rop o (E t)]) i) t0 (nth i (d ++ [s]) 0)).
    { intros i. change (nth i (d ++ [s]) 0) with (rget (d ++ [s]) i). rewrite rget_snoc, Hd.
      eapply lim_near; [apply near_all; intros t; rewrite rget_snoc, HE; reflexivity|].
      destruct (i <? n)%nat; [apply HD|]. destruct (i =? n)%nat; [exact L|apply derivable_pt_lim_const]. }
    specialize (IH (fun t => E t ++ [rop o (E t)]) t0 (d ++ [s]) (S n)). cbn beta in IH.
    assert (IH' := IH ltac:(intros t; rewrite app_length, HE; cbn; lia) ltac:(rewrite app_length, Hd; cbn; lia) ltac:(left; lia) HD' S2). clear IH.
    destruct IH' as [IH' NT]. split; [|eapply near_imp; [|exact (near_and _ _ _ (op_tame_near o E t0 d HD S1) NT)]; intros t [A B]; split; [exact A|]; rewrite (xop_reals o (E t) A); exact B].
    cbn [rfwd rbwd]. cbv zeta. eapply lim_eq; [|exact IH'].
    set (G := rbwd p (E t0 ++ [rop o (E t0)])). assert (LG : length G = S n) by (unfold G; rewrite rbwd_len; rewrite app_length, HE; cbn; [|left]; lia).
    rewrite inner_accum by (rewrite removelast_len; lia). rewrite C. rewrite (split_last G n LG) at 1.
    rewrite inner_snoc by (rewrite removelast_len; lia). reflexivity.
Qed.
Lemma moves_nth e t0 d : moves e t0 d -> forall i, derivable_pt_lim (fun t => rget (at_time e t) i) t0 (nth i d 0).
Proof.
  intros H. induction H as [|f v e d H H' IH]; intros i.
  - apply lim_near with (fun _ => 0); [apply near_all; intros t; unfold rget; destruct i; reflexivity|]. destruct i; apply derivable_pt_lim_const.
  - destruct i as [|i]; [exact H|exact (IH i)].
Qed.

(* ---------------------------------------------------------------- the two general theorems *)
Lemma p_tame p env : tame p env -> is_real (xout p (reals env)) /\ Forall is_real (grads p env).
Proof.
  intros T. split; [eexists; now apply xout_reals|]. unfold grads. rewrite xbwd_reals by exact T. apply Forall_forall. intros x Hx. unfold reals in Hx.
  apply in_map_iff in Hx. destruct Hx as (r & <- & _). now exists r.
Qed.
Lemma p_smooth p env : p <> [] -> smooth p env -> right_gradient p (value p) env.
Proof.
  intros Hp S. pose proof (smooth_tame _ _ S) as T. exists (rbwd p env). split; [now apply xbwd_reals|]. split; [apply rbwd_len; now right|].
  intros e t0 d E M. assert (LM : length e = length d) by (clear E; induction M; cbn; auto).
  assert (HL : forall t, length (at_time e t) = length e) by (intros t; apply map_length).
  pose proof (tape_lim p (at_time e) t0 d (length e) HL (eq_sym LM) (or_intror Hp) (moves_nth e t0 d M)) as L. rewrite E in L. specialize (L S).
  destruct L as [L N]. eapply lim_near; [|exact L]. eapply near_imp; [|exact N]. intros t Ht. unfold value. now rewrite xout_reals.
Qed.
