(* Gradients of normal maps: pixels without depth, and nan. *)
From Coq Require Import Reals List Arith Bool Lia Lra.
From Verif Require Import MatSpec GeomSpec RgbdSpec TapeModel TapeSpec TapeForms GradSpec GradProofs TapeProofs TapeProofs2 TapeProofs3 TapeProofs4 TapeProofs5 TapeProofs6
  VertexTape VertexForms VertexProofs NormalTape NormalForms NormalProofs NormalProofs2 NormalProofs3.
Import ListNotations.
Local Open Scope R_scope.

Lemma rtan_app p : forall q env d, rtan (p ++ q) env d = rtan q (rfwd p env) (rtan p env d).
Proof. induction p as [|o p IH]; intros q env d; [reflexivity|]. cbn [app rtan rfwd]. apply IH. Qed.
Lemma rtan_old p : forall env d i, (i < length d)%nat -> rget (rtan p env d) i = rget d i.
Proof. induction p as [|o p IH]; intros env d i H; [reflexivity|]. cbn [rtan]. rewrite IH by (rewrite app_length; cbn; lia). now apply rget_app_lt. Qed.
Lemma rtan_length p : forall env d, length (rtan p env d) = (length d + length p)%nat.
Proof. induction p as [|o p IH]; intros env d; cbn [rtan]; [cbn; lia|]. rewrite IH, app_length. cbn. lia. Qed.
Lemma tan28 p q s d0 d1 d2 fx fy cx cy v : d0 <= 0 -> length v = 7%nat -> rget (rtan (t_front p q s) [d0; d1; d2; fx; fy; cx; cy] v) 28 = 0.
Proof.
  intros Hd Hv. do 7 (destruct v as [|? v]; [discriminate Hv|]). destruct v; [|discriminate Hv]. clear Hv.
  unfold t_front, t_intr, t_vtx at 1. cbn [app Nat.add].
  do 19 tany.
  tval 1 0; [|reflexivity|reflexivity]. tval 0 0; [|reflexivity|reflexivity].
  assert (C : (if Rlt_dec 0 d0 then true else false) = false) by (destruct (Rlt_dec 0 d0); [lra|reflexivity]).
  tval 0 0; [|cbn [rop rget nth xcond xget reals map xgt]; rewrite C; reflexivity
             |cbn [rback xcond xget reals map nth xgt]; rewrite C; cbn; ring].
  rewrite rtan_old by (cbn; lia). reflexivity.
Qed.
Lemma n_normal fr b l h w j d0 d1 d2 fx fy cx cy : (j < 3)%nat -> fx <> - / 1000000 -> fy <> - / 1000000 -> d0 <= 0 ->
  grads (t_pixel_normal fr b l h w j) [d0; d1; d2; fx; fy; cx; cy] = reals [0; 0; 0; 0; 0; 0; 0].
Proof.
  intros Hj Hx Hy Hd. apply eps_ne in Hx, Hy. unfold grads. rewrite xbwd_reals by now apply nrm_tame. f_equal. apply inner_ext; [rewrite rbwd_len by (right; discriminate); reflexivity|].
  intros v Hv. rewrite rbwd_len in Hv by (right; discriminate). cbn [length] in Hv. rewrite fwd_rev by (exact Hv || (right; discriminate)).
  unfold t_pixel_normal, t_nrm. rewrite rtan_app.
  set (p := pixel fr b l h w). set (q := pixel fr b l h (beside w (fW fr))). set (s := pixel fr b l (beside h (fH fr)) w).
  set (e := [d0; d1; d2; fx; fy; cx; cy]). pose proof (tan28 p q s d0 d1 d2 fx fy cx cy v Hd Hv) as D. fold e in D.
  pose proof (proj1 (front_facts p q s d0 d1 d2 fx fy cx cy Hx Hy)) as E. fold e in E. destruct (Rlt_dec 0 d0) as [L|_]; [lra|].
  assert (LA : length (rfwd (t_front p q s) e) = 67%nat) by (rewrite rfwd_length; reflexivity).
  assert (LD : length (rtan (t_front p q s) e v) = 67%nat) by (rewrite rtan_length, Hv; reflexivity).
  set (A := rfwd _ e) in *. set (V := rtan _ e v) in *. clearbody A V.
  assert (S : exists r, t_back (negb (S w <? fW fr)%nat) (negb (S h <? fH fr)%nat) j = r ++ [OMul 85 28]).
  { unfold t_back. eexists (_ :: _ :: _ :: _ :: _ :: _ :: _ :: _ :: _ :: _ :: _ :: _ :: _ :: _ :: _ :: _ :: _ :: _ :: _ :: []). reflexivity. }
  destruct S as [r ->]. rewrite rtan_app. cbn [rtan]. rewrite last_last. cbn [rback contrib fold_right fst snd].
  rewrite (rfwd_old r A 28) by lia. rewrite E. change (nth 28 (rtan r A V) 0) with (rget (rtan r A V) 28). rewrite (rtan_old r A V 28) by lia. rewrite D.
  transitivity 0; [ring|]. do 7 (destruct v as [|? v]; [discriminate Hv|]). destruct v; [|discriminate Hv]. cbn. ring.
Qed.
Ltac xnan := xval NaN; [|cbn [xop xget nth]; rewrite ?xmul_nan_r, ?xmul_nan_l; cbn; reflexivity].
Ltac nanz := cbn [xopp]; rewrite ?xmul_nan_r, ?xmul_nan_l, ?xadd_nan_r, ?xadd_nan_l; cbn; rewrite ?xmul_nan_r, ?xmul_nan_l, ?xadd_nan_r, ?xadd_nan_l; reflexivity.
Lemma nan_normal fr b l h w j d0 d2 fx fy cx cy : (j < 3)%nat ->
  xout (t_pixel_normal fr b l h w j) (Fin d0 :: NaN :: reals [d2; fx; fy; cx; cy]) = NaN.
Proof.
  intros Hj. unfold t_pixel_normal. set (p := pixel fr b l h w). set (q := pixel fr b l h (beside w (fW fr))). set (s := pixel fr b l (beside h (fH fr)) w).
  generalize (negb (S w <? fW fr)%nat), (negb (S h <? fH fr)%nat). intros lc lr.
  unfold xout, t_nrm, t_front, t_intr, t_vtx, t_back, reals, sub_if. cbn [app map Nat.add].
  do 38 xany. do 6 xnan. do 16 xany.
  do 3 (xval NaN; [|destruct lc; cbn [xop xget nth]; nanz]). do 3 xany.
  do 9 (xval NaN; [|cbn [xop xget nth]; nanz]).
  xval NaN; [|cbn [xop xget nth map]; nanz]. xany. xval NaN; [|cbn [xop xcond xget nth xis0]; reflexivity].
  xval NaN; [|destruct j as [|[|[|]]]; [| | |lia]; cbn [xop xget nth Nat.add Nat.mul]; reflexivity].
  xval NaN; [|cbn [xop xget nth]; nanz]. reflexivity.
Qed.
