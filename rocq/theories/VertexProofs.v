(* Gradients of vertex maps. *)
From Coq Require Import Reals List Arith Bool Lia Lra.
From Verif Require Import MatSpec GeomSpec RgbdSpec TapeModel TapeSpec GradSpec GradProofs TapeProofs TapeProofs2 TapeProofs3 TapeProofs4 TapeProofs6 VertexTape VertexForms.
Import ListNotations.
Local Open Scope R_scope.

(* ---------------------------------------------------------------- reverse mode = forward mode *)
Lemma back_lin o env y g d : contrib (rback o env y g) d = g * contrib (rback o env y 1) d.
Proof.
  destruct o; cbn [rback contrib fold_right fst snd]; cbv zeta; try (unfold Rdiv; ring).
  - destruct n; cbn [fst snd]; ring.
  - destruct (zero r); cbn [fst snd]; ring.
  - destruct (zero y).
    + induction l as [|i l IH]; cbn [map fold_right fst snd]; [ring|]. rewrite IH at 1. ring.
    + induction l as [|i l IH]; cbn [map fold_right fst snd]; [ring|]. rewrite IH. unfold Rdiv. ring.
  - destruct (xcond c (reals env)); cbn [fold_right fst snd]; ring.
  - destruct (_ || _); ring.
Qed.
Fixpoint rtan (p : list op) (env d : list R) : list R :=
  match p with [] => d | o :: p' => rtan p' (env ++ [rop o env]) (d ++ [contrib (rback o env (rop o env) 1) d]) end.
Lemma fwd_rev p : forall env d, length d = length env -> (0 < length env)%nat \/ p <> [] -> inner (rbwd p env) d = last (rtan p env d) 0.
Proof.
  induction p as [|o p IH]; intros env d L H; cbn [rbwd rtan].
  - destruct H as [H|H]; [|contradiction]. assert (Dn : d <> []) by (intros ->; cbn in L; lia). rewrite (app_removelast_last 0 Dn) at 1.
    rewrite inner_snoc by (rewrite repeat_length, removelast_len; lia). rewrite inner_zeros. ring.
  - cbv zeta. set (y := rop o env). set (G := rbwd p (env ++ [y])).
    assert (LG : length G = S (length env)) by (unfold G; rewrite rbwd_len; rewrite app_length; cbn; [|left]; lia).
    rewrite inner_accum by (rewrite removelast_len; lia). rewrite back_lin.
    rewrite <- IH by (rewrite ?app_length; cbn; lia). fold G. rewrite (split_last G _ LG) at 3. rewrite inner_snoc by (rewrite removelast_len; lia). reflexivity.
Qed.
Lemma inner_ext g g' : length g = length g' -> (forall d, length d = length g -> inner g d = inner g' d) -> g = g'.
Proof.
  revert g'. induction g as [|a g IH]; intros [|a' g'] L H; try discriminate L; [reflexivity|]. injection L as L.
  assert (E : a = a').
  { specialize (H (1 :: repeat 0 (length g))). cbn in H. rewrite repeat_length in H. specialize (H eq_refl).
    assert (Z : forall l n, inner l (repeat 0 n) = 0) by (induction l as [|x l IHl]; intros [|n]; cbn; try reflexivity; rewrite IHl; ring). rewrite !Z in H. lra. }
  subst a'. f_equal. apply IH; [exact L|]. intros d Hd. specialize (H (0 :: d)). cbn in H. rewrite Hd in H. specialize (H eq_refl). lra.
Qed.

(* ---------------------------------------------------------------- steps *)
Ltac ras := match goal with |- ralong ?P (?o :: ?p) ?e =>
  let v := eval cbn [rop rget nth] in (rop o e) in let y := fresh "y" in let E := fresh "E" in
  refine (astep P o p e v eq_refl _ _); [unfold smooth_op; cbn [tame_op rget nth away]; try tauto|cbn [app]; remember v as y eqn:E] end.
Section Vertex.
  Variables (p0 p1 p2 d fx fy cx cy r0 r1 r2 t : R).
  Hypotheses (Hx : fx <> - eps6) (Hy : fy <> - eps6).
  Let e := [d; fx; fy; cx; cy; r0; r1; r2; t].
  Lemma gv_tame : tame (t_gvertex p0 p1 p2) e.
  Proof.
    apply tame_r. unfold t_gvertex, t_ray, t_vertex3, t_pose, e. cbn [app].
    ras. ras; [lra|]. ras. ras. ras; [lra|]. ras. ras. ras. ras; [lra|]. ras. ras. ras; [lra|].
    do 23 ras. exact Logic.I.
  Qed.
  Lemma gv_smooth : d <> 0 -> smooth (t_gvertex p0 p1 p2) e.
  Proof.
    intros N. apply smooth_r. unfold t_gvertex, t_ray, t_vertex3, t_pose, e. cbn [app].
    ras. ras; [split; [lra|exact Logic.I]|]. ras. ras. ras; [split; [lra|exact Logic.I]|]. ras. ras. ras. ras; [split; [lra|exact Logic.I]|]. ras. ras. ras; [split; [lra|exact Logic.I]|].
    do 23 ras. exact Logic.I.
  Qed.
End Vertex.
Ltac rfs := rewrite rstep; match goal with |- context [rfwd _ (?e' ++ [rop ?o ?e'])] =>
  let v := eval cbn [rop rget nth xcond xget reals map xgt] in (rop o e') in change (rop o e') with v; let y := fresh "y" in let E := fresh "E" in remember v as y eqn:E; cbn [app] end.
Lemma gv_value fr b l h w j e : length e = 9%nat -> tame (t_pixel_vertex fr b l h w) e ->
  last (rfwd (t_pixel_vertex fr b l h w) e) 0 = f_gvertex fr b l h w j e.
Proof.
  do 9 (destruct e as [|? e]; [discriminate|]). destruct e; [|discriminate]. rename r into d, r0 into fx, r1 into fy, r2 into cx, r3 into cy, r4 into r0, r5 into r1, r6 into r2, r7 into t.
  intros _ T.
  assert (N : fx + eps6 <> 0 /\ fy + eps6 <> 0).
  { apply tame_r in T. unfold t_pixel_vertex, t_gvertex, t_ray in T. cbn [app] in T. split.
    - apply askip in T; cbn [app rop rget nth] in T. apply ahead in T. exact T.
    - do 4 (apply askip in T; cbn [app rop rget nth] in T). apply ahead in T. exact T. }
  destruct N as [Nx Ny]. clear T. unfold f_gvertex, t_pixel_vertex. cbv zeta.
  set (p := pixel fr b l h w).
  unfold t_gvertex, t_ray, t_vertex3, t_pose. cbn [app].
  do 35 rfs. cbn [rfwd last].
  unfold global_vertex, put. cbn [fpose with_fdep with_fK with_fpose fdep fK]. unfold act, mvec, rot_of, tr_of, vertex, mvec, kinv, pinhole. cbn [fpose with_fdep with_fK with_fpose fdep fK rsum].
  change (pixel (with_fdep (fun _ _ _ _ => rget [d; fx; fy; cx; cy; r0; r1; r2; t] 0) _) b l h w) with p. rewrite Nat.eqb_refl. cbn [rget nth Nat.add]. unfold keep.
  fold eps6. subst. destruct (Rlt_dec 0 d) as [L|L]; [field; split; assumption|ring].
Qed.
Lemma d_gvertex fr b l h w j d fx fy cx cy r0 r1 r2 t : fx <> - / 1000000 -> fy <> - / 1000000 -> d <> 0 ->
  right_gradient (t_pixel_vertex fr b l h w) (f_gvertex fr b l h w j) [d; fx; fy; cx; cy; r0; r1; r2; t].
Proof.
  intros Hx Hy N. apply right_of; [discriminate|now apply gv_smooth|]. intros e' L T. apply gv_value; [exact L|exact T].
Qed.
Lemma v_gvertex fr b l h w j d fx fy cx cy r0 r1 r2 t : fx <> - / 1000000 -> fy <> - / 1000000 ->
  xout (t_pixel_vertex fr b l h w) (reals [d; fx; fy; cx; cy; r0; r1; r2; t]) = Fin (f_gvertex fr b l h w j [d; fx; fy; cx; cy; r0; r1; r2; t]) /\
  Forall is_real (grads (t_pixel_vertex fr b l h w) [d; fx; fy; cx; cy; r0; r1; r2; t]).
Proof.
  intros Hx Hy. assert (T : tame (t_pixel_vertex fr b l h w) [d; fx; fy; cx; cy; r0; r1; r2; t]) by now apply gv_tame.
  split; [|now apply p_tame]. apply value_of; [exact T|]. now apply gv_value.
Qed.
(* missing depth *)
Lemma tstep o p env d y u : rop o env = y -> contrib (rback o env y 1) d = u -> rtan (o :: p) env d = rtan p (env ++ [y]) (d ++ [u]).
Proof. intros <- <-. reflexivity. Qed.
Ltac rt := erewrite tstep; [|reflexivity|reflexivity]; cbn [app]; match goal with |- context [rtan _ (?e' ++ [?y]) _] => idtac | _ => idtac end.
Ltac tany := match goal with |- context [rtan (?o :: ?p) ?e ?d] =>
  rewrite (tstep o p e d _ _ eq_refl eq_refl); generalize (rop o e); let y := fresh "y" in intros y; generalize (contrib (rback o e y 1) d); let u := fresh "u" in intros u; cbn [app] end.
Ltac tval a c := match goal with |- context [rtan (?o :: ?p) ?e ?d] =>
  rewrite (tstep o p e d a c); [cbn [app]| |] end.
Lemma n_gvertex fr b l h w d fx fy cx cy r0 r1 r2 t : fx <> - / 1000000 -> fy <> - / 1000000 -> d <= 0 ->
  grads (t_pixel_vertex fr b l h w) [d; fx; fy; cx; cy; r0; r1; r2; t] = reals [0; 0; 0; 0; 0; 0; 0; 0; 0].
Proof.
  intros Hx Hy Hd. unfold grads. rewrite xbwd_reals by now apply gv_tame. f_equal. apply inner_ext; [rewrite rbwd_len by (right; discriminate); reflexivity|].
  intros v Hv. rewrite rbwd_len in Hv by (right; discriminate). cbn [length] in Hv. rewrite fwd_rev by (exact Hv || (right; discriminate)).
  do 9 (destruct v as [|? v]; [discriminate Hv|]). destruct v; [|discriminate Hv]. clear Hv.
  unfold t_pixel_vertex. cbv zeta. set (p := pixel fr b l h w). unfold t_gvertex, t_ray, t_vertex3, t_pose. cbn [app].
  do 19 tany.
  tval 1 0; [|reflexivity|reflexivity]. tval 0 0; [|reflexivity|reflexivity].
  assert (C : (if Rlt_dec 0 d then true else false) = false) by (destruct (Rlt_dec 0 d); [lra|reflexivity]).
  tval 0 0; [|cbn [rop rget nth xcond xget reals map xgt]; rewrite C; reflexivity
             |cbn [rback xcond xget reals map nth xgt]; rewrite C; cbn; ring].
  do 12 tany. cbn [rtan last app rop rget nth rback contrib fold_right fst snd inner]. ring.
Qed.
(* nan depth *)
Ltac xany := match goal with |- context [xfwd (?o :: ?p) ?e] => rewrite (step o p e); generalize (xop o e); let y := fresh "y" in intros y; cbn [app] end.
Ltac xval a := match goal with |- context [xfwd (?o :: ?p) ?e] => rewrite (step o p e); replace (xop o e) with a; [cbn [app]|] end.
Lemma xmul_nan_r a : xmul a NaN = NaN. Proof. destruct a; reflexivity. Qed.
Lemma xmul_nan_l a : xmul NaN a = NaN. Proof. destruct a; reflexivity. Qed.
Lemma nan_gvertex fr b l h w fx fy cx cy r0 r1 r2 t :
  xout (t_pixel_vertex fr b l h w) (NaN :: reals [fx; fy; cx; cy; r0; r1; r2; t]) = NaN.
Proof.
  unfold t_pixel_vertex. cbv zeta. set (p := pixel fr b l h w). unfold xout, t_gvertex, t_ray, t_vertex3, t_pose, reals. cbn [app map].
  do 19 xany. xval (Fin 1); [|reflexivity]. xval (Fin 0); [|reflexivity]. xval (Fin 0); [|reflexivity].
  do 12 (xval NaN; [|cbn [xop xget nth]; rewrite ?xmul_nan_r, ?xmul_nan_l; cbn; reflexivity]).
  reflexivity.
Qed.
