(* quaternion_to_axisangle at the identity rotation. *)
From Coq Require Import Reals List Arith Bool Lia Lra.
From Verif Require Import MatSpec GeomModel TapeModel TapeSpec TapeForms TapeProofs TapeProofs2 TapeProofs3 TapeProofs4 TapeProofs6.
Import ListNotations.
Local Open Scope R_scope.

Definition tailops (j : nat) : list op := [ODiv 15 9; OConst 1; OScale 2 17; OWhere (CGt 8 0) 16 18; OMul j 19].
Lemma bstep o p env G y g : xop o env = y -> xbwd p (env ++ [y]) = G -> last G (Fin 0) = g ->
  xbwd (o :: p) env = accum (xback o env y g) (removelast G).
Proof. intros <- <- <-. reflexivity. Qed.
(* [zz]: entries that do not matter *)
Lemma tail_nan j x3 x4 x5 x6 x7 x10 x11 x12 x13 x14 x15 : (j < 3)%nat ->
  nanat (xbwd (tailops j) [Fin 0; Fin 0; Fin 0; x3; x4; x5; x6; x7; Fin 0; Fin 0; x10; x11; x12; x13; x14; x15]) 15.
Proof.
  intros Hj. unfold tailops.
  assert (A : forall x16, exists l, length l = 16%nat /\ xbwd [OConst 1; OScale 2 17; OWhere (CGt 8 0) 16 18; OMul j 19]
     [Fin 0; Fin 0; Fin 0; x3; x4; x5; x6; x7; Fin 0; Fin 0; x10; x11; x12; x13; x14; x15; x16] = l ++ [Fin 0]).
  { intros x16.
    assert (C : (if Rlt_dec 0 0 then true else false) = false) by (destruct (Rlt_dec 0 0); [lra|reflexivity]).
    assert (D1 : xbwd [OMul j 19] [Fin 0; Fin 0; Fin 0; x3; x4; x5; x6; x7; Fin 0; Fin 0; x10; x11; x12; x13; x14; x15; x16; Fin 1; Fin (2 * 1); Fin (2 * 1)]
      = accum [(j, Fin (1 * (2 * 1)))] (repeat (Fin 0) 19 ++ [Fin (0 + 1 * 0)])).
    { destruct j as [|[|[|]]]; [| | |lia]; reflexivity. }
    assert (D2 : exists l, length l = 16%nat /\ xbwd [OWhere (CGt 8 0) 16 18; OMul j 19] [Fin 0; Fin 0; Fin 0; x3; x4; x5; x6; x7; Fin 0; Fin 0; x10; x11; x12; x13; x14; x15; x16; Fin 1; Fin (2 * 1)]
      = l ++ [Fin 0; Fin 0; Fin 0]).
    { erewrite (bstep (OWhere (CGt 8 0) 16 18) [OMul j 19] [Fin 0; Fin 0; Fin 0; x3; x4; x5; x6; x7; Fin 0; Fin 0; x10; x11; x12; x13; x14; x15; x16; Fin 1; Fin (2 * 1)] _ (Fin (2 * 1)) (Fin (0 + 1 * 0))); [| |exact D1|];
      [|cbn [xop xget nth xcond xgt]; rewrite C; reflexivity|destruct j as [|[|[|]]]; [| | |lia]; reflexivity].
      cbn [xback xcond xget nth xgt]. rewrite C. replace (0 + 1 * 0) with 0 by ring.
      destruct j as [|[|[|]]]; [| | |lia]; cbn; rewrite !Rplus_0_r; eexists [_;_;_;_;_;_;_;_;_;_;_;_;_;_;_;_]; (split; [reflexivity|reflexivity]). }
    destruct D2 as (l & L & D2).
    assert (D3 : xbwd [OScale 2 17; OWhere (CGt 8 0) 16 18; OMul j 19] [Fin 0; Fin 0; Fin 0; x3; x4; x5; x6; x7; Fin 0; Fin 0; x10; x11; x12; x13; x14; x15; x16; Fin 1]
      = l ++ [Fin 0; Fin 0]).
    { rewrite (bstep (OScale 2 17) _ [Fin 0; Fin 0; Fin 0; x3; x4; x5; x6; x7; Fin 0; Fin 0; x10; x11; x12; x13; x14; x15; x16; Fin 1] _ (Fin (2 * 1)) (Fin 0) eq_refl D2); [|change [Fin 0; Fin 0; Fin 0] with ([Fin 0; Fin 0] ++ [Fin 0]); rewrite app_assoc; apply last_last].
      change [Fin 0; Fin 0; Fin 0] with ([Fin 0; Fin 0] ++ [Fin 0]). rewrite app_assoc, removelast_last.
      do 16 (destruct l as [|? l]; [discriminate L|]). destruct l; [|discriminate L]. cbn. rewrite Rmult_0_l, Rplus_0_r. reflexivity. }
    exists l. split; [exact L|]. rewrite (bstep (OConst 1) _ [Fin 0; Fin 0; Fin 0; x3; x4; x5; x6; x7; Fin 0; Fin 0; x10; x11; x12; x13; x14; x15; x16] _ (Fin 1) (Fin 0) eq_refl D3); [|change [Fin 0; Fin 0] with ([Fin 0] ++ [Fin 0]); rewrite app_assoc; apply last_last].
    change [Fin 0; Fin 0] with ([Fin 0] ++ [Fin 0]). rewrite app_assoc, removelast_last. reflexivity. }
  destruct (A (xop (ODiv 15 9) [Fin 0; Fin 0; Fin 0; x3; x4; x5; x6; x7; Fin 0; Fin 0; x10; x11; x12; x13; x14; x15])) as (l & L & E).
  rewrite (bstep (ODiv 15 9) _ [Fin 0; Fin 0; Fin 0; x3; x4; x5; x6; x7; Fin 0; Fin 0; x10; x11; x12; x13; x14; x15] (l ++ [Fin 0]) _ (Fin 0) eq_refl E (last_last l (Fin 0) (Fin 0))). rewrite removelast_last.
  apply acc_push; [rewrite L; lia|]. cbn [xback xget nth]. left. f_equal. cbn. now rewrite zero_true.
Qed.
Lemma nan4 (G : list xr) : length G = 4%nat -> nanat G 0 -> nanat G 1 -> nanat G 2 -> nanat G 3 -> G = [NaN; NaN; NaN; NaN].
Proof. destruct G as [|a [|b [|c [|d [|]]]]]; cbn; try discriminate. unfold nanat. cbn. congruence. Qed.
Lemma push o p env env' i : env ++ [xop o env] = env' -> nanat (xbwd p env') (length env) -> (i < length env)%nat ->
  In (i, NaN) (xback o env (xop o env) NaN) -> nanat (xbwd (o :: p) env) i.
Proof. intros <- H L Q. now apply bk_push. Qed.
Lemma keep o p env env' i : env ++ [xop o env] = env' -> nanat (xbwd p env') i -> (i < length env)%nat -> nanat (xbwd (o :: p) env) i.
Proof. intros <- H L. now apply bk_keep. Qed.
Definition t1 (w : R) := atan2 0 (-1 * w).
Definition t2 (w : R) := atan2 0 w.
Definition t3 (w : R) := if Rlt_dec w 0 then t1 w else t2 w.
Definition e4 (w : R) : list xr := [Fin 0; Fin 0; Fin 0; Fin w].
Definition e5 (w : R) : list xr := [Fin 0; Fin 0; Fin 0; Fin w; Fin 0].
Definition e6 (w : R) : list xr := [Fin 0; Fin 0; Fin 0; Fin w; Fin 0; Fin 0].
Definition e7 (w : R) : list xr := [Fin 0; Fin 0; Fin 0; Fin w; Fin 0; Fin 0; Fin 0].
Definition e8 (w : R) : list xr := [Fin 0; Fin 0; Fin 0; Fin w; Fin 0; Fin 0; Fin 0; Fin 0].
Definition e9 (w : R) : list xr := [Fin 0; Fin 0; Fin 0; Fin w; Fin 0; Fin 0; Fin 0; Fin 0; Fin 0].
Definition e10 (w : R) : list xr := [Fin 0; Fin 0; Fin 0; Fin w; Fin 0; Fin 0; Fin 0; Fin 0; Fin 0; Fin 0].
Definition e11 (w : R) : list xr := [Fin 0; Fin 0; Fin 0; Fin w; Fin 0; Fin 0; Fin 0; Fin 0; Fin 0; Fin 0; Fin 0].
Definition e12 (w : R) : list xr := [Fin 0; Fin 0; Fin 0; Fin w; Fin 0; Fin 0; Fin 0; Fin 0; Fin 0; Fin 0; Fin 0; Fin (-1 * w)].
Definition e13 (w : R) : list xr := [Fin 0; Fin 0; Fin 0; Fin w; Fin 0; Fin 0; Fin 0; Fin 0; Fin 0; Fin 0; Fin 0; Fin (-1 * w); Fin (t1 w)].
Definition e14 (w : R) : list xr := [Fin 0; Fin 0; Fin 0; Fin w; Fin 0; Fin 0; Fin 0; Fin 0; Fin 0; Fin 0; Fin 0; Fin (-1 * w); Fin (t1 w); Fin (t2 w)].
Definition e15 (w : R) : list xr := [Fin 0; Fin 0; Fin 0; Fin w; Fin 0; Fin 0; Fin 0; Fin 0; Fin 0; Fin 0; Fin 0; Fin (-1 * w); Fin (t1 w); Fin (t2 w); Fin (t3 w)].
Definition e16 (w : R) : list xr := [Fin 0; Fin 0; Fin 0; Fin w; Fin 0; Fin 0; Fin 0; Fin 0; Fin 0; Fin 0; Fin 0; Fin (-1 * w); Fin (t1 w); Fin (t2 w); Fin (t3 w); Fin (2 * t3 w)].
Definition s16 (j : nat) := tailops j.
Definition s15 (j : nat) : list op := OScale 2 14 :: s16 j.
Definition s14 (j : nat) : list op := OWhere (CLt 3 0) 12 13 :: s15 j.
Definition s13 (j : nat) : list op := OAtan2 9 3 :: s14 j.
Definition s12 (j : nat) : list op := OAtan2 10 11 :: s13 j.
Definition s11 (j : nat) : list op := OScale (-1) 3 :: s12 j.
Definition s10 (j : nat) : list op := OScale (-1) 9 :: s11 j.
Definition s9 (j : nat) : list op := OSqrt 8 :: s10 j.
Definition s8 (j : nat) : list op := OAdd 6 7 :: s9 j.
Definition s7 (j : nat) : list op := OMul 2 2 :: s8 j.
Definition s6 (j : nat) : list op := OAdd 4 5 :: s7 j.
Definition s5 (j : nat) : list op := OMul 1 1 :: s6 j.
Definition s4 (j : nat) : list op := OMul 0 0 :: s5 j.
Lemma q4 w : e4 w ++ [xop (OMul 0 0) (e4 w)] = e5 w.
Proof. unfold e4, e5. cbn [app]. replace (xop (OMul 0 0) [Fin 0; Fin 0; Fin 0; Fin w]) with (Fin 0); [reflexivity|]. symmetry. cbn [xop xget nth xmul xadd]; repeat f_equal; ring. Qed.
Lemma q5 w : e5 w ++ [xop (OMul 1 1) (e5 w)] = e6 w.
Proof. unfold e5, e6. cbn [app]. replace (xop (OMul 1 1) [Fin 0; Fin 0; Fin 0; Fin w; Fin 0]) with (Fin 0); [reflexivity|]. symmetry. cbn [xop xget nth xmul xadd]; repeat f_equal; ring. Qed.
Lemma q6 w : e6 w ++ [xop (OAdd 4 5) (e6 w)] = e7 w.
Proof. unfold e6, e7. cbn [app]. replace (xop (OAdd 4 5) [Fin 0; Fin 0; Fin 0; Fin w; Fin 0; Fin 0]) with (Fin 0); [reflexivity|]. symmetry. cbn [xop xget nth xmul xadd]; repeat f_equal; ring. Qed.
Lemma q7 w : e7 w ++ [xop (OMul 2 2) (e7 w)] = e8 w.
Proof. unfold e7, e8. cbn [app]. replace (xop (OMul 2 2) [Fin 0; Fin 0; Fin 0; Fin w; Fin 0; Fin 0; Fin 0]) with (Fin 0); [reflexivity|]. symmetry. cbn [xop xget nth xmul xadd]; repeat f_equal; ring. Qed.
Lemma q8 w : e8 w ++ [xop (OAdd 6 7) (e8 w)] = e9 w.
Proof. unfold e8, e9. cbn [app]. replace (xop (OAdd 6 7) [Fin 0; Fin 0; Fin 0; Fin w; Fin 0; Fin 0; Fin 0; Fin 0]) with (Fin 0); [reflexivity|]. symmetry. cbn [xop xget nth xmul xadd]; repeat f_equal; ring. Qed.
Lemma q9 w : e9 w ++ [xop (OSqrt 8) (e9 w)] = e10 w.
Proof. unfold e9, e10. cbn [app]. replace (xop (OSqrt 8) [Fin 0; Fin 0; Fin 0; Fin w; Fin 0; Fin 0; Fin 0; Fin 0; Fin 0]) with (Fin 0); [reflexivity|]. symmetry. cbn [xop xget nth xsqrt]; destruct (Rlt_dec 0 0); [lra|]; now rewrite sqrt_0. Qed.
Lemma q10 w : e10 w ++ [xop (OScale (-1) 9) (e10 w)] = e11 w.
Proof. unfold e10, e11. cbn [app]. replace (xop (OScale (-1) 9) [Fin 0; Fin 0; Fin 0; Fin w; Fin 0; Fin 0; Fin 0; Fin 0; Fin 0; Fin 0]) with (Fin 0); [reflexivity|]. symmetry. cbn [xop xget nth xmul xadd]; repeat f_equal; ring. Qed.
Lemma q11 w : e11 w ++ [xop (OScale (-1) 3) (e11 w)] = e12 w.
Proof. unfold e11, e12. cbn [app]. replace (xop (OScale (-1) 3) [Fin 0; Fin 0; Fin 0; Fin w; Fin 0; Fin 0; Fin 0; Fin 0; Fin 0; Fin 0; Fin 0]) with (Fin (-1 * w)); [reflexivity|]. symmetry. reflexivity. Qed.
Lemma q12 w : e12 w ++ [xop (OAtan2 10 11) (e12 w)] = e13 w.
Proof. unfold e12, e13. cbn [app]. replace (xop (OAtan2 10 11) [Fin 0; Fin 0; Fin 0; Fin w; Fin 0; Fin 0; Fin 0; Fin 0; Fin 0; Fin 0; Fin 0; Fin (-1 * w)]) with (Fin (t1 w)); [reflexivity|]. symmetry. reflexivity. Qed.
Lemma q13 w : e13 w ++ [xop (OAtan2 9 3) (e13 w)] = e14 w.
Proof. unfold e13, e14. cbn [app]. replace (xop (OAtan2 9 3) [Fin 0; Fin 0; Fin 0; Fin w; Fin 0; Fin 0; Fin 0; Fin 0; Fin 0; Fin 0; Fin 0; Fin (-1 * w); Fin (t1 w)]) with (Fin (t2 w)); [reflexivity|]. symmetry. reflexivity. Qed.
Lemma q14 w : e14 w ++ [xop (OWhere (CLt 3 0) 12 13) (e14 w)] = e15 w.
Proof. unfold e14, e15. cbn [app]. replace (xop (OWhere (CLt 3 0) 12 13) [Fin 0; Fin 0; Fin 0; Fin w; Fin 0; Fin 0; Fin 0; Fin 0; Fin 0; Fin 0; Fin 0; Fin (-1 * w); Fin (t1 w); Fin (t2 w)]) with (Fin (t3 w)); [reflexivity|]. symmetry. cbn [xop xget nth xcond xlt]; unfold t3; destruct (Rlt_dec w 0); reflexivity. Qed.
Lemma q15 w : e15 w ++ [xop (OScale 2 14) (e15 w)] = e16 w.
Proof. unfold e15, e16. cbn [app]. replace (xop (OScale 2 14) [Fin 0; Fin 0; Fin 0; Fin w; Fin 0; Fin 0; Fin 0; Fin 0; Fin 0; Fin 0; Fin 0; Fin (-1 * w); Fin (t1 w); Fin (t2 w); Fin (t3 w)]) with (Fin (2 * t3 w)); [reflexivity|]. symmetry. reflexivity. Qed.
Ltac psh q N := apply (push _ _ _ _ _ (q _) N); [cbn; lia|cbn [xback xmul xopp xdiv In xget]; try tauto].
Ltac kep q N := apply (keep _ _ _ _ _ (q _) N); cbn; lia.
Lemma n_axisangle j w : (j < 3)%nat -> grads (t_axisangle j) [0; 0; 0; w] = [NaN; NaN; NaN; NaN].
Proof.
  intros Hj. unfold grads. change (t_axisangle j) with (s4 j). change (reals [0; 0; 0; w]) with (e4 w).
  assert (N15 : nanat (xbwd (s16 j) (e16 w)) 15) by now apply tail_nan.
  assert (N14 : nanat (xbwd (s15 j) (e15 w)) 14) by psh q15 N15.
  assert (N9 : nanat (xbwd (s10 j) (e10 w)) 9 /\ nanat (xbwd (s10 j) (e10 w)) 3).
  { destruct (Rlt_dec w 0) as [L|L].
    - assert (N12 : nanat (xbwd (s14 j) (e14 w)) 12). { psh q14 N14. unfold e14. cbn [xcond xget nth xlt]. destruct (Rlt_dec w 0); [now left|contradiction]. }
      assert (M12 : nanat (xbwd (s13 j) (e13 w)) 12) by kep q13 N12.
      assert (N10 : nanat (xbwd (s12 j) (e12 w)) 10) by psh q12 M12. assert (N11 : nanat (xbwd (s12 j) (e12 w)) 11) by psh q12 M12.
      assert (M10 : nanat (xbwd (s11 j) (e11 w)) 10) by kep q11 N10. assert (M3 : nanat (xbwd (s11 j) (e11 w)) 3) by psh q11 N11.
      split; [psh q10 M10|kep q10 M3].
    - assert (N13 : nanat (xbwd (s14 j) (e14 w)) 13). { psh q14 N14. unfold e14. cbn [xcond xget nth xlt]. destruct (Rlt_dec w 0); [contradiction|now right; left]. }
      assert (M9 : nanat (xbwd (s13 j) (e13 w)) 9) by psh q13 N13. assert (M3 : nanat (xbwd (s13 j) (e13 w)) 3) by psh q13 N13.
      assert (M9' : nanat (xbwd (s12 j) (e12 w)) 9) by kep q12 M9. assert (M3' : nanat (xbwd (s12 j) (e12 w)) 3) by kep q12 M3.
      assert (M9'' : nanat (xbwd (s11 j) (e11 w)) 9) by kep q11 M9'. assert (M3'' : nanat (xbwd (s11 j) (e11 w)) 3) by kep q11 M3'.
      split; [kep q10 M9''|kep q10 M3'']. }
  destruct N9 as [N9 T10].
  assert (N8 : nanat (xbwd (s9 j) (e9 w)) 8) by psh q9 N9. assert (T9 : nanat (xbwd (s9 j) (e9 w)) 3) by kep q9 T10.
  assert (N6 : nanat (xbwd (s8 j) (e8 w)) 6) by psh q8 N8. assert (N7 : nanat (xbwd (s8 j) (e8 w)) 7) by psh q8 N8. assert (T8 : nanat (xbwd (s8 j) (e8 w)) 3) by kep q8 T9.
  assert (N2 : nanat (xbwd (s7 j) (e7 w)) 2) by psh q7 N7. assert (N6' : nanat (xbwd (s7 j) (e7 w)) 6) by kep q7 N6. assert (T7 : nanat (xbwd (s7 j) (e7 w)) 3) by kep q7 T8.
  assert (N4 : nanat (xbwd (s6 j) (e6 w)) 4) by psh q6 N6'. assert (N5 : nanat (xbwd (s6 j) (e6 w)) 5) by psh q6 N6'. assert (T6 : nanat (xbwd (s6 j) (e6 w)) 3) by kep q6 T7. assert (U6 : nanat (xbwd (s6 j) (e6 w)) 2) by kep q6 N2.
  assert (N1 : nanat (xbwd (s5 j) (e5 w)) 1) by psh q5 N5. assert (N4' : nanat (xbwd (s5 j) (e5 w)) 4) by kep q5 N4. assert (T5 : nanat (xbwd (s5 j) (e5 w)) 3) by kep q5 T6. assert (U5 : nanat (xbwd (s5 j) (e5 w)) 2) by kep q5 U6.
  apply nan4; [apply xbwd_len; cbn; lia|psh q4 N4'|kep q4 N1|kep q4 U5|kep q4 T5].
Qed.
Lemma p_v_axisangle j a b c w : (j < 3)%nat -> xout (t_axisangle j) (reals [a; b; c; w]) = Fin (f_axisangle j [a; b; c; w]).
Proof. apply v_axisangle. Qed.
