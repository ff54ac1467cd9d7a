(* Gradients of normal maps: the theorems. *)
From Coq Require Import Reals List Arith Bool Lia Lra.
From Verif Require Import MatSpec GeomSpec RgbdSpec TapeModel TapeSpec TapeForms GradSpec GradProofs TapeProofs TapeProofs2 TapeProofs3 TapeProofs4 TapeProofs5 TapeProofs6
  VertexTape VertexForms VertexProofs NormalTape NormalForms NormalProofs NormalProofs2.
Import ListNotations.
Local Open Scope R_scope.

Lemma cross_ext u v u' v' : (forall k, (k < 3)%nat -> u k = u' k) -> (forall k, (k < 3)%nat -> v k = v' k) -> forall j, cross u v j = cross u' v' j.
Proof. intros H K [|[|j]]; unfold cross; rewrite !H, !K by lia; reflexivity. Qed.
Lemma norm_ext u u' : (forall k, u k = u' k) -> norm 3 u = norm 3 u'.
Proof. intros H. rewrite !norm_rsum, !H. reflexivity. Qed.

Section Link.
  Variables (fr : frames) (b l h w : nat) (d0 d1 d2 fx fy cx cy : R).
  Hypotheses (Hh : (h < fH fr)%nat) (Hw : (w < fW fr)%nat) (H2 : (2 <= fH fr)%nat) (W2 : (2 <= fW fr)%nat).
  Let e := [d0; d1; d2; fx; fy; cx; cy].
  Let F := put3 fr h w e.
  Lemma beside_ne k n : (k < n)%nat -> (2 <= n)%nat -> beside k n <> k.
  Proof. intros A B. unfold beside. destruct (Nat.ltb_spec (S k) n); lia. Qed.
  Lemma dep0 : fdep F b l h w = d0.
  Proof. unfold F, put3. cbn [fdep with_fdep with_fK]. rewrite !Nat.eqb_refl. reflexivity. Qed.
  Lemma vt0 k : vertex F b l h w k = vtx (pixel fr b l h w) d0 fx fy cx cy k.
  Proof. unfold vertex. rewrite dep0. reflexivity. Qed.
  Lemma vt1 k : vertex F b l h (beside w (fW fr)) k = vtx (pixel fr b l h (beside w (fW fr))) d1 fx fy cx cy k.
  Proof.
    unfold vertex. assert (E : fdep F b l h (beside w (fW fr)) = d1).
    { unfold F, put3. cbn [fdep with_fdep with_fK]. rewrite !Nat.eqb_refl. cbn [andb fW with_fK]. rewrite (proj2 (Nat.eqb_neq _ _) (beside_ne _ _ Hw W2)). rewrite ?Nat.eqb_refl. reflexivity. }
    rewrite E. reflexivity.
  Qed.
  Lemma vt2 k : vertex F b l (beside h (fH fr)) w k = vtx (pixel fr b l (beside h (fH fr)) w) d2 fx fy cx cy k.
  Proof.
    unfold vertex. assert (E : fdep F b l (beside h (fH fr)) w = d2).
    { unfold F, put3. cbn [fdep with_fdep with_fK]. rewrite (proj2 (Nat.eqb_neq _ _) (beside_ne _ _ Hh H2)). cbn [andb fH with_fK]. rewrite !Nat.eqb_refl. reflexivity. }
    rewrite E. reflexivity.
  Qed.
  Hypotheses (Hx : fx + eps6 <> 0) (Hy : fy + eps6 <> 0).
  Let lc := negb (S w <? fW fr)%nat.
  Let lr := negb (S h <? fH fr)%nat.
  Let A := rfwd (t_front (pixel fr b l h w) (pixel fr b l h (beside w (fW fr))) (pixel fr b l (beside h (fH fr)) w)) e.
  Lemma A_len : length A = 67%nat.
  Proof. unfold A. rewrite rfwd_length. reflexivity. Qed.
  Lemma A_30 k : (k < 3)%nat -> at3 A 30 k = vertex F b l h w k.
  Proof. intros Hk. rewrite vt0. unfold at3. destruct (front_facts (pixel fr b l h w) (pixel fr b l h (beside w (fW fr))) (pixel fr b l (beside h (fH fr)) w) d0 d1 d2 fx fy cx cy Hx Hy) as (_ & (P0 & P1 & P2) & _).
    destruct k as [|[|[|]]]; [exact P0|exact P1|exact P2|lia]. Qed.
  Lemma A_46 k : (k < 3)%nat -> at3 A 46 k = vertex F b l h (beside w (fW fr)) k.
  Proof. intros Hk. rewrite vt1. unfold at3. destruct (front_facts (pixel fr b l h w) (pixel fr b l h (beside w (fW fr))) (pixel fr b l (beside h (fH fr)) w) d0 d1 d2 fx fy cx cy Hx Hy) as (_ & _ & (P0 & P1 & P2) & _).
    destruct k as [|[|[|]]]; [exact P0|exact P1|exact P2|lia]. Qed.
  Lemma A_62 k : (k < 3)%nat -> at3 A 62 k = vertex F b l (beside h (fH fr)) w k.
  Proof. intros Hk. rewrite vt2. unfold at3. destruct (front_facts (pixel fr b l h w) (pixel fr b l h (beside w (fW fr))) (pixel fr b l (beside h (fH fr)) w) d0 d1 d2 fx fy cx cy Hx Hy) as (_ & _ & _ & (P0 & P1 & P2)).
    destruct k as [|[|[|]]]; [exact P0|exact P1|exact P2|lia]. Qed.
  Lemma tan_h k : (k < 3)%nat -> diff lc (at3 A 46) (at3 A 30) k = tangent_h F b l h w k.
  Proof.
    intros Hk. unfold diff. rewrite A_46, A_30 by exact Hk. unfold tangent_h. change (fW F) with (fW fr). unfold lc. unfold beside.
    destruct (Nat.ltb_spec (S w) (fW fr)) as [L|L]; cbn [negb].
    - replace (Nat.min w (fW fr - 2)) with w by lia. reflexivity.
    - replace (Nat.min w (fW fr - 2)) with (w - 1)%nat by lia. replace (S (w - 1)) with w by lia. reflexivity.
  Qed.
  Lemma tan_v k : (k < 3)%nat -> diff lr (at3 A 62) (at3 A 30) k = tangent_v F b l h w k.
  Proof.
    intros Hk. unfold diff. rewrite A_62, A_30 by exact Hk. unfold tangent_v. change (fH F) with (fH fr). unfold lr. unfold beside.
    destruct (Nat.ltb_spec (S h) (fH fr)) as [L|L]; cbn [negb].
    - replace (Nat.min h (fH fr - 2)) with h by lia. reflexivity.
    - replace (Nat.min h (fH fr - 2)) with (h - 1)%nat by lia. replace (S (h - 1)) with h by lia. reflexivity.
  Qed.
  Lemma cross_A j : env_cross lc lr A j = cross (tangent_h F b l h w) (tangent_v F b l h w) j.
  Proof. apply cross_ext; [apply tan_h|apply tan_v]. Qed.
  Lemma norm_A : norm 3 (env_cross lc lr A) = steep fr b l h w e.
  Proof. apply norm_ext, cross_A. Qed.
  Variable j : nat.
  Hypothesis Hj : (j < 3)%nat.
  Lemma nrm_value : last (rfwd (t_pixel_normal fr b l h w j) e) 0 = f_nrm fr b l h w j e.
  Proof.
    unfold t_pixel_normal, t_nrm. rewrite rfwd_app. fold A lc lr. rewrite (b_last lc lr j A A_len Hj). unfold f_nrm, normal, unitize, keep. fold F. rewrite dep0.
    assert (E28 : rget A 28 = if Rlt_dec 0 d0 then 1 else 0) by exact (proj1 (front_facts (pixel fr b l h w) (pixel fr b l h (beside w (fW fr))) (pixel fr b l (beside h (fH fr)) w) d0 d1 d2 fx fy cx cy Hx Hy)).
    rewrite E28, norm_A, cross_A. unfold steep. fold F. destruct (Rlt_dec 0 d0); ring.
  Qed.
  Lemma nrm_tame : tame (t_pixel_normal fr b l h w j) e.
  Proof.
    apply tame_r. unfold t_pixel_normal, t_nrm. apply ralong_app. split; [now apply front_tame|]. fold A lc lr. apply b_tame; [exact A_len|exact Hj].
  Qed.
  Lemma nrm_smooth : d0 <> 0 -> d1 <> 0 -> d2 <> 0 -> steep fr b l h w e <> 0 -> smooth (t_pixel_normal fr b l h w j) e.
  Proof.
    intros N0 N1 N2 S. apply smooth_r. unfold t_pixel_normal, t_nrm. apply ralong_app. split; [now apply front_smooth|]. fold A lc lr.
    apply b_smooth; [exact A_len|exact Hj|]. now rewrite norm_A.
  Qed.
End Link.
Lemma nrm_gen fr b l h w j e : (h < fH fr)%nat -> (w < fW fr)%nat -> (2 <= fH fr)%nat -> (2 <= fW fr)%nat -> (j < 3)%nat -> length e = 7%nat ->
  tame (t_pixel_normal fr b l h w j) e -> last (rfwd (t_pixel_normal fr b l h w j) e) 0 = f_nrm fr b l h w j e.
Proof.
  intros Hh Hw H2 W2 Hj. do 7 (destruct e as [|? e]; [discriminate|]). destruct e; [|discriminate]. rename r into d0, r0 into d1, r1 into d2, r2 into fx, r3 into fy, r4 into cx, r5 into cy.
  intros _ T.
  assert (N : fx + eps6 <> 0 /\ fy + eps6 <> 0).
  { apply tame_r in T. unfold t_pixel_normal, t_nrm in T. apply ralong_app in T. destruct T as [T _]. unfold t_front in T. apply ralong_app in T. destruct T as [T _]. unfold t_intr in T. split.
    - apply askip in T; cbn [app rop rget nth] in T. apply ahead in T. exact T.
    - do 4 (apply askip in T; cbn [app rop rget nth] in T). apply ahead in T. exact T. }
  destruct N as [Nx Ny]. now apply nrm_value.
Qed.
(* the statements *)
Lemma eps_ne f : f <> - / 1000000 -> f + eps6 <> 0.
Proof. unfold eps6. intros H E. apply H. lra. Qed.
Lemma v_normal fr b l h w j d0 d1 d2 fx fy cx cy : (h < fH fr)%nat -> (w < fW fr)%nat -> (2 <= fH fr)%nat -> (2 <= fW fr)%nat -> (j < 3)%nat ->
  fx <> - / 1000000 -> fy <> - / 1000000 ->
  xout (t_pixel_normal fr b l h w j) (reals [d0; d1; d2; fx; fy; cx; cy]) = Fin (f_nrm fr b l h w j [d0; d1; d2; fx; fy; cx; cy]) /\
  Forall is_real (grads (t_pixel_normal fr b l h w j) [d0; d1; d2; fx; fy; cx; cy]).
Proof.
  intros Hh Hw H2 W2 Hj Hx Hy. apply eps_ne in Hx, Hy. pose proof (nrm_tame fr b l h w d0 d1 d2 fx fy cx cy Hx Hy j Hj) as T.
  split; [|now apply p_tame]. apply value_of; [exact T|]. now apply nrm_gen.
Qed.
Lemma d_normal fr b l h w j d0 d1 d2 fx fy cx cy : (h < fH fr)%nat -> (w < fW fr)%nat -> (2 <= fH fr)%nat -> (2 <= fW fr)%nat -> (j < 3)%nat ->
  fx <> - / 1000000 -> fy <> - / 1000000 -> d0 <> 0 -> d1 <> 0 -> d2 <> 0 -> steep fr b l h w [d0; d1; d2; fx; fy; cx; cy] <> 0 ->
  right_gradient (t_pixel_normal fr b l h w j) (f_nrm fr b l h w j) [d0; d1; d2; fx; fy; cx; cy].
Proof.
  intros Hh Hw H2 W2 Hj Hx Hy N0 N1 N2 S. apply eps_ne in Hx, Hy. apply right_of; [discriminate|now apply nrm_smooth|].
  intros e' L T. apply nrm_gen; assumption.
Qed.
