(* Gradients of normal maps: a neighbour without depth. *)
From Coq Require Import Reals List Arith Bool Lia Lra.
From Verif Require Import MatSpec GeomSpec RgbdSpec TapeModel TapeSpec TapeForms GradSpec GradProofs TapeProofs TapeProofs2 TapeProofs3 TapeProofs4 TapeProofs5 TapeProofs6
  VertexTape VertexForms VertexProofs NormalTape NormalForms NormalProofs NormalProofs2 NormalProofs3 NormalProofs4.
Import ListNotations.
Local Open Scope R_scope.

Lemma contrib_zero (P : nat -> Prop) l D : (forall i, P i -> nth i D 0 = 0) -> (forall pr, In pr l -> P (fst pr)) -> contrib l D = 0.
Proof.
  intros Z H. induction l as [|pr l IH]; [reflexivity|]. cbn [contrib fold_right]. fold (contrib l D). rewrite IH by (intros q Hq; apply H; now right). rewrite (Z (fst pr)) by (apply H; now left). ring.
Qed.
Lemma zero_tan (P : nat -> Prop) (Q : nat -> list R -> Prop) T : forall env d, length d = length env -> (forall i, P i -> nth i d 0 = 0) ->
  (forall k, (k < length T)%nat -> Q (length env + k)%nat (rfwd (firstn k T) env)) ->
  (forall k o, nth_error T k = Some o -> P (length env + k)%nat -> forall D E, (forall i, P i -> nth i D 0 = 0) -> Q (length env + k)%nat E -> contrib (rback o E (rop o E) 1) D = 0) ->
  forall i, P i -> nth i (rtan T env d) 0 = 0.
Proof.
  induction T as [|o T IH]; intros env d L Z HQ H i Hi; [now apply Z|]. cbn [rtan]. apply IH; [rewrite !app_length, L; reflexivity| | | |exact Hi].
  - intros k Hk. destruct (Nat.lt_trichotomy k (length d)) as [A|[A|A]].
    + rewrite app_nth1 by exact A. now apply Z.
    + rewrite app_nth2 by lia. rewrite A, Nat.sub_diag. cbn [nth]. apply (H 0%nat o eq_refl); [rewrite Nat.add_0_r, <- L, <- A; exact Hk|exact Z|]. apply (HQ 0%nat). cbn. lia.
    + rewrite nth_overflow; [reflexivity|]. rewrite app_length. cbn. lia.
  - intros k Hk. rewrite app_length. cbn [length]. replace (length env + 1 + k)%nat with (length env + S k)%nat by lia. apply (HQ (S k)). cbn. lia.
  - intros k o' E Hk D E' HZ HE. rewrite app_length in Hk, HE. cbn [length] in Hk, HE. replace (length env + 1 + k)%nat with (length env + S k)%nat in Hk, HE by lia.
    now apply (H (S k) o' E).
Qed.

(* the operations that use the depth of the neighbour number n (1 or 2) *)
Definition uses (n i : nat) : Prop := match n with 1%nat => i = 1%nat \/ i = 45%nat \/ i = 47%nat \/ i = 49%nat | _ => i = 2%nat \/ i = 61%nat \/ i = 63%nat \/ i = 65%nat end.
Definition mask_at (n : nat) : nat := match n with 1%nat => 44%nat | _ => 60%nat end.
Ltac plain n := match goal with Z : forall i, _ -> nth i ?D 0 = 0 |- contrib _ _ = 0 =>
  apply (contrib_zero (fun i => ~ uses n i)); [exact Z|];
  let pr := fresh "pr" in let H := fresh "H" in intros pr H; cbn [rback] in H; cbv zeta in H; cbn [In map fst snd] in H;
  try match type of H with context [if ?c then _ else _] => destruct c; cbn [In] in H end;
  repeat (destruct H as [<-|H]; [cbn [fst uses]; lia|]); contradiction end.
Ltac masked := match goal with Z : forall i, _ -> nth i ?D 0 = 0, HE : _ -> rget _ _ = 0 |- contrib _ ?D = 0 =>
  cbn [rback contrib fold_right fst snd]; cbv zeta; cbn [mask_at] in HE; rewrite HE by lia;
  try (rewrite (Z 44%nat) by (cbn [uses]; lia)); try (rewrite (Z 60%nat) by (cbn [uses]; lia)); ring end.
Lemma nrm_len p q s lc lr j : length (t_nrm p q s lc lr j) = 80%nat.
Proof. reflexivity. Qed.
Lemma front_len p q s : length (t_front p q s) = 60%nat.
Proof. reflexivity. Qed.
Lemma last_nth (l : list R) n : length l = S n -> last l 0 = nth n l 0.
Proof.
  intros L. destruct (@exists_last _ l) as (k & x & ->); [intros ->; discriminate|]. rewrite last_last. rewrite app_length in L. cbn in L.
  rewrite app_nth2 by lia. replace (n - length k)%nat with 0%nat by lia. reflexivity.
Qed.
Lemma uses_steps p q s lc lr j n : (j < 3)%nat -> n = 1%nat \/ n = 2%nat -> forall k o, nth_error (t_nrm p q s lc lr j) k = Some o -> ~ uses n (7 + k) ->
  forall D E, (forall i, ~ uses n i -> nth i D 0 = 0) -> ((mask_at n < 7 + k)%nat -> rget E (mask_at n) = 0) -> contrib (rback o E (rop o E) 1) D = 0.
Proof.
  intros Hj Hn k o H U D E Z HE. assert (Hk : (k < 80)%nat) by (rewrite <- (nrm_len p q s lc lr j); apply nth_error_Some; congruence).
  do 80 (destruct k as [|k]; [cbn [nth_error t_nrm t_front t_intr t_vtx t_back app Nat.add] in H; injection H as <-; unfold sub_if; try destruct lc; try destruct lr;
    destruct Hn as [->| ->]; first [exfalso; apply U; cbn; lia|plain 1%nat|plain 2%nat|masked]|]). lia.
Qed.

Lemma one_neighbour p q s lc lr j e n : (j < 3)%nat -> length e = 7%nat -> n = 1%nat \/ n = 2%nat -> rget (rfwd (t_front p q s) e) (mask_at n) = 0 ->
  forall d, length d = 7%nat -> (forall i, i <> n -> nth i d 0 = 0) -> last (rtan (t_nrm p q s lc lr j) e d) 0 = 0.
Proof.
  intros Hj Le Hn M d Ld Hd. pose proof (uses_steps p q s lc lr j n Hj Hn) as U. pose proof (nrm_len p q s lc lr j) as LT.
  assert (HM : forall k, (k < 80)%nat -> (mask_at n < 7 + k)%nat -> rget (rfwd (firstn k (t_nrm p q s lc lr j)) e) (mask_at n) = 0).
  { intros k Hk Hm. rewrite (rfwd_early (t_nrm p q s lc lr j) k) by (rewrite ?LT, ?Le; lia).
    unfold t_nrm. rewrite rfwd_app, rfwd_old; [exact M|]. rewrite rfwd_length, front_len, Le. destruct Hn as [->| ->]; cbn [mask_at]; lia. }
  set (T := t_nrm p q s lc lr j) in *. clearbody T.
  rewrite (last_nth _ 86) by (rewrite rtan_length, Ld, LT; reflexivity).
  apply (zero_tan (fun i => ~ uses n i) (fun k E => (mask_at n < k)%nat -> rget E (mask_at n) = 0)); rewrite ?Le.
  - exact Ld.
  - intros i Hi. apply Hd. intros ->. apply Hi. destruct Hn as [->| ->]; cbn [uses]; lia.
  - intros k Hk. rewrite LT in Hk. now apply HM.
  - intros k o H N D E Z HE. now apply (U k o H N D E Z HE).
  - destruct Hn as [->| ->]; cbn [uses]; lia.
Qed.
Lemma front_masks p q s d0 d1 d2 fx fy cx cy : fx + eps6 <> 0 -> fy + eps6 <> 0 -> let v := rget (rfwd (t_front p q s) [d0; d1; d2; fx; fy; cx; cy]) in
  v 44%nat = (if Rlt_dec 0 d1 then 1 else 0) /\ v 60%nat = (if Rlt_dec 0 d2 then 1 else 0).
Proof.
  intros Hx Hy. cbv zeta. unfold t_front, t_intr, t_vtx. cbn [app Nat.add]. do 60 rfs. cbn [rfwd]. unfold rget. cbn [nth].
  subst. destruct (Rlt_dec 0 d1), (Rlt_dec 0 d2); split; reflexivity.
Qed.
(* a neighbour without depth receives no gradient *)
Lemma no_neighbour fr b l h w j n d0 d1 d2 fx fy cx cy : (j < 3)%nat -> fx <> - / 1000000 -> fy <> - / 1000000 -> (n = 1%nat /\ d1 <= 0) \/ (n = 2%nat /\ d2 <= 0) ->
  nth_error (grads (t_pixel_normal fr b l h w j) [d0; d1; d2; fx; fy; cx; cy]) n = Some (Fin 0).
Proof.
  intros Hj Hx Hy Hn. apply eps_ne in Hx, Hy. unfold grads. rewrite xbwd_reals by now apply nrm_tame.
  set (T := t_pixel_normal fr b l h w j). set (e := [d0; d1; d2; fx; fy; cx; cy]). set (G := rbwd T e).
  assert (LG : length G = 7%nat) by (unfold G; rewrite rbwd_len by (right; discriminate); reflexivity).
  set (d := map (fun i => if (i =? n)%nat then 1 else 0) (seq 0 7)).
  assert (Z : inner G d = 0).
  { unfold G. rewrite fwd_rev by (reflexivity || (right; discriminate)). unfold T, t_pixel_normal. apply (one_neighbour _ _ _ _ _ _ _ n); [exact Hj|reflexivity|tauto| |reflexivity|].
    - destruct (front_masks (pixel fr b l h w) (pixel fr b l h (beside w (fW fr))) (pixel fr b l (beside h (fH fr)) w) d0 d1 d2 fx fy cx cy Hx Hy) as [M1 M2].
      destruct Hn as [[-> Hd]|[-> Hd]]; cbn [mask_at]; unfold e; [rewrite M1; destruct (Rlt_dec 0 d1) as [C|C]|rewrite M2; destruct (Rlt_dec 0 d2) as [C|C]]; try reflexivity; exfalso; exact (Rlt_not_le _ _ C Hd).
    - intros i Hi. unfold d. destruct Hn as [[-> _]|[-> _]]; do 7 (destruct i as [|i]; [cbn; reflexivity || congruence|]); destruct i; reflexivity. }
  clearbody G. unfold reals. do 7 (destruct G as [|? G]; [discriminate LG|]). destruct G; [|discriminate LG].
  destruct Hn as [[-> _]|[-> _]]; cbn in Z |- *; repeat f_equal; lra.
Qed.
(* a degenerate surface has the normal 0 *)
Lemma flat_normal fr b l h w j d0 d1 d2 fx fy cx cy : (h < fH fr)%nat -> (w < fW fr)%nat -> (2 <= fH fr)%nat -> (2 <= fW fr)%nat -> (j < 3)%nat ->
  fx <> - / 1000000 -> fy <> - / 1000000 -> steep fr b l h w [d0; d1; d2; fx; fy; cx; cy] = 0 ->
  xout (t_pixel_normal fr b l h w j) (reals [d0; d1; d2; fx; fy; cx; cy]) = Fin 0.
Proof.
  intros Hh Hw H2 W2 Hj Hx Hy S. rewrite (proj1 (v_normal fr b l h w j d0 d1 d2 fx fy cx cy Hh Hw H2 W2 Hj Hx Hy)). f_equal.
  unfold f_nrm, normal, unitize, keep. fold (steep fr b l h w [d0; d1; d2; fx; fy; cx; cy]). rewrite S. destruct (Req_EM_T 0 0) as [_|N]; [|congruence].
  destruct (Rlt_dec 0 _); [|reflexivity]. unfold steep in S.
  set (c := cross _ _) in *. clearbody c. rewrite norm_rsum in S.
  pose proof (Rle_0_sqr (c 0%nat)) as A. pose proof (Rle_0_sqr (c 1%nat)) as B. pose proof (Rle_0_sqr (c 2%nat)) as C. unfold Rsqr in *.
  apply sqrt_eq_0 in S; [|lra].
  assert (Z : c j * c j = 0) by (destruct j as [|[|[|]]]; [lra|lra|lra|lia]). apply Rmult_integral in Z. assert (c j = 0) as -> by tauto. field.
Qed.
