(* Lemmas about the tensor layer. *)
From Coq Require Import Reals List Arith Bool Lia Lra.
From Verif Require Import Res MatSpec TensorModel ShapeSpec.
Import ListNotations.
Local Open Scope nat_scope.

Lemma rsum_ext n f g : (forall k, k < n -> f k = g k) -> rsum n f = rsum n g.
Proof.
  induction n as [|n IH]; cbn [rsum]; intros H; [reflexivity|].
  rewrite IH by (intros; apply H; lia). rewrite H by lia. reflexivity.
Qed.

Lemma vix_length d ix : vix d ix -> length ix = length d.
Proof.
  revert ix; induction d as [|n d IH]; intros [|i ix]; cbn; try tauto. intros [_ H]. f_equal; auto.
Qed.

Lemma vix_cons n d ix : vix (n :: d) ix -> exists i r, ix = i :: r /\ i < n /\ vix d r.
Proof. destruct ix as [|i r]; cbn; [tauto|]. intros [H1 H2]. eauto. Qed.

Lemma bshape_refl s : bshape s s = Ok s.
Proof. induction s as [|d s IH]; cbn; [reflexivity|]. rewrite Nat.eqb_refl. cbn. rewrite IH. reflexivity. Qed.

Lemma bshape_cons x a y b : bshape (x :: a) (y :: b) =
  (let? d := (if x =? y then Ok x else if x =? 1 then Ok y else if y =? 1 then Ok x else Err RuntimeError) in
   let? ds := bshape a b in Ok (d :: ds)).
Proof. reflexivity. Qed.

Lemma bshape_nil_r s : bshape s [] = Ok s.
Proof. destruct s; reflexivity. Qed.

Lemma bix_refl s ix : vix s ix -> bix s ix = ix.
Proof.
  revert ix; induction s as [|d s IH]; intros [|i ix]; cbn; try tauto. intros [H1 H2].
  rewrite IH by exact H2. f_equal. destruct (Nat.eqb_spec d 1); [lia|reflexivity].
Qed.

Lemma bshape_ones k s : k <= length s -> bshape (repeat 1 k) s = Ok s.
Proof.
  revert s; induction k as [|k IH]; intros [|d s]; cbn; intros H; try reflexivity; try lia.
  rewrite IH by lia. destruct d as [|[|d]]; reflexivity.
Qed.

(* pb can be broadcast to cb without changing cb *)
Lemma bshape_sub pb cb : Forall2 sub_or_one pb cb -> bshape pb cb = Ok cb.
Proof.
  induction 1 as [|p c pb cb H _ IH]; cbn; [reflexivity|]. rewrite IH.
  destruct (Nat.eqb_spec p c); [subst; reflexivity|]. destruct H as [H|H]; [contradiction|].
  subst p. reflexivity.
Qed.

Lemma bix_sub_vix pb cb ix : Forall2 sub_or_one pb cb -> vix cb ix -> vix pb (bix pb ix).
Proof.
  intros H; revert ix; induction H as [|p c pb cb H _ IH]; intros [|i ix]; cbn; try tauto.
  intros [H1 H2]. split; [|auto]. destruct (Nat.eqb_spec p 1); [lia|]. destruct H; lia.
Qed.

Lemma bshape_ok_iff a b : length a = length b ->
  (exists s, bshape a b = Ok s) <-> Forall2 (fun x y => x = y \/ x = 1 \/ y = 1) a b.
Proof.
  revert b; induction a as [|x a IH]; intros [|y b]; cbn; intros H; try discriminate.
  - split; [constructor|eauto].
  - injection H as H. specialize (IH b H). split.
    + intros [s E]. constructor.
      * destruct (Nat.eqb_spec x y); [tauto|]. destruct (Nat.eqb_spec x 1); [tauto|].
        destruct (Nat.eqb_spec y 1); [tauto|discriminate].
      * apply IH. destruct (bshape a b) as [s'|e]; [eauto|].
        destruct (x =? y), (x =? 1), (y =? 1); discriminate.
    + intros F. inversion F as [|? ? ? ? H1 H2]; subst. apply IH in H2. destruct H2 as [s ->].
      destruct (Nat.eqb_spec x y); [cbn; eauto|]. destruct (Nat.eqb_spec x 1); [cbn; eauto|].
      destruct (Nat.eqb_spec y 1); [cbn; eauto|]. tauto.
Qed.

Lemma bshape_err a b e : bshape a b = Err e -> e = RuntimeError.
Proof.
  revert b; induction a as [|x a IH]; intros [|y b]; cbn; try discriminate.
  destruct (x =? y), (x =? 1), (y =? 1); cbn; try (intros H; injection H as <-; reflexivity);
  (destruct (bshape a b) as [s|e'] eqn:E; cbn; [discriminate|]; intros H; injection H as <-; eauto).
Qed.

Lemma bshape_length a b s : length a = length b -> bshape a b = Ok s -> length s = length b.
Proof.
  revert b s; induction a as [|x a IH]; intros [|y b] s; cbn; intros H E; try discriminate.
  - injection E as <-. reflexivity.
  - destruct (bshape a b) as [s'|e] eqn:E'.
    + injection H as H. specialize (IH b s' H E').
      destruct (x =? y), (x =? 1), (y =? 1); cbn in E; try discriminate; injection E as <-; cbn; lia.
    + destruct (x =? y), (x =? 1), (y =? 1); cbn in E; discriminate.
Qed.

Lemma unsq_0_dims {A} (y : ten A) : dims (unsqueeze_0 y) = dims y ++ [1].
Proof. reflexivity. Qed.
Lemma unsq_0_at {A} (y : ten A) ix : at_ (unsqueeze_0 y) ix = at_ y (firstn (ndim y) ix).
Proof. reflexivity. Qed.
Lemma iter_S {A} k (f : A -> A) x : Nat.iter (S k) f x = f (Nat.iter k f x).
Proof. reflexivity. Qed.

Lemma iter_unsq_dims k (x : ten R) : dims (Nat.iter k unsqueeze_0 x) = dims x ++ repeat 1 k.
Proof.
  induction k as [|k IH]; [cbn; rewrite app_nil_r; reflexivity|].
  rewrite iter_S, unsq_0_dims, IH, <- app_assoc. f_equal.
  change (repeat 1 k ++ [1] = 1 :: repeat 1 k). symmetry. apply repeat_cons.
Qed.

Lemma iter_unsq_at k (x : ten R) ix :
  at_ (Nat.iter k unsqueeze_0 x) ix = at_ x (if k =? 0 then ix else firstn (ndim x) ix).
Proof.
  revert ix; induction k as [|k IH]; intros ix; [reflexivity|].
  rewrite iter_S, unsq_0_at, IH.
  unfold ndim. rewrite iter_unsq_dims, app_length, repeat_length. cbn [Nat.eqb].
  destruct k as [|k]; cbn [Nat.eqb].
  - rewrite Nat.add_0_r. reflexivity.
  - rewrite firstn_firstn. f_equal. f_equal. lia.
Qed.

Lemma ndim_2 {A} (x : ten A) : (ndim x <? 2) = false -> exists a b s, dims x = a :: b :: s.
Proof.
  unfold ndim. destruct (dims x) as [|a [|b s]]; cbn; try discriminate; eauto.
Qed.

Lemma rev_cons_inv {A} (l : list A) a b s : l = a :: b :: s -> rev l = rev s ++ [b; a].
Proof. intros ->. cbn. rewrite <- app_assoc. reflexivity. Qed.
