(* Lemmas about geometryutils.py: transforms and points. *)
From Coq Require Import Reals List Arith Bool Lia Lra ZArith.
From Verif Require Import Res MatSpec TensorModel TensorProofs LinAlgModel ProjModel GeomModel GeomSpec
  MatProofs ProjProofs ProjPropProofs.
Import ListNotations.
Local Open Scope nat_scope.

(* closed forms of the 4x4 results *)
Definition inv_form (T : mat) : mat := fun i j =>
  if i <? 3 then (if j <? 3 then T j i else mvec 3 (mtr (fun a b => (- T a b)%R)) (tr_of T) i)
  else if j <? 3 then 0%R else 1%R.
Definition comp_form (A B : mat) : mat := fun i j =>
  if i <? 3 then (if j <? 3 then mmul 3 A B i j else (mvec 3 A (tr_of B) i + tr_of A i)%R)
  else if j <? 3 then 0%R else 1%R.

Ltac cases4 i := destruct i as [|[|[|[|i]]]]; try lia.

Lemma inverse_ok (T : ten R) : dims T = [4; 4] ->
  exists Ti, inverse_transfom_3d T = Ok Ti /\ dims Ti = [4; 4] /\ meq 4 4 (ent Ti []) (inv_form (ent T [])).
Proof.
  destruct T as [d f]. cbn [dims]. intros ->. eexists. split; [reflexivity|]. split; [reflexivity|].
  intros i j Hi Hj. cases4 i; cases4 j; try reflexivity; cbn; ring.
Qed.

Lemma compose_ok (A B : ten R) : dims A = [4; 4] -> dims B = [4; 4] ->
  exists C, compose_transforms_3d A B = Ok C /\ dims C = [4; 4] /\ meq 4 4 (ent C []) (comp_form (ent A []) (ent B [])).
Proof.
  destruct A as [d f], B as [d' f']. cbn [dims]. intros -> ->. eexists. split; [reflexivity|]. split; [reflexivity|].
  intros i j Hi Hj. cases4 i; cases4 j; reflexivity.
Qed.

Lemma comp_form_ext A A' B B' : meq 4 4 A A' -> meq 4 4 B B' -> meq 4 4 (comp_form A B) (comp_form A' B').
Proof.
  intros HA HB i j Hi Hj. unfold comp_form.
  destruct (Nat.ltb_spec i 3); [|reflexivity]. destruct (Nat.ltb_spec j 3).
  - apply rsum_ext. intros k Hk. rewrite HA, HB by lia. reflexivity.
  - unfold tr_of. rewrite HA by lia. f_equal. apply rsum_ext. intros k Hk. rewrite HA, HB by lia. reflexivity.
Qed.
Lemma comp_form_affine A B : affine4 (comp_form A B).
Proof. repeat split. Qed.
Lemma inv_form_affine A : affine4 (inv_form A).
Proof. repeat split. Qed.
Lemma comp_form_act A B p : veq 3 (act (comp_form A B) p) (act A (act B p)).
Proof.
  intros i Hi. unfold act, rot_of, tr_of. rewrite mvec_plus.
  transitivity (mvec 3 (mmul 3 A B) p i + comp_form A B i 3%nat)%R.
  { f_equal. apply rsum_ext. intros k Hk. unfold comp_form.
    destruct (Nat.ltb_spec i 3); [|lia]. destruct (Nat.ltb_spec k 3); [|lia]. reflexivity. }
  rewrite mvec_mmul. unfold comp_form. destruct (Nat.ltb_spec i 3); [|lia]. cbn. unfold tr_of. ring.
Qed.
Lemma comp_form_assoc A B C : meq 4 4 (comp_form (comp_form A B) C) (comp_form A (comp_form B C)).
Proof.
  intros i j Hi Hj. unfold comp_form at 1 3.
  destruct (Nat.ltb_spec i 3); [|reflexivity]. destruct (Nat.ltb_spec j 3).
  - transitivity (mmul 3 (mmul 3 A B) C i j).
    { apply rsum_ext. intros k Hk. unfold comp_form. destruct (Nat.ltb_spec i 3); [|lia].
      destruct (Nat.ltb_spec k 3); [reflexivity|lia]. }
    rewrite mmul_assoc. apply rsum_ext. intros k Hk. unfold comp_form.
    destruct (Nat.ltb_spec k 3); [|lia]. destruct (Nat.ltb_spec j 3); [reflexivity|lia].
  - transitivity (act (comp_form A B) (tr_of C) i); [reflexivity|].
    rewrite comp_form_act by lia. reflexivity.
Qed.
Lemma comp_form_mul A B : affine4 A -> affine4 B -> meq 4 4 (comp_form A B) (mmul 4 A B).
Proof.
  intros (a0 & a1 & a2 & a3) (b0 & b1 & b2 & b3) i j Hi Hj.
  cases4 i; cases4 j; unfold comp_form, mmul, mvec, tr_of; cbn;
  rewrite ?a0, ?a1, ?a2, ?a3, ?b0, ?b1, ?b2, ?b3; ring.
Qed.
Lemma comp_form_I A : affine4 A -> meq 4 4 (comp_form A mI) A /\ meq 4 4 (comp_form mI A) A.
Proof.
  intros HA. assert (HI : affine4 mI) by (repeat split).
  split; [eapply meq_trans; [apply comp_form_mul; auto|apply mmul_I_r]
         |eapply meq_trans; [apply comp_form_mul; auto|apply mmul_I_l]].
Qed.

Lemma inv_form_l T : rigid4 T -> meq 4 4 (comp_form (inv_form T) T) mI.
Proof.
  intros [_ [[H1 _] _]] i j Hi Hj. unfold comp_form.
  destruct (Nat.ltb_spec i 3) as [Hi3|Hi3].
  - destruct (Nat.ltb_spec j 3) as [Hj3|Hj3].
    + transitivity (mmul 3 (mtr T) T i j); [|apply H1; auto].
      apply rsum_ext. intros k Hk. unfold inv_form, mtr.
      destruct (Nat.ltb_spec i 3); [|lia]. destruct (Nat.ltb_spec k 3); [reflexivity|lia].
    + assert (j = 3) by lia. subst j.
      cases4 i; unfold mvec, mtr, tr_of, inv_form; cbn; unfold mvec, mtr, tr_of; cbn; unfold mI, delta; cbn; ring.
  - cases4 i. cases4 j; reflexivity.
Qed.
Lemma inv_form_r T : rigid4 T -> meq 4 4 (comp_form T (inv_form T)) mI.
Proof.
  intros [_ [[_ H2] _]] i j Hi Hj. unfold comp_form.
  destruct (Nat.ltb_spec i 3) as [Hi3|Hi3].
  - destruct (Nat.ltb_spec j 3) as [Hj3|Hj3].
    + transitivity (mmul 3 T (mtr T) i j); [|apply H2; auto].
      apply rsum_ext. intros k Hk. unfold inv_form, mtr.
      destruct (Nat.ltb_spec j 3); [|lia]. destruct (Nat.ltb_spec k 3); [reflexivity|lia].
    + assert (j = 3) by lia. subst j.
      assert (Hm : mvec 3 T (tr_of (inv_form T)) i = (- tr_of T i)%R).
      { transitivity (- mvec 3 (mmul 3 T (mtr T)) (tr_of T) i)%R.
        - rewrite mvec_mmul, <- mvec_opp. apply mvec_ext_v. intros k Hk.
          unfold tr_of, inv_form. destruct (Nat.ltb_spec k 3); [|lia]. cbn [Nat.ltb Nat.leb].
          rewrite <- (Rmult_1_l (mvec 3 (mtr T) _ k)).
          unfold mvec, mtr, tr_of. cbn [rsum]. ring.
        - f_equal. etransitivity; [apply (mvec_ext_mat 3 3 _ mI _ H2 i Hi3)|]. apply mvec_I. exact Hi3. }
      rewrite Hm. unfold mI, delta. destruct (Nat.eqb_spec i 3); [lia|]. ring.
  - cases4 i. cases4 j; reflexivity.
Qed.
Lemma rigid_inv_form T : rigid4 T -> rigid4 (inv_form T).
Proof.
  intros [_ H]. split; [apply inv_form_affine|]. apply (rot_ext (mtr T)); [|apply rot_tr, H].
  intros i j Hi Hj. unfold rot_of, inv_form, mtr. destruct (Nat.ltb_spec i 3); [|lia].
  destruct (Nat.ltb_spec j 3); [reflexivity|lia].
Qed.
Lemma rigid_comp_form A B : rigid4 A -> rigid4 B -> rigid4 (comp_form A B).
Proof.
  intros [_ HA] [_ HB]. split; [apply comp_form_affine|]. apply (rot_ext (mmul 3 A B)); [|apply rot_mul; assumption].
  intros i j Hi Hj. unfold rot_of, comp_form. destruct (Nat.ltb_spec i 3); [|lia].
  destruct (Nat.ltb_spec j 3); [reflexivity|lia].
Qed.
Lemma affine_ext A B : meq 4 4 A B -> affine4 A -> affine4 B.
Proof. intros H (a & b & c & d). unfold affine4. rewrite <- !H by lia. auto. Qed.
Lemma rigid_ext A B : meq 4 4 A B -> rigid4 A -> rigid4 B.
Proof.
  intros H [HA HR]. split; [eapply affine_ext; eauto|]. apply (rot_ext A); [|exact HR].
  intros i j Hi Hj. apply H; lia.
Qed.
Lemma teq44 (X Y : ten R) : dims X = [4; 4] -> dims Y = [4; 4] -> meq 4 4 (ent X []) (ent Y []) -> teq X Y.
Proof.
  intros EX EY H. split; [congruence|]. rewrite EX. intros ix Hix.
  apply vix_cons in Hix. destruct Hix as (j & r & -> & Hj & Hr).
  apply vix_cons in Hr. destruct Hr as (i & r' & -> & Hi & Hr'). destruct r'; [|destruct Hr'].
  apply (H i j Hi Hj).
Qed.

(* ------------------------------------------------------------------ C18 *)
Lemma p_inverse_group : forall T : ten R, shape T = [4; 4] -> rigid4 (ent T []) ->
  exists Ti I1 I2, inverse_transfom_3d T = Ok Ti /\ shape Ti = [4; 4] /\ rigid4 (ent Ti []) /\
    compose_transforms_3d Ti T = Ok I1 /\ compose_transforms_3d T Ti = Ok I2 /\
    shape I1 = [4; 4] /\ shape I2 = [4; 4] /\ meq 4 4 (ent I1 []) mI /\ meq 4 4 (ent I2 []) mI.
Proof.
  intros T ET HT.
  assert (ET' : dims T = [4; 4]) by (unfold shape in ET; rewrite <- (rev_involutive (dims T)), ET; reflexivity).
  destruct (inverse_ok T ET') as (Ti & Hi & Ei & Hm).
  destruct (compose_ok Ti T Ei ET') as (I1 & H1 & E1 & M1).
  destruct (compose_ok T Ti ET' Ei) as (I2 & H2 & E2 & M2).
  exists Ti, I1, I2. unfold shape. rewrite Ei, E1, E2. repeat (split; [first [assumption|reflexivity]|]).
  split; [eapply rigid_ext; [apply meq_sym, Hm|apply rigid_inv_form, HT]|].
  repeat (split; [first [assumption|reflexivity]|]). split.
  - eapply meq_trans; [exact M1|]. eapply meq_trans; [apply comp_form_ext; [exact Hm|apply meq_refl]|]. apply inv_form_l, HT.
  - eapply meq_trans; [exact M2|]. eapply meq_trans; [apply comp_form_ext; [apply meq_refl|exact Hm]|]. apply inv_form_r, HT.
Qed.

Lemma shape44 (T : ten R) : shape T = [4; 4] -> dims T = [4; 4].
Proof. intros ET. unfold shape in ET. rewrite <- (rev_involutive (dims T)), ET. reflexivity. Qed.

Lemma p_compose : forall A B : ten R, shape A = [4; 4] -> shape B = [4; 4] ->
  exists C, compose_transforms_3d A B = Ok C /\ shape C = [4; 4] /\
    (forall p, veq 3 (act (ent C []) p) (act (ent A []) (act (ent B []) p))) /\
    (affine4 (ent A []) -> affine4 (ent B []) -> meq 4 4 (ent C []) (mmul 4 (ent A []) (ent B []))) /\
    (rigid4 (ent A []) -> rigid4 (ent B []) -> rigid4 (ent C [])).
Proof.
  intros A B EA EB. apply shape44 in EA, EB. destruct (compose_ok A B EA EB) as (C & HC & EC & HM).
  exists C. split; [exact HC|]. split; [unfold shape; rewrite EC; reflexivity|]. split; [|split].
  - intros p i Hi. rewrite <- (comp_form_act _ _ p i Hi). unfold act, rot_of, tr_of.
    rewrite HM by lia. f_equal. apply rsum_ext. intros k Hk. rewrite HM by lia. reflexivity.
  - intros HA HB. eapply meq_trans; [exact HM|]. apply comp_form_mul; assumption.
  - intros HA HB. eapply rigid_ext; [apply meq_sym, HM|]. apply rigid_comp_form; assumption.
Qed.

Lemma p_compose_assoc : forall A B C : ten R, shape A = [4; 4] -> shape B = [4; 4] -> shape C = [4; 4] ->
  exists AB BC X Y, compose_transforms_3d A B = Ok AB /\ compose_transforms_3d B C = Ok BC /\
    compose_transforms_3d AB C = Ok X /\ compose_transforms_3d A BC = Ok Y /\ teq X Y.
Proof.
  intros A B C EA EB EC. apply shape44 in EA, EB, EC.
  destruct (compose_ok A B EA EB) as (AB & H1 & E1 & M1).
  destruct (compose_ok B C EB EC) as (BC & H2 & E2 & M2).
  destruct (compose_ok AB C E1 EC) as (X & H3 & E3 & M3).
  destruct (compose_ok A BC EA E2) as (Y & H4 & E4 & M4).
  exists AB, BC, X, Y. repeat (split; [assumption|]). apply teq44; auto.
  eapply meq_trans; [exact M3|]. eapply meq_trans; [apply comp_form_ext; [exact M1|apply meq_refl]|].
  eapply meq_trans; [apply comp_form_assoc|]. apply meq_sym. eapply meq_trans; [exact M4|].
  apply comp_form_ext; [apply meq_refl|exact M2].
Qed.

Lemma p_relative_3d : forall T1 T2 : ten R, shape T1 = [4; 4] -> shape T2 = [4; 4] ->
  rigid4 (ent T1 []) -> affine4 (ent T2 []) ->
  exists T Y, relative_transform_3d T1 T2 = Ok T /\ compose_transforms_3d T1 T = Ok Y /\ teq Y T2 /\
    (rigid4 (ent T2 []) -> rigid4 (ent T [])) /\
    (forall T' Y', shape T' = [4; 4] -> affine4 (ent T' []) -> compose_transforms_3d T1 T' = Ok Y' -> teq Y' T2 -> teq T' T).
Proof.
  intros T1 T2 E1 E2 R1 A2. apply shape44 in E1, E2.
  destruct (inverse_ok T1 E1) as (Ti & Hi & Ei & Mi).
  destruct (compose_ok Ti T2 Ei E2) as (T & HT & ET & MT).
  destruct (compose_ok T1 T E1 ET) as (Y & HY & EY & MY).
  assert (MT' : meq 4 4 (ent T []) (comp_form (inv_form (ent T1 [])) (ent T2 []))).
  { eapply meq_trans; [exact MT|]. apply comp_form_ext; [exact Mi|apply meq_refl]. }
  exists T, Y. split; [unfold relative_transform_3d; rewrite Hi; exact HT|]. split; [exact HY|]. split; [|split].
  - apply teq44; auto. eapply meq_trans; [exact MY|].
    eapply meq_trans; [apply comp_form_ext; [apply meq_refl|exact MT']|].
    eapply meq_trans; [apply meq_sym, comp_form_assoc|].
    eapply meq_trans; [apply comp_form_ext; [apply inv_form_r, R1|apply meq_refl]|].
    apply comp_form_I. exact A2.
  - intros R2. eapply rigid_ext; [apply meq_sym, MT'|]. apply rigid_comp_form; [apply rigid_inv_form, R1|exact R2].
  - intros T' Y' E' A' HY' [Eq' Ht']. apply shape44 in E'.
    destruct (compose_ok T1 T' E1 E') as (Y'' & HY'' & EY'' & MY''). rewrite HY' in HY''. injection HY'' as <-.
    apply teq44; auto. apply meq_sym. eapply meq_trans; [exact MT'|].
    assert (M2 : meq 4 4 (ent T2 []) (comp_form (ent T1 []) (ent T' []))).
    { eapply meq_trans; [|exact MY'']. intros i j Hi' Hj. symmetry. unfold ent. apply Ht'.
      rewrite EY''. cbn. auto. }
    eapply meq_trans; [apply comp_form_ext; [apply meq_refl|exact M2]|].
    eapply meq_trans; [apply meq_sym, comp_form_assoc|].
    eapply meq_trans; [apply comp_form_ext; [apply inv_form_l, R1|apply meq_refl]|].
    apply comp_form_I. exact A'.
Qed.

(* ---------------------------------------------------------------- exact inverse, relative_transformation *)
Lemma inv4_correct A : (det4 A <> 0)%R -> inverse_of 4 A (inv4 A).
Proof.
  intros H.
  assert (Hd : forall i j, i < 4 -> j < 4 ->
     (rsum 4 (fun k => A i k * cofactor A j k) = if i =? j then det4 A else 0)%R /\
     (rsum 4 (fun k => cofactor A k i * A k j) = if i =? j then det4 A else 0)%R).
  { intros i j Hi Hj. cases4 i; cases4 j; unfold det4, cofactor, submat, det3; cbn; split; ring. }
  split; intros i j Hi Hj; unfold mmul, inv4.
  - rewrite (rsum_ext 4 _ (fun k => A i k * cofactor A j k * / det4 A)%R) by (intros; unfold Rdiv; ring).
    rewrite rsum_mult_r, (proj1 (Hd i j Hi Hj)). unfold mI, delta.
    destruct (i =? j); [apply Rinv_r, H|ring].
  - rewrite (rsum_ext 4 _ (fun k => cofactor A k i * A k j * / det4 A)%R) by (intros; unfold Rdiv; ring).
    rewrite rsum_mult_r, (proj2 (Hd i j Hi Hj)). unfold mI, delta.
    destruct (i =? j); [apply Rinv_r, H|ring].
Qed.

Lemma det4_affine T : affine4 T -> det4 T = det3 (rot_of T).
Proof.
  intros (a & b & c & d). unfold det4, cofactor, submat, det3, rot_of. cbn. rewrite a, b, c, d. ring.
Qed.

Lemma inv4_affine T : affine4 T -> (det4 T <> 0)%R -> affine4 (inv4 T).
Proof.
  intros HA HD. pose proof (det4_affine T HA) as Hd. pose proof HA as (a & b & c & d).
  unfold affine4, inv4.
  assert (cofactor T 0 3 = 0 /\ cofactor T 1 3 = 0 /\ cofactor T 2 3 = 0 /\ cofactor T 3 3 = det4 T)%R as (-> & -> & -> & ->).
  { rewrite Hd. unfold cofactor, submat, det3, rot_of. cbn. rewrite a, b, c. repeat split; ring. }
  repeat split; try (unfold Rdiv; ring). apply Rinv_r, HD.
Qed.

Lemma in_all_ix s r : vix s r -> In r (all_ix s).
Proof.
  revert r; induction s as [|d s IH]; intros [|i r]; cbn; try tauto. intros [Hi Hr].
  apply in_flat_map. exists r. split; [auto|]. apply in_map_iff. exists i. split; [reflexivity|]. apply in_seq. lia.
Qed.
Lemma all_ix_vix s r : In r (all_ix s) -> vix s r.
Proof.
  revert r; induction s as [|d s IH]; intros r; cbn.
  - intros [<-|[]]. exact I.
  - intros H. apply in_flat_map in H. destruct H as (r' & H1 & H2). apply in_map_iff in H2.
    destruct H2 as (i & <- & Hi). apply in_seq in Hi. split; [lia|auto].
Qed.

Lemma torch_inverse_ok (x : ten R) s : dims x = 4 :: 4 :: s -> (forall r, vix s r -> det4 (ent x r) <> 0%R) ->
  exists y, torch_inverse x = Ok y /\ dims y = 4 :: 4 :: s /\ forall r i j, ent y r i j = inv4 (ent x r) i j.
Proof.
  intros E H. unfold torch_inverse. rewrite E. cbn [Nat.eqb].
  assert (Hf : forallb (fun r => if Req_EM_T (det4 (ent x r)) 0 then false else true) (all_ix s) = true).
  { apply forallb_forall. intros r Hr. destruct (Req_EM_T (det4 (ent x r)) 0) as [e|e]; [|reflexivity].
    exfalso. exact (H r (all_ix_vix _ _ Hr) e). }
  rewrite Hf. eexists. split; [reflexivity|]. split; reflexivity.
Qed.

Lemma kornia_guard_ok (x : ten R) s : dims x = 4 :: 4 :: s -> length s <= 1 -> kornia_guard x = Ok tt.
Proof.
  intros E H. unfold kornia_guard, is44, ndim. rewrite E. cbn [length Nat.eqb].
  destruct s as [|a [|b s]]; [reflexivity|reflexivity|cbn in H; lia].
Qed.

Lemma kornia_compose_ok (x y : ten R) s : dims x = 4 :: 4 :: s -> dims y = 4 :: 4 :: s -> length s <= 1 ->
  exists z, kornia_compose x y = Ok z /\ dims z = 4 :: 4 :: s /\
    forall r, vix s r -> meq 4 4 (ent z r) (comp_form (ent x r) (ent y r)).
Proof.
  intros Ex Ey Hs. unfold kornia_compose. rewrite (kornia_guard_ok x s Ex Hs), (kornia_guard_ok y s Ey Hs).
  cbn [rbind]. unfold ndim. rewrite Ex, Ey, Nat.eqb_refl. cbn [guard rbind]. rewrite bshape_refl. cbn [rbind].
  eexists. split; [reflexivity|]. split; [reflexivity|]. intros r Hr i j Hi Hj.
  unfold ent at 1. cbn [at_]. rewrite bix_refl by exact Hr. reflexivity.
Qed.

Lemma kornia_inverse_ok (x : ten R) s : dims x = 4 :: 4 :: s -> length s <= 1 ->
  exists z, kornia_inverse x = Ok z /\ dims z = 4 :: 4 :: s /\
    forall r, meq 4 4 (ent z r) (inv_form (ent x r)).
Proof.
  intros Ex Hs. unfold kornia_inverse. rewrite (kornia_guard_ok x s Ex Hs). cbn [rbind].
  eexists. split; [reflexivity|]. split; [exact Ex|]. intros r i j Hi Hj. reflexivity.
Qed.

Lemma rel_guard (x : ten R) s : dims x = 4 :: 4 :: s -> length s <= 1 ->
  (negb (negb ((ndim x =? 2) || (ndim x =? 3)) && is44 x)) = true.
Proof.
  intros E H. unfold ndim, is44. rewrite E. destruct s as [|a [|b s]]; [reflexivity|reflexivity|cbn in H; lia].
Qed.

(* relative_transformation on one matrix or on a batch: slice by slice T1 o T = T2 *)
Lemma p_relative_transformation : forall (T1 T2 : ten R) (s : list nat) (orth : bool),
  length s <= 1 -> dims T1 = 4 :: 4 :: s -> dims T2 = 4 :: 4 :: s ->
  (forall r, vix s r -> affine4 (ent T1 r) /\ affine4 (ent T2 r) /\
     (if orth then rigid4 (ent T1 r) else (det3 (rot_of (ent T1 r)) <> 0)%R)) ->
  exists T, relative_transformation T1 T2 orth = Ok T /\ dims T = 4 :: 4 :: s /\
    forall r, vix s r -> affine4 (ent T r) /\
      meq 4 4 (mmul 4 (ent T1 r) (ent T r)) (ent T2 r) /\
      (forall X, affine4 X -> meq 4 4 (mmul 4 (ent T1 r) X) (ent T2 r) -> meq 4 4 X (ent T r)) /\
      (rigid4 (ent T1 r) -> rigid4 (ent T2 r) -> rigid4 (ent T r)).
Proof.
  intros T1 T2 s orth Hs E1 E2 H.
  assert (Hinv : exists Ti, (if orth then kornia_inverse T1 else torch_inverse T1) = Ok Ti /\ dims Ti = 4 :: 4 :: s /\
     forall r, vix s r -> affine4 (ent Ti r) /\ inverse_of 4 (ent T1 r) (ent Ti r)).
  { destruct orth.
    - destruct (kornia_inverse_ok T1 s E1 Hs) as (Ti & Hi & Ei & Mi). exists Ti. split; [exact Hi|]. split; [exact Ei|].
      intros r Hr. destruct (H r Hr) as (A1 & A2 & R1).
      assert (Ai : affine4 (ent Ti r)) by (eapply affine_ext; [apply meq_sym, Mi|apply inv_form_affine]).
      split; [exact Ai|]. split.
      + eapply meq_trans; [apply meq_sym, comp_form_mul; assumption|].
        eapply meq_trans; [apply comp_form_ext; [apply meq_refl|apply Mi]|]. apply inv_form_r, R1.
      + eapply meq_trans; [apply meq_sym, comp_form_mul; assumption|].
        eapply meq_trans; [apply comp_form_ext; [apply Mi|apply meq_refl]|]. apply inv_form_l, R1.
    - destruct (torch_inverse_ok T1 s E1) as (Ti & Hi & Ei & Mi).
      { intros r Hr. destruct (H r Hr) as (A1 & _ & D). rewrite det4_affine by exact A1. exact D. }
      exists Ti. split; [exact Hi|]. split; [exact Ei|]. intros r Hr. destruct (H r Hr) as (A1 & _ & D).
      assert (D4 : det4 (ent T1 r) <> 0%R) by (rewrite det4_affine by exact A1; exact D).
      assert (Me : meq 4 4 (inv4 (ent T1 r)) (ent Ti r)) by (intros i j _ _; symmetry; apply Mi).
      split; [eapply affine_ext; [exact Me|apply inv4_affine; assumption]|].
      destruct (inv4_correct _ D4) as [I1 I2]. split.
      + eapply meq_trans; [apply mmul_ext; [apply meq_refl|apply meq_sym, Me]|]. exact I1.
      + eapply meq_trans; [apply mmul_ext; [apply meq_sym, Me|apply meq_refl]|]. exact I2. }
  destruct Hinv as (Ti & Hi & Ei & HTi).
  destruct (kornia_compose_ok Ti T2 s Ei E2 Hs) as (T & HT & ET & MT).
  exists T. split.
  { unfold relative_transformation. rewrite (rel_guard T1 s), (rel_guard T2 s) by assumption.
    cbn [guard rbind]. unfold ndim. rewrite E1, E2, Nat.eqb_refl. cbn [guard rbind]. rewrite Hi. exact HT. }
  split; [exact ET|]. intros r Hr. destruct (H r Hr) as (A1 & A2 & _). destruct (HTi r Hr) as (Ai & I1 & I2).
  assert (MT' : meq 4 4 (ent T r) (mmul 4 (ent Ti r) (ent T2 r))).
  { eapply meq_trans; [apply MT, Hr|]. apply comp_form_mul; assumption. }
  assert (AT : affine4 (ent T r)) by (eapply affine_ext; [apply meq_sym, MT, Hr|apply comp_form_affine]).
  assert (Hsol : meq 4 4 (mmul 4 (ent T1 r) (ent T r)) (ent T2 r)).
  { eapply meq_trans; [apply mmul_ext; [apply meq_refl|exact MT']|]. intros i j Hi' Hj.
    rewrite <- mmul_assoc. transitivity (mmul 4 mI (ent T2 r) i j); [|apply mmul_I_l; assumption].
    apply mmul_ext; [exact I1|apply meq_refl|assumption|assumption]. }
  split; [exact AT|]. split; [exact Hsol|].
  assert (Huniq : forall X, affine4 X -> meq 4 4 (mmul 4 (ent T1 r) X) (ent T2 r) -> meq 4 4 X (ent T r)).
  { intros X AX HX. apply meq_sym. eapply meq_trans; [exact MT'|].
    eapply meq_trans; [apply mmul_ext; [apply meq_refl|apply meq_sym, HX]|]. intros i j Hi' Hj.
    rewrite <- mmul_assoc. transitivity (mmul 4 mI X i j); [|apply mmul_I_l; assumption].
    apply mmul_ext; [exact I2|apply meq_refl|assumption|assumption]. }
  split; [exact Huniq|]. intros R1 R2.
  assert (RX : rigid4 (comp_form (inv_form (ent T1 r)) (ent T2 r))).
  { apply rigid_comp_form; [apply rigid_inv_form, R1|exact R2]. }
  eapply rigid_ext; [|exact RX]. apply Huniq; [apply RX|].
  eapply meq_trans; [apply meq_sym, comp_form_mul; [exact A1|apply RX]|].
  eapply meq_trans; [apply meq_sym, comp_form_assoc|].
  eapply meq_trans; [apply comp_form_ext; [apply inv_form_r, R1|apply meq_refl]|].
  apply comp_form_I. exact A2.
Qed.
