(* append_points: which storages, and an object appended to itself. *)
From Coq Require Import List Arith ZArith Bool Lia.
From Verif Require Import Res Fld StructUtilsModel StructUtilsProofs PointcloudsModel PointcloudsSpec
  PointcloudsProofs StoreModel StoreSpec StoreProofs StoreProofs2 StoreProofs3 StoreProofs4 StoreProofs5.
Import ListNotations.
Local Open Scope nat_scope.

Section ST.
Variable F : Fld.
Notation heap := (heap F).
Notation MO := (M (heap * obj)).
Notation MH := (M heap).
Notation abs := (abs F).
Notation ext := (ext F).
Notation world := (world F).

(* ---------------- the argument only gets views of its own tensors ---------------- *)
Definition shrinks {A} (m : MO A) : Prop := forall h o l, uses (snd (snd (m (h, o)))) l -> uses o l.
Lemma sh_has a : shrinks (hhas F a).
Proof.
  intros h o l. unfold hhas, mbind, geto, modo, ret. cbn. destruct (qget a (oflg o)); cbn; [auto|]. now destruct o.
Qed.
Lemma sh_bind {A B} (m : MO A) (k : A -> MO B) : shrinks m -> (forall a, shrinks (k a)) -> shrinks (mbind m k).
Proof.
  intros Hm Hk h o l. unfold mbind. specialize (Hm h o l). destruct (m (h, o)) as [[a|e] [h1 o1]]; cbn in *; [|exact Hm].
  intros U. apply Hm. eapply Hk; exact U.
Qed.
Lemma sh_ret {A} (a : A) : shrinks (ret a). Proof. now intros h o l. Qed.
Lemma sh_raise {A} e : shrinks (@raise (heap * obj) A e). Proof. now intros h o l. Qed.
Lemma sh_geto : shrinks (geto F). Proof. now intros h o l. Qed.
Lemma attr_eq_dec (a b : attr) : {a = b} + {a <> b}.
Proof. decide equality. Qed.
Lemma sh_list a : shrinks (hget_list F a).
Proof.
  intros h o l. unfold hget_list, mbind, geto, geth, modo, ret, raise. cbn [fst snd].
  destruct (qget a (olst o)) eqn:E1; [auto|]. destruct (qget a (opad o)) as [p|] eqn:E2; [|auto].
  destruct (negb (v3b p =? obat o)); [auto|]. destruct (negb _); [auto|]. cbn [fst snd].
  intros [(b & vs & v & K & I & <-)|[(b & v & K & <-)|[K|K]]].
  - cbn [olst oset_lst owith_lst] in K. destruct (attr_eq_dec b a) as [->|N].
    + rewrite qget_qset_same in K. injection K as <-. unfold unpadv in I. apply in_map_iff in I as (q & <- & _). cbn.
      right. left. eauto.
    + rewrite qget_qset_other in K by exact N. left. exists b, vs, v. auto.
  - right. left. exists b, v. auto.
  - right. right. left. exact K.
  - right. right. right. exact K.
Qed.
Lemma sh_nf : shrinks (hnum_features F).
Proof.
  unfold hnum_features. apply sh_bind; [apply sh_has|]. intros b. destruct (negb b); [apply sh_ret|].
  apply sh_bind; [apply sh_geto|]. intros s. destruct (qf (opad s)); [apply sh_ret|].
  destruct (qf (olst s)) as [[|]|]; auto using sh_ret, sh_raise.
Qed.

Section J.
Variables i j : nat.
Hypothesis Nij : i <> j.
Definition wsh {A} (m : M world A) : Prop :=
  forall w o' l, nth_error (wobjs F (snd (m w))) j = Some o' -> uses o' l ->
  exists o, nth_error (wobjs F w) j = Some o /\ uses o l.
Lemma wsh_i {A} (m : MO A) : wsh (at_ F i m).
Proof.
  intros w o' l. unfold at_. destruct (nth_error (wobjs F w) i) eqn:E; [|eauto].
  destruct (m (wheap F w, o)) as [r [h o2]]. cbn. rewrite upd_other by auto. eauto.
Qed.
Lemma wsh_j {A} (m : MO A) : shrinks m -> wsh (at_ F j m).
Proof.
  intros H w o' l. unfold at_. destruct (nth_error (wobjs F w) j) as [o|] eqn:E; [|cbn; rewrite E; discriminate].
  specialize (H (wheap F w) o l). destruct (m (wheap F w, o)) as [r [h o2]]. cbn in *.
  rewrite (upd_same j o2 o _ E). intros [= <-] U. eauto.
Qed.
Lemma wsh_bind {A B} (m : M world A) (k : A -> M world B) : wsh m -> (forall a, wsh (k a)) -> wsh (mbind m k).
Proof.
  intros Hm Hk w o' l. unfold mbind. specialize (Hm w). destruct (m w) as [[a|e] w1]; cbn in *.
  - intros E U. destruct (Hk a w1 o' l E U) as (o1 & E1 & U1). now apply (Hm o1 l).
  - intros E U. now apply (Hm o' l).
Qed.
Lemma wsh_ret {A} (a : A) : wsh (ret a). Proof. intros w o l E U. eauto. Qed.
Lemma wsh_raise {A} e : wsh (@raise world A e). Proof. intros w o l E U. eauto. Qed.
Lemma wsh_lift {A} (r : res A) : wsh (lift r). Proof. intros w o l E U. eauto. Qed.
Lemma wsh_append a : wsh (happend_attr F a i j).
Proof.
  unfold happend_attr. apply wsh_bind; [apply wsh_i|]. intros x. apply wsh_bind; [apply wsh_j, sh_list|]. intros y.
  apply wsh_bind; [apply wsh_i|]. intros s. apply wsh_bind; [apply wsh_i|]. intros h.
  assert (Z : wsh (if obat s =? 0
            then at_ F i (modo F (oset_lst a (Some []))) ;;; at_ F i (modo F (oset_pad a None)) else raise TypeError)).
  { destruct (obat s =? 0); [|apply wsh_raise]. apply wsh_bind; intros; apply wsh_i. }
  destruct x; [|exact Z]. destruct y; [|exact Z].
  apply wsh_bind; [apply wsh_lift|]. intros q. repeat (apply wsh_bind; [apply wsh_i|]; intros). apply wsh_i.
Qed.
Lemma wsh_copy a : wsh (hcopy_attr F a i j).
Proof.
  unfold hcopy_attr. apply wsh_bind; [apply wsh_j, sh_list|]. intros y. destruct y; [|apply wsh_raise].
  repeat (apply wsh_bind; [apply wsh_i|]; intros). apply wsh_i.
Qed.
Lemma wsh_points : wsh (happend_points F i j).
Proof.
  assert (Hj : forall a, wsh (at_ F j (hhas F a))) by (intros; apply wsh_j, sh_has).
  assert (Hn : wsh (at_ F j (hnum_features F))) by (apply wsh_j, sh_nf).
  assert (Hg : wsh (at_ F j (geto F))) by (apply wsh_j, sh_geto).
  assert (C : forall a, wsh (do h <- at_ F j (hhas F a); if h then hcopy_attr F a i j else ret tt)).
  { intros a. apply wsh_bind; [apply Hj|]. intros []; [apply wsh_copy|apply wsh_ret]. }
  assert (D : forall a, wsh (do h <- at_ F i (hhas F a); if h then happend_attr F a i j else ret tt)).
  { intros a. apply wsh_bind; [apply wsh_i|]. intros []; [apply wsh_append|apply wsh_ret]. }
  unfold happend_points.
  apply wsh_bind; [apply wsh_i|]. intros d1. apply wsh_bind; [exact Hg|]. intros d2.
  destruct (negb _); [apply wsh_raise|].
  apply wsh_bind; [apply Hj|]. intros b. destruct (negb b); [apply wsh_ret|].
  apply wsh_bind; [apply wsh_i|]. intros b1. destruct (negb b1).
  { apply wsh_bind; [apply wsh_copy|]. intros _. do 3 (apply wsh_bind; [apply C|]; intros _).
    apply wsh_bind; [exact Hg|]. intros o. repeat (apply wsh_bind; [apply wsh_i|]; intros). apply wsh_i. }
  apply wsh_bind; [apply wsh_i|]. intros s. apply wsh_bind; [exact Hg|]. intros o.
  destruct (negb _); [apply wsh_raise|].
  apply wsh_bind; [apply wsh_i|]. intros n1. apply wsh_bind; [apply Hj|]. intros n2.
  destruct (negb _); [apply wsh_raise|].
  apply wsh_bind; [apply wsh_i|]. intros c1. apply wsh_bind; [apply Hj|]. intros c2.
  destruct (negb _); [apply wsh_raise|].
  apply wsh_bind; [apply wsh_i|]. intros g1. apply wsh_bind; [apply Hj|]. intros g2.
  destruct (negb _); [apply wsh_raise|].
  apply wsh_bind.
  { destruct g1; [|apply wsh_ret]. apply wsh_bind; [apply wsh_i|]. intros w1. apply wsh_bind; [exact Hn|]. intros w2.
    destruct w1, w2; try apply wsh_raise; try apply wsh_ret. destruct (_ =? _); [apply wsh_ret|apply wsh_raise]. }
  intros _. apply wsh_bind; [apply wsh_append|]. intros _. do 3 (apply wsh_bind; [apply D|]; intros _).
  apply wsh_bind; [apply wsh_i|]. intros s'. apply wsh_bind; [exact Hg|]. intros o'.
  apply wsh_bind; [apply wsh_i|]. intros h. apply wsh_bind; [apply wsh_lift|]. intros ns.
  apply wsh_bind; [apply wsh_i|]. intros n. apply wsh_i.
Qed.
End J.
End ST.
