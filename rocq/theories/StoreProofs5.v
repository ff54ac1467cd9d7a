(* Programs: refinement of every call, storages over histories. *)
From Coq Require Import List Arith ZArith Bool Lia.
From Verif Require Import Res Fld StructUtilsModel StructUtilsProofs PointcloudsModel PointcloudsSpec
  PointcloudsProofs StoreModel StoreSpec StoreProofs StoreProofs2 StoreProofs3 StoreProofs4.
Import ListNotations.
Local Open Scope nat_scope.

Section ST.
Variable F : Fld.
Notation T2 := (t2 F).
Notation T3 := (t3 F).
Notation heap := (heap F).
Notation MO := (M (heap * obj)).
Notation MH := (M heap).
Notation read2 := (read2 F).
Notation read3 := (read3 F).
Notation abs := (abs F).
Notation ext := (ext F).
Notation world := (world F).

Lemma ok_uses (own : nat -> Prop) n0 dv h o : n0 <= length h ->
  (ok F own n0 dv h o <-> (odev o = dv /\ forall l, uses o l -> okl F own dv h l)).
Proof.
  intros N. split.
  - intros [A B C D E G]. split; [exact G|]. intros l [(a & vs & v & K & I & <-)|[(a & v & K & <-)|[K| <-]]].
    + specialize (B _ _ K). unfold ok2 in B. rewrite Forall_forall in B. apply B, I.
    + eapply C, K.
    + apply D, K.
    + exact E.
  - intros [G H]. constructor; auto.
    + intros a vs K. apply Forall_forall. intros v I. apply H. left. exists a, vs, v. auto.
    + intros a v K. apply H. right. left. exists a, v. auto.
    + intros m K. apply H. unfold uses. auto.
    + apply H. unfold uses. auto.
Qed.
Lemma ok_valid (own : nat -> Prop) n0 h o : n0 <= length h ->
  valid F h o -> (forall l, uses o l -> own l) -> ok F own n0 (odev o) h o.
Proof. intros N V H. apply ok_uses; [exact N|]. split; [reflexivity|]. intros l U. destruct (V l U). split; auto. Qed.
Lemma valid_ok (own : nat -> Prop) n0 dv h o : ok F own n0 dv h o -> valid F h o.
Proof. intros O. apply ok_uses in O as [<- K]; [|apply O]. intros l U. destruct (K l U) as [A [_ B]]. now split. Qed.
Lemma own_ok (own : nat -> Prop) n0 dv h o l : ok F own n0 dv h o -> uses o l -> own l.
Proof. intros O U. apply ok_uses in O as [_ K]; [|apply O]. apply (K l U). Qed.

Section ONE.
Variable own : nat -> Prop.
Variable n0 : nat.
Variable dv : dev.
Hypothesis own_fresh : forall l, n0 <= l -> own l.
Notation ok := (ok F own n0 dv).
Notation post := (post F own n0 dv).

Lemma post_then {A B} h o (R : heap -> A -> B -> Prop) (mh : MO A) (m : M (pc F) B) (k : heap -> A -> ans F) k' :
  post h R (mh (h, o)) (m (abs h o)) ->
  (forall h1 a b, R h1 a b -> k h1 a = k' b) ->
  post h (Reqv F) ((do a <- mh; do h <- geth F; ret (k h a)) (h, o)) ((do b <- m; ret (k' b)) (abs h o)).
Proof.
  intros H K. eapply post_bind; [exact H|]. intros h1 o1 a b X O1 Rab.
  apply post_geth. apply post_ret; [exact O1|]. apply (K h1 a b Rab).
Qed.
Lemma post_unit h o (mh : MO unit) (m : M (pc F) unit) :
  post h (Reqv F) (mh (h, o)) (m (abs h o)) ->
  post h (Reqv F) ((mh ;;; ret (ANone F)) (h, o)) ((m ;;; ret (ANone F)) (abs h o)).
Proof. intros H. eapply post_bind; [exact H|]. intros. now apply post_ret. Qed.

Lemma call_ok h o c : ok h o -> call_args F h c -> on_device F h dv c ->
  post h (Reqv F) (run_call F c (h, o)) (pure_call F h c (abs h o)).
Proof.
  intros O A D. destruct c; cbn [run_call pure_call].
  - eapply post_bind; [now apply hhas_ok|]. intros h1 o1 x y X O1 <-. now apply post_ret.
  - eapply post_bind; [now apply hnum_features_ok|]. intros h1 o1 x y X O1 <-. now apply post_ret.
  - apply (post_then h o (Ropt F (R2l F own dv)) (hget_list F a) (get_list F a)
      (fun h l => AList F (option_map (map (read2 h)) l)) (AList F)); [now apply hget_list_ok|].
    intros h1 [x|] [y|]; cbn; try contradiction; [|reflexivity]. now intros [_ ->].
  - apply (post_then h o (Ropt F (R3 F own dv)) (hget_padded F a) (get_padded F a)
      (fun h p => ATen F (option_map (read3 h) p)) (ATen F)); [now apply hget_padded_ok|].
    intros h1 [x|] [y|]; cbn; try contradiction; [|reflexivity]. now intros [_ ->].
  - apply (post_then h o (Ropt F (Rm F own dv)) (hnonpad_mask F) (nonpad_mask F)
      (fun h p => AMask F (option_map (bdata F h) p)) (AMask F)); [now apply hnonpad_mask_ok|].
    intros h1 [x|] [y|]; cbn; try contradiction; [|reflexivity]. now intros [_ ->].
  - apply post_unit. apply (hset_list_ok F own n0 dv own_fresh); [exact O|].
    destruct v as [|l]; cbn; [constructor|]. rewrite Forall_map. apply Forall_forall. exact A.
  - apply post_unit. apply (hset_padded_ok F own n0 dv own_fresh); [exact O|].
    destruct v as [|l]; cbn; [exact I|]. split; [exact A|exact D].
  - apply post_unit. now apply hmasked_ok.
  - apply post_unit. now apply hmasked_ok.
  - apply post_unit. now apply hrotate_ok.
  - apply post_unit. now apply htransform_ok.
  - apply post_unit. now apply hpinhole_ok.
Qed.

Lemma call_upost h o c : ok h o -> call_args F h c -> upost F own n0 dv h (fun _ _ => True) (run_call F c (h, o)).
Proof.
  intros O A.
  assert (G : on_device F h dv c -> upost F own n0 dv h (fun _ _ => True) (run_call F c (h, o))).
  { intros D. eapply post_upost; [now apply call_ok|]. auto. }
  destruct c; try (apply G; exact I). destruct v as [|x]; [apply G; exact I|].
  assert (dec : devof F h (anyl x) = dv \/ devof F h (anyl x) <> dv).
  { destruct (dev_eqb (devof F h (anyl x)) dv) eqn:E; [left; now apply dev_eqb_eq|right].
    intros E'. apply dev_eqb_eq in E'. congruence. }
  destruct dec as [D|D]; [now apply G|].
  destruct (hset_padded_device F own n0 dv h o a x O D) as (o' & E & O' & _).
  cbn [run_call]. unfold mbind. rewrite E. split; [apply ext_refl|]. split; [exact O'|exact I].
Qed.

(* which new object a method returns *)
Variable cur : nat.
Variable n1 : nat.
Notation own1 := (freshown n1).

Definition rsome (R : heap -> obj -> pc F -> Prop) (h : heap) (r : option obj) (s : pc F) : Prop :=
  exists o, r = Some o /\ R h o s.
Lemma post_some h o (R : heap -> obj -> pc F -> Prop) (m : MO obj) f :
  post h R (m (h, o)) (f (abs h o)) ->
  post h (rsome R) ((do o <- m; ret (Some o)) (h, o)) (f (abs h o)).
Proof.
  intros (X & O1 & S & H). unfold mbind. destruct (m (h, o)) as [r [h1 o1]]. cbn [fst snd] in *.
  destruct r as [o'|e]; cbn.
  - split; [exact X|]. split; [exact O1|]. split; [exact S|]. cbn. destruct (fst (f (abs h o))); [|contradiction].
    exists o'. auto.
  - split; [exact X|]. split; [exact O1|]. split; [exact S|]. exact H.
Qed.
Lemma post_catch {A B} h (R : heap -> A -> B -> Prop) (m : MO A) f o :
  post h R (m (h, o)) (f (abs h o)) -> post h R (hcatch_type F m (h, o)) (catch_type F f (abs h o)).
Proof.
  intros (X & O1 & S & H). unfold hcatch_type, catch_type.
  destruct (m (h, o)) as [r [h1 o1]]. destruct (f (abs h o)) as [r' s]. cbn [fst snd] in *.
  destruct r as [a|e], r' as [b|e']; try contradiction.
  - split; [exact X|]. split; [exact O1|]. split; [exact S|exact H].
  - subst e'. destruct e; (split; [exact X|]; split; [exact O1|]; split; [exact S|reflexivity]).
Qed.

(* methods whose result owns all its storages *)
Definition copies (m : make F) : bool :=
  match m with MDetach _ | MTo _ _ _ | MCpu _ | MCuda _ | MItem _ _ => false | _ => true end.

Lemma ref_offset o : refines F (hoffset_ F o) (offset_ F o).
Proof. intros own' n' d' Fr h x O. now apply hmasked_ok. Qed.
Lemma ref_scale o : refines F (hscale_ F o) (scale_ F o).
Proof. intros own' n' d' Fr h x O. now apply hmasked_ok. Qed.
Lemma ref_rotate o pre : refines F (hrotate_ F o pre) (rotate_ F o pre).
Proof. intros own' n' d' Fr h x O. now apply hrotate_ok. Qed.
Lemma ref_transform o pre : refines F (htransform_ F o pre) (transform_ F o pre).
Proof. intros own' n' d' Fr h x O. now apply htransform_ok. Qed.
Lemma ref_pinhole o : refines F (hpinhole_projection_ F o) (pinhole_projection_ F o).
Proof. intros own' n' d' Fr h x O. now apply hpinhole_ok. Qed.

Lemma make_copies h o m : ok h o -> n1 <= length h -> copies m = true ->
  post h (rsome (Robj F own1 n1 dv)) (run_make F cur m (h, o)) (pure_make F m (abs h o)).
Proof.
  intros O N C.
  assert (OO : forall op f, refines F op f ->
     post h (Robj F own1 n1 dv) (hout_of_place F op (h, o)) (out_of_place F f (abs h o))).
  { intros op f Rf. now apply hout_of_place_ok. }
  assert (RS : forall e, post h (rsome (Robj F own1 n1 dv)) ((do o <- raise e; ret (Some o)) (h, o)) (raise e (abs h o))).
  { intros e. split; [apply ext_refl|]. split; [exact O|]. split; reflexivity. }
  destruct m; try discriminate C; cbn [run_make pure_make].
  - apply post_some. now apply hclone_ok.
  - apply post_some, post_catch. apply OO, ref_offset.
  - apply post_some, post_catch. apply OO, ref_offset.
  - apply post_some, post_catch. apply OO, ref_scale.
  - unfold htruediv, truediv. destruct o0; [apply RS|]. apply post_some, post_catch. apply OO, ref_scale.
  - unfold hmatmul, matmul. destruct o0 as [|sh el]; [apply RS|].
    destruct (mat_shape_ok 3 sh); [apply post_some, OO, ref_rotate|].
    destruct (mat_shape_ok 4 sh); [apply post_some, OO, ref_transform|apply RS].
  - apply post_some, OO, ref_rotate.
  - apply post_some, OO, ref_transform.
  - apply post_some, OO, ref_pinhole.
Qed.

(* every method returns an object whose storages are own ones *)
Definition newok (h : heap) (r : option obj) : Prop := forall o', r = Some o' -> exists d, StoreProofs.ok F own n0 d h o'.
Lemma upost_some h (m : MO obj) o : (forall h' o' s, Robj F own n0 dv h' o' s -> True) ->
  upost F own n0 dv h (fun h' o' => exists d, StoreProofs.ok F own n0 d h' o') (m (h, o)) ->
  upost F own n0 dv h newok ((do o <- m; ret (Some o)) (h, o)).
Proof.
  intros _ (X & O1 & H). unfold mbind. destruct (m (h, o)) as [r [h1 o1]]. cbn [fst snd] in *.
  destruct r as [o'|e]; (split; [exact X|]; split; [exact O1|]); [|exact I]. intros o2 [= <-]. exact H.
Qed.
Lemma Robj_own h o s : n0 <= length h -> Robj F (freshown n0) n0 dv h o s -> exists d, StoreProofs.ok F own n0 d h o.
Proof. intros N [O _]. exists dv. eapply ok_weaken; [|exact N|exact O]. exact own_fresh. Qed.

End ONE.

Section MK.
Variable own : nat -> Prop.
Variable n0 : nat.
Hypothesis own_fresh : forall l, n0 <= l -> own l.
Variable cur : nat.

Lemma hto_any dv h o a copy : ok F own n0 dv h o ->
  upost F own n0 dv h (newok own n0) (hto F cur a copy (h, o)).
Proof.
  intros O. destruct (same_dev dv a) eqn:Sd.
  - unfold hto. unfold mbind at 1, geto at 1. cbv beta iota. cbn [snd]. rewrite (ok_dev _ _ _ _ _ _ O), Sd.
    destruct copy; cbn [negb andb].
    + unfold mbind. pose proof (hclone_ok F own n0 n0 dv h o O (ok_n _ _ _ _ _ _ O)) as (X & O1 & _ & H).
      destruct (hclone F (h, o)) as [r [h1 o1]]. cbn [fst snd] in *.
      destruct r as [o'|e]; (split; [exact X|]; split; [exact O1|]); [|exact I].
      intros o2 [= <-]. destruct (fst (clone F (abs h o))); [|contradiction].
      eapply Robj_own; [exact own_fresh|apply O1|exact H].
    + split; [apply ext_refl|]. split; [exact O|]. intros o' [=].
  - pose proof (hto_ok F own n0 n0 dv cur own h o a copy O (le_n _) (ok_n _ _ _ _ _ _ O) own_fresh (fun _ l H => H) Sd) as P.
    eapply post_upost; [exact P|]. intros h' r s (o' & -> & Oo & _) o2 [= <-]. eexists. exact Oo.
Qed.

Lemma make_any dv h o m : ok F own n0 dv h o ->
  upost F own n0 dv h (newok own n0) (run_make F cur m (h, o)).
Proof.
  intros O. destruct (copies m) eqn:C.
  - eapply post_upost; [apply (make_copies own n0 dv cur n0 h o m O (ok_n _ _ _ _ _ _ O) C)|].
    intros h' r s (o' & -> & [Oo Ao]) o2 [= <-]. eapply Robj_own; [exact own_fresh|apply Oo|split; [exact Oo|exact Ao]].
  - destruct m; try discriminate C; cbn [run_make].
    + apply upost_some; [auto|]. eapply post_upost; [apply (hdetach_ok F own n0 n0 dv own_fresh h o O (le_n _) (ok_n _ _ _ _ _ _ O))|].
      intros h' o' s [Oo _]. eauto.
    + now apply hto_any.
    + now apply hto_any.
    + now apply hto_any.
    + apply upost_some; [auto|]. eapply post_upost; [apply (hgetitem_ok F own n0 dv own_fresh h o ix O)|].
      intros h' o' s [Oo _]. eauto.
Qed.

(* ---------------- worlds ---------------- *)
Variable O : nat -> Prop.
Variable m0 : nat.
Hypothesis O_new : forall k, m0 <= k -> O k.
Definition inv (w : world) : Prop :=
  n0 <= length (wheap F w) /\ m0 <= length (wobjs F w) /\
  forall k o, O k -> nth_error (wobjs F w) k = Some o -> exists d, ok F own n0 d (wheap F w) o.
(* what a step leaves alone *)
Definition keeps (w w' : world) : Prop :=
  (forall l, ~ own l -> nth_error (wheap F w') l = nth_error (wheap F w) l) /\
  (forall k, ~ O k -> nth_error (wobjs F w') k = nth_error (wobjs F w) k).

Lemma ext_keeps_heap h h' : n0 <= length h -> ext h h' -> forall l, ~ own l -> nth_error h' l = nth_error h l.
Proof.
  intros N E l H. apply (ext_nth F); [exact E|]. destruct (le_lt_dec n0 l) as [L|L]; [elim H; auto|lia].
Qed.
Lemma upd_id {X} k (x : X) l : nth_error l k = Some x -> upd k x l = l.
Proof. revert k. induction l as [|y l IH]; intros [|k]; cbn; try discriminate; [now intros [= ->]|]. intros E. now rewrite IH. Qed.

Lemma at_inv {A} w i (m : MO A) Q : inv w -> O i ->
  (forall d h o, ok F own n0 d h o -> wheap F w = h -> upost F own n0 d h Q (m (h, o))) ->
  let x := at_ F i m w in
  inv (snd x) /\ keeps w (snd x) /\ ext (wheap F w) (wheap F (snd x)) /\
  (nth_error (wobjs F w) i <> None -> match fst x with Ok a => Q (wheap F (snd x)) a | _ => True end) /\
  (nth_error (wobjs F w) i = None -> fst x = Err NameError).
Proof.
  intros (N & L & H) Oi Hm. cbn zeta. unfold at_.
  destruct (nth_error (wobjs F w) i) as [o|] eqn:E.
  2:{ cbn. split; [split; [exact N|split; [exact L|exact H]]|]. split; [split; reflexivity|].
      split; [apply ext_refl|]. split; [easy|reflexivity]. }
  destruct (H i o Oi E) as [d Od]. specialize (Hm d (wheap F w) o Od eq_refl).
  destruct (m (wheap F w, o)) as [r [h o']]. destruct Hm as (X & O' & HQ). cbn [fst snd] in *.
  pose proof (ext_len _ _ _ X). split; [|split; [|split; [exact X|split; [intros _; exact HQ|discriminate]]]].
  - split; [cbn; lia|]. split; [cbn; now rewrite upd_length|]. cbn [wheap wobjs]. intros k o2 Ok2 E2.
    destruct (Nat.eq_dec k i) as [->|Nk].
    + rewrite (upd_same i o' o _ E) in E2. injection E2 as <-. eauto.
    + rewrite upd_other in E2 by exact Nk. destruct (H k o2 Ok2 E2) as [d2 D2]. exists d2. eapply ok_ext; eauto.
  - split; cbn [wheap wobjs]; [now apply ext_keeps_heap|].
    intros k Nk. apply upd_other. intros ->. contradiction.
Qed.

Lemma push_inv w r : inv w -> (forall o, r = Ok (Some o) -> exists d, ok F own n0 d (wheap F w) o) ->
  inv (push F r w) /\ keeps w (push F r w) /\ wheap F (push F r w) = wheap F w.
Proof.
  intros (N & L & H) Hr. destruct r as [[o|]|e]; cbn [push];
    try (split; [split; [exact N|split; [exact L|exact H]]|split; [split; reflexivity|reflexivity]]).
  split; [|split; [|reflexivity]].
  - split; [exact N|]. cbn. split; [rewrite app_length; lia|]. intros k o2 Ok2 E2.
    destruct (lt_dec k (length (wobjs F w))) as [Lk|Lk].
    + rewrite nth_error_app1 in E2 by exact Lk. now apply (H k).
    + rewrite nth_error_app2 in E2 by lia. destruct (k - length (wobjs F w)) as [|q]; cbn in E2.
      * injection E2 as <-. now apply Hr.
      * now destruct q.
  - split; [reflexivity|]. cbn. intros k Nk. apply nth_error_app1.
    destruct (le_lt_dec m0 k) as [K|K]; [elim Nk; auto|lia].
Qed.

Lemma keeps_trans w1 w2 w3 : keeps w1 w2 -> keeps w2 w3 -> keeps w1 w3.
Proof. intros [A B] [C D]. split; intros; [rewrite C, A|rewrite D, B]; auto. Qed.

Lemma poke_len l c h : length (poke F l c h) = length h.
Proof. unfold poke. destruct (nth_error h l); [apply upd_length|reflexivity]. Qed.
Lemma poke_dev l c h k : devof F (poke F l c h) k = devof F h k.
Proof.
  unfold poke, devof. destruct (nth_error h l) as [old|] eqn:E; [|reflexivity].
  destruct (Nat.eq_dec k l) as [->|N].
  - rewrite (upd_same _ _ _ _ E), E. now destruct c.
  - now rewrite upd_other.
Qed.
Lemma poke_other l c h k : k <> l -> nth_error (poke F l c h) k = nth_error h k.
Proof. intros N. unfold poke. destruct (nth_error h l); [now apply upd_other|reflexivity]. Qed.

(* no step but a direct write changes a storage *)
Definition is_write (s : op F) : bool := match s with OWrite _ _ _ => true | _ => false end.

Lemma append_inv w i j : inv w -> O i -> O j ->
  inv (snd (happend_points F i j w)) /\ keeps w (snd (happend_points F i j w)) /\
  ext (wheap F w) (wheap F (snd (happend_points F i j w))).
Proof.
  intros (N & L & H) Oi Oj.
  assert (Triv : inv w /\ keeps w w /\ ext (wheap F w) (wheap F w)).
  { split; [split; [exact N|split; [exact L|exact H]]|]. split; [split; reflexivity|apply ext_refl]. }
  assert (G : forall k o, nth_error (wobjs F w) k = Some o -> at_ F k (geto F) w = (Ok o, w)).
  { intros k o E. unfold at_. rewrite E. cbn. destruct w. cbn in *. now rewrite (upd_id _ _ _ E). }
  assert (G0 : forall k, nth_error (wobjs F w) k = None -> at_ F k (geto F) w = (Err NameError, w)).
  { intros k E. unfold at_. now rewrite E. }
  destruct (nth_error (wobjs F w) i) as [oi|] eqn:Ei.
  2:{ assert (E : happend_points F i j w = (Err NameError, w)).
      { unfold happend_points. now rewrite (mbind_at _ _ _ _ _ (G0 i Ei)). }
      rewrite E. exact Triv. }
  destruct (nth_error (wobjs F w) j) as [oj|] eqn:Ej.
  2:{ assert (E : happend_points F i j w = (Err NameError, w)).
      { unfold happend_points. now rewrite (mbind_at _ _ _ _ _ (G _ _ Ei)), (mbind_at _ _ _ _ _ (G0 j Ej)). }
      rewrite E. exact Triv. }
  destruct (H i oi Oi Ei) as [di Di]. destruct (H j oj Oj Ej) as [dj Dj].
  destruct (dev_eqb (odev oj) (odev oi)) eqn:De.
  2:{ assert (E : happend_points F i j w = (Err ValueError, w)).
      { unfold happend_points. now rewrite (mbind_at _ _ _ _ _ (G _ _ Ei)), (mbind_at _ _ _ _ _ (G _ _ Ej)), De. }
      rewrite E. exact Triv. }
  apply dev_eqb_eq in De. rewrite (ok_dev _ _ _ _ _ _ Di), (ok_dev _ _ _ _ _ _ Dj) in De. subst dj.
  assert (Gd : good F own n0 di i j (wobjs F w) w).
  { split; [exists oi; auto|]. split; [exists oj; auto|]. split; [reflexivity|]. auto. }
  destruct (happend_good F own n0 di own_fresh i j (wobjs F w) w Gd) as ((Hi & Hj & Ln & Fr) & X & _).
  destruct (happend_points F i j w) as [r w']. cbn [fst snd] in *. pose proof (ext_len _ _ _ X).
  split; [|split; [|exact X]].
  - split; [lia|]. split; [lia|]. intros k o Ok2 E2.
    destruct (Nat.eq_dec k i) as [->|N1]; [destruct Hi as (o' & E' & D'); rewrite E' in E2; injection E2 as <-; eauto|].
    destruct (Nat.eq_dec k j) as [->|N2]; [destruct Hj as (o' & E' & D'); rewrite E' in E2; injection E2 as <-; eauto|].
    rewrite Fr in E2 by auto. destruct (H k o Ok2 E2) as [d D]. exists d. eapply ok_ext; eauto.
  - split; [now apply ext_keeps_heap|]. intros k Nk. apply Fr; intros ->; contradiction.
Qed.

Lemma step_inv s w : inv w -> allowed F O own w s ->
  inv (step F cur s w) /\ keeps w (step F cur s w) /\
  (is_write s = false -> ext (wheap F w) (wheap F (step F cur s w))).
Proof.
  intros I A. destruct s as [i c|i m|pa na ca fa d|i j|c|l c]; cbn [step].
  - destruct A as [Oi Ac].
    destruct (at_inv w i (run_call F c) (fun _ _ => True) I Oi) as (I' & K & X & _).
    { intros d h o Od <-. now apply call_upost. }
    split; [exact I'|]. split; [exact K|]. intros _. exact X.
  - cbn in A. destruct (at_inv w i (run_make F cur m) (newok own n0) I A) as (I' & K & X & Q & Q').
    { intros d h o Od <-. now apply make_any. }
    destruct (at_ F i (run_make F cur m) w) as [r w']. cbn [fst snd] in *.
    destruct (push_inv w' r I') as (I2 & K2 & E2).
    { intros o ->. destruct (nth_error (wobjs F w) i) eqn:Ei; [|now specialize (Q' eq_refl)].
      specialize (Q ltac:(discriminate)). now apply Q. }
    split; [exact I2|]. split; [eapply keeps_trans; eauto|]. intros _. now rewrite E2.
  - cbn in A.
    assert (Ar : forall dv a, (forall l, In l (arg_stores a) -> l < length (wheap F w) /\ own l) ->
        arg_ok F own dv (wheap F w) a).
    { intros dv [|la|x|] Ha; cbn; auto.
      - apply Forall_forall. intros x Hx. destruct (Ha (anyl x)) as [A1 A2]; [cbn; now apply in_map|]. split; auto.
      - destruct (Ha (anyl x)) as [A1 A2]; [cbn; auto|]. split; auto. }
    set (dv := ctor_dev F (wheap F w) pa d).
    pose proof (hctor_ok F own n0 dv own_fresh (wheap F w) pa na ca fa d (proj1 I)) as HC.
    assert (Ap : arg_ok F own dv (wheap F w) pa) by (apply Ar; intros l Hl; apply A; rewrite !in_app_iff; auto).
    assert (An : arg_ok F own dv (wheap F w) na) by (apply Ar; intros l Hl; apply A; rewrite !in_app_iff; auto).
    assert (Ac : arg_ok F own dv (wheap F w) ca) by (apply Ar; intros l Hl; apply A; rewrite !in_app_iff; auto).
    assert (Af : arg_ok F own dv (wheap F w) fa) by (apply Ar; intros l Hl; apply A; rewrite !in_app_iff; auto).
    specialize (HC Ap An Ac Af).
    specialize (HC (fun _ _ => eq_refl)).
    destruct (hctor F pa na ca fa d (wheap F w)) as [r h]. destruct HC as [X HC]. cbn [fst snd] in *.
    pose proof (ext_len _ _ _ X). destruct I as (N & L & H0).
    assert (I1 : inv (mkW F h (wobjs F w))).
    { split; [cbn; lia|]. split; [exact L|]. cbn. intros k o Ok2 E2. destruct (H0 k o Ok2 E2) as [d' D']. exists d'. eapply ok_ext; eauto. }
    destruct (push_inv (mkW F h (wobjs F w)) (match r with Ok o => Ok (Some o) | Err e => Err e end) I1) as (I2 & K2 & E2).
    { intros o Er. destruct r as [o'|]; [|discriminate]. injection Er as ->.
      destruct (ctor F _ _ _ _); [|contradiction]. destruct HC as [Oo _]. cbn. eauto. }
    split; [exact I2|]. split; [|intros _; rewrite E2; exact X].
    eapply keeps_trans; [|exact K2]. split; [now apply ext_keeps_heap|reflexivity].
  - destruct A as [Oi Oj]. destruct (append_inv w i j I Oi Oj) as (A1 & A2 & A3). auto.
  - assert (X : ext (wheap F w) (wheap F w ++ [c])) by apply ext_app. destruct I as (N & L & H).
    pose proof (ext_len _ _ _ X). cbn [wheap wobjs].
    split; [|split; [|intros _; exact X]].
    + split; [cbn; lia|]. split; [exact L|]. cbn. intros k o Ok2 E2. destruct (H k o Ok2 E2) as [d' D']. exists d'. eapply ok_ext; eauto.
    + split; [now apply ext_keeps_heap|reflexivity].
  - cbn in A. destruct I as (N & L & H). split; [|split; [|discriminate]].
    + split; [cbn; now rewrite poke_len|]. split; [exact L|]. cbn. intros k o Ok2 E2. destruct (H k o Ok2 E2) as [d D]. exists d.
      apply ok_uses in D as [D1 D2]; [|exact N]. apply ok_uses; [now rewrite poke_len|]. split; [exact D1|].
      intros l' U. destruct (D2 l' U) as [G1 [G2 G3]]. split; [now rewrite poke_len|]. split; [exact G2|]. now rewrite poke_dev.
    + split; [|reflexivity]. cbn. intros l' Nl. apply poke_other. intros ->. contradiction.
Qed.

Lemma steps_inv ops : forall w, inv w -> all_allowed F cur O own ops w ->
  inv (steps F cur ops w) /\ keeps w (steps F cur ops w) /\
  (forallb (fun s => negb (is_write s)) ops = true -> ext (wheap F w) (wheap F (steps F cur ops w))).
Proof.
  induction ops as [|s ops IH]; intros w I A.
  - split; [exact I|]. split; [split; reflexivity|]. intros _. apply ext_refl.
  - destruct A as [A1 A2]. destruct (step_inv s w I A1) as (I1 & K1 & X1).
    destruct (IH _ I1 A2) as (I2 & K2 & X2). cbn [steps].
    split; [exact I2|]. split; [eapply keeps_trans; eauto|]. cbn. intros E. apply andb_true_iff in E as [E1 E2].
    eapply ext_trans; [apply X1|apply X2; exact E2]. destruct (is_write s); [discriminate|reflexivity].
Qed.
End MK.

(* an object whose storages keep their contents keeps its value *)
Lemma abs_same h h' o : (forall l, uses o l -> nth_error h' l = nth_error h l) -> abs h' o = abs h o.
Proof.
  intros H. unfold StoreModel.abs. f_equal.
  - apply quad_ext. intros a. rewrite !qget_qmap. destruct (qget a (olst o)) as [vs|] eqn:E; [|reflexivity].
    cbn. f_equal. apply map_ext_in. intros v Hv. unfold StoreModel.read2, fdata. rewrite H; [reflexivity|].
    left. exists a, vs, v. auto.
  - apply quad_ext. intros a. rewrite !qget_qmap. destruct (qget a (opad o)) as [v|] eqn:E; [|reflexivity].
    cbn. f_equal. unfold StoreModel.read3, fdata. rewrite H; [reflexivity|]. right. left. exists a, v. auto.
  - destruct (omask o) as [m|] eqn:E; [|reflexivity]. cbn. f_equal. unfold bdata. rewrite H; [reflexivity|].
    unfold uses. auto.
  - unfold ndata. rewrite H; [reflexivity|]. unfold uses. auto.
Qed.
End ST.
