(* Calls, methods that return objects, and programs. *)
From Coq Require Import Reals List Arith Bool ZArith Lia.
From Verif Require Import Res TensorModel RgbdModel RgbdStoreModel RgbdStoreSpec RgbdStoreProofs RgbdStoreProofs2
  RgbdStoreProofs3 RgbdStoreProofs4.
From Verif Require StoreModel.
Import ListNotations.
Local Open Scope nat_scope.

Lemma upd_length {X} i (x : X) : forall l, length (StoreModel.upd i x l) = length l.
Proof. induction i as [|i IH]; intros [|y l]; cbn; auto. Qed.
Lemma upd_same {X} i (x y : X) : forall l, nth_error l i = Some y -> nth_error (StoreModel.upd i x l) i = Some x.
Proof. induction i as [|i IH]; intros [|z l]; cbn; try discriminate; auto. Qed.
Lemma upd_other {X} i k (x : X) : forall l, k <> i -> nth_error (StoreModel.upd i x l) k = nth_error l k.
Proof. revert k. induction i as [|i IH]; intros [|k] [|z l] N; cbn; auto; try congruence. Qed.

Section Q.
Variable Q : nat -> Prop.
Variable n : nat.
Hypothesis Qn : forall l, n <= l -> Q l.
Variable ctg : bool -> ref -> bool.
Variable cur : nat.
Notation okr := (okr Q).
Notation ok := (ok Q).

Lemma simo_wrap {A B} d h o (m : M (iheap * iobj) A) (p : MR B) (post : A -> iheap -> B -> Prop) (f : A -> ians) (g : B -> ians) :
  simo Q d h o m p post -> (forall a h' b, post a h' b -> f a = g b) ->
  simo Q d h o (do a <- m; ret (f a)) (do b <- p; ret (g b)) (fun a _ b => a = b).
Proof.
  intros S H. unfold simo, mbind in *. destruct (m (h, o)) as [[a|e] [h1 o1]]; destruct (p (iabs h o)) as [[b|e'] s1]; cbn in *; destruct S as (E & O1 & V & S); try contradiction; auto.
  split; [auto|]. split; [auto|]. split; [auto|]. eauto.
Qed.
Lemma icall_sim d h o c : n <= length h -> ok d h o -> arg_okr Q d h (set_arg c) ->
  simo Q d h o (run_icall ctg c) (pure_icall h c) (fun a _ b => a = b).
Proof.
  intros L Oo A. destruct c; cbn [run_icall pure_icall set_arg] in *;
  try (unfold simo; cbn; split; [apply ext_refl|]; split; [exact Oo|]; now split).
  - unfold simo; cbn -[iabs]; split; [apply ext_refl|]; split; [exact Oo|]; split; [reflexivity|].
    unfold iabs; cbn. now destruct (o_t o SPoses).
  - eapply simo_wrap; [apply (iread_sim Q n Qn); auto; apply pres_mask|]. now intros a h' b ->.
  - eapply simo_wrap; [apply (iread_sim Q n Qn); auto; apply pres_vm|]. now intros a h' b ->.
  - eapply simo_wrap; [apply (iread_sim Q n Qn); auto; apply pres_nm|]. now intros a h' b ->.
  - eapply simo_wrap; [apply (iread_sim Q n Qn); auto; apply pres_gvm|]. now intros a h' b ->.
  - eapply simo_wrap; [apply (iread_sim Q n Qn); auto; apply pres_gnm|]. now intros a h' b ->.
  - eapply simo_wrap; [now apply iset_rgb_sim|]. reflexivity.
  - eapply simo_wrap; [now apply iset_depth_sim|]. reflexivity.
  - eapply simo_wrap; [now apply iset_intr_sim|]. reflexivity.
  - eapply simo_wrap; [now apply iset_poses_sim|]. reflexivity.
  - eapply simo_wrap; [now apply (ilast_sim Q n Qn)|]. reflexivity.
  - eapply simo_wrap; [now apply (ifirst_sim Q n Qn)|]. reflexivity.
Qed.

(* the object returned: self, or a new one *)
Definition madep (d : dev) (r : option iobj) (h' : iheap) (v : obj) : Prop :=
  match r, v with
  | None, Self => True
  | Some c, New s => iabs h' c = s /\ ok d h' c
  | _, _ => False
  end.
Lemma simk_rmap {A B C} h o (m : M (iheap * iobj) A) (r : res B) (f : B -> C) (post : A -> iheap -> B -> Prop) (post' : A -> iheap -> C -> Prop) :
  simk h o m r post -> (forall a h' b, post a h' b -> post' a h' (f b)) -> simk h o m (rmap f r) post'.
Proof.
  unfold simk. destruct (m (h, o)) as [[a|e] [h1 o1]]; destruct r as [b|e']; cbn; intros (E & -> & S) H; try contradiction; auto.
Qed.
Lemma simk_some h o (m : M (iheap * iobj) iobj) (r : res rgbd) d :
  simk h o m r (fun c h' s => iabs h' c = s /\ ok d h' c) ->
  simk h o (do o <- m; ret (Some o)) (rmap New r) (madep d).
Proof.
  intros S. replace (rmap New r) with (let? s := r in Ok (New s)) by (now destruct r).
  eapply simk_bind; [exact S|]. intros c h' s E P. apply simk_ret. exact P.
Qed.
Lemma on_new_sim d h o other m p : simo Q d h other m p (fun _ _ _ => True) ->
  simk h o (on_new m other) (run_on p (iabs h other)) (fun c h' s => iabs h' c = s /\ ok d h' c).
Proof.
  unfold simo, simk, on_new, run_on. cbn [fst snd]. destruct (m (h, other)) as [[u|e] [h1 o1]]; destruct (p (iabs h other)) as [[b|e'] s]; cbn [fst snd]; intros (E & O1 & V & S); try contradiction; auto.
Qed.
End Q.

Section Q2.
Variable Q : nat -> Prop.
Variable n : nat.
Hypothesis Qn : forall l, n <= l -> Q l.
Variable ctg : bool -> ref -> bool.
Variable cur : nat.
Notation okr := (okr Q).
Notation ok := (ok Q).
Notation madep := (madep Q).

Lemma iconv_copy_sim d h o m p : n <= length h -> RgbdStoreProofs.ok (fun _ => True) d h o ->
  (forall h1 o1, n <= length h1 -> ok d h1 o1 -> simo Q d h1 o1 m p (fun _ _ _ => True)) ->
  simk h o (do other <- iclone; do c <- on_new m other; ret (Some c))
    (let? x := rgbd_clone (iabs h o) in let? x' := run_on p x in Ok (New x')) (madep d).
Proof.
  intros L Oo H. eapply simk_bind; [now apply (iclone_sim Q n Qn d)|]. intros other h1 sc E [V K]. subst sc.
  pose proof (ext_len _ _ E). eapply simk_bind; [apply (on_new_sim Q d); apply H; [lia|exact K]|].
  intros c h2 s E2 P. apply simk_ret. exact P.
Qed.
(* copying methods: only new storages *)
Lemma imake_copy_sim d h o m : n <= length h -> RgbdStoreProofs.ok (fun _ => True) d h o -> icopying cur d m ->
  simk h o (run_imake ctg cur m) (pure_imake m (iabs h o)) (madep (make_dev cur d m)).
Proof.
  intros L Oo C. 
  assert (TO : forall a copy, resolve cur (spec_of a) <> d ->
    simk h o (ito cur a copy) (rmap New (rgbd_clone (iabs h o))) (madep (resolve cur (spec_of a)))).
  { intros a copy N. assert (S := ito_sim Q n Qn cur a copy d h o L).
    assert (S' : simk h o (ito cur a copy) (rgbd_clone (iabs h o))
      (fun c h' s => exists c', c = Some c' /\ iabs h' c' = s /\ ok (resolve cur (spec_of a)) h' c')).
    { apply S; [|auto]. eapply ok_mono; [|exact Oo]. intros l _ X. now elim N. }
    eapply simk_rmap; [exact S'|]. intros r h' b (c' & -> & P). exact P. }
  destruct m; cbn [run_imake pure_imake make_dev icopying] in *; try contradiction.
  - apply simk_some. now apply (iclone_sim Q n Qn d).
  - now apply TO.
  - apply TO. cbn. auto.
  - apply TO. cbn. auto.
  - unfold ito_channels_last. apply simk_geto. unfold to_channels_last. change (r_cf (iabs h o)) with (o_cf o).
    destruct (negb (copy || o_cf o)); [apply simk_ret; exact I|].
    apply iconv_copy_sim; auto. intros h1 o1 L1 O1. now apply (ilast_sim Q n Qn ctg).
  - unfold ito_channels_first. apply simk_geto. unfold to_channels_first. change (r_cf (iabs h o)) with (o_cf o).
    destruct (negb copy && o_cf o); [apply simk_ret; exact I|].
    apply iconv_copy_sim; auto. intros h1 o1 L1 O1. now apply (ifirst_sim Q n Qn ctg).
Qed.
(* any method *)
Lemma imake_sim d h o m : n <= length h -> ok d h o -> returns_self cur d m = false ->
  simk h o (run_imake ctg cur m) (pure_imake m (iabs h o)) (madep (make_dev cur d m)).
Proof.
  intros L Oo NS.
  assert (OT : RgbdStoreProofs.ok (fun _ => True) d h o) by (eapply ok_mono; [|exact Oo]; auto).
  assert (TO : forall a copy, negb copy && dev_eqb d (resolve cur (spec_of a)) = false ->
    simk h o (ito cur a copy) (rmap New (rgbd_clone (iabs h o))) (madep (resolve cur (spec_of a)))).
  { intros a copy N. assert (S := ito_sim Q n Qn cur a copy d h o L).
    assert (S' : simk h o (ito cur a copy) (rgbd_clone (iabs h o))
      (fun c h' s => exists c', c = Some c' /\ iabs h' c' = s /\ ok (resolve cur (spec_of a)) h' c')).
    { apply S; [eapply ok_mono; [|exact Oo]; auto|]. destruct copy; [now left|]. right. intros X. cbn in N.
      rewrite <- X, dev_eqb_refl in N. discriminate. }
    eapply simk_rmap; [exact S'|]. intros r h' b (c' & -> & P). exact P. }
  destruct m; cbn [returns_self] in NS.
  - now apply imake_copy_sim.
  - cbn [run_imake pure_imake make_dev]. apply simk_some. now apply (idetach_sim Q n Qn d).
  - now apply TO.
  - now apply TO.
  - now apply TO.
  - now apply imake_copy_sim.
  - now apply imake_copy_sim.
  - cbn [run_imake pure_imake make_dev]. apply simk_some. now apply (igetitem_sim Q n Qn d).
Qed.
Lemma imake_self d h o m : o_dev o = d -> returns_self cur d m = true -> run_imake ctg cur m (h, o) = (Ok None, (h, o)).
Proof.
  intros Od H. destruct m; cbn [returns_self] in H; try discriminate; cbn [run_imake]; unfold icpu, icuda, ito, mbind, geto; cbn [fst snd];
  subst d.
  - rewrite H. reflexivity.
  - cbn [resolve StoreModel.resolve spec_of StoreModel.spec_of negb andb]. rewrite H. reflexivity.
  - cbn [resolve StoreModel.resolve spec_of StoreModel.spec_of negb andb]. rewrite H. reflexivity.
Qed.
End Q2.
