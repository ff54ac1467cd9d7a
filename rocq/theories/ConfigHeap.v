(* Heaps: basic facts used by the configuration proofs. *)
From Coq Require Import ZArith String Ascii List Bool Arith Lia.
From Verif Require Import ConfigModel ConfigSpec.
Import ListNotations.
Local Open Scope list_scope.
Local Open Scope nat_scope.

(* ---------------------------------------------------------------- monad *)
Lemma bind_inv {A B} (m : M A) (f : A -> M B) h h' r : bind m f h = (h', r) ->
  (exists x h1, m h = (h1, Done x) /\ f x h1 = (h', r)) \/ (exists e, m h = (h', Raise e) /\ r = Raise e).
Proof.
  unfold bind. destruct (m h) as [h1 [x|e]] eqn:E; intros H.
  - left. exists x, h1. auto.
  - right. inversion H; subst. exists e. auto.
Qed.
Lemma bind_done {A B} (m : M A) (f : A -> M B) h h' y : bind m f h = (h', Done y) ->
  exists x h1, m h = (h1, Done x) /\ f x h1 = (h', Done y).
Proof. intros H. destruct (bind_inv _ _ _ _ _ H) as [X|(e & _ & C)]; [exact X|discriminate]. Qed.
Lemma bind_eq {A B} (m : M A) (f : A -> M B) h h1 x : m h = (h1, Done x) -> bind m f h = f x h1.
Proof. intros H. unfold bind. rewrite H. reflexivity. Qed.
Lemma bind_err {A B} (m : M A) (f : A -> M B) h h1 e : m h = (h1, Raise e) -> bind m f h = (h1, Raise e).
Proof. intros H. unfold bind. rewrite H. reflexivity. Qed.

(* ---------------------------------------------------------------- lists *)
Lemma upd_length {A} (l : list A) n x : length (upd l n x) = length l.
Proof. revert n. induction l as [|y l IH]; intros [|n]; cbn; auto. Qed.
Lemma upd_same {A} (l : list A) n x : n < length l -> nth_error (upd l n x) n = Some x.
Proof. revert n. induction l as [|y l IH]; intros [|n] H; cbn in *; try lia; auto. apply IH. lia. Qed.
Lemma upd_other {A} (l : list A) n m x : n <> m -> nth_error (upd l n x) m = nth_error l m.
Proof.
  revert n m. induction l as [|y l IH]; intros [|n] [|m] H; cbn; auto; try contradiction.
Qed.
Lemma nth_lt {A} (l : list A) n x : nth_error l n = Some x -> n < length l.
Proof. intros H. apply nth_error_Some. congruence. Qed.
Lemma nth_app_old {A} (l e : list A) n x : nth_error l n = Some x -> nth_error (l ++ e) n = Some x.
Proof. intros H. rewrite nth_error_app1; auto. eapply nth_lt; eauto. Qed.
Lemma nth_app_new {A} (l : list A) x : nth_error (l ++ [x]) (length l) = Some x.
Proof. rewrite nth_error_app2, Nat.sub_diag; auto. Qed.

(* ---------------------------------------------------------------- dicts *)
Lemma dget_in {A} (d : list (string * A)) k v : dget d k = Some v -> In (k, v) d.
Proof.
  induction d as [|[k' v'] d IH]; cbn; [discriminate|]. destruct (String.eqb_spec k' k) as [->|].
  - intros H. inversion H. auto.
  - auto.
Qed.
Lemma dget_none {A} (d : list (string * A)) k : dget d k = None <-> ~ In k (keys d).
Proof.
  induction d as [|[k' v'] d IH]; cbn; [tauto|]. destruct (String.eqb_spec k' k) as [->|H].
  - split; [discriminate|]. intros C. exfalso. apply C. auto.
  - rewrite IH. tauto.
Qed.
Lemma dget_nodup {A} (d : list (string * A)) k v : NoDup (keys d) -> In (k, v) d -> dget d k = Some v.
Proof.
  induction d as [|[k' v'] d IH]; cbn; [contradiction|]. intros HN [E|H].
  - inversion E; subst. rewrite String.eqb_refl. reflexivity.
  - inversion HN as [|? ? Hn HN']; subst. destruct (String.eqb_spec k' k) as [->|]; [|auto].
    exfalso. apply Hn. apply (in_map fst) in H. exact H.
Qed.
Lemma dset_same {A} (d : list (string * A)) k v : dget (dset d k v) k = Some v.
Proof.
  induction d as [|[k' v'] d IH]; cbn; [rewrite String.eqb_refl; reflexivity|].
  destruct (String.eqb_spec k' k) as [->|H]; cbn.
  - rewrite String.eqb_refl. reflexivity.
  - destruct (String.eqb_spec k' k); [contradiction|exact IH].
Qed.
Lemma dset_other {A} (d : list (string * A)) k k' v : k <> k' -> dget (dset d k v) k' = dget d k'.
Proof.
  intros H. induction d as [|[a b] d IH]; cbn.
  - destruct (String.eqb_spec k k'); [contradiction|reflexivity].
  - destruct (String.eqb_spec a k) as [->|Ha]; cbn.
    + destruct (String.eqb_spec k k'); [contradiction|reflexivity].
    + destruct (String.eqb_spec a k'); auto.
Qed.
Lemma dset_keys_in {A} (d : list (string * A)) k v : In k (keys d) -> keys (dset d k v) = keys d.
Proof.
  induction d as [|[a b] d IH]; cbn; [contradiction|]. intros H.
  destruct (String.eqb_spec a k) as [->|Ha]; cbn; auto. f_equal. apply IH. tauto.
Qed.
Lemma dset_keys_out {A} (d : list (string * A)) k v : ~ In k (keys d) -> dset d k v = d ++ [(k, v)].
Proof.
  induction d as [|[a b] d IH]; cbn; auto. intros H.
  destruct (String.eqb_spec a k) as [->|Ha]; [exfalso; auto|]. f_equal. apply IH. tauto.
Qed.
Lemma keys_app {A} (d e : list (string * A)) : keys (d ++ e) = keys d ++ keys e.
Proof. apply map_app. Qed.
Lemma dset_nodup {A} (d : list (string * A)) k v : NoDup (keys d) -> NoDup (keys (dset d k v)).
Proof.
  intros H. destruct (in_dec string_dec k (keys d)) as [I|I].
  - rewrite dset_keys_in; auto.
  - rewrite dset_keys_out, keys_app; auto. cbn. apply NoDup_app_remove_l || idtac.
    apply NoDup_Add with (a := k) (l := keys d); [|auto].
    assert (X := Add_app k (keys d) []). rewrite app_nil_r in X. exact X.
Qed.
Lemma dict_of_nodup {A} (l : list (string * A)) : NoDup (keys (dict_of l)).
Proof.
  unfold dict_of. assert (H : NoDup (keys ([] : list (string * A)))) by constructor.
  revert H. generalize ([] : list (string * A)) as d. induction l as [|[k v] l IH]; cbn; auto.
  intros d H. apply IH. apply dset_nodup. exact H.
Qed.
Lemma dhas_get {A} (d : list (string * A)) k : dhas d k = true <-> exists v, dget d k = Some v.
Proof.
  unfold dhas. destruct (dget d k); split; intros H; try discriminate; eauto. destruct H as [x H]. discriminate.
Qed.

(* ---------------------------------------------------------------- keeps *)
Lemma keeps_refl h : keeps h h. Proof. intros l o H. exact H. Qed.
Lemma keeps_trans a b c : keeps a b -> keeps b c -> keeps a c.
Proof. intros H K l o E. apply K, H, E. Qed.
Lemma keeps_app h e : keeps h (h ++ e).
Proof. intros l o E. apply nth_app_old, E. Qed.
Lemma keeps_length h h' : keeps h h' -> length h <= length h'.
Proof.
  intros K. destruct (le_lt_dec (length h) (length h')) as [H|H]; [exact H|exfalso].
  destruct (nth_error h (length h')) as [o|] eqn:E.
  - apply K in E. apply nth_lt in E. lia.
  - apply nth_error_None in E. lia.
Qed.
Lemma keeps_upd_new h0 h l o : keeps h0 h -> length h0 <= l -> keeps h0 (upd h l o).
Proof.
  intros K Hl i x E. pose proof (nth_lt _ _ _ E). rewrite upd_other by lia. apply K, E.
Qed.
Lemma keeps_nth h h' l : keeps h h' -> l < length h -> nth_error h' l = nth_error h l.
Proof.
  intros K H. destruct (nth_error h l) as [o|] eqn:E; [apply K, E|]. apply nth_error_None in E. lia.
Qed.

(* ---------------------------------------------------------------- reads *)
Scheme reads_mut := Minimality for reads Sort Prop
  with reads_all_mut := Minimality for reads_all Sort Prop
  with reads_items_mut := Minimality for reads_items Sort Prop.
Combined Scheme reads_ind3 from reads_mut, reads_all_mut, reads_items_mut.

Lemma reads_keys h d ts fp : reads_items h d ts fp -> keys d = keys ts.
Proof. induction 1; cbn; auto. f_equal. auto. Qed.

Lemma reads_det_all h :
  (forall v t fp, reads h v t fp -> forall t' fp', reads h v t' fp' -> t' = t /\ fp' = fp) /\
  (forall v t fp, reads_all h v t fp -> forall t' fp', reads_all h v t' fp' -> t' = t /\ fp' = fp) /\
  (forall v t fp, reads_items h v t fp -> forall t' fp', reads_items h v t' fp' -> t' = t /\ fp' = fp).
Proof.
  apply reads_ind3.
  - intros a t' fp' H. inversion H; auto.
  - intros vs ts fp H IH t' fp' H'. clear H. inversion H'; subst. match goal with X : reads_all _ _ _ _ |- _ => destruct (IH _ _ X) as [-> ->] end. auto.
  - intros l vs ts fp E H IH t' fp' H'. clear H. inversion H'; subst; rewrite E in *; try discriminate.
    match goal with X : Some _ = Some _ |- _ => inversion X; subst end. match goal with X : reads_all _ _ _ _ |- _ => destruct (IH _ _ X) as [-> ->] end. auto.
  - intros l d ts fp E N H IH t' fp' H'. clear H. inversion H'; subst; rewrite E in *; try discriminate.
    match goal with X : Some _ = Some _ |- _ => inversion X; subst end. match goal with X : reads_items _ _ _ _ |- _ => destruct (IH _ _ X) as [-> ->] end. auto.
  - intros l m d ts fp E N H IH t' fp' H'. clear H. inversion H'; subst; rewrite E in *; try discriminate.
    match goal with X : Some _ = Some _ |- _ => inversion X; subst end. match goal with X : reads_items _ _ _ _ |- _ => destruct (IH _ _ X) as [-> ->] end. auto.
  - intros t' fp' H. inversion H; auto.
  - intros v t fp vs ts fps H IH Hs IHs t' fp' H'. clear H Hs. inversion H'; subst.
    match goal with X : reads _ _ _ _ |- _ => destruct (IH _ _ X) as [-> ->] end. match goal with X : reads_all _ _ _ _ |- _ => destruct (IHs _ _ X) as [-> ->] end. auto.
  - intros t' fp' H. inversion H; auto.
  - intros k v t fp vs ts fps H IH Hs IHs t' fp' H'. clear H Hs. inversion H'; subst.
    match goal with X : reads _ _ _ _ |- _ => destruct (IH _ _ X) as [-> ->] end. match goal with X : reads_items _ _ _ _ |- _ => destruct (IHs _ _ X) as [-> ->] end. auto.
Qed.
Lemma reads_det h v t fp t' fp' : reads h v t fp -> reads h v t' fp' -> t' = t /\ fp' = fp.
Proof. intros H H'. eapply (proj1 (reads_det_all h)); eauto. Qed.

Lemma reads_type h v t fp : reads h v t fp -> type_of h v = ttype t.
Proof. intros H. destruct H; cbn; try reflexivity; rewrite H; reflexivity. Qed.

Lemma reads_lt h : (forall v t fp, reads h v t fp -> forall l, In l fp -> l < length h) /\
  (forall v t fp, reads_all h v t fp -> forall l, In l fp -> l < length h) /\
  (forall v t fp, reads_items h v t fp -> forall l, In l fp -> l < length h).
Proof.
  apply reads_ind3; cbn; try contradiction; auto.
  - intros l d ts fp E _ _ IH i [<-|Hi]; [eapply nth_lt; eauto|auto].
  - intros l m d ts fp E _ _ IH i [<-|Hi]; [eapply nth_lt; eauto|auto].
  - intros v t fp vs ts fps _ IH _ IHs l Hl. apply in_app_or in Hl. destruct Hl; auto.
  - intros k v t fp vs ts fps _ IH _ IHs l Hl. apply in_app_or in Hl. destruct Hl; auto.
Qed.

(* How a heap changes when only objects in S (and new ones) are written: lists never change, dicts and nodes keep
   their kind and attributes, and only those in S change their items. *)
Definition same_kind (o o' : obj) : Prop :=
  match o with
  | OList _ => o' = o
  | ODict _ => exists d, o' = ODict d
  | ONode m _ => exists d, o' = ONode m d
  end.
Definition evolves (S : list loc) (h h' : heap) : Prop :=
  forall l o, nth_error h l = Some o -> exists o', nth_error h' l = Some o' /\ same_kind o o' /\ (In l S \/ o' = o).

Lemma same_kind_refl o : same_kind o o.
Proof. destruct o; cbn; eauto. Qed.
Lemma same_kind_trans a b c : same_kind a b -> same_kind b c -> same_kind a c.
Proof.
  destruct a; cbn; intros H; [subst; auto| |]; destruct H as [d' ->]; cbn; auto.
Qed.
Lemma evolves_keeps S h h' : keeps h h' -> evolves S h h'.
Proof. intros K l o E. exists o. split; [apply K, E|]. split; [apply same_kind_refl|auto]. Qed.
Lemma evolves_nil h h' : evolves [] h h' -> keeps h h'.
Proof. intros H l o E. destruct (H _ _ E) as (o' & E' & _ & [C| -> ]); [contradiction|exact E']. Qed.
Lemma evolves_length S h h' : evolves S h h' -> length h <= length h'.
Proof.
  intros K. destruct (le_lt_dec (length h) (length h')) as [H|H]; [exact H|exfalso].
  destruct (nth_error h (length h')) as [o|] eqn:E.
  - destruct (K _ _ E) as (o' & E' & _). apply nth_lt in E'. lia.
  - apply nth_error_None in E. lia.
Qed.
Lemma evolves_trans S S' h h1 h2 : evolves S h h1 -> evolves S' h1 h2 ->
  (forall l, In l S' -> In l S \/ length h <= l) -> evolves S h h2.
Proof.
  intros H H' HS l o E. destruct (H _ _ E) as (o1 & E1 & K1 & D1).
  destruct (H' _ _ E1) as (o2 & E2 & K2 & D2). exists o2. split; [exact E2|].
  split; [eapply same_kind_trans; eauto|].
  destruct D2 as [I| -> ]; [|exact D1]. destruct (HS _ I) as [J|J]; [auto|].
  apply nth_lt in E. lia.
Qed.
Lemma evolves_weaken S S' h h' : evolves S h h' -> (forall l, In l S -> In l S' \/ length h <= l) -> evolves S' h h'.
Proof.
  intros H HS l o E. destruct (H _ _ E) as (o' & E' & K & D). exists o'. split; [auto|]. split; [auto|].
  destruct D as [I|D]; [|auto]. destruct (HS _ I) as [J|J]; [auto|]. apply nth_lt in E. lia.
Qed.

Lemma reads_evolves_all S h h' : evolves S h h' ->
  (forall v t fp, reads h v t fp -> (forall l, In l fp -> ~ In l S) -> reads h' v t fp) /\
  (forall v t fp, reads_all h v t fp -> (forall l, In l fp -> ~ In l S) -> reads_all h' v t fp) /\
  (forall v t fp, reads_items h v t fp -> (forall l, In l fp -> ~ In l S) -> reads_items h' v t fp).
Proof.
  intros HE. apply reads_ind3.
  - intros. constructor.
  - intros vs ts fp _ IH D. constructor. auto.
  - intros l vs ts fp E _ IH D. destruct (HE _ _ E) as (o' & E' & K & _). cbn in K. subst o'.
    econstructor; eauto.
  - intros l d ts fp E N _ IH D. destruct (HE _ _ E) as (o' & E' & _ & [C| -> ]); [exfalso; apply (D l); cbn; auto|].
    econstructor; eauto. apply IH. intros i Hi. apply D. cbn. auto.
  - intros l m d ts fp E N _ IH D. destruct (HE _ _ E) as (o' & E' & _ & [C| -> ]); [exfalso; apply (D l); cbn; auto|].
    econstructor; eauto. apply IH. intros i Hi. apply D. cbn. auto.
  - intros. constructor.
  - intros v t fp vs ts fps _ IH _ IHs D. constructor; [apply IH|apply IHs]; intros l Hl; apply D; apply in_or_app; auto.
  - intros. constructor.
  - intros k v t fp vs ts fps _ IH _ IHs D. constructor; [apply IH|apply IHs]; intros l Hl; apply D; apply in_or_app; auto.
Qed.
Lemma reads_evolves S h h' v t fp : evolves S h h' -> reads h v t fp -> (forall l, In l fp -> ~ In l S) -> reads h' v t fp.
Proof. intros H. apply (proj1 (reads_evolves_all S h h' H)). Qed.
Lemma reads_keeps h h' v t fp : keeps h h' -> reads h v t fp -> reads h' v t fp.
Proof. intros K H. apply (reads_evolves [] h h'); auto. apply evolves_keeps, K. Qed.
Lemma reads_items_evolves S h h' v t fp : evolves S h h' -> reads_items h v t fp -> (forall l, In l fp -> ~ In l S) -> reads_items h' v t fp.
Proof. intros H. apply (proj2 (proj2 (reads_evolves_all S h h' H))). Qed.
Lemma reads_items_keeps h h' v t fp : keeps h h' -> reads_items h v t fp -> reads_items h' v t fp.
Proof. intros K H. apply (reads_items_evolves [] h h'); auto. apply evolves_keeps, K. Qed.
Lemma reads_all_keeps h h' v t fp : keeps h h' -> reads_all h v t fp -> reads_all h' v t fp.
Proof. intros K H. apply (proj1 (proj2 (reads_evolves_all [] h h' (evolves_keeps _ _ _ K)))); auto. Qed.

(* store into a dict or node *)
Lemma evolves_store h l o o' : nth_error h l = Some o -> same_kind o o' -> (forall vs, o <> OList vs) -> evolves [l] h (upd h l o').
Proof.
  intros E K _ i x Ei. destruct (Nat.eq_dec l i) as [->|Hn].
  - rewrite E in Ei. inversion Ei; subst. exists o'. split; [apply upd_same; eapply nth_lt; eauto|]. split; [auto|]. left. cbn. auto.
  - exists x. split; [rewrite upd_other; auto|]. split; [apply same_kind_refl|auto].
Qed.

(* the part of a dict under one key *)
Lemma reads_items_split h d ts fp k v : reads_items h d ts fp -> dget d k = Some v ->
  exists d1 d2 ts1 ts2 t fp1 fpk fp2, d = d1 ++ (k, v) :: d2 /\ ts = ts1 ++ (k, t) :: ts2 /\ fp = fp1 ++ fpk ++ fp2 /\
    reads_items h d1 ts1 fp1 /\ reads h v t fpk /\ reads_items h d2 ts2 fp2 /\ ~ In k (keys d1) /\ ~ In k (keys ts1).
Proof.
  induction 1 as [|k' v' t fp d ts fps H Hs IH]; cbn; [discriminate|].
  destruct (String.eqb_spec k' k) as [->|Hk]; intros E.
  - inversion E; subst. exists [], d, [], ts, t, [], fp, fps. repeat split; auto; try constructor.
  - destruct (IH E) as (d1 & d2 & ts1 & ts2 & t0 & fp1 & fpk & fp2 & -> & -> & -> & H1 & H2 & H3 & H4 & H5).
    exists ((k', v') :: d1), d2, ((k', t) :: ts1), ts2, t0, (fp ++ fp1), fpk, fp2.
    repeat split; auto; try (rewrite <- app_assoc; reflexivity); [constructor; auto| |];
    cbn; intros [C|C]; auto.
Qed.
Lemma reads_items_app h d1 ts1 fp1 d2 ts2 fp2 : reads_items h d1 ts1 fp1 -> reads_items h d2 ts2 fp2 ->
  reads_items h (d1 ++ d2) (ts1 ++ ts2) (fp1 ++ fp2).
Proof.
  induction 1; cbn; auto. intros H'. rewrite <- app_assoc. constructor; auto.
Qed.
Lemma dset_split {A} (d1 d2 : list (string * A)) k v w : ~ In k (keys d1) -> dset (d1 ++ (k, v) :: d2) k w = d1 ++ (k, w) :: d2.
Proof.
  induction d1 as [|[a b] d1 IH]; cbn; intros H.
  - rewrite String.eqb_refl. reflexivity.
  - destruct (String.eqb_spec a k); [exfalso; auto|]. f_equal. apply IH. tauto.
Qed.
Lemma dget_split {A} (d1 d2 : list (string * A)) k v : ~ In k (keys d1) -> dget (d1 ++ (k, v) :: d2) k = Some v.
Proof.
  induction d1 as [|[a b] d1 IH]; cbn; intros H.
  - rewrite String.eqb_refl. reflexivity.
  - destruct (String.eqb_spec a k); [exfalso; auto|]. apply IH. tauto.
Qed.
Lemma reads_items_get h d ts fp k : reads_items h d ts fp ->
  match dget d k, dget ts k with
  | Some v, Some t => exists fpk, reads h v t fpk /\ incl fpk fp
  | None, None => True
  | _, _ => False
  end.
Proof.
  induction 1 as [|k' v' t fp d ts fps H Hs IH]; cbn; auto.
  destruct (String.eqb k' k).
  - exists fp. split; [auto|]. apply incl_appl, incl_refl.
  - destruct (dget d k), (dget ts k); auto. destruct IH as (fpk & H1 & H2). exists fpk. split; auto. apply incl_appr. exact H2.
Qed.
