(* Refinement: the methods of StoreModel compute what those of PointcloudsModel compute, and they only
   ever add storages: no existing storage is written. *)
From Coq Require Import List Arith ZArith Bool Lia.
From Verif Require Import Res Fld StructUtilsModel StructUtilsProofs PointcloudsModel PointcloudsSpec
  PointcloudsProofs StoreModel.
Import ListNotations.
Local Open Scope nat_scope.

(* ---------------- lists ---------------- *)
Lemma list_as_map {X} (l : list X) (d : X) : l = map (fun i => nth i l d) (seq 0 (length l)).
Proof.
  induction l as [|x l IH]; [reflexivity|].
  cbn [length seq map nth]. f_equal. rewrite <- seq_shift, map_map. exact IH.
Qed.

Lemma nth_concat {X} (d : X) c (rows : list (list X)) :
  Forall (fun r => length r = c) rows ->
  forall i j, j < c -> nth (i * c + j) (concat rows) d = nth j (nth i rows []) d.
Proof.
  induction 1 as [|r rows Hr _ IH]; intros i j Hj.
  - destruct (i * c + j), i; cbn; destruct j; reflexivity.
  - cbn [concat]. destruct i as [|i].
    + cbn [Nat.mul Nat.add nth]. rewrite app_nth1 by lia. reflexivity.
    + rewrite app_nth2 by (cbn [Nat.mul]; lia).
      replace (S i * c + j - length r) with (i * c + j) by (cbn [Nat.mul]; lia).
      cbn [nth]. apply IH; exact Hj.
Qed.

Lemma map_seq_ext {X} (f g : nat -> X) n : (forall i, i < n -> f i = g i) -> map f (seq 0 n) = map g (seq 0 n).
Proof. intros H. apply map_ext_in. intros i Hi. apply in_seq in Hi. apply H. lia. Qed.

Lemma firstn_map_seq {X} (f : nat -> X) k n : firstn k (map f (seq 0 n)) = map f (seq 0 (Nat.min k n)).
Proof.
  rewrite firstn_map. f_equal. generalize 0. revert n.
  induction k as [|k IH]; intros [|n] s; cbn; try reflexivity. f_equal. apply IH.
Qed.

Lemma nth_error_app_ext {X} (h t : list X) l : l < length h -> nth_error (h ++ t) l = nth_error h l.
Proof. intros H. apply nth_error_app1. exact H. Qed.

Lemma map_combine_seq {X Y Z} (f : nat -> X) (g : X * Y -> Z) n (ys : list Y) :
  map g (combine (map f (seq 0 n)) ys) = map (fun q => g (f (fst q), snd q)) (combine (seq 0 n) ys).
Proof.
  generalize 0. revert ys. induction n as [|n IH]; intros [|y ys] s; cbn; try reflexivity.
  f_equal. apply IH.
Qed.

Section ST.
Variable F : Fld.
Notation T2 := (t2 F).
Notation T3 := (t3 F).
Notation heap := (heap F).
Notation MO := (M (heap * obj)).
Notation MH := (M heap).
Notation read2 := (read2 F).
Notation read3 := (read3 F).
Notation abs := (abs F).

Definition ext (h h' : heap) : Prop := exists t, h' = h ++ t.
Lemma ext_refl h : ext h h. Proof. exists []. now rewrite app_nil_r. Qed.
Lemma ext_trans h1 h2 h3 : ext h1 h2 -> ext h2 h3 -> ext h1 h3.
Proof. intros [t ->] [u ->]. exists (t ++ u). now rewrite app_assoc. Qed.
Lemma ext_len h h' : ext h h' -> length h <= length h'.
Proof. intros [t ->]. rewrite app_length. lia. Qed.
Lemma ext_nth h h' l : ext h h' -> l < length h -> nth_error h' l = nth_error h l.
Proof. intros [t ->] H. now apply nth_error_app1. Qed.
Lemma ext_fdata h h' l : ext h h' -> l < length h -> fdata F h' l = fdata F h l.
Proof. intros E H. unfold fdata. now rewrite (ext_nth _ _ _ E H). Qed.
Lemma ext_ndata h h' l : ext h h' -> l < length h -> ndata F h' l = ndata F h l.
Proof. intros E H. unfold ndata. now rewrite (ext_nth _ _ _ E H). Qed.
Lemma ext_bdata h h' l : ext h h' -> l < length h -> bdata F h' l = bdata F h l.
Proof. intros E H. unfold bdata. now rewrite (ext_nth _ _ _ E H). Qed.
Lemma ext_devof h h' l : ext h h' -> l < length h -> devof F h' l = devof F h l.
Proof. intros E H. unfold devof. now rewrite (ext_nth _ _ _ E H). Qed.
Lemma ext_read2 h h' v : ext h h' -> v2l v < length h -> read2 h' v = read2 h v.
Proof. intros E H. unfold StoreModel.read2. now rewrite (ext_fdata _ _ _ E H). Qed.
Lemma ext_read3 h h' v : ext h h' -> v3l v < length h -> read3 h' v = read3 h v.
Proof. intros E H. unfold StoreModel.read3. now rewrite (ext_fdata _ _ _ E H). Qed.

Lemma read2_wf h v : t2wf (read2 h v).
Proof.
  unfold t2wf, StoreModel.read2. cbn. apply Forall_forall. intros r Hr. apply in_map_iff in Hr.
  destruct Hr as [i [<- _]]. now rewrite map_length, seq_length.
Qed.
Lemma read3_wf h v : t3wf (read3 h v).
Proof.
  unfold t3wf, StoreModel.read3. cbn. apply Forall_forall. intros m Hm. apply in_map_iff in Hm.
  destruct Hm as [b [<- _]]. split; [now rewrite map_length, seq_length|].
  apply Forall_forall. intros r Hr. apply in_map_iff in Hr.
  destruct Hr as [i [<- _]]. now rewrite map_length, seq_length.
Qed.
Lemma read2_n h v : t2n (read2 h v) = v2n v.
Proof. unfold t2n, StoreModel.read2. cbn. now rewrite map_length, seq_length. Qed.
Lemma read3_b h v : t3b (read3 h v) = v3b v.
Proof. unfold t3b, StoreModel.read3. cbn. now rewrite map_length, seq_length. Qed.

Lemma fdata_new h d x : fdata F (h ++ [CF F d x]) (length h) = x.
Proof. unfold fdata. rewrite nth_error_app2 by lia. now rewrite Nat.sub_diag. Qed.
Lemma ndata_new h d x : ndata F (h ++ [CN F d x]) (length h) = x.
Proof. unfold ndata. rewrite nth_error_app2 by lia. now rewrite Nat.sub_diag. Qed.
Lemma bdata_new h d x : bdata F (h ++ [CB F d x]) (length h) = x.
Proof. unfold bdata. rewrite nth_error_app2 by lia. now rewrite Nat.sub_diag. Qed.
Lemma devof_new h c : devof F (h ++ [c]) (length h) = cdev F c.
Proof. unfold devof. rewrite nth_error_app2 by lia. now rewrite Nat.sub_diag. Qed.

Lemma read2_new h d (x : T2) :
  t2wf x ->
  read2 (h ++ [CF F d (concat (t2r x))]) (mkV2 (length h) 0 (t2c x) 1 (t2n x) (t2c x)) = x.
Proof.
  intros W. destruct x as [c rows]. unfold StoreModel.read2, t2n, t2wf in *. cbn in *. f_equal.
  rewrite fdata_new. etransitivity; [|symmetry; apply (list_as_map rows [])].
  apply map_seq_ext. intros i Hi.
  assert (L : length (nth i rows []) = c).
  { rewrite Forall_forall in W. apply W. apply nth_In. exact Hi. }
  etransitivity; [|symmetry; apply (list_as_map (nth i rows []) f0)]. rewrite L.
  apply map_seq_ext. intros j Hj. rewrite Nat.mul_1_r. now apply nth_concat.
Qed.

Lemma read3_new h d (x : T3) :
  t3wf x ->
  read3 (h ++ [CF F d (concat (map (@concat F) (t3d x)))])
        (mkV3 (length h) 0 (t3n x * t3c x) (t3c x) 1 (t3b x) (t3n x) (t3c x)) = x.
Proof.
  intros W. destruct x as [n c slabs]. unfold StoreModel.read3, t3b, t3wf in *. cbn in *. f_equal.
  rewrite fdata_new. etransitivity; [|symmetry; apply (list_as_map slabs [])].
  rewrite Forall_forall in W.
  apply map_seq_ext. intros b Hb.
  destruct (W (nth b slabs []) (nth_In _ _ Hb)) as [Ln Wr].
  etransitivity; [|symmetry; apply (list_as_map (nth b slabs []) [])]. rewrite Ln.
  apply map_seq_ext. intros i Hi.
  assert (Lc : length (nth i (nth b slabs []) []) = c).
  { rewrite Forall_forall in Wr. apply Wr. apply nth_In. lia. }
  etransitivity; [|symmetry; apply (list_as_map (nth i (nth b slabs []) []) f0)]. rewrite Lc.
  apply map_seq_ext. intros j Hj. rewrite Nat.mul_1_r.
  assert (U : Forall (fun r => length r = n * c) (map (@concat F) slabs)).
  { apply Forall_forall. intros r Hr. apply in_map_iff in Hr. destruct Hr as [m [<- Hm]].
    destruct (W m Hm) as [E1 E2]. clear -E1 E2. subst n. induction E2 as [|r m Hr _ IH]; [reflexivity|].
    cbn. rewrite app_length, IH. lia. }
  replace (b * (n * c) + i * c + j) with (b * (n * c) + (i * c + j)) by lia.
  rewrite (nth_concat f0 (n * c) _ U) by nia.
  rewrite (nth_indep _ [] (concat [])) by (rewrite map_length; exact Hb).
  rewrite map_nth. now apply nth_concat.
Qed.

(* ---------------- the invariant ---------------- *)
(* a storage o refers to *)
Definition holds (o : obj) (l : nat) : Prop :=
  (exists a vs v, qget a (olst o) = Some vs /\ In v vs /\ v2l v = l) \/
  (exists a v, qget a (opad o) = Some v /\ v3l v = l) \/
  omask o = Some l \/ onum o = l.

Section SIM.
Variable own : nat -> Prop.
Variable n0 : nat.
Variable dv : dev.
Hypothesis own_fresh : forall l, n0 <= l -> own l.

Definition okl (h : heap) (l : nat) : Prop := l < length h /\ own l /\ devof F h l = dv.
Definition ok2 (h : heap) (l : list view2) : Prop := Forall (fun v => okl h (v2l v)) l.

Record ok (h : heap) (o : obj) : Prop := mkOk {
  ok_n : n0 <= length h;
  ok_lst : forall a l, qget a (olst o) = Some l -> ok2 h l;
  ok_pad : forall a v, qget a (opad o) = Some v -> okl h (v3l v);
  ok_mask : forall m, omask o = Some m -> okl h m;
  ok_num : okl h (onum o);
  ok_dev : odev o = dv
}.

Lemma okl_ext h h' l : ext h h' -> okl h l -> okl h' l.
Proof.
  intros E [A [B C]]. pose proof (ext_len _ _ E). repeat split; [lia|exact B|].
  now rewrite (ext_devof _ _ _ E A).
Qed.
Lemma ok2_ext h h' l : ext h h' -> ok2 h l -> ok2 h' l.
Proof. intros E. apply Forall_impl. intros v. apply okl_ext, E. Qed.
Lemma ok_ext h h' o : ext h h' -> ok h o -> ok h' o.
Proof.
  intros E [A B C D G]. pose proof (ext_len _ _ E). constructor; eauto using okl_ext, ok2_ext. lia.
Qed.
Lemma ok2_read h h' l : ext h h' -> ok2 h l -> map (read2 h') l = map (read2 h) l.
Proof.
  intros E H. apply map_ext_in. intros v Hv. unfold ok2 in H. rewrite Forall_forall in H.
  destruct (H v Hv) as [L _]. now apply ext_read2.
Qed.

Lemma qget_qmap {X Y} (f : X -> Y) a q : qget a (qmap f q) = f (qget a q).
Proof. now destruct a. Qed.

Lemma abs_ext h h' o : ext h h' -> ok h o -> abs h' o = abs h o.
Proof.
  intros E [A B C D G K]. unfold StoreModel.abs. f_equal.
  - apply quad_ext. intros a. rewrite !qget_qmap. destruct (qget a (olst o)) as [l|] eqn:El; [|reflexivity].
    cbn. f_equal. eapply ok2_read; eauto.
  - apply quad_ext. intros a. rewrite !qget_qmap. destruct (qget a (opad o)) as [v|] eqn:El; [|reflexivity].
    cbn. f_equal. destruct (C _ _ El) as [L _]. now apply ext_read3.
  - destruct (omask o) as [m|] eqn:Em; [|reflexivity]. cbn. f_equal. destruct (D _ eq_refl) as [L _]. now apply ext_bdata.
  - destruct G as [L _]. now apply ext_ndata.
Qed.

(* ---------------- simulation ---------------- *)
Definition post {A B} (h : heap) (R : heap -> A -> B -> Prop)
    (x : res A * (heap * obj)) (y : res B * pc F) : Prop :=
  ext h (fst (snd x)) /\ ok (fst (snd x)) (snd (snd x)) /\ abs (fst (snd x)) (snd (snd x)) = snd y /\
  match fst x, fst y with
  | Ok a, Ok b => R (fst (snd x)) a b
  | Err e, Err e' => e = e'
  | _, _ => False
  end.

Lemma post_bind {A B A' B'} h o (R : heap -> A -> B -> Prop) (R' : heap -> A' -> B' -> Prop)
    (mh : MO A) (m : M (pc F) B) (kh : A -> MO A') (k : B -> M (pc F) B') :
  post h R (mh (h, o)) (m (abs h o)) ->
  (forall h1 o1 a b, ext h h1 -> ok h1 o1 -> R h1 a b ->
     post h1 R' (kh a (h1, o1)) (k b (abs h1 o1))) ->
  post h R' (mbind mh kh (h, o)) (mbind m k (abs h o)).
Proof.
  intros H K. unfold mbind. destruct (mh (h, o)) as [r [h1 o1]]. destruct (m (abs h o)) as [r2 s2].
  destruct H as [E [O [S H]]]. cbn [fst snd] in *. subst s2.
  destruct r as [a|e], r2 as [b|e']; try contradiction.
  - specialize (K h1 o1 a b E O H). destruct (kh a (h1, o1)) as [r [h2 o2]].
    destruct (k b (abs h1 o1)) as [r2 s2]. destruct K as [E2 K]. cbn [fst snd] in *.
    split; [cbn; eapply ext_trans; eauto|exact K].
  - cbn. subst e'. split; [exact E|]. split; [exact O|]. split; reflexivity.
Qed.

Lemma post_ret {A B} h o (R : heap -> A -> B -> Prop) a b :
  ok h o -> R h a b -> post h R (ret a (h, o)) (ret b (abs h o)).
Proof. intros O H. split; [apply ext_refl|]. split; [exact O|]. split; [first [reflexivity|exact E]|]. cbn. first [exact H|reflexivity]. Qed.
Lemma post_raise {A B} h o (R : heap -> A -> B -> Prop) e :
  ok h o -> post h R (raise e (h, o)) (raise e (abs h o)).
Proof. intros O. split; [apply ext_refl|]. split; [exact O|]. split; [first [reflexivity|exact E]|]. cbn. first [exact H|reflexivity]. Qed.
Lemma post_weaken {A B} h (R R' : heap -> A -> B -> Prop) x y :
  post h R x y -> (forall h' a b, ext h h' -> R h' a b -> R' h' a b) -> post h R' x y.
Proof.
  intros [E [O [S H]]] W. split; [exact E|]. split; [exact O|]. split; [exact S|].
  destruct (fst x), (fst y); auto.
Qed.
Lemma post_geto {A B} h o (R : heap -> A -> B -> Prop) (kh : obj -> MO A) y :
  post h R (kh o (h, o)) y -> post h R (mbind (geto F) kh (h, o)) y.
Proof. exact (fun H => H). Qed.
Lemma post_geth {A B} h o (R : heap -> A -> B -> Prop) (kh : heap -> MO A) y :
  post h R (kh h (h, o)) y -> post h R (mbind (geth F) kh (h, o)) y.
Proof. exact (fun H => H). Qed.
Lemma post_get {A B} h (R : heap -> A -> B -> Prop) x (k : pc F -> M (pc F) B) s :
  post h R x (k s s) -> post h R x (mbind get k s).
Proof. exact (fun H => H). Qed.
(* an assignment of fields *)
Lemma post_modo h o (f : obj -> obj) (g : pc F -> pc F) (R : heap -> unit -> unit -> Prop) :
  ok h (f o) -> abs h (f o) = g (abs h o) -> R h tt tt ->
  post h R (modo F f (h, o)) (modify g (abs h o)).
Proof. intros O E H. split; [apply ext_refl|]. split; [exact O|]. split; [first [reflexivity|exact E]|]. cbn. first [exact H|reflexivity]. Qed.
Lemma post_lift {A B} h o (R : heap -> A -> B -> Prop) (r : res A) (r' : res B) :
  ok h o -> match r, r' with Ok a, Ok b => R h a b | Err e, Err e' => e = e' | _, _ => False end ->
  post h R (lift r (h, o)) (lift r' (abs h o)).
Proof. intros O H. split; [apply ext_refl|]. split; [exact O|]. split; [first [reflexivity|exact E]|]. cbn. first [exact H|reflexivity]. Qed.

(* an allocation followed by the rest: the pure side has nothing corresponding *)
Definition hpost {A} (h : heap) (P : heap -> A -> Prop) (x : res A * heap) : Prop :=
  ext h (snd x) /\ match fst x with Ok a => P (snd x) a | Err _ => False end.
Lemma post_onh {A A' B'} h o (P : heap -> A -> Prop) (R' : heap -> A' -> B' -> Prop)
    (mh : MH A) (kh : A -> MO A') y :
  ok h o -> hpost h P (mh h) ->
  (forall h1 a, ext h h1 -> ok h1 o -> abs h1 o = abs h o -> P h1 a -> post h1 R' (kh a (h1, o)) y) ->
  post h R' (mbind (onh F mh) kh (h, o)) y.
Proof.
  intros O [E H] K. unfold mbind, onh. cbn [fst snd]. destruct (mh h) as [r h1]. cbn [fst snd] in *.
  destruct r as [a|]; [|easy].
  specialize (K h1 a E (ok_ext _ _ _ E O) (abs_ext _ _ _ E O) H).
  destruct K as [E2 K]. split; [eapply ext_trans; eauto|exact K].
Qed.

Lemma hpost_bind {A B} h (P : heap -> A -> Prop) (Q : heap -> B -> Prop) (m : MH A) (k : A -> MH B) :
  hpost h P (m h) -> (forall h1 a, ext h h1 -> P h1 a -> hpost h1 Q (k a h1)) -> hpost h Q (mbind m k h).
Proof.
  intros [E H] K. unfold mbind. destruct (m h) as [r h1]. cbn [fst snd] in *. destruct r as [a|]; [|easy].
  destruct (K h1 a E H) as [E2 K2]. split; [eapply ext_trans; eauto|exact K2].
Qed.
Lemma hpost_ret {A} h (P : heap -> A -> Prop) a : P h a -> hpost h P (ret a h).
Proof. intros H. split; [apply ext_refl|exact H]. Qed.

Definition R2 (h : heap) (v : view2) (x : T2) : Prop := okl h (v2l v) /\ read2 h v = x.
Definition R3 (h : heap) (v : view3) (x : T3) : Prop := okl h (v3l v) /\ read3 h v = x.
Definition R2l (h : heap) (l : list view2) (x : list T2) : Prop := ok2 h l /\ map (read2 h) l = x.
Definition Ropt {A B} (R : heap -> A -> B -> Prop) (h : heap) (o : option A) (p : option B) : Prop :=
  match o, p with Some a, Some b => R h a b | None, None => True | _, _ => False end.
Definition Reqv {A} (h : heap) (a b : A) : Prop := a = b.

Lemma okl_new h c : n0 <= length h -> cdev F c = dv -> okl (h ++ [c]) (length h).
Proof.
  intros N D. repeat split; [rewrite app_length; cbn; lia|apply own_fresh, N|].
  now rewrite devof_new.
Qed.
Lemma ext_app h c : ext h (h ++ [c]). Proof. now exists [c]. Qed.

Lemma alloc2_ok h (x : T2) : n0 <= length h -> t2wf x -> hpost h (fun h' v => R2 h' v x) (alloc2 F dv x h).
Proof.
  intros N W. split; [apply ext_app|]. cbn. split; [cbn; apply okl_new; auto|]. now apply read2_new.
Qed.
Lemma alloc3_ok h (x : T3) : n0 <= length h -> t3wf x -> hpost h (fun h' v => R3 h' v x) (alloc3 F dv x h).
Proof.
  intros N W. split; [apply ext_app|]. cbn. split; [cbn; apply okl_new; auto|]. now apply read3_new.
Qed.

(* ---------------- abs and assignments ---------------- *)
Lemma abs_set_lst h a v o :
  abs h (oset_lst a v o) = set_lst F a (option_map (map (read2 h)) v) (abs h o).
Proof. destruct a; reflexivity. Qed.
Lemma abs_set_pad h a v o :
  abs h (oset_pad a v o) = set_pad F a (option_map (read3 h) v) (abs h o).
Proof. destruct a; reflexivity. Qed.
Lemma abs_set_flg h a v o : abs h (oset_flg a v o) = set_flg F a v (abs h o).
Proof. destruct a; reflexivity. Qed.
Lemma ok_set_lst h a v o :
  ok h o -> (forall l, v = Some l -> ok2 h l) -> ok h (oset_lst a v o).
Proof.
  intros [A B C D G K] H. constructor; auto. cbn. intros x l. destruct (attr_dec x a) as [->|Ne].
  - rewrite qget_qset_same. apply H.
  - rewrite qget_qset_other by exact Ne. apply B.
Qed.
Lemma ok_set_pad h a v o :
  ok h o -> (forall p, v = Some p -> okl h (v3l p)) -> ok h (oset_pad a v o).
Proof.
  intros [A B C D G K] H. constructor; auto. cbn. intros x l. destruct (attr_dec x a) as [->|Ne].
  - rewrite qget_qset_same. apply H.
  - rewrite qget_qset_other by exact Ne. apply C.
Qed.
Lemma ok_set_flg h a v o : ok h o -> ok h (oset_flg a v o).
Proof. intros [A B C D G K]. constructor; auto. Qed.

Lemma abs_lst h o a : qget a (lst F (abs h o)) = option_map (map (read2 h)) (qget a (olst o)).
Proof. apply qget_qmap. Qed.
Lemma abs_pad h o a : qget a (pad F (abs h o)) = option_map (read3 h) (qget a (opad o)).
Proof. apply qget_qmap. Qed.
Lemma is_some_map {X Y} (f : X -> Y) o : is_some (option_map f o) = is_some o.
Proof. now destruct o. Qed.

(* ---------------- reads ---------------- *)
Lemma hhas_ok h o a : ok h o -> post h Reqv (hhas F a (h, o)) (has F a (abs h o)).
Proof.
  intros O. unfold hhas, has. apply post_geto, post_get.
  change (flg F (abs h o)) with (oflg o). destruct (qget a (oflg o)) as [b|].
  - apply post_ret; [exact O|reflexivity].
  - rewrite abs_lst, abs_pad, !is_some_map.
    apply post_bind with (R := Reqv).
    + apply post_modo; [now apply ok_set_flg|apply abs_set_flg|reflexivity].
    + intros h1 o1 [] [] E O1 _. apply post_ret; [exact O1|reflexivity].
Qed.

Lemma hnum_features_ok h o : ok h o -> post h Reqv (hnum_features F (h, o)) (num_features F (abs h o)).
Proof.
  intros O. unfold hnum_features, num_features. apply post_bind with (R := Reqv); [now apply hhas_ok|].
  intros h1 o1 b b' E O1 <-. destruct (negb b); [apply post_ret; [exact O1|reflexivity]|].
  apply post_geto, post_get.
  change (qf (pad F (abs h1 o1))) with (option_map (read3 h1) (qf (opad o1))).
  change (qf (lst F (abs h1 o1))) with (option_map (map (read2 h1)) (qf (olst o1))).
  destruct (qf (opad o1)) as [p|]; cbn [option_map]; [apply post_ret; [exact O1|reflexivity]|].
  destruct (qf (olst o1)) as [[|y l]|]; cbn [option_map map];
    [apply post_raise, O1|apply post_ret; [exact O1|reflexivity]|apply post_ret; [exact O1|reflexivity]].
Qed.

Lemma read_unpadv h p ns : map (read2 h) (unpadv ns p) = unpad F ns (read3 h p).
Proof.
  unfold unpadv, unpad. rewrite map_map. cbn [t3c t3d StoreModel.read3].
  rewrite (map_combine_seq (fun b => map (fun i => map (fun j =>
     nth (v3o p + b * v3r p + i * v3s p + j * v3t p) (fdata F h (v3l p)) f0) (seq 0 (v3c p))) (seq 0 (v3n p)))).
  apply map_ext. intros [b n]. cbn [fst snd].
  unfold StoreModel.read2. cbn [v2c v2n v2o v2s v2t v2l]. f_equal.
  now rewrite firstn_map_seq.
Qed.

Lemma hget_list_ok h o a : ok h o -> post h (Ropt R2l) (hget_list F a (h, o)) (get_list F a (abs h o)).
Proof.
  intros O. unfold hget_list, get_list. apply post_geto, post_geth, post_get.
  rewrite abs_lst, abs_pad.
  destruct (qget a (olst o)) as [l|] eqn:El; cbn [option_map].
  - apply post_ret; [exact O|]. split; [eapply ok_lst; eauto|reflexivity].
  - destruct (qget a (opad o)) as [p|] eqn:Ep; cbn [option_map];
      [|apply post_ret; [exact O|exact I]].
    rewrite read3_b. change (bat F (abs h o)) with (obat o).
    change (num F (abs h o)) with (ndata F h (onum o)).
    destruct (negb (v3b p =? obat o)); [apply post_raise, O|].
    destruct (negb (obat o <=? length (ndata F h (onum o)))); [apply post_raise, O|].
    assert (K : ok2 h (unpadv (ndata F h (onum o)) p)).
    { apply Forall_forall. intros v Hv. apply in_map_iff in Hv. destruct Hv as [q [<- _]]. cbn.
      eapply ok_pad; eauto. }
    apply post_bind with (R := Reqv).
    + apply post_modo; [|rewrite abs_set_lst; cbn [option_map]; now rewrite read_unpadv|reflexivity].
      apply ok_set_lst; [exact O|]. intros l [= <-]. exact K.
    + intros h1 o1 [] [] E O1 _. apply post_ret; [exact O1|]. unfold Ropt, R2l. split.
      * eapply ok2_ext; eauto.
      * rewrite <- read_unpadv. eapply ok2_read; eauto.
Qed.

Lemma stack_wf (x : list T2) p : Forall t2wf x -> stack x = Ok p -> t3wf p.
Proof.
  destruct x as [|y x]; [discriminate|]. unfold stack.
  destruct (forallb _ _) eqn:Ef; [|discriminate]. intros W [= <-].
  rewrite forallb_forall in Ef. unfold t3wf. cbn [t3n t3c t3d].
  apply Forall_forall. intros m Hm. change (In m (map t2r (y :: x))) in Hm.
  apply in_map_iff in Hm. destruct Hm as [z [<- Hz]].
  rewrite Forall_forall in W. pose proof (W z Hz) as Wz. pose proof (Ef z Hz) as Ez.
  unfold pair_eqb, t2shape in Ez. cbn in Ez. apply andb_prop in Ez. destruct Ez as [E1 E2].
  apply Nat.eqb_eq in E1, E2. split; [exact E1|]. rewrite <- E2. exact Wz.
Qed.
Lemma l2p_wf (x : list T2) d0 d1 v e p :
  Forall t2wf x -> list_to_padded x (Some [d0; d1]) v e = Ok p -> t3wf p.
Proof.
  intros W. unfold list_to_padded. destruct e; [apply stack_wf, W|]. cbn [rbind].
  destruct x as [|y x]; [discriminate|]. set (l := y :: x).
  destruct (mapM (fill_item v d0 d1) l) as [s|] eqn:E; [|discriminate]. intros [= <-].
  unfold t3wf. cbn [t3n t3c t3d]. apply mapM_Ok_inv in E.
  clear W. generalize dependent s. generalize l. clear. intros l s H.
  induction H as [|y m l s Hy _ IH]; constructor; [|exact IH].
  unfold fill_item in Hy. destruct (t2n y =? 0).
  - injection Hy as <-. split; [apply repeat_length|].
    apply Forall_forall. intros r Hr. apply repeat_spec in Hr. subst r. apply repeat_length.
  - destruct (_ && _); [|discriminate]. injection Hy as <-. split; [apply fill_slab_length|apply fill_slab_rows].
Qed.

Lemma reads_wf h l : Forall t2wf (map (read2 h) l).
Proof. apply Forall_forall. intros x Hx. apply in_map_iff in Hx. destruct Hx as [v [<- _]]. apply read2_wf. Qed.

Lemma list_dev_ok h l p : ok2 h l -> list_to_padded (map (read2 h) l) p f0 true = list_to_padded (map (read2 h) l) p f0 true ->
  l <> [] -> list_dev F h l = dv.
Proof. intros H _ N. destruct H as [|v l [_ [_ D]] _]; [easy|exact D]. Qed.

Lemma l2p_nonempty (x : list T2) p v e q : list_to_padded x p v e = Ok q -> x <> [].
Proof.
  intros H ->. unfold list_to_padded in H. destruct e; [discriminate|].
  destruct (match p with Some _ => _ | None => _ end) as [[]|]; discriminate.
Qed.

Lemma hpad_attr_ok h o a (wh : MO nat) (w : M (pc F) nat) :
  ok h o ->
  (forall h o, ok h o -> post h Reqv (wh (h, o)) (w (abs h o))) ->
  post h Reqv (hpad_attr F a wh (h, o)) (pad_attr F a w (abs h o)).
Proof.
  intros O Hw. unfold hpad_attr, pad_attr. apply post_geto, post_get.
  rewrite abs_lst. destruct (qget a (olst o)) as [l|] eqn:El; cbn [option_map].
  2:{ apply post_modo; [|now rewrite abs_set_pad|reflexivity].
      apply ok_set_pad; [exact O|discriminate]. }
  pose proof (ok_lst _ _ O _ _ El) as Kl.
  apply post_bind with (R := Reqv); [now apply Hw|].
  intros h1 o1 n n' E O1 <-.
  apply post_geto, post_geth, post_get.
  change (nmax F (abs h1 o1)) with (onmax o1). change (equi F (abs h1 o1)) with (oequi o1).
  rewrite <- (ok2_read _ _ _ E Kl).
  apply post_bind with (R := fun h' a b => a = b /\ t3wf a /\ l <> []).
  { apply post_lift; [exact O1|].
    destruct (list_to_padded (map (read2 h1) l) (Some [onmax o1; n]) f0 (truthy (oequi o1))) as [p|] eqn:Ep;
      [|reflexivity].
    split; [reflexivity|]. split; [eapply l2p_wf; [apply reads_wf|exact Ep]|].
    apply l2p_nonempty in Ep. intros ->. now apply Ep. }
  intros h2 o2 p p' E2 O2 [<- [Wp Nl]].
  assert (D : list_dev F h1 l = dv) by (eapply (list_dev_ok h1 l None); eauto using ok2_ext).
  rewrite D.
  eapply post_onh; [exact O2|apply alloc3_ok; [apply O2|exact Wp]|].
  intros h3 v E3 O3 A3 [Kv Rv]. rewrite <- A3.
  apply post_modo; [|rewrite abs_set_pad; cbn [option_map]; now rewrite Rv|reflexivity].
  apply ok_set_pad; [exact O3|]. intros q [= <-]. exact Kv.
Qed.

Lemma hcompute_padded_ok h o : ok h o -> post h Reqv (hcompute_padded F (h, o)) (compute_padded F (abs h o)).
Proof.
  intros O. unfold hcompute_padded, compute_padded. apply post_bind with (R := Reqv); [now apply hhas_ok|].
  intros h1 o1 b b' E O1 <-. destruct (negb b); [now apply post_ret|].
  apply post_geto, post_get.
  change (qp (pad F (abs h1 o1))) with (option_map (read3 h1) (qp (opad o1))).
  change (qp (lst F (abs h1 o1))) with (option_map (map (read2 h1)) (qp (olst o1))).
  rewrite is_some_map. destruct (is_some (qp (opad o1))); [now apply post_ret|].
  apply post_bind with (R := Reqv).
  { destruct (qp (olst o1)); cbn [option_map]; [|now apply post_raise].
    apply hpad_attr_ok; [exact O1|]. intros. now apply post_ret. }
  intros h2 o2 ? ? E2 O2 _. apply post_bind with (R := Reqv).
  { apply hpad_attr_ok; [exact O2|]. intros. now apply post_ret. }
  intros h3 o3 ? ? E3 O3 _. apply post_bind with (R := Reqv).
  { apply hpad_attr_ok; [exact O3|]. intros. now apply post_ret. }
  intros h4 o4 ? ? E4 O4 _. apply hpad_attr_ok; [exact O4|]. intros h' o' O'.
  apply post_bind with (R := Reqv); [now apply hnum_features_ok|].
  intros h5 o5 w w' E5 O5 <-. destruct w; [now apply post_ret|now apply post_raise].
Qed.

Lemma hget_padded_ok h o a : ok h o -> post h (Ropt R3) (hget_padded F a (h, o)) (get_padded F a (abs h o)).
Proof.
  intros O. unfold hget_padded, get_padded. apply post_bind with (R := Reqv); [now apply hcompute_padded_ok|].
  intros h1 o1 ? ? E O1 _. apply post_geto, post_get.
  apply post_ret; [exact O1|]. rewrite abs_pad. destruct (qget a (opad o1)) as [p|] eqn:Ep; cbn; [|exact I].
  split; [eapply ok_pad; eauto|reflexivity].
Qed.

Definition Rm (h : heap) (m : nat) (x : list (list bool)) : Prop := okl h m /\ bdata F h m = x.

Lemma ok_with_mask h o m : ok h o -> (forall l, m = Some l -> okl h l) -> ok h (owith_mask m o).
Proof. intros [A B C D G K] H. constructor; auto. Qed.
Lemma abs_with_mask h o m : abs h (owith_mask m o) = with_mask F (option_map (bdata F h) m) (abs h o).
Proof. reflexivity. Qed.

Lemma hnonpad_mask_ok h o : ok h o -> post h (Ropt Rm) (hnonpad_mask F (h, o)) (nonpad_mask F (abs h o)).
Proof.
  intros O. unfold hnonpad_mask, nonpad_mask. apply post_geto, post_get.
  change (mask F (abs h o)) with (option_map (bdata F h) (omask o)).
  destruct (omask o) as [m|] eqn:Em; cbn [option_map].
  { apply post_ret; [exact O|]. split; [eapply ok_mask; eauto|reflexivity]. }
  apply post_bind with (R := Reqv); [now apply hhas_ok|].
  intros h1 o1 b b' E O1 <-. destruct (negb b); [apply post_ret; [exact O1|exact I]|].
  apply post_geth.
  change (equi F (abs h o)) with (oequi o). change (nmax F (abs h o)) with (onmax o).
  change (bat F (abs h o)) with (obat o). change (num F (abs h o)) with (ndata F h (onum o)).
  assert (En : ndata F h1 (onum o) = ndata F h (onum o)).
  { apply ext_ndata; [exact E|]. apply (ok_num _ _ O). }
  rewrite En.
  assert (Fin : forall x,
    post h1 (Ropt Rm)
      (mbind (onh F (alloc F (CB F (odev o) x)))
         (fun m => mbind (modo F (owith_mask (Some m))) (fun _ => ret (Some m))) (h1, o1))
      (mbind (modify (with_mask F (Some x))) (fun _ => ret (Some x)) (abs h1 o1))).
  { intros x. eapply post_onh with (P := fun h' m => okl h' m /\ bdata F h' m = x).
    - exact O1.
    - split; [apply ext_app|]. cbn. split; [apply okl_new; [apply O1|apply (ok_dev _ _ O)]|apply bdata_new].
    - intros h2 m E2 O2 A2 [Km Rm']. rewrite <- A2. apply post_bind with (R := Reqv).
      + apply post_modo; [|rewrite abs_with_mask; cbn [option_map]; now rewrite Rm'|reflexivity].
        apply ok_with_mask; [exact O2|]. intros l [= <-]. exact Km.
      + intros h3 o3 ? ? E3 O3 _. apply post_ret; [exact O3|]. split; [eapply okl_ext; eauto|].
        rewrite <- Rm'. apply ext_bdata; [exact E3|]. apply Km. }
  destruct (truthy (oequi o)).
  - destruct (ndata F h (onum o)) as [|n0' ns]; [now apply post_raise|]. apply Fin.
  - destruct (negb (obat o <=? length (ndata F h (onum o)))); [now apply post_raise|]. apply Fin.
Qed.


(* ---------------- allocation of lists ---------------- *)
Definition pre2 (h : heap) (v : view2) : Prop := v2l v < length h.
Lemma pre2_ext h h' v : ext h h' -> pre2 h v -> pre2 h' v.
Proof. intros E H. pose proof (ext_len _ _ E). unfold pre2 in *. lia. Qed.

Lemma mmap_ok (pre : heap -> view2 -> Prop) (f : view2 -> MH view2) :
  (forall h h' v, ext h h' -> pre h v -> pre h' v) ->
  (forall h v, pre h v -> v2l v < length h) ->
  (forall h v, n0 <= length h -> pre h v -> hpost h (fun h' w => R2 h' w (read2 h v)) (f v h)) ->
  forall l h, n0 <= length h -> Forall (pre h) l ->
  hpost h (fun h' ws => R2l h' ws (map (read2 h) l)) (mmap f l h).
Proof.
  intros St Lt Hf. induction l as [|v l IH]; intros h N H.
  - apply hpost_ret. split; [constructor|reflexivity].
  - inversion H as [|? ? Hv Hl]; subst. cbn [mmap]. eapply hpost_bind; [apply Hf; auto|].
    cbn beta. intros h1 w E [Kw Rw]. pose proof (ext_len _ _ E).
    assert (Hl1 : Forall (pre h1) l) by (eapply Forall_impl; [|exact Hl]; intros x; apply St, E).
    eapply hpost_bind; [apply IH; [lia|exact Hl1]|].
    cbn beta. intros h2 ws E2 [Kws Rws]. apply hpost_ret. split.
    + constructor; [eapply okl_ext; eauto|exact Kws].
    + cbn [map]. f_equal.
      * rewrite <- Rw. apply ext_read2; [exact E2|apply Kw].
      * rewrite Rws. apply map_ext_in. intros x Hx. apply ext_read2; [exact E|].
        rewrite Forall_forall in Hl. eauto.
Qed.

Lemma dev_eqb_eq a b : dev_eqb a b = true <-> a = b.
Proof.
  destruct a, b; cbn; split; try discriminate; try reflexivity.
  - intros H. apply Nat.eqb_eq in H. now subst.
  - intros [= ->]. apply Nat.eqb_refl.
Qed.

(* v.clone() for a tensor on the device *)
Lemma clone2_ok h v : n0 <= length h -> v2l v < length h /\ devof F h (v2l v) = dv ->
  hpost h (fun h' w => R2 h' w (read2 h v)) (clone2 F v h).
Proof.
  intros N [L D]. unfold clone2, mbind at 1, get. rewrite D. apply alloc2_ok; [exact N|apply read2_wf].
Qed.
Lemma clone3_ok h v : n0 <= length h -> v3l v < length h /\ devof F h (v3l v) = dv ->
  hpost h (fun h' w => R3 h' w (read3 h v)) (clone3 F v h).
Proof.
  intros N [L D]. unfold clone3, mbind at 1, get. rewrite D. apply alloc3_ok; [exact N|apply read3_wf].
Qed.
Lemma to2_ok h v : n0 <= length h -> v2l v < length h /\ (devof F h (v2l v) = dv -> own (v2l v)) ->
  hpost h (fun h' w => R2 h' w (read2 h v)) (to2 F dv v h).
Proof.
  intros N [L D]. unfold to2, mbind at 1, get. destruct (dev_eqb (devof F h (v2l v)) dv) eqn:E.
  - apply dev_eqb_eq in E. apply hpost_ret. split; [|reflexivity]. repeat split; auto.
  - apply alloc2_ok; [exact N|apply read2_wf].
Qed.
Lemma to3_ok h v : n0 <= length h -> v3l v < length h /\ (devof F h (v3l v) = dv -> own (v3l v)) ->
  hpost h (fun h' w => R3 h' w (read3 h v)) (to3 F dv v h).
Proof.
  intros N [L D]. unfold to3, mbind at 1, get. destruct (dev_eqb (devof F h (v3l v)) dv) eqn:E.
  - apply dev_eqb_eq in E. apply hpost_ret. split; [|reflexivity]. repeat split; auto.
  - apply alloc3_ok; [exact N|apply read3_wf].
Qed.
(* v.clone().to(self.device) for any tensor *)
Lemma copy2_ok h v : n0 <= length h -> v2l v < length h ->
  hpost h (fun h' w => R2 h' w (read2 h v)) ((do y <- clone2 F v; to2 F dv y) h).
Proof.
  intros N L. unfold clone2.
  eapply hpost_bind with (P := fun h' w => (v2l w < length h' /\ n0 <= v2l w) /\ read2 h' w = read2 h v).
  - unfold mbind at 1, get. split; [apply ext_app|]. cbn. split; [rewrite app_length; cbn; lia|].
    exact (read2_new h (devof F h (v2l v)) (read2 h v) (read2_wf h v)).
  - intros h1 w E [[L1 N1] R]. pose proof (ext_len _ _ E). rewrite <- R.
    apply to2_ok; [lia|]. split; [exact L1|]. intros _. now apply own_fresh.
Qed.
Lemma copy3_ok h v : n0 <= length h -> v3l v < length h ->
  hpost h (fun h' w => R3 h' w (read3 h v)) ((do y <- clone3 F v; to3 F dv y) h).
Proof.
  intros N L. unfold clone3.
  eapply hpost_bind with (P := fun h' w => (v3l w < length h' /\ n0 <= v3l w) /\ read3 h' w = read3 h v).
  - unfold mbind at 1, get. split; [apply ext_app|]. cbn. split; [rewrite app_length; cbn; lia|].
    exact (read3_new h (devof F h (v3l v)) (read3 h v) (read3_wf h v)).
  - intros h1 w E [[L1 N1] R]. pose proof (ext_len _ _ E). rewrite <- R.
    apply to3_ok; [lia|]. split; [exact L1|]. intros _. now apply own_fresh.
Qed.

(* ---------------- setters ---------------- *)
Lemma ext_rdany h h' x : ext h h' -> anyl x < length h -> rdany F h' x = rdany F h x.
Proof.
  intros E L. destruct x; cbn in *; [f_equal; now apply ext_read2|f_equal; now apply ext_read3|reflexivity].
Qed.
Lemma ext_rdanys h h' l : ext h h' -> Forall (fun x => anyl x < length h) l ->
  map (rdany F h') l = map (rdany F h) l.
Proof. intros E H. apply map_ext_in. intros x Hx. rewrite Forall_forall in H. apply ext_rdany; auto. Qed.

Lemma as_v2_ok h l :
  Forall (fun x => anyl x < length h) l ->
  match mapM as_v2 l, mapM (as_t2 F) (map (rdany F h) l) with
  | Ok vs, Ok ts => Forall (pre2 h) vs /\ map (read2 h) vs = ts /\ l = map H2 vs
  | Err e, Err e' => e = e'
  | _, _ => False
  end.
Proof.
  induction 1 as [|x l Hx _ IH]; cbn; [repeat split; constructor|].
  destruct x as [v|v|sh k]; cbn; auto.
  destruct (mapM as_v2 l) as [vs|], (mapM (as_t2 F) (map (rdany F h) l)) as [ts|]; cbn; auto.
  destruct IH as [A [<- ->]]. split; [constructor; auto|]. split; reflexivity.
Qed.

Definition slval (h : heap) (v : hset_val) : setval_list F :=
  match v with HSBad => SLBad F | HSL l => SL F (map (rdany F h) l) end.
Definition hset_locs (v : hset_val) : list nat := match v with HSBad => [] | HSL l => map anyl l end.

Lemma forallb_map {X Y} (f : X -> Y) p l : forallb p (map f l) = forallb (fun x => p (f x)) l.
Proof. induction l; cbn; congruence. Qed.

Lemma hassert_set_list_ok h o v b :
  ok h o -> Forall (fun l => l < length h) (hset_locs v) ->
  post h (fun h' vs ts => Forall (pre2 h') vs /\ map (read2 h') vs = ts)
    (hassert_set_list F v b (h, o)) (assert_set_list F (slval h v) b (abs h o)).
Proof.
  intros O Hv. destruct v as [|l]; [now apply post_raise|]. cbn [slval hassert_set_list assert_set_list].
  apply post_bind with (R := Reqv); [now apply hhas_ok|].
  intros h1 o1 x x' E O1 <-. destruct (negb x); [now apply post_raise|].
  apply post_geto, post_geth, post_get. change (bat F (abs h1 o1)) with (obat o1).
  rewrite map_length. destruct (negb (obat o1 =? length l)); [now apply post_raise|].
  assert (Hl : Forall (fun x => anyl x < length h) l).
  { cbn in Hv. rewrite Forall_map in Hv. exact Hv. }
  rewrite <- (ext_rdanys _ _ _ E Hl).
  rewrite forallb_map. destruct (negb _); [now apply post_raise|].
  apply post_bind with (R := Ropt R2l); [now apply hget_list_ok|].
  intros h2 o2 pl pl' E2 O2 Hpl. destruct pl as [pl|], pl' as [pl'|]; try contradiction; [|now apply post_raise].
  destruct Hpl as [Kpl <-].
  assert (Hl1 : Forall (fun x => anyl x < length h1) l).
  { eapply Forall_impl; [|exact Hl]. intros y Hy. cbn beta in *. pose proof (ext_len _ _ E). lia. }
  assert (Fin : post h2 (fun h' vs ts => Forall (pre2 h') vs /\ map (read2 h') vs = ts)
     (lift (mapM as_v2 l) (h2, o2)) (lift (mapM (as_t2 F) (map (rdany F h1) l)) (abs h2 o2))).
  { apply post_lift; [exact O2|]. pose proof (as_v2_ok h1 l Hl1) as K.
    destruct (mapM as_v2 l) as [vs|], (mapM (as_t2 F) (map (rdany F h1) l)) as [ts|]; auto.
    destruct K as [K1 [K2 _]]. split.
    - eapply Forall_impl; [|exact K1]. intros y. apply pre2_ext, E2.
    - rewrite <- K2. apply map_ext_in. intros y Hy. apply ext_read2; [exact E2|].
      rewrite Forall_forall in K1. now apply K1. }
  rewrite !map_map.
  replace (map (fun x => t2n (read2 h2 x)) pl) with (map v2n pl)
    by (apply map_ext; intros; symmetry; apply read2_n).
  replace (map (fun x => [t2n (read2 h2 x); t2c (read2 h2 x)]) pl) with (map (fun y => [v2n y; v2c y]) pl)
    by (apply map_ext; intros; now rewrite read2_n).
  destruct b.
  - destruct (shape_eqb _ _); [exact Fin|now apply post_raise].
  - destruct (shapes_eqb _ _); [exact Fin|now apply post_raise].
Qed.

Lemma hset_list_ok h o a v :
  ok h o -> Forall (fun l => l < length h) (hset_locs v) ->
  post h Reqv (hset_list F a v (h, o)) (set_list F a (slval h v) (abs h o)).
Proof.
  intros O Hv. unfold hset_list, set_list.
  eapply post_bind; [now apply hassert_set_list_ok|].
  cbn beta. intros h1 o1 vs ts E O1 [Kvs Rvs]. apply post_geto. rewrite (ok_dev _ _ O1).
  eapply post_onh with (P := fun h' ws => R2l h' ws ts); [exact O1|rewrite <- Rvs|].
  { apply mmap_ok with (pre := pre2); [apply pre2_ext|auto| |apply O1|exact Kvs].
    intros h' w N' H'. now apply copy2_ok. }
  intros h2 ws E2 O2 A2 [Kws Rws]. rewrite <- A2. apply post_bind with (R := Reqv).
  - apply post_modo; [|rewrite abs_set_lst; cbn [option_map]; now rewrite Rws|reflexivity].
    apply ok_set_lst; [exact O2|]. intros l [= <-]. exact Kws.
  - intros h3 o3 [] [] E3 O3 _. destruct a; [|now apply post_ret..].
    apply post_modo; [|now rewrite abs_set_pad|reflexivity].
    apply ok_set_pad; [exact O3|discriminate].
Qed.

Definition spval (h : heap) (v : hset_pval) : setval_pad F :=
  match v with HPBad => SPBad F | HP x => SP F (rdany F h x) end.
Definition hpval_ok (h : heap) (v : hset_pval) : Prop :=
  match v with HPBad => True | HP x => anyl x < length h /\ devof F h (anyl x) = dv end.

Lemma hassert_set_padded_ok h o v b :
  ok h o -> hpval_ok h v ->
  post h (fun h' w t => v3l w < length h' /\ read3 h' w = t)
    (hassert_set_padded F v b (h, o)) (assert_set_padded F (spval h v) b (abs h o)).
Proof.
  intros O Hv. destruct v as [|x]; [now apply post_raise|]. destruct Hv as [Lx Dx].
  cbn [spval hassert_set_padded assert_set_padded].
  apply post_bind with (R := Reqv); [now apply hhas_ok|].
  intros h1 o1 y y' E O1 <-. destruct (negb y); [now apply post_raise|].
  apply post_geto, post_geth. rewrite (ok_dev _ _ O1), (ext_devof _ _ _ E Lx), Dx.
  replace (dev_eqb dv dv) with true by (symmetry; now apply dev_eqb_eq). cbn [negb].
  rewrite (ext_rdany _ _ _ E Lx).
  destruct (negb (andim F (rdany F h x) =? 3)); [now apply post_raise|].
  apply post_bind with (R := Ropt R3); [now apply hget_padded_ok|].
  intros h2 o2 pp pp' E2 O2 Hpp. destruct pp as [pp|], pp' as [pp'|]; try contradiction; [|now apply post_raise].
  destruct Hpp as [Kpp <-]. rewrite read3_b.
  change (t3n (read3 h2 pp)) with (v3n pp). change (t3c (read3 h2 pp)) with (v3c pp).
  destruct (if b then _ else _); [now apply post_raise|].
  assert (E02 : ext h h2) by (eapply ext_trans; eauto).
  assert (Ln : onum o2 < length h2) by apply (ok_num _ _ O2).
  destruct x as [w|w|sh k]; cbn [rdany as_v3 as_t3]; [now apply post_raise| |now apply post_raise].
  cbn [anyl] in *.
  unfold lift at 1 3. unfold mbind at 1 5. cbv beta iota.
  apply post_geto, post_geth, post_get.
  change (num F (abs h2 o2)) with (ndata F h2 (onum o2)).
  rewrite (ext_read3 _ _ _ E02 Lx).
  apply post_bind with (R := Reqv).
  { apply post_lift; [exact O2|]. destruct (padding_zero _ _ _); reflexivity. }
  intros h3 o3 z z' E3 O3 <-. destruct (negb z); [now apply post_raise|].
  apply post_ret; [exact O3|]. pose proof (ext_len _ _ E02). pose proof (ext_len _ _ E3). split; [lia|].
  eapply ext_read3; [|exact Lx]. eapply ext_trans; eauto.
Qed.

Lemma hset_padded_ok h o a v :
  ok h o -> hpval_ok h v ->
  post h Reqv (hset_padded F a v (h, o)) (set_padded F a (spval h v) (abs h o)).
Proof.
  intros O Hv. unfold hset_padded, set_padded.
  eapply post_bind; [now apply hassert_set_padded_ok|].
  cbn beta. intros h1 o1 w t E O1 [Lw Rw]. apply post_geto. rewrite (ok_dev _ _ O1).
  eapply post_onh with (P := fun h' x => R3 h' x t); [exact O1|rewrite <- Rw; apply copy3_ok; [apply O1|exact Lw]|].
  intros h2 x E2 O2 A2 [Kx Rx]. rewrite <- A2. apply post_bind with (R := Reqv).
  - apply post_modo; [|rewrite abs_set_pad; cbn [option_map]; now rewrite Rx|reflexivity].
    apply ok_set_pad; [exact O2|]. intros l [= <-]. exact Kx.
  - intros h3 o3 [] [] E3 O3 _.
    apply post_modo; [|now rewrite abs_set_lst|reflexivity].
    apply ok_set_lst; [exact O3|discriminate].
Qed.

(* a padded tensor on another device is refused and nothing changes but the cached flag *)
Lemma hset_padded_device h o a x :
  ok h o -> devof F h (anyl x) <> dv ->
  exists o', hset_padded F a (HP x) (h, o) = (Err ValueError, (h, o')) /\ ok h o' /\ abs h o' = snd (has F Points (abs h o)).
Proof.
  intros O D. unfold hset_padded, hassert_set_padded.
  assert (K : exists b o', hhas F Points (h, o) = (Ok b, (h, o')) /\ (odev o' = dv /\ ok h o') /\
                           abs h o' = snd (has F Points (abs h o))).
  { unfold hhas, has, geto, modo, mbind, ret. cbn [fst snd].
    change (flg F (abs h o)) with (oflg o).
    destruct (qget Points (oflg o)) as [b|] eqn:Eb.
    - exists b, o. unfold get. cbn. cbn in Eb. rewrite Eb. split; [reflexivity|]. split; [|reflexivity]. split; [apply O|exact O].
    - eexists _, _. split; [reflexivity|]. split; [split; [apply O|now apply ok_set_flg]|]. unfold get. cbn. cbn in Eb. rewrite Eb.
      rewrite abs_set_flg. cbn. rewrite !is_some_map. reflexivity. }
  destruct K as [b [o' [E1 [[E2 O'] E3]]]]. exists o'. split; [|split; [exact O'|exact E3]].
  unfold mbind at 1 2. rewrite E1. destruct b; cbn [negb]; [|reflexivity].
  unfold mbind, geto, geth. cbn [fst snd]. rewrite E2.
  destruct (dev_eqb dv (devof F h (anyl x))) eqn:Eq; [|reflexivity].
  apply dev_eqb_eq in Eq. congruence.
Qed.

(* ---------------- arithmetic ---------------- *)
Lemma bcast_wf f p sh el m mN q : bcast_op F f p sh el m mN = Ok q -> t3wf q.
Proof.
  unfold bcast_op. destruct (pad_shape3 sh) as [[[a b] c]|]; [|discriminate].
  destruct (obind (bext a (length m)) (bext (t3b p))), (obind (bext b mN) (bext (t3n p))), (bext (t3c p) c);
    try discriminate. intros [= <-]. apply tab3_wf.
Qed.

Lemma store_points h o p' y d :
  ok h o -> t3wf p' -> d = dv -> y = mbind (modify (set_pad F Points (Some p'))) (fun _ => modify (set_lst F Points None)) (abs h o) ->
  post h Reqv
    (mbind (onh F (alloc3 F d p')) (fun v => mbind (modo F (oset_pad Points (Some v)))
       (fun _ => modo F (oset_lst Points None))) (h, o)) y.
Proof.
  intros O W -> ->. eapply post_onh; [exact O|apply alloc3_ok; [apply O|exact W]|].
  intros h2 x E2 O2 A2 [Kx Rx]. rewrite <- A2. apply post_bind with (R := Reqv).
  - apply post_modo; [|rewrite abs_set_pad; cbn [option_map]; now rewrite Rx|reflexivity].
    apply ok_set_pad; [exact O2|]. intros l [= <-]. exact Kx.
  - intros h3 o3 [] [] E3 O3 _.
    apply post_modo; [|now rewrite abs_set_lst|reflexivity].
    apply ok_set_lst; [exact O3|discriminate].
Qed.

Lemma hmasked_ok f o' h o : ok h o -> post h Reqv (hmasked_update F f o' (h, o)) (masked_update F f o' (abs h o)).
Proof.
  intros O. destruct o' as [|sh el]; [now apply post_raise|]. cbn [hmasked_update masked_update].
  apply post_bind with (R := Reqv); [now apply hhas_ok|].
  intros h1 o1 x x' E O1 <-. destruct (negb x); [now apply post_ret|].
  apply post_bind with (R := Ropt R3); [now apply hget_padded_ok|].
  intros h2 o2 pp pp' E2 O2 Hpp.
  apply post_bind with (R := Ropt Rm); [now apply hnonpad_mask_ok|].
  intros h3 o3 m m' E3 O3 Hm.
  destruct pp as [pp|], pp' as [pp'|]; try contradiction;
    destruct m as [m|], m' as [m'|]; try contradiction; try (now apply post_raise).
  destruct Hpp as [Kpp <-]. destruct Hm as [Km <-].
  apply post_geth. rewrite (ext_read3 _ _ _ E3) by apply Kpp.
  apply post_bind with (R := fun _ a b => a = b /\ t3wf a).
  { apply post_lift; [exact O3|]. destruct (bcast_op _ _ _ _ _ _ _) eqn:Eb; [|reflexivity].
    split; [reflexivity|eapply bcast_wf; eauto]. }
  intros h4 o4 p p' E4 O4 [<- W]. apply store_points; auto.
  rewrite (ext_devof _ _ _ E3) by apply Kpp. apply Kpp.
Qed.

Lemma rot3_wf p r : t3wf (rot3 F p r).
Proof. apply tab3_wf. Qed.

Lemma hrotate_ok o' pre h o : ok h o -> post h Reqv (hrotate_ F o' pre (h, o)) (rotate_ F o' pre (abs h o)).
Proof.
  intros O. destruct o' as [|sh el]; [now apply post_raise|]. cbn [hrotate_ rotate_].
  destruct (negb (mat_shape_ok 3 sh)); [now apply post_raise|].
  apply post_geto, post_get. change (bat F (abs h o)) with (obat o).
  destruct (_ && _); [now apply post_raise|].
  apply post_bind with (R := Reqv); [now apply hhas_ok|].
  intros h1 o1 x x' E O1 <-. destruct (negb x); [now apply post_ret|].
  apply post_bind with (R := Ropt R3); [now apply hget_padded_ok|].
  intros h2 o2 pp pp' E2 O2 Hpp.
  destruct pp as [pp|], pp' as [pp'|]; try contradiction; [|now apply post_raise].
  destruct Hpp as [Kpp <-]. apply post_geth.
  replace (devof F h2 (v3l pp)) with dv by (symmetry; apply Kpp).
  eapply post_onh; [exact O2|apply alloc3_ok; [apply O2|apply rot3_wf]|].
  intros h3 v E3 O3 A3 [Kv Rv]. rewrite <- A3. apply post_bind with (R := Reqv).
  { apply post_modo; [|rewrite abs_set_pad; cbn [option_map]; now rewrite Rv|reflexivity].
    apply ok_set_pad; [exact O3|]. intros l [= <-]. exact Kv. }
  intros h4 o4 [] [] E4 O4 _. apply post_bind with (R := Ropt R3); [now apply hget_padded_ok|].
  intros h5 o5 np np' E5 O5 Hnp. apply post_geth.
  eapply post_onh with (P := fun h' w => Ropt R3 h' w (option_map (fun n => rot3 F n
     (fun b i j => if pre then mat_el F sh el b j i else mat_el F sh el b i j)) np')); [exact O5| |].
  { destruct np as [np|], np' as [np'|]; try contradiction; cbn [omap option_map];
      [|apply hpost_ret; exact I].
    destruct Hnp as [Knp <-]. replace (devof F h5 (v3l np)) with dv by (symmetry; apply Knp).
    eapply hpost_bind; [apply alloc3_ok; [apply O5|apply rot3_wf]|].
    intros h6 w E6 K6. apply hpost_ret. exact K6. }
  intros h6 nv E6 O6 A6 Hnv. rewrite <- A6. apply post_bind with (R := Reqv).
  { apply post_modo; [| |reflexivity].
    - apply ok_set_pad; [exact O6|]. intros l ->. destruct np'; cbn in Hnv; [apply Hnv|contradiction].
    - rewrite abs_set_pad. f_equal. destruct nv, np'; cbn in Hnv |- *; try contradiction; auto.
      destruct Hnv as [_ ->]. reflexivity. }
  intros h7 o7 [] [] E7 O7 _. apply post_bind with (R := Reqv).
  { apply post_modo; [|now rewrite abs_set_lst|reflexivity]. apply ok_set_lst; [exact O7|discriminate]. }
  intros h8 o8 [] [] E8 O8 _.
  apply post_modo; [|now rewrite abs_set_lst|reflexivity]. apply ok_set_lst; [exact O8|discriminate].
Qed.

Lemma htransform_ok o' pre h o : ok h o -> post h Reqv (htransform_ F o' pre (h, o)) (transform_ F o' pre (abs h o)).
Proof.
  intros O. destruct o' as [|sh el]; [now apply post_raise|]. cbn [htransform_ transform_].
  destruct (negb (mat_shape_ok 4 sh)); [now apply post_raise|].
  apply post_geto, post_get. change (bat F (abs h o)) with (obat o).
  destruct (_ && _); [now apply post_raise|].
  apply post_bind with (R := Reqv); [now apply hhas_ok|].
  intros h1 o1 x x' E O1 <-. destruct (negb x); [now apply post_ret|].
  apply post_bind with (R := Ropt R3); [now apply hget_padded_ok|].
  intros h2 o2 pp pp' E2 O2 Hpp.
  apply post_bind with (R := Reqv); [now apply hrotate_ok|].
  intros h3 o3 [] [] E3 O3 _. now apply hmasked_ok.
Qed.

Lemma hpinhole_ok o' h o : ok h o -> post h Reqv (hpinhole_projection_ F o' (h, o)) (pinhole_projection_ F o' (abs h o)).
Proof.
  intros O. destruct o' as [|sh el]; [now apply post_raise|]. cbn [hpinhole_projection_ pinhole_projection_].
  destruct (negb (mat_shape_ok 4 sh)); [now apply post_raise|].
  apply post_bind with (R := Reqv); [now apply hhas_ok|].
  intros h1 o1 x x' E O1 <-. destruct (negb x); [now apply post_ret|].
  apply post_bind with (R := Ropt R3); [now apply hget_padded_ok|].
  intros h2 o2 pp pp' E2 O2 Hpp.
  destruct pp as [pp|], pp' as [pp'|]; try contradiction; [|now apply post_raise].
  destruct Hpp as [Kpp <-]. rewrite read3_b. change (t3n (read3 h2 pp)) with (v3n pp).
  destruct (_ && _); [now apply post_raise|].
  apply post_bind with (R := Ropt Rm); [now apply hnonpad_mask_ok|].
  intros h3 o3 m m' E3 O3 Hm.
  destruct m as [m|], m' as [m'|]; try contradiction; try (now apply post_raise).
  destruct Hm as [Km <-].
  apply post_geth. rewrite (ext_read3 _ _ _ E3) by apply Kpp.
  apply post_bind with (R := fun _ a b => a = b /\ t3wf a).
  { apply post_lift; [exact O3|]. destruct (bcast_op _ _ _ _ _ _ _) eqn:Eb; [|reflexivity].
    split; [reflexivity|eapply bcast_wf; eauto]. }
  intros h4 o4 p p' E4 O4 [<- W]. apply store_points; auto.
  rewrite (ext_devof _ _ _ E3) by apply Kpp. apply Kpp.
Qed.


(* ---------------- constructor ---------------- *)
Definition hres {A B} (h : heap) (R : heap -> A -> B -> Prop) (x : res A * heap) (r : res B) : Prop :=
  ext h (snd x) /\ match fst x, r with
                   | Ok a, Ok b => R (snd x) a b | Err e, Err e' => e = e' | _, _ => False end.
Lemma hres_hpost {A B} h (R : heap -> A -> B -> Prop) x b :
  hpost h (fun h' a => R h' a b) x -> hres h R x (Ok b).
Proof. intros [E H]. split; [exact E|]. destruct (fst x); auto. Qed.
Lemma hpost_hres {A B C} h (P : heap -> A -> Prop) (R : heap -> B -> C -> Prop) m (k : A -> MH B) r :
  hpost h P (m h) -> (forall h1 a, ext h h1 -> P h1 a -> hres h1 R (k a h1) r) -> hres h R (mbind m k h) r.
Proof.
  intros [E H] K. unfold mbind. destruct (m h) as [x h1]. cbn [fst snd] in *. destruct x as [a|]; [|easy].
  destruct (K h1 a E H) as [E2 K2]. split; [eapply ext_trans; eauto|exact K2].
Qed.

Definition any_ok (h : heap) (x : hany) : Prop :=
  anyl x < length h /\ (devof F h (anyl x) = dv -> own (anyl x)).
Definition arg_ok (h : heap) (a : harg) : Prop :=
  match a with HList l => Forall (any_ok h) l | HTensor x => any_ok h x | _ => True end.
Lemma any_ok_ext h h' x : ext h h' -> any_ok h x -> any_ok h' x.
Proof.
  intros E [A B]. pose proof (ext_len _ _ E). split; [lia|]. now rewrite (ext_devof _ _ _ E A).
Qed.
Lemma arg_ok_ext h h' a : ext h h' -> arg_ok h a -> arg_ok h' a.
Proof.
  intros E. destruct a; cbn; auto; [|now apply any_ok_ext]. apply Forall_impl. intros x. now apply any_ok_ext.
Qed.
Lemma rdarg_ext h h' a : ext h h' -> arg_ok h a -> rdarg F h' a = rdarg F h a.
Proof.
  intros E. destruct a as [|l|x|]; cbn; auto.
  - intros H. f_equal. apply ext_rdanys; [exact E|]. eapply Forall_impl; [|exact H]. now intros x [].
  - intros [L _]. f_equal. now apply ext_rdany.
Qed.

Lemma R2_ext h h' v x : ext h h' -> R2 h v x -> R2 h' v x.
Proof. intros E [K <-]. split; [eapply okl_ext; eauto|]. apply ext_read2; [exact E|apply K]. Qed.
Lemma R3_ext h h' v x : ext h h' -> R3 h v x -> R3 h' v x.
Proof. intros E [K <-]. split; [eapply okl_ext; eauto|]. apply ext_read3; [exact E|apply K]. Qed.
Lemma R2l_ext h h' v x : ext h h' -> R2l h v x -> R2l h' v x.
Proof. intros E [K <-]. split; [eapply ok2_ext; eauto|]. eapply ok2_read; eauto. Qed.
Lemma Ropt_ext {A B} (R : heap -> A -> B -> Prop) h h' o p :
  (forall a b, R h a b -> R h' a b) -> Ropt R h o p -> Ropt R h' o p.
Proof. intros H. destruct o, p; cbn; auto. Qed.

Lemma mmap_map_ext {A B C} (f : B -> MH C) (g : A -> MH C) (k : A -> B) l h :
  (forall x h, f (k x) h = g x h) -> mmap f (map k l) h = mmap g l h.
Proof.
  intros H. revert h. induction l as [|x l IH]; intros h; [reflexivity|].
  cbn [map mmap]. unfold mbind at 1 3. rewrite H. destruct (g x h) as [[y|] h1]; [|reflexivity].
  unfold mbind. now rewrite IH.
Qed.

Lemma mapM_takes h l vs ts :
  n0 <= length h -> Forall (any_ok h) l -> l = map H2 vs -> map (read2 h) vs = ts ->
  hpost h (fun h' ws => R2l h' ws ts) (mmap (fun x => do v <- lift (as_v2 x); to2 F dv v) l h).
Proof.
  intros N H -> <-. revert h N H.
  assert (G : forall h, n0 <= length h -> Forall (fun v => any_ok h (H2 v)) vs ->
     hpost h (fun h' ws => R2l h' ws (map (read2 h) vs))
       (mmap (to2 F dv) vs h)).
  { intros h N H. apply mmap_ok with (pre := fun h v => any_ok h (H2 v)); auto.
    - intros h1 h2 v E. now apply any_ok_ext.
    - now intros h1 v [].
    - intros h1 v N1 [A B]. now apply to2_ok. }
  intros h N H. rewrite Forall_map in H.
  replace (mmap (fun x => do v <- lift (as_v2 x); to2 F dv v) (map H2 vs) h)
    with (mmap (to2 F dv) vs h); [now apply G|].
  symmetry. apply (mmap_map_ext (fun x => do v <- lift (as_v2 x); to2 F dv v) (to2 F dv) H2).
  reflexivity.
Qed.

Lemma take_list_ok h a r :
  n0 <= length h -> arg_ok h a -> opt_mapM (mapM (as_t2 F)) (list_of F (rdarg F h a)) = Ok r ->
  hpost h (fun h' x => Ropt R2l h' x r) (take_list F dv a h).
Proof.
  intros N H E. destruct a as [|l|x|]; cbn in E |- *; try (injection E as <-; now apply hpost_ret).
  destruct (mapM (as_t2 F) (map (rdany F h) l)) as [ts|] eqn:Et; [|discriminate]. injection E as <-.
  assert (Hl : Forall (fun x => anyl x < length h) l) by (eapply Forall_impl; [|exact H]; now intros x []).
  pose proof (as_v2_ok h l Hl) as K. rewrite Et in K. destruct (mapM as_v2 l) as [vs|]; [|contradiction].
  destruct K as [_ [K1 K2]].
  eapply hpost_bind; [eapply mapM_takes; eauto|]. intros h1 ws E1 K. now apply hpost_ret.
Qed.
Lemma take_tensor_ok h a r :
  n0 <= length h -> arg_ok h a -> opt_mapM (as_t3 F) (tensor_of F (rdarg F h a)) = Ok r ->
  hpost h (fun h' x => Ropt R3 h' x r) (take_tensor F dv a h).
Proof.
  intros N H E. destruct a as [|l|x|]; cbn in E |- *; try (injection E as <-; now apply hpost_ret).
  destruct x as [v|v|sh k]; cbn in E; try discriminate. injection E as <-. cbn [arg_ok] in H.
  unfold lift, as_v3, mbind at 1. cbv beta iota.
  eapply hpost_bind; [apply to3_ok; [exact N|exact H]|]. intros h1 w E1 K. now apply hpost_ret.
Qed.

Lemma guard_ok b e x : guard b e = Ok x -> b = true.
Proof. destruct b; [reflexivity|discriminate]. Qed.
Lemma rbind_ok {A B} (r : res A) (k : A -> res B) y : rbind r k = Ok y -> exists x, r = Ok x /\ k x = Ok y.
Proof. destruct r; [|discriminate]. eauto. Qed.

Lemma ctor_inv p n c f s :
  ctor F p n c f = Ok s ->
  exists pl nl cl fl pp np cp fp,
    opt_mapM (mapM (as_t2 F)) (list_of F p) = Ok pl /\ opt_mapM (mapM (as_t2 F)) (list_of F n) = Ok nl /\
    opt_mapM (mapM (as_t2 F)) (list_of F c) = Ok cl /\ opt_mapM (mapM (as_t2 F)) (list_of F f) = Ok fl /\
    opt_mapM (as_t3 F) (tensor_of F p) = Ok pp /\ opt_mapM (as_t3 F) (tensor_of F n) = Ok np /\
    opt_mapM (as_t3 F) (tensor_of F c) = Ok cp /\ opt_mapM (as_t3 F) (tensor_of F f) = Ok fp /\
    s = mkPC F (mkQ pl nl cl fl) (mkQ pp np cp fp) None (mkQ None None None None)
             (num F s) (bat F s) (nmax F s) (equi F s).
Proof.
  unfold ctor. intros H.
  apply rbind_ok in H. destruct H as [? [H1 H]]. apply rbind_ok in H. destruct H as [? [H2 H]].
  apply rbind_ok in H. destruct H as [? [H3 H]]. apply rbind_ok in H. destruct H as [? [H4 H]].
  apply rbind_ok in H. destruct H as [? [H5 H]].
  apply guard_ok in H2, H3, H4.
  destruct p as [|l|t|]; [| | |discriminate].
  - injection H as <-. destruct n, c, f; try discriminate. exists None, None, None, None, None, None, None, None.
    repeat split.
  - assert (Tn : tensor_of F n = None) by (destruct n; cbn in H2; try discriminate; reflexivity).
    assert (Tc : tensor_of F c = None) by (destruct c; cbn in H3; try discriminate; reflexivity).
    assert (Tf : tensor_of F f = None) by (destruct f; cbn in H4; try discriminate; reflexivity).
    rewrite Tn, Tc, Tf. unfold ctor_list in H.
    do 7 (apply rbind_ok in H; destruct H as [? [_ H]]).
    apply rbind_ok in H. destruct H as [pl [E1 H]]. apply rbind_ok in H. destruct H as [nl [E2 H]].
    apply rbind_ok in H. destruct H as [cl [E3 H]]. apply rbind_ok in H. destruct H as [fl [E4 H]].
    injection H as <-. exists (Some pl), nl, cl, fl, None, None, None, None.
    cbn [list_of opt_mapM tensor_of]. rewrite E1. cbn [rmap]. repeat split; assumption.
  - assert (Tn : list_of F n = None) by (destruct n; cbn in H2; try discriminate; reflexivity).
    assert (Tc : list_of F c = None) by (destruct c; cbn in H3; try discriminate; reflexivity).
    assert (Tf : list_of F f = None) by (destruct f; cbn in H4; try discriminate; reflexivity).
    rewrite Tn, Tc, Tf. unfold ctor_tensor in H.
    do 7 (apply rbind_ok in H; destruct H as [? [_ H]]).
    apply rbind_ok in H. destruct H as [pl [E1 H]]. apply rbind_ok in H. destruct H as [nl [E2 H]].
    apply rbind_ok in H. destruct H as [cl [E3 H]]. apply rbind_ok in H. destruct H as [fl [E4 H]].
    injection H as <-. exists None, None, None, None, (Some pl), nl, cl, fl.
    cbn [list_of opt_mapM tensor_of]. rewrite E1. cbn [rmap]. repeat split; assumption.
Qed.

(* self.device of the new object *)
Definition ctor_dev (h : heap) (pa : harg) (d : option dev) : dev :=
  match d with
  | Some d => d
  | None => match pa with
            | HList (x :: _) => devof F h (anyl x)
            | HTensor x => devof F h (anyl x)
            | _ => Cpu
            end
  end.

Definition Robj (h : heap) (o : obj) (s : pc F) : Prop := ok h o /\ abs h o = s.

Lemma opts_ok {A B} (R : heap -> A -> B -> Prop) h (p n c f : option A) p' n' c' f' a x :
  Ropt R h p p' -> Ropt R h n n' -> Ropt R h c c' -> Ropt R h f f' ->
  qget a (mkQ p n c f) = Some x -> exists y, R h x y.
Proof.
  intros Hp Hn Hc Hf. destruct a; cbn; intros ->;
    [destruct p'|destruct n'|destruct c'|destruct f']; cbn in *; try contradiction; eauto.
Qed.

Lemma hctor_ok h pa na ca fa d :
  n0 <= length h -> arg_ok h pa -> arg_ok h na -> arg_ok h ca -> arg_ok h fa ->
  (forall s, ctor F (rdarg F h pa) (rdarg F h na) (rdarg F h ca) (rdarg F h fa) = Ok s -> ctor_dev h pa d = dv) ->
  hres h Robj (hctor F pa na ca fa d h) (ctor F (rdarg F h pa) (rdarg F h na) (rdarg F h ca) (rdarg F h fa)).
Proof.
  intros N Hp Hn Hc Hf Hd. unfold hctor. unfold get at 1, lift at 1. unfold mbind at 1 2. cbv beta iota.
  destruct (ctor F (rdarg F h pa) (rdarg F h na) (rdarg F h ca) (rdarg F h fa)) as [s|e] eqn:Ec.
  2:{ split; [apply ext_refl|reflexivity]. }
  specialize (Hd s eq_refl). apply ctor_inv in Ec.
  destruct Ec as (pl & nl & cl & fl & pp & np & cp & fp & E1 & E2 & E3 & E4 & E5 & E6 & E7 & E8 & Es).
  fold (ctor_dev h pa d). rewrite Hd. apply hres_hpost.
  eapply hpost_bind; [eapply take_list_ok; eauto|]. cbn beta. intros h1 pl' X1 K1.
  rewrite <- (rdarg_ext h h1 na X1 Hn) in E2, E6. rewrite <- (rdarg_ext h h1 ca X1 Hc) in E3, E7.
  rewrite <- (rdarg_ext h h1 fa X1 Hf) in E4, E8. rewrite <- (rdarg_ext h h1 pa X1 Hp) in E5.
  pose proof (ext_len _ _ X1). apply (arg_ok_ext _ _ _ X1) in Hp, Hn, Hc, Hf.
  eapply hpost_bind; [eapply take_list_ok; eauto; lia|]. cbn beta. intros h2 nl' X2 K2.
  apply (Ropt_ext _ h1 h2) in K1; [|intros; now apply (R2l_ext h1)].
  rewrite <- (rdarg_ext _ _ na X2 Hn) in E6. rewrite <- (rdarg_ext _ _ ca X2 Hc) in E3, E7.
  rewrite <- (rdarg_ext _ _ fa X2 Hf) in E4, E8. rewrite <- (rdarg_ext _ _ pa X2 Hp) in E5.
  pose proof (ext_len _ _ X2). apply (arg_ok_ext _ _ _ X2) in Hp, Hn, Hc, Hf.
  eapply hpost_bind; [eapply take_list_ok; eauto; lia|]. cbn beta. intros h3 cl' X3 K3.
  apply (Ropt_ext _ h2 h3) in K1; [|intros; now apply (R2l_ext h2)].
  apply (Ropt_ext _ h2 h3) in K2; [|intros; now apply (R2l_ext h2)].
  rewrite <- (rdarg_ext _ _ na X3 Hn) in E6. rewrite <- (rdarg_ext _ _ ca X3 Hc) in E7.
  rewrite <- (rdarg_ext _ _ fa X3 Hf) in E4, E8. rewrite <- (rdarg_ext _ _ pa X3 Hp) in E5.
  pose proof (ext_len _ _ X3). apply (arg_ok_ext _ _ _ X3) in Hp, Hn, Hc, Hf.
  eapply hpost_bind; [eapply take_list_ok; eauto; lia|]. cbn beta. intros h4 fl' X4 K4.
  apply (Ropt_ext _ h3 h4) in K1; [|intros; now apply (R2l_ext h3)].
  apply (Ropt_ext _ h3 h4) in K2; [|intros; now apply (R2l_ext h3)].
  apply (Ropt_ext _ h3 h4) in K3; [|intros; now apply (R2l_ext h3)].
  rewrite <- (rdarg_ext _ _ na X4 Hn) in E6. rewrite <- (rdarg_ext _ _ ca X4 Hc) in E7.
  rewrite <- (rdarg_ext _ _ fa X4 Hf) in E8. rewrite <- (rdarg_ext _ _ pa X4 Hp) in E5.
  pose proof (ext_len _ _ X4). apply (arg_ok_ext _ _ _ X4) in Hp, Hn, Hc, Hf.
  eapply hpost_bind; [eapply take_tensor_ok; eauto; lia|]. cbn beta. intros h5 pp' X5 K5.
  apply (Ropt_ext _ h4 h5) in K1; [|intros; now apply (R2l_ext h4)].
  apply (Ropt_ext _ h4 h5) in K2; [|intros; now apply (R2l_ext h4)].
  apply (Ropt_ext _ h4 h5) in K3; [|intros; now apply (R2l_ext h4)].
  apply (Ropt_ext _ h4 h5) in K4; [|intros; now apply (R2l_ext h4)].
  rewrite <- (rdarg_ext _ _ na X5 Hn) in E6. rewrite <- (rdarg_ext _ _ ca X5 Hc) in E7.
  rewrite <- (rdarg_ext _ _ fa X5 Hf) in E8.
  pose proof (ext_len _ _ X5). apply (arg_ok_ext _ _ _ X5) in Hp, Hn, Hc, Hf.
  eapply hpost_bind; [eapply take_tensor_ok; eauto; lia|]. cbn beta. intros h6 np' X6 K6.
  apply (Ropt_ext _ h5 h6) in K1; [|intros; now apply (R2l_ext h5)].
  apply (Ropt_ext _ h5 h6) in K2; [|intros; now apply (R2l_ext h5)].
  apply (Ropt_ext _ h5 h6) in K3; [|intros; now apply (R2l_ext h5)].
  apply (Ropt_ext _ h5 h6) in K4; [|intros; now apply (R2l_ext h5)].
  apply (Ropt_ext _ h5 h6) in K5; [|intros; now apply (R3_ext h5)].
  rewrite <- (rdarg_ext _ _ ca X6 Hc) in E7. rewrite <- (rdarg_ext _ _ fa X6 Hf) in E8.
  pose proof (ext_len _ _ X6). apply (arg_ok_ext _ _ _ X6) in Hp, Hn, Hc, Hf.
  eapply hpost_bind; [eapply take_tensor_ok; eauto; lia|]. cbn beta. intros h7 cp' X7 K7.
  apply (Ropt_ext _ h6 h7) in K1; [|intros; now apply (R2l_ext h6)].
  apply (Ropt_ext _ h6 h7) in K2; [|intros; now apply (R2l_ext h6)].
  apply (Ropt_ext _ h6 h7) in K3; [|intros; now apply (R2l_ext h6)].
  apply (Ropt_ext _ h6 h7) in K4; [|intros; now apply (R2l_ext h6)].
  apply (Ropt_ext _ h6 h7) in K5; [|intros; now apply (R3_ext h6)].
  apply (Ropt_ext _ h6 h7) in K6; [|intros; now apply (R3_ext h6)].
  rewrite <- (rdarg_ext _ _ fa X7 Hf) in E8.
  pose proof (ext_len _ _ X7). apply (arg_ok_ext _ _ _ X7) in Hp, Hn, Hc, Hf.
  eapply hpost_bind; [eapply take_tensor_ok; eauto; lia|]. cbn beta. intros h8 fp' X8 K8.
  pose proof (ext_len _ _ X8).
  eapply hpost_bind with (P := fun h' m => ext h8 h' /\ okl h' m /\ ndata F h' m = num F s).
  { split; [apply ext_app|]. cbn. split; [apply ext_app|]. split; [apply okl_new; [lia|reflexivity]|apply ndata_new]. }
  intros h9 m _ [X9 [Km Rm']]. apply hpost_ret.
  assert (X79 : ext h7 h9) by (eapply ext_trans; eauto).
  apply (Ropt_ext _ h7 h9) in K1; [|intros; now apply (R2l_ext h7)].
  apply (Ropt_ext _ h7 h9) in K2; [|intros; now apply (R2l_ext h7)].
  apply (Ropt_ext _ h7 h9) in K3; [|intros; now apply (R2l_ext h7)].
  apply (Ropt_ext _ h7 h9) in K4; [|intros; now apply (R2l_ext h7)].
  apply (Ropt_ext _ h7 h9) in K5; [|intros; now apply (R3_ext h7)].
  apply (Ropt_ext _ h7 h9) in K6; [|intros; now apply (R3_ext h7)].
  apply (Ropt_ext _ h7 h9) in K7; [|intros; now apply (R3_ext h7)].
  apply (Ropt_ext _ h8 h9) in K8; [|intros; now apply (R3_ext h8)].
  pose proof (ext_len _ _ X9).
  split.
  - constructor; cbn; [lia| | |discriminate|exact Km|reflexivity].
    + intros a l E. destruct (opts_ok _ _ _ _ _ _ _ _ _ _ _ _ K1 K2 K3 K4 E) as [y [G _]]. exact G.
    + intros a l E. destruct (opts_ok _ _ _ _ _ _ _ _ _ _ _ _ K5 K6 K7 K8 E) as [y [G _]]. exact G.
  - rewrite Es. unfold StoreModel.abs. cbn [olst opad omask oflg onum obat onmax oequi option_map num bat nmax equi].
    rewrite Rm'. unfold qmap. cbn [qp qn qc qf].
    assert (G2 : forall x y, Ropt R2l h9 x y -> option_map (map (read2 h9)) x = y).
    { intros [x|] [y|]; cbn; intros K; try contradiction; [|reflexivity]. destruct K as [_ ->]. reflexivity. }
    assert (G3 : forall x y, Ropt R3 h9 x y -> option_map (read3 h9) x = y).
    { intros [x|] [y|]; cbn; intros K; try contradiction; [|reflexivity]. destruct K as [_ ->]. reflexivity. }
    now rewrite (G2 _ _ K1), (G2 _ _ K2), (G2 _ _ K3), (G2 _ _ K4), (G3 _ _ K5), (G3 _ _ K6), (G3 _ _ K7), (G3 _ _ K8).
Qed.

(* ---------------- for k in _INTERNAL_TENSORS ---------------- *)
Section TAKE.
Variable P : heap -> nat -> Prop.
Hypothesis P_ext : forall h h' l, ext h h' -> P h l -> P h' l.
Hypothesis P_lt : forall h l, P h l -> l < length h.
Definition Pfrom (h : heap) (o : obj) : Prop :=
  (forall a v, qget a (opad o) = Some v -> P h (v3l v)) /\ (forall m, omask o = Some m -> P h m) /\ P h (onum o).
Variable f3 : view3 -> MH view3.
Variable fc : nat -> MH nat.
Hypothesis f3_ok : forall h v, n0 <= length h -> P h (v3l v) ->
  hpost h (fun h' w => R3 h' w (read3 h v)) (f3 v h).
Hypothesis fc_ok : forall h l, n0 <= length h -> P h l ->
  hpost h (fun h' m => okl h' m /\ bdata F h' m = bdata F h l /\ ndata F h' m = ndata F h l) (fc l h).

Lemma omap3_ok h o : n0 <= length h -> (forall v, o = Some v -> P h (v3l v)) ->
  hpost h (fun h' w => Ropt R3 h' w (option_map (read3 h) o)) (omap f3 o h).
Proof.
  intros N H. destruct o as [v|]; cbn [omap option_map]; [|now apply hpost_ret].
  eapply hpost_bind; [apply f3_ok; auto|]. intros h1 w E K. now apply hpost_ret.
Qed.

Lemma or_else_ok {A B} (R : heap -> A -> B -> Prop) h x x' y y' :
  Ropt R h x x' -> (x' = None -> Ropt R h y y') -> Ropt R h (or_else x y) (or_else x' y').
Proof. destruct x, x'; cbn; auto; contradiction. Qed.

Lemma take_tensors_gen h from to :
  n0 <= length h -> Pfrom h from ->
  (forall a l, qget a (olst to) = Some l -> ok2 h l) ->
  (forall a v, qget a (opad to) = Some v -> qget a (opad from) = None -> okl h (v3l v)) ->
  (forall m, omask to = Some m -> omask from = None -> okl h m) ->
  odev to = dv ->
  hpost h (fun h' o => Robj h' o (copy_tensors F (abs h from) (abs h to))) (take_tensors F f3 fc from to h).
Proof.
  intros N [Hp [Hm Hn]] T1 T2 T3 T4. unfold take_tensors.
  pose proof (Hp Points) as Q1. pose proof (Hp Normals) as Q2. pose proof (Hp Colors) as Q3. pose proof (Hp Features) as Q4.
  cbn [qget] in Q1, Q2, Q3, Q4.
  assert (RE : forall h1, ext h h1 -> forall o, (forall v, o = Some v -> P h (v3l v)) ->
    option_map (read3 h1) o = option_map (read3 h) o /\ (forall v, o = Some v -> P h1 (v3l v))).
  { intros h1 E o H. split.
    - destruct o as [v|]; [|reflexivity]. cbn. f_equal. apply ext_read3; [exact E|]. apply P_lt, H. reflexivity.
    - intros v Ev. eapply P_ext; eauto. }
  eapply hpost_bind; [apply omap3_ok; auto|]. cbn beta. intros h1 pp X1 K1. pose proof (ext_len _ _ X1).
  destruct (RE _ X1 _ Q2) as [G2 Q2']. destruct (RE _ X1 _ Q3) as [G3 Q3']. destruct (RE _ X1 _ Q4) as [G4 Q4'].
  eapply hpost_bind; [apply omap3_ok; auto; lia|]. cbn beta. intros h2 np X2 K2. pose proof (ext_len _ _ X2).
  rewrite G2 in K2. assert (Y2 : ext h h2) by (eapply ext_trans; eauto).
  destruct (RE _ Y2 _ Q3) as [G3' Q3'']. destruct (RE _ Y2 _ Q4) as [_ _].
  eapply hpost_bind; [apply omap3_ok; auto; lia|]. cbn beta. intros h3 cp X3 K3. pose proof (ext_len _ _ X3).
  rewrite G3' in K3. assert (Y3 : ext h h3) by (eapply ext_trans; eauto).
  destruct (RE _ Y3 _ Q4) as [G4' Q4''].
  eapply hpost_bind; [apply omap3_ok; auto; lia|]. cbn beta. intros h4 fp X4 K4. pose proof (ext_len _ _ X4).
  rewrite G4' in K4. assert (Y4 : ext h h4) by (eapply ext_trans; eauto).
  eapply hpost_bind with (P := fun h' m => Ropt Rm h' m (option_map (bdata F h) (omask from))).
  { destruct (omask from) as [m|]; cbn [omap option_map]; [|now apply hpost_ret].
    assert (Pm : P h4 m) by (eapply P_ext; eauto).
    eapply hpost_bind; [apply fc_ok; [lia|exact Pm]|]. cbn beta. intros h5 m' E [A [B _]]. apply hpost_ret.
    split; [exact A|]. rewrite B. apply ext_bdata; [exact Y4|]. apply P_lt, Hm. reflexivity. }
  cbn beta. intros h5 m X5 K5. pose proof (ext_len _ _ X5).
  assert (Y5 : ext h h5) by (eapply ext_trans; eauto).
  eapply hpost_bind; [apply fc_ok; [lia|]; eapply P_ext; [exact Y5|exact Hn]|].
  cbn beta. intros h6 n X6 [Kn [_ Rn]]. pose proof (ext_len _ _ X6).
  assert (Y6 : ext h h6) by (eapply ext_trans; eauto).
  rewrite (ext_ndata _ _ _ Y5 (P_lt _ _ Hn)) in Rn.
  apply hpost_ret.
  assert (E16 : ext h1 h6) by (repeat (eapply ext_trans; [eassumption|]); apply ext_refl).
  assert (E26 : ext h2 h6) by (repeat (eapply ext_trans; [eassumption|]); apply ext_refl).
  assert (E36 : ext h3 h6) by (repeat (eapply ext_trans; [eassumption|]); apply ext_refl).
  assert (E46 : ext h4 h6) by (repeat (eapply ext_trans; [eassumption|]); apply ext_refl).
  apply (Ropt_ext _ _ h6) in K1; [|intros; now apply (R3_ext h1)].
  apply (Ropt_ext _ _ h6) in K2; [|intros; now apply (R3_ext h2)].
  apply (Ropt_ext _ _ h6) in K3; [|intros; now apply (R3_ext h3)].
  apply (Ropt_ext _ _ h6) in K4; [|intros; now apply (R3_ext h4)].
  apply (Ropt_ext _ _ h6) in K5.
  2:{ intros a b [A <-]. split; [exact (okl_ext h5 h6 a X6 A)|]. apply ext_bdata; [exact X6|apply A]. }
  assert (T3' : forall a, option_map (read3 h) (qget a (opad from)) = None ->
     Ropt R3 h6 (qget a (opad to)) (qget a (pad F (abs h to)))).
  { intros a Ha. rewrite abs_pad. destruct (qget a (opad to)) as [v|] eqn:Ev; cbn; [|exact I].
    apply (R3_ext h); [exact Y6|]. split; [|reflexivity]. eapply T2; eauto.
    destruct (qget a (opad from)); [discriminate|reflexivity]. }
  pose proof (or_else_ok _ _ _ _ _ _ K1 (T3' Points)) as J1.
  pose proof (or_else_ok _ _ _ _ _ _ K2 (T3' Normals)) as J2.
  pose proof (or_else_ok _ _ _ _ _ _ K3 (T3' Colors)) as J3.
  pose proof (or_else_ok _ _ _ _ _ _ K4 (T3' Features)) as J4.
  assert (J5 : Ropt Rm h6 (or_else m (omask to)) (or_else (mask F (abs h from)) (mask F (abs h to)))).
  { apply or_else_ok; [exact K5|]. cbn. intros Hf. destruct (omask to) as [x|] eqn:Ex; cbn; [|exact I].
    destruct (omask from) eqn:Ef; [discriminate|].
    pose proof (T3 x eq_refl eq_refl) as Kx. split; [exact (okl_ext h h6 x Y6 Kx)|].
    apply ext_bdata; [exact Y6|apply Kx]. }
  cbn [qget] in J1, J2, J3, J4.
  split.
  - constructor; cbn; [lia|intros a l E; eapply ok2_ext; [exact Y6|]; eapply T1; eauto| | |exact Kn|exact T4].
    + intros a v E. destruct (opts_ok _ _ _ _ _ _ _ _ _ _ _ _ J1 J2 J3 J4 E) as [y [G _]]. exact G.
    + intros x E. rewrite E in J5. clear - J5. unfold Ropt in J5.
      destruct (or_else _ _); [apply J5|contradiction].
  - unfold copy_tensors. unfold StoreModel.abs at 1. cbn [olst opad omask oflg onum obat onmax oequi].
    assert (G3x : forall x y, Ropt R3 h6 x y -> option_map (read3 h6) x = y).
    { intros [x|] [y|]; cbn; intros K; try contradiction; [|reflexivity]. destruct K as [_ ->]. reflexivity. }
    assert (Gm : forall x y, Ropt Rm h6 x y -> option_map (bdata F h6) x = y).
    { intros [x|] [y|]; cbn; intros K; try contradiction; [|reflexivity]. destruct K as [_ ->]. reflexivity. }
    unfold qmap at 2. cbn [qp qn qc qf].
    rewrite (G3x _ _ J1), (G3x _ _ J2), (G3x _ _ J3), (G3x _ _ J4), (Gm _ _ J5), Rn.
    f_equal. apply quad_ext. intros a. rewrite abs_lst, qget_qmap.
    destruct (qget a (olst to)) as [l|] eqn:El; [|reflexivity]. cbn. f_equal.
    eapply ok2_read; [exact Y6|]. eapply T1; eauto.
Qed.
Lemma take_tensors_ok h from to :
  n0 <= length h -> Pfrom h from -> ok h to ->
  hpost h (fun h' o => Robj h' o (copy_tensors F (abs h from) (abs h to))) (take_tensors F f3 fc from to h).
Proof.
  intros N Pf O. apply take_tensors_gen; auto.
  - apply O.
  - intros a v E _. eapply ok_pad; eauto.
  - intros m E _. eapply ok_mask; eauto.
  - apply O.
Qed.
End TAKE.

Lemma clone_cell_ok h l : n0 <= length h -> l < length h /\ devof F h l = dv ->
  hpost h (fun h' m => okl h' m /\ bdata F h' m = bdata F h l /\ ndata F h' m = ndata F h l) (clone_cell F l h).
Proof.
  intros N [L D]. unfold clone_cell, get, mbind at 1. destruct (nth_error h l) as [c|] eqn:E.
  2:{ apply nth_error_None in E. lia. }
  split; [apply ext_app|]. cbn. split.
  - apply okl_new; [exact N|]. unfold devof in D. now rewrite E in D.
  - unfold bdata, ndata. rewrite E, !nth_error_app2, Nat.sub_diag by lia. split; reflexivity.
Qed.
Lemma to_cell_ok h l : n0 <= length h -> l < length h /\ (devof F h l = dv -> own l) ->
  hpost h (fun h' m => okl h' m /\ bdata F h' m = bdata F h l /\ ndata F h' m = ndata F h l) (to_cell F dv l h).
Proof.
  intros N [L D]. unfold to_cell, get, mbind at 1. destruct (dev_eqb (devof F h l) dv) eqn:Ed.
  { apply dev_eqb_eq in Ed. apply hpost_ret. repeat split; auto. }
  destruct (nth_error h l) as [c|] eqn:E.
  2:{ apply nth_error_None in E. lia. }
  destruct c; (split; [apply ext_app|]; cbn; split; [apply okl_new; auto|]);
    unfold bdata, ndata; rewrite E, !nth_error_app2, Nat.sub_diag by lia; split; reflexivity.
Qed.

Lemma post_onh_res {A B} h o (R : heap -> A -> B -> Prop) (mh : MH A) r :
  ok h o -> hres h R (mh h) r -> post h R (onh F mh (h, o)) (lift r (abs h o)).
Proof.
  intros O [E H]. unfold onh. cbn [fst snd]. destruct (mh h) as [x h1]. cbn [fst snd] in *.
  split; [exact E|]. split; [eapply ok_ext; eauto|]. split; [eapply abs_ext; eauto|]. exact H.
Qed.

End SIM.
End ST.
