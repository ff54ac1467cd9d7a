(* append_points of two different objects refines the value-level model. *)
From Coq Require Import List Arith ZArith Bool Lia.
From Verif Require Import Res Fld StructUtilsModel StructUtilsProofs PointcloudsModel PointcloudsSpec
  PointcloudsProofs StoreModel StoreProofs StoreProofs2 StoreProofs3.
Import ListNotations.
Local Open Scope nat_scope.

Section ST.
Variable F : Fld.
Notation T2 := (t2 F).
Notation T3 := (t3 F).
Notation heap := (heap F).
Notation MO := (M (heap * obj)).
Notation MH := (M heap).
Notation read2 := (read2 F).
Notation read3 := (read3 F).
Notation abs := (abs F).
Notation ext := (ext F).
Notation world := (world F).

Section APP.
Variables own1 own2 : nat -> Prop.
Variable n0 : nat.
Variable dv : dev.
Hypothesis fresh1 : forall l, n0 <= l -> own1 l.
Hypothesis fresh2 : forall l, n0 <= l -> own2 l.
Variables i j : nat.
Hypothesis Nij : i <> j.
Variable os : list obj.
Hypothesis Li : i < length os.
Hypothesis Lj : j < length os.

Definition W h oi oj : world := mkW F h (upd i oi (upd j oj os)).
Lemma W_i h oi oj : nth_error (wobjs F (W h oi oj)) i = Some oi.
Proof.
  cbn. destruct (nth_error (upd j oj os) i) eqn:E; [eapply upd_same; exact E|].
  apply nth_error_None in E. rewrite upd_length in E. lia.
Qed.
Lemma W_j h oi oj : nth_error (wobjs F (W h oi oj)) j = Some oj.
Proof.
  cbn. rewrite upd_other by auto. destruct (nth_error os j) eqn:E; [eapply upd_same; exact E|].
  apply nth_error_None in E. lia.
Qed.
Lemma upd_upd {X} k (x y : X) l : upd k x (upd k y l) = upd k x l.
Proof. revert k. induction l as [|z l IH]; intros [|k]; cbn; auto. now rewrite IH. Qed.
Lemma upd_comm {X} k k' (x y : X) l : k <> k' -> upd k x (upd k' y l) = upd k' y (upd k x l).
Proof. revert k k'. induction l as [|z l IH]; intros [|k] [|k'] N; cbn; auto; [easy|]. now rewrite IH by auto. Qed.
Lemma at_i {A} (m : MO A) h oi oj : at_ F i m (W h oi oj) =
  let '(r, (h', o')) := m (h, oi) in (r, W h' o' oj).
Proof.
  unfold at_. rewrite W_i. cbn [wheap wobjs W]. destruct (m (h, oi)) as [r [h' o']]. unfold W. now rewrite upd_upd.
Qed.
Lemma at_j {A} (m : MO A) h oi oj : at_ F j m (W h oi oj) =
  let '(r, (h', o')) := m (h, oj) in (r, W h' oi o').
Proof.
  unfold at_. rewrite W_j. cbn [wheap wobjs W]. destruct (m (h, oj)) as [r [h' o']]. unfold W.
  now rewrite (upd_comm j i), upd_upd by auto.
Qed.

Definition post2 {A B} (h : heap) (R : heap -> A -> B -> Prop) (x : res A * world) (y : res B * (pc F * pc F)) : Prop :=
  exists h' oi oj, snd x = W h' oi oj /\ ext h h' /\ ok F own1 n0 dv h' oi /\ ok F own2 n0 dv h' oj /\
    snd y = (abs h' oi, abs h' oj) /\
    match fst x, fst y with Ok a, Ok b => R h' a b | Err e, Err e' => e = e' | _, _ => False end.

Lemma p2_bind {A B A' B'} h oi oj (R : heap -> A -> B -> Prop) (R' : heap -> A' -> B' -> Prop)
    (mh : M world A) (m : M2 F B) (kh : A -> M world A') (k : B -> M2 F B') :
  post2 h R (mh (W h oi oj)) (m (abs h oi, abs h oj)) ->
  (forall h1 oi oj a b, ext h h1 -> ok F own1 n0 dv h1 oi -> ok F own2 n0 dv h1 oj -> R h1 a b ->
     post2 h1 R' (kh a (W h1 oi oj)) (k b (abs h1 oi, abs h1 oj))) ->
  post2 h R' (mbind mh kh (W h oi oj)) (mbind m k (abs h oi, abs h oj)).
Proof.
  intros (h1 & o1 & o2 & E & X & O1 & O2 & S & H) K. unfold mbind.
  destruct (mh (W h oi oj)) as [r w]. destruct (m (abs h oi, abs h oj)) as [r' s]. cbn [fst snd] in *. subst w s.
  destruct r as [a|e], r' as [b|e']; try contradiction.
  - destruct (K h1 o1 o2 a b X O1 O2 H) as (h2 & o3 & o4 & E2 & X2 & P). exists h2, o3, o4.
    split; [exact E2|]. split; [eapply ext_trans; eauto|exact P].
  - exists h1, o1, o2. auto 7.
Qed.
Lemma p2_on1 {A B} h oi oj (R : heap -> A -> B -> Prop) (m : MO A) (f : M (pc F) B) :
  ok F own2 n0 dv h oj ->
  post F own1 n0 dv h R (m (h, oi)) (f (abs h oi)) ->
  post2 h R (at_ F i m (W h oi oj)) (on1 F f (abs h oi, abs h oj)).
Proof.
  intros O2 (X & O1 & S & H). rewrite at_i. unfold on1. cbn [fst snd].
  destruct (m (h, oi)) as [r [h1 o1]]. destruct (f (abs h oi)) as [r' s]. cbn [fst snd] in *. subst s.
  exists h1, o1, oj. split; [reflexivity|]. split; [exact X|]. split; [exact O1|].
  split; [eapply ok_ext; eauto|]. split; [|exact H]. cbn. f_equal. symmetry. eapply abs_ext; eauto.
Qed.
Lemma p2_on2 {A B} h oi oj (R : heap -> A -> B -> Prop) (m : MO A) (f : M (pc F) B) :
  ok F own1 n0 dv h oi ->
  post F own2 n0 dv h R (m (h, oj)) (f (abs h oj)) ->
  post2 h R (at_ F j m (W h oi oj)) (on2 F f (abs h oi, abs h oj)).
Proof.
  intros O2 (X & O1 & S & H). rewrite at_j. unfold on2. cbn [fst snd].
  destruct (m (h, oj)) as [r [h1 o1]]. destruct (f (abs h oj)) as [r' s]. cbn [fst snd] in *. subst s.
  exists h1, oi, o1. split; [reflexivity|]. split; [exact X|].
  split; [eapply ok_ext; eauto|]. split; [exact O1|]. split; [|exact H]. cbn. f_equal. symmetry. eapply abs_ext; eauto.
Qed.
Lemma p2_ret {A B} h oi oj (R : heap -> A -> B -> Prop) a b :
  ok F own1 n0 dv h oi -> ok F own2 n0 dv h oj -> R h a b ->
  post2 h R (ret a (W h oi oj)) (ret b (abs h oi, abs h oj)).
Proof. intros. exists h, oi, oj. cbn. auto 9 using ext_refl. Qed.
Lemma p2_raise {A B} h oi oj (R : heap -> A -> B -> Prop) e :
  ok F own1 n0 dv h oi -> ok F own2 n0 dv h oj ->
  post2 h R (raise e (W h oi oj)) (raise e (abs h oi, abs h oj)).
Proof. intros. exists h, oi, oj. cbn. auto 9 using ext_refl. Qed.
Lemma p2_geti {A} h oi oj (k : obj -> M world A) : mbind (at_ F i (geto F)) k (W h oi oj) = k oi (W h oi oj).
Proof. unfold mbind. rewrite at_i. reflexivity. Qed.
Lemma p2_getj {A} h oi oj (k : obj -> M world A) : mbind (at_ F j (geto F)) k (W h oi oj) = k oj (W h oi oj).
Proof. unfold mbind. rewrite at_j. reflexivity. Qed.
Lemma p2_heap {A} h oi oj (k : heap -> M world A) : mbind (at_ F i (geth F)) k (W h oi oj) = k h (W h oi oj).
Proof. unfold mbind. rewrite at_i. reflexivity. Qed.
Lemma p2_alloc {A B C} h oi oj (P : heap -> A -> Prop) (R : heap -> B -> C -> Prop) (m : MH A) k y :
  hpost F h P (m h) ->
  (forall h1 a, ext h h1 -> P h1 a -> post2 h1 R (k a (W h1 oi oj)) y) ->
  post2 h R (mbind (at_ F i (onh F m)) k (W h oi oj)) y.
Proof.
  intros [X H] K. unfold mbind. rewrite at_i. unfold onh. cbn [fst snd]. destruct (m h) as [r h1]. cbn [fst snd] in *.
  destruct r as [a|]; [|contradiction]. destruct (K h1 a X H) as (h2 & o1 & o2 & E & X2 & Q).
  exists h2, o1, o2. split; [exact E|]. split; [eapply ext_trans; eauto|exact Q].
Qed.
Lemma p2_has1 h oi oj a : ok F own1 n0 dv h oi -> ok F own2 n0 dv h oj ->
  post2 h (Reqv F) (at_ F i (hhas F a) (W h oi oj)) (on1 F (has F a) (abs h oi, abs h oj)).
Proof. intros. apply p2_on1; [assumption|now apply hhas_ok]. Qed.
Lemma p2_has2 h oi oj a : ok F own1 n0 dv h oi -> ok F own2 n0 dv h oj ->
  post2 h (Reqv F) (at_ F j (hhas F a) (W h oi oj)) (on2 F (has F a) (abs h oi, abs h oj)).
Proof. intros. apply p2_on2; [assumption|now apply hhas_ok]. Qed.

Lemma p2_set h oi oj a v x :
  ok F own1 n0 dv h oi -> ok F own2 n0 dv h oj -> R2l F own1 dv h v x ->
  post2 h (Reqv F) (at_ F i (modo F (oset_lst a (Some v))) (W h oi oj)) (on1 F (modify (set_lst F a (Some x))) (abs h oi, abs h oj)).
Proof.
  intros O1 O2 [K <-]. apply p2_on1; [exact O2|]. apply post_modo; [|apply abs_set_lst|reflexivity].
  apply ok_set_lst; [exact O1|]. now intros l [= <-].
Qed.
Lemma p2_pad h oi oj a :
  ok F own1 n0 dv h oi -> ok F own2 n0 dv h oj ->
  post2 h (Reqv F) (at_ F i (modo F (oset_pad a None)) (W h oi oj)) (on1 F (modify (set_pad F a None)) (abs h oi, abs h oj)).
Proof.
  intros O1 O2. apply p2_on1; [exact O2|]. apply post_modo; [|apply abs_set_pad|reflexivity].
  apply ok_set_pad; [exact O1|]. discriminate.
Qed.

Lemma mmap_alloc_ok : forall (l : list T2) h, n0 <= length h -> Forall t2wf l ->
  hpost F h (fun h' vs => R2l F own1 dv h' vs l) (mmap (alloc2 F dv) l h).
Proof.
  induction l as [|x l IH]; intros h N K; [apply hpost_ret; split; [constructor|reflexivity]|].
  inversion K as [|? ? K1 K2]; subst. cbn [mmap].
  eapply hpost_bind; [apply (alloc2_ok F own1 n0 dv fresh1); auto|]. intros h1 v X [O E]. pose proof (ext_len _ _ _ X).
  eapply hpost_bind; [apply IH; [lia|exact K2]|].
  intros h2 vs X2 [O2 E2]. apply hpost_ret. split.
  - constructor; [eapply okl_ext; eauto|exact O2].
  - cbn. f_equal; [|exact E2]. rewrite <- E. apply ext_read2; [exact X2|apply O].
Qed.

Lemma p2_append h oi oj a :
  ok F own1 n0 dv h oi -> ok F own2 n0 dv h oj ->
  post2 h (Reqv F) (happend_attr F a i j (W h oi oj)) (append_attr F a (abs h oi, abs h oj)).
Proof.
  intros O1 O2. unfold happend_attr, append_attr.
  eapply p2_bind; [apply p2_on1; [exact O2|now apply hget_list_ok]|].
  intros h1 oi1 oj1 x x' X1 Oi1 Oj1 K1.
  eapply p2_bind; [apply p2_on2; [exact Oi1|now apply hget_list_ok]|].
  intros h2 oi2 oj2 y y' X2 Oi2 Oj2 K2.
  rewrite p2_geti, p2_heap.
  apply (Ropt_ext F _ _ h2) in K1; [|intros; now apply (R2l_ext F own1 dv h1)].
  change (post2 h2 (Reqv F)
    (match x, y with
     | Some x, Some y =>
      (do l <- lift (cat_lists F (obat oi2) (map (read2 h2) x) (map (read2 h2) y));
       do l' <- at_ F i (onh F (mmap (alloc2 F (list_dev F h2 x)) l));
       at_ F i (modo F (oset_lst a (Some l'))) ;;; at_ F i (modo F (oset_pad a None)))
     | _, _ => if obat oi2 =? 0
            then at_ F i (modo F (oset_lst a (Some []))) ;;; at_ F i (modo F (oset_pad a None))
            else raise TypeError
     end (W h2 oi2 oj2))
    (match x', y' with
     | Some x, Some y => (do l <- lift (cat_lists F (obat oi2) x y);
          on1 F (modify (set_lst F a (Some l))) ;;; on1 F (modify (set_pad F a None)))
     | _, _ => if obat oi2 =? 0
            then on1 F (modify (set_lst F a (Some []))) ;;; on1 F (modify (set_pad F a None))
            else raise TypeError
     end (abs h2 oi2, abs h2 oj2))).
  assert (Z : forall h oi oj v z, ok F own1 n0 dv h oi -> ok F own2 n0 dv h oj -> R2l F own1 dv h v z ->
    post2 h (Reqv F) ((at_ F i (modo F (oset_lst a (Some v))) ;;; at_ F i (modo F (oset_pad a None))) (W h oi oj))
       ((on1 F (modify (set_lst F a (Some z))) ;;; on1 F (modify (set_pad F a None))) (abs h oi, abs h oj))).
  { intros. eapply p2_bind; [apply p2_set; eauto|]. intros. now apply p2_pad. }
  assert (ZE : post2 h2 (Reqv F)
     ((if obat oi2 =? 0 then at_ F i (modo F (oset_lst a (Some []))) ;;; at_ F i (modo F (oset_pad a None))
            else raise TypeError) (W h2 oi2 oj2))
     ((if obat oi2 =? 0 then on1 F (modify (set_lst F a (Some []))) ;;; on1 F (modify (set_pad F a None))
            else raise TypeError) (abs h2 oi2, abs h2 oj2))).
  { destruct (obat oi2 =? 0); [|now apply p2_raise]. apply Z; auto. split; [constructor|reflexivity]. }
  destruct x as [x|], x' as [x'|]; try contradiction; [|exact ZE].
  destruct y as [y|], y' as [y'|]; try contradiction; [|exact ZE].
  destruct K1 as [Kx <-]. destruct K2 as [Ky <-].
  destruct (cat_lists F (obat oi2) (map (read2 h2) x) (map (read2 h2) y)) as [l|e] eqn:El.
  2:{ exists h2, oi2, oj2. cbn. auto 8 using ext_refl. }
  change (post2 h2 (Reqv F)
    ((do l' <- at_ F i (onh F (mmap (alloc2 F (list_dev F h2 x)) l));
       at_ F i (modo F (oset_lst a (Some l'))) ;;; at_ F i (modo F (oset_pad a None))) (W h2 oi2 oj2))
    ((on1 F (modify (set_lst F a (Some l))) ;;; on1 F (modify (set_pad F a None))) (abs h2 oi2, abs h2 oj2))).
  apply p2_alloc with (P := fun h v => R2l F own1 dv h v l).
  - destruct x as [|v x].
    + assert (l = []) as ->.
      { unfold cat_lists in El. cbn in El. destruct (obat oi2); cbn in El; [now injection El|discriminate]. }
      apply hpost_ret. split; [constructor|reflexivity].
    + assert (D : list_dev F h2 (v :: x) = dv) by (apply Forall_inv in Kx; apply Kx). rewrite D.
      apply mmap_alloc_ok; [apply Oi2|]. eapply cat_lists_wf; [| |exact El]; apply reads_wf.
  - intros h3 v X3 K3. rewrite <- (abs_ext F own1 n0 dv _ _ _ X3 Oi2), <- (abs_ext F own2 n0 dv _ _ _ X3 Oj2).
    apply Z; auto; eapply ok_ext; eauto.
Qed.

Lemma mcopy_ok d : d = dv -> forall l h, n0 <= length h -> Forall (fun v => v2l v < length h) l ->
  hpost F h (fun h' vs => R2l F own1 dv h' vs (map (read2 h) l)) (mmap (fun v => do c <- clone2 F v; to2 F d c) l h).
Proof.
  intros -> l h N K. apply mmap_ok with (n0 := n0) (pre := fun h v => v2l v < length h); auto.
  - intros h1 h2 v E L. pose proof (ext_len _ _ _ E). lia.
  - intros h1 v N1 P1. now apply (copy2_ok F own1 n0 dv).
Qed.

Lemma p2_copy h oi oj a :
  ok F own1 n0 dv h oi -> ok F own2 n0 dv h oj ->
  post2 h (Reqv F) (hcopy_attr F a i j (W h oi oj)) (copy_attr F a (abs h oi, abs h oj)).
Proof.
  intros O1 O2. unfold hcopy_attr, copy_attr.
  eapply p2_bind; [apply p2_on2; [exact O1|now apply hget_list_ok]|].
  intros h1 oi1 oj1 y y' X1 Oi1 Oj1 K. destruct y as [y|], y' as [y'|]; try contradiction; [|now apply p2_raise].
  destruct K as [K <-]. rewrite p2_geti.
  apply p2_alloc with (P := fun h v => R2l F own1 dv h v (map (read2 h1) y)).
  - apply mcopy_ok; [apply Oi1|apply Oi1|]. eapply Forall_impl; [|exact K]. now intros v [L _].
  - intros h3 v X3 K3. rewrite <- (abs_ext F own1 n0 dv _ _ _ X3 Oi1), <- (abs_ext F own2 n0 dv _ _ _ X3 Oj1).
    apply p2_set; auto; eapply ok_ext; eauto.
Qed.

Lemma p2_opt1 h oi oj a (m : M world unit) f :
  ok F own1 n0 dv h oi -> ok F own2 n0 dv h oj ->
  (forall h oi oj, ok F own1 n0 dv h oi -> ok F own2 n0 dv h oj -> post2 h (Reqv F) (m (W h oi oj)) (f (abs h oi, abs h oj))) ->
  post2 h (Reqv F) ((do b <- at_ F i (hhas F a); if b then m else ret tt) (W h oi oj))
     ((do b <- on1 F (has F a); if b then f else ret tt) (abs h oi, abs h oj)).
Proof.
  intros O1 O2 H. eapply p2_bind; [now apply p2_has1|]. intros h1 o1 o2 b b' X Q1 Q2 <-.
  destruct b; [now apply H|now apply p2_ret].
Qed.
Lemma p2_opt2 h oi oj a (m : M world unit) f :
  ok F own1 n0 dv h oi -> ok F own2 n0 dv h oj ->
  (forall h oi oj, ok F own1 n0 dv h oi -> ok F own2 n0 dv h oj -> post2 h (Reqv F) (m (W h oi oj)) (f (abs h oi, abs h oj))) ->
  post2 h (Reqv F) ((do b <- at_ F j (hhas F a); if b then m else ret tt) (W h oi oj))
     ((do b <- on2 F (has F a); if b then f else ret tt) (abs h oi, abs h oj)).
Proof.
  intros O1 O2 H. eapply p2_bind; [now apply p2_has2|]. intros h1 o1 o2 b b' X Q1 Q2 <-.
  destruct b; [now apply H|now apply p2_ret].
Qed.

(* p.append_points(q), q another object on the same device *)
Lemma happend_ok h oi oj :
  ok F own1 n0 dv h oi -> ok F own2 n0 dv h oj ->
  post2 h (Reqv F) (happend_points F i j (W h oi oj)) (append_points F (abs h oi, abs h oj)).
Proof.
  intros O1 O2. unfold happend_points, append_points. rewrite p2_geti, p2_getj.
  rewrite (ok_dev _ _ _ _ _ _ O1), (ok_dev _ _ _ _ _ _ O2).
  rewrite (proj2 (dev_eqb_eq dv dv) eq_refl). cbn [negb].
  eapply p2_bind; [now apply p2_has2|]. intros h1 o1 o2 b ? X1 Q1 Q2 <-.
  destruct (negb b); [now apply p2_ret|].
  eapply p2_bind; [now apply p2_has1|]. clear b. intros h2 o3 o4 b ? X2 Q3 Q4 <-.
  destruct (negb b).
  { eapply p2_bind; [now apply p2_copy|]. intros h3 o5 o6 ? ? X3 Q5 Q6 _.
    eapply p2_bind; [apply p2_opt2; auto using p2_copy|]. intros h4 o7 o8 ? ? X4 Q7 Q8 _.
    eapply p2_bind; [apply p2_opt2; auto using p2_copy|]. intros h5 o9 o10 ? ? X5 Q9 Q10 _.
    eapply p2_bind; [apply p2_opt2; auto using p2_copy|]. intros h6 o11 o12 ? ? X6 Q11 Q12 _.
    rewrite p2_getj, p2_geti.
    set (to := mkO (olst o11) (opad o11) (omask o11) (oflg o12) (onum o11) (obat o12) (onmax o12) (oequi o12) (odev o11)).
    change (post2 h6 (Reqv F)
      ((do s' <- at_ F i (onh F (take_tensors F (clone3 F) (clone_cell F) o12 to));
        at_ F i (modo F (fun _ => s'))) (W h6 o11 o12))
      (Ok tt, (copy_tensors F (abs h6 o12) (abs h6 to), abs h6 o12))).
    apply p2_alloc with (P := fun h r => Robj F own1 n0 dv h r (copy_tensors F (abs h6 o12) (abs h6 to))).
    - apply take_tensors_ok with (P := Pclone F dv); auto.
      + apply Pclone_ext.
      + now intros h' l [].
      + intros h' v N' P'. now apply (clone3_ok F own1 n0 dv fresh1).
      + intros h' v N' P'. now apply (clone_cell_ok F own1 n0 dv fresh1).
      + apply Q11.
      + now apply (ok_Pfrom F own2 n0 dv).
      + destruct Q11. now constructor.
    - intros h7 r X7 [Or Er]. unfold mbind. rewrite at_i. cbn.
      exists h7, r, o12. split; [reflexivity|]. split; [apply ext_refl|]. split; [exact Or|].
      split; [eapply ok_ext; eauto|]. split; [|reflexivity]. cbn [snd]. rewrite Er.
      f_equal. symmetry. eapply abs_ext; eauto. }
  rewrite p2_geti, p2_getj.
  change (post2 h2 (Reqv F)
    ((if negb (obat o4 =? obat o3) then raise ValueError else
  do n1 <- at_ F i (hhas F Normals); do n2 <- at_ F j (hhas F Normals);
  if negb (eqb n1 n2) then raise ValueError
  else
  do c1 <- at_ F i (hhas F Colors); do c2 <- at_ F j (hhas F Colors);
  if negb (eqb c1 c2) then raise ValueError
  else
  do g1 <- at_ F i (hhas F Features); do g2 <- at_ F j (hhas F Features);
  if negb (eqb g1 g2) then raise ValueError
  else
  (if g1 then
     do w1 <- at_ F i (hnum_features F); do w2 <- at_ F j (hnum_features F);
     match w1, w2 with
     | Some w1, Some w2 => if w1 =? w2 then ret tt else raise ValueError
     | None, None => ret tt
     | _, _ => raise ValueError
     end
   else ret tt) ;;;
  happend_attr F Points i j ;;;
  (do h <- at_ F i (hhas F Normals); if h then happend_attr F Normals i j else ret tt) ;;;
  (do h <- at_ F i (hhas F Colors); if h then happend_attr F Colors i j else ret tt) ;;;
  (do h <- at_ F i (hhas F Features); if h then happend_attr F Features i j else ret tt) ;;;
  do s <- at_ F i (geto F); do o <- at_ F j (geto F); do h <- at_ F i (geth F);
  do ns <- lift (add_counts (ndata F h (onum s)) (ndata F h (onum o)));
  do n <- at_ F i (onh F (alloc F (CN F (devof F h (onum s)) ns)));
  at_ F i (modo F (fun s => owith_mask None
         (owith_dims n (obat s) (max_list ns) (Some (all_equal ns)) s)))) (W h2 o3 o4))
   ((if negb (obat o4 =? obat o3) then raise ValueError else
  do n1 <- on1 F (has F Normals); do n2 <- on2 F (has F Normals);
  if negb (eqb n1 n2) then raise ValueError
  else
  do c1 <- on1 F (has F Colors); do c2 <- on2 F (has F Colors);
  if negb (eqb c1 c2) then raise ValueError
  else
  do g1 <- on1 F (has F Features); do g2 <- on2 F (has F Features);
  if negb (eqb g1 g2) then raise ValueError
  else
  (if g1 then
     do w1 <- on1 F (num_features F); do w2 <- on2 F (num_features F);
     match w1, w2 with
     | Some w1, Some w2 => if w1 =? w2 then ret tt else raise ValueError
     | None, None => ret tt
     | _, _ => raise ValueError
     end
   else ret tt) ;;;
  append_attr F Points ;;;
  (do h <- on1 F (has F Normals); if h then append_attr F Normals else ret tt) ;;;
  (do h <- on1 F (has F Colors); if h then append_attr F Colors else ret tt) ;;;
  (do h <- on1 F (has F Features); if h then append_attr F Features else ret tt) ;;;
  do s <- on1 F get; do o <- on2 F get;
  do ns <- lift (add_counts (num F s) (num F o));
  on1 F (modify (fun s => with_mask F None
         (with_dims F ns (bat F s) (max_list ns) (Some (all_equal ns)) s)))) (abs h2 o3, abs h2 o4))).
  destruct (negb _); [now apply p2_raise|].
  eapply p2_bind; [now apply p2_has1|]. clear b. intros h3 o5 o6 n ? X3 Q5 Q6 <-.
  eapply p2_bind; [now apply p2_has2|]. intros h4 o7 o8 n' ? X4 Q7 Q8 <-.
  destruct (negb _); [now apply p2_raise|].
  eapply p2_bind; [now apply p2_has1|]. intros h5 o9 o10 c ? X5 Q9 Q10 <-.
  eapply p2_bind; [now apply p2_has2|]. intros h6 o11 o12 c' ? X6 Q11 Q12 <-.
  destruct (negb _); [now apply p2_raise|].
  eapply p2_bind; [now apply p2_has1|]. intros h7 o13 o14 g ? X7 Q13 Q14 <-.
  eapply p2_bind; [now apply p2_has2|]. intros h8 o15 o16 g' ? X8 Q15 Q16 <-.
  destruct (negb _); [now apply p2_raise|].
  eapply p2_bind with (R := Reqv F).
  { destruct g; [|now apply p2_ret].
    eapply p2_bind; [apply p2_on1; [exact Q16|now apply hnum_features_ok]|]. intros h9 o17 o18 x ? X9 Q17 Q18 <-.
    eapply p2_bind; [apply p2_on2; [exact Q17|now apply hnum_features_ok]|]. intros h10 o19 o20 y ? X10 Q19 Q20 <-.
    destruct x as [x|], y as [y|]; try (now apply p2_raise); [|now apply p2_ret].
    destruct (x =? y); [now apply p2_ret|now apply p2_raise]. }
  intros h9 o17 o18 ? ? X9 Q17 Q18 _.
  eapply p2_bind; [now apply p2_append|]. intros h10 o19 o20 ? ? X10 Q19 Q20 _.
  eapply p2_bind; [apply p2_opt1; auto using p2_append|]. intros h11 o21 o22 ? ? X11 Q21 Q22 _.
  eapply p2_bind; [apply p2_opt1; auto using p2_append|]. intros h12 o23 o24 ? ? X12 Q23 Q24 _.
  eapply p2_bind; [apply p2_opt1; auto using p2_append|]. intros h13 o25 o26 ? ? X13 Q25 Q26 _.
  rewrite p2_geti, p2_getj, p2_heap.
  change (post2 h13 (Reqv F)
   ((do ns <- lift (add_counts (ndata F h13 (onum o25)) (ndata F h13 (onum o26)));
     do n <- at_ F i (onh F (alloc F (CN F (devof F h13 (onum o25)) ns)));
     at_ F i (modo F (fun s => owith_mask None
         (owith_dims n (obat s) (max_list ns) (Some (all_equal ns)) s)))) (W h13 o25 o26))
   ((do ns <- lift (add_counts (ndata F h13 (onum o25)) (ndata F h13 (onum o26)));
     on1 F (modify (fun s => with_mask F None
         (with_dims F ns (bat F s) (max_list ns) (Some (all_equal ns)) s)))) (abs h13 o25, abs h13 o26))).
  destruct (add_counts _ _) as [ns|e].
  2:{ exists h13, o25, o26. cbn. auto 8 using ext_refl. }
  change (post2 h13 (Reqv F)
   ((do n <- at_ F i (onh F (alloc F (CN F (devof F h13 (onum o25)) ns)));
     at_ F i (modo F (fun s => owith_mask None
         (owith_dims n (obat s) (max_list ns) (Some (all_equal ns)) s)))) (W h13 o25 o26))
   (Ok tt, (with_mask F None (with_dims F ns (obat o25) (max_list ns) (Some (all_equal ns)) (abs h13 o25)), abs h13 o26))).
  assert (D : devof F h13 (onum o25) = dv) by (eapply ok_num; exact Q25). rewrite D.
  apply p2_alloc with (P := fun h n => okl F own1 dv h n /\ ndata F h n = ns).
  - split; [apply ext_app|]. cbn. split; [|apply ndata_new]. apply (okl_new F own1 n0 dv fresh1); [apply Q25|reflexivity].
  - intros h14 n2 X14 [On En]. unfold mbind. rewrite at_i. cbn.
    eexists h14, _, o26. split; [reflexivity|]. split; [apply ext_refl|].
    assert (Q25' : ok F own1 n0 dv h14 o25) by (eapply ok_ext; eauto).
    split; [destruct Q25'; constructor; auto; cbn; discriminate|].
    split; [eapply ok_ext; eauto|]. split; [|reflexivity]. cbn. f_equal; [|symmetry; eapply abs_ext; eauto].
    rewrite <- (abs_ext F own1 n0 dv _ _ _ X14 Q25). unfold with_mask, with_dims, StoreModel.abs. cbn. now rewrite En.
Qed.

(* on different devices append_points raises before touching anything *)
End APP.
End ST.
