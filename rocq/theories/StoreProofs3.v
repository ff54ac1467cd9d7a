(* Refinement of the out-of-place operations and of indexing; append_points. *)
From Coq Require Import List Arith ZArith Bool Lia.
From Verif Require Import Res Fld StructUtilsModel StructUtilsProofs PointcloudsModel PointcloudsSpec
  PointcloudsProofs StoreModel StoreProofs StoreProofs2.
Import ListNotations.
Local Open Scope nat_scope.

Section ST.
Variable F : Fld.
Notation T2 := (t2 F).
Notation T3 := (t3 F).
Notation heap := (heap F).
Notation MO := (M (heap * obj)).
Notation MH := (M heap).
Notation read2 := (read2 F).
Notation read3 := (read3 F).
Notation abs := (abs F).
Notation ext := (ext F).
Notation world := (world F).

(* an in-place operation refines its value-level counterpart, whoever owns the storages *)
Definition refines (op : MO unit) (f : M (pc F) unit) : Prop :=
  forall (own : nat -> Prop) n0 dv, (forall l, n0 <= l -> own l) ->
  forall h o, ok F own n0 dv h o -> post F own n0 dv h (Reqv F) (op (h, o)) (f (abs h o)).

Section ONE.
Variable own : nat -> Prop.
Variables n0 n1 : nat.
Variable dv : dev.
Hypothesis own_fresh : forall l, n0 <= l -> own l.
Notation own1 := (freshown n1).

Lemma hout_of_place_ok op f h o :
  refines op f -> ok F own n0 dv h o -> n1 <= length h ->
  post F own n0 dv h (Robj F own1 n1 dv) (hout_of_place F op (h, o)) (out_of_place F f (abs h o)).
Proof.
  intros Rf O N. unfold hout_of_place, out_of_place.
  eapply post_bind; [apply hclone_ok; eauto|].
  intros h1 o1 other s E O1 [Oo <-]. cbn [fst snd]. pose proof (ext_len _ _ _ E).
  destruct (Rf own1 n1 dv (fun l H => H) h1 other Oo) as (X & O2 & A2 & HR).
  destruct (op (h1, other)) as [r [h2 other']]. destruct (f (abs h1 other)) as [r' s']. cbn [fst snd] in *.
  assert (E1 : abs h2 o1 = abs h1 o1) by (eapply abs_ext; eauto).
  assert (Ok2 : ok F own n0 dv h2 o1) by (eapply ok_ext; eauto).
  destruct r as [u|e], r' as [u'|e']; try contradiction.
  - split; [exact X|]. split; [exact Ok2|]. split; [exact E1|]. split; [exact O2|exact A2].
  - subst e'. split; [exact X|]. split; [exact Ok2|]. split; [exact E1|reflexivity].
Qed.

Lemma py_nth_map {X Y} (f : X -> Y) l z :
  py_nth (map f l) z = match py_nth l z with Ok x => Ok (f x) | Err e => Err e end.
Proof.
  unfold py_nth. rewrite map_length.
  destruct ((0 <=? (if (z <? 0)%Z then (z + Z.of_nat (length l))%Z else z))%Z &&
            ((if (z <? 0)%Z then (z + Z.of_nat (length l))%Z else z) <? Z.of_nat (length l))%Z); [|reflexivity].
  rewrite nth_error_map. now destruct (nth_error l _).
Qed.
Lemma py_nth_in {X} (l : list X) z x : py_nth l z = Ok x -> In x l.
Proof.
  unfold py_nth. destruct (_ && _)%bool; [|discriminate].
  destruct (nth_error l _) eqn:E; [|discriminate]. intros [= <-]. eapply nth_error_In; eauto.
Qed.
Lemma mapM_py_nth {X Y} (f : X -> Y) l zs :
  mapM (py_nth (map f l)) zs = match mapM (py_nth l) zs with Ok r => Ok (map f r) | Err e => Err e end.
Proof.
  induction zs as [|z zs IH]; [reflexivity|]. cbn. rewrite py_nth_map.
  destruct (py_nth l z); [|reflexivity]. cbn. rewrite IH. now destruct (mapM (py_nth l) zs).
Qed.
Lemma mapM_py_in {X} (l : list X) zs r : mapM (py_nth l) zs = Ok r -> incl r l.
Proof.
  revert r. induction zs as [|z zs IH]; intros r; cbn; [intros [= <-]; easy|].
  destruct (py_nth l z) as [x|] eqn:E; [|discriminate]. cbn.
  destruct (mapM (py_nth l) zs) as [r'|]; [|discriminate]. intros [= <-] y [ <- | Hy ].
  - eapply py_nth_in; eauto.
  - now apply (IH r').
Qed.
Lemma hselect_ok h ix l : ok2 F own dv h l ->
  match hselect ix l, select F ix (map (read2 h) l) with
  | Ok v, Ok x => R2l F own dv h v x
  | Err e, Err e' => e = e'
  | _, _ => False
  end.
Proof.
  intros K. unfold hselect, select. rewrite map_length. destruct (select_idx ix (length l)) as [zs|]; [|reflexivity].
  cbn. rewrite mapM_py_nth. destruct (mapM (py_nth l) zs) as [r|] eqn:E; [|reflexivity].
  split; [|reflexivity]. apply mapM_py_in in E. unfold ok2 in *. rewrite Forall_forall in *. auto.
Qed.

Definition Rsome (h : heap) (p : option (list view2)) (x : option (list T2)) : Prop :=
  Ropt F (R2l F own dv) h p x /\ p <> None.
Lemma hgetitem_attr_ok h o a ix : ok F own n0 dv h o ->
  post F own n0 dv h Rsome (hgetitem_attr F a ix (h, o)) (getitem_attr F a ix (abs h o)).
Proof.
  intros O. unfold hgetitem_attr, getitem_attr.
  eapply post_bind; [apply hget_list_ok; eauto|].
  intros h1 o1 l x E O1 K. destruct l as [l|], x as [x|]; cbn in K; try contradiction; [|now apply post_raise].
  destruct K as [K <-].
  eapply post_bind with (R := R2l F own dv).
  - apply post_lift; [exact O1|]. now apply hselect_ok.
  - intros h2 o2 v y E2 O2 K2. apply post_ret; [exact O2|]. split; [exact K2|discriminate].
Qed.

Lemma hgetitem_opt_ok h o a ix : ok F own n0 dv h o ->
  post F own n0 dv h (Ropt F (R2l F own dv))
    ((do b <- hhas F a; if b then hgetitem_attr F a ix else ret None) (h, o))
    ((do b <- has F a; if b then getitem_attr F a ix else ret None) (abs h o)).
Proof.
  intros O. eapply post_bind; [apply hhas_ok; eauto|].
  intros h1 o1 b b' E O1 <-. destruct b; [|now apply post_ret].
  eapply post_weaken; [now apply hgetitem_attr_ok|]. now intros h' p x _ [K _].
Qed.

Lemma hgetitem_ok h o ix : ok F own n0 dv h o ->
  post F own n0 dv h (Robj F own n0 dv) (hgetitem F ix (h, o)) (getitem F ix (abs h o)).
Proof.
  intros O. unfold hgetitem, getitem.
  eapply post_bind; [apply hhas_ok; eauto|].
  intros h1 o1 b b' E O1 <-. destruct (negb b); [now apply post_raise|].
  eapply post_bind; [apply hgetitem_attr_ok; eauto|]. intros h2 o2 p x E2 O2 [K1 Np].
  eapply post_bind; [apply hgetitem_opt_ok; eauto|]. intros h3 o3 n y E3 O3 K2.
  eapply post_bind; [apply hgetitem_opt_ok; eauto|]. intros h4 o4 c z E4 O4 K3.
  eapply post_bind; [apply hgetitem_opt_ok; eauto|]. intros h5 o5 f w E5 O5 K4.
  assert (E45 : ext h3 h5) by (eapply ext_trans; eauto).
  assert (E35 : ext h2 h5) by (eapply ext_trans; eauto).
  apply (Ropt_ext F _ _ h5) in K1; [|intros; now apply (R2l_ext F own dv h2)].
  apply (Ropt_ext F _ _ h5) in K2; [|intros; now apply (R2l_ext F own dv h3)].
  apply (Ropt_ext F _ _ h5) in K3; [|intros; now apply (R2l_ext F own dv h4)].
  destruct (hin2_ok _ _ _ _ _ _ K1) as [A1 B1]. destruct (hin2_ok _ _ _ _ _ _ K2) as [A2 B2].
  destruct (hin2_ok _ _ _ _ _ _ K3) as [A3 B3]. destruct (hin2_ok _ _ _ _ _ _ K4) as [A4 B4].
  rewrite <- B1, <- B2, <- B3, <- B4. apply post_onh_res; [exact O5|].
  apply hctor_ok; auto; [apply O5|].
  intros s Hs. destruct p as [[|v p]|].
  - exfalso. eapply ctor_nil. exact Hs.
  - destruct x as [x|]; [|contradiction]. destruct K1 as [K1 _]. apply Forall_inv in K1. apply K1.
  - now elim Np.
Qed.

(* the part of a refinement that concerns the storages only *)
Definition upost {A} (h : heap) (Q : heap -> A -> Prop) (x : res A * (heap * obj)) : Prop :=
  ext h (fst (snd x)) /\ ok F own n0 dv (fst (snd x)) (snd (snd x)) /\
  match fst x with Ok a => Q (fst (snd x)) a | Err _ => True end.
Lemma post_upost {A B} h (R : heap -> A -> B -> Prop) (Q : heap -> A -> Prop) x y :
  post F own n0 dv h R x y -> (forall h' a b, R h' a b -> Q h' a) -> upost h Q x.
Proof.
  intros (E & O & _ & H) K. split; [exact E|]. split; [exact O|].
  destruct (fst x) as [a|]; [|exact I]. destruct (fst y) as [b|]; [|contradiction]. eapply K; exact H.
Qed.

(* ---------------- two objects of a world, possibly the same ---------------- *)
Lemma upd_length {X} i (x : X) l : length (upd i x l) = length l.
Proof. revert i. induction l as [|y l IH]; intros [|i]; cbn; auto. Qed.
Lemma upd_same {X} i (x y : X) l : nth_error l i = Some y -> nth_error (upd i x l) i = Some x.
Proof. revert i. induction l as [|z l IH]; intros [|i]; cbn; try discriminate; auto. Qed.
Lemma upd_other {X} i k (x : X) l : k <> i -> nth_error (upd i x l) k = nth_error l k.
Proof. revert i k. induction l as [|z l IH]; intros [|i] [|k] N; cbn; auto; easy. Qed.

Section TWO.
Variables i j : nat.
Variable os : list obj.

Definition has_ok (w : world) (k : nat) : Prop :=
  exists o, nth_error (wobjs F w) k = Some o /\ ok F own n0 dv (wheap F w) o.
Definition good (w : world) : Prop :=
  has_ok w i /\ has_ok w j /\ length (wobjs F w) = length os /\
  forall k, k <> i -> k <> j -> nth_error (wobjs F w) k = nth_error os k.
Definition wpost {A} (w : world) (Q : heap -> A -> Prop) (x : res A * world) : Prop :=
  good (snd x) /\ ext (wheap F w) (wheap F (snd x)) /\
  match fst x with Ok a => Q (wheap F (snd x)) a | Err _ => True end.

Lemma has_ok_ext w h k : has_ok w k -> ext (wheap F w) h -> exists o, nth_error (wobjs F w) k = Some o /\ ok F own n0 dv h o.
Proof. intros [o [E O]] X. exists o. split; [exact E|]. eapply ok_ext; eauto. Qed.

Lemma at_good {A} w k (m : MO A) (Q : heap -> A -> Prop) :
  good w -> k = i \/ k = j ->
  (forall h o, ok F own n0 dv h o -> ext (wheap F w) h -> upost h Q (m (h, o))) ->
  wpost w Q (at_ F k m w).
Proof.
  intros (Hi & Hj & L & Fr) Hk H. unfold at_.
  assert (Kk : has_ok w k) by (destruct Hk; subst; auto).
  destruct Kk as [o [E O]]. rewrite E.
  specialize (H (wheap F w) o O (ext_refl _ _)). destruct (m (wheap F w, o)) as [r [h o']].
  destruct H as (X & O' & HQ). cbn [fst snd] in *.
  assert (G : forall k', has_ok w k' -> has_ok (mkW F h (upd k o' (wobjs F w))) k').
  { intros k' [o2 [E2 O2]]. unfold has_ok. cbn [wheap wobjs].
    destruct (Nat.eq_dec k' k) as [->|N].
    - exists o'. split; [eapply upd_same; eauto|exact O'].
    - exists o2. split; [now rewrite upd_other|]. eapply ok_ext; eauto. }
  split; [|split; [exact X|exact HQ]]. cbn [snd].
  split; [auto|]. split; [auto|]. cbn [wobjs]. split; [now rewrite upd_length|].
  intros k' N1 N2. rewrite upd_other; [now apply Fr|]. destruct Hk; congruence.
Qed.

Lemma wpost_bind {A B} w (Q : heap -> A -> Prop) (Q' : heap -> B -> Prop) (m : M world A) k :
  wpost w Q (m w) ->
  (forall w1 a, good w1 -> ext (wheap F w) (wheap F w1) -> Q (wheap F w1) a -> wpost w1 Q' (k a w1)) ->
  wpost w Q' (mbind m k w).
Proof.
  intros (G & X & H) K. unfold mbind. destruct (m w) as [r w1]. cbn [fst snd] in *.
  destruct r as [a|e].
  - destruct (K w1 a G X H) as (G2 & X2 & H2). split; [exact G2|]. split; [eapply ext_trans; eauto|exact H2].
  - split; [exact G|]. split; [exact X|exact I].
Qed.
Lemma wpost_ret {A} w (Q : heap -> A -> Prop) a : good w -> Q (wheap F w) a -> wpost w Q (ret a w).
Proof. intros G H. split; [exact G|]. split; [apply ext_refl|exact H]. Qed.
Lemma wpost_raise {A} w (Q : heap -> A -> Prop) e : good w -> wpost w Q (raise e w).
Proof. intros G. split; [exact G|]. split; [apply ext_refl|exact I]. Qed.
Lemma wpost_lift {A} w (Q : heap -> A -> Prop) r : good w -> (forall a, r = Ok a -> Q (wheap F w) a) -> wpost w Q (lift r w).
Proof. intros G H. split; [exact G|]. split; [apply ext_refl|]. cbn. destruct r; auto. Qed.

Definition anyq {A} : heap -> A -> Prop := fun _ _ => True.
Lemma w_has w k a : good w -> k = i \/ k = j -> wpost w anyq (at_ F k (hhas F a) w).
Proof.
  intros G K. apply at_good; auto. intros h o O X. eapply post_upost; [now apply hhas_ok|]. easy.
Qed.
Lemma w_nf w k : good w -> k = i \/ k = j -> wpost w anyq (at_ F k (hnum_features F) w).
Proof.
  intros G K. apply at_good; auto. intros h o O X. eapply post_upost; [now apply hnum_features_ok|]. easy.
Qed.
Definition lq (h : heap) (l : option (list view2)) : Prop := forall v, l = Some v -> ok2 F own dv h v.
Lemma w_list w k a : good w -> k = i \/ k = j -> wpost w lq (at_ F k (hget_list F a) w).
Proof.
  intros G K. apply at_good; auto. intros h o O X. eapply post_upost; [now apply hget_list_ok|].
  intros h' [v|] [x|] H v' [= <-]; cbn in H; [apply H|contradiction].
Qed.
Lemma w_geto w k : good w -> k = i \/ k = j -> wpost w (ok F own n0 dv) (at_ F k (geto F) w).
Proof. intros G K. apply at_good; auto. intros h o O X. split; [apply ext_refl|]. split; exact O. Qed.
Lemma w_geth w k : good w -> k = i \/ k = j -> wpost w (fun h h' => h' = h) (at_ F k (geth F) w).
Proof. intros G K. apply at_good; auto. intros h o O X. split; [apply ext_refl|]. split; [exact O|reflexivity]. Qed.
Lemma w_modo w k f : good w -> k = i \/ k = j ->
  (forall h o, ext (wheap F w) h -> ok F own n0 dv h o -> ok F own n0 dv h (f o)) ->
  wpost w anyq (at_ F k (modo F f) w).
Proof. intros G K H. apply at_good; auto. intros h o O X. split; [apply ext_refl|]. split; [cbn; auto|exact I]. Qed.
Lemma w_onh {A} w k (m : MH A) Q : good w -> k = i \/ k = j ->
  (forall h, n0 <= length h -> ext (wheap F w) h -> hpost F h Q (m h)) -> wpost w Q (at_ F k (onh F m) w).
Proof.
  intros G K H. apply at_good; auto. intros h o O X. specialize (H h (ok_n _ _ _ _ _ _ O) X). destruct H as [E H].
  unfold onh. cbn [fst snd]. destruct (m h) as [r h']. cbn [fst snd] in *.
  split; [exact E|]. split; [eapply ok_ext; eauto|]. destruct r; [exact H|exact I].
Qed.

Lemma mmap_new {A} (P : heap -> A -> Prop) (f : A -> MH view2) :
  (forall h h' x, ext h h' -> P h x -> P h' x) ->
  (forall h x, n0 <= length h -> P h x -> hpost F h (fun h' v => okl F own dv h' (v2l v)) (f x h)) ->
  forall l h, n0 <= length h -> Forall (P h) l ->
  hpost F h (fun h' vs => ok2 F own dv h' vs) (mmap f l h).
Proof.
  intros Pe Hf. induction l as [|x l IH]; intros h N K; [apply hpost_ret; constructor|].
  inversion K as [|? ? K1 K2]; subst. cbn [mmap].
  eapply hpost_bind; [apply Hf; auto|]. intros h1 v X O. pose proof (ext_len _ _ _ X).
  eapply hpost_bind; [apply IH; [lia|]|].
  - eapply Forall_impl; [|exact K2]. intros y. apply Pe, X.
  - intros h2 vs X2 O2. apply hpost_ret. constructor; [eapply okl_ext; eauto|exact O2].
Qed.

Lemma in_firstn {X} n (l : list X) x : In x (firstn n l) -> In x l.
Proof. intros H. rewrite <- (firstn_skipn n l). apply in_or_app. now left. Qed.
Lemma cat_lists_wf B x y l : Forall t2wf x -> Forall t2wf y -> cat_lists F B x y = Ok l -> Forall t2wf l.
Proof.
  unfold cat_lists. destruct (negb _); [discriminate|]. intros Hx Hy.
  assert (H : Forall (fun q => t2wf (fst q) /\ t2wf (snd q)) (combine (firstn B x) (firstn B y))).
  { apply Forall_forall. intros [u v] Hq. pose proof (in_combine_l _ _ _ _ Hq). pose proof (in_combine_r _ _ _ _ Hq).
    rewrite Forall_forall in Hx, Hy. cbn. split; [apply Hx|apply Hy]; eapply in_firstn; eauto. }
  revert l H. generalize (combine (firstn B x) (firstn B y)). clear.
  induction l as [|[u v] q IH]; intros l; cbn; [intros _ [= <-]; constructor|].
  intros H. inversion H as [|? ? [Hu Hv] Hq]; subst. unfold cat2.
  destruct (t2c u =? t2c v) eqn:E; [|discriminate]. cbn.
  destruct (mapM _ q) as [l'|]; [|discriminate]. intros [= <-]. constructor; [|now apply IH].
  apply Nat.eqb_eq in E. unfold t2wf in *. cbn in *. apply Forall_app. split; [exact Hu|]. rewrite E. exact Hv.
Qed.

Lemma w_append w a : good w -> wpost w anyq (happend_attr F a i j w).
Proof.
  intros G. unfold happend_attr.
  eapply wpost_bind; [apply w_list; auto|]. intros w1 x G1 X1 K1.
  eapply wpost_bind; [apply w_list; auto|]. intros w2 y G2 X2 K2.
  eapply wpost_bind; [apply w_geto; auto|]. intros w3 s G3 X3 K3.
  eapply wpost_bind; [apply w_geth; auto|]. intros w4 h G4 X4 ->.
  assert (Z : forall w (v : option (list view2)), good w -> lq (wheap F w) v ->
     wpost w (@anyq unit) ((at_ F i (modo F (oset_lst a v)) ;;; at_ F i (modo F (oset_pad a None))) w)).
  { intros w' v G' Hv. eapply wpost_bind.
    - apply w_modo; auto. intros h o X O. apply ok_set_lst; [exact O|].
      intros l E. eapply ok2_ext; eauto.
    - intros w'' _ G'' X'' _. apply w_modo; auto. intros h o X O. apply ok_set_pad; [exact O|]. discriminate. }
  assert (ZE : wpost w4 (@anyq unit) ((if obat s =? 0
     then at_ F i (modo F (oset_lst a (Some []))) ;;; at_ F i (modo F (oset_pad a None)) else raise TypeError) w4)).
  { destruct (obat s =? 0); [|now apply wpost_raise]. apply Z; [exact G4|]. intros l [= <-]. constructor. }
  destruct x as [x|]; [|exact ZE]. destruct y as [y|]; [|exact ZE].
  assert (X24 : ext (wheap F w1) (wheap F w4)) by (eapply ext_trans; [exact X2|]; eapply ext_trans; eauto).
  pose proof (ok2_ext F own dv _ _ _ X24 (K1 x eq_refl)) as Kx.
  eapply wpost_bind with (Q := fun h l => (l <> [] -> x <> []) /\ Forall t2wf l).
  { apply wpost_lift; [exact G4|]. intros l El.
    split.
    - intros N ->. apply N. unfold cat_lists in El. cbn in El. destruct (obat s); cbn in El; [now injection El|discriminate].
    - apply cat_lists_wf in El; auto using reads_wf. }
  intros w5 l G5 X5 [Kn Kw].
  eapply wpost_bind with (Q := fun h v => ok2 F own dv h v).
  { apply w_onh; auto. intros h N X.
    destruct x as [|v x]; [destruct l; [|now elim (Kn ltac:(discriminate))]; apply hpost_ret; constructor|].
    assert (D : list_dev F (wheap F w4) (v :: x) = dv) by (apply Forall_inv in Kx; apply Kx). rewrite D.
    apply mmap_new with (P := fun _ x => t2wf x); auto.
    intros h' x' N' W'. destruct (alloc2_ok F own n0 dv own_fresh h' x' N' W') as [E R]. split; [exact E|].
    destruct (fst (alloc2 F dv x' h')); [|contradiction]. apply R. }
  intros w6 v G6 X6 K6. apply Z; [exact G6|]. intros v' [= <-]. exact K6.
Qed.

Lemma w_copy w a : good w -> wpost w anyq (hcopy_attr F a i j w).
Proof.
  intros G. unfold hcopy_attr.
  eapply wpost_bind; [apply w_list; auto|]. intros w1 y G1 X1 K1.
  destruct y as [y|]; [|now apply wpost_raise].
  eapply wpost_bind; [apply w_geto; auto|]. intros w2 s G2 X2 K2.
  eapply wpost_bind with (Q := fun h v => ok2 F own dv h v).
  { apply w_onh; auto. intros h N X.
    apply mmap_new with (P := fun h v => v2l v < length h); auto.
    - intros h1 h2 v E L. pose proof (ext_len _ _ _ E). lia.
    - intros h' v N' L'. rewrite (ok_dev _ _ _ _ _ _ K2).
      destruct (copy2_ok F own n0 dv own_fresh h' v N' L') as [E R]. split; [exact E|].
      destruct (fst _); [|contradiction]. apply R.
    - eapply Forall_impl; [|eapply ok2_ext; [|apply K1; reflexivity]; eapply ext_trans; eauto]. now intros v [L _]. }
  intros w3 v G3 X3 K3. apply w_modo; auto. intros h o X O. apply ok_set_lst; [exact O|].
  intros l [= <-]. eapply ok2_ext; eauto.
Qed.

Lemma w_opt w k a (m : M world unit) : good w -> k = i \/ k = j -> (forall w, good w -> wpost w anyq (m w)) ->
  wpost w anyq ((do h <- at_ F k (hhas F a); if h then m else ret tt) w).
Proof.
  intros G K H. eapply wpost_bind; [apply w_has; auto|]. intros w1 b G1 X1 _.
  destruct b; [now apply H|now apply wpost_ret].
Qed.

Lemma happend_good w : good w -> wpost w anyq (happend_points F i j w).
Proof.
  intros G. unfold happend_points.
  eapply wpost_bind; [apply w_geto; auto|]. intros w1 d1 G1 X1 K1.
  eapply wpost_bind; [apply w_geto; auto|]. intros w2 d2 G2 X2 K2.
  destruct (negb _); [now apply wpost_raise|].
  eapply wpost_bind; [apply w_has; auto|]. intros w3 hp2 G3 X3 _.
  destruct (negb hp2); [now apply wpost_ret|].
  eapply wpost_bind; [apply w_has; auto|]. intros w4 hp1 G4 X4 _.
  destruct (negb hp1).
  { eapply wpost_bind; [apply w_copy; auto|]. intros w5 _ G5 X5 _.
    eapply wpost_bind; [apply w_opt; auto using w_copy|]. intros w6 _ G6 X6 _.
    eapply wpost_bind; [apply w_opt; auto using w_copy|]. intros w7 _ G7 X7 _.
    eapply wpost_bind; [apply w_opt; auto using w_copy|]. intros w8 _ G8 X8 _.
    eapply wpost_bind; [apply w_geto; auto|]. intros w9 o G9 X9 K9.
    eapply wpost_bind; [apply w_geto; auto|]. intros w10 s G10 X10 K10.
    eapply wpost_bind with (Q := ok F own n0 dv).
    { apply w_onh; auto. intros h N X.
      assert (O9 : ok F own n0 dv h o) by (eapply ok_ext; [|exact K9]; eapply ext_trans; eauto).
      assert (O10 : ok F own n0 dv h s) by (eapply ok_ext; [|exact K10]; exact X).
      destruct (take_tensors_ok F own n0 dv (Pclone F dv) (Pclone_ext F dv) ltac:(now intros h1 l [])
         (clone3 F) (clone_cell F)
         ltac:(intros; now apply (clone3_ok F own n0 dv own_fresh))
         ltac:(intros; now apply (clone_cell_ok F own n0 dv own_fresh))
         h o (mkO (olst s) (opad s) (omask s) (oflg o) (onum s) (obat o) (onmax o) (oequi o) (odev s))) as [E R].
      - exact N.
      - now apply (ok_Pfrom F own n0 dv).
      - destruct O10. now constructor.
      - split; [exact E|]. destruct (fst _); [|contradiction]. apply R. }
    intros w11 s' G11 X11 K11. apply w_modo; auto. intros h o' X O. eapply ok_ext; eauto. }
  eapply wpost_bind; [apply w_geto; auto|]. intros w5 s G5 X5 K5.
  eapply wpost_bind; [apply w_geto; auto|]. intros w6 o G6 X6 K6.
  destruct (negb _); [now apply wpost_raise|].
  eapply wpost_bind; [apply w_has; auto|]. intros w7 ? G7 X7 _.
  eapply wpost_bind; [apply w_has; auto|]. intros w8 ? G8 X8 _.
  destruct (negb _); [now apply wpost_raise|].
  eapply wpost_bind; [apply w_has; auto|]. intros w9 ? G9 X9 _.
  eapply wpost_bind; [apply w_has; auto|]. intros w10 ? G10 X10 _.
  destruct (negb _); [now apply wpost_raise|].
  eapply wpost_bind; [apply w_has; auto|]. intros w11 g1 G11 X11 _.
  eapply wpost_bind; [apply w_has; auto|]. intros w12 g2 G12 X12 _.
  destruct (negb _); [now apply wpost_raise|].
  eapply wpost_bind with (Q := @anyq unit).
  { destruct g1; [|now apply wpost_ret].
    eapply wpost_bind; [apply w_nf; auto|]. intros w13 x G13 X13 _.
    eapply wpost_bind; [apply w_nf; auto|]. intros w14 y G14 X14 _.
    destruct x as [x|], y as [y|]; try (now apply wpost_raise); [|now apply wpost_ret].
    destruct (x =? y); [now apply wpost_ret|now apply wpost_raise]. }
  intros w13 _ G13 X13 _.
  eapply wpost_bind; [apply w_append; auto|]. intros w14 _ G14 X14 _.
  eapply wpost_bind; [apply w_opt; auto using w_append|]. intros w15 _ G15 X15 _.
  eapply wpost_bind; [apply w_opt; auto using w_append|]. intros w16 _ G16 X16 _.
  eapply wpost_bind; [apply w_opt; auto using w_append|]. intros w17 _ G17 X17 _.
  eapply wpost_bind; [apply w_geto; auto|]. intros w18 s' G18 X18 K18.
  eapply wpost_bind; [apply w_geto; auto|]. intros w19 o' G19 X19 K19.
  eapply wpost_bind; [apply w_geth; auto|]. intros w20 h G20 X20 ->.
  eapply wpost_bind with (Q := @anyq (list nat)); [now apply wpost_lift|]. intros w21 ns G21 X21 _.
  assert (D : devof F (wheap F w20) (onum s') = dv).
  { eapply ok_num. eapply ok_ext; [|exact K18]. eapply ext_trans; eauto. }
  eapply wpost_bind with (Q := okl F own dv).
  { apply w_onh; auto. intros h N X. split; [apply ext_app|]. cbn. now apply (okl_new F own n0 dv own_fresh). }
  intros w22 n G22 X22 K22. apply w_modo; auto. intros h q X [A B C D' E' G'].
  constructor; auto; cbn; [discriminate|]. eapply okl_ext; eauto.
Qed.

End TWO.
End ONE.
End ST.
