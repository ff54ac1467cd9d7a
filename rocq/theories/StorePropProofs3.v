(* The constructor and __getitem__ keep the tensors they are given. *)
From Coq Require Import List Arith ZArith Bool Lia.
From Verif Require Import Res Fld StructUtilsModel StructUtilsProofs PointcloudsModel PointcloudsSpec
  PointcloudsProofs PointcloudsHist PointcloudsPropProofs StoreModel StoreSpec StoreProofs StoreProofs2 StoreProofs3 StoreProofs4 StoreProofs5
  StoreProofs6 StoreProofs7 StorePropProofs StorePropProofs2.
Import ListNotations.
Local Open Scope nat_scope.

Lemma take_list_same (F : Fld) d x h r h' :
  (forall l, In l (arg_stores x) -> devof F h l = d) -> take_list F d x h = (Ok r, h') ->
  h' = h /\ keeps_list x r.
Proof.
  intros D E. destruct x as [|l| |]; cbn in *; try (injection E as <- <-; auto).
  assert (K : forall l r h', (forall s, In s (map anyl l) -> devof F h s = d) ->
    mmap (fun x => do v <- lift (as_v2 x); to2 F d v) l h = (Ok r, h') -> h' = h /\ map H2 r = l).
  { clear. induction l as [|x l IH]; intros r h' D E.
    - injection E as <- <-. auto.
    - cbn [mmap] in E. destruct x as [v|v|sh s]; try (unfold mbind, lift in E; cbn in E; discriminate).
      unfold mbind, lift in E. cbn [as_v2] in E.
      assert (Dv : devof F h (v2l v) = d) by (apply D; now left).
      rewrite (to2_same F d v h Dv) in E. fold (@mbind (heap F)) in E.
      match type of E with context [mmap ?f l h] => change f with (fun x => do v <- lift (as_v2 x); to2 F d v) in E end.
      destruct (mmap _ l h) as [[r2|] h2] eqn:E2; [|discriminate].
      destruct (IH r2 h2) as [-> <-]; [intros; apply D; now right|reflexivity|]. injection E as <- <-. auto. }
  unfold mbind in E. destruct (mmap _ l h) as [[r2|] h2] eqn:E2; [|discriminate].
  destruct (K l r2 h2 D E2) as [-> K2]. injection E as <- <-. split; [reflexivity|]. exists r2. auto.
Qed.
Lemma take_tensor_same (F : Fld) d x h r h' :
  (forall l, In l (arg_stores x) -> devof F h l = d) -> take_tensor F d x h = (Ok r, h') ->
  h' = h /\ keeps_tensor x r.
Proof.
  intros D E. destruct x as [| |t|]; cbn [take_tensor keeps_tensor] in *; try (injection E as <- <-; auto).
  destruct t as [v|v|sh s]; try (unfold mbind, lift in E; cbn in E; discriminate).
  unfold mbind, lift in E. cbn [as_v3] in E. assert (Dv : devof F h (v3l v) = d) by (apply D; now left).
  rewrite (to3_same F d v h Dv) in E. injection E as <- <-. split; [reflexivity|]. exists v. auto.
Qed.

(* Pointclouds(...): the tensors of the object are the ones passed, when they are on its device *)
Lemma p_ctor_keeps (F : Fld) pa na ca fa d h o h' :
  hctor F pa na ca fa d h = (Ok o, h') ->
  (forall a l, In l (arg_stores (arg_of pa na ca fa a)) -> devof F h l = odev o) ->
  (forall a, keeps_list (arg_of pa na ca fa a) (qget a (olst o))) /\
  (forall a, keeps_tensor (arg_of pa na ca fa a) (qget a (opad o))) /\
  omask o = None /\ onum o = length h /\ firstn (length h) h' = h.
Proof.
  unfold hctor. unfold mbind at 1, get. intros E D. cbv beta iota in E. unfold mbind at 1, lift in E.
  destruct (ctor F (rdarg F h pa) (rdarg F h na) (rdarg F h ca) (rdarg F h fa)) as [s|]; [|discriminate].
  set (dv := match d with Some d => d | None => _ end) in E.
  assert (Dv : odev o = dv).
  { unfold mbind, ret in E.
    repeat match type of E with context [match ?m ?x with pair _ _ => _ end] => destruct (m x) as [[?|] ?]; [|discriminate] end.
    injection E as <- <-. reflexivity. }
  rewrite Dv in D. clearbody dv.
  pose proof (D Points) as D1. pose proof (D Normals) as D2. pose proof (D Colors) as D3. pose proof (D Features) as D4.
  cbn [arg_of] in D1, D2, D3, D4.
  unfold mbind at 1 in E. destruct (take_list F dv pa h) as [[pl|] h1] eqn:E1; [|discriminate].
  destruct (take_list_same F dv pa h pl h1 D1 E1) as [-> K1].
  unfold mbind at 1 in E. destruct (take_list F dv na h) as [[nl|] h2] eqn:E2; [|discriminate].
  destruct (take_list_same F dv na h nl h2 D2 E2) as [-> K2].
  unfold mbind at 1 in E. destruct (take_list F dv ca h) as [[cl|] h3] eqn:E3; [|discriminate].
  destruct (take_list_same F dv ca h cl h3 D3 E3) as [-> K3].
  unfold mbind at 1 in E. destruct (take_list F dv fa h) as [[fl|] h4] eqn:E4; [|discriminate].
  destruct (take_list_same F dv fa h fl h4 D4 E4) as [-> K4].
  unfold mbind at 1 in E. destruct (take_tensor F dv pa h) as [[pp|] h5] eqn:E5; [|discriminate].
  destruct (take_tensor_same F dv pa h pp h5 D1 E5) as [-> K5].
  unfold mbind at 1 in E. destruct (take_tensor F dv na h) as [[np|] h6] eqn:E6; [|discriminate].
  destruct (take_tensor_same F dv na h np h6 D2 E6) as [-> K6].
  unfold mbind at 1 in E. destruct (take_tensor F dv ca h) as [[cp|] h7] eqn:E7; [|discriminate].
  destruct (take_tensor_same F dv ca h cp h7 D3 E7) as [-> K7].
  unfold mbind at 1 in E. destruct (take_tensor F dv fa h) as [[fp|] h8] eqn:E8; [|discriminate].
  destruct (take_tensor_same F dv fa h fp h8 D4 E8) as [-> K8].
  cbn in E. injection E as <- <-. cbn.
  split; [now intros []|]. split; [now intros []|]. split; [reflexivity|]. split; [reflexivity|].
  rewrite firstn_app, Nat.sub_diag, firstn_all. cbn. apply app_nil_r.
Qed.

(* ---- __getitem__ ---- *)
Section ITEM.
Variable F : Fld.
Notation MO := (M (heap F * obj)).
(* the heap is untouched, self has the lists it had *)
Definition grows {A} (m : MO A) : Prop := forall h o, fst (snd (m (h, o))) = h /\ odev (snd (snd (m (h, o)))) = odev o /\
  (valid F h o -> valid F h (snd (snd (m (h, o))))) /\
  forall a vs, qget a (olst o) = Some vs -> qget a (olst (snd (snd (m (h, o))))) = Some vs.
Lemma gr_bind {A B} (m : MO A) (k : A -> MO B) : grows m -> (forall a, grows (k a)) -> grows (mbind m k).
Proof.
  intros Hm Hk h o. unfold mbind. specialize (Hm h o). destruct (m (h, o)) as [[a|e] [h1 o1]]; cbn in *; [|exact Hm].
  destruct Hm as (-> & D & V & K). destruct (Hk a h o1) as (E & D2 & V2 & K2). split; [exact E|]. split; [congruence|]. split; auto.
Qed.
Lemma gr_ret {A} (a : A) : grows (ret a). Proof. intros h o. cbn. auto. Qed.
Lemma gr_raise {A} e : grows (@raise (heap F * obj) A e). Proof. intros h o. cbn. auto. Qed.
Lemma gr_has a : grows (hhas F a).
Proof.
  intros h o. unfold hhas, mbind, geto, modo, ret. cbn. destruct (qget a (oflg o)); cbn; auto.
Qed.
Lemma gr_list a : grows (hget_list F a).
Proof.
  intros h o. pose proof (sh_list F a h o) as SH. revert SH.
  unfold hget_list, mbind, geto, geth, modo, ret, raise. cbn [fst snd].
  destruct (qget a (olst o)) eqn:E1; [cbn; auto|]. destruct (qget a (opad o)) as [p|] eqn:E2; [|cbn; auto].
  destruct (negb (v3b p =? obat o)); [cbn; auto|]. destruct (negb _); [cbn; auto|]. cbn [fst snd].
  intros SH. split; [reflexivity|]. split; [reflexivity|]. split.
  - intros V l U. apply (V l). now apply SH.
  - intros b vs Eb. cbn. destruct (attr_eq_dec b a) as [->|N]; [congruence|]. now rewrite qget_qset_other.
Qed.
Definition among (o : obj) (a : attr) (l : option (list view2)) : Prop :=
  forall vs v, l = Some vs -> In v vs -> exists vs', qget a (olst o) = Some vs' /\ In v vs'.
Lemma py_nth_In {X} (l : list X) z x : py_nth l z = Ok x -> In x l.
Proof.
  unfold py_nth. match goal with |- context [if ?b then _ else _] => destruct b end; [|discriminate].
  match goal with |- context [nth_error l ?k] => destruct (nth_error l k) eqn:E end; [|discriminate].
  intros [= <-]. eapply nth_error_In; exact E.
Qed.
Lemma select_In ix l r : hselect ix l = Ok r -> forall v, In v r -> In v l.
Proof.
  unfold hselect. destruct (select_idx ix (length l)) as [zs|]; [|discriminate]. change (mapM (py_nth l) zs = Ok r -> forall v, In v r -> In v l).
  revert r. induction zs as [|z zs IH]; intros r; cbn; [intros [= <-]; easy|].
  destruct (py_nth l z) as [x|] eqn:Ex; [|discriminate]. cbn. destruct (mapM (py_nth l) zs) as [ys|]; [|discriminate].
  intros [= <-] v [<-|Iv]; [eapply py_nth_In; exact Ex|]. now apply (IH ys eq_refl).
Qed.
Lemma item_attr a ix h o r h1 o1 : hgetitem_attr F a ix (h, o) = (Ok r, (h1, o1)) ->
  h1 = h /\ among o1 a r /\ (exists vs, r = Some vs) /\ odev o1 = odev o /\ (valid F h o -> valid F h o1) /\
  forall b vs, qget b (olst o) = Some vs -> qget b (olst o1) = Some vs.
Proof.
  unfold hgetitem_attr. unfold mbind at 1. destruct (gr_list a h o) as (E & D & V & K).
  assert (L : forall x, fst (hget_list F a (h, o)) = Ok (Some x) -> qget a (olst (snd (snd (hget_list F a (h, o))))) = Some x).
  { unfold hget_list, mbind, geto, geth, modo, ret, raise. cbn [fst snd].
    destruct (qget a (olst o)) eqn:E1; [cbn; intros x [= <-]; exact E1|].
    destruct (qget a (opad o)) as [p|] eqn:E2; [|cbn; discriminate].
    destruct (negb (v3b p =? obat o)); [cbn; discriminate|]. destruct (negb _); [cbn; discriminate|]. cbn [fst snd].
    intros x [= <-]. cbn. apply qget_qset_same. }
  destruct (hget_list F a (h, o)) as [[l|] [h2 o2]]; cbn [fst snd] in *; [|discriminate]. subst h2.
  destruct l as [l|]; [|discriminate]. unfold mbind, lift.
  destruct (hselect ix l) as [r2|] eqn:Es; [|discriminate]. intros [= <- <- <-].
  split; [reflexivity|]. split; [|split; [eauto|auto]].
  intros vs v [= <-] Iv. exists l. split; [now apply L|]. eapply select_In; eauto.
Qed.
Lemma item_opt a ix h o r h1 o1 :
  (do b <- hhas F a; if b then hgetitem_attr F a ix else ret None) (h, o) = (Ok r, (h1, o1)) ->
  h1 = h /\ among o1 a r /\ odev o1 = odev o /\ (valid F h o -> valid F h o1) /\
  forall b vs, qget b (olst o) = Some vs -> qget b (olst o1) = Some vs.
Proof.
  unfold mbind. destruct (gr_has a h o) as (E & D & V & K).
  destruct (hhas F a (h, o)) as [[b|] [h2 o2]]; cbn [fst snd] in *; [|discriminate]. subst h2. destruct b.
  - intros H. destruct (item_attr _ _ _ _ _ _ _ H) as (-> & A & _ & D2 & V2 & K2).
    split; [reflexivity|]. split; [exact A|]. split; [congruence|]. split; auto.
  - intros [= <- <- <-]. split; [reflexivity|]. split; [discriminate|]. auto.
Qed.
Lemma sh_lift {A} (r : res A) : shrinks F (lift r). Proof. intros h o l. unfold lift. cbn. now destruct r. Qed.
Lemma sh_onh {A} (m : M (heap F) A) : shrinks F (onh F m).
Proof. intros h o l. unfold onh. cbn. now destruct (m h). Qed.
Lemma sh_item ix : shrinks F (hgetitem F ix).
Proof.
  assert (SA : forall a, shrinks F (hgetitem_attr F a ix)).
  { intros a. unfold hgetitem_attr. apply sh_bind; [apply sh_list|]. intros [l|]; [|apply sh_raise].
    apply sh_bind; [apply sh_lift|]. intros r. apply sh_ret. }
  assert (SO : forall a, shrinks F (do b <- hhas F a; if b then hgetitem_attr F a ix else ret None)).
  { intros a. apply sh_bind; [apply sh_has|]. intros []; [apply SA|apply sh_ret]. }
  unfold hgetitem. apply sh_bind; [apply sh_has|]. intros b. destruct (negb b); [apply sh_raise|].
  apply sh_bind; [apply SA|]. intros p. apply sh_bind; [apply SO|]. intros n. apply sh_bind; [apply SO|]. intros c.
  apply sh_bind; [apply SO|]. intros f. apply sh_onh.
Qed.
Lemma among_mono o o1 a l : among o a l ->
  (forall b vs, qget b (olst o) = Some vs -> qget b (olst o1) = Some vs) -> among o1 a l.
Proof. intros A K vs v E I. destruct (A vs v E I) as (vs' & E' & I'). eauto. Qed.
End ITEM.

(* p[ix]: the tensors of the result are tensors of p *)
Lemma p_getitem (F : Fld) cur ix h o c h' o' :
  valid F h o -> run_make F cur (MItem F ix) (h, o) = (Ok (Some c), (h', o')) ->
  (forall a vs v, qget a (olst c) = Some vs -> In v vs ->
     exists vs', qget a (olst o') = Some vs' /\ In v vs' /\ uses o (v2l v)) /\
  (forall a, qget a (opad c) = None) /\ omask c = None /\ onum c = length h.
Proof.
  intros V E. cbn [run_make] in E. unfold mbind at 1 in E.
  destruct (hgetitem F ix (h, o)) as [[c'|] [h9 o9]] eqn:EI; [|discriminate]. injection E as -> -> ->. pose proof EI as E.
  unfold hgetitem in EI. unfold mbind at 1 in EI.
  destruct (gr_has F Points h o) as (X0 & D0 & V0 & K0). pose proof (sh_has F Points h o) as S0.
  destruct (hhas F Points (h, o)) as [[b|] [h0 o0]]; cbn [fst snd] in *; [|discriminate]. subst h0.
  destruct (negb b); [discriminate|].
  unfold mbind at 1 in EI. destruct (hgetitem_attr F Points ix (h, o0)) as [[p|] [h1 o1]] eqn:E1; [|discriminate].
  destruct (item_attr F _ _ _ _ _ _ _ E1) as (-> & A1 & _ & D1 & V1 & K1).
  unfold mbind at 1 in EI. destruct ((do b <- hhas F Normals; if b then hgetitem_attr F Normals ix else ret None) (h, o1)) as [[n|] [h2 o2]] eqn:E2; [|discriminate].
  destruct (item_opt F _ _ _ _ _ _ _ E2) as (-> & A2 & D2 & V2 & K2).
  unfold mbind at 1 in EI. destruct ((do b <- hhas F Colors; if b then hgetitem_attr F Colors ix else ret None) (h, o2)) as [[cc|] [h3 o3]] eqn:E3; [|discriminate].
  destruct (item_opt F _ _ _ _ _ _ _ E3) as (-> & A3 & D3 & V3 & K3).
  unfold mbind at 1 in EI. destruct ((do b <- hhas F Features; if b then hgetitem_attr F Features ix else ret None) (h, o3)) as [[f|] [h4 o4]] eqn:E4; [|discriminate].
  destruct (item_opt F _ _ _ _ _ _ _ E4) as (-> & A4 & D4 & V4 & K4).
  unfold onh in EI. cbn [fst snd] in EI.
  destruct (hctor F (hin2 p) (hin2 n) (hin2 cc) (hin2 f) None h) as [[c2|] h5] eqn:Ec; [|discriminate]. injection EI as -> -> ->.
  assert (B1 : among o' Points p) by exact (among_mono _ _ _ _ (among_mono _ _ _ _ (among_mono _ _ _ _ A1 K2) K3) K4).
  assert (B2 : among o' Normals n) by exact (among_mono _ _ _ _ (among_mono _ _ _ _ A2 K3) K4).
  assert (B3 : among o' Colors cc) by exact (among_mono _ _ _ _ A3 K4).
  assert (V' : valid F h o') by exact (V4 (V3 (V2 (V1 (V0 V))))).
  set (arg := fun a => match a with Points => p | Normals => n | Colors => cc | Features => f end).
  assert (Ag : forall a, arg_of (hin2 p) (hin2 n) (hin2 cc) (hin2 f) a = hin2 (arg a)) by (now intros []).
  assert (AM : forall a, among o' a (arg a)) by (intros []; assumption).
  assert (Dc : odev c = odev o').
  { assert (Ok0 : ok F (fun _ => True) 0 (odev o) h o) by (apply ok_valid; auto; lia).
    destruct (hgetitem_ok F (fun _ => True) 0 (odev o) (fun _ _ => I) h o ix Ok0) as (_ & O' & _ & H).
    rewrite E in O', H. cbn [fst snd] in O', H. destruct (fst (getitem F ix (abs F h o))); [|contradiction].
    destruct H as [Oc _]. rewrite (ok_dev _ _ _ _ _ _ Oc). symmetry. eapply ok_dev; exact O'. }
  assert (SU : forall l, uses o' l -> uses o l).
  { intros l U. pose proof (sh_item F ix h o l) as SH. rewrite E in SH. now apply SH. }
  destruct (p_ctor_keeps F _ _ _ _ None h c h' Ec) as (KL & KT & Km & Kn & _).
  { intros a l Il. rewrite Ag in Il. rewrite Dc. apply V'.
    destruct (arg a) as [vs|] eqn:Ea; [|easy]. cbn in Il. rewrite map_map in Il. apply in_map_iff in Il as (v & <- & Iv).
    destruct (AM a vs v Ea Iv) as (vs' & E' & I'). left. exists a, vs', v. auto. }
  split.
  - intros a vs v Ea Iv. specialize (KL a). rewrite Ag in KL. destruct (arg a) as [ws|] eqn:Eg; cbn in KL; [|congruence].
    destruct KL as (vs2 & E2' & M). rewrite Ea in E2'. injection E2' as <-.
    assert (vs = ws).
    { clear -M. revert ws M. induction vs as [|x vs IH]; intros [|y ws]; cbn; intros M; try discriminate; [reflexivity|].
      injection M as -> M. f_equal. now apply IH. }
    subst ws. destruct (AM a vs v Eg Iv) as (vs' & E' & I'). exists vs'. split; [exact E'|]. split; [exact I'|].
    apply SU. left. exists a, vs', v. auto.
  - split; [|auto]. intros a. specialize (KT a). rewrite Ag in KT. now destruct (arg a).
Qed.

(* p.append_points(p): every cloud is followed by itself *)
Lemma p_append_self_shows (F : Fld) w i o a :
  nth_error (wobjs F w) i = Some o -> valid F (wheap F w) o -> Hist F (abs F (wheap F w) o) a -> qp a <> None ->
  exists w' o', happend_points F i i w = (Ok tt, w') /\ nth_error (wobjs F w') i = Some o' /\
    Hist F (abs F (wheap F w') o') (append_spec F a a) /\ Shows F (abs F (wheap F w') o') (append_spec F a a).
Proof.
  intros Ei V H Hp. pose proof (p_hist_shows F _ _ H) as (_ & _ & Sh & _).
  specialize (Sh Points). cbn [qget] in Sh. destruct (qp a) as [P|] eqn:Ep; [|easy]. cbn in Sh.
  destruct (happend_points F i i w) as [r w'] eqn:E.
  destruct (p_append_self F w i o r w' Ei V Sh E) as (o' & Eo & _ & Ev & _ & _).
  destruct (PointcloudsPropProofs.p_append F _ _ a a H H) as (s' & o2 & Ea & _ & _ & H' & S').
  { right. right. split; [reflexivity|]. split; reflexivity. }
  rewrite Ea in Ev. injection Ev as -> Ev. rewrite Ep in H', S'. exists w', o'. split; [reflexivity|].
  split; [rewrite Eo; eapply upd_same; exact Ei|]. rewrite Ev. auto.
Qed.
