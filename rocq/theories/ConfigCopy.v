(* copy.deepcopy on heaps: the copy is an isomorphic graph of new objects. *)
From Coq Require Import ZArith String Ascii List Bool Arith Lia.
From Verif Require Import ConfigModel ConfigSpec ConfigHeap.
Import ListNotations.
Local Open Scope list_scope.
Local Open Scope nat_scope.

Inductive vrel (m : memo) : val -> val -> Prop :=
| vr_atom a : vrel m (VAtom a) (VAtom a)
| vr_tup vs vs' : vrels m vs vs' -> vrel m (VTup vs) (VTup vs')
| vr_ref l l' : mfind m l = Some l' -> vrel m (VRef l) (VRef l')
with vrels (m : memo) : list val -> list val -> Prop :=
| vrs_nil : vrels m [] []
| vrs_cons v v' vs vs' : vrel m v v' -> vrels m vs vs' -> vrels m (v :: vs) (v' :: vs').
Scheme vrel_mut := Minimality for vrel Sort Prop with vrels_mut := Minimality for vrels Sort Prop.
Combined Scheme vrel_ind2 from vrel_mut, vrels_mut.

Inductive irel (m : memo) : items -> items -> Prop :=
| ir_nil : irel m [] []
| ir_cons k v v' d d' : vrel m v v' -> irel m d d' -> irel m ((k, v) :: d) ((k, v') :: d').

Definition orel (m : memo) (o o' : obj) : Prop :=
  match o with
  | OList vs => exists vs', o' = OList vs' /\ vrels m vs vs'
  | ODict d => exists d', o' = ODict d' /\ irel m d d'
  | ONode mt d => exists d', o' = ONode mt d' /\ irel m d d'
  end.

Definition mext (m m' : memo) : Prop := forall l x, mfind m l = Some x -> mfind m' l = Some x.

Lemma vrel_mono_all m m' : mext m m' -> (forall v v', vrel m v v' -> vrel m' v v') /\ (forall v v', vrels m v v' -> vrels m' v v').
Proof.
  intros E. apply vrel_ind2; intros; constructor; auto.
Qed.
Lemma vrel_mono m m' v v' : mext m m' -> vrel m v v' -> vrel m' v v'.
Proof. intros E. apply (vrel_mono_all m m' E). Qed.
Lemma vrels_mono m m' v v' : mext m m' -> vrels m v v' -> vrels m' v v'.
Proof. intros E. apply (vrel_mono_all m m' E). Qed.
Lemma irel_mono m m' d d' : mext m m' -> irel m d d' -> irel m' d d'.
Proof. intros E. induction 1; constructor; auto. eapply vrel_mono; eauto. Qed.
Lemma orel_mono m m' o o' : mext m m' -> orel m o o' -> orel m' o o'.
Proof.
  intros E. destruct o; cbn; intros (x & -> & H); eexists; (split; [reflexivity|]);
  [eapply vrels_mono|eapply irel_mono|eapply irel_mono]; eauto.
Qed.

Definition memo_ok (m : memo) (h : heap) : Prop := forall l x, mfind m l = Some x -> x < length h.

Record good (N : nat) (m : memo) (h : heap) (m' : memo) (h' : heap) : Prop := {
  g_keeps : keeps h h';
  g_ext : mext m m';
  g_ok : memo_ok m' h';
  g_fresh : forall l x, mfind m' l = Some x -> mfind m l = Some x \/ length h <= x;
  g_new : forall l x, l < N -> mfind m' l = Some x -> mfind m l = Some x \/
            (length h <= x /\ exists o o', nth_error h l = Some o /\ nth_error h' x = Some o' /\ orel m' o o');
  g_inj : forall l1 l2 x, length h <= x -> mfind m' l1 = Some x -> mfind m' l2 = Some x -> l1 = l2
}.

Lemma good_refl N m h : memo_ok m h -> good N m h m h.
Proof.
  intros H. constructor; auto.
  - apply keeps_refl.
  - intros l x E. exact E.
  - intros l1 l2 x Hx E. apply H in E. lia.
Qed.
Lemma good_trans N m h m1 h1 m2 h2 : N <= length h -> good N m h m1 h1 -> good N m1 h1 m2 h2 -> good N m h m2 h2.
Proof.
  intros HN G1 G2. constructor.
  - eapply keeps_trans; [apply G1|apply G2].
  - intros l x E. apply G2, G1, E.
  - apply G2.
  - intros l x E. destruct (g_fresh _ _ _ _ _ G2 _ _ E) as [E1|E1].
    + apply (g_fresh _ _ _ _ _ G1), E1.
    + right. pose proof (keeps_length _ _ (g_keeps _ _ _ _ _ G1)). lia.
  - intros l x Hl E. destruct (g_new _ _ _ _ _ G2 _ _ Hl E) as [E1|(E1 & o & o' & A & B & C)].
    + destruct (g_new _ _ _ _ _ G1 _ _ Hl E1) as [E2|(E2 & o & o' & A & B & C)]; [auto|].
      right. split; [auto|]. exists o, o'. split; [auto|]. split; [apply (g_keeps _ _ _ _ _ G2), B|].
      eapply orel_mono; [apply G2|exact C].
    + right. split; [pose proof (keeps_length _ _ (g_keeps _ _ _ _ _ G1)); lia|].
      exists o, o'. split; [|auto]. rewrite <- A. symmetry. apply keeps_nth; [apply G1|lia].
  - intros l1 l2 x Hx A B. destruct (le_lt_dec (length h1) x) as [L|L].
    + eapply (g_inj _ _ _ _ _ G2); eauto.
    + destruct (g_fresh _ _ _ _ _ G2 _ _ A) as [A1|A1]; [|lia].
      destruct (g_fresh _ _ _ _ _ G2 _ _ B) as [B1|B1]; [|lia].
      eapply (g_inj _ _ _ _ _ G1); eauto.
Qed.

Lemma mapD_good {A B} N (f : memo -> A -> M (memo * B)) (R : memo -> A -> B -> Prop) (Rs : memo -> list A -> list B -> Prop) :
  (forall m m' x y, mext m m' -> R m x y -> R m' x y) ->
  (forall m, Rs m [] []) -> (forall m x y xs ys, R m x y -> Rs m xs ys -> Rs m (x :: xs) (y :: ys)) ->
  (forall m x h h' m' y, N <= length h -> memo_ok m h -> f m x h = (h', Done (m', y)) -> good N m h m' h' /\ R m' x y) ->
  forall xs m h h' m' ys, N <= length h -> memo_ok m h -> mapD f m xs h = (h', Done (m', ys)) -> good N m h m' h' /\ Rs m' xs ys.
Proof.
  intros Hmono Hnil Hcons Hf. induction xs as [|x xs IH]; intros m h h' m' ys HN Hok E; cbn in E.
  - inversion E; subst. split; [apply good_refl; auto|auto].
  - apply bind_done in E. destruct E as ([m1 y] & h1 & E1 & E). cbn [fst snd] in E.
    apply bind_done in E. destruct E as ([m2 ys'] & h2 & E2 & E). inversion E; subst. cbn [fst snd].
    destruct (Hf _ _ _ _ _ _ HN Hok E1) as [G1 R1].
    assert (N <= length h1) by (pose proof (keeps_length _ _ (g_keeps _ _ _ _ _ G1)); lia).
    destruct (IH m1 h1 h' m' ys') as [G2 R2]; auto. { apply G1. }
    split; [eapply good_trans; eauto|]. apply Hcons; auto. eapply Hmono; [apply G2|exact R1].
Qed.

Lemma mfind_cons_same m l x : mfind ((l, x) :: m) l = Some x.
Proof. cbn. rewrite Nat.eqb_refl. reflexivity. Qed.
Lemma mfind_cons_other m l x i : l <> i -> mfind ((l, x) :: m) i = mfind m i.
Proof. intros H. cbn. apply Nat.eqb_neq in H. rewrite H. reflexivity. Qed.

(* finishing the copy of one object *)
Lemma good_alloc N m h l o p m2 h2 o' : N <= length h -> memo_ok m h -> mfind m l = None -> nth_error h l = Some o ->
  good N ((l, length h) :: m) (h ++ [p]) m2 h2 -> orel m2 o o' ->
  good N m h m2 (upd h2 (length h) o') /\ mfind m2 l = Some (length h).
Proof.
  intros HN Hok Hm Ho G HR.
  assert (L1 : length (h ++ [p]) = S (length h)) by (rewrite app_length; cbn; lia).
  assert (Hl : mfind m2 l = Some (length h)) by (apply G, mfind_cons_same).
  assert (L2 : S (length h) <= length h2) by (rewrite <- L1; apply keeps_length, G).
  split; [|exact Hl]. constructor.
  - apply keeps_upd_new; [|lia]. eapply keeps_trans; [apply keeps_app|apply G].
  - intros i x E. apply G. rewrite mfind_cons_other; [exact E|]. intros ->. congruence.
  - intros i x E. rewrite upd_length. apply G in E. exact E.
  - intros i x E. destruct (g_fresh _ _ _ _ _ G _ _ E) as [E1|E1]; [|right; lia].
    destruct (Nat.eq_dec l i) as [<-|Hi].
    + rewrite mfind_cons_same in E1. inversion E1. right. lia.
    + rewrite mfind_cons_other in E1 by auto. auto.
  - intros i x Hi E. destruct (g_new _ _ _ _ _ G _ _ Hi E) as [E1|(E1 & a & a' & A & B & C)].
    + destruct (Nat.eq_dec l i) as [<-|Hn].
      * rewrite mfind_cons_same in E1. inversion E1; subst. right. split; [lia|]. exists o, o'.
        split; [auto|]. split; [apply upd_same; lia|auto].
      * rewrite mfind_cons_other in E1 by auto. auto.
    + right. split; [lia|]. exists a, a'. split; [|split; [rewrite upd_other by lia; exact B|exact C]].
      rewrite nth_error_app1 in A by lia. exact A.
  - intros i j x Hx A B. destruct (le_lt_dec (length (h ++ [p])) x) as [L|L].
    + eapply (g_inj _ _ _ _ _ G); eauto.
    + assert (x = length h) by lia. subst x.
      assert (K : forall q, mfind m2 q = Some (length h) -> q = l).
      { intros q Q. destruct (g_fresh _ _ _ _ _ G _ _ Q) as [E1|E1]; [|lia].
        destruct (Nat.eq_dec l q) as [->|Hn]; [reflexivity|]. rewrite mfind_cons_other in E1 by auto.
        apply Hok in E1. lia. }
      rewrite (K _ A), (K _ B). reflexivity.
Qed.

Lemma memo_ok_alloc m h l p : memo_ok m h -> memo_ok ((l, length h) :: m) (h ++ [p]).
Proof.
  intros H i x E. rewrite app_length. cbn. destruct (Nat.eq_dec l i) as [<-|Hn].
  - rewrite mfind_cons_same in E. inversion E. lia.
  - rewrite mfind_cons_other in E by auto. apply H in E. lia.
Qed.

Lemma irel_app_cons m kv kv' d d' : fst kv = fst kv' -> vrel m (snd kv) (snd kv') -> irel m d d' -> irel m (kv :: d) (kv' :: d').
Proof. destruct kv, kv'; cbn. intros -> H H'. constructor; auto. Qed.

Lemma dcopy_good N : forall fuel m v h h' m' v', N <= length h -> memo_ok m h ->
  dcopy fuel m v h = (h', Done (m', v')) -> good N m h m' h' /\ vrel m' v v'.
Proof.
  induction fuel as [|f IH]; intros m v h h' m' v' HN Hok E; cbn in E; [discriminate|].
  assert (Kvs : forall xs m h h' m' ys, N <= length h -> memo_ok m h -> mapD (dcopy f) m xs h = (h', Done (m', ys)) ->
            good N m h m' h' /\ vrels m' xs ys).
  { apply (mapD_good N (dcopy f) (fun m => vrel m) (fun m => vrels m)).
    - intros. eapply vrel_mono; eauto.
    - intros. constructor.
    - intros. constructor; auto.
    - exact IH. }
  assert (Kd : forall xs m h h' m' ys, N <= length h -> memo_ok m h ->
            mapD (fun m (kv : string * val) => let! q := dcopy f m (snd kv) in ret (fst q, (fst kv, snd q))) m xs h = (h', Done (m', ys)) ->
            good N m h m' h' /\ irel m' xs ys).
  { apply (mapD_good N _ (fun m kv kv' => fst kv = fst kv' /\ vrel m (snd kv) (snd kv')) (fun m => irel m)).
    - intros ? ? ? ? X [A B]. split; auto. eapply vrel_mono; eauto.
    - intros. constructor.
    - intros ? ? ? ? ? [A B] C. apply irel_app_cons; auto.
    - intros m0 x h0 h0' m0' y HN0 Hok0 E0. apply bind_done in E0. destruct E0 as ([m1 w] & h1 & E1 & E2).
      inversion E2; subst. cbn [fst snd]. destruct (IH _ _ _ _ _ _ HN0 Hok0 E1) as [G R]. auto. }
  destruct v as [a|vs|l].
  - inversion E; subst. split; [apply good_refl; auto|constructor].
  - apply bind_done in E. destruct E as ([m1 ws] & h1 & E1 & E2). inversion E2; subst. cbn [fst snd].
    destruct (Kvs _ _ _ _ _ _ HN Hok E1) as [G R]. split; [exact G|constructor; exact R].
  - destruct (mfind m l) as [x|] eqn:Em.
    + inversion E; subst. split; [apply good_refl; auto|constructor; exact Em].
    + apply bind_done in E. destruct E as (o & h0 & E0 & E). unfold load in E0.
      destruct (nth_error h l) as [o0|] eqn:Eo; [|discriminate]. inversion E0; subst o0 h0. clear E0.
      assert (HN1 : forall p : obj, N <= length (h ++ [p])) by (intros p; rewrite app_length; lia).
      destruct o as [vs|d|mt d]; apply bind_done in E; destruct E as (l' & h1 & E1 & E); inversion E1; subst l' h1; clear E1;
      apply bind_done in E; destruct E as ([m2 ys] & h2 & E2 & E); cbn [fst snd] in E;
      inversion E; subst; clear E.
      * destruct (Kvs _ _ _ _ _ _ (HN1 _) (memo_ok_alloc _ _ l _ Hok) E2) as [G R].
        destruct (good_alloc N m h l (OList vs) (OList []) m' h2 (OList ys) HN Hok Em Eo G) as [G' F]; [cbn; eauto|].
        split; [exact G'|constructor; exact F].
      * destruct (Kd _ _ _ _ _ _ (HN1 _) (memo_ok_alloc _ _ l _ Hok) E2) as [G R].
        destruct (good_alloc N m h l (ODict d) (ODict []) m' h2 (ODict ys) HN Hok Em Eo G) as [G' F]; [cbn; eauto|].
        split; [exact G'|constructor; exact F].
      * destruct (Kd _ _ _ _ _ _ (HN1 _) (memo_ok_alloc _ _ l _ Hok) E2) as [G R].
        destruct (good_alloc N m h l (ONode mt d) (ONode mt []) m' h2 (ONode mt ys) HN Hok Em Eo G) as [G' F]; [cbn; eauto|].
        split; [exact G'|constructor; exact F].
Qed.

(* ---------------------------------------------------------------- old objects are kept, whatever the outcome *)
Lemma mapD_keeps {A B} (f : memo -> A -> M (memo * B)) :
  (forall m x h h' r, f m x h = (h', r) -> keeps h h') -> forall xs m h h' r, mapD f m xs h = (h', r) -> keeps h h'.
Proof.
  intros Hf. induction xs as [|x xs IH]; intros m h h' r E; cbn in E.
  - inversion E. apply keeps_refl.
  - apply bind_inv in E. destruct E as [(y & h1 & E1 & E)|(e & E1 & _)]; [|eauto].
    apply bind_inv in E. destruct E as [(z & h2 & E2 & E)|(e & E2 & _)].
    + inversion E; subst. eapply keeps_trans; eauto.
    + eapply keeps_trans; eauto.
Qed.
Lemma dcopy_keeps : forall fuel m v h h' r, dcopy fuel m v h = (h', r) -> keeps h h'.
Proof.
  induction fuel as [|f IH]; intros m v h h' r E; cbn in E; [inversion E; apply keeps_refl|].
  assert (Kd : forall xs m h h' r,
            mapD (fun m (kv : string * val) => let! q := dcopy f m (snd kv) in ret (fst q, (fst kv, snd q))) m xs h = (h', r) -> keeps h h').
  { apply (mapD_keeps (A := string * val)). intros m0 x h0 h0' r0 E0. apply bind_inv in E0.
    destruct E0 as [(y & h1 & E1 & E2)|(e & E1 & _)]; [inversion E2; subst|]; eapply IH; eauto. }
  pose proof (mapD_keeps (dcopy f) IH) as Kvs.
  destruct v as [a|vs|l].
  - inversion E. apply keeps_refl.
  - apply bind_inv in E. destruct E as [(y & h1 & E1 & E)|(e & E1 & _)]; [inversion E; subst|]; eapply Kvs; eauto.
  - destruct (mfind m l); [inversion E; apply keeps_refl|].
    apply bind_inv in E. destruct E as [(o & h0 & E0 & E)|(e & E0 & _)]; [|inversion E0; apply keeps_refl].
    inversion E0; subst h0. clear E0.
    destruct o as [vs|d|mt d]; apply bind_inv in E; (destruct E as [(l' & h1 & E1 & E)|(e & E1 & _)]; [|inversion E1]);
    inversion E1; subst l' h1; clear E1;
    apply bind_inv in E; (destruct E as [(p & h2 & E2 & E)|(e & E2 & _)];
      [inversion E; subst; apply keeps_upd_new; [|lia]|]);
    (eapply keeps_trans; [apply keeps_app|]); (first [eapply Kvs; eassumption | eapply Kd; eassumption]).
Qed.
Lemma deepcopy_keeps fuel v h h' r : deepcopy fuel v h = (h', r) -> keeps h h'.
Proof.
  unfold deepcopy. intros E. apply bind_inv in E.
  destruct E as [(p & h1 & E1 & E)|(e & E1 & _)]; [inversion E; subst|]; eapply dcopy_keeps; eauto.
Qed.

(* ---------------------------------------------------------------- the copy reads like the original *)
Definition image (m : memo) (l : loc) : loc := match mfind m l with Some x => x | None => 0 end.

Lemma irel_keys m d d' : irel m d d' -> keys d = keys d'.
Proof. induction 1; cbn; auto. f_equal. auto. Qed.

Lemma reads_image h m h' : keeps h h' -> good (length h) [] h m h' ->
  (forall v t fp, reads h v t fp -> forall v', vrel m v v' -> reads h' v' t (map (image m) fp) /\ (forall l, In l fp -> mfind m l <> None)) /\
  (forall v t fp, reads_all h v t fp -> forall v', vrels m v v' -> reads_all h' v' t (map (image m) fp) /\ (forall l, In l fp -> mfind m l <> None)) /\
  (forall v t fp, reads_items h v t fp -> forall v', irel m v v' -> reads_items h' v' t (map (image m) fp) /\ (forall l, In l fp -> mfind m l <> None)).
Proof.
  intros K G.
  assert (Hobj : forall l x o, mfind m l = Some x -> nth_error h l = Some o -> exists o', nth_error h' x = Some o' /\ orel m o o').
  { intros l x o E Eo. destruct (g_new _ _ _ _ _ G l x) as [C|(_ & a & a' & A & B & C)]; [eapply nth_lt; eauto|exact E|discriminate|].
    rewrite Eo in A. inversion A; subst. eauto. }
  apply reads_ind3.
  - intros a v' H. inversion H; subst. split; [constructor|contradiction].
  - intros vs ts fp _ IH v' H. inversion H; subst. destruct (IH _ H1) as [A B]. split; [constructor; exact A|exact B].
  - intros l vs ts fp E _ IH v' H. inversion H; subst. destruct (Hobj _ _ _ H1 E) as (o' & E' & ws & -> & R).
    destruct (IH _ R) as [A B]. split; [econstructor; eauto|exact B].
  - intros l d ts fp E ND _ IH v' H. inversion H; subst. destruct (Hobj _ _ _ H1 E) as (o' & E' & ws & -> & R).
    destruct (IH _ R) as [A B]. split.
    + cbn [map]. unfold image at 1. rewrite H1. econstructor; eauto. rewrite <- (irel_keys _ _ _ R). exact ND.
    + intros i [<-|Hi]; [congruence|auto].
  - intros l mt d ts fp E ND _ IH v' H. inversion H; subst. destruct (Hobj _ _ _ H1 E) as (o' & E' & ws & -> & R).
    destruct (IH _ R) as [A B]. split.
    + cbn [map]. unfold image at 1. rewrite H1. econstructor; eauto. rewrite <- (irel_keys _ _ _ R). exact ND.
    + intros i [<-|Hi]; [congruence|auto].
  - intros v' H. inversion H; subst. split; [constructor|contradiction].
  - intros v t fp vs ts fps _ IH _ IHs v' H. inversion H; subst.
    match goal with X : vrel _ _ _ |- _ => destruct (IH _ X) as [A B] end.
    match goal with X : vrels _ _ _ |- _ => destruct (IHs _ X) as [C D] end.
    rewrite map_app. split; [constructor; auto|]. intros l Hl. apply in_app_or in Hl. destruct Hl; auto.
  - intros v' H. inversion H; subst. split; [constructor|contradiction].
  - intros k v t fp vs ts fps _ IH _ IHs v' H. inversion H; subst.
    match goal with X : vrel _ _ _ |- _ => destruct (IH _ X) as [A B] end.
    match goal with X : irel _ _ _ |- _ => destruct (IHs _ X) as [C D] end.
    rewrite map_app. split; [constructor; auto|]. intros l Hl. apply in_app_or in Hl. destruct Hl; auto.
Qed.

Lemma NoDup_map_inj {A B} (f : A -> B) (l : list A) : (forall x y, In x l -> In y l -> f x = f y -> x = y) -> NoDup l -> NoDup (map f l).
Proof.
  induction l as [|x l IH]; cbn; intros Hi HN; [constructor|]. inversion HN; subst. constructor.
  - intros C. apply in_map_iff in C. destruct C as (y & E & Hy). assert (y = x) by (apply Hi; auto). congruence.
  - apply IH; auto.
Qed.

Lemma deepcopy_reads fuel v h h' v' t fp : reads h v t fp -> deepcopy fuel v h = (h', Done v') ->
  exists fp', reads h' v' t fp' /\ (forall l, In l fp' -> length h <= l < length h') /\ (NoDup fp -> NoDup fp').
Proof.
  intros R E. unfold deepcopy in E. apply bind_done in E. destruct E as ([m w] & h1 & E & E2).
  cbn [snd] in E2. inversion E2; subst h1 w. clear E2.
  destruct (dcopy_good (length h) fuel [] v h h' m v') as [G V]; [lia|intros l x C; discriminate|exact E|].
  destruct (proj1 (reads_image h m h' (g_keeps _ _ _ _ _ G) G) v t fp R v' V) as [R' D].
  exists (map (image m) fp). split; [exact R'|].
  assert (HI : forall l, In l fp -> exists x, mfind m l = Some x /\ length h <= x).
  { intros l Hl. destruct (mfind m l) as [x|] eqn:Ex; [|exfalso; apply (D l); auto]. exists x. split; auto.
    destruct (g_fresh _ _ _ _ _ G _ _ Ex); [discriminate|auto]. }
  split.
  - intros l Hl. split; [|eapply (proj1 (reads_lt h')); eauto]. apply in_map_iff in Hl. destruct Hl as (i & <- & Hi).
    destruct (HI _ Hi) as (x & Ex & Hx). unfold image. rewrite Ex. exact Hx.
  - apply NoDup_map_inj. intros a b Ha Hb Hab. destruct (HI _ Ha) as (x & Ex & Hx). destruct (HI _ Hb) as (y & Ey & Hy).
    unfold image in Hab. rewrite Ex, Ey in Hab. subst y. eapply (g_inj _ _ _ _ _ G); eauto.
Qed.

(* ---------------------------------------------------------------- enough fuel: the copy is made *)
Lemma mapD_total {A B} (f : memo -> A -> M (memo * B)) (P : heap -> A -> Prop) :
  (forall h h' x, keeps h h' -> P h x -> P h' x) ->
  (forall m x h h' r, f m x h = (h', r) -> keeps h h') ->
  (forall m x h, P h x -> exists h' m' y, f m x h = (h', Done (m', y))) ->
  forall xs m h, Forall (P h) xs -> exists h' m' ys, mapD f m xs h = (h', Done (m', ys)).
Proof.
  intros HP HK Hf. induction xs as [|x xs IH]; intros m h HF; cbn; [unfold ret; eauto|].
  inversion HF; subst. destruct (Hf m x h) as (h1 & m1 & y & E1); auto. rewrite (bind_eq _ _ _ _ _ E1). cbn [fst snd].
  destruct (IH m1 h1) as (h2 & m2 & ys & E2). { eapply Forall_impl; [|exact H2]. intros a. apply HP. eapply HK; eauto. }
  rewrite (bind_eq _ _ _ _ _ E2). unfold ret. cbn [fst snd]. eauto.
Qed.

Lemma reads_all_forall h vs ts fp : reads_all h vs ts fp -> Forall2 (fun v t => exists fp, reads h v t fp) vs ts.
Proof. induction 1; constructor; eauto. Qed.
Lemma reads_items_forall h d ts fp : reads_items h d ts fp -> Forall2 (fun kv kt => fst kv = fst kt /\ exists fp, reads h (snd kv) (snd kt) fp) d ts.
Proof. induction 1; constructor; cbn; eauto. Qed.

Lemma tdepth_tup ts t : In t ts -> tdepth t < tdepth (TTup ts).
Proof.
  intros H. apply le_n_S. induction ts as [|x ts IH]; [contradiction|]. destruct H as [->|H]; [apply Nat.le_max_l|].
  etransitivity; [apply IH, H|]. apply Nat.le_max_r.
Qed.
Lemma tdepth_list ts t : In t ts -> tdepth t < tdepth (TList ts).
Proof. apply tdepth_tup. Qed.
Lemma tdepth_dict ts k t : In (k, t) ts -> tdepth t < tdepth (TDict ts).
Proof.
  intros H. apply le_n_S. induction ts as [|[k' x] ts IH]; [contradiction|]. destruct H as [E|H].
  - inversion E; subst. apply Nat.le_max_l.
  - etransitivity; [apply IH, H|]. apply Nat.le_max_r.
Qed.
Lemma tdepth_node m ts k t : In (k, t) ts -> tdepth t < tdepth (TNode m ts).
Proof. apply tdepth_dict. Qed.

Lemma dcopy_total : forall fuel m v h t fp, reads h v t fp -> tdepth t <= fuel ->
  exists h' m' v', dcopy fuel m v h = (h', Done (m', v')).
Proof.
  induction fuel as [|f IH]; intros m v h t fp R Hd; [destruct t; cbn in Hd; lia|].
  set (P := fun (h : heap) (v : val) => exists t fp, reads h v t fp /\ tdepth t <= f).
  assert (PK : forall h h' x, keeps h h' -> P h x -> P h' x).
  { intros h0 h1 x K (t0 & fp0 & A & B). exists t0, fp0. split; auto. eapply reads_keeps; eauto. }
  assert (Pf : forall m x h, P h x -> exists h' m' y, dcopy f m x h = (h', Done (m', y))).
  { intros m0 x h0 (t0 & fp0 & A & B). eapply IH; eauto. }
  pose proof (mapD_total (dcopy f) P PK (dcopy_keeps f) Pf) as Tvs.
  assert (Td : forall (xs : items) m h, Forall (fun kv => P h (snd kv)) xs -> exists h' m' ys,
     mapD (fun m (kv : string * val) => let! q := dcopy f m (snd kv) in ret (fst q, (fst kv, snd q))) m xs h = (h', Done (m', ys))).
  { apply (mapD_total _ (fun h (kv : string * val) => P h (snd kv))).
    - intros h0 h1 x. apply PK.
    - intros m0 x h0 h0' r0 E0. apply bind_inv in E0.
      destruct E0 as [(y & h1 & E1 & E2)|(e & E1 & _)]; [inversion E2; subst|]; eapply dcopy_keeps; eauto.
    - intros m0 x h0 Px. destruct (Pf m0 (snd x) h0 Px) as (h1 & m1 & y & E1). rewrite (bind_eq _ _ _ _ _ E1).
      unfold ret. eauto. }
  assert (Fvs : forall vs ts fp h0, reads_all h0 vs ts fp -> (forall t, In t ts -> tdepth t <= f) -> Forall (P h0) vs).
  { intros vs ts fp0 h0 H. induction H; intros D; constructor.
    - exists t0, fp0. split; auto. apply D. cbn. auto.
    - apply IHreads_all. intros x Hx. apply D. cbn. auto. }
  assert (Fd : forall vs ts fp h0, reads_items h0 vs ts fp -> (forall k t, In (k, t) ts -> tdepth t <= f) -> Forall (fun kv => P h0 (snd kv)) vs).
  { intros vs ts fp0 h0 H. induction H; intros D; constructor.
    - exists t0, fp0. split; auto. apply (D k). cbn. auto.
    - apply IHreads_items. intros k' x Hx. apply (D k'). cbn. auto. }
  destruct R as [a|vs ts fp R|l vs ts fp E R|l d ts fp E N R|l mt d ts fp E N R]; cbn.
  - unfold ret. eauto.
  - destruct (Tvs vs m h) as (h1 & m1 & ys & E1).
    { eapply Fvs; eauto. intros x Hx. pose proof (tdepth_tup _ _ Hx). lia. }
    rewrite (bind_eq _ _ _ _ _ E1). unfold ret. eauto.
  - destruct (mfind m l); [unfold ret; eauto|].
    erewrite bind_eq by (unfold load; rewrite E; reflexivity). cbv beta iota. erewrite bind_eq by reflexivity. cbv beta.
    destruct (Tvs vs ((l, length h) :: m) (h ++ [OList []])) as (h1 & m1 & ys & E1).
    { eapply Fvs. { eapply reads_all_keeps; [apply keeps_app|exact R]. } intros x Hx. pose proof (tdepth_list _ _ Hx). lia. }
    rewrite (bind_eq _ _ _ _ _ E1). unfold bind, store, ret. eauto.
  - destruct (mfind m l); [unfold ret; eauto|].
    erewrite bind_eq by (unfold load; rewrite E; reflexivity). cbv beta iota. erewrite bind_eq by reflexivity. cbv beta.
    destruct (Td d ((l, length h) :: m) (h ++ [ODict []])) as (h1 & m1 & ys & E1).
    { eapply Fd. { eapply reads_items_keeps; [apply keeps_app|exact R]. } intros k x Hx. pose proof (tdepth_dict _ _ _ Hx). lia. }
    rewrite (bind_eq _ _ _ _ _ E1). unfold bind, store, ret. eauto.
  - destruct (mfind m l); [unfold ret; eauto|].
    erewrite bind_eq by (unfold load; rewrite E; reflexivity). cbv beta iota. erewrite bind_eq by reflexivity. cbv beta.
    destruct (Td d ((l, length h) :: m) (h ++ [ONode mt []])) as (h1 & m1 & ys & E1).
    { eapply Fd. { eapply reads_items_keeps; [apply keeps_app|exact R]. } intros k x Hx. pose proof (tdepth_node mt _ _ _ Hx). lia. }
    rewrite (bind_eq _ _ _ _ _ E1). unfold bind, store, ret. eauto.
Qed.
Lemma deepcopy_total fuel v h t fp : reads h v t fp -> tdepth t <= fuel -> exists h' v', deepcopy fuel v h = (h', Done v').
Proof.
  intros R D. destruct (dcopy_total fuel [] v h t fp R D) as (h' & m' & v' & E). unfold deepcopy.
  rewrite (bind_eq _ _ _ _ _ E). unfold ret. eauto.
Qed.

(* the only exception deepcopy raises on a readable value is RecursionError *)
Lemma mapD_errors {A B} (f : memo -> A -> M (memo * B)) (P : heap -> A -> Prop) :
  (forall h h' x, keeps h h' -> P h x -> P h' x) ->
  (forall m x h h' r, f m x h = (h', r) -> keeps h h') ->
  (forall m x h h' e, P h x -> f m x h = (h', Raise e) -> e = XRecursion) ->
  forall xs m h h' e, Forall (P h) xs -> mapD f m xs h = (h', Raise e) -> e = XRecursion.
Proof.
  intros HP HK Hf. induction xs as [|x xs IH]; intros m h h' e HF E; cbn in E; [discriminate|].
  inversion HF; subst. apply bind_inv in E. destruct E as [(y & h1 & E1 & E)|(e' & E1 & E)].
  - apply bind_inv in E. destruct E as [(z & h2 & E2 & E)|(e' & E2 & E)]; [discriminate|]. inversion E; subst.
    eapply IH; [|exact E2]. eapply Forall_impl; [|exact H2]. intros a. apply HP. eapply HK; eauto.
  - inversion E; subst. eapply Hf; eauto.
Qed.
Lemma dcopy_errors : forall fuel m v h h' e t fp, reads h v t fp -> dcopy fuel m v h = (h', Raise e) -> e = XRecursion.
Proof.
  induction fuel as [|f IH]; intros m v h h' e t fp R E; cbn in E; [inversion E; reflexivity|].
  set (P := fun (h : heap) (v : val) => exists t fp, reads h v t fp).
  assert (PK : forall h h' x, keeps h h' -> P h x -> P h' x).
  { intros h0 h1 x K (t0 & fp0 & A). exists t0, fp0. eapply reads_keeps; eauto. }
  assert (Pf : forall m x h h' e, P h x -> dcopy f m x h = (h', Raise e) -> e = XRecursion).
  { intros m0 x h0 h0' e0 (t0 & fp0 & A) B. eapply IH; eauto. }
  pose proof (mapD_errors (dcopy f) P PK (dcopy_keeps f) Pf) as Tvs.
  assert (Td : forall (xs : items) m h h' e, Forall (fun kv => P h (snd kv)) xs ->
     mapD (fun m (kv : string * val) => let! q := dcopy f m (snd kv) in ret (fst q, (fst kv, snd q))) m xs h = (h', Raise e) -> e = XRecursion).
  { apply (mapD_errors _ (fun h (kv : string * val) => P h (snd kv))).
    - intros h0 h1 x. apply PK.
    - intros m0 x h0 h0' r0 E0. apply bind_inv in E0.
      destruct E0 as [(y & h1 & E1 & E2)|(e0 & E1 & _)]; [inversion E2; subst|]; eapply dcopy_keeps; eauto.
    - intros m0 x h0 h0' e0 Px E0. apply bind_inv in E0.
      destruct E0 as [(y & h1 & E1 & E2)|(e1 & E1 & X)]; [discriminate|]. inversion X; subst. eapply Pf; eauto. }
  assert (Fvs : forall vs ts fp h0, reads_all h0 vs ts fp -> Forall (P h0) vs).
  { intros vs ts fp0 h0 H. induction H; constructor; auto. unfold P. eauto. }
  assert (Fd : forall vs ts fp h0, reads_items h0 vs ts fp -> Forall (fun kv => P h0 (snd kv)) vs).
  { intros vs ts fp0 h0 H. induction H; constructor; auto. unfold P. cbn. eauto. }
  destruct R as [a|vs ts fp R|l vs ts fp El R|l d ts fp El N R|l mt d ts fp El N R].
  - discriminate.
  - apply bind_inv in E. destruct E as [(y & h1 & E1 & E2)|(e1 & E1 & X)]; [discriminate|]. inversion X; subst.
    eapply Tvs; [|exact E1]. eapply Fvs; eauto.
  - destruct (mfind m l); [discriminate|]. erewrite bind_eq in E by (unfold load; rewrite El; reflexivity). cbv beta iota in E.
    erewrite bind_eq in E by reflexivity. cbv beta in E. apply bind_inv in E.
    destruct E as [(y & h1 & E1 & E2)|(e1 & E1 & X)]; [discriminate|]. inversion X; subst.
    eapply Tvs; [|exact E1]. eapply Fvs. eapply reads_all_keeps; [apply keeps_app|exact R].
  - destruct (mfind m l); [discriminate|]. erewrite bind_eq in E by (unfold load; rewrite El; reflexivity). cbv beta iota in E.
    erewrite bind_eq in E by reflexivity. cbv beta in E. apply bind_inv in E.
    destruct E as [(y & h1 & E1 & E2)|(e1 & E1 & X)]; [discriminate|]. inversion X; subst.
    eapply Td; [|exact E1]. eapply Fd. eapply reads_items_keeps; [apply keeps_app|exact R].
  - destruct (mfind m l); [discriminate|]. erewrite bind_eq in E by (unfold load; rewrite El; reflexivity). cbv beta iota in E.
    erewrite bind_eq in E by reflexivity. cbv beta in E. apply bind_inv in E.
    destruct E as [(y & h1 & E1 & E2)|(e1 & E1 & X)]; [discriminate|]. inversion X; subst.
    eapply Td; [|exact E1]. eapply Fd. eapply reads_items_keeps; [apply keeps_app|exact R].
Qed.
Lemma deepcopy_errors fuel v h h' e t fp : reads h v t fp -> deepcopy fuel v h = (h', Raise e) -> e = XRecursion.
Proof.
  intros R E. unfold deepcopy in E. apply bind_inv in E.
  destruct E as [(p & h1 & E1 & E2)|(e1 & E1 & X)]; [discriminate|]. inversion X; subst. eapply dcopy_errors; eauto.
Qed.
