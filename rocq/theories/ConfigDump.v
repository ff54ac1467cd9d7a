(* clone, dump and load. *)
From Coq Require Import ZArith String Ascii List Bool Arith Lia.
From Verif Require Import ConfigModel ConfigSpec ConfigHeap ConfigCopy ConfigTree ConfigMerge ConfigMergeHeap ConfigPaths ConfigList.
Import ListNotations.
Local Open Scope list_scope.
Local Open Scope nat_scope.

(* ---------------------------------------------------------------- clone *)
Lemma reads_all_in h vs ts fp v : reads_all h vs ts fp -> In v vs -> exists t fp', reads h v t fp'.
Proof. induction 1; cbn; [contradiction|]. intros [<-|H1]; eauto. Qed.
Lemma reads_items_in h d ts fp v : reads_items h d ts fp -> In v (map snd d) -> exists t fp', reads h v t fp'.
Proof. induction 1; cbn; [contradiction|]. intros [<-|H1]; eauto. Qed.
Lemma vrels_in m vs vs' v' : vrels m vs vs' -> In v' vs' -> exists v, In v vs /\ vrel m v v'.
Proof. induction 1; cbn; [contradiction|]. intros [<-|H1]; [eauto|]. destruct (IHvrels H1) as (x & ? & ?). eauto. Qed.
Lemma irel_in m d d' v' : irel m d d' -> In v' (map snd d') -> exists v, In v (map snd d) /\ vrel m v v'.
Proof. induction 1; cbn; [contradiction|]. intros [<-|H1]; [eauto|]. destruct (IHirel H1) as (x & ? & ?). eauto. Qed.
Lemma reads_values h l o t fp v : reads h (VRef l) t fp -> nth_error h l = Some o -> In v (obj_values o) -> exists t' fp', reads h v t' fp'.
Proof.
  intros R E I. inversion R; subst; rewrite E in *; match goal with X : Some _ = Some _ |- _ => inversion X; subst end; cbn in I;
    [eapply reads_all_in|eapply reads_items_in|eapply reads_items_in]; eauto.
Qed.
Lemma reads_here h l t fp : reads h (VRef l) t fp -> exists o, nth_error h l = Some o.
Proof. inversion 1; subst; eauto. Qed.
Lemma orel_in m o o' v' : orel m o o' -> In v' (obj_values o') -> exists v, In v (obj_values o) /\ vrel m v v'.
Proof. destruct o; cbn; intros (x & -> & R) I; cbn in I; [eapply vrels_in|eapply irel_in|eapply irel_in]; eauto. Qed.

Lemma copy_reach h m h' : good (length h) [] h m h' -> forall v' l, reach h' v' l -> forall v t fp, reads h v t fp -> vrel m v v' -> length h <= l.
Proof.
  intros G. assert (Fr : forall l x, mfind m l = Some x -> length h <= x) by (intros l x E; destruct (g_fresh _ _ _ _ _ G _ _ E); [discriminate|auto]).
  induction 1 as [l|vs v' l I R IH|l0 o v' l E I R IH]; intros v t fp Rd V.
  - inversion V; subst. eauto.
  - inversion V; subst. match goal with X : vrels _ _ _ |- _ => destruct (vrels_in _ _ _ _ X I) as (x & I1 & V1) end. inversion Rd; subst.
    match goal with X : reads_all _ _ _ _ |- _ => destruct (reads_all_in _ _ _ _ _ X I1) as (t1 & fp1 & R1) end. eauto.
  - inversion V as [| |l1 ? M]; subst. destruct (reads_here _ _ _ _ Rd) as [o1 Eo1].
    destruct (g_new _ _ _ _ _ G l1 l0) as [C|(_ & a & a' & A & B & C)]; [eapply nth_lt; eauto|exact M|discriminate|].
    rewrite A in Eo1. inversion Eo1; subst a. rewrite E in B. inversion B; subst a'.
    destruct (orel_in _ _ _ _ C I) as (x & I1 & V1). destruct (reads_values _ _ _ _ _ _ Rd A I1) as (t1 & fp1 & R1). eauto.
Qed.
Lemma reach_lt h : forall v l, reach h v l -> forall h0 t fp, keeps h0 h -> reads h0 v t fp -> l < length h0.
Proof.
  induction 1 as [l|vs v' l I R IH|l0 o v' l E I R IH]; intros h0 t fp K Rd.
  - destruct (reads_here _ _ _ _ Rd) as [o E]. eapply nth_lt; eauto.
  - inversion Rd; subst. match goal with X : reads_all _ _ _ _ |- _ => destruct (reads_all_in _ _ _ _ _ X I) as (t1 & fp1 & R1) end. eauto.
  - destruct (reads_here _ _ _ _ Rd) as [o1 Eo1]. pose proof (K _ _ Eo1) as X. rewrite E in X. inversion X; subst.
    destruct (reads_values _ _ _ _ _ _ Rd Eo1 I) as (t1 & fp1 & R1). eauto.
Qed.
Lemma reads_agree_all h h2 :
  (forall v t fp, reads h v t fp -> (forall l, reach h v l -> nth_error h2 l = nth_error h l) -> reads h2 v t fp) /\
  (forall vs t fp, reads_all h vs t fp -> (forall v l, In v vs -> reach h v l -> nth_error h2 l = nth_error h l) -> reads_all h2 vs t fp) /\
  (forall d t fp, reads_items h d t fp -> (forall v l, In v (map snd d) -> reach h v l -> nth_error h2 l = nth_error h l) -> reads_items h2 d t fp).
Proof.
  apply reads_ind3.
  - constructor.
  - intros vs ts fp R IH H. constructor. apply IH. intros v l I Rc. apply H. econstructor; eauto.
  - intros l vs ts fp E R IH H. econstructor; [rewrite H; [exact E|constructor]|]. apply IH. intros v l' I Rc. apply H. eapply reach_obj; eauto.
  - intros l vs ts fp E N R IH H. econstructor; [rewrite H; [exact E|constructor]|exact N|]. apply IH. intros v l' I Rc. apply H. eapply reach_obj; eauto.
  - intros l m vs ts fp E N R IH H. econstructor; [rewrite H; [exact E|constructor]|exact N|]. apply IH. intros v l' I Rc. apply H. eapply reach_obj; eauto.
  - constructor.
  - intros v t fp vs ts fps R IH Rs IHs H. constructor; [apply IH|apply IHs]; intros; eapply H; eauto; cbn; auto.
  - constructor.
  - intros k v t fp d ts fps R IH Rs IHs H. constructor; [apply IH|apply IHs]; intros; eapply H; eauto; cbn; auto.
Qed.
Lemma reads_agree h h2 v t fp : (forall l, reach h v l -> nth_error h2 l = nth_error h l) -> reads h v t fp -> reads h2 v t fp.
Proof. intros H R. exact (proj1 (reads_agree_all h h2) v t fp R H). Qed.

Lemma clone_ok fuel v h t fp : reads h v t fp -> tdepth t <= fuel ->
  exists h' v' fp', clone fuel v h = (h', Done v') /\ keeps h h' /\ reads h' v t fp /\ reads h' v' t fp' /\ (NoDup fp -> NoDup fp') /\ independent h' v v'.
Proof.
  intros R D. destruct (deepcopy_total _ _ _ _ _ R D) as (h' & v' & E). exists h', v'.
  destruct (deepcopy_reads _ _ _ _ _ _ _ R E) as (fp' & R' & F & N). exists fp'. pose proof (deepcopy_keeps _ _ _ _ _ E) as K.
  split; [exact E|]. split; [exact K|]. split; [eapply reads_keeps; eauto|]. split; [exact R'|]. split; [exact N|].
  intros l R1 R2. pose proof (reach_lt _ _ _ R1 _ _ _ K R) as L1.
  unfold deepcopy in E. apply bind_done in E. destruct E as ([m w] & h1 & E & E2).
  cbn [snd] in E2. inversion E2; subst h1 w. clear E2.
  destruct (dcopy_good (length h) fuel [] v h h' m v') as [G V]; [lia|intros l' x C; discriminate|exact E|].
  pose proof (copy_reach _ _ _ G _ _ R2 _ _ _ R V). lia.
Qed.

(* ---------------------------------------------------------------- dump *)
Fixpoint tlit (t : tree) : lit :=
  match t with
  | TAtom a => LAtom a
  | TTup l => LTup (map tlit l)
  | TList l => LList (map tlit l)
  | TDict d | TNode _ d => LDict ((fix go d := match d with [] => [] | (k, x) :: r => (k, tlit x) :: go r end) d)
  end.
Fixpoint tlit_items (d : list (string * tree)) : list (string * lit) := match d with [] => [] | (k, x) :: r => (k, tlit x) :: tlit_items r end.
Lemma tlit_dict d : tlit (TDict d) = LDict (tlit_items d). Proof. reflexivity. Qed.
Lemma tlit_node m d : tlit (TNode m d) = LDict (tlit_items d). Proof. reflexivity. Qed.
Lemma tlit_keys d : keys (tlit_items d) = keys d. Proof. induction d as [|[k x] d IH]; cbn; [reflexivity|]. f_equal. exact IH. Qed.
Lemma tlit_items_in d k y : In (k, y) (tlit_items d) <-> exists x, In (k, x) d /\ y = tlit x.
Proof.
  induction d as [|[k' x] d IH]; cbn; [split; [contradiction|intros (x & [] & _)]|]. split.
  - intros [E|H]; [inversion E; subst; eauto|]. apply IH in H. destruct H as (x0 & A & B). eauto.
  - intros (x0 & [E|H] & ->); [inversion E; subst; auto|]. right. apply IH. eauto.
Qed.

Lemma mapM_reads_all {B} (f : val -> M B) (g : tree -> B) h : forall vs ts fp, reads_all h vs ts fp ->
  (forall v t, In v vs -> In t ts -> (exists fp, reads h v t fp) -> f v h = (h, Done (g t))) -> mapM f vs h = (h, Done (map g ts)).
Proof.
  induction 1 as [|v t fp vs ts fps R Rs IH]; intros H; [reflexivity|]. cbn [mapM map].
  rewrite (bind_eq _ _ _ _ _ (H v t (or_introl eq_refl) (or_introl eq_refl) (ex_intro _ _ R))).
  erewrite bind_eq; [reflexivity|]. apply IH. intros; apply H; cbn; auto.
Qed.
Lemma mapM_reads_items {B} (f : string * val -> M (string * B)) (g : tree -> B) (G : list (string * tree) -> list (string * B)) h :
  G [] = [] -> (forall k t d, G ((k, t) :: d) = (k, g t) :: G d) -> forall d ts fp, reads_items h d ts fp ->
  (forall k v t, In (k, t) ts -> (exists fp, reads h v t fp) -> f (k, v) h = (h, Done (k, g t))) -> mapM f d h = (h, Done (G ts)).
Proof.
  intros G0 G1. induction 1 as [|k v t fp vs ts fps R Rs IH]; intros H; [rewrite G0; reflexivity|]. cbn [mapM]. rewrite G1.
  rewrite (bind_eq _ _ _ _ _ (H k v t (or_introl eq_refl) (ex_intro _ _ R))).
  erewrite bind_eq; [reflexivity|]. apply IH. intros; apply H; cbn; auto.
Qed.
Lemma storable_list l : (fix go l := match l with [] => True | x :: r => storable x /\ go r end) l <-> Forall storable l.
Proof. induction l as [|x l IH]; [split; [constructor|auto]|]. rewrite IH. split; [intros []; constructor; auto|inversion 1; auto]. Qed.
Lemma storable_items d : (fix go (d : list (string * tree)) := match d with [] => True | (_, x) :: r => storable x /\ go r end) d <-> forall k x, In (k, x) d -> storable x.
Proof.
  induction d as [|[k x] d IH]; [split; [intros _ ? ? []|auto]|]. rewrite IH. split.
  - intros [A B] k' x' [E|H]; [inversion E; subst; auto|eauto].
  - intros H. split; [apply (H k); cbn; auto|]. intros k' x' H'. apply (H k'). cbn; auto.
Qed.

Lemma plain_ok : forall fuel v h t fp, reads h v t fp -> storable t -> tdepth t <= fuel -> plain fuel v h = (h, Done (tlit t)).
Proof.
  induction fuel as [|f IH]; intros v h t fp R S D; [destruct t; cbn in D; lia|]. cbn [plain].
  inversion R as [a|vs ts fp' Rs|l vs ts fp' E Rs|l d ts fp' E N Ri|l m d ts fp' E N Ri]; subst.
  - destruct a; try contradiction; reflexivity.
  - cbn [storable] in S. apply storable_list in S. rewrite Forall_forall in S.
    erewrite bind_eq; [|eapply (mapM_reads_all (plain f) tlit); [exact Rs|]]; [reflexivity|].
    intros v t Iv It (fp0 & R0). eapply IH; eauto. pose proof (tdepth_tup _ _ It). lia.
  - cbn [storable] in S. apply storable_list in S. rewrite Forall_forall in S.
    erewrite (bind_eq (load l)); [|unfold load; rewrite E; reflexivity]. cbv beta iota.
    erewrite bind_eq; [|eapply (mapM_reads_all (plain f) tlit); [exact Rs|]]; [reflexivity|].
    intros v t Iv It (fp0 & R0). eapply IH; eauto. pose proof (tdepth_list _ _ It). lia.
  - cbn [storable] in S. rewrite storable_items in S.
    erewrite (bind_eq (load l)); [|unfold load; rewrite E; reflexivity]. cbv beta iota.
    erewrite bind_eq; [|eapply (mapM_reads_items _ tlit tlit_items); [reflexivity|reflexivity|exact Ri|]].
    { rewrite tlit_dict. reflexivity. }
    intros k v t It (fp0 & R0). cbn [snd fst]. erewrite bind_eq; [reflexivity|]. eapply IH; eauto. pose proof (tdepth_dict _ _ _ It). lia.
  - contradiction.
Qed.

(* the condition on trees, one level at a time *)
Definition okleaf (t : tree) : Prop := In (ttype t) [TyTup; TyList; TyStr; TyInt; TyFloat; TyBool] /\ storable t.
Definition dumps (t : tree) : Prop := forall p v, at_path t p = Some v -> is_cfg v \/ okleaf v.
Lemma dumps_child m d k x : NoDup (keys d) -> dumps (TNode m d) -> In (k, x) d -> dumps x.
Proof. intros ND H I p v A. apply (H (k :: p)). cbn. rewrite (dget_nodup _ _ _ ND I). exact A. Qed.
Lemma okleaf_leaf t : okleaf t -> branchb t = false.
Proof. intros [H _]. destruct t; auto; cbn in H; intuition discriminate. Qed.

Lemma convert_ok : forall fuel v h t fp, reads h v t fp -> dumps t -> tdepth t < fuel -> convert_to_dict fuel v h = (h, Done (tlit t)).
Proof.
  induction fuel as [|f IH]; intros v h t fp R S D; [lia|]. cbn [convert_to_dict]. unfold bind at 1, get at 1. rewrite (reads_is_node _ _ _ _ R).
  destruct (S [] t eq_refl) as [(m & d & ->)|[Ht Hs]].
  - cbn [nodeb]. inversion R as [| | | |l ? dv ? fp' E N Ri]; subst.
    erewrite bind_eq; [|cbn; unfold bind, load; rewrite E; reflexivity]. cbv beta.
    erewrite bind_eq; [|eapply (mapM_reads_items _ tlit tlit_items); [reflexivity|reflexivity|exact Ri|]].
    { rewrite tlit_node. reflexivity. }
    intros k v t It (fp0 & R0). cbn [snd fst]. erewrite bind_eq; [reflexivity|]. eapply IH; eauto.
    + eapply dumps_child; eauto. rewrite <- (reads_keys _ _ _ _ Ri). exact N.
    + pose proof (tdepth_node m _ _ _ It). lia.
  - assert (nodeb t = false) as -> by (pose proof (okleaf_leaf _ (conj Ht Hs)) as X; destruct t; auto; discriminate).
    unfold bind at 1, get at 1. rewrite (reads_valid _ _ _ _ R). rewrite (proj2 (valid_ty_in _) Ht). unfold bind, assert_. eapply plain_ok; eauto. lia.
Qed.

(* ---------------------------------------------------------------- load *)
Lemma dict_of_app {A} (l : list (string * A)) : forall acc, NoDup (keys (acc ++ l)) -> fold_left (fun d kv => dset d (fst kv) (snd kv)) l acc = acc ++ l.
Proof.
  induction l as [|[k v] l IH]; intros acc N; cbn; [rewrite app_nil_r; reflexivity|].
  rewrite keys_app in N. cbn [keys map fst] in N. apply NoDup_app_iff in N as N'. destruct N' as (N1 & N2 & N3).
  rewrite dset_keys_out by (intros C; apply (N3 k C); cbn; auto). rewrite IH; [rewrite <- app_assoc; reflexivity|].
  rewrite <- app_assoc. rewrite keys_app. exact N.
Qed.
Lemma dict_of_id {A} (l : list (string * A)) : NoDup (keys l) -> dict_of l = l.
Proof. intros N. unfold dict_of. rewrite dict_of_app; [reflexivity|exact N]. Qed.
Fixpoint of_lits (d : list (string * lit)) : list (string * tree) := match d with [] => [] | (k, x) :: r => (k, tree_of_lit x) :: of_lits r end.
Lemma of_lits_keys d : keys (of_lits d) = keys d. Proof. induction d as [|[k x] d IH]; cbn; [reflexivity|]. f_equal. exact IH. Qed.
Lemma of_lits_dict d : NoDup (keys d) -> tree_of_lit (LDict d) = TDict (of_lits d).
Proof.
  intros N. cbn [tree_of_lit]. f_equal. 
  assert (X : (fix go d := match d with [] => [] | (k, x) :: r => (k, tree_of_lit x) :: go r end) d = of_lits d) by (clear; induction d as [|[k x] d IH]; cbn; congruence).
  rewrite X. apply dict_of_id. rewrite of_lits_keys. exact N.
Qed.
Lemma of_lits_get d k : dget (of_lits d) k = match dget d k with Some x => Some (tree_of_lit x) | None => None end.
Proof. induction d as [|[k' x] d IH]; cbn; [reflexivity|]. destruct (String.eqb k' k); auto. Qed.
Lemma keys_dget {A} (d : list (string * A)) k : In k (keys d) <-> exists x, dget d k = Some x.
Proof. rewrite <- in_keys_ren. unfold dhas. destruct (dget d k); split; [eauto|auto|discriminate|intros []; discriminate]. Qed.

Fixpoint lit_ind_size (l : lit) : nat :=
  match l with
  | LAtom _ => 1
  | LTup l | LList l => S ((fix go l := match l with [] => 0 | x :: r => Nat.max (lit_ind_size x) (go r) end) l)
  | LDict d => S ((fix go d := match d with [] => 0 | (_, x) :: r => Nat.max (lit_ind_size x) (go r) end) d)
  end.

Lemma doc_list l : (fix go l := match l with [] => True | x :: r => yaml_doc x /\ go r end) l <-> Forall yaml_doc l.
Proof. induction l as [|x l IH]; [split; [constructor|auto]|]. rewrite IH. split; [intros []; constructor; auto|inversion 1; auto]. Qed.
Lemma doc_items d : (fix go (d : list (string * lit)) := match d with [] => True | (_, x) :: r => yaml_doc x /\ go r end) d <-> forall k x, In (k, x) d -> yaml_doc x.
Proof.
  induction d as [|[k x] d IH]; [split; [intros _ ? ? []|auto]|]. rewrite IH. split.
  - intros [A B] k' x' [E|H]; [inversion E; subst; auto|eauto].
  - intros H. split; [apply (H k); cbn; auto|]. intros k' x' H'. apply (H k'). cbn; auto.
Qed.

(* the tree t has distinct keys everywhere, also inside leaves *)
Lemma reads_doc h : (forall v t fp, reads h v t fp -> storable t -> yaml_doc (tlit t)) /\
  (forall vs ts fp, reads_all h vs ts fp -> Forall storable ts -> Forall yaml_doc (map tlit ts)) /\
  (forall d ts fp, reads_items h d ts fp -> (forall k x, In (k, x) ts -> storable x) -> forall k x, In (k, x) (tlit_items ts) -> yaml_doc x).
Proof.
  apply reads_ind3.
  - intros a S. destruct a; cbn in *; auto.
  - intros vs ts fp R IH S. cbn [storable] in S. apply storable_list in S. cbn [tlit yaml_doc]. apply doc_list. auto.
  - intros l vs ts fp E R IH S. cbn [storable] in S. apply storable_list in S. cbn [tlit yaml_doc]. apply doc_list. auto.
  - intros l d ts fp E N R IH S. cbn [storable] in S. rewrite storable_items in S. rewrite tlit_dict. cbn [yaml_doc]. rewrite doc_items. split; [|exact (IH S)].
    rewrite tlit_keys, <- (reads_keys _ _ _ _ R). exact N.
  - intros l m d ts fp E N R IH S. destruct S.
  - constructor.
  - intros v t fp vs ts fps R IH Rs IHs S. inversion S; subst. cbn. constructor; auto.
  - intros _ k x [].
  - intros k v t fp d ts fps R IH Rs IHs S k' x [E|H]; [inversion E; subst; apply IH, (S k'); cbn; auto|]. eapply IHs; [|exact H]. intros k0 x0 H0. apply (S k0). cbn; auto.
Qed.
Lemma dumps_doc h : (forall v t fp, reads h v t fp -> dumps t -> yaml_doc (tlit t)) /\
  (forall vs ts fp, reads_all h vs ts fp -> True) /\
  (forall d ts fp, reads_items h d ts fp -> (forall k x, In (k, x) ts -> dumps x) -> forall k x, In (k, x) (tlit_items ts) -> yaml_doc x).
Proof.
  assert (Leaf : forall v t fp, reads h v t fp -> branchb t = false \/ (exists d, t = TDict d) -> dumps t -> yaml_doc (tlit t)).
  { intros v t fp R B S. destruct (S [] t eq_refl) as [(m & d & ->)|[_ H]]; [destruct B as [B|[d' B]]; discriminate|]. eapply (proj1 (reads_doc h)); eauto. }
  apply reads_ind3; try solve [auto].
  - intros a S. eapply Leaf; [constructor|auto|exact S].
  - intros vs ts fp R _ S. eapply Leaf; [constructor; exact R|auto|exact S].
  - intros l vs ts fp E R _ S. eapply Leaf; [econstructor; eauto|auto|exact S].
  - intros l d ts fp E N R _ S. eapply Leaf; [econstructor; eauto|eauto|exact S].
  - intros l m d ts fp E N R IH S. assert (N' : NoDup (keys ts)) by (rewrite <- (reads_keys _ _ _ _ R); exact N).
    rewrite tlit_node. cbn [yaml_doc]. rewrite doc_items. split; [rewrite tlit_keys; exact N'|]. apply IH. intros k x I. eapply dumps_child; eauto.
  - intros _ k x [].
  - intros k v t fp d ts fps R IH Rs IHs S k' x [E|H]; [inversion E; subst; apply IH, (S k'); cbn; auto|]. eapply IHs; [|exact H]. intros k0 x0 H0. apply (S k0). cbn; auto.
Qed.

Lemma doc_node d : yaml_doc (LDict d) <-> NoDup (keys d) /\ forall k x, In (k, x) d -> yaml_doc x.
Proof. cbn [yaml_doc]. rewrite doc_items. reflexivity. Qed.
Lemma sames_value l : Forall (fun t => forall l', yaml_doc (tlit t) -> storable t -> yaml_same (tlit t) l' -> same_value t (tree_of_lit l')) l ->
  forall l', Forall yaml_doc (map tlit l) -> Forall storable l -> yaml_sames (map tlit l) l' -> same_values l (map tree_of_lit l').
Proof.
  induction 1 as [|t l Ht Hl IH]; intros l' D S Y; cbn in Y; inversion Y; subst; cbn; [constructor|].
  inversion D; subst. inversion S; subst. constructor; auto.
Qed.
Lemma leaf_back t : forall l', yaml_doc (tlit t) -> storable t -> yaml_same (tlit t) l' -> same_value t (tree_of_lit l').
Proof.
  induction t using tree_ind'; intros l' D S Y.
  - inversion Y; subst. constructor.
  - cbn [tlit] in *. inversion Y; subst. cbn [yaml_doc] in D. rewrite doc_list in D. cbn [storable] in S. rewrite storable_list in S. cbn [tree_of_lit]. constructor. apply sames_value; auto.
  - cbn [tlit] in *. inversion Y; subst. cbn [yaml_doc] in D. rewrite doc_list in D. cbn [storable] in S. rewrite storable_list in S. cbn [tree_of_lit]. constructor. apply sames_value; auto.
  - rewrite tlit_dict in *. inversion Y as [| | |? d' N' K' V']; subst. rewrite (of_lits_dict _ N'). apply doc_node in D. destruct D as [N D]. cbn [storable] in S. rewrite storable_items in S.
    rewrite tlit_keys in *. constructor; [intros k; rewrite of_lits_keys; apply K'|].
    intros k x y Hx Hy. rewrite of_lits_get in Hy. destruct (dget d' k) as [y0|] eqn:Ey; inversion Hy; subst. apply dget_in in Hx. apply dget_in in Ey.
    rewrite Forall_forall in H. assert (It : In (k, tlit x) (tlit_items d)) by (apply tlit_items_in; eauto).
    apply (H (k, x)); cbn [snd]; [exact Hx| | |]; eauto.
  - destruct S.
Qed.
Lemma back_type t l' : yaml_same (tlit t) l' -> okleaf t -> In (ttype (tree_of_lit l')) [TyTup; TyList; TyStr; TyInt; TyFloat; TyBool] /\ branchb (tree_of_lit l') = false.
Proof.
  intros Y [H _]. destruct t; cbn in H; try (cbn [tlit] in Y; inversion Y; subst; cbn; split; auto; fail); exfalso; intuition discriminate.
Qed.

Lemma tcreate_items_ok d : (forall k y, In (k, y) d -> exists z, tcreate1 y = Some z) -> exists z, tcreate_items d = Some z.
Proof.
  induction d as [|[k y] d IH]; intros H; cbn; [eauto|]. destruct (H k y) as [z ->]; [cbn; auto|].
  destruct IH as [zs ->]; [|eauto]. intros k' y' I. apply (H k'). cbn; auto.
Qed.
Lemma of_lits_in d k y : In (k, y) (of_lits d) <-> exists x, In (k, x) d /\ y = tree_of_lit x.
Proof.
  induction d as [|[k' x] d IH]; cbn; [split; [contradiction|intros (x & [] & _)]|]. split.
  - intros [E|H]; [inversion E; subst; eauto|]. apply IH in H. destruct H as (x0 & A & B). eauto.
  - intros (x0 & [E|H] & ->); [inversion E; subst; auto|]. right. apply IH. eauto.
Qed.
Lemma in_keys_some {A} (d : list (string * A)) k : In k (keys d) -> exists x, In (k, x) d.
Proof. intros H. apply keys_dget in H. destruct H as [x H]. apply dget_in in H. eauto. Qed.
Lemma keys_in {A} (d : list (string * A)) k x : In (k, x) d -> In k (keys d).
Proof. intros H. apply (in_map fst) in H. exact H. Qed.

Lemma same_config_node m d d2 : (forall k, In k (keys d) <-> In k (keys d2)) ->
  (forall k x y, dget d k = Some x -> dget d2 k = Some y ->
     (is_cfg x /\ same_config x y) \/ (branchb x = false /\ branchb y = false /\ same_value x y)) ->
  same_config (TNode m d) (TNode plain_meta d2).
Proof.
  intros K H p. destruct p as [|k p]; cbn.
  - split; [split; eauto|]. split; intros v [E B]; cbn in E; inversion E; subst; exfalso; apply B; unfold is_branch; cbn; discriminate.
  - assert (Key : (exists x y, dget d k = Some x /\ dget d2 k = Some y) \/ (dget d k = None /\ dget d2 k = None)).
    { specialize (K k). rewrite !keys_dget in K. destruct (dget d k) as [x|], (dget d2 k) as [y|]; [left; eauto|destruct (proj1 K); [eauto|discriminate]|destruct (proj2 K); [eauto|discriminate]|auto]. }
    unfold leaf_at. cbn. destruct Key as [(x & y & Ex & Ey)|(Ex & Ey)]; rewrite Ex, Ey.
    + destruct (H _ _ _ Ex Ey) as [(_ & S)|(B1 & B2 & S)]; [apply S|].
      assert (P : p = [] \/ (at_path x p = None /\ at_path y p = None)).
      { destruct p as [|k' p]; [auto|]. right. apply not_branch_entries in B1, B2. cbn. rewrite B1, B2. auto. }
      destruct P as [-> |[-> ->]]; cbn.
      * split. { split; intros; [destruct H0 as (m0 & d0 & E); inversion E; subst; discriminate|destruct H0 as (d0 & E); inversion E; subst; discriminate]. }
        split; intros v [E Bv]; inversion E; subst.
        -- exists y. split; [split; [reflexivity|]|exact S]. rewrite branch_iff. congruence.
        -- exists x. split; [reflexivity|]. rewrite branch_iff. congruence.
      * split; [split; [intros (? & ? & E)|intros (? & E)]; discriminate|]. split; intros v [E _]; discriminate.
    + split; [split; [intros (? & ? & E)|intros (? & E)]; discriminate|]. split; intros v [E _]; discriminate.
Qed.

Lemma node_back t : forall l', is_cfg t -> yaml_doc (tlit t) -> dumps t -> yaml_same (tlit t) l' -> exists t', tcreate (tree_of_lit l') = Some t' /\ same_config t t'.
Proof.
  induction t using tree_ind'; intros l' (m0 & d0 & E0) D S Y; try discriminate. clear m0 d0 E0.
  rewrite tlit_node in *. inversion Y as [| | |? d' N' K' V']; subst. apply doc_node in D. destruct D as [N D]. rewrite tlit_keys in *.
  rewrite (of_lits_dict _ N'). rewrite (tcreate_eq (TDict (of_lits d')) (of_lits d') eq_refl). rewrite Forall_forall in H.
  assert (Child : forall k x y, In (k, x) d -> In (k, y) d' -> exists z, tcreate1 (tree_of_lit y) = Some z /\
      ((is_cfg x /\ same_config x z) \/ (branchb x = false /\ branchb z = false /\ same_value x z))).
  { intros k x y Ix Iy. assert (It : In (k, tlit x) (tlit_items d)) by (apply tlit_items_in; eauto).
    pose proof (V' _ _ _ It Iy) as Yx. pose proof (D _ _ It) as Dx. pose proof (dumps_child _ _ _ _ N S Ix) as Sx.
    destruct (Sx [] x eq_refl) as [C|L].
    - destruct (H (k, x) Ix y C Dx Sx Yx) as (z & Z1 & Z2). exists z. split; [|auto]. unfold tcreate1.
      assert (branchb (tree_of_lit y) = true) as -> by (destruct (tree_of_lit y); cbn in Z1; try discriminate; reflexivity). exact Z1.
    - destruct (back_type _ _ Yx L) as [Ty By]. exists (tree_of_lit y). split.
      + unfold tcreate1. rewrite By, (proj2 (valid_ty_in _) Ty). reflexivity.
      + right. split; [apply okleaf_leaf; exact L|]. split; [exact By|]. apply leaf_back; auto. apply L. }
  destruct (tcreate_items_ok (of_lits d')) as [z Ez].
  { intros k y I. apply of_lits_in in I. destruct I as (y0 & Iy & ->). destruct (in_keys_some d k) as [x Ix]; [apply K', (keys_in _ _ _ Iy)|].
    destruct (Child _ _ _ Ix Iy) as (z & Z & _). eauto. }
  rewrite Ez. eexists. split; [reflexivity|]. apply same_config_node.
  - intros k. rewrite (tcreate_items_keys _ _ Ez), of_lits_keys. apply K'.
  - intros k x y Ex Ey. rewrite (tcreate_items_get _ _ _ Ez), of_lits_get in Ey. destruct (dget d' k) as [y0|] eqn:Ey0; [|discriminate].
    apply dget_in in Ex. apply dget_in in Ey0. destruct (Child _ _ _ Ex Ey0) as (z0 & Z1 & Z2). rewrite Z1 in Ey. inversion Ey; subst. exact Z2.
Qed.

Fixpoint maxd {A} (f : A -> nat) (l : list A) : nat := match l with [] => 0 | x :: r => Nat.max (f x) (maxd f r) end.
Lemma maxd_le {A} (f : A -> nat) l n : (forall x, In x l -> f x <= n) -> maxd f l <= n.
Proof. induction l as [|x l IH]; cbn; intros H; [lia|]. apply Nat.max_lub; [apply H; auto|apply IH; auto]. Qed.
Lemma depth_tup l : tdepth (TTup l) = S (maxd tdepth l). Proof. cbn. f_equal. induction l as [|x l IH]; cbn; congruence. Qed.
Lemma depth_list l : tdepth (TList l) = S (maxd tdepth l). Proof. cbn. f_equal. induction l as [|x l IH]; cbn; congruence. Qed.
Lemma depth_dict d : tdepth (TDict d) = S (maxd (fun kv => tdepth (snd kv)) d).
Proof. cbn. f_equal. induction d as [|[k x] d IH]; cbn; congruence. Qed.
Lemma back_depth t : forall l', yaml_doc (tlit t) -> yaml_same (tlit t) l' -> tdepth (tree_of_lit l') <= tdepth t.
Proof.
  assert (L : forall l, Forall (fun t => forall l', yaml_doc (tlit t) -> yaml_same (tlit t) l' -> tdepth (tree_of_lit l') <= tdepth t) l ->
    forall l', Forall yaml_doc (map tlit l) -> yaml_sames (map tlit l) l' -> maxd tdepth (map tree_of_lit l') <= maxd tdepth l).
  { induction 1 as [|t0 l Ht Hl IH]; intros l' D Y; cbn in Y; inversion Y; subst; cbn; [lia|]. inversion D; subst. 
    match goal with |- Nat.max ?a ?b <= Nat.max ?c ?d => assert (a <= c) by auto; assert (b <= d) by auto; lia end. }
  assert (Dd : forall d m l', Forall (fun kv : string * tree => forall l', yaml_doc (tlit (snd kv)) -> yaml_same (tlit (snd kv)) l' -> tdepth (tree_of_lit l') <= tdepth (snd kv)) d ->
    yaml_doc (LDict (tlit_items d)) -> yaml_same (LDict (tlit_items d)) l' -> tdepth (tree_of_lit l') <= tdepth (TNode m d)).
  { intros d m l' H D Y. inversion Y as [| | |? d' N' K' V']; subst. apply doc_node in D. destruct D as [N D]. rewrite tlit_keys in *.
    rewrite (of_lits_dict _ N'), depth_dict. rewrite Forall_forall in H. pose proof (tdepth_node m d) as Td.
    assert (X : maxd (fun kv => tdepth (snd kv)) (of_lits d') <= tdepth (TNode m d) - 1); [|destruct d; cbn in *; lia].
    apply maxd_le. intros [k y] I. cbn [snd]. apply of_lits_in in I. destruct I as (y0 & Iy & ->). destruct (in_keys_some d k) as [x Ix]; [apply K', (keys_in _ _ _ Iy)|].
    assert (It : In (k, tlit x) (tlit_items d)) by (apply tlit_items_in; eauto).
    pose proof (H (k, x) Ix y0 (D _ _ It) (V' _ _ _ It Iy)) as Q. cbn [snd] in Q. specialize (Td _ _ Ix). lia. }
  induction t using tree_ind'; intros l' D Y.
  - inversion Y; subst. cbn. lia.
  - cbn [tlit] in *. inversion Y; subst. cbn [yaml_doc] in D. rewrite doc_list in D. cbn [tree_of_lit]. rewrite depth_tup, depth_list. apply le_n_S. auto.
  - cbn [tlit] in *. inversion Y; subst. cbn [yaml_doc] in D. rewrite doc_list in D. cbn [tree_of_lit]. rewrite !depth_list. apply le_n_S. auto.
  - rewrite tlit_dict in *. apply (Dd d plain_meta l' H D Y).
  - rewrite tlit_node in *. apply (Dd d m l' H D Y).
Qed.

Section Yaml.
Variable safe_dump : lit -> string.
Variable safe_load : string -> out lit.
Lemma dump_load_ok fuel fuel' self h t fp : reads h self t fp -> dumpable t -> tdepth t < fuel -> tdepth t < fuel' ->
  exists s, dump safe_dump fuel self h = (h, Done s) /\
    (yaml_faithful safe_dump safe_load s -> exists h' v t' fp', load_yaml safe_load fuel' s h = (h', Done v) /\ keeps h h' /\ reads h' v t' fp' /\ NoDup fp' /\
       (forall l, In l fp' -> length h <= l) /\ same_config t t').
Proof.
  intros R [C S] D D'. exists (safe_dump (tlit t)). split.
  { unfold dump. erewrite bind_eq; [reflexivity|]. eapply convert_ok; eauto. }
  intros Y. pose proof (proj1 (dumps_doc h) _ _ _ R S) as Doc. destruct (Y _ Doc eq_refl) as (l' & L1 & L2).
  destruct (node_back _ _ C Doc S L2) as (t' & T1 & T2). pose proof (back_depth _ _ Doc L2) as Dp.
  unfold load_yaml. rewrite L1.
  assert (Hl : exists d, l' = LDict d). { destruct C as (m & d & ->). rewrite tlit_node in L2. inversion L2; subst; eauto. }
  destruct Hl as [d ->]. destruct (alloc_lit_ok (LDict d) h) as (h1 & v & fp1 & E1 & K1 & R1 & A1 & N1).
  rewrite (bind_eq _ _ _ _ _ E1). cbn [new_cfg]. destruct (mk_node fuel' v false h1) as [h2 r] eqn:E2.
  assert (Dl : tdepth (tree_of_lit (LDict d)) < fuel') by lia.
  pose proof (mk_node_fuel _ _ _ _ _ _ _ _ R1 Dl E2) as Fu.
  pose proof (mk_node_refines _ _ _ _ _ _ _ _ R1 (eq_refl : branchb (tree_of_lit (LDict d)) = true) E2 Fu) as Q. rewrite T1 in Q. destruct Q as (v' & fp' & -> & Q2 & Q3 & Q4).
  exists h2, v', t', fp'. split; [reflexivity|]. split; [eapply keeps_trans; [exact K1|eapply mk_node_keeps; eauto]|].
  split. { assert (with_new false t' = t') as <-; [|exact Q2]. cbn [tree_of_lit] in T1. rewrite (tcreate_eq (TDict _) _ eq_refl) in T1. destruct (tcreate_items _); inversion T1; reflexivity. }
  split; [apply Q4; exact N1|]. split; [|exact T2]. intros l Hl. specialize (Q3 _ Hl). pose proof (keeps_length _ _ K1). lia.
Qed.
End Yaml.
