(* Configuration properties that do not hold: concrete cases; and concrete cases that meet the hypotheses of the others. *)
From Coq Require Import ZArith String Ascii List Bool Arith Lia.
From Verif Require Import ConfigModel ConfigSpec ConfigHeap ConfigCopy ConfigTree ConfigMerge ConfigMergeHeap ConfigPaths ConfigFreeze ConfigList ConfigDump ConfigProps ConfigProps2 ConfigProps3 ConfigProps4.
Import ListNotations.
Local Open Scope string_scope.
Local Open Scope list_scope.
Local Open Scope nat_scope.

Definition int (z : Z) : val := VAtom (AInt z).
Definition str (s : string) : val := VAtom (AStr s).
Definition tint (z : Z) : tree := TAtom (AInt z).
Definition tstr (s : string) : tree := TAtom (AStr s).
(* "5" and "None" are literals, everything else is text *)
Definition some_literals (s : string) : out lit :=
  if String.eqb s "5" then Done (LAtom (AInt 5)) else if String.eqb s "None" then Done (LAtom ANone) else Raise XValue.
Definition frozen_meta : meta := mkMeta true false [] [].
Definition open_meta : meta := mkMeta false true [] [].

Ltac reading := repeat (first [ eassumption | econstructor | reflexivity ]).
Ltac nodup := repeat (constructor; [cbn; intuition (discriminate || congruence)|]); try constructor.

(* flat configurations *)
Definition leaves (d : list (string * tree)) : Prop := Forall (fun kt => entries (snd kt) = None) d.
Lemma leaves_get d k c : leaves d -> dget d k = Some c -> entries c = None.
Proof. intros L H. apply dget_in in H. unfold leaves in L. rewrite Forall_forall in L. exact (L _ H). Qed.
Lemma flat_plain m d : leaves d -> no_plain_dict (TNode m d).
Proof.
  intros L [|k p] e H; [discriminate|]. cbn in H. destruct (dget d k) as [c|] eqn:Ek; [|discriminate].
  pose proof (leaves_get _ _ _ L Ek) as Lc. apply at_path_leaf in H; [|exact Lc]. destruct H as [_ <-]. discriminate.
Qed.
Lemma flat_flags b m d : leaves d -> m_frozen m = b -> flags_are b (TNode m d).
Proof.
  intros L F [|k p] m' d' H; [inversion H; subst; auto|]. cbn in H. destruct (dget d k) as [c|] eqn:Ek; [|discriminate].
  pose proof (leaves_get _ _ _ L Ek) as Lc. apply at_path_leaf in H; [|exact Lc]. destruct H as [_ <-]. discriminate.
Qed.
Lemma flat_cfg h l m d ts : nth_error h l = Some (ONode m d) -> NoDup (keys d) -> reads_items h d ts [] -> leaves ts -> Cfg h (VRef l) (TNode m ts).
Proof.
  intros E N R L. split; [|split; [eexists; eexists; reflexivity|apply flat_plain, L]]. exists [l]. split; [econstructor; eauto|repeat constructor; auto].
Qed.
Ltac leafs := unfold leaves; repeat constructor.
Ltac items := repeat match goal with
  | |- reads_items _ [] _ [] => constructor
  | |- reads_items ?h ((_, _) :: _) _ [] => eapply (Ri_cons h _ _ _ [] _ _ []); [constructor|]
  end.

(* {"A": 1, "B": 2}, frozen or not *)
Definition ab (m : meta) : obj := ONode m [("A", int 1); ("B", int 2)].
Definition tab (m : meta) (a b : Z) : tree := TNode m [("A", tint a); ("B", tint b)].
Lemma ab_cfg h l m : nth_error h l = Some (ab m) -> Cfg h (VRef l) (tab m 1 2).
Proof. intros E. eapply flat_cfg; [exact E|nodup|items|leafs]. Qed.
Lemma ab_flags m : flags_are (m_frozen m) (tab m 1 2).
Proof. apply flat_flags; [leafs|reflexivity]. Qed.
Lemma not_same m m' a b : a <> 1%Z -> ~ same_entries (tab m 1 2) (TNode m' [("A", tint a); ("B", b)]).
Proof.
  intros N H. destruct (H ["A"]) as (_ & H1 & _). destruct (H1 (tint 1)) as [E _]; [split; [reflexivity|intros C; apply C; reflexivity]|]. cbn in E. inversion E. congruence.
Qed.

Lemma apart_of h v w t t' fp fp' : reads h v t fp -> reads h w t' fp' -> (forall l, In l fp -> In l fp' -> False) -> Apart h v w.
Proof. intros R R' D t1 t2 f1 f2 R1 R2 l I1 I2. destruct (reads_det _ _ _ _ _ _ R R1) as [_ ->], (reads_det _ _ _ _ _ _ R' R2) as [_ ->]. eauto. Qed.
Lemma flat_apart h l l' m m' d d' ts ts' : nth_error h l = Some (ONode m d) -> nth_error h l' = Some (ONode m' d') -> NoDup (keys d) -> NoDup (keys d') ->
  reads_items h d ts [] -> reads_items h d' ts' [] -> l <> l' -> Apart h (VRef l) (VRef l').
Proof. intros E E' N N' R R' D. refine (apart_of h (VRef l) (VRef l') (TNode m ts) (TNode m' ts') [l] [l'] _ _ _); [econstructor; eauto|econstructor; eauto|]. intros x X1 X2. cbn in X1, X2. intuition congruence. Qed.

Ltac apart_tac := match goal with |- Apart ?h (VRef ?l) (VRef ?l') => refine (flat_apart h l l' _ _ _ _ _ _ eq_refl eq_refl _ _ _ _ _); [nodup|nodup|items|items|discriminate] end.

(* C63 *)
Lemma r_frozen_item : exists h self t h' t', Cfg h self t /\ flags_are true t /\ setitem self "A" (int 5) h = (h', Done tt) /\ Reads h' self t' /\ ~ same_entries t t'.
Proof.
  exists [ab frozen_meta], (VRef 0), (tab frozen_meta 1 2). eexists. exists (tab frozen_meta 5 2).
  split; [apply ab_cfg; reflexivity|]. split; [apply (ab_flags frozen_meta)|]. split; [vm_compute; reflexivity|]. split; [|apply not_same; discriminate].
  exists [0]. econstructor; [reflexivity|nodup|items].
Qed.
Lemma r_frozen_merge : exists h self other ta t h' t', Cfg h self t /\ flags_are true t /\ TreeShaped h other ta /\ is_cfg ta /\ Apart h other self /\
  merge_from_other_cfg some_literals 10 self other h = (h', Done tt) /\ Reads h' self t' /\ ~ same_entries t t'.
Proof.
  exists [ab frozen_meta; ONode plain_meta [("A", int 5)]], (VRef 0), (VRef 1), (TNode plain_meta [("A", tint 5)]), (tab frozen_meta 1 2). eexists. exists (tab frozen_meta 5 2).
  split; [apply ab_cfg; reflexivity|]. split; [apply (ab_flags frozen_meta)|]. split.
  { exists [1]. split; [econstructor; [reflexivity|nodup|items]|nodup]. }
  split; [eexists; eexists; reflexivity|]. split.
  { apart_tac. }
  split; [vm_compute; reflexivity|]. split; [|apply not_same; discriminate].
  exists [0]. econstructor; [reflexivity|nodup|items].
Qed.
Lemma r_frozen_list : exists h self t h' t', Cfg h self t /\ flags_are true t /\
  merge_from_list some_literals 10 self [str "A"; str "5"] h = (h', Done tt) /\ Reads h' self t' /\ ~ same_entries t t'.
Proof.
  exists [ab frozen_meta], (VRef 0), (tab frozen_meta 1 2). eexists. exists (tab frozen_meta 5 2).
  split; [apply ab_cfg; reflexivity|]. split; [apply (ab_flags frozen_meta)|]. split; [vm_compute; reflexivity|]. split; [|apply not_same; discriminate].
  exists [0]. econstructor; [reflexivity|nodup|items].
Qed.
(* a CfgNode inside a list: cfg = {"L": [CfgNode({"A": 1})]} *)
Definition in_list : heap := [ONode plain_meta [("L", VRef 1)]; OList [VRef 2]; ONode plain_meta [("A", int 1)]].
Definition tin_list (m : meta) (a : Z) : tree := TNode m [("L", TList [TNode plain_meta [("A", tint a)]])].
Lemma r_freeze_list_entry : exists h self t inner h1 h2 t1 t2, Cfg h self t /\ reach h self inner /\ freeze 10 self h = (h1, Done tt) /\ Reads h1 self t1 /\
  setattr_ (VRef inner) "A" (int 5) h1 = (h2, Done tt) /\ Reads h2 self t2 /\ ~ same_entries t1 t2.
Proof.
  exists in_list, (VRef 0), (tin_list plain_meta 1), 2. eexists. eexists. exists (tin_list frozen_meta 1), (tin_list frozen_meta 5).
  split. { split; [|split; [eexists; eexists; reflexivity|apply flat_plain; leafs]]. exists [0; 2]. split; [|nodup].
    apply (R_node in_list 0 plain_meta [("L", VRef 1)] _ [2]); [reflexivity|nodup|]. apply (Ri_cons _ _ _ _ [2] _ _ []); [|constructor].
    eapply (R_list _ 1 [VRef 2]); [reflexivity|]. apply (Rs_cons _ _ _ [2] _ _ []); [|constructor]. apply (R_node _ 2 plain_meta [("A", int 1)] _ []); [reflexivity|nodup|items]. }
  split. { eapply reach_obj; [reflexivity|left; reflexivity|]. eapply reach_obj; [reflexivity|left; reflexivity|]. constructor. }
  split; [vm_compute; reflexivity|]. split.
  { exists [0; 2]. apply (R_node _ 0 frozen_meta [("L", VRef 1)] _ [2]); [reflexivity|nodup|]. apply (Ri_cons _ _ _ _ [2] _ _ []); [|constructor].
    eapply (R_list _ 1 [VRef 2]); [reflexivity|]. apply (Rs_cons _ _ _ [2] _ _ []); [|constructor]. apply (R_node _ 2 plain_meta [("A", int 1)] _ []); [reflexivity|nodup|items]. }
  split; [vm_compute; reflexivity|]. split.
  { exists [0; 2]. apply (R_node _ 0 frozen_meta [("L", VRef 1)] _ [2]); [reflexivity|nodup|]. apply (Ri_cons _ _ _ _ [2] _ _ []); [|constructor].
    eapply (R_list _ 1 [VRef 2]); [reflexivity|]. apply (Rs_cons _ _ _ [2] _ _ []); [|constructor]. apply (R_node _ 2 plain_meta [("A", int 5)] _ []); [reflexivity|nodup|items]. }
  intros H. destruct (H ["L"]) as (_ & H1 & _). destruct (H1 (TList [TNode plain_meta [("A", tint 1)]])) as [E _]; [split; [reflexivity|intros C; apply C; reflexivity]|]. cbn in E. inversion E.
Qed.
(* a part of the configuration was frozen before: cfg = {"S": CfgNode({"A": 1})}, cfg.S.freeze() *)
Definition nested (m m' : meta) : heap := [ONode m [("S", VRef 1)]; ONode m' [("A", int 1)]].
Definition tnested (m m' : meta) (a : Z) : tree := TNode m [("S", TNode m' [("A", tint a)])].
Lemma nested_reads h m m' a : nth_error h 0 = Some (ONode m [("S", VRef 1)]) -> nth_error h 1 = Some (ONode m' [("A", int a)]) -> reads h (VRef 0) (tnested m m' a) [0; 1].
Proof.
  intros E0 E1. apply (R_node h 0 m [("S", VRef 1)] _ [1]); [exact E0|nodup|]. apply (Ri_cons _ _ _ _ [1] _ _ []); [|constructor].
  apply (R_node _ 1 m' [("A", int a)] _ []); [exact E1|nodup|items].
Qed.
Lemma nested_plain m m' a : no_plain_dict (tnested m m' a).
Proof.
  intros [|k p] e H; [discriminate|]. cbn [at_path entries tnested dget] in H. destruct (String.eqb "S" k); [|discriminate]. apply (flat_plain m' [("A", tint a)] ltac:(leafs) p e H).
Qed.
Lemma nested_cfg h m m' a : nth_error h 0 = Some (ONode m [("S", VRef 1)]) -> nth_error h 1 = Some (ONode m' [("A", int a)]) -> Cfg h (VRef 0) (tnested m m' a).
Proof.
  intros E0 E1. split; [exists [0; 1]; split; [apply nested_reads; auto|nodup]|]. split; [eexists; eexists; reflexivity|apply nested_plain].
Qed.
Lemma nested_flags m m' a b : m_frozen m = b -> m_frozen m' = b -> flags_are b (tnested m m' a).
Proof.
  intros F F' [|k p] m0 d0 H; [cbn in H; injection H as <- _; exact F|]. cbn [at_path entries tnested dget] in H. destruct (String.eqb "S" k); [|discriminate].
  apply (flat_flags b m' [("A", tint a)] ltac:(leafs) F' p m0 d0 H).
Qed.
Lemma r_freeze_defrost : exists h self t h' t', Cfg h self t /\ (let! _u := freeze 10 self in defrost 10 self) h = (h', Done tt) /\ Reads h' self t' /\ t' <> t.
Proof.
  exists (nested plain_meta frozen_meta), (VRef 0), (tnested plain_meta frozen_meta 1). eexists. exists (tnested plain_meta plain_meta 1).
  split; [apply nested_cfg; reflexivity|]. split; [vm_compute; reflexivity|]. split; [|discriminate]. exists [0; 1]. apply nested_reads; reflexivity.
Qed.

(* C64 *)
(* cfg = {"A": 1, "B": 2}, other = {"A": 5, "B": "text"} *)
Lemma r_merge_atomic : exists h self other ta t h' t', Cfg h self t /\ TreeShaped h other ta /\ is_cfg ta /\ Apart h other self /\
  merge_from_other_cfg some_literals 10 self other h = (h', Raise XValue) /\ Reads h' self t' /\ ~ same_entries t t'.
Proof.
  exists [ab plain_meta; ONode plain_meta [("A", int 5); ("B", str "text")]], (VRef 0), (VRef 1), (TNode plain_meta [("A", tint 5); ("B", tstr "text")]), (tab plain_meta 1 2). eexists. exists (tab plain_meta 5 2).
  split; [apply ab_cfg; reflexivity|]. split; [exists [1]; split; [econstructor; [reflexivity|nodup|items]|nodup]|].
  split; [eexists; eexists; reflexivity|]. split; [apart_tac|].
  split; [vm_compute; reflexivity|]. split; [|apply not_same; discriminate]. exists [0]. econstructor; [reflexivity|nodup|items].
Qed.
(* cfg = {"A": "5"}: merging its own clone *)
Lemma r_merge_clone : exists h self t h1 other h', Cfg h self t /\ clone 10 self h = (h1, Done other) /\
  merge_from_other_cfg some_literals 10 self other h1 = (h', Raise XValue).
Proof.
  exists [ONode plain_meta [("A", str "5")]], (VRef 0), (TNode plain_meta [("A", tstr "5")]). eexists. eexists. eexists.
  split; [eapply flat_cfg; [reflexivity|nodup|items|leafs]|]. split; reflexivity.
Qed.
(* new keys allowed: the text "5" under a new key is decoded, inside a new subtree it is not *)
Lemma r_merge_new_subtree : exists h self other ta t h' t', Cfg h self t /\ TreeShaped h other ta /\ is_cfg ta /\ Apart h other self /\
  merge_from_other_cfg some_literals 10 self other h = (h', Done tt) /\ Reads h' self t' /\
  leaf_at ta ["N"; "X"] (tstr "5") /\ leaf_at ta ["X"] (tstr "5") /\ at_path t' ["X"] = Some (tint 5) /\ at_path t' ["N"; "X"] = Some (tstr "5").
Proof.
  set (h := [ONode open_meta []; ONode plain_meta [("X", str "5"); ("N", VRef 2)]; ONode plain_meta [("X", str "5")]]).
  set (ta := TNode plain_meta [("X", tstr "5"); ("N", TNode plain_meta [("X", tstr "5")])]).
  assert (R : reads h (VRef 1) ta [1; 2]).
  { apply (R_node h 1 plain_meta [("X", str "5"); ("N", VRef 2)] _ [2]); [reflexivity|nodup|]. apply (Ri_cons _ _ _ _ [] _ _ [2]); [constructor|]. apply (Ri_cons _ _ _ _ [2] _ _ []); [|constructor].
    apply (R_node _ 2 plain_meta [("X", str "5")] _ []); [reflexivity|nodup|items]. }
  exists h, (VRef 0), (VRef 1), ta, (TNode open_meta []). eexists. exists (TNode open_meta [("X", tint 5); ("N", TNode plain_meta [("X", tstr "5")])]).
  assert (C0 : Cfg h (VRef 0) (TNode open_meta [])) by (eapply flat_cfg; [reflexivity|nodup|items|leafs]).
  split; [exact C0|]. split; [exists [1; 2]; split; [exact R|nodup]|]. split; [eexists; eexists; reflexivity|].
  split. { refine (apart_of h _ _ _ _ _ [0] R (R_node h 0 open_meta [] [] [] eq_refl (NoDup_nil _) (Ri_nil _)) _). cbn. intuition congruence. }
  split; [vm_compute; reflexivity|]. split.
  { eexists. eapply R_node; [reflexivity|nodup|]. eapply Ri_cons; [constructor|]. eapply Ri_cons; [|constructor]. eapply R_node; [reflexivity|nodup|]. eapply Ri_cons; [constructor|constructor]. }
  split; [split; [reflexivity|intros C; apply C; reflexivity]|]. split; [split; [reflexivity|intros C; apply C; reflexivity]|]. split; reflexivity.
Qed.
(* C65: a new key can get a value that is none of the valid types *)
Lemma r_merge_new_type : exists h self other ta t h' t', Cfg h self t /\ TreeShaped h other ta /\ is_cfg ta /\ Apart h other self /\
  merge_from_other_cfg some_literals 10 self other h = (h', Done tt) /\ Reads h' self t' /\ at_path t' ["X"] = Some (TAtom ANone).
Proof.
  set (h := [ONode open_meta []; ONode plain_meta [("X", str "None")]]).
  exists h, (VRef 0), (VRef 1), (TNode plain_meta [("X", tstr "None")]), (TNode open_meta []). eexists. exists (TNode open_meta [("X", TAtom ANone)]).
  split; [eapply flat_cfg; [reflexivity|nodup|items|leafs]|]. split; [exists [1]; split; [econstructor; [reflexivity|nodup|items]|nodup]|].
  split; [eexists; eexists; reflexivity|]. split; [apart_tac|].
  split; [vm_compute; reflexivity|]. split; [|reflexivity]. exists [0]. econstructor; [reflexivity|nodup|items].
Qed.
(* C66: the overrides before the one that fails stay *)
Lemma r_list_atomic : exists h self t h' t', Cfg h self t /\ merge_from_list some_literals 10 self [str "A"; int 5; str "C"; int 6] h = (h', Raise XAssertion) /\
  Reads h' self t' /\ ~ same_entries t t'.
Proof.
  exists [ab plain_meta], (VRef 0), (tab plain_meta 1 2). eexists. exists (tab plain_meta 5 2).
  split; [apply ab_cfg; reflexivity|]. split; [vm_compute; reflexivity|]. split; [|apply not_same; discriminate]. exists [0]. econstructor; [reflexivity|nodup|items].
Qed.
(* a list given as an override is stored as it is: a later change of it is a change of the configuration *)
Lemma r_list_shared : exists h self t given h', Cfg h self t /\ reads h given (TList [tint 7]) [] /\
  merge_from_list some_literals 10 self [str "A"; given] h = (h', Done tt) /\ getitem self "A" h' = (h', Done given) /\ ~ independent h' self given.
Proof.
  exists [ONode plain_meta [("A", VRef 1)]; OList []; OList [int 7]], (VRef 0), (TNode plain_meta [("A", TList [])]), (VRef 2). eexists.
  split. { eapply flat_cfg; [reflexivity|nodup| |leafs]. apply (Ri_cons _ _ _ _ [] _ _ []); [|constructor]. eapply R_list; [reflexivity|constructor]. }
  split; [eapply R_list; [reflexivity|apply (Rs_cons _ _ _ [] _ _ []); constructor]|].
  split; [vm_compute; reflexivity|]. split; [vm_compute; reflexivity|]. intros I. apply (I 2); [|constructor]. eapply reach_obj; [reflexivity|left; reflexivity|constructor].
Qed.
(* C67: a deprecated key that the configuration has is merged like any other; where new keys are allowed it is added *)
Definition dep_meta (nw : bool) : meta := mkMeta false nw ["A"] [].
Lemma r_deprecated_present : exists h self other ta t h' t', Cfg h self t /\ TreeShaped h other ta /\ is_cfg ta /\ Apart h other self /\
  key_is_deprecated self "A" h = (h, Done true) /\ merge_from_other_cfg some_literals 10 self other h = (h', Done tt) /\ Reads h' self t' /\ ~ same_entries t t'.
Proof.
  exists [ab (dep_meta false); ONode plain_meta [("A", int 5)]], (VRef 0), (VRef 1), (TNode plain_meta [("A", tint 5)]), (tab (dep_meta false) 1 2). eexists. exists (tab (dep_meta false) 5 2).
  split; [apply ab_cfg; reflexivity|]. split; [exists [1]; split; [econstructor; [reflexivity|nodup|items]|nodup]|].
  split; [eexists; eexists; reflexivity|]. split; [apart_tac|].
  split; [vm_compute; reflexivity|]. split; [vm_compute; reflexivity|]. split; [|apply not_same; discriminate]. exists [0]. econstructor; [reflexivity|nodup|items].
Qed.
Lemma r_deprecated_new : exists h self other ta t h' t', Cfg h self t /\ TreeShaped h other ta /\ is_cfg ta /\ Apart h other self /\ at_path t ["A"] = None /\
  key_is_deprecated self "A" h = (h, Done true) /\ merge_from_other_cfg some_literals 10 self other h = (h', Done tt) /\ Reads h' self t' /\ at_path t' ["A"] = Some (tint 5).
Proof.
  exists [ONode (dep_meta true) []; ONode plain_meta [("A", int 5)]], (VRef 0), (VRef 1), (TNode plain_meta [("A", tint 5)]), (TNode (dep_meta true) []). eexists. exists (TNode (dep_meta true) [("A", tint 5)]).
  split; [eapply flat_cfg; [reflexivity|nodup|items|leafs]|]. split; [exists [1]; split; [econstructor; [reflexivity|nodup|items]|nodup]|].
  split; [eexists; eexists; reflexivity|]. split; [apart_tac|].
  split; [vm_compute; reflexivity|]. split; [vm_compute; reflexivity|]. split; [vm_compute; reflexivity|]. split; [|reflexivity]. exists [0]. econstructor; [reflexivity|nodup|items].
Qed.
(* C68: tuples come back as lists; attributes are lost *)
Lemma p_dump_tuple t t' p l : same_config t t' -> leaf_at t p (TTup l) -> exists l', leaf_at t' p (TList l').
Proof. intros S L. destruct (S p) as (_ & H & _). destruct (H _ L) as (v' & L' & Sv). inversion Sv; subst. eauto. Qed.
Lemma p_dump_attributes t t' p m d : same_config t t' -> at_path t p = Some (TNode m d) -> exists d', at_path t' p = Some (TNode plain_meta d').
Proof. intros S A. destruct (S p) as (H & _). apply H. eauto. Qed.
(* C69: a key named like a method *)
Lemma r_shadowed : exists h self t h', Cfg h self t /\ setattr_ self "items" (int 5) h = (h', Done tt) /\ getitem self "items" h' = (h', Done (int 5)) /\ getattr_ self "items" h' = (h', Done None).
Proof.
  exists [ab plain_meta], (VRef 0), (tab plain_meta 1 2). eexists. split; [apply ab_cfg; reflexivity|]. split; [vm_compute; reflexivity|]. split; reflexivity.
Qed.

(* ---------------------------------------------------------------- merge_from_file: load, then merge *)
Lemma p_merge_file literal_eval safe_load fuel self ext content mod_cfg h tb doc c : Cfg h self tb -> In ext ["" ; ".yml"; ".yaml"] ->
  safe_load content = Done doc -> doc <> LAtom ANone -> built (tree_of_lit doc) c -> tdepth (tree_of_lit doc) < fuel ->
  exists h1 v, keeps h h1 /\ Cfg h1 v c /\ Cfg h1 self tb /\ Apart h1 v self /\
    merge_from_file literal_eval safe_load fuel self ext content mod_cfg h = merge_from_other_cfg literal_eval fuel self v h1.
Proof.
  intros ((fp & R & N) & Ct & P) He Hl Hn B D.
  destruct (alloc_lit_ok doc h) as (h0 & dv & fpd & E0 & K0 & R0 & A0 & N0).
  assert (Hc : exists d, c = TNode plain_meta d) by (inversion B; subst; eauto). destruct Hc as [d ->].
  destruct (mk_node fuel dv false h0) as [h1 r] eqn:E1.
  assert (Bt : branchb (tree_of_lit doc) = true) by (inversion B; subst; apply branch_iff; unfold is_branch; congruence).
  pose proof (mk_node_refines _ _ _ _ _ _ _ _ R0 Bt E1 (mk_node_fuel _ _ _ _ _ _ _ _ R0 D E1)) as Q. rewrite (proj1 (built_iff _ _) B) in Q.
  destruct Q as (v & fpv & -> & Rv & Av & Nv). cbn [with_new] in Rv.
  pose proof (mk_node_keeps _ _ _ _ _ _ E1) as K1. assert (K : keeps h h1) by (eapply keeps_trans; eauto).
  exists h1, v. split; [exact K|].
  destruct (p_new fuel dv false h0 _ _ plain_meta d (ex_intro _ fpd R0) D B eq_refl) as (h1' & v' & E1' & _ & _ & C' & _). cbn [new_cfg] in E1'. rewrite E1 in E1'. inversion E1'; subst h1' v'.
  split; [apply C'; exists fpd; split; [exact R0|exact N0]|].
  pose proof (reads_keeps _ _ _ _ _ K R) as R1. split; [split; [exists fp; auto|auto]|]. split.
  - refine (apart_of h1 v self _ _ fpv fp Rv R1 _). intros l I1 I2. specialize (Av _ I1). pose proof (reads_ref_lt _ _ _ _ _ R I2). pose proof (keeps_length _ _ K0). lia.
  - unfold merge_from_file, load_file. assert (has yaml_exts ext = true) as -> by (apply has_in; exact He). unfold load_yaml. rewrite Hl.
    assert (L : (match doc with LAtom ANone => new_cfg fuel None false | _ => let! d0 := alloc_lit doc in new_cfg fuel (Some d0) false end) h = (h1, Done v)).
    { assert (X : (let! d0 := alloc_lit doc in new_cfg fuel (Some d0) false) h = (h1, Done v)) by (rewrite (bind_eq _ _ _ _ _ E0); exact E1).
      destruct doc as [[]| | |]; try exact X. congruence. }
    rewrite (bind_eq _ _ _ _ _ L). reflexivity.
Qed.
Lemma p_merge_file_bad literal_eval safe_load fuel self ext content mod_cfg h e :
  (In ext ["" ; ".yml"; ".yaml"] -> safe_load content = Raise e -> merge_from_file literal_eval safe_load fuel self ext content mod_cfg h = (h, Raise e)) /\
  (~ In ext ["" ; ".yml"; ".yaml"; ".py"] -> exists e', merge_from_file literal_eval safe_load fuel self ext content mod_cfg h = (h, Raise e')).
Proof.
  split.
  - intros I H. unfold merge_from_file, load_file. assert (has yaml_exts ext = true) as -> by (apply has_in; exact I). unfold load_yaml. rewrite H. reflexivity.
  - intros I. unfold merge_from_file, load_file. destruct (has yaml_exts ext) eqn:Hh; [apply has_in in Hh; exfalso; apply I; cbn in *; tauto|].
    destruct (String.eqb ext ".py") eqn:Hp; [apply String.eqb_eq in Hp; subst; exfalso; apply I; cbn; tauto|]. eexists. reflexivity.
Qed.

(* ---------------------------------------------------------------- concrete cases *)
(* cfg = {"S": {"A": 1}} and other = {"S": {"A": 5}}: 0, 1 and 2, 3 *)
Definition two_nested (m : meta) (a : val) : heap := [ONode m [("S", VRef 1)]; ONode plain_meta [("A", int 1)]; ONode plain_meta [("S", VRef 3)]; ONode plain_meta [("A", a)]].
Lemma two_nested_reads m a ta : a = VAtom ta -> reads (two_nested m a) (VRef 2) (TNode plain_meta [("S", TNode plain_meta [("A", TAtom ta)])]) [2; 3].
Proof.
  intros ->. apply (R_node _ 2 plain_meta [("S", VRef 3)] _ [3]); [reflexivity|nodup|]. apply (Ri_cons _ _ _ _ [3] _ _ []); [|constructor].
  apply (R_node _ 3 plain_meta [("A", VAtom ta)] _ []); [reflexivity|nodup|items].
Qed.
Lemma two_nested_ok m a ta : a = VAtom ta -> let h := two_nested m a in let t := TNode plain_meta [("S", TNode plain_meta [("A", TAtom ta)])] in
  Cfg h (VRef 0) (tnested m plain_meta 1) /\ TreeShaped h (VRef 2) t /\ is_cfg t /\ Apart h (VRef 2) (VRef 0).
Proof.
  intros E h t. pose proof (two_nested_reads m a ta E) as R. split; [apply nested_cfg; reflexivity|]. split; [exists [2; 3]; split; [exact R|nodup]|].
  split; [eexists; eexists; reflexivity|]. refine (apart_of h _ _ _ _ _ [0; 1] R (nested_reads h m plain_meta 1 eq_refl eq_refl) _). cbn. intuition congruence.
Qed.
(* a dump that writes one document, and the load that reads it *)
Definition one_doc : lit := LDict [("A", LTup [LAtom (AInt 1)])].
Definition one_dump (l : lit) : string :=
  match l with LDict [(k, LTup [LAtom (AInt z)])] => if String.eqb k "A" && Z.eqb z 1 then "A: [1]" else "?" | _ => "?" end.
Definition one_load (s : string) : out lit := if String.eqb s "A: [1]" then Done (LDict [("A", LList [LAtom (AInt 1)])]) else Raise XSyntax.
Lemma one_faithful : yaml_faithful one_dump one_load "A: [1]".
Proof.
  intros l Y H. destruct l as [| | |d]; try discriminate. destruct d as [|[k x] [|? ?]]; try discriminate; [|destruct x as [| [|[[]| | |] [|? ?]]| |]; discriminate].
  destruct x as [|l| |]; try discriminate. destruct l as [|y l]; try discriminate. destruct y as [a| | |]; try discriminate; [|destruct l; discriminate..].
  destruct l as [|? ?]; [|destruct a; discriminate]. destruct a; try discriminate. cbn [one_dump] in H.
  destruct (String.eqb k "A") eqn:Ek; [|discriminate]. destruct (Z.eqb z 1) eqn:Ez; [|discriminate]. apply String.eqb_eq in Ek. apply Z.eqb_eq in Ez. subst.
  exists (LDict [("A", LList [LAtom (AInt 1)])]). split; [reflexivity|]. constructor; [nodup|cbn; tauto|].
  intros k x y [I|[]] [J|[]]. inversion I; inversion J; subst. constructor. constructor; [constructor|constructor].
Qed.
Definition tup_heap : heap := [ONode plain_meta [("A", VTup [int 1])]].
Definition tup_tree : tree := TNode plain_meta [("A", TTup [tint 1])].
Lemma tup_ok : Cfg tup_heap (VRef 0) tup_tree /\ dumpable tup_tree.
Proof.
  split.
  - eapply flat_cfg; [reflexivity|nodup| |leafs]. apply (Ri_cons _ _ _ _ [] _ _ []); [|constructor]. constructor. apply (Rs_cons _ _ _ [] _ _ []); constructor.
  - split; [eexists; eexists; reflexivity|]. intros [|k p] v H; [inversion H; left; eexists; eexists; reflexivity|].
    cbn [at_path entries tup_tree dget] in H. destruct (String.eqb "A" k); [|discriminate]. apply at_path_leaf in H; [|reflexivity]. destruct H as [_ ->]. right. cbn. tauto.
Qed.
Lemma r_dump_tuple : exists h self t s h' v t', Cfg h self t /\ dumpable t /\ dump one_dump 10 self h = (h, Done s) /\ yaml_faithful one_dump one_load s /\
  load_yaml one_load 10 s h = (h', Done v) /\ Reads h' v t' /\ at_path t ["A"] = Some (TTup [tint 1]) /\ at_path t' ["A"] = Some (TList [tint 1]).
Proof.
  exists tup_heap, (VRef 0), tup_tree, "A: [1]". eexists. eexists. exists (TNode plain_meta [("A", TList [tint 1])]). destruct tup_ok as [A B].
  split; [exact A|]. split; [exact B|]. split; [vm_compute; reflexivity|]. split; [apply one_faithful|]. split; [vm_compute; reflexivity|]. split; [|split; reflexivity].
  eexists. eapply R_node; [reflexivity|nodup|]. eapply Ri_cons; [|constructor]. eapply R_list; [reflexivity|]. eapply Rs_cons; constructor.
Qed.
