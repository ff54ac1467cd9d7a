(* Properties C63-C70: the configuration system (CfgNode).
   Vocabulary (ConfigSpec.v): tree = a configuration as the user sees it; Reads h v t = on heap h the value v reads as t;
   TreeShaped = ... and no dict or CfgNode occurs in it twice; Cfg = a CfgNode, tree-shaped, without plain dicts at its paths;
   Apart = two values share no dict or CfgNode; Untouched = whatever shares none with the configuration reads as before;
   keeps h h' = every object of h is the same in h'; at_path = cfg.A.B...; leaf_at; decodes = what a merged-in value becomes;
   cast = list made tuple or tuple made list where the existing entry wants it; built = what CfgNode(dict) makes of a dict;
   overridden(_all) = one override (a list of them) applied; reach / independent = objects in common.
   literal_eval, safe_dump, safe_load: any functions; fuel = how deep Python lets calls nest. *)
From Coq Require Import ZArith String Ascii List Bool Arith Lia.
From Verif Require Import ConfigModel ConfigSpec ConfigProps ConfigProps2 ConfigProps3 ConfigProps4 ConfigProps5.
Import ListNotations.
Local Open Scope string_scope.
Local Open Scope list_scope.
Local Open Scope nat_scope.

(* ------------------------------------------------------------------ C63 *)
(* freeze() sets the flag of every CfgNode of the configuration and changes nothing else *)
Theorem C63_freeze : forall fuel self h t,
  Cfg h self t -> tdepth t <= fuel -> exists h' t', freeze fuel self h = (h', Done tt) /\
  Cfg h' self t' /\ same_entries t t' /\ flags_are true t' /\ Untouched h h' self.
Proof. exact p_freeze. Qed.
Print Assumptions C63_freeze.

Theorem C63_defrost : forall fuel self h t,
  Cfg h self t -> tdepth t <= fuel -> exists h' t', defrost fuel self h = (h', Done tt) /\
  Cfg h' self t' /\ same_entries t t' /\ flags_are false t' /\ Untouched h h' self.
Proof. exact p_defrost. Qed.
Print Assumptions C63_defrost.

(* defrost() undoes freeze() exactly, if nothing in the configuration was frozen before *)
Theorem C63_freeze_defrost_partial : forall fuel self h t,
  Cfg h self t -> flags_are false t -> tdepth t <= fuel -> exists h',
  (let! _u := freeze fuel self in defrost fuel self) h = (h', Done tt) /\ Cfg h' self t /\ Untouched h h' self.
Proof. exact p_freeze_defrost. Qed.
Print Assumptions C63_freeze_defrost_partial.

(* cfg.A.B.name = value raises AttributeError and changes nothing, at any depth *)
Theorem C63_assignment : forall self h t p m d name value,
  Cfg h self t -> flags_are true t -> Forall user_name p -> at_path t p = Some (TNode m d) ->
  assign self p name value h = (h, Raise XAttribute).
Proof. exact p_frozen_assign. Qed.
Print Assumptions C63_assignment.

(* no history of attribute assignments, reads, clones, dumps, freezes and registrations changes the entries *)
Theorem C63_history_partial : forall safe_dump fuel self cs h t,
  tdepth t <= fuel -> Cfg h self t -> flags_are true t -> Forall named cs ->
  exists t', Cfg (fst (run_calls safe_dump fuel self cs h)) self t' /\ flags_are true t' /\ same_entries t t'.
Proof. exact p_frozen_history. Qed.
Print Assumptions C63_history_partial.

(* cfg["A"] = 5 changes a frozen configuration *)
Theorem C63_item_refuted : exists h self t h' t', Cfg h self t /\ flags_are true t /\ setitem self "A" (int 5) h = (h', Done tt) /\ Reads h' self t' /\ ~ same_entries t t'.
Proof. exact r_frozen_item. Qed.
Print Assumptions C63_item_refuted.

(* so does merge_from_other_cfg *)
Theorem C63_merge_refuted : exists h self other ta t h' t', Cfg h self t /\ flags_are true t /\ TreeShaped h other ta /\ is_cfg ta /\ Apart h other self /\
  merge_from_other_cfg some_literals 10 self other h = (h', Done tt) /\ Reads h' self t' /\ ~ same_entries t t'.
Proof. exact r_frozen_merge. Qed.
Print Assumptions C63_merge_refuted.

(* and merge_from_list *)
Theorem C63_list_refuted : exists h self t h' t', Cfg h self t /\ flags_are true t /\
  merge_from_list some_literals 10 self [str "A"; str "5"] h = (h', Done tt) /\ Reads h' self t' /\ ~ same_entries t t'.
Proof. exact r_frozen_list. Qed.
Print Assumptions C63_list_refuted.

(* freeze does not reach a CfgNode inside a list *)
Theorem C63_nested_in_list_refuted : exists h self t inner h1 h2 t1 t2, Cfg h self t /\ reach h self inner /\ freeze 10 self h = (h1, Done tt) /\ Reads h1 self t1 /\
  setattr_ (VRef inner) "A" (int 5) h1 = (h2, Done tt) /\ Reads h2 self t2 /\ ~ same_entries t1 t2.
Proof. exact r_freeze_list_entry. Qed.
Print Assumptions C63_nested_in_list_refuted.

(* if a part was frozen before, defrost does not restore that *)
Theorem C63_exact_undo_refuted : exists h self t h' t', Cfg h self t /\ (let! _u := freeze 10 self in defrost 10 self) h = (h', Done tt) /\ Reads h' self t' /\ t' <> t.
Proof. exact r_freeze_defrost. Qed.
Print Assumptions C63_exact_undo_refuted.

Example C63_witness : Cfg (nested plain_meta plain_meta) (VRef 0) (tnested plain_meta plain_meta 1) /\ flags_are false (tnested plain_meta plain_meta 1) /\
  Cfg (nested frozen_meta frozen_meta) (VRef 0) (tnested frozen_meta frozen_meta 1) /\ flags_are true (tnested frozen_meta frozen_meta 1) /\ tdepth (tnested plain_meta plain_meta 1) = 3 /\
  Forall user_name ["S"] /\ at_path (tnested frozen_meta frozen_meta 1) ["S"] = Some (TNode frozen_meta [("A", tint 1)]) /\ Forall named [Assign ["S"] "A" (int 5); Clone; Dump; Freeze; RegisterDeprecated "Z"].
Proof.
  split; [apply nested_cfg; reflexivity|]. split; [apply nested_flags; reflexivity|]. split; [apply nested_cfg; reflexivity|]. split; [apply nested_flags; reflexivity|]. split; [reflexivity|].
  assert (user_name "S") by (split; [cbn; intuition discriminate|reflexivity]).
  split; [repeat constructor; apply H|]. split; [reflexivity|]. repeat constructor; apply H.
Qed.

(* ------------------------------------------------------------------ C64 *)
(* where every leaf of the other configuration ends up *)
Theorem C64_leaves : forall literal_eval fuel self other h h' ta tb,
  Cfg h self tb -> TreeShaped h other ta -> is_cfg ta -> Apart h other self ->
  merge_from_other_cfg literal_eval fuel self other h = (h', Done tt) -> exists reg tb', (exists d, tb = TNode reg d) /\ TreeShaped h' self tb' /\ is_cfg tb' /\
    forall p v, leaf_at ta p v -> Landed literal_eval reg tb tb' p v.
Proof. exact p_merge_leaves. Qed.
Print Assumptions C64_leaves.

(* the same for its subtrees *)
Theorem C64_subtrees : forall literal_eval fuel self other h h' ta tb,
  Cfg h self tb -> TreeShaped h other ta -> is_cfg ta -> Apart h other self ->
  merge_from_other_cfg literal_eval fuel self other h = (h', Done tt) -> exists reg tb', (exists d, tb = TNode reg d) /\ Reads h' self tb' /\
    forall p m d, at_path ta p = Some (TNode m d) ->
      (exists m' d' d2, at_path tb p = Some (TNode m' d') /\ at_path tb' p = Some (TNode m' d2)) \/
      (exists q k mq c, starts_with (q ++ [k]) p /\ lacks tb q k mq /\ m_new mq = true /\ built (TNode m d) c /\ at_path tb' p = Some c) \/
      (ignored_at reg [] tb p /\ at_path tb' p = None).
Proof. exact p_merge_subtrees. Qed.
Print Assumptions C64_subtrees.

(* whatever the outcome: other entries, attributes, key order, everything outside; new keys only where allowed *)
Theorem C64_rest_kept : forall literal_eval fuel self other h h' r ta tb,
  Cfg h self tb -> TreeShaped h other ta -> is_cfg ta -> Apart h other self ->
  merge_from_other_cfg literal_eval fuel self other h = (h', r) -> r <> Raise XRecursion -> exists tb', TreeShaped h' self tb' /\ is_cfg tb' /\ Reads h' other ta /\ Untouched h h' self /\
    (* entries that the other configuration does not have *)
    (forall p t, at_path tb p = Some t -> at_path ta p = None -> at_path tb' p = Some t) /\
    (* the attributes of every CfgNode stay; its keys stay in their order, new ones come last and only where they are allowed *)
    (forall q mq dq, at_path tb q = Some (TNode mq dq) -> exists dq' extra, at_path tb' q = Some (TNode mq dq') /\ keys dq' = keys dq ++ extra /\
       (m_new mq = false -> extra = []) /\ (forall k, In k extra -> at_path ta (q ++ [k]) <> None) /\
       (r = Done tt -> m_new mq = true -> forall ma da, at_path ta q = Some (TNode ma da) -> extra = filter (fun k => negb (dhas dq k)) (keys da))).
Proof. exact p_merge_keeps. Qed.
Print Assumptions C64_rest_kept.

(* why a merge can fail *)
Theorem C64_errors : forall literal_eval fuel self other h h' e ta tb,
  Cfg h self tb -> TreeShaped h other ta -> is_cfg ta -> Apart h other self ->
  merge_from_other_cfg literal_eval fuel self other h = (h', Raise e) -> e <> XRecursion -> exists reg, (exists d, tb = TNode reg d) /\ Blame literal_eval reg ta tb e.
Proof. exact p_merge_errors. Qed.
Print Assumptions C64_errors.

Theorem C64_unknown_key : forall literal_eval fuel self other h h' r ta reg d q k mq,
  Cfg h self (TNode reg d) -> TreeShaped h other ta -> is_cfg ta -> Apart h other self ->
  merge_from_other_cfg literal_eval fuel self other h = (h', r) -> at_path ta (q ++ [k]) <> None -> lacks (TNode reg d) q k mq -> m_new mq = false -> ~ In (join (q ++ [k])) (m_dep reg) ->
  exists e, r = Raise e.
Proof. exact p_merge_unknown. Qed.
Print Assumptions C64_unknown_key.

Theorem C64_not_a_config : forall literal_eval fuel self other h ta,
  Reads h other ta -> ~ is_cfg ta -> merge_from_other_cfg literal_eval (S fuel) self other h = (h, Raise XAssertion).
Proof. exact p_merge_not_cfg. Qed.
Print Assumptions C64_not_a_config.

(* RecursionError only if the limit does not exceed the depth of the other configuration *)
Theorem C64_terminates : forall literal_eval fuel self other h h' r ta tb,
  Cfg h self tb -> TreeShaped h other ta -> Apart h other self ->
  (forall s, literal_eval s <> Raise XRecursion) -> tdepth ta < fuel -> merge_from_other_cfg literal_eval fuel self other h = (h', r) -> r <> Raise XRecursion.
Proof. exact p_merge_depth. Qed.
Print Assumptions C64_terminates.

(* merge_from_file on YAML is the merge of the configuration built from the document *)
Theorem C64_from_file : forall literal_eval safe_load fuel self ext content mod_cfg h tb doc c,
  Cfg h self tb -> In ext ["" ; ".yml"; ".yaml"] ->
  safe_load content = Done doc -> doc <> LAtom ANone -> built (tree_of_lit doc) c -> tdepth (tree_of_lit doc) < fuel ->
  exists h1 v, keeps h h1 /\ Cfg h1 v c /\ Cfg h1 self tb /\ Apart h1 v self /\
    merge_from_file literal_eval safe_load fuel self ext content mod_cfg h = merge_from_other_cfg literal_eval fuel self v h1.
Proof. exact p_merge_file. Qed.
Print Assumptions C64_from_file.

Theorem C64_bad_file : forall literal_eval safe_load fuel self ext content mod_cfg h e,
  (In ext ["" ; ".yml"; ".yaml"] -> safe_load content = Raise e -> merge_from_file literal_eval safe_load fuel self ext content mod_cfg h = (h, Raise e)) /\
  (~ In ext ["" ; ".yml"; ".yaml"; ".py"] -> exists e', merge_from_file literal_eval safe_load fuel self ext content mod_cfg h = (h, Raise e')).
Proof. exact p_merge_file_bad. Qed.
Print Assumptions C64_bad_file.

(* a merge that fails leaves the entries before the error changed *)
Theorem C64_failure_refuted : exists h self other ta t h' t', Cfg h self t /\ TreeShaped h other ta /\ is_cfg ta /\ Apart h other self /\
  merge_from_other_cfg some_literals 10 self other h = (h', Raise XValue) /\ Reads h' self t' /\ ~ same_entries t t'.
Proof. exact r_merge_atomic. Qed.
Print Assumptions C64_failure_refuted.

(* strings are decoded again: merging a clone of the configuration into itself can fail *)
Theorem C64_own_clone_refuted : exists h self t h1 other h', Cfg h self t /\ clone 10 self h = (h1, Done other) /\
  merge_from_other_cfg some_literals 10 self other h1 = (h', Raise XValue).
Proof. exact r_merge_clone. Qed.
Print Assumptions C64_own_clone_refuted.

(* inside a new subtree strings are not decoded *)
Theorem C64_new_subtree_refuted : exists h self other ta t h' t', Cfg h self t /\ TreeShaped h other ta /\ is_cfg ta /\ Apart h other self /\
  merge_from_other_cfg some_literals 10 self other h = (h', Done tt) /\ Reads h' self t' /\
  leaf_at ta ["N"; "X"] (tstr "5") /\ leaf_at ta ["X"] (tstr "5") /\ at_path t' ["X"] = Some (tint 5) /\ at_path t' ["N"; "X"] = Some (tstr "5").
Proof. exact r_merge_new_subtree. Qed.
Print Assumptions C64_new_subtree_refuted.

Example C64_witness : (let h := two_nested plain_meta (str "5") in let t := TNode plain_meta [("S", TNode plain_meta [("A", tstr "5")])] in
    Cfg h (VRef 0) (tnested plain_meta plain_meta 1) /\ TreeShaped h (VRef 2) t /\ is_cfg t /\ Apart h (VRef 2) (VRef 0) /\
    (exists h', merge_from_other_cfg some_literals 10 (VRef 0) (VRef 2) h = (h', Done tt)) /\ leaf_at t ["S"; "A"] (tstr "5")) /\
  (exists h', merge_from_other_cfg some_literals 10 (VRef 0) (VRef 2) (two_nested plain_meta (str "x")) = (h', Raise XValue)) /\
  lacks (tnested plain_meta plain_meta 1) ["S"] "B" plain_meta /\
  built (tree_of_lit (LDict [("A", LAtom (AInt 1))])) (TNode plain_meta [("A", tint 1)]).
Proof.
  split.
  - destruct (two_nested_ok plain_meta (str "5") (AStr "5") eq_refl) as (A & B & C & D). split; [exact A|]. split; [exact B|]. split; [exact C|]. split; [exact D|].
    split; [eexists; vm_compute; reflexivity|]. split; [reflexivity|intros X; apply X; reflexivity].
  - split; [eexists; vm_compute; reflexivity|]. split; [exists [("A", tint 1)]; split; [reflexivity|cbn; intuition discriminate]|].
    econstructor; [reflexivity|]. constructor; [intros X; apply X; reflexivity|cbn; tauto|constructor].
Qed.

(* ------------------------------------------------------------------ C65 *)
(* whatever the outcome, every entry keeps its type *)
Theorem C65_types : forall literal_eval fuel self other h h' r ta tb,
  Cfg h self tb -> TreeShaped h other ta -> is_cfg ta -> Apart h other self ->
  merge_from_other_cfg literal_eval fuel self other h = (h', r) -> r <> Raise XRecursion -> exists tb', Reads h' self tb' /\
    forall p t, at_path tb p = Some t -> exists t', at_path tb' p = Some t' /\ ttype t' = ttype t.
Proof. exact p_merge_types. Qed.
Print Assumptions C65_types.

(* a value that cannot be cast to the type of the entry makes the merge fail (C64_errors: with ValueError, if nothing before it fails) *)
Theorem C65_mismatch : forall literal_eval fuel self other h h' r ta tb p v o,
  Cfg h self tb -> TreeShaped h other ta -> is_cfg ta -> Apart h other self ->
  merge_from_other_cfg literal_eval fuel self other h = (h', r) -> at_path ta p = Some v -> at_path tb p = Some o ->
  (is_branch v /\ ~ is_cfg o) \/ (exists w, decodes literal_eval v w /\ forall w', ~ cast (ttype o) w w') -> exists e, r = Raise e.
Proof. exact p_merge_mismatch. Qed.
Print Assumptions C65_mismatch.

(* merge_from_list: ValueError, and nothing changes *)
Theorem C65_list_types : forall literal_eval fuel self key p v tv w orig l h reg d,
  Nat.even (length l) = true -> Reads h self (TNode reg d) -> ~ In key (m_dep reg) -> ~ In key (keys (m_ren reg)) ->
  dotted key p -> at_path (TNode reg d) p = Some orig -> Reads h v tv -> decodes literal_eval tv w -> (forall w', ~ cast (ttype orig) w w') ->
  exists h', merge_from_list literal_eval fuel self (VAtom (AStr key) :: v :: l) h = (h', Raise XValue) /\ keeps h h'.
Proof. exact p_list_mismatch. Qed.
Print Assumptions C65_list_types.

(* a new key can get a value of a type that no configuration may hold *)
Theorem C65_new_key_refuted : exists h self other ta t h' t', Cfg h self t /\ TreeShaped h other ta /\ is_cfg ta /\ Apart h other self /\
  merge_from_other_cfg some_literals 10 self other h = (h', Done tt) /\ Reads h' self t' /\ at_path t' ["X"] = Some (TAtom ANone).
Proof. exact r_merge_new_type. Qed.
Print Assumptions C65_new_key_refuted.

Example C65_witness : (let h := two_nested plain_meta (str "x") in let t := TNode plain_meta [("S", TNode plain_meta [("A", tstr "x")])] in
    Cfg h (VRef 0) (tnested plain_meta plain_meta 1) /\ TreeShaped h (VRef 2) t /\ is_cfg t /\ Apart h (VRef 2) (VRef 0) /\ at_path t ["S"; "A"] = Some (tstr "x")) /\
  at_path (tnested plain_meta plain_meta 1) ["S"; "A"] = Some (tint 1) /\ decodes some_literals (tstr "x") (tstr "x") /\ (forall w, ~ cast TyInt (tstr "x") w) /\
  cast TyTup (TList [tint 1]) (TTup [tint 1]) /\ dotted "S.A" ["S"; "A"].
Proof.
  split; [destruct (two_nested_ok plain_meta (str "x") (AStr "x") eq_refl) as (A & B & C & D); auto|]. split; [reflexivity|].
  split; [eapply D_text; [reflexivity|auto]|]. split; [intros w C; inversion C; discriminate|]. split; [constructor; reflexivity|].
  split; [discriminate|]. split; [|reflexivity]. constructor; [intros [|[|n]]; discriminate|]. constructor; [intros [|[|n]]; discriminate|constructor].
Qed.

(* ------------------------------------------------------------------ C66 *)
(* on success every pair was applied, in order *)
Theorem C66_overrides : forall fuel literal_eval self h h' reg d l,
  TreeShaped h self (TNode reg d) -> (forall k v, In (k, v) (pairs l) -> exists tv, Fit h self v tv) ->
  merge_from_list literal_eval fuel self l h = (h', Done tt) ->
  exists d' os, TreeShaped h' self (TNode reg d') /\ Untouched h h' self /\ Forall2 (pair_is h) (pairs l) os /\ overridden_all literal_eval reg (TNode reg d) os (TNode reg d').
Proof. exact p_list_ok. Qed.
Print Assumptions C66_overrides.

(* one override replaces the addressed entry and changes nothing else *)
Theorem C66_one_override : forall literal_eval reg t key v t' p,
  overridden literal_eval reg t key v t' -> dotted key p -> ~ In key (m_dep reg) ->
  exists orig w w', at_path t p = Some orig /\ (decodes literal_eval v w \/ built v w) /\ cast (ttype orig) w w' /\ at_path t' p = Some w' /\
    (forall q, ~ starts_with p q -> ~ starts_with q p -> at_path t' q = at_path t q) /\
    (forall q k r c d, p = q ++ k :: r -> at_path t q = Some c -> entries c = Some d ->
       exists c' d', at_path t' q = Some c' /\ entries c' = Some d' /\ ttype c' = ttype c /\ keys d' = keys d /\ (forall m, c = TNode m d -> c' = TNode m d')).
Proof. exact p_override_frame. Qed.
Print Assumptions C66_one_override.

Theorem C66_in_order : forall literal_eval fuel self l1 l2 h,
  Nat.even (length l1) = true -> Nat.even (length l2) = true ->
  merge_from_list literal_eval fuel self (l1 ++ l2) h = (merge_from_list literal_eval fuel self l1 ;;! merge_from_list literal_eval fuel self l2) h.
Proof. exact p_list_in_order. Qed.
Print Assumptions C66_in_order.

Theorem C66_odd_length : forall literal_eval fuel self l h,
  Nat.odd (length l) = true -> merge_from_list literal_eval fuel self l h = (h, Raise XAssertion).
Proof. exact p_list_odd. Qed.
Print Assumptions C66_odd_length.

Theorem C66_unknown_key : forall literal_eval fuel self key v l h reg d q c dc k r,
  Nat.even (length l) = true -> Reads h self (TNode reg d) -> ~ In key (m_dep reg) -> ~ In key (keys (m_ren reg)) ->
  dotted key (q ++ k :: r) -> at_path (TNode reg d) q = Some c -> entries c = Some dc -> ~ In k (keys dc) ->
  merge_from_list literal_eval fuel self (VAtom (AStr key) :: v :: l) h = (h, Raise XAssertion).
Proof. exact p_list_unknown. Qed.
Print Assumptions C66_unknown_key.

(* after a failure exactly the pairs before the failing one are applied *)
Theorem C66_failure_partial : forall fuel literal_eval self h h' e reg d l,
  TreeShaped h self (TNode reg d) -> (forall k v, In (k, v) (pairs l) -> exists tv, Fit h self v tv) ->
  merge_from_list literal_eval fuel self l h = (h', Raise e) ->
  exists n d' os, TreeShaped h' self (TNode reg d') /\ Untouched h h' self /\ (n < length (pairs l) \/ n = 0) /\ Forall2 (pair_is h) (firstn n (pairs l)) os /\ overridden_all literal_eval reg (TNode reg d) os (TNode reg d').
Proof. exact p_list_error. Qed.
Print Assumptions C66_failure_partial.

(* so the configuration is changed by a failing call *)
Theorem C66_failure_refuted : exists h self t h' t', Cfg h self t /\ merge_from_list some_literals 10 self [str "A"; int 5; str "C"; int 6] h = (h', Raise XAssertion) /\
  Reads h' self t' /\ ~ same_entries t t'.
Proof. exact r_list_atomic. Qed.
Print Assumptions C66_failure_refuted.

(* a list value is not copied *)
Theorem C66_shared_list_refuted : exists h self t given h', Cfg h self t /\ reads h given (TList [tint 7]) [] /\
  merge_from_list some_literals 10 self [str "A"; given] h = (h', Done tt) /\ getitem self "A" h' = (h', Done given) /\ ~ independent h' self given.
Proof. exact r_list_shared. Qed.
Print Assumptions C66_shared_list_refuted.

Example C66_witness : TreeShaped [ab plain_meta] (VRef 0) (tab plain_meta 1 2) /\ Fit [ab plain_meta] (VRef 0) (str "5") (tstr "5") /\
  (exists h', merge_from_list some_literals 10 (VRef 0) [str "A"; str "5"; str "B"; int 7] [ab plain_meta] = (h', Done tt)) /\ pairs [str "A"; str "5"] = [(str "A", str "5")] /\
  overridden some_literals plain_meta (tab plain_meta 1 2) "A" (tstr "5") (tab plain_meta 5 2) /\ dotted "A" ["A"].
Proof.
  assert (D : dotted "A" ["A"]). { split; [discriminate|]. split; [|reflexivity]. constructor; [intros [|n]; discriminate|constructor]. }
  split; [apply (ab_cfg [ab plain_meta] 0 plain_meta eq_refl)|]. split; [left; constructor|]. split; [eexists; vm_compute; reflexivity|]. split; [reflexivity|]. split; [|exact D].
  apply (O_set some_literals plain_meta (tab plain_meta 1 2) "A" (tstr "5") ["A"] (tint 1) (tint 5) (tint 5)); [cbn; tauto|cbn; tauto|exact D|reflexivity| |constructor; reflexivity].
  left. apply (D_literal some_literals "5" (LAtom (AInt 5)) eq_refl).
Qed.

(* ------------------------------------------------------------------ C67 *)
(* an entry that the configuration does not have and that a successful merge drops is registered as deprecated *)
Theorem C67_merge_deprecated_partial : forall literal_eval fuel self other h h' ta reg d q k mq p,
  Cfg h self (TNode reg d) -> TreeShaped h other ta -> is_cfg ta -> Apart h other self ->
  merge_from_other_cfg literal_eval fuel self other h = (h', Done tt) -> at_path ta p <> None -> starts_with (q ++ [k]) p -> lacks (TNode reg d) q k mq -> m_new mq = false ->
  In (join (q ++ [k])) (m_dep reg) /\ exists tb', Reads h' self tb' /\ at_path tb' p = None.
Proof. exact p_merge_deprecated. Qed.
Print Assumptions C67_merge_deprecated_partial.

(* a renamed key that the configuration does not have: KeyError with the new name *)
Theorem C67_merge_renamed_partial : forall literal_eval fuel self other h h' r ta reg d q k mq new msg c,
  Cfg h self (TNode reg d) -> TreeShaped h other ta -> is_cfg ta -> Apart h other self ->
  merge_from_other_cfg literal_eval fuel self other h = (h', r) -> r <> Raise XRecursion ->
  at_path ta (q ++ [k]) <> None -> lacks (TNode reg d) q k mq -> m_new mq = false -> ~ In (join (q ++ [k])) (m_dep reg) ->
  NoDup (keys (m_ren reg)) -> In (join (q ++ [k]), (new, msg)) (m_ren reg) ->
  (forall q' k' mq', at_path ta (q' ++ [k']) <> None -> lacks (TNode reg d) q' k' mq' -> m_new mq' = false -> ~ In (join (q' ++ [k'])) (m_dep reg) -> q' = q /\ k' = k) ->
  (forall p v o, at_path ta p = Some v -> at_path (TNode reg d) p = Some o -> (is_branch v -> is_cfg o) /\ (forall w, decodes literal_eval v w -> exists w', cast (ttype o) w w')) ->
  (forall s e, literal_eval s = Raise e -> e = XValue \/ e = XSyntax) -> built ta c ->
  r = Raise (XRenamed (join (q ++ [k])) new msg).
Proof. exact p_merge_renamed. Qed.
Print Assumptions C67_merge_renamed_partial.

(* KeyErrors of a merge are about keys that are not deprecated *)
Theorem C67_merge_key_errors : forall literal_eval fuel self other h h' e ta reg d,
  Cfg h self (TNode reg d) -> TreeShaped h other ta -> is_cfg ta -> Apart h other self ->
  merge_from_other_cfg literal_eval fuel self other h = (h', Raise e) -> (forall s e, literal_eval s = Raise e -> e = XValue \/ e = XSyntax) ->
  (exists full, e = XMissing full) \/ (exists full new msg, e = XRenamed full new msg) ->
  exists q k mq, at_path ta (q ++ [k]) <> None /\ lacks (TNode reg d) q k mq /\ m_new mq = false /\ ~ In (join (q ++ [k])) (m_dep reg) /\
     ((exists new msg, In (join (q ++ [k]), (new, msg)) (m_ren reg) /\ e = XRenamed (join (q ++ [k])) new msg) \/
      (~ In (join (q ++ [k])) (keys (m_ren reg)) /\ e = XMissing (join (q ++ [k])))).
Proof. exact p_merge_key_errors. Qed.
Print Assumptions C67_merge_key_errors.

(* merge_from_list skips a deprecated key whatever its value *)
Theorem C67_list_deprecated : forall literal_eval fuel self key v l h reg d,
  Nat.even (length l) = true -> Reads h self (TNode reg d) -> In key (m_dep reg) ->
  merge_from_list literal_eval fuel self (VAtom (AStr key) :: v :: l) h = merge_from_list literal_eval fuel self l h.
Proof. exact p_list_deprecated. Qed.
Print Assumptions C67_list_deprecated.

Theorem C67_list_renamed : forall literal_eval fuel self key new msg v l h reg d,
  Nat.even (length l) = true -> Reads h self (TNode reg d) -> ~ In key (m_dep reg) -> dget (m_ren reg) key = Some (new, msg) ->
  merge_from_list literal_eval fuel self (VAtom (AStr key) :: v :: l) h = (h, Raise (XRenamed key new msg)).
Proof. exact p_list_renamed. Qed.
Print Assumptions C67_list_renamed.

Theorem C67_register_deprecated : forall self key h reg d,
  TreeShaped h self (TNode reg d) ->
  (~ In key (m_dep reg) -> exists h', register_deprecated_key self key h = (h', Done tt) /\ Untouched h h' self /\
     TreeShaped h' self (TNode (mkMeta (m_frozen reg) (m_new reg) (m_dep reg ++ [key]) (m_ren reg)) d)) /\
  (In key (m_dep reg) -> register_deprecated_key self key h = (h, Raise XAssertion)).
Proof. exact p_register_deprecated. Qed.
Print Assumptions C67_register_deprecated.

Theorem C67_register_renamed : forall self old new msg h reg d,
  TreeShaped h self (TNode reg d) ->
  (~ In old (keys (m_ren reg)) -> exists h', register_renamed_key self old new msg h = (h', Done tt) /\ Untouched h h' self /\
     TreeShaped h' self (TNode (mkMeta (m_frozen reg) (m_new reg) (m_dep reg) (m_ren reg ++ [(old, (new, msg))])) d)) /\
  (In old (keys (m_ren reg)) -> register_renamed_key self old new msg h = (h, Raise XAssertion)).
Proof. exact p_register_renamed. Qed.
Print Assumptions C67_register_renamed.

Theorem C67_key_is : forall self key h reg d,
  Reads h self (TNode reg d) ->
  (exists b, key_is_deprecated self key h = (h, Done b) /\ (b = true <-> In key (m_dep reg))) /\
  (exists b, key_is_renamed self key h = (h, Done b) /\ (b = true <-> In key (keys (m_ren reg)))).
Proof. exact p_key_is. Qed.
Print Assumptions C67_key_is.

(* a deprecated key that the configuration still has is merged *)
Theorem C67_present_key_refuted : exists h self other ta t h' t', Cfg h self t /\ TreeShaped h other ta /\ is_cfg ta /\ Apart h other self /\
  key_is_deprecated self "A" h = (h, Done true) /\ merge_from_other_cfg some_literals 10 self other h = (h', Done tt) /\ Reads h' self t' /\ ~ same_entries t t'.
Proof. exact r_deprecated_present. Qed.
Print Assumptions C67_present_key_refuted.

(* where new keys are allowed a deprecated key is added *)
Theorem C67_new_key_refuted : exists h self other ta t h' t', Cfg h self t /\ TreeShaped h other ta /\ is_cfg ta /\ Apart h other self /\ at_path t ["A"] = None /\
  key_is_deprecated self "A" h = (h, Done true) /\ merge_from_other_cfg some_literals 10 self other h = (h', Done tt) /\ Reads h' self t' /\ at_path t' ["A"] = Some (tint 5).
Proof. exact r_deprecated_new. Qed.
Print Assumptions C67_new_key_refuted.

Example C67_witness : (let m := mkMeta false false ["S.B"] [("S.A", ("S.C", ""))] in let h := two_nested m (int 5) in
    Reads h (VRef 0) (tnested m plain_meta 1) /\ dget (m_ren m) "S.A" = Some ("S.C", "") /\ ~ In "S.A" (m_dep m) /\ In "S.B" (m_dep m) /\ lacks (tnested m plain_meta 1) ["S"] "B" plain_meta) /\
  (let m := mkMeta false false [] [("A", ("C", "see docs"))] in let h := [ONode m []; ONode plain_meta [("A", int 5)]] in
    Cfg h (VRef 0) (TNode m []) /\ TreeShaped h (VRef 1) (TNode plain_meta [("A", tint 5)]) /\ Apart h (VRef 1) (VRef 0) /\ lacks (TNode m []) [] "A" m /\
    merge_from_other_cfg some_literals 10 (VRef 0) (VRef 1) h = (h, Raise (XRenamed "A" "C" "see docs"))).
Proof.
  split.
  - intros m h. split; [exists [0; 1]; apply nested_reads; reflexivity|]. split; [reflexivity|]. split; [cbn; intuition discriminate|]. split; [cbn; auto|].
    exists [("A", tint 1)]. split; [reflexivity|cbn; intuition discriminate].
  - intros m h. split; [eapply flat_cfg; [reflexivity|nodup|items|leafs]|]. split; [exists [1]; split; [econstructor; [reflexivity|nodup|items]|nodup]|]. split; [apart_tac|].
    split; [exists []; split; [reflexivity|cbn; auto]|]. vm_compute. reflexivity.
Qed.

(* ------------------------------------------------------------------ C68 *)
(* an equal configuration (attributes included) that has no object in common with the original *)
Theorem C68_clone : forall fuel v h t,
  Reads h v t -> tdepth t <= fuel -> exists h' v', clone fuel v h = (h', Done v') /\ keeps h h' /\
  Reads h' v t /\ Reads h' v' t /\ (TreeShaped h v t -> TreeShaped h' v' t) /\ independent h' v v'.
Proof. exact p_clone. Qed.
Print Assumptions C68_clone.

(* no change made through one of two independent values is seen through the other *)
Theorem C68_independent : forall h h2 v w t,
  independent h v w -> Reads h v t -> changed_through h h2 w -> Reads h2 v t.
Proof. exact p_independent. Qed.
Print Assumptions C68_independent.

(* the YAML text reads back as the same configuration, up to tuples (lists) and attributes (defaults) *)
Theorem C68_dump_load_partial : forall safe_dump safe_load fuel fuel' self h t,
  Reads h self t -> dumpable t -> tdepth t < fuel -> tdepth t < fuel' ->
  exists s, dump safe_dump fuel self h = (h, Done s) /\
    (yaml_faithful safe_dump safe_load s -> exists h' v t', load_yaml safe_load fuel' s h = (h', Done v) /\ keeps h h' /\ TreeShaped h' v t' /\ same_config t t').
Proof. exact p_dump_load. Qed.
Print Assumptions C68_dump_load_partial.

(* tuples come back as lists *)
Theorem C68_tuples : forall t t' p l,
  same_config t t' -> leaf_at t p (TTup l) -> exists l', leaf_at t' p (TList l').
Proof. exact p_dump_tuple. Qed.
Print Assumptions C68_tuples.

(* frozen flags, registries and new_allowed come back as defaults *)
Theorem C68_attributes : forall t t' p m d,
  same_config t t' -> at_path t p = Some (TNode m d) -> exists d', at_path t' p = Some (TNode plain_meta d').
Proof. exact p_dump_attributes. Qed.
Print Assumptions C68_attributes.

(* so the configuration read back is not equal: {"A": (1,)} *)
Theorem C68_round_trip_refuted : exists h self t s h' v t', Cfg h self t /\ dumpable t /\ dump one_dump 10 self h = (h, Done s) /\ yaml_faithful one_dump one_load s /\
  load_yaml one_load 10 s h = (h', Done v) /\ Reads h' v t' /\ at_path t ["A"] = Some (TTup [tint 1]) /\ at_path t' ["A"] = Some (TList [tint 1]).
Proof. exact r_dump_tuple. Qed.
Print Assumptions C68_round_trip_refuted.

Example C68_witness : Cfg tup_heap (VRef 0) tup_tree /\ dumpable tup_tree /\ dump one_dump 10 (VRef 0) tup_heap = (tup_heap, Done "A: [1]") /\ yaml_faithful one_dump one_load "A: [1]".
Proof. destruct tup_ok as [A B]. split; [exact A|]. split; [exact B|]. split; [vm_compute; reflexivity|apply one_faithful]. Qed.

(* ------------------------------------------------------------------ C69 *)
(* cfg.k and cfg["k"] are the same; missing keys: AttributeError and KeyError *)
Theorem C69_attribute_is_item : forall h self t d k,
  Reads h self t -> entries t = Some d -> user_name k ->
  (forall c, dget d k = Some c -> exists x, getattr_ self k h = (h, Done (Some x)) /\ getitem self k h = (h, Done x) /\ Reads h x c) /\
  (~ In k (keys d) -> getattr_ self k h = (h, Raise XAttribute) /\ getitem self k h = (h, Raise (XMissing k))).
Proof. exact p_getattr. Qed.
Print Assumptions C69_attribute_is_item.

(* cfg.k = v on a configuration that is not frozen *)
Theorem C69_assignment : forall h self m d name value tv,
  TreeShaped h self (TNode m d) -> m_frozen m = false -> ~ In name internal_names ->
  TreeShaped h value tv -> Apart h value self -> In (ttype tv) [TyTup; TyList; TyStr; TyInt; TyFloat; TyBool; TyNode] ->
  exists h', setattr_ self name value h = (h', Done tt) /\ TreeShaped h' self (TNode m (dset d name tv)) /\ Untouched h h' self /\ getitem self name h' = (h', Done value).
Proof. exact p_setattr. Qed.
Print Assumptions C69_assignment.

(* internal names and values of invalid types: AssertionError, nothing changes *)
Theorem C69_rejected : forall h self m d name value,
  Reads h self (TNode m d) -> m_frozen m = false ->
  In name internal_names \/ (exists tv, Reads h value tv /\ ~ In (ttype tv) [TyTup; TyList; TyStr; TyInt; TyFloat; TyBool; TyNode]) ->
  setattr_ self name value h = (h, Raise XAssertion).
Proof. exact p_setattr_rejected. Qed.
Print Assumptions C69_rejected.

(* a key named like a method is stored but not found by attribute access *)
Theorem C69_method_names_refuted : exists h self t h', Cfg h self t /\ setattr_ self "items" (int 5) h = (h', Done tt) /\ getitem self "items" h' = (h', Done (int 5)) /\ getattr_ self "items" h' = (h', Done None).
Proof. exact r_shadowed. Qed.
Print Assumptions C69_method_names_refuted.

Example C69_witness : Reads [ab plain_meta] (VRef 0) (tab plain_meta 1 2) /\ user_name "A" /\ ~ In "Z" (keys [("A", tint 1); ("B", tint 2)]) /\ ~ In "Z" internal_names /\
  TreeShaped [ab plain_meta] (int 5) (tint 5) /\ Apart [ab plain_meta] (int 5) (VRef 0) /\ ~ In (ttype (TAtom ANone)) [TyTup; TyList; TyStr; TyInt; TyFloat; TyBool; TyNode].
Proof.
  split; [destruct (ab_cfg [ab plain_meta] 0 plain_meta eq_refl) as ((fp & R & _) & _); exists fp; exact R|]. split; [split; [cbn; intuition discriminate|reflexivity]|].
  split; [cbn; intuition discriminate|]. split; [cbn; intuition discriminate|]. split; [exists []; split; constructor|].
  split; [|cbn; intuition discriminate]. intros t t' fp fp' R R' l I. inversion R; subst. contradiction.
Qed.

(* ------------------------------------------------------------------ C70 *)
(* CfgNode(d): dicts become CfgNodes, leaves stay; nothing is shared with d *)
Theorem C70_constructor : forall fuel init nw h t t' m d,
  Reads h init t -> tdepth t < fuel -> built t t' -> t' = TNode m d ->
  exists h' v, new_cfg fuel (Some init) nw h = (h', Done v) /\ keeps h h' /\ Reads h' v (TNode (mkMeta false nw [] []) d) /\ (TreeShaped h init t -> Cfg h' v (TNode (mkMeta false nw [] []) d)) /\
    independent h' init v.
Proof. exact p_new. Qed.
Print Assumptions C70_constructor.

Theorem C70_invalid_value : forall fuel init nw h t,
  Reads h init t -> tdepth t < fuel -> is_branch t -> (forall t', ~ built t t') ->
  exists h', new_cfg fuel (Some init) nw h = (h', Raise XAssertion) /\ keeps h h'.
Proof. exact p_new_invalid. Qed.
Print Assumptions C70_invalid_value.

Theorem C70_not_a_dict : forall fuel init nw h t,
  Reads h init t -> t <> TAtom ANone -> tdepth t < fuel -> ~ is_branch t -> exists h', new_cfg fuel (Some init) nw h = (h', Raise XAttribute) /\ keeps h h'.
Proof. exact p_new_not_dict. Qed.
Print Assumptions C70_not_a_dict.

Theorem C70_empty : forall fuel nw h,
  exists h' v, new_cfg (S (S fuel)) None nw h = (h', Done v) /\ keeps h h' /\ Cfg h' v (TNode (mkMeta false nw [] []) []).
Proof. exact p_new_empty. Qed.
Print Assumptions C70_empty.

Example C70_witness : Reads [ODict [("A", int 1); ("S", VRef 1)]; ODict []] (VRef 0) (TDict [("A", tint 1); ("S", TDict [])]) /\
  built (TDict [("A", tint 1); ("S", TDict [])]) (TNode plain_meta [("A", tint 1); ("S", TNode plain_meta [])]) /\
  (forall t', ~ built (TDict [("A", TAtom ANone)]) t').
Proof.
  split.
  - exists [0; 1]. apply (R_dict _ 0 [("A", int 1); ("S", VRef 1)] _ [1]); [reflexivity|nodup|]. apply (Ri_cons _ _ _ _ [] _ _ [1]); [constructor|]. apply (Ri_cons _ _ _ _ [1] _ _ []); [|constructor].
    apply (R_dict _ 1 [] _ []); [reflexivity|nodup|constructor].
  - split.
    + econstructor; [reflexivity|]. constructor; [intros X; apply X; reflexivity|cbn; tauto|]. constructor; [econstructor; [reflexivity|constructor]|constructor].
    + intros t' B. inversion B as [x d d' Hd Hb]; subst. cbn in Hd. inversion Hd; subst. inversion Hb as [|k x y a b Hx Hr|k x a b Lx Tx Hr]; subst; [inversion Hx; discriminate|]. cbn in Tx. intuition discriminate.
Qed.
