import sys; sys.path.insert(0,'/verif/tools')
from genprop import gen
H=lambda t:('h',t)
def Tm(th,lem,f,com=''): return ('t',th,lem,f,com)
def sec(c): return H('(* ------------------------------------------------------------------ %s *)'%c)
P1='ConfigProps'; P2='ConfigProps2'; P3='ConfigProps3'; P4='ConfigProps4'; P5='ConfigProps5'
plan=[H(r'''(* Properties C63-C70: the configuration system (CfgNode).
   Vocabulary (ConfigSpec.v): tree = a configuration as the user sees it; Reads h v t = on heap h the value v reads as t;
   TreeShaped = ... and no dict or CfgNode occurs in it twice; Cfg = a CfgNode, tree-shaped, without plain dicts at its paths;
   Apart = two values share no dict or CfgNode; Untouched = whatever shares none with the configuration reads as before;
   keeps h h' = every object of h is the same in h'; at_path = cfg.A.B...; leaf_at; decodes = what a merged-in value becomes;
   cast = list made tuple or tuple made list where the existing entry wants it; built = what CfgNode(dict) makes of a dict;
   overridden(_all) = one override (a list of them) applied; reach / independent = objects in common.
   literal_eval, safe_dump, safe_load: any functions; fuel = how deep Python lets calls nest. *)
From Coq Require Import ZArith String Ascii List Bool Arith Lia.
From Verif Require Import ConfigModel ConfigSpec ConfigProps ConfigProps2 ConfigProps3 ConfigProps4 ConfigProps5.
Import ListNotations.
Local Open Scope string_scope.
Local Open Scope list_scope.
Local Open Scope nat_scope.
'''),
sec('C63'),
Tm('C63_freeze','p_freeze',P1,'freeze() sets the flag of every CfgNode of the configuration and changes nothing else'),
Tm('C63_defrost','p_defrost',P1),
Tm('C63_freeze_defrost_partial','p_freeze_defrost',P1,'defrost() undoes freeze() exactly, if nothing in the configuration was frozen before'),
Tm('C63_assignment','p_frozen_assign',P1,'cfg.A.B.name = value raises AttributeError and changes nothing, at any depth'),
Tm('C63_history_partial','p_frozen_history',P1,'no history of attribute assignments, reads, clones, dumps, freezes and registrations changes the entries'),
Tm('C63_item_refuted','r_frozen_item',P5,'cfg["A"] = 5 changes a frozen configuration'),
Tm('C63_merge_refuted','r_frozen_merge',P5,'so does merge_from_other_cfg'),
Tm('C63_list_refuted','r_frozen_list',P5,'and merge_from_list'),
Tm('C63_nested_in_list_refuted','r_freeze_list_entry',P5,'freeze does not reach a CfgNode inside a list'),
Tm('C63_exact_undo_refuted','r_freeze_defrost',P5,'if a part was frozen before, defrost does not restore that'),
H(r'''Example C63_witness : Cfg (nested plain_meta plain_meta) (VRef 0) (tnested plain_meta plain_meta 1) /\ flags_are false (tnested plain_meta plain_meta 1) /\
  Cfg (nested frozen_meta frozen_meta) (VRef 0) (tnested frozen_meta frozen_meta 1) /\ flags_are true (tnested frozen_meta frozen_meta 1) /\ tdepth (tnested plain_meta plain_meta 1) = 3 /\
  Forall user_name ["S"] /\ at_path (tnested frozen_meta frozen_meta 1) ["S"] = Some (TNode frozen_meta [("A", tint 1)]) /\ Forall named [Assign ["S"] "A" (int 5); Clone; Dump; Freeze; RegisterDeprecated "Z"].
Proof.
  split; [apply nested_cfg; reflexivity|]. split; [apply nested_flags; reflexivity|]. split; [apply nested_cfg; reflexivity|]. split; [apply nested_flags; reflexivity|]. split; [reflexivity|].
  assert (user_name "S") by (split; [cbn; intuition discriminate|reflexivity]).
  split; [repeat constructor; apply H|]. split; [reflexivity|]. repeat constructor; apply H.
Qed.
'''),
sec('C64'),
Tm('C64_leaves','p_merge_leaves',P2,'where every leaf of the other configuration ends up'),
Tm('C64_subtrees','p_merge_subtrees',P2,'the same for its subtrees'),
Tm('C64_rest_kept','p_merge_keeps',P2,'whatever the outcome: other entries, attributes, key order, everything outside; new keys only where allowed'),
Tm('C64_errors','p_merge_errors',P2,'why a merge can fail'),
Tm('C64_unknown_key','p_merge_unknown',P2),
Tm('C64_not_a_config','p_merge_not_cfg',P2),
Tm('C64_terminates','p_merge_depth',P2,'RecursionError only if the limit does not exceed the depth of the other configuration'),
Tm('C64_from_file','p_merge_file',P5,'merge_from_file on YAML is the merge of the configuration built from the document'),
Tm('C64_bad_file','p_merge_file_bad',P5),
Tm('C64_failure_refuted','r_merge_atomic',P5,'a merge that fails leaves the entries before the error changed'),
Tm('C64_own_clone_refuted','r_merge_clone',P5,'strings are decoded again: merging a clone of the configuration into itself can fail'),
Tm('C64_new_subtree_refuted','r_merge_new_subtree',P5,'inside a new subtree strings are not decoded'),
H(r'''Example C64_witness : (let h := two_nested plain_meta (str "5") in let t := TNode plain_meta [("S", TNode plain_meta [("A", tstr "5")])] in
    Cfg h (VRef 0) (tnested plain_meta plain_meta 1) /\ TreeShaped h (VRef 2) t /\ is_cfg t /\ Apart h (VRef 2) (VRef 0) /\
    (exists h', merge_from_other_cfg some_literals 10 (VRef 0) (VRef 2) h = (h', Done tt)) /\ leaf_at t ["S"; "A"] (tstr "5")) /\
  (exists h', merge_from_other_cfg some_literals 10 (VRef 0) (VRef 2) (two_nested plain_meta (str "x")) = (h', Raise XValue)) /\
  lacks (tnested plain_meta plain_meta 1) ["S"] "B" plain_meta /\
  built (tree_of_lit (LDict [("A", LAtom (AInt 1))])) (TNode plain_meta [("A", tint 1)]).
Proof.
  split.
  - destruct (two_nested_ok plain_meta (str "5") (AStr "5") eq_refl) as (A & B & C & D). split; [exact A|]. split; [exact B|]. split; [exact C|]. split; [exact D|].
    split; [eexists; vm_compute; reflexivity|]. split; [reflexivity|intros X; apply X; reflexivity].
  - split; [eexists; vm_compute; reflexivity|]. split; [exists [("A", tint 1)]; split; [reflexivity|cbn; intuition discriminate]|].
    econstructor; [reflexivity|]. constructor; [intros X; apply X; reflexivity|cbn; tauto|constructor].
Qed.
'''),
sec('C65'),
Tm('C65_types','p_merge_types',P2,'whatever the outcome, every entry keeps its type'),
Tm('C65_mismatch','p_merge_mismatch',P2,'a value that cannot be cast to the type of the entry makes the merge fail (C64_errors: with ValueError, if nothing before it fails)'),
Tm('C65_list_types','p_list_mismatch',P3,'merge_from_list: ValueError, and nothing changes'),
Tm('C65_new_key_refuted','r_merge_new_type',P5,'a new key can get a value of a type that no configuration may hold'),
H(r'''Example C65_witness : (let h := two_nested plain_meta (str "x") in let t := TNode plain_meta [("S", TNode plain_meta [("A", tstr "x")])] in
    Cfg h (VRef 0) (tnested plain_meta plain_meta 1) /\ TreeShaped h (VRef 2) t /\ is_cfg t /\ Apart h (VRef 2) (VRef 0) /\ at_path t ["S"; "A"] = Some (tstr "x")) /\
  at_path (tnested plain_meta plain_meta 1) ["S"; "A"] = Some (tint 1) /\ decodes some_literals (tstr "x") (tstr "x") /\ (forall w, ~ cast TyInt (tstr "x") w) /\
  cast TyTup (TList [tint 1]) (TTup [tint 1]) /\ dotted "S.A" ["S"; "A"].
Proof.
  split; [destruct (two_nested_ok plain_meta (str "x") (AStr "x") eq_refl) as (A & B & C & D); auto|]. split; [reflexivity|].
  split; [eapply D_text; [reflexivity|auto]|]. split; [intros w C; inversion C; discriminate|]. split; [constructor; reflexivity|].
  split; [discriminate|]. split; [|reflexivity]. constructor; [intros [|[|n]]; discriminate|]. constructor; [intros [|[|n]]; discriminate|constructor].
Qed.
'''),
sec('C66'),
Tm('C66_overrides','p_list_ok',P3,'on success every pair was applied, in order'),
Tm('C66_one_override','p_override_frame',P3,'one override replaces the addressed entry and changes nothing else'),
Tm('C66_in_order','p_list_in_order',P3),
Tm('C66_odd_length','p_list_odd',P3),
Tm('C66_unknown_key','p_list_unknown',P3),
Tm('C66_failure_partial','p_list_error',P3,'after a failure exactly the pairs before the failing one are applied'),
Tm('C66_failure_refuted','r_list_atomic',P5,'so the configuration is changed by a failing call'),
Tm('C66_shared_list_refuted','r_list_shared',P5,'a list value is not copied'),
H(r'''Example C66_witness : TreeShaped [ab plain_meta] (VRef 0) (tab plain_meta 1 2) /\ Fit [ab plain_meta] (VRef 0) (str "5") (tstr "5") /\
  (exists h', merge_from_list some_literals 10 (VRef 0) [str "A"; str "5"; str "B"; int 7] [ab plain_meta] = (h', Done tt)) /\ pairs [str "A"; str "5"] = [(str "A", str "5")] /\
  overridden some_literals plain_meta (tab plain_meta 1 2) "A" (tstr "5") (tab plain_meta 5 2) /\ dotted "A" ["A"].
Proof.
  assert (D : dotted "A" ["A"]). { split; [discriminate|]. split; [|reflexivity]. constructor; [intros [|n]; discriminate|constructor]. }
  split; [apply (ab_cfg [ab plain_meta] 0 plain_meta eq_refl)|]. split; [left; constructor|]. split; [eexists; vm_compute; reflexivity|]. split; [reflexivity|]. split; [|exact D].
  apply (O_set some_literals plain_meta (tab plain_meta 1 2) "A" (tstr "5") ["A"] (tint 1) (tint 5) (tint 5)); [cbn; tauto|cbn; tauto|exact D|reflexivity| |constructor; reflexivity].
  left. apply (D_literal some_literals "5" (LAtom (AInt 5)) eq_refl).
Qed.
'''),
sec('C67'),
Tm('C67_merge_deprecated_partial','p_merge_deprecated',P4,'an entry that the configuration does not have and that a successful merge drops is registered as deprecated'),
Tm('C67_merge_renamed_partial','p_merge_renamed',P4,'a renamed key that the configuration does not have: KeyError with the new name'),
Tm('C67_merge_key_errors','p_merge_key_errors',P4,'KeyErrors of a merge are about keys that are not deprecated'),
Tm('C67_list_deprecated','p_list_deprecated',P3,'merge_from_list skips a deprecated key whatever its value'),
Tm('C67_list_renamed','p_list_renamed',P3),
Tm('C67_register_deprecated','p_register_deprecated',P4),
Tm('C67_register_renamed','p_register_renamed',P4),
Tm('C67_key_is','p_key_is',P4),
Tm('C67_present_key_refuted','r_deprecated_present',P5,'a deprecated key that the configuration still has is merged'),
Tm('C67_new_key_refuted','r_deprecated_new',P5,'where new keys are allowed a deprecated key is added'),
H(r'''Example C67_witness : (let m := mkMeta false false ["S.B"] [("S.A", ("S.C", ""))] in let h := two_nested m (int 5) in
    Reads h (VRef 0) (tnested m plain_meta 1) /\ dget (m_ren m) "S.A" = Some ("S.C", "") /\ ~ In "S.A" (m_dep m) /\ In "S.B" (m_dep m) /\ lacks (tnested m plain_meta 1) ["S"] "B" plain_meta) /\
  (let m := mkMeta false false [] [("A", ("C", "see docs"))] in let h := [ONode m []; ONode plain_meta [("A", int 5)]] in
    Cfg h (VRef 0) (TNode m []) /\ TreeShaped h (VRef 1) (TNode plain_meta [("A", tint 5)]) /\ Apart h (VRef 1) (VRef 0) /\ lacks (TNode m []) [] "A" m /\
    merge_from_other_cfg some_literals 10 (VRef 0) (VRef 1) h = (h, Raise (XRenamed "A" "C" "see docs"))).
Proof.
  split.
  - intros m h. split; [exists [0; 1]; apply nested_reads; reflexivity|]. split; [reflexivity|]. split; [cbn; intuition discriminate|]. split; [cbn; auto|].
    exists [("A", tint 1)]. split; [reflexivity|cbn; intuition discriminate].
  - intros m h. split; [eapply flat_cfg; [reflexivity|nodup|items|leafs]|]. split; [exists [1]; split; [econstructor; [reflexivity|nodup|items]|nodup]|]. split; [apart_tac|].
    split; [exists []; split; [reflexivity|cbn; auto]|]. vm_compute. reflexivity.
Qed.
'''),
sec('C68'),
Tm('C68_clone','p_clone',P4,'an equal configuration (attributes included) that has no object in common with the original'),
Tm('C68_independent','p_independent',P4,'no change made through one of two independent values is seen through the other'),
Tm('C68_dump_load_partial','p_dump_load',P4,'the YAML text reads back as the same configuration, up to tuples (lists) and attributes (defaults)'),
Tm('C68_tuples','p_dump_tuple',P5,'tuples come back as lists'),
Tm('C68_attributes','p_dump_attributes',P5,'frozen flags, registries and new_allowed come back as defaults'),
Tm('C68_round_trip_refuted','r_dump_tuple',P5,'so the configuration read back is not equal: {"A": (1,)}'),
H(r'''Example C68_witness : Cfg tup_heap (VRef 0) tup_tree /\ dumpable tup_tree /\ dump one_dump 10 (VRef 0) tup_heap = (tup_heap, Done "A: [1]") /\ yaml_faithful one_dump one_load "A: [1]".
Proof. destruct tup_ok as [A B]. split; [exact A|]. split; [exact B|]. split; [vm_compute; reflexivity|apply one_faithful]. Qed.
'''),
sec('C69'),
Tm('C69_attribute_is_item','p_getattr',P4,'cfg.k and cfg["k"] are the same; missing keys: AttributeError and KeyError'),
Tm('C69_assignment','p_setattr',P4,'cfg.k = v on a configuration that is not frozen'),
Tm('C69_rejected','p_setattr_rejected',P4,'internal names and values of invalid types: AssertionError, nothing changes'),
Tm('C69_method_names_refuted','r_shadowed',P5,'a key named like a method is stored but not found by attribute access'),
H(r'''Example C69_witness : Reads [ab plain_meta] (VRef 0) (tab plain_meta 1 2) /\ user_name "A" /\ ~ In "Z" (keys [("A", tint 1); ("B", tint 2)]) /\ ~ In "Z" internal_names /\
  TreeShaped [ab plain_meta] (int 5) (tint 5) /\ Apart [ab plain_meta] (int 5) (VRef 0) /\ ~ In (ttype (TAtom ANone)) [TyTup; TyList; TyStr; TyInt; TyFloat; TyBool; TyNode].
Proof.
  split; [destruct (ab_cfg [ab plain_meta] 0 plain_meta eq_refl) as ((fp & R & _) & _); exists fp; exact R|]. split; [split; [cbn; intuition discriminate|reflexivity]|].
  split; [cbn; intuition discriminate|]. split; [cbn; intuition discriminate|]. split; [exists []; split; constructor|].
  split; [|cbn; intuition discriminate]. intros t t' fp fp' R R' l I. inversion R; subst. contradiction.
Qed.
'''),
sec('C70'),
Tm('C70_constructor','p_new',P4,'CfgNode(d): dicts become CfgNodes, leaves stay; nothing is shared with d'),
Tm('C70_invalid_value','p_new_invalid',P4),
Tm('C70_not_a_dict','p_new_not_dict',P4),
Tm('C70_empty','p_new_empty',P4),
H(r'''Example C70_witness : Reads [ODict [("A", int 1); ("S", VRef 1)]; ODict []] (VRef 0) (TDict [("A", tint 1); ("S", TDict [])]) /\
  built (TDict [("A", tint 1); ("S", TDict [])]) (TNode plain_meta [("A", tint 1); ("S", TNode plain_meta [])]) /\
  (forall t', ~ built (TDict [("A", TAtom ANone)]) t').
Proof.
  split.
  - exists [0; 1]. apply (R_dict _ 0 [("A", int 1); ("S", VRef 1)] _ [1]); [reflexivity|nodup|]. apply (Ri_cons _ _ _ _ [] _ _ [1]); [constructor|]. apply (Ri_cons _ _ _ _ [1] _ _ []); [|constructor].
    apply (R_dict _ 1 [] _ []); [reflexivity|nodup|constructor].
  - split.
    + econstructor; [reflexivity|]. constructor; [intros X; apply X; reflexivity|cbn; tauto|]. constructor; [econstructor; [reflexivity|constructor]|constructor].
    + intros t' B. inversion B as [x d d' Hd Hb]; subst. cbn in Hd. inversion Hd; subst. inversion Hb as [|k x y a b Hx Hr|k x a b Lx Tx Hr]; subst; [inversion Hx; discriminate|]. cbn in Tx. intuition discriminate.
Qed.
'''),
]
gen('PropConfig.v',plan)
