(* Specification vocabulary for the configuration properties (C63-C70): a configuration as the tree a user sees. *)
From Coq Require Import ZArith String Ascii List Bool Arith.
From Verif Require Import ConfigModel.
Import ListNotations.
Local Open Scope list_scope.
Local Open Scope nat_scope.

(* the value of a configuration entry, read in full: no references *)
Inductive tree : Type :=
| TAtom (a : atom)
| TTup (l : list tree)
| TList (l : list tree)
| TDict (d : list (string * tree))
| TNode (m : meta) (d : list (string * tree)).

Definition keys {A} (d : list (string * A)) : list string := map fst d.

(* [reads h v t fp]: on heap h the value v reads as the tree t; fp lists the dicts and CfgNodes met on the way
   (an object met twice is listed twice). Keys of a dict are distinct. *)
Inductive reads (h : heap) : val -> tree -> list loc -> Prop :=
| R_atom a : reads h (VAtom a) (TAtom a) []
| R_tup vs ts fp : reads_all h vs ts fp -> reads h (VTup vs) (TTup ts) fp
| R_list l vs ts fp : nth_error h l = Some (OList vs) -> reads_all h vs ts fp -> reads h (VRef l) (TList ts) fp
| R_dict l d ts fp : nth_error h l = Some (ODict d) -> NoDup (keys d) -> reads_items h d ts fp -> reads h (VRef l) (TDict ts) (l :: fp)
| R_node l m d ts fp : nth_error h l = Some (ONode m d) -> NoDup (keys d) -> reads_items h d ts fp -> reads h (VRef l) (TNode m ts) (l :: fp)
with reads_all (h : heap) : list val -> list tree -> list loc -> Prop :=
| Rs_nil : reads_all h [] [] []
| Rs_cons v t fp vs ts fps : reads h v t fp -> reads_all h vs ts fps -> reads_all h (v :: vs) (t :: ts) (fp ++ fps)
with reads_items (h : heap) : items -> list (string * tree) -> list loc -> Prop :=
| Ri_nil : reads_items h [] [] []
| Ri_cons k v t fp d ts fps : reads h v t fp -> reads_items h d ts fps -> reads_items h ((k, v) :: d) ((k, t) :: ts) (fp ++ fps).

(* the configuration object v reads as t, whatever is shared inside *)
Definition Reads (h : heap) (v : val) (t : tree) : Prop := exists fp, reads h v t fp.
(* ... and no dict or CfgNode occurs in it twice *)
Definition TreeShaped (h : heap) (v : val) (t : tree) : Prop := exists fp, reads h v t fp /\ NoDup fp.
(* two values have no dict or CfgNode in common *)
Definition Apart (h : heap) (v w : val) : Prop :=
  forall t t' fp fp', reads h v t fp -> reads h w t' fp' -> forall l, In l fp -> In l fp' -> False.

(* what cfg["A"]["B"]... (or cfg.A.B) gives *)
Definition entries (t : tree) : option (list (string * tree)) :=
  match t with TDict d | TNode _ d => Some d | _ => None end.
Fixpoint at_path (t : tree) (p : list string) : option tree :=
  match p with
  | [] => Some t
  | k :: r => match entries t with
              | Some d => match dget d k with Some c => at_path c r | None => None end
              | None => None
              end
  end.
Definition is_branch (t : tree) : Prop := entries t <> None.
Definition is_cfg (t : tree) : Prop := exists m d, t = TNode m d.

(* type(...) of a tree *)
Definition ttype (t : tree) : ty :=
  match t with TAtom a => atom_ty a | TTup _ => TyTup | TList _ => TyList | TDict _ => TyDict | TNode _ _ => TyNode end.

(* the same contents, the attributes of the CfgNodes (frozen flag, registries, new_allowed) left aside *)
Definition plain_meta : meta := mkMeta false false [] [].
Fixpoint contents (t : tree) : tree :=
  match t with
  | TAtom a => TAtom a
  | TTup l => TTup (map contents l)
  | TList l => TList (map contents l)
  | TDict d => TDict ((fix go d := match d with [] => [] | (k, x) :: r => (k, contents x) :: go r end) d)
  | TNode _ d => TNode plain_meta ((fix go d := match d with [] => [] | (k, x) :: r => (k, contents x) :: go r end) d)
  end.
(* the same tree with every frozen flag of the configuration nodes set to b (lists, tuples and plain dicts are not entered) *)
Definition with_frozen (b : bool) (m : meta) : meta := mkMeta b (m_new m) (m_dep m) (m_ren m).
Fixpoint all_frozen (b : bool) (t : tree) : tree :=
  match t with
  | TNode m d => TNode (with_frozen b m) ((fix go d := match d with [] => [] | (k, x) :: r => (k, all_frozen b x) :: go r end) d)
  | _ => t
  end.

(* every CfgNode of the tree, at any depth and also inside lists, tuples and dicts, satisfies P *)
Fixpoint every_node (P : meta -> Prop) (t : tree) : Prop :=
  match t with
  | TAtom _ => True
  | TTup l | TList l => (fix go l := match l with [] => True | x :: r => every_node P x /\ go r end) l
  | TDict d => (fix go d := match d with [] => True | (_, x) :: r => every_node P x /\ go r end) d
  | TNode m d => P m /\ (fix go d := match d with [] => True | (_, x) :: r => every_node P x /\ go r end) d
  end.

(* nesting depth *)
Fixpoint tdepth (t : tree) : nat :=
  match t with
  | TAtom _ => 1
  | TTup l | TList l => S ((fix go l := match l with [] => 0 | x :: r => Nat.max (tdepth x) (go r) end) l)
  | TDict d | TNode _ d => S ((fix go d := match d with [] => 0 | (_, x) :: r => Nat.max (tdepth x) (go r) end) d)
  end.

(* objects that exist in h are the same in h' *)
Definition keeps (h h' : heap) : Prop := forall l o, nth_error h l = Some o -> nth_error h' l = Some o.

(* the value described by a literal (of ast.literal_eval or yaml.safe_load) *)
Fixpoint tree_of_lit (t : lit) : tree :=
  match t with
  | LAtom a => TAtom a
  | LTup l => TTup (map tree_of_lit l)
  | LList l => TList (map tree_of_lit l)
  | LDict d => TDict (dict_of ((fix go d := match d with [] => [] | (k, x) :: r => (k, tree_of_lit x) :: go r end) d))
  end.

(* what becomes of an entry v that is merged in or given as an override: dicts become configurations (the relation does
   not describe these), a str that is a Python literal becomes its value, everything else stays *)
Inductive decodes (literal_eval : string -> out lit) : tree -> tree -> Prop :=
| D_literal s l : literal_eval s = Done l -> decodes literal_eval (TAtom (AStr s)) (tree_of_lit l)
| D_text s e : literal_eval s = Raise e -> e = XValue \/ e = XSyntax -> decodes literal_eval (TAtom (AStr s)) (TAtom (AStr s))
| D_other t : ttype t <> TyStr -> ~ is_branch t -> decodes literal_eval t t.
(* t' is t, or t with tuple made a list or list made a tuple, so that its type is ty *)
Inductive cast (target : ty) : tree -> tree -> Prop :=
| C_same t : ttype t = target -> cast target t t
| C_tuple l : target = TyTup -> cast target (TList l) (TTup l)
| C_list l : target = TyList -> cast target (TTup l) (TList l).

(* no entry at any path is a plain dict: below the root there are only CfgNodes and leaves *)
Definition no_plain_dict (t : tree) : Prop := forall p d, at_path t p <> Some (TDict d).
(* p is a leaf of t *)
Definition leaf_at (t : tree) (p : list string) (v : tree) : Prop := at_path t p = Some v /\ ~ is_branch v.
(* the path begins with q *)
Definition starts_with (q p : list string) : Prop := exists r, p = q ++ r.
(* q is a CfgNode of b, with attributes mq, that has no key k *)
Definition lacks (b : tree) (q : list string) (k : string) (mq : meta) : Prop :=
  exists dq, at_path b q = Some (TNode mq dq) /\ ~ In k (keys dq).
(* the entry of a at q.k has no place in b, and its full name (the names in ks come before q) is registered as deprecated in reg *)
Definition ignored_at (reg : meta) (ks : list string) (b : tree) (p : list string) : Prop :=
  exists q k mq, starts_with (q ++ [k]) p /\ lacks b q k mq /\ m_new mq = false /\ In (join (ks ++ q ++ [k])) (m_dep reg).

(* CfgNode(dict): every dict-like entry, at any depth of dicts, becomes a CfgNode with default attributes; all other
   entries must have one of the valid types and stay as they are; keys and their order stay *)
Inductive built : tree -> tree -> Prop :=
| Built t d d' : entries t = Some d -> built_items d d' -> built t (TNode plain_meta d')
with built_items : list (string * tree) -> list (string * tree) -> Prop :=
| Built_nil : built_items [] []
| Built_branch k x y d d' : built x y -> built_items d d' -> built_items ((k, x) :: d) ((k, y) :: d')
| Built_leaf k x d d' : ~ is_branch x -> In (ttype x) [TyTup; TyList; TyStr; TyInt; TyFloat; TyBool] -> built_items d d' -> built_items ((k, x) :: d) ((k, x) :: d').

(* the entry at path p replaced by w *)
Fixpoint set_path (t : tree) (p : list string) (w : tree) : tree :=
  match p with
  | [] => w
  | k :: r => match t with
              | TNode m d => match dget d k with Some c => TNode m (dset d k (set_path c r w)) | None => t end
              | TDict d => match dget d k with Some c => TDict (dset d k (set_path c r w)) | None => t end
              | _ => t
              end
  end.
(* p is the path that the dotted name s writes *)
Definition dot_free (k : string) : Prop := forall n, String.get n k <> Some "."%char.
Definition dotted (s : string) (p : list string) : Prop := p <> [] /\ Forall dot_free p /\ s = join p.
(* one override (full_key, v) of merge_from_list applied to t, whose attributes at the root are reg *)
Inductive overridden (literal_eval : string -> out lit) (reg : meta) (t : tree) (key : string) (v : tree) : tree -> Prop :=
| O_ignored : In key (m_dep reg) -> overridden literal_eval reg t key v t
| O_set p orig w w' : ~ In key (m_dep reg) -> ~ In key (keys (m_ren reg)) -> dotted key p -> at_path t p = Some orig ->
    decodes literal_eval v w \/ built v w -> cast (ttype orig) w w' -> overridden literal_eval reg t key v (set_path t p w').
(* a list of overrides, applied in order *)
Inductive overridden_all (literal_eval : string -> out lit) (reg : meta) : tree -> list (string * tree) -> tree -> Prop :=
| Os_nil t : overridden_all literal_eval reg t [] t
| Os_cons t k v r t1 t2 : overridden literal_eval reg t k v t1 -> overridden_all literal_eval reg t1 r t2 -> overridden_all literal_eval reg t ((k, v) :: r) t2.
(* a value that can be given as an override: a dict or CfgNode that has nothing in common with the configuration self,
   or a value without dicts and CfgNodes inside (numbers, strings, lists, tuples) *)
Definition Fit (h : heap) (self v : val) (t : tree) : Prop :=
  reads h v t [] \/ (is_branch t /\ TreeShaped h v t /\ Apart h v self).
(* the pair (k, v) of the list is the override (name, t) *)
Definition pair_is (h : heap) (kv : val * val) (kt : string * tree) : Prop := fst kv = VAtom (AStr (fst kt)) /\ Reads h (snd kv) (snd kt).

(* l is a list, dict or CfgNode that can be reached from v *)
Definition obj_values (o : obj) : list val := match o with OList vs => vs | ODict d | ONode _ d => map snd d end.
Inductive reach (h : heap) : val -> loc -> Prop :=
| reach_here l : reach h (VRef l) l
| reach_tup vs v l : In v vs -> reach h v l -> reach h (VTup vs) l
| reach_obj l0 o v l : nth_error h l0 = Some o -> In v (obj_values o) -> reach h v l -> reach h (VRef l0) l.
(* v and w have no list, dict or CfgNode in common: no change made through one of them is seen through the other *)
Definition independent (h : heap) (v w : val) : Prop := forall l, reach h v l -> reach h w l -> False.

(* what a YAML document that was written from l gives when it is read: tuples come back as lists, keys in any order *)
Inductive yaml_same : lit -> lit -> Prop :=
| Y_atom a : yaml_same (LAtom a) (LAtom a)
| Y_tup l l' : yaml_sames l l' -> yaml_same (LTup l) (LList l')
| Y_list l l' : yaml_sames l l' -> yaml_same (LList l) (LList l')
| Y_dict d d' : NoDup (keys d') -> (forall k, In k (keys d) <-> In k (keys d')) -> (forall k x y, In (k, x) d -> In (k, y) d' -> yaml_same x y) -> yaml_same (LDict d) (LDict d')
with yaml_sames : list lit -> list lit -> Prop :=
| Ys_nil : yaml_sames [] []
| Ys_cons x y l l' : yaml_same x y -> yaml_sames l l' -> yaml_sames (x :: l) (y :: l').
(* documents of atoms (no objects of other types), lists, tuples and mappings with distinct string keys *)
Fixpoint yaml_doc (l : lit) : Prop :=
  match l with
  | LAtom (AOther _ _) => False
  | LAtom _ => True
  | LTup l | LList l => (fix go l := match l with [] => True | x :: r => yaml_doc x /\ go r end) l
  | LDict d => NoDup (keys d) /\ (fix go d := match d with [] => True | (_, x) :: r => yaml_doc x /\ go r end) d
  end.
(* the same value, tuples read as lists, mappings compared as mappings *)
Inductive same_value : tree -> tree -> Prop :=
| S_atom a : same_value (TAtom a) (TAtom a)
| S_tup l l' : same_values l l' -> same_value (TTup l) (TList l')
| S_list l l' : same_values l l' -> same_value (TList l) (TList l')
| S_dict d d' : (forall k, In k (keys d) <-> In k (keys d')) -> (forall k x y, dget d k = Some x -> dget d' k = Some y -> same_value x y) -> same_value (TDict d) (TDict d')
with same_values : list tree -> list tree -> Prop :=
| Ss_nil : same_values [] []
| Ss_cons x y l l' : same_value x y -> same_values l l' -> same_values (x :: l) (y :: l').
(* a configuration that dump accepts: entries are CfgNodes or leaves of a valid type, without CfgNodes or objects of
   other types inside *)
Fixpoint storable (t : tree) : Prop :=
  match t with
  | TAtom (AOther _ _) | TNode _ _ => False
  | TAtom _ => True
  | TTup l | TList l => (fix go l := match l with [] => True | x :: r => storable x /\ go r end) l
  | TDict d => (fix go d := match d with [] => True | (_, x) :: r => storable x /\ go r end) d
  end.
Definition dumpable (t : tree) : Prop := is_cfg t /\
  forall p v, at_path t p = Some v -> is_cfg v \/ (In (ttype v) [TyTup; TyList; TyStr; TyInt; TyFloat; TyBool] /\ storable v).
(* the same configuration: the same CfgNodes at the same paths (with default attributes in t'), the same leaves *)
Definition same_config (t t' : tree) : Prop := forall p,
  ((exists m d, at_path t p = Some (TNode m d)) <-> (exists d, at_path t' p = Some (TNode plain_meta d))) /\
  (forall v, leaf_at t p v -> exists v', leaf_at t' p v' /\ same_value v v') /\
  (forall v', leaf_at t' p v' -> exists v, leaf_at t p v).
(* reading the document s gives back whatever was written to it *)
Definition yaml_faithful (safe_dump : lit -> string) (safe_load : string -> out lit) (s : string) : Prop :=
  forall l, yaml_doc l -> safe_dump l = s -> exists l', safe_load s = Done l' /\ yaml_same l l'.

(* a configuration object: a CfgNode that reads as t, in which no dict or CfgNode occurs twice and no entry is a plain dict *)
Definition Cfg (h : heap) (v : val) (t : tree) : Prop := TreeShaped h v t /\ is_cfg t /\ no_plain_dict t.
(* every value that has no dict or CfgNode in common with self reads as before *)
Definition Untouched (h h' : heap) (self : val) : Prop := forall w tw, Reads h w tw -> Apart h w self -> Reads h' w tw.
(* h2 differs from h only in objects that can be reached from w *)
Definition changed_through (h h2 : heap) (w : val) : Prop := forall l, ~ reach h w l -> forall o, nth_error h l = Some o -> nth_error h2 l = Some o.
(* every CfgNode at a path of t has its frozen flag equal to b *)
Definition flags_are (b : bool) (t : tree) : Prop := forall p m d, at_path t p = Some (TNode m d) -> m_frozen m = b.
(* the two trees have the same CfgNodes at the same paths with the same keys in the same order, and the same leaves *)
Definition same_entries (t t' : tree) : Prop := forall p,
  (forall m d, at_path t p = Some (TNode m d) -> exists m' d', at_path t' p = Some (TNode m' d') /\ keys d' = keys d) /\
  (forall v, leaf_at t p v -> leaf_at t' p v) /\
  (at_path t p = None -> at_path t' p = None).
(* names that are not attributes of the classes CfgNode, dict or object, so that cfg.name is looked up among the entries *)
Definition user_name (k : string) : Prop := ~ In k class_names /\ dunder k = false.

(* every leaf of the other configuration, after a successful merge *)
Definition Landed (literal_eval : string -> out lit) (reg : meta) (tb tb' : tree) (p : list string) (v : tree) : Prop :=
  (* the entry exists: it has the decoded and cast value *)
  (exists o w w', at_path tb p = Some o /\ decodes literal_eval v w /\ cast (ttype o) w w' /\ at_path tb' p = Some w') \/
  (* it does not, and its parent (or the first missing ancestor's parent) allows new keys *)
  (exists q k mq, starts_with (q ++ [k]) p /\ lacks tb q k mq /\ m_new mq = true /\
     ((p = q ++ [k] /\ exists w, decodes literal_eval v w /\ at_path tb' p = Some w) \/ (p <> q ++ [k] /\ at_path tb' p = Some v))) \/
  (* it does not, and it is registered as deprecated *)
  (ignored_at reg [] tb p /\ at_path tb' p = None).
(* why a merge fails *)
Definition Blame (literal_eval : string -> out lit) (reg : meta) (ta tb : tree) (e : cexn) : Prop :=
  (* KeyError: a key that the configuration does not have, where new keys are not allowed and the key is not deprecated *)
  (exists q k mq, at_path ta (q ++ [k]) <> None /\ lacks tb q k mq /\ m_new mq = false /\ ~ In (join (q ++ [k])) (m_dep reg) /\
     ((exists new msg, In (join (q ++ [k]), (new, msg)) (m_ren reg) /\ e = XRenamed (join (q ++ [k])) new msg) \/
      (~ In (join (q ++ [k])) (keys (m_ren reg)) /\ e = XMissing (join (q ++ [k]))))) \/
  (* ValueError: a value of another type *)
  (e = XValue /\ exists p v o, at_path ta p = Some v /\ at_path tb p = Some o /\
      (is_branch v /\ ~ is_cfg o \/ exists w, decodes literal_eval v w /\ forall w', ~ cast (ttype o) w w')) \/
  (* an exception of ast.literal_eval itself, other than ValueError and SyntaxError *)
  (exists p s, at_path ta p = Some (TAtom (AStr s)) /\ literal_eval s = Raise e /\ e <> XValue /\ e <> XSyntax) \/
  (* the other configuration itself could not have been built *)
  (e = XAssertion /\ forall c, ~ built ta c).

(* cfg.A.B.C : getattr_ for every name *)
Fixpoint attr_path (self : val) (p : list string) : M val :=
  match p with
  | [] => ret self
  | k :: r => let! o := getattr_ self k in match o with Some v => attr_path v r | None => throw XAttribute end
  end.

(* cfg.A.B.name = value *)
Definition assign (self : val) (p : list string) (name : string) (value : val) : M unit :=
  let! x := attr_path self p in setattr_ x name value.

(* a user of a frozen configuration: attribute assignments anywhere in it, reading, cloning, dumping, freezing again, and
   registering keys; errors are caught *)
Inductive call : Type :=
| Assign (p : list string) (name : string) (value : val)    (* cfg.A.B.name = value *)
| Read (p : list string)
| Clone | Dump | Freeze
| RegisterDeprecated (key : string) | RegisterRenamed (old new msg : string).
Definition caught {A} (m : M A) : M unit := fun h => (fst (m h), Done tt).
Definition run_call (safe_dump : lit -> string) (fuel : nat) (self : val) (c : call) : M unit :=
  match c with
  | Assign p name value => caught (assign self p name value)
  | Read p => caught (attr_path self p)
  | Clone => caught (clone fuel self)
  | Dump => caught (dump safe_dump fuel self)
  | Freeze => caught (freeze fuel self)
  | RegisterDeprecated key => caught (register_deprecated_key self key)
  | RegisterRenamed o n m => caught (register_renamed_key self o n m)
  end.
Fixpoint run_calls (safe_dump : lit -> string) (fuel : nat) (self : val) (cs : list call) : M unit :=
  match cs with [] => ret tt | c :: r => run_call safe_dump fuel self c ;;! run_calls safe_dump fuel self r end.
(* the names used in paths are names of entries *)
Definition named (c : call) : Prop := match c with Assign p _ _ | Read p => Forall user_name p | _ => True end.

