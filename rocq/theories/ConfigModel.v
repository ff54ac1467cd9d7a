(* Model of gradslam/config/cfgnode.py: the class CfgNode and its module-level helpers.

   Python objects are modelled on an explicit heap, so that aliasing, sharing and cycles are part of the model:
   a value is an atom (None, bool, int, float, str, or an object of another immutable type), a tuple, or a reference
   to a list, a dict or a CfgNode.  Keys of dicts are strings.  A call returns the heap it leaves behind together
   with its result or the exception it raises: effects that precede an exception stay.
   Every recursion of the code (copy.deepcopy, the constructor, _merge_a_into_b, _immutable) takes the number of
   recursive calls that Python's recursion limit still allows; at 0 it raises RecursionError.
   Not modelled: warnings and logging, the texts of exceptions except the key names, keys that are not strings,
   the garbage an interrupted call leaves behind (it stays on the heap, unreachable). *)
From Coq Require Import ZArith String Ascii List Bool Arith Floats.SpecFloat.
Import ListNotations.
Local Open Scope string_scope.
Local Open Scope list_scope.
Local Open Scope nat_scope.

(* a reference to an object *)
Definition loc := nat.

(* immutable values without parts *)
Inductive atom : Type :=
| ANone | ABool (b : bool) | AInt (z : Z) | AFloat (f : spec_float) | AStr (s : string)
| AOther (kind id : nat).            (* an immutable object of another type (bytes, complex, ...) *)

(* a Python value *)
Inductive val : Type :=
| VAtom (a : atom)
| VTup (l : list val)
| VRef (l : loc).

(* The attributes kept in self.__dict__ (cfgnode.py:66-88). m_ren maps an old name to the new name and the message. *)
Record meta : Type := mkMeta { m_frozen : bool; m_new : bool; m_dep : list string; m_ren : list (string * (string * string)) }.

(* the entries of a dict in insertion order *)
Definition items := list (string * val).

(* mutable objects: list, dict, CfgNode (a dict with attributes) *)
Inductive obj : Type :=
| OList (l : list val)
| ODict (d : items)
| ONode (m : meta) (d : items).

(* the store of mutable objects *)
Definition heap := list obj.

(* What ast.literal_eval and yaml.safe_load produce: fresh objects, described by a literal *)
Inductive lit : Type :=
| LAtom (a : atom) | LTup (l : list lit) | LList (l : list lit) | LDict (d : list (string * lit)).

(* Exceptions. KeyError carries the key names that its text shows (cfgnode.py:308-319, 461) *)
Inductive cexn : Type :=
| XAttribute | XAssertion | XValue | XType | XSyntax | XRuntime | XRecursion | XOther (n : nat)
| XRenamed (full new msg : string)   (* KeyError "Key .. was renamed to ..; ..." *)
| XMissing (full : string)           (* KeyError "Non-existent config key: .." *)
| XStuck.                            (* a dangling reference: no Python program produces one *)

(* result or exception *)
Inductive out (A : Type) : Type := Done (x : A) | Raise (e : cexn).
Arguments Done {A}. Arguments Raise {A}.

(* a computation that reads and writes the store *)
Definition M (A : Type) := heap -> heap * out A.
(* return x *)
Definition ret {A} (x : A) : M A := fun h => (h, Done x).
(* raise e *)
Definition throw {A} (e : cexn) : M A := fun h => (h, Raise e).
(* sequencing; an exception skips the rest and keeps the store *)
Definition bind {A B} (m : M A) (f : A -> M B) : M B :=
  fun h => match m h with (h', Done x) => f x h' | (h', Raise e) => (h', Raise e) end.
Notation "'let!' x := m 'in' f" := (bind m (fun x => f)) (at level 200, x name, m at level 100, f at level 200).
Notation "m ;;! f" := (bind m (fun _ => f)) (at level 199, right associativity).
(* _assert_with_logging(cond, msg) (cfgnode.py:496-499) *)
Definition assert_ (b : bool) : M unit := fun h => (h, if b then Done tt else Raise XAssertion).

(* ---------------------------------------------------------------- objects *)
Definition alloc (o : obj) : M loc := fun h => (h ++ [o], Done (length h)).
(* overwrite one cell *)
Fixpoint upd {A} (l : list A) (n : nat) (x : A) : list A :=
  match l, n with
  | [], _ => []
  | _ :: r, 0 => x :: r
  | y :: r, S n' => y :: upd r n' x
  end.
(* overwrite one object *)
Definition store (l : loc) (o : obj) : M unit := fun h => (upd h l o, Done tt).
(* read one object *)
Definition load (l : loc) : M obj := fun h => (h, match nth_error h l with Some o => Done o | None => Raise XStuck end).

(* dict.__contains__, dict.__getitem__, dict.__setitem__ on items in insertion order *)
Fixpoint dget {A} (d : list (string * A)) (k : string) : option A :=
  match d with [] => None | (k', v) :: r => if String.eqb k' k then Some v else dget r k end.
(* d[k] = v *)
Fixpoint dset {A} (d : list (string * A)) (k : string) (v : A) : list (string * A) :=
  match d with
  | [] => [(k, v)]
  | (k', v') :: r => if String.eqb k' k then (k', v) :: r else (k', v') :: dset r k v
  end.
(* a dict display {k1: v1, ...}: a repeated key keeps its place and takes the later value *)
Definition dict_of {A} (l : list (string * A)) : list (string * A) := fold_left (fun d kv => dset d (fst kv) (snd kv)) l [].
(* k in d *)
Definition dhas {A} (d : list (string * A)) (k : string) : bool := match dget d k with Some _ => true | None => false end.
(* k in set *)
Definition has (l : list string) (k : string) : bool := existsb (fun x => String.eqb x k) l.

(* the entries of a dict or CfgNode *)
Definition obj_items (o : obj) : option items := match o with OList _ => None | ODict d | ONode _ d => Some d end.
(* the same object with other entries *)
Definition with_items (o : obj) (d : items) : obj := match o with OList l => OList l | ODict _ => ODict d | ONode m _ => ONode m d end.

(* type(v) *)
Inductive ty : Type := TyNone | TyBool | TyInt | TyFloat | TyStr | TyTup | TyList | TyDict | TyNode | TyOther (n : nat) | TyStuck.
(* equality of types *)
Definition ty_eq_dec (x y : ty) : {x = y} + {x <> y}. Proof. decide equality. apply Nat.eq_dec. Defined.
(* type(a) == type(b) *)
Definition ty_eqb (x y : ty) : bool := if ty_eq_dec x y then true else false.
(* type(x) of an atom *)
Definition atom_ty (a : atom) : ty :=
  match a with ANone => TyNone | ABool _ => TyBool | AInt _ => TyInt | AFloat _ => TyFloat | AStr _ => TyStr | AOther n _ => TyOther n end.
(* type(x) *)
Definition type_of (h : heap) (v : val) : ty :=
  match v with
  | VAtom a => atom_ty a
  | VTup _ => TyTup
  | VRef l => match nth_error h l with
              | Some (OList _) => TyList | Some (ODict _) => TyDict | Some (ONode _ _) => TyNode | None => TyStuck end
  end.

(* _VALID_TYPES, cfgnode.py:28 *)
Definition valid_types : list ty := [TyTup; TyList; TyStr; TyInt; TyFloat; TyBool].
(* cfgnode.py:28, 421-424: type in _VALID_TYPES *)
Definition valid_ty (t : ty) : bool := existsb (ty_eqb t) valid_types.

(* cfgnode.py:421-424 _valid_type *)
Definition valid_type (h : heap) (v : val) (allow_cfg_node : bool) : bool :=
  valid_ty (type_of h v) || (allow_cfg_node && ty_eqb (type_of h v) TyNode).

(* isinstance(v, dict); isinstance(v, CfgNode) *)
Definition is_dict (h : heap) (v : val) : bool := ty_eqb (type_of h v) TyDict || ty_eqb (type_of h v) TyNode.
(* isinstance(v, CfgNode) *)
Definition is_node (h : heap) (v : val) : bool := ty_eqb (type_of h v) TyNode.

(* read from the store *)
Definition get {A} (f : heap -> A) : M A := fun h => (h, Done (f h)).
(* follow a reference *)
Definition deref (v : val) : M obj := match v with VRef l => load l | _ => throw XStuck end.

(* the items of a dict or CfgNode; AttributeError for anything else (no method items) *)
Definition items_of (v : val) : M items :=
  match v with
  | VRef l => let! o := load l in match obj_items o with Some d => ret d | None => throw XAttribute end
  | _ => throw XAttribute
  end.
(* the attributes of a CfgNode (cfgnode.py:66-88) *)
Definition meta_of (v : val) : M meta :=
  let! o := deref v in match o with ONode m _ => ret m | _ => throw XAttribute end.
(* d[k] = x on a dict or CfgNode (dict.__setitem__ is not overridden: the frozen flag is not consulted) *)
Definition setitem (v : val) (k : string) (x : val) : M unit :=
  match v with
  | VRef l => let! o := load l in
              match obj_items o with Some d => store l (with_items o (dset d k x)) | None => throw XType end
  | _ => throw XType
  end.

(* [f(x) for x in l], in order *)
Fixpoint mapM {A B} (f : A -> M B) (l : list A) : M (list B) :=
  match l with [] => ret [] | x :: r => let! y := f x in let! ys := mapM f r in ret (y :: ys) end.

(* new objects for a literal; the items of a mapping as they are written *)
Fixpoint alloc_lit (t : lit) : M val :=
  match t with
  | LAtom a => ret (VAtom a)
  | LTup l => let! vs := (fix go l := match l with [] => ret [] | x :: r => let! y := alloc_lit x in let! ys := go r in ret (y :: ys) end) l in ret (VTup vs)
  | LList l => let! vs := (fix go l := match l with [] => ret [] | x :: r => let! y := alloc_lit x in let! ys := go r in ret (y :: ys) end) l in
               let! p := alloc (OList vs) in ret (VRef p)
  | LDict d => let! kvs := (fix go d := match d with [] => ret [] | (k, x) :: r => let! y := alloc_lit x in let! ys := go r in ret ((k, y) :: ys) end) d in
               let! p := alloc (ODict (dict_of kvs)) in ret (VRef p)
  end.

(* ---------------------------------------------------------------- copy.deepcopy *)
(* The memo maps the objects already met to their copies. A list, dict or CfgNode is entered in the memo before its
   contents are copied (copy._deepcopy_list, _deepcopy_dict, _reconstruct); for a CfgNode the instance attributes
   (frozen flag, registries, new_allowed) are copied as well. The copy is filled when all entries are there; the
   code fills it entry by entry, which nobody can observe. *)
Definition memo := list (loc * loc).
(* lookup in the memo of copy.deepcopy *)
Fixpoint mfind (m : memo) (l : loc) : option loc :=
  match m with [] => None | (a, b) :: r => if Nat.eqb a l then Some b else mfind r l end.

(* deepcopy of the elements, in order *)
Fixpoint mapD {A B} (f : memo -> A -> M (memo * B)) (m : memo) (l : list A) : M (memo * list B) :=
  match l with
  | [] => ret (m, [])
  | x :: r => let! p := f m x in let! q := mapD f (fst p) r in ret (fst q, snd p :: snd q)
  end.

(* copy.deepcopy with its memo (used by cfgnode.py:95, 266-268, 441-446) *)
Fixpoint dcopy (fuel : nat) (m : memo) (v : val) {struct fuel} : M (memo * val) :=
  match fuel with
  | 0 => throw XRecursion
  | S f =>
      match v with
      | VAtom a => ret (m, VAtom a)
      | VTup l => let! p := mapD (dcopy f) m l in ret (fst p, VTup (snd p))
      | VRef l =>
          match mfind m l with
          | Some l' => ret (m, VRef l')
          | None =>
              let! o := load l in
              match o with
              | OList vs =>
                  let! l' := alloc (OList []) in
                  let! p := mapD (dcopy f) ((l, l') :: m) vs in
                  store l' (OList (snd p)) ;;! ret (fst p, VRef l')
              | ODict d =>
                  let! l' := alloc (ODict []) in
                  let! p := mapD (fun m kv => let! q := dcopy f m (snd kv) in ret (fst q, (fst kv, snd q))) ((l, l') :: m) d in
                  store l' (ODict (snd p)) ;;! ret (fst p, VRef l')
              | ONode mt d =>
                  let! l' := alloc (ONode mt []) in
                  let! p := mapD (fun m kv => let! q := dcopy f m (snd kv) in ret (fst q, (fst kv, snd q))) ((l, l') :: m) d in
                  store l' (ONode mt (snd p)) ;;! ret (fst p, VRef l')
              end
          end
      end
  end.

(* copy.deepcopy(v) *)
Definition deepcopy (fuel : nat) (v : val) : M val := let! p := dcopy fuel [] v in ret (snd p).

(* ---------------------------------------------------------------- the constructor *)
(* cfgnode.py:47-88 __init__ and 90-114 _create_config_tree_from_dict. [None] stands for init_dict = None.
   The loop stores cls(v) under the key it came from in the fresh copy d, then dict.__init__ copies the items. *)
Fixpoint mk_node (fuel : nat) (init_dict : val) (new_allowed : bool) {struct fuel} : M val :=
  match fuel with
  | 0 => throw XRecursion
  | S f =>
      let! d := deepcopy f init_dict in
      let! kvs := items_of d in
      let! kvs' := mapM (fun kv =>
                     let! isd := get (fun h => is_dict h (snd kv)) in
                     if (isd : bool) then let! n := mk_node f (snd kv) false in ret (fst kv, n)
                     else let! ok := get (fun h => valid_type h (snd kv) false) in
                          assert_ ok ;;! ret kv) kvs in
      let! l := alloc (ONode (mkMeta false new_allowed [] []) kvs') in
      ret (VRef l)
  end.
(* cfgnode.py:47-88 CfgNode(init_dict, key_list, new_allowed) *)
Definition new_cfg (fuel : nat) (init_dict : option val) (new_allowed : bool) : M val :=
  match init_dict with
  | Some d => mk_node fuel d new_allowed
  | None => let! l := alloc (ODict []) in mk_node fuel (VRef l) new_allowed
  end.

(* ---------------------------------------------------------------- attributes *)
Definition internal_names : list string := ["__immutable__"; "__deprecated_keys__"; "__renamed_keys__"; "__new_allowed__"]%string.

(* names found on the class CfgNode, its base dict, or object: attribute lookup finds them before __getattr__ *)
Definition class_names : list string :=
  ["IMMUTABLE"; "DEPRECATED_KEYS"; "RENAMED_KEYS"; "NEW_ALLOWED"; "dump"; "merge_from_file"; "merge_from_other_cfg";
   "merge_from_list"; "freeze"; "defrost"; "is_frozen"; "_immutable"; "clone"; "register_deprecated_key";
   "register_renamed_key"; "key_is_deprecated"; "key_is_renamed"; "raise_key_rename_error"; "is_new_allowed"; "load_cfg";
   "_load_cfg_from_file"; "_load_cfg_from_yaml_str"; "_load_cfg_py_source"; "_decode_cfg_value";
   "_create_config_tree_from_dict"; "clear"; "copy"; "fromkeys"; "get"; "items"; "keys"; "pop"; "popitem"; "setdefault";
   "update"; "values"]%string.
(* double-underscore names may be found on the classes as well: left open *)
Definition dunder (s : string) : bool := String.prefix "__" s.

(* cfgnode.py:116-120 __getattr__, for names that ordinary lookup does not find; None = the class's own attribute *)
Definition getattr_ (self : val) (name : string) : M (option val) :=
  if has class_names name || dunder name then ret None
  else let! d := items_of self in
       match dget d name with Some v => ret (Some v) | None => throw XAttribute end.

(* self[name] (dict.__getitem__) *)
Definition getitem (self : val) (name : string) : M val :=
  let! d := items_of self in match dget d name with Some v => ret v | None => throw (XMissing name) end.

(* cfgnode.py:246-248 *)
Definition is_frozen (self : val) : M bool := let! m := meta_of self in ret (m_frozen m).
(* cfgnode.py:321-322 *)
Definition is_new_allowed (self : val) : M bool := let! m := meta_of self in ret (m_new m).

(* cfgnode.py:122-142 __setattr__ *)
Definition setattr_ (self : val) (name : string) (value : val) : M unit :=
  let! fr := is_frozen self in
  if (fr : bool) then throw XAttribute
  else assert_ (negb (has internal_names name)) ;;!
       let! ok := get (fun h => valid_type h value true) in
       assert_ ok ;;! setitem self name value.

(* ---------------------------------------------------------------- freeze / defrost / clone *)
Definition set_frozen (self : val) (b : bool) : M unit :=
  match self with
  | VRef l => let! o := load l in
              match o with
              | ONode m d => store l (ONode (mkMeta b (m_new m) (m_dep m) (m_ren m)) d)
              | _ => throw XAttribute
              end
  | _ => throw XAttribute
  end.

(* cfgnode.py:250-264 _immutable. self.__dict__ holds no CfgNode, so its first loop does nothing. *)
Fixpoint immutable_ (fuel : nat) (b : bool) (self : val) {struct fuel} : M unit :=
  match fuel with
  | 0 => throw XRecursion
  | S f =>
      set_frozen self b ;;!
      let! d := items_of self in
      let! _u := mapM (fun kv => let! isn := get (fun h => is_node h (snd kv)) in
                                 if (isn : bool) then immutable_ f b (snd kv) else ret tt) d in
      ret tt
  end.
(* cfgnode.py:238-244 *)
Definition freeze (fuel : nat) (self : val) : M unit := immutable_ fuel true self.
(* cfgnode.py:242-244 *)
Definition defrost (fuel : nat) (self : val) : M unit := immutable_ fuel false self.
(* cfgnode.py:266-268 *)
Definition clone (fuel : nat) (self : val) : M val := deepcopy fuel self.

(* ---------------------------------------------------------------- deprecated and renamed keys *)
Definition set_meta (self : val) (g : meta -> meta) : M unit :=
  match self with
  | VRef l => let! o := load l in match o with ONode m d => store l (ONode (g m) d) | _ => throw XAttribute end
  | _ => throw XAttribute
  end.
(* cfgnode.py:270-279 *)
Definition register_deprecated_key (self : val) (key : string) : M unit :=
  let! m := meta_of self in
  assert_ (negb (has (m_dep m) key)) ;;!
  set_meta self (fun m => mkMeta (m_frozen m) (m_new m) (m_dep m ++ [key]) (m_ren m)).
(* cfgnode.py:281-295; an empty message is the same as no message *)
Definition register_renamed_key (self : val) (old_name new_name message : string) : M unit :=
  let! m := meta_of self in
  assert_ (negb (dhas (m_ren m) old_name)) ;;!
  set_meta self (fun m => mkMeta (m_frozen m) (m_new m) (m_dep m) (m_ren m ++ [(old_name, (new_name, message))])).
(* cfgnode.py:297-306 *)
Definition key_is_deprecated (self : val) (full_key : string) : M bool := let! m := meta_of self in ret (has (m_dep m) full_key).
(* cfgnode.py:304-306 *)
Definition key_is_renamed (self : val) (full_key : string) : M bool := let! m := meta_of self in ret (dhas (m_ren m) full_key).
(* cfgnode.py:308-319 *)
Definition raise_key_rename_error {A} (self : val) (full_key : string) : M A :=
  let! m := meta_of self in
  match dget (m_ren m) full_key with
  | Some (new, msg) => throw (XRenamed full_key new msg)
  | None => throw (XMissing full_key)
  end.

(* ---------------------------------------------------------------- decoding and coercion *)
Section Merge.
(* ast.literal_eval on a string: a literal, or the exception it raises *)
Variable literal_eval : string -> out lit.

(* cfgnode.py:386-414 _decode_cfg_value *)
Definition decode (fuel : nat) (value : val) : M val :=
  let! isd := get (fun h => is_dict h value) in
  if (isd : bool) then mk_node fuel value false
  else match value with
       | VAtom (AStr s) =>
           match literal_eval s with
           | Done t => alloc_lit t
           | Raise XValue | Raise XSyntax => ret value
           | Raise e => throw e
           end
       | _ => ret value
       end.

(* cfgnode.py:464-493 _check_and_coerce_cfg_value_type *)
Definition check_and_coerce (replacement original : val) : M val :=
  let! tr := get (fun h => type_of h replacement) in
  let! to := get (fun h => type_of h original) in
  if ty_eqb tr to then ret replacement
  else if ty_eqb tr TyTup && ty_eqb to TyList then
    match replacement with VTup vs => let! l := alloc (OList vs) in ret (VRef l) | _ => throw XStuck end
  else if ty_eqb tr TyList && ty_eqb to TyTup then
    let! o := deref replacement in match o with OList vs => ret (VTup vs) | _ => throw XStuck end
  else throw XValue.

(* ..join(ks) (cfgnode.py:436) *)
Definition join (ks : list string) : string := String.concat "." ks.

(* ---------------------------------------------------------------- merging *)
(* One entry of the loop of _merge_a_into_b, cfgnode.py:438-461. [rec] is the recursive call. *)
Definition merge_entry (fuel : nat) (rec : val -> val -> list string -> M unit) (b root : val) (key_list : list string)
    (k : string) (v_ : val) : M unit :=
  let full_key := join (key_list ++ [k]) in
  let! v := deepcopy fuel v_ in
  let! v := decode fuel v in
  let! d := items_of b in
  match dget d k with
  | Some bk =>
      let! v := check_and_coerce v bk in
      let! isn := get (fun h => is_node h v) in
      if (isn : bool) then rec v bk (key_list ++ [k]) else setitem b k v
  | None =>
      let! nw := is_new_allowed b in
      if (nw : bool) then setitem b k v
      else let! dep := key_is_deprecated root full_key in
           if (dep : bool) then ret tt
           else let! ren := key_is_renamed root full_key in
                if (ren : bool) then raise_key_rename_error root full_key
                else throw (XMissing full_key)
  end.

(* for k, v_ in a.items(): the dict is read as the loop goes; a change of its size raises RuntimeError *)
Fixpoint each_item (n : nat) (body : string -> val -> M unit) (a : val) (todo i : nat) {struct todo} : M unit :=
  let! d := items_of a in
  if negb (length d =? n) then throw XRuntime
  else match todo with
       | 0 => ret tt
       | S t => match nth_error d i with
                | Some (k, v) => body k v ;;! each_item n body a t (S i)
                | None => ret tt
                end
       end.

(* cfgnode.py:427-461 _merge_a_into_b *)
Fixpoint merge_a_into_b (fuel : nat) (root : val) (a b : val) (key_list : list string) {struct fuel} : M unit :=
  match fuel with
  | 0 => throw XRecursion
  | S f =>
      let! na := get (fun h => is_node h a) in assert_ na ;;!
      let! nb := get (fun h => is_node h b) in assert_ nb ;;!
      let! d := items_of a in
      each_item (length d) (merge_entry f (merge_a_into_b f root) b root key_list) a (length d) 0
  end.

(* cfgnode.py:200-206 *)
Definition merge_from_other_cfg (fuel : nat) (self cfg_other : val) : M unit := merge_a_into_b fuel self cfg_other self [].

(* full_key.split(".") *)
Fixpoint split_dot (s : string) : list string :=
  match s with
  | EmptyString => [EmptyString]
  | String c r => if Ascii.eqb c "."%char then EmptyString :: split_dot r
                  else match split_dot r with x :: xs => String c x :: xs | [] => [String c EmptyString] end
  end.

(* p in s for strings *)
Fixpoint infix (p s : string) : bool :=
  String.prefix p s || match s with EmptyString => false | String _ r => infix p r end.

(* subkey in d, where d may be any value: a key of a dict, a substring of a str, an element of a list or tuple;
   TypeError for other values *)
Definition is_str (k : string) (v : val) : bool := match v with VAtom (AStr s) => String.eqb s k | _ => false end.
(* k in d (cfgnode.py:226-231) *)
Definition contains (d : val) (k : string) : M bool :=
  match d with
  | VAtom (AStr s) => ret (infix k s)
  | VAtom _ => throw XType
  | VTup vs => ret (existsb (is_str k) vs)
  | VRef l => let! o := load l in
              ret (match o with OList vs => existsb (is_str k) vs | ODict e | ONode _ e => dhas e k end)
  end.
(* d[subkey] with a str subkey: TypeError unless d is a dict *)
Definition subscript (d : val) (k : string) : M val :=
  match d with
  | VRef l => let! o := load l in
              match obj_items o with
              | Some e => match dget e k with Some v => ret v | None => throw (XMissing k) end
              | None => throw XType
              end
  | _ => throw XType
  end.

(* cfgnode.py:226-231: walk to the node that holds the last key *)
Fixpoint walk (d : val) (ks : list string) : M val :=
  match ks with
  | [] => ret d
  | k :: r => let! c := contains d k in assert_ c ;;! let! x := subscript d k in walk x r
  end.

(* one pair of the loop of merge_from_list, cfgnode.py:220-236 *)
Definition override (fuel : nat) (self : val) (full_key : string) (v : val) : M unit :=
  let! dep := key_is_deprecated self full_key in
  if (dep : bool) then ret tt
  else let! ren := key_is_renamed self full_key in
       (if (ren : bool) then raise_key_rename_error self full_key else ret tt) ;;!
       let key_list := split_dot full_key in
       let! d := walk self (removelast key_list) in
       let subkey := last key_list EmptyString in
       let! c := contains d subkey in assert_ c ;;!
       let! value := decode fuel v in
       let! orig := subscript d subkey in
       let! value := check_and_coerce value orig in
       setitem d subkey value.

(* zip(cfg_list[0::2], cfg_list[1::2]) *)
Fixpoint pairs {A} (l : list A) : list (A * A) :=
  match l with x :: y :: r => (x, y) :: pairs r | _ => [] end.

(* cfgnode.py:208-236 merge_from_list. Keys that are not strings: without .split (AttributeError), or not hashable
   (TypeError, from the membership test in the set of deprecated keys). *)
Fixpoint hashable (v : val) : bool :=
  match v with VAtom _ => true | VTup l => forallb hashable l | VRef _ => false end.
(* cfgnode.py:220-236 for a key of any type *)
Definition override_any (fuel : nat) (self k v : val) : M unit :=
  match k with
  | VAtom (AStr s) => override fuel self s v
  | _ => throw (if hashable k then XAttribute else XType)
  end.
(* the loop of cfgnode.py:220-236 *)
Fixpoint overrides (fuel : nat) (self : val) (ps : list (val * val)) : M unit :=
  match ps with [] => ret tt | (k, v) :: r => override_any fuel self k v ;;! overrides fuel self r end.
(* cfgnode.py:208-236 *)
Definition merge_from_list (fuel : nat) (self : val) (cfg_list : list val) : M unit :=
  assert_ (Nat.even (length cfg_list)) ;;! overrides fuel self (pairs cfg_list).

(* ---------------------------------------------------------------- dump and load *)
(* yaml.safe_dump on a plain value and yaml.safe_load on a string *)
Variable safe_dump : lit -> string.
Variable safe_load : string -> out lit.

(* cfgnode.py:171-184 _convert_to_dict, and the description of the value handed to safe_dump.
   A leaf is handed over as it is: [plain] describes it; a CfgNode or dict inside a list or tuple makes safe_dump
   raise for a CfgNode (RepresenterError) and is dumped as a mapping for a dict. *)
Fixpoint plain (fuel : nat) (v : val) {struct fuel} : M lit :=
  match fuel with
  | 0 => throw XRecursion
  | S f =>
      match v with
      | VAtom (AOther n i) => throw (XOther n)
      | VAtom a => ret (LAtom a)
      | VTup vs => let! ls := mapM (plain f) vs in ret (LTup ls)
      | VRef l => let! o := load l in
                  match o with
                  | OList vs => let! ls := mapM (plain f) vs in ret (LList ls)
                  | ODict d => let! ls := mapM (fun kv => let! x := plain f (snd kv) in ret (fst kv, x)) d in ret (LDict ls)
                  | ONode _ _ => throw (XOther 0)
                  end
      end
  end.
(* cfgnode.py:171-184 *)
Fixpoint convert_to_dict (fuel : nat) (v : val) {struct fuel} : M lit :=
  match fuel with
  | 0 => throw XRecursion
  | S f =>
      let! isn := get (fun h => is_node h v) in
      if (isn : bool) then
        let! d := items_of v in
        let! kvs := mapM (fun kv => let! x := convert_to_dict f (snd kv) in ret (fst kv, x)) d in
        ret (LDict kvs)
      else let! ok := get (fun h => valid_type h v false) in
           assert_ ok ;;! plain f v
  end.
(* cfgnode.py:168-187 dump *)
Definition dump (fuel : nat) (self : val) : M string := let! t := convert_to_dict fuel self in ret (safe_dump t).

(* cfgnode.py:363-367 _load_cfg_from_yaml_str; safe_load returning None gives an empty configuration *)
Definition load_yaml (fuel : nat) (s : string) : M val :=
  match safe_load s with
  | Raise e => throw e
  | Done (LAtom ANone) => new_cfg fuel None false
  | Done t => let! d := alloc_lit t in new_cfg fuel (Some d) false
  end.

(* cfgnode.py:348-361 _load_cfg_from_file by the extension of the name; 369-384 _load_cfg_py_source:
   [module_cfg] = the attribute cfg of the module, if it has one *)
Definition yaml_exts : list string := [""; ".yml"; ".yaml"]%string.
(* cfgnode.py:348-361, 369-384 *)
Definition load_file (fuel : nat) (ext content : string) (module_cfg : option val) : M val :=
  if has yaml_exts ext then load_yaml fuel content
  else if String.eqb ext ".py" then
    match module_cfg with
    | None => throw XAssertion
    | Some c => let! isd := get (fun h => is_dict h c) in assert_ isd ;;! new_cfg fuel (Some c) false
    end
  else throw (XOther 1).
(* cfgnode.py:189-198 merge_from_file *)
Definition merge_from_file (fuel : nat) (self : val) (ext content : string) (module_cfg : option val) : M unit :=
  let! cfg := load_file fuel ext content module_cfg in merge_from_other_cfg fuel self cfg.
End Merge.
