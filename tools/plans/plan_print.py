import sys; sys.path.insert(0,'/verif/tools')
from genprop import gen
H=lambda t:('h',t)
def Tm(th,lem,f,com=''): return ('t',th,lem,f,com)
P='PrintProofs3'
plan=[H(r'''(* Property C92: str(cfg).
   Vocabulary: PrintModel.v (cfg_str; fuel: the recursion Python still allows), PrintSpec.v (prints: text x is str(x) for values that are
   not configurations; keys_are: all keys are one-line / plain; alike: same keys, values that print the same; Shows / page: the layout),
   ConfigSpec.v (Reads h v t: the object v reads as the tree t). *)
From Coq Require Import ZArith String Ascii List Bool Arith Sorted Permutation Lia.
From Verif Require Import ConfigModel ConfigSpec PrintModel PrintSpec PrintProofs PrintProofs2 PrintProofs3.
Import ListNotations.
Local Open Scope string_scope.
Local Open Scope list_scope.
Local Open Scope nat_scope.
'''),
Tm('C92_layout','p_layout',P,'keys in increasing order, two blanks per level; values may have several lines'),
Tm('C92_order','p_same_text',P,'configurations with the same keys and values that print the same have the same text, in whatever order they were filled; no restriction on keys or values'),
Tm('C92_faithful','p_faithful',P,'the same text: the same keys, and values that print the same, at every depth'),
Tm('C92_pure','p_pure',P,'printing never changes anything'),
Tm('C92_cycle','p_cycle',P,'a configuration that contains itself: RecursionError'),
Tm('C92_types_lost','p_types',P,'limit of C92_faithful: an int and a str with the same digits'),
Tm('C92_forged','p_forged',P,'limit of C92_faithful: with a colon in a key different configurations can have the same text'),
H(r'''(* {"b": {"d": "x" newline "y", "c": "3"}, "a": "1", "e": {}} *)
Definition w_text (t : tree) : string := match t with TAtom (AStr s) => s | _ => "?" end.
Definition w_str (h : heap) (v : val) : string := match v with VAtom (AStr s) => s | _ => "?" end.
Definition w_heap : heap :=
  [ONode plain_meta [("b", VRef 1); ("a", VAtom (AStr "1")); ("e", VRef 2)]; ONode plain_meta [("d", VAtom (AStr ("x" ++ String newline "y")%string)); ("c", VAtom (AStr "3"))]; ONode plain_meta []].
Definition w_tree : tree :=
  TNode plain_meta [("b", TNode plain_meta [("d", TAtom (AStr ("x" ++ String newline "y")%string)); ("c", TAtom (AStr "3"))]); ("a", TAtom (AStr "1")); ("e", TNode plain_meta [])].
Example C92_witness : prints w_str w_text /\ Reads w_heap (VRef 0) w_tree /\ is_cfg w_tree /\ tdepth w_tree <= 3 /\ keys_are plain_key w_tree /\
  cfg_str w_str 3 (VRef 0) w_heap = (w_heap, Done ("a: 1" ++ String newline ("b:" ++ String newline ("  c: 3" ++ String newline ("  d: x" ++ String newline ("    y" ++ String newline ("e:" ++ String newline "  ")))))))%string.
Proof.
  assert (Pk : forall c, Ascii.eqb c newline = false -> Ascii.eqb c ":" = false -> Ascii.eqb c " " = false -> plain_key (String c EmptyString)).
  { intros c E1 E2 E3. apply Ascii.eqb_neq in E1, E2, E3. repeat split; [intros [E|[]]|intros [E|[]]|intros r E; injection E as E Er]; contradiction. }
  assert (Tl : forall a, keys_are plain_key (TAtom a)) by (intros a; apply K_leaf; intros (m & d & E); discriminate).
  split; [intros h v t (fp & R) N; destruct R as [a| | | |]; [destruct a; reflexivity| | | |]; try reflexivity; exfalso; apply N; now eexists _, _|].
  split; [|split; [now eexists _, _|split; [cbn; lia|split; [|reflexivity]]]].
  - eexists. eapply R_node; [reflexivity| |].
    + repeat constructor; cbn; intuition discriminate.
    + repeat (eapply Ri_cons || eapply Ri_nil).
      * eapply R_node; [reflexivity|repeat constructor; cbn; intuition discriminate|]. repeat (eapply Ri_cons || eapply Ri_nil); apply R_atom.
      * apply R_atom.
      * eapply R_node; [reflexivity|constructor|apply Ri_nil].
  - apply K_node. intros k x [E|[E|[E|[]]]]; injection E as <- <-; (split; [apply Pk; reflexivity|]).
    + apply K_node. intros k x [E|[E|[]]]; injection E as <- <-; (split; [apply Pk; reflexivity|]); apply Tl.
    + apply Tl.
    + apply K_node. intros k x [].
Qed.
'''),
]
gen('/verif/rocq/theories/PropPrint.v',plan)
