(* Property C92: str(cfg).
   Vocabulary: PrintModel.v (cfg_str; fuel: the recursion Python still allows), PrintSpec.v (prints: text x is str(x) for values that are
   not configurations; keys_are: all keys are one-line / plain; alike: same keys, values that print the same; Shows / page: the layout),
   ConfigSpec.v (Reads h v t: the object v reads as the tree t). *)
From Coq Require Import ZArith String Ascii List Bool Arith Sorted Permutation Lia.
From Verif Require Import ConfigModel ConfigSpec PrintModel PrintSpec PrintProofs PrintProofs2 PrintProofs3.
Import ListNotations.
Local Open Scope string_scope.
Local Open Scope list_scope.
Local Open Scope nat_scope.

(* keys in increasing order, two blanks per level; values may have several lines *)
Theorem C92_layout : forall str_of text fuel h v t, prints str_of text -> Reads h v t -> is_cfg t -> tdepth t <= fuel -> keys_are one_line t ->
  exists ls, Shows text t ls /\ cfg_str str_of fuel v h = (h, Done (page ls)).
Proof. exact p_layout. Qed.
Print Assumptions C92_layout.

(* configurations with the same keys and values that print the same have the same text, in whatever order they were filled; no restriction on keys or values *)
Theorem C92_order : forall str_of text fuel fuel' h h' v v' t t', prints str_of text -> Reads h v t -> Reads h' v' t' -> is_cfg t -> is_cfg t' ->
  tdepth t <= fuel -> tdepth t' <= fuel' -> alike text t t' -> exists s, cfg_str str_of fuel v h = (h, Done s) /\ cfg_str str_of fuel' v' h' = (h', Done s).
Proof. exact p_same_text. Qed.
Print Assumptions C92_order.

(* the same text: the same keys, and values that print the same, at every depth *)
Theorem C92_faithful : forall str_of text fuel fuel' h h' v v' t t' s, prints str_of text -> Reads h v t -> Reads h' v' t' -> is_cfg t -> is_cfg t' ->
  tdepth t <= fuel -> tdepth t' <= fuel' -> keys_are plain_key t -> keys_are plain_key t' ->
  cfg_str str_of fuel v h = (h, Done s) -> cfg_str str_of fuel' v' h' = (h', Done s) -> alike text t t'.
Proof. exact p_faithful. Qed.
Print Assumptions C92_faithful.

(* printing never changes anything *)
Theorem C92_pure : forall str_of fuel v h, fst (cfg_str str_of fuel v h) = h.
Proof. exact p_pure. Qed.
Print Assumptions C92_pure.

(* a configuration that contains itself: RecursionError *)
Theorem C92_cycle : forall str_of fuel m k, cfg_str str_of fuel (VRef 0) [ONode m [(k, VRef 0)]] = ([ONode m [(k, VRef 0)]], Raise XRecursion).
Proof. exact p_cycle. Qed.
Print Assumptions C92_cycle.

(* limit of C92_faithful: an int and a str with the same digits *)
Theorem C92_types_lost : forall str_of, (forall h z, str_of h (VAtom (AInt 1)) = "1"%string /\ str_of h (VAtom (AStr z)) = z) ->
  cfg_str str_of 2 (VRef 0) (one_entry (AInt 1)) = (one_entry (AInt 1), Done "a: 1"%string) /\
  cfg_str str_of 2 (VRef 0) (one_entry (AStr "1")) = (one_entry (AStr "1"), Done "a: 1"%string).
Proof. exact p_types. Qed.
Print Assumptions C92_types_lost.

(* limit of C92_faithful: with a colon in a key different configurations can have the same text *)
Theorem C92_forged : forall str_of, (forall h z, str_of h (VAtom (AStr z)) = z) ->
  exists s, cfg_str str_of 3 (VRef 0) forged = (forged, Done s) /\ cfg_str str_of 3 (VRef 0) honest = (honest, Done s).
Proof. exact p_forged. Qed.
Print Assumptions C92_forged.

(* {"b": {"d": "x" newline "y", "c": "3"}, "a": "1", "e": {}} *)
Definition w_text (t : tree) : string := match t with TAtom (AStr s) => s | _ => "?" end.
Definition w_str (h : heap) (v : val) : string := match v with VAtom (AStr s) => s | _ => "?" end.
Definition w_heap : heap :=
  [ONode plain_meta [("b", VRef 1); ("a", VAtom (AStr "1")); ("e", VRef 2)]; ONode plain_meta [("d", VAtom (AStr ("x" ++ String newline "y")%string)); ("c", VAtom (AStr "3"))]; ONode plain_meta []].
Definition w_tree : tree :=
  TNode plain_meta [("b", TNode plain_meta [("d", TAtom (AStr ("x" ++ String newline "y")%string)); ("c", TAtom (AStr "3"))]); ("a", TAtom (AStr "1")); ("e", TNode plain_meta [])].
Example C92_witness : prints w_str w_text /\ Reads w_heap (VRef 0) w_tree /\ is_cfg w_tree /\ tdepth w_tree <= 3 /\ keys_are plain_key w_tree /\
  cfg_str w_str 3 (VRef 0) w_heap = (w_heap, Done ("a: 1" ++ String newline ("b:" ++ String newline ("  c: 3" ++ String newline ("  d: x" ++ String newline ("    y" ++ String newline ("e:" ++ String newline "  ")))))))%string.
Proof.
  assert (Pk : forall c, Ascii.eqb c newline = false -> Ascii.eqb c ":" = false -> Ascii.eqb c " " = false -> plain_key (String c EmptyString)).
  { intros c E1 E2 E3. apply Ascii.eqb_neq in E1, E2, E3. repeat split; [intros [E|[]]|intros [E|[]]|intros r E; injection E as E Er]; contradiction. }
  assert (Tl : forall a, keys_are plain_key (TAtom a)) by (intros a; apply K_leaf; intros (m & d & E); discriminate).
  split; [intros h v t (fp & R) N; destruct R as [a| | | |]; [destruct a; reflexivity| | | |]; try reflexivity; exfalso; apply N; now eexists _, _|].
  split; [|split; [now eexists _, _|split; [cbn; lia|split; [|reflexivity]]]].
  - eexists. eapply R_node; [reflexivity| |].
    + repeat constructor; cbn; intuition discriminate.
    + repeat (eapply Ri_cons || eapply Ri_nil).
      * eapply R_node; [reflexivity|repeat constructor; cbn; intuition discriminate|]. repeat (eapply Ri_cons || eapply Ri_nil); apply R_atom.
      * apply R_atom.
      * eapply R_node; [reflexivity|constructor|apply Ri_nil].
  - apply K_node. intros k x [E|[E|[E|[]]]]; injection E as <- <-; (split; [apply Pk; reflexivity|]).
    + apply K_node. intros k x [E|[E|[]]]; injection E as <- <-; (split; [apply Pk; reflexivity|]); apply Tl.
    + apply Tl.
    + apply K_node. intros k x [].
Qed.
