(* The text of a configuration: layout and faithfulness. *)
From Coq Require Import String Ascii List Bool Arith Sorted Permutation Lia.
From Verif Require Import ConfigModel ConfigSpec ConfigHeap ConfigCopy ConfigTree PrintModel PrintSpec PrintProofs.
Import ListNotations.
Local Open Scope string_scope.
Local Open Scope list_scope.
Local Open Scope nat_scope.

(* every CfgNode of the tree (those that are printed as such) has distinct keys *)
Inductive proper : tree -> Prop :=
| P_leaf t : ~ is_cfg t -> proper t
| P_node m d : NoDup (keys d) -> (forall k x, In (k, x) d -> proper x) -> proper (TNode m d).
Lemma reads_proper h v t : Reads h v t -> proper t.
Proof.
  revert v. induction t as [a|l _|l _|d _|m d IH] using tree_ind'; intros v (fp & H); try (apply P_leaf; intros (? & ? & ?); discriminate).
  inversion H as [| | | |l m' d0 ts fp' El N Ri]; subst. apply P_node; [rewrite <- (reads_keys _ _ _ _ Ri); exact N|].
  apply reads_items_forall in Ri. rewrite Forall_forall in IH. intros k x I. apply (IH _ I (
    match List.find (fun kv => String.eqb (fst kv) k) d0 with Some kv => snd kv | None => VRef l end)).
  clear -Ri I N. induction Ri as [|[k1 v1] [k2 x2] d0 d [E Hr] F IHF]; [destruct I|]. cbn in E, Hr, N. subst k2. inversion N as [|? ? N1 N2]; subst. cbn.
  destruct I as [I|I].
  - injection I as -> ->. rewrite String.eqb_refl. exact Hr.
  - destruct (String.eqb_spec k1 k) as [->|_]; [|now apply IHF]. exfalso. apply N1.
    replace (map fst d0) with (map fst d); [exact (in_map fst _ _ I)|]. clear -F. induction F as [|a b d0 d [E _] F IH]; cbn; [reflexivity|congruence].
Qed.

(* ---------------- like configurations have the same text *)
Lemma in_keys {A} k (d : list (string * A)) : In k (keys d) <-> exists x, In (k, x) d.
Proof. unfold keys. rewrite in_map_iff. split; [intros ([k' x] & <- & I); eauto|intros (x & I); exists (k, x); auto]. Qed.
Lemma pair_up {A B} (R : A -> B -> Prop) (l : list (string * A)) : forall (l' : list (string * B)), keys l = keys l' -> NoDup (keys l) ->
  (forall k x x', In (k, x) l -> In (k, x') l' -> R x x') -> Forall2 (fun a b => fst a = fst b /\ R (snd a) (snd b)) l l'.
Proof.
  induction l as [|[k x] l IH]; intros [|[k' x'] l'] E N H; cbn in E; try discriminate; [constructor|]. injection E as -> E. cbn in N. inversion N; subst.
  constructor; [split; [reflexivity|]; apply (H k'); now left|]. apply IH; [exact E|assumption|]. intros; apply (H k); right; assumption.
Qed.
Lemma sorted_in {A} (d : list (string * A)) e : In e (sorted d) <-> In e d.
Proof. split; apply Permutation_in; [symmetry|]; apply sorted_perm. Qed.
Lemma sorted_keys_in {A} (d : list (string * A)) k : In k (keys (sorted d)) <-> In k (keys d).
Proof. split; apply Permutation_in; [symmetry|]; apply keys_perm, sorted_perm. Qed.
Lemma sorted_nodup {A} (d : list (string * A)) : NoDup (keys d) -> NoDup (keys (sorted d)).
Proof. apply Permutation_NoDup, keys_perm, sorted_perm. Qed.
Lemma alike_cfg text t t' : alike text t t' -> nodeb t = nodeb t'.
Proof. intros [? ? H1 H2 _|]; [|reflexivity]. now rewrite (proj2 (nodeb_not _) H1), (proj2 (nodeb_not _) H2). Qed.
Lemma alike_pretty text : forall t t', proper t -> proper t' -> alike text t t' -> pretty text t = pretty text t'.
Proof.
  induction t as [a|l _|l _|d _|m d IH] using tree_ind'; intros t' P P' A;
    try (inversion A as [? ? N1 N2 E|]; subst; destruct t'; try exact E; exfalso; apply N2; now eexists _, _).
  inversion A as [? ? N1 N2 E|? ? m' d' K H]; subst; [exfalso; apply N1; now eexists _, _|].
  inversion P as [? Q|? ? N Pd]; subst; [exfalso; apply Q; now eexists _, _|]. inversion P' as [? Q|? ? N' Pd']; subst; [exfalso; apply Q; now eexists _, _|].
  rewrite !pretty_node. f_equal. rewrite Forall_forall in IH.
  assert (Ek : keys (sorted d) = keys (sorted d')).
  { apply sorted_unique; [now apply sorted_sorted|now apply sorted_sorted|]. intros k. rewrite !sorted_keys_in. apply K. }
  assert (F : Forall2 (fun a b => fst a = fst b /\ (alike text (snd a) (snd b) /\ pretty text (snd a) = pretty text (snd b))) (sorted d) (sorted d')).
  { apply (pair_up (fun x x' => alike text x x' /\ pretty text x = pretty text x')); [exact Ek|now apply sorted_nodup|]. intros k x x' I I'. rewrite sorted_in in I, I'.
    split; [now apply (H k)|]. apply (IH (k, x) I); [now apply (Pd k)|now apply (Pd' k)|now apply (H k)]. }
  clear -F. induction F as [|[k x] [k' x'] l l' (E & Al & Ep) F IHF]; cbn; [reflexivity|]. cbn in E, Al, Ep. subst k'. f_equal; [|exact IHF].
  unfold line_of. cbn [fst snd]. now rewrite (alike_cfg _ _ _ Al), Ep.
Qed.

(* ---------------- lines *)
Notation nls := (String nl EmptyString).
Lemma sapp_assoc a : forall b c, ((a ++ b) ++ c)%string = (a ++ (b ++ c))%string.
Proof. induction a as [|x a IH]; intros b c; cbn; [reflexivity|]. now rewrite IH. Qed.
Lemma sapp_nil a : (a ++ "")%string = a.
Proof. induction a as [|x a IH]; cbn; [reflexivity|]. now rewrite IH. Qed.
Lemma occurs_app c a b : occurs c (a ++ b)%string <-> occurs c a \/ occurs c b.
Proof. induction a as [|x a IH]; cbn; [tauto|]. rewrite IH. tauto. Qed.
Lemma join_cons x y l : join_nl (x :: y :: l) = (x ++ nls ++ join_nl (y :: l))%string.
Proof. reflexivity. Qed.
Lemma split_one s : one_line s -> split_nl s = [s].
Proof.
  induction s as [|c s IH]; intros H; [reflexivity|]. cbn. destruct (Ascii.eqb_spec c nl) as [->|_]; [exfalso; apply H; left; reflexivity|].
  rewrite IH; [reflexivity|]. intros O. apply H. right. exact O.
Qed.
Lemma split_app s r : one_line s -> split_nl (s ++ nls ++ r)%string = s :: split_nl r.
Proof.
  induction s as [|c s IH]; intros H; [reflexivity|]. cbn -[split_nl append]. change ((String c s ++ nls ++ r)%string) with (String c (s ++ nls ++ r)%string). cbn [split_nl].
  destruct (Ascii.eqb_spec c nl) as [->|_]; [exfalso; apply H; left; reflexivity|]. rewrite IH; [reflexivity|]. intros O. apply H. right. exact O.
Qed.
Lemma split_join l : l <> [] -> Forall one_line l -> split_nl (join_nl l) = l.
Proof.
  induction l as [|x l IH]; [congruence|]. intros _ F. inversion F as [|? ? Hx Fl]; subst. destruct l as [|y l]; [now apply split_one|].
  rewrite join_cons, split_app; [|exact Hx]. f_equal. apply IH; [discriminate|exact Fl].
Qed.
Lemma join_app a b : a <> [] -> b <> [] -> join_nl (a ++ b) = (join_nl a ++ nls ++ join_nl b)%string.
Proof.
  induction a as [|x a IH]; [congruence|]. intros _ Hb. destruct a as [|y a].
  - cbn [app]. destruct b as [|z b]; [congruence|]. apply join_cons.
  - change ((x :: y :: a) ++ b) with (x :: (y :: a) ++ b). cbn [app]. rewrite !join_cons. change (y :: a ++ b) with ((y :: a) ++ b). rewrite IH; [|discriminate|exact Hb].
    now rewrite !sapp_assoc.
Qed.
Lemma join_concat LL : LL <> [] -> Forall (fun l => l <> []) LL -> join_nl (map join_nl LL) = join_nl (concat LL).
Proof.
  induction LL as [|l LL IH]; [congruence|]. intros _ F. inversion F as [|? ? Hl FL]; subst. destruct LL as [|l' LL]; [cbn; now rewrite app_nil_r|].
  cbn [map]. rewrite join_cons. change (concat (l :: l' :: LL)) with (l ++ concat (l' :: LL)). rewrite join_app; [|exact Hl|inversion FL; subst; destruct l'; [congruence|discriminate]].
  do 2 f_equal. apply IH; [discriminate|exact FL].
Qed.

Lemma split_ne s : split_nl s <> [].
Proof. destruct s as [|c s]; cbn; [discriminate|]. destruct (Ascii.eqb c nl); [discriminate|]. destruct (split_nl s); discriminate. Qed.
Lemma split_lines s : Forall one_line (split_nl s).
Proof.
  induction s as [|c s IH]; cbn; [repeat constructor; intros []|]. destruct (Ascii.eqb_spec c nl) as [->|N]; [constructor; [intros []|exact IH]|].
  destruct (split_nl s) as [|x l]; [repeat constructor; intros [E|[]]; now apply N|]. inversion IH as [|? ? Hx Hl]; subst. constructor; [|exact Hl].
  intros [E|O]; [now apply N|now apply Hx].
Qed.
Lemma join_split s : join_nl (split_nl s) = s.
Proof.
  induction s as [|c s IH]; [reflexivity|]. cbn [split_nl]. pose proof (split_ne s) as Ne. destruct (Ascii.eqb_spec c nl) as [->|N].
  - destruct (split_nl s) as [|x l]; [congruence|]. rewrite join_cons, IH. reflexivity.
  - destruct (split_nl s) as [|x l]; [congruence|]. rewrite <- IH. destruct l; reflexivity.
Qed.
Lemma split_pre p s f r : one_line p -> split_nl s = f :: r -> split_nl (p ++ s)%string = (p ++ f)%string :: r.
Proof.
  intros H E. induction p as [|c p IH]; [exact E|]. cbn. destruct (Ascii.eqb_spec c nl) as [->|_]; [exfalso; apply H; left; reflexivity|].
  rewrite IH; [reflexivity|]. intros O. apply H. right. exact O.
Qed.

(* the lines of a tree *)
Definition pad (s : string) : string := ("  " ++ s)%string.
Definition leaf_block (k s : string) : list string :=
  match split_nl s with [] => [] | f :: r => (k ++ ": " ++ f)%string :: map pad r end.
Fixpoint lines (text : tree -> string) (t : tree) : list string :=
  match t with
  | TNode _ d =>
      match sorted ((fix go d := match d with
        | [] => []
        | (k, x) :: r => (k, if nodeb x then (k ++ ":")%string :: map pad (lines text x) else leaf_block k (text x)) :: go r end) d) with
      | [] => [EmptyString]
      | es => concat (map snd es)
      end
  | _ => [text t]
  end.
Definition block (text : tree -> string) (kx : string * tree) : list string :=
  if nodeb (snd kx) then (fst kx ++ ":")%string :: map pad (lines text (snd kx)) else leaf_block (fst kx) (text (snd kx)).
Lemma lines_node text m d : lines text (TNode m d) = match d with [] => [EmptyString] | _ => concat (map (block text) (sorted d)) end.
Proof.
  cbn [lines]. replace ((fix go d := match d with [] => [] | (k, x) :: r => (k, if nodeb x then (k ++ ":")%string :: map pad (lines text x) else leaf_block k (text x)) :: go r end) d)
    with (map (fun kv => (fst kv, block text kv)) d) by (induction d as [|[k x] r IH]; cbn; [reflexivity|now rewrite IH]).
  rewrite sorted_keyed. pose proof (sorted_perm d) as Pm. destruct (sorted d) as [|e es].
  - apply Permutation_sym, Permutation_nil in Pm. now subst.
  - destruct d as [|? ?]; [apply Permutation_nil in Pm; discriminate|]. cbn [map]. rewrite map_map. reflexivity.
Qed.
Lemma block_ne text kx : block text kx <> [].
Proof. unfold block, leaf_block. destruct (nodeb _); [discriminate|]. pose proof (split_ne (text (snd kx))). destruct (split_nl _); [congruence|discriminate]. Qed.
Lemma lines_ne text t : lines text t <> [].
Proof.
  destruct t; try discriminate. rewrite lines_node. destruct d as [|e d]; [discriminate|]. pose proof (sorted_perm (e :: d)) as Pm.
  destruct (sorted (e :: d)) as [|e' es]; [apply Permutation_sym, Permutation_nil in Pm; discriminate|]. cbn. pose proof (block_ne text e'). destruct (block text e'); [congruence|discriminate].
Qed.
Lemma one_line_app a b : one_line a -> one_line b -> one_line (a ++ b)%string.
Proof. unfold one_line. rewrite occurs_app. tauto. Qed.
Lemma keys_node Q m d : keys_are Q (TNode m d) -> forall k x, In (k, x) d -> Q k /\ keys_are Q x.
Proof. intros H. inversion H as [? N|? ? K]; subst; [exfalso; apply N; now eexists _, _|exact K]. Qed.
Lemma keys_mono (Q Q' : string -> Prop) : (forall k, Q k -> Q' k) -> forall t, keys_are Q t -> keys_are Q' t.
Proof.
  intros HQ. induction t as [a|l _|l _|d _|m d IH] using tree_ind'; intros H; try (apply K_leaf; intros (? & ? & ?); discriminate).
  rewrite Forall_forall in IH. apply K_node. intros k x I. destruct (keys_node _ _ _ H k x I). split; [now apply HQ|now apply (IH (k, x) I)].
Qed.
Lemma leaf_block_one k s : one_line k -> Forall one_line (leaf_block k s).
Proof.
  intros Hk. unfold leaf_block. pose proof (split_lines s) as F. destruct (split_nl s) as [|f r]; [constructor|]. inversion F as [|? ? Hf Hr]; subst.
  assert (C2 : one_line ": ") by (cbn; intros [E|[E|[]]]; discriminate). assert (C3 : one_line "  ") by (cbn; intros [E|[E|[]]]; discriminate).
  constructor; [apply one_line_app; [exact Hk|now apply one_line_app]|]. apply Forall_forall. intros q Hq. apply in_map_iff in Hq. destruct Hq as (q' & <- & Hq').
  rewrite Forall_forall in Hr. apply one_line_app; [exact C3|now apply Hr].
Qed.
Lemma lines_one text : forall t, is_cfg t -> keys_are one_line t -> Forall one_line (lines text t).
Proof.
  assert (C1 : one_line ":") by (cbn; intros [E|[]]; discriminate). assert (C3 : one_line "  ") by (cbn; intros [E|[E|[]]]; discriminate).
  induction t as [a|l _|l _|d _|m d IH] using tree_ind'; intros Hc H; try (destruct Hc as (? & ? & ?); discriminate).
  rewrite lines_node. pose proof (keys_node _ _ _ H) as K. rewrite Forall_forall in IH. destruct d as [|e0 d0]; [repeat constructor; intros []|]. set (d := e0 :: d0) in *.
  apply Forall_forall. intros s Hs. apply in_concat in Hs. destruct Hs as (b & Hb & Hs). apply in_map_iff in Hb. destruct Hb as ([k x] & <- & I). apply (proj1 (sorted_in _ _)) in I.
  destruct (K k x I) as [K1 T]. unfold block in Hs. cbn [fst snd] in Hs. destruct (nodeb x) eqn:Nx.
  - destruct Hs as [<-|Hs]; [now apply one_line_app|]. apply in_map_iff in Hs. destruct Hs as (s' & <- & Hs'). apply one_line_app; [exact C3|].
    specialize (IH _ I (proj1 (nodeb_cfg x) Nx) T). rewrite Forall_forall in IH. now apply IH.
  - pose proof (leaf_block_one k (text x) K1) as F. rewrite Forall_forall in F. now apply F.
Qed.
Lemma indent_leaf k s : one_line k -> indent (k ++ ": " ++ s)%string 2 = join_nl (leaf_block k s).
Proof.
  intros Hk. assert (C2 : one_line (k ++ ": ")%string) by (apply one_line_app; [exact Hk|cbn; intros [E|[E|[]]]; discriminate]).
  rewrite <- sapp_assoc. unfold leaf_block, indent. pose proof (split_ne s) as Ne. pose proof (join_split s) as J. destruct (split_nl s) as [|f r] eqn:E; [congruence|].
  rewrite (split_pre _ _ f r C2 E). destruct r as [|y r].
  - cbn in J. subst s. cbn. now rewrite sapp_assoc.
  - cbn [map]. rewrite join_cons. rewrite !sapp_assoc. reflexivity.
Qed.
Lemma pretty_lines text : forall t, is_cfg t -> keys_are one_line t -> pretty text t = join_nl (lines text t).
Proof.
  assert (C1 : one_line ":") by (cbn; intros [E|[]]; discriminate).
  induction t as [a|l _|l _|d _|m d IH] using tree_ind'; intros Hc H; try (destruct Hc as (? & ? & ?); discriminate).
  rewrite pretty_node, lines_node. pose proof (keys_node _ _ _ H) as K. rewrite Forall_forall in IH. destruct d as [|e0 d0]; [reflexivity|]. set (d := e0 :: d0) in *.
  rewrite <- join_concat.
  - rewrite map_map. f_equal. apply map_ext_in. intros [k x] I. apply (proj1 (sorted_in _ _)) in I. destruct (K k x I) as [K1 T].
    unfold line_of, block, entry_text. cbn [fst snd]. destruct (nodeb x) eqn:Nx.
    + pose proof (IH _ I (proj1 (nodeb_cfg x) Nx) T) as Ex. cbn [snd] in Ex. rewrite Ex. rewrite <- (sapp_assoc k ":"). unfold indent. rewrite split_app; [|now apply one_line_app].
      rewrite split_join; [|apply lines_ne|apply lines_one; [now apply nodeb_cfg|exact T]]. pose proof (lines_ne text x) as Ne. destruct (lines text x) as [|l0 ls]; [congruence|].
      cbn [map]. rewrite join_cons. reflexivity.
    + assert (Ex : pretty text x = text x) by (destruct x; try reflexivity; discriminate). rewrite Ex. now apply indent_leaf.
  - intros E. apply map_eq_nil in E. pose proof (sorted_perm d) as Pm. rewrite E in Pm. apply Permutation_sym, Permutation_nil in Pm. discriminate.
  - apply Forall_forall. intros l Hl. apply in_map_iff in Hl. destruct Hl as (kx & <- & _). apply block_ne.
Qed.
