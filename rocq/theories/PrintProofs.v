(* The text of a configuration: splitting, sorting, and the text as a function of the tree. *)
From Coq Require Import String Ascii List Bool Arith Sorted Permutation Lia NArith.
From Verif Require Import ConfigModel ConfigSpec ConfigHeap ConfigCopy ConfigTree PrintModel PrintSpec.
Import ListNotations.
Local Open Scope string_scope.
Local Open Scope list_scope.
Local Open Scope nat_scope.

(* ---------------- the order of keys *)
Definition slt (a b : string) : Prop := String.compare a b = Lt.
Lemma acmp_trans a b c : Ascii.compare a b = Lt -> Ascii.compare b c = Lt -> Ascii.compare a c = Lt.
Proof. unfold Ascii.compare. rewrite !N.compare_lt_iff. apply N.lt_trans. Qed.
Lemma acmp_eq a b : Ascii.compare a b = Eq -> a = b.
Proof. apply Ascii.compare_eq_iff. Qed.
Lemma acmp_refl a : Ascii.compare a a = Eq.
Proof. unfold Ascii.compare. apply N.compare_refl. Qed.
Lemma slt_trans a : forall b c, slt a b -> slt b c -> slt a c.
Proof.
  unfold slt. induction a as [|x a IH]; intros [|y b] [|z c]; cbn; try discriminate; try reflexivity.
  destruct (Ascii.compare x y) eqn:E1; destruct (Ascii.compare y z) eqn:E2; try discriminate; intros H1 H2.
  - apply acmp_eq in E1. apply acmp_eq in E2. subst. rewrite acmp_refl. eauto.
  - apply acmp_eq in E1. subst. now rewrite E2.
  - apply acmp_eq in E2. subst. now rewrite E1.
  - now rewrite (acmp_trans _ _ _ E1 E2).
Qed.
Lemma slt_irr a : ~ slt a a.
Proof. unfold slt. induction a as [|x a IH]; cbn; [discriminate|]. now rewrite acmp_refl. Qed.
Lemma leb_cases a b : (String.leb a b = true /\ (a = b \/ slt a b)) \/ (String.leb a b = false /\ slt b a).
Proof.
  unfold String.leb, slt. rewrite (String.compare_antisym b a). destruct (String.compare a b) eqn:E; cbn; auto.
  left. split; [reflexivity|]. left. now apply String.compare_eq_iff.
Qed.

Lemma insert_perm {A} (e : string * A) l : Permutation (e :: l) (insert e l).
Proof.
  induction l as [|x r IH]; cbn; [reflexivity|]. destruct (String.leb _ _); [reflexivity|].
  rewrite perm_swap. now constructor.
Qed.
Lemma sorted_perm {A} (l : list (string * A)) : Permutation l (sorted l).
Proof. induction l as [|x r IH]; cbn; [reflexivity|]. rewrite IH at 1. apply insert_perm. Qed.
Lemma keys_perm {A} (l l' : list (string * A)) : Permutation l l' -> Permutation (keys l) (keys l').
Proof. apply Permutation_map. Qed.
Lemma insert_sorted {A} (e : string * A) l : StronglySorted slt (keys l) -> ~ In (fst e) (keys l) -> StronglySorted slt (keys (insert e l)).
Proof.
  induction l as [|x r IH]; intros S N; cbn; [repeat constructor|]. cbn in S, N. inversion S as [|? ? S' F]; subst.
  destruct (leb_cases (fst e) (fst x)) as [[-> H]|[-> H]]; cbn.
  - destruct H as [H|H]; [exfalso; apply N; left; now symmetry|]. constructor; [exact S|]. constructor; [exact H|].
    rewrite Forall_forall in *. intros k Hk. eapply slt_trans; [exact H|]. now apply F.
  - constructor; [apply IH; [exact S'|tauto]|]. rewrite Forall_forall in *. intros k Hk.
    apply (Permutation_in _ (Permutation_sym (keys_perm _ _ (insert_perm e r)))) in Hk. destruct Hk as [<-|Hk]; [exact H|now apply F].
Qed.
Lemma sorted_sorted {A} (l : list (string * A)) : NoDup (keys l) -> StronglySorted slt (keys (sorted l)).
Proof.
  induction l as [|x r IH]; intros N; cbn; [constructor|]. cbn in N. inversion N as [|? ? N1 N2]; subst. apply insert_sorted; [now apply IH|].
  intros H. apply N1. exact (Permutation_in _ (Permutation_sym (keys_perm _ _ (sorted_perm r))) H).
Qed.
Lemma sorted_unique (l : list string) : forall l', StronglySorted slt l -> StronglySorted slt l' -> (forall k, In k l <-> In k l') -> l = l'.
Proof.
  induction l as [|x l IH]; intros [|y l'] S S' H; [reflexivity|exfalso; apply (proj2 (H y)); now left|exfalso; apply (proj1 (H x)); now left|].
  inversion S as [|? ? S1 F1]; inversion S' as [|? ? S2 F2]; subst. rewrite Forall_forall in F1, F2.
  assert (E : x = y).
  { destruct (proj1 (H x) (or_introl eq_refl)) as [E|I1]; [now symmetry|]. destruct (proj2 (H y) (or_introl eq_refl)) as [E|I2]; [exact E|].
    exfalso. exact (slt_irr x (slt_trans _ _ _ (F1 y I2) (F2 x I1))). }
  subst y. f_equal. apply IH; [assumption|assumption|]. intros k. specialize (H k). cbn in H. split; intros I.
  - destruct (proj1 H (or_intror I)) as [E|J]; [subst; exfalso; exact (slt_irr _ (F1 _ I))|exact J].
  - destruct (proj2 H (or_intror I)) as [E|J]; [subst; exfalso; exact (slt_irr _ (F2 _ I))|exact J].
Qed.
Lemma insert_map {A B} (f : A -> B) e l : insert (fst e, f (snd e)) (map (fun kv => (fst kv, f (snd kv))) l) = map (fun kv => (fst kv, f (snd kv))) (insert e l).
Proof. induction l as [|x r IH]; cbn; [reflexivity|]. destruct (String.leb _ _); cbn; [reflexivity|]. now rewrite IH. Qed.
Lemma insert_rel {A B} (R : A -> B -> Prop) e e' l l' : fst e = fst e' -> R (snd e) (snd e') -> Forall2 (fun a b => fst a = fst b /\ R (snd a) (snd b)) l l' ->
  Forall2 (fun a b => fst a = fst b /\ R (snd a) (snd b)) (insert e l) (insert e' l').
Proof.
  intros E He F. induction F as [|x y l l' [Ex Rx] F IH]; cbn; [constructor; [auto|constructor]|]. rewrite E, Ex. destruct (String.leb _ _).
  - constructor; [auto|]. constructor; [auto|exact F].
  - constructor; [auto|exact IH].
Qed.
Lemma sorted_rel {A B} (R : A -> B -> Prop) l l' : Forall2 (fun a b => fst a = fst b /\ R (snd a) (snd b)) l l' ->
  Forall2 (fun a b => fst a = fst b /\ R (snd a) (snd b)) (sorted l) (sorted l').
Proof. intros F. induction F as [|x y l l' [Ex Rx] F IH]; cbn; [constructor|]. now apply insert_rel. Qed.

(* ---------------- the text of a tree *)
Definition entry_text (k : string) (node : bool) (s : string) : string :=
  if node then indent (k ++ ":" ++ String nl EmptyString ++ s)%string 2 else indent (k ++ ":" ++ " " ++ s)%string 2.
Fixpoint pretty (text : tree -> string) (t : tree) : string :=
  match t with
  | TNode _ d => join_nl (map snd (sorted ((fix go d := match d with [] => [] | (k, x) :: r => (k, entry_text k (nodeb x) (pretty text x)) :: go r end) d)))
  | _ => text t
  end.
Definition line_of (text : tree -> string) (kx : string * tree) : string := entry_text (fst kx) (nodeb (snd kx)) (pretty text (snd kx)).
Lemma insert_keyed {A B} (f : string * A -> B) e l : insert (fst e, f e) (map (fun kv => (fst kv, f kv)) l) = map (fun kv => (fst kv, f kv)) (insert e l).
Proof. induction l as [|x r IH]; cbn; [reflexivity|]. destruct (String.leb _ _); cbn; [reflexivity|]. now rewrite IH. Qed.
Lemma sorted_keyed {A B} (f : string * A -> B) l : sorted (map (fun kv => (fst kv, f kv)) l) = map (fun kv => (fst kv, f kv)) (sorted l).
Proof. unfold sorted. induction l as [|x r IH]; cbn; [reflexivity|]. rewrite IH. apply insert_keyed. Qed.
Lemma pretty_node text m d : pretty text (TNode m d) = join_nl (map (line_of text) (sorted d)).
Proof.
  cbn [pretty]. replace ((fix go d := match d with [] => [] | (k, x) :: r => (k, entry_text k (nodeb x) (pretty text x)) :: go r end) d)
    with (map (fun kv => (fst kv, line_of text kv)) d) by (induction d as [|[k x] r IH]; cbn; [reflexivity|now rewrite IH]).
  rewrite sorted_keyed, map_map. reflexivity.
Qed.
Lemma nodeb_cfg t : nodeb t = true <-> is_cfg t.
Proof. destruct t; cbn; split; intros H; try discriminate; try (destruct H as (? & ? & ?); discriminate); try reflexivity. now eexists _, _. Qed.
Lemma nodeb_not t : nodeb t = false <-> ~ is_cfg t.
Proof. rewrite <- nodeb_cfg. destruct (nodeb t); split; intros; congruence. Qed.

(* the model computes it *)
Lemma type_node h v t : Reads h v t -> (type_of h v = TyNode <-> nodeb t = true).
Proof.
  intros (fp & H). destruct H; cbn; try (split; congruence).
  - destruct a; cbn; split; congruence.
  - rewrite H. split; congruence.
  - rewrite H. split; congruence.
  - rewrite H. split; congruence.
Qed.
Lemma run_str str_of text : prints str_of text -> forall fuel h v t, Reads h v t -> is_cfg t -> tdepth t <= fuel -> cfg_str str_of fuel v h = (h, Done (pretty text t)).
Proof.
  intros Hp. induction fuel as [|n IH]; intros h v t (fp & H) (m & d & ->) Hd; [cbn in Hd; lia|].
  inversion H as [| | | |l m' d0 ts fp' El N Ri]; subst. cbn [cfg_str]. rewrite El. rewrite pretty_node.
  pose proof (reads_items_forall _ _ _ _ Ri) as F.
  assert (D : forall k x, In (k, x) d -> tdepth x <= n).
  { cbn [tdepth] in Hd. apply le_S_n in Hd. clear -Hd. induction d as [|[k' y] r IHr]; intros k x []; [inversion H; subst|]; cbn in Hd; [lia|]. eapply IHr; [lia|exact H]. }
  assert (F' : Forall2 (fun a b => fst a = fst b /\ (Reads h (snd a) (snd b) /\ tdepth (snd b) <= n)) d0 d).
  { clear -F D. induction F as [|[k v] [k' x] d0 d [E Hr] F IHF]; constructor; cbn in *.
    - split; [exact E|]. split; [exact Hr|]. apply (D k'). now left.
    - apply IHF. intros k0 x0 I. apply (D k0). now right. }
  apply (sorted_rel (fun v t => Reads h v t /\ tdepth t <= n)) in F'. clear Ri F D Hd H N El.
  assert (G : forall l ts', Forall2 (fun a b => fst a = fst b /\ (Reads h (snd a) (snd b) /\ tdepth (snd b) <= n)) l ts' ->
    each (fun k v => fun h => match type_of h v with
                 | TyNode => (let! t := cfg_str str_of n v in ret (indent (k ++ ":" ++ String nl EmptyString ++ t)%string 2)) h
                 | _ => ret (indent (k ++ ":" ++ " " ++ str_of h v)%string 2) h end) l h = (h, Done (map (line_of text) ts'))).
  { intros l0 ts' F. induction F as [|[k v] [k' x] l0 ts' (E & Hr & Hx) F IHF]; cbn [each map]; [reflexivity|]. cbn [fst snd] in *. subst k'.
    unfold bind at 1. destruct (nodeb x) eqn:Nx.
    - rewrite (proj2 (type_node h v x Hr) Nx). unfold bind at 1. rewrite (IH h v x Hr (proj1 (nodeb_cfg x) Nx) Hx). cbn [ret].
      unfold bind at 1. rewrite IHF. unfold ret. unfold line_of at 2. cbn [fst snd]. unfold entry_text. rewrite Nx. reflexivity.
    - assert (T : type_of h v <> TyNode) by (intros T; apply (type_node h v x Hr) in T; congruence).
      assert (Ex : pretty text x = str_of h v) by (rewrite (Hp h v x Hr (proj1 (nodeb_not x) Nx)); destruct x; try reflexivity; discriminate).
      destruct (type_of h v); try congruence; unfold ret at 1, bind at 1; rewrite IHF; unfold ret, line_of at 2; cbn [fst snd]; unfold entry_text; rewrite Nx, Ex; reflexivity. }
  unfold bind at 1. rewrite (G _ _ F'). reflexivity.
Qed.
