(* Decoding, coercion and _merge_a_into_b: the heap operations realise operations on trees. *)
From Coq Require Import ZArith String Ascii List Bool Arith Lia.
From Verif Require Import ConfigModel ConfigSpec ConfigHeap ConfigCopy ConfigTree.
Import ListNotations.
Local Open Scope list_scope.
Local Open Scope nat_scope.

Section Merge.
Variable literal_eval : string -> out lit.

Definition tdecode (t : tree) : out tree :=
  if branchb t then match tcreate t with Some t' => Done t' | None => Raise XAssertion end
  else match t with
       | TAtom (AStr s) =>
           match literal_eval s with
           | Done l => Done (tree_of_lit l)
           | Raise XValue | Raise XSyntax => Done t
           | Raise e => Raise e
           end
       | _ => Done t
       end.
Definition tcoerce (r o : tree) : out tree :=
  if ty_eqb (ttype r) (ttype o) then Done r
  else match r, o with
       | TTup l, TList _ => Done (TList l)
       | TList l, TTup _ => Done (TTup l)
       | _, _ => Raise XValue
       end.

Lemma decode_keeps fuel v h h' r : decode literal_eval fuel v h = (h', r) -> keeps h h'.
Proof.
  unfold decode. unfold bind at 1, get at 1. destruct (is_dict h v); [apply mk_node_keeps|].
  destruct v as [[]| |]; try (intros E; inversion E; apply keeps_refl).
  destruct (literal_eval s) as [l|[]]; try (intros E; inversion E; apply keeps_refl).
  destruct (alloc_lit_ok l h) as (h1 & v & fp & E1 & K & _). rewrite E1. intros E. inversion E; subst. exact K.
Qed.

Lemma decode_refines fuel v h h' r t fp : reads h v t fp -> decode literal_eval fuel v h = (h', r) -> r <> Raise XRecursion ->
  match tdecode t with
  | Done t' => exists v' fp', r = Done v' /\ reads h' v' t' fp' /\ within fp' fp (length h) /\ (NoDup fp -> NoDup fp')
  | Raise e => r = Raise e
  end.
Proof.
  intros R E Hr. unfold decode in E. unfold bind at 1, get at 1 in E. rewrite (reads_is_dict _ _ _ _ R) in E. unfold tdecode.
  destruct (branchb t) eqn:Eb.
  - pose proof (mk_node_refines _ _ _ _ _ _ _ _ R Eb E Hr) as Q. destruct (tcreate t) as [t'|] eqn:Et; [|exact Q].
    destruct Q as (v' & fp' & Q1 & Q2 & Q3 & Q4). exists v', fp'. split; [exact Q1|]. split.
    + apply branch_entries in Eb. destruct Eb as [d Ed]. rewrite (tcreate_eq _ _ Ed) in Et.
      destruct (tcreate_items d); inversion Et; subst. exact Q2.
    + split; [intros l Hl; right; apply Q3, Hl|exact Q4].
  - assert (Same : (h', r) = (h, Done v) -> exists v' fp', r = Done v' /\ reads h' v' t fp' /\ within fp' fp (length h) /\ (NoDup fp -> NoDup fp')).
    { intros X. inversion X; subst. exists v, fp. repeat split; auto. intros l Hl. auto. }
    inversion R; subst; try (apply Same; symmetry; exact E).
    destruct a as [| | | |s|]; try (apply Same; symmetry; exact E).
    destruct (literal_eval s) as [l|e].
    + destruct (alloc_lit_ok l h) as (h1 & v & fp & E1 & K & R1 & A1 & N1). rewrite E1 in E. inversion E; subst.
      exists v, fp. repeat split; auto. intros i Hi. right. apply A1, Hi.
    + destruct e; try (apply Same; symmetry; exact E); inversion E; reflexivity.
Qed.

Lemma coerce_keeps v o h h' r : check_and_coerce v o h = (h', r) -> keeps h h'.
Proof.
  unfold check_and_coerce. unfold bind at 1, get at 1. unfold bind at 1, get at 1.
  destruct (ty_eqb (type_of h v) (type_of h o)); [intros E; inversion E; apply keeps_refl|].
  destruct (ty_eqb (type_of h v) TyTup && ty_eqb (type_of h o) TyList).
  { destruct v; intros E; inversion E; try apply keeps_refl. apply keeps_app. }
  destruct (ty_eqb (type_of h v) TyList && ty_eqb (type_of h o) TyTup); [|intros E; inversion E; apply keeps_refl].
  unfold deref. destruct v as [| |l]; intros E; try (inversion E; apply keeps_refl). unfold bind, load in E.
  destruct (nth_error h l) as [[]|]; inversion E; apply keeps_refl.
Qed.
Lemma coerce_refines v o h h' r t fp to fpo : reads h v t fp -> reads h o to fpo -> check_and_coerce v o h = (h', r) ->
  match tcoerce t to with
  | Done t' => exists v', r = Done v' /\ reads h' v' t' fp
  | Raise e => r = Raise e
  end.
Proof.
  intros R Ro E. unfold check_and_coerce in E. unfold bind at 1, get at 1 in E. unfold bind at 1, get at 1 in E.
  rewrite (reads_type _ _ _ _ R), (reads_type _ _ _ _ Ro) in E. unfold tcoerce.
  destruct (ty_eqb (ttype t) (ttype to)) eqn:Et; [inversion E; subst; eauto|].
  destruct R as [a|vs ts fp R|l vs ts fp El R|l d ts fp El N R|l mt d ts fp El N R].
  - destruct a, to as [[]| | | |]; cbn in E, Et |- *; inversion E; reflexivity.
  - destruct to as [[]| | | |]; cbn in E, Et |- *; inversion E; subst; try reflexivity; try discriminate.
    eexists. split; [reflexivity|]. econstructor; [apply nth_app_new|]. eapply reads_all_keeps; [apply keeps_app|exact R].
  - destruct to as [[]| | | |]; cbn in E, Et |- *; inversion E; subst; try reflexivity; try discriminate.
    unfold bind, load in E. rewrite El in E. inversion E; subst. eexists. split; [reflexivity|]. constructor. exact R.
  - destruct to as [[]| | | |]; cbn in E, Et |- *; inversion E; subst; try reflexivity; try discriminate.
  - destruct to as [[]| | | |]; cbn in E, Et |- *; inversion E; subst; try reflexivity; try discriminate.
Qed.

(* ---------------------------------------------------------------- merging on trees *)
Section Root.
Variable rm : meta.    (* attributes of the root configuration *)

Definition missing_key {A} (full : string) (db : A) : A * out unit :=
  if has (m_dep rm) full then (db, Done tt)
  else match dget (m_ren rm) full with
       | Some (new, msg) => (db, Raise (XRenamed full new msg))
       | None => (db, Raise (XMissing full))
       end.
(* one entry: rec = merge the value v into a given node *)
Definition tstep (rec : tree -> list string -> tree * out unit) (mb : meta) (ks : list string) (k : string) (v : tree)
    (db : list (string * tree)) : list (string * tree) * out unit :=
  match tdecode v with
  | Raise e => (db, Raise e)
  | Done v' =>
      match dget db k with
      | Some bk =>
          match tcoerce v' bk with
          | Raise e => (db, Raise e)
          | Done w => if nodeb w then let p := rec bk (ks ++ [k]) in (dset db k (fst p), snd p)
                      else (dset db k w, Done tt)
          end
      | None => if m_new mb then (dset db k v', Done tt) else missing_key (join (ks ++ [k])) db
      end
  end.
Fixpoint tmerge (a b : tree) (ks : list string) {struct a} : tree * out unit :=
  match a with
  | TNode _ da | TDict da =>
      match b with
      | TNode mb db =>
          let p := (fix go (da db : list (string * tree)) : list (string * tree) * out unit :=
                      match da with
                      | [] => (db, Done tt)
                      | (k, v) :: rest =>
                          match tstep (tmerge v) mb ks k v db with
                          | (db1, Done _) => go rest db1
                          | (db1, Raise e) => (db1, Raise e)
                          end
                      end) da db in
          (TNode mb (fst p), snd p)
      | _ => (b, Raise XAssertion)
      end
  | _ => (b, Raise XAssertion)
  end.
Fixpoint tmerge_items (mb : meta) (ks : list string) (da db : list (string * tree)) : list (string * tree) * out unit :=
  match da with
  | [] => (db, Done tt)
  | (k, v) :: rest =>
      match tstep (tmerge v) mb ks k v db with
      | (db1, Done _) => tmerge_items mb ks rest db1
      | (db1, Raise e) => (db1, Raise e)
      end
  end.
Lemma tmerge_eq a da mb db ks : entries a = Some da ->
  tmerge a (TNode mb db) ks = (TNode mb (fst (tmerge_items mb ks da db)), snd (tmerge_items mb ks da db)).
Proof.
  assert (G : forall da db, (fix go (da db : list (string * tree)) : list (string * tree) * out unit :=
                      match da with
                      | [] => (db, Done tt)
                      | (k, v) :: rest =>
                          match tstep (tmerge v) mb ks k v db with
                          | (db1, Done _) => go rest db1
                          | (db1, Raise e) => (db1, Raise e)
                          end
                      end) da db = tmerge_items mb ks da db).
  { induction da0 as [|[k v] r IH]; intros db0; cbn; [reflexivity|].
    destruct (tstep (tmerge v) mb ks k v db0) as [db1 [u|e]]; auto. }
  destruct a; cbn [entries]; intros E; inversion E; subst; cbn [tmerge]; rewrite G; reflexivity.
Qed.

(* the constructor changes nothing that a merge looks at *)
Lemma tcreate_node t t' : tcreate t = Some t' -> nodeb t' = true.
Proof.
  destruct t; cbn; try discriminate.
  - match goal with |- match ?x with _ => _ end = _ -> _ => destruct x; intros E; inversion E; reflexivity end.
  - match goal with |- match ?x with _ => _ end = _ -> _ => destruct x; intros E; inversion E; reflexivity end.
Qed.
Lemma tcreate_idem t : forall t', tcreate t = Some t' -> tcreate t' = Some t'.
Proof.
  assert (G : forall d, Forall (fun kv : string * tree => forall t', tcreate (snd kv) = Some t' -> tcreate t' = Some t') d ->
     forall d', tcreate_items d = Some d' -> tcreate_items d' = Some d').
  { induction 1 as [|[k x] d Hx Hd IH]; intros d' E; cbn in E; [inversion E; reflexivity|].
    destruct (tcreate1 x) as [y|] eqn:E1, (tcreate_items d) as [ys|] eqn:E2; try discriminate. inversion E; subst. cbn [tcreate_items].
    rewrite (IH _ eq_refl). unfold tcreate1 in *. destruct (branchb x) eqn:Eb.
    - assert (branchb y = true) as -> by (pose proof (tcreate_node _ _ E1); destruct y; try discriminate; reflexivity).
      rewrite (Hx _ E1). reflexivity.
    - destruct (valid_ty (ttype x)) eqn:Ev; [|discriminate]. inversion E1; subst. rewrite Eb, Ev. reflexivity. }
  induction t using tree_ind'; intros t' E; try discriminate.
  - rewrite (tcreate_eq (TDict d) d eq_refl) in E. destruct (tcreate_items d) as [d'|] eqn:Ed; inversion E; subst.
    rewrite (tcreate_eq (TNode plain_meta d') d' eq_refl), (G _ H _ Ed). reflexivity.
  - rewrite (tcreate_eq (TNode m d) d eq_refl) in E. destruct (tcreate_items d) as [d'|] eqn:Ed; inversion E; subst.
    rewrite (tcreate_eq (TNode plain_meta d') d' eq_refl), (G _ H _ Ed). reflexivity.
Qed.
Lemma tstep_ext rec rec' mb ks k v v' db : tdecode v = tdecode v' ->
  (forall bk, nodeb bk = true -> rec bk (ks ++ [k]) = rec' bk (ks ++ [k])) \/ (forall t, tdecode v = Done t -> nodeb t = false) ->
  tstep rec mb ks k v db = tstep rec' mb ks k v' db.
Proof.
  intros Ed Hrec. unfold tstep. rewrite <- Ed. destruct (tdecode v) as [t|e] eqn:Et; [|reflexivity].
  destruct (dget db k) as [bk|]; [|reflexivity]. destruct (tcoerce t bk) as [w|e] eqn:Ec; [|reflexivity].
  destruct (nodeb w) eqn:En; [|reflexivity]. 
  assert (Hw : w = t /\ nodeb bk = true).
  { unfold tcoerce in Ec. unfold ty_eqb in Ec. destruct (ty_eq_dec (ttype t) (ttype bk)) as [Y|Y].
    - inversion Ec; subst. split; auto. destruct w; try discriminate. cbn in Y. destruct bk as [[]| | | |]; try discriminate. reflexivity.
    - destruct t, bk; inversion Ec; subst; discriminate. }
  destruct Hw as [-> Hb]. destruct Hrec as [Hrec|Hrec]; [rewrite Hrec by auto; reflexivity|].
  rewrite (Hrec t eq_refl) in En. discriminate.
Qed.
Lemma tree_of_lit_node l : nodeb (tree_of_lit l) = false.
Proof. destruct l; reflexivity. Qed.
Lemma tdecode_leaf t t' : branchb t = false -> tdecode t = Done t' -> nodeb t' = false.
Proof.
  intros Eb. unfold tdecode. rewrite Eb. destruct t as [a| | | |]; try discriminate; try (intros E; inversion E; reflexivity).
  destruct a; try (intros E; inversion E; reflexivity).
  destruct (literal_eval s) as [l|e]; [intros E; inversion E; apply tree_of_lit_node|].
  destruct e; intros E; inversion E; reflexivity.
Qed.
Lemma tmerge_create t : forall t' b ks, tcreate t = Some t' -> tmerge t' b ks = tmerge t b ks.
Proof.
  assert (G : forall d, Forall (fun kv : string * tree => forall t' b ks, tcreate (snd kv) = Some t' -> tmerge t' b ks = tmerge (snd kv) b ks) d ->
     forall d' mb ks db, tcreate_items d = Some d' -> tmerge_items mb ks d' db = tmerge_items mb ks d db).
  { induction 1 as [|[k x] d Hx Hd IH]; intros d' mb ks db E; cbn in E; [inversion E; reflexivity|]. cbn [snd] in Hx.
    destruct (tcreate1 x) as [y|] eqn:E1, (tcreate_items d) as [ys|] eqn:E2; try discriminate. inversion E; subst. cbn [tmerge_items].
    assert (S : tstep (tmerge y) mb ks k y db = tstep (tmerge x) mb ks k x db).
    { unfold tcreate1 in E1. destruct (branchb x) eqn:Eb.
      - apply tstep_ext.
        + unfold tdecode. rewrite Eb, E1. pose proof (tcreate_node _ _ E1) as Hn.
          assert (branchb y = true) as -> by (destruct y; try discriminate; reflexivity).
          rewrite (tcreate_idem _ _ E1). reflexivity.
        + left. intros bk _. apply Hx. exact E1.
      - destruct (valid_ty (ttype x)); inversion E1; subst. reflexivity. }
    rewrite S. destruct (tstep (tmerge x) mb ks k x db) as [db1 [u|e]]; [|reflexivity]. apply IH. reflexivity. }
  induction t using tree_ind'; intros t' b ks E; try discriminate.
  - rewrite (tcreate_eq (TDict d) d eq_refl) in E. destruct (tcreate_items d) as [d'|] eqn:Ed; inversion E; subst.
    destruct b as [| | | |mb db]; try reflexivity.
    rewrite (tmerge_eq (TNode plain_meta d') d' mb db ks eq_refl), (tmerge_eq (TDict d) d mb db ks eq_refl), (G _ H _ _ _ _ Ed). reflexivity.
  - rewrite (tcreate_eq (TNode m d) d eq_refl) in E. destruct (tcreate_items d) as [d'|] eqn:Ed; inversion E; subst.
    destruct b as [| | | |mb db]; try reflexivity.
    rewrite (tmerge_eq (TNode plain_meta d') d' mb db ks eq_refl), (tmerge_eq (TNode m d) d mb db ks eq_refl), (G _ H _ _ _ _ Ed). reflexivity.
Qed.
End Root.
End Merge.
