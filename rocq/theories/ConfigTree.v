(* The configuration operations on trees, and the proof that the heap operations realise them. *)
From Coq Require Import ZArith String Ascii List Bool Arith Lia.
From Verif Require Import ConfigModel ConfigSpec ConfigHeap ConfigCopy.
Import ListNotations.
Local Open Scope list_scope.
Local Open Scope nat_scope.

Section TreeInd.
  Variable P : tree -> Prop.
  Hypothesis Ha : forall a, P (TAtom a).
  Hypothesis Ht : forall l, Forall P l -> P (TTup l).
  Hypothesis Hl : forall l, Forall P l -> P (TList l).
  Hypothesis Hd : forall d, Forall (fun kv => P (snd kv)) d -> P (TDict d).
  Hypothesis Hn : forall m d, Forall (fun kv => P (snd kv)) d -> P (TNode m d).
  Fixpoint tree_ind' (t : tree) : P t :=
    match t with
    | TAtom a => Ha a
    | TTup l => Ht l ((fix go l : Forall P l := match l with [] => Forall_nil _ | x :: r => Forall_cons _ (tree_ind' x) (go r) end) l)
    | TList l => Hl l ((fix go l : Forall P l := match l with [] => Forall_nil _ | x :: r => Forall_cons _ (tree_ind' x) (go r) end) l)
    | TDict d => Hd d ((fix go d : Forall (fun kv => P (snd kv)) d :=
        match d with [] => Forall_nil _ | kv :: r => Forall_cons _ (tree_ind' (snd kv)) (go r) end) d)
    | TNode m d => Hn m d ((fix go d : Forall (fun kv => P (snd kv)) d :=
        match d with [] => Forall_nil _ | kv :: r => Forall_cons _ (tree_ind' (snd kv)) (go r) end) d)
    end.
End TreeInd.

Definition branchb (t : tree) : bool := match t with TDict _ | TNode _ _ => true | _ => false end.
Definition nodeb (t : tree) : bool := match t with TNode _ _ => true | _ => false end.

(* the constructor *)
Fixpoint tcreate (t : tree) : option tree :=
  match t with
  | TDict d | TNode _ d =>
      match (fix go d := match d with
                         | [] => Some []
                         | (k, x) :: r =>
                             match (if branchb x then tcreate x else if valid_ty (ttype x) then Some x else None), go r with
                             | Some y, Some ys => Some ((k, y) :: ys)
                             | _, _ => None
                             end
                         end) d with
      | Some d' => Some (TNode plain_meta d')
      | None => None
      end
  | _ => None
  end.
Definition tcreate1 (x : tree) : option tree := if branchb x then tcreate x else if valid_ty (ttype x) then Some x else None.
Fixpoint tcreate_items (d : list (string * tree)) : option (list (string * tree)) :=
  match d with
  | [] => Some []
  | (k, x) :: r => match tcreate1 x, tcreate_items r with Some y, Some ys => Some ((k, y) :: ys) | _, _ => None end
  end.
Lemma tcreate_eq t d : entries t = Some d ->
  tcreate t = match tcreate_items d with Some d' => Some (TNode plain_meta d') | None => None end.
Proof. destruct t; cbn; intros E; inversion E; subst; reflexivity. Qed.
Lemma branch_entries t : branchb t = true <-> exists d, entries t = Some d.
Proof. destruct t; cbn; split; intros H; try discriminate; eauto; destruct H; discriminate. Qed.
Lemma not_branch_entries t : branchb t = false <-> entries t = None.
Proof. destruct t; cbn; split; intros; congruence. Qed.

Definition with_new (nw : bool) (t : tree) : tree := match t with TNode _ d => TNode (mkMeta false nw [] []) d | _ => t end.

(* ---------------------------------------------------------------- footprints *)
Definition within (fp : list loc) (S : list loc) (N : nat) : Prop := forall l, In l fp -> In l S \/ N <= l.
Definition above (fp : list loc) (N : nat) : Prop := forall l, In l fp -> N <= l.

Lemma NoDup_app_iff {A} (l1 l2 : list A) : NoDup (l1 ++ l2) <-> NoDup l1 /\ NoDup l2 /\ (forall x, In x l1 -> In x l2 -> False).
Proof.
  induction l1 as [|a l1 IH]; cbn.
  - split; [intros H; repeat split; auto; constructor|tauto].
  - split.
    + intros H. inversion H as [|? ? N ND]; subst. apply IH in ND. destruct ND as (A1 & A2 & A3). rewrite in_app_iff in N.
      repeat split; auto. { constructor; tauto. } intros x [<-|Hx] Hy; [tauto|eauto].
    + intros (A1 & A2 & A3). inversion A1; subst. constructor.
      * rewrite in_app_iff. intros [C|C]; eauto.
      * apply IH. repeat split; auto. intros x Hx. apply A3. auto.
Qed.

Lemma reads_ref_lt h v t fp l : reads h v t fp -> In l fp -> l < length h.
Proof. intros R. apply (proj1 (reads_lt h) _ _ _ R). Qed.
Lemma reads_items_lt h v t fp l : reads_items h v t fp -> In l fp -> l < length h.
Proof. intros R. apply (proj2 (proj2 (reads_lt h)) _ _ _ R). Qed.

Lemma reads_is_dict h v t fp : reads h v t fp -> is_dict h v = branchb t.
Proof. intros R. unfold is_dict. rewrite (reads_type _ _ _ _ R). destruct t as [[]| | | |]; reflexivity. Qed.
Lemma reads_is_node h v t fp : reads h v t fp -> is_node h v = nodeb t.
Proof. intros R. unfold is_node. rewrite (reads_type _ _ _ _ R). destruct t as [[]| | | |]; reflexivity. Qed.
Lemma reads_valid h v t fp : reads h v t fp -> valid_type h v false = valid_ty (ttype t).
Proof. intros R. unfold valid_type. rewrite (reads_type _ _ _ _ R). cbn. apply orb_false_r. Qed.

Lemma reads_branch h v t fp d : reads h v t fp -> entries t = Some d ->
  exists l o dv fp', v = VRef l /\ nth_error h l = Some o /\ obj_items o = Some dv /\ NoDup (keys dv) /\ reads_items h dv d fp' /\ fp = l :: fp' /\
    ((exists m, o = ONode m dv /\ t = TNode m d) \/ (o = ODict dv /\ t = TDict d)).
Proof.
  intros R E. destruct R; cbn in E; inversion E; subst.
  - exists l, (ODict d0), d0, fp. repeat split; auto.
  - exists l, (ONode m d0), d0, fp. repeat split; auto. left. eauto.
Qed.
Lemma items_of_branch h v t fp d : reads h v t fp -> entries t = Some d ->
  exists dv fp', items_of v h = (h, Done dv) /\ reads_items h dv d fp' /\ NoDup (keys dv) /\ incl fp' fp /\ (NoDup fp -> NoDup fp').
Proof.
  intros R E. destruct (reads_branch _ _ _ _ _ R E) as (l & o & dv & fp' & -> & Eo & Ed & N & RI & -> & _).
  exists dv, fp'. repeat split; auto.
  - cbn. unfold bind, load. rewrite Eo, Ed. reflexivity.
  - apply incl_tl, incl_refl.
  - intros H. inversion H; auto.
Qed.
Lemma items_of_leaf h v t fp : reads h v t fp -> entries t = None -> items_of v h = (h, Raise XAttribute).
Proof.
  intros R E. destruct R; cbn in *; try discriminate; try reflexivity.
  unfold bind, load. rewrite H. reflexivity.
Qed.

(* ---------------------------------------------------------------- mk_node *)
Definition node_step (f : nat) (kv : string * val) : M (string * val) :=
  let! isd := get (fun h => is_dict h (snd kv)) in
  if (isd : bool) then let! n := mk_node f (snd kv) false in ret (fst kv, n)
  else let! ok := get (fun h => valid_type h (snd kv) false) in assert_ ok ;;! ret kv.
Lemma mk_node_S f v nw : mk_node (S f) v nw =
  (let! d := deepcopy f v in
   let! kvs := items_of d in
   let! kvs' := mapM (node_step f) kvs in
   let! l := alloc (ONode (mkMeta false nw [] []) kvs') in ret (VRef l)).
Proof. reflexivity. Qed.

Lemma mapM_keeps {A B} (f : A -> M B) : (forall x h h' r, f x h = (h', r) -> keeps h h') ->
  forall xs h h' r, mapM f xs h = (h', r) -> keeps h h'.
Proof.
  intros Hf. induction xs as [|x xs IH]; intros h h' r E; cbn in E; [inversion E; apply keeps_refl|].
  apply bind_inv in E. destruct E as [(y & h1 & E1 & E)|(e & E1 & _)]; [|eauto].
  apply bind_inv in E. destruct E as [(z & h2 & E2 & E)|(e & E2 & _)]; [inversion E; subst|]; eapply keeps_trans; eauto.
Qed.
Lemma items_of_state v h h' r : items_of v h = (h', r) -> h' = h.
Proof.
  destruct v as [| |l]; cbn; intros E; try (inversion E; reflexivity).
  unfold bind, load in E. destruct (nth_error h l) as [o|]; [|inversion E; reflexivity].
  destruct (obj_items o); inversion E; reflexivity.
Qed.
Lemma mk_node_keeps : forall fuel v nw h h' r, mk_node fuel v nw h = (h', r) -> keeps h h'.
Proof.
  induction fuel as [|f IH]; intros v nw h h' r E; [inversion E; apply keeps_refl|]. rewrite mk_node_S in E.
  apply bind_inv in E. destruct E as [(d & h1 & E1 & E)|(e & E1 & _)]; [|eapply deepcopy_keeps; eauto].
  apply deepcopy_keeps in E1. eapply keeps_trans; [exact E1|]. clear E1.
  apply bind_inv in E. destruct E as [(kvs & h2 & E1 & E)|(e & E1 & _)]; apply items_of_state in E1; subst; [|apply keeps_refl].
  assert (K : forall x h h' r, node_step f x h = (h', r) -> keeps h h').
  { intros x a a' r' X. unfold node_step in X. apply bind_inv in X. destruct X as [(b & a1 & X1 & X)|(e & X1 & _)]; inversion X1; subst.
    destruct (is_dict a1 (snd x)).
    - apply bind_inv in X. destruct X as [(n & a2 & X2 & X)|(e & X2 & _)]; [inversion X; subst|]; eapply IH; eauto.
    - apply bind_inv in X. destruct X as [(n & a2 & X2 & X)|(e & X2 & _)]; inversion X2; subst.
      apply bind_inv in X. destruct X as [(n & a3 & X3 & X)|(e & X3 & _)]; inversion X3; subst; [inversion X; subst|]; apply keeps_refl. }
  apply bind_inv in E. destruct E as [(kvs' & h3 & E1 & E)|(e & E1 & _)]; [|eapply mapM_keeps; eauto].
  inversion E; subst. eapply keeps_trans; [eapply mapM_keeps; eauto|apply keeps_app].
Qed.

Lemma node_step_branch f k v h t fp : reads h v t fp -> branchb t = true ->
  node_step f (k, v) h = match mk_node f v false h with (h', Done n) => (h', Done (k, n)) | (h', Raise e) => (h', Raise e) end.
Proof.
  intros R E. unfold node_step. unfold bind at 1, get at 1. cbn [fst snd]. rewrite (reads_is_dict _ _ _ _ R), E. reflexivity.
Qed.
Lemma node_step_leaf f k v h t fp : reads h v t fp -> branchb t = false ->
  node_step f (k, v) h = (h, if valid_ty (ttype t) then Done (k, v) else Raise XAssertion).
Proof.
  intros R E. unfold node_step. unfold bind at 1, get at 1. cbn [fst snd]. rewrite (reads_is_dict _ _ _ _ R), E.
  unfold bind, get, assert_. rewrite (reads_valid _ _ _ _ R). destruct (valid_ty (ttype t)); reflexivity.
Qed.

Lemma mapM_node_refines f ts : 
  (forall v nw h h' r t fp, reads h v t fp -> branchb t = true -> mk_node f v nw h = (h', r) -> r <> Raise XRecursion ->
     match tcreate t with
     | Some t' => exists v' fp', r = Done v' /\ reads h' v' (with_new nw t') fp' /\ above fp' (length h) /\ (NoDup fp -> NoDup fp')
     | None => r = Raise XAssertion
     end) ->
  forall kvs fp h h' r, reads_items h kvs ts fp -> mapM (node_step f) kvs h = (h', r) -> r <> Raise XRecursion ->
     match tcreate_items ts with
     | Some ts' => exists kvs' fp', r = Done kvs' /\ reads_items h' kvs' ts' fp' /\ within fp' fp (length h) /\ (NoDup fp -> NoDup fp')
     | None => r = Raise XAssertion
     end.
Proof.
  intros IH. induction ts as [|[k t] ts IHs]; intros kvs fp h h' r R E Hr; inversion R as [|k0 v t0 fpv kvs0 ts0 fps0 Rv Rs]; subst; cbn in E.
  - inversion E; subst. cbn. exists [], []. repeat split; auto. intros l C. contradiction.
  - cbn [tcreate_items].
    assert (K1 : match tcreate1 t with
                 | Some t' => forall h1 y, node_step f (k, v) h = (h1, Done y) -> exists v' fp', y = (k, v') /\ reads h1 v' t' fp' /\
                       ((fp' = fpv) \/ above fp' (length h)) /\ (NoDup fpv -> NoDup fp')
                 | None => True end /\
                 forall h1 o, node_step f (k, v) h = (h1, o) -> keeps h h1 /\ (o <> Raise XRecursion ->
                   match tcreate1 t with Some _ => exists y, o = Done y | None => o = Raise XAssertion end)).
    { unfold tcreate1. destruct (branchb t) eqn:Eb; [rewrite (node_step_branch f k v h t fpv Rv Eb)|rewrite (node_step_leaf f k v h t fpv Rv Eb)].
      - destruct (mk_node f v false h) as [hn rn] eqn:En.
        split.
        + destruct (tcreate t) as [t'|] eqn:Et; [|exact I]. intros h1 y X. destruct rn as [n|e]; [|discriminate].
          inversion X; subst. specialize (IH v false h h1 (Done n) t fpv Rv Eb En). rewrite Et in IH.
          destruct IH as (v' & fp' & X1 & X2 & X3 & X4); [discriminate|]. inversion X1; subst. exists v', fp'. repeat split; auto.
          rewrite (tcreate_eq t (match entries t with Some d => d | None => [] end)) in Et by (destruct t; try discriminate; reflexivity).
          destruct (tcreate_items (match entries t with Some d => d | None => [] end)); [|discriminate]. inversion Et; subst. exact X2.
        + intros h1 o X. assert (KK : keeps h hn) by (eapply mk_node_keeps; eauto).
          destruct rn as [n|e]; inversion X; subst; (split; [exact KK|]); intros Ho;
          specialize (IH v false h h1 _ t fpv Rv Eb En); destruct (tcreate t).
          * eauto.
          * assert (Z : Done n = Raise XAssertion) by (apply IH; discriminate). discriminate.
          * destruct IH as (v' & fp' & X1 & _); [congruence|discriminate].
          * assert (Z : Raise (A := val) e = Raise XAssertion) by (apply IH; congruence). congruence.
      - destruct (valid_ty (ttype t)).
        + split.
          * intros h1 y X. inversion X; subst. exists v, fpv. repeat split; auto.
          * intros h1 o X. inversion X; subst. split; [apply keeps_refl|]. eauto.
        + split; [exact I|]. intros h1 o X. inversion X; subst. split; [apply keeps_refl|]. auto. }
    destruct K1 as [K1 K2].
    apply bind_inv in E. destruct E as [(y & h1 & E1 & E)|(e & E1 & E)].
    + destruct (K2 _ _ E1) as [KK K3]. specialize (K3 ltac:(discriminate)).
      destruct (tcreate1 t) as [t'|] eqn:Et; [|discriminate].
      destruct (K1 _ _ E1) as (v' & fp' & -> & R1 & D1 & N1). clear K1 K2 K3.
      assert (R' : reads_items h1 kvs0 ts fps0) by (eapply reads_items_keeps; eauto).
      apply bind_inv in E. destruct E as [(ys & h2 & E2 & E)|(e & E2 & E)].
      * specialize (IHs _ _ _ _ _ R' E2 ltac:(discriminate)). destruct (tcreate_items ts) as [ts'|]; [|discriminate].
        destruct IHs as (kvs' & fp2 & X1 & R2 & W2 & N2). inversion X1; subst ys. inversion E; subst h2 r.
        assert (K12 : keeps h1 h').
        { eapply mapM_keeps; [|exact E2]. intros x a a' r' X. unfold node_step in X.
          unfold bind at 1, get at 1 in X. destruct (is_dict a (snd x)).
          - apply bind_inv in X. destruct X as [(n & a2 & X2 & X)|(e & X2 & _)]; [inversion X; subst|]; eapply mk_node_keeps; eauto.
          - unfold bind, get, assert_ in X. destruct (valid_type a (snd x) false); inversion X; apply keeps_refl. }
        exists ((k, v') :: kvs'), (fp' ++ fp2). split; [reflexivity|]. split.
        { constructor; auto. eapply reads_keeps; eauto. }
        assert (L1 : length h <= length h1) by (apply keeps_length; exact KK).
        split.
        { intros l Hl. rewrite in_app_iff in *. destruct Hl as [Hl|Hl].
          - destruct D1 as [->|D1]; [auto|right; apply D1; auto].
          - destruct (W2 _ Hl); [auto|right; lia]. }
        { intros ND. apply NoDup_app_iff in ND. destruct ND as (A1 & A2 & A3).
          apply NoDup_app_iff. repeat split; auto. intros x Hx Hy.
          pose proof (reads_ref_lt _ _ _ _ _ R1 Hx) as Hlt.
          destruct (W2 _ Hy) as [Hy'|Hy']; [|lia].
          destruct D1 as [->|D1]; [eauto|]. specialize (D1 _ Hx).
          pose proof (reads_items_lt _ _ _ _ _ Rs Hy'). lia. }
      * inversion E; subst. specialize (IHs _ _ _ _ _ R' E2 ltac:(congruence)).
        destruct (tcreate_items ts); [|congruence]. destruct IHs as (? & ? & ? & _). discriminate.
    + inversion E; subst. destruct (K2 _ _ E1) as [KK K3]. specialize (K3 ltac:(congruence)).
      destruct (tcreate1 t); [destruct K3; discriminate|]. congruence.
Qed.

Lemma tcreate_items_keys d : forall d', tcreate_items d = Some d' -> keys d' = keys d.
Proof.
  induction d as [|[k x] d IH]; cbn; intros d' E; [inversion E; reflexivity|].
  destruct (tcreate1 x), (tcreate_items d) as [ys|]; try discriminate. inversion E; subst. cbn. f_equal. apply IH. reflexivity.
Qed.

Lemma mk_node_refines : forall fuel v nw h h' r t fp, reads h v t fp -> branchb t = true -> mk_node fuel v nw h = (h', r) ->
  r <> Raise XRecursion ->
  match tcreate t with
  | Some t' => exists v' fp', r = Done v' /\ reads h' v' (with_new nw t') fp' /\ above fp' (length h) /\ (NoDup fp -> NoDup fp')
  | None => r = Raise XAssertion
  end.
Proof.
  induction fuel as [|f IH]; intros v nw h h' r t fp R Eb E Hr; [inversion E; subst; contradiction|].
  rewrite mk_node_S in E. apply branch_entries in Eb. destruct Eb as [d Ed]. rewrite (tcreate_eq _ _ Ed).
  apply bind_inv in E. destruct E as [(c & h1 & E1 & E)|(e & E1 & E)].
  2:{ inversion E; subst. exfalso. apply Hr. f_equal. eapply deepcopy_errors; eauto. }
  pose proof (deepcopy_keeps _ _ _ _ _ E1) as K1.
  destruct (deepcopy_reads _ _ _ _ _ _ _ R E1) as (fp1 & R1 & F1 & N1).
  destruct (items_of_branch _ _ _ _ _ R1 Ed) as (dv & fp2 & E2 & R2 & ND & I2 & N2).
  rewrite (bind_eq _ _ _ _ _ E2) in E. cbv beta in E.
  apply bind_inv in E. destruct E as [(kvs' & h2 & E3 & E)|(e & E3 & E)].
  - pose proof (mapM_node_refines f d IH _ _ _ _ _ R2 E3 ltac:(discriminate)) as Q.
    destruct (tcreate_items d) as [d'|] eqn:Ec; [|discriminate].
    destruct Q as (kvs2 & fp3 & Q1 & Q2 & Q3 & Q4). inversion Q1; subst kvs2. inversion E; subst h' r.
    pose proof (keeps_length _ _ K1) as L1.
    assert (L2 : length h1 <= length h2).
    { apply keeps_length. eapply mapM_keeps; [|exact E3]. intros x a a' r' X. unfold node_step in X.
      unfold bind at 1, get at 1 in X. destruct (is_dict a (snd x)).
      - apply bind_inv in X. destruct X as [(n & a2 & X2 & X)|(e & X2 & _)]; [inversion X; subst|]; eapply mk_node_keeps; eauto.
      - unfold bind, get, assert_ in X. destruct (valid_type a (snd x) false); inversion X; apply keeps_refl. }
    exists (VRef (length h2)), (length h2 :: fp3). split; [reflexivity|]. split.
    { cbn [with_new]. econstructor; [apply nth_app_new| |eapply reads_items_keeps; [apply keeps_app|exact Q2]].
      rewrite (reads_keys _ _ _ _ Q2). rewrite (tcreate_items_keys _ _ Ec). rewrite <- (reads_keys _ _ _ _ R2). exact ND. }
    split.
    { intros l [<-|Hl]; [lia|]. destruct (Q3 _ Hl) as [Hl'|Hl']; [|lia]. apply F1, I2, Hl'. }
    { intros H. constructor; [|apply Q4, N2, N1, H]. intros C. apply (reads_items_lt _ _ _ _ _ Q2) in C. lia. }
  - inversion E; subst.
    pose proof (mapM_node_refines f d IH _ _ _ _ _ R2 E3 ltac:(congruence)) as Q.
    destruct (tcreate_items d); [|congruence]. destruct Q as (? & ? & ? & _). discriminate.
Qed.

Lemma mk_node_leaf fuel v nw h h' r t fp : reads h v t fp -> branchb t = false -> mk_node fuel v nw h = (h', r) ->
  r <> Raise XRecursion -> r = Raise XAttribute.
Proof.
  destruct fuel as [|f]; intros R Eb E Hr; [inversion E; subst; contradiction|]. rewrite mk_node_S in E.
  apply bind_inv in E. destruct E as [(c & h1 & E1 & E)|(e & E1 & E)].
  2:{ inversion E; subst. exfalso. apply Hr. f_equal. eapply deepcopy_errors; eauto. }
  destruct (deepcopy_reads _ _ _ _ _ _ _ R E1) as (fp1 & R1 & _).
  rewrite (bind_err _ _ _ _ _ (items_of_leaf _ _ _ _ R1 (proj1 (not_branch_entries t) Eb))) in E.
  inversion E. reflexivity.
Qed.

(* enough fuel *)
Lemma tcreate_depth t d : entries t = Some d -> forall k x, In (k, x) d -> tdepth x < tdepth t.
Proof. destruct t; cbn [entries]; intros E; inversion E; subst; intros k x; [apply tdepth_dict|apply tdepth_node]. Qed.

Lemma mapM_fuel {A B} (f : A -> M B) (P : heap -> A -> Prop) :
  (forall h h' x, keeps h h' -> P h x -> P h' x) ->
  (forall x h h' r, f x h = (h', r) -> keeps h h') ->
  (forall x h h' r, P h x -> f x h = (h', r) -> r <> Raise XRecursion) ->
  forall xs h h' r, Forall (P h) xs -> mapM f xs h = (h', r) -> r <> Raise XRecursion.
Proof.
  intros HP HK Hf. induction xs as [|x xs IH]; intros h h' r HF E; cbn in E; [inversion E; discriminate|].
  inversion HF; subst. apply bind_inv in E. destruct E as [(y & h1 & E1 & E)|(e & E1 & E)].
  - apply bind_inv in E. destruct E as [(z & h2 & E2 & E)|(e & E2 & E)]; [inversion E; discriminate|].
    subst. intros C. inversion C; subst. eapply IH; [|exact E2|reflexivity]. eapply Forall_impl; [|exact H2]. intros a. apply HP. eapply HK; eauto.
  - subst. intros C. inversion C; subst. eapply Hf; eauto.
Qed.

Lemma node_step_keeps f x h h' r : node_step f x h = (h', r) -> keeps h h'.
Proof.
  intros X. unfold node_step in X. unfold bind at 1, get at 1 in X. destruct (is_dict h (snd x)).
  - apply bind_inv in X. destruct X as [(n & a2 & X2 & X)|(e & X2 & _)]; [inversion X; subst|]; eapply mk_node_keeps; eauto.
  - unfold bind, get, assert_ in X. destruct (valid_type h (snd x) false); inversion X; apply keeps_refl.
Qed.

Lemma mk_node_fuel : forall fuel v nw h h' r t fp, reads h v t fp -> tdepth t < fuel -> mk_node fuel v nw h = (h', r) -> r <> Raise XRecursion.
Proof.
  induction fuel as [|f IH]; intros v nw h h' r t fp R Hd E; [lia|]. rewrite mk_node_S in E.
  destruct (deepcopy_total f v h t fp R) as (h1 & c & E1); [lia|].
  rewrite (bind_eq _ _ _ _ _ E1) in E. cbv beta in E.
  destruct (deepcopy_reads _ _ _ _ _ _ _ R E1) as (fp1 & R1 & _).
  destruct (entries t) as [d|] eqn:Ed.
  - destruct (items_of_branch _ _ _ _ _ R1 Ed) as (dv & fp2 & E2 & R2 & ND & I2 & N2).
    rewrite (bind_eq _ _ _ _ _ E2) in E. cbv beta in E.
    assert (X : forall h2 q, mapM (node_step f) dv h1 = (h2, q) -> q <> Raise XRecursion).
    { intros h2 q. apply (mapM_fuel _ (fun h kv => exists t fp, reads h (snd kv) t fp /\ tdepth t < f)).
      - intros a b x K (t0 & fp0 & A & B). exists t0, fp0. split; auto. eapply reads_keeps; eauto.
      - intros x a a' o. apply node_step_keeps.
      - intros [k x] a a' o (t0 & fp0 & A & B) Y. cbn [snd] in A. destruct (branchb t0) eqn:Eb.
        + rewrite (node_step_branch _ _ _ _ _ _ A Eb) in Y. destruct (mk_node f x false a) as [hn [n|e]] eqn:En; injection Y as _ <-; [discriminate|].
          specialize (IH _ _ _ _ _ _ _ A B En). congruence.
        + rewrite (node_step_leaf _ _ _ _ _ _ A Eb) in Y. destruct (valid_ty (ttype t0)); injection Y as _ <-; discriminate.
      - assert (D : forall k x, In (k, x) d -> tdepth x < f).
        { intros k x Hx. pose proof (tcreate_depth _ _ Ed _ _ Hx). lia. }
        clear -R2 D. induction R2; constructor.
        + cbn. exists t, fp. split; auto. apply (D k). cbn. auto.
        + apply IHR2. intros k' x Hx. apply (D k'). cbn. auto. }
    apply bind_inv in E. destruct E as [(kvs' & h2 & E3 & E)|(e & E3 & E)].
    + inversion E. discriminate.
    + subst. intros C. inversion C; subst. apply X in E3. congruence.
  - rewrite (bind_err _ _ _ _ _ (items_of_leaf _ _ _ _ R1 Ed)) in E. inversion E. discriminate.
Qed.

(* ---------------------------------------------------------------- dset on items *)
Lemma reads_items_dset h d ts fp k v t fpv : reads_items h d ts fp -> reads h v t fpv ->
  exists fp', reads_items h (dset d k v) (dset ts k t) fp' /\ incl fp' (fp ++ fpv) /\ (NoDup (fp ++ fpv) -> NoDup fp').
Proof.
  intros R Rv. destruct (dget d k) as [w|] eqn:E.
  - destruct (reads_items_split _ _ _ _ _ _ R E) as (d1 & d2 & ts1 & ts2 & t0 & fp1 & fpk & fp2 & -> & -> & -> & R1 & R0 & R2 & N1 & N2).
    rewrite !dset_split by auto. exists (fp1 ++ fpv ++ fp2). split.
    { apply reads_items_app; auto. constructor; auto. }
    split.
    { intros l Hl. rewrite !in_app_iff in *. tauto. }
    { intros H. apply NoDup_app_iff in H. destruct H as (A & B & C). apply NoDup_app_iff in A. destruct A as (A1 & A2 & A3).
      apply NoDup_app_iff in A2. destruct A2 as (A4 & A5 & A6).
      apply NoDup_app_iff. repeat split; auto.
      - apply NoDup_app_iff. repeat split; auto. intros x Hx Hy. apply (C x); auto. rewrite !in_app_iff. auto.
      - intros x Hx Hy. rewrite in_app_iff in Hy. destruct Hy as [Hy|Hy].
        + apply (C x); auto. rewrite !in_app_iff. auto.
        + apply (A3 x); auto. rewrite in_app_iff. auto. }
  - pose proof (proj1 (dget_none d k) E) as N1. assert (N2 : ~ In k (keys ts)) by (rewrite <- (reads_keys _ _ _ _ R); exact N1).
    rewrite !dset_keys_out by auto. exists (fp ++ fpv). split; [|split; [apply incl_refl|auto]].
    replace (fp ++ fpv) with (fp ++ fpv ++ []) by (rewrite app_nil_r; reflexivity).
    apply reads_items_app; auto. constructor; auto. constructor.
Qed.

Lemma reads_dict_of h : forall kvs ts fp, reads_items h kvs ts fp ->
  exists fp', reads_items h (dict_of kvs) (dict_of ts) fp' /\ incl fp' fp /\ (NoDup fp -> NoDup fp').
Proof.
  intros kvs ts fp R. unfold dict_of.
  assert (G : forall d dt fp0, reads_items h d dt fp0 ->
     exists fp', reads_items h (fold_left (fun d kv => dset d (fst kv) (snd kv)) kvs d) (fold_left (fun d kv => dset d (fst kv) (snd kv)) ts dt) fp' /\
       incl fp' (fp0 ++ fp) /\ (NoDup (fp0 ++ fp) -> NoDup fp')).
  { induction R as [|k v t fpv d' ts' fps Rv Rs IH]; intros d dt fp0 R0; cbn.
    - exists fp0. rewrite app_nil_r. repeat split; auto. apply incl_refl.
    - destruct (reads_items_dset _ _ _ _ k _ _ _ R0 Rv) as (fp1 & R1 & I1 & N1).
      destruct (IH _ _ _ R1) as (fp2 & R2 & I2 & N2). exists fp2. split; [exact R2|]. split.
      + intros l Hl. apply I2 in Hl. rewrite !in_app_iff in *. destruct Hl as [Hl|Hl]; [|auto].
        apply I1 in Hl. rewrite in_app_iff in Hl. tauto.
      + intros H. rewrite app_assoc in H. apply NoDup_app_iff in H. destruct H as (A & B & C).
        apply N2. apply NoDup_app_iff. repeat split; auto. intros x Hx. apply C. apply I1 in Hx. exact Hx. }
  destruct (G [] [] [] ltac:(constructor)) as (fp' & A & B & C). exists fp'. auto.
Qed.

(* ---------------------------------------------------------------- literals *)
Section LitInd.
  Variable P : lit -> Prop.
  Hypothesis Ha : forall a, P (LAtom a).
  Hypothesis Ht : forall l, Forall P l -> P (LTup l).
  Hypothesis Hl : forall l, Forall P l -> P (LList l).
  Hypothesis Hd : forall d, Forall (fun kv => P (snd kv)) d -> P (LDict d).
  Fixpoint lit_ind' (t : lit) : P t :=
    match t with
    | LAtom a => Ha a
    | LTup l => Ht l ((fix go l : Forall P l := match l with [] => Forall_nil _ | x :: r => Forall_cons _ (lit_ind' x) (go r) end) l)
    | LList l => Hl l ((fix go l : Forall P l := match l with [] => Forall_nil _ | x :: r => Forall_cons _ (lit_ind' x) (go r) end) l)
    | LDict d => Hd d ((fix go d : Forall (fun kv => P (snd kv)) d :=
        match d with [] => Forall_nil _ | kv :: r => Forall_cons _ (lit_ind' (snd kv)) (go r) end) d)
    end.
End LitInd.

Definition alloc_lits : list lit -> M (list val) := fix go l := match l with [] => ret [] | x :: r => let! y := alloc_lit x in let! ys := go r in ret (y :: ys) end.
Definition alloc_kvs : list (string * lit) -> M items := fix go d := match d with [] => ret [] | (k, x) :: r => let! y := alloc_lit x in let! ys := go r in ret ((k, y) :: ys) end.
Definition lit_kvs : list (string * lit) -> list (string * tree) := fix go d := match d with [] => [] | (k, x) :: r => (k, tree_of_lit x) :: go r end.

Lemma alloc_lit_ok t : forall h, exists h' v fp, alloc_lit t h = (h', Done v) /\ keeps h h' /\ reads h' v (tree_of_lit t) fp /\
  above fp (length h) /\ NoDup fp.
Proof.
  assert (Ls : forall l, Forall (fun t => forall h, exists h' v fp, alloc_lit t h = (h', Done v) /\ keeps h h' /\ reads h' v (tree_of_lit t) fp /\
      above fp (length h) /\ NoDup fp) l ->
    forall h, exists h' vs fp, alloc_lits l h = (h', Done vs) /\ keeps h h' /\ reads_all h' vs (map tree_of_lit l) fp /\ above fp (length h) /\ NoDup fp).
  { induction 1 as [|x l Hx Hl IH]; intros h; cbn.
    - exists h, [], []. repeat split; try constructor; try apply keeps_refl. intros l C. contradiction.
    - destruct (Hx h) as (h1 & v & fp & E1 & K1 & R1 & A1 & N1). rewrite (bind_eq _ _ _ _ _ E1). cbv beta.
      destruct (IH h1) as (h2 & vs & fps & E2 & K2 & R2 & A2 & N2). rewrite (bind_eq _ _ _ _ _ E2). cbv beta.
      exists h2, (v :: vs), (fp ++ fps). split; [reflexivity|]. split; [eapply keeps_trans; eauto|].
      split; [constructor; auto; eapply reads_keeps; eauto|]. pose proof (keeps_length _ _ K1).
      split; [intros i Hi; rewrite in_app_iff in Hi; destruct Hi as [Hi|Hi]; [auto|specialize (A2 _ Hi); lia]|].
      apply NoDup_app_iff. repeat split; auto. intros i Hi Hj. apply (reads_ref_lt _ _ _ _ _ R1) in Hi. specialize (A2 _ Hj). lia. }
  assert (Ds : forall l, Forall (fun kv => forall h, exists h' v fp, alloc_lit (snd kv) h = (h', Done v) /\ keeps h h' /\ reads h' v (tree_of_lit (snd kv)) fp /\
      above fp (length h) /\ NoDup fp) l ->
    forall h, exists h' vs fp, alloc_kvs l h = (h', Done vs) /\ keeps h h' /\ reads_items h' vs (lit_kvs l) fp /\ above fp (length h) /\ NoDup fp).
  { induction 1 as [|[k x] l Hx Hl IH]; intros h; cbn.
    - exists h, [], []. repeat split; try constructor; try apply keeps_refl. intros l C. contradiction.
    - cbn [snd] in Hx. destruct (Hx h) as (h1 & v & fp & E1 & K1 & R1 & A1 & N1). rewrite (bind_eq _ _ _ _ _ E1). cbv beta.
      destruct (IH h1) as (h2 & vs & fps & E2 & K2 & R2 & A2 & N2). rewrite (bind_eq _ _ _ _ _ E2). cbv beta.
      exists h2, ((k, v) :: vs), (fp ++ fps). split; [reflexivity|]. split; [eapply keeps_trans; eauto|].
      split; [constructor; auto; eapply reads_keeps; eauto|]. pose proof (keeps_length _ _ K1).
      split; [intros i Hi; rewrite in_app_iff in Hi; destruct Hi as [Hi|Hi]; [auto|specialize (A2 _ Hi); lia]|].
      apply NoDup_app_iff. repeat split; auto. intros i Hi Hj. apply (reads_ref_lt _ _ _ _ _ R1) in Hi. specialize (A2 _ Hj). lia. }
  induction t using lit_ind'; intros h; cbn [alloc_lit tree_of_lit].
  - exists h, (VAtom a), []. repeat split; try constructor; try apply keeps_refl. intros l C. contradiction.
  - fold alloc_lits. destruct (Ls l H h) as (h1 & vs & fp & E & K & R & A & N). rewrite (bind_eq _ _ _ _ _ E).
    exists h1, (VTup vs), fp. repeat split; auto. constructor. exact R.
  - fold alloc_lits. destruct (Ls l H h) as (h1 & vs & fp & E & K & R & A & N). rewrite (bind_eq _ _ _ _ _ E).
    exists (h1 ++ [OList vs]), (VRef (length h1)), fp. repeat split; auto.
    + eapply keeps_trans; [exact K|apply keeps_app].
    + econstructor; [apply nth_app_new|]. eapply reads_all_keeps; [apply keeps_app|exact R].
  - fold alloc_kvs. fold lit_kvs. destruct (Ds d H h) as (h1 & vs & fp & E & K & R & A & N). rewrite (bind_eq _ _ _ _ _ E).
    destruct (reads_dict_of _ _ _ _ R) as (fp' & R' & I' & N').
    exists (h1 ++ [ODict (dict_of vs)]), (VRef (length h1)), (length h1 :: fp'). split; [reflexivity|].
    split; [eapply keeps_trans; [exact K|apply keeps_app]|].
    split; [econstructor; [apply nth_app_new|apply dict_of_nodup|]; eapply reads_items_keeps; [apply keeps_app|exact R']|].
    split.
    + intros l [<-|Hl]; [apply keeps_length, K|]. apply A, I', Hl.
    + constructor; [|auto]. intros C. apply (reads_items_lt _ _ _ _ _ R') in C. lia.
Qed.
