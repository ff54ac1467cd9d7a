(* Merging seen from the paths of the configuration. *)
From Coq Require Import ZArith String Ascii List Bool Arith Lia.
From Verif Require Import ConfigModel ConfigSpec ConfigHeap ConfigCopy ConfigTree ConfigMerge.
Import ListNotations.
Local Open Scope list_scope.
Local Open Scope nat_scope.

Definition keys_distinct (t : tree) : Prop := forall p c d, at_path t p = Some c -> entries c = Some d -> NoDup (keys d).

Lemma at_path_app t p q : at_path t (p ++ q) = match at_path t p with Some c => at_path c q | None => None end.
Proof.
  revert t. induction p as [|k p IH]; intros t; cbn; [reflexivity|]. destruct (entries t) as [d|]; [|reflexivity].
  destruct (dget d k); auto.
Qed.
Lemma at_path_cons t d k p : entries t = Some d -> at_path t (k :: p) = match dget d k with Some c => at_path c p | None => None end.
Proof. intros E. cbn. rewrite E. reflexivity. Qed.
Lemma at_path_leaf t p c : entries t = None -> at_path t p = Some c -> p = [] /\ c = t.
Proof. destruct p; cbn; intros E; [intros X; inversion X; auto|rewrite E; discriminate]. Qed.
Lemma keys_distinct_child t d k c : keys_distinct t -> entries t = Some d -> dget d k = Some c -> keys_distinct c.
Proof. intros H E D p x e A B. apply (H (k :: p) x e); auto. cbn. rewrite E, D. exact A. Qed.
Lemma keys_distinct_here t d : keys_distinct t -> entries t = Some d -> NoDup (keys d).
Proof. intros H E. apply (H [] t d eq_refl E). Qed.
Lemma no_plain_dict_child t d k c : no_plain_dict t -> entries t = Some d -> dget d k = Some c -> no_plain_dict c.
Proof. intros H E D p x A. apply (H (k :: p) x). cbn. rewrite E, D. exact A. Qed.

Lemma reads_distinct_all h :
  (forall v t fp, reads h v t fp -> keys_distinct t) /\
  (forall vs ts fp, reads_all h vs ts fp -> True) /\
  (forall d ts fp, reads_items h d ts fp -> forall k c, dget ts k = Some c -> keys_distinct c).
Proof.
  assert (Leaf : forall t, entries t = None -> keys_distinct t).
  { intros t E p c d A B. apply at_path_leaf in A; [|exact E]. destruct A as [_ ->]. congruence. }
  assert (Branch : forall t ts, entries t = Some ts -> NoDup (keys ts) -> (forall k c, dget ts k = Some c -> keys_distinct c) -> keys_distinct t).
  { intros t ts E N H p c d' A B. destruct p as [|k p].
    - cbn in A. inversion A; subst. congruence.
    - rewrite (at_path_cons _ _ _ _ E) in A. destruct (dget ts k) as [x|] eqn:Ex; [|discriminate]. eapply H; eauto. }
  apply reads_ind3; try solve [auto].
  - intros l d ts fp E N R IH. apply (Branch _ ts); auto. rewrite <- (reads_keys _ _ _ _ R). exact N.
  - intros l m d ts fp E N R IH. apply (Branch _ ts); auto. rewrite <- (reads_keys _ _ _ _ R). exact N.
  - cbn. discriminate.
  - intros k v t fp d ts fps R IH Rs IHs k' c E. cbn in E. destruct (String.eqb k k'); [inversion E; subst; exact IH|eauto].
Qed.
Lemma reads_distinct h v t fp : reads h v t fp -> keys_distinct t.
Proof. apply (reads_distinct_all h). Qed.

Section Merge.
Variable literal_eval : string -> out lit.
Variable rm : meta.
Notation tdecode := (tdecode literal_eval).
Notation tmerge := (tmerge literal_eval rm).
Notation tmerge_items := (tmerge_items literal_eval rm).
Notation missing_key := (missing_key rm).

Definition kstep (mb : meta) (ks : list string) (k : string) (v : tree) (cur : option tree) : option tree * out unit :=
  match tdecode v with
  | Raise e => (cur, Raise e)
  | Done v' =>
      match cur with
      | Some bk =>
          match tcoerce v' bk with
          | Raise e => (cur, Raise e)
          | Done w => if nodeb w then (Some (fst (tmerge v bk (ks ++ [k]))), snd (tmerge v bk (ks ++ [k]))) else (Some w, Done tt)
          end
      | None => if m_new mb then (Some v', Done tt) else missing_key (join (ks ++ [k])) None
      end
  end.

Lemma missing_fst {A} full (x : A) : fst (missing_key full x) = x.
Proof. unfold ConfigMerge.missing_key. destruct (has _ _); [reflexivity|]. destruct (dget _ _) as [[]|]; reflexivity. Qed.
Lemma missing_snd {A B} full (x : A) (y : B) : snd (missing_key full x) = snd (missing_key full y).
Proof. unfold ConfigMerge.missing_key. destruct (has _ _); [reflexivity|]. destruct (dget _ _) as [[]|]; reflexivity. Qed.

Lemma tstep_kstep mb ks k v db db1 r : tstep literal_eval rm (tmerge v) mb ks k v db = (db1, r) ->
  kstep mb ks k v (dget db k) = (dget db1 k, r) /\ (forall k', k' <> k -> dget db1 k' = dget db k') /\
  (keys db1 = keys db \/ dget db k = None /\ m_new mb = true /\ keys db1 = keys db ++ [k]).
Proof.
  intros E. unfold tstep in E. unfold kstep.
  assert (S : forall w, dget db k <> None -> (forall k', k' <> k -> dget (dset db k w) k' = dget db k') /\ keys (dset db k w) = keys db).
  { intros w H. split; [intros; apply dset_other; auto|]. apply dset_keys_in. destruct (dget db k) as [x|] eqn:Ex; [|contradiction].
    apply dget_in in Ex. apply (in_map fst) in Ex. exact Ex. }
  destruct (tdecode v) as [v'|e]; [|inversion E; subst; auto].
  destruct (dget db k) as [bk|] eqn:Ek.
  - destruct (tcoerce v' bk) as [w|e]; [|inversion E; subst; rewrite Ek; auto].
    destruct (nodeb w); inversion E; subst; rewrite dset_same.
    + destruct (S (fst (tmerge v bk (ks ++ [k]))) ltac:(discriminate)). auto.
    + destruct (S w ltac:(discriminate)). auto.
  - destruct (m_new mb).
    + inversion E; subst. rewrite dset_same. split; [reflexivity|]. split; [intros; apply dset_other; auto|].
      right. repeat split; auto. rewrite dset_keys_out by (apply dget_none; auto). apply keys_app.
    + pose proof (missing_fst (join (ks ++ [k])) db) as F. rewrite E in F. cbn in F. subst db1.
      pose proof (missing_snd (join (ks ++ [k])) db (@None tree)) as Q. rewrite E in Q. cbn in Q. subst r. rewrite Ek.
      split; [|auto]. pose proof (missing_fst (join (ks ++ [k])) (@None tree)) as F. destruct (missing_key (join (ks ++ [k])) None); cbn in *; congruence.
Qed.

Lemma tmerge_items_spec mb ks : forall da db db' r, NoDup (keys da) -> tmerge_items mb ks da db = (db', r) ->
  (forall k, dget da k = None -> dget db' k = dget db k) /\
  (exists extra, keys db' = keys db ++ extra /\ (m_new mb = false -> extra = []) /\
     (forall k, In k extra -> In k (keys da) /\ dget db k = None) /\
     (r = Done tt -> m_new mb = true -> extra = filter (fun k => negb (dhas db k)) (keys da))) /\
  (r = Done tt -> forall k v, dget da k = Some v -> kstep mb ks k v (dget db k) = (dget db' k, Done tt)) /\
  (forall e, r = Raise e -> exists da1 k v da2, da = da1 ++ (k, v) :: da2 /\
     (forall k v, dget da1 k = Some v -> kstep mb ks k v (dget db k) = (dget db' k, Done tt)) /\
     kstep mb ks k v (dget db k) = (dget db' k, Raise e) /\
     (forall k v, dget da2 k = Some v -> dget db' k = dget db k)).
Proof.
  induction da as [|[k v] da IH]; intros db db' r ND E; cbn [ConfigMerge.tmerge_items] in E.
  - inversion E; subst. split; [auto|]. split.
    { exists []. rewrite app_nil_r. repeat split; auto; contradiction. }
    split; [discriminate|]. discriminate.
  - inversion ND as [|? ? N1 N2]; subst. cbn [fst] in N1. 
    destruct (tstep literal_eval rm (tmerge v) mb ks k v db) as [db1 r1] eqn:E1.
    destruct (tstep_kstep _ _ _ _ _ _ _ E1) as (K1 & K2 & K3).
    assert (Nk : dget da k = None) by (apply dget_none; auto).
    destruct r1 as [u|e1].
    + destruct u. destruct (IH _ _ _ N2 E) as (I1 & (ex & I2 & I3 & I4 & I5) & I6 & I7).
      assert (Far : forall k', k' <> k -> dget db1 k' = dget db k') by auto.
      assert (Nin : forall k' v', dget da k' = Some v' -> k' <> k) by (intros k' v' H ->; congruence).
      assert (Same : dget db' k = dget db1 k) by (apply I1; auto).
      split. { intros k' H. cbn in H. destruct (String.eqb_spec k k'); [discriminate|]. rewrite (I1 _ H). apply K2. congruence. }
      split.
      { destruct K3 as [K3|(K3 & K4 & K5)].
        - exists ex. rewrite I2, K3. split; [reflexivity|]. split; [exact I3|]. split.
          + intros k' H. destruct (I4 _ H) as [H1 H2]. split; [cbn; auto|].
            rewrite <- K2; [exact H2|]. intros ->. contradiction.
          + intros Hr Hm. rewrite (I5 Hr Hm). cbn [keys map fst filter].
            assert (dhas db k = true) as ->.
            { apply dhas_get. unfold kstep in K1. destruct (tdecode v) as [v'|]; [|discriminate].
              destruct (dget db k) as [x|] eqn:Ex; [eauto|]. rewrite Hm in K1. inversion K1 as [Y].
              symmetry in Y. apply dget_in in Y. apply (in_map fst) in Y. cbn in Y. change (In k (keys db1)) in Y. rewrite K3 in Y.
              apply dget_none in Ex. contradiction. }
            cbn [negb]. apply filter_ext_in. intros k' Hk'. unfold dhas. rewrite K2; [reflexivity|]. intros ->. contradiction.
        - exists (k :: ex). rewrite I2, K5, <- app_assoc. split; [reflexivity|]. split; [congruence|]. split.
          + intros k' [<-|H]; [cbn; auto|]. destruct (I4 _ H) as [H1 H2]. split; [cbn; auto|].
            rewrite <- K2; [exact H2|]. intros ->. contradiction.
          + intros Hr Hm. rewrite (I5 Hr Hm). cbn [keys map fst filter]. assert (dhas db k = false) as -> by (unfold dhas; rewrite K3; reflexivity).
            cbn [negb]. f_equal. apply filter_ext_in. intros k' Hk'. unfold dhas. rewrite K2; [reflexivity|]. intros ->. contradiction. }
      split.
      { intros Hr k' v' H. cbn in H. destruct (String.eqb_spec k k') as [->|Hn].
        - inversion H; subst. rewrite Same. exact K1.
        - rewrite <- K2 by congruence. apply I6; auto. }
      intros e Hr. destruct (I7 e Hr) as (da1 & k2 & v2 & da2 & -> & J1 & J2 & J3).
      exists ((k, v) :: da1), k2, v2, da2. split; [reflexivity|].
      assert (Hk2 : k2 <> k). { intros ->. apply N1. unfold keys. rewrite map_app. apply in_app_iff. right. cbn. auto. }
      split.
      { intros k' v' H. cbn in H. destruct (String.eqb_spec k k') as [->|Hn].
        - inversion H; subst. rewrite Same. exact K1.
        - rewrite <- K2 by congruence. apply J1; auto. }
      split. { rewrite <- K2 by congruence. exact J2. }
      intros k' v' H. rewrite (J3 _ _ H). apply K2. intros ->. apply N1. unfold keys. rewrite map_app. apply in_app_iff. right. cbn. right.
      apply dget_in in H. apply (in_map fst) in H. exact H.
    + inversion E; subst. split.
      { intros k' H. cbn in H. destruct (String.eqb_spec k k'); [discriminate|]. apply K2. congruence. }
      split.
      { destruct K3 as [K3|(K3 & K4 & K5)].
        - exists []. rewrite app_nil_r. repeat split; auto; try contradiction. discriminate.
        - exists [k]. split; [exact K5|]. split; [congruence|]. split; [|discriminate]. intros k' [<-|[]]. cbn; auto. }
      split; [discriminate|]. intros e He. inversion He; subst. exists [], k, v, da. repeat split; auto; [discriminate|].
      intros k' v' H. apply K2. intros ->. congruence.
Qed.

Lemma tdecode_branch x v' : branchb x = true -> tdecode x = Done v' -> tcreate x = Some v'.
Proof. unfold ConfigMerge.tdecode. intros ->. destruct (tcreate x); intros E; inversion E; reflexivity. Qed.
Lemma tdecode_decodes x v' : branchb x = false -> tdecode x = Done v' -> decodes literal_eval x v'.
Proof.
  intros Eb. assert (Nb : ~ is_branch x) by (intros H; apply H, not_branch_entries, Eb).
  unfold ConfigMerge.tdecode. rewrite Eb.
  assert (O : ttype x <> TyStr -> Done x = Done v' -> decodes literal_eval x v') by (intros H E; inversion E; subst; constructor; auto).
  destruct x as [a| | | |]; try (apply O; discriminate).
  destruct a; try (apply O; discriminate).
  destruct (literal_eval s) as [l|e] eqn:El; [intros E; inversion E; subst; constructor; auto|].
  destruct e; intros E; inversion E; subst; econstructor; eauto.
Qed.
Lemma ty_eqb_eq x y : ty_eqb x y = true <-> x = y.
Proof. unfold ty_eqb. destruct (ty_eq_dec x y); split; congruence. Qed.
Lemma tcoerce_cast t o w : tcoerce t o = Done w -> cast (ttype o) t w.
Proof.
  unfold tcoerce. destruct (ty_eqb (ttype t) (ttype o)) eqn:Et; [intros E; inversion E; subst; constructor; apply ty_eqb_eq; auto|].
  destruct t, o; intros E; inversion E; subst; constructor; reflexivity.
Qed.
Lemma cast_type target t w : cast target t w -> ttype w = target.
Proof. destruct 1; subst; reflexivity || auto. Qed.
Lemma nodeb_type t : nodeb t = true <-> ttype t = TyNode.
Proof. destruct t as [[]| | | |]; cbn; split; congruence. Qed.
Lemma cast_node target t w : cast target t w -> nodeb t = nodeb w.
Proof. destruct 1; reflexivity. Qed.
Lemma leaf_path t p : branchb t = false -> at_path t p <> None -> p = [].
Proof. intros E H. destruct p as [|k p]; [reflexivity|]. cbn in H. apply not_branch_entries in E. rewrite E in H. contradiction. Qed.

Lemma kstep_some mb ks k v bk cur r : kstep mb ks k v (Some bk) = (cur, r) ->
  (exists e, cur = Some bk /\ r = Raise e) \/
  (exists v' w, branchb v = false /\ decodes literal_eval v v' /\ cast (ttype bk) v' w /\ nodeb w = false /\ nodeb bk = false /\ cur = Some w /\ r = Done tt) \/
  (branchb v = true /\ nodeb bk = true /\ exists bk', cur = Some bk' /\ tmerge v bk (ks ++ [k]) = (bk', r)).
Proof.
  unfold kstep. intros E. destruct (tdecode v) as [v'|e] eqn:Ed; [|inversion E; subst; left; eauto].
  destruct (tcoerce v' bk) as [w|e] eqn:Ec; [|inversion E; subst; left; eauto].
  pose proof (tcoerce_cast _ _ _ Ec) as C. pose proof (cast_type _ _ _ C) as T. pose proof (cast_node _ _ _ C) as N.
  assert (Nb : nodeb w = nodeb bk).
  { destruct (nodeb w) eqn:E1, (nodeb bk) eqn:E2; auto; [apply nodeb_type in E1; assert (nodeb bk = true) by (apply nodeb_type; congruence)|
     apply nodeb_type in E2; assert (nodeb w = true) by (apply nodeb_type; congruence)]; congruence. }
  destruct (branchb v) eqn:Eb.
  - assert (Hn : nodeb v' = true) by (eapply tcreate_node, tdecode_branch; eauto).
    rewrite <- N, Hn in E. inversion E; subst. right. right. split; [auto|]. split; [congruence|].
    eexists. split; [reflexivity|]. destruct (tmerge v bk (ks ++ [k])); reflexivity.
  - pose proof (tdecode_leaf _ _ _ Eb Ed) as Hn. rewrite <- N, Hn in E. inversion E; subst. right. left.
    exists v', w. repeat split; try congruence. apply tdecode_decodes; auto.
Qed.

Lemma tmerge_node a da mb db ks b' r : entries a = Some da -> tmerge a (TNode mb db) ks = (b', r) ->
  exists db', b' = TNode mb db' /\ tmerge_items mb ks da db = (db', r).
Proof.
  intros E T. rewrite (tmerge_eq _ _ _ da) in T by exact E. inversion T; subst. eexists. split; [reflexivity|].
  destruct (tmerge_items mb ks da db); reflexivity.
Qed.

Lemma existing mb ks da db db' r : NoDup (keys da) -> tmerge_items mb ks da db = (db', r) -> forall k bk, dget db k = Some bk ->
  (dget db' k = Some bk /\ (r = Done tt -> dget da k = None)) \/
  exists v r', dget da k = Some v /\ kstep mb ks k v (Some bk) = (dget db' k, r') /\ (r = Done tt -> r' = Done tt).
Proof.
  intros ND E k bk Hk. destruct (tmerge_items_spec _ _ _ _ _ _ ND E) as (I1 & I2 & I3 & I4).
  destruct (dget da k) as [v|] eqn:Ev; [|left; rewrite I1; auto].
  destruct r as [[]|e].
  - right. exists v, (Done tt). repeat split; auto. rewrite <- Hk. apply I3; auto.
  - destruct (I4 e eq_refl) as (da1 & k1 & v1 & da2 & -> & J1 & J2 & J3).
    destruct (String.eqb_spec k k1) as [->|Hn].
    + right. exists v1, (Raise e). rewrite dget_split in Ev; [|unfold keys in ND; rewrite map_app in ND; apply NoDup_app_iff in ND; destruct ND as (N1 & N2 & N3); intros C; apply (N3 _ C); cbn; auto].
      inversion Ev; subst. repeat split; try discriminate. rewrite <- Hk. exact J2.
    + destruct (dget da1 k) as [x|] eqn:E1.
      * right. assert (x = v). { clear -E1 Ev. induction da1 as [|[k' y] d IH]; cbn in *; [discriminate|]. destruct (String.eqb k' k); [congruence|auto]. }
        subst. exists v, (Done tt). repeat split; auto. rewrite <- Hk. apply J1; auto.
      * left. split; [|discriminate]. rewrite <- Hk. apply (J3 k v).
        clear -E1 Ev Hn. induction da1 as [|[k' y] d IH]; cbn in *.
        -- destruct (String.eqb_spec k1 k); congruence.
        -- destruct (String.eqb k' k); [discriminate|auto].
Qed.

(* what every merge preserves, whether it succeeds or raises *)
Definition preserved (a b b' : tree) (r : out unit) : Prop :=
  (forall p t, at_path b p = Some t -> exists t', at_path b' p = Some t' /\ ttype t' = ttype t) /\
  (forall p t, at_path b p = Some t -> at_path a p = None -> at_path b' p = Some t) /\
  (forall q mq dq, at_path b q = Some (TNode mq dq) -> exists dq' extra, at_path b' q = Some (TNode mq dq') /\ keys dq' = keys dq ++ extra /\
     (m_new mq = false -> extra = []) /\ (forall k, In k extra -> at_path a (q ++ [k]) <> None) /\
     (r = Done tt -> m_new mq = true -> forall c da, at_path a q = Some c -> entries c = Some da ->
        extra = filter (fun k => negb (dhas dq k)) (keys da))).

Lemma preserved_same a b r : (r = Done tt -> False) -> preserved a b b r.
Proof.
  intros Hr. split; [eauto|]. split; [auto|]. intros q mq dq E. exists dq, []. rewrite app_nil_r. repeat split; auto; contradiction.
Qed.

Lemma tmerge_preserved : forall a b ks b' r, keys_distinct a -> no_plain_dict b -> branchb a = true -> nodeb b = true -> tmerge a b ks = (b', r) -> preserved a b b' r.
Proof.
  assert (G : forall a da, entries a = Some da -> Forall (fun kv : string * tree => forall b ks b' r, keys_distinct (snd kv) -> no_plain_dict b ->
      branchb (snd kv) = true -> nodeb b = true -> tmerge (snd kv) b ks = (b', r) -> preserved (snd kv) b b' r) da ->
    forall b ks b' r, keys_distinct a -> no_plain_dict b -> nodeb b = true -> tmerge a b ks = (b', r) -> preserved a b b' r).
  { intros a da Ea F b ks b' r Ka Nb Hb T. destruct b as [| | | |mb db]; try discriminate.
    destruct (tmerge_node _ _ _ _ _ _ _ Ea T) as (db' & -> & E).
    pose proof (keys_distinct_here _ _ Ka Ea) as ND.
    destruct (tmerge_items_spec _ _ _ _ _ _ ND E) as (I1 & (extra & X1 & X2 & X3 & X4) & _ & _).
    pose proof (existing _ _ _ _ _ _ ND E) as Ex.
    (* one level down *)
    assert (Down : forall k bk, dget db k = Some bk -> exists bk', dget db' k = Some bk' /\ ttype bk' = ttype bk /\
        ((bk' = bk /\ (r = Done tt -> dget da k = None)) \/ (exists v, dget da k = Some v /\ branchb v = false /\ branchb bk = false /\ branchb bk' = false) \/
         (exists v r', dget da k = Some v /\ branchb v = true /\ (r = Done tt -> r' = Done tt) /\ preserved v bk bk' r'))).
    { intros k bk Hk. destruct (Ex _ _ Hk) as [(H1 & H2)|(v & r' & Hv & H & Hr)].
      { exists bk. split; [exact H1|]. split; [reflexivity|]. left. auto. }
      destruct (kstep_some _ _ _ _ _ _ _ H) as [(e & C1 & C2)|[(v' & w & C1 & C2 & C3 & C4 & C5 & C6 & C7)|(C1 & C2 & bk' & C3 & C4)]].
      - exists bk. split; [exact C1|]. split; [reflexivity|]. left. split; [reflexivity|]. intros Hx. specialize (Hr Hx). congruence.
      - exists w. split; [exact C6|]. assert (Tw := cast_type _ _ _ C3). split; [exact Tw|]. right. left. exists v. split; [exact Hv|].
        assert (Bk : branchb bk = false).
        { destruct bk; auto. exfalso. apply (Nb [k] d). cbn. rewrite Hk. reflexivity. }
        repeat split; auto. destruct w as [[]| | | |], bk as [[]| | | |]; cbn in *; congruence.
      - exists bk'. split; [exact C3|].
        rewrite Forall_forall in F. pose proof (F (k, v) (dget_in _ _ _ Hv) bk (ks ++ [k]) bk' r') as P. cbn in P.
        assert (Pv : preserved v bk bk' r').
        { apply P; auto; [exact (keys_distinct_child _ _ _ _ Ka Ea Hv)|exact (no_plain_dict_child (TNode mb db) db k _ Nb eq_refl Hk)]. }
        split. { destruct Pv as (Pt & _). destruct (Pt [] bk eq_refl) as (t' & Q1 & Q2). cbn in Q1. inversion Q1; subst. exact Q2. }
        right. right. exists v, r'. auto. }
    split; [|split].
    - intros [|k p] t At; [cbn in At; inversion At; subst; eexists; split; [reflexivity|reflexivity]|].
      cbn in At |- *. destruct (dget db k) as [bk|] eqn:Hk; [|discriminate].
      destruct (Down _ _ Hk) as (bk' & -> & Ty & [(-> & _)|[(v & Hv & B1 & B2 & B3)|(v & r' & Hv & Bv & Hr & P1 & _)]]); eauto.
      assert (p = []) as -> by (eapply leaf_path; [exact B2|congruence]). cbn in At |- *. inversion At; subst. eauto.
    - intros [|k p] t At Aa; [cbn in Aa; discriminate|]. cbn in At |- *. rewrite (at_path_cons _ _ _ _ Ea) in Aa.
      destruct (dget db k) as [bk|] eqn:Hk; [|discriminate].
      destruct (Down _ _ Hk) as (bk' & -> & Ty & [(-> & _)|[(v & Hv & B1 & B2 & B3)|(v & r' & Hv & Bv & Hr & _ & P2 & _)]]); auto.
      + rewrite Hv in Aa. assert (p = []) as -> by (eapply leaf_path; [exact B2|congruence]). cbn in Aa. discriminate.
      + rewrite Hv in Aa. auto.
    - intros [|k q] mq dq At.
      + cbn in At. inversion At; subst. exists db', extra. cbn. repeat split; auto.
        * intros k Hk. rewrite Ea. destruct (X3 _ Hk) as [Y _]. destruct (dget da k) eqn:Ed; [discriminate|]. apply dget_none in Ed. contradiction.
        * intros Hr Hm c da' Hc Hd. inversion Hc; subst. assert (da' = da) as -> by congruence. auto.
      + cbn in At |- *. destruct (dget db k) as [bk|] eqn:Hk; [|discriminate].
        destruct (Down _ _ Hk) as (bk' & -> & Ty & [(-> & Hr)|[(v & Hv & B1 & B2 & B3)|(v & r' & Hv & Bv & Hr & _ & _ & P3)]]).
        * exists dq, []. rewrite app_nil_r. split; [exact At|]. split; [reflexivity|]. split; [reflexivity|]. split; [contradiction|]. intros Hr' _ c da' Hc. rewrite Ea in Hc. rewrite (Hr Hr') in Hc. discriminate.
        * assert (q = []) as -> by (eapply leaf_path; [exact B2|congruence]). cbn in At. inversion At; subst. discriminate.
        * destruct (P3 q mq dq At) as (dq' & ex & Y1 & Y2 & Y3 & Y4 & Y5). exists dq', ex. rewrite Ea, Hv. split; [exact Y1|]. split; [exact Y2|]. split; [exact Y3|]. split; [exact Y4|]. intros Hd. apply Y5. auto. }
  induction a using tree_ind'; intros b ks b' r Ka Nb Ha Hb T; try discriminate.
  - eapply (G (TDict d)); eauto. reflexivity.
  - eapply (G (TNode m d)); eauto. reflexivity.
Qed.

Lemma has_in l k : has l k = true <-> In k l.
Proof.
  unfold has. rewrite existsb_exists. split; [intros (x & H & E); apply String.eqb_eq in E; subst; auto|intros H; exists k; split; [auto|apply String.eqb_refl]].
Qed.

Lemma kstep_none mb ks k v cur : kstep mb ks k v None = (cur, Done tt) ->
  (m_new mb = true /\ exists v', tdecode v = Done v' /\ cur = Some v') \/
  (m_new mb = false /\ cur = None /\ In (join (ks ++ [k])) (m_dep rm)).
Proof.
  unfold kstep. destruct (tdecode v) as [v'|e]; [|discriminate]. destruct (m_new mb).
  - intros E. inversion E; subst. left. eauto.
  - unfold ConfigMerge.missing_key. destruct (has (m_dep rm) (join (ks ++ [k]))) eqn:Eh; [|destruct (dget _ _) as [[]|]; discriminate].
    intros E. inversion E; subst. right. repeat split; auto. apply has_in, Eh.
Qed.

Lemma tcreate_items_get d d' k : tcreate_items d = Some d' -> dget d' k = match dget d k with Some x => tcreate1 x | None => None end.
Proof.
  revert d'. induction d as [|[k' x] d IH]; intros d' E; cbn in E; [inversion E; reflexivity|].
  destruct (tcreate1 x) as [y|] eqn:E1, (tcreate_items d) as [ys|] eqn:E2; try discriminate. inversion E; subst. cbn.
  destruct (String.eqb k' k); [congruence|apply IH; reflexivity].
Qed.
Lemma tcreate_paths p : forall t t' c, tcreate t = Some t' -> at_path t p = Some c ->
  (branchb c = false -> at_path t' p = Some c) /\ (branchb c = true -> exists c', tcreate c = Some c' /\ at_path t' p = Some c').
Proof.
  induction p as [|k p IH]; intros t t' c E A.
  - cbn in A. inversion A; subst. split; [intros H; destruct c; discriminate|eauto].
  - cbn in A. destruct (entries t) as [d|] eqn:Ed; [|discriminate]. rewrite (tcreate_eq _ _ Ed) in E.
    destruct (tcreate_items d) as [d'|] eqn:Ei; [|discriminate]. inversion E; subst. cbn. rewrite (tcreate_items_get _ _ _ Ei).
    destruct (dget d k) as [x|] eqn:Ex; [|discriminate].
    assert (T : exists y, tcreate1 x = Some y).
    { clear -Ei Ex. revert d' Ei. induction d as [|[k' z] d IH]; intros d' Ei; cbn in *; [discriminate|].
      destruct (tcreate1 z) eqn:E1, (tcreate_items d) eqn:E2; try discriminate. destruct (String.eqb k' k); [inversion Ex; subst; eauto|eauto]. }
    destruct T as [y Ty]. rewrite Ty. unfold tcreate1 in Ty. destruct (branchb x) eqn:Bx; [eapply IH; eauto|].
    destruct (valid_ty (ttype x)); inversion Ty; subst.
    assert (p = []) as -> by (eapply leaf_path; [exact Bx|congruence]). cbn in A. inversion A; subst. cbn.
    split; [auto|congruence].
Qed.

Lemma at_path_snoc_none b q k mq : lacks b q k mq -> at_path b (q ++ [k]) = None.
Proof. intros (dq & E & N). rewrite at_path_app, E. cbn. apply dget_none in N. rewrite N. reflexivity. Qed.
Lemma lacks_cons mb db k0 bk q k mq : dget db k0 = Some bk -> lacks bk q k mq -> lacks (TNode mb db) (k0 :: q) k mq.
Proof. intros E (dq & A & N). exists dq. cbn. rewrite E. auto. Qed.
Lemma starts_cons k q p : starts_with q p -> starts_with (k :: q) (k :: p).
Proof. intros (r & ->). exists r. reflexivity. Qed.

(* where the entries of a are found after a successful merge *)
Definition landed (ks : list string) (a b b' : tree) (p : list string) (v : tree) : Prop :=
  (exists o, at_path b p = Some o /\
     ((branchb v = false /\ exists w w', decodes literal_eval v w /\ cast (ttype o) w w' /\ at_path b' p = Some w') \/
      (branchb v = true /\ is_cfg o /\ exists m d, at_path b' p = Some (TNode m d)))) \/
  (exists q k mq, starts_with (q ++ [k]) p /\ lacks b q k mq /\ m_new mq = true /\
     ((branchb v = true /\ exists v', tcreate v = Some v' /\ at_path b' p = Some v') \/
      (branchb v = false /\ p = q ++ [k] /\ exists w, decodes literal_eval v w /\ at_path b' p = Some w) \/
      (branchb v = false /\ p <> q ++ [k] /\ at_path b' p = Some v))) \/
  (ignored_at rm ks b p /\ at_path b' p = None).

Lemma tmerge_landed p : forall a b ks b' v, keys_distinct a -> tmerge a b ks = (b', Done tt) -> branchb a = true -> nodeb b = true ->
  at_path a p = Some v -> landed ks a b b' p v.
Proof.
  induction p as [|k p IH]; intros a b ks b' v Ka T Ba Nb At; destruct b as [| | | |mb db]; try discriminate; apply branch_entries in Ba; destruct Ba as [da Ea];
    destruct (tmerge_node _ _ _ _ _ _ _ Ea T) as (db' & -> & E).
  - cbn in At. inversion At; subst. left. exists (TNode mb db). split; [reflexivity|]. right. split; [apply branch_entries; eauto|].
    split; [eexists; eexists; reflexivity|]. cbn. eauto.
  - pose proof (keys_distinct_here _ _ Ka Ea) as ND. destruct (tmerge_items_spec _ _ _ _ _ _ ND E) as (_ & _ & I3 & _). specialize (I3 eq_refl).
    rewrite (at_path_cons _ _ _ _ Ea) in At. destruct (dget da k) as [x|] eqn:Ex; [|discriminate].
    specialize (I3 _ _ Ex). destruct (dget db k) as [bk|] eqn:Ek.
    + destruct (kstep_some _ _ _ _ _ _ _ I3) as [(e & C1 & C2)|[(v' & w & C1 & C2 & C3 & C4 & C5 & C6 & C7)|(C1 & C2 & bk' & C3 & C4)]]; [discriminate| |].
      * assert (p = []) as -> by (eapply leaf_path; [exact C1|congruence]). cbn in At. inversion At; subst x.
        left. exists bk. cbn. rewrite Ek, C6. split; [reflexivity|]. left. split; [exact C1|]. eauto.
      * destruct (IH x bk (ks ++ [k]) bk' v) as [(o & A1 & A2)|[(q & k1 & mq & A1 & A2 & A3 & A4)|((q & k1 & mq & A1 & A2 & A3 & A4) & A5)]]; auto.
        { eapply keys_distinct_child; eauto. }
        { left. exists o. cbn. rewrite Ek, C3. auto. }
        { right. left. exists (k :: q), k1, mq. cbn [app]. split; [apply starts_cons; auto|]. split; [eapply lacks_cons; eauto|]. split; [exact A3|].
          cbn. rewrite C3. destruct A4 as [A4|[(A4 & -> & A5)|(A4 & A5 & A6)]]; auto. right. right. repeat split; auto. congruence. }
        { right. right. split; [|cbn; rewrite C3; exact A5]. exists (k :: q), k1, mq. cbn [app]. split; [apply starts_cons; auto|]. split; [eapply lacks_cons; eauto|]. split; [exact A3|].
          rewrite <- app_assoc in A4. exact A4. }
    + assert (Lk : lacks (TNode mb db) [] k mb) by (exists db; split; [reflexivity|apply dget_none; exact Ek]).
      destruct (kstep_none _ _ _ _ _ I3) as [(Hm & v' & Hd & Hc)|(Hm & Hc & Hin)].
      * right. left. exists [], k, mb. cbn [app]. split; [exists p; reflexivity|]. split; [exact Lk|]. split; [exact Hm|]. cbn. rewrite Hc.
        destruct (branchb x) eqn:Bx.
        -- pose proof (tdecode_branch _ _ Bx Hd) as Tc. destruct (tcreate_paths p _ _ _ Tc At) as [P1 P2].
           destruct (branchb v) eqn:Bv; [left; split; [auto|]; apply P2; auto|]. right. right. split; [auto|]. split; [|apply P1; auto].
           intros C. inversion C; subst. cbn in At. congruence.
        -- assert (p = []) as -> by (eapply leaf_path; [exact Bx|congruence]). cbn in At. inversion At; subst x.
           right. left. split; [exact Bx|]. split; [reflexivity|]. exists v'. split; [apply tdecode_decodes; auto|reflexivity].
      * right. right. split; [|cbn; rewrite Hc; reflexivity]. exists [], k, mb. cbn [app]. split; [exists p; reflexivity|]. auto.
Qed.

(* why a merge raises *)
Definition only_literal_errors : Prop := forall s e, literal_eval s = Raise e -> (forall f, e <> XMissing f) /\ (forall f n m, e <> XRenamed f n m).

Definition blame (ks : list string) (a b : tree) (e : cexn) : Prop :=
  (exists q k mq, at_path a (q ++ [k]) <> None /\ lacks b q k mq /\ m_new mq = false /\ ~ In (join (ks ++ q ++ [k])) (m_dep rm) /\
     ((exists new msg, dget (m_ren rm) (join (ks ++ q ++ [k])) = Some (new, msg) /\ e = XRenamed (join (ks ++ q ++ [k])) new msg) \/
      (dget (m_ren rm) (join (ks ++ q ++ [k])) = None /\ e = XMissing (join (ks ++ q ++ [k]))))) \/
  (e = XValue /\ exists p v o, at_path a p = Some v /\ at_path b p = Some o /\
      (is_branch v /\ ~ is_cfg o \/ exists w, decodes literal_eval v w /\ forall w', ~ cast (ttype o) w w')) \/
  (exists p s, at_path a p = Some (TAtom (AStr s)) /\ literal_eval s = Raise e /\ e <> XValue /\ e <> XSyntax) \/
  (e = XAssertion /\ tcreate a = None).

Lemma tcoerce_none t o e : tcoerce t o = Raise e -> e = XValue /\ forall w, ~ cast (ttype o) t w.
Proof.
  unfold tcoerce. destruct (ty_eqb (ttype t) (ttype o)) eqn:Et; [discriminate|].
  intros E. assert (Ne : ttype t <> ttype o) by (rewrite <- ty_eqb_eq; congruence).
  split; [destruct t, o; inversion E; reflexivity|]. intros w C. inversion C; subst; try congruence.
  - destruct o as [[]| | | |]; cbn in *; try congruence.
  - destruct o as [[]| | | |]; cbn in *; try congruence.
Qed.

Lemma tcreate_child_none t d k x : entries t = Some d -> In (k, x) d -> branchb x = true -> tcreate x = None -> tcreate t = None.
Proof.
  intros E I B C. rewrite (tcreate_eq _ _ E). assert (tcreate_items d = None) as ->; [|reflexivity]. clear E.
  induction d as [|[k' y] d IH]; [contradiction|]. cbn. destruct I as [I|I].
  - inversion I; subst. unfold tcreate1. rewrite B, C. reflexivity.
  - rewrite (IH I). destruct (tcreate1 y); reflexivity.
Qed.

Lemma tmerge_blame : forall a b ks b' e, keys_distinct a -> tmerge a b ks = (b', Raise e) -> branchb a = true -> nodeb b = true -> blame ks a b e.
Proof.
  assert (G : forall a da, entries a = Some da -> Forall (fun kv : string * tree => forall b ks b' e, keys_distinct (snd kv) ->
      tmerge (snd kv) b ks = (b', Raise e) -> branchb (snd kv) = true -> nodeb b = true -> blame ks (snd kv) b e) da ->
    forall b ks b' e, keys_distinct a -> tmerge a b ks = (b', Raise e) -> nodeb b = true -> blame ks a b e).
  { intros a da Ea F b ks b' e Ka T Nb. destruct b as [| | | |mb db]; try discriminate.
    destruct (tmerge_node _ _ _ _ _ _ _ Ea T) as (db' & -> & E).
    pose proof (keys_distinct_here _ _ Ka Ea) as ND. destruct (tmerge_items_spec _ _ _ _ _ _ ND E) as (_ & _ & _ & I4).
    destruct (I4 e eq_refl) as (da1 & k & v & da2 & Eda & _ & J & _).
    assert (Iv : In (k, v) da) by (rewrite Eda; apply in_app_iff; right; cbn; auto).
    pose proof (dget_nodup _ _ _ ND Iv) as Hv.
    assert (Av : forall p, at_path a (k :: p) = at_path v p) by (intros p; rewrite (at_path_cons _ _ _ _ Ea), Hv; reflexivity).
    assert (Dec : forall e', tdecode v = Raise e' -> e' = e -> blame ks a (TNode mb db) e).
    { intros e' Hd ->. unfold ConfigMerge.tdecode in Hd. destruct (branchb v) eqn:Bv.
      - destruct (tcreate v) eqn:Tc; inversion Hd; subst. right. right. right. split; [reflexivity|]. eapply tcreate_child_none; eauto.
      - destruct v as [[]| | | |]; try discriminate. destruct (literal_eval s) as [l|e'] eqn:El; [discriminate|].
        right. right. left. exists [k], s. split; [rewrite Av; reflexivity|].
        destruct e'; inversion Hd; subst; repeat split; auto; discriminate. }
    destruct (dget db k) as [bk|] eqn:Ek.
    - pose proof J as J'. unfold kstep in J. destruct (tdecode v) as [v'|e'] eqn:Hd; [|inversion J; subst; eapply Dec; eauto].
      destruct (tcoerce v' bk) as [w|e'] eqn:Ec.
      + destruct (kstep_some _ _ _ _ _ _ _ J') as [(e0 & C1 & C2)|[(v0 & w0 & C1 & C2 & C3 & C4 & C5 & C6 & C7)|(C1 & C2 & bk' & C3 & C4)]]; [|discriminate|].
        * inversion C2; subst e0. destruct (nodeb w) eqn:Nw; [|discriminate].
          destruct (branchb v) eqn:Bv.
          2:{ pose proof (tdecode_leaf _ _ _ Bv Hd). pose proof (cast_node _ _ _ (tcoerce_cast _ _ _ Ec)). congruence. }
          pose proof (cast_type _ _ _ (tcoerce_cast _ _ _ Ec)) as Ty. apply nodeb_type in Nw.
          assert (nodeb bk = true) by (apply nodeb_type; congruence).
          assert (Tm : tmerge v bk (ks ++ [k]) = (bk, Raise e)).
          { inversion J. destruct (tmerge v bk (ks ++ [k])) as [y z]; cbn in *. congruence. }
          rewrite Forall_forall in F. pose proof (F _ Iv bk (ks ++ [k]) bk e (keys_distinct_child _ _ _ _ Ka Ea Hv) Tm Bv H) as Q. cbn [snd] in Q.
          destruct Q as [(q & k1 & mq & A1 & A2 & A3 & A4 & A5)|[(A1 & p & v1 & o & A2 & A3 & A4)|[(p & s & A1 & A2)|(A1 & A2)]]].
          -- left. exists (k :: q), k1, mq. cbn [app]. rewrite Av. rewrite <- app_assoc in A4, A5. cbn [app] in A4, A5. repeat split; auto. eapply lacks_cons; eauto.
          -- right. left. split; [exact A1|]. exists (k :: p), v1, o. rewrite Av. cbn. rewrite Ek. auto.
          -- right. right. left. exists (k :: p), s. rewrite Av. auto.
          -- right. right. right. split; [exact A1|]. eapply tcreate_child_none; eauto.
        * rewrite Forall_forall in F. pose proof (F _ Iv bk (ks ++ [k]) bk' e (keys_distinct_child _ _ _ _ Ka Ea Hv) C4 C1 C2) as Q. cbn [snd] in Q.
          destruct Q as [(q & k1 & mq & A1 & A2 & A3 & A4 & A5)|[(A1 & p & v1 & o & A2 & A3 & A4)|[(p & s & A1 & A2)|(A1 & A2)]]].
          -- left. exists (k :: q), k1, mq. cbn [app]. rewrite Av. rewrite <- app_assoc in A4, A5. cbn [app] in A4, A5. repeat split; auto. eapply lacks_cons; eauto.
          -- right. left. split; [exact A1|]. exists (k :: p), v1, o. rewrite Av. cbn. rewrite Ek. auto.
          -- right. right. left. exists (k :: p), s. rewrite Av. auto.
          -- right. right. right. split; [exact A1|]. eapply tcreate_child_none; eauto.
      + inversion J; subst e'. destruct (tcoerce_none _ _ _ Ec) as [-> Nc]. right. left. split; [reflexivity|]. exists [k], v, bk.
        rewrite Av. cbn. rewrite Ek. split; [reflexivity|]. split; [reflexivity|].
        destruct (branchb v) eqn:Bv.
        * left. split; [apply branch_entries in Bv; destruct Bv as [x Bv]; unfold is_branch; congruence|].
          intros (m & d & ->). apply tdecode_branch in Hd; auto. apply tcreate_node in Hd. apply (Nc v'). constructor. apply nodeb_type in Hd. rewrite Hd. reflexivity.
        * right. exists v'. split; [apply tdecode_decodes; auto|exact Nc].
    - unfold kstep in J. destruct (tdecode v) as [v'|e'] eqn:Hd; [|inversion J; subst; eapply Dec; eauto].
      destruct (m_new mb) eqn:Hm; [discriminate|]. unfold ConfigMerge.missing_key in J.
      destruct (has (m_dep rm) (join (ks ++ [k]))) eqn:Hh; [discriminate|].
      left. exists [], k, mb. cbn [app]. rewrite Av. cbn [at_path]. split; [discriminate|].
      split; [exists db; split; [reflexivity|apply dget_none; exact Ek]|]. split; [exact Hm|].
      split; [intros C; apply has_in in C; congruence|].
      destruct (dget (m_ren rm) (join (ks ++ [k]))) as [[n m]|] eqn:Er; inversion J; subst; [left; eauto|right; auto]. }
  induction a using tree_ind'; intros b ks b' e Ka T Ba Nb; try discriminate.
  - eapply (G (TDict d)); eauto. reflexivity.
  - eapply (G (TNode m d)); eauto. reflexivity.
Qed.
End Merge.
