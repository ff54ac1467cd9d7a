(* Configuration properties at the API level. *)
From Coq Require Import ZArith String Ascii List Bool Arith Lia.
From Verif Require Import ConfigModel ConfigSpec ConfigHeap ConfigCopy ConfigTree ConfigMerge ConfigMergeHeap ConfigPaths ConfigFreeze ConfigList ConfigDump.
Import ListNotations.
Local Open Scope list_scope.
Local Open Scope nat_scope.

Lemma cfg_nodeb t : is_cfg t <-> nodeb t = true.
Proof. split; [intros (m & d & ->); reflexivity|destruct t; try discriminate; intros _; eexists; eexists; reflexivity]. Qed.

(* ---------------------------------------------------------------- freeze *)
Lemma untouched_flagged b fp h h' self t : reads h self t fp -> flagged b fp h h' -> Untouched h h' self.
Proof.
  intros R F w tw [fw Rw] A. exists fw. eapply reads_flagged; [exact F|exact Rw|]. intros l L1 L2. eapply A; eauto.
Qed.
Lemma frozen_get b d k : dget (frozen_items b d) k = match dget d k with Some x => Some (all_frozen b x) | None => None end.
Proof. induction d as [|[k' y] d IH]; cbn in *; [reflexivity|]. destruct (String.eqb k' k); auto. Qed.
Lemma frozen_keys b d : keys (frozen_items b d) = keys d.
Proof. induction d as [|[k' y] d IH]; [reflexivity|]. unfold keys in *. cbn. f_equal. exact IH. Qed.
Lemma all_frozen_at b p : forall t, no_plain_dict t -> at_path (all_frozen b t) p = match at_path t p with Some c => Some (all_frozen b c) | None => None end.
Proof.
  induction p as [|k p IH]; intros t N; [reflexivity|]. destruct t as [| | |d|m d]; try reflexivity.
  - exfalso. apply (N [] d). reflexivity.
  - rewrite all_frozen_node. cbn [at_path entries]. rewrite frozen_get. destruct (dget d k) as [x|] eqn:Ex; [|reflexivity].
    apply IH. exact (no_plain_dict_child (TNode m d) d k x N eq_refl Ex).
Qed.
Lemma all_frozen_flags b t : no_plain_dict t -> flags_are b (all_frozen b t).
Proof.
  intros N p m d A. rewrite all_frozen_at in A by exact N. destruct (at_path t p) as [c|] eqn:E; [|discriminate].
  destruct c as [| | | |m0 d0]; try discriminate A. rewrite all_frozen_node in A. inversion A. reflexivity.
Qed.
Lemma all_frozen_same b t : no_plain_dict t -> same_entries t (all_frozen b t).
Proof.
  intros N p. rewrite (all_frozen_at b p t N). split; [|split].
  - intros m d E. rewrite E, all_frozen_node. exists (with_frozen b m), (frozen_items b d). split; [reflexivity|apply frozen_keys].
  - intros v [E L]. unfold leaf_at. rewrite (all_frozen_at b p t N), E. rewrite all_frozen_leaf; [split; auto|].
    destruct v; try reflexivity. exfalso. apply L. discriminate.
  - intros ->. reflexivity.
Qed.
Lemma frozen_plain b t : no_plain_dict t -> no_plain_dict (all_frozen b t).
Proof.
  intros N p d E. rewrite all_frozen_at in E by exact N. destruct (at_path t p) as [c|] eqn:Ec; [|discriminate].
  destruct c; try discriminate E. apply (N _ _ Ec).
Qed.
Lemma frozen_cfg b t : is_cfg t -> is_cfg (all_frozen b t).
Proof. intros (m & d & ->). rewrite all_frozen_node. eexists; eexists; reflexivity. Qed.

Lemma p_immutable b fuel self h t : Cfg h self t -> tdepth t <= fuel -> exists h', immutable_ fuel b self h = (h', Done tt) /\
  Cfg h' self (all_frozen b t) /\ Untouched h h' self.
Proof.
  intros ((fp & R & N) & C & P) D. destruct (immutable_ok b fuel self h t fp R N (proj1 (cfg_nodeb t) C) D) as (h' & E & R' & F).
  exists h'. split; [exact E|]. split; [split; [exists fp; auto|split; [apply frozen_cfg, C|apply frozen_plain, P]]|eapply untouched_flagged; eauto].
Qed.
Lemma p_freeze fuel self h t : Cfg h self t -> tdepth t <= fuel -> exists h' t', freeze fuel self h = (h', Done tt) /\
  Cfg h' self t' /\ same_entries t t' /\ flags_are true t' /\ Untouched h h' self.
Proof.
  intros C D. destruct (p_immutable true _ _ _ _ C D) as (h' & E & C' & U). exists h', (all_frozen true t).
  destruct C as (_ & _ & P). auto 10 using all_frozen_same, all_frozen_flags.
Qed.
Lemma p_defrost fuel self h t : Cfg h self t -> tdepth t <= fuel -> exists h' t', defrost fuel self h = (h', Done tt) /\
  Cfg h' self t' /\ same_entries t t' /\ flags_are false t' /\ Untouched h h' self.
Proof.
  intros C D. destruct (p_immutable false _ _ _ _ C D) as (h' & E & C' & U). exists h', (all_frozen false t).
  destruct C as (_ & _ & P). auto 10 using all_frozen_same, all_frozen_flags.
Qed.
Lemma frozen_id b t : keys_distinct t -> no_plain_dict t -> flags_are b t -> all_frozen b t = t.
Proof.
  induction t using tree_ind'; intros K N F; try reflexivity.
  rewrite all_frozen_node. assert (m_frozen m = b) as Hm by (apply (F [] m d); reflexivity).
  assert (with_frozen b m = m) as -> by (destruct m; cbn in *; subst; reflexivity). f_equal.
  pose proof (keys_distinct_here _ _ K eq_refl) as ND.
  assert (Each : forall k x, In (k, x) d -> all_frozen b x = x).
  { intros k x I. rewrite Forall_forall in H. pose proof (dget_nodup _ _ _ ND I) as E. apply (H (k, x) I); cbn [snd].
    - exact (keys_distinct_child (TNode m d) d k x K eq_refl E).
    - exact (no_plain_dict_child (TNode m d) d k x N eq_refl E).
    - intros p m' d' A. apply (F (k :: p) m' d'). cbn. rewrite E. exact A. }
  clear -Each. induction d as [|[k x] d IH]; [reflexivity|]. cbn [frozen_items]. rewrite (Each k x) by (cbn; auto). f_equal. apply IH. intros k' x' I. apply (Each k'). cbn; auto.
Qed.
Lemma frozen_twice b b' t : all_frozen b (all_frozen b' t) = all_frozen b t.
Proof.
  induction t using tree_ind'; try reflexivity. rewrite !all_frozen_node. f_equal. induction d as [|[k x] d IH]; [reflexivity|].
  inversion H; subst. cbn in H2. cbn [frozen_items]. rewrite H2, IH by auto. reflexivity.
Qed.
Lemma tdepth_frozen b t : tdepth (all_frozen b t) = tdepth t.
Proof.
  induction t using tree_ind'; try reflexivity. rewrite all_frozen_node. cbn. f_equal. induction d as [|[k x] d IH]; [reflexivity|].
  inversion H; subst. cbn in H2. cbn [frozen_items]. rewrite H2, IH by auto. reflexivity.
Qed.
(* freeze, then defrost: exactly the configuration of before, if it was not frozen anywhere *)
Lemma p_freeze_defrost fuel self h t : Cfg h self t -> flags_are false t -> tdepth t <= fuel -> exists h',
  (let! _u := freeze fuel self in defrost fuel self) h = (h', Done tt) /\ Cfg h' self t /\ Untouched h h' self.
Proof.
  intros C F D. pose proof C as ((fp & R & N) & Ct & P).
  destruct (immutable_ok true fuel self h t fp R N (proj1 (cfg_nodeb t) Ct) D) as (h1 & E1 & R1 & F1).
  destruct (immutable_ok false fuel self h1 _ fp R1 N (proj1 (cfg_nodeb _) (frozen_cfg true _ Ct))) as (h2 & E2 & R2 & F2); [rewrite tdepth_frozen; exact D|].
  exists h2. split; [unfold freeze, defrost; rewrite (bind_eq _ _ _ _ _ E1); exact E2|].
  rewrite frozen_twice, frozen_id in R2; [|eapply reads_distinct; eauto|auto|auto].
  split; [split; [exists fp; auto|auto]|]. intros w tw [fw Rw] A. exists fw.
  assert (Q : forall l, In l fw -> ~ In l fp) by (intros l L1 L2; eapply A; eauto).
  eapply reads_flagged; [exact F2| |exact Q]. eapply reads_flagged; [exact F1|exact Rw|exact Q].
Qed.
Lemma p_frozen_assign self h t p m d name value : Cfg h self t -> flags_are true t -> Forall user_name p -> at_path t p = Some (TNode m d) ->
  assign self p name value h = (h, Raise XAttribute).
Proof. intros ((fp & R & N) & C & P) F U A. eapply assign_frozen; eauto. Qed.

Section Calls.
Variable safe_dump : lit -> string.
Notation run_call := (run_call safe_dump).
Notation run_calls := (run_calls safe_dump).
Lemma reads_upd_all h l m d o : nth_error h l = Some (ONode m d) ->
  (forall v t fp, reads h v t fp -> ~ In l fp -> reads (upd h l o) v t fp) /\
  (forall v t fp, reads_all h v t fp -> ~ In l fp -> reads_all (upd h l o) v t fp) /\
  (forall v t fp, reads_items h v t fp -> ~ In l fp -> reads_items (upd h l o) v t fp).
Proof.
  intros E. apply reads_ind3.
  - constructor.
  - intros vs ts fp R IH H. constructor. auto.
  - intros l' vs ts fp E' R IH H. econstructor; [|eauto]. rewrite upd_other; [exact E'|]. intros <-. congruence.
  - intros l' d' ts fp E' N R IH H. econstructor; [|exact N|apply IH; intros C; apply H; cbn; auto]. rewrite upd_other; [exact E'|]. intros <-. apply H. cbn; auto.
  - intros l' m' d' ts fp E' N R IH H. econstructor; [|exact N|apply IH; intros C; apply H; cbn; auto]. rewrite upd_other; [exact E'|]. intros <-. apply H. cbn; auto.
  - constructor.
  - intros v t fp vs ts fps R IH Rs IHs H. constructor; [apply IH|apply IHs]; intros Hl; apply H, in_app_iff; auto.
  - constructor.
  - intros k v t fp dd ts fps R IH Rs IHs H. constructor; [apply IH|apply IHs]; intros Hl; apply H, in_app_iff; auto.
Qed.
Lemma set_meta_ok g h self m d fp : reads h self (TNode m d) fp -> NoDup fp -> exists h', set_meta self g h = (h', Done tt) /\ reads h' self (TNode (g m) d) fp.
Proof.
  intros R N. inversion R as [| | | |l ? dv ? fp' E ND Ri]; subst. inversion N; subst.
  exists (upd h l (ONode (g m) dv)). split.
  - cbn. unfold bind, load. rewrite E. reflexivity.
  - econstructor; [apply upd_same; eapply nth_lt; eauto|exact ND|]. apply (reads_upd_all h l m dv (ONode (g m) dv) E); auto.
Qed.

Lemma same_entries_refl t : same_entries t t.
Proof. intros p. split; [eauto|]. auto. Qed.
Lemma same_entries_trans a b c : same_entries a b -> same_entries b c -> same_entries a c.
Proof.
  intros H1 H2 p. destruct (H1 p) as (A1 & A2 & A3), (H2 p) as (B1 & B2 & B3). split; [|split; auto].
  intros m d E. destruct (A1 _ _ E) as (m1 & d1 & E1 & K1). destruct (B1 _ _ E1) as (m2 & d2 & E2 & K2). exists m2, d2. split; [auto|congruence].
Qed.
Lemma root_meta_same m m' d : same_entries (TNode m d) (TNode m' d).
Proof.
  intros [|k p]; cbn.
  - split; [|split]; [intros m0 d0 E; inversion E; subst; eauto| |discriminate]. intros v [E L]. cbn in E. inversion E; subst. exfalso. apply L. discriminate.
  - split; [|split]; [intros m0 d0 E; eauto| |auto]. intros v [E L]. split; auto.
Qed.
Lemma root_meta_plain m m' d : no_plain_dict (TNode m d) -> no_plain_dict (TNode m' d).
Proof. intros N [|k p] e E; [discriminate|]. exact (N (k :: p) e E). Qed.
Lemma root_meta_flags m m' d b : m_frozen m' = m_frozen m -> flags_are b (TNode m d) -> flags_are b (TNode m' d).
Proof.
  intros Hm F [|k p] m0 d0 E; [|exact (F (k :: p) m0 d0 E)]. cbn in E. inversion E; subst. rewrite Hm. apply (F [] m d0). reflexivity.
Qed.
Lemma attr_path_state p : forall v h, fst (attr_path v p h) = h.
Proof.
  induction p as [|k p IH]; intros v h; [reflexivity|]. cbn [attr_path]. unfold bind at 1.
  destruct (getattr_ v k h) as [h1 r] eqn:E. assert (h1 = h).
  { unfold getattr_ in E. destruct (has class_names k || dunder k); [inversion E; reflexivity|].
    apply bind_inv in E. destruct E as [(d & h2 & E1 & E)|(e & E1 & E)]; apply items_of_state in E1; [destruct (dget d k); inversion E|]; congruence. }
  subst. destruct r as [[x|]|]; [apply IH|reflexivity|reflexivity].
Qed.
Lemma mapM_state {A B} (f : A -> M B) l : (forall x h, fst (f x h) = h) -> forall h, fst (mapM f l h) = h.
Proof.
  intros H. induction l as [|x l IH]; intros h; [reflexivity|]. cbn [mapM]. unfold bind at 1. pose proof (H x h) as Hx.
  destruct (f x h) as [h1 [y|e]]; cbn in Hx; subst; [|reflexivity]. unfold bind. pose proof (IH h) as Hl. destruct (mapM f l h) as [h2 [ys|e]]; cbn in *; auto.
Qed.
Lemma bind_state {A B} (m : M A) (f : A -> M B) h : fst (m h) = h -> (forall x, fst (f x h) = h) -> fst (bind m f h) = h.
Proof. intros H1 H2. unfold bind. destruct (m h) as [h1 [x|e]]; cbn in *; subst; auto. Qed.
Lemma plain_state fuel : forall v h, fst (plain fuel v h) = h.
Proof.
  induction fuel as [|f IH]; intros v h; [reflexivity|]. cbn [plain]. destruct v as [a|vs|l]; [destruct a; reflexivity| |].
  - apply bind_state; [apply mapM_state; exact IH|reflexivity].
  - apply bind_state; [reflexivity|]. intros [vs|d|m d]; [| |reflexivity]; (apply bind_state; [apply mapM_state|reflexivity]); [exact IH|].
    intros x h0. apply bind_state; [apply IH|reflexivity].
Qed.
Lemma items_state v h : fst (items_of v h) = h.
Proof. destruct (items_of v h) as [h' r] eqn:E. apply items_of_state in E. exact E. Qed.
Lemma convert_state fuel : forall v h, fst (convert_to_dict fuel v h) = h.
Proof.
  induction fuel as [|f IH]; intros v h; [reflexivity|]. cbn [convert_to_dict]. apply bind_state; [reflexivity|]. intros [|].
  - apply bind_state; [apply items_state|]. intros d. apply bind_state; [|reflexivity]. apply mapM_state. intros x h0. apply bind_state; [apply IH|reflexivity].
  - apply bind_state; [reflexivity|]. intros ok. apply bind_state; [reflexivity|]. intros _u. apply plain_state.
Qed.

Lemma frozen_step fuel self c h t : tdepth t <= fuel -> Cfg h self t -> flags_are true t -> named c ->
  exists t', Cfg (fst (run_call fuel self c h)) self t' /\ flags_are true t' /\ same_entries t t' /\ tdepth t' = tdepth t.
Proof.
  intros D C F U. pose proof C as ((fp & R & N) & (m & d & ->) & P).
  assert (Same : forall h', h' = h -> exists t', Cfg h' self t' /\ flags_are true t' /\ same_entries (TNode m d) t' /\ tdepth t' = tdepth (TNode m d)).
  { intros h' ->. exists (TNode m d). split; [exact C|]. split; [exact F|]. split; [apply same_entries_refl|reflexivity]. }
  assert (Keep : forall h', keeps h h' -> exists t', Cfg h' self t' /\ flags_are true t' /\ same_entries (TNode m d) t' /\ tdepth t' = tdepth (TNode m d)).
  { intros h' K. exists (TNode m d). split; [|split; [exact F|split; [apply same_entries_refl|reflexivity]]].
    split; [exists fp; split; [eapply reads_keeps; eauto|exact N]|split; [eexists; eexists; reflexivity|exact P]]. }
  assert (Reg : forall g, m_frozen (g m) = m_frozen m -> exists t', Cfg (fst (set_meta self g h)) self t' /\ flags_are true t' /\ same_entries (TNode m d) t' /\ tdepth t' = tdepth (TNode m d)).
  { intros g Hg. destruct (set_meta_ok g h self m d fp R N) as (h' & E & R'). rewrite E. exists (TNode (g m) d). cbn [fst].
    split; [split; [exists fp; auto|split; [eexists; eexists; reflexivity|eapply root_meta_plain; eauto]]|].
    split; [eapply root_meta_flags; eauto|]. split; [apply root_meta_same|reflexivity]. }
  pose proof (key_of_meta _ _ _ _ _ R) as HM.
  destruct c; cbn [run_call caught fst]; unfold caught; cbn [fst].
  - apply Same. unfold assign. pose proof (attr_path_state p self h) as S1.
    unfold bind at 1. destruct (attr_path self p h) as [h1 [x|e]] eqn:Ex; cbn in S1; subst h1; [|reflexivity].
    assert (Rx : exists c fpx, reads h x c fpx /\ at_path (TNode m d) p = Some c).
    { cbn [named] in U. clear -Ex R U P. revert self fp R Ex. generalize (TNode m d) P. clear m d P. induction p as [|k p IH]; intros t P self fp R Ex.
      - cbn in Ex. inversion Ex; subst. exists t, fp. auto.
      - inversion U; subst. cbn [attr_path] in Ex. destruct (entries t) as [dt|] eqn:Et.
        + pose proof (getattr_reads _ _ _ _ _ k R Et H1) as G. destruct (dget dt k) as [c|] eqn:Ek.
          * destruct G as (y & fpy & G1 & G2 & _). rewrite (bind_eq _ _ _ _ _ G1) in Ex.
            destruct (IH H2 c (no_plain_dict_child _ _ _ _ P Et Ek) y fpy G2 Ex) as (c' & fpc & Q1 & Q2). exists c', fpc. split; [exact Q1|]. rewrite (at_path_cons _ _ _ _ Et), Ek. exact Q2.
          * rewrite (bind_err _ _ _ _ _ G) in Ex. discriminate.
        + unfold getattr_ in Ex. destruct (has class_names k || dunder k) eqn:Hk; [discriminate|].
          erewrite bind_err in Ex; [discriminate|]. eapply bind_err. eapply items_of_leaf; eauto. }
    destruct Rx as (c & fpx & Rx & Ac). destruct c as [a|ts|ts|ts|mx dx].
    + inversion Rx; subst. destruct a; reflexivity.
    + inversion Rx; subst. reflexivity.
    + inversion Rx; subst. unfold setattr_, is_frozen, meta_of, deref, bind, load. match goal with X : nth_error _ _ = _ |- _ => rewrite X end. reflexivity.
    + exfalso. apply (P _ _ Ac).
    + inversion Rx; subst. erewrite setattr_frozen; [reflexivity|eauto|]. eapply F; eauto.
  - apply Same, attr_path_state.
  - apply Keep. destruct (clone fuel self h) as [h' r] eqn:E. eapply deepcopy_keeps. exact E.
  - apply Same. unfold dump. apply bind_state; [apply convert_state|reflexivity].
  - destruct (immutable_ok true fuel self h _ fp R N eq_refl D) as (h' & E & R' & _). unfold freeze. rewrite E. cbn [fst]. exists (all_frozen true (TNode m d)).
    split; [split; [exists fp; auto|split; [apply frozen_cfg; eexists; eexists; reflexivity|apply frozen_plain, P]]|].
    split; [apply all_frozen_flags, P|]. split; [apply all_frozen_same, P|apply tdepth_frozen].
  - unfold register_deprecated_key. rewrite (bind_eq _ _ _ _ _ HM). unfold bind, assert_. destruct (negb _); [apply Reg; reflexivity|apply Same; reflexivity].
  - unfold register_renamed_key. rewrite (bind_eq _ _ _ _ _ HM). unfold bind, assert_. destruct (negb _); [apply Reg; reflexivity|apply Same; reflexivity].
Qed.
Lemma frozen_history fuel self cs : forall h t, tdepth t <= fuel -> Cfg h self t -> flags_are true t -> Forall named cs ->
  exists t', Cfg (fst (run_calls fuel self cs h)) self t' /\ flags_are true t' /\ same_entries t t'.
Proof.
  induction cs as [|c cs IH]; intros h t D C F U.
  - exists t. split; [exact C|]. split; [exact F|apply same_entries_refl].
  - inversion U; subst. destruct (frozen_step fuel self c h t D C F H1) as (t1 & C1 & F1 & S1 & D1).
    destruct (IH (fst (run_call fuel self c h)) t1) as (t2 & C2 & F2 & S2); [lia|auto..|].
    exists t2. split; [|split; [exact F2|eapply same_entries_trans; eauto]].
    cbn [run_calls]. unfold bind. destruct (run_call fuel self c h) as [h1 r] eqn:E. cbn [fst] in *.
    assert (r = Done tt) as -> by (destruct c; cbn in E; unfold caught in E; congruence). exact C2.
Qed.
End Calls.
Lemma p_frozen_history safe_dump fuel self cs h t : tdepth t <= fuel -> Cfg h self t -> flags_are true t -> Forall named cs ->
  exists t', Cfg (fst (run_calls safe_dump fuel self cs h)) self t' /\ flags_are true t' /\ same_entries t t'.
Proof. apply frozen_history. Qed.
