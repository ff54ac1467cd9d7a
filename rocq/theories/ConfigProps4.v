(* Configuration properties at the API level: registries, clone, dump, attributes, constructor. *)
From Coq Require Import ZArith String Ascii List Bool Arith Lia.
From Verif Require Import ConfigModel ConfigSpec ConfigHeap ConfigCopy ConfigTree ConfigMerge ConfigMergeHeap ConfigPaths ConfigFreeze ConfigList ConfigDump ConfigProps ConfigProps2 ConfigProps3.
Import ListNotations.
Local Open Scope list_scope.
Local Open Scope nat_scope.

(* ---------------------------------------------------------------- deprecated and renamed keys *)
Lemma p_merge_deprecated literal_eval fuel self other h h' ta reg d q k mq p : Cfg h self (TNode reg d) -> TreeShaped h other ta -> is_cfg ta -> Apart h other self ->
  merge_from_other_cfg literal_eval fuel self other h = (h', Done tt) -> at_path ta p <> None -> starts_with (q ++ [k]) p -> lacks (TNode reg d) q k mq -> m_new mq = false ->
  In (join (q ++ [k])) (m_dep reg) /\ exists tb', Reads h' self tb' /\ at_path tb' p = None.
Proof.
  intros Cb Ta Ca A E Ap St L Nw.
  destruct (merge_facts _ _ _ _ _ _ _ _ _ Cb Ta Ca A E ltac:(discriminate)) as (rm & tb' & (d0 & Hm) & (fp & T' & _) & U & K & T). inversion Hm; subst rm d0.
  assert (Ba : branchb ta = true) by (destruct Ca as (m0 & d0 & ->); reflexivity).
  destruct (at_path ta p) as [v|] eqn:Av; [|congruence].
  assert (Nn : at_path (TNode reg d) p = None). { destruct St as [r ->]. rewrite at_path_app, (at_path_snoc_none _ _ _ _ L). reflexivity. }
  assert (Uq : forall q' k' mq', starts_with (q' ++ [k']) p -> lacks (TNode reg d) q' k' mq' -> q' = q /\ k' = k /\ mq' = mq).
  { intros q' k' mq' [s Hs] L'. destruct St as [s0 Hs0]. rewrite Hs0 in Hs.
    assert (C : starts_with (q' ++ [k']) (q ++ [k]) \/ starts_with (q ++ [k]) (q' ++ [k'])).
    { clear -Hs. revert Hs. generalize (q ++ [k]) (q' ++ [k']). intros a b. revert b. induction a as [|x a IH]; intros [|y b] H; cbn in H.
      - left. exists []. reflexivity.
      - right. exists (y :: b). reflexivity.
      - left. exists (x :: a). reflexivity.
      - inversion H; subst. destruct (IH b H2) as [[z ->]|[z ->]]; [left|right]; exists z; reflexivity. }
    destruct C as [C|C]; [exact (lacks_unique _ _ _ _ _ _ _ L L' C)|]. destruct (lacks_unique _ _ _ _ _ _ _ L' L C) as (-> & -> & ->). auto. }
  destruct (tmerge_landed _ _ p ta (TNode reg d) [] tb' v K T Ba eq_refl Av) as [(o & A1 & _)|[(q' & k' & mq' & A1 & A2 & A3 & _)|((q' & k' & mq' & A1 & A2 & A3 & A4) & A5)]].
  - congruence.
  - destruct (Uq _ _ _ A1 A2) as (-> & -> & ->). congruence.
  - destruct (Uq _ _ _ A1 A2) as (-> & -> & ->). split; [exact A4|]. exists tb'. split; [exists fp; exact T'|exact A5].
Qed.
(* an unknown key that is registered as renamed, in a merge in which nothing else is wrong *)
Lemma p_merge_renamed literal_eval fuel self other h h' r ta reg d q k mq new msg c : Cfg h self (TNode reg d) -> TreeShaped h other ta -> is_cfg ta -> Apart h other self ->
  merge_from_other_cfg literal_eval fuel self other h = (h', r) -> r <> Raise XRecursion ->
  at_path ta (q ++ [k]) <> None -> lacks (TNode reg d) q k mq -> m_new mq = false -> ~ In (join (q ++ [k])) (m_dep reg) ->
  NoDup (keys (m_ren reg)) -> In (join (q ++ [k]), (new, msg)) (m_ren reg) ->
  (forall q' k' mq', at_path ta (q' ++ [k']) <> None -> lacks (TNode reg d) q' k' mq' -> m_new mq' = false -> ~ In (join (q' ++ [k'])) (m_dep reg) -> q' = q /\ k' = k) ->
  (forall p v o, at_path ta p = Some v -> at_path (TNode reg d) p = Some o -> (is_branch v -> is_cfg o) /\ (forall w, decodes literal_eval v w -> exists w', cast (ttype o) w w')) ->
  (forall s e, literal_eval s = Raise e -> e = XValue \/ e = XSyntax) -> built ta c ->
  r = Raise (XRenamed (join (q ++ [k])) new msg).
Proof.
  intros Cb Ta Ca A E Hr Ap L Nw Nd ND Ir Only Fits Lit Bt.
  destruct (p_merge_unknown _ _ _ _ _ _ _ _ _ _ _ _ _ Cb Ta Ca A E Ap L Nw Nd) as [e ->].
  destruct (p_merge_errors _ _ _ _ _ _ _ _ _ Cb Ta Ca A E ltac:(congruence)) as (rg & (d0 & Hd) & B). inversion Hd; subst rg d0.
  destruct B as [(q' & k' & mq' & B1 & B2 & B3 & B4 & B5)|[(-> & p & v & o & B1 & B2 & B3)|[(p & s & B1 & B2 & B3 & B4)|(-> & B)]]].
  - destruct (Only _ _ _ B1 B2 B3 B4) as [-> ->]. destruct B5 as [(n1 & m1 & B5 & ->)|(B5 & _)].
    + pose proof (dget_nodup _ _ _ ND B5) as G1. pose proof (dget_nodup _ _ _ ND Ir) as G2. rewrite G1 in G2. inversion G2. reflexivity.
    + exfalso. apply B5. apply in_map_iff. exists (join (q ++ [k]), (new, msg)). auto.
  - destruct (Fits _ _ _ B1 B2) as [F1 F2]. destruct B3 as [[C1 C2]|(w & C1 & C2)]; [exfalso; auto|]. destruct (F2 _ C1) as (w' & C3). exfalso. apply (C2 _ C3).
  - destruct (Lit _ _ B2); congruence.
  - exfalso. apply (B _ Bt).
Qed.
(* deprecated keys alone never raise KeyError *)
Lemma p_merge_key_errors literal_eval fuel self other h h' e ta reg d : Cfg h self (TNode reg d) -> TreeShaped h other ta -> is_cfg ta -> Apart h other self ->
  merge_from_other_cfg literal_eval fuel self other h = (h', Raise e) -> (forall s e, literal_eval s = Raise e -> e = XValue \/ e = XSyntax) ->
  (exists full, e = XMissing full) \/ (exists full new msg, e = XRenamed full new msg) ->
  exists q k mq, at_path ta (q ++ [k]) <> None /\ lacks (TNode reg d) q k mq /\ m_new mq = false /\ ~ In (join (q ++ [k])) (m_dep reg) /\
     ((exists new msg, In (join (q ++ [k]), (new, msg)) (m_ren reg) /\ e = XRenamed (join (q ++ [k])) new msg) \/
      (~ In (join (q ++ [k])) (keys (m_ren reg)) /\ e = XMissing (join (q ++ [k])))).
Proof.
  intros Cb Ta Ca A E Lit Ke.
  assert (e <> XRecursion) by (destruct Ke as [(? & ->)|(? & ? & ? & ->)]; discriminate).
  destruct (p_merge_errors _ _ _ _ _ _ _ _ _ Cb Ta Ca A E H) as (rg & (d0 & Hd) & B). inversion Hd; subst rg d0.
  destruct B as [B|[(-> & _)|[(p & s & B1 & B2 & B3 & B4)|(-> & B)]]]; [exact B|destruct Ke as [(? & Ke)|(? & ? & ? & Ke)]; discriminate|destruct (Lit _ _ B2); congruence|destruct Ke as [(? & Ke)|(? & ? & ? & Ke)]; discriminate].
Qed.
Lemma set_meta_frame g h self m d fp h' : reads h self (TNode m d) fp -> set_meta self g h = (h', Done tt) -> Untouched h h' self.
Proof.
  intros R E w tw [fw Rw] A. inversion R as [| | | |l ? dv ? fp' El ND Ri]; subst. cbn in E. unfold bind, load in E. rewrite El in E. inversion E; subst.
  exists fw. apply (reads_upd_all h l m dv (ONode (g m) dv) El); [exact Rw|]. intros C. eapply A; [exact Rw|exact R|exact C|left; reflexivity].
Qed.
Lemma p_register_deprecated self key h reg d : TreeShaped h self (TNode reg d) ->
  (~ In key (m_dep reg) -> exists h', register_deprecated_key self key h = (h', Done tt) /\ Untouched h h' self /\
     TreeShaped h' self (TNode (mkMeta (m_frozen reg) (m_new reg) (m_dep reg ++ [key]) (m_ren reg)) d)) /\
  (In key (m_dep reg) -> register_deprecated_key self key h = (h, Raise XAssertion)).
Proof.
  intros (fp & R & N). pose proof (key_of_meta _ _ _ _ _ R) as HM. unfold register_deprecated_key. rewrite (bind_eq _ _ _ _ _ HM).
  destruct (has (m_dep reg) key) eqn:Hd; [apply has_in in Hd|assert (~ In key (m_dep reg)) by (rewrite <- has_in; congruence)]; split; intros I; try contradiction; unfold bind, assert_; cbn [negb].
  - reflexivity.
  - destruct (set_meta_ok (fun m => mkMeta (m_frozen m) (m_new m) (m_dep m ++ [key]) (m_ren m)) h self reg d fp R N) as (h' & E & R').
    exists h'. split; [exact E|]. split; [eapply set_meta_frame; eauto|]. exists fp. auto.
Qed.
Lemma p_register_renamed self old new msg h reg d : TreeShaped h self (TNode reg d) ->
  (~ In old (keys (m_ren reg)) -> exists h', register_renamed_key self old new msg h = (h', Done tt) /\ Untouched h h' self /\
     TreeShaped h' self (TNode (mkMeta (m_frozen reg) (m_new reg) (m_dep reg) (m_ren reg ++ [(old, (new, msg))])) d)) /\
  (In old (keys (m_ren reg)) -> register_renamed_key self old new msg h = (h, Raise XAssertion)).
Proof.
  intros (fp & R & N). pose proof (key_of_meta _ _ _ _ _ R) as HM. unfold register_renamed_key. rewrite (bind_eq _ _ _ _ _ HM).
  destruct (dhas (m_ren reg) old) eqn:Hd; [apply in_keys_ren in Hd|assert (~ In old (keys (m_ren reg))) by (rewrite <- in_keys_ren; congruence)]; split; intros I; try contradiction; unfold bind, assert_; cbn [negb].
  - reflexivity.
  - destruct (set_meta_ok (fun m => mkMeta (m_frozen m) (m_new m) (m_dep m) (m_ren m ++ [(old, (new, msg))])) h self reg d fp R N) as (h' & E & R').
    exists h'. split; [exact E|]. split; [eapply set_meta_frame; eauto|]. exists fp. auto.
Qed.
Lemma p_key_is self key h reg d : Reads h self (TNode reg d) ->
  (exists b, key_is_deprecated self key h = (h, Done b) /\ (b = true <-> In key (m_dep reg))) /\
  (exists b, key_is_renamed self key h = (h, Done b) /\ (b = true <-> In key (keys (m_ren reg)))).
Proof.
  intros [fp R]. pose proof (key_of_meta _ _ _ _ _ R) as HM. unfold key_is_deprecated, key_is_renamed. rewrite !(bind_eq _ _ _ _ _ HM).
  split; eexists; (split; [reflexivity|]); [apply has_in|apply in_keys_ren].
Qed.

(* ---------------------------------------------------------------- clone, dump *)
Lemma p_clone fuel v h t : Reads h v t -> tdepth t <= fuel -> exists h' v', clone fuel v h = (h', Done v') /\ keeps h h' /\
  Reads h' v t /\ Reads h' v' t /\ (TreeShaped h v t -> TreeShaped h' v' t) /\ independent h' v v'.
Proof.
  intros [fp R] D. destruct (clone_ok fuel v h t fp R D) as (h' & v' & fp' & E & K & R1 & R2 & N & I). exists h', v'.
  split; [exact E|]. split; [exact K|]. split; [exists fp; exact R1|]. split; [exists fp'; exact R2|]. split; [|exact I].
  intros (fp0 & R0 & N0). exists fp'. split; [exact R2|]. apply N. destruct (reads_det _ _ _ _ _ _ R R0) as [_ ->]. exact N0.
Qed.
Lemma p_independent h h2 v w t : independent h v w -> Reads h v t -> changed_through h h2 w -> Reads h2 v t.
Proof.
  intros I [fp R] C. exists fp. eapply reads_agree; [|exact R]. intros l Rl.
  pose proof (reach_lt _ _ _ Rl _ _ _ (keeps_refl h) R) as L. destruct (nth_error h l) as [o|] eqn:E; [|apply nth_error_None in E; lia].
  apply (C l); [|exact E]. intros Rw. apply (I l Rl Rw).
Qed.
Lemma p_dump_load safe_dump safe_load fuel fuel' self h t : Reads h self t -> dumpable t -> tdepth t < fuel -> tdepth t < fuel' ->
  exists s, dump safe_dump fuel self h = (h, Done s) /\
    (yaml_faithful safe_dump safe_load s -> exists h' v t', load_yaml safe_load fuel' s h = (h', Done v) /\ keeps h h' /\ TreeShaped h' v t' /\ same_config t t').
Proof.
  intros [fp R] S D D'. destruct (dump_load_ok safe_dump safe_load fuel fuel' self h t fp R S D D') as (s & E & H). exists s. split; [exact E|].
  intros Y. destruct (H Y) as (h' & v & t' & fp' & E' & K & R' & N' & _ & Sm). exists h', v, t'. split; [exact E'|]. split; [exact K|]. split; [exists fp'; auto|exact Sm].
Qed.

(* ---------------------------------------------------------------- attributes *)
Lemma p_getattr h self t d k : Reads h self t -> entries t = Some d -> user_name k ->
  (forall c, dget d k = Some c -> exists x, getattr_ self k h = (h, Done (Some x)) /\ getitem self k h = (h, Done x) /\ Reads h x c) /\
  (~ In k (keys d) -> getattr_ self k h = (h, Raise XAttribute) /\ getitem self k h = (h, Raise (XMissing k))).
Proof.
  intros [fp R] E U. pose proof (getattr_reads h self t fp d k R E U) as G.
  destruct (items_of_branch _ _ _ _ _ R E) as (dv & fp' & E1 & Ri & ND & _).
  assert (GI : getitem self k h = match dget dv k with Some v => (h, Done v) | None => (h, Raise (XMissing k)) end).
  { unfold getitem. rewrite (bind_eq _ _ _ _ _ E1). destruct (dget dv k); reflexivity. }
  assert (GA : getattr_ self k h = match dget dv k with Some v => (h, Done (Some v)) | None => (h, Raise XAttribute) end).
  { unfold getattr_. destruct U as [U1 U2]. destruct (has class_names k) eqn:Hc; [apply has_in in Hc; contradiction|]. rewrite U2. cbn [orb]. rewrite (bind_eq _ _ _ _ _ E1). destruct (dget dv k); reflexivity. }
  pose proof (reads_items_get _ _ _ _ k Ri) as P. split.
  - intros c Hc. rewrite Hc in *. destruct G as (x & fpx & G1 & G2 & _). rewrite GA in G1. destruct (dget dv k) as [y|]; [|discriminate]. inversion G1; subst y.
    exists x. split; [rewrite GA; reflexivity|]. split; [rewrite GI; reflexivity|exists fpx; exact G2].
  - intros Nk. apply dget_none in Nk. rewrite Nk in *. destruct (dget dv k); [contradiction|]. auto.
Qed.
Lemma p_setattr h self m d name value tv : TreeShaped h self (TNode m d) -> m_frozen m = false -> ~ In name internal_names ->
  TreeShaped h value tv -> Apart h value self -> In (ttype tv) [TyTup; TyList; TyStr; TyInt; TyFloat; TyBool; TyNode] ->
  exists h', setattr_ self name value h = (h', Done tt) /\ TreeShaped h' self (TNode m (dset d name tv)) /\ Untouched h h' self /\ getitem self name h' = (h', Done value).
Proof.
  intros (fp & R & N) Fr Ni (fpv & Rv & Nv) A Ty. pose proof R as R0. inversion R0 as [| | | |l ? dv ? fp' E ND Ri]; subst.
  assert (NN : NoDup (l :: fp' ++ fpv)).
  { change (l :: fp' ++ fpv) with ((l :: fp') ++ fpv). apply NoDup_app_iff. split; [exact N|]. split; [exact Nv|]. intros x X1 X2. apply (A _ _ _ _ Rv R0 x X2 X1). }
  destruct (setitem_ok _ _ _ _ _ _ name _ _ _ E ND Ri Rv NN) as (h' & fp2 & S1 & S2 & S3 & S4 & S5 & S6).
  exists h'. split.
  { unfold setattr_. erewrite bind_eq; [|unfold is_frozen; rewrite (bind_eq _ _ _ _ _ (key_of_meta _ _ _ _ _ R)); reflexivity]. rewrite Fr.
    destruct (has internal_names name) eqn:Hi; [apply has_in in Hi; contradiction|]. unfold bind at 1, assert_ at 1. cbn [negb].
    unfold bind at 1, get at 1. unfold valid_type. rewrite (reads_type _ _ _ _ Rv).
    assert (V : valid_ty (ttype tv) || (true && ty_eqb (ttype tv) TyNode) = true).
    { apply orb_true_iff. destruct Ty as [X|[X|[X|[X|[X|[X|[X|[]]]]]]]]; rewrite <- X; auto. }
    rewrite V. unfold bind, assert_. exact S1. }
  split; [exists (l :: fp2); auto|]. split.
  { intros w tw [fw Rw] Aw. exists fw. eapply reads_evolves; [exact S5|exact Rw|]. intros x X1 [<-|[]]. apply (Aw _ _ _ _ Rw R0 l X1). left; reflexivity. }
  cbn in S1. unfold bind, load in S1. rewrite E in S1. cbn in S1. unfold store in S1. inversion S1; subst h'.
  unfold getitem. erewrite bind_eq. 2:{ cbn. unfold bind, load. rewrite upd_same by (eapply nth_lt; eauto). cbn. reflexivity. }
  rewrite dset_same. reflexivity.
Qed.
Lemma p_setattr_rejected h self m d name value : Reads h self (TNode m d) -> m_frozen m = false ->
  In name internal_names \/ (exists tv, Reads h value tv /\ ~ In (ttype tv) [TyTup; TyList; TyStr; TyInt; TyFloat; TyBool; TyNode]) ->
  setattr_ self name value h = (h, Raise XAssertion).
Proof.
  intros [fp R] Fr H. unfold setattr_. erewrite bind_eq; [|unfold is_frozen; rewrite (bind_eq _ _ _ _ _ (key_of_meta _ _ _ _ _ R)); reflexivity]. rewrite Fr.
  destruct (has internal_names name) eqn:Hi; [reflexivity|]. unfold bind at 1, assert_ at 1. cbn [negb]. destruct H as [H|(tv & [fv Rv] & H)]; [apply has_in in H; congruence|].
  unfold bind at 1, get at 1. unfold valid_type. rewrite (reads_type _ _ _ _ Rv).
  assert (V : valid_ty (ttype tv) || (true && ty_eqb (ttype tv) TyNode) = false).
  { apply orb_false_iff. split.
    - destruct (valid_ty (ttype tv)) eqn:X; [|reflexivity]. apply valid_ty_in in X. exfalso. apply H. cbn in *. tauto.
    - cbn. destruct (ty_eqb (ttype tv) TyNode) eqn:X; [|reflexivity]. apply ty_eqb_eq in X. exfalso. apply H. cbn. rewrite X. tauto. }
  rewrite V. reflexivity.
Qed.

(* ---------------------------------------------------------------- constructor *)
Lemma reach_keeps h : forall v l, reach h v l -> forall h0 t fp, keeps h0 h -> reads h0 v t fp -> reach h0 v l.
Proof.
  induction 1 as [l|vs v' l I R IH|l0 o v' l E I R IH]; intros h0 t fp K Rd.
  - constructor.
  - inversion Rd; subst. match goal with X : reads_all _ _ _ _ |- _ => destruct (reads_all_in _ _ _ _ _ X I) as (t1 & fp1 & R1) end. econstructor; eauto.
  - destruct (reads_here _ _ _ _ Rd) as [o1 Eo1]. pose proof (K _ _ Eo1) as X. rewrite E in X. inversion X; subst.
    destruct (reads_values _ _ _ _ _ _ Rd Eo1 I) as (t1 & fp1 & R1). eapply reach_obj; eauto.
Qed.
Lemma deepcopy_reach fuel v h h' v' t fp : reads h v t fp -> deepcopy fuel v h = (h', Done v') -> forall l, reach h' v' l -> length h <= l.
Proof.
  intros R E l R2. unfold deepcopy in E. apply bind_done in E. destruct E as ([m w] & h1 & E & E2).
  cbn [snd] in E2. inversion E2; subst h1 w. clear E2.
  destruct (dcopy_good (length h) fuel [] v h h' m v') as [G V]; [lia|intros l' x C; discriminate|exact E|].
  exact (copy_reach _ _ _ G _ _ R2 _ _ _ R V).
Qed.
Lemma mapM_each {A B} (f : A -> M B) : (forall x h h' r, f x h = (h', r) -> keeps h h') -> forall l h h' ys, mapM f l h = (h', Done ys) ->
  forall y, In y ys -> exists x ha hb, In x l /\ f x ha = (hb, Done y) /\ keeps h ha /\ keeps hb h'.
Proof.
  intros Kf. induction l as [|x l IH]; intros h h' ys E y I; cbn [mapM] in E; [inversion E; subst; contradiction|].
  apply bind_done in E. destruct E as (y1 & h1 & E1 & E). apply bind_done in E. destruct E as (ys1 & h2 & E2 & E). inversion E; subst.
  pose proof (mapM_keeps f Kf _ _ _ _ E2) as K2. destruct I as [<-|I].
  - exists x, h, h1. split; [cbn; auto|]. split; [exact E1|]. split; [apply keeps_refl|exact K2].
  - destruct (IH _ _ _ E2 _ I) as (x' & ha & hb & I1 & I2 & I3 & I4). exists x', ha, hb. split; [cbn; auto|]. split; [exact I2|]. split; [|exact I4].
    eapply keeps_trans; [eapply Kf; eauto|exact I3].
Qed.
Lemma mk_node_reach : forall fuel v nw h h' v' t fp, reads h v t fp -> mk_node fuel v nw h = (h', Done v') -> forall l, reach h' v' l -> length h <= l.
Proof.
  induction fuel as [|f IH]; intros v nw h h' v' t fp R E l Rl; [discriminate|]. rewrite mk_node_S in E.
  apply bind_done in E. destruct E as (c & h1 & E1 & E). pose proof (deepcopy_keeps _ _ _ _ _ E1) as K1.
  destruct (deepcopy_reads _ _ _ _ _ _ _ R E1) as (fp1 & R1 & F1 & N1).
  destruct (entries t) as [d|] eqn:Ed; [|erewrite bind_err in E by (eapply items_of_leaf; eauto); discriminate].
  destruct (reads_branch _ _ _ _ _ R1 Ed) as (lc & oc & dv & fp2 & -> & Q2 & Q3 & ND & Q5 & _ & _).
  erewrite bind_eq in E by (cbn; unfold bind, load; rewrite Q2, Q3; reflexivity). cbv beta in E.
  apply bind_done in E. destruct E as (kvs & h2 & E2 & E). apply bind_done in E. destruct E as (l' & h3 & E3 & E). inversion E; subst h3 v'. clear E.
  pose proof (mapM_keeps _ (node_step_keeps f) _ _ _ _ E2) as K2. pose proof (keeps_length _ _ K1) as L1. pose proof (keeps_length _ _ K2) as L2.
  unfold alloc in E3. inversion E3; subst h' l'. clear E3.
  inversion Rl as [|? ? ? ? ?|l0 o x ? Eo Io Ro]; subst; [lia|]. rewrite nth_app_new in Eo. inversion Eo; subst o. cbn in Io.
  apply in_map_iff in Io. destruct Io as ([k x'] & Hx & Io). cbn in Hx. subst x'.
  destruct (mapM_each _ (node_step_keeps f) _ _ _ _ E2 _ Io) as ([k0 x0] & ha & hb & I1 & I2 & I3 & I4).
  destruct (reads_items_in _ _ _ _ x0 Q5 (in_map snd _ _ I1)) as (t0 & fp0 & R0).
  pose proof (reads_keeps _ _ _ _ _ I3 R0) as R0a.
  assert (Kf : keeps hb (h2 ++ [ONode (mkMeta false nw [] []) kvs])) by (eapply keeps_trans; [exact I4|apply keeps_app]).
  destruct (branchb t0) eqn:Bt.
  - rewrite (node_step_branch f k0 x0 ha t0 fp0 R0a Bt) in I2. apply bind_done in I2. destruct I2 as (n & hn & I2 & I5). inversion I5; subst hn k0 x.
    pose proof (mk_node_refines _ _ _ _ _ _ _ _ R0a Bt I2 ltac:(discriminate)) as P. destruct (tcreate t0); [|discriminate]. destruct P as (v2 & fp3 & P1 & P2 & _). inversion P1; subst v2.
    pose proof (reach_keeps _ _ _ Ro _ _ _ Kf P2) as Rb. pose proof (IH _ _ _ _ _ _ _ R0a I2 _ Rb). pose proof (keeps_length _ _ I3). lia.
  - rewrite (node_step_leaf f k0 x0 ha t0 fp0 R0a Bt) in I2. destruct (valid_ty (ttype t0)); inversion I2; subst.
    assert (Kf1 : keeps h1 (h2 ++ [ONode (mkMeta false nw [] []) kvs])) by (eapply keeps_trans; [exact I3|exact Kf]).
    pose proof (reach_keeps _ _ _ Ro _ _ _ Kf1 R0) as Rb. eapply deepcopy_reach; [exact R|exact E1|].
    eapply reach_obj; [exact Q2| |exact Rb]. destruct oc; cbn in Q3; inversion Q3; subst; cbn; apply (in_map snd _ _ I1).
Qed.
Lemma p_new fuel init nw h t t' m d : Reads h init t -> tdepth t < fuel -> built t t' -> t' = TNode m d ->
  exists h' v, new_cfg fuel (Some init) nw h = (h', Done v) /\ keeps h h' /\ Reads h' v (TNode (mkMeta false nw [] []) d) /\ (TreeShaped h init t -> Cfg h' v (TNode (mkMeta false nw [] []) d)) /\
    independent h' init v.
Proof.
  intros [fp R] D B ->. assert (Bt : branchb t = true) by (inversion B; subst; apply branch_iff; unfold is_branch; congruence).
  destruct (mk_node fuel init nw h) as [h' r] eqn:E. pose proof (mk_node_fuel _ _ _ _ _ _ _ _ R D E) as Nr.
  pose proof (mk_node_refines _ _ _ _ _ _ _ _ R Bt E Nr) as Q. rewrite (proj1 (built_iff _ _) B) in Q.
  destruct Q as (v & fp' & -> & R' & F & N). pose proof (mk_node_keeps _ _ _ _ _ _ E) as K. cbn [with_new] in R'.
  exists h', v. split; [exact E|]. split; [exact K|]. split; [exists fp'; exact R'|]. split.
  - intros (fp0 & R0 & N0). split; [exists fp'; split; [exact R'|apply N; destruct (reads_det _ _ _ _ _ _ R R0) as [_ ->]; exact N0]|].
    split; [eexists; eexists; reflexivity|].
    assert (G : (forall a b, built a b -> no_plain_dict b) /\ (forall a b, built_items a b -> forall k c, dget b k = Some c -> no_plain_dict c)).
    { apply built_ind2.
      - intros a x y Ha Hb IH [|k p] e H; [discriminate|]. cbn in H. destruct (dget y k) as [c|] eqn:Ek; [|discriminate]. exact (IH _ _ Ek p e H).
      - intros k c C. discriminate.
      - intros k x y a b Hx Px Hy Py k' c H. cbn in H. destruct (String.eqb k k'); [inversion H; subst; exact Px|eapply Py; eauto].
      - intros k x a b Lx Tx Hy Py k' c H. cbn in H. destruct (String.eqb k k'); [inversion H; subst|eapply Py; eauto].
        intros p e A. destruct (entries c) eqn:Ec; [exfalso; apply Lx; unfold is_branch; congruence|]. apply at_path_leaf in A; [|exact Ec]. destruct A as [_ <-]. discriminate. }
    intros [|k p] e H; [discriminate|]. exact (proj1 G _ _ B (k :: p) e H).
  - intros l R1 R2. pose proof (reach_lt _ _ _ R1 _ _ _ K R). pose proof (mk_node_reach _ _ _ _ _ _ _ _ R E _ R2). lia.
Qed.
Lemma p_new_invalid fuel init nw h t : Reads h init t -> tdepth t < fuel -> is_branch t -> (forall t', ~ built t t') ->
  exists h', new_cfg fuel (Some init) nw h = (h', Raise XAssertion) /\ keeps h h'.
Proof.
  intros [fp R] D B N. destruct (mk_node fuel init nw h) as [h' r] eqn:E. exists h'. split; [|eapply mk_node_keeps; eauto].
  pose proof (mk_node_refines _ _ _ _ _ _ _ _ R (proj1 (branch_iff _) B) E (mk_node_fuel _ _ _ _ _ _ _ _ R D E)) as Q.
  destruct (tcreate t) as [t'|] eqn:Et; [exfalso; apply (N t'), built_iff, Et|]. subst. exact E.
Qed.
Lemma p_new_not_dict fuel init nw h t : Reads h init t -> t <> TAtom ANone -> tdepth t < fuel -> ~ is_branch t -> exists h', new_cfg fuel (Some init) nw h = (h', Raise XAttribute) /\ keeps h h'.
Proof.
  intros [fp R] _ D B. destruct (mk_node fuel init nw h) as [h' r] eqn:E. exists h'. split; [|eapply mk_node_keeps; eauto].
  cbn [new_cfg]. rewrite E. f_equal. apply (mk_node_leaf _ _ _ _ _ _ _ _ R (proj2 (branch_false t) B) E (mk_node_fuel _ _ _ _ _ _ _ _ R D E)).
Qed.
Lemma p_new_empty fuel nw h : exists h' v, new_cfg (S (S fuel)) None nw h = (h', Done v) /\ keeps h h' /\ Cfg h' v (TNode (mkMeta false nw [] []) []).
Proof.
  cbn [new_cfg]. erewrite bind_eq by reflexivity.
  assert (R : Reads (h ++ [ODict []]) (VRef (length h)) (TDict [])) by (exists [length h]; econstructor; [apply nth_app_new|constructor|constructor]).
  assert (D : tdepth (TDict []) < S (S fuel)) by (cbn; lia).
  destruct (p_new (S (S fuel)) (VRef (length h)) nw (h ++ [ODict []]) (TDict []) (TNode plain_meta []) plain_meta [] R D) as (h' & v & E & K & _ & C & _); [econstructor; [reflexivity|constructor]|reflexivity|].
  exists h', v. split; [exact E|]. split; [eapply keeps_trans; [apply keeps_app|exact K]|]. apply C. exists [length h]. split; [|repeat constructor; auto].
  econstructor; [apply nth_app_new|constructor|constructor].
Qed.
