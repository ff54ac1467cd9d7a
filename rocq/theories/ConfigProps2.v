(* Configuration properties at the API level: merging. *)
From Coq Require Import ZArith String Ascii List Bool Arith Lia.
From Verif Require Import ConfigModel ConfigSpec ConfigHeap ConfigCopy ConfigTree ConfigMerge ConfigMergeHeap ConfigPaths ConfigFreeze ConfigList ConfigDump ConfigProps.
Import ListNotations.
Local Open Scope list_scope.
Local Open Scope nat_scope.

Lemma built_iff t t' : built t t' <-> tcreate t = Some t'.
Proof. split; [apply (proj1 built_create)|apply create_built]. Qed.
Lemma branch_false t : branchb t = false <-> ~ is_branch t.
Proof. rewrite branch_iff. destruct (branchb t); split; congruence. Qed.
Lemma untouched_evolves fp h h' self t : reads h self t fp -> evolves fp h h' -> Untouched h h' self.
Proof.
  intros R F w tw [fw Rw] A. exists fw. eapply reads_evolves; [exact F|exact Rw|]. intros l L1 L2. eapply A; eauto.
Qed.
Lemma cast_branch target t w : cast target t w -> is_branch t <-> is_branch w.
Proof. intros C. inversion C; subst; [tauto| |]; split; intros H; exfalso; apply H; reflexivity. Qed.


(* the facts shared by all statements *)
Lemma merge_facts literal_eval fuel self other h h' r ta tb : Cfg h self tb -> TreeShaped h other ta -> is_cfg ta -> Apart h other self ->
  merge_from_other_cfg literal_eval fuel self other h = (h', r) -> r <> Raise XRecursion ->
  exists rm tb', (exists d, tb = TNode rm d) /\ TreeShaped h' self tb' /\ Untouched h h' self /\ keys_distinct ta /\ tmerge literal_eval rm ta tb [] = (tb', r).
Proof.
  intros ((fpb & Rb & Nb) & (rm & db & ->) & P) (fpa & Ra & Na) Ca A E Hr.
  assert (HM : has_meta h self rm) by (inversion Rb; subst; eexists; eexists; split; [reflexivity|eauto]).
  assert (Dis : forall l, In l fpa -> In l fpb -> False) by (intros l; eapply A; eauto).
  destruct (merge_refines literal_eval rm self fuel _ _ _ _ _ _ _ _ _ _ HM Ra Rb Na Nb Dis E) as (tb' & fpb' & R' & N' & W & Ev & _ & T).
  exists rm, tb'. split; [eauto|]. split; [exists fpb'; auto|]. split; [eapply untouched_evolves; eauto|]. split; [eapply reads_distinct; eauto|].
  symmetry. apply T; [exact Hr|]. apply cfg_nodeb, Ca.
Qed.
Lemma tmerge_cfg literal_eval rm ta tb tb' r : is_cfg ta -> is_cfg tb -> tmerge literal_eval rm ta tb [] = (tb', r) -> is_cfg tb'.
Proof. intros (ma & da & ->) (mb & db & ->) T. destruct (tmerge_node _ _ (TNode ma da) da _ _ _ _ _ eq_refl T) as (db' & -> & _). eexists; eexists; reflexivity. Qed.


Lemma p_merge_leaves literal_eval fuel self other h h' ta tb : Cfg h self tb -> TreeShaped h other ta -> is_cfg ta -> Apart h other self ->
  merge_from_other_cfg literal_eval fuel self other h = (h', Done tt) -> exists reg tb', (exists d, tb = TNode reg d) /\ TreeShaped h' self tb' /\ is_cfg tb' /\
    forall p v, leaf_at ta p v -> Landed literal_eval reg tb tb' p v.
Proof.
  intros Cb Ta Ca A E. destruct (merge_facts _ _ _ _ _ _ _ _ _ Cb Ta Ca A E ltac:(discriminate)) as (rm & tb' & Hm & T' & U & K & T).
  exists rm, tb'. split; [exact Hm|]. split; [exact T'|]. split; [eapply tmerge_cfg; [exact Ca| |exact T]; destruct Hm as (d & ->); eexists; eexists; reflexivity|].
  intros p v [Ap Lv]. apply branch_false in Lv.
  assert (Nb : nodeb tb = true) by (destruct Hm as (d & ->); reflexivity).
  assert (Ba : branchb ta = true) by (destruct Ca as (m & d & ->); reflexivity).
  destruct (tmerge_landed _ _ p ta tb [] tb' v K T Ba Nb Ap) as [(o & A1 & [(A2 & w & w' & A3 & A4 & A5)|(A2 & _)])|[(q & k & mq & A1 & A2 & A3 & [(A4 & _)|[(A4 & A5 & A6)|(A4 & A5 & A6)]])|A1]]; try congruence.
  - left. exists o, w, w'. auto.
  - right. left. exists q, k, mq. auto 10.
  - right. left. exists q, k, mq. auto 10.
  - right. right. exact A1.
Qed.
Lemma p_merge_subtrees literal_eval fuel self other h h' ta tb : Cfg h self tb -> TreeShaped h other ta -> is_cfg ta -> Apart h other self ->
  merge_from_other_cfg literal_eval fuel self other h = (h', Done tt) -> exists reg tb', (exists d, tb = TNode reg d) /\ Reads h' self tb' /\
    forall p m d, at_path ta p = Some (TNode m d) ->
      (exists m' d' d2, at_path tb p = Some (TNode m' d') /\ at_path tb' p = Some (TNode m' d2)) \/
      (exists q k mq c, starts_with (q ++ [k]) p /\ lacks tb q k mq /\ m_new mq = true /\ built (TNode m d) c /\ at_path tb' p = Some c) \/
      (ignored_at reg [] tb p /\ at_path tb' p = None).
Proof.
  intros Cb Ta Ca A E. destruct (merge_facts _ _ _ _ _ _ _ _ _ Cb Ta Ca A E ltac:(discriminate)) as (rm & tb' & Hm & [fp' [T' _]] & U & K & T).
  exists rm, tb'. split; [exact Hm|]. split; [exists fp'; exact T'|].
  intros p m d Ap.
  assert (Nb : nodeb tb = true) by (destruct Hm as (d0 & ->); reflexivity).
  assert (Ba : branchb ta = true) by (destruct Ca as (m0 & d0 & ->); reflexivity).
  destruct (tmerge_landed _ _ p ta tb [] tb' (TNode m d) K T Ba Nb Ap) as [(o & A1 & [(A2 & _)|(A2 & (mo & do & ->) & m2 & d2 & A3)])|[(q & k & mq & A1 & A2 & A3 & [(A4 & v' & A5 & A6)|[(A4 & A5)|(A4 & A5)]])|A1]]; try discriminate.
  - left. destruct (tmerge_preserved _ _ ta tb [] tb' _ K (proj2 (proj2 Cb)) Ba Nb T) as (_ & _ & Q). destruct (Q _ _ _ A1) as (dq' & ex & Q1 & _).
    exists mo, do, dq'. auto.
  - right. left. exists q, k, mq, v'. rewrite built_iff. auto 10.
  - right. right. exact A1.
Qed.
(* whatever the outcome (unless Python's recursion limit is hit): nothing else changes *)
Lemma p_merge_keeps literal_eval fuel self other h h' r ta tb : Cfg h self tb -> TreeShaped h other ta -> is_cfg ta -> Apart h other self ->
  merge_from_other_cfg literal_eval fuel self other h = (h', r) -> r <> Raise XRecursion -> exists tb', TreeShaped h' self tb' /\ is_cfg tb' /\ Reads h' other ta /\ Untouched h h' self /\
    (* entries that the other configuration does not have *)
    (forall p t, at_path tb p = Some t -> at_path ta p = None -> at_path tb' p = Some t) /\
    (* the attributes of every CfgNode stay; its keys stay in their order, new ones come last and only where they are allowed *)
    (forall q mq dq, at_path tb q = Some (TNode mq dq) -> exists dq' extra, at_path tb' q = Some (TNode mq dq') /\ keys dq' = keys dq ++ extra /\
       (m_new mq = false -> extra = []) /\ (forall k, In k extra -> at_path ta (q ++ [k]) <> None) /\
       (r = Done tt -> m_new mq = true -> forall ma da, at_path ta q = Some (TNode ma da) -> extra = filter (fun k => negb (dhas dq k)) (keys da))).
Proof.
  intros Cb Ta Ca A E Hr. destruct (merge_facts _ _ _ _ _ _ _ _ _ Cb Ta Ca A E Hr) as (rm & tb' & Hm & T' & U & K & T).
  assert (Nb : nodeb tb = true) by (destruct Hm as (d0 & ->); reflexivity).
  assert (Ba : branchb ta = true) by (destruct Ca as (m0 & d0 & ->); reflexivity).
  exists tb'. split; [exact T'|]. split; [eapply tmerge_cfg; [exact Ca|apply cfg_nodeb; exact Nb|exact T]|].
  split; [apply U; [destruct Ta as (fp & ? & _); exists fp; auto|exact A]|]. split; [exact U|].
  destruct (tmerge_preserved _ _ ta tb [] tb' _ K (proj2 (proj2 Cb)) Ba Nb T) as (_ & Q2 & Q3). split; [exact Q2|].
  intros q mq dq Hq. destruct (Q3 _ _ _ Hq) as (dq' & ex & E1 & E2 & E3 & E4 & E5). exists dq', ex. split; [exact E1|]. split; [exact E2|]. split; [exact E3|]. split; [exact E4|].
  intros R1 R2 ma da R3. apply (E5 R1 R2 _ _ R3 eq_refl).
Qed.
Lemma p_merge_types literal_eval fuel self other h h' r ta tb : Cfg h self tb -> TreeShaped h other ta -> is_cfg ta -> Apart h other self ->
  merge_from_other_cfg literal_eval fuel self other h = (h', r) -> r <> Raise XRecursion -> exists tb', Reads h' self tb' /\
    forall p t, at_path tb p = Some t -> exists t', at_path tb' p = Some t' /\ ttype t' = ttype t.
Proof.
  intros Cb Ta Ca A E Hr. destruct (merge_facts _ _ _ _ _ _ _ _ _ Cb Ta Ca A E Hr) as (rm & tb' & Hm & (fp & T' & _) & U & K & T).
  assert (Nb : nodeb tb = true) by (destruct Hm as (d0 & ->); reflexivity).
  assert (Ba : branchb ta = true) by (destruct Ca as (m0 & d0 & ->); reflexivity).
  exists tb'. split; [exists fp; exact T'|]. apply (tmerge_preserved _ _ ta tb [] tb' _ K (proj2 (proj2 Cb)) Ba Nb T).
Qed.
Lemma p_merge_errors literal_eval fuel self other h h' e ta tb : Cfg h self tb -> TreeShaped h other ta -> is_cfg ta -> Apart h other self ->
  merge_from_other_cfg literal_eval fuel self other h = (h', Raise e) -> e <> XRecursion -> exists reg, (exists d, tb = TNode reg d) /\ Blame literal_eval reg ta tb e.
Proof.
  intros Cb Ta Ca A E Hr. destruct (merge_facts _ _ _ _ _ _ _ _ _ Cb Ta Ca A E ltac:(congruence)) as (rm & tb' & Hm & T' & U & K & T).
  assert (Nb : nodeb tb = true) by (destruct Hm as (d0 & ->); reflexivity).
  assert (Ba : branchb ta = true) by (destruct Ca as (m0 & d0 & ->); reflexivity).
  exists rm. split; [exact Hm|]. destruct (tmerge_blame _ _ ta tb [] tb' e K T Ba Nb) as [(q & k & mq & B1 & B2 & B3 & B4 & B5)|[B|[B|(B1 & B2)]]].
  - left. exists q, k, mq. cbn [app] in *. split; [exact B1|]. split; [exact B2|]. split; [exact B3|]. split; [exact B4|].
    destruct B5 as [(new & msg & B5 & B6)|(B5 & B6)].
    + left. exists new, msg. split; [apply dget_in, B5|exact B6].
    + right. split; [apply dget_none, B5|exact B6].
  - right. left. exact B.
  - right. right. left. exact B.
  - right. right. right. split; [exact B1|]. intros c Hc. apply built_iff in Hc. congruence.
Qed.
(* an unknown key makes the merge fail *)
Lemma lacks_unique tb q k mq q' k' mq' : lacks tb q k mq -> lacks tb q' k' mq' -> starts_with (q' ++ [k']) (q ++ [k]) -> q' = q /\ k' = k /\ mq' = mq.
Proof.
  intros (d & A & N) (d' & A' & N') (r & E). destruct r as [|x r _] using rev_ind.
  - rewrite app_nil_r in E. apply app_inj_tail in E. destruct E as [-> ->]. split; [reflexivity|]. split; [reflexivity|]. congruence.
  - exfalso. rewrite app_assoc in E. apply app_inj_tail in E. destruct E as [E _].
    pose proof (at_path_snoc_none tb q' k' mq' (ex_intro _ d' (conj A' N'))) as Z. rewrite E, at_path_app, Z in A. discriminate.
Qed.
Lemma p_merge_unknown literal_eval fuel self other h h' r ta reg d q k mq : Cfg h self (TNode reg d) -> TreeShaped h other ta -> is_cfg ta -> Apart h other self ->
  merge_from_other_cfg literal_eval fuel self other h = (h', r) -> at_path ta (q ++ [k]) <> None -> lacks (TNode reg d) q k mq -> m_new mq = false -> ~ In (join (q ++ [k])) (m_dep reg) ->
  exists e, r = Raise e.
Proof.
  intros Cb Ta Ca A E Ap L Nw Nd. destruct r as [[]|e]; [|eauto]. exfalso.
  destruct (merge_facts _ _ _ _ _ _ _ _ _ Cb Ta Ca A E ltac:(discriminate)) as (rm & tb' & (d0 & Hm) & T' & U & K & T). inversion Hm; subst rm d0.
  assert (Ba : branchb ta = true) by (destruct Ca as (m0 & d0 & ->); reflexivity).
  destruct (at_path ta (q ++ [k])) as [v|] eqn:Av; [|congruence].
  destruct (tmerge_landed _ _ (q ++ [k]) ta (TNode reg d) [] tb' v K T Ba eq_refl Av) as [(o & A1 & _)|[(q' & k' & mq' & A1 & A2 & A3 & _)|((q' & k' & mq' & A1 & A2 & A3 & A4) & A5)]].
  - rewrite (at_path_snoc_none _ _ _ _ L) in A1. discriminate.
  - destruct (lacks_unique _ _ _ _ _ _ _ L A2 A1) as (-> & -> & ->). congruence.
  - destruct (lacks_unique _ _ _ _ _ _ _ L A2 A1) as (-> & -> & ->). contradiction.
Qed.
(* a value of the wrong type makes the merge fail *)
Lemma decodes_det literal_eval v w w' : decodes literal_eval v w -> decodes literal_eval v w' -> w' = w.
Proof. intros H1 H2. inversion H1; subst; inversion H2; subst; try congruence; cbn in *; congruence. Qed.
Lemma p_merge_mismatch literal_eval fuel self other h h' r ta tb p v o : Cfg h self tb -> TreeShaped h other ta -> is_cfg ta -> Apart h other self ->
  merge_from_other_cfg literal_eval fuel self other h = (h', r) -> at_path ta p = Some v -> at_path tb p = Some o ->
  (is_branch v /\ ~ is_cfg o) \/ (exists w, decodes literal_eval v w /\ forall w', ~ cast (ttype o) w w') -> exists e, r = Raise e.
Proof.
  intros Cb Ta Ca A E Av Ao W. destruct r as [[]|e]; [|eauto]. exfalso.
  destruct (merge_facts _ _ _ _ _ _ _ _ _ Cb Ta Ca A E ltac:(discriminate)) as (rm & tb' & Hm & T' & U & K & T).
  assert (Nb : nodeb tb = true) by (destruct Hm as (d0 & ->); reflexivity).
  assert (Ba : branchb ta = true) by (destruct Ca as (m0 & d0 & ->); reflexivity).
  assert (Lk : forall q k mq, starts_with (q ++ [k]) p -> lacks tb q k mq -> False).
  { intros q k mq [s ->] L. rewrite at_path_app, (at_path_snoc_none _ _ _ _ L) in Ao. discriminate. }
  destruct (tmerge_landed _ _ p ta tb [] tb' v K T Ba Nb Av) as [(o' & A1 & A2)|[(q' & k' & mq' & A1 & A2 & A3 & _)|((q' & k' & mq' & A1 & A2 & A3 & A4) & A5)]]; [|eauto|eauto].
  rewrite Ao in A1. inversion A1; subst o'. destruct W as [[W1 W2]|(w & W1 & W2)].
  - destruct A2 as [(A2 & _)|(_ & A2 & _)]; [apply branch_iff in W1; congruence|contradiction].
  - destruct A2 as [(A2 & w1 & w' & A3 & A4 & _)|(A2 & _)].
    + rewrite (decodes_det _ _ _ _ W1 A3) in A4. apply (W2 _ A4).
    + inversion W1; subst; try discriminate. apply branch_iff in A2. contradiction.
Qed.
(* the recursion limit: it is not reached when it exceeds the depth of the other configuration *)
Lemma p_merge_depth literal_eval fuel self other h h' r ta tb : Cfg h self tb -> TreeShaped h other ta -> Apart h other self ->
  (forall s, literal_eval s <> Raise XRecursion) -> tdepth ta < fuel -> merge_from_other_cfg literal_eval fuel self other h = (h', r) -> r <> Raise XRecursion.
Proof.
  intros ((fpb & Rb & Nb) & (rm & db & ->) & P) (fpa & Ra & Na) A NR D E ->.
  assert (HM : has_meta h self rm) by (inversion Rb; subst; eexists; eexists; split; [reflexivity|eauto]).
  assert (Dis : forall l, In l fpa -> In l fpb -> False) by (intros l; eapply A; eauto).
  destruct (merge_refines literal_eval rm self fuel _ _ _ _ _ _ _ _ _ _ HM Ra Rb Na Nb Dis E) as (tb' & fpb' & R' & N' & W & Ev & F & _).
  specialize (F eq_refl NR). lia.
Qed.
(* merging something that is not a CfgNode *)
Lemma p_merge_not_cfg literal_eval fuel self other h ta : Reads h other ta -> ~ is_cfg ta -> merge_from_other_cfg literal_eval (S fuel) self other h = (h, Raise XAssertion).
Proof.
  intros [fp R] N. unfold merge_from_other_cfg. cbn [merge_a_into_b]. unfold bind at 1, get at 1. rewrite (reads_is_node _ _ _ _ R).
  destruct (nodeb ta) eqn:E; [apply cfg_nodeb in E; contradiction|]. reflexivity.
Qed.
