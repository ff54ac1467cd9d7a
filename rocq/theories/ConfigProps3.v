(* Configuration properties at the API level: override lists, registries, clone, dump, attributes, constructor. *)
From Coq Require Import ZArith String Ascii List Bool Arith Lia.
From Verif Require Import ConfigModel ConfigSpec ConfigHeap ConfigCopy ConfigTree ConfigMerge ConfigMergeHeap ConfigPaths ConfigFreeze ConfigList ConfigDump ConfigProps ConfigProps2.
Import ListNotations.
Local Open Scope list_scope.
Local Open Scope nat_scope.

(* ---------------------------------------------------------------- merge_from_list *)
Lemma fit_pairs h self t fp (ps : list (val * val)) : reads h self t fp ->
  (forall k v, In (k, v) ps -> exists tv, Fit h self v tv) ->
  forall k v, In (k, v) ps -> exists tv fpv, reads h v tv fpv /\ NoDup fpv /\ (fpv = [] \/ branchb tv = true /\ forall x, In x fpv -> In x fp -> False).
Proof.
  intros R H k v I. destruct (H k v I) as (tv & [F|(B & (fpv & Rv & Nv) & A)]).
  - exists tv, []. split; [exact F|]. split; [constructor|auto].
  - exists tv, fpv. split; [exact Rv|]. split; [exact Nv|]. right. split; [apply branch_iff, B|]. intros x X1 X2. eapply A; eauto.
Qed.
Lemma F2_length {A B} (R : A -> B -> Prop) l l' : Forall2 R l l' -> length l = length l'.
Proof. induction 1; cbn; congruence. Qed.
Lemma p_list fuel literal_eval self h h' r reg d l : TreeShaped h self (TNode reg d) -> (forall k v, In (k, v) (pairs l) -> exists tv, Fit h self v tv) ->
  merge_from_list literal_eval fuel self l h = (h', r) ->
  exists d' applied, TreeShaped h' self (TNode reg d') /\ Untouched h h' self /\
    overridden_all literal_eval reg (TNode reg d) applied (TNode reg d') /\ Forall2 (pair_is h) (firstn (length applied) (pairs l)) applied /\
    (r = Done tt -> length applied = length (pairs l)) /\ (forall e, r = Raise e -> pairs l <> [] /\ length applied < length (pairs l) \/ (e = XAssertion /\ applied = [] /\ h' = h)).
Proof.
  intros (fp & R & N) F E. unfold merge_from_list in E. unfold bind at 1, assert_ at 1 in E. destruct (Nat.even (length l)).
  - destruct (overrides_ok literal_eval reg fuel self _ _ _ _ _ _ R N (fit_pairs _ _ _ _ _ R F) E) as (d' & fp' & ap & rest & R' & N' & W & Ev & O & P & Hrest & Hd & Hr).
    exists d', ap. split; [exists fp'; auto|]. split; [eapply untouched_evolves; eauto|]. split; [exact O|]. split; [exact P|].
    assert (Len : length ap <= length (pairs l)). { pose proof (F2_length _ _ _ P) as X. rewrite firstn_length in X. lia. }
    assert (Lr : length rest = length (pairs l) - length ap) by (rewrite Hrest; apply skipn_length).
    split.
    + intros Hd'. rewrite (Hd Hd') in Lr. cbn in Lr. lia.
    + intros e He. left. specialize (Hr e He). assert (length rest <> 0) by (destruct rest; [congruence|discriminate]).
      split; [|lia]. intros Hn. rewrite Hn in Lr. cbn in Lr. lia.
  - inversion E; subst. exists d, []. split; [exists fp; auto|]. split; [intros w tw Rw _; exact Rw|]. split; [constructor|]. split; [constructor|].
    split; [discriminate|]. intros e He. inversion He. auto.
Qed.
Lemma p_list_ok fuel literal_eval self h h' reg d l : TreeShaped h self (TNode reg d) -> (forall k v, In (k, v) (pairs l) -> exists tv, Fit h self v tv) ->
  merge_from_list literal_eval fuel self l h = (h', Done tt) ->
  exists d' os, TreeShaped h' self (TNode reg d') /\ Untouched h h' self /\ Forall2 (pair_is h) (pairs l) os /\ overridden_all literal_eval reg (TNode reg d) os (TNode reg d').
Proof.
  intros T F E. destruct (p_list _ _ _ _ _ _ _ _ _ T F E) as (d' & os & T' & U & O & P & L & _).
  exists d', os. split; [exact T'|]. split; [exact U|]. split; [|exact O]. rewrite (L eq_refl), firstn_all in P. exact P.
Qed.
Lemma p_list_error fuel literal_eval self h h' e reg d l : TreeShaped h self (TNode reg d) -> (forall k v, In (k, v) (pairs l) -> exists tv, Fit h self v tv) ->
  merge_from_list literal_eval fuel self l h = (h', Raise e) ->
  exists n d' os, TreeShaped h' self (TNode reg d') /\ Untouched h h' self /\ (n < length (pairs l) \/ n = 0) /\ Forall2 (pair_is h) (firstn n (pairs l)) os /\ overridden_all literal_eval reg (TNode reg d) os (TNode reg d').
Proof.
  intros T F E. destruct (p_list _ _ _ _ _ _ _ _ _ T F E) as (d' & os & T' & U & O & P & _ & L).
  exists (length os), d', os. split; [exact T'|]. split; [exact U|]. split; [|auto]. destruct (L e eq_refl) as [[_ L1]|(_ & -> & _)]; auto.
Qed.
(* one override changes the addressed entry and nothing else *)
Lemma p_override_frame literal_eval reg t key v t' p : overridden literal_eval reg t key v t' -> dotted key p -> ~ In key (m_dep reg) ->
  exists orig w w', at_path t p = Some orig /\ (decodes literal_eval v w \/ built v w) /\ cast (ttype orig) w w' /\ at_path t' p = Some w' /\
    (forall q, ~ starts_with p q -> ~ starts_with q p -> at_path t' q = at_path t q) /\
    (forall q k r c d, p = q ++ k :: r -> at_path t q = Some c -> entries c = Some d ->
       exists c' d', at_path t' q = Some c' /\ entries c' = Some d' /\ ttype c' = ttype c /\ keys d' = keys d /\ (forall m, c = TNode m d -> c' = TNode m d')).
Proof.
  intros O D Nd. inversion O as [X|p' orig w w' X1 X2 X3 X4 X5 X6]; subst; [contradiction|].
  assert (p' = p) as -> by (rewrite (dotted_split _ _ X3), (dotted_split _ _ D); reflexivity).
  exists orig, w, w'. split; [exact X4|]. split; [exact X5|]. split; [exact X6|]. split; [eapply set_path_get; eauto|]. split.
  - intros q Q1 Q2. apply set_path_other; auto.
  - intros q k r c d Hp Hq Hd. destruct (set_path_above p t w' q k r c d Hp ltac:(congruence) Hq Hd) as (d' & A1 & A2). rewrite A1.
    exists (set_items c d'), d'. split; [reflexivity|]. split; [destruct c; inversion Hd; reflexivity|]. split; [destruct c; inversion Hd; reflexivity|]. split; [exact A2|].
    intros m ->. reflexivity.
Qed.
Lemma p_list_odd literal_eval fuel self l h : Nat.odd (length l) = true -> merge_from_list literal_eval fuel self l h = (h, Raise XAssertion).
Proof. intros H. unfold merge_from_list, bind, assert_. rewrite <- Nat.negb_odd, H. reflexivity. Qed.
Lemma pairs_app {A} (l1 l2 : list A) : Nat.even (length l1) = true -> pairs (l1 ++ l2) = pairs l1 ++ pairs l2.
Proof.
  assert (G : forall n (l1 : list A), length l1 <= n -> Nat.even (length l1) = true -> pairs (l1 ++ l2) = pairs l1 ++ pairs l2).
  { induction n as [|n IH]; intros [|x [|y r]] L E; try reflexivity; try discriminate; cbn in L; [lia|]. cbn. f_equal. apply IH; [lia|exact E]. }
  apply (G (length l1)). lia.
Qed.
Lemma overrides_app literal_eval fuel self ps qs h : overrides literal_eval fuel self (ps ++ qs) h = (overrides literal_eval fuel self ps ;;! overrides literal_eval fuel self qs) h.
Proof.
  revert h. induction ps as [|[k v] ps IH]; intros h; [reflexivity|]. cbn [app overrides]. unfold bind at 1 2. unfold bind at 1.
  destruct (override_any literal_eval fuel self k v h) as [h1 [x|e]]; [|reflexivity]. rewrite IH. reflexivity.
Qed.
Lemma p_list_in_order literal_eval fuel self l1 l2 h : Nat.even (length l1) = true -> Nat.even (length l2) = true ->
  merge_from_list literal_eval fuel self (l1 ++ l2) h = (merge_from_list literal_eval fuel self l1 ;;! merge_from_list literal_eval fuel self l2) h.
Proof.
  intros E1 E2. unfold merge_from_list. rewrite app_length, Nat.even_add, E1, E2, pairs_app by exact E1.
  unfold bind at 1, assert_ at 1. cbn [Bool.eqb]. rewrite overrides_app. unfold bind, assert_. reflexivity.
Qed.
Lemma p_list_unknown literal_eval fuel self key v l h reg d q c dc k r : Nat.even (length l) = true -> Reads h self (TNode reg d) -> ~ In key (m_dep reg) -> ~ In key (keys (m_ren reg)) ->
  dotted key (q ++ k :: r) -> at_path (TNode reg d) q = Some c -> entries c = Some dc -> ~ In k (keys dc) ->
  merge_from_list literal_eval fuel self (VAtom (AStr key) :: v :: l) h = (h, Raise XAssertion).
Proof.
  intros El [fp R] N1 N2 D A Ed Nk. unfold merge_from_list. cbn [length]. change (Nat.even (S (S (length l)))) with (Nat.even (length l)). rewrite El.
  unfold bind at 1, assert_ at 1. cbn [pairs overrides override_any]. apply bind_err. eapply override_missing; eauto.
Qed.
Lemma p_list_renamed literal_eval fuel self key new msg v l h reg d : Nat.even (length l) = true -> Reads h self (TNode reg d) -> ~ In key (m_dep reg) -> dget (m_ren reg) key = Some (new, msg) ->
  merge_from_list literal_eval fuel self (VAtom (AStr key) :: v :: l) h = (h, Raise (XRenamed key new msg)).
Proof.
  intros El [fp R] N1 N2. unfold merge_from_list. cbn [length]. change (Nat.even (S (S (length l)))) with (Nat.even (length l)). rewrite El.
  unfold bind at 1, assert_ at 1. cbn [pairs overrides override_any]. apply bind_err. eapply override_renamed; eauto.
Qed.
Lemma p_list_deprecated literal_eval fuel self key v l h reg d : Nat.even (length l) = true -> Reads h self (TNode reg d) -> In key (m_dep reg) ->
  merge_from_list literal_eval fuel self (VAtom (AStr key) :: v :: l) h = merge_from_list literal_eval fuel self l h.
Proof.
  intros El [fp R] I. unfold merge_from_list. cbn [length]. change (Nat.even (S (S (length l)))) with (Nat.even (length l)). rewrite El.
  unfold bind at 1 2, assert_ at 1 2. cbn [pairs overrides override_any].
  pose proof (key_of_meta _ _ _ _ _ R) as HM.
  assert (O : override literal_eval fuel self key v h = (h, Done tt)); [|rewrite (bind_eq _ _ _ _ _ O); reflexivity]. unfold override, key_is_deprecated.
  erewrite bind_eq; [|rewrite (bind_eq _ _ _ _ _ HM); reflexivity]. cbv beta. rewrite (proj2 (has_in _ _) I). reflexivity.
Qed.
(* a value of the wrong type *)
Lemma p_list_mismatch literal_eval fuel self key p v tv w orig l h reg d : Nat.even (length l) = true -> Reads h self (TNode reg d) -> ~ In key (m_dep reg) -> ~ In key (keys (m_ren reg)) ->
  dotted key p -> at_path (TNode reg d) p = Some orig -> Reads h v tv -> decodes literal_eval tv w -> (forall w', ~ cast (ttype orig) w w') ->
  exists h', merge_from_list literal_eval fuel self (VAtom (AStr key) :: v :: l) h = (h', Raise XValue) /\ keeps h h'.
Proof.
  intros El [fp R] N1 N2 D A [fpv Rv] Dw Nc. unfold merge_from_list. cbn [length]. change (Nat.even (S (S (length l)))) with (Nat.even (length l)). rewrite El.
  unfold bind at 1, assert_ at 1. cbn [pairs overrides override_any].
  pose proof (key_of_meta _ _ _ _ _ R) as HM.
  assert (Hp : exists q k, p = q ++ [k]). { destruct D as (Np & _ & _). destruct p as [|k q _] using rev_ind; [congruence|eauto]. }
  destruct Hp as (q & k & ->). pose proof A as A0. rewrite at_path_app in A. destruct (at_path (TNode reg d) q) as [c|] eqn:Aq; [|discriminate].
  cbn in A. destruct (entries c) as [dc|] eqn:Ec; [|discriminate]. destruct (dget dc k) as [x|] eqn:Ek; [|discriminate]. inversion A; subst x.
  destruct (walk_here q h self _ fp c R Aq) as (y & fpy & W & Ry).
  assert (Dec : exists h1 v1 fp1, decode literal_eval fuel v h = (h1, Done v1) /\ reads h1 v1 w fp1).
  { assert (Bv : branchb tv = false) by (inversion Dw; subst; try reflexivity; apply branch_false; auto).
    destruct (decode literal_eval fuel v h) as [h1 r1] eqn:Ed.
    assert (Hr : r1 <> Raise XRecursion).
    { unfold decode in Ed. unfold bind at 1, get at 1 in Ed. rewrite (reads_is_dict _ _ _ _ Rv), Bv in Ed. inversion Dw; subst.
      - inversion Rv; subst. rewrite H in Ed. destruct (alloc_lit_ok l0 h) as (h2 & v2 & fp2 & E2 & _). rewrite E2 in Ed. inversion Ed. discriminate.
      - inversion Rv; subst. rewrite H in Ed. destruct H0; subst; inversion Ed; discriminate.
      - destruct v as [[]| |]; try (inversion Ed; discriminate). inversion Rv; subst. cbn in H. congruence. }
    pose proof (decode_refines _ _ _ _ _ _ _ _ Rv Ed Hr) as Q.
    destruct (tdecode literal_eval tv) as [t'|e] eqn:Et.
    - pose proof (tdecode_decodes _ _ _ Bv Et) as D2. rewrite (decodes_det _ _ _ _ D2 Dw) in *. destruct Q as (v' & fp' & -> & Q2 & _). eauto.
    - exfalso. unfold tdecode in Et. rewrite Bv in Et. inversion Dw; subst; [rewrite H in Et; discriminate|rewrite H in Et; destruct H0; subst; discriminate|].
      destruct w as [[]| | | |]; try discriminate. cbn in H. congruence. }
  destruct Dec as (h1 & v1 & fp1 & Ed & R1). pose proof (decode_keeps _ _ _ _ _ _ Ed) as K1.
  assert (Sub : exists o fo, subscript y k h1 = (h1, Done o) /\ reads h1 o orig fo).
  { pose proof (reads_keeps _ _ _ _ _ K1 Ry) as Ry1. destruct (reads_branch _ _ _ _ _ Ry1 Ec) as (ly & oy & dv & fp' & -> & Q2 & Q3 & Q4 & Q5 & Q6 & Q7).
    pose proof (reads_items_get _ _ _ _ k Q5) as G. rewrite Ek in G. destruct (dget dv k) as [o|] eqn:Eo; [|contradiction].
    destruct (reads_items_split _ _ _ _ _ _ Q5 Eo) as (d1 & d2 & ts1 & ts2 & t0 & fa & fk & fb & -> & -> & -> & Ra & Rk & Rb & Na & Nb).
    rewrite dget_split in Ek by auto. inversion Ek; subst t0.
    exists o, fk. split; [|exact Rk]. cbn. unfold bind, load. rewrite Q2, Q3. rewrite Eo. reflexivity. }
  destruct Sub as (o & fo & Es & Ro).
  assert (Co : exists h2, check_and_coerce v1 o h1 = (h2, Raise XValue) /\ keeps h1 h2).
  { destruct (check_and_coerce v1 o h1) as [h2 r2] eqn:E2. pose proof (coerce_keeps _ _ _ _ _ E2) as K2.
    pose proof (coerce_refines _ _ _ _ _ _ _ _ _ R1 Ro E2) as Q. destruct (tcoerce w orig) as [w'|e] eqn:Et.
    - exfalso. apply (Nc w'). apply tcoerce_cast, Et.
    - apply tcoerce_none in Et. destruct Et as [-> _]. exists h2. split; [|exact K2]. congruence. }
  destruct Co as (h2 & Eco & K2). exists h2. split; [|eapply keeps_trans; eauto].
  apply bind_err. unfold override, key_is_deprecated, key_is_renamed.
  erewrite bind_eq; [|rewrite (bind_eq _ _ _ _ _ HM); reflexivity]. cbv beta.
  destruct (has (m_dep reg) key) eqn:Hd; [apply has_in in Hd; contradiction|].
  erewrite bind_eq; [|rewrite (bind_eq _ _ _ _ _ HM); reflexivity]. cbv beta.
  destruct (dhas (m_ren reg) key) eqn:Hr; [apply in_keys_ren in Hr; contradiction|]. unfold bind at 1, ret at 1.
  rewrite <- (dotted_split _ _ D), removelast_last, last_last. rewrite (bind_eq _ _ _ _ _ W).
  rewrite (bind_eq _ _ _ _ _ (contains_reads _ _ _ _ _ k Ry Ec)). unfold dhas. rewrite Ek. unfold bind at 1, assert_ at 1.
  rewrite (bind_eq _ _ _ _ _ Ed), (bind_eq _ _ _ _ _ Es). apply bind_err. exact Eco.
Qed.
