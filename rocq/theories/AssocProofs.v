(* tumutils.associate computes the association of DataSpec (C55). *)
From Coq Require Import Ascii String List Arith Bool Reals ZArith Lia Lra Sorting.Sorted Sorting.Permutation Classical.
From Verif Require Import Res TextModel DataSpec TumModel TextProofs.
Import ListNotations.
Local Open Scope nat_scope.

(* ---------------- sorting *)
Lemma insert_perm {A} le (x : A) l : Permutation (insert le x l) (x :: l).
Proof. induction l as [|y l IH]; cbn [insert]; [reflexivity|]. destruct (le x y); [reflexivity|]. rewrite IH. apply perm_swap. Qed.
Lemma sort_perm {A} le (l : list A) : Permutation (sort le l) l.
Proof. induction l as [|x l IH]; cbn [sort]; [reflexivity|]. rewrite insert_perm. now constructor. Qed.
Lemma sort_in {A} le (l : list A) x : In x (sort le l) <-> In x l.
Proof. split; apply Permutation_in; [apply sort_perm|symmetry; apply sort_perm]. Qed.
Section Sort.
Context {A : Type} (le : A -> A -> bool).
Hypothesis le_total : forall x y, le x y = false -> le y x = true.
Hypothesis le_trans : forall x y z, le x y = true -> le y z = true -> le x z = true.
Lemma insert_sorted x l : StronglySorted (fun a b => le a b = true) l -> StronglySorted (fun a b => le a b = true) (insert le x l).
Proof.
  induction l as [|y l IH]; cbn [insert]; intros H; [repeat constructor|]. inversion H as [|? ? H1 H2]; subst.
  destruct (le x y) eqn:E.
  - constructor; [exact H|]. constructor; [exact E|]. eapply Forall_impl; [|exact H2]. intros z Hz. cbn. eapply le_trans; eauto.
  - constructor; [auto|]. apply Forall_forall. intros z Hz. apply (Permutation_in _ (insert_perm le x l)) in Hz.
    destruct Hz as [<-|Hz]; [auto|]. rewrite Forall_forall in H2. auto.
Qed.
Lemma sort_sorted l : StronglySorted (fun a b => le a b = true) (sort le l).
Proof. induction l as [|x l IH]; cbn [sort]; [constructor|]. now apply insert_sorted. Qed.
End Sort.

(* ---------------- the two orders *)
Lemma text_pair_le_spec p q : text_pair_le p q = true <-> pair_lt p q \/ p = q.
Proof.
  destruct p as [a b], q as [c d]. unfold text_pair_le, pair_lt. cbn [fst snd].
  pose proof (text_cmp_spec a c) as H. pose proof (text_cmp_spec b d) as K.
  destruct (text_cmp a c).
  - subst c. destruct (text_cmp b d).
    + subst d. split; auto.
    + split; auto.
    + split; [discriminate|]. intros [[L|[_ L]]|E]; [now apply alpha_irrefl in L|exfalso; eapply alpha_irrefl, alpha_trans; eauto|].
      injection E as ->. now apply alpha_irrefl in K.
  - split; auto.
  - split; [discriminate|]. intros [[L|[E _]]|E]; [exfalso; eapply alpha_irrefl, alpha_trans; eauto| subst c; now apply alpha_irrefl in H|].
    injection E as -> _. now apply alpha_irrefl in H.
Qed.
Lemma pair_lt_irrefl p : ~ pair_lt p p.
Proof. intros [H|[_ H]]; now apply alpha_irrefl in H. Qed.
Lemma pair_lt_trans p q r : pair_lt p q -> pair_lt q r -> pair_lt p r.
Proof.
  unfold pair_lt. intros [H|[E H]] [K|[F K]].
  - left. eapply alpha_trans; eauto.
  - left. congruence.
  - left. congruence.
  - right. split; [congruence|eapply alpha_trans; eauto].
Qed.
Lemma pair_total p q : pair_lt p q \/ p = q \/ pair_lt q p.
Proof.
  destruct p as [a b], q as [c d]. unfold pair_lt. cbn [fst snd].
  destruct (alpha_total a c) as [H|[->|H]]; auto. destruct (alpha_total b d) as [H|[->|H]]; auto.
Qed.
Lemma text_pair_le_total p q : text_pair_le p q = false -> text_pair_le q p = true.
Proof. intros H. apply text_pair_le_spec. destruct (pair_total p q) as [K|[->|K]]; auto.
  assert (text_pair_le p q = true) by (apply text_pair_le_spec; auto). congruence. Qed.
Lemma text_pair_le_trans p q r : text_pair_le p q = true -> text_pair_le q r = true -> text_pair_le p r = true.
Proof. rewrite !text_pair_le_spec. intros [H| ->] [K| ->]; auto. left. eapply pair_lt_trans; eauto. Qed.
Lemma match_le_spec p q : match_le p q = true <-> (fst p < fst q)%R \/ (fst p = fst q /\ (pair_lt (snd p) (snd q) \/ snd p = snd q)).
Proof.
  unfold match_le. destruct (Rlt_dec (fst p) (fst q)) as [H|H]; [split; auto|].
  destruct (Rlt_dec (fst q) (fst p)) as [K|K]; [split; [discriminate|intros [L|[L _]]; lra]|].
  rewrite text_pair_le_spec. split; [intros L; right; split; [lra|exact L]|intros [L|[_ L]]; [lra|exact L]].
Qed.
Lemma match_le_total p q : match_le p q = false -> match_le q p = true.
Proof.
  intros H. apply match_le_spec. assert (N : ~ match_le p q = true) by congruence. rewrite match_le_spec in N.
  destruct (Rtotal_order (fst p) (fst q)) as [L|[L|L]]; [tauto| |left; exact L].
  right. split; [auto|]. destruct (pair_total (snd p) (snd q)) as [K|[K|K]]; auto. exfalso. tauto.
Qed.
Lemma match_le_trans p q r : match_le p q = true -> match_le q r = true -> match_le p r = true.
Proof.
  rewrite !match_le_spec. intros [H|[E H]] [K|[F K]].
  - left. lra.
  - left. lra.
  - left. lra.
  - right. split; [lra|]. destruct H as [H|H]; destruct K as [K|K].
    + left. eapply pair_lt_trans; eauto.
    + left. now rewrite <- K.
    + left. now rewrite H.
    + right. congruence.
Qed.

(* ---------------- remove *)
Lemma mem_spec x l : mem x l = true <-> In x l.
Proof.
  unfold mem. rewrite existsb_exists. split.
  - intros (y & H & E). destruct (text_eqb_spec x y); [now subst|discriminate].
  - intros H. exists x. split; [exact H|]. destruct (text_eqb_spec x x); congruence.
Qed.
Lemma remove_first_in x l y : NoDup l -> In y (remove_first x l) <-> In y l /\ y <> x.
Proof.
  induction l as [|z l IH]; cbn [remove_first]; intros N; [cbn; tauto|]. inversion N as [|? ? N1 N2]; subst.
  destruct (text_eqb_spec x z) as [->|D].
  - split; [intros H; split; [now right|intros ->; contradiction]|]. intros [[H|H] K]; [congruence|exact H].
  - cbn [In]. rewrite (IH N2). split; [intros [H|H]; [subst; split; [now left|congruence]|tauto]|tauto].
Qed.
Lemma remove_first_nodup x l : NoDup l -> NoDup (remove_first x l).
Proof.
  induction l as [|z l IH]; cbn [remove_first]; intros N; [constructor|]. inversion N as [|? ? N1 N2]; subst.
  destruct (text_eqb_spec x z); [exact N2|]. constructor; [|auto]. rewrite remove_first_in by exact N2. tauto.
Qed.

(* ---------------- the greedy loop *)
Lemma greedy_in pm : forall F S a b, NoDup F -> NoDup S -> In (a, b) (greedy pm F S) -> In a F /\ In b S /\ exists d, In (d, (a, b)) pm.
Proof.
  induction pm as [|[d [x y]] pm IH]; intros F S a b NF NS H; cbn [greedy] in H; [destruct H|].
  destruct (mem x F && mem y S) eqn:E.
  - apply andb_true_iff in E. rewrite !mem_spec in E. destruct E as [E1 E2]. destruct H as [H|H].
    + injection H as -> ->. repeat split; auto. exists d. now left.
    + apply IH in H; try now apply remove_first_nodup. rewrite !remove_first_in in H by assumption.
      destruct H as ([H1 _] & [H2 _] & e & H3). repeat split; auto. exists e. now right.
  - apply IH in H; auto. destruct H as (H1 & H2 & e & H3). repeat split; auto. exists e. now right.
Qed.
Lemma greedy_nodup pm : forall F S, NoDup F -> NoDup S -> NoDup (map fst (greedy pm F S)) /\ NoDup (map snd (greedy pm F S)).
Proof.
  induction pm as [|[d [x y]] pm IH]; intros F S NF NS; cbn [greedy]; [split; constructor|].
  destruct (mem x F && mem y S); [|auto]. cbn [map fst snd].
  destruct (IH (remove_first x F) (remove_first y S)) as [H1 H2]; try now apply remove_first_nodup.
  split; constructor; auto; intros K; apply in_map_iff in K; destruct K as ([a b] & E & K); cbn in E; subst.
  - apply greedy_in in K; try now apply remove_first_nodup. destruct K as [K _]. apply remove_first_in in K; [tauto|assumption].
  - apply greedy_in in K; try now apply remove_first_nodup. destruct K as [_ [K _]]. apply remove_first_in in K; [tauto|assumption].
Qed.
Lemma greedy_stable pm : StronglySorted (fun a b => match_le a b = true) pm -> forall F S d a b, NoDup F -> NoDup S ->
  In (d, (a, b)) pm -> In a F -> In b S ->
  In (a, b) (greedy pm F S) \/ exists d' a' b', In (a', b') (greedy pm F S) /\ In (d', (a', b')) pm /\ (a' = a \/ b' = b) /\ (a', b') <> (a, b)
    /\ match_le (d', (a', b')) (d, (a, b)) = true.
Proof.
  induction pm as [|[e [x y]] pm IH]; intros Hs F S d a b NF NS H Ha Hb; [destruct H|].
  inversion Hs as [|? ? Hs1 Hs2]; subst. cbn [greedy].
  destruct (mem x F && mem y S) eqn:E.
  - apply andb_true_iff in E. rewrite !mem_spec in E. destruct E as [E1 E2]. destruct H as [H|H].
    + injection H as -> -> ->. left. now left.
    + rewrite Forall_forall in Hs2. pose proof (Hs2 _ H) as Hle.
      destruct (list_eq_dec ascii_dec x a) as [Ea|Na]; [|destruct (list_eq_dec ascii_dec y b) as [Eb|Nb]].
      * destruct (list_eq_dec ascii_dec y b) as [Eb|Nb]; [left; left; congruence|].
        right. exists e, x, y. repeat split; [now left|now left|auto|congruence|exact Hle].
      * right. exists e, x, y. repeat split; [now left|now left|auto|congruence|exact Hle].
      * destruct (IH Hs1 (remove_first x F) (remove_first y S) d a b) as [K|(d' & a' & b' & K1 & K2 & K3)]; auto; try now apply remove_first_nodup.
        -- apply remove_first_in; auto.
        -- apply remove_first_in; auto.
        -- left. now right.
        -- right. exists d', a', b'. split; [now right|]. split; [now right|exact K3].
  - destruct H as [H|H].
    + injection H as -> -> ->. exfalso. apply mem_spec in Ha. apply mem_spec in Hb. rewrite Ha, Hb in E. discriminate.
    + destruct (IH Hs1 F S d a b) as [K|(d' & a' & b' & K1 & K2 & K3)]; auto.
      right. exists d', a', b'. split; [exact K1|]. split; [now right|exact K3].
Qed.

Section Assoc.
Variables (rnd : R -> R) (value : text -> res (option R)) (offset maxd : R).
Notation Gap := (Gap rnd value offset). Notation closer := (closer rnd value offset). Notation candidate := (candidate rnd value offset maxd).
Notation Association := (Association rnd value offset maxd). Notation readable := (readable value).
Lemma gap_det a b d e : Gap a b d -> Gap a b e -> d = e.
Proof. intros (x & y & A & B & ->) (x' & y' & A' & B' & ->). rewrite A in A'. rewrite B in B'. injection A' as ->. injection B' as ->. reflexivity. Qed.
Lemma time_diff_gap a b d : time_diff rnd value offset a b = Ok (Some d) <-> Gap a b d.
Proof.
  unfold time_diff, DataSpec.Gap. destruct (value a) as [[x|]|], (value b) as [[y|]|]; cbn [rbind]; split; try discriminate;
    try (intros (x' & y' & A & B & _); congruence).
  - intros E. injection E as <-. eauto.
  - intros (x' & y' & A & B & ->). injection A as ->. injection B as ->. reflexivity.
Qed.
Lemma potential_ok first second : readable first -> readable second ->
  exists pm, potential rnd value first second offset maxd = Ok pm /\
    forall d a b, In (d, (a, b)) pm <-> In a first /\ In b second /\ Gap a b d /\ (d < maxd)%R.
Proof.
  intros R1 R2. unfold potential.
  set (g := fun p : text * text => match time_diff rnd value offset (fst p) (snd p) with Ok d => (d, p) | Err _ => (None, p) end).
  rewrite (mapM_ok _ g).
  2:{ intros [a b] H. apply in_prod_iff in H. destruct H as [Ha Hb]. unfold g, time_diff. cbn [fst snd].
      destruct (R1 a Ha) as [u ->]. destruct (R2 b Hb) as [v ->]. reflexivity. }
  cbn [rbind]. eexists. split; [reflexivity|]. intros d a b. rewrite in_flat_map. split.
  - intros (x & Hx & Hin). apply in_map_iff in Hx. destruct Hx as ([a' b'] & <- & Hp). apply in_prod_iff in Hp. unfold g in Hin. cbn [fst snd] in Hin.
    destruct (time_diff rnd value offset a' b') as [[d'|]|] eqn:E; cbn [fst snd] in Hin; try now destruct Hin.
    destruct (Rlt_dec d' maxd) as [L|L]; [|destruct Hin]. destruct Hin as [K|[]]. injection K as -> -> ->.
    apply time_diff_gap in E. tauto.
  - intros (Ha & Hb & G & L). exists (Some d, (a, b)). split.
    + apply in_map_iff. exists (a, b). split; [|apply in_prod_iff; auto]. unfold g. cbn [fst snd]. apply time_diff_gap in G. now rewrite G.
    + cbn [fst snd]. destruct (Rlt_dec d maxd); [now left|contradiction].
Qed.
Lemma sorted_lt m : NoDup m -> StronglySorted (fun a b => text_pair_le a b = true) m -> StronglySorted pair_lt m.
Proof.
  induction m as [|p m IH]; intros N H; [constructor|]. inversion H as [|? ? H1 H2]; inversion N as [|? ? N1 N2]; subst. constructor; [auto|].
  rewrite Forall_forall in *. intros q Hq. specialize (H2 q Hq). apply text_pair_le_spec in H2. destruct H2 as [H2| ->]; [exact H2|contradiction].
Qed.
Theorem p_associate first second : NoDup first -> NoDup second -> readable first -> readable second ->
  exists m, associate rnd value first second offset maxd = Ok m /\ Association first second m.
Proof.
  intros NF NS R1 R2. destruct (potential_ok first second R1 R2) as (pm & E & P). unfold associate. rewrite E. cbn [rbind].
  set (spm := sort match_le pm). set (m := greedy spm first second). eexists. split; [reflexivity|].
  assert (Q : Permutation (sort text_pair_le m) m) by apply sort_perm.
  assert (Ss : StronglySorted (fun a b => match_le a b = true) spm) by (apply sort_sorted; [exact match_le_total|exact match_le_trans]).
  assert (I : forall d a b, In (d, (a, b)) spm <-> In a first /\ In b second /\ Gap a b d /\ (d < maxd)%R) by (intros; unfold spm; rewrite sort_in; apply P).
  destruct (greedy_nodup spm first second NF NS) as [N1 N2]. fold m in N1, N2.
  repeat split.
  - apply sort_in in H. apply greedy_in in H; auto. tauto.
  - apply sort_in in H. apply greedy_in in H; auto. tauto.
  - apply sort_in in H. apply greedy_in in H; auto. destruct H as (_ & _ & d & H). apply I in H. exists d. tauto.
  - eapply Permutation_NoDup; [apply Permutation_map; symmetry; exact Q|exact N1].
  - eapply Permutation_NoDup; [apply Permutation_map; symmetry; exact Q|exact N2].
  - intros a b (Ha & Hb & d & G & L). destruct (greedy_stable spm Ss first second d a b) as [K|(d' & a' & b' & K1 & K2 & K3 & K4 & K5)]; auto.
    + apply I. auto.
    + left. apply sort_in. exact K.
    + right. exists a', b'. split; [apply sort_in; exact K1|]. split; [exact K3|].
      apply I in K2. destruct K2 as (_ & _ & G' & _). exists d', d. cbn [fst snd]. split; [exact G'|]. split; [exact G|].
      apply match_le_spec in K5. cbn [fst snd] in K5. destruct K5 as [K5|[K5 [K6|K6]]]; [auto|auto|contradiction].
  - apply sorted_lt; [|apply sort_sorted; [exact text_pair_le_total|exact text_pair_le_trans]].
    eapply Permutation_NoDup; [symmetry; exact Q|]. apply NoDup_map_inv in N1. exact N1.
Qed.
(* ---------------- consequences of the specification *)
Lemma closer_irrefl p : ~ closer p p.
Proof. intros (d & e & G & G' & [L|[_ L]]); [|now apply pair_lt_irrefl in L]. rewrite (gap_det _ _ _ _ G G') in L. lra. Qed.
Lemma closer_trans p q r : closer p q -> closer q r -> closer p r.
Proof.
  intros (d & e & G & G' & H) (e' & f & G2 & G3 & K). rewrite (gap_det _ _ _ _ G2 G') in K. exists d, f. split; [exact G|]. split; [exact G3|].
  destruct H as [H|[-> H]]; destruct K as [K|[-> K]]; auto; [left; lra|]. right. split; [reflexivity|]. eapply pair_lt_trans; eauto.
Qed.
Lemma minimal (P : text * text -> Prop) l : (exists x, In x l /\ P x) -> exists x, In x l /\ P x /\ forall y, In y l -> P y -> ~ closer y x.
Proof.
  induction l as [|z l IH]; intros (x & Hx & Px); [destruct Hx|].
  destruct (classic (exists x, In x l /\ P x)) as [H|H].
  - destruct (IH H) as (w & Hw & Pw & Mw). destruct (classic (P z /\ closer z w)) as [[Pz C]|N].
    + exists z. split; [now left|]. split; [exact Pz|]. intros y [<-|Hy] Py K; [now apply closer_irrefl in K|]. apply (Mw y Hy Py). eapply closer_trans; eauto.
    + exists w. split; [now right|]. split; [exact Pw|]. intros y [<-|Hy] Py K; [tauto|]. now apply (Mw y Hy Py).
  - destruct Hx as [->|Hx]; [|exfalso; eauto]. exists x. split; [now left|]. split; [exact Px|]. intros y [<-|Hy] Py K; [now apply closer_irrefl in K|]. apply H. eauto.
Qed.
Lemma nodup_fst_in (m : list (text * text)) a b b' : NoDup (map fst m) -> In (a, b) m -> In (a, b') m -> b = b'.
Proof.
  induction m as [|[x y] m IH]; cbn [map fst]; intros N H K; [destruct H|]. inversion N as [|? ? N1 N2]; subst.
  destruct H as [H|H], K as [K|K]; [congruence| | |auto]; exfalso; apply N1; [injection H as -> ->; apply (in_map fst) in K|injection K as -> ->; apply (in_map fst) in H]; assumption.
Qed.
Lemma nodup_snd_in (m : list (text * text)) a a' b : NoDup (map snd m) -> In (a, b) m -> In (a', b) m -> a = a'.
Proof.
  induction m as [|[x y] m IH]; cbn [map snd]; intros N H K; [destruct H|]. inversion N as [|? ? N1 N2]; subst.
  destruct H as [H|H], K as [K|K]; [congruence| | |auto]; exfalso; apply N1; [injection H as -> ->; apply (in_map snd) in K|injection K as -> ->; apply (in_map snd) in H]; assumption.
Qed.
Lemma sorted_unique m : forall m', StronglySorted pair_lt m -> StronglySorted pair_lt m' -> (forall p, In p m <-> In p m') -> m = m'.
Proof.
  induction m as [|p m IH]; intros [|q m'] S S' H.
  - reflexivity.
  - exfalso. apply (proj2 (H q)). now left.
  - exfalso. apply (proj1 (H p)). now left.
  - inversion S as [|? ? S1 S2]; inversion S' as [|? ? S1' S2']; subst. rewrite Forall_forall in S2, S2'.
    assert (E : p = q).
    { destruct (proj1 (H p) (or_introl eq_refl)) as [E|E]; [auto|]. destruct (proj2 (H q) (or_introl eq_refl)) as [F|F]; [auto|].
      exfalso. eapply pair_lt_irrefl, pair_lt_trans; eauto. }
    subst q. f_equal. apply IH; auto. intros r. split; intros K.
    + destruct (proj1 (H r) (or_intror K)) as [E|E]; [subst r; exfalso; eapply pair_lt_irrefl; eauto|exact E].
    + destruct (proj2 (H r) (or_intror K)) as [E|E]; [subst r; exfalso; eapply pair_lt_irrefl; eauto|exact E].
Qed.
Theorem p_assoc_unique first second m m' : Association first second m -> Association first second m' -> m = m'.
Proof.
  intros (C & N1 & N2 & St & So) (C' & N1' & N2' & St' & So'). apply sorted_unique; auto.
  assert (K : ~ exists p, In p (m ++ m') /\ ((In p m /\ ~ In p m') \/ (In p m' /\ ~ In p m))).
  { intros Hx. apply minimal in Hx. destruct Hx as (p & _ & D & Mn).
    assert (T : forall m1 m2, (forall a b, In (a, b) m1 -> candidate first second a b) -> NoDup (map fst m1) -> NoDup (map snd m1) ->
       (forall a b, candidate first second a b -> In (a, b) m2 \/ exists a' b', In (a', b') m2 /\ (a' = a \/ b' = b) /\ closer (a', b') (a, b)) ->
       (forall q, In q m2 -> ~ In q m1 -> ~ closer q p) -> In p m1 -> ~ In p m2 -> False).
    { clear - rnd value offset maxd. intros m1 m2 C N1 N2 St Mn H H'. destruct p as [a b]. destruct (St a b (C a b H)) as [K|(a' & b' & K1 & K2 & K3)]; [contradiction|].
      destruct (classic (In (a', b') m1)) as [J|J]; [|exact (Mn _ K1 J K3)].
      destruct K2 as [->| ->].
      - pose proof (nodup_fst_in _ _ _ _ N1 H J). subst b'. now apply closer_irrefl in K3.
      - pose proof (nodup_snd_in _ _ _ _ N2 H J). subst a'. now apply closer_irrefl in K3. }
    destruct D as [[D1 D2]|[D1 D2]].
    - apply (T m m' C N1 N2 St' (fun q Hq Hn => Mn q (in_or_app _ _ _ (or_intror Hq)) (or_intror (conj Hq Hn))) D1 D2).
    - apply (T m' m C' N1' N2' St (fun q Hq Hn => Mn q (in_or_app _ _ _ (or_introl Hq)) (or_introl (conj Hq Hn))) D1 D2). }
  intros p. split; intros H; apply NNPP; intros N; apply K; exists p; split; try (apply in_or_app); auto.
Qed.
Theorem p_assoc_maximal first second m a b : Association first second m -> candidate first second a b -> In a (map fst m) \/ In b (map snd m).
Proof.
  intros (_ & _ & _ & St & _) C. destruct (St a b C) as [K|(a' & b' & K1 & [->| ->] & _)].
  - left. apply (in_map fst) in K. exact K.
  - left. apply (in_map fst) in K1. exact K1.
  - right. apply (in_map snd) in K1. exact K1.
Qed.
(* a key that is not a number *)
Theorem p_associate_err first second e : first <> [] -> second <> [] -> (forall k e', value k = Err e' -> e' = e) ->
  (exists k, (In k first \/ In k second) /\ value k = Err e) -> associate rnd value first second offset maxd = Err e.
Proof.
  intros F S U (k & H & E). unfold associate, potential.
  assert (X : exists p, In p (list_prod first second) /\ (let? d := time_diff rnd value offset (fst p) (snd p) in Ok (d, p)) = Err e).
  { destruct first as [|a0 f]; [congruence|]. destruct second as [|b0 s]; [congruence|]. destruct H as [H|H].
    - exists (k, b0). split; [apply in_prod_iff; split; [exact H|now left]|]. unfold time_diff. cbn [fst snd]. rewrite E. reflexivity.
    - exists (a0, k). split; [apply in_prod_iff; split; [now left|exact H]|]. unfold time_diff. cbn [fst snd]. destruct (value a0) as [v|e'] eqn:E0; cbn [rbind].
      + rewrite E. reflexivity.
      + rewrite (U _ _ E0). reflexivity. }
  destruct X as (p & Hp & Ep). rewrite (mapM_err _ _ p e Hp Ep); [reflexivity|].
  intros [x y] e' _ H'. cbn [fst snd] in H'. unfold time_diff in H'. destruct (value x) eqn:Ex; cbn [rbind] in H'; [|injection H' as <-; eauto].
  destruct (value y) eqn:Ey; cbn [rbind] in H'; [discriminate|injection H' as <-; eauto].
Qed.
Theorem p_associate_empty first second : first = [] \/ second = [] -> associate rnd value first second offset maxd = Ok [].
Proof.
  intros [->| ->]; [reflexivity|]. unfold associate, potential.
  assert (E : list_prod first (@nil text) = []) by (induction first; [reflexivity|exact IHfirst]). rewrite E. cbn [mapM rbind flat_map sort greedy].
  destruct first; reflexivity.
Qed.
(* pairs come in the order of time where the text order of the keys is the order of time *)
Theorem p_assoc_time_sorted first second m : Association first second m ->
  (forall a b x y, In a first -> In b first -> alpha_lt a b -> value a = Ok (Some x) -> value b = Ok (Some y) -> (x <= y)%R) ->
  forall i j a b a' b' x y, i <= j -> nth_error m i = Some (a, b) -> nth_error m j = Some (a', b') -> value a = Ok (Some x) -> value a' = Ok (Some y) -> (x <= y)%R.
Proof.
  intros (C & _ & _ & _ & So) Hm i j a b a' b' x y Hij Hi Hj Ha Hb.
  destruct (Nat.eq_dec i j) as [->|D]. { rewrite Hi in Hj. injection Hj as -> ->. rewrite Ha in Hb. injection Hb as ->. lra. }
  assert (L : pair_lt (a, b) (a', b')).
  { assert (i < j) by lia. clear - So H Hi Hj. revert i j H Hi Hj. induction So as [|p m S IH F]; intros [|i] [|j] L Hi Hj; try lia; try discriminate.
    - cbn in Hi, Hj. injection Hi as ->. rewrite Forall_forall in F. apply F. eapply nth_error_In; eauto.
    - cbn in Hi, Hj. apply (IH i j); auto; lia. }
  pose proof (C a b (nth_error_In _ _ Hi)) as (Ca & _). pose proof (C a' b' (nth_error_In _ _ Hj)) as (Ca' & _).
  destruct L as [L|[L _]]; cbn in L; [eauto|]. subst a'. rewrite Ha in Hb. injection Hb as ->. lra.
Qed.
End Assoc.
