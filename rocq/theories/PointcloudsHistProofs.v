(* Every history keeps the representation invariant. *)
From Coq Require Import List Arith ZArith Bool Lia.
From Verif Require Import Res Fld StructUtilsModel StructUtilsProofs PointcloudsModel PointcloudsSpec PointcloudsCtorSpec
  PointcloudsSetSpec PointcloudsIndexSpec PointcloudsHist PointcloudsProofs PointcloudsOps PointcloudsCtor
  PointcloudsClone PointcloudsAppend PointcloudsCloneAppend PointcloudsIndex PointcloudsSet.
Import ListNotations.
Local Open Scope nat_scope.

Section HP.
Variable F : Fld.
Notation T2 := (t2 F).
Notation T3 := (t3 F).
Notation pc := (pc F).
Notation batch := (batch F).
Implicit Types (s : pc) (a : batch) (P L : list T2).
Notation RepN := (RepN F).
Notation Rep := (Rep F).
Notation Rep0 := (Rep0 F).

Lemma num_features_Rep a s : Rep a s ->
  exists s', num_features F s = (Ok (Some (match qf a with Some _ => width F a Features | None => 0 end)), s') /\ Rep a s'
    /\ lst F s' = lst F s /\ pad F s' = pad F s.
Proof.
  intros H. unfold Rep, PointcloudsProofs.Rep in *. destruct (qp a) as [P|] eqn:EP.
  - destruct (num_features_ok F P a s H) as (f & E & Hr).
    + destruct (rn_mode _ _ _ _ H) as [(_ & Hl & _)|Hm]; [now left|now right].
    + intros fp Ef. destruct (rn_mode _ _ _ _ H) as [(_ & _ & Hfp)|Hm]; [now apply Hfp|].
      specialize (Hm Features). cbn [qget] in Hm. rewrite Ef in Hm.
      destruct (qf a) as [Lf|] eqn:EL.
      * rewrite (padded_some F P a Features Lf (rn_valid _ _ _ _ H) EL) in Hm. injection Hm as ->. reflexivity.
      * rewrite (padded_none F P a Features (rn_valid _ _ _ _ H) EL) in Hm. discriminate.
    + exists (with_flg F f s). split; [|split; [exact Hr|split; reflexivity]]. rewrite E. cbn. destruct (qf a); reflexivity.
  - destruct H as [-> H]. destruct (has0 F s Features H) as (f & E & Hr).
    exists (with_flg F f s). unfold num_features, mbind. rewrite E. cbn. split; [reflexivity|]. split; [split; [reflexivity|exact Hr]|]. split; reflexivity.
Qed.

Lemma after_Rep r a s : Rep a s -> Rep a (after F r s).
Proof.
  intros H. destruct r as [x|x|x| |]; cbn [after].
  5:{ destruct (num_features_Rep a s H) as (s' & E & Hr & _). now rewrite E. }
  all: unfold Rep, PointcloudsProofs.Rep in *; destruct (qp a) as [P|] eqn:EP.
  - destruct (get_list_ok F P a s x H) as [E Hr]. now rewrite E.
  - destruct H as [Ha H]. rewrite (get_list0 F s x H). auto.
  - destruct (get_padded_ok F P a s x H) as (s' & E & Hr & _). now rewrite E.
  - destruct H as [Ha H]. destruct (get_padded0 F s x H) as (f & E & Hr). rewrite E. auto.
  - destruct (has_ok F P a s x H) as (f & E & Hr). now rewrite E.
  - destruct H as [Ha H]. destruct (has0 F s x H) as (f & E & Hr). rewrite E. auto.
  - destruct (nonpad_mask_ok F P a s H) as (s' & E & Hr & _). now rewrite E.
  - destruct H as [Ha H]. destruct (nonpad_mask0 F s H) as (f & E & Hr). rewrite E. auto.
Qed.

(* what reads return, as a function of the batch *)
Definition look_spec (r : read) (a : batch) : seen F :=
  match r with
  | RdList x => SeenList F (qget x a)
  | RdPadded x => SeenPadded F (padded_view F a x)
  | RdHas x => SeenBool F (is_some (qget x a))
  | RdMask => SeenMask F (mask_view F a)
  | RdWidth => SeenWidth F (Some (match qf a with Some _ => width F a Features | None => 0 end))
  end.
Lemma look_ok r a s : Rep a s -> look F r s = look_spec r a.
Proof.
  intros H. pose proof (Rep_Shows F a s H) as (S1 & S2 & S3 & S4 & _).
  destruct r as [x|x|x| |]; cbn [look look_spec]; rewrite ?S1, ?S2, ?S3, ?S4; try reflexivity.
  destruct (num_features_Rep a s H) as (s' & E & _). now rewrite E.
Qed.

Lemma set_padded_value P a s x v : RepN P a s -> (exists L, pad_value F P x v L) ->
  exists s', set_padded F x v s = (Ok tt, s').
Proof.
  intros H (L & w & Hfit & ->). destruct (assert_set_padded_ok F P a s x w L H Hfit) as (s1 & E & _).
  unfold set_padded, mbind at 1. rewrite E. unfold mbind, modify. eexists. reflexivity.
Qed.

Lemma set_padded_err a s x v e s' : Rep a s -> real_pad F v -> set_padded F x v s = (Err e, s') -> Rep a s'.
Proof.
  intros H Rv E. pose proof H as H'. unfold Rep, PointcloudsProofs.Rep in H'. destruct (qp a) as [P|] eqn:EP.
  - unfold set_padded, mbind at 1 in E.
    destruct (assert_set_padded F v match x with Features => true | _ => false end s) as [[p|e1] s1] eqn:Ea.
    { unfold mbind, modify in E. discriminate. }
    destruct v as [|z].
    + cbn in Ea, E. unfold raise in Ea. injection Ea as <- <-. injection E as <- <-. exact H.
    + unfold assert_set_padded in Ea.
      destruct (has_ok F P a s Points H') as (f & Eh & Hr). rewrite (RepN_hasP _ _ _ _ H') in Eh.
      unfold mbind at 1 in Ea. rewrite Eh in Ea. cbn [negb] in Ea. injection E as <- <-.
      destruct (andim F z =? 3) eqn:Ed; cbn [negb] in Ea.
      2:{ unfold raise in Ea. injection Ea as <- <-. eapply RepN_Rep; eauto. }
      destruct (get_padded_ok F P a _ Points Hr) as (s2 & E2 & Hr2 & _).
      unfold mbind at 1 in Ea. rewrite E2 in Ea.
      destruct (padded_view F a Points) as [pp|]; [|unfold raise in Ea; injection Ea as <- <-; eapply RepN_Rep; eauto].
      match type of Ea with context [if ?b then raise ValueError else _] => destruct b end;
        [unfold raise in Ea; injection Ea as <- <-; eapply RepN_Rep; eauto|].
      unfold mbind at 1, lift in Ea. destruct (as_t3 F z); [|injection Ea as <- <-; eapply RepN_Rep; eauto].
      unfold mbind at 1, get in Ea. unfold mbind at 1 in Ea.
      destruct (padding_zero F (num F s2) a0); [|injection Ea as <- <-; eapply RepN_Rep; eauto].
      destruct (negb a1); unfold raise, ret in Ea; [injection Ea as <- <-; eapply RepN_Rep; eauto|discriminate].
  - destruct H' as [Ha H0]. destruct (set_padded0 F s x v H0) as (e2 & s2 & E2 & Hr).
    rewrite E2 in E. injection E as <- <-. unfold Rep, PointcloudsProofs.Rep. rewrite EP. auto.
Qed.

Lemma set_list_err a s x v e s' : Rep a s -> real_list F v -> set_list F x v s = (Err e, s') -> Rep a s'.
Proof.
  intros H Rv E. pose proof H as H'. unfold Rep, PointcloudsProofs.Rep in H'. destruct (qp a) as [P|] eqn:EP.
  - unfold set_list, mbind at 1 in E.
    destruct (assert_set_list F v match x with Features => true | _ => false end s) as [[p|e1] s1] eqn:Ea.
    { unfold mbind, modify, ret in E. destruct x; discriminate. }
    injection E as <- <-. destruct v as [|l].
    + cbn in Ea. unfold raise in Ea. injection Ea as <- <-. exact H.
    + unfold assert_set_list in Ea.
      destruct (has_ok F P a s Points H') as (f & Eh & Hr). rewrite (RepN_hasP _ _ _ _ H') in Eh.
      unfold mbind at 1 in Ea. rewrite Eh in Ea. cbn [negb] in Ea. unfold mbind at 1, get in Ea.
      destruct (negb (bat F (with_flg F f s) =? length l)); [unfold raise in Ea; injection Ea as <- <-; eapply RepN_Rep; eauto|].
      destruct (negb (forallb (fun x => andim F x =? 2) l)); [unfold raise in Ea; injection Ea as <- <-; eapply RepN_Rep; eauto|].
      destruct (get_list_ok F P a _ Points Hr) as [E2 Hr2]. unfold mbind at 1 in Ea. rewrite E2 in Ea.
      destruct (qget Points a) as [pl|]; [|unfold raise in Ea; injection Ea as <- <-; eapply RepN_Rep; eauto].
      destruct x; match type of Ea with context [if ?b then lift _ else _] => destruct b end;
        unfold raise, lift in Ea; injection Ea as _ <-; eapply RepN_Rep; eauto.
  - destruct H' as [Ha H0]. destruct (set_list0 F s x v H0) as (e2 & s2 & E2 & Hr).
    rewrite E2 in E. injection E as <- <-. unfold Rep, PointcloudsProofs.Rep. rewrite EP. auto.
Qed.

Lemma run_err m a s e s' : Rep a s -> real_call F m -> run F m s = (Err e, s') -> Rep a s'.
Proof.
  intros H Hm E. destruct m; cbn [run] in E.
  - eapply masked_update_err; eauto.
  - eapply masked_update_err; eauto.
  - eapply rotate_err; eauto.
  - eapply transform_err; eauto.
  - eapply pinhole_err; eauto.
  - eapply set_list_err; eauto.
  - eapply set_padded_err; eauto.
Qed.

Lemma move_attr_none x h a : qget x a = None -> move_attr F x h a = a.
Proof. intros E. unfold move_attr. rewrite E. destruct x, a; cbn in *; now subst. Qed.

Lemma run_ok m a a' s : Rep a s -> Means F m a a' -> exists s', run F m s = (Ok tt, s') /\ Rep a' s'.
Proof.
  intros H Hm. destruct (qp a) as [P|] eqn:EP.
  - pose proof H as HN. unfold Rep, PointcloudsProofs.Rep in HN. rewrite EP in HN.
    assert (El : len_view F a = length P) by (unfold len_view; now rewrite EP).
    destruct m as [[|sh el]|[|sh el]|[|sh el] pre|[|sh el] pre|[|sh el]|x v|x v]; cbn [Means run] in *; try tauto;
      unfold PointcloudsHist.fits in Hm; rewrite ?EP, ?El in Hm.
    + destruct Hm as [Hf ->]. eapply offset_ok; eauto.
    + destruct Hm as [Hf ->]. eapply scale_ok; eauto.
    + destruct Hm as [Hf ->]. eapply rotate_ok; eauto.
    + destruct Hm as [Hf ->]. eapply transform_ok; eauto.
    + destruct Hm as [Hf ->]. eapply pinhole_ok; eauto.
    + destruct Hm as (P' & L & E & Hv & Hp & ->). injection E as <-. eapply set_padded_ok; eauto.
  - pose proof H as HN. unfold Rep, PointcloudsProofs.Rep in HN. rewrite EP in HN. destruct HN as [-> H0].
    assert (Hno : forall s', Rep0 s' -> Rep (no_batch F) s').
    { intros s' Hs'. split; [reflexivity|exact Hs']. }
    destruct m as [[|sh el]|[|sh el]|[|sh el] pre|[|sh el] pre|[|sh el]|x v|x v]; cbn [Means run] in *; try tauto;
      unfold len_view in Hm; cbn [qp no_batch] in Hm.
    + destruct Hm as [_ ->]. destruct (masked_update0 F s (fun p x m => fadd p (fmul x m)) sh el H0) as (s' & E & Hs').
      exists s'. split; [exact E|]. unfold offset_spec. rewrite move_attr_none by reflexivity. auto.
    + destruct Hm as [_ ->]. destruct (masked_update0 F s (fun p x m => fmul (fmul p x) m) sh el H0) as (s' & E & Hs').
      exists s'. split; [exact E|]. unfold scale_spec. rewrite move_attr_none by reflexivity. auto.
    + destruct Hm as [Hm ->]. destruct (rotate0 F s sh el pre H0 Hm) as (s' & E & Hs').
      exists s'. split; [exact E|]. unfold rotate_spec. rewrite !move_attr_none by reflexivity. auto.
    + destruct Hm as [Hm ->]. destruct (transform0 F s sh el pre H0 Hm) as (s' & E & Hs').
      exists s'. split; [exact E|]. unfold transform_spec. rewrite !move_attr_none by reflexivity. auto.
    + destruct Hm as [Hm ->]. destruct (pinhole0 F s sh el H0 Hm) as (s' & E & Hs').
      exists s'. split; [exact E|]. unfold pinhole_spec. rewrite !move_attr_none by reflexivity. auto.
    + destruct Hm as (P' & L & E & _). discriminate.
Qed.

(* reading a list view *)
Lemma after_list_lst P a s x : RepN P a s ->
  qget x (lst F (after F (RdList x) s)) = qget x a /\
  (forall y, qget y (lst F s) = qget y a -> qget y (lst F (after F (RdList x) s)) = qget y a) /\
  pad F (after F (RdList x) s) = pad F s /\ flg F (after F (RdList x) s) = flg F s.
Proof.
  intros H. cbn [after]. destruct (get_list_ok F P a s x H) as [E _]. rewrite E. cbn [snd].
  split; [apply qget_qset_same|]. split; [|auto].
  intros y Hy. destruct (attr_dec y x) as [->|Hn]; [apply qget_qset_same|].
  cbn. rewrite qget_qset_other by exact Hn. exact Hy.
Qed.
Lemma after_lists_all P a s : RepN P a s -> RepN P a (after_lists F s) /\
  forall y, qget y (lst F (after_lists F s)) = qget y a.
Proof.
  intros H. unfold after_lists.
  assert (A : forall x s, RepN P a s -> RepN P a (after F (RdList x) s)).
  { intros x s0 H0. destruct (get_list_ok F P a s0 x H0) as [E Hr]. cbn [after]. now rewrite E. }
  pose proof (A Points _ H) as H1. pose proof (A Normals _ H1) as H2.
  pose proof (A Colors _ H2) as H3. pose proof (A Features _ H3) as H4.
  destruct (after_list_lst _ _ _ Points H) as (L1 & _).
  destruct (after_list_lst _ _ _ Normals H1) as (L2 & K2 & _).
  destruct (after_list_lst _ _ _ Colors H2) as (L3 & K3 & _).
  destruct (after_list_lst _ _ _ Features H3) as (L4 & K4 & _).
  split; [exact H4|]. intros [| | |]; auto.
Qed.

(* ---- list-only objects ---- *)
Lemma ctor_list_state p n c f a P s :
  real_inp F p -> real_inp F n -> real_inp F c -> real_inp F f -> valid_batch F P a ->
  as_list F p (qp a) -> as_list F n (qn a) -> as_list F c (qc a) -> as_list F f (qf a) ->
  ctor F p n c f = Ok s ->
  RepN P a s /\ (forall y, qget y (pad F s) = None) /\ (forall y, qget y (flg F s) = None).
Proof.
  intros Rp Rn Rc Rf Hv Ap An Ac Af E.
  destruct (ctor_accepts F p n c f a Rp Rn Rc Rf) as (s2 & E2 & Hr).
  { right. left. exists P. auto. }
  assert (s2 = s) by congruence. subst s2.
  unfold Rep, PointcloudsProofs.Rep in Hr. rewrite (valid_qp _ _ _ Hv) in Hr. split; [exact Hr|].
  rewrite (valid_qp _ _ _ Hv) in Ap. cbn in Ap. subst p. cbn [ctor] in E.
  unfold ctor, ctor_list, rbind in E.
  repeat match type of E with context [match ?g with Ok _ => _ | Err _ => _ end] => destruct g; [|discriminate] end.
  injection E as <-. split; intros [| | |]; reflexivity.
Qed.

Lemma ListOnly_inv s a : ListOnly F s a ->
  exists P, RepN P a s /\ (forall y, qget y (pad F s) = None) /\ (forall y, qget y (lst F s) = qget y a).
Proof.
  assert (LA : forall P a s, RepN P a s -> (forall y, qget y (pad F s) = None) -> (forall y, qget y (lst F s) = qget y a)).
  { intros P a0 s0 Hr Hp. destruct (rn_mode _ _ _ _ Hr) as [(_ & Hl & _)|Hm]; [exact Hl|].
    specialize (Hm Points). rewrite Hp in Hm. rewrite (padded_some F P a0 Points P (rn_valid _ _ _ _ Hr)) in Hm; [discriminate|].
    apply (valid_qp _ _ _ (rn_valid _ _ _ _ Hr)). }
  assert (SP : forall P a s x v L s', RepN P a s -> (forall y, qget y (pad F s) = None) ->
     list_value F P x v L -> set_list F x v s = (Ok tt, s') -> forall y, qget y (pad F s') = None).
  { intros P a0 s0 x v L s' Hr Hp (w & Hfit & ->) E.
    destruct (assert_set_list_ok F P a0 s0 x L w Hr Hfit) as (s1 & E1 & Hr1 & Hpd & _).
    unfold set_list, mbind at 1 in E. rewrite E1 in E. intros y.
    destruct x; unfold mbind, modify, ret in E; injection E as <-; cbn; rewrite Hpd; try apply Hp.
    destruct y; cbn; try reflexivity; [apply (Hp Normals)|apply (Hp Colors)|apply (Hp Features)]. }
  assert (SR : forall P a s x v L s', RepN P a s -> (forall y, qget y (pad F s) = None) -> qp a = Some P ->
     list_value F P x v L -> (qget x a <> None \/ qget x (flg F s) = None) ->
     set_list F x v s = (Ok tt, s') ->
     exists P', RepN P' (qset x (Some L) a) s').
  { intros P a0 s0 x v L s' Hr Hp EP Hv Hfl E.
    assert (Hx : exists s1, set_list F x v s0 = (Ok tt, s1) /\ Rep (qset x (Some L) a0) s1).
    { destruct (attr_dec x Points) as [->|Hx].
      - eapply set_points_list_ok; eauto.
      - eapply set_other_list_ok; eauto. }
    destruct Hx as (s1 & E1 & Hrep). assert (s1 = s') by congruence. subst s1.
    unfold Rep, PointcloudsProofs.Rep in Hrep. destruct (qp (qset x (Some L) a0)) eqn:EQ; [eauto|].
    destruct x; cbn in EQ; congruence. }
  induction 1 as [p n c f a P s Rp Rn Rc Rf Hv Ap An Ac Af E
                 |r s a _ IH Hr|x v L P s s' a _ IH EP Hv Hpres E
                 |p n c f a P s x v L s' Rp Rn Rc Rf Hv Ap An Ac Af E Hx Hlv E2].
  - destruct (ctor_list_state p n c f a P s) as (H1 & H2 & H3); auto. exists P. split; [exact H1|]. split; [exact H2|]. eauto.
  - destruct IH as (P & H1 & H2 & H3). exists P.
    assert (Hrep : RepN P a (after F r s)).
    { pose proof (after_Rep r a s (RepN_Rep F _ _ _ H1)) as Q. unfold Rep, PointcloudsProofs.Rep in Q.
      now rewrite (valid_qp _ _ _ (rn_valid _ _ _ _ H1)) in Q. }
    split; [exact Hrep|].
    assert (Hp : pad F (after F r s) = pad F s).
    { destruct r as [x|x|x| |]; cbn [after].
      - destruct (get_list_ok F P a s x H1) as [E _]. now rewrite E.
      - exfalso. now apply (Hr x).
      - destruct (has_ok F P a s x H1) as (f & E & _). now rewrite E.
      - destruct (nonpad_mask_ok F P a s H1) as (s' & E & _ & _ & Ep). rewrite E. exact Ep.
      - destruct (num_features_Rep a s (RepN_Rep F _ _ _ H1)) as (s' & E & _ & _ & Ep). rewrite E. exact Ep. }
    assert (Hp' : forall y, qget y (pad F (after F r s)) = None) by (intros y; rewrite Hp; apply H2).
    split; [exact Hp'|]. eauto.
  - destruct IH as (P2 & H1 & H2 & H3). assert (P2 = P).
    { pose proof (valid_qp _ _ _ (rn_valid _ _ _ _ H1)). congruence. } subst P2.
    destruct (SR P a s x v L s') as (P' & HP'); auto. exists P'. split; [exact HP'|].
    pose proof (SP _ _ _ _ _ _ _ H1 H2 Hv E). split; [assumption|]. eauto.
  - destruct (ctor_list_state p n c f a P s) as (H1 & H2 & H3); auto.
    destruct (SR P a s x v L s') as (P' & HP'); auto; [apply (valid_qp _ _ _ Hv)|].
    exists P'. split; [exact HP'|]. pose proof (SP _ _ _ _ _ _ _ H1 H2 Hlv E2). split; [assumption|]. eauto.
Qed.

Lemma clone_self_Rep a s r s' : Rep a s -> clone F s = (r, s') -> Rep a s'.
Proof.
  intros H E. unfold Rep, PointcloudsProofs.Rep in *. destruct (qp a) as [P|] eqn:EP.
  - destruct (has_ok F P a s Points H) as (f & Eh & Hr). rewrite (RepN_hasP _ _ _ _ H) in Eh.
    unfold clone, mbind at 1 in E. rewrite Eh in E. cbn [negb] in E. unfold mbind, get, lift, ret, raise in E.
    assert (s' = with_flg F f s); [|now subst].
    destruct (qp (lst F (with_flg F f s))).
    + match type of E with context [ctor ?a ?b ?c ?d ?e] => destruct (ctor a b c d e) end; congruence.
    + destruct (qp (pad F (with_flg F f s))); [|congruence].
      match type of E with context [ctor ?a ?b ?c ?d ?e] => destruct (ctor a b c d e) end; congruence.
  - destruct H as [Ha H]. destruct (clone_ok0 F s H) as (s2 & E2 & Hr). rewrite E2 in E. injection E as _ <-. auto.
Qed.

Lemma getitem_self_Rep a s ix r s' : Rep a s -> getitem F ix s = (r, s') -> Rep a s'.
Proof.
  intros H E. unfold Rep, PointcloudsProofs.Rep in H. destruct (qp a) as [P|] eqn:EP.
  - assert (A : forall x s, RepN P a s -> forall q s1, getitem_attr F x ix s = (q, s1) -> RepN P a s1).
    { intros x s0 H0 q s1 E0. unfold getitem_attr, mbind at 1 in E0.
      destruct (get_list_ok F P a s0 x H0) as [E1 Hr]. rewrite E1 in E0.
      destruct (qget x a); unfold raise, mbind, lift, ret in E0; [|congruence].
      destruct (select F ix l); congruence. }
    assert (B : forall x s, RepN P a s -> forall q s1,
       (do h <- has F x; if h then getitem_attr F x ix else ret None) s = (q, s1) -> RepN P a s1).
    { intros x s0 H0 q s1 E0. unfold mbind in E0. destruct (has_ok F P a s0 x H0) as (f & Eh & Hr). rewrite Eh in E0.
      destruct (is_some (qget x a)); [eapply A; eauto|]. unfold ret in E0. congruence. }
    unfold getitem in E. unfold mbind at 1 in E. destruct (has_ok F P a s Points H) as (f & Eh & Hr). rewrite Eh in E.
    destruct (negb (is_some (qget Points a))); [unfold raise in E; injection E as _ <-; eapply RepN_Rep; eauto|].
    unfold mbind at 1 in E. destruct (getitem_attr F Points ix (with_flg F f s)) as [r1 s1] eqn:E1.
    apply (A _ _ Hr) in E1. destruct r1; [|injection E as _ <-; eapply RepN_Rep; eauto].
    unfold mbind at 1 in E. match type of E with context [match ?m s1 with _ => _ end] => destruct (m s1) as [r2 s2] eqn:E2 end.
    apply (B _ _ E1) in E2. destruct r2; [|injection E as _ <-; eapply RepN_Rep; eauto].
    unfold mbind at 1 in E. match type of E with context [match ?m s2 with _ => _ end] => destruct (m s2) as [r3 s3] eqn:E3 end.
    apply (B _ _ E2) in E3. destruct r3; [|injection E as _ <-; eapply RepN_Rep; eauto].
    unfold mbind at 1 in E. match type of E with context [match ?m s3 with _ => _ end] => destruct (m s3) as [r4 s4] eqn:E4 end.
    apply (B _ _ E3) in E4. destruct r4; [|injection E as _ <-; eapply RepN_Rep; eauto].
    unfold lift in E. injection E as _ <-. eapply RepN_Rep; eauto.
  - destruct H as [Ha H]. destruct (getitem_empty F s ix H) as (s2 & E2 & Hr). rewrite E2 in E. injection E as _ <-.
    unfold Rep, PointcloudsProofs.Rep. rewrite EP. auto.
Qed.

Lemma Picked_unique ks a c c' : Picked F ks a c -> Picked F ks a c' -> c = c'.
Proof.
  intros H1 H2. assert (E : forall x, qget x c = qget x c').
  { intros x. specialize (H1 x). specialize (H2 x). destruct (qget x a) as [L|]; [|congruence].
    destruct H1 as (L1 & -> & E1), H2 as (L2 & -> & E2). f_equal.
    assert (Q : map Some L1 = map Some L2) by congruence. clear -Q.
    revert L2 Q. induction L1 as [|y L1 IH]; intros [|z L2] Q; cbn in Q; try discriminate; [reflexivity|].
    injection Q as -> Q. f_equal. auto. }
  destruct c, c'. pose proof (E Points). pose proof (E Normals). pose proof (E Colors). pose proof (E Features).
  cbn in *. congruence.
Qed.

Lemma append_result_eq a b :
  append_result F a b = match qp a, qp b with
             | None, _ => b | _, None => a | Some _, Some _ => append_spec F a b end \/
  (qp a = None /\ qp b = None).
Proof. unfold append_result. destruct (qp a), (qp b); auto. Qed.
Lemma no_points_no_batch a s : Rep a s -> qp a = None -> a = no_batch F.
Proof. intros H E. unfold Rep, PointcloudsProofs.Rep in H. rewrite E in H. apply H. Qed.

Lemma append_dec a b : {qp a = None \/ qp b = None \/ same_attrs F a b} + {~ (qp a = None \/ qp b = None \/ same_attrs F a b)}.
Proof.
  destruct (qp a) as [P|] eqn:Ea; [|left; auto]. destruct (qp b) as [Q|] eqn:Eb; [|left; auto].
  assert (D : {same_attrs F a b} + {~ same_attrs F a b}).
  { unfold same_attrs. destruct (Nat.eq_dec (len_view F a) (len_view F b)) as [E1|E1]; [|right; tauto].
    destruct (Nat.eq_dec (width F a Features) (width F b Features)) as [E2|E2]; [|right; tauto].
    destruct (bool_dec (is_some (qp a)) (is_some (qp b))) as [Z1|Z1]; [|right; intros (_ & H & _); now apply Z1, (H Points)].
    destruct (bool_dec (is_some (qn a)) (is_some (qn b))) as [Z2|Z2]; [|right; intros (_ & H & _); now apply Z2, (H Normals)].
    destruct (bool_dec (is_some (qc a)) (is_some (qc b))) as [Z3|Z3]; [|right; intros (_ & H & _); now apply Z3, (H Colors)].
    destruct (bool_dec (is_some (qf a)) (is_some (qf b))) as [Z4|Z4]; [|right; intros (_ & H & _); now apply Z4, (H Features)].
    left. split; [auto|]. split; [|auto]. intros [| | |]; auto. }
  destruct D as [D|D]; [left; auto|right]. intros [H|[H|H]]; [discriminate|discriminate|auto].
Qed.

Theorem Hist_Rep s a : Hist F s a -> Rep a s.
Proof.
  induction 1 as [p n c f a s Rp Rn Rc Rf HD E|s a HL|r s a _ IH|m s s' a a' _ IH Hm E|m s s' a e _ IH Hm E
    |v L P s s' a _ IH EP Hv E|s o a b r s' o' _ IHs _ IHo E|s o a b e s' o' _ IHs _ IHo E
    |s o a b r s' o' _ IHs _ IHo E|ix s o s' a c ks _ IH Hsel Hpk E|ix s r s' a _ IH E|s o s' a _ IH E
    |s o s' a P _ IH EP Heq E|s o a b c s' r c' o' _ IHs _ IHo Na Nb Ec E|s o a b c s' r c' o' _ IHs _ IHo Na Nb Hsa Ec E|s r s' a _ IH E].
  - destruct (ctor_accepts F p n c f a Rp Rn Rc Rf HD) as (s2 & E2 & Hr). congruence.
  - destruct (ListOnly_inv s a HL) as (P & Hr & _). eapply RepN_Rep; eauto.
  - now apply after_Rep.
  - destruct (run_ok m a a' s IH Hm) as (s2 & E2 & Hr). congruence.
  - eapply run_err; eauto.
  - unfold Rep, PointcloudsProofs.Rep in IH. rewrite EP in IH.
    destruct (after_lists_all P a s IH) as [H1 H2].
    destruct (set_points_list_ok F P a _ L v H1 Hv H2) as (s2 & E2 & Hr). congruence.
  - destruct (append_dec a b) as [Hc|Hc].
    + destruct (append_ok F a b s o IHs IHo Hc) as (s2 & o2 & E2 & H1 & H2).
      assert (s2 = s') by congruence. subst s2.
      destruct (append_result_eq a b) as [<-|[N1 N2]]; [exact H1|]. rewrite N1.
      rewrite (no_points_no_batch _ _ IHo N2). unfold append_result in H1. rewrite N2 in H1.
      now rewrite <- (no_points_no_batch _ _ IHs N1).
    + destruct (append_rejects F a b s o IHs IHo Hc) as (s2 & o2 & E2 & _). congruence.
  - destruct (append_dec a b) as [Hc|Hc].
    + destruct (append_ok F a b s o IHs IHo Hc) as (s2 & o2 & E2 & _). congruence.
    + destruct (append_rejects F a b s o IHs IHo Hc) as (s2 & o2 & E2 & H1 & _). congruence.
  - destruct (append_dec a b) as [Hc|Hc].
    + destruct (append_ok F a b s o IHs IHo Hc) as (s2 & o2 & E2 & H1 & H2). congruence.
    + destruct (append_rejects F a b s o IHs IHo Hc) as (s2 & o2 & E2 & H1 & H2). congruence.
  - unfold Rep at 1, PointcloudsProofs.Rep in IH. destruct (qp a) as [P|] eqn:EP.
    + unfold len_view in Hsel. rewrite EP in Hsel. destruct ks as [|k ks].
      * destruct (getitem_nothing F P a s ix IH Hsel) as (s2 & E2 & _). congruence.
      * destruct (getitem_ok F P a s ix (k :: ks) IH Hsel) as (c2 & o2 & s2 & E2 & Hp2 & Hr2 & _); [discriminate|].
        rewrite (Picked_unique _ _ _ _ Hpk Hp2). congruence.
    + destruct IH as [_ IH]. destruct (getitem_empty F s ix IH) as (s2 & E2 & _). congruence.
  - eapply getitem_self_Rep; eauto.
  - destruct (read_list_clonable F a s IH) as (s1 & E1 & Hr & Hc). cbn [after] in E. rewrite E1 in E. cbn [snd] in E.
    destruct (clone_Rep F a s1 Hr Hc) as (o2 & s2 & E2 & Ho & _). congruence.
  - destruct (clone_Rep F a s IH) as (o2 & s2 & E2 & Ho & _).
    + intros _. unfold Rep, PointcloudsProofs.Rep in IH. rewrite EP in IH. eapply equal_clonable; eauto.
    + congruence.
  - exact (clone_append_result F a b s o c s' r c' o' IHs IHo Na Nb Ec E).
  - destruct (clone_append F a b s o c s' IHs IHo Na Nb Hsa Ec) as (c2 & o2 & E2 & _ & H2). congruence.
  - eapply clone_self_Rep; eauto.
Qed.

End HP.
