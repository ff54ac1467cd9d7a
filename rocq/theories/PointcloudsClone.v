(* clone, detach, and the out-of-place operations. *)
From Coq Require Import List Arith ZArith Bool Lia.
From Verif Require Import Res Fld StructUtilsModel StructUtilsProofs PointcloudsModel PointcloudsSpec
  PointcloudsCtorSpec PointcloudsProofs PointcloudsOps PointcloudsCtor.
Import ListNotations.
Local Open Scope nat_scope.

Section Clone.
Variable F : Fld.
Notation T2 := (t2 F).
Notation T3 := (t3 F).
Notation pc := (pc F).
Notation batch := (batch F).
Implicit Types (s : pc) (a : batch) (P L : list T2).
Notation RepN := (RepN F).
Notation Rep := (Rep F).
Notation Rep0 := (Rep0 F).

Definition no_flags : quad (option bool) := mkQ None None None None.
Lemma no_flags_ok a : flags_ok F a no_flags.
Proof. intros y. left. now destruct y. Qed.

(* lists that are cached form a valid batch *)
Lemma cached_valid P a s :
  RepN P a s -> qp (lst F s) = Some P -> valid_batch F P (lst F s).
Proof.
  intros H E. pose proof (rn_valid _ _ _ _ H) as Hv. split; [exact E|]. split; [apply (valid_ne _ _ _ Hv)|].
  intros x L HL. destruct (rn_lst _ _ _ _ H x) as [E'|E']; rewrite HL in E'; [discriminate|].
  symmetry in E'. split; [apply (valid_counts _ _ _ _ _ Hv E')|].
  pose proof (valid_wid _ _ _ _ _ Hv E') as Hw.
  replace (width F (lst F s) x) with (width F a x); [exact Hw|].
  destruct x; try reflexivity. cbn in *. now rewrite HL, E'.
Qed.

Lemma clone_cached P a s :
  RepN P a s -> qp (lst F s) = Some P ->
  exists f, clone F s = (Ok (with_flg F no_flags s), with_flg F f s) /\ RepN P a (with_flg F f s) /\
    RepN P a (with_flg F no_flags s).
Proof.
  intros H E. destruct (has_ok F P a s Points H) as (f & Eh & Hr). rewrite (RepN_hasP _ _ _ _ H) in Eh.
  exists f. split; [|split; [exact Hr|apply RepN_with_flg; [exact H|apply no_flags_ok]]].
  unfold clone. unfold mbind at 1. rewrite Eh. cbn [negb].
  unfold mbind, get. change (lst F (with_flg F f s)) with (lst F s). rewrite E. unfold lift.
  assert (Ec : ctor F (in2 F P) (oin F (in2 F) (qn (lst F s))) (oin F (in2 F) (qc (lst F s)))
     (oin F (in2 F) (qf (lst F s))) = Ok (list_state F P (lst F s))).
  { apply (ctor_as_list F _ _ _ _ P (lst F s)).
    - eapply cached_valid; eauto.
    - rewrite E. apply (oin_as_list F (Some P)).
    - apply oin_as_list.
    - apply oin_as_list.
    - apply oin_as_list. }
  rewrite Ec. unfold ret. f_equal. f_equal. unfold copy_tensors, list_state, with_flg. cbn.
  rewrite (rn_bat _ _ _ _ H), (rn_nmax _ _ _ _ H), (rn_equi _ _ _ _ H), (rn_num _ _ _ _ H).
  assert (Eo : forall (X : Type) (o : option X), or_else o None = o) by (intros X [x|]; reflexivity).
  rewrite !Eo. destruct (pad F s) as [q1 q2 q3 q4]. reflexivity.
Qed.

(* the padded branch: the points list is not cached *)
Lemma clone_padded P a s :
  RepN P a s -> qp (lst F s) = None ->
  exists f o, clone F s = (Ok o, with_flg F f s) /\ RepN P a (with_flg F f s) /\
    o = mkPC F (mkQ None None None None) (pad F s) (mask F s) no_flags (num F s) (bat F s) (nmax F s) (Some true) /\
    (forall x, qget x (pad F s) = padded_view F a x).
Proof.
  intros H E. pose proof (rn_valid _ _ _ _ H) as Hv. pose proof (valid_qp _ _ _ Hv) as HqP.
  destruct (has_ok F P a s Points H) as (f & Eh & Hr). rewrite (RepN_hasP _ _ _ _ H) in Eh.
  assert (Hpads : forall x, qget x (pad F s) = padded_view F a x).
  { destruct (rn_mode _ _ _ _ H) as [(_ & Hl & _)|Hp]; [|exact Hp].
    specialize (Hl Points). cbn in Hl. congruence. }
  set (N := biggest (counts_of F P)).
  assert (Epp : qp (pad F s) = Some (pad_to F N 3 P)).
  { pose proof (Hpads Points) as Ep. cbn [qget] in Ep. rewrite Ep. apply (padded_some F P a Points P Hv HqP). }
  exists f. eexists. split; [|split; [exact Hr|split; [reflexivity|exact Hpads]]].
  unfold clone. unfold mbind at 1. rewrite Eh. cbn [negb].
  unfold mbind, get. change (lst F (with_flg F f s)) with (lst F s).
  change (pad F (with_flg F f s)) with (pad F s). rewrite E, Epp. unfold lift.
  assert (Hlen : 0 < length P) by (pose proof (valid_ne _ _ _ Hv); destruct P; [congruence|cbn; lia]).
  assert (Hx : forall x r, qget x (pad F s) = Some r ->
     t3b r = length P /\ t3n r = N /\ t3c r = width F a x).
  { intros x r Er. rewrite Hpads in Er. destruct (qget x a) as [L|] eqn:EL.
    - rewrite (padded_some _ _ _ _ _ Hv EL) in Er. inversion Er; subst r.
      rewrite pad_to_b. cbn. rewrite (valid_len _ _ _ _ _ Hv EL). auto.
    - rewrite (padded_none _ _ _ _ Hv EL) in Er. discriminate. }
  rewrite (ctor_in3 F (pad_to F N 3 P) (qn (pad F s)) (qc (pad F s)) (qf (pad F s))).
  - unfold ret. f_equal. f_equal. unfold copy_tensors, tensor_state. cbn [lst pad mask flg num bat nmax equi qp qn qc qf with_flg t3n pad_to]. fold (pad_to F N 3 P).
    rewrite pad_to_b.
    rewrite (rn_bat _ _ _ _ H), (rn_nmax _ _ _ _ H).
    assert (Eo : forall (X : Type) (o : option X), or_else o None = o) by (intros X [x|]; reflexivity).
    assert (Eo2 : forall (X : Type) (o : option X), or_else o o = o) by (intros X [x|]; reflexivity).
    rewrite !Eo. rewrite !Eo2. destruct (pad F s) as [q1 q2 q3 q4]. cbn in *. rewrite Epp. reflexivity.
  - now rewrite pad_to_b.
  - reflexivity.
  - intros r Er. destruct (Hx Normals r Er) as (-> & -> & ->). rewrite pad_to_b. auto.
  - intros r Er. destruct (Hx Colors r Er) as (-> & -> & ->). rewrite pad_to_b. auto.
  - intros r Er. destruct (Hx Features r Er) as (-> & -> & _). rewrite pad_to_b. auto.
Qed.

Lemma clone_padded_Rep P a s :
  RepN P a s -> all_equal (counts_of F P) = true -> (forall x, qget x (pad F s) = padded_view F a x) ->
  RepN P a (mkPC F (mkQ None None None None) (pad F s) (mask F s) no_flags (num F s) (bat F s) (nmax F s) (Some true)).
Proof.
  intros H He Hp. destruct H. constructor; cbn; auto.
  - now rewrite He.
  - intros x. left. now destruct x.
  - intros x. left. now destruct x.
Qed.

(* one statement for both: the points list is cached, or the clouds have equal sizes *)
Definition clonable s : Prop := qp (lst F s) <> None \/ all_equal (num F s) = true.

Lemma clone_ok P a s :
  RepN P a s -> clonable s ->
  exists o s', clone F s = (Ok o, s') /\ RepN P a o /\ RepN P a s' /\ lst F s' = lst F s /\ num F s' = num F s.
Proof.
  intros H Hc. destruct (qp (lst F s)) as [P'|] eqn:E.
  - assert (P' = P).
    { destruct (rn_lst _ _ _ _ H Points) as [E'|E']; cbn in E'; [congruence|].
      pose proof (valid_qp _ _ _ (rn_valid _ _ _ _ H)). congruence. }
    subst P'. destruct (clone_cached P a s H E) as (f & Ec & H1 & H2).
    exists (with_flg F no_flags s), (with_flg F f s). auto.
  - destruct Hc as [Hc|Hc]; [congruence|]. rewrite (rn_num _ _ _ _ H) in Hc.
    destruct (clone_padded P a s H E) as (f & o & Ec & H1 & -> & Hp).
    eexists. exists (with_flg F f s). split; [exact Ec|]. split; [now apply clone_padded_Rep|auto].
Qed.
Lemma clone_ok0 s : Rep0 s -> exists s', clone F s = (Ok (empty_pc F), s') /\ Rep0 s'.
Proof.
  intros H. destruct (has0 F s Points H) as (f & E & Hr). exists (with_flg F f s).
  unfold clone, mbind. rewrite E. auto.
Qed.
Lemma empty_Rep0 : Rep0 (empty_pc F).
Proof. constructor; cbn; auto; intros x; destruct x; auto. Qed.

(* copying the tensors of s onto an object that is already s changes nothing observable *)
Lemma or_else_same {X} (o : option X) : or_else o o = o.
Proof. now destruct o. Qed.
Lemma copy_tensors_same (s o : pc) :
  pad F o = pad F s -> mask F o = mask F s -> num F o = num F s -> copy_tensors F s o = o.
Proof.
  intros Hp Hm Hn. unfold copy_tensors. rewrite Hp, Hm, !or_else_same, <- Hn.
  replace (mkQ (qp (pad F s)) (qn (pad F s)) (qc (pad F s)) (qf (pad F s))) with (pad F o)
    by (rewrite Hp; now destruct (pad F s)).
  rewrite <- Hm. now destruct o.
Qed.
Lemma detach_clone P a s : RepN P a s -> detach F s = clone F s.
Proof.
  intros H. unfold detach. unfold mbind at 1.
  destruct (qp (lst F s)) as [P'|] eqn:E.
  - assert (P' = P).
    { destruct (rn_lst _ _ _ _ H Points) as [E'|E']; cbn in E'; [congruence|].
      pose proof (valid_qp _ _ _ (rn_valid _ _ _ _ H)). congruence. }
    subst P'. destruct (clone_cached P a s H E) as (f & -> & _). unfold mbind, get, ret.
    f_equal. f_equal. apply copy_tensors_same; reflexivity.
  - destruct (clone_padded P a s H E) as (f & o & -> & _ & -> & _). unfold mbind, get, ret.
    f_equal. f_equal. apply copy_tensors_same; reflexivity.
Qed.
Lemma detach_clone0 s : Rep0 s -> detach F s = clone F s.
Proof.
  intros H. unfold detach, mbind. destruct (clone_ok0 s H) as (s' & -> & Hr). unfold get, ret.
  f_equal. f_equal. unfold copy_tensors. pose proof (r0_pad _ _ Hr) as Hp.
  pose proof (Hp Points) as E1. pose proof (Hp Normals) as E2. pose proof (Hp Colors) as E3. pose proof (Hp Features) as E4.
  cbn in E1, E2, E3, E4. rewrite E1, E2, E3, E4, (r0_mask _ _ Hr), (r0_num _ _ Hr). reflexivity.
Qed.

(* out-of-place: same result as in place on an equal object; the receiver keeps its contents *)
Definition Same (op : M pc unit) (a : batch) (r : batch) : Prop :=
  forall s, Rep a s -> exists s', op s = (Ok tt, s') /\ Rep r s'.
Definition Fails (op : M pc unit) (a : batch) (e : exn) : Prop :=
  forall s, Rep a s -> exists s', op s = (Err e, s') /\ Rep a s'.

Lemma clone_Rep a s : Rep a s -> (qp a <> None -> clonable s) ->
  exists o s', clone F s = (Ok o, s') /\ Rep a o /\ Rep a s'.
Proof.
  unfold Rep, PointcloudsProofs.Rep. destruct (qp a) as [P|] eqn:E; intros H Hc.
  - destruct (clone_ok P a s H) as (o & s' & E1 & E2 & E3 & _); [apply Hc; discriminate|]. eauto.
  - destruct H as [Ha H]. destruct (clone_ok0 s H) as (s' & E1 & E2). exists (empty_pc F), s'.
    split; [exact E1|]. split; [split; [exact Ha|apply empty_Rep0]|auto].
Qed.

Lemma oop_ok op a r s :
  Rep a s -> (qp a <> None -> clonable s) -> Same op a r ->
  exists o s', out_of_place F op s = (Ok o, s') /\ Rep r o /\ Rep a s'.
Proof.
  intros H Hc Hop. destruct (clone_Rep a s H Hc) as (o & s' & E & Ho & Hs).
  destruct (Hop o Ho) as (o' & Eo & Ho'). exists o', s'. split; [|auto].
  unfold out_of_place, mbind. rewrite E, Eo. reflexivity.
Qed.
Lemma oop_fail op a e s :
  Rep a s -> (qp a <> None -> clonable s) -> Fails op a e ->
  exists s', out_of_place F op s = (Err e, s') /\ Rep a s'.
Proof.
  intros H Hc Hop. destruct (clone_Rep a s H Hc) as (o & s' & E & Ho & Hs).
  destruct (Hop o Ho) as (o' & Eo & Ho'). exists s'. split; [|auto].
  unfold out_of_place, mbind. rewrite E, Eo. reflexivity.
Qed.

(* reading points_list makes the object clonable *)
Lemma read_list_clonable a s : Rep a s ->
  exists s1, get_list F Points s = (Ok (qp a), s1) /\ Rep a s1 /\ (qp a <> None -> clonable s1).
Proof.
  unfold Rep, PointcloudsProofs.Rep. destruct (qp a) as [P|] eqn:E; intros H.
  - destruct (get_list_ok F P a s Points H) as (E1 & H1). cbn [qget] in *. rewrite E in *.
    exists (set_lst F Points (Some P) s). split; [exact E1|]. split; [exact H1|]. intros _. left. cbn. discriminate.
  - destruct H as [Ha H]. exists s. rewrite (get_list0 F s Points H). split; [reflexivity|]. split; [auto|]. congruence.
Qed.
Lemma equal_clonable P a s : RepN P a s -> all_equal (counts_of F P) = true -> clonable s.
Proof. intros H E. right. now rewrite (rn_num _ _ _ _ H). Qed.

End Clone.
