(* Setters and rejected operations. *)
From Coq Require Import List Arith ZArith Bool Lia.
From Verif Require Import Res Fld StructUtilsModel StructUtilsProofs PointcloudsModel PointcloudsSpec
  PointcloudsCtorSpec PointcloudsSetSpec PointcloudsProofs PointcloudsOps PointcloudsCtor PointcloudsClone.
Import ListNotations.
Local Open Scope nat_scope.

Section Set_.
Variable F : Fld.
Notation T2 := (t2 F).
Notation T3 := (t3 F).
Notation pc := (pc F).
Notation batch := (batch F).
Implicit Types (s : pc) (a : batch) (P L : list T2).
Notation RepN := (RepN F).
Notation Rep := (Rep F).
Notation Rep0 := (Rep0 F).

Lemma is_zero_eq (z : F) : is_zero F z = true <-> z = f0.
Proof. unfold is_zero. destruct (feq_dec z f0); split; congruence. Qed.

Lemma zero_rows_spec w rows : Forall (fun r => length r = w) rows ->
  forallb (forallb (is_zero F)) rows = true <-> rows = repeat (repeat f0 w) (length rows).
Proof.
  intros H. induction H as [|r rows Hr _ IH]; cbn; [split; auto|].
  rewrite andb_true_iff, IH.
  assert (E : forallb (is_zero F) r = true <-> r = repeat f0 w).
  { subst w. clear. induction r as [|z r IH]; cbn; [split; auto|]. rewrite andb_true_iff, IH, is_zero_eq.
    split; [intros [-> E]; now rewrite <- E|]. intros E. injection E as -> E. auto. }
  rewrite E. split; [intros [-> H2]; now rewrite <- H2|]. intros E2. injection E2 as E2 E3. auto.
Qed.

(* the padding check says: p is the zero padding of its prefixes *)
Lemma padding_zero_spec ns p : t3wf p -> t3b p = length ns -> Forall (fun n => n <= t3n p) ns ->
  padding_zero F ns p = Ok true <-> pad_to F (t3n p) (t3c p) (unpad F ns p) = p.
Proof.
  intros Hwf Hb Hn. unfold padding_zero. rewrite Hb, Nat.leb_refl. cbn [negb].
  destruct p as [N C d]. unfold t3wf, t3b, unpad, pad_to in *. cbn [t3n t3c t3d] in *.
  rewrite map_map. cbn [t2r].
  assert (G : forallb (fun q => forallb (forallb (is_zero F)) (skipn (snd q) (fst q))) (combine d ns) = true <->
    map (fun q => firstn (snd q) (fst q) ++ repeat (repeat f0 C) (N - length (firstn (snd q) (fst q)))) (combine d ns) = d).
  { revert ns Hb Hn. induction Hwf as [|m d [Hm Hw] _ IH]; intros [|n ns] Hb Hn; cbn in *; try discriminate; [split; auto|].
    inversion Hn as [|? ? Hn1 Hn2]; subst. rewrite andb_true_iff, IH by (auto; congruence).
    rewrite (zero_rows_spec C).
    2:{ apply Forall_forall. intros r Hr. rewrite Forall_forall in Hw. apply Hw.
        rewrite <- (firstn_skipn n m). apply in_or_app. now right. }
    rewrite skipn_length, firstn_length.
    replace (length m - Nat.min n (length m)) with (length m - n) by lia.
    split.
    - intros [E1 E2]. f_equal; [|exact E2]. rewrite <- E1. apply firstn_skipn.
    - intros E. injection E as E1 E2. split; [|exact E2].
      rewrite <- (firstn_skipn n m) in E1 at 3. now apply app_inv_head in E1. }
  split.
  - intros E. injection E as E. apply G in E. f_equal. exact E.
  - intros E. injection E as E. f_equal. now apply G.
Qed.

Lemma unpad_wid ns p : t3wf p -> wid_ok F (t3c p) (unpad F ns p).
Proof.
  intros H. unfold wid_ok, unpad. apply Forall_map, Forall_forall. intros [m n] Hq. cbn. split; [reflexivity|].
  apply in_combine_l in Hq. unfold t3wf in H. rewrite Forall_forall in H. destruct (H m Hq) as [_ Hw].
  apply Forall_forall. intros r Hr. rewrite Forall_forall in Hw. apply Hw.
  rewrite <- (firstn_skipn n m). apply in_or_app. now left.
Qed.
Lemma unpad_counts ns p : t3wf p -> t3b p = length ns -> Forall (fun n => n <= t3n p) ns ->
  counts_of F (unpad F ns p) = ns.
Proof.
  destruct p as [N C d]. unfold t3wf, t3b, unpad, counts_of. cbn. intros Hwf. revert ns.
  induction Hwf as [|m d [Hm _] _ IH]; intros [|n ns]; cbn; intros Hb Hn; try discriminate; [reflexivity|].
  inversion Hn; subst. rewrite firstn_length. f_equal; [lia|]. apply IH; auto.
Qed.

Lemma fits_valid P a x w L : valid_batch F P a -> fits_clouds F P x w L ->
  exists P', valid_batch F P' (qset x (Some L) a) /\ counts_of F P' = counts_of F P /\ width F (qset x (Some L) a) x = w.
Proof.
  intros Hv (Hc & Hw & H3).
  assert (HlL : length L = length P) by (apply (f_equal (@length nat)) in Hc; unfold counts_of in Hc; now rewrite !map_length in Hc).
  pose proof (valid_ne _ _ _ Hv) as Hne.
  assert (Hwx : width F (qset x (Some L) a) x = w).
  { destruct x; try (symmetry; apply H3; discriminate). cbn.
    destruct L as [|y L]; [destruct P; [congruence|discriminate]|]. inversion Hw as [|? ? [E _] _]; subst. reflexivity. }
  destruct (attr_dec x Points) as [->|Hx].
  - exists L. split; [|auto]. split; [reflexivity|]. split; [destruct L; [destruct P; [congruence|discriminate]|discriminate]|].
    intros y M HM. destruct (attr_dec y Points) as [->|Hy].
    + cbn in HM. injection HM as <-. split; [reflexivity|]. rewrite Hwx. exact Hw.
    + rewrite qget_qset_other in HM by exact Hy. rewrite width_qset_other by exact Hy.
      rewrite Hc. split; [apply (valid_counts _ _ _ _ _ Hv HM)|apply (valid_wid _ _ _ _ _ Hv HM)].
  - exists P. split; [|auto]. split; [destruct x; try congruence; apply Hv|]. split; [exact Hne|].
    intros y M HM. destruct (attr_dec y x) as [->|Hy].
    + rewrite qget_qset_same in HM. inversion HM; subst M. split; [exact Hc|]. rewrite Hwx. exact Hw.
    + rewrite qget_qset_other in HM by exact Hy. rewrite width_qset_other by exact Hy.
      split; [apply (valid_counts _ _ _ _ _ Hv HM)|apply (valid_wid _ _ _ _ _ Hv HM)].
Qed.

Lemma assert_set_padded_ok P a s x w L :
  RepN P a s -> fits_clouds F P x w L ->
  exists s', assert_set_padded F (SP F (AT3 F (pad_to F (biggest (counts_of F P)) w L)))
      (match x with Features => true | _ => false end) s =
    (Ok (pad_to F (biggest (counts_of F P)) w L), s') /\ RepN P a s' /\
    (forall x, qget x (pad F s') = padded_view F a x) /\
    (forall y, qget y (flg F s) <> Some false -> y <> Points -> qget y (flg F s') <> Some false \/ qget y a = None).
Proof.
  intros H Hfit. pose proof Hfit as (Hc & Hw & H3). pose proof (rn_valid _ _ _ _ H) as Hv. pose proof (valid_qp _ _ _ Hv) as HqP.
  set (N := biggest (counts_of F P)) in *.
  unfold assert_set_padded. destruct (has_ok F P a s Points H) as (f & Eh & Hr). rewrite (RepN_hasP _ _ _ _ H) in Eh.
  unfold mbind at 1. rewrite Eh. cbn [negb]. change (andim F (AT3 F (pad_to F N w L)) =? 3) with true. cbn [negb].
  destruct (get_padded_ok F P a _ Points Hr) as (s1 & E1 & Hr1 & Hp1 & _).
  unfold mbind at 1. rewrite E1, (padded_some F P a Points P Hv HqP).
  assert (HlL : length L = length P) by (apply (f_equal (@length nat)) in Hc; unfold counts_of in Hc; now rewrite !map_length in Hc).
  cbn [ashape]. rewrite !pad_to_b. cbn [t3n t3c width]. fold N.
  change (t3n (pad_to F N 3 P)) with N. change (t3c (pad_to F N 3 P)) with 3.
  change (t3n (pad_to F N w L)) with N. change (t3c (pad_to F N w L)) with w. rewrite HlL.
  assert (Ebad : (if match x with Features => true | _ => false end
                  then negb (shape_eqb (removelast [length P; N; 3]) (removelast [length P; N; w]))
                  else negb (shape_eqb [length P; N; 3] [length P; N; w])) = false).
  { destruct x; apply negb_false_iff, shape_eqb_eq; try reflexivity; rewrite (H3 ltac:(discriminate)); reflexivity. }
  rewrite Ebad. cbn [as_t3]. unfold mbind at 1, lift. unfold mbind at 1, get.
  assert (Ewf : t3wf (pad_to F N w L)).
  { apply pad_to_wf; [exact Hw|]. apply counts_le. exact Hc. }
  assert (Hle : Forall (fun n => n <= t3n (pad_to F N w L)) (num F s1)).
  { rewrite (rn_num _ _ _ _ Hr1). apply Forall_forall. intros n Hn. now apply biggest_ge. }
  assert (Ez : padding_zero F (num F s1) (pad_to F N w L) = Ok true).
  { apply padding_zero_spec; auto.
    - rewrite pad_to_b, (rn_num _ _ _ _ Hr1). unfold counts_of. rewrite map_length. exact HlL.
    - cbn [t3n t3c pad_to]. change (mkT3 N w _) with (pad_to F N w L).
      change (t3n (pad_to F N w L)) with N. change (t3c (pad_to F N w L)) with w. f_equal.
      apply unpad_pad; auto; [rewrite (rn_num _ _ _ _ Hr1); exact Hc|]. apply counts_le. exact Hc. }
  unfold mbind. rewrite Ez. cbn [negb]. exists s1. split; [reflexivity|]. split; [exact Hr1|]. split; [exact Hp1|].
  intros y Hy Hyp. destruct (rn_flg _ _ _ _ Hr1 y) as [E|E]; rewrite E; [left; discriminate|].
  destruct (qget y a); [left; discriminate|now right].
Qed.

Lemma set_padded_ok P a s x L v :
  RepN P a s -> pad_value F P x v L -> qget x a <> None ->
  exists s', set_padded F x v s = (Ok tt, s') /\ Rep (qset x (Some L) a) s'.
Proof.
  intros H (w & Hfit & ->) Hpres. pose proof (rn_valid _ _ _ _ H) as Hv.
  destruct (assert_set_padded_ok P a s x w L H Hfit) as (s1 & E & Hr & Hp & _).
  unfold set_padded, mbind at 1. rewrite E. unfold mbind, modify.
  destruct (fits_valid P a x w L Hv Hfit) as (P' & Hv' & Hc' & Hw').
  eexists. split; [reflexivity|]. apply (RepN_Rep F _ _ P').
  pose proof (RepN_update F P P' a s1 x L Hr Hp Hv' Hc' (or_introl Hpres)) as Hu.
  rewrite (padded_some F P' _ x L Hv') in Hu by apply qget_qset_same.
  rewrite Hw', Hc' in Hu. exact Hu.
Qed.

(* rejection *)
Lemma set_padded_reject P a s x v :
  real_pad F v -> RepN P a s -> ~ (exists L, pad_value F P x v L) ->
  exists e s', set_padded F x v s = (Err e, s') /\ (e = TypeError \/ e = ValueError) /\ Rep a s'.
Proof.
  intros Rv H Hno. pose proof (rn_valid _ _ _ _ H) as Hv. pose proof (valid_qp _ _ _ Hv) as HqP.
  set (N := biggest (counts_of F P)) in *.
  unfold set_padded, mbind at 1. unfold assert_set_padded. destruct v as [|z].
  { exists TypeError, s. split; [reflexivity|]. split; [auto|eapply RepN_Rep; eauto]. }
  destruct (has_ok F P a s Points H) as (f & Eh & Hr). rewrite (RepN_hasP _ _ _ _ H) in Eh.
  unfold mbind at 1. rewrite Eh. cbn [negb].
  destruct (andim F z =? 3) eqn:Ed; cbn [negb].
  2:{ exists ValueError. eexists. split; [reflexivity|]. split; [auto|eapply RepN_Rep; eauto]. }
  destruct (get_padded_ok F P a _ Points Hr) as (s1 & E1 & Hr1 & Hp1 & _).
  unfold mbind at 1. rewrite E1, (padded_some F P a Points P Hv HqP).
  destruct z as [y|p|sh]; [cbn in Ed; discriminate| |cbn in Rv, Ed; apply Nat.eqb_eq in Ed; unfold andim in Ed; cbn in Ed; tauto].
  cbn [ashape]. rewrite !pad_to_b. cbn [width]. fold N.
  change (t3n (pad_to F N 3 P)) with N. change (t3c (pad_to F N 3 P)) with 3.
  cbn in Rv.
  match goal with |- context [if ?b then raise ValueError else _] => destruct b eqn:Ebad end.
  { exists ValueError, s1. split; [reflexivity|]. split; [auto|eapply RepN_Rep; eauto]. }
  assert (Hsh : t3b p = length P /\ t3n p = N /\ (x <> Features -> t3c p = 3)).
  { destruct x; apply negb_false_iff, shape_eqb_eq in Ebad; cbn in Ebad; injection Ebad as Z1 Z2; auto.
    split; [auto|]. split; [auto|]. congruence. }
  destruct Hsh as (Hb & Hn & H3).
  cbn [as_t3]. unfold mbind at 1, lift. unfold mbind at 1, get.
  assert (Hbl : t3b p = length (num F s1)).
  { rewrite (rn_num _ _ _ _ Hr1). unfold counts_of. now rewrite map_length. }
  assert (Hle : Forall (fun n => n <= t3n p) (num F s1)).
  { rewrite (rn_num _ _ _ _ Hr1), Hn. apply Forall_forall. intros n Hin. now apply biggest_ge. }
  unfold mbind at 1.
  destruct (padding_zero F (num F s1) p) as [z|e] eqn:Ez.
  - destruct z; cbn [negb].
    + exfalso. apply Hno. apply padding_zero_spec in Ez; auto.
      exists (unpad F (num F s1) p), (t3c p). split.
      * split; [rewrite unpad_counts by auto; apply (rn_num _ _ _ _ Hr1)|]. split; [now apply unpad_wid|exact H3].
      * f_equal. f_equal. rewrite <- Ez at 1. rewrite Hn. reflexivity.
    + exists ValueError, s1. split; [reflexivity|]. split; [auto|eapply RepN_Rep; eauto].
  - exfalso. unfold padding_zero in Ez. rewrite Hbl, Nat.leb_refl in Ez. discriminate.
Qed.

(* ---- list setters ---- *)
Lemma assert_set_list_ok P a s x L w :
  RepN P a s -> fits_clouds F P x w L ->
  exists s', assert_set_list F (SL F (map (AT2 F) L)) (match x with Features => true | _ => false end) s =
    (Ok L, s') /\ RepN P a s' /\ pad F s' = pad F s /\ mask F s' = mask F s /\
    (forall y, qget y (lst F s) = qget y a -> qget y (lst F s') = qget y a) /\
    (forall y, y <> Points -> qget y (flg F s') = qget y (flg F s)).
Proof.
  intros H (Hc & Hw & H3). pose proof (rn_valid _ _ _ _ H) as Hv. pose proof (valid_qp _ _ _ Hv) as HqP.
  unfold assert_set_list. destruct (has_ok F P a s Points H) as (f & Eh & Hr).
  assert (Hff : forall y, y <> Points -> qget y f = qget y (flg F s)).
  { intros y Hy. apply (f_equal (fun q => flg F (snd q))) in Eh. cbn in Eh. rewrite <- Eh.
    destruct (qp (flg F s)); cbn; [reflexivity|].
    destruct y; try reflexivity. congruence. }
  rewrite (RepN_hasP _ _ _ _ H) in Eh.
  unfold mbind at 1. rewrite Eh. cbn [negb]. unfold mbind at 1, get.
  assert (HlL : length L = length P) by (apply (f_equal (@length nat)) in Hc; unfold counts_of in Hc; now rewrite !map_length in Hc).
  rewrite (rn_bat _ _ _ _ Hr), map_length, HlL, Nat.eqb_refl. cbn [negb].
  assert (G2 : forallb (fun p => andim F p =? 2) (map (AT2 F) L) = true).
  { rewrite forallb_forall. intros z Hz. apply in_map_iff in Hz. destruct Hz as (y & <- & _). reflexivity. }
  rewrite G2. cbn [negb].
  destruct (get_list_ok F P a _ Points Hr) as [Eg Hr2]. cbn [qget] in *. rewrite HqP in *.
  unfold mbind at 1. rewrite Eg.
  exists (set_lst F Points (Some P) (with_flg F f s)).
  split; [|split; [exact Hr2|split; [reflexivity|split; [reflexivity|]]]].
  - destruct x.
    4:{ rewrite map_map. change (fun x => hd 0 (ashape F (AT2 F x))) with (fun y : T2 => t2n y).
        assert (E : shape_eqb (map t2n P) (map (fun y : T2 => t2n y) L) = true).
        { apply shape_eqb_eq. unfold counts_of in Hc. symmetry. exact Hc. }
        rewrite E. unfold lift. now rewrite mapM_as_t2. }
    all: rewrite ashape_map;
      (assert (E : shapes_eqb (map (fun y : T2 => [t2n y; t2c y]) P) (shapes2 F L) = true);
       [apply shapes_eqb_eq; change (shapes2 F P = shapes2 F L); symmetry; apply shapes2_of; [exact Hc|];
        rewrite (map_t2c_const F 3 P) by (apply wid_ok_cols; apply (valid_wid F P a Points P Hv HqP));
        rewrite (map_t2c_const F 3 L) by (apply wid_ok_cols; rewrite <- (H3 ltac:(discriminate)); exact Hw);
        now rewrite HlL
       |rewrite E; unfold lift; now rewrite mapM_as_t2]).
  - split.
    + intros y Hy. destruct (attr_dec y Points) as [->|Hn]; [symmetry; exact HqP|].
      destruct y; try exact Hy. congruence.
    + intros y Hy. cbn. now apply Hff.
Qed.

(* points: all present attributes must be cached as lists *)
Lemma set_points_list_ok P a s L v :
  RepN P a s -> list_value F P Points v L -> (forall y, qget y (lst F s) = qget y a) ->
  exists s', set_list F Points v s = (Ok tt, s') /\ Rep (qset Points (Some L) a) s'.
Proof.
  intros H (w & Hfit & ->) Hall. pose proof (rn_valid _ _ _ _ H) as Hv.
  destruct (assert_set_list_ok P a s Points L w H Hfit) as (s1 & E & Hr & Hpd & Hmk & Hl1 & Hf1).
  unfold set_list, mbind at 1. cbv beta iota in E. rewrite E. unfold mbind, modify.
  eexists. split; [reflexivity|].
  destruct (fits_valid P a Points w L Hv Hfit) as (P' & Hv' & Hc' & Hw').
  assert (EP' : P' = L) by (pose proof (valid_qp _ _ _ Hv') as Q; cbn in Q; congruence). subst P'.
  apply (RepN_Rep F _ _ L).
  assert (HL : length L = length P).
  { apply (f_equal (@length nat)) in Hc'. unfold counts_of in Hc'. now rewrite !map_length in Hc'. }
  destruct Hr as [U1 U2 U3 U4 U5 U6 U7 U8 U9 U10].
  pose proof (valid_qp _ _ _ Hv) as HqP.
  constructor; cbn.
  - exact Hv'.
  - congruence.
  - congruence.
  - congruence.
  - congruence.
  - intros y. specialize (U6 y). destruct y; cbn in *; auto. rewrite HqP in U6. exact U6.
  - destruct U7 as [E7|E7]; [now left|right]. rewrite E7. unfold mask_view. rewrite HqP. cbn. now rewrite Hc'.
  - intros y. right. destruct y; cbn; try reflexivity.
    + apply (Hl1 Normals (Hall Normals)).
    + apply (Hl1 Colors (Hall Colors)).
    + apply (Hl1 Features (Hall Features)).
  - intros y Hy. destruct y; cbn in *; [discriminate| | |].
    + apply (U9 Normals Hy).
    + apply (U9 Colors Hy).
    + apply (U9 Features Hy).
  - left. split; [reflexivity|]. split.
    + intros y. destruct y; cbn; try reflexivity.
      * apply (Hl1 Normals (Hall Normals)).
      * apply (Hl1 Colors (Hall Colors)).
      * apply (Hl1 Features (Hall Features)).
    + intros fp Efp. destruct U10 as [(_ & _ & Hfw)|Hm]; [now apply Hfw|].
      specialize (Hm Features). cbn [qget] in Hm. rewrite Efp in Hm.
      destruct (qf a) as [Lf|] eqn:ELf.
      * rewrite (padded_some F P a Features Lf Hv ELf) in Hm. injection Hm as ->. cbn. now rewrite ELf.
      * rewrite (padded_none F P a Features Hv ELf) in Hm. discriminate.
Qed.

(* the other attributes: only while no padded view exists (points_padded never computed) *)
Lemma set_other_list_ok P a s x L v :
  RepN P a s -> list_value F P x v L -> x <> Points -> (forall y, qget y (pad F s) = None) ->
  (qget x a <> None \/ qget x (flg F s) = None) ->
  exists s', set_list F x v s = (Ok tt, s') /\ Rep (qset x (Some L) a) s'.
Proof.
  intros H (w & Hfit & ->) Hx Hnop Hfl. pose proof (rn_valid _ _ _ _ H) as Hv.
  destruct (assert_set_list_ok P a s x L w H Hfit) as (s1 & E & Hr & Hpd & Hmk & Hl1 & Hf1).
  unfold set_list, mbind at 1. rewrite E.
  assert (Es : mbind (modify (set_lst F x (Some L)))
     (fun _ => match x with Points => modify (set_pad F Points None) | _ => ret tt end) s1 =
     (Ok tt, set_lst F x (Some L) s1)) by (destruct x; try reflexivity; congruence).
  eexists. split; [exact Es|].
  destruct (fits_valid P a x w L Hv Hfit) as (P' & Hv' & Hc' & Hw').
  pose proof (valid_qp _ _ _ Hv) as HqP.
  assert (EP' : P' = P).
  { pose proof (valid_qp _ _ _ Hv') as Q. destruct x; cbn in Q; congruence. } subst P'.
  apply (RepN_Rep F _ _ P).
  assert (Hall : forall y, qget y (lst F s1) = qget y a).
  { destruct (rn_mode _ _ _ _ Hr) as [(_ & Hl & _)|Hm]; [exact Hl|].
    pose proof (Hm Points) as Hp. rewrite Hpd, Hnop, (padded_some F P a Points P Hv HqP) in Hp. discriminate. }
  destruct Hr as [U1 U2 U3 U4 U5 U6 U7 U8 U9 U10].
  assert (Hlall : forall y, qget y (qset x (Some L) (lst F s1)) = qget y (qset x (Some L) a)).
  { intros y. destruct (attr_dec y x) as [->|Hn]; [now rewrite !qget_qset_same|].
    rewrite !qget_qset_other by exact Hn. apply Hall. }
  constructor; cbn; auto.
  - intros y. destruct (attr_dec y x) as [->|Hn].
    + rewrite qget_qset_same. destruct Hfl as [Hfl|Hfl].
      * destruct (U6 x) as [E6|E6]; [now left|right]. rewrite E6. destruct (qget x a); [reflexivity|congruence].
      * left. rewrite (Hf1 x Hx). exact Hfl.
    + rewrite qget_qset_other by exact Hn. apply U6.
  - destruct U7 as [E7|E7]; [now left|right]. rewrite E7. unfold mask_view. destruct x; try reflexivity. congruence.
  - intros y _. rewrite Hpd. apply Hnop.
  - left. split; [rewrite Hpd; apply (Hnop Points)|]. split; [exact Hlall|].
    intros fp Efp. rewrite Hpd in Efp. pose proof (Hnop Features) as E2. cbn in E2. congruence.
Qed.

Lemma set_list_reject P a s x v :
  real_list F v -> RepN P a s -> ~ list_shape_ok F P x v ->
  exists e s', set_list F x v s = (Err e, s') /\ (e = TypeError \/ e = ValueError) /\ Rep a s'.
Proof.
  intros Rv H Hno. pose proof (rn_valid _ _ _ _ H) as Hv. pose proof (valid_qp _ _ _ Hv) as HqP.
  unfold set_list, mbind at 1, assert_set_list. destruct v as [|l].
  { exists TypeError, s. split; [reflexivity|]. split; [auto|eapply RepN_Rep; eauto]. }
  destruct (has_ok F P a s Points H) as (f & Eh & Hr). rewrite (RepN_hasP _ _ _ _ H) in Eh.
  unfold mbind at 1. rewrite Eh. cbn [negb]. unfold mbind at 1, get.
  destruct (negb (bat F (with_flg F f s) =? length l)) eqn:Eb.
  { exists ValueError. eexists. split; [reflexivity|]. split; [auto|eapply RepN_Rep; eauto]. }
  destruct (forallb (fun x => andim F x =? 2) l) eqn:G2; cbn [negb].
  2:{ exists ValueError. eexists. split; [reflexivity|]. split; [auto|eapply RepN_Rep; eauto]. }
  destruct (rank2_list F l Rv) as (L & -> & HwL).
  { rewrite forallb_forall in G2. apply Forall_forall. intros z Hz. apply Nat.eqb_eq. now apply G2. }
  destruct (get_list_ok F P a _ Points Hr) as [Eg Hr2]. cbn [qget] in *. rewrite HqP in *.
  unfold mbind at 1. rewrite Eg.
  assert (W3 : map t2c P = repeat 3 (length P)).
  { apply map_t2c_const. apply wid_ok_cols. apply (valid_wid F P a Points P Hv HqP). }
  assert (Herr : exists s', (Err (A:=list T2) ValueError, set_lst F Points (Some P) (with_flg F f s)) = (Err ValueError, s') /\ Rep a s')
    by (eexists; split; [reflexivity|eapply RepN_Rep; eauto]).
  destruct x.
  4:{ rewrite map_map. change (fun x => hd 0 (ashape F (AT2 F x))) with (fun y : T2 => t2n y).
      destruct (shape_eqb (map t2n P) (map (fun y : T2 => t2n y) L)) eqn:E.
      - exfalso. apply Hno. apply shape_eqb_eq in E. exists L. split; [reflexivity|]. split; [symmetry; exact E|congruence].
      - exists ValueError. eexists. split; [reflexivity|]. split; [auto|eapply RepN_Rep; eauto]. }
  all: rewrite ashape_map;
    (destruct (shapes_eqb (map (fun y : T2 => [t2n y; t2c y]) P) (shapes2 F L)) eqn:E;
     [exfalso; apply Hno; apply shapes_eqb_eq in E; change (shapes2 F P = shapes2 F L) in E; exists L;
      split; [reflexivity|]; split; [symmetry; now apply shapes2_counts|]; intros _;
      apply (cols_const F); rewrite <- (shapes2_cols F _ _ E), W3; f_equal; apply counts_length; now apply shapes2_counts
     |exists ValueError; eexists; split; [reflexivity|]; split; [auto|eapply RepN_Rep; eauto]]).
Qed.

(* setters of the empty object raise *)
Lemma set_list0 s x v : Rep0 s -> exists e s', set_list F x v s = (Err e, s') /\ Rep0 s'.
Proof.
  intros H. unfold set_list, mbind at 1, assert_set_list. destruct v as [|l].
  - exists TypeError, s. auto.
  - destruct (has0 F s Points H) as (f & E & Hr). unfold mbind at 1. rewrite E. cbn [negb].
    exists ValueError. eexists. split; [reflexivity|exact Hr].
Qed.
Lemma set_padded0 s x v : Rep0 s -> exists e s', set_padded F x v s = (Err e, s') /\ Rep0 s'.
Proof.
  intros H. unfold set_padded, mbind at 1, assert_set_padded. destruct v as [|l].
  - exists TypeError, s. auto.
  - destruct (has0 F s Points H) as (f & E & Hr). unfold mbind at 1. rewrite E. cbn [negb].
    exists ValueError. eexists. split; [reflexivity|exact Hr].
Qed.

(* ---- rejected arithmetic leaves the contents alone ---- *)
Lemma masked_update_err a s f o e s' : Rep a s -> masked_update F f o s = (Err e, s') -> Rep a s'.
Proof.
  intros H E. destruct o as [|sh el]; [cbn in E; unfold raise in E; congruence|].
  unfold Rep, PointcloudsProofs.Rep in *. destruct (qp a) as [P|] eqn:EP.
  - destruct (has_ok F P a s Points H) as (fl & Eh & Hr). rewrite (RepN_hasP _ _ _ _ H) in Eh.
    unfold masked_update, mbind at 1 in E. rewrite Eh in E. cbn [negb] in E.
    destruct (get_padded_ok F P a _ Points Hr) as (s1 & E1 & Hr1 & _). unfold mbind at 1 in E. rewrite E1 in E.
    destruct (nonpad_mask_ok F P a s1 Hr1) as (s2 & E2 & Hr2 & _). unfold mbind at 1 in E. rewrite E2 in E.
    destruct (padded_view F a Points); [|unfold raise in E; congruence].
    destruct (mask_view F a); [|unfold raise in E; congruence].
    unfold mbind, lift, modify in E. destruct (bcast_op F f t sh el l (mask_n l)); [discriminate|congruence].
  - destruct H as [Ha H]. destruct (masked_update0 F s f sh el H) as (s2 & E2 & _). congruence.
Qed.
Lemma rotate_err a s o pre e s' : Rep a s -> rotate_ F o pre s = (Err e, s') -> Rep a s'.
Proof.
  intros H E. destruct o as [|sh el]; [cbn in E; unfold raise in E; congruence|].
  unfold rotate_ in E. destruct (mat_shape_ok 3 sh) eqn:Em; cbn [negb] in E; [|unfold raise in E; congruence].
  unfold mbind at 1, get in E. destruct ((length sh =? 3) && negb (hd 0 sh =? bat F s)) eqn:Eb;
    [unfold raise in E; congruence|].
  assert (Hm : is_mat 3 sh (bat F s)).
  { apply mat_shape_ok_spec in Em. destruct Em as [->|[B ->]]; [now left|]. cbn in Eb.
    apply negb_false_iff, Nat.eqb_eq in Eb. subst. now right. }
  unfold Rep, PointcloudsProofs.Rep in *. destruct (qp a) as [P|] eqn:EP.
  - rewrite (rn_bat _ _ _ _ H) in Hm. destruct (rotate_ok F P a s sh el pre H Hm) as (s2 & E2 & _).
    unfold rotate_ in E2. rewrite Em in E2. cbn [negb] in E2. unfold mbind at 1, get in E2. rewrite Eb in E2. congruence.
  - destruct H as [Ha H]. rewrite (r0_bat _ _ H) in Hm. destruct (rotate0 F s sh el pre H Hm) as (s2 & E2 & _).
    unfold rotate_ in E2. rewrite Em in E2. cbn [negb] in E2. unfold mbind at 1, get in E2. rewrite Eb in E2. congruence.
Qed.
Lemma transform_err a s o pre e s' : Rep a s -> transform_ F o pre s = (Err e, s') -> Rep a s'.
Proof.
  intros H E. destruct o as [|sh el]; [cbn in E; unfold raise in E; congruence|].
  unfold transform_ in E. destruct (mat_shape_ok 4 sh) eqn:Em; cbn [negb] in E; [|unfold raise in E; congruence].
  unfold mbind at 1, get in E. destruct ((length sh =? 3) && negb (hd 0 sh =? bat F s)) eqn:Eb;
    [unfold raise in E; congruence|].
  assert (Hm : is_mat 4 sh (bat F s)).
  { apply mat_shape_ok_spec in Em. destruct Em as [->|[B ->]]; [now left|]. cbn in Eb.
    apply negb_false_iff, Nat.eqb_eq in Eb. subst. now right. }
  unfold Rep, PointcloudsProofs.Rep in *. destruct (qp a) as [P|] eqn:EP.
  - rewrite (rn_bat _ _ _ _ H) in Hm. destruct (transform_ok F P a s sh el pre H Hm) as (s2 & E2 & _).
    unfold transform_ in E2. rewrite Em in E2. cbn [negb] in E2. unfold mbind at 1, get in E2. rewrite Eb in E2. congruence.
  - destruct H as [Ha H]. rewrite (r0_bat _ _ H) in Hm. destruct (transform0 F s sh el pre H Hm) as (s2 & E2 & _).
    unfold transform_ in E2. rewrite Em in E2. cbn [negb] in E2. unfold mbind at 1, get in E2. rewrite Eb in E2. congruence.
Qed.
Lemma pinhole_err a s o e s' : Rep a s -> pinhole_projection_ F o s = (Err e, s') -> Rep a s'.
Proof.
  intros H E. destruct o as [|sh el]; [cbn in E; unfold raise in E; congruence|].
  destruct (mat_shape_ok 4 sh) eqn:Em.
  2:{ unfold pinhole_projection_ in E. rewrite Em in E. cbn in E. unfold raise in E. congruence. }
  pose proof H as H'. unfold Rep, PointcloudsProofs.Rep in H'. destruct (qp a) as [P|] eqn:EP.
  - destruct ((length sh =? 3) && negb (hd 0 sh =? length P)) eqn:Eb.
    + unfold pinhole_projection_ in E. rewrite Em in E. cbn [negb] in E.
      destruct (has_ok F P a s Points H') as (fl & Eh & Hr). rewrite (RepN_hasP _ _ _ _ H') in Eh.
      unfold mbind at 1 in E. rewrite Eh in E. cbn [negb] in E.
      destruct (get_padded_ok F P a _ Points Hr) as (s1 & E1 & Hr1 & _). unfold mbind at 1 in E. rewrite E1 in E.
      rewrite (padded_some F P a Points P (rn_valid _ _ _ _ H') EP), pad_to_b, Eb in E. unfold raise in E.
      injection E as _ <-. eapply RepN_Rep; eauto.
    + assert (Hm : is_mat 4 sh (length P)).
      { apply mat_shape_ok_spec in Em. destruct Em as [->|[B ->]]; [now left|]. cbn in Eb.
        apply negb_false_iff, Nat.eqb_eq in Eb. subst. now right. }
      destruct (pinhole_ok F P a s sh el H' Hm) as (s2 & E2 & _). congruence.
  - destruct H' as [Ha H0]. unfold pinhole_projection_ in E. rewrite Em in E. cbn [negb] in E.
    destruct (has0 F s Points H0) as (fl & E0 & _). unfold mbind in E. rewrite E0 in E. cbn in E. discriminate.
Qed.

End Set_.
