(* append_points. *)
From Coq Require Import List Arith ZArith Bool Lia.
From Verif Require Import Res Fld StructUtilsModel StructUtilsProofs PointcloudsModel PointcloudsSpec
  PointcloudsCtorSpec PointcloudsProofs PointcloudsOps PointcloudsCtor PointcloudsClone.
Import ListNotations.
Local Open Scope nat_scope.

Section Append.
Variable F : Fld.
Notation T2 := (t2 F).
Notation T3 := (t3 F).
Notation pc := (pc F).
Notation batch := (batch F).
Implicit Types (s o : pc) (a b : batch) (P L : list T2).
Notation RepN := (RepN F).
Notation Rep := (Rep F).
Notation Rep0 := (Rep0 F).

Lemma on1_eq {A} (m : M pc A) s o r s' : m s = (r, s') -> on1 F m (s, o) = (r, (s', o)).
Proof. intros E. unfold on1. cbn. now rewrite E. Qed.
Lemma on2_eq {A} (m : M pc A) s o r o' : m o = (r, o') -> on2 F m (s, o) = (r, (s, o')).
Proof. intros E. unfold on2. cbn. now rewrite E. Qed.

Lemma has_cached s x (v : bool) : qget x (flg F s) = Some v -> has F x s = (Ok v, s).
Proof. intros E. unfold has, mbind, get. rewrite E. reflexivity. Qed.
Lemma has_sets s x v s' : has F x s = (Ok v, s') -> qget x (flg F s') = Some v.
Proof.
  unfold has, mbind, get. destruct (qget x (flg F s)) as [w|] eqn:E; unfold ret, modify; intros H; inversion H; subst.
  - exact E.
  - cbn. apply qget_qset_same.
Qed.
Lemma has_keeps s x v s' y w : has F x s = (Ok v, s') -> qget y (flg F s) = Some w -> qget y (flg F s') = Some w.
Proof.
  unfold has, mbind, get. destruct (qget x (flg F s)) as [u|] eqn:E; unfold ret, modify; intros H Hy; inversion H; subst.
  - exact Hy.
  - cbn. destruct (attr_dec y x) as [->|Hn]; [congruence|]. now rewrite qget_qset_other.
Qed.

(* what get_list needs of attribute x *)
Definition holds x L s : Prop :=
  qget x (lst F s) = Some L \/
  (qget x (lst F s) = None /\ bat F s = length L /\ num F s = counts_of F L /\
   exists N w, qget x (pad F s) = Some (pad_to F N w L) /\ wid_ok F w L /\ Forall (fun y => length (t2r y) <= N) L).

Lemma get_list_holds x L s : holds x L s -> get_list F x s = (Ok (Some L), set_lst F x (Some L) s).
Proof.
  intros [E|(E & Hb & Hn & N & w & Ep & Hw & Hl)]; unfold get_list, mbind, get; rewrite E.
  - unfold ret. f_equal. unfold set_lst, with_lst. rewrite <- E, qset_same. now destruct s.
  - rewrite Ep, pad_to_b, Hb, Nat.eqb_refl. cbn [negb].
    assert (El : (length L <=? length (num F s)) = true).
    { rewrite Hn. unfold counts_of. rewrite map_length. apply Nat.leb_refl. }
    rewrite El. cbn [negb]. unfold modify, ret.
    rewrite (unpad_pad F N w L (num F s)) by (auto; now rewrite Hn). reflexivity.
Qed.

Lemma RepN_holds P a s x L : RepN P a s -> qget x a = Some L -> holds x L s.
Proof.
  intros H E. pose proof (rn_valid _ _ _ _ H) as Hv.
  destruct (rn_lst _ _ _ _ H x) as [E'|E'].
  - right. split; [exact E'|]. rewrite (rn_bat _ _ _ _ H), (rn_num _ _ _ _ H).
    rewrite (valid_len _ _ _ _ _ Hv E), (valid_counts _ _ _ _ _ Hv E).
    split; [reflexivity|]. split; [reflexivity|].
    exists (biggest (counts_of F P)), (width F a x).
    destruct (rn_mode _ _ _ _ H) as [(_ & Hl & _)|Hp]; [specialize (Hl x); congruence|].
    rewrite Hp, (padded_some _ _ _ _ _ Hv E). split; [reflexivity|].
    split; [apply (valid_wid _ _ _ _ _ Hv E)|]. apply counts_le. apply (valid_counts _ _ _ _ _ Hv E).
  - left. congruence.
Qed.

Lemma holds_other x y L s v : x <> y -> holds x L s -> holds x L (set_lst F y v s).
Proof.
  intros Hn [E|(E & Hb & Hnu & Hp)]; [left|right]; cbn; rewrite qget_qset_other by exact Hn; auto.
Qed.
Lemma holds_other_pad x y L s v : x <> y -> holds x L s -> holds x L (set_pad F y v s).
Proof.
  intros Hn [E|(E & Hb & Hnu & N & w & Ep & Hp)]; [left; exact E|right].
  split; [exact E|]. split; [exact Hb|]. split; [exact Hnu|]. exists N, w. cbn. rewrite qget_qset_other by exact Hn. auto.
Qed.
Lemma holds_set x L s : holds x L (set_lst F x (Some L) s).
Proof. left. cbn. apply qget_qset_same. Qed.

Definition cat_list L1 L2 : list T2 := map (fun q => cat_cloud F (fst q) (snd q)) (combine L1 L2).

Lemma cat_lists_ok w L1 L2 : length L1 = length L2 -> wid_ok F w L1 -> wid_ok F w L2 ->
  cat_lists F (length L1) L1 L2 = Ok (cat_list L1 L2).
Proof.
  intros Hl H1 H2. unfold cat_lists. rewrite <- Hl, Nat.leb_refl.
  cbn [andb negb]. rewrite firstn_all. rewrite Hl, firstn_all. unfold cat_list. clear Hl.
  revert L2 H2; induction H1 as [|y L1 [Hy _] _ IH]; intros L2 H2; destruct L2 as [|z L2]; cbn; try reflexivity.
  inversion H2 as [|? ? [Hz _] H2']; subst. unfold cat2. rewrite Hz, Nat.eqb_refl. cbn.
  rewrite IH by assumption. reflexivity.
Qed.

Lemma set_lst_twice x u v s : set_lst F x v (set_lst F x u s) = set_lst F x v s.
Proof. unfold set_lst, with_lst. cbn. f_equal. now destruct x. Qed.

Lemma append_attr_ok x L1 L2 w s o :
  holds x L1 s -> holds x L2 o -> bat F s = length L1 -> length L1 = length L2 ->
  wid_ok F w L1 -> wid_ok F w L2 ->
  append_attr F x (s, o) =
  (Ok tt, (set_pad F x None (set_lst F x (Some (cat_list L1 L2)) s), set_lst F x (Some L2) o)).
Proof.
  intros H1 H2 Hb Hl W1 W2. unfold append_attr.
  unfold mbind at 1. rewrite (on1_eq _ _ _ _ _ (get_list_holds x L1 s H1)).
  unfold mbind at 1. rewrite (on2_eq _ _ _ _ _ (get_list_holds x L2 o H2)).
  unfold mbind at 1. unfold on1 at 1, get. cbn [fst snd bat set_lst with_lst].
  rewrite Hb. unfold mbind at 1, lift. rewrite (cat_lists_ok w L1 L2 Hl W1 W2).
  unfold mbind, on1, modify. cbn [fst snd]. now rewrite set_lst_twice.
Qed.

(* one conditional step of the append *)
Definition ap x (a b : batch) s : pc :=
  match cat_clouds F (qget x a) (qget x b) with
  | Some l => set_pad F x None (set_lst F x (Some l) s) | None => s end.
Definition ao x (b : batch) o : pc :=
  match qget x b with Some L => set_lst F x (Some L) o | None => o end.

Definition ready P1 P2 (a b : batch) x s o : Prop :=
  valid_batch F P1 a /\ valid_batch F P2 b /\ length P1 = length P2 /\
  is_some (qget x a) = is_some (qget x b) /\ width F a x = width F b x /\
  bat F s = length P1 /\
  (forall L, qget x a = Some L -> holds x L s) /\ (forall L, qget x b = Some L -> holds x L o).

Lemma append_step_attr P1 P2 a b x s o L1 :
  ready P1 P2 a b x s o -> qget x a = Some L1 -> append_attr F x (s, o) = (Ok tt, (ap x a b s, ao x b o)).
Proof.
  intros (Hv1 & Hv2 & Hl & Hs & Hw & Hb & H1 & H2) E1. rewrite E1 in Hs. cbn in Hs.
  unfold ap, ao. rewrite E1. destruct (qget x b) as [L2|] eqn:E2; [|discriminate]. cbn [cat_clouds].
  apply (append_attr_ok x L1 L2 (width F a x)); auto.
  - rewrite Hb. symmetry. apply (valid_len _ _ _ _ _ Hv1 E1).
  - rewrite (valid_len _ _ _ _ _ Hv1 E1), (valid_len _ _ _ _ _ Hv2 E2). exact Hl.
  - apply (valid_wid _ _ _ _ _ Hv1 E1).
  - rewrite Hw. apply (valid_wid _ _ _ _ _ Hv2 E2).
Qed.
Lemma append_step P1 P2 a b x s o :
  ready P1 P2 a b x s o -> qget x (flg F s) = Some (is_some (qget x a)) ->
  mbind (on1 F (has F x)) (fun h => if h then append_attr F x else ret tt) (s, o) =
  (Ok tt, (ap x a b s, ao x b o)).
Proof.
  intros Hr Hf. unfold mbind at 1. rewrite (on1_eq _ _ _ _ _ (has_cached s x _ Hf)).
  destruct (qget x a) as [L1|] eqn:E1; cbn [is_some].
  - now apply (append_step_attr P1 P2 a b x s o L1).
  - unfold ret. unfold ap, ao. rewrite E1. cbn [cat_clouds].
    destruct Hr as (_ & _ & _ & Hs & _). rewrite E1 in Hs. destruct (qget x b); [discriminate|reflexivity].
Qed.

(* steps on other attributes keep readiness and flags *)
Lemma ready_step P1 P2 a b x y s o : x <> y -> ready P1 P2 a b x s o -> ready P1 P2 a b x (ap y a b s) (ao y b o).
Proof.
  intros Hn (Hv1 & Hv2 & Hl & Hs & Hw & Hb & H1 & H2). unfold ap, ao.
  split; [exact Hv1|]. split; [exact Hv2|]. split; [exact Hl|]. split; [exact Hs|]. split; [exact Hw|].
  split; [now destruct (cat_clouds F (qget y a) (qget y b))|].
  split; intros L HL.
  - destruct (cat_clouds F (qget y a) (qget y b)); [|now apply H1].
    apply holds_other_pad; [exact Hn|]. apply holds_other; [exact Hn|]. now apply H1.
  - destruct (qget y b); [|now apply H2]. apply holds_other; [exact Hn|]. now apply H2.
Qed.
Lemma ap_flg x a b s : flg F (ap x a b s) = flg F s.
Proof. unfold ap. now destruct (cat_clouds F (qget x a) (qget x b)). Qed.
Lemma ao_flg x b o : flg F (ao x b o) = flg F o.
Proof. unfold ao. now destruct (qget x b). Qed.
Lemma ap_num x a b s : num F (ap x a b s) = num F s.
Proof. unfold ap. now destruct (cat_clouds F (qget x a) (qget x b)). Qed.
Lemma ao_num x b o : num F (ao x b o) = num F o.
Proof. unfold ao. now destruct (qget x b). Qed.
Lemma ap_bat x a b s : bat F (ap x a b s) = bat F s.
Proof. unfold ap. now destruct (cat_clouds F (qget x a) (qget x b)). Qed.

Lemma ap_lst x y a b s : qget y (lst F (ap x a b s)) =
  if attr_dec y x then match cat_clouds F (qget x a) (qget x b) with Some l => Some l | None => qget y (lst F s) end
  else qget y (lst F s).
Proof.
  unfold ap. destruct (cat_clouds F (qget x a) (qget x b)) as [l|]; cbn.
  - destruct (attr_dec y x) as [->|Hn]; [now rewrite qget_qset_same|now rewrite qget_qset_other].
  - now destruct (attr_dec y x).
Qed.
Lemma ap_pad x y a b s : qget y (pad F (ap x a b s)) =
  if attr_dec y x then match cat_clouds F (qget x a) (qget x b) with Some l => None | None => qget y (pad F s) end
  else qget y (pad F s).
Proof.
  unfold ap. destruct (cat_clouds F (qget x a) (qget x b)) as [l|]; cbn.
  - destruct (attr_dec y x) as [->|Hn]; [now rewrite qget_qset_same|now rewrite qget_qset_other].
  - now destruct (attr_dec y x).
Qed.

Lemma ao_RepN P b o x : RepN P b o -> RepN P b (ao x b o).
Proof.
  intros H. unfold ao. destruct (qget x b) as [L|] eqn:E; [|exact H].
  rewrite <- E. now apply RepN_set_lst.
Qed.

Lemma cat_list_counts L1 L2 : length L1 = length L2 ->
  counts_of F (cat_list L1 L2) = map (fun q => fst q + snd q) (combine (counts_of F L1) (counts_of F L2)).
Proof.
  unfold cat_list, counts_of. rewrite map_map. revert L2; induction L1 as [|y L1 IH]; intros [|z L2]; cbn; intros H; try discriminate.
  - reflexivity.
  - rewrite app_length. f_equal. apply IH. congruence.
Qed.
Lemma cat_list_length L1 L2 : length L1 = length L2 -> length (cat_list L1 L2) = length L1.
Proof. intros H. unfold cat_list. rewrite map_length, combine_length. lia. Qed.
Lemma cat_list_wid w L1 L2 : wid_ok F w L1 -> wid_ok F w L2 -> wid_ok F w (cat_list L1 L2).
Proof.
  intros H1 H2. unfold wid_ok, cat_list. apply Forall_map. apply Forall_forall. intros [y z] Hq. cbn.
  unfold wid_ok in *. rewrite Forall_forall in H1, H2.
  destruct (H1 y (in_combine_l _ _ _ _ Hq)) as [E1 F1]. destruct (H2 z (in_combine_r _ _ _ _ Hq)) as [E2 F2].
  split; [exact E1|]. apply Forall_app. auto.
Qed.

Lemma cat_some x a b : is_some (qget x a) = is_some (qget x b) ->
  forall L1, qget x a = Some L1 -> exists L2, qget x b = Some L2 /\ cat_clouds F (qget x a) (qget x b) = Some (cat_list L1 L2).
Proof.
  intros Hs L1 E. rewrite E in *. destruct (qget x b) as [L2|]; [|discriminate]. exists L2. auto.
Qed.
Lemma append_spec_get x a b : qget x (append_spec F a b) = cat_clouds F (qget x a) (qget x b).
Proof. now destruct x. Qed.

Lemma append_valid P1 P2 a b :
  valid_batch F P1 a -> valid_batch F P2 b -> same_attrs F a b ->
  valid_batch F (cat_list P1 P2) (append_spec F a b).
Proof.
  intros Hv1 Hv2 (Hl & Hs & Hw).
  pose proof (valid_qp _ _ _ Hv1) as Q1. pose proof (valid_qp _ _ _ Hv2) as Q2.
  assert (Hlen : length P1 = length P2) by (unfold len_view in Hl; now rewrite Q1, Q2 in Hl).
  split; [cbn; now rewrite Q1, Q2|]. split.
  { intros E. apply (f_equal (@length T2)) in E. rewrite cat_list_length in E by exact Hlen.
    pose proof (valid_ne _ _ _ Hv1). destruct P1; [congruence|discriminate]. }
  intros x L HL. rewrite append_spec_get in HL.
  destruct (qget x a) as [L1|] eqn:E1; [|discriminate].
  destruct (qget x b) as [L2|] eqn:E2; [|discriminate]. cbn in HL. inversion HL; subst L.
  fold (cat_list L1 L2).
  pose proof (valid_len _ _ _ _ _ Hv1 E1) as Z1. pose proof (valid_len _ _ _ _ _ Hv2 E2) as Z2.
  split.
  - rewrite !cat_list_counts by congruence.
    now rewrite (valid_counts _ _ _ _ _ Hv1 E1), (valid_counts _ _ _ _ _ Hv2 E2).
  - assert (Ew : width F (append_spec F a b) x = width F a x).
    { destruct x; try reflexivity. cbn in *. rewrite E1, E2. cbn.
      destruct L1 as [|y L1]; [pose proof (valid_ne _ _ _ Hv1); destruct P1; [congruence|discriminate]|].
      destruct L2 as [|z L2]; [pose proof (valid_ne _ _ _ Hv2); destruct P2; [congruence|discriminate]|].
      reflexivity. }
    assert (Eb : width F b x = width F a x) by (destruct x; try reflexivity; symmetry; exact Hw).
    rewrite Ew. apply cat_list_wid; [apply (valid_wid _ _ _ _ _ Hv1 E1)|].
    rewrite <- Eb. apply (valid_wid _ _ _ _ _ Hv2 E2).
Qed.

Lemma RepN_flags P a s x v s' : RepN P a s -> has F x s = (Ok v, s') ->
  v = is_some (qget x a) /\ RepN P a s' /\ qget x (flg F s') = Some (is_some (qget x a)) /\
  (forall y w, qget y (flg F s) = Some w -> qget y (flg F s') = Some w).
Proof.
  intros H E. destruct (has_ok F P a s x H) as (f & E' & Hr). rewrite E in E'. inversion E'; subst.
  split; [reflexivity|]. split; [exact Hr|]. split; [now apply has_sets in E|].
  intros y w. now apply (has_keeps _ _ _ _ _ _ E).
Qed.

Lemma add_counts_ok x y : length x = length y -> add_counts x y = Ok (map (fun q => fst q + snd q) (combine x y)).
Proof. intros H. unfold add_counts. now rewrite H, Nat.eqb_refl. Qed.

Lemma all_attrs (Q : attr -> Prop) : Q Points -> Q Normals -> Q Colors -> Q Features -> forall x, Q x.
Proof. intros ? ? ? ? []; assumption. Qed.

Lemma num_features_any P a s : RepN P a s ->
  exists f, num_features F s = (Ok (Some (width F a Features)), with_flg F f s) /\ RepN P a (with_flg F f s).
Proof.
  intros H. apply (num_features_ok F P a s H).
  - destruct (rn_mode _ _ _ _ H) as [(_ & Hl & _)|Hp]; auto.
  - intros fp E. destruct (rn_mode _ _ _ _ H) as [(_ & _ & Hw)|Hp]; [now apply Hw|].
    specialize (Hp Features). cbn [qget] in Hp. rewrite E in Hp.
    destruct (qf a) as [L|] eqn:EL.
    + rewrite (padded_some F P a Features L (rn_valid _ _ _ _ H) EL) in Hp. inversion Hp. reflexivity.
    + rewrite (padded_none F P a Features (rn_valid _ _ _ _ H) EL) in Hp. discriminate.
Qed.

Lemma step1 {A B} (m : M pc A) (k : A -> M (pc * pc) B) s o v s' :
  m s = (Ok v, s') -> mbind (on1 F m) k (s, o) = k v (s', o).
Proof. intros E. unfold mbind. now rewrite (on1_eq _ _ _ _ _ E). Qed.
Lemma step2 {A B} (m : M pc A) (k : A -> M (pc * pc) B) s o v o' :
  m o = (Ok v, o') -> mbind (on2 F m) k (s, o) = k v (s, o').
Proof. intros E. unfold mbind. now rewrite (on2_eq _ _ _ _ _ E). Qed.
Lemma stepg1 {B} (k : pc -> M (pc * pc) B) s o : mbind (on1 F get) k (s, o) = k s (s, o).
Proof. reflexivity. Qed.
Lemma stepg2 {B} (k : pc -> M (pc * pc) B) s o : mbind (on2 F get) k (s, o) = k o (s, o).
Proof. reflexivity. Qed.
Lemma step_any {A B} (m : M (pc * pc) A) (k : A -> M (pc * pc) B) st v st' :
  m st = (Ok v, st') -> mbind m k st = k v st'.
Proof. intros E. unfold mbind. now rewrite E. Qed.

Lemma step_err {A B} (m : M (pc * pc) A) (k : A -> M (pc * pc) B) st e st' :
  m st = (Err e, st') -> mbind m k st = (Err e, st').
Proof. intros E. unfold mbind. now rewrite E. Qed.

Lemma step_has1 {B} P a (k : bool -> M (pc * pc) B) s o x : RepN P a s ->
  exists s', mbind (on1 F (has F x)) k (s, o) = k (is_some (qget x a)) (s', o) /\ RepN P a s' /\
    qget x (flg F s') = Some (is_some (qget x a)) /\
    (forall y w, qget y (flg F s) = Some w -> qget y (flg F s') = Some w).
Proof.
  intros H. destruct (has_ok F P a s x H) as (f & E & _). exists (with_flg F f s).
  split; [now apply step1|]. destruct (RepN_flags _ _ _ _ _ _ H E) as (_ & ? & ? & ?). auto.
Qed.
Lemma step_has2 {B} P a (k : bool -> M (pc * pc) B) s o x : RepN P a o ->
  exists o', mbind (on2 F (has F x)) k (s, o) = k (is_some (qget x a)) (s, o') /\ RepN P a o' /\
    qget x (flg F o') = Some (is_some (qget x a)) /\
    (forall y w, qget y (flg F o) = Some w -> qget y (flg F o') = Some w).
Proof.
  intros H. destruct (has_ok F P a o x H) as (f & E & _). exists (with_flg F f o).
  split; [now apply step2|]. destruct (RepN_flags _ _ _ _ _ _ H E) as (_ & ? & ? & ?). auto.
Qed.

(* the feature-width check *)
Definition wcheck (g : bool) : M2 F unit :=
  if g then
     do w1 <- on1 F (num_features F); do w2 <- on2 F (num_features F);
     match w1, w2 with
     | Some w1, Some w2 => if w1 =? w2 then ret tt else raise ValueError
     | None, None => ret tt
     | _, _ => raise ValueError
     end
   else ret tt.
Lemma has_flg_only s x v s' : has F x s = (Ok v, s') -> exists f, s' = with_flg F f s.
Proof.
  unfold has, mbind, get. destruct (qget x (flg F s)); unfold ret, modify; intros H; inversion H; subst.
  - exists (flg F s'). now destruct s'.
  - eexists. reflexivity.
Qed.
Lemma num_features_flags s v s' y w : num_features F s = (Ok v, s') ->
  qget y (flg F s) = Some w -> qget y (flg F s') = Some w.
Proof.
  unfold num_features. unfold mbind at 1. destruct (has F Features s) as [r s1] eqn:E.
  destruct r as [h|e]; [|discriminate]. intros H Hy. pose proof (has_keeps _ _ _ _ _ _ E Hy) as Hy1.
  destruct h; cbn [negb] in H.
  - unfold mbind, get in H. destruct (qf (pad F s1)); [inversion H; subst; exact Hy1|].
    destruct (qf (lst F s1)) as [[|z l]|]; inversion H; subst; exact Hy1.
  - inversion H; subst. exact Hy1.
Qed.
Lemma wcheck_ok P1 P2 a b s o g : RepN P1 a s -> RepN P2 b o ->
  exists s' o', wcheck g (s, o) =
    ((if negb g || (width F a Features =? width F b Features) then Ok tt else Err ValueError), (s', o')) /\
    RepN P1 a s' /\ RepN P2 b o' /\
    (forall y w, qget y (flg F s) = Some w -> qget y (flg F s') = Some w).
Proof.
  intros H1 H2. destruct g; [|exists s, o; auto]. unfold wcheck.
  destruct (num_features_any P1 a s H1) as (f1 & E1 & R1).
  destruct (num_features_any P2 b o H2) as (f2 & E2 & R2).
  exists (with_flg F f1 s), (with_flg F f2 o).
  rewrite (step1 _ _ _ _ _ _ E1), (step2 _ _ _ _ _ _ E2). cbn [negb orb].
  split; [destruct (width F a Features =? width F b Features); reflexivity|].
  split; [exact R1|]. split; [exact R2|]. intros y w Hy. apply (num_features_flags s _ _ y w E1 Hy).
Qed.

Definition append_body : M2 F unit :=
  append_attr F Points ;;;
  (do h <- on1 F (has F Normals); if h then append_attr F Normals else ret tt) ;;;
  (do h <- on1 F (has F Colors); if h then append_attr F Colors else ret tt) ;;;
  (do h <- on1 F (has F Features); if h then append_attr F Features else ret tt) ;;;
  do s <- on1 F get; do o <- on2 F get;
  do ns <- lift (add_counts (num F s) (num F o));
  on1 F (modify (fun s => with_mask F None
         (with_dims F ns (bat F s) (max_list ns) (Some (all_equal ns)) s))).

Definition flags_known a s : Prop := forall x, qget x (flg F s) = Some (is_some (qget x a)).

Lemma append_body_ok P1 P2 a b s o :
  RepN P1 a s -> RepN P2 b o -> same_attrs F a b -> flags_known a s ->
  exists s' o', append_body (s, o) = (Ok tt, (s', o')) /\
    RepN (cat_list P1 P2) (append_spec F a b) s' /\ RepN P2 b o'.
Proof.
  intros H1 H2 Hsame Hf. pose proof Hsame as (Hl & Hs & Hw).
  pose proof (rn_valid _ _ _ _ H1) as Hv1. pose proof (rn_valid _ _ _ _ H2) as Hv2.
  pose proof (valid_qp _ _ _ Hv1) as Q1. pose proof (valid_qp _ _ _ Hv2) as Q2.
  assert (Hlen : length P1 = length P2) by (unfold len_view in Hl; now rewrite Q1, Q2 in Hl).
  assert (Rd : forall x, ready P1 P2 a b x s o).
  { intros x. split; [exact Hv1|]. split; [exact Hv2|]. split; [exact Hlen|]. split; [apply Hs|].
    split; [destruct x; try reflexivity; exact Hw|]. split; [apply (rn_bat _ _ _ _ H1)|].
    split; intros L HL; eapply RepN_holds; eauto. }
  unfold append_body.
  rewrite (step_any _ _ _ _ _ (append_step_attr P1 P2 a b Points s o P1 (Rd Points) Q1)).
  set (s1 := ap Points a b s). set (o1 := ao Points b o).
  assert (Rd1 : forall x, x <> Points -> ready P1 P2 a b x s1 o1) by (intros x Hx; now apply ready_step).
  assert (Hf1 : flags_known a s1) by (intros x; unfold s1; rewrite ap_flg; apply Hf).
  rewrite (step_any _ _ _ _ _ (append_step P1 P2 a b Normals s1 o1 (Rd1 Normals ltac:(discriminate)) (Hf1 Normals))).
  set (s2 := ap Normals a b s1). set (o2 := ao Normals b o1).
  assert (Rd2 : forall x, x <> Points -> x <> Normals -> ready P1 P2 a b x s2 o2)
    by (intros x Hx Hy; apply ready_step; auto).
  assert (Hf2 : flags_known a s2) by (intros x; unfold s2; rewrite ap_flg; apply Hf1).
  rewrite (step_any _ _ _ _ _ (append_step P1 P2 a b Colors s2 o2
             (Rd2 Colors ltac:(discriminate) ltac:(discriminate)) (Hf2 Colors))).
  set (s3 := ap Colors a b s2). set (o3 := ao Colors b o2).
  assert (Rd3 : ready P1 P2 a b Features s3 o3)
    by (apply ready_step; [discriminate|]; apply Rd2; discriminate).
  assert (Hf3 : flags_known a s3) by (intros x; unfold s3; rewrite ap_flg; apply Hf2).
  rewrite (step_any _ _ _ _ _ (append_step P1 P2 a b Features s3 o3 Rd3 (Hf3 Features))).
  set (s4 := ap Features a b s3). set (o4 := ao Features b o3).
  rewrite stepg1, stepg2. unfold mbind at 1, lift.
  assert (En : num F s4 = counts_of F P1).
  { unfold s4, s3, s2, s1. rewrite !ap_num. apply (rn_num _ _ _ _ H1). }
  assert (Eno : num F o4 = counts_of F P2).
  { unfold o4, o3, o2, o1. rewrite !ao_num. apply (rn_num _ _ _ _ H2). }
  assert (Eb : bat F s4 = length P1).
  { unfold s4, s3, s2, s1. rewrite !ap_bat. apply (rn_bat _ _ _ _ H1). }
  rewrite En, Eno, add_counts_ok by (unfold counts_of; rewrite !map_length; exact Hlen).
  rewrite <- cat_list_counts by exact Hlen.
  unfold on1, modify. cbn [fst snd]. eexists. exists o4. split; [reflexivity|].
  split.
  2:{ unfold o4, o3, o2, o1. now repeat apply ao_RepN. }
  assert (Hlst : forall x, qget x (lst F s4) = qget x (append_spec F a b)).
  { intros x. rewrite append_spec_get. unfold s4, s3, s2, s1. rewrite !ap_lst.
    assert (Hx : match cat_clouds F (qget x a) (qget x b) with Some l => Some l | None => qget x (lst F s) end =
                 cat_clouds F (qget x a) (qget x b)).
    { destruct (qget x a) as [L1|] eqn:E1.
      - destruct (cat_some x a b (Hs x) L1 E1) as (L2 & E2 & _). now rewrite E2.
      - cbn. destruct (rn_lst _ _ _ _ H1 x) as [E'|E']; congruence. }
    destruct x; cbn; exact Hx. }
  assert (Hpad : forall x, qget x (pad F s4) = None).
  { intros x. unfold s4, s3, s2, s1. rewrite !ap_pad.
    assert (Hx : match cat_clouds F (qget x a) (qget x b) with Some l => None | None => qget x (pad F s) end = None).
    { destruct (qget x a) as [L1|] eqn:E1.
      - destruct (cat_some x a b (Hs x) L1 E1) as (L2 & E2 & _). now rewrite E2.
      - cbn. apply (rn_abs _ _ _ _ H1 x E1). }
    destruct x; cbn; exact Hx. }
  constructor.
  - now apply append_valid.
  - reflexivity.
  - cbn. rewrite Eb. now rewrite cat_list_length.
  - cbn. apply max_list_biggest.
  - reflexivity.
  - intros x. right. cbn. unfold s4. rewrite ap_flg, Hf3. f_equal. rewrite append_spec_get.
    destruct (qget x a) as [L1|] eqn:E1; [|reflexivity].
    destruct (cat_some x a b (Hs x) L1 E1) as (L2 & E2 & _). now rewrite E2.
  - now left.
  - intros x. right. apply Hlst.
  - intros x _. apply Hpad.
  - left. split; [apply (Hpad Points)|]. split; [exact Hlst|]. intros fp E. pose proof (Hpad Features) as E'.
    cbn in E, E'. congruence.
Qed.

Lemma eqb_is_some_false x a b : eqb (is_some (qget x a)) (is_some (qget x b)) = false -> ~ same_attrs F a b.
Proof. intros E (_ & Hs & _). rewrite Hs in E. now rewrite eqb_reflx in E. Qed.

Lemma append_nonempty P1 P2 a b s o :
  RepN P1 a s -> RepN P2 b o ->
  (same_attrs F a b /\ exists s' o', append_points F (s, o) = (Ok tt, (s', o')) /\
     RepN (cat_list P1 P2) (append_spec F a b) s' /\ RepN P2 b o') \/
  (~ same_attrs F a b /\ exists s' o', append_points F (s, o) = (Err ValueError, (s', o')) /\
     RepN P1 a s' /\ RepN P2 b o').
Proof.
  intros H1 H2. pose proof (rn_valid _ _ _ _ H1) as Hv1. pose proof (rn_valid _ _ _ _ H2) as Hv2.
  pose proof (valid_qp _ _ _ Hv1) as Q1. pose proof (valid_qp _ _ _ Hv2) as Q2.
  unfold append_points.
  match goal with |- context [mbind (on2 F (has F Points)) ?k (s, o)] =>
    destruct (step_has2 P2 b k s o Points H2) as (o1 & Eq1 & R1 & _) end.
  rewrite Eq1; clear Eq1. rewrite (RepN_hasP _ _ _ _ H2). cbn [negb].
  match goal with |- context [mbind (on1 F (has F Points)) ?k (s, o1)] =>
    destruct (step_has1 P1 a k s o1 Points H1) as (s1 & Eq1 & T1 & F1 & _) end.
  rewrite Eq1; clear Eq1. rewrite (RepN_hasP _ _ _ _ H1) in *. cbn [negb].
  rewrite stepg1, stepg2.
  rewrite (rn_bat _ _ _ _ T1), (rn_bat _ _ _ _ R1).
  destruct (Nat.eqb_spec (length P2) (length P1)) as [El|El]; cbn [negb].
  2:{ right. split; [intros (Hl & _); unfold len_view in Hl; rewrite Q1, Q2 in Hl; congruence|].
      exists s1, o1. split; [reflexivity|auto]. }
  match goal with |- context [mbind (on1 F (has F Normals)) ?k (s1, o1)] =>
    destruct (step_has1 P1 a k s1 o1 Normals T1) as (s2 & Eq1 & T2' & F2 & K2) end.
  rewrite Eq1; clear Eq1.
  match goal with |- context [mbind (on2 F (has F Normals)) ?k (s2, o1)] =>
    destruct (step_has2 P2 b k s2 o1 Normals R1) as (o2 & Eq1 & R2 & _) end.
  rewrite Eq1; clear Eq1.
  destruct (eqb (is_some (qget Normals a)) (is_some (qget Normals b))) eqn:En; cbn [negb].
  2:{ right. split; [eapply eqb_is_some_false; eauto|]. exists s2, o2. split; [reflexivity|auto]. }
  match goal with |- context [mbind (on1 F (has F Colors)) ?k (s2, o2)] =>
    destruct (step_has1 P1 a k s2 o2 Colors T2') as (s3 & Eq1 & T3' & F3 & K3) end.
  rewrite Eq1; clear Eq1.
  match goal with |- context [mbind (on2 F (has F Colors)) ?k (s3, o2)] =>
    destruct (step_has2 P2 b k s3 o2 Colors R2) as (o3 & Eq1 & R3 & _) end.
  rewrite Eq1; clear Eq1.
  destruct (eqb (is_some (qget Colors a)) (is_some (qget Colors b))) eqn:Ec; cbn [negb].
  2:{ right. split; [eapply eqb_is_some_false; eauto|]. exists s3, o3. split; [reflexivity|auto]. }
  match goal with |- context [mbind (on1 F (has F Features)) ?k (s3, o3)] =>
    destruct (step_has1 P1 a k s3 o3 Features T3') as (s4 & Eq1 & T4 & F4 & K4) end.
  rewrite Eq1; clear Eq1.
  match goal with |- context [mbind (on2 F (has F Features)) ?k (s4, o3)] =>
    destruct (step_has2 P2 b k s4 o3 Features R3) as (o4 & Eq1 & R4 & _) end.
  rewrite Eq1; clear Eq1.
  destruct (eqb (is_some (qget Features a)) (is_some (qget Features b))) eqn:Ef; cbn [negb].
  2:{ right. split; [eapply eqb_is_some_false; eauto|]. exists s4, o4. split; [reflexivity|auto]. }
  destruct (wcheck_ok P1 P2 a b s4 o4 (is_some (qget Features a)) T4 R4) as (s5 & o5 & Ew & T5 & R5 & K5).
  apply eqb_prop in En, Ec, Ef.
  assert (Hw0 : is_some (qget Features a) = false -> width F a Features = width F b Features).
  { intros E. rewrite E in Ef. cbn in *. destruct (qf a); [discriminate|]. destruct (qf b); [discriminate|reflexivity]. }
  destruct (negb (is_some (qget Features a)) || (width F a Features =? width F b Features)) eqn:Eww.
  - left.
    assert (Hsame : same_attrs F a b).
    { split; [unfold len_view; rewrite Q1, Q2; congruence|]. split.
      - apply all_attrs; auto. cbn. now rewrite Q1, Q2.
      - apply orb_true_iff in Eww. destruct Eww as [E|E]; [apply negb_true_iff in E; auto|now apply Nat.eqb_eq]. }
    split; [exact Hsame|].
    assert (Hk : flags_known a s5).
    { unfold flags_known. intros x. apply K5. revert x. apply all_attrs.
      - apply K4, K3, K2. cbn. rewrite Q1. exact F1.
      - apply K4, K3. exact F2.
      - apply K4. exact F3.
      - exact F4. }
    destruct (append_body_ok P1 P2 a b s5 o5 T5 R5 Hsame Hk) as (s' & o' & Eb & ? & ?).
    exists s', o'. split; [|auto].
    exact (eq_trans (step_any (wcheck (is_some (qget Features a))) (fun _ => append_body) _ _ _ Ew) Eb).
  - right. split.
    { intros (_ & _ & Hw). apply orb_false_iff in Eww as [_ E]. apply Nat.eqb_neq in E. congruence. }
    exists s5, o5. split; [|auto].
    exact (step_err (wcheck (is_some (qget Features a))) (fun _ => append_body) _ _ _ Ew).
Qed.

(* ---- empty operands ---- *)
Lemma append_empty_arg s o : Rep0 o -> exists o', append_points F (s, o) = (Ok tt, (s, o')) /\ Rep0 o'.
Proof.
  intros H. destruct (has0 F o Points H) as (f & E & Hr). exists (with_flg F f o).
  unfold append_points. rewrite (step2 _ _ _ _ _ _ E). cbn. auto.
Qed.

Lemma copy_attr_ok P b s o x L : RepN P b o -> qget x b = Some L ->
  copy_attr F x (s, o) = (Ok tt, (set_lst F x (Some L) s, set_lst F x (Some L) o)) /\
  RepN P b (set_lst F x (Some L) o).
Proof.
  intros H E. destruct (get_list_ok F P b o x H) as [Eg Hr]. rewrite E in *. split; [|exact Hr].
  unfold copy_attr. rewrite (step2 _ _ _ _ _ _ Eg). reflexivity.
Qed.
Definition cp x (b : batch) s : pc := match qget x b with Some L => set_lst F x (Some L) s | None => s end.
Lemma copy_step P b s o x : RepN P b o ->
  exists o', mbind (on2 F (has F x)) (fun h => if h then copy_attr F x else ret tt) (s, o) =
    (Ok tt, (cp x b s, o')) /\ RepN P b o'.
Proof.
  intros H. match goal with |- context [mbind (on2 F (has F x)) ?k (s, o)] =>
    destruct (step_has2 P b k s o x H) as (o1 & Eq1 & R1 & _) end.
  rewrite Eq1. unfold cp. destruct (qget x b) as [L|] eqn:E; cbn [is_some].
  - destruct (copy_attr_ok P b s o1 x L R1 E) as [-> Hr].
    eexists; split; [reflexivity|exact Hr].
  - eexists; split; [reflexivity|exact R1].
Qed.
Lemma cp_lst x y b s : qget y (lst F (cp x b s)) =
  if attr_dec y x then match qget x b with Some l => Some l | None => qget y (lst F s) end else qget y (lst F s).
Proof.
  unfold cp. destruct (qget x b) as [l|]; cbn.
  - destruct (attr_dec y x) as [->|Hn]; [now rewrite qget_qset_same|now rewrite qget_qset_other].
  - now destruct (attr_dec y x).
Qed.
Lemma cp_pad x b s : pad F (cp x b s) = pad F s.
Proof. unfold cp. now destruct (qget x b). Qed.
Lemma cp_mask x b s : mask F (cp x b s) = mask F s.
Proof. unfold cp. now destruct (qget x b). Qed.

Lemma append_into_empty P b s o : Rep0 s -> RepN P b o ->
  exists s' o', append_points F (s, o) = (Ok tt, (s', o')) /\ RepN P b s' /\ RepN P b o'.
Proof.
  intros H0 H. unfold append_points.
  pose proof (valid_qp _ _ _ (rn_valid _ _ _ _ H)) as Q.
  match goal with |- context [mbind (on2 F (has F Points)) ?k (s, o)] =>
    destruct (step_has2 P b k s o Points H) as (o1 & Eq1 & R1 & _) end.
  rewrite Eq1; clear Eq1. rewrite (RepN_hasP _ _ _ _ H). cbn [negb].
  destruct (has0 F s Points H0) as (f & E & Hr0). rewrite (step1 _ _ _ _ _ _ E). cbn [negb].
  set (s1 := with_flg F f s) in *.
  destruct (copy_attr_ok P b s1 o1 Points P R1 Q) as [Ec R2].
  rewrite (step_any _ _ _ _ _ Ec).
  assert (E1 : set_lst F Points (Some P) s1 = cp Points b s1) by (unfold cp; cbn; now rewrite Q).
  rewrite E1. clear E1 Ec.
  destruct (copy_step P b (cp Points b s1) _ Normals R2) as (o3 & En & R3).
  rewrite (step_any _ _ _ _ _ En).
  destruct (copy_step P b (cp Normals b (cp Points b s1)) _ Colors R3) as (o4 & En2 & R4).
  rewrite (step_any _ _ _ _ _ En2).
  destruct (copy_step P b (cp Colors b (cp Normals b (cp Points b s1))) _ Features R4) as (o5 & En3 & R5).
  rewrite (step_any _ _ _ _ _ En3).
  rewrite stepg2. unfold on1, modify. cbn [fst snd]. eexists. exists o5. split; [reflexivity|].
  split; [|exact R5].
  set (s6 := cp Features b (cp Colors b (cp Normals b (cp Points b s1)))).
  assert (Hl : forall x, qget x (lst F s6) = qget x b).
  { intros x. unfold s6. rewrite !cp_lst.
    assert (Hx : match qget x b with Some l => Some l | None => qget x (lst F s1) end = qget x b).
    { destruct (qget x b); [reflexivity|]. apply (r0_lst _ _ Hr0). }
    destruct x; cbn; exact Hx. }
  assert (Hp : forall x, qget x (pad F s6) = None).
  { intros x. unfold s6. rewrite !cp_pad. apply (r0_pad _ _ Hr0). }
  assert (Hm : mask F s6 = None).
  { unfold s6. rewrite !cp_mask. apply (r0_mask _ _ Hr0). }
  assert (Epad : mkQ (or_else (qp (pad F o5)) (qp (pad F s6))) (or_else (qn (pad F o5)) (qn (pad F s6)))
            (or_else (qc (pad F o5)) (qc (pad F s6))) (or_else (qf (pad F o5)) (qf (pad F s6))) = pad F o5).
  { pose proof (Hp Points) as A1. pose proof (Hp Normals) as A2. pose proof (Hp Colors) as A3.
    pose proof (Hp Features) as A4. cbn in A1, A2, A3, A4. rewrite A1, A2, A3, A4.
    destruct (pad F o5) as [q1 q2 q3 q4]. cbn. now destruct q1, q2, q3, q4. }
  assert (Emask : or_else (mask F o5) (mask F s6) = mask F o5) by (rewrite Hm; now destruct (mask F o5)).
  unfold copy_tensors. cbn [lst pad mask flg num bat nmax equi]. rewrite Epad, Emask.
  destruct R5 as [U1 U2 U3 U4 U5 U6 U7 U8 U9 U10].
  constructor; cbn; auto.
  destruct U10 as [(A & B & C)|A]; [left|right]; auto.
Qed.

(* what append means, for any two clouds batches *)
Definition append_result (a b : batch) : batch :=
  match qp b with None => a | Some _ => match qp a with None => b | Some _ => append_spec F a b end end.

Theorem append_ok a b s o : Rep a s -> Rep b o ->
  (qp a = None \/ qp b = None \/ same_attrs F a b) ->
  exists s' o', append_points F (s, o) = (Ok tt, (s', o')) /\ Rep (append_result a b) s' /\ Rep b o'.
Proof.
  intros Ha Hb Hc. unfold append_result.
  destruct (qp b) as [P2|] eqn:Eb.
  - pose proof (Rep_RepN _ _ _ _ Eb Hb) as H2.
    destruct (qp a) as [P1|] eqn:Ea.
    + pose proof (Rep_RepN _ _ _ _ Ea Ha) as H1. destruct Hc as [Hc|[Hc|Hc]]; try discriminate.
      destruct (append_nonempty P1 P2 a b s o H1 H2) as [(_ & s' & o' & E & R1 & R2)|(Hn & _)]; [|tauto].
      exists s', o'. split; [exact E|]. split; eapply RepN_Rep; eauto.
    + unfold Rep, PointcloudsProofs.Rep in Ha. rewrite Ea in Ha. destruct Ha as [_ H0].
      destruct (append_into_empty P2 b s o H0 H2) as (s' & o' & E & R1 & R2).
      exists s', o'. split; [exact E|]. split; eapply RepN_Rep; eauto.
  - unfold Rep, PointcloudsProofs.Rep in Hb. rewrite Eb in Hb. destruct Hb as [Eb' H0].
    destruct (append_empty_arg s o H0) as (o' & E & R). exists s, o'. split; [exact E|]. split; [exact Ha|].
    unfold Rep, PointcloudsProofs.Rep. rewrite Eb. auto.
Qed.
Theorem append_rejects a b s o : Rep a s -> Rep b o ->
  ~ (qp a = None \/ qp b = None \/ same_attrs F a b) ->
  exists s' o', append_points F (s, o) = (Err ValueError, (s', o')) /\ Rep a s' /\ Rep b o'.
Proof.
  intros Ha Hb Hc.
  destruct (qp b) as [P2|] eqn:Eb; [|tauto]. destruct (qp a) as [P1|] eqn:Ea; [|tauto].
  pose proof (Rep_RepN _ _ _ _ Eb Hb) as H2. pose proof (Rep_RepN _ _ _ _ Ea Ha) as H1.
  destruct (append_nonempty P1 P2 a b s o H1 H2) as [(? & _)|(_ & s' & o' & E & R1 & R2)]; [tauto|].
  exists s', o'. split; [exact E|]. split; eapply RepN_Rep; eauto.
Qed.

End Append.
