(* p.append_points(p): the object appended to itself behaves as if a second object with the same
   value had been appended. *)
From Coq Require Import List Arith ZArith Bool Lia.
From Verif Require Import Res Fld StructUtilsModel StructUtilsProofs PointcloudsModel PointcloudsSpec
  PointcloudsProofs StoreModel StoreSpec StoreProofs StoreProofs2 StoreProofs3 StoreProofs4 StoreProofs5 StoreProofs6.
Import ListNotations.
Local Open Scope nat_scope.

Section ST.
Variable F : Fld.
Notation heap := (heap F).
Notation MO := (M (heap * obj)).
Notation MH := (M heap).
Notation MPC := (M (pc F)).
Notation abs := (abs F).
Notation ext := (ext F).
Notation world := (world F).

(* append_points with self for both objects, once the points are known to be there *)
Definition sattr (a : attr) : MPC unit :=
  do x <- get_list F a;
  do y <- get_list F a;
  do s <- get;
  match x, y with
  | Some x, Some y =>
      do l <- lift (cat_lists F (bat F s) x y);
      modify (set_lst F a (Some l)) ;;; modify (set_pad F a None)
  | _, _ => if bat F s =? 0
            then modify (set_lst F a (Some [])) ;;; modify (set_pad F a None)
            else raise TypeError
  end.
Definition sopt (a : attr) : MPC unit := do h <- has F a; if h then sattr a else ret tt.
Definition srest : MPC unit :=
  sattr Points ;;; sopt Normals ;;; sopt Colors ;;; sopt Features ;;;
  do s <- get; do o <- get;
  do ns <- lift (add_counts (num F s) (num F o));
  modify (fun s => with_mask F None (with_dims F ns (bat F s) (max_list ns) (Some (all_equal ns)) s)).
Definition sapp : MPC unit :=
  do n1 <- has F Normals; do n2 <- has F Normals;
  if negb (eqb n1 n2) then raise ValueError
  else
  do c1 <- has F Colors; do c2 <- has F Colors;
  if negb (eqb c1 c2) then raise ValueError
  else
  do g1 <- has F Features; do g2 <- has F Features;
  if negb (eqb g1 g2) then raise ValueError
  else
  (if g1 then
     do w1 <- num_features F; do w2 <- num_features F;
     match w1, w2 with
     | Some w1, Some w2 => if w1 =? w2 then ret tt else raise ValueError
     | None, None => ret tt
     | _, _ => raise ValueError
     end
   else ret tt) ;;;
  srest.

(* ---------------- values: against append_points on a pair ---------------- *)
Definition eff (a : attr) (s : pc F) : bool :=
  match qget a (flg F s) with Some b => b | None => is_some (qget a (lst F s)) || is_some (qget a (pad F s)) end.
Definition hs (a : attr) (s : pc F) : pc F :=
  match qget a (flg F s) with Some _ => s | None => set_flg F a (Some (eff a s)) s end.
Lemma has_eff a s : has F a s = (Ok (eff a s), hs a s).
Proof. unfold has, hs, eff, get, modify, mbind, ret. cbn. destruct (qget a (flg F s)); reflexivity. Qed.
Lemma lst_hs a s : lst F (hs a s) = lst F s.
Proof. unfold hs. now destruct (qget a (flg F s)). Qed.
Lemma pad_hs a s : pad F (hs a s) = pad F s.
Proof. unfold hs. now destruct (qget a (flg F s)). Qed.
Lemma num_hs a s : num F (hs a s) = num F s.
Proof. unfold hs. now destruct (qget a (flg F s)). Qed.
Lemma bat_hs a s : bat F (hs a s) = bat F s.
Proof. unfold hs. now destruct (qget a (flg F s)). Qed.
Lemma eff_hs a b s : eff a (hs b s) = eff a s.
Proof.
  unfold eff at 1. rewrite lst_hs, pad_hs. unfold hs. destruct (qget b (flg F s)) eqn:E; [reflexivity|].
  cbn [flg set_flg with_flg]. destruct (attr_eq_dec a b) as [->|N].
  - rewrite qget_qset_same. reflexivity.
  - rewrite qget_qset_other by exact N. reflexivity.
Qed.
Lemma hs_hs a s : hs a (hs a s) = hs a s.
Proof.
  unfold hs at 2 3. destruct (qget a (flg F s)) eqn:E; unfold hs.
  - now rewrite E.
  - cbn [flg set_flg with_flg]. now rewrite qget_qset_same.
Qed.

Definition Dg (D : attr -> Prop) (s1 s2 : pc F) : Prop :=
  (forall a, ~ D a -> qget a (lst F s1) = qget a (lst F s2) /\ qget a (pad F s1) = qget a (pad F s2)) /\
  (forall a, eff a s1 = eff a s2) /\ num F s1 = num F s2 /\ bat F s1 = bat F s2.
Lemma Dg_hs1 D s1 s2 a : Dg D s1 s2 -> Dg D (hs a s1) s2.
Proof.
  intros (A & B & C & E). split; [|split; [|split]].
  - intros b N. rewrite lst_hs, pad_hs. auto.
  - intros b. rewrite eff_hs. auto.
  - now rewrite num_hs.
  - now rewrite bat_hs.
Qed.
Lemma Dg_hs2 D s1 s2 a : Dg D s1 s2 -> Dg D s1 (hs a s2).
Proof.
  intros (A & B & C & E). split; [|split; [|split]].
  - intros b N. rewrite lst_hs, pad_hs. auto.
  - intros b. rewrite eff_hs. auto.
  - now rewrite num_hs.
  - now rewrite bat_hs.
Qed.

Definition link {A} (D : attr -> Prop) (x : res A * pc F) (y : res A * (pc F * pc F)) : Prop :=
  fst x = fst y /\ snd x = fst (snd y) /\ (forall a, fst y = Ok a -> Dg D (snd x) (snd (snd y))).

Lemma link_bind {A B} D D' (m : MPC A) (m2 : M2 F A) (k : A -> MPC B) (k2 : A -> M2 F B) s p :
  link D (m s) (m2 p) ->
  (forall a s1 s2, m s = (Ok a, s1) -> Dg D s1 s2 -> link D' (k a s1) (k2 a (s1, s2))) ->
  link D' (mbind m k s) (mbind m2 k2 p).
Proof.
  intros (E1 & E2 & H) K. unfold mbind. destruct (m s) as [r s1]. destruct (m2 p) as [r2 [s1' s2]].
  cbn [fst snd] in *. subst r2 s1'. destruct r as [a|e].
  - apply K; [reflexivity|]. eapply H; reflexivity.
  - split; [reflexivity|]. split; [reflexivity|]. discriminate.
Qed.
Lemma link_ret {A} D (a : A) s1 s2 : Dg D s1 s2 -> link D (ret a s1) (ret a (s1, s2)).
Proof. intros H. split; [reflexivity|]. split; [reflexivity|]. intros _ _. exact H. Qed.
Lemma link_raise {A} D e s1 s2 : link (A := A) D (raise e s1) (raise e (s1, s2)).
Proof. split; [reflexivity|]. split; [reflexivity|]. discriminate. Qed.

(* both flags, one after the other *)
Lemma link_has {A} D D' a (k : bool -> bool -> MPC A) (k2 : bool -> bool -> M2 F A) s1 s2 :
  Dg D s1 s2 ->
  (forall s1' s2', Dg D s1' s2' -> link D' (k (eff a s1) (eff a s1) s1') (k2 (eff a s1) (eff a s1) (s1', s2'))) ->
  link D' ((do x <- has F a; do y <- has F a; k x y) s1)
          ((do x <- on1 F (has F a); do y <- on2 F (has F a); k2 x y) (s1, s2)).
Proof.
  intros H K. unfold mbind, on1, on2. cbn [fst snd]. rewrite !has_eff, eff_hs, hs_hs. cbn [fst snd].
  destruct H as (A1 & A2 & A3). rewrite <- (A2 a). apply K.
  apply Dg_hs1, Dg_hs2. exact (conj A1 (conj A2 A3)).
Qed.

Lemma gl_idem a s x s' : get_list F a s = (Ok x, s') -> get_list F a s' = (Ok x, s').
Proof.
  unfold get_list, mbind, get, modify, ret, raise. cbn.
  destruct (qget a (lst F s)) as [l|] eqn:E1.
  - intros [= <- <-]. now rewrite E1.
  - destruct (qget a (pad F s)) as [p|] eqn:E2.
    + destruct (negb (t3b p =? bat F s)); [discriminate|]. destruct (negb _); [discriminate|].
      intros [= <- <-]. cbn [lst set_lst with_lst]. now rewrite qget_qset_same.
    + intros [= <- <-]. now rewrite E1, E2.
Qed.
Lemma eff_set_lst a b v s : qget a (pad F s) <> None \/ a <> b -> eff a (set_lst F b (Some v) s) = eff a s.
Proof.
  intros H. unfold eff. cbn [flg lst pad set_lst with_lst].
  destruct (qget a (flg F s)); [reflexivity|]. destruct (attr_eq_dec a b) as [->|N].
  - destruct H as [H|H]; [|easy]. rewrite qget_qset_same. destruct (qget b (pad F s)); [|easy]. cbn. now rewrite orb_true_r.
  - now rewrite qget_qset_other.
Qed.
Lemma eff_set_lst' a b v s : (a = b -> eff a s = true) -> eff a (set_lst F b (Some v) s) = eff a s.
Proof.
  intros H. unfold eff in *. cbn [flg lst pad set_lst with_lst].
  destruct (qget a (flg F s)); [reflexivity|]. destruct (attr_eq_dec a b) as [->|N].
  - rewrite qget_qset_same. cbn. symmetry. now apply H.
  - now rewrite qget_qset_other.
Qed.

Lemma gl_pair D a s1 s2 : Dg D s1 s2 -> ~ D a ->
  fst (get_list F a s2) = fst (get_list F a s1) /\
  forall x, fst (get_list F a s1) = Ok x -> Dg D (snd (get_list F a s1)) (snd (get_list F a s2)) /\
    eff a (snd (get_list F a s1)) = eff a s1.
Proof.
  intros (A & B & C & E) N. destruct (A a N) as [L P].
  unfold get_list, mbind, get, modify, ret, raise. cbn. rewrite <- L, <- P, <- C, <- E.
  destruct (qget a (lst F s1)) as [l|] eqn:E1.
  { split; [reflexivity|]. intros x _. split; [|reflexivity]. exact (conj A (conj B (conj C E))). }
  destruct (qget a (pad F s1)) as [p|] eqn:E2.
  2:{ split; [reflexivity|]. intros x _. split; [|reflexivity]. exact (conj A (conj B (conj C E))). }
  destruct (negb (t3b p =? bat F s1)); [split; [reflexivity|discriminate]|].
  destruct (negb _); [split; [reflexivity|discriminate]|]. cbn [fst snd].
  split; [reflexivity|]. intros x _.
  assert (G : forall b, eff b (set_lst F a (Some (unpad F (num F s1) p)) s1) = eff b s1).
  { intros b. apply eff_set_lst. destruct (attr_eq_dec b a) as [->|Nb]; [left; now rewrite E2|auto]. }
  split; [|apply G]. split; [|split; [|split; [exact C|exact E]]].
  - intros b Nb. cbn [lst pad set_lst with_lst]. destruct (attr_eq_dec b a) as [->|Na].
    + rewrite !qget_qset_same. split; [reflexivity|congruence].
    + rewrite !qget_qset_other by exact Na. auto.
  - intros b. rewrite G. rewrite eff_set_lst; [apply B|].
    destruct (attr_eq_dec b a) as [->|Nb]; [left; congruence|auto].
Qed.

Lemma link_attr D a s1 s2 : Dg D s1 s2 -> ~ D a -> eff a s1 = true ->
  link (fun b => D b \/ b = a) (sattr a s1) (append_attr F a (s1, s2)).
Proof.
  intros H N Ea. unfold sattr, append_attr.
  destruct (gl_pair D a s1 s2 H N) as [G1 G2].
  destruct (get_list F a s1) as [r1 t1] eqn:E1. destruct (get_list F a s2) as [r2 t2] eqn:E2. cbn [fst snd] in *. subst r2.
  destruct r1 as [x|e].
  2:{ rewrite (mbind_at _ _ _ _ _ E1). unfold mbind at 1, on1 at 1. cbn [fst snd]. rewrite E1.
      split; [reflexivity|]. split; [reflexivity|]. discriminate. }
  destruct (G2 x eq_refl) as [Ht Et].
  rewrite (mbind_at _ _ _ _ _ E1). cbv iota beta. rewrite (mbind_at _ _ _ _ _ (gl_idem _ _ _ _ E1)).
  assert (F1 : on1 F (get_list F a) (s1, s2) = (Ok x, (t1, s2))) by (unfold on1; cbn [fst snd]; now rewrite E1).
  assert (F2 : on2 F (get_list F a) (t1, s2) = (Ok x, (t1, t2))) by (unfold on2; cbn [fst snd]; now rewrite E2).
  rewrite (mbind_at _ _ _ _ _ F1). cbv iota beta. rewrite (mbind_at _ _ _ _ _ F2). cbv iota beta.
  unfold get at 1. unfold mbind at 1. cbv iota beta.
  assert (F3 : on1 F get (t1, t2) = (Ok t1, (t1, t2))) by reflexivity.
  rewrite (mbind_at _ _ _ _ _ F3). cbv iota beta.
  assert (Z : forall v, link (fun b => D b \/ b = a)
     ((modify (set_lst F a (Some v)) ;;; modify (set_pad F a None)) t1)
     ((on1 F (modify (set_lst F a (Some v))) ;;; on1 F (modify (set_pad F a None))) (t1, t2))).
  { intros v. split; [reflexivity|]. split; [reflexivity|]. intros _ _. cbn.
    destruct Ht as (A & B & C & E). split; [|split; [|split; [exact C|exact E]]].
    - intros b Nb. cbn [lst pad set_pad with_pad set_lst with_lst].
      assert (b <> a) by tauto. rewrite !qget_qset_other by assumption. apply A. tauto.
    - intros b. rewrite <- B. unfold eff. cbn [flg lst pad set_pad with_pad set_lst with_lst].
      destruct (attr_eq_dec b a) as [->|Nb].
      + rewrite !qget_qset_same. cbn. rewrite Ea in Et. unfold eff in Et. now destruct (qget a (flg F t1)).
      + now rewrite !qget_qset_other. }
  destruct x as [x|].
  - eapply link_bind with (D := D).
    + split; [reflexivity|]. split; [reflexivity|]. intros l _. exact Ht.
    + intros l u1 u2 El Hu. unfold lift in El.
      assert (u1 = t1) as -> by congruence.
      split; [reflexivity|]. split; [reflexivity|]. intros _ _. cbn.
      destruct Hu as (A & B & C & E). split; [|split; [|split; [exact C|exact E]]].
      * intros b Nb. cbn [lst pad set_pad with_pad set_lst with_lst].
        assert (b <> a) by tauto. rewrite !qget_qset_other by assumption. apply A. tauto.
      * intros b. rewrite <- B. unfold eff. cbn [flg lst pad set_pad with_pad set_lst with_lst].
        destruct (attr_eq_dec b a) as [->|Nb].
        -- rewrite !qget_qset_same. cbn. rewrite Ea in Et. unfold eff in Et. now destruct (qget a (flg F t1)).
        -- now rewrite !qget_qset_other.
  - destruct (bat F t1 =? 0); [apply Z|apply link_raise].
Qed.

Lemma link_opt D a s1 s2 : Dg D s1 s2 -> ~ D a ->
  link (fun b => D b \/ b = a) (sopt a s1) ((do h <- on1 F (has F a); if h then append_attr F a else ret tt) (s1, s2)).
Proof.
  intros H N. unfold sopt. unfold mbind, on1. cbn [fst snd]. rewrite has_eff.
  destruct (eff a s1) eqn:E.
  - apply link_attr; [now apply Dg_hs1|exact N|now rewrite eff_hs].
  - apply link_ret. apply Dg_hs1. destruct H as (A & B & C). split; [|split; [exact B|exact C]].
    intros b Nb. apply A. tauto.
Qed.

Lemma nf_eff s : num_features F s =
  if negb (eff Features s) then (Ok (Some 0), hs Features s)
  else match qf (pad F s) with
       | Some p => (Ok (Some (t3c p)), hs Features s)
       | None => match qf (lst F s) with
                 | Some (y :: _) => (Ok (Some (t2c y)), hs Features s)
                 | Some [] => (Err IndexError, hs Features s)
                 | None => (Ok None, hs Features s)
                 end
       end.
Proof.
  unfold num_features. rewrite (mbind_at _ _ _ _ _ (has_eff Features s)). cbv iota beta.
  destruct (negb (eff Features s)); [reflexivity|]. unfold mbind, get. cbv iota beta. rewrite lst_hs, pad_hs.
  destruct (qf (pad F s)); [reflexivity|]. destruct (qf (lst F s)) as [[|]|]; reflexivity.
Qed.
Lemma nf_idem s x s' : num_features F s = (Ok x, s') -> num_features F s' = (Ok x, s') /\ s' = hs Features s.
Proof.
  intros E. assert (s' = hs Features s) as ->.
  { rewrite nf_eff in E. destruct (negb _); [now injection E|]. destruct (qf (pad F s)); [now injection E|].
    destruct (qf (lst F s)) as [[|]|]; try discriminate; now injection E. }
  split; [|reflexivity]. rewrite <- E, !nf_eff, eff_hs, lst_hs, pad_hs, hs_hs. reflexivity.
Qed.
Lemma nf_pair s1 s2 : Dg (fun _ => False) s1 s2 -> fst (num_features F s2) = fst (num_features F s1) /\
  snd (num_features F s2) = hs Features s2.
Proof.
  intros (A & B & C). destruct (A Features (fun H => H)) as [L P]. cbn in L, P.
  rewrite !nf_eff, <- L, <- P, <- B. destruct (negb (eff Features s1)); [auto|]. destruct (qf (pad F s1)); [auto|].
  destruct (qf (lst F s1)) as [[|]|]; auto.
Qed.

Definition tail2 : M2 F unit :=
  append_attr F Points ;;;
  (do h <- on1 F (has F Normals); if h then append_attr F Normals else ret tt) ;;;
  (do h <- on1 F (has F Colors); if h then append_attr F Colors else ret tt) ;;;
  (do h <- on1 F (has F Features); if h then append_attr F Features else ret tt) ;;;
  do s <- on1 F get; do o <- on2 F get;
  do ns <- lift (add_counts (num F s) (num F o));
  on1 F (modify (fun s => with_mask F None (with_dims F ns (bat F s) (max_list ns) (Some (all_equal ns)) s))).

Definition same_self (x : res unit * pc F) (y : res unit * (pc F * pc F)) : Prop := fst x = fst y /\ snd x = fst (snd y).

Lemma self_bind {A} D (m : MPC A) (m2 : M2 F A) (k : A -> MPC unit) (k2 : A -> M2 F unit) s p :
  link D (m s) (m2 p) ->
  (forall a s1 s2, m s = (Ok a, s1) -> Dg D s1 s2 -> same_self (k a s1) (k2 a (s1, s2))) ->
  same_self (mbind m k s) (mbind m2 k2 p).
Proof.
  intros (E1 & E2 & H) K. unfold mbind. destruct (m s) as [r s1]. destruct (m2 p) as [r2 [s1' s2]].
  cbn [fst snd] in *. subst r2 s1'. destruct r as [a|e].
  - apply K; [reflexivity|]. eapply H; reflexivity.
  - split; reflexivity.
Qed.
Lemma srest_link s1 s2 : Dg (fun _ => False) s1 s2 -> eff Points s1 = true -> same_self (srest s1) (tail2 (s1, s2)).
Proof.
  intros H E. unfold srest, tail2.
  eapply self_bind; [apply link_attr; eauto|]. intros _ t1 t2 _ H1.
  eapply self_bind; [apply link_opt; [exact H1|intros [[]|]; discriminate]|]. intros _ t3 t4 _ H2.
  eapply self_bind; [apply link_opt; [exact H2|intros [[[]|]|]; discriminate]|]. intros _ t5 t6 _ H3.
  eapply self_bind; [apply link_opt; [exact H3|intros [[[[]|]|]|]; discriminate]|]. intros _ t7 t8 _ H4.
  destruct H4 as (A & B & C & G).
  unfold get. unfold mbind, on1, on2, lift. cbn [fst snd]. rewrite <- C.
  destruct (add_counts (num F t7) (num F t7)) as [ns|e]; cbn; split; reflexivity.
Qed.
Lemma self_has a (k : bool -> bool -> MPC unit) (k2 : bool -> bool -> M2 F unit) s1 s2 :
  Dg (fun _ => False) s1 s2 ->
  (forall s1' s2', Dg (fun _ => False) s1' s2' -> (forall b, eff b s1' = eff b s1) ->
     same_self (k (eff a s1) (eff a s1) s1') (k2 (eff a s1) (eff a s1) (s1', s2'))) ->
  same_self ((do x <- has F a; do y <- has F a; k x y) s1)
          ((do x <- on1 F (has F a); do y <- on2 F (has F a); k2 x y) (s1, s2)).
Proof.
  intros H K. unfold mbind, on1, on2. cbn [fst snd]. rewrite !has_eff, eff_hs, hs_hs. cbn [fst snd].
  destruct H as (A1 & A2 & A3). rewrite <- (A2 a). apply K; [|intros b; apply eff_hs].
  apply Dg_hs1, Dg_hs2. exact (conj A1 (conj A2 A3)).
Qed.
Lemma sapp_link s1 s2 : Dg (fun _ => False) s1 s2 -> eff Points s1 = true ->
  same_self (sapp s1)
   ((do n1 <- on1 F (has F Normals); do n2 <- on2 F (has F Normals);
  if negb (eqb n1 n2) then raise ValueError
  else
  do c1 <- on1 F (has F Colors); do c2 <- on2 F (has F Colors);
  if negb (eqb c1 c2) then raise ValueError
  else
  do g1 <- on1 F (has F Features); do g2 <- on2 F (has F Features);
  if negb (eqb g1 g2) then raise ValueError
  else
  (if g1 then
     do w1 <- on1 F (num_features F); do w2 <- on2 F (num_features F);
     match w1, w2 with
     | Some w1, Some w2 => if w1 =? w2 then ret tt else raise ValueError
     | None, None => ret tt
     | _, _ => raise ValueError
     end
   else ret tt) ;;; tail2) (s1, s2)).
Proof.
  intros H E. unfold sapp.
  apply self_has; [exact H|]. clear H. intros t1 t2 H E1.
  rewrite eqb_reflx. cbn [negb].
  apply self_has; [exact H|]. clear H. intros t3 t4 H E2.
  rewrite eqb_reflx. cbn [negb].
  apply self_has; [exact H|]. clear H. intros t5 t6 H E3.
  rewrite eqb_reflx. cbn [negb].
  assert (P5 : eff Points t5 = true) by (now rewrite E3, E2, E1).
  eapply self_bind with (D := fun _ => False).
  2:{ intros [] u1 u2 Eu Hu. apply srest_link; [exact Hu|].
      destruct (eff Features t3); [|injection Eu as <-; exact P5].
      unfold mbind in Eu. destruct (num_features F t5) as [[x|e] v] eqn:En; [|discriminate].
      destruct (nf_idem _ _ _ En) as [En' Ev]. rewrite En' in Eu. subst v.
      destruct x as [x|]; [rewrite Nat.eqb_refl in Eu|]; injection Eu as <-; now rewrite eff_hs. }
  destruct (eff Features t3); [|now apply link_ret].
  destruct (nf_pair t5 t6 H) as [N1 N2]. unfold mbind, on1, on2. cbn [fst snd].
  destruct (num_features F t5) as [r v] eqn:En. destruct (num_features F t6) as [r2 v2] eqn:En6. cbn [fst snd] in *. subst r2 v2.
  destruct r as [x|e]; cbn [fst snd].
  - destruct (nf_idem _ _ _ En) as [En' Ev]. rewrite En', En6. subst v.
    assert (HH : Dg (fun _ => False) (hs Features t5) (hs Features t6)) by (now apply Dg_hs1, Dg_hs2).
    destruct x as [x|]; [rewrite Nat.eqb_refl|]; now apply link_ret.
  - split; [reflexivity|]. split; [reflexivity|]. discriminate.
Qed.

Definition sself : MPC unit :=
  do hp2 <- has F Points;
  if negb hp2 then ret tt
  else do hp1 <- has F Points;
       if negb hp1 then raise RuntimeError   (* not reached: the same flag again *)
       else sapp.
Lemma sself_link s : eff Points s = true -> same_self (sself s) (append_points F (s, s)).
Proof.
  intros Ep. unfold sself, append_points. rewrite (mbind_at _ _ _ _ _ (has_eff Points s)). cbv iota beta.
  assert (E2 : on2 F (has F Points) (s, s) = (Ok (eff Points s), (s, hs Points s))) by (unfold on2; cbn [fst snd]; now rewrite has_eff).
  rewrite (mbind_at _ _ _ _ _ E2). cbv iota beta.
  rewrite Ep. cbn [negb].
  assert (E1 : on1 F (has F Points) (s, hs Points s) = (Ok true, (hs Points s, hs Points s)))
    by (unfold on1; cbn [fst snd]; now rewrite has_eff, Ep).
  rewrite (mbind_at _ _ _ _ _ E1). cbv iota beta.
  rewrite (mbind_at _ _ _ _ _ (has_eff Points (hs Points s))). cbv iota beta. rewrite eff_hs, Ep, hs_hs. cbn [negb].
  assert (E3 : on1 F get (hs Points s, hs Points s) = (Ok (hs Points s), (hs Points s, hs Points s))) by reflexivity.
  assert (E4 : on2 F get (hs Points s, hs Points s) = (Ok (hs Points s), (hs Points s, hs Points s))) by reflexivity.
  rewrite (mbind_at _ _ _ _ _ E3). cbv iota beta. rewrite (mbind_at _ _ _ _ _ E4). cbv iota beta.
  rewrite Nat.eqb_refl. cbn [negb].
  apply sapp_link; [|now rewrite eff_hs]. split; [auto|]. auto.
Qed.

(* ---------------- the heap program against sself ---------------- *)
Section HEAP.
Variable own : nat -> Prop.
Variable n0 : nat.
Variable dv : dev.
Hypothesis fresh : forall l, n0 <= l -> own l.
Variable i : nat.
Variable os : list obj.
Hypothesis Li : i < length os.
Notation ok := (ok F own n0 dv).

Definition W1 h o : world := mkW F h (upd i o os).
Lemma at_1 {A} (m : MO A) h o : at_ F i m (W1 h o) = let '(r, (h', o')) := m (h, o) in (r, W1 h' o').
Proof.
  unfold at_. cbn [wheap wobjs W1]. destruct (nth_error os i) as [x|] eqn:E.
  2:{ apply nth_error_None in E. lia. }
  rewrite (upd_same i o x _ E). destruct (m (h, o)) as [r [h' o']]. unfold W1. now rewrite upd_upd.
Qed.
Definition post1 {A B} (h : heap) (R : heap -> A -> B -> Prop) (x : res A * world) (y : res B * pc F) : Prop :=
  exists h' o, snd x = W1 h' o /\ ext h h' /\ ok h' o /\ snd y = abs h' o /\
    match fst x, fst y with Ok a, Ok b => R h' a b | Err e, Err e' => e = e' | _, _ => False end.
Lemma p1_bind {A B A' B'} h o (R : heap -> A -> B -> Prop) (R' : heap -> A' -> B' -> Prop)
    (mh : M world A) (m : MPC B) (kh : A -> M world A') (k : B -> MPC B') :
  post1 h R (mh (W1 h o)) (m (abs h o)) ->
  (forall h1 o a b, ext h h1 -> ok h1 o -> R h1 a b -> post1 h1 R' (kh a (W1 h1 o)) (k b (abs h1 o))) ->
  post1 h R' (mbind mh kh (W1 h o)) (mbind m k (abs h o)).
Proof.
  intros (h1 & o1 & E & X & O1 & S & H) K. unfold mbind.
  destruct (mh (W1 h o)) as [r w]. destruct (m (abs h o)) as [r' s]. cbn [fst snd] in *. subst w s.
  destruct r as [a|e], r' as [b|e']; try contradiction.
  - destruct (K h1 o1 a b X O1 H) as (h2 & o3 & E2 & X2 & P). exists h2, o3.
    split; [exact E2|]. split; [eapply ext_trans; eauto|exact P].
  - exists h1, o1. auto 7.
Qed.
Lemma p1_on {A B} h o (R : heap -> A -> B -> Prop) (m : MO A) (f : MPC B) :
  post F own n0 dv h R (m (h, o)) (f (abs h o)) -> post1 h R (at_ F i m (W1 h o)) (f (abs h o)).
Proof.
  intros (X & O1 & S & H). rewrite at_1. destruct (m (h, o)) as [r [h1 o1]]. destruct (f (abs h o)) as [r' s].
  cbn [fst snd] in *. exists h1, o1. auto.
Qed.
Lemma p1_ret {A B} h o (R : heap -> A -> B -> Prop) a b : ok h o -> R h a b -> post1 h R (ret a (W1 h o)) (ret b (abs h o)).
Proof. intros. exists h, o. cbn. auto 9 using ext_refl. Qed.
Lemma p1_raise {A B} h o (R : heap -> A -> B -> Prop) e : ok h o -> post1 h R (raise e (W1 h o)) (raise e (abs h o)).
Proof. intros. exists h, o. cbn. auto 9 using ext_refl. Qed.
Lemma p1_get {A} h o (k : obj -> M world A) : mbind (at_ F i (geto F)) k (W1 h o) = k o (W1 h o).
Proof. unfold mbind. rewrite at_1. reflexivity. Qed.
Lemma p1_heap {A} h o (k : heap -> M world A) : mbind (at_ F i (geth F)) k (W1 h o) = k h (W1 h o).
Proof. unfold mbind. rewrite at_1. reflexivity. Qed.
Lemma p1_alloc {A B C} h o (P : heap -> A -> Prop) (R : heap -> B -> C -> Prop) (m : MH A) k y :
  hpost F h P (m h) ->
  (forall h1 a, ext h h1 -> P h1 a -> post1 h1 R (k a (W1 h1 o)) y) ->
  post1 h R (mbind (at_ F i (onh F m)) k (W1 h o)) y.
Proof.
  intros [X H] K. unfold mbind. rewrite at_1. unfold onh. cbn [fst snd]. destruct (m h) as [r h1]. cbn [fst snd] in *.
  destruct r as [a|]; [|contradiction]. destruct (K h1 a X H) as (h2 & o1 & E & X2 & Q).
  exists h2, o1. split; [exact E|]. split; [eapply ext_trans; eauto|exact Q].
Qed.
Lemma p1_has h o a : ok h o -> post1 h (Reqv F) (at_ F i (hhas F a) (W1 h o)) (has F a (abs h o)).
Proof. intros. apply p1_on. now apply hhas_ok. Qed.
Lemma p1_set h o a v x : ok h o -> R2l F own dv h v x ->
  post1 h (Reqv F) (at_ F i (modo F (oset_lst a (Some v))) (W1 h o)) (modify (set_lst F a (Some x)) (abs h o)).
Proof.
  intros O1 [K <-]. apply p1_on. apply post_modo; [|apply abs_set_lst|reflexivity].
  apply ok_set_lst; [exact O1|]. now intros l [= <-].
Qed.
Lemma p1_pad h o a : ok h o ->
  post1 h (Reqv F) (at_ F i (modo F (oset_pad a None)) (W1 h o)) (modify (set_pad F a None) (abs h o)).
Proof.
  intros O1. apply p1_on. apply post_modo; [|apply abs_set_pad|reflexivity].
  apply ok_set_pad; [exact O1|]. discriminate.
Qed.
Lemma p1_append h o a : ok h o -> post1 h (Reqv F) (happend_attr F a i i (W1 h o)) (sattr a (abs h o)).
Proof.
  intros O1. unfold happend_attr, sattr.
  eapply p1_bind; [apply p1_on; now apply hget_list_ok|].
  intros h1 o1 x x' X1 Oi1 K1.
  eapply p1_bind; [apply p1_on; now apply hget_list_ok|].
  intros h2 o2 y y' X2 Oi2 K2.
  rewrite p1_get, p1_heap.
  apply (Ropt_ext F _ _ h2) in K1; [|intros; now apply (R2l_ext F own dv h1)].
  change (post1 h2 (Reqv F)
    (match x, y with
     | Some x, Some y =>
      (do l <- lift (cat_lists F (obat o2) (map (read2 F h2) x) (map (read2 F h2) y));
       do l' <- at_ F i (onh F (mmap (alloc2 F (list_dev F h2 x)) l));
       at_ F i (modo F (oset_lst a (Some l'))) ;;; at_ F i (modo F (oset_pad a None)))
     | _, _ => if obat o2 =? 0
            then at_ F i (modo F (oset_lst a (Some []))) ;;; at_ F i (modo F (oset_pad a None))
            else raise TypeError
     end (W1 h2 o2))
    (match x', y' with
     | Some x, Some y => (do l <- lift (cat_lists F (obat o2) x y);
          modify (set_lst F a (Some l)) ;;; modify (set_pad F a None))
     | _, _ => if obat o2 =? 0
            then modify (set_lst F a (Some [])) ;;; modify (set_pad F a None)
            else raise TypeError
     end (abs h2 o2))).
  assert (Z : forall h o v z, ok h o -> R2l F own dv h v z ->
    post1 h (Reqv F) ((at_ F i (modo F (oset_lst a (Some v))) ;;; at_ F i (modo F (oset_pad a None))) (W1 h o))
       ((modify (set_lst F a (Some z)) ;;; modify (set_pad F a None)) (abs h o))).
  { intros. eapply p1_bind; [apply p1_set; eauto|]. intros. now apply p1_pad. }
  assert (ZE : post1 h2 (Reqv F)
     ((if obat o2 =? 0 then at_ F i (modo F (oset_lst a (Some []))) ;;; at_ F i (modo F (oset_pad a None))
            else raise TypeError) (W1 h2 o2))
     ((if obat o2 =? 0 then modify (set_lst F a (Some [])) ;;; modify (set_pad F a None)
            else raise TypeError) (abs h2 o2))).
  { destruct (obat o2 =? 0); [|now apply p1_raise]. apply Z; auto. split; [constructor|reflexivity]. }
  destruct x as [x|], x' as [x'|]; try contradiction; [|exact ZE].
  destruct y as [y|], y' as [y'|]; try contradiction; [|exact ZE].
  destruct K1 as [Kx <-]. destruct K2 as [Ky <-].
  destruct (cat_lists F (obat o2) (map (read2 F h2) x) (map (read2 F h2) y)) as [l|e] eqn:El.
  2:{ exists h2, o2. cbn. auto 8 using ext_refl. }
  change (post1 h2 (Reqv F)
    ((do l' <- at_ F i (onh F (mmap (alloc2 F (list_dev F h2 x)) l));
       at_ F i (modo F (oset_lst a (Some l'))) ;;; at_ F i (modo F (oset_pad a None))) (W1 h2 o2))
    ((modify (set_lst F a (Some l)) ;;; modify (set_pad F a None)) (abs h2 o2))).
  apply p1_alloc with (P := fun h v => R2l F own dv h v l).
  - destruct x as [|v x].
    + assert (l = []) as ->.
      { unfold cat_lists in El. cbn in El. destruct (obat o2); cbn in El; [now injection El|discriminate]. }
      apply hpost_ret. split; [constructor|reflexivity].
    + assert (D : list_dev F h2 (v :: x) = dv) by (apply Forall_inv in Kx; apply Kx). rewrite D.
      apply (mmap_alloc_ok F own n0 dv fresh 0 1 (O_S 0) [o;o] ltac:(cbn; lia) ltac:(cbn; lia)); [apply Oi2|]. eapply cat_lists_wf; [| |exact El]; apply reads_wf.
  - intros h3 v X3 K3. rewrite <- (abs_ext F own n0 dv _ _ _ X3 Oi2).
    apply Z; auto; eapply ok_ext; eauto.
Qed.
Lemma p1_opt h o a : ok h o ->
  post1 h (Reqv F) ((do b <- at_ F i (hhas F a); if b then happend_attr F a i i else ret tt) (W1 h o)) (sopt a (abs h o)).
Proof.
  intros O1. unfold sopt. eapply p1_bind; [now apply p1_has|]. intros h1 o1 b b' X Q1 <-.
  destruct b; [now apply p1_append|now apply p1_ret].
Qed.
Lemma at_has h o a : ok h o -> exists h1 o1,
  at_ F i (hhas F a) (W1 h o) = (Ok (eff a (abs h o)), W1 h1 o1) /\ ext h h1 /\ ok h1 o1 /\ abs h1 o1 = hs a (abs h o).
Proof.
  intros O1. destruct (p1_has h o a O1) as (h1 & o1 & E & X & Q & S & H). rewrite has_eff in S, H. cbn [fst snd] in S, H.
  destruct (at_ F i (hhas F a) (W1 h o)) as [r w]. cbn [fst snd] in *. subst w. destruct r as [b|]; [|contradiction].
  red in H. subst b. exists h1, o1. auto.
Qed.
Lemma post1_ext {A B} h h1 (R : heap -> A -> B -> Prop) x y : ext h h1 -> post1 h1 R x y -> post1 h R x y.
Proof. intros X (h2 & o & E & X2 & Q). exists h2, o. split; [exact E|]. split; [eapply ext_trans; eauto|exact Q]. Qed.

Lemma hself_ok h o : ok h o -> post1 h (Reqv F) (happend_points F i i (W1 h o)) (sself (abs h o)).
Proof.
  intros O1. unfold happend_points, sself. rewrite !p1_get.
  rewrite (proj2 (dev_eqb_eq _ _) eq_refl). cbn [negb].
  destruct (at_has h o Points O1) as (h1 & o1 & E1 & X1 & Q1 & S1).
  rewrite (mbind_at _ _ _ _ _ E1). rewrite (mbind_at _ _ _ _ _ (has_eff Points (abs h o))). cbv iota beta.
  destruct (eff Points (abs h o)) eqn:Ep; cbn [negb].
  2:{ rewrite <- S1. eapply post1_ext; [exact X1|]. now apply p1_ret. }
  destruct (at_has h1 o1 Points Q1) as (h2 & o2 & E2 & X2 & Q2 & S2).
  rewrite S1, eff_hs, Ep in E2. rewrite S1, hs_hs in S2.
  rewrite (mbind_at _ _ _ _ _ E2). rewrite (mbind_at _ _ _ _ _ (has_eff Points (hs Points (abs h o)))). cbv iota beta.
  rewrite eff_hs, Ep, hs_hs. cbn [negb]. rewrite <- S2. rewrite !p1_get. rewrite Nat.eqb_refl. cbn [negb].
  eapply post1_ext; [eapply ext_trans; eassumption|]. clear h o O1 h1 o1 E1 X1 Q1 S1 Ep E2 X2 S2.
  rename h2 into h, o2 into o, Q2 into O1. unfold sapp.
  eapply p1_bind; [now apply p1_has|]. intros h3 o3 n ? X3 Q3 <-.
  eapply p1_bind; [now apply p1_has|]. intros h4 o4 n' ? X4 Q4 <-.
  destruct (negb _); [now apply p1_raise|].
  eapply p1_bind; [now apply p1_has|]. intros h5 o5 c ? X5 Q5 <-.
  eapply p1_bind; [now apply p1_has|]. intros h6 o6 c' ? X6 Q6 <-.
  destruct (negb _); [now apply p1_raise|].
  eapply p1_bind; [now apply p1_has|]. intros h7 o7 g ? X7 Q7 <-.
  eapply p1_bind; [now apply p1_has|]. intros h8 o8 g' ? X8 Q8 <-.
  destruct (negb _); [now apply p1_raise|].
  eapply p1_bind with (R := Reqv F).
  { destruct g; [|now apply p1_ret].
    eapply p1_bind; [apply p1_on; now apply hnum_features_ok|]. intros h9 o9 x ? X9 Q9 <-.
    eapply p1_bind; [apply p1_on; now apply hnum_features_ok|]. intros h10 o10 y ? X10 Q10 <-.
    destruct x as [x|], y as [y|]; try (now apply p1_raise); [|now apply p1_ret].
    destruct (x =? y); [now apply p1_ret|now apply p1_raise]. }
  intros h9 o9 ? ? X9 Q9 _. unfold srest.
  eapply p1_bind; [now apply p1_append|]. intros h10 o10 ? ? X10 Q10 _.
  eapply p1_bind; [now apply p1_opt|]. intros h11 o11 ? ? X11 Q11 _.
  eapply p1_bind; [now apply p1_opt|]. intros h12 o12 ? ? X12 Q12 _.
  eapply p1_bind; [now apply p1_opt|]. intros h13 o13 ? ? X13 Q13 _.
  rewrite !p1_get, p1_heap.
  change (post1 h13 (Reqv F)
   ((do ns <- lift (add_counts (ndata F h13 (onum o13)) (ndata F h13 (onum o13)));
     do n <- at_ F i (onh F (alloc F (CN F (devof F h13 (onum o13)) ns)));
     at_ F i (modo F (fun s => owith_mask None
         (owith_dims n (obat s) (max_list ns) (Some (all_equal ns)) s)))) (W1 h13 o13))
   ((do ns <- lift (add_counts (ndata F h13 (onum o13)) (ndata F h13 (onum o13)));
     modify (fun s => with_mask F None
         (with_dims F ns (bat F s) (max_list ns) (Some (all_equal ns)) s))) (abs h13 o13))).
  destruct (add_counts _ _) as [ns|e].
  2:{ exists h13, o13. cbn. auto 8 using ext_refl. }
  change (post1 h13 (Reqv F)
   ((do n <- at_ F i (onh F (alloc F (CN F (devof F h13 (onum o13)) ns)));
     at_ F i (modo F (fun s => owith_mask None
         (owith_dims n (obat s) (max_list ns) (Some (all_equal ns)) s)))) (W1 h13 o13))
   (Ok tt, (with_mask F None (with_dims F ns (obat o13) (max_list ns) (Some (all_equal ns)) (abs h13 o13))))).
  assert (D : devof F h13 (onum o13) = dv) by (eapply ok_num; exact Q13). rewrite D.
  apply p1_alloc with (P := fun h n => okl F own dv h n /\ ndata F h n = ns).
  - split; [apply ext_app|]. cbn. split; [|apply ndata_new]. apply (okl_new F own n0 dv fresh); [apply Q13|reflexivity].
  - intros h14 n2 X14 [On En]. rewrite at_1. cbn.
    eexists h14, _. split; [reflexivity|]. split; [apply ext_refl|].
    assert (Q13' : ok h14 o13) by (eapply ok_ext; eauto).
    split; [destruct Q13'; constructor; auto; cbn; discriminate|].
    split; [|reflexivity]. cbn.
    rewrite <- (abs_ext F own n0 dv _ _ _ X14 Q13). unfold with_mask, with_dims, StoreModel.abs. cbn. now rewrite En.
Qed.
End HEAP.
End ST.
