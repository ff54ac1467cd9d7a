From Coq Require Import Ascii String List Arith Bool Reals ZArith Lia Sorting.Sorted Sorting.Permutation.
From Verif Require Import Res TextModel DataSpec.
Import ListNotations.
Local Open Scope nat_scope.

Lemma code_inj x y : nat_of_ascii x = nat_of_ascii y -> x = y.
Proof. intros H. rewrite <- (ascii_nat_embedding x), <- (ascii_nat_embedding y). now f_equal. Qed.
Lemma text_cmp_spec a : forall b, match text_cmp a b with Lt => alpha_lt a b | Gt => alpha_lt b a | Eq => a = b end.
Proof.
  induction a as [|x a IH]; intros [|y b]; cbn [text_cmp]; try constructor.
  destruct (Nat.compare_spec (nat_of_ascii x) (nat_of_ascii y)) as [E|H|H].
  - apply code_inj in E. subst y. specialize (IH b). destruct (text_cmp a b); [now subst|now constructor|now constructor].
  - now constructor.
  - now constructor.
Qed.
Lemma alpha_irrefl a : ~ alpha_lt a a.
Proof. induction a as [|x a IH]; intros H; inversion H; subst; [lia|auto]. Qed.
Lemma alpha_trans a b c : alpha_lt a b -> alpha_lt b c -> alpha_lt a c.
Proof.
  intros H. revert c. induction H as [y b|x y a b L|x a b H IH]; intros c K.
  - inversion K; subst; constructor.
  - inversion K; subst; apply lt_head; lia.
  - inversion K; subst; [apply lt_head; assumption|apply lt_tail; auto].
Qed.
Lemma alpha_total a b : alpha_lt a b \/ a = b \/ alpha_lt b a.
Proof. pose proof (text_cmp_spec a b). destruct (text_cmp a b); auto. Qed.
Lemma text_eqb_spec a b : Bool.reflect (a = b) (text_eqb a b).
Proof. unfold text_eqb. destruct (list_eq_dec ascii_dec a b); constructor; assumption. Qed.

(* ---------------- split *)
Lemma split_pieces p q s : (forall c, p c = true <-> q c) -> Pieces q s (split_if p s).
Proof.
  intros Hp. induction s as [|x s IH]; cbn [split_if]; [repeat constructor|].
  destruct (split_if p s) as [|w ws]; [inversion IH|]. destruct (p x) eqn:E.
  - apply (p_more q [] x s (w :: ws)); [constructor|now apply Hp|exact IH].
  - assert (N : ~ q x) by (rewrite <- Hp, E; discriminate). inversion IH; subst.
    + constructor. now constructor.
    + apply (p_more q (x :: w) c r ws); [now constructor|assumption|assumption].
Qed.
Lemma pieces_det q s ps qs : Pieces q s ps -> Pieces q s qs -> ps = qs.
Proof.
  intros H. revert qs. induction H as [s H|s c r ps H Hc H1 IH]; intros qs K.
  - inversion K; subst; [reflexivity|]. apply Forall_app in H. destruct H as [_ H]. inversion H. contradiction.
  - inversion K as [s' Hs E1 E2|s' c' r' ps' Hs Hc' Hr E1 E2]; subst.
    + apply Forall_app in Hs. destruct Hs as [_ Hs]. inversion Hs. contradiction.
    + assert (E : s = s' /\ c :: r = c' :: r').
      { clear - E1 H Hs Hc Hc'. revert s' E1 Hs. induction s as [|x s IH]; intros [|y s'] E Hs; cbn in E.
        - auto.
        - injection E as -> _. inversion Hs. contradiction.
        - injection E as -> _. inversion H. contradiction.
        - injection E as -> E. inversion H; inversion Hs; subst. destruct (IH ltac:(assumption) s' ltac:(symmetry; exact (eq_sym E)) ltac:(assumption)) as [-> ->]. auto. }
      destruct E as [-> E]. injection E as -> ->. f_equal. auto.
Qed.
(* ---------------- strip *)
Lemma space_blank c : is_space c = true <-> blank c.
Proof.
  unfold is_space, blank. generalize (nat_of_ascii c). intros n. cbn [In]. rewrite !orb_true_iff, !andb_true_iff, !Nat.leb_le, !Nat.eqb_eq.
  split; [intros H|intros H; lia].
  assert (D : n = 9 \/ n = 10 \/ n = 11 \/ n = 12 \/ n = 13 \/ n = 28 \/ n = 29 \/ n = 30 \/ n = 31 \/ n = 32 \/ n = 133 \/ n = 160) by lia.
  repeat (destruct D as [D|D]; [rewrite D; tauto|]). rewrite D. tauto.
Qed.
Lemma lstrip_spec s : exists l, s = l ++ lstrip s /\ Forall blank l /\ match lstrip s with [] => True | c :: _ => ~ blank c end.
Proof.
  induction s as [|x s (l & E & F & H)]; [exists []; repeat split; constructor|]. cbn [lstrip]. destruct (is_space x) eqn:Ex.
  - exists (x :: l). split; [cbn; now f_equal|]. split; [constructor; [now apply space_blank|exact F]|exact H].
  - exists []. split; [reflexivity|]. split; [constructor|]. rewrite <- space_blank. congruence.
Qed.
Lemma last_rev_hd {A} (l : list A) x d : last (l ++ [x]) d = x.
Proof. induction l as [|y l IH]; [reflexivity|]. cbn. destruct (l ++ [x]) eqn:E; [destruct l; discriminate|]. exact IH. Qed.
Lemma strip_spec s : Trimmed s (strip s).
Proof.
  unfold strip. destruct (lstrip_spec s) as (l & E & F & H). destruct (lstrip_spec (rev (lstrip s))) as (r & E2 & F2 & H2).
  exists l, (rev r). set (u := lstrip s) in *. set (v := lstrip (rev u)) in *.
  assert (Eu : u = rev v ++ rev r) by (rewrite <- rev_app_distr, <- E2, rev_involutive; reflexivity).
  split; [rewrite <- Eu; exact E|]. split; [exact F|]. split; [apply Forall_rev, F2|].
  destruct (rev v) as [|c w] eqn:Ev; [exact I|]. split.
  - rewrite Eu in H. exact H.
  - assert (Ev' : v = rev (c :: w)) by (rewrite <- Ev, rev_involutive; reflexivity).
    destruct v as [|d v']; [discriminate|]. cbn [rev] in Ev. rewrite <- Ev. rewrite last_rev_hd. exact H2.
Qed.
Lemma trimmed_det s a b : Trimmed s a -> Trimmed s b -> a = b.
Proof.
  assert (P : forall l l' a b, Forall blank l -> Forall blank l' -> match a with [] => True | c :: _ => ~ blank c end ->
     match b with [] => True | c :: _ => ~ blank c end -> l ++ a = l' ++ b -> a = b \/ (a = [] /\ Forall blank b) \/ (b = [] /\ Forall blank a)).
  { clear. induction l as [|x l IH]; intros [|y l'] a b Hl Hl' Ha Hb E; cbn in E.
    - auto.
    - subst a. inversion Hl'. contradiction.
    - subst b. inversion Hl. contradiction.
    - injection E as -> E. inversion Hl; inversion Hl'; subst. eauto. }
  intros (l1 & r1 & E1 & L1 & R1 & C1) (l2 & r2 & E2 & L2 & R2 & C2). rewrite E1 in E2. clear E1 s.
  destruct a as [|x a]; destruct b as [|y b].
  - reflexivity.
  - exfalso. assert (F : Forall blank (l1 ++ [] ++ r1)) by (apply Forall_app; split; [assumption|exact R1]). rewrite E2 in F.
    apply Forall_app in F. destruct F as [_ F]. inversion F. apply (proj1 C2). assumption.
  - exfalso. assert (F : Forall blank (l2 ++ [] ++ r2)) by (apply Forall_app; split; [assumption|exact R2]). rewrite <- E2 in F.
    apply Forall_app in F. destruct F as [_ F]. inversion F. apply (proj1 C1). assumption.
  - destruct (P l1 l2 ((x :: a) ++ r1) ((y :: b) ++ r2) L1 L2 (proj1 C1) (proj1 C2) E2) as [E|[[K _]|[K _]]]; [|discriminate|discriminate].
    assert (E' : rev r1 ++ rev (x :: a) = rev r2 ++ rev (y :: b)) by (rewrite <- !rev_app_distr; now f_equal).
    assert (Q : forall z (w : text), match rev (z :: w) with [] => True | c :: _ => c = last (z :: w) z end).
    { clear. intros z w. destruct (exists_last (l := z :: w) ltac:(discriminate)) as (u & c & E). rewrite E, rev_app_distr. cbn [rev app]. now rewrite last_rev_hd. }
    assert (A1 : match rev (x :: a) with [] => True | c :: _ => ~ blank c end).
    { pose proof (Q x a) as Qa. destruct (rev (x :: a)); [exact I|]. rewrite Qa. apply C1. }
    assert (A2 : match rev (y :: b) with [] => True | c :: _ => ~ blank c end).
    { pose proof (Q y b) as Qb. destruct (rev (y :: b)); [exact I|]. rewrite Qb. apply C2. }
    destruct (P (rev r1) (rev r2) _ _ (Forall_rev R1) (Forall_rev R2) A1 A2 E') as [K|[[K _]|[K _]]].
    + rewrite <- (rev_involutive (x :: a)), K, rev_involutive. reflexivity.
    + apply (f_equal (@length ascii)) in K. rewrite rev_length in K. discriminate.
    + apply (f_equal (@length ascii)) in K. rewrite rev_length in K. discriminate.
Qed.

(* ---------------- dictionaries *)
Notation teq := (list_eq_dec ascii_dec).
Lemma dict_set_keys {V} k (v : V) d : map fst (dict_set k v d) = if in_dec teq k (map fst d) then map fst d else map fst d ++ [k].
Proof.
  induction d as [|[k' v'] d IH]; [reflexivity|]. cbn [dict_set map fst].
  destruct (text_eqb_spec k k') as [->|N]; cbn [map fst].
  - destruct (in_dec teq k' (k' :: map fst d)) as [_|K]; [reflexivity|exfalso; apply K; now left].
  - rewrite IH. destruct (in_dec teq k (map fst d)) as [H|H]; destruct (in_dec teq k (k' :: map fst d)) as [H'|H']; try reflexivity.
    + exfalso. apply H'. now right.
    + exfalso. destruct H' as [->|H']; [now apply N|contradiction].
Qed.
Lemma dict_set_in {V} k (v : V) d k' v' : NoDup (map fst d) -> In (k', v') (dict_set k v d) -> (k' = k /\ v' = v) \/ (k' <> k /\ In (k', v') d).
Proof.
  induction d as [|[k2 v2] d IH]; cbn [dict_set]; intros Nd H.
  - destruct H as [E|[]]. injection E as -> ->. auto.
  - cbn [map fst] in Nd. inversion Nd as [|? ? N1 N2]; subst. destruct (text_eqb_spec k k2) as [->|N].
    + destruct H as [E|H]; [injection E as -> ->; auto|]. right. split; [|now right]. intros ->. apply N1. apply (in_map fst) in H. exact H.
    + destruct H as [E|H]; [injection E as -> ->; right; split; [congruence|now left]|]. destruct (IH N2 H) as [K|[K1 K2]]; [auto|]. right. split; [exact K1|now right].
Qed.
Lemma dict_of_ok {V} (l : list (text * V)) : DictOf l (dict_of l).
Proof.
  unfold dict_of. rewrite <- fold_left_rev_right.
  enough (K : forall r, DictOf (rev r) (fold_right (fun kv d => dict_set (fst kv) (snd kv) d) [] r)) by (specialize (K (rev l)); rewrite rev_involutive in K; exact K).
  induction r as [|[k v] r [IH1 IH2]]; [split; [reflexivity|intros k v []]|]. cbn [fold_right fst snd rev].
  set (d := fold_right _ _ r) in *.
  assert (Nd : NoDup (map fst d)) by (rewrite IH1; apply NoDup_rev, NoDup_nodup).
  split.
  - rewrite dict_set_keys. rewrite map_app, rev_app_distr. cbn [map fst rev app nodup].
    assert (Q : In k (map fst d) <-> In k (rev (map fst (rev r)))) by (rewrite IH1; rewrite <- (in_rev (nodup teq _)); apply nodup_In).
    destruct (in_dec teq k (map fst d)) as [H|H]; destruct (in_dec teq k (rev (map fst (rev r)))) as [H'|H']; try tauto.
    cbn [rev]. now rewrite IH1.
  - intros k' v' H. destruct (dict_set_in _ _ _ _ _ Nd H) as [[-> ->]|[N H']].
    + exists (rev r), []. split; [reflexivity|intros []].
    + destruct (IH2 k' v' H') as (l1 & l2 & E & K). exists l1, (l2 ++ [(k, v)]). split; [rewrite E, <- app_assoc; reflexivity|].
      rewrite map_app. intros J. apply in_app_or in J. destruct J as [J|[J|[]]]; [contradiction|]. cbn in J. congruence.
Qed.
Lemma dict_of_nodup {V} (l d : list (text * V)) : DictOf l d -> NoDup (map fst d).
Proof. intros [-> _]. apply NoDup_rev, NoDup_nodup. Qed.
Lemma dict_of_keys_in {V} (l d : list (text * V)) k : DictOf l d -> In k (map fst d) <-> In k (map fst l).
Proof. intros [-> _]. rewrite <- (in_rev (nodup teq _)), nodup_In, <- in_rev. reflexivity. Qed.
Lemma dict_find_in {V} k (v : V) d : NoDup (map fst d) -> dict_find k d = Some v <-> In (k, v) d.
Proof.
  induction d as [|[k' v'] d IH]; cbn [dict_find map fst]; intros Nd; [split; [discriminate|intros []]|].
  inversion Nd as [|? ? N1 N2]; subst. destruct (text_eqb_spec k k') as [->|N].
  - split; [intros E; injection E as ->; now left|]. intros [E|H]; [injection E as ->; reflexivity|]. exfalso. apply N1. apply (in_map fst) in H. exact H.
  - rewrite (IH N2). split; [now right|]. intros [E|H]; [injection E as -> _; congruence|exact H].
Qed.
Lemma dict_get_ok {V} k (v : V) d : NoDup (map fst d) -> In (k, v) d -> dict_get k d = Ok v.
Proof. intros Nd H. unfold dict_get. apply (dict_find_in k v d Nd) in H. now rewrite H. Qed.

(* ---------------- mapM *)
Lemma mapM_ok {A B} (f : A -> res B) (g : A -> B) l : (forall x, In x l -> f x = Ok (g x)) -> mapM f l = Ok (map g l).
Proof. induction l as [|x l IH]; intros H; [reflexivity|]. cbn [mapM map]. rewrite H by now left. cbn [rbind]. rewrite IH; [reflexivity|]. intros y Hy. apply H. now right. Qed.
Lemma mapM_inv {A B} (f : A -> res B) l r : mapM f l = Ok r -> Forall2 (fun x y => f x = Ok y) l r.
Proof.
  revert r. induction l as [|x l IH]; intros r E; cbn [mapM] in E; [injection E as <-; constructor|].
  destruct (f x) as [y|] eqn:Ex; [|discriminate]. cbn [rbind] in E. destruct (mapM f l) as [ys|]; [|discriminate]. cbn [rbind] in E. injection E as <-. constructor; auto.
Qed.
Lemma mapM_err {A B} (f : A -> res B) l x e : In x l -> f x = Err e -> (forall y e', In y l -> f y = Err e' -> e' = e) -> mapM f l = Err e.
Proof.
  induction l as [|y l IH]; intros H E U; [destruct H|]; cbn [mapM]; destruct H as [->|H].
  - rewrite E. reflexivity.
  - destruct (f y) as [z|e'] eqn:Ey; cbn [rbind]; [|f_equal; apply (U y); [now left|exact Ey]].
    rewrite (IH H E); [reflexivity|]. intros z' e' Hz. apply U. now right.
Qed.
Lemma mapM_length {A B} (f : A -> res B) l r : mapM f l = Ok r -> length r = length l.
Proof. intros E. apply mapM_inv in E. induction E; cbn; congruence. Qed.
Lemma item_nth {A} (l : list A) i x : item l i = Ok x <-> nth_error l i = Some x.
Proof. unfold item. destruct (nth_error l i); split; congruence. Qed.
