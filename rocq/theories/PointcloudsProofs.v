From Coq Require Import List Arith ZArith Bool Lia Field_theory Ring_theory.
From Verif Require Import Res Fld StructUtilsModel StructUtilsProofs PointcloudsModel PointcloudsSpec.
Import ListNotations.
Local Open Scope nat_scope.

(* ---------- quads ---------- *)
Lemma qget_qset_same {X} a (v : X) q : qget a (qset a v q) = v.
Proof. destruct a; reflexivity. Qed.
Lemma qget_qset_other {X} a b (v : X) q : a <> b -> qget a (qset b v q) = qget a q.
Proof. destruct a, b; intros H; try reflexivity; congruence. Qed.
Lemma qset_same {X} a (q : quad X) : qset a (qget a q) q = q.
Proof. destruct a, q; reflexivity. Qed.
Lemma attr_dec (a b : attr) : {a = b} + {a <> b}.
Proof. decide equality. Defined.
Lemma quad_ext {X} (q r : quad X) : (forall a, qget a q = qget a r) -> q = r.
Proof.
  intros H. destruct q as [a1 a2 a3 a4], r as [b1 b2 b3 b4].
  pose proof (H Points) as E1. pose proof (H Normals) as E2. pose proof (H Colors) as E3.
  pose proof (H Features) as E4. cbn in *. congruence.
Qed.

(* ---------- lists ---------- *)
Lemma max_list_biggest l : max_list l = biggest l.
Proof.
  unfold max_list, biggest. rewrite <- fold_left_rev_right.
  assert (G : forall l a, fold_right (fun y x => Nat.max x y) a l = Nat.max a (fold_right Nat.max 0 l)).
  { clear l. induction l as [|x l IH]; intros a; cbn; [lia|rewrite IH; lia]. }
  assert (A : forall l, fold_right Nat.max 0 (rev l) = fold_right Nat.max 0 l).
  { clear l. induction l as [|x l IH]; cbn; [reflexivity|].
    rewrite fold_right_app. cbn.
    assert (K : forall l a, fold_right Nat.max a l = Nat.max a (fold_right Nat.max 0 l)).
    { clear. induction l as [|x l IH]; intros a; cbn; [lia|rewrite IH; lia]. }
    rewrite K, IH. lia. }
  rewrite G, A. lia.
Qed.

Lemma biggest_ge l n : In n l -> n <= biggest l.
Proof.
  induction l as [|x l IH]; cbn; intros H; [tauto|]. unfold biggest in *.
  destruct H as [->|H]; [lia|]. specialize (IH H). lia.
Qed.

Lemma biggest_const l n : l <> [] -> Forall (fun m => m = n) l -> biggest l = n.
Proof.
  intros Hne H. induction H as [|x l Hx Hl IH]; [congruence|].
  change (biggest (x :: l)) with (Nat.max x (biggest l)).
  destruct l as [|y l]; [cbn; lia|]. rewrite IH by discriminate. lia.
Qed.

Lemma biggest_app_ge l1 l2 : biggest (l1 ++ l2) = Nat.max (biggest l1) (biggest l2).
Proof. induction l1 as [|x l IH]; cbn; [reflexivity|]. unfold biggest in *. rewrite IH. lia. Qed.

Lemma all_equal_spec l : all_equal l = true <-> exists n, l <> [] /\ Forall (fun m => m = n) l.
Proof.
  destruct l as [|x l]; cbn; split.
  - discriminate.
  - intros (n & H & _). congruence.
  - intros H. exists x. split; [discriminate|]. constructor; [reflexivity|].
    rewrite forallb_forall in H. apply Forall_forall. intros y Hy.
    specialize (H y Hy). apply Nat.eqb_eq in H. congruence.
  - intros (n & _ & H). inversion H as [|? ? Hx Hl]; subst. apply forallb_forall. intros y Hy.
    rewrite Forall_forall in Hl. apply Nat.eqb_eq. symmetry. auto.
Qed.

Lemma imap_from_length {X Y} (f : nat -> X -> Y) l k : length (imap_from k f l) = length l.
Proof. revert k; induction l as [|x l IH]; intros k; cbn; [reflexivity|now rewrite IH]. Qed.
Lemma imap_length {X Y} (f : nat -> X -> Y) l : length (imap f l) = length l.
Proof. apply imap_from_length. Qed.
Lemma nth_error_imap_from {X Y} (f : nat -> X -> Y) l k i :
  nth_error (imap_from k f l) i = option_map (f (k + i)) (nth_error l i).
Proof.
  revert k i; induction l as [|x l IH]; intros k i; destruct i as [|i]; cbn; try reflexivity.
  - now rewrite Nat.add_0_r.
  - rewrite IH. now replace (S k + i) with (k + S i) by lia.
Qed.
Lemma nth_error_imap {X Y} (f : nat -> X -> Y) l i :
  nth_error (imap f l) i = option_map (f i) (nth_error l i).
Proof. apply nth_error_imap_from. Qed.
Lemma nth_imap {X Y} (f : nat -> X -> Y) l i d d' :
  i < length l -> nth i (imap f l) d' = f i (nth i l d).
Proof.
  intros H. apply nth_error_nth. rewrite nth_error_imap.
  rewrite (nth_error_nth' l d) by exact H. reflexivity.
Qed.
Lemma imap_Forall {X Y} (P : Y -> Prop) (f : nat -> X -> Y) l :
  (forall i x, In x l -> P (f i x)) -> Forall P (imap f l).
Proof.
  unfold imap. generalize 0. induction l as [|x l IH]; intros k H; cbn; constructor.
  - apply H. now left.
  - apply IH. intros i y Hy. apply H. now right.
Qed.
Lemma map_imap {X Y Z} (g : Y -> Z) (f : nat -> X -> Y) l : map g (imap f l) = imap (fun i x => g (f i x)) l.
Proof. unfold imap. generalize 0. induction l as [|x l IH]; intros k; cbn; [reflexivity|]. now rewrite IH. Qed.
Lemma imap_const {X Y} (f : X -> Y) l : imap (fun _ x => f x) l = map f l.
Proof. unfold imap. generalize 0. induction l as [|x l IH]; intros k; cbn; [reflexivity|]. now rewrite IH. Qed.
Lemma imap_ext {X Y} (f g : nat -> X -> Y) l :
  (forall i x, nth_error l i = Some x -> f i x = g i x) -> imap f l = imap g l.
Proof.
  unfold imap. assert (G : forall k, (forall i x, nth_error l i = Some x -> f (k + i) x = g (k + i) x) ->
    imap_from k f l = imap_from k g l).
  { induction l as [|x l IH]; intros k H; cbn; [reflexivity|]. f_equal.
    - specialize (H 0 x eq_refl). now rewrite Nat.add_0_r in H.
    - apply IH. intros i y Hi. specialize (H (S i) y Hi). now replace (S k + i) with (k + S i) by lia. }
  intros H. apply G. exact H.
Qed.
Lemma imap_imap {X Y Z} (g : nat -> Y -> Z) (f : nat -> X -> Y) l :
  imap g (imap f l) = imap (fun i x => g i (f i x)) l.
Proof. unfold imap. generalize 0. induction l as [|x l IH]; intros k; cbn; [reflexivity|]. now rewrite IH. Qed.

Lemma nth_overflow_nil {X} i (d : X) : nth i [] d = d.
Proof. destruct i; reflexivity. Qed.

Section Proofs.
Variable F : Fld.
Add Field Ffield : (fth F).
Notation T2 := (t2 F).
Notation T3 := (t3 F).
Notation pc := (pc F).
Notation batch := (batch F).
Implicit Types (s : pc) (a : batch) (P L : list T2).

Lemma all_none_mode : forall x, qget x (mkQ None None None None : quad (option (list T2))) = None.
Proof. destruct x; reflexivity. Qed.

(* ---------- tensors ---------- *)
Lemma t3_ext (p q : T3) :
  t3wf p -> t3wf q -> t3shape p = t3shape q ->
  (forall b i j, b < t3b p -> i < t3n p -> j < t3c p -> get3 F p b i j = get3 F q b i j) -> p = q.
Proof.
  destruct p as [N C d], q as [N' C' d']. unfold t3shape, t3wf, t3b, get3. cbn [t3n t3c t3d].
  intros Hp Hq E H. inversion E; subst. f_equal.
  apply nth_ext with (d := []) (d' := []); [assumption|]. intros b Hb.
  rewrite Forall_forall in Hp, Hq.
  destruct (Hp (nth b d []) (nth_In _ _ Hb)) as [Hp1 Hp2].
  assert (Hb' : b < length d') by congruence.
  destruct (Hq (nth b d' []) (nth_In _ _ Hb')) as [Hq1 Hq2].
  apply nth_ext with (d := []) (d' := []); [congruence|]. intros i Hi.
  rewrite Forall_forall in Hp2, Hq2.
  assert (Hi' : i < length (nth b d' [])) by congruence.
  pose proof (Hp2 _ (nth_In _ [] Hi)) as Hr. pose proof (Hq2 _ (nth_In _ [] Hi')) as Hr'.
  apply nth_ext with (d := f0) (d' := f0); [congruence|]. intros j Hj.
  apply H; lia.
Qed.

Lemma tab3_shape B N C f : t3shape (tab3 F B N C f) = (B, N, C).
Proof. unfold t3shape, tab3, t3b. cbn. now rewrite map_length, seq_length. Qed.
Lemma tab3_wf B N C f : t3wf (tab3 F B N C f).
Proof.
  unfold t3wf, tab3. cbn. apply Forall_map, Forall_forall. intros b _.
  rewrite map_length, seq_length. split; [reflexivity|].
  apply Forall_map, Forall_forall. intros i _. now rewrite map_length, seq_length.
Qed.
Lemma nth_map_seq {X} (f : nat -> X) n i d : i < n -> nth i (map f (seq 0 n)) d = f i.
Proof.
  intros H. rewrite nth_indep with (d' := f 0) by (now rewrite map_length, seq_length).
  rewrite map_nth. now rewrite seq_nth.
Qed.
Lemma get3_tab3 B N C f b i j :
  b < B -> i < N -> j < C -> get3 F (tab3 F B N C f) b i j = f b i j.
Proof.
  intros Hb Hi Hj. unfold get3, tab3. cbn [t3d].
  rewrite nth_map_seq by exact Hb. rewrite nth_map_seq by exact Hi. now rewrite nth_map_seq.
Qed.
Lemma tab3_ext B N C f g :
  (forall b i j, b < B -> i < N -> j < C -> f b i j = g b i j) -> tab3 F B N C f = tab3 F B N C g.
Proof.
  intros H. unfold tab3. f_equal. apply map_ext_in. intros b Hb. apply map_ext_in. intros i Hi.
  apply map_ext_in. intros j Hj. apply in_seq in Hb, Hi, Hj. apply H; lia.
Qed.

Definition wid_ok (w : nat) L : Prop :=
  Forall (fun y => t2c y = w /\ Forall (fun r => length r = w) (t2r y)) L.

Lemma pad_to_shape N w L : t3shape (pad_to F N w L) = (length L, N, w).
Proof. unfold t3shape, t3b, pad_to. cbn. now rewrite map_length. Qed.
Lemma pad_to_wf N w L :
  wid_ok w L -> Forall (fun y => length (t2r y) <= N) L -> t3wf (pad_to F N w L).
Proof.
  intros Hw Hn. unfold t3wf, pad_to. cbn. apply Forall_map. unfold wid_ok in Hw.
  rewrite Forall_forall in *. intros y Hy. specialize (Hw y Hy). specialize (Hn y Hy).
  rewrite app_length, repeat_length. split; [lia|].
  apply Forall_app. split; [tauto|]. apply Forall_forall. intros r Hr.
  apply repeat_spec in Hr. subst. apply repeat_length.
Qed.
Lemma counts_le L P : counts_of F L = counts_of F P ->
  Forall (fun y => length (t2r y) <= biggest (counts_of F P)) L.
Proof.
  intros H. apply Forall_forall. intros y Hy. apply biggest_ge. rewrite <- H.
  unfold counts_of. apply in_map_iff. eauto.
Qed.

(* rows of the padded tensor *)
Lemma pad_row N w L b i y :
  nth_error L b = Some y -> i < N -> length (t2r y) <= N ->
  nth i (nth b (t3d (pad_to F N w L)) []) [] =
  if i <? length (t2r y) then nth i (t2r y) [] else repeat f0 w.
Proof.
  intros Hb Hi Hn. unfold pad_to. cbn [t3d].
  assert (E : nth b (map (fun y => t2r y ++ repeat (repeat f0 w) (N - length (t2r y))) L) [] =
              t2r y ++ repeat (repeat f0 w) (N - length (t2r y))).
  { apply nth_error_nth. rewrite nth_error_map, Hb. reflexivity. }
  rewrite E. destruct (Nat.ltb_spec i (length (t2r y))) as [Hl|Hl].
  - now rewrite app_nth1.
  - rewrite app_nth2 by exact Hl. apply nth_error_nth. rewrite nth_error_repeat'.
    destruct (Nat.ltb_spec (i - length (t2r y)) (N - length (t2r y))); [reflexivity|lia].
Qed.

Lemma get3_pad N w L b i j y :
  nth_error L b = Some y -> i < N -> length (t2r y) <= N ->
  get3 F (pad_to F N w L) b i j =
  if i <? length (t2r y) then nth j (nth i (t2r y) []) f0 else f0.
Proof.
  intros Hb Hi Hn. unfold get3. rewrite (pad_row N w L b i y Hb Hi Hn).
  destruct (i <? length (t2r y)); [reflexivity|].
  destruct (Nat.lt_ge_cases j w).
  - apply nth_error_nth. rewrite nth_error_repeat'. destruct (Nat.ltb_spec j w); [reflexivity|lia].
  - apply nth_overflow. rewrite repeat_length. lia.
Qed.

Lemma fill_slab_pad_to N w L :
  wid_ok w L -> Forall (fun y => length (t2r y) <= N) L ->
  map (fun y => fill_slab f0 N w (t2r y)) L = t3d (pad_to F N w L).
Proof.
  intros Hw Hn. unfold pad_to. cbn [t3d]. apply map_ext_in. intros y Hy.
  unfold wid_ok in Hw. rewrite Forall_forall in *. apply fill_slab_simple; [now apply Hn|now apply Hw].
Qed.

Lemma l2p_ok L P w :
  P <> [] -> counts_of F L = counts_of F P -> wid_ok w L ->
  list_to_padded L (Some [biggest (counts_of F P); w]) f0 (all_equal (counts_of F P)) =
  Ok (pad_to F (biggest (counts_of F P)) w L).
Proof.
  intros Hne Hc Hw. set (N := biggest (counts_of F P)).
  assert (HL : L <> []).
  { intros ->. destruct P; [congruence|discriminate]. }
  pose proof (counts_le L P Hc) as Hle. fold N in Hle.
  destruct (all_equal (counts_of F P)) eqn:E.
  - apply all_equal_spec in E. destruct E as (n & _ & Hn).
    assert (HN : N = n).
    { apply biggest_const; [|exact Hn]. destruct P; [congruence|discriminate]. }
    assert (HLn : Forall (fun y => length (t2r y) = n) L).
    { rewrite <- Hc in Hn. unfold counts_of in Hn. now rewrite Forall_map in Hn. }
    unfold list_to_padded, stack. destruct L as [|y L0]; [congruence|].
    assert (Ef : forallb (fun z => pair_eqb (t2shape z) (t2shape y)) (y :: L0) = true).
    { apply forallb_forall. intros z Hz. unfold pair_eqb, t2shape, t2n. cbn [fst snd].
      unfold wid_ok in Hw. rewrite Forall_forall in HLn, Hw.
      rewrite (HLn z Hz), (HLn y (or_introl eq_refl)).
      rewrite (proj1 (Hw z Hz)), (proj1 (Hw y (or_introl eq_refl))).
      now rewrite !Nat.eqb_refl. }
    rewrite Ef. f_equal. unfold pad_to. f_equal.
    + unfold t2n. rewrite HN. rewrite Forall_forall in HLn. apply (HLn y (or_introl eq_refl)).
    + unfold wid_ok in Hw. rewrite Forall_forall in Hw. apply (Hw y (or_introl eq_refl)).
    + apply map_ext_in. intros z Hz. rewrite Forall_forall in HLn.
      replace (N - length (t2r z)) with 0 by (rewrite (HLn z Hz); lia). cbn. now rewrite app_nil_r.
  - rewrite list_to_padded_fits; [|exact HL|].
    + rewrite fill_slab_pad_to by assumption. reflexivity.
    + unfold StructUtilsSpec.fits. unfold wid_ok in Hw. rewrite Forall_forall in *.
      intros y Hy. split; [now apply Hle|]. destruct (Hw y Hy) as [-> _]. lia.
Qed.

Lemma unpad_pad N w L ns :
  counts_of F L = ns -> wid_ok w L -> Forall (fun y => length (t2r y) <= N) L ->
  unpad F ns (pad_to F N w L) = L.
Proof.
  intros Hc Hw Hn. subst ns. unfold unpad, pad_to. cbn [t3d t3c].
  induction L as [|y L IH]; cbn; [reflexivity|].
  inversion Hw as [|? ? [Hy1 Hy2] Hw']; subst. inversion Hn; subst. f_equal.
  - destruct y as [c r]. cbn in *. f_equal. rewrite firstn_app, Nat.sub_diag, firstn_all. cbn.
    apply app_nil_r.
  - apply IH; assumption.
Qed.

(* ---------- representation invariant ---------- *)
Record RepN P a s : Prop := mkRepN {
  rn_valid : valid_batch F P a;
  rn_num : num F s = counts_of F P;
  rn_bat : bat F s = length P;
  rn_nmax : nmax F s = biggest (counts_of F P);
  rn_equi : equi F s = Some (all_equal (counts_of F P));
  rn_flg : forall x, qget x (flg F s) = None \/ qget x (flg F s) = Some (is_some (qget x a));
  rn_mask : mask F s = None \/ mask F s = mask_view F a;
  rn_lst : forall x, qget x (lst F s) = None \/ qget x (lst F s) = qget x a;
  rn_abs : forall x, qget x a = None -> qget x (pad F s) = None;
  rn_mode :
    (qp (pad F s) = None /\ (forall x, qget x (lst F s) = qget x a) /\
     (forall fp, qf (pad F s) = Some fp -> t3c fp = width F a Features))
    \/ (forall x, qget x (pad F s) = padded_view F a x)
}.

Record Rep0 s : Prop := mkRep0 {
  r0_lst : forall x, qget x (lst F s) = None;
  r0_pad : forall x, qget x (pad F s) = None;
  r0_mask : mask F s = None;
  r0_flg : forall x, qget x (flg F s) = None \/ qget x (flg F s) = Some false;
  r0_num : num F s = [0];
  r0_bat : bat F s = 0;
  r0_nmax : nmax F s = 0;
  r0_equi : equi F s = None
}.

Definition Rep a s : Prop :=
  match qp a with None => a = no_batch F /\ Rep0 s | Some P => RepN P a s end.

Lemma valid_len P a x L : valid_batch F P a -> qget x a = Some L -> length L = length P.
Proof.
  intros (_ & _ & H) HL. destruct (H x L HL) as [Hc _].
  apply (f_equal (@length nat)) in Hc. unfold counts_of in Hc. now rewrite !map_length in Hc.
Qed.
Lemma valid_wid P a x L : valid_batch F P a -> qget x a = Some L -> wid_ok (width F a x) L.
Proof. intros (_ & _ & H) HL. apply (H x L HL). Qed.
Lemma valid_counts P a x L : valid_batch F P a -> qget x a = Some L -> counts_of F L = counts_of F P.
Proof. intros (_ & _ & H) HL. apply (H x L HL). Qed.
Lemma valid_qp P a : valid_batch F P a -> qp a = Some P.
Proof. intros (H & _). exact H. Qed.
Lemma valid_ne P a : valid_batch F P a -> P <> [].
Proof. intros (_ & H & _). exact H. Qed.

Lemma padded_some P a x L :
  valid_batch F P a -> qget x a = Some L ->
  padded_view F a x = Some (pad_to F (biggest (counts_of F P)) (width F a x) L).
Proof. intros Hv HL. unfold padded_view. rewrite (valid_qp _ _ Hv), HL. reflexivity. Qed.
Lemma padded_none P a x : valid_batch F P a -> qget x a = None -> padded_view F a x = None.
Proof. intros Hv HL. unfold padded_view. rewrite (valid_qp _ _ Hv), HL. reflexivity. Qed.

(* flags changes only *)
Lemma RepN_with_flg P a s f :
  RepN P a s -> (forall x, qget x f = None \/ qget x f = Some (is_some (qget x a))) ->
  RepN P a (with_flg F f s).
Proof. intros H Hf. destruct H. constructor; cbn; auto. Qed.

Lemma has_ok P a s x :
  RepN P a s ->
  exists f, has F x s = (Ok (is_some (qget x a)), with_flg F f s) /\ RepN P a (with_flg F f s).
Proof.
  intros H. unfold has, mbind, get.
  destruct (qget x (flg F s)) as [b|] eqn:E.
  - exists (flg F s). destruct (rn_flg _ _ _ H x) as [E'|E']; rewrite E in E'; [discriminate|].
    inversion E'; subst. split; [destruct s; reflexivity|]. apply RepN_with_flg; [exact H|apply H].
  - assert (Eb : is_some (qget x (lst F s)) || is_some (qget x (pad F s)) = is_some (qget x a)).
    { destruct (qget x a) as [L|] eqn:EL; cbn.
      - destruct (rn_mode _ _ _ H) as [(_ & Hm & _)|Hm].
        + rewrite Hm, EL. reflexivity.
        + rewrite Hm. rewrite (padded_some _ _ _ _ (rn_valid _ _ _ H) EL). cbn. apply orb_true_r.
      - rewrite (rn_abs _ _ _ H x EL).
        destruct (rn_lst _ _ _ H x) as [->| ->]; [reflexivity|rewrite EL; reflexivity]. }
    cbn. rewrite Eb. exists (qset x (Some (is_some (qget x a))) (flg F s)). split; [reflexivity|].
    apply RepN_with_flg; [exact H|]. intros y. destruct (attr_dec y x) as [->|Hn].
    + right. now rewrite qget_qset_same.
    + rewrite qget_qset_other by exact Hn. apply H.
Qed.

Lemma RepN_hasP P a s : RepN P a s -> is_some (qget Points a) = true.
Proof. intros H. cbn. now rewrite (valid_qp _ _ (rn_valid _ _ _ H)). Qed.

Lemma RepN_set_lst P a s x :
  RepN P a s -> RepN P a (set_lst F x (qget x a) s).
Proof.
  intros H. destruct H as [H1 H2 H3 H4 H5 H6 H7 H8 H9 H10]. constructor; auto.
  - intros y. cbn. destruct (attr_dec y x) as [->|Hn].
    + right. now rewrite qget_qset_same.
    + rewrite qget_qset_other by exact Hn. apply H8.
  - cbn. destruct H10 as [(A & B & C)|B]; [left|right; exact B].
    repeat split; auto. intros y. destruct (attr_dec y x) as [->|Hn].
    + now rewrite qget_qset_same.
    + rewrite qget_qset_other by exact Hn. apply B.
Qed.

Lemma get_list_ok P a s x :
  RepN P a s ->
  get_list F x s = (Ok (qget x a), set_lst F x (qget x a) s) /\ RepN P a (set_lst F x (qget x a) s).
Proof.
  intros H. split; [|now apply RepN_set_lst].
  unfold get_list, mbind, get.
  assert (Same : qget x (lst F s) = qget x a -> s = set_lst F x (qget x a) s).
  { intros E. rewrite <- E. unfold set_lst. rewrite qset_same. destruct s; reflexivity. }
  destruct (qget x (lst F s)) as [l|] eqn:El.
  - destruct (rn_lst _ _ _ H x) as [E|E]; rewrite El in E; [discriminate|].
    rewrite E. unfold ret. rewrite <- Same by congruence. reflexivity.
  - destruct (qget x (pad F s)) as [p|] eqn:Ep.
    + destruct (qget x a) as [L|] eqn:EL.
      2:{ rewrite (rn_abs _ _ _ H x EL) in Ep. discriminate. }
      destruct (rn_mode _ _ _ H) as [(_ & Hm & _)|Hm].
      { rewrite Hm in El. congruence. }
      pose proof (rn_valid _ _ _ H) as Hv.
      rewrite Hm, (padded_some _ _ _ _ Hv EL) in Ep. inversion Ep; subst p.
      assert (Eb : t3b (pad_to F (biggest (counts_of F P)) (width F a x) L) = bat F s).
      { unfold t3b, pad_to. cbn. rewrite map_length, (valid_len _ _ _ _ Hv EL). symmetry. apply H. }
      rewrite Eb, Nat.eqb_refl. cbn [negb].
      assert (Hl : bat F s <=? length (num F s) = true).
      { rewrite (rn_num _ _ _ H), (rn_bat _ _ _ H). unfold counts_of. rewrite map_length.
        apply Nat.leb_refl. }
      rewrite Hl. cbn [negb].
      rewrite (rn_num _ _ _ H), (unpad_pad _ _ L).
      * reflexivity.
      * apply (valid_counts _ _ _ _ Hv EL).
      * apply (valid_wid _ _ _ _ Hv EL).
      * apply counts_le. apply (valid_counts _ _ _ _ Hv EL).
    + destruct (qget x a) as [L|] eqn:EL.
      * destruct (rn_mode _ _ _ H) as [(_ & Hm & _)|Hm].
        -- rewrite Hm in El. congruence.
        -- rewrite Hm, (padded_some _ _ _ _ (rn_valid _ _ _ H) EL) in Ep. discriminate.
      * unfold ret. rewrite <- Same by congruence. reflexivity.
Qed.

(* ---------- padded ---------- *)
Lemma pad_attr_some P a s x L (w : M pc nat) f :
  RepN P a s -> qget x (lst F s) = Some L -> qget x a = Some L ->
  w s = (Ok (width F a x), with_flg F f s) ->
  pad_attr F x w s =
  (Ok tt, set_pad F x (Some (pad_to F (biggest (counts_of F P)) (width F a x) L)) (with_flg F f s)).
Proof.
  intros H El EL Ew. unfold pad_attr, mbind, get. rewrite El, Ew. unfold lift. cbn [nmax equi with_flg].
  rewrite (rn_nmax _ _ _ H), (rn_equi _ _ _ H). pose proof (rn_valid _ _ _ H) as Hv.
  replace (truthy (Some (all_equal (counts_of F P)))) with (all_equal (counts_of F P))
    by (now destruct (all_equal _)).
  rewrite l2p_ok; [reflexivity| | |].
  - apply (valid_ne _ _ Hv).
  - apply (valid_counts _ _ _ _ Hv EL).
  - apply (valid_wid _ _ _ _ Hv EL).
Qed.
Lemma pad_attr_none s x w : qget x (lst F s) = None -> pad_attr F x w s = (Ok tt, set_pad F x None s).
Proof. intros E. unfold pad_attr, mbind, get. rewrite E. reflexivity. Qed.

Lemma num_features_ok P a s :
  RepN P a s -> (forall x, qget x (lst F s) = qget x a) \/ (forall x, qget x (pad F s) = padded_view F a x) ->
  (forall fp, qf (pad F s) = Some fp -> t3c fp = width F a Features) ->
  exists f, num_features F s = (Ok (Some (width F a Features)), with_flg F f s) /\
            RepN P a (with_flg F f s).
Proof.
  intros H Hm Hfp. destruct (has_ok P a s Features H) as (f & Eh & Hr).
  unfold num_features, mbind. rewrite Eh. exists f. split; [|exact Hr].
  cbn [qget is_some].
  destruct (qf a) as [L|] eqn:EL; cbn [is_some negb].
  - unfold get. cbn [pad lst with_flg]. destruct (qf (pad F s)) as [p|] eqn:Ep.
    + rewrite (Hfp p eq_refl). reflexivity.
    + assert (El : qf (lst F s) = Some L).
      { destruct Hm as [Hm|Hm].
        - pose proof (Hm Features) as E. cbn in E. congruence.
        - pose proof (Hm Features) as E. cbn in E. rewrite Ep in E.
          rewrite (padded_some P a Features L (rn_valid _ _ _ H)) in E; [discriminate|exact EL]. }
      rewrite El. destruct L as [|y L].
      * pose proof (valid_len _ _ Features _ (rn_valid _ _ _ H) EL) as Hlen. cbn in Hlen.
        pose proof (valid_ne _ _ (rn_valid _ _ _ H)) as Hne. destruct P; [congruence|discriminate].
      * unfold width. rewrite EL. reflexivity.
  - unfold ret, width. rewrite EL. reflexivity.
Qed.

Definition flags_ok a (f : quad (option bool)) : Prop :=
  forall y, qget y f = None \/ qget y f = Some (is_some (qget y a)).

Lemma has_gen a s x :
  flags_ok a (flg F s) ->
  is_some (qget x (lst F s)) || is_some (qget x (pad F s)) = is_some (qget x a) ->
  exists f, has F x s = (Ok (is_some (qget x a)), with_flg F f s) /\ flags_ok a f.
Proof.
  intros Hf Eb. unfold has, mbind, get. destruct (qget x (flg F s)) as [b|] eqn:E.
  - exists (flg F s). destruct (Hf x) as [E'|E']; rewrite E in E'; [discriminate|].
    inversion E'; subst. split; [destruct s; reflexivity|exact Hf].
  - rewrite Eb. exists (qset x (Some (is_some (qget x a))) (flg F s)). split; [reflexivity|].
    intros y. destruct (attr_dec y x) as [->|Hn].
    + right. now rewrite qget_qset_same.
    + rewrite qget_qset_other by exact Hn. apply Hf.
Qed.

Lemma num_features_gen a s L :
  flags_ok a (flg F s) -> qf (lst F s) = Some L -> qf a = Some L -> L <> [] ->
  (forall fp, qf (pad F s) = Some fp -> t3c fp = width F a Features) ->
  exists f, num_features F s = (Ok (Some (width F a Features)), with_flg F f s) /\ flags_ok a f.
Proof.
  intros Hf El EL Hne Hfp.
  destruct (has_gen a s Features Hf) as (f & Eh & Hf').
  { cbn. now rewrite El, EL. }
  exists f. split; [|exact Hf']. unfold num_features, mbind at 1. rewrite Eh. cbn [qget].
  rewrite EL. cbn [is_some negb]. unfold mbind, get. cbn [pad lst with_flg].
  destruct (qf (pad F s)) as [p|].
  - now rewrite (Hfp p eq_refl).
  - rewrite El. destruct L as [|y L]; [congruence|]. unfold width. rewrite EL. reflexivity.
Qed.

Lemma compute_padded_ok P a s :
  RepN P a s ->
  exists s', compute_padded F s = (Ok tt, s') /\ RepN P a s' /\
    (forall x, qget x (pad F s') = padded_view F a x) /\
    lst F s' = lst F s /\ mask F s' = mask F s.
Proof.
  intros H. pose proof (rn_valid _ _ _ H) as Hv. pose proof (valid_qp _ _ Hv) as HqP.
  destruct (has_ok P a s Points H) as (f & Eh & Hr).
  rewrite (RepN_hasP _ _ _ H) in Eh.
  unfold compute_padded, mbind at 1. rewrite Eh. cbn [negb].
  destruct (rn_mode _ _ _ H) as [(Hp & Hl & Hfp)|Hm].
  2:{ exists (with_flg F f s). unfold mbind, get. cbn [pad with_flg].
      pose proof (Hm Points) as E. cbn in E.
      rewrite E, (padded_some P a Points P Hv HqP). cbn [is_some].
      split; [reflexivity|]. split; [exact Hr|]. split; [exact Hm|]. split; reflexivity. }
  unfold mbind at 1, get. cbn [pad lst with_flg]. rewrite Hp. cbn [is_some].
  pose proof (Hl Points) as ElP. cbn in ElP. rewrite HqP in ElP. rewrite ElP.
  set (N := biggest (counts_of F P)) in *.
  (* points *)
  unfold mbind at 1.
  rewrite (pad_attr_some P a (with_flg F f s) Points P (ret 3) f); auto.
  (* a generic step for an attribute with constant width *)
  set (s1 := set_pad F Points _ _).
  assert (Step : forall x s0 (wd : M pc nat) f0,
            RepN P a (with_pad F (pad F s) s0) ->
            qget x (lst F s0) = qget x a ->
            wd s0 = (Ok (width F a x), with_flg F f0 s0) ->
            (qget x a = None -> f0 = flg F s0) ->
            pad_attr F x wd s0 = (Ok tt, set_pad F x (padded_view F a x)
              (with_flg F (match qget x a with None => flg F s0 | _ => f0 end) s0))).
  { intros x s0 wd f0 Hrep El Ew Hn. destruct (qget x a) as [L|] eqn:EL.
    - rewrite (padded_some P a x L Hv EL).
      unfold pad_attr, mbind, get. rewrite El, Ew. unfold lift. cbn [nmax equi with_flg].
      replace (nmax F s0) with N by (symmetry; apply (rn_nmax _ _ _ Hrep)).
      replace (equi F s0) with (Some (all_equal (counts_of F P))) by (symmetry; apply (rn_equi _ _ _ Hrep)).
      replace (truthy (Some (all_equal (counts_of F P)))) with (all_equal (counts_of F P))
        by (now destruct (all_equal _)).
      unfold N. rewrite l2p_ok; [reflexivity|apply (valid_ne _ _ Hv)| |].
      + apply (valid_counts _ _ _ _ Hv EL).
      + apply (valid_wid _ _ _ _ Hv EL).
    - rewrite pad_attr_none by congruence. rewrite (padded_none P a x Hv EL). destruct s0; reflexivity. }
  assert (HR : forall p, RepN P a (with_pad F (pad F s) (with_pad F p (with_flg F f s)))).
  { intros p. destruct s; exact Hr. }
  (* normals *)
  unfold mbind at 1.
  rewrite (Step Normals s1 (ret 3) (flg F s1)); [| |apply Hl|unfold s1; destruct s; reflexivity|reflexivity].
  2:{ unfold s1. destruct s; exact Hr. }
  set (s2 := set_pad F Normals _ _).
  unfold mbind at 1.
  assert (Hs2 : with_pad F (pad F s) s2 = with_flg F f s).
  { unfold s2, s1. destruct s; cbn. destruct (qn a); reflexivity. }
  rewrite (Step Colors s2 (ret 3) (flg F s2)); [|rewrite Hs2; exact Hr|apply Hl|unfold s2, s1; destruct s; cbn; reflexivity|reflexivity].
  set (s3 := set_pad F Colors _ _).
  assert (Hs3 : with_pad F (pad F s) s3 = with_flg F f s).
  { unfold s3, s2, s1. destruct s; cbn. destruct (qn a), (qc a); reflexivity. }
  assert (Hq3 : qf (pad F s3) = qf (pad F s)) by reflexivity.
  assert (Hl3 : lst F s3 = lst F s) by reflexivity.
  destruct (qf a) as [L|] eqn:EL.
  - (* features present: num_features *)
    assert (Hnf : exists f', num_features F s3 = (Ok (Some (width F a Features)), with_flg F f' s3) /\
                   (forall y, qget y f' = None \/ qget y f' = Some (is_some (qget y a)))).
    { apply (num_features_gen a s3 L).
      - assert (Efl : flg F s3 = f) by (unfold s3, s2, s1; destruct s; cbn; destruct (qn a), (qc a); reflexivity).
        rewrite Efl. intros y. apply (rn_flg _ _ _ Hr).
      - rewrite Hl3. pose proof (Hl Features) as E. cbn in E. congruence.
      - exact EL.
      - intros ->. pose proof (valid_len _ _ Features _ Hv EL) as Hlen. cbn in Hlen.
        pose proof (valid_ne _ _ Hv) as Hne. destruct P; [congruence|discriminate].
      - rewrite Hq3. exact Hfp. }
    destruct Hnf as (f' & Enf & Hf').
    rewrite (Step Features s3 _ f'); [|rewrite Hs3; exact Hr|apply Hl| |cbn; congruence].
    2:{ unfold mbind. rewrite Enf. reflexivity. }
    eexists. split; [reflexivity|].
    assert (Hpads : forall x, qget x (pad F (set_pad F Features (padded_view F a Features)
               (with_flg F match qget Features a with Some _ => f' | None => flg F s3 end s3))) = padded_view F a x).
    { intros x. unfold s3, s2, s1. destruct x; cbn; try reflexivity.
      symmetry. apply (padded_some P a Points P Hv HqP). }
    split; [|split; [exact Hpads|split; [reflexivity|reflexivity]]].
    constructor; try (apply Hr); auto.
    + cbn. rewrite EL. exact Hf'.
    + intros x Hx. rewrite Hpads. apply (padded_none P); assumption.
  - rewrite pad_attr_none by (rewrite Hl3, Hl; exact EL).
    eexists. split; [reflexivity|].
    assert (Hpads : forall x, qget x (pad F (set_pad F Features None s3)) = padded_view F a x).
    { intros x. unfold s3, s2, s1. destruct x; cbn; try reflexivity.
      - symmetry. apply (padded_some P a Points P Hv HqP).
      - symmetry. apply (padded_none P a Features Hv EL). }
    split; [|split; [exact Hpads|split; [reflexivity|reflexivity]]].
    constructor; try (apply Hr); auto.
    + cbn. unfold s3, s2, s1. cbn. destruct (qn a), (qc a); cbn; apply Hr.
    + intros x Hx. rewrite Hpads. apply (padded_none P); assumption.
Qed.

Lemma get_padded_ok P a s x :
  RepN P a s ->
  exists s', get_padded F x s = (Ok (padded_view F a x), s') /\ RepN P a s' /\
    (forall x, qget x (pad F s') = padded_view F a x) /\ lst F s' = lst F s /\ mask F s' = mask F s.
Proof.
  intros H. destruct (compute_padded_ok P a s H) as (s' & E & Hr & Hp & Hl & Hm).
  exists s'. unfold get_padded, mbind, get. rewrite E. unfold ret. rewrite Hp. auto.
Qed.

(* ---------- mask ---------- *)
Lemma mask_row_spec n N : n <= N -> mask_row n N = repeat true n ++ repeat false (N - n).
Proof.
  intros H. unfold mask_row.
  apply nth_ext with (d := false) (d' := false).
  - rewrite map_length, seq_length, app_length, !repeat_length. lia.
  - intros i Hi. rewrite map_length, seq_length in Hi. rewrite nth_map_seq by exact Hi.
    destruct (Nat.ltb_spec i n).
    + rewrite app_nth1 by (now rewrite repeat_length). symmetry. apply nth_error_nth.
      rewrite nth_error_repeat'. destruct (Nat.ltb_spec i n); [reflexivity|lia].
    + rewrite app_nth2 by (rewrite repeat_length; lia). rewrite repeat_length.
      symmetry. apply nth_error_nth. rewrite nth_error_repeat'.
      destruct (Nat.ltb_spec (i - n) (N - n)); [reflexivity|lia].
Qed.

Lemma map_const_repeat {X Y} (f : X -> Y) l y : Forall (fun x => f x = y) l -> map f l = repeat y (length l).
Proof. induction 1 as [|x l Hx _ IH]; cbn; congruence. Qed.

Lemma nonpad_mask_ok P a s :
  RepN P a s ->
  exists s', nonpad_mask F s = (Ok (mask_view F a), s') /\ RepN P a s' /\
    lst F s' = lst F s /\ pad F s' = pad F s.
Proof.
  intros H. pose proof (rn_valid _ _ _ H) as Hv.
  unfold nonpad_mask, mbind at 1, get. destruct (mask F s) as [m|] eqn:Em.
  - destruct (rn_mask _ _ _ H) as [E|E]; rewrite Em in E; [discriminate|].
    exists s. rewrite <- E. split; [reflexivity|]. split; [exact H|]. split; reflexivity.
  - destruct (has_ok P a s Points H) as (f & Eh & Hr). rewrite (RepN_hasP _ _ _ H) in Eh.
    unfold mbind at 1. rewrite Eh. cbn [negb].
    assert (Hmv : mask_view F a = Some (map (fun n => mask_row n (biggest (counts_of F P))) (counts_of F P))).
    { unfold mask_view. rewrite (valid_qp _ _ Hv). cbn. f_equal. apply map_ext_in. intros n Hn.
      symmetry. apply mask_row_spec. now apply biggest_ge. }
    assert (Hmr : RepN P a (with_mask F (mask_view F a) (with_flg F f s))).
    { destruct Hr. constructor; cbn in *; auto. }
    rewrite (rn_equi _ _ _ H). destruct (all_equal (counts_of F P)) eqn:Ea; cbn [truthy].
    + apply all_equal_spec in Ea. destruct Ea as (n & Hne & Hn).
      rewrite (rn_num _ _ _ H). destruct (counts_of F P) as [|n0 ns] eqn:Ec; [congruence|].
      assert (Em' : Some (repeat (mask_row n0 (nmax F s)) (bat F s)) = mask_view F a).
      { rewrite Hmv. f_equal. rewrite (rn_nmax _ _ _ H), (rn_bat _ _ _ H), Ec.
        rewrite (map_const_repeat _ _ (mask_row n0 (biggest (n0 :: ns)))).
        - f_equal. rewrite <- Ec. unfold counts_of. now rewrite map_length.
        - inversion Hn; subst. eapply Forall_impl; [|exact Hn]. cbn. intros k ->. reflexivity. }
      cbv zeta. rewrite Em'. unfold mbind, modify, ret.
      eexists; split; [reflexivity|]. split; [|split; reflexivity].
      exact Hmr.
    + assert (Hb : bat F s <=? length (num F s) = true).
      { rewrite (rn_num _ _ _ H), (rn_bat _ _ _ H). unfold counts_of. rewrite map_length. apply Nat.leb_refl. }
      rewrite Hb. cbn [negb].
      assert (Em' : Some (map (fun n => mask_row n (nmax F s)) (firstn (bat F s) (num F s))) = mask_view F a).
      { rewrite Hmv. f_equal. rewrite (rn_nmax _ _ _ H), (rn_bat _ _ _ H), (rn_num _ _ _ H). f_equal.
        apply firstn_all2. unfold counts_of. rewrite map_length. lia. }
      cbv zeta. rewrite Em'. unfold mbind, modify, ret. eexists; split; [reflexivity|]. split; [|split; reflexivity].
      exact Hmr.
Qed.

(* ---------- empty ---------- *)
Lemma has0 s x : Rep0 s -> exists f, has F x s = (Ok false, with_flg F f s) /\ Rep0 (with_flg F f s).
Proof.
  intros H. unfold has, mbind, get. destruct (qget x (flg F s)) as [b|] eqn:E.
  - exists (flg F s). destruct (r0_flg _ H x) as [E'|E']; rewrite E in E'; [discriminate|].
    inversion E'; subst. split; [destruct s; reflexivity|]. destruct H; constructor; cbn; auto.
  - rewrite (r0_lst _ H x), (r0_pad _ H x). cbn.
    exists (qset x (Some false) (flg F s)). split; [reflexivity|]. destruct H; constructor; cbn; auto.
    intros y. destruct (attr_dec y x) as [->|Hn].
    + right. now rewrite qget_qset_same.
    + rewrite qget_qset_other by exact Hn. auto.
Qed.
Lemma get_list0 s x : Rep0 s -> get_list F x s = (Ok None, s).
Proof.
  intros H. unfold get_list, mbind, get. now rewrite (r0_lst _ H x), (r0_pad _ H x).
Qed.
Lemma compute_padded0 s : Rep0 s -> exists f, compute_padded F s = (Ok tt, with_flg F f s) /\ Rep0 (with_flg F f s).
Proof.
  intros H. destruct (has0 s Points H) as (f & E & Hr). exists f. unfold compute_padded, mbind. rewrite E.
  split; [reflexivity|exact Hr].
Qed.
Lemma get_padded0 s x : Rep0 s -> exists f, get_padded F x s = (Ok None, with_flg F f s) /\ Rep0 (with_flg F f s).
Proof.
  intros H. destruct (compute_padded0 s H) as (f & E & Hr). exists f.
  unfold get_padded, mbind, get. rewrite E. unfold ret. rewrite (r0_pad _ Hr x). auto.
Qed.
Lemma nonpad_mask0 s : Rep0 s -> exists f, nonpad_mask F s = (Ok None, with_flg F f s) /\ Rep0 (with_flg F f s).
Proof.
  intros H. destruct (has0 s Points H) as (f & E & Hr). exists f.
  unfold nonpad_mask, mbind, get. rewrite (r0_mask _ H), E. split; [reflexivity|exact Hr].
Qed.

(* ---------- Rep implies Shows ---------- *)
Lemma Rep_Shows a s : Rep a s -> Shows F s a.
Proof.
  unfold Rep. destruct (qp a) as [P|] eqn:EP; intros H.
  - pose proof (rn_valid _ _ _ H) as Hv.
    split; [|split; [|split; [|split; [|split]]]].
    + intros x. destruct (get_list_ok P a s x H) as [-> _]. reflexivity.
    + intros x. destruct (get_padded_ok P a s x H) as (s' & -> & _). reflexivity.
    + intros x. destruct (has_ok P a s x H) as (f & -> & _). reflexivity.
    + destruct (nonpad_mask_ok P a s H) as (s' & -> & _). reflexivity.
    + unfold num_points, counts_view. rewrite EP. apply H.
    + unfold len, len_view. rewrite EP. apply H.
  - destruct H as [-> H].
    split; [|split; [|split; [|split; [|split]]]].
    + intros x. rewrite (get_list0 s x H). destruct x; reflexivity.
    + intros x. destruct (get_padded0 s x H) as (f & -> & _). reflexivity.
    + intros x. destruct (has0 s x H) as (f & -> & _). destruct x; reflexivity.
    + destruct (nonpad_mask0 s H) as (f & -> & _). reflexivity.
    + apply H.
    + apply H.
Qed.

Lemma Shows_unique s a b : Shows F s a -> Shows F s b -> a = b.
Proof.
  intros (Ha & _) (Hb & _). apply quad_ext. intros x. specialize (Ha x). specialize (Hb x). congruence.
Qed.

Lemma Rep_Batch a s : Rep a s -> Batch F a.
Proof. unfold Rep, Batch. destruct (qp a); intros H; [apply H|tauto]. Qed.

End Proofs.
