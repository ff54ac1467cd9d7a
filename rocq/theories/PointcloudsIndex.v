(* __getitem__. *)
From Coq Require Import List Arith ZArith Bool Lia Sorting.Sorted.
From Verif Require Import Res Fld StructUtilsModel StructUtilsProofs PointcloudsModel PointcloudsSpec
  PointcloudsCtorSpec PointcloudsIndexSpec PointcloudsProofs PointcloudsOps PointcloudsCtor.
Import ListNotations.
Local Open Scope nat_scope.

Lemma py_nth_resolves {X} (l : list X) i k : resolves (length l) i k ->
  exists y, nth_error l k = Some y /\ py_nth l i = Ok y.
Proof.
  intros [Hk Hi]. destruct (nth_error l k) as [y|] eqn:E; [|apply nth_error_None in E; lia].
  exists y. split; [reflexivity|]. unfold py_nth.
  assert (Ej : (if (i <? 0)%Z then (i + Z.of_nat (length l))%Z else i) = Z.of_nat k).
  { destruct (Z.ltb_spec i 0); lia. }
  rewrite Ej. destruct (Z.leb_spec 0 (Z.of_nat k)); [|lia].
  destruct (Z.ltb_spec (Z.of_nat k) (Z.of_nat (length l))); [|lia]. cbn [andb]. rewrite Nat2Z.id, E. reflexivity.
Qed.
Lemma py_nth_ok {X} (l : list X) i y : py_nth l i = Ok y -> exists k, resolves (length l) i k /\ nth_error l k = Some y.
Proof.
  unfold py_nth. set (j := if (i <? 0)%Z then (i + Z.of_nat (length l))%Z else i).
  destruct (Z.leb_spec 0 j); [|discriminate]. destruct (Z.ltb_spec j (Z.of_nat (length l))); [|discriminate]. cbn [andb].
  destruct (nth_error l (Z.to_nat j)) as [z|] eqn:E; [|discriminate]. intros H1. inversion H1; subst z.
  exists (Z.to_nat j). split; [|exact E]. unfold resolves. unfold j in *. destruct (Z.ltb_spec i 0); lia.
Qed.
Lemma py_nth_err {X} (l : list X) i e : py_nth l i = Err e -> e = IndexError.
Proof.
  unfold py_nth. set (j := if (i <? 0)%Z then (i + Z.of_nat (length l))%Z else i).
  destruct ((0 <=? j) && (j <? Z.of_nat (length l)))%Z.
  - destruct (nth_error l (Z.to_nat j)); intros H; inversion H; reflexivity.
  - intros H; inversion H; reflexivity.
Qed.

Lemma select_list {X} (l : list X) zs ks : Forall2 (resolves (length l)) zs ks ->
  exists l', mapM (py_nth l) zs = Ok l' /\ map Some l' = map (nth_error l) ks.
Proof.
  induction 1 as [|i k zs ks Hik _ (l' & E & Em)]; [exists []; auto|].
  destruct (py_nth_resolves l i k Hik) as (y & Ey & Ep). exists (y :: l'). cbn. rewrite Ep, E. cbn.
  split; [reflexivity|]. now rewrite Ey, Em.
Qed.
Lemma select_list_inv {X} (l l' : list X) zs : mapM (py_nth l) zs = Ok l' ->
  exists ks, Forall2 (resolves (length l)) zs ks.
Proof.
  revert l'. induction zs as [|i zs IH]; cbn; intros l' H; [exists []; constructor|].
  destruct (py_nth l i) as [y|] eqn:E; [|discriminate]. cbn in H.
  destruct (mapM (py_nth l) zs) as [r|]; [|discriminate].
  destruct (IH r eq_refl) as (ks & Hk). destruct (py_nth_ok l i y E) as (k & Hk' & _).
  exists (k :: ks). now constructor.
Qed.
Lemma select_list_err {X} (l : list X) zs e : mapM (py_nth l) zs = Err e -> e = IndexError.
Proof.
  induction zs as [|i zs IH]; cbn; intros H; [discriminate|].
  destruct (py_nth l i) as [y|] eqn:E; cbn in H; [|inversion H; subst; eapply py_nth_err; eauto].
  destruct (mapM (py_nth l) zs) as [r|]; cbn in H; [discriminate|]. inversion H; subst. now apply IH.
Qed.

Lemma sorted_map_add (l : list nat) (f : nat -> nat) :
  (forall x y, x < y -> f x < f y) -> StronglySorted lt l -> StronglySorted lt (map f l).
Proof.
  intros Hf. induction 1 as [|x l Hs IH Hx]; cbn; constructor; auto.
  apply Forall_map. eapply Forall_impl; [|exact Hx]. cbn. auto.
Qed.
Lemma sorted_seq a n : StronglySorted lt (seq a n).
Proof.
  revert a; induction n as [|n IH]; intros a; cbn; constructor; auto.
  apply Forall_forall. intros x Hx. apply in_seq in Hx. lia.
Qed.

(* boolean masks *)
Lemma nonzero_spec l : exists ks, nonzero l = map Z.of_nat ks /\ StronglySorted lt ks /\
  forall k, In k ks <-> nth_error l k = Some true.
Proof.
  unfold nonzero.
  set (q := filter (fun q => snd q) (combine (seq 0 (length l)) l)).
  exists (map fst q). split; [now rewrite map_map|].
  assert (G : forall a, let q := filter (fun q => snd q) (combine (seq a (length l)) l) in
    StronglySorted lt (map fst q) /\ forall k, In k (map fst q) <-> a <= k /\ nth_error l (k - a) = Some true).
  { clear q. induction l as [|b l IH]; intros a; cbn [length seq combine filter].
    - split; [constructor|]. intros k. cbn. split; [tauto|]. intros [_ H]. destruct (k - a); discriminate.
    - specialize (IH (S a)). cbn zeta in IH. destruct IH as [IH1 IH2]. cbn [snd].
      assert (Hgt : forall k, In k (map fst (filter (fun q => snd q) (combine (seq (S a) (length l)) l))) -> a < k).
      { intros k Hk. apply IH2 in Hk. lia. }
      destruct b; cbn [map fst]; split.
      + constructor; [exact IH1|]. apply Forall_forall. exact Hgt.
      + intros k. cbn [In]. split.
        * intros [->|Hk]; [rewrite Nat.sub_diag; cbn; auto|]. apply IH2 in Hk. destruct Hk as [Hk1 Hk2].
          split; [lia|]. replace (k - a) with (S (k - S a)) by lia. exact Hk2.
        * intros [Hk1 Hk2]. destruct (Nat.eq_dec a k) as [->|Hn]; [now left|]. right. apply IH2. split; [lia|].
          replace (k - a) with (S (k - S a)) in Hk2 by lia. exact Hk2.
      + exact IH1.
      + intros k. split.
        * intros Hk. apply IH2 in Hk. destruct Hk as [Hk1 Hk2].
          split; [lia|]. replace (k - a) with (S (k - S a)) by lia. exact Hk2.
        * intros [Hk1 Hk2]. destruct (Nat.eq_dec a k) as [->|Hn].
          { rewrite Nat.sub_diag in Hk2. discriminate. }
          apply IH2. split; [lia|]. replace (k - a) with (S (k - S a)) in Hk2 by lia. exact Hk2. }
  destruct (G 0) as [G1 G2]. split; [exact G1|]. intros k. unfold q. rewrite G2, Nat.sub_0_r. intuition lia.
Qed.

(* slices *)
Lemma clampZ_up n x : (0 <= n)%Z -> (if (x <? 0)%Z then clampZ 0 n (x + n) else clampZ 0 n x) = clip_up n x.
Proof. intros H. unfold clip_up, clampZ. destruct (Z.ltb_spec x 0); lia. Qed.
Lemma clampZ_down n x : (0 <= n)%Z ->
  (if (x <? 0)%Z then clampZ (-1) (n - 1) (x + n) else clampZ (-1) (n - 1) x) = clip_down n x.
Proof. intros H. unfold clip_down, clampZ. destruct (Z.ltb_spec x 0); lia. Qed.

Lemma slice_up lo hi st n : (0 < st)%Z -> (0 <= lo)%Z -> (hi <= Z.of_nat n)%Z ->
  exists ks, map (fun k => (lo + Z.of_nat k * st)%Z) (seq 0 (slice_count lo hi st)) = map Z.of_nat ks /\
    StronglySorted lt ks /\ Forall (fun k => k < n) ks /\
    forall k, In k ks <-> (Z.of_nat k < hi)%Z /\ exists j, (0 <= j)%Z /\ Z.of_nat k = (lo + j * st)%Z.
Proof.
  intros Hst Hlo Hhi.
  set (c := slice_count lo hi st).
  assert (Hc : forall j, j < c <-> (lo + Z.of_nat j * st < hi)%Z).
  { intros j. unfold c, slice_count. destruct (Z.ltb_spec 0 st); [|lia].
    destruct (Z.ltb_spec lo hi).
    - assert (0 <= (hi - lo - 1) / st)%Z by (apply Z.div_pos; lia).
      pose proof (Z.div_mod (hi - lo - 1) st ltac:(lia)). pose proof (Z.mod_pos_bound (hi - lo - 1) st Hst).
      set (q := ((hi - lo - 1) / st)%Z) in *. set (r := ((hi - lo - 1) mod st)%Z) in *.
      split; intros Hj.
      + assert (Z.of_nat j <= q)%Z by lia. nia.
      + assert (Z.of_nat j < q + 1)%Z; [|lia].
        destruct (Z.lt_ge_cases (Z.of_nat j) (q + 1)); [assumption|]. nia.
    - split; [lia|]. intros Hj. exfalso. nia. }
  exists (map (fun k => Z.to_nat (lo + Z.of_nat k * st)) (seq 0 c)). split; [|split; [|split]].
  - rewrite map_map. apply map_ext_in. intros k _. rewrite Z2Nat.id; [reflexivity|nia].
  - apply sorted_map_add; [|apply sorted_seq]. intros x y Hxy. nia.
  - apply Forall_map, Forall_forall. intros j Hj. apply in_seq in Hj. assert (Hj' : j < c) by lia. apply Hc in Hj'. nia.
  - intros k. rewrite in_map_iff. split.
    + intros (j & <- & Hj). apply in_seq in Hj. assert (Hj' : j < c) by lia. apply Hc in Hj'.
      rewrite Z2Nat.id by nia. split; [exact Hj'|]. exists (Z.of_nat j). split; [lia|reflexivity].
    + intros (Hk & j & Hj & Ek). exists (Z.to_nat j). rewrite Z2Nat.id by exact Hj. split; [lia|].
      apply in_seq. split; [lia|]. cbn. apply Hc. rewrite Z2Nat.id by exact Hj. lia.
Qed.
Lemma sorted_map_dec (l : list nat) (f : nat -> nat) :
  StronglySorted lt l -> (forall x y, In x l -> In y l -> x < y -> f x > f y) -> StronglySorted gt (map f l).
Proof.
  induction 1 as [|x l Hs IH Hx]; cbn; intros Hf; constructor.
  - apply IH. intros u v Hu Hv. apply Hf; auto.
  - apply Forall_map. rewrite Forall_forall in *. intros y Hy. apply Hf; auto.
Qed.
Lemma slice_down lo hi st n : (st < 0)%Z -> (lo < Z.of_nat n)%Z -> (-1 <= hi)%Z ->
  exists ks, map (fun k => (lo + Z.of_nat k * st)%Z) (seq 0 (slice_count lo hi st)) = map Z.of_nat ks /\
    StronglySorted gt ks /\ Forall (fun k => k < n) ks /\
    forall k, In k ks <-> (hi < Z.of_nat k)%Z /\ exists j, (0 <= j)%Z /\ Z.of_nat k = (lo + j * st)%Z.
Proof.
  intros Hst Hlo Hhi. set (c := slice_count lo hi st).
  assert (Hc : forall j, j < c <-> (hi < lo + Z.of_nat j * st)%Z).
  { intros j. unfold c, slice_count. destruct (Z.ltb_spec 0 st); [lia|].
    destruct (Z.ltb_spec hi lo).
    - assert (0 <= (lo - hi - 1) / (- st))%Z by (apply Z.div_pos; lia).
      pose proof (Z.div_mod (lo - hi - 1) (- st) ltac:(lia)). pose proof (Z.mod_pos_bound (lo - hi - 1) (- st) ltac:(lia)).
      set (q := ((lo - hi - 1) / (- st))%Z) in *. set (r := ((lo - hi - 1) mod (- st))%Z) in *.
      split; intros Hj.
      + assert (Z.of_nat j <= q)%Z by lia. nia.
      + assert (Z.of_nat j < q + 1)%Z; [|lia].
        destruct (Z.lt_ge_cases (Z.of_nat j) (q + 1)); [assumption|]. nia.
    - split; [lia|]. intros Hj. exfalso. nia. }
  exists (map (fun k => Z.to_nat (lo + Z.of_nat k * st)) (seq 0 c)). split; [|split; [|split]].
  - rewrite map_map. apply map_ext_in. intros k Hk. apply in_seq in Hk. assert (Hk' : k < c) by lia. apply Hc in Hk'.
    rewrite Z2Nat.id; [reflexivity|lia].
  - apply sorted_map_dec; [apply sorted_seq|]. intros x y Hx Hy Hxy. apply in_seq in Hx, Hy.
    assert (Hx' : x < c) by lia. assert (Hy' : y < c) by lia. apply Hc in Hx', Hy'. nia.
  - apply Forall_map, Forall_forall. intros j Hj. apply in_seq in Hj. assert (Hj' : j < c) by lia. apply Hc in Hj'. nia.
  - intros k. rewrite in_map_iff. split.
    + intros (j & <- & Hj). apply in_seq in Hj. assert (Hj' : j < c) by lia. apply Hc in Hj'.
      rewrite Z2Nat.id by lia. split; [exact Hj'|]. exists (Z.of_nat j). split; [lia|reflexivity].
    + intros (Hk & j & Hj & Ek). exists (Z.to_nat j). rewrite Z2Nat.id by exact Hj. split; [lia|].
      apply in_seq. split; [lia|]. cbn. apply Hc. rewrite Z2Nat.id by exact Hj. lia.
Qed.

Lemma resolved_Forall2 n ks : Forall (fun k => k < n) ks -> Forall2 (resolves n) (map Z.of_nat ks) ks.
Proof.
  induction 1 as [|k ks Hk _ IH]; cbn; constructor; auto. split; [exact Hk|]. now left.
Qed.

Lemma slice_sel_ok start stop step n :
  (match step with None => 1%Z | Some st => st end) <> 0%Z ->
  exists ks, slice_idx start stop step n = Ok (map Z.of_nat ks) /\ Forall (fun k => k < n) ks /\
    slice_sel start stop (match step with None => 1%Z | Some st => st end) n ks.
Proof.
  set (st := match step with None => 1%Z | Some k => k end). intros Hst.
  unfold slice_idx, slice_bounds. fold st. destruct (Z.eqb_spec st 0); [congruence|].
  pose proof (Nat2Z.is_nonneg n) as Hn.
  destruct (Z.ltb_spec 0 st).
  - set (lo := match start with None => 0%Z | Some x => clip_up (Z.of_nat n) x end).
    set (hi := match stop with None => Z.of_nat n | Some x => clip_up (Z.of_nat n) x end).
    destruct (slice_up lo hi st n) as (ks & E & Hs & Hf & Hin).
    + assumption.
    + unfold lo, clip_up. destruct start as [x|]; [|lia]. destruct (Z.ltb_spec x 0); lia.
    + unfold hi, clip_up. destruct stop as [x|]; [|lia]. destruct (Z.ltb_spec x 0); lia.
    + exists ks. split; [|split; [exact Hf|]].
      * cbn [rbind]. f_equal. rewrite <- E. unfold lo, hi.
        destruct start, stop; rewrite ?clampZ_up by exact Hn; reflexivity.
      * left. auto.
  - set (lo := match start with None => (Z.of_nat n - 1)%Z | Some x => clip_down (Z.of_nat n) x end).
    set (hi := match stop with None => (-1)%Z | Some x => clip_down (Z.of_nat n) x end).
    destruct (slice_down lo hi st n) as (ks & E & Hs & Hf & Hin).
    + lia.
    + unfold lo, clip_down. destruct start as [x|]; [|lia]. destruct (Z.ltb_spec x 0); lia.
    + unfold hi, clip_down. destruct stop as [x|]; [|lia]. destruct (Z.ltb_spec x 0); lia.
    + exists ks. split; [|split; [exact Hf|]].
      * cbn [rbind]. f_equal. rewrite <- E. unfold lo, hi.
        destruct start, stop; rewrite ?clampZ_down by exact Hn; reflexivity.
      * right. split; [lia|auto].
Qed.

(* strictly sorted lists with the same members are equal *)
Lemma sorted_unique (R : nat -> nat -> Prop) : (forall x, ~ R x x) -> (forall x y, R x y -> ~ R y x) ->
  forall l1 l2, StronglySorted R l1 -> StronglySorted R l2 -> (forall k, In k l1 <-> In k l2) -> l1 = l2.
Proof.
  intros Irr Asym. induction l1 as [|x l1 IH]; intros l2 H1 H2 He.
  - destruct l2 as [|y l2]; [reflexivity|]. destruct (He y) as [_ H]. destruct (H (or_introl eq_refl)).
  - destruct l2 as [|y l2]; [destruct (He x) as [H _]; destruct (H (or_introl eq_refl))|].
    apply StronglySorted_inv in H1 as [H1 F1]. apply StronglySorted_inv in H2 as [H2 F2].
    rewrite Forall_forall in F1, F2.
    assert (x = y).
    { destruct (He x) as [Hx _]. specialize (Hx (or_introl eq_refl)). destruct Hx as [->|Hx]; [reflexivity|].
      destruct (He y) as [_ Hy]. specialize (Hy (or_introl eq_refl)). destruct Hy as [->|Hy]; [reflexivity|].
      exfalso. apply (Asym x y); auto. }
    subst y. f_equal. apply IH; auto. intros k. split; intros Hk.
    + destruct (He k) as [H _]. destruct (H (or_intror Hk)) as [->|]; [|assumption]. exfalso. eapply Irr, F1; eauto.
    + destruct (He k) as [_ H]. destruct (H (or_intror Hk)) as [->|]; [|assumption]. exfalso. eapply Irr, F2; eauto.
Qed.

(* the implementation's selection is the specified one *)
Lemma select_idx_sel ix n ks : Selects ix n ks ->
  exists zs, select_idx ix n = Ok zs /\ Forall2 (resolves n) zs ks.
Proof.
  destruct ix as [i|a b c|l|d l|d l| |]; cbn.
  - intros (k & Hk & ->). exists [i]. split; [reflexivity|]. constructor; [exact Hk|constructor].
  - intros H. set (st := match c with None => 1%Z | Some k => k end) in *.
    assert (Hst : st <> 0%Z) by (destruct H as [H|H]; lia).
    destruct (slice_sel_ok a b c n Hst) as (ks' & E & Hf & Hs). fold st in Hs. exists (map Z.of_nat ks'). split; [exact E|].
    replace ks with ks'; [now apply resolved_Forall2|].
    destruct H as [(P1 & S1 & I1)|(P1 & S1 & I1)], Hs as [(P2 & S2 & I2)|(P2 & S2 & I2)]; try lia.
    + apply (sorted_unique lt); auto; try lia. intros k. now rewrite I1, I2.
    + apply (sorted_unique gt); auto; try lia. intros k. now rewrite I1, I2.
  - intros H. eauto.
  - intros (-> & H). cbn. eauto.
  - intros (-> & Hs & Hf & Hin). cbn. destruct (nonzero_spec l) as (ks' & E & S2 & I2).
    exists (map Z.of_nat ks'). split; [now rewrite E|]. replace ks' with ks; [now apply resolved_Forall2|].
    apply (sorted_unique lt); auto; try lia. intros k. now rewrite Hin, I2.
  - tauto.
  - tauto.
Qed.
Lemma select_idx_inv ix n zs ks : select_idx ix n = Ok zs -> Forall2 (resolves n) zs ks -> Selects ix n ks.
Proof.
  destruct ix as [i|a b c|l|d l|d l| |]; cbn; intros E Hf; try discriminate.
  - inversion E; subst. inversion Hf as [|? k ? ? Hk Hn]; subst. inversion Hn; subst. eauto.
  - set (st := match c with None => 1%Z | Some k => k end) in *.
    destruct (Z.eq_dec st 0) as [E0|Hst].
    { unfold slice_idx, slice_bounds in E. fold st in E. rewrite E0 in E. cbn in E. discriminate. }
    destruct (slice_sel_ok a b c n Hst) as (ks' & E' & Hf' & Hs). rewrite E in E'. inversion E'; subst zs.
    replace ks with ks'; [exact Hs|].
    clear -Hf Hf'. revert ks Hf. induction ks' as [|k' ks' IH]; intros ks Hf; inversion Hf as [|? k ? ? [Hk Hz] Hf2]; subst; [reflexivity|].
    inversion Hf'; subst. f_equal; [lia|auto].
  - inversion E; subst. exact Hf.
  - destruct (d =? 1) eqn:Ed; [|discriminate]. apply Nat.eqb_eq in Ed. inversion E; subst. auto.
  - destruct (d =? 1) eqn:Ed; [|discriminate]. apply Nat.eqb_eq in Ed. inversion E; subst. split; [reflexivity|].
    destruct (nonzero_spec l) as (ks' & E' & S2 & I2). rewrite E' in Hf.
    assert (Hlt : Forall (fun k => k < n) ks).
    { clear -Hf. induction Hf as [|? ? ? ? [H _]]; constructor; auto. }
    destruct (Nat.eq_dec 0 0) as [_|]; [|lia].
    assert (Heq : ks' = ks \/ exists k, In k ks' /\ n <= k).
    { destruct (Forall_dec (fun k => k < n) (fun k => lt_dec k n) ks') as [Hd|Hd].
      - left. clear -Hf Hd. revert ks Hf. induction ks' as [|k' ks' IH]; intros ks Hf;
          inversion Hf as [|? k ? ? [Hk Hz] Hf2]; subst; [reflexivity|]. inversion Hd; subst. f_equal; [lia|auto].
      - right. rewrite <- Exists_Forall_neg in Hd by (intros; lia). apply Exists_exists in Hd.
        destruct Hd as (k & Hk & Hn). exists k. split; [exact Hk|lia]. }
    destruct Heq as [->|(k & Hk & Hn)]; [auto|]. exfalso.
    clear -Hf Hk Hn. revert ks Hf. induction ks' as [|k' ks' IH]; intros ks Hf; [destruct Hk|].
    inversion Hf as [|? k0 ? ? [Hk0 Hz] Hf2]; subst. destruct Hk as [->|Hk]; [lia|]. eapply IH; eauto.
Qed.
Lemma select_idx_err ix n e : select_idx ix n = Err e -> e = IndexError \/ e = ValueError.
Proof.
  destruct ix as [i|a b c|l|d l|d l| |]; cbn; intros E; try (inversion E; auto; fail).
  - unfold slice_idx, slice_bounds in E. destruct (_ =? 0)%Z; cbn in E; [inversion E; auto|].
    destruct (0 <? _)%Z; cbn in E; discriminate.
  - destruct (d =? 1); inversion E; auto.
  - destruct (d =? 1); inversion E; auto.
Qed.

Section Index.
Variable F : Fld.
Notation T2 := (t2 F).
Notation pc := (pc F).
Notation batch := (batch F).
Implicit Types (s : pc) (a : batch) (P L : list T2).
Notation RepN := (RepN F).
Notation Rep := (Rep F).

Lemma select_ok ix L ks : Selects ix (length L) ks ->
  exists L', select F ix L = Ok L' /\ map Some L' = map (nth_error L) ks.
Proof.
  intros H. destruct (select_idx_sel ix _ ks H) as (zs & E & Hf). unfold select. rewrite E. cbn.
  now apply select_list.
Qed.
Lemma select_inv ix L L' : select F ix L = Ok L' -> exists ks, Selects ix (length L) ks /\ map Some L' = map (nth_error L) ks.
Proof.
  unfold select. destruct (select_idx ix (length L)) as [zs|] eqn:E; [|discriminate]. cbn. intros H.
  destruct (select_list_inv _ _ _ H) as (ks & Hk). exists ks. split; [eapply select_idx_inv; eauto|].
  destruct (select_list L zs ks Hk) as (L2 & E2 & Em). congruence.
Qed.
Lemma select_err ix L e : select F ix L = Err e -> e = IndexError \/ e = ValueError.
Proof.
  unfold select. destruct (select_idx ix (length L)) as [zs|e'] eqn:E; cbn; intros H.
  - left. eapply select_list_err; eauto.
  - inversion H; subst. eapply select_idx_err; eauto.
Qed.

Definition sel (ks : list nat) (L : list T2) : list T2 :=
  flat_map (fun k => match nth_error L k with Some y => [y] | None => [] end) ks.
Lemma sel_spec ks L L' : map Some L' = map (nth_error L) ks -> sel ks L = L'.
Proof.
  revert L'; induction ks as [|k ks IH]; intros [|y L']; cbn; intros H; try discriminate; [reflexivity|].
  injection H as E1 E2. rewrite <- E1. cbn. f_equal. auto.
Qed.
Lemma sel_in ks L y : In y (sel ks L) -> In y L.
Proof.
  unfold sel. rewrite in_flat_map. intros (k & _ & H). destruct (nth_error L k) as [z|] eqn:E; [|destruct H].
  destruct H as [->|[]]. eapply nth_error_In; eauto.
Qed.
Lemma sel_counts ks L P : counts_of F L = counts_of F P -> counts_of F (sel ks L) = counts_of F (sel ks P).
Proof.
  intros H. unfold sel, counts_of. induction ks as [|k ks IH]; cbn; [reflexivity|]. rewrite !map_app, IH. f_equal.
  assert (E : nth_error (counts_of F L) k = nth_error (counts_of F P) k) by congruence.
  unfold counts_of in E. rewrite !nth_error_map in E.
  destruct (nth_error L k), (nth_error P k); cbn in *; congruence.
Qed.
Definition sel_batch ks a : batch := qmap (option_map (sel ks)) a.
Lemma sel_batch_get ks a x : qget x (sel_batch ks a) = option_map (sel ks) (qget x a).
Proof. now destruct x. Qed.
Lemma sel_valid ks P a : valid_batch F P a -> sel ks P <> [] -> valid_batch F (sel ks P) (sel_batch ks a).
Proof.
  intros Hv Hne. split; [cbn; now rewrite (valid_qp _ _ _ Hv)|]. split; [exact Hne|].
  intros x L' HL'. rewrite sel_batch_get in HL'. destruct (qget x a) as [L|] eqn:E; [|discriminate].
  cbn in HL'. inversion HL'; subst L'. pose proof (valid_counts _ _ _ _ _ Hv E) as Hc.
  split; [now apply sel_counts|].
  pose proof (valid_wid _ _ _ _ _ Hv E) as Hw.
  assert (Ew : width F (sel_batch ks a) x = width F a x).
  { destruct x; try reflexivity. cbn in *. rewrite E in *. cbn.
    destruct (sel ks L) as [|y l] eqn:Es.
    - exfalso. apply Hne. apply (sel_counts ks) in Hc. rewrite Es in Hc. now destruct (sel ks P).
    - assert (Hy : In y L) by (apply (sel_in ks); rewrite Es; now left).
      destruct L as [|z L]; [destruct Hy|]. unfold wid_ok in Hw. rewrite Forall_forall in Hw. apply (Hw y Hy). }
  rewrite Ew. apply Forall_forall. intros y Hy. apply sel_in in Hy. unfold wid_ok in Hw.
  rewrite Forall_forall in Hw. now apply Hw.
Qed.

Lemma getitem_attr_ok P a s x ix ks L : RepN P a s -> qget x a = Some L -> Selects ix (length P) ks ->
  getitem_attr F x ix s = (Ok (Some (sel ks L)), set_lst F x (Some L) s) /\ RepN P a (set_lst F x (Some L) s).
Proof.
  intros H E Hs. destruct (get_list_ok F P a s x H) as [Eg Hr]. rewrite E in *. split; [|exact Hr].
  rewrite <- (valid_len _ _ _ _ _ (rn_valid _ _ _ _ H) E) in Hs.
  destruct (select_ok ix L ks Hs) as (L' & El & Em). rewrite <- (sel_spec _ _ _ Em) in El.
  unfold getitem_attr, mbind. rewrite Eg. unfold lift. rewrite El. reflexivity.
Qed.
Lemma getitem_opt P a s x ix ks : RepN P a s -> Selects ix (length P) ks ->
  exists s', mbind (has F x) (fun h => if h then getitem_attr F x ix else ret None) s =
    (Ok (option_map (sel ks) (qget x a)), s') /\ RepN P a s'.
Proof.
  intros H Hs. destruct (has_ok F P a s x H) as (f & Eh & Hr). unfold mbind. rewrite Eh.
  destruct (qget x a) as [L|] eqn:E; cbn [is_some option_map].
  - destruct (getitem_attr_ok P a _ x ix ks L Hr E Hs) as (-> & Hr2). eexists. split; [reflexivity|exact Hr2].
  - eexists. split; [reflexivity|exact Hr].
Qed.

Lemma getitem_run P a s ix ks : RepN P a s -> Selects ix (length P) ks ->
  exists s', getitem F ix s = (ctor F (in2 F (sel ks P)) (oin F (in2 F) (option_map (sel ks) (qn a)))
     (oin F (in2 F) (option_map (sel ks) (qc a))) (oin F (in2 F) (option_map (sel ks) (qf a))), s') /\ RepN P a s'.
Proof.
  intros H Hs. unfold getitem. destruct (has_ok F P a s Points H) as (f & Eh & Hr).
  rewrite (RepN_hasP _ _ _ _ H) in Eh. unfold mbind at 1. rewrite Eh. cbn [negb].
  destruct (getitem_attr_ok P a _ Points ix ks P Hr (valid_qp _ _ _ (rn_valid _ _ _ _ H)) Hs) as (E1 & R1).
  unfold mbind at 1. rewrite E1.
  destruct (getitem_opt P a _ Normals ix ks R1 Hs) as (s2 & E2 & R2). unfold mbind at 1. rewrite E2.
  destruct (getitem_opt P a _ Colors ix ks R2 Hs) as (s3 & E3 & R3). unfold mbind at 1. rewrite E3.
  destruct (getitem_opt P a _ Features ix ks R3 Hs) as (s4 & E4 & R4). unfold mbind at 1. rewrite E4.
  exists s4. split; [reflexivity|exact R4].
Qed.

Lemma sel_nonempty P ks : ks <> [] -> (exists L', map Some L' = map (nth_error P) ks) -> sel ks P <> [].
Proof.
  intros Hk (L' & E). rewrite (sel_spec _ _ _ E). intros ->. destruct ks; [congruence|discriminate].
Qed.

Theorem getitem_ok P a s ix ks : RepN P a s -> Selects ix (length P) ks -> ks <> [] ->
  exists c o s', getitem F ix s = (Ok o, s') /\ Picked F ks a c /\ Rep c o /\ Rep a s'.
Proof.
  intros H Hs Hne. destruct (getitem_run P a s ix ks H Hs) as (s' & E & R).
  destruct (select_ok ix P ks Hs) as (P' & _ & Em).
  assert (Hn : sel ks P <> []) by (apply sel_nonempty; eauto).
  pose proof (sel_valid ks P a (rn_valid _ _ _ _ H) Hn) as Hv.
  exists (sel_batch ks a), (list_state F (sel ks P) (sel_batch ks a)), s'.
  split; [|split; [|split]].
  - rewrite E. f_equal. apply (ctor_as_list F _ _ _ _ (sel ks P) (sel_batch ks a)); auto.
    + cbn. rewrite (valid_qp _ _ _ (rn_valid _ _ _ _ H)). reflexivity.
    + cbn. apply oin_as_list.
    + cbn. apply oin_as_list.
    + cbn. apply oin_as_list.
  - intros x. rewrite sel_batch_get. destruct (qget x a) as [L|] eqn:EL; [|reflexivity]. cbn.
    exists (sel ks L). split; [reflexivity|].
    rewrite <- (valid_len _ _ _ _ _ (rn_valid _ _ _ _ H) EL) in Hs.
    destruct (select_ok ix L ks Hs) as (L' & _ & Em2). now rewrite (sel_spec _ _ _ Em2).
  - apply (RepN_Rep F _ _ (sel ks P)). now apply list_state_Rep.
  - eapply RepN_Rep; eauto.
Qed.
Theorem getitem_nothing P a s ix : RepN P a s -> Selects ix (length P) [] ->
  exists s', getitem F ix s = (Err ValueError, s') /\ Rep a s'.
Proof.
  intros H Hs. destruct (getitem_run P a s ix [] H Hs) as (s' & E & R). exists s'. split; [|eapply RepN_Rep; eauto].
  rewrite E. f_equal. cbn. destruct (qn a), (qc a), (qf a); reflexivity.
Qed.
Theorem getitem_bad P a s ix : RepN P a s -> ~ (exists ks, Selects ix (length P) ks) ->
  exists e s', getitem F ix s = (Err e, s') /\ (e = IndexError \/ e = ValueError) /\ Rep a s'.
Proof.
  intros H Hs. unfold getitem. destruct (has_ok F P a s Points H) as (f & Eh & Hr).
  rewrite (RepN_hasP _ _ _ _ H) in Eh. unfold mbind at 1. rewrite Eh. cbn [negb].
  destruct (get_list_ok F P a _ Points Hr) as [Eg Hr2]. cbn [qget] in *.
  rewrite (valid_qp _ _ _ (rn_valid _ _ _ _ H)) in *.
  unfold mbind at 1. unfold getitem_attr at 1, mbind at 1. rewrite Eg. unfold mbind at 1, lift.
  destruct (select F ix P) as [P'|e] eqn:E.
  - exfalso. apply Hs. destruct (select_inv _ _ _ E) as (ks & Hk & _). eauto.
  - exists e. eexists. split; [reflexivity|]. split; [eapply select_err; eauto|eapply RepN_Rep; eauto].
Qed.
Theorem getitem_empty s ix : Rep0 F s -> exists s', getitem F ix s = (Err IndexError, s') /\ Rep0 F s'.
Proof.
  intros H. unfold getitem, mbind. destruct (has0 F s Points H) as (f & E & Hr). rewrite E. cbn. eexists; split; [reflexivity|exact Hr].
Qed.

End Index.
