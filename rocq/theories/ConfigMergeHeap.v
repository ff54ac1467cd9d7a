(* _merge_a_into_b on the heap realises tmerge. *)
From Coq Require Import ZArith String Ascii List Bool Arith Lia.
From Verif Require Import ConfigModel ConfigSpec ConfigHeap ConfigCopy ConfigTree ConfigMerge.
Import ListNotations.
Local Open Scope list_scope.
Local Open Scope nat_scope.

Definition has_meta (h : heap) (root : val) (rm : meta) : Prop := exists l d, root = VRef l /\ nth_error h l = Some (ONode rm d).
Lemma has_meta_evolves S h h' root rm : evolves S h h' -> has_meta h root rm -> has_meta h' root rm.
Proof.
  intros HE (l & d & -> & E). destruct (HE _ _ E) as (o' & E' & K & _). destruct K as [d' ->]. exists l, d'. auto.
Qed.
Lemma has_meta_keeps h h' root rm : keeps h h' -> has_meta h root rm -> has_meta h' root rm.
Proof. intros K. apply (has_meta_evolves []). apply evolves_keeps, K. Qed.
Lemma meta_of_ok h root rm : has_meta h root rm -> meta_of root h = (h, Done rm).
Proof. intros (l & d & -> & E). cbn. unfold bind, load. rewrite E. reflexivity. Qed.

Lemma setitem_ok h l mb d db fp k v w fpv : nth_error h l = Some (ONode mb d) -> NoDup (keys d) -> reads_items h d db fp ->
  reads h v w fpv -> NoDup (l :: fp ++ fpv) ->
  exists h' fp', setitem (VRef l) k v h = (h', Done tt) /\ reads h' (VRef l) (TNode mb (dset db k w)) (l :: fp') /\ NoDup (l :: fp') /\
    incl fp' (fp ++ fpv) /\ evolves [l] h h' /\ length h' = length h.
Proof.
  intros E ND R Rv N. inversion N as [|? ? N1 N2]; subst.
  destruct (reads_items_dset _ _ _ _ k _ _ _ R Rv) as (fp' & R' & I' & N').
  exists (upd h l (ONode mb (dset d k v))), fp'.
  assert (HE : evolves [l] h (upd h l (ONode mb (dset d k v)))).
  { eapply evolves_store; [exact E| |]; cbn; [eauto|discriminate]. }
  split. { cbn. unfold bind, load. rewrite E. reflexivity. }
  split.
  { econstructor; [apply upd_same; eapply nth_lt; eauto|apply dset_nodup; exact ND|].
    eapply reads_items_evolves; [exact HE|exact R'|]. intros x Hx [<-|C]; [|contradiction]. apply N1, I', Hx. }
  split. { constructor; [|auto]. intros C. apply N1, I', C. }
  split; [exact I'|]. split; [exact HE|apply upd_length].
Qed.

Section Merge.
Variable literal_eval : string -> out lit.
Variable rm : meta.
Variable root : val.

Definition no_recursion_error : Prop := forall s, literal_eval s <> Raise XRecursion.

Lemma tcreate_depth_eq t : forall t', tcreate t = Some t' -> tdepth t' = tdepth t.
Proof.
  assert (G : forall d, Forall (fun kv : string * tree => forall t', tcreate (snd kv) = Some t' -> tdepth t' = tdepth (snd kv)) d ->
     forall d' m m', tcreate_items d = Some d' -> tdepth (TNode m d') = tdepth (TNode m' d)).
  { intros d H d' m m' E. cbn [tdepth]. f_equal. revert d' E. induction H as [|[k x] d Hx Hd IH]; intros d' E; cbn in E; [inversion E; reflexivity|]. cbn [snd] in Hx.
    destruct (tcreate1 x) as [y|] eqn:E1, (tcreate_items d) as [ys|] eqn:E2; try discriminate. inversion E; subst.
    rewrite (IH _ eq_refl). f_equal. unfold tcreate1 in E1. destruct (branchb x); [apply Hx, E1|].
    destruct (valid_ty (ttype x)); inversion E1; reflexivity. }
  induction t using tree_ind'; intros t' E; try discriminate.
  - rewrite (tcreate_eq (TDict d) d eq_refl) in E. destruct (tcreate_items d) as [d'|] eqn:Ed; inversion E; subst.
    apply (G d H d' plain_meta plain_meta Ed).
  - rewrite (tcreate_eq (TNode m d) d eq_refl) in E. destruct (tcreate_items d) as [d'|] eqn:Ed; inversion E; subst.
    apply (G d H d' plain_meta m Ed).
Qed.

Lemma decode_fuel fuel v h h' r t fp : no_recursion_error -> reads h v t fp -> tdepth t < fuel -> decode literal_eval fuel v h = (h', r) ->
  r <> Raise XRecursion.
Proof.
  intros NR R D E. unfold decode in E. unfold bind at 1, get at 1 in E. destruct (is_dict h v); [eapply mk_node_fuel; eauto|].
  destruct v as [[]| |]; try (injection E as _ <-; discriminate).
  destruct (literal_eval s) as [l|e] eqn:El.
  - destruct (alloc_lit_ok l h) as (h1 & v & fp' & E1 & _). rewrite E1 in E. injection E as _ <-. discriminate.
  - pose proof (NR s) as N. rewrite El in N. destruct e; try (injection E as _ <-; congruence).
Qed.
Lemma tcoerce_error t o e : tcoerce t o = Raise e -> e = XValue.
Proof. unfold tcoerce. destruct (ty_eqb _ _); [discriminate|]. destruct t, o; intros E; inversion E; reflexivity. Qed.

Definition merge_spec (F : nat) (merge : val -> val -> list string -> M unit) : Prop :=
  forall a b ks h h' r ta tb fpa fpb, has_meta h root rm -> reads h a ta fpa -> reads h b tb fpb ->
    NoDup fpa -> NoDup fpb -> (forall l, In l fpa -> In l fpb -> False) -> merge a b ks h = (h', r) ->
    exists tb' fpb', reads h' b tb' fpb' /\ NoDup fpb' /\ within fpb' fpb (length h) /\ evolves fpb h h' /\
      (r = Raise XRecursion -> no_recursion_error -> F <= tdepth ta) /\
      (r <> Raise XRecursion -> nodeb ta = true -> (tb', r) = tmerge literal_eval rm ta tb ks).

Lemma within_disjoint fp S N l : within fp S N -> l < N -> ~ In l S -> ~ In l fp.
Proof. intros W Hl Hn C. destruct (W _ C); [contradiction|lia]. Qed.

Lemma entry_refines f rec ks k : merge_spec f rec ->
  forall l mb db fp v_ tv fpv h h' r, has_meta h root rm -> reads h (VRef l) (TNode mb db) (l :: fp) -> NoDup (l :: fp) ->
    reads h v_ tv fpv -> NoDup fpv ->
    merge_entry literal_eval f rec (VRef l) root ks k v_ h = (h', r) ->
    exists db' fp', reads h' (VRef l) (TNode mb db') (l :: fp') /\ NoDup (l :: fp') /\ within fp' fp (length h) /\ evolves (l :: fp) h h' /\
      (r = Raise XRecursion -> no_recursion_error -> f <= tdepth tv) /\
      (r <> Raise XRecursion -> (db', r) = tstep literal_eval rm (tmerge literal_eval rm tv) mb ks k tv db).
Proof.
  intros Hrec l mb db fp v_ tv fpv h h' r HM Rb ND Rv Nv E. unfold merge_entry in E.
  assert (Ll : l < length h) by (inversion Rb; subst; eapply nth_lt; eauto).
  (* when only new objects were made *)
  assert (Stop : forall h1, keeps h h1 -> reads h1 (VRef l) (TNode mb db) (l :: fp) /\ NoDup (l :: fp) /\ within fp fp (length h) /\ evolves (l :: fp) h h1).
  { intros h1 K. split; [eapply reads_keeps; eauto|]. split; [auto|]. split; [intros i Hi; auto|apply evolves_keeps, K]. }
  apply bind_inv in E. destruct E as [(v1 & h1 & E1 & E)|(e & E1 & E)].
  2:{ subst r. pose proof (deepcopy_keeps _ _ _ _ _ E1) as K. exists db, fp. destruct (Stop _ K) as (A1 & A2 & A3 & A4). repeat split; auto.
      { intros _ _. destruct (le_lt_dec f (tdepth tv)) as [|D]; [auto|exfalso].
        destruct (deepcopy_total f v_ h tv fpv Rv) as (hx & vx & Ex); [lia|]. congruence. }
      intros Hr. exfalso. apply Hr. f_equal. exact (deepcopy_errors _ _ _ _ _ _ _ Rv E1). }
  pose proof (deepcopy_keeps _ _ _ _ _ E1) as K1. destruct (deepcopy_reads _ _ _ _ _ _ _ Rv E1) as (fp1 & R1 & F1 & N1). specialize (N1 Nv).
  apply bind_inv in E. destruct E as [(v2 & h2 & E2 & E)|(e & E2 & E)].
  2:{ subst r. pose proof (decode_keeps _ _ _ _ _ _ E2) as K2. exists db, fp.
      destruct (Stop _ (keeps_trans _ _ _ K1 K2)) as (A1 & A2 & A3 & A4). repeat split; auto.
      { intros Hr NR. destruct (le_lt_dec f (tdepth tv)) as [|D]; [auto|exfalso].
        apply (decode_fuel _ _ _ _ _ _ _ NR R1 D E2). congruence. }
      intros Hr. pose proof (decode_refines _ _ _ _ _ _ _ _ R1 E2) as Q. unfold tstep.
      assert (X : Raise (A := val) e <> Raise XRecursion) by congruence. specialize (Q X).
      destruct (tdecode literal_eval tv) as [t'|e']; [destruct Q as (? & ? & Q & _); discriminate|]. congruence. }
  pose proof (decode_keeps _ _ _ _ _ _ E2) as K2.
  pose proof (decode_refines _ _ _ _ _ _ _ _ R1 E2 ltac:(discriminate)) as Q.
  destruct (tdecode literal_eval tv) as [t'|e'] eqn:Ed; [|discriminate].
  destruct Q as (v2' & fp2 & Q1 & R2 & W2 & N2). inversion Q1; subst v2'. clear Q1. specialize (N2 N1).
  assert (K : keeps h h2) by (eapply keeps_trans; eauto).
  pose proof (keeps_length _ _ K1) as L1. pose proof (keeps_length _ _ K2) as L2.
  assert (A2 : above fp2 (length h)).
  { intros i Hi. destruct (W2 _ Hi) as [Hi'|Hi']; [apply F1, Hi'|lia]. }
  assert (Rb2 : reads h2 (VRef l) (TNode mb db) (l :: fp)) by (eapply reads_keeps; eauto).
  inversion Rb2 as [| | | |? ? d ? ? Eo NDk Rd]; subst.
  erewrite bind_eq in E. 2:{ cbn. unfold bind, load. rewrite Eo. reflexivity. } cbv beta in E.
  assert (Hfp : forall i, In i fp -> i < length h) by (intros i Hi; eapply (reads_ref_lt _ _ _ _ _ Rb); right; auto).
  assert (NDl : ~ In l fp /\ NoDup fp) by (inversion ND; auto).
  assert (Nall : forall h3 fpx, keeps h h3 -> above fpx (length h) -> NoDup fpx -> NoDup (l :: fp ++ fpx)).
  { intros h3 fpx _ Ax Nx. constructor.
    - rewrite in_app_iff. intros [C|C]; [tauto|]. specialize (Ax _ C). lia.
    - apply NoDup_app_iff. repeat split; try tauto. intros x Hx Hy. specialize (Ax _ Hy). specialize (Hfp _ Hx). lia. }
  pose proof (reads_items_get _ _ _ _ k Rd) as Hget.
  unfold tstep. rewrite Ed.
  destruct (dget d k) as [bk|] eqn:Ek.
  - destruct (dget db k) as [tbk|] eqn:Ekt; [|contradiction].
    destruct (reads_items_split _ _ _ _ _ _ Rd Ek) as (d1 & d2 & ts1 & ts2 & t0 & fpa & fpk & fpb & -> & -> & -> & Ra & Rk & Rb' & Na & Nb).
    rewrite dget_split in Ekt by auto. inversion Ekt; subst t0. clear Ekt Hget.
    apply bind_inv in E. destruct E as [(v3 & h3 & E3 & E)|(e & E3 & E)].
    2:{ subst r. pose proof (coerce_keeps _ _ _ _ _ E3) as K3. exists (ts1 ++ (k, tbk) :: ts2), (fpa ++ fpk ++ fpb).
        destruct (Stop _ (keeps_trans _ _ _ K K3)) as (S1 & S2 & S3 & S4). repeat split; auto.
        { intros Hr. exfalso. pose proof (coerce_refines _ _ _ _ _ _ _ _ _ R2 Rk E3) as Q.
          destruct (tcoerce t' tbk) as [|e'] eqn:Ec; [destruct Q as (? & Q & _); discriminate|]. apply tcoerce_error in Ec. congruence. }
        intros _. pose proof (coerce_refines _ _ _ _ _ _ _ _ _ R2 Rk E3) as Q.
        destruct (tcoerce t' tbk); [destruct Q as (? & Q & _); discriminate|]. congruence. }
    pose proof (coerce_keeps _ _ _ _ _ E3) as K3. pose proof (keeps_length _ _ K3) as L3.
    pose proof (coerce_refines _ _ _ _ _ _ _ _ _ R2 Rk E3) as Q.
    destruct (tcoerce t' tbk) as [w|e'] eqn:Ec; [|discriminate]. destruct Q as (v3' & Q1 & R3). inversion Q1; subst v3'. clear Q1.
    assert (Kh3 : keeps h h3) by (eapply keeps_trans; eauto).
    unfold bind at 1, get at 1 in E. rewrite (reads_is_node _ _ _ _ R3) in E.
    destruct (nodeb w) eqn:En.
    + (* recursive merge *)
      assert (Rk3 : reads h3 bk tbk fpk) by (exact (reads_keeps _ _ _ _ _ K3 Rk)).
      destruct NDl as [NDl1 NDl2]. apply NoDup_app_iff in NDl2. destruct NDl2 as (P1 & P2 & P3).
      apply NoDup_app_iff in P2. destruct P2 as (P4 & P5 & P6).
      assert (Hk_lt : forall i, In i fpk -> i < length h) by (intros i Hi; apply Hfp; rewrite !in_app_iff; auto).
      destruct (Hrec v3 bk (ks ++ [k]) h3 h' r w tbk fp2 fpk) as (tb' & fpk' & X1 & X2 & X3 & X4 & X6 & X5); auto.
      { eapply has_meta_keeps; [exact Kh3|exact HM]. }
      { intros i Hi Hj. specialize (A2 _ Hi). specialize (Hk_lt _ Hj). lia. }
      exists (ts1 ++ (k, tb') :: ts2), (fpa ++ fpk' ++ fpb).
      assert (Lh3 : length h <= length h3) by (apply keeps_length; exact Kh3).
      split.
      { assert (Eo' : nth_error h' l = Some (ONode mb (d1 ++ (k, bk) :: d2))).
        { destruct (X4 l _ (K3 _ _ Eo)) as (o' & Y1 & _ & [Y2|Y2]); [|subst; auto].
          exfalso. apply NDl1. rewrite !in_app_iff. auto. }
        econstructor; [exact Eo'|exact NDk|].
        apply reads_items_app.
        - eapply reads_items_evolves; [exact X4|eapply reads_items_keeps; [exact K3|exact Ra]|].
          intros i Hi C. apply (P3 i); auto. rewrite in_app_iff. auto.
        - constructor; [exact X1|]. eapply reads_items_evolves; [exact X4|eapply reads_items_keeps; [exact K3|exact Rb']|].
          intros i Hi C. apply (P6 i); auto. }
      assert (Hk' : forall i, i < length h -> In i fpk' -> In i fpk).
      { intros i Hi C. destruct (X3 _ C); [auto|lia]. }
      split.
      { constructor.
        - rewrite !in_app_iff. intros [C|[C|C]]; apply NDl1; rewrite !in_app_iff; auto.
        - apply NoDup_app_iff. split; [exact P1|]. split.
          + apply NoDup_app_iff. split; [exact X2|]. split; [exact P5|]. intros i Hi Hj.
            apply (P6 i); auto. apply Hk'; auto. apply Hfp. rewrite !in_app_iff. auto.
          + intros i Hi Hj. rewrite in_app_iff in Hj. apply (P3 i); auto. rewrite in_app_iff. destruct Hj as [Hj|Hj]; [|auto].
            left. apply Hk'; auto. apply Hfp. rewrite !in_app_iff. auto. }
      split.
      { intros i Hi. rewrite !in_app_iff in *. destruct Hi as [Hi|[Hi|Hi]]; auto. destruct (X3 _ Hi); [auto|right; lia]. }
      split.
      { eapply evolves_trans; [apply evolves_keeps, Kh3|exact X4|]. intros i Hi. left. right. rewrite !in_app_iff. auto. }
      assert (Hcr : tcreate tv = Some w).
      { assert (Hw : w = t').
        { unfold tcoerce, ty_eqb in Ec. destruct (ty_eq_dec (ttype t') (ttype tbk)); [congruence|].
          destruct t', tbk; inversion Ec; subst; discriminate. }
        subst w. destruct (branchb tv) eqn:Eb.
        - unfold tdecode in Ed. rewrite Eb in Ed. destruct (tcreate tv); inversion Ed. reflexivity.
        - rewrite (tdecode_leaf _ _ _ Eb Ed) in En. discriminate. }
      split.
      { intros Hr NR. rewrite <- (tcreate_depth_eq _ _ Hcr). auto. }
      intros Hr. rewrite dset_split by auto. specialize (X5 Hr En).
      assert (Etm : tmerge literal_eval rm w tbk (ks ++ [k]) = tmerge literal_eval rm tv tbk (ks ++ [k])) by (apply tmerge_create; exact Hcr).
      rewrite <- Etm, <- X5. reflexivity.
    + (* the value replaces the old one *)
      assert (Eo3 : nth_error h3 l = Some (ONode mb (d1 ++ (k, bk) :: d2))) by (apply K3; exact Eo).
      destruct (setitem_ok h3 l mb (d1 ++ (k, bk) :: d2) _ _ k v3 w fp2 Eo3 NDk (reads_items_keeps _ _ _ _ _ K3 Rd) R3 (Nall h3 fp2 Kh3 A2 N2))
        as (h4 & fp' & Y1 & Y2 & Y3 & Y4 & Y5 & Y6).
      rewrite Y1 in E. inversion E; subst h4 r.
      exists (dset (ts1 ++ (k, tbk) :: ts2) k w), fp'. split; [exact Y2|]. split; [exact Y3|]. split.
      { intros i Hi. apply Y4 in Hi. rewrite in_app_iff in Hi. destruct Hi as [Hi|Hi]; [auto|]. right. apply A2, Hi. }
      split.
      { eapply evolves_trans; [apply evolves_keeps, Kh3|exact Y5|]. intros i [<-|[]]. cbn. auto. }
      split; [discriminate|]. intros _. reflexivity.
  - destruct (dget db k) as [tbk|] eqn:Ekt; [contradiction|].
    assert (HM2 : has_meta h2 root rm) by (eapply has_meta_keeps; eauto).
    unfold is_new_allowed in E. 
    assert (Hb : has_meta h2 (VRef l) mb) by (exists l, d; auto).
    erewrite bind_eq in E by (rewrite (bind_eq _ _ _ _ _ (meta_of_ok _ _ _ Hb)); reflexivity). cbv beta in E.
    destruct (m_new mb).
    + destruct (setitem_ok h2 l mb d _ _ k v2 t' fp2 Eo NDk Rd R2 (Nall h2 fp2 K A2 N2)) as (h4 & fp' & Y1 & Y2 & Y3 & Y4 & Y5 & Y6).
      rewrite Y1 in E. inversion E; subst h4 r.
      exists (dset db k t'), fp'. split; [exact Y2|]. split; [exact Y3|]. split.
      { intros i Hi. apply Y4 in Hi. rewrite in_app_iff in Hi. destruct Hi as [Hi|Hi]; [auto|]. right. apply A2, Hi. }
      split.
      { eapply evolves_trans; [apply evolves_keeps, K|exact Y5|]. intros i [<-|[]]. cbn. auto. }
      split; [discriminate|]. intros _. reflexivity.
    + unfold key_is_deprecated, key_is_renamed, raise_key_rename_error in E.
      erewrite bind_eq in E by (rewrite (bind_eq _ _ _ _ _ (meta_of_ok _ _ _ HM2)); reflexivity). cbv beta in E.
      unfold missing_key. exists db, fp. destruct (Stop _ K) as (S1 & S2 & S3 & S4).
      destruct (has (m_dep rm) (join (ks ++ [k]))).
      * inversion E; subst. repeat split; auto. discriminate.
      * erewrite bind_eq in E by (rewrite (bind_eq _ _ _ _ _ (meta_of_ok _ _ _ HM2)); reflexivity). cbv beta in E.
        unfold dhas in E. destruct (dget (m_ren rm) (join (ks ++ [k]))) as [[new msg]|] eqn:Er.
        -- rewrite (bind_eq _ _ _ _ _ (meta_of_ok _ _ _ HM2)), Er in E. inversion E; subst. repeat split; auto. discriminate.
        -- inversion E; subst. repeat split; auto. discriminate.
Qed.

Lemma reads_items_nth h d ts fp i k v : reads_items h d ts fp -> nth_error d i = Some (k, v) ->
  exists t fpv, nth_error ts i = Some (k, t) /\ reads h v t fpv /\ incl fpv fp /\ (NoDup fp -> NoDup fpv).
Proof.
  intros R. revert i. induction R as [|k' v' t fpv d ts fps Rv Rs IH]; intros [|i] E; cbn in E; try discriminate.
  - inversion E; subst. exists t, fpv. repeat split; auto; [apply incl_appl, incl_refl|]. intros H. apply NoDup_app_iff in H. tauto.
  - destruct (IH _ E) as (t0 & fp0 & A & B & C & D). exists t0, fp0. repeat split; auto; [apply incl_appr; exact C|].
    intros H. apply NoDup_app_iff in H. apply D. tauto.
Qed.
Lemma reads_items_length h d ts fp : reads_items h d ts fp -> length d = length ts.
Proof. induction 1; cbn; auto. Qed.
Lemma skipn_nth {A} (l : list A) i x : nth_error l i = Some x -> skipn i l = x :: skipn (S i) l.
Proof. revert i. induction l as [|y l IH]; intros [|i] E; cbn in *; try discriminate; [congruence|apply IH, E]. Qed.

Lemma loop_refines f rec ks : merge_spec f rec ->
  forall todo i l mb db fp la oa a dva da fpa h h' r, has_meta h root rm ->
    reads h (VRef l) (TNode mb db) (l :: fp) -> NoDup (l :: fp) ->
    a = VRef la -> nth_error h la = Some oa -> obj_items oa = Some dva -> reads_items h dva da fpa -> NoDup fpa ->
    (forall x, In x (la :: fpa) -> In x (l :: fp) -> False) ->
    todo + i = length dva ->
    each_item (length dva) (merge_entry literal_eval f rec (VRef l) root ks) a todo i h = (h', r) ->
    exists db' fp', reads h' (VRef l) (TNode mb db') (l :: fp') /\ NoDup (l :: fp') /\ within fp' fp (length h) /\ evolves (l :: fp) h h' /\
      (r = Raise XRecursion -> no_recursion_error -> exists k t, In (k, t) da /\ f <= tdepth t) /\
      (r <> Raise XRecursion -> (db', r) = tmerge_items literal_eval rm mb ks (skipn i da) db).
Proof.
  intros Hrec. induction todo as [|t IH]; intros i l mb db fp la oa a dva da fpa h h' r HM Rb ND Ea Eoa Ei Ra Na Dis Hn E; subst a; cbn [each_item] in E;
  (erewrite bind_eq in E; [|cbn; unfold bind, load; rewrite Eoa, Ei; reflexivity]); cbv beta in E; rewrite Nat.eqb_refl in E; cbn [negb] in E.
  - inversion E; subst. exists db, fp. repeat split; auto.
    + intros x Hx. auto.
    + apply evolves_keeps, keeps_refl.
    + discriminate.
    + intros _. rewrite skipn_all2; [reflexivity|]. rewrite <- (reads_items_length _ _ _ _ Ra). lia.
  - destruct (nth_error dva i) as [[k v]|] eqn:Ev; [|apply nth_error_None in Ev; lia].
    destruct (reads_items_nth _ _ _ _ _ _ _ Ra Ev) as (tv & fpv & Et & Rv & Iv & Nv).
    rewrite (skipn_nth _ _ _ Et). cbn [tmerge_items].
    apply bind_inv in E. destruct E as [(u & h1 & E1 & E)|(e & E1 & E)].
    + destruct (entry_refines f rec ks k Hrec l mb db fp v tv fpv h h1 (Done u)) as (db1 & fp1 & X1 & X2 & X3 & X4 & X6 & X5); auto.
      assert (Dis1 : forall x, In x (la :: fpa) -> In x (l :: fp1) -> False).
      { intros x Hx [<-|Hy]; [apply (Dis l); cbn; auto|]. destruct (X3 _ Hy) as [Hy'|Hy']; [apply (Dis x); cbn; auto|].
        assert (x < length h); [|lia]. destruct Hx as [<-|Hx]; [eapply nth_lt; eauto|]. eapply reads_items_lt; eauto. }
      destruct (IH (S i) l mb db1 fp1 la oa (VRef la) dva da fpa h1 h' r) as (db2 & fp2 & Y1 & Y2 & Y3 & Y4 & Y6 & Y5); auto.
      * eapply has_meta_evolves; eauto.
      * destruct (X4 _ _ Eoa) as (o' & Z1 & Z2 & [Z3|Z3]); [exfalso; apply (Dis la); cbn; auto|subst; auto].
      * eapply reads_items_evolves; [exact X4|exact Ra|]. intros x Hx C. apply (Dis x); cbn; auto.
      * lia.
      * exists db2, fp2. split; [exact Y1|]. split; [exact Y2|].
        pose proof (evolves_length _ _ _ X4) as L.
        split. { intros x Hx. destruct (Y3 _ Hx) as [Hx'|Hx']; [apply X3, Hx'|right; lia]. }
        split. { eapply evolves_trans; [exact X4|exact Y4|]. intros x [<-|Hx]; [cbn; auto|]. destruct (X3 _ Hx); cbn; auto. }
        split; [exact Y6|]. intros Hr. rewrite <- X5 by discriminate. apply Y5, Hr.
    + subst r. destruct (entry_refines f rec ks k Hrec l mb db fp v tv fpv h h' (Raise e)) as (db1 & fp1 & X1 & X2 & X3 & X4 & X6 & X5); auto.
      exists db1, fp1. repeat split; auto.
      { intros Hr NR. exists k, tv. split; [eapply nth_error_In; eauto|auto]. }
      intros Hr. rewrite <- X5 by auto. reflexivity.
Qed.

Lemma merge_refines : forall fuel, merge_spec fuel (merge_a_into_b literal_eval fuel root).
Proof.
  induction fuel as [|f IH]; intros a b ks h h' r ta tb fpa fpb HM Ra Rb Na Nb Dis E; cbn [merge_a_into_b] in E.
  - inversion E; subst. exists tb, fpb. repeat split; auto; [intros x Hx; auto|apply evolves_keeps, keeps_refl|lia|contradiction].
  - assert (Stop : h' = h -> r <> Raise XRecursion -> (r <> Raise XRecursion -> nodeb ta = true -> (tb, r) = tmerge literal_eval rm ta tb ks) ->
       exists tb' fpb', reads h' b tb' fpb' /\ NoDup fpb' /\ within fpb' fpb (length h) /\ evolves fpb h h' /\
      (r = Raise XRecursion -> no_recursion_error -> S f <= tdepth ta) /\
      (r <> Raise XRecursion -> nodeb ta = true -> (tb', r) = tmerge literal_eval rm ta tb ks)).
    { intros -> Hx. exists tb, fpb. repeat split; auto; [intros x Hx'; auto|apply evolves_keeps, keeps_refl|congruence]. }
    unfold bind at 1, get at 1 in E. rewrite (reads_is_node _ _ _ _ Ra) in E.
    destruct (nodeb ta) eqn:Ena; unfold bind at 1, assert_ at 1 in E; [|inversion E; subst; apply Stop; [auto|discriminate|discriminate]].
    unfold bind at 1, get at 1 in E. rewrite (reads_is_node _ _ _ _ Rb) in E.
    destruct (nodeb tb) eqn:Enb; unfold bind at 1, assert_ at 1 in E.
    2:{ inversion E; subst. apply Stop; [auto|discriminate|]. intros _ _. destruct ta; try discriminate. destruct tb; try discriminate; reflexivity. }
    destruct ta as [| | | |ma da]; try discriminate. destruct tb as [| | | |mb db]; try discriminate.
    inversion Ra as [| | | |la ? dva ? fpa' Eoa NDa Ria]; subst. inversion Rb as [| | | |lb ? dvb ? fpb' Eob NDb Rib]; subst.
    erewrite bind_eq in E; [|cbn; unfold bind, load; rewrite Eoa; reflexivity]. cbv beta in E.
    destruct (loop_refines f (merge_a_into_b literal_eval f root) ks IH (length dva) 0 lb mb db fpb' la (ONode ma dva) (VRef la) dva da fpa' h h' r)
      as (db' & fp' & X1 & X2 & X3 & X4 & X6 & X5); auto.
    { inversion Na; auto. }
    exists (TNode mb db'), (lb :: fp'). repeat split; auto.
    { intros x [<-|Hx]; [cbn; auto|]. destruct (X3 _ Hx); cbn; auto. }
    { intros Hr NR. destruct (X6 Hr NR) as (k & t & Hin & Hd). pose proof (tdepth_node ma _ _ _ Hin). lia. }
    intros Hr _. specialize (X5 Hr). rewrite (tmerge_eq _ _ _ da) by reflexivity. cbn [skipn] in X5. rewrite <- X5. reflexivity.
Qed.
End Merge.
