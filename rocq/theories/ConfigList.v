(* merge_from_list: dotted overrides. *)
From Coq Require Import ZArith String Ascii List Bool Arith Lia.
From Verif Require Import ConfigModel ConfigSpec ConfigHeap ConfigCopy ConfigTree ConfigMerge ConfigMergeHeap ConfigPaths.
Import ListNotations.
Local Open Scope list_scope.
Local Open Scope nat_scope.

(* ---------------------------------------------------------------- the constructor relation *)
Scheme built_mut := Minimality for built Sort Prop with built_items_mut := Minimality for built_items Sort Prop.
Combined Scheme built_ind2 from built_mut, built_items_mut.
Lemma valid_ty_in t : valid_ty t = true <-> In t [TyTup; TyList; TyStr; TyInt; TyFloat; TyBool].
Proof.
  unfold valid_ty. rewrite existsb_exists. split; [intros (x & H & E); apply ty_eqb_eq in E; subst; exact H|intros H; exists t; split; [exact H|apply ty_eqb_eq; reflexivity]].
Qed.
Lemma branch_iff t : is_branch t <-> branchb t = true.
Proof. unfold is_branch. destruct t; cbn; split; congruence. Qed.
Lemma built_create : (forall t t', built t t' -> tcreate t = Some t') /\ (forall d d', built_items d d' -> tcreate_items d = Some d').
Proof.
  apply built_ind2.
  - intros t d d' E _ H. rewrite (tcreate_eq _ _ E), H. reflexivity.
  - reflexivity.
  - intros k x y d d' B H _ Hd. cbn. rewrite Hd. unfold tcreate1. assert (branchb x = true) as -> by (destruct x; cbn in H; try discriminate; reflexivity). rewrite H. reflexivity.
  - intros k x d d' B V _ Hd. cbn. rewrite Hd. unfold tcreate1. assert (branchb x = false) as ->. { destruct (branchb x) eqn:E; [|reflexivity]. apply branch_iff in E. contradiction. }
    apply valid_ty_in in V. rewrite V. reflexivity.
Qed.
Lemma create_built t : forall t', tcreate t = Some t' -> built t t'.
Proof.
  assert (G : forall d, Forall (fun kv : string * tree => forall t', tcreate (snd kv) = Some t' -> built (snd kv) t') d ->
    forall d', tcreate_items d = Some d' -> built_items d d').
  { induction 1 as [|[k x] d Hx Hd IH]; intros d' E; cbn in E; [inversion E; constructor|]. cbn [snd] in Hx.
    destruct (tcreate1 x) as [y|] eqn:E1, (tcreate_items d) as [ys|] eqn:E2; try discriminate. inversion E; subst.
    unfold tcreate1 in E1. destruct (branchb x) eqn:Bx; [constructor; auto|].
    destruct (valid_ty (ttype x)) eqn:V; inversion E1; subst. apply Built_leaf; auto.
    - rewrite branch_iff. congruence.
    - apply valid_ty_in, V. }
  induction t using tree_ind'; intros t' E; try discriminate.
  - rewrite (tcreate_eq (TDict d) d eq_refl) in E. destruct (tcreate_items d) as [d'|] eqn:Ed; inversion E; subst. econstructor; [reflexivity|]. auto.
  - rewrite (tcreate_eq (TNode m d) d eq_refl) in E. destruct (tcreate_items d) as [d'|] eqn:Ed; inversion E; subst. econstructor; [reflexivity|]. auto.
Qed.

(* ---------------------------------------------------------------- dotted names *)
Definition glue (x : string) (r : list string) : string := match r with [] => x | _ => (x ++ "." ++ String.concat "." r)%string end.
Lemma join_cons x r : join (x :: r) = glue x r.
Proof. reflexivity. Qed.
Lemma split_dot_nonempty s : split_dot s <> [].
Proof. destruct s as [|c s]; cbn; [discriminate|]. destruct (Ascii.eqb c "."); [discriminate|]. destruct (split_dot s); discriminate. Qed.
Lemma split_dot_join s : join (split_dot s) = s.
Proof.
  induction s as [|c s IH]; [reflexivity|]. cbn [split_dot]. destruct (Ascii.eqb_spec c "."%char) as [->|N].
  - rewrite join_cons. unfold glue. destruct (split_dot s) as [|y ys] eqn:E; [exfalso; eapply split_dot_nonempty; eauto|].
    cbn [String.append]. f_equal. exact IH.
  - destruct (split_dot s) as [|y ys] eqn:E; [exfalso; eapply split_dot_nonempty; eauto|].
    rewrite join_cons. rewrite join_cons in IH. unfold glue in *. destruct ys; cbn [String.append]; f_equal; exact IH.
Qed.
Lemma split_dot_free s : Forall dot_free (split_dot s).
Proof.
  induction s as [|c s IH]; cbn [split_dot]; [constructor; [intros [|n]; discriminate|constructor]|].
  destruct (Ascii.eqb_spec c "."%char) as [->|N]; [constructor; [intros [|n]; discriminate|exact IH]|].
  destruct (split_dot s) as [|y ys] eqn:E; [exfalso; eapply split_dot_nonempty; eauto|].
  inversion IH; subst. constructor; [|auto]. intros [|n]; cbn; [congruence|apply H1].
Qed.
Lemma split_dotted s : dotted s (split_dot s).
Proof. repeat split; [apply split_dot_nonempty|apply split_dot_free|symmetry; apply split_dot_join]. Qed.
Lemma split_glue x s : dot_free x -> split_dot (x ++ String "."%char s) = x :: split_dot s.
Proof.
  induction x as [|c x IH]; intros H; cbn; [reflexivity|]. destruct (Ascii.eqb_spec c "."%char) as [->|N]; [exfalso; apply (H 0); reflexivity|].
  rewrite IH; [reflexivity|]. intros n. apply (H (S n)).
Qed.
Lemma split_word x : dot_free x -> split_dot x = [x].
Proof.
  induction x as [|c x IH]; intros H; cbn; [reflexivity|]. destruct (Ascii.eqb_spec c "."%char) as [->|N]; [exfalso; apply (H 0); reflexivity|].
  rewrite IH; [reflexivity|]. intros n. apply (H (S n)).
Qed.
Lemma dotted_split s p : dotted s p -> p = split_dot s.
Proof.
  intros (N & F & ->). induction p as [|x p IH]; [contradiction|]. inversion F; subst. rewrite join_cons. unfold glue.
  destruct p as [|y p]; [rewrite split_word by auto; reflexivity|]. cbn [String.append]. rewrite split_glue by auto. f_equal. apply IH; [discriminate|auto].
Qed.

(* ---------------------------------------------------------------- replacing below a path *)
Definition set_items (t : tree) (d : list (string * tree)) : tree := match t with TNode m _ => TNode m d | TDict _ => TDict d | _ => t end.
Lemma set_path_cons t d k r w : entries t = Some d -> set_path t (k :: r) w = match dget d k with Some c => set_items t (dset d k (set_path c r w)) | None => t end.
Proof. destruct t; cbn; intros E; inversion E; subst; reflexivity. Qed.
Lemma set_path_get p : forall t w c, at_path t p = Some c -> at_path (set_path t p w) p = Some w.
Proof.
  induction p as [|k p IH]; intros t w c A; [reflexivity|]. cbn in A. destruct (entries t) as [d|] eqn:Ed; [|discriminate].
  destruct (dget d k) as [x|] eqn:Ex; [|discriminate]. rewrite (set_path_cons _ _ _ _ _ Ed), Ex.
  assert (E' : entries (set_items t (dset d k (set_path x p w))) = Some (dset d k (set_path x p w))) by (destruct t; inversion Ed; subst; reflexivity).
  rewrite (at_path_cons _ _ _ _ E'), dset_same. eauto.
Qed.
Lemma set_path_other p : forall t w q, ~ starts_with p q -> ~ starts_with q p -> at_path (set_path t p w) q = at_path t q.
Proof.
  induction p as [|k p IH]; intros t w q H1 H2; [exfalso; apply H1; exists q; reflexivity|].
  destruct q as [|k' q]; [exfalso; apply H2; exists (k :: p); reflexivity|].
  destruct (entries t) as [d|] eqn:Ed; [|destruct t; try discriminate; reflexivity].
  rewrite (set_path_cons _ _ _ _ _ Ed). destruct (dget d k) as [x|] eqn:Ex; [|reflexivity].
  assert (E' : entries (set_items t (dset d k (set_path x p w))) = Some (dset d k (set_path x p w))) by (destruct t; inversion Ed; subst; reflexivity).
  rewrite (at_path_cons _ _ _ _ E'), (at_path_cons _ _ _ _ Ed). destruct (String.eqb_spec k k') as [<-|N].
  - rewrite dset_same, Ex. apply IH; [intros (r & ->); apply H1; exists r; reflexivity|intros (r & ->); apply H2; exists r; reflexivity].
  - rewrite dset_other by auto. reflexivity.
Qed.
(* above the replaced entry: same keys in the same order, same attributes *)
Lemma set_path_above p : forall t w q k r c d, p = q ++ k :: r -> at_path t p <> None -> at_path t q = Some c -> entries c = Some d ->
  exists d', at_path (set_path t p w) q = Some (set_items c d') /\ keys d' = keys d.
Proof.
  induction p as [|k0 p IH]; intros t w q k r c d E A Ac Ed; [destruct q; discriminate|].
  cbn in A. destruct (entries t) as [dt|] eqn:Et; [|contradiction]. destruct (dget dt k0) as [x|] eqn:Ex; [|contradiction].
  assert (E' : entries (set_items t (dset dt k0 (set_path x p w))) = Some (dset dt k0 (set_path x p w))) by (destruct t; inversion Et; subst; reflexivity).
  rewrite (set_path_cons _ _ _ _ _ Et), Ex.
  destruct q as [|k1 q].
  - cbn in Ac. inversion Ac; subst. assert (d = dt) by congruence. subst. exists (dset dt k0 (set_path x p w)). split; [reflexivity|].
    apply dset_keys_in. apply dget_in in Ex. apply (in_map fst) in Ex. exact Ex.
  - inversion E; subst. rewrite (at_path_cons _ _ _ _ E'), dset_same. rewrite (at_path_cons _ _ _ _ Et), Ex in Ac.
    eapply IH; eauto.
Qed.

Lemma setitem_ok2 h l o d t db fp k v w fpv : nth_error h l = Some o -> obj_items o = Some d -> NoDup (keys d) -> reads_items h d db fp ->
  reads h (VRef l) t (l :: fp) -> entries t = Some db ->
  reads h v w fpv -> NoDup (l :: fp ++ fpv) ->
  exists h' fp', setitem (VRef l) k v h = (h', Done tt) /\ reads h' (VRef l) (set_items t (dset db k w)) (l :: fp') /\ NoDup (l :: fp') /\
    incl fp' (fp ++ fpv) /\ evolves [l] h h' /\ length h' = length h.
Proof.
  intros E Ei ND R Rt Et Rv N. inversion N as [|? ? N1 N2]; subst.
  destruct (reads_items_dset _ _ _ _ k _ _ _ R Rv) as (fp' & R' & I' & N').
  exists (upd h l (with_items o (dset d k v))), fp'.
  assert (HE : evolves [l] h (upd h l (with_items o (dset d k v)))).
  { eapply evolves_store; [exact E| |]; destruct o; cbn in *; try discriminate; eauto. }
  split. { cbn. unfold bind, load. rewrite E, Ei. reflexivity. }
  split.
  { assert (R2 : reads_items (upd h l (with_items o (dset d k v))) (dset d k v) (dset db k w) fp').
    { eapply reads_items_evolves; [exact HE|exact R'|]. intros x Hx [<-|C]; [|contradiction]. apply N1, I', Hx. }
    assert (U : nth_error (upd h l (with_items o (dset d k v))) l = Some (with_items o (dset d k v))) by (apply upd_same; eapply nth_lt; eauto).
    inversion Rt; subst; try discriminate; rewrite E in *; match goal with X : Some _ = Some _ |- _ => inversion X; subst end; cbn in *; inversion Et; inversion Ei; subst;
      econstructor; eauto; apply dset_nodup; exact ND. }
  split. { constructor; [|auto]. intros C. apply N1, I', C. }
  split; [exact I'|]. split; [exact HE|apply upd_length].
Qed.

(* walking down, and putting back what was changed there *)
Lemma walk_reads p : forall h v t fp h' x, reads h v t fp -> walk v p h = (h', Done x) ->
  h' = h /\ exists c fpx, at_path t p = Some c /\ reads h x c fpx /\ incl fpx fp /\
    (NoDup fp -> NoDup fpx /\ forall h2 c2 fp2, evolves fpx h h2 -> reads h2 x c2 fp2 -> NoDup fp2 -> within fp2 fpx (length h) ->
      exists fp', reads h2 v (set_path t p c2) fp' /\ NoDup fp' /\ within fp' fp (length h)).
Proof.
  induction p as [|k p IH]; intros h v t fp h' x R E; cbn [walk] in E.
  - inversion E; subst. split; [reflexivity|]. exists t, fp. repeat split; auto; [apply incl_refl|]. intros h2 c2 fp2 _ R2 N2 W2. exists fp2. auto.
  - apply bind_done in E. destruct E as (c0 & h0 & E0 & E).
    assert (h0 = h). { unfold contains in E0. destruct v as [[]| |l]; try (inversion E0; reflexivity). unfold bind, load in E0. destruct (nth_error h l); inversion E0; reflexivity. } subst h0.
    unfold bind at 1, assert_ at 1 in E. destruct c0; [|discriminate].
    apply bind_done in E. destruct E as (y & h1 & E1 & E).
    unfold subscript in E1. destruct v as [| |l]; try discriminate. apply bind_done in E1. destruct E1 as (o & h2 & E2 & E1).
    unfold load in E2. destruct (nth_error h l) as [o'|] eqn:El; [|discriminate]. inversion E2; subst o' h2. clear E2.
    destruct (obj_items o) as [dv|] eqn:Eo; [|discriminate]. destruct (dget dv k) as [y'|] eqn:Ek; [|discriminate]. inversion E1; subst y' h1. clear E1 E0.
    assert (Hb : exists d, entries t = Some d). { inversion R; subst; rewrite El in *; match goal with X : Some _ = Some _ |- _ => inversion X; subst end; try discriminate; cbn; eauto. }
    destruct Hb as [d Ed]. destruct (reads_branch _ _ _ _ _ R Ed) as (l' & o' & dv' & fp' & Q1 & Q2 & Q3 & Q4 & Q5 & Q6 & Q7).
    inversion Q1; subst l'. rewrite El in Q2. inversion Q2; subst o'. rewrite Eo in Q3. inversion Q3; subst dv'. subst fp.
    destruct (reads_items_split _ _ _ _ _ _ Q5 Ek) as (d1 & d2 & ts1 & ts2 & t0 & fa & fk & fb & -> & -> & -> & Ra & Rk & Rb & Na & Nb).
    destruct (IH _ _ _ _ _ _ Rk E) as (-> & c & fpx & A1 & A2 & A3 & A4). split; [reflexivity|].
    exists c, fpx. rewrite (at_path_cons _ _ _ _ Ed), dget_split by auto. split; [exact A1|]. split; [exact A2|].
    split. { intros z Hz. right. apply in_app_iff. right. apply in_app_iff. left. auto. }
    intros ND. inversion ND as [|? ? ND1 ND2]; subst. apply NoDup_app_iff in ND2. destruct ND2 as (Ma & M2 & M3). apply NoDup_app_iff in M2. destruct M2 as (Mk & Mb & M4).
    destruct (A4 Mk) as [Nx Put]. split; [exact Nx|]. intros h2 c2 fp2 Ev R2 N2 W2.
    destruct (Put h2 c2 fp2 Ev R2 N2 W2) as (fk' & P1 & P2 & P3).
    exists (l :: fa ++ fk' ++ fb).
    assert (Oa : forall z, In z fa -> ~ In z fpx) by (intros z Hz C; apply (M3 z Hz), in_app_iff; left; auto).
    assert (Ob : forall z, In z fb -> ~ In z fpx) by (intros z Hz C; apply (M4 z); auto).
    assert (Ol : ~ In l fpx) by (intros C; apply ND1, in_app_iff; right; apply in_app_iff; left; auto).
    assert (Ra2 : reads_items h2 d1 ts1 fa) by (eapply reads_items_evolves; eauto).
    assert (Rb2 : reads_items h2 d2 ts2 fb) by (eapply reads_items_evolves; eauto).
    assert (Ri2 : reads_items h2 (d1 ++ (k, y) :: d2) (ts1 ++ (k, set_path t0 p c2) :: ts2) (fa ++ fk' ++ fb)).
    { apply reads_items_app; [exact Ra2|]. constructor; auto. }
    assert (El2 : nth_error h2 l = Some o). { destruct (Ev _ _ El) as (o2 & Z1 & Z2 & [Z3|Z3]); [contradiction|subst; auto]. }
    assert (Lt : forall z, In z (fa ++ fk ++ fb) -> z < length h) by (intros z Hz; exact (reads_items_lt _ _ _ _ _ Q5 Hz)).
    split.
    { rewrite (set_path_cons _ _ _ _ _ Ed), dget_split by auto. rewrite dset_split by auto.
      destruct Q7 as [(m & -> & ->)|(-> & ->)]; cbn [set_items]; econstructor; eauto. }
    split.
    { constructor.
      - intros C. apply in_app_iff in C. destruct C as [C|C]; [apply ND1, in_app_iff; auto|]. apply in_app_iff in C. destruct C as [C|C].
        + destruct (P3 _ C) as [C'|C']; [apply ND1, in_app_iff; right; apply in_app_iff; auto|]. apply nth_lt in El. lia.
        + apply ND1, in_app_iff. right. apply in_app_iff. auto.
      - apply NoDup_app_iff. split; [exact Ma|]. split.
        + apply NoDup_app_iff. split; [exact P2|]. split; [exact Mb|]. intros z Hz Hz'. destruct (P3 _ Hz) as [C|C]; [eapply M4; eauto|].
          assert (z < length h) by (apply Lt, in_app_iff; right; apply in_app_iff; auto). lia.
        + intros z Hz C. apply in_app_iff in C. destruct C as [C|C]; [|apply (M3 z Hz), in_app_iff; auto].
          destruct (P3 _ C) as [C'|C']; [apply (M3 z Hz), in_app_iff; auto|]. assert (z < length h) by (apply Lt, in_app_iff; auto). lia. }
    intros z [<-|Hz]; [left; cbn; auto|]. apply in_app_iff in Hz. destruct Hz as [Hz|Hz]; [left; right; apply in_app_iff; auto|].
    apply in_app_iff in Hz. destruct Hz as [Hz|Hz]; [|left; right; apply in_app_iff; right; apply in_app_iff; auto].
    destruct (P3 _ Hz) as [C|C]; [left; right; apply in_app_iff; right; apply in_app_iff; auto|auto].
Qed.
Lemma walk_state p : forall h v h' r, walk v p h = (h', r) -> h' = h.
Proof.
  induction p as [|k p IH]; intros h v h' r E; cbn [walk] in E; [inversion E; reflexivity|].
  assert (Cs : forall h0 r0, contains v k h = (h0, r0) -> h0 = h).
  { intros h0 r0 E0. unfold contains in E0. destruct v as [[]| |l]; try (inversion E0; reflexivity). unfold bind, load in E0. destruct (nth_error h l); inversion E0; reflexivity. }
  apply bind_inv in E. destruct E as [(c & h1 & E1 & E)|(e & E1 & E)]; [|eauto]. rewrite (Cs _ _ E1) in *. clear E1.
  unfold bind at 1, assert_ at 1 in E. destruct c; [|inversion E; reflexivity].
  apply bind_inv in E. destruct E as [(y & h2 & E2 & E)|(e & E2 & E)].
  - assert (h2 = h); [|subst; eauto]. unfold subscript in E2. destruct v as [| |l]; try (inversion E2; reflexivity). unfold bind, load in E2.
    destruct (nth_error h l) as [o|]; [|inversion E2; reflexivity]. destruct (obj_items o) as [d|]; [|inversion E2; reflexivity]. destruct (dget d k); inversion E2; reflexivity.
  - unfold subscript in E2. destruct v as [| |l]; try (inversion E2; reflexivity). unfold bind, load in E2.
    destruct (nth_error h l) as [o|]; [|inversion E2; reflexivity]. destruct (obj_items o) as [d|]; [|inversion E2; reflexivity]. destruct (dget d k); inversion E2; reflexivity.
Qed.

Lemma key_of_meta h self m fp d : reads h self (TNode m d) fp -> meta_of self h = (h, Done m).
Proof. intros R. inversion R as [| | | |l ? d' ? ? E ND Ri]; subst. cbn. unfold bind, load. rewrite E. reflexivity. Qed.
Lemma contains_state v k h h' r : contains v k h = (h', r) -> h' = h.
Proof. unfold contains. destruct v as [[]| |l]; intros E; try (inversion E; reflexivity). unfold bind, load in E. destruct (nth_error h l); inversion E; reflexivity. Qed.
Lemma subscript_state v k h h' r : subscript v k h = (h', r) -> h' = h.
Proof.
  unfold subscript. destruct v as [| |l]; intros E; try (inversion E; reflexivity). unfold bind, load in E.
  destruct (nth_error h l) as [o|]; [|inversion E; reflexivity]. destruct (obj_items o) as [d|]; [|inversion E; reflexivity]. destruct (dget d k); inversion E; reflexivity.
Qed.
Lemma subscript_reads h v t fp k h' x : reads h v t fp -> subscript v k h = (h', Done x) ->
  h' = h /\ exists l o dv d fp', v = VRef l /\ nth_error h l = Some o /\ obj_items o = Some dv /\ NoDup (keys dv) /\ entries t = Some d /\ fp = l :: fp' /\
    reads_items h dv d fp' /\ exists c fpx, dget d k = Some c /\ reads h x c fpx.
Proof.
  intros R E. pose proof (subscript_state _ _ _ _ _ E) as ->. split; [reflexivity|]. unfold subscript in E. destruct v as [| |l]; try discriminate.
  apply bind_done in E. destruct E as (o & h2 & E2 & E). unfold load in E2. destruct (nth_error h l) as [o'|] eqn:El; [|discriminate]. inversion E2; subst o' h2.
  destruct (obj_items o) as [dv|] eqn:Eo; [|discriminate]. destruct (dget dv k) as [y|] eqn:Ek; [|discriminate]. inversion E; subst y.
  assert (Hb : exists d, entries t = Some d). { inversion R; subst; rewrite El in *; match goal with X : Some _ = Some _ |- _ => inversion X; subst end; try discriminate; cbn; eauto. }
  destruct Hb as [d Ed]. destruct (reads_branch _ _ _ _ _ R Ed) as (l' & o' & dv' & fp' & Q1 & Q2 & Q3 & Q4 & Q5 & Q6 & Q7).
  inversion Q1; subst l'. rewrite El in Q2. inversion Q2; subst o'. rewrite Eo in Q3. inversion Q3; subst dv'. subst fp.
  exists l, o, dv, d, fp'. repeat split; auto.
  destruct (reads_items_split _ _ _ _ _ _ Q5 Ek) as (d1 & d2 & ts1 & ts2 & t0 & fa & fk & fb & -> & -> & -> & Ra & Rk & Rb & Na & Nb).
  exists t0, fk. rewrite dget_split by auto. auto.
Qed.

Lemma set_path_app p : forall t q c w, at_path t p = Some c -> set_path t (p ++ q) w = set_path t p (set_path c q w).
Proof.
  induction p as [|k p IH]; intros t q c w A; [cbn in A; inversion A; subst; reflexivity|]. cbn [app]. cbn in A.
  destruct (entries t) as [d|] eqn:Ed; [|discriminate]. destruct (dget d k) as [x|] eqn:Ex; [|discriminate].
  rewrite !(set_path_cons _ _ _ _ _ Ed), Ex. f_equal. f_equal. eauto.
Qed.
Lemma in_keys_ren {A} (d : list (string * A)) k : dhas d k = true <-> In k (keys d).
Proof.
  split.
  - intros H. apply dhas_get in H. destruct H as [v H]. apply dget_in in H. apply (in_map fst) in H. exact H.
  - intros H. unfold dhas. destruct (dget d k) eqn:E; [reflexivity|]. apply dget_none in E. contradiction.
Qed.

Section Over.
Variable literal_eval : string -> out lit.
Variable rm : meta.

Lemma decode_any fuel v h h' x t fp : reads h v t fp -> decode literal_eval fuel v h = (h', Done x) ->
  exists t' fp', reads h' x t' fp' /\ (decodes literal_eval t t' \/ built t t') /\ (NoDup fp -> branchb t = true \/ fp = [] -> above fp' (length h) /\ NoDup fp').
Proof.
  intros R E. pose proof (decode_refines _ _ _ _ _ _ _ _ R E ltac:(discriminate)) as Q.
  destruct (tdecode literal_eval t) as [t'|e] eqn:Ed; [|discriminate]. destruct Q as (v' & fp' & Q1 & Q2 & Q3 & Q4). inversion Q1; subst v'.
  exists t', fp'. split; [exact Q2|]. destruct (branchb t) eqn:Bt.
  - pose proof (tdecode_branch _ _ _ Bt Ed) as Tc. split; [right; apply create_built; auto|]. intros Nf _.
    unfold decode in E. unfold bind at 1, get at 1 in E. rewrite (reads_is_dict _ _ _ _ R), Bt in E.
    pose proof (mk_node_refines _ _ _ _ _ _ _ _ R Bt E ltac:(discriminate)) as P. rewrite Tc in P.
    destruct P as (v' & fp2 & P1 & P2 & P3 & P4). inversion P1; subst v'.
    assert (with_new false t' = t') as Wn. { apply branch_entries in Bt. destruct Bt as [d Hd]. rewrite (tcreate_eq _ _ Hd) in Tc. destruct (tcreate_items d); inversion Tc; subst; reflexivity. }
    rewrite Wn in P2.
    assert (fp2 = fp') as -> by (destruct (reads_det _ _ _ _ _ _ P2 Q2); congruence). split; [exact P3|].
    apply P4, Nf.
  - split; [left; apply tdecode_decodes; auto|]. intros _ [?| ->]; [discriminate|]. split; [|apply Q4; constructor].
    intros i Hi. destruct (Q3 _ Hi) as [[]|]; auto.
Qed.

Lemma override_ok fuel self key v h h' r db fp tv fpv : reads h self (TNode rm db) fp -> NoDup fp -> reads h v tv fpv -> NoDup fpv ->
  branchb tv = true \/ fpv = [] -> override literal_eval fuel self key v h = (h', r) ->
  exists db' fp', reads h' self (TNode rm db') fp' /\ NoDup fp' /\ within fp' fp (length h) /\ evolves fp h h' /\
    (r = Done tt -> overridden literal_eval rm (TNode rm db) key tv (TNode rm db')) /\ (forall e, r = Raise e -> db' = db /\ keeps h h').
Proof.
  intros R N Rv Nv Hv E. unfold override in E.
  assert (Stop : forall h1 e, keeps h h1 -> (h', r) = (h1, Raise e) -> exists db' fp', reads h' self (TNode rm db') fp' /\ NoDup fp' /\ within fp' fp (length h) /\ evolves fp h h' /\
    (r = Done tt -> overridden literal_eval rm (TNode rm db) key tv (TNode rm db')) /\ (forall e, r = Raise e -> db' = db /\ keeps h h')).
  { intros h1 e K X. inversion X; subst. exists db, fp. split; [eapply reads_keeps; eauto|]. split; [exact N|]. split; [intros i Hi; auto|].
    split; [apply evolves_keeps; exact K|]. split; [discriminate|]. auto. }
  pose proof (key_of_meta _ _ _ _ _ R) as HM.
  unfold key_is_deprecated, key_is_renamed, raise_key_rename_error in E.
  erewrite bind_eq in E; [|rewrite (bind_eq _ _ _ _ _ HM); reflexivity]. cbv beta in E.
  destruct (has (m_dep rm) key) eqn:Hd.
  { inversion E; subst. exists db, fp. repeat split; auto; [intros i Hi; auto|apply evolves_keeps, keeps_refl|..].
    - intros _. constructor. apply has_in, Hd.
    - discriminate. }
  erewrite bind_eq in E; [|rewrite (bind_eq _ _ _ _ _ HM); reflexivity]. cbv beta in E.
  destruct (dhas (m_ren rm) key) eqn:Hr.
  { rewrite (bind_err _ _ h h (match dget (m_ren rm) key with Some (n, m) => XRenamed key n m | None => XMissing key end)) in E.
    - inversion E; subst. eapply Stop; [apply keeps_refl|reflexivity].
    - rewrite (bind_eq _ _ _ _ _ HM). destruct (dget (m_ren rm) key) as [[]|]; reflexivity. }
  unfold bind at 1, ret at 1 in E.
  apply bind_inv in E. destruct E as [(x & h1 & E1 & E)|(e & E1 & E)].
  2:{ pose proof (walk_state _ _ _ _ _ E1) as ->. eapply Stop; [apply keeps_refl|rewrite E; reflexivity]. }
  destruct (walk_reads _ _ _ _ _ _ _ R E1) as (-> & c & fpx & A & Rx & Ix & Put). destruct (Put N) as [Nx Put']. clear Put.
  apply bind_inv in E. destruct E as [(cb & h1 & E2 & E)|(e & E2 & E)].
  2:{ pose proof (contains_state _ _ _ _ _ E2) as ->. eapply Stop; [apply keeps_refl|rewrite E; reflexivity]. }
  pose proof (contains_state _ _ _ _ _ E2) as ->.
  unfold bind at 1, assert_ at 1 in E. destruct cb; [|inversion E; subst; eapply Stop; [apply keeps_refl|reflexivity]].
  apply bind_inv in E. destruct E as [(v1 & h1 & E3 & E)|(e & E3 & E)].
  2:{ eapply Stop; [eapply decode_keeps; exact E3|rewrite E; reflexivity]. }
  pose proof (decode_keeps _ _ _ _ _ _ E3) as K1. destruct (decode_any _ _ _ _ _ _ _ Rv E3) as (tw & fpw & Rw & Hw & Aw). destruct (Aw Nv Hv) as [Aw1 Aw2]. clear Aw.
  apply bind_inv in E. destruct E as [(orig & h2 & E4 & E)|(e & E4 & E)].
  2:{ pose proof (subscript_state _ _ _ _ _ E4) as ->. eapply Stop; [exact K1|rewrite E; reflexivity]. }
  pose proof (reads_keeps _ _ _ _ _ K1 Rx) as Rx1.
  destruct (subscript_reads _ _ _ _ _ _ _ Rx1 E4) as (-> & l & o & dv & d & fp' & -> & Eo & Eit & NDk & Ed & -> & Ri & co & fpo & Hco & Ro).
  apply bind_inv in E. destruct E as [(v2 & h2 & E5 & E)|(e & E5 & E)].
  2:{ eapply Stop; [eapply keeps_trans; [exact K1|eapply coerce_keeps; exact E5]|rewrite E; reflexivity]. }
  pose proof (coerce_keeps _ _ _ _ _ E5) as K2. pose proof (coerce_refines _ _ _ _ _ _ _ _ _ Rw Ro E5) as Q.
  destruct (tcoerce tw co) as [w|e] eqn:Ec; [|discriminate]. destruct Q as (v2' & Q1 & Q2). inversion Q1; subst v2'. clear Q1.
  assert (K : keeps h h2) by (eapply keeps_trans; eauto).
  pose proof (keeps_length _ _ K) as Lk.
  assert (Nall : NoDup (l :: fp' ++ fpw)).
  { inversion Nx as [|? ? X1 X2]; subst. constructor.
    - intros C. apply in_app_iff in C. destruct C as [C|C]; [contradiction|]. specialize (Aw1 _ C). assert (l < length h) by (eapply reads_ref_lt; [exact Rx|cbn; auto]). lia.
    - apply NoDup_app_iff. repeat split; auto. intros z Hz Hz'. specialize (Aw1 _ Hz'). assert (z < length h) by (eapply reads_ref_lt; [exact Rx|cbn; auto]). lia. }
  destruct (setitem_ok2 h2 l o dv c d fp' (last (split_dot key) EmptyString) v2 w fpw) as (h3 & fp3 & S1 & S2 & S3 & S4 & S5 & S6); auto.
  { exact (reads_items_keeps _ _ _ _ _ K2 Ri). }
  { exact (reads_keeps _ _ _ _ _ K2 Rx1). }
  rewrite S1 in E. injection E as <- <-.
  destruct (Put' h3 (set_items c (dset d (last (split_dot key) EmptyString) w)) (l :: fp3)) as (fp4 & P1 & P2 & P3); auto.
  { eapply evolves_trans; [apply (evolves_keeps (l :: fp') _ _ K)|exact S5|]. intros z [<-|[]]. cbn; auto. }
  { intros z [<-|Hz]; [left; cbn; auto|]. apply S4, in_app_iff in Hz. destruct Hz as [Hz|Hz]; [left; cbn; auto|right; auto]. }
  pose proof (app_removelast_last EmptyString (split_dot_nonempty key)) as Sp.
  assert (At : at_path (TNode rm db) (split_dot key) = Some co).
  { rewrite Sp, at_path_app, A. rewrite (at_path_cons _ _ _ _ Ed), Hco. reflexivity. }
  assert (St : set_path (TNode rm db) (split_dot key) w = set_path (TNode rm db) (removelast (split_dot key)) (set_items c (dset d (last (split_dot key) EmptyString) w))).
  { rewrite Sp at 1. rewrite (set_path_app _ _ _ _ _ A). rewrite (set_path_cons _ _ _ _ _ Ed), Hco. reflexivity. }
  rewrite <- St in P1.
  assert (Sh : exists db', set_path (TNode rm db) (split_dot key) w = TNode rm db').
  { pose proof (split_dot_nonempty key) as Hn. destruct (split_dot key) as [|k0 p0]; [contradiction|]. cbn in At. cbn. destruct (dget db k0); [eauto|discriminate]. }
  destruct Sh as [db' Sh]. exists db', fp4. split; [rewrite <- Sh; exact P1|]. split; [exact P2|]. split; [exact P3|].
  split. { eapply evolves_trans; [apply (evolves_keeps fp _ _ K)|exact S5|]. intros z [<-|[]]. left. apply Ix. cbn; auto. }
  split; [|discriminate]. intros _. rewrite <- Sh.
  apply (O_set _ _ _ _ _ (split_dot key) co tw w); auto.
  - intros C. apply has_in in C. congruence.
  - intros C. apply in_keys_ren in C. congruence.
  - apply split_dotted.
  - apply tcoerce_cast. exact Ec.
Qed.

Lemma overrides_ok fuel self : forall ps h h' r db fp, reads h self (TNode rm db) fp -> NoDup fp ->
  (forall k v, In (k, v) ps -> exists tv fpv, reads h v tv fpv /\ NoDup fpv /\ (fpv = [] \/ branchb tv = true /\ forall x, In x fpv -> In x fp -> False)) ->
  overrides literal_eval fuel self ps h = (h', r) ->
  exists db' fp' applied rest, reads h' self (TNode rm db') fp' /\ NoDup fp' /\ within fp' fp (length h) /\ evolves fp h h' /\
    overridden_all literal_eval rm (TNode rm db) applied (TNode rm db') /\
    Forall2 (pair_is h) (firstn (length applied) ps) applied /\ rest = skipn (length applied) ps /\
    (r = Done tt -> rest = []) /\ (forall e, r = Raise e -> rest <> []).
Proof.
  induction ps as [|[k v] ps IH]; intros h h' r db fp R N Hv E; cbn [overrides] in E.
  - inversion E; subst. exists db, fp, [], []. repeat split; auto; [intros i Hi; auto|apply evolves_keeps, keeps_refl|constructor|constructor|discriminate].
  - destruct (Hv k v (or_introl eq_refl)) as (tv & fpv & Rv & Nv & Cv).
    assert (Stop : forall h1 e, keeps h h1 -> (h', r) = (h1, Raise e) -> exists db' fp' applied rest, reads h' self (TNode rm db') fp' /\ NoDup fp' /\ within fp' fp (length h) /\ evolves fp h h' /\
      overridden_all literal_eval rm (TNode rm db) applied (TNode rm db') /\
      Forall2 (pair_is h) (firstn (length applied) ((k, v) :: ps)) applied /\ rest = skipn (length applied) ((k, v) :: ps) /\
      (r = Done tt -> rest = []) /\ (forall e, r = Raise e -> rest <> [])).
    { intros h1 e K X. inversion X; subst. exists db, fp, [], ((k, v) :: ps). split; [eapply reads_keeps; eauto|]. split; [exact N|]. split; [intros i Hi; auto|].
      split; [apply evolves_keeps; exact K|]. split; [constructor|]. split; [constructor|]. split; [reflexivity|]. split; discriminate. }
    apply bind_inv in E. unfold override_any in E.
    assert (Ks : (exists s, k = VAtom (AStr s)) \/ exists e, match k with VAtom (AStr s) => override literal_eval fuel self s v | _ => throw (if hashable k then XAttribute else XType) end = throw e).
    { destruct k as [[]| |]; eauto. }
    destruct Ks as [[s ->]|[e0 Ek]].
    2:{ destruct E as [(u & h1 & E1 & E)|(e & E1 & E)]; rewrite Ek in E1; [discriminate|]. inversion E1; subst. eapply Stop; [apply keeps_refl|reflexivity]. }
    destruct E as [(u & h1 & E1 & E)|(e & E1 & E)].
    + destruct (override_ok _ _ _ _ _ _ _ _ _ _ _ R N Rv Nv ltac:(tauto) E1) as (db1 & fp1 & R1 & N1 & W1 & V1 & O1 & _).
      destruct u. specialize (O1 eq_refl).
      assert (Fr : forall v0 tv0 fpv0, reads h v0 tv0 fpv0 -> (fpv0 = [] \/ branchb tv0 = true /\ forall x, In x fpv0 -> In x fp -> False) -> reads h1 v0 tv0 fpv0).
      { intros v0 tv0 fpv0 Rv0 Cv0. eapply reads_evolves; [exact V1|exact Rv0|]. intros x Hx C. destruct Cv0 as [-> |[_ D]]; [contradiction|eauto]. }
      destruct (IH h1 h' r db1 fp1 R1 N1) as (db2 & fp2 & ap & rest & X1 & X2 & X3 & X4 & X5 & X6 & X7 & X8 & X9); auto.
      { intros k0 v0 Hin. destruct (Hv k0 v0 (or_intror Hin)) as (tv0 & fpv0 & Rv0 & Nv0 & Cv0). exists tv0, fpv0. split; [apply Fr; auto|]. split; [exact Nv0|].
        destruct Cv0 as [?|[B D]]; [auto|]. right. split; [exact B|]. intros x Hx Hx'. destruct (W1 _ Hx') as [C|C]; [eauto|].
        assert (x < length h) by (exact (reads_ref_lt _ _ _ _ _ Rv0 Hx)). lia. }
      pose proof (evolves_length _ _ _ V1) as L.
      exists db2, fp2, ((s, tv) :: ap), rest. split; [exact X1|]. split; [exact X2|].
      split. { intros x Hx. destruct (X3 _ Hx) as [Hx'|Hx']; [apply W1, Hx'|right; lia]. }
      split. { eapply evolves_trans; [exact V1|exact X4|]. intros x Hx. exact (W1 _ Hx). }
      split; [econstructor; eauto|]. split; [|auto]. cbn [length firstn]. constructor; [split; [reflexivity|exists fpv; exact Rv]|].
      assert (Hin : forall x, In x (firstn (length ap) ps) -> In x ps).
      { clear. generalize (length ap). intros n x. revert n. induction ps as [|y ps IH]; intros [|n] H; cbn in H; try contradiction. destruct H as [H|H]; [left; exact H|right; eauto]. }
      revert Hin X6. generalize (firstn (length ap) ps) as l1. intros l1 Hin F2. clear -F2 Hin Hv Fr. induction F2 as [|[k1 v1] [s1 t1] l1 l2 P F2 IH2]; constructor.
      * destruct P as [P1 [fp0 P2]]. cbn in *. split; [exact P1|]. destruct (Hv k1 v1) as (tv0 & fpv0 & Rv0 & Nv0 & Cv0); [right; apply Hin; auto|].
        destruct (reads_det _ _ _ _ _ _ (Fr _ _ _ Rv0 Cv0) P2) as [-> _]. exists fpv0. exact Rv0.
      * apply IH2. intros x Hx. apply Hin. cbn; auto.
    + destruct (override_ok _ _ _ _ _ _ _ _ _ _ _ R N Rv Nv ltac:(tauto) E1) as (db1 & fp1 & R1 & N1 & W1 & V1 & _ & O1).
      destruct (O1 e eq_refl) as [_ K]. eapply Stop; [exact K|rewrite E; reflexivity].
Qed.

(* what goes wrong with an override *)
Lemma override_renamed fuel self key v h db fp new msg : reads h self (TNode rm db) fp -> ~ In key (m_dep rm) -> dget (m_ren rm) key = Some (new, msg) ->
  override literal_eval fuel self key v h = (h, Raise (XRenamed key new msg)).
Proof.
  intros R Nd Hr. pose proof (key_of_meta _ _ _ _ _ R) as HM. unfold override, key_is_deprecated, key_is_renamed, raise_key_rename_error.
  erewrite bind_eq; [|rewrite (bind_eq _ _ _ _ _ HM); reflexivity]. cbv beta.
  destruct (has (m_dep rm) key) eqn:Hd; [apply has_in in Hd; contradiction|].
  erewrite bind_eq; [|rewrite (bind_eq _ _ _ _ _ HM); reflexivity]. cbv beta. unfold dhas. rewrite Hr.
  apply bind_err. rewrite (bind_eq _ _ _ _ _ HM). rewrite Hr. reflexivity.
Qed.
Lemma contains_reads h v t fp d k : reads h v t fp -> entries t = Some d -> contains v k h = (h, Done (dhas d k)).
Proof.
  intros R E. destruct (reads_branch _ _ _ _ _ R E) as (l & o & dv & fp' & -> & Q2 & Q3 & Q4 & Q5 & Q6 & Q7).
  cbn. unfold bind, load. rewrite Q2. pose proof (reads_items_get _ _ _ _ k Q5) as G.
  assert (D : dhas dv k = dhas d k). { unfold dhas. destruct (dget dv k), (dget d k); auto; contradiction. }
  destruct Q7 as [(m & -> & _)|(-> & _)]; cbn; rewrite D; reflexivity.
Qed.
Lemma walk_missing q : forall h v t fp c d k r, reads h v t fp -> at_path t q = Some c -> entries c = Some d -> ~ In k (keys d) ->
  walk v (q ++ k :: r) h = (h, Raise XAssertion).
Proof.
  induction q as [|k0 q IH]; intros h v t fp c d k r R A Ed Nk; cbn [app walk].
  - cbn in A. inversion A; subst. rewrite (bind_eq _ _ _ _ _ (contains_reads _ _ _ _ _ k R Ed)).
    assert (dhas d k = false) as -> by (destruct (dhas d k) eqn:X; [apply in_keys_ren in X; contradiction|reflexivity]). reflexivity.
  - cbn in A. destruct (entries t) as [dt|] eqn:Et; [|discriminate]. destruct (dget dt k0) as [x|] eqn:Ex; [|discriminate].
    rewrite (bind_eq _ _ _ _ _ (contains_reads _ _ _ _ _ k0 R Et)). unfold dhas. rewrite Ex. unfold bind at 1, assert_ at 1.
    destruct (reads_branch _ _ _ _ _ R Et) as (l & o & dv & fp' & -> & Q2 & Q3 & Q4 & Q5 & Q6 & Q7).
    pose proof (reads_items_get _ _ _ _ k0 Q5) as G. destruct (dget dv k0) as [y|] eqn:Ey; [|rewrite Ex in G; contradiction].
    destruct (reads_items_split _ _ _ _ _ _ Q5 Ey) as (d1 & d2 & ts1 & ts2 & t0 & fa & fk & fb & -> & -> & -> & Ra & Rk & Rb & Na & Nb).
    rewrite dget_split in Ex by auto. inversion Ex; subst t0.
    erewrite bind_eq. 2:{ cbn. unfold bind, load. rewrite Q2, Q3, Ey. reflexivity. } eapply IH; eauto.
Qed.
Lemma walk_here q : forall h v t fp c, reads h v t fp -> at_path t q = Some c -> exists x fpx, walk v q h = (h, Done x) /\ reads h x c fpx.
Proof.
  induction q as [|k0 q IH]; intros h v t fp c R A; cbn [walk].
  - cbn in A. inversion A; subst. exists v, fp. auto.
  - cbn in A. destruct (entries t) as [dt|] eqn:Et; [|discriminate]. destruct (dget dt k0) as [x|] eqn:Ex; [|discriminate].
    rewrite (bind_eq _ _ _ _ _ (contains_reads _ _ _ _ _ k0 R Et)). unfold dhas. rewrite Ex. unfold bind at 1, assert_ at 1.
    destruct (reads_branch _ _ _ _ _ R Et) as (l & o & dv & fp' & -> & Q2 & Q3 & Q4 & Q5 & Q6 & Q7).
    pose proof (reads_items_get _ _ _ _ k0 Q5) as G. destruct (dget dv k0) as [y|] eqn:Ey; [|rewrite Ex in G; contradiction].
    destruct (reads_items_split _ _ _ _ _ _ Q5 Ey) as (d1 & d2 & ts1 & ts2 & t0 & fa & fk & fb & -> & -> & -> & Ra & Rk & Rb & Na & Nb).
    rewrite dget_split in Ex by auto. inversion Ex; subst t0.
    erewrite bind_eq. 2:{ cbn. unfold bind, load. rewrite Q2, Q3, Ey. reflexivity. } eapply IH; eauto.
Qed.
(* a path that leaves the configuration at q, which is a dict or CfgNode without the key k *)
Lemma override_missing fuel self key v h db fp q c d k r : reads h self (TNode rm db) fp -> ~ In key (m_dep rm) -> ~ In key (keys (m_ren rm)) ->
  dotted key (q ++ k :: r) -> at_path (TNode rm db) q = Some c -> entries c = Some d -> ~ In k (keys d) ->
  override literal_eval fuel self key v h = (h, Raise XAssertion).
Proof.
  intros R Nd Nr Dk A Ed Nk. pose proof (key_of_meta _ _ _ _ _ R) as HM. unfold override, key_is_deprecated, key_is_renamed, raise_key_rename_error.
  erewrite bind_eq; [|rewrite (bind_eq _ _ _ _ _ HM); reflexivity]. cbv beta.
  destruct (has (m_dep rm) key) eqn:Hd; [apply has_in in Hd; contradiction|].
  erewrite bind_eq; [|rewrite (bind_eq _ _ _ _ _ HM); reflexivity]. cbv beta.
  destruct (dhas (m_ren rm) key) eqn:Hr; [apply in_keys_ren in Hr; contradiction|]. unfold bind at 1, ret at 1.
  rewrite <- (dotted_split _ _ Dk). destruct r as [|k1 r] using rev_ind.
  - rewrite removelast_last, last_last. destruct (walk_here _ _ _ _ _ _ R A) as (x & fpx & W & Rx). rewrite (bind_eq _ _ _ _ _ W).
    rewrite (bind_eq _ _ _ _ _ (contains_reads _ _ _ _ _ k Rx Ed)).
    assert (dhas d k = false) as -> by (destruct (dhas d k) eqn:X; [apply in_keys_ren in X; contradiction|reflexivity]). reflexivity.
  - replace (q ++ k :: r ++ [k1]) with ((q ++ k :: r) ++ [k1]) by (rewrite <- app_assoc; reflexivity). rewrite removelast_last.
    apply bind_err. eapply walk_missing; eauto.
Qed.
End Over.
