From Coq Require Import List Arith ZArith Bool Lia.
From Verif Require Import Res Fld StructUtilsModel StructUtilsSpec.
Import ListNotations.

(* ---------- generic list lemmas ---------- *)
Lemma nth_error_firstn {B} n (l : list B) i :
  nth_error (firstn n l) i = if i <? n then nth_error l i else None.
Proof.
  revert l i; induction n as [|n IH]; intros l i.
  - destruct i; reflexivity.
  - destruct l as [|a l]; destruct i as [|i]; cbn; try reflexivity.
    + match goal with |- _ = if ?b then _ else _ => destruct b; reflexivity end.
    + rewrite IH. reflexivity.
Qed.

Lemma nth_error_repeat' {B} (v : B) n i :
  nth_error (repeat v n) i = if i <? n then Some v else None.
Proof.
  revert i; induction n as [|n IH]; intros i.
  - destruct i; reflexivity.
  - destruct i as [|i]; cbn; [reflexivity|]. rewrite IH. reflexivity.
Qed.

Lemma firstn_repeat {B} (v : B) n k : firstn k (repeat v n) = repeat v (Nat.min k n).
Proof.
  revert k; induction n as [|n IH]; intros k; destruct k as [|k]; cbn; try reflexivity.
  now rewrite IH.
Qed.

Lemma mapM_Ok_map {A B} (f : A -> res B) (g : A -> B) l :
  Forall (fun a => f a = Ok (g a)) l -> mapM f l = Ok (map g l).
Proof.
  induction 1 as [|a l Ha Hl IH]; cbn; [reflexivity|].
  rewrite Ha. cbn. rewrite IH. reflexivity.
Qed.

Lemma mapM_Ok_inv {A B} (f : A -> res B) l r :
  mapM f l = Ok r -> Forall2 (fun a b => f a = Ok b) l r.
Proof.
  revert r; induction l as [|a l IH]; cbn; intros r H.
  - inversion H; subst; constructor.
  - destruct (f a) eqn:E; cbn in H; [|discriminate].
    destruct (mapM f l) eqn:E2; cbn in H; [|discriminate].
    inversion H; subst. constructor; auto.
Qed.

Lemma Forall2_nth_error_l {A B} (P : A -> B -> Prop) l r i a :
  Forall2 P l r -> nth_error l i = Some a -> exists b, nth_error r i = Some b /\ P a b.
Proof.
  intros H; revert i; induction H as [|x y l r Hxy H IH]; intros i Hi.
  - destruct i; discriminate.
  - destruct i as [|i]; cbn in *; [inversion Hi; subst; eauto|eauto].
Qed.

Lemma Forall2_len {A B} (P : A -> B -> Prop) l r : Forall2 P l r -> length l = length r.
Proof. induction 1; cbn; congruence. Qed.

Lemma Forall_nth_error {A} (P : A -> Prop) l i a :
  Forall P l -> nth_error l i = Some a -> P a.
Proof. intros H Hi. rewrite Forall_forall in H. apply H. eapply nth_error_In; eauto. Qed.

Lemma map_id_ext {A} (f : A -> A) l : Forall (fun a => f a = a) l -> map f l = l.
Proof. induction 1 as [|a l Ha Hl IH]; cbn; congruence. Qed.

Lemma prefix_nat {B} n (l : list B) : prefix (Z.of_nat n) l = firstn n l.
Proof.
  unfold prefix. destruct (Z.ltb_spec (Z.of_nat n) 0); [lia|]. now rewrite Nat2Z.id.
Qed.
Lemma prefix_len_nat k n : prefix_len (Z.of_nat k) n = Nat.min k n.
Proof.
  unfold prefix_len. destruct (Z.ltb_spec (Z.of_nat k) 0); [lia|]. now rewrite Nat2Z.id.
Qed.

(* ---------- fill ---------- *)
Section Fill.
Context {A : Type}.
Implicit Types (v : A).

Lemma fill_row_length v d1 r : length (fill_row v d1 r) = d1.
Proof. unfold fill_row. rewrite app_length, firstn_length, repeat_length. lia. Qed.

Lemma fill_slab_length v d0 d1 rows : length (fill_slab v d0 d1 rows) = d0.
Proof.
  unfold fill_slab. rewrite app_length, firstn_length, map_length, repeat_length. lia.
Qed.

Lemma Forall_firstn {B} (P : B -> Prop) n l : Forall P l -> Forall P (firstn n l).
Proof.
  intros H. rewrite Forall_forall in *. intros x Hx. apply H.
  rewrite <- (firstn_skipn n l). apply in_or_app. now left.
Qed.

Lemma fill_slab_rows v d0 d1 rows :
  Forall (fun r => length r = d1) (fill_slab v d0 d1 rows).
Proof.
  unfold fill_slab. apply Forall_app; split.
  - apply Forall_firstn. apply Forall_map. apply Forall_forall. intros r _.
    apply fill_row_length.
  - apply Forall_forall. intros r Hr. apply repeat_spec in Hr. subst. apply repeat_length.
Qed.

Lemma nth_error_fill_row v d1 r j :
  j < d1 ->
  nth_error (fill_row v d1 r) j = Some (match nth_error r j with Some a => a | None => v end).
Proof.
  intros Hj. unfold fill_row.
  destruct (Nat.lt_ge_cases j (length r)) as [Hr|Hr].
  - rewrite nth_error_app1 by (rewrite firstn_length; lia).
    rewrite nth_error_firstn. destruct (Nat.ltb_spec j d1); [|lia].
    destruct (nth_error r j) eqn:E; [reflexivity|].
    apply nth_error_None in E. lia.
  - rewrite nth_error_app2 by (rewrite firstn_length; lia).
    rewrite firstn_length, nth_error_repeat'.
    rewrite (proj2 (nth_error_None r j)) by lia.
    destruct (Nat.ltb_spec (j - Nat.min d1 (length r)) (d1 - length r)); [reflexivity|lia].
Qed.

Lemma nth_error_fill_slab v d0 d1 rows i :
  i < d0 ->
  nth_error (fill_slab v d0 d1 rows) i =
  Some (match nth_error rows i with Some r => fill_row v d1 r | None => repeat v d1 end).
Proof.
  intros Hi. unfold fill_slab.
  destruct (Nat.lt_ge_cases i (length rows)) as [Hr|Hr].
  - rewrite nth_error_app1 by (rewrite firstn_length, map_length; lia).
    rewrite nth_error_firstn. destruct (Nat.ltb_spec i d0); [|lia].
    rewrite nth_error_map. destruct (nth_error rows i) eqn:E; [reflexivity|].
    apply nth_error_None in E. lia.
  - rewrite nth_error_app2 by (rewrite firstn_length, map_length; lia).
    rewrite firstn_length, map_length, nth_error_repeat'.
    rewrite (proj2 (nth_error_None rows i)) by lia.
    destruct (Nat.ltb_spec (i - Nat.min d0 (length rows)) (d0 - length rows)); [reflexivity|lia].
Qed.

Lemma firstn_fill_row v d1 r : length r <= d1 -> firstn (length r) (fill_row v d1 r) = r.
Proof.
  intros H. unfold fill_row. rewrite (firstn_all2 (n:=d1)) by lia.
  rewrite firstn_app, Nat.sub_diag, firstn_all. cbn. apply app_nil_r.
Qed.

Lemma fill_row_full v d1 r : length r = d1 -> fill_row v d1 r = r.
Proof.
  intros H. unfold fill_row. rewrite firstn_all2 by lia.
  replace (d1 - length r) with 0 by lia. apply app_nil_r.
Qed.

Lemma firstn_fill_slab v d0 d1 rows :
  length rows <= d0 -> firstn (length rows) (fill_slab v d0 d1 rows) = map (fill_row v d1) rows.
Proof.
  intros H. unfold fill_slab. rewrite (firstn_all2 (n:=d0)) by (rewrite map_length; lia).
  rewrite firstn_app, map_length, Nat.sub_diag. cbn [firstn]. rewrite app_nil_r.
  apply firstn_all2. rewrite map_length; lia.
Qed.

(* simple form when the rows have full width and fit *)
Lemma fill_slab_simple v d0 d1 rows :
  length rows <= d0 -> Forall (fun r => length r = d1) rows ->
  fill_slab v d0 d1 rows = rows ++ repeat (repeat v d1) (d0 - length rows).
Proof.
  intros H Hw. unfold fill_slab.
  rewrite (map_id_ext (fill_row v d1)).
  - rewrite firstn_all2 by lia. reflexivity.
  - eapply Forall_impl; [|exact Hw]. intros r Hr. now apply fill_row_full.
Qed.

Lemma fill_item_fits v d0 d1 (y : t2 A) :
  t2n y <= d0 -> t2c y <= d1 -> fill_item v d0 d1 y = Ok (fill_slab v d0 d1 (t2r y)).
Proof.
  intros H0 H1. unfold fill_item, assign_ok.
  destruct (Nat.eqb_spec (t2n y) 0) as [E|E].
  - unfold t2n in E. destruct (t2r y); [|cbn in E; lia].
    unfold fill_slab. cbn. rewrite firstn_nil. cbn. now rewrite Nat.sub_0_r.
  - destruct (Nat.leb_spec (t2n y) d0); [|lia].
    destruct (Nat.leb_spec (t2c y) d1); [|lia]. reflexivity.
Qed.

Lemma fill_item_Ok v d0 d1 (y : t2 A) m :
  fill_item v d0 d1 y = Ok m -> m = fill_slab v d0 d1 (t2r y).
Proof.
  unfold fill_item. destruct (Nat.eqb_spec (t2n y) 0) as [E|E].
  - intros H; inversion H; subst. unfold t2n in E. destruct (t2r y); [|cbn in E; lia].
    unfold fill_slab. cbn. rewrite firstn_nil. cbn. now rewrite Nat.sub_0_r.
  - destruct (_ && _); [|discriminate]. intros H; inversion H; reflexivity.
Qed.

(* ---------- C01 ---------- *)
Lemma fits_map_fill v d0 d1 (x : list (t2 A)) :
  fits x d0 d1 ->
  mapM (fill_item v d0 d1) x = Ok (map (fun y => fill_slab v d0 d1 (t2r y)) x).
Proof.
  intros H. apply mapM_Ok_map. eapply Forall_impl; [|exact H].
  intros y [H0 H1]. now apply fill_item_fits.
Qed.

Lemma list_to_padded_fits v d0 d1 (x : list (t2 A)) :
  x <> [] -> fits x d0 d1 ->
  list_to_padded x (Some [d0; d1]) v false =
  Ok (mkT3 d0 d1 (map (fun y => fill_slab v d0 d1 (t2r y)) x)).
Proof.
  intros Hne Hf. unfold list_to_padded. cbn [rbind].
  rewrite (fits_map_fill v _ _ _ Hf). destruct x; [congruence|]. reflexivity.
Qed.

Lemma list_to_padded_elements x ps v p :
  list_to_padded (A:=A) x ps v false = Ok p ->
  t3b p = length x /\ t3wf p /\
  forall b i j y, nth_error x b = Some y -> i < t3n p -> j < t3c p ->
    elem3 p b i j = Some (match elem2 y i j with Some a => a | None => v end).
Proof.
  unfold list_to_padded. intros H.
  match type of H with rbind ?r _ = _ => destruct r as [[d0 d1]|] eqn:Er; cbn in H; [|discriminate] end.
  destruct x as [|y0 x0]; [discriminate|].
  destruct (mapM (fill_item v d0 d1) (y0 :: x0)) as [slabs|] eqn:Em; cbn in H; [|discriminate].
  inversion H; subst p; clear H. apply mapM_Ok_inv in Em.
  split; [|split].
  - unfold t3b; cbn [t3d]. symmetry. eapply Forall2_len. exact Em.
  - unfold t3wf. cbn [t3d t3n t3c].
    assert (Hall : forall l s, Forall2 (fun a b => fill_item v d0 d1 a = Ok b) l s ->
       Forall (fun m => length m = d0 /\ Forall (fun r => length r = d1) m) s).
    { induction 1 as [|a b l s Hab _ IH]; constructor; auto.
      apply fill_item_Ok in Hab. subst. split; [apply fill_slab_length|apply fill_slab_rows]. }
    eapply Hall; exact Em.
  - cbn [t3n t3c]. intros b i j y Hb Hi Hj.
    destruct (Forall2_nth_error_l _ _ _ _ _ Em Hb) as (m & Hm & Hy).
    apply fill_item_Ok in Hy. subst m.
    unfold elem3, elem2. cbn [t3d]. rewrite Hm, (nth_error_fill_slab v d0 d1 _ i Hi).
    destruct (nth_error (t2r y) i) as [r|].
    + now rewrite nth_error_fill_row.
    + rewrite nth_error_repeat'. destruct (Nat.ltb_spec j d1); [reflexivity|lia].
Qed.

Lemma split2_fill v d0 d1 (y : t2 A) :
  t2wf y -> t2n y <= d0 -> t2c y <= d1 ->
  split_item d1 (fill_slab v d0 d1 (t2r y))
    (SplitSeq [Z.of_nat (t2n y); Z.of_nat (t2c y)]) = Ok y.
Proof.
  intros Hwf H0 H1. unfold split_item. rewrite prefix_len_nat, Nat.min_l by lia.
  f_equal. destruct y as [c rows]. unfold t2n, t2wf in *. cbn [t2c t2r] in *. f_equal.
  rewrite prefix_nat, firstn_fill_slab by lia. rewrite map_map.
  apply map_id_ext. eapply Forall_impl; [|exact Hwf]. intros r Hr. cbn beta in Hr. rewrite prefix_nat.
  rewrite <- Hr at 1. apply firstn_fill_row. lia.
Qed.

Lemma padded_to_list_split f (x : list (t2 A)) (g : t2 A -> split) d0 d1 :
  Forall (fun y => split_item d1 (f y) (g y) = Ok y) x ->
  padded_to_list (mkT3 d0 d1 (map f x)) (Some (map g x)) = Ok x.
Proof.
  intros H. unfold padded_to_list, t3b. cbn [t3d t3c]. rewrite !map_length, Nat.eqb_refl. cbn [negb].
  induction H as [|y x Hy Hx IH]; cbn; [reflexivity|].
  rewrite Hy. cbn. rewrite IH. reflexivity.
Qed.

Lemma roundtrip2 v d0 d1 (x : list (t2 A)) :
  x <> [] -> Forall t2wf x -> fits x d0 d1 ->
  exists p, list_to_padded x (Some [d0; d1]) v false = Ok p /\
    t3shape p = (length x, d0, d1) /\
    padded_to_list p (Some (sizes2 x)) = Ok x.
Proof.
  intros Hne Hwf Hf. eexists; split; [apply list_to_padded_fits; assumption|].
  split; [unfold t3shape, t3b; cbn; now rewrite map_length|].
  apply padded_to_list_split. unfold fits in Hf; rewrite Forall_forall in *. intros y Hy.
  destruct (Hf y Hy). apply split2_fill; auto.
Qed.

Lemma roundtrip1 v d0 d1 (x : list (t2 A)) :
  x <> [] -> Forall t2wf x -> fits x d0 d1 -> Forall (fun y => t2c y = d1) x ->
  exists p, list_to_padded x (Some [d0; d1]) v false = Ok p /\
    padded_to_list p (Some (sizes1 x)) = Ok x.
Proof.
  intros Hne Hwf Hf Hc. eexists; split; [apply list_to_padded_fits; assumption|].
  apply padded_to_list_split. unfold fits in Hf; rewrite Forall_forall in *. intros y Hy.
  destruct (Hf y Hy) as [H0 H1]. specialize (Hc y Hy). specialize (Hwf y Hy).
  cbn. f_equal. destruct y as [c rows]. cbn in *. subst c. f_equal.
  rewrite prefix_nat, firstn_fill_slab by lia. apply map_id_ext.
  eapply Forall_impl; [|exact Hwf]. intros r Hr. cbn in Hr. now apply fill_row_full.
Qed.

Lemma fold_max_spec l a : 
  a <= fold_left Nat.max l a /\ Forall (fun y => y <= fold_left Nat.max l a) l /\
  (fold_left Nat.max l a = a \/ In (fold_left Nat.max l a) l).
Proof.
  revert a; induction l as [|b l IH]; intros a; cbn.
  - repeat split; auto.
  - destruct (IH (Nat.max a b)) as (H1 & H2 & H3). repeat split.
    + lia.
    + constructor; [lia|exact H2].
    + destruct H3 as [H3|H3]; [|auto]. rewrite H3. destruct (Nat.max_spec a b); lia.
Qed.

(* pad_size = None: the extents are the maxima *)
Lemma roundtrip_none v (x : list (t2 A)) :
  x <> [] -> Forall t2wf x -> Forall (fun y => 0 < t2n y) x ->
  exists p d0 d1, list_to_padded x None v false = Ok p /\
    t3shape p = (length x, d0, d1) /\
    fits x d0 d1 /\ (exists y, In y x /\ t2n y = d0) /\ (exists y, In y x /\ t2c y = d1) /\
    padded_to_list p (Some (sizes2 x)) = Ok x.
Proof.
  intros Hne Hwf Hpos.
  assert (Hflt : filter (fun y => negb (t2n y =? 0)) x = x).
  { clear Hne Hwf. induction Hpos as [|y x Hy _ IH]; cbn; [reflexivity|].
    destruct (Nat.eqb_spec (t2n y) 0); [lia|]. cbn. now rewrite IH. }
  destruct x as [|y0 x0]; [congruence|].
  set (d0 := fold_left Nat.max (map t2n x0) (t2n y0)).
  set (d1 := fold_left Nat.max (map t2c x0) (t2c y0)).
  destruct (fold_max_spec (map t2n x0) (t2n y0)) as (A1 & A2 & A3).
  destruct (fold_max_spec (map t2c x0) (t2c y0)) as (B1 & B2 & B3).
  fold d0 in A1, A2, A3. fold d1 in B1, B2, B3.
  assert (Hf : fits (y0 :: x0) d0 d1).
  { constructor; [split; assumption|]. rewrite Forall_map in A2, B2.
    rewrite Forall_forall in *. intros y Hy. split; [apply A2|apply B2]; assumption. }
  destruct (roundtrip2 v d0 d1 (y0 :: x0) Hne Hwf Hf) as (p & Hp & Hs & Hr).
  exists p, d0, d1. repeat split; auto.
  - unfold list_to_padded in *. rewrite Hflt. cbn [map py_max rbind]. fold d0 d1. exact Hp.
  - destruct A3 as [E|E]; [exists y0; split; [now left|symmetry; exact E]|].
    apply in_map_iff in E. destruct E as (y & Ey & Hy). exists y; split; [now right|exact Ey].
  - destruct B3 as [E|E]; [exists y0; split; [now left|symmetry; exact E]|].
    apply in_map_iff in E. destruct E as (y & Ey & Hy). exists y; split; [now right|exact Ey].
Qed.

(* splitting and re-padding *)
Lemma roundtrip_back v (p : t3 A) (ns : list nat) :
  t3wf p -> ns <> [] -> t3b p = length ns -> Forall (fun n => n <= t3n p) ns ->
  (forall b i j n, nth_error ns b = Some n -> n <= i -> i < t3n p -> j < t3c p ->
     elem3 p b i j = Some v) ->
  exists x, padded_to_list p (Some (map (fun n => SplitInt (Z.of_nat n)) ns)) = Ok x /\
    map t2n x = ns /\
    list_to_padded x (Some [t3n p; t3c p]) v false = Ok p.
Proof.
  destruct p as [N C d]. unfold t3wf, t3b. cbn [t3n t3c t3d].
  intros Hwf Hne Hlen Hle Hpad.
  exists (map (fun q => mkT2 C (firstn (snd q) (fst q))) (combine d ns)).
  assert (Hall : forall q, In q (combine d ns) ->
            length (fst q) = N /\ Forall (fun r => length r = C) (fst q) /\ snd q <= N).
  { intros [m n] Hq. pose proof (in_combine_l _ _ _ _ Hq) as Hl.
    pose proof (in_combine_r _ _ _ _ Hq) as Hr. cbn.
    rewrite Forall_forall in Hwf, Hle. destruct (Hwf m Hl). repeat split; auto. }
  split; [|split].
  - unfold padded_to_list, t3b. cbn [t3d t3c]. rewrite map_length, Hlen, Nat.eqb_refl. cbn [negb].
    clear Hpad Hall Hwf Hle Hne. revert ns Hlen. induction d as [|m d IH]; intros [|n ns] Hlen;
      cbn in Hlen; try discriminate; cbn; [reflexivity|].
    rewrite IH by lia. cbn. now rewrite prefix_nat.
  - rewrite map_map. unfold t2n. cbn [t2r].
    clear Hpad Hne. revert ns Hlen Hle Hall. induction d as [|m d IH]; intros [|n ns] Hlen Hle Hall;
      cbn in Hlen; try discriminate; cbn; [reflexivity|].
    inversion Hle; subst. inversion Hwf; subst.
    rewrite IH; auto; [|intros q Hq; apply Hall; now right].
    f_equal. rewrite firstn_length. lia.
  - rewrite list_to_padded_fits.
    + f_equal. f_equal. rewrite map_map. cbn [t2r].
      clear Hne. revert ns Hlen Hle Hpad Hall.
      induction d as [|m d IH]; intros [|n ns] Hlen Hle Hpad Hall; cbn in Hlen; try discriminate;
        cbn; [reflexivity|].
      inversion Hle as [|? ? Hn Hns]; subst. inversion Hwf as [|? ? [Hm1 Hm2] Hd]; subst.
      f_equal.
      * clear IH Hns Hd Hwf Hall.
        apply nth_ext with (d := []) (d' := []); [rewrite fill_slab_length; reflexivity|].
        intros i Hi. rewrite fill_slab_length in Hi.
        assert (Hei : nth_error m i = Some (nth i m [])) by (apply nth_error_nth'; lia).
        apply nth_error_nth with (d := []).
        rewrite nth_error_fill_slab, nth_error_firstn by lia.
        pose proof (Forall_nth_error _ _ _ _ Hm2 Hei) as Hrl.
        destruct (Nat.ltb_spec i n) as [Hin|Hin].
        -- rewrite Hei. f_equal. apply fill_row_full. exact Hrl.
        -- f_equal. apply nth_ext with (d := v) (d' := v); [rewrite repeat_length; auto|].
           intros j Hj. rewrite repeat_length in Hj.
           specialize (Hpad 0 i j n eq_refl Hin Hi Hj). unfold elem3 in Hpad. cbn in Hpad.
           rewrite Hei in Hpad. rewrite nth_error_nth with (x:=v) (1:=Hpad).
           now rewrite nth_repeat.
      * apply IH; auto.
        -- intros b i j n0 Hb. exact (Hpad (S b) i j n0 Hb).
        -- intros q Hq. apply Hall. now right.
    + destruct ns as [|n ns]; [congruence|]. destruct d; [discriminate|]. cbn. discriminate.
    + unfold fits. apply Forall_map. apply Forall_forall. intros q Hq. cbn [t2r t2c].
      destruct (Hall q Hq) as (H1 & H2 & H3). rewrite firstn_length. lia.
Qed.

End Fill.
