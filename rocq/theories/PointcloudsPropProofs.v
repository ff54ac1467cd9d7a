(* Proofs of the theorems stated in PropPointclouds.v. *)
From Coq Require Import List Arith ZArith Bool Lia.
From Verif Require Import Res Fld StructUtilsModel StructUtilsSpec StructUtilsProofs PointcloudsModel PointcloudsSpec PointcloudsCtorSpec
  PointcloudsSetSpec PointcloudsIndexSpec PointcloudsHist PointcloudsProofs PointcloudsOps PointcloudsCtor
  PointcloudsClone PointcloudsAppend PointcloudsIndex PointcloudsSet PointcloudsHistProofs.
Import ListNotations.
Local Open Scope nat_scope.

Section PP.
Variable F : Fld.
Notation T2 := (t2 F).
Notation T3 := (t3 F).
Notation pc := (pc F).
Notation batch := (batch F).
Implicit Types (s : pc) (a : batch) (P L : list T2).
Notation RepN := (RepN F).
Notation Rep := (Rep F).

(* C02 *)
Lemma p_accepts p n c f :
  real_inp F p -> real_inp F n -> real_inp F c -> real_inp F f ->
  ((exists s, ctor F p n c f = Ok s) <-> exists a, Denotes F p n c f a).
Proof.
  intros. split.
  - intros [s E]. eapply ctor_only; eauto.
  - intros [a D]. destruct (ctor_accepts F p n c f a) as (s & E & _); eauto.
Qed.
Lemma p_fresh p n c f a s :
  real_inp F p -> real_inp F n -> real_inp F c -> real_inp F f ->
  Denotes F p n c f a -> ctor F p n c f = Ok s -> Shows F s a.
Proof.
  intros R1 R2 R3 R4 D E. destruct (ctor_accepts F p n c f a) as (s2 & E2 & H); auto.
  assert (s2 = s) by congruence. subst. now apply Rep_Shows.
Qed.
Lemma p_ctor_errors p n c f e :
  real_inp F p -> real_inp F n -> real_inp F c -> real_inp F f ->
  ctor F p n c f = Err e -> e = TypeError \/ e = ValueError.
Proof.
  assert (G : forall b e e', guard b e' = Err e -> e = e') by (intros [|]; cbn; congruence).
  assert (A2 : forall l e, mapM (as_t2 F) l = Err e -> e = ValueError).
  { induction l as [|x l IH]; cbn; [discriminate|]. intros e0. destruct x; cbn; try congruence.
    destruct (mapM (as_t2 F) l); cbn; [discriminate|]. intros E. injection E as <-. now apply IH. }
  assert (A3 : forall l e, as_t3 F l = Err e -> e = ValueError) by (intros [| |]; cbn; congruence).
  assert (O2 : forall o e, opt_mapM (mapM (as_t2 F)) o = Err e -> e = ValueError).
  { intros [l|] e0; cbn; [|discriminate]. destruct (mapM (as_t2 F) l) eqn:E; cbn; [discriminate|].
    intros E0. injection E0 as <-. eapply A2; eauto. }
  assert (O3 : forall o e, opt_mapM (as_t3 F) o = Err e -> e = ValueError).
  { intros [l|] e0; cbn; [|discriminate]. destruct (as_t3 F l) eqn:E; cbn; [discriminate|].
    intros E0. injection E0 as <-. eapply A3; eauto. }
  intros _ _ _ _ E. unfold ctor, rbind in E.
  repeat match type of E with
  | match guard ?b ?e' with Ok _ => _ | Err _ => _ end = _ =>
      let Eg := fresh "Eg" in destruct (guard b e') eqn:Eg;
      [|injection E as <-; apply G in Eg; subst; auto]; try discriminate
  end.
  all: try (injection E as ->; eapply G in Eg; eauto).
  match type of E with match ?m with Ok _ => _ | Err _ => _ end = _ => destruct m eqn:Em end.
  2:{ injection E as <-. destruct p as [|l|t|]; cbn in Em; try discriminate.
      - apply G in Em. auto.
      - unfold inp_len in Em. destruct (ashape F t); [injection Em as <-; auto|].
        cbn in Em. apply G in Em. auto. }
  right. destruct p as [|l|t|]; [discriminate| | |congruence].
  - unfold ctor_list, rbind in E.
    repeat match type of E with
    | match guard ?b ?e' with Ok _ => _ | Err _ => _ end = _ =>
        let Eg := fresh "Eg" in destruct (guard b e') eqn:Eg; [|injection E as <-; apply G in Eg; auto]
    end.
    destruct (mapM (as_t2 F) l) eqn:E1; [|injection E as <-; eauto].
    destruct (opt_mapM (mapM (as_t2 F)) (list_of F n)) eqn:E2; [|injection E as <-; eauto].
    destruct (opt_mapM (mapM (as_t2 F)) (list_of F c)) eqn:E3; [|injection E as <-; eauto].
    destruct (opt_mapM (mapM (as_t2 F)) (list_of F f)) eqn:E4; [discriminate|injection E as <-; eauto].
  - unfold ctor_tensor, rbind in E.
    repeat match type of E with
    | match guard ?b ?e' with Ok _ => _ | Err _ => _ end = _ =>
        let Eg := fresh "Eg" in destruct (guard b e') eqn:Eg; [|injection E as <-; apply G in Eg; auto]
    end.
    destruct (as_t3 F t) eqn:E1; [|injection E as <-; eauto].
    destruct (opt_mapM (as_t3 F) (tensor_of F n)) eqn:E2; [|injection E as <-; eauto].
    destruct (opt_mapM (as_t3 F) (tensor_of F c)) eqn:E3; [|injection E as <-; eauto].
    destruct (opt_mapM (as_t3 F) (tensor_of F f)) eqn:E4; [discriminate|injection E as <-; eauto].
Qed.

Lemma p_hist_shows s a : Hist F s a -> Shows F s a.
Proof. intros H. apply Rep_Shows. now apply Hist_Rep. Qed.

(* C03 *)
Lemma p_views_agree s a x : Hist F s a ->
  (fst (get_list F x s) = Ok None /\ fst (get_padded F x s) = Ok None) \/
  exists L p, fst (get_list F x s) = Ok (Some L) /\ fst (get_padded F x s) = Ok (Some p) /\
    length L = len F s /\ t3b p = len F s /\ length (num_points F s) = len F s /\
    forall b y m n, nth_error L b = Some y -> nth_error (t3d p) b = Some m ->
      nth_error (num_points F s) b = Some n ->
      length (t2r y) = n /\ t2r y = firstn n m /\ t2c y = t3c p.
Proof.
  intros H. pose proof (Hist_Rep F s a H) as Hr. pose proof (Rep_Shows F a s Hr) as (S1 & S2 & _ & _ & S5 & S6).
  rewrite S1, S2. unfold Rep, PointcloudsProofs.Rep in Hr. destruct (qp a) as [P|] eqn:EP.
  - pose proof (rn_valid _ _ _ _ Hr) as Hv. destruct (qget x a) as [L|] eqn:EL.
    2:{ left. split; [reflexivity|]. now rewrite (padded_none F P a x Hv EL). }
    right. exists L. rewrite (padded_some F P a x L Hv EL). eexists. split; [reflexivity|]. split; [reflexivity|].
    rewrite S5, S6. unfold len_view, counts_view. rewrite EP.
    pose proof (valid_len _ _ _ _ _ Hv EL) as HL. pose proof (valid_counts _ _ _ _ _ Hv EL) as HC.
    split; [exact HL|]. split; [now rewrite pad_to_b|]. split; [unfold counts_of; now rewrite map_length|].
    intros b y m n Hy Hm Hn. rewrite <- HC in Hn. unfold counts_of in Hn.
    rewrite nth_error_map, Hy in Hn. cbn in Hn. injection Hn as <-. split; [reflexivity|].
    unfold pad_to in Hm. cbn [t3d] in Hm. rewrite nth_error_map, Hy in Hm. cbn in Hm. injection Hm as <-.
    split; [now rewrite firstn_app, Nat.sub_diag, firstn_all, firstn_O, app_nil_r|].
    pose proof (valid_wid _ _ _ _ _ Hv EL) as Hw. unfold wid_ok in Hw. rewrite Forall_forall in Hw.
    apply nth_error_In in Hy. apply (Hw y Hy).
  - left. destruct Hr as [-> _]. destruct x; split; reflexivity.
Qed.

(* C04 *)
Lemma p_padding s a x p b i j n : Hist F s a -> fst (get_padded F x s) = Ok (Some p) ->
  nth_error (num_points F s) b = Some n -> n <= i -> i < t3n p -> j < t3c p -> elem3 p b i j = Some f0.
Proof.
  intros H E Hn Hi HN Hj. destruct (p_views_agree s a x H) as [[_ E2]|(L & q & E1 & E2 & HL & HB & _ & Hag)]; [congruence|].
  assert (q = p) by congruence. subst q.
  pose proof (Hist_Rep F s a H) as Hr. pose proof (Rep_Shows F a s Hr) as (S1 & S2 & _ & _ & S5 & S6).
  unfold Rep, PointcloudsProofs.Rep in Hr. destruct (qp a) as [P|] eqn:EP.
  2:{ destruct Hr as [-> _]. rewrite S2 in E. destruct x; discriminate. }
  pose proof (rn_valid _ _ _ _ Hr) as Hv. rewrite S2 in E. destruct (qget x a) as [L'|] eqn:EL.
  2:{ rewrite (padded_none F P a x Hv EL) in E. discriminate. }
  rewrite (padded_some F P a x L' Hv EL) in E. injection E as <-. cbn [t3n t3c pad_to] in *.
  rewrite S5 in Hn. unfold counts_view in Hn. rewrite EP in Hn.
  rewrite <- (valid_counts _ _ _ _ _ Hv EL) in Hn. unfold counts_of in Hn at 1. rewrite nth_error_map in Hn.
  destruct (nth_error L' b) as [y|] eqn:Hy; [|discriminate]. cbn in Hn. injection Hn as <-.
  unfold elem3, pad_to. cbn [t3d]. rewrite nth_error_map, Hy. cbn [option_map].
  rewrite nth_error_app2 by exact Hi. rewrite nth_error_repeat by lia. now rewrite nth_error_repeat.
Qed.
Lemma p_mask s a P : Hist F s a -> qp a = Some P ->
  exists m, fst (nonpad_mask F s) = Ok (Some m) /\ length m = len F s /\
  forall b n row, nth_error (num_points F s) b = Some n -> nth_error m b = Some row ->
    length row = biggest (num_points F s) /\
    forall i, i < length row -> nth_error row i = Some (i <? n).
Proof.
  intros H EP. pose proof (Hist_Rep F s a H) as Hr. pose proof (Rep_Shows F a s Hr) as (_ & _ & _ & S4 & S5 & S6).
  rewrite S4, S5, S6. unfold mask_view, counts_view, len_view. rewrite EP. cbn [option_map].
  eexists. split; [reflexivity|]. split; [unfold counts_of; now rewrite !map_length|].
  intros b n row Hn Hrow. rewrite nth_error_map, Hn in Hrow. cbn in Hrow. injection Hrow as <-.
  assert (Hle : n <= biggest (counts_of F P)) by (apply biggest_ge; eapply nth_error_In; eauto).
  rewrite app_length, !repeat_length. split; [lia|]. intros i Hi.
  destruct (i <? n) eqn:E; [apply Nat.ltb_lt in E|apply Nat.ltb_ge in E].
  - rewrite nth_error_app1 by (rewrite repeat_length; exact E). now apply nth_error_repeat.
  - rewrite nth_error_app2 by (rewrite repeat_length; exact E). apply nth_error_repeat. rewrite repeat_length. lia.
Qed.

(* C05 *)
Lemma p_reads_pure s a rs r : Hist F s a ->
  look F r (fold_left (fun s r => after F r s) rs s) = look F r s.
Proof.
  intros H. apply Hist_Rep in H. rewrite (look_ok F r a s H). revert s H.
  induction rs as [|r0 rs IH]; intros s H; cbn; [now apply look_ok|]. apply IH. now apply after_Rep.
Qed.

(* C06 *)
Lemma p_call m s a a' : Hist F s a -> Means F m a a' ->
  exists s', run F m s = (Ok tt, s') /\ Hist F s' a' /\ Shows F s' a'.
Proof.
  intros H Hm. destruct (run_ok F m a a' s (Hist_Rep F s a H) Hm) as (s' & E & Hr).
  exists s'. split; [exact E|]. split; [eapply h_call; eauto|now apply Rep_Shows].
Qed.
Lemma p_move x h a L : qget x a = Some L ->
  exists L', qget x (move_attr F x h a) = Some L' /\ counts_of F L' = counts_of F L /\
  (forall b y i r, nth_error L b = Some y -> nth_error (t2r y) i = Some r ->
     exists y', nth_error L' b = Some y' /\
       nth_error (t2r y') i = Some [h b i (fun j => nth j r f0) 0; h b i (fun j => nth j r f0) 1; h b i (fun j => nth j r f0) 2]) /\
  (forall z, z <> x -> qget z (move_attr F x h a) = qget z a).
Proof.
  intros E. unfold move_attr. rewrite E, qget_qset_same. eexists. split; [reflexivity|].
  split; [apply move_counts|]. split; [|intros z Hz; now apply qget_qset_other].
  intros b y i r Hy Hr. eexists. split; [unfold move; rewrite nth_error_imap, Hy; reflexivity|].
  cbn [t2r]. rewrite nth_error_imap, Hr. reflexivity.
Qed.

(* C07 *)
Lemma p_clonable s a : Hist F s a ->
  let s1 := after F (RdList Points) s in Rep a s1 /\ (qp a <> None -> clonable F s1).
Proof.
  intros H. destruct (read_list_clonable F a s (Hist_Rep F s a H)) as (s1 & E & H1 & H2).
  cbn [after]. rewrite E. auto.
Qed.
Lemma p_clonable_eq s a P : Hist F s a -> qp a = Some P -> all_equal (counts_of F P) = true ->
  qp a <> None -> clonable F s.
Proof.
  intros H EP Heq _. apply Hist_Rep in H. unfold Rep, PointcloudsProofs.Rep in H. rewrite EP in H.
  eapply equal_clonable; eauto.
Qed.

Lemma ready_Rep s a : ReadyToClone F s a -> Hist F s a /\ Rep a s /\ (qp a <> None -> clonable F s).
Proof.
  intros [(s0 & H & ->)|[H (P & EP & Heq)]].
  - split; [now apply h_read|]. now apply p_clonable.
  - split; [exact H|]. split; [now apply Hist_Rep|]. eapply p_clonable_eq; eauto.
Qed.

Lemma p_clone s a : ReadyToClone F s a ->
  exists o s', clone F s = (Ok o, s') /\ Hist F o a /\ Shows F o a /\ Hist F s' a /\ Shows F s' a.
Proof.
  intros HR. destruct (ready_Rep s a HR) as (H & Hr & Hc).
  destruct (clone_Rep F a s Hr Hc) as (o & s' & E & Ho & Hs').
  exists o, s'. split; [exact E|]. assert (Hh : Hist F o a).
  { destruct HR as [(s0 & H0 & ->)|[H0 (P & EP & Heq)]]; [exact (h_clone F _ _ _ _ H0 E)|exact (h_clone_eq F _ _ _ _ _ H0 EP Heq E)]. }
  split; [exact Hh|]. split; [now apply Rep_Shows|]. split; [exact (h_clone_self F _ _ _ _ H E)|now apply Rep_Shows].
Qed.
Lemma p_detach s a : Hist F s a -> detach F s = clone F s.
Proof.
  intros H. apply Hist_Rep in H. unfold Rep, PointcloudsProofs.Rep in H. destruct (qp a) as [P|].
  - eapply detach_clone; eauto.
  - apply detach_clone0. apply H.
Qed.
Lemma p_oop m s a a' : ReadyToClone F s a -> Means F m a a' ->
  exists o s', out_of_place F (run F m) s = (Ok o, s') /\ Hist F o a' /\ Shows F o a' /\ Hist F s' a /\ Shows F s' a.
Proof.
  intros HR Hm. destruct (p_clone s a HR) as (o & s' & E & Ho & So & Hs' & Ss').
  destruct (p_call m o a a' Ho Hm) as (o' & E2 & Ho' & So').
  exists o', s'. split; [|auto]. unfold out_of_place, mbind. rewrite E, E2. reflexivity.
Qed.

(* the operators *)
Lemma p_ops s a sh el : ReadyToClone F s a ->
  let R (m : M pc pc) r := exists o s', m s = (Ok o, s') /\ Shows F o r /\ Shows F s' a in
  (PointcloudsHist.fits F a sh ->
   R (add F (OT F sh el)) (offset_spec F sh el a) /\
   R (sub F (OT F sh el)) (offset_spec F sh (fun i => fmul (el i) (fopp f1)) a) /\
   R (mul F (OT F sh el)) (scale_spec F sh el a) /\
   R (truediv F (OT F sh el)) (scale_spec F sh (fun i => fdiv f1 (el i)) a)) /\
  (is_mat 3 sh (len_view F a) -> forall pre,
   R (rotate F (OT F sh el) pre) (rotate_spec F sh el pre a) /\
   R (matmul F (OT F sh el)) (rotate_spec F sh el false a)) /\
  (is_mat 4 sh (len_view F a) -> forall pre,
   R (transform F (OT F sh el) pre) (transform_spec F sh el pre a) /\
   R (matmul F (OT F sh el)) (transform_spec F sh el false a) /\
   R (pinhole_projection F (OT F sh el)) (pinhole_spec F sh el a)).
Proof.
  intros HR R.
  assert (G : forall m a', Means F m a a' -> R (out_of_place F (run F m)) a').
  { intros m a' Hm. destruct (p_oop m s a a' HR Hm) as (o & s' & E & _ & So & _ & Ss'). exists o, s'. auto. }
  assert (C : forall m a', R m a' -> R (catch_type F m) a').
  { intros m a' (o & s' & E & Q). exists o, s'. unfold catch_type. rewrite E. auto. }
  split; [|split].
  - intros Hf. repeat split; apply C.
    + apply (G (Offset F (OT F sh el))). cbn. auto.
    + apply (G (Offset F (OT F sh (fun i => fmul (el i) (fopp f1))))). cbn. auto.
    + apply (G (Scale F (OT F sh el))). cbn. auto.
    + apply (G (Scale F (OT F sh (fun i => fdiv f1 (el i))))). cbn. auto.
  - intros Hm pre. split.
    + apply (G (Rotate F (OT F sh el) pre)). cbn. auto.
    + assert (E : mat_shape_ok 3 sh = true) by (apply mat_shape_ok_spec; destruct Hm; eauto).
      unfold R, matmul. rewrite E. apply (G (Rotate F (OT F sh el) false)). cbn. auto.
  - intros Hm pre. split; [|split].
    + apply (G (Transform F (OT F sh el) pre)). cbn. auto.
    + assert (E : mat_shape_ok 4 sh = true) by (apply mat_shape_ok_spec; destruct Hm; eauto).
      assert (E3 : mat_shape_ok 3 sh = false).
      { destruct (mat_shape_ok 3 sh) eqn:E3; [|reflexivity]. apply mat_shape_ok_spec in E3.
        destruct Hm as [Hm|Hm]; rewrite Hm in E3; destruct E3 as [E3|[B E3]]; discriminate. }
      unfold R, matmul. rewrite E, E3. apply (G (Transform F (OT F sh el) false)). cbn. auto.
    + apply (G (Pinhole F (OT F sh el))). cbn. auto.
Qed.

(* C09 *)
Lemma p_append s o a b : Hist F s a -> Hist F o b ->
  qp a = None \/ qp b = None \/ same_attrs F a b ->
  exists s' o', append_points F (s, o) = (Ok tt, (s', o')) /\
    Hist F o' b /\ Shows F o' b /\
    let r := match qp a, qp b with None, _ => b | _, None => a | Some _, Some _ => append_spec F a b end in
    Hist F s' r /\ Shows F s' r.
Proof.
  intros Hs Ho Hc. destruct (append_ok F a b s o (Hist_Rep _ _ _ Hs) (Hist_Rep _ _ _ Ho) Hc) as (s' & o' & E & _ & H2).
  exists s', o'. split; [exact E|]. split; [exact (h_append_other F _ _ _ _ _ _ _ Hs Ho E)|]. split; [now apply Rep_Shows|].
  pose proof (h_append_self F _ _ _ _ _ _ _ Hs Ho E) as Hh. split; [exact Hh|]. now apply p_hist_shows.
Qed.
Lemma p_append_rejects s o a b : Hist F s a -> Hist F o b ->
  qp a <> None -> qp b <> None -> ~ same_attrs F a b ->
  exists s' o', append_points F (s, o) = (Err ValueError, (s', o')) /\ Shows F s' a /\ Shows F o' b.
Proof.
  intros Hs Ho Ha Hb Hc. destruct (append_rejects F a b s o (Hist_Rep _ _ _ Hs) (Hist_Rep _ _ _ Ho)) as (s' & o' & E & H1 & H2); [tauto|].
  exists s', o'. split; [exact E|]. split; now apply Rep_Shows.
Qed.
Lemma p_append_spec a b P Q x : qp a = Some P -> qp b = Some Q -> valid_batch F P a -> valid_batch F Q b ->
  same_attrs F a b ->
  match qget x a, qget x b with
  | Some L1, Some L2 => exists L, qget x (append_spec F a b) = Some L /\ length L = length L1 /\
      forall k y1 y2, nth_error L1 k = Some y1 -> nth_error L2 k = Some y2 ->
        exists y, nth_error L k = Some y /\ t2r y = t2r y1 ++ t2r y2 /\ t2c y = t2c y1 /\ t2c y = t2c y2
  | None, None => qget x (append_spec F a b) = None
  | _, _ => False
  end.
Proof.
  intros EP EQ Hva Hvb (Hl & Hat & Hw). specialize (Hat x).
  assert (Es : qget x (append_spec F a b) = cat_clouds F (qget x a) (qget x b)) by (destruct x; reflexivity).
  rewrite Es. destruct (qget x a) as [L1|] eqn:E1, (qget x b) as [L2|] eqn:E2; cbn in *; try discriminate; [|reflexivity].
  eexists. split; [reflexivity|].
  pose proof (valid_len _ _ _ _ _ Hva E1) as N1. pose proof (valid_len _ _ _ _ _ Hvb E2) as N2.
  unfold len_view in Hl. rewrite EP, EQ in Hl.
  split; [rewrite map_length, combine_length; lia|].
  intros k y1 y2 H1 H2. exists (cat_cloud F y1 y2). split.
  - rewrite nth_error_map.
    assert (Hcomb : nth_error (combine L1 L2) k = Some (y1, y2)).
    { clear -H1 H2. revert L2 k H1 H2. induction L1 as [|z L1 IH]; intros [|z2 L2] [|k] H1 H2; cbn in *; try discriminate; [congruence|auto]. }
    now rewrite Hcomb.
  - split; [reflexivity|]. split; [reflexivity|]. cbn.
    pose proof (valid_wid _ _ _ _ _ Hva E1) as W1. pose proof (valid_wid _ _ _ _ _ Hvb E2) as W2.
    unfold wid_ok in *. rewrite Forall_forall in W1, W2.
    apply nth_error_In in H1, H2. destruct (W1 _ H1) as [-> _], (W2 _ H2) as [-> _].
    destruct x; try reflexivity. exact Hw.
Qed.

(* C10 *)
Lemma p_getitem s a ix ks : Hist F s a -> Selects ix (len_view F a) ks -> ks <> [] ->
  exists c o s', getitem F ix s = (Ok o, s') /\ Picked F ks a c /\ Hist F o c /\ Shows F o c /\ Shows F s' a.
Proof.
  intros H Hsel Hne. pose proof (Hist_Rep _ _ _ H) as Hr. unfold Rep, PointcloudsProofs.Rep in Hr.
  destruct (qp a) as [P|] eqn:EP.
  - unfold len_view in Hsel. rewrite EP in Hsel.
    destruct (getitem_ok F P a s ix ks Hr Hsel Hne) as (c & o & s' & E & Hp & Ho & Hs').
    exists c, o, s'. split; [exact E|]. split; [exact Hp|]. split; [|split; now apply Rep_Shows].
    eapply h_item; eauto. unfold len_view. now rewrite EP.
  - exfalso. unfold len_view in Hsel. rewrite EP in Hsel. destruct ks as [|k ks]; [congruence|].
    destruct ix; cbn in Hsel.
    + destruct Hsel as (k' & (Hk & _) & _). lia.
    + destruct Hsel as [(Hst & _ & Hin)|(Hst & _ & Hin)]; destruct (Hin k) as [Hin1 _]; destruct (Hin1 (or_introl eq_refl)) as (Hlt & j & Hj & Ek).
      * unfold clip_up in *. cbn in Hlt, Ek. destruct stop as [e|].
        { destruct (e <? 0)%Z eqn:Z1; [apply Z.ltb_lt in Z1|apply Z.ltb_ge in Z1]; lia. } lia.
      * unfold clip_down in *. cbn in Hlt, Ek.
        destruct start as [e|]; [|nia]. destruct (e <? 0)%Z eqn:Z1; [apply Z.ltb_lt in Z1|apply Z.ltb_ge in Z1]; nia.
    + inversion Hsel as [|? ? ? ? (Hk & _)]; subst. lia.
    + destruct Hsel as [_ Hsel]. inversion Hsel as [|? ? ? ? (Hk & _)]; subst. lia.
    + destruct Hsel as (_ & _ & Hsel & _). inversion Hsel; subst. lia.
    + tauto.
    + tauto.
Qed.
Lemma p_getitem_rejects s a ix : Hist F s a ->
  (Selects ix (len_view F a) [] \/ ~ exists ks, Selects ix (len_view F a) ks) ->
  exists e s', getitem F ix s = (Err e, s') /\ (e = IndexError \/ e = ValueError) /\ Shows F s' a.
Proof.
  intros H Hsel. pose proof (Hist_Rep _ _ _ H) as Hr. unfold Rep, PointcloudsProofs.Rep in Hr.
  destruct (qp a) as [P|] eqn:EP.
  - unfold len_view in Hsel. rewrite EP in Hsel. destruct Hsel as [Hsel|Hsel].
    + destruct (getitem_nothing F P a s ix Hr Hsel) as (s' & E & Hs'). exists ValueError, s'.
      split; [exact E|]. split; [auto|now apply Rep_Shows].
    + destruct (getitem_bad F P a s ix Hr Hsel) as (e & s' & E & He & Hs'). exists e, s'.
      split; [exact E|]. split; [auto|now apply Rep_Shows].
  - destruct Hr as [Ha Hr]. destruct (getitem_empty F s ix Hr) as (s' & E & Hs'). exists IndexError, s'.
    split; [exact E|]. split; [auto|]. apply Rep_Shows. unfold Rep, PointcloudsProofs.Rep. rewrite EP. auto.
Qed.

(* C11 *)
Lemma p_set_padded s a P x v L : Hist F s a -> qp a = Some P -> qget x a <> None -> pad_value F P x v L ->
  exists s', set_padded F x v s = (Ok tt, s') /\ Hist F s' (qset x (Some L) a) /\ Shows F s' (qset x (Some L) a) /\
    exists p, v = SP F (AT3 F p) /\ fst (get_padded F x s') = Ok (Some p).
Proof.
  intros H EP Hx Hv. destruct (p_call (SetPadded F x v) s a (qset x (Some L) a) H) as (s' & E & Hh & Hs).
  { cbn. eauto 10. }
  exists s'. split; [exact E|]. split; [exact Hh|]. split; [exact Hs|].
  destruct Hv as (w & Hfit & ->). eexists. split; [reflexivity|].
  destruct Hs as (_ & S2 & _). rewrite S2. f_equal.
  pose proof (Hist_Rep _ _ _ H) as Hr. unfold Rep, PointcloudsProofs.Rep in Hr. rewrite EP in Hr.
  destruct (fits_valid F P a x w L (rn_valid _ _ _ _ Hr) Hfit) as (P' & Hv' & Hc' & Hw').
  rewrite (padded_some F P' _ x L Hv') by apply qget_qset_same. now rewrite Hw', Hc'.
Qed.
Lemma p_set_padded_rejects s a P x v : Hist F s a -> qp a = Some P -> real_pad F v ->
  ~ (exists L, pad_value F P x v L) ->
  exists e s', set_padded F x v s = (Err e, s') /\ (e = TypeError \/ e = ValueError) /\ Shows F s' a.
Proof.
  intros H EP Rv Hno. pose proof (Hist_Rep _ _ _ H) as Hr. unfold Rep, PointcloudsProofs.Rep in Hr. rewrite EP in Hr.
  destruct (set_padded_reject F P a s x v Rv Hr Hno) as (e & s' & E & He & Hs'). exists e, s'.
  split; [exact E|]. split; [exact He|now apply Rep_Shows].
Qed.
Lemma p_set_list_rejects s a P x v : Hist F s a -> qp a = Some P -> real_list F v ->
  ~ list_shape_ok F P x v ->
  exists e s', set_list F x v s = (Err e, s') /\ (e = TypeError \/ e = ValueError) /\ Shows F s' a.
Proof.
  intros H EP Rv Hno. pose proof (Hist_Rep _ _ _ H) as Hr. unfold Rep, PointcloudsProofs.Rep in Hr. rewrite EP in Hr.
  destruct (set_list_reject F P a s x v Rv Hr Hno) as (e & s' & E & He & Hs'). exists e, s'.
  split; [exact E|]. split; [exact He|now apply Rep_Shows].
Qed.
Lemma p_set_points_list s a P v L : Hist F s a -> qp a = Some P -> list_value F P Points v L ->
  exists s', set_list F Points v (after_lists F s) = (Ok tt, s') /\
    Hist F s' (qset Points (Some L) a) /\ Shows F s' (qset Points (Some L) a).
Proof.
  intros H EP Hv. pose proof (Hist_Rep _ _ _ H) as Hr. unfold Rep, PointcloudsProofs.Rep in Hr. rewrite EP in Hr.
  destruct (after_lists_all F P a s Hr) as [H1 H2].
  destruct (set_points_list_ok F P a _ L v H1 Hv H2) as (s' & E & Hs'). exists s'.
  split; [exact E|]. split; [eapply h_points; eauto|now apply Rep_Shows].
Qed.
Lemma p_set_list_listonly s a P x v L : ListOnly F s a -> qp a = Some P -> qget x a <> None -> list_value F P x v L ->
  exists s', set_list F x v s = (Ok tt, s') /\ ListOnly F s' (qset x (Some L) a) /\ Shows F s' (qset x (Some L) a).
Proof.
  intros H EP Hx Hv. destruct (ListOnly_inv F s a H) as (P2 & Hr & Hp & Hl).
  assert (P2 = P) by (pose proof (valid_qp _ _ _ (rn_valid _ _ _ _ Hr)); congruence). subst P2.
  assert (Q : exists s1, set_list F x v s = (Ok tt, s1) /\ Rep (qset x (Some L) a) s1).
  { destruct (attr_dec x Points) as [->|Hn]; [eapply set_points_list_ok; eauto|eapply set_other_list_ok; eauto]. }
  destruct Q as (s' & E & Hs'). exists s'. split; [exact E|]. split; [eapply lo_set; eauto|now apply Rep_Shows].
Qed.
Lemma p_add_list p n c f a P s x v L :
  real_inp F p -> real_inp F n -> real_inp F c -> real_inp F f -> valid_batch F P a ->
  as_list F p (qp a) -> as_list F n (qn a) -> as_list F c (qc a) -> as_list F f (qf a) ->
  ctor F p n c f = Ok s -> x <> Points -> list_value F P x v L ->
  exists s', set_list F x v s = (Ok tt, s') /\ ListOnly F s' (qset x (Some L) a) /\ Shows F s' (qset x (Some L) a).
Proof.
  intros Rp Rn Rc Rf Hv Ap An Ac Af E Hx Hlv.
  destruct (ctor_list_state F p n c f a P s) as (H1 & H2 & H3); auto.
  destruct (set_other_list_ok F P a s x L v) as (s' & E2 & Hs'); auto.
  exists s'. split; [exact E2|]. split; [exact (lo_add F p n c f a P s x v L s' Rp Rn Rc Rf Hv Ap An Ac Af E Hx Hlv E2)|now apply Rep_Shows].
Qed.

(* C12 *)
Lemma p_has s a x : Hist F s a ->
  exists b, fst (has F x s) = Ok b /\
    (b = true <-> exists L, fst (get_list F x s) = Ok (Some L)) /\
    (b = true <-> exists p, fst (get_padded F x s) = Ok (Some p)).
Proof.
  intros H. pose proof (p_views_agree s a x H) as Hv. destruct (p_hist_shows s a H) as (S1 & S2 & S3 & _).
  rewrite S3. exists (is_some (qget x a)). split; [reflexivity|].
  rewrite S1 in *. destruct (qget x a) as [L|]; cbn.
  - destruct Hv as [[Hv _]|(L' & p & _ & -> & _)]; [discriminate|]. split; split; eauto.
  - destruct Hv as [[_ ->]|(L' & p & Hv & _)]; [|discriminate].
    split; (split; [discriminate|]; intros [q Hq]; discriminate).
Qed.

(* C13 *)
Lemma p_keeps s a P x v L : Hist F s a -> qp a = Some P -> x <> Points ->
  (pad_value F P Points v L ->
   exists s', set_padded F Points v s = (Ok tt, s') /\
     fst (get_list F x s') = fst (get_list F x s) /\ fst (get_padded F x s') = fst (get_padded F x s)).
Proof.
  intros H EP Hx Hv. destruct (p_set_padded s a P Points v L H EP) as (s' & E & _ & (S1 & S2 & _) & _); [cbn; congruence|exact Hv|].
  exists s'. split; [exact E|]. destruct (p_hist_shows s a H) as (T1 & T2_ & _). rewrite S1, S2, T1, T2_.
  rewrite qget_qset_other by exact Hx. split; [reflexivity|]. f_equal.
  destruct Hv as (w & (Hc & _) & _). eapply padded_view_qset_other; eauto. reflexivity.
Qed.
Lemma p_keeps_list s a P x v L : Hist F s a -> qp a = Some P -> x <> Points -> list_value F P Points v L ->
   exists s', set_list F Points v (after_lists F s) = (Ok tt, s') /\
     fst (get_list F x s') = fst (get_list F x s) /\ fst (get_padded F x s') = fst (get_padded F x s).
Proof.
  intros H EP Hx Hv. destruct (p_set_points_list s a P v L H EP Hv) as (s' & E & _ & (S1 & S2 & _)).
  exists s'. split; [exact E|]. destruct (p_hist_shows s a H) as (T1 & T2_ & _). rewrite S1, S2, T1, T2_.
  rewrite qget_qset_other by exact Hx. split; [reflexivity|]. f_equal.
  destruct Hv as (w & (Hc & _) & _). eapply padded_view_qset_other; eauto. reflexivity.
Qed.

End PP.
