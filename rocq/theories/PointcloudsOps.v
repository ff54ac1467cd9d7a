(* Proofs about the in-place arithmetic operations and the setters. *)
From Coq Require Import List Arith ZArith Bool Lia Field_theory Ring_theory.
From Verif Require Import Res Fld StructUtilsModel StructUtilsProofs PointcloudsModel PointcloudsSpec
  PointcloudsProofs.
Import ListNotations.
Local Open Scope nat_scope.

Section Ops.
Variable F : Fld.
Add Field Ffield2 : (fth F).
Notation T2 := (t2 F).
Notation T3 := (t3 F).
Notation pc := (pc F).
Notation batch := (batch F).
Implicit Types (s : pc) (a : batch) (P L : list T2).
Notation RepN := (RepN F).
Notation Rep := (Rep F).
Notation Rep0 := (Rep0 F).

Lemma tab3_b B N C f : t3b (tab3 F B N C f) = B.
Proof. unfold t3b, tab3. cbn. now rewrite map_length, seq_length. Qed.
Lemma pad_to_b N w L : t3b (pad_to F N w L) = length L.
Proof. unfold t3b, pad_to. cbn. now rewrite map_length. Qed.

(* ---------- changing one attribute ---------- *)
Lemma width_qset_other a x y v : x <> y -> width F (qset y v a) x = width F a x.
Proof. destruct x, y; intros H; try congruence; reflexivity. Qed.

Lemma padded_view_qset_other P P' a x y v :
  qp a = Some P -> qp (qset y v a) = Some P' -> counts_of F P' = counts_of F P -> x <> y ->
  padded_view F (qset y v a) x = padded_view F a x.
Proof.
  intros HP HP' Hc Hn. unfold padded_view. rewrite HP, HP', Hc.
  rewrite width_qset_other, qget_qset_other by exact Hn. reflexivity.
Qed.

(* new value for attribute x through its padded form *)
Lemma RepN_update P P' a s x L :
  RepN P a s -> (forall y, qget y (pad F s) = padded_view F a y) ->
  valid_batch F P' (qset x (Some L) a) -> counts_of F P' = counts_of F P ->
  (qget x a <> None \/ qget x (flg F s) <> Some false) ->
  RepN P' (qset x (Some L) a)
    (set_lst F x None (set_pad F x (padded_view F (qset x (Some L) a) x) s)).
Proof.
  intros H Hp Hv Hc Hfl. pose proof (valid_qp _ _ _ Hv) as HqP'.
  pose proof (valid_qp _ _ _ (rn_valid _ _ _ _ H)) as HqP.
  assert (Hlen : length P' = length P).
  { apply (f_equal (@length nat)) in Hc. unfold counts_of in Hc. now rewrite !map_length in Hc. }
  assert (Hpads : forall y, qget y (pad F (set_lst F x None
            (set_pad F x (padded_view F (qset x (Some L) a) x) s))) = padded_view F (qset x (Some L) a) y).
  { intros y. cbn. destruct (attr_dec y x) as [->|Hn].
    - now rewrite qget_qset_same.
    - rewrite qget_qset_other by exact Hn. rewrite Hp. symmetry.
      eapply padded_view_qset_other; eauto. }
  constructor.
  - exact Hv.
  - cbn. rewrite Hc. apply H.
  - cbn. rewrite Hlen. apply H.
  - cbn. rewrite Hc. apply H.
  - cbn. rewrite Hc. apply H.
  - intros y. cbn. destruct (attr_dec y x) as [->|Hn].
    + rewrite qget_qset_same. destruct (rn_flg _ _ _ _ H x) as [E|E]; [now left|].
      right. rewrite E. f_equal. destruct (qget x a); [reflexivity|].
      destruct Hfl as [Hfl|Hfl]; [congruence|]. rewrite E in Hfl. cbn in Hfl. congruence.
    + rewrite qget_qset_other by exact Hn. apply H.
  - cbn. unfold mask_view. rewrite HqP'. cbn. rewrite Hc.
    destruct (rn_mask _ _ _ _ H) as [E|E]; [now left|]. right. rewrite E. unfold mask_view.
    now rewrite HqP.
  - intros y. cbn. destruct (attr_dec y x) as [->|Hn].
    + rewrite qget_qset_same. now left.
    + rewrite !qget_qset_other by exact Hn. apply H.
  - intros y Hy. rewrite Hpads. eapply padded_none; eauto.
  - right. exact Hpads.
Qed.

(* ---------- move ---------- *)
Lemma move_counts h L : counts_of F (move F h L) = counts_of F L.
Proof.
  unfold counts_of, move. rewrite map_imap. cbn.
  rewrite <- (imap_const (fun y : T2 => length (t2r y))). apply imap_ext. intros i x _. apply imap_length.
Qed.
Lemma move_length h L : length (move F h L) = length L.
Proof. apply imap_length. Qed.
Lemma move_wid h L : wid_ok F 3 (move F h L).
Proof.
  unfold wid_ok, move. apply imap_Forall. intros i y _. cbn. split; [reflexivity|].
  apply imap_Forall. intros k r _. reflexivity.
Qed.
Lemma move_ne h L : L <> [] -> move F h L <> [].
Proof. intros H E. apply H. apply (f_equal (@length T2)) in E. rewrite move_length in E. now destruct L. Qed.

Lemma tab3_move N P h g :
  (forall y, In y P -> length (t2r y) <= N) ->
  (forall b i j y, nth_error P b = Some y -> i < N -> j < 3 ->
     g b i j = if i <? length (t2r y) then h b i (fun k => nth k (nth i (t2r y) []) f0) j else f0) ->
  tab3 F (length P) N 3 g = pad_to F N 3 (move F h P).
Proof.
  intros Hn Hg.
  assert (Hle : Forall (fun y => length (t2r y) <= N) (move F h P)).
  { apply Forall_forall. intros y Hy. unfold move in Hy. apply In_nth_error in Hy. destruct Hy as [k Hk].
    rewrite nth_error_imap in Hk. destruct (nth_error P k) as [z|] eqn:E; [|discriminate].
    cbn in Hk. inversion Hk; subst. cbn. rewrite imap_length. apply Hn. eapply nth_error_In; eauto. }
  apply t3_ext.
  - apply tab3_wf.
  - apply pad_to_wf; [apply move_wid|exact Hle].
  - rewrite tab3_shape, pad_to_shape, move_length. reflexivity.
  - intros b i j Hb Hi Hj. rewrite tab3_b in Hb. cbn in Hi, Hj.
    rewrite get3_tab3 by assumption.
    destruct (nth_error P b) as [y|] eqn:Ey; [|apply nth_error_None in Ey; lia].
    rewrite (Hg b i j y Ey Hi Hj).
    assert (Em : nth_error (move F h P) b =
      Some (mkT2 3 (imap (fun i r => map (h b i (fun j => nth j r f0)) (seq 0 3)) (t2r y)))).
    { unfold move. rewrite nth_error_imap, Ey. reflexivity. }
    rewrite (get3_pad F N 3 _ b i j _ Em Hi).
    2:{ cbn. rewrite imap_length. apply Hn. eapply nth_error_In; eauto. }
    cbn [t2r]. rewrite imap_length. destruct (Nat.ltb_spec i (length (t2r y))) as [Hl|Hl]; [|reflexivity].
    rewrite (nth_imap _ _ _ [] []) by exact Hl. rewrite nth_map_seq by exact Hj. reflexivity.
Qed.

Lemma valid_move_points P a h :
  valid_batch F P a -> valid_batch F (move F h P) (qset Points (Some (move F h P)) a).
Proof.
  intros Hv. split; [reflexivity|]. split; [apply move_ne, (valid_ne _ _ _ Hv)|].
  intros x L HL. destruct (attr_dec x Points) as [->|Hn].
  - rewrite qget_qset_same in HL. inversion HL; subst. split; [reflexivity|]. apply move_wid.
  - rewrite qget_qset_other in HL by exact Hn. rewrite width_qset_other by exact Hn.
    rewrite move_counts. split; [apply (valid_counts _ _ _ _ _ Hv HL)|apply (valid_wid _ _ _ _ _ Hv HL)].
Qed.
Lemma valid_move_normals P a h L :
  valid_batch F P a -> qn a = Some L -> valid_batch F P (qset Normals (Some (move F h L)) a).
Proof.
  intros Hv EL. split; [apply Hv|]. split; [apply Hv|].
  intros x M HM. destruct (attr_dec x Normals) as [->|Hn].
  - rewrite qget_qset_same in HM. inversion HM; subst. rewrite move_counts.
    split; [apply (valid_counts _ _ _ Normals _ Hv EL)|]. apply move_wid.
  - rewrite qget_qset_other in HM by exact Hn. rewrite width_qset_other by exact Hn.
    split; [apply (valid_counts _ _ _ _ _ Hv HM)|apply (valid_wid _ _ _ _ _ Hv HM)].
Qed.

(* ---------- broadcasting ---------- *)
Lemma bext_ok e d : e = 1 \/ e = d -> obind (bext e d) (bext d) = Some d.
Proof.
  intros [->| ->]; unfold bext.
  - destruct (Nat.eqb_spec 1 d) as [<-|]; cbn; [reflexivity|]. now rewrite Nat.eqb_refl.
  - rewrite Nat.eqb_refl. cbn. now rewrite Nat.eqb_refl.
Qed.
Lemma bext_ok3 c : c = 1 \/ c = 3 -> bext 3 c = Some 3.
Proof. intros [->| ->]; reflexivity. Qed.
Lemma bidx_lt d x : x < d -> bidx d x = x.
Proof. unfold bidx. destruct (Nat.eqb_spec d 1); intros; lia. Qed.

Definition mask_list P : list (list bool) :=
  map (fun n => repeat true n ++ repeat false (biggest (counts_of F P) - n)) (counts_of F P).
Lemma mask_list_length P : length (mask_list P) = length P.
Proof. unfold mask_list, counts_of. now rewrite !map_length. Qed.
Lemma mask_list_n P : P <> [] -> mask_n (mask_list P) = biggest (counts_of F P).
Proof.
  intros H. unfold mask_list, mask_n.
  destruct (counts_of F P) as [|n ns] eqn:E; [destruct P; [congruence|discriminate]|].
  cbn [map]. rewrite app_length, !repeat_length.
  pose proof (biggest_ge (n :: ns) n (or_introl eq_refl)). lia.
Qed.
Lemma mask_f_list P b i y :
  nth_error P b = Some y -> i < biggest (counts_of F P) ->
  mask_f F (mask_list P) b i = if i <? length (t2r y) then f1 else f0.
Proof.
  intros Hb Hi. unfold mask_f.
  assert (E : nth b (mask_list P) [] = repeat true (length (t2r y)) ++
              repeat false (biggest (counts_of F P) - length (t2r y))).
  { apply nth_error_nth. unfold mask_list, counts_of. rewrite !nth_error_map, Hb. reflexivity. }
  rewrite E. destruct (Nat.ltb_spec i (length (t2r y))).
  - rewrite app_nth1 by (now rewrite repeat_length).
    rewrite (nth_error_nth _ _ false (x:=true)); [reflexivity|].
    rewrite nth_error_repeat'. destruct (Nat.ltb_spec i (length (t2r y))); [reflexivity|lia].
  - rewrite app_nth2 by (rewrite repeat_length; lia). rewrite repeat_length.
    rewrite (nth_error_nth _ _ false (x:=false)); [reflexivity|].
    rewrite nth_error_repeat'.
    destruct (Nat.ltb_spec (i - length (t2r y)) (biggest (counts_of F P) - length (t2r y))); [reflexivity|lia].
Qed.

Lemma fits_pad3 sh B N :
  fits_shape sh B N -> exists x y z : nat, pad_shape3 sh = Some (x, y, z) /\
    (x = 1 \/ x = B) /\ (y = 1 \/ y = N) /\ (z = 1 \/ z = 3).
Proof.
  intros [Hl Hf].
  destruct sh as [|x [|y [|z [|u sh]]]]; cbn in *.
  - exists 1, 1, 1. repeat split; auto.
  - inversion Hf; subst. cbn in *. exists 1, 1, x. repeat split; auto; lia.
  - inversion Hf as [|? ? H1 H2]; subst. inversion H2; subst. cbn in *.
    exists 1, x, y. repeat split; auto; lia.
  - inversion Hf as [|? ? H1 H2]; subst. inversion H2 as [|? ? H3 H4]; subst. inversion H4; subst. cbn in *.
    exists x, y, z. repeat split; auto; lia.
  - lia.
Qed.
Lemma el3_bcast sh el b i j : length sh <= 3 -> el3 F sh el b i j = bcast_el F sh el b i j.
Proof.
  intros H. destruct sh as [|x [|y [|z [|u sh]]]]; cbn in *; try reflexivity. lia.
Qed.

(* one masked elementwise update, in terms of [move] *)
Lemma bcast_op_move P a g f sh el :
  valid_batch F P a -> fits_shape sh (length P) (biggest (counts_of F P)) ->
  forall Q h, length Q = length P -> counts_of F Q = counts_of F P -> wid_ok F 3 Q ->
  (forall b i k r, g b i r k = f (r k) (bcast_el F sh el b i k) f1) ->
  (forall x, f f0 x f0 = f0) ->
  h = g ->
  bcast_op F f (pad_to F (biggest (counts_of F P)) 3 Q) sh el (mask_list P) (mask_n (mask_list P)) =
  Ok (pad_to F (biggest (counts_of F P)) 3 (move F h Q)).
Proof.
  intros Hv Hf Q h HlQ HcQ HwQ Hg H0 ->.
  set (N := biggest (counts_of F P)) in *.
  destruct (fits_pad3 _ _ _ Hf) as (x & y & z & E & Hx & Hy & Hz).
  unfold bcast_op. rewrite E. rewrite pad_to_b, mask_list_length, HlQ.
  rewrite mask_list_n by (apply (valid_ne _ _ _ Hv)). fold N.
  cbn [t3n t3c pad_to]. rewrite bext_ok, bext_ok, bext_ok3 by assumption. f_equal.
  rewrite <- HlQ. apply tab3_move.
  { intros q Hq. pose proof (counts_le F Q P HcQ) as Hle. rewrite Forall_forall in Hle. now apply Hle. }
  intros b i j q Hq Hi Hj.
  assert (Hb : b < length Q) by (apply nth_error_Some; congruence).
  rewrite !bidx_lt by (assumption || lia).
  assert (Hqn : length (t2r q) <= N).
  { pose proof (counts_le F Q P HcQ) as Hle. rewrite Forall_forall in Hle. apply Hle. eapply nth_error_In; eauto. }
  rewrite (get3_pad F N 3 Q b i j q Hq Hi Hqn).
  rewrite el3_bcast by apply Hf.
  assert (Hm : mask_f F (mask_list P) b i = if i <? length (t2r q) then f1 else f0).
  { assert (Hex : exists y0, nth_error P b = Some y0).
    { destruct (nth_error P b) eqn:Ep; [eauto|]. apply nth_error_None in Ep. lia. }
    destruct Hex as [y0 Ey0]. rewrite (mask_f_list P b i y0 Ey0 Hi).
    assert (El : nth_error (counts_of F Q) b = nth_error (counts_of F P) b) by congruence.
    unfold counts_of in El. rewrite !nth_error_map, Hq, Ey0 in El. cbn in El. inversion El as [E']. now rewrite E'. }
  rewrite Hm. destruct (i <? length (t2r q)).
  - now rewrite Hg.
  - apply H0.
Qed.

Lemma masked_update_ok P a s f g sh el :
  RepN P a s -> fits_shape sh (length P) (biggest (counts_of F P)) ->
  (forall b i k r, g b i r k = f (r k) (bcast_el F sh el b i k) f1) ->
  (forall x, f f0 x f0 = f0) ->
  exists s', masked_update F f (OT F sh el) s = (Ok tt, s') /\
    RepN (move F g P) (move_attr F Points g a) s'.
Proof.
  intros H Hf Hg H0. pose proof (rn_valid _ _ _ _ H) as Hv. pose proof (valid_qp _ _ _ Hv) as HqP.
  destruct (has_ok F P a s Points H) as (fl & Eh & Hr).
  rewrite (RepN_hasP _ _ _ _ H) in Eh.
  unfold masked_update, mbind at 1. rewrite Eh. cbn [negb].
  destruct (get_padded_ok F P a _ Points Hr) as (s1 & E1 & Hr1 & Hp1 & _).
  unfold mbind at 1. rewrite E1.
  destruct (nonpad_mask_ok F P a s1 Hr1) as (s2 & E2 & Hr2 & Hl2 & Hp2).
  unfold mbind at 1. rewrite E2.
  rewrite (padded_some F P a Points P Hv HqP).
  assert (Emv : mask_view F a = Some (mask_list P)) by (unfold mask_view; rewrite HqP; reflexivity).
  rewrite Emv. cbn [width].
  unfold mbind at 1, lift.
  rewrite (bcast_op_move P a g f sh el Hv Hf P g eq_refl eq_refl); auto.
  2:{ apply (valid_wid _ _ _ Points _ Hv HqP). }
  unfold mbind, modify. eexists. split; [reflexivity|].
  unfold move_attr. cbn [qget]. rewrite HqP. cbn [option_map].
  assert (Hpads : forall y, qget y (pad F s2) = padded_view F a y).
  { intros y. rewrite Hp2. apply Hp1. }
  pose proof (RepN_update P (move F g P) a s2 Points (move F g P) Hr2 Hpads
               (valid_move_points _ _ _ Hv) (move_counts _ _)) as Hu.
  assert (Epv : padded_view F (qset Points (Some (move F g P)) a) Points =
                Some (pad_to F (biggest (counts_of F P)) 3 (move F g P))).
  { unfold padded_view. cbn. now rewrite move_counts. }
  rewrite Epv in Hu. apply Hu. left. cbn. congruence.
Qed.

Lemma offset_ok P a s sh el :
  RepN P a s -> fits_shape sh (length P) (biggest (counts_of F P)) ->
  exists s', offset_ F (OT F sh el) s = (Ok tt, s') /\ Rep (offset_spec F sh el a) s'.
Proof.
  intros H Hf.
  destruct (masked_update_ok P a s (fun p x m => fadd p (fmul x m))
     (fun b i r j => fadd (r j) (bcast_el F sh el b i j)) sh el H Hf) as (s' & E & Hr).
  - intros. ring.
  - intros. ring.
  - exists s'. split; [exact E|]. unfold Rep, PointcloudsProofs.Rep, offset_spec, move_attr.
    cbn. rewrite (valid_qp _ _ _ (rn_valid _ _ _ _ H)). cbn.
    unfold move_attr in Hr. cbn in Hr. rewrite (valid_qp _ _ _ (rn_valid _ _ _ _ H)) in Hr. exact Hr.
Qed.
Lemma scale_ok P a s sh el :
  RepN P a s -> fits_shape sh (length P) (biggest (counts_of F P)) ->
  exists s', scale_ F (OT F sh el) s = (Ok tt, s') /\ Rep (scale_spec F sh el a) s'.
Proof.
  intros H Hf.
  destruct (masked_update_ok P a s (fun p x m => fmul (fmul p x) m)
     (fun b i r j => fmul (r j) (bcast_el F sh el b i j)) sh el H Hf) as (s' & E & Hr).
  - intros. ring.
  - intros. ring.
  - exists s'. split; [exact E|]. unfold Rep, PointcloudsProofs.Rep, scale_spec, move_attr.
    cbn. rewrite (valid_qp _ _ _ (rn_valid _ _ _ _ H)). cbn.
    unfold move_attr in Hr. cbn in Hr. rewrite (valid_qp _ _ _ (rn_valid _ _ _ _ H)) in Hr. exact Hr.
Qed.

(* ---------- rotation ---------- *)
Lemma rot3_move P L h r :
  counts_of F L = counts_of F P ->
  (forall b k row, h b row k = dot3 F row (fun j => r b j k)) ->
  rot3 F (pad_to F (biggest (counts_of F P)) 3 L) r =
  pad_to F (biggest (counts_of F P)) 3 (move F (fun b i row => h b row) L).
Proof.
  intros Hc Hh. set (N := biggest (counts_of F P)).
  unfold rot3. rewrite pad_to_b. cbn [t3n pad_to].
  pose proof (counts_le F L P Hc) as Hle. rewrite Forall_forall in Hle. fold N in Hle.
  change (mkT3 N 3 (map (fun y : T2 => t2r y ++ repeat (repeat f0 3) (N - length (t2r y))) L))
    with (pad_to F N 3 L).
  apply tab3_move; [exact Hle|]. intros b i j y Hy Hi Hj.
  assert (Hn : length (t2r y) <= N) by (apply Hle; eapply nth_error_In; eauto).
  rewrite Hh. unfold dot3. rewrite !(get3_pad F N 3 L b i _ y Hy Hi Hn).
  destruct (i <? length (t2r y)); [reflexivity|ring].
Qed.

Lemma mat_shape_ok_spec k sh : mat_shape_ok k sh = true <-> (sh = [k; k] \/ exists B, sh = [B; k; k]).
Proof.
  unfold mat_shape_ok, shape_eqb, lastn. destruct sh as [|x [|y [|z [|u sh]]]];
    cbn [length skipn Nat.sub Nat.eqb orb andb].
  - split; [discriminate|]. intros [H|[B H]]; discriminate.
  - split; [discriminate|]. intros [H|[B H]]; discriminate.
  - destruct (list_eq_dec Nat.eq_dec [x; y] [k; k]) as [E|E]; split; intros H; auto; try discriminate.
    destruct H as [H|[B H]]; congruence.
  - destruct (list_eq_dec Nat.eq_dec [y; z] [k; k]) as [E|E]; split; intros H; auto; try discriminate.
    + right. exists x. congruence.
    + destruct H as [H|[B H]]; congruence.
  - split; [discriminate|]. intros [H|[B H]]; discriminate.
Qed.
Lemma is_mat_ok k sh B : is_mat k sh B ->
  mat_shape_ok k sh = true /\ ((length sh =? 3) && negb (hd 0 sh =? B)) = false.
Proof.
  intros [->| ->]; split.
  - apply mat_shape_ok_spec. now left.
  - reflexivity.
  - apply mat_shape_ok_spec. right. now exists B.
  - cbn. now rewrite Nat.eqb_refl.
Qed.
Lemma mat_el_of k sh el B b i j : is_mat k sh B -> mat_el F sh el b i j = mat_of F sh el b i j.
Proof. intros [->| ->]; reflexivity. Qed.

Lemma rotate_ok P a s sh el pre :
  RepN P a s -> is_mat 3 sh (length P) ->
  exists s', rotate_ F (OT F sh el) pre s = (Ok tt, s') /\ Rep (rotate_spec F sh el pre a) s'.
Proof.
  intros H Hm. pose proof (rn_valid _ _ _ _ H) as Hv. pose proof (valid_qp _ _ _ Hv) as HqP.
  destruct (is_mat_ok _ _ _ Hm) as [M1 M2].
  unfold rotate_. rewrite M1. cbn [negb]. unfold mbind at 1, get.
  rewrite (rn_bat _ _ _ _ H), M2.
  destruct (has_ok F P a s Points H) as (fl & Eh & Hr). rewrite (RepN_hasP _ _ _ _ H) in Eh.
  unfold mbind at 1. rewrite Eh. cbn [negb].
  destruct (get_padded_ok F P a _ Points Hr) as (s1 & E1 & Hr1 & Hp1 & _).
  unfold mbind at 1. rewrite E1. rewrite (padded_some F P a Points P Hv HqP). cbn [width].
  set (r := fun b i j => if pre then mat_el F sh el b j i else mat_el F sh el b i j).
  set (h := fun (b i : nat) (row : nat -> F) => rot_fun F (mat_of F sh el b) pre row).
  assert (Hh : forall b k row, rot_fun F (mat_of F sh el b) pre row k = dot3 F row (fun j => r b j k)).
  { intros b k row. unfold rot_fun, dot3, r. rewrite !(mat_el_of 3 sh el _ _ _ _ Hm).
    destruct pre; ring. }
  rewrite (rot3_move P P (fun b row => rot_fun F (mat_of F sh el b) pre row) r eq_refl Hh).
  change (move F (fun b (_ : nat) row => rot_fun F (mat_of F sh el b) pre row) P) with (move F h P).
  set (N := biggest (counts_of F P)) in *.
  assert (Epv : padded_view F (qset Points (Some (move F h P)) a) Points = Some (pad_to F N 3 (move F h P))).
  { unfold padded_view. cbn. now rewrite move_counts. }
  assert (Hu : RepN (move F h P) (qset Points (Some (move F h P)) a)
                 (set_lst F Points None (set_pad F Points (Some (pad_to F N 3 (move F h P))) s1))).
  { rewrite <- Epv. apply (RepN_update P (move F h P) a s1 Points (move F h P) Hr1 Hp1
       (valid_move_points _ _ _ Hv) (move_counts _ _)). left. cbn. congruence. }
  (* reading the normals: the padded points are present, nothing is recomputed *)
  unfold mbind at 1, modify.
  set (s2 := set_pad F Points (Some (pad_to F N 3 (move F h P))) s1).
  assert (Eg : exists f2, get_padded F Normals s2 = (Ok (qn (pad F s1)), with_flg F f2 s2) /\ flags_ok F a f2).
  { unfold get_padded, compute_padded.
    destruct (has_gen F a s2 Points) as (f2 & Eh2 & Hf2).
    - exact (rn_flg _ _ _ _ Hr1).
    - cbn. rewrite HqP. cbn. apply orb_true_r.
    - cbn [qget] in Eh2. rewrite HqP in Eh2. cbn [is_some] in Eh2.
      exists f2. split; [|exact Hf2]. unfold mbind at 1 2. rewrite Eh2. cbn [negb].
      unfold mbind, get. cbn. reflexivity. }
  destruct Eg as (f2 & Eg & Hf2). unfold mbind at 1. rewrite Eg.
  pose proof (Hp1 Normals) as En. cbn [qget] in En. rewrite En.
  unfold mbind. cbv beta iota. eexists. split; [reflexivity|].
  unfold Rep, PointcloudsProofs.Rep, rotate_spec, move_attr. cbn [qget]. rewrite HqP. cbn [option_map qset qn qp].
  assert (Hu2 : RepN (move F h P) (qset Points (Some (move F h P)) a)
                 (with_flg F f2 (set_lst F Points None s2))).
  { apply RepN_with_flg; [exact Hu|]. intros x. destruct (Hf2 x) as [E|E]; [now left|]. right. rewrite E.
    destruct x; cbn; try reflexivity. now rewrite HqP. }
  set (a1 := qset Points (Some (move F h P)) a) in *.
  destruct (qn a) as [Ln|] eqn:ELn; cbn [option_map].
  - rewrite (padded_some F P a Normals Ln Hv ELn). cbn [option_map width].
    rewrite (rot3_move P Ln (fun b row => rot_fun F (mat_of F sh el b) pre row) r
               (valid_counts _ _ _ Normals _ Hv ELn) Hh).
    change (move F (fun b (_ : nat) row => rot_fun F (mat_of F sh el b) pre row) Ln) with (move F h Ln).
    assert (Hpads : forall y, qget y (pad F (with_flg F f2 (set_lst F Points None s2))) = padded_view F a1 y).
    { intros y. destruct (rn_mode _ _ _ _ Hu2) as [(E & _)|E]; [|apply E]. cbn in E. discriminate. }
    pose proof (RepN_update (move F h P) (move F h P) a1 _ Normals (move F h Ln) Hu2 Hpads) as HU.
    assert (Epn : padded_view F (qset Normals (Some (move F h Ln)) a1) Normals =
                  Some (pad_to F N 3 (move F h Ln))).
    { unfold padded_view, a1. cbn. now rewrite move_counts. }
    rewrite Epn in HU.
    assert (Hsome : qget Normals a1 <> None) by (cbn; rewrite ELn; discriminate).
    exact (HU (valid_move_normals (move F h P) a1 h Ln (rn_valid _ _ _ _ Hu) ELn) eq_refl
             (or_introl Hsome)).
  - (* no normals *)
    rewrite (padded_none F P a Normals Hv ELn). cbn [option_map].
    match goal with |- RepN _ ?q _ => replace q with a1 by (unfold a1; cbn; now rewrite ELn) end.
    pose proof (rn_lst _ _ _ _ Hu2 Normals) as HlN. cbn [qget lst] in HlN.
    assert (EaN : qn a1 = None) by (unfold a1; cbn; exact ELn).
    destruct Hu2 as [U1 U2 U3 U4 U5 U6 U7 U8 U9 U10]. constructor; auto.
    + intros x. destruct x; cbn; try apply (U8 Points); try (now left).
      * apply (U8 Colors).
      * apply (U8 Features).
    + intros x Hx. destruct x; cbn; auto; [apply (U9 Points Hx)|apply (U9 Colors Hx)|apply (U9 Features Hx)].
    + right. destruct U10 as [(E & _)|E]; [cbn in E; discriminate|]. intros x.
      destruct (attr_dec x Normals) as [->|Hn].
      * rewrite (padded_none F _ _ Normals U1 EaN). reflexivity.
      * rewrite <- E. destruct x; try reflexivity. congruence.
Qed.
(* ---------- rigid transform, projection ---------- *)
Lemma move_move g h L :
  (forall b i r r' k, k < 3 -> (forall j, j < 3 -> r j = r' j) -> g b i r k = g b i r' k) ->
  move F g (move F h L) = move F (fun b i r => g b i (h b i r)) L.
Proof.
  intros Hg. unfold move. rewrite imap_imap. apply imap_ext. intros b y _. f_equal.
  cbn [t2r]. rewrite imap_imap. apply imap_ext. intros i r _.
  apply map_ext_in. intros k Hk. apply in_seq in Hk. apply Hg; [lia|].
  intros j Hj. now rewrite nth_map_seq.
Qed.
Lemma move_ext g h L :
  (forall b i r k, b < length L -> k < 3 -> g b i r k = h b i r k) -> move F g L = move F h L.
Proof.
  intros Hg. unfold move. apply imap_ext. intros b y Hb. f_equal. apply imap_ext. intros i r _.
  apply map_ext_in. intros k Hk. apply in_seq in Hk. apply Hg; [|lia]. apply nth_error_Some. congruence.
Qed.

Lemma Rep_RepN a s P : qp a = Some P -> Rep a s -> RepN P a s.
Proof. unfold Rep, PointcloudsProofs.Rep. now intros ->. Qed.
Lemma RepN_Rep a s P : RepN P a s -> Rep a s.
Proof.
  intros H. unfold Rep, PointcloudsProofs.Rep. now rewrite (valid_qp _ _ _ (rn_valid _ _ _ _ H)).
Qed.

Lemma rotate_spec_qp P a sh el pre : qp a = Some P ->
  qp (rotate_spec F sh el pre a) = Some (move F (fun b _ r => rot_fun F (mat_of F sh el b) pre r) P).
Proof. intros E. unfold rotate_spec, move_attr. cbn. now rewrite E. Qed.

Lemma transform_ok P a s sh el pre :
  RepN P a s -> is_mat 4 sh (length P) ->
  exists s', transform_ F (OT F sh el) pre s = (Ok tt, s') /\ Rep (transform_spec F sh el pre a) s'.
Proof.
  intros H Hm. pose proof (rn_valid _ _ _ _ H) as Hv. pose proof (valid_qp _ _ _ Hv) as HqP.
  destruct (is_mat_ok _ _ _ Hm) as [M1 M2].
  unfold transform_. rewrite M1. cbn [negb]. unfold mbind at 1, get.
  rewrite (rn_bat _ _ _ _ H), M2.
  destruct (has_ok F P a s Points H) as (fl & Eh & Hr). rewrite (RepN_hasP _ _ _ _ H) in Eh.
  unfold mbind at 1. rewrite Eh. cbn [negb].
  destruct (get_padded_ok F P a _ Points Hr) as (s1 & E1 & Hr1 & _).
  unfold mbind at 1. rewrite E1. cbv zeta.
  set (rsh := if length sh =? 2 then [3; 3] else [hd 0 sh; 3; 3]).
  assert (Er : (if length sh =? 2 then OT F [3; 3] el else OT F [hd 0 sh; 3; 3] el) = OT F rsh el).
  { unfold rsh. now destruct (length sh =? 2). }
  rewrite Er.
  assert (Hrm : is_mat 3 rsh (length P)).
  { unfold rsh. destruct Hm as [->| ->]; cbn; [now left|now right]. }
  assert (Emat : forall b i j, mat_of F rsh el b i j = mat_of F sh el b i j).
  { intros. unfold rsh. destruct Hm as [->| ->]; reflexivity. }
  destruct (rotate_ok P a s1 rsh el pre Hr1 Hrm) as (s2 & E2 & Hr2).
  unfold mbind. rewrite E2.
  pose proof (rotate_spec_qp P a rsh el pre HqP) as HqR.
  apply (Rep_RepN _ _ _ HqR) in Hr2.
  set (tsh := if length sh =? 2 then [1; 1; 3] else [hd 0 sh; 1; 3]).
  set (tel := if length sh =? 2 then (fun ix => el [nth 2 ix 0; 3])
              else (fun ix => el [nth 0 ix 0; nth 2 ix 0; 3])).
  assert (Et : (if length sh =? 2 then OT F [1; 1; 3] (fun ix => el [nth 2 ix 0; 3])
                else OT F [hd 0 sh; 1; 3] (fun ix => el [nth 0 ix 0; nth 2 ix 0; 3])) = OT F tsh tel).
  { unfold tsh, tel. now destruct (length sh =? 2). }
  rewrite Et.
  edestruct (offset_ok _ _ s2 tsh tel Hr2) as (s3 & E3 & Hr3).
  { rewrite move_length, move_counts. unfold tsh, fits_shape. destruct Hm as [->| ->]; cbn;
      (split; [lia|]); repeat (apply Forall_cons; [cbn; lia|]); apply Forall_nil. }
  rewrite E3. exists s3. split; [reflexivity|].
  assert (Eq : offset_spec F tsh tel (rotate_spec F rsh el pre a) = transform_spec F sh el pre a).
  { unfold offset_spec, rotate_spec, transform_spec, move_attr. cbn. rewrite HqP. cbn.
    f_equal.
    - f_equal. rewrite move_move by (intros; cbn; f_equal; auto). apply move_ext. intros b i r k Hb Hk.
      assert (Eb : bcast_el F tsh tel b i k = mat_of F sh el b k 3).
      { unfold tsh, tel. destruct Hm as [->| ->]; cbn; [reflexivity|].
        destruct (Nat.eqb_spec (length P) 1); [|reflexivity]. replace b with 0 by lia. reflexivity. }
      rewrite Eb. f_equal. unfold rot_fun. now rewrite !Emat.
    - destruct (qn a) as [L|]; [|reflexivity]. cbn. f_equal. apply move_ext. intros b i r k _ _.
      unfold rot_fun. now rewrite !Emat. }
  now rewrite <- Eq.
Qed.

Lemma pinhole_ok P a s sh el :
  RepN P a s -> is_mat 4 sh (length P) ->
  exists s', pinhole_projection_ F (OT F sh el) s = (Ok tt, s') /\ Rep (pinhole_spec F sh el a) s'.
Proof.
  intros H Hm. pose proof (rn_valid _ _ _ _ H) as Hv. pose proof (valid_qp _ _ _ Hv) as HqP.
  destruct (is_mat_ok _ _ _ Hm) as [M1 M2].
  unfold pinhole_projection_. rewrite M1. cbn [negb].
  destruct (has_ok F P a s Points H) as (fl & Eh & Hr). rewrite (RepN_hasP _ _ _ _ H) in Eh.
  unfold mbind at 1. rewrite Eh. cbn [negb].
  destruct (get_padded_ok F P a _ Points Hr) as (s1 & E1 & Hr1 & Hp1 & _).
  unfold mbind at 1. rewrite E1. rewrite (padded_some F P a Points P Hv HqP).
  rewrite pad_to_b. rewrite M2.
  destruct (nonpad_mask_ok F P a s1 Hr1) as (s2 & E2 & Hr2 & Hl2 & Hp2).
  unfold mbind at 1. rewrite E2.
  assert (Emv : mask_view F a = Some (mask_list P)) by (unfold mask_view; rewrite HqP; reflexivity).
  rewrite Emv. cbn [width].
  set (N := biggest (counts_of F P)).
  set (h := fun (b i : nat) (r : nat -> F) => pinhole_fun F (mat_of F sh el b) r).
  unfold mbind at 1, lift.
  (* the projected tensor agrees with the moved points on real points; the rest is masked *)
  assert (EB : bcast_op F (fun p _ m => fmul p m)
      (tab3 F (length P) (t3n (pad_to F N 3 P)) 3 (fun b i k =>
         if k =? 2 then f1 else project1 F (mat_el F sh el b) (get3 F (pad_to F N 3 P) b i) k))
      [] (fun _ => f1) (mask_list P) (mask_n (mask_list P)) = Ok (pad_to F N 3 (move F h P))).
  { unfold bcast_op. cbn [pad_shape3 app length repeat Nat.sub].
    rewrite tab3_b, mask_list_length, mask_list_n by (apply (valid_ne _ _ _ Hv)). fold N.
    cbn [t3n t3c tab3 pad_to].
    change (pad_shape3 []) with (Some (1, 1, 1)). cbv beta iota.
    rewrite !bext_ok by (now left). rewrite bext_ok3 by (now left). f_equal.
    apply tab3_move.
    { intros q Hq. pose proof (counts_le F P P eq_refl) as Hle. rewrite Forall_forall in Hle. now apply Hle. }
    intros b i j q Hq Hi Hj.
    assert (Hb : b < length P) by (apply nth_error_Some; congruence).
    rewrite !bidx_lt by (assumption || lia). rewrite get3_tab3 by assumption.
    rewrite (mask_f_list P b i q Hq Hi).
    assert (Hqn : length (t2r q) <= N).
    { pose proof (counts_le F P P eq_refl) as Hle. rewrite Forall_forall in Hle. apply Hle.
      eapply nth_error_In; eauto. }
    destruct (Nat.ltb_spec i (length (t2r q))) as [Hl|Hl]; [|ring].
    unfold h, pinhole_fun. destruct (j =? 2); [ring|].
    assert (Erow : forall k, row4 F (mat_el F sh el b) k (get3 F (pad_to F N 3 P) b i) =
                   hom_row F (mat_of F sh el b) k (fun k0 => nth k0 (nth i (t2r q) []) f0)).
    { intros k. unfold row4, hom_row. rewrite !(mat_el_of 4 sh el _ _ _ _ Hm).
      rewrite !(get3_pad F N 3 P b i _ q Hq Hi Hqn).
      destruct (Nat.ltb_spec i (length (t2r q))); [ring|lia]. }
    change (mkT3 N 3 (map (fun y : T2 => t2r y ++ repeat (repeat f0 3) (N - length (t2r y))) P))
      with (pad_to F N 3 P).
    unfold project1. rewrite !Erow. ring. }
  rewrite EB. unfold mbind, modify. eexists. split; [reflexivity|].
  unfold Rep, PointcloudsProofs.Rep, pinhole_spec, move_attr. cbn [qget]. rewrite HqP. cbn [option_map qset qp].
  assert (Hpads : forall y, qget y (pad F s2) = padded_view F a y).
  { intros y. rewrite Hp2. apply Hp1. }
  pose proof (RepN_update P (move F h P) a s2 Points (move F h P) Hr2 Hpads
               (valid_move_points _ _ _ Hv) (move_counts _ _)) as Hu.
  assert (Epv : padded_view F (qset Points (Some (move F h P)) a) Points = Some (pad_to F N 3 (move F h P))).
  { unfold padded_view. cbn. now rewrite move_counts. }
  rewrite Epv in Hu. apply Hu. left. cbn. congruence.
Qed.

(* ---------- the empty object ---------- *)
Lemma masked_update0 s f sh el : Rep0 s ->
  exists s', masked_update F f (OT F sh el) s = (Ok tt, s') /\ Rep0 s'.
Proof.
  intros H. unfold masked_update. destruct (has0 F s Points H) as (fl & E & Hr).
  unfold mbind. rewrite E. cbn. eexists. split; [reflexivity|exact Hr].
Qed.
Lemma rotate0 s sh el pre : Rep0 s -> is_mat 3 sh 0 ->
  exists s', rotate_ F (OT F sh el) pre s = (Ok tt, s') /\ Rep0 s'.
Proof.
  intros H Hm. destruct (is_mat_ok _ _ _ Hm) as [M1 M2]. unfold rotate_. rewrite M1. cbn [negb].
  unfold mbind, get. rewrite (r0_bat _ _ H), M2. destruct (has0 F s Points H) as (fl & E & Hr).
  rewrite E. cbn. eexists. split; [reflexivity|exact Hr].
Qed.
Lemma transform0 s sh el pre : Rep0 s -> is_mat 4 sh 0 ->
  exists s', transform_ F (OT F sh el) pre s = (Ok tt, s') /\ Rep0 s'.
Proof.
  intros H Hm. destruct (is_mat_ok _ _ _ Hm) as [M1 M2]. unfold transform_. rewrite M1. cbn [negb].
  unfold mbind, get. rewrite (r0_bat _ _ H), M2. destruct (has0 F s Points H) as (fl & E & Hr).
  rewrite E. cbn. eexists. split; [reflexivity|exact Hr].
Qed.
Lemma pinhole0 s sh el : Rep0 s -> is_mat 4 sh 0 ->
  exists s', pinhole_projection_ F (OT F sh el) s = (Ok tt, s') /\ Rep0 s'.
Proof.
  intros H Hm. destruct (is_mat_ok _ _ _ Hm) as [M1 M2]. unfold pinhole_projection_. rewrite M1. cbn [negb].
  destruct (has0 F s Points H) as (fl & E & Hr). unfold mbind. rewrite E. cbn. eexists. split; [reflexivity|exact Hr].
Qed.

End Ops.
