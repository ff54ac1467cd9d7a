(* Proofs for C78, part 2: runs. *)
From Coq Require Import Reals List Arith Bool ZArith Lia Lra Sorting.Sorted.
From Verif Require Import Res Fld StructUtilsModel PointcloudsModel PointcloudsSpec PointcloudsIndexSpec PointcloudsHist MatSpec GeomSpec TensorModel TensorProofs
  RgbdModel RgbdSpec RgbdPropProofs FusionModel FusionSpec FusionMap Se3Model SolveModel IcpModel IcpSpec OdomSpec SlamModel SlamSpec SlamProofs SlamPropProofs StillProofs BatchSpec BatchProofs.
Import ListNotations.
Local Open Scope nat_scope.

Lemma batch_lst u x k : Batch RF u -> qget x u <> None -> k < len_view RF u ->
  exists y, nth_error (lst x u) k = Some y /\ nth k (lst x u) nocloud = y /\ t2c y = width RF u x /\ Forall (fun r => length r = width RF u x) (t2r y) /\ length (t2r y) = npoints u k.
Proof.
  unfold Batch, len_view, npoints, lst. intros HB Hx Hk. destruct (qp u) as [P|] eqn:EP; [|lia]. destruct HB as (_ & _ & HB).
  destruct (qget x u) as [L|] eqn:EL; [|congruence]. destruct (HB x L EL) as [HC HF]. assert (HL : length L = length P) by (apply (f_equal (@length nat)) in HC; unfold counts_of in HC; now rewrite !map_length in HC).
  destruct (nth_error L k) as [y|] eqn:Ey; [|apply nth_error_None in Ey; lia]. exists y. split; [exact Ey|]. split; [apply nth_error_nth; exact Ey|].
  rewrite Forall_forall in HF. destruct (HF y (nth_error_In _ _ Ey)) as [H1 H2]. split; [exact H1|]. split; [exact H2|].
  apply (f_equal (fun l => nth k l (length (t2r (mkT2 0 [] : t2 RF))))) in HC. unfold counts_of in HC. rewrite !(map_nth (fun y : t2 RF => length (t2r y))) in HC. rewrite (nth_error_nth _ _ _ Ey) in HC. exact HC.
Qed.
Lemma same_from_rows col a b a' b' : Batch RF a -> Batch RF a' -> (forall x, qget x a = None <-> qget x a' = None) -> b < len_view RF a -> b' < len_view RF a' ->
  (forall x, qget x a <> None -> width RF a x = width RF a' x) -> (forall x, Cmp col x -> qget x a <> None -> rows_of a x b = rows_of a' x b') -> SameMap col a b a' b'.
Proof.
  intros B B' N Hb Hb' W R. split; [exact N|]. split; [|tauto]. intros x CX.
  destruct (qget x a) as [L|] eqn:Ea.
  - assert (H : qget x a <> None) by congruence. assert (H' : qget x a' <> None) by (intros K; apply N in K; congruence).
    destruct (batch_lst _ _ _ B H Hb) as (y & _ & E & C & _). destruct (batch_lst _ _ _ B' H' Hb') as (y' & _ & E' & C' & _).
    specialize (R x CX H). rewrite !rows_lst, E, E' in R. rewrite E, E'. destruct y as [cy ry], y' as [cy' ry']. cbn in *. rewrite <- W in C' by exact H. congruence.
  - pose proof Ea as Ea'. apply N in Ea'. unfold lst. rewrite Ea, Ea'. destruct b, b'; reflexivity.
Qed.
Lemma rows_from_attr a b a' b' x : Batch RF a -> Batch RF a' -> qget x a <> None -> qget x a' <> None -> b < len_view RF a -> b' < len_view RF a' ->
  width RF a x = width RF a' x -> npoints a b = npoints a' b' -> (forall n c, n < npoints a b -> c < width RF a x -> attr_at a x b n c = attr_at a' x b' n c) -> rows_of a x b = rows_of a' x b'.
Proof.
  intros B B' H H' Hb Hb' W NP R. destruct (batch_lst _ _ _ B H Hb) as (y & _ & E & _ & F1 & F2). destruct (batch_lst _ _ _ B' H' Hb') as (y' & _ & E' & _ & F1' & F2').
  rewrite !rows_lst, E, E'. apply (nth_ext _ _ [] []); [congruence|]. intros n Hn. rewrite Forall_forall in F1, F1'.
  assert (Hn' : n < length (t2r y')) by congruence. pose proof (F1 _ (nth_In _ [] Hn)) as L1. pose proof (F1' _ (nth_In _ [] Hn')) as L2.
  apply (nth_ext _ _ 0%R 0%R); [congruence|]. intros c Hc. specialize (R n c ltac:(congruence) ltac:(congruence)). rewrite !attr_lst, E, E' in R. exact R.
Qed.

Lemma alpha_pos sg v : (0 < alpha_spec sg v)%R.
Proof. unfold alpha_spec. apply Rlt_le_trans with (/ 10000000)%R; [lra|apply Rmax_r]. Qed.
Section Step.
  Variables (col : bool) (a : batch RF) (b : nat) (a' : batch RF) (b' : nat) (f f' : frames) (u u' : batch RF) (sg : R) (rows rows' : list row).
  Hypothesis SM : SameMap col a b a' b'.
  Hypothesis SF : SameFrame col f b f' b'.
  Hypothesis HH : 2 <= fH f.
  Hypothesis HW : 2 <= fW f.
  Hypothesis ER : at_b b rows = at_b b' rows'.
  Hypothesis FU : Fused sg f rows a u.
  Hypothesis FU' : Fused sg f' rows' a' u'.
  Hypothesis B : Batch RF u.
  Hypothesis B' : Batch RF u'.
  Hypothesis M : full_map u.
  Hypothesis M' : full_map u'.
  Hypothesis PO : forall n, n < npoints a b -> (0 < conf a b n)%R.
  Hypothesis IN : forall n h w, matched rows b n h w -> n < npoints a b /\ h < fH f /\ w < fW f.
  Lemma sm_fresh : fresh_pixels rows f b = fresh_pixels rows' f' b'.
  Proof. rewrite !fresh_at, ER, (sf_chosen col f b f' b' SF). reflexivity. Qed.
  Lemma sm_unp : npoints u b = npoints u' b'.
  Proof. pose proof SF as (Hb & Hb' & _). destruct FU as [_ H], FU' as [_ H']. destruct (H b Hb) as [E _], (H' b' Hb') as [E' _]. rewrite E, E', sm_fresh, (sm_np col a b a' b' SM). reflexivity. Qed.
  Lemma fresh_in k h w : nth_error (fresh_pixels rows f b) k = Some (h, w) -> h < fH f /\ w < fW f.
  Proof. intros E. apply nth_error_In in E. unfold fresh_pixels in E. apply filter_In in E. destruct E as [E _]. apply (chosen_in f b) in E. exact E. Qed.
  Lemma sm_uattr x n c : Cmp col x -> n < npoints u b -> c < wd x -> attr_at u x b n c = attr_at u' x b' n c.
  Proof.
    intros CX Hn Hc. pose proof SF as (Hb & Hb' & _). destruct FU as [_ H], FU' as [_ H']. destruct (H b Hb) as (N & U & _ & MM & A), (H' b' Hb') as (N' & U' & _ & MM' & A').
    rewrite N in Hn. destruct (le_lt_dec (npoints a b) n) as [G|G].
    - destruct (nth_error (fresh_pixels rows f b) (n - npoints a b)) as [[h w]|] eqn:E; [|apply nth_error_None in E; lia].
      destruct (A _ _ _ E) as [C1 C2]. pose proof E as E'. rewrite sm_fresh in E'. destruct (A' _ _ _ E') as [C1' C2']. rewrite <- (sm_np col a b a' b' SM) in C1', C2'.
      replace (npoints a b + (n - npoints a b)) with n in * by lia. destruct (fresh_in _ _ _ E) as [Hh Hw].
      destruct x; [| | |destruct c; [|cbn in Hc; lia]; unfold conf in C1, C1'; rewrite C1, C1'; now apply (sf_alpha col)];
        (rewrite C2, C2' by (discriminate || exact Hc); eapply sf_attr; [exact SF|exact CX|exact HH|exact HW|exact Hh|exact Hw|exact Hc]).
    - destruct (existsb (fun t => fst t =? n) (at_b b rows)) eqn:X.
      + apply existsb_exists in X. destruct X as ((n0 & h & w) & X1 & X2). apply Nat.eqb_eq in X2. cbn in X2. subst n0. pose proof X1 as X1'. rewrite ER in X1'. apply at_b_in in X1, X1'.
        destruct (MM _ _ _ X1) as [C1 C2], (MM' _ _ _ X1') as [C1' C2']. destruct (IN _ _ _ X1) as (_ & Hh & Hw).
        assert (EC : conf a b n = conf a' b' n) by (unfold conf; now rewrite (sm_attr col a b a' b' SM) by cmp). rewrite <- EC in C1', C2'. rewrite <- (sf_alpha col f b f' b' SF) in C1', C2' by assumption.
        destruct x; [| | |destruct c; [|cbn in Hc; lia]; unfold conf in C1, C1'; now rewrite C1, C1'];
          (rewrite C2, C2' by (discriminate || exact Hc); rewrite (sm_attr col a b a' b' SM) by exact CX; f_equal; eapply sf_attr; [exact SF|exact CX|exact HH|exact HW|exact Hh|exact Hw|exact Hc]).
      + assert (UN : forall h w, ~ In (n, (h, w)) (at_b b rows)).
        { intros h w K. rewrite <- Bool.not_true_iff_false in X. apply X. apply existsb_exists. exists (n, (h, w)). split; [exact K|apply Nat.eqb_refl]. }
        rewrite (U n G); [|intros h w K; apply (UN h w), at_b_in, K|left; specialize (PO n G); lra|exact Hc].
        rewrite (U' n); [now rewrite (sm_attr col a b a' b' SM) by exact CX|rewrite <- (sm_np col a b a' b' SM); exact G|intros h w K; apply (UN h w); rewrite ER; apply at_b_in, K| |exact Hc].
        left. unfold conf. rewrite <- (sm_attr col a b a' b' SM) by cmp. specialize (PO n G). unfold conf in PO. lra.
  Qed.
  Lemma fused_same : SameMap col u b u' b'.
  Proof.
    pose proof SF as (Hb & Hb' & _). destruct M as (F1 & F2 & _), M' as (F1' & F2' & _).
    assert (LB : b < len_view RF u) by (destruct FU as [-> _]; exact Hb). assert (LB' : b' < len_view RF u') by (destruct FU' as [-> _]; exact Hb').
    assert (W : forall x, width RF u x = wd x) by (intros []; try reflexivity; exact F2). assert (W' : forall x, width RF u' x = wd x) by (intros []; try reflexivity; exact F2').
    apply same_from_rows; try assumption.
    - intros x. split; intros K; [destruct (F1 x K)|destruct (F1' x K)].
    - intros x _. now rewrite W, W'.
    - intros x CX _. apply rows_from_attr; auto; [now rewrite W, W'|apply sm_unp|]. intros n c Hn Hc. rewrite W in Hc. now apply sm_uattr.
  Qed.
End Step.

(* same_sequence, the colours only when col = true *)
Definition SameSeq (col : bool) (fr : frames) (b : nat) (fr' : frames) (b' : nat) : Prop :=
  b < fB fr /\ b' < fB fr' /\ fL fr = fL fr' /\ fH fr = fH fr' /\ fW fr = fW fr' /\ meq 4 4 (fK fr b) (fK fr' b') /\
  (forall l h w, l < fL fr -> h < fH fr -> w < fW fr ->
     fdep fr b l h w = fdep fr' b' l h w /\ (col = true -> veq 3 (frgb fr b l h w) (frgb fr' b' l h w)) /\ veq 3 (pixel fr b l h w) (pixel fr' b' l h w)) /\
  opt_rel (fun T T' => forall l, l < fL fr -> meq 4 4 (T b l) (T' b' l)) (fpose fr) (fpose fr').
Section Run.
  Variables (c : slam) (col : bool) (fr fr' : frames) (b b' : nat).
  Hypothesis SS : SameSeq col fr b fr' b'.
  Hypothesis HH : 2 <= fH fr.
  Hypothesis HW : 2 <= fW fr.
  Lemma Hb : b < fB fr. Proof. apply SS. Qed.
  Lemma Hb' : b' < fB fr'. Proof. apply SS. Qed.
  Lemma pixel_posed T f k l : pixel (posed T f) k l = pixel f k l.
  Proof. reflexivity. Qed.
  (* the frames of the two runs, given equal poses *)
  Lemma same_posed l (T T' : nat -> mat) : l < fL fr -> meq 4 4 (T b) (T' b') -> SameFrame col (posed T (moment l fr)) b (posed T' (moment l fr')) b'.
  Proof.
    intros Hl HT. destruct SS as (B1 & B2 & _ & EH & EW & EK & P & _). split; [cbn; rewrite seq_length; exact B1|]. split; [cbn; rewrite seq_length; exact B2|]. split; [exact EH|]. split; [exact EW|].
    split; [cbn [fK posed with_fpose moment pick]; rewrite !seq_nth by assumption; exact EK|]. split; [|exact HT].
    intros h w Hh Hw. rewrite !pixel_posed. unfold moment. rewrite !RgbdOps.pick_pixel. cbn [fdep frgb posed with_fpose pick nth]. rewrite !seq_nth by assumption. apply P; assumption.
  Qed.
  Lemma same_input l : l < fL fr -> SameFrame col (input_frame fr l) b (input_frame fr' l) b'.
  Proof.
    intros Hl. unfold input_frame. pose proof SS as (B1 & B2 & _ & EH & EW & EK & P & HP).
    assert (G : fpose fr <> None \/ l <> 0 -> SameFrame col (moment l fr) b (moment l fr') b').
    { intros _. split; [cbn; rewrite seq_length; exact B1|]. split; [cbn; rewrite seq_length; exact B2|]. split; [exact EH|]. split; [exact EW|].
      split; [cbn [fK moment pick]; rewrite !seq_nth by assumption; exact EK|]. split.
      - intros h w Hh Hw. unfold moment. rewrite !RgbdOps.pick_pixel. cbn [fdep frgb pick nth]. rewrite !seq_nth by assumption. apply P; assumption.
      - cbn [fpose moment pick]. destruct (fpose fr) as [T|], (fpose fr') as [T'|]; cbn in *; try exact HP. rewrite !seq_nth by assumption. apply HP. exact Hl. }
    destruct (fpose fr) as [T|] eqn:E, (fpose fr') as [T'|] eqn:E'; try (destruct HP).
    - apply G. left. discriminate.
    - destruct (Nat.eqb_spec l 0) as [->|N]; [|apply G; now right]. apply same_posed; [exact Hl|]. intros i j _ _. reflexivity.
  Qed.
  Lemma input_wide l : fH (input_frame fr l) = fH fr /\ fW (input_frame fr l) = fW fr.
  Proof. unfold input_frame. destruct (fpose fr); [split; reflexivity|]. destruct (l =? 0); split; reflexivity. Qed.

  (* the registrations of the two runs *)
  Section Reg.
    Variables (a a' : batch RF) (T T' : nat -> nat -> mat) (l k : nat).
    Hypothesis Hl : l < fL fr.
    Hypothesis Ek : l = S k.
    Hypothesis SM : SameMap col a b a' b'.
    Hypothesis ST : meq 4 4 (T b k) (T' b' k).
    Hypothesis Ha : qget Points a <> None /\ qget Normals a <> None.
    Hypothesis La : b < len_view RF a.
    Lemma same_registration o ds rows rows' :
      active_spec a (posed (fun b => T b k) (moment k fr)) (fun b _ => T b k) rows ->
      active_spec a' (posed (fun b => T' b k) (moment k fr')) (fun b _ => T' b k) rows' ->
      registration c o ds rows a (posed (fun b => T b k) (input_frame fr l)) b = registration c o ds rows' a' (posed (fun b => T' b k) (input_frame fr' l)) b'.
    Proof.
      intros A A'. unfold registration, one_run_of.
      pose proof (same_posed k (fun b => T b k) (fun b => T' b k) ltac:(lia) ST) as SP.
      assert (SI : SameFrame col (posed (fun b => T b k) (input_frame fr l)) b (posed (fun b => T' b k) (input_frame fr' l)) b').
      { pose proof (same_input l Hl) as (I1 & I2 & I3 & I4 & I5 & I6 & _). repeat (split; [assumption|]). exact ST. }
      pose proof (st_thin col a b a' b' _ _ _ _ SM SP eq_refl eq_refl ds rows rows' Points (cmp_p col) (proj1 Ha) La A A') as E1.
      pose proof (st_thin col a b a' b' _ _ _ _ SM SP eq_refl eq_refl ds rows rows' Normals (cmp_n col) (proj2 Ha) La A A') as E2.
      destruct (input_wide l) as [W1 W2].
      assert (E3 := sf_grid _ _ _ _ _ SI ds Points (cmp_p col) ltac:(cbn; rewrite W1; exact HH) ltac:(cbn; rewrite W2; exact HW)).
      exact (f_equal3 (fun s t n => run_icp (s_nn c) o (TTen (cloud_ten s)) (TTen (cloud_ten t)) (TTen (cloud_ten n)) (TTen eye4)) E3 E1 E2).
    Qed.
  End Reg.

  Definition Agree (maps maps' : nat -> batch RF) (T T' : nat -> nat -> mat) (n : nat) : Prop :=
    SameMap col (maps n) b (maps' n) b' /\ (forall k, k < n -> meq 4 4 (T b k) (T' b' k)) /\
    (n <> 0 -> b < len_view RF (maps n) /\ qget Points (maps n) <> None /\ qget Normals (maps n) <> None) /\
    (s_map c <> Aggregate -> forall m, m < npoints (maps n) b -> (0 < conf (maps n) b m)%R).

  Lemma pose_agrees maps maps' T T' n : Agree maps maps' T T' n -> n < fL fr ->
    Localised c (maps n) (previous c fr T n) (input_frame fr n) (fun b => T b n) -> Localised c (maps' n) (previous c fr' T' n) (input_frame fr' n) (fun b => T' b n) ->
    meq 4 4 (T b n) (T' b' n).
  Proof.
    intros (A1 & A2 & A3 & _) Hn. pose proof (same_input n Hn) as SI. pose proof SI as (I1 & I2 & _ & _ & _ & _ & IT).
    assert (G : (exists T0, fpose (input_frame fr n) = Some T0 /\ forall b, b < fB (input_frame fr n) -> T b n = T0 b 0) ->
                (exists T0, fpose (input_frame fr' n) = Some T0 /\ forall b, b < fB (input_frame fr' n) -> T' b n = T0 b 0) -> meq 4 4 (T b n) (T' b' n)).
    { intros (T0 & E & K) (T0' & E' & K'). rewrite E, E' in IT. rewrite K, K' by assumption. exact IT. }
    unfold Localised, previous. destruct (s_odom c) as [|o]; [exact G|]. destruct n as [|k]; [exact G|]. clear G.
    intros (Tp & ds & rows & E1 & E2 & E3 & E4) (Tp' & ds' & rows' & E1' & E2' & E3' & E4'). cbn [fpose posed with_fpose] in E1, E1'. injection E1 as <-. injection E1' as <-.
    rewrite E2 in E2'. injection E2' as <-. destruct (E4 b I1) as (X & idx & R & M). destruct (E4' b' I2) as (X' & idx' & R' & M').
    destruct (A3 ltac:(lia)) as (L1 & L2 & L3).
    rewrite (same_registration (maps (S k)) (maps' (S k)) T T' (S k) k Hn eq_refl A1 (A2 k ltac:(lia)) (conj L2 L3) L1 o ds rows rows' E3 E3') in R.
    rewrite R in R'. injection R' as <- <-. intros i j Hi Hj. rewrite M, M' by assumption. unfold compose_pose. pose proof (A2 k ltac:(lia)) as P.
    destruct (i <? 3); [|reflexivity]. destruct (j <? 3) eqn:E; [apply Nat.ltb_lt in E|].
    - apply rsum_ext. intros m Hm. rewrite P by lia. reflexivity.
    - f_equal. apply rsum_ext. intros m Hm. rewrite P by lia. reflexivity.
  Qed.
  Lemma map_agrees maps maps' T T' n : Agree maps maps' T T' n -> n < fL fr -> (n = 0 -> maps 0 = no_batch RF) -> meq 4 4 (T b n) (T' b' n) ->
    Mapped c (maps n) (posed (fun b => T b n) (moment n fr)) (maps (S n)) -> Mapped c (maps' n) (posed (fun b => T' b n) (moment n fr')) (maps' (S n)) ->
    Agree maps maps' T T' (S n).
  Proof.
    intros (A1 & A2 & A3 & A4) Hn H0 ET [B1 K] [B1' K']. pose proof (same_posed n (fun b => T b n) (fun b => T' b n) Hn ET) as SP. pose proof SP as (I1 & I2 & _).
    unfold Agree.
    assert (AT : forall k, k < S n -> meq 4 4 (T b k) (T' b' k)).
    { intros k Hk. destruct (Nat.eq_dec k n) as [->|]; [exact ET|apply A2; lia]. }
    destruct (s_map c) as [|d t sg] eqn:Em.
    - destruct K as [(P1 & P2 & P3) P4], K' as [(P1' & P2' & P3') P4']. split; [|split; [exact AT|split; [|congruence]]].
      + apply same_from_rows; try assumption.
        * intros x. destruct (match x with Features => true | _ => false end) eqn:Ex; [destruct x; try discriminate; split; intros _; assumption|].
          assert (x <> Features) by (destruct x; discriminate). split; intros Q; [destruct (P1 x H Q)|destruct (P1' x H Q)].
        * rewrite P3. exact I1.
        * rewrite P3'. exact I2.
        * intros x Hx. destruct x; try reflexivity. destruct (Hx P2).
        * intros x CX Hx. assert (x <> Features) by (intros ->; exact (Hx P2)). rewrite P4, P4' by assumption. rewrite (sm_rows _ _ _ _ _ A1) by exact CX. f_equal. eapply sf_rows; eassumption.
      + intros _. rewrite P3. split; [exact I1|]. split; [apply P1|apply P1]; discriminate.
    - destruct K as [F (rows & FU & CO)], K' as [F' (rows' & FU' & CO')].
      assert (E : at_b b rows = at_b b' rows' /\ (forall m h w, matched rows b m h w -> m < npoints (maps n) b /\ h < fH fr /\ w < fW fr)).
      { pose proof A1 as (N & _). specialize (N Points). cbn [qget] in N. destruct (qp (maps n)) as [P|] eqn:EP.
        - destruct (qp (maps' n)) as [P'|] eqn:EP'; [|destruct N as [_ N]; discriminate (N eq_refl)].
          destruct CO as (U & EU & CO), CO' as (U' & EU' & CO'). cbn in EU, EU'. injection EU as <-. injection EU' as <-. split.
          + eapply (st_corr _ _ _ _ _ _ _ _ _ _ _ _ _ A1 SP eq_refl eq_refl); [exact HH|exact HW|exact CO|exact CO'].
          + intros m h w MM. destruct CO as (_ & _ & C & _). destruct (C _ _ _ _ MM) as ((_ & R) & Sn & _). split; [exact R|]. exact (seen_inside _ _ _ _ _ _ _ Sn).
        - destruct (qp (maps' n)) as [P'|] eqn:EP'; [destruct N as [N _]; discriminate (N eq_refl)|]. subst rows rows'. split; [reflexivity|]. intros m h w []. }
      destruct E as [E EI]. assert (A4' := A4 ltac:(discriminate)).
      assert (SU : SameMap col (maps (S n)) b (maps' (S n)) b') by (eapply (fused_same col (maps n) b (maps' n) b'); eassumption).
      split; [exact SU|]. split; [exact AT|]. split.
      + intros _. destruct FU as [-> _]. split; [exact I1|]. split; [apply (proj1 F Points)|apply (proj1 F Normals)].
      + intros _ m Hm. destruct FU as [FL FU]. destruct (FU b I1) as (N & U & _ & MM & A). rewrite N in Hm.
        destruct (le_lt_dec (npoints (maps n) b) m) as [G|G].
        * destruct (nth_error (fresh_pixels rows (posed (fun b => T b n) (moment n fr)) b) (m - npoints (maps n) b)) as [[h w]|] eqn:Ef; [|apply nth_error_None in Ef; lia].
          destruct (A _ _ _ Ef) as [C _]. replace (npoints (maps n) b + (m - npoints (maps n) b)) with m in C by lia. rewrite C. apply alpha_pos.
        * specialize (A4' m G). destruct (existsb (fun t => fst t =? m) (at_b b rows)) eqn:X.
          -- apply existsb_exists in X. destruct X as ((n0 & h & w) & X1 & X2). apply Nat.eqb_eq in X2. cbn in X2. subst n0. apply at_b_in in X1.
             destruct (MM m h w X1) as [C _]. rewrite C. match goal with |- context [frame_alpha ?s ?f ?k ?h ?w] => pose proof (alpha_pos s (vertex f k 0 h w)) as AP; unfold frame_alpha end. lra.
          -- unfold conf. rewrite (U m G) with (c := 0); [exact A4'| |left; lra|cbn; lia].
             intros h w Q. apply at_b_in in Q. rewrite <- Bool.not_true_iff_false in X. apply X. apply existsb_exists. exists (m, (h, w)). split; [exact Q|apply Nat.eqb_refl].
  Qed.
  Lemma runs_agree maps maps' T T' n : Trajectory c fr n maps T -> Trajectory c fr' n maps' T' -> n <= fL fr -> Agree maps maps' T T' n.
  Proof.
    intros [H0 H] [H0' H'] Hn. induction n as [|n IH].
    - unfold Agree. rewrite H0, H0'. split; [|split; [intros; lia|split; [congruence|intros _ m Hm; cbn in Hm; lia]]].
      split; [intros []; cbn; tauto|]. split; [intros [] _; cbn; destruct b, b'; reflexivity|]. cbn. lia.
    - specialize (IH ltac:(intros l Hl; apply H; lia) ltac:(intros l Hl; apply H'; lia) ltac:(lia)).
      destruct (H n ltac:(lia)) as [L M], (H' n ltac:(lia)) as [L' M']. eapply map_agrees; try eassumption; [intros _; exact H0|]. eapply pose_agrees; eassumption.
  Qed.
  (* if one run gets past frame n, so does the other *)
  Lemma no_failure maps maps' T T' n e : Trajectory c fr n maps T -> Trajectory c fr' n maps' T' -> n < fL fr ->
    Localised c (maps n) (previous c fr T n) (input_frame fr n) (fun b => T b n) ->
    (forall o pf Tp ds rows, s_odom c = OIcp o -> previous c fr' T' n = Some pf -> fpose pf = Some Tp -> s_ds c = IntV ds -> active_spec (maps' n) pf Tp rows ->
       registration c o ds rows (maps' n) (posed (fun b => Tp b 0) (input_frame fr' n)) b' <> Err e).
  Proof.
    intros H H' Hn HL o pf Tp ds rows Eo Ep ET Ed HA. destruct (runs_agree _ _ _ _ _ H H' ltac:(lia)) as (A1 & A2 & A3 & _).
    unfold previous in *. rewrite Eo in *. destruct n as [|k]; [discriminate|]. injection Ep as <-. cbn in ET. injection ET as <-.
    unfold Localised in HL. rewrite Eo in HL. destruct HL as (Tq & ds1 & rows1 & E1 & E2 & E3 & E4). cbn in E1. injection E1 as <-. rewrite Ed in E2. injection E2 as <-.
    destruct (A3 ltac:(lia)) as (L1 & L2 & L3). pose proof (same_input (S k) Hn) as (I1 & _). destruct (E4 b I1) as (X & idx & R & _).
    rewrite (same_registration (maps (S k)) (maps' (S k)) T T' (S k) k Hn eq_refl A1 (A2 k ltac:(lia)) (conj L2 L3) L1 o ds rows1 rows E3 HA) in R. cbn in R |- *. rewrite R. discriminate.
  Qed.
End Run.
