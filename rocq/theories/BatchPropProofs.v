(* Proofs for C78: the statements. *)
From Coq Require Import Reals List Arith Bool ZArith Lia Lra Sorting.Sorted.
From Verif Require Import Res Fld StructUtilsModel PointcloudsModel PointcloudsSpec PointcloudsIndexSpec PointcloudsHist MatSpec GeomSpec TensorModel TensorProofs
  RgbdModel RgbdSpec RgbdPropProofs FusionModel FusionSpec FusionMap Se3Model SolveModel IcpModel IcpSpec OdomSpec SlamModel SlamSpec SlamProofs SlamPropProofs BatchSpec BatchProofs BatchSlamProofs.
Import ListNotations.
Local Open Scope nat_scope.

Lemma traj_batch c fr n maps T : Trajectory c fr n maps T -> 0 < n -> Batch RF (maps n) /\ len_view RF (maps n) = fB fr.
Proof.
  intros [_ H] Hn. destruct n as [|n]; [lia|]. destruct (H n ltac:(lia)) as [_ [HB HM]]. split; [exact HB|].
  destruct (s_map c); [destruct HM as [(_ & _ & K) _]|destruct HM as [_ (rows & (K & _) & _)]]; rewrite K; apply moment_B.
Qed.
Lemma traj_pre c fr n m maps T : m <= n -> Trajectory c fr n maps T -> Trajectory c fr m maps T.
Proof. intros Hm [H0 H]. split; [exact H0|]. intros l Hl. apply H. lia. Qed.
Lemma same_cloud_intro a b a' b' : Batch RF a -> Batch RF a' -> b < len_view RF a -> b' < len_view RF a' -> SameMap true a b a' b' -> same_cloud a b a' b'.
Proof.
  intros B B' Hb Hb' (N & E & _) x. specialize (E x (or_introl eq_refl)). unfold lst in E.
  destruct (qget x a) as [L|] eqn:Ea, (qget x a') as [L'|] eqn:Ea'.
  - destruct (batch_lst a x b B ltac:(congruence) Hb) as (y & E1 & E2 & _). destruct (batch_lst a' x b' B' ltac:(congruence) Hb') as (y' & E1' & E2' & _).
    unfold lst in *. rewrite Ea in E1, E2. rewrite Ea' in E1', E2'. exists y. split; [exact E1|]. rewrite <- E2, E, E2'. exact E1'.
  - apply N in Ea'. congruence.
  - apply N in Ea. congruence.
  - exact I.
Qed.
Lemma only_same b fr : b < fB fr -> same_sequence fr b (only b fr) 0.
Proof.
  intros Hb. unfold same_sequence. cbn [only fB fL fH fW fK pick length nth]. split; [exact Hb|]. split; [lia|]. rewrite seq_length.
  do 3 (split; [reflexivity|]). split; [intros i j _ _; reflexivity|]. split.
  - intros l h w Hl Hh Hw. unfold only. rewrite RgbdOps.pick_pixel. cbn [fdep frgb pick nth]. rewrite seq_nth by exact Hl. repeat split; reflexivity.
  - cbn [fpose only pick]. destruct (fpose fr) as [T|]; cbn; [|exact I]. intros l Hl. rewrite seq_nth by exact Hl. intros i j _ _. reflexivity.
Qed.
Lemma same_sym fr b fr' b' : same_sequence fr b fr' b' -> same_sequence fr' b' fr b.
Proof.
  intros (A & B & L & C & D & E & P & G). split; [exact B|]. split; [exact A|]. do 3 (split; [now symmetry|]). split; [now apply meq_sym'|]. split.
  - rewrite <- C, <- D, <- L. intros l h w Hl Hh Hw. destruct (P l h w Hl Hh Hw) as (P1 & P2 & P3). split; [now symmetry|]. split; intros i Hi; symmetry; auto.
  - destruct (fpose fr), (fpose fr'); cbn in *; try exact G. rewrite <- L. intros l Hl. apply meq_sym', G. exact Hl.
Qed.
Lemma seq_same fr b fr' b' : same_sequence fr b fr' b' -> SameSeq true fr b fr' b'.
Proof.
  intros (A & B & L & C & D & E & P & G). repeat (split; [assumption|]). split; [|exact G]. intros l h w Hl Hh Hw. destruct (P l h w Hl Hh Hw) as (P1 & P2 & P3). split; [exact P1|]. split; [intros _; exact P2|exact P3].
Qed.
(* the same sequence in two batches *)
Lemma p_batch_same : forall c g q fr g' q' fr' b b' m t m' t',
  RHist q g false fr -> RHist q' g' false fr' -> same_sequence fr b fr' b' ->
  0 < fL fr -> 2 <= fH fr -> 2 <= fW fr -> Ratio c -> (s_odom c = OGt -> 2 <= fL fr -> fpose fr <> None) ->
  Sizes c (fB fr) (fH fr) (fW fr) (fL fr * (fH fr * fW fr)) -> Sizes c (fB fr') (fH fr') (fW fr') (fL fr' * (fH fr' * fW fr')) ->
  forward c true g = (Ok (m, t), g) -> forward c true g' = (Ok (m', t'), g') ->
  (forall l, l < fL fr -> meq 4 4 (ent t [l; b]) (ent t' [l; b'])) /\
  exists a a', Shows RF m a /\ Shows RF m' a' /\ same_cloud a b a' b'.
Proof.
  intros c g q fr g' q' fr' b b' m t m' t' H H' SS HL HH HW HR HG HS HS' E E'. pose proof SS as (Hb & Hb' & EL & EH & EW & _ & _ & EP).
  pose proof (p_forward c g q fr H ltac:(lia) HH HW HR HS HG) as K. rewrite E in K. destruct K as (_ & maps & T & K1 & _ & K2 & K3).
  assert (HG' : s_odom c = OGt -> 2 <= fL fr' -> fpose fr' <> None).
  { intros Z1 Z2 Z3. rewrite Z3 in EP. destruct (fpose fr) eqn:Z; [destruct EP|]. apply HG; [assumption|lia|reflexivity]. }
  pose proof (p_forward c g' q' fr' H' ltac:(lia) ltac:(lia) ltac:(lia) HR HS' HG') as K'. rewrite E' in K'. destruct K' as (_ & maps' & T' & K1' & _ & K2' & K3').
  rewrite <- EL in K1', K2'. pose proof (runs_agree c true fr fr' b b' (seq_same _ _ _ _ SS) HH HW _ _ _ _ _ K1 K1' (le_n _)) as (A1 & A2 & _). split.
  - intros l Hl i j Hi Hj. destruct K3 as [_ K3], K3' as [_ K3']. rewrite K3, K3' by (assumption || lia). now apply A2.
  - exists (maps (fL fr)), (maps' (fL fr)). split; [exact K2|]. split; [exact K2'|].
    destruct (traj_batch _ _ _ _ _ K1 HL) as [B1 L1]. destruct (traj_batch _ _ _ _ _ K1' HL) as [B2 L2]. apply same_cloud_intro; try assumption; lia.
Qed.

Lemma sizes_one c B H W n : 0 < B -> Sizes c B H W n -> Sizes c 1 H W n.
Proof. unfold Sizes. destruct (s_map c); [trivial|]. intros HB (A & B1 & C). split; [exact A|]. split; [lia|exact C]. Qed.
Lemma item_only q g fr b : RHist q g false fr -> b < fB fr -> 0 < fL fr ->
  exists g1, rgbd_getitem (RInt (Z.of_nat b)) g = Ok g1 /\ RHist false g1 false (only b fr).
Proof.
  intros H Hb HL. destruct (p_item q g false fr (RInt (Z.of_nat b)) [b] (seq 0 (fL fr)) H) as (o & E & HO & _).
  - split; [|reflexivity]. exists b. split; [|reflexivity]. split; [exact Hb|now left].
  - cbn. lia.
  - discriminate.
  - destruct (fL fr); [lia|discriminate].
  - exists o. split; [exact E|exact HO].
Qed.
(* a batch and its elements one by one *)
Lemma p_batch_alone : forall c g q fr,
  RHist q g false fr -> 0 < fB fr -> 0 < fL fr -> 2 <= fH fr -> 2 <= fW fr -> Ratio c ->
  Sizes c (fB fr) (fH fr) (fW fr) (fL fr * (fH fr * fW fr)) -> (s_odom c = OGt -> 2 <= fL fr -> fpose fr <> None) ->
  match forward c true g with
  | (Ok (m, t), _) => forall b, b < fB fr -> exists g1 m1 t1, rgbd_getitem (RInt (Z.of_nat b)) g = Ok g1 /\ forward c true g1 = (Ok (m1, t1), g1) /\
      shape t1 = [1; fL fr; 4; 4] /\ (forall l, l < fL fr -> meq 4 4 (ent t1 [l; 0]) (ent t [l; b])) /\
      exists a a1, Shows RF m a /\ Shows RF m1 a1 /\ len_view RF a1 = 1 /\ same_cloud a1 0 a b
  | (Err e, _) => exists b g1, b < fB fr /\ rgbd_getitem (RInt (Z.of_nat b)) g = Ok g1 /\ forward c true g1 = (Err e, g1)
  end.
Proof.
  intros c g q fr H HB HL HH HW HR HS HG. pose proof (p_forward c g q fr H HB HH HW HR HS HG) as K.
  assert (HG1 : forall b, s_odom c = OGt -> 2 <= fL (only b fr) -> fpose (only b fr) <> None).
  { intros b Z1 Z2. cbn in Z2 |- *. rewrite seq_length in Z2. specialize (HG Z1 Z2). destruct (fpose fr); [discriminate|congruence]. }
  assert (HS1 : forall b, Sizes c (fB (only b fr)) (fH (only b fr)) (fW (only b fr)) (fL (only b fr) * (fH (only b fr) * fW (only b fr)))).
  { intros b. cbn [only fB fL fH fW pick length]. rewrite seq_length. eapply sizes_one; [|exact HS]. exact HB. }
  destruct (forward c true g) as [[[m t]|e] g'] eqn:E.
  - destruct K as (-> & maps & T & K1 & _ & K2 & K3). intros b Hb. destruct (item_only _ _ _ _ H Hb HL) as (g1 & E1 & H1).
    pose proof (only_same b fr Hb) as SS.
    pose proof (p_forward c g1 false (only b fr) H1 ltac:(cbn; lia) HH HW HR (HS1 b) (HG1 b)) as K'.
    assert (FL : fL (only b fr) = fL fr) by (cbn; apply seq_length). rewrite FL in K'.
    destruct (forward c true g1) as [[[m1 t1]|e1] g1'] eqn:F1.
    + destruct K' as (-> & maps' & T' & K1' & _ & K2' & K3'). exists g1, m1, t1. split; [exact E1|]. split; [exact F1|].
      pose proof (runs_agree c true fr (only b fr) b 0 (seq_same _ _ _ _ SS) HH HW _ _ _ _ _ K1 K1' (le_n _)) as (A1 & A2 & _).
      split; [destruct K3' as [K3' _]; rewrite K3', FL; reflexivity|]. split.
      * intros l Hl i j Hi Hj. destruct K3 as [_ K3], K3' as [_ K3']. rewrite K3, K3' by (assumption || (cbn; lia) || (rewrite FL; lia)). symmetry. now apply A2.
      * exists (maps (fL fr)), (maps' (fL fr)). split; [exact K2|]. split; [exact K2'|].
        destruct (traj_batch _ _ _ _ _ K1 HL) as [B1 L1]. destruct (traj_batch _ _ _ _ _ K1' HL) as [B2 L2]. split; [exact L2|].
        apply same_cloud_intro; try assumption; [rewrite L2; cbn; lia|rewrite L1; exact Hb|]. now apply same_map_sym.
    + exfalso. destruct K' as (_ & l & maps' & T' & Hl & K1' & o & pf & Tp & ds & rows & b0 & R1 & R2 & R3 & R4 & R5 & R6 & R7).
      assert (b0 = 0) as ->. { unfold input_frame in R6. destruct (fpose (only b fr)); [|destruct (l =? 0)]; cbn in R6; lia. }
      destruct (proj2 K1 l Hl) as [LO _].
      exact (no_failure c true fr (only b fr) b 0 (seq_same _ _ _ _ SS) HH HW maps maps' T T' l e1 (traj_pre _ _ (fL fr) l _ _ (Nat.lt_le_incl _ _ Hl) K1) K1' Hl LO o pf Tp ds rows R1 R2 R3 R4 R5 R7).
  - destruct K as (-> & l & maps & T & Hl & K1 & o & pf & Tp & ds & rows & b & R1 & R2 & R3 & R4 & R5 & R6 & R7).
    assert (Hb : b < fB fr). { unfold input_frame in R6. destruct (fpose fr); [|destruct (l =? 0)]; cbn in R6; rewrite seq_length in R6; exact R6. }
    destruct (item_only _ _ _ _ H Hb HL) as (g1 & E1 & H1). exists b, g1. split; [exact Hb|]. split; [exact E1|].
    pose proof (only_same b fr Hb) as SS.
    pose proof (p_forward c g1 false (only b fr) H1 ltac:(cbn; lia) HH HW HR (HS1 b) (HG1 b)) as K'.
    assert (FL : fL (only b fr) = fL fr) by (cbn; apply seq_length). rewrite FL in K'.
    assert (NF : forall n maps' T', Trajectory c (only b fr) n maps' T' -> n <= fL fr -> l < n -> False).
    { intros n maps' T' K1' Hn Hln. destruct (proj2 K1' l Hln) as [LO _].
      exact (no_failure c true (only b fr) fr 0 b (seq_same _ _ _ _ (same_sym _ _ _ _ SS)) HH HW maps' maps T' T l e (traj_pre _ _ n l _ _ (Nat.lt_le_incl _ _ Hln) K1') K1 ltac:(rewrite FL; exact Hl) LO o pf Tp ds rows R1 R2 R3 R4 R5 R7). }
    destruct (forward c true g1) as [[[m1 t1]|e1] g1'] eqn:F1.
    + exfalso. destruct K' as (_ & maps' & T' & K1' & _). exact (NF _ _ _ K1' (le_n _) Hl).
    + destruct K' as (-> & l1 & maps' & T' & Hl1 & K1' & o1 & pf1 & Tp1 & ds1 & rows1 & b1 & Q1 & Q2 & Q3 & Q4 & Q5 & Q6 & Q7).
      assert (b1 = 0) as ->. { unfold input_frame in Q6. destruct (fpose (only b fr)); [|destruct (l1 =? 0)]; cbn in Q6; lia. }
      destruct (lt_eq_lt_dec l l1) as [[G|G]|G].
      * exfalso. exact (NF _ _ _ K1' ltac:(lia) G).
      * subst l1. rewrite R1 in Q1. injection Q1 as <-. rewrite R4 in Q4. injection Q4 as <-.
        unfold previous in R2, Q2. rewrite R1 in R2, Q2. destruct l as [|k]; [discriminate|]. injection R2 as <-. injection Q2 as <-. cbn in R3, Q3. injection R3 as <-. injection Q3 as <-.
        destruct (runs_agree c true fr (only b fr) b 0 (seq_same _ _ _ _ SS) HH HW _ _ _ _ _ K1 K1' ltac:(lia)) as (A1 & A2 & A3 & _). destruct (A3 ltac:(lia)) as (L1 & L2 & L3).
        pose proof (same_registration c true fr (only b fr) b 0 (seq_same _ _ _ _ SS) HH HW (maps (S k)) (maps' (S k)) T T' (S k) k Hl eq_refl A1 (A2 k ltac:(lia)) (conj L2 L3) L1 o ds rows rows1 R5 Q5) as RE.
        cbn in RE, R7, Q7. rewrite RE in R7. rewrite R7 in Q7. injection Q7 as <-. reflexivity.
      * exfalso. destruct (proj2 K1 l1 G) as [LO _].
        exact (no_failure c true fr (only b fr) b 0 (seq_same _ _ _ _ SS) HH HW maps maps' T T' l1 e1 (traj_pre _ _ l l1 _ _ (Nat.lt_le_incl _ _ G) K1) K1' Hl1 LO o1 pf1 Tp1 ds1 rows1 Q1 Q2 Q3 Q4 Q5 Q7).
Qed.
