(* Proofs for C81: colours do not influence the geometry, and map colours are linear in image colours. *)
From Coq Require Import Reals List Arith Bool ZArith Lia Lra Sorting.Sorted.
From Verif Require Import Res Fld StructUtilsModel PointcloudsModel PointcloudsSpec PointcloudsIndexSpec PointcloudsHist MatSpec GeomSpec TensorModel TensorProofs
  RgbdModel RgbdSpec RgbdPropProofs FusionModel FusionSpec FusionMap Se3Model SolveModel IcpModel IcpSpec OdomSpec SlamModel SlamSpec SlamProofs SlamPropProofs BatchSpec BatchProofs BatchSlamProofs BatchPropProofs ColourSpec.
Import ListNotations.
Local Open Scope nat_scope.

Lemma geo_seq fr fr' b : same_geometry fr fr' -> b < fB fr -> SameSeq false fr b fr' b.
Proof.
  intros (EB & EL & EH & EW & EK & P & G) Hb. split; [exact Hb|]. split; [lia|]. split; [exact EL|]. split; [exact EH|]. split; [exact EW|]. split; [now apply EK|]. split.
  - intros l h w Hl Hh Hw. destruct (P b l h w) as [P1 P2]; [repeat split; assumption|]. split; [exact P1|]. split; [discriminate|exact P2].
  - destruct (fpose fr), (fpose fr'); cbn in *; try exact G. intros l Hl. now apply G.
Qed.
Lemma geo_sym fr fr' : same_geometry fr fr' -> same_geometry fr' fr.
Proof.
  intros (EB & EL & EH & EW & EK & P & G). do 4 (split; [now symmetry|]). split; [intros b Hb; apply meq_sym', EK; lia|]. split.
  - intros b l h w (I1 & I2 & I3 & I4). destruct (P b l h w) as [P1 P2]; [repeat split; lia|]. split; [now symmetry|]. intros i Hi. symmetry. now apply P2.
  - destruct (fpose fr), (fpose fr'); cbn in *; try exact G. intros b l Hb Hl. apply meq_sym', G; lia.
Qed.
Lemma geo_gt fr fr' c : same_geometry fr fr' -> (s_odom c = OGt -> 2 <= fL fr -> fpose fr <> None) -> s_odom c = OGt -> 2 <= fL fr' -> fpose fr' <> None.
Proof. intros (_ & EL & _ & _ & _ & _ & G) H Z1 Z2 Z3. rewrite Z3 in G. destruct (fpose fr) eqn:Z; [destruct G|]. apply H; [assumption|lia|reflexivity]. Qed.
Lemma maps_same_but a a' : Batch RF a -> Batch RF a' -> len_view RF a = len_view RF a' -> 0 < len_view RF a -> (forall b, b < len_view RF a -> SameMap false a b a' b) -> same_but_colours a a'.
Proof.
  intros B B' EL H0 H. split; [exact EL|]. intros x. pose proof (H 0 H0) as (N & _). specialize (N x).
  destruct (qget x a) as [L|] eqn:Ea, (qget x a') as [L'|] eqn:Ea'; [|destruct N as [_ N]; discriminate (N eq_refl)|destruct N as [N _]; discriminate (N eq_refl)|exact I].
  assert (Q : qget x a <> None) by congruence. assert (Q' : qget x a' <> None) by congruence.
  assert (LL : forall u, Batch RF u -> forall M, qget x u = Some M -> 0 < len_view RF u -> length M = len_view RF u).
  { intros u HB M HM Hu. unfold Batch, len_view in *. destruct (qp u) as [P|]; [|lia]. destruct HB as (_ & _ & HB). destruct (HB x M HM) as [HC _]. apply (f_equal (@length nat)) in HC. unfold counts_of in HC. now rewrite !map_length in HC. }
  pose proof (LL a B L Ea H0) as L1. pose proof (LL a' B' L' Ea' ltac:(lia)) as L2. split.
  - intros Hx. apply (nth_ext _ _ nocloud nocloud); [congruence|]. intros b Hb. destruct (H b ltac:(congruence)) as (_ & E & _). specialize (E x (or_intror Hx)). unfold lst in E. rewrite Ea, Ea' in E. exact E.
  - apply (nth_ext _ _ 0 0); [rewrite !map_length; congruence|]. rewrite map_length. intros b Hb.
    assert (NT : forall M : list (t2 RF), b < length M -> nth b (map (fun y => length (t2r y)) M) 0 = length (t2r (nth b M nocloud))).
    { intros M HM. rewrite (nth_indep _ 0 (length (t2r (nocloud : t2 RF)))) by (rewrite map_length; exact HM). apply (map_nth (fun y : t2 RF => length (t2r y))). }
    rewrite !NT by congruence.
    destruct (batch_lst a x b B Q ltac:(congruence)) as (y & _ & E & _ & _ & F2). destruct (batch_lst a' x b B' Q' ltac:(congruence)) as (y' & _ & E' & _ & _ & F2').
    unfold lst in E, E'. rewrite Ea in E. rewrite Ea' in E'. subst y y'. refine (eq_trans F2 (eq_trans _ (eq_sym F2'))). apply (sm_np false). apply H. congruence.
Qed.
(* two runs on images that differ only in colour *)
Lemma p_colour_geometry c g q fr g' q' fr' : RHist q g false fr -> RHist q' g' false fr' -> same_geometry fr fr' ->
  0 < fB fr -> 0 < fL fr -> 2 <= fH fr -> 2 <= fW fr -> Ratio c -> (s_odom c = OGt -> 2 <= fL fr -> fpose fr <> None) ->
  Sizes c (fB fr) (fH fr) (fW fr) (fL fr * (fH fr * fW fr)) ->
  match forward c true g, forward c true g' with
  | (Ok (m, t), _), (Ok (m', t'), _) => (forall b l, b < fB fr -> l < fL fr -> meq 4 4 (ent t [l; b]) (ent t' [l; b])) /\
      exists a a', Shows RF m a /\ Shows RF m' a' /\ same_but_colours a a'
  | (Err _, _), (Err _, _) => True
  | _, _ => False
  end.
Proof.
  intros H H' SG HB HL HH HW HR HG HS. pose proof SG as (EB & EL & EH & EW & _).
  pose proof (p_forward c g q fr H HB HH HW HR HS HG) as K.
  pose proof (p_forward c g' q' fr' H' ltac:(lia) ltac:(lia) ltac:(lia) HR ltac:(rewrite <- EB, <- EH, <- EW, <- EL; exact HS) (geo_gt _ _ _ SG HG)) as K'.
  assert (NF : forall f f' (S : same_geometry f f'), 2 <= fH f -> 2 <= fW f -> forall maps T l maps' T' e, Trajectory c f (fL f) maps T -> l < fL f -> Trajectory c f' l maps' T' ->
      RegistrationFails c (maps' l) (previous c f' T' l) (input_frame f' l) e -> False).
  { intros f f' S hh hw maps T l maps' T' e K1 Hl K1' (o & pf & Tp & ds & rows & b0 & R1 & R2 & R3 & R4 & R5 & R6 & R7). rewrite input_B in R6.
    destruct (proj2 K1 l Hl) as [LO _]. pose proof S as (sB & sL & _).
    exact (no_failure c false f f' b0 b0 (geo_seq _ _ b0 S ltac:(lia)) hh hw maps maps' T T' l e (traj_pre _ _ (fL f) l _ _ (Nat.lt_le_incl _ _ Hl) K1) K1' Hl LO o pf Tp ds rows R1 R2 R3 R4 R5 R7). }
  destruct (forward c true g) as [[[m t]|e] g1], (forward c true g') as [[[m' t']|e'] g1']; try exact I.
  - destruct K as (_ & maps & T & K1 & _ & K2 & K3), K' as (_ & maps' & T' & K1' & _ & K2' & K3'). rewrite <- EL in K1', K2'.
    assert (A : forall b, b < fB fr -> Agree c false b b maps maps' T T' (fL fr)) by (intros b Hb; exact (runs_agree c false fr fr' b b (geo_seq _ _ b SG Hb) HH HW _ _ _ _ _ K1 K1' (le_n _))).
    split.
    + intros b l Hb Hl i j Hi Hj. destruct K3 as [_ K3], K3' as [_ K3']. rewrite K3, K3' by (assumption || lia). destruct (A b Hb) as (_ & A2 & _). now apply A2.
    + exists (maps (fL fr)), (maps' (fL fr)). split; [exact K2|]. split; [exact K2'|]. destruct (traj_batch _ _ _ _ _ K1 HL) as [B1 L1]. destruct (traj_batch _ _ _ _ _ K1' HL) as [B2 L2].
      apply maps_same_but; [exact B1|exact B2|congruence|lia|]. intros b Hb. apply A. congruence.
  - destruct K as (_ & maps & T & K1 & _), K' as (_ & l & maps' & T' & Hl & K1' & RF'). rewrite <- EL in Hl. exact (NF fr fr' SG HH HW _ _ _ _ _ _ K1 Hl K1' RF').
  - destruct K' as (_ & maps & T & K1 & _), K as (_ & l & maps' & T' & Hl & K1' & RF'). rewrite EL in Hl. exact (NF fr' fr (geo_sym _ _ SG) ltac:(lia) ltac:(lia) _ _ _ _ _ _ K1 Hl K1' RF').
Qed.

(* ---------------------------------------------------------------- colours are weighted means with weights that do not depend on colours *)
(* weights (old, new) and pixel for point n after the update *)
Definition wts (cf : nat -> R) (al : nat -> nat -> R) (tbl : list (nat * (nat * nat))) (np : nat) (fresh : list (nat * nat)) (n : nat) : R * R * (nat * nat) :=
  if np <=? n then (0%R, 1%R, nth (n - np) fresh (0, 0))
  else match find (fun t => fst t =? n) tbl with
       | Some t => ((cf n / (cf n + al (fst (snd t)) (snd (snd t))))%R, (al (fst (snd t)) (snd (snd t)) / (cf n + al (fst (snd t)) (snd (snd t))))%R, snd t)
       | None => (1%R, 0%R, (0, 0))
       end.
Definition colour_step (k : R * R * (nat * nat)) (f : frames) (b : nat) (x c : nat -> R) : Prop :=
  forall j, j < 3 -> x j = (fst (fst k) * c j + snd (fst k) * frgb f b 0 (fst (snd k)) (snd (snd k)) j)%R.
Lemma wts_ext cf cf' al al' tbl np fresh n : (n < np -> cf n = cf' n) -> (forall m h w, In (m, (h, w)) tbl -> al h w = al' h w) -> wts cf al tbl np fresh n = wts cf' al' tbl np fresh n.
Proof.
  intros H1 H2. unfold wts. destruct (Nat.leb_spec np n); [reflexivity|]. rewrite H1 by assumption. destruct (find (fun t => fst t =? n) tbl) as [[m [h w]]|] eqn:E; [|reflexivity].
  apply find_some in E. destruct E as [E _]. cbn [fst snd]. rewrite (H2 _ _ _ E). reflexivity.
Qed.
Lemma wts_sum cf al tbl np fresh n : (n < np -> (0 < cf n)%R) -> (forall h w, (0 < al h w)%R) -> let k := wts cf al tbl np fresh n in (fst (fst k) + snd (fst k) = 1)%R.
Proof.
  intros H1 H2. cbv zeta. unfold wts. destruct (Nat.leb_spec np n) as [G|G]; [cbn; lra|]. specialize (H1 G). destruct (find (fun t => fst t =? n) tbl) as [[m [h w]]|]; cbn [fst snd]; [|lra].
  specialize (H2 h w). field. lra.
Qed.
Lemma fused_colour sg f rows a u b n : Fused sg f rows a u -> b < fB f -> (forall m, m < npoints a b -> (0 < conf a b m)%R) -> n < npoints u b ->
  colour_step (wts (conf a b) (frame_alpha sg f b) (at_b b rows) (npoints a b) (fresh_pixels rows f b) n) f b (attr_at u Colors b n) (attr_at a Colors b n).
Proof.
  intros [_ FU] Hb PO Hn j Hj. destruct (FU b Hb) as (N & U & _ & MM & A). rewrite N in Hn. unfold wts. destruct (Nat.leb_spec (npoints a b) n) as [G|G].
  - destruct (nth_error (fresh_pixels rows f b) (n - npoints a b)) as [[h w]|] eqn:E; [|apply nth_error_None in E; lia].
    destruct (A _ _ _ E) as [_ C2]. replace (npoints a b + (n - npoints a b)) with n in C2 by lia. rewrite (C2 Colors j ltac:(discriminate) Hj).
    rewrite (nth_error_nth _ _ (0, 0) E). cbn [fst snd frame_attr]. ring.
  - destruct (find (fun t => fst t =? n) (at_b b rows)) as [[m [h w]]|] eqn:E.
    + apply find_some in E. destruct E as [E1 E2]. cbn in E2. apply Nat.eqb_eq in E2. subst m. apply at_b_in in E1. destruct (MM _ _ _ E1) as [_ C2]. rewrite (C2 Colors j ltac:(discriminate) Hj).
      unfold wmean. cbn [fst snd frame_attr]. specialize (PO n G). pose proof (alpha_pos sg (vertex f b 0 h w)) as AP. fold (frame_alpha sg f b h w) in AP. field. lra.
    + cbn [fst snd]. rewrite (U n G); [ring| |left; specialize (PO n G); lra|exact Hj].
      intros h w Q. apply at_b_in in Q. pose proof (find_none _ _ E _ Q) as K. cbn in K. rewrite Nat.eqb_refl in K. discriminate.
Qed.
Lemma attr_rows a x b n : attr_at a x b n = fun j => nth j (nth n (rows_of a x b) []) 0%R.
Proof. rewrite attr_lst, rows_lst. reflexivity. Qed.
Lemma aggregated_colour f a u b n np : rows_of u Colors b = rows_of a Colors b ++ frame_rows f Colors b -> length (rows_of a Colors b) = np -> n < length (rows_of u Colors b) ->
  colour_step (wts (fun _ => 1%R) (fun _ _ => 1%R) [] np (chosen true f b) n) f b (attr_at u Colors b n) (attr_at a Colors b n).
Proof.
  intros E L Hn j Hj. rewrite !attr_rows, E. rewrite E, app_length in Hn. unfold wts. cbn [find]. destruct (Nat.leb_spec np n) as [G|G]; cbn [fst snd].
  - rewrite app_nth2 by lia. rewrite L. unfold frame_rows in Hn |- *. rewrite map_length in Hn.
    rewrite (nth_indep _ [] (map (frame_attr f Colors b (fst (0, 0)) (snd (0, 0))) (seq 0 3))) by (rewrite map_length; lia).
    match goal with |- context [nth ?k (map ?F ?l) _] => change (nth k (map F l) _) with (nth k (map F l) (F (0, 0))) end. rewrite map_nth.
    cbn [frame_attr]. rewrite (map_seq_nth _ 3 0%R j Hj). ring.
  - rewrite app_nth1 by lia. ring.
Qed.
Lemma wts_pix cf al tbl np fresh n H W : 0 < H -> 0 < W -> (forall h w, In (h, w) fresh -> h < H /\ w < W) -> (forall m h w, In (m, (h, w)) tbl -> h < H /\ w < W) ->
  let q := snd (wts cf al tbl np fresh n) in fst q < H /\ snd q < W.
Proof.
  intros HH HW H1 H2. cbv zeta. unfold wts. destruct (np <=? n); cbn [fst snd].
  - destruct (nth_in_or_default (n - np) fresh (0, 0)) as [G|G]; [|rewrite G; cbn; lia]. destruct (nth (n - np) fresh (0, 0)) as [h w]. now apply H1.
  - destruct (find (fun t => fst t =? n) tbl) as [[m [h w]]|] eqn:E; cbn [fst snd]; [|lia]. apply find_some in E. destruct E as [E _]. exact (H2 _ _ _ E).
Qed.
Section Pair.
  Variables (c : slam) (fr fr' : frames) (b n : nat) (maps maps' : nat -> batch RF) (T T' : nat -> nat -> mat).
  Hypothesis SG : same_geometry fr fr'.
  Hypothesis Hb : b < fB fr.
  Hypothesis HH : 2 <= fH fr.
  Hypothesis HW : 2 <= fW fr.
  Hypothesis Hn : n < fL fr.
  Hypothesis TR : Trajectory c fr (S n) maps T.
  Hypothesis TR' : Trajectory c fr' (S n) maps' T'.
  Let SS := geo_seq fr fr' b SG Hb.
  Lemma pair_agree m : m <= S n -> Agree c false b b maps maps' T T' m.
  Proof. intros Hm. assert (Hk : m <= fL fr) by lia. exact (runs_agree c false fr fr' b b SS HH HW _ _ _ _ m (traj_pre _ _ _ _ _ _ Hm TR) (traj_pre _ _ _ _ _ _ Hm TR') Hk). Qed.
  Lemma pair_frame : SameFrame false (posed (fun b => T b n) (moment n fr)) b (posed (fun b => T' b n) (moment n fr')) b.
  Proof. destruct (pair_agree (S n) (le_n _)) as (_ & A & _). apply (same_posed false fr fr' b b SS n); [exact Hn|]. apply A. lia. Qed.
  Lemma pair_table d t rows rows' :
    match qp (maps n) with None => rows = [] | Some _ => exists T0, fpose (posed (fun b => T b n) (moment n fr)) = Some T0 /\ Correspondences (maps n) (posed (fun b => T b n) (moment n fr)) T0 d t rows end ->
    match qp (maps' n) with None => rows' = [] | Some _ => exists T0, fpose (posed (fun b => T' b n) (moment n fr')) = Some T0 /\ Correspondences (maps' n) (posed (fun b => T' b n) (moment n fr')) T0 d t rows' end ->
    at_b b rows = at_b b rows' /\ (forall m h w, In (m, (h, w)) (at_b b rows) -> h < fH fr /\ w < fW fr).
  Proof.
    intros CO CO'. pose proof (pair_agree n ltac:(lia)) as (A1 & _). pose proof pair_frame as SP. pose proof A1 as (N & _). specialize (N Points). cbn [qget] in N. destruct (qp (maps n)) as [P|] eqn:EP.
    - destruct (qp (maps' n)) as [P'|] eqn:EP'; [|destruct N as [_ N]; discriminate (N eq_refl)].
      destruct CO as (U & EU & CO), CO' as (U' & EU' & CO'). cbn in EU, EU'. injection EU as <-. injection EU' as <-. split.
      + eapply (st_corr _ _ _ _ _ _ _ _ _ _ _ _ _ A1 SP eq_refl eq_refl); [exact HH|exact HW|exact CO|exact CO'].
      + intros m h w MM. apply at_b_in in MM. destruct CO as (_ & _ & C & _). destruct (C _ _ _ _ MM) as (_ & Sn & _). exact (seen_inside _ _ _ _ _ _ _ Sn).
    - destruct (qp (maps' n)) as [P'|] eqn:EP'; [destruct N as [N _]; discriminate (N eq_refl)|]. subst rows rows'. split; [reflexivity|]. intros m h w [].
  Qed.
End Pair.
Lemma geo_refl fr : same_geometry fr fr.
Proof. do 4 (split; [reflexivity|]). split; [intros b _ i j _ _; reflexivity|]. split; [intros; split; [reflexivity|intros i _; reflexivity]|]. destruct (fpose fr); cbn; [|exact I]. intros b l _ _ i j _ _. reflexivity. Qed.
(* one step: the weights that every run on images of this geometry uses *)
Lemma step_weights c fr b n maps T : b < fB fr -> 2 <= fH fr -> 2 <= fW fr -> n < fL fr -> Trajectory c fr (S n) maps T ->
  exists K : nat -> R * R * (nat * nat),
    (forall m, m < npoints (maps (S n)) b -> (fst (fst (K m)) + snd (fst (K m)) = 1)%R /\ fst (snd (K m)) < fH fr /\ snd (snd (K m)) < fW fr /\ (npoints (maps n) b <= m -> fst (fst (K m)) = 0%R)) /\
    forall fr' maps' T', same_geometry fr fr' -> Trajectory c fr' (S n) maps' T' -> forall m, m < npoints (maps (S n)) b ->
      colour_step (K m) (moment n fr') b (attr_at (maps' (S n)) Colors b m) (attr_at (maps' n) Colors b m).
Proof.
  intros Hb HH HW Hn TR. destruct (proj2 TR n ltac:(lia)) as [_ [B M]]. destruct (s_map c) as [|d t sg] eqn:Em.
  - destruct M as [(P1 & P2 & P3) M]. exists (wts (fun _ => 1%R) (fun _ _ => 1%R) [] (npoints (maps n) b) (chosen true (moment n fr) b)). split.
    + intros m Hm. split; [apply wts_sum; intros; lra|].
      destruct (wts_pix (fun _ => 1%R) (fun _ _ => 1%R) [] (npoints (maps n) b) (chosen true (moment n fr) b) m (fH fr) (fW fr) ltac:(lia) ltac:(lia)) as [W1 W2]; [|intros ? ? ? []|].
      * intros h w Hq. exact (chosen_in (moment n fr) b (h, w) Hq).
      * split; [exact W1|]. split; [exact W2|]. intros G. unfold wts. apply Nat.leb_le in G. rewrite G. reflexivity.
    + intros fr' maps' T' SG TR' m Hm. destruct (proj2 TR' n ltac:(lia)) as [_ [B' M']]. rewrite Em in M'. destruct M' as [(P1' & P2' & P3') M'].
      pose proof (pair_agree c fr fr' b n maps maps' T T' SG Hb HH HW Hn TR TR' n ltac:(lia)) as (A1 & _).
      pose proof (pair_agree c fr fr' b n maps maps' T T' SG Hb HH HW Hn TR TR' (S n) (le_n _)) as (A2 & _).
      pose proof (pair_frame c fr fr' b n maps maps' T T' SG Hb HH HW Hn TR TR') as SP. pose proof SP as (I1 & I2 & _).
      assert (EC : chosen true (moment n fr) b = chosen true (moment n fr') b) by exact (sf_chosen _ _ _ _ _ SP).
      rewrite EC. rewrite (sm_np _ _ _ _ _ A1). apply (aggregated_colour (moment n fr')).
      * exact (M' Colors b ltac:(discriminate) I2).
      * destruct (qget Colors (maps' n)) as [L|] eqn:EL.
        -- assert (LB : b < len_view RF (maps' n)).
           { destruct n as [|n']; [pose proof (proj1 TR') as Z; rewrite Z in EL; discriminate|]. rewrite (proj2 (traj_batch _ _ _ _ _ (traj_pre _ _ _ _ _ _ (Nat.le_succ_diag_r _) TR') (Nat.lt_0_succ _))). pose proof SG as (EB & _). lia. }
           assert (BB : Batch RF (maps' n)) by (destruct n as [|n']; [pose proof (proj1 TR') as Z; rewrite Z in EL; discriminate|]; exact (proj1 (traj_batch _ _ _ _ _ (traj_pre _ _ _ _ _ _ (Nat.le_succ_diag_r _) TR') (Nat.lt_0_succ _)))).
           destruct (batch_lst _ Colors b BB ltac:(congruence) LB) as (y & _ & E & _ & _ & F). rewrite rows_lst. rewrite E. exact F.
        -- destruct n as [|n']; [rewrite (proj1 TR'); unfold rows_of, npoints; reflexivity|]. exfalso. destruct (proj2 TR' n' ltac:(lia)) as [_ [_ M2]]. rewrite Em in M2. destruct M2 as [(Q1 & _) _]. exact (Q1 Colors ltac:(discriminate) EL).
      * rewrite (sm_np _ _ _ _ _ A2) in Hm. destruct (traj_batch _ _ _ _ _ TR' (Nat.lt_0_succ _)) as [_ LV].
        destruct (batch_lst _ Colors b B' (P1' Colors ltac:(discriminate)) ltac:(rewrite LV; pose proof SG as (EB & _); lia)) as (y & _ & E & _ & _ & F). rewrite rows_lst, E. now rewrite F.
  - destruct M as [F (rows & FU & CO)]. exists (wts (conf (maps n) b) (frame_alpha (sigma_val sg) (posed (fun b => T b n) (moment n fr)) b) (at_b b rows) (npoints (maps n) b) (fresh_pixels rows (posed (fun b => T b n) (moment n fr)) b)).
    pose proof (pair_agree c fr fr b n maps maps T T (geo_refl fr) Hb HH HW Hn TR TR n ltac:(lia)) as (_ & _ & _ & PO). specialize (PO ltac:(congruence)).
    pose proof (pair_table c fr fr b n maps maps T T (geo_refl fr) Hb HH HW Hn TR TR d t rows rows CO CO) as [_ IT]. split.
    + intros m Hm. split; [apply wts_sum; [intros G; now apply PO|intros; apply alpha_pos]|].
      destruct (wts_pix (conf (maps n) b) (frame_alpha (sigma_val sg) (posed (fun b => T b n) (moment n fr)) b) (at_b b rows) (npoints (maps n) b) (fresh_pixels rows (posed (fun b => T b n) (moment n fr)) b) m (fH fr) (fW fr) ltac:(lia) ltac:(lia)) as [W1 W2]; [|exact IT|].
      * intros h w Hq. unfold fresh_pixels in Hq. apply filter_In in Hq. destruct Hq as [Hq _]. exact (chosen_in (moment n fr) b (h, w) Hq).
      * split; [exact W1|]. split; [exact W2|]. intros G. unfold wts. apply Nat.leb_le in G. rewrite G. reflexivity.
    + intros fr' maps' T' SG TR' m Hm. destruct (proj2 TR' n ltac:(lia)) as [_ [B' M']]. rewrite Em in M'. destruct M' as [F' (rows' & FU' & CO')].
      pose proof (pair_agree c fr fr' b n maps maps' T T' SG Hb HH HW Hn TR TR' n ltac:(lia)) as (A1 & _).
      pose proof (pair_agree c fr fr' b n maps maps' T T' SG Hb HH HW Hn TR TR' (S n) (le_n _)) as (A2 & _).
      pose proof (pair_frame c fr fr' b n maps maps' T T' SG Hb HH HW Hn TR TR') as SP. pose proof SP as (I1 & I2 & _).
      pose proof (pair_table c fr fr' b n maps maps' T T' SG Hb HH HW Hn TR TR' d t rows rows' CO CO') as [ER _].
      assert (PO' : forall k, k < npoints (maps' n) b -> (0 < conf (maps' n) b k)%R).
      { intros k Hk. rewrite <- (sm_np _ _ _ _ _ A1) in Hk. unfold conf. rewrite <- (sm_attr _ _ _ _ _ A1 Features) by cmp. exact (PO k Hk). }
      assert (Hm' : m < npoints (maps' (S n)) b) by (rewrite <- (sm_np _ _ _ _ _ A2); exact Hm).
      pose proof (fused_colour _ _ _ _ _ b m FU' I2 PO' Hm') as CS.
      assert (EW : forall k1 k2, k1 = k2 -> colour_step k2 (posed (fun b => T' b n) (moment n fr')) b (attr_at (maps' (S n)) Colors b m) (attr_at (maps' n) Colors b m) -> colour_step k1 (moment n fr') b (attr_at (maps' (S n)) Colors b m) (attr_at (maps' n) Colors b m)) by (intros k1 k2 -> K; exact K).
      eapply EW; [|exact CS]. rewrite ER, (sm_np _ _ _ _ _ A1), (sm_fresh _ _ _ _ _ _ _ SP ER). apply wts_ext.
      * intros _. unfold conf. rewrite (sm_attr _ _ _ _ _ A1 Features) by cmp. reflexivity.
      * intros k h w Hk. rewrite <- ER in Hk. destruct (IT _ _ _ Hk) as [Hh Hw]. exact (sf_alpha _ _ _ _ _ SP (sigma_val sg) h w Hh Hw).
Qed.
Lemma mix_run c fr1 fr2 fr3 lam mu nu maps1 T1 maps2 T2 maps3 T3 : same_geometry fr1 fr2 -> same_geometry fr1 fr3 -> mixed_colours lam mu nu fr1 fr2 fr3 -> 2 <= fH fr1 -> 2 <= fW fr1 ->
  forall n, n <= fL fr1 -> Trajectory c fr1 n maps1 T1 -> Trajectory c fr2 n maps2 T2 -> Trajectory c fr3 n maps3 T3 ->
  forall b m j, b < fB fr1 -> m < npoints (maps1 n) b -> j < 3 ->
    attr_at (maps3 n) Colors b m j = (lam * attr_at (maps1 n) Colors b m j + mu * attr_at (maps2 n) Colors b m j + nu j)%R.
Proof.
  intros G2 G3 MX HH HW n. induction n as [|n IH]; intros Hn R1 R2 R3 b m j Hb Hm Hj; [rewrite (proj1 R1) in Hm; cbn in Hm; lia|].
  destruct (step_weights c fr1 b n maps1 T1 Hb HH HW ltac:(lia) R1) as (K & K1 & K2). destruct (K1 m Hm) as (S1 & Ph & Pw & Z).
  pose proof (K2 fr1 maps1 T1 (geo_refl _) R1 m Hm j Hj) as E1. pose proof (K2 fr2 maps2 T2 G2 R2 m Hm j Hj) as E2. pose proof (K2 fr3 maps3 T3 G3 R3 m Hm j Hj) as E3.
  destruct (K m) as [[u v] [h w]]. cbn [fst snd] in *. rewrite E1, E2, E3. clear E1 E2 E3.
  assert (EC : frgb (moment n fr3) b 0 h w j = (lam * frgb (moment n fr1) b 0 h w j + mu * frgb (moment n fr2) b 0 h w j + nu j)%R).
  { pose proof G2 as (EB2 & _). pose proof G3 as (EB3 & _). cbn [moment pick frgb nth]. rewrite !seq_nth by lia. cbn [Nat.add]. apply MX; [|exact Hj]. repeat split; lia. }
  rewrite EC. destruct (le_lt_dec (npoints (maps1 n) b) m) as [G|G].
  - rewrite (Z G). rewrite (Z G) in S1. replace v with 1%R by lra. ring.
  - rewrite (IH ltac:(lia) (traj_pre _ _ _ _ _ _ (Nat.le_succ_diag_r _) R1) (traj_pre _ _ _ _ _ _ (Nat.le_succ_diag_r _) R2) (traj_pre _ _ _ _ _ _ (Nat.le_succ_diag_r _) R3) b m j Hb G Hj). replace v with (1 - u)%R by lra. ring.
Qed.
(* the colours of the map depend linearly on the colours of the images *)
Lemma p_colour_linear c lam mu nu g1 q1 fr1 g2 q2 fr2 g3 q3 fr3 m1 t1 m2 t2 m3 t3 : RHist q1 g1 false fr1 -> RHist q2 g2 false fr2 -> RHist q3 g3 false fr3 ->
  same_geometry fr1 fr2 -> same_geometry fr1 fr3 -> mixed_colours lam mu nu fr1 fr2 fr3 ->
  0 < fB fr1 -> 0 < fL fr1 -> 2 <= fH fr1 -> 2 <= fW fr1 -> Ratio c -> (s_odom c = OGt -> 2 <= fL fr1 -> fpose fr1 <> None) ->
  Sizes c (fB fr1) (fH fr1) (fW fr1) (fL fr1 * (fH fr1 * fW fr1)) ->
  forward c true g1 = (Ok (m1, t1), g1) -> forward c true g2 = (Ok (m2, t2), g2) -> forward c true g3 = (Ok (m3, t3), g3) ->
  exists a1 a2 a3, Shows RF m1 a1 /\ Shows RF m2 a2 /\ Shows RF m3 a3 /\ (forall b, b < fB fr1 -> npoints a2 b = npoints a1 b /\ npoints a3 b = npoints a1 b) /\
    forall b n j, b < fB fr1 -> n < npoints a1 b -> j < 3 -> attr_at a3 Colors b n j = (lam * attr_at a1 Colors b n j + mu * attr_at a2 Colors b n j + nu j)%R.
Proof.
  intros H1 H2 H3 G2 G3 MX HB HL HH HW HR HG HS E1 E2 E3.
  pose proof (p_forward c g1 q1 fr1 H1 HB HH HW HR HS HG) as K1. rewrite E1 in K1. destruct K1 as (_ & maps1 & T1 & K1 & _ & S1 & _).
  pose proof G2 as (EB2 & EL2 & EH2 & EW2 & _). pose proof G3 as (EB3 & EL3 & EH3 & EW3 & _).
  pose proof (p_forward c g2 q2 fr2 H2 ltac:(lia) ltac:(lia) ltac:(lia) HR ltac:(rewrite <- EB2, <- EH2, <- EW2, <- EL2; exact HS) (geo_gt _ _ _ G2 HG)) as K2. rewrite E2 in K2. destruct K2 as (_ & maps2 & T2 & K2 & _ & S2 & _).
  pose proof (p_forward c g3 q3 fr3 H3 ltac:(lia) ltac:(lia) ltac:(lia) HR ltac:(rewrite <- EB3, <- EH3, <- EW3, <- EL3; exact HS) (geo_gt _ _ _ G3 HG)) as K3. rewrite E3 in K3. destruct K3 as (_ & maps3 & T3 & K3 & _ & S3 & _).
  rewrite <- EL2 in K2, S2. rewrite <- EL3 in K3, S3. exists (maps1 (fL fr1)), (maps2 (fL fr1)), (maps3 (fL fr1)). do 3 (split; [assumption|]). split.
  - intros b Hb. destruct (runs_agree c false fr1 fr2 b b (geo_seq _ _ b G2 Hb) HH HW _ _ _ _ _ K1 K2 (le_n _)) as (A & _). destruct (runs_agree c false fr1 fr3 b b (geo_seq _ _ b G3 Hb) HH HW _ _ _ _ _ K1 K3 (le_n _)) as (A' & _).
    split; symmetry; [exact (sm_np _ _ _ _ _ A)|exact (sm_np _ _ _ _ _ A')].
  - exact (mix_run c fr1 fr2 fr3 lam mu nu _ _ _ _ _ _ G2 G3 MX HH HW (fL fr1) (le_n _) K1 K2 K3).
Qed.
