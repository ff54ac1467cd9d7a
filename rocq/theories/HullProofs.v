(* Proofs for C79. *)
From Coq Require Import Reals List Arith Bool ZArith Lia Lra Psatz Sorting.Sorted.
From Verif Require Import Res Fld StructUtilsModel PointcloudsModel PointcloudsSpec PointcloudsHist MatSpec GeomSpec TensorModel TensorProofs
  RgbdModel RgbdSpec RgbdPropProofs FusionModel FusionSpec FusionMap Se3Model SolveModel IcpModel IcpSpec OdomSpec SlamModel SlamSpec MatProofs IcpGnProofs FusionCorr
  SlamProofs SlamPropProofs StillMapProofs HullSpec.
Import ListNotations.
Local Open Scope nat_scope.
Notation shot fr T l := (posed (fun b => T b l%nat) (moment l%nat fr)).

Lemma match_cases rows b n : (exists h w, matched rows b n h w) \/ unmatched rows b n.
Proof.
  induction rows as [|r rows IH]; [right; intros h w []|]. destruct IH as [(h & w & H)|H]; [left; exists h, w; now right|].
  destruct r as [b' n' h' w']. destruct (Nat.eq_dec b' b) as [->|]; [destruct (Nat.eq_dec n' n) as [->|]; [left; exists h', w'; now left|]|];
    right; intros h w [K|K]; try exact (H h w K); injection K; intros; congruence.
Qed.
Lemma alpha_range sigma v : (0 < alpha_spec sigma v <= 1)%R /\ (/ 10000000 <= alpha_spec sigma v)%R.
Proof.
  unfold alpha_spec. assert (exp (- norm 3 v ^ 2 / (2 * sigma ^ 2)) <= 1)%R.
  { rewrite <- exp_0. assert (- norm 3 v ^ 2 / (2 * sigma ^ 2) <= 0)%R.
    { destruct (Req_dec sigma 0) as [->|Hs].
      - unfold Rdiv. replace (2 * 0 ^ 2)%R with 0%R by ring. rewrite Rinv_0. lra.
      - assert (0 < 2 * sigma ^ 2)%R by (assert (0 < sigma * sigma)%R by nra; cbn; lra). assert (0 <= norm 3 v ^ 2)%R by apply pow2_ge_0.
        apply Rmult_le_reg_r with (2 * sigma ^ 2)%R; [assumption|]. unfold Rdiv. rewrite Rmult_assoc, Rinv_l by lra. lra. }
    destruct H as [H|H]; [left; now apply exp_increasing|right; now rewrite H]. }
  unfold Rmax. destruct (Rle_dec _ _); lra.
Qed.
Lemma shot_dep fr T l b h w : b < fB fr -> fdep (shot fr T l) b 0 h w = fdep fr b l h w.
Proof. intros Hb. cbn [posed with_fpose fdep moment pick nth]. now rewrite seq_nth by exact Hb. Qed.
Lemma shot_vertex fr T l b h w c : b < fB fr -> vertex (shot fr T l) b 0 h w c = vertex fr b l h w c.
Proof. intros Hb. change (vertex (moment l fr) b 0 h w c = vertex fr b l h w c). unfold moment. rewrite RgbdOps.pick_vertex. cbn [nth]. now rewrite seq_nth by exact Hb. Qed.
Lemma shot_normal fr T l b h w c : b < fB fr -> normal (shot fr T l) b 0 h w c = normal fr b l h w c.
Proof. intros Hb. change (normal (moment l fr) b 0 h w c = normal fr b l h w c). unfold moment. rewrite RgbdOps.pick_normal. cbn [nth]. now rewrite seq_nth by exact Hb. Qed.
Lemma shot_observed fr T l b h w x : b < fB fr -> x <> Features -> measured fr b l h w -> veq 3 (frame_attr (shot fr T l) x b h w) (observed fr T x b l h w).
Proof.
  intros Hb Hx (_ & _ & _ & Hd) c Hc. destruct x; [| | |congruence]; cbn [frame_attr observed].
  - unfold global_vertex. cbn [fpose posed with_fpose]. change (with_fpose _ (moment l fr)) with (shot fr T l). rewrite shot_dep by exact Hb. unfold keep.
    destruct (Rlt_dec 0 (fdep fr b l h w)); [|lra]. unfold act, mvec. f_equal. cbn [rsum]. now rewrite !shot_vertex by exact Hb.
  - unfold global_normal. cbn [fpose posed with_fpose]. change (with_fpose _ (moment l fr)) with (shot fr T l). unfold mvec. cbn [rsum]. now rewrite !shot_normal by exact Hb.
  - cbn [posed with_fpose frgb moment pick nth]. now rewrite seq_nth by exact Hb.
Qed.
Lemma shot_chosen fr T l b h w : b < fB fr -> l < fL fr -> In (h, w) (chosen true (shot fr T l) b) -> measured fr b l h w.
Proof. intros Hb Hl H. apply chosen_in in H. cbn [fst snd] in H. rewrite shot_dep in H by exact Hb. destruct H as (H1 & H2 & H3). repeat split; assumption. Qed.
(* with a non-negative threshold on the inner product only measured pixels are matched *)
Lemma matched_measured fr T l b n h w a d t rows : b < fB fr -> l < fL fr -> len_view RF a = fB fr -> (0 <= t)%R -> Correspondences a (shot fr T l) (fun b _ => T b l) d t rows ->
  matched rows b n h w -> measured fr b l h w.
Proof.
  intros Hb Hl HB Ht (_ & _ & HM & _) M. destruct (HM b n h w M) as (HP & HS & _ & HN). cbn [rb rn rh rw] in HN.
  apply seen_in_image in HS; [|change (fB (moment l fr) = len_view RF a); rewrite moment_B; congruence|exact HP]. destruct HS as (_ & H1 & H2).
  split; [exact Hl|]. split; [exact H1|]. split; [exact H2|].
  destruct (Rlt_dec 0 (fdep fr b l h w)) as [Hd|Hd]; [exact Hd|].
  exfalso. unfold frame_normal, global_normal in HN. cbn [fpose posed with_fpose rb rh rw] in HN. change (with_fpose _ (moment l fr)) with (shot fr T l) in HN.
  unfold dot, mvec in HN. cbn [rsum] in HN. rewrite !shot_normal in HN by exact Hb. unfold normal, keep in HN. destruct (Rlt_dec 0 (fdep fr b l h w)); [contradiction|]. lra.
Qed.
Lemma traj_len c fr n maps T : Trajectory c fr n maps T -> 0 < n -> len_view RF (maps n) = fB fr.
Proof.
  intros [_ H] Hn. destruct n as [|n]; [lia|]. destruct (H n ltac:(lia)) as [_ [HB HM]].
  destruct (s_map c); [destruct HM as [(_ & _ & K) _]|destruct HM as [_ (rows & (K & _) & _)]]; rewrite K; apply moment_B.
Qed.

Section Hull.
  Variables (c : slam) (fr : frames) (T : nat -> nat -> mat) (maps : nat -> batch RF) (n : nat).
  Hypothesis HT : Trajectory c fr n maps T.
  Hypothesis Hn : n <= fL fr.
  Hypothesis Hf : facing c.
  Lemma prefix m : m <= n -> Trajectory c fr m maps T.
  Proof using HT. clear Hn Hf. destruct HT as [H0 H]. intros Hm. split; [exact H0|]. intros l Hl. apply H. lia. Qed.

  (* a property of the single points that holds of new points and survives averaging and aggregation *)
  Lemma fused_conf d t s m b i : s_map c = Fusion d t s -> m <= n -> b < fB fr -> i < npoints (maps m) b ->
    (/ 10000000 <= conf (maps m) b i <= INR m)%R.
  Proof using HT Hn.
    clear Hf. intros Hs. revert i. induction m as [|m IH]; intros i Hm Hb Hi.
    - rewrite (proj1 HT) in Hi. cbn in Hi. lia.
    - destruct (proj2 HT m ltac:(lia)) as [_ [_ K]]. rewrite Hs in K. destruct K as (_ & rows & [_ KF] & KC).
      destruct (KF b) as (K1 & K2 & K3 & K4 & K5); [change (b < fB (moment m fr)); now rewrite moment_B|]. cbv zeta in *. rewrite S_INR.
      assert (P : forall i, i < npoints (maps m) b -> (/ 10000000 <= conf (maps m) b i <= INR m)%R) by (intros j Hj; apply IH; [lia|exact Hb|exact Hj]).
      destruct (lt_dec i (npoints (maps m) b)) as [G|G].
      + specialize (P i G). destruct (match_cases rows b i) as [(h & w & M)|U].
        * destruct (K4 i h w M) as [E _]. rewrite E. pose proof (alpha_range (sigma_val s) (vertex (shot fr T m) b 0 h w)) as A. unfold frame_alpha. lra.
        * assert (NZ : conf (maps m) b i <> 0%R) by (apply Rgt_not_eq; lra). unfold conf at 1 2. rewrite (K2 i G U (or_introl NZ) Features 0 ltac:(cbn; lia)). fold (conf (maps m) b i). lra.
      + destruct (nth_error (fresh_pixels rows (shot fr T m) b) (i - npoints (maps m) b)) as [[h w]|] eqn:E; [|apply nth_error_None in E; lia].
        destruct (K5 _ h w E) as [E1 _]. replace (npoints (maps m) b + (i - npoints (maps m) b)) with i in E1 by lia. rewrite E1.
        pose proof (alpha_range (sigma_val s) (vertex (shot fr T m) b 0 h w)) as A. pose proof (pos_INR m). unfold frame_alpha. lra.
  Qed.
  Lemma aggregated_pixels x m b : s_map c = Aggregate -> x <> Features -> m <= n -> b < fB fr ->
    rows_of (maps m) x b = map (fun k => map (frame_attr (shot fr T (fst k)) x b (fst (snd k)) (snd (snd k))) [0; 1; 2])
      (concat (map (fun l => map (pair l) (chosen true (shot fr T l) b)) (seq 0 m))).
  Proof using HT.
    intros Hs Hx Hm Hb. rewrite (p_aggregated c fr m maps T x b Hs (prefix m Hm) Hx Hb). rewrite concat_map, map_map. f_equal. apply map_ext. intros l.
    unfold frame_rows. rewrite map_map. reflexivity.
  Qed.
  Lemma hull_aggregated S x m b i : s_map c = Aggregate -> x <> Features -> m <= n -> b < fB fr -> i < npoints (maps m) b ->
    (forall u v, veq 3 u v -> S u -> S v) -> (forall l h w, l < n -> measured fr b l h w -> S (observed fr T x b l h w)) -> S (attr_at (maps m) x b i).
  Proof using HT Hn.
    intros Hs Hx Hm Hb Hi CE HS. rewrite npoints_rows, (aggregated_pixels Points m b Hs ltac:(discriminate) Hm Hb), map_length in Hi.
    set (L := concat _) in Hi. destruct (nth_error L i) as [[l [h w]]|] eqn:E; [|apply nth_error_None in E; lia].
    assert (Me : l < m /\ measured fr b l h w).
    { apply nth_error_In in E. apply in_concat in E. destruct E as (y & Y1 & Y2). apply in_map_iff in Y1. destruct Y1 as (l' & <- & Y1). apply in_seq in Y1.
      apply in_map_iff in Y2. destruct Y2 as (q & Y2 & Y3). injection Y2 as -> ->. split; [lia|]. apply (shot_chosen fr T l b h w Hb ltac:(lia) Y3). }
    destruct Me as [Hl Me]. eapply CE; [|apply (HS l h w ltac:(lia) Me)]. intros j Hj. rewrite attr_rows, (aggregated_pixels x m b Hs Hx Hm Hb). fold L.
    rewrite (nth_error_nth (map _ L) i [] (map_nth_error _ i L E)). cbn [fst snd].
    destruct j as [|[|[|j]]]; [| | |lia]; cbn [map nth]; symmetry; apply (shot_observed fr T l b h w x Hb Hx Me); lia.
  Qed.
  Lemma hull_map S x m b : convex S -> x <> Features -> m <= n -> b < fB fr ->
    (forall l h w, l < n -> measured fr b l h w -> S (observed fr T x b l h w)) -> forall i, i < npoints (maps m) b -> S (attr_at (maps m) x b i).
  Proof using HT Hn Hf.
    intros [CE CC] Hx Hm Hb HS. 
    assert (Wd : forall j, j < 3 -> j < wd x) by (intros; destruct x; cbn; [lia|lia|lia|congruence]).
    induction m as [|m IH]; intros i Hi.
    - rewrite (proj1 HT) in Hi. cbn in Hi. lia.
    - specialize (IH ltac:(lia)). pose proof (proj2 HT m ltac:(lia)) as [_ [HBt K]]. pose proof Hf as Hf'. unfold facing in Hf'. destruct (s_map c) as [|d t s] eqn:Hs.
      + exact (hull_aggregated S x (Datatypes.S m) b i Hs Hx Hm Hb Hi CE HS).
      + destruct K as (_ & rows & [KL KF] & KC).
        destruct (KF b) as (K1 & K2 & K3 & K4 & K5); [change (b < fB (moment m fr)); now rewrite moment_B|]. cbv zeta in *.
        destruct (lt_dec i (npoints (maps m) b)) as [G|G].
        * pose proof (fused_conf d t s m b i Hs ltac:(lia) Hb G) as P. destruct (match_cases rows b i) as [(h & w & M)|U].
          -- destruct (K4 i h w M) as [_ E]. assert (Me : measured fr b m h w).
             { destruct m as [|m]; [rewrite (proj1 HT) in G; cbn in G; lia|]. destruct (qp (maps (Datatypes.S m))) eqn:EP; [|subst rows; destruct M].
               destruct KC as (T1 & ET & KC). cbn in ET. injection ET as <-. eapply (matched_measured fr T (Datatypes.S m) b i h w _ d t rows); try eassumption; try lia.
               apply (traj_len c fr _ maps T); [apply prefix; lia|lia]. }
             pose proof (alpha_range (sigma_val s) (vertex (shot fr T m) b 0 h w)) as A. fold (frame_alpha (sigma_val s) (shot fr T m) b h w) in A.
             set (al := frame_alpha (sigma_val s) (shot fr T m) b h w) in *. set (c0 := conf (maps m) b i) in *.
             apply (CE (fun j => (1 - al / (c0 + al)) * attr_at (maps m) x b i j + al / (c0 + al) * observed fr T x b m h w j)%R).
             ++ intros j Hj. rewrite (E x j Hx Hj). rewrite (shot_observed fr T m b h w x Hb Hx Me j Hj). unfold wmean. field. lra.
             ++ apply CC; [|apply IH; exact G|apply HS; [lia|exact Me]]. split; [apply Rlt_le, Rdiv_lt_0_compat; lra|]. apply Rmult_le_reg_r with (c0 + al)%R; [lra|]. unfold Rdiv. rewrite Rmult_assoc, Rinv_l by lra. lra.
          -- eapply CE; [|exact (IH i G)]. intros j Hj. symmetry. apply K2; [exact G|exact U|left; apply Rgt_not_eq; lra|auto].
        * destruct (nth_error (fresh_pixels rows (shot fr T m) b) (i - npoints (maps m) b)) as [[h w]|] eqn:E; [|apply nth_error_None in E; lia].
          destruct (K5 _ h w E) as [_ E1]. replace (npoints (maps m) b + (i - npoints (maps m) b)) with i in E1 by lia.
          assert (Me : measured fr b m h w). { apply (shot_chosen fr T m b h w Hb ltac:(lia)). apply nth_error_In in E. apply filter_In in E. apply E. }
          eapply CE; [|apply (HS m h w ltac:(lia) Me)]. intros j Hj. rewrite (E1 x j Hx Hj). symmetry. now apply shot_observed.
  Qed.
End Hull.
