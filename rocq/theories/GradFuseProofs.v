(* C82: derivatives of fused maps where the correspondences do not change. *)
From Coq Require Import Reals List Arith Bool ZArith Lia Lra Sorting.Sorted.
From Verif Require Import Res Fld StructUtilsModel PointcloudsModel PointcloudsSpec PointcloudsHist MatSpec GeomSpec TensorModel RgbdModel RgbdSpec RgbdProofs RgbdPropProofs FusionModel FusionSpec FusionPropProofs FusionPropProofs2
  Se3Model SolveModel IcpModel IcpSpec OdomSpec SlamModel SlamSpec SlamProofs SlamPropProofs BatchProofs GradSpec GradProofs GradMapProofs TableProofs.
Import ListNotations. Import FusionSpec.
Local Open Scope nat_scope.

Lemma seen_in u g Tg n h w c : seen_at u g Tg c n h w -> h < fH g /\ w < fW g.
Proof.
  intros (_ & (A & B) & (C & _) & (D & _)).
  assert (G : forall z N k, (z < INR N - 1 + / 1000)%R -> (Rabs (z - INR k) <= 1 / 2)%R -> k < N).
  { intros z N k Hz Hr. apply INR_lt. assert (Hk : (INR k - z <= 1/2)%R). { rewrite <- Rabs_Ropp in Hr. apply (Rle_trans _ (Rabs (- (z - INR k)))); [|exact Hr]. replace (INR k - z)%R with (- (z - INR k))%R by ring. apply Rle_abs. } lra. }
  split; eapply G; try eassumption; [apply B|apply A].
Qed.
Lemma nearest_sq z k : Rabs (z - INR k) <> (1 / 2)%R -> (nearest z k <-> (z - INR k) * (z - INR k) < 1 / 4)%R.
Proof.
  intros N. unfold nearest. assert (E : ((z - INR k) * (z - INR k) = Rabs (z - INR k) * Rabs (z - INR k))%R) by (rewrite <- Rabs_mult, Rabs_pos_eq; [reflexivity|]; pose proof (Rle_0_sqr (z - INR k)) as S; exact S).
  rewrite E. pose proof (Rabs_pos (z - INR k)) as P. split.
  - intros [H _]. replace (1 / 4)%R with (1 / 2 * (1 / 2))%R by lra. apply Rmult_le_0_lt_compat; lra.
  - intros H. split; [|contradiction]. destruct (Rle_lt_dec (Rabs (z - INR k)) (1 / 2)) as [L|L]; [exact L|]. exfalso.
    assert (1 / 2 * (1 / 2) < Rabs (z - INR k) * Rabs (z - INR k))%R by (apply Rmult_le_0_lt_compat; lra). lra.
Qed.
Lemma nearest_near (f : R -> R) x0 k : differentiable f x0 -> Rabs (f x0 - INR k) <> (1 / 2)%R -> near x0 (fun x => nearest (f x) k <-> nearest (f x0) k).
Proof.
  intros D N. set (s := fun x => ((f x - INR k) * (f x - INR k))%R). assert (DS : differentiable s x0) by (apply diff_mult; apply diff_minus; try exact D; apply diff_const).
  assert (NS : s x0 <> (1 / 4)%R).
  { intros E. unfold s in E. assert (Z : ((f x0 - INR k - 1 / 2) * (f x0 - INR k + 1 / 2) = 0)%R) by lra. apply Rmult_integral in Z. apply N.
    destruct Z as [Z|Z]; [rewrite Rabs_pos_eq; lra|rewrite Rabs_left; lra]. }
  refine (near_imp _ _ _ _ (near_and _ _ _ (diff_lt s (fun _ => 1 / 4)%R x0 DS (diff_const _ _) NS) (diff_lt (fun _ => 1 / 4)%R s x0 (diff_const _ _) DS (not_eq_sym NS)))).
  intros x [H1 H2]. assert (NX : Rabs (f x - INR k) <> (1 / 2)%R).
  { intros E. assert (E2 : s x = (1 / 4)%R). { unfold s. destruct (Rcase_abs (f x - INR k)) as [L|L]; [rewrite Rabs_left in E by exact L|rewrite Rabs_right in E by exact L]; [replace (f x - INR k)%R with (- (1 / 2))%R by lra|rewrite E]; lra. }
    rewrite E2 in H1, H2. destruct (Rtotal_order (s x0) (1 / 4)) as [L|[L|L]]; [|contradiction|]; [apply H1 in L|apply H2 in L]; lra. }
  rewrite !nearest_sq by assumption. exact H1.
Qed.
Lemma norm_lt u d : (norm 3 u < d <-> 0 < d /\ dot 3 u u < d * d)%R.
Proof.
  unfold norm. pose proof (dot_nonneg 3 u) as P. pose proof (sqrt_pos (dot 3 u u)) as Q. split.
  - intros H. split; [lra|]. rewrite <- (sqrt_sqrt _ P). apply Rmult_le_0_lt_compat; lra.
  - intros [H1 H2]. rewrite <- (sqrt_square d) by lra. apply sqrt_lt_1; [exact P|apply Rle_0_sqr|exact H2].
Qed.
Lemma norm_lt_near (u : R -> vec) d x0 : (forall k, k < 3 -> differentiable (fun x => u x k) x0) -> norm 3 (u x0) <> d -> near x0 (fun x => norm 3 (u x) < d <-> norm 3 (u x0) < d)%R.
Proof.
  intros D N. destruct (Rlt_le_dec 0 d) as [P|P]; [|apply near_all; intros x; rewrite !norm_lt; lra].
  assert (NS : dot 3 (u x0) (u x0) <> (d * d)%R). { intros E. apply N. unfold norm. rewrite E. apply sqrt_square. lra. }
  refine (near_imp _ _ _ _ (diff_lt (fun x => dot 3 (u x) (u x)) (fun _ => d * d)%R x0 (diff_dot _ _ _ _ D D) (diff_const _ _) NS)). intros x H. rewrite !norm_lt. tauto.
Qed.

Section Fuse.
  Variables (F : R -> frames) (T : R -> nat -> nat -> mat) (A A' : R -> batch RF) (r0 : list row) (x0 d t sg : R) (B : nat).
  Hypothesis SF : smooth_frames F x0.
  Hypothesis HL : fL (F x0) = 1.
  Hypothesis HB : fB (F x0) = B.
  Hypothesis HH : 2 <= fH (F x0).
  Hypothesis HW : 2 <= fW (F x0).
  Hypothesis NZ : no_zero_depth (F x0).
  Hypothesis ET : forall x, fpose (F x) = Some (T x).
  Hypothesis LV : forall x, qp (A x) <> None -> len_view RF (A x) = B.
  Hypothesis SM : smooth_map B A x0.
  Hypothesis GS : generic_step (A x0) (F x0) (T x0) d t sg.

  Lemma d_pose b i j : b < B -> i < 4 -> j < 4 -> differentiable (fun x => T x b 0 i j) x0.
  Proof.
    intros Hb Hi Hj. pose proof SF as (_ & _ & _ & _ & _ & [P|(T0 & P & Q)] & _); [specialize (P x0); rewrite ET in P; discriminate P|].
    apply (diff_ext _ (fun x => T0 x b 0 i j)); [|apply Q; lia]. intros x. specialize (P x). rewrite ET in P. now injection P as ->.
  Qed.
  Lemma d_K b i j : b < B -> i < 4 -> j < 4 -> differentiable (fun x => fK (F x) b i j) x0.
  Proof. pose proof SF as (_ & _ & _ & K & _). intros Hb. apply K. lia. Qed.
  Lemma np_none a b : npoints a b <> 0 -> qp a <> None (A := list (t2 RF)).
  Proof. unfold npoints. destruct (qp a); [discriminate|intros H; now elim H]. Qed.
  Lemma real_iff b n : b < B -> near x0 (fun x => real_point (A x) b n <-> real_point (A x0) b n).
  Proof.
    intros Hb. refine (near_imp _ _ _ _ (proj1 (SM b Hb))). intros x E. unfold real_point. rewrite E. split; intros [_ H]; (split; [|exact H]); rewrite LV; try exact Hb; apply (np_none _ b); lia.
  Qed.
  Lemma d_cam b n i : b < B -> n < npoints (A x0) b -> i < 3 -> differentiable (fun x => to_camera (T x b 0) (attr_at (A x) Points b n) i) x0.
  Proof.
    intros Hb Hn Hi. unfold to_camera. apply (diff_rsum 3 (fun x k => T x b 0 k i * (attr_at (A x) Points b n k - T x b 0 k 3%nat))%R). intros k Hk.
    apply diff_mult; [apply d_pose; lia|]. apply diff_minus; [apply (proj2 (SM b Hb) Points n k Hn); cbn; lia|apply d_pose; lia].
  Qed.
  Lemma d_proj b n i : b < B -> n < npoints (A x0) b -> i < 3 -> differentiable (fun x => mvec 4 (fK (F x) b) (hom 3 (to_camera (T x b 0) (attr_at (A x) Points b n))) i) x0.
  Proof.
    intros Hb Hn Hi. unfold mvec. apply (diff_rsum 4 (fun x k => fK (F x) b i k * hom 3 (to_camera (T x b 0) (attr_at (A x) Points b n)) k)%R). intros k Hk.
    apply diff_mult; [apply d_K; lia|]. unfold hom. destruct (Nat.ltb_spec k 3); [now apply d_cam|apply diff_const].
  Qed.
  Lemma seen_near b n h w : b < B -> real_point (A x0) b n -> near x0 (fun x => seen_at (A x) (F x) (T x) b n h w <-> seen_at (A x0) (F x0) (T x0) b n h w).
  Proof.
    intros Hb RP. pose proof RP as [_ Hn]. destruct GS as (G & _). destruct (G b n RP) as [Z0 G1]. clear G. set (q := fun x => to_camera (T x b 0) (attr_at (A x) Points b n)) in *.
    change (to_camera (T x0 b 0) (attr_at (A x0) Points b n)) with (q x0) in *.
    assert (Dq : differentiable (fun x => q x 2%nat) x0) by (apply d_cam; (assumption || lia)).
    destruct (Rtotal_order (q x0 2%nat) 0) as [L|[L|L]]; [|contradiction|].
    - refine (near_imp _ _ _ _ (diff_neg _ _ Dq L)). intros x Hx. unfold seen_at. change (to_camera (T x b 0) (attr_at (A x) Points b n)) with (q x). change (to_camera (T x0 b 0) (attr_at (A x0) Points b n)) with (q x0).
      split; intros [H _]; lra.
    - destruct (G1 L) as (ND & (U1 & U2 & V1 & V2) & UV). clear G1. set (p := fun x => mvec 4 (fK (F x) b) (hom 3 (q x))) in *.
      assert (Dp : forall i, i < 3 -> differentiable (fun x => p x i) x0) by (intros i Hi; apply d_proj; assumption).
      set (uv := fun x => image_pos (fK (F x) b) (q x)) in *. change (image_pos (fK (F x0) b) (q x0)) with (uv x0) in *. change (mvec 4 (fK (F x0) b) (hom 3 (q x0)) 2%nat) with (p x0 2%nat) in ND.
      assert (NP : near x0 (fun x => p x 2%nat <> 0%R)).
      { destruct (Rtotal_order (p x0 2%nat) 0) as [LL|[LL|LL]]; [|contradiction|].
        - refine (near_imp _ _ _ _ (diff_neg _ _ (Dp 2 ltac:(lia)) LL)). intros x Hx; lra.
        - refine (near_imp _ _ _ _ (diff_pos _ _ (Dp 2 ltac:(lia)) LL)). intros x Hx; lra. }
      assert (DU : forall i, i < 3 -> differentiable (fun x => uv x i) x0).
      { intros i Hi. apply (diff_near _ (fun x => p x i / p x 2%nat)%R); [|apply diff_div; auto]. refine (near_imp _ _ _ _ NP). intros x Hx. unfold uv, image_pos, project_spec, persp. fold (p x).
        destruct (Req_EM_T (p x 2%nat) 0); [contradiction|reflexivity]. }
      pose proof (diff_pos _ _ Dq L) as N1.
      pose proof (diff_lt (fun _ => - / 1000)%R (fun x => uv x 0%nat) x0 (diff_const _ _) (DU 0 ltac:(lia)) (not_eq_sym U1)) as N2.
      pose proof (diff_lt (fun x => uv x 0%nat) (fun _ => INR (fW (F x0)) - 1 + / 1000)%R x0 (DU 0 ltac:(lia)) (diff_const _ _) U2) as N3.
      pose proof (diff_lt (fun _ => - / 1000)%R (fun x => uv x 1%nat) x0 (diff_const _ _) (DU 1 ltac:(lia)) (not_eq_sym V1)) as N4.
      pose proof (diff_lt (fun x => uv x 1%nat) (fun _ => INR (fH (F x0)) - 1 + / 1000)%R x0 (DU 1 ltac:(lia)) (diff_const _ _) V2) as N5.
      pose proof (nearest_near (fun x => uv x 1%nat) x0 h (DU 1 ltac:(lia)) (proj2 (UV h))) as N6. pose proof (nearest_near (fun x => uv x 0%nat) x0 w (DU 0 ltac:(lia)) (proj1 (UV w))) as N7.
      refine (near_imp _ _ _ _ (near_and _ _ _ N1 (near_and _ _ _ N2 (near_and _ _ _ N3 (near_and _ _ _ N4 (near_and _ _ _ N5 (near_and _ _ _ N6 N7))))))).
      intros x (K1 & K2 & K3 & K4 & K5 & K6 & K7). unfold seen_at. change (to_camera (T x b 0) (attr_at (A x) Points b n)) with (q x). change (to_camera (T x0 b 0) (attr_at (A x0) Points b n)) with (q x0).
      change (image_pos (fK (F x) b) (q x)) with (uv x). change (image_pos (fK (F x0) b) (q x0)) with (uv x0). cbv zeta. unfold in_rectangle. destruct (sizes_eq F x0 SF x) as (_ & _ & -> & ->).
      rewrite K6, K7. tauto.
  Qed.
  Lemma in_img b h w : b < B -> h < fH (F x0) -> w < fW (F x0) -> inside (F x0) b 0 h w.
  Proof. intros. repeat split; lia. Qed.
  Lemma d_gv b h w j : b < B -> h < fH (F x0) -> w < fW (F x0) -> j < 3 -> differentiable (fun x => global_vertex (F x) b 0 h w j) x0.
  Proof. intros Hb Hh Hw Hj. pose proof (in_img b h w Hb Hh Hw) as I. apply d_gvertex; [exact SF|exact I|exact Hj|now apply NZ]. Qed.
  Lemma d_gn b h w j : b < B -> h < fH (F x0) -> w < fW (F x0) -> j < 3 -> differentiable (fun x => global_normal (F x) b 0 h w j) x0.
  Proof.
    intros Hb Hh Hw Hj. pose proof (in_img b h w Hb Hh Hw) as I. apply d_gnormal; try assumption. intros P. destruct GS as (_ & _ & _ & G). exact (proj2 (G b h w I P)).
  Qed.
  Lemma cand_near b n h w : b < B -> n < npoints (A x0) b -> near x0 (fun x => candidate (A x) (F x) (T x) d t b n h w <-> candidate (A x0) (F x0) (T x0) d t b n h w).
  Proof.
    intros Hb Hn. pose proof (real_iff b n Hb) as NR. assert (RP : real_point (A x0) b n). { split; [|exact Hn]. rewrite LV; [exact Hb|]. apply (np_none _ b). lia. }
    pose proof (seen_near b n h w Hb RP) as NS.
    destruct (Classical_Prop.classic (seen_at (A x0) (F x0) (T x0) b n h w)) as [S|S]; [|refine (near_imp _ _ _ _ NS); intros x H; unfold candidate; tauto].
    destruct (seen_in _ _ _ _ _ _ _ S) as [Hh Hw]. destruct GS as (_ & G & _). destruct (G b n h w RP S) as [G1 G2]. clear G.
    assert (DP : forall k, k < 3 -> differentiable (fun x => attr_at (A x) Points b n k) x0) by (intros k Hk; apply (proj2 (SM b Hb) Points); [exact Hn|cbn; lia]).
    assert (DN : forall k, k < 3 -> differentiable (fun x => attr_at (A x) Normals b n k) x0) by (intros k Hk; apply (proj2 (SM b Hb) Normals); [exact Hn|cbn; lia]).
    pose proof (norm_lt_near (fun x k => global_vertex (F x) b 0 h w k - attr_at (A x) Points b n k)%R d x0 ltac:(intros k Hk; apply diff_minus; [now apply d_gv|now apply DP]) G1) as N1.
    pose proof (diff_lt (fun _ => t) (fun x => dot 3 (global_normal (F x) b 0 h w) (attr_at (A x) Normals b n)) x0 (diff_const _ _)
      (diff_dot 3 (fun x => global_normal (F x) b 0 h w) (fun x => attr_at (A x) Normals b n) x0 ltac:(intros k Hk; now apply d_gn) DN) (not_eq_sym G2)) as N2.
    refine (near_imp _ _ _ _ (near_and _ _ _ NR (near_and _ _ _ NS (near_and _ _ _ N1 N2)))). intros x (K1 & K2 & K3 & K4). unfold candidate, similar, distance, frame_point, frame_normal. cbn [rb rn rh rw]. tauto.
  Qed.
  Lemma no_cand b n h w x : npoints (A x) b <= n -> ~ candidate (A x) (F x) (T x) d t b n h w.
  Proof. intros H [[_ K] _]. lia. Qed.
  Lemma cands_near b : b < B -> near x0 (fun x => forall n h w, candidate (A x) (F x) (T x) d t b n h w <-> candidate (A x0) (F x0) (T x0) d t b n h w).
  Proof.
    intros Hb. apply (near_imp _ (fun x => npoints (A x) b = npoints (A x0) b /\ forall n, n < npoints (A x0) b -> forall h, h < fH (F x0) -> forall w, w < fW (F x0) ->
      (candidate (A x) (F x) (T x) d t b n h w <-> candidate (A x0) (F x0) (T x0) d t b n h w))).
    - intros x [E H] n h w. destruct (Nat.lt_ge_cases n (npoints (A x0) b)) as [L|L]; [|split; intros K; exfalso; revert K; apply no_cand; lia].
      destruct (Nat.lt_ge_cases h (fH (F x0))) as [Lh|Lh]; [destruct (Nat.lt_ge_cases w (fW (F x0))) as [Lw|Lw]; [now apply H|]|];
        (destruct (sizes_eq F x0 SF x) as (_ & _ & EH & EW)); split; intros (_ & K & _); destruct (seen_in _ _ _ _ _ _ _ K); lia.
    - apply near_and; [apply (SM b Hb)|]. apply (near_lt x0 _ (fun n x => forall h, h < fH (F x0) -> forall w, w < fW (F x0) -> candidate (A x) (F x) (T x) d t b n h w <-> candidate (A x0) (F x0) (T x0) d t b n h w)). intros n Hn.
      apply (near_lt x0 _ (fun h x => forall w, w < fW (F x0) -> candidate (A x) (F x) (T x) d t b n h w <-> candidate (A x0) (F x0) (T x0) d t b n h w)). intros h Hh.
      apply (near_lt x0 _ (fun w x => candidate (A x) (F x) (T x) d t b n h w <-> candidate (A x0) (F x0) (T x0) d t b n h w)). intros w Hw. now apply cand_near.
  Qed.
  Lemma conf_near b n n' : b < B -> n < npoints (A x0) b -> n' < npoints (A x0) b -> conf (A x0) b n <> conf (A x0) b n' ->
    near x0 (fun x => (conf (A x) b n < conf (A x) b n' <-> conf (A x0) b n < conf (A x0) b n')%R /\ conf (A x) b n <> conf (A x) b n').
  Proof.
    intros Hb Hn Hn' N. assert (D : forall m, m < npoints (A x0) b -> differentiable (fun x => conf (A x) b m) x0) by (intros m Hm; apply (proj2 (SM b Hb) Features m 0 Hm); cbn; lia).
    refine (near_imp _ _ _ _ (near_and _ _ _ (diff_lt _ _ _ (D n Hn) (D n' Hn') N) (diff_lt _ _ _ (D n' Hn') (D n Hn) (not_eq_sym N)))). intros x [H1 H2]. split; [exact H1|].
    destruct (Rtotal_order (conf (A x0) b n) (conf (A x0) b n')) as [L|[L|L]]; [apply H1 in L; lra|contradiction|apply H2 in L; lra].
  Qed.
  Definition table_of (x : R) (rows : list row) : Prop := match qp (A x) with None => rows = [] | Some _ => Correspondences (A x) (F x) (T x) d t rows end.
  Hypothesis TB : table_of x0 r0.
  Lemma rows_near b : b < B -> near x0 (fun x => forall rows, table_of x rows -> at_b b rows = at_b b r0).
  Proof.
    intros Hb.
    assert (NG : near x0 (fun x => forall n, n < npoints (A x0) b -> forall n', n' < npoints (A x0) b -> conf (A x0) b n <> conf (A x0) b n' ->
        (conf (A x) b n < conf (A x) b n' <-> conf (A x0) b n < conf (A x0) b n')%R /\ conf (A x) b n <> conf (A x) b n')).
    { apply (near_lt x0 _ (fun n x => forall n', n' < npoints (A x0) b -> conf (A x0) b n <> conf (A x0) b n' -> (conf (A x) b n < conf (A x) b n' <-> conf (A x0) b n < conf (A x0) b n')%R /\ conf (A x) b n <> conf (A x) b n')).
      intros n Hn. apply (near_lt x0 _ (fun n' x => conf (A x0) b n <> conf (A x0) b n' -> (conf (A x) b n < conf (A x) b n' <-> conf (A x0) b n < conf (A x0) b n')%R /\ conf (A x) b n <> conf (A x) b n')). intros n' Hn'.
      destruct (Req_dec (conf (A x0) b n) (conf (A x0) b n')) as [E|N]; [apply near_all; intros y Hy; contradiction|]. refine (near_imp _ _ _ _ (conf_near b n n' Hb Hn Hn' N)). auto. }
    refine (near_imp _ _ _ _ (near_and _ _ _ (cands_near b Hb) (near_and _ _ _ NG (proj1 (SM b Hb))))). intros x (HC & HG & EN) rows TX.
    assert (NO : forall z rw, table_of z rw -> npoints (A z) b = 0 -> at_b b rw = []).
    { intros z rw TZ E. unfold table_of in TZ. destruct (qp (A z)) as [P|]; [|now rewrite TZ]. destruct TZ as (_ & _ & TZ & _). destruct (at_b b rw) as [|[n [h w]] r] eqn:EA; [reflexivity|].
      assert (M : In (n, (h, w)) (at_b b rw)) by (rewrite EA; now left). apply at_b_in in M. destruct (TZ _ _ _ _ M) as ([_ K] & _). lia. }
    destruct (Nat.eq_dec (npoints (A x0) b) 0) as [Z|Z]; [rewrite (NO x rows TX), (NO x0 r0 TB) by lia; reflexivity|].
    pose proof TX as T1. pose proof TB as T2. unfold table_of in T1, T2.
    destruct (qp (A x)) eqn:E1; [|exfalso; apply (np_none (A x) b); [lia|exact E1]]. destruct (qp (A x0)) eqn:E2; [|exfalso; apply (np_none (A x0) b); [lia|exact E2]].
    apply (table_same (A x) (F x) (T x) d t rows (A x0) (F x0) (T x0) d t r0 b T1 T2); [exact HC|].
    intros n n' h w N C1 C2. apply HC in C1, C2. pose proof C1 as ([_ H1] & _). pose proof C2 as ([_ H2] & _). destruct GS as (_ & _ & G & _). pose proof (G b n n' h w N C1 C2) as NC.
    destruct (HG n H1 n' H2 NC) as [_ K1]. destruct (HG n' H2 n H1 (not_eq_sym NC)) as [K2 _]. unfold at_least_as_good. cbn [rb rn]. split; (intros [K|[K _]]; [left; tauto|contradiction]).
  Qed.
  Hypothesis FU : forall x, exists rows, table_of x rows /\ Fused sg (F x) rows (A x) (A' x).
  Hypothesis FU0 : Fused sg (F x0) r0 (A x0) (A' x0).
  Hypothesis PO : forall x b n, b < B -> n < npoints (A x) b -> (0 < conf (A x) b n)%R.
  Lemma d_alpha b h w : b < B -> h < fH (F x0) -> w < fW (F x0) -> (0 < fdep (F x0) b 0 h w)%R -> differentiable (fun x => frame_alpha sg (F x) b h w) x0.
  Proof.
    intros Hb Hh Hw P. pose proof (in_img b h w Hb Hh Hw) as I. destruct GS as (_ & _ & _ & G). destruct (G b h w I P) as [G1 _]. clear G.
    assert (DV : forall k, k < 3 -> differentiable (fun x => vertex (F x) b 0 h w k) x0) by (intros k Hk; apply d_vertex; [exact SF|exact I|exact Hk|lra]).
    assert (DG : differentiable (fun x => gaussian sg (vertex (F x) b 0 h w)) x0).
    { unfold gaussian. apply diff_exp. apply (diff_ext _ (fun x => - dot 3 (vertex (F x) b 0 h w) (vertex (F x) b 0 h w) * / (2 * sg ^ 2))%R).
      - intros x. unfold Rdiv. f_equal. f_equal. unfold norm. cbn [pow]. rewrite Rmult_1_r. apply sqrt_sqrt. apply dot_nonneg.
      - apply diff_mult; [apply diff_opp, diff_dot; exact DV|apply diff_const]. }
    unfold frame_alpha, alpha_spec. change (differentiable (fun x => Rmax (gaussian sg (vertex (F x) b 0 h w)) (/ 10000000)) x0).
    pose proof (diff_lt _ (fun _ => / 10000000)%R x0 DG (diff_const _ _) G1) as N1. pose proof (diff_lt (fun _ => / 10000000)%R _ x0 (diff_const _ _) DG (not_eq_sym G1)) as N2.
    destruct (Rtotal_order (gaussian sg (vertex (F x0) b 0 h w)) (/ 10000000)) as [L|[L|L]]; [|contradiction|].
    - apply (diff_near _ (fun _ => / 10000000)%R); [|apply diff_const]. refine (near_imp _ _ _ _ N1). intros x H. apply Rmax_right. apply Rlt_le. now apply H.
    - apply (diff_near _ (fun x => gaussian sg (vertex (F x) b 0 h w))); [|exact DG]. refine (near_imp _ _ _ _ N2). intros x H. apply Rmax_left. apply Rlt_le. now apply H.
  Qed.
  Lemma alpha_gt x b h w : (0 < frame_alpha sg (F x) b h w)%R.
  Proof. unfold frame_alpha, alpha_spec. apply Rlt_le_trans with (/ 10000000)%R; [lra|apply Rmax_r]. Qed.
  Lemma d_fattr X b h w j : X <> Features -> b < B -> h < fH (F x0) -> w < fW (F x0) -> j < 3 -> differentiable (fun x => frame_attr (F x) X b h w j) x0.
  Proof.
    intros HX Hb Hh Hw Hj. destruct X; cbn [frame_attr]; [now apply d_gv|now apply d_gn| |now elim HX].
    pose proof SF as (_ & C & _). apply C; [now apply in_img|exact Hj].
  Qed.
  Lemma fuse_smooth : smooth_map B A' x0.
  Proof.
    intros b Hb. pose proof (rows_near b Hb) as NR. pose proof (proj1 (SM b Hb)) as NP. pose proof (near_chosen F x0 b SF ltac:(lia) ltac:(lia) NZ) as NC.
    assert (FX : forall x, b < fB (F x)) by (intros x; destruct (sizes_eq F x0 SF x) as (-> & _); lia).
    set (fresh := fresh_pixels r0 (F x0) b).
    assert (NF : near x0 (fun x => forall rows, table_of x rows -> fresh_pixels rows (F x) b = fresh)).
    { refine (near_imp _ _ _ _ (near_and _ _ _ NR NC)). intros x [E1 E2] rows TX. unfold fresh. rewrite !fresh_at, (E1 rows TX), E2. reflexivity. }
    assert (N0 : npoints (A' x0) b = npoints (A x0) b + length fresh) by (destruct FU0 as [_ F0]; exact (proj1 (F0 b (FX x0)))).
    split.
    - refine (near_imp _ _ _ _ (near_and _ _ _ NF NP)). intros x [E1 E2]. rewrite N0. destruct (FU x) as (rows & TX & _ & F0). destruct (F0 b (FX x)) as (-> & _). rewrite (E1 rows TX), E2. reflexivity.
    - intros X n j Hn Hj. destruct (Nat.lt_ge_cases n (npoints (A x0) b)) as [L|L].
      + destruct (find (fun t => fst t =? n) (at_b b r0)) as [[m [h w]]|] eqn:EF.
        * apply find_some in EF. destruct EF as [EI EM]. cbn in EM. apply Nat.eqb_eq in EM. subst m.
          assert (RPZ : Correspondences (A x0) (F x0) (T x0) d t r0).
          { pose proof TB as Z. unfold table_of in Z. destruct (qp (A x0)) eqn:E0; [exact Z|]. rewrite Z in EI. destruct EI. }
          destruct RPZ as (_ & _ & C & _). apply at_b_in in EI. destruct (C _ _ _ _ EI) as (RP & Sn & _). destruct (seen_in _ _ _ _ _ _ _ Sn) as [Hh Hw].
          assert (MN : near x0 (fun x => forall rows, table_of x rows -> matched rows b n h w)). { refine (near_imp _ _ _ _ NR). intros x E rows TX. unfold matched. apply at_b_in. rewrite (E rows TX). now apply at_b_in. }
          assert (DC : differentiable (fun x => conf (A x) b n) x0) by (apply (proj2 (SM b Hb) Features n 0 L); cbn; lia).
          assert (DA : differentiable (fun x => frame_alpha sg (F x) b h w) x0).
          { destruct (Rtotal_order (fdep (F x0) b 0 h w) 0) as [Z|[Z|Z]]; [|destruct (NZ b 0 h w (in_img b h w Hb Hh Hw) Z)|now apply d_alpha].
            assert (V0 : near x0 (fun x => forall k, vertex (F x) b 0 h w k = 0%R)).
            { refine (near_imp _ _ _ _ (diff_neg _ _ (d_dep F x0 SF b 0 h w (in_img b h w Hb Hh Hw)) Z)). intros x Hx k. unfold vertex, keep. destruct (Rlt_dec 0 _); [lra|reflexivity]. }
            apply (diff_near _ (fun _ => frame_alpha sg (F x0) b h w)); [|apply diff_const]. refine (near_imp _ _ _ _ V0). intros x Hx. unfold frame_alpha, alpha_spec. do 5 f_equal. unfold norm, dot. cbn [rsum]. rewrite !Hx, !(near_at _ _ V0). reflexivity. }
          assert (Xc : X = Features \/ X <> Features) by (destruct X; (now left) || (right; discriminate)). destruct Xc as [->|HX].
          -- cbn in Hj. replace j with 0 by lia. apply (diff_near _ (fun x => conf (A x) b n + frame_alpha sg (F x) b h w)%R); [|now apply diff_plus].
             refine (near_imp _ _ _ _ MN). intros x M. destruct (FU x) as (rows & TX & _ & F0). destruct (F0 b (FX x)) as (_ & _ & _ & F1 & _). exact (proj1 (F1 n h w (M rows TX))).
          -- assert (Hj3 : j < 3) by (destruct X; cbn in Hj; lia).
             apply (diff_near _ (fun x => (conf (A x) b n * attr_at (A x) X b n j + frame_alpha sg (F x) b h w * frame_attr (F x) X b h w j) / (conf (A x) b n + frame_alpha sg (F x) b h w))%R).
             ++ refine (near_imp _ _ _ _ MN). intros x M. destruct (FU x) as (rows & TX & _ & F0). destruct (F0 b (FX x)) as (_ & _ & _ & F1 & _). exact (proj2 (F1 n h w (M rows TX)) X j HX Hj3).
             ++ apply diff_div; [apply diff_plus; apply diff_mult| |].
                ** exact DC.
                ** exact (proj2 (SM b Hb) X n j L Hj).
                ** exact DA.
                ** now apply d_fattr.
                ** now apply diff_plus.
                ** pose proof (PO x0 b n Hb L). pose proof (alpha_gt x0 b h w). lra.
        * assert (UN : near x0 (fun x => n < npoints (A x) b /\ forall rows, table_of x rows -> unmatched rows b n)).
          { refine (near_imp _ _ _ _ (near_and _ _ _ NP NR)). intros x [E1 E2]. split; [lia|]. intros rows TX h w M. apply at_b_in in M. rewrite (E2 rows TX) in M. apply (find_none _ _ EF) in M. cbn in M. now rewrite Nat.eqb_refl in M. }
          apply (diff_near _ (fun x => attr_at (A x) X b n j)); [|exact (proj2 (SM b Hb) X n j L Hj)]. refine (near_imp _ _ _ _ UN). intros x [H1 H2].
          destruct (FU x) as (rows & TX & _ & F0). destruct (F0 b (FX x)) as (_ & F1 & _). apply (F1 n H1 (H2 rows TX)); [ |exact Hj]. left. pose proof (PO x b n Hb H1). lra.
      + destruct (nth_error fresh (n - npoints (A x0) b)) as [[h w]|] eqn:EN; [|apply nth_error_None in EN; lia].
        assert (IC : In (h, w) (chosen true (F x0) b)) by (apply nth_error_In in EN; unfold fresh, fresh_pixels in EN; apply filter_In in EN; apply EN).
        assert (PX : h < fH (F x0) /\ w < fW (F x0) /\ (0 < fdep (F x0) b 0 h w)%R).
        { unfold chosen in IC. apply filter_In in IC. destruct IC as [I1 I2]. unfold row_major in I1. apply in_prod_iff in I1. rewrite !in_seq in I1. cbn [fst snd] in I2. destruct (Rlt_dec 0 _); [|discriminate]. repeat split; (lia || assumption). }
        destruct PX as (Hh & Hw & Hd). assert (NN : near x0 (fun x => npoints (A x) b + (n - npoints (A x0) b) = n /\ forall rows, table_of x rows -> nth_error (fresh_pixels rows (F x) b) (n - npoints (A x0) b) = Some (h, w))).
        { refine (near_imp _ _ _ _ (near_and _ _ _ NF NP)). intros x [E1 E2]. split; [lia|]. intros rows TX. rewrite (E1 rows TX). exact EN. }
        assert (Xc : X = Features \/ X <> Features) by (destruct X; (now left) || (right; discriminate)). destruct Xc as [->|HX].
        * cbn in Hj. replace j with 0 by lia. apply (diff_near _ (fun x => frame_alpha sg (F x) b h w)); [|now apply d_alpha]. refine (near_imp _ _ _ _ NN). intros x [E1 E2].
          destruct (FU x) as (rows & TX & _ & F0). destruct (F0 b (FX x)) as (_ & _ & _ & _ & F1). destruct (F1 _ h w (E2 rows TX)) as [F2 _]. rewrite E1 in F2. exact F2.
        * assert (Hj3 : j < 3) by (destruct X; cbn in Hj; lia). apply (diff_near _ (fun x => frame_attr (F x) X b h w j)); [|now apply d_fattr]. refine (near_imp _ _ _ _ NN). intros x [E1 E2].
          destruct (FU x) as (rows & TX & _ & F0). destruct (F0 b (FX x)) as (_ & _ & _ & _ & F1). destruct (F1 _ h w (E2 rows TX)) as [_ F2]. rewrite E1 in F2. now apply F2.
  Qed.
End Fuse.

(* one call of update_map_fusion *)
Lemma p_grad_update F T A A' s g q o s' g' x0 B dist_th dot_th sg inplace :
  smooth_frames F x0 -> live (F x0) -> fB (F x0) = B -> no_zero_depth (F x0) -> (forall x, fpose (F x) = Some (T x)) -> sg <> 0%R ->
  (forall x, RHist (q x) (g x) false (F x)) -> (forall x, ReadyToClone RF (s x) (A x)) -> (forall x, fits_float32 (A x) (F x)) ->
  (forall x, qp (A x) <> None -> full_map (A x) /\ len_view RF (A x) = B) -> (forall x, positive (A x)) -> smooth_map B A x0 ->
  generic_step (A x0) (F x0) (T x0) dist_th dot_th sg ->
  (forall x, update_map_fusion f32 dist_th dot_th (SigNum sg) inplace (s x, g x) = (Ok (o x), (s' x, g' x))) -> (forall x, Shows RF (returned (o x) (s' x)) (A' x)) ->
  smooth_map B A' x0 /\ forall x, ReadyToClone RF (returned (o x) (s' x)) (A' x) /\ full_map (A' x) /\ len_view RF (A' x) = B /\ positive (A' x) /\
    forall b, b < B -> npoints (A' x) b <= npoints (A x) b + fH (F x0) * fW (F x0).
Proof.
  intros SF (HL & HB0 & HH & HW) HB NZ ET Hsg HI HS FF FM PO SM GS EU SH.
  assert (SZ : forall x, fB (F x) = B /\ fL (F x) = 1 /\ fH (F x) = fH (F x0) /\ fW (F x) = fW (F x0)) by (intros x; destruct (sizes_eq F x0 SF x) as (-> & -> & -> & ->); auto).
  assert (K : forall x, exists rows, table_of F T A dist_th dot_th x rows /\ Fused sg (F x) rows (A x) (A' x) /\ ReadyToClone RF (returned (o x) (s' x)) (A' x) /\ full_map (A' x) /\ positive (A' x) /\
     forall b, b < B -> npoints (A' x) b <= npoints (A x) b + fH (F x0) * fW (F x0)).
  { intros x. destruct (SZ x) as (E1 & E2 & E3 & E4).
    destruct (p_update (s x) (A x) (g x) (F x) (q x) dist_th dot_th sg inplace (HS x) (HI x) ltac:(repeat split; lia) Hsg) as (rows & o1 & s1 & g1 & a1 & U1 & _ & U2 & U3 & U4 & U5 & U6 & U7 & _ & U8).
    - intros P. destruct (FM x P) as [P1 P2]. split; [exact P1|]. split; [congruence|]. rewrite ET. discriminate.
    - apply FF.
    - rewrite EU in U1. injection U1 as <- <- <-. rewrite (shows_one _ _ _ (SH x) U3). exists rows. split.
      { unfold table_of. destruct (qp (A x)); [|exact U4]. destruct U4 as (T1 & ET1 & U4). rewrite ET in ET1. injection ET1 as <-. exact U4. }
      split; [exact U5|]. split; [exact U2|]. split; [exact U6|]. split; [now apply U7|]. intros b Hb. destruct (U8 b ltac:(lia)) as [[_ U9] _]. rewrite <- E3, <- E4. exact U9. }
  destruct (K x0) as (r0 & TB & FU0 & _). split.
  - apply (fuse_smooth F T A A' r0 x0 dist_th dot_th sg B SF HL HB HH HW NZ ET); try assumption.
    + intros x P. exact (proj2 (FM x P)).
    + intros x. destruct (K x) as (rows & K1 & K2 & _). exists rows. auto.
    + intros x b n Hb Hn. apply PO. split; [|exact Hn]. rewrite (proj2 (FM x (np_none (A x) b ltac:(lia)))). exact Hb.
  - intros x. destruct (K x) as (rows & _ & K2 & K3 & K4 & K5 & K6). split; [exact K3|]. split; [exact K4|]. split; [destruct K2 as [-> _]; apply SZ|]. split; [exact K5|exact K6].
Qed.
(* a loop of such calls, started with an empty map *)
Lemma p_grad_fusion L F T p A g q o s' g' x0 B H W dist_th dot_th sg inplace : sg <> 0%R -> (Z.of_nat B <= 2 ^ 24)%Z -> (Z.of_nat H <= 2 ^ 24)%Z -> (Z.of_nat W <= 2 ^ 24)%Z -> (Z.of_nat (L * (H * W)) <= 2 ^ 24)%Z ->
  (forall l, l < L -> smooth_frames (F l) x0 /\ live (F l x0) /\ fB (F l x0) = B /\ fH (F l x0) = H /\ fW (F l x0) = W /\ no_zero_depth (F l x0)) ->
  (forall l x, l < L -> fpose (F l x) = Some (T l x) /\ RHist (q l x) (g l x) false (F l x)) ->
  (forall x, ReadyToClone RF (p 0 x) (no_batch RF) /\ A 0 x = no_batch RF) ->
  (forall l x, l < L -> update_map_fusion f32 dist_th dot_th (SigNum sg) inplace (p l x, g l x) = (Ok (o l x), (s' l x, g' l x)) /\ p (S l) x = returned (o l x) (s' l x) /\ Shows RF (p (S l) x) (A (S l) x)) ->
  (forall l, l < L -> generic_step (A l x0) (F l x0) (T l x0) dist_th dot_th sg) ->
  smooth_map B (A L) x0.
Proof.
  intros Hsg ZB ZH ZW ZL HF HT H0 HU HG.
  assert (K : forall n, n <= L -> smooth_map B (A n) x0 /\ forall x, ReadyToClone RF (p n x) (A n x) /\ (qp (A n x) <> None -> full_map (A n x) /\ len_view RF (A n x) = B) /\ positive (A n x) /\
     forall b, b < B -> npoints (A n x) b <= n * (H * W)).
  { induction n as [|n IH]; intros Hn.
    - split.
      + intros b Hb. split; [apply near_all; intros x; rewrite !(proj2 (H0 _)); reflexivity|]. intros X m j Hm. rewrite (proj2 (H0 x0)) in Hm. cbn in Hm. lia.
      + intros x. rewrite (proj2 (H0 x)). split; [apply H0|]. split; [intros Z; now elim Z|]. split; [intros b m [_ Z]; cbn in Z; lia|intros; cbn; lia].
    - destruct (IH ltac:(lia)) as [I1 I2]. destruct (HF n ltac:(lia)) as (F1 & F2 & F3 & F4 & F5 & F6).
      destruct (p_grad_update (F n) (T n) (A n) (A (S n)) (p n) (g n) (q n) (o n) (s' n) (g' n) x0 B dist_th dot_th sg inplace) as [J1 J2]; try assumption.
      + intros x. now apply HT.
      + intros x. now apply HT.
      + intros x. apply I2.
      + intros x. unfold fits_float32. destruct (sizes_eq (F n) x0 F1 x) as (-> & _ & -> & ->). rewrite F3, F4, F5. split; [exact ZB|]. split; [exact ZH|]. split; [exact ZW|]. intros b Hb. destruct (I2 x) as (_ & _ & _ & NB). specialize (NB b Hb).
        apply Z.le_trans with (2 := ZL). apply Nat2Z.inj_le. apply Nat.le_trans with (1 := NB). apply Nat.mul_le_mono_r. lia.
      + intros x. apply I2.
      + intros x. apply I2.
      + apply HG. lia.
      + intros x. apply HU. lia.
      + intros x. destruct (HU n x ltac:(lia)) as (_ & E & SH). rewrite <- E. exact SH.
      + split; [exact J1|]. intros x. destruct (J2 x) as (J3 & J4 & J5 & J6 & J7). destruct (HU n x ltac:(lia)) as (_ & E & _). rewrite E. split; [exact J3|]. split; [auto|]. split; [exact J6|].
        intros b Hb. specialize (J7 b Hb). destruct (I2 x) as (_ & _ & _ & NB). specialize (NB b Hb). rewrite F4, F5 in J7. cbn [Nat.mul]. lia. }
  apply (K L (le_n _)).
Qed.
