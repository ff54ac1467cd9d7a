(* Proofs for C83. *)
From Coq Require Import Reals List Arith Bool ZArith Lia Lra Sorting.Sorted FunctionalExtensionality.
From Verif Require Import Res Fld StructUtilsModel PointcloudsModel PointcloudsSpec PointcloudsHist MatSpec GeomSpec TensorModel
  RgbdModel RgbdSpec RgbdOps RgbdPropProofs FusionModel FusionSpec FusionMap FusionPropProofs FusionPropProofs2 Se3Model SolveModel IcpModel IcpSpec OdomSpec SlamModel SlamSpec SlamProofs SlamPropProofs
  StillProofs StillMapProofs BatchProofs BatchSlamProofs GradSpec GradProofs GradMapProofs TableProofs GradFuseProofs GradRunProofs SimSpec.
Import ListNotations.
Import FusionSpec.
Local Open Scope nat_scope.

Lemma orth_cols Q i j : orthogonal3 Q -> i < 3 -> j < 3 -> (Q 0%nat i * Q 0%nat j + Q 1%nat i * Q 1%nat j + Q 2%nat i * Q 2%nat j = delta i j)%R.
Proof. intros [H _] Hi Hj. pose proof (H i j Hi Hj) as E. unfold mmul, mtr, mI in E. cbn [rsum] in E. lra. Qed.
Lemma orth_dot Q u v : orthogonal3 Q -> dot 3 (mvec 3 Q u) (mvec 3 Q v) = dot 3 u v.
Proof.
  intros HQ. unfold dot, mvec. cbn [rsum].
  pose proof (orth_cols Q 0 0 HQ ltac:(lia) ltac:(lia)) as E00. pose proof (orth_cols Q 0 1 HQ ltac:(lia) ltac:(lia)) as E01. pose proof (orth_cols Q 0 2 HQ ltac:(lia) ltac:(lia)) as E02.
  pose proof (orth_cols Q 1 1 HQ ltac:(lia) ltac:(lia)) as E11. pose proof (orth_cols Q 1 2 HQ ltac:(lia) ltac:(lia)) as E12. pose proof (orth_cols Q 2 2 HQ ltac:(lia) ltac:(lia)) as E22.
  unfold delta in *. cbn [Nat.eqb] in *.
  transitivity (u 0%nat * v 0%nat * (Q 0%nat 0%nat * Q 0%nat 0%nat + Q 1%nat 0%nat * Q 1%nat 0%nat + Q 2%nat 0%nat * Q 2%nat 0%nat) + (u 0%nat * v 1%nat + u 1%nat * v 0%nat) * (Q 0%nat 0%nat * Q 0%nat 1%nat + Q 1%nat 0%nat * Q 1%nat 1%nat + Q 2%nat 0%nat * Q 2%nat 1%nat) +
    (u 0%nat * v 2%nat + u 2%nat * v 0%nat) * (Q 0%nat 0%nat * Q 0%nat 2%nat + Q 1%nat 0%nat * Q 1%nat 2%nat + Q 2%nat 0%nat * Q 2%nat 2%nat) + u 1%nat * v 1%nat * (Q 0%nat 1%nat * Q 0%nat 1%nat + Q 1%nat 1%nat * Q 1%nat 1%nat + Q 2%nat 1%nat * Q 2%nat 1%nat) +
    (u 1%nat * v 2%nat + u 2%nat * v 1%nat) * (Q 0%nat 1%nat * Q 0%nat 2%nat + Q 1%nat 1%nat * Q 1%nat 2%nat + Q 2%nat 1%nat * Q 2%nat 2%nat) + u 2%nat * v 2%nat * (Q 0%nat 2%nat * Q 0%nat 2%nat + Q 1%nat 2%nat * Q 1%nat 2%nat + Q 2%nat 2%nat * Q 2%nat 2%nat))%R; [ring|].
  rewrite E00, E01, E02, E11, E12, E22. ring.
Qed.
Lemma mvec_ext A u v : veq 3 u v -> mvec 3 A u = mvec 3 A v.
Proof. intros E. apply functional_extensionality. intros i. unfold mvec. cbn [rsum]. now rewrite !E by lia. Qed.
Lemma mmul_vec A B v i : mvec 3 (mmul 3 A B) v i = mvec 3 A (mvec 3 B v) i.
Proof. unfold mvec, mmul. cbn [rsum]. ring. Qed.
Lemma dot_ext u u' v v' : veq 3 u u' -> veq 3 v v' -> dot 3 u v = dot 3 u' v'.
Proof. intros E E'. unfold dot. cbn [rsum]. now rewrite !E, !E' by lia. Qed.
Lemma norm_ext u v : veq 3 u v -> norm 3 u = norm 3 v.
Proof. intros E. unfold norm. now rewrite (dot_ext u v u v). Qed.
Lemma norm_scale s v : (0 < s)%R -> norm 3 (fun k => s * v k)%R = (s * norm 3 v)%R.
Proof.
  intros Hs. unfold norm. replace (dot 3 (fun k => (s * v k)%R) (fun k => (s * v k)%R)) with (s * s * dot 3 v v)%R by (unfold dot; cbn [rsum]; ring).
  rewrite sqrt_mult_alt by nra. rewrite sqrt_square by lra. reflexivity.
Qed.
Lemma norm_zero v : norm 3 v = 0%R -> forall k, k < 3 -> v k = 0%R.
Proof.
  intros E k Hk. unfold norm in E. apply sqrt_eq_0 in E; [|unfold dot; cbn [rsum]; nra]. unfold dot in E. cbn [rsum] in E.
  assert (v 0%nat = 0 /\ v 1%nat = 0 /\ v 2%nat = 0)%R by (repeat split; nra). destruct k as [|[|[|k]]]; [tauto|tauto|tauto|lia].
Qed.
Lemma sim_distance s Q t p q : orthogonal3 Q -> (0 < s)%R -> distance (sim_pt s Q t p) (sim_pt s Q t q) = (s * distance p q)%R.
Proof.
  intros HQ Hs. unfold distance. rewrite <- norm_scale by exact Hs.
  transitivity (norm 3 (mvec 3 Q (fun k => s * (p k - q k))%R)); [apply norm_ext; intros i _; unfold sim_pt, mvec; cbn [rsum]; ring|].
  unfold norm. now rewrite orth_dot by exact HQ.
Qed.
Lemma keep_scale s d x : (0 < s)%R -> keep (s * d) (s * x) = (s * keep d x)%R.
Proof. intros Hs. unfold keep. destruct (Rlt_dec 0 (s * d)), (Rlt_dec 0 d); try ring; nra. Qed.
Lemma keep_pos s d x : (0 < s)%R -> keep (s * d) x = keep d x.
Proof. intros Hs. unfold keep. destruct (Rlt_dec 0 (s * d)), (Rlt_dec 0 d); try reflexivity; nra. Qed.
Lemma keep_on d x : (0 < d)%R -> keep d x = x.
Proof. intros H. unfold keep. now destruct (Rlt_dec 0 d). Qed.
Lemma keep_off d x : ~ (0 < d)%R -> keep d x = 0%R.
Proof. intros H. unfold keep. now destruct (Rlt_dec 0 d). Qed.
Lemma unitize_ext u v j : veq 3 u v -> j < 3 -> unitize u j = unitize v j.
Proof. intros E Hj. unfold unitize. now rewrite (norm_ext u v E), E by exact Hj. Qed.
Lemma unitize_scale c v j : (0 < c)%R -> j < 3 -> unitize (fun k => c * v k)%R j = unitize v j.
Proof.
  intros Hc Hj. unfold unitize. rewrite norm_scale by exact Hc. destruct (Req_EM_T (c * norm 3 v) 0) as [E|E], (Req_EM_T (norm 3 v) 0) as [E'|E'].
  - rewrite (norm_zero v E' j Hj). unfold Rdiv. ring.
  - elim E'. nra.
  - elim E. rewrite E'. ring.
  - field. split; [exact E'|lra].
Qed.

(* ---------------- one frame *)
Section Frame.
  Variables (s : R) (Q : mat) (t : vec) (f f' : frames) (T T' : nat -> nat -> mat).
  Hypothesis Hs : (0 < s)%R.
  Hypothesis HQ : orthogonal3 Q.
  Hypothesis SF : sim_frames s Q t f f'.
  Hypothesis ET : fpose f = Some T.
  Hypothesis ET' : fpose f' = Some T'.
  Hypothesis HH : 2 <= fH f.
  Hypothesis HW : 2 <= fW f.

  Lemma s_vertex b l h w : inside f b l h w -> veq 3 (vertex f' b l h w) (fun k => s * vertex f b l h w k)%R.
  Proof.
    intros Hi j Hj. destruct SF as (_ & _ & _ & _ & SK & SD & _). destruct (SD _ _ _ _ Hi) as (D & _ & P). unfold vertex. rewrite D, (mvec_ext _ _ _ P), <- keep_scale by exact Hs.
    f_equal. rewrite Rmult_assoc. do 2 f_equal. unfold mvec, kinv. destruct Hi as [Hb _]. rewrite !(SK b Hb) by lia. reflexivity.
  Qed.
  Lemma s_in b l h w h' w' : inside f b l h w -> h' < fH f -> w' < fW f -> inside f b l h' w'.
  Proof. intros (H1 & H2 & _) H3 H4. repeat split; assumption. Qed.
  Lemma s_normal b l h w : inside f b l h w -> veq 3 (normal f' b l h w) (normal f b l h w).
  Proof.
    intros Hi j Hj. pose proof SF as (_ & _ & SH & SW & SK & SD & _). destruct (SD _ _ _ _ Hi) as (D & _ & P). unfold normal. rewrite D, keep_pos by exact Hs. f_equal.
    assert (KH : veq 3 (tangent_h f' b l h w) (fun k => s * tangent_h f b l h w k)%R).
    { intros k Hk. unfold tangent_h. rewrite SW. pose proof Hi as (_ & _ & H3 & H4). rewrite !s_vertex by (try exact Hk; apply (s_in b l h w); try exact Hi; lia). ring. }
    assert (KV : veq 3 (tangent_v f' b l h w) (fun k => s * tangent_v f b l h w k)%R).
    { intros k Hk. unfold tangent_v. rewrite SH. pose proof Hi as (_ & _ & H3 & H4). rewrite !s_vertex by (try exact Hk; apply (s_in b l h w); try exact Hi; lia). ring. }
    transitivity (unitize (fun k => (s * s) * cross (tangent_h f b l h w) (tangent_v f b l h w) k)%R j); [|apply unitize_scale; [nra|exact Hj]].
    apply unitize_ext; [|exact Hj]. intros k Hk. unfold cross. destruct k as [|[|k]]; rewrite !KH, !KV by lia; ring.
  Qed.
  Lemma s_pose b l : b < fB f -> l < fL f -> sim_pose s Q t (T b l) (T' b l).
  Proof. intros Hb Hl. destruct SF as (_ & _ & _ & _ & _ & _ & SP). rewrite ET, ET' in SP. now apply SP. Qed.
  Lemma s_gvertex b l h w : inside f b l h w -> (0 < fdep f b l h w)%R -> veq 3 (global_vertex f' b l h w) (sim_pt s Q t (global_vertex f b l h w)).
  Proof.
    intros Hi Hd j Hj. pose proof SF as (_ & _ & _ & _ & _ & SD & _). destruct (SD _ _ _ _ Hi) as (D & _ & _). pose proof Hi as (Hb & Hl & _). destruct (s_pose b l Hb Hl) as [PR PT].
    unfold global_vertex. rewrite ET, ET', D, keep_pos, keep_on by assumption.
    replace (fun j0 => keep (fdep f b l h w) (act (T b l) (vertex f b l h w) j0)) with (act (T b l) (vertex f b l h w)) by (apply functional_extensionality; intros i; now rewrite keep_on).
    unfold act. rewrite (PT j Hj). rewrite (mvec_ext _ _ _ (s_vertex _ _ _ _ Hi)). unfold mvec at 1. cbn [rsum]. rewrite !(PR j) by lia. unfold sim_pt, act, mvec, mmul. cbn [rsum]. ring.
  Qed.
  Lemma s_gnormal b l h w : inside f b l h w -> veq 3 (global_normal f' b l h w) (mvec 3 Q (global_normal f b l h w)).
  Proof.
    intros Hi j Hj. pose proof Hi as (Hb & Hl & _). destruct (s_pose b l Hb Hl) as [PR PT]. unfold global_normal. rewrite ET, ET'. rewrite (mvec_ext _ _ _ (s_normal _ _ _ _ Hi)).
    rewrite <- mmul_vec. unfold mvec. cbn [rsum]. now rewrite !(PR j) by lia.
  Qed.
  Lemma s_chosen b : b < fB f -> 0 < fL f -> chosen true f' b = chosen true f b.
  Proof.
    intros Hb Hl. pose proof SF as (_ & _ & SH & SW & _ & SD & _). unfold chosen, row_major. rewrite SH, SW. apply filter_ext_in. intros [h w] Hi. apply in_prod_iff in Hi. rewrite !in_seq in Hi. cbn [fst snd].
    destruct (SD b 0 h w ltac:(repeat split; lia)) as (-> & _). destruct (Rlt_dec 0 (s * fdep f b 0 h w)), (Rlt_dec 0 (fdep f b 0 h w)); try reflexivity; nra.
  Qed.
  Lemma s_alpha sg b h w : sg <> 0%R -> inside f b 0 h w -> frame_alpha (s * sg) f' b h w = frame_alpha sg f b h w.
  Proof.
    intros Hsg Hi. unfold frame_alpha, alpha_spec. rewrite (norm_ext _ _ (s_vertex _ _ _ _ Hi)), norm_scale by exact Hs. do 2 f_equal. field. split; [exact Hsg|lra].
  Qed.

  Hypothesis HL : fL f = 1.
  Hypothesis HC : s = 1%R \/ forall b, b < fB f -> central (fK f b).
  Variables (a a' : batch RF).
  Hypothesis SM : sim_map s Q t (fB f) a a'.
  Hypothesis LA : len_view RF a = fB f.
  Hypothesis LA' : len_view RF a' = fB f.

  Lemma s_real b n : real_point a' b n <-> real_point a b n.
  Proof. unfold real_point. rewrite LA, LA'. split; intros [H1 H2]; (split; [exact H1|]); destruct (SM b H1) as [E _]; lia. Qed.
  Lemma s_camera b n : real_point a b n -> veq 3 (to_camera (T' b 0) (attr_at a' Points b n)) (fun k => s * to_camera (T b 0) (attr_at a Points b n) k)%R.
  Proof.
    intros [Hb Hn] j Hj. rewrite LA in Hb. destruct (SM b Hb) as [_ E]. destruct (E n Hn) as (EP & _). destruct (s_pose b 0 Hb ltac:(lia)) as [PR PT].
    unfold to_camera. cbn [rsum]. rewrite !EP by lia. change (T' b 0 0%nat 3%nat) with (tr_of (T' b 0) 0%nat). change (T' b 0 1%nat 3%nat) with (tr_of (T' b 0) 1%nat). change (T' b 0 2%nat 3%nat) with (tr_of (T' b 0) 2%nat).
    rewrite !PT by lia. change (T' b 0) with (rot_of (T' b 0)). rewrite !PR by lia. set (p := attr_at a Points b n).
    set (v := fun k => (p k - T b 0 k 3%nat)%R). set (u := fun k => T b 0 k j).
    transitivity (s * dot 3 (mvec 3 Q u) (mvec 3 Q v))%R.
    - unfold sim_pt, mmul, rot_of, tr_of, dot, mvec, u, v. cbn [rsum]. ring.
    - rewrite orth_dot by exact HQ. unfold dot, u, v. cbn [rsum]. ring.
  Qed.
  Lemma s_seen b n h w : real_point a b n -> seen_at a' f' T' b n h w <-> seen_at a f T b n h w.
  Proof.
    intros Hr. pose proof (s_camera b n Hr) as EC. pose proof Hr as [Hb _]. rewrite LA in Hb. pose proof SF as (_ & _ & SH & SW & SK & _). unfold seen_at. rewrite SH, SW. set (q := to_camera (T b 0) (attr_at a Points b n)) in *. set (q' := to_camera (T' b 0) (attr_at a' Points b n)) in *. clearbody q q'.
    assert (EZ : (0 < q' 2%nat <-> 0 < q 2%nat)%R) by (rewrite (EC 2) by lia; split; intros; nra).
    enough (EI : (0 < q 2%nat)%R -> forall i, i < 2 -> image_pos (fK f' b) q' i = image_pos (fK f b) q i).
    { split; intros (H1 & H2); assert (P : (0 < q 2%nat)%R) by tauto; pose proof (EI P 0 ltac:(lia)) as E0; pose proof (EI P 1 ltac:(lia)) as E1; rewrite E0, E1 in *; tauto. }
    intros P i Hi. unfold image_pos, project_spec.
    assert (EM : forall j, j < 3 -> mvec 4 (fK f' b) (hom 3 q') j = (fK f b j 0%nat * (s * q 0%nat) + fK f b j 1%nat * (s * q 1%nat) + fK f b j 2%nat * (s * q 2%nat) + fK f b j 3%nat)%R).
    { intros j Hj. unfold mvec, hom. cbn [rsum]. rewrite !(SK b Hb) by lia. cbn. rewrite !EC by lia. ring. }
    assert (EN : forall j, mvec 4 (fK f b) (hom 3 q) j = (fK f b j 0%nat * q 0%nat + fK f b j 1%nat * q 1%nat + fK f b j 2%nat * q 2%nat + fK f b j 3%nat)%R).
    { intros j. unfold mvec, hom. cbn [rsum]. cbn. ring. }
    unfold persp. rewrite !EM, !EN by lia. destruct HC as [->|HK].
    - rewrite !Rmult_1_l. reflexivity.
    - destruct (HK b Hb) as (K0 & K1 & K2 & K3 & K4 & K5). rewrite K2, K3, K4, K5.
      assert (K03 : fK f b i 3%nat = 0%R) by (destruct i as [|[|i]]; [exact K0|exact K1|lia]). rewrite K03.
      destruct (Req_EM_T _ 0) as [E|_]; [nra|]. destruct (Req_EM_T _ 0) as [E|_]; [nra|]. field. split; nra.
  Qed.
  Lemma s_frame_point b n h w : inside f b 0 h w -> (0 < fdep f b 0 h w)%R -> veq 3 (frame_point f' (mkRow b n h w)) (sim_pt s Q t (frame_point f (mkRow b n h w))).
  Proof. intros Hi Hd. now apply s_gvertex. Qed.
  Lemma dist_ext u u' v v' : veq 3 u u' -> veq 3 v v' -> distance u v = distance u' v'.
  Proof. intros E E'. unfold distance. apply norm_ext. intros k Hk. now rewrite E, E'. Qed.
  Lemma s_similar d th b n h w : (0 <= th)%R -> real_point a b n -> inside f b 0 h w ->
    similar a' f' (s * d) th (mkRow b n h w) <-> similar a f d th (mkRow b n h w).
  Proof.
    intros Ht Hr Hi. pose proof Hr as [Hb Hn]. rewrite LA in Hb. destruct (SM b Hb) as [_ E]. destruct (E n Hn) as (EP & EN & _). unfold similar. cbn [rb rn].
    assert (ED : dot 3 (frame_normal f' (mkRow b n h w)) (attr_at a' Normals b n) = dot 3 (frame_normal f (mkRow b n h w)) (attr_at a Normals b n)).
    { rewrite <- (orth_dot Q (frame_normal f _) _ HQ). apply dot_ext; [|exact EN]. now apply s_gnormal. }
    rewrite ED. destruct (Rlt_dec 0 (fdep f b 0 h w)) as [P|P].
    - rewrite (dist_ext _ _ _ _ (s_frame_point b n h w Hi P) EP), sim_distance by assumption. split; intros [H1 H2]; (split; [|exact H2]); nra.
    - assert (Z : dot 3 (frame_normal f (mkRow b n h w)) (attr_at a Normals b n) = 0%R).
      { unfold frame_normal, global_normal, normal, dot, mvec. cbn [rb rh rw]. rewrite ET. cbn [rsum]. rewrite !(keep_off _ _ P). ring. }
      rewrite Z. split; intros [_ H]; lra.
  Qed.
  Lemma s_good b n n' h w : real_point a b n -> real_point a b n' -> inside f b 0 h w -> (0 < fdep f b 0 h w)%R ->
    at_least_as_good a' f' (mkRow b n h w) (mkRow b n' h w) <-> at_least_as_good a f (mkRow b n h w) (mkRow b n' h w).
  Proof.
    intros Hr Hr' Hi P. pose proof Hr as [Hb Hn]. pose proof Hr' as [_ Hn']. rewrite LA in Hb. destruct (SM b Hb) as [_ E]. destruct (E n Hn) as (EP & _ & _ & EC). destruct (E n' Hn') as (EP' & _ & _ & EC').
    unfold at_least_as_good. cbn [rb rn]. rewrite EC, EC', (dist_ext _ _ _ _ EP (s_frame_point b n h w Hi P)), (dist_ext _ _ _ _ EP' (s_frame_point b n' h w Hi P)), !sim_distance by assumption.
    split; (intros [H|[H [H'|[H' H'']]]]; [left; lra|right; split; [exact H|left; nra]|right; split; [exact H|right; split; [nra|exact H'']]]).
  Qed.
  Lemma s_similar_valid d th b n h w : (0 <= th)%R -> similar a f d th (mkRow b n h w) -> (0 < fdep f b 0 h w)%R.
  Proof.
    intros Ht [_ H]. cbn [rb rn] in H. destruct (Rlt_dec 0 (fdep f b 0 h w)) as [P|P]; [exact P|]. exfalso.
    assert (Z : dot 3 (frame_normal f (mkRow b n h w)) (attr_at a Normals b n) = 0%R).
    { unfold frame_normal, global_normal, normal, dot, mvec. cbn [rb rh rw]. rewrite ET. cbn [rsum]. rewrite !(keep_off _ _ P). ring. }
    lra.
  Qed.
  Lemma s_table d th rows rows' b : (0 <= th)%R -> b < fB f -> Correspondences a f T d th rows -> Correspondences a' f' T' (s * d) th rows' -> at_b b rows = at_b b rows'.
  Proof.
    intros Ht Hb C C'.
    assert (IN : forall n h w, seen_at a f T b n h w -> inside f b 0 h w) by (intros n h w K; destruct (seen_in _ _ _ _ _ _ _ K); repeat split; try assumption; lia).
    apply (table_same a f T d th rows a' f' T' (s * d) th rows' b C C').
    - intros n h w. unfold candidate. rewrite s_real. split; intros (R1 & R2 & R3).
      + split; [exact R1|]. split; [now apply s_seen|]. apply s_similar; [exact Ht|exact R1|exact (IN _ _ _ R2)|exact R3].
      + assert (R2' := proj1 (s_seen b n h w R1) R2). split; [exact R1|]. split; [exact R2'|]. apply s_similar in R3; [exact R3|exact Ht|exact R1|exact (IN _ _ _ R2')].
    - intros n n' h w N (R1 & R2 & R3) (R1' & R2' & R3'). apply s_good; [exact R1|exact R1'|exact (IN _ _ _ R2)|exact (s_similar_valid _ _ _ _ _ _ Ht R3)].
  Qed.
  Variables (sg : R) (rows rows' : list row) (u u' : batch RF).
  Hypothesis Hsg : sg <> 0%R.
  Hypothesis ER : forall b, b < fB f -> at_b b rows = at_b b rows'.
  Hypothesis RI : forall b n h w, matched rows b n h w -> inside f b 0 h w /\ (0 < fdep f b 0 h w)%R /\ n < npoints a b.
  Hypothesis FU : Fused sg f rows a u.
  Hypothesis FU' : Fused (s * sg) f' rows' a' u'.
  Hypothesis PO : forall b n, b < fB f -> n < npoints a b -> (0 < conf a b n)%R.
  Lemma alpha_pos b h w : (0 < frame_alpha sg f b h w)%R.
  Proof. unfold frame_alpha, alpha_spec. apply Rlt_le_trans with (/ 10000000)%R; [lra|apply Rmax_r]. Qed.
  Lemma s_fuse : sim_map s Q t (fB f) u u'.
  Proof.
    clear HC LA LA'. intros b Hb. pose proof SF as (SB & _ & _ & _ & _ & SD & _). destruct FU as [_ F], FU' as [_ F']. destruct (F b Hb) as (N & U & _ & M & A), (F' b ltac:(lia)) as (N' & U' & _ & M' & A').
    assert (EF : fresh_pixels rows' f' b = fresh_pixels rows f b) by (rewrite !fresh_at, <- ER, s_chosen by lia || assumption; reflexivity).
    destruct (SM b Hb) as [EN EA]. split; [rewrite N, N', EF, EN; reflexivity|]. intros n Hn.
    destruct (Nat.lt_ge_cases n (npoints a b)) as [G|G].
    - destruct (EA n G) as (EP & ENo & ECo & EC). pose proof (PO b n Hb G) as HP.
      destruct (existsb (fun t => fst t =? n) (at_b b rows)) eqn:X.
      + apply existsb_exists in X. destruct X as ((n0 & h & w) & X1 & X2). apply Nat.eqb_eq in X2. cbn in X2. subst n0. pose proof X1 as X1'. rewrite ER in X1' by exact Hb. apply at_b_in in X1, X1'.
        destruct (M _ _ _ X1) as [C1 C2]. destruct (M' _ _ _ X1') as [C1' C2']. destruct (RI _ _ _ _ X1) as (Hi & Hd & _). pose proof (alpha_pos b h w) as AP.
        rewrite s_alpha in C1', C2' by assumption. rewrite EC in C1', C2'. split; [|split; [|split]].
        * intros j Hj. rewrite C2' by (discriminate || exact Hj). rewrite EP by exact Hj. cbn [frame_attr]. rewrite s_gvertex by assumption. unfold sim_pt, mvec. cbn [rsum]. rewrite !C2 by (discriminate || lia). unfold wmean. cbn [frame_attr]. field. lra.
        * intros j Hj. rewrite C2' by (discriminate || exact Hj). rewrite ENo by exact Hj. cbn [frame_attr]. rewrite s_gnormal by assumption. unfold mvec. cbn [rsum]. rewrite !C2 by (discriminate || lia). unfold wmean. cbn [frame_attr]. field. lra.
        * intros j Hj. rewrite C2' by (discriminate || exact Hj). rewrite ECo by exact Hj. cbn [frame_attr]. destruct (SD _ _ _ _ Hi) as (_ & EK & _). rewrite EK by exact Hj. rewrite C2 by (discriminate || exact Hj). reflexivity.
        * congruence.
      + assert (UN : forall h w, ~ In (n, (h, w)) (at_b b rows)). { intros h w K. rewrite <- Bool.not_true_iff_false in X. apply X. apply existsb_exists. exists (n, (h, w)). split; [exact K|apply Nat.eqb_refl]. }
        assert (U1 : forall x k, k < wd x -> attr_at u x b n k = attr_at a x b n k) by (intros x k Hk; apply U; [exact G|intros h w K; apply (UN h w), at_b_in, K|left; lra|exact Hk]).
        assert (U1' : forall x k, k < wd x -> attr_at u' x b n k = attr_at a' x b n k) by (intros x k Hk; apply U'; [lia|intros h w K; apply (UN h w); rewrite ER by exact Hb; apply at_b_in, K|left; rewrite EC; lra|exact Hk]).
        split; [|split; [|split]].
        * intros j Hj. rewrite U1' by exact Hj. rewrite EP by exact Hj. unfold sim_pt, mvec. cbn [rsum]. rewrite !U1 by (cbn; lia). reflexivity.
        * intros j Hj. rewrite U1' by exact Hj. rewrite ENo by exact Hj. unfold mvec. cbn [rsum]. rewrite !U1 by (cbn; lia). reflexivity.
        * intros j Hj. rewrite U1', U1 by exact Hj. now apply ECo.
        * unfold conf. rewrite U1', U1 by (cbn; lia). exact EC.
    - destruct (nth_error (fresh_pixels rows f b) (n - npoints a b)) as [[h w]|] eqn:E; [|apply nth_error_None in E; lia].
      destruct (A _ _ _ E) as [C1 C2]. pose proof E as E'. rewrite <- EF in E'. destruct (A' _ _ _ E') as [C1' C2']. rewrite EN in C1', C2'.
      replace (npoints a b + (n - npoints a b)) with n in * by lia.
      assert (HI : inside f b 0 h w /\ (0 < fdep f b 0 h w)%R).
      { apply nth_error_In in E. unfold fresh_pixels in E. apply filter_In in E. destruct E as [E _]. apply StillMapProofs.chosen_in in E. cbn [fst snd] in E. repeat split; try tauto; lia. }
      destruct HI as [Hi Hd]. split; [|split; [|split]].
      + intros j Hj. rewrite C2' by (discriminate || exact Hj). cbn [frame_attr]. rewrite s_gvertex by assumption. unfold sim_pt, mvec. cbn [rsum]. rewrite !C2 by (discriminate || lia). reflexivity.
      + intros j Hj. rewrite C2' by (discriminate || exact Hj). cbn [frame_attr]. rewrite s_gnormal by assumption. unfold mvec. cbn [rsum]. rewrite !C2 by (discriminate || lia). reflexivity.
      + intros j Hj. rewrite C2', C2 by (discriminate || exact Hj). cbn [frame_attr]. destruct (SD _ _ _ _ Hi) as (_ & EK & _). now apply EK.
      + rewrite C1, C1'. now apply s_alpha.
  Qed.
End Frame.

(* ---------------- whole runs *)
Lemma shot_sim s Q t fr fr' T T' l : sim_frames s Q t fr fr' -> fpose fr = Some T -> fpose fr' = Some T' -> l < fL fr ->
  sim_frames s Q t (posed (fun b => T b l) (moment l fr)) (posed (fun b => T' b l) (moment l fr')).
Proof.
  intros (SB & SL & SH & SW & SK & SD & SP) ET ET' Hl. rewrite ET, ET' in SP. cbn [opt_rel] in SP.
  assert (NB : forall b, b < fB fr -> nth b (seq 0 (fB fr)) 0 = b) by (intros b Hb; now rewrite seq_nth by exact Hb).
  split; [cbn; rewrite !seq_length; exact SB|]. split; [reflexivity|]. split; [exact SH|]. split; [exact SW|]. cbn [fB fL fK fdep frgb fpose posed with_fpose moment pick]. rewrite seq_length. split; [|split].
  - intros b Hb. rewrite SB, NB by exact Hb. now apply SK.
  - intros b k h w (H1 & H2 & H3 & H4). cbn [fB fL fH fW posed with_fpose moment pick] in *. rewrite seq_length in H1. cbn in H2. assert (k = 0) as -> by lia. rewrite SB, NB by exact H1. cbn [nth].
    assert (Hi : inside fr b l h w) by (repeat split; assumption). destruct (SD _ _ _ _ Hi) as (D & C & P). split; [exact D|]. split; [exact C|].
    intros j Hj. specialize (P j Hj). unfold pixel in *. cbn [fpix posed with_fpose moment pick]. destruct (fpix fr), (fpix fr'); cbn [option_map nth]; rewrite ?SB, ?NB by exact H1; exact P.
  - cbn [opt_rel]. intros b k Hb Hk. now apply SP.
Qed.
Lemma sim_maps c c' d th sg s Q t fr fr' T T' maps maps' n : (0 < s)%R -> orthogonal3 Q -> sim_frames s Q t fr fr' -> fpose fr = Some T -> fpose fr' = Some T' -> 2 <= fH fr -> 2 <= fW fr ->
  s = 1%R \/ (forall b, b < fB fr -> central (fK fr b)) -> sg <> 0%R -> (0 <= th)%R -> s_map c = Fusion d th (SigNum sg) -> s_map c' = Fusion (s * d) th (SigNum (s * sg)) -> n <= fL fr ->
  Trajectory c fr n maps T -> Trajectory c' fr' n maps' T' -> sim_map s Q t (fB fr) (maps n) (maps' n).
Proof.
  intros Hs HQ SF ET ET' HH HW HC Hsg Hth Hm Hm' Hn HT HT'. pose proof SF as (SB & SL & SH & SW & SK & SD & SP).
  pose proof (traj_positive c fr n maps T d th (SigNum sg) Hm HH HW Hn HT) as PO.
  pose proof (traj_len c fr maps T n d th (SigNum sg) Hm HT) as HL. pose proof (traj_len c' fr' maps' T' n _ _ _ Hm' HT') as HL'.
  destruct HT as [H0 H], HT' as [H0' H'].
  enough (G : forall k, k <= n -> sim_map s Q t (fB fr) (maps k) (maps' k)) by (now apply G).
  induction k as [|k IH]; intros Hk.
  - rewrite H0, H0'. intros b Hb. split; [reflexivity|]. cbn. lia.
  - specialize (IH ltac:(lia)). destruct (H k ltac:(lia)) as [_ M], (H' k ltac:(lia)) as [_ M']. unfold Mapped in M, M'. rewrite Hm in M. rewrite Hm' in M'.
    destruct M as (BM & _ & rows & M1 & M2), M' as (BM' & _ & rows' & M1' & M2').
    pose proof (shot_sim s Q t fr fr' T T' k SF ET ET' ltac:(lia)) as SS. set (f := posed (fun b => T b k) (moment k fr)) in *. set (f' := posed (fun b => T' b k) (moment k fr')) in *.
    assert (FB : fB f = fB fr) by apply moment_B. rewrite <- FB in IH |- *.
    assert (CC : s = 1%R \/ (forall b, b < fB f -> central (fK f b))).
    { destruct HC as [HC|HC]; [now left|right]. intros b Hb. rewrite FB in Hb. cbn [f fK posed with_fpose moment pick]. rewrite seq_nth by exact Hb. now apply HC. }
    assert (K : (forall b, b < fB f -> at_b b rows = at_b b rows') /\ forall b m h w, matched rows b m h w -> inside f b 0 h w /\ (0 < fdep f b 0 h w)%R /\ m < npoints (maps k) b).
    { destruct (qp (maps k)) as [P|] eqn:EP.
      - destruct M2 as (T1 & E1 & C). cbn in E1. injection E1 as <-. assert (LK : len_view RF (maps k) = fB fr) by (apply HL; [lia|congruence]).
        destruct (qp (maps' k)) as [P'|] eqn:EP'.
        + destruct M2' as (T1' & E1' & C'). cbn in E1'. injection E1' as <-. assert (LK' : len_view RF (maps' k) = fB fr') by (apply HL'; [lia|congruence]). split.
          * intros b Hb. apply (s_table s Q t f f' (fun b _ => T b k) (fun b _ => T' b k) Hs HQ SS eq_refl eq_refl HH HW eq_refl CC (maps k) (maps' k) IH ltac:(congruence) ltac:(congruence) d th); assumption.
          * intros b m h w Mx. destruct C as (_ & _ & C3 & _). destruct (C3 _ _ _ _ Mx) as ([R1 R2] & Sn & Sm). destruct (seen_in _ _ _ _ _ _ _ Sn) as [Hh Hw].
            split; [repeat split; try assumption; [congruence|cbn; lia]|]. split; [|exact R2]. eapply s_similar_valid; [|exact Hth|exact Sm]; reflexivity.
        + destruct k as [|k]; [rewrite H0 in EP; discriminate|]. destruct (H' k ltac:(lia)) as [_ N]. unfold Mapped in N. rewrite Hm' in N. destruct N as (_ & N & _). elim (proj1 N Points). exact EP'.
      - destruct k as [|k]; [|destruct (H k ltac:(lia)) as [_ N]; unfold Mapped in N; rewrite Hm in N; destruct N as (_ & N & _); elim (proj1 N Points); exact EP].
        rewrite H0' in M2'. cbn in M2'. subst rows rows'. split; [reflexivity|]. intros b m h w []. }
    destruct K as [ER RI].
    apply (s_fuse s Q t f f' (fun b _ => T b k) (fun b _ => T' b k) Hs SS eq_refl eq_refl HH HW eq_refl (maps k) (maps' k) IH sg rows rows'); try assumption.
    intros b m Hb Hmm. rewrite FB in Hb. apply PO; [lia|exact Hb|exact Hmm].
Qed.
Lemma agg_attr (a : batch RF) fr b N x n : x <> Features -> rows_of a x b = map (fun p => map (frame_attr (moment (fst p) fr) x b (fst (snd p)) (snd (snd p))) [0; 1; 2]) (run_pixels fr b N) ->
  n < length (run_pixels fr b N) -> exists l h w, nth n (run_pixels fr b N) (0, (0, 0)) = (l, (h, w)) /\ l < N /\ h < fH fr /\ w < fW fr /\ (0 < fdep (moment l fr) b 0 h w)%R /\
    veq 3 (attr_at a x b n) (frame_attr (moment l fr) x b h w).
Proof.
  intros HX RW Hn. destruct (nth n (run_pixels fr b N) (0, (0, 0))) as [l [h w]] eqn:EN. exists l, h, w. split; [reflexivity|].
  assert (IP : In (l, (h, w)) (run_pixels fr b N)) by (rewrite <- EN; now apply nth_In). destruct (run_pixels_in _ _ _ _ _ _ IP) as (Hl & Hh & Hw & Hd). repeat (split; [assumption|]).
  intros k Hk. rewrite attr_rows_at, RW.
  rewrite (nth_indep _ _ (map (frame_attr (moment (fst (0, (0, 0))) fr) x b (fst (snd (0, (0, 0)))) (snd (snd (0, (0, 0))))) [0; 1; 2])) by (rewrite map_length; exact Hn).
  rewrite (map_nth (fun p => map (frame_attr (moment (fst p) fr) x b (fst (snd p)) (snd (snd p))) [0; 1; 2])), EN. cbn [fst snd]. now apply nth3.
Qed.
Lemma moment_posed l fr T : fpose fr = Some T -> l < fL fr -> forall b h w x, b < fB fr -> frame_attr (moment l fr) x b h w = frame_attr (posed (fun b => T b l) (moment l fr)) x b h w.
Proof.
  intros E Hl b h w x Hb. unfold frame_attr, global_vertex, global_normal. cbn [fpose posed with_fpose moment pick]. rewrite E. cbn [option_map nth]. rewrite seq_nth by exact Hb. cbn [Nat.add]. destruct x; reflexivity.
Qed.
(* changing the world coordinates and the unit of length changes the map accordingly and nothing else *)
Lemma p_sim_forward c c' s Q t g q fr T g' q' fr' T' : (0 < s)%R -> orthogonal3 Q -> s_odom c = OGt -> s_odom c' = OGt -> sim_mapping s (s_map c) (s_map c') ->
  RHist q g false fr -> RHist q' g' false fr' -> fpose fr = Some T -> fpose fr' = Some T' -> sim_frames s Q t fr fr' -> s = 1%R \/ (forall b, b < fB fr -> central (fK fr b)) ->
  0 < fB fr -> 2 <= fH fr -> 2 <= fW fr -> Sizes c (fB fr) (fH fr) (fW fr) (fL fr * (fH fr * fW fr)) ->
  exists m ps m' ps' a a', forward c true g = (Ok (m, ps), g) /\ forward c' true g' = (Ok (m', ps'), g') /\ Poses fr ps T /\ Poses fr' ps' T' /\
    Shows RF m a /\ Shows RF m' a' /\ sim_map s Q t (fB fr) a a'.
Proof.
  intros Hs HQ Ho Ho' SG HI HI' ET ET' SF HC HB HH HW HS. pose proof SF as (SB & SL & SH & SW & SK & SD & SP).
  assert (HS' : Sizes c' (fB fr') (fH fr') (fW fr') (fL fr' * (fH fr' * fW fr'))).
  { rewrite SB, SL, SH, SW. unfold sim_mapping in SG. unfold Sizes in *. destruct (s_map c) as [|d th [|sg|]], (s_map c') as [|d' th' [|sg'|]]; try exact I; try contradiction. destruct SG as (_ & _ & -> & _). destruct HS as ((x & E & Hx) & HS). injection E as <-.
    split; [exists (s * sg)%R; split; [reflexivity|]; intros Z; apply Rmult_integral in Z; destruct Z; [lra|contradiction]|exact HS]. }
  destruct (p_forward_gt c g q fr T HI HB HH HW Ho HS ET) as (m & ps & maps & U & E1 & E2 & E3 & E4 & E5 & E6).
  destruct (p_forward_gt c' g' q' fr' T' HI' ltac:(lia) ltac:(lia) ltac:(lia) Ho' HS' ET') as (m' & ps' & maps' & U' & E1' & E2' & E3' & E4' & E5' & E6').
  exists m, ps, m', ps', (maps (fL fr)), (maps' (fL fr')). repeat (split; [assumption|]). rewrite SL in *. unfold sim_mapping in SG.
  destruct (s_map c) as [|d th [|sg|]] eqn:Hm, (s_map c') as [|d' th' [|sg'|]] eqn:Hm'; try contradiction.
  - intros b Hb.
    assert (RW : forall X, X <> Features -> rows_of (maps (fL fr)) X b = map (fun p => map (frame_attr (moment (fst p) fr) X b (fst (snd p)) (snd (snd p))) [0; 1; 2]) (run_pixels fr b (fL fr))).
    { intros X HX. destruct (p_forward_gt_map c g q fr T HI HB HH HW Ho Hm ET) as (m1 & t1 & a1 & F1 & _ & _ & S1 & R1). rewrite E1 in F1. injection F1 as <- <-. rewrite (shows_one _ _ _ E5 S1), R1 by assumption. apply run_rows. }
    assert (RW' : forall X, X <> Features -> rows_of (maps' (fL fr)) X b = map (fun p => map (frame_attr (moment (fst p) fr') X b (fst (snd p)) (snd (snd p))) [0; 1; 2]) (run_pixels fr' b (fL fr))).
    { intros X HX. destruct (p_forward_gt_map c' g' q' fr' T' HI' ltac:(lia) ltac:(lia) ltac:(lia) Ho' Hm' ET') as (m1 & t1 & a1 & F1 & _ & _ & S1 & R1). rewrite E1' in F1. injection F1 as <- <-. rewrite (shows_one _ _ _ E5' S1), R1 by (assumption || lia). rewrite SL. apply run_rows. }
    assert (EP : run_pixels fr' b (fL fr) = run_pixels fr b (fL fr)).
    { unfold run_pixels. f_equal. apply map_ext_in. intros l Hl. apply in_seq in Hl. f_equal.
      pose proof (s_chosen s Q t _ _ Hs (shot_sim s Q t fr fr' T T' l SF ET ET' ltac:(lia)) HH HW b ltac:(cbn; rewrite seq_length; exact Hb) ltac:(cbn; lia)) as E. exact E. }
    split; [rewrite !npoints_rows, RW, RW', !map_length, EP by discriminate; reflexivity|]. intros n Hn. rewrite npoints_rows, RW, map_length in Hn by discriminate.
    assert (CF : conf (maps' (fL fr)) b n = conf (maps (fL fr)) b n).
    { unfold conf, attr_at. cbn [qget]. assert (Z : forall c fr maps U L, s_map c = Aggregate -> 0 < L -> Trajectory c fr L maps U -> qf (maps L) = None).
      { intros c0 f0 mp U0 L Hm0 HL [_ H]. destruct L as [|L]; [lia|]. destruct (H L ltac:(lia)) as [_ K]. unfold Mapped in K. rewrite Hm0 in K. apply K. }
      assert (HL : 0 < fL fr). { destruct (fL fr); [cbn in Hn; lia|lia]. }
      rewrite (Z c fr maps U (fL fr) Hm HL E3), (Z c' fr' maps' U' (fL fr) Hm' HL E3'). reflexivity. }
    assert (AT : forall X, X <> Features -> exists l h w, nth n (run_pixels fr b (fL fr)) (0, (0, 0)) = (l, (h, w)) /\ l < fL fr /\ h < fH fr /\ w < fW fr /\ (0 < fdep (moment l fr) b 0 h w)%R /\
       veq 3 (attr_at (maps (fL fr)) X b n) (frame_attr (posed (fun b => T b l) (moment l fr)) X b h w) /\ veq 3 (attr_at (maps' (fL fr)) X b n) (frame_attr (posed (fun b => T' b l) (moment l fr')) X b h w)).
    { intros X HX. destruct (agg_attr _ _ _ _ _ n HX (RW X HX) Hn) as (l & h & w & K1 & K2 & K3 & K4 & K5 & K6). exists l, h, w. repeat (split; [assumption|]).
      destruct (agg_attr _ _ _ _ _ n HX (RW' X HX) ltac:(rewrite EP; exact Hn)) as (l' & h' & w' & K1' & _ & _ & _ & _ & K6'). rewrite EP in K1'. rewrite K1 in K1'. injection K1' as <- <- <-.
      rewrite (moment_posed l fr T ET K2) in K6 by exact Hb. rewrite (moment_posed l fr' T' ET' ltac:(lia)) in K6' by lia. split; assumption. }
    pose proof (AT Points ltac:(discriminate)) as AP. pose proof (AT Normals ltac:(discriminate)) as AN. pose proof (AT Colors ltac:(discriminate)) as AC.
    destruct AP as (l & h & w & K1 & K2 & K3 & K4 & K5 & P1 & P2). destruct AN as (l1 & h1 & w1 & L1 & _ & _ & _ & _ & N1 & N2). destruct AC as (l2 & h2 & w2 & L2 & _ & _ & _ & _ & C1 & C2).
    rewrite K1 in L1, L2. injection L1 as <- <- <-. injection L2 as <- <- <-.
    pose proof (shot_sim s Q t fr fr' T T' l SF ET ET' K2) as SS. set (f := posed (fun b => T b l) (moment l fr)) in *. set (f' := posed (fun b => T' b l) (moment l fr')) in *.
    assert (Hi : inside f b 0 h w) by (repeat split; try assumption; [cbn; rewrite seq_length; exact Hb|cbn; lia]). cbn [frame_attr] in *.
    split; [|split; [|split; [|exact CF]]].
    + intros j Hj. rewrite P2 by exact Hj. rewrite (s_gvertex s Q t f f' (fun b _ => T b l) (fun b _ => T' b l) Hs SS eq_refl eq_refl HH HW b 0 h w Hi K5 j Hj). unfold sim_pt, mvec. cbn [rsum]. rewrite !P1 by lia. reflexivity.
    + intros j Hj. rewrite N2 by exact Hj. rewrite (s_gnormal s Q t f f' (fun b _ => T b l) (fun b _ => T' b l) Hs SS eq_refl eq_refl HH HW b 0 h w Hi j Hj). unfold mvec. cbn [rsum]. rewrite !N1 by lia. reflexivity.
    + intros j Hj. rewrite C2, C1 by exact Hj. destruct SS as (_ & _ & _ & _ & _ & SD1 & _). destruct (SD1 _ _ _ _ Hi) as (_ & EK & _). now apply EK.
  - destruct SG as (-> & -> & -> & Hth). unfold Sizes in HS. rewrite Hm in HS. destruct HS as ((x & E & Hsg) & _). injection E as <-.
    apply (sim_maps c c' d th sg s Q t fr fr' T T' maps maps' (fL fr)); try assumption; try lia.
    + apply (traj_pose c fr _ maps U T d th (SigNum sg) Ho Hm (le_n _) E6 E3).
    + apply (traj_pose c' fr' _ maps' U' T' _ _ _ Ho' Hm'); [lia| |exact E3']. intros b l Hb Hl. apply E6'; lia.
Qed.

(* ---------------- a concrete instance *)
Definition moved (s : R) (Q : mat) (t : vec) (fr : frames) : frames :=
  mkFrames (fB fr) (fL fr) (fH fr) (fW fr) (frgb fr) (fun b l h w => s * fdep fr b l h w)%R (fK fr)
    (option_map (fun T b l i j => if j <? 3 then mmul 3 Q (T b l) i j else sim_pt s Q t (tr_of (T b l)) i)%R (fpose fr)) (fpix fr).
Lemma moved_sim s Q t fr : sim_frames s Q t fr (moved s Q t fr).
Proof.
  do 4 (split; [reflexivity|]). split; [intros b _; apply MatProofs.meq_refl|]. split; [intros b l h w _; split; [reflexivity|split; intros k _; reflexivity]|].
  cbn [fpose moved]. destruct (fpose fr) as [T|]; cbn [opt_rel option_map]; [|exact I]. intros b l _ _. split.
  - intros i j Hi Hj. unfold rot_of. destruct (Nat.ltb_spec j 3); [reflexivity|lia].
  - intros i Hi. reflexivity.
Qed.
(* a quarter turn about the z axis *)
Definition quarter : mat := fun i j => match i, j with 0, 1 => (-1)%R | 1, 0 => 1%R | 2, 2 => 1%R | _, _ => 0%R end.
Lemma quarter_orth : orthogonal3 quarter.
Proof. split; intros i j Hi Hj; unfold mmul, mtr, quarter, mI, delta; (destruct i as [|[|[|i]]]; [| | |lia]); (destruct j as [|[|[|j]]]; [| | |lia]); cbn; ring. Qed.
