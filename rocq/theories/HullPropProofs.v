(* Proofs for C79: the statements. *)
From Coq Require Import Reals List Arith Bool ZArith Lia Lra Psatz Sorting.Sorted.
From Verif Require Import Res Fld StructUtilsModel PointcloudsModel PointcloudsSpec PointcloudsIndexSpec PointcloudsHist MatSpec GeomSpec TensorModel TensorProofs
  RgbdModel RgbdSpec RgbdPropProofs FusionModel FusionSpec FusionMap FusionPropProofs FusionPropProofs2 Se3Model SolveModel IcpModel IcpSpec OdomSpec SlamModel SlamSpec MatProofs IcpGnProofs FusionCorr
  SlamProofs SlamPropProofs StillMapProofs IcpRunProofs2 HullSpec HullProofs.
Import ListNotations.
Local Open Scope nat_scope.

Lemma p_hull : forall c g q fr m t,
  RHist q g false fr -> 0 < fB fr -> 0 < fL fr -> 2 <= fH fr -> 2 <= fW fr -> Ratio c -> facing c ->
  Sizes c (fB fr) (fH fr) (fW fr) (fL fr * (fH fr * fW fr)) -> (s_odom c = OGt -> 2 <= fL fr -> fpose fr <> None) ->
  forward c true g = (Ok (m, t), g) ->
  exists a T, ReadyToClone RF m a /\ Shows RF m a /\ len_view RF a = fB fr /\ Poses fr t T /\
    forall S x b, convex S -> x <> Features -> b < fB fr ->
      (forall l h w, measured fr b l h w -> S (observed fr T x b l h w)) -> forall i, i < npoints a b -> S (attr_at a x b i).
Proof.
  intros c g q fr m t H HB HL HH HW HR Hf HS HG E. pose proof (p_forward c g q fr H HB HH HW HR HS HG) as K. rewrite E in K.
  destruct K as (_ & maps & T & K1 & K2 & K3 & K4). exists (maps (fL fr)), T. split; [exact K2|]. split; [exact K3|].
  split; [exact (traj_len _ _ _ _ _ K1 HL)|]. split; [exact K4|]. intros S x b CS Hx Hb HO i Hi.
  apply (hull_map c fr T maps (fL fr) K1 (le_n _) Hf S x (fL fr) b CS Hx (le_n _) Hb); [|exact Hi]. intros l h w _ Me. now apply HO.
Qed.

(* colours stay in their range *)
Lemma convex_range lo hi j : j < 3 -> convex (fun v => (lo <= v j <= hi)%R).
Proof.
  intros Hj. split.
  - intros u v E. rewrite (E j Hj). trivial.
  - intros u v s Hs Hu Hv. split; nra.
Qed.
Lemma norm3_sq v : (norm 3 v * norm 3 v = v 0%nat * v 0%nat + v 1%nat * v 1%nat + v 2%nat * v 2%nat)%R.
Proof. unfold norm. rewrite sqrt_sqrt; unfold dot; cbn [rsum]; nra. Qed.
Lemma norm3_le v r : (0 <= r)%R -> (norm 3 v <= r <-> v 0%nat * v 0%nat + v 1%nat * v 1%nat + v 2%nat * v 2%nat <= r * r)%R.
Proof.
  intros Hr. rewrite <- norm3_sq. assert (0 <= norm 3 v)%R by (unfold norm; apply sqrt_pos). split; intros K; nra.
Qed.
Lemma convex_ball r : (0 <= r)%R -> convex (fun v => norm 3 v <= r)%R.
Proof.
  intros Hr. split.
  - intros u v E. rewrite !norm3_le by exact Hr. rewrite !E by lia. trivial.
  - intros u v s Hs. rewrite !norm3_le by exact Hr. intros Hu Hv.
    set (U := (u 0%nat * u 0%nat + u 1%nat * u 1%nat + u 2%nat * u 2%nat)%R) in *. set (V := (v 0%nat * v 0%nat + v 1%nat * v 1%nat + v 2%nat * v 2%nat)%R) in *.
    set (D := ((u 0%nat - v 0%nat) * (u 0%nat - v 0%nat) + (u 1%nat - v 1%nat) * (u 1%nat - v 1%nat) + (u 2%nat - v 2%nat) * (u 2%nat - v 2%nat))%R).
    match goal with |- (?X <= _)%R => replace X with ((1 - s) * U + s * V - s * (1 - s) * D)%R by (unfold U, V, D; ring) end.
    assert (0 <= D)%R by (unfold D; repeat apply Rplus_le_le_0_compat; apply Rle_0_sqr). assert (0 <= s * (1 - s))%R by (apply Rmult_le_pos; lra).
    assert (0 <= s * (1 - s) * D)%R by (apply Rmult_le_pos; assumption). assert (0 <= (1 - s) * (r * r - U))%R by (apply Rmult_le_pos; lra). assert (0 <= s * (r * r - V))%R by (apply Rmult_le_pos; lra). lra.
Qed.
Lemma p_colours : forall c g q fr m t lo hi,
  RHist q g false fr -> 0 < fB fr -> 0 < fL fr -> 2 <= fH fr -> 2 <= fW fr -> Ratio c -> facing c ->
  Sizes c (fB fr) (fH fr) (fW fr) (fL fr * (fH fr * fW fr)) -> (s_odom c = OGt -> 2 <= fL fr -> fpose fr <> None) ->
  (forall b l h w j, b < fB fr -> measured fr b l h w -> j < 3 -> (lo <= frgb fr b l h w j <= hi)%R) ->
  forward c true g = (Ok (m, t), g) ->
  exists a, Shows RF m a /\ len_view RF a = fB fr /\ forall b i j, b < fB fr -> i < npoints a b -> j < 3 -> (lo <= attr_at a Colors b i j <= hi)%R.
Proof.
  intros c g q fr m t lo hi H HB HL HH HW HR Hf HS HG HC E. destruct (p_hull c g q fr m t H HB HL HH HW HR Hf HS HG E) as (a & T & K1 & K2 & K3 & K4 & K5).
  exists a. split; [exact K2|]. split; [exact K3|]. intros b i j Hb Hi Hj.
  apply (K5 (fun v => lo <= v j <= hi)%R Colors b (convex_range lo hi j Hj) ltac:(discriminate) Hb); [|exact Hi]. intros l h w Me. cbn [observed]. now apply HC.
Qed.
(* normals are never longer than 1 *)
Lemma normal_short fr b l h w : (norm 3 (normal fr b l h w) <= 1)%R.
Proof.
  assert (Z : forall v, (forall j, v j = 0)%R -> norm 3 v = 0%R) by (intros v Hv; unfold norm, dot; cbn [rsum]; rewrite !Hv; rewrite !Rmult_0_l, !Rplus_0_l; exact sqrt_0).
  destruct (Rlt_dec 0 (fdep fr b l h w)) as [D|D].
  - assert (E : norm 3 (normal fr b l h w) = norm 3 (unitize (cross (tangent_h fr b l h w) (tangent_v fr b l h w)))).
    { unfold norm, dot, normal, keep. cbn [rsum]. destruct (Rlt_dec 0 (fdep fr b l h w)); [reflexivity|contradiction]. }
    rewrite E. destruct (unitize_norm (cross (tangent_h fr b l h w) (tangent_v fr b l h w))) as [[-> _]|[-> _]]; lra.
  - rewrite Z; [lra|]. intros j. unfold normal, keep. destruct (Rlt_dec 0 (fdep fr b l h w)); [contradiction|reflexivity].
Qed.
Lemma rotate_norm Q v : orthogonal3 Q -> norm 3 (mvec 3 Q v) = norm 3 v.
Proof. intros H. unfold norm. now rewrite iso_rotation. Qed.
Lemma p_normals : forall c g q fr m t,
  RHist q g false fr -> 0 < fB fr -> 0 < fL fr -> 2 <= fH fr -> 2 <= fW fr -> Ratio c -> facing c ->
  Sizes c (fB fr) (fH fr) (fW fr) (fL fr * (fH fr * fW fr)) -> (s_odom c = OGt -> 2 <= fL fr -> fpose fr <> None) ->
  forward c true g = (Ok (m, t), g) -> (forall b l, b < fB fr -> l < fL fr -> orthogonal3 (rot_of (ent t [l; b]))) ->
  exists a, Shows RF m a /\ len_view RF a = fB fr /\ forall b i, b < fB fr -> i < npoints a b -> (norm 3 (attr_at a Normals b i) <= 1)%R.
Proof.
  intros c g q fr m t H HB HL HH HW HR Hf HS HG E HO. destruct (p_hull c g q fr m t H HB HL HH HW HR Hf HS HG E) as (a & T & K1 & K2 & K3 & K4 & K5).
  exists a. split; [exact K2|]. split; [exact K3|]. intros b i Hb Hi.
  apply (K5 (fun v => norm 3 v <= 1)%R Normals b (convex_ball 1 Rle_0_1) ltac:(discriminate) Hb); [|exact Hi]. intros l h w Me. cbn [observed].
  rewrite rotate_norm; [apply normal_short|]. eapply orth_ext; [|apply (HO b l Hb); apply Me]. intros r k Hr Hk. unfold rot_of. apply (proj2 K4); [exact Hb|apply Me|lia|lia].
Qed.
(* confidences *)
Lemma p_confidence : forall c g q fr m t d th s,
  RHist q g false fr -> 0 < fB fr -> 0 < fL fr -> 2 <= fH fr -> 2 <= fW fr -> Ratio c -> s_map c = Fusion d th s ->
  Sizes c (fB fr) (fH fr) (fW fr) (fL fr * (fH fr * fW fr)) -> (s_odom c = OGt -> 2 <= fL fr -> fpose fr <> None) ->
  forward c true g = (Ok (m, t), g) ->
  exists a, Shows RF m a /\ len_view RF a = fB fr /\ forall b i, b < fB fr -> i < npoints a b -> (/ 10000000 <= conf a b i <= INR (fL fr))%R.
Proof.
  intros c g q fr m t d th s H HB HL HH HW HR Hm HS HG E. pose proof (p_forward c g q fr H HB HH HW HR HS HG) as K. rewrite E in K.
  destruct K as (_ & maps & T & K1 & K2 & K3 & K4). exists (maps (fL fr)). split; [exact K3|]. split; [exact (traj_len _ _ _ _ _ K1 HL)|].
  intros b i Hb Hi. exact (fused_conf c fr T maps (fL fr) K1 (le_n _) d th s (fL fr) b i Hm (le_n _) Hb Hi).
Qed.
Lemma sum_sq0 x y z : (x * x + y * y + z * z <= 0 -> x = 0 /\ y = 0 /\ z = 0)%R.
Proof.
  intros H. pose proof (Rle_0_sqr x) as X. pose proof (Rle_0_sqr y) as Y. pose proof (Rle_0_sqr z) as Z. unfold Rsqr in *.
  repeat split; apply Rsqr_0_uniq; unfold Rsqr; lra.
Qed.
(* merging two different unit normals gives a normal shorter than 1 *)
Lemma p_shrink : forall s a g fr q rows sigma inplace,
  ReadyToClone RF s a -> RHist q g false fr -> live fr -> sigma <> 0%R -> qp a <> None -> full_map a -> fB fr = len_view RF a ->
  Forall (in_map a) rows -> Forall (in_image fr) rows -> points_once rows ->
  exists o s' g' a', fuse_with_map (Tbl rows) (SigNum sigma) inplace (s, g) = (Ok o, (s', g')) /\ Shows RF (returned o s') a' /\
    forall b n h w, b < fB fr -> matched rows b n h w -> (0 < conf a b n)%R ->
      norm 3 (attr_at a Normals b n) = 1%R -> norm 3 (global_normal fr b 0 h w) = 1%R ->
      ~ veq 3 (attr_at a Normals b n) (global_normal fr b 0 h w) -> (norm 3 (attr_at a' Normals b n) < 1)%R.
Proof.
  intros s a g fr q rows sigma inplace Hs Hg HL Hsg Hp Hf HB HM HI HO.
  destruct (p_fuse s a g fr q rows sigma inplace Hs Hg HL Hsg (fun _ => conj Hf HB) HM HI HO) as (o & s' & g' & a' & E & _ & _ & Sh & [_ HF] & _).
  exists o, s', g', a'. split; [exact E|]. split; [exact Sh|]. intros b n h w Hb M Hc Hu Hv Hne. destruct (HF b Hb) as (_ & _ & _ & K4 & _). destruct (K4 n h w M) as [_ K].
  pose proof (alpha_range sigma (vertex fr b 0 h w)) as A. fold (frame_alpha sigma fr b h w) in A. cbv zeta in K.
  set (al := frame_alpha sigma fr b h w) in *. set (c0 := conf a b n) in *. set (u := attr_at a Normals b n) in *. set (v := global_normal fr b 0 h w) in *.
  pose proof (norm3_sq u) as U. pose proof (norm3_sq v) as V. rewrite Hu in U. rewrite Hv in V. pose proof (norm3_sq (attr_at a' Normals b n)) as W.
  rewrite !(K Normals) in W by (discriminate || lia). cbn [frame_attr] in W. fold v in W. unfold wmean in W. fold u in W.
  assert (D : (0 < (u 0%nat - v 0%nat) * (u 0%nat - v 0%nat) + (u 1%nat - v 1%nat) * (u 1%nat - v 1%nat) + (u 2%nat - v 2%nat) * (u 2%nat - v 2%nat))%R).
  { destruct (Rle_lt_dec ((u 0%nat - v 0%nat) * (u 0%nat - v 0%nat) + (u 1%nat - v 1%nat) * (u 1%nat - v 1%nat) + (u 2%nat - v 2%nat) * (u 2%nat - v 2%nat)) 0) as [L|L]; [|exact L].
    exfalso. apply Hne. apply sum_sq0 in L. intros j Hj. destruct j as [|[|[|j]]]; [| | |lia]; lra. }
  set (x := norm 3 (attr_at a' Normals b n)) in *. assert (0 <= x)%R by (unfold x, norm; apply sqrt_pos).
  set (k := (/ (c0 + al))%R). assert (Hk : (k * (c0 + al) = 1)%R) by (unfold k; apply Rinv_l; lra). assert (0 < k)%R by (unfold k; apply Rinv_0_lt_compat; lra).
  unfold Rdiv in W. fold k in W.
  assert (W2 : (x * x = 1 - k * k * c0 * al * ((u 0%nat - v 0%nat) * (u 0%nat - v 0%nat) + (u 1%nat - v 1%nat) * (u 1%nat - v 1%nat) + (u 2%nat - v 2%nat) * (u 2%nat - v 2%nat)))%R).
  { rewrite W. replace 1%R with ((k * (c0 + al)) * (k * (c0 + al)))%R by (rewrite Hk; ring).
    set (p := (u 0%nat * v 0%nat + u 1%nat * v 1%nat + u 2%nat * v 2%nat)%R).
    transitivity (k * k * (c0 * c0 * (u 0%nat * u 0%nat + u 1%nat * u 1%nat + u 2%nat * u 2%nat) + al * al * (v 0%nat * v 0%nat + v 1%nat * v 1%nat + v 2%nat * v 2%nat) + 2 * c0 * al * p))%R; [unfold p; ring|].
    transitivity (k * (c0 + al) * (k * (c0 + al)) - k * k * c0 * al * ((u 0%nat * u 0%nat + u 1%nat * u 1%nat + u 2%nat * u 2%nat) + (v 0%nat * v 0%nat + v 1%nat * v 1%nat + v 2%nat * v 2%nat) - 2 * p))%R; [|unfold p; ring].
    rewrite <- U, <- V. ring. }
  set (DD := ((u 0%nat - v 0%nat) * (u 0%nat - v 0%nat) + (u 1%nat - v 1%nat) * (u 1%nat - v 1%nat) + (u 2%nat - v 2%nat) * (u 2%nat - v 2%nat))%R) in *.
  assert (0 < k * k * c0 * al * DD)%R by (repeat apply Rmult_lt_0_compat; lra). nra.
Qed.
