(* C76: a frame's own points are imaged at their own pixels. *)
From Coq Require Import Reals List Arith Bool ZArith Lia Lra.
From Verif Require Import Res Fld StructUtilsModel PointcloudsModel PointcloudsSpec MatSpec GeomSpec TensorModel
  RgbdModel RgbdSpec FusionModel FusionSpec Se3Model SolveModel IcpModel IcpSpec OdomSpec SlamModel SlamSpec StillSpec.
Import ListNotations.
Local Open Scope R_scope.

Lemma to_camera_act T v : rigid4 T -> veq 3 (to_camera T (act T v)) v.
Proof.
  intros (_ & (HO & _) & _) i Hi. unfold to_camera, act, mvec, tr_of, rot_of. cbn [rsum].
  pose proof (HO i 0%nat Hi ltac:(lia)) as E0. pose proof (HO i 1%nat Hi ltac:(lia)) as E1. pose proof (HO i 2%nat Hi ltac:(lia)) as E2.
  unfold mmul, mtr, rot_of, mI, delta in E0, E1, E2. cbn [rsum] in E0, E1, E2.
  transitivity ((0 + T 0%nat i * T 0%nat 0%nat + T 1%nat i * T 1%nat 0%nat + T 2%nat i * T 2%nat 0%nat) * v 0%nat +
    (0 + T 0%nat i * T 0%nat 1%nat + T 1%nat i * T 1%nat 1%nat + T 2%nat i * T 2%nat 1%nat) * v 1%nat +
    (0 + T 0%nat i * T 0%nat 2%nat + T 1%nat i * T 1%nat 2%nat + T 2%nat i * T 2%nat 2%nat) * v 2%nat); [ring|].
  rewrite E0, E1, E2. destruct i as [|[|[|i]]]; [| | |lia]; cbn; ring.
Qed.
Lemma to_camera_ext T T' p p' : meq 4 4 T T' -> veq 3 p p' -> veq 3 (to_camera T p) (to_camera T' p').
Proof. intros H1 H2 i Hi. unfold to_camera. cbn [rsum]. rewrite !H1, !H2 by lia. reflexivity. Qed.
Lemma image_pos_ext K q q' : veq 3 q q' -> image_pos K q = image_pos K q'.
Proof.
  intros H. unfold image_pos, project_spec. assert (E : mvec 4 K (hom 3 q) = mvec 4 K (hom 3 q')); [|rewrite E; reflexivity].
  apply FunctionalExtensionality.functional_extensionality. intros i. unfold mvec, hom. cbn. rewrite !H by lia. reflexivity.
Qed.
Lemma imaged_ext fr T T' b p p' h w : meq 4 4 T T' -> veq 3 p p' -> imaged_at fr T b p h w -> imaged_at fr T' b p' h w.
Proof.
  intros H1 H2. unfold imaged_at. cbv zeta. pose proof (to_camera_ext T T' p p' H1 H2) as E. rewrite (image_pos_ext (fK fr b) _ _ E), (E 2%nat) by lia. auto.
Qed.

(* the focal length used for back-projection is larger by 1e-6: the image position is off by less than 1/1000 *)
Lemma focal_shift f c x d : 0 < f -> 0 < d -> Rabs (x - c) < 1000 * f ->
  Rabs ((f * (d * (/ (f + / 1000000) * x + - c / (f + / 1000000))) + c * d) / d - x) < / 1000.
Proof.
  intros Hf Hd H. set (e := / 1000000). assert (He : 0 < e) by (unfold e; lra).
  replace ((f * (d * (/ (f + e) * x + - c / (f + e))) + c * d) / d - x) with (- (x - c) * (e / (f + e))) by (field; split; lra).
  rewrite Rabs_mult, Rabs_Ropp. rewrite (Rabs_right (e / (f + e))) by (left; apply Rdiv_lt_0_compat; lra).
  apply Rlt_le_trans with (1000 * f * (e / (f + e))).
  - apply Rmult_lt_compat_r; [apply Rdiv_lt_0_compat; lra|exact H].
  - assert (L : f * (e / (f + e)) <= e).
    { apply Rmult_le_reg_r with (f + e); [lra|]. replace (f * (e / (f + e)) * (f + e)) with (f * e) by (field; lra). nra. }
    assert (1000 * e = / 1000) by (unfold e; lra). nra.
Qed.
Lemma vertex_pos fr b h w fx fy cx cy : fpix fr = None -> meq 4 4 (fK fr b) (pinhole fx fy cx cy 0) -> 0 < fdep fr b 0 h w ->
  let d := fdep fr b 0 h w in
  vertex fr b 0 h w 0%nat = d * (/ (fx + / 1000000) * INR w + - cx / (fx + / 1000000)) /\
  vertex fr b 0 h w 1%nat = d * (/ (fy + / 1000000) * INR h + - cy / (fy + / 1000000)) /\
  vertex fr b 0 h w 2%nat = d.
Proof.
  intros Hp HK Hd. cbv zeta. unfold vertex, keep, pixel. rewrite Hp. destruct (Rlt_dec 0 (fdep fr b 0 h w)); [|contradiction].
  unfold mvec, kinv. cbn [rsum]. rewrite !HK by lia. unfold pinhole, vec3. repeat split; ring.
Qed.
Lemma image_exact K fx fy cx cy q : meq 4 4 K (pinhole fx fy cx cy 0) -> 0 < q 2%nat ->
  image_pos K q 0%nat = (fx * q 0%nat + cx * q 2%nat) / q 2%nat /\ image_pos K q 1%nat = (fy * q 1%nat + cy * q 2%nat) / q 2%nat.
Proof.
  intros HK Hq. unfold image_pos, project_spec, persp.
  assert (E : mvec 4 K (hom 3 q) 2%nat = q 2%nat) by (unfold mvec, hom; cbn; rewrite !HK by lia; cbn; ring). rewrite E.
  destruct (Req_EM_T (q 2%nat) 0); [lra|].
  split; f_equal; unfold mvec, hom; cbn; rewrite !HK by lia; cbn; ring.
Qed.
Lemma near_int x k : Rabs (x - INR k) < / 1000 -> FusionSpec.nearest x k.
Proof. intros H. split; [lra|]. intros E. lra. Qed.
Lemma near_unique x k k' : Rabs (x - INR k) < / 1000 -> FusionSpec.nearest x k' -> k' = k.
Proof.
  intros H [H' _]. assert (A : Rabs (INR k' - INR k) < 1).
  { replace (INR k' - INR k) with ((x - INR k) + - (x - INR k')) by ring. eapply Rle_lt_trans; [apply Rabs_triang|]. rewrite Rabs_Ropp. lra. }
  apply Rabs_def2 in A. destruct (Nat.lt_trichotomy k k') as [L|[->|L]]; [|reflexivity|]; apply le_INR in L; rewrite S_INR in L; lra.
Qed.
Section Own.
  Variables (fr : frames) (T : mat) (b h w : nat).
  Hypothesis Hp : fpix fr = None.
  Hypothesis HK : ordinary_camera (fH fr) (fW fr) (fK fr b).
  Hypothesis HT : rigid4 T.
  Hypothesis Hh : (h < fH fr)%nat.
  Hypothesis Hw : (w < fW fr)%nat.
  Hypothesis Hd : 0 < fdep fr b 0 h w.
  Lemma own_close : let uv := image_pos (fK fr b) (to_camera T (act T (vertex fr b 0 h w))) in
    0 < to_camera T (act T (vertex fr b 0 h w)) 2%nat /\ Rabs (uv 0%nat - INR w) < / 1000 /\ Rabs (uv 1%nat - INR h) < / 1000.
  Proof.
    cbv zeta. rewrite (image_pos_ext _ _ _ (to_camera_act T (vertex fr b 0 h w) HT)), (to_camera_act T (vertex fr b 0 h w) HT 2%nat) by lia.
    destruct HK as (fx & fy & cx & cy & EK & Hfx & Hfy & Bw & Bh). destruct (vertex_pos fr b h w fx fy cx cy Hp EK Hd) as (V0 & V1 & V2).
    assert (P : 0 < vertex fr b 0 h w 2%nat) by (rewrite V2; exact Hd).
    destruct (image_exact (fK fr b) fx fy cx cy _ EK P) as [-> ->]. rewrite V0, V1, V2. split; [exact Hd|].
    split; apply focal_shift; auto.
  Qed.
  Lemma own_pixel : imaged_at fr T b (act T (vertex fr b 0 h w)) h w.
  Proof.
    destruct own_close as (P & U & V). unfold imaged_at. cbv zeta in *. split; [exact P|].
    set (uv := image_pos _ _) in *. split; [|split; apply near_int; assumption].
    apply Rabs_def2 in U, V. pose proof (pos_INR w). pose proof (pos_INR h). pose proof (le_INR _ _ Hw) as L1. pose proof (le_INR _ _ Hh) as L2. rewrite S_INR in L1, L2.
    unfold in_rectangle. lra.
  Qed.
  Lemma own_only h' w' : imaged_at fr T b (act T (vertex fr b 0 h w)) h' w' -> h' = h /\ w' = w.
  Proof.
    intros (_ & _ & N1 & N2). destruct own_close as (_ & U & V). cbv zeta in *. split; eapply near_unique; eassumption.
  Qed.
End Own.
