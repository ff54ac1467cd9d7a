(* C50, C52-C54: closed statements for the property file. *)
From Coq Require Import Reals List Arith Bool ZArith Lra Lia.
From Verif Require Import Res Fld StructUtilsModel PointcloudsModel PointcloudsSpec PointcloudsIndexSpec PointcloudsCtorSpec PointcloudsHist PointcloudsPropProofs
  MatSpec GeomSpec TensorModel RgbdModel RgbdSpec FusionModel FusionSpec FusionMap Se3Model SolveModel IcpModel IcpSpec OdomSpec
  IcpRunProofs IcpRunProofs2 IcpArgProofs DownProofs ProvideProofs RgbdWitness.
Import ListNotations.
Local Open Scope R_scope.

Lemma p_icp_total : forall nn src tgt nor ns nt th init n damp, icp_input nn src tgt nor ns nt th -> mat44 init -> 0 < damp -> (0 < n)%Z ->
  exists T idx, point_to_plane_ICP nn (TTen src) (TTen tgt) (TTen nor) (TTen init) (IntV n) damp th = Ok (T, idx) /\
    mat44 T /\ (affine4 (ent init []) -> affine4 (ent T [])).
Proof. intros nn src tgt nor ns nt th init n damp Hin. exact (r_total nn src tgt nor ns nt th Hin init n damp). Qed.
Lemma p_icp_mono : forall nn src tgt nor ns nt th init n m damp, icp_input nn src tgt nor ns nt th ->
  mat44 init -> affine4 (ent init []) -> 0 < damp -> (0 < n <= m)%Z ->
  let err := plane_err nn (keep_sq th) ns nt (pts_of tgt) (pts_of nor) in
  let run k := point_to_plane_ICP nn (TTen src) (TTen tgt) (TTen nor) (TTen init) (IntV k) damp th in
  exists T1 i1 T2 i2, run n = Ok (T1, i1) /\ run m = Ok (T2, i2) /\
    err (moved (ent T2 []) (pts_of src)) <= err (moved (ent T1 []) (pts_of src)) <= err (moved (ent init []) (pts_of src)).
Proof. intros nn src tgt nor ns nt th init n m damp Hin. exact (r_mono nn src tgt nor ns nt th Hin init n m damp). Qed.
Lemma p_icp_one : forall nn src tgt nor ns nt th init damp, icp_input nn src tgt nor ns nt th -> mat44 init -> 0 < damp ->
  let err := plane_err nn (keep_sq th) ns nt (pts_of tgt) (pts_of nor) in
  let s := moved (ent init []) (pts_of src) in
  exists T idx xi E, point_to_plane_ICP nn (TTen src) (TTen tgt) (TTen nor) (TTen init) (IntV 1) damp th = Ok (T, idx) /\
    proposal nn (keep_sq th) ns nt (pts_of tgt) (pts_of nor) s damp xi E /\
    idx = map (fun i => match_of nn nt (pts_of tgt) (s i)) (kept_pts nn (keep_sq th) ns nt (pts_of tgt) s) /\
    ((err (moved E s) < err s /\ meq 4 4 (ent T []) (mmul 4 E (ent init []))) \/
     (err s <= err (moved E s) /\ meq 4 4 (ent T []) (ent init []))).
Proof. intros nn src tgt nor ns nt th init damp Hin. exact (r_one nn src tgt nor ns nt th Hin init damp). Qed.
Lemma p_icp_restart : forall nn src tgt nor ns nt th init damp n, icp_input nn src tgt nor ns nt th ->
  mat44 init -> affine4 (ent init []) -> 0 < damp -> (0 < n)%Z ->
  let err := plane_err nn (keep_sq th) ns nt (pts_of tgt) (pts_of nor) in
  let s := moved (ent init []) (pts_of src) in
  let run T k d := point_to_plane_ICP nn (TTen src) (TTen tgt) (TTen nor) (TTen T) (IntV k) d th in
  exists T1 i1 T T' idx, run init 1%Z damp = Ok (T1, i1) /\ run init (1 + n)%Z damp = Ok (T, idx) /\
    run T1 n (if Rlt_dec (err (moved (ent T1 []) (pts_of src))) (err s) then damp / 2 else damp * 2) = Ok (T', idx) /\
    mat44 T1 /\ affine4 (ent T1 []) /\ meq 4 4 (ent T []) (ent T' []).
Proof. intros nn src tgt nor ns nt th init damp n Hin. exact (r_restart nn src tgt nor ns nt th Hin init damp n). Qed.
Lemma p_icp_near : forall nn src tgt nor ns nt th init n damp d, icp_input nn src tgt nor ns nt th ->
  mat44 init -> affine4 (ent init []) -> 0 <= d -> near_isometry d (rot_of (ent init [])) -> 0 < damp -> (0 < n)%Z ->
  exists T idx, point_to_plane_ICP nn (TTen src) (TTen tgt) (TTen nor) (TTen init) (IntV n) damp th = Ok (T, idx) /\
    affine4 (ent T []) /\ near_isometry ((1 + se3_eps * se3_eps) ^ Z.to_nat n * d) (rot_of (ent T [])).
Proof. intros nn src tgt nor ns nt th init n damp d Hin. exact (r_near nn src tgt nor ns nt th Hin init n damp d). Qed.
Lemma p_grad_total : forall nn src tgt nor ns nt th lmax B B2 nu init n damp, icp_input nn src tgt nor ns nt th ->
  0 < lmax -> nu <> 0 -> mat44 init -> 0 < damp -> (0 < n)%Z ->
  exists T idx, point_to_plane_gradICP nn (TTen src) (TTen tgt) (TTen nor) (TTen init) (IntV n) damp th (Num lmax) (Num B) (Num B2) (Num nu) = Ok (T, idx) /\
    mat44 T /\ (affine4 (ent init []) -> affine4 (ent T [])).
Proof. intros nn src tgt nor ns nt th lmax B B2 nu init n damp Hin Hl Hnu. exact (g_total nn src tgt nor ns nt th Hin lmax B B2 nu Hl Hnu init n damp). Qed.
Lemma p_grad_near : forall nn src tgt nor ns nt th lmax B B2 nu init n damp d, icp_input nn src tgt nor ns nt th ->
  0 < lmax -> nu <> 0 -> mat44 init -> affine4 (ent init []) -> 0 <= d -> near_isometry d (rot_of (ent init [])) -> 0 < damp -> (0 < n)%Z ->
  exists T idx, point_to_plane_gradICP nn (TTen src) (TTen tgt) (TTen nor) (TTen init) (IntV n) damp th (Num lmax) (Num B) (Num B2) (Num nu) = Ok (T, idx) /\
    affine4 (ent T []) /\ near_isometry ((1 + se3_eps * se3_eps) ^ Z.to_nat n * d) (rot_of (ent T [])).
Proof. intros nn src tgt nor ns nt th lmax B B2 nu init n damp d Hin Hl Hnu. exact (g_near nn src tgt nor ns nt th Hin lmax B B2 nu Hl Hnu init n damp d). Qed.
Lemma p_no_overflow : forall B e0 e1, 0 <= B <= 1 -> exp (- B * clamped_change e0 e1) <= float32_max.
Proof. exact no_overflow. Qed.
Lemma p_soft_step_increasing : forall B2 nu e e', 0 < B2 -> 0 < nu -> e < e' ->
  / Rpower (1 + exp (- B2 * e)) (/ nu) < / Rpower (1 + exp (- B2 * e')) (/ nu).
Proof. intros B2 nu e e' H1 H2 H3. pose proof (soft_step_increasing B2 nu e e' H1 H2 H3) as H. unfold soft_step, Rdiv in H. rewrite !Rmult_1_l in H. exact H. Qed.
Lemma p_damp_factor_increasing : forall lmax B e e', 1 < lmax -> 0 < B -> e < e' ->
  / lmax + (lmax - / lmax) / (1 + exp (- B * e)) < / lmax + (lmax - / lmax) / (1 + exp (- B * e')).
Proof. intros lmax B e e' H1 H2 H3. pose proof (damp_factor_increasing lmax B e e' H1 H2 H3) as H. unfold damp_factor in H.
  replace (1 / lmax) with (/ lmax) in H by (unfold Rdiv; ring). exact H. Qed.

Lemma p_thin_map : forall s a P d rows, ReadyToClone RF s a -> qp a = Some P -> Forall (in_map a) rows -> d <> 0%Z ->
  exists p s', downsample_pointclouds (Tbl rows) (IntV d) s = (Ok p, s') /\ Hist RF p (thin_clouds d rows a) /\ ReadyToClone RF s' a.
Proof.
  intros s a P d rows H HP Hr Hd. apply ready_iff in H. destruct (p_down_map s a P d rows H HP Hr Hd) as (p & s' & E & H1 & H2).
  exists p, s'. split; [exact E|]. split; [exact H1|]. now apply ready_iff.
Qed.
Lemma p_provide : forall nn o s t a c P N Q, Hist RF s a -> Hist RF t c -> qp a = Some P -> qn a = Some N -> qp c = Some Q -> length P = length Q ->
  (forall b, (b < length P)%nat -> exists T idx, one_run_of nn o P N Q b = Ok (T, idx)) ->
  exists X s' t', provide nn o (s, t) = (Ok X, (s', t')) /\ Hist RF s' a /\ Hist RF t' c /\ shape X = [length P; 1; 4; 4]%nat /\
    forall b, (b < length P)%nat -> exists T idx, one_run_of nn o P N Q b = Ok (T, idx) /\
      forall i j, (i < 4)%nat -> (j < 4)%nat -> ent X [0%nat; b] i j = ent T [] i j.
Proof.
  intros nn o s t a c P N Q Hs Ht HP HN HQ Hlen Hok.
  destruct (provide_ok nn o s t a c P N Q Hs Ht HP HN HQ Hlen Hok) as (X & s' & t' & E & H1 & H2 & D & F).
  exists X, s', t'. repeat (split; [assumption|]). split; [unfold shape; rewrite D; reflexivity|exact F].
Qed.
Lemma p_provide_err : forall nn o s t a c P N Q b e, Hist RF s a -> Hist RF t c -> qp a = Some P -> qn a = Some N -> qp c = Some Q -> length P = length Q ->
  (b < length P)%nat -> (forall k, (k < b)%nat -> exists T idx, one_run_of nn o P N Q k = Ok (T, idx)) -> one_run_of nn o P N Q b = Err e ->
  fst (provide nn o (s, t)) = Err e.
Proof. intros nn o s t a c P N Q b e Hs Ht HP HN HQ. exact (provide_err nn o s t a c P N Q Hs Ht HP HN HQ b e). Qed.
Lemma p_provide_mismatch : forall nn o s t a c P N Q, Hist RF s a -> Hist RF t c -> qp a = Some P -> qn a = Some N -> qp c = Some Q ->
  length P <> length Q -> fst (provide nn o (s, t)) = Err ValueError.
Proof. intros nn o s t a c P N Q Hs Ht HP HN HQ. exact (provide_mismatch nn o s t a c P N Q Hs Ht HP HN HQ). Qed.
Lemma p_provide_no_normals : forall nn o s t a, Hist RF s a -> qn a = None -> fst (provide nn o (s, t)) = Err ValueError.
Proof. exact provide_no_normals. Qed.
Lemma p_provide_total : forall nn o s t a c P N Q, Hist RF s a -> Hist RF t c -> qp a = Some P -> qn a = Some N -> qp c = Some Q -> length P = length Q ->
  IcpSpec.nearest nn -> good_method o ->
  (forall b, (b < length P)%nat -> t2r (nth b P (mkT2 0 [] : t2 R)) <> [] \/ t2r (nth b Q (mkT2 0 [] : t2 R)) = []) ->
  exists X s' t', provide nn o (s, t) = (Ok X, (s', t')) /\ shape X = [length P; 1; 4; 4]%nat /\
    forall b, (b < length P)%nat -> affine4 (ent X [0%nat; b]).
Proof.
  intros nn o s t a c P N Q Hs Ht HP HN HQ Hl Hnn Hg Hne. destruct (provide_total nn o s t a c P N Q Hs Ht HP HN HQ Hl Hnn Hg Hne) as (X & s' & t' & E & D & F).
  exists X, s', t'. split; [exact E|]. split; [unfold shape; rewrite D; reflexivity|exact F].
Qed.

(* ---------------- witnesses *)
Lemma near_eye : near_isometry 1 (rot_of (ent eye4 [])).
Proof. intros v. assert (E : dot 3 (mvec 3 (rot_of (ent eye4 [])) v) (mvec 3 (rot_of (ent eye4 [])) v) = dot 3 v v); [|rewrite E; lra].
  unfold mvec, dot, rot_of. cbn. ring. Qed.
Lemma wfr_chosen : chosen true (wfr 1 2 3) 0 = [(0, 1); (0, 2); (1, 1); (1, 2)]%nat.
Proof.
  unfold chosen, row_major. cbn -[Rlt_dec INR].
  repeat match goal with |- context [Rlt_dec 0 (INR ?k)] => let H := fresh in destruct (Rlt_dec 0 (INR k)) as [H|H]; cbn [INR] in H; try lra end.
  reflexivity.
Qed.
