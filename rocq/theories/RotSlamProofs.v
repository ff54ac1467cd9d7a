(* C84: whole runs of ICP-SLAM and PointFusion in turned or mirrored world coordinates. *)
From Coq Require Import Reals List Arith Bool ZArith Lia Lra Sorting.Sorted.
From Verif Require Import Res Fld StructUtilsModel PointcloudsModel PointcloudsSpec PointcloudsHist MatSpec GeomSpec TensorModel
  RgbdModel RgbdSpec RgbdOps RgbdPropProofs FusionModel FusionSpec FusionMap FusionPropProofs FusionPropProofs2 Se3Model SolveModel IcpModel IcpSpec OdomSpec SlamModel SlamSpec SlamProofs SlamPropProofs
  MatProofs IcpGnProofs IcpLoopProofs IcpRunProofs IcpArgProofs ProvideProofs
  StillProofs StillMapProofs BatchProofs BatchSlamProofs GradSpec GradProofs GradMapProofs TableProofs GradFuseProofs GradRunProofs SimSpec SimProofs RotSpec RotProofs.
Import ListNotations.
Import FusionSpec.
Local Open Scope nat_scope.
Notation sim_p Q := (sim_pose 1 Q origin).
Notation sim_m Q := (sim_map 1 Q origin).

(* ---------------- no map point beside frame points: the model does not say what the library does *)
Lemma run_empty nn o (src tgt nor : ten R) ns : good_method o -> cloud_of src ns -> cloud_of tgt 0 -> cloud_of nor 0 -> ns <> 0 ->
  run_icp nn o (TTen src) (TTen tgt) (TTen nor) (TTen eye4) = Err Unmodelled.
Proof.
  intros Hg Hs Ht Hn Hne.
  assert (L : forall x th d, cloud_of x ns -> th <> ThrBad -> lookahead nn tgt nor th x d = Err Unmodelled).
  { intros x th d Hx Hth. unfold lookahead, gauss_newton_solve. cbn [need_tensor rbind]. unfold cloud3_check, batch1_check, width3_check, npts, ndim. unfold cloud_of in *. rewrite Hx, Ht, Hn.
    destruct th; try congruence; cbn [guard rbind length Nat.eqb nth]; destruct ns; try congruence; reflexivity. }
  destruct o as [[|n] d th|[|n] d th [|l] [|B] [|B2] [|nu]]; cbn in Hg; try contradiction.
  - destruct Hg as (G1 & G2 & G3). cbn [run_icp]. rewrite icp_unfold by exact eye_mat44.
    destruct (start_ok src eye4 d ns Hs eye_mat44 G2) as (s0 & E0 & (C0 & _) & _). rewrite E0. cbn [rbind]. destruct (Z.to_nat n) eqn:En; [lia|]. cbn [iterate]. unfold icp_iter at 1. rewrite L by assumption. reflexivity.
  - destruct Hg as (G1 & G2 & G3 & G4 & G5). cbn [run_icp]. rewrite grad_unfold by (exact eye_mat44 || lra).
    destruct (start_ok src eye4 d ns Hs eye_mat44 G2) as (s0 & E0 & (C0 & _) & _). rewrite E0. cbn [rbind]. destruct (Z.to_nat n) eqn:En; [lia|]. cbn [iterate]. unfold grad_iter at 1. rewrite L by assumption. reflexivity.
Qed.
Lemma turned_eye Q : turned_tf Q (ent eye4 []) (ent eye4 []).
Proof.
  assert (E : meq 4 4 (ent eye4 []) mI) by (intros p q Hp Hq; reflexivity).
  intros i j Hi Hj. unfold mmul. cbn [rsum]. rewrite !E by lia. (destruct i as [|[|[|[|i]]]]; [| | | |lia]); (destruct j as [|[|[|[|j]]]]; [| | | |lia]); unfold mI, delta, turn4; cbn; ring.
Qed.
(* two runs on turned clouds: both succeed with turned transforms, or both fail alike *)
Lemma run_turn Q nn o (src tgt nor src' tgt' nor' : ten R) ns nt : orthogonal3 Q -> IcpSpec.nearest nn -> by_distance nn -> good_method o ->
  cloud_of src ns -> cloud_of tgt nt -> cloud_of nor nt -> turned_cloud Q ns src src' -> turned_cloud Q nt tgt tgt' -> turned_cloud Q nt nor nor' ->
  (exists X X' idx, run_icp nn o (TTen src) (TTen tgt) (TTen nor) (TTen eye4) = Ok (X, idx) /\ run_icp nn o (TTen src') (TTen tgt') (TTen nor') (TTen eye4) = Ok (X', idx) /\
     turned_tf Q (ent X []) (ent X' [])) \/
  run_icp nn o (TTen src) (TTen tgt) (TTen nor) (TTen eye4) = Err Unmodelled /\ run_icp nn o (TTen src') (TTen tgt') (TTen nor') (TTen eye4) = Err Unmodelled.
Proof.
  intros HQ Hnn Hbd Hg Hs Ht Hn Hs' Ht' Hn'. destruct (Nat.eq_dec nt 0) as [->|N0].
  - destruct (Nat.eq_dec ns 0) as [->|N1]; [|right; split; [apply (run_empty nn o src tgt nor ns)|apply (run_empty nn o src' tgt' nor' ns)]; assumption || apply Hs' || apply Ht' || apply Hn'].
    left. assert (Hin : forall th, th <> ThrBad -> icp_input nn src tgt nor 0 0 th) by (intros th Hth; split; [exact Hnn|]; split; [exact Hs|]; split; [exact Ht|]; split; [exact Hn|]; split; [right; reflexivity|exact Hth]).
    destruct o as [[|n] d th|[|n] d th [|l] [|B] [|B2] [|nu]]; cbn in Hg; try contradiction; cbn [run_icp].
    + destruct Hg as (G1 & G2 & G3). destruct (p_turn_icp Q nn src tgt nor src' tgt' nor' 0 0 th eye4 eye4 d n HQ (Hin th G3) Hbd Hs' Ht' Hn' eye_mat44 eye_mat44 (turned_eye Q) G2 G1) as (X & X' & idx & A & B & _ & _ & C). exists X, X', idx. auto.
    + destruct Hg as (G1 & G2 & G3 & G4 & G5). destruct (p_turn_grad Q nn src tgt nor src' tgt' nor' 0 0 th eye4 eye4 d n l B B2 nu HQ (Hin th G3) Hbd Hs' Ht' Hn' eye_mat44 eye_mat44 (turned_eye Q) G2 G1 G4 G5) as (X & X' & idx & A & B' & _ & _ & C). exists X, X', idx. auto.
  - left. assert (Hin : forall th, th <> ThrBad -> icp_input nn src tgt nor ns nt th) by (intros th Hth; split; [exact Hnn|]; split; [exact Hs|]; split; [exact Ht|]; split; [exact Hn|]; split; [left; lia|exact Hth]).
    destruct o as [[|n] d th|[|n] d th [|l] [|B] [|B2] [|nu]]; cbn in Hg; try contradiction; cbn [run_icp].
    + destruct Hg as (G1 & G2 & G3). destruct (p_turn_icp Q nn src tgt nor src' tgt' nor' ns nt th eye4 eye4 d n HQ (Hin th G3) Hbd Hs' Ht' Hn' eye_mat44 eye_mat44 (turned_eye Q) G2 G1) as (X & X' & idx & A & B & _ & _ & C). exists X, X', idx. auto.
    + destruct Hg as (G1 & G2 & G3 & G4 & G5). destruct (p_turn_grad Q nn src tgt nor src' tgt' nor' ns nt th eye4 eye4 d n l B B2 nu HQ (Hin th G3) Hbd Hs' Ht' Hn' eye_mat44 eye_mat44 (turned_eye Q) G2 G1 G4 G5) as (X & X' & idx & A & B' & _ & _ & C). exists X, X', idx. auto.
Qed.
Lemma compose_turn Q X X' P P' : turned_tf Q X X' -> sim_p Q P P' -> sim_p Q (compose_pose X P) (compose_pose X' P').
Proof.
  intros HX [PR PT]. unfold turned_tf in HX.
  assert (HR : forall i j, i < 3 -> j < 3 -> (rsum 3 (fun k => X' i k * Q k j) = rsum 3 (fun k => Q i k * X k j))%R).
  { intros i j Hi Hj. pose proof (HX i j ltac:(lia) ltac:(lia)) as E. unfold mmul, turn4 in E. cbn [rsum] in *. assert (Ei : (i <? 3) = true) by (apply Nat.ltb_lt; exact Hi). assert (Ej : (j <? 3) = true) by (apply Nat.ltb_lt; exact Hj).
    rewrite Ei, Ej in E. cbn [Nat.ltb Nat.leb Nat.eqb] in E. destruct (Nat.eqb_spec j 3); [lia|]. cbn in E. lra. }
  assert (HT : forall i, i < 3 -> (X' i 3%nat = rsum 3 (fun k => Q i k * X k 3%nat))%R).
  { intros i Hi. pose proof (HX i 3 ltac:(lia) ltac:(lia)) as E. unfold mmul, turn4 in E. cbn [rsum] in *. assert (Ei : (i <? 3) = true) by (apply Nat.ltb_lt; exact Hi).
    rewrite Ei in E. cbn in E. lra. }
  split.
  - intros i j Hi Hj. unfold rot_of, compose_pose, mmul. assert (Ei : (i <? 3) = true) by (apply Nat.ltb_lt; exact Hi). assert (Ej : (j <? 3) = true) by (apply Nat.ltb_lt; exact Hj). rewrite Ei, Ej.
    pose proof (fun k => HR i k Hi) as HRi. cbn [rsum] in *. change (P' 0%nat j) with (rot_of P' 0%nat j). change (P' 1%nat j) with (rot_of P' 1%nat j). change (P' 2%nat j) with (rot_of P' 2%nat j). rewrite !PR by lia. unfold mmul, rot_of. cbn [rsum Nat.ltb Nat.leb].
    pose proof (HRi 0%nat ltac:(lia)) as E0. pose proof (HRi 1%nat ltac:(lia)) as E1. pose proof (HRi 2%nat ltac:(lia)) as E2.
    transitivity ((0 + X' i 0%nat * Q 0%nat 0%nat + X' i 1%nat * Q 1%nat 0%nat + X' i 2%nat * Q 2%nat 0%nat) * P 0%nat j + (0 + X' i 0%nat * Q 0%nat 1%nat + X' i 1%nat * Q 1%nat 1%nat + X' i 2%nat * Q 2%nat 1%nat) * P 1%nat j
      + (0 + X' i 0%nat * Q 0%nat 2%nat + X' i 1%nat * Q 1%nat 2%nat + X' i 2%nat * Q 2%nat 2%nat) * P 2%nat j)%R; [ring|]. rewrite E0, E1, E2. ring.
  - intros i Hi. unfold tr_of, compose_pose, sim_pt, mvec, origin. assert (Ei : (i <? 3) = true) by (apply Nat.ltb_lt; exact Hi). rewrite Ei.
    pose proof (fun k => HR i k Hi) as HRi. pose proof (HT i Hi) as HTi. cbn [rsum Nat.ltb Nat.leb] in *. rewrite HTi.
    change (P' 0%nat 3%nat) with (tr_of P' 0%nat). change (P' 1%nat 3%nat) with (tr_of P' 1%nat). change (P' 2%nat 3%nat) with (tr_of P' 2%nat). rewrite !PT by lia. unfold sim_pt, mvec, tr_of, origin. cbn [rsum].
    pose proof (HRi 0%nat ltac:(lia)) as E0. pose proof (HRi 1%nat ltac:(lia)) as E1. pose proof (HRi 2%nat ltac:(lia)) as E2.
    transitivity ((0 + X' i 0%nat * Q 0%nat 0%nat + X' i 1%nat * Q 1%nat 0%nat + X' i 2%nat * Q 2%nat 0%nat) * P 0%nat 3%nat + (0 + X' i 0%nat * Q 0%nat 1%nat + X' i 1%nat * Q 1%nat 1%nat + X' i 2%nat * Q 2%nat 1%nat) * P 1%nat 3%nat
      + (0 + X' i 0%nat * Q 0%nat 2%nat + X' i 1%nat * Q 1%nat 2%nat + X' i 2%nat * Q 2%nat 2%nat) * P 2%nat 3%nat + (0 + Q i 0%nat * X 0%nat 3%nat + Q i 1%nat * X 1%nat 3%nat + Q i 2%nat * X 2%nat 3%nat))%R; [ring|]. rewrite E0, E1, E2. ring.
Qed.

(* ---------------- registration in the two coordinate systems *)
Section Reg.
  Variables (c : slam) (o : odom_method) (ds : Z) (Q : mat) (f0 f0' f1 f1' : frames) (T0 T0' T1 T1' : nat -> nat -> mat) (a a' : batch RF) (rows rows' : list row).
  Hypothesis HQ : orthogonal3 Q.
  Hypothesis S0 : sim_frames 1 Q origin f0 f0'.
  Hypothesis S1 : sim_frames 1 Q origin f1 f1'.
  Hypothesis ET : fpose f0 = Some T0.
  Hypothesis ET' : fpose f0' = Some T0'.
  Hypothesis ET1 : fpose f1 = Some T1.
  Hypothesis ET1' : fpose f1' = Some T1'.
  Hypothesis HH : 2 <= fH f0.
  Hypothesis HW : 2 <= fW f0.
  Hypothesis HH1 : 2 <= fH f1.
  Hypothesis HW1 : 2 <= fW f1.
  Hypothesis HL : fL f0 = 1.
  Hypothesis HL1 : fL f1 = 1.
  Hypothesis HB : fB f1 = fB f0.
  Hypothesis SM : sim_m Q (fB f0) a a'.
  Hypothesis LA : len_view RF a = fB f0.
  Hypothesis LA' : len_view RF a' = fB f0.
  Hypothesis PA : qp a <> None.
  Hypothesis PA' : qp a' <> None.
  Hypothesis NA : qn a <> None.
  Hypothesis NA' : qn a' <> None.
  Hypothesis AR : active_spec a f0 T0 rows.
  Hypothesis AR' : active_spec a' f0' T0' rows'.
  Hypothesis Hnn : IcpSpec.nearest (s_nn c).
  Hypothesis Hbd : by_distance (s_nn c).
  Hypothesis Hg : good_method o.

  Lemma act_same : rows = rows'.
  Proof.
    destruct AR as [A1 A2], AR' as [B1 B2]. apply (BatchProofs.sorted_unique before_point); [unfold before_point; intros; lia|exact A1|exact B1|].
    intros [b n h w]. rewrite A2, B2. rewrite (s_real 1 Q origin f0 HH HW HL a a' SM LA LA').
    split; intros [R1 R2]; (split; [exact R1|]); apply (s_seen 1 Q origin f0 f0' T0 T0' Rlt_0_1 HQ S0 ET ET' HH HW HL (or_introl eq_refl) a a' SM LA LA' b n h w R1); exact R2.
  Qed.
  Lemma thin_len b x L L' : b < fB f0 -> qget x a = Some L -> qget x a' = Some L' ->
    nth b (thin_map ds rows a x) (mkT2 0 [] : t2 R) = mkT2 3 (map (row_at L b) (thinned ds rows b)) /\
    nth b (thin_map ds rows' a' x) (mkT2 0 [] : t2 R) = mkT2 3 (map (row_at L' b) (thinned ds rows b)).
  Proof.
    intros Hb E E'. rewrite <- act_same. unfold thin_map, thin_attr. rewrite E, E', LA, LA'.
    rewrite !(nth_map' _ (seq 0 (fB f0)) b (mkT2 0 [] : t2 R) 0) by (rewrite seq_length; exact Hb). rewrite seq_nth by exact Hb. split; reflexivity.
  Qed.
  Lemma thin_in b n : b < fB f0 -> In n (thinned ds rows b) -> n < npoints a b.
  Proof.
    intros Hb H. unfold thinned in H. apply in_map_iff in H. destruct H as ([b' n' h w] & E & H). cbn in E. subst n'. apply filter_In in H. destruct H as [H K]. cbn [rb rh rw] in K.
    apply andb_true_iff in K. destruct K as [K _]. apply andb_true_iff in K. destruct K as [K _]. apply Nat.eqb_eq in K. subst b'. apply (proj2 AR) in H. apply H.
  Qed.
  Lemma row_ten (l : list (list R)) i k : pts_of (cloud_ten (mkT2 3 l)) i k = nth k (nth i l []) 0%R.
  Proof. reflexivity. Qed.
  Lemma reg_turn b : b < fB f0 ->
    (exists X X' idx, registration c o ds rows a f1 b = Ok (X, idx) /\ registration c o ds rows' a' f1' b = Ok (X', idx) /\ turned_tf Q (ent X []) (ent X' [])) \/
    registration c o ds rows a f1 b = Err Unmodelled /\ registration c o ds rows' a' f1' b = Err Unmodelled.
  Proof.
    intros Hb. destruct (qp a) as [P|] eqn:EP; [|now elim PA]. destruct (qp a') as [P'|] eqn:EP'; [|now elim PA']. destruct (qn a) as [N|] eqn:EN; [|now elim NA]. destruct (qn a') as [N'|] eqn:EN'; [|now elim NA'].
    unfold registration, one_run_of.
    destruct (thin_len b Points P P' Hb EP EP') as [-> ->]. destruct (thin_len b Normals N N' Hb EN EN') as [-> ->].
    assert (SB : fB f1' = fB f1) by apply S1. unfold grid_attr. rewrite SB, HB.
    rewrite !(nth_map' _ (seq 0 (fB f0)) b (mkT2 0 [] : t2 R) 0) by (rewrite seq_length; exact Hb). rewrite seq_nth by exact Hb. cbn [Nat.add].
    assert (EG : grid_pixels ds f1' b = grid_pixels ds f1 b).
    { unfold grid_pixels. f_equal. apply (s_chosen 1 Q origin f1 f1' Rlt_0_1 S1 HH1 HW1); lia. }
    rewrite EG. set (G := grid_pixels ds f1 b). set (Th := thinned ds rows b).
    assert (HG : forall q, In q G -> inside f1 b 0 (fst q) (snd q) /\ (0 < fdep f1 b 0 (fst q) (snd q))%R).
    { intros q Hq. unfold G, grid_pixels in Hq. apply filter_In in Hq. destruct Hq as [Hq _]. apply StillMapProofs.chosen_in in Hq. destruct Hq as (K1 & K2 & K3). split; [repeat split; lia|exact K3]. }
    apply (run_turn Q (s_nn c) o _ _ _ _ _ _ (length G) (length Th)); try assumption; try (apply cloud_ten_cloud; [reflexivity|cbn [t2r]; apply map_length]).
    - split; [apply cloud_ten_cloud; [reflexivity|cbn [t2r]; apply map_length]|]. intros i Hi k Hk.
      destruct (nth_error G i) as [[h w]|] eqn:Ei; [|apply nth_error_None in Ei; lia]. destruct (HG _ (nth_error_In _ _ Ei)) as [K1 K2]. cbn [fst snd] in K1, K2.
      unfold mvec. cbn [rsum]. rewrite !row_ten.
      rewrite (nth_error_nth (map _ G) i [] (x := map (frame_attr f1' Points b h w) [0; 1; 2])) by (rewrite nth_error_map, Ei; reflexivity).
      rewrite (nth_error_nth (map _ G) i [] (x := map (frame_attr f1 Points b h w) [0; 1; 2])) by (rewrite nth_error_map, Ei; reflexivity).
      rewrite !nth3 by lia. cbn [frame_attr]. rewrite (s_gvertex 1 Q origin f1 f1' T1 T1' Rlt_0_1 S1 ET1 ET1' HH1 HW1 b 0 h w K1 K2 k Hk). unfold sim_pt, mvec, origin. cbn [rsum]. ring.
    - split; [apply cloud_ten_cloud; [reflexivity|cbn [t2r]; apply map_length]|]. intros i Hi k Hk.
      destruct (nth_error Th i) as [n|] eqn:Ei; [|apply nth_error_None in Ei; lia]. pose proof (thin_in b n Hb (nth_error_In _ _ Ei)) as Hn. destruct (SM b Hb) as [_ E]. destruct (E n Hn) as (E1 & _).
      unfold mvec. cbn [rsum]. rewrite !row_ten.
      rewrite (nth_error_nth (map _ Th) i [] (x := row_at P' b n)) by (rewrite nth_error_map, Ei; reflexivity). rewrite (nth_error_nth (map _ Th) i [] (x := row_at P b n)) by (rewrite nth_error_map, Ei; reflexivity).
      specialize (E1 k Hk). unfold sim_pt, mvec, origin, attr_at in E1. cbn [qget rsum] in E1. rewrite EP, EP' in E1. rewrite E1. ring.
    - split; [apply cloud_ten_cloud; [reflexivity|cbn [t2r]; apply map_length]|]. intros i Hi k Hk.
      destruct (nth_error Th i) as [n|] eqn:Ei; [|apply nth_error_None in Ei; lia]. pose proof (thin_in b n Hb (nth_error_In _ _ Ei)) as Hn. destruct (SM b Hb) as [_ E]. destruct (E n Hn) as (_ & E1 & _).
      unfold mvec. cbn [rsum]. rewrite !row_ten.
      rewrite (nth_error_nth (map _ Th) i [] (x := row_at N' b n)) by (rewrite nth_error_map, Ei; reflexivity). rewrite (nth_error_nth (map _ Th) i [] (x := row_at N b n)) by (rewrite nth_error_map, Ei; reflexivity).
      specialize (E1 k Hk). unfold mvec, attr_at in E1. cbn [qget rsum] in E1. rewrite EN, EN' in E1. rewrite E1. ring.
  Qed.
End Reg.

(* ---------------- trajectories *)
Definition cut (n : nat) (T : nat -> nat -> mat) (fr : frames) : frames := mkFrames (fB fr) n (fH fr) (fW fr) (frgb fr) (fdep fr) (fK fr) (Some T) (fpix fr).
Definition gt (c : slam) : slam := mkSlam (s_nn c) OGt (s_ds c) (s_map c).
Lemma cut_sim Q fr fr' n T T' : sim_frames 1 Q origin (with_fpose None fr) (with_fpose None fr') -> n <= fL fr -> (forall b l, b < fB fr -> l < n -> sim_p Q (T b l) (T' b l)) ->
  sim_frames 1 Q origin (cut n T fr) (cut n T' fr').
Proof.
  intros (SB & SL & SH & SW & SK & SD & _) Hn HT. split; [exact SB|]. split; [reflexivity|]. split; [exact SH|]. split; [exact SW|]. split; [exact SK|]. split; [|exact HT].
  intros b l h w (H1 & H2 & H3 & H4). apply (SD b l h w). cbn in *. repeat split; cbn; lia.
Qed.
Lemma cut_traj c fr n maps T : Trajectory c fr n maps T -> Trajectory (gt c) (cut n T fr) n maps T.
Proof.
  intros [H0 H]. split; [exact H0|]. intros l Hl. destruct (H l Hl) as [_ M]. split; [|exact M]. unfold Localised. cbn [s_odom gt]. exists (fun b l' => T (nth b (seq 0 (fB fr)) 0) (nth l' [l] 0)). split; [reflexivity|].
  intros b Hb. unfold input_frame in Hb. cbn [fpose cut] in Hb. rewrite moment_B in Hb. cbn [fB cut] in Hb. cbn [nth]. rewrite seq_nth by exact Hb. reflexivity.
Qed.
Definition dot_ok (m : mapper) : Prop := match m with Aggregate => True | Fusion _ t _ => (0 <= t)%R end.
Lemma app_attr (a u : batch RF) f x b : rows_of u x b = rows_of a x b ++ frame_rows f x b -> forall n,
  (n < length (rows_of a x b) -> forall k, attr_at u x b n k = attr_at a x b n k) /\
  (length (rows_of a x b) <= n -> forall q, nth_error (chosen true f b) (n - length (rows_of a x b)) = Some q -> veq 3 (attr_at u x b n) (frame_attr f x b (fst q) (snd q))).
Proof.
  intros E n. split.
  - intros Hn k. rewrite !attr_rows_at, E, app_nth1 by exact Hn. reflexivity.
  - intros Hn q Hq k Hk. rewrite attr_rows_at, E, app_nth2 by exact Hn. unfold frame_rows.
    rewrite (nth_error_nth (map _ (chosen true f b)) _ [] (x := map (frame_attr f x b (fst q) (snd q)) [0; 1; 2])) by (rewrite nth_error_map, Hq; reflexivity). now apply nth3.
Qed.
(* aggregated maps *)
Lemma agg_turn c Q fr fr' T T' maps maps' n : s_map c = Aggregate -> sim_frames 1 Q origin fr fr' -> fpose fr = Some T -> fpose fr' = Some T' -> 2 <= fH fr -> 2 <= fW fr ->
  Trajectory c fr n maps T -> Trajectory c fr' n maps' T' -> n <= fL fr -> sim_m Q (fB fr) (maps n) (maps' n).
Proof.
  intros Hm SF ET ET' HH HW [H0 H] [H0' H'] Hn. pose proof SF as (SB & _).
  assert (G : forall k, k <= n -> sim_m Q (fB fr) (maps k) (maps' k) /\ (k <> 0 -> qf (maps k) = None /\ qf (maps' k) = None) /\
     forall b, b < fB fr -> length (rows_of (maps k) Normals b) = npoints (maps k) b /\ length (rows_of (maps' k) Normals b) = npoints (maps k) b /\
       length (rows_of (maps k) Colors b) = npoints (maps k) b /\ length (rows_of (maps' k) Colors b) = npoints (maps k) b).
  2:{ apply G. lia. }
  induction k as [|k IH]; intros Hk.
  - rewrite H0, H0'. split; [intros b Hb; split; [reflexivity|]; cbn; lia|]. split; [congruence|]. intros b Hb. repeat split; reflexivity.
  - destruct (IH ltac:(lia)) as (SM & QF & LEN). destruct (H k ltac:(lia)) as [_ M], (H' k ltac:(lia)) as [_ M']. unfold Mapped in M, M'. rewrite Hm in M, M'.
    destruct M as (_ & (_ & F & LB) & M), M' as (_ & (_ & F' & LB') & M').
    pose proof (shot_sim 1 Q origin fr fr' T T' k SF ET ET' ltac:(lia)) as SS. set (f := posed (fun b => T b k) (moment k fr)) in *. set (f' := posed (fun b => T' b k) (moment k fr')) in *.
    assert (FB : fB f = fB fr) by apply moment_B. assert (FB' : fB f' = fB fr') by apply moment_B.
    assert (EC : forall b, b < fB fr -> chosen true f' b = chosen true f b) by (intros b Hb; apply (s_chosen 1 Q origin f f' Rlt_0_1 SS HH HW); [lia|cbn; lia]).
    assert (ER : forall x b, x <> Features -> b < fB fr -> rows_of (maps (S k)) x b = rows_of (maps k) x b ++ frame_rows f x b) by (intros x b Hx Hb; apply M; [exact Hx|lia]).
    assert (ER' : forall x b, x <> Features -> b < fB fr -> rows_of (maps' (S k)) x b = rows_of (maps' k) x b ++ frame_rows f' x b) by (intros x b Hx Hb; apply M'; [exact Hx|lia]).
    assert (LR : forall x b, length (frame_rows f x b) = length (chosen true f b)) by (intros; apply map_length).
    assert (LR' : forall x b, b < fB fr -> length (frame_rows f' x b) = length (chosen true f b)) by (intros x b Hb; unfold frame_rows; rewrite map_length, EC by exact Hb; reflexivity).
    assert (NP : forall b, b < fB fr -> npoints (maps (S k)) b = npoints (maps k) b + length (chosen true f b)) by (intros b Hb; rewrite !npoints_rows, ER, app_length, LR by (discriminate || exact Hb); reflexivity).
    split; [|split].
    + intros b Hb. destruct (SM b Hb) as [EN EA]. destruct (LEN b Hb) as (L1 & L2 & L3 & L4).
      assert (NP' : npoints (maps' (S k)) b = npoints (maps k) b + length (chosen true f b)) by (rewrite npoints_rows, ER', app_length, LR', <- npoints_rows, EN by (discriminate || exact Hb); reflexivity).
      split; [rewrite NP, NP' by exact Hb; reflexivity|]. intros n0 Hn0. rewrite NP in Hn0 by exact Hb.
      destruct (app_attr _ _ _ _ _ (ER Points b ltac:(discriminate) Hb) n0) as [P1 P2]. destruct (app_attr _ _ _ _ _ (ER' Points b ltac:(discriminate) Hb) n0) as [P1' P2'].
      destruct (app_attr _ _ _ _ _ (ER Normals b ltac:(discriminate) Hb) n0) as [N1 N2]. destruct (app_attr _ _ _ _ _ (ER' Normals b ltac:(discriminate) Hb) n0) as [N1' N2'].
      destruct (app_attr _ _ _ _ _ (ER Colors b ltac:(discriminate) Hb) n0) as [C1 C2]. destruct (app_attr _ _ _ _ _ (ER' Colors b ltac:(discriminate) Hb) n0) as [C1' C2'].
      rewrite <- npoints_rows in P1, P2, P1', P2'. rewrite EN in P1', P2'. rewrite L1 in N1, N2. rewrite L2 in N1', N2'. rewrite L3 in C1, C2. rewrite L4 in C1', C2'. rewrite EC in P2', N2', C2' by exact Hb.
      assert (CF : conf (maps' (S k)) b n0 = conf (maps (S k)) b n0) by (unfold conf, attr_at; cbn [qget]; rewrite F, F'; reflexivity).
      destruct (Nat.lt_ge_cases n0 (npoints (maps k) b)) as [G|G].
      * destruct (EA n0 G) as (E1 & E2 & E3 & _). split; [|split; [|split; [|exact CF]]].
        -- intros j Hj. rewrite P1', E1 by assumption. unfold sim_pt, mvec. cbn [rsum]. rewrite !P1 by exact G. reflexivity.
        -- intros j Hj. rewrite N1', E2 by assumption. unfold mvec. cbn [rsum]. rewrite !N1 by exact G. reflexivity.
        -- intros j Hj. rewrite C1', C1 by assumption. now apply E3.
      * destruct (nth_error (chosen true f b) (n0 - npoints (maps k) b)) as [[h w]|] eqn:Eq; [|apply nth_error_None in Eq; lia].
        pose proof (nth_error_In _ _ Eq) as Iq. apply StillMapProofs.chosen_in in Iq. cbn [fst snd] in Iq. destruct Iq as (I1 & I2 & I3).
        assert (Hi : inside f b 0 h w) by (repeat split; try assumption; [lia|cbn; lia]).
        specialize (P2 G _ eq_refl). specialize (P2' G _ eq_refl). specialize (N2 G _ eq_refl). specialize (N2' G _ eq_refl). specialize (C2 G _ eq_refl). specialize (C2' G _ eq_refl). cbn [fst snd frame_attr] in *.
        split; [|split; [|split; [|exact CF]]].
        -- intros j Hj. rewrite P2' by exact Hj. rewrite (s_gvertex 1 Q origin f f' (fun b _ => T b k) (fun b _ => T' b k) Rlt_0_1 SS eq_refl eq_refl HH HW b 0 h w Hi I3 j Hj). unfold sim_pt, mvec. cbn [rsum]. rewrite !P2 by lia. reflexivity.
        -- intros j Hj. rewrite N2' by exact Hj. rewrite (s_gnormal 1 Q origin f f' (fun b _ => T b k) (fun b _ => T' b k) Rlt_0_1 SS eq_refl eq_refl HH HW b 0 h w Hi j Hj). unfold mvec. cbn [rsum]. rewrite !N2 by lia. reflexivity.
        -- intros j Hj. rewrite C2', C2 by exact Hj. destruct SS as (_ & _ & _ & _ & _ & SD1 & _). destruct (SD1 _ _ _ _ Hi) as (_ & EK & _). now apply EK.
    + intros _. split; assumption.
    + intros b Hb. destruct (SM b Hb) as [EN _]. destruct (LEN b Hb) as (L1 & L2 & L3 & L4). rewrite NP by exact Hb. rewrite !ER, !ER' by (discriminate || exact Hb). rewrite !app_length, !LR, !LR' by exact Hb. lia.
Qed.
Lemma maps_turn c Q fr fr' T T' maps maps' n : orthogonal3 Q -> sim_frames 1 Q origin (with_fpose None fr) (with_fpose None fr') -> 2 <= fH fr -> 2 <= fW fr -> n <= fL fr ->
  dot_ok (s_map c) -> match s_map c with Aggregate => True | Fusion _ _ sg => exists x, sg = SigNum x /\ x <> 0%R end ->
  (forall b l, b < fB fr -> l < n -> sim_p Q (T b l) (T' b l)) -> Trajectory c fr n maps T -> Trajectory c fr' n maps' T' -> sim_m Q (fB fr) (maps n) (maps' n).
Proof.
  intros HQ SF HH HW Hn HD HS HP HT HT'. pose proof (cut_sim Q fr fr' n T T' SF Hn HP) as SC. apply cut_traj in HT, HT'.
  destruct (s_map c) as [|d t sg] eqn:Hm.
  - apply (agg_turn (gt c) Q (cut n T fr) (cut n T' fr') T T' maps maps' n); try assumption; try reflexivity.
  - destruct HS as (x & -> & Hx). apply (sim_maps (gt c) (gt c) d t x 1 Q origin (cut n T fr) (cut n T' fr') T T' maps maps' n); try assumption; try reflexivity; try (left; reflexivity); [exact Rlt_0_1|]. rewrite !Rmult_1_l. exact Hm.
Qed.

Lemma posed_input T fr k : posed T (input_frame fr (S k)) = posed T (moment (S k) fr).
Proof. unfold input_frame. destruct (fpose fr); reflexivity. Qed.

Section Run.
  Variables (c : slam) (o : odom_method) (ds : Z) (Q : mat) (fr fr' : frames).
  Hypothesis HQ : orthogonal3 Q.
  Hypothesis TR : turned_run Q fr fr'.
  Hypothesis Ho : s_odom c = OIcp o.
  Hypothesis Hds : s_ds c = IntV ds.
  Hypothesis Hg : good_method o.
  Hypothesis Hnn : IcpSpec.nearest (s_nn c).
  Hypothesis Hbd : by_distance (s_nn c).
  Hypothesis HD : dot_ok (s_map c).
  Hypothesis HS : match s_map c with Aggregate => True | Fusion _ _ sg => exists x, sg = SigNum x /\ x <> 0%R end.
  Hypothesis HH : 2 <= fH fr.
  Hypothesis HW : 2 <= fW fr.
  Let SF : sim_frames 1 Q origin (with_fpose None fr) (with_fpose None fr') := proj1 TR.
  Let SB : fB fr' = fB fr := proj1 SF.

  Lemma map_there fr0 n maps T : Trajectory c fr0 n maps T -> n <> 0 -> qp (maps n) <> None /\ qn (maps n) <> None /\ len_view RF (maps n) = fB fr0.
  Proof.
    intros [_ H] Hn. destruct n as [|n]; [congruence|]. destruct (H n ltac:(lia)) as [_ M]. unfold Mapped in M. destruct M as [_ M]. destruct (s_map c).
    - destruct M as ((M1 & _ & M2) & _). split; [exact (M1 Points ltac:(discriminate))|]. split; [exact (M1 Normals ltac:(discriminate))|]. rewrite M2. apply moment_B.
    - destruct M as ((M1 & _) & rows & (M2 & _) & _). split; [exact (M1 Points)|]. split; [exact (M1 Normals)|]. rewrite M2. apply moment_B.
  Qed.
  Lemma pair_sim k l T T' : k < fL fr -> l < fL fr -> (forall b, b < fB fr -> sim_p Q (T b k) (T' b k)) ->
    sim_frames 1 Q origin (posed (fun b => T b k) (moment l fr)) (posed (fun b => T' b k) (moment l fr')).
  Proof.
    intros Hk Hl HT.
    assert (SC : sim_frames 1 Q origin (cut (fL fr) (fun b _ => T b k) fr) (cut (fL fr) (fun b _ => T' b k) fr')) by (apply cut_sim; [exact SF|lia|intros b _ Hb _; now apply HT]).
    exact (shot_sim 1 Q origin _ _ _ _ l SC eq_refl eq_refl Hl).
  Qed.
  (* the two registrations of frame S k *)
  Lemma step_turn k maps maps' T T' rows rows' b : S k < fL fr -> Trajectory c fr (S k) maps T -> Trajectory c fr' (S k) maps' T' ->
    (forall b l, b < fB fr -> l < S k -> sim_p Q (T b l) (T' b l)) -> b < fB fr ->
    active_spec (maps (S k)) (posed (fun b => T b k) (moment k fr)) (fun b _ => T b k) rows -> active_spec (maps' (S k)) (posed (fun b => T' b k) (moment k fr')) (fun b _ => T' b k) rows' ->
    (exists X X' idx, registration c o ds rows (maps (S k)) (posed (fun b => T b k) (input_frame fr (S k))) b = Ok (X, idx) /\
       registration c o ds rows' (maps' (S k)) (posed (fun b => T' b k) (input_frame fr' (S k))) b = Ok (X', idx) /\ turned_tf Q (ent X []) (ent X' [])) \/
    registration c o ds rows (maps (S k)) (posed (fun b => T b k) (input_frame fr (S k))) b = Err Unmodelled /\
    registration c o ds rows' (maps' (S k)) (posed (fun b => T' b k) (input_frame fr' (S k))) b = Err Unmodelled.
  Proof.
    intros Hk HT HT' HP Hb A A'.
    rewrite !posed_input. destruct (map_there fr (S k) maps T HT ltac:(lia)) as (A1 & A2 & A3). destruct (map_there fr' (S k) maps' T' HT' ltac:(lia)) as (B1 & B2 & B3).
    assert (FB : fB (posed (fun b => T b k) (moment k fr)) = fB fr) by apply moment_B.
    assert (FB1 : fB (posed (fun b => T b k) (moment (S k) fr)) = fB fr) by apply moment_B.
    assert (P0 : forall b, b < fB fr -> sim_p Q (T b k) (T' b k)) by (intros b0 Hb0; apply HP; lia).
    apply (reg_turn c o ds Q (posed (fun b => T b k) (moment k fr)) (posed (fun b => T' b k) (moment k fr')) (posed (fun b => T b k) (moment (S k) fr)) (posed (fun b => T' b k) (moment (S k) fr'))
      (fun b _ => T b k) (fun b _ => T' b k) (fun b _ => T b k) (fun b _ => T' b k)); try assumption; try reflexivity; try (apply pair_sim; [lia|lia|exact P0]).
    - rewrite FB. apply (maps_turn c Q fr fr' T T' maps maps' (S k)); try assumption; try lia.
    - rewrite FB. exact A3.
    - rewrite FB, <- SB. exact B3.
    - rewrite FB. exact Hb.
  Qed.
  Lemma first_turn maps maps' T T' : Localised c (maps 0) (previous c fr T 0) (input_frame fr 0) (fun b => T b 0) -> Localised c (maps' 0) (previous c fr' T' 0) (input_frame fr' 0) (fun b => T' b 0) ->
    forall b, b < fB fr -> sim_p Q (T b 0) (T' b 0).
  Proof.
    pose proof TR as (_ & T1 & T1' & E & E' & HT). unfold Localised, previous. rewrite Ho. intros (T0 & E0 & K) (T0' & E0' & K') b Hb.
    rewrite (K b) by (unfold input_frame; rewrite E, moment_B; exact Hb). rewrite (K' b) by (unfold input_frame; rewrite E', moment_B; lia).
    unfold input_frame in E0, E0'. rewrite E in E0. rewrite E' in E0'. cbn [fpose moment pick] in E0, E0'. rewrite E in E0. rewrite E' in E0'. cbn [option_map] in E0, E0'. injection E0 as <-. injection E0' as <-. cbn [nth]. rewrite !seq_nth by lia. now apply HT.
  Qed.
  Lemma traj_turn n maps maps' T T' : n <= fL fr -> Trajectory c fr n maps T -> Trajectory c fr' n maps' T' -> forall b l, b < fB fr -> l < n -> sim_p Q (T b l) (T' b l).
  Proof.
    induction n as [|n IH]; intros Hn HT HT' b l Hb Hl; [lia|].
    assert (R : Trajectory c fr n maps T) by (destruct HT as [Z0 Z]; split; [exact Z0|intros; apply Z; lia]).
    assert (R' : Trajectory c fr' n maps' T') by (destruct HT' as [Z0 Z]; split; [exact Z0|intros; apply Z; lia]).
    specialize (IH ltac:(lia) R R'). destruct (Nat.eq_dec l n) as [->|Ne]; [|apply IH; lia].
    destruct HT as [Z0 Z], HT' as [Z0' Z']. destruct (Z n ltac:(lia)) as [L _], (Z' n ltac:(lia)) as [L' _].
    destruct n as [|k]; [exact (first_turn maps maps' T T' L L' b Hb)|].
    unfold Localised, previous in L, L'. rewrite Ho in L, L'. destruct L as (Tp & d1 & rows & E1 & E2 & E3 & E4), L' as (Tp' & d1' & rows' & E1' & E2' & E3' & E4').
    cbn [fpose posed with_fpose] in E1, E1'. injection E1 as <-. injection E1' as <-. rewrite Hds in E2, E2'. injection E2 as <-. injection E2' as <-.
    rewrite input_B in E4, E4'. destruct (E4 b Hb) as (X & idx & F1 & F2). destruct (E4' b ltac:(lia)) as (X' & idx' & F1' & F2').
    destruct (step_turn k maps maps' T T' rows rows' b ltac:(lia) R R' IH Hb E3 E3') as [(X1 & X1' & i1 & G1 & G2 & G3)|[G1 _]].
    - rewrite F1 in G1. rewrite F1' in G2. injection G1 as <- _. injection G2 as <- _.
      pose proof (compose_turn Q _ _ _ _ G3 (IH b k Hb ltac:(lia))) as [C1 C2]. split.
      + intros i j Hi Hj. unfold rot_of in *. rewrite F2' by lia. rewrite (C1 i j Hi Hj). unfold mmul. cbn [rsum]. rewrite !F2 by lia. reflexivity.
      + intros i Hi. unfold tr_of in *. rewrite F2' by lia. rewrite (C2 i Hi). unfold sim_pt, mvec. cbn [rsum]. rewrite !F2 by lia. reflexivity.
    - rewrite F1 in G1. discriminate.
  Qed.
  Lemma seen_turn k maps maps' T T' : S k < fL fr -> Trajectory c fr (S k) maps T -> Trajectory c fr' (S k) maps' T' -> forall rows,
    active_spec (maps (S k)) (posed (fun b => T b k) (moment k fr)) (fun b _ => T b k) rows <-> active_spec (maps' (S k)) (posed (fun b => T' b k) (moment k fr')) (fun b _ => T' b k) rows.
  Proof.
    intros Hl HT HT' rows. pose proof (traj_turn (S k) maps maps' T T' ltac:(lia) HT HT') as HP.
    assert (FB : fB (posed (fun b => T b k) (moment k fr)) = fB fr) by apply moment_B.
    destruct (map_there fr (S k) maps T HT ltac:(lia)) as (_ & _ & A3). destruct (map_there fr' (S k) maps' T' HT' ltac:(lia)) as (_ & _ & B3).
    assert (SS : sim_frames 1 Q origin (posed (fun b => T b k) (moment k fr)) (posed (fun b => T' b k) (moment k fr'))) by (apply pair_sim; [lia|lia|intros; apply HP; lia]).
    assert (SM : sim_m Q (fB (posed (fun b => T b k) (moment k fr))) (maps (S k)) (maps' (S k))) by (rewrite FB; apply (maps_turn c Q fr fr' T T' maps maps' (S k)); try assumption; lia).
    pose proof (s_real 1 Q origin (posed (fun b => T b k) (moment k fr)) HH HW eq_refl (maps (S k)) (maps' (S k)) SM ltac:(lia) ltac:(lia)) as RE.
    pose proof (s_seen 1 Q origin (posed (fun b => T b k) (moment k fr)) (posed (fun b => T' b k) (moment k fr')) (fun b _ => T b k) (fun b _ => T' b k) Rlt_0_1 HQ SS eq_refl eq_refl HH HW eq_refl (or_introl eq_refl) (maps (S k)) (maps' (S k)) SM ltac:(lia) ltac:(lia)) as SE.
    split; intros [A1 A2]; (split; [exact A1|]); intros b0 n h w; rewrite A2, RE; split; intros [R1 R2]; (split; [exact R1|]); apply (SE b0 n h w R1); exact R2.
  Qed.
  (* a failing step fails in both coordinate systems, in the same way *)
  Lemma fail_turn l maps maps' T T' e : l < fL fr -> Trajectory c fr l maps T -> Trajectory c fr' l maps' T' ->
    RegistrationFails c (maps l) (previous c fr T l) (input_frame fr l) e ->
    e = Unmodelled /\ (forall T2, ~ Localised c (maps' l) (previous c fr' T' l) (input_frame fr' l) T2).
  Proof.
    intros Hl HT HT' (o' & pf & Tp & ds' & rows & b & E1 & E2 & E3 & E4 & E5 & E6 & E7). rewrite Ho in E1. injection E1 as <-. rewrite Hds in E4. injection E4 as <-.
    unfold previous in E2 |- *. rewrite Ho in E2 |- *. destruct l as [|k]; [discriminate|]. injection E2 as <-. cbn [fpose posed with_fpose] in E3. injection E3 as <-. rewrite input_B in E6.
    pose proof (traj_turn (S k) maps maps' T T' ltac:(lia) HT HT') as HP. pose proof (proj1 (seen_turn k maps maps' T T' Hl HT HT' rows) E5) as W.
    destruct (step_turn k maps maps' T T' rows rows b ltac:(lia) HT HT' HP E6 E5 W) as [(X1 & X1' & i1 & G1 & _)|[G1 _]]; [rewrite E7 in G1; discriminate|].
    rewrite E7 in G1. injection G1 as ->. split; [reflexivity|]. intros T2 L. unfold Localised in L. rewrite Ho in L. destruct L as (Tp' & d1' & rows2 & E1' & E2' & E3' & E4').
    cbn [fpose posed with_fpose] in E1'. injection E1' as <-. rewrite Hds in E2'. injection E2' as <-. rewrite input_B in E4'. destruct (E4' b ltac:(lia)) as (X' & idx' & F1' & _).
    destruct (step_turn k maps maps' T T' rows rows2 b ltac:(lia) HT HT' HP E6 E5 E3') as [(X1 & X1' & i1 & G1 & _)|[_ G2]]; [rewrite E7 in G1; discriminate|]. rewrite F1' in G2. discriminate.
  Qed.
  Lemma fail_turn2 l maps maps' T T' e : l < fL fr -> Trajectory c fr l maps T -> Trajectory c fr' l maps' T' ->
    RegistrationFails c (maps' l) (previous c fr' T' l) (input_frame fr' l) e ->
    e = Unmodelled /\ (forall T2, ~ Localised c (maps l) (previous c fr T l) (input_frame fr l) T2).
  Proof.
    intros Hl HT HT' (o' & pf & Tp & ds' & rows & b & E1 & E2 & E3 & E4 & E5 & E6 & E7). rewrite Ho in E1. injection E1 as <-. rewrite Hds in E4. injection E4 as <-.
    unfold previous in E2 |- *. rewrite Ho in E2 |- *. destruct l as [|k]; [discriminate|]. injection E2 as <-. cbn [fpose posed with_fpose] in E3. injection E3 as <-. rewrite input_B in E6.
    pose proof (traj_turn (S k) maps maps' T T' ltac:(lia) HT HT') as HP. pose proof (proj2 (seen_turn k maps maps' T T' Hl HT HT' rows) E5) as W.
    destruct (step_turn k maps maps' T T' rows rows b ltac:(lia) HT HT' HP ltac:(lia) W E5) as [(X1 & X1' & i1 & _ & G1 & _)|[_ G1]]; [rewrite E7 in G1; discriminate|].
    rewrite E7 in G1. injection G1 as ->. split; [reflexivity|]. intros T2 L. unfold Localised in L. rewrite Ho in L. destruct L as (Tp' & d1' & rows2 & E1' & E2' & E3' & E4').
    cbn [fpose posed with_fpose] in E1'. injection E1' as <-. rewrite Hds in E2'. injection E2' as <-. rewrite input_B in E4'. destruct (E4' b ltac:(lia)) as (X' & idx' & F1' & _).
    destruct (step_turn k maps maps' T T' rows2 rows b ltac:(lia) HT HT' HP ltac:(lia) E3' E5) as [(X1 & X1' & i1 & _ & G1 & _)|[G2 _]]; [rewrite E7 in G1; discriminate|]. rewrite F1' in G2. discriminate.
  Qed.
End Run.

Lemma p_turn_forward c o ds Q g q fr g' q' fr' : orthogonal3 Q -> RHist q g false fr -> RHist q' g' false fr' -> turned_run Q fr fr' ->
  0 < fB fr -> 2 <= fH fr -> 2 <= fW fr -> s_odom c = OIcp o -> good_method o -> IcpSpec.nearest (s_nn c) -> by_distance (s_nn c) -> s_ds c = IntV ds -> (0 < ds)%Z ->
  match s_map c with Aggregate => True | Fusion _ dot_th _ => (0 <= dot_th)%R end ->
  Sizes c (fB fr) (fH fr) (fW fr) (fL fr * (fH fr * fW fr)) ->
  match fst (forward c true g), fst (forward c true g') with
  | Ok (m, ps), Ok (m', ps') => exists a a' T T', Shows RF m a /\ Shows RF m' a' /\ sim_map 1 Q origin (fB fr) a a' /\
      Poses fr ps T /\ Poses fr' ps' T' /\ forall b l, b < fB fr -> l < fL fr -> sim_pose 1 Q origin (T b l) (T' b l)
  | Err e, Err e' => e = e'
  | _, _ => False
  end.
Proof.
  intros HQ HI HI' TR HB HH HW Ho Hg Hnn Hbd Hds Hd HD HS. pose proof TR as ((SB & SL & SH & SW & SK & SD & _) & _). cbn [fB fL fH fW with_fpose] in SB, SL, SH, SW.
  assert (HR : Ratio c) by (unfold Ratio; rewrite Ho; eauto).
  assert (HS1 : match s_map c with Aggregate => True | Fusion _ _ sg => exists x, sg = SigNum x /\ x <> 0%R end) by (unfold Sizes in HS; destruct (s_map c); [exact I|apply HS]).
  pose proof (p_forward c g q fr HI HB HH HW HR HS ltac:(congruence)) as K.
  pose proof (p_forward c g' q' fr' HI' ltac:(lia) ltac:(lia) ltac:(lia) HR ltac:(rewrite SB, SL, SH, SW; exact HS) ltac:(congruence)) as K'.
  assert (TR' : forall maps T n k, k <= n -> forall f, Trajectory c f n maps T -> Trajectory c f k maps T) by (intros maps T n k Hk f [Z0 Z]; split; [exact Z0|intros; apply Z; lia]).
  destruct (forward c true g) as [[[m ps]|e] g1]; destruct (forward c true g') as [[[m' ps']|e'] g1']; cbn [fst].
  - destruct K as (_ & maps & T & K1 & _ & K3 & K4), K' as (_ & maps' & T' & K1' & _ & K3' & K4'). rewrite SL in *.
    pose proof (traj_turn c o ds Q fr fr' HQ TR Ho Hds Hg Hnn Hbd HD HS1 HH HW (fL fr) maps maps' T T' (le_n _) K1 K1') as HP.
    exists (maps (fL fr)), (maps' (fL fr)), T, T'. split; [exact K3|]. split; [exact K3'|]. split; [|split; [exact K4|split; [exact K4'|exact HP]]].
    apply (maps_turn c Q fr fr' T T' maps maps' (fL fr)); try assumption; [apply TR|lia].
  - destruct K as (_ & maps & T & K1 & _), K' as (_ & l & maps' & T' & Hl & K1' & K2'). rewrite SL in Hl.
    (* the roles of the two runs are exchanged by the inverse turn; here the failing one is the second *)
    destruct (fail_turn2 c o ds Q fr fr' HQ TR Ho Hds Hg Hnn Hbd HD HS1 HH HW l maps maps' T T' e' Hl (TR' _ _ _ _ (Nat.lt_le_incl _ _ Hl) _ K1) K1' K2') as [_ N].
    destruct K1 as [_ K1]. destruct (K1 l Hl) as [L _]. exact (N _ L).
  - destruct K as (_ & l & maps & T & Hl & K1 & K2), K' as (_ & maps' & T' & K1' & _). rewrite SL in K1'.
    destruct (fail_turn c o ds Q fr fr' HQ TR Ho Hds Hg Hnn Hbd HD HS1 HH HW l maps maps' T T' e Hl K1 (TR' _ _ _ _ (Nat.lt_le_incl _ _ Hl) _ K1') K2) as [_ N].
    destruct K1' as [_ K1']. destruct (K1' l Hl) as [L _]. exact (N _ L).
  - destruct K as (_ & l & maps & T & Hl & K1 & K2), K' as (_ & l' & maps' & T' & Hl' & K1' & K2'). rewrite SL in Hl'.
    destruct (lt_eq_lt_dec l l') as [[Lt|E0]|Lt].
    + destruct (fail_turn c o ds Q fr fr' HQ TR Ho Hds Hg Hnn Hbd HD HS1 HH HW l maps maps' T T' e Hl K1 (TR' _ _ _ _ (Nat.lt_le_incl _ _ Lt) _ K1') K2) as [_ N].
      destruct K1' as [_ K1']. destruct (K1' l Lt) as [L _]. elim (N _ L).
    + subst l'. destruct (fail_turn c o ds Q fr fr' HQ TR Ho Hds Hg Hnn Hbd HD HS1 HH HW l maps maps' T T' e Hl K1 K1' K2) as [-> _].
      destruct (fail_turn2 c o ds Q fr fr' HQ TR Ho Hds Hg Hnn Hbd HD HS1 HH HW l maps maps' T T' e' Hl K1 K1' K2') as [-> _]. reflexivity.
    + destruct (fail_turn2 c o ds Q fr fr' HQ TR Ho Hds Hg Hnn Hbd HD HS1 HH HW l' maps maps' T T' e' Hl' (TR' _ _ _ _ (Nat.lt_le_incl _ _ Lt) _ K1) K1' K2') as [_ N].
      destruct K1 as [_ K1]. destruct (K1 l' Lt) as [L _]. elim (N _ L).
Qed.
