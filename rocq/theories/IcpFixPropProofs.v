(* C75 in the form of the API. *)
From Coq Require Import Reals List Arith Bool ZArith Lra Lia.
From Verif Require Import Res Fld StructUtilsModel PointcloudsModel PointcloudsSpec PointcloudsIndexSpec PointcloudsCtorSpec
  PointcloudsHist PointcloudsPropProofs MatSpec GeomSpec TensorModel TensorProofs GeomModel RgbdModel MatProofs Se3Model FusionModel FusionMap SolveModel IcpModel IcpSpec OdomSpec IcpFixSpec
  IcpGnProofs IcpLoopProofs IcpRunProofs IcpRunProofs2 IcpArgProofs DownProofs ProvideProofs IcpFixProofs.
Import ListNotations.
Local Open Scope R_scope.

Lemma p_fix_icp : forall nn src tgt nor ns nt th init n damp, icp_input nn src tgt nor ns nt th -> mat44 init -> 0 < damp -> (0 < n)%Z ->
  let s := moved (ent init []) (pts_of src) in
  balanced nn (keep_sq th) ns nt (pts_of tgt) (pts_of nor) s ->
  point_to_plane_ICP nn (TTen src) (TTen tgt) (TTen nor) (TTen init) (IntV n) damp th =
    Ok (init, map (fun i => match_of nn nt (pts_of tgt) (s i)) (kept_pts nn (keep_sq th) ns nt (pts_of tgt) s)).
Proof.
  intros nn src tgt nor ns nt th init n damp Hin Hi Hd Hn s Hb. apply (icp_fixed nn src tgt nor ns nt th Hin init n damp Hi Hd Hn).
  intros d. apply balanced_lm, Hb.
Qed.
Lemma p_fix_grad : forall nn src tgt nor ns nt th lmax B B2 nu init n damp, icp_input nn src tgt nor ns nt th -> 0 < lmax -> nu <> 0 ->
  mat44 init -> 0 < damp -> (0 < n)%Z ->
  let s := moved (ent init []) (pts_of src) in
  balanced nn (keep_sq th) ns nt (pts_of tgt) (pts_of nor) s ->
  exists T, point_to_plane_gradICP nn (TTen src) (TTen tgt) (TTen nor) (TTen init) (IntV n) damp th (Num lmax) (Num B) (Num B2) (Num nu) =
    Ok (T, map (fun i => match_of nn nt (pts_of tgt) (s i)) (kept_pts nn (keep_sq th) ns nt (pts_of tgt) s)) /\
    mat44 T /\ meq 4 4 (ent T []) (ent init []).
Proof.
  intros nn src tgt nor ns nt th lmax B B2 nu init n damp Hin Hl Hnu Hi Hd Hn s Hb.
  apply (grad_fixed nn src tgt nor ns nt th Hin lmax B B2 nu Hl Hnu init n damp Hi Hd Hn).
  intros d. apply balanced_lm, Hb.
Qed.
Lemma p_fix_zero_error : forall nn (keep : R -> bool) ns nt d n s, plane_err nn keep ns nt d n s = 0 ->
  (forall i, takes_part nn keep ns nt d s i -> plane_res (n (match_of nn nt d (s i))) (d (match_of nn nt d (s i))) (s i) = 0) /\
  balanced nn keep ns nt d n s.
Proof. intros nn keep ns nt d n s H. split; [apply zero_err_res, H|apply zero_err_balanced, H]. Qed.
Lemma p_fix_on_target : forall nn (keep : R -> bool) ns nt d n s, nearest nn -> on_target ns nt d s ->
  plane_err nn keep ns nt d n s = 0 /\ balanced nn keep ns nt d n s.
Proof. intros nn keep ns nt d n s H1 H3. pose proof (on_target_err nn keep ns nt d n s H1 H3) as H. split; [exact H|apply zero_err_balanced, H]. Qed.
(* no point within the threshold *)
Lemma p_fix_none_kept : forall nn (keep : R -> bool) ns nt d n s, (forall i, ~ takes_part nn keep ns nt d s i) -> balanced nn keep ns nt d n s.
Proof.
  intros nn keep ns nt d n s H k Hk. cbv zeta. split; apply rsum_zero; intros i Hi;
  destruct (keep (dist2 3 (s i) (d (match_of nn nt d (s i))))) eqn:K; try reflexivity; destruct (H i (conj Hi K)).
Qed.
Lemma cloud_row (x : t2 R) i : veq 3 (pts_of (cloud_ten x) i) (fun j => nth j (nth i (t2r x) []) 0).
Proof. intros j Hj. reflexivity. Qed.
(* the providers: every frame point is a map point of the same batch element *)
Lemma p_fix_provide : forall nn o s t a c P N Q, Hist RF s a -> Hist RF t c -> qp a = Some P -> qn a = Some N -> qp c = Some Q -> length P = length Q ->
  nearest nn -> good_method o ->
  (forall b, (b < length P)%nat -> incl (t2r (nth b Q (mkT2 0 [] : t2 R))) (t2r (nth b P (mkT2 0 [] : t2 R)))) ->
  exists X s' t', provide nn o (s, t) = (Ok X, (s', t')) /\ shape X = [length P; 1; 4; 4]%nat /\
    forall b, (b < length P)%nat -> meq 4 4 (ent X [0%nat; b]) mI.
Proof.
  intros nn o s t a c P N Q Hs Ht HP HN HQ Hlen Hnn Hg Hinc.
  pose proof (batch_valid s a P Hs HP) as (_ & _ & Va). pose proof (batch_valid t c Q Ht HQ) as (_ & _ & Vc).
  destruct (Va Points P HP) as [_ WP]. destruct (Va Normals N HN) as [CN WN]. destruct (Vc Points Q HQ) as [_ WQ].
  assert (LN : length N = length P) by (apply (f_equal (@length nat)) in CN; unfold counts_of in CN; rewrite !map_length in CN; exact CN).
  assert (Hone : forall b, (b < length P)%nat -> exists T idx, one_run_of nn o P N Q b = Ok (T, idx) /\ meq 4 4 (ent T []) mI).
  { intros b Hb. rewrite Forall_forall in WP, WN, WQ.
    destruct (WP (nth b P (mkT2 0%nat [])) ltac:(apply nth_In; lia)) as [P1 _]. destruct (WN (nth b N (mkT2 0%nat [])) ltac:(apply nth_In; lia)) as [N1 _].
    destruct (WQ (nth b Q (mkT2 0%nat [])) ltac:(apply nth_In; lia)) as [Q1 _].
    assert (C1 : length (t2r (nth b N (mkT2 0%nat []))) = length (t2r (nth b P (mkT2 0%nat [])))).
    { apply (f_equal (fun l => nth b l 0%nat)) in CN. unfold counts_of in CN.
      rewrite (nth_map' _ N b 0%nat (mkT2 0%nat [])) in CN by lia. rewrite (nth_map' _ P b 0%nat (mkT2 0%nat [])) in CN by lia. exact CN. }
    specialize (Hinc b Hb). unfold one_run_of.
    set (src := nth b Q (mkT2 0%nat [])) in *. set (tgt := nth b P (mkT2 0%nat [])) in *. set (nor := nth b N (mkT2 0%nat [])) in *.
    assert (H0 : (0 < length (t2r tgt))%nat \/ length (t2r src) = 0%nat).
    { change (incl (t2r src) (t2r tgt)) in Hinc. destruct (t2r src) as [|x xs]; [right; reflexivity|]. left. specialize (Hinc x (or_introl eq_refl)). destruct (t2r tgt) as [|y ys]; [destruct Hinc|cbn; lia]. }
    assert (Hin : forall th, th <> ThrBad -> icp_input nn (cloud_ten src) (cloud_ten tgt) (cloud_ten nor) (length (t2r src)) (length (t2r tgt)) th).
    { intros th Hth. split; [exact Hnn|]. split; [apply cloud_ten_cloud; auto|]. split; [apply cloud_ten_cloud; auto|]. split; [apply cloud_ten_cloud; auto|].
      split; [exact H0|exact Hth]. }
    assert (Ht0 : on_target (length (t2r src)) (length (t2r tgt)) (pts_of (cloud_ten tgt)) (moved (ent eye4 []) (pts_of (cloud_ten src)))).
    { intros i Hi. destruct (In_nth (t2r tgt) (nth i (t2r src) []) [] (Hinc _ (nth_In _ _ Hi))) as (j & Hj & Ej). exists j. split; [exact Hj|].
      eapply veq_trans; [apply (moved_id (length (t2r src))); [intros p q Hp Hq; reflexivity|exact Hi]|].
      intros k Hk. change (nth k (nth i (t2r src) []) 0 = nth k (nth j (t2r tgt) []) 0). rewrite Ej. reflexivity. }
    assert (HI : meq 4 4 (ent eye4 []) mI) by (intros p q Hp Hq; reflexivity).
    destruct o as [[|n] d th|[|n] d th [|l] [|B] [|B2] [|nu]]; cbn in Hg; try contradiction.
    - destruct Hg as (G1 & G2 & G3). cbn [run_icp]. eexists _, _. split; [|exact HI].
      apply (p_fix_icp nn _ _ _ _ _ th eye4 n d (Hin th G3) eye_mat44 G2 G1). apply p_fix_on_target; assumption.
    - destruct Hg as (G1 & G2 & G3 & G4 & G5). cbn [run_icp].
      destruct (p_fix_grad nn _ _ _ _ _ th l B B2 nu eye4 n d (Hin th G3) G4 G5 eye_mat44 G2 G1) as (T & E & _ & M).
      + apply p_fix_on_target; assumption.
      + eexists _, _. split; [exact E|]. eapply meq_trans; [exact M|exact HI]. }
  destruct (provide_ok nn o s t a c P N Q Hs Ht HP HN HQ Hlen) as (X & s' & t' & E & _ & _ & D & HX).
  { intros b Hb. destruct (Hone b Hb) as (T & idx & ET & _). eauto. }
  exists X, s', t'. split; [exact E|]. split; [unfold shape; rewrite D; reflexivity|]. intros b Hb. destruct (HX b Hb) as (T & idx & ET & HT).
  destruct (Hone b Hb) as (T' & idx' & ET' & A). rewrite ET in ET'. injection ET' as <- _.
  intros i j Hi Hj. rewrite HT by assumption. apply A; assumption.
Qed.
