(* C48, C49: gauss_newton_solve; the shared part of the ICP loops. *)
From Coq Require Import Reals List Arith Bool Lra Lia.
From Verif Require Import Res MatSpec TensorModel GeomModel RgbdModel MatProofs TensorProofs GeomPtsProofs Se3Model SolveModel
  IcpModel IcpSpec SolveProofs IcpSolveProofs.
Import ListNotations.
Local Open Scope R_scope.

(* sums over a filtered list *)
Lemma rsum_filter (keep : nat -> bool) (g : nat -> R) ns :
  let ks := filter keep (seq 0 ns) in
  rsum (length ks) (fun r => g (nth r ks 0%nat)) = rsum ns (fun i => if keep i then g i else 0).
Proof.
  induction ns as [|n IH]; [reflexivity|]. cbv zeta in *. rewrite seq_S, filter_app. cbn [Nat.add filter].
  cbn [rsum]. rewrite <- IH. clear IH. set (ks := filter keep (seq 0 n)). destruct (keep n).
  - rewrite app_length. cbn [length]. rewrite Nat.add_1_r. cbn [rsum]. f_equal.
    + apply rsum_ext. intros k Hk. rewrite app_nth1 by exact Hk. reflexivity.
    + rewrite app_nth2 by lia. rewrite Nat.sub_diag. reflexivity.
  - rewrite app_nil_r. lra.
Qed.
Lemma nth_kept (keep : nat -> bool) ns r : (r < length (filter keep (seq 0 ns)))%nat ->
  let i := nth r (filter keep (seq 0 ns)) 0%nat in (i < ns)%nat /\ keep i = true.
Proof.
  intros H i. assert (Hin : In i (filter keep (seq 0 ns))) by (apply nth_In; exact H).
  apply filter_In in Hin. destruct Hin as [Hi Hk]. apply in_seq in Hi. split; [lia|exact Hk].
Qed.

Lemma kept_eq nn src tgt th ns nt : cloud_of src ns -> cloud_of tgt nt ->
  kept nn src tgt th = kept_pts nn (keep_sq th) ns nt (pts_of tgt) (pts_of src).
Proof.
  intros Hs Ht. unfold kept, kept_pts, npts, point. unfold cloud_of in *. rewrite Hs, Ht. cbn [nth].
  apply filter_ext. intros i. unfold keep_sq, match_of, pts_of. destruct th; reflexivity.
Qed.

Definition gn_mat nn th ns nt (s d n : nat -> vec) : ten R :=
  let ks := kept_pts nn (keep_sq th) ns nt d s in
  mkTen [6%nat; length ks] (fun ix => match ix with
    | [j; r] => let i := nth r ks 0%nat in nth j (gn_row (s i) (n (nn nt d (s i)))) 0 | _ => 0 end).
Definition gn_vec nn th ns nt (s d n : nat -> vec) : ten R :=
  let ks := kept_pts nn (keep_sq th) ns nt d s in
  mkTen [1%nat; length ks] (fun ix => match ix with
    | [_; r] => let i := nth r ks 0%nat in gn_res (s i) (d (nn nt d (s i))) (n (nn nt d (s i))) | _ => 0 end).

Lemma gn_ok nn src tgt nor th ns nt : cloud_of src ns -> cloud_of tgt nt -> cloud_of nor nt -> (0 < nt)%nat \/ ns = 0%nat -> th <> ThrBad ->
  gauss_newton_solve nn (TTen src) (TTen tgt) (TTen nor) th =
    Ok (gn_mat nn th ns nt (pts_of src) (pts_of tgt) (pts_of nor),
        gn_vec nn th ns nt (pts_of src) (pts_of tgt) (pts_of nor),
        map (fun i => nn nt (pts_of tgt) (pts_of src i)) (kept_pts nn (keep_sq th) ns nt (pts_of tgt) (pts_of src))).
Proof.
  intros Hs Ht Hn H0 Hth. unfold gauss_newton_solve. cbn [need_tensor rbind].
  replace (guard (match th with ThrBad => false | _ => true end) TypeError) with (Ok tt) by (destruct th; congruence || reflexivity).
  rewrite (kept_eq nn src tgt th ns nt Hs Ht).
  unfold cloud_of in Hs, Ht, Hn. unfold cloud3_check, batch1_check, width3_check, npts, ndim. rewrite Hs, Ht, Hn. cbn [length nth Nat.eqb guard rbind].
  rewrite Nat.eqb_refl. cbn [guard rbind]. destruct (Nat.eqb_spec nt 0) as [E|E]; [replace ns with 0%nat by lia|]; cbn [andb negb Nat.eqb guard rbind]; reflexivity.
Qed.

(* the rows in terms of the specification *)
Lemma gn_row_spec s n k : (k < 6)%nat -> nth k (gn_row s n) 0 = if Nat.ltb k 3 then n k else cross s n (k - 3)%nat.
Proof. intros H. do 6 (destruct k as [|k]; [cbn; lra|]). lia. Qed.
Lemma gn_res_spec s d n : gn_res s d n = - plane_res n d s.
Proof. unfold gn_res, plane_res, dot. cbn [rsum]. lra. Qed.

Lemma gn_err nn th ns nt s d n : sq_err (gn_vec nn th ns nt s d n) = plane_err nn (keep_sq th) ns nt d n s.
Proof.
  unfold sq_err, gn_vec, plane_err, kept_pts. cbn [dims nth at_].
  rewrite (rsum_filter (fun i => keep_sq th (dist2 3 (s i) (d (match_of nn nt d (s i)))))
            (fun i => gn_res (s i) (d (nn nt d (s i))) (n (nn nt d (s i))) * gn_res (s i) (d (nn nt d (s i))) (n (nn nt d (s i)))) ns).
  apply rsum_ext. intros i Hi. cbv zeta. unfold match_of. destruct (keep_sq th _); [|reflexivity]. rewrite gn_res_spec. lra.
Qed.

Lemma gn_normal nn th ns nt s d n damp xi :
  let A := gn_mat nn th ns nt s d n in let b := gn_vec nn th ns nt s d n in
  let K := length (kept_pts nn (keep_sq th) ns nt d s) in
  normal_eq K 6 (ent A []) (fun r => at_ b [0%nat; r]) damp xi <-> lm_step nn (keep_sq th) ns nt d n s damp xi.
Proof.
  cbv zeta. set (K := length _). set (ks := kept_pts nn (keep_sq th) ns nt d s) in *.
  set (kp := fun i => keep_sq th (dist2 3 (s i) (d (match_of nn nt d (s i))))).
  assert (HA : forall i j, (i < 6)%nat -> (j < 6)%nat ->
    rsum K (fun r => ent (gn_mat nn th ns nt s d n) [] r i * ent (gn_mat nn th ns nt s d n) [] r j) =
    rsum ns (fun r => lin_row nn (keep_sq th) nt d n s r i * lin_row nn (keep_sq th) nt d n s r j)).
  { intros i j Hi Hj. unfold ent, gn_mat. cbn [at_]. fold ks. unfold K, ks, kept_pts.
    etransitivity; [exact (rsum_filter kp (fun r => nth i (gn_row (s r) (n (nn nt d (s r)))) 0 * nth j (gn_row (s r) (n (nn nt d (s r)))) 0) ns)|].
    apply rsum_ext. intros r Hr. unfold lin_row, kp, match_of. destruct (keep_sq th _); [|lra].
    rewrite !gn_row_spec by assumption. reflexivity. }
  assert (Hb : forall i, (i < 6)%nat ->
    rsum K (fun r => ent (gn_mat nn th ns nt s d n) [] r i * at_ (gn_vec nn th ns nt s d n) [0%nat; r]) =
    rsum ns (fun r => lin_row nn (keep_sq th) nt d n s r i * lin_rhs nn (keep_sq th) nt d n s r)).
  { intros i Hi. unfold ent, gn_mat, gn_vec. cbn [at_]. fold ks. unfold K, ks, kept_pts.
    etransitivity; [exact (rsum_filter kp (fun r => nth i (gn_row (s r) (n (nn nt d (s r)))) 0 * gn_res (s r) (d (nn nt d (s r))) (n (nn nt d (s r)))) ns)|].
    apply rsum_ext. intros r Hr. unfold lin_row, lin_rhs, kp, match_of. destruct (keep_sq th _); [|lra].
    rewrite gn_row_spec by assumption. rewrite gn_res_spec. reflexivity. }
  assert (HN : forall i, (i < 6)%nat -> mvec 6 (normal_mat K (ent (gn_mat nn th ns nt s d n) []) damp) xi i =
    mvec 6 (normal_mat ns (lin_row nn (keep_sq th) nt d n s) damp) xi i).
  { intros i Hi. unfold mvec. apply rsum_ext. intros j Hj. unfold normal_mat. rewrite HA by assumption. reflexivity. }
  unfold lm_step, normal_eq. split; intros H i Hi; specialize (H i Hi).
  - rewrite <- HN, <- Hb by exact Hi. exact H.
  - rewrite HN, Hb by exact Hi. exact H.
Qed.

(* ---------------------------------------------------------------- extensionality in the point positions *)
Definition same_pts (n : nat) (s s' : nat -> vec) : Prop := forall i, (i < n)%nat -> veq 3 (s i) (s' i).
Lemma dist2_ext u v u' v' : veq 3 u u' -> veq 3 v v' -> dist2 3 u v = dist2 3 u' v'.
Proof. intros H1 H2. unfold dist2. apply rsum_ext. intros k Hk. rewrite (H1 k Hk), (H2 k Hk). reflexivity. Qed.
Lemma plane_res_ext n d p p' : veq 3 p p' -> plane_res n d p = plane_res n d p'.
Proof. intros H. unfold plane_res, dot. apply rsum_ext. intros k Hk. rewrite (H k Hk). reflexivity. Qed.
Lemma veq_refl n u : veq n u u. Proof. intros i _. reflexivity. Qed.
Lemma veq_sym n u v : veq n u v -> veq n v u. Proof. intros H i Hi. symmetry. apply H. exact Hi. Qed.
Lemma veq_trans n u v w : veq n u v -> veq n v w -> veq n u w. Proof. intros H1 H2 i Hi. rewrite (H1 i Hi). apply H2. exact Hi. Qed.

Section Ext.
  Variables (nn : nnfun) (keep : R -> bool) (ns nt : nat) (d n : nat -> vec).
  Hypothesis Hnn : nearest nn.
  Lemma match_ext p p' : veq 3 p p' -> match_of nn nt d p = match_of nn nt d p'.
  Proof. intros H. unfold match_of. apply (proj2 Hnn); [intros; apply veq_refl|exact H]. Qed.
  Lemma plane_err_ext s s' : same_pts ns s s' -> plane_err nn keep ns nt d n s = plane_err nn keep ns nt d n s'.
  Proof.
    intros H. unfold plane_err. apply rsum_ext. intros i Hi. cbv zeta. rewrite (match_ext _ _ (H i Hi)).
    rewrite (dist2_ext _ _ _ _ (H i Hi) (veq_refl 3 _)). rewrite (plane_res_ext _ _ _ _ (H i Hi)). reflexivity.
  Qed.
  Lemma kept_ext s s' : same_pts ns s s' -> kept_pts nn keep ns nt d s = kept_pts nn keep ns nt d s'.
  Proof.
    intros H. unfold kept_pts. apply filter_ext_in. intros i Hi. apply in_seq in Hi.
    rewrite (match_ext _ _ (H i ltac:(lia))). rewrite (dist2_ext _ _ _ _ (H i ltac:(lia)) (veq_refl 3 _)). reflexivity.
  Qed.
  Lemma lin_row_ext s s' i k : same_pts ns s s' -> (i < ns)%nat -> (k < 6)%nat -> lin_row nn keep nt d n s i k = lin_row nn keep nt d n s' i k.
  Proof.
    intros H Hi Hk. unfold lin_row. cbv zeta. rewrite (match_ext _ _ (H i Hi)). rewrite (dist2_ext _ _ _ _ (H i Hi) (veq_refl 3 _)).
    destruct (keep _); [|reflexivity]. destruct (Nat.ltb k 3); [reflexivity|].
    pose proof (H i Hi 0%nat ltac:(lia)) as E0. pose proof (H i Hi 1%nat ltac:(lia)) as E1. pose proof (H i Hi 2%nat ltac:(lia)) as E2.
    unfold cross. rewrite E0, E1, E2. reflexivity.
  Qed.
  Lemma lin_rhs_ext s s' i : same_pts ns s s' -> (i < ns)%nat -> lin_rhs nn keep nt d n s i = lin_rhs nn keep nt d n s' i.
  Proof.
    intros H Hi. unfold lin_rhs. cbv zeta. rewrite (match_ext _ _ (H i Hi)). rewrite (dist2_ext _ _ _ _ (H i Hi) (veq_refl 3 _)).
    rewrite (plane_res_ext _ _ _ _ (H i Hi)). reflexivity.
  Qed.
  Lemma lm_step_ext s s' damp xi : same_pts ns s s' -> lm_step nn keep ns nt d n s damp xi -> lm_step nn keep ns nt d n s' damp xi.
  Proof.
    intros H L i Hi. specialize (L i Hi). unfold normal_eq, mvec, normal_mat in *.
    etransitivity; [|etransitivity; [exact L|]].
    - apply rsum_ext. intros j Hj. do 2 f_equal. apply rsum_ext. intros r Hr. rewrite !(lin_row_ext s s') by assumption. reflexivity.
    - apply rsum_ext. intros r Hr. rewrite (lin_row_ext s s'), (lin_rhs_ext s s') by assumption. reflexivity.
  Qed.
  Lemma lm_step_unique s damp xi xi' : 0 < damp -> lm_step nn keep ns nt d n s damp xi -> lm_step nn keep ns nt d n s damp xi' -> veq 6 xi xi'.
  Proof. intros Hd. apply normal_eq_unique. apply normal_injective. exact Hd. Qed.
End Ext.

(* ---------------------------------------------------------------- moving a cloud *)
Lemma move_ok src T ns : cloud_of src ns -> mat44 T ->
  exists pc, move src T = Ok pc /\ cloud_of pc ns /\ same_pts ns (pts_of pc) (moved (ent T []) (pts_of src)).
Proof.
  intros Hs HT. unfold move, select_first. unfold cloud_of in Hs. rewrite Hs. cbn [rev app]. cbn [rbind].
  destruct (p_transform_cloud (mkTen [3%nat; ns] (fun ix => at_ src (ix ++ [0%nat]))) T ns eq_refl) as [(out & -> & Eo & Ho) _].
  { unfold shape. unfold mat44 in HT. rewrite HT. reflexivity. }
  cbn [rbind]. eexists. split; [reflexivity|].
  assert (Eo' : dims out = [3%nat; ns]) by (unfold shape in Eo; rewrite <- (rev_involutive (dims out)), Eo; reflexivity).
  split; [unfold cloud_of, unsqueeze_0; cbn [dims]; rewrite Eo'; reflexivity|].
  intros i Hi k Hk. unfold pts_of, comp, unsqueeze_0, ndim. cbn [at_]. rewrite Eo'. cbn [length firstn].
  pose proof (Ho i Hi k Hk) as E. unfold comp in E. etransitivity; [exact E|]. reflexivity.
Qed.

Lemma mat_ten_44 T : mat44 (mat_ten T). Proof. reflexivity. Qed.
Lemma column6 xi : dims xi = [1%nat; 6%nat] ->
  column xi = [at_ xi [0; 0]; at_ xi [0; 1]; at_ xi [0; 2]; at_ xi [0; 3]; at_ xi [0; 4]; at_ xi [0; 5]]%nat.
Proof. intros E. unfold column. rewrite E. reflexivity. Qed.
Lemma six_ext u v : veq 6 u v -> six u = six v.
Proof. intros H. unfold six. rewrite (H 0%nat), (H 1%nat), (H 2%nat), (H 3%nat), (H 4%nat), (H 5%nat) by lia. reflexivity. Qed.
Lemma se3_exp_six xi : exists E, se3_exp (six xi) = Ok E /\ affine4 E.
Proof.
  unfold se3_exp. cbn [skipn firstn six so3_hat length Nat.ltb Nat.leb rbind].
  destruct (Rlt_dec _ se3_eps); eexists; (split; [reflexivity|repeat split]).
Qed.

Lemma look_ok nn src tgt nor th ns nt damp : cloud_of src ns -> cloud_of tgt nt -> cloud_of nor nt -> (0 < nt)%nat \/ ns = 0%nat -> th <> ThrBad -> 0 < damp -> nearest nn ->
  exists l xi E, lookahead nn tgt nor th src damp = Ok l /\
    let err := plane_err nn (keep_sq th) ns nt (pts_of tgt) (pts_of nor) in
    lm_step nn (keep_sq th) ns nt (pts_of tgt) (pts_of nor) (pts_of src) damp xi /\
    column (l_xi l) = six xi /\ se3_exp (six xi) = Ok E /\ affine4 E /\ l_T l = mat_ten E /\
    l_err l = err (pts_of src) /\ l_new l = err (moved E (pts_of src)) /\
    cloud_of (l_pc l) ns /\ same_pts ns (pts_of (l_pc l)) (moved E (pts_of src)) /\
    l_idx l = map (fun i => match_of nn nt (pts_of tgt) (pts_of src i)) (kept_pts nn (keep_sq th) ns nt (pts_of tgt) (pts_of src)).
Proof.
  intros Hs Ht Hn H0 Hth Hd Hnn. unfold lookahead. rewrite (gn_ok nn src tgt nor th ns nt) by assumption. cbn [rbind].
  set (A := gn_mat _ _ _ _ _ _ _). set (b := gn_vec _ _ _ _ _ _ _).
  set (K := length (kept_pts nn (keep_sq th) ns nt (pts_of tgt) (pts_of src))).
  destruct (sls_ok A b (DTen 0 damp) K 6 eq_refl eq_refl I) as (x & -> & Ex & Hx).
  { apply normal_injective. exact Hd. }
  cbn [rbind damp_val] in *. set (xi := fun i => at_ x [0%nat; i]) in *.
  apply (gn_normal nn th ns nt (pts_of src) (pts_of tgt) (pts_of nor) damp xi) in Hx.
  rewrite (column6 x Ex). change ([at_ x [0; 0]; at_ x [0; 1]; at_ x [0; 2]; at_ x [0; 3]; at_ x [0; 4]; at_ x [0; 5]]%nat) with (six xi).
  destruct (se3_exp_six xi) as (E & HE & HaE). rewrite HE. cbn [rmap rbind].
  destruct (move_ok src (mat_ten E) ns Hs (mat_ten_44 E)) as (pc & -> & Hpc & Hpts). cbn [rbind].
  rewrite (gn_ok nn pc tgt nor th ns nt) by assumption. cbn [rbind].
  eexists _, xi, E. split; [reflexivity|]. cbv zeta. cbn [l_xi l_err l_new l_T l_pc l_idx].
  split; [exact Hx|]. split; [exact (column6 x Ex)|]. split; [exact HE|]. split; [exact HaE|]. split; [reflexivity|].
  split; [apply gn_err|]. split.
  { rewrite gn_err. apply plane_err_ext; assumption. }
  split; [exact Hpc|]. split; [exact Hpts|reflexivity].
Qed.
