(* Proofs of C19, C20, C21, C26. *)
From Coq Require Import Reals List Arith Bool Lia Lra ZArith.
From Verif Require Import Res MatSpec TensorModel TensorProofs LinAlgModel ProjModel GeomModel GeomSpec
  MatProofs ProjProofs ProjPropProofs GeomProofs.
Import ListNotations.
Local Open Scope nat_scope.

Lemma matmul_mis (x y : ten R) k n ba p k' bb : dims x = k :: n :: ba -> dims y = p :: k' :: bb -> k <> k' ->
  matmul x y = Err RuntimeError.
Proof.
  intros Ex Ey H. unfold matmul. rewrite Ex, Ey. apply Nat.eqb_neq in H.
  destruct ba, bb; rewrite H; reflexivity.
Qed.

(* ------------------------------------------------------------------ C19 *)
Lemma p_inverse_batch_fails : forall (N : nat) (T : ten R), shape T = [N; 4; 4] ->
  inverse_transfom_3d T = Err RuntimeError.
Proof.
  intros N [d f] E. unfold shape in E. cbn [dims] in E.
  assert (d = [4; 4; N]) as -> by (rewrite <- (rev_involutive d), E; reflexivity).
  destruct (Nat.eq_dec N 3) as [->|H]; [reflexivity|].
  unfold inverse_transfom_3d, dim_check, ndim, block3, col3, select_m1. cbn [dims length Nat.eqb orb guard rbind narrow_m2 narrow_m1 firstn skipn app tl Nat.min].
  cbn [Nat.ltb Nat.leb rbind]. unfold matmul. cbn [tmap transpose_m dims].
  destruct N as [|[|[|[|N]]]]; try reflexivity; contradiction.
Qed.

Lemma p_compose_batch_fails : forall (N : nat) (A B : ten R), shape A = [N; 4; 4] -> shape B = [N; 4; 4] ->
  compose_transforms_3d A B = Err RuntimeError.
Proof.
  intros N [d f] [d' f'] E E'. unfold shape in E, E'. cbn [dims] in E, E'.
  assert (d = [4; 4; N]) as -> by (rewrite <- (rev_involutive d), E; reflexivity).
  assert (d' = [4; 4; N]) as -> by (rewrite <- (rev_involutive d'), E'; reflexivity).
  unfold compose_transforms_3d, dim_check, ndim. cbn [dims length Nat.eqb orb guard rbind].
  destruct (list_eq_dec Nat.eq_dec [4; 4; N] [4; 4; N]) as [_|C]; [|contradiction]. cbn [guard rbind].
  unfold block3, col3, select_m1. cbn [dims narrow_m2 narrow_m1 firstn skipn app tl Nat.min Nat.ltb Nat.leb rbind].
  destruct (Nat.eq_dec N 3) as [->|H]; [reflexivity|].
  match goal with |- context [matmul ?x ?y] =>
    destruct (matmul_nd x y 3 3 [N] 3 [N] [N] eq_refl eq_refl (bshape_refl _)) as (z & -> & Ez & _) end.
  cbn [rbind].
  match goal with |- context [matmul ?x ?y] => rewrite (matmul_mis x y 3 3 [N] 3 N []) by (auto; reflexivity) end.
  reflexivity.
Qed.

(* ------------------------------------------------------------------ C20 *)
Lemma affine_unhomog (T : mat) (p : vec) : affine4 T ->
  unhomog_scale eps6 (mvec 4 T (hom 3 p) 3) = 1%R /\ forall i, i < 3 -> mvec 4 T (hom 3 p) i = act T p i.
Proof.
  intros (a & b & c & d). split.
  - unfold mvec. cbn [rsum]. rewrite a, b, c, d. unfold hom. cbn.
    replace (0 + 0 * p 0%nat + 0 * p 1%nat + 0 * p 2%nat + 1 * 1)%R with 1%R by ring.
    unfold unhomog_scale. rewrite Rabs_R1. destruct (Rlt_dec eps6 1); lra.
  - intros i Hi. unfold act, mvec, tr_of, rot_of, hom. cbn. ring.
Qed.

Lemma p_transform_pts_4d : forall (pts T : ten R) b h w,
  shape pts = [b; h; w; 3] -> shape T = [4; 4] -> affine4 (ent T []) ->
  exists out, transform_pts_3d pts T = Ok out /\ shape out = [b; h; w; 3] /\
    forall x y z, x < b -> y < h -> z < w ->
      veq 3 (comp out [z; y; x]) (act (ent T []) (comp pts [z; y; x])).
Proof.
  intros [d f] T b h w E ET HA. apply shape44 in ET. destruct T as [d' g]. cbn [dims] in ET. subst d'.
  unfold shape in E. cbn [dims] in E.
  assert (d = [3; w; h; b]) as -> by (rewrite <- (rev_involutive d), E; reflexivity). clear E.
  destruct (homogenize_ok (mkTen [3; w; h; b] f) 3 w [h; b] eq_refl) as (p & Hp & Ep & Hat).
  unfold transform_pts_3d. unfold ndim at 1 2. unfold size_m1, is44. cbn [dims length Nat.ltb Nat.leb negb guard rbind Nat.eqb andb].
  rewrite Hp. cbn [rbind]. unfold ndim. rewrite Ep. cbn [length Nat.eqb].
  destruct (matmul_nd (unsqueeze_0 (unsqueeze_0 (mkTen [4; 4] g))) (unsqueeze_m1 p) 4 4 [1; 1] 1 [w; h; b] [w; h; b])
    as (m & Hm & Em & Hmat); [reflexivity|cbn; rewrite Ep; reflexivity|apply (bshape_ones 2); cbn; lia|].
  rewrite Hm. cbn [rmap rbind]. destruct (squeeze_m1_ok m _ Em) as [Es Hs].
  destruct (unhomog_ok (squeeze_m1 m) eps6 3 w [h; b] Es) as (u & Hu & Eu & Huat).
  rewrite Hu. cbn [rbind]. rewrite Eu. eexists. split; [reflexivity|].
  split; [unfold shape; cbn [narrow_m1 dims]; rewrite Eu; reflexivity|].
  intros x y z Hx Hy Hz i Hi. unfold comp at 1. cbn [narrow_m1 at_]. rewrite Nat.add_0_l.
  rewrite Huat by (auto; repeat split; auto).
  assert (Hv : forall l, l < 4 -> at_ (squeeze_m1 m) [l; z; y; x] =
      mvec 4 (fun i j => g [j; i]) (hom 3 (comp (mkTen [3; w; h; b] f) [z; y; x])) l).
  { intros l Hl. rewrite Hs, Hmat. unfold mvec. apply rsum_ext. intros k Hk. f_equal.
    rewrite unsq_m1_at. cbn [bix].
    replace (if w =? 1 then 0 else z) with z by (destruct (Nat.eqb_spec w 1); lia).
    replace (if h =? 1 then 0 else y) with y by (destruct (Nat.eqb_spec h 1); lia).
    replace (if b =? 1 then 0 else x) with x by (destruct (Nat.eqb_spec b 1); lia).
    rewrite Hat. reflexivity. }
  rewrite !Hv by lia.
  destruct (affine_unhomog (fun i j => g [j; i]) (comp (mkTen [3; w; h; b] f) [z; y; x]) HA) as [H1 H2].
  rewrite H1, H2 by lia. rewrite Rmult_1_l. reflexivity.
Qed.

(* every other rank (in particular the documented N x 3): an empty result *)
Lemma p_transform_pts_other : forall (pts T : ten R) n s,
  dims pts = 3 :: n :: s -> length s <> 2 -> shape T = [4; 4] ->
  exists out, transform_pts_3d pts T = Ok out /\ dims out = 0 :: 4 :: n :: s.
Proof.
  intros pts T n s E Hs ET. apply shape44 in ET.
  destruct (homogenize_ok pts 3 n s E) as (p & Hp & Ep & Hat).
  unfold transform_pts_3d. unfold ndim at 1 2. unfold size_m1, is44. rewrite E, ET.
  cbn [length Nat.ltb Nat.leb negb guard rbind Nat.eqb andb].
  rewrite Hp. cbn [rbind]. unfold ndim. rewrite Ep. cbn [length].
  destruct (Nat.eqb_spec (S (S (length s))) 4) as [C|_]; [lia|].
  destruct (matmul_nd (unsqueeze_0 T) (unsqueeze_m1 p) 4 4 [1] 1 (n :: s) (n :: s))
    as (m & Hm & Em & Hmat); [rewrite unsq_0_dims, ET; reflexivity|cbn; rewrite Ep; reflexivity
    |apply (bshape_ones 1); cbn; lia|].
  rewrite Hm. cbn [rbind].
  destruct (unhomog_ok m eps6 0 4 (n :: s) Em) as (u & Hu & Eu & Huat).
  rewrite Hu. cbn [rbind]. rewrite Eu. eexists. split; [reflexivity|].
  cbn [narrow_m1 dims]. rewrite Eu. reflexivity.
Qed.

(* homogeneous B x H x W x 4 inputs and an arbitrary 4x4 matrix *)
Lemma p_transform_pts_hom : forall (pts T : ten R) b h w,
  shape pts = [b; h; w; 4] -> shape T = [4; 4] ->
  exists out, transform_pts_3d pts T = Ok out /\ shape out = [b; h; w; 3] /\
    forall x y z, x < b -> y < h -> z < w ->
      let q := mvec 4 (ent T []) (comp pts [z; y; x]) in
      ((eps6 < Rabs (q 3%nat))%R -> forall i, i < 3 -> (comp out [z; y; x] i = q i / q 3%nat)%R) /\
      ((Rabs (q 3%nat) <= eps6)%R -> forall i, i < 3 -> (comp out [z; y; x] i = q i)%R).
Proof.
  intros [d f] T b h w E ET. apply shape44 in ET. destruct T as [d' g]. cbn [dims] in ET. subst d'.
  unfold shape in E. cbn [dims] in E.
  assert (d = [4; w; h; b]) as -> by (rewrite <- (rev_involutive d), E; reflexivity). clear E.
  set (p := mkTen [4; w; h; b] f).
  unfold transform_pts_3d. unfold p at 1 2, ndim at 1 2. unfold size_m1, is44. cbn [dims length Nat.ltb Nat.leb negb guard rbind Nat.eqb andb].
  fold p. unfold ndim. unfold p at 1. cbn [dims length Nat.eqb].
  destruct (matmul_nd (unsqueeze_0 (unsqueeze_0 (mkTen [4; 4] g))) (unsqueeze_m1 p) 4 4 [1; 1] 1 [w; h; b] [w; h; b])
    as (m & Hm & Em & Hmat); [reflexivity|reflexivity|apply (bshape_ones 2); cbn; lia|].
  rewrite Hm. cbn [rmap rbind]. destruct (squeeze_m1_ok m _ Em) as [Es Hs].
  destruct (unhomog_ok (squeeze_m1 m) eps6 3 w [h; b] Es) as (u & Hu & Eu & Huat).
  rewrite Hu. cbn [rbind]. rewrite Eu. eexists. split; [reflexivity|].
  split; [unfold shape; cbn [narrow_m1 dims]; rewrite Eu; reflexivity|].
  intros x y z Hx Hy Hz.
  assert (Hv : forall l, l < 4 -> at_ (squeeze_m1 m) [l; z; y; x] =
      mvec 4 (fun i j => g [j; i]) (comp p [z; y; x]) l).
  { intros l Hl. rewrite Hs, Hmat. unfold mvec. apply rsum_ext. intros k Hk. f_equal.
    rewrite unsq_m1_at. cbn [bix].
    replace (if w =? 1 then 0 else z) with z by (destruct (Nat.eqb_spec w 1); lia).
    replace (if h =? 1 then 0 else y) with y by (destruct (Nat.eqb_spec h 1); lia).
    replace (if b =? 1 then 0 else x) with x by (destruct (Nat.eqb_spec b 1); lia).
    reflexivity. }
  assert (Ho : forall i, i < 3 -> comp (narrow_m1 0 (Nat.min 3 3) u) [z; y; x] i =
      (unhomog_scale eps6 (mvec 4 (fun i j => g [j; i]) (comp p [z; y; x]) 3%nat) *
       mvec 4 (fun i j => g [j; i]) (comp p [z; y; x]) i)%R).
  { intros i Hi. unfold comp at 1. cbn [narrow_m1 at_]. rewrite Nat.add_0_l.
    rewrite Huat by (auto; repeat split; auto). rewrite !Hv by lia. reflexivity. }
  cbv zeta. change (ent (mkTen [4; 4] g) []) with (fun i j => g [j; i]).
  split; intros Hq i Hi; rewrite Ho by lia; unfold unhomog_scale;
  destruct (Rlt_dec eps6 (Rabs (mvec 4 (fun i j => g [j; i]) (comp p [z; y; x]) 3%nat))); try lra;
  unfold Rdiv; ring.
Qed.

Lemma p_transform_pts_width : forall (pts T : ten R) d n s,
  dims pts = d :: n :: s -> d <> 3 -> d <> 4 -> shape T = [4; 4] ->
  transform_pts_3d pts T = Err RuntimeError.
Proof.
  intros pts T d n s E H3 H4 ET. apply shape44 in ET.
  unfold transform_pts_3d. unfold ndim at 1 2. unfold size_m1, is44. rewrite E, ET.
  cbn [length Nat.ltb Nat.leb negb guard rbind Nat.eqb andb].
  destruct (Nat.eqb_spec d 3) as [C|_]; [contradiction|]. cbn [rbind]. unfold ndim. rewrite E.
  destruct (length (d :: n :: s) =? 4).
  - rewrite (matmul_mis _ _ 4 4 [1; 1] 1 d (n :: s)); [reflexivity|rewrite !unsq_0_dims, ET; reflexivity
      |cbn [unsqueeze_m1 dims]; rewrite E; reflexivity|auto].
  - rewrite (matmul_mis _ _ 4 4 [1] 1 d (n :: s)); [reflexivity|rewrite !unsq_0_dims, ET; reflexivity
      |cbn [unsqueeze_m1 dims]; rewrite E; reflexivity|auto].
Qed.

Lemma p_transform_pts_rej : forall pts T : ten R, ndim pts < 2 \/ shape T <> [4; 4] ->
  transform_pts_3d pts T = Err ValueError.
Proof.
  intros pts T H. unfold transform_pts_3d. destruct (Nat.ltb_spec (ndim pts) 2); [reflexivity|].
  cbn [negb guard rbind]. destruct H as [H|H]; [lia|].
  destruct (Nat.eqb_spec (ndim T) 2) as [E|]; [|reflexivity]. cbn [guard rbind].
  destruct (is44 T) eqn:E4; [|reflexivity]. exfalso. apply H. unfold is44, ndim, shape in *.
  destruct (dims T) as [|a [|b [|c s]]]; try discriminate. apply andb_true_iff in E4.
  destruct E4 as [E1 E2]. apply Nat.eqb_eq in E1, E2. subst. reflexivity.
Qed.

Lemma p_transform_nd : forall (pts T : ten R) B N D,
  shape pts = [B; N; D] -> shape T = [B; D + 1; D + 1] ->
  (forall b, b < B -> forall j, j <= D -> ent T [b] D j = delta D j) ->
  exists out, transform_pts_nd_KF pts T = Ok out /\ shape out = [B; N; D] /\
    forall b n, b < B -> n < N ->
      veq D (comp out [n; b]) (fun i => mvec D (ent T [b]) (comp pts [n; b]) i + ent T [b] i D)%R.
Proof.
  intros [d f] [d' g] B N D E E' HA. unfold shape in E, E'. cbn [dims] in E, E'.
  assert (d = [D; N; B]) as -> by (rewrite <- (rev_involutive d), E; reflexivity). clear E.
  assert (d' = [D + 1; D + 1; B]) as -> by (rewrite <- (rev_involutive d'), E'; reflexivity). clear E'.
  unfold transform_pts_nd_KF, size_0, shape, size_m1. cbn [dims rev app rbind]. rewrite !Nat.eqb_refl.
  cbn [guard rbind].
  destruct (homogenize_ok (mkTen [D; N; B] f) D N [B] eq_refl) as (p & Hp & Ep & Hat).
  rewrite Hp. cbn [rbind].
  destruct (matmul_nd (unsqueeze_1 (mkTen [D + 1; D + 1; B] g)) (unsqueeze_m1 p) (D + 1) (D + 1) [1; B] 1 [N; B] [N; B])
    as (m & Hm & Em & Hmat).
  { reflexivity. }
  { cbn. rewrite Ep. f_equal. f_equal. lia. }
  { rewrite bshape_cons, bshape_refl. destruct N as [|[|N]]; reflexivity. }
  rewrite Hm. cbn [rbind]. destruct (squeeze_m1_ok m _ Em) as [Es Hs].
  replace (D + 1) with (S D) in Es by lia.
  destruct (unhomog_ok (squeeze_m1 m) eps6 D N [B] Es) as (u & Hu & Eu & Huat).
  exists u. split; [exact Hu|]. split; [rewrite Eu; reflexivity|].
  intros b n Hb Hn i Hi. unfold comp at 1. rewrite Huat by (auto; repeat split; auto).
  assert (Hv : forall l, at_ (squeeze_m1 m) [l; n; b] =
     (mvec D (ent (mkTen [(D + 1)%nat; (D + 1)%nat; B] g) [b]) (comp (mkTen [D; N; B] f) [n; b]) l + ent (mkTen [(D + 1)%nat; (D + 1)%nat; B] g) [b] l D)%R).
  { intros l. rewrite Hs, Hmat. replace (D + 1) with (S D) at 1 by lia. cbn [rsum].
    rewrite unsq_m1_at. cbn [bix].
    replace (if N =? 1 then 0 else n) with n by (destruct (Nat.eqb_spec N 1); lia).
    replace (if B =? 1 then 0 else b) with b by (destruct (Nat.eqb_spec B 1); lia).
    rewrite Hat, Nat.ltb_irrefl. rewrite Rmult_1_r. f_equal.
    apply rsum_ext. intros k Hk. f_equal. rewrite unsq_m1_at, Hat.
    destruct (Nat.ltb_spec k D); [reflexivity|lia]. }
  rewrite !Hv. specialize (HA b Hb).
  assert (Hd : (mvec D (ent (mkTen [(D + 1)%nat; (D + 1)%nat; B] g) [b]) (comp (mkTen [D; N; B] f) [n; b]) D + ent (mkTen [(D + 1)%nat; (D + 1)%nat; B] g) [b] D D = 1)%R).
  { rewrite HA by lia. unfold delta. rewrite Nat.eqb_refl. unfold mvec.
    rewrite (rsum_ext D _ (fun _ => 0%R)); [rewrite rsum_0; ring|]. intros k Hk. rewrite HA by lia.
    unfold delta. destruct (Nat.eqb_spec D k); [lia|ring]. }
  rewrite Hd. unfold unhomog_scale. rewrite Rabs_R1. unfold eps6.
  destruct (Rlt_dec (/ 1000000) 1); [field|lra].
Qed.

Lemma p_transform_nd_rej : forall (pts T : ten R) p0 ps t0 ts, shape pts = p0 :: ps -> shape T = t0 :: ts ->
  p0 <> t0 \/ last (shape pts) 0 + 1 <> last (shape T) 0 -> transform_pts_nd_KF pts T = Err ValueError.
Proof.
  intros pts T p0 ps t0 ts E E' H. unfold transform_pts_nd_KF, size_0. rewrite E, E'. cbn [rbind].
  destruct (Nat.eqb_spec p0 t0); [|reflexivity]. cbn [guard rbind]. destruct H as [H|H]; [contradiction|].
  unfold size_m1. unfold shape in *.
  destruct (dims pts) as [|a s]; [discriminate|]. destruct (dims T) as [|b s']; [discriminate|].
  cbn [rbind rev] in *. rewrite !last_last in H.
  destruct (Nat.eqb_spec (a + 1) b); [contradiction|reflexivity].
Qed.

Lemma p_transform_cloud : forall (cloud T : ten R) n, shape cloud = [n; 3] -> shape T = [4; 4] ->
  (exists out, transform_pointcloud cloud T = Ok out /\ shape out = [n; 3] /\
     forall k, k < n -> veq 3 (comp out [k]) (act (ent T []) (comp cloud [k]))) /\
  (exists out, transform_normals cloud T = Ok out /\ shape out = [n; 3] /\
     forall k, k < n -> veq 3 (comp out [k]) (mvec 3 (rot_of (ent T [])) (comp cloud [k]))).
Proof.
  intros [d f] T n E ET. apply shape44 in ET. destruct T as [d' g]. cbn [dims] in ET. subst d'.
  unfold shape in E. cbn [dims] in E.
  assert (d = [3; n]) as -> by (rewrite <- (rev_involutive d), E; reflexivity). clear E.
  split.
  - unfold transform_pointcloud, cloud_check, ndim, size_m1, is44, block3, col3.
    cbn [dims length Nat.eqb guard rbind andb orb Nat.min].
    unfold select_m1. cbn [narrow_m2 narrow_m1 dims firstn skipn app tl Nat.ltb Nat.leb rbind].
    unfold matmul. cbn [narrow_m2 narrow_m1 firstn skipn app tl dims transpose_m Nat.eqb bshape rbind Nat.min length]. unfold tmap2. cbn [dims unsqueeze_m1 rbind].
    assert (Hb : bshape [n; 3] [1; 3] = Ok [n; 3]) by (destruct n as [|[|n]]; reflexivity).
    rewrite Hb. cbn [rbind].
    eexists. split; [reflexivity|]. split; [reflexivity|]. intros k Hk i Hi.
    assert (Hn : (if n =? 1 then 0 else k) = k) by (destruct (Nat.eqb_spec n 1); lia).
    unfold comp. cbn [transpose_m dims at_ bix Nat.eqb]. rewrite Hn.
    destruct i as [|[|[|i]]]; [| | |lia]; reflexivity.
  - unfold transform_normals, cloud_check, ndim, size_m1, is44, block3.
    cbn [dims length Nat.eqb guard rbind andb orb Nat.min].
    unfold matmul. cbn [narrow_m2 narrow_m1 dims firstn skipn app tl transpose_m Nat.eqb bshape rbind].
    eexists. split; [reflexivity|]. split; [reflexivity|]. intros k Hk i Hi.
    destruct i as [|[|[|i]]]; [| | |lia]; reflexivity.
Qed.

Lemma p_transform_cloud_rej : forall cloud T : ten R,
  (forall n, shape cloud <> [n; 3]) \/ shape T <> [4; 4] ->
  exists e, transform_pointcloud cloud T = Err e /\ transform_normals cloud T = Err e /\
    (e = ValueError \/ e = RuntimeError).
Proof.
  intros cloud T H.
  assert (Hc : exists e, cloud_check cloud T = Err e /\ (e = ValueError \/ e = RuntimeError)).
  { unfold cloud_check. destruct (Nat.eqb_spec (ndim cloud) 2) as [E|]; [|eexists; split; [reflexivity|auto]].
    cbn [guard rbind]. unfold ndim, size_m1, shape in *.
    destruct (dims cloud) as [|a [|b [|c s]]]; try discriminate. cbn [rbind].
    destruct (Nat.eqb_spec a 3) as [->|]; [|eexists; split; [reflexivity|auto]]. cbn [guard rbind].
    destruct (is44 T) eqn:E4; [|eexists; split; [reflexivity|auto]]. cbn [guard rbind].
    destruct (Nat.eqb_spec (length (dims T)) 2) as [E2|]; [|eexists; split; [reflexivity|auto]].
    exfalso. destruct H as [H|H]; [apply (H b); reflexivity|]. apply H. unfold is44 in E4.
    destruct (dims T) as [|x [|y [|z s]]]; try discriminate. apply andb_true_iff in E4. destruct E4 as [E3 E4].
    apply Nat.eqb_eq in E3, E4. subst. reflexivity. }
  destruct Hc as (e & Hc & He). exists e. unfold transform_pointcloud, transform_normals. rewrite Hc. auto.
Qed.

(* ------------------------------------------------------------------ C21 *)
Lemma p_isometry : forall (cloud T : ten R) n, shape cloud = [n; 3] -> shape T = [4; 4] -> rigid4 (ent T []) ->
  exists out nor, transform_pointcloud cloud T = Ok out /\ transform_normals cloud T = Ok nor /\
    forall a b, a < n -> b < n ->
      dist2 3 (comp out [a]) (comp out [b]) = dist2 3 (comp cloud [a]) (comp cloud [b]) /\
      dot 3 (comp nor [a]) (comp nor [b]) = dot 3 (comp cloud [a]) (comp cloud [b]) /\
      norm 3 (comp nor [a]) = norm 3 (comp cloud [a]).
Proof.
  intros cloud T n E ET [_ [[HO _] _]].
  destruct (p_transform_cloud cloud T n E ET) as [(out & H1 & _ & H2) (nor & H3 & _ & H4)].
  exists out, nor. split; [exact H1|]. split; [exact H3|]. intros a b Ha Hb.
  assert (Hd : forall a b, a < n -> b < n -> dot 3 (comp nor [a]) (comp nor [b]) = dot 3 (comp cloud [a]) (comp cloud [b])).
  { intros a' b' Ha' Hb'. rewrite (dot_ext 3 _ _ _ _ (H4 a' Ha') (H4 b' Hb')). apply orth_dot. exact HO. }
  split; [|split; [apply Hd; auto|unfold norm; rewrite Hd by auto; reflexivity]].
  rewrite <- (orth_dist _ (tr_of (ent T [])) (comp cloud [a]) (comp cloud [b]) HO).
  unfold dist2. apply rsum_ext. intros k Hk. rewrite H2, H2 by auto. reflexivity.
Qed.

(* ------------------------------------------------------------------ C26 *)
Lemma p_normalize_inverse : forall (p : ten R) (h w : Z) s, (h > 1)%Z -> (w > 1)%Z -> dims p = 2 :: s ->
  exists q p1 u q1, normalize_pixel_coords p h w = Ok q /\ unnormalize_pixel_coords q h w = Ok p1 /\ teq p1 p /\
    unnormalize_pixel_coords p h w = Ok u /\ normalize_pixel_coords u h w = Ok q1 /\ teq q1 p.
Proof.
  intros p h w s Hh Hw E. unfold normalize_pixel_coords, unnormalize_pixel_coords, size_m1. rewrite E.
  cbn [rbind Nat.eqb dims].
  do 4 eexists. split; [reflexivity|]. cbn [dims rbind Nat.eqb]. split; [reflexivity|].
  assert (Hn : forall i, (pix_norm h w i <> 0)%R).
  { intros i. unfold pix_norm. assert (2 <= IZR h)%R by (apply IZR_le; lia).
    assert (2 <= IZR w)%R by (apply IZR_le; lia). unfold Rdiv. apply Rmult_integral_contrapositive_currified; [lra|].
    apply Rinv_neq_0_compat. destruct (i =? 0); lra. }
  split; [|split; [reflexivity|split; [reflexivity|]]].
  - split; [symmetry; exact E|]. intros ix Hix. cbn [dims] in Hix. apply vix_cons in Hix.
    destruct Hix as (i & r & -> & _). unfold comp. cbn [at_]. field. apply Hn.
  - split; [symmetry; exact E|]. intros ix Hix. cbn [dims] in Hix. apply vix_cons in Hix.
    destruct Hix as (i & r & -> & _). unfold comp. cbn [at_]. field. apply Hn.
Qed.

Lemma p_normalize_range : forall (p : ten R) (h w : Z) s, (h > 1)%Z -> (w > 1)%Z -> dims p = 2 :: s ->
  exists q, normalize_pixel_coords p h w = Ok q /\ dims q = dims p /\
    forall r, vix s r ->
      (-1 <= comp q r 0%nat <= 1 <-> 0 <= comp p r 0%nat <= IZR h - 1)%R /\
      (-1 <= comp q r 1%nat <= 1 <-> 0 <= comp p r 1%nat <= IZR w - 1)%R /\
      (comp p r 0%nat = 0 -> comp q r 0%nat = -1)%R /\ (comp p r 0%nat = IZR h - 1 -> comp q r 0%nat = 1)%R /\
      (comp p r 1%nat = 0 -> comp q r 1%nat = -1)%R /\ (comp p r 1%nat = IZR w - 1 -> comp q r 1%nat = 1)%R.
Proof.
  intros p h w s Hh Hw E. unfold normalize_pixel_coords, size_m1. rewrite E. cbn [rbind Nat.eqb].
  eexists. split; [reflexivity|]. split; [reflexivity|]. intros r Hr. unfold comp. cbn [at_].
  unfold pix_norm. cbn [Nat.eqb]. unfold comp.
  assert (H1 : (2 <= IZR h)%R) by (apply IZR_le; lia).
  assert (H2 : (2 <= IZR w)%R) by (apply IZR_le; lia).
  assert (Hx : forall a m, (2 <= m -> (-1 <= 2 / (m - 1) * a - 1 <= 1 <-> 0 <= a <= m - 1))%R).
  { intros a m Hm. assert (E1 : (2 / (m - 1) * a * (m - 1) = 2 * a)%R) by (field; lra).
    set (y := (2 / (m - 1) * a)%R) in *. clearbody y. split; intros H; split; nra. }
  split; [apply Hx, H1|]. split; [apply Hx, H2|].
  repeat split; intros ->; field; lra.
Qed.

Lemma p_normalize_rej : forall (p : ten R) h w d s, dims p = d :: s -> d <> 2 ->
  normalize_pixel_coords p h w = Err ValueError /\ unnormalize_pixel_coords p h w = Err ValueError.
Proof.
  intros p h w d s E H. unfold normalize_pixel_coords, unnormalize_pixel_coords, size_m1. rewrite E. cbn [rbind].
  destruct (Nat.eqb_spec d 2); [contradiction|auto].
Qed.

Lemma linspace_int n i : i < n -> linspace 0 (INR n - 1) n i = INR i.
Proof.
  intros H. unfold linspace. destruct (Nat.eqb_spec n 1) as [->|Hn].
  - assert (i = 0) by lia. subst. reflexivity.
  - assert (2 <= INR n)%R by (apply (le_INR 2); lia). field. lra.
Qed.

Lemma p_meshgrid : forall h w,
  let g := create_meshgrid h w false in
  shape g = [1; h; w; 2] /\
  (forall i j, i < h -> j < w -> comp g [j; i; 0] 0 = INR i /\ comp g [j; i; 0] 1 = INR j).
Proof.
  intros h w. cbv zeta. split; [reflexivity|]. intros i j Hi Hj. unfold comp, create_meshgrid. cbn [at_ Nat.eqb].
  split; apply linspace_int; assumption.
Qed.

Lemma p_meshgrid_once : forall h w i j, i < h -> j < w ->
  exists! ij : nat * nat, fst ij < h /\ snd ij < w /\
    comp (create_meshgrid h w false) [snd ij; fst ij; 0] 0 = INR i /\
    comp (create_meshgrid h w false) [snd ij; fst ij; 0] 1 = INR j.
Proof.
  intros h w i j Hi Hj. destruct (p_meshgrid h w) as [_ H]. exists (i, j). split.
  - cbn. destruct (H i j Hi Hj). auto.
  - intros [i' j'] (H1 & H2 & H3 & H4). cbn in *. destruct (H i' j' H1 H2) as [H5 H6].
    rewrite H5 in H3. rewrite H6 in H4. apply INR_eq in H3, H4. congruence.
Qed.

Lemma p_meshgrid_norm : forall h w, 1 < h -> 1 < w ->
  exists q, normalize_pixel_coords (create_meshgrid h w false) (Z.of_nat h) (Z.of_nat w) = Ok q /\
    teq q (create_meshgrid h w true).
Proof.
  intros h w Hh Hw. eexists. split; [reflexivity|]. split; [reflexivity|].
  cbn [dims]. intros ix Hix. apply vix_cons in Hix. destruct Hix as (k & r & -> & Hk & Hix).
  apply vix_cons in Hix. destruct Hix as (j & r' & -> & Hj & Hix).
  apply vix_cons in Hix. destruct Hix as (i & r'' & -> & Hi & Hix).
  apply vix_cons in Hix. destruct Hix as (z & r3 & -> & Hz & Hix). destruct r3; [|destruct Hix].
  assert (2 <= INR h)%R by (apply (le_INR 2); lia).
  assert (2 <= INR w)%R by (apply (le_INR 2); lia).
  unfold comp, create_meshgrid, pix_norm. cbn [at_]. cbn [Nat.eqb].
  destruct k as [|[|k]]; [| |lia]; cbn [Nat.eqb]; rewrite <- INR_IZR_INZ; rewrite linspace_int by assumption; unfold linspace;
  [destruct (Nat.eqb_spec h 1); [lia|]|destruct (Nat.eqb_spec w 1); [lia|]]; field; lra.
Qed.
