(* Proofs of C21 (class Pointclouds), C27, C28 and the refutations of C16, C17, C19, C20, C22. *)
From Coq Require Import Reals List Arith Bool Lia Lra ZArith.
From Verif Require Import Res Fld StructUtilsModel PointcloudsModel PointcloudsSpec PointcloudsCtorSpec PointcloudsHist
  PointcloudsPropProofs MatSpec TensorModel ShapeSpec TensorProofs LinAlgModel ProjModel GeomModel GeomSpec DataUtilsModel
  GTOdomModel MatProofs ProjProofs ProjPropProofs GeomProofs GeomPtsProofs QuatProofs.
Import ListNotations.
Local Open Scope R_scope.

(* ------------------------------------------------------------------ C21, class *)
Lemma rot_fun_mvec (M : nat -> nat -> car RF) (r : nat -> car RF) k :
  rot_fun RF M true r k = mvec 3 M r k /\ rot_fun RF M false r k = mvec 3 (mtr M) r k.
Proof. unfold rot_fun, mvec, mtr. cbn [rsum]. split; cbn; ring. Qed.

Lemma rot_fun_isom (M : nat -> nat -> car RF) pre (t : vec) (r q : nat -> car RF) : orthogonal3 M ->
  dist2 3 (fun k => rot_fun RF M pre r k + t k) (fun k => rot_fun RF M pre q k + t k) = dist2 3 r q /\
  dot 3 (fun k => rot_fun RF M pre r k) (fun k => rot_fun RF M pre q k) = dot 3 r q.
Proof.
  intros [H1 H2]. destruct pre.
  - split.
    + rewrite <- (orth_dist M t r q H1). unfold dist2. apply rsum_ext. intros k _.
      rewrite !(proj1 (rot_fun_mvec _ _ _)). reflexivity.
    + rewrite <- (orth_dot M r q H1). unfold dot. apply rsum_ext. intros k _.
      rewrite !(proj1 (rot_fun_mvec _ _ _)). reflexivity.
  - assert (H : meq 3 3 (mmul 3 (mtr (mtr M)) (mtr M)) mI) by exact H2.
    split.
    + rewrite <- (orth_dist (mtr M) t r q H). unfold dist2. apply rsum_ext. intros k _.
      rewrite !(proj2 (rot_fun_mvec _ _ _)). reflexivity.
    + rewrite <- (orth_dot (mtr M) r q H). unfold dot. apply rsum_ext. intros k _.
      rewrite !(proj2 (rot_fun_mvec _ _ _)). reflexivity.
Qed.

Lemma p_class_isometry : forall (s : pc RF) a sh el pre x P N,
  Hist RF s a -> is_mat 4 sh (len_view RF a) -> (forall b, orthogonal3 (mat_of RF sh el b)) ->
  qp a = Some P -> qget x a = Some N -> (x = Points \/ x = Normals) ->
  exists s' L, run RF (Transform RF (OT RF sh el) pre) s = (Ok tt, s') /\ fst (get_list RF x s') = Ok (Some L) /\
    counts_of RF L = counts_of RF N /\
    forall b y i j p q, nth_error N b = Some y -> nth_error (t2r y) i = Some p -> nth_error (t2r y) j = Some q ->
      exists y' p' q', nth_error L b = Some y' /\ nth_error (t2r y') i = Some p' /\ nth_error (t2r y') j = Some q' /\
        (x = Points -> dist2 3 (rowv p') (rowv q') = dist2 3 (rowv p) (rowv q)) /\
        (x = Normals -> dot 3 (rowv p') (rowv q') = dot 3 (rowv p) (rowv q)).
Proof.
  intros s a sh el pre x P N HS HM HO HP HN Hx.
  assert (HMe : Means RF (Transform RF (OT RF sh el) pre) a (transform_spec RF sh el pre a)) by (split; [exact HM|reflexivity]).
  destruct (p_call RF _ s a _ HS HMe) as (s' & Hr & HS' & (Hsh & _)).
  specialize (Hsh x).
  destruct Hx as [-> | ->].
  - assert (E : qget Points (transform_spec RF sh el pre a) = qget Points (move_attr RF Points (fun b i r k => fadd (rot_fun RF (mat_of RF sh el b) pre r k) (mat_of RF sh el b k 3)) a)) by reflexivity.
    destruct (p_move RF Points (fun b i r k => fadd (rot_fun RF (mat_of RF sh el b) pre r k) (mat_of RF sh el b k 3)) a N HN) as (L & HL & Hc & Hp & _).
    exists s', L. split; [exact Hr|]. split; [rewrite Hsh, E, HL; reflexivity|]. split; [exact Hc|].
    intros b y i j p q Hb Hi Hj. destruct (Hp b y i p Hb Hi) as (y' & Hy' & Hp'). destruct (Hp b y j q Hb Hj) as (y2 & Hy2 & Hq').
    rewrite Hy' in Hy2. injection Hy2 as <-. do 3 eexists. split; [exact Hy'|]. split; [exact Hp'|]. split; [exact Hq'|].
    split; [|discriminate]. intros _.
    rewrite <- (proj1 (rot_fun_isom (mat_of RF sh el b) pre (fun k => mat_of RF sh el b k 3) (rowv p) (rowv q) (HO b))).
    unfold dist2. apply rsum_ext. intros k Hk. idx3 k Hk; reflexivity.
  - assert (E : qget Normals (transform_spec RF sh el pre a) = qget Normals (move_attr RF Normals (fun b i r => rot_fun RF (mat_of RF sh el b) pre r) a)) by reflexivity.
    destruct (p_move RF Normals (fun b i r => rot_fun RF (mat_of RF sh el b) pre r) a N HN) as (L & HL & Hc & Hp & _).
    exists s', L. split; [exact Hr|]. split; [rewrite Hsh, E, HL; reflexivity|]. split; [exact Hc|].
    intros b y i j p q Hb Hi Hj. destruct (Hp b y i p Hb Hi) as (y' & Hy' & Hp'). destruct (Hp b y j q Hb Hj) as (y2 & Hy2 & Hq').
    rewrite Hy' in Hy2. injection Hy2 as <-. do 3 eexists. split; [exact Hy'|]. split; [exact Hp'|]. split; [exact Hq'|].
    split; [discriminate|]. intros _.
    rewrite <- (proj2 (rot_fun_isom (mat_of RF sh el b) pre (fun k => 0) (rowv p) (rowv q) (HO b))).
    unfold dot. apply rsum_ext. intros k Hk. idx3 k Hk; reflexivity.
Qed.

(* ------------------------------------------------------------------ C27 *)
Lemma p_scale_entries : forall (K : ten R) hr wr k s, (k = 3 \/ k = 4)%nat -> dims K = (k :: k :: s)%nat ->
  exists K', scale_intrinsics K hr wr = Ok K' /\ dims K' = dims K /\
    forall r i j, (i < k)%nat -> (j < k)%nat -> ent K' r i j =
      match i, j with
      | 0%nat, 0%nat | 0%nat, 2%nat => ent K r i j * wr
      | 1%nat, 1%nat | 1%nat, 2%nat => ent K r i j * hr
      | _, _ => ent K r i j
      end.
Proof.
  intros K hr wr k s Hk E. unfold scale_intrinsics. rewrite E.
  assert (Hc : ((k =? 3) && (k =? 3) || (k =? 4) && (k =? 4))%nat = true) by (destruct Hk; subst; reflexivity).
  rewrite Hc. eexists. split; [reflexivity|]. split; [exact E|].
  intros r i j Hi Hj. unfold ent, scale_ent, set_ent. cbn [at_ ent].
  destruct i as [|[|[|[|i]]]]; [| | | |lia]; (destruct j as [|[|[|[|j]]]]; [| | | |lia]); reflexivity.
Qed.

Lemma p_scale_rej : forall (K : ten R) hr wr,
  scale_intrinsics K hr wr = Err ValueError <-> ~ exists k s, (k = 3 \/ k = 4)%nat /\ dims K = (k :: k :: s)%nat.
Proof.
  intros K hr wr. split.
  - intros H (k & s & Hk & E). destruct (p_scale_entries K hr wr k s Hk E) as (K' & HK & _). congruence.
  - intros H. unfold scale_intrinsics. destruct (dims K) as [|a [|b s]] eqn:E; try reflexivity.
    destruct ((a =? 3) && (b =? 3) || (a =? 4) && (b =? 4))%nat eqn:E2; [|reflexivity].
    exfalso. apply H. apply orb_true_iff in E2.
    destruct E2 as [E2|E2]; apply andb_true_iff in E2; destruct E2 as [A B]; apply Nat.eqb_eq in A, B; subst.
    + exists 3%nat, s. auto.
    + exists 4%nat, s. auto.
Qed.

(* the scaled image of a point, for 3x3 and 4x4 matrices and any (homogeneous) point *)
Lemma p_scale_persp : forall (K : ten R) hr wr k s, (k = 3 \/ k = 4)%nat -> dims K = (k :: k :: s)%nat ->
  (forall r, vix s r -> zero_skew k (ent K r)) ->
  exists K', scale_intrinsics K hr wr = Ok K' /\ dims K' = dims K /\
    forall r p, vix s r ->
      persp (mvec k (ent K' r) p) 0%nat = wr * persp (mvec k (ent K r) p) 0%nat /\
      persp (mvec k (ent K' r) p) 1%nat = hr * persp (mvec k (ent K r) p) 1%nat.
Proof.
  intros K hr wr k s Hk E HZ. destruct (p_scale_entries K hr wr k s Hk E) as (K' & HK & ED & HE).
  exists K'. split; [exact HK|]. split; [exact ED|]. intros r p Hr. destruct (HZ r Hr) as (z1 & z2 & z3).
  assert (H2 : mvec k (ent K' r) p 2%nat = mvec k (ent K r) p 2%nat).
  { unfold mvec. apply rsum_ext. intros l Hl. rewrite HE by lia.
    reflexivity. }
  assert (H0 : mvec k (ent K' r) p 0%nat = wr * mvec k (ent K r) p 0%nat).
  { unfold mvec. rewrite <- rsum_mult_l. apply rsum_ext. intros l Hl. rewrite HE by lia.
    destruct l as [|[|[|[|l]]]]; try ring; [rewrite z1; ring|destruct z3 as [-> _]; [lia|ring]|lia]. }
  assert (H1 : mvec k (ent K' r) p 1%nat = hr * mvec k (ent K r) p 1%nat).
  { unfold mvec. rewrite <- rsum_mult_l. apply rsum_ext. intros l Hl. rewrite HE by lia.
    destruct l as [|[|[|[|l]]]]; try ring; [rewrite z2; ring|destruct z3 as [_ ->]; [lia|ring]|lia]. }
  unfold persp. rewrite H2, H0, H1. destruct (Req_EM_T (mvec k (ent K r) p 2%nat) 0); split; try reflexivity; unfold Rdiv; ring.
Qed.

(* through project_points *)
Lemma p_scale_project : forall (cam K : ten R) hr wr d n cb pb,
  dims cam = (d :: n :: cb)%nat -> (d = 3 \/ d = 4)%nat -> dims K = (4 :: 4 :: pb)%nat -> cameras pb cb ->
  (forall c, vix pb c -> zero_skew 4 (ent K c)) ->
  exists K' q q', scale_intrinsics K hr wr = Ok K' /\ project_points cam K = Ok q /\ project_points cam K' = Ok q' /\
    dims q' = (2 :: n :: cb)%nat /\
    forall r, vix (n :: cb) r -> comp q' r 0%nat = wr * comp q r 0%nat /\ comp q' r 1%nat = hr * comp q r 1%nat.
Proof.
  intros cam K hr wr d n cb pb Ec Hd EK Hc HZ.
  destruct (p_scale_persp K hr wr 4 pb (or_intror eq_refl) EK HZ) as (K' & HK & ED & HP). rewrite EK in ED.
  destruct (p_project cam K d n cb pb Ec Hd EK Hc) as (q & Hq & Eq & Hatq).
  destruct (p_project cam K' d n cb pb Ec Hd ED Hc) as (q' & Hq' & Eq' & Hatq').
  exists K', q, q'. repeat (split; [assumption|]). intros jr Hr. apply vix_cons in Hr. destruct Hr as (j & r & -> & Hj & Hr).
  rewrite !(Hatq j r Hj Hr), !(Hatq' j r Hj Hr) by lia. apply HP. eapply cameras_vix; eauto.
Qed.

(* ------------------------------------------------------------------ C28 *)
Lemma np_inv_ok A : affine4 A -> det3 (rot_of A) <> 0 -> exists B, np_inv A = Ok B /\ inverse_of 4 A B.
Proof.
  intros HA Hd. unfold np_inv. pose proof (det4_affine A HA) as E. destruct (Req_EM_T (det4 A) 0) as [C|C].
  - exfalso. apply Hd. rewrite <- E. exact C.
  - eexists. split; [reflexivity|]. apply inv4_correct. exact C.
Qed.

Lemma running_ext l T T' : meq 4 4 T T' -> Forall2 (meq 4 4) (running T l) (running T' l).
Proof.
  revert T T'. induction l as [|x l IH]; intros T T' H; cbn; [constructor|].
  assert (H' : meq 4 4 (mmul 4 T x) (mmul 4 T' x)) by (apply mmul_ext; [exact H|apply meq_refl]).
  constructor; [exact H'|]. apply IH, H'.
Qed.
Lemma Forall2_trans {A} (R : A -> A -> Prop) : (forall a b c, R a b -> R b c -> R a c) ->
  forall l1 l2 l3, Forall2 R l1 l2 -> Forall2 R l2 l3 -> Forall2 R l1 l3.
Proof.
  intros HT l1 l2 l3 H. revert l3. induction H; intros l3 H'; inversion H'; subst; constructor; eauto.
Qed.
Lemma p2t_running : forall ps p, pose_ok p -> Forall pose_ok ps ->
  exists l, p2t_loop p ps = Ok l /\ length l = length ps /\ Forall2 (meq 4 4) (running p l) ps.
Proof.
  induction ps as [|q ps IH]; intros p [HA Hd] HF; cbn [p2t_loop].
  - exists []. repeat split. constructor.
  - apply Forall_cons_iff in HF. destruct HF as [Hq HF].
    destruct (np_inv_ok p HA Hd) as (B & HB & Hi & _). rewrite HB. cbn [rbind].
    destruct (IH q Hq HF) as (l & Hl & Hlen & HR). rewrite Hl. cbn [rbind]. eexists. split; [reflexivity|].
    split; [cbn; congruence|]. cbn [running].
    assert (E : meq 4 4 (mmul 4 p (mmul 4 B q)) q).
    { intros i j Hx Hy. rewrite <- mmul_assoc. rewrite (mmul_ext 4 _ mI q q Hi (meq_refl _ _ _) i j Hx Hy).
      apply mmul_I_l; assumption. }
    constructor; [exact E|]. eapply Forall2_trans; [apply meq_trans| |exact HR]. apply running_ext, E.
Qed.

Lemma p_poses_to_transforms : forall p ps, pose_ok p -> Forall pose_ok ps ->
  exists l, poses_to_transforms (p :: ps) = Ok (mI :: l) /\ length l = length ps /\
    Forall2 (meq 4 4) (running p (mI :: l)) (p :: ps).
Proof.
  intros p ps Hp HF. destruct (p2t_running ps p Hp HF) as (l & Hl & Hlen & HR).
  exists l. unfold poses_to_transforms. rewrite Hl. split; [reflexivity|]. split; [exact Hlen|].
  cbn [running]. assert (E : meq 4 4 (mmul 4 p mI) p) by apply mmul_I_r.
  constructor; [exact E|]. eapply Forall2_trans; [apply meq_trans| |exact HR]. apply running_ext, E.
Qed.

Lemma p_gt : forall B (p1 p2 : ten R), dims p1 = [4; 4; 1; B]%nat -> dims p2 = [4; 4; 1; B]%nat ->
  (forall b, (b < B)%nat -> pose_ok (ent p1 [0%nat; b]) /\ affine4 (ent p2 [0%nat; b])) ->
  exists T, gt_provide (mkPosed B 1 (Some p1)) (mkPosed B 1 (Some p2)) = Ok T /\ shape T = [B; 1; 4; 4]%nat /\
    forall b, (b < B)%nat -> affine4 (ent T [0%nat; b]) /\
      meq 4 4 (mmul 4 (ent p1 [0%nat; b]) (ent T [0%nat; b])) (ent p2 [0%nat; b]) /\
      (forall X, affine4 X -> meq 4 4 (mmul 4 (ent p1 [0%nat; b]) X) (ent p2 [0%nat; b]) -> meq 4 4 X (ent T [0%nat; b])) /\
      (rigid4 (ent p1 [0%nat; b]) -> rigid4 (ent p2 [0%nat; b]) -> rigid4 (ent T [0%nat; b])).
Proof.
  intros B p1 p2 E1 E2 H. unfold gt_provide. cbn [ps_poses ps_L ps_B]. rewrite !Nat.eqb_refl. cbn [guard rbind].
  assert (Hv : forall (p : ten R) k i j, ent (view_44 B 1 p) [k] i j = ent p [0%nat; k] i j).
  { intros p k i j. unfold ent, view_44. cbn [at_]. rewrite Nat.mod_1_r, Nat.div_1_r. reflexivity. }
  destruct (p_relative_transformation (view_44 B 1 p1) (view_44 B 1 p2) [(B * 1)%nat] false) as (T & HT & ET & HP);
    [cbn; lia|reflexivity|reflexivity| |].
  { intros r Hr. destruct r as [|k [|? ?]]; cbn in Hr; try tauto. destruct Hr as [Hk _].
    destruct (H k ltac:(lia)) as [[A1 D1] A2].
    split; [|split].
    - eapply affine_ext; [|exact A1]. intros i j _ _. symmetry. apply Hv.
    - eapply affine_ext; [|exact A2]. intros i j _ _. symmetry. apply Hv.
    - rewrite (det3_ext _ (ent p1 [0%nat; k])); [exact D1|]. intros i j _ _. apply Hv. }
  rewrite HT. cbn [rbind]. eexists. split; [reflexivity|]. split; [reflexivity|].
  intros b Hb. specialize (HP [b]). cbn [vix] in HP. destruct (HP ltac:(split; [lia|exact I])) as (P1 & P2 & P3 & P4).
  assert (Ev : meq 4 4 (ent (view_BL44 B 1 T) [0%nat; b]) (ent T [b])).
  { intros i j _ _. unfold ent, view_BL44. cbn [at_]. rewrite Nat.mul_1_r, Nat.add_0_r. reflexivity. }
  assert (V1 : meq 4 4 (ent (view_44 B 1 p1) [b]) (ent p1 [0%nat; b])) by (intros i j _ _; apply Hv).
  assert (V2 : meq 4 4 (ent (view_44 B 1 p2) [b]) (ent p2 [0%nat; b])) by (intros i j _ _; apply Hv).
  split; [eapply affine_ext; [apply meq_sym, Ev|exact P1]|]. split; [|split].
  - eapply meq_trans; [apply mmul_ext; [apply meq_sym, V1|exact Ev]|]. eapply meq_trans; [exact P2|exact V2].
  - intros X HX HX2. eapply meq_trans; [|apply meq_sym, Ev]. apply P3; [exact HX|].
    eapply meq_trans; [apply mmul_ext; [exact V1|apply meq_refl]|]. eapply meq_trans; [exact HX2|apply meq_sym, V2].
  - intros R1 R2. eapply rigid_ext; [apply meq_sym, Ev|]. apply P4; [eapply rigid_ext; [apply meq_sym, V1|exact R1]|eapply rigid_ext; [apply meq_sym, V2|exact R2]].
Qed.

Lemma p_gt_rej : forall r1 r2, ps_poses r1 = None \/ ps_poses r2 = None \/ ps_L r1 <> 1%nat \/ ps_L r2 <> 1%nat \/ ps_B r1 <> ps_B r2 ->
  gt_provide r1 r2 = Err ValueError.
Proof.
  intros [B1 L1 p1] [B2 L2 p2] H. cbn in H. unfold gt_provide. cbn [ps_poses ps_L ps_B].
  destruct p1; [|reflexivity]. destruct p2; [|reflexivity].
  destruct (Nat.eqb_spec L1 1); [|reflexivity]. cbn [guard rbind].
  destruct (Nat.eqb_spec L2 1); [|reflexivity]. cbn [guard rbind].
  destruct (Nat.eqb_spec B1 B2); [|reflexivity]. exfalso. destruct H as [H|[H|[H|[H|H]]]]; congruence.
Qed.
