(* Proofs of the map-building properties C36-C44. *)
From Coq Require Import Reals List Arith Bool ZArith Lia Lra Sorting.Sorted Sorting.Permutation.
From Verif Require Import Res Fld StructUtilsModel StructUtilsSpec StructUtilsProofs PointcloudsModel PointcloudsSpec
  PointcloudsCtorSpec PointcloudsSetSpec PointcloudsIndexSpec PointcloudsHist PointcloudsProofs PointcloudsOps
  PointcloudsSet PointcloudsClone PointcloudsAppend PointcloudsHistProofs PointcloudsPropProofs PointcloudsCloneAppend
  MatSpec GeomSpec TensorModel TensorProofs GeomModel GeomProofs GeomPtsProofs RgbdModel RgbdSpec RgbdProofs RgbdOps RgbdCloud
  FusionModel FusionSpec FusionMap FusionActive FusionSimilar FusionBest FusionMerge FusionFuse FusionCorr FusionFloat.
Import ListNotations.
Local Open Scope nat_scope.

(* ---------------- C36 *)
Lemma gauss_pos s v : (0 < gaussian s v)%R. Proof. apply exp_pos. Qed.
Lemma p_alpha : forall (x : ten R) s dim (sigma eps : R), dims x = 3 :: s -> dim = (-1)%Z \/ dim = Z.of_nat (length s) ->
  sigma <> 0%R -> (eps <= 101 / 100)%R ->
  exists y z, get_alpha x (SigNum sigma) dim false eps = Ok y /\ get_alpha x (SigNum sigma) dim true eps = Ok z /\
    dims y = s /\ dims z = 1 :: s /\
    forall ix, let v := fun k => at_ x (k :: ix) in
      at_ y ix = Rmax (gaussian sigma v) eps /\ at_ z (0 :: ix) = Rmax (gaussian sigma v) eps.
Proof.
  intros x s dim sigma eps Hd Hdim Hs He. unfold get_alpha. cbn [guard rbind].
  assert (Hp : dim_pos dim (ndim x) = Ok 0).
  { unfold dim_pos, ndim. rewrite Hd. cbn [length]. destruct Hdim as [->| ->].
    - cbn [Z.ltb Z.compare Z.opp]. reflexivity.
    - destruct (Z.ltb_spec (Z.of_nat (length s)) 0); [lia|].
      replace (Z.of_nat (S (length s)) - 1 - Z.of_nat (length s))%Z with 0%Z by lia. cbn [Z.leb Z.compare andb].
      destruct (Z.ltb_spec 0 (Z.of_nat (S (length s)))); [reflexivity|lia]. }
  rewrite Hp. cbn [rbind]. rewrite Hd. cbn [nth Nat.eqb guard rbind].
  eexists _, _. split; [reflexivity|]. split; [reflexivity|]. split; [reflexivity|]. split; [reflexivity|].
  intros ix. cbn [at_ sigma_val]. unfold del_at, ins_at. cbn [firstn skipn app]. set (v := fun k => at_ x (k :: ix)).
  assert (E : alpha_of sigma eps v = Rmax (gaussian sigma v) eps).
  { unfold alpha_of, clampR, gaussian. rewrite <- norm_sq. apply Rmin_left.
    pose proof (gauss_le1 sigma (norm 3 v ^ 2) Hs (pow2_ge_0 _)). apply Rmax_lub; lra. }
  split; exact E.
Qed.
Lemma p_alpha_bounds : forall sigma eps v, sigma <> 0%R -> (eps <= 1)%R ->
  (eps <= Rmax (gaussian sigma v) eps <= 1)%R /\ ((eps <= gaussian sigma v)%R -> Rmax (gaussian sigma v) eps = gaussian sigma v).
Proof.
  intros sigma eps v Hs He. unfold gaussian. pose proof (gauss_le1 sigma (norm 3 v ^ 2) Hs (pow2_ge_0 _)).
  split; [split; [apply Rmax_r|now apply Rmax_lub]|]. intros Hle. now apply Rmax_left.
Qed.
Lemma p_alpha_mono : forall sigma eps u v, sigma <> 0%R -> (norm 3 u <= norm 3 v)%R ->
  (Rmax (gaussian sigma v) eps <= Rmax (gaussian sigma u) eps)%R.
Proof.
  intros sigma eps u v Hs Hle.
  assert (Hn : (0 <= norm 3 u)%R) by apply sqrt_pos.
  assert (Hg : (gaussian sigma v <= gaussian sigma u)%R).
  { unfold gaussian.
    assert (Hi : (0 < / (2 * sigma ^ 2))%R). { apply Rinv_0_lt_compat. assert (0 < sigma ^ 2)%R by (replace (sigma ^ 2)%R with (sigma * sigma)%R by ring; destruct (Rlt_or_le 0 sigma); nra). lra. }
    assert (Hq : (norm 3 u ^ 2 <= norm 3 v ^ 2)%R) by nra.
    assert (H : (- norm 3 v ^ 2 / (2 * sigma ^ 2) <= - norm 3 u ^ 2 / (2 * sigma ^ 2))%R) by (unfold Rdiv; nra).
    destruct (Rle_lt_or_eq_dec _ _ H) as [Hl|He]; [left; now apply exp_increasing|rewrite He; right; reflexivity]. }
  apply Rmax_lub; [eapply Rle_trans; [exact Hg|apply Rmax_l]|apply Rmax_r].
Qed.
Lemma p_alpha_rej : forall (x : ten R) dim keep eps,
  get_alpha x SigBad dim keep eps = Err TypeError /\
  (forall sigma p, sigma <> SigBad -> dim_pos dim (ndim x) = Ok p -> nth p (dims x) 0 <> 3 -> get_alpha x sigma dim keep eps = Err ValueError) /\
  (forall nd v p, nd <> 0 -> dim_pos dim (ndim x) = Ok p -> get_alpha x (SigTen nd v) dim keep eps = Err ValueError).
Proof.
  intros x dim keep eps. split; [reflexivity|]. split.
  - intros sigma p Hs Hp Hn. unfold get_alpha. destruct sigma; [congruence| |]; cbn [guard rbind]; rewrite Hp; cbn [rbind];
      (destruct (Nat.eqb_spec (nth p (dims x) 0) 3); [contradiction|reflexivity]).
  - intros nd v p Hn Hp. unfold get_alpha. cbn [guard rbind]. rewrite Hp. cbn [rbind].
    destruct (Nat.eqb_spec (nth p (dims x) 0) 3); [|reflexivity]. cbn [guard rbind]. destruct (Nat.eqb_spec nd 0); [contradiction|reflexivity].
Qed.

(* ---------------- C37 *)
Lemma p_active s a g cf fr q T : ReadyToClone RF s a -> RHist q g cf fr -> fL fr = 1 -> fB fr = len_view RF a ->
  fpose fr = Some T -> qp a <> None ->
  exists rows s', find_active_map_points (s, g) = (Ok rows, (s', g)) /\ ReadyToClone RF s' a /\ Shows RF s' a /\
    active_spec a fr T rows.
Proof.
  intros HR HI HL HB HT HP. apply ready_iff in HR. destruct (qp a) as [P|] eqn:EP; [|congruence].
  destruct (active_nonempty s a g cf fr q T P HR (hist_inv _ _ _ _ HI) HL HB HT EP) as (rows & s' & E & HR' & H).
  exists rows, s'. split; [exact E|]. split; [now apply ready_iff|]. split; [apply p_hist_shows, HR'|exact H].
Qed.
Lemma p_active_range a fr T rows b n h w : fB fr = len_view RF a -> active_spec a fr T rows -> In (mkRow b n h w) rows ->
  b < fB fr /\ n < npoints a b /\ h < fH fr /\ w < fW fr.
Proof.
  intros HB [_ H] Hin. apply H in Hin. destruct Hin as [Hr Hs]. pose proof (seen_in_image a fr T b n h w HB Hr Hs) as (K1 & K2 & K3).
  destruct Hr. auto.
Qed.
Lemma p_camera T p : rigid4 T -> forall i, i < 3 -> act T (to_camera T p) i = p i.
Proof.
  intros [_ [[_ Ho] _]] i Hi. unfold act, mvec, to_camera, tr_of. cbn [rsum].
  unfold meq, mmul, mtr, rot_of in Ho. cbn [rsum] in Ho. unfold rot_of.
  pose proof (Ho i 0 Hi ltac:(lia)) as H0. pose proof (Ho i 1 Hi ltac:(lia)) as H1. pose proof (Ho i 2 Hi ltac:(lia)) as H2.
  assert (E : forall k, mI i k = if i =? k then 1%R else 0%R) by reflexivity.
  rewrite E in H0, H1, H2.
  transitivity (((0 + T i 0%nat * T 0%nat 0%nat + T i 1%nat * T 0%nat 1%nat + T i 2%nat * T 0%nat 2%nat) * (p 0%nat - T 0%nat 3%nat) + (0 + T i 0%nat * T 1%nat 0%nat + T i 1%nat * T 1%nat 1%nat + T i 2%nat * T 1%nat 2%nat) * (p 1%nat - T 1%nat 3%nat)
     + (0 + T i 0%nat * T 2%nat 0%nat + T i 1%nat * T 2%nat 1%nat + T i 2%nat * T 2%nat 2%nat) * (p 2%nat - T 2%nat 3%nat) + T i 3%nat)%R); [ring|].
  rewrite H0, H1, H2. destruct i as [|[|[|i]]]; [| | |lia]; cbn [Nat.eqb]; ring.
Qed.
Lemma p_active_empty s a g cf fr q : ReadyToClone RF s a -> RHist q g cf fr -> fL fr = 1 -> qp a = None ->
  exists s', find_active_map_points (s, g) = (Ok [], (s', g)) /\ ReadyToClone RF s' a.
Proof.
  intros HR HI HL HP. apply ready_iff in HR. pose proof (hist_inv _ _ _ _ HI) as ((A0 & AB & AL & _ & _) & _).
  destruct (rd_has a s HR Points) as (s1 & E & H1). change (qget Points a) with (qp a) in E. rewrite HP in E.
  exists s1. split; [|now apply ready_iff]. unfold find_active_map_points. rewrite (mb_ok _ _ _ _ _ (onr_ok get s g _ _ eq_refl)).
  rewrite (mb_lift _ _ _ tt) by (rewrite AL, HL; reflexivity). rewrite (mb_ok _ _ _ _ _ (onp_ok _ s g _ _ E)). reflexivity.
Qed.
Lemma p_active_rej s a g cf fr q : ReadyToClone RF s a -> RHist q g cf fr ->
  (fL fr <> 1 -> fst (find_active_map_points (s, g)) = Err ValueError) /\
  (fL fr = 1 -> qp a <> None -> fB fr <> len_view RF a -> fst (find_active_map_points (s, g)) = Err ValueError) /\
  (fL fr = 1 -> qp a <> None -> fB fr = len_view RF a -> fpose fr = None -> fst (find_active_map_points (s, g)) = Err AttributeError).
Proof.
  intros HR HI. apply ready_iff in HR. pose proof (hist_inv _ _ _ _ HI) as ((A0 & AB & AL & _ & _) & _ & _ & _ & _ & Apo & _).
  destruct (rd_has a s HR Points) as (s1 & E & H1). change (qget Points a) with (qp a) in E.
  unfold find_active_map_points. rewrite (mb_ok _ _ _ _ _ (onr_ok get s g _ _ eq_refl)). split; [|split].
  - intros HL. rewrite (mb_lift_err _ _ _ ValueError); [reflexivity|]. rewrite AL. destruct (Nat.eqb_spec (fL fr) 1); [contradiction|reflexivity].
  - intros HL HP HB. rewrite (mb_lift _ _ _ tt) by (rewrite AL, HL; reflexivity). rewrite (mb_ok _ _ _ _ _ (onp_ok _ s g _ _ E)).
    destruct (qp a); [|congruence]. cbn [is_some negb]. rewrite (mb_ok _ _ _ _ _ (onp_ok get s1 g _ _ eq_refl)).
    rewrite (mb_lift_err _ _ _ ValueError); [reflexivity|]. rewrite AB, (rd_len a s1 H1). destruct (Nat.eqb_spec (fB fr) (len_view RF a)); [contradiction|reflexivity].
  - intros HL HP HB HN. rewrite (mb_lift _ _ _ tt) by (rewrite AL, HL; reflexivity). rewrite (mb_ok _ _ _ _ _ (onp_ok _ s g _ _ E)).
    destruct (qp a); [|congruence]. cbn [is_some negb]. rewrite (mb_ok _ _ _ _ _ (onp_ok get s1 g _ _ eq_refl)).
    rewrite (mb_lift _ _ _ tt) by (rewrite AB, (rd_len a s1 H1), HB, Nat.eqb_refl; reflexivity).
    rewrite HN in Apo. destruct (r_poses g); [destruct Apo|]. reflexivity.
Qed.

(* ---------------- C38 *)
Lemma p_similar s a g fr q rows dist_th dot_th : ReadyToClone RF s a -> RHist q g false fr -> live fr -> fB fr = len_view RF a ->
  qp a <> None -> qn a <> None -> Forall (in_map a) rows -> Forall (in_image fr) rows -> points_once rows -> rows <> [] ->
  exists test s' g', find_similar_map_points (Tbl rows) dist_th dot_th (s, g) = (Ok (filter test rows, map test rows), (s', g')) /\
    (forall r, In r rows -> (test r = true <-> similar a fr dist_th dot_th r)) /\
    ReadyToClone RF s' a /\ Shows RF s' a /\ RShows g' false fr.
Proof.
  intros HR HI (HL & HB0 & HH & HW) HB HP HN HM HF HO Hne. apply ready_iff in HR. destruct (qp a) as [P|] eqn:EP; [|congruence].
  destruct (similar_ok s a g fr q P rows dist_th dot_th HR (hist_inv _ _ _ _ HI) HL HB EP HN HH HW HM HF HO Hne) as (test & s' & g' & E & HR' & HI' & Ht).
  exists test, s', g'. split; [exact E|]. split; [exact Ht|]. split; [now apply ready_iff|]. split; [apply p_hist_shows, HR'|]. exact (inv_shows _ _ _ _ HI').
Qed.
Lemma p_similar_valid a fr dist_th dot_th r : (0 <= dot_th)%R -> similar a fr dist_th dot_th r -> (0 < fdep fr (rb r) 0 (rh r) (rw r))%R.
Proof.
  intros Hd Hs. pose proof (similar_valid a fr dist_th dot_th [r] Hd ltac:(constructor; [exact Hs|constructor])) as H.
  unfold valid_pixels in H. inversion H; assumption.
Qed.
Lemma p_similar_trivial s a g cf fr q rows dist_th dot_th : ReadyToClone RF s a -> RHist q g cf fr -> fL fr = 1 ->
  qp a = None \/ rows = [] ->
  exists s', find_similar_map_points (Tbl rows) dist_th dot_th (s, g) = (Ok ([], []), (s', g)) /\ ReadyToClone RF s' a.
Proof.
  intros HR HI HL Hc. apply ready_iff in HR. pose proof (hist_inv _ _ _ _ HI) as ((A0 & AB & AL & _ & _) & _).
  destruct (rd_has a s HR Points) as (s1 & E & H1). change (qget Points a) with (qp a) in E.
  exists s1. split; [|now apply ready_iff]. unfold find_similar_map_points. cbn [table_type table_rows]. rewrite (mb_lift _ _ _ tt eq_refl).
  rewrite (mb_ok _ _ _ _ _ (onr_ok get s g _ _ eq_refl)). rewrite (mb_lift _ _ _ tt) by (rewrite AL, HL; reflexivity).
  rewrite (mb_lift _ _ _ rows eq_refl). rewrite (mb_ok _ _ _ _ _ (onp_ok _ s g _ _ E)).
  destruct Hc as [Hc| ->]; [rewrite Hc; reflexivity|]. cbn [length Nat.eqb]. rewrite orb_true_r. reflexivity.
Qed.
Lemma p_similar_rej s a g cf fr q rows dist_th dot_th : ReadyToClone RF s a -> RHist q g cf fr ->
  fst (find_similar_map_points TblBad dist_th dot_th (s, g)) = Err TypeError /\
  fst (find_similar_map_points TblShape dist_th dot_th (s, g)) = Err ValueError /\
  (fL fr <> 1 -> fst (find_similar_map_points (Tbl rows) dist_th dot_th (s, g)) = Err ValueError) /\
  (qp a <> None -> rows <> [] -> fB fr <> len_view RF a \/ qn a = None ->
     fst (find_similar_map_points (Tbl rows) dist_th dot_th (s, g)) = Err ValueError).
Proof.
  intros HR HI. apply ready_iff in HR. pose proof (hist_inv _ _ _ _ HI) as ((A0 & AB & AL & _ & _) & _).
  destruct (rd_has a s HR Points) as (s1 & E & H1). change (qget Points a) with (qp a) in E.
  unfold find_similar_map_points. cbn [table_type table_rows]. split; [reflexivity|]. split; [|split].
  - rewrite (mb_lift _ _ _ tt eq_refl). rewrite (mb_ok _ _ _ _ _ (onr_ok get s g _ _ eq_refl)).
    destruct (r_L g =? 1); cbn [guard]; [rewrite (mb_lift _ _ _ tt eq_refl)|]; reflexivity.
  - intros HL. rewrite (mb_lift _ _ _ tt eq_refl). rewrite (mb_ok _ _ _ _ _ (onr_ok get s g _ _ eq_refl)).
    rewrite (mb_lift_err _ _ _ ValueError); [reflexivity|]. rewrite AL. destruct (Nat.eqb_spec (fL fr) 1); [contradiction|reflexivity].
  - intros HP Hne Hc. rewrite (mb_lift _ _ _ tt eq_refl). rewrite (mb_ok _ _ _ _ _ (onr_ok get s g _ _ eq_refl)).
    destruct (r_L g =? 1); cbn [guard]; [rewrite (mb_lift _ _ _ tt eq_refl)|reflexivity].
    rewrite (mb_lift _ _ _ rows eq_refl). rewrite (mb_ok _ _ _ _ _ (onp_ok _ s g _ _ E)).
    destruct (qp a) as [P|]; [|congruence]. destruct rows as [|r0 rows]; [congruence|]. cbn [is_some negb orb length Nat.eqb].
    rewrite (mb_ok _ _ _ _ _ (onp_ok get s1 g _ _ eq_refl)). rewrite AB, (rd_len a s1 H1).
    destruct (Nat.eqb_spec (fB fr) (len_view RF a)) as [HB|HB]; cbn [guard]; [|reflexivity]. rewrite (mb_lift _ _ _ tt eq_refl).
    destruct Hc as [Hc|Hc]; [contradiction|].
    destruct (rd_has a s1 H1 Normals) as (s2 & E2 & H2). change (qget Normals a) with (qn a) in E2. rewrite Hc in E2.
    rewrite (mb_ok _ _ _ _ _ (onp_ok _ s1 g _ _ E2)). reflexivity.
Qed.

(* ---------------- C39, C40 *)
Lemma fits_exact a fr rows : fits_float32 a fr -> Forall (in_map a) rows -> Forall (in_image fr) rows -> fB fr = len_view RF a -> Forall (exact_on f32) rows.
Proof.
  intros (H1 & H2 & H3 & H4) HM HF HB. rewrite Forall_forall in *. intros r Hr. destruct (HM r Hr) as [K1 K2]. destruct (HF r Hr) as (K3 & K4 & K5).
  specialize (H4 (rb r) K3). unfold exact_on. repeat split; apply f32_exact; lia.
Qed.
Lemma p_best s a g fr q rows : ReadyToClone RF s a -> RHist q g false fr -> fL fr = 1 -> fB fr = len_view RF a ->
  qp a <> None -> qf a <> None -> fits_float32 a fr -> Forall (in_map a) rows -> Forall (in_image fr) rows ->
  exists out s' g', find_best_unique_correspondences f32 (Tbl rows) (s, g) = (Ok out, (s', g')) /\
    (forall r, In r out -> In r rows) /\ StronglySorted before_pixel out /\
    (forall r, In r rows -> exists r', In r' out /\ same_pixel r' r) /\
    (width RF a Features = 1 -> (forall r, In r rows -> (0 <= conf a (rb r) (rn r))%R) ->
     forall r, In r rows -> exists r', In r' out /\ same_pixel r' r /\ at_least_as_good a fr r' r) /\
    ReadyToClone RF s' a /\ Shows RF s' a /\ RShows g' false fr.
Proof.
  intros HR HI HL HB HP HN Hfit HM HF. apply ready_iff in HR. destruct (qp a) as [P|] eqn:EP; [|congruence].
  destruct (best_rows f32 s a g fr q P rows HR (hist_inv _ _ _ _ HI) HL HB EP HN HM HF (fits_exact a fr rows Hfit HM HF HB)) as (out & s' & g' & E & HR' & (q' & HI') & H1 & H2 & H3 & H4).
  exists out, s', g'. split; [exact E|]. split; [exact H1|]. split; [exact H2|]. split; [exact H3|]. split; [exact H4|].
  split; [now apply ready_iff|]. split; [apply p_hist_shows, HR'|]. exact (inv_shows _ _ _ _ HI').
Qed.
(* at most one row per pixel *)
Lemma p_best_once out r r' : StronglySorted before_pixel out -> In r out -> In r' out -> same_pixel r r' -> r = r'.
Proof.
  intros Hs Hr Hr' (E1 & E2 & E3). apply (nodup_same (fun r => (rb r, (rh r, rw r))) out); auto; [now apply sorted_pixels|congruence].
Qed.
