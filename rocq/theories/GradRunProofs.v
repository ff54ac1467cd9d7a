(* C82: the map of a whole run with ground-truth odometry and fusion. *)
From Coq Require Import Reals List Arith Bool ZArith Lia Lra Sorting.Sorted.
From Verif Require Import Res Fld StructUtilsModel PointcloudsModel PointcloudsSpec PointcloudsHist MatSpec GeomSpec TensorModel
  RgbdModel RgbdSpec RgbdOps RgbdPropProofs FusionModel FusionSpec FusionMap FusionPropProofs FusionPropProofs2 Se3Model SolveModel IcpModel IcpSpec OdomSpec SlamModel SlamSpec SlamProofs SlamPropProofs
  StillSpec StillProofs StillMapProofs StillFuseProofs StillPropProofs BatchSpec BatchProofs BatchSlamProofs BatchPropProofs GradSpec GradProofs GradMapProofs TableProofs GradFuseProofs UniqueProofs.
Import ListNotations.
Import FusionSpec.
Local Open Scope nat_scope.

(* ---------------- runs with equal poses *)
Lemma posed_attr T T' f x b h w : T b = T' b -> frame_attr (posed T f) x b h w = frame_attr (posed T' f) x b h w.
Proof. intros E. unfold frame_attr, global_vertex, global_normal. cbn [fpose posed with_fpose]. destruct x; try rewrite E; reflexivity. Qed.
Lemma posed_point T T' f b n h w : T b = T' b -> frame_point (posed T f) (mkRow b n h w) = frame_point (posed T' f) (mkRow b n h w).
Proof. intros E. exact (posed_attr T T' f Points b h w E). Qed.
Lemma posed_normal T T' f b n h w : T b = T' b -> frame_normal (posed T f) (mkRow b n h w) = frame_normal (posed T' f) (mkRow b n h w).
Proof. intros E. exact (posed_attr T T' f Normals b h w E). Qed.
Lemma posed_fused sg T T' f rows a a' : (forall b, b < fB f -> T b = T' b) -> Fused sg (posed T f) rows a a' -> Fused sg (posed T' f) rows a a'.
Proof.
  intros E [H0 H]. split; [exact H0|]. intros b Hb. destruct (H b Hb) as (H1 & H2 & H3 & H4 & H5). split; [exact H1|]. split; [exact H2|]. split; [exact H3|]. split.
  - intros n h w M. destruct (H4 n h w M) as [K1 K2]. split; [exact K1|]. intros x k Hx Hk. rewrite K2 by assumption. now rewrite (posed_attr T T' f x b h w (E b Hb)).
  - intros k h w M. destruct (H5 k h w M) as [K1 K2]. split; [exact K1|]. intros x j Hx Hj. rewrite K2 by assumption. now rewrite (posed_attr T T' f x b h w (E b Hb)).
Qed.
Lemma posed_corr T T' f d t rows a : (forall b, b < len_view RF a -> T b = T' b) ->
  Correspondences a (posed T f) (fun b _ => T b) d t rows -> Correspondences a (posed T' f) (fun b _ => T' b) d t rows.
Proof.
  intros E (H1 & H2 & H3 & H4). split; [exact H1|]. split; [exact H2|].
  assert (S : forall b n h w, b < len_view RF a -> (seen_at a (posed T f) (fun b _ => T b) b n h w <-> seen_at a (posed T' f) (fun b _ => T' b) b n h w) /\
     (similar a (posed T f) d t (mkRow b n h w) <-> similar a (posed T' f) d t (mkRow b n h w)) /\
     forall n', at_least_as_good a (posed T f) (mkRow b n' h w) (mkRow b n h w) <-> at_least_as_good a (posed T' f) (mkRow b n' h w) (mkRow b n h w)).
  { intros b n h w Hb. unfold seen_at. rewrite (E b Hb). split; [reflexivity|]. unfold similar, at_least_as_good. rewrite (posed_point T T' f b n h w (E b Hb)), (posed_normal T T' f b n h w (E b Hb)).
    split; [reflexivity|]. intros n'. rewrite (posed_point T T' f b n' h w (E b Hb)). reflexivity. }
  split.
  - intros b n h w M. destruct (H3 b n h w M) as (K1 & K2 & K3). destruct (S b n h w (proj1 K1)) as (S1 & S2 & _). tauto.
  - intros b n h w K1 K2 K3. destruct (S b n h w (proj1 K1)) as (S1 & S2 & S3). destruct (H4 b n h w K1 ltac:(tauto) ltac:(tauto)) as (n' & M & G). exists n'. split; [exact M|now apply S3].
Qed.
Lemma traj_len c fr maps T n d t s : s_map c = Fusion d t s -> Trajectory c fr n maps T -> forall l, l <= n -> qp (maps l) <> None -> len_view RF (maps l) = fB fr.
Proof.
  intros Hm [H0 H] l Hl P. destruct l as [|l]; [rewrite H0 in P; now elim P|]. destruct (H l ltac:(lia)) as [_ K]. unfold Mapped in K. rewrite Hm in K. destruct K as (_ & _ & rows & [K _] & _).
  rewrite K. apply moment_B.
Qed.
Lemma traj_pose c fr n maps T T' d t s : s_odom c = OGt -> s_map c = Fusion d t s -> n <= fL fr -> (forall b l, b < fB fr -> l < n -> T b l = T' b l) -> Trajectory c fr n maps T -> Trajectory c fr n maps T'.
Proof.
  intros Ho Hm Hn E HT. pose proof (traj_len c fr maps T n d t s Hm HT) as HL. destruct HT as [H0 H]. split; [exact H0|]. intros l Hl. destruct (H l Hl) as [K1 K2]. split.
  - unfold Localised in *. rewrite Ho in *. destruct K1 as (T1 & E1 & K1). exists T1. split; [exact E1|]. intros b Hb. rewrite <- E; [now apply K1| |exact Hl]. rewrite input_B in Hb. exact Hb.
  - unfold Mapped in *. rewrite Hm in *. destruct K2 as (K2 & K3 & rows & K4 & K5). split; [exact K2|]. split; [exact K3|]. exists rows. split.
    + apply (posed_fused _ (fun b => T b l)); [|exact K4]. intros b Hb. rewrite moment_B in Hb. now apply E.
    + destruct (qp (maps l)) eqn:EP; [|exact K5]. destruct K5 as (T1 & E1 & K5). cbn in E1. injection E1 as <-. exists (fun b _ => T' b l). split; [reflexivity|].
      apply (posed_corr (fun b => T b l)); [|exact K5]. intros b Hb. rewrite (HL l ltac:(lia)) in Hb by congruence. now apply E.
Qed.
(* the maps of a run are determined *)
Lemma batch_ext (a a' : batch RF) B : Batch RF a -> Batch RF a' -> len_view RF a = B -> len_view RF a' = B -> (forall b, b < B -> SameMap true a b a' b) -> 0 < B -> a = a'.
Proof.
  intros HA HA' LA LA' S HB.
  assert (E : forall x, qget x a = qget x a').
  { intros x. destruct (S 0 HB) as (N & _ & _). specialize (N x). destruct (qget x a) as [L|] eqn:EL.
    - destruct (qget x a') as [L'|] eqn:EL'; [|destruct N as [_ N]; now specialize (N eq_refl)]. f_equal.
      assert (HL : length L = B). { unfold Batch in HA. unfold len_view in LA. destruct (qp a) as [P|]; [|lia]. destruct HA as (_ & _ & HA). destruct (HA x L EL) as [HC _]. apply (f_equal (@length nat)) in HC. unfold counts_of in HC. rewrite !map_length in HC. congruence. }
      assert (HL' : length L' = B). { unfold Batch in HA'. unfold len_view in LA'. destruct (qp a') as [P|]; [|lia]. destruct HA' as (_ & _ & HA'). destruct (HA' x L' EL') as [HC _]. apply (f_equal (@length nat)) in HC. unfold counts_of in HC. rewrite !map_length in HC. congruence. }
      apply (nth_ext _ _ nocloud nocloud); [congruence|]. intros b Hb. destruct (S b ltac:(lia)) as (_ & S1 & _). specialize (S1 x (or_introl eq_refl)). unfold lst in S1. rewrite EL, EL' in S1. exact S1.
    - destruct N as [N _]. symmetry. now apply N. }
  destruct a, a'. pose proof (E Points) as E1. pose proof (E Normals) as E2. pose proof (E Colors) as E3. pose proof (E Features) as E4. cbn in *. congruence.
Qed.
Lemma same_self fr b : b < fB fr -> SameSeq true fr b fr b.
Proof. intros Hb. do 2 (split; [exact Hb|]). do 3 (split; [reflexivity|]). split; [apply MatProofs.meq_refl|]. split; [intros; split; [reflexivity|]; split; [intros _ k _; reflexivity|intros k _; reflexivity]|]. destruct (fpose fr); cbn; [intros l _; apply MatProofs.meq_refl|exact I]. Qed.
Lemma maps_unique c fr n maps maps' T T' d t s : s_map c = Fusion d t s -> 0 < fB fr -> 2 <= fH fr -> 2 <= fW fr -> n <= fL fr -> Trajectory c fr n maps T -> Trajectory c fr n maps' T' ->
  forall l, l <= n -> maps l = maps' l.
Proof.
  intros Hm HB HH HW Hn HT HT' l Hl. destruct l as [|l]; [destruct HT as [-> _], HT' as [-> _]; reflexivity|].
  assert (K : forall mp U, Trajectory c fr n mp U -> Batch RF (mp (S l)) /\ len_view RF (mp (S l)) = fB fr).
  { intros mp U [_ H]. destruct (H l ltac:(lia)) as [_ K]. unfold Mapped in K. rewrite Hm in K. destruct K as (K & _ & rows & [K1 _] & _). split; [exact K|]. rewrite K1. apply moment_B. }
  destruct (K _ _ HT) as [K1 K2], (K _ _ HT') as [K3 K4]. apply (batch_ext _ _ (fB fr) K1 K3 K2 K4); [|exact HB]. intros b Hb.
  assert (R : forall mp U, Trajectory c fr n mp U -> Trajectory c fr (S l) mp U) by (intros mp U [H0 H]; split; [exact H0|intros k Hk; apply H; lia]).
  exact (proj1 (runs_agree c true fr fr b b (same_self fr b Hb) HH HW maps maps' T T' (S l) (R _ _ HT) (R _ _ HT') ltac:(lia))).
Qed.
Lemma traj_positive c fr n maps T d t s : s_map c = Fusion d t s -> 2 <= fH fr -> 2 <= fW fr -> n <= fL fr -> Trajectory c fr n maps T -> forall l b m, l <= n -> b < fB fr -> m < npoints (maps l) b -> (0 < conf (maps l) b m)%R.
Proof.
  intros Hm HH HW Hn [H0 H] l b m Hl Hb. assert (R : Trajectory c fr l maps T) by (split; [exact H0|intros k Hk; apply H; lia]).
  destruct (runs_agree c true fr fr b b (same_self fr b Hb) HH HW maps maps T T l R R ltac:(lia)) as (_ & _ & _ & P). apply P. rewrite Hm. discriminate.
Qed.

(* ---------------- frame number l of a family *)
Lemma shot_smooth F x0 T l : smooth_frames F x0 -> (forall x, fpose (F x) = Some (T x)) -> l < fL (F x0) -> smooth_frames (fun x => posed (fun b => T x b l) (moment l (F x))) x0.
Proof.
  intros (SZ & SC & SD & SK & SN & SP & SX) ET Hl.
  assert (NB : forall x b, b < fB (F x0) -> nth b (seq 0 (fB (F x))) 0 = b) by (intros x b Hb; rewrite (proj1 (SZ x)); now rewrite seq_nth by exact Hb).
  assert (IN : forall b k h w, inside (posed (fun b => T x0 b l) (moment l (F x0))) b k h w -> k = 0 /\ inside (F x0) b l h w).
  { intros b k h w (H1 & H2 & H3 & H4). cbn [fB fL fH fW posed with_fpose moment pick] in *. rewrite seq_length in H1. cbn in H2. split; [lia|]. repeat split; assumption. }
  split; [|split; [|split; [|split; [|split; [|split]]]]].
  - intros x. cbn. rewrite !seq_length. destruct (SZ x) as (-> & _ & -> & ->). auto.
  - intros b k h w c Hi Hc. destruct (IN b k h w Hi) as [-> Hi']. apply (diff_ext _ (fun x => frgb (F x) b l h w c)); [|now apply SC]. intros x. cbn [frgb posed with_fpose moment pick nth]. rewrite NB by apply Hi'. reflexivity.
  - intros b k h w Hi. destruct (IN b k h w Hi) as [-> Hi']. apply (diff_ext _ (fun x => fdep (F x) b l h w)); [|now apply SD]. intros x. cbn [fdep posed with_fpose moment pick nth]. rewrite NB by apply Hi'. reflexivity.
  - intros b i j Hb Hi Hj. cbn [fB posed with_fpose moment pick] in Hb. rewrite seq_length in Hb. apply (diff_ext _ (fun x => fK (F x) b i j)); [|now apply SK]. intros x. cbn [fK posed with_fpose moment pick]. rewrite NB by exact Hb. reflexivity.
  - intros b Hb. cbn [fB posed with_fpose moment pick] in Hb. rewrite seq_length in Hb. cbn [fK posed with_fpose moment pick]. rewrite NB by exact Hb. now apply SN.
  - right. exists (fun x b _ => T x b l). split; [reflexivity|]. intros b k i j Hb Hk Hi Hj. cbn [fB posed with_fpose moment pick] in Hb. rewrite seq_length in Hb.
    destruct SP as [SP|(T' & E & SP)]; [specialize (SP x0); rewrite ET in SP; discriminate|]. apply (diff_ext _ (fun x => T' x b l i j)); [|now apply SP]. intros x. specialize (E x). rewrite ET in E. injection E as ->. reflexivity.
  - destruct SX as [SX|(p & E & SX)]; [left; intros x; cbn; rewrite SX; reflexivity|]. right. exists (fun x b k => p x (nth b (seq 0 (fB (F x))) 0) (nth k [l] 0)). split; [intros x; cbn [fpix posed with_fpose moment pick]; rewrite E; reflexivity|].
    intros b k h w i Hi Hj. destruct (IN b k h w Hi) as [-> Hi']. apply (diff_ext _ (fun x => p x b l h w i)); [|now apply SX]. intros x. rewrite NB by apply Hi'. reflexivity.
Qed.

(* the number of map points does not change and every value of the map has a derivative *)
Lemma p_grad_forward c F x0 q g m ps a d t sg : s_odom c = OGt -> s_map c = Fusion d t (SigNum sg) -> smooth_frames F x0 -> (forall x, RHist (q x) (g x) false (F x)) -> fpose (F x0) <> None ->
  0 < fB (F x0) -> 2 <= fH (F x0) -> 2 <= fW (F x0) -> Sizes c (fB (F x0)) (fH (F x0)) (fW (F x0)) (fL (F x0) * (fH (F x0) * fW (F x0))) ->
  no_zero_depth (F x0) -> generic_run c (F x0) d t sg ->
  (forall x, forward c true (g x) = (Ok (m x, ps x), g x)) -> (forall x, Shows RF (m x) (a x)) -> smooth_map (fB (F x0)) a x0.
Proof.
  intros Ho Hm SF HI HP HB HH HW HS NZ HG EF SH. pose proof SF as (SZ & _ & _ & _ & _ & SP & _). destruct SP as [SP|(T & ET & SP)]; [now rewrite SP in HP|].
  assert (K : forall x, exists maps, Trajectory c (F x) (fL (F x0)) maps (T x) /\ a x = maps (fL (F x0))).
  { intros x. destruct (SZ x) as (EB & EL & EH & EW).
    destruct (p_forward_gt c (g x) (q x) (F x) (T x) (HI x) ltac:(lia) ltac:(lia) ltac:(lia) Ho ltac:(rewrite EB, EL, EH, EW; exact HS) (ET x)) as (m' & t' & maps & T' & E1 & _ & E2 & _ & E3 & E4).
    rewrite EF in E1. injection E1 as <- <-. exists maps. split.
    - rewrite <- EL. apply (traj_pose c (F x) _ maps T' (T x) d t (SigNum sg) Ho Hm (le_n _) E4 E2).
    - rewrite <- EL. exact (shows_one _ _ _ (SH x) E3). }
  assert (U : forall x maps maps', Trajectory c (F x) (fL (F x0)) maps (T x) -> Trajectory c (F x) (fL (F x0)) maps' (T x) -> forall l, l <= fL (F x0) -> maps l = maps' l).
  { intros x maps maps' H1 H2. destruct (SZ x) as (EB & EL & EH & EW). apply (maps_unique c (F x) _ maps maps' (T x) (T x) d t (SigNum sg) Hm); try assumption; lia. }
  set (L := fL (F x0)) in *.
  (* the maps as functions of the parameter *)
  assert (D : forall l x, l <= L -> exists! b, exists maps, Trajectory c (F x) L maps (T x) /\ b = maps l).
  { intros l x Hl. destruct (K x) as (maps & HM & _). exists (maps l). split; [exists maps; auto|]. intros b (maps' & HM' & ->). now apply (U x). }
  set (A := fun l x => match le_dec l L with left Hl => proj1_sig (dd_batch _ (D l x Hl)) | right _ => no_batch RF end).
  assert (AE : forall x maps, Trajectory c (F x) L maps (T x) -> forall l, l <= L -> A l x = maps l).
  { intros x maps HM l Hl. unfold A. destruct (le_dec l L) as [Hl'|]; [|contradiction]. destruct (dd_batch _ _) as (b & maps' & HM' & ->). cbn. now apply (U x). }
  assert (AT : forall x, Trajectory c (F x) L (fun l => A l x) (T x)).
  { intros x. destruct (K x) as (maps & HM & _). pose proof (AE x maps HM) as E. destruct HM as [H0 H]. split; [rewrite E by lia; exact H0|]. intros l Hl. rewrite !E by lia. now apply H. }
  assert (EA : forall x, a x = A L x) by (intros x; destruct (K x) as (maps & HM & ->); symmetry; now apply AE).
  enough (G : forall n, n <= L -> smooth_map (fB (F x0)) (A n) x0).
  { intros b Hb. destruct (G L (le_n _) b Hb) as [G1 G2]. split; [refine (near_imp _ _ _ _ G1); intros x E; rewrite !EA; exact E|]. intros X n j Hn Hj. rewrite EA in Hn.
    apply (diff_ext _ (fun x => attr_at (A L x) X b n j)); [intros x; now rewrite EA|now apply G2]. }
  induction n as [|n IH]; intros Hn.
  - assert (E0 : forall x, A 0 x = no_batch RF) by (intros x; apply (AT x)). intros b Hb. split; [apply near_all; intros x; rewrite !E0; reflexivity|]. intros X k j Hk. rewrite E0 in Hk. cbn in Hk. lia.
  - specialize (IH ltac:(lia)).
    set (Fn := fun x => posed (fun b => T x b n) (moment n (F x))). set (Tn := fun x (b k : nat) => T x b n).
    assert (FU : forall x, exists rows, table_of Fn Tn (A n) d t x rows /\ Fused sg (Fn x) rows (A n x) (A (S n) x)).
    { intros x. destruct (AT x) as [_ H]. destruct (H n ltac:(lia)) as [_ M]. unfold Mapped in M. rewrite Hm in M. destruct M as (_ & _ & rows & M1 & M2). exists rows. split; [|exact M1].
      unfold table_of. destruct (qp (A n x)); [|exact M2]. destruct M2 as (T1 & E1 & M2). cbn in E1. injection E1 as <-. exact M2. }
    destruct (FU x0) as (r0 & TB & FU0).
    apply (fuse_smooth Fn Tn (A n) (A (S n)) r0 x0 d t sg (fB (F x0))); try assumption.
    + apply shot_smooth; [exact SF|exact ET|unfold L in Hn; lia].
    + reflexivity.
    + apply moment_B.
    + intros b l h w (H1 & H2 & H3 & H4). cbn [Fn fB fL fH fW posed with_fpose moment pick] in *. rewrite seq_length in H1. cbn in H2. cbn [fdep Fn posed with_fpose moment pick]. rewrite seq_nth by exact H1. cbn [Nat.add].
      replace (nth l [n] 0) with n by (destruct l; [reflexivity|lia]). apply NZ. unfold L in Hn. repeat split; try assumption; lia.
    + intros x. reflexivity.
    + intros x P. rewrite (traj_len c (F x) (fun l => A l x) (T x) L d t (SigNum sg) Hm (AT x) n ltac:(lia) P). apply SZ.
    + exact (HG (fun l => A l x0) (T x0) (AT x0) n Hn).
    + intros x b k Hb Hk. destruct (SZ x) as (EB & EL & EH & EW). apply (traj_positive c (F x) L (fun l => A l x) (T x) d t (SigNum sg) Hm ltac:(lia) ltac:(lia) ltac:(lia) (AT x) n b k); [lia|lia|exact Hk].
Qed.
