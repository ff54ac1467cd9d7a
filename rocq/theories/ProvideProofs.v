(* C54: the odometry providers. *)
From Coq Require Import Reals List Arith Bool ZArith Lia Lra.
From Verif Require Import Res Fld StructUtilsModel PointcloudsModel PointcloudsSpec PointcloudsIndexSpec PointcloudsCtorSpec
  PointcloudsHist PointcloudsPropProofs MatSpec GeomSpec TensorModel TensorProofs ProjModel GeomModel RgbdModel RgbdSpec RgbdProofs
  FusionModel FusionMap SolveModel Se3Model IcpModel IcpSpec SolveProofs IcpLoopProofs IcpRunProofs IcpRunProofs2 IcpArgProofs DownProofs.
From Verif Require Import OdomSpec.
Import ListNotations.
Local Open Scope nat_scope.

Lemma mapM_ok {X Y} (f : X -> res Y) l : (forall x, In x l -> exists y, f x = Ok y) -> exists ys, mapM f l = Ok ys /\ Forall2 (fun x y => f x = Ok y) l ys.
Proof.
  induction l as [|x l IH]; intros H; [exists []; split; [reflexivity|constructor]|].
  destruct (H x (or_introl eq_refl)) as (y & Ey). destruct IH as (ys & Es & F); [intros z Hz; apply H; right; exact Hz|].
  exists (y :: ys). cbn [mapM]. rewrite Ey. cbn [rbind]. rewrite Es. split; [reflexivity|]. constructor; assumption.
Qed.
Lemma mapM_err {X Y} (f : X -> res Y) l1 x l2 e : (forall z, In z l1 -> exists y, f z = Ok y) -> f x = Err e -> mapM f (l1 ++ x :: l2) = Err e.
Proof.
  induction l1 as [|z l1 IH]; intros H Hx; cbn [app mapM]; [rewrite Hx; reflexivity|].
  destruct (H z (or_introl eq_refl)) as (y & ->). cbn [rbind]. rewrite IH; [reflexivity| |exact Hx]. intros w Hw. apply H. right. exact Hw.
Qed.
Lemma F2_length {X Y} (R : X -> Y -> Prop) l m : Forall2 R l m -> length l = length m.
Proof. induction 1; cbn; congruence. Qed.
Lemma Forall2_nth {X Y} (R : X -> Y -> Prop) l m i d d' : Forall2 R l m -> i < length l -> R (nth i l d) (nth i m d').
Proof. intros H. revert i. induction H; intros i Hi; cbn in *; [lia|]. destruct i; [exact H|]. apply IHForall2. lia. Qed.
Lemma nth_cloud_ok (L : list (t2 R)) b : b < length L -> nth_cloud (Some L) b = Ok (TTen (cloud_ten (nth b L (mkT2 0 [])))).
Proof. intros H. unfold nth_cloud. rewrite (nth_get L b (mkT2 0 [])) by exact H. reflexivity. Qed.

Section Provide.
Variables (nn : nnfun) (o : odom_method) (s t : pc RF) (a c : batch RF) (P N Q : list (t2 RF)).
Hypothesis Hs : Hist RF s a.
Hypothesis Ht : Hist RF t c.
Hypothesis HP : qp a = Some P.
Hypothesis HN : qn a = Some N.
Hypothesis HQ : qp c = Some Q.
Notation one_run_of := (OdomSpec.one_run_of nn o P N Q).
Lemma gl u d x : Hist RF u d -> exists u', get_list RF x u = (Ok (qget x d), u') /\ Hist RF u' d.
Proof.
  intros H. destruct (p_hist_shows RF u d H) as (S & _). specialize (S x). destruct (get_list RF x u) as [r u'] eqn:E. cbn in S. subst r.
  exists u'. split; [reflexivity|]. replace u' with (after RF (RdList x) u) by (cbn [after]; now rewrite E). now apply PointcloudsHist.h_read.
Qed.
Lemma provide_eq : length P = length Q -> exists s' t', Hist RF s' a /\ Hist RF t' c /\
  provide nn o (s, t) = ((let? ts := mapM (fun b => let? (m, _) := one_run_of b in Ok m) (seq 0 (length P)) in stack_transforms ts), (s', t')).
Proof.
  intros Hlen. pose proof (batch_valid s a P Hs HP) as Va. pose proof (batch_valid t c Q Ht HQ) as Vc.
  assert (LN : length N = length P).
  { destruct Va as (_ & _ & HA). destruct (HA Normals N HN) as [Hc _]. apply (f_equal (@length nat)) in Hc. unfold counts_of in Hc. rewrite !map_length in Hc. exact Hc. }
  destruct (gl s a Normals Hs) as (s1 & E1 & H1). cbn [qget] in E1. rewrite HN in E1.
  destruct (gl t c Points Ht) as (t1 & E2 & H2). cbn [qget] in E2. rewrite HQ in E2.
  destruct (gl s1 a Points H1) as (s2 & E3 & H3). cbn [qget] in E3. rewrite HP in E3.
  exists s2, t1. split; [exact H3|]. split; [exact H2|].
  unfold provide. unfold mbind at 1. unfold on1 at 1. cbn [fst snd]. rewrite E1. unfold mbind at 1, get at 1. cbn [fst snd].
  assert (L1 : len RF s1 = length P) by (destruct (p_hist_shows RF s1 a H1) as (_ & _ & _ & _ & _ & S); rewrite S; apply (len_P P a Va)).
  assert (L2 : len RF t = length P) by (destruct (p_hist_shows RF t c Ht) as (_ & _ & _ & _ & _ & S); rewrite S, Hlen; apply (len_P Q c Vc)).
  rewrite L1, L2, Nat.eqb_refl. cbn [guard]. rewrite (mb_lift _ _ _ tt eq_refl).
  assert (E0 : length P =? 0 = false) by (apply Nat.eqb_neq; destruct Va as (_ & Hne & _); destruct P; [congruence|discriminate]). rewrite E0.
  unfold mbind at 1. unfold on2 at 1. cbn [fst snd]. rewrite E2. unfold mbind at 1. unfold on1 at 1. cbn [fst snd]. rewrite E3.
  assert (EM : mapM (fun b => let? src := nth_cloud (Some Q) b in let? tgt := nth_cloud (Some P) b in let? nor := nth_cloud (Some N) b in
       let? (m, _) := run_icp nn o src tgt nor (TTen eye4) in Ok m) (seq 0 (length P)) =
     mapM (fun b => let? (m, _) := one_run_of b in Ok m) (seq 0 (length P))).
  { assert (G : forall l, (forall b, In b l -> b < length P) -> mapM (fun b => let? src := nth_cloud (Some Q) b in let? tgt := nth_cloud (Some P) b in let? nor := nth_cloud (Some N) b in
       let? (m, _) := run_icp nn o src tgt nor (TTen eye4) in Ok m) l = mapM (fun b => let? (m, _) := one_run_of b in Ok m) l).
    { induction l as [|b l IH]; intros Hl; [reflexivity|]. cbn [mapM]. rewrite IH by (intros z Hz; apply Hl; right; exact Hz).
      specialize (Hl b (or_introl eq_refl)).
      pose proof (nth_cloud_ok P b Hl) as K1. pose proof (nth_cloud_ok Q b (eq_ind _ (lt b) Hl _ Hlen)) as K2. pose proof (nth_cloud_ok N b (eq_ind _ (lt b) Hl _ (eq_sym LN))) as K3.
      assert (K : (let? src := nth_cloud (Some Q) b in let? tgt := nth_cloud (Some P) b in let? nor := nth_cloud (Some N) b in
         let? (m, _) := run_icp nn o src tgt nor (TTen eye4) in Ok m) = (let? (m, _) := one_run_of b in Ok m)).
      { refine (eq_trans (f_equal (fun r => rbind r _) K2) _). cbn [rbind]. refine (eq_trans (f_equal (fun r => rbind r _) K1) _). cbn [rbind].
        refine (eq_trans (f_equal (fun r => rbind r _) K3) _). reflexivity. }
      rewrite K. reflexivity. }
    apply G. intros b Hb. apply in_seq in Hb. lia. }
  assert (Z : forall r (st : pc RF * pc RF), mbind (lift r) (fun ts => lift (stack_transforms ts)) st = ((let? ts := r in stack_transforms ts), st)) by (intros [|] st; reflexivity).
  refine (eq_trans (Z _ _) _). exact (f_equal (fun r => (rbind r stack_transforms, (s2, t1))) EM).
Qed.
Lemma provide_ok : length P = length Q -> (forall b, b < length P -> exists T idx, one_run_of b = Ok (T, idx)) ->
  exists X s' t', provide nn o (s, t) = (Ok X, (s', t')) /\ Hist RF s' a /\ Hist RF t' c /\ dims X = [4; 4; 1; length P] /\
    forall b, b < length P -> exists T idx, one_run_of b = Ok (T, idx) /\ forall i j, i < 4 -> j < 4 -> ent X [0; b] i j = ent T [] i j.
Proof.
  intros Hlen Hok. destruct (provide_eq Hlen) as (s' & t' & H1 & H2 & E).
  destruct (mapM_ok (fun b => let? (m, _) := one_run_of b in Ok m) (seq 0 (length P))) as (ts & Ets & F).
  { intros b Hb. apply in_seq in Hb. destruct (Hok b ltac:(lia)) as (T & idx & ET). exists T. rewrite ET. reflexivity. }
  rewrite Ets in E. cbn [rbind] in E. pose proof (F2_length _ _ _ F) as Hl. rewrite seq_length in Hl.
  assert (Hpos : length P <> 0) by (destruct (batch_valid s a P Hs HP) as (_ & Hne & _); destruct P; [congruence|discriminate]).
  destruct ts as [|t0 ts]; [cbn in Hl; destruct (Hpos Hl)|]. cbn [stack_transforms] in E.
  eexists _, s', t'. split; [exact E|]. split; [exact H1|]. split; [exact H2|]. split; [cbn [dims]; rewrite Hl; reflexivity|].
  intros b Hb. destruct (Hok b Hb) as (T & idx & ET). exists T, idx. split; [exact ET|]. intros i j Hi Hj.
  pose proof (Forall2_nth _ _ _ b 0 t0 F ltac:(rewrite seq_length; exact Hb)) as Fb. cbn beta in Fb. rewrite seq_nth in Fb by exact Hb. rewrite Nat.add_0_l, ET in Fb. cbn [rbind] in Fb.
  injection Fb as Fb. unfold ent. cbn [at_ app]. exact (f_equal (fun x => at_ x [j; i]) (eq_sym Fb)).
Qed.
Lemma provide_err b e : length P = length Q -> b < length P -> (forall k, k < b -> exists T idx, one_run_of k = Ok (T, idx)) -> one_run_of b = Err e ->
  fst (provide nn o (s, t)) = Err e.
Proof.
  intros Hlen Hb Hok He. destruct (provide_eq Hlen) as (s' & t' & H1 & H2 & E). rewrite E. cbn [fst].
  replace (length P) with (b + S (length P - b - 1)) by lia. rewrite seq_app. cbn [Nat.add seq].
  rewrite (mapM_err _ _ b _ e); [reflexivity| |rewrite He; reflexivity].
  intros k Hk. apply in_seq in Hk. destruct (Hok k ltac:(lia)) as (T & idx & ET). exists T. rewrite ET. reflexivity.
Qed.
Lemma provide_mismatch : length P <> length Q -> fst (provide nn o (s, t)) = Err ValueError.
Proof.
  intros Hlen. pose proof (batch_valid s a P Hs HP) as Va. pose proof (batch_valid t c Q Ht HQ) as Vc.
  destruct (gl s a Normals Hs) as (s1 & E1 & H1). cbn [qget] in E1. rewrite HN in E1.
  unfold provide. unfold mbind at 1. unfold on1 at 1. cbn [fst snd]. rewrite E1. unfold mbind at 1, get at 1. cbn [fst snd].
  assert (L1 : len RF s1 = length P) by (destruct (p_hist_shows RF s1 a H1) as (_ & _ & _ & _ & _ & S); rewrite S; apply (len_P P a Va)).
  assert (L2 : len RF t = length Q) by (destruct (p_hist_shows RF t c Ht) as (_ & _ & _ & _ & _ & S); rewrite S; apply (len_P Q c Vc)).
  rewrite L1, L2. destruct (Nat.eqb_spec (length P) (length Q)); [contradiction|]. reflexivity.
Qed.
End Provide.
Lemma provide_no_normals nn o s t a : Hist RF s a -> qn a = None -> fst (provide nn o (s, t)) = Err ValueError.
Proof.
  intros Hs HN. destruct (gl s a Normals Hs) as (s1 & E1 & H1). cbn [qget] in E1. rewrite HN in E1.
  unfold provide. unfold mbind at 1. unfold on1 at 1. cbn [fst snd]. rewrite E1. reflexivity.
Qed.

Lemma cloud_ten_cloud x n : t2c x = 3 -> length (t2r x) = n -> cloud_of (cloud_ten x) n.
Proof. intros H1 H2. unfold cloud_of, cloud_ten. cbn [dims]. rewrite H1, H2. reflexivity. Qed.
Lemma one_total nn o (src tgt nor : t2 R) : IcpSpec.nearest nn -> good_method o -> t2c src = 3 -> t2c tgt = 3 -> t2c nor = 3 ->
  length (t2r nor) = length (t2r tgt) -> t2r tgt <> [] \/ t2r src = [] ->
  exists T idx, run_icp nn o (TTen (cloud_ten src)) (TTen (cloud_ten tgt)) (TTen (cloud_ten nor)) (TTen eye4) = Ok (T, idx) /\ mat44 T /\ affine4 (ent T []).
Proof.
  intros Hn Hg H1 H2 H3 H4 H5.
  assert (Hin : forall th, th <> ThrBad -> icp_input nn (cloud_ten src) (cloud_ten tgt) (cloud_ten nor) (length (t2r src)) (length (t2r tgt)) th).
  { intros th Hth. split; [exact Hn|]. split; [apply cloud_ten_cloud; auto|]. split; [apply cloud_ten_cloud; auto|]. split; [apply cloud_ten_cloud; auto|].
    split; [|exact Hth]. destruct H5 as [H5| ->]; [left; destruct (t2r tgt); [congruence|cbn; lia]|right; reflexivity]. }
  assert (Ha : affine4 (ent eye4 [])) by apply eye_rigid.
  destruct o as [[|n] d th|[|n] d th [|l] [|B] [|B2] [|nu]]; cbn in Hg; try contradiction.
  - destruct Hg as (G1 & G2 & G3). destruct (r_total nn _ _ _ _ _ th (Hin th G3) eye4 n d eye_mat44 G2 G1) as (T & idx & E & M & A).
    exists T, idx. cbn [run_icp]. auto.
  - destruct Hg as (G1 & G2 & G3 & G4 & G5). destruct (g_total nn _ _ _ _ _ th (Hin th G3) l B B2 nu G4 G5 eye4 n d eye_mat44 G2 G1) as (T & idx & E & M & A).
    exists T, idx. cbn [run_icp]. auto.
Qed.
Lemma provide_total nn o s t a c P N Q : Hist RF s a -> Hist RF t c -> qp a = Some P -> qn a = Some N -> qp c = Some Q -> length P = length Q ->
  IcpSpec.nearest nn -> good_method o ->
  (forall b, b < length P -> t2r (nth b P (mkT2 0 [] : t2 R)) <> [] \/ t2r (nth b Q (mkT2 0 [] : t2 R)) = []) ->
  exists X s' t', provide nn o (s, t) = (Ok X, (s', t')) /\ dims X = [4; 4; 1; length P] /\
    forall b, b < length P -> affine4 (ent X [0; b]).
Proof.
  intros Hs Ht HP HN HQ Hlen Hnn Hg Hne.
  pose proof (batch_valid s a P Hs HP) as (_ & _ & Va). pose proof (batch_valid t c Q Ht HQ) as (_ & _ & Vc).
  destruct (Va Points P HP) as [_ WP]. destruct (Va Normals N HN) as [CN WN]. destruct (Vc Points Q HQ) as [_ WQ].
  assert (LN : length N = length P) by (apply (f_equal (@length nat)) in CN; unfold counts_of in CN; rewrite !map_length in CN; exact CN).
  assert (Hone : forall b, b < length P -> exists T idx, one_run_of nn o P N Q b = Ok (T, idx) /\ mat44 T /\ affine4 (ent T [])).
  { intros b Hb. rewrite Forall_forall in WP, WN, WQ.
    destruct (WP (nth b P (mkT2 0 [])) ltac:(apply nth_In; lia)) as [P1 _]. destruct (WN (nth b N (mkT2 0 [])) ltac:(apply nth_In; lia)) as [N1 _].
    destruct (WQ (nth b Q (mkT2 0 [])) ltac:(apply nth_In; lia)) as [Q1 _].
    apply one_total; [exact Hnn|exact Hg|exact Q1|exact P1|exact N1| |].
    - apply (f_equal (fun l => nth b l 0)) in CN. unfold counts_of in CN.
      rewrite (nth_map' _ N b 0 (mkT2 0 [])) in CN by lia. rewrite (nth_map' _ P b 0 (mkT2 0 [])) in CN by lia. exact CN.
    - exact (Hne b Hb). }
  destruct (provide_ok nn o s t a c P N Q Hs Ht HP HN HQ Hlen) as (X & s' & t' & E & _ & _ & D & HX).
  { intros b Hb. destruct (Hone b Hb) as (T & idx & ET & _). eauto. }
  exists X, s', t'. split; [exact E|]. split; [exact D|]. intros b Hb. destruct (HX b Hb) as (T & idx & ET & HT).
  destruct (Hone b Hb) as (T' & idx' & ET' & _ & A). rewrite ET in ET'. injection ET' as <- _.
  destruct A as (A0 & A1 & A2 & A3). repeat split; rewrite HT by lia; assumption.
Qed.
