(* Proofs for C78, part 1: one step of two batches that agree at one position each. *)
From Coq Require Import Reals List Arith Bool ZArith Lia Lra Sorting.Sorted.
From Verif Require Import Res Fld StructUtilsModel PointcloudsModel PointcloudsSpec PointcloudsHist MatSpec GeomSpec TensorModel TensorProofs
  RgbdModel RgbdSpec FusionModel FusionSpec Se3Model SolveModel IcpModel IcpSpec OdomSpec SlamModel SlamSpec SlamProofs StillProofs BatchSpec.
Import ListNotations.
Local Open Scope nat_scope.

Lemma map_seq_nth {A} (g : nat -> A) n d k : k < n -> nth k (map g (seq 0 n)) d = g k.
Proof. intros H. rewrite (nth_indep _ d (g 0)) by (rewrite map_length, seq_length; exact H). rewrite map_nth, seq_nth by exact H. reflexivity. Qed.
(* which attributes are compared: all, or all but the colours *)
Definition Cmp (col : bool) (x : attr) : Prop := col = true \/ x <> Colors.
Lemma cmp_p col : Cmp col Points. Proof. right. discriminate. Qed.
Lemma cmp_n col : Cmp col Normals. Proof. right. discriminate. Qed.
Ltac cmp := first [assumption | right; discriminate].
(* ---------------- frames *)
Definition SameFrame (col : bool) (f : frames) (b : nat) (f' : frames) (b' : nat) : Prop :=
  b < fB f /\ b' < fB f' /\ fH f = fH f' /\ fW f = fW f' /\ meq 4 4 (fK f b) (fK f' b') /\
  (forall h w, h < fH f -> w < fW f ->
     fdep f b 0 h w = fdep f' b' 0 h w /\ (col = true -> veq 3 (frgb f b 0 h w) (frgb f' b' 0 h w)) /\ veq 3 (pixel f b 0 h w) (pixel f' b' 0 h w)) /\
  opt_rel (fun T T' => meq 4 4 (T b 0) (T' b' 0)) (fpose f) (fpose f').

Section Frame.
  Variables (col : bool) (f : frames) (b : nat) (f' : frames) (b' : nat).
  Hypothesis S : SameFrame col f b f' b'.
  Lemma sf_dep h w : h < fH f -> w < fW f -> fdep f b 0 h w = fdep f' b' 0 h w.
  Proof. destruct S as (_ & _ & _ & _ & _ & P & _). intros; now apply P. Qed.
  Lemma sf_kinv : kinv (fK f b) = kinv (fK f' b').
  Proof. destruct S as (_ & _ & _ & _ & HK & _). unfold kinv. rewrite !HK by lia. reflexivity. Qed.
  Lemma sf_vertex h w : h < fH f -> w < fW f -> veq 3 (vertex f b 0 h w) (vertex f' b' 0 h w).
  Proof.
    intros Hh Hw j Hj. unfold vertex. rewrite sf_kinv, sf_dep by assumption. f_equal. f_equal.
    destruct S as (_ & _ & _ & _ & _ & P & _). destruct (P h w Hh Hw) as (_ & _ & Q). unfold mvec. apply rsum_ext. intros k Hk. now rewrite Q.
  Qed.
  Lemma sf_gvertex h w : h < fH f -> w < fW f -> veq 3 (global_vertex f b 0 h w) (global_vertex f' b' 0 h w).
  Proof.
    intros Hh Hw j Hj. pose proof (sf_vertex h w Hh Hw) as V. unfold global_vertex. pose proof S as (_ & _ & _ & _ & _ & _ & HT).
    destruct (fpose f) as [T|], (fpose f') as [T'|]; try (destruct HT); [|now apply V].
    cbv beta. rewrite sf_dep by assumption. f_equal. unfold act, tr_of, rot_of, mvec. cbn [opt_rel] in HT. rewrite HT by lia. f_equal. apply rsum_ext. intros k Hk. rewrite HT, V by lia. reflexivity.
  Qed.
  Lemma veq_cross u v u' v' : veq 3 u u' -> veq 3 v v' -> forall i, cross u v i = cross u' v' i.
  Proof. intros U V i. unfold cross. rewrite !U, !V by lia. reflexivity. Qed.
  Lemma sf_normal h w : 2 <= fH f -> 2 <= fW f -> h < fH f -> w < fW f -> forall j, normal f b 0 h w j = normal f' b' 0 h w j.
  Proof.
    intros HH HW Hh Hw j. pose proof S as (_ & _ & EH & EW & _). unfold normal. rewrite sf_dep by assumption. f_equal.
    assert (TH : veq 3 (tangent_h f b 0 h w) (tangent_h f' b' 0 h w)).
    { intros i Hi. unfold tangent_h. rewrite EW. rewrite !sf_vertex by lia. reflexivity. }
    assert (TV : veq 3 (tangent_v f b 0 h w) (tangent_v f' b' 0 h w)).
    { intros i Hi. unfold tangent_v. rewrite EH. rewrite !sf_vertex by lia. reflexivity. }
    pose proof (veq_cross _ _ _ _ TH TV) as C. unfold unitize, norm, dot. cbn [rsum]. rewrite !C. reflexivity.
  Qed.
  Lemma sf_gnormal h w : 2 <= fH f -> 2 <= fW f -> h < fH f -> w < fW f -> veq 3 (global_normal f b 0 h w) (global_normal f' b' 0 h w).
  Proof.
    intros HH HW Hh Hw j Hj. unfold global_normal. pose proof S as (_ & _ & _ & _ & _ & _ & HT).
    destruct (fpose f) as [T|], (fpose f') as [T'|]; try (destruct HT); [|now apply sf_normal].
    unfold rot_of, mvec. apply rsum_ext. intros k Hk. cbn [opt_rel] in HT. rewrite HT, sf_normal by (assumption || lia). reflexivity.
  Qed.
  Lemma sf_attr x h w : Cmp col x -> 2 <= fH f -> 2 <= fW f -> h < fH f -> w < fW f -> veq 3 (frame_attr f x b h w) (frame_attr f' x b' h w).
  Proof.
    intros CX HH HW Hh Hw. destruct x; [now apply sf_gvertex|now apply sf_gnormal| |intros ? ?; reflexivity].
    destruct S as (_ & _ & _ & _ & _ & P & _). cbn [frame_attr]. destruct CX as [CX|CX]; [now apply P|congruence].
  Qed.
  Lemma sf_alpha sg h w : h < fH f -> w < fW f -> frame_alpha sg f b h w = frame_alpha sg f' b' h w.
  Proof.
    intros Hh Hw. unfold frame_alpha, alpha_spec, norm, dot. cbn [rsum]. pose proof (sf_vertex h w Hh Hw) as V. rewrite !V by lia. reflexivity.
  Qed.
  Lemma sf_chosen : chosen true f b = chosen true f' b'.
  Proof.
    pose proof S as (_ & _ & EH & EW & _). unfold chosen. rewrite <- EH, <- EW. apply filter_ext_in. intros [h w] Hq.
    unfold row_major in Hq. apply in_prod_iff in Hq. destruct Hq as [H1 H2]. apply in_seq in H1, H2. cbn [fst snd]. rewrite sf_dep by lia. reflexivity.
  Qed.
  Lemma chosen_in q : In q (chosen true f b) -> fst q < fH f /\ snd q < fW f.
  Proof. intros Hq. unfold chosen in Hq. apply filter_In in Hq. destruct Hq as [Hq _]. destruct q. apply in_prod_iff in Hq. destruct Hq as [H1 H2]. apply in_seq in H1, H2. cbn. lia. Qed.
  Lemma sf_rows x : Cmp col x -> 2 <= fH f -> 2 <= fW f -> frame_rows f x b = frame_rows f' x b'.
  Proof.
    intros CX HH HW. unfold frame_rows. rewrite <- sf_chosen. apply map_ext_in. intros q Hq. apply chosen_in in Hq. apply map_ext_in. intros c Hc. apply sf_attr; try (assumption || apply Hq).
    cbn in Hc. lia.
  Qed.
  Lemma sf_grid d x : Cmp col x -> 2 <= fH f -> 2 <= fW f -> nth b (grid_attr d f x) (mkT2 0 []) = nth b' (grid_attr d f' x) (mkT2 0 []).
  Proof.
    intros CX HH HW. pose proof S as (Hb & Hb' & _). unfold grid_attr.
    rewrite !map_seq_nth by assumption. f_equal. unfold grid_pixels. rewrite <- sf_chosen. apply map_ext_in. intros q Hq. apply filter_In in Hq. destruct Hq as [Hq _]. apply chosen_in in Hq.
    apply map_ext_in. intros c Hc. apply sf_attr; try (assumption || apply Hq). cbn in Hc. lia.
  Qed.
End Frame.

(* ---------------- maps *)
Notation nocloud := (mkT2 0 []).
Definition lst (x : attr) (a : batch RF) : list (t2 R) := match qget x a with Some L => L | None => [] end.
Definition SameMap (col : bool) (a : batch RF) (b : nat) (a' : batch RF) (b' : nat) : Prop :=
  (forall x, qget x a = None <-> qget x a' = None) /\ (forall x, Cmp col x -> nth b (lst x a) nocloud = nth b' (lst x a') nocloud) /\
  (b < len_view RF a <-> b' < len_view RF a').
Section Map.
  Variables (col : bool) (a : batch RF) (b : nat) (a' : batch RF) (b' : nat).
  Hypothesis S : SameMap col a b a' b'.
  Lemma attr_lst u x k : attr_at u x k = fun n j => nth j (nth n (t2r (nth k (lst x u) nocloud)) []) 0%R.
  Proof. unfold attr_at, row_at, lst. destruct (qget x u); [reflexivity|]. destruct k; cbn; apply FunctionalExtensionality.functional_extensionality; intros n; apply FunctionalExtensionality.functional_extensionality; intros j; destruct n, j; reflexivity. Qed.
  Lemma sm_attr x : Cmp col x -> attr_at a x b = attr_at a' x b'.
  Proof. intros CX. destruct S as (_ & E & _). rewrite !attr_lst, E by exact CX. reflexivity. Qed.
  Lemma np_lst u k : npoints u k = length (t2r (nth k (lst Points u) nocloud)).
  Proof. unfold npoints, lst. cbn [qget]. destruct (qp u); [reflexivity|]. destruct k; reflexivity. Qed.
  Lemma sm_np : npoints a b = npoints a' b'.
  Proof. destruct S as (_ & E & _). rewrite !np_lst, E by cmp. reflexivity. Qed.
  Lemma rows_lst u x k : rows_of u x k = t2r (nth k (lst x u) nocloud).
  Proof. unfold rows_of, lst. destruct (qget x u); [reflexivity|]. destruct k; reflexivity. Qed.
  Lemma sm_rows x : Cmp col x -> rows_of a x b = rows_of a' x b'.
  Proof. intros CX. destruct S as (_ & E & _). rewrite !rows_lst, E by exact CX. reflexivity. Qed.
  Lemma sm_real n : real_point a b n <-> real_point a' b' n.
  Proof. unfold real_point. rewrite sm_np. destruct S as (_ & _ & E). rewrite E. tauto. Qed.
End Map.

(* ---------------- tables *)
Definition at_b (b : nat) (rows : list row) : list (nat * (nat * nat)) := map (fun r => (rn r, (rh r, rw r))) (filter (fun r => rb r =? b) rows).
Lemma at_b_in b rows n h w : In (n, (h, w)) (at_b b rows) <-> In (mkRow b n h w) rows.
Proof.
  unfold at_b. rewrite in_map_iff. split.
  - intros ([b0 n0 h0 w0] & E & Hr). cbn in E. injection E as <- <- <-. apply filter_In in Hr. destruct Hr as [Hr Hb]. apply Nat.eqb_eq in Hb. cbn in Hb. now subst.
  - intros Hr. exists (mkRow b n h w). split; [reflexivity|]. apply filter_In. split; [exact Hr|]. apply Nat.eqb_refl.
Qed.
Lemma sorted_unique {A} (P : A -> A -> Prop) l : forall l', (forall x y, P x y -> ~ P y x) -> StronglySorted P l -> StronglySorted P l' -> (forall x, In x l <-> In x l') -> l = l'.
Proof.
  induction l as [|x l IH]; intros l' HA H H' E.
  - destruct l' as [|y l']; [reflexivity|]. destruct (proj2 (E y) (or_introl eq_refl)).
  - destruct l' as [|y l']; [destruct (proj1 (E x) (or_introl eq_refl))|]. apply StronglySorted_inv in H, H'. destruct H as [H1 H2], H' as [H3 H4]. rewrite Forall_forall in H2, H4.
    assert (x = y) as ->.
    { destruct (proj1 (E x) (or_introl eq_refl)) as [K|K]; [congruence|]. destruct (proj2 (E y) (or_introl eq_refl)) as [K'|K']; [congruence|].
      exfalso. exact (HA _ _ (H4 _ K) (H2 _ K')). }
    f_equal. apply IH; try assumption. intros z. split; intros Hz.
    + destruct (proj1 (E z) (or_intror Hz)) as [K|K]; [|exact K]. subst z. exfalso. pose proof (H2 _ Hz). eapply HA; eassumption.
    + destruct (proj2 (E z) (or_intror Hz)) as [K|K]; [|exact K]. subst z. exfalso. pose proof (H4 _ Hz). eapply HA; eassumption.
Qed.
Lemma at_b_sorted (P : row -> row -> Prop) (Q : nat * (nat * nat) -> nat * (nat * nat) -> Prop) b rows :
  (forall r r', rb r = b -> rb r' = b -> P r r' -> Q (rn r, (rh r, rw r)) (rn r', (rh r', rw r'))) -> StronglySorted P rows -> StronglySorted Q (at_b b rows).
Proof.
  intros HQ H. unfold at_b. induction H as [|r rows H IH HF]; cbn; [constructor|]. destruct (Nat.eqb_spec (rb r) b) as [E|]; [|exact IH]. cbn. constructor; [exact IH|].
  rewrite Forall_forall in *. intros t Ht. apply in_map_iff in Ht. destruct Ht as (r' & <- & Hr'). apply filter_In in Hr'. destruct Hr' as [Hr' Eb]. apply Nat.eqb_eq in Eb. apply HQ; auto.
Qed.
Lemma thinned_at d rows b : thinned d rows b = map fst (filter (fun t => divisible d (fst (snd t)) && divisible d (snd (snd t))) (at_b b rows)).
Proof.
  unfold thinned, at_b. induction rows as [|r rows IH]; [reflexivity|]. cbn [filter]. destruct (Nat.eqb_spec (rb r) b); cbn [andb]; [|exact IH].
  cbn [map filter fst snd]. destruct (divisible d (rh r) && divisible d (rw r)); cbn [map fst]; [f_equal|]; exact IH.
Qed.
Lemma fresh_at rows f b : fresh_pixels rows f b = filter (fun q => negb (existsb (fun t => (fst (snd t) =? fst q) && (snd (snd t) =? snd q)) (at_b b rows))) (chosen true f b).
Proof.
  unfold fresh_pixels. apply filter_ext. intros q. f_equal. unfold at_b. induction rows as [|r rows IH]; [reflexivity|]. cbn [existsb filter].
  destruct (Nat.eqb_spec (rb r) b); cbn [andb orb]; [|exact IH]. cbn [map existsb fst snd]. now rewrite IH.
Qed.

Section Tables.
  Variables (col : bool) (a : batch RF) (b : nat) (a' : batch RF) (b' : nat) (f f' : frames) (T T' : nat -> nat -> mat).
  Hypothesis SM : SameMap col a b a' b'.
  Hypothesis SF : SameFrame col f b f' b'.
  Hypothesis ET : fpose f = Some T.
  Hypothesis ET' : fpose f' = Some T'.
  Lemma st_meq : meq 4 4 (T b 0) (T' b' 0).
  Proof. destruct SF as (_ & _ & _ & _ & _ & _ & HT). rewrite ET, ET' in HT. exact HT. Qed.
  Lemma project_ext K K' q q' : meq 4 4 K K' -> veq 3 q q' -> veq 3 (image_pos K q) (image_pos K' q').
  Proof.
    intros HK Hq. assert (E : veq 4 (mvec 4 K (hom 3 q)) (mvec 4 K' (hom 3 q'))).
    { intros i Hi. unfold mvec. apply rsum_ext. intros k Hk. rewrite HK by assumption. f_equal. unfold hom. destruct (Nat.ltb_spec k 3); [now apply Hq|reflexivity]. }
    intros i Hi. unfold image_pos, project_spec, persp. rewrite !E by lia. reflexivity.
  Qed.
  Lemma st_seen n h w : seen_at a f T b n h w <-> seen_at a' f' T' b' n h w.
  Proof.
    unfold seen_at. pose proof SF as (_ & _ & EH & EW & EK & _). rewrite (sm_attr col a b a' b' SM Points), EH, EW by cmp.
    assert (C : veq 3 (to_camera (T b 0) (attr_at a' Points b' n)) (to_camera (T' b' 0) (attr_at a' Points b' n))) by (apply to_camera_ext; [apply st_meq|intros ? ?; reflexivity]).
    pose proof (project_ext _ _ _ _ EK C) as I. cbv zeta. rewrite !I, C by lia. reflexivity.
  Qed.
  Lemma st_active rows rows' : active_spec a f T rows -> active_spec a' f' T' rows' -> at_b b rows = at_b b' rows'.
  Proof.
    intros [H1 H2] [H1' H2']. apply (sorted_unique (fun t t' : nat * (nat * nat) => fst t < fst t')).
    - intros; lia.
    - eapply at_b_sorted; [|exact H1]. intros r r' E E' [K|K]; cbn; lia.
    - eapply at_b_sorted; [|exact H1']. intros r r' E E' [K|K]; cbn; lia.
    - intros (n & h & w). rewrite !at_b_in, H2, H2', (sm_real col a b a' b' SM), st_seen. reflexivity.
  Qed.
  Lemma st_thin ds rows rows' x : Cmp col x -> qget x a <> None -> b < len_view RF a -> active_spec a f T rows -> active_spec a' f' T' rows' ->
    nth b (thin_map ds rows a x) nocloud = nth b' (thin_map ds rows' a' x) nocloud.
  Proof.
    intros CX Hx Hb HA HA'. pose proof (st_active _ _ HA HA') as E. unfold thin_map, thin_attr. pose proof SM as (N & L & LV).
    destruct (qget x a) as [La|] eqn:Ea; [|congruence]. destruct (qget x a') as [La'|] eqn:Ea'; [|destruct (N x) as [_ N2]; rewrite Ea in N2; discriminate (N2 Ea')].
    rewrite !map_seq_nth by (tauto || lia). f_equal. rewrite !thinned_at, E. apply map_ext. intros n. unfold row_at. specialize (L x CX). unfold lst in L. rewrite Ea, Ea' in L. now rewrite L.
  Qed.
  Hypothesis HH : 2 <= fH f.
  Hypothesis HW : 2 <= fW f.
  Lemma dist_ext u v u' v' : veq 3 u u' -> veq 3 v v' -> distance u v = distance u' v'.
  Proof. intros U V. unfold distance, norm, dot. cbn [rsum]. rewrite !U, !V by lia. reflexivity. Qed.
  Lemma st_similar d t n h w : h < fH f -> w < fW f -> similar a f d t (mkRow b n h w) <-> similar a' f' d t (mkRow b' n h w).
  Proof.
    intros Hh Hw. unfold similar. cbn [rb rn]. rewrite !(sm_attr col a b a' b' SM) by cmp. 
    rewrite (dist_ext (frame_point f (mkRow b n h w)) _ (frame_point f' (mkRow b' n h w)) _ (sf_gvertex _ _ _ _ _ SF h w Hh Hw) (fun i _ => eq_refl)).
    assert (D : forall v, dot 3 (frame_normal f (mkRow b n h w)) v = dot 3 (frame_normal f' (mkRow b' n h w)) v).
    { intros v. unfold dot. apply rsum_ext. intros k Hk. unfold frame_normal. cbn [rb rh rw]. rewrite (sf_gnormal _ _ _ _ _ SF) by assumption. reflexivity. }
    rewrite D. reflexivity.
  Qed.
  Lemma st_good n n' h w : h < fH f -> w < fW f -> at_least_as_good a f (mkRow b n h w) (mkRow b n' h w) <-> at_least_as_good a' f' (mkRow b' n h w) (mkRow b' n' h w).
  Proof.
    intros Hh Hw. unfold at_least_as_good, conf. cbn [rb rn]. rewrite !(sm_attr col a b a' b' SM) by cmp.
    assert (D : forall u m, distance u (frame_point f (mkRow b m h w)) = distance u (frame_point f' (mkRow b' m h w))).
    { intros u m. apply dist_ext; [intros ? ?; reflexivity|]. exact (sf_gvertex _ _ _ _ _ SF h w Hh Hw). }
    rewrite !D. reflexivity.
  Qed.
  Lemma good_antisym u k n n' h w : at_least_as_good u k (mkRow b n h w) (mkRow b n' h w) -> at_least_as_good u k (mkRow b n' h w) (mkRow b n h w) -> n = n'.
  Proof. unfold at_least_as_good. cbn [rb rn]. unfold frame_point. cbn [rb rh rw]. intros [A|[A [B|[B C]]]] [A'|[A' [B'|[B' C']]]]; try lra. lia. Qed.
  Lemma pixel_once rows n n' h w : StronglySorted before_pixel rows -> forall c, matched rows c n h w -> matched rows c n' h w -> n = n'.
  Proof.
    unfold matched. intros H c. induction H as [|r rows H IH HF]; [intros []|]. rewrite Forall_forall in HF. intros [K|K] [K'|K'].
    - congruence.
    - subst r. specialize (HF _ K'). unfold before_pixel in HF. cbn in HF. lia.
    - subst r. specialize (HF _ K). unfold before_pixel in HF. cbn in HF. lia.
    - now apply IH.
  Qed.
  Lemma seen_inside u g Tg n h w c : seen_at u g Tg c n h w -> h < fH g /\ w < fW g.
  Proof.
    intros (_ & (A & B) & (C & _) & (D & _)). 
    assert (G : forall z N k, (z < INR N - 1 + / 1000)%R -> (Rabs (z - INR k) <= 1 / 2)%R -> k < N).
    { intros z N k Hz Hr. apply INR_lt. assert (Hk : (INR k - z <= 1/2)%R). { rewrite <- Rabs_Ropp in Hr. apply (Rle_trans _ (Rabs (- (z - INR k)))); [|exact Hr]. replace (INR k - z)%R with (- (z - INR k))%R by ring. apply Rle_abs. } lra. }
    split; eapply G; try eassumption; [apply B|apply A].
  Qed.
  Lemma st_corr_sub d t rows rows' n h w : Correspondences a f T d t rows -> Correspondences a' f' T' d t rows' -> matched rows b n h w -> matched rows' b' n h w.
  Proof.
    intros (_ & P2 & P3 & P4) (_ & Q2 & Q3 & Q4) M. destruct (P3 _ _ _ _ M) as (R & Sn & Sm). destruct (seen_inside _ _ _ _ _ _ _ Sn) as [Hh Hw].
    pose proof R as R'. apply (sm_real col a b a' b' SM) in R'. pose proof Sn as Sn'. apply st_seen in Sn'. pose proof Sm as Sm'. apply (proj1 (st_similar d t n h w Hh Hw)) in Sm'.
    destruct (Q4 _ _ _ _ R' Sn' Sm') as (n1 & M1 & G1). destruct (Q3 _ _ _ _ M1) as (R1 & Sn1 & Sm1).
    apply (sm_real col a b a' b' SM) in R1. apply st_seen in Sn1. apply (proj2 (st_similar d t n1 h w Hh Hw)) in Sm1.
    destruct (P4 _ _ _ _ R1 Sn1 Sm1) as (n2 & M2 & G2). pose proof (pixel_once _ _ _ _ _ P2 _ M2 M) as ->. apply (proj2 (st_good n1 n h w Hh Hw)) in G1.
    rewrite (good_antisym _ _ _ _ _ _ G2 G1). exact M1.
  Qed.
End Tables.
Lemma same_map_sym col a b a' b' : SameMap col a b a' b' -> SameMap col a' b' a b.
Proof. intros (A & B & C). split; [intros x; now rewrite A|]. split; [intros x CX; now rewrite B|]. tauto. Qed.
Lemma meq_sym' m n (A B : mat) : meq m n A B -> meq m n B A.
Proof. intros H i j Hi Hj. symmetry. now apply H. Qed.
Lemma same_frame_sym col f b f' b' : SameFrame col f b f' b' -> SameFrame col f' b' f b.
Proof.
  intros (A & B & C & D & E & P & G). split; [exact B|]. split; [exact A|]. split; [now symmetry|]. split; [now symmetry|]. split; [now apply meq_sym'|]. split.
  - rewrite <- C, <- D. intros h w Hh Hw. destruct (P h w Hh Hw) as (P1 & P2 & P3). split; [now symmetry|]. split; [intros CX i Hi; symmetry; now apply P2|intros i Hi; symmetry; auto].
  - destruct (fpose f), (fpose f'); cbn in *; try exact G. now apply meq_sym'.
Qed.
Lemma st_corr col a b a' b' f f' T T' d t rows rows' : SameMap col a b a' b' -> SameFrame col f b f' b' -> fpose f = Some T -> fpose f' = Some T' -> 2 <= fH f -> 2 <= fW f ->
  Correspondences a f T d t rows -> Correspondences a' f' T' d t rows' -> at_b b rows = at_b b' rows'.
Proof.
  intros SM SF ET ET' HH HW C C'. pose proof SF as (_ & _ & EH & EW & _). pose proof C as (_ & S & _). pose proof C' as (_ & S' & _).
  apply (sorted_unique (fun t t' : nat * (nat * nat) => fst (snd t) < fst (snd t') \/ fst (snd t) = fst (snd t') /\ snd (snd t) < snd (snd t'))).
  - intros; lia.
  - eapply at_b_sorted; [|exact S]. intros r r' E E' [K|K]; cbn; lia.
  - eapply at_b_sorted; [|exact S']. intros r r' E E' [K|K]; cbn; lia.
  - intros (n & h & w). rewrite !at_b_in. split; intros M.
    + eapply (st_corr_sub col a b a' b' f f' T T'); eassumption.
    + eapply (st_corr_sub col a' b' a b f' f T' T); try eassumption; [now apply same_map_sym|now apply same_frame_sym|lia|lia].
Qed.
