(* Proofs of the RGB-D frame properties C29-C35. *)
From Coq Require Import Reals List Arith Bool ZArith Lia Lra Sorting.Sorted.
From Verif Require Import Res Fld StructUtilsModel PointcloudsModel PointcloudsSpec PointcloudsIndexSpec PointcloudsCtorSpec
  PointcloudsPropProofs MatSpec GeomSpec TensorModel TensorProofs ProjModel GeomModel RgbdModel RgbdSpec RgbdProofs RgbdOps
  RgbdCloud.
Import ListNotations.
Local Open Scope nat_scope.

Lemma p_shows q s cf a : RHist q s cf a -> RShows s cf a.
Proof. intros H. exact (inv_shows _ _ _ _ (hist_inv _ _ _ _ H)). Qed.

(* ------------------------------------------------------------ C29 *)
Lemma p_vertex q s (cf : bool) a : RHist q s cf a ->
  Reads (fst (vertex_map s)) (fun t => shape t = img_shape cf a 3 /\
    forall b l h w, inside a b l h w ->
      let d := fdep a b l h w in
      let K := fK a b in
      let u := pixel a b l h w in
      let fx := (K 0%nat 0%nat + / 1000000)%R in
      let fy := (K 1%nat 1%nat + / 1000000)%R in
      ((d <= 0)%R -> forall c, c < 3 -> px cf t b l h w c = 0%R) /\
      ((0 < d)%R -> fx <> 0%R -> fy <> 0%R ->
         px cf t b l h w 0 = (d * (u 0%nat - K 0%nat 2%nat * u 2%nat) / fx)%R /\
         px cf t b l h w 1 = (d * (u 1%nat - K 1%nat 2%nat * u 2%nat) / fy)%R /\
         px cf t b l h w 2 = (d * u 2%nat)%R)).
Proof.
  intros H. destruct (p_shows _ _ _ _ H) as (_ & _ & _ & _ & _ & _ & _ & (t & E & St & Ht) & _).
  exists t. split; [exact E|]. split; [exact St|]. intros b l h w Hin. cbv zeta. split.
  - intros Hd c Hc. rewrite Ht by assumption. unfold vertex, keep. destruct (Rlt_dec 0 _); [lra|reflexivity].
  - intros Hd Hx Hy. rewrite !Ht by (try assumption; lia). unfold vertex, keep. destruct (Rlt_dec 0 _); [|lra].
    unfold mvec, kinv, pinhole. cbn [rsum]. repeat split; field; lra.
Qed.
Lemma p_pixel a b l h w : fpix a = None ->
  pixel a b l h w 0 = INR w /\ pixel a b l h w 1 = INR h /\ pixel a b l h w 2 = 1%R.
Proof. intros E. unfold pixel. rewrite E. repeat split. Qed.

Lemma p_vertex_default q s (cf : bool) a : RHist q s cf a -> fpix a = None ->
  Reads (fst (vertex_map s)) (fun t => forall b l h w, inside a b l h w ->
      let d := fdep a b l h w in
      let K := fK a b in
      (0 < d)%R -> (0 < K 0%nat 0%nat)%R -> (0 < K 1%nat 1%nat)%R -> K 0%nat 1%nat = 0%R -> K 1%nat 0%nat = 0%R ->
      let p := px cf t b l h w in
      let u := ((K 0%nat 0%nat * p 0%nat + K 0%nat 1%nat * p 1%nat + K 0%nat 2%nat * p 2%nat) / p 2%nat)%R in
      let v := ((K 1%nat 0%nat * p 0%nat + K 1%nat 1%nat * p 1%nat + K 1%nat 2%nat * p 2%nat) / p 2%nat)%R in
      p 2%nat = d /\
      u = (INR w - (INR w - K 0%nat 2%nat) * / 1000000 / (K 0%nat 0%nat + / 1000000))%R /\
      v = (INR h - (INR h - K 1%nat 2%nat) * / 1000000 / (K 1%nat 1%nat + / 1000000))%R /\
      (INR w <> K 0%nat 2%nat -> u <> INR w) /\ (INR h <> K 1%nat 2%nat -> v <> INR h)).
Proof.
  intros H Ep. destruct (p_vertex _ _ _ _ H) as (t & E & _ & Ht). exists t. split; [exact E|].
  intros b l h w Hin. cbv zeta. intros Hd Hx Hy K01 K10.
  destruct (Ht b l h w Hin) as [_ G]. cbv zeta in G.
  destruct (p_pixel a b l h w Ep) as (P0 & P1 & P2). rewrite P0, P1, P2 in G.
  destruct G as (G0 & G1 & G2); [exact Hd|lra|lra|]. rewrite G0, G1, G2, K01, K10.
  assert (U : forall f c x, (0 < f)%R -> ((f * (fdep a b l h w * (x - c * 1) / (f + / 1000000)) + c * (fdep a b l h w * 1)) / (fdep a b l h w * 1)
     = x - (x - c) * / 1000000 / (f + / 1000000))%R) by (intros; field; lra).
  assert (Ne : forall f c x, (0 < f)%R -> x <> c -> (x - (x - c) * / 1000000 / (f + / 1000000) <> x)%R).
  { intros f c x Hf Hn. intros Heq. apply Hn.
    assert ((x - c) * / 1000000 / (f + / 1000000) = 0)%R by lra.
    assert (x - c = 0)%R; [|lra].
    apply (Rmult_eq_reg_r (/ 1000000 / (f + / 1000000))%R).
    - rewrite Rmult_0_l. unfold Rdiv in *. rewrite <- Rmult_assoc. exact H0.
    - apply Rmult_integral_contrapositive_currified; [lra|]. apply Rinv_neq_0_compat. lra. }
  rewrite <- (U (fK a b 0%nat 0%nat) (fK a b 0%nat 2%nat) (INR w) Hx) in *.
  assert (U0 := U (fK a b 0%nat 0%nat) (fK a b 0%nat 2%nat) (INR w) Hx).
  assert (U1 := U (fK a b 1%nat 1%nat) (fK a b 1%nat 2%nat) (INR h) Hy).
  assert (Q0 : ((fK a b 0%nat 0%nat * (fdep a b l h w * (INR w - fK a b 0%nat 2%nat * 1) / (fK a b 0%nat 0%nat + / 1000000)) +
     0 * (fdep a b l h w * (INR h - fK a b 1%nat 2%nat * 1) / (fK a b 1%nat 1%nat + / 1000000)) + fK a b 0%nat 2%nat * (fdep a b l h w * 1)) / (fdep a b l h w * 1)
     = INR w - (INR w - fK a b 0%nat 2%nat) * / 1000000 / (fK a b 0%nat 0%nat + / 1000000))%R) by (rewrite <- U0; f_equal; ring).
  assert (Q1 : ((0 * (fdep a b l h w * (INR w - fK a b 0%nat 2%nat * 1) / (fK a b 0%nat 0%nat + / 1000000)) +
     fK a b 1%nat 1%nat * (fdep a b l h w * (INR h - fK a b 1%nat 2%nat * 1) / (fK a b 1%nat 1%nat + / 1000000)) + fK a b 1%nat 2%nat * (fdep a b l h w * 1)) / (fdep a b l h w * 1)
     = INR h - (INR h - fK a b 1%nat 2%nat) * / 1000000 / (fK a b 1%nat 1%nat + / 1000000))%R) by (rewrite <- U1; f_equal; ring).
  rewrite Q0, Q1. rewrite U0. split; [lra|]. split; [reflexivity|]. split; [reflexivity|].
  split; intros Hn; apply Ne; assumption.
Qed.

(* ------------------------------------------------------------ C30 *)
Lemma p_global q s (cf : bool) a : RHist q s cf a ->
  exists v g, fst (vertex_map s) = Ok v /\ fst (global_vertex_map s) = Ok g /\
    shape g = img_shape cf a 3 /\
    forall b l h w c, inside a b l h w -> c < 3 ->
      match fpose a with
      | None => px cf g b l h w c = px cf v b l h w c
      | Some T =>
          px cf g b l h w c =
          (if Rlt_dec 0 (fdep a b l h w)
           then T b l c 0%nat * px cf v b l h w 0%nat + T b l c 1%nat * px cf v b l h w 1%nat + T b l c 2%nat * px cf v b l h w 2%nat + T b l c 3%nat
           else 0)%R
      end.
Proof.
  intros H. destruct (p_shows _ _ _ _ H) as (_ & _ & _ & _ & _ & _ & _ & (v & Ev & _ & Hv) & (g & Eg & Sg & Hg) & _).
  exists v, g. split; [exact Ev|]. split; [exact Eg|]. split; [exact Sg|]. intros b l h w c Hin Hc.
  rewrite Hg by assumption. unfold global_vertex. destruct (fpose a) as [T|].
  - unfold keep. destruct (Rlt_dec _ _); [|reflexivity]. unfold act, mvec, rot_of, tr_of. cbn [rsum].
    rewrite !Hv by (try assumption; lia). ring.
  - symmetry. apply Hv; assumption.
Qed.
Lemma p_global_normal q s (cf : bool) a : RHist q s cf a -> 2 <= fH a -> 2 <= fW a ->
  exists n g, fst (normal_map s) = Ok n /\ fst (global_normal_map s) = Ok g /\
    shape g = img_shape cf a 3 /\
    forall b l h w c, inside a b l h w -> c < 3 ->
      match fpose a with
      | None => px cf g b l h w c = px cf n b l h w c
      | Some T => px cf g b l h w c =
          (T b l c 0%nat * px cf n b l h w 0%nat + T b l c 1%nat * px cf n b l h w 1%nat + T b l c 2%nat * px cf n b l h w 2%nat)%R
      end.
Proof.
  intros H H2 W2. destruct (p_shows _ _ _ _ H) as (_ & _ & _ & _ & _ & _ & _ & _ & _ & N & _).
  destruct (N H2 W2) as ((n & En & _ & Hn) & (g & Eg & Sg & Hg)).
  exists n, g. split; [exact En|]. split; [exact Eg|]. split; [exact Sg|]. intros b l h w c Hin Hc.
  rewrite Hg by assumption. unfold global_normal. destruct (fpose a) as [T|].
  - unfold mvec, rot_of. cbn [rsum]. rewrite !Hn by (try assumption; lia). ring.
  - symmetry. apply Hn; assumption.
Qed.

(* ------------------------------------------------------------ C31 *)
Lemma dot3_self_norm u : (norm 3 u * norm 3 u = dot 3 u u)%R.
Proof. unfold norm. apply sqrt_sqrt. unfold dot. cbn [rsum]. nra. Qed.
Lemma unitize_norm u : norm 3 (unitize u) = 0%R /\ norm 3 u = 0%R \/ norm 3 (unitize u) = 1%R /\ norm 3 u <> 0%R.
Proof.
  unfold unitize. destruct (Req_EM_T (norm 3 u) 0) as [E|E].
  - left. split; [|exact E]. rewrite <- E. apply norm_ext. intros i _. field.
  - right. split; [|exact E].
    assert (D : dot 3 (fun j => u j / norm 3 u)%R (fun j => u j / norm 3 u)%R = 1%R).
    { assert (dot 3 (fun j => u j / norm 3 u)%R (fun j => u j / norm 3 u)%R = dot 3 u u / (norm 3 u * norm 3 u))%R as ->.
      { unfold dot. cbn [rsum]. field. exact E. }
      rewrite <- dot3_self_norm. field. exact E. }
    unfold norm at 1. rewrite D. apply sqrt_1.
Qed.
Lemma norm_zero : norm 3 (fun _ => 0%R) = 0%R.
Proof. unfold norm, dot. cbn [rsum]. replace (0 + 0 * 0 + 0 * 0 + 0 * 0)%R with 0%R by ring. apply sqrt_0. Qed.

Lemma p_normal q s (cf : bool) a : RHist q s cf a -> 2 <= fH a -> 2 <= fW a ->
  exists v n, fst (vertex_map s) = Ok v /\ fst (normal_map s) = Ok n /\ shape n = img_shape cf a 3 /\
    forall b l h w, inside a b l h w ->
      let N := px cf n b l h w in
      let th := diff_h cf a v b l h w in
      let tv := diff_v cf a v b l h w in
      let C := cross th tv in
      (norm 3 N = 0 \/ norm 3 N = 1)%R /\
      dot 3 N th = 0%R /\ dot 3 N tv = 0%R /\
      ((fdep a b l h w <= 0)%R -> forall c, c < 3 -> N c = 0%R) /\
      ((0 < fdep a b l h w)%R -> norm 3 C <> 0%R -> norm 3 N = 1%R /\ forall c, c < 3 -> N c = (C c / norm 3 C)%R) /\
      ((0 < fdep a b l h w)%R -> norm 3 C = 0%R -> forall c, c < 3 -> N c = 0%R).
Proof.
  intros H H2 W2. destruct (p_shows _ _ _ _ H) as (_ & _ & _ & _ & _ & _ & _ & (v & Ev & _ & Hv) & _ & N & _).
  destruct (N H2 W2) as ((n & En & Sn & Hn) & _). exists v, n. split; [exact Ev|]. split; [exact En|]. split; [exact Sn|].
  intros b l h w Hin. cbv zeta.
  assert (Eh : veq 3 (diff_h cf a v b l h w) (tangent_h a b l h w)).
  { intros c Hc. unfold diff_h, tangent_h. destruct Hin as (Hb & Hl & Hh & Hw). destruct (Nat.ltb_spec (S w) (fW a)).
    - rewrite (Nat.min_l w) by lia. rewrite !Hv by (unfold inside; lia). reflexivity.
    - rewrite (Nat.min_r w) by lia. rewrite !Hv by (unfold inside; lia). replace (S (fW a - 2)) with w by lia.
      replace (fW a - 2) with (w - 1) by lia. reflexivity. }
  assert (Et : veq 3 (diff_v cf a v b l h w) (tangent_v a b l h w)).
  { intros c Hc. unfold diff_v, tangent_v. destruct Hin as (Hb & Hl & Hh & Hw). destruct (Nat.ltb_spec (S h) (fH a)).
    - rewrite (Nat.min_l h) by lia. rewrite !Hv by (unfold inside; lia). reflexivity.
    - rewrite (Nat.min_r h) by lia. rewrite !Hv by (unfold inside; lia). replace (S (fH a - 2)) with h by lia.
      replace (fH a - 2) with (h - 1) by lia. reflexivity. }
  set (th := tangent_h a b l h w) in *. set (tv := tangent_v a b l h w) in *.
  assert (EN : veq 3 (px cf n b l h w) (normal a b l h w)) by (intros c Hc; apply Hn; assumption).
  assert (EC : veq 3 (cross (diff_h cf a v b l h w) (diff_v cf a v b l h w)) (cross th tv)).
  { intros c Hc. apply cross_ext; assumption. }
  rewrite (norm_ext _ _ EN), (norm_ext _ _ EC).
  assert (D : forall u u' x, veq 3 u u' -> dot 3 (px cf n b l h w) u = x -> dot 3 (px cf n b l h w) u = x) by auto.
  assert (DE : forall u u', veq 3 u u' -> dot 3 (px cf n b l h w) u = dot 3 (normal a b l h w) u').
  { intros u u' E. unfold dot. cbn [rsum]. rewrite !EN, !E by lia. reflexivity. }
  rewrite (DE _ _ Eh), (DE _ _ Et). clear D DE.
  assert (NV : forall c, normal a b l h w c = keep (fdep a b l h w) (unitize (cross th tv) c)) by reflexivity.
  unfold keep in NV. destruct (Rlt_dec 0 (fdep a b l h w)) as [Hd|Hd].
  - assert (NN : norm 3 (normal a b l h w) = norm 3 (unitize (cross th tv))) by (apply norm_ext; intros c _; apply NV).
    rewrite NN.
    assert (Orth : forall u, dot 3 (cross th tv) u = 0%R -> dot 3 (normal a b l h w) u = 0%R).
    { intros u Hu. assert (dot 3 (normal a b l h w) u =
        dot 3 (cross th tv) u * / (if Req_EM_T (norm 3 (cross th tv)) 0 then 1 else norm 3 (cross th tv)))%R as ->.
      { unfold dot. cbn [rsum]. rewrite !NV. unfold unitize, Rdiv. ring. }
      rewrite Hu. ring. }
    destruct (unitize_norm (cross th tv)) as [[U1 U2]|[U1 U2]].
    + split; [left; exact U1|]. split; [apply Orth; unfold dot, cross; cbn [rsum]; ring|].
      split; [apply Orth; unfold dot, cross; cbn [rsum]; ring|]. split; [lra|]. split; [intros _ Q; contradiction|].
      intros _ _ c Hc. rewrite EN by exact Hc. rewrite NV. unfold unitize. destruct (Req_EM_T _ _); [|contradiction].
      assert (Z : dot 3 (cross th tv) (cross th tv) = 0%R) by (rewrite <- dot3_self_norm, U2; ring).
      unfold dot in Z. cbn [rsum] in Z.
      assert (Sq : forall x y z : R, (0 + x * x + y * y + z * z = 0 -> x = 0 /\ y = 0 /\ z = 0)%R).
      { intros x y z Q. assert (Hx := Rle_0_sqr x). assert (Hy := Rle_0_sqr y). assert (Hz := Rle_0_sqr z). unfold Rsqr in *.
        repeat split; (apply Rsqr_0_uniq; unfold Rsqr; lra). }
      destruct (Sq _ _ _ Z) as (Z0 & Z1 & Z2).
      destruct c as [|[|[|c]]]; try lia; rewrite ?Z0, ?Z1, ?Z2; field.
    + split; [right; exact U1|]. split; [apply Orth; unfold dot, cross; cbn [rsum]; ring|].
      split; [apply Orth; unfold dot, cross; cbn [rsum]; ring|]. split; [lra|]. split; [|intros _ Q; contradiction].
      intros _ _. split; [exact U1|]. intros c Hc. rewrite EN by exact Hc. rewrite EC by exact Hc. rewrite NV. unfold unitize.
      destruct (Req_EM_T _ _); [contradiction|reflexivity].
  - assert (Z : norm 3 (normal a b l h w) = 0%R).
    { rewrite <- norm_zero. apply norm_ext. intros c _. apply NV. }
    assert (DZ : forall u, dot 3 (normal a b l h w) u = 0%R) by (intros u; unfold dot; cbn [rsum]; rewrite !NV; ring).
    rewrite Z, !DZ. split; [left; reflexivity|]. split; [reflexivity|]. split; [reflexivity|].
    split; [intros _ c Hc; rewrite EN by exact Hc; apply NV|]. split; intros Q; lra.
Qed.
Lemma p_normal_thin q s cf a : RHist q s cf a -> fH a < 2 \/ fW a < 2 ->
  fst (normal_map s) = Err IndexError /\ fst (global_normal_map s) = Err IndexError.
Proof. intros H T. destruct (p_shows _ _ _ _ H) as (_ & _ & _ & _ & _ & _ & _ & _ & _ & _ & N). exact (N T). Qed.

Lemma p_vertex_inexact q s (cf : bool) a : RHist q s cf a -> fpix a = None ->
  Reads (fst (vertex_map s)) (fun t => forall b l h w, inside a b l h w ->
      let K := fK a b in
      (0 < fdep a b l h w)%R -> (0 < K 0%nat 0%nat)%R -> (0 < K 1%nat 1%nat)%R -> K 0%nat 1%nat = 0%R -> K 1%nat 0%nat = 0%R ->
      INR w <> K 0%nat 2%nat ->
      let p := px cf t b l h w in
      ((K 0%nat 0%nat * p 0%nat + K 0%nat 1%nat * p 1%nat + K 0%nat 2%nat * p 2%nat) / p 2%nat)%R <> INR w).
Proof.
  intros H E. destruct (p_vertex_default _ _ _ _ H E) as (t & Et & Ht). exists t. split; [exact Et|].
  intros b l h w Hin. cbv zeta. intros H1 H2 H3 H4 H5 H6. destruct (Ht b l h w Hin H1 H2 H3 H4 H5) as (_ & _ & _ & G & _).
  exact (G H6).
Qed.

(* ------------------------------------------------------------ C32 *)
Lemma img_teq {A} cf a C (t u : ten A) f : Image cf a C t f -> Image cf a C u f -> teq t u.
Proof.
  intros Ht Hu. pose proof (img_dims _ _ _ _ _ Ht) as Dt. pose proof (img_dims _ _ _ _ _ Hu) as Du.
  destruct Ht as [_ Ht], Hu as [_ Hu]. split; [congruence|]. rewrite Dt. intros ix Hv.
  destruct cf; destruct ix as [|i0 [|i1 [|i2 [|i3 [|i4 [|? ?]]]]]]; cbn in Hv; try tauto; destruct Hv as (V0 & V1 & V2 & V3 & V4 & _).
  - pose proof (Ht i4 i3 i1 i0 i2 ltac:(repeat split; assumption) V2) as E1.
    pose proof (Hu i4 i3 i1 i0 i2 ltac:(repeat split; assumption) V2) as E2. unfold px in *. congruence.
  - pose proof (Ht i4 i3 i2 i1 i0 ltac:(repeat split; assumption) V0) as E1.
    pose proof (Hu i4 i3 i2 i1 i0 ltac:(repeat split; assumption) V0) as E2. unfold px in *. congruence.
Qed.
Lemma shows_same s o cf a : RShows s cf a -> RShows o cf a ->
  same_read (fst (valid_depth_mask s)) (fst (valid_depth_mask o)) /\
  same_read (fst (vertex_map s)) (fst (vertex_map o)) /\
  same_read (fst (normal_map s)) (fst (normal_map o)) /\
  same_read (fst (global_vertex_map s)) (fst (global_vertex_map o)) /\
  same_read (fst (global_normal_map s)) (fst (global_normal_map o)).
Proof.
  intros (_ & _ & _ & _ & _ & _ & S1 & S2 & S3 & S4 & S5) (_ & _ & _ & _ & _ & _ & O1 & O2 & O3 & O4 & O5).
  assert (Q : forall (A : Type) (x y : res (ten A)) C f, Reads x (fun t => Image cf a C t f) -> Reads y (fun t => Image cf a C t f) ->
    same_read x y).
  { intros A x y C f (t & -> & Ht) (u & -> & Hu). exact (img_teq _ _ _ _ _ _ Ht Hu). }
  split; [eapply Q; eassumption|]. split; [eapply Q; eassumption|].
  destruct (le_lt_dec 2 (fH a)) as [Hh|Hh].
  - destruct (le_lt_dec 2 (fW a)) as [Hw|Hw].
    + destruct (S4 Hh Hw) as [S41 S42], (O4 Hh Hw) as [O41 O42].
      split; [eapply Q; eassumption|]. split; eapply Q; eassumption.
    + destruct (S5 (or_intror Hw)) as [-> ->], (O5 (or_intror Hw)) as [-> ->]. split; [reflexivity|].
      split; [eapply Q; eassumption|reflexivity].
  - destruct (S5 (or_introl Hh)) as [-> ->], (O5 (or_introl Hh)) as [-> ->]. split; [reflexivity|].
    split; [eapply Q; eassumption|reflexivity].
Qed.
Definition as_pix (a : frames) : frames :=
  mkFrames (fB a) (fL a) (fH a) (fW a) (frgb a) (fdep a) (fK a) (fpose a) (Some (pixel a)).
Lemma p_fresh_same q s cf a : RHist q s cf a ->
  exists rgb depth intr o,
    r_rgb s = Some rgb /\ r_depth s = Some depth /\ r_intr s = Some intr /\
    rgbd_new (TTen rgb) (TTen depth) (TTen intr) (arg (r_poses s)) (r_cf s) (arg (r_pix s)) = Ok o /\
    same_read (fst (valid_depth_mask s)) (fst (valid_depth_mask o)) /\
    same_read (fst (vertex_map s)) (fst (vertex_map o)) /\
    same_read (fst (normal_map s)) (fst (normal_map o)) /\
    same_read (fst (global_vertex_map s)) (fst (global_vertex_map o)) /\
    same_read (fst (global_normal_map s)) (fst (global_normal_map o)).
Proof.
  intros H. pose proof (hist_inv _ _ _ _ H) as Hi.
  destruct (inv_inputs _ _ _ _ Hi) as (r & d & i & E1 & E2 & E3 & H1 & H2 & H3).
  pose proof Hi as ((A0 & _) & _ & _ & _ & _ & A6 & A7 & _).
  exists r, d, i.
  assert (TA : forall x, ten_of (arg x) = x) by (intros [x|]; reflexivity).
  assert (NA : forall x, arg x <> TOther) by (intros [x|]; discriminate).
  assert (K : forall a', RShows s cf a' -> Inputs cf a' r d i (r_poses s) (r_pix s) -> exists o,
    rgbd_new (TTen r) (TTen d) (TTen i) (arg (r_poses s)) (r_cf s) (arg (r_pix s)) = Ok o /\ RShows o cf a').
  { intros a' Hs HI. rewrite A0. destruct (new_ok cf a' r d i (arg (r_poses s)) (arg (r_pix s))) as (o & Eo & Ho).
    - rewrite !TA. exact HI.
    - apply NA.
    - apply NA.
    - exists o. split; [exact Eo|]. exact (inv_shows _ _ _ _ Ho). }
  unfold PixOk in A7. destruct (r_pix s) as [P|] eqn:EP.
  - assert (Hs : RShows s cf (as_pix a)) by exact (inv_shows _ _ _ _ Hi).
    destruct (K (as_pix a) Hs) as (o & Eo & Ho).
    { split; [exact H1|]. split; [exact H2|]. split; [exact H3|]. split; [exact A6|exact A7]. }
    exists o. split; [exact E1|]. split; [exact E2|]. split; [exact E3|]. split; [exact Eo|].
    exact (shows_same _ _ _ _ Hs Ho).
  - pose proof (inv_shows _ _ _ _ Hi) as Hs. destruct (K a Hs) as (o & Eo & Ho).
    { split; [exact H1|]. split; [exact H2|]. split; [exact H3|]. split; [exact A6|]. cbn. rewrite A7. exact I. }
    exists o. split; [exact E1|]. split; [exact E2|]. split; [exact E3|]. split; [exact Eo|].
    exact (shows_same _ _ _ _ Hs Ho).
Qed.

(* setters *)
Lemma p_setters q s cf a : RHist q s cf a ->
  (forall t f, Image cf a 3 t f -> exists s', set_rgb (TTen t) s = (Ok tt, s') /\ RHist q s' cf (with_frgb f a)) /\
  (forall t K, Intr a t K -> exists s', set_intr (TTen t) s = (Ok tt, s') /\ RHist q s' cf (with_fK K a)) /\
  (forall t T, Poses a t T -> exists s', set_poses (TTen t) s = (Ok tt, s') /\ RHist q s' cf (with_fpose (Some T) a)) /\
  (exists s', set_poses TNone s = (Ok tt, s') /\ RHist q s' cf (with_fpose None a)).
Proof.
  intros H. pose proof (hist_inv _ _ _ _ H) as Hi. split; [|split; [|split]].
  - intros t f Ht. destruct (set_rgb_inv _ _ _ _ t f Hi Ht) as (s' & E & _). exists s'. split; [exact E|].
    eapply h_set_rgb; eassumption.
  - intros t K Ht. destruct (set_intr_inv _ _ _ _ t K Hi Ht) as (s' & E & _). exists s'. split; [exact E|].
    eapply h_set_intr; eassumption.
  - intros t T Ht. destruct (set_poses_inv _ _ _ _ t T Hi Ht) as (s' & E & _). exists s'. split; [exact E|].
    eapply h_set_poses; eassumption.
  - eexists. split; [reflexivity|]. eapply h_drop_poses; [exact H|reflexivity].
Qed.
Lemma p_bad_shape q s cf a t : RHist q s cf a ->
  (shape t <> img_shape cf a 3 -> set_rgb (TTen t) s = (Err ValueError, s)) /\
  (shape t <> [fB a; 1; 4; 4] -> set_intr (TTen t) s = (Err ValueError, s)) /\
  (shape t <> [fB a; fL a; 4; 4] -> set_poses (TTen t) s = (Err ValueError, s)) /\
  set_rgb TOther s = (Err TypeError, s) /\ set_intr TOther s = (Err TypeError, s) /\ set_poses TOther s = (Err TypeError, s).
Proof.
  intros H. pose proof (hist_inv _ _ _ _ H) as (_ & (S1 & _ & S3 & S4) & _).
  assert (F : forall x y, x <> y -> shape_eqb x y = false).
  { intros x y Hn. destruct (shape_eqb x y) eqn:E; [|reflexivity]. apply shape_eqb_inv in E. contradiction. }
  unfold set_rgb, set_intr, set_poses. rewrite !mb_get. unfold assert_shape. rewrite S1, S3, S4.
  repeat split; intros Hn; rewrite (F _ _ Hn); reflexivity.
Qed.
(* setting depth on an object whose mask was never read, after a conversion *)
Lemma p_set_depth q s cf a copy : RHist q s cf a ->
  forall o, (to_channels_first copy s = Ok (New o) /\ cf = false) \/ (to_channels_last copy s = Ok (New o) /\ cf = true) ->
  forall t f, Image (negb cf) a 1 t (fun b l h w _ => f b l h w) ->
  exists o', set_depth (TTen t) o = (Ok tt, o') /\ RHist false o' (negb cf) (with_fdep f a).
Proof.
  intros H o Ho t f Ht. pose proof (hist_inv _ _ _ _ H) as Hi.
  assert (D : r_depsh o = Some (img_shape (negb cf) a 1) /\ RHist false o (negb cf) a).
  { pose proof Hi as ((A0 & _) & _). destruct (clone_inv _ _ _ _ Hi) as (c & Ec & Hc & _).
    destruct Ho as [[Ho ->]|[Ho ->]].
    - split; [|exact (h_first _ _ _ _ _ _ H Ho)]. unfold to_channels_first in Ho. rewrite A0, andb_false_r, Ec in Ho.
      cbn [rbind] in Ho. unfold run_on in Ho. destruct (first_inv _ _ _ Hc) as (s' & E2 & _ & Hd & _). rewrite E2 in Ho.
      injection Ho as <-. apply Hd. reflexivity.
    - split; [|exact (h_last _ _ _ _ _ _ H Ho)]. unfold to_channels_last in Ho. rewrite A0, orb_true_r, Ec in Ho.
      cbn [rbind negb] in Ho. unfold run_on in Ho. destruct (last_inv _ _ _ Hc) as (s' & E2 & _ & Hd & _). rewrite E2 in Ho.
      injection Ho as <-. apply Hd. reflexivity. }
  destruct D as [D Ho']. 
  assert (E : exists o', set_depth (TTen t) o = (Ok tt, o')).
  { unfold set_depth. rewrite mb_get, D. unfold assert_shape. rewrite (proj1 Ht), (shape_eqb_true _ _ eq_refl). eexists. reflexivity. }
  destruct E as (o' & E). exists o'. split; [exact E|]. eapply h_set_depth; eassumption.
Qed.

(* refutations *)
Lemma p_depth_setter_fresh rgb depth intr poses cf pix s v : v <> TNone ->
  rgbd_new rgb depth intr poses cf pix = Ok s -> set_depth v s = (Err AttributeError, s).
Proof.
  intros Hv H. assert (r_depsh s = None).
  { unfold rgbd_new in H. repeat (match type of H with context [guard ?b _] => destruct b; [cbn [guard rbind] in H|discriminate] end).
    destruct rgb; try discriminate. destruct depth; try discriminate. destruct intr; try discriminate.
    repeat (match type of H with context [guard ?b _] => destruct b; [cbn [guard rbind] in H|discriminate] end).
    cbv zeta in H.
    repeat (match type of H with context [guard ?b _] => destruct b; [cbn [guard rbind] in H|discriminate] end).
    injection H as <-. reflexivity. }
  unfold set_depth. rewrite mb_get, H0. destruct v; [contradiction|reflexivity|reflexivity].
Qed.
(* the stale mask *)
Lemma mask_after q s cf a : Inv q s cf a -> exists m, fst (valid_depth_mask s) = Ok m /\
  valid_depth_mask s = (Ok m, after_read RdMask s) /\ r_mask (after_read RdMask s) = Some m /\ Image cf a 1 m (maskf a) /\
  after_read RdMask s = with_vmask (Some m) s.
Proof.
  intros Hi. destruct (mask_read _ _ _ _ Hi) as (m & E & Hm). exists m. unfold after_read. rewrite E. cbn. auto.
Qed.
Lemma mask_cached s m : r_mask s = Some m -> valid_depth_mask s = (Ok m, s).
Proof. intros E. unfold valid_depth_mask. rewrite mb_get, E. reflexivity. Qed.
Lemma set_depth_mask t s s' : set_depth (TTen t) s = (Ok tt, s') -> r_mask s' = r_mask s.
Proof.
  unfold set_depth. rewrite mb_get. destruct (r_depsh s); [|discriminate]. unfold mbind, lift.
  destruct (assert_shape t l); [|discriminate]. intros E. injection E as <-. reflexivity.
Qed.
Lemma p_depth_stale q s cf a t f s' : RHist q s cf a ->
  set_depth (TTen t) (after_read RdMask s) = (Ok tt, s') ->
  fst (valid_depth_mask s') = fst (valid_depth_mask s) /\
  ((exists b l h w, inside a b l h w /\ ~ ((0 < f b l h w)%R <-> (0 < fdep a b l h w)%R)) -> ~ RShows s' cf (with_fdep f a)).
Proof.
  intros H E. pose proof (hist_inv _ _ _ _ H) as Hi. destruct (mask_after _ _ _ _ Hi) as (m & E1 & E2 & E3 & Hm & E4).
  pose proof (set_depth_mask _ _ _ E) as E5. rewrite E3 in E5. pose proof (mask_cached _ _ E5) as E6.
  rewrite E6, E1. split; [reflexivity|]. intros (b & l & h & w & Hin & Hne) (_ & _ & _ & _ & _ & _ & (m' & Em' & _ & Hm') & _).
  rewrite E6 in Em'. cbn [fst] in Em'. injection Em' as <-. destruct Hm as [_ Hm].
  pose proof (Hm b l h w 0 Hin ltac:(lia)) as V1. pose proof (Hm' b l h w 0 Hin ltac:(lia)) as V2.
  rewrite V1 in V2. cbn [with_fdep fdep] in V2. unfold maskf in V2.
  destruct (Rlt_dec 0 (fdep a b l h w)), (Rlt_dec 0 (f b l h w)); try discriminate; apply Hne; tauto.
Qed.

(* in-place conversion after the mask was read *)
Definition Keeps {A} (v : option (ten bool)) (m : MR A) : Prop :=
  forall s, m (with_vmask v s) = (fst (m s), with_vmask v (snd (m s))).
Lemma keeps_step v (g : rgbd -> res (option (ten R))) (u : option (ten R) -> rgbd -> rgbd) (k : MR unit) :
  (forall s, g (with_vmask v s) = g s) -> (forall x s, u x (with_vmask v s) = with_vmask v (u x s)) -> Keeps v k ->
  Keeps v (mbind get (fun s => mbind (lift (g s)) (fun x => mbind (modify (u x)) (fun _ => k)))).
Proof.
  intros Hg Hu Hk s. rewrite !mb_get. rewrite Hg. unfold mbind, lift. destruct (g s) as [x|e]; [|reflexivity].
  unfold modify. rewrite Hu. apply Hk.
Qed.
Lemma convert_mask p c v s : convert_ p c (with_vmask v s) = (fst (convert_ p c s), with_vmask v (snd (convert_ p c s))).
Proof.
  revert s. unfold convert_.
  repeat (apply keeps_step; [reflexivity|reflexivity|]).
  intros s. rewrite !mb_mod, !mb_get. cbn [with_layout with_vmask r_rgb r_depth].
  destruct (r_rgb s); [|reflexivity]. rewrite !mb_mod. destruct (r_depth s); reflexivity.
Qed.
Lemma step_inv (g : rgbd -> res (option (ten R))) (u : option (ten R) -> rgbd -> rgbd) (k : MR unit) (P : rgbd -> Prop) s s' :
  (mbind get (fun s => mbind (lift (g s)) (fun x => mbind (modify (u x)) (fun _ => k)))) s = (Ok tt, s') ->
  (forall x, g s = Ok x -> k (u x s) = (Ok tt, s') -> P s') -> P s'.
Proof.
  rewrite mb_get. unfold mbind, lift. destruct (g s) as [x|e]; [|discriminate]. intros E H. exact (H x eq_refl E).
Qed.
Lemma convert_vm p c s s' : convert_ p c s = (Ok tt, s') -> r_vm s = None -> r_vm s' = None.
Proof.
  unfold convert_. intros E Hv.
  apply (step_inv _ _ _ (fun s' => r_vm s' = None) _ _ E); clear E; intros x1 _ E.
  apply (step_inv _ _ _ (fun s' => r_vm s' = None) _ _ E); clear E; intros x2 _ E.
  apply (step_inv _ _ _ (fun s' => r_vm s' = None) _ _ E); clear E; intros x3 E3 E.
  apply (step_inv _ _ _ (fun s' => r_vm s' = None) _ _ E); clear E; intros x4 _ E.
  apply (step_inv _ _ _ (fun s' => r_vm s' = None) _ _ E); clear E; intros x5 _ E.
  apply (step_inv _ _ _ (fun s' => r_vm s' = None) _ _ E); clear E; intros x6 _ E.
  cbn [with_depth with_rgb r_vm] in E3. rewrite Hv in E3. injection E3 as <-.
  rewrite mb_mod, mb_get in E. destruct (r_rgb _); [|discriminate]. rewrite mb_mod in E. destruct (r_depth _); [|discriminate].
  injection E as <-. reflexivity.
Qed.
Lemma vertex_bad_mask s cf a m : Inv false s cf a -> r_vm s = None ->
  (forall x f, Image cf a 3 x f -> tmap2 Rmult x (tmap R_of_bool m) = Err RuntimeError) ->
  fst (vertex_map (with_vmask (Some m) s)) = Err RuntimeError.
Proof.
  intros Hi Ev Hbad. unfold vertex_map, cached. rewrite mb_get. cbn [with_vmask r_vm]. rewrite Ev.
  pose proof Hi as ((A0 & AB & AL & Ah & Aw) & A2 & A3 & (d & A4 & Hd) & (K & A5 & HK) & A6 & A7 & A8 & A9 & A10 & A11).
  set (s0 := with_vmask (Some m) s).
  assert (Hp : exists P, (match r_pix s0 with
       | None => modify (with_pix (Some (pixel_grid (r_B s0) (r_L s0) (r_h s0) (r_w s0))))
       | Some _ => ret tt end) s0 = (Ok tt, with_pix (Some P) s0) /\ Image false a 3 P (fun b l h w => pixel a b l h w)).
  { unfold s0. cbn [with_vmask r_pix r_B r_L r_h r_w]. destruct (r_pix s) as [P|] eqn:Ep.
    - exists P. split; [|exact A7]. unfold ret. f_equal. destruct s; cbn in *; subst; reflexivity.
    - exists (pixel_grid (r_B s) (r_L s) (r_h s) (r_w s)). split; [reflexivity|].
      rewrite AB, AL, Ah, Aw. apply grid_img. exact A7. }
  destruct Hp as (P & Ep & HP).
  destruct (kinv_ok _ _ _ HK) as (ki & kr & E1 & E2 & D & HE).
  destruct (einsum_img cf a kr P _ (fun b _ => kinv (fK a b)) D ltac:(intros; apply HE; assumption) HP) as (e & E3 & He).
  destruct (img_mul cf a e d _ _ He Hd) as (v & E4 & Hv).
  assert (C : exists s9, compute_vertex_map s0 = (Err RuntimeError, s9)).
  { unfold compute_vertex_map. rewrite mb_get. replace (r_depth s0) with (Some d) by (symmetry; exact A4).
    rewrite (mb_ok _ _ _ _ _ Ep). rewrite mb_get.
    cbn [with_pix r_intr r_pix r_L r_cf]. replace (r_intr s0) with (Some K) by (symmetry; exact A5).
    replace (r_L s0) with (fL a) by (symmetry; exact AL). replace (r_cf s0) with cf by (symmetry; exact A0).
    rewrite (mb_lift _ _ _ _ E1), (mb_lift _ _ _ _ E2), (mb_lift _ _ _ _ E3), (mb_lift _ _ _ _ E4), mb_mod.
    unfold masked. erewrite mb_err; [eexists; reflexivity|].
    rewrite (mb_ok _ _ _ m (with_vm (Some v) (with_pix (Some P) s0))) by (apply mask_cached; reflexivity).
    unfold lift. rewrite (Hbad _ _ Hv). reflexivity. }
  destruct C as (s9 & C). rewrite (mb_err _ _ _ _ _ C). reflexivity.
Qed.
Lemma p_first_stale q s a : RHist q s false a ->
  exists s', to_channels_first_ (after_read RdMask s) = (Ok tt, s') /\
    fst (valid_depth_mask s') = fst (valid_depth_mask s) /\
    (~ (fH a = 1 /\ fW a = 1) -> ~ RShows s' true a).
Proof.
  intros H. pose proof (hist_inv _ _ _ _ H) as Hi. destruct (mask_after _ _ _ _ Hi) as (m & E1 & E2 & E3 & Hm & E4).
  assert (Hi0 : Inv false (with_vmask None s) false a).
  { destruct Hi as (A1 & A2 & A3 & A4 & A5 & A6 & A7 & A8 & A9 & A10 & A11). repeat (split; [assumption|]). exact I. }
  destruct (first_inv _ _ _ Hi0) as (s2 & Ec & Hi2 & _).
  assert (Ec' : to_channels_first_ (after_read RdMask s) = (Ok tt, with_vmask (Some m) s2)).
  { rewrite E4. unfold to_channels_first_ in *. rewrite mb_get in *. cbn [with_vmask r_cf] in *.
    destruct Hi as ((A0 & _) & _). rewrite A0 in *.
    change (with_vmask (Some m) s) with (with_vmask (Some m) (with_vmask None s)). rewrite convert_mask, Ec. reflexivity. }
  exists (with_vmask (Some m) s2). split; [exact Ec'|]. rewrite (mask_cached (with_vmask (Some m) s2) m eq_refl). split; [symmetry; exact E1|].
  intros Hne (_ & _ & _ & _ & _ & _ & (m' & Em' & Sm' & _) & _). rewrite (mask_cached (with_vmask (Some m) s2) m eq_refl) in Em'.
  cbn [fst] in Em'. injection Em' as <-. destruct Hm as [Sm _]. rewrite Sm in Sm'. unfold img_shape in Sm'.
  injection Sm' as Q1 Q2 Q3. apply Hne. lia.
Qed.
Lemma p_last_stale q s a : RHist q s true a ->
  exists s', to_channels_last_ (after_read RdMask s) = (Ok tt, s') /\
    fst (valid_depth_mask s') = fst (valid_depth_mask s) /\
    (~ (fH a = 1 /\ fW a = 1) -> ~ RShows s' false a).
Proof.
  intros H. pose proof (hist_inv _ _ _ _ H) as Hi. destruct (mask_after _ _ _ _ Hi) as (m & E1 & E2 & E3 & Hm & E4).
  assert (Hi0 : Inv false (with_vmask None s) true a).
  { destruct Hi as (A1 & A2 & A3 & A4 & A5 & A6 & A7 & A8 & A9 & A10 & A11). repeat (split; [assumption|]). exact I. }
  destruct (last_inv _ _ _ Hi0) as (s2 & Ec & Hi2 & _).
  assert (Ec' : to_channels_last_ (after_read RdMask s) = (Ok tt, with_vmask (Some m) s2)).
  { rewrite E4. unfold to_channels_last_ in *. rewrite mb_get in *. cbn [with_vmask r_cf] in *.
    destruct Hi as ((A0 & _) & _). rewrite A0 in *.
    change (with_vmask (Some m) s) with (with_vmask (Some m) (with_vmask None s)). rewrite convert_mask, Ec. reflexivity. }
  exists (with_vmask (Some m) s2). split; [exact Ec'|]. rewrite (mask_cached (with_vmask (Some m) s2) m eq_refl). split; [symmetry; exact E1|].
  intros Hne (_ & _ & _ & _ & _ & _ & (m' & Em' & Sm' & _) & _). rewrite (mask_cached (with_vmask (Some m) s2) m eq_refl) in Em'.
  cbn [fst] in Em'. injection Em' as <-. destruct Hm as [Sm _]. rewrite Sm in Sm'. unfold img_shape in Sm'.
  injection Sm' as Q1 Q2 Q3. apply Hne. lia.
Qed.
(* ... and then the vertex map cannot even be read *)
Lemma p_first_stale_error rgb depth intr poses pix a s : 
  Inputs false a rgb depth intr (ten_of poses) (ten_of pix) ->
  rgbd_new (TTen rgb) (TTen depth) (TTen intr) poses false pix = Ok s ->
  2 <= fH a -> 2 <= fW a -> fH a <> fW a ->
  exists s', to_channels_first_ (after_read RdMask s) = (Ok tt, s') /\ fst (vertex_map s') = Err RuntimeError.
Proof.
  intros HI Es H2 W2 Hne. pose proof (new_inv _ _ _ _ _ _ _ _ HI Es) as Hi.
  destruct (mask_after _ _ _ _ Hi) as (m & E1 & E2 & E3 & Hm & E4).
  assert (Hv : r_vm s = None).
  { unfold rgbd_new in Es. repeat (match type of Es with context [guard ?b _] => destruct b; [cbn [guard rbind] in Es|discriminate] end).
    cbv zeta in Es.
    repeat (match type of Es with context [guard ?b _] => destruct b; [cbn [guard rbind] in Es|discriminate] end).
    injection Es as <-. reflexivity. }
  assert (Hm0 : r_mask s = None).
  { destruct Hi as (_ & _ & _ & _ & _ & _ & _ & _ & _ & _ & M). destruct (r_mask s); [destruct M; discriminate|reflexivity]. }
  destruct (first_inv _ _ _ Hi) as (s2 & Ec & Hi2 & _).
  assert (Hv2 : r_vm s2 = None).
  { unfold to_channels_first_ in Ec. rewrite mb_get in Ec. destruct Hi as ((A0 & _) & _). rewrite A0 in Ec.
    exact (convert_vm _ _ _ _ Ec Hv). }
  exists (with_vmask (Some m) s2). split.
  - rewrite E4. unfold to_channels_first_ in *. rewrite mb_get in *. cbn [with_vmask r_cf] in *.
    destruct Hi as ((A0 & _) & _). rewrite A0 in *. rewrite convert_mask, Ec. reflexivity.
  - apply (vertex_bad_mask _ true a); [exact Hi2|exact Hv2|]. intros x f Hx.
    pose proof (img_dims _ _ _ _ _ Hx) as Dx. pose proof (img_dims _ _ _ _ _ Hm) as Dm.
    unfold tmap2. cbn [tmap dims]. rewrite Dx, Dm. cbn [bshape].
    destruct (Nat.eqb_spec (fW a) 1); [lia|]. cbn [Nat.eqb rbind].
    destruct (Nat.eqb_spec (fH a) (fW a)); [contradiction|]. destruct (Nat.eqb_spec (fH a) 1); [lia|].
    destruct (Nat.eqb_spec (fW a) 1); [lia|]. reflexivity.
Qed.

(* ------------------------------------------------------------ C33 *)
Lemma p_to_first q s a copy : RHist q s false a ->
  exists o, to_channels_first copy s = Ok (New o) /\ RHist false o true a /\ RShows o true a.
Proof.
  intros H. pose proof (hist_inv _ _ _ _ H) as Hi. destruct (first_total _ _ _ _ copy Hi) as (o & E).
  pose proof (first_new _ _ _ _ _ _ Hi E) as Hn. destruct o as [|o]; [destruct Hn; discriminate|].
  exists o. split; [exact E|]. split; [exact (h_first _ _ _ _ _ _ H E)|exact (inv_shows _ _ _ _ Hn)].
Qed.
Lemma p_to_last q s a copy : RHist q s true a ->
  exists o, to_channels_last copy s = Ok (New o) /\ RHist false o false a /\ RShows o false a.
Proof.
  intros H. pose proof (hist_inv _ _ _ _ H) as Hi. destruct (last_total _ _ _ _ copy Hi) as (o & E).
  pose proof (last_new _ _ _ _ _ _ Hi E) as Hn. destruct o as [|o]; [destruct Hn; discriminate|].
  exists o. split; [exact E|]. split; [exact (h_last _ _ _ _ _ _ H E)|exact (inv_shows _ _ _ _ Hn)].
Qed.
Lemma p_moves_first q s a copy : RHist q s false a ->
  exists o, to_channels_first copy s = Ok (New o) /\
    (exists t u, r_rgb s = Some t /\ r_rgb o = Some u /\ shape t = [fB a; fL a; fH a; fW a; 3] /\ shape u = [fB a; fL a; 3; fH a; fW a] /\
       forall b l h w c, inside a b l h w -> c < 3 -> at_ u (rev [b; l; c; h; w]) = at_ t (rev [b; l; h; w; c])) /\
    (exists t u, r_depth s = Some t /\ r_depth o = Some u /\ shape t = [fB a; fL a; fH a; fW a; 1] /\ shape u = [fB a; fL a; 1; fH a; fW a] /\
       forall b l h w, inside a b l h w -> at_ u (rev [b; l; 0; h; w]) = at_ t (rev [b; l; h; w; 0])).
Proof.
  intros H. destruct (p_to_first _ _ _ copy H) as (o & E & _ & So). exists o. split; [exact E|].
  pose proof (p_shows _ _ _ _ H) as (_ & _ & (t & Et & St & Ht) & (d & Ed & Sd & Hd) & _).
  destruct So as (_ & _ & (t' & Et' & St' & Ht') & (d' & Ed' & Sd' & Hd') & _). split.
  - exists t, t'. repeat (split; [assumption|]). intros b l h w c Hin Hc.
    pose proof (Ht _ _ _ _ _ Hin Hc) as Q1. pose proof (Ht' _ _ _ _ _ Hin Hc) as Q2. unfold px in *. cbn. congruence.
  - exists d, d'. repeat (split; [assumption|]). intros b l h w Hin.
    pose proof (Hd _ _ _ _ 0 Hin ltac:(lia)) as Q1. pose proof (Hd' _ _ _ _ 0 Hin ltac:(lia)) as Q2. unfold px in *. cbn. congruence.
Qed.
Definition same_opt (x y : option (ten R)) : Prop := opt_rel teq x y.
Lemma p_round_trip q s cf a copy copy' : RHist q s cf a ->
  exists o o', (if cf then to_channels_last copy s else to_channels_first copy s) = Ok (New o) /\
    (if cf then to_channels_first copy' o else to_channels_last copy' o) = Ok (New o') /\
    RShows o (negb cf) a /\ RShows o' cf a /\
    opt_rel teq (r_rgb o') (r_rgb s) /\ opt_rel teq (r_depth o') (r_depth s) /\
    same_read (fst (vertex_map o')) (fst (vertex_map s)) /\ same_read (fst (normal_map o')) (fst (normal_map s)) /\
    same_read (fst (global_vertex_map o')) (fst (global_vertex_map s)) /\
    same_read (fst (global_normal_map o')) (fst (global_normal_map s)) /\
    same_read (fst (valid_depth_mask o')) (fst (valid_depth_mask s)).
Proof.
  intros H.
  assert (Q : exists o o', (if cf then to_channels_last copy s else to_channels_first copy s) = Ok (New o) /\
    (if cf then to_channels_first copy' o else to_channels_last copy' o) = Ok (New o') /\
    RShows o (negb cf) a /\ RShows o' cf a).
  { destruct cf.
    - destruct (p_to_last _ _ _ copy H) as (o & E & Ho & So). destruct (p_to_first _ _ _ copy' Ho) as (o' & E' & Ho' & So').
      exists o, o'. auto.
    - destruct (p_to_first _ _ _ copy H) as (o & E & Ho & So). destruct (p_to_last _ _ _ copy' Ho) as (o' & E' & Ho' & So').
      exists o, o'. auto. }
  destruct Q as (o & o' & E1 & E2 & S1 & S2). exists o, o'. repeat (split; [assumption|]).
  pose proof (p_shows _ _ _ _ H) as S0. pose proof (shows_same _ _ _ _ S2 S0) as (M0 & M1 & M2 & M3 & M4).
  destruct S2 as (_ & _ & (t' & Et' & Ht') & (d' & Ed' & Hd') & _).
  destruct S0 as (_ & _ & (t & Et & Ht) & (d & Ed & Hd) & _). rewrite Et', Et, Ed', Ed.
  split; [exact (img_teq _ _ _ _ _ _ Ht' Ht)|]. split; [exact (img_teq _ _ _ _ _ _ Hd' Hd)|]. auto.
Qed.
Lemma p_idempotent q s cf a : RHist q s cf a ->
  (if cf then to_channels_first false s else to_channels_last false s) = Ok Self /\
  (if cf then to_channels_first_ s else to_channels_last_ s) = (Ok tt, s) /\
  exists o, (if cf then to_channels_first true s else to_channels_last true s) = Ok (New o) /\ RShows o cf a.
Proof.
  intros H. pose proof (hist_inv _ _ _ _ H) as Hi. pose proof Hi as ((A0 & _) & _).
  destruct cf.
  - unfold to_channels_first, to_channels_first_. rewrite mb_get, A0. cbn [negb andb]. split; [reflexivity|]. split; [reflexivity|].
    destruct (first_total _ _ _ _ true Hi) as (o & E). pose proof (first_new _ _ _ _ _ _ Hi E) as Hn.
    unfold to_channels_first in E. rewrite A0 in E. cbn [negb andb] in E.
    destruct o as [|o]; [destruct Hn; discriminate|]. exists o. split; [exact E|exact (inv_shows _ _ _ _ Hn)].
  - unfold to_channels_last, to_channels_last_. rewrite mb_get, A0. cbn [negb orb]. split; [reflexivity|]. split; [reflexivity|].
    destruct (last_total _ _ _ _ true Hi) as (o & E). pose proof (last_new _ _ _ _ _ _ Hi E) as Hn.
    unfold to_channels_last in E. rewrite A0 in E. cbn [negb orb] in E.
    destruct o as [|o]; [destruct Hn; discriminate|]. exists o. split; [exact E|exact (inv_shows _ _ _ _ Hn)].
Qed.
Lemma p_in_place s cf a : RHist false s cf a ->
  (exists s', to_channels_first_ s = (Ok tt, s') /\ RHist false s' true a /\ RShows s' true a) /\
  (exists s', to_channels_last_ s = (Ok tt, s') /\ RHist false s' false a /\ RShows s' false a).
Proof.
  intros H. pose proof (hist_inv _ _ _ _ H) as Hi. split.
  - destruct (first_inv _ _ _ Hi) as (s' & E & Hi' & _). exists s'. split; [exact E|].
    split; [exact (h_first_ _ _ _ _ _ H E)|exact (inv_shows _ _ _ _ Hi')].
  - destruct (last_inv _ _ _ Hi) as (s' & E & Hi' & _). exists s'. split; [exact E|].
    split; [exact (h_last_ _ _ _ _ _ H E)|exact (inv_shows _ _ _ _ Hi')].
Qed.
Lemma p_clone q s cf a : RHist q s cf a -> exists o, rgbd_clone s = Ok o /\ RHist false o cf a /\ RShows o cf a /\
  r_rgb o = r_rgb s /\ r_depth o = r_depth s /\ r_intr o = r_intr s /\ r_poses o = r_poses s.
Proof.
  intros H. destruct (clone_inv _ _ _ _ (hist_inv _ _ _ _ H)) as (o & E & Hi & E1 & E2 & E3 & E4 & _).
  exists o. split; [exact E|]. split; [exact (h_clone _ _ _ _ _ H E)|]. split; [exact (inv_shows _ _ _ _ Hi)|auto].
Qed.

(* ------------------------------------------------------------ C34 *)
Lemma elems_last ix e0 e1 : elems ix = Some (e0, e1) -> ~ last_item ix -> e0 <> EInt (-1) /\ e1 <> EInt (-1).
Proof.
  destruct ix as [i|[|x [|y [|z l]]]|]; cbn; try discriminate; intros E; injection E as <- <-; intros H.
  - split; [intros Q; injection Q as ->; auto|discriminate].
  - split; intros ->; apply H; auto.
Qed.
Lemma p_item q s cf a ix kb kl : RHist q s cf a -> Addresses ix a kb kl -> ~ last_item ix -> kb <> [] -> kl <> [] ->
  exists o, rgbd_getitem ix s = Ok o /\ RHist false o cf (pick kb kl a) /\ RShows o cf (pick kb kl a).
Proof.
  intros H Ha Hl Nb Nl. pose proof (hist_inv _ _ _ _ H) as Hi. destruct (addresses_elems _ _ _ _ Ha) as (e0 & e1 & Ee & H0 & H1).
  destruct (elems_last _ _ _ Ee Hl) as [N0 N1]. destruct (elem_pos_ok _ _ _ H0 N0) as [P0 F0]. destruct (elem_pos_ok _ _ _ H1 N1) as [P1 F1].
  destruct (getitem_pos _ _ _ _ _ _ _ _ _ Hi Ee P0 P1 F0 F1) as [_ G]. destruct (G Nb Nl) as (o & E & Ho).
  exists o. split; [exact E|]. split; [exact (h_item _ _ _ _ _ _ _ _ H Ha E)|exact (inv_shows _ _ _ _ Ho)].
Qed.
Lemma p_item_maps q s cf a ix kb kl o : RHist q s cf a -> Addresses ix a kb kl -> rgbd_getitem ix s = Ok o ->
  exists v v' g g', fst (vertex_map s) = Ok v /\ fst (vertex_map o) = Ok v' /\
    fst (global_vertex_map s) = Ok g /\ fst (global_vertex_map o) = Ok g' /\
    forall b l h w c, b < length kb -> l < length kl -> h < fH a -> w < fW a -> c < 3 ->
      px cf v' b l h w c = px cf v (nth b kb 0) (nth l kl 0) h w c /\
      px cf g' b l h w c = px cf g (nth b kb 0) (nth l kl 0) h w c.
Proof.
  intros H Ha E. pose proof (h_item _ _ _ _ _ _ _ _ H Ha E) as Ho.
  assert (F : Forall (fun k => k < fB a) kb /\ Forall (fun k => k < fL a) kl).
  { destruct (addresses_elems _ _ _ _ Ha) as (e0 & e1 & _ & H0 & H1).
    assert (G : forall e n ks, Addresses1 e n ks -> Forall (fun k => k < n) ks).
    { intros e n ks Hk. destruct e as [i|x y z|]; [| |contradiction].
      - destruct Hk as (k & [Hk _] & ->). constructor; [exact Hk|constructor].
      - apply (elem_pos_ok (ESlice x y z)); [exact Hk|discriminate]. }
    split; eapply G; eassumption. }
  destruct F as [F0 F1]. rewrite Forall_nth in F0, F1.
  destruct (p_shows _ _ _ _ H) as (_ & _ & _ & _ & _ & _ & _ & (v & Ev & _ & Hv) & (g & Eg & _ & Hg) & _).
  destruct (p_shows _ _ _ _ Ho) as (_ & _ & _ & _ & _ & _ & _ & (v' & Ev' & _ & Hv') & (g' & Eg' & _ & Hg') & _).
  exists v, v', g, g'. repeat (split; [assumption|]). intros b l h w c Hb Hl Hh Hw Hc.
  assert (I' : inside (pick kb kl a) b l h w) by (repeat split; assumption).
  assert (I0 : inside a (nth b kb 0) (nth l kl 0) h w) by (repeat split; auto).
  rewrite (Hv' _ _ _ _ _ I' Hc), (Hg' _ _ _ _ _ I' Hc), (Hv _ _ _ _ _ I0 Hc), (Hg _ _ _ _ _ I0 Hc).
  split; [apply pick_vertex|apply pick_gvertex].
Qed.
Lemma elem_total e n : e <> EOther -> elem_pos e n = Err ValueError /\ (forall ks, ~ Addresses1 e n ks) \/
  exists ks, elem_pos e n = Ok ks /\ Forall (fun k => k < n) ks /\ (ks = [] \/ Addresses1 e n ks).
Proof.
  intros He. destruct e as [i|x y z|]; [| |contradiction].
  - right. destruct (slice_pos_ok (Some i) (Some (i + 1)%Z) None n ltac:(lia)) as (ks & E & Hf & Hs). exists ks.
    split; [exact E|]. split; [exact Hf|]. destruct (int_slice _ _ _ Hs) as [G1 G2].
    destruct (Z.eq_dec i (-1)) as [->|Hn]; [left; apply G2; auto|].
    destruct (Z_lt_ge_dec i (- Z.of_nat n)); [left; apply G2; auto|].
    destruct (Z_lt_ge_dec i (Z.of_nat n)); [|left; apply G2; lia].
    right. cbn. assert (exists k, resolves n i k) as (k & Hk).
    { destruct (Z_lt_ge_dec i 0); [exists (Z.to_nat (i + Z.of_nat n))|exists (Z.to_nat i)]; unfold resolves; lia. }
    exists k. split; [exact Hk|]. apply G1; assumption.
  - destruct (Z_lt_ge_dec 0 (match z with None => 1%Z | Some k => k end)) as [Hp|Hp].
    + right. destruct (slice_pos_ok x y z n ltac:(lia)) as (ks & E & Hf & Hs). exists ks. split; [exact E|]. split; [exact Hf|].
      right. cbn. split; [destruct z; [exact Hp|exact I]|exact Hs].
    + left. destruct z as [k|]; [|lia]. split.
      * cbn [elem_pos]. unfold slice_pos. destruct (Z.ltb_spec 0 k); [lia|]. reflexivity.
      * intros ks [Q _]. lia.
Qed.
Lemma full_slice n : Addresses1 (ESlice None None None) n (seq 0 n).
Proof.
  split; [exact I|]. left. split; [lia|]. split; [|].
  - generalize 0. induction n as [|n IH]; intros k; cbn; constructor; [apply IH|].
    apply Forall_forall; intros x Hx; apply in_seq in Hx; lia.
  - intros lo hi k. unfold lo, hi. rewrite in_seq. split.
    + intros Hk. split; [lia|]. exists (Z.of_nat k). lia.
    + intros [Hk _]. lia.
Qed.
Lemma elems_addr ix e0 e1 a kb kl : elems ix = Some (e0, e1) -> Addresses1 e0 (fB a) kb -> Addresses1 e1 (fL a) kl ->
  exists kb' kl', Addresses ix a kb' kl' /\ (kb = [] <-> kb' = []) /\ (kl = [] <-> kl' = []).
Proof.
  destruct ix as [i|[|x [|y [|z l]]]|]; cbn [elems]; try discriminate; intros E; injection E as <- <-; intros H0 H1.
  - assert (kl = seq 0 (fL a)).
    { destruct (elem_pos_ok _ _ _ H1 ltac:(discriminate)) as [P1 _].
      destruct (elem_pos_ok _ _ _ (full_slice (fL a)) ltac:(discriminate)) as [P2 _]. congruence. }
    exists kb, kl. split; [split; [exact H0|exact H]|tauto].
  - exists kb, kl. split; [split; assumption|tauto].
Qed.
Lemma p_item_rejects q s cf a ix : RHist q s cf a -> plain ix ->
  ~ (exists kb kl, Addresses ix a kb kl /\ kb <> [] /\ kl <> []) ->
  exists e, rgbd_getitem ix s = Err e /\ (e = IndexError \/ e = ValueError).
Proof.
  intros H Hp Hn. pose proof (hist_inv _ _ _ _ H) as Hi.
  destruct (elems ix) as [[e0 e1]|] eqn:Ee.
  - assert (P : e0 <> EOther /\ e1 <> EOther).
    { destruct ix as [i|[|x [|y [|z l]]]|]; cbn in Ee; try discriminate; injection Ee as <- <-;
        [split; discriminate|]. cbn in Hp. split; intros ->; apply Hp; auto. }
    destruct P as [N0 N1].
    assert (VE : forall e, elem_pos e0 (fB a) = Err e \/ (exists k, elem_pos e0 (fB a) = Ok k) /\ elem_pos e1 (fL a) = Err e ->
       rgbd_getitem ix s = Err e).
    { intros e He. destruct (inv_inputs _ _ _ _ Hi) as (r & d & i & E1 & _). pose proof Hi as ((_ & AB & AL & _) & _).
      assert (G : rgbd_getitem ix s = match elem_pos e0 (r_B s) with Ok kb =>
         match elem_pos e1 (r_L s) with Err e => Err e | Ok kl => rgbd_getitem ix s end | Err e => Err e end).
      { destruct ix as [j|[|x [|y [|z l]]]|]; cbn in Ee; try discriminate; injection Ee as <- <-;
          unfold rgbd_getitem; cbn [rbind]; rewrite E1;
          (destruct (elem_pos _ (r_B s)); [|reflexivity]); cbn [rbind];
          (destruct (elem_pos _ (r_L s)); [|reflexivity]); reflexivity. }
      rewrite G, AB, AL. destruct He as [-> |[[k ->] ->]]; reflexivity. }
    destruct (elem_total e0 (fB a) N0) as [[V0 _]|(kb & P0 & F0 & A0)]; [exists ValueError; auto|].
    destruct (elem_total e1 (fL a) N1) as [[V1 _]|(kl & P1 & F1 & A1)]; [exists ValueError; split; [apply VE; right; eauto|auto]|].
    exists IndexError. split; [|auto]. destruct (getitem_pos _ _ _ _ _ _ _ _ _ Hi Ee P0 P1 F0 F1) as [G _].
    apply G. destruct A0 as [A0|A0]; [auto|]. destruct A1 as [A1|A1]; [auto|].
    destruct (elems_addr _ _ _ _ _ _ Ee A0 A1) as (kb' & kl' & A & Q1 & Q2).
    destruct kb as [|b kb]; [auto|]. destruct kl as [|l kl]; [auto|]. exfalso. apply Hn. exists kb', kl'. split; [exact A|].
    split; intros Z; [apply Q1 in Z|apply Q2 in Z]; discriminate.
  - exists IndexError. split; [|auto]. destruct ix as [i|[|x [|y [|z l]]]|]; cbn in Ee; try discriminate; reflexivity.
Qed.
Lemma p_item_last q s cf a : RHist q s cf a -> 0 < fB a -> 0 < fL a ->
  Addresses (RInt (-1)) a [fB a - 1] (seq 0 (fL a)) /\ rgbd_getitem (RInt (-1)) s = Err IndexError /\
  Addresses (RTuple [EInt 0; EInt (-1)]) a [0] [fL a - 1] /\ rgbd_getitem (RTuple [EInt 0; EInt (-1)]) s = Err IndexError.
Proof.
  intros H HB HL. pose proof (hist_inv _ _ _ _ H) as Hi.
  split; [split; [exists (fB a - 1); split; [unfold resolves; lia|reflexivity]|reflexivity]|]. split; [|split].
  - destruct (elem_pos_ok _ _ _ (full_slice (fL a)) ltac:(discriminate)) as [P1 F1].
    destruct (getitem_pos _ _ _ _ (RInt (-1)) (EInt (-1)) (ESlice None None None) [] _ Hi eq_refl (elem_pos_bad _ _ (or_introl eq_refl)) P1 ltac:(constructor) F1) as [G _].
    apply G. auto.
  - split; [exists 0; split; [unfold resolves; lia|reflexivity]|]. exists (fL a - 1). split; [unfold resolves; lia|reflexivity].
  - destruct (elem_pos_ok (EInt 0) (fB a) [0]) as [P0 F0]; [exists 0; split; [unfold resolves; lia|reflexivity]|discriminate|].
    destruct (getitem_pos _ _ _ _ (RTuple [EInt 0; EInt (-1)]) (EInt 0) (EInt (-1)) [0] [] Hi eq_refl P0 (elem_pos_bad _ _ (or_introl eq_refl)) F0 ltac:(constructor)) as [G _].
    apply G. auto.
Qed.
Lemma p_item_bare s : rgbd_getitem ROther s = Err IndexError.
Proof. reflexivity. Qed.

(* ------------------------------------------------------------ C35 *)
Definition core (s : rgbd) :=
  (r_cf s, r_rgb s, r_depth s, r_intr s, r_poses s, (r_rgbsh s, r_depsh s, r_intrsh s, r_posesh s), (r_B s, r_L s, r_h s, r_w s)).
Definition Pres {A} (m : MR A) : Prop := forall s, core (snd (m s)) = core s.
Lemma pres_bind {A B} (m : MR A) (k : A -> MR B) : Pres m -> (forall x, Pres (k x)) -> Pres (mbind m k).
Proof.
  intros Hm Hk s. unfold mbind. pose proof (Hm s) as E. destruct (m s) as [[x|e] s1]; cbn in *; [|exact E].
  rewrite Hk. exact E.
Qed.
Lemma pres_get {B} (k : rgbd -> MR B) : (forall s, core (snd (k s s)) = core s) -> Pres (mbind get k).
Proof. intros H s. rewrite mb_get. apply H. Qed.
Lemma pres_mod u : (forall s, core (u s) = core s) -> Pres (modify u).
Proof. intros H s. apply H. Qed.
Lemma pres_lift {A} (r : res A) : Pres (lift r).
Proof. intros s. reflexivity. Qed.
Lemma pres_raise {A} e : Pres (raise e : MR A).
Proof. intros s. reflexivity. Qed.
Lemma pres_ret {A} (x : A) : Pres (ret x : MR A).
Proof. intros s. reflexivity. Qed.
Ltac pres := repeat first
  [ apply pres_bind; [|intros ?] | apply pres_lift | apply pres_raise | apply pres_ret
  | apply pres_mod; intros ?; reflexivity ].
Lemma pres_mask : Pres valid_depth_mask.
Proof.
  apply pres_get. intros s. destruct (r_mask s); [reflexivity|]. destruct (r_depth s); [|reflexivity].
  revert s. change (Pres (modify (with_vmask (Some (tmap pos_dec t))) ;;; ret (tmap pos_dec t))). pres.
Qed.
Lemma pres_masked x : Pres (masked x).
Proof. unfold masked. apply pres_bind; [apply pres_mask|intros m; apply pres_lift]. Qed.
Lemma pres_cached f c : Pres c -> Pres (cached f c).
Proof.
  intros Hc. apply pres_get. intros s. destruct (f s); [reflexivity|]. revert s.
  change (Pres (mbind c (fun _ => mbind get (fun s' => match f s' with Some v => ret v | None => raise Unmodelled end)))).
  apply pres_bind; [exact Hc|]. intros _. apply pres_get. intros s. destruct (f s); reflexivity.
Qed.
Lemma pres_vertex : Pres vertex_map.
Proof.
  apply pres_cached. apply pres_get. intros s. destruct (r_depth s) as [d|]; [|reflexivity].
  match goal with |- core (snd (?m s)) = _ => enough (Pres m) as H by apply H end.
  apply pres_bind; [destruct (r_pix s); [apply pres_ret|apply pres_mod; reflexivity]|]. intros _.
  apply pres_get. intros s1. destruct (r_intr s1) as [K|]; [|reflexivity]. destruct (r_pix s1) as [P|]; [|reflexivity].
  match goal with |- core (snd (?m s1)) = _ => enough (Pres m) as H by apply H end.
  apply pres_bind; [apply pres_lift|intros ki]. apply pres_bind; [apply pres_lift|intros kr].
  apply pres_bind; [apply pres_lift|intros e]. apply pres_bind; [apply pres_lift|intros v].
  apply pres_bind; [apply pres_mod; reflexivity|intros _]. apply pres_bind; [apply pres_masked|intros v'].
  apply pres_mod. reflexivity.
Qed.
Lemma pres_gvertex : Pres global_vertex_map.
Proof.
  apply pres_cached. apply pres_get. intros s. destruct (r_poses s) as [p|];
    match goal with |- core (snd (?m s)) = _ => enough (Pres m) as H by apply H end.
  - apply pres_bind; [apply pres_vertex|intros v]. apply pres_bind; [apply pres_lift|intros e].
    apply pres_bind; [apply pres_mod; reflexivity|intros _]. cbv zeta.
    apply pres_bind; [apply pres_mod; reflexivity|intros _]. apply pres_bind; [apply pres_masked|intros g].
    apply pres_mod. reflexivity.
  - apply pres_bind; [apply pres_vertex|intros v]. apply pres_mod. reflexivity.
Qed.
Lemma pres_normal : Pres normal_map.
Proof.
  apply pres_cached. unfold compute_normal_map. apply pres_bind; [apply pres_vertex|intros v].
  apply pres_get. intros s. cbv zeta. match goal with |- core (snd (?m s)) = _ => enough (Pres m) as H by apply H end.
  apply pres_bind; [apply pres_lift|intros dh]. apply pres_bind; [apply pres_lift|intros dv].
  apply pres_bind; [apply pres_lift|intros n]. apply pres_bind; [apply pres_mod; reflexivity|intros _].
  apply pres_bind; [apply pres_masked|intros u]. apply pres_mod. reflexivity.
Qed.
Lemma pres_gnormal : Pres global_normal_map.
Proof.
  apply pres_cached. apply pres_get. intros s. destruct (r_poses s) as [p|];
    match goal with |- core (snd (?m s)) = _ => enough (Pres m) as H by apply H end.
  - apply pres_bind; [apply pres_normal|intros v]. apply pres_bind; [apply pres_lift|intros e].
    apply pres_mod. reflexivity.
  - apply pres_bind; [apply pres_normal|intros v]. apply pres_mod. reflexivity.
Qed.
Lemma pres_parts g : Pres (cloud_parts g).
Proof.
  unfold cloud_parts. apply pres_bind; [destruct g; [apply pres_gvertex|apply pres_vertex]|intros v].
  apply pres_bind; [destruct g; [apply pres_gnormal|apply pres_normal]|intros n]. apply pres_ret.
Qed.
Lemma pres_build g f : Pres (build_clouds g f).
Proof.
  unfold build_clouds. apply pres_bind; [apply pres_parts|]. intros [v n]. destruct f.
  - apply pres_bind; [apply pres_mask|intros m]. apply pres_get. intros s. destruct (r_rgb s); reflexivity.
  - apply pres_get. intros s. destruct (r_rgb s); reflexivity.
Qed.
Lemma pres_cloud g f : Pres (pointclouds_from_rgbdimages g f).
Proof.
  apply pres_get. intros s. match goal with |- core (snd (?m s)) = _ => enough (Pres m) as H by apply H end.
  apply pres_bind; [apply pres_lift|intros _]. apply pres_bind; [apply pres_lift|intros o]. cbv zeta.
  destruct o; [|apply pres_lift]. destruct (negb f && (r_B s =? 0)); [|apply pres_build].
  apply pres_bind; [apply pres_parts|intros ?; apply pres_raise].
Qed.
Lemma core_fields s s' : core s' = core s ->
  r_cf s' = r_cf s /\ r_rgb s' = r_rgb s /\ r_depth s' = r_depth s /\ r_intr s' = r_intr s /\ r_poses s' = r_poses s.
Proof. unfold core. intros E. injection E. auto 10. Qed.
Lemma p_reads_pure r s : 
  let s' := after_read r s in
  r_cf s' = r_cf s /\ r_rgb s' = r_rgb s /\ r_depth s' = r_depth s /\ r_intr s' = r_intr s /\ r_poses s' = r_poses s.
Proof.
  apply core_fields. destruct r; cbn [after_read];
    [apply pres_mask|apply pres_vertex|apply pres_normal|apply pres_gvertex|apply pres_gnormal].
Qed.

Lemma set_depth_after_read r o t s' : set_depth (TTen t) o = (Ok tt, s') -> exists s2, set_depth (TTen t) (after_read r o) = (Ok tt, s2).
Proof.
  assert (E : r_depsh (after_read r o) = r_depsh o).
  { assert (C : core (after_read r o) = core o) by (destruct r; cbn [after_read];
      [apply pres_mask|apply pres_vertex|apply pres_normal|apply pres_gvertex|apply pres_gnormal]).
    unfold core in C. injection C. auto. }
  unfold set_depth. rewrite !mb_get, E. destruct (r_depsh o) as [sh|]; [|discriminate]. unfold mbind, lift.
  destruct (assert_shape t sh); [|discriminate]. intros _. eexists. reflexivity.
Qed.
Lemma p_cloud q s (cf : bool) a g f : RHist q s cf a -> fL a = 1 -> 0 < fB a -> 2 <= fH a -> 2 <= fW a ->
  exists p s', pointclouds_from_rgbdimages g f s = (Ok p, s') /\ Shows RF p (frame_clouds g f a).
Proof.
  intros H HL HB HH HW. destruct (cloud_ok _ _ _ _ g f (hist_inv _ _ _ _ H) HL HB HH HW) as (p & s' & E & Hs & _). exists p, s'. split; [exact E|]. now apply p_hist_shows.
Qed.
Lemma p_cloud_pure q s (cf : bool) a g f r s' : RHist q s cf a -> pointclouds_from_rgbdimages g f s = (r, s') ->
  RShows s' cf a /\ (cf = true -> s' = s) /\
  r_cf s' = r_cf s /\ r_rgb s' = r_rgb s /\ r_depth s' = r_depth s /\ r_intr s' = r_intr s /\ r_poses s' = r_poses s.
Proof.
  intros H E. pose proof (hist_inv _ _ _ _ H) as Hi. split; [exact (inv_shows _ _ _ _ (cloud_inv _ _ _ _ _ _ _ _ Hi E))|].
  split.
  - intros ->. unfold pointclouds_from_rgbdimages in E. rewrite mb_get in E.
    destruct (r_L s =? 1); [|injection E as _ <-; reflexivity]. cbn [guard] in E. rewrite (mb_lift _ _ _ tt eq_refl) in E.
    destruct (last_total _ _ _ _ false Hi) as (o & Eo). rewrite (mb_lift _ _ _ _ Eo) in E. cbv zeta in E.
    pose proof (last_new _ _ _ _ _ _ Hi Eo) as Hn. destruct o as [|s1]; [destruct Hn; discriminate|].
    injection E as _ <-. reflexivity.
  - apply core_fields. pose proof (pres_cloud g f s) as P. rewrite E in P. exact P.
Qed.
Lemma p_cloud_length q s cf a g f : RHist q s cf a -> fL a <> 1 -> pointclouds_from_rgbdimages g f s = (Err ValueError, s).
Proof.
  intros H HL. pose proof (hist_inv _ _ _ _ H) as ((_ & _ & AL & _) & _). unfold pointclouds_from_rgbdimages.
  rewrite mb_get, AL. destruct (Nat.eqb_spec (fL a) 1); [contradiction|]. reflexivity.
Qed.
Lemma parts_thin g s a : Inv true s false a -> fH a < 2 \/ fW a < 2 -> fst (cloud_parts g s) = Err IndexError.
Proof.
  intros Hi HT. unfold cloud_parts. destruct g.
  - destruct (gvertex_read _ _ _ _ Hi) as (v & s1 & E & _ & Hi1). rewrite (mb_ok _ _ _ _ _ E).
    destruct (inv_shows _ _ _ _ Hi1) as (_ & _ & _ & _ & _ & _ & _ & _ & _ & _ & N). destruct (N HT) as [_ N2].
    unfold mbind. destruct (global_normal_map s1) as [[x|e] s2]; cbn in *; congruence.
  - destruct (vertex_read _ _ _ _ Hi) as (v & s1 & E & _ & Hi1 & _). rewrite (mb_ok _ _ _ _ _ E).
    destruct (inv_shows _ _ _ _ Hi1) as (_ & _ & _ & _ & _ & _ & _ & _ & _ & _ & N). destruct (N HT) as [N2 _].
    unfold mbind. destruct (normal_map s1) as [[x|e] s2]; cbn in *; congruence.
Qed.
Lemma p_cloud_thin q s cf a g f : RHist q s cf a -> fL a = 1 -> fH a < 2 \/ fW a < 2 ->
  fst (pointclouds_from_rgbdimages g f s) = Err IndexError.
Proof.
  intros H HL HT. pose proof (hist_inv _ _ _ _ H) as Hi. pose proof Hi as ((_ & _ & AL & _) & _).
  unfold pointclouds_from_rgbdimages. rewrite mb_get, AL, HL. cbn [Nat.eqb guard]. rewrite (mb_lift _ _ _ tt eq_refl).
  destruct (last_total _ _ _ _ false Hi) as (o & Eo). rewrite (mb_lift _ _ _ _ Eo). cbv zeta.
  pose proof (last_new _ _ _ _ _ _ Hi Eo) as Hn.
  assert (B : forall s1 c, Inv true s1 false a ->
    fst ((if negb f && c then (do _ <- cloud_parts g; raise RuntimeError) else build_clouds g f) s1) = Err IndexError).
  { intros s1 c Hi1. pose proof (parts_thin g s1 a Hi1 HT) as P. destruct (negb f && c); unfold build_clouds, mbind at 1;
      destruct (cloud_parts g s1) as [[[v n]|e] s2]; cbn in *; congruence. }
  destruct o as [|s1].
  - destruct Hn as [-> _]. exact (B s (r_B s =? 0) (inv_mono _ _ _ _ Hi)).
  - unfold lift. cbn [fst]. exact (B s1 (r_B s =? 0) (inv_mono _ _ _ _ Hn)).
Qed.
(* counting: one point per pixel of positive depth *)
Lemma p_cloud_counts (g f : bool) a b : b < fB a ->
  exists L, qp (frame_clouds g f a) = Some L /\
    length (t2r (nth b L (mkT2 0 []))) =
    length (filter (fun q => if f then (if Rlt_dec 0 (fdep a b 0 (fst q) (snd q)) then true else false) else true)
              (list_prod (seq 0 (fH a)) (seq 0 (fW a)))).
Proof.
  intros Hb. eexists. split; [reflexivity|]. unfold per_pixel.
  rewrite (nth_indep _ (mkT2 0 []) (mkT2 3 (map (fun q => map ((if g then global_vertex a else vertex a) (fB a) 0 (fst q) (snd q)) [0; 1; 2]) (chosen f a (fB a)))))
    by (rewrite map_length, seq_length; exact Hb).
  rewrite (map_nth (fun b => mkT2 3 (map (fun q => map ((if g then global_vertex a else vertex a) b 0 (fst q) (snd q)) [0; 1; 2]) (chosen f a b)))).
  rewrite seq_nth by exact Hb. cbn [t2r]. rewrite map_length. reflexivity.
Qed.
