(* RGBDImages.plotly. *)
From Coq Require Import List Arith ZArith Reals Bool Lia Lra.
From Verif Require Import Res TensorModel PointcloudsModel PointcloudsIndexSpec PointcloudsIndex RgbdModel RgbdSpec RgbdPropProofs ExportModel ExportSpec ExportProofs PictureSpec.
Import ListNotations.
Local Open Scope nat_scope.

(* ---------------------------------------------------------------- entries *)
Lemma in_entries {A} ds : forall (f : list nat -> A) x, In x (entries ds f) <-> exists ix, Forall2 lt ix ds /\ x = f ix.
Proof.
  induction ds as [|d ds IH]; intros f x; cbn [entries].
  - split; [intros [<-|[]]; exists []; split; [constructor|reflexivity]|]. intros (ix & F & ->). inversion F; subst. now left.
  - rewrite in_concat. split.
    + intros (l & Hl & Hx). apply in_map_iff in Hl. destruct Hl as (i & <- & Hi). apply in_seq in Hi. apply IH in Hx. destruct Hx as (ix & F & ->).
      exists (i :: ix). split; [constructor; [lia|exact F]|reflexivity].
    + intros (ix & F & ->). inversion F as [|i d' ix' ds' Hi F' E1 E2]; subst. eexists. split.
      * apply in_map_iff. exists i. split; [reflexivity|]. apply in_seq. lia.
      * apply IH. exists ix'. split; [exact F'|reflexivity].
Qed.
Lemma max_facts t ix0 : Forall2 lt ix0 (rev (dims t)) -> exists m, tenmax t = Ok m /\
  (forall x, (x < m)%R <-> exists ix, Forall2 lt ix (rev (dims t)) /\ (x < at_ t (rev ix))%R) /\
  (forall x, (m < x)%R <-> forall ix, Forall2 lt ix (rev (dims t)) -> (at_ t (rev ix) < x)%R).
Proof.
  intros F. assert (N : entries (rev (dims t)) (fun ix => at_ t (rev ix)) <> []).
  { intros E. assert (I : In (at_ t (rev ix0)) (entries (rev (dims t)) (fun ix => at_ t (rev ix)))) by (apply in_entries; eauto). rewrite E in I. destruct I. }
  destruct (tmax_some _ N) as (m & E & G & L). exists m. split; [exact E|]. split; intros x.
  - rewrite G. split.
    + intros (c & I & H). apply in_entries in I. destruct I as (ix & Fx & ->). eauto.
    + intros (ix & Fx & H). eexists. split; [apply in_entries; eauto|exact H].
  - rewrite L. split.
    + intros H ix Fx. apply H. apply in_entries. eauto.
    + intros H c I. apply in_entries in I. destruct I as (ix & Fx & ->). now apply H.
Qed.
Lemma mapM_all {A B} (f : A -> res B) g l : (forall x, In x l -> f x = Ok (g x)) -> mapM f l = Ok (map g l).
Proof.
  induction l as [|x l IH]; intros H; [reflexivity|]. cbn [mapM map]. rewrite (H x) by now left. cbn [rbind]. rewrite IH; [reflexivity|]. intros y Hy. apply H. now right.
Qed.
(* ---------------------------------------------------------------- the scale *)
Local Open Scope R_scope.
Lemma ln10_pos : 0 < ln 10.
Proof. rewrite <- ln_1. apply ln_increasing; lra. Qed.
Lemma pow10 z : powerRZ 10 z = exp (IZR z * ln 10).
Proof. rewrite powerRZ_Rpower by lra. reflexivity. Qed.
Lemma scale_ok m : 0 < m -> exists e, depth_scale m = Times (powerRZ 10 e) /\ m * powerRZ 10 e <= 255 /\ 255 < m * (10 * powerRZ 10 e).
Proof.
  intros H. unfold depth_scale. destruct (Rlt_dec 0 m); [|lra]. eexists. split; [reflexivity|]. set (x := log10 (255 / m)). set (e := Int_part x).
  destruct (base_Int_part x) as [B1 B2]. fold e in B1, B2. pose proof ln10_pos as P.
  assert (E : exp (x * ln 10) = 255 / m).
  { unfold x, log10. replace (ln (255 / m) / ln 10 * ln 10) with (ln (255 / m)) by (field; lra). apply exp_ln. apply Rmult_lt_0_compat; [lra|now apply Rinv_0_lt_compat]. }
  assert (E10 : 10 = exp (ln 10)) by (symmetry; apply exp_ln; lra).
  assert (Hm : m * (255 / m) = 255) by (field; lra).
  rewrite pow10. split.
  - apply Rle_trans with (m * (255 / m)); [|lra]. apply Rmult_le_compat_l; [lra|]. rewrite <- E. destruct (Req_dec (IZR e) x) as [->|N]; [lra|]. left. apply exp_increasing. apply Rmult_lt_compat_r; lra.
  - apply Rle_lt_trans with (m * (255 / m)); [lra|]. apply Rmult_lt_compat_l; [lra|]. rewrite <- E.
    replace (10 * exp (IZR e * ln 10)) with (exp ((IZR e + 1) * ln 10)) by (rewrite Rmult_plus_distr_r, exp_plus, Rmult_1_l, <- E10; ring).
    apply exp_increasing. apply Rmult_lt_compat_r; lra.
Qed.
Lemma wrap_ok x : 0 <= x <= 255 -> floor_of x (wrap_uint8 x) /\ (0 <= wrap_uint8 x <= 255)%Z.
Proof.
  intros H. unfold wrap_uint8. destruct (Rlt_dec x 0); [lra|]. destruct (base_Int_part x) as [B1 B2].
  assert (0 <= Int_part x)%Z by (assert (-1 < Int_part x)%Z by (apply lt_IZR; lra); lia).
  assert (Int_part x <= 255)%Z by (apply le_IZR; lra). rewrite Z.mod_small by lia. split; [|lia]. split; lra.
Qed.
Local Open Scope nat_scope.
Lemma dims_of {A} (t : ten A) l : shape t = rev l -> dims t = l.
Proof. unfold shape. intros E. rewrite <- (rev_involutive (dims t)), E. apply rev_involutive. Qed.
Lemma idx4 ix a0 a1 a2 a3 : Forall2 lt ix [a0; a1; a2; a3] -> exists l h w c, ix = [l; h; w; c] /\ l < a0 /\ h < a1 /\ w < a2 /\ c < a3.
Proof.
  intros F. inversion F as [|l ? ix1 ? H1 F1]; subst. inversion F1 as [|h ? ix2 ? H2 F2]; subst. inversion F2 as [|w ? ix3 ? H3 F3]; subst. inversion F3 as [|c ? ix4 ? H4 F4]; subst. inversion F4; subst.
  exists l, h, w, c. auto.
Qed.
Lemma idx3 ix a0 a1 a2 : Forall2 lt ix [a0; a1; a2] -> exists l h w, ix = [l; h; w] /\ l < a0 /\ h < a1 /\ w < a2.
Proof.
  intros F. inversion F as [|l ? ix1 ? H1 F1]; subst. inversion F1 as [|h ? ix2 ? H2 F2]; subst. inversion F2 as [|w ? ix3 ? H3 F3]; subst. inversion F3; subst.
  exists l, h, w. auto.
Qed.
Lemma py_seq n i b : resolves n i b -> py_nth (seq 0 n) i = Ok b.
Proof. intros H. rewrite (py_at (seq 0 n) 0 n i b (seq_length n 0) H). f_equal. apply seq_nth. apply H. Qed.
Lemma nth_zip {A B} (f : nat * A -> B) (g : nat -> A) n l : l < n ->
  nth_error (map f (combine (seq 0 (length (map g (seq 0 n)))) (map g (seq 0 n)))) l = Some (f (l, g l)).
Proof.
  intros H. rewrite map_length, seq_length. apply map_nth_error. 
  assert (G : forall k n', nth_error (combine (seq k n') (map g (seq k n'))) l = if l <? n' then Some (k + l, g (k + l)) else None).
  { clear. revert l. induction l as [|l IH]; intros k [|n']; cbn [seq combine map nth_error]; try reflexivity.
    - cbn. now rewrite Nat.add_0_r.
    - rewrite IH. cbn [plus]. replace (k + S l) with (S (k + l)) by lia. destruct (Nat.ltb_spec l n'), (Nat.ltb_spec (S l) (S n')); try reflexivity; lia. }
  rewrite G. destruct (Nat.ltb_spec l n); [reflexivity|lia].
Qed.

Lemma nth_error_zip3 {A B C} (f : nat * (A * B) -> C) (g : nat -> A) (g' : nat -> B) n l : l < n ->
  nth_error (map f (combine (seq 0 (length (map g (seq 0 n)))) (combine (map g (seq 0 n)) (map g' (seq 0 n))))) l = Some (f (l, (g l, g' l))).
Proof.
  intros H. assert (E : combine (map g (seq 0 n)) (map g' (seq 0 n)) = map (fun i => (g i, g' i)) (seq 0 n)).
  { generalize (seq 0 n). intros k. induction k as [|x k IH]; cbn; [reflexivity|now rewrite IH]. }
  rewrite E. replace (length (map g (seq 0 n))) with (length (map (fun i => (g i, g' i)) (seq 0 n))) by now rewrite !map_length. exact (nth_zip f (fun i => (g i, g' i)) n l H).
Qed.
(* ---------------------------------------------------------------- the animation *)
Lemma p_frames : forall q (s : rgbd) a i b, RHist q s false a -> resolves (fB a) i b -> 0 < fL a -> 0 < fH a -> 0 < fW a ->
  (forall l h w, inside a b l h w -> (0 <= fdep a b l h w)%R) -> (exists l h w, inside a b l h w /\ (0 < fdep a b l h w)%R) ->
  exists fs sc, rgbd_plotly (AInt i) true s = (Ok (Frames fs), s) /\ right_scale a b sc /\ length fs = fL a /\
    forall l, l < fL a -> exists img d, nth_error fs l = Some (mkFrame l img (Some (d, sc))) /\ shows_rgb a b l img /\ shows_depth a b l sc d.
Proof.
  intros q s a i b H Hb L0 H0 W0 Dn (l0 & h0 & w0 & I0 & P0). destruct (p_shows q s false a H) as (_ & _ & (rgb & Er & Sr & Vr) & (dep & Ed & Sd & Vd) & _).
  cbn [img_shape] in Sr, Sd. apply (dims_of rgb [3; fW a; fH a; fL a; fB a]) in Sr. apply (dims_of dep [1; fW a; fH a; fL a; fB a]) in Sd.
  assert (Bb : b < fB a) by apply Hb.
  unfold rgbd_plotly. unfold mbind at 1. cbn [get]. rewrite Er, Ed. unfold mbind at 1, lift at 1. unfold shape. rewrite Sr. cbn [rev app hd].
  rewrite (py_seq _ _ _ Hb). cbv beta iota zeta. set (x := first_at rgb b).
  assert (Dx : dims x = [3; fW a; fH a; fL a]) by (unfold x, first_at; cbn [dims]; rewrite Sr; reflexivity).
  assert (Ax : forall l h w c, l < fL a -> h < fH a -> w < fW a -> c < 3 -> at_ x [c; w; h; l] = frgb a b l h w c).
  { intros l h w c Hl Hh Hw Hc. unfold x, first_at. cbn [at_ app]. exact (Vr b l h w c (conj Bb (conj Hl (conj Hh Hw))) Hc). }
  destruct (max_facts x [0; 0; 0; 0]) as (m & Em & _ & Lm); [rewrite Dx; cbn [rev app]; repeat constructor; assumption|].
  unfold mbind at 1, lift at 1. rewrite Em. cbv beta iota.
  set (y := mkTen (dims x) (fun j => to_uint8 (clampR 0 255 (if Rlt_dec m (11 / 10) then at_ x j * 255 else at_ x j)%R))).
  assert (Dy : dims y = [3; fW a; fH a; fL a]) by exact Dx.
  rewrite Dy; cbn [last]. unfold mbind at 1, lift at 1.
  rewrite (mapM_all _ (fun l => first_at y l)) by (intros l _; unfold encodes, first_at, ndim; cbn [dims]; rewrite Dy; reflexivity).
  cbv beta iota. cbn [negb]. set (d := last_at (first_at dep b) 0).
  assert (Dd : dims d = [fW a; fH a; fL a]) by (unfold d, last_at, first_at; cbn [dims]; rewrite Sd; reflexivity).
  assert (Ad : forall l h w, l < fL a -> h < fH a -> w < fW a -> at_ d [w; h; l] = fdep a b l h w).
  { intros l h w Hl Hh Hw. unfold d, last_at, first_at. cbn [at_ app]. exact (Vd b l h w 0 (conj Bb (conj Hl (conj Hh Hw))) (Nat.lt_0_succ 0)). }
  destruct (max_facts d [0; 0; 0]) as (md & Emd & Gd & Ld); [rewrite Dd; cbn [rev app]; repeat constructor; assumption|].
  unfold mbind at 1, lift at 1. rewrite Emd. cbv beta iota.
  assert (Pd : (0 < md)%R).
  { apply Gd. exists [l0; h0; w0]. destruct I0 as (_ & I1 & I2 & I3). split; [rewrite Dd; cbn [rev app]; repeat constructor; assumption|]. cbn [rev app]. rewrite Ad by assumption. exact P0. }
  destruct (scale_ok md Pd) as (e & -> & Up & Lo). set (sc := powerRZ 10 e) in *.
  assert (Psc : (0 < sc)%R) by (apply powerRZ_lt; lra).
  set (z := mkTen (dims d) (fun j => wrap_uint8 (at_ d j * sc)%R)).
  assert (Dz : dims z = [fW a; fH a; fL a]) by exact Dd. rewrite Dz; cbn [last]. unfold mbind at 1, lift at 1.
  rewrite (mapM_all _ (fun l => first_at z l)) by (intros l _; unfold encodes, first_at, ndim; cbn [dims]; rewrite Dz; reflexivity).
  assert (Md : forall l h w, inside a b l h w -> (fdep a b l h w <= md)%R).
  { intros l h w (_ & I1 & I2 & I3). destruct (Rle_dec (fdep a b l h w) md) as [|N]; [assumption|]. exfalso. apply (Rlt_irrefl md). apply Gd. exists [l; h; w].
    split; [rewrite Dd; cbn [rev app]; repeat constructor; assumption|]. cbn [rev app]. rewrite Ad by assumption. lra. }
  assert (Rs : forall l h w, inside a b l h w -> (fdep a b l h w * sc <= 255)%R).
  { intros l h w I. apply Rle_trans with (md * sc)%R; [|exact Up]. apply Rmult_le_compat_r; [lra|]. now apply Md. }
  cbn [ret]. do 2 eexists. split; [reflexivity|]. split; [|split].
  - split; [exists e; reflexivity|]. split; [exact Rs|].
    assert (Ei : (255 / (10 * sc) * (10 * sc) = 255)%R) by (field; lra).
    assert (X : (255 / (10 * sc) < md)%R) by (apply Rmult_lt_reg_r with (10 * sc)%R; [lra|]; rewrite Ei; exact Lo).
    apply Gd in X. destruct X as (ix & F & X). rewrite Dd in F. cbn [rev app] in F. destruct (idx3 _ _ _ _ F) as (l & h & w & -> & I1 & I2 & I3).
    cbn [rev app] in X. rewrite Ad in X by assumption. exists l, h, w. split; [repeat split; assumption|].
    apply Rmult_lt_compat_r with (r := (10 * sc)%R) in X; [|lra]. rewrite Ei in X. exact X.
  - rewrite map_length, combine_length, combine_length, !map_length, !seq_length. lia.
  - intros l Hl. exists (first_at y l), (first_at z l). split; [|split].
    + rewrite (nth_error_zip3 _ _ _ _ _ Hl). reflexivity.
    + split; [unfold shape, first_at; cbn [dims]; rewrite Dy; reflexivity|]. intros h w c (_ & _ & Hh & Hw) Hc. unfold first_at. cbn [at_ app y].
      rewrite Ax by assumption. split; intros Hd.
      * destruct (Rlt_dec m (11 / 10)) as [G|G]; [rewrite Rmult_comm; apply floor_byte|]. exfalso. apply G. apply Lm. intros ix F. rewrite Dx in F. cbn [rev app] in F.
        destruct (idx4 _ _ _ _ _ F) as (l' & h' & w' & c' & -> & I1 & I2 & I3 & I4). cbn [rev app]. rewrite Ax by assumption. apply Hd; [repeat split; assumption|assumption].
      * destruct (Rlt_dec m (11 / 10)) as [G|G]; [|apply floor_byte]. exfalso. apply Hd. intros l' h' w' c' (_ & I1 & I2 & I3) I4.
        rewrite <- Ax by assumption. apply (proj1 (Lm _) G [l'; h'; w'; c']). rewrite Dx. cbn [rev app]. repeat (apply Forall2_cons; [assumption|]); constructor.
    + split; [unfold shape, first_at; cbn [dims]; rewrite Dz; reflexivity|]. intros h w I. destruct I as (I0' & I1 & I2 & I3). unfold first_at. cbn [at_ app z].
      rewrite Ad by assumption. apply wrap_ok. assert (II : inside a b l h w) by (repeat split; assumption). split; [|now apply Rs].
      apply Rmult_le_pos; [now apply Dn|lra].
Qed.
