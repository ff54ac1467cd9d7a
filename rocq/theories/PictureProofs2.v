(* RGBDImages.plotly: colours only, missing depth, channels first, rejections. *)
From Coq Require Import List Arith ZArith Reals Bool Lia Lra.
From Verif Require Import Res TensorModel PointcloudsModel PointcloudsIndexSpec PointcloudsIndex RgbdModel RgbdSpec RgbdPropProofs ExportModel ExportSpec ExportProofs PictureSpec PictureProofs.
Import ListNotations.
Local Open Scope nat_scope.

(* up to the colour images *)
Lemma run_rgb q s a i b inc : RHist q s false a -> resolves (fB a) i b -> 0 < fL a -> 0 < fH a -> 0 < fW a ->
  exists (y : ten Z) d, (forall l, l < fL a -> shows_rgb a b l (first_at y l)) /\
   dims d = [fW a; fH a; fL a] /\ (forall l h w, l < fL a -> h < fH a -> w < fW a -> at_ d [w; h; l] = fdep a b l h w) /\
   rgbd_plotly (AInt i) inc s =
   (if negb inc then ret (Frames (map (fun q => mkFrame (fst q) (snd q) None) (combine (seq 0 (length (map (first_at y) (seq 0 (fL a))))) (map (first_at y) (seq 0 (fL a))))))
    else do m <- lift (tenmax d);
         match depth_scale m with
         | InfScale => ret RaisedOverflow
         | NanScale => raise ValueError
         | Times sc =>
             let z := mkTen (dims d) (fun j => wrap_uint8 (at_ d j * sc)%R) in
             do deps <- lift (mapM (fun l => encodes (first_at z l)) (seq 0 (last (dims z) 0)));
             ret (Frames (map (fun q => mkFrame (fst q) (fst (snd q)) (Some (snd (snd q), sc)))
                         (combine (seq 0 (length (map (first_at y) (seq 0 (fL a))))) (combine (map (first_at y) (seq 0 (fL a))) deps))))
         end) s.
Proof.
  intros H Hb L0 H0 W0. destruct (p_shows q s false a H) as (_ & _ & (rgb & Er & Sr & Vr) & (dep & Ed & Sd & Vd) & _).
  cbn [img_shape] in Sr, Sd. apply (dims_of rgb [3; fW a; fH a; fL a; fB a]) in Sr. apply (dims_of dep [1; fW a; fH a; fL a; fB a]) in Sd.
  assert (Bb : b < fB a) by apply Hb.
  unfold rgbd_plotly. unfold mbind at 1. cbn [get]. rewrite Er, Ed. unfold mbind at 1, lift at 1. unfold shape at 1. rewrite Sr. cbn [rev app hd].
  rewrite (py_seq _ _ _ Hb). cbv beta iota zeta. set (x := first_at rgb b).
  assert (Dx : dims x = [3; fW a; fH a; fL a]) by (unfold x, first_at; cbn [dims]; rewrite Sr; reflexivity).
  assert (Ax : forall l h w c, l < fL a -> h < fH a -> w < fW a -> c < 3 -> at_ x [c; w; h; l] = frgb a b l h w c).
  { intros l h w c Hl Hh Hw Hc. unfold x, first_at. cbn [at_ app]. exact (Vr b l h w c (conj Bb (conj Hl (conj Hh Hw))) Hc). }
  destruct (max_facts x [0; 0; 0; 0]) as (m & Em & _ & Lm); [rewrite Dx; cbn [rev app]; repeat constructor; assumption|].
  unfold mbind at 1, lift at 1. rewrite Em. cbv beta iota.
  set (y := mkTen (dims x) (fun j => to_uint8 (clampR 0 255 (if Rlt_dec m (11 / 10) then at_ x j * 255 else at_ x j)%R))).
  assert (Dy : dims y = [3; fW a; fH a; fL a]) by exact Dx.
  rewrite Dy; cbn [last]. unfold mbind at 1, lift at 1.
  rewrite (mapM_all _ (first_at y)) by (intros l _; unfold encodes, first_at, ndim; cbn [dims]; rewrite Dy; reflexivity).
  cbv beta iota. set (d := last_at (first_at dep b) 0).
  assert (Dd : dims d = [fW a; fH a; fL a]) by (unfold d, last_at, first_at; cbn [dims]; rewrite Sd; reflexivity).
  assert (Ad : forall l h w, l < fL a -> h < fH a -> w < fW a -> at_ d [w; h; l] = fdep a b l h w).
  { intros l h w Hl Hh Hw. unfold d, last_at, first_at. cbn [at_ app]. exact (Vd b l h w 0 (conj Bb (conj Hl (conj Hh Hw))) (Nat.lt_0_succ 0)). }
  exists y, d. split; [|split; [exact Dd|split; [exact Ad|reflexivity]]].
  intros l Hl. split; [unfold shape, first_at; cbn [dims]; rewrite Dy; reflexivity|]. intros h w c (_ & _ & Hh & Hw) Hc. unfold first_at. cbn [at_ app y].
  rewrite Ax by assumption. split; intros Hd.
  - destruct (Rlt_dec m (11 / 10)) as [G|G]; [rewrite Rmult_comm; apply floor_byte|]. exfalso. apply G. apply Lm. intros ix F. rewrite Dx in F. cbn [rev app] in F.
    destruct (idx4 _ _ _ _ _ F) as (l' & h' & w' & c' & -> & I1 & I2 & I3 & I4). cbn [rev app]. rewrite Ax by assumption. apply Hd; [repeat split; assumption|assumption].
  - destruct (Rlt_dec m (11 / 10)) as [G|G]; [|apply floor_byte]. exfalso. apply Hd. intros l' h' w' c' (_ & I1 & I2 & I3) I4.
    rewrite <- Ax by assumption. apply (proj1 (Lm _) G [l'; h'; w'; c']). rewrite Dx. cbn [rev app]. repeat (apply Forall2_cons; [assumption|]); constructor.
Qed.
Lemma p_frames_rgb : forall q (s : rgbd) a i b, RHist q s false a -> resolves (fB a) i b -> 0 < fL a -> 0 < fH a -> 0 < fW a ->
  exists fs, rgbd_plotly (AInt i) false s = (Ok (Frames fs), s) /\ length fs = fL a /\
    forall l, l < fL a -> exists img, nth_error fs l = Some (mkFrame l img None) /\ shows_rgb a b l img.
Proof.
  intros q s a i b H Hb L0 H0 W0. destruct (run_rgb q s a i b false H Hb L0 H0 W0) as (y & d & Sh & _ & _ & ->). cbn [negb ret].
  eexists. split; [reflexivity|]. split; [rewrite map_length, combine_length, !map_length, !seq_length; lia|].
  intros l Hl. exists (first_at y l). split; [|now apply Sh]. exact (nth_zip _ (first_at y) _ _ Hl).
Qed.
(* a sequence without any depth *)
Lemma p_no_depth : forall q (s : rgbd) a i b, RHist q s false a -> resolves (fB a) i b -> 0 < fL a -> 0 < fH a -> 0 < fW a ->
  (forall l h w, inside a b l h w -> fdep a b l h w = 0%R) -> rgbd_plotly (AInt i) true s = (Ok RaisedOverflow, s).
Proof.
  intros q s a i b H Hb L0 H0 W0 Z0. assert (Bb : b < fB a) by apply Hb. destruct (run_rgb q s a i b true H Hb L0 H0 W0) as (y & d & _ & Dd & Ad & ->). cbn [negb].
  destruct (max_facts d [0; 0; 0]) as (md & Emd & Gd & Ld); [rewrite Dd; cbn [rev app]; repeat constructor; assumption|].
  assert (A0 : forall ix, Forall2 lt ix (rev (dims d)) -> at_ d (rev ix) = 0%R).
  { intros ix F. rewrite Dd in F. cbn [rev app] in F. destruct (idx3 _ _ _ _ F) as (l & h & w & -> & I1 & I2 & I3). cbn [rev app]. rewrite Ad by assumption. apply Z0. repeat split; assumption. }
  assert (M0 : md = 0%R).
  { apply Rle_antisym.
    - destruct (Rle_dec md 0) as [|N]; [assumption|]. assert (P : (0 < md)%R) by lra. apply Gd in P. destruct P as (ix & F & P). rewrite (A0 ix F) in P. lra.
    - destruct (Rle_dec 0 md) as [|N]; [assumption|]. assert (P : (md < 0)%R) by lra. pose proof (proj1 (Ld _) P [0; 0; 0]) as Q.
      assert (F : Forall2 lt [0; 0; 0] (rev (dims d))) by (rewrite Dd; cbn [rev app]; repeat constructor; assumption). specialize (Q F). rewrite (A0 _ F) in Q. lra. }
  unfold mbind at 1, lift at 1. rewrite Emd, M0. unfold depth_scale. destruct (Rlt_dec 0 0); [lra|]. destruct (Req_EM_T 0 0); [reflexivity|congruence].
Qed.
(* channels first: the rows of the image are taken for its channels *)
Lemma p_channels_first : forall q (s : rgbd) a i b inc, RHist q s true a -> resolves (fB a) i b -> 0 < fL a -> 0 < fH a -> 0 < fW a ->
  fW a <> 3 -> fW a <> 4 -> rgbd_plotly (AInt i) inc s = (Err RuntimeError, s).
Proof.
  intros q s a i b inc H Hb L0 H0 W0 W3 W4. destruct (p_shows q s true a H) as (_ & _ & (rgb & Er & Sr & _) & (dep & Ed & _) & _).
  cbn [img_shape] in Sr. apply (dims_of rgb [fW a; fH a; 3; fL a; fB a]) in Sr.
  unfold rgbd_plotly. unfold mbind at 1. cbn [get]. rewrite Er, Ed. unfold mbind at 1, lift at 1. unfold shape at 1. rewrite Sr. cbn [rev app hd].
  rewrite (py_seq _ _ _ Hb). cbv beta iota zeta. set (x := first_at rgb b).
  assert (Dx : dims x = [fW a; fH a; 3; fL a]) by (unfold x, first_at; cbn [dims]; rewrite Sr; reflexivity).
  destruct (max_facts x [0; 0; 0; 0]) as (m & Em & _); [rewrite Dx; cbn [rev app]; repeat (apply Forall2_cons; [lia|]); constructor|].
  unfold mbind at 1, lift at 1. rewrite Em. cbv beta iota.
  set (y := mkTen (dims x) (fun j => to_uint8 (clampR 0 255 (if Rlt_dec m (11 / 10) then at_ x j * 255 else at_ x j)%R))).
  assert (Dy : dims y = [fW a; fH a; 3; fL a]) by exact Dx.
  rewrite Dy; cbn [last]. unfold mbind at 1, lift at 1. destruct (fL a) as [|n]; [lia|]. cbn [seq mapM].
  assert (E : encodes (first_at y 0) = Err RuntimeError).
  { unfold encodes, first_at, ndim. cbn [dims]. rewrite Dy. cbn [removelast length Nat.eqb hd]. destruct (Nat.eqb_spec (fW a) 3); [lia|]. destruct (Nat.eqb_spec (fW a) 4); [lia|]. reflexivity. }
  rewrite E. reflexivity.
Qed.
(* ... and if they are 3 or 4 pixels wide, the pictures are wrong: three rows, the columns as channels *)
Lemma p_channels_first_small : forall q (s : rgbd) a i b, RHist q s true a -> resolves (fB a) i b -> 0 < fL a -> 0 < fH a -> fW a = 3 \/ fW a = 4 ->
  exists fs, rgbd_plotly (AInt i) false s = (Ok (Frames fs), s) /\ length fs = fL a /\
    forall l, l < fL a -> exists img, nth_error fs l = Some (mkFrame l img None) /\ shape img = [3; fH a; fW a].
Proof.
  intros q s a i b H Hb L0 H0 W34. destruct (p_shows q s true a H) as (_ & _ & (rgb & Er & Sr & _) & (dep & Ed & _) & _).
  cbn [img_shape] in Sr. apply (dims_of rgb [fW a; fH a; 3; fL a; fB a]) in Sr.
  unfold rgbd_plotly. unfold mbind at 1. cbn [get]. rewrite Er, Ed. unfold mbind at 1, lift at 1. unfold shape at 1. rewrite Sr. cbn [rev app hd].
  rewrite (py_seq _ _ _ Hb). cbv beta iota zeta. set (x := first_at rgb b).
  assert (Dx : dims x = [fW a; fH a; 3; fL a]) by (unfold x, first_at; cbn [dims]; rewrite Sr; reflexivity).
  destruct (max_facts x [0; 0; 0; 0]) as (m & Em & _); [rewrite Dx; cbn [rev app]; repeat (apply Forall2_cons; [lia|]); constructor|].
  unfold mbind at 1, lift at 1. rewrite Em. cbv beta iota.
  set (y := mkTen (dims x) (fun j => to_uint8 (clampR 0 255 (if Rlt_dec m (11 / 10) then at_ x j * 255 else at_ x j)%R))).
  assert (Dy : dims y = [fW a; fH a; 3; fL a]) by exact Dx.
  rewrite Dy; cbn [last]. unfold mbind at 1, lift at 1.
  rewrite (mapM_all _ (first_at y)).
  2: { intros l _. unfold encodes, first_at, ndim. cbn [dims]. rewrite Dy. cbn [removelast length Nat.eqb hd]. destruct W34 as [ -> | -> ]; reflexivity. }
  cbv beta iota. cbn [negb ret]. eexists. split; [reflexivity|]. split; [rewrite map_length, combine_length, !map_length, !seq_length; lia|].
  intros l Hl. exists (first_at y l). split; [exact (nth_zip _ (first_at y) _ _ Hl)|]. unfold shape, first_at. cbn [dims]. rewrite Dy. reflexivity.
Qed.
Lemma p_pic_rejects : forall q (s : rgbd) cf a i inc, RHist q s cf a ->
  rgbd_plotly ANotInt inc s = (Err TypeError, s) /\ (~ (exists b, resolves (fB a) i b) -> rgbd_plotly (AInt i) inc s = (Err IndexError, s)).
Proof.
  intros q s cf a i inc H. split; [reflexivity|]. intros N. destruct (p_shows q s cf a H) as (_ & _ & (rgb & Er & Sr & _) & (dep & Ed & _) & _).
  unfold rgbd_plotly. unfold mbind at 1. cbn [get]. rewrite Er, Ed. unfold mbind at 1, lift at 1. rewrite Sr.
  replace (hd 0 (img_shape cf a 3)) with (fB a) by (destruct cf; reflexivity).
  destruct (py_nth (seq 0 (fB a)) i) as [b|e] eqn:E; [|apply py_nth_err in E; now subst]. apply py_nth_ok in E. destruct E as (k & Hk & _). rewrite seq_length in Hk. exfalso. eauto.
Qed.
