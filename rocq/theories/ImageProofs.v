(* normalize_image and channels_first (C61). *)
From Coq Require Import Reals List Arith Bool ZArith Lia Lra.
From Flocq Require Import Core.
From Verif Require Import Res MatSpec TensorModel ImageModel ImageSpec.
Import ListNotations.
Local Open Scope nat_scope.

Lemma p_channels_first x pre h w c : shape x = pre ++ [h; w; c] ->
  exists y, channels_first (Img x) = Ok y /\ shape y = pre ++ [c; h; w] /\ forall p i j k, entry3 y p k i j = entry3 x p i j k.
Proof.
  intros E. unfold shape in *. assert (D : dims x = c :: w :: h :: rev pre) by (rewrite <- (rev_involutive (dims x)), E, rev_app_distr; reflexivity).
  cbn [channels_first]. rewrite D. eexists. split; [reflexivity|]. cbn [dims at_ entry3]. split; [|reflexivity].
  cbn [rev]. rewrite rev_involutive, <- !app_assoc. reflexivity.
Qed.
Lemma p_channels_inverse x y : channels_first (Img x) = Ok y -> dims (channels_last y) = dims x /\ forall ix, length ix = length (dims x) -> at_ (channels_last y) ix = at_ x ix.
Proof.
  cbn [channels_first]. destruct (dims x) as [|c [|w [|h r]]] eqn:D; try discriminate. intros E. injection E as <-. cbn. split; [reflexivity|].
  intros [|c' [|w' [|h' ix]]] L; cbn in L; try lia. reflexivity.
Qed.
Lemma p_channels_rank x : length (shape x) < 3 -> channels_first (Img x) = Err ValueError.
Proof. unfold shape. rewrite rev_length. intros H. cbn [channels_first]. destruct (dims x) as [|c [|w [|h r]]]; cbn in H; try lia; reflexivity. Qed.
Lemma p_image_types rnd : normalize_image rnd ImgBad = Err TypeError /\ channels_first ImgBad = Err TypeError.
Proof. split; reflexivity. Qed.
Lemma p_normalize_range rnd x : Rounds rnd -> exists y, normalize_image rnd (Img x) = Ok y /\ dims y = dims x /\
  forall ix, (0 <= at_ x ix <= 255 -> 0 <= at_ y ix <= 1)%R.
Proof.
  intros (rnd_mono & rnd_0 & rnd_1). eexists. split; [reflexivity|]. split; [reflexivity|]. cbn [at_]. intros ix H. split.
  - rewrite <- rnd_0. apply rnd_mono. lra.
  - rewrite <- rnd_1. apply rnd_mono. lra.
Qed.
Lemma p_normalize_order rnd x y : Rounds rnd -> normalize_image rnd (Img x) = Ok y -> forall ix jx, (at_ x ix <= at_ x jx -> at_ y ix <= at_ y jx)%R.
Proof. intros (rnd_mono & _) E. injection E as <-. intros ix jx H. cbn [at_]. apply rnd_mono. lra. Qed.
Lemma p_normalize_exact rnd x y : (forall z, (0 <= z <= 1 -> Rabs (rnd z - z) <= / 1024)%R) -> normalize_image rnd (Img x) = Ok y ->
  forall ix (n : nat), n <= 255 -> at_ x ix = INR n -> (Rabs (255 * at_ y ix - INR n) < / 2)%R.
Proof.
  intros Hr E. injection E as <-. intros ix n Hn Hx. cbn [at_]. rewrite Hx.
  assert (B : (0 <= INR n / 255 <= 1)%R). { apply le_INR in Hn. pose proof (pos_INR n). replace (INR 255) with 255%R in Hn by (rewrite INR_IZR_INZ; reflexivity). lra. }
  specialize (Hr _ B). apply Rabs_def1; unfold Rabs in Hr; destruct (Rcase_abs _) in Hr; lra.
Qed.
(* float32 *)
Definition rnd32 (x : R) : R := round radix2 (FLT_exp (-149) 24) ZnearestE x.
Lemma rnd32_rounds : Rounds rnd32.
Proof.
  unfold Rounds, rnd32. repeat split.
  - intros x y H. apply round_le; [apply FLT_exp_valid; reflexivity|apply valid_rnd_N|exact H].
  - apply round_0. apply valid_rnd_N.
  - apply round_generic; [apply valid_rnd_N|]. change 1%R with (bpow radix2 0). apply generic_format_bpow. unfold FLT_exp. lia.
Qed.
Lemma rnd32_close z : (0 <= z <= 1 -> Rabs (rnd32 z - z) <= / 1024)%R.
Proof.
  intros H. unfold rnd32. destruct (Req_dec z 0) as [->|N]; [rewrite round_0 by apply valid_rnd_N; rewrite Rminus_0_r, Rabs_R0; lra|].
  eapply Rle_trans; [apply error_le_half_ulp; apply FLT_exp_valid; reflexivity|].
  assert (U : (ulp radix2 (FLT_exp (-149) 24) z <= ulp radix2 (FLT_exp (-149) 24) 1)%R).
  { apply ulp_le; [apply FLT_exp_valid; reflexivity|apply FLT_exp_monotone|]. rewrite !Rabs_pos_eq by lra. lra. }
  rewrite (ulp_neq_0 _ _ 1%R) in U by lra. unfold cexp in U. replace (mag radix2 1 : Z) with 1%Z in U.
  - replace (FLT_exp (-149) 24 1) with (-23)%Z in U by reflexivity. replace (bpow radix2 (-23)) with (/ 8388608)%R in U by (cbn; lra). lra.
  - symmetry. apply mag_unique. rewrite Rabs_R1. cbn. lra.
Qed.
