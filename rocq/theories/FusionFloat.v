(* float32 represents small integers exactly and 2^24 + 1 not at all (C40). *)
From Coq Require Import Reals List Arith Bool ZArith Lia Lra.
From Flocq Require Import Core.
From Verif Require Import FusionModel.
Local Open Scope nat_scope.

Lemma f32_exact k : (Z.of_nat k < 2 ^ 24)%Z -> f32 (INR k) = INR k.
Proof.
  intros Hk. unfold f32. apply round_generic; [apply valid_rnd_N|]. apply generic_format_FLT.
  apply (FLT_spec _ _ _ (INR k) (Float radix2 (Z.of_nat k) 0)).
  - unfold F2R. cbn [Fnum Fexp bpow]. rewrite INR_IZR_INZ. ring.
  - cbn [Fnum]. rewrite Z.abs_eq by lia. exact Hk.
  - cbn. lia.
Qed.
Definition big : nat := Z.to_nat (2 ^ 24 + 1).
Lemma big_Z : Z.of_nat big = (2 ^ 24 + 1)%Z.
Proof. unfold big. rewrite Z2Nat.id by lia. reflexivity. Qed.
Lemma f32_big : f32 (INR big) = IZR (2 ^ 24).
Proof.
  rewrite INR_IZR_INZ, big_Z. unfold f32.
  assert (Hm : mag radix2 (IZR (2 ^ 24 + 1)) = 25%Z :> Z).
  { apply mag_unique. rewrite Rabs_pos_eq by (apply IZR_le; lia). rewrite <- !IZR_Zpower by lia. split; [apply IZR_le|apply IZR_lt]; cbn; lia. }
  unfold round, scaled_mantissa, cexp. rewrite Hm. unfold FLT_exp. replace (Z.max (25 - 24) (-149)) with 1%Z by lia.
  replace (IZR (2 ^ 24 + 1) * bpow radix2 (- (1)))%R with (IZR (2 ^ 23) + / 2)%R.
  2:{ cbn [bpow Z.opp Z.pow_pos]. rewrite plus_IZR. change (IZR (2 ^ 24)) with (IZR (2 * 2 ^ 23)). rewrite mult_IZR. cbn. lra. }
  assert (Hf : Zfloor (IZR (2 ^ 23) + / 2) = (2 ^ 23)%Z) by (apply Zfloor_imp; rewrite plus_IZR; split; lra).
  assert (Hz : ZnearestE (IZR (2 ^ 23) + / 2) = (2 ^ 23)%Z).
  { unfold Znearest. rewrite Hf. replace (IZR (2 ^ 23) + / 2 - IZR (2 ^ 23))%R with (/ 2)%R by ring.
    rewrite Rcompare_Eq by reflexivity. reflexivity. }
  rewrite Hz. unfold F2R. cbn [Fnum Fexp bpow]. change (2 ^ 24)%Z with (2 ^ 23 * 2)%Z. rewrite mult_IZR. reflexivity.
Qed.
