(* Programs over RGBDImages: an invariant of every step. *)
From Coq Require Import Reals List Arith Bool ZArith Lia.
From Verif Require Import Res TensorModel RgbdModel RgbdStoreModel RgbdStoreSpec RgbdStoreProofs RgbdStoreProofs2
  RgbdStoreProofs3 RgbdStoreProofs4 RgbdStoreProofs5.
From Verif Require StoreModel.
Import ListNotations.
Local Open Scope nat_scope.

(* mixed devices: ValueError (or the error of an earlier check) *)
Lemma inew_device h rgb depth intr poses cf pix device :
  (forall l, In l (new_locs rgb depth intr poses pix) -> idev h l = idev h (hd 0 (new_locs rgb depth intr poses pix))) \/
  inew rgb depth intr poses cf pix device h =
    (match rgbd_new (rdinp h rgb) (rdinp h depth) (rdinp h intr) (rdinp h poses) cf (rdinp h pix) with
     | Ok _ => Err ValueError | Err e => Err e end, h).
Proof.
  destruct (forallb (fun l => dev_eqb (idev h l) (idev h (hd 0 (new_locs rgb depth intr poses pix)))) (new_locs rgb depth intr poses pix)) eqn:E.
  - left. intros l I. rewrite forallb_forall in E. apply dev_eqb_eq. now apply E.
  - right. unfold inew, mbind at 1, get. unfold mbind at 1, lift. destruct (rgbd_new _ _ _ _ _ _); [|reflexivity].
    unfold new_locs in E. rewrite E. reflexivity.
Qed.

Section Q.
Variable Q : nat -> Prop.
Variable n : nat.
Hypothesis Qn : forall l, n <= l -> Q l.
Variable ctg : bool -> ref -> bool.
Variable cur : nat.
Variable O : nat -> Prop.
Variable m0 : nat.
Hypothesis On : forall k, m0 <= k -> O k.
Notation ok := (ok Q).

Lemma inew_safe h rgb depth intr poses cf pix device : n <= length h ->
  (forall l, In l (new_locs rgb depth intr poses pix) -> Q l /\ l < length h) ->
  ext h (snd (inew rgb depth intr poses cf pix device h)) /\
  forall o, fst (inew rgb depth intr poses cf pix device h) = Ok o ->
  exists d, ok d (snd (inew rgb depth intr poses cf pix device h)) o.
Proof.
  intros L H. destruct (inew_device h rgb depth intr poses cf pix device) as [D|E].
  - destruct (sim_inew Q n Qn (idev h (hd 0 (new_locs rgb depth intr poses pix))) h rgb depth intr poses cf pix device L) as [E S].
    { intros l I. destruct (H l I). auto. }
    split; [exact E|]. intros o Eo. rewrite Eo in S. destruct (rgbd_new _ _ _ _ _ _); [|contradiction]. eexists. apply S.
  - rewrite E. cbn. split; [apply ext_refl|]. intros o X. destruct (rgbd_new _ _ _ _ _ _); discriminate.
Qed.

Definition inv (w : iworld) : Prop :=
  n <= length (iwh w) /\ m0 <= length (iwo w) /\
  forall k o, O k -> nth_error (iwo w) k = Some o -> exists d, ok d (iwh w) o.
Definition keeps (w w' : iworld) : Prop :=
  (forall l, ~ Q l -> nth_error (iwh w') l = nth_error (iwh w) l) /\
  (forall k, ~ O k -> nth_error (iwo w') k = nth_error (iwo w) k).
Lemma ext_keeps h h' : n <= length h -> ext h h' -> forall l, ~ Q l -> nth_error h' l = nth_error h l.
Proof.
  intros L E l N. apply ext_nth; [exact E|]. destruct (Nat.lt_ge_cases l (length h)); [assumption|]. elim N. apply Qn. lia.
Qed.
Lemma inv_grow h h' os : ext h h' -> inv (mkIW h os) -> inv (mkIW h' os).
Proof.
  intros E (A & B & C). split; cbn in *; [pose proof (ext_len _ _ E); lia|]. split; [exact B|].
  intros k o Ok E'. destruct (C k o Ok E') as [d D]. exists d. eapply ok_ext; eauto.
Qed.
Lemma inv_upd h h' os i o' : ext h h' -> inv (mkIW h os) -> (exists d, ok d h' o') -> inv (mkIW h' (StoreModel.upd i o' os)).
Proof.
  intros E I O1. apply (inv_grow h h' os E) in I. destruct I as (A & B & C). cbn in *.
  split; [exact A|]. cbn. split; [now rewrite upd_length|]. intros k o Hk Ek.
  destruct (Nat.eq_dec k i) as [->|N]; [|rewrite upd_other in Ek by exact N; now apply (C k)].
  destruct (nth_error os i) as [q|] eqn:Eq; [rewrite (upd_same i o' q os Eq) in Ek; now injection Ek as <-|].
  assert (nth_error (StoreModel.upd i o' os) i = None) by (apply nth_error_None; rewrite upd_length; now apply nth_error_None).
  congruence.
Qed.
Lemma inv_push h os o : inv (mkIW h os) -> (exists d, ok d h o) -> inv (mkIW h (os ++ [o])).
Proof.
  intros (A & B & C) O1. cbn in *. split; [exact A|]. cbn. split; [rewrite app_length; lia|]. intros k q Hk Ek.
  destruct (Nat.lt_ge_cases k (length os)) as [L|L]; [rewrite nth_error_app1 in Ek by exact L; now apply (C k)|].
  rewrite nth_error_app2 in Ek by exact L. destruct (k - length os) as [|[|j]]; cbn in Ek; try discriminate. now injection Ek as <-.
Qed.
Lemma keeps_upd h h' os i o' : n <= length h -> ext h h' -> O i -> keeps (mkIW h os) (mkIW h' (StoreModel.upd i o' os)).
Proof.
  intros L E Oi. split; cbn; [now apply ext_keeps|]. intros k N. apply upd_other. intros ->. contradiction.
Qed.
Lemma keeps_push w h os o : m0 <= length os -> keeps w (mkIW h os) -> keeps w (mkIW h (os ++ [o])).
Proof.
  intros L [A B]. split; [exact A|]. cbn in *. intros k N. rewrite <- B by exact N. apply nth_error_app1.
  destruct (Nat.lt_ge_cases k (length os)); [assumption|]. elim N. apply On. lia.
Qed.
Lemma ipoke_len l c h : length (ipoke l c h) = length h.
Proof. unfold ipoke. destruct (nth_error h l) as [[d t|d t]|], c; auto; apply upd_length. Qed.
Lemma ipoke_other l c h k : k <> l -> nth_error (ipoke l c h) k = nth_error h k.
Proof. intros N. unfold ipoke. destruct (nth_error h l) as [[d t|d t]|], c; auto; now apply upd_other. Qed.
Lemma ipoke_dev l c h k : idev (ipoke l c h) k = idev h k.
Proof.
  destruct (Nat.eq_dec k l) as [->|N]; [|unfold idev; now rewrite ipoke_other].
  unfold ipoke. destruct (nth_error h l) as [[d t|d t]|] eqn:E, c; auto; unfold idev; rewrite (upd_same l _ _ _ E), E; reflexivity.
Qed.
Lemma ok_poke d h l c o : ok d h o -> ok d (ipoke l c h) o.
Proof.
  intros (A & B & C). split; [exact A|]. split.
  - intros k r E. destruct (B k r E) as (X & Y & Z). unfold RgbdStoreProofs.okr. rewrite ipoke_len, ipoke_dev. auto.
  - intros k E. rewrite ipoke_len, ipoke_dev. now apply C.
Qed.

Definition is_write (s : iop) : bool := match s with PWrite _ _ => true | _ => false end.
Lemma istep_inv s w : inv w -> iallowed O Q w s ->
  inv (istep ctg cur s w) /\ keeps w (istep ctg cur s w) /\ (is_write s = false -> ext (iwh w) (iwh (istep ctg cur s w))).
Proof.
  intros I A. assert (I' := I). destruct I' as (In & Im & Io). destruct w as [h os]. cbn [iwh iwo] in *.
  destruct s as [i c|i m|rgb depth intr poses cf pix dv|c|l c]; cbn [istep is_write].
  - destruct A as [Oi A]. unfold iat. cbn [iwh iwo] in *. destruct (nth_error os i) as [o|] eqn:Ei; cbn [snd].
    2:{ split; [exact I|]. split; [split; auto|auto]. }
    destruct (Io i o Oi Ei) as [d Oo].
    assert (S : simo Q d h o (run_icall ctg c) (pure_icall h c) (fun a _ b => a = b)).
    { apply (icall_sim Q n Qn); auto. intros r Er. destruct (A (rloc r)) as (X & Y & Z).
      - unfold set_arg in *. rewrite Er. now left.
      - split; [exact Y|]. split; [exact X|]. rewrite (Z o eq_refl). apply Oo. }
    unfold simo in S. destruct (run_icall ctg c (h, o)) as [r [h1 o1]]. destruct S as (E & O1 & _). cbn [snd].
    split; [eapply inv_upd; eauto|]. split; [now apply keeps_upd|]. intros _. exact E.
  - unfold iat. cbn [iwh iwo]. cbn [iallowed] in A. destruct (nth_error os i) as [o|] eqn:Ei.
    2:{ cbn. split; [exact I|]. split; [split; auto|auto]. }
    destruct (Io i o A Ei) as [d Oo].
    destruct (returns_self cur d m) eqn:Es.
    + rewrite (imake_self ctg cur d h o m) by (auto; apply Oo). cbn. split; [eapply inv_upd; eauto|].
      split; [now apply keeps_upd|]. auto.
    + pose proof (imake_sim Q n Qn ctg cur d h o m In Oo Es) as S. unfold simk in S.
      destruct (run_imake ctg cur m (h, o)) as [r [h1 o1]]. destruct S as (E & -> & S).
      assert (I1 : inv (mkIW h1 (StoreModel.upd i o os))) by (eapply inv_upd; eauto; exists d; eapply ok_ext; eauto).
      assert (K1 : keeps (mkIW h os) (mkIW h1 (StoreModel.upd i o os))) by (now apply keeps_upd).
      destruct r as [[c|]|e]; cbn [ipush iwh iwo]; [|auto|auto].
      destruct (pure_imake m (iabs h o)) as [v|]; [|contradiction]. destruct v as [|s]; [contradiction|]. destruct S as [_ Oc].
      split; [apply inv_push; eauto|]. split; [apply keeps_push; auto; now rewrite upd_length|]. intros _. exact E.
  - cbn [iallowed iwh] in A. destruct (inew_safe h rgb depth intr poses cf pix dv In) as [E S].
    { intros l J. destruct (A l J). auto. }
    cbn [iwh iwo]. destruct (inew rgb depth intr poses cf pix dv h) as [[o|e] h1]; cbn [fst snd ipush iwh iwo] in *.
    + split; [apply inv_push; [eapply inv_grow; eauto|now apply S]|]. split; [|auto].
      apply keeps_push; [exact Im|]. split; cbn; [now apply ext_keeps|auto].
    + split; [eapply inv_grow; eauto|]. split; [split; cbn; [now apply ext_keeps|auto]|auto].
  - split; [eapply inv_grow; eauto|]. split; [split; cbn; [apply ext_keeps; auto|auto]|]. intros _. apply ext_app.
  - cbn [iallowed] in A. split; [|split; [|discriminate]].
    + split; cbn; [now rewrite ipoke_len|]. split; [exact Im|]. intros k o Hk Ek. destruct (Io k o Hk Ek) as [d D]. exists d. now apply ok_poke.
    + split; cbn; [|auto]. intros k N. apply ipoke_other. intros ->. contradiction.
Qed.
Lemma isteps_inv l : forall w, inv w -> iall_allowed ctg cur O Q l w ->
  inv (isteps ctg cur l w) /\ keeps w (isteps ctg cur l w) /\
  (forallb (fun s => negb (is_write s)) l = true -> ext (iwh w) (iwh (isteps ctg cur l w))).
Proof.
  induction l as [|s l IH]; intros w I A; cbn [isteps].
  - split; [exact I|]. split; [split; auto|auto].
  - destruct A as [A1 A2]. destruct (istep_inv s w I A1) as (I1 & K1 & X1). destruct (IH _ I1 A2) as (I2 & K2 & X2).
    split; [exact I2|]. split.
    + destruct K1 as [a1 b1], K2 as [a2 b2]. split; intros k N; [rewrite a2, a1|rewrite b2, b1]; auto.
    + cbn. intros F. apply andb_prop in F. destruct F as [F1 F2]. eapply ext_trans; [|apply X2; exact F2]. apply X1.
      now destruct (is_write s).
Qed.
End Q.
