(* Storage-level properties of RGBDImages. *)
From Coq Require Import Reals List Arith Bool ZArith Lia.
From Verif Require Import Res TensorModel RgbdModel RgbdStoreModel RgbdStoreSpec RgbdStoreProofs RgbdStoreProofs2
  RgbdStoreProofs3 RgbdStoreProofs4 RgbdStoreProofs5 RgbdStoreProofs6.
From Verif Require StoreModel.
Import ListNotations.
Local Open Scope nat_scope.

Lemma valid_ok Q d h o : ok Q d h o -> ivalid h o.
Proof.
  intros (D & T & M) l [(k & r & E & <-)|E].
  - destruct (T k r E) as (_ & A & B). rewrite D. auto.
  - destruct (M l E) as (_ & A & B). rewrite D. auto.
Qed.
Lemma own_ok Q d h o l : ok Q d h o -> iuses o l -> Q l.
Proof.
  intros (D & T & M) [(k & r & E & <-)|E]; [apply (T k r E)|apply (M l E)].
Qed.
Lemma ok_dev Q d h o : ok Q d h o -> o_dev o = d.
Proof. now intros (D & _). Qed.

Lemma p_iprivate ctg cur (O P : nat -> Prop) w0 ops :
  (forall k, length (iwo w0) <= k -> O k) ->
  (forall l, length (iwh w0) <= l -> P l) ->
  (forall k o, O k -> nth_error (iwo w0) k = Some o ->
     ivalid (iwh w0) o /\ forall l, iuses o l -> P l) ->
  iall_allowed ctg cur O P ops w0 ->
  forall k o, ~ O k -> nth_error (iwo w0) k = Some o -> (forall l, iuses o l -> ~ P l) ->
  nth_error (iwo (isteps ctg cur ops w0)) k = Some o /\
  iabs (iwh (isteps ctg cur ops w0)) o = iabs (iwh w0) o.
Proof.
  intros HO HP H A k o Nk E U.
  assert (I : inv P (length (iwh w0)) O (length (iwo w0)) w0).
  { split; [apply le_n|]. split; [apply le_n|]. intros k' o' Ok' E'. destruct (H k' o' Ok' E') as [V U'].
    exists (o_dev o'). now apply ok_valid. }
  destruct (isteps_inv P _ HP ctg cur O _ HO ops w0 I A) as (_ & [K1 K2] & _).
  split; [now rewrite K2|]. apply iabs_same. intros l Ul. apply K1. now apply U.
Qed.
Lemma p_ireachable ctg cur (O P : nat -> Prop) w0 ops :
  (forall k, length (iwo w0) <= k -> O k) ->
  (forall l, length (iwh w0) <= l -> P l) ->
  (forall k o, O k -> nth_error (iwo w0) k = Some o ->
     ivalid (iwh w0) o /\ forall l, iuses o l -> P l) ->
  iall_allowed ctg cur O P ops w0 ->
  forall k o, O k -> nth_error (iwo (isteps ctg cur ops w0)) k = Some o ->
  ivalid (iwh (isteps ctg cur ops w0)) o /\ forall l, iuses o l -> P l.
Proof.
  intros HO HP H A k o Ok E.
  assert (I : inv P (length (iwh w0)) O (length (iwo w0)) w0).
  { split; [apply le_n|]. split; [apply le_n|]. intros k' o' Ok' E'. destruct (H k' o' Ok' E') as [V U'].
    exists (o_dev o'). now apply ok_valid. }
  destruct (isteps_inv P _ HP ctg cur O _ HO ops w0 I A) as ((_ & _ & I') & _ & _).
  destruct (I' k o Ok E) as [d D]. split; [eapply valid_ok; exact D|]. intros l U. eapply own_ok; eauto.
Qed.
Lemma p_ivalid ctg cur w0 ops :
  iall_valid w0 -> iall_allowed ctg cur (fun _ => True) (fun _ => True) ops w0 ->
  iall_valid (isteps ctg cur ops w0).
Proof.
  intros V A k o E.
  eapply (p_ireachable ctg cur (fun _ => True) (fun _ => True) w0 ops); eauto.
Qed.
Lemma p_inowrite ctg cur w0 ops :
  iall_valid w0 -> iall_allowed ctg cur (fun _ => True) (fun _ => True) ops w0 ->
  (forall l c, ~ In (PWrite l c) ops) ->
  (forall l, l < length (iwh w0) -> nth_error (iwh (isteps ctg cur ops w0)) l = nth_error (iwh w0) l) /\
  (forall o, ivalid (iwh w0) o -> iabs (iwh (isteps ctg cur ops w0)) o = iabs (iwh w0) o).
Proof.
  intros V A NW.
  assert (I : inv (fun _ => True) 0 (fun _ => True) 0 w0).
  { split; [lia|]. split; [lia|]. intros k o _ E. exists (o_dev o). apply ok_valid. split; [auto|]. split; [now apply (V k)|auto]. }
  destruct (isteps_inv (fun _ => True) 0 (fun _ _ => Logic.I) ctg cur (fun _ => True) 0 (fun _ _ => Logic.I) ops w0 I A) as (_ & _ & X).
  assert (W : forall s, In s ops -> is_write s = false).
  { intros s Hs. destruct s; try reflexivity. elim (NW l c Hs). }
  assert (X' : ext (iwh w0) (iwh (isteps ctg cur ops w0))) by (apply X; try apply forallb_forall; intros; try (rewrite W; auto); auto).
  split.
  - intros l L. now apply (ext_nth).
  - intros o Vo. apply iabs_same. intros l U. apply (ext_nth); [exact X'|]. now apply Vo.
Qed.

(* ---- values: a call answers, and leaves the object with, what the value-level model says ---- *)
Lemma p_icall ctg h o c r h' o' :
  ivalid h o -> (forall l, In l (arg_locs (set_arg c)) -> l < length h /\ idev h l = o_dev o) ->
  run_icall ctg c (h, o) = (r, (h', o')) ->
  (r, iabs h' o') = pure_icall h c (iabs h o) /\
  (forall l, l < length h -> nth_error h' l = nth_error h l) /\
  ivalid h' o' /\ o_dev o' = o_dev o /\
  forall l, iuses o' l -> iuses o l \/ length h <= l \/ In l (arg_locs (set_arg c)).
Proof.
  intros V A E.
  set (Q := fun l => iuses o l \/ length h <= l \/ In l (arg_locs (set_arg c))).
  assert (Ok0 : ok Q (o_dev o) h o) by (apply ok_valid; split; [auto|]; split; [auto|]; intros l U; now left).
  assert (S := icall_sim Q (length h) ltac:(intros l L; right; left; exact L) ctg (o_dev o) h o c (le_n _) Ok0).
  assert (Ar : arg_okr Q (o_dev o) h (set_arg c)).
  { intros r0 E0. rewrite E0 in A. cbn in A. destruct (A (rloc r0) (or_introl eq_refl)). split; [|auto].
    right; right. rewrite E0. now left. }
  specialize (S Ar). unfold simo in S. rewrite E in S. destruct S as (X & O1 & Va & S).
  destruct (pure_icall h c (iabs h o)) as [r' s]. cbn [fst snd] in *. subst s. split.
  { destruct r, r'; try contradiction; congruence. }
  split; [intros l L; now apply ext_nth|]. split; [eapply valid_ok; exact O1|]. split; [eapply ok_dev; exact O1|].
  intros l U. exact (own_ok Q _ _ _ l O1 U).
Qed.
(* the setters keep the tensor they are given *)
Lemma p_isetter_keeps ctg h o c k r r1 h' o' :
  setter_slot c = Some (k, ATen r) -> run_icall ctg c (h, o) = (Ok r1, (h', o')) ->
  h' = h /\ o_t o' k = Some r.
Proof.
  intros Ek E. destruct c; cbn in Ek; try discriminate; injection Ek as <- ->; cbn in E; unfold mbind, iset_rgb, iset_depth, iset_intr, iset_poses in E; cbn in E.
  - destruct (assert_shape (rread h r) (o_rgbsh o)); cbn in E; inversion E; subst; auto.
  - destruct (o_depsh o); cbn in E; [|discriminate]. destruct (assert_shape (rread h r) l); cbn in E; inversion E; subst; auto.
  - destruct (assert_shape (rread h r) (o_intrsh o)); cbn in E; inversion E; subst; auto.
  - destruct (assert_shape (rread h r) (o_posesh o)); cbn in E; inversion E; subst; auto.
Qed.

(* ---- methods that return a new object ---- *)
Lemma p_imake ctg cur m h o r h' o' :
  icopying cur (o_dev o) m -> ivalid h o -> run_imake ctg cur m (h, o) = (r, (h', o')) ->
  o' = o /\ (forall l, l < length h -> nth_error h' l = nth_error h l) /\
  match r, pure_imake m (iabs h o) with
  | Ok None, Ok Self => True
  | Ok (Some c), Ok (New s) => iabs h' c = s /\ o_dev c = make_dev cur (o_dev o) m /\ ivalid h' c /\
                               forall l, iuses c l -> length h <= l
  | Err e, Err e' => e = e'
  | _, _ => False
  end.
Proof.
  intros C V E.
  assert (OT : ok (fun _ => True) (o_dev o) h o) by (apply ok_valid; auto).
  assert (S := imake_copy_sim (fun l => length h <= l) (length h) (fun l L => L) ctg cur (o_dev o) h o m (le_n _) OT C).
  unfold simk in S. rewrite E in S. destruct S as (X & Eo & S). split; [exact Eo|]. split; [intros l L; now apply ext_nth|].
  destruct r as [[c|]|e], (pure_imake m (iabs h o)) as [[|s]|e']; cbn in S; try contradiction; auto.
  destruct S as [Va K]. split; [exact Va|]. split; [eapply ok_dev; exact K|]. split; [eapply valid_ok; exact K|].
  intros l U. exact (own_ok _ _ _ _ l K U).
Qed.
(* any method: value, device, and only storages of the object or new ones *)
Lemma p_imake_value ctg cur m h o r h' o' :
  returns_self cur (o_dev o) m = false -> ivalid h o -> run_imake ctg cur m (h, o) = (r, (h', o')) ->
  o' = o /\ (forall l, l < length h -> nth_error h' l = nth_error h l) /\
  match r, pure_imake m (iabs h o) with
  | Ok None, Ok Self => True
  | Ok (Some c), Ok (New s) => iabs h' c = s /\ o_dev c = make_dev cur (o_dev o) m /\ ivalid h' c /\
                               forall l, iuses c l -> iuses o l \/ length h <= l
  | Err e, Err e' => e = e'
  | _, _ => False
  end.
Proof.
  intros C V E. set (Q := fun l => iuses o l \/ length h <= l).
  assert (OT : ok Q (o_dev o) h o) by (apply ok_valid; split; [auto|]; split; [auto|]; intros l U; now left).
  assert (S := imake_sim Q (length h) ltac:(intros l L; right; exact L) ctg cur (o_dev o) h o m (le_n _) OT C).
  unfold simk in S. rewrite E in S. destruct S as (X & Eo & S). split; [exact Eo|]. split; [intros l L; now apply ext_nth|].
  destruct r as [[c|]|e], (pure_imake m (iabs h o)) as [[|s]|e']; cbn in S; try contradiction; auto.
  destruct S as [Va K]. split; [exact Va|]. split; [eapply ok_dev; exact K|]. split; [eapply valid_ok; exact K|].
  intros l U. exact (own_ok _ _ _ _ l K U).
Qed.
Lemma p_ito_self ctg cur m h o :
  returns_self cur (o_dev o) m = true -> run_imake ctg cur m (h, o) = (Ok None, (h, o)).
Proof. intros H. now apply (imake_self ctg cur (o_dev o)). Qed.

Lemma imake_push ctg cur i m w w1 c :
  istep ctg cur (PMake i m) w = w1 -> nth_error (iwo w1) (length (iwo w)) = Some c ->
  exists o h' o', nth_error (iwo w) i = Some o /\ run_imake ctg cur m (iwh w, o) = (Ok (Some c), (h', o')) /\
    w1 = mkIW h' (StoreModel.upd i o' (iwo w) ++ [c]).
Proof.
  intros <-. cbn [istep]. unfold iat. destruct (nth_error (iwo w) i) as [o|] eqn:Ei.
  2:{ cbn. intros E. assert (L : length (iwo w) < length (iwo w)) by (apply nth_error_Some; now rewrite E). lia. }
  destruct (run_imake ctg cur m (iwh w, o)) as [r [h' o']] eqn:Er.
  destruct r as [[c'|]|e]; cbn [ipush iwo iwh].
  - intros E. rewrite nth_error_app2 in E by (rewrite upd_length; lia). rewrite upd_length, Nat.sub_diag in E.
    injection E as ->. exists o, h', o'. auto.
  - intros E. assert (L : length (iwo w) < length (StoreModel.upd i o' (iwo w))) by (apply nth_error_Some; now rewrite E).
    rewrite upd_length in L. lia.
  - intros E. assert (L : length (iwo w) < length (StoreModel.upd i o' (iwo w))) by (apply nth_error_Some; now rewrite E).
    rewrite upd_length in L. lia.
Qed.
Lemma imake_world ctg cur i m w w1 c :
  (forall o, nth_error (iwo w) i = Some o -> icopying cur (o_dev o) m) -> iall_valid w ->
  istep ctg cur (PMake i m) w = w1 ->
  nth_error (iwo w1) (length (iwo w)) = Some c ->
  iall_valid w1 /\ length (iwo w1) = S (length (iwo w)) /\
  length (iwh w) <= length (iwh w1) /\
  (forall l, iuses c l -> length (iwh w) <= l) /\
  (forall k o, k < length (iwo w) -> nth_error (iwo w1) k = Some o -> forall l, iuses o l -> l < length (iwh w)).
Proof.
  intros Ow V Es Ec. pose proof Es as Es'.
  destruct (imake_push ctg cur i m w w1 c Es Ec) as (o & h' & o' & Ei & Er & ->).
  destruct (p_imake ctg cur m (iwh w) o _ h' o' (Ow o Ei) (V i o Ei) Er) as (-> & Hx & Hc).
  destruct (pure_imake m (iabs (iwh w) o)) as [[|s]|]; [contradiction| |contradiction]. destruct Hc as (_ & _ & Vc & Fc).
  assert (Vw : iall_valid (mkIW h' (StoreModel.upd i o (iwo w) ++ [c]))).
  { rewrite <- Es'. change (istep ctg cur (PMake i m) w) with (isteps ctg cur [PMake i m] w).
    apply p_ivalid; [exact V|]. cbn. auto. }
  split; [exact Vw|]. cbn [iwo iwh]. split; [rewrite app_length, upd_length; cbn; lia|]. split.
  { assert (OT : ok (fun _ => True) (o_dev o) (iwh w) o) by (apply ok_valid; split; [auto|]; split; [now apply (V i)|auto]).
    assert (S := imake_copy_sim (fun _ => True) 0 (fun _ _ => Logic.I) ctg cur (o_dev o) (iwh w) o m (Nat.le_0_l _) OT (Ow o Ei)).
    unfold simk in S. rewrite Er in S. destruct S as (X & _). now apply ext_len. }
  split; [exact Fc|].
  intros k q Lk Ek l U. rewrite nth_error_app1 in Ek by (now rewrite upd_length).
  destruct (Nat.eq_dec k i) as [->|N].
  - rewrite (upd_same i o o _ Ei) in Ek. injection Ek as <-. now apply (V i o Ei).
  - rewrite upd_other in Ek by exact N. now apply (V k q Ek).
Qed.
Lemma p_icopy_forward ctg cur i m w w1 c ops :
  (forall o, nth_error (iwo w) i = Some o -> icopying cur (o_dev o) m) -> iall_valid w ->
  istep ctg cur (PMake i m) w = w1 ->
  nth_error (iwo w1) (length (iwo w)) = Some c ->
  iall_allowed ctg cur (fun k => length (iwo w) <= k) (fun l => length (iwh w) <= l) ops w1 ->
  forall k o, k < length (iwo w) -> nth_error (iwo w1) k = Some o ->
  nth_error (iwo (isteps ctg cur ops w1)) k = Some o /\
  iabs (iwh (isteps ctg cur ops w1)) o = iabs (iwh w1) o.
Proof.
  intros Ow V Es Ec A k o Lk Ek.
  destruct (imake_world ctg cur i m w w1 c Ow V Es Ec) as (V1 & L1 & Lh & Fc & Fo).
  apply (p_iprivate ctg cur (fun k => length (iwo w) <= k) (fun l => length (iwh w) <= l) w1 ops); auto.
  - intros k' H. lia.
  - intros l H. lia.
  - intros k' q Hk E. assert (k' = length (iwo w)) as ->.
    { assert (k' < length (iwo w1)) by (apply nth_error_Some; now rewrite E). lia. }
    split; [now apply (V1 _ _ E)|]. rewrite Ec in E. injection E as <-. exact Fc.
  - lia.
  - intros l U. specialize (Fo k o Lk Ek l U). lia.
Qed.
Lemma p_icopy_backward ctg cur i m w w1 c ops :
  (forall o, nth_error (iwo w) i = Some o -> icopying cur (o_dev o) m) -> iall_valid w ->
  istep ctg cur (PMake i m) w = w1 ->
  nth_error (iwo w1) (length (iwo w)) = Some c ->
  iall_allowed ctg cur (fun k => k <> length (iwo w)) (fun l => ~ iuses c l) ops w1 ->
  nth_error (iwo (isteps ctg cur ops w1)) (length (iwo w)) = Some c /\
  iabs (iwh (isteps ctg cur ops w1)) c = iabs (iwh w1) c.
Proof.
  intros Ow V Es Ec A.
  destruct (imake_world ctg cur i m w w1 c Ow V Es Ec) as (V1 & L1 & Lh & Fc & Fo).
  apply (p_iprivate ctg cur (fun k => k <> length (iwo w)) (fun l => ~ iuses c l) w1 ops); auto.
  - intros k' H. lia.
  - intros l H U. destruct (V1 _ _ Ec l U). lia.
  - intros k' q Hk E. split; [now apply (V1 _ _ E)|]. intros l U Uc.
    assert (k' < length (iwo w1)) by (apply nth_error_Some; now rewrite E).
    specialize (Fo k' q ltac:(lia) E l U). specialize (Fc l Uc). lia.
Qed.
