(* append_points, to, detach, __getitem__ and the constructor, at the level of storages. *)
From Coq Require Import List Arith ZArith Bool Lia.
From Verif Require Import Res Fld StructUtilsModel StructUtilsProofs PointcloudsModel PointcloudsSpec
  PointcloudsProofs StoreModel StoreSpec StoreProofs StoreProofs2 StoreProofs3 StoreProofs4 StoreProofs5
  StoreProofs6 StoreProofs7 StorePropProofs.
Import ListNotations.
Local Open Scope nat_scope.

(* a call keeps the storages the object had, or takes new ones: never those of an argument *)
Lemma p_call_uses (F : Fld) h o c r h' o' :
  valid F h o -> call_args F h c -> run_call F c (h, o) = (r, (h', o')) ->
  (forall l, l < length h -> nth_error h' l = nth_error h l) /\
  valid F h' o' /\ odev o' = odev o /\
  forall l, uses o' l -> uses o l \/ length h <= l.
Proof.
  intros V A E.
  assert (Ok0 : ok F (fun l => uses o l \/ length h <= l) (length h) (odev o) h o) by (apply ok_valid; auto).
  destruct (call_upost F _ (length h) (odev o) (fun l H => or_intror H) h o c Ok0 A) as (X & O & _). rewrite E in *. cbn [fst snd] in *.
  split; [intros l L; now apply (ext_nth F)|].
  split; [eapply valid_ok; exact O|]. split; [eapply ok_dev; exact O|]. intros l U. eapply own_ok in U; [|exact O]. exact U.
Qed.

Lemma upd_self {X} i (x : X) l : nth_error l i = Some x -> upd i x l = l.
Proof. revert i. induction l as [|y l IH]; intros [|i] E; cbn in *; try discriminate; [congruence|]. now rewrite IH. Qed.

(* ---- append_points ---- *)
Lemma p_append (F : Fld) w i j oi oj r w' :
  i <> j -> nth_error (wobjs F w) i = Some oi -> nth_error (wobjs F w) j = Some oj ->
  valid F (wheap F w) oi -> valid F (wheap F w) oj -> odev oi = odev oj ->
  happend_points F i j w = (r, w') ->
  exists oi' oj',
    wobjs F w' = upd i oi' (upd j oj' (wobjs F w)) /\
    (forall l, l < length (wheap F w) -> nth_error (wheap F w') l = nth_error (wheap F w) l) /\
    (r, (abs F (wheap F w') oi', abs F (wheap F w') oj')) =
      append_points F (abs F (wheap F w) oi, abs F (wheap F w) oj) /\
    valid F (wheap F w') oi' /\ valid F (wheap F w') oj' /\
    (forall l, uses oi' l -> uses oi l \/ length (wheap F w) <= l) /\
    (forall l, uses oj' l -> uses oj l).
Proof.
  intros N Ei Ej Vi Vj D E. destruct w as [h os]. cbn [wheap wobjs] in *.
  assert (Li : i < length os) by (apply nth_error_Some; now rewrite Ei).
  assert (Lj : j < length os) by (apply nth_error_Some; now rewrite Ej).
  set (own1 := fun l => uses oi l \/ length h <= l). set (own2 := fun l => uses oj l \/ length h <= l).
  assert (O1 : ok F own1 (length h) (odev oi) h oi) by (apply ok_valid; unfold own1; auto).
  assert (O2 : ok F own2 (length h) (odev oi) h oj) by (rewrite D; apply ok_valid; unfold own2; auto).
  assert (F1 : forall l, length h <= l -> own1 l) by (unfold own1; auto).
  assert (F2 : forall l, length h <= l -> own2 l) by (unfold own2; auto).
  destruct (happend_ok F own1 own2 (length h) (odev oi) F1 i j N os Li Lj h oi oj O1 O2)
    as (h' & oi' & oj' & Ew & X & Q1 & Q2 & S & H).
  assert (EW : W F i j os h oi oj = mkW F h os).
  { unfold W. now rewrite (upd_self j oj os Ej), (upd_self i oi os Ei). }
  pose proof (wsh_points F i j N (mkW F h os)) as SH. rewrite E in SH. cbn [snd] in SH.
  rewrite EW, E in *. cbn [fst snd] in *. subst w'.
  exists oi', oj'. cbn [W wobjs wheap]. split; [reflexivity|]. split; [intros l L; now apply (ext_nth F)|]. split.
  { destruct (append_points F (abs F h oi, abs F h oj)) as [r' s]. cbn [fst snd] in *. subst s.
    destruct r, r'; try contradiction; congruence. }
  split; [eapply valid_ok; exact Q1|]. split; [eapply valid_ok; exact Q2|].
  split; [intros l U; eapply own_ok in U; [|exact Q1]; exact U|].
  intros l U. destruct (SH oj' l) as (o & Eo & Uo); [|exact U|].
  { cbn [W wobjs]. rewrite upd_other by auto. eapply upd_same. exact Ej. }
  cbn [wobjs] in Eo. congruence.
Qed.
Lemma p_append_device (F : Fld) w i j oi oj :
  nth_error (wobjs F w) i = Some oi -> nth_error (wobjs F w) j = Some oj -> odev oj <> odev oi ->
  happend_points F i j w = (Err ValueError, w).
Proof.
  intros Ei Ej D. unfold happend_points. destruct w as [h os]. cbn [wobjs] in *.
  assert (Gi : at_ F i (geto F) (mkW F h os) = (Ok oi, mkW F h os)).
  { unfold at_. cbn. rewrite Ei. cbn. now rewrite upd_self. }
  assert (Gj : at_ F j (geto F) (mkW F h os) = (Ok oj, mkW F h os)).
  { unfold at_. cbn. rewrite Ej. cbn. now rewrite upd_self. }
  rewrite (mbind_at _ _ _ _ _ Gi). cbv iota beta. rewrite (mbind_at _ _ _ _ _ Gj). cbv iota beta.
  destruct (dev_eqb (odev oj) (odev oi)) eqn:Ed; [apply dev_eqb_eq in Ed; contradiction|]. reflexivity.
Qed.
(* an object appended to itself *)
Lemma p_append_self (F : Fld) w i o r w' :
  nth_error (wobjs F w) i = Some o -> valid F (wheap F w) o ->
  fst (has F Points (abs F (wheap F w) o)) = Ok true ->
  happend_points F i i w = (r, w') ->
  exists o', wobjs F w' = upd i o' (wobjs F w) /\
    (forall l, l < length (wheap F w) -> nth_error (wheap F w') l = nth_error (wheap F w) l) /\
    (r, abs F (wheap F w') o') =
      (let '(r, (s, _)) := append_points F (abs F (wheap F w) o, abs F (wheap F w) o) in (r, s)) /\
    valid F (wheap F w') o' /\ (forall l, uses o' l -> uses o l \/ length (wheap F w) <= l).
Proof.
  intros Ei V Hp E. destruct w as [h os]. cbn [wheap wobjs] in *.
  assert (Li : i < length os) by (apply nth_error_Some; now rewrite Ei).
  set (own1 := fun l => uses o l \/ length h <= l).
  assert (O1 : ok F own1 (length h) (odev o) h o) by (apply ok_valid; unfold own1; auto).
  assert (F1 : forall l, length h <= l -> own1 l) by (unfold own1; auto).
  destruct (hself_ok F own1 (length h) (odev o) F1 i os Li h o O1) as (h' & o' & Ew & X & Q & S & H).
  assert (EW : W1 F i os h o = mkW F h os) by (unfold W1; now rewrite upd_self).
  rewrite EW, E in *. cbn [fst snd] in *. subst w'. exists o'. cbn [W1 wobjs wheap].
  split; [reflexivity|]. split; [intros l L; now apply (ext_nth F)|]. split.
  { rewrite has_eff in Hp. cbn in Hp. injection Hp as Hp.
    destruct (sself_link F (abs F h o) Hp) as [K1 K2].
    destruct (append_points F (abs F h o, abs F h o)) as [r' [s s2]]. destruct (sself F (abs F h o)) as [r2 t]. cbn [fst snd] in *.
    subst. destruct r, r'; try contradiction; congruence. }
  split; [eapply valid_ok; exact Q|]. intros l U. eapply own_ok in U; [|exact Q]. exact U.
Qed.

(* ---- tensors taken over unchanged ---- *)
Section TAKE.
Variable F : Fld.
Notation heap := (heap F).
Lemma take_same (f3 : view3 -> M heap view3) (fc : nat -> M heap nat) from to h :
  (forall a v, qget a (opad from) = Some v -> f3 v h = (Ok v, h)) ->
  (forall m, omask from = Some m -> fc m h = (Ok m, h)) ->
  fc (onum from) h = (Ok (onum from), h) ->
  take_tensors F f3 fc from to h =
    (Ok (mkO (olst to)
         (mkQ (or_else (qp (opad from)) (qp (opad to))) (or_else (qn (opad from)) (qn (opad to)))
              (or_else (qc (opad from)) (qc (opad to))) (or_else (qf (opad from)) (qf (opad to))))
         (or_else (omask from) (omask to)) (oflg to) (onum from) (obat to) (onmax to) (oequi to) (odev to)), h).
Proof.
  intros A B C.
  assert (A' : forall a, omap f3 (qget a (opad from)) h = (Ok (qget a (opad from)), h)).
  { intros a. specialize (A a). destruct (qget a (opad from)) as [v|]; [|reflexivity]. cbn. unfold mbind. now rewrite (A v eq_refl). }
  assert (B' : omap fc (omask from) h = (Ok (omask from), h)).
  { destruct (omask from) as [m|]; [|reflexivity]. cbn. unfold mbind. now rewrite (B m eq_refl). }
  unfold take_tensors.
  rewrite (mbind_at _ _ _ _ _ (A' Points)). cbv iota beta.
  rewrite (mbind_at _ _ _ _ _ (A' Normals)). cbv iota beta.
  rewrite (mbind_at _ _ _ _ _ (A' Colors)). cbv iota beta.
  rewrite (mbind_at _ _ _ _ _ (A' Features)). cbv iota beta.
  rewrite (mbind_at _ _ _ _ _ B'). cbv iota beta.
  rewrite (mbind_at _ _ _ _ _ C). reflexivity.
Qed.
Lemma mmap_same {A} (f : A -> M heap A) l h : (forall x, In x l -> f x h = (Ok x, h)) -> mmap f l h = (Ok l, h).
Proof.
  induction l as [|x l IH]; intros H; [reflexivity|]. cbn [mmap]. rewrite (mbind_at _ _ _ _ _ (H x (or_introl eq_refl))). cbv iota beta.
  rewrite (mbind_at _ _ _ _ _ (IH (fun y K => H y (or_intror K)))). reflexivity.
Qed.
Lemma to2_same d v h : devof F h (v2l v) = d -> to2 F d v h = (Ok v, h).
Proof. intros E. unfold to2, mbind, get. rewrite E, (proj2 (dev_eqb_eq d d) eq_refl). reflexivity. Qed.
Lemma to3_same d v h : devof F h (v3l v) = d -> to3 F d v h = (Ok v, h).
Proof. intros E. unfold to3, mbind, get. rewrite E, (proj2 (dev_eqb_eq d d) eq_refl). reflexivity. Qed.
Lemma to_cell_same d l h : devof F h l = d -> to_cell F d l h = (Ok l, h).
Proof. intros E. unfold to_cell, mbind, get. rewrite E, (proj2 (dev_eqb_eq d d) eq_refl). reflexivity. Qed.
End TAKE.

Lemma clone_inv (F : Fld) h o r h1 o1 : valid F h o -> hclone F (h, o) = (r, (h1, o1)) ->
  (exists f, o1 = owith_flg f o) /\ ext F h h1 /\ valid F h1 o1 /\
  forall c, r = Ok c -> odev c = odev o /\ valid F h1 c /\ forall l, uses c l -> length h <= l.
Proof.
  intros V E.
  assert (Ok0 : ok F (fun _ => True) 0 (odev o) h o) by (apply ok_valid; auto; lia).
  destruct (hclone_ok F (fun _ => True) 0 (length h) (odev o) h o Ok0 (le_n _)) as (X & Q & _ & H).
  split.
  { destruct (fo_clone F h o) as [f Ef]. rewrite E in Ef. cbn in Ef. eauto. }
  rewrite E in *. cbn [fst snd] in *. split; [exact X|]. split; [eapply valid_ok; exact Q|].
  intros c ->. destruct (fst (clone F (abs F h o))); [|contradiction]. destruct H as [Oc _].
  split; [eapply ok_dev; exact Oc|]. split; [eapply valid_ok; exact Oc|].
  intros l U. eapply own_ok in U; [|exact Oc]. exact U.
Qed.

Lemma p_detach (F : Fld) cur h o c h' o' :
  valid F h o -> run_make F cur (MDetach F) (h, o) = (Ok (Some c), (h', o')) -> half_shared F h o c.
Proof.
  intros V E. cbn [run_make] in E. unfold hdetach in E.
  destruct (hclone F (h, o)) as [r [h1 o1]] eqn:Ec.
  destruct (clone_inv F h o r h1 o1 V Ec) as ([f ->] & X & V1 & K).
  unfold mbind in E. rewrite Ec in E. destruct r as [other|]; [|discriminate].
  destruct (K other eq_refl) as (Do & Vo & Uo). unfold geto, onh in E. cbn [fst snd] in E.
  rewrite (take_same F ret ret (owith_flg f o) other h1) in E by (intros; reflexivity).
  injection E as <- <- <-. cbn.
  split; [intros [] v; cbn; intros ->; reflexivity|]. split; [intros m ->; reflexivity|]. split; [reflexivity|].
  intros a vs v Ea Iv. apply Uo. left. exists a, vs, v. auto.
Qed.

(* ---- to ---- *)
Lemma p_to_self (F : Fld) cur h o a : same_dev (odev o) a = true ->
  run_make F cur (MTo F a false) (h, o) = (Ok None, (h, o)).
Proof. intros E. cbn. unfold hto, mbind, geto. cbn. rewrite E. reflexivity. Qed.
Lemma p_to_copy (F : Fld) cur h o a : same_dev (odev o) a = true ->
  run_make F cur (MTo F a true) (h, o) = run_make F cur (MClone F) (h, o).
Proof.
  intros E. cbn. unfold hto. unfold mbind, geto. cbn. rewrite E.
  destruct (hclone F (h, o)) as [[c|] w]; reflexivity.
Qed.
Lemma p_to_move (F : Fld) cur h o a copy r h' o' :
  valid F h o -> resolve cur (spec_of a) <> odev o ->
  run_make F cur (MTo F a copy) (h, o) = (r, (h', o')) ->
  match r, fst (detach F (abs F h o)) with
  | Ok (Some c), Ok s => abs F h' c = s /\ odev c = resolve cur (spec_of a) /\ valid F h' c /\ forall l, uses c l -> length h <= l
  | Err e, Err e' => e = e'
  | _, _ => False
  end.
Proof.
  intros V D E.
  assert (Sd : same_dev (odev o) a = false).
  { destruct (odev o), a as [[|[k|]]|]; cbn in *; try reflexivity; try congruence. apply Nat.eqb_neq. congruence. }
  assert (Ok0 : ok F (fun l => uses o l \/ length h <= l) 0 (odev o) h o) by (apply ok_valid; auto; lia).
  destruct (hto_ok F (fun _ => True) 0 (length h) (odev o) cur (fun l => length h <= l) h o a copy) as (_ & _ & _ & H); auto.
  { apply ok_valid; auto. lia. }
  { lia. }
  { intros; contradiction. }
  cbn [run_make] in E. rewrite E in H. cbn [fst snd] in H.
  destruct r as [r|e], (fst (detach F (abs F h o))) as [s|e']; try contradiction; [|exact H].
  destruct H as (c & -> & [Oc Ac]). split; [exact Ac|]. split; [eapply ok_dev; exact Oc|].
  split; [eapply valid_ok; exact Oc|]. intros l U. eapply own_ok in U; [|exact Oc]. exact U.
Qed.
(* the device is where the object is, but not given as the torch.device the object holds *)
Lemma p_to_alias (F : Fld) cur h o a copy c h' o' :
  valid F h o -> same_dev (odev o) a = false -> resolve cur (spec_of a) = odev o ->
  run_make F cur (MTo F a copy) (h, o) = (Ok (Some c), (h', o')) -> half_shared F h o c.
Proof.
  intros V Sd D E. cbn [run_make] in E. unfold hto in E. unfold mbind at 1 in E. unfold geto at 1 in E. cbn [snd] in E.
  rewrite Sd, andb_false_r in E.
  destruct (hclone F (h, o)) as [r [h1 o1]] eqn:Ec.
  destruct (clone_inv F h o r h1 o1 V Ec) as ([f ->] & X & V1 & K).
  rewrite (mbind_at _ _ _ _ _ Ec) in E. destruct r as [other|]; [|discriminate].
  destruct (K other eq_refl) as (Do & Vo & Uo). rewrite D in E.
  assert (L : forall q, omap (mmap (to2 F (odev o))) (qget q (olst other)) h1 = (Ok (qget q (olst other)), h1)).
  { intros q. destruct (qget q (olst other)) as [vs|] eqn:Eq; [|reflexivity]. cbn. unfold mbind. rewrite mmap_same; [reflexivity|].
    intros v Iv. apply to2_same. rewrite <- Do. apply Vo. left. exists q, vs, v. auto. }
  unfold mbind, geto, onh in E. cbn [fst snd] in E.
  pose proof (L Points) as L1. pose proof (L Normals) as L2. pose proof (L Colors) as L3. pose proof (L Features) as L4.
  cbn [qget] in L1, L2, L3, L4. rewrite L1 in E. cbn [fst snd] in E. rewrite L2 in E. cbn [fst snd] in E.
  rewrite L3 in E. cbn [fst snd] in E. rewrite L4 in E. cbn [fst snd] in E.
  assert (Dv : forall l, uses (owith_flg f o) l -> devof F h1 l = odev o).
  { intros l U. apply V1 in U. destruct U as [_ U]. exact U. }
  rewrite take_same in E.
  - injection E as <- <- <-. cbn.
    split; [intros [] v; cbn; intros ->; reflexivity|]. split; [intros m ->; reflexivity|]. split; [reflexivity|].
    intros q vs v Ea Iv. apply Uo. left. exists q, vs, v. split; [|auto]. destruct q; exact Ea.
  - intros q v Eq. apply to3_same. apply Dv. right. left. exists q, v. auto.
  - intros m Em. apply to_cell_same. apply Dv. unfold uses. auto.
  - apply to_cell_same. apply Dv. unfold uses. auto.
Qed.
(* values, for the methods whose result shares storage with self *)
Lemma p_view_value (F : Fld) cur m h o r h' o' :
  match m with MDetach _ | MItem _ _ => True | MTo _ a _ => same_dev (odev o) a = false | _ => False end ->
  valid F h o -> run_make F cur m (h, o) = (r, (h', o')) ->
  abs F h' o' = snd (pure_make F m (abs F h o)) /\
  match r, fst (pure_make F m (abs F h o)) with
  | Ok (Some c), Ok s => abs F h' c = s
  | Err e, Err e' => e = e'
  | _, _ => False
  end.
Proof.
  intros Hm V E.
  assert (Ok0 : ok F (fun _ => True) 0 (odev o) h o) by (apply ok_valid; auto; lia).
  destruct m; try contradiction; cbn [run_make pure_make] in *.
  - destruct (hdetach_ok F (fun _ => True) 0 0 (odev o) (fun _ _ => I) h o Ok0 (le_n _) (Nat.le_0_l _)) as (_ & _ & S & H).
    unfold mbind in E. destruct (hdetach F (h, o)) as [q [h1 o1]]. cbn [fst snd] in *.
    destruct q as [c|e], (fst (detach F (abs F h o))) as [s|e'] eqn:Ed; try contradiction; injection E as <- <- <-; rewrite S; split; auto.
    apply H.
  - destruct (hto_ok F (fun _ => True) 0 0 (odev o) cur (fun _ => True) h o d copy) as (_ & _ & S & H); auto; [lia|].
    rewrite E in *. cbn [fst snd] in *. split; [exact S|].
    destruct r as [r|e], (fst (detach F (abs F h o))) as [s|e'] eqn:Ed; try contradiction; auto.
    destruct H as (c & -> & [_ Ac]). exact Ac.
  - destruct (hgetitem_ok F (fun _ => True) 0 (odev o) (fun _ _ => I) h o ix Ok0) as (_ & _ & S & H).
    unfold mbind in E. destruct (hgetitem F ix (h, o)) as [q [h1 o1]]. cbn [fst snd] in *.
    destruct q as [c|e], (fst (getitem F ix (abs F h o))) as [s|e'] eqn:Ed; try contradiction; injection E as <- <- <-; rewrite S; split; auto.
    apply H.
Qed.
