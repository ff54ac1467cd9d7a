(* Refinement of the methods that make new objects, and which storages those share. *)
From Coq Require Import List Arith ZArith Bool Lia.
From Verif Require Import Res Fld StructUtilsModel StructUtilsProofs PointcloudsModel PointcloudsSpec
  PointcloudsProofs StoreModel StoreProofs.
Import ListNotations.
Local Open Scope nat_scope.

Section ST.
Variable F : Fld.
Notation T2 := (t2 F).
Notation T3 := (t3 F).
Notation heap := (heap F).
Notation MO := (M (heap * obj)).
Notation MH := (M heap).
Notation read2 := (read2 F).
Notation read3 := (read3 F).
Notation abs := (abs F).
Notation ext := (ext F).

Lemma okl_weaken (own own' : nat -> Prop) dv h l :
  (forall l, own l -> own' l) -> okl F own dv h l -> okl F own' dv h l.
Proof. intros H [A [B C]]. repeat split; auto. Qed.
Lemma ok_weaken (own own' : nat -> Prop) n n' dv h o :
  (forall l, own l -> own' l) -> n' <= length h -> ok F own n dv h o -> ok F own' n' dv h o.
Proof.
  intros H N [A B C D G K]. constructor; auto.
  - intros a l E. eapply Forall_impl; [|eapply B; exact E]. intros v. now apply okl_weaken.
  - intros a v E. eapply okl_weaken; eauto.
  - intros m E. eapply okl_weaken; eauto.
  - eapply okl_weaken; eauto.
Qed.

Definition freshown (n : nat) : nat -> Prop := fun l => n <= l.

Lemma hin2_ok own dv h x y :
  Ropt F (R2l F own dv) h x y -> arg_ok F own dv h (hin2 x) /\ rdarg F h (hin2 x) = oin F (in2 F) y.
Proof.
  destruct x as [x|], y as [y|]; cbn; try contradiction; [|split; auto].
  intros [K <-]. split.
  - rewrite Forall_map. eapply Forall_impl; [|exact K]. intros v [A [B C]]. split; auto.
  - unfold in2. now rewrite !map_map.
Qed.
Lemma hin3_ok own dv h x y :
  Ropt F (R3 F own dv) h x y -> arg_ok F own dv h (hin3 x) /\ rdarg F h (hin3 x) = oin F (in3 F) y.
Proof.
  destruct x as [x|], y as [y|]; cbn; try contradiction; [|split; auto].
  intros [[A [B C]] <-]. split; [split; auto|reflexivity].
Qed.

Lemma ctor_nil n c f s : ctor F (IList F []) n c f = Ok s -> False.
Proof.
  unfold ctor. cbn. destruct (is_none F n || same_kind F n (IList F [])); [|discriminate].
  destruct (is_none F c || same_kind F c (IList F [])); [|discriminate].
  destruct (is_none F f || same_kind F f (IList F [])); discriminate.
Qed.

Lemma mbind_at {S A B} (m : M S A) (k : A -> M S B) s r s' :
  m s = (r, s') -> mbind m k s = match r with Ok a => k a s' | Err e => (Err e, s') end.
Proof. intros E. unfold mbind. now rewrite E. Qed.

Section CLONE.
Variable own : nat -> Prop.
Variables n0 n1 : nat.
Variable dv : dev.
Hypothesis own_fresh : forall l, n0 <= l -> own l.
Notation own1 := (freshown n1).
Lemma own1_fresh : forall l, n1 <= l -> own1 l. Proof. auto. Qed.

Definition Pclone (h : heap) (l : nat) : Prop := l < length h /\ devof F h l = dv.
Lemma Pclone_ext h h' l : ext h h' -> Pclone h l -> Pclone h' l.
Proof.
  intros E [A B]. pose proof (ext_len _ _ _ E). split; [lia|]. now rewrite (ext_devof _ _ _ _ E A).
Qed.

Lemma mclone_ok h l : n1 <= length h -> Forall (fun v => Pclone h (v2l v)) l ->
  hpost F h (fun h' ws => R2l F own1 dv h' ws (map (read2 h) l)) (mmap (clone2 F) l h).
Proof.
  intros N H. apply mmap_ok with (n0 := n1) (pre := fun h v => Pclone h (v2l v)); auto.
  - intros h1 h2 v E. now apply Pclone_ext.
  - now intros h1 v [].
  - intros h1 v N1 P1. now apply (clone2_ok F own1 n1 dv).
Qed.
Lemma oclone_ok h o : n1 <= length h -> (forall l, o = Some l -> Forall (fun v => Pclone h (v2l v)) l) ->
  hpost F h (fun h' ws => Ropt F (R2l F own1 dv) h' ws (option_map (map (read2 h)) o))
    (omap (mmap (clone2 F)) o h).
Proof.
  intros N H. destruct o as [l|]; cbn [omap option_map]; [|now apply hpost_ret].
  eapply hpost_bind; [apply mclone_ok; auto|]. intros h1 w E K. now apply hpost_ret.
Qed.

Lemma ok_Pclone_l h o a l : ok F own n0 dv h o -> qget a (olst o) = Some l -> Forall (fun v => Pclone h (v2l v)) l.
Proof. intros O E. eapply Forall_impl; [|eapply ok_lst; eauto]. intros v [A [_ B]]. now split. Qed.
Lemma ok_Pfrom h o : ok F own n0 dv h o -> Pfrom F Pclone h o.
Proof.
  intros O. split; [|split].
  - intros a v E. destruct (ok_pad _ _ _ _ _ _ O _ _ E) as [A [_ B]]. now split.
  - intros m E. destruct (ok_mask _ _ _ _ _ _ O _ E) as [A [_ B]]. now split.
  - destruct (ok_num _ _ _ _ _ _ O) as [A [_ B]]. now split.
Qed.

Lemma oclone_stable h h1 (o : option (list view2)) :
  ext h h1 -> (forall l, o = Some l -> Forall (fun v => Pclone h (v2l v)) l) ->
  option_map (map (read2 h1)) o = option_map (map (read2 h)) o /\
  (forall l, o = Some l -> Forall (fun v => Pclone h1 (v2l v)) l).
Proof.
  intros E H. split.
  - destruct o as [l|]; [|reflexivity]. cbn. f_equal. specialize (H _ eq_refl). rewrite Forall_forall in H.
    apply map_ext_in. intros v Hv. apply ext_read2; [exact E|]. apply (H v Hv).
  - intros l El. eapply Forall_impl; [|apply H; exact El]. intros v. now apply Pclone_ext.
Qed.
Lemma oclone3_stable h h1 (o : option view3) :
  ext h h1 -> (forall v, o = Some v -> Pclone h (v3l v)) ->
  option_map (read3 h1) o = option_map (read3 h) o /\ (forall v, o = Some v -> Pclone h1 (v3l v)).
Proof.
  intros E H. split.
  - destruct o as [l|]; [|reflexivity]. cbn. f_equal. apply ext_read3; [exact E|]. apply (H _ eq_refl).
  - intros l El. eapply Pclone_ext; eauto.
Qed.

Lemma clone_take_ok h from to :
  n1 <= length h -> Pfrom F Pclone h from -> ok F own1 n1 dv h to ->
  hpost F h (fun h' o => Robj F own1 n1 dv h' o (copy_tensors F (abs h from) (abs h to)))
    (take_tensors F (clone3 F) (clone_cell F) from to h).
Proof.
  intros N P Ot. apply take_tensors_ok with (P := Pclone); eauto using own1_fresh, Pclone_ext.
  - now intros h1 l [].
  - intros h1 v N1 P1. now apply (clone3_ok F own1 n1 dv own1_fresh).
  - intros h1 v N1 P1. now apply (clone_cell_ok F own1 n1 dv own1_fresh).
Qed.

Lemma hclone_ok h o :
  ok F own n0 dv h o -> n1 <= length h ->
  post F own n0 dv h (Robj F own1 n1 dv) (hclone F (h, o)) (clone F (abs h o)).
Proof.
  intros O N. unfold hclone, clone.
  apply post_bind with (R := Reqv F); [now apply hhas_ok|].
  intros h1 o1 b b' E O1 <-. apply post_geto. pose proof (ext_len _ _ _ E).
  destruct (negb b).
  { replace (ret (empty_pc F) (abs h1 o1)) with (lift (Ok (empty_pc F)) (abs h1 o1)) by reflexivity.
    apply post_onh_res; [exact O1|].
    apply (hctor_ok F own1 n1 dv own1_fresh h1 HNone HNone HNone HNone (Some (odev o1))); cbn; auto.
    - lia.
    - intros s _. apply O1. }
  apply post_get.
  change (qp (lst F (abs h1 o1))) with (option_map (map (read2 h1)) (qp (olst o1))).
  change (qp (pad F (abs h1 o1))) with (option_map (read3 h1) (qp (opad o1))).
  change (qn (lst F (abs h1 o1))) with (option_map (map (read2 h1)) (qn (olst o1))).
  change (qn (pad F (abs h1 o1))) with (option_map (read3 h1) (qn (opad o1))).
  change (qc (lst F (abs h1 o1))) with (option_map (map (read2 h1)) (qc (olst o1))).
  change (qc (pad F (abs h1 o1))) with (option_map (read3 h1) (qc (opad o1))).
  change (qf (lst F (abs h1 o1))) with (option_map (map (read2 h1)) (qf (olst o1))).
  change (qf (pad F (abs h1 o1))) with (option_map (read3 h1) (qf (opad o1))).
  apply post_bind with (R := Robj F own1 n1 dv).
  { pose proof (ok_Pclone_l h1 o1 Points) as Qp. pose proof (ok_Pclone_l h1 o1 Normals) as Qn.
    pose proof (ok_Pclone_l h1 o1 Colors) as Qc. pose proof (ok_Pclone_l h1 o1 Features) as Qf.
    cbn [qget] in Qp, Qn, Qc, Qf.
    destruct (ok_Pfrom h1 o1 O1) as [Q3 _].
    pose proof (Q3 Points) as Tp. pose proof (Q3 Normals) as Tn. pose proof (Q3 Colors) as Tc.
    pose proof (Q3 Features) as Tf. cbn [qget] in Tp, Tn, Tc, Tf. clear Q3.
    destruct (qp (olst o1)) as [pl|] eqn:Ep; cbn [option_map].
    - specialize (Qp pl O1 eq_refl).
      assert (Qn' : forall l, qn (olst o1) = Some l -> Forall (fun v => Pclone h1 (v2l v)) l) by eauto.
      assert (Qc' : forall l, qc (olst o1) = Some l -> Forall (fun v => Pclone h1 (v2l v)) l) by eauto.
      assert (Qf' : forall l, qf (olst o1) = Some l -> Forall (fun v => Pclone h1 (v2l v)) l) by eauto.
      clear Qn Qc Qf.
      apply post_onh_res; [exact O1|].
      eapply hpost_hres; [apply mclone_ok; [lia|exact Qp]|]. cbn beta. intros h2 pl' E2 K1.
      pose proof (ext_len _ _ _ E2).
      destruct (oclone_stable _ _ _ E2 Qn') as [G1 S1]. destruct (oclone_stable _ _ _ E2 Qc') as [G2 S2].
      destruct (oclone_stable _ _ _ E2 Qf') as [G3 S3]. rewrite <- G1, <- G2, <- G3. clear G1 G2 G3.
      eapply hpost_hres; [apply oclone_ok; [lia|exact S1]|]. cbn beta. intros h3 nl' E3 K2.
      pose proof (ext_len _ _ _ E3).
      destruct (oclone_stable _ _ _ E3 S2) as [G2 U2]. destruct (oclone_stable _ _ _ E3 S3) as [G3 U3].
      rewrite <- G2, <- G3. clear G2 G3.
      eapply hpost_hres; [apply oclone_ok; [lia|exact U2]|]. cbn beta. intros h4 cl' E4 K3.
      pose proof (ext_len _ _ _ E4).
      destruct (oclone_stable _ _ _ E4 U3) as [G3 V3]. rewrite <- G3. clear G3.
      eapply hpost_hres; [apply oclone_ok; [lia|exact V3]|]. cbn beta. intros h5 fl' E5 K4.
      pose proof (ext_len _ _ _ E5).
      assert (E45 : ext h3 h5) by (eapply ext_trans; eauto).
      assert (E35 : ext h2 h5) by (eapply ext_trans; eauto).
      change (R2l F own1 dv h2 pl' (map (read2 h1) pl)) with
             (Ropt F (R2l F own1 dv) h2 (Some pl') (Some (map (read2 h1) pl))) in K1.
      apply (Ropt_ext F _ _ h5) in K1; [|intros; now apply (R2l_ext F own1 dv h2)].
      apply (Ropt_ext F _ _ h5) in K2; [|intros; now apply (R2l_ext F own1 dv h3)].
      apply (Ropt_ext F _ _ h5) in K3; [|intros; now apply (R2l_ext F own1 dv h4)].
      destruct (hin2_ok _ _ _ _ _ K1) as [A1 B1]. destruct (hin2_ok _ _ _ _ _ K2) as [A2 B2].
      destruct (hin2_ok _ _ _ _ _ K3) as [A3 B3]. destruct (hin2_ok _ _ _ _ _ K4) as [A4 B4].
      change (in2 F (map (read2 h1) pl)) with (oin F (in2 F) (Some (map (read2 h1) pl))).
      rewrite <- B1, <- B2, <- B3, <- B4.
      apply hctor_ok; auto using own1_fresh; [lia|].
      intros s Hs. destruct pl' as [|v pl']; [exfalso; eapply ctor_nil; exact Hs|].
      cbn. cbn in K1. destruct K1 as [K1 _]. inversion K1 as [|? ? [_ [_ D]]]; subst. exact D.
    - destruct (qp (opad o1)) as [pp|] eqn:Epp; cbn [option_map]; [|now apply post_raise].
      specialize (Tp pp eq_refl).
      apply post_onh_res; [exact O1|].
      eapply hpost_hres; [apply (clone3_ok F own1 n1 dv own1_fresh); [lia|exact Tp]|]. cbn beta. intros h2 pl' E2 K1.
      pose proof (ext_len _ _ _ E2).
      destruct (oclone3_stable _ _ _ E2 Tn) as [G1 S1]. destruct (oclone3_stable _ _ _ E2 Tc) as [G2 S2].
      destruct (oclone3_stable _ _ _ E2 Tf) as [G3 S3]. rewrite <- G1, <- G2, <- G3. clear G1 G2 G3.
      assert (OC : forall h o, n1 <= length h -> (forall v, o = Some v -> Pclone h (v3l v)) ->
         hpost F h (fun h' w => Ropt F (R3 F own1 dv) h' w (option_map (read3 h) o)) (omap (clone3 F) o h)).
      { intros h' o' N' P'. apply (omap3_ok F own1 n1 dv Pclone); auto.
        intros. now apply (clone3_ok F own1 n1 dv own1_fresh). }
      eapply hpost_hres; [apply OC; [lia|exact S1]|]. cbn beta. intros h3 nl' E3 K2.
      pose proof (ext_len _ _ _ E3).
      destruct (oclone3_stable _ _ _ E3 S2) as [G2 U2]. destruct (oclone3_stable _ _ _ E3 S3) as [G3 U3].
      rewrite <- G2, <- G3. clear G2 G3.
      eapply hpost_hres; [apply OC; [lia|exact U2]|]. cbn beta. intros h4 cl' E4 K3.
      pose proof (ext_len _ _ _ E4).
      destruct (oclone3_stable _ _ _ E4 U3) as [G3 V3]. rewrite <- G3. clear G3.
      eapply hpost_hres; [apply OC; [lia|exact V3]|]. cbn beta. intros h5 fl' E5 K4.
      pose proof (ext_len _ _ _ E5).
      assert (E45 : ext h3 h5) by (eapply ext_trans; eauto).
      assert (E35 : ext h2 h5) by (eapply ext_trans; eauto).
      change (R3 F own1 dv h2 pl' (read3 h1 pp)) with
             (Ropt F (R3 F own1 dv) h2 (Some pl') (Some (read3 h1 pp))) in K1.
      apply (Ropt_ext F _ _ h5) in K1; [|intros; now apply (R3_ext F own1 dv h2)].
      apply (Ropt_ext F _ _ h5) in K2; [|intros; now apply (R3_ext F own1 dv h3)].
      apply (Ropt_ext F _ _ h5) in K3; [|intros; now apply (R3_ext F own1 dv h4)].
      destruct (hin3_ok _ _ _ _ _ K1) as [A1 B1]. destruct (hin3_ok _ _ _ _ _ K2) as [A2 B2].
      destruct (hin3_ok _ _ _ _ _ K3) as [A3 B3]. destruct (hin3_ok _ _ _ _ _ K4) as [A4 B4].
      change (in3 F (read3 h1 pp)) with (oin F (in3 F) (Some (read3 h1 pp))).
      rewrite <- B1, <- B2, <- B3, <- B4.
      apply hctor_ok; auto using own1_fresh; [lia|].
      intros s Hs. cbn. destruct K1 as [[_ [_ D]] _]. exact D. }
  intros h2 o2 other so E2 O2 [Oo <-]. pose proof (ext_len _ _ _ E2).
  change (ret (copy_tensors F (abs h1 o1) (abs h2 other)) (abs h2 o2)) with
    (lift (Ok (copy_tensors F (abs h1 o1) (abs h2 other))) (abs h2 o2)).
  apply post_onh_res; [exact O2|]. apply hres_hpost.
  rewrite <- (abs_ext F own n0 dv h1 h2 o1 E2 O1).
  apply clone_take_ok; [lia| |exact Oo].
  apply ok_Pfrom. eapply ok_ext; eauto.
Qed.

(* detach: the lists are new, the internal tensors are those of self *)
Lemma hdetach_ok h o :
  ok F own n0 dv h o -> n0 <= n1 -> n1 <= length h ->
  post F own n0 dv h (Robj F own n0 dv) (hdetach F (h, o)) (detach F (abs h o)).
Proof.
  intros O N01 N. unfold hdetach, detach.
  eapply post_bind; [apply hclone_ok; eauto|].
  intros h1 o1 other s E O1 [Oo <-]. apply post_geto, post_get.
  change (ret (copy_tensors F (abs h1 o1) (abs h1 other)) (abs h1 o1)) with
    (lift (Ok (copy_tensors F (abs h1 o1) (abs h1 other))) (abs h1 o1)).
  apply post_onh_res; [exact O1|]. apply hres_hpost.
  apply take_tensors_ok with (P := okl F own dv); auto.
  - intros. eapply okl_ext; eauto.
  - now intros h' l [].
  - intros h' v N' P'. apply hpost_ret. split; auto.
  - intros h' v N' P'. apply hpost_ret. split; [exact P'|split; reflexivity].
  - apply O1.
  - split; [|split]; [intros a v Ev; eapply ok_pad; eauto|intros m Em; eapply ok_mask; eauto|exact (ok_num _ _ _ _ _ _ O1)].
  - eapply ok_weaken; [|apply O1|exact Oo]. intros l Hl. apply own_fresh. unfold freshown in Hl. lia.
Qed.

(* the internal tensors of a clone are those self has *)
Lemma has_keeps a (s : pc F) : pad F (snd (has F a s)) = pad F s /\ mask F (snd (has F a s)) = mask F s.
Proof. unfold has, mbind, get, modify, ret. destruct (qget a (flg F s)); split; reflexivity. Qed.

Lemma opt_none {X Y} (f : X -> res Y) o : opt_mapM f o = Ok None -> o = None.
Proof. destruct o as [x|]; [|reflexivity]. cbn. destruct (f x); discriminate. Qed.

Lemma clone_pads (s0 so s' : pc F) :
  clone F s0 = (Ok so, s') ->
  (forall a, qget a (pad F s') = None -> qget a (pad F so) = None) /\ (mask F s' = None -> mask F so = None).
Proof.
  unfold clone. unfold mbind at 1. destruct (has F Points s0) as [[b|] s1]; [|discriminate].
  destruct (negb b); [intros [= <- <-]; split; [now intros []|reflexivity]|].
  unfold get. unfold mbind at 1. intros H.
  assert (K : exists other, so = copy_tensors F s1 other /\ s' = s1 /\
     (forall a, qget a (pad F s1) = None -> qget a (pad F other) = None) /\ mask F other = None).
  { destruct (qp (lst F s1)) as [pl|].
    - unfold mbind, lift in H. destruct (ctor F _ _ _ _) as [other|] eqn:Ec; [|discriminate].
      injection H as <- <-. exists other. split; [reflexivity|]. split; [reflexivity|].
      apply ctor_inv in Ec. destruct Ec as (p1 & p2 & p3 & p4 & p5 & p6 & p7 & p8 & _ & _ & _ & _ & E5 & E6 & E7 & E8 & ->).
      cbn in E5. injection E5 as <-.
      assert (G : forall x (y : option T3), opt_mapM (as_t3 F) (tensor_of F (oin F (in2 F) x)) = Ok y -> y = None).
      { intros [x|] y; cbn; intros [= <-]; reflexivity. }
      apply G in E6, E7, E8. subst. split; [intros []; reflexivity|reflexivity].
    - destruct (qp (pad F s1)) as [pp|] eqn:Ep; [|discriminate].
      unfold mbind, lift in H. destruct (ctor F _ _ _ _) as [other|] eqn:Ec; [|discriminate].
      injection H as <- <-. exists other. split; [reflexivity|]. split; [reflexivity|].
      apply ctor_inv in Ec. destruct Ec as (p1 & p2 & p3 & p4 & p5 & p6 & p7 & p8 & _ & _ & _ & _ & E5 & E6 & E7 & E8 & ->).
      assert (G : forall x (y : option T3), opt_mapM (as_t3 F) (tensor_of F (oin F (in3 F) x)) = Ok y -> y = x).
      { intros [x|] y; cbn; intros [= <-]; reflexivity. }
      apply G in E6, E7, E8. subst. split; [|reflexivity].
      intros []; cbn; auto. rewrite Ep. discriminate. }
  destruct K as (other & -> & -> & Ka & Km). split.
  - intros a Ha. specialize (Ka a Ha). destruct a; cbn in *; rewrite Ha; exact Ka.
  - intros Hm. cbn. rewrite Hm. exact Km.
Qed.

Variable cur : nat.
Variable ownR : nat -> Prop.
Definition Rnew d (h : heap) (r : option obj) (s : pc F) : Prop := exists o', r = Some o' /\ Robj F ownR n1 d h o' s.

Lemma mto_ok d h l :
  (forall l, n1 <= l -> ownR l) -> n1 <= length h ->
  ok2 F own1 dv h l ->
  hpost F h (fun h' ws => R2l F ownR d h' ws (map (read2 h) l)) (mmap (to2 F d) l h).
Proof.
  intros Fr N H.
  apply mmap_ok with (n0 := n1) (pre := fun h v => v2l v < length h /\ n1 <= v2l v); auto.
  - intros h1 h2 v E [A B]. pose proof (ext_len _ _ _ E). split; [lia|exact B].
  - now intros h1 v [].
  - intros h1 v N1 [A B]. apply (to2_ok F ownR n1 d); auto.
  - eapply Forall_impl; [|exact H]. intros v [A [B _]]. now split.
Qed.
Lemma oto_ok d h o :
  (forall l, n1 <= l -> ownR l) -> n1 <= length h -> (forall l, o = Some l -> ok2 F own1 dv h l) ->
  hpost F h (fun h' ws => Ropt F (R2l F ownR d) h' ws (option_map (map (read2 h)) o))
    (omap (mmap (to2 F d)) o h).
Proof.
  intros Fr N H. destruct o as [l|]; cbn [omap option_map]; [|now apply hpost_ret].
  eapply hpost_bind; [apply mto_ok; auto|]. intros h1 w E K. now apply hpost_ret.
Qed.

Lemma post_state {A B} h (R : heap -> A -> B -> Prop) x y : post F own n0 dv h R x y -> snd y = abs (fst (snd x)) (snd (snd x)).
Proof. intros (_ & _ & E & _). now rewrite E. Qed.

(* to(device): a new object on that device *)
Lemma hto_ok h o a copy :
  ok F own n0 dv h o -> n0 <= n1 -> n1 <= length h ->
  (forall l, n1 <= l -> ownR l) ->
  (resolve cur (spec_of a) = dv -> forall l, own l -> ownR l) ->
  same_dev dv a = false ->
  post F own n0 dv h (Rnew (resolve cur (spec_of a))) (hto F cur a copy (h, o)) (detach F (abs h o)).
Proof.
  intros O N01 N Fr OR Sd. unfold hto, detach. apply post_geto.
  rewrite (ok_dev _ _ _ _ _ _ O), Sd, andb_false_r.
  set (d := resolve cur (spec_of a)) in *.
  pose proof (hclone_ok h o O N) as HC.
  destruct (hclone F (h, o)) as [r [h1 o1]] eqn:Eh. destruct (clone F (abs h o)) as [r' s1] eqn:Ec.
  rewrite (mbind_at _ _ _ _ _ Eh), (mbind_at _ _ _ _ _ Ec).
  destruct HC as (E & O1 & As & HR). cbn [fst snd] in *. subst s1.
  destruct r as [other|e], r' as [so|e']; try contradiction.
  2:{ subst e'. split; [exact E|]. split; [exact O1|]. split; reflexivity. }
  destruct HR as [Oo <-].
  destruct (clone_pads _ _ _ Ec) as [Cp Cm].
  cut (post F own n0 dv h1 (Rnew d)
     ((do s <- geto F;
       do pl <- onh F (omap (mmap (to2 F d)) (qp (olst other)));
       do nl <- onh F (omap (mmap (to2 F d)) (qn (olst other)));
       do cl <- onh F (omap (mmap (to2 F d)) (qc (olst other)));
       do fl <- onh F (omap (mmap (to2 F d)) (qf (olst other)));
       do r <- onh F (take_tensors F (to3 F d) (to_cell F d) s
                        (owith_dev d (owith_lst (mkQ pl nl cl fl) other)));
       ret (Some r)) (h1, o1))
     (ret (copy_tensors F (abs h1 o1) (abs h1 other)) (abs h1 o1))).
  { intros [E2 K]. split; [eapply ext_trans; [exact E|exact E2]|exact K]. }
  apply post_geto. pose proof (ext_len _ _ _ E) as LE.
  assert (RS : forall h h', ext h h' -> forall l, (forall x, l = Some x -> ok2 F own1 dv h x) ->
     option_map (map (read2 h')) l = option_map (map (read2 h)) l /\ (forall x, l = Some x -> ok2 F own1 dv h' x)).
  { intros h' h'' X l Hl. split.
    - destruct l as [l|]; [|reflexivity]. cbn. f_equal. eapply ok2_read; eauto.
    - intros x Hx. eapply ok2_ext; eauto. }
  pose proof (ok_lst _ _ _ _ _ _ Oo Points) as Q1. pose proof (ok_lst _ _ _ _ _ _ Oo Normals) as Q2.
  pose proof (ok_lst _ _ _ _ _ _ Oo Colors) as Q3. pose proof (ok_lst _ _ _ _ _ _ Oo Features) as Q4.
  cbn [qget] in Q1, Q2, Q3, Q4.
  eapply post_onh; [exact O1|apply oto_ok; [exact Fr|lia|exact Q1]|]. cbn beta.
  intros h2 pl X2 O2 A2 K1. pose proof (ext_len _ _ _ X2).
  destruct (RS _ _ X2 _ Q2) as [G2 S2].
  eapply post_onh; [exact O2|apply oto_ok; [exact Fr|lia|exact S2]|]. cbn beta.
  intros h3 nl X3 O3 A3 K2. pose proof (ext_len _ _ _ X3). rewrite G2 in K2.
  assert (Y3 : ext h1 h3) by (eapply ext_trans; eauto). destruct (RS _ _ Y3 _ Q3) as [G3 S3].
  eapply post_onh; [exact O3|apply oto_ok; [exact Fr|lia|exact S3]|]. cbn beta.
  intros h4 cl X4 O4 A4 K3. pose proof (ext_len _ _ _ X4). rewrite G3 in K3.
  assert (Y4 : ext h1 h4) by (eapply ext_trans; eauto). destruct (RS _ _ Y4 _ Q4) as [G4 S4].
  eapply post_onh; [exact O4|apply oto_ok; [exact Fr|lia|exact S4]|]. cbn beta.
  intros h5 fl X5 O5 A5 K4. pose proof (ext_len _ _ _ X5). rewrite G4 in K4.
  assert (Y5 : ext h1 h5) by (eapply ext_trans; eauto).
  assert (X25 : ext h2 h5) by (eapply ext_trans; [exact X3|]; eapply ext_trans; eauto).
  assert (X35 : ext h3 h5) by (eapply ext_trans; eauto).
  apply (Ropt_ext F _ _ h5) in K1; [|intros; now apply (R2l_ext F ownR d h2)].
  apply (Ropt_ext F _ _ h5) in K2; [|intros; now apply (R2l_ext F ownR d h3)].
  apply (Ropt_ext F _ _ h5) in K3; [|intros; now apply (R2l_ext F ownR d h4)].
  set (other' := owith_dev d (owith_lst (mkQ pl nl cl fl) other)).
  assert (At : abs h5 other' = abs h1 other).
  { unfold other', StoreModel.abs. cbn [olst opad omask oflg onum obat onmax oequi owith_lst owith_dev].
    pose proof (abs_ext F own1 n1 dv _ _ _ Y5 Oo) as Ab. unfold StoreModel.abs in Ab.
    injection Ab as _ _ _ _ B1 B2 B3 B4 B5 B6.
    assert (G : forall x y, Ropt F (R2l F ownR d) h5 x y -> option_map (map (read2 h5)) x = y).
    { intros [x|] [y|]; cbn; intros K; try contradiction; [|reflexivity]. destruct K as [_ ->]. reflexivity. }
    f_equal; auto.
    - unfold qmap. cbn [qp qn qc qf]. now rewrite (G _ _ K1), (G _ _ K2), (G _ _ K3), (G _ _ K4).
    - unfold qmap. now rewrite B1, B2, B3, B4. }
  assert (O15 : ok F own n0 dv h5 o1) by (eapply ok_ext; eauto).
  assert (A15 : abs h5 o1 = abs h1 o1) by (eapply abs_ext; eauto).
  eapply post_onh with (P := fun h' r => Robj F ownR n1 d h' r (copy_tensors F (abs h1 o1) (abs h1 other))).
  - exact O5.
  - rewrite <- At, <- A15.
    set (P := fun (h : heap) l => l < length h /\ (devof F h l = d -> ownR l)).
    apply take_tensors_gen with (P := P).
    + intros h' h'' l X [A B]. pose proof (ext_len _ _ _ X). split; [lia|]. now rewrite (ext_devof _ _ _ _ X A).
    + now intros h' l [].
    + intros h' v N' P'. apply (to3_ok F ownR n1 d); auto.
    + intros h' v N' P'. apply (to_cell_ok F ownR n1 d); auto.
    + lia.
    + assert (G : forall l, okl F own dv h5 l -> P h5 l).
      { intros l [A [B C]]. split; [exact A|]. intros D. apply OR; [congruence|exact B]. }
      split; [|split].
      * intros x v Ev. apply G. eapply ok_pad; eauto.
      * intros m Em. apply G. eapply ok_mask; eauto.
      * apply G. exact (ok_num _ _ _ _ _ _ O15).
    + intros x l. unfold other'. cbn. intros Ex.
      destruct (opts_ok F _ _ _ _ _ _ _ _ _ _ _ _ K1 K2 K3 K4 Ex) as [y [Gy _]]. exact Gy.
    + intros x v Ev En. exfalso. specialize (Cp x). rewrite !abs_pad, En in Cp. specialize (Cp eq_refl).
      unfold other' in Ev. cbn in Ev. rewrite Ev in Cp. discriminate.
    + intros m Em En. exfalso. unfold other' in Em. cbn in Em, Cm. rewrite En, Em in Cm. specialize (Cm eq_refl). discriminate.
    + reflexivity.
  - intros h6 r X6 O6 A6 K6.
    rewrite <- A2, <- A3, <- A4, <- A5, <- A6.
    assert (G : abs h6 o1 = abs h1 o1) by (eapply abs_ext; [|eassumption]; eapply ext_trans; eauto).
    split; [apply ext_refl|]. split; [exact O6|]. split; [reflexivity|]. cbn.
    exists r. split; [reflexivity|].
    rewrite A6, A5, A4, A3, A2. exact K6.
Qed.

End CLONE.
End ST.
