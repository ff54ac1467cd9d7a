(* Constructor, clone, to, detach, indexing at the storage level. *)
From Coq Require Import Reals List Arith Bool ZArith Lia.
From Verif Require Import Res TensorModel RgbdModel RgbdStoreModel RgbdStoreSpec RgbdStoreProofs.
From Verif Require StoreModel.
Import ListNotations.
Local Open Scope nat_scope.

Definition new_locs (rgb depth intr poses pix : iarg) : list nat :=
  arg_locs rgb ++ arg_locs depth ++ arg_locs intr ++ arg_locs poses ++ arg_locs pix.

(* a step that cannot raise *)
Lemma bind_ok {A A' B C} h (m : M iheap A) (v : C) post (k : A -> M iheap A') (r : res B) post' :
  sim h m (Ok v) post -> (forall a h', ext h h' -> post a h' v -> sim h' (k a) r post') ->
  sim h (mbind m k) r post'.
Proof.
  intros [E S] H. unfold mbind, sim. destruct (m h) as [[a|e] h1]; cbn [fst snd] in *; [|contradiction].
  destruct (H a h1 E S) as [E2 S2]. split; [eapply ext_trans; eauto|exact S2].
Qed.

Lemma forallb_dev h d locs : (forall l, In l locs -> idev h l = d) -> forallb (fun l => dev_eqb (idev h l) d) locs = true.
Proof. intros H. apply forallb_forall. intros l I. rewrite (H l I). apply dev_eqb_refl. Qed.

Section Q.
Variable Q : nat -> Prop.
Variable n : nat.
Hypothesis Qn : forall l, n <= l -> Q l.
Notation okr := (okr Q).
Notation ok := (ok Q).

Lemma sim_inew d0 h rgb depth intr poses cf pix device : n <= length h ->
  (forall l, In l (new_locs rgb depth intr poses pix) -> Q l /\ l < length h /\ idev h l = d0) ->
  let d := match device with Some d => d | None => d0 end in
  sim h (inew rgb depth intr poses cf pix device)
    (rgbd_new (rdinp h rgb) (rdinp h depth) (rdinp h intr) (rdinp h poses) cf (rdinp h pix))
    (fun o h' s => iabs h' o = s /\ ok d h' o).
Proof.
  intros L H d. unfold inew. apply sim_get.
  destruct (rgbd_new _ _ _ _ _ _) as [s|e] eqn:En; [|apply (sim_err h e)].
  unfold lift at 1. unfold sim, mbind at 1. cbn [fst snd]. 
  change (sim h (let locs := new_locs rgb depth intr poses pix in
    let d1 := idev h (hd 0 locs) in
    if negb (forallb (fun l => dev_eqb (idev h l) d1) locs) then raise ValueError else
    let d2 := match device with Some d => d | None => d1 end in
    do a <- take_arg d2 rgb; do b <- take_arg d2 depth; do c <- take_arg d2 intr;
    do p <- take_arg d2 poses; do x <- take_arg d2 pix;
    ret (mkI cf (fun k => match k with SRgb => a | SDepth => b | SIntr => c | SPoses => p | SPix => x | _ => None end)
           None (r_rgbsh s) (r_depsh s) (r_intrsh s) (r_posesh s) (r_B s) (r_L s) (r_h s) (r_w s) d2)) (Ok s)
    (fun o h' s => iabs h' o = s /\ ok d h' o)).
  destruct (rgbd_new_inv _ _ _ _ _ _ _ En) as (ta & tb & tc & Ea & Eb & Ec & Np & Nx & Es).
  cbv zeta.
  assert (D0 : idev h (hd 0 (new_locs rgb depth intr poses pix)) = d0).
  { destruct rgb as [|r|]; try discriminate. apply H. now left. }
  rewrite D0. rewrite forallb_dev by (intros l I; now apply H). cbn [negb]. fold d.
  assert (A : forall a, In a [rgb; depth; intr; poses; pix] -> arg_ok Q h a).
  { intros a I l J. destruct (H l) as (X & Y & _); [|auto]. unfold new_locs. rewrite !in_app_iff.
    destruct I as [<-|[<-|[<-|[<-|[<-|[]]]]]]; auto. }
  eapply bind_ok; [apply (sim_take_arg Q n Qn d); [lia|apply A; cbn; auto]|]. intros a h1 E1 [V1 K1].
  pose proof (ext_len _ _ E1).
  eapply bind_ok; [apply (sim_take_arg Q n Qn d); [lia|eapply arg_ok_ext; [exact E1|apply A; cbn; auto]]|]. intros b h2 E2 [V2 K2].
  pose proof (ext_trans _ _ _ E1 E2) as E12. pose proof (ext_len _ _ E2).
  eapply bind_ok; [apply (sim_take_arg Q n Qn d); [lia|eapply arg_ok_ext; [exact E12|apply A; cbn; auto]]|]. intros c h3 E3 [V3 K3].
  pose proof (ext_trans _ _ _ E12 E3) as E13. pose proof (ext_len _ _ E3).
  eapply bind_ok; [apply (sim_take_arg Q n Qn d); [lia|eapply arg_ok_ext; [exact E13|apply A; cbn; auto]]|]. intros p h4 E4 [V4 K4].
  pose proof (ext_trans _ _ _ E13 E4) as E14. pose proof (ext_len _ _ E4).
  eapply bind_ok; [apply (sim_take_arg Q n Qn d); [lia|eapply arg_ok_ext; [exact E14|apply A; cbn; auto 10]]|]. intros x h5 E5 [V5 K5].
  apply sim_ret.
  rewrite (rdinp_ext Q h h1) in V2 by (auto; apply A; cbn; auto). rewrite (rdinp_ext Q h h2) in V3 by (auto; apply A; cbn; auto).
  rewrite (rdinp_ext Q h h3) in V4 by (auto; apply A; cbn; auto). rewrite (rdinp_ext Q h h4) in V5 by (auto; apply A; cbn; auto 10).
  rewrite Ea in V1. rewrite Eb in V2. rewrite Ec in V3. cbn [ten_of] in V1, V2, V3.
  assert (Z : forall (o : option ref) ha hb, ext ha hb -> (forall r, o = Some r -> okr d ha r) -> option_map (rread hb) o = option_map (rread ha) o).
  { intros o ha hb E K. destruct o as [r|]; [|reflexivity]. cbn. f_equal. apply ext_read; [exact E|]. apply (K r eq_refl). }
  assert (ZE : forall ha hb (o : option ref), ext ha hb -> (forall r, o = Some r -> okr d ha r) -> forall r, o = Some r -> okr d hb r).
  { intros ha hb o E K r X. eapply okr_ext; eauto. }
  pose proof (ext_trans _ _ _ E4 E5) as E45. pose proof (ext_trans _ _ _ E3 E45) as E35.
  pose proof (ext_trans _ _ _ E2 E35) as E25.
  split.
  - unfold iabs. cbn [o_t o_cf o_mask o_rgbsh o_depsh o_intrsh o_posesh o_B o_L o_h o_w option_map].
    rewrite (Z a h1 h5), (Z b h2 h5), (Z c h3 h5), (Z p h4 h5) by auto.
    rewrite V1, V2, V3, V4, V5. symmetry. exact Es.
  - split; [reflexivity|]. split; [|discriminate]. intros k r. cbn [o_t]. destruct k; try discriminate; intros X.
    + eapply (ZE h1 h5); eauto.
    + eapply (ZE h2 h5); eauto.
    + eapply (ZE h3 h5); eauto.
    + eapply (ZE h4 h5); eauto.
    + now apply K5.
Qed.

(* ---- getattr / setattr over the internal tensors ---- *)
Definition set_field (k : slot) (v : option (ten R)) (s : rgbd) : rgbd :=
  match k with
  | SRgb => with_rgb v s | SDepth => with_depth v s | SIntr => with_intr v s | SPoses => with_poses v s
  | SPix => with_pix v s | SVm => with_vm v s | SNm => with_nm v s | SGvm => with_gvm v s | SGnm => with_gnm v s
  end.
Lemma iabs_set_slot h k v o : iabs h (set_slot k v o) = set_field k (option_map (rread h) v) (iabs h o).
Proof. destruct k; reflexivity. Qed.
Lemma field_iabs h o k : field (iabs h o) k = option_map (rread h) (o_t o k).
Proof. destruct k; reflexivity. Qed.
Fixpoint vtake (g : ten R -> res (ten R)) (s : rgbd) (l : list slot) (t : rgbd) : res rgbd :=
  match l with
  | [] => Ok t
  | k :: l' => match field s k with
               | None => vtake g s l' t
               | Some x => let? y := g x in vtake g s l' (set_field k (Some y) t)
               end
  end.
Lemma slot_eqb_eq a b : slot_eqb a b = true <-> a = b.
Proof. destruct a, b; cbn; split; intros; congruence. Qed.
Lemma slot_eqb_refl a : slot_eqb a a = true. Proof. now apply slot_eqb_eq. Qed.
Lemma ok_set_slot d h k v o : ok d h o -> (forall r, v = Some r -> okr d h r) -> ok d h (set_slot k v o).
Proof.
  intros (A & B & C) H. split; [exact A|]. split; [|exact C]. intros k' r. cbn.
  destruct (slot_eqb k k'); [apply H|apply B].
Qed.
Definition okw (from : iobj) (l : list slot) (d : dev) (h : iheap) (o : iobj) : Prop :=
  o_dev o = d /\
  (forall k r, o_t o k = Some r -> rloc r < length h /\ (okr d h r \/ (In k l /\ o_t from k <> None))) /\
  (forall l, o_mask o = Some l -> Q l /\ l < length h /\ idev h l = d).
Lemma ok_okw from l d h o : ok d h o -> okw from l d h o.
Proof. intros (A & B & C). split; [exact A|]. split; [|exact C]. intros k r E. split; [apply (B k r E)|left; now apply (B k r)]. Qed.
Lemma iabs_ext_w from l d h h' o : ext h h' -> okw from l d h o -> iabs h' o = iabs h o.
Proof.
  intros E (A & B & C). apply iabs_same. intros l' [(k & r & X & <-)|X]; apply ext_nth; auto; [apply (B k r X)|apply (C l' X)].
Qed.
Lemma sim_take_slots_w d h0 f g from s l : forall h to,
  n <= length h -> ext h0 h -> s = iabs h0 from -> (forall k r, In k l -> o_t from k = Some r -> rloc r < length h0) ->
  (forall h k r, ext h0 h -> n <= length h -> In k l -> o_t from k = Some r ->
     sim h (f r) (g (rread h r)) (fun r' h' t => rread h' r' = t /\ okr d h' r')) ->
  okw from l d h to ->
  sim h (take_slots f from l to) (vtake g s l (iabs h to)) (fun c h' s' => iabs h' c = s' /\ ok d h' c).
Proof.
  induction l as [|k l IH]; intros h to L E Es Lf Hf Oto; cbn [take_slots vtake].
  - apply sim_ret. split; [reflexivity|]. destruct Oto as (A & B & C). split; [exact A|]. split; [|exact C].
    intros k r X. destruct (B k r X) as [_ [Y|[[] _]]]. exact Y.
  - rewrite Es, field_iabs, <- Es. destruct (o_t from k) as [r|] eqn:Ek; cbn [option_map].
    + assert (Lr : rloc r < length h0) by (apply (Lf k); cbn; auto).
      eapply sim_bind.
      * rewrite <- (ext_read h0 h r E Lr). apply (Hf h k r E L); cbn; auto.
      * intros r' h' y E' [V K]. pose proof (ext_len _ _ E').
        replace (set_field k (Some y) (iabs h to)) with (iabs h' (set_slot k (Some r') to)).
        -- apply IH; auto; [lia|eapply ext_trans; eauto|intros; eapply Lf; cbn; eauto|intros; eapply Hf; cbn; eauto|].
           destruct Oto as (A & B & C). split; [exact A|]. split.
           ++ intros k' r2. cbn [o_t set_slot]. destruct (slot_eqb k k') eqn:Eq.
              ** intros X. injection X as <-. split; [apply K|now left].
              ** intros X. destruct (B k' r2 X) as [Y Z]. split; [lia|]. destruct Z as [Z|[[<-|Z] W]].
                 --- left. eapply okr_ext; eauto.
                 --- rewrite slot_eqb_refl in Eq. discriminate.
                 --- right. auto.
           ++ cbn. intros l' X. destruct (C l' X) as (X1 & X2 & X3). split; [exact X1|]. split; [lia|]. now rewrite (ext_idev h).
        -- rewrite iabs_set_slot, (iabs_ext_w from (k :: l) d h h' to E' Oto). cbn. now rewrite V.
    + apply IH; auto.
      * intros k' r' I. apply Lf. now right.
      * intros h' k' r' E' L' I. apply Hf; auto. now right.
      * destruct Oto as (A & B & C). split; [exact A|]. split; [|exact C]. intros k' r' X. destruct (B k' r' X) as [Y Z].
        split; [exact Y|]. destruct Z as [Z|[[<-|Z] W]]; auto. contradiction.
Qed.
Lemma sim_take_slots d h0 f g from s l h to :
  n <= length h -> ext h0 h -> s = iabs h0 from -> (forall k r, In k l -> o_t from k = Some r -> rloc r < length h0) ->
  (forall h k r, ext h0 h -> n <= length h -> In k l -> o_t from k = Some r ->
     sim h (f r) (g (rread h r)) (fun r' h' t => rread h' r' = t /\ okr d h' r')) ->
  ok d h to ->
  sim h (take_slots f from l to) (vtake g s l (iabs h to)) (fun c h' s' => iabs h' c = s' /\ ok d h' c).
Proof. intros L E Es Lf Hf O. apply sim_take_slots_w with (h0 := h0); auto. now apply ok_okw. Qed.
End Q.

Lemma vtake_clone s o : 
  r_poses o = None -> r_pix o = None -> r_vm o = None -> r_nm o = None -> r_gvm o = None -> r_gnm o = None ->
  vtake Ok s slots_rest o =
  Ok (with_maps (r_vm s) (r_nm s) (r_gvm s) (r_gnm s) (with_pix (r_pix s) (with_poses (r_poses s) o))).
Proof.
  destruct o as [cf a b c p x vm nm gvm gnm m sh1 sh2 sh3 sh4 B L H W]. cbn. intros -> -> -> -> -> ->.
  destruct (r_poses s), (r_pix s), (r_vm s), (r_nm s), (r_gvm s), (r_gnm s); reflexivity.
Qed.
Lemma rgbd_new_rest a b c cf s : rgbd_new a b c TNone cf TNone = Ok s ->
  r_poses s = None /\ r_pix s = None /\ r_vm s = None /\ r_nm s = None /\ r_gvm s = None /\ r_gnm s = None /\ r_mask s = None.
Proof.
  intros H. destruct (rgbd_new_inv _ _ _ _ _ _ _ H) as (ta & tb & tc & _ & _ & _ & _ & _ & E). rewrite E. repeat split.
Qed.

Lemma sim_bind_eq {A B A' B'} h (m : M iheap A) (r : res B) post (k : A -> M iheap A') (k' : B -> res B') post' :
  sim h m r post -> (forall a h' b, ext h h' -> r = Ok b -> post a h' b -> sim h' (k a) (k' b) post') ->
  sim h (mbind m k) (rbind r k') post'.
Proof.
  intros S H. destruct r as [b|e].
  - cbn [rbind]. eapply bind_ok; [exact S|]. intros a h' E P. now apply H.
  - destruct S as [E S]. unfold sim, mbind. destruct (m h) as [[x|e'] h1]; cbn in *; [contradiction|]. auto.
Qed.
(* ---- methods that do not assign to self ---- *)
Definition simk {A B} (h : iheap) (o : iobj) (m : M (iheap * iobj) A) (r : res B) (post : A -> iheap -> B -> Prop) : Prop :=
  let '(a, (h', o')) := m (h, o) in
  ext h h' /\ o' = o /\
  match a, r with
  | Ok a, Ok b => post a h' b
  | Err e, Err e' => e = e'
  | _, _ => False
  end.
Lemma simk_onh {A B} h o (m : M iheap A) (r : res B) post : sim h m r post -> simk h o (onh m) r post.
Proof.
  intros [E S]. unfold simk, onh. cbn [fst snd]. destruct (m h) as [a h']. cbn in *. auto.
Qed.
Lemma simk_geto {A B} h o (k : iobj -> M (iheap * iobj) A) (r : res B) post : simk h o (k o) r post -> simk h o (mbind geto k) r post.
Proof. exact (fun x => x). Qed.
Lemma simk_raise {A B} h o e (post : A -> iheap -> B -> Prop) : simk h o (raise e) (Err e) post.
Proof. unfold simk, raise. auto. Qed.
Lemma simk_ret {A B} h o (a : A) (b : B) (post : A -> iheap -> B -> Prop) : post a h b -> simk h o (ret a) (Ok b) post.
Proof. unfold simk, ret. auto. Qed.
Lemma simk_bind {A B A' B'} h o (m : M (iheap * iobj) A) (r : res B) post (k : A -> M (iheap * iobj) A') (k' : B -> res B') post' :
  simk h o m r post -> (forall a h' b, ext h h' -> post a h' b -> simk h' o (k a) (k' b) post') ->
  simk h o (mbind m k) (rbind r k') post'.
Proof.
  unfold simk, mbind. intros S H. destruct (m (h, o)) as [[a|e] [h1 o1]]; destruct r as [b|e']; cbn [rbind]; destruct S as (E & -> & S); try contradiction.
  - specialize (H a h1 b E S). destruct (k a (h1, o)) as [a2 [h2 o2]]. destruct H as (E2 & -> & S2). split; [eapply ext_trans; eauto|]. auto.
  - auto.
Qed.
Lemma simk_bind_ok {A A' B C} h o (m : M (iheap * iobj) A) (v : C) post (k : A -> M (iheap * iobj) A') (r : res B) post' :
  simk h o m (Ok v) post -> (forall a h', ext h h' -> post a h' v -> simk h' o (k a) r post') ->
  simk h o (mbind m k) r post'.
Proof.
  unfold simk, mbind. intros S H. destruct (m (h, o)) as [[a|e] [h1 o1]]; destruct S as (E & -> & S); try contradiction.
  specialize (H a h1 E S). destruct (k a (h1, o)) as [a2 [h2 o2]]. destruct H as (E2 & -> & S2). split; [eapply ext_trans; eauto|]. auto.
Qed.
Lemma simk_lift {A A' B'} h o (r : res A) (k : A -> M (iheap * iobj) A') (k' : A -> res B') post' :
  (forall a, r = Ok a -> simk h o (k a) (k' a) post') -> simk h o (mbind (lift r) k) (rbind r k') post'.
Proof.
  intros H. destruct r as [a|e]; [now apply H|]. unfold simk, mbind, lift. cbn. auto.
Qed.
Lemma simk_post {A B} h o (m : M (iheap * iobj) A) (r : res B) (post post' : A -> iheap -> B -> Prop) :
  simk h o m r post -> (forall a h' b, ext h h' -> post a h' b -> post' a h' b) -> simk h o m r post'.
Proof.
  unfold simk. intros S H. destruct (m (h, o)) as [[a|e] [h1 o1]]; destruct S as (E & -> & S); split; auto; split; auto.
  destruct r; auto.
Qed.

Lemma rbind_ok {A} (r : res A) : rbind r Ok = r. Proof. now destruct r. Qed.

Section Q2.
Variable Q : nat -> Prop.
Variable n : nat.
Hypothesis Qn : forall l, n <= l -> Q l.
Notation okr := (okr Q).
Notation ok := (ok Q).

(* clone: a new object made of new storages *)
Lemma iclone_sim d h o : n <= length h -> RgbdStoreProofs.ok (fun _ => True) d h o ->
  simk h o iclone (rgbd_clone (iabs h o)) (fun c h' s => iabs h' c = s /\ ok d h' c).
Proof.
  intros L (Od & Ot & Om). unfold iclone. apply simk_geto. unfold rgbd_clone.
  cbn [iabs r_rgb r_depth r_intr r_cf].
  destruct (o_t o SRgb) as [a|] eqn:Ea; [|apply simk_raise].
  destruct (o_t o SDepth) as [b|] eqn:Eb; [|apply simk_raise].
  destruct (o_t o SIntr) as [c|] eqn:Ec; [|apply simk_raise]. cbn [option_map].
  destruct (Ot _ _ Ea) as (_ & La & Da). destruct (Ot _ _ Eb) as (_ & Lb & Db). destruct (Ot _ _ Ec) as (_ & Lc & Dc).
  apply simk_onh.
  eapply bind_ok; [apply (sim_clone_ref Q n Qn d); auto|]. intros a' h1 E1 [Va Ka]. pose proof (ext_len _ _ E1).
  eapply bind_ok; [apply (sim_clone_ref Q n Qn d); [lia|now rewrite (ext_idev h)]|]. intros b' h2 E2 [Vb Kb].
  pose proof (ext_trans _ _ _ E1 E2) as E12. pose proof (ext_len _ _ E2).
  eapply bind_ok; [apply (sim_clone_ref Q n Qn d); [lia|now rewrite (ext_idev h)]|]. intros c' h3 E3 [Vc Kc].
  pose proof (ext_trans _ _ _ E12 E3) as E13. pose proof (ext_len _ _ E3). pose proof (ext_trans _ _ _ E2 E3) as E23.
  rewrite (ext_read h h1) in Vb by auto. rewrite (ext_read h h2) in Vc by auto.
  pose proof (okr_ext _ _ _ _ _ E23 Ka) as Ka3. pose proof (okr_ext _ _ _ _ _ E3 Kb) as Kb3.
  rewrite <- (ext_read h1 h3 a' E23) in Va by apply Ka. rewrite <- (ext_read h2 h3 b' E3) in Vb by apply Kb.
  eapply sim_bind_eq.
  - pose proof (sim_inew Q n Qn d h3 (ATen a') (ATen b') (ATen c') ANone (o_cf o) ANone None) as S.
    cbn [rdinp] in S. rewrite Va, Vb, Vc in S. apply S; [lia|].
    intros l I. cbn in I. destruct I as [<-|[<-|[<-|[]]]]; assumption.
  - intros other h4 so E4 En [Vo Ko]. subst so.
    assert (Er : r_poses (iabs h4 other) = None /\ r_pix (iabs h4 other) = None /\ r_vm (iabs h4 other) = None /\
      r_nm (iabs h4 other) = None /\ r_gvm (iabs h4 other) = None /\ r_gnm (iabs h4 other) = None).
    { destruct (rgbd_new_rest _ _ _ _ _ En) as (X1 & X2 & X3 & X4 & X5 & X6 & _). auto 10. }
    destruct Er as (R1 & R2 & R3 & R4 & R5 & R6).
    rewrite <- (vtake_clone (iabs h o) (iabs h4 other)) by auto.
    pose proof (ext_len _ _ E4).
    apply (sim_take_slots Q n d h); auto; [lia|eapply ext_trans; eauto| |].
    + intros k r _ Ek. apply (Ot k r Ek).
    + intros h5 k r E5 L5 _ Ek. apply (sim_clone_ref Q n Qn d); [exact L5|]. destruct (Ot k r Ek) as (_ & X & Y).
      now rewrite (ext_idev h).
Qed.

Lemma vtake_all s o : r_poses o = r_poses s -> r_pix o = r_pix s -> r_vm o = r_vm s -> r_nm o = r_nm s ->
  r_gvm o = r_gvm s -> r_gnm o = r_gnm s -> r_rgb o = r_rgb s -> r_depth o = r_depth s -> r_intr o = r_intr s ->
  vtake Ok s slots o = Ok o.
Proof.
  destruct o as [cf a b c p x vm nm gvm gnm m sh1 sh2 sh3 sh4 B L H W], s as [cf' a' b' c' p' x' vm' nm' gvm' gnm' m' sh1' sh2' sh3' sh4' B' L' H' W'].
  cbn [r_poses r_pix r_vm r_nm r_gvm r_gnm r_rgb r_depth r_intr]. intros -> -> -> -> -> -> -> -> ->.
  destruct a', b', c', p', x', vm', nm', gvm', gnm'; reflexivity.
Qed.
Lemma rgbd_clone_fields s c : rgbd_clone s = Ok c ->
  r_poses c = r_poses s /\ r_pix c = r_pix s /\ r_vm c = r_vm s /\ r_nm c = r_nm s /\
  r_gvm c = r_gvm s /\ r_gnm c = r_gnm s /\ r_rgb c = r_rgb s /\ r_depth c = r_depth s /\ r_intr c = r_intr s.
Proof.
  unfold rgbd_clone. destruct (r_rgb s) as [a|] eqn:Ea; [|discriminate]. destruct (r_depth s) as [b|] eqn:Eb; [|discriminate].
  destruct (r_intr s) as [k|] eqn:Ec; [|discriminate].
  destruct (rgbd_new _ _ _ _ _ _) as [o|e] eqn:En; cbn [rbind]; [|discriminate]. intros X. injection X as <-.
  destruct (rgbd_new_inv _ _ _ _ _ _ _ En) as (ta & tb & tc & Xa & Xb & Xc & _ & _ & ->).
  injection Xa as <-. injection Xb as <-. injection Xc as <-. cbn. auto 10.
Qed.
Lemma vtake_same s c : rgbd_clone s = Ok c -> vtake Ok s slots c = Ok c.
Proof. intros H. destruct (rgbd_clone_fields _ _ H) as (X1 & X2 & X3 & X4 & X5 & X6 & X7 & X8 & X9). now apply vtake_all. Qed.
Lemma simk_bind_eq {A B A' B'} h o (m : M (iheap * iobj) A) (r : res B) post (k : A -> M (iheap * iobj) A') (k' : B -> res B') post' :
  simk h o m r post -> (forall a h' b, ext h h' -> r = Ok b -> post a h' b -> simk h' o (k a) (k' b) post') ->
  simk h o (mbind m k) (rbind r k') post'.
Proof.
  intros S H. destruct r as [b|e].
  - cbn [rbind]. eapply simk_bind_ok; [exact S|]. intros a h' E P. now apply H.
  - revert S. unfold simk, mbind. destruct (m (h, o)) as [[x|e'] [h1 o1]]; intros (E & -> & S); [contradiction|]. auto.
Qed.

(* detach: the storages of self *)
Lemma idetach_sim d h o : n <= length h -> ok d h o ->
  simk h o idetach (rgbd_clone (iabs h o)) (fun c h' s => iabs h' c = s /\ ok d h' c).
Proof.
  intros L Oo. unfold idetach. rewrite <- (rbind_ok (rgbd_clone (iabs h o))).
  eapply simk_bind_eq; [apply (iclone_sim d); [exact L|eapply ok_mono; [|exact Oo]; auto]|].
  intros other h1 sc E Ec [Vc Kc]. apply simk_geto. apply simk_onh. subst sc. pose proof (ext_len _ _ E).
  rewrite <- (vtake_same _ _ Ec). destruct Oo as (Od & Ot & Om).
  apply (sim_take_slots Q n d h); auto; [lia| |].
  - intros k r _ Ek. apply (Ot k r Ek).
  - intros h5 k r E5 L5 _ Ek. apply sim_ret. split; [reflexivity|]. eapply okr_ext; eauto.
Qed.
End Q2.

Section Q3.
Variable Q : nat -> Prop.
Variable n : nat.
Hypothesis Qn : forall l, n <= l -> Q l.
Notation okr := (okr Q).
Notation ok := (ok Q).
(* to: every internal tensor of self, moved *)
Lemma ito_sim cur a copy d0 h o : n <= length h ->
  let d := resolve cur (spec_of a) in
  RgbdStoreProofs.ok (fun l => d0 = d -> Q l) d0 h o -> (copy = true \/ d0 <> d) ->
  simk h o (ito cur a copy) (rgbd_clone (iabs h o)) (fun c h' s => exists c', c = Some c' /\ iabs h' c' = s /\ ok d h' c').
Proof.
  intros L d Oo Hc. unfold ito. apply simk_geto. fold d.
  assert (Od : o_dev o = d0) by apply Oo.
  replace (negb copy && dev_eqb (o_dev o) d) with false.
  2:{ rewrite Od. destruct Hc as [->|N]; [reflexivity|]. rewrite (dev_eqb_neq _ _ N). now rewrite andb_false_r. }
  rewrite <- (rbind_ok (rgbd_clone (iabs h o))).
  assert (OT : RgbdStoreProofs.ok (fun _ => True) d0 h o) by (eapply ok_mono; [|exact Oo]; auto).
  eapply simk_bind_eq.
  { apply (iclone_sim (fun _ => True) 0 (fun _ _ => I) d0); [lia|exact OT]. }
  intros other h1 sc E Ec [Vc Kc]. subst sc. pose proof (ext_len _ _ E).
  destruct Oo as (_ & Ot & Om). destruct Kc as (Kd & Kt & Km).
  destruct (rgbd_clone_fields _ _ Ec) as (X1 & X2 & X3 & X4 & X5 & X6 & X7 & X8 & X9).
  assert (Xf : forall k, field (iabs h1 other) k = field (iabs h o) k) by (intros []; assumption).
  change (iabs h1 other) with (iabs h1 (set_dev d other)).
  rewrite <- (rbind_ok (Ok (iabs h1 (set_dev d other)))).
  eapply simk_bind.
  - apply simk_onh. 
    assert (VS : vtake Ok (iabs h o) slots (iabs h1 (set_dev d other)) = Ok (iabs h1 (set_dev d other))) by exact (vtake_same _ _ Ec).
    rewrite <- VS.
    apply (sim_take_slots_w Q n d h); auto; [lia| | |].
    + intros k r _ Ek. apply (Ot k r Ek).
    + intros h5 k r E5 L5 _ Ek. destruct (Ot k r Ek) as (X & Y & Z).
      destruct (dev_eqb d0 d) eqn:Ed.
      * apply dev_eqb_eq in Ed. apply (sim_to_ref Q n Qn d); auto. pose proof (ext_len _ _ E5). lia.
      * apply (sim_to_ref_new Q n Qn d); auto. rewrite (ext_idev h) by auto. rewrite Z. intros C.
        rewrite C, dev_eqb_refl in Ed. discriminate.
    + split; [reflexivity|]. split.
      * intros k r X. cbn in X. split; [apply (Kt k r X)|]. right. split; [destruct k; cbn; auto 10|].
        intros N. specialize (Xf k). rewrite !field_iabs, X, N in Xf. discriminate.
      * intros l X. cbn in X. exfalso. clear - X Ec.
        assert (M : r_mask (iabs h1 other) = None).
        { clear X. revert Ec. generalize (iabs h1 other) as c. intros c. unfold rgbd_clone.
          destruct (r_rgb _); [|discriminate]. destruct (r_depth _); [|discriminate]. destruct (r_intr _); [|discriminate].
          destruct (rgbd_new _ _ _ _ _ _) as [x|] eqn:En; cbn [rbind]; [|discriminate]. intros Y. injection Y as <-. cbn.
          now destruct (rgbd_new_rest _ _ _ _ _ En) as (_ & _ & _ & _ & _ & _ & M). }
        unfold iabs in M. cbn in M. rewrite X in M. discriminate.
  - intros c h' s E' [V K]. apply simk_ret. eauto.
Qed.
End Q3.

