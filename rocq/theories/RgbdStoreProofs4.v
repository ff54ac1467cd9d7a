(* Reads and conversions at the storage level. *)
From Coq Require Import Reals List Arith Bool ZArith Lia.
From Verif Require Import Res TensorModel RgbdModel RgbdStoreModel RgbdStoreSpec RgbdStoreProofs RgbdStoreProofs2 RgbdStoreProofs3.
From Verif Require StoreModel.
Import ListNotations.
Local Open Scope nat_scope.

(* ---- the reads only fill empty fields ---- *)
Definition core (s : rgbd) :=
  (r_cf s, (r_rgb s, r_depth s, r_intr s, r_poses s), (r_rgbsh s, r_depsh s, r_intrsh s, r_posesh s), (r_B s, r_L s, r_h s, r_w s)).
Definition chg (K : slot -> bool) (s s' : rgbd) : Prop :=
  core s' = core s /\ (forall k, K k = false -> field s k <> None -> field s' k = field s k) /\
  (r_mask s <> None -> r_mask s' = r_mask s).
Definition none_of : slot -> bool := fun _ => false.
Lemma chg_refl K s : chg K s s. Proof. split; [reflexivity|]. split; auto. Qed.
Lemma chg_trans K s1 s2 s3 : chg K s1 s2 -> chg K s2 s3 -> chg K s1 s3.
Proof.
  intros (A & B & C) (A' & B' & C'). split; [congruence|]. split.
  - intros k E N. rewrite B'; [now apply B|exact E|]. rewrite B by assumption. exact N.
  - intros N. rewrite C'; [now apply C|]. rewrite C by assumption. exact N.
Qed.
Lemma chg_mono (K K' : slot -> bool) s s' : (forall k, K' k = false -> K k = false) -> chg K s s' -> chg K' s s'.
Proof. intros H (A & B & C). split; [exact A|]. split; [|exact C]. intros k E. apply B. now apply H. Qed.
Definition pres {A} (K : slot -> bool) (m : MR A) : Prop := forall s, chg K s (snd (m s)).
Lemma pres_bind {A B} K (m : MR A) (k : A -> MR B) : pres K m -> (forall a, pres K (k a)) -> pres K (mbind m k).
Proof.
  intros Hm Hk s. unfold mbind. specialize (Hm s). destruct (m s) as [[a|e] s1]; cbn in *; [|exact Hm].
  eapply chg_trans; [exact Hm|apply Hk].
Qed.
Lemma pres_get {A} K (k : rgbd -> MR A) : (forall s, chg K s (snd (k s s))) -> pres K (mbind get k).
Proof. intros H s. apply H. Qed.
Lemma pres_ret {A} K (a : A) : pres K (ret a). Proof. intros s. apply chg_refl. Qed.
Lemma pres_raise {A} K e : pres K (@raise rgbd A e). Proof. intros s. apply chg_refl. Qed.
Lemma pres_lift {A} K (r : res A) : pres K (lift r). Proof. intros s. apply chg_refl. Qed.
Lemma pres_set K k v : K k = true -> (k = SVm \/ k = SNm \/ k = SGvm \/ k = SGnm) -> pres K (modify (set_field k v)).
Proof.
  intros E H s. unfold modify. cbn. split; [destruct H as [->|[->|[->| ->]]]; reflexivity|]. split.
  - intros k' N _. destruct H as [->|[->|[->| ->]]]; destruct k'; try reflexivity; congruence.
  - intros _. destruct H as [->|[->|[->| ->]]]; reflexivity.
Qed.
Lemma pres_mask K : pres K valid_depth_mask.
Proof.
  unfold valid_depth_mask. apply pres_get. intros s. destruct (r_mask s) eqn:E; [apply chg_refl|].
  destruct (r_depth s) eqn:Ed; [|apply chg_refl]. cbn. split; [unfold core; cbn; congruence|].
  split; [intros k _ _; destruct k; reflexivity|]. rewrite E. congruence.
Qed.
Lemma pres_masked K x : pres K (masked x).
Proof. unfold masked. apply pres_bind; [apply pres_mask|]. intros m. apply pres_lift. Qed.
Definition only (k : slot) : slot -> bool := slot_eqb k.
Definition kset (l : list slot) : slot -> bool := fun k => existsb (slot_eqb k) l.
Lemma pres_cached K (f : rgbd -> option (ten R)) k c : (forall s, f s = field s k) -> pres (fun k' => slot_eqb k k' || K k') c -> 
  pres K (cached f c).
Proof.
  intros Hf Hc s. unfold cached, mbind, get. rewrite Hf. destruct (field s k) as [v|] eqn:E; [apply chg_refl|].
  specialize (Hc s). destruct (c s) as [[u|e] s1]; cbn in Hc.
  - assert (X : chg K s s1).
    { destruct Hc as (A & B & C). split; [exact A|]. split; [|exact C]. intros k' EK N. apply B; [|exact N].
      destruct (slot_eqb k k') eqn:Q; [|now rewrite EK]. apply slot_eqb_eq in Q. subst k'. contradiction. }
    rewrite Hf. destruct (field s1 k); exact X.
  - cbn. destruct Hc as (A & B & C). split; [exact A|]. split; [|exact C]. intros k' EK N. apply B; [|exact N].
    destruct (slot_eqb k k') eqn:Q; [|now rewrite EK]. apply slot_eqb_eq in Q. subst k'. contradiction.
Qed.
Lemma pres_compute_vm K : K SVm = true -> pres K compute_vertex_map.
Proof.
  intros HK. unfold compute_vertex_map. apply pres_get. intros s. destruct (r_depth s) as [d|]; [|apply chg_refl].
  assert (P : pres K (do s <- get;
      match r_intr s, r_pix s with
      | Some K, Some P =>
          do ki <- lift (ProjModel.inverse_intrinsics K ProjModel.eps6);
          do kr <- lift (kinv_rep (r_L s) ki);
          do e <- lift (einsum_last (r_cf s) kr P);
          do v <- lift (tmap2 Rmult e d);
          modify (with_vm (Some v)) ;;;
          do v' <- masked v;
          modify (with_vm (Some v'))
      | _, _ => raise TypeError
      end)).
  { apply pres_get. intros s1. destruct (r_intr s1) as [k|]; [|apply chg_refl]. destruct (r_pix s1) as [p|]; [|apply chg_refl].
    match goal with |- chg _ _ (snd (?m _)) => cut (pres K m); [auto|] end.
    apply pres_bind; [apply pres_lift|]. intros ki. apply pres_bind; [apply pres_lift|]. intros kr.
    apply pres_bind; [apply pres_lift|]. intros e. apply pres_bind; [apply pres_lift|]. intros v.
    apply pres_bind; [apply (pres_set K SVm); auto|]. intros _. apply pres_bind; [apply pres_masked|]. intros v'.
    apply (pres_set K SVm); auto. }
  destruct (r_pix s) as [p|] eqn:Ep.
  - apply (P s).
  - eapply chg_trans; [|apply (P (with_pix (Some (pixel_grid (r_B s) (r_L s) (r_h s) (r_w s))) s))].
    split; [reflexivity|]. split; [|auto]. intros k' _ N. destruct k'; try reflexivity. cbn in N. congruence.
Qed.
Lemma pres_vm K : pres K vertex_map.
Proof. apply (pres_cached K r_vm SVm); [reflexivity|]. apply pres_compute_vm. reflexivity. Qed.
Lemma pres_gvm K : pres K global_vertex_map.
Proof.
  apply (pres_cached K r_gvm SGvm); [reflexivity|]. unfold compute_global_vertex_map. apply pres_get. intros s.
  destruct (r_poses s) as [p|]; match goal with |- chg ?K _ (snd (?m _)) => cut (pres K m); [auto|] end.
  - apply pres_bind; [apply pres_vm|]. intros v. apply pres_bind; [apply pres_lift|]. intros e.
    apply pres_bind; [apply (pres_set _ SGvm); auto|]. intros _. apply pres_bind; [apply (pres_set _ SGvm); auto|]. intros _.
    apply pres_bind; [apply pres_masked|]. intros g. apply (pres_set _ SGvm); auto.
  - apply pres_bind; [apply pres_vm|]. intros v. apply (pres_set _ SGvm); auto.
Qed.
Lemma pres_nm K : pres K normal_map.
Proof.
  apply (pres_cached K r_nm SNm); [reflexivity|]. unfold compute_normal_map.
  apply pres_bind; [apply pres_vm|]. intros v. apply pres_get. intros s.
  match goal with |- chg ?K _ (snd (?m _)) => cut (pres K m); [auto|] end. cbv zeta.
  apply pres_bind; [apply pres_lift|]. intros dh. apply pres_bind; [apply pres_lift|]. intros dv.
  apply pres_bind; [apply pres_lift|]. intros x. apply pres_bind; [apply (pres_set _ SNm); auto|]. intros _.
  apply pres_bind; [apply pres_masked|]. intros u. apply (pres_set _ SNm); auto.
Qed.
Lemma pres_gnm K : pres K global_normal_map.
Proof.
  apply (pres_cached K r_gnm SGnm); [reflexivity|]. unfold compute_global_normal_map. apply pres_get. intros s.
  destruct (r_poses s) as [p|]; match goal with |- chg ?K _ (snd (?m _)) => cut (pres K m); [auto|] end.
  - apply pres_bind; [apply pres_nm|]. intros v. apply pres_bind; [apply pres_lift|]. intros e. apply (pres_set _ SGnm); auto.
  - apply pres_bind; [apply pres_nm|]. intros v. apply (pres_set _ SGnm); auto.
Qed.

(* ---- filling in the storage model ---- *)
Fixpoint vfill (l : list slot) (s t : rgbd) : rgbd :=
  match l with
  | [] => t
  | k :: l' => match field t k, field s k with
               | None, Some x => vfill l' s (set_field k (Some x) t)
               | _, _ => vfill l' s t
               end
  end.
Definition vfill_mask (s t : rgbd) : rgbd :=
  match r_mask t, r_mask s with None, Some m => with_vmask (Some m) t | _, _ => t end.
Lemma vfill_chg s s' : chg none_of s s' -> vfill_mask s' (vfill [SPix; SVm; SNm; SGvm; SGnm] s' s) = s'.
Proof.
  intros (A & B & C).
  destruct s as [cf a b c p x vm nm gvm gnm m sh1 sh2 sh3 sh4 Bb L H W], s' as [cf' a' b' c' p' x' vm' nm' gvm' gnm' m' sh1' sh2' sh3' sh4' B' L' H' W'].
  unfold core in A. cbn in A. injection A as -> -> -> -> -> -> -> -> -> -> -> -> ->.
  pose proof (B SPix eq_refl) as B1. pose proof (B SVm eq_refl) as B2. pose proof (B SNm eq_refl) as B3.
  pose proof (B SGvm eq_refl) as B4. pose proof (B SGnm eq_refl) as B5. clear B.
  cbn in B1, B2, B3, B4, B5, C. unfold vfill_mask.
  destruct x; [rewrite (B1 ltac:(discriminate))|]; (destruct vm; [rewrite (B2 ltac:(discriminate))|]);
  (destruct nm; [rewrite (B3 ltac:(discriminate))|]); (destruct gvm; [rewrite (B4 ltac:(discriminate))|]);
  (destruct gnm; [rewrite (B5 ltac:(discriminate))|]); (destruct m; [rewrite (C ltac:(discriminate))|]);
  clear B1 B2 B3 B4 B5 C.
  all: repeat match goal with v : option (ten R) |- _ => destruct v end; repeat match goal with v : option (ten bool) |- _ => destruct v end; reflexivity.
Qed.

Section Q.
Variable Q : nat -> Prop.
Variable n : nat.
Hypothesis Qn : forall l, n <= l -> Q l.
Notation okr := (okr Q).
Notation ok := (ok Q).

Lemma sim_fill d s l : forall h o, n <= length h -> ok d h o ->
  sim h (fill l s o) (Ok (vfill l s (iabs h o))) (fun o' h' s' => iabs h' o' = s' /\ ok d h' o').
Proof.
  induction l as [|k l IH]; intros h o L Oo; cbn [fill vfill].
  - now apply sim_ret.
  - rewrite field_iabs. destruct (o_t o k) as [r|] eqn:Ek; cbn [option_map]; [now apply IH|].
    destruct (field s k) as [t|]; [|now apply IH].
    assert (Od : o_dev o = d) by apply Oo. rewrite Od.
    eapply bind_ok; [apply (sim_new Q n Qn d); exact L|]. intros r h' E [V K]. pose proof (ext_len _ _ E).
    replace (set_field k (Some t) (iabs h o)) with (iabs h' (set_slot k (Some r) o)).
    + apply IH; [lia|]. apply ok_set_slot; [eapply ok_ext; eauto|]. intros r2 X. injection X as <-. exact K.
    + rewrite iabs_set_slot, (iabs_ext Q d h h' o E Oo). cbn. now rewrite V.
Qed.
Lemma sim_fill_mask d s h o : n <= length h -> ok d h o ->
  sim h (fill_mask s o) (Ok (vfill_mask s (iabs h o))) (fun o' h' s' => iabs h' o' = s' /\ ok d h' o').
Proof.
  intros L Oo. unfold fill_mask, vfill_mask. change (r_mask (iabs h o)) with (option_map (mdata h) (o_mask o)).
  destruct (o_mask o) as [l|] eqn:El; cbn [option_map]; [now apply sim_ret|].
  destruct (r_mask s) as [m|]; [|now apply sim_ret].
  assert (Od : o_dev o = d) by apply Oo.
  unfold sim, mbind, ialloc, ret. cbn [fst snd]. split; [apply ext_app|]. split.
  - assert (E : ext h (h ++ [IB (o_dev o) m])) by apply ext_app.
    transitivity (with_vmask (Some m) (iabs (h ++ [IB (o_dev o) m]) o)).
    + unfold iabs. cbn. unfold with_vmask. cbn. f_equal. f_equal. unfold mdata. rewrite nth_error_app2, Nat.sub_diag by lia. reflexivity.
    + now rewrite (iabs_ext Q d h _ o E Oo).
  - destruct Oo as (A & B & C). split; [exact A|]. split.
    + intros k r X. eapply okr_ext; [apply ext_app|]. now apply (B k).
    + intros l X. injection X as <-. split; [apply Qn; lia|]. rewrite app_length. split; [cbn; lia|].
      unfold idev. rewrite nth_error_app2, Nat.sub_diag by lia. exact Od.
Qed.
Lemma iread_sim {A} d h o (m : MR A) : n <= length h -> ok d h o -> pres none_of m ->
  simo Q d h o (iread m) m (fun a _ b => a = b).
Proof.
  intros L Oo P. unfold simo, iread. specialize (P (iabs h o)). unfold mbind at 1, geto. cbn [fst snd]. unfold mbind at 1, geth. cbn [fst snd].
  destruct (m (iabs h o)) as [r s]. cbn [fst snd] in *.
  destruct (sim_fill d s [SPix; SVm; SNm; SGvm; SGnm] h o L Oo) as [E1 S1].
  unfold mbind at 1, onh. cbn [fst snd].
  destruct (fill [SPix; SVm; SNm; SGvm; SGnm] s o h) as [[o1|e] h1]; cbn [fst snd] in *; [|contradiction].
  destruct S1 as [V1 K1]. pose proof (ext_len _ _ E1).
  destruct (sim_fill_mask d s h1 o1 ltac:(lia) K1) as [E2 S2].
  unfold mbind at 1. cbn [fst snd].
  destruct (fill_mask s o1 h1) as [[o2|e] h2]; cbn [fst snd] in *; [|contradiction].
  destruct S2 as [V2 K2]. cbn. split; [eapply ext_trans; eauto|]. split; [exact K2|].
  split; [rewrite V2, V1; now apply vfill_chg|]. destruct r; auto.
Qed.

(* ---- conversions ---- *)
Variable ctg : bool -> ref -> bool.

Lemma simo_bind {A B A' B'} d h o (m : M (iheap * iobj) A) (p : MR B) post (k : A -> M (iheap * iobj) A') (k' : B -> MR B') post' :
  simo Q d h o m p post ->
  (forall a h' o' b, ext h h' -> ok d h' o' -> post a h' b -> simo Q d h' o' (k a) (k' b) post') ->
  simo Q d h o (mbind m k) (mbind p k') post'.
Proof.
  unfold simo, mbind. intros S H. destruct (m (h, o)) as [[a|e] [h1 o1]]; destruct (p (iabs h o)) as [[b|e'] s1]; cbn [fst snd] in *; destruct S as (E & O1 & V & S); try contradiction.
  - specialize (H a h1 o1 b E O1 S). rewrite V in H. destruct (k a (h1, o1)) as [a2 [h2 o2]].
    destruct H as (E2 & O2 & V2 & S2). split; [eapply ext_trans; eauto|]. auto.
  - auto.
Qed.
Lemma simo_ret {A B} d h o (a : A) (b : B) (post : A -> iheap -> B -> Prop) : ok d h o -> post a h b -> simo Q d h o (ret a) (ret b) post.
Proof. intros O P. unfold simo. cbn. auto. Qed.
Lemma simo_raise {A B} d h o e (post : A -> iheap -> B -> Prop) : ok d h o -> simo Q d h o (raise e) (raise e) post.
Proof. intros O. unfold simo. cbn. auto. Qed.
Lemma ipermute_sim d h o cf p x : n <= length h -> ok d h o -> (forall r, x = Some r -> okr d h r) ->
  simk h o (ipermute ctg cf p x) (permute_if_not_None p (option_map (rread h) x))
    (fun y h' t => option_map (rread h') y = t /\ forall r, y = Some r -> okr d h' r).
Proof.
  intros L Oo Hx. unfold ipermute, permute_if_not_None. destruct x as [r|]; cbn [option_map].
  2:{ apply simk_ret. split; [reflexivity|discriminate]. }
  replace (rmap Some (p (rread h r))) with (let? t := p (rread h r) in Ok (Some t)) by (now destruct (p (rread h r))).
  eapply simk_bind; [apply simk_onh, (sim_view Q d); now apply Hx|].
  intros v h1 t _ (-> & V & K). destruct (ctg cf r).
  - apply simk_ret. cbn. rewrite V. split; [reflexivity|]. intros r2 X. injection X as <-. exact K.
  - eapply simk_bind_ok; [apply simk_onh, (sim_clone_ref Q n Qn d); [exact L|apply K]|]. intros v' h2 E [V2 K2].
    apply simk_ret. cbn. rewrite V2, V. split; [reflexivity|]. intros r2 X. injection X as <-. exact K2.
Qed.
Fixpoint vpermute (p : ten R -> res (ten R)) (l : list slot) : MR unit :=
  match l with
  | [] => ret tt
  | k :: l' => do s <- get; do x <- lift (permute_if_not_None p (field s k)); modify (set_field k x) ;;; vpermute p l'
  end.
Lemma permute_slots_sim d cf p l : forall h o, n <= length h -> ok d h o ->
  simo Q d h o (permute_slots ctg cf p l) (vpermute p l) (fun _ _ _ => True).
Proof.
  induction l as [|k l IH]; intros h o L Oo; cbn [permute_slots vpermute].
  - now apply simo_ret.
  - change (simo Q d h o (do x <- ipermute ctg cf p (o_t o k); modo (set_slot k x) ;;; permute_slots ctg cf p l)
      (do x <- lift (permute_if_not_None p (field (iabs h o) k)); modify (set_field k x) ;;; vpermute p l) (fun _ _ _ => True)).
    assert (S : simk h o (ipermute ctg cf p (o_t o k)) (permute_if_not_None p (option_map (rread h) (o_t o k)))
       (fun y h' t => option_map (rread h') y = t /\ forall r, y = Some r -> okr d h' r)).
    { apply ipermute_sim; auto. intros r X. destruct Oo as (_ & B & _). now apply (B k). }
    rewrite field_iabs. unfold simo, mbind. unfold simk in S. unfold lift. revert S.
    change (@pair (list icell) iobj h o) with (@pair iheap iobj h o).
    destruct (ipermute ctg cf p (o_t o k) (@pair iheap iobj h o)) as [[x|e] [h1 o1]];
    destruct (permute_if_not_None p (option_map (rread h) (o_t o k))) as [y|e']; intros (E & -> & S); try contradiction.
    2:{ cbn. split; [exact E|]. split; [eapply ok_ext; eauto|]. split; [|exact S]. now apply (iabs_ext Q d). }
    destruct S as [V K]. cbn [modo modify fst snd]. pose proof (ext_len _ _ E).
    assert (O1 : ok d h1 (set_slot k x o)) by (apply ok_set_slot; [eapply ok_ext; eauto|exact K]).
    specialize (IH h1 (set_slot k x o) ltac:(lia) O1). unfold simo in IH.
    rewrite iabs_set_slot, (iabs_ext Q d h h1 o E Oo), V in IH.
    destruct (permute_slots ctg cf p l (h1, set_slot k x o)) as [r2 [h2 o2]]. destruct IH as (E2 & O2 & V2 & S2).
    split; [eapply ext_trans; eauto|]. auto.
Qed.
Lemma vpermute_eq p cf : forall s, convert_ p cf s = (vpermute p [SRgb; SDepth; SVm; SGvm; SNm; SGnm] ;;;
  modify (fun s => with_layout cf (r_rgbsh s) (r_depsh s) s) ;;;
  do s <- get;
  match r_rgb s with
  | None => raise AttributeError
  | Some a =>
      modify (fun s => with_layout cf (shape a) (r_depsh s) s) ;;;
      match r_depth s with
      | None => raise AttributeError
      | Some b => modify (fun s => with_layout cf (r_rgbsh s) (Some (shape b)) s)
      end
  end) s.
Proof.
  intros s. unfold convert_, vpermute, field, set_field, mbind, get, lift, modify, ret.
  repeat (cbn [r_rgb r_depth r_vm r_gvm r_nm r_gnm with_rgb with_depth with_vm with_gvm with_nm with_gnm with_maps with_layout];
    match goal with |- context [permute_if_not_None p ?x] => destruct (permute_if_not_None p x) end; try reflexivity).
Qed.
Lemma iconvert_sim d h o p cf : n <= length h -> ok d h o ->
  simo Q d h o (iconvert_ ctg p cf) (convert_ p cf) (fun _ _ _ => True).
Proof.
  intros L Oo.
  assert (S : simo Q d h o (iconvert_ ctg p cf) (vpermute p [SRgb; SDepth; SVm; SGvm; SNm; SGnm] ;;;
  modify (fun s => with_layout cf (r_rgbsh s) (r_depsh s) s) ;;;
  do s <- get;
  match r_rgb s with
  | None => raise AttributeError
  | Some a =>
      modify (fun s => with_layout cf (shape a) (r_depsh s) s) ;;;
      match r_depth s with
      | None => raise AttributeError
      | Some b => modify (fun s => with_layout cf (r_rgbsh s) (Some (shape b)) s)
      end
  end) (fun _ _ _ => True)).
  { unfold iconvert_. eapply simo_bind; [now apply permute_slots_sim|]. intros _ h1 o1 _ E1 O1 _.
    eapply (simo_bind d h1 o1 _ _ (fun _ _ _ => True)).
    { unfold simo. cbn. split; [apply ext_refl|]. split; [exact O1|]. auto. }
    intros _ h2 o2 _ E2 O2 _.
    change (simo Q d h2 o2 (match o_t o2 SRgb with
      | None => raise AttributeError
      | Some a =>
          modo (fun o => set_layout cf (shape (rread h2 a)) (o_depsh o) o) ;;;
          match o_t o2 SDepth with
          | None => raise AttributeError
          | Some b => modo (fun o => set_layout cf (o_rgbsh o) (Some (shape (rread h2 b))) o)
          end
      end) (match option_map (rread h2) (o_t o2 SRgb) with
      | None => raise AttributeError
      | Some a =>
          modify (fun s => with_layout cf (shape a) (r_depsh s) s) ;;;
          match option_map (rread h2) (o_t o2 SDepth) with
          | None => raise AttributeError
          | Some b => modify (fun s => with_layout cf (r_rgbsh s) (Some (shape b)) s)
          end
      end) (fun _ _ _ => True)) || idtac.
    unfold simo. unfold mbind, geto, geth, get, modo, modify, raise. cbn [fst snd].
    change (r_rgb (iabs h2 o2)) with (option_map (rread h2) (o_t o2 SRgb)).
    destruct (o_t o2 SRgb) as [a|]; cbn [option_map]; [|cbn; split; auto].
    change (r_depth (iabs h2 o2)) with (option_map (rread h2) (o_t o2 SDepth)).
    destruct (o_t o2 SDepth) as [b|]; cbn [option_map fst snd]; split; auto. }
  unfold simo in *. destruct (iconvert_ ctg p cf (h, o)) as [r [h1 o1]]. now rewrite <- (vpermute_eq p cf (iabs h o)) in S.
Qed.
Lemma ilast_sim d h o : n <= length h -> ok d h o -> simo Q d h o (ito_channels_last_ ctg) to_channels_last_ (fun _ _ _ => True).
Proof.
  intros L Oo. pose proof (iconvert_sim d h o permute_last false L Oo) as S.
  unfold simo, ito_channels_last_, to_channels_last_, mbind, geto, get in *. cbn [fst snd].
  change (r_cf (iabs h o)) with (o_cf o). destruct (o_cf o); [exact S|]. cbn. auto.
Qed.
Lemma ifirst_sim d h o : n <= length h -> ok d h o -> simo Q d h o (ito_channels_first_ ctg) to_channels_first_ (fun _ _ _ => True).
Proof.
  intros L Oo. pose proof (iconvert_sim d h o permute_first true L Oo) as S.
  unfold simo, ito_channels_first_, to_channels_first_, mbind, geto, get in *. cbn [fst snd].
  change (r_cf (iabs h o)) with (o_cf o). destruct (o_cf o); [|exact S]. cbn. auto.
Qed.
End Q.
