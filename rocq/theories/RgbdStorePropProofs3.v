(* Indexing: slices follow the object.  Cached maps. *)
From Coq Require Import Reals List Arith Bool ZArith Lia.
From Verif Require Import Res TensorModel RgbdModel RgbdStoreModel RgbdStoreSpec RgbdStoreProofs RgbdStoreProofs2
  RgbdStoreProofs3 RgbdStoreProofs4 RgbdStoreProofs5 RgbdStoreProofs6 RgbdStorePropProofs RgbdStorePropProofs2.
From Verif Require StoreModel.
Import ListNotations.
Local Open Scope nat_scope.

Lemma igetitem_refs ix h o c h' o' : ivalid h o -> igetitem ix (h, o) = (Ok c, (h', o')) ->
  exists e kb kl, item_pair ix = Ok e /\ elem_pos (fst e) (o_B o) = Ok kb /\ elem_pos (snd e) (o_L o) = Ok kl /\
  o' = o /\ h' = h /\ o_mask c = None /\
  forall k, o_t c k = option_map (item_view (item_fun kb kl k)) (o_t o k).
Proof.
  intros V E. unfold igetitem in E.
  assert (exists e, item_pair ix = Ok e /\
      (do o <- geto;
      match o_t o SRgb with
      | None => raise TypeError
      | Some rgb =>
          do kb <- lift (elem_pos (fst e) (o_B o));
          do kl <- lift (elem_pos (snd e) (o_L o));
          do new_rgb <- onh (view_ref (take_BL kb kl) rgb);
          do _ <- lift (guard (negb (length kb =? 0)) IndexError);
          do _ <- lift (guard (negb (length kl =? 0)) IndexError);
          match o_t o SDepth with
          | None => raise TypeError
          | Some depth =>
              do new_depth <- onh (view_ref (take_BL kb kl) depth);
              match o_t o SIntr with
              | None => raise TypeError
              | Some intr =>
                  do new_intr <- onh (view_ref (take_BL kb [0]) intr);
                  do other <- onh (inew (ATen new_rgb) (ATen new_depth) (ATen new_intr) ANone (o_cf o) ANone None);
                  onh (take_slots (view_ref (take_BL kb kl)) o slots_rest other)
              end
          end
      end) (h, o) = (Ok c, (h', o'))) as (e & Ee & E').
  { destruct ix as [i|l|]; [| |discriminate].
    - exists (EInt i, ESlice None None None). auto.
    - destruct l as [|a [|b [|d l]]]; try discriminate. exists (a, b). auto. }
  clear E. exists e. unfold mbind at 1, geto at 1 in E'. cbn [fst snd] in E'.
  destruct (o_t o SRgb) as [rgb|] eqn:E1; [|discriminate].
  unfold mbind at 1, lift at 1 in E'. destruct (elem_pos (fst e) (o_B o)) as [kb|] eqn:Eb; [|discriminate].
  unfold mbind at 1, lift at 1 in E'. destruct (elem_pos (snd e) (o_L o)) as [kl|] eqn:El; [|discriminate].
  unfold mbind at 1, onh at 1 in E'. cbn [fst snd] in E'.
  destruct (view_ref (take_BL kb kl) rgb h) as [[nr|] h1] eqn:Er; [|discriminate]. destruct (view_run _ _ _ _ _ Er) as [-> ->].
  unfold mbind at 1, lift at 1 in E'. destruct (guard (negb (length kb =? 0)) IndexError); [|discriminate].
  unfold mbind at 1, lift at 1 in E'. destruct (guard (negb (length kl =? 0)) IndexError); [|discriminate].
  destruct (o_t o SDepth) as [dep|] eqn:E2; [|discriminate].
  unfold mbind at 1, onh at 1 in E'. cbn [fst snd] in E'.
  destruct (view_ref (take_BL kb kl) dep h) as [[nd|] h1] eqn:Ed; [|discriminate]. destruct (view_run _ _ _ _ _ Ed) as [-> ->].
  destruct (o_t o SIntr) as [intr|] eqn:E3; [|discriminate].
  unfold mbind at 1, onh at 1 in E'. cbn [fst snd] in E'.
  destruct (view_ref (take_BL kb [0]) intr h) as [[ni|] h1] eqn:Ei; [|discriminate]. destruct (view_run _ _ _ _ _ Ei) as [-> ->].
  unfold mbind at 1, onh at 1 in E'. cbn [fst snd] in E'.
  destruct (inew _ _ _ _ _ _ _ h) as [[other|] h1] eqn:En; [|discriminate].
  assert (D : forall k r, o_t o k = Some r -> idev h (rloc r) = o_dev o).
  { intros k r Ek. apply (V (rloc r)). left. eauto. }
  assert (Od : o_dev other = o_dev o).
  { assert (S := sim_inew (fun _ => True) 0 (fun _ _ => Logic.I) (o_dev o) h
       (ATen (item_view (take_BL kb kl) rgb)) (ATen (item_view (take_BL kb kl) dep)) (ATen (item_view (take_BL kb [0]) intr)) ANone (o_cf o) ANone None (Nat.le_0_l _)).
    destruct S as [_ S].
    { intros l I. cbn in I. destruct I as [<-|[<-|[<-|[]]]]; (split; [auto|]); apply V; left; eauto. }
    rewrite En in S. cbn [fst] in S. destruct (rgbd_new _ _ _ _ _ _); [|contradiction]. destruct S as [_ S]. now apply ok_dev in S. }
  destruct (p_inew_keeps _ _ _ _ _ _ _ _ _ _ En) as (-> & K & M).
  { intros k l I. rewrite Od. destruct k; cbn in I; try contradiction; destruct I as [<-|[]]; eapply D; eauto. }
  unfold onh in E'. cbn [fst snd] in E'.
  destruct (take_slots _ o slots_rest other h) as [[c'|] h2] eqn:Et; [|discriminate]. injection E' as -> -> <-.
  destruct (take_slots_refs _ (item_view (take_BL kb kl)) o slots_rest h _ c h' (fun k r r' h3 _ _ X => view_run _ _ _ _ _ X) Et) as (-> & A & B & C & _).
  exists kb, kl. split; [exact Ee|]. split; [auto|]. split; [auto|]. split; [auto|]. split; [auto|]. split; [congruence|].
  assert (N : forall k, In k slots_rest -> o_t c k = option_map (item_view (take_BL kb kl)) (o_t o k)).
  { intros k I. destruct (o_t o k) as [r|] eqn:Ek; [now apply A|]. rewrite B by (now right). rewrite K.
    destruct k; cbn in *; try reflexivity; intuition discriminate. }
  intros k. destruct k; cbn [item_fun]; try (apply N; cbn; auto 8; fail).
  - rewrite B, K by (left; cbn; intuition discriminate). now rewrite E1.
  - rewrite B, K by (left; cbn; intuition discriminate). now rewrite E2.
  - rewrite B, K by (left; cbn; intuition discriminate). now rewrite E3.
Qed.

Lemma p_igetitem_live ctg cur ix h o c h' o' h2 s :
  ivalid h o -> run_imake ctg cur (JItem ix) (h, o) = (Ok (Some c), (h', o')) ->
  rgbd_getitem ix (iabs h2 o) = Ok s ->
  forall k, field (iabs h2 c) k = field s k.
Proof.
  intros V E G k. cbn [run_imake] in E. unfold mbind in E.
  destruct (igetitem ix (h, o)) as [[c'|] [h1 o1]] eqn:Ei; [|discriminate]. injection E as -> -> ->.
  destruct (igetitem_refs ix h o c h' o' V Ei) as (e & kb & kl & Ee & Eb & El & _ & _ & _ & K).
  destruct (getitem_fields ix (iabs h2 o) s G) as (e' & kb' & kl' & Ee' & Eb' & El' & K').
  assert (e' = e) by congruence. subst e'. change (r_B (iabs h2 o)) with (o_B o) in Eb'. change (r_L (iabs h2 o)) with (o_L o) in El'.
  assert (kb' = kb) by congruence. assert (kl' = kl) by congruence. subst kb' kl'.
  specialize (K' k). rewrite field_iabs in *. rewrite K. destruct (o_t o k) as [r|]; cbn in *; [|congruence].
  destruct K' as (y & Ey & ->). unfold rread, item_view. cbn. unfold rread in Ey. now rewrite Ey.
Qed.
Lemma p_igetitem_uses ctg cur ix h o c h' o' :
  ivalid h o -> run_imake ctg cur (JItem ix) (h, o) = (Ok (Some c), (h', o')) ->
  h' = h /\ o' = o /\ forall l, iuses c l <-> exists k r, o_t o k = Some r /\ rloc r = l.
Proof.
  intros V E. cbn [run_imake] in E. unfold mbind in E.
  destruct (igetitem ix (h, o)) as [[c'|] [h1 o1]] eqn:Ei; [|discriminate]. injection E as -> -> ->.
  destruct (igetitem_refs ix h o c h' o' V Ei) as (e & kb & kl & Ee & Eb & El & -> & -> & M & K).
  split; [auto|]. split; [auto|]. intros l. split.
  - intros [(k & r & Ek & <-)|Em]; [|congruence]. rewrite K in Ek. destruct (o_t o k) as [r0|] eqn:E0; [|discriminate].
    cbn in Ek. injection Ek as <-. exists k, r0. auto.
  - intros (k & r & Ek & <-). left. exists k, (item_view (item_fun kb kl k) r). rewrite K, Ek. auto.
Qed.

(* ---- cached maps ---- *)
Lemma fill_none h o l : fill l (iabs h o) o h = (Ok o, h).
Proof.
  induction l as [|k l IH]; [reflexivity|]. cbn [fill]. rewrite field_iabs. destruct (o_t o k); cbn [option_map]; exact IH.
Qed.
Lemma fill_mask_none h o : fill_mask (iabs h o) o h = (Ok o, h).
Proof. unfold fill_mask. cbn. now destruct (o_mask o). Qed.
Lemma iread_pure {A} (m : MR A) h o r : m (iabs h o) = (r, iabs h o) -> iread m (h, o) = (r, (h, o)).
Proof.
  intros E. unfold iread, mbind at 1, geto at 1. cbn [fst snd]. unfold mbind at 1, geth. cbn [fst snd]. rewrite E.
  unfold mbind at 1, onh. cbn [fst snd]. rewrite fill_none. unfold mbind at 1, onh. cbn [fst snd]. rewrite fill_mask_none.
  reflexivity.
Qed.
Lemma cached_hit (f : rgbd -> option (ten R)) c s t : f s = Some t -> cached f c s = (Ok t, s).
Proof. intros E. unfold cached, mbind, get, ret. cbn. rewrite E. cbn. rewrite ?E. reflexivity. Qed.
Lemma p_icached ctg c k r h o :
  map_slot c = Some k -> o_t o k = Some r -> run_icall ctg c (h, o) = (Ok (vten (rread h r)), (h, o)).
Proof.
  intros Ek Er.
  assert (H : forall f m, f (iabs h o) = field (iabs h o) k ->
     (do t <- iread (cached f m); ret (vten t)) (h, o) = (Ok (vten (rread h r)), (h, o))).
  { intros f m Ef. rewrite field_iabs, Er in Ef. cbn in Ef. unfold mbind. rewrite (iread_pure _ h o (Ok (rread h r))); [reflexivity|]. now apply cached_hit. }
  destruct c; cbn in Ek; try discriminate; injection Ek as <-; cbn [run_icall]; now apply H.
Qed.
Lemma fill_fresh s l : forall h o o' h', fill l s o h = (Ok o', h') ->
  length h <= length h' /\ forall k, o_t o' k = o_t o k \/ exists r, o_t o' k = Some r /\ length h <= rloc r.
Proof.
  induction l as [|k0 l IH]; intros h o o' h' E; cbn [fill] in E.
  - injection E as <- <-. auto.
  - destruct (o_t o k0) eqn:E0; [now apply IH|]. destruct (field s k0) as [t|]; [|now apply IH].
    unfold mbind, new_ref, ialloc, ret, mbind in E. destruct (IH _ _ _ _ E) as [L H].
    rewrite app_length in L, H. cbn in L, H. split; [lia|]. intros k. destruct (H k) as [X|(r & X & Y)]; [|right; exists r; split; [auto|lia]].
    rewrite X. destruct (slot_eqb k0 k); [right|now left]. eexists. split; [reflexivity|]. cbn. lia.
Qed.
Lemma iread_fresh {A} (m : MR A) h o t h' o' : iread m (h, o) = (Ok t, (h', o')) ->
  forall k, o_t o' k = o_t o k \/ exists r, o_t o' k = Some r /\ length h <= rloc r.
Proof.
  unfold iread, mbind at 1, geto at 1. cbn [fst snd]. unfold mbind at 1, geth. cbn [fst snd].
  destruct (m (iabs h o)) as [r s]. unfold mbind at 1, onh at 1. cbn [fst snd].
  destruct (fill _ s o h) as [[o1|] h1] eqn:E1; [|discriminate]. destruct (fill_fresh _ _ _ _ _ _ E1) as [_ H].
  unfold mbind at 1, onh at 1. cbn [fst snd]. unfold fill_mask.
  destruct (o_mask o1); [|destruct (r_mask s)]; cbn; intros E k; injection E as _ _ <-; cbn; apply H.
Qed.
(* a map that has been read is kept: writing into a tensor that was there before (the poses, the depth) does not change it *)
Lemma p_istale ctg c k v h o h1 o1 l x :
  map_slot c = Some k -> ivalid h o -> o_t o k = None ->
  run_icall ctg c (h, o) = (Ok v, (h1, o1)) -> l < length h ->
  run_icall ctg c (ipoke l x h1, o1) = (Ok v, (ipoke l x h1, o1)).
Proof.
  intros Ek V N E L.
  assert (Hw : forall f m, (forall s, f s = field s k) -> (do t <- iread (cached f m); ret (vten t)) (h, o) = (Ok v, (h1, o1)) ->
       pres none_of (cached f m) ->
       exists r, o_t o1 k = Some r /\ length h <= rloc r /\ v = vten (rread h1 r)).
  { intros f m Ef E' P.
    assert (OT : ok (fun _ => True) (o_dev o) h o) by (apply ok_valid; split; [auto|]; split; [auto|auto]).
    assert (S := iread_sim (fun _ => True) 0 (fun _ _ => Logic.I) (o_dev o) h o (cached f m) (Nat.le_0_l _) OT P).
    unfold simo in S. unfold mbind at 1 in E'. destruct (iread (cached f m) (h, o)) as [[t|] [h2 o2]] eqn:Er; [|discriminate].
    cbn in E'. injection E' as <- -> ->. destruct S as (_ & _ & Va & S).
    assert (Ft : field (iabs h1 o1) k = Some t).
    { rewrite Va. revert S. unfold cached, mbind, get, ret. cbn [fst snd].
      destruct (f (iabs h o)) as [t0|] eqn:E0; [rewrite Ef, field_iabs, N in E0; discriminate|].
      destruct (m (iabs h o)) as [[u|] s1]; cbn [fst snd]; [|contradiction].
      destruct (f s1) as [t0|] eqn:E1; cbn [fst snd raise]; [|contradiction]. intros ->. now rewrite <- Ef. }
    rewrite field_iabs in Ft. destruct (o_t o1 k) as [r|] eqn:Ek1; [|discriminate]. cbn in Ft. injection Ft as <-.
    exists r. split; [auto|]. split; [|auto].
    destruct (iread_fresh _ _ _ _ _ _ Er k) as [X|(r' & X & Y)]; rewrite Ek1 in X; [congruence|]. injection X as <-. exact Y. }
  assert (Hk : exists r, o_t o1 k = Some r /\ length h <= rloc r /\ v = vten (rread h1 r)).
  { destruct c; cbn in Ek; try discriminate; injection Ek as <-; cbn [run_icall] in E.
    - eapply Hw; [|exact E|]; [reflexivity|apply pres_vm].
    - eapply Hw; [|exact E|]; [reflexivity|apply pres_nm].
    - eapply Hw; [|exact E|]; [reflexivity|apply pres_gvm].
    - eapply Hw; [|exact E|]; [reflexivity|apply pres_gnm]. }
  destruct Hk as (r & Er & Lr & ->).
  rewrite (p_icached ctg c k r _ _ Ek Er). unfold rread, rdata. rewrite ipoke_other by lia. reflexivity.
Qed.
