(* What exactly is shared: to, detach, [], constructor, cached maps. *)
From Coq Require Import Reals List Arith Bool ZArith Lia.
From Verif Require Import Res TensorModel RgbdModel RgbdStoreModel RgbdStoreSpec RgbdStoreProofs RgbdStoreProofs2
  RgbdStoreProofs3 RgbdStoreProofs4 RgbdStoreProofs5 RgbdStoreProofs6 RgbdStorePropProofs.
From Verif Require StoreModel.
Import ListNotations.
Local Open Scope nat_scope.

Lemma slot_dec (a b : slot) : {a = b} + {a <> b}. Proof. decide equality. Qed.
Lemma set_slot_same k v o : o_t (set_slot k v o) k = v.
Proof. cbn. now destruct k. Qed.
Lemma set_slot_other k k' v o : k' <> k -> o_t (set_slot k v o) k' = o_t o k'.
Proof. intros N. cbn. destruct (slot_eqb k k') eqn:E; [|reflexivity]. apply slot_eqb_eq in E. congruence. Qed.

(* the references a loop over fields leaves, when f does not change the heap *)
Lemma take_slots_refs (f : ref -> MH ref) (g : ref -> ref) from l : forall h to c h',
  (forall k r r' h1, In k l -> o_t from k = Some r -> f r h = (Ok r', h1) -> r' = g r /\ h1 = h) ->
  take_slots f from l to h = (Ok c, h') ->
  h' = h /\
  (forall k r, In k l -> o_t from k = Some r -> o_t c k = Some (g r)) /\
  (forall k, ~ In k l \/ o_t from k = None -> o_t c k = o_t to k) /\
  o_mask c = o_mask to /\ o_dev c = o_dev to.
Proof.
  induction l as [|k0 l IH]; intros h to c h' Hf E; cbn [take_slots] in E.
  - injection E as <- <-. repeat split; auto. intros k r [].
  - assert (Hf' : forall k r r' h1, In k l -> o_t from k = Some r -> f r h = (Ok r', h1) -> r' = g r /\ h1 = h).
    { intros k r r' h1 I. apply Hf. now right. }
    destruct (o_t from k0) as [r0|] eqn:E0.
    + unfold mbind in E. destruct (f r0 h) as [[r'|e] h1] eqn:Ef; [|discriminate].
      destruct (Hf k0 r0 r' h1 (or_introl eq_refl) E0 Ef) as [-> ->].
      destruct (IH h _ c h' Hf' E) as (-> & A & B & C & D). split; [reflexivity|]. split; [|split; [|split; [exact C|exact D]]].
      * intros k r I Ek. destruct (in_dec slot_dec k l) as [I'|N]; [now apply A|].
        destruct I as [<-|I]; [|contradiction]. rewrite B by (now left). rewrite set_slot_same. congruence.
      * intros k H. assert (k <> k0) as Nk.
        { intros ->. destruct H as [H|H]; [apply H; now left|congruence]. }
        rewrite B, set_slot_other; auto. destruct H as [H|H]; [|now right]. left. intros I. apply H. now right.
    + destruct (IH h to c h' Hf' E) as (-> & A & B & C & D). split; [reflexivity|]. split; [|split; [|split; [exact C|exact D]]].
      * intros k r [<-|I] Ek; [congruence|]. now apply A.
      * intros k H. apply B. destruct (slot_dec k k0) as [->|Nk]; [now right|].
        destruct H as [H|H]; [|now right]. left. intros I. apply H. now right.
Qed.
Lemma slots_all k : In k slots. Proof. destruct k; cbn; auto 12. Qed.
Lemma field_none h o k : o_t o k = None <-> field (iabs h o) k = None.
Proof. rewrite field_iabs. now destruct (o_t o k). Qed.
Lemma clone_field s c k : rgbd_clone s = Ok c -> field c k = field s k.
Proof. intros E. destruct (rgbd_clone_fields s c E) as (A1 & A2 & A3 & A4 & A5 & A6 & A7 & A8 & A9). destruct k; assumption. Qed.

(* the clone that to() and detach() start from *)
Lemma iclone_run h o x h1 o1 : ivalid h o -> iclone (h, o) = (Ok x, (h1, o1)) ->
  ext h h1 /\ o1 = o /\ forall k, o_t x k = None <-> o_t o k = None.
Proof.
  intros V E. assert (OT : ok (fun _ => True) (o_dev o) h o) by (apply ok_valid; split; [auto|]; split; [auto|auto]).
  assert (S := iclone_sim (fun _ => True) 0 (fun _ _ => Logic.I) (o_dev o) h o (Nat.le_0_l _) OT).
  unfold simk in S. rewrite E in S. destruct S as (X & -> & S). split; [exact X|]. split; [reflexivity|].
  intros k. destruct (rgbd_clone (iabs h o)) as [s|] eqn:Ec; [|contradiction]. destruct S as [<- _].
  rewrite (field_none h1), (field_none h), (clone_field _ _ k Ec). reflexivity.
Qed.
(* to(device, copy=True) with the device of self: the very tensors of self *)
Lemma p_ito_same ctg cur a h o c h' o' :
  ivalid h o -> resolve cur (spec_of a) = o_dev o ->
  run_imake ctg cur (JTo a true) (h, o) = (Ok (Some c), (h', o')) ->
  forall k, o_t c k = o_t o k.
Proof.
  intros V Ed E. cbn [run_imake] in E. unfold ito, mbind at 1, geto at 1 in E. cbn [fst snd negb andb] in E.
  unfold mbind at 1 in E. destruct (iclone (h, o)) as [[x|e] [h1 o1]] eqn:Ec; [|discriminate].
  destruct (iclone_run h o x h1 o1 V Ec) as (X & -> & N). rewrite Ed in E.
  unfold mbind, onh in E. cbn [fst snd] in E.
  destruct (take_slots (to_ref (o_dev o)) o slots (set_dev (o_dev o) x) h1) as [[c'|e] h2] eqn:Et; [|discriminate].
  injection E as -> _ _.
  assert (Hf : forall k r r' h3, In k slots -> o_t o k = Some r -> to_ref (o_dev o) r h1 = (Ok r', h3) -> r' = r /\ h3 = h1).
  { intros k r r' h3 _ Ek Er. unfold to_ref, mbind, get in Er. destruct (V (rloc r)) as [Lr Dr]; [left; eauto|].
    rewrite (ext_idev _ _ _ X Lr), Dr, dev_eqb_refl in Er. injection Er as <- <-. auto. }
  destruct (take_slots_refs _ (fun r => r) o slots h1 _ c h2 Hf Et) as (_ & A & B & _).
  intros k. destruct (o_t o k) as [r|] eqn:Ek; [apply A; [apply slots_all|exact Ek]|].
  rewrite B by (now right). cbn. apply N. exact Ek.
Qed.
(* detach(): the very tensors of self *)
Lemma p_idetach ctg cur h o c h' o' :
  ivalid h o -> run_imake ctg cur JDetach (h, o) = (Ok (Some c), (h', o')) ->
  forall k, o_t c k = o_t o k.
Proof.
  intros V E. cbn [run_imake] in E. unfold idetach, mbind at 1 2 in E.
  destruct (iclone (h, o)) as [[x|e] [h1 o1]] eqn:Ec; [|discriminate].
  destruct (iclone_run h o x h1 o1 V Ec) as (X & -> & N).
  unfold mbind, geto, onh in E. cbn [fst snd] in E.
  destruct (take_slots ret o slots x h1) as [[c'|e] h2] eqn:Et; [|discriminate].
  injection E as -> _ _.
  assert (Hf : forall k r r' h3, In k slots -> o_t o k = Some r -> (ret r : MH ref) h1 = (Ok r', h3) -> r' = r /\ h3 = h1).
  { intros k r r' h3 _ Ek Er. injection Er as <- <-. auto. }
  destruct (take_slots_refs _ (fun r => r) o slots h1 _ c h2 Hf Et) as (_ & A & B & _).
  intros k. destruct (o_t o k) as [r|] eqn:Ek; [apply A; [apply slots_all|exact Ek]|].
  rewrite B by (now right). apply N. exact Ek.
Qed.

(* ---- constructor ---- *)
Lemma take_arg_same d a h x h' : (forall l, In l (arg_locs a) -> idev h l = d) ->
  take_arg d a h = (Ok x, h') -> x = arg_ref a /\ h' = h.
Proof.
  intros H E. destruct a; cbn in E; try (injection E as <- <-; auto; fail).
  unfold mbind, to_ref, get, mbind in E. rewrite H in E by (now left). rewrite dev_eqb_refl in E. cbn in E. injection E as <- <-. auto.
Qed.
Lemma take_arg_ok d a h : exists x, fst (take_arg d a h) = Ok x.
Proof.
  destruct a; cbn; eauto. unfold mbind, to_ref, get, mbind. destruct (dev_eqb (idev h (rloc r)) d); cbn; eauto.
Qed.
Lemma p_inew_keeps rgb depth intr poses cf pix device h o h' :
  inew rgb depth intr poses cf pix device h = (Ok o, h') ->
  (forall k l, In l (arg_locs (ctor_arg rgb depth intr poses pix k)) -> idev h l = o_dev o) ->
  h' = h /\ (forall k, o_t o k = arg_ref (ctor_arg rgb depth intr poses pix k)) /\ o_mask o = None.
Proof.
  intros E H. unfold inew in E. unfold mbind at 1, get in E. unfold mbind at 1, lift in E.
  destruct (rgbd_new _ _ _ _ _ _) as [s|]; [|discriminate].
  match type of E with (if ?b then _ else _) _ = _ => destruct b; [discriminate|] end.
  set (d := match device with Some d => d | None => _ end) in E.
  assert (Ed : o_dev o = d).
  { revert E. unfold mbind. destruct (take_arg d rgb h) as [[xa|e] ha]; [|discriminate].
    destruct (take_arg d depth ha) as [[xb|e] hb]; [|discriminate]. destruct (take_arg d intr hb) as [[xc|e] hc]; [|discriminate].
    destruct (take_arg d poses hc) as [[xp|e] hp]; [|discriminate]. destruct (take_arg d pix hp) as [[xx|e] hx]; [|discriminate].
    intros E. now injection E as <- _. }
  rewrite Ed in H. unfold mbind in E.
  destruct (take_arg d rgb h) as [[xa|e] ha] eqn:Ea; [|discriminate]. destruct (take_arg_same d rgb h xa ha (H SRgb) Ea) as [-> ->].
  destruct (take_arg d depth h) as [[xb|e] hb] eqn:Eb; [|discriminate]. destruct (take_arg_same d depth h xb hb (H SDepth) Eb) as [-> ->].
  destruct (take_arg d intr h) as [[xc|e] hc] eqn:Ec; [|discriminate]. destruct (take_arg_same d intr h xc hc (H SIntr) Ec) as [-> ->].
  destruct (take_arg d poses h) as [[xp|e] hp] eqn:Ep; [|discriminate]. destruct (take_arg_same d poses h xp hp (H SPoses) Ep) as [-> ->].
  destruct (take_arg d pix h) as [[xx|e] hx] eqn:Ex; [|discriminate]. destruct (take_arg_same d pix h xx hx (H SPix) Ex) as [-> ->].
  injection E as <- <-. split; [reflexivity|]. split; [|reflexivity]. now intros [].
Qed.
Lemma p_inew_device rgb depth intr poses cf pix device h k l k' l' :
  In l (arg_locs (ctor_arg rgb depth intr poses pix k)) -> In l' (arg_locs (ctor_arg rgb depth intr poses pix k')) ->
  idev h l <> idev h l' ->
  inew rgb depth intr poses cf pix device h =
    (match rgbd_new (rdinp h rgb) (rdinp h depth) (rdinp h intr) (rdinp h poses) cf (rdinp h pix) with
     | Ok _ => Err ValueError | Err e => Err e end, h).
Proof.
  intros I I' N. destruct (inew_device h rgb depth intr poses cf pix device) as [D|E]; [|exact E].
  assert (X : forall k l, In l (arg_locs (ctor_arg rgb depth intr poses pix k)) -> In l (new_locs rgb depth intr poses pix)).
  { intros k0 l0 I0. unfold new_locs. rewrite !in_app_iff. destruct k0; cbn in I0; auto; contradiction. }
  elim N. rewrite (D l (X k l I)), (D l' (X k' l' I')). reflexivity.
Qed.

(* ---- indexing: slices follow the object ---- *)
Definition item_view (f : ten R -> res (ten R)) (r : ref) : ref :=
  mkRef (rloc r) (fun x => match f (rview r x) with Ok t => t | Err _ => x end).
Lemma view_run f r h r' h' : view_ref f r h = (Ok r', h') -> r' = item_view f r /\ h' = h.
Proof.
  unfold view_ref, mbind, get, lift. destruct (f (rread h r)); [|discriminate]. intros E. injection E as <- <-. auto.
Qed.
Definition item_pair (ix : rindex) : res (ielem * ielem) :=
  match ix with
  | ROther => Err IndexError
  | RInt i => Ok (EInt i, ESlice None None None)
  | RTuple (_ :: _ :: _ :: _) => Err IndexError
  | RTuple [a; b] => Ok (a, b)
  | _ => Err IndexError
  end.
Definition item_fun (kb kl : list nat) (k : slot) : ten R -> res (ten R) :=
  match k with SIntr => take_BL kb [0] | _ => take_BL kb kl end.
Lemma getitem_fields ix s t : rgbd_getitem ix s = Ok t ->
  exists e kb kl, item_pair ix = Ok e /\ elem_pos (fst e) (r_B s) = Ok kb /\ elem_pos (snd e) (r_L s) = Ok kl /\
  forall k, match field s k with None => field t k = None
            | Some x => exists y, item_fun kb kl k x = Ok y /\ field t k = Some y end.
Proof.
  intros E. unfold rgbd_getitem in E.
  assert (exists e, item_pair ix = Ok e /\ 
     (match r_rgb s with
      | None => Err TypeError
      | Some rgb =>
          let? kb := elem_pos (fst e) (r_B s) in
          let? kl := elem_pos (snd e) (r_L s) in
          let? new_rgb := take_BL kb kl rgb in
          guard (negb (length kb =? 0)) IndexError ;;?
          guard (negb (length kl =? 0)) IndexError ;;?
          match r_depth s with
          | None => Err TypeError
          | Some depth =>
              let? new_depth := take_BL kb kl depth in
              match r_intr s with
              | None => Err TypeError
              | Some intr =>
                  let? new_intr := take_BL kb [0] intr in
                  let? o := rgbd_new (TTen new_rgb) (TTen new_depth) (TTen new_intr) TNone (r_cf s) TNone in
                  let? p := take_opt kb kl (r_poses s) in
                  let? px := take_opt kb kl (r_pix s) in
                  let? vm := take_opt kb kl (r_vm s) in
                  let? nm := take_opt kb kl (r_nm s) in
                  let? gvm := take_opt kb kl (r_gvm s) in
                  let? gnm := take_opt kb kl (r_gnm s) in
                  Ok (with_maps vm nm gvm gnm (with_pix px (with_poses p o)))
              end
          end
      end) = Ok t) as (e & Ee & E').
  { destruct ix as [i|l|]; [| |discriminate].
    - exists (EInt i, ESlice None None None). auto.
    - destruct l as [|a [|b [|c l]]]; try discriminate. exists (a, b). auto. }
  clear E. exists e.
  destruct (r_rgb s) as [rgb|] eqn:E1; [|discriminate].
  destruct (elem_pos (fst e) (r_B s)) as [kb|] eqn:Eb; [|discriminate]. cbn [rbind] in E'.
  destruct (elem_pos (snd e) (r_L s)) as [kl|] eqn:El; [|discriminate]. cbn [rbind] in E'.
  destruct (take_BL kb kl rgb) as [nrgb|] eqn:Er; [|discriminate]. cbn [rbind] in E'.
  destruct (negb (length kb =? 0)); [|discriminate]. destruct (negb (length kl =? 0)); [|discriminate]. cbn [guard rbind] in E'.
  destruct (r_depth s) as [dep|] eqn:E2; [|discriminate]. destruct (take_BL kb kl dep) as [ndep|] eqn:Edp; [|discriminate]. cbn [rbind] in E'.
  destruct (r_intr s) as [intr|] eqn:E3; [|discriminate]. destruct (take_BL kb [0] intr) as [nintr|] eqn:Ein; [|discriminate]. cbn [rbind] in E'.
  destruct (rgbd_new (TTen nrgb) (TTen ndep) (TTen nintr) TNone (r_cf s) TNone) as [o|] eqn:En; [|discriminate]. cbn [rbind] in E'.
  assert (RI : r_rgb o = Some nrgb /\ r_depth o = Some ndep /\ r_intr o = Some nintr).
  { unfold rgbd_new in En. cbn in En. repeat (match type of En with context [rbind ?x _] => destruct x; cbn [rbind] in En; try discriminate end).
    repeat match type of En with context [if ?x then _ else _] => destruct x; try discriminate | context [match ?x with _ => _ end] => destruct x; try discriminate end;
    injection En as <-; auto. }
  destruct (take_opt kb kl (r_poses s)) as [v1|] eqn:F1; [|discriminate]. cbn [rbind] in E'.
  destruct (take_opt kb kl (r_pix s)) as [v2|] eqn:F2; [|discriminate]. cbn [rbind] in E'.
  destruct (take_opt kb kl (r_vm s)) as [v3|] eqn:F3; [|discriminate]. cbn [rbind] in E'.
  destruct (take_opt kb kl (r_nm s)) as [v4|] eqn:F4; [|discriminate]. cbn [rbind] in E'.
  destruct (take_opt kb kl (r_gvm s)) as [v5|] eqn:F5; [|discriminate]. cbn [rbind] in E'.
  destruct (take_opt kb kl (r_gnm s)) as [v6|] eqn:F6; [|discriminate]. cbn [rbind] in E'.
  injection E' as <-. exists kb, kl. repeat (split; [auto; fail|]).
  assert (TO : forall x v, take_opt kb kl x = Ok v ->
     match x with None => v = None | Some x => exists y, take_BL kb kl x = Ok y /\ v = Some y end).
  { intros [x|] v; cbn; [|now injection 1 as <-]. destruct (take_BL kb kl x); cbn; [|discriminate]. injection 1 as <-. eauto. }
  destruct RI as (R1 & R2 & R3).
  intros k. destruct k; cbn [field item_fun with_maps with_pix with_poses r_rgb r_depth r_intr r_poses r_pix r_vm r_nm r_gvm r_gnm].
  - rewrite E1. cbn. eauto.
  - rewrite E2. cbn. eauto.
  - rewrite E3. cbn. eauto.
  - now apply TO.
  - now apply TO.
  - now apply TO.
  - now apply TO.
  - now apply TO.
  - now apply TO.
Qed.
