(* Every public operation keeps the invariant. *)
From Coq Require Import Reals List Arith Bool ZArith Lia Lra Sorting.Sorted.
From Verif Require Import Res Fld StructUtilsModel PointcloudsModel PointcloudsSpec PointcloudsIndexSpec PointcloudsIndex
  MatSpec GeomSpec TensorModel TensorProofs ProjModel GeomModel RgbdModel RgbdSpec RgbdProofs.
Import ListNotations.
Local Open Scope nat_scope.

Lemma shape_eqb_true a b : a = b -> shape_eqb a b = true.
Proof. intros ->. unfold shape_eqb. destruct (list_eq_dec _ b b); [reflexivity|contradiction]. Qed.
Lemma shape_eqb_inv a b : shape_eqb a b = true -> a = b.
Proof. unfold shape_eqb. destruct (list_eq_dec _ a b); [auto|discriminate]. Qed.
Lemma ndim_shape {A} (t : ten A) : ndim t = length (shape t).
Proof. unfold ndim, shape. rewrite rev_length. reflexivity. Qed.

Lemma new_ok cf a rgb depth intr poses pix :
  Inputs cf a rgb depth intr (ten_of poses) (ten_of pix) -> poses <> TOther -> pix <> TOther ->
  exists s, rgbd_new (TTen rgb) (TTen depth) (TTen intr) poses cf pix = Ok s /\ Inv false s cf a.
Proof.
  intros (H1 & H2 & H3 & H4 & H5) Hp Hx.
  pose proof (proj1 H1) as S1. pose proof (proj1 H2) as S2. pose proof (proj1 H3) as S3.
  unfold rgbd_new. cbn [is_tensor guard rbind].
  assert (Ep : opt_tensor poses = true) by (destruct poses; [reflexivity|reflexivity|contradiction]).
  assert (Ex : opt_tensor pix = true) by (destruct pix; [reflexivity|reflexivity|contradiction]).
  rewrite Ep, Ex. cbn [guard rbind]. rewrite !ndim_shape, S1, S2, S3.
  assert (Gp : (match poses with TTen p => ndim p =? 4 | _ => true end) = true /\
    (match poses with TTen p => shape_eqb (shape p) [fB a; fL a; 4; 4] | _ => true end) = true).
  { destruct poses as [|p|]; cbn in H4; try (split; reflexivity). destruct (fpose a); [|contradiction].
    rewrite ndim_shape, (proj1 H4). split; [reflexivity|apply shape_eqb_true; reflexivity]. }
  assert (Gx : (match pix with TTen p => shape_eqb (shape p) [fB a; fL a; fH a; fW a; 3] | _ => true end) = true).
  { destruct pix as [|p|]; cbn in H5; try reflexivity. destruct (fpix a); [|contradiction].
    rewrite (proj1 H5). apply shape_eqb_true; reflexivity. }
  destruct Gp as [G1 G2].
  assert (Px : PixOk a (ten_of pix)).
  { destruct pix as [|p|]; cbn in H5 |- *; destruct (fpix a) eqn:E; try contradiction; try reflexivity.
    eapply img_ext; [exact H5|]. intros. unfold pixel. rewrite E. reflexivity. }
  destruct cf; cbn [img_shape length Nat.eqb guard rbind nth cdim set_nth del_nth firstn skipn app] in *;
    rewrite G1; cbn [guard rbind]; rewrite !(shape_eqb_true _ _ eq_refl); cbn [guard rbind]; rewrite G2; cbn [guard rbind];
    rewrite Gx; cbn [guard rbind]; eexists; (split; [reflexivity|]);
    (split; [repeat split|]; split; [repeat split; left; reflexivity|];
     split; [eexists; split; [reflexivity|exact H1]|]; split; [eexists; split; [reflexivity|exact H2]|];
     split; [eexists; split; [reflexivity|exact H3]|]; split; [exact H4|]; split; [exact Px|];
     split; [split; exact I|]; split; [split; exact I|]; split; [intros [E|E]; exfalso; apply E; reflexivity|exact I]).
Qed.
Lemma new_inv cf a rgb depth intr poses pix s :
  Inputs cf a rgb depth intr (ten_of poses) (ten_of pix) ->
  rgbd_new (TTen rgb) (TTen depth) (TTen intr) poses cf pix = Ok s -> Inv false s cf a.
Proof.
  intros H E. destruct (new_ok cf a rgb depth intr poses pix H) as (s' & E' & Hi).
  - intros ->. discriminate E.
  - intros ->. unfold rgbd_new in E. destruct poses; discriminate E.
  - congruence.
Qed.

(* the inputs of an object in a good state *)
Lemma inv_inputs q s cf a : Inv q s cf a -> exists rgb depth intr,
  r_rgb s = Some rgb /\ r_depth s = Some depth /\ r_intr s = Some intr /\
  Image cf a 3 rgb (frgb a) /\ Image cf a 1 depth (depthf a) /\ Intr a intr (fK a).
Proof.
  intros (_ & _ & (r & E1 & H1) & (d & E2 & H2) & (i & E3 & H3) & _). exists r, d, i. auto 8.
Qed.

(* frames without the optional inputs: what the constructor is given by clone and indexing *)
Definition bare (a : frames) : frames := mkFrames (fB a) (fL a) (fH a) (fW a) (frgb a) (fdep a) (fK a) None None.

Lemma clone_inv q s cf a : Inv q s cf a -> exists o, rgbd_clone s = Ok o /\ Inv false o cf a /\
  r_rgb o = r_rgb s /\ r_depth o = r_depth s /\ r_intr o = r_intr s /\ r_poses o = r_poses s /\ r_mask o = None.
Proof.
  intros Hi. destruct (inv_inputs _ _ _ _ Hi) as (r & d & i & E1 & E2 & E3 & H1 & H2 & H3).
  destruct (new_ok cf (bare a) r d i TNone TNone) as (o & E & Ho); try discriminate.
  { split; [exact H1|]. split; [exact H2|]. split; [exact H3|]. split; exact I. }
  pose proof Hi as (A1 & A2 & A3 & A4 & A5 & A6 & A7 & A8 & A9 & A10 & A11).
  pose proof Ho as (B1 & B2 & B3 & B4 & B5 & B6 & B7 & B8 & B9 & B10 & B11).
  assert (R : r_rgb o = Some r /\ r_depth o = Some d /\ r_intr o = Some i /\ r_mask o = None /\ r_depsh o = None).
  { unfold rgbd_new in E. cbn [is_tensor opt_tensor guard rbind] in E.
    repeat match type of E with rbind (guard ?b _) _ = _ => destruct b; [cbn [guard rbind] in E|discriminate] end.
    injection E as <-. repeat split. }
  destruct R as (R1 & R2 & R3 & R4 & R5).
  unfold rgbd_clone. rewrite E1, E2, E3, (proj1 A1), E. cbn [rbind]. eexists. split; [reflexivity|].
  split; [|cbn; rewrite R1, R2, R3, R4; auto 6].
  split; [exact B1|]. split; [exact B2|]. split; [exact B3|]. split; [exact B4|]. split; [exact B5|].
  split; [exact A6|]. split; [exact A7|]. split; [exact A8|]. split; [exact A9|]. split; [exact A10|].
  cbn. rewrite R4. exact I.
Qed.

(* ---------------- setters *)
Lemma set_rgb_inv q s cf a t f : Inv q s cf a -> Image cf a 3 t f ->
  exists s', set_rgb (TTen t) s = (Ok tt, s') /\ Inv q s' cf (with_frgb f a).
Proof.
  intros (A1 & A2 & A3 & A4 & A5 & A6 & A7 & A8 & A9 & A10 & A11) Ht.
  unfold set_rgb. rewrite mb_get. unfold assert_shape. rewrite (proj1 A2), (proj1 Ht), (shape_eqb_true _ _ eq_refl).
  eexists. split; [reflexivity|]. cbn [guard].
  split; [exact A1|]. split; [exact A2|]. split; [eexists; split; [reflexivity|exact Ht]|].
  repeat (split; [assumption|]). exact A11.
Qed.
Lemma set_depth_inv s cf a t f s' : Inv false s cf a -> Image cf a 1 t (fun b l h w _ => f b l h w) ->
  set_depth (TTen t) s = (Ok tt, s') -> Inv false s' cf (with_fdep f a).
Proof.
  intros (A1 & A2 & A3 & A4 & A5 & A6 & A7 & A8 & A9 & A10 & A11) Ht.
  unfold set_depth. rewrite mb_get. destruct (r_depsh s) as [sh|] eqn:Es; [|discriminate].
  unfold mbind, lift. destruct (assert_shape t sh); [|discriminate]. intros E. injection E as <-.
  split; [exact A1|]. split; [cbn; rewrite Es; exact A2|]. split; [exact A3|]. split; [eexists; split; [reflexivity|exact Ht]|].
  split; [exact A5|]. split; [exact A6|]. split; [exact A7|].
  split; [split; exact I|]. split; [split; exact I|]. split; [intros [E|E]; exfalso; apply E; reflexivity|].
  cbn. destruct (r_mask s); [|exact I]. destruct A11 as [E _]. discriminate.
Qed.
Lemma set_intr_inv q s cf a t K : Inv q s cf a -> Intr a t K ->
  exists s', set_intr (TTen t) s = (Ok tt, s') /\ Inv q s' cf (with_fK K a).
Proof.
  intros (A1 & A2 & A3 & A4 & A5 & A6 & A7 & A8 & A9 & A10 & A11) Ht.
  unfold set_intr. rewrite mb_get. unfold assert_shape.
  destruct A2 as (S1 & S2 & S3 & S4). rewrite S3, (proj1 Ht), (shape_eqb_true _ _ eq_refl).
  eexists. split; [reflexivity|]. cbn [guard].
  split; [exact A1|]. split; [repeat split; assumption|]. split; [exact A3|]. split; [exact A4|].
  split; [eexists; split; [reflexivity|exact Ht]|]. split; [exact A6|]. split; [exact A7|].
  split; [split; exact I|]. split; [split; exact I|]. split; [intros [E|E]; exfalso; apply E; reflexivity|]. exact A11.
Qed.
Lemma set_poses_inv q s cf a t T : Inv q s cf a -> Poses a t T ->
  exists s', set_poses (TTen t) s = (Ok tt, s') /\ Inv q s' cf (with_fpose (Some T) a).
Proof.
  intros (A1 & A2 & A3 & A4 & A5 & A6 & A7 & A8 & A9 & A10 & A11) Ht.
  unfold set_poses. rewrite mb_get. unfold assert_shape.
  destruct A2 as (S1 & S2 & S3 & S4). rewrite S4, (proj1 Ht), (shape_eqb_true _ _ eq_refl).
  eexists. split; [reflexivity|]. cbn [guard].
  split; [exact A1|]. split; [repeat split; assumption|]. split; [exact A3|]. split; [exact A4|].
  split; [exact A5|]. split; [exact Ht|]. split; [exact A7|].
  split; [split; [apply A8|exact I]|]. split; [split; [apply A9|exact I]|].
  split; [intros [E|E]; [apply A10; left; exact E|exfalso; apply E; reflexivity]|]. exact A11.
Qed.
Lemma drop_poses_inv q s cf a s' : Inv q s cf a -> set_poses TNone s = (Ok tt, s') -> Inv q s' cf (with_fpose None a).
Proof.
  intros (A1 & A2 & A3 & A4 & A5 & A6 & A7 & A8 & A9 & A10 & A11) E. injection E as <-.
  split; [exact A1|]. split; [exact A2|]. split; [exact A3|]. split; [exact A4|].
  split; [exact A5|]. split; [exact I|]. split; [exact A7|].
  split; [split; [apply A8|exact I]|]. split; [split; [apply A9|exact I]|].
  split; [intros [E|E]; [apply A10; left; exact E|exfalso; apply E; reflexivity]|]. exact A11.
Qed.
Lemma set_fail s v e s' :
  (set_rgb v s = (Err e, s') \/ set_depth v s = (Err e, s') \/ set_intr v s = (Err e, s') \/
   set_poses v s = (Err e, s')) -> s' = s.
Proof.
  unfold set_rgb, set_depth, set_intr, set_poses. rewrite !mb_get.
  intros [E|[E|[E|E]]]; destruct v as [|t|]; try discriminate E;
    try (injection E as _ <-; reflexivity);
    try (unfold mbind, lift in E; destruct (assert_shape t _); [discriminate E|injection E as _ <-; reflexivity]).
  - destruct (r_depsh s); [|injection E as _ <-; reflexivity].
    unfold mbind, lift in E; destruct (assert_shape t _); [discriminate E|injection E as _ <-; reflexivity].
  - destruct (r_depsh s); injection E as _ <-; reflexivity.
Qed.

(* ---------------- channel order *)
Definition flip (cf : bool) : ten R -> res (ten R) := if cf then permute_last else permute_first.
Lemma flip_img cf a C t f : Image cf a C t f -> exists u, flip cf t = Ok u /\ Image (negb cf) a C u f.
Proof.
  intros H. pose proof (img_dims _ _ _ _ _ H) as D. destruct H as [_ H].
  destruct cf; cbn [flip negb]; unfold permute_last, permute_first; rewrite D;
    (eexists; split; [reflexivity|]; apply img_intro; [reflexivity|]; intros; unfold px; cbn [at_]; apply H; assumption).
Qed.
Lemma flip_opt cf a C o f : OptImg cf a C o f ->
  exists o', permute_if_not_None (flip cf) o = Ok o' /\ OptImg (negb cf) a C o' f /\ (o' <> None -> o <> None).
Proof.
  destruct o as [t|]; cbn [OptImg permute_if_not_None].
  - intros H. destruct (flip_img _ _ _ _ _ H) as (u & E & Hu). exists (Some u). rewrite E. cbn. split; [reflexivity|].
    split; [exact Hu|]. intros _; discriminate.
  - intros _. exists None. split; [reflexivity|]. split; [exact I|auto].
Qed.
Lemma flip_img_shape cf a C t f u : Image cf a C t f -> flip cf t = Ok u -> shape u = img_shape (negb cf) a C.
Proof. intros H E. destruct (flip_img _ _ _ _ _ H) as (u' & E' & Hu). assert (u' = u) by congruence. subst. apply Hu. Qed.

Lemma convert_inv s cf a : Inv false s cf a -> exists s',
  convert_ (flip cf) (negb cf) s = (Ok tt, s') /\ Inv false s' (negb cf) a /\ r_depsh s' = Some (img_shape (negb cf) a 1).
Proof.
  intros Hi. destruct (inv_inputs _ _ _ _ Hi) as (r & d & i & E1 & E2 & E3 & H1 & H2 & H3).
  pose proof Hi as (A1 & A2 & A3 & A4 & A5 & A6 & A7 & (A8 & A8') & (A9 & A9') & A10 & A11).
  destruct (flip_img _ _ _ _ _ H1) as (r' & F1 & G1). destruct (flip_img _ _ _ _ _ H2) as (d' & F2 & G2).
  destruct (flip_opt _ _ _ _ _ A8) as (vm & F3 & G3 & _). destruct (flip_opt _ _ _ _ _ A8') as (gvm & F4 & G4 & _).
  destruct (flip_opt _ _ _ _ _ A9) as (nm & F5 & G5 & N5). destruct (flip_opt _ _ _ _ _ A9') as (gnm & F6 & G6 & N6).
  assert (P1 : permute_if_not_None (flip cf) (Some r) = Ok (Some r')) by (cbn; rewrite F1; reflexivity).
  assert (P2 : permute_if_not_None (flip cf) (Some d) = Ok (Some d')) by (cbn; rewrite F2; reflexivity).
  unfold convert_. rewrite mb_get, E1, (mb_lift _ _ _ _ P1), mb_mod.
  rewrite mb_get. cbn [with_rgb r_depth]. rewrite E2, (mb_lift _ _ _ _ P2), mb_mod.
  rewrite mb_get. cbn [with_rgb with_depth r_vm]. rewrite (mb_lift _ _ _ _ F3), mb_mod.
  rewrite mb_get. cbn [with_rgb with_depth with_vm with_maps r_gvm]. rewrite (mb_lift _ _ _ _ F4), mb_mod.
  rewrite mb_get. cbn [with_rgb with_depth with_vm with_gvm with_maps r_nm]. rewrite (mb_lift _ _ _ _ F5), mb_mod.
  rewrite mb_get. cbn [with_rgb with_depth with_vm with_gvm with_nm with_maps r_gnm]. rewrite (mb_lift _ _ _ _ F6), mb_mod.
  rewrite mb_mod, mb_get. cbn [with_rgb with_depth with_vm with_gvm with_nm with_gnm with_maps with_layout r_rgb r_depth].
  rewrite mb_mod. eexists. split; [reflexivity|]. split; [|cbn; f_equal; apply G2].
  split; [repeat split; apply A1|].
  split; [split; [apply G1|]; split; [right; cbn; f_equal; apply G2|]; split; apply A2|].
  split; [eexists; split; [reflexivity|exact G1]|]. split; [eexists; split; [reflexivity|exact G2]|].
  split; [exact A5|]. split; [exact A6|]. split; [exact A7|]. split; [split; assumption|]. split; [split; assumption|].
  split; [intros [E|E]; apply A10; [left; apply N5, E|right; apply N6, E]|].
  cbn. destruct (r_mask s); [|exact I]. destruct A11 as [E _]. discriminate.
Qed.
Lemma last_inv s cf a : Inv false s cf a -> exists s', to_channels_last_ s = (Ok tt, s') /\ Inv false s' false a /\
  (cf = true -> r_depsh s' = Some (img_shape false a 1)) /\ (cf = false -> s' = s).
Proof.
  intros Hi. unfold to_channels_last_. rewrite mb_get. pose proof Hi as ((E & _) & _). rewrite E. destruct cf.
  - destruct (convert_inv _ _ _ Hi) as (s' & E' & Hi' & Hd). exists s'. split; [exact E'|]. split; [exact Hi'|]. split; [auto|discriminate].
  - exists s. split; [reflexivity|]. split; [exact Hi|]. split; [discriminate|auto].
Qed.
Lemma first_inv s cf a : Inv false s cf a -> exists s', to_channels_first_ s = (Ok tt, s') /\ Inv false s' true a /\
  (cf = false -> r_depsh s' = Some (img_shape true a 1)) /\ (cf = true -> s' = s).
Proof.
  intros Hi. unfold to_channels_first_. rewrite mb_get. pose proof Hi as ((E & _) & _). rewrite E. destruct cf.
  - exists s. split; [reflexivity|]. split; [exact Hi|]. split; [discriminate|auto].
  - destruct (convert_inv _ _ _ Hi) as (s' & E' & Hi' & Hd). exists s'. split; [exact E'|]. split; [exact Hi'|]. split; [auto|discriminate].
Qed.

(* ---------------- indexing *)
Lemma slice_pos_ok start stop step n :
  (match step with None => 1%Z | Some k => k end > 0)%Z ->
  exists ks, slice_pos start stop step n = Ok ks /\ Forall (fun k => k < n) ks /\
    slice_sel start stop (match step with None => 1%Z | Some k => k end) n ks.
Proof.
  intros H. destruct (slice_sel_ok start stop step n) as (ks & E & Hf & Hs); [lia|].
  exists ks. unfold slice_pos.
  replace (match step with None => true | Some k => (0 <? k)%Z end) with true
    by (destruct step as [k|]; [symmetry; apply Z.ltb_lt; lia|reflexivity]).
  cbn [guard rbind]. rewrite E. cbn [rmap]. rewrite map_map.
  split; [f_equal; rewrite <- (map_id ks) at 2; apply map_ext; intros; apply Nat2Z.id|]. split; assumption.
Qed.
Lemma lt_sorted_eq ks ks' : StronglySorted lt ks -> StronglySorted lt ks' -> (forall k, In k ks <-> In k ks') -> ks = ks'.
Proof. apply sorted_unique; intros; lia. Qed.
Lemma int_slice i n ks : slice_sel (Some i) (Some (i + 1)%Z) 1 n ks ->
  (forall k, resolves n i k -> i <> (-1)%Z -> ks = [k]) /\
  ((i = -1 \/ i < - Z.of_nat n \/ Z.of_nat n <= i)%Z -> ks = []).
Proof.
  intros [(_ & Hs & Hk)|(H & _)]; [|lia].
  assert (Hk' : forall k, In k ks <-> (clip_up (Z.of_nat n) i <= Z.of_nat k < clip_up (Z.of_nat n) (i + 1))%Z).
  { intros k. rewrite Hk. split.
    - intros (H1 & j & Hj & E). lia.
    - intros (H1 & H2). split; [exact H2|]. exists (Z.of_nat k - clip_up (Z.of_nat n) i)%Z. lia. }
  split.
  - intros k [Hkn Hr] Hne. apply lt_sorted_eq; [exact Hs|repeat constructor|].
    intros k'. rewrite Hk'. unfold clip_up. cbn [In].
    destruct (Z.ltb_spec i 0), (Z.ltb_spec (i + 1) 0); split; intros; lia.
  - intros Hi. destruct ks as [|k ks]; [reflexivity|]. exfalso.
    specialize (Hk' k). destruct Hk' as [Hk' _]. specialize (Hk' (or_introl eq_refl)).
    unfold clip_up in Hk'. destruct (Z.ltb_spec i 0), (Z.ltb_spec (i + 1) 0); lia.
Qed.
Lemma elem_pos_ok e n ks : Addresses1 e n ks -> e <> EInt (-1) -> elem_pos e n = Ok ks /\ Forall (fun k => k < n) ks.
Proof.
  destruct e as [i|a b c|]; cbn [Addresses1 elem_pos]; [| |contradiction].
  - intros (k & Hk & ->) Hne. destruct (slice_pos_ok (Some i) (Some (i + 1)%Z) None n ltac:(lia)) as (ks & E & Hf & Hs).
    destruct (int_slice _ _ _ Hs) as [H _]. rewrite (H k Hk) in E by congruence. split; [exact E|].
    constructor; [apply Hk|constructor].
  - intros (Hp & Hs) _. destruct (slice_pos_ok a b c n) as (ks' & E & Hf & Hs').
    { destruct c; lia. }
    assert (ks' = ks).
    { destruct Hs as [(_ & O & K)|(H & _)]; [|destruct c; lia]. destruct Hs' as [(_ & O' & K')|(H & _)]; [|destruct c; lia].
      apply lt_sorted_eq; try assumption. intros k. rewrite K, K'. reflexivity. }
    subst ks'. split; assumption.
Qed.
Lemma elem_pos_bad i n : (i = -1 \/ i < - Z.of_nat n \/ Z.of_nat n <= i)%Z -> elem_pos (EInt i) n = Ok [].
Proof.
  intros H. cbn [elem_pos]. destruct (slice_pos_ok (Some i) (Some (i + 1)%Z) None n ltac:(lia)) as (ks & E & Hf & Hs).
  destruct (int_slice _ _ _ Hs) as [_ G]. rewrite (G H) in E. exact E.
Qed.

Lemma take_img cf a C t f kb kl : Image cf a C t f ->
  Forall (fun k => k < fB a) kb -> Forall (fun k => k < fL a) kl ->
  exists u, take_BL kb kl t = Ok u /\ Image cf (pick kb kl a) C u (fun b l => f (nth b kb 0) (nth l kl 0)).
Proof.
  intros H Fb Fl. pose proof (img_dims _ _ _ _ _ H) as D. destruct H as [S H]. unfold take_BL. rewrite S.
  rewrite Forall_nth in Fb, Fl.
  destruct cf; cbn [img_shape]; (eexists; split; [reflexivity|]; apply img_intro; [reflexivity|]);
    intros b l h w c (Hb & Hl & Hh & Hw) Hc; cbn [pick fB fL fH fW] in *; unfold px; cbn [at_ rev app];
    apply H; try assumption; repeat split; try assumption; first [apply Fb|apply Fl]; assumption.
Qed.
Lemma take_opt_img cf a C o f kb kl : OptImg cf a C o f ->
  Forall (fun k => k < fB a) kb -> Forall (fun k => k < fL a) kl ->
  exists u, take_opt kb kl o = Ok u /\ OptImg cf (pick kb kl a) C u (fun b l => f (nth b kb 0) (nth l kl 0)) /\
    (u <> None -> o <> None).
Proof.
  intros H Fb Fl. destruct o as [t|]; cbn [take_opt OptImg] in *.
  - destruct (take_img _ _ _ _ _ _ _ H Fb Fl) as (u & E & Hu). exists (Some u). rewrite E. split; [reflexivity|].
    split; [exact Hu|discriminate].
  - exists None. split; [reflexivity|]. split; [exact I|auto].
Qed.
Lemma take_intr a t K kb kl : Intr a t K -> Forall (fun k => k < fB a) kb ->
  exists u, take_BL kb [0] t = Ok u /\ Intr (pick kb kl a) u (fun b => K (nth b kb 0)).
Proof.
  intros [S H] Fb. unfold take_BL. rewrite S. eexists. split; [reflexivity|]. split; [apply dims_shape; reflexivity|].
  rewrite Forall_nth in Fb. cbn [pick fB]. intros b Hb i j Hi Hj. unfold ent. cbn [at_ rev app nth].
  apply (H (nth b kb 0)); try assumption. apply Fb. exact Hb.
Qed.
Lemma take_poses a o kb kl : opt_rel (Poses a) o (fpose a) ->
  Forall (fun k => k < fB a) kb -> Forall (fun k => k < fL a) kl ->
  exists u, take_opt kb kl o = Ok u /\ opt_rel (Poses (pick kb kl a)) u (fpose (pick kb kl a)).
Proof.
  intros H Fb Fl. cbn [pick fpose]. destruct o as [t|], (fpose a) as [T|]; cbn [opt_rel take_opt option_map] in *; try contradiction.
  - destruct H as [S H]. unfold take_BL. rewrite S. cbn [rmap]. eexists. split; [reflexivity|]. cbn [opt_rel].
    split; [apply dims_shape; reflexivity|]. rewrite Forall_nth in Fb, Fl. cbn [fB fL].
    intros b l Hb Hl i j Hi Hj. unfold ent. cbn [at_ rev app nth]. apply H; [apply Fb|apply Fl| |]; assumption.
  - exists None. split; [reflexivity|exact I].
Qed.
(* derived maps of picked frames are the picked derived maps *)
Lemma pick_pixel kb kl a b l : pixel (pick kb kl a) b l = pixel a (nth b kb 0) (nth l kl 0).
Proof. unfold pixel. cbn. destruct (fpix a); reflexivity. Qed.
Lemma pick_vertex kb kl a b l h w c : vertex (pick kb kl a) b l h w c = vertex a (nth b kb 0) (nth l kl 0) h w c.
Proof. unfold vertex. rewrite pick_pixel. reflexivity. Qed.
Lemma pick_gvertex kb kl a b l h w c : global_vertex (pick kb kl a) b l h w c = global_vertex a (nth b kb 0) (nth l kl 0) h w c.
Proof.
  unfold global_vertex. cbn [pick fpose]. destruct (fpose a); cbn [option_map]; [|apply pick_vertex].
  cbn [fdep]. unfold act, mvec. f_equal. f_equal. cbn [rsum]. rewrite !pick_vertex. reflexivity.
Qed.
Lemma pick_normal kb kl a b l h w c : normal (pick kb kl a) b l h w c = normal a (nth b kb 0) (nth l kl 0) h w c.
Proof.
  unfold normal. cbn [pick fdep]. f_equal.
  assert (Eh : forall j, tangent_h (pick kb kl a) b l h w j = tangent_h a (nth b kb 0) (nth l kl 0) h w j)
    by (intros; unfold tangent_h; rewrite !pick_vertex; reflexivity).
  assert (Ev : forall j, tangent_v (pick kb kl a) b l h w j = tangent_v a (nth b kb 0) (nth l kl 0) h w j)
    by (intros; unfold tangent_v; rewrite !pick_vertex; reflexivity).
  assert (Ec : forall j, cross (tangent_h (pick kb kl a) b l h w) (tangent_v (pick kb kl a) b l h w) j =
    cross (tangent_h a (nth b kb 0) (nth l kl 0) h w) (tangent_v a (nth b kb 0) (nth l kl 0) h w) j)
    by (intros j; unfold cross; rewrite !Eh, !Ev; reflexivity).
  unfold unitize. rewrite Ec. f_equal.
  change (fun b0 l0 => fdep a (nth b0 kb 0) (nth l0 kl 0)) with (fun b0 l0 => fdep a (nth b0 kb 0) (nth l0 kl 0)).
  rewrite (norm_ext _ (cross (tangent_h a (nth b kb 0) (nth l kl 0) h w) (tangent_v a (nth b kb 0) (nth l kl 0) h w))) by (intros j _; apply Ec).
  reflexivity.
Qed.
Lemma pick_gnormal kb kl a b l h w c : global_normal (pick kb kl a) b l h w c = global_normal a (nth b kb 0) (nth l kl 0) h w c.
Proof.
  unfold global_normal. cbn [pick fpose]. destruct (fpose a); cbn [option_map]; [|apply pick_normal].
  unfold mvec. cbn [rsum]. rewrite !pick_normal. reflexivity.
Qed.

Definition elems (ix : rindex) : option (ielem * ielem) :=
  match ix with
  | RInt i => Some (EInt i, ESlice None None None)
  | RTuple [a; b] => Some (a, b)
  | _ => None
  end.
Lemma getitem_pos q s cf a ix e0 e1 kb kl : Inv q s cf a -> elems ix = Some (e0, e1) ->
  elem_pos e0 (fB a) = Ok kb -> elem_pos e1 (fL a) = Ok kl ->
  Forall (fun k => k < fB a) kb -> Forall (fun k => k < fL a) kl ->
  (kb = [] \/ kl = [] -> rgbd_getitem ix s = Err IndexError) /\
  (kb <> [] -> kl <> [] -> exists o, rgbd_getitem ix s = Ok o /\ Inv false o cf (pick kb kl a)).
Proof.
  intros Hi Hx E0 E1 Fb Fl.
  destruct (inv_inputs _ _ _ _ Hi) as (r & d & i & R1 & R2 & R3 & H1 & H2 & H3).
  pose proof Hi as ((A0 & AB & AL & Ah & Aw) & A2 & A3 & A4 & A5 & A6 & A7 & (A8 & A8') & (A9 & A9') & A10 & A11).
  destruct (take_img _ _ _ _ _ kb kl H1 Fb Fl) as (r' & T1 & G1).
  destruct (take_img _ _ _ _ _ kb kl H2 Fb Fl) as (d' & T2 & G2).
  destruct (take_intr _ _ _ kb kl H3 Fb) as (i' & T3 & G3).
  destruct (take_poses _ _ kb kl A6 Fb Fl) as (p' & T4 & G4).
  destruct (take_opt_img _ _ _ _ _ kb kl A8 Fb Fl) as (vm & T6 & G6 & N6).
  destruct (take_opt_img _ _ _ _ _ kb kl A8' Fb Fl) as (gvm & T7 & G7 & N7).
  destruct (take_opt_img _ _ _ _ _ kb kl A9 Fb Fl) as (nm & T8 & G8 & N8).
  destruct (take_opt_img _ _ _ _ _ kb kl A9' Fb Fl) as (gnm & T9 & G9 & N9).
  assert (T5 : exists px', take_opt kb kl (r_pix s) = Ok px' /\ PixOk (pick kb kl a) px').
  { unfold PixOk in A7. destruct (r_pix s) as [t|].
    - destruct (take_img _ _ _ _ _ kb kl A7 Fb Fl) as (u & E & Hu). exists (Some u). cbn [take_opt]. rewrite E.
      split; [reflexivity|]. eapply img_ext; [exact Hu|]. intros. rewrite pick_pixel. reflexivity.
    - exists None. split; [reflexivity|]. cbn. rewrite A7. reflexivity. }
  destruct T5 as (px' & T5 & G5).
  assert (U : rgbd_getitem ix s =
    (guard (negb (length kb =? 0)) IndexError ;;? guard (negb (length kl =? 0)) IndexError ;;?
     let? o := rgbd_new (TTen r') (TTen d') (TTen i') TNone cf TNone in
     Ok (with_maps vm nm gvm gnm (with_pix px' (with_poses p' o))))).
  { unfold rgbd_getitem. destruct ix as [z|l|]; cbn [elems] in Hx; try discriminate.
    - injection Hx as <- <-. cbn [rbind]. rewrite R1, AB, AL, E0. cbn [rbind]. rewrite E1. cbn [rbind]. rewrite T1. cbn [rbind].
      destruct (negb (length kb =? 0)); [|reflexivity]. destruct (negb (length kl =? 0)); [|reflexivity]. cbn [guard rbind].
      rewrite R2, T2. cbn [rbind]. rewrite R3, T3. cbn [rbind]. rewrite A0.
      destruct (rgbd_new (TTen r') (TTen d') (TTen i') TNone cf TNone); [|reflexivity]. cbn [rbind].
      rewrite T4, T5, T6, T7, T8, T9. reflexivity.
    - destruct l as [|x [|y [|? ?]]]; try discriminate. injection Hx as -> ->.
      cbn [rbind]. rewrite R1, AB, AL, E0. cbn [rbind]. rewrite E1. cbn [rbind]. rewrite T1. cbn [rbind].
      destruct (negb (length kb =? 0)); [|reflexivity]. destruct (negb (length kl =? 0)); [|reflexivity]. cbn [guard rbind].
      rewrite R2, T2. cbn [rbind]. rewrite R3, T3. cbn [rbind]. rewrite A0.
      destruct (rgbd_new (TTen r') (TTen d') (TTen i') TNone cf TNone); [|reflexivity]. cbn [rbind].
      rewrite T4, T5, T6, T7, T8, T9. reflexivity. }
  split.
  - intros Hn. rewrite U. destruct kb; [reflexivity|]. cbn [length Nat.eqb negb guard rbind].
    destruct kl; [reflexivity|]. destruct Hn; discriminate.
  - intros Nb Nl. rewrite U. destruct kb as [|kb0 kb1] eqn:Ekb; [contradiction|]. destruct kl as [|kl0 kl1] eqn:Ekl; [contradiction|].
    rewrite <- Ekb, <- Ekl in *. replace (length kb =? 0) with false by (subst; reflexivity).
    replace (length kl =? 0) with false by (subst; reflexivity). cbn [negb guard rbind].
    destruct (new_ok cf (bare (pick kb kl a)) r' d' i' TNone TNone) as (o & E & Ho); try discriminate.
    { split; [exact G1|]. split; [exact G2|]. split; [exact G3|]. split; exact I. }
    rewrite E. cbn [rbind]. eexists. split; [reflexivity|].
    assert (Rm : r_mask o = None).
    { unfold rgbd_new in E. cbn [is_tensor opt_tensor guard rbind] in E.
      repeat match type of E with rbind (guard ?b _) _ = _ => destruct b; [cbn [guard rbind] in E|discriminate] end.
      injection E as <-. reflexivity. }
    destruct Ho as (B1 & B2 & B3 & B4 & B5 & _).
    split; [exact B1|]. split; [exact B2|]. split; [exact B3|]. split; [exact B4|]. split; [exact B5|].
    split; [exact G4|]. split; [exact G5|].
    split; [split; [destruct vm|destruct gvm]; try exact I; cbn [OptImg r_vm r_gvm with_maps] in *;
            [eapply img_ext; [exact G6|]; intros; symmetry; apply pick_vertex
            |eapply img_ext; [exact G7|]; intros; symmetry; apply pick_gvertex]|].
    split; [split; [destruct nm|destruct gnm]; try exact I; cbn [OptImg r_nm r_gnm with_maps] in *;
            [eapply img_ext; [exact G8|]; intros; symmetry; apply pick_normal
            |eapply img_ext; [exact G9|]; intros; symmetry; apply pick_gnormal]|].
    split; [intros [Hn|Hn]; apply A10; [left; apply N8, Hn|right; apply N9, Hn]|].
    cbn. rewrite Rm. exact I.
Qed.
