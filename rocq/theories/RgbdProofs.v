(* Invariant of RGBDImages objects and the meaning of every read. *)
From Coq Require Import Reals List Arith Bool ZArith Lia Lra.
From Verif Require Import Res Fld StructUtilsModel PointcloudsModel PointcloudsSpec PointcloudsIndexSpec
  MatSpec GeomSpec TensorModel TensorProofs ProjModel ProjPropProofs GeomModel GeomPtsProofs RgbdModel RgbdSpec.
Import ListNotations.
Local Open Scope nat_scope.

Lemma shape_dims {A} (t : ten A) l : shape t = l -> dims t = rev l.
Proof. intros <-. unfold shape. symmetry. apply rev_involutive. Qed.
Lemma dims_shape {A} (t : ten A) l : dims t = rev l -> shape t = l.
Proof. intros H. unfold shape. rewrite H. apply rev_involutive. Qed.
Lemma img_dims {A} cf a C (t : ten A) f : Image cf a C t f ->
  dims t = if cf then [fW a; fH a; C; fL a; fB a] else [C; fW a; fH a; fL a; fB a].
Proof. intros [H _]. rewrite (shape_dims _ _ H). unfold img_shape. destruct cf; reflexivity. Qed.
Lemma img_intro {A} (cf : bool) a C (t : ten A) f :
  dims t = (if cf then [fW a; fH a; C; fL a; fB a] else [C; fW a; fH a; fL a; fB a]) ->
  (forall b l h w c, inside a b l h w -> c < C -> px cf t b l h w c = f b l h w c) -> Image cf a C t f.
Proof. intros H K. split; [apply dims_shape; rewrite H; unfold img_shape; destruct cf; reflexivity|exact K]. Qed.
Lemma img_ext {A} cf a C (t : ten A) f g : Image cf a C t f ->
  (forall b l h w c, inside a b l h w -> c < C -> f b l h w c = g b l h w c) -> Image cf a C t g.
Proof. intros [H K] E. split; [exact H|]. intros. rewrite K by assumption. apply E; assumption. Qed.

Lemma bix1 (d i : nat) : i < d -> (if d =? 1 then 0 else i) = i.
Proof. destruct (Nat.eqb_spec d 1); lia. Qed.
Lemma bdim d : (if d =? d then Ok d else if d =? 1 then Ok d else if d =? 1 then Ok d else Err RuntimeError) = Ok d.
Proof. rewrite Nat.eqb_refl. reflexivity. Qed.

Lemma img_mul cf a (t u : ten R) f g : Image cf a 3 t f -> Image cf a 1 u g ->
  exists v, tmap2 Rmult t u = Ok v /\ Image cf a 3 v (fun b l h w c => (f b l h w c * g b l h w 0%nat)%R).
Proof.
  intros Ht Hu. pose proof (img_dims _ _ _ _ _ Ht) as Dt. pose proof (img_dims _ _ _ _ _ Hu) as Du.
  destruct Ht as [_ Ht]. destruct Hu as [_ Hu]. unfold tmap2. rewrite Dt, Du.
  destruct cf.
  - assert (E : bshape [fW a; fH a; 3; fL a; fB a] [fW a; fH a; 1; fL a; fB a] = Ok [fW a; fH a; 3; fL a; fB a]).
    { repeat (rewrite bshape_cons, ?Nat.eqb_refl; cbn [rbind Nat.eqb]). reflexivity. }
    rewrite E. cbn [rbind]. eexists. split; [reflexivity|]. apply img_intro; [reflexivity|].
    intros b l h w c (Hb & Hl & Hh & Hw) Hc. unfold px. cbn [at_ bix].
    rewrite !bix1 by assumption. cbn [Nat.eqb].
    change (at_ t [w; h; c; l; b]) with (px true t b l h w c).
    change (at_ u [w; h; 0; l; b]) with (px true u b l h w 0).
    rewrite Ht by (try assumption; repeat split; assumption). rewrite Hu by (try lia; repeat split; assumption). reflexivity.
  - assert (E : bshape [3; fW a; fH a; fL a; fB a] [1; fW a; fH a; fL a; fB a] = Ok [3; fW a; fH a; fL a; fB a]).
    { repeat (rewrite bshape_cons, ?Nat.eqb_refl; cbn [rbind Nat.eqb]). reflexivity. }
    rewrite E. cbn [rbind]. eexists. split; [reflexivity|]. apply img_intro; [reflexivity|].
    intros b l h w c (Hb & Hl & Hh & Hw) Hc. unfold px. cbn [at_ bix].
    rewrite !bix1 by assumption. cbn [Nat.eqb].
    change (at_ t [c; w; h; l; b]) with (px false t b l h w c).
    change (at_ u [0; w; h; l; b]) with (px false u b l h w 0).
    rewrite Ht by (try assumption; repeat split; assumption). rewrite Hu by (try lia; repeat split; assumption). reflexivity.
Qed.
Lemma img_tmap {A B} (k : A -> B) cf a C (t : ten A) f : Image cf a C t f ->
  Image cf a C (tmap k t) (fun b l h w c => k (f b l h w c)).
Proof.
  intros H. apply img_intro; [exact (img_dims _ _ _ _ _ H)|]. intros. destruct H as [_ H].
  rewrite <- H by assumption. unfold px. destruct cf; reflexivity.
Qed.

Definition depthf (a : frames) (b l h w c : nat) : R := fdep a b l h w.
Definition maskf (a : frames) (b l h w c : nat) : bool := if Rlt_dec 0 (fdep a b l h w) then true else false.
Definition OptImg cf a C (o : option (ten R)) f : Prop := match o with None => True | Some t => Image cf a C t f end.
(* the cached pixel positions, with the standard grid filled in *)
Definition PixOk (a : frames) (o : option (ten R)) : Prop :=
  match o with
  | None => fpix a = None
  | Some t => Image false a 3 t (fun b l h w => pixel a b l h w)
  end.

Definition Inv (q : bool) (s : rgbd) (cf : bool) (a : frames) : Prop :=
  (r_cf s = cf /\ r_B s = fB a /\ r_L s = fL a /\ r_h s = fH a /\ r_w s = fW a) /\
  (r_rgbsh s = img_shape cf a 3 /\ (r_depsh s = None \/ r_depsh s = Some (img_shape cf a 1)) /\
   r_intrsh s = [fB a; 1; 4; 4] /\ r_posesh s = [fB a; fL a; 4; 4]) /\
  (exists t, r_rgb s = Some t /\ Image cf a 3 t (frgb a)) /\
  (exists t, r_depth s = Some t /\ Image cf a 1 t (depthf a)) /\
  (exists t, r_intr s = Some t /\ Intr a t (fK a)) /\
  opt_rel (Poses a) (r_poses s) (fpose a) /\
  PixOk a (r_pix s) /\
  (OptImg cf a 3 (r_vm s) (vertex a) /\ OptImg cf a 3 (r_gvm s) (global_vertex a)) /\
  (OptImg cf a 3 (r_nm s) (normal a) /\ OptImg cf a 3 (r_gnm s) (global_normal a)) /\
  ((r_nm s <> None \/ r_gnm s <> None) -> 2 <= fH a /\ 2 <= fW a) /\
  match r_mask s with None => True | Some m => q = true /\ Image cf a 1 m (maskf a) end.

Lemma inv_mono q s cf a : Inv q s cf a -> Inv true s cf a.
Proof.
  intros (A1 & A2 & A3 & A4 & A5 & A6 & A7 & A8 & A9 & A10 & A11). repeat (split; [assumption|]).
  destruct (r_mask s); [|exact I]. split; [reflexivity|apply A11].
Qed.

(* ---------------- running the monad *)
Lemma mb_ok {S A B} (m : M S A) (k : A -> M S B) s v s' : m s = (Ok v, s') -> mbind m k s = k v s'.
Proof. intros E. unfold mbind. rewrite E. reflexivity. Qed.
Lemma mb_err {S A B} (m : M S A) (k : A -> M S B) s e s' : m s = (Err e, s') -> mbind m k s = (Err e, s').
Proof. intros E. unfold mbind. rewrite E. reflexivity. Qed.
Lemma mb_get {S B} (k : S -> M S B) s : mbind get k s = k s s.
Proof. reflexivity. Qed.
Lemma mb_mod {S B} (f : S -> S) (k : unit -> M S B) s : mbind (modify f) k s = k tt (f s).
Proof. reflexivity. Qed.
Lemma mb_lift {S A B} (r : res A) (k : A -> M S B) s v : r = Ok v -> mbind (lift r) k s = k v s.
Proof. intros ->. reflexivity. Qed.
Lemma mb_lift_err {S A B} (r : res A) (k : A -> M S B) s e : r = Err e -> mbind (lift r) k s = (Err e, s).
Proof. intros ->. reflexivity. Qed.

(* ---------------- the mask *)
Lemma mask_read q s cf a : Inv q s cf a ->
  exists m, valid_depth_mask s = (Ok m, with_vmask (Some m) s) /\ Image cf a 1 m (maskf a).
Proof.
  intros (A1 & A2 & A3 & (d & A4 & Hd) & A5 & A6 & A7 & A8 & A9 & A10 & A11).
  unfold valid_depth_mask, mbind, get, ret. destruct (r_mask s) as [m|] eqn:E.
  - exists m. split; [|apply A11]. f_equal. destruct s; cbn in *. subst. reflexivity.
  - rewrite A4. eexists. split; [reflexivity|]. exact (img_tmap pos_dec _ _ _ _ _ Hd).
Qed.
Lemma inv_vmask q s cf a m : Inv q s cf a -> Image cf a 1 m (maskf a) -> Inv true (with_vmask (Some m) s) cf a.
Proof.
  intros (A1 & A2 & A3 & A4 & A5 & A6 & A7 & A8 & A9 & A10 & A11) Hm.
  repeat (split; [assumption|]). split; [reflexivity|assumption].
Qed.
Lemma masked_read q s cf a x f : Inv q s cf a -> Image cf a 3 x f ->
  exists y m, masked x s = (Ok y, with_vmask (Some m) s) /\ Image cf a 1 m (maskf a) /\
    Image cf a 3 y (fun b l h w c => keep (fdep a b l h w) (f b l h w c)).
Proof.
  intros Hi Hx. destruct (mask_read _ _ _ _ Hi) as (m & E & Hm).
  unfold masked, mbind. rewrite E. unfold lift.
  destruct (img_mul cf a x (tmap R_of_bool m) f _ Hx (img_tmap R_of_bool _ _ _ _ _ Hm)) as (y & Ey & Hy).
  exists y, m. rewrite Ey. split; [reflexivity|]. split; [exact Hm|]. eapply img_ext; [exact Hy|].
  intros. cbn beta. unfold maskf, R_of_bool, keep. destruct (Rlt_dec _ _); ring.
Qed.

(* masking looks only at the mask and the depth *)
Lemma masked_frame (g : rgbd -> rgbd) x s y m :
  masked x s = (Ok y, with_vmask (Some m) s) ->
  r_mask (g s) = r_mask s -> r_depth (g s) = r_depth s ->
  (forall o, g (with_vmask o s) = with_vmask o (g s)) ->
  masked x (g s) = (Ok y, with_vmask (Some m) (g s)).
Proof.
  intros E Hm Hd Hg. unfold masked, valid_depth_mask, mbind, get, ret, lift, modify in *.
  rewrite Hm, Hd. destruct (r_mask s) as [m0|] eqn:Em.
  - injection E as E E'. rewrite E. f_equal. assert (m0 = m) by (apply (f_equal r_mask) in E'; cbn in E'; congruence). subst m0.
    rewrite <- Hg, <- E'. reflexivity.
  - destruct (r_depth s) as [d|] eqn:Ed; [|discriminate]. injection E as E E'. rewrite E. f_equal. f_equal. f_equal. exact E'.
Qed.

(* ---------------- vertex map *)
Lemma grid_img a : fpix a = None -> Image false a 3 (pixel_grid (fB a) (fL a) (fH a) (fW a)) (fun b l h w => pixel a b l h w).
Proof.
  intros E. apply img_intro; [reflexivity|]. intros b l h w c (Hb & Hl & Hh & Hw) Hc.
  unfold px, pixel_grid, pixel. rewrite E. cbn [at_ create_meshgrid].
  destruct c as [|[|[|c]]]; [| | |lia]; cbn [Nat.eqb]; unfold vec3.
  - apply linspace_int; assumption.
  - apply linspace_int; assumption.
  - reflexivity.
Qed.

Lemma kinv_ok a K Kf : Intr a K Kf -> exists ki kr, inverse_intrinsics K eps6 = Ok ki /\
  kinv_rep (fL a) ki = Ok kr /\ dims kr = [3; 3; fL a; fB a] /\
  forall b l j c, b < fB a -> j < 3 -> c < 3 -> at_ kr [c; j; l; b] = kinv (Kf b) j c.
Proof.
  intros [HK HE]. pose proof (shape_dims _ _ HK) as D. cbn in D.
  unfold inverse_intrinsics, ndim. rewrite D. cbn [length Nat.ltb Nat.leb negb guard rbind Nat.eqb andb orb].
  eexists. eexists. split; [reflexivity|].
  split; [unfold kinv_rep; cbn [dims set_ent zeros_like]; rewrite D; reflexivity|]. split; [reflexivity|].
  intros b l j c Hb Hj Hc.
  pose proof (HE b Hb 0 0 ltac:(lia) ltac:(lia)) as E00. pose proof (HE b Hb 1 1 ltac:(lia) ltac:(lia)) as E11.
  pose proof (HE b Hb 0 2 ltac:(lia) ltac:(lia)) as E02. pose proof (HE b Hb 1 2 ltac:(lia) ltac:(lia)) as E12.
  unfold kinv. cbn [at_].
  destruct j as [|[|[|j]]]; [| | |lia]; destruct c as [|[|[|c]]]; try lia;
    cbn [set_ent at_ dims zeros_like Nat.eqb andb Nat.sub pinhole]; try reflexivity;
    rewrite ?E00, ?E11, ?E02, ?E12; unfold eps6, Rdiv; ring.
Qed.

Lemma dims_eqb_refl l : dims_eqb l l = true.
Proof. unfold dims_eqb. destruct (list_eq_dec _ l l); [reflexivity|contradiction]. Qed.

Lemma einsum_img cf a kr P (f : nat -> nat -> nat -> nat -> vec) (K : nat -> nat -> mat) :
  dims kr = [3; 3; fL a; fB a] ->
  (forall b l j c, b < fB a -> l < fL a -> j < 3 -> c < 3 -> at_ kr [c; j; l; b] = K b l j c) ->
  Image false a 3 P f ->
  exists e, einsum_last cf kr P = Ok e /\ Image cf a 3 e (fun b l h w => mvec 3 (K b l) (f b l h w)).
Proof.
  intros D HK HP. pose proof (img_dims _ _ _ _ _ HP) as DP. cbn [fst] in DP.
  unfold einsum_last. rewrite DP, D. cbn [Nat.eqb]. rewrite dims_eqb_refl. cbn [andb guard rbind].
  eexists. split; [reflexivity|]. destruct HP as [_ HP].
  apply img_intro; [destruct cf; reflexivity|]. intros b l h w c Hin Hc.
  assert (E : rsum 3 (fun c0 => at_ kr [c0; c; l; b] * at_ P [c0; w; h; l; b])%R = mvec 3 (K b l) (f b l h w) c).
  { unfold mvec. apply rsum_ext. intros k Hk. destruct Hin as (Hb & Hl & Hh & Hw). rewrite HK by assumption.
    f_equal. apply (HP b l h w k); [repeat split; assumption|exact Hk]. }
  unfold px. destruct cf; exact E.
Qed.
Lemma einsum_first_img a kr P (f : nat -> nat -> nat -> nat -> vec) (K : nat -> nat -> mat) :
  dims kr = [3; 3; fL a; fB a] ->
  (forall b l j c, b < fB a -> l < fL a -> j < 3 -> c < 3 -> at_ kr [c; j; l; b] = K b l j c) ->
  Image true a 3 P f ->
  exists e, einsum_first kr P = Ok e /\ Image true a 3 e (fun b l h w => mvec 3 (K b l) (f b l h w)).
Proof.
  intros D HK HP. pose proof (img_dims _ _ _ _ _ HP) as DP.
  unfold einsum_first. rewrite DP, D. cbn [Nat.eqb]. rewrite dims_eqb_refl. cbn [andb guard rbind].
  eexists. split; [reflexivity|]. destruct HP as [_ HP].
  apply img_intro; [reflexivity|]. intros b l h w c Hin Hc. unfold px. cbn [at_].
  unfold mvec. apply rsum_ext. intros k Hk. destruct Hin as (Hb & Hl & Hh & Hw). rewrite HK by assumption.
  f_equal. apply (HP b l h w k); [repeat split; assumption|exact Hk].
Qed.

Lemma inv_pix q s cf a t : Inv q s cf a -> Image false a 3 t (fun b l h w => pixel a b l h w) ->
  Inv q (with_pix (Some t) s) cf a.
Proof.
  intros (A1 & A2 & A3 & A4 & A5 & A6 & A7 & A8 & A9 & A10 & A11) Hm. repeat (split; [assumption|]). exact A11.
Qed.
Lemma inv_vm q s cf a t : Inv q s cf a -> Image cf a 3 t (vertex a) -> Inv q (with_vm (Some t) s) cf a.
Proof.
  intros (A1 & A2 & A3 & A4 & A5 & A6 & A7 & A8 & A9 & A10 & A11) Hm.
  do 7 (split; [assumption|]). split; [split; [exact Hm|apply A8]|]. split; [exact A9|]. split; [exact A10|exact A11].
Qed.
Lemma inv_gvm q s cf a t : Inv q s cf a -> Image cf a 3 t (global_vertex a) -> Inv q (with_gvm (Some t) s) cf a.
Proof.
  intros (A1 & A2 & A3 & A4 & A5 & A6 & A7 & A8 & A9 & A10 & A11) Hm.
  do 7 (split; [assumption|]). split; [split; [apply A8|exact Hm]|]. split; [exact A9|]. split; [exact A10|exact A11].
Qed.
Lemma inv_nm q s cf a t : Inv q s cf a -> 2 <= fH a -> 2 <= fW a -> Image cf a 3 t (normal a) -> Inv q (with_nm (Some t) s) cf a.
Proof.
  intros (A1 & A2 & A3 & A4 & A5 & A6 & A7 & A8 & A9 & A10 & A11) Hh Hw Hm.
  do 8 (split; [assumption|]). split; [split; [exact Hm|apply A9]|]. split; [auto|exact A11].
Qed.
Lemma inv_gnm q s cf a t : Inv q s cf a -> 2 <= fH a -> 2 <= fW a -> Image cf a 3 t (global_normal a) ->
  Inv q (with_gnm (Some t) s) cf a.
Proof.
  intros (A1 & A2 & A3 & A4 & A5 & A6 & A7 & A8 & A9 & A10 & A11) Hh Hw Hm.
  do 8 (split; [assumption|]). split; [split; [apply A9|exact Hm]|]. split; [auto|exact A11].
Qed.

(* pixel positions once filled in *)
Lemma vertex_read q s cf a : Inv q s cf a ->
  exists t s', vertex_map s = (Ok t, s') /\ Image cf a 3 t (vertex a) /\ Inv true s' cf a /\
    r_poses s' = r_poses s /\ r_cf s' = r_cf s /\ r_nm s' = r_nm s /\ r_gvm s' = r_gvm s /\ r_gnm s' = r_gnm s.
Proof.
  intros Hi. unfold vertex_map, cached. rewrite mb_get. destruct (r_vm s) as [t|] eqn:Ev.
  - exists t, s. split; [reflexivity|]. split; [|split; [eapply inv_mono; exact Hi|auto 6]].
    destruct Hi as (_ & _ & _ & _ & _ & _ & _ & [A8 _] & _). rewrite Ev in A8. exact A8.
  - pose proof Hi as ((A0 & AB & AL & Ah & Aw) & A2 & A3 & (d & A4 & Hd) & (K & A5 & HK) & A6 & A7 & A8 & A9 & A10 & A11).
    assert (Hp : exists P, (match r_pix s with
       | None => modify (with_pix (Some (pixel_grid (r_B s) (r_L s) (r_h s) (r_w s))))
       | Some _ => ret tt end) s = (Ok tt, with_pix (Some P) s) /\ Image false a 3 P (fun b l h w => pixel a b l h w)).
    { destruct (r_pix s) as [P|] eqn:Ep.
      - exists P. split; [|exact A7]. unfold ret. f_equal. destruct s; cbn in *; subst; reflexivity.
      - exists (pixel_grid (r_B s) (r_L s) (r_h s) (r_w s)). split; [reflexivity|].
        rewrite AB, AL, Ah, Aw. apply grid_img. exact A7. }
    destruct Hp as (P & Ep & HP).
    pose proof (inv_pix _ _ _ _ _ Hi HP) as Hi1.
    destruct (kinv_ok _ _ _ HK) as (ki & kr & E1 & E2 & D & HE).
    destruct (einsum_img cf a kr P _ (fun b _ => kinv (fK a b)) D ltac:(intros; apply HE; assumption) HP) as (e & E3 & He).
    destruct (img_mul cf a e d _ _ He Hd) as (v & E4 & Hv).
    destruct (masked_read _ _ _ _ v _ Hi1 Hv) as (y & m & E & Hm & Hy).
    assert (Hy' : Image cf a 3 y (vertex a)).
    { eapply img_ext; [exact Hy|]. intros b l h w c _ _. unfold vertex, depthf. f_equal. apply Rmult_comm. }
    assert (C : compute_vertex_map s = (Ok tt, with_vm (Some y) (with_vmask (Some m) (with_pix (Some P) s)))).
    { unfold compute_vertex_map. rewrite mb_get, A4. rewrite (mb_ok _ _ _ _ _ Ep). rewrite mb_get.
      cbn [with_pix r_intr r_pix r_L r_cf]. rewrite A5, AL, A0.
      rewrite (mb_lift _ _ _ _ E1), (mb_lift _ _ _ _ E2), (mb_lift _ _ _ _ E3), (mb_lift _ _ _ _ E4), mb_mod.
      rewrite (mb_ok _ _ _ y (with_vmask (Some m) (with_vm (Some v) (with_pix (Some P) s)))); [reflexivity|].
      exact (masked_frame (with_vm (Some v)) v _ _ _ E eq_refl eq_refl (fun _ => eq_refl)). }
    rewrite (mb_ok _ _ _ _ _ C), mb_get. cbn [with_vm with_maps r_vm].
    exists y. eexists. split; [reflexivity|]. split; [exact Hy'|]. split; [|repeat split].
    exact (inv_vm _ _ _ _ _ (inv_vmask _ _ _ _ _ Hi1 Hm) Hy').
Qed.

(* ---------------- global vertex map *)
Lemma rot_dims a p T : Poses a p T -> dims (pose_rot p) = [3; 3; fL a; fB a] /\
  (forall b l j c, b < fB a -> l < fL a -> j < 3 -> c < 3 -> at_ (pose_rot p) [c; j; l; b] = T b l j c) /\
  (forall b l j, b < fB a -> l < fL a -> j < 3 -> pose_tr p b l j = T b l j 3).
Proof.
  intros [HS HE]. pose proof (shape_dims _ _ HS) as D. cbn in D.
  split; [unfold pose_rot; rewrite D; reflexivity|].
  split; intros; [apply (HE b l H H0 j c); lia|apply (HE b l H H0 j 3); lia].
Qed.
Lemma rotate_img cf a p T x f : Poses a p T -> Image cf a 3 x f ->
  exists e, rotate_map cf p x = Ok e /\ Image cf a 3 e (fun b l h w => mvec 3 (rot_of (T b l)) (f b l h w)).
Proof.
  intros HP Hx. destruct (rot_dims _ _ _ HP) as (D & HE & _). unfold rotate_map. destruct cf.
  - exact (einsum_first_img a _ _ f (fun b l => rot_of (T b l)) D HE Hx).
  - exact (einsum_img false a _ _ f (fun b l => rot_of (T b l)) D HE Hx).
Qed.
Lemma add_tvec_img cf a p T x f : Poses a p T -> Image cf a 3 x f ->
  Image cf a 3 (add_tvec cf p x) (fun b l h w c => (f b l h w c + tr_of (T b l) c)%R).
Proof.
  intros HP Hx. destruct (rot_dims _ _ _ HP) as (_ & _ & HE). pose proof (img_dims _ _ _ _ _ Hx) as D.
  apply img_intro; [cbn [add_tvec dims]; exact D|]. intros b l h w c Hin Hc.
  destruct Hx as [_ Hx]. pose proof (Hx b l h w c Hin Hc) as E. destruct Hin as (Hb & Hl & Hh & Hw).
  unfold px in *. unfold add_tvec. cbn [at_]. destruct cf; rewrite E, HE by assumption; reflexivity.
Qed.

Lemma gvertex_read q s cf a : Inv q s cf a ->
  exists t s', global_vertex_map s = (Ok t, s') /\ Image cf a 3 t (global_vertex a) /\ Inv true s' cf a.
Proof.
  intros Hi. unfold global_vertex_map, cached. rewrite mb_get. destruct (r_gvm s) as [t|] eqn:Ev.
  - exists t, s. split; [reflexivity|]. split; [|eapply inv_mono; exact Hi].
    destruct Hi as (_ & _ & _ & _ & _ & _ & _ & [_ A8] & _). rewrite Ev in A8. exact A8.
  - destruct (vertex_read _ _ _ _ Hi) as (v & s1 & E1 & Hv & Hi1 & Ep & Ec & _).
    pose proof Hi as ((A0 & _) & _ & _ & _ & _ & A6 & _). rewrite <- Ep in A6.
    destruct (r_poses s) as [p|] eqn:Eps.
    + rewrite Ep in A6. destruct (fpose a) as [T|] eqn:ET; [|contradiction]. cbn in A6.
      destruct (rotate_img cf a p T v _ A6 Hv) as (e & E2 & He).
      pose proof (add_tvec_img cf a p T e _ A6 He) as Hg.
      destruct (masked_read _ _ _ _ _ _ Hi1 Hg) as (y & m & E & Hm & Hy).
      assert (Hy' : Image cf a 3 y (global_vertex a)).
      { eapply img_ext; [exact Hy|]. intros b l h w c _ _. unfold global_vertex. rewrite ET. reflexivity. }
      assert (C : compute_global_vertex_map s = (Ok tt, with_gvm (Some y) (with_vmask (Some m) s1))).
      { unfold compute_global_vertex_map. rewrite mb_get, Eps, (mb_ok _ _ _ _ _ E1).
        rewrite A0, (mb_lift _ _ _ _ E2), mb_mod, mb_mod.
        rewrite (mb_ok _ _ _ y (with_vmask (Some m) (with_gvm (Some (add_tvec cf p e)) (with_gvm (Some e) s1)))); [reflexivity|].
        exact (masked_frame (fun s => with_gvm (Some (add_tvec cf p e)) (with_gvm (Some e) s)) _ _ _ _ E eq_refl eq_refl (fun _ => eq_refl)). }
      rewrite (mb_ok _ _ _ _ _ C), mb_get. cbn [with_gvm with_maps r_gvm].
      exists y. eexists. split; [reflexivity|]. split; [exact Hy'|].
      exact (inv_gvm _ _ _ _ _ (inv_vmask _ _ _ _ _ Hi1 Hm) Hy').
    + rewrite Ep in A6. destruct (fpose a) as [T|] eqn:ET; [contradiction|].
      assert (C : compute_global_vertex_map s = (Ok tt, with_gvm (Some v) s1)).
      { unfold compute_global_vertex_map. rewrite mb_get, Eps, (mb_ok _ _ _ _ _ E1). reflexivity. }
      assert (Hv' : Image cf a 3 v (global_vertex a)).
      { eapply img_ext; [exact Hv|]. intros. unfold global_vertex. rewrite ET. reflexivity. }
      rewrite (mb_ok _ _ _ _ _ C), mb_get. cbn [with_gvm with_maps r_gvm].
      exists v. eexists. split; [reflexivity|]. split; [exact Hv'|exact (inv_gvm _ _ _ _ _ Hi1 Hv')].
Qed.

(* ---------------- normal map *)
Lemma diff_img (cf horiz : bool) a x (f : nat -> nat -> nat -> nat -> vec) :
  let p := if horiz then (if cf then 0 else 1) else (if cf then 1 else 2) in
  let n := if horiz then fW a else fH a in
  Image cf a 3 x f ->
  (n < 2 -> copy_last p (fwd_diff p x) = Err IndexError) /\
  (2 <= n -> exists y, copy_last p (fwd_diff p x) = Ok y /\
     Image cf a 3 y (fun b l h w c => if horiz
       then let w' := Nat.min w (fW a - 2) in (f b l h (S w') c - f b l h w' c)%R
       else let h' := Nat.min h (fH a - 2) in (f b l (S h') w c - f b l h' w c)%R)).
Proof.
  intros p n Hx. pose proof (img_dims _ _ _ _ _ Hx) as D.
  assert (N : nth p (dims (fwd_diff p x)) 0 = n) by (cbn [fwd_diff dims]; rewrite D; unfold p, n; destruct cf, horiz; reflexivity).
  split; intros Hn; unfold copy_last; rewrite N.
  - apply Nat.ltb_lt in Hn. rewrite Hn. reflexivity.
  - assert (Hn' : (n <? 2) = false) by (apply Nat.ltb_ge; exact Hn). rewrite Hn'.
    eexists. split; [reflexivity|]. apply img_intro; [cbn [dims fwd_diff]; exact D|].
    destruct Hx as [_ Hx]. intros b l h w c (Hb & Hl & Hh & Hw) Hc.
    assert (Hpx : forall h' w', h' < fH a -> w' < fW a -> px cf x b l h' w' c = f b l h' w' c)
      by (intros; apply Hx; [repeat split|]; assumption).
    unfold px in *. unfold p, n in *. cbn [fwd_diff dims at_] in *.
    destruct cf, horiz; cbn [nth upd firstn skipn app at_]; rewrite D; cbn [nth].
    + destruct (Nat.eqb_spec w (fW a - 1)) as [->|Hne]; cbn [nth upd firstn skipn app].
      * replace (S (fW a - 2) <? fW a) with true by (symmetry; apply Nat.ltb_lt; lia).
        replace (Nat.min (fW a - 1) (fW a - 2)) with (fW a - 2) by lia. rewrite !Hpx by lia. reflexivity.
      * replace (S w <? fW a) with true by (symmetry; apply Nat.ltb_lt; lia).
        replace (Nat.min w (fW a - 2)) with w by lia. rewrite !Hpx by lia. reflexivity.
    + destruct (Nat.eqb_spec h (fH a - 1)) as [->|Hne]; cbn [nth upd firstn skipn app].
      * replace (S (fH a - 2) <? fH a) with true by (symmetry; apply Nat.ltb_lt; lia).
        replace (Nat.min (fH a - 1) (fH a - 2)) with (fH a - 2) by lia. rewrite !Hpx by lia. reflexivity.
      * replace (S h <? fH a) with true by (symmetry; apply Nat.ltb_lt; lia).
        replace (Nat.min h (fH a - 2)) with h by lia. rewrite !Hpx by lia. reflexivity.
    + destruct (Nat.eqb_spec w (fW a - 1)) as [->|Hne]; cbn [nth upd firstn skipn app].
      * replace (S (fW a - 2) <? fW a) with true by (symmetry; apply Nat.ltb_lt; lia).
        replace (Nat.min (fW a - 1) (fW a - 2)) with (fW a - 2) by lia. rewrite !Hpx by lia. reflexivity.
      * replace (S w <? fW a) with true by (symmetry; apply Nat.ltb_lt; lia).
        replace (Nat.min w (fW a - 2)) with w by lia. rewrite !Hpx by lia. reflexivity.
    + destruct (Nat.eqb_spec h (fH a - 1)) as [->|Hne]; cbn [nth upd firstn skipn app].
      * replace (S (fH a - 2) <? fH a) with true by (symmetry; apply Nat.ltb_lt; lia).
        replace (Nat.min (fH a - 1) (fH a - 2)) with (fH a - 2) by lia. rewrite !Hpx by lia. reflexivity.
      * replace (S h <? fH a) with true by (symmetry; apply Nat.ltb_lt; lia).
        replace (Nat.min h (fH a - 2)) with h by lia. rewrite !Hpx by lia. reflexivity.
Qed.

Lemma cross_ext u u' v v' : veq 3 u u' -> veq 3 v v' -> forall i, i < 3 -> cross u v i = cross u' v' i.
Proof.
  intros Hu Hv i Hi. unfold cross.
  rewrite (Hu 0), (Hu 1), (Hu 2), (Hv 0), (Hv 1), (Hv 2) by lia. reflexivity.
Qed.
Lemma norm_ext u v : veq 3 u v -> norm 3 u = norm 3 v.
Proof. intros H. unfold norm, dot. f_equal. apply rsum_ext. intros k Hk. rewrite H by exact Hk. reflexivity. Qed.

Lemma cross_img (cf : bool) a x y (f g : nat -> nat -> nat -> nat -> vec) :
  Image cf a 3 x f -> Image cf a 3 y g ->
  exists z, cross_at (if cf then 2 else 0) x y = Ok z /\ Image cf a 3 z (fun b l h w => cross (f b l h w) (g b l h w)).
Proof.
  intros Hx Hy. pose proof (img_dims _ _ _ _ _ Hx) as D. unfold cross_at. rewrite D.
  replace (nth (if cf then 2 else 0) (if cf then [fW a; fH a; 3; fL a; fB a] else [3; fW a; fH a; fL a; fB a]) 0) with 3
    by (destruct cf; reflexivity).
  cbn [Nat.eqb guard rbind]. eexists. split; [reflexivity|]. apply img_intro; [reflexivity|].
  destruct Hx as [_ Hx]. destruct Hy as [_ Hy]. intros b l h w c Hin Hc. unfold px in *.
  destruct cf; cbn [at_ nth upd firstn skipn app];
    apply cross_ext; try exact Hc; intros k Hk; [apply Hx|apply Hy|apply Hx|apply Hy]; assumption.
Qed.
Lemma unit_img (cf : bool) a x (f : nat -> nat -> nat -> nat -> vec) : Image cf a 3 x f ->
  Image cf a 3 (unit_at (if cf then 2 else 0) x) (fun b l h w => unitize (f b l h w)).
Proof.
  intros Hx. pose proof (img_dims _ _ _ _ _ Hx) as D. apply img_intro; [exact D|].
  destruct Hx as [_ Hx]. intros b l h w c Hin Hc. unfold px in *.
  assert (Hn : norm 3 (fun k => at_ x (upd (if cf then 2 else 0) k (if cf then [w; h; c; l; b] else [c; w; h; l; b])))
    = norm 3 (f b l h w)).
  { apply norm_ext. intros k Hk. specialize (Hx b l h w k Hin Hk). destruct cf; exact Hx. }
  specialize (Hx b l h w c Hin Hc). unfold unit_at, unitize. cbn [at_].
  destruct cf; rewrite Hn, Hx; reflexivity.
Qed.

Lemma normal_read q s cf a : Inv q s cf a ->
  (2 <= fH a -> 2 <= fW a ->
   exists t s', normal_map s = (Ok t, s') /\ Image cf a 3 t (normal a) /\ Inv true s' cf a /\
     r_poses s' = r_poses s /\ r_cf s' = r_cf s) /\
  (fH a < 2 \/ fW a < 2 -> exists s', normal_map s = (Err IndexError, s') /\ Inv true s' cf a).
Proof.
  intros Hi. unfold normal_map, cached. rewrite mb_get. destruct (r_nm s) as [t|] eqn:Ev.
  - pose proof Hi as (_ & _ & _ & _ & _ & _ & _ & _ & [A9 _] & A10 & _). rewrite Ev in A9. split.
    + intros _ _. exists t, s. split; [reflexivity|]. split; [exact A9|]. split; [eapply inv_mono; exact Hi|auto].
    + intros Hs. assert (2 <= fH a /\ 2 <= fW a) by (apply A10; left; congruence). lia.
  - destruct (vertex_read _ _ _ _ Hi) as (v & s1 & E1 & Hv & Hi1 & Ep & Ec & _).
    pose proof Hi as ((A0 & _) & _). pose proof (eq_trans Ec A0) as A1.
    destruct (diff_img cf true a v _ Hv) as [Dw1 Dw2]. destruct (diff_img cf false a v _ Hv) as [Dh1 Dh2].
    cbn iota in Dw1, Dw2, Dh1, Dh2. split.
    + intros HH HW. destruct (Dw2 HW) as (dh & E2 & Hdh). destruct (Dh2 HH) as (dv & E3 & Hdv).
      destruct (cross_img cf a dh dv (tangent_h a) (tangent_v a)) as (n & E4 & Hn).
      { eapply img_ext; [exact Hdh|]. reflexivity. } { eapply img_ext; [exact Hdv|]. reflexivity. }
      pose proof (unit_img cf a n _ Hn) as Hu.
      destruct (masked_read _ _ _ _ _ _ Hi1 Hu) as (y & m & E & Hm & Hy).
      assert (C : compute_normal_map s = (Ok tt, with_nm (Some y) (with_vmask (Some m) s1))).
      { unfold compute_normal_map. rewrite (mb_ok _ _ _ _ _ E1), mb_get, A1.
        cbv zeta. rewrite (mb_lift _ _ _ _ E2), (mb_lift _ _ _ _ E3), (mb_lift _ _ _ _ E4), mb_mod.
        rewrite (mb_ok _ _ _ y (with_vmask (Some m) (with_nm (Some (unit_at (if cf then 2 else 0) n)) s1))); [reflexivity|].
        exact (masked_frame (with_nm (Some (unit_at (if cf then 2 else 0) n))) _ _ _ _ E eq_refl eq_refl (fun _ => eq_refl)). }
      assert (Hy' : Image cf a 3 y (normal a)) by exact Hy.
      rewrite (mb_ok _ _ _ _ _ C), mb_get. cbn [with_nm with_maps r_nm].
      exists y. eexists. split; [reflexivity|]. split; [exact Hy'|].
      split; [exact (inv_nm _ _ _ _ _ (inv_vmask _ _ _ _ _ Hi1 Hm) HH HW Hy')|].
      split; [exact Ep|exact Ec].
    + intros Hs. exists s1. split; [|exact Hi1].
      rewrite (mb_err _ _ _ IndexError s1); [reflexivity|].
      unfold compute_normal_map. rewrite (mb_ok _ _ _ _ _ E1), mb_get, A1. cbv zeta.
      destruct (le_lt_dec 2 (fW a)) as [HW|HW].
      * destruct (Dw2 HW) as (dh & E2 & _). rewrite (mb_lift _ _ _ _ E2).
        apply mb_lift_err. apply Dh1. lia.
      * apply mb_lift_err. apply Dw1. exact HW.
Qed.

Lemma gnormal_read q s cf a : Inv q s cf a ->
  (2 <= fH a -> 2 <= fW a ->
   exists t s', global_normal_map s = (Ok t, s') /\ Image cf a 3 t (global_normal a) /\ Inv true s' cf a) /\
  (fH a < 2 \/ fW a < 2 -> exists s', global_normal_map s = (Err IndexError, s') /\ Inv true s' cf a).
Proof.
  intros Hi. unfold global_normal_map, cached. rewrite mb_get. destruct (r_gnm s) as [t|] eqn:Ev.
  - pose proof Hi as (_ & _ & _ & _ & _ & _ & _ & _ & [_ A9] & A10 & _). rewrite Ev in A9. split.
    + intros _ _. exists t, s. split; [reflexivity|]. split; [exact A9|]. eapply inv_mono; exact Hi.
    + intros Hs. assert (2 <= fH a /\ 2 <= fW a) by (apply A10; right; congruence). lia.
  - destruct (normal_read _ _ _ _ Hi) as [N1 N2]. split.
    + intros HH HW. destruct (N1 HH HW) as (n & s1 & E1 & Hn & Hi1 & Ep & Ec).
      pose proof Hi as ((A0 & _) & _ & _ & _ & _ & A6 & _).
      destruct (r_poses s) as [p|] eqn:Eps; destruct (fpose a) as [T|] eqn:ET; try contradiction; cbn in A6.
      * destruct (rotate_img cf a p T n _ A6 Hn) as (e & E2 & He).
        assert (C : compute_global_normal_map s = (Ok tt, with_gnm (Some e) s1)).
        { unfold compute_global_normal_map. rewrite mb_get, Eps, (mb_ok _ _ _ _ _ E1), A0, (mb_lift _ _ _ _ E2). reflexivity. }
        assert (He' : Image cf a 3 e (global_normal a)).
        { eapply img_ext; [exact He|]. intros. unfold global_normal. rewrite ET. reflexivity. }
        rewrite (mb_ok _ _ _ _ _ C), mb_get. cbn [with_gnm with_maps r_gnm].
        exists e. eexists. split; [reflexivity|]. split; [exact He'|exact (inv_gnm _ _ _ _ _ Hi1 HH HW He')].
      * assert (C : compute_global_normal_map s = (Ok tt, with_gnm (Some n) s1)).
        { unfold compute_global_normal_map. rewrite mb_get, Eps, (mb_ok _ _ _ _ _ E1). reflexivity. }
        assert (He' : Image cf a 3 n (global_normal a)).
        { eapply img_ext; [exact Hn|]. intros. unfold global_normal. rewrite ET. reflexivity. }
        rewrite (mb_ok _ _ _ _ _ C), mb_get. cbn [with_gnm with_maps r_gnm].
        exists n. eexists. split; [reflexivity|]. split; [exact He'|exact (inv_gnm _ _ _ _ _ Hi1 HH HW He')].
    + intros Hs. destruct (N2 Hs) as (s1 & E1 & Hi1). exists s1. split; [|exact Hi1].
      rewrite (mb_err _ _ _ IndexError s1); [reflexivity|].
      unfold compute_global_normal_map. rewrite mb_get. destruct (r_poses s); apply mb_err; exact E1.
Qed.

Lemma inv_shows q s cf a : Inv q s cf a -> RShows s cf a.
Proof.
  intros Hi. pose proof Hi as ((A0 & AB & AL & Ah & Aw) & A2 & A3 & A4 & A5 & A6 & _).
  split; [exact A0|]. split; [congruence|]. split; [exact A3|]. split; [exact A4|]. split; [exact A5|]. split; [exact A6|].
  split. { destruct (mask_read _ _ _ _ Hi) as (m & E & Hm). exists m. rewrite E. split; [reflexivity|exact Hm]. }
  split. { destruct (vertex_read _ _ _ _ Hi) as (t & s' & E & Ht & _). exists t. rewrite E. split; [reflexivity|exact Ht]. }
  split. { destruct (gvertex_read _ _ _ _ Hi) as (t & s' & E & Ht & _). exists t. rewrite E. split; [reflexivity|exact Ht]. }
  destruct (normal_read _ _ _ _ Hi) as [N1 N2]. destruct (gnormal_read _ _ _ _ Hi) as [G1 G2]. split.
  - intros HH HW. destruct (N1 HH HW) as (t & s' & E & Ht & _). destruct (G1 HH HW) as (t' & s'' & E' & Ht' & _).
    split; [exists t; rewrite E|exists t'; rewrite E']; split; [reflexivity|exact Ht|reflexivity|exact Ht'].
  - intros Hs. destruct (N2 Hs) as (s' & E & _). destruct (G2 Hs) as (s'' & E' & _). rewrite E, E'. split; reflexivity.
Qed.
Lemma inv_read q s cf a r : Inv q s cf a -> Inv true (after_read r s) cf a.
Proof.
  intros Hi. destruct r; unfold after_read.
  - destruct (mask_read _ _ _ _ Hi) as (m & E & Hm). rewrite E. eapply inv_vmask; eassumption.
  - destruct (vertex_read _ _ _ _ Hi) as (t & s' & E & _ & H & _). rewrite E. exact H.
  - destruct (normal_read _ _ _ _ Hi) as [N1 N2].
    destruct (le_lt_dec 2 (fH a)), (le_lt_dec 2 (fW a)).
    1: destruct (N1 l l0) as (t & s' & E & _ & H & _); rewrite E; exact H.
    all: destruct N2 as (s' & E & H); [lia|rewrite E; exact H].
  - destruct (gvertex_read _ _ _ _ Hi) as (t & s' & E & _ & H). rewrite E. exact H.
  - destruct (gnormal_read _ _ _ _ Hi) as [N1 N2].
    destruct (le_lt_dec 2 (fH a)), (le_lt_dec 2 (fW a)).
    1: destruct (N1 l l0) as (t & s' & E & _ & H); rewrite E; exact H.
    all: destruct N2 as (s' & E & H); [lia|rewrite E; exact H].
Qed.
