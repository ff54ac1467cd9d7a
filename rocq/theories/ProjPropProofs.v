(* Proofs of C14-C17. *)
From Coq Require Import Reals List Arith Bool Lia Lra.
From Verif Require Import Res MatSpec TensorModel ShapeSpec TensorProofs ProjModel GeomSpec ProjProofs.
Import ListNotations.
Local Open Scope nat_scope.

(* ------------------------------------------------------------------ C14 *)
Lemma unhomog_ok (x : ten R) eps e n s : dims x = S e :: n :: s ->
  exists y, unhomogenize_points x eps = Ok y /\ dims y = e :: n :: s /\
    forall i r, i < e -> vix (n :: s) r ->
      at_ y (i :: r) = (unhomog_scale eps (at_ x (e :: r)) * at_ x (i :: r))%R.
Proof.
  intros E. unfold unhomogenize_points, ndim. rewrite E. cbn [length Nat.ltb Nat.leb].
  assert (Nat.min 1 (S e) = 1) as -> by lia.
  assert (S e - 1 = e) as -> by lia.
  unfold tmap2, tmap, narrow_m1. cbn [dims at_]. rewrite E. cbn [tl].
  assert (Hb : bshape (1 :: n :: s) (e :: n :: s) = Ok (e :: n :: s)).
  { rewrite bshape_cons, bshape_refl. destruct e as [|[|e]]; reflexivity. }
  rewrite Hb. cbn [rbind]. eexists. split; [reflexivity|]. split; [reflexivity|].
  intros i r Hi Hr. cbn [at_].
  change (bix (1 :: n :: s) (i :: r)) with (0 :: bix (n :: s) r).
  change (bix (e :: n :: s) (i :: r)) with ((if e =? 1 then 0 else i) :: bix (n :: s) r).
  rewrite !bix_refl by exact Hr. rewrite Nat.add_0_r.
  replace (if e =? 1 then 0 else i) with i by (destruct (Nat.eqb_spec e 1); lia).
  reflexivity.
Qed.

Lemma p_hom_unhom : forall (pts : ten R) eps, 2 <= ndim pts -> (eps < 1)%R ->
  exists h u, homogenize_points pts = Ok h /\ unhomogenize_points h eps = Ok u /\ teq u pts.
Proof.
  intros pts eps Hn He. unfold ndim in Hn.
  destruct (dims pts) as [|d [|n s]] eqn:E; cbn in Hn; try lia.
  destruct (homogenize_ok pts d n s E) as (h & Hh & Eh & Hat).
  destruct (unhomog_ok h eps d n s Eh) as (u & Hu & Eu & Hatu).
  exists h, u. split; [exact Hh|]. split; [exact Hu|]. split; [congruence|].
  rewrite Eu. intros ix Hix. apply vix_cons in Hix. destruct Hix as (i & r & -> & Hi & Hr).
  rewrite Hatu by auto. rewrite !Hat. rewrite Nat.ltb_irrefl.
  destruct (Nat.ltb_spec i d); [|lia].
  unfold unhomog_scale. rewrite Rabs_R1. destruct (Rlt_dec eps 1); lra.
Qed.

Lemma p_unhom : forall (pts : ten R) eps e n s, dims pts = S e :: n :: s ->
  exists u, unhomogenize_points pts eps = Ok u /\ dims u = e :: n :: s /\
    forall r, vix (n :: s) r ->
      ((eps < Rabs (comp pts r e))%R -> forall i, i < e -> (comp u r i = comp pts r i / comp pts r e)%R) /\
      ((Rabs (comp pts r e) <= eps)%R -> forall i, i < e -> comp u r i = comp pts r i).
Proof.
  intros pts eps e n s E. destruct (unhomog_ok pts eps e n s E) as (u & Hu & Eu & Hat).
  exists u. split; [exact Hu|]. split; [exact Eu|]. intros r Hr. unfold comp.
  split; intros Hw i Hi; rewrite Hat by auto; unfold unhomog_scale;
  destruct (Rlt_dec eps (Rabs (at_ pts (e :: r)))); try lra; unfold Rdiv; ring.
Qed.

Lemma p_unhom_scale : forall (x y : ten R) (c : list nat -> R) eps e n s,
  (0 <= eps)%R -> dims x = S e :: n :: s -> dims y = dims x ->
  (forall i r, i <= e -> vix (n :: s) r -> comp y r i = (c r * comp x r i)%R) ->
  (forall r, vix (n :: s) r -> eps < Rabs (comp x r e) /\ eps < Rabs (comp y r e))%R ->
  exists u v, unhomogenize_points x eps = Ok u /\ unhomogenize_points y eps = Ok v /\ teq u v.
Proof.
  intros x y c eps e n s He Ex Ey Hy Hw. rewrite Ex in Ey.
  destruct (p_unhom x eps e n s Ex) as (u & Hu & Eu & Hatu).
  destruct (p_unhom y eps e n s Ey) as (v & Hv & Ev & Hatv).
  exists u, v. split; [exact Hu|]. split; [exact Hv|]. split; [congruence|].
  rewrite Eu. intros ix Hix. apply vix_cons in Hix. destruct Hix as (i & r & -> & Hi & Hr).
  destruct (Hw r Hr) as [H1 H2].
  change (comp u r i = comp v r i).
  rewrite (proj1 (Hatu r Hr) H1 i Hi), (proj1 (Hatv r Hr) H2 i Hi).
  rewrite !Hy by (auto; lia).
  assert (comp x r e <> 0)%R by (intros E; rewrite E, Rabs_R0 in H1; lra).
  assert (c r * comp x r e <> 0)%R as Hc.
  { rewrite <- Hy by (auto; lia). intros E; rewrite E, Rabs_R0 in H2; lra. }
  assert (c r <> 0)%R by (intros E; apply Hc; rewrite E; ring).
  field. auto.
Qed.

Lemma p_hom_rank : forall (pts : ten R) eps, ndim pts < 2 ->
  homogenize_points pts = Err ValueError /\ unhomogenize_points pts eps = Err ValueError.
Proof.
  intros pts eps H. unfold homogenize_points, unhomogenize_points.
  assert ((ndim pts <? 2) = true) as -> by (apply Nat.ltb_lt; exact H). auto.
Qed.

(* ------------------------------------------------------------------ C16 *)
Lemma cameras_b pb cb : cameras pb cb -> bshape pb cb = Ok cb.
Proof. intros [->|[H _]]; [reflexivity|apply bshape_sub, H]. Qed.
Lemma cameras_l pb cb : cameras pb cb -> pb = [] \/ (length pb = length cb /\ last pb 0 = last cb 0).
Proof. intros [->|[H E]]; [auto|]. right. split; [|exact E]. clear E; induction H; cbn; congruence. Qed.

Lemma cameras_vix pb cb r : cameras pb cb -> vix cb r -> vix pb (bix pb r).
Proof. intros [->|[H _]] Hr; [cbn; destruct r; exact I|]. eapply bix_sub_vix; eauto. Qed.

Lemma p_project : forall (cam P : ten R) d n cb pb,
  dims cam = d :: n :: cb -> (d = 3 \/ d = 4) -> dims P = 4 :: 4 :: pb -> cameras pb cb ->
  exists out, project_points cam P = Ok out /\ dims out = 2 :: n :: cb /\
    forall j r, j < n -> vix cb r -> veq 2 (comp out (j :: r))
      (project_spec (ent P (bix pb r)) (hom d (comp cam (j :: r)))).
Proof.
  intros cam P d n cb pb Ec Hd EP Hc.
  destruct (project_gen cam P d n cb pb cb EP Ec Hd (cameras_l _ _ Hc) (cameras_b _ _ Hc)) as (out & Ho & Eo & Hat).
  exists out. split; [exact Ho|]. split; [exact Eo|]. intros j r Hj Hr i Hi. unfold comp at 1.
  rewrite Hat by auto. rewrite (bix_refl cb r) by exact Hr. reflexivity.
Qed.

Lemma p_unproject : forall (pix Ki dep : ten R) d n cb pb,
  dims pix = d :: n :: cb -> (d = 2 \/ d = 3) -> dims Ki = 3 :: 3 :: pb -> cameras pb cb -> dims dep = n :: cb ->
  exists out, unproject_points pix Ki dep = Ok out /\ dims out = 3 :: n :: cb /\
    forall j r, j < n -> vix cb r -> veq 3 (comp out (j :: r))
      (fun i => mvec 3 (ent Ki (bix pb r)) (hom d (comp pix (j :: r))) i * at_ dep (j :: r))%R.
Proof.
  intros pix Ki dep d n cb pb Ep Hd EK Hc Ed.
  destruct (unproject_gen pix Ki dep d n cb pb EK Ep Hd Ed (cameras_l _ _ Hc) (cameras_b _ _ Hc)) as (out & Ho & Eo & Hat).
  exists out. split; [exact Ho|]. split; [exact Eo|]. intros j r Hj Hr i Hi. unfold comp at 1.
  rewrite Hat by auto. reflexivity.
Qed.

(* ------------------------------------------------------------------ C15 *)
Lemma p_project_pinhole : forall (cam P : ten R) d n cb pb (fx fy cx cy : list nat -> R),
  dims cam = d :: n :: cb -> (d = 3 \/ d = 4) -> dims P = 4 :: 4 :: pb -> cameras pb cb ->
  (forall c, vix pb c -> meq 4 4 (ent P c) (pinhole (fx c) (fy c) (cx c) (cy c) 0)) ->
  exists out, project_points cam P = Ok out /\ dims out = 2 :: n :: cb /\
    forall j r, j < n -> vix cb r ->
      let c := bix pb r in let p := comp cam (j :: r) in
      (p 2%nat <> 0 -> comp out (j :: r) 0%nat = fx c * p 0%nat / p 2%nat + cx c /\
                   comp out (j :: r) 1%nat = fy c * p 1%nat / p 2%nat + cy c)%R /\
      (p 2 = 0%R -> comp out (j :: r) 0 = (fx c * p 0%nat)%R /\ comp out (j :: r) 1 = (fy c * p 1%nat)%R).
Proof.
  intros cam P d n cb pb fx fy cx cy Ec Hd EP Hc HP.
  destruct (p_project cam P d n cb pb Ec Hd EP Hc) as (out & Ho & Eo & Hat).
  exists out. split; [exact Ho|]. split; [exact Eo|]. intros j r Hj Hr c p.
  specialize (HP c (cameras_vix _ _ _ Hc Hr)).
  assert (Hq : forall i, i < 3 -> mvec 4 (ent P c) (hom d p) i =
     rsum 4 (fun k => pinhole (fx c) (fy c) (cx c) (cy c) 0 i k * hom d p k)%R).
  { intros i Hi. unfold mvec. apply rsum_ext. intros k Hk. rewrite HP by lia. reflexivity. }
  assert (Hh : hom d p 0 = p 0 /\ hom d p 1 = p 1 /\ hom d p 2 = p 2).
  { destruct Hd; subst d; repeat split; reflexivity. }
  destruct Hh as (h0 & h1 & h2).
  assert (Hz : mvec 4 (ent P c) (hom d p) 2 = p 2).
  { rewrite Hq by lia. cbn [rsum pinhole]. rewrite h0, h1, h2. ring. }
  rewrite !(Hat j r Hj Hr) by lia. fold c p. unfold project_spec, persp.
  rewrite Hz. rewrite !Hq by lia. cbn [rsum pinhole]. rewrite h0, h1, h2.
  split; intros H; destruct (Req_EM_T (p 2) 0); try contradiction; split; try field; auto; rewrite H; ring.
Qed.

Lemma K_row2 (P K : mat) : proj_of P K -> forall q, mvec 3 K q 2 = q 2.
Proof.
  intros (_ & _ & H0 & H1 & H2) q. unfold mvec. cbn [rsum]. rewrite H0, H1, H2. ring.
Qed.
Lemma P_mvec (P K : mat) q : proj_of P K -> forall i, i < 3 -> mvec 4 P (hom 3 q) i = mvec 3 K q i.
Proof.
  intros (HP & Ht & _) i Hi. unfold mvec. cbn [rsum]. rewrite Ht by exact Hi.
  rewrite !HP by lia. unfold hom. cbn. ring.
Qed.
Lemma mvec_id n (A B : mat) v : meq n n (mmul n A B) mI -> veq n (mvec n A (mvec n B v)) v.
Proof.
  intros H i Hi. unfold mvec.
  assert (forall m (f g : nat -> R), rsum m (fun k => f k + g k)%R = (rsum m f + rsum m g)%R) as Hp.
  { induction m; intros; cbn; [ring|rewrite IHm; ring]. }
  assert (forall m c (f : nat -> R), rsum m (fun k => c * f k)%R = (c * rsum m f)%R) as Hs.
  { induction m; intros; cbn; [ring|rewrite IHm; ring]. }
  assert (forall m p (f : nat -> nat -> R), rsum m (fun k => rsum p (f k)) = rsum p (fun l => rsum m (fun k => f k l))) as Hx.
  { induction m; intros; cbn; [induction p; cbn; [reflexivity|rewrite <- IHp; ring]|]. rewrite IHm, Hp. reflexivity. }
  transitivity (rsum n (fun l => mmul n A B i l * v l))%R.
  - transitivity (rsum n (fun k => rsum n (fun l => A i k * B k l * v l)))%R.
    { apply rsum_ext. intros k Hk. rewrite <- Hs. apply rsum_ext. intros. ring. }
    rewrite Hx. apply rsum_ext. intros l Hl. unfold mmul.
    rewrite Rmult_comm, <- Hs. apply rsum_ext. intros. ring.
  - transitivity (rsum n (fun l => delta i l * v l))%R.
    { apply rsum_ext. intros l Hl. rewrite H by auto. reflexivity. }
    clear -Hi. induction n as [|n IH]; [lia|]. cbn [rsum].
    destruct (Nat.eq_dec i n) as [->|Hne].
    + unfold delta at 2. rewrite Nat.eqb_refl.
      assert (rsum n (fun l => delta n l * v l)%R = 0%R) as ->; [|ring].
      transitivity (rsum n (fun _ => 0%R)).
      * apply rsum_ext. intros k Hk. unfold delta. destruct (Nat.eqb_spec n k); [lia|ring].
      * clear. induction n; cbn; [reflexivity|rewrite IHn; ring].
    + rewrite IH by lia. unfold delta. destruct (Nat.eqb_spec i n); [lia|ring].
Qed.
Lemma mvec_scale n (A : mat) v c i : mvec n A (fun k => v k * c)%R i = (mvec n A v i * c)%R.
Proof. unfold mvec. induction n; cbn; [ring|rewrite IHn; ring]. Qed.
Lemma mvec_ext n (A : mat) u v i : veq n u v -> mvec n A u i = mvec n A v i.
Proof. intros H. apply rsum_ext. intros k Hk. rewrite H by exact Hk. reflexivity. Qed.
Lemma mvec_ext_m n (A B : mat) v i : (forall k, k < n -> A i k = B i k) -> mvec n A v i = mvec n B v i.
Proof. intros H. apply rsum_ext. intros k Hk. rewrite H by exact Hk. reflexivity. Qed.

Lemma p_unproject_project : forall (pix Ki dep P : ten R) n cb pb (K : list nat -> mat),
  dims pix = 2 :: n :: cb -> dims dep = n :: cb -> dims Ki = 3 :: 3 :: pb -> dims P = 4 :: 4 :: pb ->
  cameras pb cb ->
  (forall c, vix pb c -> proj_of (ent P c) (K c) /\ inverse_of 3 (K c) (ent Ki c)) ->
  (forall r, vix (n :: cb) r -> at_ dep r <> 0%R) ->
  exists X q, unproject_points pix Ki dep = Ok X /\ project_points X P = Ok q /\
    teq q pix /\ forall r, vix (n :: cb) r -> comp X r 2 = at_ dep r.
Proof.
  intros pix Ki dep P n cb pb K Ep Ed EK EP Hc HK Hd.
  destruct (p_unproject pix Ki dep 2 n cb pb Ep (or_introl eq_refl) EK Hc Ed) as (X & HX & EX & HatX).
  destruct (p_project X P 3 n cb pb EX (or_introl eq_refl) EP Hc) as (q & Hq & Eq & Hatq).
  assert (HX3 : forall j r, j < n -> vix cb r -> forall i, i < 3 ->
     mvec 3 (K (bix pb r)) (comp X (j :: r)) i = (hom 2 (comp pix (j :: r)) i * at_ dep (j :: r))%R).
  { intros j r Hj Hr i Hi. destruct (HK _ (cameras_vix _ _ _ Hc Hr)) as [HP [HI _]].
    rewrite (mvec_ext 3 _ _ _ i (HatX j r Hj Hr)), mvec_scale. f_equal.
    apply (mvec_id 3 _ _ _ HI i Hi). }
  exists X, q. split; [exact HX|]. split; [exact Hq|]. split.
  - split; [congruence|]. rewrite Eq. intros ix Hix. apply vix_cons in Hix.
    destruct Hix as (i & jr & -> & Hi & Hjr). apply vix_cons in Hjr. destruct Hjr as (j & r & -> & Hj & Hr).
    change (comp q (j :: r) i = comp pix (j :: r) i). rewrite (Hatq j r Hj Hr i Hi).
    destruct (HK _ (cameras_vix _ _ _ Hc Hr)) as [HP [HI _]].
    unfold project_spec, persp. rewrite !(P_mvec _ _ _ HP) by lia. rewrite !HX3 by (auto; lia).
    assert (Hdr : at_ dep (j :: r) <> 0%R) by (apply Hd; split; assumption).
    assert (hom 2 (comp pix (j :: r)) 2 = 1%R) as -> by reflexivity.
    rewrite Rmult_1_l. destruct (Req_EM_T (at_ dep (j :: r)) 0); [contradiction|].
    unfold hom. destruct (Nat.ltb_spec i 2); [field; assumption|lia].
  - intros jr Hjr. apply vix_cons in Hjr. destruct Hjr as (j & r & -> & Hj & Hr).
    destruct (HK _ (cameras_vix _ _ _ Hc Hr)) as [HP [HI _]].
    rewrite <- (K_row2 _ _ HP (comp X (j :: r))). rewrite HX3 by (auto; lia).
    unfold hom. cbn. ring.
Qed.

Lemma p_project_unproject : forall (cam Ki dep P : ten R) n cb pb (K : list nat -> mat),
  dims cam = 3 :: n :: cb -> dims dep = n :: cb -> dims Ki = 3 :: 3 :: pb -> dims P = 4 :: 4 :: pb ->
  cameras pb cb ->
  (forall c, vix pb c -> proj_of (ent P c) (K c) /\ inverse_of 3 (K c) (ent Ki c)) ->
  (forall r, vix (n :: cb) r -> at_ dep r = comp cam r 2 /\ comp cam r 2 <> 0%R) ->
  exists q X, project_points cam P = Ok q /\ unproject_points q Ki dep = Ok X /\ teq X cam.
Proof.
  intros cam Ki dep P n cb pb K Ec Ed EK EP Hc HK Hd.
  destruct (p_project cam P 3 n cb pb Ec (or_introl eq_refl) EP Hc) as (q & Hq & Eq & Hatq).
  destruct (p_unproject q Ki dep 2 n cb pb Eq (or_introl eq_refl) EK Hc Ed) as (X & HX & EX & HatX).
  exists q, X. split; [exact Hq|]. split; [exact HX|]. split; [congruence|].
  rewrite EX. intros ix Hix. apply vix_cons in Hix.
  destruct Hix as (i & jr & -> & Hi & Hjr). apply vix_cons in Hjr. destruct Hjr as (j & r & -> & Hj & Hr).
  change (comp X (j :: r) i = comp cam (j :: r) i). rewrite (HatX j r Hj Hr i Hi).
  destruct (HK _ (cameras_vix _ _ _ Hc Hr)) as [HP [_ HI]].
  destruct (Hd (j :: r)) as [Hd1 Hd2]; [split; assumption|]. rewrite Hd1.
  rewrite <- mvec_scale. rewrite (mvec_ext 3 _ _ (mvec 3 (K (bix pb r)) (comp cam (j :: r)))).
  { apply (mvec_id 3 _ _ _ HI i Hi). }
  intros k Hk. pose proof (K_row2 _ _ HP (comp cam (j :: r))) as Hz.
  unfold hom. destruct (Nat.ltb_spec k 2).
  - rewrite (Hatq j r Hj Hr k) by lia. unfold project_spec, persp. rewrite !(P_mvec _ _ _ HP) by lia.
    rewrite Hz. destruct (Req_EM_T (comp cam (j :: r) 2) 0); [contradiction|]. field. assumption.
  - assert (k = 2) by lia. subst k. rewrite Hz. ring.
Qed.

(* ------------------------------------------------------------------ C17 *)
Lemma inv_intr_ok (K : ten R) eps k s : dims K = k :: k :: s -> (k = 3 \/ k = 4) ->
  exists Ki, inverse_intrinsics K eps = Ok Ki /\ dims Ki = k :: k :: s /\
    forall r i j, i < k -> j < k -> ent Ki r i j =
      pinhole (1 / (ent K r 0 0 + eps)) (1 / (ent K r 1 1 + eps))
        (-1 * ent K r 0 2 / (ent K r 0 0 + eps)) (-1 * ent K r 1 2 / (ent K r 1 1 + eps)) 0 i j.
Proof.
  intros E Hk. unfold inverse_intrinsics, ndim. rewrite E. cbn [length Nat.ltb Nat.leb negb guard rbind].
  assert (((k =? 3) && (k =? 3) || (k =? 4) && (k =? 4)) = true) as ->.
  { destruct Hk; subst; reflexivity. }
  eexists. split; [reflexivity|]. split; [exact E|]. intros r i j Hi Hj.
  destruct Hk; subst k; unfold ent, set_ent, zeros_like; cbn [at_ dims Nat.sub];
  destruct i as [|[|[|[|i]]]]; try lia; destruct j as [|[|[|[|j]]]]; try lia; reflexivity.
Qed.

Lemma p_inv_intr_exact : forall (K : ten R) k s (fx fy cx cy : list nat -> R),
  (k = 3 \/ k = 4) -> dims K = k :: k :: s ->
  (forall r, vix s r -> meq k k (ent K r) (pinhole (fx r) (fy r) (cx r) (cy r) 0) /\ fx r <> 0 /\ fy r <> 0)%R ->
  exists Ki, inverse_intrinsics K 0 = Ok Ki /\ dims Ki = dims K /\
    forall r, vix s r -> inverse_of k (ent K r) (ent Ki r).
Proof.
  intros K k s fx fy cx cy Hk E HK. destruct (inv_intr_ok K 0 k s E Hk) as (Ki & Hi & Ei & Hat).
  exists Ki. split; [exact Hi|]. split; [congruence|]. intros r Hr. destruct (HK r Hr) as (Hm & Hx & Hy).
  assert (E00 : ent K r 0 0 = fx r) by (rewrite Hm by lia; reflexivity).
  assert (E11 : ent K r 1 1 = fy r) by (rewrite Hm by lia; reflexivity).
  assert (E02 : ent K r 0 2 = cx r) by (rewrite Hm by lia; reflexivity).
  assert (E12 : ent K r 1 2 = cy r) by (rewrite Hm by lia; reflexivity).
  assert (Hprod : forall A B i j, i < k -> j < k ->
    (forall a b, a < k -> b < k -> A a b = pinhole (fx r) (fy r) (cx r) (cy r) 0 a b) ->
    (forall a b, a < k -> b < k -> B a b = pinhole (1 / fx r) (1 / fy r) (-1 * cx r / fx r) (-1 * cy r / fy r) 0 a b) ->
    mmul k A B i j = mI i j /\ mmul k B A i j = mI i j).
  { intros A B i j Hii Hj HA HB.
    assert (mmul k A B i j = mmul k (pinhole (fx r) (fy r) (cx r) (cy r) 0)
        (pinhole (1 / fx r) (1 / fy r) (-1 * cx r / fx r) (-1 * cy r / fy r) 0) i j) as ->.
    { apply rsum_ext. intros l Hl. rewrite HA, HB by auto. reflexivity. }
    assert (mmul k B A i j = mmul k (pinhole (1 / fx r) (1 / fy r) (-1 * cx r / fx r) (-1 * cy r / fy r) 0)
        (pinhole (fx r) (fy r) (cx r) (cy r) 0) i j) as ->.
    { apply rsum_ext. intros l Hl. rewrite HA, HB by auto. reflexivity. }
    destruct Hk; subst k; destruct i as [|[|[|[|i]]]]; try lia; destruct j as [|[|[|[|j]]]]; try lia;
    unfold mmul, mI, delta; cbn; split; field; auto. }
  assert (HB : forall a b, a < k -> b < k -> ent Ki r a b = pinhole (1 / fx r) (1 / fy r) (-1 * cx r / fx r) (-1 * cy r / fy r) 0 a b).
  { intros a b Ha Hb. rewrite Hat by auto. rewrite E00, E11, E02, E12, !Rplus_0_r. reflexivity. }
  split; intros i j Hi1 Hj1; apply (Hprod (ent K r) (ent Ki r) i j); auto.
Qed.

Lemma p_inv_intr_error : forall (K : ten R) eps k s (fx fy cx cy : list nat -> R),
  (k = 3 \/ k = 4) -> dims K = k :: k :: s ->
  (forall r, vix s r -> meq k k (ent K r) (pinhole (fx r) (fy r) (cx r) (cy r) 0) /\
     fx r + eps <> 0 /\ fy r + eps <> 0)%R ->
  exists Ki, inverse_intrinsics K eps = Ok Ki /\ dims Ki = dims K /\
    forall r u v, vix s r ->
      veq 3 (mvec 3 (ent K r) (mvec 3 (ent Ki r) (vec3 u v 1)))
        (vec3 (u - (u - cx r) * (eps / (fx r + eps))) (v - (v - cy r) * (eps / (fy r + eps))) 1)%R.
Proof.
  intros K eps k s fx fy cx cy Hk E HK. destruct (inv_intr_ok K eps k s E Hk) as (Ki & Hi & Ei & Hat).
  exists Ki. split; [exact Hi|]. split; [congruence|]. intros r u v Hr. destruct (HK r Hr) as (Hm & Hx & Hy).
  intros i Hi1. unfold mvec. cbn [rsum]. rewrite !Hm by lia. rewrite !Hat by lia. rewrite !Hm by lia.
  destruct i as [|[|[|i]]]; try lia; unfold vec3; cbn; field; auto.
Qed.

Lemma p_inv_intr_rej : forall (K : ten R) eps,
  inverse_intrinsics K eps = Err ValueError <->
  ~ exists k s, (k = 3 \/ k = 4) /\ dims K = k :: k :: s.
Proof.
  intros K eps. split.
  - intros H (k & s & Hk & E). destruct (inv_intr_ok K eps k s E Hk) as (Ki & Hi & _). congruence.
  - intros H. unfold inverse_intrinsics. destruct (ndim K <? 2) eqn:E1; [reflexivity|].
    apply ndim_2 in E1. destruct E1 as (a & b & s & E). rewrite E. cbn [negb guard rbind].
    destruct ((a =? 3) && (b =? 3) || (a =? 4) && (b =? 4)) eqn:E2; [|reflexivity].
    exfalso. apply H. apply orb_true_iff in E2.
    destruct E2 as [E2|E2]; apply andb_true_iff in E2; destruct E2 as [A B]; apply Nat.eqb_eq in A, B; subst.
    + exists 3, s. auto.
    + exists 4, s. auto.
Qed.
