(* Lemmas about projutils.py. *)
From Coq Require Import Reals List Arith Bool Lia Lra.
From Verif Require Import Res MatSpec TensorModel ShapeSpec TensorProofs ProjModel GeomSpec.
Import ListNotations.
Local Open Scope nat_scope.

(* batch extents of the matrix compatible with those of the points *)
Definition mat_batch_ok (pb cb : list nat) : Prop := pb = [] \/ length pb = length cb.

Lemma homogenize_ok (x : ten R) d n s : dims x = d :: n :: s ->
  exists y, homogenize_points x = Ok y /\ dims y = S d :: n :: s /\
    forall i r, at_ y (i :: r) = if i <? d then at_ x (i :: r) else 1%R.
Proof.
  intros E. unfold homogenize_points, ndim. rewrite E. cbn [length Nat.ltb Nat.leb].
  eexists. split; [reflexivity|]. split; reflexivity.
Qed.

Lemma bix_ones k r : k <= length r -> bix (repeat 1 k) r = repeat 0 k.
Proof.
  revert r; induction k as [|k IH]; intros [|i r]; cbn; intros H; try reflexivity; try lia.
  rewrite IH by lia. reflexivity.
Qed.

Lemma firstn2_app {A} (a b : A) l : firstn 2 (a :: b :: l) = [a; b].
Proof. reflexivity. Qed.

Lemma matmul_nd (x y : ten R) k n ba p bb s : dims x = k :: n :: ba -> dims y = p :: k :: bb ->
  bshape ba bb = Ok s ->
  exists z, matmul x y = Ok z /\ dims z = p :: n :: s /\
    forall j i r, at_ z (j :: i :: r) = rsum k (fun l => at_ x (l :: i :: bix ba r) * at_ y (j :: l :: bix bb r))%R.
Proof.
  intros Ex Ey Es. unfold matmul. rewrite Ex, Ey.
  destruct ba as [|? ?], bb as [|? ?]; rewrite ?Nat.eqb_refl; rewrite Es; cbn [rbind];
  (eexists; split; [reflexivity|]; split; [reflexivity|]; intros; reflexivity).
Qed.

Lemma matmul_nd_err (x y : ten R) k n ba p bb e : dims x = k :: n :: ba -> dims y = p :: k :: bb ->
  bshape ba bb = Err e -> matmul x y = Err e.
Proof.
  intros Ex Ey Es. unfold matmul. rewrite Ex, Ey.
  destruct ba as [|? ?], bb as [|? ?]; rewrite ?Nat.eqb_refl; rewrite Es; reflexivity.
Qed.

Lemma unsq_m1_at {A} (x : ten A) i r : at_ (unsqueeze_m1 x) (i :: r) = at_ x r.
Proof. reflexivity. Qed.
Lemma unsq_m3_at {A} (x : ten A) a b c r : at_ (unsqueeze_m3 x) (a :: b :: c :: r) = at_ x (a :: b :: r).
Proof. reflexivity. Qed.
Lemma unsq_m3_dims {A} (x : ten A) a b s : dims x = a :: b :: s -> dims (unsqueeze_m3 x) = a :: b :: 1 :: s.
Proof. unfold unsqueeze_m3. cbn [dims]. intros ->. reflexivity. Qed.

Lemma squeeze_m1_ok {A} (x : ten A) s : dims x = 1 :: s ->
  dims (squeeze_m1 x) = s /\ forall r, at_ (squeeze_m1 x) r = at_ x (0 :: r).
Proof. intros E. unfold squeeze_m1. rewrite E. split; reflexivity. Qed.

(* the common kernel of project/unproject *)
Lemma apply_mat_ok k (m pts : ten R) d n cb pb s :
  2 <= k -> dims m = k :: k :: pb -> dims pts = d :: n :: cb -> (d = k - 1 \/ d = k) ->
  mat_batch_ok pb cb -> bshape pb cb = Ok s ->
  exists out, apply_mat k m pts = Ok out /\ dims out = k :: n :: s /\
    forall i j r, i < k -> j < n -> vix s r ->
      at_ out (i :: j :: r) = mvec k (ent m (bix pb r)) (hom d (comp pts (j :: bix cb r))) i.
Proof.
  intros Hk Em Ep Hd Hb Hs. unfold apply_mat, size_m1. rewrite Ep. cbn [rbind].
  assert (H1 : exists ph, (if d =? k - 1 then homogenize_points pts else Ok pts) = Ok ph /\ dims ph = k :: n :: cb /\
    forall l r, l < k -> at_ ph (l :: r) = hom d (fun i => at_ pts (i :: r)) l).
  { destruct (Nat.eqb_spec d (k - 1)) as [E|E].
    - destruct (homogenize_ok pts d n cb Ep) as (y & -> & Hy & Hat). exists y. split; [reflexivity|].
      split; [rewrite Hy; f_equal; lia|]. intros l r Hl. rewrite Hat. unfold hom. reflexivity.
    - exists pts. split; [reflexivity|]. destruct Hd as [|Hd]; [contradiction|]. subst d.
      split; [exact Ep|]. intros l r Hl. unfold hom.
      destruct (Nat.ltb_spec l k); [reflexivity|lia]. }
  destruct H1 as (ph & -> & Eph & Hat). cbn [rbind].
  assert (Hnd : ndim ph = S (S (length cb))) by (unfold ndim; rewrite Eph; reflexivity).
  assert (Hndm : ndim m = S (S (length pb))) by (unfold ndim; rewrite Em; reflexivity).
  rewrite Hnd, ?Hndm. cbn [length].
  destruct cb as [|c0 cb].
  - (* points of rank 2 *)
    assert (pb = []) by (destruct Hb as [?|Hb]; [assumption|destruct pb; [reflexivity|discriminate]]). subst pb.
    injection Hs as <-. cbn [length Nat.eqb Nat.ltb Nat.leb andb negb].
    destruct (matmul_nd (unsqueeze_0 m) (unsqueeze_m1 ph) k k [1] 1 [n] [n]) as (z & Hz & Ez & Hzat).
    { rewrite unsq_0_dims, Em. reflexivity. }
    { cbn [unsqueeze_m1 dims]. rewrite Eph. reflexivity. }
    { destruct n as [|[|n]]; reflexivity. }
    rewrite Hz. cbn [rbind]. destruct (squeeze_m1_ok z _ Ez) as [E1 E2].
    eexists. split; [reflexivity|]. split; [exact E1|]. intros i j [|? ?] Hi Hj; [|intros []]. intros _.
    rewrite E2, Hzat. unfold mvec. apply rsum_ext. intros l Hl.
    rewrite unsq_0_at, unsq_m1_at. unfold ndim. rewrite Em. cbn [length firstn].
    cbn [bix]. replace (if n =? 1 then 0 else j) with j by (destruct (Nat.eqb_spec n 1); lia).
    rewrite Hat by exact Hl. unfold hom, ent, comp.
    destruct (Nat.ltb_spec l d); reflexivity.
  - (* higher rank *)
    cbn [length Nat.ltb Nat.leb negb andb].
    match goal with |- context [unsqueeze_m3 ?m0] => set (m' := m0) end.
    assert (Hm : exists pb', dims m' = k :: k :: pb' /\ bshape pb' (c0 :: cb) = Ok s /\
       forall a b r, length r = length (c0 :: cb) -> at_ m' (a :: b :: bix pb' r) = at_ m (a :: b :: bix pb r)).
    { destruct pb as [|p0 pb].
      - exists (repeat 1 (length (c0 :: cb))). unfold m'. cbn [length Nat.eqb andb]. split; [|split].
        + unfold expand_front, ndim.
          rewrite iter_unsq_dims, Em. cbn [length]. reflexivity.
        + injection Hs as <-. apply bshape_ones. reflexivity.
        + intros a b r Hr. unfold expand_front. rewrite iter_unsq_at. unfold ndim. rewrite Em. cbn [length].
          rewrite bix_ones by (rewrite Hr; cbn; lia). reflexivity.
      - exists (p0 :: pb). unfold m'. cbn [length Nat.eqb andb]. split; [exact Em|]. split; [exact Hs|]. reflexivity. }
    destruct Hm as (pb' & Em' & Hs' & Hat').
    destruct (matmul_nd (unsqueeze_m3 m') (unsqueeze_m1 ph) k k (1 :: pb') 1 (n :: c0 :: cb) (n :: s)) as (z & Hz & Ez & Hzat).
    { apply unsq_m3_dims. exact Em'. }
    { cbn [unsqueeze_m1 dims]. rewrite Eph. reflexivity. }
    { cbn [bshape]. cbn [bshape] in Hs'. rewrite Hs'. destruct n as [|[|n]]; reflexivity. }
    rewrite Hz. cbn [rbind]. destruct (squeeze_m1_ok z _ Ez) as [E1 E2].
    eexists. split; [reflexivity|]. split; [exact E1|]. intros i j r Hi Hj Hr.
    rewrite E2, Hzat. unfold mvec. apply rsum_ext. intros l Hl.
    cbn [bix Nat.eqb]. rewrite unsq_m3_at, unsq_m1_at.
    replace (if n =? 1 then 0 else j) with j by (destruct (Nat.eqb_spec n 1); lia).
    assert (Hlen : length r = length (c0 :: cb)).
    { rewrite (vix_length _ _ Hr). destruct Hb as [->|Hb]; [injection Hs as <-; reflexivity|].
      apply (bshape_length pb). exact Hb. exact Hs. }
    rewrite Hat' by exact Hlen. rewrite Hat by exact Hl. unfold hom, ent, comp.
    destruct (Nat.ltb_spec l d); reflexivity.
Qed.

Lemma size_0_last {A} (x : ten A) : dims x <> [] -> size_0 x = Ok (last (dims x) 0).
Proof.
  intros H. unfold size_0, shape. destruct (exists_last H) as (l & a & E). rewrite E, rev_app_distr, last_last.
  reflexivity.
Qed.

Lemma last_cons_cons {A} (a : A) l d : l <> [] -> last (a :: l) d = last l d.
Proof. destruct l; [contradiction|reflexivity]. Qed.

Lemma check_mat_doc k m pts : 2 <= k -> doc_shapes k m pts -> check_mat k m pts = Ok tt.
Proof.
  intros Hk (d & n & cb & pb & Ep & Hd & Em & Hb). unfold check_mat, size_m1, size_m2.
  rewrite !size_0_last by (rewrite ?Ep, ?Em; discriminate).
  unfold ndim. rewrite Ep, Em. cbn [length Nat.ltb Nat.leb negb guard rbind].
  assert (((d =? k - 1) || (d =? k)) = true) as ->.
  { destruct Hd; subst; rewrite Nat.eqb_refl; [reflexivity|apply orb_true_r]. }
  cbn [guard rbind]. rewrite !Nat.eqb_refl. cbn [andb guard rbind].
  destruct Hb as [->|[H1 H2]].
  - cbn. reflexivity.
  - destruct pb as [|p0 pb]; [cbn; reflexivity|]. destruct cb as [|c0 cb]; [discriminate|].
    rewrite H1, Nat.eqb_refl. cbn [negb]. rewrite andb_false_r. cbn [guard rbind negb].
    rewrite (last_cons_cons k (k :: p0 :: pb)), (last_cons_cons k (p0 :: pb)) by discriminate.
    rewrite (last_cons_cons d (n :: c0 :: cb)), (last_cons_cons n (c0 :: cb)) by discriminate.
    rewrite H2, Nat.eqb_refl. cbn [negb]. rewrite andb_false_r. reflexivity.
Qed.

Lemma check_mat_not k m pts : 2 <= k -> ~ doc_shapes k m pts -> check_mat k m pts = Err ValueError.
Proof.
  intros Hk H. unfold check_mat, size_m1, size_m2.
  destruct (ndim pts <? 2) eqn:E1; [reflexivity|]. apply ndim_2 in E1. destruct E1 as (d & n & cb & Ep).
  cbn [negb guard rbind]. rewrite Ep. cbn [rbind].
  destruct ((d =? k - 1) || (d =? k)) eqn:E2; [|reflexivity]. cbn [guard rbind].
  destruct (ndim m <? 2) eqn:E3; [reflexivity|]. apply ndim_2 in E3. destruct E3 as (a & b & pb & Em).
  cbn [negb guard rbind]. rewrite Em. cbn [rbind].
  destruct ((a =? k) && (b =? k)) eqn:E4; [|reflexivity]. cbn [guard rbind].
  apply andb_true_iff in E4. destruct E4 as [E4 E5]. apply Nat.eqb_eq in E4, E5. subst a b.
  unfold ndim. rewrite Ep, Em. cbn [length].
  rewrite !size_0_last by (rewrite ?Ep, ?Em; discriminate). rewrite Ep, Em.
  assert (Hd : d = k - 1 \/ d = k).
  { apply orb_true_iff in E2. destruct E2 as [E2|E2]; apply Nat.eqb_eq in E2; auto. }
  destruct pb as [|p0 pb].
  { exfalso. apply H. exists d, n, cb, []. auto. }
  cbn [length]. change (2 <? S (S (S (length pb)))) with true. cbn [andb].
  destruct (Nat.eqb_spec (S (S (S (length pb)))) (S (S (length cb)))) as [E6|E6]; [|reflexivity].
  cbn [negb guard rbind].
  destruct cb as [|c0 cb]; [cbn in E6; lia|].
  rewrite (last_cons_cons k (k :: p0 :: pb)), (last_cons_cons k (p0 :: pb)) by discriminate.
  rewrite (last_cons_cons d (n :: c0 :: cb)), (last_cons_cons n (c0 :: cb)) by discriminate.
  destruct (Nat.eqb_spec (last (p0 :: pb) 0) (last (c0 :: cb) 0)) as [E7|E7]; [|reflexivity].
  exfalso. apply H. exists d, n, (c0 :: cb), (p0 :: pb). repeat split; auto. right. split; [|exact E7].
  cbn in *. lia.
Qed.

Lemma select_m1_ok {A} (x : ten A) d s i : dims x = d :: s -> i < d ->
  select_m1 i x = Ok (mkTen s (fun r => at_ x (i :: r))).
Proof. intros E H. unfold select_m1. rewrite E. destruct (Nat.ltb_spec i d); [reflexivity|lia]. Qed.

Lemma apply_mat_err k (m pts : ten R) d n cb pb e :
  2 <= k -> dims m = k :: k :: pb -> dims pts = d :: n :: cb -> (d = k - 1 \/ d = k) ->
  pb <> [] -> length pb = length cb -> bshape pb cb = Err e ->
  apply_mat k m pts = Err e.
Proof.
  intros Hk Em Ep Hd Hpb Hl Hs. unfold apply_mat, size_m1. rewrite Ep. cbn [rbind].
  assert (H1 : exists ph, (if d =? k - 1 then homogenize_points pts else Ok pts) = Ok ph /\ dims ph = k :: n :: cb).
  { destruct (Nat.eqb_spec d (k - 1)) as [E|E].
    - destruct (homogenize_ok pts d n cb Ep) as (y & -> & Hy & Hat). exists y. split; [reflexivity|].
      rewrite Hy; f_equal; lia.
    - exists pts. split; [reflexivity|]. destruct Hd as [|Hd]; [contradiction|]. subst d. exact Ep. }
  destruct H1 as (ph & -> & Eph). cbn [rbind].
  assert (Hnd : ndim ph = S (S (length cb))) by (unfold ndim; rewrite Eph; reflexivity).
  assert (Hndm : ndim m = S (S (length pb))) by (unfold ndim; rewrite Em; reflexivity).
  rewrite Hnd, ?Hndm. destruct pb as [|p0 pb]; [contradiction|]. destruct cb as [|c0 cb]; [discriminate|].
  cbn [length Nat.eqb andb Nat.ltb Nat.leb negb].
  rewrite (matmul_nd_err (unsqueeze_m3 m) (unsqueeze_m1 ph) k k (1 :: p0 :: pb) 1 (n :: c0 :: cb) e); [reflexivity| | |].
  - apply unsq_m3_dims. exact Em.
  - cbn [unsqueeze_m1 dims]. rewrite Eph. reflexivity.
  - change (bshape (1 :: p0 :: pb) (n :: c0 :: cb)) with
      (let? d := (if 1 =? n then Ok 1 else if 1 =? 1 then Ok n else if n =? 1 then Ok 1 else Err RuntimeError) in
       let? ds := bshape (p0 :: pb) (c0 :: cb) in Ok (d :: ds)).
    rewrite Hs. destruct n as [|[|n]]; reflexivity.
Qed.

Definition persp2 : vec -> vec := persp.

Lemma safe_div_persp (q : vec) i : safe_div (q i) (q 2) = persp q i.
Proof. unfold safe_div, persp. destruct (Req_EM_T (q 2) 0); [field|reflexivity]. Qed.

Lemma project_gen (cam P : ten R) d n cb pb s :
  dims P = 4 :: 4 :: pb -> dims cam = d :: n :: cb -> (d = 3 \/ d = 4) ->
  (pb = [] \/ (length pb = length cb /\ last pb 0 = last cb 0)) -> bshape pb cb = Ok s ->
  exists out, project_points cam P = Ok out /\ dims out = 2 :: n :: s /\
    forall i j r, i < 2 -> j < n -> vix s r ->
      at_ out (i :: j :: r) = project_spec (ent P (bix pb r)) (hom d (comp cam (j :: bix cb r))) i.
Proof.
  intros EP Ec Hd Hb Hs. unfold project_points.
  rewrite check_mat_doc; [|lia|exists d, n, cb, pb; auto]. cbn [rbind].
  destruct (apply_mat_ok 4 P cam d n cb pb s) as (out & -> & Eo & Hat); auto; try lia.
  { destruct Hb as [|[? ?]]; [left|right]; assumption. }
  cbn [rbind]. rewrite !(select_m1_ok out 4 (n :: s)) by (auto; lia). cbn [rbind tmap2 dims].
  unfold tmap2. cbn [dims]. rewrite bshape_refl. cbn [rbind].
  eexists. split; [reflexivity|]. split; [reflexivity|]. intros i j r Hi Hj Hr.
  cbn [stack_m1 at_]. rewrite bix_refl by (split; assumption).
  unfold project_spec. rewrite <- safe_div_persp.
  destruct i as [|[|i]]; [| |lia]; cbn [Nat.eqb]; rewrite !Hat by (auto; lia); reflexivity.
Qed.

Lemma project_value_error (cam P : ten R) :
  project_points cam P = Err ValueError <-> ~ doc_shapes 4 P cam.
Proof.
  split.
  - intros H D. unfold project_points in H. rewrite check_mat_doc in H by (auto; lia). cbn [rbind] in H.
    destruct D as (d & n & cb & pb & Ep & Hd & Em & Hb).
    destruct (bshape pb cb) as [s|e] eqn:Es.
    + destruct (project_gen cam P d n cb pb s) as (out & Ho & _); auto.
      unfold project_points in Ho. rewrite check_mat_doc in Ho by (try lia; exists d, n, cb, pb; auto).
      cbn [rbind] in Ho. congruence.
    + destruct Hb as [->|[H1 H2]]; [cbn in Es; discriminate|].
      rewrite (apply_mat_err 4 P cam d n cb pb e) in H; auto; try lia.
      * pose proof (bshape_err _ _ _ Es). subst e. discriminate.
      * intros ->. destruct cb; discriminate.
  - intros H. unfold project_points. rewrite check_mat_not by (auto; lia). reflexivity.
Qed.

Lemma project_runtime_error (cam P : ten R) d n cb pb :
  dims P = 4 :: 4 :: pb -> dims cam = d :: n :: cb -> (d = 3 \/ d = 4) ->
  pb <> [] -> length pb = length cb -> last pb 0 = last cb 0 ->
  ~ Forall2 (fun x y => x = y \/ x = 1 \/ y = 1) pb cb ->
  project_points cam P = Err RuntimeError.
Proof.
  intros EP Ec Hd Hn Hl Hla Hf. unfold project_points.
  rewrite check_mat_doc; [|lia|exists d, n, cb, pb; split; [exact Ec|split; [lia|split; [exact EP|auto]]]]. cbn [rbind].
  destruct (bshape pb cb) as [s|e] eqn:Es.
  - exfalso. apply Hf. apply (proj1 (bshape_ok_iff pb cb Hl)). exists s. exact Es.
  - rewrite (apply_mat_err 4 P cam d n cb pb e); auto; try lia. cbn. f_equal. exact (bshape_err _ _ _ Es).
Qed.

(* -------------------------------------------------------------- unproject *)
Lemma unproject_gen (pix Ki dep : ten R) d n cb pb :
  dims Ki = 3 :: 3 :: pb -> dims pix = d :: n :: cb -> (d = 2 \/ d = 3) -> dims dep = n :: cb ->
  (pb = [] \/ (length pb = length cb /\ last pb 0 = last cb 0)) -> bshape pb cb = Ok cb ->
  exists out, unproject_points pix Ki dep = Ok out /\ dims out = 3 :: n :: cb /\
    forall i j r, i < 3 -> j < n -> vix cb r ->
      at_ out (i :: j :: r) =
        (mvec 3 (ent Ki (bix pb r)) (hom d (comp pix (j :: r))) i * at_ dep (j :: r))%R.
Proof.
  intros EK Ep Hd Ed Hb Hs. unfold unproject_points.
  rewrite check_mat_doc; [|lia|exists d, n, cb, pb; auto]. cbn [rbind].
  rewrite Ep, Ed. cbn [tl]. destruct (list_eq_dec Nat.eq_dec (n :: cb) (n :: cb)) as [_|C]; [|contradiction].
  cbn [guard rbind].
  destruct (apply_mat_ok 3 Ki pix d n cb pb cb) as (out & -> & Eo & Hat); auto; try lia.
  { destruct Hb as [|[? ?]]; [left|right]; assumption. }
  cbn [rbind]. unfold tmap2. rewrite Eo. cbn [unsqueeze_m1 dims]. rewrite Ed.
  assert (Hbs : bshape (3 :: n :: cb) (1 :: n :: cb) = Ok (3 :: n :: cb)).
  { rewrite bshape_cons, bshape_refl. reflexivity. }
  rewrite Hbs. cbn [rbind]. eexists. split; [reflexivity|]. split; [reflexivity|].
  intros i j r Hi Hj Hr. cbn [at_].
  change (bix (3 :: n :: cb) (i :: j :: r)) with (i :: bix (n :: cb) (j :: r)).
  change (bix (1 :: n :: cb) (i :: j :: r)) with (0 :: bix (n :: cb) (j :: r)).
  rewrite bix_refl by (split; assumption). rewrite Hat by auto. rewrite (bix_refl cb r) by exact Hr. reflexivity.
Qed.

Lemma unproject_value_error (pix Ki dep : ten R) :
  ~ doc_shapes 3 Ki pix \/ tl (dims pix) <> dims dep ->
  unproject_points pix Ki dep = Err ValueError.
Proof.
  intros H. unfold unproject_points.
  destruct (check_mat 3 Ki pix) as [[]|e] eqn:E.
  - cbn [rbind]. destruct H as [H|H]; [rewrite check_mat_not in E by (auto; lia); discriminate|].
    destruct (list_eq_dec Nat.eq_dec (tl (dims pix)) (dims dep)); [contradiction|reflexivity].
  - cbn. f_equal.
    (* every error of check_mat is a ValueError *)
    assert (HD : ~ doc_shapes 3 Ki pix) by (intros D; rewrite check_mat_doc in E by (auto; lia); discriminate).
    rewrite check_mat_not in E by (auto; lia). congruence.
Qed.
