(* get_alpha and the merging half of fuse_with_map (C36, C41). *)
From Coq Require Import Reals List Arith Bool ZArith Lia Lra Sorting.Sorted.
From Verif Require Import Res Fld StructUtilsModel StructUtilsSpec StructUtilsProofs PointcloudsModel PointcloudsSpec
  PointcloudsCtorSpec PointcloudsSetSpec PointcloudsIndexSpec PointcloudsHist PointcloudsProofs PointcloudsOps
  PointcloudsSet PointcloudsClone PointcloudsAppend PointcloudsHistProofs PointcloudsPropProofs
  MatSpec GeomSpec TensorModel TensorProofs GeomModel GeomProofs GeomPtsProofs RgbdModel RgbdSpec RgbdProofs RgbdCloud FusionModel FusionSpec FusionMap FusionActive FusionSimilar.
Import ListNotations.
Local Open Scope nat_scope.

(* ---------------- alpha *)
Lemma dot_sq_nonneg v : (0 <= dot 3 v v)%R.
Proof.
  unfold dot. cbn [rsum]. pose proof (Rle_0_sqr (v 0%nat)). pose proof (Rle_0_sqr (v 1%nat)). pose proof (Rle_0_sqr (v 2%nat)).
  unfold Rsqr in *. lra.
Qed.
Lemma norm_sq v : ((norm 3 v) ^ 2 = rsum 3 (fun k => v k ^ 2))%R.
Proof.
  unfold norm. replace (sqrt (dot 3 v v) ^ 2)%R with (sqrt (dot 3 v v) * sqrt (dot 3 v v))%R by ring.
  rewrite sqrt_sqrt by apply dot_sq_nonneg. unfold dot. cbn [rsum]. ring.
Qed.
Lemma gauss_le1 sigma x : sigma <> 0%R -> (0 <= x)%R -> (exp (- x / (2 * sigma ^ 2)) <= 1)%R.
Proof.
  intros Hs Hx. rewrite <- exp_0.
  assert (H : (- x / (2 * sigma ^ 2) <= 0)%R).
  { unfold Rdiv. assert (0 < / (2 * sigma ^ 2))%R. { apply Rinv_0_lt_compat. assert (0 < sigma ^ 2)%R by (replace (sigma ^ 2)%R with (sigma * sigma)%R by ring; destruct (Rlt_or_le 0 sigma); nra). lra. }
    nra. }
  destruct (Rle_lt_or_eq_dec _ _ H) as [Hl| ->]; [|lra]. left. apply exp_increasing. exact Hl.
Qed.
Lemma alpha_ok sigma v : sigma <> 0%R -> alpha_of sigma eps7 v = alpha_spec sigma v.
Proof.
  intros Hs. unfold alpha_of, alpha_spec, clampR, eps7. rewrite <- norm_sq. apply Rmin_left.
  pose proof (gauss_le1 sigma (norm 3 v ^ 2) Hs (pow2_ge_0 _)).
  apply Rmax_lub; lra.
Qed.
Lemma alpha_pos sigma v : (0 < alpha_spec sigma v)%R.
Proof. unfold alpha_spec. eapply Rlt_le_trans; [|apply Rmax_r]. lra. Qed.
Lemma alpha_of_ext sigma eps u v : (forall k, k < 3 -> u k = v k) -> alpha_of sigma eps u = alpha_of sigma eps v.
Proof. intros H. unfold alpha_of. cbn [rsum]. rewrite !H by lia. reflexivity. Qed.

Definition alphaf sigma fr (b l h w c : nat) : R := alpha_spec sigma (vertex fr b l h w).
Lemma alpha_img fr v sigma : sigma <> 0%R -> Image false fr 3 v (vertex fr) ->
  exists al, get_alpha v (SigNum sigma) 4 true eps7 = Ok al /\ Image false fr 1 al (alphaf sigma fr).
Proof.
  intros Hs Hv. unfold get_alpha. cbn [guard rbind]. unfold dim_pos, ndim. rewrite (img_dims _ _ _ _ _ Hv).
  cbn [length Nat.add]. cbn. eexists. split; [reflexivity|]. split; [reflexivity|].
  intros b l h w c Hin Hc. cbn. unfold alphaf. rewrite <- alpha_ok by exact Hs. apply alpha_of_ext. intros k Hk.
  destruct Hv as [_ Hv]. apply (Hv b l h w k Hin Hk).
Qed.

(* ---------------- tensors given by their entries *)
Definition Tab (B N w : nat) (t : t3 R) (f : nat -> nat -> nat -> R) : Prop :=
  t3b t = B /\ t3n t = N /\ t3c t = w /\ forall b n c, b < B -> n < N -> c < w -> get3 RF t b n c = f b n c.
Lemma Tab_tab3 B N w g : Tab B N w (tab3 RF B N w g) g.
Proof. split; [apply tab_b|]. split; [reflexivity|]. split; [reflexivity|]. intros. now apply (get3_tab3 RF). Qed.
Lemma Tab_ext B N w t f g : Tab B N w t f -> (forall b n c, b < B -> n < N -> c < w -> f b n c = g b n c) -> Tab B N w t g.
Proof. intros (H1 & H2 & H3 & H4) H. repeat (split; [assumption|]). intros. rewrite H4 by assumption. now apply H. Qed.
Definition chan (w c : nat) : nat := if w =? 1 then 0 else c.
Lemma zip_tab h B N wx wy w x y fx fy : Tab B N wx x fx -> Tab B N wy y fy -> bext wx wy = Some w -> 
  exists t, zip3 h x y = Ok t /\ Tab B N w t (fun b n c => h (fx b n (chan wx c)) (fy b n (chan wy c))) /\
    exists g, t = tab3 RF B N w g.
Proof.
  intros (X1 & X2 & X3 & X4) (Y1 & Y2 & Y3 & Y4) Hw. unfold zip3. rewrite X1, X2, X3, Y1, Y2, Y3, !Nat.eqb_refl. cbn [andb negb].
  rewrite Hw. eexists. split; [reflexivity|]. split; [|eexists; reflexivity]. eapply Tab_ext; [apply Tab_tab3|].
  intros b n c Hb Hn Hc. cbv beta. unfold bext in Hw. unfold bidx, chan.
  destruct (Nat.eqb_spec wx wy).
  - injection Hw as <-. rewrite X4, Y4; auto; repeat match goal with |- context [?q =? 1] => destruct (Nat.eqb_spec q 1) end; lia.
  - destruct (Nat.eqb_spec wx 1).
    + injection Hw as <-. rewrite X4, Y4; auto; repeat match goal with |- context [?q =? 1] => destruct (Nat.eqb_spec q 1) end; lia.
    + destruct (Nat.eqb_spec wy 1); [|discriminate]. injection Hw as <-. rewrite X4, Y4; auto; lia.
Qed.
Lemma recip_tab B N w x f : Tab B N w x f -> Tab B N w (safe_recip x) (fun b n c => (1 / (if Req_EM_T (f b n c) 0 then 1 else f b n c))%R).
Proof.
  intros (X1 & X2 & X3 & X4). unfold safe_recip. rewrite X1, X2, X3. eapply Tab_ext; [apply Tab_tab3|].
  intros b n c Hb Hn Hc. cbv beta zeta. rewrite X4 by assumption. reflexivity.
Qed.

(* clouds given by their entries *)
Definition build (B : nat) (cnt : nat -> nat) (w : nat) (m : nat -> nat -> nat -> R) : list (t2 R) :=
  map (fun b => mkT2 w (map (fun n => map (fun c => m b n c) (seq 0 w)) (seq 0 (cnt b)))) (seq 0 B).
Lemma repeat_map {X Y} (f : X -> Y) l y : (forall x, In x l -> f x = y) -> map f l = repeat y (length l).
Proof. induction l as [|x l IH]; cbn; intros H; [reflexivity|]. rewrite (H x) by auto. rewrite IH by auto. reflexivity. Qed.
Lemma build_pad B N w cnt m g :
  (forall b, b < B -> cnt b <= N) ->
  (forall b n c, b < B -> n < N -> c < w -> g b n c = if n <? cnt b then m b n c else 0%R) ->
  tab3 RF B N w g = pad_to RF N w (build B cnt w m).
Proof.
  intros Hc Hg. unfold tab3, pad_to, build. f_equal. rewrite map_map. apply map_ext_in. intros b Hb. apply in_seq in Hb.
  cbn [t2r]. rewrite map_length, seq_length.
  replace (seq 0 N) with (seq 0 (cnt b) ++ seq (cnt b) (N - cnt b)).
  2:{ rewrite <- seq_app. f_equal. specialize (Hc b). lia. }
  rewrite map_app. f_equal.
  - apply map_ext_in. intros n Hn. apply in_seq in Hn. apply map_ext_in. intros c Hcc. apply in_seq in Hcc.
    specialize (Hc b). rewrite Hg by lia. destruct (Nat.ltb_spec n (cnt b)); [reflexivity|lia].
  - rewrite <- (seq_length (N - cnt b) (cnt b)) at 2. apply repeat_map. intros n Hn. apply in_seq in Hn.
    rewrite <- (seq_length w 0) at 2. apply repeat_map. intros c Hcc. apply in_seq in Hcc.
    rewrite Hg by lia. destruct (Nat.ltb_spec n (cnt b)); [lia|reflexivity].
Qed.
Lemma build_counts B cnt w m : counts_of RF (build B cnt w m) = map cnt (seq 0 B).
Proof. unfold counts_of, build. rewrite map_map. apply map_ext. intros b. cbn [t2r]. now rewrite map_length, seq_length. Qed.
Lemma build_wid B cnt w m : Forall (fun y => t2c y = w /\ Forall (fun r => length r = w) (t2r y)) (build B cnt w m).
Proof.
  unfold build. apply Forall_map, Forall_forall. intros b _. split; [reflexivity|]. cbn [t2r].
  apply Forall_map, Forall_forall. intros n _. now rewrite map_length, seq_length.
Qed.
Lemma build_row B cnt w m b n : b < B -> n < cnt b -> row_at (build B cnt w m) b n = map (m b n) (seq 0 w).
Proof.
  intros Hb Hn. unfold row_at, build. rewrite (nth_map' _ (seq 0 B) b _ 0) by (rewrite seq_length; exact Hb).
  rewrite seq_nth by exact Hb. cbn [t2r Nat.add]. rewrite (nth_map' _ (seq 0 (cnt b)) n _ 0) by (rewrite seq_length; exact Hn).
  rewrite seq_nth by exact Hn. reflexivity.
Qed.
Lemma nth_map_seq' (f : nat -> R) w c : c < w -> nth c (map f (seq 0 w)) 0%R = f c.
Proof. apply (nth_map_seq f). Qed.
Lemma counts_np P a : valid_batch RF P a -> counts_of RF P = map (npoints a) (seq 0 (length P)).
Proof.
  intros Hv. apply (nth_ext _ _ 0 0); [unfold counts_of; now rewrite !map_length, seq_length|].
  intros k Hk. unfold counts_of in Hk. rewrite map_length in Hk. rewrite (nth_map_seq (npoints a)) by exact Hk.
  unfold counts_of. rewrite (nth_map' _ P k 0 (mkT2 0 [])) by exact Hk. symmetry. apply (np_eq P a Hv).
Qed.

(* ---------------- merging *)
(* entry c of attribute x of point n of cloud b after merging *)
Definition merged_at (a : batch RF) (fr : frames) (sigma : R) (rows : list row) (x : attr) (b n c : nat) : R :=
  match last_row rows b n with
  | Some r =>
      let al := frame_alpha sigma fr b (rh r) (rw r) in
      match x with
      | Features => (conf a b n + al)%R
      | _ => wmean (conf a b n) (attr_at a x b n c) al (frame_attr fr x b (rh r) (rw r) c)
      end
  | None =>
      match rows, x with
      | [], _ | _, Features => attr_at a x b n c
      | _, _ => if Req_EM_T (conf a b n) 0 then 0%R else attr_at a x b n c
      end
  end.
Definition merged_list (a : batch RF) (fr : frames) (sigma : R) (rows : list row) (x : attr) : list (t2 R) :=
  build (len_view RF a) (npoints a) (wd x) (merged_at a fr sigma rows x).
Definition merged (a : batch RF) (fr : frames) (sigma : R) (rows : list row) : batch RF :=
  let L x := Some (merged_list a fr sigma rows x : list (t2 RF)) in mkQ (L Points) (L Normals) (L Colors) (L Features).

Lemma merged_valid P a fr sigma rows : valid_batch RF P a -> valid_batch RF (merged_list a fr sigma rows Points) (merged a fr sigma rows).
Proof.
  intros Hv. pose proof (len_P P a Hv) as HlP. pose proof (valid_ne _ _ _ Hv) as Hne.
  assert (HB : 0 < len_view RF a) by (rewrite HlP; destruct P; [congruence|cbn; lia]).
  split; [reflexivity|]. split; [unfold merged_list, build; destruct (len_view RF a); [lia|discriminate]|].
  intros x L HL.
  assert (EL : L = merged_list a fr sigma rows x) by (destruct x; cbn in HL; injection HL as <-; reflexivity).
  subst L. unfold merged_list at 1 2. rewrite !build_counts. split; [reflexivity|].
  replace (width RF (merged a fr sigma rows) x) with (wd x); [apply build_wid|].
  destruct x; try reflexivity. cbn [width merged qf wd]. unfold merged_list, build.
  destruct (len_view RF a); [lia|reflexivity].
Qed.

Lemma set_ok x a s P L w v : Ready a s \/ Hist RF s a -> qp a = Some P -> qget x a <> None -> fits_clouds RF P x w L ->
  v = pad_to RF (biggest (counts_of RF P)) w L ->
  exists s', set_padded RF x (SP RF (AT3 RF v)) s = (Ok tt, s') /\ Hist RF s' (qset x (Some L) a).
Proof.
  intros H HP Hx Hf ->. assert (Hh : Hist RF s a) by (destruct H as [[H _]|H]; exact H).
  destruct (p_call RF (SetPadded RF x (SP RF (AT3 RF (pad_to RF (biggest (counts_of RF P)) w L)))) s a (qset x (Some L) a) Hh) as (s' & E & H' & _).
  - cbn [Means]. exists P, L. split; [exact HP|]. split; [exists w; split; [exact Hf|reflexivity]|]. split; [exact Hx|reflexivity].
  - exists s'. split; [exact E|exact H'].
Qed.

Lemma merge_ok s a g fr sigma P rows vm nm rgb al :
  Ready a s -> qp a = Some P -> full_map a -> fL fr = 1 -> fB fr = len_view RF a -> sigma <> 0%R ->
  Image false fr 3 vm (global_vertex fr) -> Image false fr 3 nm (global_normal fr) -> Image false fr 3 rgb (frgb fr) ->
  Image false fr 1 al (alphaf sigma fr) ->
  Forall (in_map a) rows -> Forall (in_image fr) rows -> rows <> [] ->
  exists s', merge_points vm nm rgb al rows (s, g) = (Ok tt, (s', g)) /\ Hist RF s' (merged a fr sigma rows).
Proof.
  intros HR HP (Hall & Hw & Hpos) HL HB Hs Hvm Hnm Hrgb Hal HM HF Hrne.
  pose proof (batch_valid s a P (proj1 HR) HP) as Hv. pose proof (len_P P a Hv) as HlP.
  destruct (qn a) as [LN|] eqn:EN; [|exfalso; apply (Hall Normals); exact EN].
  destruct (qc a) as [LC|] eqn:EC; [|exfalso; apply (Hall Colors); exact EC].
  destruct (qf a) as [LF|] eqn:EF; [|exfalso; apply (Hall Features); exact EF].
  unfold merge_points.
  destruct (rd_padded a s HR Points) as (s1 & E1 & HR1). rewrite (mb_ok _ _ _ _ _ (onp_ok _ s g _ _ E1)).
  destruct (rd_padded a s1 HR1 Normals) as (s2 & E2 & HR2). rewrite (mb_ok _ _ _ _ _ (onp_ok _ s1 g _ _ E2)).
  destruct (rd_padded a s2 HR2 Colors) as (s3 & E3 & HR3). rewrite (mb_ok _ _ _ _ _ (onp_ok _ s2 g _ _ E3)).
  destruct (rd_padded a s3 HR3 Features) as (s4 & E4 & HR4). rewrite (mb_ok _ _ _ _ _ (onp_ok _ s3 g _ _ E4)).
  rewrite (padded_some RF P a Points P Hv HP), (padded_some RF P a Normals LN Hv EN), (padded_some RF P a Colors LC Hv EC), (padded_some RF P a Features LF Hv EF).
  rewrite Hw. cbn [width].
  set (N := biggest (counts_of RF P)). set (B := length P).
  assert (HIN : Forall (fun r => rb r < B /\ rn r < N) rows).
  { rewrite Forall_forall in *. intros r Hr. apply (real_in_pad P a r Hv (HM r Hr)). }
  assert (TP : forall x L, qget x a = Some L -> Tab B N (width RF a x) (pad_to RF N (width RF a x) L)
      (fun b n c => if n <? npoints a b then attr_at a x b n c else 0%R)).
  { intros x L HX. pose proof (valid_len _ _ _ x _ Hv HX) as Hlen. split; [rewrite pad_b; exact Hlen|]. split; [reflexivity|]. split; [reflexivity|].
    intros b n c Hb Hn Hc. exact (padded_entry P a Hv x L b n c HX Hb Hn Hc). }
  assert (TF : forall x L C w (t : ten R) f, qget x a = Some L -> Image false fr C t f -> C = w \/ C = 1 ->
     exists u, scatter (pad_to RF N w L) t rows = Ok u /\ Tab B N w u (fun b n c => match last_row rows b n with
       | Some r => f (rb r) 0 (rh r) (rw r) (if C =? 1 then 0 else c) | None => 0%R end)).
  { intros x L C w t f HX HI HC. pose proof (valid_len _ _ _ x _ Hv HX) as Hlen.
    destruct (scatter_ok fr N w L C t f rows HI HL HF) as (gg & Eg & Hg); [rewrite Hlen; exact HIN|exact HC|].
    eexists. split; [exact Eg|]. rewrite Hlen. eapply Tab_ext; [apply Tab_tab3|]. intros. now apply Hg. }
  destruct (TF Points P 3 3 vm (global_vertex fr) HP Hvm (or_introl eq_refl)) as (f1 & Ef1 & T1). rewrite (mb_lift _ _ _ _ Ef1).
  destruct (TF Normals LN 3 3 nm (global_normal fr) EN Hnm (or_introl eq_refl)) as (f2 & Ef2 & T2). rewrite (mb_lift _ _ _ _ Ef2).
  destruct (TF Colors LC 3 3 rgb (frgb fr) EC Hrgb (or_introl eq_refl)) as (f3 & Ef3 & T3). rewrite (mb_lift _ _ _ _ Ef3).
  destruct (TF Features LF 1 1 al (alphaf sigma fr) EF Hal (or_introl eq_refl)) as (fa & Efa & Ta). rewrite (mb_lift _ _ _ _ Efa).
  pose proof (TP Points P HP) as P1. pose proof (TP Normals LN EN) as P2. pose proof (TP Colors LC EC) as P3. pose proof (TP Features LF EF) as P4.
  rewrite Hw in P4. cbn [width] in P1, P2, P3. clear TP TF.
  destruct (zip_tab Rplus B N 1 1 1 _ _ _ _ P4 Ta eq_refl) as (cs & Ecs & Tcs & (gc & Hcs)). rewrite (mb_lift _ _ _ _ Ecs).
  assert (TW : forall pp fp u v, Tab B N 3 pp u -> Tab B N 3 fp v ->
    exists y, weighted (pad_to RF N 1 LF) fa pp fp = Ok y /\ Tab B N 3 y (fun b n c =>
      ((if n <? npoints a b then conf a b n else 0) * u b n c + (match last_row rows b n with Some r => alphaf sigma fr (rb r) 0 (rh r) (rw r) 0 | None => 0 end) * v b n c)%R)).
  { intros pp fp u v Hu Hv'. unfold weighted.
    destruct (zip_tab Rmult B N 1 3 3 _ _ _ _ P4 Hu eq_refl) as (y1 & F1 & Y1 & _). rewrite F1. cbn [rbind].
    destruct (zip_tab Rmult B N 1 3 3 _ _ _ _ Ta Hv' eq_refl) as (y2 & F2 & Y2 & _). rewrite F2. cbn [rbind].
    destruct (zip_tab Rplus B N 3 3 3 _ _ _ _ Y1 Y2 eq_refl) as (y3 & F3 & Y3 & _). rewrite F3.
    exists y3. split; [reflexivity|]. exact Y3. }
  destruct (TW _ _ _ _ P1 T1) as (u1 & Eu1 & U1). rewrite (mb_lift _ _ _ _ Eu1).
  destruct (TW _ _ _ _ P2 T2) as (u2 & Eu2 & U2). rewrite (mb_lift _ _ _ _ Eu2).
  destruct (TW _ _ _ _ P3 T3) as (u3 & Eu3 & U3). rewrite (mb_lift _ _ _ _ Eu3).
  cbv zeta. pose proof (recip_tab _ _ _ _ _ Tcs) as TI. clear TW.
  destruct (zip_tab Rmult B N 3 1 3 _ _ _ _ U1 TI eq_refl) as (v1 & Ev1 & V1 & (g1 & Hg1)).
  destruct (zip_tab Rmult B N 3 1 3 _ _ _ _ U2 TI eq_refl) as (v2 & Ev2 & V2 & (g2 & Hg2)).
  destruct (zip_tab Rmult B N 3 1 3 _ _ _ _ U3 TI eq_refl) as (v3 & Ev3 & V3 & (g3 & Hg3)).
  (* the padding is untouched *)
  assert (HNO : forall b n, b < B -> n <? npoints a b = false -> last_row rows b n = None).
  { intros b n Hb Hn. destruct (last_row rows b n) as [r|] eqn:E; [|reflexivity]. exfalso.
    destruct (last_row_in _ _ _ _ E) as (Hr & Eb & En). rewrite Forall_forall in HM. destruct (HM r Hr) as [_ Hlt].
    rewrite Eb, En in Hlt. apply Nat.ltb_ge in Hn. lia. }
  assert (HCNT : forall b, b < B -> npoints a b <= N) by (intros b Hb; apply (np_le P a Hv); exact Hb).
  (* value of the merged attribute, in the form computed *)
  assert (HV : forall x pv fv b n c, b < B -> n < N -> c < 3 ->
     x <> Features -> pv = attr_at a x b n c -> (forall r, last_row rows b n = Some r -> fv r = frame_attr fr x b (rh r) (rw r) c) ->
     (((if n <? npoints a b then conf a b n else 0) * (if n <? npoints a b then pv else 0) +
       (match last_row rows b n with Some r => alphaf sigma fr (rb r) 0 (rh r) (rw r) 0 | None => 0 end) *
       (match last_row rows b n with Some r => fv r | None => 0 end)) *
      (1 / (if Req_EM_T ((if n <? npoints a b then attr_at a Features b n 0%nat else 0) + match last_row rows b n with Some r => alphaf sigma fr (rb r) 0 (rh r) (rw r) 0 | None => 0 end) 0 then 1
            else ((if n <? npoints a b then attr_at a Features b n 0%nat else 0) + match last_row rows b n with Some r => alphaf sigma fr (rb r) 0 (rh r) (rw r) 0 | None => 0 end))))%R
     = if n <? npoints a b then merged_at a fr sigma rows x b n c else 0%R).
  { intros x pv fv b n c Hb Hn Hc Hx -> Hfv. destruct (n <? npoints a b) eqn:El.
    - assert (Hc0 : (0 <= conf a b n)%R).
      { apply Hpos. split; [rewrite HlP; exact Hb|]. apply Nat.ltb_lt. exact El. }
      unfold merged_at. change (attr_at a Features b n 0) with (conf a b n). destruct (last_row rows b n) as [r|] eqn:E.
      + destruct (last_row_in _ _ _ _ E) as (_ & Eb & _). rewrite Eb. rewrite (Hfv r eq_refl).
        unfold alphaf. fold (frame_alpha sigma fr b (rh r) (rw r)).
        pose proof (alpha_pos sigma (vertex fr b 0 (rh r) (rw r))) as Ha. fold (frame_alpha sigma fr b (rh r) (rw r)) in Ha.
        destruct (Req_EM_T _ 0) as [Z|_]; [lra|]. destruct x; try congruence; unfold wmean, Rdiv; rewrite Rmult_1_l; reflexivity.
      + destruct rows as [|r0 rows0]; [congruence|]. rewrite Rplus_0_r.
        destruct (Req_EM_T (conf a b n) 0) as [Z|Z].
        * rewrite Z. destruct x; try congruence; ring.
        * destruct x; try congruence; field; exact Z.
    - rewrite (HNO b n Hb El). destruct (Req_EM_T _ 0) as [_|Z]; [|exfalso; apply Z; ring]. ring. }
  (* lists *)
  assert (HG : forall x g0 pv fv, x <> Features -> 
     Tab B N 3 (tab3 RF B N 3 g0) (fun b n c =>
       ((fun b n c => ((if n <? npoints a b then conf a b n else 0) * (if n <? npoints a b then pv b n c else 0) +
         (match last_row rows b n with Some r => alphaf sigma fr (rb r) 0 (rh r) (rw r) 0 | None => 0 end) *
         (match last_row rows b n with Some r => fv b n c r | None => 0 end))) b n (chan 3 c) *
        (fun b n c => (1 / (if Req_EM_T ((if n <? npoints a b then attr_at a Features b n (chan 1 c) else 0) + match last_row rows b n with Some r => alphaf sigma fr (rb r) 0 (rh r) (rw r) 0 | None => 0 end) 0 then 1
            else ((if n <? npoints a b then attr_at a Features b n (chan 1 c) else 0) + match last_row rows b n with Some r => alphaf sigma fr (rb r) 0 (rh r) (rw r) 0 | None => 0 end)))) b n (chan 1 c))%R) ->
     (forall b n c, pv b n c = attr_at a x b n c) ->
     (forall b n c r, last_row rows b n = Some r -> fv b n c r = frame_attr fr x b (rh r) (rw r) c) ->
     tab3 RF B N 3 g0 = pad_to RF N 3 (merged_list a fr sigma rows x)).
  { intros x g0 pv fv Hx HT Hp Hf. unfold merged_list. rewrite HlP. replace (wd x) with 3 by (destruct x; congruence || reflexivity).
    apply build_pad; [exact HCNT|]. intros b n c Hb Hn Hc.
    destruct HT as (_ & _ & _ & HT). rewrite <- (get3_tab3 RF B N 3 g0 b n c Hb Hn Hc). refine (eq_trans (HT b n c Hb Hn Hc) _). clear HT. cbv beta.
    apply (HV x (pv b n c) (fun r => fv b n c r) b n c Hb Hn Hc Hx); [apply Hp|]. intros r Hr. now apply Hf. }
  assert (G1 : v1 = pad_to RF N 3 (merged_list a fr sigma rows Points)).
  { subst v1. refine (HG Points g1 (attr_at a Points) (fun b n c r => global_vertex fr (rb r) 0 (rh r) (rw r) c) _ V1 _ _); [discriminate|reflexivity|]. intros b n c r E. destruct (last_row_in _ _ _ _ E) as (_ & Eb & _). rewrite Eb. reflexivity. }
  assert (G2 : v2 = pad_to RF N 3 (merged_list a fr sigma rows Normals)).
  { subst v2. refine (HG Normals g2 (attr_at a Normals) (fun b n c r => global_normal fr (rb r) 0 (rh r) (rw r) c) _ V2 _ _); [discriminate|reflexivity|]. intros b n c r E. destruct (last_row_in _ _ _ _ E) as (_ & Eb & _). rewrite Eb. reflexivity. }
  assert (G3 : v3 = pad_to RF N 3 (merged_list a fr sigma rows Colors)).
  { subst v3. refine (HG Colors g3 (attr_at a Colors) (fun b n c r => frgb fr (rb r) 0 (rh r) (rw r) c) _ V3 _ _); [discriminate|reflexivity|]. intros b n c r E. destruct (last_row_in _ _ _ _ E) as (_ & Eb & _). rewrite Eb. reflexivity. }
  assert (G4 : cs = pad_to RF N 1 (merged_list a fr sigma rows Features)).
  { subst cs. unfold merged_list. rewrite HlP. apply build_pad; [exact HCNT|]. intros b n c Hb Hn Hc.
    destruct Tcs as (_ & _ & _ & HT). rewrite <- (get3_tab3 RF B N 1 gc b n c Hb Hn Hc). refine (eq_trans (HT b n c Hb Hn Hc) _). clear HT.
    replace c with 0 by (cbn in Hc; lia). unfold chan. cbn [Nat.eqb]. unfold merged_at. destruct (n <? npoints a b) eqn:El.
    - destruct (last_row rows b n) as [r|] eqn:E; [|destruct rows; [congruence|exact (Rplus_0_r _)]]. destruct (last_row_in _ _ _ _ E) as (_ & Eb & _). rewrite Eb. reflexivity.
    - rewrite (HNO b n Hb El). exact (Rplus_0_r _). }
  clear HG HV V1 V2 V3 U1 U2 U3 Tcs TI Hg1 Hg2 Hg3 Hcs.
  (* the four assignments *)
  assert (CNT : forall x, counts_of RF (merged_list a fr sigma rows x) = counts_of RF P).
  { intros x. unfold merged_list. rewrite build_counts, HlP. symmetry. apply (counts_np P a Hv). }
  assert (FC : forall x P', counts_of RF P' = counts_of RF P -> fits_clouds RF P' x (wd x) (merged_list a fr sigma rows x)).
  { intros x P' Hc'. split; [rewrite CNT, Hc'; reflexivity|]. split; [apply build_wid|]. intros Hx. destruct x; reflexivity || congruence. }
  rewrite (mb_lift _ _ _ _ Ev1). rewrite G1. 
  destruct (set_ok Points a s4 P _ 3 _ (or_introl HR4) HP (Hall Points) (FC Points P eq_refl) eq_refl) as (s5 & E5 & H5).
  rewrite (mb_ok _ _ _ _ _ (onp_ok _ s4 g _ _ E5)).
  rewrite (mb_lift _ _ _ _ Ev2). rewrite G2.
  assert (NE : biggest (counts_of RF (merged_list a fr sigma rows Points)) = N) by (rewrite CNT; reflexivity).
  destruct (set_ok Normals _ s5 (merged_list a fr sigma rows Points) (merged_list a fr sigma rows Normals) 3 (pad_to RF N 3 (merged_list a fr sigma rows Normals)) (or_intror H5) eq_refl) as (s6 & E6 & H6); [exact (Hall Normals)|exact (FC Normals _ (CNT Points))|rewrite NE; reflexivity|].
  rewrite (mb_ok _ _ _ _ _ (onp_ok _ s5 g _ _ E6)).
  rewrite (mb_lift _ _ _ _ Ev3). rewrite G3.
  destruct (set_ok Colors _ s6 (merged_list a fr sigma rows Points) (merged_list a fr sigma rows Colors) 3 (pad_to RF N 3 (merged_list a fr sigma rows Colors)) (or_intror H6) eq_refl) as (s7 & E7 & H7); [exact (Hall Colors)|exact (FC Colors _ (CNT Points))|rewrite NE; reflexivity|].
  rewrite (mb_ok _ _ _ _ _ (onp_ok _ s6 g _ _ E7)). rewrite G4.
  destruct (set_ok Features _ s7 (merged_list a fr sigma rows Points) (merged_list a fr sigma rows Features) 1 (pad_to RF N 1 (merged_list a fr sigma rows Features)) (or_intror H7) eq_refl) as (s8 & E8 & H8); [exact (Hall Features)|exact (FC Features _ (CNT Points))|rewrite NE; reflexivity|].
  exists s8. split; [exact (onp_ok _ s7 g _ _ E8)|]. exact H8.
Qed.
